(** * Metadata regions: where the map entry of a page is and how large the
    structures are (src/monitor/metadata.h:8-20, enclave.h:56-60), stated without
    the monitor's helpers. *)
From Coq Require Import NArith List.
From Verif Require Import Word Machine ModelInl ModelApi SpecGeometry SpecMonitor SpecHistory.
Import ListNotations.
Open Scope N_scope.

(** Index of the page of address [a] in its stripe of 2^pb pages. *)
Definition page_of (pb a : N) : N := (a / 4096) mod 2 ^ pb.

(** The map is an array of 8-byte entries at the start of the region; entry [i]
    is that of page [i] (pages of the first stripe). *)
Definition map_entry (pb rb a : N) : N :=
  stripe_start pb rb (region_of pb rb a) 0 + 8 * page_of pb a.
Definition entry_of (pb rb : N) (s : state) (a : N) : N :=
  ld 8 (s_mem s) (map_entry pb rb a).

(** The address lies in the first stripe of its region. *)
Definition first_stripe (pb rb a : N) : Prop := a < 2 ^ (12 + pb + rb).
(** ... on a page after those that hold the map. *)
Definition usable (G : globals) (pb a : N) : Prop :=
  g_metadata_region_start G <= page_of pb a.

(** An enclave record: 304 bytes, a bit for each region (in 64-bit words), and
    304 bytes for each mailbox. *)
Definition record_bytes (regions mailboxes : N) : N :=
  304 + 8 * ((regions + 63) / 64) + 304 * mailboxes.
Definition record_pages (regions mailboxes : N) : N :=
  (record_bytes regions mailboxes + 4095) / 4096.

(** The entry of the first page of an enclave record holds the enclave id and the
    type 2 in its lowest bits (metadata.h:44-53). *)
Definition enclave_entry (id : N) : N := id + 2.

(** The enclave's region bitmap follows the 304 bytes. *)
Definition enclave_bit (s : state) (id r : N) : bool :=
  N.testbit (ld 8 (s_mem s) (id + 304 + 8 * (r / 64))) (r mod 64).

(** The documented fields of an enclave record (enclave.h:60-104). *)
Record enclave_fields (s : state) (id base mask mailboxes : N) (debug : bool) : Prop :=
mkFields {
  ef_unlocked : ld 8 (s_mem s) id = 0;
  ef_mailboxes : ld 8 (s_mem s) (id + 8) = mailboxes;
  ef_not_initialized : ld 8 (s_mem s) (id + 16) = 0;
  ef_debug : ld 8 (s_mem s) (id + 24) = if debug then 1 else 0;
  ef_threads : ld 8 (s_mem s) (id + 32) = 0;
  ef_regions : ld 8 (s_mem s) (id + 40) = 0;
  ef_base : ld 8 (s_mem s) (id + 48) = base;
  ef_mask : ld 8 (s_mem s) (id + 56) = mask;
  ef_eptbr : ld 8 (s_mem s) (id + 64) = 0;
  ef_last : ld 8 (s_mem s) (id + 72) = 0 }.

(** An event that leaves the structures of metadata region [r] alone: the region
    is not freed, nothing is stored to it behind the monitor's back, enclaves
    are placed only where the documentation allows, on usable pages of the first
    stripe (create_enclave itself enforces neither, see C40), and accept_thread, which
    writes to unchecked addresses (C78), is not called. *)
Definition undisturbed (G : globals) (pb rb r : N) (x : event * N) : Prop :=
  match x with
  | (ECall _ (CFree r'), 0) => r' <> r
  | (ECall _ (CCreateEnclave id _ _ _ _), 0) => first_stripe pb rb id /\ usable G pb id
  | (ECall _ (CAcceptThread _ _), _) => False
  | (EStore _ a _, _) | (EDma a _, _) => region_of pb rb a <> r
  | _ => True
  end.
