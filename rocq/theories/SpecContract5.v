(** * create_enclave for every identifier and every number of mailboxes.

    SpecContract2.v describes the call for identifiers in the first stripe of a region
    and sizes that do not wrap around; here is what the code does with all of them. *)
From Coq Require Import NArith Bool List.
From Verif Require Import Word Machine ModelInl ModelApi SpecGeometry SpecMonitor SpecMetadata
  SpecContract SpecContract2.
Open Scope N_scope.

(** The number of pages the code computes: the size, and the size rounded up, wrap around. *)
Definition used_pages (regions mailboxes : N) : N :=
  (record_bytes regions mailboxes mod 2 ^ 64 + 4095) mod 2 ^ 64 / 4096.
Definition entry_used (pb rb : N) (s : state) (a j : N) : N :=
  word s (entry_at pb rb a + 8 * j).
(** The checks, in order. *)
Definition create_enclave_outcome (G : globals) (pb rb : N) (s : state) (id base mask mc v : N) : Prop :=
  let k := used_pages (g_dram_region_count G) mc in
  let m := meta_code G pb rb s id in
  (~ enclave_range_ok base mask /\ v = 1) \/
  (enclave_range_ok base mask /\ m <> 0 /\ v = m) \/
  (enclave_range_ok base mask /\ m = 0 /\ 2 ^ pb < page_of pb id + k /\ v = 1) \/
  (enclave_range_ok base mask /\ m = 0 /\ page_of pb id + k <= 2 ^ pb /\
   (exists j, j < k /\ entry_used pb rb s id j <> 0) /\ v = 2) \/
  (enclave_range_ok base mask /\ m = 0 /\ page_of pb id + k <= 2 ^ pb /\
   (forall j, j < k -> entry_used pb rb s id j = 0) /\ v = 0).
(** The entries afterwards: of one page (or none), that of the enclave; of [k] pages, the
    inner type in all but the last, which stays free. *)
Definition entries_after (pb rb : N) (s : state) (id k : N) : Prop :=
  (k <= 1 -> entry_used pb rb s id 0 = enclave_entry id) /\
  (2 <= k -> (forall j, j < k - 1 -> entry_used pb rb s id j = 1) /\
             entry_used pb rb s id (k - 1) = 0).
(** The entries do not overlap the record. *)
Definition entries_apart (pb rb id k : N) : Prop :=
  entry_at pb rb id + 8 * N.max 1 k <= id \/ id + 304 <= entry_at pb rb id.
