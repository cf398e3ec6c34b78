(** * Exact effects of the debug copy and of delete_enclave, over every machine state.

    SpecContract.v describes both calls where they leave the monitor's own memory
    alone.  Here is what they do in all cases, in terms of the words of memory. *)
From Coq Require Import NArith Bool List.
From Verif Require Import Word Machine ModelInl ModelApi SpecGeometry SpecMonitor SpecMetadata
  SpecContract.
Open Scope N_scope.

(** ** copy_debug_enclave_page *)
(** [s] with the lock of region [r] taken, and released. *)
Definition taken_lock (G : globals) (s : state) (r : N) : state := put s (lock_addr G r) 1.
Definition freed_lock (G : globals) (s : state) (r : N) : state := put s (lock_addr G r) 0.
(** [s] with the page at [src] copied to the page at [dst]. *)
Definition copied (s : state) (dst src : N) : state :=
  set_mem s (fun b => if (dst <=? b) && (b <? dst + 4096)
                      then s_mem s (src + (b - dst)) else s_mem s b).
(** Whether [id] may access region [r]; identifier 0 is the OS. *)
Definition access_bit (G : globals) (s : state) (id r : N) : bool :=
  if id =? 0 then os_bit G s r else enclave_bit s id r.
(** The identifier's record does not wrap around the address space; unlike record_at
    of SpecContract.v it may lie in the monitor's memory. *)
Definition record_in_space (G : globals) (id : N) : Prop :=
  id + 312 + 8 * g_dram_region_bitmap_words G <= 2 ^ 64.
(** The checks, in order; from the third on they are made with the locks held, which
    the words read may overlap. *)
Definition debug_copy_code (G : globals) (pb rb : N) (s : state) (id ea oa : N) : N :=
  let q := main_region G pb rb id in let r := region_of pb rb oa in
  let s1 := taken_lock G (taken_lock G s q) r in
  if negb (in_dram_page G ea) || negb (in_dram_page G oa) then 1
  else if is_locked G s q then 3
  else if (r =? q) || is_locked G s r then 3
  else if word s1 (id + 24) =? 0 then 2
  else if access_bit G s1 id (region_of pb rb ea) && (owner_of G s r =? 0) && (owner_of G s q =? id)
  then 0 else 1.
Definition debug_copy_state (G : globals) (pb rb : N) (s : state) (id ea oa : N) (rd : bool) : state :=
  let q := main_region G pb rb id in let r := region_of pb rb oa in
  let s1 := taken_lock G (taken_lock G s q) r in
  let s2 := if rd then copied s1 oa ea else copied s1 ea oa in
  freed_lock G (freed_lock G s2 r) q.

(** ** delete_enclave *)
(** The address lies in a round of stripes that begins inside DRAM. *)
Definition in_round (G : globals) (pb rb a : N) : bool :=
  a / 2 ^ (12 + pb + rb) * 2 ^ (12 + pb + rb) <? g_dram_size G.
(** [s] with regions [i] to [t] zeroed. *)
Definition erased (G : globals) (pb rb i t : N) (s : state) : state :=
  set_mem s (fun a => if in_round G pb rb a && (i <=? region_of pb rb a) && (region_of pb rb a <=? t)
                      then 0 else s_mem s a).
(** [s] with the [k] regions from [i] on marked free. *)
Fixpoint marked_free (G : globals) (i : N) (k : nat) (s : state) : state :=
  match k with
  | O => s
  | S k => marked_free G (i + 1) k (put s (lock_addr G i + 8) 3)
  end.
(** The byte of the bit after the enclave's last region bit, and the last region
    erased: that byte's region, because erasing it clears the bit; all regions, if
    the byte is in none of them. *)
Definition last_erased (G : globals) (pb rb id : N) : N :=
  let b := id + 304 + g_dram_region_count G / 8 in
  if in_round G pb rb b then region_of pb rb b else g_dram_region_count G - 1.
(** All regions from the monitor's own one up to that region are erased; the table of
    regions, erased with the first, says afterwards that the others are free. *)
Definition deleted_state (G : globals) (pb rb : N) (s : state) (id : N) : state :=
  let t := last_erased G pb rb id in
  marked_free G 1 (N.to_nat t) (erased G pb rb 0 t s).
Definition delete_enclave_state (G : globals) (pb rb : N) (s : state) (id : N) : state :=
  if (delete_enclave_code G pb rb s id =? 0) && enclave_bit s id (g_dram_region_count G)
  then deleted_state G pb rb s id else s.
