(** * accept_thread over every machine state: like SpecContract.v. *)
From Coq Require Import NArith Bool List.
From Verif Require Import Word Machine ModelInl ModelApi SpecGeometry SpecMonitor SpecMetadata
  SpecContract.
Open Scope N_scope.

(** The word that accept_thread takes for the lock of the region of [a]
    (C49_address_as_index_refuted). *)
Definition accept_word (G : globals) (a : N) : N := (g_dram_region G + 40 * a) mod 2 ^ 64.
(** The address; the word above; the owner of the region of the argument block; the
    lock of the caller's record; the map entry of the thread's page, which must be
    empty. *)
Definition accept_thread_code (G : globals) (pb rb : N) (s : state) (c t a : N) : N :=
  if negb (in_dram_page G a) then 1
  else if negb (word s (accept_word G a) =? 0) then 3
  else if negb (owner_of G s (region_of pb rb a) =? enclave_of G s c) then 1
  else if is_locked G s (own_region G pb rb s c) then 3
  else if negb (word s (map_entry pb rb t) =? 0) then 2
  else 0.
(** The thread's record: a clear lock and the five words of the argument block
    (entry point and stack, fault handler and stack, page table base). *)
Definition put_thread (s0 s : state) (t a : N) : state :=
  put (put (put (put (put (put s t 0) (t + 8) (word s0 a)) (t + 16) (word s0 (a + 8)))
    (t + 24) (word s0 (a + 16))) (t + 32) (word s0 (a + 24))) (t + 40) (word s0 (a + 32)).
Definition accept_thread_state (G : globals) (pb rb : N) (s : state) (c t a : N) : state :=
  let taken := put s (accept_word G a) 1 in
  let release x := put x (lock_addr G (region_of pb rb a)) 0 in
  if negb (in_dram_page G a) then s
  else if negb (word s (accept_word G a) =? 0) then taken
  else if negb (accept_thread_code G pb rb s c t a =? 0) then release taken
  else release (put_thread s (put taken (map_entry pb rb t) (N.lor (enclave_of G s c) 3)) t a).
(** The words and blocks that are read and written do not overlap, nor do they lie in
    the monitor's memory. *)
Definition apart (a m b k : N) : Prop := a + m <= b \/ b + k <= a.
Definition accept_apart (G : globals) (pb rb t a : N) : Prop :=
  let w := accept_word G a in let e := map_entry pb rb t in
  g_monitor_top G <= w /\ g_monitor_top G <= t /\ g_monitor_top G <= e /\ g_monitor_top G <= a /\
  first_stripe pb rb t /\
  apart w 8 e 8 /\ apart w 8 t 48 /\ apart w 8 a 40 /\
  apart e 8 t 48 /\ apart e 8 a 40 /\ apart t 48 a 40.
