(** * accept_thread on every machine state, without any condition on overlaps.

    The call as a sequence of stores.  SpecContract3.v says the same for the case in which
    the words do not overlap; here the order of the stores decides. *)
From Coq Require Import NArith Bool List.
From Verif Require Import Word Machine ModelInl ModelApi SpecGeometry SpecMonitor SpecMetadata
  SpecContract SpecContract3 SpecContract5.
Open Scope N_scope.

(** The word [k] bytes into the record at [t]; addresses wrap around. *)
Definition at64 (t k : N) : N := (t + k) mod 2 ^ 64.
(** After the two locks: the word taken for the lock of the argument's region, and the lock
    of the caller's region. *)
Definition accept_taken (G : globals) (s : state) (a : N) : state := put s (accept_word G a) 1.
Definition accept_both (G : globals) (pb rb : N) (s : state) (c a : N) : state :=
  put (accept_taken G s a) (lock_addr G (own_region G pb rb s c)) 1.
(** Each check reads the memory that the stores before it have left. *)
Definition accept_code (G : globals) (pb rb : N) (s : state) (c t a : N) : N :=
  let s1 := accept_taken G s a in let s2 := accept_both G pb rb s c a in
  if negb (in_dram_page G a) then 1
  else if negb (word s (accept_word G a) =? 0) then 3
  else if negb (owner_of G s1 (region_of pb rb a) =? enclave_of G s c) then 1
  else if negb (lock_of G s1 (own_region G pb rb s c) =? 0) then 3
  else if negb (word s2 (entry_at pb rb t) =? 0) then 2
  else 0.
(** The map entry names the caller and the type of threads; the record's lock is cleared;
    then five words are read from the argument block and stored in the record. *)
Definition accept_record (G : globals) (pb rb : N) (s : state) (c t a : N) : state :=
  let s3 := put (accept_both G pb rb s c a) (entry_at pb rb t) (N.lor (enclave_of G s c) 3) in
  let s4 := put s3 (at64 t 0) 0 in
  put (put (put (put (put s4 (at64 t 8) (word s4 a)) (at64 t 16) (word s4 (a + 8)))
    (at64 t 24) (word s4 (a + 16))) (at64 t 32) (word s4 (a + 24))) (at64 t 40) (word s4 (a + 32)).
Definition accept_state (G : globals) (pb rb : N) (s : state) (c t a : N) : state :=
  let s1 := accept_taken G s a in let s2 := accept_both G pb rb s c a in
  let free_own x := put x (lock_addr G (own_region G pb rb s c)) 0 in
  let free_arg x := put x (lock_addr G (region_of pb rb a)) 0 in
  if negb (in_dram_page G a) then s
  else if negb (word s (accept_word G a) =? 0) then s1
  else if negb (owner_of G s1 (region_of pb rb a) =? enclave_of G s c) then free_arg s1
  else if negb (lock_of G s1 (own_region G pb rb s c) =? 0) then free_arg s2
  else if negb (word s2 (entry_at pb rb t) =? 0) then free_arg (free_own s2)
  else free_arg (free_own (accept_record G pb rb s c t a)).
