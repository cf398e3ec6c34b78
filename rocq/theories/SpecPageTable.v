(** * Specification of address translation (independent of the monitor's code).

    A page table geometry is given by the number of index bits and the log2 of
    the entry size of each level; level 0 holds the leaves; pages have 2^12
    bytes. *)
From Coq Require Import NArith Bool.
From Verif Require Import Machine.
Open Scope N_scope.

(** Number of virtual address bits below the index field of level [l]. *)
Fixpoint bits_below (idx_bits : nat -> N) (l : nat) : N :=
  match l with
  | O => 12
  | S k => bits_below idx_bits k + idx_bits k
  end.

(** The index field of level [l] of a virtual address. *)
Definition va_field (idx_bits : nat -> N) (l : nat) (va : N) : N :=
  va / 2 ^ bits_below idx_bits l mod 2 ^ idx_bits l.

(** Physical address of the entry for [va] in the level-[l] table at [table]. *)
Definition entry_of (idx_bits ent_bits : nat -> N) (l : nat) (table va : N) : N :=
  (table + va_field idx_bits l va * 2 ^ ent_bits l) mod 2 ^ 64.

(** An entry is valid when its bit 0 is set; its target is the page address in
    its upper 52 bits. *)
Definition entry_valid (m : mem) (e : N) : bool := N.testbit (ld 8 m e) 0.
Definition entry_target (m : mem) (e : N) : N := ld 8 m e / 4096 * 4096.

(** The translation of [va] starting from the level-[l] table at [table]: the
    leaf entry used and the page found, if all entries on the path are valid. *)
Fixpoint translate (idx_bits ent_bits : nat -> N) (m : mem) (l : nat)
  (table va : N) : option (N * N) :=
  let e := entry_of idx_bits ent_bits l table va in
  if entry_valid m e then
    match l with
    | O => Some (e, entry_target m e)
    | S k => translate idx_bits ent_bits m k (entry_target m e) va
    end
  else None.

(** The entries visited by a translation. *)
Fixpoint path (idx_bits ent_bits : nat -> N) (m : mem) (l : nat)
  (table va : N) : list N :=
  let e := entry_of idx_bits ent_bits l table va in
  e :: (if entry_valid m e then
          match l with
          | O => nil
          | S k => path idx_bits ent_bits m k (entry_target m e) va
          end
        else nil).
