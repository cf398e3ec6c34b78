(** * Natural alignment of memory operations. *)
From Coq Require Import NArith.
From Verif Require Import Word Machine.
Open Scope N_scope.

(** The address of an access of [n] bytes is a multiple of [n].  Atomic operations
    access 8 bytes, and a bitmap register is loaded in units of 8 bytes. *)
Definition naturally_aligned (o : op) : Prop :=
  match o with
  | OLd n a | OSt n a _ => a mod N.of_nat n = 0
  | OTas a | OClr a | OFadd a _ | OSetDrb a | OSetEdrb a => a mod 8 = 0
  | _ => True
  end.
