(** * What is said about concurrent executions that come to rest. *)
From Coq Require Import NArith Bool List.
From Verif Require Import Word Machine ModelInl ModelApi SpecLinear.
Import ListNotations.
Open Scope N_scope.

Definition is_block (k : call) : bool := match k with CBlock _ => true | _ => false end.
(** Number of block_dram_region calls that were started. *)
Definition started_blocks (l : list obs) : N := N.of_nat (starts is_block l).
(** Core [c] started a flush and later completed one. *)
Definition flushes_in (c : N) (l : list obs) : Prop :=
  exists a b d v, l = a ++ Start c CFlush :: b ++ Finish c CFlush v :: d.
