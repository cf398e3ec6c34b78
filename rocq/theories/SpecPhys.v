(** * Interleavings of arbitrary programs; equal programs. *)
From Coq Require Import NArith Bool List.
From Verif Require Import Word Machine.
Import ListNotations.
Open Scope N_scope.

(** The same operations, values and results in the same order. *)
Inductive same_prog {A} : prog A -> prog A -> Prop :=
| sp_ret a : same_prog (Ret a) (Ret a)
| sp_do o k k' : (forall v, same_prog (k v) (k' v)) -> same_prog (Do o k) (Do o k')
| sp_stop : same_prog Stop Stop.

(** A schedule: which core executes the next operation. [play cs ps s] executes one
    operation of core [c] for each [c] of the schedule (none if the core has none left). *)
Fixpoint play (cs : list N) (ps : N -> prog N) (s : state) : state * (N -> prog N) :=
  match cs with
  | [] => (s, ps)
  | c :: rest =>
      match ps c with
      | Do o k => let '(s', v) := step c o s in
          play rest (fun c' => if c' =? c then k v else ps c') s'
      | _ => play rest ps s
      end
  end.
(** The result of a program that has ended. *)
Definition result (p : prog N) : option N := match p with Ret v => Some v | _ => None end.
Definition two (p q : prog N) : N -> prog N := fun c => if c =? 0 then p else if c =? 1 then q else Ret 0.
