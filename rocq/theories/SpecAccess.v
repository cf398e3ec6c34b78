(** * Reloading a core's access bitmap. *)
From Coq Require Import NArith Bool List.
From Verif Require Import Word Machine ModelInl ModelApi SpecHistory SpecLinear.
Import ListNotations.
Open Scope N_scope.

(** The calls that, when successful, load the access bitmap of the calling core. *)
Definition reloads (k : call) : bool :=
  match k with CBlock _ | CAssign _ _ => true | _ => false end.
(** Core [c] successfully made such a call. *)
Definition ok_reload_by (c : N) (x : event * N) : bool :=
  match x with (ECall c' k, 0) => (c' =? c) && reloads k | _ => false end.
(** Core [c] started a call and later completed a successful block or assign. *)
Definition reloads_in (c : N) (l : list obs) : Prop :=
  exists a k b k' d, reloads k' = true /\ l = a ++ Start c k :: b ++ Finish c k' 0 :: d.
(** Region [r] was reported blocked, or assigned to somebody. *)
Definition reports_move (r : N) (l : list obs) : Prop :=
  exists c, In (Finish c (CBlock r) 0) l \/ exists e, In (Finish c (CAssign r e) 0) l.
