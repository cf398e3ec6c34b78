(** * What an observer of the memory bus sees of a piece of the monitor's code. *)
From Coq Require Import NArith Bool List.
From Verif Require Import Word Machine.
Import ListNotations.
Open Scope N_scope.

(** An operation without the value it stores: its kind, its width and its address. *)
Definition shape (o : op) : op := match o with OSt n a _ => OSt n a 0 | _ => o end.
(** The operations [p] executes on core [c] from [s], in order, without the values they load
    and store. *)
Fixpoint pattern {A} (c : N) (p : prog A) (s : state) : list op :=
  match p with
  | Do o k => let '(s', v) := step c o s in shape o :: pattern c (k v) s'
  | _ => []
  end.

(** The two machines differ in the bytes at the addresses [S] only. *)
Record differ_in (S : N -> Prop) (s s' : state) : Prop := {
  df_mem : forall b, ~ S b -> s_mem s b mod 256 = s_mem s' b mod 256;
  df_cores : forall c, s_cores s c = s_cores s' c;
  df_words : s_words s = s_words s';
  df_dmar_base : s_dmar_base s = s_dmar_base s';
  df_dmar_mask : s_dmar_mask s = s_dmar_mask s';
  df_dma_start : s_dma_start s = s_dma_start s';
  df_dma_end : s_dma_end s = s_dma_end s' }.
Definition anywhere (_ : N) : Prop := True.
(** The [k] bytes at [a]. *)
Definition at_ (a k b : N) : Prop := a <= b < a + k.
