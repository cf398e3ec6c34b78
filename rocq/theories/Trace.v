(** * Operations executed by a program (used to state what a function may
    touch). *)
From Coq Require Import NArith ZArith Lia Bool List.
From Verif Require Import Word Machine.
Import ListNotations.
Open Scope N_scope.

(** The operations executed by [p] on core [c] from state [s], in order. *)
Fixpoint trace {A} (c : N) (p : prog A) (s : state) : list op :=
  match p with
  | Ret _ => []
  | Do o k => let '(s', v) := step c o s in o :: trace c (k v) s'
  | Stop => []
  end.

Lemma trace_bind {A B} c (p : prog A) (f : A -> prog B) : forall s,
  trace c (bind p f) s =
  trace c p s ++
  match run c p s with
  | (s', Some a) => trace c (f a) s'
  | (_, None) => []
  end.
Proof.
  induction p as [a|o k IH|]; intros s; cbn [bind trace run]; auto.
  destruct (step c o s) as [s' v]. cbn. f_equal. apply IH.
Qed.

(** Every operation the program may execute, whatever values it reads, is
    in [P]. *)
Fixpoint uses {A} (P : op -> Prop) (p : prog A) : Prop :=
  match p with
  | Ret _ | Stop => True
  | Do o k => P o /\ forall v, uses P (k v)
  end.
Lemma uses_bind {A B} P (p : prog A) (f : A -> prog B) :
  uses P p -> (forall a, uses P (f a)) -> uses P (bind p f).
Proof.
  intros H F. induction p as [a|o k IH|]; cbn in *; auto.
  destruct H as [H1 H2]. split; auto.
Qed.
Lemma uses_op (P : op -> Prop) o : P o -> uses P (op1 o).
Proof. cbn. auto. Qed.
Lemma uses_for_exit {R} P n : forall i (body : N -> prog (option R)),
  (forall i, uses P (body i)) -> uses P (for_exit n i body).
Proof.
  induction n as [|n IH]; intros i body H; cbn [for_exit]; [exact I|].
  apply uses_bind; auto. intros [x|]; [exact I|]. apply IH; auto.
Qed.
Lemma uses_for_n P n : forall i (body : N -> prog unit),
  (forall i, uses P (body i)) -> uses P (for_n n i body).
Proof.
  induction n as [|n IH]; intros i body H; cbn [for_n]; [exact I|].
  apply uses_bind; auto.
Qed.

(** A program without TLB flush leaves the flush counts as they were. *)
Definition not_flush (o : op) : Prop := o <> OFlushTlb.
Lemma step_flushes c o s s' v i : not_flush o -> step c o s = (s', v) ->
  r_tlb_flushes (s_cores s' i) = r_tlb_flushes (s_cores s i).
Proof.
  intros N H. destruct o; cbn in H; inversion H; subst; cbn; auto;
    try (destruct (N.eqb_spec i c); subst; reflexivity).
  exfalso. apply N. reflexivity.
Qed.
Lemma run_flushes {A} c i (p : prog A) : forall s s' r, uses not_flush p ->
  run c p s = (s', r) -> r_tlb_flushes (s_cores s' i) = r_tlb_flushes (s_cores s i).
Proof.
  induction p as [a|o k IH|]; intros s s' r U H; cbn in *.
  - inversion H. reflexivity.
  - destruct U as [U1 U2]. destruct (step c o s) as [s1 v] eqn:E.
    rewrite (IH v s1 s' r (U2 v) H). eapply step_flushes; eauto.
  - inversion H. reflexivity.
Qed.
