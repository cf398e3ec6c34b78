(** * What a program may write, from the operations it uses. *)
From Coq Require Import NArith ZArith Lia Bool List.
From Coq Require Import ZifyBool ZifyNat ZifyN.
From Verif Require Import Word Machine ModelInl Lib Trace SpecContract.
Import ListNotations.
Open Scope N_scope.

Definition writes_in (P : N -> Prop) (o : op) : Prop :=
  match o with
  | OSt n a _ => forall b, bytes_of a (N.of_nat n) b -> P b
  | OTas a | OClr a | OFadd a _ => forall b, bytes_of a 8 b -> P b
  | OLd _ _ | OCore | OGetDmaStart | OGetDmaEnd | OUb _ => True
  | _ => False
  end.
Lemma changes_refl P s : changes_only P s s.
Proof. split; [|auto]. repeat split; auto. Qed.
Lemma changes_trans P s1 s2 s3 : changes_only P s1 s2 -> changes_only P s2 s3 ->
  changes_only P s1 s3.
Proof.
  intros [(A1 & A2 & A3 & A4 & A5 & A6) A] [(B1 & B2 & B3 & B4 & B5 & B6) B]. split.
  - unfold same_registers. rewrite B2, B3, B4, B5, B6. repeat split; auto.
    intros c. rewrite B1. apply A1.
  - intros b NP. rewrite B, A by exact NP. reflexivity.
Qed.
Lemma changes_weaken (P Q : N -> Prop) s s' : (forall b, P b -> Q b) ->
  changes_only P s s' -> changes_only Q s s'.
Proof. intros W [A B]. split; [exact A|]. intros b NQ. apply B. intros X. apply NQ. auto. Qed.
Lemma changes_store (P : N -> Prop) n s a v : (forall b, bytes_of a (N.of_nat n) b -> P b) ->
  changes_only P s (set_mem s (st n (s_mem s) a v)).
Proof.
  intros W. split; [repeat split; auto|]. intros b NP. cbn [s_mem set_mem].
  change (byte (st n (s_mem s) a v) b = byte (s_mem s) b).
  apply byte_st_out. unfold bytes_of in W.
  destruct (N.lt_ge_cases b a); [auto|]. destruct (N.lt_ge_cases b (a + N.of_nat n)); [|auto].
  exfalso. apply NP, W. lia.
Qed.
Lemma step_changes P c o s s' v : writes_in P o -> step c o s = (s', v) -> changes_only P s s'.
Proof.
  intros W H. destruct o; cbn -[st ld] in H, W; inversion H; subst; clear H; try contradiction;
    try apply changes_refl;
    try (apply changes_store; exact W);
    try (apply changes_store; change (N.of_nat 8) with 8; exact W).
  split; [repeat split; auto|auto].
Qed.
Lemma run_changes {A} P c (p : prog A) : forall s s' r, uses (writes_in P) p ->
  run c p s = (s', r) -> changes_only P s s'.
Proof.
  induction p as [a|o f IH|]; intros s s' r U H; cbn in *.
  - inversion H. apply changes_refl.
  - destruct U as [U1 U2]. destruct (step c o s) as [s1 v] eqn:E.
    eapply changes_trans; [eapply step_changes; eauto|eapply IH; eauto].
  - inversion H. apply changes_refl.
Qed.
