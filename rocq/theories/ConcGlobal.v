(** * Interleaved execution: an invariant of all cores together. *)
From Coq Require Import NArith ZArith Lia Bool List.
From Coq Require Import ZifyBool ZifyNat ZifyN.
From Verif Require Import Word Machine ModelBare ModelHash ModelInl ModelRegions
  ModelMetadata ModelEnclave ModelBoot ModelApi Lib BareProofs SpecGeometry
  GeomProofs Trace SpecMonitor SpecHistory SpecConcurrent ViewProofs SeqProofs SeqCalls SeqCalls3
  HistoryProofs ConcProofs ConcCalls ConcCalls2.
Import ListNotations.
Open Scope N_scope.
Ltac Zify.zify_post_hook ::= Z.div_mod_to_equations.

Section Global.
Variables (G : globals) (pb rb : N).
Hypothesis g : geom G pb rb.
Hypothesis HD : g_dram_size G + g_dram_stripe_size G <= W64.
Variable allowed : call -> Prop.
Hypothesis allowed_safe : forall k, allowed k -> safe_call G k.
Variable nw : bool.
Local Notation n := (g_dram_region_count G).
Local Notation cores := (g_core_count G).
Local Notation safe := (safe G nw).
Local Notation tidy := (tidy G).
Local Notation agree := (agree G nw).
Local Notation inv := (inv G nw).
Local Notation gua := (gua G nw).
Local Notation res := (res G).

(** The locks a core may hold between calls. *)
Definition leaked (h : N -> bool) : Prop :=
  forall r, r < n -> h r = true -> r = 0 /\ exists k, allowed k /\ leaky k = true.

Definition task_ok (c : N) (t : task) (o : ost) (hd : hold) : Prop :=
  match t with
  | Idle => exists h, res c hd h /\ leaked h /\ tidy h o
  | Running k p _ => exists h o' h0, res c hd h /\ agree c h o' o /\ leaked h0 /\ allowed k /\
      safe c k p h o' (ends G k h0)
  end.

Record good (x : conf) (o : ost) (hd : hold) : Prop := mkGood {
  gd_view : view G (cf_state x) o;
  gd_inv : inv o hd;
  gd_cores : forall r c, r < n -> hd r = Some c -> c < cores;
  gd_held : forall c r, c < cores -> r < n -> (cf_held x c r = true <-> hd r = Some c);
  gd_task : forall c, c < cores -> task_ok c (cf_task x c) o hd }.

(** The steps of a core preserve what the other cores know. *)
Lemma gua_res c c' k x o1 hd1 o2 hd2 h : c' <> c -> gua c k x o1 hd1 o2 hd2 ->
  res c' hd1 h -> res c' hd2 h.
Proof.
  intros NE GU R r RL. rewrite (R r RL).
  destruct (g_hold _ _ _ _ _ _ _ _ _ GU r RL) as [E|[[E1 E2]|[E1 E2]]].
  - rewrite E. tauto.
  - rewrite E1, E2. split; intros H; inversion H; congruence.
  - rewrite E1, E2. split; intros H; inversion H; congruence.
Qed.
Lemma gua_agree c c' k x o1 hd1 o2 hd2 h : c' <> c -> gua c k x o1 hd1 o2 hd2 ->
  res c' hd1 h -> agree c' h o1 o2.
Proof.
  intros NE GU R.
  assert (NC : forall r, r < n -> h r = true -> hd1 r <> Some c).
  { intros r RL H. apply (R r RL) in H. congruence. }
  pose proof (n_pos G pb rb g) as NP.
  destruct GU as [G1 G2 G3 G4 G5 G6 G7 G8]. constructor; intros.
  - apply G1; auto.
  - apply G1; auto.
  - apply G1; auto.
  - apply G3; auto.
  - apply G3; auto.
  - apply G4; auto.
  - apply G5; auto.
  - apply G5; auto.
Qed.
Lemma task_other c c' k x o1 hd1 o2 hd2 t : c' <> c -> gua c k x o1 hd1 o2 hd2 ->
  inv o2 hd2 -> task_ok c' t o1 hd1 -> task_ok c' t o2 hd2.
Proof.
  intros NE GU I2 T. destruct t as [|k' p i]; cbn [task_ok] in *.
  - destruct T as (h & R & L & T). exists h. pose proof (gua_res _ _ _ _ _ _ _ _ _ NE GU R) as R2.
    split; [exact R2|]. split; [exact L|].
    eapply (tidy_agree G pb rb g nw); eauto. eapply gua_agree; eauto.
  - destruct T as (h & o' & h0 & R & A & L & AL & S). exists h, o', h0.
    split; [eapply gua_res; eauto|]. split; [|auto].
    eapply agree_trans; eauto. eapply gua_agree; eauto.
Qed.

Lemma held_hold c o v held hd c' r : c' < cores -> c < cores ->
  (held c' r = true <-> hd r = Some c') ->
  (forall a, o = OClr a -> a = lock_addr G r -> hd r = Some c) ->
  (forall a, o = OTas a -> a = lock_addr G r -> v = 0 -> hd r = None) ->
  (held_after G c o v held c' r = true <-> hold_after G c o v hd r = Some c').
Proof.
  intros C' C E CL TA.
  destruct o; cbn [held_after hold_after]; auto.
  - destruct (N.eqb_spec a (lock_addr G r)) as [A|A]; cbn [andb];
      [|rewrite andb_false_r; exact E].
    rewrite andb_true_r. destruct (N.eqb_spec v 0) as [Z|Z]; cbn [andb];
      [|rewrite andb_false_r; exact E].
    rewrite andb_true_r. destruct (N.eqb_spec c' c) as [X|X].
    + subst. tauto.
    + rewrite E. specialize (TA a eq_refl A Z). rewrite TA. split; intros Y; inversion Y; congruence.
  - destruct (N.eqb_spec a (lock_addr G r)) as [A|A];
      [|rewrite andb_false_r; exact E].
    rewrite andb_true_r. destruct (N.eqb_spec c' c) as [X|X].
    + split; intros Y; inversion Y.
    + rewrite E. specialize (CL a eq_refl A). rewrite CL. split; intros Y; inversion Y; congruence.
Qed.

(** One machine operation. *)
Lemma good_op s t h c k o f i s' v q hd :
  good (mkConf s t h) q hd -> c < cores -> t c = Running k (Do o f) i ->
  step c o s = (s', v) -> (nw = true -> clock_of G s <= clock_of G s') ->
  exists q', gua c k o q hd q' (hold_after G c o v hd) /\
    good (mkConf s' (upd t c (Running k (f v) ((o, v) :: i))) (held_after G c o v h)) q'
      (hold_after G c o v hd).
Proof.
  intros [V I CO HE TA] C T ST NW. cbn [cf_state cf_task cf_held] in *.
  pose proof (TA c C) as TC. rewrite T in TC. cbn [task_ok] in TC.
  destruct TC as (h1 & o' & h0 & R & A & L & AL & S). cbn [ConcProofs.safe] in S.
  destruct (S s q hd V I R A s' v ST NW) as (q' & V2 & I2 & GU & h' & o2 & R2 & A2 & S2).
  exists q'. split; [exact GU|]. constructor; cbn [cf_state cf_task cf_held]; auto.
  - intros r c' RL H. destruct (g_hold _ _ _ _ _ _ _ _ _ GU r RL) as [E|[[E1 E2]|[E1 E2]]].
    + rewrite E in H. eauto.
    + rewrite E2 in H. inversion H. subst. exact C.
    + congruence.
  - intros c' r C' RL. apply held_hold; auto.
    + intros a -> ->. apply (g_clr _ _ _ _ _ _ _ _ _ GU r RL). reflexivity.
    + intros a -> -> ->. cbn [step] in ST. unfold lock_addr in ST.
      rewrite (v_lock _ _ _ V r RL), (i_lock _ _ _ _ I r RL) in ST.
      destruct (hd r); [discriminate|reflexivity].
  - intros c' C'. unfold upd. destruct (N.eqb_spec c' c) as [->|NE].
    + cbn [task_ok]. exists h', o2, h0. auto.
    + eapply task_other; eauto.
Qed.

Lemma good_write s t h a v q hd : good (mkConf s t h) q hd -> g_monitor_top G <= a ->
  exists q', good (mkConf (set_mem s (st 1 (s_mem s) a v)) t h) q' hd /\
    o_owner q' = o_owner q /\ o_blocked q' = o_blocked q /\ o_flushed q' = o_flushed q.
Proof.
  clear HD. intros [V I CO HE TA] T. cbn [cf_state cf_task cf_held] in *.
  exists (with_rest q (st 1 (s_mem s) a v)). split; [|auto].
  constructor; cbn [cf_state cf_task cf_held]; auto.
  - apply (v_set_rest G pb rb g); auto. intros b NB. apply byte_st_out.
    change (N.of_nat 1) with 1.
    destruct (N.lt_ge_cases b a); auto. destruct (N.lt_ge_cases b (a + 1)); auto.
    exfalso. apply NB. apply (rest_high G pb rb g). lia.
  - destruct I as [I1 I2 I3 I4 I5 I6 I7 I8 I9]. constructor; auto.
  - intros c C. specialize (TA c C). destruct (t c) as [|k p i]; cbn [task_ok] in *.
    + destruct TA as (h1 & R & L & TD). exists h1. auto.
    + destruct TA as (h1 & o' & h0 & R & A & L & AL & S). exists h1, o', h0.
      split; [exact R|]. split; [|auto].
      destruct A as [A1 A2 A3 A4 A5 A6 A7 A8]. constructor; auto.
Qed.

Lemma good_step x y o hd : good x o hd -> cstep G pb rb allowed nw x y ->
  exists o' hd', good y o' hd'.
Proof.
  intros GD ST. destruct ST as [s t h c k C T AR AL|s t h c k op f i s' v C T ST NW
    |s t h c k v i C T|s t h c a v C T A CA|s t h a v A DA TP].
  - exists o, hd. destruct GD as [V I CO HE TA]. constructor; auto. cbn [cf_state cf_task cf_held] in *.
    intros c' C'. unfold upd. destruct (N.eqb_spec c' c) as [->|NE]; [|auto].
    specialize (TA c C). rewrite T in TA. cbn [task_ok] in *.
    destruct TA as (h1 & R & L & TD). exists h1, o, h1. split; [exact R|].
    split; [apply agree_refl|]. split; [exact L|]. split; [exact AL|].
    apply (call_safe G pb rb g); auto.
  - destruct (good_op s t h c k op f i s' v o hd GD C T ST NW) as [q' [_ GD']]. eauto.
  - exists o, hd. destruct GD as [V I CO HE TA]. constructor; auto. cbn [cf_state cf_task cf_held] in *.
    intros c' C'. unfold upd. destruct (N.eqb_spec c' c) as [->|NE]; [|auto].
    specialize (TA c C). rewrite T in TA. cbn [task_ok ConcProofs.safe] in *.
    destruct TA as (h1 & o' & h0 & R & A & L & AL & E1 & E2). exists h1. split; [exact R|]. split.
    + intros r RL H. destruct (E1 r RL H) as [X|[X Y]]; [auto|]. split; [exact Y|eauto].
    + eapply (tidy_agree G pb rb g nw); eauto.
  - assert (g_monitor_top G <= a).
    { destruct CA as [_ NP]. apply N.nlt_ge. intros L. apply NP.
      destruct GD as [V I CO HE TA]. cbn [cf_state] in V.
      rewrite (v_regs _ _ _ V) by auto. apply (i_par _ _ _ _ I); auto. }
    destruct (good_write s t h a v o hd GD H) as [q' [GD' _]]. eauto.
  - destruct (good_write s t h a v o hd GD TP) as [q' [GD' _]]. eauto.
Qed.

Lemma good_reach s0 x : (exists o hd, good (initial s0) o hd) ->
  creach G pb rb allowed nw s0 x -> exists o hd, good x o hd.
Proof.
  intros H R. induction R as [|x y R IH ST]; [exact H|].
  destruct IH as [o [hd GD]]. eapply good_step; eauto.
Qed.
End Global.

Lemma good_start P top pb rb G s0 allowed nw : started P top pb rb G s0 ->
  good G allowed nw (initial s0) (view_of G s0) (fun _ => None).
Proof.
  intros ST. destruct (started_geom _ _ _ _ _ _ ST) as [g HDD].
  destruct (started_shows _ _ _ _ _ _ ST) as [ac [c0 [C0 [_ K]]]].
  pose proof (view_of_view G s0) as V.
  pose proof (shows_like G pb rb g s0 _ _ V K) as L.
  constructor; cbn [initial cf_state cf_task cf_held].
  - exact V.
  - destruct L. constructor.
    + intros r R. rewrite lk_lock by auto. unfold taken. cbn. rewrite andb_false_r. reflexivity.
    + intros r R. rewrite lk_owner by auto. reflexivity.
    + rewrite lk_owner by exact (n_pos G pb rb g). reflexivity.
    + intros r R. auto.
    + intros c C. auto.
    + intros r R. left. unfold clean. rewrite lk_bit, lk_owner by auto. reflexivity.
    + left. split.
      * rewrite lk_dma_start, lk_dma_end. exact lk_dma_order.
      * intros a A. rewrite <- (v_dmar_mask _ _ _ V), <- (v_dmar_base _ _ _ V).
        rewrite lk_dma_start, lk_dma_end. apply (sh_window _ _ _ K a A).
    + intros c a C A. apply lk_protected; auto.
    + intros _ c C. rewrite lk_flushed, lk_clock by auto. reflexivity.
  - intros r c R X. discriminate.
  - intros c r _ _. split; discriminate.
  - intros c C. exists (fun _ => false). split; [intros r R; split; discriminate|].
    split; [intros r R X; discriminate|intros X; discriminate].
Qed.
