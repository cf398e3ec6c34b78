(** * Properties C89, C90: calls that refuse each other.

    accept_thread and copy_debug_enclave_page over the monitor (C48, C49) are left
    out; therefore the theorems are named _partial. *)
From Coq Require Import NArith ZArith Lia Bool List.
From Coq Require Import ZifyBool ZifyNat ZifyN.
From Verif Require Import Word Machine ModelBare ModelHash ModelInl ModelRegions
  ModelMetadata ModelEnclave ModelBoot ModelApi Lib BareProofs BootProofs SpecGeometry
  GeomProofs Trace SpecMonitor SpecHistory SpecConcurrent ViewProofs SeqProofs SeqCalls
  HistoryProofs P_Boot P_Regions ConcProofs ConcGlobal P_Conc SpecLinear LinProofs LinGlobal
  P_Linear SpecAtomic SpecContract AtomicProofs SpecRefuse RefuseProofs.
Import ListNotations.
Open Scope N_scope.
Ltac Zify.zify_post_hook ::= Z.div_mod_to_equations.
Local Notation lock_addr := SpecConcurrent.lock_addr.

(** ** Induction over observed executions *)
Section Ind.
Variables (G : globals) (pb rb : N) (allowed : call -> Prop) (s0 : state).
Local Notation observed := (observed G pb rb allowed s0).
Lemma observed_cases (J : list obs -> conf -> Prop) :
  J [] (initial s0) ->
  (forall l s t h c k, observed l (mkConf s t h) -> J l (mkConf s t h) -> c < g_core_count G ->
     t c = Idle -> call_args_ok k -> allowed k ->
     J (l ++ [Start c k]) (mkConf s (upd t c (Running k (call_prog G k) [])) h)) ->
  (forall l s t h c k o f i s' v, observed l (mkConf s t h) -> J l (mkConf s t h) ->
     c < g_core_count G -> t c = Running k (Do o f) i -> step c o s = (s', v) ->
     clock_of G s <= clock_of G s' ->
     J l (mkConf s' (upd t c (Running k (f v) ((o, v) :: i))) (held_after G c o v h))) ->
  (forall l s t h c k v i, observed l (mkConf s t h) -> J l (mkConf s t h) ->
     c < g_core_count G -> t c = Running k (Ret v) i ->
     J (l ++ [Finish c k v]) (mkConf s (upd t c Idle) h)) ->
  (forall l s t h s', observed l (mkConf s t h) -> J l (mkConf s t h) -> J l (mkConf s' t h)) ->
  forall l x, observed l x -> J l x.
Proof.
  intros J0 JS JO JF JW l x OB.
  induction OB as [|l x y c k OB IH SP T T'|l x y c k v i OB IH SP T T'|l x y OB IH SP T]; [exact J0| | |].
  - destruct SP as [s t h c1 k1 C1 T1 AR AL|s t h c1 k1 o f i s' v C1 T1 SP NW
      |s t h c1 k1 v i C1 T1|s t h c1 a v C1 T1 A CA|s t h a v A DA TP]; cbn [cf_task] in *;
      try congruence; unfold upd in T'; destruct (N.eqb_spec c c1) as [->|NE]; try congruence.
    inversion T'. subst k1. apply JS; auto.
  - destruct SP as [s t h c1 k1 C1 T1 AR AL|s t h c1 k1 o f i' s' v' C1 T1 SP NW
      |s t h c1 k1 v' i' C1 T1|s t h c1 a v' C1 T1 A CA|s t h a v' A DA TP]; cbn [cf_task] in *;
      try congruence; unfold upd in T'; destruct (N.eqb_spec c c1) as [->|NE]; try congruence.
    rewrite T1 in T. inversion T. subst. eapply JF; eauto.
  - destruct SP as [s t h c1 k1 C1 T1 AR AL|s t h c1 k1 o f i' s' v' C1 T1 SP NW
      |s t h c1 k1 v' i' C1 T1|s t h c1 a v' C1 T1 A CA|s t h a v' A DA TP]; cbn [cf_task] in *.
    + exfalso. specialize (T c1). rewrite upd_same in T. destruct T as [T _]. specialize (T T1). discriminate.
    + eapply JO; eauto.
    + exfalso. specialize (T c1). rewrite upd_same in T. destruct T as [_ T]. specialize (T eq_refl). congruence.
    + eapply JW; eauto.
    + eapply JW; eauto.
Qed.
Lemma observed_reach l x : observed l x -> creach G pb rb allowed true s0 x.
Proof. intros OB. apply reach_observed. eauto. Qed.
End Ind.

(** ** Calls in progress *)
Lemma in_call_snoc l e c : in_call (l ++ [e]) c =
  if by_core c e then match e with Start _ k => Some k | Finish _ _ _ => None end else in_call l c.
Proof. unfold in_call. rewrite fold_left_app. destruct e; cbn; destruct (_ =? c); reflexivity. Qed.
Definition no_core (c : N) (l : list obs) : Prop := forall e, In e l -> by_core c e = false.
Lemma in_call_app c l2 : forall l1, no_core c l2 -> in_call (l1 ++ l2) c = in_call l1 c.
Proof.
  induction l2 as [|e l2 IH] using rev_ind; intros l1 NC; [rewrite app_nil_r; reflexivity|].
  rewrite app_assoc, in_call_snoc, NC by (apply in_or_app; cbn; auto).
  apply IH. intros x X. apply NC. apply in_or_app. auto.
Qed.
Lemma in_call_split l1 l2 c k : no_core c l2 -> in_call (l1 ++ Start c k :: l2) c = Some k.
Proof.
  intros NC. change (Start c k :: l2) with ([Start c k] ++ l2). rewrite app_assoc, in_call_app by exact NC.
  rewrite in_call_snoc. cbn. rewrite N.eqb_refl. reflexivity.
Qed.
Lemma no_core_snoc c l e : no_core c l -> by_core c e = false -> no_core c (l ++ [e]).
Proof. intros H B x X. apply in_app_or in X. destruct X as [X|[<-|[]]]; auto. Qed.
Lemma snoc_eq {A} (l1 l2 : list A) (a b : A) : l1 ++ [a] = l2 ++ [b] -> l1 = l2 /\ a = b.
Proof. apply app_inj_tail. Qed.
Lemma split_unique l1 l2 l1' l2' c k k' : l1 ++ Start c k :: l2 = l1' ++ Start c k' :: l2' ->
  no_core c l2 -> no_core c l2' -> l1 = l1' /\ k = k' /\ l2 = l2'.
Proof.
  intros E N1 N2.
  assert (B : forall q, by_core c (Start c q) = true) by (intros; cbn; apply N.eqb_refl).
  apply app_eq_app in E. destruct E as [m [[E1 E2]|[E1 E2]]].
  - destruct m as [|e m]; cbn in E2.
    + inversion E2. subst. rewrite app_nil_r. auto.
    + inversion E2. subst. exfalso. specialize (N2 (Start c k)). rewrite B in N2.
      discriminate N2. apply in_or_app. cbn. auto.
  - destruct m as [|e m]; cbn in E2.
    + inversion E2. subst. rewrite app_nil_r. auto.
    + inversion E2. subst. exfalso. specialize (N1 (Start c k')). rewrite B in N1.
      discriminate N1. apply in_or_app. cbn. auto.
Qed.

Section Run.
Variables (P : platform) (top pb rb : N) (G : globals) (s0 : state) (allowed : call -> Prop).
Hypothesis ST : started P top pb rb G s0.
Hypothesis AL : forall k, allowed k -> safe_call G k.
Local Notation observed := (observed G pb rb allowed s0).
Local Notation n := (g_dram_region_count G).
Local Notation cores := (g_core_count G).
Local Notation track := (track G).

Lemma reach_disc nw x : creach G pb rb allowed nw s0 x -> forall c k p i,
  c < cores -> cf_task x c = Running k p i ->
  allowed k /\
  disc G c (concerns G pb rb k) (names_twice G pb rb k) (in_order G pb rb k) p (track i) (ended k) /\
  (forall r, In r (taken (track i)) -> concerns G pb rb k r).
Proof.
  intros R. destruct (started_geom _ _ _ _ _ _ ST) as [g HD].
  induction R as [|x y R IH SP]; intros c k p i C T; [discriminate|].
  destruct (reach_good _ _ _ _ _ _ _ _ _ ST AL R) as [_ [q [hd GD]]].
  destruct SP as [s t h c1 k1 C1 T1 AR AK|s t h c1 k1 o f i1 s' v C1 T1 SP NW
    |s t h c1 k1 v i1 C1 T1|s t h c1 a v C1 T1 A CA|s t h a v A DA TP];
    cbn [cf_state cf_task cf_held] in *; try (eapply IH; eassumption);
    unfold upd in T; destruct (N.eqb_spec c c1) as [->|NE]; try (eapply IH; eassumption).
  - inversion T; subst. split; [exact AK|]. split; [|cbn; tauto].
    apply (follows_all G pb rb g); auto.
  - inversion T; subst. destruct (IH c1 k _ _ C T1) as (A1 & A2 & A3). cbn [disc] in A2.
    destruct A2 as [TR A2]. split; [exact A1|]. split.
    + cbn [RefuseProofs.track]. apply A2.
      destruct GD as [V I CO HE TA]. cbn [cf_state] in V. split; [|split].
      * intros r' RL ->. pose proof (f_equal snd SP) as EV. cbn -[ld] in EV. subst v. unfold owner_addr.
        rewrite (v_owner _ _ _ V r' RL). split; [apply (i_owner _ _ _ _ I); exact RL|].
        intros ->. apply (i_owner0 _ _ _ _ I).
      * intros ->. pose proof (f_equal snd SP) as EV. cbn in EV. congruence.
      * intros ->. pose proof (f_equal snd SP) as EV. cbn -[ld] in EV. subst v.
        rewrite (v_encl _ _ _ V c1 C). apply (i_encl _ _ _ _ I). exact C.
    + cbn [RefuseProofs.track]. intros r. destruct o; cbn [next]; try apply A3.
      * destruct (region_at G a) as [q'|] eqn:E; [|apply A3].
        destruct (v =? 0); cbn [taken fst snd]; [|apply A3].
        intros [<-|X]; [|apply A3; exact X]. destruct (TR a q' eq_refl E). auto.
      * destruct (region_at G a) as [q'|] eqn:E; [|apply A3]. cbn [taken fst].
        intros X. apply A3. eapply rem_in; eauto.
  - discriminate.
Qed.

(** A call that returned with a lock held. *)
Definition has_leaked (l : list obs) : Prop :=
  exists c k, leaky k = true /\ In (Finish c k 0) l.
(** Why a call of core [c], started after [l1], may be refused after [l2]. *)
Definition cause (c : N) (k : call) (l1 l2 : list obs) : Prop :=
  names_twice G pb rb k \/
  (concerns G pb rb k 0 /\ has_leaked (l1 ++ l2)) \/
  exists a b c' k' r, l2 = a ++ b /\ c' <> c /\ in_call (l1 ++ Start c k :: a) c' = Some k' /\
    concerns G pb rb k r /\ concerns G pb rb k' r.
Lemma leaked_more l e : has_leaked l -> has_leaked (l ++ [e]).
Proof. intros (c & k & L & I). exists c, k. split; [exact L|]. apply in_or_app. auto. Qed.
Lemma cause_more c k l1 l2 e : cause c k l1 l2 -> cause c k l1 (l2 ++ [e]).
Proof.
  intros [H|[[H1 H2]|(a & b & c' & k' & r & -> & H)]]; [left; exact H| |].
  - right. left. split; [exact H1|]. rewrite app_assoc. apply leaked_more. exact H2.
  - right. right. exists a, (b ++ [e]), c', k', r. rewrite app_assoc. auto.
Qed.

Definition held_ok (l : list obs) (i : list (op * N)) (hc : N -> bool) : Prop :=
  forall r, r < n -> hc r = true -> In r (taken (track i)) \/ (r = 0 /\ has_leaked l).
Definition task_inv (l : list obs) (c : N) (tc : task) (hc : N -> bool) : Prop :=
  match tc with
  | Idle => in_call l c = None /\ held_ok l [] hc
  | Running k p i => exists l1 l2, l = l1 ++ Start c k :: l2 /\ no_core c l2 /\ held_ok l i hc /\
      (failed (track i) = true -> cause c k l1 l2)
  end.
Definition linv (l : list obs) (x : conf) : Prop :=
  forall c, task_inv l c (cf_task x c) (cf_held x c).

Lemma held_more l i hc e : held_ok l i hc -> held_ok (l ++ [e]) i hc.
Proof. intros H r R X. destruct (H r R X) as [?|[? ?]]; auto using leaked_more. Qed.
Lemma task_more l c tc hc e : by_core c e = false -> task_inv l c tc hc -> task_inv (l ++ [e]) c tc hc.
Proof.
  intros B. destruct tc as [|k p i]; cbn [task_inv].
  - intros [H1 H2]. split; [rewrite in_call_snoc, B; exact H1|apply held_more; exact H2].
  - intros (l1 & l2 & E & NC & HO & CA). exists l1, (l2 ++ [e]). split; [|split; [|split]].
    + rewrite E, <- app_assoc. reflexivity.
    + apply no_core_snoc; auto.
    + apply held_more; auto.
    + intros F. apply cause_more. auto.
Qed.
Lemma held_next l i hc c o v h : (forall r, hc r = h c r) -> held_ok l i hc ->
  held_ok l ((o, v) :: i) (held_after G c o v h c).
Proof.
  intros EQ HO r R X. cbn [RefuseProofs.track].
  assert (KEEP : h c r = true -> In r (taken (track i)) \/ (r = 0 /\ has_leaked l)).
  { rewrite <- EQ. apply HO. exact R. }
  destruct o; cbn [held_after next] in *; auto.
  - rewrite N.eqb_refl in X. cbn [andb] in X.
    destruct (N.eqb_spec a (lock_addr G r)) as [->|NE]; cbn [andb] in X.
    + rewrite (region_at_lock G r R). destruct (v =? 0); cbn; auto.
    + destruct (region_at G a) as [q|] eqn:E; [|auto].
      destruct (v =? 0); cbn [taken fst snd]; [|auto].
      destruct (KEEP X) as [Y|Y]; [left; right; exact Y|right; exact Y].
  - rewrite N.eqb_refl in X. cbn [andb] in X.
    destruct (N.eqb_spec a (lock_addr G r)) as [->|NE]; [discriminate|].
    destruct (region_at G a) as [q|] eqn:E; [|auto]. cbn [taken fst].
    destruct (KEEP X) as [Y|Y]; [left; apply rem_other; auto|right; exact Y].
    apply region_at_inv in E. destruct E as [_ E]. congruence.
Qed.
(** A lock found held is held by a core. *)
Lemma holder x c k r f i s' v nw : creach G pb rb allowed nw s0 x -> c < cores -> r < n ->
  cf_task x c = Running k (Do (OTas (lock_addr G r)) f) i ->
  step c (OTas (lock_addr G r)) (cf_state x) = (s', v) -> v <> 0 ->
  exists d, d < cores /\ cf_held x d r = true.
Proof.
  intros R C RL T SP V.
  destruct (reach_good _ _ _ _ _ _ _ _ _ ST AL R) as [g [q [hd [VW I CO HE TA]]]].
  pose proof (f_equal snd SP) as EV. cbn -[ld] in EV. unfold SpecConcurrent.lock_addr in EV.
  rewrite (v_lock _ _ _ VW r RL), (i_lock _ _ _ _ I r RL) in EV.
  destruct (hd r) as [d|] eqn:E; [|exfalso; apply V; rewrite <- EV; reflexivity]. exists d.
  assert (D : d < cores) by (eapply CO; eauto). split; [exact D|]. apply HE; auto.
Qed.

Lemma linv_observed l x : observed l x -> linv l x.
Proof.
  destruct (started_geom _ _ _ _ _ _ ST) as [g _].
  revert l x. apply observed_cases.
  - intros c. cbn. split; [reflexivity|]. intros r _ X. discriminate.
  - intros l s t h c k OB IH C T AR AK c'. specialize (IH c'). cbn [cf_task cf_held] in *. unfold upd.
    destruct (N.eqb_spec c' c) as [->|NE].
    + rewrite T in IH. cbn [task_inv] in *. destruct IH as [H1 H2]. exists l, []. split; [reflexivity|].
      split; [intros e []|]. split; [apply held_more; exact H2|]. discriminate.
    + apply task_more; [|exact IH]. cbn. apply N.eqb_neq. congruence.
  - intros l s t h c k o f i s' v OB IH C T SP NW c'. pose proof (IH c') as IC. cbn [cf_task cf_held] in *.
    unfold upd. destruct (N.eqb_spec c' c) as [->|NE].
    2:{ assert (E : forall r, held_after G c o v h c' r = h c' r).
        { intros r. destruct o; cbn [held_after]; auto; replace (c' =? c) with false by lia; reflexivity. }
        destruct (t c') as [|k' p' i']; cbn [task_inv] in *.
        - destruct IC as [H1 H2]. split; [exact H1|]. intros r R X. rewrite E in X. auto.
        - destruct IC as (l1 & l2 & H1 & H2 & H3 & H4). exists l1, l2. repeat (split; auto).
          intros r R X. rewrite E in X. auto. }
    rewrite T in IC. cbn [task_inv] in *. destruct IC as (l1 & l2 & E & NC & HO & CA).
    exists l1, l2. split; [exact E|]. split; [exact NC|]. split; [eapply held_next; eauto|].
    cbn [RefuseProofs.track]. intros F.
    assert (D : failed (track i) = true \/ exists r, r < n /\ o = OTas (lock_addr G r) /\ v <> 0).
    { destruct o; cbn [next] in F; auto.
      - destruct (region_at G a) as [r|] eqn:RA; [|auto]. apply region_at_inv in RA. destruct RA as [RL ->].
        destruct (N.eqb_spec v 0); cbn in F; [auto|]. right. exists r. auto.
      - destruct (region_at G a); auto. }
    destruct D as [D|(r & RL & -> & V)]; [apply CA; exact D|].
    pose proof (observed_reach _ _ _ _ _ _ _ OB) as CR.
    destruct (reach_disc _ _ CR c k _ i C T) as (_ & D & _). cbn [disc] in D. destruct D as [TR _].
    destruct (TR _ r eq_refl (region_at_lock G r RL)) as (AB & TW & _).
    destruct (holder _ c k r f i s' v _ CR C RL T SP V) as [d [DC DH]]. cbn [cf_held] in DH.
    assert (LK : r = 0 -> has_leaked l -> cause c k l1 l2).
    { intros -> (c0 & k0 & L0 & I0). right. left. split; [exact AB|]. exists c0, k0. split; [exact L0|].
      rewrite E in I0. apply in_app_or in I0. apply in_or_app. destruct I0 as [I0|[I0|I0]]; [auto|discriminate|auto]. }
    destruct (N.eqb_spec d c) as [->|DN].
    + destruct (HO r RL DH) as [X|[X Y]]; [left; auto|auto].
    + pose proof (IH d) as ID. cbn [cf_task cf_held] in ID. destruct (t d) as [|k' p' i'] eqn:TD; cbn [task_inv] in ID.
      * destruct ID as [_ ID]. destruct (ID r RL DH) as [[]|[X Y]]. auto.
      * destruct ID as (m1 & m2 & E' & NC' & HO' & _). destruct (HO' r RL DH) as [X|[X Y]]; [|auto].
        right. right. exists l2, [], d, k', r. rewrite app_nil_r. split; [reflexivity|]. split; [exact DN|].
        split; [|split; [exact AB|]].
        { rewrite <- E, E'. apply in_call_split. exact NC'. }
        { eapply (reach_disc _ _ CR d k' p' i'); eauto. }
  - intros l s t h c k v i OB IH C T c'. pose proof (IH c') as IC. cbn [cf_task cf_held] in *.
    unfold upd. destruct (N.eqb_spec c' c) as [->|NE].
    + rewrite T in IC. cbn [task_inv] in *. destruct IC as (l1 & l2 & E & NC & HO & CA).
      split; [rewrite in_call_snoc; cbn; rewrite N.eqb_refl; reflexivity|].
      intros r R X. right. destruct (HO r R X) as [Y|[Y1 Y2]]; [|auto using leaked_more].
      pose proof (observed_reach _ _ _ _ _ _ _ OB) as CR.
      destruct (reach_disc _ _ CR c k _ i C T) as (_ & D & _). cbn [disc] in D. destruct D as [_ D].
      destruct (D r Y) as (-> & L & ->). split; [reflexivity|]. exists c, k. split; [exact L|].
      apply in_or_app. cbn. auto.
    + apply task_more; [|exact IC]. cbn. apply N.eqb_neq. congruence.
  - intros l s t h s' OB IH c'. exact (IH c').
Qed.

(** Whenever a call returned 3, there is a cause. *)
Lemma refused_cause l x : observed l x -> forall l1 l2 l3 c k,
  l = l1 ++ Start c k :: l2 ++ Finish c k 3 :: l3 -> no_core c l2 -> locks_record k = false ->
  cause c k l1 l2.
Proof.
  revert l x. apply (observed_cases G pb rb allowed s0 (fun l _ => forall l1 l2 l3 c k,
    l = l1 ++ Start c k :: l2 ++ Finish c k 3 :: l3 -> no_core c l2 -> locks_record k = false ->
    cause c k l1 l2)).
  - intros l1 l2 l3 c k E. destruct l1; discriminate.
  - intros l s t h c k OB IH C T AR AK l1 l2 l3 c1 k1 E NC LR.
    destruct l3 as [|e l3] using rev_ind.
    + replace (l1 ++ Start c1 k1 :: l2 ++ [Finish c1 k1 3]) with ((l1 ++ Start c1 k1 :: l2) ++ [Finish c1 k1 3]) in E
        by (rewrite <- app_assoc; reflexivity).
      apply snoc_eq in E. destruct E. discriminate.
    + clear IHl3. eapply IH; eauto. eapply proj1. apply snoc_eq with (b := e). rewrite E.
      rewrite <- !app_assoc. cbn. rewrite <- app_assoc. reflexivity.
  - auto.
  - intros l s t h c k v i OB IH C T l1 l2 l3 c1 k1 E NC LR.
    destruct l3 as [|e l3] using rev_ind.
    + replace (l1 ++ Start c1 k1 :: l2 ++ [Finish c1 k1 3]) with ((l1 ++ Start c1 k1 :: l2) ++ [Finish c1 k1 3]) in E
        by (rewrite <- app_assoc; reflexivity).
      apply snoc_eq in E. destruct E as [E1 E2]. inversion E2. subst c1 k1 v.
      pose proof (linv_observed _ _ OB c) as LI. cbn [cf_task cf_held] in LI. rewrite T in LI. cbn [task_inv] in LI.
      destruct LI as (m1 & m2 & E3 & NC' & _ & CA). rewrite E3 in E1.
      destruct (split_unique _ _ _ _ _ _ _ E1 NC' NC) as (-> & _ & ->). apply CA.
      pose proof (observed_reach _ _ _ _ _ _ _ OB) as CR.
      destruct (reach_disc _ _ CR c k _ i C T) as (_ & D & _). cbn [disc] in D. destruct D as [D _]. auto.
    + clear IHl3. eapply IH; eauto. eapply proj1. apply snoc_eq with (b := e). rewrite E.
      rewrite <- !app_assoc. cbn. rewrite <- app_assoc. reflexivity.
  - auto.
Qed.
End Run.

(** ** C89 *)
(** A call is refused because of concurrency only if it names the same region
    twice, or it is about region 0 and a create_thread or delete_thread succeeded
    before (they keep the lock, C29), or at some instant between its start and its
    return another core was executing a call about one of the same regions. *)
Theorem C89_refusal_justified_partial : forall P top pb rb G s0 l1 l2 l3 x c k,
  started P top pb rb G s0 ->
  observed G pb rb (safe_call G) s0 (l1 ++ Start c k :: l2 ++ Finish c k concurrent_call :: l3) x ->
  (forall e, In e l2 -> by_core c e = false) -> locks_record k = false ->
  names_twice G pb rb k \/
  (concerns G pb rb k 0 /\
   exists c' k', leaky k' = true /\ In (Finish c' k' ok) (l1 ++ l2)) \/
  exists a b c' k' r, l2 = a ++ b /\ c' <> c /\ in_call (l1 ++ Start c k :: a) c' = Some k' /\
    concerns G pb rb k r /\ concerns G pb rb k' r.
Proof.
  intros P top pb rb G s0 l1 l2 l3 x c k ST OB NC LR.
  exact (refused_cause P top pb rb G s0 (safe_call G) ST (all_safe G) _ x OB l1 l2 l3 c k eq_refl NC LR).
Qed.

Lemma in_call_started l c k : in_call l c = Some k -> In (Start c k) l.
Proof.
  induction l as [|e l IH] using rev_ind; [discriminate|]. rewrite in_call_snoc. intros H.
  apply in_or_app. destruct (by_core c e) eqn:B; [|left; auto].
  right. cbn. left. destruct e; [|discriminate]. cbn in B. apply N.eqb_eq in B. congruence.
Qed.
Lemma in_call_find m c k : in_call m c = Some k ->
  exists l1 l2, m = l1 ++ Start c k :: l2 /\ forall x, In x l2 -> by_core c x = false.
Proof.
  induction m as [|x m IH] using rev_ind; [discriminate|]. rewrite in_call_snoc. intros IC.
  destruct (by_core c x) eqn:B.
  - destruct x as [c' k'|]; [|discriminate]. cbn in B. apply N.eqb_eq in B. inversion IC. subst.
    exists m, []. split; [reflexivity|]. intros y [].
  - destruct (IH IC) as (l1 & l2 & -> & NC). exists l1, (l2 ++ [x]). rewrite <- app_assoc.
    split; [reflexivity|]. apply no_core_snoc; auto.
Qed.
Lemma finish_of P top pb rb G s0 (allowed : call -> Prop) l x : started P top pb rb G s0 ->
  (forall k, allowed k -> safe_call G k) -> observed G pb rb allowed s0 l x ->
  forall l1 l2 c k v, l = l1 ++ Finish c k v :: l2 -> in_call l1 c = Some k /\ allowed k /\ c < g_core_count G.
Proof.
  intros ST AL. revert l x.
  apply (observed_cases G pb rb allowed s0 (fun l _ => forall l1 l2 c k v,
    l = l1 ++ Finish c k v :: l2 -> in_call l1 c = Some k /\ allowed k /\ c < g_core_count G)).
  - intros l1 l2 c k v E. destruct l1; discriminate.
  - intros l s t h c k OB IH C T AR AK l1 l2 c1 k1 v1 E. destruct l2 as [|e l2] using rev_ind.
    + apply snoc_eq in E. destruct E. discriminate.
    + eapply IH. eapply proj1. apply snoc_eq with (b := e). rewrite E. rewrite <- !app_assoc. reflexivity.
  - auto.
  - intros l s t h c k v i OB IH C T l1 l2 c1 k1 v1 E. destruct l2 as [|e l2] using rev_ind.
    + apply snoc_eq in E. destruct E as [-> E]. inversion E. subst.
      pose proof (linv_observed P top pb rb G s0 allowed ST AL _ _ OB c1) as LI. cbn [cf_task cf_held] in LI.
      rewrite T in LI. cbn [task_inv] in LI. destruct LI as (m1 & m2 & -> & NC & _).
      split; [apply in_call_split; exact NC|]. split; [|exact C].
      pose proof (observed_reach _ _ _ _ _ _ _ OB) as CR.
      eapply (reach_disc P top pb rb G s0 allowed ST AL _ _ CR); eauto.
    + eapply IH. eapply proj1. apply snoc_eq with (b := e). rewrite E. rewrite <- !app_assoc. reflexivity.
  - auto.
Qed.
(** So a call about regions that no call of another core is about is never refused. *)
Theorem C89_disjoint_partial : forall P top pb rb G s0 l x c k v,
  started P top pb rb G s0 -> observed G pb rb (safe_call G) s0 l x ->
  In (Finish c k v) l -> locks_record k = false -> ~ names_twice G pb rb k ->
  (forall c' k', In (Finish c' k' ok) l -> leaky k' = false) ->
  (forall c' k' r, In (Start c' k') l -> c' <> c -> concerns G pb rb k r -> ~ concerns G pb rb k' r) ->
  v <> concurrent_call.
Proof.
  intros P top pb rb G s0 l x c k v ST OB I LR NT NL DJ ->.
  apply in_split in I. destruct I as (m & l3 & E).
  destruct (finish_of _ _ _ _ _ _ _ _ _ ST (all_safe G) OB _ _ _ _ _ E) as [IC _].
  destruct (in_call_find _ _ _ IC) as (l1 & l2 & -> & NC). subst l.
  rewrite <- app_assoc in *. cbn [app] in *.
  destruct (C89_refusal_justified_partial _ _ _ _ _ _ _ _ _ _ _ _ ST OB NC LR)
    as [H|[[H (c' & k' & L & I)]|(a & b & c' & k' & r & -> & NE & IC' & C1 & C2)]]; [auto| |].
  - specialize (NL c' k'). rewrite L in NL. discriminate NL.
    apply in_or_app. apply in_app_or in I. destruct I; [auto|]. right. right. apply in_or_app. auto.
  - apply (DJ c' k' r); auto. apply in_call_started in IC'.
    apply in_or_app. apply in_app_or in IC'. destruct IC' as [?|[?|?]]; [auto|right; left; auto|].
    right. right. apply in_or_app. left. apply in_or_app. auto.
Qed.

(** ** C90 *)
Section Progress.
Variables (P : platform) (top pb rb : N) (G : globals) (s0 : state).
Hypothesis ST : started P top pb rb G s0.
Definition ordered (k : call) : Prop := safe_call G k /\ in_order G pb rb k.
Lemma ordered_safe k : ordered k -> safe_call G k. Proof. intros [H _]. exact H. Qed.
Local Notation observed := (observed G pb rb ordered s0).
Local Notation n := (g_dram_region_count G).
Local Notation cores := (g_core_count G).
Local Notation track := (track G).

(** A call returned other than 3, or will: core [u] was not refused and holds the
    lock of a region below [r], or released one. *)
Definition unrefused (i : list (op * N)) (r : N) : Prop :=
  failed (track i) = false /\ (freed (track i) = true \/ exists q, In q (taken (track i)) /\ q < r).
Definition wit (l2 : list obs) (t : N -> task) (r : N) : Prop :=
  (exists c k v, In (Finish c k v) l2 /\ v <> 3) \/
  exists u k p i, u < cores /\ t u = Running k p i /\ unrefused i r.
Definition idle_after (l : list obs) : Prop := forall c, c < cores -> in_call l c = None.
Definition progress (l : list obs) (x : conf) : Prop :=
  forall l1 l2, l = l1 ++ l2 -> idle_after l1 ->
    (forall c k p i, c < cores -> cf_task x c = Running k p i -> failed (track i) = true ->
       wit l2 (cf_task x) n /\ forall r, In r (taken (track i)) -> wit l2 (cf_task x) r) /\
    ((exists c k, In (Finish c k 3) l2) -> wit l2 (cf_task x) n).
Lemma wit_le l2 t r q : r <= q -> wit l2 t r -> wit l2 t q.
Proof.
  intros L [H|(u & k & p & i & U & T & F & H)]; [left; exact H|]. right. exists u, k, p, i.
  repeat (split; auto). destruct H as [H|(q' & H1 & H2)]; [auto|]. right. exists q'. split; [exact H1|lia].
Qed.
Lemma held_taken l x c r : observed l x -> c < cores -> r < n -> cf_held x c r = true ->
  exists k p i, cf_task x c = Running k p i /\ In r (taken (track i)).
Proof.
  intros OB C R H.
  assert (NL : ~ has_leaked l).
  { intros (c' & k & L & I). apply in_split in I. destruct I as (a & b & E).
    destruct (finish_of _ _ _ _ _ _ _ _ _ ST ordered_safe OB _ _ _ _ _ E) as (_ & [_ O] & _).
    destruct k; try discriminate L; exact O. }
  pose proof (linv_observed P top pb rb G s0 ordered ST ordered_safe _ _ OB c) as LI.
  destruct (cf_task x c) as [|k p i]; cbn [task_inv] in LI.
  - destruct LI as [_ LI]. destruct (LI r R H) as [[]|[_ X]]. contradiction.
  - destruct LI as (l1 & l2 & _ & _ & LI & _). destruct (LI r R H) as [X|[_ X]]; [eauto|contradiction].
Qed.
Lemma running_called l x c k p i : observed l x -> cf_task x c = Running k p i -> in_call l c = Some k.
Proof.
  intros OB T. pose proof (linv_observed P top pb rb G s0 ordered ST ordered_safe _ _ OB c) as LI.
  rewrite T in LI. cbn [task_inv] in LI. destruct LI as (l1 & l2 & -> & NC & _). apply in_call_split. exact NC.
Qed.
Lemma progress_observed l x : observed l x -> progress l x.
Proof.
  destruct (started_geom _ _ _ _ _ _ ST) as [g _].
  revert l x. apply observed_cases.
  - intros l1 l2 E ID. symmetry in E. apply app_eq_nil in E. destruct E as [-> ->]. split.
    + intros c k p i C T. discriminate.
    + intros (c & k & []).
  - intros l s t h c k OB IH C T AR AK l1 l2 E ID. cbn [cf_task] in *.
    destruct l2 as [|e l2] using rev_ind; [|clear IHl2].
    { exfalso. rewrite app_nil_r in E. subst l1. specialize (ID c C). rewrite in_call_snoc in ID.
      cbn in ID. rewrite N.eqb_refl in ID. discriminate. }
    rewrite app_assoc in E. apply snoc_eq in E. destruct E as [E <-].
    destruct (IH l1 l2 E ID) as [H1 H2]. cbn [cf_task] in *.
    assert (W : forall r, wit l2 t r -> wit (l2 ++ [Start c k]) (upd t c (Running k (call_prog G k) [])) r).
    { intros r [(a & b & v & I & V)|(u & k' & p & i & U & T' & X)].
      - left. exists a, b, v. split; [apply in_or_app; auto|exact V].
      - right. exists u, k', p, i. split; [exact U|]. split; [|exact X].
        unfold upd. destruct (N.eqb_spec u c) as [->|]; [congruence|exact T']. }
    split.
    + intros c' k' p i C' T' F. unfold upd in T'. destruct (N.eqb_spec c' c) as [->|NE].
      * inversion T'. subst. discriminate F.
      * destruct (H1 c' k' p i C' T' F) as [X Y]. split; [apply W; exact X|]. intros r I. apply W. auto.
    + intros (c' & k' & I). apply W, H2. exists c', k'. apply in_app_or in I.
      destruct I as [I|[I|[]]]; [exact I|discriminate].
  - intros l s t h c k o f i s' v OB IH C T SP NW l1 l2 E ID. cbn [cf_task] in *.
    destruct (IH l1 l2 E ID) as [H1 H2]. cbn [cf_task] in *. clear IH.
    pose proof (observed_reach _ _ _ _ _ _ _ OB) as CR.
    destruct (reach_disc P top pb rb G s0 ordered ST ordered_safe _ _ CR c k _ i C T) as ([_ OR] & D & _).
    cbn [disc] in D. destruct D as [TR _].
    assert (OTH : forall u k' p i', u <> c -> t u = Running k' p i' ->
      upd t c (Running k (f v) ((o, v) :: i)) u = Running k' p i').
    { intros u k' p i' NE T'. unfold upd. replace (u =? c) with false by lia. exact T'. }
    set (t' := upd t c (Running k (f v) ((o, v) :: i))) in *.
    destruct (failed (next G o v (track i))) eqn:FN.
    + destruct (failed (track i)) eqn:FO.
      * (* refused before *)
        assert (W : forall r, wit l2 t r -> wit l2 t' r).
        { intros r [X|(u & k' & p & i' & U & T' & X)]; [left; exact X|]. right. exists u, k', p, i'.
          split; [exact U|]. split; [|exact X]. apply OTH; [|exact T']. intros ->. rewrite T in T'. inversion T'. subst.
          destruct X as [X _]. congruence. }
        split; [|intros X; apply W; auto].
        intros c' k' p i' C' T' F. destruct (N.eq_dec c' c) as [->|NE].
        -- destruct (H1 c k _ i C T FO) as [X Y]. split; [apply W; exact X|].
           unfold t' in T'. rewrite upd_same in T'. inversion T'. subst k' p i'. intros r I. apply W, Y.
           cbn [RefuseProofs.track] in I. destruct o; cbn [next] in *; auto.
           ++ destruct (region_at G a) as [q|] eqn:RA; [|exact I].
              destruct (TR a q eq_refl RA) as (_ & _ & Z). destruct (Z OR) as [Z' _]. congruence.
           ++ destruct (region_at G a) as [q|] eqn:RA; [|exact I]. cbn [taken fst] in I. eapply rem_in; eauto.
        -- unfold t', upd in T'. replace (c' =? c) with false in T' by lia.
           destruct (H1 c' k' p i' C' T' F) as [X Y]. split; [apply W; exact X|]. intros r I. apply W. auto.
      * (* refused now *)
        assert (RF : exists r, r < n /\ o = OTas (lock_addr G r) /\ v <> 0).
        { destruct o; cbn [next] in FN; try congruence.
          - destruct (region_at G a) as [r|] eqn:RA; [|congruence]. apply region_at_inv in RA. destruct RA as [RL ->].
            destruct (N.eqb_spec v 0); [|eauto]. assert (FN' : failed (track i) = true) by exact FN. congruence.
          - assert (FN' : failed (track i) = true) by (destruct (region_at G a); exact FN). congruence. }
        destruct RF as (r & RL & -> & V).
        destruct (TR _ r eq_refl (region_at_lock G r RL)) as (_ & _ & Z). destruct (Z OR) as (_ & FR & LOW).
        destruct (holder P top pb rb G s0 ordered ST ordered_safe _ c k r f i s' v _ CR C RL T SP V) as [d [DC DH]].
        destruct (held_taken _ _ _ _ OB DC RL DH) as (kd & pd & id & TD & ITD). cbn [cf_task] in TD.
        assert (DN : d <> c).
        { intros ->. rewrite T in TD. inversion TD. subst. specialize (LOW r ITD). lia. }
        assert (NW' : forall q, r < q -> wit l2 t' q).
        { intros q Q. destruct (failed (track id)) eqn:FD.
          - destruct (H1 d kd pd id DC TD FD) as [_ Y]. specialize (Y r ITD).
            destruct Y as [Y|(u & k' & p & i' & U & T' & X)]; [left; exact Y|]. right. exists u, k', p, i'.
            split; [exact U|]. split.
            + apply OTH; [|exact T']. intros ->. rewrite T in T'. inversion T'. subst.
              destruct X as [_ [X|(q' & X1 & X2)]]; [congruence|]. specialize (LOW q' X1). lia.
            + destruct X as [X1 [X2|(q' & X2 & X3)]]; split; auto. right. exists q'. split; [exact X2|lia].
          - right. exists d, kd, pd, id. split; [exact DC|]. split; [apply OTH; auto|]. split; [exact FD|].
            right. exists r. auto. }
        assert (W : forall q, wit l2 t q -> wit l2 t' q).
        { intros q [X|(u & k' & p & i' & U & T' & X)]; [left; exact X|].
          destruct (N.eq_dec u c) as [->|NE].
          - rewrite T in T'. inversion T'. subst. destruct X as [_ [X|(q' & X1 & X2)]]; [congruence|].
            specialize (LOW q' X1). apply NW'. lia.
          - right. exists u, k', p, i'. split; [exact U|]. split; [apply OTH; auto|exact X]. }
        split; [|intros X; apply W; auto].
        intros c' k' p i' C' T' F. destruct (N.eq_dec c' c) as [->|NE].
        -- split; [apply NW'; exact RL|]. unfold t' in T'. rewrite upd_same in T'. inversion T'. subst k' p i'.
           intros q I. apply NW'. apply LOW. cbn [RefuseProofs.track next] in I.
           rewrite (region_at_lock G r RL) in I. replace (v =? 0) with false in I by lia. exact I.
        -- unfold t', upd in T'. replace (c' =? c) with false in T' by lia.
           destruct (H1 c' k' p i' C' T' F) as [X Y]. split; [apply W; exact X|]. intros q I. apply W. auto.
    + (* not refused *)
      assert (FO : failed (track i) = false).
      { destruct o; cbn [next] in FN; auto.
        - destruct (region_at G a); [|exact FN]. destruct (v =? 0); [exact FN|discriminate].
        - destruct (region_at G a); exact FN. }
      assert (W : forall q, wit l2 t q -> wit l2 t' q).
      { intros q [X|(u & k' & p & i' & U & T' & X)]; [left; exact X|]. right.
        destruct (N.eq_dec u c) as [->|NE].
        - rewrite T in T'. inversion T'. subst. exists c, k', (f v), ((o, v) :: i'). split; [exact C|].
          split; [apply upd_same|]. destruct X as [_ X]. split; [exact FN|]. cbn [RefuseProofs.track].
          destruct o; cbn [next]; auto.
          + destruct (region_at G a) as [r|]; [|exact X]. destruct (v =? 0); cbn [freed taken fst snd].
            * destruct X as [X|(q' & X1 & X2)]; [left; exact X|right; exists q'; cbn; auto].
            * exact X.
          + destruct (region_at G a) as [r|]; [left; reflexivity|exact X].
        - exists u, k', p, i'. split; [exact U|]. split; [apply OTH; auto|exact X]. }
      split; [|intros X; apply W; auto].
      intros c' k' p i' C' T' F. destruct (N.eq_dec c' c) as [->|NE].
      * unfold t' in T'. rewrite upd_same in T'. inversion T'. subst. cbn [RefuseProofs.track] in F. congruence.
      * unfold t', upd in T'. replace (c' =? c) with false in T' by lia.
        destruct (H1 c' k' p i' C' T' F) as [X Y]. split; [apply W; exact X|]. intros q I. apply W. auto.
  - intros l s t h c k v i OB IH C T l1 l2 E ID. cbn [cf_task] in *.
    destruct l2 as [|e l2] using rev_ind; [|clear IHl2].
    { rewrite app_nil_r in E. subst l1. split; [|intros (c' & k' & [])].
      intros c' k' p i' C' T' F. exfalso. unfold upd in T'. destruct (N.eqb_spec c' c) as [->|NE]; [discriminate|].
      specialize (ID c' C'). rewrite in_call_snoc in ID. cbn in ID. replace (c =? c') with false in ID by lia.
      rewrite (running_called _ _ _ _ _ _ OB T') in ID. discriminate. }
    rewrite app_assoc in E. apply snoc_eq in E. destruct E as [E <-].
    destruct (IH l1 l2 E ID) as [H1 H2]. cbn [cf_task] in *. clear IH.
    destruct (N.eq_dec v 3) as [->|V3].
    2:{ assert (W : forall q, wit (l2 ++ [Finish c k v]) (upd t c Idle) q).
        { intros q. left. exists c, k, v. split; [apply in_or_app; cbn; auto|exact V3]. }
        split; [|auto]. intros. split; auto. }
    pose proof (observed_reach _ _ _ _ _ _ _ OB) as CR.
    destruct (reach_disc P top pb rb G s0 ordered ST ordered_safe _ _ CR c k _ i C T) as ([_ OR] & D & _).
    cbn [disc] in D. destruct D as [D _].
    assert (FO : failed (track i) = true).
    { apply D; [reflexivity|]. destruct k; try reflexivity; destruct OR. }
    assert (W : forall r, wit l2 t r -> wit (l2 ++ [Finish c k 3]) (upd t c Idle) r).
    { intros r [(a & b & v & I & V)|(u & k' & p & i' & U & T' & X)].
      - left. exists a, b, v. split; [apply in_or_app; auto|exact V].
      - right. exists u, k', p, i'. split; [exact U|]. split; [|exact X].
        unfold upd. destruct (N.eqb_spec u c) as [->|]; [|exact T']. exfalso. rewrite T in T'. inversion T'. subst.
        destruct X as [X _]. congruence. }
    split.
    + intros c' k' p i' C' T' F. unfold upd in T'. destruct (N.eqb_spec c' c) as [->|NE]; [discriminate|].
      destruct (H1 c' k' p i' C' T' F) as [X Y]. split; [apply W; exact X|]. intros r I. apply W. auto.
    + intros _. apply W. exact (proj1 (H1 c k _ i C T FO)).
  - intros l s t h s' OB IH l1 l2 E ID. exact (IH l1 l2 E ID).
Qed.
End Progress.

(** In a period between two instants at which no call is in progress, if every call
    is about one region, or about two and names the higher one first, not all calls
    are refused. *)
Theorem C90_progress_partial : forall P top pb rb G s0 l1 l2 x,
  started P top pb rb G s0 ->
  observed G pb rb (fun k => safe_call G k /\ in_order G pb rb k) s0 (l1 ++ l2) x ->
  (forall c, c < g_core_count G -> in_call l1 c = None) -> quiet G x ->
  (exists c k, In (Finish c k concurrent_call) l2) ->
  exists c k v, In (Finish c k v) l2 /\ v <> concurrent_call.
Proof.
  intros P top pb rb G s0 l1 l2 x ST OB ID Q EX.
  destruct (progress_observed P top pb rb G s0 ST _ x OB l1 l2 eq_refl ID) as [_ H].
  destruct (H EX) as [W|(u & k & p & i & U & T & _)]; [exact W|].
  rewrite (Q u U) in T. discriminate.
Qed.

(** ** Examples *)
Ltac obs_tac := repeat lazymatch goal with
  | |- observed _ _ _ _ _ (snd (oops _ _ _ _)) _ => apply oops_observed; [vm_compute; reflexivity|]
  | |- observed _ _ _ _ _ (snd (obegin _ _ _ _)) _ =>
      apply obegin_observed; [vm_compute; reflexivity|vm_compute; reflexivity|repeat split; reflexivity|
        repeat split; first [exact Logic.I | reflexivity | discriminate]|]
  | |- observed _ _ _ _ _ (snd (initial _, _)) _ => exact (ob_none _ _ _ _ _)
  end.
(** Core 0 blocks region 5; core 1 tries to at the same time and is refused. *)
Definition ex_refused : conf * list obs :=
  oops ex_G 50 0 (oops ex_G 50 1 (obegin ex_G 1 (CBlock 5)
    (oops ex_G 3 0 (obegin ex_G 0 (CBlock 5) (initial ex_s0, []))))).
Example C89_example : snd ex_refused =
    [Start 0 (CBlock 5)] ++ Start 1 (CBlock 5) :: [] ++ Finish 1 (CBlock 5) concurrent_call :: [Finish 0 (CBlock 5) ok] /\
  observed ex_G 6 4 (safe_call ex_G) ex_s0 (snd ex_refused) (fst ex_refused) /\
  in_call ([Start 0 (CBlock 5)] ++ [Start 1 (CBlock 5)]) 0 = Some (CBlock 5).
Proof.
  split; [vm_compute; reflexivity|]. split; [|reflexivity].
  unfold ex_refused. obs_tac.
Qed.
(** The second case: delete_thread succeeded, and with no other call in progress a
    call on region 5 is refused. *)
Definition ex_stuck : conf * list obs :=
  oops ex_G 50 1 (obegin ex_G 1 (CBlock 5)
    (oops ex_G 50 0 (obegin ex_G 0 (CDeleteThread 0) (initial ex_s0, [])))).
Theorem C89_leak_refuted : exists P top pb rb G s0 l x,
  started P top pb rb G s0 /\ observed G pb rb (safe_call G) s0 l x /\
  exists l1 l2, l = l1 ++ Start 1 (CBlock 5) :: l2 ++ [Finish 1 (CBlock 5) concurrent_call] /\
    ~ names_twice G pb rb (CBlock 5) /\
    forall a b c', l2 = a ++ b -> c' <> 1 -> in_call (l1 ++ Start 1 (CBlock 5) :: a) c' = None.
Proof.
  exists ex_platform, 0, 6, 4, ex_G, ex_s0, (snd ex_stuck), (fst ex_stuck).
  split; [exact ex_started|]. split; [unfold ex_stuck; obs_tac|].
  exists [Start 0 (CDeleteThread 0); Finish 0 (CDeleteThread 0) ok], [].
  split; [vm_compute; reflexivity|]. split; [cbn; auto|].
  intros a b c' E NE. symmetry in E. apply app_eq_nil in E. destruct E as [-> ->].
  unfold in_call. cbn [app fold_left]. replace (1 =? c') with false by lia.
  destruct (0 =? c'); reflexivity.
Qed.
(** With accept_thread among the calls, a refusal may have no cause: the word it
    takes for a lock (C49) lies in memory that the OS wrote to. *)
Definition ex_word : conf * list obs :=
  (mkConf (set_mem ex_s0 (st 1 (s_mem ex_s0) 163904 1)) (fun _ => Idle) (fun _ _ => false), []).
Lemma ex_word_observed : observed ex_G 6 4 (fun _ => True) ex_s0 (snd ex_word) (fst ex_word).
Proof.
  assert (CA : cpu_may_access 6 4 (s_cores ex_s0 0) 163904).
  { unfold cpu_may_access. split; vm_compute; congruence. }
  apply (ob_other ex_G 6 4 (fun _ => True) ex_s0 [] (initial ex_s0) (fst ex_word)).
  - apply ob_none.
  - unfold ex_word, initial. cbn [fst]. revert CA. generalize ex_s0. intros s CA.
    apply cs_store with (c := 0); [vm_compute; reflexivity|reflexivity|vm_compute; reflexivity|exact CA].
  - intros c. split; intros _; reflexivity.
Qed.
Definition ex_alone : conf * list obs :=
  oops ex_G 50 0 (obegin ex_G 0 (CAcceptThread 0 4096) ex_word).
Theorem C89_accept_thread_refuted : exists P top pb rb G s0 x,
  started P top pb rb G s0 /\ 
  observed G pb rb (fun _ => True) s0
    [Start 0 (CAcceptThread 0 4096); Finish 0 (CAcceptThread 0 4096) concurrent_call] x.
Proof.
  exists ex_platform, 0, 6, 4, ex_G, ex_s0, (fst ex_alone).
  split; [exact ex_started|].
  assert (E : snd ex_alone = [Start 0 (CAcceptThread 0 4096); Finish 0 (CAcceptThread 0 4096) concurrent_call])
    by (vm_compute; reflexivity).
  rewrite <- E. unfold ex_alone. obs_tac.
  apply ex_word_observed.
Qed.

(** load_thread and assign_thread also take a lock that is a word of the enclave's record.
    It may be set although no call is in progress: core 1 blocks region 2 and makes it a
    metadata region, core 0, whose registers still admit the region (C36), stores an entry of
    the map and a lock word, and core 1's assign_thread is refused. *)
Definition ostore (a v : N) (x : conf * list obs) : conf * list obs :=
  (mkConf (set_mem (cf_state (fst x)) (st 1 (s_mem (cf_state (fst x))) a v))
     (cf_task (fst x)) (cf_held (fst x)), snd x).
Lemma ostore_observed G pb rb (al : call -> Prop) s0 c a v x : c < g_core_count G ->
  is_idle (fst x) c = true -> a < W64 -> cpu_may_access pb rb (s_cores (cf_state (fst x)) c) a ->
  observed G pb rb al s0 (snd x) (fst x) ->
  observed G pb rb al s0 (snd (ostore a v x)) (fst (ostore a v x)).
Proof.
  intros C I A AC R. destruct x as [[s t h] l]. unfold is_idle in I. unfold ostore. cbn [cf_task cf_state cf_held fst snd] in *.
  assert (T : t c = Idle) by (destruct (t c); [reflexivity|discriminate]).
  eapply ob_other; [exact R|eapply cs_store with (c := c); eauto|]. cbn. tauto.
Qed.
Definition ocall (m : nat) (c : N) (k : call) (x : conf * list obs) : conf * list obs :=
  oops ex_G m c (obegin ex_G c k x).
Definition ex_stale : conf * list obs :=
  ocall 600 1 (CCreateMetadataRegion 2) (ocall 50 1 (CFree 2) (ocall 50 1 CFlush
    (ocall 50 0 CFlush (ocall 50 1 (CBlock 2) (initial ex_s0, []))))).
Definition ex_forged : conf * list obs :=
  ostore (532480) 1 (ostore (524288 + 18) 8
    (ostore (524288 + 17) 32 (ostore (524288 + 16) 2 ex_stale))).
Definition ex_record : conf * list obs := ocall 50 1 (CAssignThread (532480) 0) ex_forged.
Definition ex_before : list obs :=
  [Start 1 (CBlock 2); Finish 1 (CBlock 2) ok; Start 0 CFlush; Finish 0 CFlush ok;
   Start 1 CFlush; Finish 1 CFlush ok; Start 1 (CFree 2); Finish 1 (CFree 2) ok;
   Start 1 (CCreateMetadataRegion 2); Finish 1 (CCreateMetadataRegion 2) ok].
Theorem C89_record_refuted : exists P top pb rb G s0 l x k,
  started P top pb rb G s0 /\
  observed G pb rb (safe_call G) s0 (l ++ [Start 1 k; Finish 1 k concurrent_call]) x /\
  locks_record k = true /\ ~ names_twice G pb rb k /\
  (forall c, in_call l c = None) /\ (forall c k', In (Finish c k' ok) l -> leaky k' = false).
Proof.
  exists ex_platform, 0, 6, 4, ex_G, ex_s0, ex_before, (fst ex_record), (CAssignThread (532480) 0).
  split; [exact ex_started|]. split; [|split; [reflexivity|split; [exact (fun H => H)|split]]].
  - assert (E : snd ex_record = ex_before ++ [Start 1 (CAssignThread (532480) 0);
       Finish 1 (CAssignThread (532480) 0) concurrent_call]) by (vm_compute; reflexivity).
    rewrite <- E. unfold ex_record, ocall. obs_tac. unfold ex_forged.
    do 4 (apply ostore_observed with (c := 0);
      [reflexivity|vm_compute; reflexivity|reflexivity|split; [vm_compute; reflexivity|vm_compute; discriminate]|]).
    unfold ex_stale, ocall. obs_tac.
  - intros c. unfold in_call, ex_before. cbn [fold_left]. destruct (1 =? c), (0 =? c); reflexivity.
  - intros c k' IN. cbn in IN.
    repeat (destruct IN as [IN|IN]; [first [discriminate|injection IN as <- <-; reflexivity]|]). destruct IN.
Qed.

(** Core 1's block of region 5 waits for the lock of region 0, core 0's block of
    region 5 is refused, core 1's block succeeds. *)
Example C90_example :
  observed ex_G 6 4 (fun k => safe_call ex_G k /\ in_order ex_G 6 4 k) ex_s0
    ([] ++ snd ex_refused) (fst ex_refused) /\
  quiet ex_G (fst ex_refused) /\
  In (Finish 1 (CBlock 5) concurrent_call) (snd ex_refused) /\
  In (Finish 0 (CBlock 5) ok) (snd ex_refused).
Proof.
  split; [cbn [app]; unfold ex_refused; obs_tac|]. split.
  - intros c C. change (g_core_count ex_G) with 2 in C.
    assert (D : c = 0 \/ c = 1) by lia. destruct D as [-> | ->]; vm_compute; reflexivity.
  - split; vm_compute; auto.
Qed.
(** Without the order: set_dma_range on a page of region 2 and a block of region 2
    refuse each other; both return, and no region changed. *)
Definition dma2 : call := CSetDmaRange 524288 4095.
Definition ex_deadlock : conf * list obs :=
  oops ex_G 50 0 (oops ex_G 50 1 (oops ex_G 1 0 (oops ex_G 1 1 (obegin ex_G 1 (CBlock 2)
    (oops ex_G 1 0 (obegin ex_G 0 dma2 (initial ex_s0, []))))))).
Theorem C90_dma_refuted : exists P top pb rb G s0 x,
  started P top pb rb G s0 /\
  observed G pb rb (safe_call G) s0
    [Start 0 dma2; Start 1 (CBlock 2);
     Finish 1 (CBlock 2) concurrent_call; Finish 0 dma2 concurrent_call] x /\
  quiet G x /\ region_of pb rb 524288 = 2 /\ owner_of G (cf_state x) 2 = 0 /\
  forall r, r < g_dram_region_count G -> lock_of G (cf_state x) r = 0.
Proof.
  exists ex_platform, 0, 6, 4, ex_G, ex_s0, (fst ex_deadlock).
  assert (E : snd ex_deadlock = [Start 0 dma2; Start 1 (CBlock 2);
     Finish 1 (CBlock 2) concurrent_call; Finish 0 dma2 concurrent_call]) by (vm_compute; reflexivity).
  assert (O : observed ex_G 6 4 (safe_call ex_G) ex_s0 (snd ex_deadlock) (fst ex_deadlock))
    by (unfold ex_deadlock; obs_tac).
  assert (Q : quiet ex_G (fst ex_deadlock)).
  { intros c C. change (g_core_count ex_G) with 2 in C.
    assert (D : c = 0 \/ c = 1) by lia. destruct D as [-> | ->]; vm_compute; reflexivity. }
  split; [exact ex_started|]. rewrite E in O. split; [exact O|]. split; [exact Q|].
  split; [vm_compute; reflexivity|]. split; [vm_compute; reflexivity|].
  intros r R. change (g_dram_region_count ex_G) with 16 in R.
  assert (D : In r [0;1;2;3;4;5;6;7;8;9;10;11;12;13;14;15]) by (cbn; lia).
  cbn [In] in D. repeat (destruct D as [<-|D]; [vm_compute; reflexivity|]). destruct D.
Qed.
(** This can go on forever. *)
Definition hd_op (p : prog N) : option op := match p with Do o _ => Some o | _ => None end.
Definition next_prog (p : prog N) (v : N) : prog N := match p with Do _ f => f v | _ => p end.
Definition path (k : call) (vs : list N) : prog N := fold_left next_prog vs (call_prog ex_G k).
Definition is_ret (p : prog N) (w : N) : bool := match p with Ret v => v =? w | _ => false end.
(** Locks of regions 0 and 2 as given, the rest of memory as after boot. *)
Definition locks_are (l0 l2 : N) (s : state) : Prop :=
  ld 8 (s_mem s) 64 = l0 /\ ld 8 (s_mem s) 144 = l2 /\
  forall a, a + 8 <= 64 \/ 72 <= a /\ a + 8 <= 144 \/ 152 <= a -> ld 8 (s_mem s) a = ld 8 (s_mem ex_s0) a.
Lemma locks_clock l0 l2 s : locks_are l0 l2 s -> clock_of ex_G s = clock_of ex_G ex_s0.
Proof.
  intros (_ & _ & F). unfold clock_of. change (g_dram_regions ex_G) with 704. apply F. right. right. vm_compute. discriminate.
Qed.
Lemma lock0_set v l0 l2 s : v < W64 -> locks_are l0 l2 s -> locks_are v l2 (set_mem s (st 8 (s_mem s) 64 v)).
Proof.
  intros V (A & B & F). unfold locks_are. cbn [set_mem s_mem]. split; [apply ld8_st8; exact V|].
  split; [rewrite ld_st_other by (right; vm_compute; discriminate); exact B|].
  intros a H. rewrite ld_st_other by lia. auto.
Qed.
Lemma lock2_set v l0 l2 s : v < W64 -> locks_are l0 l2 s -> locks_are l0 v (set_mem s (st 8 (s_mem s) 144 v)).
Proof.
  intros V (A & B & F). unfold locks_are. cbn [set_mem s_mem].
  split; [rewrite ld_st_other by (left; vm_compute; discriminate); exact A|]. split; [apply ld8_st8; exact V|].
  intros a H. rewrite ld_st_other by lia. auto.
Qed.
(** The two cores: what they run. *)
Definition both (t : N -> task) (t0 t1 : task -> Prop) : Prop := t0 (t 0) /\ t1 (t 1).
Definition at_path (k : call) (vs : list N) (t : task) : Prop := exists i, t = Running k (path k vs) i.
Definition idle (t : task) : Prop := t = Idle.
Definition before (l : list obs) (l0 l2 : N) (t0 t1 : task -> Prop) : Prop := exists x,
  observed ex_G 6 4 (safe_call ex_G) ex_s0 l x /\ locks_are l0 l2 (cf_state x) /\ both (cf_task x) t0 t1.
Definition on (c : N) (t u : task -> Prop) : (task -> Prop) * (task -> Prop) :=
  if c =? 0 then (t, u) else (u, t).
Lemma upd_two c x t T U : c < 2 -> (both t (fst (on c T U)) (snd (on c T U))) ->
  forall V : task -> Prop, V x -> both (upd t c x) (fst (on c V U)) (snd (on c V U)).
Proof.
  intros C B V X. assert (D : c = 0 \/ c = 1) by lia. unfold both, on in *.
  destruct D as [-> | ->]; cbn in *; unfold upd; cbn; destruct B; auto.
Qed.
Lemma step_start c k l l0 l2 U : c < 2 -> call_args_ok k -> safe_call ex_G k ->
  before l l0 l2 (fst (on c idle U)) (snd (on c idle U)) ->
  before (l ++ [Start c k]) l0 l2 (fst (on c (at_path k []) U)) (snd (on c (at_path k []) U)).
Proof.
  intros C A S ([s t h] & OB & LK & BT). cbn [cf_state cf_task] in *.
  assert (T : t c = Idle).
  { assert (D : c = 0 \/ c = 1) by lia. destruct D as [-> | ->]; destruct BT as [B0 B1]; assumption. }
  exists (mkConf s (upd t c (Running k (call_prog ex_G k) [])) h). split; [|split; [exact LK|]].
  - apply ob_start with (x := mkConf s t h); [exact OB|constructor; assumption|exact T|apply upd_same].
  - cbn [cf_task]. apply upd_two with (T := idle); [exact C|exact BT|]. exists []. reflexivity.
Qed.
Lemma step_op c k vs o v l l0 l2 m0 m2 U : c < 2 -> hd_op (path k vs) = Some o ->
  (forall s, locks_are l0 l2 s -> snd (step c o s) = v /\ locks_are m0 m2 (fst (step c o s))) ->
  before l l0 l2 (fst (on c (at_path k vs) U)) (snd (on c (at_path k vs) U)) ->
  before l m0 m2 (fst (on c (at_path k (vs ++ [v])) U)) (snd (on c (at_path k (vs ++ [v])) U)).
Proof.
  intros C H E ([s t h] & OB & LK & BT). cbn [cf_state cf_task] in *.
  assert (T : at_path k vs (t c)).
  { assert (D : c = 0 \/ c = 1) by lia. destruct D as [-> | ->]; destruct BT as [B0 B1]; assumption. }
  destruct T as [i T]. destruct (path k vs) as [w|o' f|] eqn:PE; try discriminate H.
  cbn [hd_op] in H. injection H as ->. destruct (E s LK) as [V LK'].
  destruct (step c o s) as [s' v'] eqn:SP. cbn [fst snd] in *. subst v'.
  assert (PN : path k (vs ++ [v]) = f v) by (unfold path in *; rewrite fold_left_app, PE; reflexivity).
  exists (mkConf s' (upd t c (Running k (f v) ((o, v) :: i))) (held_after ex_G c o v h)).
  split; [|split; [exact LK'|]].
  - apply ob_other with (x := mkConf s t h); [exact OB| |].
    + econstructor; [exact C|exact T|exact SP|]. intros _.
      rewrite (locks_clock _ _ _ LK), (locks_clock _ _ _ LK'). apply N.le_refl.
    + intros d. cbn [cf_task]. unfold upd. destruct (N.eqb_spec d c) as [->|NE]; [rewrite T|tauto].
      split; discriminate.
  - cbn [cf_task]. apply upd_two with (T := at_path k vs); [exact C|exact BT|].
    exists ((o, v) :: i). rewrite PN. reflexivity.
Qed.
Lemma step_finish c k vs w l l0 l2 U : c < 2 -> is_ret (path k vs) w = true ->
  before l l0 l2 (fst (on c (at_path k vs) U)) (snd (on c (at_path k vs) U)) ->
  before (l ++ [Finish c k w]) l0 l2 (fst (on c idle U)) (snd (on c idle U)).
Proof.
  intros C H ([s t h] & OB & LK & BT). cbn [cf_state cf_task] in *.
  assert (T : at_path k vs (t c)).
  { assert (D : c = 0 \/ c = 1) by lia. destruct D as [-> | ->]; destruct BT as [B0 B1]; assumption. }
  destruct T as [i T]. destruct (path k vs) as [u|o' f|] eqn:PE; try discriminate H.
  cbn [is_ret] in H. apply N.eqb_eq in H. subst u.
  exists (mkConf s (upd t c Idle) h). split; [|split; [exact LK|]].
  - apply ob_finish with (x := mkConf s t h) (i := i); [exact OB|econstructor; eassumption|exact T|apply upd_same].
  - cbn [cf_task]. apply upd_two with (T := at_path k vs); [exact C|exact BT|reflexivity].
Qed.
Lemma op_tas0 c l0 l2 s : locks_are l0 l2 s ->
  snd (step c (OTas 64) s) = (if l0 =? 0 then 0 else 1) /\ locks_are 1 l2 (fst (step c (OTas 64) s)).
Proof.
  intros LK. cbn [step fst snd]. split; [destruct LK as [-> _]; reflexivity|].
  eapply lock0_set; [reflexivity|exact LK].
Qed.
Lemma op_tas2 c l0 l2 s : locks_are l0 l2 s ->
  snd (step c (OTas 144) s) = (if l2 =? 0 then 0 else 1) /\ locks_are l0 1 (fst (step c (OTas 144) s)).
Proof.
  intros LK. cbn [step fst snd]. split; [destruct LK as (_ & -> & _); reflexivity|].
  eapply lock2_set; [reflexivity|exact LK].
Qed.
Lemma op_clr0 c l0 l2 s : locks_are l0 l2 s ->
  snd (step c (OClr 64) s) = 0 /\ locks_are 0 l2 (fst (step c (OClr 64) s)).
Proof. intros LK. cbn [step fst snd]. split; [reflexivity|]. eapply lock0_set; [reflexivity|exact LK]. Qed.
Lemma op_clr2 c l0 l2 s : locks_are l0 l2 s ->
  snd (step c (OClr 144) s) = 0 /\ locks_are l0 0 (fst (step c (OClr 144) s)).
Proof. intros LK. cbn [step fst snd]. split; [reflexivity|]. eapply lock2_set; [reflexivity|exact LK]. Qed.
Lemma op_ld c a l0 l2 s : a + 8 <= 64 \/ 72 <= a /\ a + 8 <= 144 \/ 152 <= a -> ld 8 (s_mem ex_s0) a = 0 ->
  locks_are l0 l2 s -> snd (step c (OLd 8 a) s) = 0 /\ locks_are l0 l2 (fst (step c (OLd 8 a) s)).
Proof.
  intros A Z LK. cbn [step fst snd]. split; [|exact LK]. destruct LK as (_ & _ & F). rewrite F by exact A. exact Z.
Qed.
Definition round : list obs := [Start 0 dma2; Start 1 (CBlock 2);
  Finish 1 (CBlock 2) concurrent_call; Finish 0 dma2 concurrent_call].
Definition blocking : call := CBlock 2.
Lemma one_round l : before l 0 0 idle idle -> before (l ++ round) 0 0 idle idle.
Proof.
  intros H. replace (l ++ round) with ((((l ++ [Start 0 dma2]) ++ [Start 1 blocking]) ++
    [Finish 1 blocking 3]) ++ [Finish 0 dma2 3]) by (rewrite <- !app_assoc; reflexivity).
  assert (A0 : call_args_ok dma2 /\ safe_call ex_G dma2) by (repeat split; reflexivity).
  assert (A1 : call_args_ok blocking /\ safe_call ex_G blocking) by (repeat split; reflexivity).
  destruct A0 as [A0 S0], A1 as [A1 S1].
  assert (D0 : hd_op (path dma2 []) = Some (OTas 64)) by (vm_compute; reflexivity).
  assert (D1 : hd_op (path dma2 [0]) = Some (OTas 144)) by (vm_compute; reflexivity).
  assert (D2 : hd_op (path dma2 [0; 1]) = Some (OClr 64)) by (vm_compute; reflexivity).
  assert (D3 : is_ret (path dma2 [0; 1; 0]) 3 = true) by (vm_compute; reflexivity).
  assert (B0 : hd_op (path blocking []) = Some (OTas 144)) by (vm_compute; reflexivity).
  assert (B1 : hd_op (path blocking [0]) = Some (OLd 8 152)) by (vm_compute; reflexivity).
  assert (B2 : hd_op (path blocking [0; 0]) = Some OCore) by (vm_compute; reflexivity).
  assert (B3 : hd_op (path blocking [0; 0; 1]) = Some (OLd 8 32)) by (vm_compute; reflexivity).
  assert (B4 : hd_op (path blocking [0; 0; 1; 0]) = Some (OTas 64)) by (vm_compute; reflexivity).
  assert (B5 : hd_op (path blocking [0; 0; 1; 0; 1]) = Some (OClr 144)) by (vm_compute; reflexivity).
  assert (B6 : is_ret (path blocking [0; 0; 1; 0; 1; 0]) 3 = true) by (vm_compute; reflexivity).
  assert (L1 : ld 8 (s_mem ex_s0) 152 = 0) by (vm_compute; reflexivity).
  assert (L2 : ld 8 (s_mem ex_s0) 32 = 0) by (vm_compute; reflexivity).
  assert (C0 : 0 < 2) by reflexivity. assert (C1 : 1 < 2) by reflexivity.
  revert H. generalize l. clear l. intros l H.
  (* core 0: the lock of region 0; core 1: that of region 2 *)
  apply (step_start 0 dma2 l 0 0 idle C0 A0 S0) in H.
  apply (step_op 0 dma2 [] (OTas 64) 0 _ 0 0 1 0 idle C0 D0 (op_tas0 0 0 0)) in H.
  apply (step_start 1 blocking _ 1 0 (at_path dma2 [0]) C1 A1 S1) in H.
  apply (step_op 1 blocking [] (OTas 144) 0 _ 1 0 1 1 (at_path dma2 [0]) C1 B0 (op_tas2 1 1 0)) in H.
  (* core 0 does not get the lock of region 2 *)
  apply (step_op 0 dma2 [0] (OTas 144) 1 _ 1 1 1 1 (at_path blocking [0]) C0 D1 (op_tas2 0 1 1)) in H.
  (* core 1 does not get that of region 0, and returns *)
  apply (step_op 1 blocking [0] (OLd 8 152) 0 _ 1 1 1 1 (at_path dma2 [0; 1]) C1 B1
    (fun s => op_ld 1 152 1 1 s (or_intror (or_intror (N.le_refl 152 : 152 <= 152))) L1)) in H.
  apply (step_op 1 blocking [0; 0] OCore 1 _ 1 1 1 1 (at_path dma2 [0; 1]) C1 B2
    (fun s LK => conj eq_refl LK)) in H.
  assert (X2 : 32 + 8 <= 64) by (vm_compute; discriminate).
  apply (step_op 1 blocking [0; 0; 1] (OLd 8 32) 0 _ 1 1 1 1 (at_path dma2 [0; 1]) C1 B3
    (fun s => op_ld 1 32 1 1 s (or_introl X2) L2)) in H.
  apply (step_op 1 blocking [0; 0; 1; 0] (OTas 64) 1 _ 1 1 1 1 (at_path dma2 [0; 1]) C1 B4 (op_tas0 1 1 1)) in H.
  apply (step_op 1 blocking [0; 0; 1; 0; 1] (OClr 144) 0 _ 1 1 1 0 (at_path dma2 [0; 1]) C1 B5 (op_clr2 1 1 1)) in H.
  apply (step_finish 1 blocking [0; 0; 1; 0; 1; 0] 3 _ 1 0 (at_path dma2 [0; 1]) C1 B6) in H.
  (* core 0 returns *)
  apply (step_op 0 dma2 [0; 1] (OClr 64) 0 _ 1 0 0 0 idle C0 D2 (op_clr0 0 1 0)) in H.
  apply (step_finish 0 dma2 [0; 1; 0] 3 _ 0 0 idle C0 D3) in H.
  exact H.
Qed.
(** However often the two cores retry, both may be refused every time: at the end of every
    round no call is in progress, no lock is held and region 2 is still the OS's. *)
Theorem C90_livelock_refuted : exists P top pb rb G s0, started P top pb rb G s0 /\
  forall rounds : nat, exists x,
    observed G pb rb (safe_call G) s0
      (concat (repeat [Start 0 dma2; Start 1 (CBlock 2);
         Finish 1 (CBlock 2) concurrent_call; Finish 0 dma2 concurrent_call] rounds)) x /\
    quiet G x /\ owner_of G (cf_state x) 2 = 0 /\
    forall r, r < g_dram_region_count G -> lock_of G (cf_state x) r = 0.
Proof.
  exists ex_platform, 0, 6, 4, ex_G, ex_s0. split; [exact ex_started|]. intros m.
  assert (B : before (concat (repeat round m)) 0 0 idle idle).
  { induction m as [|m IH].
    - exists (initial ex_s0). split; [constructor|]. split; [|split; reflexivity].
      split; [vm_compute; reflexivity|]. split; [vm_compute; reflexivity|]. intros a _. reflexivity.
    - replace (concat (repeat round (S m))) with (concat (repeat round m) ++ round).
      + apply one_round. exact IH.
      + clear. induction m as [|m IH]; [reflexivity|].
        cbn [repeat concat] in *. rewrite <- app_assoc. f_equal. exact IH. }
  destruct B as (x & OB & (L0 & L2 & F) & T0 & T1). exists x. split; [exact OB|]. split; [|split].
  - intros c C. change (g_core_count ex_G) with 2 in C.
    assert (D : c = 0 \/ c = 1) by lia. destruct D as [-> | ->]; assumption.
  - unfold owner_of. change (ld 8 (s_mem (cf_state x)) 152 = 0).
    rewrite F by (right; right; vm_compute; discriminate). vm_compute. reflexivity.
  - intros r R. change (g_dram_region_count ex_G) with 16 in R.
    assert (D : In r [0;2;1;3;4;5;6;7;8;9;10;11;12;13;14;15]) by (cbn; lia).
    assert (I : forall a, a + 8 <= 64 \/ 72 <= a /\ a + 8 <= 144 \/ 152 <= a -> ld 8 (s_mem ex_s0) a = 0 ->
      ld 8 (s_mem (cf_state x)) a = 0) by (intros a A Z; rewrite F by exact A; exact Z).
    cbn [In] in D. destruct D as [<-|[<-|D]]; [exact L0|exact L2|].
    repeat (destruct D as [<-|D]; [apply I;
      [vm_compute; first [left; discriminate|right; left; split; discriminate|right; right; discriminate]
      |vm_compute; reflexivity]|]). destruct D.
Qed.

(** The same with two copies between debugging pages of two regions. *)
Definition copy23 : call := CCopyDebugPage 524288 528384 786432 true.
Definition copy32 : call := CCopyDebugPage 786432 790528 524288 true.
Definition ex_copies : conf * list obs :=
  oops ex_G 50 0 (oops ex_G 50 1 (oops ex_G 1 0 (oops ex_G 1 1 (obegin ex_G 1 copy32
    (oops ex_G 1 0 (obegin ex_G 0 copy23 (initial ex_s0, []))))))).
Theorem C90_copy_refuted : exists P top pb rb G s0 x,
  started P top pb rb G s0 /\
  observed G pb rb (safe_call G) s0
    [Start 0 copy23; Start 1 copy32;
     Finish 1 copy32 concurrent_call; Finish 0 copy23 concurrent_call] x /\ quiet G x /\
  in_order G pb rb copy32 /\ ~ in_order G pb rb copy23.
Proof.
  exists ex_platform, 0, 6, 4, ex_G, ex_s0, (fst ex_copies).
  assert (E : snd ex_copies = [Start 0 copy23; Start 1 copy32;
     Finish 1 copy32 concurrent_call; Finish 0 copy23 concurrent_call]) by (vm_compute; reflexivity).
  assert (O : observed ex_G 6 4 (safe_call ex_G) ex_s0 (snd ex_copies) (fst ex_copies))
    by (unfold ex_copies; obs_tac).
  split; [exact ex_started|]. rewrite E in O. split; [exact O|]. split; [|split].
  - intros c C. change (g_core_count ex_G) with 2 in C.
    assert (D : c = 0 \/ c = 1) by lia. destruct D as [-> | ->]; vm_compute; reflexivity.
  - vm_compute. reflexivity.
  - vm_compute. discriminate.
Qed.

Definition P_Refuse_theorems := (C89_refusal_justified_partial, C89_disjoint_partial, C89_example,
  C89_leak_refuted, C89_accept_thread_refuted, C89_record_refuted, C90_progress_partial, C90_example, C90_dma_refuted, C90_livelock_refuted,
  C90_copy_refuted).
Print Assumptions P_Refuse_theorems.
