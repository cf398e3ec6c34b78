(** * Atomicity: the operations at which calls take effect; calls without effect. *)
From Coq Require Import NArith ZArith Lia Bool List.
From Coq Require Import ZifyBool ZifyNat ZifyN.
From Verif Require Import Word Machine ModelBare ModelHash ModelInl ModelRegions
  ModelMetadata ModelEnclave ModelBoot ModelApi Lib BareProofs SpecGeometry
  GeomProofs Trace SpecMonitor SpecHistory SpecConcurrent ViewProofs SeqProofs SeqCalls SeqCalls2 SeqCalls3
  ConcProofs SpecLinear LinProofs.
Import ListNotations.
Open Scope N_scope.
Ltac Zify.zify_post_hook ::= Z.div_mod_to_equations.

Section Ops.
Variables (G : globals) (pb rb : N).
Hypothesis g : geom G pb rb.
Local Notation n := (g_dram_region_count G).
Local Notation W := (g_dram_region_bitmap_words G).
Local Notation cores := (g_core_count G).
Local Notation inv := (inv G true).
Local Notation agree := (agree G true).
Local Notation gua := (gua G true).
Local Notation res := (res G).
Local Notation safe := (safe G true).
Local Notation tidy := (tidy G).
Local Notation hold_after := (hold_after G).
Local Notation linv := (linv G).
Local Notation magree := (magree G).
Local Notation mgua := (mgua G).
Local Notation teff := (teff G pb rb).
Local Notation lsafe := (lsafe G pb rb).
Definition post (A : Type) := A -> (N -> bool) -> ost -> mstate -> (N -> bool) -> option N -> Prop.

(** ** block_dram_region takes effect when it reads the block clock. *)
Definition blocked_m (m : mstate) (c r v : N) : mstate :=
  load_access (mkM (upd (m_owner m) r Blocked) (upd (m_blocked_at m) r v) (m_clock m) (m_flushed m)
    (m_access m) (m_stuck m) (m_dma_start m) (m_dma_end m)) c.
Lemma lsafe_fadd c t r h o m a (Q : post N) : r < n -> r <> 0 -> h r = true -> h 0 = true ->
  m_owner m r = OS ->
  touches (m_dma_start m) (m_dma_end m) (stripe_start pb rb r 0) (stripe_start pb rb (r + 1) 0) = false ->
  (forall v, v < W64 -> Q v h o (blocked_m m c r v) a (Some 0)) ->
  lsafe c (CBlock r) t (op1 (OFadd (wadd (g_dram_regions G) drs_block_clock) 1)) h o m a None Q.
Proof.
  intros R RZ HR H0 MO TO H.
  assert (S : safe c (CBlock r) (op1 (OFadd (wadd (g_dram_regions G) drs_block_clock) 1)) h o
     (fun _ h' o' => h' = h /\ o' = o)).
  { apply (safe_fadd G pb rb g true); auto. }
  rewrite (clock_addr G pb rb g) in *.
  cbn [op1 LinProofs.lsafe ConcProofs.safe] in *.
  intros s1 o1 hd1 M1 CC V I L RS AG MA RG s2 v ST NW.
  destruct (S s1 o1 hd1 V I RS AG s2 v ST ltac:(auto)) as (o2 & V2 & I2 & GU & h' & o' & R' & A' & S').
  destruct S' as [-> ->].
  exists o2. do 3 (split; [assumption|]).
  cbn [step] in ST. pose proof (f_equal fst ST) as E2. pose proof (f_equal snd ST) as Ev.
  cbn [fst snd] in E2, Ev. rewrite (v_clock _ _ _ V) in E2, Ev.
  assert (V2' : view G s2 (with_clock o1 (wadd (o_clock o1) 1))).
  { rewrite <- E2. apply (v_set_clock G pb rb g); auto. apply wadd_lt. }
  pose proof (n_pos G pb rb g) as NP.
  pose proof (proj1 (RS 0 NP) H0) as HC0. pose proof (proj1 (RS r R) HR) as HCR.
  assert (VW : v < W64). { rewrite <- Ev, <- (v_clock _ _ _ V). apply ld8_bound. }
  pose (M2 := load_access (tick (set_owner M1 r Blocked) r) c).
  pose proof L as [L1 L2 L3 L4 L5 L6 L7 L8 L9 L10 L11].
  exists M2, (Some 0). split; [|split; [|split]].
  - right. split; [reflexivity|]. exists 0. split; [reflexivity|]. right.
    cbn [effect]. unfold block_table. rewrite <- (n_val G pb rb g).
    destruct (N.eqb_spec r 0) as [?|_]; [contradiction|]. destruct (N.leb_spec n r); [lia|]. cbn [orb].
    rewrite (ma_owner _ _ _ _ _ MA) by auto.
    rewrite MO, (l_unstuck G pb rb g _ _ _ _ _ L RS CC H0).
    destruct (ma_dma _ _ _ _ _ MA H0) as [-> ->]. rewrite TO. reflexivity.
  - apply (linv_hold G pb rb g _ hd1); [reflexivity|]. constructor; cbn; auto.
    + intros x X HX. rewrite <- (v_owner _ _ _ V2) by auto. rewrite (v_owner _ _ _ V2') by auto.
      cbn. rewrite upd_other by (intros ->; destruct (open_not _ _ _ _ CC HX HCR)). auto.
    + intros x X HX. rewrite <- (v_blocked _ _ _ V2) by auto. rewrite (v_blocked _ _ _ V2') by auto.
      cbn. rewrite upd_other by (intros ->; destruct (open_not _ _ _ _ CC HX HCR)). auto.
    + rewrite <- (v_clock _ _ _ V2), (v_clock _ _ _ V2'). cbn. rewrite <- L3. reflexivity.
    + intros c' C'. rewrite <- (v_flushed _ _ _ V2) by auto. rewrite (v_flushed _ _ _ V2') by auto. cbn. auto.
    + intros X. destruct (open_not _ _ _ _ CC X HC0).
    + intros x X. destruct (N.eq_dec x r) as [->|NE]; [right; exists c; auto|].
      rewrite upd_other by auto.
      rewrite <- (v_owner _ _ _ V2) by auto. rewrite (v_owner _ _ _ V2') by auto. cbn. auto.
    + intros c' x C' X NE. rewrite upd_other by congruence.
      rewrite <- (v_regs _ _ _ V2), (v_regs _ _ _ V2'). cbn. auto.
    + rewrite <- (v_words _ _ _ V2), (v_words _ _ _ V2'). cbn. auto.
    + intros X. eapply (gua_window G pb rb g); eauto. rewrite X. intros Y. inversion Y. lia.
  - constructor; cbn; intros; try contradiction.
    + rewrite upd_other; congruence.
    + rewrite upd_other; congruence.
    + rewrite upd_other; auto.
    + rewrite <- (v_regs _ _ _ V2), (v_regs _ _ _ V2'). reflexivity.
  - exists h, o, (blocked_m m c r v), a. do 2 (split; [assumption|]). split; [|split; [|auto]].
    + destruct MA as [A1 A2 A3 A4 A5]. constructor; cbn; auto.
      * intros x X HX. unfold upd. destruct (x =? r); auto.
      * intros x X HX. unfold upd. destruct (x =? r); auto. rewrite <- L3. congruence.
      * intros _ x X. unfold upd. destruct (x =? r); auto.
      * intros x X. rewrite !upd_same. unfold upd. destruct (x =? r); auto.
    + intros x X. rewrite <- (v_regs _ _ _ V2), (v_regs _ _ _ V2'). cbn. auto.
Qed.

(** ** flush_cached_dram_regions takes effect when it stores the time. *)
Lemma lsafe_st_flushed c t v h o m a (Q : post N) : c < cores -> v < W64 -> t <= v ->
  v <= o_clock o -> o_flushed o c <= v ->
  Q 0 h (with_flushed o c v) m a (Some 0) ->
  lsafe c CFlush t (store64 (wadd (core_addr G c) ci_flushed_at) v) h o m a None Q.
Proof.
  intros C B TV VC FV H.
  assert (S : safe c CFlush (store64 (wadd (core_addr G c) ci_flushed_at) v) h o
     (fun _ h' o' => h' = h /\ o' = with_flushed o c v)).
  { apply (safe_st_flushed G pb rb g true); auto. }
  rewrite (caddr G pb rb g) in * by (auto; reflexivity). change ci_flushed_at with 24 in *.
  cbn [op1 LinProofs.lsafe ConcProofs.safe] in *.
  intros s1 o1 hd1 M1 CC V I L RS AG MA RG s2 w ST NW.
  destruct (S s1 o1 hd1 V I RS AG s2 w ST ltac:(auto)) as (o2 & V2 & I2 & GU & h' & o' & R' & A' & S').
  destruct S' as [-> ->].
  exists o2. do 3 (split; [assumption|]).
  cbn [step] in ST. pose proof (f_equal fst ST) as E2. pose proof (f_equal snd ST) as Ev.
  cbn [fst snd] in E2, Ev. subst w.
  assert (V2' : view G s2 (with_flushed o1 c v)).
  { rewrite <- E2. apply (v_set_flushed G pb rb g); auto. }
  pose proof (n_pos G pb rb g) as NP.
  pose proof L as [L1 L2 L3 L4 L5 L6 L7 L8 L9 L10 L11].
  exists (flush_at M1 c v), (Some 0). split; [|split; [|split]].
  - right. split; [reflexivity|]. exists 0. split; [reflexivity|]. right. split; [reflexivity|].
    exists v. split; [|reflexivity]. split; [exact TV|].
    pose proof (a_clock _ _ _ _ _ _ AG eq_refl). rewrite <- L3. lia.
  - apply (linv_hold G pb rb g _ hd1); [reflexivity|]. constructor; cbn; auto.
    + intros x X HX. rewrite <- (v_owner _ _ _ V2) by auto. rewrite (v_owner _ _ _ V2') by auto. cbn. auto.
    + intros x X HX. rewrite <- (v_blocked _ _ _ V2) by auto. rewrite (v_blocked _ _ _ V2') by auto. cbn. auto.
    + rewrite <- (v_clock _ _ _ V2), (v_clock _ _ _ V2'). cbn. auto.
    + intros c' C'. rewrite <- (v_flushed _ _ _ V2) by auto. rewrite (v_flushed _ _ _ V2') by auto.
      cbn. unfold upd. destruct (c' =? c); auto.
    + intros X. rewrite <- (v_dma_start _ _ _ V2), <- (v_dma_end _ _ _ V2).
      rewrite (v_dma_start _ _ _ V2'), (v_dma_end _ _ _ V2'). cbn. auto.
    + intros x X. rewrite <- (v_owner _ _ _ V2) by auto. rewrite (v_owner _ _ _ V2') by auto. cbn. auto.
    + intros c' x C' X NE. rewrite <- (v_regs _ _ _ V2), (v_regs _ _ _ V2'). cbn. auto.
    + rewrite <- (v_words _ _ _ V2), (v_words _ _ _ V2'). cbn. auto.
    + intros X. eapply (gua_window G pb rb g); eauto. rewrite X. intros Y. inversion Y. lia.
  - constructor; cbn; intros; auto.
    rewrite <- (v_regs _ _ _ V2), (v_regs _ _ _ V2'). reflexivity.
  - exists h, (with_flushed o c v), m, a. do 2 (split; [assumption|]). split; [|split; [|auto]].
    + destruct MA as [A1 A2 A3 A4 A5]. constructor; cbn; auto.
    + intros x X. rewrite <- (v_regs _ _ _ V2), (v_regs _ _ _ V2'). cbn. auto.
Qed.

(** ** A refused free takes effect when it reads a flush time that is too old. *)
Lemma lsafe_flushed c t i r h o m a (Q : post N) : i < cores -> r < n -> h r = true ->
  m_owner m r = Blocked ->
  (forall v, v < m_blocked_at m r -> Q v h (with_flushed o i v) m a (Some invalid_state)) ->
  (forall v, m_blocked_at m r <= v -> Q v h (with_flushed o i v) m a None) ->
  lsafe c (CFree r) t (load64 (wadd (core_addr G i) ci_flushed_at)) h o m a None Q.
Proof.
  intros C R HR MO QB QG.
  assert (S : safe c (CFree r) (load64 (wadd (core_addr G i) ci_flushed_at)) h o
     (fun v h' o' => h' = h /\ o' = with_flushed o i v)).
  { apply (safe_flushed G pb rb g true); auto. }
  rewrite (caddr G pb rb g) in * by (auto; reflexivity). change ci_flushed_at with 24 in *.
  cbn [op1 LinProofs.lsafe ConcProofs.safe] in *.
  intros s1 o1 hd1 M1 CC V I L RS AG MA RG s2 w ST NW.
  destruct (S s1 o1 hd1 V I RS AG s2 w ST ltac:(auto)) as (o2 & V2 & I2 & GU & h' & o' & R' & A' & S').
  destruct S' as [-> ->].
  exists o2. do 3 (split; [assumption|]).
  cbn [step] in ST. pose proof (f_equal fst ST) as E2. pose proof (f_equal snd ST) as Ev.
  cbn [fst snd] in E2, Ev. subst s2. rewrite (v_flushed _ _ _ V) in Ev by auto.
  assert (L2 : linv o2 hd1 M1).
  { apply (framed_linv G pb rb g c (CFree r) h (OLd 8 (g_core G + 32 * i + 24)) s1 s1 o1 o2 hd1); auto.
    apply framed_refl. }
  assert (MG : mgua c hd1 o1 M1 o2 M1).
  { constructor; auto. intros c' x NE X. rewrite <- (v_regs _ _ _ V2), (v_regs _ _ _ V). reflexivity. }
  assert (RG2 : forall x, x < n -> drb_bit (o_regs o2 c) x = a x).
  { intros x X. rewrite <- (v_regs _ _ _ V2), (v_regs _ _ _ V). auto. }
  destruct (N.lt_ge_cases w (m_blocked_at m r)) as [LT|GE].
  - exists M1, (Some invalid_state). split; [|split; [exact L2|split; [exact MG|]]].
    + right. split; [reflexivity|]. eexists. split; [reflexivity|]. right. cbn [effect].
      unfold free_table. rewrite <- (n_val G pb rb g). destruct (N.leb_spec n r); [lia|].
      assert (TK : taken M1 r = false).
      { unfold taken. destruct (N.eqb_spec r 0) as [->|_]; [|reflexivity]. cbn [andb].
        exact (l_unstuck G pb rb g _ _ _ _ _ L RS CC HR). }
      rewrite TK.
      rewrite (ma_owner _ _ _ _ _ MA), MO by auto.
      assert (AF : all_flushed cores M1 r = false); [|rewrite AF; reflexivity].
      unfold all_flushed. destruct (forallb _ _) eqn:E; [|reflexivity]. exfalso.
      rewrite forallb_forall in E. specialize (E (N.to_nat i)).
      rewrite N2Nat.id, (ma_blocked _ _ _ _ _ MA), <- (l_flushed _ _ _ _ L) in E by auto.
      assert (X : (m_blocked_at m r <=? o_flushed o1 i) = true); [|lia].
      apply E. apply in_seq. lia.
    + exists h, (with_flushed o i w), m, a. do 4 (split; [assumption|]). apply QB. exact LT.
  - exists M1, None. split; [left; auto|]. split; [exact L2|]. split; [exact MG|].
    exists h, (with_flushed o i w), m, a. do 4 (split; [assumption|]). apply QG. exact GE.
Qed.

(** The DMA range under lock 0. *)
Lemma safe_dma_start c k h o (Q : N -> (N -> bool) -> ost -> Prop) : h 0 = true ->
  Q (o_dma_start o) h o -> safe c k (op1 OGetDmaStart) h o Q.
Proof.
  intros H0 H. apply (safe_silent G pb rb g true c k _ _ h o Q (fun v _ => v = o_dma_start o)); [exact Logic.I| |].
  - intros s1 o1 hd1 V _ _ AG. cbn. rewrite (v_dma_start _ _ _ V).
    destruct (a_dma _ _ _ _ _ _ AG H0) as (_ & _ & E & _). exact E.
  - intros v o1 -> AG. exists o. auto.
Qed.
Lemma safe_dma_end c k h o (Q : N -> (N -> bool) -> ost -> Prop) : h 0 = true ->
  Q (o_dma_end o) h o -> safe c k (op1 OGetDmaEnd) h o Q.
Proof.
  intros H0 H. apply (safe_silent G pb rb g true c k _ _ h o Q (fun v _ => v = o_dma_end o)); [exact Logic.I| |].
  - intros s1 o1 hd1 V _ _ AG. cbn. rewrite (v_dma_end _ _ _ V).
    destruct (a_dma _ _ _ _ _ _ AG H0) as (_ & _ & _ & E). exact E.
  - intros v o1 -> AG. exists o. auto.
Qed.

(** ** Calls that change nothing but locks *)
Record same_as (c : N) (h : N -> bool) (o : ost) (m : mstate) (a : N -> bool) : Prop := mkSameAs {
  sa_owner : forall r, r < n -> h r = true -> o_owner o r = owner_code (m_owner m r);
  sa_blocked : forall r, r < n -> h r = true -> o_blocked o r = m_blocked_at m r;
  sa_dma : h 0 = true -> o_dma_start o = m_dma_start m /\ o_dma_end o = m_dma_end m;
  sa_access : h 0 = true -> forall x, x < n -> a x = m_access m c x }.

Lemma step_words c x s s' v : step c x s = (s', v) -> s_words s' = s_words s.
Proof. intros E. destruct x; cbn in E; inversion E; reflexivity. Qed.

Lemma lsafe_calm {A} c k t (p : prog A) : c < cores -> calm k = true ->
  forall h o m a (Q : A -> (N -> bool) -> ost -> Prop),
  safe c k p h o Q -> same_as c h o m a ->
  lsafe c k t p h o m a None (fun v h' o' m' a' st => st = None /\ same_as c h' o' m' a' /\ Q v h' o').
Proof.
  intros C CA. induction p as [v|x f IH|]; intros h o m a Q S SA; cbn [LinProofs.lsafe ConcProofs.safe] in *; auto.
  intros s1 o1 hd1 M1 CC V I L RS AG MA RG s2 v ST NW.
  destruct (S s1 o1 hd1 V I RS AG s2 v ST ltac:(auto)) as (o2 & V2 & I2 & GU & h' & o' & R' & A' & S').
  exists o2. do 3 (split; [assumption|]).
  destruct (g_calm _ _ _ _ _ _ _ _ _ GU CA) as (Q1 & Q2 & Q3 & Q4 & [Q5 Q5'] & Q6).
  pose proof (n_pos G pb rb g) as NP.
  pose proof L as [L1 L2 L3 L4 L5 L6 L7 L8 L9 L10 L11].
  destruct SA as [S1 S2 S3 S4].
  assert (T1 : forall r, r < n -> h r = true -> o_owner o1 r = owner_code (m_owner M1 r)).
  { intros r R H. rewrite (a_owner _ _ _ _ _ _ AG), (ma_owner _ _ _ _ _ MA) by auto. auto. }
  assert (T2 : forall r, r < n -> h r = true -> o_blocked o1 r = m_blocked_at M1 r).
  { intros r R H. rewrite (a_blocked _ _ _ _ _ _ AG), (ma_blocked _ _ _ _ _ MA) by auto. auto. }
  assert (T3 : h 0 = true -> o_dma_start o1 = m_dma_start M1 /\ o_dma_end o1 = m_dma_end M1).
  { intros H. destruct (a_dma _ _ _ _ _ _ AG H) as (_ & _ & -> & ->).
    destruct (ma_dma _ _ _ _ _ MA H) as [-> ->]. auto. }
  assert (T4 : h 0 = true -> forall x, x < n -> drb_bit (o_regs o1 c) x = m_access M1 c x).
  { intros H y Y. rewrite RG, (ma_access _ _ _ _ _ MA) by auto. auto. }
  assert (HO : forall r, r < n -> hold_after c x v hd1 r = hd1 r \/
     hd1 r = None /\ hold_after c x v hd1 r = Some c \/ h r = true /\ hold_after c x v hd1 r = None).
  { intros r R. destruct (g_hold _ _ _ _ _ _ _ _ _ GU r R) as [E|[E|[E1 E2]]]; auto.
    right. right. split; [apply (RS r R); exact E1|exact E2]. }
  set (hd2 := hold_after c x v hd1) in *.
  assert (OS1 : forall r, r < n -> is_os (m_owner M1 r) = (o_owner o1 r =? 0)
     \/ exists c', c' <> c /\ hd1 0 = Some c' /\ hd1 r = Some c').
  { intros r R. destruct (L6 r R) as [E|[c' [E1 E2]]]; [auto|].
    destruct (N.eq_dec c' c) as [->|NE]; [|right; exists c'; auto].
    left. rewrite T1 by (auto; apply (RS r R); exact E2). destruct (m_owner M1 r); reflexivity. }
  exists M1, None. split; [left; auto|]. split; [|split].
  - constructor; auto.
    + intros r R H. rewrite Q1 by auto. destruct (HO r R) as [E|[[E1 E2]|[E1 E2]]].
      * apply L1; auto. unfold open in *. rewrite <- E. auto.
      * destruct (open_not _ _ _ _ CC H E2).
      * auto.
    + intros r R H. rewrite Q2 by auto. destruct (HO r R) as [E|[[E1 E2]|[E1 E2]]].
      * apply L2; auto. unfold open in *. rewrite <- E. auto.
      * destruct (open_not _ _ _ _ CC H E2).
      * auto.
    + congruence.
    + intros c' C'. rewrite Q4 by auto. auto.
    + intros H. rewrite Q5, Q5'. destruct (HO 0 NP) as [E|[[E1 E2]|[E1 E2]]].
      * apply L5; auto. unfold open in *. rewrite <- E. auto.
      * destruct (open_not _ _ _ _ CC H E2).
      * auto.
    + intros r R. rewrite Q1 by auto. destruct (OS1 r R) as [E|[c' (NE & E1 & E2)]]; [auto|].
      right. exists c'. split.
      * destruct (g_hold _ _ _ _ _ _ _ _ _ GU 0 NP) as [E|[[X1 X2]|[X1 X2]]]; congruence.
      * destruct (g_hold _ _ _ _ _ _ _ _ _ GU r R) as [E|[[X1 X2]|[X1 X2]]]; congruence.
    + intros c' r C' R H. rewrite Q6. destruct (N.eq_dec c' c) as [->|NE].
      * destruct (h 0) eqn:H0; [auto|]. apply L7; auto.
        intros X. apply (RS 0 NP) in X. congruence.
      * apply L7; auto. intros X.
        destruct (g_hold _ _ _ _ _ _ _ _ _ GU 0 NP) as [E|[[X1 X2]|[X1 X2]]]; congruence.
    + rewrite L8. destruct (g_hold _ _ _ _ _ _ _ _ _ GU 0 NP) as [E|[[X1 X2]|[X1 X2]]].
      * rewrite E. reflexivity.
      * rewrite X1, X2. split; [discriminate|intros Y; inversion Y; lia].
      * rewrite X1, X2. split; [intros Y; inversion Y; lia|discriminate].
    + rewrite <- (v_words _ _ _ V2), (step_words _ _ _ _ _ ST), (v_words _ _ _ V). auto.
    + intros r R H. destruct (g_hold _ _ _ _ _ _ _ _ _ GU r R) as [E|[[X1 X2]|[X1 X2]]].
      * apply L10; auto. congruence.
      * rewrite X2 in H. inversion H. lia.
      * congruence.
    + intros H. assert (E : hd1 0 = Some cores).
      { destruct (g_hold _ _ _ _ _ _ _ _ _ GU 0 NP) as [E|[[X1 X2]|[X1 X2]]]; [congruence| |congruence].
        rewrite X2 in H. inversion H. lia. }
      eapply (gua_window G pb rb g); eauto. rewrite E. intros Y. inversion Y. lia.
  - constructor; auto. intros c' r NE R. rewrite Q6. reflexivity.
  - exists h', o', M1, a. do 2 (split; [assumption|]). split; [apply magree_refl|].
    split; [intros y Y; rewrite Q6; auto|].
    apply IH; auto.
    assert (N1 : forall r, r < n -> h' r = true -> h r = true \/ hd1 r = None).
    { intros r R H. apply (R' r R) in H. destruct (HO r R) as [E|[[E1 E2]|[E1 E2]]]; auto.
      - left. apply (RS r R). congruence. }
    constructor.
    + intros r R H. rewrite <- (a_owner _ _ _ _ _ _ A'), Q1 by auto. destruct (N1 r R H); auto.
      apply L1; auto. left; auto.
    + intros r R H. rewrite <- (a_blocked _ _ _ _ _ _ A'), Q2 by auto. destruct (N1 r R H); auto.
      apply L2; auto. left; auto.
    + intros H. destruct (a_dma _ _ _ _ _ _ A' H) as (_ & _ & <- & <-). rewrite Q5, Q5'.
      destruct (N1 0 NP H); auto. apply L5. left; auto.
    + intros H y Y. rewrite <- RG by auto. destruct (N1 0 NP H); auto.
      apply L7; auto. congruence.
Qed.
End Ops.
