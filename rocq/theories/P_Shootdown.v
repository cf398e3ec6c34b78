(** * Property C94: TLBs and concurrent calls. *)
From Coq Require Import NArith ZArith Lia Bool List.
From Coq Require Import ZifyBool ZifyNat ZifyN.
From Verif Require Import Word Machine ModelBare ModelHash ModelInl ModelRegions
  ModelMetadata ModelEnclave ModelBoot ModelApi Lib BareProofs BootProofs SpecGeometry
  GeomProofs Trace SpecMonitor SpecHistory SpecConcurrent ViewProofs SeqProofs SeqCalls
  HistoryProofs P_Boot P_Regions ConcProofs ConcGlobal P_Conc SpecLinear LinProofs LinGlobal
  P_Linear SpecAccess P_Access SpecTlb P_Tlb SpecRest P_Rest SpecShootdown.
Import ListNotations.
Open Scope N_scope.
Ltac Zify.zify_post_hook ::= Z.div_mod_to_equations.

(** ** A call of flush_cached_dram_regions does not return before it flushed *)
Definition is_flush (o : op) : bool := match o with OFlushTlb => true | _ => false end.
Definition flushed (i : list (op * N)) : bool := existsb (fun e => is_flush (fst e)) i.
Fixpoint will_flush {A} (b : bool) (p : prog A) : Prop :=
  match p with
  | Ret _ => b = true
  | Do o f => forall v, will_flush (is_flush o || b) (f v)
  | Stop => True
  end.
Lemma flush_call_flushes G : will_flush false (call_prog G CFlush).
Proof. cbn. intros. reflexivity. Qed.
Definition flushing_ok (x : conf) : Prop :=
  forall c p i, cf_task x c = Running CFlush p i -> will_flush (flushed i) p.
Lemma flushing_step G pb rb allowed nw x y : cstep G pb rb allowed nw x y -> flushing_ok x -> flushing_ok y.
Proof.
  intros S I c p i. destruct S as [s t h c1 k1 C T A AL|s t h c1 k1 o f l1 s' v C T S W|s t h c1 k1 v l1 C T
    |s t h c1 a v C T A CA|s t h a v A DA T]; cbn [cf_task] in *; unfold flushing_ok in I; cbn [cf_task] in I; eauto;
    unfold upd; destruct (N.eqb_spec c c1) as [->|NE]; eauto; try discriminate; intros E; inversion E; subst.
  - apply flush_call_flushes.
  - specialize (I _ _ _ T). cbn [will_flush] in I. exact (I v).
Qed.
Lemma kept_sub s s' T e : In e (kept s s' T) -> In e T.
Proof. intros I. apply filter_In in I. tauto. Qed.
Lemma kept_flush c s s' v T p : step c OFlushTlb s = (s', v) -> ~ In (c, p) (kept s s' T).
Proof.
  intros S I. apply filter_In in I. destruct I as [_ I]. cbn [step] in S. inversion S; subst. cbn in I.
  rewrite N.eqb_refl in I. cbn in I. lia.
Qed.

Section Shootdown.
Variables (P : platform) (top pb rb : N) (G : globals) (s0 : state) (allowed : call -> Prop).
Hypothesis ST : started P top pb rb G s0.
Hypothesis AL : forall k, allowed k -> safe_call G k.
Local Notation cores := (g_core_count G).
Local Notation tobs := (tobserved G pb rb allowed s0).
Local Notation ostep := (ostep G pb rb allowed).
Local Notation lgood := (lgood G pb rb).
Local Notation asteps := (asteps G pb rb).

(** The steps of an execution. *)
Inductive tmove : conf -> tlb -> list obs -> conf -> tlb -> Prop :=
| tm_step x T e y : ostep x e y -> tmove x T e y (kept (cf_state x) (cf_state y) T)
| tm_fill x T c p : c < cores -> cf_task x c = Idle -> p < 2 ^ 52 ->
    (forall a, a / 4096 = p -> cpu_may_access pb rb (s_cores (cf_state x) c) a) ->
    tmove x T [] x ((c, p) :: T)
| tm_store x T c a v : cf_task x c = Idle -> In (c, a / 4096) T ->
    tmove x T [] (mkConf (set_mem (cf_state x) (st 1 (s_mem (cf_state x)) a v)) (cf_task x) (cf_held x)) T.
Lemma tobs_ind (Q : list obs -> conf -> tlb -> Prop) : Q [] (initial s0) [] ->
  (forall l x T e y T', tobs l x T -> Q l x T -> tmove x T e y T' -> Q (l ++ e) y T') ->
  forall l x T, tobs l x T -> Q l x T.
Proof.
  intros Q0 QS. induction 1.
  - exact Q0.
  - eapply QS; eauto. apply tm_step. eapply os_start; eauto.
  - eapply QS; eauto. apply tm_step. eapply os_finish; eauto.
  - rewrite <- (app_nil_r l). eapply QS; eauto. apply tm_step. eapply os_other; eauto.
  - rewrite <- (app_nil_r l). eapply QS; eauto. eapply tm_fill; eauto.
  - rewrite <- (app_nil_r l). eapply QS; eauto. eapply tm_store; eauto.
Qed.

Definition above (T : tlb) : Prop :=
  forall c p, In (c, p) T -> c < cores /\ forall a, a / 4096 = p -> g_monitor_top G <= a.

Lemma reg_top x o hd M sg c a : lgood x o hd M sg -> c < cores ->
  cpu_may_access pb rb (s_cores (cf_state x) c) a -> g_monitor_top G <= a.
Proof.
  intros LG C [_ NP]. apply N.nlt_ge. intros LT. apply NP. pose proof (lg_view _ _ _ _ _ _ _ _ LG) as V.
  rewrite (v_regs _ _ _ V) by auto. apply (i_par _ _ _ _ (lg_inv _ _ _ _ _ _ _ _ LG)); auto.
Qed.
Lemma tmove_good x T e y T' o hd M sg : tmove x T e y T' -> lgood x o hd M sg -> above T ->
  above T' /\ exists o' hd' M' sg', asteps M sg e M' sg' /\ lgood y o' hd' M' sg'.
Proof.
  destruct (started_geom _ _ _ _ _ _ ST) as [g HD].
  intros TM LG AB. destruct TM as [x T e y OS|x T c p C I PL A|x T c a v I IT].
  - split; [intros c p X; apply AB; eapply kept_sub; eauto|]. eapply lgood_step; eauto.
  - split.
    + intros c' p' [X|X]; [|apply AB; exact X]. inversion X; subst. split; [exact C|].
      intros a E. eapply reg_top; eauto.
    + exists o, hd, M, sg. split; [apply as_none|exact LG].
  - split; [exact AB|]. destruct x as [s t h]. cbn [cf_state cf_task cf_held] in *.
    destruct (lgood_write G pb rb g s t h a v o hd M sg LG) as [o' LG'].
    { apply (AB _ _ IT). reflexivity. }
    exists o', hd, M, sg. split; [apply as_none|exact LG'].
Qed.

(** The disjunct of [revoked] that persists. *)
Definition excused (r : N) (l2 : list obs) (M : mstate) (st : N -> status) : Prop :=
  moved r l2 st \/ m_owner M r = OS.
Lemma excused_steps r l2 M st e M' st' : asteps M st e M' st' -> excused r l2 M st ->
  excused r (l2 ++ e) M' st'.
Proof.
  intros S X. induction S as [|l M1 st1 c k S IH SC|l M1 st1 c k t v M2 S IH SC TE|l M1 st1 c k v S IH SC].
  - rewrite app_nil_r. exact X.
  - destruct IH as [MV|O]; [left|right; exact O]. eapply moved_grow; [| |exact MV].
    + intros c' k' v' D. left. unfold upd. destruct (N.eqb_spec c' c) as [->|]; [congruence|exact D].
    + intros e I. rewrite app_assoc. apply in_or_app. auto.
  - destruct IH as [MV|O].
    + left. eapply moved_grow; [| |exact MV]; [|auto].
      intros c' k' v' D. left. unfold upd. destruct (N.eqb_spec c' c) as [->|]; [congruence|exact D].
    + apply takes_granting in TE. destruct TE as [_ _ OW|q K -> _ OW].
      * right. apply OW. exact O.
      * destruct (N.eq_dec r q) as [<-|NE]; [|right; rewrite OW; auto].
        left. left. exists c. unfold upd. rewrite N.eqb_refl. destruct K as [->|(e & ->)]; [auto|right; exists e; reflexivity].
  - destruct IH as [MV|O]; [left|right; exact O]. eapply moved_grow; [| |exact MV].
    + intros c' k' v' D. unfold upd. destruct (N.eqb_spec c' c) as [->|]; [|auto].
      right. rewrite D in SC. inversion SC; subst. rewrite app_assoc. apply in_or_app. right. left. reflexivity.
    + intros e I. rewrite app_assoc. apply in_or_app. auto.
Qed.

(** Core [c] flushed in a call it started during [l]. *)
Definition has_flushed (c : N) (l : list obs) (x : conf) : Prop :=
  flushes_in c l \/
  In (Start c CFlush) l /\ exists p i, cf_task x c = Running CFlush p i /\ flushed i = true.
Definition shot (r c : N) (l1 l2 l3 : list obs) (x : conf) (T : tlb) (M : mstate) (st : N -> status) : Prop :=
  excused r (l2 ++ l3) M st \/
  (has_flushed c l3 x -> forall a, region_of pb rb a = r -> ~ In (c, a / 4096) T).
Lemma flushes_snoc c l e : flushes_in c (l ++ [e]) ->
  flushes_in c l \/ In (Start c CFlush) l /\ exists v, e = Finish c CFlush v.
Proof.
  intros (a & b & d & v & E). destruct d as [|x d _] using rev_ind.
  - right. replace (a ++ Start c CFlush :: b ++ [Finish c CFlush v]) with ((a ++ Start c CFlush :: b) ++ [Finish c CFlush v]) in E
      by (rewrite <- app_assoc; reflexivity).
    apply app_inj_tail in E as [E X]. subst. split; [|eauto]. apply in_or_app. right. left. reflexivity.
  - left. replace (a ++ Start c CFlush :: b ++ Finish c CFlush v :: d ++ [x]) with ((a ++ Start c CFlush :: b ++ Finish c CFlush v :: d) ++ [x]) in E
      by (rewrite <- app_assoc; cbn; rewrite <- app_assoc; reflexivity).
    apply app_inj_tail in E as [E X]. exists a, b, d, v. auto.
Qed.
Lemma not_flushed_nil c x : ~ has_flushed c [] x.
Proof. intros [(a & b & d & v & E)|[[] _]]. destruct a; discriminate. Qed.
(** If a core has flushed after a step, it had before or its TLB is empty. *)
Lemma has_flushed_step x e y c l : ostep x e y -> flushing_ok x -> has_flushed c (l ++ e) y ->
  has_flushed c l x \/ forall T p, ~ In (c, p) (kept (cf_state x) (cf_state y) T).
Proof.
  intros OS F HF. destruct OS as [x y c1 k S T1 T2|x y c1 k v i S T1 T2|x y S TI].
  - left. destruct HF as [HF|[I (p & i & R & FL)]].
    + apply flushes_snoc in HF. destruct HF as [HF|[_ [v E]]]; [left; exact HF|discriminate].
    + right. destruct (N.eq_dec c c1) as [->|NE].
      { rewrite T2 in R. inversion R; subst. discriminate. }
      split.
      * apply in_app_or in I. destruct I as [I|[I|[]]]; [exact I|]. inversion I. congruence.
      * exists p, i. split; [|exact FL]. inversion S; subst; cbn [cf_task] in *; try congruence.
        -- unfold upd in T2, R. destruct (N.eqb_spec c1 c0) as [->|]; [|congruence].
           destruct (N.eqb_spec c c0); [contradiction|exact R].
        -- exfalso. unfold upd in T2. destruct (N.eqb_spec c1 c0) as [->|]; congruence.
        -- exfalso. unfold upd in T2. destruct (N.eqb_spec c1 c0) as [->|]; congruence.
  - left. destruct HF as [HF|[I (p & j & R & FL)]].
    + apply flushes_snoc in HF. destruct HF as [HF|[I [v' E]]]; [left; exact HF|].
      inversion E; subst. right. split; [exact I|]. exists (Ret v'), i. split; [exact T1|].
      exact (F _ _ _ T1).
    + right. split.
      * apply in_app_or in I. destruct I as [I|[I|[]]]; [exact I|]. discriminate.
      * exists p, j. split; [|exact FL].
        destruct (N.eq_dec c c1) as [->|NE]; [congruence|].
        inversion S; subst; cbn [cf_task] in *; try congruence.
        -- exfalso. unfold upd in T2. destruct (N.eqb_spec c1 c0) as [->|]; congruence.
        -- exfalso. unfold upd in T2. destruct (N.eqb_spec c1 c0) as [->|]; congruence.
        -- unfold upd in T2, R. destruct (N.eqb_spec c1 c0) as [->|]; [|congruence].
           destruct (N.eqb_spec c c0); [contradiction|exact R].
  - rewrite app_nil_r in HF. destruct HF as [HF|[I (p & i & R & FL)]]; [left; left; exact HF|].
    inversion S; subst; cbn [cf_task cf_state] in *.
    + exfalso. specialize (TI c0). rewrite upd_same in TI. destruct TI as [TI _]. specialize (TI H0). discriminate.
    + unfold upd in R. destruct (N.eqb_spec c c0) as [->|NE]; [|left; right; split; [exact I|]; eauto].
      inversion R; subst. cbn [flushed existsb fst] in FL. apply orb_true_iff in FL. destruct FL as [FL|FL].
      * right. intros T p. destruct o; try discriminate FL. eapply kept_flush; eauto.
      * left. right. split; [exact I|]. eauto.
    + exfalso. specialize (TI c0). rewrite upd_same in TI. destruct TI as [_ TI]. specialize (TI eq_refl). congruence.
    + left. right. eauto.
    + left. right. eauto.
Qed.

(** The access registers of an idle core are those of the abstract machine. *)
Lemma idle_access x o hd M sg c r : lgood x o hd M sg -> c < cores -> cf_task x c = Idle ->
  r < g_dram_region_count G -> drb_bit (s_cores (cf_state x) c) r = m_access M c r.
Proof.
  destruct (started_geom _ _ _ _ _ _ ST) as [g HD].
  intros [V I L CO TA] C T R. rewrite (v_regs _ _ _ V) by auto. apply (l_access _ _ _ _ L); auto.
  specialize (TA c). rewrite T in TA. cbn [ltask] in TA. destruct TA as [_ TA].
  apply (TA C). apply (n_pos G pb rb g).
Qed.

Lemma tobs_good M0 : (exists o hd, lgood (initial s0) o hd M0 (fun _ => NoCall)) ->
  forall l x T, tobs l x T -> flushing_ok x /\ above T /\
  exists H M sg o hd, atomic pb rb cores (g_dram_size G) M0 l H M sg /\ lgood x o hd M sg /\
    forall r c l1 l2 l3, r < g_dram_region_count G -> c < cores -> l = l1 ++ l2 ++ l3 -> reloads_in c l2 ->
      shot r c l1 l2 l3 x T M sg.
Proof.
  intros [o0 [hd0 S0]]. apply tobs_ind.
  - split; [intros c p i E; discriminate|]. split; [intros c p []|].
    exists [], M0, (fun _ => NoCall), o0, hd0. split; [apply at_none|]. split; [exact S0|].
    intros r c l1 l2 l3 R C E RL. right. intros _ a _ [].
  - intros l x T e y T' OB (F & AB & H & M & sg & o & hd & AT & LG & SH) TM.
    destruct (tmove_good _ _ _ _ _ _ _ _ _ TM LG AB) as (AB' & o' & hd' & M' & sg' & AS & LG').
    assert (F' : flushing_ok y).
    { destruct TM as [x T e y OS| |]; [|exact F|exact F]. destruct OS; eapply flushing_step; eauto. }
    split; [exact F'|]. split; [exact AB'|].
    destruct (atomic_asteps _ _ _ _ _ _ _ _ _ _ _ AT AS) as [H' AT'].
    exists H', M', sg', o', hd'. split; [exact AT'|]. split; [exact LG'|].
    intros r c l1 l2 l3 R C E RL.
    (* the observation is the last of [l3] *)
    assert (CASE : l3 = [] \/ exists l3', l3 = l3' ++ e /\ l = l1 ++ l2 ++ l3').
    { assert (LE : e = [] \/ exists d, e = [d]).
      { destruct TM as [x T e y OS| |]; auto. destruct OS; eauto. }
      destruct LE as [->|[d ->]].
      - right. exists l3. rewrite app_nil_r in *. auto.
      - destruct l3 as [|z l3 _] using rev_ind; [auto|]. right. exists l3.
        rewrite !app_assoc in E. apply app_inj_tail in E. destruct E as [E <-]. rewrite !app_assoc. auto. }
    destruct CASE as [->|(l3' & -> & E')].
    { right. intros HF. destruct (not_flushed_nil _ _ HF). }
    destruct (SH r c l1 l2 l3' R C E' RL) as [EX|NE].
    { left. rewrite app_assoc. eapply excused_steps; eauto. }
    destruct TM as [x T e y OS|x T c1 p C1 I PL A|x T c1 a v I IT].
    + right. intros HF a RA X. destruct (has_flushed_step _ _ _ _ _ OS F HF) as [HF'|K].
      * apply (NE HF' a RA). eapply kept_sub; eauto.
      * apply (K T (a / 4096)). exact X.
    + rewrite app_nil_r. rewrite app_nil_r in AT'.
      destruct (revoked_at _ _ _ _ _ r _ _ _ _ AT' l1 (l2 ++ l3') E') as [MV|[O|V]]; [left; left; exact MV|left; right; exact O|].
      right. intros HF a RA [X|X]; [|exact (NE HF a RA X)]. inversion X; subst.
      destruct (A a eq_refl) as [DB _].
      rewrite (idle_access _ _ _ _ _ _ _ LG' C I R) in DB.
      rewrite V in DB; [discriminate|]. right. destruct RL as (x1 & k & x2 & k' & x3 & RK & ->).
      exists x1, k, x2, k', (x3 ++ l3'). split; [exact RK|]. rewrite <- app_assoc. cbn. rewrite <- app_assoc. reflexivity.
    + right. rewrite app_nil_r. intros HF a' RA X. refine (NE _ a' RA X). exact HF.
Qed.
Lemma boot_good : exists access, shows G s0 (boot_mstate access (g_monitor_top G)) /\
  exists o hd, lgood (initial s0) o hd (boot_mstate access (g_monitor_top G)) (fun _ => NoCall).
Proof.
  destruct (started_shows _ _ _ _ _ _ ST) as [ac [c0 [C0 [_ K]]]].
  exists ac. split; [exact K|]. exists (view_of G s0), (fun _ => None). eapply lgood_boot; eauto.
Qed.
Lemma lgood_idle x o hd M st c : lgood x o hd M st -> (st c = NoCall <-> cf_task x c = Idle).
Proof.
  intros LG. pose proof (lg_task _ _ _ _ _ _ _ _ LG c) as TC. destruct (cf_task x c) as [|k p i]; cbn in TC.
  - tauto.
  - destruct TC as (_ & t0 & so & E & _). rewrite E. destruct so; split; discriminate.
Qed.
End Shootdown.

(** ** C94 *)
(** The executions without TLBs are among those considered. *)
Theorem C94_contains : forall G pb rb allowed s0 l x,
  observed G pb rb allowed s0 l x -> tobserved G pb rb allowed s0 l x [].
Proof.
  intros G pb rb allowed s0 l x. induction 1.
  - apply to_none.
  - eapply (to_start _ _ _ _ _ _ _ []); eauto.
  - eapply (to_finish _ _ _ _ _ _ _ []); eauto.
  - eapply (to_other _ _ _ _ _ _ _ []); eauto.
Qed.

(** No core ever reaches the monitor's memory through its registers or its TLB. *)
Theorem C94_monitor_partial : forall P top pb rb G s0 (allowed : call -> Prop) l x T c a,
  started P top pb rb G s0 -> (forall k, allowed k -> safe_call G k) ->
  tobserved G pb rb allowed s0 l x T -> c < g_core_count G ->
  can_reach pb rb (cf_state x, T) c a -> g_monitor_top G <= a.
Proof.
  intros P top pb rb G s0 allowed l x T c a ST AL OB C CR.
  destruct (boot_good _ _ _ _ _ _ ST) as (ac & _ & B).
  destruct (tobs_good _ _ _ _ _ _ _ ST AL _ B _ _ _ OB) as (_ & AB & H & M & sg & o & hd & _ & LG & _).
  destruct CR as [A|I]; [eapply reg_top; eauto|]. apply (AB _ _ I). reflexivity.
Qed.

(** The calls still behave as if executed one at a time: stores through stale TLB entries
    have no effect on what they return and do to the regions. *)
Theorem C94_linearizable_partial : forall P top pb rb G s0 (allowed : call -> Prop),
  started P top pb rb G s0 -> (forall k, allowed k -> safe_call G k) ->
  exists access, shows G s0 (boot_mstate access (g_monitor_top G)) /\
  forall l x T, tobserved G pb rb allowed s0 l x T ->
  exists H M st,
    atomic pb rb (g_core_count G) (g_dram_size G) (boot_mstate access (g_monitor_top G)) l H M st /\
    (forall c, st c = NoCall <-> cf_task x c = Idle) /\
    (forall r, r < g_dram_region_count G -> lock_of G (cf_state x) r = 0 ->
       owner_of G (cf_state x) r = owner_code (m_owner M r) /\
       blocked_at_of G (cf_state x) r = m_blocked_at M r) /\
    clock_of G (cf_state x) = m_clock M /\
    (forall c, c < g_core_count G -> flushed_of G (cf_state x) c = m_flushed M c) /\
    (forall c r, c < g_core_count G -> r < g_dram_region_count G -> cf_task x c = Idle ->
       drb_bit (s_cores (cf_state x) c) r = m_access M c r) /\
    (quiet G x -> shows G (cf_state x) M).
Proof.
  intros P top pb rb G s0 allowed ST AL.
  destruct (started_geom _ _ _ _ _ _ ST) as [g HD].
  destruct (boot_good _ _ _ _ _ _ ST) as (ac & K & B).
  exists ac. split; [exact K|]. intros l x T OB.
  destruct (tobs_good _ _ _ _ _ _ _ ST AL _ B _ _ _ OB) as (_ & AB & H & M & sg & o & hd & AT & LG & _).
  exists H, M, sg. split; [exact AT|]. split; [intros c; eapply lgood_idle; eauto|].
  split; [intros r R LF; eapply lgood_free; eauto|].
  destruct (lgood_clock G pb rb x o hd M sg LG) as [E1 E2].
  split; [exact E1|]. split; [exact E2|].
  split; [intros c r C R I; eapply idle_access; eauto|].
  intros Q. eapply lgood_quiet; eauto.
Qed.

(** If region [r] does not belong to the OS, and no block or assign of it was reported since
    the start of [l2] or is in progress, then a core that completed some successful block or
    assign during [l2] and flushed during [l3] cannot reach it, neither through its registers
    nor through its TLB, at any moment at which it does not execute a call itself and the
    region's lock is free. *)
Theorem C94_anytime_partial : forall P top pb rb G s0 (allowed : call -> Prop) l1 l2 l3 x T r c a,
  started P top pb rb G s0 -> (forall k, allowed k -> safe_call G k) ->
  tobserved G pb rb allowed s0 (l1 ++ l2 ++ l3) x T ->
  r < g_dram_region_count G -> lock_of G (cf_state x) r = 0 -> owner_of G (cf_state x) r <> 0 ->
  ~ reports_move r (l2 ++ l3) ->
  (forall c' p i, cf_task x c' <> Running (CBlock r) p i /\ forall e, cf_task x c' <> Running (CAssign r e) p i) ->
  c < g_core_count G -> cf_task x c = Idle -> reloads_in c l2 -> flushes_in c l3 ->
  region_of pb rb a = r -> ~ can_reach pb rb (cf_state x, T) c a.
Proof.
  intros P top pb rb G s0 allowed l1 l2 l3 x T r c a ST AL OB R LK NO NM NR C IC RL FL A CR.
  destruct (started_geom _ _ _ _ _ _ ST) as [g HD].
  destruct (boot_good _ _ _ _ _ _ ST) as (ac & _ & B).
  destruct (tobs_good _ _ _ _ _ _ _ ST AL _ B _ _ _ OB) as (_ & AB & H & M & sg & o & hd & AT & LG & SH).
  destruct (lgood_free G pb rb _ _ _ _ _ r LG R LK) as [OW _].
  rewrite OW in NO.
  assert (NE : ~ excused r (l2 ++ l3) M sg).
  { intros [[(c' & D)|MV]|O].
    - pose proof (lg_task _ _ _ _ _ _ _ _ LG c') as TC. destruct (cf_task x c') as [|k p i] eqn:E.
      + destruct TC as [TC _]. destruct D as [D|(e & D)]; congruence.
      + destruct TC as (_ & t0 & so & S & _). destruct (NR c' p i) as [N1 N2]. rewrite E in N1.
        destruct D as [D|(e & D)]; rewrite D in S; destruct so as [w|]; try discriminate S; inversion S; subst.
        * apply N1. reflexivity.
        * apply (N2 e). exact E.
    - contradiction.
    - rewrite O in NO. apply NO. reflexivity. }
  destruct CR as [[X _]|I].
  - cbn [fst] in X. rewrite A, (idle_access _ _ _ _ _ _ ST _ _ _ _ _ _ _ LG C IC R) in X.
    destruct (revoked_at _ _ _ _ _ r _ _ _ _ AT l1 (l2 ++ l3) eq_refl) as [MV|[O|V]].
    + apply NE. left. exact MV.
    + apply NE. right. exact O.
    + rewrite (V c) in X; [discriminate|]. right. destruct RL as (x1 & k & x2 & k' & x3 & RK & ->).
      exists x1, k, x2, k', (x3 ++ l3). split; [exact RK|]. rewrite <- app_assoc. cbn. rewrite <- app_assoc. reflexivity.
  - destruct (SH r c l1 l2 l3 R C eq_refl RL) as [EX|NI]; [contradiction|].
    apply (NI (or_introl FL) a A I).
Qed.

(** In particular once all calls have returned. *)
Theorem C94_shootdown_partial : forall P top pb rb G s0 (allowed : call -> Prop) l1 l2 l3 x T r c a,
  started P top pb rb G s0 -> (forall k, allowed k -> safe_call G k) ->
  tobserved G pb rb allowed s0 (l1 ++ l2 ++ l3) x T -> quiet G x ->
  r < g_dram_region_count G -> owner_of G (cf_state x) r <> 0 ->
  ~ reports_move r (l2 ++ l3) ->
  c < g_core_count G -> reloads_in c l2 -> flushes_in c l3 ->
  region_of pb rb a = r -> ~ can_reach pb rb (cf_state x, T) c a.
Proof.
  intros P top pb rb G s0 allowed l1 l2 l3 x T r c a ST AL OB Q R NO NM C RL FL A.
  destruct (started_geom _ _ _ _ _ _ ST) as [g HD].
  destruct (boot_good _ _ _ _ _ _ ST) as (ac & _ & B).
  destruct (tobs_good _ _ _ _ _ _ _ ST AL _ B _ _ _ OB) as (_ & _ & H & M & sg & o & hd & AT & LG & _).
  pose proof (lgood_quiet G pb rb g _ _ _ _ _ LG Q) as K.
  eapply C94_anytime_partial; eauto.
  - rewrite (sh_lock _ _ _ K r R). destruct (N.eqb_spec r 0) as [->|_]; [|reflexivity].
    exfalso. apply NO. rewrite (sh_owner _ _ _ K 0 R), (sh_region0 _ _ _ K). reflexivity.
  - intros c' p i. enough (E : cf_task x c' = Idle) by (rewrite E; split; [|intros e]; discriminate).
    destruct (cf_task x c') as [|k q j] eqn:E; [reflexivity|].
    pose proof (lg_task _ _ _ _ _ _ _ _ LG c') as TC. rewrite E in TC. destruct TC as [C' _].
    rewrite (Q c' C') in E. discriminate.
Qed.

(** ** Examples *)
Definition tconf : Type := conf * list obs * tlb.
Fixpoint tops (G : globals) (m : nat) (c : N) (x : tconf) : tconf :=
  match m with
  | O => x
  | S m' =>
      let y := oops G 1 c (fst x) in
      tops G m' c (y, kept (cf_state (fst (fst x))) (cf_state (fst y)) (snd x))
  end.
Definition tbegin (G : globals) (c : N) (k : call) (x : tconf) : tconf :=
  let y := obegin G c k (fst x) in (y, kept (cf_state (fst (fst x))) (cf_state (fst y)) (snd x)).
Definition tfill (c p : N) (x : tconf) : tconf := (fst x, (c, p) :: snd x).
Definition tstore (a v : N) (x : tconf) : tconf :=
  let y := fst (fst x) in
  (mkConf (set_mem (cf_state y) (st 1 (s_mem (cf_state y)) a v)) (cf_task y) (cf_held y), snd (fst x), snd x).
Definition tok (x : tconf) : Prop :=
  tobserved ex_G 6 4 (safe_call ex_G) ex_s0 (snd (fst x)) (fst (fst x)) (snd x).

Lemma kept_same s s' T : s_cores s' = s_cores s -> kept s s' T = T.
Proof.
  intros E. unfold kept. rewrite E. induction T as [|e T IH]; [reflexivity|].
  cbn [filter]. rewrite N.eqb_refl, IH. reflexivity.
Qed.
Lemma tops_ok c m x : c < g_core_count ex_G -> tok x -> tok (tops ex_G m c x).
Proof.
  intros C. revert x. induction m as [|m IH]; intros [[x l] T] R; cbn [tops]; [exact R|].
  apply IH. cbn [fst snd]. destruct x as [s t h]. cbn [oops cf_state cf_task cf_held fst snd].
  unfold tok in *. cbn [fst snd] in *.
  destruct (t c) as [|k p i] eqn:TT; [cbn [fst snd cf_state]; rewrite kept_same by reflexivity; exact R|].
  destruct p as [v|o f|]; [| |cbn [fst snd cf_state]; rewrite kept_same by reflexivity; exact R].
  - cbn [fst snd]. eapply (to_finish ex_G 6 4 (safe_call ex_G) ex_s0 l (mkConf s t h) T); [exact R|eapply cs_return; eauto|exact TT|apply upd_same].
  - destruct (step c o s) as [s' v] eqn:SP.
    destruct (N.ltb_spec (clock_of ex_G s') (clock_of ex_G s)).
    { cbn [fst snd cf_state]. rewrite kept_same by reflexivity. exact R. }
    cbn [fst snd cf_state]. eapply (to_other ex_G 6 4 (safe_call ex_G) ex_s0 l (mkConf s t h) T); [exact R|eapply cs_op; eauto|].
    cbn. intros c'. unfold upd. destruct (N.eqb_spec c' c) as [->|NE]; [|tauto]. split; congruence.
Qed.
Lemma tbegin_ok c k x : c < g_core_count ex_G -> is_idle (fst (fst x)) c = true -> call_args_ok k -> safe_call ex_G k ->
  tok x -> tok (tbegin ex_G c k x).
Proof.
  intros C I A AL R. destruct x as [[[s t h] l] T]. unfold is_idle in I. unfold tok, tbegin, obegin, begin in *.
  cbn [cf_state cf_task cf_held fst snd] in *.
  assert (TT : t c = Idle) by (destruct (t c); [reflexivity|discriminate]).
  eapply (to_start ex_G 6 4 (safe_call ex_G) ex_s0 l (mkConf s t h) T); [exact R|apply cs_start; auto|exact TT|apply upd_same].
Qed.

(** Core 0 caches page 320 of region 5 and blocks the region.  While core 1 blocks region
    7, core 0 stores through its TLB into the blocked region 5, blocks region 6 and then
    flushes. *)
Definition ex_filled : tconf := tfill 0 320 (initial ex_s0, [], []).
Definition ex_stale : tconf :=
  tstore (320 * 4096 + 8) 77 (tops ex_G 3 1 (tbegin ex_G 1 (CBlock 7)
    (tops ex_G 50 0 (tbegin ex_G 0 (CBlock 5) ex_filled)))).
Definition ex_reloaded : tconf :=
  tops ex_G 50 1 (tops ex_G 50 0 (tbegin ex_G 0 (CBlock 6) ex_stale)).
Definition ex_shot : tconf := tops ex_G 50 0 (tbegin ex_G 0 CFlush ex_reloaded).
Lemma page_320_access (r : cregs) : r_par_base r = 0 -> r_par_mask r = W64 - 1024 ->
  r_drb r 0 = 65535 -> forall a, a / 4096 = 320 -> cpu_may_access 6 4 r a.
Proof.
  intros PB PM DR a A. split.
  - assert (E : region_of 6 4 a = 5).
    { unfold region_of. change (2 ^ (12 + 6)) with (4096 * 64). change (2 ^ 4) with 16.
      rewrite <- N.div_div by discriminate. rewrite A. reflexivity. }
    rewrite E. unfold drb_bit. change (5 / 64) with 0. rewrite DR. reflexivity.
  - rewrite PB, PM. intros X. assert (T : N.testbit (N.land a (W64 - 1024)) 20 = false).
    { rewrite X. reflexivity. }
    rewrite N.land_spec in T. change (N.testbit (W64 - 1024) 20) with true in T. rewrite andb_true_r in T.
    rewrite N.testbit_eqb in T. change (2 ^ 20) with (4096 * 256) in T.
    rewrite <- N.div_div in T by discriminate. rewrite A in T. discriminate.
Qed.
Lemma ex_filled_ok : tok ex_filled.
Proof.
  unfold tok, ex_filled, tfill. cbn [fst snd]. apply to_fill; [apply to_none|reflexivity|reflexivity|reflexivity|].
  cbn [initial cf_state]. apply page_320_access; vm_compute; reflexivity.
Qed.
Lemma tstore_ok c a v x : is_idle (fst (fst x)) c = true -> snd x = [(c, a / 4096)] -> tok x -> tok (tstore a v x).
Proof.
  intros I E R. destruct x as [[x l] T]. unfold tok, tstore in *. cbn [fst snd] in *.
  eapply to_store with (c := c); [exact R|apply is_idle_task; exact I|]. rewrite E. left. reflexivity.
Qed.
Lemma ex_stale_ok : tok ex_stale.
Proof.
  unfold ex_stale. apply (tstore_ok 0); [vm_compute; reflexivity|vm_compute; reflexivity|].
  apply tops_ok; [reflexivity|]. apply tbegin_ok; [reflexivity|vm_compute; reflexivity|reflexivity|exact Logic.I|].
  apply tops_ok; [reflexivity|]. apply tbegin_ok; [reflexivity|vm_compute; reflexivity|reflexivity|exact Logic.I|].
  exact ex_filled_ok.
Qed.
Lemma ex_reloaded_ok : tok ex_reloaded.
Proof.
  unfold ex_reloaded. do 2 (apply tops_ok; [reflexivity|]).
  apply tbegin_ok; [reflexivity|vm_compute; reflexivity|reflexivity|exact Logic.I|exact ex_stale_ok].
Qed.
Lemma ex_shot_ok : tok ex_shot.
Proof.
  unfold ex_shot. apply tops_ok; [reflexivity|].
  apply tbegin_ok; [reflexivity|vm_compute; reflexivity|exact Logic.I|exact Logic.I|exact ex_reloaded_ok].
Qed.
Example C94_example :
  tok ex_shot /\ quiet ex_G (fst (fst ex_shot)) /\
  snd (fst ex_shot) =
    [Start 0 (CBlock 5); Finish 0 (CBlock 5) ok; Start 1 (CBlock 7)] ++
    [Start 0 (CBlock 6); Finish 0 (CBlock 6) ok] ++
    [Finish 1 (CBlock 7) ok; Start 0 CFlush; Finish 0 CFlush ok] /\
  owner_of ex_G (cf_state (fst (fst ex_shot))) 5 = 1 /\
  reloads_in 0 [Start 0 (CBlock 6); Finish 0 (CBlock 6) ok] /\
  flushes_in 0 [Finish 1 (CBlock 7) ok; Start 0 CFlush; Finish 0 CFlush ok] /\
  (* before the flush the page could be written, and was *)
  snd ex_reloaded = [(0, 320)] /\ snd ex_shot = [] /\
  s_mem (cf_state (fst (fst ex_shot))) (320 * 4096 + 8) = 77.
Proof.
  split; [exact ex_shot_ok|]. split.
  { assert (Q : is_idle (fst (fst ex_shot)) 0 = true /\ is_idle (fst (fst ex_shot)) 1 = true) by (vm_compute; split; reflexivity).
    intros c C. destruct Q as [Q0 Q1]. change (g_core_count ex_G) with 2 in C.
    assert (E : c = 0 \/ c = 1) by lia. destruct E as [-> | ->]; apply is_idle_task; assumption. }
  split; [vm_compute; reflexivity|]. split; [vm_compute; reflexivity|].
  split; [exists [], (CBlock 6), [], (CBlock 6), []; split; reflexivity|].
  split; [exists [Finish 1 (CBlock 7) ok], [], [], ok; reflexivity|].
  split; [vm_compute; reflexivity|]. split; vm_compute; reflexivity.
Qed.

(** The flush must come last: core 1 blocks region 5, both cores flush, core 0 caches page
    320 again, reloads its registers by blocking region 6, and region 5 is freed. *)
Definition ex_early : tconf :=
  tops ex_G 50 0 (tbegin ex_G 0 CFlush (tops ex_G 50 1 (tbegin ex_G 1 CFlush
    (tops ex_G 50 1 (tbegin ex_G 1 (CBlock 5) (initial ex_s0, [], [])))))).
Definition ex_late : tconf :=
  tops ex_G 50 1 (tbegin ex_G 1 (CFree 5) (tops ex_G 50 0 (tbegin ex_G 0 (CBlock 6) (tfill 0 320 ex_early)))).
Lemma ex_early_ok : tok ex_early.
Proof.
  unfold ex_early.
  apply tops_ok; [reflexivity|]. apply tbegin_ok; [reflexivity|vm_compute; reflexivity|exact Logic.I|exact Logic.I|].
  apply tops_ok; [reflexivity|]. apply tbegin_ok; [reflexivity|vm_compute; reflexivity|exact Logic.I|exact Logic.I|].
  apply tops_ok; [reflexivity|]. apply tbegin_ok; [reflexivity|vm_compute; reflexivity|reflexivity|exact Logic.I|].
  apply to_none.
Qed.
Lemma tfill_ok c p x : c < g_core_count ex_G -> is_idle (fst (fst x)) c = true -> p < 2 ^ 52 ->
  (forall a, a / 4096 = p -> cpu_may_access 6 4 (s_cores (cf_state (fst (fst x))) c) a) -> tok x -> tok (tfill c p x).
Proof.
  intros C I PL A R. destruct x as [[x l] T]. unfold tok, tfill in *. cbn [fst snd] in *.
  apply to_fill; auto. apply is_idle_task. exact I.
Qed.
Lemma ex_late_ok : tok ex_late.
Proof.
  unfold ex_late.
  apply tops_ok; [reflexivity|]. apply tbegin_ok; [reflexivity|vm_compute; reflexivity|reflexivity|exact Logic.I|].
  apply tops_ok; [reflexivity|]. apply tbegin_ok; [reflexivity|vm_compute; reflexivity|reflexivity|exact Logic.I|].
  apply tfill_ok; [reflexivity|vm_compute; reflexivity|reflexivity| |exact ex_early_ok].
  apply page_320_access; vm_compute; reflexivity.
Qed.
Definition ex_o1 : list obs := [Start 1 (CBlock 5); Finish 1 (CBlock 5) ok].
Definition ex_o2 : list obs := [Start 1 CFlush; Finish 1 CFlush ok; Start 0 CFlush; Finish 0 CFlush ok].
Definition ex_o3 : list obs :=
  [Start 0 (CBlock 6); Finish 0 (CBlock 6) ok; Start 1 (CFree 5); Finish 1 (CFree 5) ok].
Lemma ex_late_facts : snd (fst ex_late) = ex_o1 ++ ex_o2 ++ ex_o3 /\
  is_idle (fst (fst ex_late)) 0 = true /\ is_idle (fst (fst ex_late)) 1 = true /\
  owner_of ex_G (cf_state (fst (fst ex_late))) 5 = 3 /\ snd ex_late = [(0, 320)].
Proof. vm_compute. do 4 (split; [reflexivity|]). reflexivity. Qed.
Theorem C94_order_refuted : exists P top pb rb G s0 l1 l2 l3 x T r c a,
  started P top pb rb G s0 /\ tobserved G pb rb (safe_call G) s0 (l1 ++ l2 ++ l3) x T /\ quiet G x /\
  r < g_dram_region_count G /\ owner_of G (cf_state x) r = 3 /\ ~ reports_move r (l2 ++ l3) /\
  c < g_core_count G /\ flushes_in c l2 /\ reloads_in c l3 /\
  region_of pb rb a = r /\ can_reach pb rb (cf_state x, T) c a.
Proof.
  destruct ex_late_facts as (E1 & Q0 & Q1 & OW & E2). pose proof ex_late_ok as OK. unfold tok in OK.
  rewrite E1 in OK. revert OK Q0 Q1 OW E2. clear E1. generalize (fst (fst ex_late)) (snd ex_late).
  intros x T OK Q0 Q1 OW ->.
  exists ex_platform, 0, 6, 4, ex_G, ex_s0, ex_o1, ex_o2, ex_o3, x, [(0, 320)], 5, 0, (320 * 4096).
  split; [exact ex_started|]. split; [exact OK|]. split.
  { intros c C. change (g_core_count ex_G) with 2 in C.
    assert (E : c = 0 \/ c = 1) by lia. destruct E as [-> | ->]; apply is_idle_task; assumption. }
  split; [reflexivity|]. split; [exact OW|]. split.
  { intros (c & [X|(e & X)]); repeat (destruct X as [X|X]; [discriminate|]); destruct X. }
  split; [reflexivity|]. split.
  { exists [Start 1 CFlush; Finish 1 CFlush ok], [], [], ok. reflexivity. }
  split.
  { exists [], (CBlock 6), [], (CBlock 6), [Start 1 (CFree 5); Finish 1 (CFree 5) ok]. split; reflexivity. }
  split; [reflexivity|]. right. left. reflexivity.
Qed.

Definition P_Shootdown_theorems :=
  (C94_contains, C94_monitor_partial, C94_linearizable_partial, C94_anytime_partial, C94_shootdown_partial, C94_order_refuted, C94_example).
Print Assumptions P_Shootdown_theorems.
