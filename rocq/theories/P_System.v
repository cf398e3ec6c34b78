(** * Properties C66-C69: whole histories and all calls at once. *)
From Coq Require Import NArith ZArith Lia Bool List.
From Coq Require Import ZifyBool ZifyNat ZifyN.
From Verif Require Import Word Machine ModelBare ModelHash ModelInl ModelRegions
  ModelMetadata ModelEnclave ModelBoot ModelApi Lib Trace BareProofs SpecGeometry
  GeomProofs SpecMonitor SpecHistory SeqProofs
  HistoryProofs HistoryFacts P_Regions SpecConcurrent P_Conc SpecSystem SystemProofs.
Import ListNotations.
Open Scope N_scope.
Ltac Zify.zify_post_hook ::= Z.div_mod_to_equations.

(** ** C66 *)
Lemma region_call_effect pb rb cores dram c k v v' M M1 M2 :
  region_call (ECall c k, v) = true ->
  effect pb rb cores dram (ECall c k) v M M1 ->
  effect pb rb cores dram (ECall c k) v' M M2 -> v = v' /\ M1 = M2.
Proof.
  intros RC E1 E2. destruct k; cbn [region_call fst effect] in *; try discriminate RC;
    try (rewrite <- E1 in E2; inversion E2; auto; fail);
    try (destruct E1, E2; subst; auto; fail).
  destruct E1 as [(A1&->&->)|[(A1&B1&C1&->&->)|(A1&B1&C1&->&->)]];
  destruct E2 as [(A2&->&->)|[(A2&B2&C2&->&->)|(A2&B2&C2&->&->)]];
    auto; try (exfalso; auto; fail); congruence.
Qed.
Lemma other_effect pb rb cores dram e v M M' :
  region_call (e, v) = false -> ok_thread_call (e, v) = false ->
  effect pb rb cores dram e v M M' -> M' = M.
Proof.
  intros RC OT E. destruct e as [c k|c a x|a x]; [|exact E|exact E].
  destruct k; cbn [region_call fst effect] in *; try discriminate RC; auto;
    try (destruct E; auto; fail); try contradiction.
  - destruct E as [[_ ->]|[-> _]]; [auto|discriminate OT].
  - destruct E as [[_ ->]|[-> _]]; [auto|discriminate OT].
Qed.
Lemma shows_accounting G s s' M : shows G s M -> shows G s' M -> same_accounting G s s'.
Proof.
  intros A B. split.
  - intros r R. rewrite (sh_lock _ _ _ A r R), (sh_lock _ _ _ B r R). reflexivity.
  - intros r R. rewrite (sh_owner _ _ _ A r R), (sh_owner _ _ _ B r R). reflexivity.
  - intros r R. rewrite (sh_pinned _ _ _ A r R), (sh_pinned _ _ _ B r R). reflexivity.
  - intros r R. rewrite (sh_blocked _ _ _ A r R), (sh_blocked _ _ _ B r R). reflexivity.
  - rewrite (sh_clock _ _ _ A), (sh_clock _ _ _ B). reflexivity.
  - intros c C. rewrite (sh_enclave _ _ _ A c C), (sh_enclave _ _ _ B c C). reflexivity.
  - intros c C. rewrite (sh_flushed _ _ _ A c C), (sh_flushed _ _ _ B c C). reflexivity.
  - intros r R. apply eq_iff_eq_true.
    rewrite (sh_bit _ _ _ A r R), (sh_bit _ _ _ B r R). reflexivity.
  - intros c r C R. rewrite (sh_access _ _ _ A c r C R), (sh_access _ _ _ B c r C R). reflexivity.
  - rewrite (sh_dma_start _ _ _ A), (sh_dma_start _ _ _ B). reflexivity.
  - rewrite (sh_dma_end _ _ _ A), (sh_dma_end _ _ _ B). reflexivity.
  - intros a W. rewrite (sh_window _ _ _ A a W), (sh_window _ _ _ B a W). reflexivity.
Qed.

(** Remove from a history everything but the region calls (the stores of the OS, the
    writes of devices, the enclave and thread calls): what remains is a history, with the
    same result of every call, and it leads to the same accounting of the regions. *)
Theorem C66_noninterference_partial : forall P top pb rb G s0 h s,
  started P top pb rb G s0 -> history G pb rb s0 h s -> none ok_thread_call h ->
  exists s', history G pb rb s0 (filter region_call h) s' /\ same_accounting G s s'.
Proof.
  intros P top pb rb G s0 h s ST H NT.
  destruct (started_geom _ _ _ _ _ _ ST) as [g HD].
  destruct (started_shows _ _ _ _ _ _ ST) as [ac [c0 [_ [_ K0]]]].
  assert (X : exists s' M, history G pb rb s0 (filter region_call h) s' /\
     shows G s M /\ shows G s' M).
  { induction H as [|h s e v s1 H IH E].
    - exists s0, (boot_mstate ac (g_monitor_top G)). split; [constructor|auto].
    - apply none_app in NT as [N1 N2]. apply none_one in N2.
      destruct (IH N1) as [s' [M [HH [K K']]]].
      destruct (step_refines G pb rb g HD s M e v s1 K E) as [M1 [EF K1]].
      rewrite filter_app. cbn [filter]. destruct (region_call (e, v)) eqn:RC.
      + destruct E as [s c k v s1 C A S R|s c a v C A CA|s a v A DA T]; try discriminate RC.
        destruct (call_refines G pb rb g HD s' M c k K' C A S) as [s1' [v' [M1' [R' [EF' [K1' _]]]]]].
        destruct (region_call_effect _ _ _ _ _ _ _ _ _ _ _ RC EF EF') as [<- <-].
        exists s1', M1. split; [|auto]. econstructor; [exact HH|]. constructor; auto.
      + rewrite app_nil_r. rewrite (other_effect _ _ _ _ _ _ _ _ RC N2 EF) in K1. eauto. }
  destruct X as [s' [M [HH [A B]]]]. exists s'. split; [exact HH|].
  eapply shows_accounting; eauto.
Qed.

(** The other half fails on every machine: after a successful delete_thread, a thread call,
    block_dram_region answers concurrent_call; without it, never. *)
Theorem C66_thread_calls_refuted : forall P top pb rb G s0 c r,
  started P top pb rb G s0 -> c < g_core_count G -> 0 < r < g_dram_region_count G ->
  exists h s, history G pb rb s0 h s /\
    h = [(ECall c (CDeleteThread 0), ok); (ECall c (CBlock r), concurrent_call)] /\
    filter region_call h = [(ECall c (CBlock r), concurrent_call)] /\
    forall s', ~ history G pb rb s0 (filter region_call h) s'.
Proof.
  intros P top pb rb G s0 c r ST C R.
  destruct (started_geom _ _ _ _ _ _ ST) as [g HD].
  destruct (started_shows _ _ _ _ _ _ ST) as [ac [c0 [_ [_ K0]]]].
  destruct (C29_refuted P top pb rb G s0 c 0 ST C ltac:(reflexivity)) as (s1 & D1 & _ & L1 & _).
  assert (RB : r < 2 ^ 64).
  { pose proof (ViewProofs.layout G pb rb g) as (_ & _ & _ & _ & _ & _ & L & _). 
    assert (2 ^ 31 < 2 ^ 64) by reflexivity. lia. }
  assert (E1 : estep G pb rb s0 (ECall c (CDeleteThread 0)) ok s1).
  { apply es_call; [exact C|vm_compute; reflexivity|exact Logic.I|exact D1]. }
  assert (H1 : history G pb rb s0 [(ECall c (CDeleteThread 0), ok)] s1).
  { apply (hist_snoc G pb rb s0 [] s0); [constructor|exact E1]. }
  destruct (history_refines G pb rb g HD s0 _ _ s1 K0 H1) as [M1 [MH1 K1]].
  apply (mhist_one _ _ _ _ _ _ _) in MH1. cbn [effect] in MH1.
  destruct MH1 as [[X _]|(_ & _ & ->)]; [exfalso; apply X; reflexivity|].
  destruct (call_refines G pb rb g HD s1 _ c (CBlock r) K1 C RB Logic.I)
    as [s2 [v [M2 [D2 [E2 _]]]]].
  assert (T : forall M, (0 < r < g_dram_region_count G) -> m_owner M r = OS ->
    (m_stuck M = true -> fst (block_table pb rb c r M) = concurrent_call) /\
    (m_stuck M = false -> fst (block_table pb rb c r M) <> concurrent_call)).
  { intros M RR O. unfold block_table. rewrite <- (geo_count _ _ _ g).
    replace (r =? 0) with false by lia. replace (g_dram_region_count G <=? r) with false by lia.
    cbn [orb]. rewrite O. split; intros ->; [reflexivity|].
    destruct (touches _ _ _ _); discriminate. }
  cbn [effect] in E2. apply (f_equal fst) in E2. cbn [fst] in E2.
  rewrite (proj1 (T (m_stick (boot_mstate ac (g_monitor_top G))) R eq_refl)) in E2 by reflexivity. subst v.
  exists [(ECall c (CDeleteThread 0), ok); (ECall c (CBlock r), concurrent_call)], s2.
  split; [|split; [reflexivity|split; [reflexivity|]]].
  - apply (hist_snoc G pb rb s0 [(ECall c (CDeleteThread 0), ok)] s1); [exact H1|].
    apply es_call; [exact C|exact RB|exact Logic.I|exact D2].
  - intros s' H. destruct (history_refines G pb rb g HD s0 _ _ s' K0 H) as [M' [MH _]].
    cbn [filter region_call fst] in MH. apply mhist_one in MH. cbn [effect] in MH.
    apply (f_equal fst) in MH. cbn [fst] in MH. symmetry in MH. revert MH.
    apply (T (boot_mstate ac (g_monitor_top G)) R eq_refl). reflexivity.
Qed.

(** ** C67 *)
Lemma blocked_le_clock pb rb cores dram M0 h M :
  mhistory pb rb cores dram M0 h M -> m_clock M0 + blocks h < W64 ->
  (forall r, m_blocked_at M0 r <= m_clock M0) -> forall r, m_blocked_at M r <= m_clock M.
Proof.
  intros H B Z. induction H as [|h M e v M' H IH E]; [exact Z|].
  rewrite blocks_app, blocks_one in B.
  assert (B' : m_clock M0 + blocks h < W64) by lia. specialize (IH B').
  pose proof (clock_counts pb rb cores dram M0 h M H ltac:(lia)) as CC.
  rewrite N.mod_small in CC by lia.
  apply effect_change in E. destruct E; cbn; auto.
  cbn [ok_block] in B. intros r'. unfold upd. rewrite N.mod_small by lia.
  destruct (r' =? r); [lia|]. specialize (IH r'). lia.
Qed.

Section Reclaim.
Variables (G : globals) (pb rb : N).
Hypothesis g : geom G pb rb.
Hypothesis HD : g_dram_size G + g_dram_stripe_size G <= W64.

Lemma step_call s M c k : shows G s M -> c < g_core_count G -> call_args_ok k ->
  seq_call G pb rb k -> exists s' v M', estep G pb rb s (ECall c k) v s' /\
    effect pb rb (g_core_count G) (g_dram_size G) (ECall c k) v M M' /\ shows G s' M'.
Proof.
  intros K C A S. destruct (call_refines G pb rb g HD s M c k K C A S)
    as [s' [v [M' [R [E [K' _]]]]]].
  exists s', v, M'. split; [constructor; auto|auto].
Qed.
Lemma hist_one s e v s' : estep G pb rb s e v s' -> history G pb rb s [(e, v)] s'.
Proof. intros E. apply (hist_snoc G pb rb s [] s e v s'); [constructor|exact E]. Qed.
Lemma hist_join s0 h1 s1 h2 s2 : history G pb rb s0 h1 s1 -> history G pb rb s1 h2 s2 ->
  history G pb rb s0 (h1 ++ h2) s2.
Proof.
  intros A B. induction B as [|h s e v s' B IH E]; [rewrite app_nil_r; exact A|].
  rewrite app_assoc. econstructor; eauto.
Qed.

Lemma flush_all s M c r : shows G s M -> forall n : nat, N.of_nat n <= g_core_count G ->
  exists h s' M', history G pb rb s h s' /\ Forall (reclaims c r) h /\ shows G s' M' /\
    m_owner M' = m_owner M /\ m_blocked_at M' = m_blocked_at M /\ m_clock M' = m_clock M /\
    m_stuck M' = m_stuck M /\ forall i, i < N.of_nat n -> m_flushed M' i = m_clock M.
Proof.
  intros K. induction n as [|n IH]; intros LE.
  - exists [], s, M. split; [constructor|]. split; [constructor|]. split; [exact K|].
    do 4 (split; [reflexivity|]). intros i Hi. lia.
  - destruct (IH ltac:(lia)) as (h & s1 & M1 & H & F & K1 & E1 & E2 & E3 & E4 & E5).
    destruct (step_call s1 M1 (N.of_nat n) CFlush K1 ltac:(lia) Logic.I Logic.I)
      as (s2 & v & M2 & ES & EF & K2).
    cbn [effect] in EF. destruct EF as [-> ->].
    exists (h ++ [(ECall (N.of_nat n) CFlush, 0)]), s2, (m_flush M1 (N.of_nat n)).
    split; [econstructor; eauto|]. split.
    { apply Forall_app. split; [exact F|]. constructor; [|constructor]. left. eauto. }
    split; [exact K2|]. cbn [m_flush m_owner m_blocked_at m_clock m_stuck m_flushed].
    do 4 (split; [assumption|]). intros i Hi. unfold upd.
    destruct (N.eqb_spec i (N.of_nat n)); [exact E3|]. apply E5. lia.
Qed.

(** A free region can be assigned to the OS. *)
Lemma assign_free s M c r : shows G s M -> c < g_core_count G -> m_stuck M = false ->
  0 < r < 2 ^ rb -> m_owner M r = Free ->
  exists s' M', history G pb rb s [(ECall c (CAssign r 0), 0)] s' /\ shows G s' M' /\
    M' = load_access (set_owner M r OS) c.
Proof.
  intros K C U R F. pose proof (geo_rb _ _ _ g) as RB.
  pose proof (N.pow_le_mono_r 2 rb 30 ltac:(lia) ltac:(lia)) as PW. change (2 ^ 30) with 1073741824 in PW.
  destruct (step_call s M c (CAssign r 0) K C) as (s' & v & M' & ES & EF & K').
  { cbn. change W64 with 18446744073709551616. lia. }
  { exact Logic.I. }
  cbn [effect] in EF. unfold assign_table in EF.
  destruct (N.leb_spec (2 ^ rb) r); [lia|]. unfold taken in EF. rewrite U, andb_false_r in EF.
  rewrite F in EF. rewrite andb_false_r, orb_false_r in EF.
  replace (region_of pb rb 0 =? r) with false in EF.
  2:{ symmetry. apply N.eqb_neq. unfold region_of. rewrite N.div_0_l by apply pow2_nz.
      rewrite N.mod_0_l by apply pow2_nz. lia. }
  change (0 =? 0) with true in EF. cbv iota in EF. inversion EF; subst v M'.
  exists s', (load_access (set_owner M r OS) c). split; [apply hist_one; exact ES|]. auto.
Qed.
Lemma free_it s M c r : shows G s M -> c < g_core_count G -> m_stuck M = false ->
  0 < r < 2 ^ rb ->
  m_owner M r = Metadata \/ (m_owner M r = Blocked /\ all_flushed (g_core_count G) M r = true) ->
  exists s', history G pb rb s [(ECall c (CFree r), 0)] s' /\ shows G s' (set_owner M r Free).
Proof.
  intros K C U R F. pose proof (geo_rb _ _ _ g) as RB.
  pose proof (N.pow_le_mono_r 2 rb 30 ltac:(lia) ltac:(lia)) as PW. change (2 ^ 30) with 1073741824 in PW.
  destruct (step_call s M c (CFree r) K C) as (s' & v & M' & ES & EF & K').
  { cbn. change W64 with 18446744073709551616. lia. }
  { exact Logic.I. }
  cbn [effect] in EF. unfold free_table in EF.
  destruct (N.leb_spec (2 ^ rb) r); [lia|]. unfold taken in EF. rewrite U, andb_false_r in EF.
  destruct F as [F|[F A]]; rewrite F in EF; [|rewrite A in EF]; inversion EF; subst v M';
    exists s'; (split; [apply hist_one; exact ES|exact K']).
Qed.
End Reclaim.

(** The reclaiming calls from a state that shows [M]. *)
Lemma reclaim_from G pb rb s M c r : geom G pb rb -> g_dram_size G + g_dram_stripe_size G <= W64 ->
  shows G s M -> m_stuck M = false -> (forall r, m_blocked_at M r <= m_clock M) ->
  c < g_core_count G -> 0 < r < g_dram_region_count G -> owner_of G s r <> 0 ->
  exists h' s', history G pb rb s h' s' /\ Forall (reclaims c r) h' /\
    owner_of G s' r = 0 /\ os_bit G s' r = true /\ drb_bit (s_cores s' c) r = true /\
    forall r', r' < g_dram_region_count G -> r' <> r -> owner_of G s' r' = owner_of G s r'.
Proof.
  intros g HD K U BC C R NO.
  pose proof (geo_count _ _ _ g) as CN.
  assert (FIN : forall h1 s1 M1, history G pb rb s h1 s1 -> Forall (reclaims c r) h1 ->
    shows G s1 M1 -> m_stuck M1 = false -> m_owner M1 r = Free ->
    (forall r', r' <> r -> m_owner M1 r' = m_owner M r') ->
    exists h' s', history G pb rb s h' s' /\ Forall (reclaims c r) h' /\
      owner_of G s' r = 0 /\ os_bit G s' r = true /\ drb_bit (s_cores s' c) r = true /\
      forall r', r' < g_dram_region_count G -> r' <> r -> owner_of G s' r' = owner_of G s r').
  { intros h1 s1 M1 H1 F1 K1 U1 O1 S1.
    destruct (assign_free G pb rb g HD s1 M1 c r K1 C U1 ltac:(lia) O1) as (s2 & M2 & H2 & K2 & ->).
    exists (h1 ++ [(ECall c (CAssign r 0), 0)]), s2.
    split; [eapply hist_join; eauto|]. split.
    { apply Forall_app. split; [exact F1|]. constructor; [|constructor]. right. right. reflexivity. }
    rewrite (sh_owner _ _ _ K2 r) by lia. rewrite (sh_bit _ _ _ K2 r) by lia.
    rewrite (sh_access _ _ _ K2 c r) by lia.
    cbn [load_access set_owner m_owner m_access]. rewrite !upd_same.
    split; [reflexivity|]. split; [reflexivity|]. split; [reflexivity|].
    intros r' R' NE. rewrite (sh_owner _ _ _ K2 r'), (sh_owner _ _ _ K r') by lia.
    cbn [load_access set_owner m_owner]. rewrite upd_other by auto. rewrite S1 by auto. reflexivity. }
  rewrite (sh_owner _ _ _ K r) in NO by lia.
  destruct (m_owner M r) eqn:O.
  - exfalso. apply NO. reflexivity.
  - destruct (flush_all G pb rb g HD s M c r K (N.to_nat (g_core_count G)) ltac:(lia))
      as (h1 & s1 & M1 & H1 & F1 & K1 & E1 & E2 & E3 & E4 & E5).
    destruct (free_it G pb rb g HD s1 M1 c r K1 C ltac:(congruence) ltac:(lia)) as (s2 & H2 & K2).
    { right. rewrite E1. split; [exact O|]. unfold all_flushed. apply forallb_forall.
      intros i I. apply in_seq in I. rewrite E2, E5 by lia. apply N.leb_le. apply BC. }
    apply (FIN (h1 ++ [(ECall c (CFree r), 0)]) s2 (set_owner M1 r Free)).
    + eapply hist_join; eauto.
    + apply Forall_app. split; [exact F1|]. constructor; [|constructor]. right. left. reflexivity.
    + exact K2.
    + cbn. congruence.
    + cbn. apply upd_same.
    + intros r' NE. cbn. rewrite upd_other by auto. rewrite E1. reflexivity.
  - destruct (free_it G pb rb g HD s M c r K C U ltac:(lia)) as (s2 & H2 & K2); [left; exact O|].
    apply (FIN [(ECall c (CFree r), 0)] s2 (set_owner M r Free)); auto.
    + constructor; [|constructor]. right. left. reflexivity.
    + cbn. apply upd_same.
    + intros r' NE. cbn. rewrite upd_other by auto. reflexivity.
  - apply (FIN [] s M); auto. constructor.
Qed.

(** As long as the lock of region 0 is free, the OS gets any region other than region 0
    back with flushes on all cores, free and assign, and no other region changes owner. *)
Theorem C67_reclaim_partial : forall P top pb rb G s0 h s c r,
  started P top pb rb G s0 -> history G pb rb s0 h s -> blocks h < 2 ^ 64 ->
  lock_of G s 0 = 0 -> c < g_core_count G -> 0 < r < g_dram_region_count G ->
  owner_of G s r <> 0 ->
  exists h' s', history G pb rb s h' s' /\ Forall (reclaims c r) h' /\
    owner_of G s' r = 0 /\ os_bit G s' r = true /\ drb_bit (s_cores s' c) r = true /\
    forall r', r' < g_dram_region_count G -> r' <> r -> owner_of G s' r' = owner_of G s r'.
Proof.
  intros P top pb rb G s0 h s c r ST H BL LK C R NO.
  destruct (started_geom _ _ _ _ _ _ ST) as [g HD].
  destruct (started_shows _ _ _ _ _ _ ST) as [ac [c0 [_ [_ K0]]]].
  destruct (history_refines G pb rb g HD s0 _ h s K0 H) as [M [MH K]].
  pose proof (geo_count _ _ _ g) as CN.
  assert (U : m_stuck M = false).
  { rewrite (sh_lock _ _ _ K 0) in LK by lia. change (0 =? 0) with true in LK.
    cbn [andb] in LK. destruct (m_stuck M); [discriminate|reflexivity]. }
  assert (BC : forall r, m_blocked_at M r <= m_clock M).
  { apply (blocked_le_clock pb rb _ _ _ _ _ MH); cbn; [exact BL|]. intros. lia. }
  apply (reclaim_from G pb rb s M c r g HD K U BC C R NO).
Qed.

(** Once create_thread or delete_thread succeeded no region ever moves to or from the OS
    again, and the DMA range does not move. *)
Theorem C67_wedged : forall P top pb rb G s0 h1 x h2 s,
  started P top pb rb G s0 -> history G pb rb s0 (h1 ++ x :: h2) s ->
  ok_thread_call x = true -> none ok_move h2.
Proof.
  intros P top pb rb G s0 h1 x h2 s ST H OX.
  destruct (started_geom _ _ _ _ _ _ ST) as [g HD].
  destruct (started_shows _ _ _ _ _ _ ST) as [ac [c0 [_ [_ K0]]]].
  destruct (history_refines G pb rb g HD s0 _ _ s K0 H) as [M [MH _]].
  change (x :: h2) with ([x] ++ h2) in MH. apply mhist_app in MH as [M1 [_ MH]].
  apply mhist_app in MH as [M2 [MX MH]]. destruct x as [e v]. apply mhist_one in MX.
  assert (S2 : m_stuck M2 = true).
  { destruct e as [c k|? ? ?|? ?]; try discriminate OX.
    destruct k; cbn [ok_thread_call] in OX; try discriminate OX;
      destruct v; try discriminate OX; cbn [effect] in MX;
      destruct MX as [[X _]|(_ & _ & ->)]; try reflexivity; exfalso; apply X; reflexivity. }
  clear -MH S2.
  assert (X : m_stuck M = true /\ none ok_move h2); [|apply X].
  induction MH as [|h M e v M' H IH E]; [split; [exact S2|apply none_nil]|].
  destruct IH as [SM NN]. split.
  - apply effect_change in E. destruct E; auto.
  - apply none_app. split; [exact NN|]. apply none_one.
    destruct (ok_move (e, v)) eqn:OM; [|reflexivity]. exfalso.
    destruct e as [c k|? ? ?|? ?]; try discriminate OM.
    destruct k; cbn [ok_move] in OM; try discriminate OM; destruct v; try discriminate OM;
      cbn [effect] in E.
    + apply block_inv in E as [[V _]|(_ & _ & _ & _ & X & _)]; [apply V; reflexivity|congruence].
    + destruct E as [(_ & V & _)|[(_ & _ & _ & V & _)|(_ & _ & X & _)]];
        [discriminate V|discriminate V|congruence].
    + pose proof E as E'. apply assign_inv in E' as [[V _]|(_ & A & -> & O & _)]; [apply V; reflexivity|].
      unfold assign_table in E. rewrite O in E. unfold taken in E. rewrite SM in E.
      destruct (2 ^ rb <=? dram_region); [discriminate E|].
      destruct (_ && true); [discriminate E|].
      replace (region_of pb rb 0) with 0 in E.
      2:{ unfold region_of. rewrite N.div_0_l by apply pow2_nz.
          rewrite N.mod_0_l by apply pow2_nz. reflexivity. }
      change ((0 =? 0) && true) with true in E. rewrite orb_true_r in E. discriminate E.
Qed.

(** A history with a store, a region call and an enclave call; region 3 was blocked in it. *)
Definition ex_h : list (event * N) :=
  [(EStore 0 300000 7, 0); (ECall 0 (CBlock 3), 0); (ECall 1 (CInitEnclave 5), 1)].
Definition ex_store : state := set_mem ex_s0 (st 1 (s_mem ex_s0) 300000 7).
Definition ex_block : state := fst (do_call ex_G 0 (CBlock 3) ex_store).
Definition ex_init : state := fst (do_call ex_G 1 (CInitEnclave 5) ex_block).
Lemma ex_hist : history ex_G 6 4 ex_s0 ex_h ex_init.
Proof.
  apply (hist_snoc ex_G 6 4 ex_s0 [(EStore 0 300000 7, 0); (ECall 0 (CBlock 3), 0)] ex_block).
  - apply (hist_snoc ex_G 6 4 ex_s0 [(EStore 0 300000 7, 0)] ex_store).
    + apply (hist_snoc ex_G 6 4 ex_s0 [] ex_s0); [constructor|].
      apply es_store; [reflexivity|reflexivity|]. split; vm_compute; [reflexivity|discriminate].
    + apply es_call; [reflexivity|vm_compute; reflexivity|exact Logic.I|].
      apply call_val. vm_compute. reflexivity.
  - apply es_call; [reflexivity|vm_compute; reflexivity|exact Logic.I|].
    apply call_val. vm_compute. reflexivity.
Qed.
Example C66_example : history ex_G 6 4 ex_s0 ex_h ex_init /\ none ok_thread_call ex_h /\
  filter region_call ex_h = [(ECall 0 (CBlock 3), 0)].
Proof.
  split; [exact ex_hist|]. split; [|reflexivity].
  intros x [<-|[<-|[<-|[]]]]; reflexivity.
Qed.
Example C67_example : history ex_G 6 4 ex_s0 ex_h ex_init /\ blocks ex_h = 1 /\
  lock_of ex_G ex_init 0 = 0 /\ owner_of ex_G ex_init 3 = 1 /\
  exists h' s', history ex_G 6 4 ex_init h' s' /\ Forall (reclaims 1 3) h' /\
    owner_of ex_G s' 3 = 0.
Proof.
  split; [exact ex_hist|]. split; [reflexivity|]. split; [vm_compute; reflexivity|].
  split; [vm_compute; reflexivity|].
  destruct (C67_reclaim_partial _ _ _ _ ex_G ex_s0 ex_h ex_init 1 3 ex_started ex_hist)
    as (h' & s' & H & F & O & _).
  - vm_compute. reflexivity.
  - vm_compute. reflexivity.
  - reflexivity.
  - split; reflexivity.
  - vm_compute. discriminate.
  - exists h', s'. auto.
Qed.
(** After delete_thread the blocked region 3 never gets back to the OS. *)
Theorem C67_reclaim_refuted : exists P top pb rb G s0 h s,
  started P top pb rb G s0 /\ history G pb rb s0 h s /\ owner_of G s 3 = 1 /\
  forall h' s', history G pb rb s h' s' -> owner_of G s' 3 <> 0 /\ none ok_move h'.
Proof.
  set (s2 := fst (do_call ex_G 1 (CDeleteThread 5) ex_init)).
  assert (E : estep ex_G 6 4 ex_init (ECall 1 (CDeleteThread 5)) 0 s2).
  { apply es_call; [reflexivity|vm_compute; reflexivity|exact Logic.I|].
    apply call_val. vm_compute. reflexivity. }
  eexists _, _, 6, 4, ex_G, ex_s0, (ex_h ++ [(ECall 1 (CDeleteThread 5), 0)]), s2.
  split; [exact ex_started|]. split; [econstructor; [exact ex_hist|exact E]|].
  split; [vm_compute; reflexivity|]. intros h' s' H.
  assert (NM : none ok_move h').
  { eapply (C67_wedged _ _ _ _ ex_G ex_s0 ex_h (ECall 1 (CDeleteThread 5), 0) h' s' ex_started);
      [|reflexivity].
    change (ex_h ++ (ECall 1 (CDeleteThread 5), 0) :: h') with
      (ex_h ++ [(ECall 1 (CDeleteThread 5), 0)] ++ h'). rewrite app_assoc.
    eapply hist_join; [econstructor; [exact ex_hist|exact E]|exact H]. }
  split; [|exact NM].
  destruct (started_geom _ _ _ _ _ _ ex_started) as [g HD].
  destruct (started_shows _ _ _ _ _ _ ex_started) as [ac [c0 [_ [_ K0]]]].
  assert (H0 : history ex_G 6 4 ex_s0 (ex_h ++ [(ECall 1 (CDeleteThread 5), 0)]) s2)
    by (econstructor; [exact ex_hist|exact E]).
  destruct (history_refines ex_G 6 4 g HD ex_s0 _ _ s2 K0 H0) as [M2 [_ K2]].
  destruct (history_refines ex_G 6 4 g HD s2 _ _ s' K2 H) as [M' [MH K']].
  assert (O2 : m_owner M2 3 <> OS).
  { intros X. pose proof (sh_owner _ _ _ K2 3 ltac:(reflexivity)) as Y. rewrite X in Y.
    vm_compute in Y. discriminate Y. }
  rewrite (sh_owner _ _ _ K' 3) by reflexivity.
  assert (O' : m_owner M' 3 <> OS).
  { clear -MH NM O2. induction MH as [|h M e v M' H IH F]; [exact O2|].
    apply none_app in NM as [N1 N2]. apply none_one in N2. specialize (IH N1).
    apply effect_change in F. destruct F; try exact IH.
    - discriminate N2.
    - cbn. unfold upd. destruct (3 =? r); [discriminate|exact IH].
    - discriminate N2.
    - cbn. unfold upd. destruct (3 =? r); [discriminate|exact IH]. }
  destruct (m_owner M' 3); cbn; congruence.
Qed.

(** ** C68 *)
(** On every machine state, every call that ends returns a value documented for it. *)
Theorem C68_documented_results : forall G c k s s' v,
  do_call G c k s = (s', Some v) -> documented_result k v.
Proof.
  intros G c k s s' v H. eapply rets_run; [apply call_rets|exact H].
Qed.
(** Each documented result of block_dram_region occurs but none above; and a thread call
    of the OS is unsupported or invalid. *)
Example C68_example :
  snd (do_call ex_G 0 (CBlock 3) ex_s0) = Some 0 /\
  snd (do_call ex_G 0 (CBlock 0) ex_s0) = Some 1 /\
  snd (do_call ex_G 0 (CBlock 3) ex_block) = Some 4 /\
  snd (do_call ex_G 0 (CRegionState 3) ex_block) = Some 2 /\
  snd (do_call ex_G 0 CFlush ex_s0) = Some 0.
Proof. do 4 (split; [vm_compute; reflexivity|]). vm_compute. reflexivity. Qed.

(** ** C69 *)
(** On every machine state, whatever the arguments and whether or not the call ends. *)
Theorem C69_hardware : forall G c k s s' r,
  do_call G c k s = (s', r) -> hardware_of c k s s'.
Proof.
  intros G c k s s' r H. eapply run_hardware; [apply call_uses|exact H].
Qed.
Theorem C69_undefined : forall G c k s s' r,
  do_call G c k s = (s', r) -> looks_up_page k = false -> s_ub s' = s_ub s.
Proof.
  intros G c k s s' r H L. eapply run_ub; [exact L|apply call_uses|exact H].
Qed.

(** The same for each step of interleaved calls: a register of a core changes only while
    that core executes a call that may change it, and the DMA range only while some core
    executes set_dma_range. *)
Lemma running_uses G pb rb allowed nowrap s0 x : creach G pb rb allowed nowrap s0 x ->
  forall c k p l, cf_task x c = Running k p l -> uses (operates k) p.
Proof.
  intros R. induction R as [|x y R IH S]; intros c k p l E; [discriminate E|].
  destruct S as [s t h c1 k1 C T A AL|s t h c1 k1 o f l1 s' v C T S W|s t h c1 k1 v l1 C T
    |s t h c1 a v C T A CA|s t h a v A DA T]; cbn [cf_task] in *.
  - unfold upd in E. destruct (c =? c1); [|eapply IH; exact E].
    inversion E; subst. apply call_uses.
  - unfold upd in E. destruct (c =? c1); [|eapply IH; exact E].
    inversion E; subst. destruct (IH _ _ _ _ T) as [_ U]. apply U.
  - unfold upd in E. destruct (c =? c1); [discriminate E|eapply IH; exact E].
  - eapply IH; exact E.
  - eapply IH; exact E.
Qed.
Theorem C69_interleaved : forall G pb rb allowed nowrap s0 x y,
  creach G pb rb allowed nowrap s0 x -> cstep G pb rb allowed nowrap x y ->
  (forall c, s_cores (cf_state y) c = s_cores (cf_state x) c /\
     s_dmar_base (cf_state y) = s_dmar_base (cf_state x) /\
     s_dmar_mask (cf_state y) = s_dmar_mask (cf_state x) /\
     s_dma_start (cf_state y) = s_dma_start (cf_state x) /\
     s_dma_end (cf_state y) = s_dma_end (cf_state x)) \/
  exists c k p l, cf_task x c = Running k p l /\ hardware_of c k (cf_state x) (cf_state y).
Proof.
  intros G pb rb allowed nowrap s0 x y R S.
  pose proof (running_uses _ _ _ _ _ _ _ R) as U.
  destruct S as [s t h c1 k1 C T A AL|s t h c1 k1 o f l1 s' v C T S W|s t h c1 k1 v l1 C T
    |s t h c1 a v C T A CA|s t h a v A DA T]; cbn [cf_task cf_state] in *;
    try (left; intros c; cbn; auto; fail).
  right. exists c1, k1, (Do o f), l1. split; [exact T|].
  destruct (U _ _ _ _ T) as [O _]. eapply step_hardware; eauto.
Qed.
(** In every interleaving the protected range and the cache index shift of every core stay
    as boot left them. *)
Theorem C69_protection_constant : forall G pb rb allowed nowrap s0 x c,
  creach G pb rb allowed nowrap s0 x ->
  r_par_base (s_cores (cf_state x) c) = r_par_base (s_cores s0 c) /\
  r_par_mask (s_cores (cf_state x) c) = r_par_mask (s_cores s0 c) /\
  r_cache_shift (s_cores (cf_state x) c) = r_cache_shift (s_cores s0 c).
Proof.
  intros G pb rb allowed nowrap s0 x c R. induction R as [|x y R IH S]; [cbn; auto|].
  destruct (C69_interleaved _ _ _ _ _ _ _ _ R S) as [E|(c1 & k & p & l & _ & HW)].
  - destruct (E c) as [-> _]. exact IH.
  - destruct (N.eq_dec c c1) as [->|NE].
    + destruct HW as [_ [A B] D _ _ _ _ _]. rewrite A, B, D. exact IH.
    + rewrite (hw_others _ _ _ _ HW c NE). exact IH.
Qed.
Example C69_example :
  r_drb (s_cores ex_block 0) 0 <> r_drb (s_cores ex_s0 0) 0 /\
  r_drb (s_cores ex_block 1) 0 = r_drb (s_cores ex_s0 1) 0 /\
  r_tlb_flushes (s_cores (fst (do_call ex_G 1 CFlush ex_s0)) 1) =
    r_tlb_flushes (s_cores ex_s0 1) + 1.
Proof. split; [vm_compute; discriminate|]. split; vm_compute; reflexivity. Qed.

Definition P_System_theorems :=
  (C66_noninterference_partial, C66_example, C66_thread_calls_refuted, C67_reclaim_partial, C67_wedged, C67_example,
   C67_reclaim_refuted, C68_documented_results, C68_example, C69_hardware, C69_undefined,
   C69_interleaved, C69_protection_constant, C69_example).
Print Assumptions P_System_theorems.
