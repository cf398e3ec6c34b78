(** * Properties C33-C37: DMA window, access registers, OS memory writes.

    Histories as in P_Regions.v. *)
From Coq Require Import NArith ZArith Lia Bool List.
From Coq Require Import ZifyBool ZifyNat ZifyN.
From Verif Require Import Word Machine ModelBare ModelHash ModelInl ModelRegions
  ModelMetadata ModelEnclave ModelBoot ModelApi Lib BareProofs BootProofs SpecGeometry
  GeomProofs SpecMonitor SpecHistory ViewProofs SeqProofs SeqCalls HistoryProofs
  HistoryFacts P_Boot Trace P_Regions.
Import ListNotations.
Open Scope N_scope.
Ltac Zify.zify_post_hook ::= Z.div_mod_to_equations.

(** ** C33 *)

(** What set_dma_range does check: the range is an aligned power of two inside
    DRAM; after success the window is exactly that range. *)
Theorem C33_range_partial : forall P top pb rb G s c base mask s',
  reachable P top pb rb G s -> c < g_core_count G -> base < 2 ^ 64 -> mask < 2 ^ 64 ->
  do_call G c (CSetDmaRange base mask) s = (s', Some 0) ->
  (exists k, k <= 64 /\ mask = 2 ^ k - 1 /\ base mod 2 ^ k = 0) /\
  base + mask < g_dram_size G /\
  forall a, a < 2 ^ 64 -> (dma_may_access s' a <-> base <= a <= base + mask).
Proof.
  intros P top pb rb G s c base mask s' R C A1 A2 D.
  destruct (reach_shows _ _ _ _ _ _ R) as [g [HD [M K]]].
  destruct (C26_set_dma_range P top pb rb G s M c base mask R K C A1 A2)
    as [s2 [v [M' [D2 [T K']]]]].
  rewrite D in D2. inversion D2; subst.
  destruct T as [(_ & X & _)|[(_ & _ & _ & X & _)|(T1 & T2 & _ & _ & ->)]]; try discriminate X.
  split; [exact T1|]. split; [exact T2|].
  intros a A. rewrite (sh_window _ _ _ K' a A).
  cbn [m_dma_start m_dma_end m_set_dma]. lia.
Qed.

(** What it does not check: in every reachable state in which region 0 is not
    locked, every such range is accepted, whoever owns it. *)
Theorem C33_ownership_refuted : forall P top pb rb G s c base mask,
  reachable P top pb rb G s -> c < g_core_count G -> lock_of G s 0 = 0 ->
  (exists k, k <= 64 /\ mask = 2 ^ k - 1 /\ base mod 2 ^ k = 0) ->
  base + mask < g_dram_size G ->
  exists s', do_call G c (CSetDmaRange base mask) s = (s', Some 0) /\
   forall a, a < 2 ^ 64 -> base <= a <= base + mask -> dma_may_access s' a.
Proof.
  intros P top pb rb G s c base mask R C L T1 T2.
  destruct (reach_shows _ _ _ _ _ _ R) as [g [HD [M K]]].
  pose proof (geo_D _ _ _ g) as GD.
  destruct (C26_set_dma_range P top pb rb G s M c base mask R K C)
    as [s2 [v [M' [D2 [T K']]]]]; [change (2 ^ 64) with W64; lia|change (2 ^ 64) with W64; lia|].
  assert (N0 : 0 < g_dram_region_count G) by (rewrite (geo_count _ _ _ g); apply pow2_pos).
  rewrite (sh_lock _ _ _ K 0 N0) in L. cbn [N.eqb andb] in L.
  destruct T as [(X & _)|[(_ & _ & X & _)|(_ & _ & _ & -> & ->)]].
  - exfalso. apply X. split; [exact T1|exact T2].
  - rewrite X in L. discriminate.
  - exists s2. split; [exact D2|]. intros a A B. apply (sh_window _ _ _ K' a A).
    cbn [m_dma_start m_dma_end m_set_dma]. lia.
Qed.

(** In particular right after any boot a device can be given the whole monitor. *)
Theorem C33_monitor_refuted : forall P top pb rb G s0 c,
  started P top pb rb G s0 -> c < g_core_count G ->
  exists s', do_call G c (CSetDmaRange 0 (g_monitor_top G - 1)) s0 = (s', Some 0) /\
    forall a, a < g_monitor_top G -> dma_may_access s' a.
Proof.
  intros P top pb rb G s0 c ST C.
  destruct (started_geom _ _ _ _ _ _ ST) as [g HD].
  destruct (started_shows _ _ _ _ _ _ ST) as [ac [c0 [_ [_ K0]]]].
  assert (N0 : 0 < g_dram_region_count G) by (rewrite (geo_count _ _ _ g); apply pow2_pos).
  destruct (geo_mtop _ _ _ g) as [t T]. pose proof (geo_fits _ _ _ g) as F.
  pose proof (geo_pb _ _ _ g) as PB. pose proof (geo_rb _ _ _ g) as RB.
  pose proof (geo_cover _ _ _ g) as CV. pose proof (geo_D _ _ _ g) as GD.
  assert (T30 : t <= 12 + pb) by (rewrite T in F; apply pow2_le_inv in F; exact F).
  assert (2 ^ (12 + pb) <= 2 ^ (11 + pb + rb)) by (apply N.pow_le_mono_r; lia).
  destruct (C33_ownership_refuted P top pb rb G s0 c 0 (g_monitor_top G - 1)) as [s' [D W]].
  - apply reach_start. exact ST.
  - exact C.
  - rewrite (sh_lock _ _ _ K0 0 N0). reflexivity.
  - exists t. split; [lia|]. split; [rewrite T; reflexivity|]. apply N.mod_0_l, pow2_nz.
  - lia.
  - exists s'. split; [exact D|]. intros a A. apply W; [|lia].
    change (2 ^ 64) with W64. lia.
Qed.
(** and a region that was just blocked. *)
Theorem C33_blocked_refuted : forall P top pb rb G s0 c r,
  started P top pb rb G s0 -> c < g_core_count G -> 2 <= r < g_dram_region_count G ->
  stripe_start pb rb r 0 + 2 ^ (12 + pb) <= g_dram_size G ->
  exists s1 s2, do_call G c (CBlock r) s0 = (s1, Some 0) /\
    do_call G c (CSetDmaRange (stripe_start pb rb r 0) (2 ^ (12 + pb) - 1)) s1 = (s2, Some 0) /\
    owner_of G s1 r = 1 /\
    forall a, stripe_start pb rb r 0 <= a < stripe_start pb rb r 0 + 2 ^ (12 + pb) ->
      dma_may_access s2 a.
Proof.
  intros P top pb rb G s0 c r ST C R ND.
  destruct (C30_refuted P top pb rb G s0 c c r ST C C R) as [s1 [_ [D1 [_ [O1 _]]]]].
  pose proof (reach_start _ _ _ _ _ _ ST) as R0.
  destruct (reach_shows _ _ _ _ _ _ R0) as [g [HD [M K]]].
  pose proof (geo_pb _ _ _ g) as PB. pose proof (geo_D _ _ _ g) as GD.
  assert (RB : r < 2 ^ rb) by (rewrite <- (geo_count _ _ _ g); apply R).
  assert (RW : r < W64).
  { pose proof (geo_rb _ _ _ g). assert (2 ^ rb <= 2 ^ 30) by (apply N.pow_le_mono_r; lia).
    change (2 ^ 30) with 1073741824 in *. unfold W64. lia. }
  assert (R1 : reachable P top pb rb G s1)
    by (eapply reach_step; [exact R0|apply (es_call _ _ _ _ c (CBlock r) 0); [exact C|exact RW|exact I|exact D1]]).
  assert (L1 : lock_of G s1 0 = 0).
  { rewrite (C29_region_locks_partial P top pb rb G s0 c (CBlock r) s1 0 0 R0 C RW I);
      [| |discriminate|discriminate|exact D1].
    - destruct (started_shows _ _ _ _ _ _ ST) as [ac [c0 [_ [_ K0]]]].
      rewrite (sh_lock _ _ _ K0); [reflexivity|]. rewrite (geo_count _ _ _ g). lia.
    - rewrite (geo_count _ _ _ g). lia. }
  pose proof (pow2_pos (12 + pb)) as SP.
  destruct (C33_ownership_refuted P top pb rb G s1 c (stripe_start pb rb r 0) (2 ^ (12 + pb) - 1)
    R1 C L1) as [s2 [D2 W]].
  - exists (12 + pb). split; [lia|]. split; [reflexivity|].
    unfold stripe_start. rewrite N.mul_0_l, N.add_0_l. apply N.mod_mul, pow2_nz.
  - lia.
  - exists s1, s2. split; [exact D1|]. split; [exact D2|]. split; [exact O1|].
    intros a A. apply W; [|lia]. change (2 ^ 64) with W64. lia.
Qed.
Example C33_example : exists s', do_call ex_G 1 (CSetDmaRange 0 1023) ex_s0 = (s', Some 0) /\
  dma_may_access s' 72.
Proof.
  destruct (C33_monitor_refuted _ _ _ _ _ _ 1 ex_started) as [s' [D W]]; [reflexivity|].
  exists s'. split; [exact D|]. apply W. reflexivity.
Qed.

(** ** C34 *)

(** A successful block means that no byte of the first stripe of the region is
    inside the DMA window. *)
Theorem C34_first_stripe_partial : forall P top pb rb G s c r s' a,
  reachable P top pb rb G s -> c < g_core_count G -> r < 2 ^ 64 ->
  do_call G c (CBlock r) s = (s', Some 0) ->
  stripe_start pb rb r 0 <= a < stripe_start pb rb r 0 + 2 ^ (12 + pb) -> a < 2 ^ 64 ->
  ~ dma_may_access s a /\ ~ dma_may_access s' a.
Proof.
  intros P top pb rb G s c r s' a R C RW D A AW.
  destruct (reach_shows _ _ _ _ _ _ R) as [g [HD [M K]]].
  destruct (can_call _ _ _ _ _ _ _ c (CBlock r) R K C RW I) as [s2 [v [M' [D2 [E [K' _]]]]]].
  rewrite D in D2. inversion D2; subst.
  cbn [effect] in E. apply block_inv in E as [[V _]|(_ & _ & _ & _ & _ & T & ->)];
    [exfalso; apply V; reflexivity|].
  rewrite (sh_window _ _ _ K a AW), (sh_window _ _ _ K' a AW).
  cbn [m_dma_start m_dma_end load_access tick set_owner].
  unfold touches, stripe_start in *. pose proof (pow2_pos (12 + pb)) as SP.
  rewrite N.mul_add_distr_r, N.mul_1_l, N.mul_0_l, !N.add_0_l in *.
  assert (~ (m_dma_start M <= a < m_dma_end M)).
  { intros B. apply andb_false_iff in T as [T|T]; apply N.leb_gt in T; lia. }
  auto.
Qed.
(** Conversely block refuses with invalid_state only if the closed window
    [start, end] meets the closed first stripe. *)
Theorem C34_refusal_justified : forall P top pb rb G s c r s',
  reachable P top pb rb G s -> c < g_core_count G -> r < 2 ^ 64 ->
  do_call G c (CBlock r) s = (s', Some invalid_state) ->
  exists a, stripe_start pb rb r 0 <= a <= stripe_start pb rb r 0 + 2 ^ (12 + pb) /\
    s_dma_start s <= a <= s_dma_end s.
Proof.
  intros P top pb rb G s c r s' R C RW D.
  destruct (reach_shows _ _ _ _ _ _ R) as [g [HD [M K]]].
  destruct (C26_block P top pb rb G s M c r R K C RW) as [s2 [D2 _]].
  rewrite D in D2. inversion D2 as [[X Y]]. clear D2.
  rewrite (sh_dma_start _ _ _ K), (sh_dma_end _ _ _ K).
  pose proof (sh_dma_order _ _ _ K) as DO.
  unfold block_table in Y. destruct (_ || _); [discriminate|].
  destruct (m_owner M r); try discriminate. destruct (m_stuck M); [discriminate|].
  destruct (touches _ _ _ _) eqn:T; [|discriminate].
  unfold touches in T. apply andb_true_iff in T as [T1 T2]. apply N.leb_le in T1, T2.
  assert (EQ : stripe_start pb rb (r + 1) 0 = stripe_start pb rb r 0 + 2 ^ (12 + pb)).
  { unfold stripe_start. rewrite N.mul_add_distr_r, N.mul_1_l. lia. }
  rewrite EQ in T1. revert T1 T2. generalize (stripe_start pb rb r 0), (2 ^ (12 + pb)).
  intros x y T1 T2. destruct (N.leb_spec x (m_dma_start M)).
  - exists (m_dma_start M). lia.
  - exists x. lia.
Qed.

(** The other stripes are not considered: on every machine whose DRAM has a
    second stripe of region r, DMA into it does not prevent the block. *)
Theorem C34_second_stripe_refuted : forall P top pb rb G s0 c r,
  started P top pb rb G s0 -> c < g_core_count G -> 0 < r < g_dram_region_count G ->
  stripe_start pb rb r 1 + 2 ^ (12 + pb) <= g_dram_size G ->
  exists s1 s2,
    do_call G c (CSetDmaRange (stripe_start pb rb r 1) (2 ^ (12 + pb) - 1)) s0 = (s1, Some 0) /\
    do_call G c (CBlock r) s1 = (s2, Some 0) /\
    forall a, stripe_start pb rb r 1 <= a < stripe_start pb rb r 1 + 2 ^ (12 + pb) ->
      region_of pb rb a = r /\ dma_may_access s2 a.
Proof.
  intros P top pb rb G s0 c r ST C [R0 R] ND.
  destruct (started_geom _ _ _ _ _ _ ST) as [g HD].
  destruct (started_shows _ _ _ _ _ _ ST) as [ac [c0 [_ [_ K0]]]].
  pose proof (reach_start _ _ _ _ _ _ ST) as RE.
  pose proof (geo_pb _ _ _ g) as PB. pose proof (geo_D _ _ _ g) as GD.
  assert (RB : r < 2 ^ rb) by (rewrite <- (geo_count _ _ _ g); exact R).
  assert (RW : r < W64).
  { pose proof (geo_rb _ _ _ g). assert (2 ^ rb <= 2 ^ 30) by (apply N.pow_le_mono_r; lia).
    change (2 ^ 30) with 1073741824 in *. unfold W64. lia. }
  pose proof (pow2_pos (12 + pb)) as SP. pose proof (pow2_pos rb) as SR.
  assert (SS : stripe_start pb rb r 1 = (2 ^ rb + r) * 2 ^ (12 + pb)).
  { unfold stripe_start. rewrite (N.pow_add_r 2 (12 + pb) rb). lia. }
  set (base := stripe_start pb rb r 1) in *.
  destruct (C26_set_dma_range P top pb rb G s0 _ c base (2 ^ (12 + pb) - 1) RE K0 C)
    as [s1 [v [M1 [D1 [T K1]]]]]; [change (2 ^ 64) with W64; lia|change (2 ^ 64) with W64; lia|].
  assert (PR : pow2_range base (2 ^ (12 + pb) - 1)).
  { exists (12 + pb). split; [lia|]. split; [reflexivity|]. rewrite SS. apply N.mod_mul, pow2_nz. }
  destruct T as [(X & _)|[(_ & _ & X & _)|(_ & _ & _ & -> & ->)]].
  { exfalso. apply X. split; [exact PR|lia]. }
  { discriminate X. }
  assert (RE1 : reachable P top pb rb G s1).
  { eapply reach_step; [exact RE|].
    apply (es_call _ _ _ _ c (CSetDmaRange base (2 ^ (12 + pb) - 1)) ok);
      [exact C|split; lia|exact I|exact D1]. }
  destruct (can_call _ _ _ _ _ _ _ c (CBlock r) RE1 K1 C RW I)
    as [s2 [v2 [M2 [D2 [E2 [K2 _]]]]]].
  cbn [effect] in E2. unfold block_table in E2.
  replace (r =? 0) with false in E2 by lia. replace (2 ^ rb <=? r) with false in E2 by lia.
  cbn [orb m_owner boot_mstate m_stuck m_dma_start m_dma_end m_set_dma] in E2.
  replace (touches _ _ _ _) with false in E2.
  2:{ symmetry. unfold touches. rewrite SS. unfold stripe_start.
      rewrite N.mul_0_l, N.add_0_l.
      assert (2 <= 2 ^ rb).
      { change 2 with (2 ^ 1) at 1. apply N.pow_le_mono_r; [lia|]. apply (geo_rb _ _ _ g). }
      apply andb_false_intro1. apply N.leb_gt. clear -H SP. nia. }
  inversion E2; subst v2 M2. exists s1, s2. split; [exact D1|]. split; [exact D2|].
  intros a A. split.
  - unfold region_of. rewrite SS in A.
    replace (a / 2 ^ (12 + pb)) with (2 ^ rb + r).
    + rewrite <- (N.mul_1_l (2 ^ rb)) at 1. rewrite N.add_comm, N.mod_add by apply pow2_nz.
      apply N.mod_small. exact RB.
    + apply (N.div_unique a _ _ (a - (2 ^ rb + r) * 2 ^ (12 + pb))); lia.
  - apply (sh_window _ _ _ K2); [lia|].
    cbn [m_dma_start m_dma_end m_set_dma load_access tick set_owner boot_mstate]. lia.
Qed.
(** 8 MB instead of 4 MB: region 5 has its second stripe at 4 MB + 1.25 MB. *)
Definition ex8_platform : platform :=
  mkPlatform (2 ^ 23) 2 (fun i => i =? 1) (fun _ => 64) (fun _ => 1024) 0 6 2.
Example ex8_supported : supported ex8_platform 0 6 4.
Proof.
  constructor; try (vm_compute; intuition congruence).
  - intros [i [H1 [H2 H3]]]. cbn in *. assert (i = 0) by lia. subst. discriminate.
  - exists 6, 10. vm_compute. intuition congruence.
Qed.
Example ex8_started : exists G s, started ex8_platform 0 6 4 G s /\
  g_dram_region_count G = 16 /\ g_dram_size G = 2 ^ 23.
Proof.
  destruct (boot_supported 0 (ex_boot_state 0) ex8_platform 0 6 4 ex8_supported)
    as [s [G [R B]]].
  exists G, s. split.
  - constructor; [exact ex8_supported|vm_compute; discriminate|].
    exists 0, (ex_boot_state 0). split; [reflexivity|]. split; [exact R|]. split; [reflexivity|].
    split; [intros; apply N.land_0_r|vm_compute; discriminate].
  - rewrite (bt_globals _ _ _ _ _ _ _ _ B). split; reflexivity.
Qed.
Example C34_example : exists G s0 s1 s2, started ex8_platform 0 6 4 G s0 /\
  do_call G 0 (CSetDmaRange (stripe_start 6 4 5 1) (2 ^ 18 - 1)) s0 = (s1, Some 0) /\
  do_call G 0 (CBlock 5) s1 = (s2, Some 0) /\
  dma_may_access s2 (stripe_start 6 4 5 1).
Proof.
  destruct ex8_started as [G [s0 [ST [GC GD]]]].
  assert (CC : 0 < g_core_count G).
  { destruct ST as [_ _ [c [s [C [R _]]]]].
    destruct (boot_supported c s ex8_platform 0 6 4 ex8_supported) as [s' [G' [R' B]]].
    rewrite R in R'. inversion R'; subst. rewrite (bt_globals _ _ _ _ _ _ _ _ B). reflexivity. }
  destruct (C34_second_stripe_refuted _ _ _ _ _ _ 0 5 ST CC) as [s1 [s2 [D1 [D2 W]]]].
  - rewrite GC. split; reflexivity.
  - rewrite GD. vm_compute. discriminate.
  - exists G, s0, s1, s2. split; [exact ST|]. split; [exact D1|]. split; [exact D2|].
    apply W. split; [reflexivity|]. vm_compute. reflexivity.
Qed.

(** ** C35 *)
Theorem C35_window_is_range : forall P top pb rb G s a,
  reachable P top pb rb G s -> a < 2 ^ 64 ->
  (dma_may_access s a <-> s_dma_start s <= a < s_dma_end s).
Proof.
  intros P top pb rb G s a R A. destruct (reach_shows _ _ _ _ _ _ R) as [g [HD [M K]]].
  rewrite (sh_dma_start _ _ _ K), (sh_dma_end _ _ _ K). apply (sh_window _ _ _ K a A).
Qed.
(** Only a successful set_dma_range changes the window. *)
Theorem C35_window_changes : forall P top pb rb G s e v s',
  reachable P top pb rb G s -> estep G pb rb s e v s' ->
  (s_dma_start s' <> s_dma_start s \/ s_dma_end s' <> s_dma_end s) ->
  exists c base mask, e = ECall c (CSetDmaRange base mask) /\ v = 0 /\
    s_dma_start s' = base /\ s_dma_end s' = base + mask + 1.
Proof.
  intros P top pb rb G s e v s' R E NE. destruct (reach_shows _ _ _ _ _ _ R) as [g [HD [M K]]].
  destruct (step_refines G pb rb g HD s M e v s' K E) as [M' [EF K']].
  rewrite (sh_dma_start _ _ _ K), (sh_dma_end _ _ _ K), (sh_dma_start _ _ _ K'),
    (sh_dma_end _ _ _ K') in *.
  apply effect_change in EF. destruct EF;
    cbn [m_dma_start m_dma_end set_owner tick load_access m_flush m_set_dma m_stick] in *;
    try (exfalso; destruct NE as [NE|NE]; apply NE; reflexivity).
  exists c, b, m. auto.
Qed.
Example C35_example : exists s', do_call ex_G 0 (CSetDmaRange 524288 65535) ex_s0 = (s', Some 0) /\
  s_dma_start s' = 524288 /\ s_dma_end s' = 589824.
Proof.
  exists (fst (do_call ex_G 0 (CSetDmaRange 524288 65535) ex_s0)).
  split; [apply call_val|split]; vm_compute; reflexivity.
Qed.

(** ** C36 *)

(** After core c made a successful block or an assignment to the OS, and as long
    as no other core made a successful block, whatever c's registers admit is in
    an OS-owned region outside the monitor. *)
Theorem C36_latest_core_partial : forall P top pb rb G s0 h1 c k r h2 s a,
  started P top pb rb G s0 -> (k = CBlock r \/ k = CAssign r 0) ->
  history G pb rb s0 (h1 ++ (ECall c k, 0) :: h2) s ->
  none (ok_block_not_by c) h2 -> c < g_core_count G ->
  cpu_may_access pb rb (s_cores s c) a ->
  owner_of G s (region_of pb rb a) = 0 /\ g_monitor_top G <= a.
Proof.
  intros P top pb rb G s0 h1 c k r h2 s a ST KK H NB C A.
  destruct (started_geom _ _ _ _ _ _ ST) as [g HD].
  destruct (started_shows _ _ _ _ _ _ ST) as [ac [c0 [_ [_ K0]]]].
  apply history_app in H as [s1 [H1 H2]].
  apply (history_app G pb rb s1 [_] h2 s) in H2 as [s2 [E2 H2]]. apply history_one in E2.
  destruct (history_refines G pb rb g HD s0 _ h1 s1 K0 H1) as [M1 [MH1 K1]].
  destruct (step_refines G pb rb g HD s1 M1 _ _ s2 K1 E2) as [M2 [EF2 K2]].
  destruct (history_refines G pb rb g HD s2 _ h2 s K2 H2) as [M [MH2 K]].
  split; [|eapply cpu_above; eauto].
  pose proof (region_of_lt pb rb a) as RL.
  assert (RC : region_of pb rb a < g_dram_region_count G)
    by (rewrite (geo_count _ _ _ g); exact RL).
  rewrite (sh_owner _ _ _ K _ RC).
  rewrite (access_sound _ _ _ _ c M2 h2 M MH2 NB); [reflexivity| |exact RL|].
  - assert (X : exists M3, M2 = load_access M3 c).
    { destruct KK as [-> | ->]; cbn [effect] in EF2.
      - apply block_inv in EF2 as [[V _]|(_ & _ & _ & _ & _ & _ & ->)];
          [exfalso; apply V; reflexivity|eauto].
      - apply assign_inv in EF2 as [[V _]|(_ & _ & _ & _ & ->)];
          [exfalso; apply V; reflexivity|eauto]. }
    destruct X as [M3 ->]. intros x X1 X2. cbn [m_access m_owner load_access] in *.
    rewrite upd_same in X2. destruct (m_owner M3 x); cbn in X2; congruence.
  - rewrite <- (sh_access _ _ _ K c _ C RC). apply A.
Qed.

(** On a machine with one core the property holds in every reachable state. *)
Theorem C36_single_core_partial : forall P top pb rb G s0 h s c a,
  started P top pb rb G s0 -> history G pb rb s0 h s -> g_core_count G = 1 ->
  c < g_core_count G -> cpu_may_access pb rb (s_cores s c) a ->
  owner_of G s (region_of pb rb a) = 0 /\ g_monitor_top G <= a.
Proof.
  intros P top pb rb G s0 h s c a ST H C1 C A.
  destruct (started_geom _ _ _ _ _ _ ST) as [g HD].
  destruct (started_shows _ _ _ _ _ _ ST) as [ac [c0 [C0 [AC K0]]]].
  assert (c0 = c) as -> by lia.
  destruct (history_refines G pb rb g HD s0 _ h s K0 H) as [M [MH K]].
  split; [|eapply cpu_above; eauto].
  pose proof (region_of_lt pb rb a) as RL.
  assert (RC : region_of pb rb a < g_dram_region_count G)
    by (rewrite (geo_count _ _ _ g); exact RL).
  rewrite (sh_owner _ _ _ K _ RC).
  rewrite (access_sound _ _ _ _ c _ h M MH); [reflexivity| | |exact RL|].
  - clear -H C1 C. intros x X. induction H as [|h s e v s' H IH E]; [destruct X|].
    apply in_app_or in X as [X|[<-|[]]]; [apply IH; exact X|].
    inversion E as [s1 c1 k v1 s2 CC _ _ _ | |]; subst; auto. destruct k; auto.
    destruct v; auto. cbn. assert (c1 = c) as -> by lia. rewrite N.eqb_refl. reflexivity.
  - intros x X _. reflexivity.
  - rewrite <- (sh_access _ _ _ K c _ C RC). apply A.
Qed.

(** The monitor itself is out of reach of every core in every reachable state. *)
Theorem C36_monitor_partial : forall P top pb rb G s c a,
  reachable P top pb rb G s -> c < g_core_count G ->
  cpu_may_access pb rb (s_cores s c) a -> g_monitor_top G <= a.
Proof.
  intros P top pb rb G s c a R C A. destruct (reach_shows _ _ _ _ _ _ R) as [g [HD [M K]]].
  eapply cpu_above; eauto.
Qed.

(** With two cores it is false: core 1 blocks region 2, core 0's registers
    still admit it; flushing core 0 does not help, and region 2 can be freed
    and become a metadata region meanwhile. *)
Definition stale1 := fst (do_call ex_G 1 (CBlock 2) ex_s0).
Definition stale2 := fst (do_call ex_G 0 CFlush stale1).
Definition stale3 := fst (do_call ex_G 1 CFlush stale2).
Definition stale4 := fst (do_call ex_G 1 (CFree 2) stale3).
Definition stale5 := fst (do_call ex_G 1 (CCreateMetadataRegion 2) stale4).
Definition stale_history :=
  [(ECall 1 (CBlock 2), 0); (ECall 0 CFlush, 0); (ECall 1 CFlush, 0);
   (ECall 1 (CFree 2), 0); (ECall 1 (CCreateMetadataRegion 2), 0)].
Lemma stale_reached : history ex_G 6 4 ex_s0 stale_history stale5.
Proof.
  unfold stale_history.
  apply (hist_snoc _ _ _ _ [(ECall 1 (CBlock 2), 0); (ECall 0 CFlush, 0); (ECall 1 CFlush, 0);
    (ECall 1 (CFree 2), 0)] stale4).
  apply (hist_snoc _ _ _ _ [(ECall 1 (CBlock 2), 0); (ECall 0 CFlush, 0); (ECall 1 CFlush, 0)] stale3).
  apply (hist_snoc _ _ _ _ [(ECall 1 (CBlock 2), 0); (ECall 0 CFlush, 0)] stale2).
  apply (hist_snoc _ _ _ _ [(ECall 1 (CBlock 2), 0)] stale1).
  apply (hist_snoc _ _ _ _ [] ex_s0); [constructor|].
  all: constructor; [reflexivity|try reflexivity; exact I|exact I|].
  all: apply call_val; vm_compute; reflexivity.
Qed.
Theorem C36_stale_refuted : exists P top pb rb G s0 h s c a,
  started P top pb rb G s0 /\ history G pb rb s0 h s /\ c < g_core_count G /\ a < 2 ^ 64 /\
  cpu_may_access pb rb (s_cores s c) a /\ owner_of G s (region_of pb rb a) = 2.
Proof.
  exists ex_platform, 0, 6, 4, ex_G, ex_s0, stale_history, stale5, 0, 524288.
  split; [exact ex_started|]. split; [exact stale_reached|]. split; [reflexivity|].
  split; [reflexivity|]. split; [split|]; [vm_compute; reflexivity|vm_compute; discriminate
  |vm_compute; reflexivity].
Qed.
(** On the other hand core 1, which made the block, cannot. *)
Example C36_example : forall a, cpu_may_access 6 4 (s_cores stale5 1) a ->
  owner_of ex_G stale5 (region_of 6 4 a) = 0.
Proof.
  intros a A.
  apply (C36_latest_core_partial ex_platform 0 6 4 ex_G ex_s0 [] 1 (CBlock 2) 2
    [(ECall 0 CFlush, 0); (ECall 1 CFlush, 0); (ECall 1 (CFree 2), 0);
     (ECall 1 (CCreateMetadataRegion 2), 0)] stale5 a ex_started).
  - left. reflexivity.
  - exact stale_reached.
  - intros x [<-|[<-|[<-|[<-|[]]]]]; reflexivity.
  - reflexivity.
  - exact A.
Qed.

(** ** C37 *)

(** A store the hardware lets the OS make leaves every byte of the monitor. *)
Theorem C37_monitor_kept : forall P top pb rb G s c a v s' x b,
  reachable P top pb rb G s -> estep G pb rb s (EStore c a v) x s' ->
  b < g_monitor_top G -> s_mem s' b = s_mem s b.
Proof.
  intros P top pb rb G s c a v s' x b R E B.
  destruct (reach_shows _ _ _ _ _ _ R) as [g [HD [M K]]].
  inversion E as [|s1 c1 a1 v1 C A CA |]; subst.
  pose proof (cpu_above G pb rb s M c a K C CA) as AB.
  cbn [s_mem set_mem]. apply st_out. change (N.of_nat 1) with 1. lia.
Qed.
(** Also after any number of stores by any cores. *)
Theorem C37_monitor_kept_many : forall P top pb rb G s h s' b,
  reachable P top pb rb G s -> history G pb rb s h s' ->
  (forall x, In x h -> exists c a v, fst x = EStore c a v) ->
  b < g_monitor_top G -> s_mem s' b = s_mem s b.
Proof.
  intros P top pb rb G s h s' b R H HS B.
  assert (X : s_mem s' b = s_mem s b /\ reachable P top pb rb G s'); [|apply X].
  induction H as [|h s1 e v s2 H IH E]; [auto|].
  destruct IH as [I1 I2]; [intros x X; apply HS; apply in_or_app; auto|].
  destruct (HS (e, v)) as [c [a [w X]]]; [apply in_or_app; right; left; reflexivity|].
  cbn in X. subst e. split.
  - rewrite <- I1. eapply C37_monitor_kept; eauto.
  - eapply reach_step; eauto.
Qed.
(** Contents of regions the OS does not own: kept on a single-core machine. *)
Theorem C37_metadata_kept_partial : forall P top pb rb G s0 h s c a v s' x b,
  started P top pb rb G s0 -> history G pb rb s0 h s -> g_core_count G = 1 ->
  estep G pb rb s (EStore c a v) x s' -> owner_of G s (region_of pb rb b) <> 0 ->
  s_mem s' b = s_mem s b.
Proof.
  intros P top pb rb G s0 h s c a v s' x b ST H C1 E O.
  inversion E as [|s1 c1 a1 v1 C A CA |]; subst.
  destruct (C36_single_core_partial P top pb rb G s0 h s c a ST H C1 C CA) as [OA _].
  cbn [s_mem set_mem]. apply st_out. change (N.of_nat 1) with 1.
  destruct (N.eq_dec a b) as [->|]; [contradiction|lia].
Qed.
(** Two cores: core 0 overwrites the map of the metadata region of C36. *)
Theorem C37_metadata_refuted : exists P top pb rb G s0 h s s' b,
  started P top pb rb G s0 /\ history G pb rb s0 h s /\
  estep G pb rb s (EStore 0 b 77) 0 s' /\ owner_of G s (region_of pb rb b) = 2 /\
  s_mem s b = 0 /\ s_mem s' b = 77.
Proof.
  exists ex_platform, 0, 6, 4, ex_G, ex_s0, stale_history, stale5,
    (set_mem stale5 (st 1 (s_mem stale5) 524288 77)), 524288.
  split; [exact ex_started|]. split; [exact stale_reached|]. split.
  - constructor; [reflexivity|reflexivity|]. split; [vm_compute; reflexivity|].
    vm_compute. discriminate.
  - split; [vm_compute; reflexivity|]. split; vm_compute; reflexivity.
Qed.
Example C37_example : exists s', estep ex_G 6 4 ex_s0 (EStore 0 5000 9) 0 s' /\ s_mem s' 5000 = 9.
Proof.
  exists (set_mem ex_s0 (st 1 (s_mem ex_s0) 5000 9)). split; [|vm_compute; reflexivity].
  constructor; [reflexivity|reflexivity|]. split; [vm_compute; reflexivity|].
  vm_compute. discriminate.
Qed.

(** What all theorems of this file rest on. *)
Definition P_Dma_theorems := (C33_range_partial, C33_ownership_refuted, C33_monitor_refuted,
  C33_blocked_refuted, C34_first_stripe_partial, C34_refusal_justified,
  C34_second_stripe_refuted, C35_window_is_range, C35_window_changes,
  C36_latest_core_partial, C36_single_core_partial, C36_monitor_partial, C36_stale_refuted,
  C37_monitor_kept, C37_monitor_kept_many, C37_metadata_kept_partial, C37_metadata_refuted).
Print Assumptions P_Dma_theorems.
