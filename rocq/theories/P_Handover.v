(** * Property C92: what a region carries when it changes hands. *)
From Coq Require Import NArith ZArith Lia Bool List.
From Coq Require Import ZifyBool ZifyNat ZifyN.
From Verif Require Import Word Machine ModelBare ModelHash ModelInl ModelRegions
  ModelMetadata ModelEnclave ModelBoot ModelApi Lib BareProofs BootProofs SpecGeometry
  GeomProofs Trace SpecMonitor SpecHistory ViewProofs SeqProofs SeqCalls SeqCalls2
  HistoryProofs HistoryFacts MetaProofs P_Boot P_Regions P_Metadata SpecContract ContractProofs
  P_Contract P_Contract2 SpecSystem P_System.
Import ListNotations.
Open Scope N_scope.
Ltac Zify.zify_post_hook ::= Z.div_mod_to_equations.

Lemma put_above s a v b t : a + 8 <= t -> t <= b -> s_mem (put s a v) b mod 256 = s_mem s b mod 256.
Proof. intros A B. unfold put. cbn [set_mem s_mem]. apply (byte_st_out 8). right. change (N.of_nat 8) with 8. lia. Qed.
Section Low.
Variables (G : globals) (pb rb : N).
Hypothesis g : geom G pb rb.
Lemma entry_low r : r < 2 ^ rb -> lock_addr G r + 40 <= g_monitor_top G.
Proof.
  intros R. unfold lock_addr. pose proof (geo_drs _ _ _ g). pose proof (geo_bm _ _ _ g). pose proof (geo_end _ _ _ g).
  generalize dependent (2 ^ rb). intros. lia.
Qed.
Lemma clock_low : g_dram_regions G + 8 <= g_monitor_top G.
Proof. pose proof (geo_bm _ _ _ g). pose proof (geo_end _ _ _ g). generalize dependent (2 ^ rb). intros. lia. Qed.
Lemma bit_low r : r < 2 ^ rb -> bit_word G 0 r + 8 <= g_monitor_top G.
Proof.
  intros R. unfold bit_word. cbn [N.eqb]. pose proof (geo_end _ _ _ g). generalize dependent (2 ^ rb). intros. lia.
Qed.
End Low.

(** A successful block, free or assignment leaves every byte outside the monitor as it is. *)
Theorem C92_no_wipe : forall P top pb rb G s c k r s' b,
  reachable P top pb rb G s -> c < g_core_count G -> r < 2 ^ 64 ->
  k = CBlock r \/ k = CFree r \/ k = CAssign r 0 ->
  do_call G c k s = (s', Some 0) -> g_monitor_top G <= b ->
  s_mem s' b mod 256 = s_mem s b mod 256.
Proof.
  intros P top pb rb G s c k r s' b R C RW KK D B.
  destruct (reachable_clean _ _ _ _ _ _ R) as [g CL].
  destruct (reach_shows _ _ _ _ _ _ R) as [_ [HD [M K]]].
  assert (ES : estep G pb rb s (ECall c k) 0 s').
  { constructor; [exact C| |destruct KK as [-> | [-> | ->]]; exact Logic.I|exact D].
    destruct KK as [-> | [-> | ->]]; [exact RW|exact RW|split; [exact RW|reflexivity]]. }
  destruct (step_refines G pb rb g HD s M _ _ s' K ES) as [M' [EF _]]. clear ES.
  destruct KK as [-> | [-> | ->]]; cbn [effect] in EF.
  - apply block_inv in EF as [[V _]|(_ & R0 & RB & OS1 & _ & _ & _)]; [exfalso; apply V; reflexivity|].
    destruct (C63_block G pb rb s c r g CL C) as [s1 [D1 [_ X]]].
    { left. apply (sh_enclave _ _ _ K c C). }
    { rewrite (sh_dma_start _ _ _ K), (sh_dma_end _ _ _ K). pose proof (sh_dma_order _ _ _ K). lia. }
    { apply (sh_words _ _ _ K). }
    rewrite D in D1. injection D1 as <- E. symmetry in E. destruct (X E) as [SM _]. rewrite SM.
    assert (RC : r < g_dram_region_count G) by (rewrite (geo_count _ _ _ g); exact RB).
    unfold blocked_state. rewrite (sh_owner _ _ _ K r RC), OS1. cbn [owner_code]. cbv zeta.
    pose proof (entry_low G pb rb g r RB) as L. pose proof (clock_low G pb rb g) as LC.
    pose proof (bit_low G pb rb g r RB) as LB. unfold put_bit.
    rewrite !(put_above _ _ _ b (g_monitor_top G)) by lia. reflexivity.
  - apply free_inv in EF as [[V _]|(_ & RB & _)]; [exfalso; apply V; reflexivity|].
    destruct (C63_free G pb rb s c r g CL) as [s1 [D1 [_ X]]].
    rewrite D in D1. injection D1 as <- E. symmetry in E. destruct (X E) as [SM _]. rewrite SM.
    pose proof (entry_low G pb rb g r RB) as L.
    unfold freed_state. apply (put_above _ _ _ b (g_monitor_top G)); lia.
  - apply assign_inv in EF as [[V _]|(_ & RB & _)]; [exfalso; apply V; reflexivity|].
    destruct (C63_assign G pb rb s c r 0 g CL) as [s1 [D1 [_ X]]]; [left; reflexivity|reflexivity|apply (sh_words _ _ _ K)|].
    rewrite D in D1. injection D1 as <- E. symmetry in E. destruct (X E) as [SM _]. rewrite SM.
    pose proof (entry_low G pb rb g r RB) as L. pose proof (bit_low G pb rb g r RB) as LB.
    unfold assigned_state, put_bit. rewrite !(put_above _ _ _ b (g_monitor_top G)) by lia. reflexivity.
Qed.

(** create_metadata_region clears the pages of the map and nothing else. *)
Theorem C92_map_wiped : forall P top pb rb G s c r s',
  reachable P top pb rb G s -> c < g_core_count G -> r < 2 ^ 64 ->
  do_call G c (CCreateMetadataRegion r) s = (s', Some 0) ->
  let map := stripe_start pb rb r 0 in let size := 4096 * g_metadata_region_start G in
  (forall b, map <= b < map + size -> s_mem s' b mod 256 = 0) /\
  (forall b, g_monitor_top G <= b -> b < map \/ map + size <= b -> s_mem s' b mod 256 = s_mem s b mod 256).
Proof.
  intros P top pb rb G s c r s' R C RW D map size.
  destruct (reachable_clean _ _ _ _ _ _ R) as [g CL].
  destruct (reach_shows _ _ _ _ _ _ R) as [_ [HD [M K]]].
  assert (ES : estep G pb rb s (ECall c (CCreateMetadataRegion r)) 0 s')
    by (constructor; [exact C|exact RW|exact Logic.I|exact D]).
  destruct (step_refines G pb rb g HD s M _ _ s' K ES) as [M' [EF _]]. clear ES. cbn [effect] in EF.
  apply create_inv in EF as [[V _]|(_ & RB & O & _)]; [exfalso; apply V; reflexivity|].
  assert (R0 : r <> 0) by (intros ->; rewrite (sh_region0 _ _ _ K) in O; discriminate).
  destruct (C63_create_metadata_region G pb rb s c r g CL R0) as [s1 [D1 [_ X]]].
  rewrite D in D1. injection D1 as <- E. symmetry in E. destruct (X E) as (_ & _ & _ & Z & F).
  pose proof (entry_low G pb rb g r RB) as L. split.
  - intros b B. apply Z. exact B.
  - intros b B N. apply F; unfold bytes_of; fold map size; lia.
Qed.

(** Refuted: in every reachable state, the OS gets a metadata region with everything in
    it, in two calls (while the lock of region 0 is free). *)
Theorem C92_refuted : forall P top pb rb G s c r,
  reachable P top pb rb G s -> c < g_core_count G -> r < g_dram_region_count G ->
  owner_of G s r = 2 -> lock_of G s 0 = 0 ->
  exists s', history G pb rb s [(ECall c (CFree r), 0); (ECall c (CAssign r 0), 0)] s' /\
    owner_of G s' r = 0 /\ drb_bit (s_cores s' c) r = true /\
    forall b, g_monitor_top G <= b -> s_mem s' b mod 256 = s_mem s b mod 256.
Proof.
  intros P top pb rb G s c r R C RC O L0.
  destruct (reach_shows _ _ _ _ _ _ R) as [g [HD [M K]]].
  assert (RB : r < 2 ^ rb) by (rewrite <- (geo_count _ _ _ g); exact RC).
  assert (RW : r < W64).
  { pose proof (geo_rb _ _ _ g). assert (2 ^ rb <= 2 ^ 30) by (apply N.pow_le_mono_r; lia).
    change (2 ^ 30) with 1073741824 in *. unfold W64. lia. }
  assert (OM : m_owner M r = Metadata).
  { rewrite (sh_owner _ _ _ K r RC) in O. destruct (m_owner M r); try discriminate. reflexivity. }
  assert (R0 : r <> 0) by (intros ->; rewrite (sh_region0 _ _ _ K) in OM; discriminate).
  assert (ST : m_stuck M = false).
  { rewrite (sh_lock _ _ _ K 0) in L0 by lia. destruct (m_stuck M); [discriminate|reflexivity]. }
  assert (E0 : (r =? 0) = false) by lia. assert (E1 : (2 ^ rb <=? r) = false) by lia.
  destruct (can_call _ _ _ _ _ _ _ c (CFree r) R K C RW Logic.I)
    as [s1 [v1 [M1 [C1 [F1 [K1 [S1 R1]]]]]]].
  cbn [effect] in F1. unfold free_table, taken in F1. rewrite E0, E1, OM in F1. cbn [andb] in F1.
  inversion F1; subst v1 M1; clear F1.
  destruct (can_call _ _ _ _ _ _ _ c (CAssign r 0) R1 K1 C (conj RW eq_refl) Logic.I)
    as [s2 [v2 [M2 [C2 [F2 [K2 [S2 R2]]]]]]].
  cbn [effect] in F2. unfold assign_table, taken in F2. rewrite E0, E1 in F2. cbn [andb] in F2.
  cbn [m_owner set_owner m_stuck] in F2. rewrite upd_same, ST in F2.
  replace (region_of pb rb 0) with 0 in F2
    by (unfold region_of; rewrite N.div_0_l, N.mod_0_l by (apply N.pow_nonzero; discriminate); reflexivity).
  rewrite andb_false_r, orb_false_r in F2. replace (0 =? r) with false in F2 by lia.
  cbn [N.eqb] in F2. inversion F2; subst v2 M2; clear F2.
  exists s2. split; [|split; [|split]].
  - apply (hist_snoc _ _ _ _ [(ECall c (CFree r), 0)] s1); [|exact S2].
    apply (hist_snoc _ _ _ _ [] s); [constructor|exact S1].
  - rewrite (sh_owner _ _ _ K2 r RC). cbn [m_owner load_access set_owner]. rewrite upd_same. reflexivity.
  - rewrite (sh_access _ _ _ K2 c r C RC). cbn [m_access load_access set_owner m_owner].
    rewrite !upd_same. reflexivity.
  - intros b B. rewrite (C92_no_wipe _ _ _ _ _ s1 c (CAssign r 0) r s2 b R1 C RW) by auto.
    apply (C92_no_wipe _ _ _ _ _ s c (CFree r) r s1 b R C RW); auto.
Qed.

(** In particular the record of an enclave that was just created, its hash state and
    whatever its thread and mailbox pages hold. *)
Theorem C92_enclave_refuted : forall P top pb rb G s c id base mask mc d s',
  reachable P top pb rb G s -> c < g_core_count G ->
  id < 2 ^ 64 -> base < 2 ^ 64 -> mask < 2 ^ 64 -> mc < 2 ^ 64 -> lock_of G s 0 = 0 ->
  do_call G c (CCreateEnclave id base mask mc d) s = (s', Some 0) ->
  let r := region_of pb rb id in
  exists s2, history G pb rb s' [(ECall c (CFree r), 0); (ECall c (CAssign r 0), 0)] s2 /\
    owner_of G s2 r = 0 /\ drb_bit (s_cores s2 c) r = true /\
    forall b, region_of pb rb b = r -> s_mem s2 b mod 256 = s_mem s' b mod 256.
Proof.
  intros P top pb rb G s c id base mask mc d s' R C A1 A2 A3 A4 L0 D r.
  destruct (reach_shows _ _ _ _ _ _ R) as [g [HD [M K]]].
  destruct (create_run G pb rb g HD s M c id base mask mc d s' 0 K C A1 A2 A3 A4 D) as [CC X].
  destruct (X eq_refl) as (T & R0 & AL & LD & OW & CR & RS). clear X.
  assert (E1 : estep G pb rb s (ECall c (CCreateEnclave id base mask mc d)) 0 s')
    by (constructor; [auto|cbn; auto|exact Logic.I|exact D]).
  destruct (step_refines G pb rb g HD s M _ _ _ K E1) as [M1 [EF1 K1]]. cbn in EF1. subst M1.
  assert (RC : r < g_dram_region_count G) by (rewrite (geo_count _ _ _ g); apply region_of_lt).
  assert (R' : reachable P top pb rb G s') by (eapply reach_step; eauto).
  destruct (C92_refuted P top pb rb G s' c r R' C RC) as (s2 & H & O & B & F).
  - rewrite (sh_owner _ _ _ K1 r RC). fold r in OW. rewrite OW. reflexivity.
  - assert (Z : 0 < g_dram_region_count G) by (clear -RC; lia).
    rewrite (sh_lock _ _ _ K1 0 Z), <- (sh_lock _ _ _ K 0 Z). exact L0.
  - exists s2. split; [exact H|]. split; [exact O|]. split; [exact B|].
    intros b RB. apply F. pose proof (geo_fits _ _ _ g) as FT.
    destruct (N.lt_ge_cases b (2 ^ (12 + pb))) as [L|L]; [|lia].
    exfalso. apply R0. fold r. rewrite <- RB. unfold region_of. rewrite (N.div_small b) by exact L.
    apply N.mod_0_l. apply N.pow_nonzero. discriminate.
Qed.

Example C92_example : exists s' s2,
  do_call ex_G 1 (CCreateEnclave (page_addr 6 4 15 1) 0x10000 0xffff 1 true) P_Metadata.ex_meta = (s', Some 0) /\
  history ex_G 6 4 s' [(ECall 1 (CFree 15), 0); (ECall 1 (CAssign 15 0), 0)] s2 /\
  owner_of ex_G s2 15 = 0 /\ drb_bit (s_cores s2 1) 15 = true.
Proof.
  destruct C38_example as ((s' & E) & _ & _ & _ & _ & _ & _ & R). exists s'.
  assert (RE : region_of 6 4 (page_addr 6 4 15 1) = 15) by (vm_compute; reflexivity).
  pose proof (C92_enclave_refuted _ _ _ _ _ _ 1 (page_addr 6 4 15 1) 0x10000 0xffff 1 true s' R
    eq_refl eq_refl eq_refl eq_refl eq_refl) as X. cbv zeta in X. rewrite RE in X.
  destruct X as (s2 & H & O & B & _); [vm_compute; reflexivity|exact E|].
  exists s2. split; [exact E|]. split; [exact H|]. split; [exact O|exact B].
Qed.
Example C92_map_example : exists s', do_call ex_G 0 (CCreateMetadataRegion 15) ex_free = (s', Some 0) /\
  s_mem s' (stripe_start 6 4 15 0) mod 256 = 0.
Proof.
  exists P_Metadata.ex_meta. split; [exact ex_meta_call|]. vm_compute. reflexivity.
Qed.

Definition P_Handover_theorems := (C92_no_wipe, C92_map_wiped, C92_refuted, C92_enclave_refuted).
Print Assumptions P_Handover_theorems.
