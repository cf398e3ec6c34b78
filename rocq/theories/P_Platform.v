(** * Property C84: which platforms boot and exactly what boot leaves behind *)
From Coq Require Import NArith ZArith Lia Bool List.
From Coq Require Import ZifyBool ZifyNat ZifyN.
From Verif Require Import Word Machine ModelBare ModelHash ModelInl ModelBoot Lib BareProofs
  BootProofs SpecGeometry GeomProofs P_Boot SpecBoot BootProofs2.
Import ListNotations.
Open Scope N_scope.
Ltac Zify.zify_post_hook ::= Z.div_mod_to_equations.

Lemma least_iff n k : 1 <= n -> n < 2 ^ 64 -> least_bits n k <-> k = address_bits_for n.
Proof.
  intros N1 N2. change (2 ^ 64) with W64 in N2. split.
  - intros [A B]. apply N.le_antisymm.
    + apply B. apply address_bits_iff; auto. reflexivity.
    + apply address_bits_iff; auto.
  - intros ->. split.
    + apply address_bits_iff; auto. reflexivity.
    + intros j J. apply address_bits_iff; auto.
Qed.
Lemma tables_pos top n r : 8 <= tables_end top n r.
Proof. unfold tables_end. lia. Qed.

Lemma boots_supported P top d t pb rb : sane P top -> boots P top d t pb rb ->
  supported_any P top pb rb /\ t = address_bits_for (tables_end top (p_core_count P) (2 ^ rb)).
Proof.
  intros [S1 S2 S3 S4 S5 S6 S7] [B1 B2 [lb [st [B3 [B4 [B5 [B6 [B7 B8]]]]]]] B9 B11 B12 B13 B14 B15].
  apply least_iff in B9; try lia. subst d.
  change (end_of_tables top (p_core_count P) (2 ^ rb)) with (tables_end top (p_core_count P) (2 ^ rb)) in B14.
  pose proof (tables_pos top (p_core_count P) (2 ^ rb)) as TP.
  assert (T : tables_end top (p_core_count P) (2 ^ rb) <= 2 ^ (12 + pb)).
  { destruct B14 as [X _]. etransitivity; [exact X|]. apply pow2_le. exact B15. }
  split.
  - constructor; auto.
    + intros [i [I1 [I2 I3]]]. rewrite B2 in I3 by lia. discriminate.
    + exists lb, st. auto 6.
  - apply least_iff; auto; [lia|]. eapply N.le_lt_trans; [exact T|].
    apply N.pow_lt_mono_r; lia.
Qed.
Lemma supported_boots P top pb rb : sane P top -> supported_any P top pb rb ->
  boots P top (address_bits_for (p_dram_size P))
    (address_bits_for (tables_end top (p_core_count P) (2 ^ rb))) pb rb.
Proof.
  intros [S1 S2 S3 S4 S5 S6 S7] [L NS [lb [st [LB [ST [LS [SC CB]]]]]] RB D PB MN SH TB].
  pose proof (tables_pos top (p_core_count P) (2 ^ rb)) as TP.
  assert (T64 : tables_end top (p_core_count P) (2 ^ rb) < 2 ^ 64).
  { eapply N.le_lt_trans; [exact TB|]. apply N.pow_lt_mono_r; lia. }
  constructor; auto; try lia.
  - intros i I. destruct (p_is_shared P i) eqn:E; [|reflexivity]. exfalso. apply NS.
    exists i. repeat split; auto; lia.
  - exists lb, st. unfold llc in *. auto 10.
  - apply least_iff; auto; lia.
  - apply least_iff; [|exact T64|reflexivity]. etransitivity; [|exact TP]. discriminate.
  - apply address_bits_iff; [lia|exact T64|exact TB].
Qed.

(** The boot returns without undefined behaviour exactly on these platforms. *)
Theorem C84_boots : forall c s P top, sane P top ->
  (exists s' G, run c (boot_from P top) s = (s', Some G) /\ s_ub s' = s_ub s) <->
  (exists d t pb rb, boots P top d t pb rb).
Proof.
  intros c s P top SN. split.
  - intros [s' [G [R U]]]. destruct SN as [S1 S2 S3 S4 S5 S6 S7] eqn:E.
    destruct (boot_inv_any c s P top s' G S1 S2 S3 S4 S5 S6 S7 R U) as [pb [rb [S _]]].
    do 2 eexists. exists pb, rb. apply supported_boots; [exact SN|exact S].
  - intros [d [t [pb [rb B]]]]. destruct (boots_supported _ _ _ _ _ _ SN B) as [S _].
    destruct (boot_any c s P top pb rb (sane_shift _ _ SN) S) as [s' [G [R BT]]].
    exists s', G. split; [exact R|]. apply BT.
Qed.

Lemma metadata_any D pb rb : 1 <= rb <= 30 -> 1 <= D < W64 -> 12 + pb <= 30 ->
  boot_init_metadata (geometry_of D pb rb) =
    (N.min (D / 2 ^ (12 + rb)) (2 ^ (9 + pb)),
     (8 * N.min (D / 2 ^ (12 + rb)) (2 ^ (9 + pb)) + 4095) / 4096).
Proof.
  intros RB DD SH.
  assert (S9 : 2 ^ (12 + pb) = 8 * 2 ^ (9 + pb)).
  { replace (12 + pb) with (3 + (9 + pb)) by lia. rewrite pow2_add. reflexivity. }
  unfold boot_init_metadata, geometry_of.
  cbn [ge_dram_size ge_stripe_shift ge_region_shift ge_stripe_size].
  rewrite page_shift_val.
  rewrite (wsub_small (12 + pb + rb)) by (unfold W64; lia).
  replace (12 + pb + rb - (12 + pb)) with rb by lia.
  rewrite (wadd_small rb 12) by (unfold W64; lia).
  rewrite wshr_small by lia. rewrite (N.add_comm rb 12).
  set (pages := D / 2 ^ (12 + rb)).
  assert (PG : pages * 8 < W64).
  { unfold pages.
    assert (8192 <= 2 ^ (12 + rb)).
    { change 8192 with (2 ^ 13). apply pow2_le. lia. }
    assert (D / 2 ^ (12 + rb) <= D / 8192) by (apply N.div_le_compat_l; lia).
    lia. }
  rewrite wmul_small by lia.
  pose proof (p30 (12 + pb) SH) as P12. unfold W64 in *.
  destruct (N.ltb_spec (2 ^ (12 + pb)) (pages * 8)) as [X|X].
  - rewrite N.min_r by lia. rewrite pages_needed_val by (unfold W64; lia). f_equal; lia.
  - rewrite N.min_l by lia. rewrite pages_needed_val by (unfold W64; lia). f_equal; lia.
Qed.

(** What it returns and leaves, on every one of them, whatever memory and registers held. *)
Theorem C84_boot_result : forall c s P top d t pb rb, sane P top -> boots P top d t pb rb ->
  exists s', run c (boot_from P top) s = (s', Some (boot_globals P top t pb rb)) /\
    boot_effect (boot_globals P top t pb rb) pb c s s'.
Proof.
  intros c s P top d t pb rb SN B. destruct (boots_supported _ _ _ _ _ _ SN B) as [S T].
  destruct (boot_any c s P top pb rb (sane_shift _ _ SN) S) as [s' [G [R BT]]].
  destruct S as [_ _ _ RB D _ _ SH TB]. change (2 ^ 64) with W64 in D.
  assert (E : G = boot_globals P top t pb rb).
  { pose proof (bt_globals _ _ _ _ _ _ _ _ BT) as E. rewrite <- T in E. rewrite E.
    unfold globals_of. rewrite metadata_any by auto. reflexivity. }
  assert (M1 : 2 ^ t <= 2 ^ 30).
  { apply pow2_le. destruct B as [_ _ _ _ _ _ B1 _ B2]. lia. }
  exists s'. rewrite <- E. split; [exact R|]. destruct BT as [_ Z BI FR CO WO DB DM DS DE UB].
  assert (C0 := CO c). rewrite N.eqb_refl in C0.
  constructor; auto; try (rewrite C0; reflexivity).
  - intros j. rewrite E in BI |- *. exact (BI j).
  - intros b Hb. apply FR. rewrite E in Hb |- *. exact Hb.
  - rewrite C0. cbn [r_par_mask boot_regs]. rewrite E. cbn [g_monitor_top boot_globals].
    pose proof (pow2_pos t). unfold wnot, W64. change (2 ^ 30) with 1073741824 in M1.
    change (2 ^ 64) with 18446744073709551616. lia.
  - intros c' N. rewrite (CO c'). apply N.eqb_neq in N. rewrite N. reflexivity.
Qed.

Lemma ex_supported_any : supported_any ex_platform 0 6 4.
Proof.
  destruct ex_supported as [A1 A2 A3 A4 A5 A6 A7 A8 A9 A10]. constructor; auto.
Qed.
Lemma tiny_supported_any : supported_any tiny_platform 0 (p_max_shift tiny_platform) 4.
Proof.
  constructor; try (vm_compute; intuition congruence).
  - intros [i [H1 [H2 H3]]]. cbn in *. lia.
  - exists 6, 10. vm_compute. intuition congruence.
Qed.
(** A platform with an ordinary DRAM, and one with a DRAM smaller than the cache. *)
Example C84_example : sane ex_platform 0 /\ boots ex_platform 0 22 10 6 4 /\
  g_metadata_region_pages (boot_globals ex_platform 0 10 6 4) = 64 /\
  g_metadata_region_start (boot_globals ex_platform 0 10 6 4) = 1.
Proof.
  split; [exact ex_sane|]. split.
  - exact (supported_boots _ _ _ _ ex_sane ex_supported_any).
  - split; reflexivity.
Qed.
Example C84_small_example : sane tiny_platform 0 /\
  (exists d t, d < 12 + 4 /\ boots tiny_platform 0 d t (p_max_shift tiny_platform) 4 /\
   g_metadata_region_pages (boot_globals tiny_platform 0 t (p_max_shift tiny_platform) 4) = 0).
Proof.
  assert (SN : sane tiny_platform 0) by (constructor; vm_compute; intuition congruence).
  split; [exact SN|]. do 2 eexists. split; [|split].
  2: exact (supported_boots _ _ _ _ SN tiny_supported_any).
  - reflexivity.
  - reflexivity.
Qed.

Definition P_Platform_theorems := (C84_boots, C84_boot_result, C84_example, C84_small_example).
Print Assumptions P_Platform_theorems.
