(** * Consequences of the geometry (properties C15, C17 - C21). *)
From Coq Require Import NArith ZArith Lia Bool List.
From Coq Require Import ZifyBool ZifyNat ZifyN.
From Verif Require Import Word Machine ModelBare ModelHash ModelInl ModelBoot Lib
  BareProofs BootProofs SpecGeometry.
Import ListNotations.
Open Scope N_scope.
Ltac Zify.zify_post_hook ::= Z.div_mod_to_equations.

Lemma p30 k : k <= 30 -> 2 ^ k <= 1073741824.
Proof. intros. change 1073741824 with (2 ^ 30). apply pow2_le. auto. Qed.
Lemma p60 k : k <= 60 -> 2 ^ k <= 1152921504606846976.
Proof. intros. change 1152921504606846976 with (2 ^ 60). apply pow2_le. auto. Qed.

Lemma booted_geom P top pb rb c s G s' :
  supported P top pb rb -> booted P top pb rb c s G s' -> geom G pb rb.
Proof.
  intros S B. destruct S as [L NS _ RB D AB PB MN SH TB].
  destruct B as [E _ _ _ _ _ _ _ _ _ _]. subst G.
  set (mtop := 2 ^ address_bits_for _) in *.
  assert (ML : tables_end top (p_core_count P) (2 ^ rb) <= mtop).
  { unfold mtop. apply address_bits_iff.
    - unfold tables_end. lia.
    - apply (p30 (12 + pb)) in SH. unfold W64. lia.
    - reflexivity. }
  assert (MU : mtop <= 2 ^ (12 + pb)).
  { unfold mtop. apply pow2_le. apply address_bits_iff; auto.
    - unfold tables_end. lia.
    - apply (p30 (12 + pb)) in SH. unfold W64. lia. }
  assert (A64 : address_bits_for (p_dram_size P) <= 64)
    by (apply address_bits_le64; apply D).
  assert (DW : p_dram_size P < W64) by apply D.
  assert (COV : 2 ^ (11 + pb + rb) < p_dram_size P).
  { apply N.nle_gt. intros H. apply address_bits_iff in H; [|lia|auto].
    assert (12 + pb + rb <= address_bits_for (p_dram_size P)) by lia. lia. }
  assert (S9 : 2 ^ (12 + pb) = 8 * 2 ^ (9 + pb)).
  { replace (12 + pb) with (3 + (9 + pb)) by lia. rewrite pow2_add. reflexivity. }
  assert (META : boot_init_metadata (geometry_of (p_dram_size P) pb rb) =
    (N.min (p_dram_size P / 2 ^ (12 + rb)) (2 ^ (9 + pb)),
     (8 * N.min (p_dram_size P / 2 ^ (12 + rb)) (2 ^ (9 + pb)) + 4095) / 4096)).
  { unfold boot_init_metadata, geometry_of.
    cbn [ge_dram_size ge_stripe_shift ge_region_shift ge_stripe_size].
    rewrite page_shift_val.
    rewrite (wsub_small (12 + pb + rb)) by (unfold W64; lia).
    replace (12 + pb + rb - (12 + pb)) with rb by lia.
    rewrite (wadd_small rb 12) by (unfold W64; lia).
    rewrite wshr_small by lia. rewrite (N.add_comm rb 12).
    set (pages := p_dram_size P / 2 ^ (12 + rb)).
    assert (PG : pages * 8 < W64).
    { unfold pages. 
      assert (8192 <= 2 ^ (12 + rb)).
      { change 8192 with (2 ^ 13). apply pow2_le. lia. }
      assert (p_dram_size P / 2 ^ (12 + rb) <= p_dram_size P / 8192)
        by (apply N.div_le_compat_l; lia).
      lia. }
    rewrite wmul_small by lia.
    pose proof (p30 (12 + pb) SH) as P12. unfold W64 in *.
    destruct (N.ltb_spec (2 ^ (12 + pb)) (pages * 8)) as [X|X].
    - rewrite N.min_r by lia. rewrite pages_needed_val by (unfold W64; lia).
      f_equal; lia.
    - rewrite N.min_l by lia. rewrite pages_needed_val by (unfold W64; lia).
      f_equal; lia. }
  unfold globals_of. rewrite META. unfold geometry_of.
  constructor; cbn [g_monitor_top g_core g_core_count g_dram_region g_dram_regions
    g_os_region_bitmap g_dram_size g_dram_region_shift g_dram_stripe_shift
    g_dram_stripe_page_mask g_dram_region_mask g_dram_stripe_mask
    g_dram_region_count g_dram_stripe_size g_dram_stripe_pages
    g_dram_region_bitmap_words g_metadata_region_pages g_metadata_region_start
    ge_dram_size ge_region_shift ge_stripe_shift ge_stripe_size ge_stripe_pages
    ge_region_count ge_stripe_page_mask ge_region_mask ge_stripe_mask
    ge_bitmap_words fst snd]; auto.
  - exists (address_bits_for (tables_end top (p_core_count P) (2 ^ rb))). reflexivity.
Qed.

Section Geom.
  Variables (G : globals) (pb rb : N).
  Hypothesis g : geom G pb rb.

  Let PB := geo_pb _ _ _ g.
  Let RB := geo_rb _ _ _ g.

  Lemma S_pos : 4096 <= 2 ^ (12 + pb).
  Proof. change 4096 with (2 ^ 12). apply pow2_le. lia. Qed.
  Lemma S_le : 2 ^ (12 + pb) <= 1073741824.
  Proof. apply p30. exact PB. Qed.
  Lemma R_pos : 2 <= 2 ^ rb.
  Proof. change 2 with (2 ^ 1) at 1. apply pow2_le. lia. Qed.
  Lemma R_le : 2 ^ rb <= 1073741824.
  Proof. apply p30. lia. Qed.
  Lemma SS_split : 2 ^ (12 + pb + rb) = 2 ^ (12 + pb) * 2 ^ rb.
  Proof. apply pow2_add. Qed.
  Lemma S_split : 2 ^ (12 + pb) = 4096 * 2 ^ pb.
  Proof. apply pow2_add. Qed.

  (** dram_region_for is the region of the specification. *)
  Lemma region_for_spec a : dram_region_for G a = region_of pb rb a.
  Proof.
    unfold dram_region_for, region_of. rewrite (geo_rs _ _ _ g), (geo_rm _ _ _ g).
    unfold wshr. rewrite (N.mod_small (12 + pb) 64) by lia. apply shiftr_block.
  Qed.
  Lemma region_of_lt a : region_of pb rb a < 2 ^ rb.
  Proof. apply N.mod_lt, pow2_nz. Qed.
  Lemma region_for_lt a : dram_region_for G a < g_dram_region_count G.
  Proof. rewrite region_for_spec, (geo_count _ _ _ g). apply region_of_lt. Qed.
  Lemma stripe_for_spec a : dram_stripe_for G a = a / 2 ^ (12 + pb + rb).
  Proof.
    unfold dram_stripe_for. rewrite (geo_ss _ _ _ g). apply wshr_small. lia.
  Qed.
  Lemma stripe_page_for_spec a : dram_stripe_page_for G a = (a / 4096) mod 2 ^ pb.
  Proof.
    unfold dram_stripe_page_for. rewrite (geo_spm _ _ _ g).
    unfold wshr. change (page_shift mod 64) with 12. apply shiftr_block.
  Qed.
  Lemma region_start_spec r : r < 2 ^ rb -> dram_region_start G r = r * 2 ^ (12 + pb).
  Proof.
    intros R. unfold dram_region_start. rewrite (geo_rs _ _ _ g).
    apply wshl_small; [lia|]. pose proof R_le. pose proof S_le. unfold W64. nia.
  Qed.

  (** The four components of an address. *)
  Lemma decompose a :
    a = dram_stripe_for G a * 2 ^ (12 + pb + rb) + dram_region_for G a * 2 ^ (12 + pb) +
        dram_stripe_page_for G a * 4096 + a mod 4096.
  Proof.
    rewrite stripe_for_spec, region_for_spec, stripe_page_for_spec.
    unfold region_of. rewrite SS_split, S_split.
    pose proof (pow2_nz pb) as N1. pose proof (pow2_nz rb) as N2.
    rewrite <- (N.div_div a 4096 (2 ^ pb)) by (auto; discriminate).
    rewrite <- (N.div_div a (4096 * 2 ^ pb) (2 ^ rb)) by (auto; lia).
    rewrite <- (N.div_div a 4096 (2 ^ pb)) by (auto; discriminate).
    pose proof (N.div_mod a 4096) as E1.
    pose proof (N.div_mod (a / 4096) (2 ^ pb) N1) as E2.
    pose proof (N.div_mod (a / 4096 / 2 ^ pb) (2 ^ rb) N2) as E3.
    set (x := a / 4096) in *. set (y := x / 2 ^ pb) in *. set (z := y / 2 ^ rb) in *.
    set (m1 := x mod 2 ^ pb) in *. set (m2 := y mod 2 ^ rb) in *.
    set (m0 := a mod 4096) in *.
    assert (E1' : a = 4096 * x + m0) by (apply E1; discriminate).
    generalize dependent (2 ^ pb). generalize dependent (2 ^ rb). intros. nia.
  Qed.

  Lemma recompose z r p o : r < 2 ^ rb -> p < 2 ^ pb -> o < 4096 ->
    let a := z * 2 ^ (12 + pb + rb) + r * 2 ^ (12 + pb) + p * 4096 + o in
    dram_stripe_for G a = z /\ dram_region_for G a = r /\
    dram_stripe_page_for G a = p /\ a mod 4096 = o.
  Proof.
    intros R P O. cbv zeta.
    rewrite stripe_for_spec, region_for_spec, stripe_page_for_spec.
    unfold region_of. rewrite SS_split, S_split.
    pose proof (pow2_nz pb) as N1. pose proof (pow2_nz rb) as N2.
    set (X := 2 ^ pb) in *. set (Y := 2 ^ rb) in *. clearbody X Y.
    set (a := z * _ + _ + _ + _).
    assert (A1 : a / 4096 = (z * Y + r) * X + p).
    { symmetry. apply (N.div_unique a 4096 _ o); auto. unfold a. nia. }
    assert (A2 : a mod 4096 = o).
    { symmetry. apply (N.mod_unique a 4096 ((z * Y + r) * X + p) o); auto. unfold a. nia. }
    assert (A3 : a / (4096 * X) = z * Y + r).
    { rewrite <- N.div_div by (auto; discriminate). rewrite A1. symmetry.
      apply (N.div_unique _ X _ p); auto. nia. }
    repeat split; auto.
    - rewrite <- N.div_div by (auto; lia). rewrite A3. symmetry.
      apply (N.div_unique _ Y _ r); auto. nia.
    - rewrite A3. symmetry. apply (N.mod_unique _ Y z r); auto. nia.
    - rewrite A1. symmetry. apply (N.mod_unique _ X (z * Y + r) p); auto. nia.
  Qed.

  Lemma region_of_start r k o : r < 2 ^ rb -> o < 2 ^ (12 + pb) ->
    region_of pb rb (stripe_start pb rb r k + o) = r.
  Proof.
    intros R O. unfold region_of, stripe_start. rewrite SS_split.
    set (S := 2 ^ (12 + pb)) in *. set (Y := 2 ^ rb) in *.
    assert (N1 : S <> 0) by lia. assert (N2 : Y <> 0) by lia.
    replace (k * (S * Y) + r * S + o) with ((k * Y + r) * S + o) by lia.
    rewrite N.div_add_l, (N.div_small o S), N.add_0_r by auto.
    rewrite N.add_comm, N.mod_add by auto. apply N.mod_small; auto.
  Qed.

  (** Conversely each address of region r lies in one of its stripes. *)
  Lemma region_of_inv a :
    a = stripe_start pb rb (region_of pb rb a) (a / 2 ^ (12 + pb + rb))
        + a mod 2 ^ (12 + pb).
  Proof.
    unfold stripe_start, region_of. rewrite SS_split.
    pose proof (pow2_nz (12 + pb)) as N1. pose proof (pow2_nz rb) as N2.
    set (S := 2 ^ (12 + pb)) in *. set (Y := 2 ^ rb) in *.
    rewrite <- N.div_div by auto.
    pose proof (N.div_mod a S N1) as E1. pose proof (N.div_mod (a / S) Y N2) as E2.
    set (x := a / S) in *. set (u := a mod S) in *. set (y := x / Y) in *.
    set (v := x mod Y) in *. nia.
  Qed.

  Lemma region0_low a : a < 2 ^ (12 + pb) -> region_of pb rb a = 0.
  Proof.
    intros H. unfold region_of. rewrite N.div_small by auto.
    apply N.mod_0_l, pow2_nz.
  Qed.

  Lemma page_one_region a b : a / 4096 = b / 4096 ->
    region_of pb rb a = region_of pb rb b.
  Proof.
    intros H. unfold region_of. rewrite S_split.
    rewrite <- !N.div_div by (try discriminate; apply pow2_nz). congruence.
  Qed.
End Geom.

(** ** Masks *)
Lemma mask_bit n k i : N.testbit ((2 ^ n - 1) * 2 ^ k) i = (k <=? i) && (i <? k + n).
Proof.
  destruct (N.leb_spec k i) as [L|L]; cbn [andb].
  - replace i with ((i - k) + k) by lia. rewrite N.mul_pow2_bits_add.
    rewrite <- ones_pred. destruct (N.ltb_spec (i - k + k) (k + n)).
    + apply N.ones_spec_low. lia.
    + apply N.ones_spec_high. lia.
  - apply N.mul_pow2_bits_low. auto.
Qed.

Lemma masks_disjoint n k n' k' : k + n <= k' ->
  N.land ((2 ^ n - 1) * 2 ^ k) ((2 ^ n' - 1) * 2 ^ k') = 0.
Proof.
  intros H. apply N.bits_inj. intros i. rewrite N.land_spec, !mask_bit, N.bits_0. lia.
Qed.

Lemma masks_join n k n' : N.lor ((2 ^ n - 1) * 2 ^ k) ((2 ^ n' - 1) * 2 ^ (k + n))
  = (2 ^ (n + n') - 1) * 2 ^ k.
Proof. apply N.bits_inj. intros i. rewrite N.lor_spec, !mask_bit. lia. Qed.

Lemma stripe_mask_pow2 d k : k <= d ->
  (2 ^ d - 1) / 2 ^ k * 2 ^ k = (2 ^ (d - k) - 1) * 2 ^ k.
Proof.
  intros H. f_equal. symmetry.
  apply (N.div_unique _ _ _ (2 ^ k - 1)).
  - pose proof (pow2_pos k). lia.
  - pose proof (pow2_pos k). pose proof (pow2_pos (d - k)).
    rewrite (pow2_split k d) by auto. nia.
Qed.

Lemma pow2_dram_bits G pb rb d : geom G pb rb -> g_dram_size G = 2 ^ d ->
  12 + pb + rb <= d < 64.
Proof.
  intros g E. pose proof (geo_cover _ _ _ g) as C. rewrite E in C.
  apply pow2_lt_inv in C. pose proof (geo_D _ _ _ g) as [_ D]. rewrite E in D.
  change W64 with (2 ^ 64) in D. apply pow2_lt_inv in D. lia.
Qed.

(** ** Loads of zeroed memory *)
Lemma ld8_zero m a : (forall b, a <= b < a + 8 -> byte m b = 0) -> ld 8 m a = 0.
Proof.
  intros H. transitivity (ld 8 (fun _ => 0) a); [|reflexivity].
  apply ld_byte. intros b B1 B2. rewrite H; [reflexivity|].
  change (N.of_nat 8) with 8 in B2. lia.
Qed.

(** ** Refusals *)
Lemma boot_refuses c s P top :
  snd (run c (boot_init_dram_regions P) s) = None ->
  snd (run c (boot_from P top) s) = None.
Proof.
  intros H. unfold boot_from. rewrite run_bind.
  destruct (run c (boot_init_dram_regions P) s) as [s1 [ge|]]; [discriminate|].
  reflexivity.
Qed.

Lemma dram_regions_none c s P : 1 <= p_cache_levels P < W64 ->
  p_line_size P (llc P) < W64 -> p_set_count P (llc P) < W64 ->
  ~ (~ inner_shared P /\ exists lb st, lb <= 30 /\ st <= 30 /\
    p_line_size P (llc P) = 2 ^ lb /\ p_set_count P (llc P) = 2 ^ st /\
    12 < lb + st /\
    p_min_shift P <=
      chosen_bits (address_bits_for (p_dram_size P)) (lb + st) (p_max_shift P)) ->
  snd (run c (boot_init_dram_regions P) s) = None.
Proof.
  intros L LS SC H. destruct (run c (boot_init_dram_regions P) s) as [s1 [ge|]] eqn:R;
    [|reflexivity].
  exfalso. apply H. eapply dram_regions_inv; eauto.
Qed.

(** ** Access by the booting core after boot *)
Lemma par_spec t a : a < W64 -> t <= 64 ->
  N.land a (wnot (2 ^ t - 1)) = 0 <-> a < 2 ^ t.
Proof.
  intros A T. rewrite land_wnot_mask by auto.
  rewrite sub_mod_eq by (apply pow2_nz). pose proof (pow2_pos t).
  split; intros H1.
  - assert (a / 2 ^ t = 0) by nia. apply N.div_small_iff in H0; auto. apply pow2_nz.
  - rewrite N.div_small by auto. reflexivity.
Qed.
