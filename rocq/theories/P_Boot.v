(** * Properties C15 - C22: boot and DRAM geometry. *)
From Coq Require Import NArith ZArith Lia Bool List.
From Coq Require Import ZifyBool ZifyNat ZifyN.
From Verif Require Import Word Machine ModelBare ModelHash ModelInl ModelBoot Lib
  BareProofs BootProofs SpecGeometry GeomProofs.
Import ListNotations.
Open Scope N_scope.
Ltac Zify.zify_post_hook ::= Z.div_mod_to_equations.

(** The numbers reported by the hardware are plausible: they fit in a word, and
    counts and the end of the monitor image fit in 32 bits. *)
Record sane (P : platform) (top : N) : Prop := mkSane {
  sane_levels : 1 <= p_cache_levels P < 2 ^ 64;
  sane_line : p_line_size P (llc P) < 2 ^ 64;
  sane_sets : p_set_count P (llc P) < 2 ^ 64;
  sane_dram : 1 <= p_dram_size P < 2 ^ 64;
  sane_shift : p_max_shift P < 2 ^ 32;
  sane_top : top < 2 ^ 32;
  sane_cores : p_core_count P < 2 ^ 32 }.

(** The address width of DRAM: the least k with size <= 2^k (see C03). *)
Definition dram_bits (P : platform) : N := address_bits_for (p_dram_size P).
(** DRAM spans at least as many address bits as the last level cache index. *)
Definition dram_spans_cache (P : platform) : Prop :=
  p_line_size P (llc P) * p_set_count P (llc P) <= 2 ^ dram_bits P.

(** 16 regions of one 256 KB stripe each, 4 MB of DRAM, 2 cores. *)
Definition ex_platform : platform :=
  mkPlatform (2 ^ 22) 2 (fun i => i =? 1) (fun _ => 64) (fun _ => 1024) 0 10 2.
Definition ex_mem (v : N) : mem := fun _ => v.
Definition ex_boot_state (v : N) : Machine.state :=
  mkState (ex_mem v) (fun _ => mkCregs (fun _ => 0) (fun _ => 0) 0 0 0 0)
    1 0 0 0 0 [].

Lemma ex_not_shared : ~ inner_shared ex_platform.
Proof.
  intros [i [H1 [H2 H3]]]. cbn in *. assert (i = 0) by lia. subst. discriminate.
Qed.

Example ex_supported : supported ex_platform 0 6 4.
Proof.
  constructor; try (vm_compute; intuition congruence).
  - exact ex_not_shared.
  - exists 6, 10. vm_compute. intuition congruence.
Qed.
Example ex_sane : sane ex_platform 0.
Proof. constructor; vm_compute; intuition congruence. Qed.
Example ex_spans : dram_spans_cache ex_platform.
Proof. vm_compute. discriminate. Qed.
Example ex_boots : exists s' G,
  run 0 (boot_from ex_platform 0) (ex_boot_state 7) = (s', Some G) /\
  booted ex_platform 0 6 4 0 (ex_boot_state 7) G s'.
Proof. apply boot_supported. exact ex_supported. Qed.

(** ** C15 *)

(** The globals describe [count] = 2^rb regions made of stripes of 2^(12+pb)
    bytes. *)
Record consistent_geometry (G : globals) (pb rb : N) : Prop := mkConsistent {
  cg_region_shift : g_dram_region_shift G = 12 + pb;
  cg_stripe_shift : g_dram_stripe_shift G = 12 + pb + rb;
  cg_stripe_size : g_dram_stripe_size G = 2 ^ (12 + pb);
  cg_stripe_pages : g_dram_stripe_pages G = 2 ^ pb;
  cg_count : g_dram_region_count G = 2 ^ rb;
  cg_region_mask : g_dram_region_mask G = (2 ^ rb - 1) * 2 ^ (12 + pb);
  cg_stripe_page_mask : g_dram_stripe_page_mask G = (2 ^ pb - 1) * 2 ^ 12;
  cg_words : g_dram_region_bitmap_words G = (2 ^ rb + 63) / 64;
  (* the documented bounds of the shift and the address width *)
  cg_shift : 12 + pb + rb < 64 }.

(** Partial: needs DRAM to span the cache index and no undefined behaviour (a
    region shift of at most 30). *)
Theorem C15_geometry_partial : forall c s P top s' G,
  sane P top -> dram_spans_cache P ->
  run c (boot_from P top) s = (s', Some G) -> s_ub s' = s_ub s ->
  exists pb rb, consistent_geometry G pb rb /\ 1 <= rb /\
    g_dram_size G = p_dram_size P /\
    2 ^ (12 + rb) = p_line_size P (llc P) * p_set_count P (llc P) /\
    pb = N.min (dram_bits P - (12 + rb)) (p_max_shift P).
Proof.
  intros c s P top s' G [S1 S2 S3 S4 S5 S6 S7] W R U.
  destruct (boot_inv c s P top s' G S1 S2 S3 S4 S5 S6 S7 W R U) as [pb [rb [S B]]].
  exists pb, rb. pose proof (booted_geom _ _ _ _ _ _ _ _ S B) as g.
  pose proof (geo_pb _ _ _ g). pose proof (geo_rb _ _ _ g).
  destruct S as [_ _ [lb [st [_ [_ [L1 [L2 L3]]]]]] _ _ _ PB _ _ _].
  split; [constructor; try apply g; lia|]. split; [lia|]. split; [|split].
  - destruct B as [E _ _ _ _ _ _ _ _ _ _]. rewrite E. reflexivity.
  - rewrite L1, L2, <- pow2_add, L3. reflexivity.
  - exact PB.
Qed.
Print Assumptions C15_geometry_partial.

(** When moreover the DRAM size is a power of two, the page offset, stripe page,
    region and stripe masks are pairwise disjoint and cover all addresses. *)
Theorem C15_masks_partition_partial : forall c s P top s' G d,
  sane P top -> dram_spans_cache P ->
  run c (boot_from P top) s = (s', Some G) -> s_ub s' = s_ub s ->
  p_dram_size P = 2 ^ d ->
  let po := 2 ^ 12 - 1 in
  let sp := g_dram_stripe_page_mask G in
  let re := g_dram_region_mask G in
  let st := g_dram_stripe_mask G in
  N.land po sp = 0 /\ N.land po re = 0 /\ N.land po st = 0 /\
  N.land sp re = 0 /\ N.land sp st = 0 /\ N.land re st = 0 /\
  N.lor (N.lor (N.lor po sp) re) st = 2 ^ d - 1.
Proof.
  intros c s P top s' G d [S1 S2 S3 S4 S5 S6 S7] W R U Dd.
  destruct (boot_inv c s P top s' G S1 S2 S3 S4 S5 S6 S7 W R U) as [pb [rb [S B]]].
  pose proof (booted_geom _ _ _ _ _ _ _ _ S B) as g. cbv zeta.
  assert (E : g_dram_size G = 2 ^ d).
  { destruct B as [E _ _ _ _ _ _ _ _ _ _]. rewrite E, <- Dd. reflexivity. }
  destruct (pow2_dram_bits _ _ _ _ g E) as [K1 K2].
  rewrite (geo_spm _ _ _ g), (geo_rm _ _ _ g), (geo_sm _ _ _ g), E.
  rewrite stripe_mask_pow2 by auto.
  replace (2 ^ 12 - 1) with ((2 ^ 12 - 1) * 2 ^ 0) by reflexivity.
  repeat split; try (apply masks_disjoint; lia).
  replace (2 ^ d - 1) with ((2 ^ d - 1) * 2 ^ 0) by (rewrite N.pow_0_r; lia).
  apply N.bits_inj. intros i. rewrite !N.lor_spec, !mask_bit. clear - K1 K2.
  apply eq_true_iff_eq. lia.
Qed.
Print Assumptions C15_masks_partition_partial.

(** Without the restriction on the DRAM size the masks miss addresses: with
    22 MB of DRAM in stripes of 256 KB, address 8 MB is outside all masks. *)
Definition odd_platform : platform :=
  mkPlatform (22 * 2 ^ 20) 1 (fun _ => true) (fun _ => 64) (fun _ => 1024) 0 6 2.
Theorem C15_masks_cover_refuted :
  exists G s' a, run 0 (boot odd_platform) (ex_boot_state 0) = (s', Some G) /\
    s_ub s' = [] /\ sane odd_platform 0 /\ dram_spans_cache odd_platform /\
    a < p_dram_size odd_platform /\
    N.land a (N.lor (N.lor (N.lor (2 ^ 12 - 1) (g_dram_stripe_page_mask G))
                (g_dram_region_mask G)) (g_dram_stripe_mask G)) <> a.
Proof.
  destruct (boot_supported 0 (ex_boot_state 0) odd_platform 0 6 4) as [s' [G [R B]]].
  { constructor; try (vm_compute; intuition congruence).
    - intros [i [H1 [H2 H3]]]. cbn in *. lia.
    - exists 6, 10. vm_compute. intuition congruence. }
  exists G, s', (8 * 2 ^ 20). split; [exact R|].
  split; [exact (bt_ub _ _ _ _ _ _ _ _ B)|].
  split; [constructor; vm_compute; intuition congruence|].
  split; [vm_compute; discriminate|]. split; [reflexivity|].
  rewrite (bt_globals _ _ _ _ _ _ _ _ B). vm_compute. discriminate.
Qed.
Print Assumptions C15_masks_cover_refuted.

(** DRAM narrower than the cache index: the subtraction of the widths wraps
    around, the clamp turns it into the maximum shift, and the computed regions
    are larger than all of DRAM. *)
Definition tiny_platform : platform :=
  mkPlatform (2 ^ 15) 1 (fun _ => true) (fun _ => 64) (fun _ => 1024) 1 10 2.
Theorem C15_geometry_refuted :
  exists G s', run 0 (boot tiny_platform) (ex_boot_state 0) = (s', Some G) /\
    s_ub s' = [] /\ sane tiny_platform 0 /\
    p_dram_size tiny_platform < g_dram_stripe_size G /\
    g_dram_region_count G = 16.
Proof.
  destruct (run 0 (boot tiny_platform) (ex_boot_state 0)) as [s' r] eqn:R.
  assert (X : exists G, r = Some G /\ s_ub s' = [] /\
     g_dram_stripe_size G = 2 ^ 22 /\ g_dram_region_count G = 16).
  { assert (E : s_ub (fst (run 0 (boot tiny_platform) (ex_boot_state 0))) = [] /\
      match snd (run 0 (boot tiny_platform) (ex_boot_state 0)) with
      | Some G => g_dram_stripe_size G = 2 ^ 22 /\ g_dram_region_count G = 16
      | None => False end) by (vm_compute; auto).
    rewrite R in E. cbn in E. destruct r as [G|]; [|tauto].
    exists G. intuition. }
  destruct X as [G [-> [U [E1 E2]]]]. exists G, s'. split; [reflexivity|].
  split; [exact U|]. split; [constructor; vm_compute; intuition congruence|].
  split; [rewrite E1; reflexivity|exact E2].
Qed.
Print Assumptions C15_geometry_refuted.

(** ** C16 *)

(** Supported platforms boot, without undefined behaviour. [supported]
    (BootProofs.v) lists the requirements. *)
Theorem C16_supported_boots : forall c s P top pb rb, supported P top pb rb ->
  exists s' G, run c (boot_from P top) s = (s', Some G) /\ s_ub s' = s_ub s.
Proof.
  intros c s P top pb rb S. destruct (boot_supported c s P top pb rb S) as [s' [G [R B]]].
  exists s', G. split; [exact R|]. apply B.
Qed.
Print Assumptions C16_supported_boots.

Theorem C16_refuses_shared_inner_cache : forall c s P top, sane P top ->
  (exists i, i < p_cache_levels P /\ i <> p_cache_levels P - 1 /\
     p_is_shared P i = true) ->
  snd (run c (boot_from P top) s) = None.
Proof.
  intros c s P top [S1 S2 S3 _ _ _ _] H. apply boot_refuses.
  apply dram_regions_none; auto. intros [NS _]. apply NS. exact H.
Qed.
Print Assumptions C16_refuses_shared_inner_cache.

Theorem C16_refuses_line_size : forall c s P top, sane P top ->
  ~ (exists k, p_line_size P (llc P) = 2 ^ k) ->
  snd (run c (boot_from P top) s) = None.
Proof.
  intros c s P top [S1 S2 S3 _ _ _ _] H. apply boot_refuses.
  apply dram_regions_none; auto. intros [_ [lb [st [_ [_ [L _]]]]]]. apply H. eauto.
Qed.
Print Assumptions C16_refuses_line_size.

Theorem C16_refuses_set_count : forall c s P top, sane P top ->
  ~ (exists k, p_set_count P (llc P) = 2 ^ k) ->
  snd (run c (boot_from P top) s) = None.
Proof.
  intros c s P top [S1 S2 S3 _ _ _ _] H. apply boot_refuses.
  apply dram_regions_none; auto. intros [_ [lb [st [_ [_ [_ [L _]]]]]]]. apply H. eauto.
Qed.
Print Assumptions C16_refuses_set_count.

Theorem C16_refuses_small_cache : forall c s P top, sane P top ->
  p_line_size P (llc P) * p_set_count P (llc P) <= 4096 ->
  snd (run c (boot_from P top) s) = None.
Proof.
  intros c s P top [S1 S2 S3 _ _ _ _] H. apply boot_refuses.
  apply dram_regions_none; auto.
  intros [_ [lb [st [_ [_ [L1 [L2 [L3 _]]]]]]]].
  rewrite L1, L2, <- pow2_add in H. change 4096 with (2 ^ 12) in H.
  apply pow2_le_inv in H. lia.
Qed.
Print Assumptions C16_refuses_small_cache.

(** DRAM that spans the cache index, but whose pages per stripe do not reach the
    minimum shift. *)
Theorem C16_refuses_small_dram_partial : forall c s P top lb st, sane P top ->
  p_line_size P (llc P) = 2 ^ lb -> p_set_count P (llc P) = 2 ^ st ->
  dram_spans_cache P -> dram_bits P - (lb + st) < p_min_shift P ->
  snd (run c (boot_from P top) s) = None.
Proof.
  intros c s P top lb st [S1 S2 S3 S4 _ _ _] L1 L2 W H. apply boot_refuses.
  apply dram_regions_none; auto.
  intros [_ [lb' [st' [B1 [B2 [L1' [L2' [L3 M]]]]]]]].
  rewrite L1 in L1'. rewrite L2 in L2'. apply pow2_inj in L1', L2'. subst lb' st'.
  unfold dram_spans_cache in W. rewrite L1, L2, <- pow2_add in W.
  apply pow2_le_inv in W. unfold dram_bits in *.
  assert (A64 : address_bits_for (p_dram_size P) <= 64)
    by (apply address_bits_le64; apply S4).
  rewrite chosen_bits_min in M by (unfold W64; lia). lia.
Qed.
Print Assumptions C16_refuses_small_dram_partial.

(** Missing from the partial theorem: DRAM smaller than the cache index. There
    boot goes on, although no page per stripe is left (the minimum is 1 here). *)
Theorem C16_refuses_small_dram_refuted :
  sane tiny_platform 0 /\ p_dram_size tiny_platform < 64 * 1024 /\
  p_line_size tiny_platform (llc tiny_platform) *
    p_set_count tiny_platform (llc tiny_platform) = 64 * 1024 /\
  1 <= p_min_shift tiny_platform /\
  snd (run 0 (boot tiny_platform) (ex_boot_state 0)) <> None.
Proof.
  split; [constructor; vm_compute; intuition congruence|].
  split; [reflexivity|]. split; [reflexivity|]. split; [vm_compute; discriminate|].
  vm_compute. discriminate.
Qed.
Print Assumptions C16_refuses_small_dram_refuted.

(** The tables must fit in a stripe. *)
Theorem C16_refuses_large_tables : forall c s P top pb rb,
  supported P 0 pb rb ->
  2 ^ (12 + pb) < tables_end top (p_core_count P) (2 ^ rb) <= 2 ^ 30 ->
  snd (run c (boot_from P top) s) = None.
Proof.
  intros c s P top pb rb [L NS [lb [st [LB [ST [LS [SC CB]]]]]] RB D AB PB MN SH TB] [T1 T2].
  change (2 ^ 64) with W64 in *.
  unfold boot_from. rewrite run_bind.
  rewrite (dram_regions_split c s P lb st) by auto. cbv zeta.
  replace (st + lb) with (12 + rb) by lia.
  assert (A64 : address_bits_for (p_dram_size P) <= 64) by (apply address_bits_le64; lia).
  rewrite chosen_bits_min by (unfold W64; lia). rewrite <- PB.
  replace ((12 + rb <=? 12) || (pb <? p_min_shift P)) with false by lia.
  rewrite ge_tail_run by lia.
  destruct (boot_rest_run c s P pb rb top) as [s' [E _]]; try lia.
  cbv zeta in E |- *. rewrite E. cbn [snd].
  set (t := tables_end top (p_core_count P) (2 ^ rb)) in *.
  assert (X : t <= 2 ^ address_bits_for t).
  { apply address_bits_iff; [lia| |apply N.le_refl].
    change (2 ^ 30) with 1073741824 in T2. unfold W64. lia. }
  destruct (N.ltb_spec (2 ^ (12 + pb)) (2 ^ address_bits_for t)); [reflexivity|lia].
Qed.
Print Assumptions C16_refuses_large_tables.

(** ** C17. The functions of the monitor that take an address apart, on a booted
    machine ([geom G pb rb] is what boot establishes: booted_geom). *)
Theorem C17_boot_establishes_geometry : forall c s P top pb rb, supported P top pb rb ->
  exists s' G, run c (boot_from P top) s = (s', Some G) /\ geom G pb rb.
Proof.
  intros c s P top pb rb S. destruct (boot_supported c s P top pb rb S) as [s' [G [R B]]].
  exists s', G. split; [exact R|]. eapply booted_geom; eauto.
Qed.
Print Assumptions C17_boot_establishes_geometry.

Theorem C17_decomposition : forall G pb rb, geom G pb rb -> forall a,
  a = dram_stripe_for G a * (g_dram_region_count G * g_dram_stripe_size G) +
      dram_region_for G a * g_dram_stripe_size G +
      dram_stripe_page_for G a * 4096 + a mod 4096.
Proof.
  intros G pb rb g a. rewrite (geo_count _ _ _ g), (geo_size _ _ _ g).
  rewrite (N.mul_comm (2 ^ rb)), <- pow2_add. apply decompose. auto.
Qed.
Print Assumptions C17_decomposition.

Theorem C17_recomposition : forall G pb rb, geom G pb rb ->
  forall stripe region page offset,
  region < g_dram_region_count G -> page < g_dram_stripe_pages G -> offset < 4096 ->
  let a := stripe * (g_dram_region_count G * g_dram_stripe_size G) +
           region * g_dram_stripe_size G + page * 4096 + offset in
  dram_stripe_for G a = stripe /\ dram_region_for G a = region /\
  dram_stripe_page_for G a = page /\ a mod 4096 = offset.
Proof.
  intros G pb rb g z r p o. rewrite (geo_count _ _ _ g), (geo_size _ _ _ g), (geo_pages _ _ _ g).
  rewrite (N.mul_comm (2 ^ rb)), <- pow2_add. apply recompose. auto.
Qed.
Print Assumptions C17_recomposition.

Theorem C17_region_index_valid : forall G pb rb, geom G pb rb ->
  forall a, is_valid_dram_region G (dram_region_for G a) = true.
Proof.
  intros G pb rb g a. unfold is_valid_dram_region. apply N.ltb_lt.
  eapply region_for_lt; eauto.
Qed.
Print Assumptions C17_region_index_valid.

Theorem C17_region_start : forall G pb rb, geom G pb rb -> forall r,
  r < g_dram_region_count G -> dram_region_for G (dram_region_start G r) = r.
Proof.
  intros G pb rb g r R. rewrite (geo_count _ _ _ g) in R.
  rewrite (region_start_spec G pb rb g r R), (region_for_spec G pb rb g).
  rewrite <- (region_of_start G pb rb g r 0 0 R) at 2.
  - f_equal. unfold stripe_start. lia.
  - apply pow2_pos.
Qed.
Print Assumptions C17_region_start.

Theorem C17_page_in_one_region : forall G pb rb, geom G pb rb -> forall a b,
  a / 4096 = b / 4096 -> dram_region_for G a = dram_region_for G b.
Proof.
  intros G pb rb g a b H. rewrite !(region_for_spec G pb rb g).
  apply page_one_region. exact H.
Qed.
Print Assumptions C17_page_in_one_region.

Example C17_example : exists s' G,
  run 0 (boot_from ex_platform 0) (ex_boot_state 7) = (s', Some G) /\ geom G 6 4 /\
  dram_region_for G 0x1d5123 = 7 /\ dram_region_start G 7 = 0x1c0000.
Proof.
  destruct ex_boots as [s' [G [R B]]]. exists s', G. split; [exact R|].
  split; [exact (booted_geom _ _ _ _ _ _ _ _ ex_supported B)|].
  rewrite (bt_globals _ _ _ _ _ _ _ _ B). split; vm_compute; reflexivity.
Qed.

(** ** C18 *)

(** Computing the page index is undefined behaviour on every supported
    platform and for every address: the shift count is negative. *)
Theorem C18_page_index_refuted : forall c G pb rb, geom G pb rb -> forall s a,
  s_ub (fst (run c (dram_region_page_for G a) s)) = 1 :: s_ub s.
Proof.
  intros c G pb rb g s a. pose proof (geo_rb _ _ _ g). pose proof (geo_pb _ _ _ g).
  unfold dram_region_page_for, page_for_shift.
  rewrite (geo_rs _ _ _ g), (geo_ss _ _ _ g).
  assert (E : wsub (12 + pb) (12 + pb + rb) = W64 - rb)
    by (unfold wsub, W64; lia).
  rewrite E. replace (64 <=? W64 - rb) with true by (unfold W64; lia). reflexivity.
Qed.
Print Assumptions C18_page_index_refuted.

(** Even on a machine that uses the low six bits of the count, two pages of one
    region share an index as soon as there are more than 2^rb stripes. *)
Theorem C18_collision_refuted : forall G pb rb, geom G pb rb ->
  let a := 0 in
  let b := 2 ^ rb * (g_dram_region_count G * g_dram_stripe_size G) in
  dram_region_for G a = dram_region_for G b /\ a / 4096 <> b / 4096 /\
  dram_region_page_for_val G a = dram_region_page_for_val G b.
Proof.
  intros G pb rb g. cbv zeta. pose proof (geo_rb _ _ _ g). pose proof (geo_pb _ _ _ g).
  set (b := 2 ^ rb * _).
  assert (E0 : b = 2 ^ rb * (g_dram_region_count G * g_dram_stripe_size G) +
       0 * g_dram_stripe_size G + 0 * 4096 + 0) by (unfold b; lia).
  pose proof (R_pos G pb rb g) as RP. pose proof (pow2_pos pb) as PP.
  destruct (C17_recomposition G pb rb g (2 ^ rb) 0 0 0) as [B1 [B2 [B3 _]]];
    [rewrite (geo_count _ _ _ g); lia|rewrite (geo_pages _ _ _ g); lia|lia|].
  rewrite <- E0 in *.
  destruct (C17_recomposition G pb rb g 0 0 0 0) as [A1 [A2 [A3 _]]];
    [rewrite (geo_count _ _ _ g); lia|rewrite (geo_pages _ _ _ g); lia|lia|].
  rewrite !N.mul_0_l, !N.add_0_l in *.
  split; [congruence|]. split.
  - pose proof (S_pos G pb rb g). rewrite (geo_count _ _ _ g), (geo_size _ _ _ g) in E0.
    rewrite N.div_0_l by discriminate. intros X. symmetry in X.
    apply N.div_small_iff in X; [|discriminate]. nia.
  - unfold dram_region_page_for_val. rewrite A1, A3, B1, B3. f_equal.
    unfold page_for_shift. rewrite (geo_rs _ _ _ g), (geo_ss _ _ _ g).
    assert (E : wsub (12 + pb) (12 + pb + rb) mod 64 = 64 - rb)
      by (unfold wsub, W64; lia).
    unfold wshl. rewrite E, !shiftl_mul. rewrite N.mul_0_l.
    rewrite <- pow2_add. replace (rb + (64 - rb)) with 64 by lia. reflexivity.
Qed.
Print Assumptions C18_collision_refuted.

(** What remains true: with low-six-bits shifts, the pages of the first stripe of
    a region get their position in the stripe, so they are told apart. *)
Theorem C18_first_stripe_partial : forall G pb rb, geom G pb rb -> forall a b,
  dram_stripe_for G a = 0 -> dram_stripe_for G b = 0 ->
  dram_region_for G a = dram_region_for G b ->
  dram_region_page_for_val G a = dram_region_page_for_val G b ->
  dram_region_page_for_val G a < g_dram_stripe_pages G /\ a / 4096 = b / 4096.
Proof.
  intros G pb rb g a b SA SB R E.
  assert (V : forall x, dram_stripe_for G x = 0 ->
    dram_region_page_for_val G x = dram_stripe_page_for G x).
  { intros x X. unfold dram_region_page_for_val. rewrite X. unfold wshl.
    rewrite N.shiftl_0_l. change (0 mod W64) with 0. apply N.lor_0_r. }
  rewrite !V in * by auto. split.
  - rewrite (stripe_page_for_spec G pb rb g), (geo_pages _ _ _ g).
    apply N.mod_lt, pow2_nz.
  - rewrite (C17_decomposition G pb rb g a), (C17_decomposition G pb rb g b).
    rewrite SA, SB, R, E.
    rewrite (geo_size _ _ _ g), (S_split pb).
    set (q := dram_region_for G b). set (p := dram_stripe_page_for G b).
    set (X := 2 ^ pb). clearbody q p X. 
    assert (Q : forall o, o < 4096 -> (0 * (g_dram_region_count G * (4096 * X)) +
       q * (4096 * X) + p * 4096 + o) / 4096 = q * X + p).
    { intros o O. symmetry. apply (N.div_unique _ 4096 _ o); auto. nia. }
    rewrite !Q by (apply N.mod_lt; discriminate). reflexivity.
Qed.
Print Assumptions C18_first_stripe_partial.

(** ** C19 *)
Theorem C19_map_fits : forall G pb rb, geom G pb rb ->
  8 * g_metadata_region_pages G <= g_dram_stripe_size G /\
  8 * g_metadata_region_pages G <= 4096 * g_metadata_region_start G /\
  g_metadata_region_start G <= g_dram_stripe_pages G /\
  (forall n, 8 * g_metadata_region_pages G <= 4096 * n ->
     g_metadata_region_start G <= n).
Proof.
  intros G pb rb g. rewrite (geo_size _ _ _ g), (geo_pages _ _ _ g), (geo_mstart _ _ _ g).
  assert (S9 : 2 ^ (12 + pb) = 8 * 2 ^ (9 + pb)).
  { replace (12 + pb) with (3 + (9 + pb)) by lia. rewrite pow2_add. reflexivity. }
  pose proof (S_split pb) as S12.
  assert (M : g_metadata_region_pages G <= 2 ^ (9 + pb)) by (rewrite (geo_mpages _ _ _ g); lia).
  set (p := g_metadata_region_pages G) in *. clearbody p. repeat split; try lia.
Qed.
Print Assumptions C19_map_fits.

(** For DRAM sizes that are powers of two the map has an entry for every page of
    the first stripe (up to its capacity). *)
Theorem C19_entry_per_page_partial : forall G pb rb d, geom G pb rb ->
  g_dram_size G = 2 ^ d -> g_dram_stripe_pages G <= g_metadata_region_pages G.
Proof.
  intros G pb rb d g E. destruct (pow2_dram_bits _ _ _ _ g E) as [K1 K2].
  rewrite (geo_pages _ _ _ g), (geo_mpages _ _ _ g), E.
  apply N.min_glb.
  - rewrite (pow2_split (12 + rb) d) by lia.
    rewrite N.mul_comm, N.div_mul by (apply pow2_nz). apply pow2_le. lia.
  - apply pow2_le. lia.
Qed.
Print Assumptions C19_entry_per_page_partial.

(** For other sizes it can be too small: 33 MB of DRAM, regions of one stripe. *)
Definition odd_platform2 : platform :=
  mkPlatform (33 * 2 ^ 20) 1 (fun _ => true) (fun _ => 64) (fun _ => 1024) 0 18 2.
Theorem C19_entry_per_page_refuted :
  exists G s', run 0 (boot odd_platform2) (ex_boot_state 0) = (s', Some G) /\
    s_ub s' = [] /\ g_metadata_region_pages G = 528 /\ g_dram_stripe_pages G = 1024.
Proof.
  destruct (boot_supported 0 (ex_boot_state 0) odd_platform2 0 10 4) as [s' [G [R B]]].
  { constructor; try (vm_compute; intuition congruence).
    - intros [i [H1 [H2 H3]]]. cbn in *. lia.
    - exists 6, 10. vm_compute. intuition congruence. }
  exists G, s'. split; [exact R|].
  split; [exact (bt_ub _ _ _ _ _ _ _ _ B)|].
  rewrite (bt_globals _ _ _ _ _ _ _ _ B). split; vm_compute; reflexivity.
Qed.
Print Assumptions C19_entry_per_page_refuted.

(** ** C20 *)

(** Layout: image end <= core table <= region table <= clock <= bitmap <= monitor
    top <= one stripe, so all of it is in region 0. *)
Theorem C20_layout : forall c s P top pb rb, supported P top pb rb ->
  exists s' G, run c (boot_from P top) s = (s', Some G) /\
    g_core G = top /\
    g_dram_region G = g_core G + core_info_size * p_core_count P /\
    g_dram_regions G = g_dram_region G + dram_region_info_size * g_dram_region_count G /\
    g_os_region_bitmap G = g_dram_regions G + dram_regions_info_size /\
    64 * g_dram_region_bitmap_words G >= g_dram_region_count G /\
    g_os_region_bitmap G + 8 * g_dram_region_bitmap_words G <= g_monitor_top G /\
    g_monitor_top G <= g_dram_stripe_size G /\
    (forall a, a < g_monitor_top G -> dram_region_for G a = 0).
Proof.
  intros c s P top pb rb S. destruct (boot_supported c s P top pb rb S) as [s' [G [R B]]].
  exists s', G. split; [exact R|]. pose proof (booted_geom _ _ _ _ _ _ _ _ S B) as g.
  assert (GC : g_core G = top) by (rewrite (bt_globals _ _ _ _ _ _ _ _ B); reflexivity).
  assert (GN : g_core_count G = p_core_count P)
    by (rewrite (bt_globals _ _ _ _ _ _ _ _ B); reflexivity).
  split; [exact GC|].
  split; [rewrite (geo_dr _ _ _ g), GN; reflexivity|].
  split; [rewrite (geo_drs _ _ _ g), (geo_count _ _ _ g); reflexivity|].
  split; [exact (geo_bm _ _ _ g)|].
  split; [rewrite (geo_words _ _ _ g), (geo_count _ _ _ g); lia|].
  split; [rewrite (geo_words _ _ _ g); exact (geo_end _ _ _ g)|].
  split; [rewrite (geo_size _ _ _ g); exact (geo_fits _ _ _ g)|].
  intros a A. rewrite (region_for_spec G pb rb g). apply (region0_low pb rb).
  pose proof (geo_fits _ _ _ g). lia.
Qed.
Print Assumptions C20_layout.

(** Initial values. *)
Theorem C20_initial_values : forall c s P top pb rb, supported P top pb rb ->
  exists s' G, run c (boot_from P top) s = (s', Some G) /\
    (forall r, r < g_dram_region_count G ->
       let f o := ld 8 (s_mem s') (g_dram_region G + 40 * r + o) in
       f dri_lock = 0 /\ f dri_owner = null_enclave_id /\
       f dri_previous_owner = null_enclave_id /\ f dri_pinned_pages = 0 /\
       f dri_blocked_at = 0 /\
       bit_at (s_mem s') (g_os_region_bitmap G) r = true) /\
    ld 8 (s_mem s') (g_dram_regions G) = 0.
Proof.
  intros c s P top pb rb S. destruct (boot_supported c s P top pb rb S) as [s' [G [R B]]].
  exists s', G. split; [exact R|]. pose proof (booted_geom _ _ _ _ _ _ _ _ S B) as g.
  pose proof (bt_zero _ _ _ _ _ _ _ _ B) as Z.
  pose proof (geo_drs _ _ _ g) as L1. pose proof (geo_bm _ _ _ g) as L2.
  split.
  - intros r Hr. rewrite (geo_count _ _ _ g) in Hr. cbv zeta.
    unfold dri_lock, dri_owner, dri_previous_owner, dri_pinned_pages, dri_blocked_at,
      null_enclave_id.
    repeat split; try (apply ld8_zero; intros b Hb; apply Z; lia).
    rewrite (bt_bits _ _ _ _ _ _ _ _ B). replace (r <? 2 ^ rb) with true by lia.
    reflexivity.
  - apply ld8_zero. intros b Hb. apply Z. lia.
Qed.
Print Assumptions C20_initial_values.

(** Nothing else in memory is written. *)
Theorem C20_frame : forall c s P top pb rb, supported P top pb rb ->
  exists s' G, run c (boot_from P top) s = (s', Some G) /\
    forall b, b < g_dram_region G \/
      g_os_region_bitmap G + 8 * g_dram_region_bitmap_words G <= b ->
      s_mem s' b = s_mem s b.
Proof.
  intros c s P top pb rb S. destruct (boot_supported c s P top pb rb S) as [s' [G [R B]]].
  exists s', G. split; [exact R|]. pose proof (booted_geom _ _ _ _ _ _ _ _ S B) as g.
  intros b Hb. apply (bt_frame _ _ _ _ _ _ _ _ B).
  rewrite (geo_words _ _ _ g) in Hb.
  assert (E : tables_end top (p_core_count P) (2 ^ rb)
    = g_os_region_bitmap G + 8 * ((2 ^ rb + 63) / 64)).
  { rewrite (bt_globals _ _ _ _ _ _ _ _ B). reflexivity. }
  rewrite E. exact Hb.
Qed.
Print Assumptions C20_frame.

(** ** C21 *)
Theorem C21_monitor_protected : forall c s P top pb rb, supported P top pb rb ->
  exists s' G, run c (boot_from P top) s = (s', Some G) /\
    (* all tables are below the monitor top *)
    g_os_region_bitmap G + 8 * g_dram_region_bitmap_words G <= g_monitor_top G /\
    forall a, a < 2 ^ 64 ->
      (a < g_monitor_top G -> ~ cpu_may_access pb rb (s_cores s' c) a) /\
      (dma_may_access s' a <-> a = g_monitor_top G).
Proof.
  intros c s P top pb rb S. destruct (boot_supported c s P top pb rb S) as [s' [G [R B]]].
  exists s', G. split; [exact R|]. pose proof (booted_geom _ _ _ _ _ _ _ _ S B) as g.
  split; [rewrite (geo_words _ _ _ g); exact (geo_end _ _ _ g)|].
  intros a A. change (2 ^ 64) with W64 in A. destruct (geo_mtop _ _ _ g) as [t T].
  pose proof (geo_fits _ _ _ g) as F. pose proof (geo_pb _ _ _ g).
  split.
  - intros M [_ H1]. apply H1. rewrite (bt_cores _ _ _ _ _ _ _ _ B), N.eqb_refl.
    unfold boot_regs. cbn [r_par_mask r_par_base]. rewrite T in *.
    apply par_spec; auto. apply pow2_le_inv in F. lia.
  - unfold dma_may_access. rewrite (bt_dmar_mask _ _ _ _ _ _ _ _ B),
      (bt_dmar_base _ _ _ _ _ _ _ _ B).
    change (W64 - 1) with (2 ^ 64 - 1). rewrite land_mask, N.mod_small by auto.
    reflexivity.
Qed.
Print Assumptions C21_monitor_protected.

(** The OS does reach all its other memory on that core: protection is not
    achieved by blocking everything. *)
Theorem C21_os_memory_reachable : forall c s P top pb rb, supported P top pb rb ->
  64 * s_words s >= 2 ^ rb ->
  exists s' G, run c (boot_from P top) s = (s', Some G) /\
    forall a, a < 2 ^ 64 -> g_monitor_top G <= a ->
      cpu_may_access pb rb (s_cores s' c) a.
Proof.
  intros c s P top pb rb S W. destruct (boot_supported c s P top pb rb S) as [s' [G [R B]]].
  exists s', G. split; [exact R|]. pose proof (booted_geom _ _ _ _ _ _ _ _ S B) as g.
  intros a A M. change (2 ^ 64) with W64 in A. destruct (geo_mtop _ _ _ g) as [t T].
  pose proof (geo_fits _ _ _ g) as F. pose proof (geo_pb _ _ _ g).
  unfold cpu_may_access, drb_bit. rewrite (bt_cores _ _ _ _ _ _ _ _ B), N.eqb_refl.
  unfold boot_regs. cbn [r_par_mask r_par_base r_drb].
  pose proof (region_of_lt pb rb a) as RL.
  split.
  - replace (region_of pb rb a / 64 <? s_words s) with true by lia.
    rewrite <- bit_at_word. rewrite (bt_bits _ _ _ _ _ _ _ _ B).
    replace (region_of pb rb a <? 2 ^ rb) with true by lia. reflexivity.
  - rewrite T in *. intros H1. apply par_spec in H1; auto; [lia|].
    apply pow2_le_inv in F. lia.
Qed.
Print Assumptions C21_os_memory_reachable.

Example C21_example : exists s' G,
  run 0 (boot_from ex_platform 0) (ex_boot_state 7) = (s', Some G) /\
  g_monitor_top G = 1024 /\ cpu_may_access 6 4 (s_cores s' 0) 4096.
Proof.
  destruct (C21_os_memory_reachable 0 (ex_boot_state 7) ex_platform 0 6 4 ex_supported)
    as [s' [G [R H]]]; [vm_compute; discriminate|].
  exists s', G. split; [exact R|].
  destruct (boot_supported 0 (ex_boot_state 7) ex_platform 0 6 4 ex_supported)
    as [s2 [G2 [R2 B2]]].
  rewrite R in R2. inversion R2; subst s2 G2.
  assert (E : g_monitor_top G = 1024)
    by (rewrite (bt_globals _ _ _ _ _ _ _ _ B2); vm_compute; reflexivity).
  split; [exact E|]. apply H; [reflexivity|]. rewrite E. discriminate.
Qed.

(** ** C22 *)

(** The core table is not initialised: whatever 8-byte values memory held before
    boot are still there afterwards, for every core and every field. *)
Theorem C22_core_table_refuted : forall c s P top pb rb, supported P top pb rb ->
  exists s' G, run c (boot_from P top) s = (s', Some G) /\
    forall core, core < p_core_count P ->
      ld 8 (s_mem s') (g_core G + 32 * core + ci_enclave_id) =
        ld 8 (s_mem s) (top + 32 * core + ci_enclave_id) /\
      ld 8 (s_mem s') (g_core G + 32 * core + ci_flushed_at) =
        ld 8 (s_mem s) (top + 32 * core + ci_flushed_at).
Proof.
  intros c s P top pb rb S. destruct (boot_supported c s P top pb rb S) as [s' [G [R B]]].
  exists s', G. split; [exact R|]. pose proof (booted_geom _ _ _ _ _ _ _ _ S B) as g.
  assert (GC : g_core G = top) by (rewrite (bt_globals _ _ _ _ _ _ _ _ B); reflexivity).
  assert (GN : g_core_count G = p_core_count P)
    by (rewrite (bt_globals _ _ _ _ _ _ _ _ B); reflexivity).
  pose proof (geo_dr _ _ _ g) as L. unfold ci_enclave_id, ci_flushed_at. rewrite GC.
  intros core C. split; apply ld_ext; intros b B1 B2; change (N.of_nat 8) with 8 in B2;
    rewrite (bt_frame _ _ _ _ _ _ _ _ B) by lia; reflexivity.
Qed.
Print Assumptions C22_core_table_refuted.

(** Likewise the bits of the OS bitmap beyond the region count. *)
Theorem C22_bitmap_tail_refuted : forall c s P top pb rb, supported P top pb rb ->
  exists s' G, run c (boot_from P top) s = (s', Some G) /\
    forall j, g_dram_region_count G <= j ->
      bit_at (s_mem s') (g_os_region_bitmap G) j = bit_at (s_mem s) (g_os_region_bitmap G) j.
Proof.
  intros c s P top pb rb S. destruct (boot_supported c s P top pb rb S) as [s' [G [R B]]].
  exists s', G. split; [exact R|]. pose proof (booted_geom _ _ _ _ _ _ _ _ S B) as g.
  intros j J. rewrite (bt_bits _ _ _ _ _ _ _ _ B). rewrite (geo_count _ _ _ g) in J.
  replace (j <? 2 ^ rb) with false by lia. reflexivity.
Qed.
Print Assumptions C22_bitmap_tail_refuted.

(** What holds: if memory below the monitor top was zero before boot, then no
    core is recorded as running an enclave, all flush times are 0 and the
    surplus bits are clear. *)
Theorem C22_zeroed_memory_partial : forall c s P top pb rb, supported P top pb rb ->
  (forall b, top <= b -> byte (s_mem s) b = 0) ->
  exists s' G, run c (boot_from P top) s = (s', Some G) /\
    (forall core, core < p_core_count P ->
      ld 8 (s_mem s') (g_core G + 32 * core + ci_enclave_id) = 0 /\
      ld 8 (s_mem s') (g_core G + 32 * core + ci_flushed_at) = 0) /\
    forall j, bit_at (s_mem s') (g_os_region_bitmap G) j = true <->
      j < g_dram_region_count G.
Proof.
  intros c s P top pb rb S Z. destruct (boot_supported c s P top pb rb S) as [s' [G [R B]]].
  exists s', G. split; [exact R|]. pose proof (booted_geom _ _ _ _ _ _ _ _ S B) as g.
  assert (GC : g_core G = top) by (rewrite (bt_globals _ _ _ _ _ _ _ _ B); reflexivity).
  assert (GN : g_core_count G = p_core_count P)
    by (rewrite (bt_globals _ _ _ _ _ _ _ _ B); reflexivity).
  pose proof (geo_dr _ _ _ g) as L. pose proof (geo_drs _ _ _ g) as L2.
  pose proof (geo_bm _ _ _ g) as L3. unfold ci_enclave_id, ci_flushed_at.
  split.
  - intros core C. split; apply ld8_zero; intros b Hb; unfold byte;
      rewrite (bt_frame _ _ _ _ _ _ _ _ B) by lia; apply Z; lia.
  - intros j. rewrite (bt_bits _ _ _ _ _ _ _ _ B), (geo_count _ _ _ g).
    unfold bit_at. rewrite Z by lia. rewrite N.bits_0, orb_false_r. apply N.ltb_lt.
Qed.
Print Assumptions C22_zeroed_memory_partial.

(** Memory full of ones: after boot core 0 is recorded as running an enclave. *)
Example C22_example : exists s' G,
  run 0 (boot_from ex_platform 0) (ex_boot_state 255) = (s', Some G) /\
  ld 8 (s_mem s') (g_core G) = 2 ^ 64 - 1.
Proof.
  destruct (C22_core_table_refuted 0 (ex_boot_state 255) ex_platform 0 6 4 ex_supported)
    as [s' [G [R H]]].
  exists s', G. split; [exact R|]. destruct (H 0) as [H1 _]; [reflexivity|].
  unfold ci_enclave_id in H1. rewrite N.mul_0_r, !N.add_0_r in H1. rewrite H1.
  vm_compute. reflexivity.
Qed.
