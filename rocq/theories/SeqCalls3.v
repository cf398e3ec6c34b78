(** * set_dma_range, create_metadata_region and the enclave calls
    (sequential execution). *)
From Coq Require Import NArith ZArith Lia Bool List.
From Coq Require Import ZifyBool ZifyNat ZifyN.
From Verif Require Import Word Machine ModelBare ModelHash ModelInl ModelRegions
  ModelMetadata ModelEnclave ModelBoot ModelApi Lib BareProofs SpecGeometry
  GeomProofs SpecMonitor ViewProofs SeqProofs SeqCalls SeqCalls2.
Import ListNotations.
Open Scope N_scope.
Ltac Zify.zify_post_hook ::= Z.div_mod_to_equations.

Lemma page_shift_12 : page_shift = 12. Proof. reflexivity. Qed.

Section Calls3.
Variables (G : globals) (pb rb : N).
Hypothesis g : geom G pb rb.
Local Notation n := (g_dram_region_count G).
Local Notation W := (g_dram_region_bitmap_words G).

Lemma rest_high b : g_monitor_top G <= b -> rest G b.
Proof.
  intros H. pose proof (layout _ _ _ g) as (L1 & L2 & L3 & L4 & L5 & L6 & L7 & L8).
  right; right. lia.
Qed.

(** ** Accesses outside the tables *)
Lemma wp_load_any c a o (Q : N -> ost -> Prop) : (forall v, v < W64 -> Q v o) ->
  wp G c (load64 a) o Q.
Proof.
  intros H s V. exists s, (ld 8 (s_mem s) a), o. split; [reflexivity|].
  split; auto. apply H, ld8_bound.
Qed.
Lemma wp_load_rest c a o (Q : N -> ost -> Prop) :
  (forall b, a <= b < a + 8 -> rest G b) -> Q (ld 8 (o_rest o) a) o ->
  wp G c (load64 a) o Q.
Proof.
  intros H X s V. exists s, (ld 8 (o_rest o) a), o. split; [|auto].
  rewrite run_load64. do 2 f_equal. apply ld_byte. intros b B1 B2.
  apply (v_rest _ _ _ V), H. change (N.of_nat 8) with 8 in B2. lia.
Qed.
Lemma view_confined s o m' lo hi : view G s o ->
  (forall b, lo <= b < hi -> rest G b) ->
  (forall b, b < lo \/ hi <= b -> byte m' b = byte (s_mem s) b) ->
  exists m'', view G (set_mem s m') (with_rest o m'') /\
    (forall b, lo <= b < hi -> byte m'' b = byte m' b) /\
    (forall b, b < lo \/ hi <= b -> byte m'' b = byte (o_rest o) b).
Proof.
  intros V R F.
  exists (fun b => if (lo <=? b) && (b <? hi) then m' b else o_rest o b).
  assert (A : forall b, byte (fun b => if (lo <=? b) && (b <? hi) then m' b else o_rest o b) b =
     if (lo <=? b) && (b <? hi) then byte m' b else byte (o_rest o) b).
  { intros b. unfold byte. destruct ((lo <=? b) && (b <? hi)); reflexivity. }
  split; [|split].
  - assert (V' : view G (set_mem s m') (with_rest o m')).
    { apply (v_set_rest _ _ _ g); auto. intros b NB. apply F.
      destruct (N.lt_ge_cases b lo); auto. destruct (N.lt_ge_cases b hi); auto.
      exfalso. apply NB, R. lia. }
    pose proof (v_rest _ _ _ V) as VR.
    destruct V'. constructor; auto.
    intros b B. cbn [o_rest with_rest]. rewrite A.
    destruct ((lo <=? b) && (b <? hi)) eqn:E; [reflexivity|].
    cbn [s_mem set_mem]. rewrite F by lia. apply VR; auto.
  - intros b B. rewrite A. destruct ((lo <=? b) && (b <? hi)) eqn:E; [reflexivity|lia].
  - intros b B. rewrite A. destruct ((lo <=? b) && (b <? hi)) eqn:E; [lia|reflexivity].
Qed.
Lemma wp_st_rest c a v o (Q : N -> ost -> Prop) : v < W64 ->
  (forall b, a <= b < a + 8 -> rest G b) -> Q 0 (with_rest o (st 8 (o_rest o) a v)) ->
  wp G c (store64 a v) o Q.
Proof.
  intros VV H X s V. exists (set_mem s (st 8 (s_mem s) a v)), 0, (with_rest o (st 8 (o_rest o) a v)).
  split; [reflexivity|]. split; auto.
  assert (V' : view G (set_mem s (st 8 (s_mem s) a v)) (with_rest o (st 8 (s_mem s) a v))).
  { apply (v_set_rest _ _ _ g); auto. intros b NB. apply byte_st_out.
    change (N.of_nat 8) with 8.
    destruct (N.lt_ge_cases b a); auto. destruct (N.lt_ge_cases b (a + 8)); auto.
    exfalso. apply NB, H. lia. }
  pose proof (v_rest _ _ _ V) as VR.
  destruct V'. constructor; auto.
  intros b B. cbn [o_rest with_rest s_mem set_mem].
  destruct (N.lt_ge_cases b a); [rewrite !byte_st_out by auto; apply VR; auto|].
  destruct (N.lt_ge_cases b (a + 8)).
  - rewrite !byte_st_in; auto.
  - rewrite !byte_st_out by auto. apply VR; auto.
Qed.
Lemma wp_tas_rest c a o (Q : N -> ost -> Prop) :
  (forall b, a <= b < a + 8 -> rest G b) ->
  Q (if ld 8 (o_rest o) a =? 0 then 0 else 1) (with_rest o (st 8 (o_rest o) a 1)) ->
  wp G c (op1 (OTas a)) o Q.
Proof.
  intros H X s V.
  destruct (wp_st_rest c a 1 o (fun _ o' => o' = with_rest o (st 8 (o_rest o) a 1))
    eq_refl H eq_refl s V) as [s' [z [o' [R [V' ->]]]]].
  eexists _, _, _. split; [|split; [|exact X]].
  - cbn [op1 run step].
    replace (ld 8 (s_mem s) a) with (ld 8 (o_rest o) a); [reflexivity|].
    apply ld_byte. intros b B1 B2. symmetry. apply (v_rest _ _ _ V), H.
    change (N.of_nat 8) with 8 in B2. lia.
  - rewrite run_store64 in R. inversion R; subst. exact V'.
Qed.
Lemma wp_clr_rest c a o (Q : N -> ost -> Prop) :
  (forall b, a <= b < a + 8 -> rest G b) ->
  Q 0 (with_rest o (st 8 (o_rest o) a 0)) ->
  wp G c (op1 (OClr a)) o Q.
Proof.
  intros H X s V.
  destruct (wp_st_rest c a 0 o (fun _ o' => o' = with_rest o (st 8 (o_rest o) a 0))
    eq_refl H eq_refl s V) as [s' [z [o' [R [V' ->]]]]].
  eexists _, _, _. split; [reflexivity|split; [|exact X]].
  rewrite run_store64 in R. inversion R; subst. exact V'.
Qed.
Lemma wp_ub c b code o (Q : unit -> ost -> Prop) : Q tt o -> wp G c (ub_if b code) o Q.
Proof.
  intros H s V. destruct b; cbn [ub_if].
  - eexists _, tt, o. split; [cbn [run step]; reflexivity|]. split; auto.
    destruct V. constructor; auto.
  - exists s, tt, o. auto.
Qed.
Lemma wp_bzero c start bytes o (Q : unit -> ost -> Prop) :
  bytes mod 8 = 0 -> start + bytes <= W64 ->
  (forall b, start <= b < start + bytes -> rest G b) ->
  (forall m, (forall b, start <= b < start + bytes -> byte m b = 0) ->
     (forall b, b < start \/ start + bytes <= b -> byte m b = byte (o_rest o) b) ->
     Q tt (with_rest o m)) ->
  wp G c (bzero64 start bytes) o Q.
Proof.
  intros M B R H s V.
  destruct (bzero64_run c s start bytes M B) as [m [E [Z F]]].
  destruct (view_confined s o m start (start + bytes) V R) as [m'' [V' [A1 A2]]].
  { intros b X. unfold byte. rewrite F; auto. }
  exists (set_mem s m), tt, (with_rest o m''). split; auto. split; auto.
  apply H; auto. intros b X. rewrite A1 by auto. apply Z; auto.
Qed.

Lemma oeq_rest o m : (forall b, byte m b = byte (o_rest o) b) -> oeq o (with_rest o m).
Proof. intros H. constructor; cbn; auto. Qed.
Lemma like_rest o M m : like G o M -> like G (with_rest o m) M.
Proof. intros []. constructor; auto. Qed.

(** ** set_dma_range *)
Lemma dma_loop c M o e : like G o M ->
  e + g_dram_stripe_size G <= W64 ->
  forall fuel a, e <= a + N.of_nat fuel * g_dram_stripe_size G ->
  forall bb o1, oeq (with_lock o 0 1) o1 ->
  wp G c (dma_stripes fuel G a e bb) o1
    (fun res o' => (exists b', res = Some b') /\ oeq (with_lock o 0 1) o').
Proof.
  intros K EB.
  assert (SP : 1 <= g_dram_stripe_size G).
  { rewrite (geo_size _ _ _ g). pose proof (pow2_pos (12 + pb)). lia. }
  induction fuel as [|k IH]; intros a F bb o1 E; cbn [dma_stripes].
  - destruct (N.ltb_spec a e); [lia|]. apply wp_ret. eauto.
  - destruct (N.ltb_spec a e) as [L|L]; [|apply wp_ret; eauto].
    set (r := dram_region_for G a). assert (R : r < n) by apply (region_lt G pb rb g).
    assert (F' : e <= wadd a (g_dram_stripe_size G) + N.of_nat k * g_dram_stripe_size G).
    { rewrite wadd_small by lia. lia. }
    destruct (N.eqb_spec r 0) as [R0|R0].
    + cbn [negb]. cbn [bind]. apply wp_bind. apply (wp_owner G pb rb g); auto.
    + cbn [negb]. apply wp_bind. apply (wp_tas G pb rb g); auto.
      rewrite (oe_lock _ _ E). cbn [o_lock with_lock]. rewrite upd_other by auto.
      pose proof (free_lock G o M r K R (taken_not0 M r R0)) as LR.
      rewrite LR. cbn [N.eqb negb].
      apply wp_bind. apply (wp_owner G pb rb g); auto.
      bnd (wp_clr G pb rb g). apply IH; auto.
      destruct E. constructor; cbn; auto. intros. unfold upd.
      destruct (N.eqb_spec r0 r) as [->|]; [|apply oe_lock].
      destruct (N.eqb_spec r 0); [contradiction|auto].
Qed.

Lemma set_dma_seq c base mask o M : like G o M ->
  base < W64 -> mask < W64 ->
  g_dram_size G + g_dram_stripe_size G <= W64 ->
  wp G c (set_dma_range G base mask) o
    (fun v o' => exists M', dma_table (g_dram_size G) base mask v M M' /\
       like G o' M' /\ (v <> ok -> oeq o o') /\ rest_same o o').
Proof.
  intros K HB HM HD. unfold set_dma_range.
  pose proof (range_iff base mask HB HM) as RI.
  destruct (is_valid_range base mask) eqn:VR; cbn [negb].
  2:{ apply wp_ret. exists M. split; [|split; [auto|split; [intros _; apply oeq_refl|intros b; reflexivity]]].
      left. split; auto. intros [X _]. apply RI in X. discriminate. }
  assert (PR : pow2_range base mask) by (apply RI; reflexivity).
  destruct (range_last base mask HB HM VR) as [LO LW].
  rewrite LO. unfold is_dram_address.
  destruct (N.ltb_spec (base + mask) (g_dram_size G)) as [D|D]; cbn [negb].
  2:{ apply wp_ret. exists M. split; [|split; [auto|split; [intros _; apply oeq_refl|intros b; reflexivity]]].
      left. split; auto. lia. }
  pose proof (N0 G pb rb g) as NP.
  apply wp_bind. apply (wp_tas_taken G pb rb g c 0 o M); auto.
  destruct (taken M 0) eqn:T.
  { apply wp_ret. exists M. split; [|split; [|split; [intros _; apply (oeq_taken G o M); auto|intros b; reflexivity]]].
    - right; left. unfold taken in T. cbn in T. auto.
    - apply (like_ext G o); auto. apply (oeq_taken G o M); auto. }
  rewrite wadd_small by (pose proof (geo_D _ _ _ g); lia).
  apply wp_bind.
  assert (SP : 1 <= g_dram_stripe_size G).
  { rewrite (geo_size _ _ _ g). pose proof (pow2_pos (12 + pb)). lia. }
  eapply wp_weaken; [|apply (dma_loop c M o (base + mask + 1) K); [lia| |apply oeq_refl]].
  2:{ rewrite Nat2N.inj_succ, N2Nat.id.
      set (S := g_dram_stripe_size G) in *.
      replace (base + mask + 1 - base) with (mask + 1) by lia.
      pose proof (N.div_mod (mask + 1) S). pose proof (N.mod_lt (mask + 1) S).
      generalize n. intros n0. nia. }
  cbv beta. intros res o1 [[b' ->] E].
  intros s V.
  destruct (wp_set_dma G c o1 base (base + mask + 1) base (wnot mask)
    (fun _ o' => o' = with_dma o1 base (wnot mask) base (base + mask + 1))
    eq_refl s V) as [s2 [z [o2 [R [V2 ->]]]]].
  destruct (wp_clr G pb rb g c 0 (with_dma o1 base (wnot mask) base (base + mask + 1))
    (fun _ o' => o' = with_lock (with_dma o1 base (wnot mask) base (base + mask + 1)) 0 0)
    NP eq_refl s2 V2) as [s3 [z3 [o3 [R3 [V3 ->]]]]].
  exists s3, ok, (with_lock (with_dma o1 base (wnot mask) base (base + mask + 1)) 0 0).
  split; [|split; [exact V3|]].
  { cbn [bind op1 run] in R |- *. cbn [step] in R |- *.
    injection R as R _. cbn [s_mem s_cores s_words s_dmar_base s_dmar_mask s_dma_start s_dma_end s_ub].
    rewrite R. rewrite run_bind, R3. reflexivity. }
  exists (m_set_dma M base (base + mask + 1)). split; [|split; [|split; [intros X; exfalso; apply X; reflexivity|exact (oe_rest _ _ E)]]].
  { right; right. unfold taken in T. cbn in T. auto. }
  assert (ML : forall a, a < W64 ->
     (N.land a (wnot mask) = base <-> base <= a < base + mask + 1)).
  { intros a A. rewrite range_members by auto. lia. }
  destruct K, E.
  constructor; cbn -[N.add N.mul N.modulo W64 wnot N.land]; intros; auto.
  - unfold upd, taken in *. cbn in *. rewrite T, andb_false_r.
    destruct (N.eqb_spec r 0); auto. rewrite oe_lock.
    cbn [o_lock with_lock]. rewrite upd_other by auto. rewrite lk_lock by auto.
    rewrite T, andb_false_r. reflexivity.
  - rewrite oe_owner. cbn. auto.
  - rewrite oe_pinned. cbn. auto.
  - rewrite oe_blocked. cbn. auto.
  - rewrite oe_clock. cbn. auto.
  - rewrite oe_encl. cbn. auto.
  - rewrite oe_flushed. cbn. auto.
  - rewrite oe_bit. cbn. auto.
  - rewrite oe_regs. cbn. auto.
  - rewrite oe_regs. cbn. auto.
  - rewrite oe_words. cbn. auto.
  - pose proof (geo_D _ _ _ g). lia.
Qed.

(** ** create_metadata_region *)
Lemma map_bytes : wshl (g_metadata_region_start G) page_shift = 4096 * g_metadata_region_start G
  /\ 4096 * g_metadata_region_start G <= g_dram_stripe_size G.
Proof.
  assert (B : 4096 * g_metadata_region_start G <= g_dram_stripe_size G).
  { rewrite (geo_size _ _ _ g), (geo_mstart _ _ _ g).
    assert (S9 : 2 ^ (12 + pb) = 8 * 2 ^ (9 + pb)).
    { replace (12 + pb) with (3 + (9 + pb)) by lia. rewrite pow2_add. reflexivity. }
    pose proof (S_split pb) as S12.
    assert (M : g_metadata_region_pages G <= 2 ^ (9 + pb)) by (rewrite (geo_mpages _ _ _ g); lia).
    set (p := g_metadata_region_pages G) in *. clearbody p. lia. }
  split; auto. rewrite page_shift_12. rewrite wshl_small.
  - change (2 ^ 12) with 4096. lia.
  - reflexivity.
  - change (2 ^ 12) with 4096. rewrite (geo_size _ _ _ g) in B.
    pose proof (S_le G pb rb g). unfold W64. lia.
Qed.
Lemma stripe_high r k : 1 <= r -> g_monitor_top G <= stripe_start pb rb r k.
Proof.
  intros R. pose proof (geo_fits _ _ _ g). unfold stripe_start.
  assert (1 * 2 ^ (12 + pb) <= r * 2 ^ (12 + pb)) by (apply N.mul_le_mono_r; auto). lia.
Qed.

Lemma create_metadata_seq c r o M : like G o M ->
  wp G c (create_metadata_region G r) o
   (fun v o' => outcome0 G o (create_metadata_table rb r M) v o' /\
      (v = ok ->
       (forall b, stripe_start pb rb r 0 <= b <
                  stripe_start pb rb r 0 + 4096 * g_metadata_region_start G ->
          byte (o_rest o') b = 0) /\
       (forall b, b < stripe_start pb rb r 0 \/
                  stripe_start pb rb r 0 + 4096 * g_metadata_region_start G <= b ->
          byte (o_rest o') b = byte (o_rest o) b))).
Proof.
  intros K. unfold create_metadata_region, create_metadata_table.
  rewrite (valid_iff G pb rb g), negb_involutive.
  destruct (2 ^ rb <=? r) eqn:V.
  { apply wp_ret. split; [|discriminate]. apply outcome0_same; auto. apply oeq_refl. }
  apply (lt_n G pb rb g) in V. apply wp_bind. apply (wp_tas_taken G pb rb g c r o M); auto.
  destruct (taken M r) eqn:T.
  { apply wp_ret. split; [|discriminate]. apply outcome0_same; auto.
    apply (oeq_taken G o M); auto. }
  unfold read_dram_region_owner. bnd (wp_owner G pb rb g). cbn [o_owner with_lock].
  rewrite (lk_owner _ _ _ K r V).
  destruct (m_owner M r) eqn:OW; cbn [owner_code].
  1-3: bnd (wp_clr G pb rb g); apply wp_ret; split; [|discriminate];
       apply outcome0_same; auto; apply (oeq_released G o M); auto.
  change (negb (3 =? free_enclave_id)) with false. cbv iota.
  assert (R0 : r <> 0).
  { intros ->. rewrite (lk_region0 _ _ _ K) in OW. discriminate. }
  apply wp_bind. unfold init_metadata_region.
  bnd (wp_st_owner G pb rb g); [reflexivity|].
  bnd (wp_st_pinned G pb rb g); [reflexivity|].
  destruct map_bytes as [MB1 MB2]. rewrite MB1.
  rewrite (region_start_val G pb rb g) by lia.
  pose proof (stripe_high r 0 ltac:(lia)) as SH.
  assert (SB : stripe_start pb rb r 0 + 4096 * g_metadata_region_start G <= W64).
  { assert (stripe_start pb rb r 0 + g_dram_stripe_size G <= W64); [|lia].
    rewrite (geo_size _ _ _ g). unfold stripe_start. rewrite N.mul_0_l, N.add_0_l.
    assert ((r + 1) * 2 ^ (12 + pb) <= 2 ^ rb * 2 ^ (12 + pb)).
    { apply N.mul_le_mono_r. rewrite (n_val G pb rb g) in V. lia. }
    rewrite <- pow2_add in H.
    pose proof (p60 (rb + (12 + pb))). pose proof (geo_pb _ _ _ g). pose proof (geo_rb _ _ _ g).
    unfold W64. lia. }
  apply wp_bzero; auto.
  - lia.
  - intros b B. apply rest_high. lia.
  - intros m Z F. cbn [o_rest with_pinned with_owner with_lock] in F.
    bnd (wp_clr G pb rb g). apply wp_ret.
    split; [|intros _; split; cbn; auto].
    split; [reflexivity|]. split; [|intros X; exfalso; apply X; reflexivity].
    cbn [snd].
    pose proof (free_lock G o M r K V T) as LR. destruct K.
    constructor; cbn -[N.add N.mul N.modulo W64]; intros; auto.
    + unfold upd. destruct (N.eqb_spec r0 r) as [->|]; [|apply lk_lock; auto].
      unfold taken in *. cbn in *. rewrite T. reflexivity.
    + unfold upd. destruct (r0 =? r); auto.
    + unfold upd. destruct (r0 =? r); auto.
    + unfold upd. destruct (N.eqb_spec r0 r) as [->|]; auto.
      rewrite lk_bit, OW by auto. reflexivity.
    + rewrite upd_other by auto. auto.
Qed.
End Calls3.
