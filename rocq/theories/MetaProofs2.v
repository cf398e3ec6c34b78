(** * The metadata map over histories. *)
From Coq Require Import NArith ZArith Lia Bool List.
From Coq Require Import ZifyBool ZifyNat ZifyN.
From Verif Require Import Word Machine ModelBare ModelHash ModelInl ModelRegions
  ModelMetadata ModelEnclave ModelBoot ModelApi Lib BareProofs BootProofs SpecGeometry
  GeomProofs SpecMeasure HashProofs MeasureProofs SpecMonitor SpecHistory SpecMetadata
  ViewProofs SeqProofs SeqCalls SeqCalls2 SeqCalls3 SeqCalls4 SeqCalls5 SeqCalls6
  HistoryProofs HistoryFacts MetaProofs.
Import ListNotations.
Open Scope N_scope.
Ltac Zify.zify_post_hook ::= Z.div_mod_to_equations.

(** A word stays non-zero when a store to another 8-byte aligned word or a store
    of 1 happens. *)
Lemma st_keeps_nonzero m x y : x mod 8 = 0 -> y mod 8 = 0 -> ld 8 m x <> 0 ->
  ld 8 (st 8 m y 1) x <> 0.
Proof.
  intros X Y Z. destruct (N.eq_dec x y) as [->|NE].
  - rewrite ld8_st8 by reflexivity. discriminate.
  - rewrite ld_st_other; [exact Z|]. change (N.of_nat 8) with 8. lia.
Qed.

Section Meta2.
Variables (G : globals) (pb rb : N).
Hypothesis g : geom G pb rb.
Hypothesis HD : g_dram_size G + g_dram_stripe_size G <= W64.
Hypothesis FULL : 2 ^ (12 + pb + rb) <= g_dram_size G.
Local Notation n := (g_dram_region_count G).

Definition slot (r i : N) : N := stripe_start pb rb r 0 + 8 * i.

Lemma slot_val r i : slot r i = r * 2 ^ (12 + pb) + 8 * i.
Proof. unfold slot, stripe_start. lia. Qed.
(** The slot of a page of [r] lies in the first stripe of [r], below the usable
    pages. *)
Lemma slot_low r i : i < 2 ^ pb -> slot r i + 8 <= stripe_start pb rb r 0 + 4096 * g_metadata_region_start G.
Proof. intros I. pose proof (map_size G pb rb g HD FULL). unfold slot. lia. Qed.
Lemma slot_region r i b : r < 2 ^ rb -> i < 2 ^ pb -> slot r i <= b < slot r i + 8 ->
  region_of pb rb b = r /\ b < 2 ^ (12 + pb + rb) /\ r * 2 ^ (12 + pb) <= b < (r + 1) * 2 ^ (12 + pb).
Proof.
  intros R I B. rewrite slot_val in B.
  pose proof (S_split pb) as S. 
  assert (X : r * 2 ^ (12 + pb) <= b < (r + 1) * 2 ^ (12 + pb)).
  { revert B. rewrite S. set (p := 2 ^ pb) in *. clearbody p. clear S g HD FULL.
    rewrite N.mul_add_distr_r. intros. lia. }
  assert (Y : b < 2 ^ (12 + pb + rb)).
  { rewrite (pow2_add (12 + pb) rb). eapply N.lt_le_trans; [apply X|].
    rewrite N.mul_comm. apply N.mul_le_mono_l. lia. }
  split; [|auto]. rewrite first_stripe_region by exact Y.
  symmetry. apply N.div_unique with (b - r * 2 ^ (12 + pb)); [lia|].
  rewrite N.mul_comm. lia.
Qed.
Lemma slot_aligned r i : slot r i mod 8 = 0.
Proof.
  rewrite slot_val. replace (12 + pb) with (3 + (9 + pb)) by lia. rewrite pow2_add.
  change (2 ^ 3) with 8. replace (r * (8 * 2 ^ (9 + pb)) + 8 * i) with ((r * 2 ^ (9 + pb) + i) * 8) by lia.
  apply N.mod_mul. discriminate.
Qed.
Lemma region_apart q r : q < r \/ r < q ->
  (q + 1) * 2 ^ (12 + pb) <= r * 2 ^ (12 + pb) \/ (r + 1) * 2 ^ (12 + pb) <= q * 2 ^ (12 + pb).
Proof. intros [H|H]; [left|right]; apply N.mul_le_mono_r; lia. Qed.

Lemma slot_high r i : r <> 0 -> g_monitor_top G <= slot r i.
Proof.
  intros R. unfold slot. pose proof (stripe_high G pb rb g r 0 ltac:(lia)). lia.
Qed.
(** A byte of a page has the region of the page. *)
Lemma page_region a b : a mod 4096 = 0 -> a <= b < a + 4096 -> region_of pb rb b = region_of pb rb a.
Proof.
  intros A B. unfold region_of. f_equal.
  rewrite S_split. rewrite <- !N.div_div by (try discriminate; apply pow2_nz).
  f_equal. clear -A B. lia.
Qed.

Lemma marked_step s M e v s' r i :
  shows G s M -> estep G pb rb s e v s' -> undisturbed G pb rb r (e, v) ->
  m_owner M r = Metadata -> r < 2 ^ rb -> i < 2 ^ pb -> ld 8 (s_mem s) (slot r i) <> 0 ->
  exists M', shows G s' M' /\ m_owner M' r = Metadata /\ ld 8 (s_mem s') (slot r i) <> 0.
Proof.
  intros K E U OW R I NZ.
  assert (R0 : r <> 0).
  { intros ->. rewrite (sh_region0 _ _ _ K) in OW. discriminate. }
  pose proof (slot_high r i R0) as SH. pose proof (slot_region r i) as SR.
  pose proof (slot_low r i I) as SL. pose proof (slot_aligned r i) as SA.
  set (x := slot r i) in *.
  assert (KEEP : forall m m', (forall b, x <= b < x + 8 -> byte m' b = byte m b) -> ld 8 m x <> 0 -> ld 8 m' x <> 0).
  { intros m m' H Z. rewrite (ld_byte 8 m' m); [exact Z|]. intros b B1 B2.
    change (N.of_nat 8) with 8 in B2. apply H. lia. }
  inversion E as [s1 c k v1 s2 C A S D|s1 c a w C A CA|s1 a w A DA T]; subst.
  2:{ destruct (step_refines G pb rb g HD _ M _ _ _ K E) as [M' [EF K']]. exists M'.
      split; [exact K'|]. cbn in EF. subst M'. split; [exact OW|].
      cbn [s_mem set_mem undisturbed] in *. apply (KEEP (s_mem s)); [|exact NZ].
      intros b B. apply byte_st_out. change (N.of_nat 1) with 1.
      destruct (N.lt_ge_cases b a); auto. destruct (N.lt_ge_cases b (a + 1)); [|auto].
      exfalso. apply U. replace a with b by lia. apply SR; auto. }
  2:{ destruct (step_refines G pb rb g HD _ M _ _ _ K E) as [M' [EF K']]. exists M'.
      split; [exact K'|]. cbn in EF. subst M'. split; [exact OW|].
      cbn [s_mem set_mem undisturbed] in *. apply (KEEP (s_mem s)); [|exact NZ].
      intros b B. apply byte_st_out. change (N.of_nat 1) with 1.
      destruct (N.lt_ge_cases b a); auto. destruct (N.lt_ge_cases b (a + 1)); [|auto].
      exfalso. apply U. replace a with b by lia. apply SR; auto. }
  pose proof (view_of_view G s) as V. set (o := view_of G s) in *.
  pose proof (shows_like G pb rb g s o M V K) as L.
  destruct (call_post G pb rb g HD c k o M L C A S s V) as [s2 [w [o' [RR [V' [M' [EF [L' [F FP]]]]]]]]].
  unfold do_call in D. rewrite D in RR. inversion RR; subst s2 w. clear RR.
  exists M'. split; [apply (shows_of G pb rb g s' o'); auto|].
  assert (OW' : m_owner M' r = Metadata).
  { apply effect_change in EF. destruct EF; cbn [m_owner load_access tick set_owner m_flush m_set_dma m_stick]; auto;
      try (unfold upd; destruct (N.eqb_spec r r0) as [->|]; [congruence|auto]).
  }
  split; [exact OW'|].
  assert (REST : forall b, x <= b < x + 8 -> byte (s_mem s') b = byte (o_rest o') b).
  { intros b B. apply (v_rest _ _ _ V'). apply (rest_high G pb rb g). lia. }
  apply (KEEP (o_rest o')); [exact REST|].
  change (o_rest o) with (s_mem s) in *.
  assert (SAME : rest_same o o' -> ld 8 (o_rest o') x <> 0).
  { intros X. apply (KEEP (s_mem s)); [|exact NZ]. intros b _. apply X. }
  assert (TOUCH : forall id, touched G id o o' -> ld 8 (o_rest o') x <> 0).
  { intros id [X|(T1 & T2 & T3 & T4 & X)].
    - apply SAME. exact (oe_rest _ _ X).
    - apply (KEEP (st 8 (s_mem s) id 1)); [intros b _; apply (oe_rest _ _ X)|].
      apply st_keeps_nonzero; auto. clear -T3. lia. }
  assert (DEC : v = ok \/ v <> ok) by (destruct (N.eq_dec v ok); auto).
  destruct k; cbn [frame_post] in FP; try (apply SAME; exact FP).
  - (* create_metadata_region *)
    destruct DEC as [VO|VO].
    2:{ apply SAME. exact (oe_rest _ _ (F VO)). }
    destruct (FP VO) as [_ F2]. apply (KEEP (s_mem s)); [|exact NZ]. intros b B. apply F2.
    cbn [effect] in EF. apply create_inv in EF as [[X _]|(_ & Q1 & Q2 & _)]; [contradiction|].
    assert (NE : dram_region <> r) by (intros ->; rewrite Q2 in OW; discriminate).
    destruct (map_bytes G pb rb g) as [_ MB]. rewrite (geo_size _ _ _ g) in MB.
    destruct (SR b R I B) as (_ & _ & SR2).
    destruct (region_apart dram_region r ltac:(lia)) as [H|H]; unfold stripe_start.
    + right. rewrite N.mul_add_distr_r in H. lia.
    + left. lia.
  - (* create_enclave *)
    destruct DEC as [VO|VO].
    2:{ apply SAME. exact (oe_rest _ _ (F VO)). }
    subst v. cbn [undisturbed] in U. destruct U as [U1 U2].
    destruct FP as [CC FP]. destruct (FP eq_refl) as [T [MF [m1 (MM & F1 & FR & F2)]]].
    destruct A as (A1 & A2 & A3 & A4).
    assert (PG : page_of pb enclave_id + enclave_info_pages G mailbox_count <= 2 ^ pb).
    { destruct CC as [[_ X]|[_ [_ [[X1 X2]|[X1 [[_ X2]|[X3 _]]]]]]]; try discriminate; auto.
      exfalso. apply X1. auto. }
    pose proof (page_lt pb enclave_id) as PL.
    rewrite (map_val G pb rb g HD) in * by auto. unfold map_entry in *.
    set (q := region_of pb rb enclave_id) in *.
    assert (QL : q < 2 ^ rb) by apply region_of_lt.
    assert (AL : enclave_id mod 4096 = 0).
    { destruct CC as [[_ X]|[_ [_ [[X1 X2]|[X1 _]]]]]; try discriminate.
      - exfalso. apply X1. auto.
      - apply (meta_not0 G pb rb g enclave_id o M L X1). }
    assert (STEP1 : ld 8 m1 x <> 0).
    { set (cnt := enclave_info_pages G mailbox_count) in *.
      set (p0 := page_of pb enclave_id) in *.
      assert (OUT : (x + 8 <= stripe_start pb rb q 0 + 8 * p0 \/
                     stripe_start pb rb q 0 + 8 * p0 + 8 * N.max 1 cnt <= x) \/
                    (q = r /\ p0 <= i < p0 + N.max 1 cnt)).
      { destruct (N.eq_dec q r) as [->|NE].
        - unfold x, slot. lia.
        - left.
          assert (BX : slot q p0 <= slot q p0 < slot q p0 + 8) by lia.
          assert (CX : N.max 1 cnt <= 2 ^ pb - p0) by lia.
          set (p1 := p0 + N.max 1 cnt - 1).
          assert (P1 : p1 < 2 ^ pb) by lia.
          destruct (slot_region q p0 (slot q p0) QL PL) as (_ & _ & B1); [lia|].
          destruct (slot_region q p1 (slot q p1 + 7) QL P1) as (_ & _ & B2); [lia|].
          destruct (slot_region r i x R I) as (_ & _ & B3); [unfold x; lia|].
          destruct (slot_region r i (x + 7) R I) as (_ & _ & B4); [unfold x; lia|].
          assert (E1 : slot q p1 + 8 = stripe_start pb rb q 0 + 8 * p0 + 8 * N.max 1 cnt)
            by (unfold slot, p1; lia).
          assert (E0 : slot q p0 = stripe_start pb rb q 0 + 8 * p0) by reflexivity.
          destruct (region_apart q r ltac:(lia)) as [H|H]; lia. }
      destruct OUT as [OUT|[-> IN]].
      - apply (KEEP (s_mem s)); [|exact NZ]. intros b B. apply F1. lia.
      - destruct MM as [M1 M2]. destruct (N.le_gt_cases cnt 1) as [LC|LC].
        + assert (XE : x = stripe_start pb rb r 0 + 8 * p0) by (unfold x, slot; lia).
          rewrite XE, (M1 LC). unfold metadata_page_info. intros Z. apply N.lor_eq_0_iff in Z.
          destruct Z as [_ Z]. discriminate Z.
        + exfalso. apply NZ. replace x with (stripe_start pb rb r 0 + 8 * p0 + 8 * (i - p0))
            by (unfold x, slot; lia). apply MF. lia. }
    apply (KEEP m1); [|exact STEP1]. intros b B. apply F2.
    pose proof (first_stripe_addr G pb rb HD enclave_id U1 AL) as IDE. fold q in IDE.
    unfold usable in U2.
    destruct (N.eq_dec q r) as [->|NE].
    + left. lia.
    + assert (PX : 4096 * page_of pb enclave_id + 4096 <= 2 ^ (12 + pb)).
      { rewrite S_split. lia. }
      destruct (SR b R I B) as (_ & _ & B1).
      destruct (region_apart q r ltac:(lia)) as [H|H]; unfold stripe_start in IDE;
        rewrite ?N.mul_add_distr_r in *; lia.
  - (* load_thread *) apply (TOUCH enclave_id). apply F. apply EF.
  - (* assign_thread *) apply (TOUCH enclave_id). apply F. apply EF.
  - (* copy_debug_enclave_page *)
    destruct DEC as [VO|VO].
    2:{ apply SAME. exact (oe_rest _ _ (F VO)). }
    destruct (FP VO) as (_ & T & X1 & X2 & X3 & X4 & X5 & X6).
    apply (KEEP (s_mem s)); [|exact NZ]. intros b B. apply X6.
    destruct (SR b R I B) as (B1 & _ & _).
    destruct read_from_enclave.
    + destruct (N.lt_ge_cases b os_addr); auto.
      destruct (N.lt_ge_cases b (os_addr + 4096)); auto. exfalso.
      rewrite (page_region os_addr b X5) in B1 by lia. rewrite B1, OW in X2. discriminate.
    + destruct (N.lt_ge_cases b enclave_addr); auto.
      destruct (N.lt_ge_cases b (enclave_addr + 4096)); auto. exfalso.
      rewrite (page_region enclave_addr b X4) in B1 by lia. rewrite B1, OW in X3. discriminate.
  - (* accept_thread *) destruct U.
Qed.

Lemma marked_history s M h s' r i :
  shows G s M -> history G pb rb s h s' -> Forall (undisturbed G pb rb r) h ->
  m_owner M r = Metadata -> r < 2 ^ rb -> i < 2 ^ pb -> ld 8 (s_mem s) (slot r i) <> 0 ->
  exists M', shows G s' M' /\ m_owner M' r = Metadata /\ ld 8 (s_mem s') (slot r i) <> 0.
Proof.
  intros K H. induction H as [|h s1 e v s2 H IH E]; intros F OW R I NZ.
  - eauto.
  - apply Forall_app in F as [F1 F2]. inversion F2; subst.
    destruct (IH F1 OW R I NZ) as [M1 [K1 [OW1 NZ1]]].
    apply (marked_step s1 M1 e v s2); auto.
Qed.
End Meta2.
