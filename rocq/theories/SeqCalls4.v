(** * The enclave and metadata calls (sequential execution). *)
From Coq Require Import NArith ZArith Lia Bool List.
From Coq Require Import ZifyBool ZifyNat ZifyN.
From Verif Require Import Word Machine ModelBare ModelHash ModelInl ModelRegions
  ModelMetadata ModelEnclave ModelBoot ModelApi Lib BareProofs SpecGeometry
  GeomProofs SpecMonitor ViewProofs SeqProofs SeqCalls SeqCalls2 SeqCalls3.
Import ListNotations.
Open Scope N_scope.
Ltac Zify.zify_post_hook ::= Z.div_mod_to_equations.

Section Calls4.
Variables (G : globals) (pb rb : N).
Hypothesis g : geom G pb rb.
Local Notation n := (g_dram_region_count G).

(** ** The address of a page's entry in the metadata map *)
Definition map_skew (id : N) : N :=
  (id / 2 ^ (12 + pb + rb) * 2 ^ (67 - rb)) mod W64.

Lemma map_skew_bound id : id < W64 -> map_skew id + 2 ^ (12 + pb + rb) <= W64.
Proof.
  intros H. pose proof (geo_pb _ _ _ g). pose proof (geo_rb _ _ _ g).
  unfold map_skew. set (z := id / 2 ^ (12 + pb + rb)).
  assert (Z : z < 2 ^ (52 - pb - rb)).
  { unfold z. apply N.div_lt_upper_bound; [apply pow2_nz|]. rewrite <- pow2_add.
    replace (12 + pb + rb + (52 - pb - rb)) with 64 by lia. exact H. }
  pose proof (p60 (12 + pb + rb) ltac:(lia)) as P60.
  destruct (N.lt_ge_cases rb 3) as [L|L].
  - replace (2 ^ (67 - rb)) with (2 ^ (3 - rb) * W64).
    2:{ rewrite W64_pow, <- pow2_add. f_equal. lia. }
    rewrite N.mul_assoc, N.mod_mul by discriminate. unfold W64 in *. lia.
  - destruct (N.le_gt_cases (12 + pb + rb) (67 - rb)) as [C|C].
    + assert (E : W64 = 2 ^ (rb - 3) * 2 ^ (67 - rb)).
      { rewrite W64_pow, <- pow2_add. f_equal. lia. }
      rewrite E at 1. rewrite N.mul_mod_distr_r by apply pow2_nz.
      pose proof (N.mod_lt z (2 ^ (rb - 3)) (pow2_nz _)) as ML.
      pose proof (pow2_le _ _ C) as PC. rewrite E.
      set (u := z mod 2 ^ (rb - 3)) in *. set (p := 2 ^ (rb - 3)) in *.
      set (q := 2 ^ (67 - rb)) in *. set (w := 2 ^ (12 + pb + rb)) in *.
      clearbody u p q w. clear - ML PC. nia.
    + assert (B : z * 2 ^ (67 - rb) <= 2 ^ 63).
      { apply N.le_trans with (2 ^ (52 - pb - rb) * 2 ^ (67 - rb)).
        - apply N.mul_le_mono_r. lia.
        - rewrite <- pow2_add. apply pow2_le. lia. }
      rewrite N.mod_small by (change (2 ^ 63) with 9223372036854775808 in B; unfold W64; lia).
      change (2 ^ 63) with 9223372036854775808 in B. unfold W64. lia.
Qed.
(** On all but very large machines the displacement is a whole number of rounds of stripes. *)
Lemma map_skew_round id : id < 2 ^ (12 + pb + rb) \/ pb + 2 * rb <= 55 ->
  exists q, map_skew id = q * 2 ^ (12 + pb + rb).
Proof.
  intros [H|H]; unfold map_skew.
  - exists 0. rewrite N.div_small by exact H. reflexivity.
  - pose proof (geo_pb _ _ _ g). pose proof (geo_rb _ _ _ g).
    exists ((id / 2 ^ (12 + pb + rb) * 2 ^ (55 - pb - 2 * rb)) mod 2 ^ (52 - pb - rb)).
    replace (67 - rb) with ((55 - pb - 2 * rb) + (12 + pb + rb)) by lia.
    rewrite (pow2_add (55 - pb - 2 * rb)), N.mul_assoc.
    change W64 with (2 ^ 64).
    replace (2 ^ 64) with (2 ^ (52 - pb - rb) * 2 ^ (12 + pb + rb)) by (rewrite <- pow2_add; f_equal; lia).
    apply N.mul_mod_distr_r; apply pow2_nz.
Qed.
Lemma map_skew_first id : id < 2 ^ (12 + pb + rb) -> map_skew id = 0.
Proof.
  intros H. unfold map_skew. rewrite N.div_small by auto. reflexivity.
Qed.

Lemma page_for_val id : wmul 8 (dram_region_page_for_val G id) =
  (8 * ((id / 4096) mod 2 ^ pb) + id / 2 ^ (12 + pb + rb) * 2 ^ (67 - rb)) mod W64.
Proof.
  pose proof (geo_pb _ _ _ g). pose proof (geo_rb _ _ _ g).
  unfold dram_region_page_for_val, page_for_shift.
  rewrite (stripe_page_for_spec G pb rb g), (stripe_for_spec G pb rb g).
  rewrite (geo_rs _ _ _ g), (geo_ss _ _ _ g).
  set (z := id / 2 ^ (12 + pb + rb)). set (p := (id / 4096) mod 2 ^ pb).
  assert (PB : p < 2 ^ pb) by (apply N.mod_lt, pow2_nz).
  assert (E : wsub (12 + pb) (12 + pb + rb) mod 64 = 64 - rb).
  { unfold wsub. rewrite (N.mod_small (12 + pb + rb)) by (unfold W64; lia).
    replace (12 + pb + (W64 - (12 + pb + rb))) with (W64 - rb) by (unfold W64; lia).
    rewrite (N.mod_small (W64 - rb)) by (unfold W64; lia).
    replace (W64 - rb) with (64 - rb + 288230376151711743 * 64) by (unfold W64; lia).
    rewrite N.mod_add by discriminate. apply N.mod_small. lia. }
  unfold wshl. rewrite E, shiftl_mul.
  assert (EW : W64 = 2 ^ rb * 2 ^ (64 - rb)).
  { rewrite W64_pow, <- pow2_add. f_equal. lia. }
  rewrite EW at 1. rewrite N.mul_mod_distr_r by apply pow2_nz.
  rewrite N.lor_comm, lor_add_mul.
  2:{ eapply N.lt_le_trans; [exact PB|]. apply pow2_le. lia. }
  unfold wmul.
  replace (8 * (z mod 2 ^ rb * 2 ^ (64 - rb) + p))
    with (8 * p + 8 * (z mod 2 ^ rb * 2 ^ (64 - rb))) by lia.
  rewrite <- (N.mul_mod_distr_r z (2 ^ rb)) by apply pow2_nz. rewrite <- EW.
  replace (z * 2 ^ (67 - rb)) with (8 * (z * 2 ^ (64 - rb))).
  2:{ replace (67 - rb) with (3 + (64 - rb)) by lia. rewrite pow2_add.
      change (2 ^ 3) with 8. lia. }
  set (y := z * 2 ^ (64 - rb)). clearbody y p. clear.
  rewrite <- N.add_mod_idemp_r by discriminate.
  rewrite N.mul_mod_idemp_r by discriminate.
  rewrite N.add_mod_idemp_r by discriminate. reflexivity.
Qed.

Lemma map_entry_val id : id < W64 ->
  metadata_page_info_for_val G id =
    region_of pb rb id * 2 ^ (12 + pb) + 8 * ((id / 4096) mod 2 ^ pb) + map_skew id.
Proof.
  intros H. unfold metadata_page_info_for_val. rewrite (geo_rm _ _ _ g), land_block.
  change (id / 2 ^ (12 + pb) mod 2 ^ rb) with (region_of pb rb id).
  rewrite page_for_val. pose proof (map_skew_bound id H) as KB.
  pose proof (region_of_lt pb rb id) as RL.
  assert (PL : (id / 4096) mod 2 ^ pb < 2 ^ pb) by (apply N.mod_lt, pow2_nz).
  rewrite <- (N.add_mod_idemp_r (8 * _)) by discriminate.
  change ((id / 2 ^ (12 + pb + rb) * 2 ^ (67 - rb)) mod W64) with (map_skew id).
  set (p := (id / 4096) mod 2 ^ pb) in *. set (r := region_of pb rb id) in *.
  set (K := map_skew id) in *.
  assert (S12 : 2 ^ (12 + pb) = 4096 * 2 ^ pb) by (rewrite pow2_add; reflexivity).
  assert (SR : 2 ^ (12 + pb + rb) = 4096 * 2 ^ pb * 2 ^ rb) by (rewrite !pow2_add; reflexivity).
  rewrite SR in KB. rewrite S12.
  assert (M : r * (4096 * 2 ^ pb) + 4096 * 2 ^ pb <= 4096 * 2 ^ pb * 2 ^ rb).
  { set (a := 4096 * 2 ^ pb). clearbody a r. clear - RL. nia. }
  assert (1 <= 2 ^ pb) by (pose proof (pow2_pos pb); lia).
  unfold wadd. rewrite (N.mod_small (8 * p + K)) by lia.
  rewrite N.mod_small by lia. lia.
Qed.

(** The entries of [count] pages from [id] lie in [lo, lo + stripe) for some
    [lo] above the monitor, when [id] is not in region 0. *)
Lemma map_entries_high id count i : id < W64 -> region_of pb rb id <> 0 ->
  (id / 4096) mod 2 ^ pb + count <= 2 ^ pb -> i < count \/ i = 0 ->
  g_monitor_top G <= metadata_page_info_for_val G id /\
  metadata_page_info_for_val G id + 8 * i + 8 <= W64.
Proof.
  intros H R C I. rewrite map_entry_val by auto.
  pose proof (map_skew_bound id H) as KB.
  pose proof (region_of_lt pb rb id) as RL. pose proof (geo_fits _ _ _ g) as GF.
  assert (PL : (id / 4096) mod 2 ^ pb < 2 ^ pb) by (apply N.mod_lt, pow2_nz).
  set (p := (id / 4096) mod 2 ^ pb) in *. set (r := region_of pb rb id) in *.
  set (K := map_skew id) in *.
  assert (S12 : 2 ^ (12 + pb) = 4096 * 2 ^ pb) by (rewrite pow2_add; reflexivity).
  assert (SR : 2 ^ (12 + pb + rb) = 4096 * 2 ^ pb * 2 ^ rb) by (rewrite !pow2_add; reflexivity).
  rewrite SR in KB. rewrite S12 in *.
  assert (M : r * (4096 * 2 ^ pb) + 4096 * 2 ^ pb <= 4096 * 2 ^ pb * 2 ^ rb).
  { set (a := 4096 * 2 ^ pb). clearbody a r. clear - RL. nia. }
  assert (M1 : 1 * (4096 * 2 ^ pb) <= r * (4096 * 2 ^ pb)) by (apply N.mul_le_mono_r; lia).
  assert (1 <= 2 ^ pb) by (pose proof (pow2_pos pb); lia).
  lia.
Qed.

(** ** Calls refused because no identifier but 0 is valid *)
Lemma wp_bad_id c o M e (Q : bool -> ost -> Prop) :
  (forall r, r < n -> o_owner o r = owner_code (m_owner M r)) ->
  m_owner M 0 = OS ->
  Q true o -> wp G c (bad_enclave_id G e) o Q.
Proof.
  intros KO K0 H. unfold bad_enclave_id. change null_enclave_id with 0.
  destruct (N.eqb_spec e 0) as [->|E]; [apply wp_ret; exact H|].
  apply wp_bind. apply (wp_valid_id G pb rb g c o M); auto.
  destruct (N.eqb_spec e 0); [contradiction|]. apply wp_ret. exact H.
Qed.

Lemma clamped_guard c e (p : prog N) o M : like G o M ->
  wp G c (t <- test_and_set_dram_region_lock G (clamped_dram_region_for G e) ;;
          if (t : bool) then Ret monitor_concurrent_call
          else
          bad <- bad_enclave_id G e ;;
          if (bad : bool) then
            clear_dram_region_lock G (clamped_dram_region_for G e) ;;
            Ret monitor_invalid_value
          else p) o
    (quiet o (if taken M (clamped_dram_region_for G e) then concurrent_call
              else invalid_value)).
Proof.
  intros K. set (r := clamped_dram_region_for G e).
  assert (R : r < n) by apply (clamped_lt G pb rb g).
  apply wp_bind. apply (wp_tas_taken G pb rb g c r o M); auto.
  destruct (taken M r) eqn:T.
  { apply wp_ret. split; [reflexivity|]. apply (oeq_taken G o M); auto. }
  apply wp_bind. apply (wp_bad_id c _ M).
  { intros. cbn. apply (lk_owner _ _ _ K); auto. }
  { apply (lk_region0 _ _ _ K). }
  bnd (wp_clr G pb rb g). apply wp_ret. split; [reflexivity|].
  apply (oeq_released G o M); auto.
Qed.

Definition refused (o : ost) (v : N) (o' : ost) : Prop := v <> ok /\ oeq o o'.
Lemma refused_now c v o : v <> ok -> wp G c (Ret v) o (refused o).
Proof. intros H. apply wp_ret. split; [exact H|apply oeq_refl]. Qed.
Lemma guard_refused c e (p : prog N) o M : like G o M ->
  wp G c (t <- test_and_set_dram_region_lock G (clamped_dram_region_for G e) ;;
          if (t : bool) then Ret monitor_concurrent_call
          else
          bad <- bad_enclave_id G e ;;
          if (bad : bool) then
            clear_dram_region_lock G (clamped_dram_region_for G e) ;;
            Ret monitor_invalid_value
          else p) o (refused o).
Proof.
  intros K. eapply wp_weaken; [|apply (clamped_guard c e p o M K)].
  intros v o' [-> E]. split; auto. destruct (taken M _); discriminate.
Qed.

Lemma load_page_table_seq c pa e p va l acl o M : like G o M ->
  wp G c (load_page_table G pa e p va l acl) o (refused o).
Proof.
  intros K. unfold load_page_table.
  destruct (is_dram_address G p); cbn [negb]; [|apply refused_now; discriminate].
  destruct (is_page_aligned p); cbn [negb]; [|apply refused_now; discriminate].
  destruct (_ <=? l); [apply refused_now; discriminate|].
  apply (guard_refused c e _ o M K).
Qed.
Lemma load_page_seq c e p va oa acl o M : like G o M ->
  wp G c (load_page G e p va oa acl) o (refused o).
Proof.
  intros K. unfold load_page.
  destruct (is_dram_address G p), (is_dram_address G oa); cbn [negb orb];
    try (apply refused_now; discriminate).
  destruct (is_page_aligned p), (is_page_aligned oa); cbn [negb orb];
    try (apply refused_now; discriminate).
  apply (guard_refused c e _ o M K).
Qed.
Lemma init_enclave_seq c e o M : like G o M -> wp G c (init_enclave G e) o (refused o).
Proof. intros K. apply (guard_refused c e _ o M K). Qed.
Lemma enter_enclave_seq c e t o M : like G o M -> wp G c (enter_enclave G e t) o (refused o).
Proof. intros K. apply (guard_refused c e _ o M K). Qed.
Lemma delete_enclave_seq c e o M : like G o M -> wp G c (delete_enclave G e) o (refused o).
Proof. intros K. apply (guard_refused c e _ o M K). Qed.

Lemma exit_enclave_seq c o : wp G c (exit_enclave G) o (fun v o' => v = ok /\ oeq o o').
Proof.
  unfold exit_enclave, current_core_info. apply wp_bind. apply wp_bind, wp_core.
  apply wp_ret. apply wp_bind, wp_load_any. intros _ _. apply wp_bind, wp_load_any. intros _ _.
  apply wp_bind, wp_load_any. intros _ _. apply wp_ret. split; [reflexivity|apply oeq_refl].
Qed.

(** ** create_thread, delete_thread: made by the OS they lock region 0 *)
Lemma like_stick o M : like G o M -> m_stuck M = false ->
  like G (with_lock o 0 1) (m_stick M).
Proof.
  intros K ST. destruct K. constructor; cbn -[N.add N.mul N.modulo W64]; intros; auto.
  unfold upd, taken in *. cbn. rewrite andb_true_r.
  destruct (N.eqb_spec r 0) as [->|]; [reflexivity|].
  rewrite lk_lock by auto. rewrite ST, andb_false_r. reflexivity.
Qed.

Definition stick_table (M : mstate) : N * mstate :=
  if m_stuck M then (concurrent_call, M) else (ok, m_stick M).

Lemma delete_thread_seq c t o M : like G o M -> c < g_core_count G ->
  wp G c (delete_thread G t) o (outcome G o (stick_table M)).
Proof.
  intros K C. unfold delete_thread, stick_table.
  bnd (wp_current G pb rb g). rewrite (lk_encl _ _ _ K c C), (region_for_0 G pb rb g).
  pose proof (N0 G pb rb g) as NP.
  apply wp_bind. apply (wp_tas_taken G pb rb g c 0 o M); auto.
  change (taken M 0) with (m_stuck M).
  destruct (m_stuck M) eqn:ST.
  - apply wp_ret. apply outcome_same; auto. apply (oeq_taken G o M); auto.
  - apply wp_ret. split; [reflexivity|]. split; [|split; [intros X; exfalso; apply X; reflexivity|intros b; reflexivity]].
    apply like_stick; auto.
Qed.

Lemma create_thread_seq c t p o M : like G o M -> c < g_core_count G -> p < W64 ->
  g_dram_size G + g_dram_stripe_size G <= W64 ->
  wp G c (create_thread G t p) o (fun v o' =>
    outcome G o (stick_table M) v o' \/ (v <> ok /\ oeq o o')).
Proof.
  intros K C HP HD. unfold create_thread, stick_table.
  destruct (is_page_aligned p) eqn:PA; cbn [negb];
    [|apply wp_ret; right; split; [discriminate|apply oeq_refl]].
  destruct (is_dram_address G p) eqn:PD; cbn [negb];
    [|apply wp_ret; right; split; [discriminate|apply oeq_refl]].
  destruct (is_dram_address G (wsub _ 1)) eqn:PE; cbn [negb];
    [|apply wp_ret; right; split; [discriminate|apply oeq_refl]].
  bnd (wp_current G pb rb g). rewrite (lk_encl _ _ _ K c C), (region_for_0 G pb rb g).
  pose proof (N0 G pb rb g) as NP.
  apply wp_bind. apply (wp_tas_taken G pb rb g c 0 o M); auto.
  change (taken M 0) with (m_stuck M).
  destruct (m_stuck M) eqn:ST.
  { apply wp_ret. left. apply outcome_same; auto. apply (oeq_taken G o M); auto. }
  unfold read_bitmap_bit. apply wp_bind, wp_bind, wp_load_any. intros w _. apply wp_ret.
  destruct (N.land w _ =? 0); cbn [negb].
  { bnd (wp_clr G pb rb g). apply wp_ret. right. split; [discriminate|].
    apply (oeq_released G o M); auto. }
  apply wp_bind.
  assert (P4 : p + 4096 <= W64).
  { apply page_aligned_iff in PA. unfold W64 in *. lia. }
  change thread_metadata_size with 552.
  cbn [thread_pages]. rewrite (wadd_small p 552) by (unfold W64 in *; lia).
  destruct (N.ltb_spec p (p + 552)); [|lia].
  rewrite N.eqb_refl. cbn [negb]. rewrite page_size_val.
  assert (NL : (wadd p 4096 <? p + 552) = false).
  { unfold is_dram_address in PD. pose proof (pow2_le 12 (12 + pb) ltac:(lia)) as S12.
    rewrite <- (geo_size _ _ _ g) in S12. change (2 ^ 12) with 4096 in S12.
    rewrite wadd_small by lia. lia. }
  rewrite NL. apply wp_ret. cbv iota. apply wp_ret. left.
  split; [reflexivity|]. split; [|split; [intros X; exfalso; apply X; reflexivity|intros b; reflexivity]].
  apply like_stick; auto.
Qed.
End Calls4.
