(** * Explicit bounds on the number of operations of each call. *)
From Coq Require Import NArith ZArith Lia Bool List.
From Coq Require Import ZifyBool ZifyNat ZifyN.
From Verif Require Import Word Machine ModelBare ModelHash ModelInl ModelRegions
  ModelMetadata ModelEnclave ModelBoot ModelApi Lib BareProofs SpecGeometry
  GeomProofs Trace SpecMonitor SpecHistory ViewProofs SeqProofs SeqCalls SeqCalls2 SeqCalls3 SeqCalls4 SeqCalls5
  SpecCost ConcBound.
Import ListNotations.
Open Scope N_scope.
Ltac Zify.zify_post_hook ::= Z.div_mod_to_equations.

Lemma m_if {A} (b : bool) (p q : prog A) m1 m2 Q :
  within p m1 Q -> within q m2 Q -> within (if b then p else q) (N.max m1 m2) Q.
Proof.
  intros H1 H2. destruct b; [apply (within_le _ m1)|apply (within_le _ m2)]; auto; lia.
Qed.
Lemma m_opt {A R} (x : option R) (p : R -> prog A) (q : prog A) m1 m2 Q :
  (forall r, within (p r) m1 Q) -> within q m2 Q ->
  within (match x with Some r => p r | None => q end) (N.max m1 m2) Q.
Proof.
  intros H1 H2. destruct x; [apply (within_le _ m1)|apply (within_le _ m2)]; auto; lia.
Qed.
Ltac ap L := first [apply L | eapply L; eassumption].
Section Cost.
Variables (G : globals) (pb rb : N).
Hypothesis g : geom G pb rb.
Local Notation n := (g_dram_region_count G).
Lemma m_setbit a b v : within (set_bitmap_bit a b v) 2 any.
Proof.
  apply (within_le _ (1 + (1 + 0))); [lia|]. unfold set_bitmap_bit. wi1; [wi|]. wi1; [|wi].
  destruct v; apply within_op.
Qed.
Lemma m_setenc a b v : within (set_enclave_region_bitmap_bit G a b v) 2 any.
Proof. apply (within_le _ (N.max 2 2)); [lia|]. apply m_if; apply m_setbit. Qed.
Lemma m_readenc a b : within (read_enclave_region_bitmap_bit G a b) 1 any.
Proof. apply (within_le _ (N.max 1 1)); [lia|]. apply m_if; ap w_readbit. Qed.

Ltac mi :=
  lazymatch goal with
  | |- within (bind _ _) _ _ => eapply (within_bind _ _ _ _ any); [|intros ? _]
  | |- within (Ret _) _ any => apply within_ret
  | |- within (op1 _) _ _ => apply within_op
  | |- within (match ?x with (_, _) => _ end) _ _ => destruct x
  | |- within (match ?x with Some _ => _ | None => _ end) _ _ => eapply m_opt; [intros ?|]
  | |- within (if _ then _ else _) _ _ => eapply m_if
  | |- within (let _ := _ in _) _ _ => cbv zeta
  | |- within (load64 _) _ _ => apply within_op
  | |- within (store64 _ _) _ _ => apply within_op
  | |- within (load32 _) _ _ => apply within_op
  | |- within (store32 _ _) _ _ => apply within_op
  | |- within (test_and_set_dram_region_lock _ _) _ _ => ap (w_tas)
  | |- within (clear_dram_region_lock _ _) _ _ => ap (w_clr)
  | |- within (read_dram_region_owner _ _) _ _ => ap (w_owner)
  | |- within (current_enclave _) _ _ => ap (w_cur)
  | |- within (set_bitmap_bit _ _ _) _ _ => ap (m_setbit)
  | |- within (read_bitmap_bit _ _) _ _ => ap (w_readbit)
  | |- within (set_enclave_region_bitmap_bit _ _ _ _) _ _ => ap (m_setenc)
  | |- within (read_enclave_region_bitmap_bit _ _ _) _ _ => ap (m_readenc)
  | |- within (is_valid_enclave_id _ _) _ _ => ap (w_valid)
  | |- within (bad_enclave_id _ _) _ _ => ap (w_bad)
  | |- within (is_enclave_virtual_address _ _) _ _ => ap (w_virt)
  | |- within (unlock_enclave _) _ _ => ap (w_unlock)
  | |- within (ub_if _ _) _ _ => ap (w_ub)
  end.
Ltac ms := repeat mi.


Ltac go := eapply within_le; [|ms].
Ltac v := vm_compute; discriminate.
Lemma c_block r : within (block_dram_region G r) 17 any.
Proof. unfold block_dram_region, dma_check. go. v. Qed.
Lemma c_check r : within (dram_region_check_ownership G r) 5 any.
Proof. unfold dram_region_check_ownership. go. v. Qed.
Lemma c_state r : within (dram_region_state G r) 3 any.
Proof. unfold dram_region_state. go. v. Qed.
Lemma c_owner r : within (dram_region_owner G r) 3 any.
Proof. unfold dram_region_owner. go. v. Qed.
Lemma c_assign r o : within (assign_dram_region G r o) 10 any.
Proof. unfold assign_dram_region. go. v. Qed.

Lemma c_free r : within (free_dram_region G r) (5 + g_core_count G) any.
Proof.
  unfold free_dram_region, stale_core. go; [|eapply (within_exit (bound := g_core_count G)); [lia|]; intros; ms].
  lia.
Qed.
Lemma c_flush : within (flush_cached_dram_regions G) 4 any.
Proof. unfold flush_cached_dram_regions, dram_region_tlb_flush. go. v. Qed.
Lemma c_create_metadata r : within (create_metadata_region G r) (5 + 512 * g_metadata_region_start G) any.
Proof.
  unfold create_metadata_region, init_metadata_region. go; [|eapply w_bzero; try eassumption; apply N.le_refl].
  assert (B : wshl (g_metadata_region_start G) page_shift <= g_metadata_region_start G * 2 ^ 12).
  { unfold wshl. rewrite N.shiftl_mul_pow2. apply N.mod_le. discriminate. }
  change (2 ^ 12) with 4096 in B. lia.
Qed.
Lemma c_load_page_table a b c d e : within (load_page_table G test_arch a b c d e) 7 any.
Proof. unfold load_page_table. go. v. Qed.
Lemma c_load_page a b c d e : within (load_page G a b c d e) 7 any.
Proof. unfold load_page. go. v. Qed.
Lemma c_enter a b : within (enter_enclave G a b) 4 any.
Proof. unfold enter_enclave. go. v. Qed.
Lemma c_copy a b c d : within (copy_debug_enclave_page G a b c d) 1032 any.
Proof. unfold copy_debug_enclave_page. go; try (eapply w_bcopy; try eassumption; apply N.le_refl). v. Qed.
Lemma c_exit : within (exit_enclave G) 4 any.
Proof. unfold exit_enclave, current_core_info. go. v. Qed.
Lemma c_delete_thread t : within (delete_thread G t) 3 any.
Proof. unfold delete_thread. go. v. Qed.
Lemma c_create_thread t a : a < W64 -> within (create_thread G t a) 5 any.
Proof.
  intros A. unfold create_thread.
  destruct (is_page_aligned a) eqn:PA; [|exact I].
  destruct (is_dram_address G a) eqn:DA; [|exact I]. cbn [negb].
  destruct (is_dram_address G (wsub (wadd a thread_metadata_size) 1)) eqn:DE; [|exact I]. cbn [negb].
  eapply within_le; [|ms; eapply w_thread_pages; try eassumption].
  - v.
  - apply page_aligned_iff; auto.
  - unfold is_dram_address in DA. lia.
Qed.

Definition round_cost (k i : N) : N := 5 * k - 3 * N.min k (16 - i).
Lemma c_sched w b i : within (sha_schedule w b i) (if i <? 16 then 2 else 5) any.
Proof. unfold sha_schedule. destruct (i <? 16); go; v. Qed.
Lemma c_rounds w b : forall k i v, within (sha_rounds k w b i v) (round_cost (N.of_nat k) i) any.
Proof.
  induction k as [|k IH]; intros i v; cbn [sha_rounds]; [exact I|].
  eapply within_le; [|eapply (within_bind _ _ _ _ any); [apply c_sched|intros a _; apply IH]].
  unfold round_cost. rewrite Nat2N.inj_succ. destruct (i <? 16) eqn:E; lia.
Qed.
Lemma c_extend s b : within (extend_hash s b) 298 any.
Proof. unfold extend_hash, hash_add. go; [|apply c_rounds]. v. Qed.
Lemma c_hash0 a : within (init_hash a) 17 any.
Proof. unfold init_hash. go; [|eapply w_bzero; try eassumption; apply N.le_refl]. v. Qed.
Lemma c_init_info a b c d e : within (init_enclave_info a b c d e) 342 any.
Proof.
  unfold init_enclave_info, init_enclave_hash, extend_enclave_block. go;
    try lazymatch goal with
    | |- within (extend_hash _ _) _ _ => apply c_extend
    | |- within (init_hash _) _ _ => apply c_hash0
    | |- _ => eapply w_bzero; try eassumption; apply N.le_refl end. v.
Qed.
Lemma c_thread_hash a b c d e : within (extend_enclave_hash_with_thread a b c d e) 307 any.
Proof. unfold extend_enclave_hash_with_thread, extend_enclave_block. go; [|apply c_extend]. v. Qed.
Lemma c_init a : within (init_enclave G a) 602 any.
Proof.
  unfold init_enclave, finalize_enclave_hash, finalize_hash, extend_enclave_block. go; lazymatch goal with |- within (extend_hash _ _) _ _ => apply c_extend | |- _ => idtac end. v.
Qed.
Lemma c_assign_pages a c o t f : c <= 2 ^ 60 ->
  within (assign_metadata_pages G a c o t f) (2 + N.min c (2 ^ pb) + (N.min c (2 ^ pb) - 1)) any.
Proof.
  intros H. unfold assign_metadata_pages, metadata_page_info_for, dram_region_page_for.
  destruct (_ <? _) eqn:E; [exact I|].
  assert (C : c <= 2 ^ pb).
  { rewrite (geo_pages _ _ _ g) in E. pose proof (geo_pb _ _ _ g).
    pose proof (pow2_le pb 60 ltac:(lia)).
    assert (X : dram_stripe_page_for G a < 2 ^ pb).
    { rewrite (stripe_page_for_spec _ _ _ g). apply N.mod_lt, N.pow_nonzero. discriminate. }
    unfold wadd in E. change (2 ^ 60) with 1152921504606846976 in *.
    rewrite N.mod_small in E by (unfold W64; lia). lia. }
  rewrite (N.min_l c) by exact C. go; cycle 1.
  - eapply (within_exit (bound := c)); [lia|]. intros. ms.
  - eapply (within_for (bound := c - 1)); [lia|]. intros. ms.
  - lia.
Qed.
Lemma c_lock_meta a : within (lock_metadata_region_for G a) 3 any.
Proof. unfold lock_metadata_region_for. go. v. Qed.
Lemma c_lock_enclave a : within (lock_enclave G a) 7 any.
Proof.
  unfold lock_enclave, metadata_page_info_for, dram_region_page_for. go; [|apply c_lock_meta]. v.
Qed.
Lemma c_assign_one a o t f : within (assign_metadata_pages G a thread_metadata_pages o t f) 3 any.
Proof.
  change thread_metadata_pages with 1. eapply within_le; [|apply c_assign_pages; discriminate]. lia.
Qed.
Lemma c_create_enclave a b c d e : within (create_enclave G a b c d e) (348 + 2 * 2 ^ pb) any.
Proof.
  unfold create_enclave, reserve_metadata_pages.
  go; [|apply c_lock_meta|apply c_assign_pages, (info_pages_small G)|apply c_init_info].
  pose proof (pow2_pos pb). lia.
Qed.
Ltac cc := lazymatch goal with
    | |- within (lock_metadata_region_for _ _) _ _ => apply c_lock_meta
    | |- within (assign_metadata_pages _ _ _ _ _ _) _ _ => apply c_assign_one
    | |- within (lock_enclave _ _) _ _ => apply c_lock_enclave
    | |- within (extend_enclave_hash_with_thread _ _ _ _ _) _ _ => apply c_thread_hash
    | |- _ => idtac
    end.
Lemma c_assign_thread a b : within (assign_thread G a b) 18 any.
Proof. unfold assign_thread, reserve_metadata_pages. go; cc. v. Qed.
Lemma c_load_thread a b c d e f : within (load_thread G a b c d e f) 333 any.
Proof. unfold load_thread, reserve_metadata_pages. go; cc. v. Qed.
Lemma c_accept_thread a b : within (accept_thread G a b) 21 any.
Proof. unfold accept_thread, accept_metadata_pages. go; cc. v. Qed.

(** [ceil a b] stripes of size [b] cover [a]. *)
Definition ceil (a b : N) : N := (a + b - 1) / b.
Lemma ceil_step a b : 0 < b -> b < a -> ceil a b = 1 + ceil (a - b) b.
Proof.
  intros B L. unfold ceil. replace (a + b - 1) with (1 * b + (a - b + b - 1)) by lia.
  rewrite N.div_add_l by lia. reflexivity.
Qed.
Lemma ceil_pos a b : 0 < b -> 0 < a -> 1 <= ceil a b.
Proof. intros B L. unfold ceil. apply N.div_le_lower_bound; lia. Qed.
Lemma c_dma e : e <= g_dram_size G -> forall fuel a b, steady G e a -> (e - a) / g_dram_stripe_size G < N.of_nat fuel ->
  within (dma_stripes fuel G a e b) (3 * ceil (e - a) (g_dram_stripe_size G)) any.
Proof.
  intros E. pose proof (S_pos G pb rb g) as SP. set (S := g_dram_stripe_size G) in *.
  induction fuel as [|k IH]; intros a b ST F; cbn [dma_stripes].
  - destruct (N.nlt_0_r _ F).
  - destruct (N.ltb_spec a e) as [L|L]; [|exact I].
    destruct (steady_step G pb rb g e a E L ST) as [NW ST']. fold S in NW, ST'.
    eapply (within_le _ (1 + (1 + (1 + 3 * (ceil (e - a) S - 1))))).
    { pose proof (ceil_pos (e - a) S ltac:(lia) ltac:(lia)). lia. }
    eapply (within_bind _ _ _ _ any); [eapply (within_le _ (N.max 1 0)); [lia|]; apply m_if; [ap w_tas|apply within_ret]|intros t _].
    destruct t; [exact I|].
    eapply (within_bind _ _ _ _ any); [apply within_op|intros o _].
    eapply (within_bind _ _ _ _ any); [eapply (within_le _ (N.max 1 0)); [lia|]; apply m_if; [ap w_clr|apply within_ret]|intros u _].
    fold S. rewrite wadd_small by (clear - NW; lia).
    destruct (N.ltb_spec S (e - a)) as [M|M].
    + rewrite (ceil_step (e - a) S) by lia. replace (1 + ceil (e - a - S) S - 1) with (ceil (e - (a + S)) S).
      2:{ rewrite N.sub_add_distr. lia. }
      apply IH; [exact ST'|]. rewrite N.sub_add_distr. rewrite Nat2N.inj_succ in F.
      replace (e - a) with (1 * S + (e - a - S)) in F by lia. rewrite N.div_add_l in F by lia. lia.
    + destruct k; cbn [dma_stripes]; destruct (N.ltb_spec (a + S) e); try lia; exact I.
Qed.
Lemma c_set_dma base mask : base < W64 -> mask < W64 -> loop_ends G pb rb (CSetDmaRange base mask) ->
  within (set_dma_range G base mask) (6 + 3 * ceil (mask + 1) (g_dram_stripe_size G)) any.
Proof.
  intros B M EN. unfold set_dma_range.
  destruct (is_valid_range base mask) eqn:VR; [|exact I]. cbn [negb].
  destruct (range_last base mask B M VR) as [RL RB]. rewrite RL.
  destruct (is_dram_address G (base + mask)) eqn:DA; [|exact I]. cbn [negb].
  unfold is_dram_address in DA. pose proof (S_pos G pb rb g) as SP. pose proof (geo_D _ _ _ g) as DD.
  pose proof (steady_start G pb rb g base mask B M VR ltac:(lia) EN) as SS.
  eapply (within_le _ (1 + (3 * ceil (mask + 1) (g_dram_stripe_size G) + 5))); [lia|].
  eapply (within_bind _ _ _ _ any); [ap w_tas|intros t _]. destruct t; [exact I|].
  rewrite wadd_small by lia.
  replace (base + mask + 1 - base) with (mask + 1) by lia.
  eapply (within_bind _ _ _ _ any).
  - replace (mask + 1) with (base + mask + 1 - base) at 1 2 by lia.
    apply (c_dma (base + mask + 1)); [lia|exact SS|]. generalize n. intros n0. lia.
  - intros r _. go. lia.
Qed.

(** Wiping a region. *)
Lemma c_bzero_stripes r : g_dram_size G + 2 ^ (12 + pb + rb) <= W64 -> forall fuel a,
  (g_dram_size G - a) / 2 ^ (12 + pb + rb) < N.of_nat fuel ->
  within (bzero_stripes fuel G (2 ^ (12 + pb + rb)) r a)
    (ceil (g_dram_size G - a) (2 ^ (12 + pb + rb)) * (g_dram_stripe_size G / 8)) any.
Proof.
  intros HD. pose proof (pow2_pos (12 + pb + rb)) as TP. set (T := 2 ^ (12 + pb + rb)) in *.
  induction fuel as [|k IH]; intros a F; cbn [bzero_stripes]; [destruct (N.nlt_0_r _ F)|].
  destruct (N.ltb_spec a (g_dram_size G)) as [L|L]; [|exact I].
  eapply (within_le _ (g_dram_stripe_size G / 8 * 1 + (ceil (g_dram_size G - a) T - 1) * (g_dram_stripe_size G / 8))).
  { pose proof (ceil_pos (g_dram_size G - a) T ltac:(lia) ltac:(lia)) as CP.
    generalize dependent (ceil (g_dram_size G - a) T). intros x CP. generalize (g_dram_stripe_size G / 8). intros q.
    replace x with (1 + (x - 1)) at 2 by lia. rewrite N.mul_add_distr_r. lia. }
  eapply (within_bind _ _ _ _ any); [eapply w_bzero; try eassumption; apply N.le_refl|intros u _].
  rewrite wadd_small by (unfold T in *; lia).
  destruct (N.ltb_spec T (g_dram_size G - a)) as [M|M].
  - rewrite (ceil_step (g_dram_size G - a) T) by lia.
    replace (1 + ceil (g_dram_size G - a - T) T - 1) with (ceil (g_dram_size G - (a + T)) T).
    2:{ rewrite N.sub_add_distr. lia. }
    apply IH. rewrite N.sub_add_distr. rewrite Nat2N.inj_succ in F.
    replace (g_dram_size G - a) with (1 * T + (g_dram_size G - a - T)) in F by lia.
    rewrite N.div_add_l in F by lia. lia.
  - destruct k; cbn [bzero_stripes]; destruct (N.ltb_spec (a + T) (g_dram_size G)); try lia; exact I.
Qed.
Definition wipe_cost : N := ceil (g_dram_size G) (2 ^ (12 + pb + rb)) * (g_dram_stripe_size G / 8).
Lemma c_bzero_region r : g_dram_size G + 2 ^ (12 + pb + rb) <= W64 -> within (bzero_dram_region G r) wipe_cost any.
Proof.
  intros HD. pose proof (pow2_pos (12 + pb + rb)) as TP.
  assert (ST : wshl (g_dram_region_count G) (g_dram_region_shift G) = 2 ^ (12 + pb + rb)).
  { pose proof (geo_pb _ _ _ g). pose proof (geo_rb _ _ _ g).
    rewrite (geo_count _ _ _ g), (geo_rs _ _ _ g).
    assert (X : 2 ^ rb * 2 ^ (12 + pb) = 2 ^ (12 + pb + rb)).
    { rewrite <- N.pow_add_r. f_equal. lia. }
    unfold wshl. rewrite (N.mod_small (12 + pb) 64) by lia.
    rewrite N.shiftl_mul_pow2, X. apply N.mod_small.
    apply N.le_lt_trans with (2 ^ 60); [apply pow2_le; lia|reflexivity]. }
  unfold bzero_dram_region, wipe_cost. rewrite ST.
  replace (g_dram_size G) with (g_dram_size G - 0) at 2 by lia. apply c_bzero_stripes; [exact HD|].
  rewrite Nat2N.inj_succ, N2Nat.id, N.sub_0_r. lia.
Qed.
Lemma c_unlock_regions a r k : k <= n -> within (unlock_enclave_regions G a r k) (2 * n) any.
Proof.
  intros H. unfold unlock_enclave_regions.
  eapply within_le; [|eapply (within_for (bound := n)); [exact H|]; intros; ms]. lia.
Qed.
Lemma c_delete a : g_dram_size G + 2 ^ (12 + pb + rb) <= W64 -> within (delete_enclave G a) (5 + n * (7 + wipe_cost)) any.
Proof.
  intros HD. unfold delete_enclave.
  eapply (within_le _ (1 + (1 + (1 + (n * 2 + (n * (3 + wipe_cost) + (2 * n + 1))))))).
  { generalize wipe_cost. intros w. generalize n. intros m. rewrite !N.mul_add_distr_l. lia. }
  mi; [ms|]. match goal with |- within (if ?t then _ else _) _ _ => destruct t end; [exact I|].
  mi; [ms|]. match goal with |- within (if ?t then _ else _) _ _ => destruct t end; [go; lia|].
  mi; [ms|]. match goal with |- within (if ?t then _ else _) _ _ => destruct t end; [go; lia|]. cbv zeta.
  eapply (within_bind _ _ _ _ (fun x => forall i, x = Some i -> i < n)).
  - eapply within_le; [|apply (within_for_exit 2 (fun i => i < n) n)].
    + rewrite N2Nat.id. apply N.le_refl.
    + rewrite N2Nat.id. lia.
    + intros j J. destruct (j =? _); [intros i X; discriminate|].
      change 2 with (1 + (1 + 0)).
      eapply (within_bind _ _ _ _ any); [ap w_readbit|intros b _].
      destruct b; [|intros i X; discriminate].
      eapply (within_bind _ _ _ _ any); [ap w_tas|intros t _].
      destruct t; intros i X; [inversion X; subst; exact J|discriminate].
  - intros [x|] X.
    + specialize (X x eq_refl). eapply (within_le _ (2 * n + 1)); [lia|].
      eapply (within_bind _ _ _ _ any); [apply c_unlock_regions; lia|intros _ _]. go. lia.
    + eapply (within_bind _ _ _ _ any); [eapply (within_for (bound := n)); [apply N.le_refl|]|].
      * intros i. go; [|apply c_bzero_region; exact HD]. lia.
      * intros _ _. eapply (within_bind _ _ _ _ any); [apply c_unlock_regions; lia|intros _ _]. go. lia.
Qed.
End Cost.
