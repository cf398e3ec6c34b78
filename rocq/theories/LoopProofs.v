(** * The loop of set_dma_range in the last stripe of the address space. *)
From Coq Require Import NArith ZArith Lia Bool List.
From Coq Require Import ZifyBool ZifyNat ZifyN.
From Verif Require Import Word Machine ModelBare ModelInl ModelRegions
  ModelApi Lib BareProofs SpecGeometry SpecCost GeomProofs SpecMonitor SpecConcurrent ViewProofs SeqProofs SeqCalls
  SeqCalls2 SeqCalls3 ConcProofs ConcBound.
Import ListNotations.
Open Scope N_scope.
Ltac Zify.zify_post_hook ::= Z.div_mod_to_equations.

Lemma within_ends {A} c (p : prog A) : forall m Q s, within p m Q -> exists a, snd (run c p s) = Some a.
Proof.
  induction p as [a|o f IH|]; intros m Q s W; cbn [run] in *; [cbn; eauto| |contradiction].
  cbn in W. destruct W as [_ W2]. destruct (step c o s) as [s' v]. eapply IH. apply W2.
Qed.

Section Loop.
Variables (G : globals) (pb rb : N).
Hypothesis g : geom G pb rb.
Local Notation n := (g_dram_region_count G).
Local Notation S1 := (2 ^ (12 + pb)).
Local Notation K := (2 ^ (64 - (12 + pb))).

Lemma KS : K * S1 = W64.
Proof.
  pose proof (geo_pb _ _ _ g). rewrite <- N.pow_add_r. replace (64 - (12 + pb) + (12 + pb)) with 64 by lia.
  reflexivity.
Qed.
Lemma K_pos : 0 < K. Proof. apply pow2_pos. Qed.

(** The locks after taking and clearing the free lock of region [r]. *)
Lemma locks_kept s r x : r < n -> x < n -> lock_of G s r = 0 ->
  lock_of G (set_mem s (st 8 (st 8 (s_mem s) (lock_addr G r) 1) (lock_addr G r) 0)) x = lock_of G s x.
Proof.
  intros R X L. pose proof (layout _ _ _ g) as (L1 & L2 & L3 & L4 & L5 & L6 & L7 & L8).
  destruct (N.eq_dec x r) as [->|NE].
  - rewrite L. unfold lock_of, lock_addr. cbn [set_mem s_mem]. apply ld8_st8. reflexivity.
  - unfold lock_of, lock_addr. cbn [set_mem s_mem].
    rewrite !ld_st_other by (change (N.of_nat 8) with 8; lia). reflexivity.
Qed.

(** One round of the loop. *)
Lemma round c s e a k b : a < e ->
  let r := dram_region_for G a in
  exists s' b',
    (forall x, x < n -> lock_of G s r = 0 \/ r = 0 -> lock_of G s' x = lock_of G s x) /\
    (lock_of G s r = 0 \/ r = 0 ->
      run c (dma_stripes (S k) G a e b) s = run c (dma_stripes k G (wadd a S1) e b') s') /\
    (lock_of G s r <> 0 -> r <> 0 -> snd (run c (dma_stripes (S k) G a e b) s) = Some None).
Proof.
  intros L r. assert (R : r < n) by apply (region_lt G pb rb g).
  cbn [dma_stripes]. destruct (N.ltb_spec a e) as [_|]; [|lia]. fold r. rewrite (geo_size _ _ _ g).
  destruct (N.eqb_spec r 0) as [R0|R0]; cbn [negb].
  - exists s. eexists. split; [reflexivity|]. split; [|contradiction]. intros _.
    cbn [bind]. rewrite run_bind. cbn [run load64 op1 step bind]. reflexivity.
  - destruct (N.eq_dec (lock_of G s r) 0) as [Z|NZ].
    + eexists. eexists. split; [|split; [|contradiction]].
      2:{ intros _. rewrite run_bind. unfold test_and_set_dram_region_lock, clear_dram_region_lock.
          rewrite !(region_addr_lock G pb rb g) by exact R.
          cbn [run op1 bind step]. change (ld 8 (s_mem s) (lock_addr G r)) with (lock_of G s r).
          rewrite Z. cbn [negb N.eqb].
          rewrite run_bind. cbn [run load64 op1 step bind]. reflexivity. }
      intros x X _. apply (locks_kept s r x R X Z).
    + exists s, b. split; [tauto|]. split; [intros [X|X]; contradiction|]. intros _ _.
      rewrite run_bind. unfold test_and_set_dram_region_lock.
      rewrite !(region_addr_lock G pb rb g) by exact R.
      cbn [run op1 bind step]. change (ld 8 (s_mem s) (lock_addr G r)) with (lock_of G s r).
      destruct (N.eqb_spec (lock_of G s r) 0); [contradiction|]. cbn [negb run bind snd]. reflexivity.
Qed.

(** The next address: the stripes of the whole address space, cyclically. *)
Lemma next z off : z < K -> off < S1 ->
  exists z', z' < K /\ wadd (off + z * S1) S1 = off + z' * S1 /\ z' mod 2 ^ rb = (z + 1) mod 2 ^ rb.
Proof.
  intros ZK O. pose proof KS as KE. pose proof K_pos as KP.
  pose proof (geo_pb _ _ _ g). pose proof (geo_rb _ _ _ g).
  destruct (N.eq_dec (z + 1) K) as [ZE|ZE].
  - exists 0. split; [exact KP|]. split.
    + unfold wadd. replace (off + z * S1 + S1) with (off + 1 * W64) by (rewrite <- KE, <- ZE; ring).
      rewrite N.mod_add by discriminate. rewrite N.mul_0_l, N.add_0_r. apply N.mod_small.
      rewrite <- KE. assert (1 * S1 <= K * S1) by (apply N.mul_le_mono_r; clear - KP; lia). clear - O H1. lia.
    + rewrite ZE. rewrite N.mod_0_l by apply pow2_nz.
      replace (64 - (12 + pb)) with (64 - (12 + pb) - rb + rb) by (clear - H H0; lia). rewrite N.pow_add_r.
      symmetry. apply N.mod_mul, pow2_nz.
  - exists (z + 1). split; [clear - ZK ZE; lia|]. split; [|reflexivity].
    assert (X : (z + 2) * S1 <= K * S1) by (apply N.mul_le_mono_r; clear - ZK ZE; lia).
    rewrite KE in X. rewrite wadd_small by (clear - X O; lia). ring.
Qed.
Lemma region_at z off : off < S1 -> dram_region_for G (off + z * S1) = z mod 2 ^ rb.
Proof.
  intros O. rewrite (region_for_spec _ _ _ g). unfold region_of.
  rewrite N.add_comm, N.div_add_l by apply pow2_nz. rewrite (N.div_small off) by exact O. f_equal. apply N.add_0_r.
Qed.
Lemma below_end z off e : z < K -> off + (K - 1) * S1 < e -> off + z * S1 < e.
Proof.
  intros ZK E. assert (z * S1 <= (K - 1) * S1) by (apply N.mul_le_mono_r; clear - ZK; lia).
  eapply N.le_lt_trans; [|exact E]. apply N.add_le_mono_l. exact H.
Qed.

(** If the locks are free it does not end... *)
Lemma spins c e off : off < S1 -> off + (K - 1) * S1 < e ->
  forall fuel z s b, z < K -> (forall r, 0 < r < n -> lock_of G s r = 0) ->
  snd (run c (dma_stripes fuel G (off + z * S1) e b) s) = None.
Proof.
  intros O E. induction fuel as [|k IH]; intros z s b ZK LK.
  - cbn [dma_stripes]. destruct (N.ltb_spec (off + z * S1) e) as [L|L]; [reflexivity|].
    exfalso. apply (N.lt_irrefl e). eapply N.le_lt_trans; [exact L|]. apply below_end; assumption.
  - destruct (round c s e (off + z * S1) k b (below_end z off e ZK E)) as [s' [b' [A [B _]]]].
    set (r := dram_region_for G (off + z * S1)) in *.
    assert (R : r < n) by apply (region_lt G pb rb g).
    assert (F : lock_of G s r = 0 \/ r = 0).
    { destruct (N.eq_dec r 0) as [|NE]; [auto|left; apply LK; split; [|exact R]]. clear - NE. lia. }
    rewrite (B F). destruct (next z off ZK O) as [z' [Z' [-> _]]]. apply IH; [exact Z'|].
    intros x X. rewrite A by (try exact F; tauto). apply LK, X.
Qed.
(** ... and if the lock of some region but the first is taken, it does. *)
Lemma stops c e off r : off < S1 -> off + (K - 1) * S1 < e -> 0 < r < n ->
  forall fuel j z s b, z < K -> lock_of G s r <> 0 -> (z + N.of_nat j) mod 2 ^ rb = r -> (j < fuel)%nat ->
  snd (run c (dma_stripes fuel G (off + z * S1) e b) s) = Some None.
Proof.
  intros O E R. induction fuel as [|k IH]; intros j z s b ZK LK J F; [clear - F; lia|].
  destruct (round c s e (off + z * S1) k b (below_end z off e ZK E)) as [s' [b' [A [B C]]]].
  rewrite (region_at z off O) in *. set (q := z mod 2 ^ rb) in *.
  destruct (N.eq_dec q 0) as [Q0|Q0]; [|destruct (N.eq_dec (lock_of G s q) 0) as [L0|L0]; [|exact (C L0 Q0)]].
  all: assert (FR : lock_of G s q = 0 \/ q = 0) by auto.
  all: rewrite (B FR); destruct (next z off ZK O) as [z' [Z' [-> M]]].
  all: destruct j as [|j]; [rewrite N.add_0_r in J; fold q in J; exfalso; clear A B C; try congruence; subst r; rewrite Q0 in R; clear - R; lia|].
  all: apply (IH j); [exact Z'| |rewrite <- J|clear - F; lia].
  all: try (rewrite A; [exact LK|tauto|exact FR]).
  all: rewrite N.add_mod by apply pow2_nz; rewrite M; rewrite <- N.add_mod by apply pow2_nz; f_equal; clear; lia.
Qed.

(** set_dma_range ends unless all of these hold. *)
Lemma dma_hangs c s base mask : base < W64 -> mask < W64 ->
  snd (run c (set_dma_range G base mask) s) = None <->
  (pow2_range base mask /\ base + mask < g_dram_size G /\ mask + 1 < S1 /\ W64 <= base + S1 /\
   forall r, r < n -> lock_of G s r = 0).
Proof.
  intros HB HM. pose proof KS as KE. pose proof K_pos as KP.
  assert (DEC : loop_ends G pb rb (CSetDmaRange base mask) \/
     (base + mask < g_dram_size G /\ mask + 1 < S1 /\ W64 <= base + S1)).
  { cbn [loop_ends]. change (2 ^ 64) with W64.
    destruct (N.lt_ge_cases (base + S1) W64); [auto|].
    destruct (N.le_gt_cases S1 (mask + 1)); [auto|].
    destruct (N.le_gt_cases (g_dram_size G) (base + mask)); auto. }
  destruct DEC as [EN|[D [M B]]].
  { split.
    - intros X. destruct (b_set_dma G pb rb g) as [m H]. destruct (within_ends c _ _ _ s (H base mask HB HM EN)) as [a Y].
      congruence.
    - intros (P & D & M & B & _). exfalso. cbn [loop_ends] in EN. change (2 ^ 64) with W64 in EN.
      clear - EN D M B. lia. }
  pose proof (range_iff base mask HB HM) as RI.
  assert (S64 : S1 <= W64).
  { rewrite <- KE. rewrite <- (N.mul_1_l S1) at 1. apply N.mul_le_mono_r. clear - KP. lia. }
  set (off := base - (K - 1) * S1).
  assert (KM : (K - 1) * S1 = W64 - S1) by (rewrite N.mul_sub_distr_r, KE, N.mul_1_l; reflexivity).
  assert (O : off < S1) by (unfold off; rewrite KM; clear - HB B S64; lia).
  assert (BE : base = off + (K - 1) * S1) by (unfold off; rewrite KM; clear - HB B S64; lia).
  unfold set_dma_range. destruct (is_valid_range base mask) eqn:VR; cbn [negb].
  2:{ split; [discriminate|]. intros (P & _). apply RI in P. discriminate. }
  assert (PR : pow2_range base mask) by (apply RI; reflexivity).
  destruct (range_last base mask HB HM VR) as [LO LW]. rewrite LO. unfold is_dram_address.
  destruct (N.ltb_spec (base + mask) (g_dram_size G)) as [_|]; [|exfalso; clear - D H; lia]. cbn [negb].
  pose proof (N0 G pb rb g) as NP. pose proof (layout _ _ _ g) as (L1 & L2 & L3 & L4 & L5 & L6 & L7 & L8).
  rewrite run_bind. unfold test_and_set_dram_region_lock at 1.
  rewrite (region_addr_lock G pb rb g) by exact NP.
  cbn [run op1 bind step]. change (ld 8 (s_mem s) (lock_addr G 0)) with (lock_of G s 0).
  destruct (N.eqb_spec (lock_of G s 0) 0) as [Z0|Z0]; cbn [negb].
  2:{ split; [discriminate|]. intros (_ & _ & _ & _ & X). exfalso. apply Z0, X, NP. }
  pose proof (geo_D _ _ _ g) as DD.
  rewrite (wadd_small (base + mask) 1) by (clear - D DD; lia).
  set (s1 := set_mem s (st 8 (s_mem s) (lock_addr G 0) 1)).
  assert (LS : forall r, 0 < r < n -> lock_of G s1 r = lock_of G s r).
  { intros r R. unfold lock_of, lock_addr, s1. cbn [set_mem s_mem].
    rewrite !ld_st_other by (change (N.of_nat 8) with 8; unfold lock_addr; clear - R; lia). reflexivity. }
  set (fuel := S (N.to_nat _)). change (0 =? 0) with true. cbn [negb]. rewrite run_bind.
  assert (E : off + (K - 1) * S1 < base + mask + 1) by (rewrite <- BE; clear; lia).
  assert (K1 : K - 1 < K) by (clear - KP; lia).
  assert (CASES : (forall r, 0 < r < n -> lock_of G s r = 0) \/ exists r, 0 < r < n /\ lock_of G s r <> 0).
  { generalize n. intros m. induction m as [|m IH] using N.peano_ind; [left; intros r R; clear - R; lia|].
    destruct (N.eq_dec m 0) as [->|M0]; [left; intros r R; clear - R; lia|].
    destruct IH as [IH|[r [R X]]]; [|right; exists r; split; [clear - R; lia|exact X]].
    destruct (N.eq_dec (lock_of G s m) 0) as [Z|Z].
    - left. intros r R. destruct (N.eq_dec r m) as [->|NE]; [exact Z|]. apply IH. clear - R NE. lia.
    - right. exists m. split; [clear - M0; lia|exact Z]. }
  destruct CASES as [ALL|[r [R X]]].
  - split; [intros _|intros _].
    + repeat split; auto. intros r R. destruct (N.eq_dec r 0) as [->|NE]; [exact Z0|apply ALL].
      split; [clear - NE; lia|exact R].
    + assert (Y : snd (run c (dma_stripes fuel G base (base + mask + 1) true) s1) = None).
      { rewrite BE at 1. apply spins; auto. intros r R. rewrite LS by exact R. apply ALL, R. }
      destruct (run c (dma_stripes fuel G base (base + mask + 1) true) s1) as [s2 o]. cbn [snd] in Y. rewrite Y. reflexivity.
  - split; [|intros (_ & _ & _ & _ & Y); exfalso; apply X, Y, R].
    assert (Y : snd (run c (dma_stripes fuel G base (base + mask + 1) true) s1) = Some None).
    { rewrite BE at 1. apply (stops c _ off r O E R fuel (N.to_nat (r + 1))); auto.
      - rewrite LS by exact R. exact X.
      - rewrite N2Nat.id. replace (K - 1 + (r + 1)) with (K + r) by (clear - KP; lia).
        pose proof (geo_pb _ _ _ g) as GP. pose proof (geo_rb _ _ _ g) as GR.
        replace (64 - (12 + pb)) with (64 - (12 + pb) - rb + rb) by (clear - GP GR; lia). rewrite N.pow_add_r.
        rewrite N.add_comm, N.mod_add by apply pow2_nz. apply N.mod_small.
        rewrite <- (geo_count _ _ _ g). apply R.
      - unfold fuel. generalize ((base + mask + 1 - base) / g_dram_stripe_size G). intros u. clear - R. lia. }
    destruct (run c (dma_stripes fuel G base (base + mask + 1) true) s1) as [s2 o]. cbn [snd] in Y. rewrite Y.
    cbn. discriminate.
Qed.
End Loop.
