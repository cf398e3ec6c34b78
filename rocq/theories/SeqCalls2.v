(** * Remaining region calls (sequential execution). *)
From Coq Require Import NArith ZArith Lia Bool List.
From Coq Require Import ZifyBool ZifyNat ZifyN.
From Verif Require Import Word Machine ModelBare ModelHash ModelInl ModelRegions
  ModelMetadata ModelEnclave ModelBoot ModelApi Lib BareProofs SpecGeometry
  GeomProofs SpecMonitor ViewProofs SeqProofs SeqCalls.
Import ListNotations.
Open Scope N_scope.
Ltac Zify.zify_post_hook ::= Z.div_mod_to_equations.

Section Calls2.
Variables (G : globals) (pb rb : N).
Hypothesis g : geom G pb rb.
Local Notation n := (g_dram_region_count G).
Local Notation W := (g_dram_region_bitmap_words G).

Lemma N0 : 0 < n.
Proof. pose proof (layout _ _ _ g) as (L1 & L2 & L3 & L4 & L5 & L6 & L7 & L8). lia. Qed.
Lemma region_lt a : dram_region_for G a < n.
Proof. rewrite (region_for_spec G pb rb g), (n_val G pb rb g). apply region_of_lt. Qed.
Lemma valid_iff r : is_valid_dram_region G r = negb (2 ^ rb <=? r).
Proof. unfold is_valid_dram_region. rewrite (n_val G pb rb g). lia. Qed.
Lemma lt_n r : (2 ^ rb <=? r) = false -> r < n.
Proof. rewrite (n_val G pb rb g). lia. Qed.

(** The lock of a region, taken or not. *)
Lemma wp_tas_taken c r o M (Q : bool -> ost -> Prop) : like G o M -> r < n ->
  Q (taken M r) (with_lock o r 1) ->
  wp G c (test_and_set_dram_region_lock G r) o Q.
Proof.
  intros K R H. apply (wp_tas G pb rb g); auto.
  rewrite (lk_lock _ _ _ K r R). destruct (taken M r); exact H.
Qed.
Lemma oeq_taken o M r : like G o M -> r < n -> taken M r = true ->
  oeq o (with_lock o r 1).
Proof.
  intros K R T. pose proof (busy_lock G o M r K R T). oeqs.
Qed.
Lemma oeq_released o M r : like G o M -> r < n -> taken M r = false ->
  oeq o (with_lock (with_lock o r 1) r 0).
Proof.
  intros K R T. pose proof (free_lock G o M r K R T). oeqs.
Qed.

Definition quiet (o : ost) (t v : N) (o' : ost) : Prop := v = t /\ oeq o o'.

Lemma check_ownership_seq c r o M : like G o M -> c < g_core_count G ->
  wp G c (dram_region_check_ownership G r) o (quiet o (check_ownership_table rb r M)).
Proof.
  intros K C. unfold dram_region_check_ownership, check_ownership_table.
  destruct (is_dynamic_dram_region G r) eqn:DY.
  2:{ cbn [negb]. rewrite (dyn_false G pb rb g r DY). apply wp_ret.
      split; [reflexivity|apply oeq_refl]. }
  destruct (dyn_true G pb rb g r DY) as [-> [R0 R]]. cbn [negb].
  apply wp_bind. apply (wp_tas_taken c r o M); auto.
  rewrite taken_not0 by auto. unfold read_dram_region_owner.
  bnd (wp_owner G pb rb g). cbn [o_owner with_lock].
  bnd (wp_current G pb rb g). cbn [o_encl with_lock].
  rewrite (lk_encl _ _ _ K c C), (lk_owner _ _ _ K r R).
  bnd (wp_clr G pb rb g). apply wp_ret.
  split; [|apply (oeq_released o M); auto; apply taken_not0; auto].
  destruct (m_owner M r); reflexivity.
Qed.

Lemma region_state_seq c r o M : like G o M ->
  wp G c (dram_region_state G r) o (quiet o (state_table rb r M)).
Proof.
  intros K. unfold dram_region_state, state_table. rewrite valid_iff, negb_involutive.
  destruct (2 ^ rb <=? r) eqn:V.
  { apply wp_ret. split; [reflexivity|apply oeq_refl]. }
  apply lt_n in V. apply wp_bind. apply (wp_tas_taken c r o M); auto.
  destruct (taken M r) eqn:T.
  { apply wp_ret. split; [reflexivity|apply (oeq_taken o M); auto]. }
  unfold read_dram_region_owner. bnd (wp_owner G pb rb g). cbn [o_owner with_lock].
  bnd (wp_clr G pb rb g). apply wp_ret.
  split; [|apply (oeq_released o M); auto].
  rewrite (lk_owner _ _ _ K r V). destruct (m_owner M r); reflexivity.
Qed.

Lemma region_owner_seq c r o M : like G o M ->
  wp G c (dram_region_owner G r) o (quiet o (owner_table rb r M)).
Proof.
  intros K. unfold dram_region_owner, owner_table. rewrite valid_iff, negb_involutive.
  destruct (2 ^ rb <=? r) eqn:V.
  { apply wp_ret. split; [reflexivity|apply oeq_refl]. }
  apply lt_n in V. apply wp_bind. apply (wp_tas_taken c r o M); auto.
  destruct (taken M r) eqn:T.
  { apply wp_ret. split; [reflexivity|apply (oeq_taken o M); auto]. }
  unfold read_dram_region_owner. bnd (wp_owner G pb rb g). cbn [o_owner with_lock].
  bnd (wp_clr G pb rb g). apply wp_ret.
  split; [|apply (oeq_released o M); auto].
  rewrite (lk_owner _ _ _ K r V). destruct (m_owner M r); reflexivity.
Qed.

(** Replacing the owner of a region other than 0 by one that is not the OS. *)
Lemma like_set_owner o M r w o' : like G o M -> r < n -> r <> 0 -> w <> OS ->
  m_owner M r <> OS ->
  oeq (with_owner o r (owner_code w)) o' -> like G o' (set_owner M r w).
Proof.
  intros K R R0 WO NO E. apply (like_ext G _ _ _ E). destruct K. constructor;
    cbn -[N.add N.mul N.modulo W64]; intros; auto.
  - apply lk_lock; auto.
  - unfold upd. destruct (r0 =? r); auto.
  - unfold upd. destruct (N.eqb_spec r0 r) as [->|]; auto.
    rewrite lk_bit by auto.
    destruct w; try congruence; destruct (m_owner M r); try congruence; reflexivity.
  - rewrite upd_other; auto.
Qed.

(** ** free_dram_region *)
Lemma stale_seq c o ba : forall k i, i + N.of_nat k <= g_core_count G ->
  wp G c (for_exit k i
    (fun i => f <- load64 (wadd (core_addr G i) ci_flushed_at) ;;
              if f <? ba then Ret (Some tt) else Ret None)) o
    (fun res o' => o' = o /\
       (res = None <-> forallb (fun j => ba <=? o_flushed o (N.of_nat j))
                         (seq (N.to_nat i) k) = true)).
Proof.
  induction k as [|k IH]; intros i H.
  - cbn. apply wp_ret. split; [reflexivity|]. split; auto.
  - cbn [for_exit seq forallb].
    apply wp_bind. bnd (wp_flushed G pb rb g); [lia|].
    rewrite N2Nat.id.
    destruct (N.ltb_spec (o_flushed o i) ba) as [L|L].
    + apply wp_ret. apply wp_ret. split; [reflexivity|].
      destruct (N.leb_spec ba (o_flushed o i)); [lia|]. cbn. split; discriminate.
    + apply wp_ret. destruct (N.leb_spec ba (o_flushed o i)); [|lia]. cbn [andb].
      replace (S (N.to_nat i)) with (N.to_nat (i + 1)) by lia. apply IH. lia.
Qed.

Lemma forallb_flushed o M ba : like G o M ->
  forallb (fun j => ba <=? o_flushed o (N.of_nat j)) (seq 0 (N.to_nat (g_core_count G))) =
  forallb (fun j => ba <=? m_flushed M (N.of_nat j)) (seq 0 (N.to_nat (g_core_count G))).
Proof.
  intros K. apply eq_true_iff_eq. rewrite !forallb_forall.
  split; intros H x X; specialize (H x X); apply in_seq in X;
    rewrite (lk_flushed _ _ _ K) in * by lia; auto.
Qed.

Lemma free_seq c r o M : like G o M ->
  wp G c (free_dram_region G r) o (outcome G o (free_table rb (g_core_count G) r M)).
Proof.
  intros K. unfold free_dram_region, free_table. rewrite valid_iff, negb_involutive.
  destruct (2 ^ rb <=? r) eqn:V.
  { apply wp_ret. apply outcome_same; auto. apply oeq_refl. }
  apply lt_n in V. apply wp_bind. apply (wp_tas_taken c r o M); auto.
  destruct (taken M r) eqn:T.
  { apply wp_ret. apply outcome_same; auto. apply (oeq_taken o M); auto. }
  unfold read_dram_region_owner. bnd (wp_owner G pb rb g). cbn [o_owner with_lock].
  rewrite (lk_owner _ _ _ K r V). apply wp_bind.
  assert (RL : forall o1, oeq o o1 -> oeq o (with_lock (with_lock o1 r 1) r 0)).
  { intros o1 E. destruct E. pose proof (free_lock G o M r K V T). oeqs. }
  assert (R0 : m_owner M r <> OS -> r <> 0).
  { intros H ->. apply H. apply (lk_region0 _ _ _ K). }
  destruct (m_owner M r) eqn:OW; cbn [owner_code].
  - change (0 =? blocked_enclave_id) with false. change (0 =? metadata_enclave_id) with false.
    cbv iota. apply wp_ret. bnd (wp_clr G pb rb g). apply wp_ret.
    apply outcome_same; auto. apply (oeq_released o M); auto.
  - change (1 =? blocked_enclave_id) with true. cbv iota.
    bnd (wp_blocked G pb rb g). cbn [o_blocked with_lock].
    apply wp_bind. eapply wp_weaken; [|apply stale_seq; lia].
    cbv beta. intros res o1 [-> E]. cbn [o_flushed with_lock] in E.
    rewrite (forallb_flushed o M _ K) in E. change (N.to_nat 0) with 0%nat in E.
    unfold all_flushed. rewrite (lk_blocked _ _ _ K r V) in E.
    destruct (forallb _ _) eqn:F.
    + assert (res = None) as -> by (apply E; reflexivity).
      bnd (wp_st_owner G pb rb g); [reflexivity|]. apply wp_ret.
      bnd (wp_clr G pb rb g). apply wp_ret. split; [reflexivity|].
      split; [|split; [intros X; exfalso; apply X; reflexivity|intros b; reflexivity]].
      apply (like_set_owner o); auto; try discriminate.
      * apply R0. discriminate.
      * rewrite OW. discriminate.
      * pose proof (free_lock G o M r K V T). oeqs.
    + assert (res <> None) by (intros X; apply E in X; discriminate).
      destruct res; [|congruence]. apply wp_ret.
      bnd (wp_clr G pb rb g). apply wp_ret.
      apply outcome_same; auto. apply (oeq_released o M); auto.
  - change (2 =? blocked_enclave_id) with false. change (2 =? metadata_enclave_id) with true.
    cbv iota. bnd (wp_pinned G pb rb g). cbn [o_pinned with_lock].
    rewrite (lk_pinned _ _ _ K r V). change (0 =? 0) with true. cbv iota.
    bnd (wp_st_owner G pb rb g); [reflexivity|]. apply wp_ret.
    bnd (wp_clr G pb rb g). apply wp_ret. split; [reflexivity|].
    split; [|split; [intros X; exfalso; apply X; reflexivity|intros b; reflexivity]].
    apply (like_set_owner o); auto; try discriminate.
    + apply R0. discriminate.
    + rewrite OW. discriminate.
    + pose proof (free_lock G o M r K V T). oeqs.
  - change (3 =? blocked_enclave_id) with false. change (3 =? metadata_enclave_id) with false.
    cbv iota. apply wp_ret. bnd (wp_clr G pb rb g). apply wp_ret.
    apply outcome_same; auto. apply (oeq_released o M); auto.
Qed.

(** ** flush_cached_dram_regions *)
Lemma flush_seq c o M : like G o M -> c < g_core_count G ->
  wp G c (flush_cached_dram_regions G) o
    (fun v o' => v = ok /\ like G o' (m_flush M c) /\
       r_tlb_flushes (o_regs o' c) = r_tlb_flushes (o_regs o c) + 1 /\ rest_same o o').
Proof.
  intros K C. unfold flush_cached_dram_regions, dram_region_tlb_flush.
  apply wp_bind, wp_bind. apply wp_flush_tlb. intros r' D1 D2 D3 D4.
  apply wp_bind, wp_core. apply wp_bind. apply (wp_clock G pb rb g).
  cbn [o_clock with_regs]. intros B.
  bnd (wp_st_flushed G pb rb g). apply wp_ret. apply wp_ret.
  split; [reflexivity|]. split.
  2:{ cbn. rewrite upd_same, D4. split; [reflexivity|intros b; reflexivity]. }
  destruct K. constructor; cbn -[N.add N.mul N.modulo W64]; intros; auto.
  - apply lk_lock; auto.
  - unfold upd. destruct (c0 =? c); auto.
  - unfold upd. destruct (N.eqb_spec c0 c) as [->|]; auto. rewrite D1. auto.
  - unfold upd. destruct (N.eqb_spec c0 c) as [->|]; auto. rewrite D2, D3. auto.
Qed.

(** ** assign_dram_region *)
Lemma clamped_lt a : clamped_dram_region_for G a < n.
Proof.
  unfold clamped_dram_region_for. destruct (is_dram_address G a); [apply region_lt|apply N0].
Qed.
Lemma zero_dram : is_dram_address G 0 = true.
Proof. unfold is_dram_address. pose proof (geo_D _ _ _ g). lia. Qed.
Lemma region_of_0 : region_of pb rb 0 = 0.
Proof. apply region0_low. apply pow2_pos. Qed.
Lemma region_for_0 : dram_region_for G 0 = 0.
Proof. rewrite (region_for_spec G pb rb g). apply region_of_0. Qed.
Lemma small_region a : a < 4096 -> dram_region_for G a = 0.
Proof.
  intros H. rewrite (region_for_spec G pb rb g). apply region0_low.
  pose proof (pow2_le 12 (12 + pb)). change (2 ^ 12) with 4096 in *. lia.
Qed.

(** The owner of the region of an identifier equals the identifier only for
    the OS. *)
Lemma owner_is_id o M e : like G o M ->
  (o_owner o (clamped_dram_region_for G e) =? e) = (e =? 0).
Proof.
  intros K. rewrite (lk_owner _ _ _ K) by apply clamped_lt.
  destruct (N.eqb_spec e 0) as [->|E].
  - unfold clamped_dram_region_for. rewrite zero_dram, region_for_0.
    rewrite (lk_region0 _ _ _ K). reflexivity.
  - apply N.eqb_neq. intros X.
    pose proof (owner_code_small (m_owner M (clamped_dram_region_for G e))).
    assert (clamped_dram_region_for G e = 0).
    { unfold clamped_dram_region_for. rewrite small_region by lia.
      destruct (is_dram_address G e); reflexivity. }
    rewrite H0, (lk_region0 _ _ _ K) in X. cbn in X. congruence.
Qed.

Lemma wp_valid_id c o M e (Q : bool -> ost -> Prop) :
  (forall r, r < n -> o_owner o r = owner_code (m_owner M r)) ->
  m_owner M 0 = OS ->
  Q (e =? 0) o -> wp G c (is_valid_enclave_id G e) o Q.
Proof.
  intros KO K0 H. unfold is_valid_enclave_id.
  apply wp_bind. apply (wp_owner G pb rb g); [apply clamped_lt|]. apply wp_ret.
  enough (E : (o_owner o (clamped_dram_region_for G e) =? e) = (e =? 0)) by (rewrite E; auto).
  rewrite KO by apply clamped_lt.
  destruct (N.eqb_spec e 0) as [->|E].
  - unfold clamped_dram_region_for. rewrite zero_dram, region_for_0, K0. reflexivity.
  - apply N.eqb_neq. intros X.
    pose proof (owner_code_small (m_owner M (clamped_dram_region_for G e))).
    assert (Z : clamped_dram_region_for G e = 0).
    { unfold clamped_dram_region_for. rewrite small_region by lia.
      destruct (is_dram_address G e); reflexivity. }
    rewrite Z, K0 in X. cbn in X. congruence.
Qed.

Lemma assign_seq c r e o M : like G o M -> c < g_core_count G ->
  wp G c (assign_dram_region G r e) o (outcome G o (assign_table pb rb c r e M)).
Proof.
  intros K C. unfold assign_dram_region, assign_table. rewrite valid_iff, negb_involutive.
  destruct (2 ^ rb <=? r) eqn:V.
  { apply wp_ret. apply outcome_same; auto. apply oeq_refl. }
  apply lt_n in V. apply wp_bind. apply (wp_tas_taken c r o M); auto.
  destruct (taken M r) eqn:T.
  { apply wp_ret. apply outcome_same; auto. apply (oeq_taken o M); auto. }
  unfold read_dram_region_owner. bnd (wp_owner G pb rb g). cbn [o_owner with_lock].
  rewrite (lk_owner _ _ _ K r V).
  destruct (m_owner M r) eqn:OW; cbn [owner_code].
  1-3: bnd (wp_clr G pb rb g); apply wp_ret; apply outcome_same; auto;
       apply (oeq_released o M); auto.
  change (negb (3 =? free_enclave_id)) with false. cbv iota.
  assert (R0 : r <> 0).
  { intros ->. rewrite (lk_region0 _ _ _ K) in OW. discriminate. }
  rewrite <- (region_for_spec G pb rb g e). set (q := dram_region_for G e).
  assert (QN : q < n) by apply region_lt.
  apply wp_bind. apply (wp_tas G pb rb g); auto. cbn [o_lock with_lock].
  pose proof (free_lock G o M r K V T) as LR.
  destruct (N.eqb_spec q r) as [QR|QR].
  { rewrite QR, upd_same. cbn [N.eqb negb orb]. bnd (wp_clr G pb rb g). apply wp_ret.
    apply outcome_same; auto. oeqs. }
  cbn [orb]. rewrite upd_other, (lk_lock _ _ _ K q QN) by auto.
  destruct (taken M q) eqn:TQ; cbn [N.eqb negb].
  { pose proof (busy_lock G o M q K QN TQ). bnd (wp_clr G pb rb g). apply wp_ret.
    apply outcome_same; auto. oeqs. }
  pose proof (free_lock G o M q K QN TQ) as LQ.
  apply wp_bind. apply (wp_valid_id c _ M).
  { intros. cbn. apply (lk_owner _ _ _ K); auto. }
  { apply (lk_region0 _ _ _ K). }
  apply wp_bind.
  destruct (N.eqb_spec e 0) as [E0|E0].
  2:{ apply wp_ret. bnd (wp_clr G pb rb g). bnd (wp_clr G pb rb g). apply wp_ret.
      apply outcome_same; auto. oeqs. }
  subst e. bnd (wp_st_owner G pb rb g); [reflexivity|].
  bnd (wp_set_bit G pb rb g).
  apply wp_bind, wp_bind. apply (wp_set_drb G pb rb g). intros r' D1 D2 D3 D4.
  apply wp_ret. apply wp_ret. bnd (wp_clr G pb rb g). bnd (wp_clr G pb rb g).
  apply wp_ret. split; [reflexivity|]. split; [|split; [intros X; exfalso; apply X; reflexivity|intros b; reflexivity]].
  cbn [snd]. destruct K. constructor; cbn -[N.add N.mul N.modulo W64]; intros; auto.
  - unfold upd. destruct (N.eqb_spec r0 r) as [->|]; [unfold taken in *; cbn in *; rewrite T; auto|].
    destruct (N.eqb_spec r0 q) as [->|]; [unfold taken in *; cbn in *; rewrite TQ; auto|].
    apply lk_lock; auto.
  - unfold upd. destruct (r0 =? r); auto.
  - unfold upd. destruct (r0 =? r); auto.
  - rewrite upd_other by auto. auto.
  - unfold upd at 1 2. destruct (N.eqb_spec c0 c) as [->|]; auto.
    rewrite D1 by auto. cbn -[upd]. unfold upd. destruct (r0 =? r); auto.
  - unfold upd. destruct (N.eqb_spec c0 c) as [->|]; auto.
    rewrite D2, D3. cbn. auto.
Qed.
End Calls2.
