(** * The region calls refine the abstract machine (sequential execution). *)
From Coq Require Import NArith ZArith Lia Bool List.
From Coq Require Import ZifyBool ZifyNat ZifyN.
From Verif Require Import Word Machine ModelBare ModelHash ModelInl ModelRegions
  ModelMetadata ModelEnclave ModelBoot ModelApi Lib BareProofs SpecGeometry
  GeomProofs SpecMonitor ViewProofs SeqProofs.
Import ListNotations.
Open Scope N_scope.
Ltac Zify.zify_post_hook ::= Z.div_mod_to_equations.

Record like (G : globals) (o : ost) (M : mstate) : Prop := mkLike {
  lk_lock : forall r, r < g_dram_region_count G ->
    o_lock o r = if taken M r then 1 else 0;
  lk_owner : forall r, r < g_dram_region_count G ->
    o_owner o r = owner_code (m_owner M r);
  lk_pinned : forall r, r < g_dram_region_count G -> o_pinned o r = 0;
  lk_blocked : forall r, r < g_dram_region_count G ->
    o_blocked o r = m_blocked_at M r;
  lk_clock : o_clock o = m_clock M;
  lk_encl : forall c, c < g_core_count G -> o_encl o c = 0;
  lk_flushed : forall c, c < g_core_count G -> o_flushed o c = m_flushed M c;
  lk_bit : forall r, r < g_dram_region_count G -> o_bit o r = is_os (m_owner M r);
  lk_region0 : m_owner M 0 = OS;
  lk_access : forall c r, c < g_core_count G -> r < g_dram_region_count G ->
    drb_bit (o_regs o c) r = m_access M c r;
  lk_protected : forall c a, c < g_core_count G -> a < g_monitor_top G ->
    N.land a (r_par_mask (o_regs o c)) = r_par_base (o_regs o c);
  lk_words : g_dram_region_bitmap_words G <= o_words o;
  lk_dma_start : o_dma_start o = m_dma_start M;
  lk_dma_end : o_dma_end o = m_dma_end M;
  lk_dma_order : m_dma_start M < m_dma_end M < W64;
  lk_window : forall a, a < W64 ->
    (N.land a (o_dmar_mask o) = o_dmar_base o <-> m_dma_start M <= a < m_dma_end M) }.

Lemma like_ext G o o' M : oeq o o' -> like G o M -> like G o' M.
Proof.
  intros [] []. constructor; intros;
    repeat first [rewrite oe_lock|rewrite oe_owner|rewrite oe_prev|rewrite oe_pinned
          |rewrite oe_blocked|rewrite oe_clock|rewrite oe_encl
          |rewrite oe_flushed|rewrite oe_bit|rewrite oe_rest|rewrite oe_regs
          |rewrite oe_words|rewrite oe_dmar_base|rewrite oe_dmar_mask
          |rewrite oe_dma_start|rewrite oe_dma_end]; auto.
Qed.

Lemma is_os_iff o : is_os o = true <-> o = OS.
Proof. destruct o; cbn; split; congruence. Qed.
Lemma owner_code_small o : owner_code o < 4.
Proof. destruct o; reflexivity. Qed.
Lemma owner_code_inj o o' : owner_code o = owner_code o' -> o = o'.
Proof. destruct o, o'; cbn; congruence. Qed.

Ltac bnd L := apply wp_bind; apply L; auto.
Ltac oeqs := constructor; cbn [with_lock with_owner with_prev with_pinned with_blocked with_clock with_flushed with_bit with_rest with_regs with_dma o_lock o_owner o_prev o_pinned o_blocked
  o_clock o_encl o_flushed o_bit o_rest o_regs o_words o_dmar_base o_dmar_mask
  o_dma_start o_dma_end]; intros; try reflexivity; unfold upd;
  repeat match goal with |- context [?a =? ?b] => destruct (N.eqb_spec a b) end;
  subst; try reflexivity; try congruence; auto.

Section Calls.
Variables (G : globals) (pb rb : N).
Hypothesis g : geom G pb rb.
Local Notation n := (g_dram_region_count G).
Local Notation W := (g_dram_region_bitmap_words G).

Lemma n_val : n = 2 ^ rb. Proof. apply (geo_count _ _ _ g). Qed.

Lemma os_bit_view s o r : view G s o -> r < n -> os_bit G s r = o_bit o r.
Proof.
  intros V R. pose proof (layout _ _ _ g) as (L1 & L2 & L3 & L4 & L5 & L6 & L7 & L8).
  rewrite <- (v_bit _ _ _ V) by lia. unfold os_bit. symmetry. apply bit_at_word.
Qed.

Lemma shows_of s o M : view G s o -> like G o M -> shows G s M.
Proof.
  intros V K. pose proof K as [].
  constructor; intros;
    unfold lock_of, owner_of, pinned_of, blocked_at_of, clock_of, enclave_of,
      flushed_of.
  - rewrite (v_lock _ _ _ V) by auto. apply lk_lock0; auto.
  - rewrite (v_owner _ _ _ V) by auto. auto.
  - rewrite (v_pinned _ _ _ V) by auto. auto.
  - rewrite (v_blocked _ _ _ V) by auto. auto.
  - rewrite (v_clock _ _ _ V). auto.
  - rewrite (v_encl _ _ _ V) by auto. auto.
  - rewrite (v_flushed _ _ _ V) by auto. auto.
  - rewrite (os_bit_view _ _ _ V), lk_bit0 by auto. apply is_os_iff.
  - auto.
  - rewrite (v_regs _ _ _ V). auto.
  - rewrite (v_regs _ _ _ V). auto.
  - rewrite (v_words _ _ _ V). auto.
  - rewrite (v_dma_start _ _ _ V). auto.
  - rewrite (v_dma_end _ _ _ V). auto.
  - auto.
  - unfold dma_may_access. rewrite (v_dmar_base _ _ _ V), (v_dmar_mask _ _ _ V). auto.
Qed.
Lemma shows_like s o M : view G s o -> shows G s M -> like G o M.
Proof.
  intros V K. destruct K.
  constructor; intros.
  - rewrite <- (v_lock _ _ _ V) by auto. apply sh_lock; auto.
  - rewrite <- (v_owner _ _ _ V) by auto. apply sh_owner; auto.
  - rewrite <- (v_pinned _ _ _ V) by auto. apply sh_pinned; auto.
  - rewrite <- (v_blocked _ _ _ V) by auto. apply sh_blocked; auto.
  - rewrite <- (v_clock _ _ _ V). apply sh_clock.
  - rewrite <- (v_encl _ _ _ V) by auto. apply sh_enclave; auto.
  - rewrite <- (v_flushed _ _ _ V) by auto. apply sh_flushed; auto.
  - rewrite <- (os_bit_view s o r V) by auto. apply eq_true_iff_eq.
    rewrite is_os_iff. auto.
  - auto.
  - rewrite <- (v_regs _ _ _ V). auto.
  - rewrite <- (v_regs _ _ _ V). auto.
  - rewrite <- (v_words _ _ _ V). auto.
  - rewrite <- (v_dma_start _ _ _ V). auto.
  - rewrite <- (v_dma_end _ _ _ V). auto.
  - auto.
  - unfold dma_may_access in *. rewrite <- (v_dmar_base _ _ _ V), <- (v_dmar_mask _ _ _ V). auto.
Qed.

(** From the weakest precondition to runs. *)
Lemma wp_run {A} c (p : prog A) s (Q : A -> ost -> Prop) o :
  view G s o -> wp G c p o Q ->
  exists s' a o', run c p s = (s', Some a) /\ view G s' o' /\ Q a o'.
Proof. intros V H. apply H; auto. Qed.

Lemma free_lock o M r : like G o M -> r < n -> taken M r = false -> o_lock o r = 0.
Proof. intros K R T. rewrite (lk_lock _ _ _ K r R), T. reflexivity. Qed.
Lemma busy_lock o M r : like G o M -> r < n -> taken M r = true -> o_lock o r = 1.
Proof. intros K R T. rewrite (lk_lock _ _ _ K r R), T. reflexivity. Qed.

(** ** block_dram_region *)
Lemma crossed_touches ds de rs re : ds <= de -> rs <= re ->
  dma_range_crossed rs re ds de = touches ds de rs re.
Proof. intros. unfold dma_range_crossed, touches. lia. Qed.

Lemma region_start_val r : r <= n -> dram_region_start G r = stripe_start pb rb r 0.
Proof.
  intros R. rewrite n_val in R. unfold dram_region_start.
  pose proof (geo_pb _ _ _ g). pose proof (geo_rb _ _ _ g).
  rewrite (geo_rs _ _ _ g). unfold stripe_start. rewrite N.mul_0_l, N.add_0_l.
  apply wshl_small; [lia|].
  assert (r * 2 ^ (12 + pb) <= 2 ^ rb * 2 ^ (12 + pb)) by (apply N.mul_le_mono_r; auto).
  rewrite <- pow2_add in H1. assert (2 ^ (rb + (12 + pb)) <= 2 ^ 60) by (apply pow2_le; lia).
  change (2 ^ 60) with 1152921504606846976 in *. unfold W64. lia.
Qed.

Lemma dyn_false r : is_dynamic_dram_region G r = false -> (r =? 0) || (2 ^ rb <=? r) = true.
Proof. unfold is_dynamic_dram_region, is_valid_dram_region. rewrite n_val. lia. Qed.
Lemma dyn_true r : is_dynamic_dram_region G r = true ->
  (r =? 0) || (2 ^ rb <=? r) = false /\ r <> 0 /\ r < n.
Proof. unfold is_dynamic_dram_region, is_valid_dram_region. rewrite n_val. lia. Qed.

Definition outcome0 (o : ost) (t : N * mstate) (v : N) (o' : ost) : Prop :=
  v = fst t /\ like G o' (snd t) /\ (v <> ok -> oeq o o').
(** and no byte outside the tables changes *)
Definition rest_same (o o' : ost) : Prop := forall b, byte (o_rest o') b = byte (o_rest o) b.
Definition outcome (o : ost) (t : N * mstate) (v : N) (o' : ost) : Prop :=
  v = fst t /\ like G o' (snd t) /\ (v <> ok -> oeq o o') /\ rest_same o o'.

Lemma outcome_same o o' M v : like G o M -> oeq o o' -> outcome o (v, M) v o'.
Proof.
  intros K E. split; [reflexivity|]. split; [apply (like_ext G o); auto|]. split; [auto|].
  exact (oe_rest _ _ E).
Qed.
Lemma outcome0_same o o' M v : like G o M -> oeq o o' -> outcome0 o (v, M) v o'.
Proof. intros K E. split; [reflexivity|]. split; [apply (like_ext G o); auto|auto]. Qed.

Lemma taken_not0 M r : r <> 0 -> taken M r = false.
Proof. intros H. unfold taken. destruct (N.eqb_spec r 0); [contradiction|reflexivity]. Qed.

Lemma block_seq c r o M : like G o M -> c < g_core_count G ->
  wp G c (block_dram_region G r) o (outcome o (block_table pb rb c r M)).
Proof.
  intros K C. unfold block_dram_region, block_table.
  destruct (is_dynamic_dram_region G r) eqn:DY.
  2:{ cbn [negb]. rewrite (dyn_false r DY). apply wp_ret.
      apply outcome_same; auto. apply oeq_refl. }
  destruct (dyn_true r DY) as [-> [R0 R]]. cbn [negb].
  pose proof (free_lock o M r K R (taken_not0 M r R0)) as LR.
  bnd (wp_tas G pb rb g). rewrite LR. cbn [N.eqb negb].
  unfold read_dram_region_owner. bnd (wp_owner G pb rb g). cbn [o_owner with_lock].
  bnd (wp_current G pb rb g). cbn [o_encl with_lock].
  rewrite (lk_encl _ _ _ K c C), (lk_owner _ _ _ K r R).
  destruct (m_owner M r) eqn:OW; cbn [owner_code N.eqb negb].
  2,3,4: bnd (wp_clr G pb rb g); apply wp_ret; apply outcome_same; auto; oeqs.
  change (0 =? null_enclave_id) with true. cbn [negb andb]. cbv iota.
  apply wp_bind, wp_ret.
  assert (Z : dram_region_for G 0 = 0).
  { rewrite (region_for_spec G pb rb g). apply region0_low. apply pow2_pos. }
  rewrite Z. assert (N0 : 0 < n) by lia.
  apply wp_bind. apply (wp_tas G pb rb g); [exact N0|].
  replace (o_lock (with_lock o r 1) 0) with (o_lock o 0)
    by (cbn [o_lock with_lock]; rewrite upd_other; auto).
  destruct (m_stuck M) eqn:ST.
  { rewrite (busy_lock o M 0 K N0) by (unfold taken; rewrite ST; reflexivity).
    cbn [N.eqb negb]. bnd (wp_clr G pb rb g). apply wp_ret.
    apply outcome_same; auto.
    pose proof (busy_lock o M 0 K N0) as BL. unfold taken in BL. rewrite ST in BL.
    specialize (BL eq_refl). oeqs. }
  pose proof (free_lock o M 0 K N0) as L0. unfold taken in L0. rewrite ST in L0.
  specialize (L0 eq_refl). rewrite L0. cbn [N.eqb negb].
  unfold dma_check. change (0 =? 0) with true. cbv iota zeta.
  apply wp_bind. apply wp_bind. apply wp_dma_start. cbn [o_dma_start with_lock].
  apply wp_bind. apply wp_dma_end. cbn [o_dma_end with_lock]. apply wp_ret.
  rewrite (lk_dma_start _ _ _ K), (lk_dma_end _ _ _ K).
  assert (R1 : wadd r 1 = r + 1).
  { apply wadd_small. pose proof (layout _ _ _ g) as (L1 & L2 & L3 & L4 & L5 & L6 & L7 & L8).
    unfold W64. lia. }
  rewrite R1, !region_start_val by lia.
  rewrite crossed_touches.
  2:{ pose proof (lk_dma_order _ _ _ K). lia. }
  2:{ unfold stripe_start. apply N.add_le_mono_l, N.mul_le_mono_r. lia. }
  destruct (touches _ _ _ _).
  { apply wp_bind. apply (wp_clr G pb rb g); [exact N0|].
    bnd (wp_clr G pb rb g). apply wp_ret.
    apply outcome_same; auto. oeqs. }
  bnd (wp_st_prev G pb rb g); [reflexivity|].
  bnd (wp_st_owner G pb rb g); [reflexivity|].
  apply wp_bind. apply (wp_fadd G pb rb g). intros CB.
  bnd (wp_st_blocked G pb rb g).
  bnd (wp_set_bit G pb rb g).
  change (0 =? 0) with true. cbv iota.
  apply wp_bind. apply (wp_set_drb G pb rb g). intros r' D1 D2 D3 D4.
  apply wp_bind. apply (wp_clr G pb rb g); [exact N0|].
  bnd (wp_clr G pb rb g). apply wp_ret.
  split; [reflexivity|]. split; [|split; [intros X; exfalso; apply X; reflexivity|intros b; reflexivity]].
  cbn [snd]. destruct K. constructor;
    cbn -[N.add N.mul N.modulo W64] ; intros; auto.
  - unfold upd, taken. cbn. rewrite ST, andb_false_r.
    destruct (N.eqb_spec r0 r); auto. destruct (N.eqb_spec r0 0); auto.
    rewrite lk_lock0 by auto. unfold taken. rewrite ST, andb_false_r. reflexivity.
  - unfold upd. destruct (r0 =? r); auto.
  - unfold upd. destruct (r0 =? r); auto.
  - unfold wadd. rewrite lk_clock0. reflexivity.
  - unfold upd. destruct (r0 =? r); auto.
  - rewrite upd_other by auto. auto.
  - unfold upd at 1 2. destruct (N.eqb_spec c0 c) as [->|]; auto.
    rewrite D1 by auto. cbn -[upd]. unfold upd. destruct (r0 =? r); auto.
  - unfold upd. destruct (N.eqb_spec c0 c) as [->|]; auto.
    rewrite D2, D3. cbn. auto.
Qed.
End Calls.
