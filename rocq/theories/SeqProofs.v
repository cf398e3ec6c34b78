(** * Sequential execution of the region calls. *)
From Coq Require Import NArith ZArith Lia Bool List.
From Coq Require Import ZifyBool ZifyNat ZifyN.
From Verif Require Import Word Machine ModelBare ModelHash ModelInl ModelRegions
  ModelMetadata ModelEnclave ModelBoot ModelApi Lib BareProofs SpecGeometry
  GeomProofs SpecMonitor ViewProofs.
Import ListNotations.
Open Scope N_scope.
Ltac Zify.zify_post_hook ::= Z.div_mod_to_equations.

(** Weakest precondition over views. *)
Definition wp {A} (G : globals) (c : N) (p : prog A) (o : ost)
  (Q : A -> ost -> Prop) : Prop :=
  forall s, view G s o ->
    exists s' a o', run c p s = (s', Some a) /\ view G s' o' /\ Q a o'.

Lemma wp_ret {A} G c (a : A) o (Q : A -> ost -> Prop) : Q a o -> wp G c (Ret a) o Q.
Proof. intros H s V. exists s, a, o. auto. Qed.
Lemma wp_bind {A B} G c (p : prog A) (f : A -> prog B) o Q :
  wp G c p o (fun a o1 => wp G c (f a) o1 Q) -> wp G c (bind p f) o Q.
Proof.
  intros H s V. destruct (H s V) as [s1 [a [o1 [R [V1 H1]]]]].
  destruct (H1 s1 V1) as [s2 [b [o2 [R2 [V2 H2]]]]].
  exists s2, b, o2. rewrite run_bind, R. auto.
Qed.
Lemma wp_weaken {A} G c (p : prog A) o (Q Q' : A -> ost -> Prop) :
  (forall a o', Q a o' -> Q' a o') -> wp G c p o Q -> wp G c p o Q'.
Proof.
  intros H W s V. destruct (W s V) as [s' [a [o' [R [V' X]]]]].
  exists s', a, o'. auto.
Qed.

Lemma upd_same {A} (f : N -> A) i v : upd f i v i = v.
Proof. unfold upd. rewrite N.eqb_refl. reflexivity. Qed.
Lemma upd_other {A} (f : N -> A) i v j : j <> i -> upd f i v j = f j.
Proof. intros. unfold upd. destruct (N.eqb_spec j i); congruence. Qed.

Section Seq.
Variables (G : globals) (pb rb : N).
Hypothesis g : geom G pb rb.
Local Notation n := (g_dram_region_count G).
Local Notation W := (g_dram_region_bitmap_words G).

Lemma raddr r off : r < n -> off < 40 ->
  wadd (region_addr G r) off = g_dram_region G + 40 * r + off.
Proof.
  intros R O. pose proof (layout _ _ _ g) as (L1 & L2 & L3 & L4 & L5 & L6 & L7 & L8).
  unfold region_addr. change dram_region_info_size with 40.
  assert (40 * r < W64) by (unfold W64; lia).
  rewrite wmul_small by auto.
  rewrite (wadd_small (g_dram_region G)) by (unfold W64; lia).
  rewrite wadd_small by (unfold W64; lia). reflexivity.
Qed.
Lemma caddr c off : c < g_core_count G -> off < 32 ->
  wadd (core_addr G c) off = g_core G + 32 * c + off.
Proof.
  intros R O. pose proof (layout _ _ _ g) as (L1 & L2 & L3 & L4 & L5 & L6 & L7 & L8).
  unfold core_addr. change core_info_size with 32.
  assert (32 * c < W64) by (unfold W64; lia).
  rewrite wmul_small by auto.
  rewrite (wadd_small (g_core G)) by (unfold W64; lia).
  rewrite wadd_small by (unfold W64; lia). reflexivity.
Qed.

Lemma wp_tas c r o (Q : bool -> ost -> Prop) : r < n ->
  Q (negb (o_lock o r =? 0)) (with_lock o r 1) ->
  wp G c (test_and_set_dram_region_lock G r) o Q.
Proof.
  intros R H s V. unfold test_and_set_dram_region_lock.
  rewrite raddr by (auto; reflexivity). change dri_lock with 0. rewrite N.add_0_r.
  eexists _, _, _. split; [|split; [|exact H]].
  - cbn [bind op1 run step]. rewrite (v_lock _ _ _ V r R).
    destruct (o_lock o r =? 0); reflexivity.
  - apply (v_set_lock _ _ _ g); auto. reflexivity.
Qed.
Lemma wp_clr c r o (Q : unit -> ost -> Prop) : r < n ->
  Q tt (with_lock o r 0) -> wp G c (clear_dram_region_lock G r) o Q.
Proof.
  intros R H s V. unfold clear_dram_region_lock.
  rewrite raddr by (auto; reflexivity). change dri_lock with 0. rewrite N.add_0_r.
  eexists _, _, _. split; [cbn [bind op1 run step]; reflexivity|split; [|exact H]].
  apply (v_set_lock _ _ _ g); auto. reflexivity.
Qed.
Lemma wp_owner c r o (Q : N -> ost -> Prop) : r < n ->
  Q (o_owner o r) o -> wp G c (load64 (wadd (region_addr G r) dri_owner)) o Q.
Proof.
  intros R H s V. rewrite raddr by (auto; reflexivity). change dri_owner with 8.
  exists s, (o_owner o r), o. rewrite run_load64, (v_owner _ _ _ V r R). auto.
Qed.
Lemma wp_pinned c r o (Q : N -> ost -> Prop) : r < n ->
  Q (o_pinned o r) o -> wp G c (load64 (wadd (region_addr G r) dri_pinned_pages)) o Q.
Proof.
  intros R H s V. rewrite raddr by (auto; reflexivity). change dri_pinned_pages with 24.
  exists s, (o_pinned o r), o. rewrite run_load64, (v_pinned _ _ _ V r R). auto.
Qed.
Lemma wp_blocked c r o (Q : N -> ost -> Prop) : r < n ->
  Q (o_blocked o r) o -> wp G c (load64 (wadd (region_addr G r) dri_blocked_at)) o Q.
Proof.
  intros R H s V. rewrite raddr by (auto; reflexivity). change dri_blocked_at with 32.
  exists s, (o_blocked o r), o. rewrite run_load64, (v_blocked _ _ _ V r R). auto.
Qed.
Lemma wp_st_owner c r v o (Q : N -> ost -> Prop) : r < n -> v < W64 ->
  Q 0 (with_owner o r v) -> wp G c (store64 (wadd (region_addr G r) dri_owner) v) o Q.
Proof.
  intros R X H s V. rewrite raddr by (auto; reflexivity). change dri_owner with 8.
  eexists _, _, _. split; [apply run_store64|split; [|exact H]].
  apply (v_set_owner _ _ _ g); auto.
Qed.
Lemma wp_st_prev c r v o (Q : N -> ost -> Prop) : r < n -> v < W64 ->
  Q 0 (with_prev o r v) ->
  wp G c (store64 (wadd (region_addr G r) dri_previous_owner) v) o Q.
Proof.
  intros R X H s V. rewrite raddr by (auto; reflexivity). change dri_previous_owner with 16.
  eexists _, _, _. split; [apply run_store64|split; [|exact H]].
  apply (v_set_prev _ _ _ g); auto.
Qed.
Lemma wp_st_pinned c r v o (Q : N -> ost -> Prop) : r < n -> v < W64 ->
  Q 0 (with_pinned o r v) ->
  wp G c (store64 (wadd (region_addr G r) dri_pinned_pages) v) o Q.
Proof.
  intros R X H s V. rewrite raddr by (auto; reflexivity). change dri_pinned_pages with 24.
  eexists _, _, _. split; [apply run_store64|split; [|exact H]].
  apply (v_set_pinned _ _ _ g); auto.
Qed.
Lemma wp_st_blocked c r v o (Q : N -> ost -> Prop) : r < n -> v < W64 ->
  Q 0 (with_blocked o r v) ->
  wp G c (store64 (wadd (region_addr G r) dri_blocked_at) v) o Q.
Proof.
  intros R X H s V. rewrite raddr by (auto; reflexivity). change dri_blocked_at with 32.
  eexists _, _, _. split; [apply run_store64|split; [|exact H]].
  apply (v_set_blocked _ _ _ g); auto.
Qed.
Lemma clock_addr : wadd (g_dram_regions G) drs_block_clock = g_dram_regions G.
Proof.
  pose proof (layout _ _ _ g) as (L1 & L2 & L3 & L4 & L5 & L6 & L7 & L8).
  unfold drs_block_clock. rewrite wadd_small by (unfold W64; lia). lia.
Qed.
Lemma wp_fadd c o (Q : N -> ost -> Prop) :
  (o_clock o < W64 -> Q (o_clock o) (with_clock o (wadd (o_clock o) 1))) ->
  wp G c (op1 (OFadd (wadd (g_dram_regions G) drs_block_clock) 1)) o Q.
Proof.
  intros H s V. rewrite clock_addr.
  assert (B : o_clock o < W64) by (rewrite <- (v_clock _ _ _ V); apply ld8_bound).
  eexists _, _, _. split; [|split; [|exact (H B)]].
  - cbn [run op1 step]. rewrite (v_clock _ _ _ V). reflexivity.
  - apply (v_set_clock _ _ _ g); auto. apply wadd_lt.
Qed.
Lemma wp_clock c o (Q : N -> ost -> Prop) : (o_clock o < W64 -> Q (o_clock o) o) ->
  wp G c (load64 (wadd (g_dram_regions G) drs_block_clock)) o Q.
Proof.
  intros H s V. rewrite clock_addr.
  assert (B : o_clock o < W64) by (rewrite <- (v_clock _ _ _ V); apply ld8_bound).
  exists s, (o_clock o), o. rewrite run_load64, (v_clock _ _ _ V). auto.
Qed.
Lemma wp_core c o (Q : N -> ost -> Prop) : Q c o -> wp G c (op1 OCore) o Q.
Proof. intros H s V. exists s, c, o. auto. Qed.
Lemma wp_current c o (Q : N -> ost -> Prop) : c < g_core_count G ->
  Q (o_encl o c) o -> wp G c (current_enclave G) o Q.
Proof.
  intros C H s V. unfold current_enclave, current_core_info.
  exists s, (o_encl o c), o. cbn [bind op1 run step]. rewrite run_load64.
  rewrite caddr by (auto; reflexivity). change ci_enclave_id with 0.
  rewrite N.add_0_r, (v_encl _ _ _ V c C). auto.
Qed.
Lemma wp_flushed c i o (Q : N -> ost -> Prop) : i < g_core_count G ->
  Q (o_flushed o i) o -> wp G c (load64 (wadd (core_addr G i) ci_flushed_at)) o Q.
Proof.
  intros C H s V. rewrite caddr by (auto; reflexivity). change ci_flushed_at with 24.
  exists s, (o_flushed o i), o. rewrite run_load64, (v_flushed _ _ _ V i C). auto.
Qed.
Lemma wp_st_flushed c i v o (Q : N -> ost -> Prop) : i < g_core_count G -> v < W64 ->
  Q 0 (with_flushed o i v) ->
  wp G c (store64 (wadd (core_addr G i) ci_flushed_at) v) o Q.
Proof.
  intros C X H s V. rewrite caddr by (auto; reflexivity). change ci_flushed_at with 24.
  eexists _, _, _. split; [apply run_store64|split; [|exact H]].
  apply (v_set_flushed _ _ _ g); auto.
Qed.
Lemma word_in j : j < n -> word_of_bit (g_os_region_bitmap G) j < W64.
Proof.
  intros J. pose proof (layout _ _ _ g) as (L1 & L2 & L3 & L4 & L5 & L6 & L7 & L8).
  unfold word_of_bit, W64. lia.
Qed.
Lemma wp_set_bit c j v o (Q : unit -> ost -> Prop) : j < n ->
  Q tt (with_bit o j v) -> wp G c (set_enclave_region_bitmap_bit G 0 j v) o Q.
Proof.
  intros J H s V. unfold set_enclave_region_bitmap_bit.
  change (0 =? null_enclave_id) with true. cbv iota.
  eexists _, _, _. split; [apply set_bitmap_bit_run, word_in, J|split; [|exact H]].
  apply (v_set_bit _ _ _ g); auto.
Qed.
Lemma wp_get_bit c j o (Q : bool -> ost -> Prop) : j < n ->
  Q (o_bit o j) o -> wp G c (read_enclave_region_bitmap_bit G 0 j) o Q.
Proof.
  intros J H s V. unfold read_enclave_region_bitmap_bit.
  change (0 =? null_enclave_id) with true. cbv iota.
  exists s, (o_bit o j), o. rewrite read_bitmap_bit_run by (apply word_in, J).
  pose proof (layout _ _ _ g) as (L1 & L2 & L3 & L4 & L5 & L6 & L7 & L8).
  rewrite (v_bit _ _ _ V) by lia. auto.
Qed.
Lemma wp_dma_start c o (Q : N -> ost -> Prop) : Q (o_dma_start o) o ->
  wp G c (op1 OGetDmaStart) o Q.
Proof.
  intros H s V. exists s, (o_dma_start o), o. cbn [op1 run step].
  rewrite (v_dma_start _ _ _ V). auto.
Qed.
Lemma wp_dma_end c o (Q : N -> ost -> Prop) : Q (o_dma_end o) o ->
  wp G c (op1 OGetDmaEnd) o Q.
Proof.
  intros H s V. exists s, (o_dma_end o), o. cbn [op1 run step].
  rewrite (v_dma_end _ _ _ V). auto.
Qed.

(** set_drb_map(&os_region_bitmap): the register is loaded with the bitmap. *)
Lemma wp_set_drb c o (Q : N -> ost -> Prop) :
  (forall r', (forall j, j < n -> W <= o_words o -> drb_bit r' j = o_bit o j) ->
     r_par_base r' = r_par_base (o_regs o c) ->
     r_par_mask r' = r_par_mask (o_regs o c) ->
     r_tlb_flushes r' = r_tlb_flushes (o_regs o c) ->
     Q 0 (with_regs o c r')) ->
  wp G c (op1 (OSetDrb (g_os_region_bitmap G))) o Q.
Proof.
  intros H s V. cbn [op1 run step].
  eexists _, _, _. split; [reflexivity|split; [|apply H]].
  - destruct V. constructor; cbn -[ld st]; intros; auto.
    unfold upd. destruct (c0 =? c); [reflexivity|auto].
  - intros j J LW. unfold drb_bit. cbn [r_drb]. unfold snapshot.
    pose proof (layout _ _ _ g) as (L1 & L2 & L3 & L4 & L5 & L6 & L7 & L8).
    rewrite (v_words _ _ _ V). destruct (N.ltb_spec (j / 64) (o_words o)); [|lia].
    rewrite <- (v_bit _ _ _ V) by lia. rewrite bit_at_word. reflexivity.
  - cbn [r_par_base]. rewrite (v_regs _ _ _ V). reflexivity.
  - cbn [r_par_mask]. rewrite (v_regs _ _ _ V). reflexivity.
  - cbn [r_tlb_flushes]. rewrite (v_regs _ _ _ V). reflexivity.
Qed.
Lemma wp_flush_tlb c o (Q : N -> ost -> Prop) :
  (forall r', (forall j, drb_bit r' j = drb_bit (o_regs o c) j) ->
     r_par_base r' = r_par_base (o_regs o c) ->
     r_par_mask r' = r_par_mask (o_regs o c) ->
     r_tlb_flushes r' = r_tlb_flushes (o_regs o c) + 1 ->
     Q 0 (with_regs o c r')) ->
  wp G c (op1 OFlushTlb) o Q.
Proof.
  intros H s V. cbn [op1 run step].
  eexists _, _, _. split; [reflexivity|split; [|apply H]].
  - destruct V. constructor; cbn -[ld st]; intros; auto.
    unfold upd. destruct (c0 =? c); [reflexivity|auto].
  - intros j. unfold drb_bit. cbn [r_drb]. rewrite (v_regs _ _ _ V). reflexivity.
  - cbn [r_par_base]. rewrite (v_regs _ _ _ V). reflexivity.
  - cbn [r_par_mask]. rewrite (v_regs _ _ _ V). reflexivity.
  - cbn [r_tlb_flushes]. rewrite (v_regs _ _ _ V). reflexivity.
Qed.
Lemma wp_set_dma c o ds de db dm (Q : N -> ost -> Prop) :
  Q 0 (with_dma o db dm ds de) ->
  wp G c (op1 (OSetDmaStart ds) ;; op1 (OSetDmaEnd de) ;; op1 (OSetDmarBase db) ;;
          op1 (OSetDmarMask dm)) o Q.
Proof.
  intros H s V. cbn [op1 bind run step].
  eexists _, _, _. split; [reflexivity|split; [|exact H]].
  destruct V. constructor; cbn -[ld st]; intros; auto.
Qed.
End Seq.
