(** * The monitor's memory, cell by cell.

    [view G s o]: the fields of the monitor's tables have the values listed in
    [o]; all other bytes are those of [o_rest o]. *)
From Coq Require Import NArith ZArith Lia Bool List.
From Coq Require Import ZifyBool ZifyNat ZifyN.
From Verif Require Import Word Machine ModelBare ModelHash ModelInl ModelRegions
  ModelMetadata ModelEnclave ModelBoot ModelApi Lib BareProofs SpecGeometry
  GeomProofs SpecMonitor.
Import ListNotations.
Open Scope N_scope.
Ltac Zify.zify_post_hook ::= Z.div_mod_to_equations.

Record ost := mkOst {
  o_lock : N -> N; o_owner : N -> N; o_prev : N -> N; o_pinned : N -> N;
  o_blocked : N -> N;
  o_clock : N;
  o_encl : N -> N; o_flushed : N -> N;
  o_bit : N -> bool;
  o_rest : mem;
  o_regs : N -> cregs;
  o_words : N; o_dmar_base : N; o_dmar_mask : N; o_dma_start : N; o_dma_end : N }.

Definition with_lock o r v := mkOst (upd (o_lock o) r v) (o_owner o) (o_prev o) (o_pinned o) (o_blocked o) (o_clock o) (o_encl o) (o_flushed o) (o_bit o) (o_rest o) (o_regs o) (o_words o) (o_dmar_base o) (o_dmar_mask o) (o_dma_start o) (o_dma_end o).
Definition with_owner o r v := mkOst (o_lock o) (upd (o_owner o) r v) (o_prev o) (o_pinned o) (o_blocked o) (o_clock o) (o_encl o) (o_flushed o) (o_bit o) (o_rest o) (o_regs o) (o_words o) (o_dmar_base o) (o_dmar_mask o) (o_dma_start o) (o_dma_end o).
Definition with_prev o r v := mkOst (o_lock o) (o_owner o) (upd (o_prev o) r v) (o_pinned o) (o_blocked o) (o_clock o) (o_encl o) (o_flushed o) (o_bit o) (o_rest o) (o_regs o) (o_words o) (o_dmar_base o) (o_dmar_mask o) (o_dma_start o) (o_dma_end o).
Definition with_pinned o r v := mkOst (o_lock o) (o_owner o) (o_prev o) (upd (o_pinned o) r v) (o_blocked o) (o_clock o) (o_encl o) (o_flushed o) (o_bit o) (o_rest o) (o_regs o) (o_words o) (o_dmar_base o) (o_dmar_mask o) (o_dma_start o) (o_dma_end o).
Definition with_blocked o r v := mkOst (o_lock o) (o_owner o) (o_prev o) (o_pinned o) (upd (o_blocked o) r v) (o_clock o) (o_encl o) (o_flushed o) (o_bit o) (o_rest o) (o_regs o) (o_words o) (o_dmar_base o) (o_dmar_mask o) (o_dma_start o) (o_dma_end o).
Definition with_clock o v := mkOst (o_lock o) (o_owner o) (o_prev o) (o_pinned o) (o_blocked o) v (o_encl o) (o_flushed o) (o_bit o) (o_rest o) (o_regs o) (o_words o) (o_dmar_base o) (o_dmar_mask o) (o_dma_start o) (o_dma_end o).
Definition with_flushed o c v := mkOst (o_lock o) (o_owner o) (o_prev o) (o_pinned o) (o_blocked o) (o_clock o) (o_encl o) (upd (o_flushed o) c v) (o_bit o) (o_rest o) (o_regs o) (o_words o) (o_dmar_base o) (o_dmar_mask o) (o_dma_start o) (o_dma_end o).
Definition with_bit o j v := mkOst (o_lock o) (o_owner o) (o_prev o) (o_pinned o) (o_blocked o) (o_clock o) (o_encl o) (o_flushed o) (upd (o_bit o) j v) (o_rest o) (o_regs o) (o_words o) (o_dmar_base o) (o_dmar_mask o) (o_dma_start o) (o_dma_end o).
Definition with_rest o m := mkOst (o_lock o) (o_owner o) (o_prev o) (o_pinned o) (o_blocked o) (o_clock o) (o_encl o) (o_flushed o) (o_bit o) m (o_regs o) (o_words o) (o_dmar_base o) (o_dmar_mask o) (o_dma_start o) (o_dma_end o).
Definition with_regs o c v := mkOst (o_lock o) (o_owner o) (o_prev o) (o_pinned o) (o_blocked o) (o_clock o) (o_encl o) (o_flushed o) (o_bit o) (o_rest o) (upd (o_regs o) c v) (o_words o) (o_dmar_base o) (o_dmar_mask o) (o_dma_start o) (o_dma_end o).
Definition with_dma o b m s e := mkOst (o_lock o) (o_owner o) (o_prev o) (o_pinned o) (o_blocked o) (o_clock o) (o_encl o) (o_flushed o) (o_bit o) (o_rest o) (o_regs o) (o_words o) b m s e.

(** Pointwise equality. *)
Record oeq (o o' : ost) : Prop := mkOeq {
  oe_lock : forall r, o_lock o' r = o_lock o r;
  oe_owner : forall r, o_owner o' r = o_owner o r;
  oe_prev : forall r, o_prev o' r = o_prev o r;
  oe_pinned : forall r, o_pinned o' r = o_pinned o r;
  oe_blocked : forall r, o_blocked o' r = o_blocked o r;
  oe_clock : o_clock o' = o_clock o;
  oe_encl : forall r, o_encl o' r = o_encl o r;
  oe_flushed : forall r, o_flushed o' r = o_flushed o r;
  oe_bit : forall r, o_bit o' r = o_bit o r;
  oe_rest : forall b, byte (o_rest o') b = byte (o_rest o) b;
  oe_regs : forall c, o_regs o' c = o_regs o c;
  oe_words : o_words o' = o_words o;
  oe_dmar_base : o_dmar_base o' = o_dmar_base o;
  oe_dmar_mask : o_dmar_mask o' = o_dmar_mask o;
  oe_dma_start : o_dma_start o' = o_dma_start o;
  oe_dma_end : o_dma_end o' = o_dma_end o }.

Definition rest (G : globals) (b : N) : Prop :=
  b < g_core G \/
  (g_core G <= b < g_dram_region G /\ 8 <= (b - g_core G) mod 32 < 24) \/
  g_os_region_bitmap G + 8 * g_dram_region_bitmap_words G <= b.

Record view (G : globals) (s : state) (o : ost) : Prop := mkView {
  v_lock : forall r, r < g_dram_region_count G ->
    ld 8 (s_mem s) (g_dram_region G + 40 * r) = o_lock o r;
  v_owner : forall r, r < g_dram_region_count G ->
    ld 8 (s_mem s) (g_dram_region G + 40 * r + 8) = o_owner o r;
  v_prev : forall r, r < g_dram_region_count G ->
    ld 8 (s_mem s) (g_dram_region G + 40 * r + 16) = o_prev o r;
  v_pinned : forall r, r < g_dram_region_count G ->
    ld 8 (s_mem s) (g_dram_region G + 40 * r + 24) = o_pinned o r;
  v_blocked : forall r, r < g_dram_region_count G ->
    ld 8 (s_mem s) (g_dram_region G + 40 * r + 32) = o_blocked o r;
  v_clock : ld 8 (s_mem s) (g_dram_regions G) = o_clock o;
  v_encl : forall c, c < g_core_count G ->
    ld 8 (s_mem s) (g_core G + 32 * c) = o_encl o c;
  v_flushed : forall c, c < g_core_count G ->
    ld 8 (s_mem s) (g_core G + 32 * c + 24) = o_flushed o c;
  v_bit : forall j, j < 64 * g_dram_region_bitmap_words G ->
    bit_at (s_mem s) (g_os_region_bitmap G) j = o_bit o j;
  v_rest : forall b, rest G b -> byte (s_mem s) b = byte (o_rest o) b;
  v_regs : forall c, s_cores s c = o_regs o c;
  v_words : s_words s = o_words o;
  v_dmar_base : s_dmar_base s = o_dmar_base o;
  v_dmar_mask : s_dmar_mask s = o_dmar_mask o;
  v_dma_start : s_dma_start s = o_dma_start o;
  v_dma_end : s_dma_end s = o_dma_end o }.

Lemma oeq_refl o : oeq o o. Proof. constructor; reflexivity. Qed.
Lemma oeq_sym o o' : oeq o o' -> oeq o' o.
Proof. intros []. constructor; intros; symmetry; auto. Qed.
Lemma oeq_trans o o' o'' : oeq o o' -> oeq o' o'' -> oeq o o''.
Proof. intros [] []. constructor; intros; etransitivity; eauto. Qed.

Lemma view_ext G s o o' : oeq o o' -> view G s o -> view G s o'.
Proof.
  intros [] []. constructor; intros;
    first [rewrite oe_lock0|rewrite oe_owner0|rewrite oe_prev0|rewrite oe_pinned0
          |rewrite oe_blocked0|rewrite oe_clock0|rewrite oe_encl0
          |rewrite oe_flushed0|rewrite oe_bit0|rewrite oe_rest0|rewrite oe_regs0
          |rewrite oe_words0|rewrite oe_dmar_base0|rewrite oe_dmar_mask0
          |rewrite oe_dma_start0|rewrite oe_dma_end0]; auto.
Qed.

(** Every state has a view. *)
Definition view_of (G : globals) (s : state) : ost :=
  let m := s_mem s in
  mkOst (fun r => ld 8 m (g_dram_region G + 40 * r))
    (fun r => ld 8 m (g_dram_region G + 40 * r + 8))
    (fun r => ld 8 m (g_dram_region G + 40 * r + 16))
    (fun r => ld 8 m (g_dram_region G + 40 * r + 24))
    (fun r => ld 8 m (g_dram_region G + 40 * r + 32))
    (ld 8 m (g_dram_regions G))
    (fun c => ld 8 m (g_core G + 32 * c))
    (fun c => ld 8 m (g_core G + 32 * c + 24))
    (fun j => bit_at m (g_os_region_bitmap G) j)
    m (s_cores s) (s_words s) (s_dmar_base s) (s_dmar_mask s) (s_dma_start s)
    (s_dma_end s).
Lemma view_of_view G s : view G s (view_of G s).
Proof. constructor; reflexivity. Qed.

Section View.
Variables (G : globals) (pb rb : N).
Hypothesis g : geom G pb rb.
Local Notation n := (g_dram_region_count G).
Local Notation W := (g_dram_region_bitmap_words G).

Lemma layout :
  g_core G + 32 * g_core_count G = g_dram_region G /\
  g_dram_regions G = g_dram_region G + 40 * n /\
  g_os_region_bitmap G = g_dram_regions G + 8 /\
  g_os_region_bitmap G + 8 * W <= g_monitor_top G /\
  n <= 64 * W /\ 1 < n /\ n < 2 ^ 31 /\
  g_monitor_top G <= 2 ^ 30.
Proof.
  destruct g. rewrite geo_count, geo_words.
  assert (2 ^ (12 + pb) <= 2 ^ 30) by (apply pow2_le; auto).
  assert (2 ^ rb <= 2 ^ 30) by (apply pow2_le; lia).
  assert (2 ^ 1 <= 2 ^ rb) by (apply pow2_le; lia).
  change (2 ^ 1) with 2 in *. change (2 ^ 30) with 1073741824 in *.
  change (2 ^ 31) with 2147483648.
  rewrite geo_bm, geo_drs, geo_dr in *. revert geo_end geo_fits H H0 H1.
  generalize (2 ^ rb) (2 ^ (12 + pb)). clear. intros. repeat split; lia.
Qed.

(** Two states with the same view agree everywhere. *)
Lemma view_same s s' o : view G s o -> view G s' o -> same_machine s s'.
Proof.
  intros V V'. pose proof layout as (L1 & L2 & L3 & L4 & L5 & L6 & L7 & L8).
  constructor.
  - intros b. fold (byte (s_mem s') b) (byte (s_mem s) b).
    assert (Cell : forall a j, j < 8 -> b = a + j ->
      ld 8 (s_mem s') a = ld 8 (s_mem s) a -> byte (s_mem s') b = byte (s_mem s) b).
    { intros a j J -> E. apply (ld_byte_inj 8); auto. }
    destruct (N.lt_ge_cases b (g_core G)) as [B1|B1].
    { rewrite (v_rest _ _ _ V), (v_rest _ _ _ V') by (left; auto). reflexivity. }
    destruct (N.lt_ge_cases b (g_dram_region G)) as [B2|B2].
    { set (k := (b - g_core G) / 32). assert (k < g_core_count G) by lia.
      destruct (N.lt_ge_cases ((b - g_core G) mod 32) 8).
      { apply (Cell (g_core G + 32 * k) ((b - g_core G) mod 32)); [lia|lia|].
        rewrite (v_encl _ _ _ V), (v_encl _ _ _ V') by auto. reflexivity. }
      destruct (N.lt_ge_cases ((b - g_core G) mod 32) 24).
      { rewrite (v_rest _ _ _ V), (v_rest _ _ _ V') by (right; left; lia). reflexivity. }
      apply (Cell (g_core G + 32 * k + 24) ((b - g_core G) mod 32 - 24)); [lia|lia|].
      rewrite (v_flushed _ _ _ V), (v_flushed _ _ _ V') by auto. reflexivity. }
    destruct (N.lt_ge_cases b (g_dram_regions G)) as [B3|B3].
    { set (r := (b - g_dram_region G) / 40). assert (r < n) by lia.
      set (f := (b - g_dram_region G) mod 40).
      assert (f < 40 /\ b = g_dram_region G + 40 * r + f) as [F1 F2] by lia.
      clearbody r f.
      destruct (N.lt_ge_cases f 8).
      { apply (Cell (g_dram_region G + 40 * r) f); [lia|lia|].
        rewrite (v_lock _ _ _ V), (v_lock _ _ _ V') by auto. reflexivity. }
      destruct (N.lt_ge_cases f 16).
      { apply (Cell (g_dram_region G + 40 * r + 8) (f - 8)); [lia|lia|].
        rewrite (v_owner _ _ _ V), (v_owner _ _ _ V') by auto. reflexivity. }
      destruct (N.lt_ge_cases f 24).
      { apply (Cell (g_dram_region G + 40 * r + 16) (f - 16)); [lia|lia|].
        rewrite (v_prev _ _ _ V), (v_prev _ _ _ V') by auto. reflexivity. }
      destruct (N.lt_ge_cases f 32).
      { apply (Cell (g_dram_region G + 40 * r + 24) (f - 24)); [lia|lia|].
        rewrite (v_pinned _ _ _ V), (v_pinned _ _ _ V') by auto. reflexivity. }
      apply (Cell (g_dram_region G + 40 * r + 32) (f - 32)); [lia|lia|].
      rewrite (v_blocked _ _ _ V), (v_blocked _ _ _ V') by auto. reflexivity. }
    destruct (N.lt_ge_cases b (g_os_region_bitmap G)) as [B4|B4].
    { apply (Cell (g_dram_regions G) (b - g_dram_regions G)); [lia|lia|].
      rewrite (v_clock _ _ _ V), (v_clock _ _ _ V'). reflexivity. }
    destruct (N.lt_ge_cases b (g_os_region_bitmap G + 8 * W)) as [B5|B5].
    { apply N.bits_inj. intros t. destruct (N.lt_ge_cases t 8) as [T|T].
      - pose proof (v_bit _ _ _ V (8 * (b - g_os_region_bitmap G) + t)) as E.
        pose proof (v_bit _ _ _ V' (8 * (b - g_os_region_bitmap G) + t)) as E'.
        unfold bit_at in E, E'.
        replace ((8 * (b - g_os_region_bitmap G) + t) / 8)
          with (b - g_os_region_bitmap G) in E, E' by lia.
        replace ((8 * (b - g_os_region_bitmap G) + t) mod 8) with t in E, E' by lia.
        replace (g_os_region_bitmap G + (b - g_os_region_bitmap G)) with b in E, E' by lia.
        rewrite E, E' by lia. reflexivity.
      - rewrite !(testbit_small _ 8); auto;
        unfold byte; change (2 ^ 8) with 256; apply N.mod_lt; discriminate. }
    rewrite (v_rest _ _ _ V), (v_rest _ _ _ V') by (right; right; auto). reflexivity.
  - intros c. rewrite (v_regs _ _ _ V), (v_regs _ _ _ V'). reflexivity.
  - rewrite (v_words _ _ _ V), (v_words _ _ _ V'). reflexivity.
  - rewrite (v_dmar_base _ _ _ V), (v_dmar_base _ _ _ V'). reflexivity.
  - rewrite (v_dmar_mask _ _ _ V), (v_dmar_mask _ _ _ V'). reflexivity.
  - rewrite (v_dma_start _ _ _ V), (v_dma_start _ _ _ V'). reflexivity.
  - rewrite (v_dma_end _ _ _ V), (v_dma_end _ _ _ V'). reflexivity.
Qed.

Lemma bit_at_st_out m a v j : j < 64 * W ->
  a + 8 <= g_os_region_bitmap G \/ g_os_region_bitmap G + 8 * W <= a ->
  bit_at (st 8 m a v) (g_os_region_bitmap G) j = bit_at m (g_os_region_bitmap G) j.
Proof.
  intros J A. unfold bit_at. rewrite byte_st_out; auto.
  change (N.of_nat 8) with 8. lia.
Qed.

Ltac other := rewrite ld_st_other by (change (N.of_nat 8) with 8; lia); auto.
Ltac cell V r H :=
  pose proof layout as (L1 & L2 & L3 & L4 & L5 & L6 & L7 & L8);
  destruct V; constructor; cbn -[ld st]; intros; auto;
  try (other; fail);
  try (rewrite bit_at_st_out; auto; lia; fail);
  try (match goal with R : rest G ?b |- _ =>
         rewrite byte_st_out; auto; change (N.of_nat 8) with 8; unfold rest in R; lia
       end; fail);
  try (unfold upd; match goal with |- context [?x =? r] =>
         destruct (N.eqb_spec x r) as [->|NE];
         [apply ld8_st8; exact H
         |other] end; fail).

Lemma v_set_lock s o r v : v < W64 -> r < n -> view G s o ->
  view G (set_mem s (st 8 (s_mem s) (g_dram_region G + 40 * r) v)) (with_lock o r v).
Proof. intros H R V. cell V r H. Qed.
Lemma v_set_owner s o r v : v < W64 -> r < n -> view G s o ->
  view G (set_mem s (st 8 (s_mem s) (g_dram_region G + 40 * r + 8) v)) (with_owner o r v).
Proof. intros H R V. cell V r H. Qed.
Lemma v_set_prev s o r v : v < W64 -> r < n -> view G s o ->
  view G (set_mem s (st 8 (s_mem s) (g_dram_region G + 40 * r + 16) v)) (with_prev o r v).
Proof. intros H R V. cell V r H. Qed.
Lemma v_set_pinned s o r v : v < W64 -> r < n -> view G s o ->
  view G (set_mem s (st 8 (s_mem s) (g_dram_region G + 40 * r + 24) v)) (with_pinned o r v).
Proof. intros H R V. cell V r H. Qed.
Lemma v_set_blocked s o r v : v < W64 -> r < n -> view G s o ->
  view G (set_mem s (st 8 (s_mem s) (g_dram_region G + 40 * r + 32) v)) (with_blocked o r v).
Proof. intros H R V. cell V r H. Qed.
Lemma v_set_flushed s o c v : v < W64 -> c < g_core_count G -> view G s o ->
  view G (set_mem s (st 8 (s_mem s) (g_core G + 32 * c + 24) v)) (with_flushed o c v).
Proof. intros H R V. cell V c H. Qed.
Lemma v_set_clock s o v : v < W64 -> view G s o ->
  view G (set_mem s (st 8 (s_mem s) (g_dram_regions G) v)) (with_clock o v).
Proof. intros H V. cell V v H. apply ld8_st8; auto. Qed.
Lemma v_set_bit s o j v : j < n -> view G s o ->
  view G (set_mem s (bit_updated_mem (s_mem s) (g_os_region_bitmap G) j v)) (with_bit o j v).
Proof.
  intros J V. pose proof layout as (L1 & L2 & L3 & L4 & L5 & L6 & L7 & L8).
  assert (O : forall a, a + 8 <= g_os_region_bitmap G ->
    ld 8 (bit_updated_mem (s_mem s) (g_os_region_bitmap G) j v) a = ld 8 (s_mem s) a).
  { intros a A. unfold bit_updated_mem, word_of_bit.
    rewrite ld_st_other; auto. change (N.of_nat 8) with 8. lia. }
  destruct V; constructor; cbn -[ld st]; intros; auto; try (rewrite O; auto; lia; fail).
  - rewrite bit_updated_bit. unfold upd. destruct (N.eqb_spec j0 j); auto.
  - rewrite bit_updated_byte; auto. unfold rest in *. lia.
Qed.
(** Any change confined to the other bytes. *)
Lemma v_set_rest s o m' : view G s o ->
  (forall b, ~ rest G b -> byte m' b = byte (s_mem s) b) ->
  view G (set_mem s m') (with_rest o m').
Proof.
  intros V H. pose proof layout as (L1 & L2 & L3 & L4 & L5 & L6 & L7 & L8).
  assert (O : forall a, (forall b, a <= b < a + 8 -> ~ rest G b) ->
    ld 8 m' a = ld 8 (s_mem s) a).
  { intros a A. apply ld_byte. intros b B1 B2. apply H, A.
    change (N.of_nat 8) with 8 in B2. lia. }
  unfold rest in *.
  destruct V; constructor; cbn -[ld st]; intros; auto; try (rewrite O; auto; lia; fail).
  unfold bit_at. rewrite H by lia. apply v_bit0; auto.
Qed.
End View.
