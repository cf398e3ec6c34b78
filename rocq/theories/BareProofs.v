(** * Proofs about src/bare (properties C01 - C07). *)
From Coq Require Import NArith ZArith Lia Bool List.
From Coq Require Import ZifyBool ZifyNat ZifyN.
From Verif Require Import Word Machine ModelBare Lib.
Import ListNotations.
Open Scope N_scope.
Ltac Zify.zify_post_hook ::= Z.div_mod_to_equations.

Lemma page_size_val : page_size = 4096.
Proof. reflexivity. Qed.

(** ** Range masks *)

Lemma land_succ_pow2 m : N.land m (m + 1) = 0 -> exists k, m + 1 = 2 ^ k.
Proof.
  induction m as [m IH] using (well_founded_induction N.lt_wf_0). intros H.
  destruct (N.eq_dec m 0) as [->|Z]; [exists 0; reflexivity|].
  destruct (N.even m) eqn:E.
  - apply N.even_spec in E. destruct E as [p ->].
    exfalso. apply Z.
    rewrite <- H. apply N.bits_inj. intros i. rewrite N.land_spec.
    destruct (N.eq_dec i 0) as [->|I].
    + rewrite N.testbit_even_0. reflexivity.
    + replace i with (N.succ (i - 1)) by lia.
      rewrite N.testbit_odd_succ, N.testbit_even_succ by lia.
      symmetry. apply andb_diag.
  - assert (O : N.odd m = true) by (rewrite <- N.negb_even, E; reflexivity).
    apply N.odd_spec in O. destruct O as [p ->].
    destruct (IH p) as [k K]; [lia| |].
    + apply N.bits_inj. intros i. rewrite N.bits_0.
      assert (T : N.testbit (N.land (2 * p + 1) (2 * p + 1 + 1)) (N.succ i) = false)
        by (rewrite H; apply N.bits_0).
      rewrite N.land_spec in T.
      replace (2 * p + 1 + 1) with (2 * (p + 1)) in T by lia.
      rewrite N.testbit_odd_succ, N.testbit_even_succ in T by lia.
      rewrite N.land_spec. exact T.
    + exists (k + 1). rewrite N.pow_add_r. change (2 ^ 1) with 2. lia.
Qed.

Lemma land_pred_pow2 k : N.land (2 ^ k - 1) (2 ^ k) = 0.
Proof.
  rewrite N.land_comm, land_mask. apply N.mod_same, pow2_nz.
Qed.

Lemma range_mask_iff mask : mask < W64 ->
  is_valid_range_mask mask = true <-> exists k, k <= 64 /\ mask = 2 ^ k - 1.
Proof.
  intros Hm. unfold is_valid_range_mask. rewrite N.eqb_eq. split.
  - intros H. destruct (N.eq_dec mask (W64 - 1)) as [->|Ne].
    + exists 64. split; [lia|reflexivity].
    + rewrite wadd_small in H by lia.
      apply land_succ_pow2 in H. destruct H as [k K].
      exists k. split; [|lia].
      destruct (N.le_gt_cases k 64) as [|G]; auto.
      apply pow2_lt in G. rewrite <- K in G. change (2 ^ 64) with W64 in G. lia.
  - intros [k [K ->]]. pose proof (pow2_pos k).
    destruct (N.eq_dec k 64) as [->|Ne]; [reflexivity|].
    assert (2 ^ k < W64) by (rewrite W64_pow; apply pow2_lt; lia).
    rewrite wadd_small by lia.
    replace (2 ^ k - 1 + 1) with (2 ^ k) by lia. apply land_pred_pow2.
Qed.

Lemma range_iff base mask : base < W64 -> mask < W64 ->
  is_valid_range base mask = true <->
  exists k, k <= 64 /\ mask = 2 ^ k - 1 /\ base mod 2 ^ k = 0.
Proof.
  intros Hb Hm. unfold is_valid_range. rewrite andb_true_iff, range_mask_iff by auto.
  unfold is_aligned_to_mask. rewrite N.eqb_eq. split.
  - intros [A [k [K ->]]]. rewrite land_mask in A. eauto.
  - intros [k [K [-> A]]]. rewrite land_mask. eauto.
Qed.

Lemma land_wnot_mask a k : a < W64 -> k <= 64 ->
  N.land a (wnot (2 ^ k - 1)) = a - a mod 2 ^ k.
Proof.
  intros A K. assert (E : a - a mod 2 ^ k = (a / 2 ^ k) * 2 ^ k).
  { apply sub_mod_eq, pow2_nz. }
  rewrite E. apply N.bits_inj. intros n. rewrite N.land_spec.
  destruct (N.lt_ge_cases n 64) as [L|L].
  - rewrite wnot_testbit by auto. rewrite <- ones_pred.
    destruct (N.lt_ge_cases n k) as [L2|L2].
    + rewrite N.ones_spec_low, N.mul_pow2_bits_low by auto. apply andb_false_r.
    + rewrite N.ones_spec_high, N.mul_pow2_bits_high by auto.
      rewrite N.div_pow2_bits. replace (n - k + k) with n by lia.
      apply andb_true_r.
  - rewrite (testbit_small a 64) by auto. cbn.
    rewrite N.mul_pow2_bits_high, N.div_pow2_bits by lia.
    symmetry. apply testbit_small with 64; auto. lia.
Qed.

Lemma mod_pow_le_self base k : base < W64 -> k <= 64 -> base mod 2 ^ k = 0 ->
  base + (2 ^ k - 1) < W64.
Proof.
  intros B K M. rewrite W64_pow, (pow2_split k 64) in * by auto.
  pose proof (pow2_pos k).
  apply N.mod_divide in M; [|apply pow2_nz]. destruct M as [q ->].
  set (P := 2 ^ k) in *. set (Q := 2 ^ (64 - k)) in *.
  assert (q < Q) by nia. nia.
Qed.

Lemma range_members base mask a :
  base < W64 -> mask < W64 -> a < W64 -> is_valid_range base mask = true ->
  (N.land a (wnot mask) = base <-> base <= a <= base + mask).
Proof.
  intros Hb Hm Ha H. apply range_iff in H; auto. destruct H as [k [K [-> A]]].
  rewrite land_wnot_mask by auto.
  pose proof (pow2_pos k) as P. set (Q := 2 ^ k) in *.
  assert (Qn : Q <> 0) by lia.
  pose proof (N.div_mod a Q Qn). pose proof (N.div_mod base Q Qn).
  pose proof (N.mod_lt a Q Qn). pose proof (N.mod_lt base Q Qn).
  split; intros.
  - lia.
  - rewrite A in *. set (x := a / Q) in *. set (y := base / Q) in *.
    assert (x = y); [|nia].
    destruct (N.lt_trichotomy x y) as [L|[L|L]]; auto; nia.
Qed.

Lemma range_last base mask :
  base < W64 -> mask < W64 -> is_valid_range base mask = true ->
  N.lor base mask = base + mask /\ base + mask < W64.
Proof.
  intros Hb Hm H. apply range_iff in H; auto. destruct H as [k [K [-> A]]].
  split; [|apply mod_pow_le_self; auto].
  apply N.mod_divide in A; [|apply pow2_nz]. destruct A as [q ->].
  apply lor_add_mul. pose proof (pow2_pos k). lia.
Qed.

(** ** Pages *)

Lemma page_aligned_iff a : is_page_aligned a = true <-> a mod 4096 = 0.
Proof.
  unfold is_page_aligned, is_aligned_to_mask. rewrite N.eqb_eq, page_size_val.
  change (wsub 4096 1) with (2 ^ 12 - 1). rewrite land_mask. reflexivity.
Qed.

Lemma pages_needed_val n : n + 4096 <= W64 ->
  pages_needed_for n = (n + 4095) / 4096.
Proof.
  intros H. unfold pages_needed_for. rewrite page_size_val.
  assert (E : wsub (wadd n 4096) 1 = n + 4095).
  { unfold wsub, wadd, W64 in *. lia. }
  rewrite E, wshr_small by reflexivity. reflexivity.
Qed.

Lemma pages_needed_ceil n : n + 4096 <= W64 ->
  n <= pages_needed_for n * 4096 /\
  forall q, n <= q * 4096 -> pages_needed_for n <= q.
Proof. intros H. rewrite pages_needed_val by auto. split; [|intros q]; lia. Qed.

Lemma pages_needed_wraps n : n < W64 -> W64 < n + 4096 -> pages_needed_for n = 0.
Proof.
  intros H1 H2. unfold pages_needed_for. rewrite page_size_val.
  assert (E : wsub (wadd n 4096) 1 = n + 4095 - W64).
  { unfold wsub, wadd, W64 in *. lia. }
  rewrite E, wshr_small by reflexivity. change (2 ^ page_shift) with 4096.
  unfold W64 in *. lia.
Qed.

(** ** Address bits *)

Lemma address_bits_loop_val fuel : forall v bits,
  v < 2 ^ N.of_nat fuel -> bits + N.of_nat fuel < W64 ->
  address_bits_loop fuel v bits = bits + N.size v.
Proof.
  induction fuel as [|fuel IH]; intros v bits V B.
  - change (2 ^ N.of_nat 0) with 1 in V. assert (v = 0) by lia. subst.
    cbn. lia.
  - cbn [address_bits_loop]. destruct (N.ltb_spec 0 v) as [L|L].
    + assert (E : v < 2 * 2 ^ N.of_nat fuel).
      { replace (N.of_nat (S fuel)) with (N.succ (N.of_nat fuel)) in V by lia.
        rewrite N.pow_succ_r' in V. exact V. }
      rewrite shiftr_div. change (2 ^ 1) with 2.
      rewrite IH.
      * rewrite wadd_small by lia.

        assert (S : N.size v = N.succ (N.size (v / 2))).
        { destruct (N.eq_dec (v / 2) 0) as [Z|Z].
          - assert (v = 1) by lia. subst. reflexivity.
          - rewrite !N.size_log2 by lia. f_equal.
            pose proof (N.log2_shiftr v 1) as LS. rewrite shiftr_div in LS.
            change (2 ^ 1) with 2 in LS. rewrite LS.
            assert (0 < N.log2 v) by (apply N.log2_pos; lia). lia. }
        rewrite S. lia.
      * lia.
      * rewrite wadd_small by lia. lia.
    + assert (v = 0) by lia. subst. cbn. lia.
Qed.

Lemma address_bits_val n : 1 <= n -> n < W64 ->
  address_bits_for n = N.size (n - 1).
Proof.
  intros. unfold address_bits_for. rewrite wsub_small by lia.
  rewrite address_bits_loop_val; [reflexivity| |reflexivity].
  change (2 ^ N.of_nat 64) with W64. lia.
Qed.

Lemma size_le_iff a k : N.size a <= k <-> a < 2 ^ k.
Proof.
  destruct (N.eq_dec a 0) as [->|Z].
  - cbn. pose proof (pow2_pos k). split; intros; [lia|]. cbn. lia.
  - rewrite N.size_log2 by auto. split; intros H.
    + apply N.log2_lt_pow2; lia.
    + apply N.log2_lt_pow2 in H; lia.
Qed.

Lemma address_bits_iff n k : 1 <= n -> n < W64 ->
  address_bits_for n <= k <-> n <= 2 ^ k.
Proof.
  intros. rewrite address_bits_val, size_le_iff by auto. lia.
Qed.

Lemma address_bits_spec n : 1 <= n -> n < W64 ->
  n <= 2 ^ address_bits_for n /\ forall j, n <= 2 ^ j -> address_bits_for n <= j.
Proof.
  intros. split; [|intros j]; apply address_bits_iff; auto. reflexivity.
Qed.

Lemma address_bits_le64 n : n < W64 -> address_bits_for n <= 64.
Proof.
  intros H. destruct (N.eq_dec n 0) as [->|Z]; [vm_compute; discriminate|].
  apply address_bits_iff; try lia. change (2 ^ 64) with W64. lia.
Qed.

Lemma address_bits_pow2 k : k < 64 -> address_bits_for (2 ^ k) = k.
Proof.
  intros K. assert (2 ^ k < W64) by (rewrite W64_pow; apply pow2_lt; auto).
  pose proof (pow2_pos k). apply N.le_antisymm.
  - apply address_bits_iff; lia.
  - assert (A : 2 ^ k <= 2 ^ address_bits_for (2 ^ k))
      by (apply address_bits_iff; lia).
    apply pow2_le_inv in A. auto.
Qed.

Lemma ceil_pow2_val n : 1 <= n -> n <= 2 ^ 30 ->
  ceil_power_of_two n = 2 ^ address_bits_for n.
Proof.
  intros. change (2 ^ 30) with 1073741824 in *.
  unfold ceil_power_of_two. apply int_shl_one.
  apply address_bits_iff; auto. unfold W64. lia.
Qed.

Lemma ceil_pow2_spec n : 1 <= n -> n <= 2 ^ 30 ->
  (exists k, ceil_power_of_two n = 2 ^ k) /\ n <= ceil_power_of_two n /\
  forall k, n <= 2 ^ k -> ceil_power_of_two n <= 2 ^ k.
Proof.
  intros H1 H2. rewrite ceil_pow2_val by auto.
  assert (n < W64) by (change (2 ^ 30) with 1073741824 in *; unfold W64; lia).
  destruct (address_bits_spec n) as [A B]; auto.
  repeat split; eauto. intros k K. apply pow2_le. auto.
Qed.

Lemma power_of_two_iff n : n < W64 ->
  is_power_of_two n = true <-> exists k, n = 2 ^ k.
Proof.
  intros H. unfold is_power_of_two. rewrite andb_true_iff, N.ltb_lt.
  split.
  - intros [L M]. rewrite wsub_small in M by lia.
    apply range_mask_iff in M; [|lia]. destruct M as [k [K E]].
    exists k. pose proof (pow2_pos k). lia.
  - intros [k ->]. pose proof (pow2_pos k). split; auto.
    rewrite wsub_small by lia. apply range_mask_iff; [lia|].
    exists k. split; auto. apply pow2_le_inv. change (2 ^ 64) with W64. lia.
Qed.

(** ** Bitmaps. The specification numbers the bits of a bitmap by byte. *)
Definition bit_at (m : mem) (bitmap i : N) : bool :=
  N.testbit (byte m (bitmap + i / 8)) (i mod 8).

Lemma byte_testbit_ld n m a j t : j < N.of_nat n -> t < 8 ->
  N.testbit (byte m (a + j)) t = N.testbit (ld n m a) (8 * j + t).
Proof.
  intros J T. rewrite (byte_of_ld n) by auto.
  change 256 with (2 ^ 8). rewrite N.mod_pow2_bits_low by auto.
  rewrite N.div_pow2_bits. f_equal. lia.
Qed.

Lemma bit_at_word m bitmap i :
  bit_at m bitmap i = N.testbit (ld 8 m (bitmap + 8 * (i / 64))) (i mod 64).
Proof.
  unfold bit_at.
  replace (bitmap + i / 8) with (bitmap + 8 * (i / 64) + (i / 8 - 8 * (i / 64))) by lia.
  rewrite (byte_testbit_ld 8) by lia. f_equal. lia.
Qed.

Definition word_of_bit (bitmap i : N) : N := bitmap + 8 * (i / 64).

Lemma bit_mask_val i : wshl 1 (i mod 64) = 2 ^ (i mod 64).
Proof.
  rewrite wshl_small; try lia.
  assert (2 ^ (i mod 64) < 2 ^ 64) by (apply pow2_lt; lia).
  change W64 with (2 ^ 64). lia.
Qed.

Lemma read_bitmap_bit_run c s bitmap i :
  word_of_bit bitmap i < W64 ->
  run c (read_bitmap_bit bitmap i) s = (s, Some (bit_at (s_mem s) bitmap i)).
Proof.
  unfold word_of_bit. intros H. unfold read_bitmap_bit.
  rewrite wmul_small, wadd_small by lia.
  rewrite run_bind, run_load64. cbn [run]. do 2 f_equal.
  rewrite bit_mask_val, bit_at_word.
  set (w := ld 8 _ _). set (k := i mod 64).
  destruct (N.testbit w k) eqn:T.
  - destruct (N.eqb_spec (N.land w (2 ^ k)) 0) as [E|E]; auto.
    exfalso. assert (X : N.testbit (N.land w (2 ^ k)) k = false)
      by (rewrite E; apply N.bits_0).
    rewrite N.land_spec, testbit_pow2, N.eqb_refl, T in X. discriminate.
  - replace (N.land w (2 ^ k)) with 0; auto.
    symmetry. apply N.bits_inj. intros n.
    rewrite N.land_spec, testbit_pow2, N.bits_0.
    destruct (N.eqb_spec k n) as [<-|]; rewrite ?T; auto using andb_false_r.
Qed.

(** The word written by set_bitmap_bit. *)
Definition updated_word (w k : N) (v : bool) : N :=
  if v then N.lor w (2 ^ k) else N.land w (wnot (2 ^ k)).

Lemma updated_word_spec w k v n : k < 64 -> w < W64 ->
  N.testbit (updated_word w k v) n = if n =? k then v else N.testbit w n.
Proof.
  intros K W. unfold updated_word. destruct v.
  - rewrite N.lor_spec, testbit_pow2. rewrite (N.eqb_sym k n).
    destruct (n =? k); auto using orb_true_r, orb_false_r.
  - rewrite N.land_spec. destruct (N.lt_ge_cases n 64) as [L|L].
    + rewrite wnot_testbit, testbit_pow2 by auto. rewrite (N.eqb_sym k n).
      destruct (n =? k); cbn; auto using andb_false_r, andb_true_r.
    + rewrite (testbit_small w 64) by auto.
      destruct (N.eqb_spec n k); cbn; auto; lia.
Qed.
Lemma updated_word_lt w k v : k < 64 -> w < W64 -> updated_word w k v < W64.
Proof.
  intros K W. rewrite W64_pow in *. apply small_of_testbit. intros n L.
  rewrite updated_word_spec by (auto; rewrite W64_pow; auto).
  rewrite (testbit_small w 64) by auto. destruct (N.eqb_spec n k); auto; lia.
Qed.

Definition bit_updated_mem (m : mem) (bitmap i : N) (v : bool) : mem :=
  st 8 m (word_of_bit bitmap i)
    (updated_word (ld 8 m (word_of_bit bitmap i)) (i mod 64) v).

Lemma set_bitmap_bit_run c s bitmap i v :
  word_of_bit bitmap i < W64 ->
  run c (set_bitmap_bit bitmap i v) s =
  (set_mem s (bit_updated_mem (s_mem s) bitmap i v), Some tt).
Proof.
  intros H. unfold set_bitmap_bit. unfold word_of_bit in *.
  rewrite wmul_small, wadd_small by lia.
  rewrite run_bind, run_load64, bit_mask_val.
  unfold bit_updated_mem, updated_word, word_of_bit.
  rewrite run_bind. destruct v; rewrite run_store64; reflexivity.
Qed.

Lemma bit_updated_bit m bitmap i v j :
  bit_at (bit_updated_mem m bitmap i v) bitmap j =
  if j =? i then v else bit_at m bitmap j.
Proof.
  rewrite !bit_at_word. unfold bit_updated_mem, word_of_bit.
  destruct (N.eq_dec (j / 64) (i / 64)) as [E|E].
  - rewrite E, ld8_st8.
    + rewrite updated_word_spec by (lia || apply ld8_bound).
      destruct (N.eqb_spec (j mod 64) (i mod 64)), (N.eqb_spec j i); auto; lia.
    + apply updated_word_lt; [lia|apply ld8_bound].
  - rewrite ld_st_other by lia.
    destruct (N.eqb_spec j i); auto. subst. congruence.
Qed.

Lemma bit_updated_byte m bitmap i v b : b <> bitmap + i / 8 ->
  byte (bit_updated_mem m bitmap i v) b = byte m b.
Proof.
  intros H. unfold bit_updated_mem.
  set (wa := word_of_bit bitmap i).
  destruct (N.lt_ge_cases b wa) as [L|L]; [rewrite byte_st_out; auto|].
  destruct (N.lt_ge_cases b (wa + 8)) as [L2|L2];
    [|rewrite byte_st_out; auto].
  (* a byte of the word, different from the one that holds the bit *)
  apply N.bits_inj. intros t.
  destruct (N.lt_ge_cases t 8) as [T|T].
  - replace b with (wa + (b - wa)) by lia.
    rewrite !(byte_testbit_ld 8) by lia.
    rewrite ld8_st8 by (apply updated_word_lt; [lia|apply ld8_bound]).
    rewrite updated_word_spec by (lia || apply ld8_bound).
    destruct (N.eqb_spec (8 * (b - wa) + t) (i mod 64)); auto.
    exfalso. apply H. subst wa. unfold word_of_bit in *. lia.
  - rewrite !(testbit_small _ 8); auto;
      unfold byte; change (2 ^ 8) with 256; apply N.mod_lt; discriminate.
Qed.

(** ** bzero and bcopy *)

Lemma bzero_loop c start n : forall i s,
  start + 8 * (i + N.of_nat n) <= W64 ->
  exists m,
    run c (for_n n i (fun i => store64 (wadd start (wmul 8 i)) 0 ;; Ret tt)) s
      = (set_mem s m, Some tt) /\
    (forall b, start + 8 * i <= b < start + 8 * (i + N.of_nat n) ->
       byte m b = 0) /\
    (forall b, b < start + 8 * i \/ start + 8 * (i + N.of_nat n) <= b ->
       m b = s_mem s b).
Proof.
  induction n as [|n IH]; intros i s H.
  - exists (s_mem s). rewrite set_mem_id. repeat split; auto. lia.
  - cbn [for_n]. rewrite run_bind, run_bind, run_store64. cbn [run].
    assert (A : wadd start (wmul 8 i) = start + 8 * i)
      by (rewrite wmul_small, wadd_small by lia; reflexivity).
    rewrite A.
    destruct (IH (i + 1) (set_mem s (st 8 (s_mem s) (start + 8 * i) 0)))
      as [m [R [Z F]]]; [lia|].
    exists m. split; [|split].
    + rewrite R. reflexivity.
    + intros b B. destruct (N.lt_ge_cases b (start + 8 * (i + 1))) as [L|L].
      * unfold byte. rewrite F by lia. cbn [s_mem set_mem].
        rewrite st_in by lia. rewrite N.div_0_l by (apply pow2_nz). reflexivity.
      * apply Z. lia.
    + intros b B. rewrite F by lia. cbn [s_mem set_mem]. apply st_out. lia.
Qed.

Lemma bzero64_run c s start bytes :
  bytes mod 8 = 0 -> start + bytes <= W64 ->
  exists m, run c (bzero64 start bytes) s = (set_mem s m, Some tt) /\
    (forall b, start <= b < start + bytes -> byte m b = 0) /\
    (forall b, b < start \/ start + bytes <= b -> m b = s_mem s b).
Proof.
  intros M H. unfold bzero64.
  destruct (bzero_loop c start (N.to_nat (bytes / 8)) 0 s) as [m [R [Z F]]].
  - rewrite N2Nat.id. lia.
  - exists m. rewrite N2Nat.id in *. split; [exact R|]. split; intros b B.
    + apply Z. lia.
    + apply F. lia.
Qed.

Lemma bcopy_loop c dest source n : forall i s,
  dest + 8 * (i + N.of_nat n) <= W64 -> source + 8 * (i + N.of_nat n) <= W64 ->
  (dest + 8 * (i + N.of_nat n) <= source + 8 * i \/
   source + 8 * (i + N.of_nat n) <= dest + 8 * i) ->
  exists m,
    run c (for_n n i (fun i => v <- load64 (wadd source (wmul 8 i)) ;;
              store64 (wadd dest (wmul 8 i)) v ;; Ret tt)) s
      = (set_mem s m, Some tt) /\
    (forall j, 8 * i <= j < 8 * (i + N.of_nat n) ->
       byte m (dest + j) = byte (s_mem s) (source + j)) /\
    (forall b, b < dest + 8 * i \/ dest + 8 * (i + N.of_nat n) <= b ->
       m b = s_mem s b).
Proof.
  induction n as [|n IH]; intros i s H1 H2 D.
  - exists (s_mem s). rewrite set_mem_id. repeat split; auto. lia.
  - cbn [for_n]. rewrite run_bind, run_bind, run_load64, run_bind, run_store64.
    cbn [run].
    assert (A : forall x, x + 8 * (i + N.of_nat (S n)) <= W64 ->
                wadd x (wmul 8 i) = x + 8 * i)
      by (intros; rewrite wmul_small, wadd_small by lia; reflexivity).
    rewrite !A by auto.
    set (v := ld 8 _ _).
    destruct (IH (i + 1) (set_mem s (st 8 (s_mem s) (dest + 8 * i) v)))
      as [m [R [Z F]]]; try lia.
    exists m. split; [|split].
    + rewrite R. reflexivity.
    + intros j J. destruct (N.lt_ge_cases j (8 * (i + 1))) as [L|L].
      * unfold byte at 1. rewrite F by lia. cbn [s_mem set_mem].
        change (st 8 (s_mem s) (dest + 8 * i) v (dest + j) mod 256)
          with (byte (st 8 (s_mem s) (dest + 8 * i) v) (dest + j)).
        rewrite byte_st_in by lia.
        replace (source + j) with (source + 8 * i + (j - 8 * i)) by lia.
        rewrite (byte_of_ld 8) by lia. unfold v. do 3 f_equal. lia.
      * rewrite Z by lia. cbn [s_mem set_mem]. apply byte_st_out. lia.
    + intros b B. rewrite F by lia. cbn [s_mem set_mem]. apply st_out. lia.
Qed.

Lemma bcopy64_run c s dest source bytes :
  bytes mod 8 = 0 -> dest + bytes <= W64 -> source + bytes <= W64 ->
  dest + bytes <= source \/ source + bytes <= dest ->
  exists m, run c (bcopy64 dest source bytes) s = (set_mem s m, Some tt) /\
    (forall j, j < bytes -> byte m (dest + j) = byte (s_mem s) (source + j)) /\
    (forall b, b < dest \/ dest + bytes <= b -> m b = s_mem s b).
Proof.
  intros M H1 H2 D. unfold bcopy64.
  destruct (bcopy_loop c dest source (N.to_nat (bytes / 8)) 0 s) as [m [R [Z F]]];
    rewrite ?N2Nat.id; try lia.
  exists m. rewrite N2Nat.id in *. split; [exact R|]. split.
  - intros j J. apply Z. lia.
  - intros b B. apply F. lia.
Qed.

(** ** Byte reversal *)

Definition be4 (b0 b1 b2 b3 : N) : N :=
  b0 * 2 ^ 24 + b1 * 2 ^ 16 + b2 * 2 ^ 8 + b3.
Definition le4 (b0 b1 b2 b3 : N) : N :=
  b0 + b1 * 2 ^ 8 + b2 * 2 ^ 16 + b3 * 2 ^ 24.

Lemma reverse_bytes_le4 b0 b1 b2 b3 :
  b0 < 256 -> b1 < 256 -> b2 < 256 -> b3 < 256 ->
  reverse_bytes (le4 b0 b1 b2 b3) = be4 b0 b1 b2 b3.
Proof.
  intros H0 H1 H2 H3. unfold reverse_bytes.
  set (v := le4 b0 b1 b2 b3).
  assert (E0 : N.land v 255 = b0).
  { change 255 with (2 ^ 8 - 1). rewrite land_mask. unfold v, le4. lia. }
  assert (E1 : N.land v 65280 = b1 * 2 ^ 8).
  { change 65280 with ((2 ^ 8 - 1) * 2 ^ 8). rewrite land_block.
    unfold v, le4. lia. }
  assert (E3 : N.land (N.shiftr v 24) 255 = b3).
  { change 255 with (2 ^ 8 - 1). rewrite land_mask, shiftr_div.
    unfold v, le4. lia. }
  assert (E2 : N.land (N.shiftr v 8) 65280 = b2 * 2 ^ 8).
  { change 65280 with ((2 ^ 8 - 1) * 2 ^ 8). rewrite land_block, shiftr_div.
    unfold v, le4. lia. }
  rewrite E0, E1, E2, E3, !shiftl_mul.
  rewrite !N.mod_small by (unfold W32; lia).
  replace (N.lor (b0 * 2 ^ 24) (b1 * 2 ^ 8 * 2 ^ 8))
    with ((b0 * 2 ^ 8 + b1) * 2 ^ 16).
  2:{ rewrite lor_add_mul; change (2 ^ 24) with 16777216; lia. }
  rewrite lor_add_mul by lia.
  rewrite N.lor_comm.
  replace ((b0 * 2 ^ 8 + b1) * 2 ^ 16 + b3)
    with (N.lor ((b0 * 2 ^ 8 + b1) * 2 ^ 16) b3).
  2:{ apply lor_add_mul. lia. }
  rewrite (N.lor_comm _ b3), N.lor_assoc, N.lor_comm.
  replace (N.lor (b2 * 2 ^ 8) b3) with (b2 * 2 ^ 8 + b3).
  2:{ symmetry. apply lor_add_mul. lia. }
  rewrite lor_add_mul by lia. unfold be4. lia.
Qed.

Lemma le4_surj v : v < W32 ->
  v = le4 (v mod 256) (v / 256 mod 256) (v / 65536 mod 256) (v / 16777216).
Proof. intros. unfold le4, W32 in *. lia. Qed.

Lemma reverse_bytes_lt v : v < W32 -> reverse_bytes v < W32.
Proof.
  intros H. rewrite (le4_surj v H), reverse_bytes_le4 by (unfold W32 in *; lia).
  unfold be4, W32 in *. lia.
Qed.
Lemma reverse_bytes_invol v : v < W32 -> reverse_bytes (reverse_bytes v) = v.
Proof.
  intros H. rewrite (le4_surj v H) at 1.
  rewrite reverse_bytes_le4 by (unfold W32 in *; lia).
  set (b0 := v mod 256). set (b1 := v / 256 mod 256).
  set (b2 := v / 65536 mod 256). set (b3 := v / 16777216).
  replace (be4 b0 b1 b2 b3) with (le4 b3 b2 b1 b0) by (unfold le4, be4; lia).
  rewrite reverse_bytes_le4 by (unfold b0, b1, b2, b3, W32 in *; lia).
  rewrite (le4_surj v H). fold b0 b1 b2 b3. unfold le4, be4. lia.
Qed.

Lemma reverse_bytes_ld m a :
  reverse_bytes (ld 4 m a) =
  be4 (byte m a) (byte m (a + 1)) (byte m (a + 2)) (byte m (a + 3)).
Proof.
  rewrite <- reverse_bytes_le4 by (unfold byte; apply N.mod_lt; discriminate).
  f_equal. cbn [ld]. unfold le4, byte.
  replace (a + 1 + 1) with (a + 2) by lia.
  replace (a + 2 + 1) with (a + 3) by lia. lia.
Qed.

(** ** Page table entries *)

Lemma pte_target_val w : w < W64 -> pte_target w = w - w mod 4096.
Proof.
  intros. unfold pte_target, pte_target_mask.
  change (int_pred (int_shl 1 page_shift)) with (2 ^ 12 - 1).
  apply (land_wnot_mask w 12); auto. lia.
Qed.

Lemma pte_is_valid_val w : pte_is_valid w = N.testbit w 0.
Proof.
  unfold pte_is_valid. change 1 with (2 ^ 1 - 1). rewrite land_mask.
  change (2 ^ 1) with 2. rewrite <- N.bit0_mod.
  destruct (N.testbit w 0); reflexivity.
Qed.

Lemma pte_encode_val target acl : target mod 4096 = 0 ->
  pte_encode target acl = target + N.lor (acl mod 4096) 1.
Proof.
  intros H. unfold pte_encode.
  change (int_pred (int_shl 1 page_shift)) with (2 ^ 12 - 1).
  rewrite land_mask. change 4096 with (2 ^ 12) in *.
  apply N.mod_divide in H; [|discriminate]. destruct H as [q ->].
  apply lor_add_mul. apply lor_lt; [apply N.mod_lt; discriminate|reflexivity].
Qed.

Lemma pte_flags_lt acl : N.lor (acl mod 4096) 1 < 4096.
Proof.
  change 4096 with (2 ^ 12). apply lor_lt; [apply N.mod_lt; discriminate|reflexivity].
Qed.

Lemma pte_roundtrip target acl : target mod 4096 = 0 -> target < W64 ->
  pte_encode target acl < W64 /\
  pte_is_valid (pte_encode target acl) = true /\
  pte_target (pte_encode target acl) = target.
Proof.
  intros M H. rewrite pte_encode_val by auto.
  pose proof (pte_flags_lt acl) as F.
  assert (L : target + N.lor (acl mod 4096) 1 < W64) by (unfold W64 in *; lia).
  split; [auto|split].
  - rewrite pte_is_valid_val.
    replace target with (target / 4096 * 2 ^ 12) by (change (2 ^ 12) with 4096; lia).
    rewrite <- lor_add_mul by auto.
    rewrite !N.lor_spec. change (N.testbit 1 0) with true.
    rewrite !orb_true_r. reflexivity.
  - rewrite pte_target_val by auto. lia.
Qed.
