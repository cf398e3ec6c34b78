(** * General lemmas: words, byte memory, program execution. *)
From Coq Require Import NArith ZArith Lia Bool List.
From Coq Require Import ZifyBool ZifyNat ZifyN.
From Verif Require Import Word Machine.
Import ListNotations.
Open Scope N_scope.
Ltac Zify.zify_post_hook ::= Z.div_mod_to_equations.

Arguments N.add : simpl never.
Arguments N.mul : simpl never.
Arguments N.sub : simpl never.
Arguments N.pow : simpl never.
Arguments N.modulo : simpl never.
Arguments N.div : simpl never.
Arguments N.land : simpl never.
Arguments N.lor : simpl never.
Arguments N.shiftl : simpl never.
Arguments N.shiftr : simpl never.
Arguments N.of_nat : simpl never.
Arguments N.to_nat : simpl never.

(** ** Powers of two and bit operations *)

Lemma pow2_pos k : 0 < 2 ^ k.
Proof. apply N.neq_0_lt_0, N.pow_nonzero. discriminate. Qed.

Lemma pow2_nz k : 2 ^ k <> 0.
Proof. apply N.pow_nonzero. discriminate. Qed.

Lemma W64_pow : W64 = 2 ^ 64.
Proof. reflexivity. Qed.
Lemma W32_pow : W32 = 2 ^ 32.
Proof. reflexivity. Qed.

Lemma pow2_le a b : a <= b -> 2 ^ a <= 2 ^ b.
Proof. intros. apply N.pow_le_mono_r; lia. Qed.
Lemma pow2_lt a b : a < b -> 2 ^ a < 2 ^ b.
Proof. intros. apply N.pow_lt_mono_r; lia. Qed.
Lemma pow2_lt_inv a b : 2 ^ a < 2 ^ b -> a < b.
Proof.
  intros H. destruct (N.lt_ge_cases a b) as [|G]; auto.
  apply pow2_le in G. lia.
Qed.
Lemma pow2_le_inv a b : 2 ^ a <= 2 ^ b -> a <= b.
Proof.
  intros H. destruct (N.le_gt_cases a b) as [|G]; auto.
  apply pow2_lt in G. lia.
Qed.
Lemma pow2_inj a b : 2 ^ a = 2 ^ b -> a = b.
Proof. intros H. apply N.pow_inj_r in H; lia. Qed.
Lemma pow2_add a b : 2 ^ (a + b) = 2 ^ a * 2 ^ b.
Proof. apply N.pow_add_r. Qed.
Lemma pow2_split a b : a <= b -> 2 ^ b = 2 ^ a * 2 ^ (b - a).
Proof. intros. rewrite <- pow2_add. f_equal. lia. Qed.

Lemma ones_pred k : N.ones k = 2 ^ k - 1.
Proof. rewrite N.ones_equiv. pose proof (pow2_pos k). lia. Qed.

Lemma land_mask a k : N.land a (2 ^ k - 1) = a mod 2 ^ k.
Proof. rewrite <- ones_pred. apply N.land_ones. Qed.

Lemma shiftl_mul a k : N.shiftl a k = a * 2 ^ k.
Proof. apply N.shiftl_mul_pow2. Qed.
Lemma shiftr_div a k : N.shiftr a k = a / 2 ^ k.
Proof. apply N.shiftr_div_pow2. Qed.

Lemma testbit_small a k n : a < 2 ^ k -> k <= n -> N.testbit a n = false.
Proof.
  intros H L. destruct (N.eq_dec a 0) as [->|Z]; [apply N.bits_0|].
  apply N.bits_above_log2. apply N.log2_lt_pow2; [lia|].
  apply N.lt_le_trans with (2 ^ k); auto. apply pow2_le; auto.
Qed.

Lemma testbit_pow2 k n : N.testbit (2 ^ k) n = (k =? n).
Proof. apply N.pow2_bits_eqb. Qed.

Lemma small_of_testbit a k :
  (forall n, k <= n -> N.testbit a n = false) -> a < 2 ^ k.
Proof.
  intros H. destruct (N.eq_dec a 0) as [->|Z]; [apply pow2_pos|].
  apply N.log2_lt_pow2; [lia|].
  destruct (N.lt_ge_cases (N.log2 a) k) as [|G]; auto.
  specialize (H _ G). rewrite N.bit_log2 in H by auto. discriminate.
Qed.

Lemma lor_lt a b k : a < 2 ^ k -> b < 2 ^ k -> N.lor a b < 2 ^ k.
Proof.
  intros A B. apply small_of_testbit. intros n L.
  rewrite N.lor_spec, (testbit_small a k), (testbit_small b k); auto.
Qed.
Lemma lxor_lt a b k : a < 2 ^ k -> b < 2 ^ k -> N.lxor a b < 2 ^ k.
Proof.
  intros A B. apply small_of_testbit. intros n L.
  rewrite N.lxor_spec, (testbit_small a k), (testbit_small b k); auto.
Qed.
Lemma land_lt_l a b k : a < 2 ^ k -> N.land a b < 2 ^ k.
Proof.
  intros A. apply small_of_testbit. intros n L.
  rewrite N.land_spec, (testbit_small a k); auto.
Qed.
Lemma land_lt_r a b k : b < 2 ^ k -> N.land a b < 2 ^ k.
Proof. intros. rewrite N.land_comm. apply land_lt_l; auto. Qed.

Lemma land_le_l a b : N.land a b <= a.
Proof.
  apply N.ldiff_le. apply N.bits_inj. intros n.
  rewrite N.ldiff_spec, N.land_spec, N.bits_0.
  destruct (N.testbit a n), (N.testbit b n); reflexivity.
Qed.

(** [lor] of numbers with disjoint bits is addition. *)
Lemma lor_add_mul a b k : b < 2 ^ k -> N.lor (a * 2 ^ k) b = a * 2 ^ k + b.
Proof.
  intros H. symmetry. rewrite <- N.lxor_lor. 2:{
    apply N.bits_inj. intros n. rewrite N.land_spec, N.bits_0.
    destruct (N.lt_ge_cases n k) as [L|L].
    - rewrite N.mul_pow2_bits_low; auto.
    - rewrite (testbit_small b k), andb_false_r; auto. }
  apply N.add_nocarry_lxor. apply N.bits_inj. intros n.
  rewrite N.land_spec, N.bits_0. destruct (N.lt_ge_cases n k) as [L|L].
  - rewrite N.mul_pow2_bits_low; auto.
  - rewrite (testbit_small b k), andb_false_r; auto.
Qed.

Lemma lor_lxor_disj a b : N.land a b = 0 -> N.lor a b = a + b.
Proof.
  intros H. rewrite <- N.lxor_lor by auto. symmetry.
  apply N.add_nocarry_lxor. auto.
Qed.

(** [land] with a block of ones [ (2^n - 1) * 2^k ]. *)
Lemma land_block a n k :
  N.land a ((2 ^ n - 1) * 2 ^ k) = (a / 2 ^ k mod 2 ^ n) * 2 ^ k.
Proof.
  apply N.bits_inj. intros i. rewrite N.land_spec, <- ones_pred.
  destruct (N.lt_ge_cases i k) as [L|L].
  - rewrite !N.mul_pow2_bits_low, andb_false_r; auto.
  - rewrite !N.mul_pow2_bits_high by auto.
    rewrite <- N.land_ones, N.land_spec, N.div_pow2_bits.
    replace (i - k + k) with i by lia. reflexivity.
Qed.

Lemma shiftr_block a n k :
  N.shiftr (N.land a ((2 ^ n - 1) * 2 ^ k)) k = a / 2 ^ k mod 2 ^ n.
Proof. rewrite land_block, shiftr_div. apply N.div_mul, pow2_nz. Qed.

Lemma sub_mod_eq a b : b <> 0 -> a - a mod b = a / b * b.
Proof.
  intros H. pose proof (N.div_mod a b H) as E. revert E.
  generalize (a / b) (a mod b). intros q r E. nia.
Qed.

(** ** Word arithmetic *)

Lemma W64_pos : 0 < W64. Proof. reflexivity. Qed.

Lemma wadd_small a b : a + b < W64 -> wadd a b = a + b.
Proof. intros. unfold wadd. apply N.mod_small; auto. Qed.
Lemma wmul_small a b : a * b < W64 -> wmul a b = a * b.
Proof. intros. unfold wmul. apply N.mod_small; auto. Qed.
Lemma wsub_small a b : b <= a -> a < W64 -> wsub a b = a - b.
Proof. intros. unfold wsub, W64 in *. lia. Qed.
Lemma wadd_lt a b : wadd a b < W64.
Proof. apply N.mod_lt. discriminate. Qed.
Lemma wmul_lt a b : wmul a b < W64.
Proof. apply N.mod_lt. discriminate. Qed.
Lemma wsub_lt a b : wsub a b < W64.
Proof. apply N.mod_lt. discriminate. Qed.
Lemma wshl_small a n : n < 64 -> a * 2 ^ n < W64 -> wshl a n = a * 2 ^ n.
Proof.
  intros. unfold wshl. rewrite (N.mod_small n) by lia.
  rewrite shiftl_mul. apply N.mod_small; auto.
Qed.
Lemma wshr_small a n : n < 64 -> wshr a n = a / 2 ^ n.
Proof. intros. unfold wshr. rewrite (N.mod_small n) by lia. apply shiftr_div. Qed.
Lemma wnot_testbit a n : n < 64 -> N.testbit (wnot a) n = negb (N.testbit a n).
Proof.
  intros H. unfold wnot.
  replace (W64 - 1 - a mod W64) with (N.lnot (a mod W64) 64).
  2:{ unfold N.lnot. rewrite ones_pred.
      assert (E : a mod W64 < 2 ^ 64) by (apply N.mod_lt; discriminate).
      set (x := a mod W64) in *. change W64 with (2 ^ 64).
      assert (X : x + N.lxor x (2 ^ 64 - 1) = 2 ^ 64 - 1).
      { rewrite N.add_nocarry_lxor.
        - rewrite <- N.lxor_assoc, N.lxor_nilpotent, N.lxor_0_l. reflexivity.
        - apply N.bits_inj. intros i. rewrite N.land_spec, N.lxor_spec, N.bits_0.
          rewrite <- ones_pred.
          destruct (N.lt_ge_cases i 64) as [L|L].
          + rewrite N.ones_spec_low by auto. destruct (N.testbit x i); reflexivity.
          + rewrite (testbit_small x 64) by auto. reflexivity. }
      lia. }
  rewrite N.lnot_spec_low by auto. f_equal.
  change W64 with (2 ^ 64). apply N.mod_pow2_bits_low; auto.
Qed.
Lemma wnot_lt a : wnot a < W64.
Proof. unfold wnot, W64. lia. Qed.
Lemma wnot_testbit_high a n : 64 <= n -> N.testbit (wnot a) n = false.
Proof. intros. apply testbit_small with 64; auto. apply wnot_lt. Qed.

Lemma int_shl_one n : n <= 30 -> int_shl 1 n = 2 ^ n.
Proof.
  intros. unfold int_shl, sext32. rewrite (N.mod_small n) by lia.
  rewrite N.shiftl_1_l.
  assert (2 ^ n <= 2 ^ 30) by (apply pow2_le; lia).
  change (2 ^ 30) with 1073741824 in *.
  rewrite N.mod_small by (unfold W32; lia).
  destruct (N.ltb_spec (2 ^ n) 2147483648); lia.
Qed.
Lemma int_pred_small v : 1 <= v -> v < 2147483648 -> int_pred v = v - 1.
Proof.
  intros. unfold int_pred, sext32.
  replace ((v + (W64 - 1)) mod W32) with (v - 1) by (unfold W64, W32; lia).
  destruct (N.ltb_spec (v - 1) 2147483648); lia.
Qed.
Lemma int_shl_ub_one n : n <= 30 -> int_shl_ub 1 n = false.
Proof.
  intros. unfold int_shl_ub. rewrite N.shiftl_1_l.
  assert (2 ^ n <= 2 ^ 30) by (apply pow2_le; lia).
  change (2 ^ 30) with 1073741824 in *.
  destruct (N.leb_spec 32 n), (N.leb_spec 2147483648 (2 ^ n)); cbn; lia.
Qed.

(** ** Byte memory *)

Definition in_range (a n b : N) : bool := (a <=? b) && (b <? a + n).

Lemma pow256_succ n : 2 ^ (8 * N.of_nat (S n)) = 256 * 2 ^ (8 * N.of_nat n).
Proof.
  replace (8 * N.of_nat (S n)) with (8 + 8 * N.of_nat n) by lia.
  rewrite N.pow_add_r. reflexivity.
Qed.

Lemma ld_bound n : forall m a, ld n m a < 2 ^ (8 * N.of_nat n).
Proof.
  induction n as [|n IH]; intros m a.
  - cbn. reflexivity.
  - rewrite pow256_succ. cbn [ld].
    specialize (IH m (a + 1)).
    assert (m a mod 256 < 256) by (apply N.mod_lt; discriminate). lia.
Qed.
Lemma ld8_bound m a : ld 8 m a < W64.
Proof. apply (ld_bound 8). Qed.
Lemma ld4_bound m a : ld 4 m a < W32.
Proof. apply (ld_bound 4). Qed.

Lemma ld_ext n : forall m m' a,
  (forall b, a <= b -> b < a + N.of_nat n -> m b mod 256 = m' b mod 256) ->
  ld n m a = ld n m' a.
Proof.
  induction n as [|n IH]; intros m m' a H; [reflexivity|].
  cbn [ld]. rewrite (H a) by lia. f_equal. f_equal.
  apply IH. intros. apply H; lia.
Qed.

Lemma st_out n m a v b :
  b < a \/ a + N.of_nat n <= b -> st n m a v b = m b.
Proof.
  intros H. unfold st.
  destruct (N.leb_spec a b), (N.ltb_spec b (a + N.of_nat n)); cbn; auto; lia.
Qed.
Lemma st_in n m a v b : a <= b -> b < a + N.of_nat n ->
  st n m a v b = (v / 2 ^ (8 * (b - a))) mod 256.
Proof.
  intros. unfold st. rewrite shiftr_div.
  destruct (N.leb_spec a b), (N.ltb_spec b (a + N.of_nat n)); cbn; auto; lia.
Qed.

Lemma ld_st_other n k m a v b :
  b + N.of_nat k <= a \/ a + N.of_nat n <= b ->
  ld k (st n m a v) b = ld k m b.
Proof.
  intros H. apply ld_ext. intros x X1 X2. rewrite st_out; auto. lia.
Qed.

Lemma ld_st_inside n k m a v : forall j, j + N.of_nat k <= N.of_nat n ->
  ld k (st n m a v) (a + j) = (v / 2 ^ (8 * j)) mod 2 ^ (8 * N.of_nat k).
Proof.
  induction k as [|k IH]; intros j H.
  - cbn. change (8 * N.of_nat 0) with 0. rewrite N.pow_0_r, N.mod_1_r. reflexivity.
  - cbn [ld]. replace (a + j + 1) with (a + (j + 1)) by lia.
    rewrite IH by lia. rewrite st_in by lia.
    replace (a + j - a) with j by lia.
    rewrite pow256_succ. rewrite N.mod_mod by discriminate.
    replace (8 * (j + 1)) with (8 * j + 8) by lia.
    rewrite N.pow_add_r. rewrite <- N.div_div by (apply pow2_nz || discriminate).
    change (2 ^ 8) with 256.
    set (x := v / 2 ^ (8 * j)). set (P := 2 ^ (8 * N.of_nat k)).
    assert (P <> 0) by (apply pow2_nz).
    rewrite N.mod_mul_r by (auto; discriminate). reflexivity.
Qed.

Lemma ld_st_same n m a v : ld n (st n m a v) a = v mod 2 ^ (8 * N.of_nat n).
Proof.
  replace a with (a + 0) at 2 by lia.
  rewrite ld_st_inside by lia. change (8 * 0) with 0.
  rewrite N.pow_0_r, N.div_1_r. reflexivity.
Qed.
Lemma ld8_st8 m a v : v < W64 -> ld 8 (st 8 m a v) a = v.
Proof. intros. rewrite ld_st_same. apply N.mod_small. auto. Qed.
Lemma ld4_st4 m a v : v < W32 -> ld 4 (st 4 m a v) a = v.
Proof. intros. rewrite ld_st_same. apply N.mod_small. auto. Qed.

Lemma ld_app n k m : forall a,
  ld (n + k) m a = ld n m a + 2 ^ (8 * N.of_nat n) * ld k m (a + N.of_nat n).
Proof.
  induction n as [|n IH]; intros a.
  - cbn [Nat.add ld]. change (8 * N.of_nat 0) with 0. rewrite N.pow_0_r.
    replace (a + N.of_nat 0) with a by lia. lia.
  - cbn [Nat.add ld]. rewrite IH, pow256_succ.
    replace (a + N.of_nat (S n)) with (a + 1 + N.of_nat n) by lia. lia.
Qed.
Lemma ld8_ld4 m a : ld 8 m a = ld 4 m a + W32 * ld 4 m (a + 4).
Proof. apply (ld_app 4 4). Qed.

(** Memory equality, as observed by loads: byte values modulo 256. *)
Definition byte (m : mem) (b : N) : N := m b mod 256.

Lemma byte_st_in n m a v b : a <= b -> b < a + N.of_nat n ->
  byte (st n m a v) b = (v / 2 ^ (8 * (b - a))) mod 256.
Proof.
  intros. unfold byte. rewrite st_in by auto. apply N.mod_mod. discriminate.
Qed.
Lemma byte_st_out n m a v b : b < a \/ a + N.of_nat n <= b ->
  byte (st n m a v) b = byte m b.
Proof. intros. unfold byte. rewrite st_out; auto. Qed.
Lemma ld_byte n m m' a :
  (forall b, a <= b -> b < a + N.of_nat n -> byte m b = byte m' b) ->
  ld n m a = ld n m' a.
Proof. apply ld_ext. Qed.

Lemma byte_of_ld n m : forall a j, j < N.of_nat n ->
  byte m (a + j) = (ld n m a / 2 ^ (8 * j)) mod 256.
Proof.
  induction n as [|n IH]; intros a j H; [lia|].
  cbn [ld]. destruct (N.eq_dec j 0) as [->|Z].
  - change (8 * 0) with 0. rewrite N.pow_0_r, N.div_1_r.
    replace (a + 0) with a by lia. unfold byte.
    rewrite (N.mul_comm 256), N.mod_add by discriminate.
    symmetry. apply N.mod_mod. discriminate.
  - replace (a + j) with (a + 1 + (j - 1)) by lia.
    rewrite IH by lia.
    replace (8 * j) with (8 + 8 * (j - 1)) by lia.
    rewrite N.pow_add_r, <- N.div_div by (apply pow2_nz || discriminate).
    change (2 ^ 8) with 256. f_equal. f_equal.
    rewrite (N.mul_comm 256), N.div_add by discriminate.
    rewrite N.div_small by (apply N.mod_lt; discriminate). lia.
Qed.

(** Words determine bytes. *)
Lemma ld_byte_inj n m m' a : ld n m a = ld n m' a ->
  forall j, j < N.of_nat n -> byte m (a + j) = byte m' (a + j).
Proof. intros H j J. rewrite !(byte_of_ld n) by auto. rewrite H. reflexivity. Qed.

(** ** Execution *)

Lemma run_bind {A B} c (p : prog A) (f : A -> prog B) : forall s,
  run c (bind p f) s =
  match run c p s with
  | (s', Some a) => run c (f a) s'
  | (s', None) => (s', None)
  end.
Proof.
  induction p as [a|o k IH|]; intros s; cbn [bind run]; auto.
  destruct (step c o s) as [s' v]. apply IH.
Qed.

Lemma bind_ret {A} (p : prog A) c s : run c (bind p Ret) s = run c p s.
Proof. rewrite run_bind. destruct (run c p s) as [s' [a|]]; reflexivity. Qed.

Lemma run_op1 c o s : run c (op1 o) s = (fst (step c o s), Some (snd (step c o s))).
Proof. unfold op1. cbn [run]. destruct (step c o s); reflexivity. Qed.
Lemma run_load64 c a s : run c (load64 a) s = (s, Some (ld 8 (s_mem s) a)).
Proof. reflexivity. Qed.
Lemma run_load32 c a s : run c (load32 a) s = (s, Some (ld 4 (s_mem s) a)).
Proof. reflexivity. Qed.
Lemma run_store64 c a v s :
  run c (store64 a v) s = (set_mem s (st 8 (s_mem s) a v), Some 0).
Proof. reflexivity. Qed.
Lemma run_store32 c a v s :
  run c (store32 a v) s = (set_mem s (st 4 (s_mem s) a v), Some 0).
Proof. reflexivity. Qed.
Lemma run_ret {A} c (a : A) s : run c (Ret a) s = (s, Some a).
Proof. reflexivity. Qed.

Lemma s_mem_set_mem s m : s_mem (set_mem s m) = m.
Proof. reflexivity. Qed.
Lemma set_mem_set_mem s m m' : set_mem (set_mem s m) m' = set_mem s m'.
Proof. reflexivity. Qed.
Lemma set_mem_id s : set_mem s (s_mem s) = s.
Proof. destruct s; reflexivity. Qed.
