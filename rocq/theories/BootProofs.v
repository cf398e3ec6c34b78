(** * What boot computes (properties C15, C16, C19 - C22). *)
From Coq Require Import NArith ZArith Lia Bool List.
From Coq Require Import ZifyBool ZifyNat ZifyN.
From Verif Require Import Word Machine ModelBare ModelHash ModelInl ModelBoot Lib
  BareProofs.
Import ListNotations.
Open Scope N_scope.
Ltac Zify.zify_post_hook ::= Z.div_mod_to_equations.

(** ** Undefined behaviour is only ever added to the log *)
Definition ubs (s : state) : nat := length (s_ub s).

Lemma step_ub c o s : (ubs s <= ubs (fst (step c o s)))%nat.
Proof. destruct o; cbn; unfold ubs; cbn; auto. Qed.

Lemma run_ub {A} c (p : prog A) : forall s, (ubs s <= ubs (fst (run c p s)))%nat.
Proof.
  induction p as [a|o k IH|]; intros s; cbn [run]; auto.
  pose proof (step_ub c o s) as H. destruct (step c o s) as [s1 v]. cbn in H.
  specialize (IH v s1). lia.
Qed.

Lemma run_bind_inv {A B} c (p : prog A) (f : A -> prog B) s s' b :
  run c (bind p f) s = (s', Some b) ->
  exists s1 a, run c p s = (s1, Some a) /\ run c (f a) s1 = (s', Some b).
Proof.
  rewrite run_bind. destruct (run c p s) as [s1 [a|]]; [|discriminate].
  intros H. eauto.
Qed.

Lemma run_bind_ub {A B} c (p : prog A) (f : A -> prog B) s s' b :
  run c (bind p f) s = (s', Some b) -> ubs s' = ubs s ->
  exists s1 a, run c p s = (s1, Some a) /\ run c (f a) s1 = (s', Some b) /\
    ubs s1 = ubs s /\ ubs s' = ubs s1.
Proof.
  intros R U. apply run_bind_inv in R. destruct R as [s1 [a [R1 R2]]].
  exists s1, a. pose proof (run_ub c p s) as H1. rewrite R1 in H1.
  pose proof (run_ub c (f a) s1) as H2. rewrite R2 in H2. cbn in *.
  repeat split; auto; lia.
Qed.

Lemma ub_if_inv c b code s s1 a : run c (ub_if b code) s = (s1, Some a) ->
  ubs s1 = ubs s -> b = false /\ s1 = s.
Proof.
  destruct b; cbn; intros R U; inversion R; subst; auto.
  unfold ubs in U. cbn in U. lia.
Qed.

Lemma ub_if_false c code s : run c (ub_if false code) s = (s, Some tt).
Proof. reflexivity. Qed.

Lemma int_shl_ub_one_inv n : int_shl_ub 1 n = false -> n <= 30.
Proof.
  unfold int_shl_ub. rewrite orb_false_iff, N.leb_gt, N.leb_gt, N.shiftl_1_l.
  intros [_ H]. change 2147483648 with (2 ^ 31) in H. apply pow2_lt_inv in H. lia.
Qed.

Lemma int_one_shl_run c n s : n <= 30 ->
  run c (int_one_shl n) s = (s, Some (2 ^ n)).
Proof.
  intros H. unfold int_one_shl. rewrite int_shl_ub_one, int_shl_one by auto.
  reflexivity.
Qed.
Lemma int_one_shl_inv c n s s1 a : run c (int_one_shl n) s = (s1, Some a) ->
  ubs s1 = ubs s -> n <= 30 /\ a = 2 ^ n /\ s1 = s.
Proof.
  intros R U. unfold int_one_shl in R. apply run_bind_ub in R; auto.
  destruct R as [s2 [u [R1 [R2 [U1 U2]]]]]. apply ub_if_inv in R1; auto.
  destruct R1 as [B ->]. apply int_shl_ub_one_inv in B.
  cbn in R2. inversion R2; subst. rewrite int_shl_one by auto. auto.
Qed.
Lemma int_one_shl_total c n s : exists s1,
  run c (int_one_shl n) s = (s1, Some (int_shl 1 n)).
Proof.
  unfold int_one_shl. rewrite run_bind. destruct (int_shl_ub 1 n); cbn; eauto.
Qed.

Lemma pow2_test n : n < W64 ->
  (n =? int_shl 1 (address_bits_for n)) = true <-> exists k, k <= 30 /\ n = 2 ^ k.
Proof.
  intros N. rewrite N.eqb_eq. split.
  - intros E. set (k := address_bits_for n) in *.
    destruct (N.le_gt_cases k 30) as [L|L].
    + exists k. rewrite int_shl_one in E by auto. auto.
    + exfalso.
      assert (Z : 1 <= n).
      { destruct (N.eq_dec n 0) as [->|]; [|lia]. exfalso.
        vm_compute in E. discriminate. }
      assert (G : 2 ^ 30 < n).
      { destruct (N.lt_ge_cases (2 ^ 30) n) as [|H]; auto.
        apply address_bits_iff in H; auto. fold k in H. lia. }
      assert (K : k <= 64) by (apply address_bits_le64; auto).
      assert (S : int_shl 1 k = int_shl 1 (k mod 32)).
      { unfold int_shl. rewrite N.mod_mod by discriminate. reflexivity. }
      rewrite S in E. destruct (N.eq_dec (k mod 32) 31) as [E31|E31].
      * rewrite E31 in E. vm_compute (int_shl 1 31) in E.
        assert (k <> 64) by lia.
        assert (A : n <= 2 ^ k) by (apply address_bits_iff; auto; reflexivity).
        assert (k <= 63) by lia.
        assert (2 ^ k <= 2 ^ 63) by (apply pow2_le; auto).
        change (2 ^ 63) with 9223372036854775808 in *. lia.
      * rewrite int_shl_one in E by lia.
        assert (2 ^ (k mod 32) <= 2 ^ 30) by (apply pow2_le; lia). lia.
  - intros [k [K ->]]. rewrite address_bits_pow2, int_shl_one by lia. reflexivity.
Qed.

(** ** The cache checks *)

(** Some cache other than the last level is shared between cores. *)
Definition inner_shared (P : platform) : Prop :=
  exists i, i < p_cache_levels P /\ i <> p_cache_levels P - 1 /\
    p_is_shared P i = true.

Lemma shared_loop_run c s P L n : forall i, 
  run c (for_exit n i (fun i => if p_is_shared P i && negb (i =? L)
              then Ret (Some tt) else Ret None)) s
  = (s, Some (if existsb (fun k => p_is_shared P (i + N.of_nat k) &&
                 negb (i + N.of_nat k =? L)) (seq 0 n) then Some tt else None)).
Proof.
  induction n as [|n IH]; intros i; [reflexivity|].
  cbn [for_exit]. rewrite run_bind.
  cbn [seq existsb]. replace (i + N.of_nat 0) with i by lia.
  destruct (p_is_shared P i && negb (i =? L)); [reflexivity|].
  cbn [run orb]. rewrite IH. do 2 f_equal.
  rewrite <- seq_shift.
  replace (existsb (fun k : nat => p_is_shared P (i + N.of_nat k) &&
      negb (i + N.of_nat k =? L)) (map S (seq 0 n)))
    with (existsb (fun k : nat => p_is_shared P (i + 1 + N.of_nat k) &&
      negb (i + 1 + N.of_nat k =? L)) (seq 0 n)); [reflexivity|].
  generalize (seq 0 n). induction l as [|x l IHl]; [reflexivity|].
  cbn [existsb map]. rewrite IHl.
  replace (i + N.of_nat (S x)) with (i + 1 + N.of_nat x) by lia. reflexivity.
Qed.

Lemma shared_dec P : 1 <= p_cache_levels P < W64 ->
  existsb (fun k => p_is_shared P (0 + N.of_nat k) &&
      negb (0 + N.of_nat k =? wsub (p_cache_levels P) 1))
    (seq 0 (N.to_nat (p_cache_levels P))) = true <-> inner_shared P.
Proof.
  intros L. rewrite wsub_small by lia. rewrite existsb_exists. split.
  - intros [k [Hk E]]. apply in_seq in Hk. apply andb_true_iff in E.
    destruct E as [E1 E2]. exists (N.of_nat k).
    rewrite N.add_0_l in *. repeat split; auto; lia.
  - intros [i [I1 [I2 I3]]]. exists (N.to_nat i). split.
    + apply in_seq. lia.
    + rewrite N.add_0_l, N2Nat.id, I3. cbn. lia.
Qed.

(** The number of bits of the page index within a stripe that boot computes
    from the address width [ab], the cache index width and the limit. *)
Definition chosen_bits (ab cache_bits max_shift : N) : N :=
  let x := wsub ab cache_bits in if max_shift <? x then max_shift else x.

Definition llc (P : platform) : N := p_cache_levels P - 1.

(** What boot computes when nothing is undefined. *)
Definition geometry_of (D pb rb : N) : geometry :=
  mkGeometry D (12 + pb) (12 + pb + rb) (2 ^ (12 + pb)) (2 ^ pb) (2 ^ rb)
    ((2 ^ pb - 1) * 2 ^ 12) ((2 ^ rb - 1) * 2 ^ (12 + pb))
    ((D - 1) / 2 ^ (12 + pb + rb) * 2 ^ (12 + pb + rb)) ((2 ^ rb + 63) / 64).

Definition set_shift (s : state) (c pb : N) : state :=
  let r := s_cores s c in
  set_creg s c (mkCregs (r_drb r) (r_edrb r) (r_par_base r) (r_par_mask r) pb
    (r_tlb_flushes r)).

Definition ge_tail (D cb pb : N) : prog geometry :=
  let region_bits := wsub cb page_shift in
  op1 (OSetShift pb) ;;
  let region_shift := wadd page_shift pb in
  let stripe_shift := wadd region_shift region_bits in
  stripe_size <- int_one_shl region_shift ;;
  stripe_pages <- int_one_shl pb ;;
  region_count <- int_one_shl region_bits ;;
  sp1 <- int_one_shl pb ;;
  ub_if (int_shl_ub (int_pred sp1) page_shift) 3 ;;
  let stripe_page_mask := int_shl (int_pred sp1) page_shift in
  let region_mask := wshl (wsub region_count 1) region_shift in
  let stripe_mask :=
    wshl (wshr (wsub D 1) stripe_shift) stripe_shift in
  let words := wsub (wadd region_count 64) 1 / 64 in
  Ret (mkGeometry D region_shift stripe_shift stripe_size
         stripe_pages region_count stripe_page_mask region_mask stripe_mask
         words).

Lemma int_shl_small v n : n <= 31 -> v * 2 ^ n < 2 ^ 31 -> int_shl v n = v * 2 ^ n.
Proof.
  intros N V. unfold int_shl. rewrite (N.mod_small n 32) by lia.
  rewrite shiftl_mul. unfold sext32. change (2 ^ 31) with 2147483648 in V.
  rewrite N.mod_small by (unfold W32; lia).
  destruct (N.ltb_spec (v * 2 ^ n) 2147483648); lia.
Qed.

Lemma page_shift_val : page_shift = 12.
Proof. reflexivity. Qed.

Lemma ge_tail_run c s D rb pb : 1 <= D -> D < W64 -> 12 + pb <= 30 ->
  1 <= rb -> rb <= 30 ->
  run c (ge_tail D (12 + rb) pb) s = (set_shift s c pb, Some (geometry_of D pb rb)).
Proof.
  intros D1 D2 PB R1 R2. unfold ge_tail. rewrite page_shift_val. cbv zeta.
  rewrite run_bind, run_op1. cbn [fst snd step].
  rewrite (wsub_small (12 + rb) 12) by (unfold W64; lia).
  replace (12 + rb - 12) with rb by lia.
  rewrite (wadd_small 12 pb) by (unfold W64; lia).
  rewrite run_bind, int_one_shl_run by lia.
  rewrite run_bind, int_one_shl_run by lia.
  rewrite run_bind, int_one_shl_run by lia.
  rewrite run_bind, int_one_shl_run by lia.
  assert (P18 : 2 ^ pb <= 2 ^ 18) by (apply pow2_le; lia).
  change (2 ^ 18) with 262144 in P18. pose proof (pow2_pos pb) as PP.
  rewrite int_pred_small by lia.
  replace (int_shl_ub (2 ^ pb - 1) 12) with false.
  2:{ unfold int_shl_ub. rewrite shiftl_mul. change (2 ^ 12) with 4096. lia. }
  cbn [ub_if bind run].
  rewrite int_shl_small by (try lia; change (2 ^ 12) with 4096;
                            change (2 ^ 31) with 2147483648; lia).
  assert (R30 : 2 ^ rb <= 2 ^ 30) by (apply pow2_le; lia).
  change (2 ^ 30) with 1073741824 in R30. pose proof (pow2_pos rb) as RP.
  assert (S30 : 2 ^ (12 + pb) <= 2 ^ 30) by (apply pow2_le; lia).
  change (2 ^ 30) with 1073741824 in S30.
  rewrite (wsub_small (2 ^ rb) 1) by (unfold W64; lia).
  rewrite (wshl_small (2 ^ rb - 1)) by (try lia; unfold W64; nia).
  rewrite (wadd_small (12 + pb) rb) by (unfold W64; lia).
  rewrite (wsub_small D 1) by lia.
  rewrite (wshr_small (D - 1)) by lia.
  rewrite (wshl_small ((D - 1) / 2 ^ (12 + pb + rb))).
  2:{ lia. }
  2:{ pose proof (N.mul_div_le (D - 1) (2 ^ (12 + pb + rb)) (pow2_nz _)).
      rewrite N.mul_comm. lia. }
  rewrite (wadd_small (2 ^ rb) 64) by (unfold W64; lia).
  rewrite wsub_small by (unfold W64; lia).
  replace (2 ^ rb + 64 - 1) with (2 ^ rb + 63) by lia.
  reflexivity.
Qed.

Lemma ge_tail_inv c s D cb pb s' ge : 12 < cb -> cb <= 60 -> pb < W64 - 100 ->
  run c (ge_tail D cb pb) s = (s', Some ge) -> ubs s' = ubs s ->
  12 + pb <= 30 /\ cb <= 42.
Proof.
  intros CB CB' PB R U. unfold ge_tail in R. rewrite page_shift_val in R. cbv zeta in R.
  rewrite (wsub_small cb 12) in R by (unfold W64; lia).
  rewrite (wadd_small 12 pb) in R by (unfold W64 in *; lia).
  apply run_bind_ub in R; auto. destruct R as [s1 [a1 [_ [R [_ U1]]]]].
  apply run_bind_ub in R; auto. destruct R as [s2 [a2 [E2 [R [U2 U3]]]]].
  apply int_one_shl_inv in E2; auto. destruct E2 as [L2 _].
  apply run_bind_ub in R; auto. destruct R as [s3 [a3 [_ [R [_ U4]]]]].
  apply run_bind_ub in R; auto. destruct R as [s4 [a4 [E4 [R [U5 U6]]]]].
  apply int_one_shl_inv in E4; auto. lia.
Qed.

(** The decisions before the tail. *)
Lemma dram_regions_split c s P lb st :
  1 <= p_cache_levels P < W64 -> ~ inner_shared P ->
  lb <= 30 -> p_line_size P (llc P) = 2 ^ lb ->
  st <= 30 -> p_set_count P (llc P) = 2 ^ st -> 
  let cb := st + lb in
  let pb := chosen_bits (address_bits_for (p_dram_size P)) cb (p_max_shift P) in
  run c (boot_init_dram_regions P) s =
  if (cb <=? 12) || (pb <? p_min_shift P) then (s, None)
  else run c (ge_tail (p_dram_size P) cb pb) s.
Proof.
  intros L NS LB LS ST SC. cbv zeta. unfold boot_init_dram_regions.
  rewrite run_bind, shared_loop_run.
  replace (existsb _ _) with false.
  2:{ symmetry. apply not_true_is_false. intros H. apply NS. apply shared_dec; auto. }
  rewrite (wsub_small (p_cache_levels P) 1) by lia. fold (llc P).
  rewrite LS, SC, !address_bits_pow2 by lia.
  rewrite run_bind, int_one_shl_run by lia. rewrite N.eqb_refl. cbn [negb].
  rewrite run_bind, int_one_shl_run by lia. rewrite N.eqb_refl. cbn [negb].
  rewrite (wadd_small st lb) by (unfold W64; lia). rewrite page_shift_val.
  destruct (N.leb_spec (st + lb) 12) as [C|C]; [reflexivity|]. cbn [orb].
  unfold chosen_bits.
  set (x := wsub (address_bits_for (p_dram_size P)) (st + lb)).
  destruct ((if p_max_shift P <? x then p_max_shift P else x) <? p_min_shift P);
    [reflexivity|].
  unfold ge_tail. rewrite page_shift_val. reflexivity.
Qed.

Lemma dram_regions_inv c s P s' ge : 1 <= p_cache_levels P < W64 ->
  p_line_size P (llc P) < W64 -> p_set_count P (llc P) < W64 ->
  run c (boot_init_dram_regions P) s = (s', Some ge) ->
  ~ inner_shared P /\ exists lb st, lb <= 30 /\ st <= 30 /\
    p_line_size P (llc P) = 2 ^ lb /\ p_set_count P (llc P) = 2 ^ st /\
    12 < lb + st /\
    p_min_shift P <=
      chosen_bits (address_bits_for (p_dram_size P)) (lb + st) (p_max_shift P).
Proof.
  intros L LW SW R.
  destruct (existsb (fun k => p_is_shared P (0 + N.of_nat k) &&
      negb (0 + N.of_nat k =? wsub (p_cache_levels P) 1))
    (seq 0 (N.to_nat (p_cache_levels P)))) eqn:E.
  { exfalso. unfold boot_init_dram_regions in R.
    rewrite run_bind, shared_loop_run, E in R. discriminate. }
  assert (NS : ~ inner_shared P).
  { intros H. apply shared_dec in H; auto. congruence. }
  split; auto.
  destruct (p_line_size P (llc P) =? int_shl 1 (address_bits_for (p_line_size P (llc P)))) eqn:EL.
  2:{ exfalso. unfold boot_init_dram_regions in R.
      rewrite run_bind, shared_loop_run, E in R.
      rewrite (wsub_small (p_cache_levels P) 1) in R by lia. fold (llc P) in R.
      rewrite run_bind in R.
      destruct (int_one_shl_total c (address_bits_for (p_line_size P (llc P))) s)
        as [s1 E1]. rewrite E1, EL in R. discriminate. }
  destruct (p_set_count P (llc P) =? int_shl 1 (address_bits_for (p_set_count P (llc P)))) eqn:ES.
  2:{ exfalso. unfold boot_init_dram_regions in R.
      rewrite run_bind, shared_loop_run, E in R.
      rewrite (wsub_small (p_cache_levels P) 1) in R by lia. fold (llc P) in R.
      rewrite run_bind in R.
      destruct (int_one_shl_total c (address_bits_for (p_line_size P (llc P))) s)
        as [s1 E1]. rewrite E1, EL in R. cbn [negb] in R.
      rewrite run_bind in R.
      destruct (int_one_shl_total c (address_bits_for (p_set_count P (llc P))) s1)
        as [s2 E2]. rewrite E2, ES in R. discriminate. }
  apply pow2_test in EL; auto. apply pow2_test in ES; auto.
  destruct EL as [lb [LB EL]], ES as [st [ST ES]]. exists lb, st.
  rewrite (dram_regions_split c s P lb st) in R by auto.
  cbv zeta in R. rewrite (N.add_comm lb st).
  destruct ((st + lb <=? 12) || _) eqn:B in R; [discriminate|].
  apply orb_false_iff in B. repeat split; auto; lia.
Qed.

(** ** The dynamic arrays *)
Definition clr_region (dr i : N) : prog unit :=
  let region := wadd dr (wmul dram_region_info_size i) in
  op1 (OClr (wadd region dri_lock)) ;;
  store64 (wadd region dri_owner) null_enclave_id ;;
  store64 (wadd region dri_previous_owner) null_enclave_id ;;
  store64 (wadd region dri_pinned_pages) 0 ;;
  store64 (wadd region dri_blocked_at) 0 ;;
  Ret tt.

Lemma byte_st8_zero m a b : byte (st 8 m a 0) b =
  if (a <=? b) && (b <? a + 8) then 0 else byte m b.
Proof.
  destruct (N.leb_spec a b), (N.ltb_spec b (a + 8)); cbn [andb].
  - rewrite byte_st_in by (change (N.of_nat 8) with 8; lia).
    rewrite N.div_0_l by (apply pow2_nz). reflexivity.
  - apply byte_st_out. change (N.of_nat 8) with 8. lia.
  - apply byte_st_out. change (N.of_nat 8) with 8. lia.
  - apply byte_st_out. change (N.of_nat 8) with 8. lia.
Qed.

Lemma clr_region_run c s dr i : dr + 40 * (i + 1) <= W64 ->
  exists m, run c (clr_region dr i) s = (set_mem s m, Some tt) /\
    (forall b, dr + 40 * i <= b < dr + 40 * (i + 1) -> byte m b = 0) /\
    (forall b, b < dr + 40 * i \/ dr + 40 * (i + 1) <= b -> m b = s_mem s b).
Proof.
  intros H. unfold clr_region. change dram_region_info_size with 40.
  change dri_lock with 0. change dri_owner with 8. change dri_previous_owner with 16.
  change dri_pinned_pages with 24. change dri_blocked_at with 32.
  change null_enclave_id with 0. cbv zeta.
  rewrite (wmul_small 40 i) by lia. rewrite (wadd_small dr) by lia.
  rewrite !(wadd_small (dr + 40 * i)) by lia.
  rewrite run_bind, run_op1. cbn [step fst snd].
  do 4 (rewrite run_bind, run_store64; cbn [s_mem set_mem]; rewrite ?set_mem_set_mem).
  cbn [run]. eexists. split; [reflexivity|]. split.
  - intros b B. rewrite !byte_st8_zero.
    repeat (match goal with |- (if ?t then _ else _) = _ =>
              let X := fresh "X" in destruct t eqn:X; [reflexivity|] end).
    lia.
  - intros b B. repeat (rewrite st_out by (change (N.of_nat 8) with 8; lia)).
    reflexivity.
Qed.

Lemma clr_regions_run c dr n : forall i s, dr + 40 * (i + N.of_nat n) <= W64 ->
  exists m, run c (for_n n i (clr_region dr)) s = (set_mem s m, Some tt) /\
    (forall b, dr + 40 * i <= b < dr + 40 * (i + N.of_nat n) -> byte m b = 0) /\
    (forall b, b < dr + 40 * i \/ dr + 40 * (i + N.of_nat n) <= b -> m b = s_mem s b).
Proof.
  induction n as [|n IH]; intros i s H.
  - exists (s_mem s). cbn [for_n run]. rewrite set_mem_id.
    split; [reflexivity|]. split; intros; auto. lia.
  - cbn [for_n]. rewrite run_bind.
    destruct (clr_region_run c s dr i) as [m [E [Z F]]]; [lia|]. rewrite E.
    destruct (IH (i + 1) (set_mem s m)) as [m' [E' [Z' F']]]; [lia|].
    rewrite E', set_mem_set_mem. cbn [s_mem set_mem] in F'.
    exists m'. split; [reflexivity|]. split.
    + intros b B. destruct (N.lt_ge_cases b (dr + 40 * (i + 1))).
      * unfold byte. rewrite F' by lia. apply Z. lia.
      * apply Z'. lia.
    + intros b B. rewrite F' by lia. apply F. lia.
Qed.

Lemma bit_updated_out m bm i v b :
  b < bm + 8 * (i / 64) \/ bm + 8 * (i / 64) + 8 <= b ->
  bit_updated_mem m bm i v b = m b.
Proof.
  intros B. unfold bit_updated_mem, word_of_bit. apply st_out.
  change (N.of_nat 8) with 8. lia.
Qed.

Lemma set_bits_run c bm n : forall i s,
  bm + 8 * ((i + N.of_nat n + 63) / 64) <= W64 ->
  exists m, run c (for_n n i (fun i => set_bitmap_bit bm i true)) s
            = (set_mem s m, Some tt) /\
    (forall j, bit_at m bm j =
       ((i <=? j) && (j <? i + N.of_nat n)) || bit_at (s_mem s) bm j) /\
    (forall b, b < bm \/ bm + 8 * ((i + N.of_nat n + 63) / 64) <= b ->
       m b = s_mem s b).
Proof.
  induction n as [|n IH]; intros i s H.
  - exists (s_mem s). cbn [for_n run]. rewrite set_mem_id.
    split; [reflexivity|]. split; intros; auto.
    replace ((i <=? j) && (j <? i + N.of_nat 0)) with false by lia. reflexivity.
  - cbn [for_n]. rewrite run_bind, set_bitmap_bit_run by (unfold word_of_bit; lia).
    destruct (IH (i + 1) (set_mem s (bit_updated_mem (s_mem s) bm i true)))
      as [m' [E' [Z' F']]]; [lia|].
    rewrite E', set_mem_set_mem. cbn [s_mem set_mem] in *.
    exists m'. split; [reflexivity|]. split.
    + intros j. rewrite Z', bit_updated_bit.
      destruct (N.eqb_spec j i) as [->|Ne].
      * rewrite orb_true_r. replace (i <=? i) with true by lia.
        replace (i <? i + N.of_nat (S n)) with true by lia. reflexivity.
      * f_equal. lia.
    + intros b B. rewrite F' by lia. apply bit_updated_out. lia.
Qed.

(** Sizes of the tables. *)
Definition words_of_count (count : N) : N := (count + 63) / 64.
Definition tables_end (top cores count : N) : N :=
  top + 32 * cores + 40 * count + 8 + 8 * words_of_count count.

(** The addresses chosen by boot. *)
Definition globals_of (P : platform) (pb rb top mtop : N) : globals :=
  let D := p_dram_size P in
  let ge := geometry_of D pb rb in
  let meta := boot_init_metadata ge in
  let dr := top + 32 * p_core_count P in
  let drs := dr + 40 * 2 ^ rb in
  mkGlobals mtop top (p_core_count P) dr drs (drs + 8) D
    (ge_region_shift ge) (ge_stripe_shift ge) (ge_stripe_page_mask ge)
    (ge_region_mask ge) (ge_stripe_mask ge) (ge_region_count ge)
    (ge_stripe_size ge) (ge_stripe_pages ge) (ge_bitmap_words ge)
    (fst meta) (snd meta).

Lemma dynamic_arrays_run c s P pb rb top :
  rb <= 30 -> tables_end top (p_core_count P) (2 ^ rb) < W64 ->
  let mt := tables_end top (p_core_count P) (2 ^ rb) in
  let G := globals_of P pb rb top mt in
  exists m, run c (boot_init_dynamic_arrays P (geometry_of (p_dram_size P) pb rb)
              (boot_init_metadata (geometry_of (p_dram_size P) pb rb)) top) s
    = (set_mem s m, Some G) /\
    (forall b, g_dram_region G <= b < g_os_region_bitmap G -> byte m b = 0) /\
    (forall j, bit_at m (g_os_region_bitmap G) j =
       (j <? 2 ^ rb) || bit_at (s_mem s) (g_os_region_bitmap G) j) /\
    (forall b, b < g_dram_region G \/ mt <= b -> m b = s_mem s b).
Proof.
  intros RB T. cbv zeta.
  unfold tables_end, words_of_count in *.
  pose proof (pow2_pos rb) as RP.
  unfold boot_init_dynamic_arrays. 
  set (meta := boot_init_metadata _).
  unfold geometry_of. cbn [ge_region_count ge_bitmap_words ge_dram_size
    ge_region_shift ge_stripe_shift ge_stripe_page_mask ge_region_mask
    ge_stripe_mask ge_stripe_size ge_stripe_pages].
  change core_info_size with 32. change dram_region_info_size with 40.
  change dram_regions_info_size with 8. change drs_block_clock with 0.
  set (cnt := 2 ^ rb) in *. set (cores := p_core_count P) in *.
  rewrite (wmul_small 32 cores) by lia. rewrite (wadd_small top) by lia.
  rewrite (wmul_small 40 cnt) by lia.
  rewrite (wadd_small (top + 32 * cores)) by lia.
  rewrite (wadd_small (top + 32 * cores + 40 * cnt) 0) by lia.
  rewrite (wadd_small (top + 32 * cores + 40 * cnt) 8) by lia.
  rewrite (wmul_small 8) by lia.
  rewrite (wadd_small (top + 32 * cores + 40 * cnt + 8)) by lia.
  rewrite N.add_0_r.
  change (fun i : N => _) with (clr_region (top + 32 * cores)) at 1.
  destruct (clr_regions_run c (top + 32 * cores) (N.to_nat cnt) 0 s) as [m1 [E1 [Z1 F1]]];
    [lia|].
  rewrite run_bind, E1. rewrite run_bind, run_store64. cbn [s_mem set_mem].
  rewrite set_mem_set_mem.
  set (m2 := st 8 m1 _ 0).
  rewrite run_bind.
  destruct (set_bits_run c (top + 32 * cores + 40 * cnt + 8) (N.to_nat cnt) 0 (set_mem s m2))
    as [m3 [E3 [Z3 F3]]]; [rewrite N2Nat.id; lia|].
  rewrite E3, set_mem_set_mem. cbn [run s_mem set_mem] in *.
  rewrite N2Nat.id in *.
  exists m3. split; [reflexivity|].
  unfold globals_of, geometry_of. cbn [g_dram_region g_os_region_bitmap].
  fold cnt cores. split; [|split].
  - intros b B. unfold byte. rewrite F3 by lia. change (byte m2 b = 0).
    unfold m2. rewrite byte_st8_zero. destruct (_ && _) eqn:X; [reflexivity|].
    apply Z1. lia.
  - intros j. rewrite Z3. f_equal; [lia|]. unfold bit_at. f_equal. unfold byte.
    f_equal. unfold m2. rewrite st_out by (change (N.of_nat 8) with 8; lia).
    apply F1. lia.
  - intros b B. rewrite F3 by lia. unfold m2.
    rewrite st_out by (change (N.of_nat 8) with 8; lia). apply F1. lia.
Qed.

(** ** The whole boot sequence *)

(** What boot leaves on the booting core. *)
Definition boot_regs (s : state) (c pb mtop : N) (m : mem) (bm : N) : cregs :=
  let r := s_cores s c in
  mkCregs (fun i => if i <? s_words s then ld 8 m (bm + 8 * i) else r_drb r i)
    (r_edrb r) 0 (wnot (mtop - 1)) pb (r_tlb_flushes r).

Definition boot_state (s : state) (c pb mtop : N) (m : mem) (bm : N) : state :=
  mkState m (fun c' => if c' =? c then boot_regs s c pb mtop m bm else s_cores s c')
    (s_words s) mtop (W64 - 1) mtop (mtop + 1) (s_ub s).

Definition same_state (s s' : state) : Prop :=
  s_mem s = s_mem s' /\ (forall c, s_cores s c = s_cores s' c) /\
  s_words s = s_words s' /\ s_dmar_base s = s_dmar_base s' /\
  s_dmar_mask s = s_dmar_mask s' /\ s_dma_start s = s_dma_start s' /\
  s_dma_end s = s_dma_end s' /\ s_ub s = s_ub s'.

Definition same_but_cores (s s' : state) : Prop :=
  s_mem s' = s_mem s /\ s_words s' = s_words s /\ s_dmar_base s' = s_dmar_base s /\
  s_dmar_mask s' = s_dmar_mask s /\ s_dma_start s' = s_dma_start s /\
  s_dma_end s' = s_dma_end s /\ s_ub s' = s_ub s.

Lemma step_par_base c v s : let s' := fst (step c (OSetParBase v) s) in
  let r := s_cores s c in
  same_but_cores s s' /\
  s_cores s' c = mkCregs (r_drb r) (r_edrb r) v (r_par_mask r) (r_cache_shift r)
                   (r_tlb_flushes r) /\
  (forall c', c' <> c -> s_cores s' c' = s_cores s c') /\ True.
Proof.
  cbn. rewrite N.eqb_refl. repeat split; auto. intros c' H.
  destruct (N.eqb_spec c' c); congruence.
Qed.
Lemma step_par_mask c v s : let s' := fst (step c (OSetParMask v) s) in
  let r := s_cores s c in
  same_but_cores s s' /\
  s_cores s' c = mkCregs (r_drb r) (r_edrb r) (r_par_base r) v (r_cache_shift r)
                   (r_tlb_flushes r) /\
  (forall c', c' <> c -> s_cores s' c' = s_cores s c') /\ True.
Proof.
  cbn. rewrite N.eqb_refl. repeat split; auto. intros c' H.
  destruct (N.eqb_spec c' c); congruence.
Qed.
Lemma step_drb c v s : let s' := fst (step c (OSetDrb v) s) in
  let r := s_cores s c in
  same_but_cores s s' /\
  s_cores s' c = mkCregs (snapshot s (r_drb r) v) (r_edrb r) (r_par_base r)
                   (r_par_mask r) (r_cache_shift r) (r_tlb_flushes r) /\
  (forall c', c' <> c -> s_cores s' c' = s_cores s c') /\ True.
Proof.
  cbn. rewrite N.eqb_refl. repeat split; auto. intros c' H.
  destruct (N.eqb_spec c' c); congruence.
Qed.
Lemma dma_regs_run {A} c a b d e (x : A) s :
  run c (op1 (OSetDmaStart a) ;; op1 (OSetDmaEnd b) ;; op1 (OSetDmarBase d) ;;
         op1 (OSetDmarMask e) ;; Ret x) s =
  (mkState (s_mem s) (s_cores s) (s_words s) d e a b (s_ub s), Some x).
Proof. reflexivity. Qed.

Lemma protection_run c s P pb rb top :
  12 + pb <= 30 -> rb <= 30 ->
  let mt := tables_end top (p_core_count P) (2 ^ rb) in
  mt <= 2 ^ 30 ->
  let mtop := 2 ^ address_bits_for mt in
  exists s', run c (boot_init_protection (globals_of P pb rb top mt)) s
    = (s', if 2 ^ (12 + pb) <? mtop then None
           else Some (globals_of P pb rb top mtop)) /\
    s_ub s' = s_ub s /\
    (mtop <= 2 ^ (12 + pb) ->
     same_state s' (mkState (s_mem s)
       (fun c' => if c' =? c then
          let r := s_cores s c in
          mkCregs (fun i => if i <? s_words s then
                     ld 8 (s_mem s) (g_os_region_bitmap (globals_of P pb rb top mt) + 8 * i)
                   else r_drb r i)
            (r_edrb r) 0 (wnot (mtop - 1)) (r_cache_shift r) (r_tlb_flushes r)
        else s_cores s c')
       (s_words s) mtop (W64 - 1) mtop (mtop + 1) (s_ub s))).
Proof.
  intros PB RB mt MT mtop. unfold boot_init_protection.
  assert (M1 : 8 <= mt) by (unfold mt, tables_end; lia).
  change (2 ^ 30) with 1073741824 in MT.
  assert (AB : address_bits_for mt <= 30).
  { apply address_bits_iff; unfold W64; try lia. }
  assert (MTP : mtop <= 2 ^ 30) by (apply pow2_le; auto).
  change (2 ^ 30) with 1073741824 in MTP.
  assert (MTL : mt <= mtop).
  { unfold mtop. apply address_bits_iff; unfold W64; try lia. }
  change (g_monitor_top (globals_of P pb rb top mt)) with mt.
  rewrite int_shl_ub_one by auto. cbn [ub_if bind].
  rewrite (ceil_pow2_val mt) by (change (2 ^ 30) with 1073741824; lia).
  fold mtop. rewrite (wsub_small mtop 1) by (unfold W64; lia).
  change (g_dram_stripe_size (globals_of P pb rb top mt)) with (2 ^ (12 + pb)).
  rewrite (wadd_small mtop 1) by (unfold W64; lia).
  change (wnot 0) with (W64 - 1).
  set (bm := g_os_region_bitmap _).
  rewrite run_bind, run_op1.
  destruct (step_par_base c 0 s) as [A1 [A2 [A3 A4]]].
  set (s1 := fst (step c (OSetParBase 0) s)) in *. clearbody s1.
  rewrite run_bind, run_op1.
  destruct (step_par_mask c (wnot (mtop - 1)) s1) as [B1 [B2 [B3 B4]]].
  set (s2 := fst (step c (OSetParMask _) s1)) in *. clearbody s2.
  rewrite run_bind, run_op1.
  destruct (step_drb c bm s2) as [C1 [C2 [C3 C4]]].
  set (s3 := fst (step c (OSetDrb _) s2)) in *. clearbody s3.
  destruct A1 as (a1 & a2 & a3 & a4 & a5 & a6 & a7).
  destruct B1 as (b1 & b2 & b3 & b4 & b5 & b6 & b7).
  destruct C1 as (c1 & c2 & c3 & c4 & c5 & c6 & c7).
  destruct (N.ltb_spec (2 ^ (12 + pb)) mtop) as [L|L].
  - cbn [run]. exists s3. split; [reflexivity|]. split; [congruence|]. lia.
  - rewrite dma_regs_run. eexists. split; [reflexivity|].
    split; [cbn; congruence|]. intros _.
    unfold same_state. cbn [s_mem s_cores s_words s_dmar_base s_dmar_mask
      s_dma_start s_dma_end s_ub].
    split; [congruence|]. split; [|repeat split; congruence].
    intros c'. destruct (N.eqb_spec c' c) as [->|Ne].
    + rewrite C2, B2, A2. cbn [r_drb r_edrb r_par_base r_par_mask r_cache_shift r_tlb_flushes].
      unfold snapshot. rewrite b1, a1, b2, a2. reflexivity.
    + rewrite C3, B3, A3 by auto. reflexivity.
Qed.

(** [booted P top pb rb c s G s'] : what holds after a boot that starts in [s]. *)
Record booted (P : platform) (top pb rb c : N) (s : state) (G : globals)
  (s' : state) : Prop := mkBooted {
  bt_globals : G = globals_of P pb rb top
                 (2 ^ address_bits_for (tables_end top (p_core_count P) (2 ^ rb)));
  bt_zero : forall b, g_dram_region G <= b < g_os_region_bitmap G ->
              byte (s_mem s') b = 0;
  bt_bits : forall j, bit_at (s_mem s') (g_os_region_bitmap G) j =
              (j <? 2 ^ rb) || bit_at (s_mem s) (g_os_region_bitmap G) j;
  bt_frame : forall b, b < g_dram_region G \/
              tables_end top (p_core_count P) (2 ^ rb) <= b ->
              s_mem s' b = s_mem s b;
  bt_cores : forall c', s_cores s' c' = if c' =? c then
              boot_regs s c pb (g_monitor_top G) (s_mem s') (g_os_region_bitmap G)
              else s_cores s c';
  bt_words : s_words s' = s_words s;
  bt_dmar_base : s_dmar_base s' = g_monitor_top G;
  bt_dmar_mask : s_dmar_mask s' = W64 - 1;
  bt_dma_start : s_dma_start s' = g_monitor_top G;
  bt_dma_end : s_dma_end s' = g_monitor_top G + 1;
  bt_ub : s_ub s' = s_ub s }.

Lemma boot_rest_run c s P pb rb top : 12 + pb <= 30 -> rb <= 30 ->
  tables_end top (p_core_count P) (2 ^ rb) <= 2 ^ 30 ->
  let mtop := 2 ^ address_bits_for (tables_end top (p_core_count P) (2 ^ rb)) in
  exists s', run c (G <- boot_init_dynamic_arrays P (geometry_of (p_dram_size P) pb rb)
              (boot_init_metadata (geometry_of (p_dram_size P) pb rb)) top ;;
           boot_init_protection G) (set_shift s c pb)
    = (s', if 2 ^ (12 + pb) <? mtop then None
           else Some (globals_of P pb rb top mtop)) /\
    s_ub s' = s_ub s /\
    (mtop <= 2 ^ (12 + pb) ->
     booted P top pb rb c s (globals_of P pb rb top mtop) s').
Proof.
  intros PB RB T mtop.
  change (2 ^ 30) with 1073741824 in T.
  rewrite run_bind.
  destruct (dynamic_arrays_run c (set_shift s c pb) P pb rb top) as [m [E [Z [B F]]]];
    auto; [unfold W64; lia|].
  rewrite E.
  destruct (protection_run c (set_mem (set_shift s c pb) m) P pb rb top)
    as [s' [E' [U S]]]; auto.
  cbv zeta in E'. rewrite E'. exists s'. split; [reflexivity|].
  split; [exact U|]. intros L. specialize (S L).
  destruct S as [S1 [S2 [S3 [S4 [S5 [S6 [S7 S8]]]]]]]. cbn in *.
  constructor; auto.
  - intros b. rewrite S1. apply Z.
  - intros j. rewrite S1. apply B.
  - intros b. rewrite S1. apply F.
  - intros c'. rewrite S2, S1. unfold boot_regs. rewrite N.eqb_refl.
    destruct (c' =? c); reflexivity.
Qed.

(** The platform is one the monitor supports, with [pb] page bits in a stripe and
    2^rb regions. *)
Record supported (P : platform) (top pb rb : N) : Prop := mkSupported {
  su_levels : 1 <= p_cache_levels P < 2 ^ 64;
  su_private : ~ inner_shared P;
  su_cache : exists lb st, lb <= 30 /\ st <= 30 /\
    p_line_size P (llc P) = 2 ^ lb /\ p_set_count P (llc P) = 2 ^ st /\
    lb + st = 12 + rb;
  su_rb : 1 <= rb <= 30;
  su_dram : 1 <= p_dram_size P < 2 ^ 64;
  (* DRAM has at least as many address bits as the cache index *)
  su_bits : 12 + rb <= address_bits_for (p_dram_size P);
  su_pb : pb = N.min (address_bits_for (p_dram_size P) - (12 + rb)) (p_max_shift P);
  su_min : p_min_shift P <= pb;
  su_shift : 12 + pb <= 30;
  su_tables : tables_end top (p_core_count P) (2 ^ rb) <= 2 ^ (12 + pb) }.

Lemma chosen_bits_min ab cb mx : cb <= ab -> ab < W64 ->
  chosen_bits ab cb mx = N.min (ab - cb) mx.
Proof.
  intros H A. unfold chosen_bits. rewrite wsub_small by auto.
  destruct (N.ltb_spec mx (ab - cb)); lia.
Qed.

Lemma boot_supported c s P top pb rb : supported P top pb rb ->
  exists s' G, run c (boot_from P top) s = (s', Some G) /\
    booted P top pb rb c s G s'.
Proof.
  intros [L NS [lb [st [LB [ST [LS [SC CB]]]]]] RB D AB PB MN SH TB].
  change (2 ^ 64) with W64 in *.
  unfold boot_from. rewrite run_bind.
  rewrite (dram_regions_split c s P lb st) by auto. cbv zeta.
  replace (st + lb) with (12 + rb) by lia.
  assert (A64 : address_bits_for (p_dram_size P) <= 64) by (apply address_bits_le64; lia).
  rewrite chosen_bits_min by (unfold W64; lia). rewrite <- PB.
  replace ((12 + rb <=? 12) || (pb <? p_min_shift P)) with false by lia.
  rewrite ge_tail_run by lia.
  assert (P30 : 2 ^ (12 + pb) <= 2 ^ 30) by (apply pow2_le; lia).
  destruct (boot_rest_run c s P pb rb top) as [s' [E [U S]]]; try lia.
  cbv zeta. 
  set (mtop := 2 ^ address_bits_for (tables_end top (p_core_count P) (2 ^ rb))) in *.
  assert (ML : mtop <= 2 ^ (12 + pb)).
  { unfold mtop. apply pow2_le. apply address_bits_iff; auto.
    - unfold tables_end. lia.
    - change (2 ^ 30) with 1073741824 in P30. unfold W64. lia. }
  replace (2 ^ (12 + pb) <? mtop) with false in E by lia.
  eexists s', _. split; [exact E|]. apply S. auto.
Qed.

(** Conversely: a boot that ends without undefined behaviour, on a platform with
    sane counts and with DRAM at least as wide as the cache index, is a supported
    one. *)
Lemma boot_inv c s P top s' G :
  1 <= p_cache_levels P < 2 ^ 64 ->
  p_line_size P (llc P) < 2 ^ 64 -> p_set_count P (llc P) < 2 ^ 64 ->
  1 <= p_dram_size P < 2 ^ 64 -> p_max_shift P < 2 ^ 32 ->
  top < 2 ^ 32 -> p_core_count P < 2 ^ 32 ->
  p_line_size P (llc P) * p_set_count P (llc P) <= 2 ^ address_bits_for (p_dram_size P) ->
  run c (boot_from P top) s = (s', Some G) -> s_ub s' = s_ub s ->
  exists pb rb, supported P top pb rb /\ booted P top pb rb c s G s'.
Proof.
  intros L LW SW D MX T C BITS R U.
  assert (U' : ubs s' = ubs s) by (unfold ubs; rewrite U; reflexivity). 
  change (2 ^ 64) with W64 in *. change (2 ^ 32) with 4294967296 in *.
  pose proof R as R0.
  unfold boot_from in R. apply run_bind_ub in R; auto.
  destruct R as [s1 [ge [R1 [R2 [U1 U2]]]]].
  pose proof R1 as R1'.
  apply dram_regions_inv in R1; auto.
  destruct R1 as [NS [lb [st [LB [ST [LS [SC [CB MN]]]]]]]].
  rewrite (dram_regions_split c s P lb st) in R1' by auto. cbv zeta in R1'.
  rewrite (N.add_comm lb st) in *.
  set (pb := chosen_bits _ _ _) in *.
  assert (A64 : address_bits_for (p_dram_size P) <= 64) by (apply address_bits_le64; lia).
  assert (AB : st + lb <= address_bits_for (p_dram_size P)).
  { rewrite LS, SC, <- pow2_add in BITS. apply pow2_le_inv in BITS. lia. }
  assert (PBE : pb = N.min (address_bits_for (p_dram_size P) - (st + lb)) (p_max_shift P)).
  { unfold pb. apply chosen_bits_min; auto. unfold W64. lia. }
  replace ((st + lb <=? 12) || (pb <? p_min_shift P)) with false in R1' by lia.
  pose proof R1' as R1''.
  apply ge_tail_inv in R1''; auto; try (unfold W64; lia).
  destruct R1'' as [SH CB2].
  set (rb := st + lb - 12). assert (RB : st + lb = 12 + rb) by lia.
  rewrite RB in R1'. rewrite ge_tail_run in R1' by lia.
  inversion R1'; subst s1 ge. clear R1'.
  (* the tables *)
  cbv zeta in R2.
  assert (R30 : 2 ^ rb <= 2 ^ 30) by (apply pow2_le; lia).
  change (2 ^ 30) with 1073741824 in R30.
  assert (TW : tables_end top (p_core_count P) (2 ^ rb) < W64)
    by (unfold tables_end, words_of_count, W64; lia).
  assert (TB30 : tables_end top (p_core_count P) (2 ^ rb) <= 2 ^ 30).
  { pose proof R2 as Q. rewrite run_bind in Q.
    destruct (dynamic_arrays_run c (set_shift s c pb) P pb rb top) as [m [E _]]; [lia|auto|].
    rewrite E in Q. unfold boot_init_protection in Q.
    apply run_bind_ub in Q; [|exact U2]. destruct Q as [s2 [u [Q1 [Q2 [U3 U4]]]]].
    apply ub_if_inv in Q1; auto. destruct Q1 as [Q1 _].
    apply int_shl_ub_one_inv in Q1.
    change (g_monitor_top _) with (tables_end top (p_core_count P) (2 ^ rb)) in Q1.
    apply address_bits_iff in Q1; auto. unfold tables_end. lia. }
  destruct (boot_rest_run c s P pb rb top) as [s'' [E [UU S]]]; try lia.
  cbv zeta in E, S. rewrite E in R2.
  set (mtop := 2 ^ address_bits_for (tables_end top (p_core_count P) (2 ^ rb))) in *.
  destruct (2 ^ (12 + pb) <? mtop) eqn:X; [discriminate|].
  apply N.ltb_ge in X. inversion R2; subst s'' G. exists pb, rb. split; [|apply S; auto].
  clear R0 E S UU U U' U1 U2 R2.
  split.
  - exact L.
  - exact NS.
  - exists lb, st. repeat split; auto. rewrite N.add_comm. exact RB.
  - lia.
  - exact D.
  - rewrite <- RB. exact AB.
  - rewrite <- RB. exact PBE.
  - exact MN.
  - exact SH.
  - apply N.le_trans with mtop; [|exact X]. unfold mtop.
    apply address_bits_iff; [unfold tables_end; lia|exact TW|apply N.le_refl].
Qed.
