(** * The hash functions compute SHA-256 (properties C10, C11). *)
From Coq Require Import NArith ZArith Lia Bool List.
From Coq Require Import ZifyBool ZifyNat ZifyN.
From Verif Require Import Word Machine ModelBare ModelHash Lib BareProofs
  SpecSha256.
Import ListNotations.
Open Scope N_scope.
Ltac Zify.zify_post_hook ::= Z.div_mod_to_equations.

(** The [n] bytes of memory at [a]. *)
Definition bytes_at (m : mem) (a : N) (n : nat) : list N :=
  map (fun i => byte m (a + N.of_nat i)) (seq 0 n).
(** The [n] 32-bit words (native order) of memory at [a]. *)
Definition words_at (m : mem) (a : N) (n : nat) : list N :=
  map (fun i => ld 4 m (a + 4 * N.of_nat i)) (seq 0 n).

Lemma bytes_at_length m a n : length (bytes_at m a n) = n.
Proof. unfold bytes_at. rewrite map_length, seq_length. reflexivity. Qed.

Lemma bytes_at_cons m a n :
  bytes_at m a (S n) = byte m a :: bytes_at m (a + 1) n.
Proof.
  unfold bytes_at. cbn [seq map]. f_equal.
  - f_equal. lia.
  - rewrite <- seq_shift, map_map. apply map_ext. intros i. f_equal. lia.
Qed.

Lemma bytes_at_app m a n k :
  bytes_at m a (n + k) = bytes_at m a n ++ bytes_at m (a + N.of_nat n) k.
Proof.
  revert a. induction n as [|n IH]; intros a.
  - change (bytes_at m a 0) with (@nil N). cbn [Nat.add app].
    replace (a + N.of_nat 0) with a by lia. reflexivity.
  - cbn [Nat.add]. rewrite !bytes_at_cons, IH. cbn [app].
    replace (a + N.of_nat (S n)) with (a + 1 + N.of_nat n) by lia. reflexivity.
Qed.

Lemma words_of_bytes_at m : forall k a,
  words_of (bytes_at m a (4 * k)) =
  map (fun i => reverse_bytes (ld 4 m (a + 4 * N.of_nat i))) (seq 0 k).
Proof.
  induction k as [|k IH]; intros a; [reflexivity|].
  replace (4 * S k)%nat with (S (S (S (S (4 * k))))) by lia.
  rewrite !bytes_at_cons. cbn [words_of seq map]. f_equal.
  - rewrite reverse_bytes_ld. unfold be4.
    replace (a + 4 * N.of_nat 0) with a by lia.
    replace (a + 1 + 1) with (a + 2) by lia.
    replace (a + 2 + 1) with (a + 3) by lia. reflexivity.
  - rewrite IH, <- seq_shift, map_map. apply map_ext. intros i. do 2 f_equal.
    lia.
Qed.

Lemma words_of_64 m a :
  words_of (bytes_at m a 64) =
  map (fun i => reverse_bytes (ld 4 m (a + 4 * N.of_nat i))) (seq 0 16).
Proof. exact (words_of_bytes_at m 16 a). Qed.

Lemma bytes_at_ext m m' a n :
  (forall b, a <= b < a + N.of_nat n -> byte m b = byte m' b) ->
  bytes_at m a n = bytes_at m' a n.
Proof.
  intros H. unfold bytes_at. apply map_ext_in. intros i Hi.
  apply in_seq in Hi. apply H. lia.
Qed.

(** ** The constants *)
Lemma hash_k_is_K : hash_k = K.
Proof. vm_compute. reflexivity. Qed.

Lemma K_length : length K = 64%nat.
Proof. vm_compute. reflexivity. Qed.
Global Opaque K.

(** ** The message schedule *)
Lemma W_extend_length n : forall W, length (W_extend n W) = (length W + n)%nat.
Proof.
  induction n as [|n IH]; intros W; cbn [W_extend]; [lia|].
  rewrite IH, app_length. cbn. lia.
Qed.
Lemma W_extend_prefix n : forall W t, (t < length W)%nat ->
  nth t (W_extend n W) 0 = nth t W 0.
Proof.
  induction n as [|n IH]; intros W t H; cbn [W_extend]; auto.
  rewrite IH by (rewrite app_length; cbn; lia). apply app_nth1. auto.
Qed.
Lemma W_extend_rec n : forall W t, (length W <= t < length W + n)%nat ->
  (16 <= length W)%nat ->
  let w := fun k => nth (t - k) (W_extend n W) 0 in
  nth t (W_extend n W) 0 =
  add (add (add (sigma1 (w 2%nat)) (w 7%nat)) (sigma0 (w 15%nat))) (w 16%nat).
Proof.
  induction n as [|n IH]; intros W t H L; [lia|]. cbn [W_extend]. cbv zeta.
  destruct (Nat.eq_dec t (length W)) as [->|Ne].
  - rewrite !W_extend_prefix by (rewrite app_length; cbn; lia).
    rewrite (app_nth2 W _ _ (le_n (length W))), Nat.sub_diag.
    rewrite !(app_nth1 W) by lia. reflexivity.
  - apply IH; rewrite app_length; cbn; lia.
Qed.

(** ** Bounds *)
Lemma add_lt x y : add x y < W32.
Proof. apply N.mod_lt. discriminate. Qed.
Lemma wadd32_lt x y : wadd32 x y < W32.
Proof. apply N.mod_lt. discriminate. Qed.

(** ** One round *)
Definition vars_list (v : sha_vars) : list N :=
  [va v; vb v; vc v; vd v; ve v; vf v; vg v; vh v].
Definition vars_ok (v : sha_vars) : Prop := Forall (fun x => x < W32) (vars_list v).

Lemma rotr_eq n x : n <= 32 -> rotate_right x n = ROTR n x.
Proof.
  intros. unfold rotate_right, ROTR. rewrite shiftr_div, shiftl_mul. reflexivity.
Qed.

Lemma sha_round_eq i wi v : vars_ok v ->
  round (vars_list v) (nth (N.to_nat i) K 0, wi) = vars_list (sha_round i wi v).
Proof.
  intros OK. unfold vars_list, round, sha_round. cbn [va vb vc vd ve vf vg vh fst snd].
  rewrite !rotr_eq by lia. rewrite hash_k_is_K.
  fold (Sigma0 (va v)). fold (Sigma1 (ve v)).
  fold (Maj (va v) (vb v) (vc v)).
  assert (E : N.lxor (N.land (ve v) (vf v)) (N.land (wnot32 (ve v)) (vg v))
              = Ch (ve v) (vf v) (vg v)).
  { unfold Ch. do 2 f_equal. unfold wnot32, NOT.
    rewrite N.mod_small; [reflexivity|].
    do 4 (apply Forall_inv_tail in OK). apply Forall_inv in OK. exact OK. }
  rewrite E. reflexivity.
Qed.
Lemma sha_round_ok i wi v : vars_ok v -> vars_ok (sha_round i wi v).
Proof.
  intros OK. unfold vars_ok, vars_list in *. unfold sha_round.
  cbn [va vb vc vd ve vf vg vh].
  inversion OK as [|? ? O1 R1]; subst. inversion R1 as [|? ? O2 R2]; subst.
  inversion R2 as [|? ? O3 R3]; subst. inversion R3 as [|? ? O4 R4]; subst.
  inversion R4 as [|? ? O5 R5]; subst. inversion R5 as [|? ? O6 R6]; subst.
  inversion R6 as [|? ? O7 R7]; subst.
  repeat constructor; auto using wadd32_lt.
Qed.

Lemma add4_eq p q r t :
  wadd32 (wadd32 (wadd32 p q) r) t = add (add (add t r) q) p.
Proof. unfold wadd32, add. change (2 ^ 32) with W32. unfold W32. lia. Qed.

Lemma schedule_word_eq p q r t :
  wadd32 (wadd32 (wadd32 p
     (N.lxor (N.lxor (ROTR 7 q) (ROTR 18 q)) (N.shiftr q 3))) r)
     (N.lxor (N.lxor (ROTR 17 t) (ROTR 19 t)) (N.shiftr t 10))
  = add (add (add (sigma1 t) r) (sigma0 q)) p.
Proof.
  rewrite add4_eq. unfold sigma0, sigma1, SHR. rewrite !shiftr_div. reflexivity.
Qed.

(** ** The round loop *)
Section Rounds.
  Variables (w blk : N) (m0 : mem).
  Hypothesis Hw : w + 64 <= W64.
  Hypothesis Hb : blk + 64 <= W64.
  Hypothesis Dis : blk + 64 <= w \/ w + 64 <= blk.

  Let M := words_of (bytes_at m0 blk 64).
  Let Ws := schedule M.

  Lemma M_length : length M = 16%nat.
  Proof.
    unfold M. rewrite (words_of_64 m0 blk), map_length, seq_length.
    reflexivity.
  Qed.
  Lemma Ws_length : length Ws = 64%nat.
  Proof. unfold Ws, schedule. rewrite W_extend_length, M_length. reflexivity. Qed.
  Lemma Ws_low t : (t < 16)%nat ->
    nth t Ws 0 = reverse_bytes (ld 4 m0 (blk + 4 * N.of_nat t)).
  Proof.
    intros H. unfold Ws, schedule. rewrite W_extend_prefix by (rewrite M_length; lia).
    unfold M. rewrite (words_of_64 m0 blk).
    set (f := fun i : nat => reverse_bytes _).
    rewrite (nth_indep _ 0 (f 0%nat)) by (rewrite map_length, seq_length; lia).
    rewrite map_nth, seq_nth by lia. reflexivity.
  Qed.
  Lemma Ws_high t : (16 <= t < 64)%nat ->
    nth t Ws 0 =
    add (add (add (sigma1 (nth (t - 2) Ws 0)) (nth (t - 7) Ws 0))
      (sigma0 (nth (t - 15) Ws 0))) (nth (t - 16) Ws 0).
  Proof.
    intros H. unfold Ws, schedule. apply W_extend_rec; rewrite M_length; lia.
  Qed.
  Lemma Ws_lt t : (t < 64)%nat -> nth t Ws 0 < W32.
  Proof.
    intros H. destruct (Nat.lt_ge_cases t 16).
    - rewrite Ws_low by auto. apply reverse_bytes_lt, ld4_bound.
    - rewrite Ws_high by lia. apply add_lt.
  Qed.

  (** The ring buffer holds the last (up to) 16 schedule words. *)
  Definition ring (m : mem) (i : nat) : Prop :=
    forall j, (j < i)%nat -> (i <= j + 16)%nat ->
      ld 4 m (w + 4 * (N.of_nat j mod 16)) = nth j Ws 0.
  Definition frame (m : mem) : Prop :=
    forall b, b < w \/ w + 64 <= b -> m b = m0 b.

  Lemma sha_schedule_run c s i :
    (i < 64)%nat -> ring (s_mem s) i -> frame (s_mem s) ->
    run c (sha_schedule w blk (N.of_nat i)) s
    = (set_mem s (st 4 (s_mem s) (w + 4 * (N.of_nat i mod 16)) (nth i Ws 0)),
       Some (nth i Ws 0)).
  Proof.
    intros Hi R F. unfold sha_schedule.
    assert (A : forall x, N.land x 15 = x mod 16).
    { intros x. change 15 with (2 ^ 4 - 1). rewrite land_mask. reflexivity. }
    rewrite !A.
    assert (WA : forall x, wadd w (4 * (x mod 16)) = w + 4 * (x mod 16)).
    { intros x. apply wadd_small. lia. }
    destruct (N.ltb_spec (N.of_nat i) 16) as [L|L].
    - rewrite run_bind, run_load32. cbv zeta.
      rewrite (wadd_small blk) by lia.
      replace (ld 4 (s_mem s) (blk + 4 * N.of_nat i))
        with (ld 4 m0 (blk + 4 * N.of_nat i)).
      2:{ apply ld_ext. intros b B1 B2. rewrite F by lia. reflexivity. }
      unfold to_big_endian. rewrite <- Ws_low by lia.
      rewrite run_bind, run_store32, WA. reflexivity.
    - rewrite !WA.
      rewrite run_bind, run_load32. rewrite run_bind, run_load32. cbv zeta.
      rewrite run_bind, run_load32. rewrite run_bind, run_load32.
      rewrite run_bind, run_store32. cbn [run].
      assert (RR : forall k, (1 <= k <= 16)%nat ->
         ld 4 (s_mem s) (w + 4 * ((N.of_nat i - N.of_nat k) mod 16))
         = nth (i - k) Ws 0).
      { intros k Hk. rewrite <- (R (i - k)%nat) by lia. do 4 f_equal. lia. }
      pose proof (RR 15%nat ltac:(lia)) as R15.
      pose proof (RR 2%nat ltac:(lia)) as R2.
      pose proof (RR 7%nat ltac:(lia)) as R7.
      pose proof (RR 16%nat ltac:(lia)) as R16.
      change (N.of_nat 15) with 15 in *. change (N.of_nat 2) with 2 in *.
      change (N.of_nat 7) with 7 in *. change (N.of_nat 16) with 16 in *.
      replace ((N.of_nat i - 16) mod 16) with (N.of_nat i mod 16) in R16 by lia.
      rewrite R15, R2, R7, R16.
      rewrite !rotr_eq by lia.
      match goal with
      | |- (set_mem _ (st 4 _ _ ?x), _) = _ =>
          assert (E : x = nth i Ws 0)
      end.
      { rewrite (Ws_high i) by lia.
        apply schedule_word_eq. }
      rewrite E. reflexivity.
  Qed.

  Lemma skipn_nth_cons {A} (d : A) : forall (l : list A) n, (n < length l)%nat ->
    skipn n l = nth n l d :: skipn (S n) l.
  Proof.
    induction l as [|x l IH]; intros n H; [cbn in H; lia|].
    destruct n; [reflexivity|]. cbn [skipn nth]. rewrite IH by (cbn in H; lia).
    reflexivity.
  Qed.

  Lemma sha_rounds_run c n : forall i s v,
    (i + n = 64)%nat -> ring (s_mem s) i -> frame (s_mem s) -> vars_ok v ->
    exists m v', run c (sha_rounds n w blk (N.of_nat i) v) s
                 = (set_mem s m, Some v') /\
      vars_list v' = fold_left round (skipn i (combine K Ws)) (vars_list v) /\
      vars_ok v' /\ frame m.
  Proof.
    induction n as [|n IH]; intros i s v Hi R F OK.
    - exists (s_mem s), v. rewrite set_mem_id. repeat split; auto.
      rewrite skipn_all2; [reflexivity|].
      rewrite combine_length, Ws_length. rewrite K_length. lia.
    - cbn [sha_rounds]. rewrite run_bind, sha_schedule_run by (auto; lia).
      set (s1 := set_mem s _).
      replace (N.of_nat i + 1) with (N.of_nat (S i)) by lia.
      destruct (IH (S i) s1 (sha_round (N.of_nat i) (nth i Ws 0) v))
        as [m [v' [E [V [VO FM]]]]].
      + lia.
      + unfold ring, s1. cbn [s_mem set_mem]. intros j J1 J2.
        destruct (Nat.eq_dec j i) as [->|Ne].
        * apply ld4_st4. apply Ws_lt. lia.
        * rewrite ld_st_other; [apply R; lia|]. lia.
      + unfold frame, s1. cbn [s_mem set_mem]. intros b B.
        rewrite st_out by lia. apply F. auto.
      + apply sha_round_ok; auto.
      + exists m, v'. split; [rewrite E; reflexivity|]. split; [|auto].
        rewrite V. rewrite (skipn_nth_cons (0, 0) (combine K Ws) i).
        2:{ rewrite combine_length, Ws_length. rewrite K_length. lia. }
        cbn [fold_left]. f_equal.
        rewrite combine_nth by (rewrite Ws_length, K_length; reflexivity).
        rewrite <- (sha_round_eq (N.of_nat i)) by auto.
        rewrite Nat2N.id. reflexivity.
  Qed.
End Rounds.

Lemma wadd32_add x y : wadd32 y x = add x y.
Proof. unfold add, wadd32. rewrite N.add_comm. reflexivity. Qed.

(** ** extend_hash *)
Lemma hash_add_run c p j x s : p + 4 * j < W64 ->
  run c (hash_add p j x) s
  = (set_mem s (st 4 (s_mem s) (p + 4 * j)
       (wadd32 (ld 4 (s_mem s) (p + 4 * j)) x)), Some tt).
Proof.
  intros H. unfold hash_add. rewrite wadd_small by auto.
  rewrite run_bind, run_load32, run_bind, run_store32. reflexivity.
Qed.

(** The hash words of a state and the bytes it may modify. *)
Definition hash_words (m : mem) (state : N) : list N := words_at m state 8.
Definition counter (m : mem) (state : N) : N := reverse_bytes (ld 4 m (state + 156)).

Lemma words8 m a : words_at m a 8 =
  [ld 4 m a; ld 4 m (a + 4); ld 4 m (a + 8); ld 4 m (a + 12);
   ld 4 m (a + 16); ld 4 m (a + 20); ld 4 m (a + 24); ld 4 m (a + 28)].
Proof.
  unfold words_at. cbn [seq map].
  change (4 * N.of_nat 0) with 0. change (4 * N.of_nat 1) with 4.
  change (4 * N.of_nat 2) with 8. change (4 * N.of_nat 3) with 12.
  change (4 * N.of_nat 4) with 16. change (4 * N.of_nat 5) with 20.
  change (4 * N.of_nat 6) with 24. change (4 * N.of_nat 7) with 28.
  rewrite N.add_0_r. reflexivity.
Qed.

Lemma round_length : forall l v, length v = 8%nat ->
  length (fold_left round l v) = 8%nat.
Proof.
  induction l as [|kw l IH]; intros v H; cbn [fold_left]; auto.
  apply IH. do 8 (destruct v as [|? v]; [discriminate|]).
  destruct v; [reflexivity|discriminate].
Qed.

Lemma extend_hash_run c s state blk :
  state + 160 <= W64 -> blk + 64 <= W64 ->
  blk + 64 <= state \/ state + 96 <= blk ->
  exists m, run c (extend_hash state blk) s = (set_mem s m, Some tt) /\
    hash_words m state =
      compress (hash_words (s_mem s) state)
        (words_of (bytes_at (s_mem s) blk 64)) /\
    counter m state = (counter (s_mem s) state + 512) mod W32 /\
    (forall b, b < state \/ (state + 96 <= b < state + 156) \/ state + 160 <= b ->
       m b = s_mem s b).
Proof.
  intros HS HB D. unfold extend_hash.
  change hs_h with 0. change hs_work with 32.
  change (hs_padding + hash_block_size - 4) with 156.
  rewrite (wadd_small state 0) by lia. rewrite N.add_0_r.
  rewrite (wadd_small state 0) by lia. rewrite N.add_0_r.
  rewrite !(wadd_small state) by lia.
  do 8 (rewrite run_bind, run_load32).
  set (m0 := s_mem s).
  set (v0 := mkVars _ _ _ _ _ _ _ _).
  assert (V0 : vars_list v0 = hash_words m0 state)
    by (unfold hash_words; rewrite words8; reflexivity).
  assert (OK0 : vars_ok v0).
  { unfold vars_ok, v0, vars_list. cbn [va vb vc vd ve vf vg vh].
    repeat constructor; apply ld4_bound. }
  destruct (sha_rounds_run (state + 32) blk m0) with (c := c) (n := 64%nat)
    (i := 0%nat) (s := s) (v := v0) as [m1 [v' [E [V [VO FM]]]]];
    try lia; auto.
  { intros j; lia. }
  { intros b _; reflexivity. }
  rewrite run_bind. change (N.of_nat 0) with 0 in E. rewrite E.
  cbn [skipn] in V. rewrite V0 in V.
  (* the eight additions and the counter *)
  rewrite run_bind, hash_add_run by lia. cbn [s_mem set_mem]. rewrite set_mem_set_mem.
  do 7 (rewrite run_bind, hash_add_run by lia; cbn [s_mem set_mem];
        rewrite !set_mem_set_mem).
  rewrite run_bind, run_load32. cbv zeta. rewrite run_bind, run_store32.
  cbn [run s_mem set_mem]. rewrite !set_mem_set_mem.
  eexists. split; [reflexivity|].
  unfold frame in FM.
  assert (LD : forall k, k + 4 <= 32 -> ld 4 m1 (state + k) = ld 4 m0 (state + k)).
  { intros k Hk. apply ld_ext. intros b B1 B2. rewrite FM by lia. reflexivity. }
  split; [|split].
  - unfold compress. rewrite <- V. unfold hash_words. rewrite !words8.
    unfold vars_list. cbn [combine map fst snd].
    change (4 * 0) with 0; change (4 * 1) with 4; change (4 * 2) with 8;
    change (4 * 3) with 12; change (4 * 4) with 16; change (4 * 5) with 20;
    change (4 * 6) with 24; change (4 * 7) with 28.
    rewrite (N.add_0_r state).
    assert (L0 : ld 4 m1 state = ld 4 m0 state)
      by (rewrite <- (N.add_0_r state); apply LD; lia).
    repeat match goal with
    | |- _ :: _ = _ :: _ => apply f_equal2
    end; [..|reflexivity];
    (repeat (rewrite ld_st_other by lia));
    (rewrite ld4_st4 by (apply wadd32_lt));
    (repeat (rewrite ld_st_other by lia));
    rewrite ?L0, ?LD by lia; apply wadd32_add.
  - unfold counter, to_big_endian.
    rewrite ld4_st4.
    2:{ apply reverse_bytes_lt. apply N.mod_lt. discriminate. }
    rewrite reverse_bytes_invol by (apply N.mod_lt; discriminate).
    change (hash_block_size * 8) with 512. f_equal. f_equal. f_equal.
    repeat (rewrite ld_st_other by lia).
    apply ld_ext. intros b B1 B2. rewrite FM by lia. reflexivity.
  - intros b B. repeat (rewrite st_out by lia). apply FM. lia.
Qed.

(** ** init_hash *)
Definition padding_ok (m : mem) (state : N) : Prop :=
  byte m (state + 96) = 0x80 /\
  forall i, 1 <= i < 60 -> byte m (state + 96 + i) = 0.

Lemma init_hash_run c s state : state + 160 <= W64 ->
  exists m, run c (init_hash state) s = (set_mem s m, Some tt) /\
    hash_words m state = H0 /\ counter m state = 0 /\ padding_ok m state /\
    (forall b, b < state \/ (state + 32 <= b < state + 96) \/ state + 160 <= b ->
       m b = s_mem s b).
Proof.
  intros H. unfold init_hash.
  change hs_padding with 96. change hash_block_size with 64.
  rewrite !wadd_small by lia. rewrite (N.add_0_r state).
  do 8 (rewrite run_bind, run_store32; cbn [s_mem set_mem]; rewrite ?set_mem_set_mem).
  rewrite run_bind.
  match goal with |- context [run c (bzero64 _ _) ?x] => set (s1 := x) end.
  destruct (bzero64_run c s1 (state + 96) 64) as [m1 [E [Z F]]];
    [reflexivity|lia|].
  rewrite E. rewrite run_bind, run_store32. cbn [run s_mem set_mem].
  change (to_big_endian (N.shiftl 1 (4 * 8 - 1) mod W32)) with 0x80.
  eexists. split; [unfold s1; rewrite !set_mem_set_mem; reflexivity|].
  assert (LD : forall k, k + 4 <= 32 -> ld 4 m1 (state + k) = ld 4 (s_mem s1) (state + k)).
  { intros k Hk. apply ld_ext. intros b B1 B2. rewrite F by lia. reflexivity. }
  split; [|split; [|split]].
  - change H0 with [0x6a09e667; 0xbb67ae85; 0x3c6ef372; 0xa54ff53a;
                    0x510e527f; 0x9b05688c; 0x1f83d9ab; 0x5be0cd19].
    unfold hash_words. rewrite words8.
    assert (L0 : ld 4 m1 state = ld 4 (s_mem s1) state)
      by (rewrite <- (N.add_0_r state); apply LD; lia).
    repeat match goal with
    | |- _ :: _ = _ :: _ => apply f_equal2
    end; [..|reflexivity];
    rewrite ld_st_other by lia; rewrite ?L0, ?LD by lia;
    unfold s1; cbn [s_mem set_mem];
    (repeat (rewrite ld_st_other by lia));
    apply ld4_st4; reflexivity.
  - unfold counter. rewrite ld_st_other by lia.
    replace (ld 4 m1 (state + 156)) with 0; [reflexivity|].
    symmetry. transitivity (ld 4 (fun _ => 0) (state + 156)); [|reflexivity].
    apply ld_byte. intros b B1 B2. rewrite Z by lia. reflexivity.
  - split.
    + rewrite byte_st_in by lia. rewrite N.sub_diag. reflexivity.
    + intros i Hi. destruct (N.lt_ge_cases i 4) as [L|L].
      * rewrite byte_st_in by lia. replace (state + 96 + i - (state + 96)) with i by lia.
        assert (C : i = 1 \/ i = 2 \/ i = 3) by lia.
        destruct C as [-> | [-> | ->]]; reflexivity.
      * rewrite byte_st_out by lia. apply Z. lia.
  - intros b B. rewrite st_out by lia. rewrite F by lia.
    unfold s1. cbn [s_mem set_mem]. repeat (rewrite st_out by lia). reflexivity.
Qed.

(** ** Sessions: any sequence of hash operations, with arbitrary other activity
    that does not touch the 160 bytes of the state in between. *)
Inductive session (c state : N) : Machine.state -> list N -> Prop :=
| session_init s s' :
    run c (init_hash state) s = (s', Some tt) -> session c state s' []
| session_extend s s' msg blk :
    session c state s msg ->
    blk + 64 <= W64 -> blk + 64 <= state \/ state + 160 <= blk ->
    run c (extend_hash state blk) s = (s', Some tt) ->
    session c state s' (msg ++ bytes_at (s_mem s) blk 64)
| session_other s s' msg :
    session c state s msg ->
    (forall b, state <= b < state + 160 -> byte (s_mem s') b = byte (s_mem s) b) ->
    session c state s' msg.

Lemma process_app n : forall k H a b, length a = (64 * n)%nat ->
  process (n + k) H (a ++ b) = process k (process n H a) b.
Proof.
  induction n as [|n IH]; intros k H a b L.
  - destruct a; [reflexivity|discriminate].
  - cbn [Nat.add process].
    rewrite firstn_app, skipn_app.
    replace (64 - length a)%nat with 0%nat by lia.
    rewrite firstn_O, skipn_O, app_nil_r. apply IH.
    rewrite skipn_length. lia.
Qed.

Lemma process_one H a : length a = 64%nat -> process 1 H a = compress H (words_of a).
Proof. intros L. cbn [process]. rewrite firstn_all2 by lia. reflexivity. Qed.

(** FIPS padding with the message length taken modulo 2^32 bits. *)
Definition pad32 (msg : list N) : list N :=
  let l := N.of_nat (length msg) in
  msg ++ [0x80] ++ repeat 0 55 ++ be64 (8 * l mod 2 ^ 32).
Definition sha256_32 (msg : list N) : list N :=
  process (Nat.div (length (pad32 msg)) 64) H0 (pad32 msg).

Definition session_inv (state : N) (m : mem) (msg : list N) : Prop :=
  exists n, length msg = (64 * n)%nat /\
    hash_words m state = process n H0 msg /\
    counter m state = (512 * N.of_nat n) mod W32 /\
    padding_ok m state.

Lemma hash_words_ext m m' state :
  (forall b, state <= b < state + 32 -> byte m' b = byte m b) ->
  hash_words m' state = hash_words m state.
Proof.
  intros H. unfold hash_words. rewrite !words8.
  repeat match goal with |- _ :: _ = _ :: _ => apply f_equal2 end;
    [..|reflexivity]; apply ld_byte; intros b B1 B2; apply H; lia.
Qed.
Lemma counter_ext m m' state :
  (forall b, state + 156 <= b < state + 160 -> byte m' b = byte m b) ->
  counter m' state = counter m state.
Proof.
  intros H. unfold counter. f_equal. apply ld_byte. intros; apply H; lia.
Qed.
Lemma padding_ext m m' state :
  (forall b, state + 96 <= b < state + 156 -> byte m' b = byte m b) ->
  padding_ok m state -> padding_ok m' state.
Proof.
  intros H [P1 P2]. split.
  - rewrite H by lia. auto.
  - intros i Hi. rewrite H by lia. auto.
Qed.

Lemma session_inv_init c state s : state + 160 <= W64 ->
  exists m, run c (init_hash state) s = (set_mem s m, Some tt) /\
    session_inv state m [] /\
    (forall b, b < state \/ state + 160 <= b -> m b = s_mem s b).
Proof.
  intros HS. destruct (init_hash_run c s state HS) as [m [E [H [C [P F]]]]].
  exists m. split; [auto|]. split; [exists 0%nat; auto|].
  intros b B. apply F. lia.
Qed.
Lemma session_inv_extend c state s msg blk : state + 160 <= W64 ->
  blk + 64 <= W64 -> blk + 64 <= state \/ state + 160 <= blk ->
  session_inv state (s_mem s) msg ->
  exists m, run c (extend_hash state blk) s = (set_mem s m, Some tt) /\
    session_inv state m (msg ++ bytes_at (s_mem s) blk 64) /\
    (forall b, b < state \/ state + 160 <= b -> m b = s_mem s b).
Proof.
  intros HS B D [n [L [H [C P]]]].
  destruct (extend_hash_run c s state blk HS B) as [m [E [H' [C' F]]]]; [lia|].
  exists m. split; [auto|]. split; [|intros; apply F; lia].
  exists (n + 1)%nat. split; [|split; [|split]].
  - rewrite app_length, bytes_at_length. lia.
  - rewrite H', H. rewrite process_app by auto.
    rewrite process_one by (apply bytes_at_length). reflexivity.
  - rewrite C', C. unfold W32. lia.
  - eapply padding_ext; [|exact P]. intros b Hb. unfold byte.
    rewrite F by lia. reflexivity.
Qed.
Lemma session_inv_other state m m' msg :
  session_inv state m msg ->
  (forall b, state <= b < state + 160 -> byte m' b = byte m b) ->
  session_inv state m' msg.
Proof.
  intros [n [L [H [C P]]]] F. exists n. split; [auto|]. split; [|split].
  - rewrite <- H. apply hash_words_ext. intros; apply F; lia.
  - rewrite <- C. apply counter_ext. intros; apply F; lia.
  - eapply padding_ext; [|exact P]. intros; apply F; lia.
Qed.

Lemma session_inv_holds c state s msg : state + 160 <= W64 ->
  session c state s msg -> session_inv state (s_mem s) msg.
Proof.
  intros HS S. induction S as [s s' R|s s' msg blk S IH B D R|s s' msg S IH F].
  - destruct (session_inv_init c state s HS) as [m [E [I _]]].
    rewrite E in R. inversion R; subst s'. exact I.
  - destruct (session_inv_extend c state s msg blk HS B D IH) as [m [E [I _]]].
    rewrite E in R. inversion R; subst s'. exact I.
  - eapply session_inv_other; eauto.
Qed.

Lemma padding_block m state n : padding_ok m state ->
  counter m state = (512 * N.of_nat n) mod W32 ->
  bytes_at m (state + 96) 64 =
  [0x80] ++ repeat 0 55 ++ be64 (8 * N.of_nat (64 * n) mod 2 ^ 32).
Proof.
  intros [P1 P2] C.
  assert (A : (64 = 1 + (55 + 8))%nat) by reflexivity. rewrite A at 1.
  rewrite bytes_at_app, bytes_at_app. f_equal; [|f_equal].
  - cbn [bytes_at seq map]. unfold bytes_at. cbn [seq map].
    rewrite N.add_0_r, P1. reflexivity.
  - assert (E : forall k a, (forall i, i < N.of_nat k -> byte m (a + i) = 0) ->
        bytes_at m a k = repeat 0 k).
    { induction k as [|k IH]; intros a Hk; [reflexivity|].
      rewrite bytes_at_cons. cbn [repeat]. f_equal.
      - rewrite <- (Hk 0) by lia. f_equal. lia.
      - apply IH. intros i Hi. rewrite <- (Hk (i + 1)) by lia. f_equal. lia. }
    apply E. intros i Hi. change (N.of_nat 1) with 1.
    replace (state + 96 + 1 + i) with (state + 96 + (i + 1)) by lia.
    apply P2. change (N.of_nat 55) with 55 in Hi. lia.
  - replace (state + 96 + N.of_nat 1 + N.of_nat 55) with (state + 152) by lia.
    set (x := 8 * N.of_nat (64 * n) mod 2 ^ 32).
    assert (X : counter m state = x).
    { rewrite C. unfold x. change (2 ^ 32) with W32. f_equal. lia. }
    assert (XL : x < 2 ^ 32) by (apply N.mod_lt; discriminate).
    unfold counter in X. rewrite reverse_bytes_ld in X. unfold be4 in X.
    replace (state + 156 + 1) with (state + 157) in X by lia.
    replace (state + 156 + 2) with (state + 158) in X by lia.
    replace (state + 156 + 3) with (state + 159) in X by lia.
    assert (Z : forall k, 152 <= k < 156 -> byte m (state + k) = 0).
    { intros k Hk. rewrite <- (P2 (k - 96)) by lia. f_equal. lia. }
    unfold bytes_at, be64. cbn [seq map].
    change (N.of_nat 0) with 0; change (N.of_nat 1) with 1;
    change (N.of_nat 2) with 2; change (N.of_nat 3) with 3;
    change (N.of_nat 4) with 4; change (N.of_nat 5) with 5;
    change (N.of_nat 6) with 6; change (N.of_nat 7) with 7.
    replace (state + 152 + 0) with (state + 152) by lia.
    replace (state + 152 + 1) with (state + 153) by lia.
    replace (state + 152 + 2) with (state + 154) by lia.
    replace (state + 152 + 3) with (state + 155) by lia.
    replace (state + 152 + 4) with (state + 156) by lia.
    replace (state + 152 + 5) with (state + 157) by lia.
    replace (state + 152 + 6) with (state + 158) by lia.
    replace (state + 152 + 7) with (state + 159) by lia.
    rewrite !Z by lia.
    assert (BL : forall a, byte m a < 256)
      by (intros; apply N.mod_lt; discriminate).
    pose proof (BL (state + 156)) as B0. pose proof (BL (state + 157)) as B1.
    pose proof (BL (state + 158)) as B2. pose proof (BL (state + 159)) as B3.
    clearbody x. clear - X XL B0 B1 B2 B3.
    revert X XL B0 B1 B2 B3.
    generalize (byte m (state + 156)) (byte m (state + 157))
      (byte m (state + 158)) (byte m (state + 159)).
    intros b0 b1 b2 b3 X XL B0 B1 B2 B3. subst x. unfold be_byte.
    change (2 ^ 24) with 16777216 in *. change (2 ^ 16) with 65536 in *.
    change (2 ^ 8) with 256 in *. change (2 ^ 32) with 4294967296 in *.
    change (2 ^ (8 * (8 - 1 - 0))) with 72057594037927936.
    change (2 ^ (8 * (8 - 1 - 1))) with 281474976710656.
    change (2 ^ (8 * (8 - 1 - 2))) with 1099511627776.
    change (2 ^ (8 * (8 - 1 - 3))) with 4294967296.
    change (2 ^ (8 * (8 - 1 - 4))) with 16777216.
    change (2 ^ (8 * (8 - 1 - 5))) with 65536.
    change (2 ^ (8 * (8 - 1 - 6))) with 256.
    change (2 ^ (8 * (8 - 1 - 7))) with 1.
    repeat match goal with |- _ :: _ = _ :: _ => apply f_equal2 end;
      try reflexivity; lia.
Qed.

Lemma finalize_inv_run c state s msg : state + 160 <= W64 ->
  session_inv state (s_mem s) msg ->
  exists m, run c (finalize_hash state) s = (set_mem s m, Some tt) /\
    hash_words m state = sha256_32 msg /\
    (forall b, b < state \/ state + 160 <= b -> m b = s_mem s b).
Proof.
  intros HS S. destruct S as [n [L [H [C P]]]].
  unfold finalize_hash. change hs_padding with 96. rewrite wadd_small by lia.
  destruct (extend_hash_run c s state (state + 96) HS) as [m [E [H' [C' F]]]];
    [lia|lia|].
  exists m. split; [auto|]. split; [|intros; apply F; lia].
  rewrite H', H, (padding_block _ _ n P C). unfold sha256_32, pad32. rewrite L.
  set (tail := [0x80] ++ _).
  assert (LT : length tail = 64%nat) by reflexivity.
  rewrite app_length, LT, L.
  replace (Nat.div (64 * n + 64) 64) with (n + 1)%nat.
  2:{ replace (64 * n + 64)%nat with ((n + 1) * 64)%nat by lia.
      symmetry. apply Nat.div_mul. discriminate. }
  rewrite process_app by auto. rewrite process_one by auto. reflexivity.
Qed.

Lemma finalize_run c state s msg : state + 160 <= W64 ->
  session c state s msg ->
  exists m, run c (finalize_hash state) s = (set_mem s m, Some tt) /\
    hash_words m state = sha256_32 msg /\
    (forall b, b < state \/ state + 160 <= b -> m b = s_mem s b).
Proof.
  intros HS S. apply finalize_inv_run; auto. eapply session_inv_holds; eauto.
Qed.

Lemma session_length c state s msg : state + 160 <= W64 ->
  session c state s msg -> exists n, length msg = (64 * n)%nat.
Proof.
  intros H S. apply session_inv_holds in S; auto. destruct S as [n [L _]]. eauto.
Qed.

Lemma pad32_pad msg n : length msg = (64 * n)%nat ->
  8 * N.of_nat (length msg) < 2 ^ 32 -> pad32 msg = pad msg.
Proof.
  intros L B. unfold pad32, pad. rewrite N.mod_small by auto.
  replace (119 - N.of_nat (length msg) mod 64) with 119 by lia. reflexivity.
Qed.

Lemma be_step x y a b : b = a + 8 ->
  x / 2 ^ b = y / 2 ^ b ->
  (x / 2 ^ a) mod 256 = (y / 2 ^ a) mod 256 -> x / 2 ^ a = y / 2 ^ a.
Proof.
  intros -> H1 H2. rewrite N.pow_add_r in H1.
  rewrite <- !N.div_div in H1 by (apply pow2_nz). change (2 ^ 8) with 256 in H1.
  rewrite (N.div_mod (x / 2 ^ a) 256), (N.div_mod (y / 2 ^ a) 256) by discriminate.
  rewrite H1, H2. reflexivity.
Qed.

Lemma be64_lt_inj x y : x < 2 ^ 64 -> y < 2 ^ 64 -> be64 x = be64 y -> x = y.
Proof.
  intros X Y E. unfold be64, be_byte in E. cbn [map] in E.
  injection E as E0 E1 E2 E3 E4 E5 E6 E7.
  assert (S8 : x / 2 ^ 64 = y / 2 ^ 64) by (rewrite !N.div_small by auto; reflexivity).
  apply (be_step x y 56) in S8; [|reflexivity|exact E0].
  apply (be_step x y 48) in S8; [|reflexivity|exact E1].
  apply (be_step x y 40) in S8; [|reflexivity|exact E2].
  apply (be_step x y 32) in S8; [|reflexivity|exact E3].
  apply (be_step x y 24) in S8; [|reflexivity|exact E4].
  apply (be_step x y 16) in S8; [|reflexivity|exact E5].
  apply (be_step x y 8) in S8; [|reflexivity|exact E6].
  apply (be_step x y 0) in S8; [|reflexivity|exact E7].
  rewrite N.pow_0_r, !N.div_1_r in S8. exact S8.
Qed.

Lemma pad32_differs msg n : length msg = (64 * n)%nat ->
  2 ^ 32 <= 8 * N.of_nat (length msg) < 2 ^ 64 -> pad32 msg <> pad msg.
Proof.
  intros L B E. unfold pad32, pad in E.
  replace (119 - N.of_nat (length msg) mod 64) with 119 in E by lia.
  apply app_inv_head in E. apply app_inv_head in E.
  change (N.to_nat (119 mod 64)) with 55%nat in E.
  apply app_inv_head in E. apply be64_lt_inj in E.
  - assert (8 * N.of_nat (length msg) mod 2 ^ 32 < 2 ^ 32)
      by (apply N.mod_lt; discriminate). lia.
  - eapply N.lt_trans; [apply N.mod_lt; discriminate|reflexivity].
  - lia.
Qed.
