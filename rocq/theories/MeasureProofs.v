(** * Enclave measurement (properties C12 - C14). *)
From Coq Require Import NArith ZArith Lia Bool List.
From Coq Require Import ZifyBool ZifyNat ZifyN.
From Verif Require Import Word Machine ModelBare ModelHash ModelInl Lib BareProofs
  SpecSha256 HashProofs SpecMeasure.
Import ListNotations.
Open Scope N_scope.
Ltac Zify.zify_post_hook ::= Z.div_mod_to_equations.

(** ** Words and bytes *)
Lemma le64_bytes m a : bytes_at m a 8 = le64 (ld 8 m a).
Proof.
  unfold bytes_at, le64. cbn [seq map].
  repeat match goal with |- _ :: _ = _ :: _ => apply f_equal2 end;
    try reflexivity;
    match goal with |- byte m (a + N.of_nat ?k) = _ =>
      exact (byte_of_ld 8 m a (N.of_nat k) eq_refl) end.
Qed.

Lemma block_bytes m a :
  bytes_at m a 64 =
  block [ld 8 m a; ld 8 m (a + 8); ld 8 m (a + 16); ld 8 m (a + 24);
         ld 8 m (a + 32); ld 8 m (a + 40); ld 8 m (a + 48); ld 8 m (a + 56)].
Proof.
  unfold block. cbn [flat_map]. rewrite app_nil_r, <- !le64_bytes.
  change 64%nat with (8 + (8 + (8 + (8 + (8 + (8 + (8 + 8)))))))%nat.
  rewrite !bytes_at_app. change (N.of_nat 8) with 8.
  replace (a + 8 + 8) with (a + 16) by lia.
  replace (a + 16 + 8) with (a + 24) by lia.
  replace (a + 24 + 8) with (a + 32) by lia.
  replace (a + 32 + 8) with (a + 40) by lia.
  replace (a + 40 + 8) with (a + 48) by lia.
  replace (a + 48 + 8) with (a + 56) by lia.
  reflexivity.
Qed.

Lemma le64_inj x y : x < 2 ^ 64 -> y < 2 ^ 64 -> le64 x = le64 y -> x = y.
Proof.
  intros X Y E. unfold le64 in E. cbn [map] in E.
  injection E as E0 E1 E2 E3 E4 E5 E6 E7.
  assert (S8 : x / 2 ^ 64 = y / 2 ^ 64) by (rewrite !N.div_small by auto; reflexivity).
  apply (be_step x y 56) in S8; [|reflexivity|exact E7].
  apply (be_step x y 48) in S8; [|reflexivity|exact E6].
  apply (be_step x y 40) in S8; [|reflexivity|exact E5].
  apply (be_step x y 32) in S8; [|reflexivity|exact E4].
  apply (be_step x y 24) in S8; [|reflexivity|exact E3].
  apply (be_step x y 16) in S8; [|reflexivity|exact E2].
  apply (be_step x y 8) in S8; [|reflexivity|exact E1].
  apply (be_step x y 0) in S8; [|reflexivity|exact E0].
  rewrite N.pow_0_r, !N.div_1_r in S8. exact S8.
Qed.

Lemma app_inj_len {A} (a a' b b' : list A) : length a = length a' ->
  a ++ b = a' ++ b' -> a = a' /\ b = b'.
Proof.
  revert a'. induction a as [|x a IH]; intros [|y a'] L E; try discriminate; auto.
  cbn in *. injection E as <- E. injection L as L.
  destruct (IH a' L E) as [-> ->]. auto.
Qed.

Lemma block_inj ws : forall ws' r r',
  length ws = length ws' -> Forall (fun x => x < 2 ^ 64) ws ->
  Forall (fun x => x < 2 ^ 64) ws' ->
  block ws ++ r = block ws' ++ r' -> ws = ws' /\ r = r'.
Proof.
  induction ws as [|w ws IH]; intros [|w' ws'] r r' L F F' E; try discriminate; auto.
  unfold block in E. cbn [flat_map] in E. fold (block ws) in E. fold (block ws') in E.
  rewrite <- !app_assoc in E.
  inversion F; inversion F'; subst.
  apply app_inj_len in E; [|reflexivity]. destruct E as [E1 E2].
  apply le64_inj in E1; auto. subst.
  apply IH in E2; auto. destruct E2 as [-> ->]. auto.
Qed.

(** ** C13: the encoding is injective *)
Ltac small := repeat (constructor; try assumption); try reflexivity.

Lemma enc_op_inj o o' r r' : op_ok o -> op_ok o' ->
  enc_op o ++ r = enc_op o' ++ r' -> o = o' /\ r = r'.
Proof.
  intros H H' E.
  destruct o as [va l acl|va acl p|a b c d]; destruct o' as [va' l' acl'|va' acl' p'|a' b' c' d'];
    cbn [enc_op op_ok] in *; rewrite <- ?app_assoc in E;
    apply block_inj in E; try reflexivity;
    try (repeat match goal with H : _ /\ _ |- _ => destruct H end; small; fail);
    destruct E as [E1 E2]; try discriminate; injection E1; intros; subst; auto.
  destruct H as [_ [_ [L _]]]. destruct H' as [_ [_ [L' _]]].
  apply app_inj_len in E2; [|congruence]. destruct E2 as [-> ->]. auto.
Qed.

Lemma enc_final_op o r r' : op_ok o -> enc_final ++ r <> enc_op o ++ r'.
Proof.
  intros H E. unfold enc_final in E.
  destruct o as [va l acl|va acl p|a b c d];
    cbn [enc_op op_ok] in *; rewrite <- ?app_assoc in E;
    apply block_inj in E; try reflexivity;
    try (repeat match goal with H : _ /\ _ |- _ => destruct H end; small; fail);
    destruct E as [E1 E2]; discriminate.
Qed.

Lemma ops_inj : forall l l', Forall op_ok l -> Forall op_ok l' ->
  flat_map enc_op l ++ enc_final = flat_map enc_op l' ++ enc_final -> l = l'.
Proof.
  induction l as [|o l IH]; intros [|o' l'] F F' E; auto; cbn [flat_map] in E.
  - exfalso. cbn [app] in E. rewrite <- app_assoc in E.
    rewrite <- (app_nil_r enc_final) in E at 1.
    eapply enc_final_op; [|exact E]. inversion F'; auto.
  - exfalso. cbn [app] in E. rewrite <- app_assoc in E. symmetry in E.
    rewrite <- (app_nil_r enc_final) in E at 1.
    eapply enc_final_op; [|exact E]. inversion F; auto.
  - rewrite <- !app_assoc in E. inversion F; inversion F'; subst.
    apply enc_op_inj in E; auto. destruct E as [-> E].
    f_equal. apply IH; auto.
Qed.

Lemma encode_inj h h' : history_ok h -> history_ok h' ->
  encode h = encode h' -> h = h'.
Proof.
  intros [H1 [H2 [H3 H4]]] [H1' [H2' [H3' H4']]] E.
  unfold encode, enc_loaded in E. rewrite <- !app_assoc in E.
  destruct h as [b m mc d ops], h' as [b' m' mc' d' ops'].
  unfold enc_create in E. cbn [lh_base lh_mask lh_mailboxes lh_debug lh_ops] in *.
  apply block_inj in E; [|reflexivity| |].
  - destruct E as [E1 E2]. apply ops_inj in E2; auto.
    injection E1. intros Ed Emc Em Eb. subst.
    destruct d, d'; try discriminate; reflexivity.
  - repeat (constructor; try assumption); try reflexivity; destruct d; reflexivity.
  - repeat (constructor; try assumption); try reflexivity; destruct d'; reflexivity.
Qed.

(** ** Effects of the measurement functions *)

(** State of the measurement record of the enclave at [ei] after measuring
    exactly the bytes [msg]. *)
Definition measure_inv (ei : N) (m : mem) (msg : list N) : Prop :=
  session_inv (ei + 80) m msg /\
  forall b, ei + 248 <= b < ei + 304 -> byte m b = 0.

Lemma ld_zero n m a : (forall b, a <= b < a + N.of_nat n -> byte m b = 0) ->
  ld n m a = 0.
Proof.
  revert a. induction n as [|n IH]; intros a H; [reflexivity|].
  cbn [ld]. rewrite IH by (intros; apply H; lia).
  specialize (H a). unfold byte in H. rewrite H by lia. reflexivity.
Qed.

Lemma byte_st0 n m a b : byte (st n m a 0) b =
  if (a <=? b) && (b <? a + N.of_nat n) then 0 else byte m b.
Proof.
  destruct (N.leb_spec a b), (N.ltb_spec b (a + N.of_nat n)); cbn [andb].
  - rewrite byte_st_in by auto. rewrite N.div_0_l by (apply pow2_nz). reflexivity.
  - apply byte_st_out. lia.
  - apply byte_st_out. lia.
  - apply byte_st_out. lia.
Qed.

Definition outside_measure (ei b : N) : Prop := b < ei + 80 \/ ei + 304 <= b.

Ltac mld :=
  repeat first [rewrite ld8_st8 by (first [assumption|reflexivity])
               |rewrite ld_st_other by lia].

(** Executes the leading stores of a program. *)
Ltac run_stores :=
  repeat (rewrite run_bind, run_store64; cbn [s_mem set_mem];
          rewrite ?set_mem_set_mem).

Lemma inv_after_stores ei m m' msg :
  session_inv (ei + 80) m msg ->
  (forall b, b < ei + 240 \/ ei + 304 <= b -> m' b = m b) ->
  session_inv (ei + 80) m' msg.
Proof.
  intros I F. eapply session_inv_other; [exact I|].
  intros b B. unfold byte. rewrite F by lia. reflexivity.
Qed.

Lemma extend_block_run c s ei msg : ei + 304 <= W64 ->
  session_inv (ei + 80) (s_mem s) msg ->
  exists m, run c (extend_enclave_block ei) s = (set_mem s m, Some tt) /\
    session_inv (ei + 80) m (msg ++ bytes_at (s_mem s) (ei + 240) 64) /\
    (forall b, b < ei + 80 \/ ei + 240 <= b -> m b = s_mem s b).
Proof.
  intros H I. unfold extend_enclave_block.
  change ei_hash with 80. change ei_hash_block with 240.
  rewrite !wadd_small by lia.
  destruct (session_inv_extend c (ei + 80) s msg (ei + 240))
    as [m [E [I' F]]]; try lia; auto.
  exists m. split; [auto|]. split; [auto|]. intros b B. apply F. lia.
Qed.

Section Ops.
  Variables (c ei : N).
  Hypothesis H : ei + 304 <= W64.

  Lemma mb_addr k : k < 64 ->
    wadd (enclave_measurement_block ei) k = ei + (240 + k).
  Proof.
    intros. unfold enclave_measurement_block. change ei_hash_block with 240.
    rewrite (wadd_small ei), wadd_small by lia. lia.
  Qed.

  Ltac args0 A k := replace (ld 8 _ (ei + k)) with 0 by
     (symmetry; apply ld_zero; intros; apply A; change (N.of_nat 8) with 8 in *; lia).

  Lemma blk_words m ws :
    ld 8 m (ei + 240) = nth 0 ws 0 -> ld 8 m (ei + 248) = nth 1 ws 0 ->
    ld 8 m (ei + 256) = nth 2 ws 0 -> ld 8 m (ei + 264) = nth 3 ws 0 ->
    ld 8 m (ei + 272) = nth 4 ws 0 -> ld 8 m (ei + 280) = nth 5 ws 0 ->
    ld 8 m (ei + 288) = nth 6 ws 0 -> ld 8 m (ei + 296) = nth 7 ws 0 ->
    length ws = 8%nat ->
    bytes_at m (ei + 240) 64 = block ws.
  Proof.
    intros. rewrite block_bytes.
    replace (ei + 240 + 8) with (ei + 248) by lia.
    replace (ei + 240 + 16) with (ei + 256) by lia.
    replace (ei + 240 + 24) with (ei + 264) by lia.
    replace (ei + 240 + 32) with (ei + 272) by lia.
    replace (ei + 240 + 40) with (ei + 280) by lia.
    replace (ei + 240 + 48) with (ei + 288) by lia.
    replace (ei + 240 + 56) with (ei + 296) by lia.
    do 8 (destruct ws as [|? ws]; [discriminate|]).
    destruct ws; [|discriminate]. cbn [nth] in *. congruence.
  Qed.

  Lemma args_zero m k : (forall b, ei + 248 <= b < ei + 304 -> byte m b = 0) ->
    248 <= k -> k <= 296 -> ld 8 m (ei + k) = 0.
  Proof.
    intros A K1 K2. apply ld_zero. intros b B. apply A.
    change (N.of_nat 8) with 8 in B. lia.
  Qed.

  (** What a sequence of stores into the block, an extension and a sequence of
      zeroing stores does. *)
  Ltac zero_tail :=
    intros b B; rewrite !byte_st0; change (N.of_nat 8) with 8;
    repeat (match goal with |- (if ?t then _ else _) = _ =>
              let X := fresh "X" in destruct t eqn:X; [reflexivity|] end).

  Ltac addrs :=
    rewrite !mb_addr by reflexivity;
    repeat (match goal with |- context [240 + ?k] =>
       let v := eval cbv in (240 + k) in change (240 + k) with v end).

  Lemma measure_create_run s base mask mc d :
    base < W64 -> mask < W64 -> mc < W64 ->
    exists m, run c (init_enclave_hash ei base mask mc d) s
                = (set_mem s m, Some tt) /\
      measure_inv ei m (enc_create (mkHistory base mask mc d [])) /\
      (forall b, outside_measure ei b -> m b = s_mem s b).
  Proof.
    intros B1 B2 B3. unfold init_enclave_hash.
    change ei_hash_block with 240. change ei_hash with 80.
    change hash_block_size with 64.
    rewrite (wadd_small ei 240), (wadd_small ei 80) by lia.
    destruct (bzero64_run c s (ei + 240) 64) as [m1 [E1 [Z1 F1]]]; [reflexivity|lia|].
    rewrite run_bind, E1.
    destruct (session_inv_init c (ei + 80) (set_mem s m1)) as [m2 [E2 [I2 F2]]]; [lia|].
    rewrite run_bind, E2. cbv zeta. rewrite set_mem_set_mem. cbn [s_mem set_mem] in F2.
    addrs.
    run_stores.
    match goal with |- context [run c _ (set_mem s ?x)] => set (m3 := x) end.
    assert (F3 : forall b, b < ei + 240 \/ ei + 304 <= b -> m3 b = m2 b).
    { intros b B. unfold m3. repeat (rewrite st_out by lia). reflexivity. }
    assert (D : N_of_bool d < W64) by (destruct d; reflexivity).
    rewrite run_bind.
    destruct (extend_block_run c (set_mem s m3) ei [] H) as [m4 [E4 [I4 F4]]].
    { eapply inv_after_stores; [exact I2|exact F3]. }
    rewrite E4. rewrite set_mem_set_mem. cbn [s_mem set_mem app] in *.
    run_stores. cbn [run].
    assert (Zm2 : forall b, ei + 240 <= b < ei + 304 -> byte m2 b = 0).
    { intros b B. unfold byte. rewrite F2 by lia. apply Z1. lia. }
    assert (A2 : forall k, 248 <= k -> k <= 296 -> ld 8 m2 (ei + k) = 0).
    { intros. apply args_zero; auto. intros; apply Zm2; lia. }
    rewrite (blk_words m3 [0xAAAAAAAA; base; mask; 0; 0; mc; N_of_bool d; 0]) in I4;
      try (unfold m3; mld; cbn [nth]; first [reflexivity | apply A2; lia]).
    eexists. split; [reflexivity|]. split; [split|].
    - unfold enc_create. cbn [lh_base lh_mask lh_mailboxes lh_debug].
      eapply inv_after_stores; [exact I4|].
      intros b B. repeat (rewrite st_out by lia). reflexivity.
    - zero_tail. unfold byte. rewrite F4 by lia. unfold m3.
      repeat (rewrite st_out by lia). apply Zm2. lia.
    - intros b B. unfold outside_measure in B. repeat (rewrite st_out by lia).
      rewrite F4 by lia. rewrite F3 by lia. rewrite F2 by lia. apply F1. lia.
  Qed.

  Ltac op_run s ws M m3 F3 m4 E4 I4 F4 :=
    run_stores;
    match goal with |- context [run c _ (set_mem s ?x)] => set (m3 := x) end;
    assert (F3 : forall b, b < ei + 240 \/ ei + 304 <= b -> m3 b = s_mem s b)
     by (intros b B; unfold m3; repeat (rewrite st_out by lia); reflexivity);
    rewrite run_bind;
    destruct (extend_block_run c (set_mem s m3) ei M H) as [m4 [E4 [I4 F4]]];
      [eapply inv_after_stores; [eassumption|exact F3] |];
    rewrite E4; rewrite ?set_mem_set_mem; cbn [s_mem set_mem] in *;
    run_stores;
    rewrite (blk_words m3 ws) in I4;
    try (unfold m3; mld; cbn [nth];
         first [reflexivity | apply args_zero; [assumption|lia|lia]]).

  Ltac op_fin :=
    eexists; split; [reflexivity|]; split; [split|];
    [ eapply inv_after_stores; [eassumption|];
      intros b B; repeat (rewrite st_out by lia); reflexivity
    | zero_tail; unfold byte;
      match goal with F4 : forall b, _ -> ?m b = _ |- context [?m _] =>
        rewrite F4 by lia end;
      match goal with mm := _ : mem |- _ => unfold mm end;
      repeat (rewrite st_out by lia);
      match goal with A : forall b, _ -> byte _ b = 0 |- _ => apply A; lia end
    | intros b B; unfold outside_measure in B; repeat (rewrite st_out by lia);
      match goal with F4 : forall b, _ -> ?m b = _ |- context [?m _] =>
        rewrite F4 by lia end;
      match goal with mm := _ : mem |- _ => unfold mm end;
      repeat (rewrite st_out by lia); reflexivity ].

  Lemma measure_page_table_run s M va level acl :
    va < W64 -> level < W64 -> acl < W64 -> measure_inv ei (s_mem s) M ->
    exists m, run c (extend_enclave_hash_with_page_table ei va level acl) s
                = (set_mem s m, Some tt) /\
      measure_inv ei m (M ++ enc_op (LoadPageTable va level acl)) /\
      (forall b, outside_measure ei b -> m b = s_mem s b).
  Proof.
    intros B1 B2 B3 [I A]. unfold extend_enclave_hash_with_page_table. cbv zeta.
    addrs.
    op_run s [0xBBBBBBBB; va; acl; 0; 0; level; 0; 0] M m3 F3 m4 E4 I4 F4.
    cbn [run enc_op]. op_fin.
  Qed.

  Lemma measure_thread_run s M e1 e2 e3 e4 :
    e1 < W64 -> e2 < W64 -> e3 < W64 -> e4 < W64 -> measure_inv ei (s_mem s) M ->
    exists m, run c (extend_enclave_hash_with_thread ei e1 e2 e3 e4) s
                = (set_mem s m, Some tt) /\
      measure_inv ei m (M ++ enc_op (LoadThread e1 e2 e3 e4)) /\
      (forall b, outside_measure ei b -> m b = s_mem s b).
  Proof.
    intros B1 B2 B3 B4 [I A]. unfold extend_enclave_hash_with_thread. cbv zeta.
    addrs.
    op_run s [0xDDDDDDDD; e1; e2; e3; e4; 0; 0; 0] M m3 F3 m4 E4 I4 F4.
    cbn [run enc_op]. op_fin.
  Qed.

  Lemma extend_loop_run n : forall i s M pa,
    pa + 64 * (N.of_nat n + i) <= W64 ->
    (forall k, k < N.of_nat n -> pa + 64 * (i + k) + 64 <= ei + 80 \/
                 ei + 240 <= pa + 64 * (i + k)) ->
    session_inv (ei + 80) (s_mem s) M ->
    exists m, run c (for_n n i (fun i => extend_hash (wadd ei ei_hash)
                (wadd pa (wmul hash_block_size i)))) s = (set_mem s m, Some tt) /\
      session_inv (ei + 80) m (M ++ bytes_at (s_mem s) (pa + 64 * i) (64 * n)) /\
      (forall b, b < ei + 80 \/ ei + 240 <= b -> m b = s_mem s b).
  Proof.
    induction n as [|n IH]; intros i s M pa HP D I.
    - exists (s_mem s). cbn [for_n run]. rewrite set_mem_id.
      split; [reflexivity|]. split; [|auto].
      change (64 * 0)%nat with 0%nat. cbn. rewrite app_nil_r. auto.
    - cbn [for_n]. rewrite run_bind.
      change hash_block_size with 64 at 1. change ei_hash with 80 at 1.
      rewrite (wadd_small ei 80) by lia.
      rewrite (wmul_small 64 i) by lia. rewrite (wadd_small pa) by lia.
      specialize (D 0) as D0.
      destruct (session_inv_extend c (ei + 80) s M (pa + 64 * i))
        as [m [E [I' F]]]; try lia; auto.
      rewrite E.
      destruct (IH (i + 1) (set_mem s m) (M ++ bytes_at (s_mem s) (pa + 64 * i) 64) pa)
        as [m' [E' [I'' F']]]; auto; try lia.
      { intros k Hk. specialize (D (k + 1)). lia. }
      rewrite E'. rewrite set_mem_set_mem. cbn [s_mem set_mem] in *.
      exists m'. split; [reflexivity|]. split.
      + replace (64 * S n)%nat with (64 + 64 * n)%nat by lia.
        rewrite bytes_at_app, app_assoc.
        replace (pa + 64 * i + N.of_nat 64) with (pa + 64 * (i + 1)) by lia.
        rewrite (bytes_at_ext (s_mem s) m (pa + 64 * (i + 1))); [exact I''|].
        intros b B. unfold byte. rewrite F; [reflexivity|].
        specialize (D (1 + (b - (pa + 64 * (i + 1))) / 64)). lia.
      + intros b B. rewrite F' by lia. apply F. lia.
  Qed.

  Lemma measure_page_run s M va acl pa :
    va < W64 -> acl < W64 -> measure_inv ei (s_mem s) M ->
    pa + 4096 <= W64 -> pa + 4096 <= ei + 80 \/ ei + 304 <= pa ->
    exists m, run c (extend_enclave_hash_with_page ei va acl pa) s
                = (set_mem s m, Some tt) /\
      measure_inv ei m
        (M ++ enc_op (LoadPage va acl (bytes_at (s_mem s) pa 4096))) /\
      (forall b, outside_measure ei b -> m b = s_mem s b).
  Proof.
    intros B1 B2 [I A] HP D. unfold extend_enclave_hash_with_page. cbv zeta.
    addrs.
    op_run s [0xCCCCCCCC; va; acl; 0; 0; 0; 0; 0] M m3 F3 m4 E4 I4 F4.
    match goal with |- context [run c _ (set_mem s ?x)] => set (m5 := x) end.
    assert (F5 : forall b, b < ei + 240 \/ ei + 304 <= b -> m5 b = m4 b)
      by (intros b B; unfold m5; repeat (rewrite st_out by lia); reflexivity).
    change (N.to_nat (page_size / hash_block_size)) with 64%nat.
    destruct (extend_loop_run 64 0 (set_mem s m5)
       (M ++ block [0xCCCCCCCC; va; acl; 0; 0; 0; 0; 0]) pa) as [m6 [E6 [I6 F6]]].
    { lia. }
    { intros k Hk. lia. }
    { eapply inv_after_stores; [exact I4|exact F5]. }
    rewrite E6. rewrite set_mem_set_mem. cbn [s_mem set_mem] in *.
    exists m6. split; [reflexivity|]. split; [split|].
    - cbn [enc_op]. rewrite app_assoc.
      rewrite (bytes_at_ext (s_mem s) m5 pa); [|].
      + replace (pa + 64 * 0) with pa in I6 by lia. exact I6.
      + intros b B. unfold byte. rewrite F5 by lia. rewrite F4 by lia.
        rewrite F3 by lia. reflexivity.
    - intros b B. unfold byte. rewrite F6 by lia.
      change (byte m5 b = 0). unfold m5. revert b B. zero_tail.
      unfold byte. rewrite F4 by lia. unfold m3. repeat (rewrite st_out by lia).
      apply A. lia.
    - intros b B. unfold outside_measure in B. rewrite F6 by lia.
      rewrite F5 by lia. rewrite F4 by lia. apply F3. lia.
  Qed.

  Lemma measure_finalize_run s M : measure_inv ei (s_mem s) M ->
    exists m, run c (finalize_enclave_hash ei) s = (set_mem s m, Some tt) /\
      hash_words m (ei + 80) = sha256_32 (M ++ enc_final) /\
      (forall b, outside_measure ei b -> m b = s_mem s b) /\
      (forall b, ei + 248 <= b < ei + 304 -> byte m b = 0).
  Proof.
    intros [I A]. unfold finalize_enclave_hash. cbv zeta. addrs.
    op_run s [0xEEEEEEEE; 0; 0; 0; 0; 0; 0; 0] M m3 F3 m4 E4 I4 F4.
    change ei_hash with 80. rewrite (wadd_small ei 80) by lia.
    destruct (finalize_inv_run c (ei + 80) (set_mem s m4) _ ltac:(lia) I4)
      as [m5 [E5 [W5 F5]]].
    rewrite E5. rewrite set_mem_set_mem. cbn [s_mem set_mem] in *.
    exists m5. split; [reflexivity|]. split; [exact W5|]. split.
    - intros b B. unfold outside_measure in B. rewrite F5 by lia.
      rewrite F4 by lia. apply F3. lia.
    - intros b B. unfold byte. rewrite F5 by lia. rewrite F4 by lia.
      unfold m3. repeat (rewrite st_out by lia). apply A. lia.
  Qed.
End Ops.

(** ** Load histories as executions.

    [measured c ei s h] : the machine is in state [s] after the creation
    measurement and the measured operations of [h] were executed for the
    enclave record at [ei]; between them anything may happen that leaves the
    measurement fields (bytes [ei+80 .. ei+304)) alone. *)
Inductive measured (c ei : N) : Machine.state -> load_history -> Prop :=
| measured_create s s' base mask mc d :
    base < 2 ^ 64 -> mask < 2 ^ 64 -> mc < 2 ^ 64 ->
    run c (init_enclave_hash ei base mask mc d) s = (s', Some tt) ->
    measured c ei s' (mkHistory base mask mc d [])
| measured_page_table s s' h va level acl :
    measured c ei s h -> va < 2 ^ 64 -> level < 2 ^ 64 -> acl < 2 ^ 64 ->
    run c (extend_enclave_hash_with_page_table ei va level acl) s = (s', Some tt) ->
    measured c ei s' (mkHistory (lh_base h) (lh_mask h) (lh_mailboxes h)
      (lh_debug h) (lh_ops h ++ [LoadPageTable va level acl]))
| measured_page s s' h va acl pa :
    measured c ei s h -> va < 2 ^ 64 -> acl < 2 ^ 64 ->
    pa + 4096 <= 2 ^ 64 -> pa + 4096 <= ei + 80 \/ ei + 304 <= pa ->
    run c (extend_enclave_hash_with_page ei va acl pa) s = (s', Some tt) ->
    measured c ei s' (mkHistory (lh_base h) (lh_mask h) (lh_mailboxes h)
      (lh_debug h) (lh_ops h ++ [LoadPage va acl (bytes_at (s_mem s) pa 4096)]))
| measured_thread s s' h e1 e2 e3 e4 :
    measured c ei s h ->
    e1 < 2 ^ 64 -> e2 < 2 ^ 64 -> e3 < 2 ^ 64 -> e4 < 2 ^ 64 ->
    run c (extend_enclave_hash_with_thread ei e1 e2 e3 e4) s = (s', Some tt) ->
    measured c ei s' (mkHistory (lh_base h) (lh_mask h) (lh_mailboxes h)
      (lh_debug h) (lh_ops h ++ [LoadThread e1 e2 e3 e4]))
| measured_other s s' h :
    measured c ei s h ->
    (forall b, ei + 80 <= b < ei + 304 -> byte (s_mem s') b = byte (s_mem s) b) ->
    measured c ei s' h.

Lemma enc_loaded_snoc h o :
  enc_loaded (mkHistory (lh_base h) (lh_mask h) (lh_mailboxes h)
      (lh_debug h) (lh_ops h ++ [o])) = enc_loaded h ++ enc_op o.
Proof.
  unfold enc_loaded, enc_create. cbn [lh_base lh_mask lh_mailboxes lh_debug lh_ops].
  rewrite flat_map_app. cbn [flat_map]. rewrite app_nil_r, app_assoc. reflexivity.
Qed.

Lemma measured_inv c ei s h : ei + 304 <= W64 -> measured c ei s h ->
  measure_inv ei (s_mem s) (enc_loaded h).
Proof.
  intros HE M. change (2 ^ 64) with W64 in *.
  induction M as [s s' base mask mc d B1 B2 B3 R
                 |s s' h va level acl M IH B1 B2 B3 R
                 |s s' h va acl pa M IH B1 B2 B3 D R
                 |s s' h e1 e2 e3 e4 M IH B1 B2 B3 B4 R
                 |s s' h M IH F].
  - destruct (measure_create_run c ei HE s base mask mc d B1 B2 B3) as [m [E [I _]]].
    rewrite E in R. inversion R; subst. unfold enc_loaded. cbn [lh_ops flat_map].
    rewrite app_nil_r. exact I.
  - destruct (measure_page_table_run c ei HE s _ va level acl B1 B2 B3 IH) as [m [E [I _]]].
    rewrite E in R. inversion R; subst. rewrite enc_loaded_snoc. exact I.
  - destruct (measure_page_run c ei HE s _ va acl pa B1 B2 IH B3 D) as [m [E [I _]]].
    rewrite E in R. inversion R; subst. rewrite enc_loaded_snoc. exact I.
  - destruct (measure_thread_run c ei HE s _ e1 e2 e3 e4 B1 B2 B3 B4 IH) as [m [E [I _]]].
    rewrite E in R. inversion R; subst. rewrite enc_loaded_snoc. exact I.
  - destruct IH as [I A]. split.
    + eapply session_inv_other; [exact I|]. intros b B. apply F. lia.
    + intros b B. rewrite F by lia. apply A. auto.
Qed.

Lemma measured_history_ok c ei s h : measured c ei s h -> history_ok h.
Proof.
  intros M. unfold history_ok.
  induction M as [s s' base mask mc d B1 B2 B3 R
                 |s s' h va level acl M IH B1 B2 B3 R
                 |s s' h va acl pa M IH B1 B2 B3 D R
                 |s s' h e1 e2 e3 e4 M IH B1 B2 B3 B4 R
                 |s s' h M IH F];
    cbn [lh_base lh_mask lh_mailboxes lh_debug lh_ops]; auto;
    try destruct IH as [I1 [I2 [I3 I4]]]; repeat split; auto;
    apply Forall_app; split; auto; constructor; auto; cbn [op_ok]; auto.
  repeat split; auto.
  unfold bytes_at. apply Forall_map, Forall_forall. intros i _.
  apply N.mod_lt. discriminate.
Qed.

Lemma measured_digest c ei s h s' :
  ei + 304 <= W64 -> measured c ei s h ->
  run c (finalize_enclave_hash ei) s = (s', Some tt) ->
  hash_words (s_mem s') (ei + 80) = sha256_32 (encode h) /\
  (forall b, outside_measure ei b -> s_mem s' b = s_mem s b).
Proof.
  intros HE M R. apply measured_inv in M; auto.
  destruct (measure_finalize_run c ei HE s _ M) as [m [E [W [F _]]]].
  rewrite E in R. inversion R; subst. split; auto.
Qed.
