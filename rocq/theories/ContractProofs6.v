(** * copy_debug_enclave_page and delete_enclave, all effects. *)
From Coq Require Import NArith ZArith Lia Bool List.
From Coq Require Import ZifyBool ZifyNat ZifyN.
From Verif Require Import Word Machine ModelBare ModelHash ModelInl ModelRegions
  ModelMetadata ModelEnclave ModelBoot ModelApi Lib BareProofs SpecGeometry
  GeomProofs SpecMonitor SpecMetadata ViewProofs SeqProofs SeqCalls SeqCalls2 SeqCalls3
  SeqCalls5 SeqCalls6 HistoryProofs P_Enclave SpecContract ContractProofs ContractProofs2
  SpecContract4.
Import ListNotations.
Open Scope N_scope.
Ltac Zify.zify_post_hook ::= Z.div_mod_to_equations.

(** ** same_machine *)
Lemma sm_refl s : same_machine s s.
Proof. constructor; reflexivity. Qed.
Lemma sm_trans a b c : same_machine a b -> same_machine b c -> same_machine a c.
Proof. intros [] []. constructor; intros; etransitivity; eauto. Qed.
Lemma sm_set s m m' : (forall b, byte m' b = byte m b) -> same_machine (set_mem s m) (set_mem s m').
Proof. intros H. constructor; auto. Qed.
Lemma sm_byte a b x : same_machine a b -> byte (s_mem b) x = byte (s_mem a) x.
Proof. intros []. apply sm_mem. Qed.
Lemma byte_st n m m' a v b : (forall x, byte m' x = byte m x) -> byte (st n m' a v) b = byte (st n m a v) b.
Proof.
  intros H. destruct (N.lt_ge_cases b a); [rewrite !byte_st_out by auto; auto|].
  destruct (N.lt_ge_cases b (a + N.of_nat n)); [rewrite !byte_st_in by auto; reflexivity|].
  rewrite !byte_st_out by auto. auto.
Qed.
Lemma sm_put a b x v : same_machine a b -> same_machine (put a x v) (put b x v).
Proof.
  intros []. constructor; cbn [put set_mem s_mem s_cores s_words s_dmar_base s_dmar_mask s_dma_start s_dma_end]; auto.
  intros y. apply (byte_st 8). exact sm_mem.
Qed.
Lemma sm_word a b x : same_machine a b -> ld 8 (s_mem b) x = ld 8 (s_mem a) x.
Proof. intros []. apply ld_byte. intros. apply sm_mem. Qed.
Lemma sm_bit a b x i : same_machine a b -> bit_at (s_mem b) x i = bit_at (s_mem a) x i.
Proof. intros H. unfold bit_at. rewrite (sm_byte _ _ _ H). reflexivity. Qed.
(** Putting the word that is there already. *)
Lemma put_same s x v : ld 8 (s_mem s) x = v -> same_machine s (put s x v).
Proof.
  intros H. constructor; cbn [put set_mem s_mem s_cores s_words s_dmar_base s_dmar_mask s_dma_start s_dma_end]; auto.
  intros b. change (byte (st 8 (s_mem s) x v) b = byte (s_mem s) b).
  destruct (N.lt_ge_cases b x); [apply byte_st_out; auto|].
  destruct (N.lt_ge_cases b (x + N.of_nat 8)); [|apply byte_st_out; auto].
  rewrite byte_st_in by auto. replace b with (x + (b - x)) at 2 by lia.
  rewrite (byte_of_ld 8) by lia. rewrite H. reflexivity.
Qed.
Lemma put_put s x v w : v < W64 -> w < W64 -> same_machine (put s x w) (put (put s x v) x w).
Proof.
  intros V W. constructor; cbn [put set_mem s_mem s_cores s_words s_dmar_base s_dmar_mask s_dma_start s_dma_end]; auto.
  intros b. change (byte (st 8 (st 8 (s_mem s) x v) x w) b = byte (st 8 (s_mem s) x w) b).
  destruct (N.lt_ge_cases b x); [rewrite !byte_st_out by auto; auto|].
  destruct (N.lt_ge_cases b (x + N.of_nat 8)); [|rewrite !byte_st_out by auto; auto].
  rewrite !byte_st_in by auto. reflexivity.
Qed.

(** Copying a page onto itself or onto another one. *)
Lemma bcopy_any_loop c dst src : (src = dst \/ dst + 4096 <= src \/ src + 4096 <= dst) ->
  dst + 4096 <= W64 -> src + 4096 <= W64 ->
  forall k i s, 8 * (i + N.of_nat k) <= 4096 ->
  exists m, run c (for_n k i (fun i => v <- load64 (wadd src (wmul 8 i)) ;;
              store64 (wadd dst (wmul 8 i)) v ;; Ret tt)) s = (set_mem s m, Some tt) /\
    (forall j, 8 * i <= j < 8 * (i + N.of_nat k) -> byte m (dst + j) = byte (s_mem s) (src + j)) /\
    forall b, b < dst + 8 * i \/ dst + 8 * (i + N.of_nat k) <= b -> byte m b = byte (s_mem s) b.
Proof.
  intros D H1 H2. induction k as [|k IH]; intros i s H; cbn [for_n].
  - exists (s_mem s). rewrite set_mem_id. split; [reflexivity|]. split; [lia|reflexivity].
  - rewrite run_bind. rewrite run_bind, run_load64. rewrite run_bind, run_store64.
    cbn [run]. rewrite (wmul_small 8 i), (wadd_small dst), (wadd_small src) by (unfold W64 in *; lia).
    set (w := ld 8 (s_mem s) (src + 8 * i)).
    assert (IN : forall j, j < 8 -> byte (st 8 (s_mem s) (dst + 8 * i) w) (dst + 8 * i + j)
                                    = byte (s_mem s) (src + 8 * i + j)).
    { intros j J. rewrite byte_st_in by (change (N.of_nat 8) with 8; lia).
      rewrite (byte_of_ld 8) by (change (N.of_nat 8) with 8; lia). fold w. f_equal. f_equal. f_equal. lia. }
    assert (SRC : forall j, j < 4096 -> byte (st 8 (s_mem s) (dst + 8 * i) w) (src + j) = byte (s_mem s) (src + j)).
    { intros j J. destruct D as [->|D].
      - destruct (N.lt_ge_cases j (8 * i)); [apply byte_st_out; lia|].
        destruct (N.lt_ge_cases j (8 * i + 8)).
        + replace (dst + j) with (dst + 8 * i + (j - 8 * i)) by lia. apply IN. lia.
        + apply byte_st_out. change (N.of_nat 8) with 8. lia.
      - apply byte_st_out. change (N.of_nat 8) with 8. lia. }
    destruct (IH (i + 1) (set_mem s (st 8 (s_mem s) (dst + 8 * i) w)) ltac:(lia))
      as [m [E [Z F]]]. cbn [s_mem set_mem] in Z, F.
    exists m. rewrite E, set_mem_set_mem. split; [reflexivity|]. split.
    + intros j J. destruct (N.lt_ge_cases j (8 * i + 8)).
      * rewrite F by lia. replace (dst + j) with (dst + 8 * i + (j - 8 * i)) by lia.
        rewrite IN by lia. f_equal. lia.
      * rewrite Z by lia. apply SRC. lia.
    + intros b B. rewrite F by lia. apply byte_st_out. change (N.of_nat 8) with 8. lia.
Qed.
Lemma bcopy_any c dst src s : dst mod 4096 = 0 -> src mod 4096 = 0 ->
  dst + 4096 <= W64 -> src + 4096 <= W64 ->
  exists s', run c (bcopy64 dst src page_size) s = (s', Some tt) /\ same_machine (copied s dst src) s'.
Proof.
  intros A1 A2 H1 H2. unfold bcopy64. rewrite page_size_val. change (N.to_nat (4096 / 8)) with 512%nat.
  destruct (bcopy_any_loop c dst src ltac:(lia) H1 H2 512 0 s) as [m [E [Z F]]].
  { change (N.of_nat 512) with 512. lia. }
  change (N.of_nat 512) with 512 in Z, F.
  exists (set_mem s m). split; [exact E|]. apply sm_set. intros b.
  unfold byte at 2. destruct (N.leb_spec dst b); cbn [andb].
  2:{ apply F. lia. }
  destruct (N.ltb_spec b (dst + 4096)); [|apply F; lia].
  replace b with (dst + (b - dst)) at 1 by lia. apply Z. lia.
Qed.

Section Exact.
Variables (G : globals) (pb rb : N).
Hypothesis g : geom G pb rb.
Local Notation n := (g_dram_region_count G).
Local Notation W := (g_dram_region_bitmap_words G).

Lemma run_tas c r s : r < n -> run c (test_and_set_dram_region_lock G r) s =
  (taken_lock G s r, Some (negb (lock_of G s r =? 0))).
Proof.
  intros R. unfold test_and_set_dram_region_lock. rewrite run_bind, run_op1.
  unfold dri_lock. rewrite (raddr G pb rb g r 0) by (auto; lia). rewrite N.add_0_r.
  cbn [step fst snd run]. unfold taken_lock, put, lock_addr, lock_of.
  destruct (ld 8 _ _ =? 0); reflexivity.
Qed.
Lemma run_clr c r s : r < n -> run c (clear_dram_region_lock G r) s = (freed_lock G s r, Some tt).
Proof.
  intros R. unfold clear_dram_region_lock. rewrite run_bind, run_op1.
  unfold dri_lock. rewrite (raddr G pb rb g r 0) by (auto; lia). rewrite N.add_0_r. reflexivity.
Qed.
Lemma run_owner c r s : r < n -> run c (read_dram_region_owner G r) s = (s, Some (owner_of G s r)).
Proof.
  intros R. unfold read_dram_region_owner. rewrite run_load64. unfold dri_owner.
  rewrite (raddr G pb rb g r 8) by (auto; lia). reflexivity.
Qed.
Lemma lock_taken s r v q : r < n -> q < n -> v < W64 ->
  lock_of G (put s (lock_addr G r) v) q = if q =? r then v else lock_of G s q.
Proof.
  intros R Q V. unfold lock_of, put, lock_addr. cbn [s_mem set_mem].
  destruct (N.eqb_spec q r) as [->|NQ]; [apply ld8_st8; auto|].
  apply ld_st_other. change (N.of_nat 8) with 8. lia.
Qed.
Lemma owner_taken s r v q : owner_of G (put s (lock_addr G r) v) q = owner_of G s q.
Proof.
  unfold owner_of, put, lock_addr. cbn [s_mem set_mem]. apply ld_st_other. change (N.of_nat 8) with 8. lia.
Qed.
Lemma clean_locked s r : clean_locks G s -> r < n -> lock_of G s r <> 0 -> is_locked G s r = true /\ lock_of G s r = 1.
Proof. intros C R H. unfold is_locked. destruct (C r R) as [E|E]; [contradiction|]. rewrite E. auto. Qed.
Lemma not_locked s r : clean_locks G s -> r < n -> is_locked G s r = false -> lock_of G s r = 0.
Proof. intros C R H. unfold is_locked in H. destruct (C r R) as [E|E]; [exact E|]. rewrite E in H. discriminate. Qed.

(** ** The debug copy *)
Lemma debug_copy_run c s id ea oa rd : clean_locks G s -> record_in_space G id ->
  exists s', run c (copy_debug_enclave_page G id ea oa rd) s = (s', Some (debug_copy_code G pb rb s id ea oa)) /\
    same_machine (if debug_copy_code G pb rb s id ea oa =? 0
                  then debug_copy_state G pb rb s id ea oa rd else s) s'.
Proof.
  intros CL RS. unfold record_in_space in RS. change (2 ^ 64) with W64 in RS.
  unfold copy_debug_enclave_page.
  remember (debug_copy_code G pb rb s id ea oa) as k eqn:K.
  unfold debug_copy_code in K. rewrite !(dram_page G) in K. cbv zeta in K.
  destruct (is_page_aligned ea) eqn:AE, (is_page_aligned oa) eqn:AO; cbn [negb orb];
    rewrite ?andb_false_r, ?andb_true_r in K; cbn [negb orb] in K; rewrite ?orb_true_r in K;
    try (rewrite K; exists s; split; [reflexivity|apply sm_refl]).
  destruct (is_dram_address G ea) eqn:DE, (is_dram_address G oa) eqn:DO; cbn [negb orb andb] in *;
    try (rewrite K; exists s; split; [reflexivity|apply sm_refl]).
  apply page_aligned_iff in AE, AO.
  rewrite (main_val G pb rb g), !(region_for_spec G pb rb g).
  unfold debug_copy_state.
  set (q := main_region G pb rb id) in *. set (x := region_of pb rb ea) in *.
  set (r := region_of pb rb oa) in *. cbv zeta.
  assert (Q : q < n) by apply (main_lt G pb rb g).
  assert (X : x < n) by apply (region_lt' G pb rb g).
  assert (R : r < n) by apply (region_lt' G pb rb g).
  pose proof (layout _ _ _ g) as (L1 & L2 & L3 & L4 & L5 & L6 & L7 & L8).
  rewrite run_bind, (run_tas c q s Q).
  destruct (N.eqb_spec (lock_of G s q) 0) as [ZQ|ZQ].
  2:{ destruct (clean_locked s q CL Q ZQ) as [LQ VQ]. cbn [negb run]. rewrite LQ in K. rewrite K.
      eexists. split; [reflexivity|]. apply put_same. exact VQ. }
  assert (LQ : is_locked G s q = false) by (unfold is_locked; rewrite ZQ; reflexivity).
  rewrite LQ in K. cbn [negb]. rewrite run_bind, (run_tas c r _ R).
  assert (LT : lock_of G (taken_lock G s q) r = if r =? q then 1 else lock_of G s r)
    by (apply lock_taken; auto; reflexivity).
  rewrite LT. clear LT.
  destruct (N.eqb_spec r q) as [RQ|RQ].
  { cbn [orb] in K. change (negb (1 =? 0)) with true. cbv iota.
    rewrite run_bind, (run_clr c q _ Q). rewrite K.
    eexists. split; [reflexivity|]. change ((3 =? 0)) with false. cbv iota.
    rewrite RQ. unfold freed_lock, taken_lock.
    eapply sm_trans; [apply (put_same s (lock_addr G q) 0); exact ZQ|].
    eapply sm_trans; [apply (put_put s (lock_addr G q) 1 0); reflexivity|].
    apply (sm_put _ _ (lock_addr G q) 0). apply (put_put s (lock_addr G q) 1 1); reflexivity. }
  destruct (N.eqb_spec (lock_of G s r) 0) as [ZR|ZR].
  2:{ destruct (clean_locked s r CL R ZR) as [LR VR]. cbn [negb run orb] in *. rewrite LR in K.
      rewrite run_bind, (run_clr c q _ Q). rewrite K.
      eexists. split; [reflexivity|]. change ((3 =? 0)) with false. cbv iota.
      unfold freed_lock, taken_lock.
      eapply sm_trans; [apply (put_same s (lock_addr G q) 0); exact ZQ|].
      eapply sm_trans; [apply (put_put s (lock_addr G q) 1 0); reflexivity|].
      apply (sm_put _ _ (lock_addr G q) 0). apply put_same.
      fold (lock_of G (put s (lock_addr G q) 1) r). unfold lock_addr.
      change (lock_of G (put s (lock_addr G q) 1) r = 1).
      rewrite lock_taken by (auto; reflexivity). destruct (N.eqb_spec r q); auto. }
  assert (LR : is_locked G s r = false) by (unfold is_locked; rewrite ZR; reflexivity).
  rewrite LR in K. cbn [negb orb] in *.
  set (s1 := taken_lock G (taken_lock G s q) r) in *.
  rewrite run_bind, (run_owner c q _ Q). rewrite run_bind, (run_owner c r _ R).
  replace (owner_of G s1 q) with (owner_of G s q) by (unfold s1, taken_lock; rewrite !owner_taken; reflexivity).
  replace (owner_of G s1 r) with (owner_of G s r) by (unfold s1, taken_lock; rewrite !owner_taken; reflexivity).
  assert (XW : x / 64 < W) by (clear -X L5; lia).
  assert (TW : g_monitor_top G < W64) by (change (2 ^ 30) with 1073741824 in L8; unfold W64; clear -L8; lia).
  assert (AB : run c (read_enclave_region_bitmap_bit G id x) s1 = (s1, Some (access_bit G s1 id x))).
  { unfold read_enclave_region_bitmap_bit, access_bit. change null_enclave_id with 0.
    destruct (id =? 0).
    - rewrite read_bitmap_bit_run by (unfold word_of_bit; clear -XW TW L4; lia). rewrite bit_at_word. reflexivity.
    - unfold enclave_region_bitmap. change enclave_info_t_size with 304.
      rewrite wadd_small by (clear -RS; lia).
      rewrite read_bitmap_bit_run by (unfold word_of_bit; clear -XW RS; lia). rewrite bit_at_word. reflexivity. }
  rewrite run_bind, AB. rewrite run_bind, run_load64.
  unfold ei_is_debug. rewrite (wadd_small id 24) by lia. fold (word s1 (id + 24)).
  (* the locks are given back *)
  assert (BACK : same_machine s (freed_lock G (freed_lock G s1 r) q)).
  { unfold s1, freed_lock, taken_lock.
    eapply sm_trans; [apply (put_same s (lock_addr G q) 0); exact ZQ|].
    eapply sm_trans; [apply (put_put s (lock_addr G q) 1 0); reflexivity|].
    apply (sm_put _ _ (lock_addr G q) 0).
    eapply sm_trans; [apply (put_same _ (lock_addr G r) 0)|apply (put_put _ (lock_addr G r) 1 0); reflexivity].
    change (lock_of G (put s (lock_addr G q) 1) r = 0).
    rewrite lock_taken by (auto; reflexivity). destruct (N.eqb_spec r q); [contradiction|auto]. }
  assert (fail : forall v, k = v -> v <> 0 -> exists s',
    run c (clear_dram_region_lock G r ;; clear_dram_region_lock G q ;; Ret v) s1 = (s', Some k) /\
    same_machine (if k =? 0 then freed_lock G (freed_lock G (if rd then copied s1 oa ea else copied s1 ea oa) r) q else s) s').
  { intros v KV NV. rewrite run_bind, (run_clr c r _ R). rewrite run_bind, (run_clr c q _ Q).
    cbn [run]. rewrite <- KV. eexists. split; [reflexivity|].
    destruct (N.eqb_spec k 0); [congruence|]. exact BACK. }
  rewrite run_bind.
  destruct (word s1 (id + 24) =? 0).
  { change (monitor_invalid_state =? monitor_ok) with false. cbv iota. cbn [run]. apply fail; [exact K|discriminate]. }
  destruct (access_bit G s1 id x); cbn [negb andb] in *.
  2:{ change (monitor_invalid_value =? monitor_ok) with false. cbv iota. cbn [run]. apply fail; [exact K|discriminate]. }
  change null_enclave_id with 0. destruct (owner_of G s r =? 0); cbn [negb andb] in *.
  2:{ change (monitor_invalid_value =? monitor_ok) with false. cbv iota. cbn [run]. apply fail; [exact K|discriminate]. }
  destruct (owner_of G s q =? id); cbn [negb] in *.
  2:{ change (monitor_invalid_value =? monitor_ok) with false. cbv iota. cbn [run]. apply fail; [exact K|discriminate]. }
  change (monitor_ok =? monitor_ok) with true. cbv iota.
  assert (HD : g_dram_size G < W64) by apply (geo_D _ _ _ g).
  unfold is_dram_address in DE, DO.
  assert (BE : ea + 4096 <= W64) by (unfold W64 in *; lia).
  assert (BO : oa + 4096 <= W64) by (unfold W64 in *; lia).
  assert (CP : exists s2, run c (if rd then bcopy64 oa ea page_size else bcopy64 ea oa page_size) s1 = (s2, Some tt) /\
     same_machine (if rd then copied s1 oa ea else copied s1 ea oa) s2).
  { destruct rd; apply bcopy_any; auto. }
  destruct CP as [s2 [-> SM]].
  rewrite run_bind, (run_clr c r _ R). rewrite run_bind, (run_clr c q _ Q). cbn [run].
  rewrite K. eexists. split; [reflexivity|]. change (0 =? 0) with true. cbv iota.
  unfold freed_lock. apply sm_put, sm_put. exact SM.
Qed.

(** ** delete_enclave *)
Lemma wipe_run c r s : r < n -> g_dram_size G + 2 ^ (12 + pb + rb) <= 2 ^ 64 ->
  exists s', run c (bzero_dram_region G r) s = (s', Some tt) /\ same_machine (erased G pb rb r r s) s'.
Proof.
  intros R WB. rewrite (geo_count _ _ _ g) in R.
  unfold bzero_dram_region. rewrite (geo_rs _ _ _ g), (geo_count _ _ _ g).
  pose proof (geo_pb _ _ _ g) as GP. pose proof (geo_rb _ _ _ g) as GR.
  assert (P60 : 2 ^ (12 + pb + rb) <= 2 ^ 60) by (apply pow2_le; lia).
  change (2 ^ 60) with 1152921504606846976 in P60.
  assert (SE : 2 ^ (12 + pb + rb) = 2 ^ (12 + pb) * 2 ^ rb) by apply pow2_add.
  rewrite (wshl_small (2 ^ rb)) by (try lia; unfold W64; lia).
  rewrite (wshl_small r).
  2:{ lia. }
  2:{ apply N.lt_le_trans with (2 ^ rb * 2 ^ (12 + pb)).
      - apply N.mul_lt_mono_pos_r; [apply pow2_pos|exact R].
      - unfold W64. lia. }
  replace (2 ^ rb * 2 ^ (12 + pb)) with (2 ^ (12 + pb + rb)) by lia.
  destruct (bzero_stripes_run c G pb rb r g R WB
    (S (N.to_nat (g_dram_size G / 2 ^ (12 + pb + rb)))) 0 s ltac:(lia)) as [m [E [Z F]]].
  rewrite N.mul_0_l in E. exists (set_mem s m). split; [exact E|].
  apply sm_set. intros a. unfold byte at 2, in_round.
  destruct (N.ltb_spec (a / 2 ^ (12 + pb + rb) * 2 ^ (12 + pb + rb)) (g_dram_size G)); cbn [andb].
  2:{ apply F. auto. }
  destruct (N.leb_spec r (region_of pb rb a)); cbn [andb]; [|apply F; right; left; lia].
  destruct (N.leb_spec (region_of pb rb a) r); [|apply F; right; left; lia].
  apply Z; auto; [apply N.le_0_l|lia].
Qed.
Lemma sm_marked k : forall i a b, same_machine a b -> same_machine (marked_free G i k a) (marked_free G i k b).
Proof. induction k as [|k IH]; intros i a b H; [exact H|]. cbn [marked_free]. apply IH, sm_put, H. Qed.

(** The tables are in region 0 and in the first round. *)
Lemma table_region a : a < g_monitor_top G -> region_of pb rb a = 0.
Proof.
  intros H. apply (region0_low pb rb). pose proof (geo_fits _ _ _ g). lia.
Qed.
Lemma table_round a : a < g_monitor_top G -> in_round G pb rb a = true.
Proof.
  intros H. unfold in_round. pose proof (geo_fits _ _ _ g) as F.
  assert (Z : a / 2 ^ (12 + pb + rb) = 0).
  { apply N.div_small. rewrite (pow2_add (12 + pb) rb).
    pose proof (pow2_pos (12 + pb)). pose proof (pow2_pos rb).
    apply N.lt_le_trans with (2 ^ (12 + pb) * 1); [lia|]. apply N.mul_le_mono_l. lia. }
  rewrite Z. apply N.ltb_lt. cbn [N.mul]. pose proof (geo_D _ _ _ g). lia.
Qed.
Lemma field_table r off : r < n -> off + 8 <= 40 -> lock_addr G r + off + 8 <= g_monitor_top G.
Proof.
  intros R O. pose proof (layout _ _ _ g) as (L1 & L2 & L3 & L4 & L5 & L6 & L7 & L8).
  unfold lock_addr. lia.
Qed.

Section Del.
Variables (c e : N).
Hypothesis WB : g_dram_size G + 2 ^ (12 + pb + rb) <= 2 ^ 64.
Hypothesis RA : record_at G e.
Local Notation B := (e + 304 + n / 8).
Local Notation t := (last_erased G pb rb e).

Lemma t_lt : t < n.
Proof.
  unfold last_erased. pose proof (layout _ _ _ g) as (L1 & L2 & L3 & L4 & L5 & L6 & L7 & L8).
  destruct (in_round _ _ _ _); [apply (region_lt' G pb rb g)|lia].
Qed.
Lemma bit_run s : run c (read_bitmap_bit (enclave_region_bitmap e) n) s =
  (s, Some (bit_at (s_mem s) (e + 304) n)).
Proof.
  rewrite (bitmap_addr G e RA). apply read_bitmap_bit_run. destruct RA as [R1 R2].
  change (2 ^ 64) with W64 in R2.
  pose proof (layout _ _ _ g) as (L1 & L2 & L3 & L4 & L5 & L6 & L7 & L8).
  unfold word_of_bit. assert (n / 64 <= W) by (clear -L5; lia). lia.
Qed.
Definition free_body := (fun i =>
           b <- read_bitmap_bit (enclave_region_bitmap e) n ;;
           if (b : bool) then
             store64 (wadd (region_addr G i) dri_owner) free_enclave_id ;;
             store64 (wadd (region_addr G i) dri_pinned_pages) 0 ;;
             bzero_dram_region G i
           else Ret tt).
Lemma clear_rest : forall k i s, bit_at (s_mem s) (e + 304) n = false ->
  run c (for_n k i free_body) s = (s, Some tt).
Proof.
  induction k as [|k IH]; intros i s Z; cbn [for_n]; [reflexivity|].
  rewrite run_bind. unfold free_body at 1. rewrite run_bind, bit_run, Z. cbn [run]. apply IH, Z.
Qed.
(** One round of the loop. *)
Lemma one_round i s : i < n -> bit_at (s_mem s) (e + 304) n = true ->
  exists s', run c (free_body i) s = (s', Some tt) /\
    same_machine (erased G pb rb i i (put (put s (lock_addr G i + 8) 3) (lock_addr G i + 24) 0)) s'.
Proof.
  intros I Z. unfold free_body. rewrite run_bind, bit_run, Z.
  rewrite run_bind, run_store64. unfold dri_owner. rewrite (raddr G pb rb g i 8) by (auto; lia).
  rewrite run_bind, run_store64. unfold dri_pinned_pages. rewrite (raddr G pb rb g i 24) by (auto; lia).
  change free_enclave_id with 3. fold (lock_addr G i).
  apply (wipe_run c i (put (put s (lock_addr G i + 8) 3) (lock_addr G i + 24) 0) I WB).
Qed.
Lemma bit_erased i s s' : same_machine (erased G pb rb i i (put (put s (lock_addr G i + 8) 3) (lock_addr G i + 24) 0)) s' ->
  i < n -> bit_at (s_mem s') (e + 304) n =
    if in_round G pb rb B && (region_of pb rb B =? i) then false else bit_at (s_mem s) (e + 304) n.
Proof.
  intros SM I. unfold bit_at. rewrite (sm_byte _ _ _ SM).
  unfold erased. cbn [s_mem set_mem]. unfold byte at 1.
  replace ((i <=? region_of pb rb B) && (region_of pb rb B <=? i)) with (region_of pb rb B =? i) by lia.
  rewrite <- andb_assoc.
  replace ((i <=? region_of pb rb B) && (region_of pb rb B <=? i)) with (region_of pb rb B =? i) by lia.
  destruct (in_round G pb rb B && (region_of pb rb B =? i)).
  { rewrite N.mod_0_l by discriminate. apply N.bits_0. }
  fold (byte (s_mem (put (put s (lock_addr G i + 8) 3) (lock_addr G i + 24) 0)) B).
  unfold put. cbn [s_mem set_mem]. destruct RA as [R1 _].
  pose proof (field_table i 8 I ltac:(lia)). pose proof (field_table i 24 I ltac:(lia)).
  rewrite !byte_st_out by (change (N.of_nat 8) with 8; lia). reflexivity.
Qed.
Lemma byte_erased i j s a : byte (s_mem (erased G pb rb i j s)) a =
  if in_round G pb rb a && (i <=? region_of pb rb a) && (region_of pb rb a <=? j) then 0 else byte (s_mem s) a.
Proof. unfold erased, byte. cbn [s_mem set_mem]. destruct (_ && _); [apply N.mod_0_l; discriminate|reflexivity]. Qed.

Lemma loop1 : forall k i s, i + N.of_nat k = n -> 1 <= i <= t + 1 ->
  (i < n -> bit_at (s_mem s) (e + 304) n = (i <=? t)) ->
  (forall r, r < n -> pinned_of G s r = 0) ->
  exists s', run c (for_n k i free_body) s = (s', Some tt) /\
    same_machine (marked_free G i (N.to_nat (t + 1 - i)) (erased G pb rb i t s)) s'.
Proof.
  pose proof t_lt as TL.
  induction k as [|k IH]; intros i s IK IT ZB PZ.
  - exists s. split; [reflexivity|]. assert (i = t + 1) by lia. subst i.
    replace (t + 1 - (t + 1)) with 0 by lia. cbn [N.to_nat marked_free].
    constructor; try reflexivity. intros a. change (byte (s_mem s) a = byte (s_mem (erased G pb rb (t + 1) t s)) a).
    rewrite byte_erased. replace ((t + 1 <=? region_of pb rb a)) with (negb (region_of pb rb a <=? t)) by lia.
    destruct (in_round _ _ _ a), (region_of pb rb a <=? t); reflexivity.
  - specialize (ZB ltac:(lia)). destruct (N.leb_spec i t) as [L|L].
    2:{ exists s. split; [apply clear_rest; exact ZB|]. assert (i = t + 1) by lia. subst i.
        replace (t + 1 - (t + 1)) with 0 by lia. cbn [N.to_nat marked_free].
        constructor; try reflexivity. intros a. change (byte (s_mem s) a = byte (s_mem (erased G pb rb (t + 1) t s)) a).
        rewrite byte_erased. replace ((t + 1 <=? region_of pb rb a)) with (negb (region_of pb rb a <=? t)) by lia.
        destruct (in_round _ _ _ a), (region_of pb rb a <=? t); reflexivity. }
    cbn [for_n]. rewrite run_bind.
    destruct (one_round i s ltac:(lia) ZB) as [s1 [R1 SM1]]. rewrite R1.
    pose proof (bit_erased i s s1 SM1 ltac:(lia)) as BE.
    assert (TB : forall a, a < g_monitor_top G -> byte (s_mem s1) a =
      byte (s_mem (put s (lock_addr G i + 8) 3)) a).
    { intros a A. rewrite (sm_byte _ _ _ SM1), byte_erased. rewrite (table_region a A).
      replace (i <=? 0) with false by lia. rewrite andb_false_r. cbn [andb].
      symmetry. apply (sm_byte (put (put s (lock_addr G i + 8) 3) (lock_addr G i + 24) 0)).
      assert (X : same_machine (put s (lock_addr G i + 8) 3) (put (put s (lock_addr G i + 8) 3) (lock_addr G i + 24) 0)).
      { apply put_same. unfold put. cbn [s_mem set_mem]. rewrite ld_st_other by (change (N.of_nat 8) with 8; lia).
        apply (PZ i). lia. }
      destruct X. constructor; symmetry; auto. }
    destruct (IH (i + 1) s1) as [s' [R2 SM2]]; [lia|lia| | |].
    + intros IN. rewrite BE, ZB. unfold last_erased in *.
      destruct (in_round G pb rb B); cbn [andb].
      * destruct (N.eqb_spec (region_of pb rb B) i); lia.
      * lia.
    + intros r RN. transitivity (ld 8 (s_mem (put s (lock_addr G i + 8) 3)) (lock_addr G r + 24)).
      * unfold pinned_of. fold (lock_addr G r). apply ld_byte. intros b B1 B2. apply TB.
        pose proof (field_table r 24 RN ltac:(lia)). change (N.of_nat 8) with 8 in B2. lia.
      * unfold put. cbn [s_mem set_mem]. rewrite ld_st_other by (unfold lock_addr; change (N.of_nat 8) with 8; lia).
        apply (PZ r RN).
    + exists s'. split; [exact R2|]. eapply sm_trans; [|exact SM2].
      replace (N.to_nat (t + 1 - i)) with (S (N.to_nat (t + 1 - (i + 1)))) by lia.
      cbn [marked_free]. apply sm_marked.
      pose proof SM1 as [_ M2 M3 M4 M5 M6 M7].
      constructor; [|exact M2|exact M3|exact M4|exact M5|exact M6|exact M7].
      intros a. change (byte (s_mem (erased G pb rb (i + 1) t s1)) a =
        byte (s_mem (put (erased G pb rb i t s) (lock_addr G i + 8) 3)) a).
      rewrite byte_erased. pose proof (field_table i 8 ltac:(lia) ltac:(lia)) as FT.
      assert (OUT : a < lock_addr G i + 8 \/ lock_addr G i + 16 <= a ->
        byte (s_mem (put (erased G pb rb i t s) (lock_addr G i + 8) 3)) a = byte (s_mem (erased G pb rb i t s)) a).
      { intros O. unfold put. cbn [s_mem set_mem]. apply byte_st_out. change (N.of_nat 8) with 8. lia. }
      destruct (N.lt_ge_cases a (g_monitor_top G)) as [AT|AT].
      * rewrite (table_region a AT). replace (i + 1 <=? 0) with false by lia. rewrite andb_false_r. cbn [andb].
        rewrite TB by auto.
        destruct (N.lt_ge_cases a (lock_addr G i + 8)) as [A1|A1];
          [|destruct (N.lt_ge_cases a (lock_addr G i + 16)) as [A2|A2]].
        -- rewrite OUT by auto. rewrite byte_erased, (table_region a AT). replace (i <=? 0) with false by lia.
           rewrite andb_false_r. cbn [andb]. unfold put. cbn [s_mem set_mem]. apply byte_st_out. auto.
        -- unfold put. cbn [s_mem set_mem]. rewrite !byte_st_in by (change (N.of_nat 8) with 8; lia). reflexivity.
        -- rewrite OUT by auto. rewrite byte_erased, (table_region a AT). replace (i <=? 0) with false by lia.
           rewrite andb_false_r. cbn [andb]. unfold put. cbn [s_mem set_mem]. apply byte_st_out.
           change (N.of_nat 8) with 8. lia.
      * rewrite OUT by lia. rewrite byte_erased, (sm_byte _ _ _ SM1), byte_erased.
        pose proof (field_table i 24 ltac:(lia) ltac:(lia)) as FT2.
        unfold put. cbn [s_mem set_mem]. rewrite !byte_st_out by (change (N.of_nat 8) with 8; lia).
        destruct (in_round G pb rb a); cbn [andb]; [|reflexivity].
        destruct (N.leb_spec (i + 1) (region_of pb rb a)), (N.leb_spec i (region_of pb rb a)),
          (N.leb_spec (region_of pb rb a) i), (N.leb_spec (region_of pb rb a) t); cbn [andb]; try reflexivity; lia.
Qed.

(** The whole loop: the first round erases the tables. *)
Lemma loop0 s : bit_at (s_mem s) (e + 304) n = true ->
  exists s', run c (for_n (N.to_nat n) 0 free_body) s = (s', Some tt) /\
    same_machine (deleted_state G pb rb s e) s'.
Proof.
  intros ZB. pose proof t_lt as TL.
  pose proof (layout _ _ _ g) as (L1 & L2 & L3 & L4 & L5 & L6 & L7 & L8).
  replace (N.to_nat n) with (S (N.to_nat (n - 1))) by lia. cbn [for_n]. rewrite run_bind.
  destruct (one_round 0 s ltac:(lia) ZB) as [s1 [R1 SM1]]. rewrite R1.
  pose proof (bit_erased 0 s s1 SM1 ltac:(lia)) as BE.
  assert (TZ : forall a, a < g_monitor_top G -> byte (s_mem s1) a = 0).
  { intros a A. rewrite (sm_byte _ _ _ SM1), byte_erased, (table_region a A), (table_round a A). reflexivity. }
  destruct (loop1 (N.to_nat (n - 1)) 1 s1) as [s' [R2 SM2]]; [lia|lia| | |].
  - intros _. rewrite BE, ZB. unfold last_erased.
    destruct (in_round G pb rb B); cbn [andb]; [|lia].
    destruct (N.eqb_spec (region_of pb rb B) 0); lia.
  - intros r RN. unfold pinned_of. fold (lock_addr G r). apply ld8_zero. intros b Bb. apply TZ.
    pose proof (field_table r 24 RN ltac:(lia)). lia.
  - exists s'. split; [exact R2|]. eapply sm_trans; [|exact SM2].
    unfold deleted_state. replace (N.to_nat (t + 1 - 1)) with (N.to_nat t) by lia. apply sm_marked.
    pose proof SM1 as [_ M2 M3 M4 M5 M6 M7].
    constructor; [|exact M2|exact M3|exact M4|exact M5|exact M6|exact M7].
    intros a. change (byte (s_mem (erased G pb rb 1 t s1)) a = byte (s_mem (erased G pb rb 0 t s)) a).
    rewrite !byte_erased, (sm_byte _ _ _ SM1), byte_erased.
    pose proof (field_table 0 8 ltac:(lia) ltac:(lia)) as FT1.
    pose proof (field_table 0 24 ltac:(lia) ltac:(lia)) as FT2.
    assert (OUT : in_round G pb rb a && (region_of pb rb a <=? 0) = false ->
      byte (s_mem (put (put s (lock_addr G 0 + 8) 3) (lock_addr G 0 + 24) 0)) a = byte (s_mem s) a).
    { intros O. destruct (N.lt_ge_cases a (g_monitor_top G)) as [AT|AT].
      - rewrite (table_region a AT), (table_round a AT) in O. discriminate.
      - unfold put. cbn [s_mem set_mem]. rewrite !byte_st_out by (change (N.of_nat 8) with 8; lia). reflexivity. }
    destruct (in_round G pb rb a); cbn [andb] in *; [|apply OUT; reflexivity].
    replace (0 <=? region_of pb rb a) with true by lia. cbn [andb].
    destruct (N.leb_spec 1 (region_of pb rb a)), (N.leb_spec (region_of pb rb a) 0),
      (N.leb_spec (region_of pb rb a) t); cbn [andb]; try reflexivity; try lia; apply OUT; reflexivity.
Qed.
(** Unlocking what is not locked. *)
Lemma unlock_zero q : q < n -> forall k i s, i + N.of_nat k <= n ->
  (forall r, r < n -> lock_of G s r = 0) ->
  exists s', run c (for_n k i (fun i =>
       if i =? q then Ret tt
       else
         b <- read_bitmap_bit (enclave_region_bitmap e) i ;;
         if (b : bool) then clear_dram_region_lock G i else Ret tt)) s = (s', Some tt) /\ same_machine s s'.
Proof.
  intros Q. induction k as [|k IH]; intros i s IK Z; cbn [for_n].
  - exists s. split; [reflexivity|apply sm_refl].
  - rewrite run_bind. destruct (i =? q); [cbn [run]; apply IH; [lia|auto]|].
    rewrite run_bind, (bitmap_addr G e RA), read_bitmap_bit_run.
    2:{ destruct RA as [R1 R2]. change (2 ^ 64) with W64 in R2.
        pose proof (layout _ _ _ g) as (L1 & L2 & L3 & L4 & L5 & L6 & L7 & L8).
        unfold word_of_bit. assert (i / 64 < W) by (clear -L5 IK; lia). lia. }
    destruct (bit_at _ _ i); [|cbn [run]; rewrite <- (bitmap_addr G e RA); apply IH; [lia|auto]].
    rewrite run_clr by lia. rewrite <- (bitmap_addr G e RA).
    assert (SM : same_machine s (freed_lock G s i)) by (apply put_same; apply (Z i); lia).
    destruct (IH (i + 1) (freed_lock G s i)) as [s' [R2 SM2]]; [lia| |].
    { intros r RN. unfold lock_of. rewrite (sm_word _ _ _ SM). apply (Z r RN). }
    exists s'. split; [exact R2|]. eapply sm_trans; [exact SM|exact SM2].
Qed.
Lemma marked_locks k : forall i s r, r < n -> lock_of G (marked_free G i k s) r = lock_of G s r.
Proof.
  induction k as [|k IH]; intros i s r R; [reflexivity|]. cbn [marked_free]. rewrite IH by auto.
  unfold lock_of, put, lock_addr. cbn [s_mem set_mem]. apply ld_st_other. change (N.of_nat 8) with 8. lia.
Qed.
Lemma deleted_locks s r : r < n -> lock_of G (deleted_state G pb rb s e) r = 0.
Proof.
  intros R. unfold deleted_state. rewrite marked_locks by auto. unfold lock_of. apply ld8_zero.
  intros b Bb. rewrite byte_erased. pose proof (field_table r 0 R ltac:(lia)) as F. unfold lock_addr in F.
  rewrite table_region, table_round by lia. replace (0 <=? 0) with true by lia.
  replace (0 <=? t) with true by lia. reflexivity.
Qed.
(** Everything after the locks were taken; what the tables hold does not matter. *)
Lemma delete_tail s q : q < n -> bit_at (s_mem s) (e + 304) n = true ->
  exists s', run c (for_n (N.to_nat n) 0 free_body ;;
     unlock_enclave_regions G (enclave_region_bitmap e) q n ;;
     clear_dram_region_lock G q ;; Ret monitor_ok) s = (s', Some 0) /\
    same_machine (deleted_state G pb rb s e) s'.
Proof.
  intros Q ZB. destruct (loop0 s ZB) as [s1 [R1 SM1]]. rewrite run_bind, R1.
  assert (Z1 : forall r, r < n -> lock_of G s1 r = 0).
  { intros r R. unfold lock_of. rewrite (sm_word _ _ _ SM1). apply (deleted_locks s r R). }
  destruct (unlock_zero q Q (N.to_nat n) 0 s1 ltac:(lia) Z1) as [s2 [R2 SM2]].
  rewrite run_bind. unfold unlock_enclave_regions. rewrite R2.
  rewrite run_bind, run_clr by auto. cbn [run]. eexists. split; [reflexivity|].
  eapply sm_trans; [exact SM1|]. eapply sm_trans; [exact SM2|]. apply put_same.
  change (lock_of G s2 q = 0). unfold lock_of. rewrite (sm_word _ _ _ SM2). apply (Z1 q Q).
Qed.
End Del.

Lemma view_sm s s' o : same_machine s s' -> view G s o -> view G s' o.
Proof.
  intros SM V. pose proof SM as [M1 M2 M3 M4 M5 M6 M7].
  constructor; intros; rewrite ?(sm_word _ _ _ SM), ?(sm_byte _ _ _ SM), ?(sm_bit _ _ _ _ SM), ?M2, ?M3, ?M4, ?M5, ?M6, ?M7;
    destruct V; auto.
Qed.
Lemma deleted_like s s1 e : record_at G e ->
  (forall b, g_monitor_top G <= b -> byte (s_mem s1) b = byte (s_mem s) b) -> same_registers s s1 ->
  same_machine (deleted_state G pb rb s e) (deleted_state G pb rb s1 e).
Proof.
  intros RA H (H1 & H2 & H3 & H4 & H5 & H6). apply sm_marked. constructor; auto.
  intros a. change (byte (s_mem (erased G pb rb 0 (last_erased G pb rb e) s1)) a =
    byte (s_mem (erased G pb rb 0 (last_erased G pb rb e) s)) a).
  rewrite !byte_erased. destruct (N.lt_ge_cases a (g_monitor_top G)) as [A|A].
  - rewrite (table_region a A), (table_round a A). replace (0 <=? 0) with true by lia.
    replace (0 <=? last_erased G pb rb e) with true by lia. reflexivity.
  - rewrite (H a A). reflexivity.
Qed.

Lemma delete_any s c e : clean_locks G s -> record_ok G pb rb s e ->
  g_dram_size G + 2 ^ (12 + pb + rb) <= 2 ^ 64 ->
  delete_enclave_code G pb rb s e = 0 -> enclave_bit s e n = true ->
  wp G c (delete_enclave G e) (view_of G s) (fun v o' => v = 0 /\
    oeq (view_of G (deleted_state G pb rb s e)) o').
Proof.
  intros CL RI WB K ZB. unfold delete_enclave, delete_enclave_code in *. cbv zeta. apply (guard G pb rb g s c CL).
  - intros L. rewrite L in K. discriminate.
  - intros L NE. rewrite L, NE in K. discriminate.
  - intros L NE. rewrite L, NE in *. cbn [negb] in *. rewrite (main_val G pb rb g).
    pose proof (named_record G pb rb s e RI NE) as RA.
    apply (field G pb rb g s c e 32); [auto|lia|reflexivity|].
    destruct (word s (e + 32) =? 0); cbn [negb] in *; [|discriminate].
    pose proof (main_lt G pb rb g e) as QN. pose proof (idle G s CL _ QN L) as Z0.
    apply wp_bind. change (with_lock (view_of G s) (main_region G pb rb e) 1)
      with (locks G s (upd (o_lock (view_of G s)) (main_region G pb rb e) 1)).
    eapply wp_weaken; [|apply (del_lock G pb rb g s c CL e RA (N.to_nat n) 0
       (upd (o_lock (view_of G s)) (main_region G pb rb e) 1)); [lia|]].
    2:{ intros r. unfold upd, upto, mine. destruct (r =? main_region G pb rb e); [reflexivity|].
        replace (r <? 0) with false by lia. reflexivity. }
    cbv beta. intros x o1 [f1 [-> H]]. destruct x as [z|].
    { exfalso. destruct H as [ZR [BZ [FB F]]]. rewrite N2Nat.id in ZR.
      rewrite (busy_exists G pb rb s e z) in K by (auto; lia). discriminate. }
    intros s1 V1.
    assert (RB : forall b, g_monitor_top G <= b -> byte (s_mem s1) b = byte (s_mem s) b).
    { intros b Bb. rewrite (v_rest _ _ _ V1) by (apply (rest_high G pb rb g); auto). reflexivity. }
    assert (RG : same_registers s s1).
    { destruct V1. unfold same_registers. auto 10. }
    assert (ZB1 : bit_at (s_mem s1) (e + 304) n = true).
    { rewrite bit_at_word. fold (enclave_bit s1 e n). rewrite <- ZB. unfold enclave_bit. f_equal.
      apply ld_byte. intros b B1 B2. apply RB. destruct RA. lia. }
    destruct (delete_tail c e WB RA s1 _ QN ZB1) as [s' [R SM]].
    unfold free_body in R.
    assert (SM' : same_machine (deleted_state G pb rb s e) s').
    { eapply sm_trans; [apply (deleted_like s s1 e RA RB RG)|exact SM]. }
    exists s', 0, (view_of G (deleted_state G pb rb s e)). split; [exact R|].
    split; [apply (view_sm _ _ _ SM'), view_of_view|]. split; [reflexivity|apply oeq_refl].
Qed.
Lemma delete_exact s c e : clean_locks G s -> record_ok G pb rb s e ->
  g_dram_size G + 2 ^ (12 + pb + rb) <= 2 ^ 64 ->
  exists s', run c (delete_enclave G e) s = (s', Some (delete_enclave_code G pb rb s e)) /\
    same_machine (delete_enclave_state G pb rb s e) s'.
Proof.
  intros CL RI WB. unfold delete_enclave_state.
  destruct (N.eqb_spec (delete_enclave_code G pb rb s e) 0) as [K|K]; cbn [andb].
  - destruct (enclave_bit s e n) eqn:ZB.
    + destruct (delete_any s c e CL RI WB K ZB s (view_of_view G s)) as [s' [v [o' [R [V [-> E]]]]]].
      exists s'. rewrite K. split; [exact R|].
      exact (oeq_view_same G pb rb g _ s' _ o' (view_of_view G _) V E).
    + exact (only_run G pb rb g s c _ _ (ContractProofs.delete_wp G pb rb g s c CL e RI (fun _ => ZB))).
  - apply (only_run G pb rb g s c _ _ (ContractProofs.delete_wp G pb rb g s c CL e RI (fun X => False_ind _ (K X)))).
Qed.
End Exact.
