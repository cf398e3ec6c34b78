(** * Bounds on the number of operations of a call. *)
From Coq Require Import NArith ZArith Lia Bool List.
From Coq Require Import ZifyBool ZifyNat ZifyN.
From Verif Require Import Word Machine ModelBare ModelHash ModelInl ModelRegions
  ModelMetadata ModelEnclave ModelBoot ModelApi Lib BareProofs SpecGeometry SpecCost
  GeomProofs Trace SpecMonitor SpecHistory ViewProofs SeqProofs SeqCalls SeqCalls2 SeqCalls3 SeqCalls4 SeqCalls5.
Import ListNotations.
Open Scope N_scope.
Ltac Zify.zify_post_hook ::= Z.div_mod_to_equations.

(** Whatever values the operations yield, [p] ends after at most [m] operations
    with a result in [Q]. *)
Fixpoint within {A} (p : prog A) (m : N) (Q : A -> Prop) : Prop :=
  match p with
  | Ret a => Q a
  | Stop => False
  | Do _ f => 1 <= m /\ forall v, within (f v) (m - 1) Q
  end.
Definition any {A} (_ : A) : Prop := True.

Lemma within_le {A} (p : prog A) : forall m m' Q, m <= m' -> within p m Q -> within p m' Q.
Proof.
  induction p as [a|o f IH|]; intros m m' Q L W; cbn [within] in *; auto.
  destruct W as [W1 W2]. split; [lia|]. intros v. apply (IH v (m - 1)); [lia|auto].
Qed.
Lemma within_bind {A B} (p : prog A) (f : A -> prog B) : forall m1 m2 P Q,
  within p m1 P -> (forall a, P a -> within (f a) m2 Q) -> within (bind p f) (m1 + m2) Q.
Proof.
  induction p as [a|o k IH|]; intros m1 m2 P Q W H; cbn [within bind] in *.
  - apply (within_le _ m2); [lia|auto].
  - destruct W as [W1 W2]. split; [lia|]. intros v.
    replace (m1 + m2 - 1) with (m1 - 1 + m2) by lia. eapply IH; eauto.
  - contradiction.
Qed.
Lemma within_ret {A} (a : A) : within (Ret a) 0 any.
Proof. exact I. Qed.
Lemma within_op o : within (op1 o) 1 any.
Proof. cbn. split; [lia|]. intros v. exact I. Qed.
Lemma within_if {A} (b : bool) (p q : prog A) m1 m2 Q :
  within p m1 Q -> within q m2 Q -> within (if b then p else q) (m1 + m2) Q.
Proof.
  intros H1 H2. destruct b; [apply (within_le _ m1)|apply (within_le _ m2)]; auto; lia.
Qed.
Lemma within_opt {A R} (x : option R) (p : R -> prog A) (q : prog A) m1 m2 Q :
  (forall r, within (p r) m1 Q) -> within q m2 Q ->
  within (match x with Some r => p r | None => q end) (m1 + m2) Q.
Proof.
  intros H1 H2. destruct x; [apply (within_le _ m1)|apply (within_le _ m2)]; auto; lia.
Qed.
Lemma within_opt2 {A R} (x : option R) (p : R -> prog A) (q : prog A) m1 m2 Q :
  (forall r, x = Some r -> within (p r) m1 Q) -> within q m2 Q ->
  within (match x with Some r => p r | None => q end) (m1 + m2) Q.
Proof.
  intros H1 H2. destruct x; [apply (within_le _ m1)|apply (within_le _ m2)]; auto; lia.
Qed.
Lemma within_for_n m : forall (k : nat) i body,
  (forall i, within (body i) m any) -> within (for_n k i body) (N.of_nat k * m) any.
Proof.
  induction k as [|k IH]; intros i body H; cbn [for_n]; [exact I|].
  rewrite Nat2N.inj_succ, N.mul_succ_l, (N.add_comm (N.of_nat k * m) m).
  eapply within_bind; [apply H|]. intros _ _. auto.
Qed.
Lemma within_for {m bound} (k i : N) body : k <= bound ->
  (forall i, within (body i) m any) -> within (for_n (N.to_nat k) i body) (bound * m) any.
Proof.
  intros L H. apply (within_le _ (k * m)); [apply N.mul_le_mono_r; exact L|].
  rewrite <- (N2Nat.id k) at 2. apply within_for_n, H.
Qed.
Lemma within_for_exit {R} m (P : R -> Prop) hi : forall (k : nat) i (body : N -> prog (option R)),
  i + N.of_nat k <= hi ->
  (forall j, j < hi -> within (body j) m (fun x => forall r, x = Some r -> P r)) ->
  within (for_exit k i body) (N.of_nat k * m) (fun x => forall r, x = Some r -> P r).
Proof.
  induction k as [|k IH]; intros i body HI H; cbn [for_exit]; [intros r X; discriminate|].
  rewrite Nat2N.inj_succ, N.mul_succ_l, (N.add_comm (N.of_nat k * m) m).
  eapply within_bind; [apply H; lia|]. intros [x|] HX; cbn [within]; [exact HX|].
  apply IH; auto. lia.
Qed.
Lemma within_exit {R m bound} (k i : N) (body : N -> prog (option R)) : k <= bound ->
  (forall i, within (body i) m any) -> within (for_exit (N.to_nat k) i body) (bound * m) any.
Proof.
  intros L H. apply (within_le _ (N.of_nat (N.to_nat k) * m)).
  { rewrite N2Nat.id. apply N.mul_le_mono_r; exact L. }
  assert (W : within (for_exit (N.to_nat k) i body) (N.of_nat (N.to_nat k) * m)
    (fun x => forall r, x = Some r -> True)).
  { apply (within_for_exit m (fun _ => True) (i + N.of_nat (N.to_nat k))); [lia|]. intros j _.
    specialize (H j). revert H. generalize m. generalize (body j).
    intros p; induction p as [a|o f IH|]; intros mm W; cbn [within] in *; auto.
    destruct W as [W1 W2]. split; auto. }
  revert W. generalize (N.of_nat (N.to_nat k) * m). generalize (for_exit (N.to_nat k) i body).
  intros p; induction p as [a|o f IH|]; intros mm W; cbn [within] in *; auto; [exact I|].
  destruct W as [W1 W2]. split; auto.
Qed.

Ltac wh f := unfold f.
(** Straight-line code. *)
Ltac wi1 :=
  lazymatch goal with
  | |- within (bind _ _) _ _ => eapply (within_bind _ _ _ _ any); [|intros ? _]
  | |- within (Ret _) _ any => apply within_ret
  | |- within (op1 _) _ _ => apply within_op
  | |- within (match ?x with (_, _) => _ end) _ _ => destruct x
  | |- within (match ?x with Some _ => _ | None => _ end) _ _ => eapply within_opt; [intros ?|]
  | |- within (if _ then _ else _) _ _ => eapply within_if
  | |- within (let _ := _ in _) _ _ => cbv zeta
  | |- within (load64 _) _ _ => apply within_op
  | |- within (store64 _ _) _ _ => apply within_op
  | |- within (load32 _) _ _ => apply within_op
  | |- within (store32 _ _) _ _ => apply within_op
  end.
Ltac wi := repeat wi1.

Lemma ones_mod k r : 1 <= k -> 1 <= r -> (2 ^ k - 1) mod 2 ^ r <> 0.
Proof.
  intros K R X. apply N.mod_divide in X; [|apply N.pow_nonzero; discriminate]. destruct X as [q X].
  assert (E1 : 2 ^ k = 2 * 2 ^ (k - 1)).
  { rewrite <- N.pow_succ_r'. f_equal. clear - K. lia. }
  assert (E2 : 2 ^ r = 2 * 2 ^ (r - 1)).
  { rewrite <- N.pow_succ_r'. f_equal. clear - R. lia. }
  rewrite E1, E2 in X. pose proof (pow2_pos (k - 1)) as P. revert X P.
  generalize (2 ^ (k - 1)), (2 ^ (r - 1)). clear. intros u w X P.
  replace (q * (2 * w)) with (2 * (q * w)) in X by ring. revert X. generalize (q * w). clear - P. intros. lia.
Qed.
Section Bounds.
Variables (G : globals) (pb rb : N).
Hypothesis g : geom G pb rb.
Local Notation n := (g_dram_region_count G).

(** Named bounds, so that they do not depend on the arguments. *)
Lemma w_tas r : within (test_and_set_dram_region_lock G r) 1 any.
Proof. apply (within_le _ (1 + 0)); [lia|]. unfold test_and_set_dram_region_lock. wi. Qed.
Lemma w_clr r : within (clear_dram_region_lock G r) 1 any.
Proof. apply (within_le _ (1 + 0)); [lia|]. unfold clear_dram_region_lock. wi. Qed.
Lemma w_owner r : within (read_dram_region_owner G r) 1 any.
Proof. apply within_op. Qed.
Lemma w_cur : within (current_enclave G) 2 any.
Proof. apply (within_le _ (1 + 0 + 1)); [lia|]. unfold current_enclave, current_core_info. wi. Qed.
Lemma w_setbit a b v : within (set_bitmap_bit a b v) 3 any.
Proof. apply (within_le _ (1 + (1 + 1 + 0))); [lia|]. unfold set_bitmap_bit. wi. Qed.
Lemma w_readbit a b : within (read_bitmap_bit a b) 1 any.
Proof. apply (within_le _ (1 + 0)); [lia|]. unfold read_bitmap_bit. wi. Qed.
Lemma w_setenc a b v : within (set_enclave_region_bitmap_bit G a b v) 6 any.
Proof. apply (within_le _ (3 + 3)); [lia|]. apply within_if; apply w_setbit. Qed.
Lemma w_readenc a b : within (read_enclave_region_bitmap_bit G a b) 2 any.
Proof. apply (within_le _ (1 + 1)); [lia|]. apply within_if; apply w_readbit. Qed.
Lemma w_valid id : within (is_valid_enclave_id G id) 1 any.
Proof. apply (within_le _ (1 + 0)); [lia|]. unfold is_valid_enclave_id. wi. Qed.
Lemma w_bad id : within (bad_enclave_id G id) 1 any.
Proof.
  apply (within_le _ (0 + (1 + 0))); [lia|]. unfold bad_enclave_id. eapply within_if; [apply within_ret|].
  eapply within_bind; [apply w_valid|intros; apply within_ret].
Qed.
Lemma w_virt a b : within (is_enclave_virtual_address a b) 2 any.
Proof. apply (within_le _ (1 + (1 + 0))); [lia|]. unfold is_enclave_virtual_address. wi. Qed.
Lemma w_unlock id : within (unlock_enclave id) 1 any.
Proof. apply (within_le _ (1 + 0)); [lia|]. unfold unlock_enclave. wi. Qed.
Lemma w_ub b c : within (ub_if b c) 1 any.
Proof.
  unfold ub_if. destruct b; [|apply (within_le _ 0); [lia|apply within_ret]].
  cbn. split; [lia|]. intros _. exact I.
Qed.
Lemma w_bzero a b bound : b / 8 <= bound -> within (bzero64 a b) (bound * 1) any.
Proof. intros H. unfold bzero64. apply within_for; [exact H|]. intros i. apply (within_le _ (1+0)); [lia|]. wi. Qed.
Lemma w_bcopy a b c bound : c / 8 <= bound -> within (bcopy64 a b c) (bound * 2) any.
Proof. intros H. unfold bcopy64. apply within_for; [exact H|]. intros i. apply (within_le _ (1+(1+0))); [lia|]. wi. Qed.

Ltac wl :=
  lazymatch goal with
  | |- within (test_and_set_dram_region_lock _ _) _ _ => apply w_tas
  | |- within (clear_dram_region_lock _ _) _ _ => apply w_clr
  | |- within (read_dram_region_owner _ _) _ _ => apply w_owner
  | |- within (current_enclave _) _ _ => apply w_cur
  | |- within (set_bitmap_bit _ _ _) _ _ => apply w_setbit
  | |- within (read_bitmap_bit _ _) _ _ => apply w_readbit
  | |- within (set_enclave_region_bitmap_bit _ _ _ _) _ _ => apply w_setenc
  | |- within (read_enclave_region_bitmap_bit _ _ _) _ _ => apply w_readenc
  | |- within (is_valid_enclave_id _ _) _ _ => apply w_valid
  | |- within (bad_enclave_id _ _) _ _ => apply w_bad
  | |- within (is_enclave_virtual_address _ _) _ _ => apply w_virt
  | |- within (unlock_enclave _) _ _ => apply w_unlock
  | |- within (ub_if _ _) _ _ => apply w_ub
  | |- _ => wi1
  end.
Ltac ws := repeat wl.
Ltac start := eexists; intros.

Lemma b_block : exists m, forall r, within (block_dram_region G r) m any.
Proof. start. unfold block_dram_region, dma_check. ws. Qed.
Lemma b_check : exists m, forall r, within (dram_region_check_ownership G r) m any.
Proof. start. unfold dram_region_check_ownership. ws. Qed.
Lemma b_state : exists m, forall r, within (dram_region_state G r) m any.
Proof. start. unfold dram_region_state. ws. Qed.
Lemma b_owner : exists m, forall r, within (dram_region_owner G r) m any.
Proof. start. unfold dram_region_owner. ws. Qed.
Lemma b_assign : exists m, forall r o, within (assign_dram_region G r o) m any.
Proof. start. unfold assign_dram_region. ws. Qed.
Lemma b_free : exists m, forall r, within (free_dram_region G r) m any.
Proof.
  start. unfold free_dram_region, stale_core. ws.
  eapply (within_exit (bound := g_core_count G)); [lia|]. intros. ws.
Qed.
Lemma b_flush : exists m, within (flush_cached_dram_regions G) m any.
Proof. start. unfold flush_cached_dram_regions, dram_region_tlb_flush. ws. Qed.
Lemma b_create_metadata : exists m, forall r, within (create_metadata_region G r) m any.
Proof.
  start. unfold create_metadata_region, init_metadata_region. ws.
  apply w_bzero. apply N.le_refl.
Qed.
Lemma b_load_page_table : exists m, forall a b c d e, within (load_page_table G test_arch a b c d e) m any.
Proof. start. unfold load_page_table. ws. Qed.
Lemma b_load_page : exists m, forall a b c d e, within (load_page G a b c d e) m any.
Proof. start. unfold load_page. ws. Qed.
Lemma b_enter : exists m, forall a b, within (enter_enclave G a b) m any.
Proof. start. unfold enter_enclave. ws. Qed.
Lemma b_copy : exists m, forall a b c d, within (copy_debug_enclave_page G a b c d) m any.
Proof. start. unfold copy_debug_enclave_page. ws; apply w_bcopy; apply N.le_refl. Qed.
Lemma b_exit : exists m, within (exit_enclave G) m any.
Proof. start. unfold exit_enclave, current_core_info. ws. Qed.
Lemma b_delete_thread : exists m, forall t, within (delete_thread G t) m any.
Proof. start. unfold delete_thread. ws. Qed.
Lemma w_thread_pages a : a mod 4096 = 0 -> a < g_dram_size G ->
  within (thread_pages 2 G a (wadd a thread_metadata_size) (dram_region_for G a)) 0 any.
Proof.
  intros A L. change thread_metadata_size with 552. pose proof (geo_D _ _ _ g) as DD.
  assert (P4 : a + 4096 <= W64) by (unfold W64 in *; lia).
  cbn [thread_pages]. rewrite (wadd_small a 552) by lia.
  destruct (N.ltb_spec a (a + 552)); [|lia].
  destruct (negb _); [exact I|].
  change page_size with 4096.
  destruct (N.eq_dec (a + 4096) W64) as [E|E].
  - assert (Z : wadd a 4096 = 0) by (unfold wadd; rewrite E; reflexivity). rewrite Z.
    destruct (N.ltb_spec 0 (a + 552)); [|lia].
    replace (dram_region_for G 0 =? dram_region_for G a) with false; [exact I|]. symmetry.
    apply N.eqb_neq. rewrite !(region_for_spec _ _ _ g). unfold region_of.
    rewrite N.div_0_l by apply pow2_nz. rewrite N.mod_0_l by apply pow2_nz.
    pose proof (geo_pb _ _ _ g) as GP. pose proof (geo_rb _ _ _ g) as GR.
    assert (Q : a / 2 ^ (12 + pb) = 2 ^ (52 - pb) - 1).
    { symmetry. apply (N.div_unique _ _ _ (2 ^ (12 + pb) - 4096)).
      - pose proof (pow2_pos (12 + pb)). lia.
      - rewrite N.mul_sub_distr_l. rewrite <- N.pow_add_r. replace (12 + pb + (52 - pb)) with 64 by lia.
        change (2 ^ 64) with W64. pose proof (pow2_le 12 (12 + pb) ltac:(lia)) as X.
        pose proof (pow2_le (12 + pb) 30 ltac:(lia)) as Y.
        change (2 ^ 12) with 4096 in X. change (2 ^ 30) with 1073741824 in Y. unfold W64 in *. lia. }
    rewrite Q. intros X. symmetry in X. revert X. apply ones_mod; lia.
  - rewrite wadd_small by lia. destruct (N.ltb_spec (a + 4096) (a + 552)); [lia|exact I].
Qed.
Lemma b_create_thread : exists m, forall t a, a < W64 -> within (create_thread G t a) m any.
Proof.
  exists 100. intros t a A. unfold create_thread.
  destruct (is_page_aligned a) eqn:PA; [|exact I].
  destruct (is_dram_address G a) eqn:DA; [|exact I]. cbn [negb].
  destruct (is_dram_address G (wsub (wadd a thread_metadata_size) 1)) eqn:DE; [|exact I]. cbn [negb].
  eapply within_le; [|ws; apply w_thread_pages]; [lia| |].
  - apply page_aligned_iff; auto.
  - unfold is_dram_address in DA. lia.
Qed.

Lemma b_sched : exists m, forall w b i, within (sha_schedule w b i) m any.
Proof. start. unfold sha_schedule. ws. Qed.
Lemma b_rounds : exists m, forall w b v, within (sha_rounds 64 w b 0 v) m any.
Proof.
  destruct b_sched as [m H]. exists (64 * m). change 64 with (N.of_nat 64).
  generalize 64%nat, 0. intros k. induction k as [|k IH]; intros i w b v; cbn [sha_rounds]; [exact I|].
  rewrite Nat2N.inj_succ, N.mul_succ_l, (N.add_comm (N.of_nat k * m) m).
  eapply (within_bind _ _ _ _ any); [apply H|]. intros a _. apply IH.
Qed.
Lemma b_extend : exists m, forall s b, within (extend_hash s b) m any.
Proof.
  destruct b_rounds as [m H]. start. unfold extend_hash, hash_add. ws. apply H.
Qed.
Lemma w_hash0 : exists m, forall a, within (init_hash a) m any.
Proof. start. unfold init_hash. ws; apply w_bzero; apply N.le_refl. Qed.
Lemma b_init_info : exists m, forall a b c d e, within (init_enclave_info a b c d e) m any.
Proof.
  destruct b_extend as [m H]. destruct w_hash0 as [m0 H0].
  start. unfold init_enclave_info, init_enclave_hash, extend_enclave_block. ws;
    lazymatch goal with
    | |- within (extend_hash _ _) _ _ => apply H
    | |- within (init_hash _) _ _ => apply H0
    | |- _ => apply w_bzero; apply N.le_refl end.
Qed.
Lemma b_thread_hash : exists m, forall a b c d e, within (extend_enclave_hash_with_thread a b c d e) m any.
Proof.
  destruct b_extend as [m H]. start. unfold extend_enclave_hash_with_thread, extend_enclave_block. ws. apply H.
Qed.
Lemma b_init : exists m, forall a, within (init_enclave G a) m any.
Proof.
  destruct b_extend as [m H]. start.
  unfold init_enclave, finalize_enclave_hash, finalize_hash, extend_enclave_block. ws; apply H.
Qed.
Lemma b_assign_pages : exists m, forall a c o t f, c <= 2 ^ 60 -> within (assign_metadata_pages G a c o t f) m any.
Proof.
  start. unfold assign_metadata_pages, metadata_page_info_for, dram_region_page_for. ws.
  - eapply (within_exit (bound := 2 ^ 60)); [exact H|]. intros. ws.
  - eapply (within_for (bound := 2 ^ 60)); [lia|]. intros. ws.
Qed.
Lemma b_lock_meta : exists m, forall a, within (lock_metadata_region_for G a) m any.
Proof. start. unfold lock_metadata_region_for. ws. Qed.
Lemma b_lock_enclave : exists m, forall a, within (lock_enclave G a) m any.
Proof.
  destruct b_lock_meta as [m H]. start.
  unfold lock_enclave, metadata_page_info_for, dram_region_page_for. ws. apply H.
Qed.
Lemma tp_small : thread_metadata_pages <= 2 ^ 60. Proof. vm_compute. discriminate. Qed.
Lemma b_create_enclave : exists m, forall a b c d e, within (create_enclave G a b c d e) m any.
Proof.
  destruct b_lock_meta as [m1 H1], b_assign_pages as [m2 H2], b_init_info as [m3 H3].
  start. unfold create_enclave, reserve_metadata_pages. ws.
  - apply H1.
  - apply H2. apply info_pages_small.
  - apply H3.
Qed.
Lemma b_assign_thread : exists m, forall a b, within (assign_thread G a b) m any.
Proof.
  destruct b_lock_meta as [m1 H1], b_assign_pages as [m2 H2], b_lock_enclave as [m3 H3].
  start. unfold assign_thread, reserve_metadata_pages. ws; lazymatch goal with
    | |- within (lock_metadata_region_for _ _) _ _ => apply H1
    | |- within (assign_metadata_pages _ _ _ _ _ _) _ _ => apply H2; apply tp_small
    | |- within (lock_enclave _ _) _ _ => apply H3
    | |- within (extend_enclave_hash_with_thread _ _ _ _ _) _ _ => fail
    end.
Qed.
Lemma b_load_thread : exists m, forall a b c d e f, within (load_thread G a b c d e f) m any.
Proof.
  destruct b_lock_meta as [m1 H1], b_assign_pages as [m2 H2], b_lock_enclave as [m3 H3], b_thread_hash as [m4 H4].
  start. unfold load_thread, reserve_metadata_pages. ws; lazymatch goal with
    | |- within (lock_metadata_region_for _ _) _ _ => apply H1
    | |- within (assign_metadata_pages _ _ _ _ _ _) _ _ => apply H2; apply tp_small
    | |- within (lock_enclave _ _) _ _ => apply H3
    | |- within (extend_enclave_hash_with_thread _ _ _ _ _) _ _ => apply H4
    end.
Qed.
Lemma b_accept_thread : exists m, forall a b, within (accept_thread G a b) m any.
Proof.
  destruct b_assign_pages as [m2 H2].
  start. unfold accept_thread, accept_metadata_pages. ws; first [apply H2; apply tp_small].
Qed.

Lemma S_pos : 1 <= g_dram_stripe_size G.
Proof. rewrite (geo_size _ _ _ g). pose proof (pow2_pos (12 + pb)). lia. Qed.
(** The addresses that the loop of set_dma_range visits do not wrap. *)
Definition steady (e a : N) : Prop :=
  e <= a \/ (e <= a + g_dram_stripe_size G /\ a + g_dram_stripe_size G < W64) \/
  exists i j, a = i * g_dram_stripe_size G /\ e = j * g_dram_stripe_size G.
Lemma steady_step e a : e <= g_dram_size G -> a < e -> steady e a ->
  a + g_dram_stripe_size G < W64 /\ steady e (a + g_dram_stripe_size G).
Proof.
  intros E L [X|[X|[i [j [X Y]]]]]; [lia|split; [lia|left; lia]|].
  pose proof (geo_D _ _ _ g) as DD. set (S := g_dram_stripe_size G) in *.
  assert (i < j) by nia. assert ((i + 1) * S <= j * S) by (apply N.mul_le_mono_r; lia).
  split; [lia|]. right. right. exists (i + 1), j. split; lia.
Qed.
Lemma steady_start base mask : base < W64 -> mask < W64 -> is_valid_range base mask = true ->
  base + mask < g_dram_size G -> loop_ends G pb rb (CSetDmaRange base mask) -> steady (base + mask + 1) base.
Proof.
  intros B M V D EN. apply range_iff in V; [|exact B|exact M]. destruct V as [k [K [-> A]]].
  pose proof (pow2_pos k) as KP. cbn [loop_ends] in EN.
  destruct EN as [X|[X|X]]; [| |lia].
  - destruct (N.le_gt_cases (2 ^ (12 + pb)) (2 ^ k)) as [L|L].
    + clear X. right. right. rewrite (geo_size _ _ _ g).
      assert (L' : 12 + pb <= k) by (apply (N.pow_le_mono_r_iff 2); [lia|exact L]).
      apply N.mod_divide in A; [|apply pow2_nz]. destruct A as [q ->].
      exists (q * 2 ^ (k - (12 + pb))), ((q + 1) * 2 ^ (k - (12 + pb))).
      assert (KE : 2 ^ k = 2 ^ (k - (12 + pb)) * 2 ^ (12 + pb)) by (rewrite <- N.pow_add_r; f_equal; lia).
      split; [rewrite KE at 1; lia|]. rewrite <- N.mul_assoc, <- KE. lia.
    + right. left. rewrite (geo_size _ _ _ g). split; [lia|exact X].
  - right. right. rewrite (geo_size _ _ _ g).
    assert (L' : 12 + pb <= k) by (apply (N.pow_le_mono_r_iff 2); [lia|lia]).
    apply N.mod_divide in A; [|apply pow2_nz]. destruct A as [q ->].
    exists (q * 2 ^ (k - (12 + pb))), ((q + 1) * 2 ^ (k - (12 + pb))).
    assert (KE : 2 ^ k = 2 ^ (k - (12 + pb)) * 2 ^ (12 + pb)) by (rewrite <- N.pow_add_r; f_equal; lia).
    split; [rewrite KE at 1; lia|]. rewrite <- N.mul_assoc, <- KE. lia.
Qed.
Lemma w_dma e : e <= g_dram_size G ->
  forall fuel a b, steady e a -> e <= a + N.of_nat fuel * g_dram_stripe_size G ->
  within (dma_stripes fuel G a e b) (N.of_nat fuel * 3) any.
Proof.
  intros E. pose proof S_pos as SP.
  induction fuel as [|k IH]; intros a b ST F; cbn [dma_stripes].
  - destruct (N.ltb_spec a e); [lia|exact I].
  - destruct (N.ltb_spec a e) as [L|L]; [|exact I].
    destruct (steady_step e a E L ST) as [NW ST'].
    rewrite Nat2N.inj_succ. eapply (within_le _ ((1 + 0) + (0 + (1 + ((1 + 0) + N.of_nat k * 3))))); [lia|].
    eapply (within_bind _ _ _ _ any); [apply within_if; [apply w_tas|apply within_ret]|intros t _].
    apply within_if; [apply within_ret|].
    eapply (within_bind _ _ _ _ any); [apply within_op|intros o _].
    eapply (within_bind _ _ _ _ any); [apply within_if; [apply w_clr|apply within_ret]|intros u _].
    apply IH; rewrite wadd_small by lia; [exact ST'|]. rewrite Nat2N.inj_succ in F. lia.
Qed.
Lemma b_set_dma : exists m, forall a b, a < W64 -> b < W64 -> loop_ends G pb rb (CSetDmaRange a b) ->
  within (set_dma_range G a b) m any.
Proof.
  exists (1 + ((g_dram_size G + n + 1) * 3 + 10)). intros base mask B M EN. unfold set_dma_range.
  destruct (is_valid_range base mask) eqn:VR; [|exact I]. cbn [negb].
  destruct (range_last base mask B M VR) as [RL RB]. rewrite RL.
  destruct (is_dram_address G (base + mask)) eqn:DA; [|exact I]. cbn [negb].
  unfold is_dram_address in DA. pose proof S_pos as SP. pose proof (geo_D _ _ _ g) as DD.
  pose proof (steady_start base mask B M VR ltac:(lia) EN) as SS.
  eapply (within_bind _ _ _ _ any); [apply w_tas|intros t _]. destruct t; [exact I|].
  rewrite wadd_small by lia.
  replace (base + mask + 1 - base) with (mask + 1) by lia.
  set (fuel := S (N.to_nat ((mask + 1) / g_dram_stripe_size G + n))).
  assert (FU : N.of_nat fuel = (mask + 1) / g_dram_stripe_size G + n + 1) by (unfold fuel; lia).
  assert (QL : (mask + 1) / g_dram_stripe_size G <= mask + 1).
  { apply N.div_le_upper_bound; [lia|]. nia. }
  eapply (within_bind _ _ _ _ any).
  - eapply within_le; [|apply (w_dma (base + mask + 1)); [lia|exact SS|]]; [rewrite FU|].
    + lia.
    + rewrite FU. pose proof (N.div_mod (mask + 1) (g_dram_stripe_size G)).
      pose proof (N.mod_lt (mask + 1) (g_dram_stripe_size G)). generalize n. intros n0. nia.
  - intros r _. eapply within_le; [|ws]. lia.
Qed.

(** Wiping a region. *)
Lemma w_bzero_stripes (r : N) : g_dram_size G + 2 ^ (12 + pb + rb) <= W64 -> forall fuel stripe,
  g_dram_size G <= stripe + N.of_nat fuel * 2 ^ (12 + pb + rb) ->
  within (bzero_stripes fuel G (2 ^ (12 + pb + rb)) r stripe)
    (N.of_nat fuel * (g_dram_stripe_size G / 8 * 1)) any.
Proof.
  intros HD. pose proof (pow2_pos (12 + pb + rb)) as TP.
  induction fuel as [|k IH]; intros a F; cbn [bzero_stripes].
  - destruct (N.ltb_spec a (g_dram_size G)); [lia|exact I].
  - destruct (N.ltb_spec a (g_dram_size G)) as [L|L]; [|exact I].
    rewrite Nat2N.inj_succ, N.mul_succ_l, (N.add_comm (N.of_nat k * _)).
    eapply (within_bind _ _ _ _ any); [apply w_bzero, N.le_refl|intros u _].
    apply IH. rewrite wadd_small by lia. rewrite Nat2N.inj_succ in F. lia.
Qed.
Lemma b_bzero_region : g_dram_size G + 2 ^ (12 + pb + rb) <= W64 -> exists m, forall r, within (bzero_dram_region G r) m any.
Proof.
  intros HD. pose proof (pow2_pos (12 + pb + rb)) as TP.
  assert (ST : wshl (g_dram_region_count G) (g_dram_region_shift G) = 2 ^ (12 + pb + rb)).
  { pose proof (geo_pb _ _ _ g). pose proof (geo_rb _ _ _ g).
    rewrite (geo_count _ _ _ g), (geo_rs _ _ _ g).
    assert (X : 2 ^ rb * 2 ^ (12 + pb) = 2 ^ (12 + pb + rb)).
    { rewrite <- N.pow_add_r. f_equal. lia. }
    unfold wshl. rewrite (N.mod_small (12 + pb) 64) by lia.
    rewrite N.shiftl_mul_pow2, X. apply N.mod_small.
    apply N.le_lt_trans with (2 ^ 60); [apply pow2_le; lia|reflexivity]. }
  eexists. intros r. unfold bzero_dram_region. rewrite ST. apply w_bzero_stripes; [exact HD|].
  rewrite Nat2N.inj_succ, N2Nat.id.
  pose proof (N.div_mod (g_dram_size G) (2 ^ (12 + pb + rb))).
  pose proof (N.mod_lt (g_dram_size G) (2 ^ (12 + pb + rb))). nia.
Qed.
Lemma b_unlock_regions : exists m, forall a r k, k <= n -> within (unlock_enclave_regions G a r k) m any.
Proof.
  start. unfold unlock_enclave_regions. eapply (within_for (bound := n)); [exact H|]. intros. ws.
Qed.
Lemma b_delete : exists m, forall a, loop_ends G pb rb (CDeleteEnclave a) -> within (delete_enclave G a) m any.
Proof.
  cbn [loop_ends]. change (2 ^ 64) with W64.
  destruct (N.le_gt_cases (g_dram_size G + 2 ^ (12 + pb + rb)) W64) as [HD|HD]; [|exists 0; intros a X; lia].
  destruct (b_bzero_region HD) as [m1 H1], b_unlock_regions as [m2 H2].
  start. unfold delete_enclave.
  wl; [apply w_tas|]. wl; [wl|]. wl; [apply w_bad|]. wl; [ws|]. wl; [wl|]. wl; [ws|]. cbv zeta.
  eapply (within_bind _ _ _ _ (fun x => forall i, x = Some i -> i < n)).
  - eapply within_le; [|apply (within_for_exit (1 + (1 + 0)) (fun i => i < n) n)].
    + rewrite N2Nat.id. apply N.le_refl.
    + rewrite N2Nat.id. lia.
    + intros j J. destruct (j =? _); [intros i X; discriminate|].
      eapply (within_bind _ _ _ _ any); [apply w_readbit|intros b _].
      destruct b; [|intros i X; discriminate].
      eapply (within_bind _ _ _ _ any); [apply w_tas|intros t _].
      destruct t; intros i X; [inversion X; subst; exact J|discriminate].
  - intros x X. eapply within_opt2.
    + intros i E. specialize (X i E). wl; [apply H2; lia|ws].
    + wl; [eapply (within_for (bound := n)); [apply N.le_refl|intros; ws; apply H1]|].
      wl; [apply H2; apply N.le_refl|ws].
Qed.

Lemma calls_bounded : exists B, forall k, call_args_ok k -> loop_ends G pb rb k -> within (call_prog G k) B any.
Proof.
  destruct b_block as [m1 H1], b_check as [m2 H2], b_state as [m3 H3], b_owner as [m4 H4],
    b_set_dma as [m5 H5], b_create_metadata as [m6 H6], b_assign as [m7 H7], b_free as [m8 H8],
    b_flush as [m9 H9], b_create_enclave as [m10 H10], b_load_page_table as [m11 H11],
    b_load_page as [m12 H12], b_load_thread as [m13 H13], b_assign_thread as [m14 H14],
    b_init as [m15 H15], b_enter as [m16 H16], b_delete as [m17 H17], b_copy as [m18 H18],
    b_accept_thread as [m19 H19], b_create_thread as [m20 H20], b_delete_thread as [m21 H21],
    b_exit as [m22 H22].
  exists (m1 + m2 + m3 + m4 + m5 + m6 + m7 + m8 + m9 + m10 + m11 + m12 + m13 + m14 + m15 + m16 +
     m17 + m18 + m19 + m20 + m21 + m22).
  intros k A EN. destruct k; cbn [call_prog call_args_ok] in *.
  - apply (within_le _ m1); [lia|apply H1].
  - apply (within_le _ m2); [lia|apply H2].
  - apply (within_le _ m3); [lia|apply H3].
  - apply (within_le _ m4); [lia|apply H4].
  - apply (within_le _ m5); [lia|apply H5; tauto].
  - apply (within_le _ m6); [lia|apply H6].
  - apply (within_le _ m7); [lia|apply H7].
  - apply (within_le _ m8); [lia|apply H8].
  - apply (within_le _ m9); [lia|apply H9].
  - apply (within_le _ m10); [lia|apply H10].
  - apply (within_le _ m11); [lia|apply H11].
  - apply (within_le _ m12); [lia|apply H12].
  - apply (within_le _ m13); [lia|apply H13].
  - apply (within_le _ m14); [lia|apply H14].
  - apply (within_le _ m15); [lia|apply H15].
  - apply (within_le _ m16); [lia|apply H16].
  - apply (within_le _ m17); [lia|apply H17; exact EN].
  - apply (within_le _ m18); [lia|apply H18].
  - apply (within_le _ m19); [lia|apply H19].
  - apply (within_le _ m20); [lia|apply H20; tauto].
  - apply (within_le _ m21); [lia|apply H21].
  - apply (within_le _ m22); [lia|apply H22].
Qed.
End Bounds.
