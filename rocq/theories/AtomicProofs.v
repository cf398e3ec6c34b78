(** * Paths through the region calls, for the operations a core executes while
    other cores run. *)
From Coq Require Import NArith ZArith Lia Bool List.
From Coq Require Import ZifyBool ZifyNat ZifyN.
From Verif Require Import Word Machine ModelBare ModelHash ModelInl ModelRegions
  ModelMetadata ModelEnclave ModelBoot ModelApi Lib BareProofs BootProofs SpecGeometry
  GeomProofs Trace SpecMonitor SpecHistory ViewProofs SeqProofs SeqCalls SeqCalls2 SeqCalls3
  HistoryProofs ConcProofs ConcCalls ConcCalls2 ConcGlobal SpecConcurrent SpecAtomic.
Import ListNotations.
Open Scope N_scope.
Ltac Zify.zify_post_hook ::= Z.div_mod_to_equations.

Section A.
Variables (G : globals) (pb rb : N) (g : geom G pb rb).
Variables (c : N) (HC : c < g_core_count G).
Notation n := (g_dram_region_count G).

(** Values that operations may give in reachable configurations. *)
Definition may_give (o : op) (v : N) : Prop :=
  (forall r, r < n -> o = OLd 8 (owner_addr G r) -> v < 4 /\ (r = 0 -> v = 0)) /\
  (o = OCore -> v = c) /\
  (o = OLd 8 (g_core G + 32 * c) -> v = 0).

(** [Q] holds of every finished path. *)
Fixpoint paths {A} (p : prog A) (l : list (op * N)) (Q : list (op * N) -> A -> Prop) : Prop :=
  match p with
  | Ret a => Q l a
  | Do o k => forall v, may_give o v -> paths (k v) ((o, v) :: l) Q
  | Stop => True
  end.
Lemma paths_weaken {A} (p : prog A) : forall l (Q Q' : list (op * N) -> A -> Prop),
  (forall l a, Q l a -> Q' l a) -> paths p l Q -> paths p l Q'.
Proof. induction p as [a|o k IH|]; intros l Q Q' H; cbn; eauto. Qed.
Lemma paths_bind {A B} (p : prog A) (f : A -> prog B) : forall l Q,
  paths p l (fun l a => paths (f a) l Q) -> paths (bind p f) l Q.
Proof. induction p as [a|o k IH|]; intros l Q; cbn; auto. Qed.

Lemma raddr_off r off : r < n -> off < 40 -> wadd (region_addr G r) off = g_dram_region G + 40 * r + off.
Proof.
  intros R O. pose proof (layout _ _ _ g) as (L1 & L2 & L3 & L4 & L5 & L6 & L7 & L8).
  change (2 ^ 30) with 1073741824 in L8. unfold region_addr, dram_region_info_size.
  rewrite (wmul_small 40 r), (wadd_small (g_dram_region G)), wadd_small by (unfold W64; lia). lia.
Qed.
Lemma owner_raddr r : r < n -> wadd (region_addr G r) dri_owner = owner_addr G r.
Proof. intros R. rewrite raddr_off by (auto; reflexivity). reflexivity. Qed.
Lemma lock_raddr r : r < n -> wadd (region_addr G r) dri_lock = lock_addr G r.
Proof. intros R. rewrite raddr_off by (auto; reflexivity). unfold lock_addr, dri_lock. lia. Qed.

(** Stores that hit no owner field. *)
Lemma stores_other r off v x l : r < n -> off < 40 -> off <> 8 ->
  owner_stores G ((OSt 8 (g_dram_region G + 40 * r + off) v, x) :: l) = owner_stores G l.
Proof.
  intros R O N8. unfold owner_stores. cbn [flat_map fst].
  replace (g_dram_region G + 40 * r + off - g_dram_region G) with (off + r * 40) by lia.
  rewrite N.mod_add, N.mod_small by lia.
  destruct (N.eqb_spec off 8); [congruence|]. rewrite andb_false_r. reflexivity.
Qed.
Lemma stores_owner r v x l : r < n ->
  owner_stores G ((OSt 8 (owner_addr G r) v, x) :: l) = (r, v) :: owner_stores G l.
Proof.
  intros R. unfold owner_stores, owner_addr. cbn [flat_map fst].
  replace (g_dram_region G + 40 * r + 8 - g_dram_region G) with (8 + r * 40) by lia.
  rewrite N.mod_add, N.div_add by lia. change (8 mod 40) with 8. change (8 / 40) with 0.
  rewrite N.add_0_l. replace (g_dram_region G <=? g_dram_region G + 40 * r + 8) with true by lia.
  replace (r <? n) with true by lia. reflexivity.
Qed.
Lemma stores_high k a v x l : g_dram_regions G <= a ->
  owner_stores G ((OSt k a v, x) :: l) = owner_stores G l.
Proof.
  intros A. pose proof (layout _ _ _ g) as (L1 & L2 & L3 & L4 & L5 & L6 & L7 & L8).
  unfold owner_stores. cbn [flat_map fst].
  replace ((a - g_dram_region G) / 40 <? n) with false by lia.
  rewrite andb_false_r. reflexivity.
Qed.
Lemma stores_op o x l : (forall k a v, o <> OSt k a v) ->
  owner_stores G ((o, x) :: l) = owner_stores G l.
Proof. intros H. destruct o; try reflexivity. exfalso. eapply H. reflexivity. Qed.

(** ** Sub-programs *)
Definition calm (l : list (op * N)) : Prop := Forall (fun e => lock_only G (fst e)) l.
Lemma calm_stores l : calm l -> owner_stores G l = [].
Proof.
  intros C. induction C as [|e l H C IH]; [reflexivity|].
  destruct e as [o v]. cbn [fst] in H. rewrite stores_op; [exact IH|].
  intros k a w ->. exact H.
Qed.
Lemma calm_cons o v l : lock_only G o -> calm l -> calm ((o, v) :: l).
Proof. intros. constructor; auto. Qed.
Lemma p_tas r l (Q : list (op * N) -> bool -> Prop) : r < n ->
  (forall v, v <> 0 -> Q ((OTas (lock_addr G r), v) :: l) true) ->
  Q ((OTas (lock_addr G r), 0) :: l) false ->
  paths (test_and_set_dram_region_lock G r) l Q.
Proof.
  intros R H1 H2. unfold test_and_set_dram_region_lock. rewrite lock_raddr by exact R.
  cbn. intros v _. destruct (N.eqb_spec v 0) as [->|]; cbn; auto.
Qed.
Lemma p_clr r l (Q : list (op * N) -> unit -> Prop) : r < n ->
  (forall v, Q ((OClr (lock_addr G r), v) :: l) tt) -> paths (clear_dram_region_lock G r) l Q.
Proof.
  intros R H. unfold clear_dram_region_lock. rewrite lock_raddr by exact R. cbn. auto.
Qed.
Lemma p_owner r l (Q : list (op * N) -> N -> Prop) : r < n ->
  (forall v, v < 4 -> (r = 0 -> v = 0) -> Q ((OLd 8 (owner_addr G r), v) :: l) v) ->
  paths (load64 (wadd (region_addr G r) dri_owner)) l Q.
Proof.
  intros R H. rewrite owner_raddr by exact R. cbn. intros v M.
  destruct M as [M _]. destruct (M r R eq_refl). auto.
Qed.
Lemma p_op o l (Q : list (op * N) -> N -> Prop) : (forall v, Q ((o, v) :: l) v) -> paths (op1 o) l Q.
Proof. cbn. auto. Qed.
Lemma p_ret {A} (a : A) l (Q : list (op * N) -> A -> Prop) : Q l a -> paths (Ret a) l Q.
Proof. auto. Qed.
(** Operations that store to no owner field keep the list of owner stores. *)
Lemma p_uses {A} (P : op -> Prop) (p : prog A) : forall l0 l (Q : list (op * N) -> A -> Prop),
  (forall o v l, P o -> owner_stores G ((o, v) :: l) = owner_stores G l) ->
  uses P p -> owner_stores G l = l0 ->
  (forall l a, owner_stores G l = l0 -> Q l a) -> paths p l Q.
Proof.
  induction p as [a|o k IH|]; intros l0 l Q HP U E H; cbn [paths uses] in *; auto.
  destruct U as [U1 U2]. intros v _. apply (IH v l0); auto. rewrite (HP o v l U1). exact E.
Qed.
Lemma high_keeps o v l : high_op G o -> owner_stores G ((o, v) :: l) = owner_stores G l.
Proof.
  intros H. destruct o; try reflexivity. apply stores_high.
  pose proof (layout _ _ _ g) as (L1 & L2 & L3 & L4 & L5 & L6 & L7 & L8). cbn in H. lia.
Qed.
(** The operations on the OS bitmap. *)
Definition high_or_bitmap (o : op) : Prop :=
  match o with OSt _ a _ => g_dram_regions G <= a | _ => True end.
Lemma bitmap_keeps o v l : high_or_bitmap o -> owner_stores G ((o, v) :: l) = owner_stores G l.
Proof. intros H. destruct o; try reflexivity. apply stores_high. exact H. Qed.
Lemma uses_set_bit r b : r < n -> uses high_or_bitmap (set_enclave_region_bitmap_bit G 0 r b).
Proof.
  intros R. pose proof (layout _ _ _ g) as (L1 & L2 & L3 & L4 & L5 & L6 & L7 & L8).
  change (2 ^ 30) with 1073741824 in L8.
  unfold set_enclave_region_bitmap_bit. change (0 =? null_enclave_id) with true. cbv iota.
  unfold set_bitmap_bit. rewrite wmul_small, wadd_small by (unfold W64; lia).
  cbn. destruct b; cbn; repeat split; auto; lia.
Qed.
Lemma calm_uses {A} (p : prog A) : forall l (Q : list (op * N) -> A -> Prop),
  calm l -> uses (lock_only G) p -> (forall l a, calm l -> Q l a) -> paths p l Q.
Proof.
  induction p as [a|o k IH|]; intros l Q C U H; cbn in *; auto.
  destruct U as [U1 U2]. intros v _. apply IH; auto. constructor; auto.
Qed.

(** ** The four calls *)
Definition once (r w : N) (l : list (op * N)) (v : N) : Prop :=
  (v = monitor_ok -> owner_stores G l = [(r, w)]) /\
  (v <> monitor_ok -> calm l) /\
  (v = monitor_concurrent_call -> found_locked G l).

Ltac calmer := repeat (apply calm_cons; [first [exact I | eexists; split; [|reflexivity]; assumption]|]); try (apply Forall_nil).
Ltac pb L := apply paths_bind, L.
Ltac fin :=
  split; [|split]; intros X; try (vm_compute in X; discriminate X); try (exfalso; apply X; reflexivity); clear X.
Lemma in_locked r v l : r < n -> v <> 0 -> In (OTas (lock_addr G r), v) l -> found_locked G l.
Proof. intros. exists r, v. auto. Qed.
Ltac locked V := eapply in_locked; [|exact V|cbn; eauto 10]; assumption.

Lemma p_cur l (Q : list (op * N) -> N -> Prop) :
  Q ((OLd 8 (g_core G + 32 * c), 0) :: (OCore, c) :: l) 0 ->
  paths (current_enclave G) l Q.
Proof.
  intros H. cbn. intros v [_ [M _]]. specialize (M eq_refl). subst v.
  change (wadd (core_addr G c) ci_enclave_id) with (wadd (core_addr G c) 0).
  rewrite (caddr G pb rb g) by (auto; reflexivity). rewrite N.add_0_r.
  intros v [_ [_ M]]. specialize (M eq_refl). subst v. exact H.
Qed.

Lemma block_once r : paths (block_dram_region G r) [] (once r 1).
Proof.
  pose proof (layout _ _ _ g) as (L1 & L2 & L3 & L4 & L5 & L6 & L7 & L8).
  unfold block_dram_region, is_dynamic_dram_region, is_valid_dram_region.
  destruct (N.ltb_spec r n) as [R|R]; [|rewrite andb_false_r; apply p_ret; fin; constructor].
  rewrite andb_true_r. destruct (N.eqb_spec r 0) as [Z|Z]; cbn [negb]; [apply p_ret; fin; constructor|].
  pb p_tas; auto; [intros v V; apply p_ret; fin; [calmer|locked V]|].
  unfold read_dram_region_owner. pb p_owner; auto. intros ow O4 _.
  pb p_cur.
  destruct (N.eqb_spec ow 0); cbn [negb]; [|pb p_clr; auto; intros; apply p_ret; fin; calmer].
  subst ow. change (0 =? null_enclave_id) with true. cbn [negb andb bind].
  assert (Q0 : dram_region_for G 0 = 0) by apply (region_for_0 G pb rb g). rewrite Q0.
  assert (N0 : 0 < n) by lia.
  pb p_tas; auto; [intros v V; pb p_clr; auto; intros; apply p_ret; fin; [calmer|locked V]|].
  unfold dma_check. change (0 =? 0) with true. cbv iota.
  apply paths_bind. pb p_op. intros ds. pb p_op. intros de. apply p_ret.
  destruct (dma_range_crossed _ _ _ _);
    [pb p_clr; auto; intros; pb p_clr; auto; intros; apply p_ret; fin; calmer|].
  match goal with |- paths _ ?x _ => set (l := x) end.
  assert (C1 : owner_stores G l = []) by (apply calm_stores; unfold l; calmer). clearbody l.
  rewrite !raddr_off by (auto; reflexivity).
  unfold store64. pb p_op. intros w1. pb p_op. intros w2. pb p_op. intros w3. pb p_op. intros w4.
  apply paths_bind.
  eapply (p_uses high_or_bitmap); [apply bitmap_keeps|apply uses_set_bit; auto| |].
  { rewrite stores_other by (auto; reflexivity || discriminate).
    rewrite stores_op by discriminate.
    change (g_dram_region G + 40 * r + dri_owner) with (owner_addr G r).
    rewrite stores_owner by auto. rewrite stores_other by (auto; reflexivity || discriminate).
    rewrite C1. reflexivity. }
  intros l2 [] E2. pb p_op. intros w5. pb p_clr; auto. intros w6. pb p_clr; auto. intros w7.
  apply p_ret. fin. rewrite !stores_op by discriminate. exact E2.
Qed.

Lemma stale_calm b : uses (lock_only G) (stale_core G b).
Proof.
  unfold stale_core. apply uses_for_exit. intros i. cbn. split; [exact I|].
  intros v. destruct (v <? b); exact I.
Qed.
Lemma free_once r : paths (free_dram_region G r) [] (once r 3).
Proof.
  unfold free_dram_region, is_valid_dram_region.
  destruct (N.ltb_spec r n) as [R|R]; cbn [negb]; [|apply p_ret; fin; constructor].
  pb p_tas; auto; [intros v V; apply p_ret; fin; [calmer|locked V]|].
  unfold read_dram_region_owner. pb p_owner; auto. intros ow O4 _.
  apply paths_bind. rewrite !raddr_off by (auto; reflexivity).
  destruct (ow =? blocked_enclave_id).
  - unfold load64. pb p_op. intros b. apply paths_bind.
    apply calm_uses; [calmer|apply stale_calm|]. intros l [[]|] C.
    + apply p_ret. pb p_clr; auto. intros. apply p_ret. fin. calmer. exact C.
    + unfold store64. pb p_op. intros. apply p_ret. pb p_clr; auto. intros. apply p_ret. fin.
      rewrite stores_op by discriminate. change (g_dram_region G + 40 * r + dri_owner) with (owner_addr G r).
      rewrite stores_owner, calm_stores by auto. reflexivity.
  - destruct (ow =? metadata_enclave_id).
    + unfold load64. pb p_op. intros b. destruct (b =? 0).
      * unfold store64. pb p_op. intros. apply p_ret. pb p_clr; auto. intros. apply p_ret. fin.
        rewrite stores_op by discriminate. change (g_dram_region G + 40 * r + dri_owner) with (owner_addr G r).
        rewrite stores_owner, calm_stores by (auto; calmer). reflexivity.
      * apply p_ret. pb p_clr; auto. intros. apply p_ret. fin. calmer.
    + apply p_ret. pb p_clr; auto. intros. apply p_ret. fin. calmer.
Qed.
Lemma create_once r : paths (create_metadata_region G r) [] (once r 2).
Proof.
  unfold create_metadata_region, is_valid_dram_region.
  destruct (N.ltb_spec r n) as [R|R]; cbn [negb]; [|apply p_ret; fin; constructor].
  pb p_tas; auto; [intros v V; apply p_ret; fin; [calmer|locked V]|].
  unfold read_dram_region_owner. pb p_owner; auto. intros ow O4 O0.
  change free_enclave_id with 3.
  destruct (N.eqb_spec ow 3) as [O|O]; cbn [negb]; [|pb p_clr; auto; intros; apply p_ret; fin; calmer].
  assert (RZ : r <> 0) by (intros X; specialize (O0 X); lia).
  unfold init_metadata_region. rewrite !raddr_off by (auto; reflexivity).
  apply paths_bind. unfold store64. pb p_op. intros w1. pb p_op. intros w2.
  eapply (p_uses (high_op G)); [apply high_keeps| | |].
  - destruct (map_bytes G pb rb g) as [MB1 MB2]. rewrite MB1.
    rewrite (region_start_val G pb rb g) by lia.
    pose proof (stripe_high G pb rb g r 0 ltac:(lia)) as SH.
    apply (uses_bzero G); auto.
    assert (stripe_start pb rb r 0 + g_dram_stripe_size G <= W64); [|lia].
    rewrite (geo_size _ _ _ g). unfold stripe_start. rewrite N.mul_0_l, N.add_0_l.
    assert (X : (r + 1) * 2 ^ (12 + pb) <= 2 ^ rb * 2 ^ (12 + pb)).
    { apply N.mul_le_mono_r. rewrite (n_val G pb rb g) in R. lia. }
    rewrite <- pow2_add in X.
    pose proof (p60 (rb + (12 + pb))). pose proof (geo_pb _ _ _ g). pose proof (geo_rb _ _ _ g).
    unfold W64. lia.
  - rewrite stores_other by (auto; reflexivity || discriminate).
    change (g_dram_region G + 40 * r + dri_owner) with (owner_addr G r).
    rewrite stores_owner, calm_stores by (auto; calmer). reflexivity.
  - intros l [] E. pb p_clr; auto. intros. apply p_ret. fin. rewrite stores_op by discriminate. exact E.
Qed.
Lemma assign_once r e : paths (assign_dram_region G r e) [] (once r e).
Proof.
  pose proof (layout _ _ _ g) as (L1 & L2 & L3 & L4 & L5 & L6 & L7 & L8).
  unfold assign_dram_region. unfold is_valid_dram_region.
  destruct (N.ltb_spec r n) as [R|R]; cbn [negb]; [|apply p_ret; fin; constructor].
  pb p_tas; auto; [intros v V; apply p_ret; fin; [calmer|locked V]|].
  unfold read_dram_region_owner. pb p_owner; auto. intros ow O4 O0.
  destruct (ow =? free_enclave_id); cbn [negb]; [|pb p_clr; auto; intros; apply p_ret; fin; calmer].
  set (q := dram_region_for G e). assert (Q : q < n) by apply (region_lt G pb rb g).
  pb p_tas; auto; [intros v V; pb p_clr; auto; intros; apply p_ret; fin; [calmer|locked V]|].
  unfold is_valid_enclave_id. apply paths_bind.
  assert (CL : clamped_dram_region_for G e < n) by apply (clamped_lt G pb rb g).
  pb p_owner; auto. intros ow2 O5 O6. apply p_ret. apply paths_bind.
  destruct (N.eqb_spec ow2 e) as [->|NE].
  - assert (E0 : e = 0).
    { destruct (N.eq_dec e 0) as [|NZ]; [assumption|]. exfalso. apply NZ, O6.
      unfold clamped_dram_region_for.
      rewrite (small_region G pb rb g) by lia. destruct (is_dram_address G e); reflexivity. }
    subst e. rewrite owner_raddr by auto. unfold store64. pb p_op. intros w1. apply paths_bind.
    eapply (p_uses high_or_bitmap); [apply bitmap_keeps|apply uses_set_bit; auto| |].
    { rewrite stores_owner, calm_stores by (auto; calmer). reflexivity. }
    intros l [] E. change (0 =? 0) with true. cbv iota. apply paths_bind. pb p_op. intros w2.
    apply p_ret, p_ret. pb p_clr; auto. intros. pb p_clr; auto. intros. apply p_ret. fin.
    rewrite !stores_op by discriminate. exact E.
  - apply p_ret. pb p_clr; auto. intros. pb p_clr; auto. intros. apply p_ret. fin. calmer.
Qed.

Lemma paths_call k r w : establishes k = Some (r, w) -> paths (call_prog G k) [] (once r w).
Proof.
  destruct k; cbn [establishes call_prog]; intros E; inversion E; subst.
  - apply block_once.
  - apply create_once.
  - apply assign_once.
  - apply free_once.
Qed.
End A.
