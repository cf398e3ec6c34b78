(** * Property C56 (and a refutation for C55): what a region call does, as a whole,
    while other cores run. *)
From Coq Require Import NArith ZArith Lia Bool List.
From Coq Require Import ZifyBool ZifyNat ZifyN.
From Verif Require Import Word Machine ModelBare ModelHash ModelInl ModelRegions
  ModelMetadata ModelEnclave ModelBoot ModelApi Lib BareProofs BootProofs SpecGeometry
  GeomProofs Trace SpecMonitor SpecHistory ViewProofs SeqProofs SeqCalls SeqCalls2 SeqCalls3
  HistoryProofs P_Boot P_Regions P_Enclave ConcProofs ConcCalls ConcCalls2 ConcGlobal
  AtomicProofs P_Conc SpecConcurrent SpecAtomic.
Import ListNotations.
Open Scope N_scope.
Ltac Zify.zify_post_hook ::= Z.div_mod_to_equations.

Lemma reach_paths P top pb rb G s0 x : started P top pb rb G s0 ->
  creach G pb rb (safe_call G) false s0 x -> forall c k p l r w,
  c < g_core_count G -> cf_task x c = Running k p l -> establishes k = Some (r, w) ->
  paths G c p l (once G r w).
Proof.
  intros ST R. destruct (started_geom _ _ _ _ _ _ ST) as [g _].
  induction R as [|x y R IH SP]; intros c k p l r w C T E; [discriminate|].
  destruct (reach_good _ _ _ _ _ _ _ _ _ ST (all_safe G) R) as [_ [q [hd GD]]].
  destruct SP as [s t h c1 k1 C1 T1 AR AL|s t h c1 k1 o f i s' v C1 T1 SP NW
    |s t h c1 k1 v i C1 T1|s t h c1 a v C1 T1 A CA|s t h a v A DA TP];
    cbn [cf_state cf_task cf_held] in *; try (eapply IH; eassumption);
    unfold upd in T; destruct (N.eqb_spec c c1) as [->|NE]; try (eapply IH; eassumption).
  - inversion T; subst. apply (paths_call G pb rb g c1 C); exact E.
  - inversion T; subst. specialize (IH c1 k _ _ r w C T1 E). cbn [paths] in IH. apply IH.
    destruct GD as [V I CO HE TA]. cbn [cf_state] in V. split; [|split].
    + intros r' RL ->. pose proof (f_equal snd SP) as EV. cbn -[ld] in EV. subst v. unfold owner_addr.
      rewrite (v_owner _ _ _ V r' RL). split; [apply (i_owner _ _ _ _ I); exact RL|].
      intros ->. apply (i_owner0 _ _ _ _ I).
    + intros ->. pose proof (f_equal snd SP) as EV. cbn in EV. congruence.
    + intros ->. pose proof (f_equal snd SP) as EV. cbn -[ld] in EV. subst v.
      rewrite (v_encl _ _ _ V c1 C). apply (i_encl _ _ _ _ I). exact C.
  - discriminate.
Qed.

(** ** C56 *)
(** A region call about to report success has stored to an owner field exactly
    once: the new owner of its region. *)
Theorem C56_success_once_partial : forall P top pb rb G s0 x c k l r w,
  started P top pb rb G s0 -> creach G pb rb (safe_call G) false s0 x ->
  c < g_core_count G -> cf_task x c = Running k (Ret monitor_ok) l ->
  establishes k = Some (r, w) -> owner_stores G l = [(r, w)].
Proof.
  intros P top pb rb G s0 x c k l r w ST R C T E.
  pose proof (reach_paths _ _ _ _ _ _ _ ST R c k _ l r w C T E) as [H _]. auto.
Qed.
(** That store was a documented change of the owner at that instant, made under
    the lock of the region. *)
Theorem C56_store_documented_partial : forall P top pb rb G s0 x c k m r w f l,
  started P top pb rb G s0 -> creach G pb rb (safe_call G) false s0 x ->
  c < g_core_count G -> r < g_dram_region_count G ->
  cf_task x c = Running k (Do (OSt m (owner_addr G r) w) f) l ->
  cf_held x c r = true /\ owner_change k r (owner_of G (cf_state x) r) w.
Proof.
  intros P top pb rb G s0 x c k m r w f l ST R C RL T.
  destruct (reach_good _ _ _ _ _ _ _ _ _ ST (all_safe G) R) as [g [o [hd GD]]].
  destruct x as [s t h]. cbn [cf_task cf_held cf_state] in *.
  destruct (step c (OSt m (owner_addr G r) w) s) as [s' v] eqn:SP.
  destruct (good_op G pb rb g (safe_call G) false s t h c k _ f l s' v o hd GD C T SP)
    as [q' [GU _]]; [discriminate|].
  destruct (g_store _ _ _ _ _ _ _ _ _ GU r RL eq_refl) as [H OC].
  split; [apply (gd_held _ _ _ _ _ _ GD); auto|].
  pose proof (gd_view _ _ _ _ _ _ GD) as V. cbn [cf_state] in V.
  unfold owner_of. rewrite (v_owner _ _ _ V r RL). exact OC.
Qed.
(** A region call about to report a failure has changed nothing but region locks. *)
Theorem C56_failure_silent_partial : forall P top pb rb G s0 x c k v l r w,
  started P top pb rb G s0 -> creach G pb rb (safe_call G) false s0 x ->
  c < g_core_count G -> cf_task x c = Running k (Ret v) l ->
  establishes k = Some (r, w) -> v <> monitor_ok ->
  forall o y, In (o, y) l -> lock_only G o.
Proof.
  intros P top pb rb G s0 x c k v l r w ST R C T E NV o y I.
  pose proof (reach_paths _ _ _ _ _ _ _ ST R c k _ l r w C T E) as [_ [H _]].
  specialize (H NV). unfold calm in H. rewrite Forall_forall in H. exact (H (o, y) I).
Qed.
(** It reports a concurrent call only if it found a region's lock held. *)
Theorem C56_concurrent_justified_partial : forall P top pb rb G s0 x c k l r w,
  started P top pb rb G s0 -> creach G pb rb (safe_call G) false s0 x ->
  c < g_core_count G -> cf_task x c = Running k (Ret monitor_concurrent_call) l ->
  establishes k = Some (r, w) -> found_locked G l.
Proof.
  intros P top pb rb G s0 x c k l r w ST R C T E.
  pose proof (reach_paths _ _ _ _ _ _ _ ST R c k _ l r w C T E) as [_ [_ H]]. auto.
Qed.
(** Core 1 is about to report a successful block of region 2, core 0 a failed one
    that ran into it. *)
Definition ex_c56 : conf :=
  ops ex_G 13 1 (ops ex_G 1 0 (begin ex_G 0 (CBlock 2) (ops ex_G 3 1 (begin ex_G 1 (CBlock 2)
    (initial ex_s0))))).
Example C56_example : creach ex_G 6 4 (safe_call ex_G) false ex_s0 ex_c56 /\
  (exists l, cf_task ex_c56 1 = Running (CBlock 2) (Ret monitor_ok) l /\
     owner_stores ex_G l = [(2, 1)]) /\
  (exists l, cf_task ex_c56 0 = Running (CBlock 2) (Ret monitor_concurrent_call) l).
Proof.
  split; [|split].
  - unfold ex_c56. do 2 (apply ops_reach; [reflexivity|]).
    apply begin_reach; [reflexivity|vm_compute; reflexivity|reflexivity|exact I|].
    apply ops_reach; [reflexivity|]. apply begin_reach; [reflexivity|reflexivity|reflexivity|exact I|].
    constructor.
  - eexists. split; [vm_compute; reflexivity|]. vm_compute. reflexivity.
  - eexists. vm_compute. reflexivity.
Qed.

(** ** C55: flushing is not atomic. *)
(** Core 1 executes the TLB flush of flush_cached_dram_regions and is interrupted
    before it reads the block clock. Core 0 blocks region 3, then region 2. Core 1
    goes on: it reads and records the advanced clock. Core 0 flushes and frees
    region 2, although core 1 did not flush since region 2 was blocked, nor since
    region 3 was (compare C30_flushed_partial). *)
Definition race_x : conf := ops ex_G 1 1 (begin ex_G 1 CFlush (initial ex_s0)).
Definition race_y : conf := ops ex_G 50 0 (begin ex_G 0 (CBlock 3) race_x).
Definition race_z : conf :=
  ops ex_G 50 0 (begin ex_G 0 (CFree 2) (ops ex_G 50 0 (begin ex_G 0 CFlush
    (ops ex_G 50 1 (ops ex_G 50 0 (begin ex_G 0 (CBlock 2) race_y)))))).

Lemma csteps_trans G pb rb al nw x y z :
  csteps G pb rb al nw x y -> csteps G pb rb al nw y z -> csteps G pb rb al nw x z.
Proof. intros H1 H2. induction H2; [exact H1|]. eapply cs_more; eauto. Qed.
Lemma ops_steps G pb rb al nw c : c < g_core_count G -> forall m x,
  csteps G pb rb al nw x (ops G m c x).
Proof.
  intros C. induction m as [|m IH]; intros x; cbn [ops]; [constructor|].
  destruct x as [s t h]. cbn [cf_state cf_task cf_held].
  destruct (t c) as [|k p l] eqn:T; [constructor|]. destruct p as [v|o f|]; [| |constructor].
  - eapply cs_more; [constructor|]. eapply cs_return; eauto.
  - destruct (step c o s) as [s' v] eqn:ST.
    destruct (N.ltb_spec (clock_of G s') (clock_of G s)); [constructor|].
    eapply csteps_trans; [|apply IH]. eapply cs_more; [constructor|]. eapply cs_op; eauto.
Qed.
Lemma begin_steps G pb rb (al : call -> Prop) nw c k x : c < g_core_count G -> is_idle x c = true ->
  call_args_ok k -> al k -> csteps G pb rb al nw x (begin G c k x).
Proof.
  intros C I A AL. destruct x as [s t h]. unfold is_idle in I. cbn [cf_task] in I.
  eapply cs_more; [constructor|]. unfold begin. cbn [cf_state cf_task cf_held].
  apply cs_start; auto. destruct (t c); [reflexivity|discriminate].
Qed.
Theorem C55_flush_race_refuted : exists P top pb rb G s0 x y z,
  started P top pb rb G s0 /\ creach G pb rb (safe_call G) true s0 x /\
  csteps G pb rb (safe_call G) true x y /\ csteps G pb rb (safe_call G) true y z /\
  1 < g_core_count G /\
  owner_of G (cf_state x) 3 = 0 /\ owner_of G (cf_state y) 3 = 1 /\
  owner_of G (cf_state y) 2 = 0 /\ owner_of G (cf_state z) 2 = 3 /\
  r_tlb_flushes (s_cores (cf_state z) 1) = r_tlb_flushes (s_cores (cf_state x) 1).
Proof.
  exists ex_platform, 0, 6, 4, ex_G, ex_s0, race_x, race_y, race_z.
  split; [exact ex_started|]. split.
  { unfold race_x. apply ops_reach; [reflexivity|].
    apply begin_reach; [reflexivity|reflexivity|exact I|exact I|]. constructor. }
  split.
  { unfold race_y. eapply csteps_trans; [|apply ops_steps; reflexivity].
    apply begin_steps; [reflexivity|vm_compute; reflexivity|reflexivity|exact I]. }
  split.
  { unfold race_z.
    eapply csteps_trans; [|apply ops_steps; reflexivity].
    eapply csteps_trans; [|apply begin_steps; [reflexivity|vm_compute; reflexivity|reflexivity|exact I]].
    eapply csteps_trans; [|apply ops_steps; reflexivity].
    eapply csteps_trans; [|apply begin_steps; [reflexivity|vm_compute; reflexivity|exact I|exact I]].
    eapply csteps_trans; [|apply ops_steps; reflexivity].
    eapply csteps_trans; [|apply ops_steps; reflexivity].
    apply begin_steps; [reflexivity|vm_compute; reflexivity|reflexivity|exact I]. }
  split; [reflexivity|]. do 4 (split; [vm_compute; reflexivity|]). vm_compute. reflexivity.
Qed.

Definition P_Atomic_theorems := (C56_success_once_partial, C56_store_documented_partial,
  C56_failure_silent_partial, C56_concurrent_justified_partial, C56_example,
  C55_flush_race_refuted).
Print Assumptions P_Atomic_theorems.
