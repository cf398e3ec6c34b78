(** * Property C86: the monitor touches a region only for a call that names it. *)
From Coq Require Import NArith ZArith Lia Bool List.
From Coq Require Import ZifyBool ZifyNat ZifyN.
From Verif Require Import Word Machine ModelBare ModelHash ModelInl ModelRegions
  ModelMetadata ModelEnclave ModelBoot ModelApi Lib BareProofs BootProofs SpecGeometry
  GeomProofs Trace SpecMonitor SpecHistory ViewProofs SeqProofs SeqCalls SeqCalls2 SeqCalls3
  HistoryProofs P_Boot P_Regions P_Enclave ConcProofs ConcCalls ConcCalls2 ConcGlobal
  AtomicProofs P_Conc SpecConcurrent SpecAtomic SpecInside SpecSecret TouchProofs P_Inside P_Secret
  SpecTouch P_Touch.
Import ListNotations.
Open Scope N_scope.
Ltac Zify.zify_post_hook ::= Z.div_mod_to_equations.

Lemma unnamed_public G pb rb r k : unnamed_call G pb rb r k ->
  public_call G pb rb r k /\ (False \/ unnamed pb rb r k).
Proof.
  intros (S & NN & NR). split; [split; [exact S|]|right].
  - destruct k; auto. split; [exact NR|]. cbn [names_region] in NN.
    split; [|split]; intros b B E; apply NN; exists b; auto.
  - destruct k; cbn [names_region unnamed] in *; auto.
Qed.
Lemma unnamed_spares P top pb rb G s0 r x l : started P top pb rb G s0 ->
  creach G pb rb (safe_call G) false s0 x -> quiet G x ->
  r <> 0 -> avoids pb rb r (g_os_region_bitmap G) (8 * s_words s0) ->
  execution G pb rb (unnamed_call G pb rb r) x l ->
  forall l1 z l2, l = l1 ++ z :: l2 \/ (l = l1 /\ z = x /\ l2 = []) ->
  creach G pb rb (safe_call G) false s0 z /\
  forall c k p i, c < g_core_count G -> cf_task z c = Running k p i ->
    spares G pb rb c (s_words s0) r False p any.
Proof.
  intros ST R QX NZ HW EX.
  assert (HU : forall c k p i, c < g_core_count G -> cf_task x c = Running k p i ->
    spares G pb rb c (s_words s0) r False p any).
  { intros c k p i C T. rewrite (QX c C) in T. discriminate. }
  clear QX. induction EX as [x|x y l SP EX IH]; intros l1 z l2 E.
  - destruct E as [E|[_ [-> _]]]; [destruct l1; discriminate|auto].
  - destruct E as [E|[_ [-> _]]]; [|auto].
    assert (R' : creach G pb rb (safe_call G) false s0 y).
    { eapply cr_step; [exact R|]. eapply cstep_mono; [|exact SP]. intros k K. apply K. }
    assert (HU' : forall c k p i, c < g_core_count G -> cf_task y c = Running k p i ->
      spares G pb rb c (s_words s0) r False p any).
    { eapply spares_step; [exact ST|exact R|exact NZ|exact HW|intros []|intros k K; apply unnamed_public; exact K|exact HU|exact SP]. }
    destruct l1 as [|w l1].
    + injection E as -> ->. auto.
    + injection E as -> E. apply (IH R' HU' l1 z l2). auto.
Qed.

(** Start from any reachable configuration without calls in progress.  Whoever owns region
    [r] (other than 0), and while no call that names it is made, no call on any core reads
    or writes a byte of the region. *)
Theorem C86_no_access_partial : forall P top pb rb G s0 r x l z c k o f i a,
  started P top pb rb G s0 -> creach G pb rb (safe_call G) false s0 x -> quiet G x ->
  r <> 0 -> avoids pb rb r (g_os_region_bitmap G) (8 * s_words s0) ->
  execution G pb rb (unnamed_call G pb rb r) x l -> In z l ->
  c < g_core_count G -> cf_task z c = Running k (Do o f) i ->
  accesses (s_words (cf_state z)) o a -> region_of pb rb a <> r.
Proof.
  intros P top pb rb G s0 r x l z c k o f i a ST R QX NZ HW EX IN C T AC.
  destruct (in_split _ _ IN) as [l1 [l2 E]].
  destruct (unnamed_spares _ _ _ _ _ _ _ _ _ ST R QX NZ HW EX l1 z l2 (or_introl E)) as [RZ HZ].
  specialize (HZ c k _ i C T). cbn [spares] in HZ. destruct HZ as [U _].
  rewrite (reach_words _ _ _ _ _ _ _ RZ) in AC.
  destruct o; cbn [accesses untouching] in *; try contradiction; apply U; exact AC.
Qed.
(** Every step that changes a byte of the region is a store by the software on a core, or
    by a device, that the access registers admit. *)
Theorem C86_unchanged_partial : forall P top pb rb G s0 r x l1 y z l2,
  started P top pb rb G s0 -> creach G pb rb (safe_call G) false s0 x -> quiet G x ->
  r <> 0 -> avoids pb rb r (g_os_region_bitmap G) (8 * s_words s0) ->
  execution G pb rb (unnamed_call G pb rb r) x (l1 ++ y :: z :: l2) ->
  same_region pb rb r y z \/ os_store G pb rb y z \/ device_store y z.
Proof.
  intros P top pb rb G s0 r x l1 y z l2 ST R QX NZ HW EX.
  destruct (unnamed_spares _ _ _ _ _ _ _ _ _ ST R QX NZ HW EX l1 y (z :: l2) (or_introl eq_refl)) as [RZ HU].
  assert (SP : cstep G pb rb (unnamed_call G pb rb r) false y z).
  { clear -EX. revert x EX. induction l1 as [|w l1 IH]; intros x EX.
    - inversion EX as [|? ? ? _ EX']; subst. inversion EX'; subst. assumption.
    - inversion EX; subst. eauto. }
  destruct SP as [s t h c k C T A AL|s t h c k o f i s' v C T SP NW|s t h c k v i C T|s t h c a v C T A M|s t h a v A M TP].
  - left. intros b B. reflexivity.
  - left. intros b B. cbn [cf_state]. specialize (HU c k _ i C T). cbn [spares] in HU. symmetry.
    eapply step_region; [apply HU|exact SP|exact B].
  - left. intros b B. reflexivity.
  - right. left. exists c, a, v. auto.
  - right. right. exists a, v. auto.
Qed.
(** So a region that no core and no device may access keeps its contents, whatever its
    owner is and becomes: as metadata region, blocked, or free. *)
Theorem C86_sealed_partial : forall P top pb rb G s0 r x l,
  started P top pb rb G s0 -> creach G pb rb (safe_call G) false s0 x -> quiet G x ->
  r <> 0 -> avoids pb rb r (g_os_region_bitmap G) (8 * s_words s0) ->
  execution G pb rb (unnamed_call G pb rb r) x l ->
  Forall (sealed G pb rb r) (x :: l) ->
  same_region pb rb r x (last l x).
Proof.
  intros P top pb rb G s0 r x l ST R QX NZ HW EX OW.
  assert (HU : forall c k p i, c < g_core_count G -> cf_task x c = Running k p i ->
    spares G pb rb c (s_words s0) r False p any).
  { intros c k p i C T. rewrite (QX c C) in T. discriminate. }
  clear QX. revert x R HU EX OW. induction l as [|y l IH]; intros x R HU EX OW; [intros b B; reflexivity|].
  inversion EX as [|? ? ? SP EX']; subst. inversion OW as [|? ? O3 O2]; subst.
  assert (E : last (y :: l) x = last l y) by (clear; revert x y; induction l as [|w l IHl]; intros; [reflexivity|]; cbn [last] in *; destruct l; auto).
  rewrite E. intros b B.
  rewrite <- (IH y) with (b := b); auto;
    [|eapply cr_step; [exact R|eapply cstep_mono; [|exact SP]; intros k K; apply K]
     |eapply spares_step; [exact ST|exact R|exact NZ|exact HW|intros []|intros k K; apply unnamed_public; exact K|exact HU|exact SP]].
  destruct SP as [s t h c k C T A AL|s t h c k o f i s' v C T SP NW|s t h c k v i C T|s t h c a v C T A M|s t h a v A M TP];
    cbn [cf_state] in *; auto.
  - specialize (HU c k _ i C T). cbn [spares] in HU. symmetry. eapply step_region; [apply HU|exact SP|exact B].
  - change (byte (s_mem s) b = byte (st 1 (s_mem s) a v) b). symmetry. apply byte_st_out. change (N.of_nat 1) with 1.
    destruct (N.eq_dec a b) as [->|]; [|lia]. exfalso. destruct (O3 b B) as [X _]. apply (X c); auto.
  - change (byte (s_mem s) b = byte (st 1 (s_mem s) a v) b). symmetry. apply byte_st_out. change (N.of_nat 1) with 1.
    destruct (N.eq_dec a b) as [->|]; [|lia]. exfalso. destruct (O3 b B) as [_ X]. apply X; auto.
Qed.

(** ** An example *)
(** After region 2 has been blocked on core 0 and region 3 on core 1, core 0 frees region 2:
    the region becomes free during the execution and is sealed all the time. *)
Definition ex_freeing : conf := begin ex_G 0 (CFree 2) ex_two.
Definition ex_path2 : list conf := ex_freeing :: walk 6 0 ex_freeing.
Definition locked_out2 (x : conf) : bool :=
  negb (drb_bit (s_cores (cf_state x) 0) 2) &&
  negb (drb_bit (s_cores (cf_state x) 1) 2) &&
  (s_dmar_base (cf_state x) =? 1024) && (s_dmar_mask (cf_state x) =? N.ones 64).
Lemma locked_out2_ok x : locked_out2 x = true -> sealed ex_G 6 4 2 x.
Proof.
  unfold locked_out2. rewrite !andb_true_iff, !negb_true_iff, !N.eqb_eq. intros [[[D0 D1] B] M].
  intros a A. split.
  - intros c C [X _]. rewrite A in X. change (g_core_count ex_G) with 2 in C.
    assert (Y : c = 0 \/ c = 1) by lia. destruct Y as [-> | ->]; congruence.
  - unfold dma_may_access. rewrite B, M, N.land_ones. intros E. revert A. unfold region_of.
    change (2 ^ 64) with 18446744073709551616 in E. change (2 ^ (12 + 6)) with 262144. change (2 ^ 4) with 16.
    clear -E. lia.
Qed.
Example C86_example : exists P top pb rb G s0 r x l,
  started P top pb rb G s0 /\ creach G pb rb (safe_call G) false s0 x /\ quiet G x /\
  r <> 0 /\ avoids pb rb r (g_os_region_bitmap G) (8 * s_words s0) /\
  execution G pb rb (unnamed_call G pb rb r) x l /\ Forall (sealed G pb rb r) (x :: l) /\
  owner_of G (cf_state x) r = 1 /\ owner_of G (cf_state (last l x)) r = 3.
Proof.
  exists ex_platform, 0, 6, 4, ex_G, ex_s0, 2, ex_two, ex_path2.
  split; [exact ex_started|]. split.
  { unfold ex_two. apply ops_reach; [reflexivity|].
    apply begin_reach; [reflexivity|vm_compute; reflexivity|reflexivity|exact Logic.I|].
    apply ops_reach; [reflexivity|].
    apply begin_reach; [reflexivity|vm_compute; reflexivity|reflexivity|exact Logic.I|]. constructor. }
  assert (ID : forall x c, is_idle x c = true -> cf_task x c = Idle).
  { intros x c. unfold is_idle. destruct (cf_task x c); [reflexivity|discriminate]. }
  split.
  { assert (Q : is_idle ex_two 0 = true /\ is_idle ex_two 1 = true) by (vm_compute; split; reflexivity).
    intros c C. change (g_core_count ex_G) with 2 in C.
    assert (X : c = 0 \/ c = 1) by lia. destruct Q as [Q0 Q1].
    destruct X as [-> | ->]; apply ID; assumption. }
  split; [discriminate|]. split; [exact ex_width|]. split.
  { apply ex_cons; [|apply walk_execution; [reflexivity|vm_compute; reflexivity]].
    assert (Q0 : is_idle ex_two 0 = true) by (vm_compute; reflexivity). apply ID in Q0.
    unfold ex_freeing, begin. destruct ex_two as [s t h]. cbn [cf_state cf_task cf_held] in *.
    apply cs_start; [reflexivity|exact Q0|reflexivity|]. split; [exact Logic.I|]. split; [intros []|exact Logic.I]. }
  split.
  { assert (H : forallb locked_out2 (ex_two :: ex_path2) = true) by (vm_compute; reflexivity).
    rewrite forallb_forall in H. apply Forall_forall. intros z Z. apply locked_out2_ok, H, Z. }
  split; vm_compute; reflexivity.
Qed.

Definition P_Touch2_theorems := (C86_no_access_partial, C86_unchanged_partial, C86_sealed_partial, C86_example).
Print Assumptions P_Touch2_theorems.
