(** * Property C83: the monitor leaves OS memory and blocked memory alone. *)
From Coq Require Import NArith ZArith Lia Bool List.
From Coq Require Import ZifyBool ZifyNat ZifyN.
From Verif Require Import Word Machine ModelBare ModelHash ModelInl ModelRegions
  ModelMetadata ModelEnclave ModelBoot ModelApi Lib BareProofs BootProofs SpecGeometry
  GeomProofs Trace SpecMonitor SpecHistory ViewProofs SeqProofs SeqCalls SeqCalls2 SeqCalls3
  HistoryProofs P_Boot P_Regions P_Enclave ConcProofs ConcCalls ConcCalls2 ConcGlobal
  AtomicProofs P_Conc SpecConcurrent SpecAtomic SpecInside SpecSecret TouchProofs P_Inside P_Secret
  SpecTouch.
Import ListNotations.
Open Scope N_scope.
Ltac Zify.zify_post_hook ::= Z.div_mod_to_equations.

(** An operation that does not touch the region does not change it. *)
Lemma step_region pb rb W r c o s s' v : untouching pb rb W r o -> step c o s = (s', v) ->
  forall b, region_of pb rb b = r -> s_mem s' b mod 256 = s_mem s b mod 256.
Proof.
  intros U E b B. apply (f_equal fst) in E. cbn [fst] in E. subst s'.
  assert (ST : forall k a w, avoids pb rb r a (N.of_nat k) -> byte (st k (s_mem s) a w) b = byte (s_mem s) b).
  { intros k a w A. apply byte_st_out. destruct (N.lt_ge_cases b a); [auto|].
    destruct (N.lt_ge_cases b (a + N.of_nat k)); [|auto]. exfalso. apply (A b); auto. }
  destruct o; cbn [step fst snd s_mem set_mem set_creg untouching] in *; try reflexivity; try (apply ST; exact U).
Qed.

Lemma cstep_mono G pb rb (al al' : call -> Prop) nw x y : (forall k, al k -> al' k) ->
  cstep G pb rb al nw x y -> cstep G pb rb al' nw x y.
Proof.
  intros H SP. destruct SP; [eapply cs_start|eapply cs_op|eapply cs_return|eapply cs_store|eapply cs_dma]; eauto.
Qed.
Lemma spares_step P top pb rb G s0 r (OWN : Prop) (al : call -> Prop) x y : started P top pb rb G s0 ->
  creach G pb rb (safe_call G) false s0 x -> r <> 0 ->
  avoids pb rb r (g_os_region_bitmap G) (8 * s_words s0) -> (OWN -> os_or_blocked G r x) ->
  (forall k, al k -> public_call G pb rb r k /\ (OWN \/ unnamed pb rb r k)) ->
  (forall c k p l, c < g_core_count G -> cf_task x c = Running k p l -> spares G pb rb c (s_words s0) r OWN p any) ->
  cstep G pb rb al false x y ->
  (forall c k p l, c < g_core_count G -> cf_task y c = Running k p l -> spares G pb rb c (s_words s0) r OWN p any).
Proof.
  intros ST R NZ HW OW PU IH SP c k p l C T. destruct (started_geom _ _ _ _ _ _ ST) as [g _].
  destruct (reach_good _ _ _ _ _ _ _ _ _ ST (fun k (H : safe_call G k) => H) R)
    as [_ [q [hd GD]]].
  destruct SP as [s t h c1 k1 C1 T1 AR AL|s t h c1 k1 o f i s' v C1 T1 SP NW
    |s t h c1 k1 v i C1 T1|s t h c1 a v C1 T1 A CA|s t h a v A DA TP];
    cbn [cf_state cf_task cf_held] in *; try (eapply IH; eassumption);
    unfold upd in T; destruct (N.eqb_spec c c1) as [->|NE]; try (eapply IH; eassumption).
  - inversion T; subst. destruct (PU _ AL). eapply TouchProofs.i_call'; eauto.
  - inversion T; subst. specialize (IH c1 k _ _ C T1). cbn [spares] in IH. apply IH.
    destruct GD as [V I CO HE TA]. cbn [cf_state] in V. split; [split; [|split]|].
    + intros r' RL ->. pose proof (f_equal snd SP) as EV. cbn -[ld] in EV. subst v. unfold owner_addr.
      rewrite (v_owner _ _ _ V r' RL). split; [apply (ConcProofs.i_owner _ _ _ _ I); exact RL|].
      intros ->. apply (ConcProofs.i_owner0 _ _ _ _ I).
    + intros ->. pose proof (f_equal snd SP) as EV. cbn in EV. congruence.
    + intros ->. pose proof (f_equal snd SP) as EV. cbn -[ld] in EV. subst v.
      rewrite (v_encl _ _ _ V c1 C). apply (ConcProofs.i_encl _ _ _ _ I). exact C.
    + intros OWN1 ->. pose proof (f_equal snd SP) as EV. cbn -[ld] in EV. subst v.
      change (ld 8 (s_mem s) (owner_addr G r)) with (owner_of G s r).
      specialize (OW OWN1). unfold os_or_blocked in OW. cbn [cf_state] in OW. lia.
  - discriminate.
Qed.

(** Start from a reachable configuration without calls in progress.  As long as region
    [r] belongs to the OS or is blocked, every step of every execution that changes a byte
    of the region is a store by the software on a core or by a device that the access
    registers admit; the operations of the calls do not change it. *)
Theorem C83_untouched_partial : forall P top pb rb G s0 r x l1 z l2,
  started P top pb rb G s0 -> creach G pb rb (safe_call G) false s0 x -> quiet G x ->
  r <> 0 -> avoids pb rb r (g_os_region_bitmap G) (8 * s_words s0) ->
  execution G pb rb (public_call G pb rb r) x (l1 ++ z :: l2) ->
  Forall (os_or_blocked G r) (x :: l1) ->
  same_region pb rb r (last l1 x) z \/ os_store G pb rb (last l1 x) z \/ device_store (last l1 x) z.
Proof.
  intros P top pb rb G s0 r x l1 z l2 ST R QX NZ HW EX OW.
  assert (HU : forall c k p i, c < g_core_count G -> cf_task x c = Running k p i ->
    spares G pb rb c (s_words s0) r True p any).
  { intros c k p i C T. rewrite (QX c C) in T. discriminate. }
  clear QX. revert x R HU EX OW. induction l1 as [|y l1 IH]; intros x R HU EX OW.
  - cbn [last]. inversion EX as [|? ? ? SP EX']; subst.
    destruct SP as [s t h c k C T A AL|s t h c k o f i s' v C T SP NW|s t h c k v i C T|s t h c a v C T A M|s t h a v A M TP].
    + left. intros b B. reflexivity.
    + left. intros b B. cbn [cf_state]. specialize (HU c k _ i C T). cbn [spares] in HU. symmetry.
      eapply step_region; [apply HU|exact SP|exact B].
    + left. intros b B. reflexivity.
    + right. left. exists c, a, v. auto.
    + right. right. exists a, v. auto.
  - inversion EX as [|? ? ? SP EX']; subst. inversion OW as [|? ? O1 O2]; subst.
    assert (E : last (y :: l1) x = last l1 y) by (clear; revert x y; induction l1 as [|w l IHl]; intros; [reflexivity|]; cbn [last] in *; destruct l; auto).
    rewrite E. apply IH; auto.
    + eapply cr_step; [exact R|]. eapply cstep_mono; [|exact SP]. intros k K. apply K.
    + eapply spares_step; eauto.
Qed.

(** A blocked region that no core and no device may access keeps its contents. *)
Theorem C83_sealed_partial : forall P top pb rb G s0 r x l,
  started P top pb rb G s0 -> creach G pb rb (safe_call G) false s0 x -> quiet G x ->
  r <> 0 -> avoids pb rb r (g_os_region_bitmap G) (8 * s_words s0) ->
  execution G pb rb (public_call G pb rb r) x l ->
  Forall (fun z => os_or_blocked G r z /\ sealed G pb rb r z) (x :: l) ->
  same_region pb rb r x (last l x).
Proof.
  intros P top pb rb G s0 r x l ST R QX NZ HW EX OW.
  assert (HU : forall c k p i, c < g_core_count G -> cf_task x c = Running k p i ->
    spares G pb rb c (s_words s0) r True p any).
  { intros c k p i C T. rewrite (QX c C) in T. discriminate. }
  clear QX. revert x R HU EX OW. induction l as [|y l IH]; intros x R HU EX OW; [intros b B; reflexivity|].
  inversion EX as [|? ? ? SP EX']; subst. inversion OW as [|? ? [O1 O3] O2]; subst.
  assert (E : last (y :: l) x = last l y) by (clear; revert x y; induction l as [|w l IHl]; intros; [reflexivity|]; cbn [last] in *; destruct l; auto).
  rewrite E. intros b B.
  rewrite <- (IH y) with (b := b); auto;
    [|eapply cr_step; [exact R|eapply cstep_mono; [|exact SP]; intros k K; apply K]|eapply spares_step; eauto].
  destruct SP as [s t h c k C T A AL|s t h c k o f i s' v C T SP NW|s t h c k v i C T|s t h c a v C T A M|s t h a v A M TP];
    cbn [cf_state] in *; auto.
  - specialize (HU c k _ i C T). cbn [spares] in HU. symmetry. eapply step_region; [apply HU|exact SP|exact B].
  - change (byte (s_mem s) b = byte (st 1 (s_mem s) a v) b). symmetry. apply byte_st_out. change (N.of_nat 1) with 1.
    destruct (N.eq_dec a b) as [->|]; [|lia]. exfalso. destruct (O3 b B) as [X _]. apply (X c); auto.
  - change (byte (s_mem s) b = byte (st 1 (s_mem s) a v) b). symmetry. apply byte_st_out. change (N.of_nat 1) with 1.
    destruct (N.eq_dec a b) as [->|]; [|lia]. exfalso. destruct (O3 b B) as [_ X]. apply X; auto.
Qed.

(** accept_thread changes a word of a blocked region that the caller cannot access. *)
Theorem C83_accept_thread_refuted :
  ~ (forall P top pb rb G s r c k, reachable P top pb rb G s -> c < g_core_count G -> call_args_ok k ->
       match k with CCopyDebugPage _ _ _ _ => False | _ => True end ->
       r < g_dram_region_count G -> r <> 0 -> owner_of G s r = 1 ->
       (forall b, region_of pb rb b = r -> ~ cpu_may_access pb rb (s_cores s c) b) ->
       forall b, region_of pb rb b = r -> s_mem (fst (do_call G c k s)) b mod 256 = s_mem s b mod 256).
Proof.
  intros H.
  specialize (H ex_platform 0 6 4 ex_G ex_b2 2 0 (CAcceptThread (4 * 262144) 16384) ex_b2_reachable).
  assert (E : s_mem (fst (do_call ex_G 0 (CAcceptThread (4 * 262144) 16384) ex_b2)) 655424 mod 256 = 1)
    by (vm_compute; reflexivity).
  assert (E' : s_mem ex_b2 655424 mod 256 = 0) by (vm_compute; reflexivity).
  assert (B : region_of 6 4 655424 = 2) by (vm_compute; reflexivity).
  enough (X : s_mem (fst (do_call ex_G 0 (CAcceptThread (4 * 262144) 16384) ex_b2)) 655424 mod 256
              = s_mem ex_b2 655424 mod 256).
  { rewrite E, E' in X. discriminate. }
  clear E E'. apply H; [| | | | | | | exact B]; clear H B.
  - reflexivity.
  - vm_compute. auto.
  - exact Logic.I.
  - reflexivity.
  - discriminate.
  - vm_compute. reflexivity.
  - intros b B' [M _]. rewrite B' in M. vm_compute in M. discriminate.
Qed.

(** ** An example *)
(** Core 0 blocked region 2, core 1 region 3: no access to region 2 is left.  Then core 0
    flushes. *)
Definition ex_two : conf :=
  ops ex_G 17 1 (begin ex_G 1 (CBlock 3) (ops ex_G 17 0 (begin ex_G 0 (CBlock 2) (initial ex_s0)))).
Definition ex_flushing : conf := begin ex_G 0 CFlush ex_two.
Definition ex_path : list conf := ex_flushing :: walk 4 0 ex_flushing.
Definition locked_out (x : conf) : bool :=
  (owner_of ex_G (cf_state x) 2 =? 1) && negb (drb_bit (s_cores (cf_state x) 0) 2) &&
  negb (drb_bit (s_cores (cf_state x) 1) 2) &&
  (s_dmar_base (cf_state x) =? 1024) && (s_dmar_mask (cf_state x) =? N.ones 64).
Lemma locked_out_ok x : locked_out x = true -> os_or_blocked ex_G 2 x /\ sealed ex_G 6 4 2 x.
Proof.
  unfold locked_out. rewrite !andb_true_iff, !negb_true_iff, !N.eqb_eq. intros [[[[O D0] D1] B] M].
  split; [right; exact O|]. intros a A. split.
  - intros c C [X _]. rewrite A in X. change (g_core_count ex_G) with 2 in C.
    assert (Y : c = 0 \/ c = 1) by lia. destruct Y as [-> | ->]; congruence.
  - unfold dma_may_access. rewrite B, M, N.land_ones. intros E. revert A. unfold region_of.
    change (2 ^ 64) with 18446744073709551616 in E. change (2 ^ (12 + 6)) with 262144. change (2 ^ 4) with 16.
    clear -E. lia.
Qed.
Example C83_example : exists P top pb rb G s0 r x l,
  started P top pb rb G s0 /\ creach G pb rb (safe_call G) false s0 x /\ quiet G x /\
  r <> 0 /\ avoids pb rb r (g_os_region_bitmap G) (8 * s_words s0) /\
  execution G pb rb (public_call G pb rb r) x l /\
  Forall (fun z => os_or_blocked G r z /\ sealed G pb rb r z) (x :: l) /\ length l = 5%nat /\
  Forall (os_or_blocked G r) (x :: l).
Proof.
  exists ex_platform, 0, 6, 4, ex_G, ex_s0, 2, ex_two, ex_path.
  split; [exact ex_started|].
  assert (PC : forall r, public_call ex_G 6 4 2 (CBlock r)) by (intros r; split; exact Logic.I).
  split.
  { unfold ex_two. apply ops_reach; [reflexivity|].
    apply begin_reach; [reflexivity|vm_compute; reflexivity|reflexivity|exact Logic.I|].
    apply ops_reach; [reflexivity|].
    apply begin_reach; [reflexivity|vm_compute; reflexivity|reflexivity|exact Logic.I|]. constructor. }
  assert (ID : forall x c, is_idle x c = true -> cf_task x c = Idle).
  { intros x c. unfold is_idle. destruct (cf_task x c); [reflexivity|discriminate]. }
  split.
  { assert (Q : is_idle ex_two 0 = true /\ is_idle ex_two 1 = true) by (vm_compute; split; reflexivity).
    intros c C. change (g_core_count ex_G) with 2 in C.
    assert (X : c = 0 \/ c = 1) by lia. destruct Q as [Q0 Q1].
    destruct X as [-> | ->]; apply ID; assumption. }
  split; [discriminate|]. split; [exact ex_width|]. split.
  { apply ex_cons; [|apply walk_execution; [reflexivity|vm_compute; reflexivity]].
    assert (Q0 : is_idle ex_two 0 = true) by (vm_compute; reflexivity). apply ID in Q0.
    unfold ex_flushing, begin. destruct ex_two as [s t h]. cbn [cf_state cf_task cf_held] in *.
    apply cs_start; [reflexivity|exact Q0|reflexivity|split; exact Logic.I]. }
  assert (F : Forall (fun z => os_or_blocked ex_G 2 z /\ sealed ex_G 6 4 2 z) (ex_two :: ex_path)).
  { assert (H : forallb locked_out (ex_two :: ex_path) = true) by (vm_compute; reflexivity).
    rewrite forallb_forall in H. apply Forall_forall. intros z Z. apply locked_out_ok, H, Z. }
  split; [exact F|]. split; [reflexivity|].
  eapply Forall_impl; [|exact F]. intros z [Z _]. exact Z.
Qed.

Definition P_Touch_theorems := (C83_untouched_partial, C83_sealed_partial, C83_accept_thread_refuted, C83_example).
Print Assumptions P_Touch_theorems.
