(** * Properties C51-C55: interleaved execution on several cores.

    [creach G pb rb allowed nowrap s0 x] (SpecConcurrent.v): the configuration [x]
    is reached from the state [s0] after boot by some interleaving of the machine
    operations of API calls on all cores, of OS stores and of DMA stores.  The
    calls come from [allowed]: [safe_call G] leaves out accept_thread and
    copy_debug_enclave_page with enclave_id 0 writing below the monitor top
    (C48, C49); therefore the theorems are named _partial. *)
From Coq Require Import NArith ZArith Lia Bool List.
From Coq Require Import ZifyBool ZifyNat ZifyN.
From Verif Require Import Word Machine ModelBare ModelHash ModelInl ModelRegions
  ModelMetadata ModelEnclave ModelBoot ModelApi Lib BareProofs BootProofs SpecGeometry
  GeomProofs Trace SpecMonitor SpecHistory SpecConcurrent ViewProofs SeqProofs SeqCalls SeqCalls2 SeqCalls3
  HistoryProofs P_Boot P_Regions P_Enclave ConcProofs ConcCalls ConcCalls2 ConcGlobal ConcBound SpecConcurrent
  SpecCost LoopProofs.
Import ListNotations.
Open Scope N_scope.
Ltac Zify.zify_post_hook ::= Z.div_mod_to_equations.

(** ** An executable scheduler, for the examples. *)
Fixpoint ops (G : globals) (m : nat) (c : N) (x : conf) : conf :=
  match m with
  | O => x
  | S m' =>
      match cf_task x c with
      | Running k (Do o f) l =>
          let '(s', v) := step c o (cf_state x) in
          if clock_of G s' <? clock_of G (cf_state x) then x else
          ops G m' c (mkConf s' (upd (cf_task x) c (Running k (f v) ((o, v) :: l)))
                        (held_after G c o v (cf_held x)))
      | Running k (Ret v) l => mkConf (cf_state x) (upd (cf_task x) c Idle) (cf_held x)
      | _ => x
      end
  end.
Definition begin (G : globals) (c : N) (k : call) (x : conf) : conf :=
  mkConf (cf_state x) (upd (cf_task x) c (Running k (call_prog G k) [])) (cf_held x).
Definition is_idle (x : conf) (c : N) : bool :=
  match cf_task x c with Idle => true | _ => false end.

Lemma ops_reach G pb rb al nw s0 c : c < g_core_count G -> forall m x,
  creach G pb rb al nw s0 x -> creach G pb rb al nw s0 (ops G m c x).
Proof.
  intros C. induction m as [|m IH]; intros x R; cbn [ops]; [exact R|].
  destruct x as [s t h]. cbn [cf_state cf_task cf_held].
  destruct (t c) as [|k p l] eqn:T; [exact R|]. destruct p as [v|o f|]; [| |exact R].
  - eapply cr_step; [exact R|]. eapply cs_return; eauto.
  - destruct (step c o s) as [s' v] eqn:ST.
    destruct (N.ltb_spec (clock_of G s') (clock_of G s)); [exact R|].
    apply IH. eapply cr_step; [exact R|]. eapply cs_op; eauto.
Qed.
Definition can_op (G : globals) (c : N) (x : conf) : bool :=
  match cf_task x c with
  | Running k (Do o f) l => negb (clock_of G (fst (step c o (cf_state x))) <? clock_of G (cf_state x))
  | _ => false
  end.
Lemma op_step G pb rb al nw c x : c < g_core_count G -> can_op G c x = true ->
  cstep G pb rb al nw x (ops G 1 c x).
Proof.
  intros C H. unfold can_op in H. cbn [ops]. destruct x as [s t h]. cbn [cf_state cf_task cf_held] in *.
  destruct (t c) as [|k p l] eqn:T; [discriminate|]. destruct p as [v|o f|]; try discriminate.
  destruct (step c o s) as [s' v] eqn:ST. cbn [fst] in H.
  destruct (N.ltb_spec (clock_of G s') (clock_of G s)); [discriminate|].
  eapply cs_op; eauto.
Qed.
Lemma begin_reach G pb rb (al : call -> Prop) nw s0 c k x : c < g_core_count G -> is_idle x c = true ->
  call_args_ok k -> al k -> creach G pb rb al nw s0 x ->
  creach G pb rb al nw s0 (begin G c k x).
Proof.
  intros C I A AL R. destruct x as [s t h]. unfold is_idle in I. cbn [cf_task] in I.
  eapply cr_step; [exact R|]. unfold begin. cbn [cf_state cf_task cf_held].
  apply cs_start; auto. destruct (t c); [reflexivity|discriminate].
Qed.

Lemma reach_good P top pb rb G s0 (al : call -> Prop) nw x : started P top pb rb G s0 ->
  (forall k, al k -> safe_call G k) -> creach G pb rb al nw s0 x ->
  geom G pb rb /\ exists o hd, good G al nw x o hd.
Proof.
  intros ST AL R. destruct (started_geom _ _ _ _ _ _ ST) as [g HD]. split; [exact g|].
  eapply (good_reach G pb rb g al AL nw s0 x); eauto.
  exists (view_of G s0), (fun _ => None). eapply good_start; eauto.
Qed.
Definition all_safe (G : globals) : forall k, safe_call G k -> safe_call G k := fun _ X => X.

(** ** C51 *)
Theorem C51_mutual_exclusion_partial : forall P top pb rb G s0 x r c c',
  started P top pb rb G s0 -> creach G pb rb (safe_call G) false s0 x ->
  r < g_dram_region_count G -> c < g_core_count G -> c' < g_core_count G ->
  cf_held x c r = true -> cf_held x c' r = true -> c = c'.
Proof.
  intros P top pb rb G s0 x r c c' ST R RL C C' H H'.
  destruct (reach_good _ _ _ _ _ _ _ _ _ ST (all_safe G) R) as [g [o [hd GD]]].
  apply (gd_held _ _ _ _ _ _ GD) in H, H'; auto. congruence.
Qed.
(** The lock word of a region is set exactly while some core holds the lock. *)
Theorem C51_lock_word_partial : forall P top pb rb G s0 x r,
  started P top pb rb G s0 -> creach G pb rb (safe_call G) false s0 x ->
  r < g_dram_region_count G ->
  (lock_of G (cf_state x) r = 0 <->
   forall c, c < g_core_count G -> cf_held x c r = false).
Proof.
  intros P top pb rb G s0 x r ST R RL.
  destruct (reach_good _ _ _ _ _ _ _ _ _ ST (all_safe G) R) as [g [o [hd GD]]].
  destruct GD as [V I CO HE TA]. unfold lock_of.
  rewrite (v_lock _ _ _ V r RL), (i_lock _ _ _ _ I r RL). split.
  - intros Z c C. destruct (cf_held x c r) eqn:H; [|reflexivity].
    apply HE in H; auto. rewrite H in Z. discriminate.
  - intros H. destruct (hd r) as [c|] eqn:E; [|reflexivity].
    pose proof (CO r c RL E) as C. apply HE in E; auto. rewrite H in E by auto. discriminate.
Qed.
(** A core about to clear a region's lock holds it. *)
Theorem C51_release_partial : forall P top pb rb G s0 x r c k f l,
  started P top pb rb G s0 -> creach G pb rb (safe_call G) false s0 x ->
  r < g_dram_region_count G -> c < g_core_count G ->
  cf_task x c = Running k (Do (OClr (lock_addr G r)) f) l -> cf_held x c r = true.
Proof.
  intros P top pb rb G s0 x r c k f l ST R RL C T.
  destruct (reach_good _ _ _ _ _ _ _ _ _ ST (all_safe G) R) as [g [o [hd GD]]].
  destruct x as [s t h]. cbn [cf_task cf_held] in *.
  destruct (step c (OClr (lock_addr G r)) s) as [s' v] eqn:SP.
  destruct (good_op G pb rb g (safe_call G) false s t h c k _ f l s' v o hd GD C T SP)
    as [q' [GU _]]; [discriminate|].
  apply (gd_held _ _ _ _ _ _ GD); auto. apply (g_clr _ _ _ _ _ _ _ _ _ GU r RL eq_refl).
Qed.

(** With accept_thread, the lock of region 2 can be held by two cores: core 0
    blocks region 2; core 1 starts to free it and acquires its lock; core 0 calls
    accept_thread with an address in region 2, which clears that lock; core 0
    starts to free region 2 as well. *)
Definition ex_c51 : conf :=
  let a := 2 * 262144 in
  ops ex_G 1 0 (begin ex_G 0 (CFree 2)
    (ops ex_G 50 0 (begin ex_G 0 (CAcceptThread 0 a)
       (ops ex_G 1 1 (begin ex_G 1 (CFree 2)
          (ops ex_G 50 0 (begin ex_G 0 (CBlock 2) (initial ex_s0)))))))).
Theorem C51_accept_thread_refuted : exists P top pb rb G s0 x r,
  started P top pb rb G s0 /\ creach G pb rb (fun _ => True) false s0 x /\
  0 < g_core_count G /\ 1 < g_core_count G /\ r < g_dram_region_count G /\
  cf_held x 0 r = true /\ cf_held x 1 r = true.
Proof.
  exists ex_platform, 0, 6, 4, ex_G, ex_s0, ex_c51, 2.
  split; [exact ex_started|]. split.
  { unfold ex_c51. cbv zeta.
    apply ops_reach; [reflexivity|]. apply begin_reach; [reflexivity|vm_compute; reflexivity|reflexivity|exact I|].
    apply ops_reach; [reflexivity|]. apply begin_reach; [reflexivity|vm_compute; reflexivity|split; reflexivity|exact I|].
    apply ops_reach; [reflexivity|]. apply begin_reach; [reflexivity|vm_compute; reflexivity|reflexivity|exact I|].
    apply ops_reach; [reflexivity|]. apply begin_reach; [reflexivity|reflexivity|reflexivity|exact I|].
    constructor. }
  split; [reflexivity|]. split; [reflexivity|]. split; [reflexivity|].
  split; vm_compute; reflexivity.
Qed.
(** A configuration in which a core holds a lock while another one runs into it. *)
Definition ex_c51b : conf :=
  ops ex_G 1 0 (begin ex_G 0 (CBlock 2) (ops ex_G 3 1 (begin ex_G 1 (CBlock 2) (initial ex_s0)))).
Example C51_example : creach ex_G 6 4 (safe_call ex_G) false ex_s0 ex_c51b /\
  cf_held ex_c51b 1 2 = true /\ cf_held ex_c51b 0 2 = false /\
  exists k l, cf_task ex_c51b 0 = Running k (Ret monitor_concurrent_call) l.
Proof.
  split; [|split; [vm_compute; reflexivity|split; [vm_compute; reflexivity|]]].
  - unfold ex_c51b.
    apply ops_reach; [reflexivity|]. apply begin_reach; [reflexivity|vm_compute; reflexivity|reflexivity|exact I|].
    apply ops_reach; [reflexivity|]. apply begin_reach; [reflexivity|reflexivity|reflexivity|exact I|].
    constructor.
  - exists (CBlock 2). eexists. vm_compute. reflexivity.
Qed.

(** ** C52 *)
Theorem C52_owners_partial : forall P top pb rb G s0 x,
  started P top pb rb G s0 -> creach G pb rb (safe_call G) false s0 x ->
  owner_of G (cf_state x) 0 = 0 /\
  forall r, r < g_dram_region_count G ->
    owner_of G (cf_state x) r = 0 \/ owner_of G (cf_state x) r = 1 \/
    owner_of G (cf_state x) r = 2 \/ owner_of G (cf_state x) r = 3.
Proof.
  intros P top pb rb G s0 x ST R.
  destruct (reach_good _ _ _ _ _ _ _ _ _ ST (all_safe G) R) as [g [o [hd GD]]].
  destruct GD as [V I CO HE TA]. unfold owner_of. split.
  - rewrite (v_owner _ _ _ V 0) by exact (n_pos G pb rb g). apply (i_owner0 _ _ _ _ I).
  - intros r RL. rewrite (v_owner _ _ _ V r RL). pose proof (i_owner _ _ _ _ I r RL). lia.
Qed.
(** The OS bitmap agrees with the owners, except for a region whose lock and the
    lock of region 0 are both held, by the same core. *)
Theorem C52_bitmap_partial : forall P top pb rb G s0 x r,
  started P top pb rb G s0 -> creach G pb rb (safe_call G) false s0 x ->
  r < g_dram_region_count G ->
  (os_bit G (cf_state x) r = true <-> owner_of G (cf_state x) r = 0) \/
  exists c, c < g_core_count G /\ cf_held x c 0 = true /\ cf_held x c r = true.
Proof.
  intros P top pb rb G s0 x r ST R RL.
  destruct (reach_good _ _ _ _ _ _ _ _ _ ST (all_safe G) R) as [g [o [hd GD]]].
  pose proof (n_pos G pb rb g) as NP.
  destruct GD as [V I CO HE TA]. destruct (i_clean _ _ _ _ I r RL) as [C|[c [C0 CR]]].
  - left. unfold clean in C. rewrite (os_bit_view G pb rb g _ _ r V RL), C.
    unfold owner_of. rewrite (v_owner _ _ _ V r RL). apply N.eqb_eq.
  - right. exists c. pose proof (CO 0 c NP C0) as CL. split; [exact CL|].
    split; apply HE; auto.
Qed.
(** While lock 0 is free, devices can access the recorded DMA range only. *)
Theorem C52_dma_partial : forall P top pb rb G s0 x,
  started P top pb rb G s0 -> creach G pb rb (safe_call G) false s0 x ->
  lock_of G (cf_state x) 0 = 0 ->
  s_dma_start (cf_state x) < s_dma_end (cf_state x) /\
  forall a, a < 2 ^ 64 ->
    (dma_may_access (cf_state x) a <->
     s_dma_start (cf_state x) <= a < s_dma_end (cf_state x)).
Proof.
  intros P top pb rb G s0 x ST R L.
  destruct (reach_good _ _ _ _ _ _ _ _ _ ST (all_safe G) R) as [g [o [hd GD]]].
  pose proof (n_pos G pb rb g) as NP.
  destruct GD as [V I CO HE TA]. unfold lock_of in L. rewrite (v_lock _ _ _ V 0 NP), (i_lock _ _ _ _ I 0 NP) in L.
  destruct (i_dma _ _ _ _ I) as [[D1 D2]|[c C]]; [|rewrite C in L; discriminate].
  rewrite (v_dma_start _ _ _ V), (v_dma_end _ _ _ V). split; [apply D1|].
  intros a A. unfold dma_may_access. rewrite (v_dmar_mask _ _ _ V), (v_dmar_base _ _ _ V). apply D2.
  exact A.
Qed.
(** The owner of a region changes only in the documented ways, and only by a step
    of a core that holds the lock of the region. *)
Theorem C52_changes_partial : forall P top pb rb G s0 x y r,
  started P top pb rb G s0 -> creach G pb rb (safe_call G) false s0 x ->
  cstep G pb rb (safe_call G) false x y -> r < g_dram_region_count G ->
  owner_of G (cf_state y) r <> owner_of G (cf_state x) r ->
  exists c k p l, c < g_core_count G /\ cf_task x c = Running k p l /\ cf_held x c r = true /\
    owner_change k r (owner_of G (cf_state x) r) (owner_of G (cf_state y) r).
Proof.
  intros P top pb rb G s0 x y r ST R SP RL NE.
  destruct (reach_good _ _ _ _ _ _ _ _ _ ST (all_safe G) R) as [g [o [hd GD]]].
  destruct SP as [s t h c k C T AR AL|s t h c k op f i s' v C T SP NW
    |s t h c k v i C T|s t h c a v C T A CA|s t h a v A DA TP]; cbn [cf_state cf_task cf_held] in *;
    try (exfalso; apply NE; reflexivity).
  - destruct (good_op G pb rb g (safe_call G) false s t h c k op f i s' v o hd GD C T SP NW)
      as [q' [GU GD']].
    pose proof (gd_view _ _ _ _ _ _ GD) as V. pose proof (gd_view _ _ _ _ _ _ GD') as V'.
    cbn [cf_state] in V, V'. unfold owner_of in *.
    rewrite (v_owner _ _ _ V r RL), (v_owner _ _ _ V' r RL) in *.
    destruct (g_change _ _ _ _ _ _ _ _ _ GU r RL NE) as [H OC].
    exists c, k, (Do op f), i. split; [exact C|]. split; [exact T|]. split; [|exact OC].
    apply (gd_held _ _ _ _ _ _ GD); auto.
  - exfalso. apply NE.
    assert (AB : g_monitor_top G <= a).
    { destruct CA as [_ NP]. apply N.nlt_ge. intros L. apply NP.
      destruct GD as [V I CO HE TA]. cbn [cf_state] in V.
      rewrite (v_regs _ _ _ V) by auto. apply (i_par _ _ _ _ I); auto. }
    destruct (good_write G pb rb g (safe_call G) false s t h a v o hd GD AB) as [q' [GD' [E _]]].
    pose proof (gd_view _ _ _ _ _ _ GD) as V. pose proof (gd_view _ _ _ _ _ _ GD') as V'.
    cbn [cf_state] in V, V'. unfold owner_of.
    rewrite (v_owner _ _ _ V r RL), (v_owner _ _ _ V' r RL). rewrite E. reflexivity.
  - exfalso. apply NE.
    destruct (good_write G pb rb g (safe_call G) false s t h a v o hd GD TP) as [q' [GD' [E _]]].
    pose proof (gd_view _ _ _ _ _ _ GD) as V. pose proof (gd_view _ _ _ _ _ _ GD') as V'.
    cbn [cf_state] in V, V'. unfold owner_of.
    rewrite (v_owner _ _ _ V r RL), (v_owner _ _ _ V' r RL). rewrite E. reflexivity.
Qed.
(** The exception of C52_bitmap_partial occurs: in the middle of a block, the
    region is no longer owned by the OS but its bit is still set; one core is in
    the middle of a block while the other one completes one. *)
Definition ex_c52 : conf :=
  ops ex_G 50 0 (begin ex_G 0 (CFree 3) (ops ex_G 10 1 (begin ex_G 1 (CBlock 2)
    (ops ex_G 50 0 (begin ex_G 0 (CBlock 3) (initial ex_s0)))))).
Example C52_example : creach ex_G 6 4 (safe_call ex_G) false ex_s0 ex_c52 /\
  owner_of ex_G (cf_state ex_c52) 2 = 1 /\ os_bit ex_G (cf_state ex_c52) 2 = true /\
  cf_held ex_c52 1 0 = true /\ cf_held ex_c52 1 2 = true /\
  owner_of ex_G (cf_state ex_c52) 3 = 3 /\ os_bit ex_G (cf_state ex_c52) 3 = false.
Proof.
  split; [|repeat (split; [vm_compute; reflexivity|]); vm_compute; reflexivity].
  unfold ex_c52.
  do 2 (apply ops_reach; [reflexivity|]; apply begin_reach; [reflexivity|vm_compute; reflexivity|reflexivity|exact I|]).
  apply ops_reach; [reflexivity|]. apply begin_reach; [reflexivity|reflexivity|reflexivity|exact I|].
  constructor.
Qed.

(** ** C53 *)
Theorem C53_quiet_unlocked_partial : forall P top pb rb G s0 x r,
  started P top pb rb G s0 ->
  creach G pb rb (fun k => safe_call G k /\ leaky k = false) false s0 x ->
  quiet G x -> r < g_dram_region_count G -> lock_of G (cf_state x) r = 0.
Proof.
  intros P top pb rb G s0 x r ST R Q RL.
  destruct (reach_good _ _ _ _ _ _ _ _ _ ST (fun _ X => proj1 X) R) as [g [o [hd GD]]].
  destruct GD as [V I CO HE TA]. unfold lock_of.
  rewrite (v_lock _ _ _ V r RL), (i_lock _ _ _ _ I r RL).
  destruct (hd r) as [c|] eqn:E; [|reflexivity]. exfalso.
  pose proof (CO r c RL E) as C. specialize (TA c C). rewrite (Q c C) in TA.
  destruct TA as [h [RS [LK _]]]. apply (RS r RL) in E. destruct (LK r RL E) as [_ [k [[_ X] Y]]].
  congruence.
Qed.
(** With all calls of [safe_call] at most the lock of region 0 stays set. *)
Theorem C53_quiet_partial : forall P top pb rb G s0 x r,
  started P top pb rb G s0 -> creach G pb rb (safe_call G) false s0 x ->
  quiet G x -> 0 < r < g_dram_region_count G -> lock_of G (cf_state x) r = 0.
Proof.
  intros P top pb rb G s0 x r ST R Q RL.
  destruct (reach_good _ _ _ _ _ _ _ _ _ ST (all_safe G) R) as [g [o [hd GD]]].
  destruct GD as [V I CO HE TA]. unfold lock_of.
  assert (RN : r < g_dram_region_count G) by lia.
  rewrite (v_lock _ _ _ V r RN), (i_lock _ _ _ _ I r RN).
  destruct (hd r) as [c|] eqn:E; [|reflexivity]. exfalso.
  pose proof (CO r c RN E) as C. specialize (TA c C). rewrite (Q c C) in TA.
  destruct TA as [h [RS [LK _]]]. apply (RS r RN) in E. destruct (LK r RN E) as [X _]. lia.
Qed.
Definition ex_c53 : conf := ops ex_G 50 1 (begin ex_G 1 (CDeleteThread 0) (initial ex_s0)).
Theorem C53_delete_thread_refuted : exists P top pb rb G s0 x,
  started P top pb rb G s0 /\ creach G pb rb (safe_call G) false s0 x /\
  quiet G x /\ lock_of G (cf_state x) 0 = 1.
Proof.
  exists ex_platform, 0, 6, 4, ex_G, ex_s0, ex_c53. split; [exact ex_started|]. split.
  { unfold ex_c53. apply ops_reach; [reflexivity|].
    apply begin_reach; [reflexivity|reflexivity|reflexivity|exact I|]. constructor. }
  split; [|vm_compute; reflexivity].
  intros c C. change (g_core_count ex_G) with 2 in C.
  assert (E : c = 0 \/ c = 1) by lia. destruct E; subst; vm_compute; reflexivity.
Qed.
Definition ex_c53b : conf := ops ex_G 50 0 (ops ex_G 50 1 (ops ex_G 5 0
  (begin ex_G 1 (CBlock 3) (begin ex_G 0 (CBlock 2) (initial ex_s0))))).
Example C53_example : 
  creach ex_G 6 4 (fun k => safe_call ex_G k /\ leaky k = false) false ex_s0 ex_c53b /\
  quiet ex_G ex_c53b.
Proof.
  split.
  - unfold ex_c53b. do 3 (apply ops_reach; [reflexivity|]).
    do 2 (apply begin_reach; [reflexivity|reflexivity|reflexivity|split; [exact I|reflexivity]|]).
    constructor.
  - intros c C. change (g_core_count ex_G) with 2 in C.
    assert (E : c = 0 \/ c = 1) by lia. destruct E; subst; vm_compute; reflexivity.
Qed.

(** ** C54 *)
(** All calls but those whose loop wraps around the address space ([loop_ends],
    SpecCost.v), on machines with any amount of DRAM, whatever the other cores, the OS
    and devices do: at most B operations, and the next step is always possible. *)
Theorem C54_bounded_partial : forall P top pb rb G s0,
  started P top pb rb G s0 ->
  exists B, forall x c k p l,
    creach G pb rb (fun _ => True) false s0 x -> c < g_core_count G ->
    cf_task x c = Running k p l -> loop_ends G pb rb k ->
    N.of_nat (length l) <= B /\
    exists y, cstep G pb rb (fun _ => True) false x y /\
      (cf_task y c = Idle \/ exists p' e, cf_task y c = Running k p' (e :: l)).
Proof.
  intros P top pb rb G s0 ST. destruct (started_geom _ _ _ _ _ _ ST) as [g _].
  destruct (calls_bounded G pb rb g) as [B HB]. exists B.
  assert (INV : forall x, creach G pb rb (fun _ => True) false s0 x -> forall c k p l,
    c < g_core_count G -> cf_task x c = Running k p l -> loop_ends G pb rb k ->
    exists m, m + N.of_nat (length l) <= B /\ within p m any).
  { intros x R. induction R as [|x y R IH SP]; intros c k p l C T EN; [discriminate|].
    destruct SP as [s t h c1 k1 C1 T1 AR AL|s t h c1 k1 op f i s' v C1 T1 SP NW
      |s t h c1 k1 v i C1 T1|s t h c1 a v C1 T1 A CA|s t h a v A DA TP];
      cbn [cf_state cf_task cf_held] in *; try (eapply IH; eassumption).
    - unfold upd in T. destruct (N.eqb_spec c c1) as [->|]; [|eapply IH; eassumption].
      inversion T; subst. exists B. cbn. split; [lia|]. apply HB; assumption.
    - unfold upd in T. destruct (N.eqb_spec c c1) as [->|]; [|eapply IH; eassumption].
      inversion T; subst. destruct (IH c1 k _ _ C1 T1 EN) as [m [M W]]. cbn [within] in W.
      destruct W as [W1 W2]. exists (m - 1). split; [cbn [length]; lia|apply W2].
    - unfold upd in T. destruct (N.eqb_spec c c1) as [->|]; [discriminate|eapply IH; eassumption]. }
  intros x c k p l R C T EN. destruct (INV x R c k p l C T EN) as [m [M W]]. split; [lia|].
  destruct x as [s t h]. cbn [cf_task] in T. destruct p as [v|o f|]; cbn [within] in W.
  - eexists. split; [eapply cs_return; eauto|]. left. cbn. apply upd_same.
  - destruct (step c o s) as [s' v] eqn:SP.
    eexists. split; [eapply cs_op; eauto; discriminate|]. right. exists (f v), (o, v).
    cbn. apply upd_same.
  - contradiction.
Qed.
(** On a machine of ordinary size that is every call. *)
Example C54_example : forall k, loop_ends ex_G 6 4 k.
Proof.
  intros k. destruct k; cbn [loop_ends]; try exact Logic.I; [|vm_compute; discriminate].
  assert (D : g_dram_size ex_G <= 2 ^ 64 - 2 ^ (12 + 6)) by (vm_compute; discriminate).
  change (2 ^ (12 + 6)) with 262144 in *. change (2 ^ 64) with 18446744073709551616 in *. lia.
Qed.

(** If DRAM reaches into the last stripe of the address space, the loop of
    set_dma_range(2^64 - stripe size, 0) wraps around and never ends, whatever the
    bound on its number of iterations. *)
Theorem C54_set_dma_refuted : forall G pb rb c s os_owns,
  geom G pb rb -> 2 ^ 64 < g_dram_size G + 2 ^ (12 + pb) ->
  (forall r, 0 < r < g_dram_region_count G -> lock_of G s r = 0) ->
  let base := 2 ^ 64 - 2 ^ (12 + pb) in
  is_valid_range base 0 = true /\ is_dram_address G (N.lor base 0) = true /\
  forall fuel, snd (run c (dma_stripes fuel G base (base + 1) os_owns) s) = None.
Proof.
  intros G pb rb c s os_owns g HD LK base.
  pose proof (layout _ _ _ g) as (L1 & L2 & L3 & L4 & L5 & L6 & L7 & L8).
  pose proof (geo_pb _ _ _ g) as GP. pose proof (geo_rb _ _ _ g) as GR.
  pose proof (geo_size _ _ _ g) as GS. pose proof (geo_D _ _ _ g) as GD.
  assert (SP : 2 ^ (12 + pb) <= 2 ^ 30) by (apply pow2_le; lia).
  pose proof (pow2_pos (12 + pb)) as SN.
  change (2 ^ 30) with 1073741824 in SP.
  set (S := 2 ^ (12 + pb)) in *. set (K := 2 ^ (64 - (12 + pb))).
  assert (WK : W64 = K * S).
  { unfold K, S. rewrite <- pow2_add. replace (64 - (12 + pb) + (12 + pb)) with 64 by lia. reflexivity. }
  assert (KP : 0 < K) by (unfold K; pose proof (pow2_pos (64 - (12 + pb))); lia).
  change (2 ^ 64) with W64 in *.
  split; [|split].
  - apply range_iff; [unfold base, W64 in *; lia|reflexivity|].
    exists 0. split; [lia|]. split; [reflexivity|apply N.mod_1_r].
  - rewrite N.lor_0_r. unfold is_dram_address, base. lia.
  - intros fuel.
    assert (X : forall fuel z s b, z < K ->
      (forall r, 0 < r < g_dram_region_count G -> lock_of G s r = 0) ->
      snd (run c (dma_stripes fuel G (z * S) (base + 1) b) s) = None).
    { clear s LK. induction fuel0 as [|k IH]; intros z s b ZK LK; cbn [dma_stripes].
      - destruct (N.ltb_spec (z * S) (base + 1)) as [L|L]; [reflexivity|].
        exfalso. assert ((z + 1) * S <= K * S) by (apply N.mul_le_mono_r; lia). unfold base in L. lia.
      - destruct (N.ltb_spec (z * S) (base + 1)) as [L|L].
        2:{ exfalso. assert ((z + 1) * S <= K * S) by (apply N.mul_le_mono_r; lia). unfold base in L. lia. }
        rewrite GS. set (r := dram_region_for G (z * S)).
        assert (RL : r < g_dram_region_count G) by apply (region_lt G pb rb g).
        assert (NX : exists z', z' < K /\ wadd (z * S) S = z' * S).
        { destruct (N.eq_dec (z + 1) K) as [ZE|ZE].
          - exists 0. split; [exact KP|]. unfold wadd. replace (z * S + S) with W64;
              [rewrite N.mod_same by discriminate; lia|]. rewrite WK, <- ZE. lia.
          - exists (z + 1). split; [lia|].
            assert ((z + 2) * S <= K * S) by (apply N.mul_le_mono_r; lia).
            rewrite wadd_small by lia. lia. }
        destruct NX as [z' [Z' ->]].
        destruct (N.eqb_spec r 0) as [R0|R0]; cbn [negb].
        + rewrite R0. cbn [bind]. rewrite run_bind. cbn [run load64 op1 step]. cbn [bind].
          apply IH; auto.
        + rewrite run_bind. unfold test_and_set_dram_region_lock, clear_dram_region_lock.
          rewrite !(region_addr_lock G pb rb g) by exact RL.
          cbn [run op1 bind step]. change (ld 8 (s_mem s) (lock_addr G r)) with (lock_of G s r).
          rewrite (LK r) by lia. cbn [negb N.eqb].
          rewrite run_bind. cbn [run load64 op1 step bind]. apply IH; auto.
          intros r' R'. unfold lock_of. cbn [set_mem s_mem].
          unfold lock_addr. destruct (N.eq_dec r' r) as [->|NE].
          * apply ld8_st8. reflexivity.
          * rewrite !ld_st_other by (change (N.of_nat 8) with 8; lia). apply LK. exact R'. }
    assert (BK : base = (K - 1) * S) by (unfold base; nia).
    rewrite BK at 1. apply X; [lia|exact LK].
Qed.
(** Exactly when set_dma_range, with nobody interfering, never returns, in any state: for
    the naturally aligned ranges in DRAM that are shorter than a stripe and start in the last
    stripe of the address space, when no region is locked. *)
Theorem C54_set_dma_exact : forall G pb rb c s base mask,
  geom G pb rb -> base < 2 ^ 64 -> mask < 2 ^ 64 ->
  snd (do_call G c (CSetDmaRange base mask) s) = None <->
  (exists k, k <= 64 /\ mask = 2 ^ k - 1 /\ base mod 2 ^ k = 0) /\
  base + mask < g_dram_size G /\
  mask + 1 < 2 ^ (12 + pb) /\ 2 ^ 64 - 2 ^ (12 + pb) <= base /\
  forall r, r < g_dram_region_count G -> lock_of G s r = 0.
Proof.
  intros G pb rb c s base mask g B M. unfold do_call. cbn [call_prog].
  rewrite (dma_hangs G pb rb g c s base mask B M). change (2 ^ 64) with W64. unfold pow2_range.
  pose proof (geo_pb _ _ _ g) as GP. pose proof (pow2_le (12 + pb) 30 ltac:(lia)) as X.
  change (2 ^ 30) with 1073741824 in X.
  assert (E : W64 <= base + 2 ^ (12 + pb) <-> W64 - 2 ^ (12 + pb) <= base) by (unfold W64; lia).
  rewrite E. reflexivity.
Qed.
Example C54_huge_example : exists s' G,
  run 0 (boot_from huge_platform 0) (ex_boot_state 0) = (s', Some G) /\
  geom G 18 4 /\ 2 ^ 64 < g_dram_size G + 2 ^ (12 + 18) /\
  snd (do_call G 0 (CSetDmaRange (2 ^ 64 - 2 ^ 30) 4095) s') = None.
Proof.
  assert (S : supported huge_platform 0 18 4).
  { constructor; try (vm_compute; intuition congruence).
    - intros [i [H1 [H2 H3]]]. cbn in *. assert (i = 0) by lia. subst. discriminate.
    - exists 6, 10. vm_compute. intuition congruence. }
  destruct (boot_supported 0 (ex_boot_state 0) _ _ _ _ S) as [s' [G [R B]]].
  exists s', G. split; [exact R|]. pose proof (booted_geom _ _ _ _ _ _ _ _ S B) as g.
  assert (D : g_dram_size G = 2 ^ 64 - 4096).
  { rewrite (bt_globals _ _ _ _ _ _ _ _ B). vm_compute. reflexivity. }
  split; [exact g|]. split; [rewrite D; vm_compute; reflexivity|].
  apply (C54_set_dma_exact G 18 4 0 s' _ _ g); [reflexivity|reflexivity|].
  split; [exists 12; split; [discriminate|split; reflexivity]|].
  split; [rewrite D; reflexivity|]. split; [reflexivity|]. split; [discriminate|].
  intros r RL. pose proof (bt_zero _ _ _ _ _ _ _ _ B) as Z.
  pose proof (layout _ _ _ g) as (L1 & L2 & L3 & L4 & L5 & L6 & L7 & L8).
  unfold lock_of. apply ld8_zero. intros b HB. apply Z. lia.
Qed.

(** ** C55 *)
Theorem C55_flushed_partial : forall P top pb rb G s0 x y r,
  started P top pb rb G s0 -> creach G pb rb (safe_call G) true s0 x ->
  cstep G pb rb (safe_call G) true x y -> r < g_dram_region_count G ->
  owner_of G (cf_state x) r = 1 -> owner_of G (cf_state y) r <> 1 ->
  owner_of G (cf_state y) r = 3 /\
  forall c, c < g_core_count G ->
    blocked_at_of G (cf_state x) r <= flushed_of G (cf_state x) c.
Proof.
  intros P top pb rb G s0 x y r ST R SP RL O1 O2.
  destruct (reach_good _ _ _ _ _ _ _ _ _ ST (all_safe G) R) as [g [o [hd GD]]].
  assert (WR : forall s t h a v, good G (safe_call G) true (mkConf s t h) o hd -> g_monitor_top G <= a ->
     owner_of G s r = owner_of G (set_mem s (st 1 (s_mem s) a v)) r).
  { intros s t h a v GD1 AB.
    destruct (good_write G pb rb g (safe_call G) true s t h a v o hd GD1 AB) as [q' [GD' [E _]]].
    pose proof (gd_view _ _ _ _ _ _ GD1) as V. pose proof (gd_view _ _ _ _ _ _ GD') as V'.
    cbn [cf_state] in V, V'. unfold owner_of.
    rewrite (v_owner _ _ _ V r RL), (v_owner _ _ _ V' r RL). rewrite E. reflexivity. }
  destruct SP as [s t h c k C T AR AL|s t h c k op f i s' v C T SP NW
    |s t h c k v i C T|s t h c a v C T A CA|s t h a v A DA TP]; cbn [cf_state cf_task cf_held] in *;
    try (exfalso; congruence).
  - destruct (good_op G pb rb g (safe_call G) true s t h c k op f i s' v o hd GD C T SP NW)
      as [q' [GU GD']].
    pose proof (gd_view _ _ _ _ _ _ GD) as V. pose proof (gd_view _ _ _ _ _ _ GD') as V'.
    cbn [cf_state] in V, V'. unfold owner_of in *.
    rewrite (v_owner _ _ _ V r RL) in O1. rewrite (v_owner _ _ _ V' r RL) in *.
    destruct (g_change _ _ _ _ _ _ _ _ _ GU r RL) as [H OC]; [congruence|].
    assert (O3 : o_owner q' r = 3).
    { destruct OC as [OC|[OC|[OC|[OC|OC]]]]; destruct OC as (X1 & X2 & X3); try congruence; lia. }
    split; [exact O3|]. intros c' C'. unfold blocked_at_of, flushed_of.
    rewrite (v_blocked _ _ _ V r RL), (v_flushed _ _ _ V c' C').
    apply (g_free _ _ _ _ _ _ _ _ _ GU); auto.
  - exfalso. apply O2. rewrite <- (WR s t h a v GD); [exact O1|].
    destruct CA as [_ NP]. apply N.nlt_ge. intros L. apply NP.
    destruct GD as [V I CO HE TA]. cbn [cf_state] in V.
    rewrite (v_regs _ _ _ V) by auto. apply (i_par _ _ _ _ I); auto.
  - exfalso. apply O2. rewrite <- (WR s t h a v GD); [exact O1|exact TP].
Qed.
(** Core 1 frees a region that core 0 blocked. *)
Definition ex_c55 : conf := ops ex_G 5 1 (begin ex_G 1 (CFree 2)
    (ops ex_G 50 0 (begin ex_G 0 CFlush (ops ex_G 50 1 (begin ex_G 1 CFlush
      (ops ex_G 50 0 (begin ex_G 0 (CBlock 2) (initial ex_s0)))))))).
Example C55_example : creach ex_G 6 4 (safe_call ex_G) true ex_s0 ex_c55 /\
  cstep ex_G 6 4 (safe_call ex_G) true ex_c55 (ops ex_G 1 1 ex_c55) /\
  owner_of ex_G (cf_state ex_c55) 2 = 1 /\ owner_of ex_G (cf_state (ops ex_G 1 1 ex_c55)) 2 <> 1.
Proof.
  split; [|split].
  - unfold ex_c55.
    do 3 (apply ops_reach; [reflexivity|]; apply begin_reach; [reflexivity|vm_compute; reflexivity|vm_compute; auto|exact I|]).
    apply ops_reach; [reflexivity|]. apply begin_reach; [reflexivity|reflexivity|reflexivity|exact I|].
    constructor.
  - apply op_step; [reflexivity|vm_compute; reflexivity].
  - split; [vm_compute; reflexivity|vm_compute; discriminate].
Qed.

Definition P_Conc_theorems := (C51_mutual_exclusion_partial, C51_lock_word_partial,
  C51_release_partial, C51_accept_thread_refuted, C51_example, C52_owners_partial,
  C52_bitmap_partial, C52_dma_partial, C52_changes_partial, C52_example,
  C53_quiet_unlocked_partial, C53_quiet_partial, C53_delete_thread_refuted, C53_example,
  C54_bounded_partial, C54_example, C54_set_dma_refuted, C54_set_dma_exact, C54_huge_example,
  C55_flushed_partial, C55_example).
Print Assumptions P_Conc_theorems.
