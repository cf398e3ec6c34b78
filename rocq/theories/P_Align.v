(** * Property C99: the memory accesses of the monitor are naturally aligned. *)
From Coq Require Import NArith ZArith Lia Bool List.
From Coq Require Import ZifyBool ZifyNat ZifyN.
From Verif Require Import Word Machine ModelBare ModelHash ModelInl ModelRegions
  ModelMetadata ModelEnclave ModelBoot ModelApi Lib BareProofs BootProofs SpecGeometry
  GeomProofs Trace SpecMonitor SpecHistory ViewProofs SeqProofs SeqCalls SeqCalls2 SeqCalls3
  HistoryProofs P_Boot P_Regions P_Enclave ConcProofs ConcCalls ConcCalls2 ConcGlobal
  AtomicProofs P_Conc SpecConcurrent SpecAtomic SpecAlign AlignProofs.
Import ListNotations.
Open Scope N_scope.
Ltac Zify.zify_post_hook ::= Z.div_mod_to_equations.

(** ** The boot sequence *)
Lemma uses_trace {A} (P : op -> Prop) c (p : prog A) : forall s, uses P p -> Forall P (trace c p s).
Proof.
  induction p as [a|o k IH|]; intros s; cbn [uses trace]; try constructor.
  intros [H1 H2]. destruct (step c o s) as [s' v]. constructor; auto.
Qed.
Lemma uses_assoc {A B C} P (p : prog A) (f : A -> prog B) (h : B -> prog C) :
  uses P (bind p (fun a => bind (f a) h)) -> uses P (bind (bind p f) h).
Proof. induction p as [a|o k IH|]; cbn; auto. intros [H1 H2]. split; auto. Qed.
Lemma uses_ub {A} b x (f : unit -> prog A) : (forall v, uses nat_al (f v)) -> uses nat_al (bind (ub_if b x) f).
Proof. intros H. unfold ub_if. destruct b; cbn; auto. Qed.
Lemma u_shl {A} x (f : N -> prog A) : (forall v, uses nat_al (f v)) -> uses nat_al (bind (int_one_shl x) f).
Proof. intros H. unfold int_one_shl, ub_if. destruct (int_shl_ub 1 x); cbn; auto. Qed.
Lemma u_dram_regions P : uses nat_al (boot_init_dram_regions P).
Proof.
  unfold boot_init_dram_regions. cbv zeta. apply uses_bind.
  { apply uses_for_exit. intros i. destruct (_ && _); exact I. }
  intros [[]|]; [exact I|]. apply u_shl. intros l1. destruct (negb _); [exact I|].
  apply u_shl. intros s1. destruct (negb _); [exact I|]. destruct (_ <=? _); [exact I|].
  match goal with |- uses _ (if ?b then _ else _) => destruct b end; [exact I|].
  apply uses_bind; [apply uses_op; exact I|intros _].
  do 4 (apply u_shl; intros ?). apply uses_ub. intros ?. exact I.
Qed.
Lemma u_protection G : al8 (g_os_region_bitmap G) -> uses nat_al (boot_init_protection G).
Proof.
  intros A. unfold boot_init_protection. apply uses_ub. intros ?. cbv zeta.
  do 3 (apply uses_bind; [apply uses_op; first [exact I|exact A]|intros _]).
  destruct (_ <? _); [exact I|]. do 4 (apply uses_bind; [apply uses_op; exact I|intros _]). exact I.
Qed.
Lemma u_boot P top : al8 top -> uses nat_al (boot_from P top).
Proof.
  intros A. unfold boot_from. apply uses_bind; [apply u_dram_regions|]. intros ge. cbv zeta.
  unfold boot_init_dynamic_arrays. cbv zeta.
  assert (A1 : al8 (wadd top (wmul core_info_size (p_core_count P)))) by al.
  set (dr := wadd top (wmul core_info_size (p_core_count P))) in *. clearbody dr.
  assert (A2 : al8 (wadd dr (wmul dram_region_info_size (ge_region_count ge)))) by al.
  set (drs := wadd dr (wmul dram_region_info_size (ge_region_count ge))) in *. clearbody drs.
  assert (A3 : al8 (wadd drs dram_regions_info_size)) by al.
  set (bm := wadd drs dram_regions_info_size) in *. clearbody bm.
  apply uses_assoc, uses_bind.
  - apply uses_for_n. intros i.
    apply uses_bind; [|intros _; do 4 u1; exact I].
    apply uses_op. change (al8 (wadd (wadd dr (wmul dram_region_info_size i)) dri_lock)). al.
  - intros _. apply uses_assoc, uses_bind; [apply u_st8; al|intros _].
    apply uses_assoc, uses_bind; [apply uses_for_n; intros i; apply u_setbit; exact A3|intros _].
    cbn [bind]. apply u_protection. exact A3.
Qed.

(** ** C99 *)
(** Every operation of the boot sequence is naturally aligned, on every platform and
    from every initial state, if the tables start at a multiple of 8. *)
Theorem C99_boot : forall P top c s, top mod 8 = 0 ->
  Forall naturally_aligned (trace c (boot_from P top) s).
Proof. intros P top c s T. apply uses_trace, u_boot. exact T. Qed.

Lemma started_core P top pb rb G s : started P top pb rb G s -> g_core G = top.
Proof.
  intros ST. destruct (st_boot _ _ _ _ _ _ ST) as [c [s0 [_ [R _]]]].
  destruct (boot_supported c s0 _ _ _ _ (st_supported _ _ _ _ _ _ ST)) as [s' [G' [R' B]]].
  rewrite R in R'. inversion R'; subst. rewrite (bt_globals _ _ _ _ _ _ _ _ B). reflexivity.
Qed.
Definition c99_call (G : globals) (k : call) : Prop := safe_call G k /\ aligned_call k.
Lemma reach_aligned P top pb rb G s0 x : started P top pb rb G s0 -> top mod 8 = 0 ->
  creach G pb rb (c99_call G) false s0 x -> forall c k p l,
  c < g_core_count G -> cf_task x c = Running k p l -> aligned G c p any.
Proof.
  intros ST HT R. destruct (started_geom _ _ _ _ _ _ ST) as [g _].
  assert (HT' : al8 (g_core G)) by (rewrite (started_core _ _ _ _ _ _ ST); exact HT).
  induction R as [|x y R IH SP]; intros c k p l C T; [discriminate|].
  destruct (reach_good _ _ _ _ _ _ _ _ _ ST (fun k (H : c99_call G k) => proj1 H) R)
    as [_ [q [hd GD]]].
  destruct SP as [s t h c1 k1 C1 T1 AR AL|s t h c1 k1 o f i s' v C1 T1 SP NW
    |s t h c1 k1 v i C1 T1|s t h c1 a v C1 T1 A CA|s t h a v A DA TP];
    cbn [cf_state cf_task cf_held] in *; try (eapply IH; eassumption);
    unfold upd in T; destruct (N.eqb_spec c c1) as [->|NE]; try (eapply IH; eassumption).
  - inversion T; subst. destruct AL as [A1 A2]. eapply a_call; eauto.
  - inversion T; subst. specialize (IH c1 k _ _ C T1). cbn [aligned] in IH. apply IH.
    destruct GD as [V I CO HE TA]. cbn [cf_state] in V. split; [|split].
    + intros r' RL ->. pose proof (f_equal snd SP) as EV. cbn -[ld] in EV. subst v. unfold owner_addr.
      rewrite (v_owner _ _ _ V r' RL). split; [apply (ConcProofs.i_owner _ _ _ _ I); exact RL|].
      intros ->. apply (ConcProofs.i_owner0 _ _ _ _ I).
    + intros ->. pose proof (f_equal snd SP) as EV. cbn in EV. congruence.
    + intros ->. pose proof (f_equal snd SP) as EV. cbn -[ld] in EV. subst v.
      rewrite (v_encl _ _ _ V c1 C). apply (ConcProofs.i_encl _ _ _ _ I). exact C.
  - discriminate.
Qed.
(** In every interleaved execution from a booted state, the next operation of every
    core is naturally aligned; copy_debug_enclave_page is called with multiples of 8,
    accept_thread is not called. *)
Theorem C99_aligned_partial : forall P top pb rb G s0 x c k o f l,
  started P top pb rb G s0 -> top mod 8 = 0 ->
  creach G pb rb (fun k => safe_call G k /\
    match k with CCopyDebugPage id _ _ _ => id mod 8 = 0 | _ => True end) false s0 x ->
  c < g_core_count G -> cf_task x c = Running k (Do o f) l -> naturally_aligned o.
Proof.
  intros P top pb rb G s0 x c k o f l ST HT R C T.
  destruct (reach_aligned _ _ _ _ _ _ _ ST HT R c k _ l C T) as [H _]. exact H.
Qed.

(** Core 1 is in the middle of block_dram_region, about to store a word of the region
    table; core 0 is about to test a region lock. *)
Definition next_op (x : conf) (c : N) : option op :=
  match cf_task x c with Running _ (Do o _) _ => Some o | _ => None end.
Definition ex_c99 : conf :=
  begin ex_G 0 (CCreateEnclave (2 * 262144) 0 4095 1 false)
    (ops ex_G 8 1 (begin ex_G 1 (CBlock 2) (initial ex_s0))).
Example C99_example : started ex_platform 0 6 4 ex_G ex_s0 /\
  creach ex_G 6 4 (fun k => safe_call ex_G k /\
    match k with CCopyDebugPage id _ _ _ => id mod 8 = 0 | _ => True end) false ex_s0 ex_c99 /\
  next_op ex_c99 1 = Some (OSt 8 (64 + 40 * 2 + 8) 1) /\
  next_op ex_c99 0 = Some (OTas (64 + 40 * 2)).
Proof.
  split; [exact ex_started|]. split; [|split].
  - unfold ex_c99. apply begin_reach;
      [reflexivity|vm_compute; reflexivity|repeat split; reflexivity|split; exact Logic.I|].
    apply ops_reach; [reflexivity|].
    apply begin_reach; [reflexivity|reflexivity|reflexivity|split; exact Logic.I|]. constructor.
  - vm_compute. reflexivity.
  - vm_compute. reflexivity.
Qed.
(** An access of 4 bytes that is aligned, one of 8 bytes that is not. *)
Example C99_natural : naturally_aligned (OLd 4 12) /\ ~ naturally_aligned (OLd 8 12) /\
  ~ naturally_aligned (OTas 4) /\ naturally_aligned (OLd 1 7).
Proof. repeat split; try reflexivity; intros H; vm_compute in H; discriminate. Qed.

(** ** The restrictions are needed *)
(** copy_debug_enclave_page does not check the alignment of the enclave identifier
    before it loads from the record. *)
Theorem C99_copy_debug_refuted : exists P pb rb G s0 x c o,
  started P 0 pb rb G s0 /\ creach G pb rb (safe_call G) false s0 x /\
  c < g_core_count G /\ next_op x c = Some o /\ ~ naturally_aligned o.
Proof.
  exists ex_platform, 6, 4, ex_G, ex_s0,
    (ops ex_G 5 0 (begin ex_G 0 (CCopyDebugPage (262144 + 1) (2 * 262144) (3 * 262144) false) (initial ex_s0))),
    0, (OLd 8 (262144 + 1 + 24)).
  split; [exact ex_started|]. split; [|split; [|split]].
  - apply ops_reach; [reflexivity|].
    apply begin_reach; [reflexivity|vm_compute; reflexivity|repeat split; reflexivity|exact Logic.I|constructor].
  - reflexivity.
  - vm_compute. reflexivity.
  - intros H. vm_compute in H. discriminate.
Qed.
(** accept_thread does not check the alignment of the thread identifier, whose lock it
    clears with an atomic operation. *)
Theorem C99_accept_thread_refuted : exists P pb rb G s0 x c a,
  started P 0 pb rb G s0 /\ creach G pb rb (fun _ => True) false s0 x /\
  c < g_core_count G /\ next_op x c = Some (OClr a) /\ ~ naturally_aligned (OClr a).
Proof.
  exists ex_platform, 6, 4, ex_G, ex_s0,
    (ops ex_G 8 0 (begin ex_G 0 (CAcceptThread (3 * 262144 + 1) (1023 * 4096)) (initial ex_s0))),
    0, (3 * 262144 + 1).
  split; [exact ex_started|]. split; [|split; [|split]].
  - apply ops_reach; [reflexivity|].
    apply begin_reach; [reflexivity|vm_compute; reflexivity|repeat split; reflexivity|exact Logic.I|constructor].
  - reflexivity.
  - vm_compute. reflexivity.
  - intros H. vm_compute in H. discriminate.
Qed.
(** Tables that start at an odd address: a region lock is cleared there. *)
Theorem C99_top_refuted : exists P c s, P = ex_platform /\
  Exists (fun o => ~ naturally_aligned o) (trace c (boot_from P 1) s).
Proof.
  exists ex_platform, 0, (ex_boot_state 0). split; [reflexivity|].
  apply Exists_exists. exists (OClr 65). split.
  - assert (E : nth_error (trace 0 (boot_from ex_platform 1) (ex_boot_state 0)) 1 = Some (OClr 65))
      by (vm_compute; reflexivity).
    eapply nth_error_In. exact E.
  - intros H. vm_compute in H. discriminate.
Qed.

Definition P_Align_theorems := (C99_boot, C99_aligned_partial, C99_example, C99_natural,
  C99_copy_debug_refuted, C99_accept_thread_refuted, C99_top_refuted).
Print Assumptions P_Align_theorems.
