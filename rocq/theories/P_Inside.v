(** * Property C57: the monitor reads and writes nothing but DRAM. *)
From Coq Require Import NArith ZArith Lia Bool List.
From Coq Require Import ZifyBool ZifyNat ZifyN.
From Verif Require Import Word Machine ModelBare ModelHash ModelInl ModelRegions
  ModelMetadata ModelEnclave ModelBoot ModelApi Lib BareProofs BootProofs SpecGeometry
  GeomProofs Trace SpecMonitor SpecHistory ViewProofs SeqProofs SeqCalls SeqCalls2 SeqCalls3
  HistoryProofs P_Boot P_Regions P_Enclave ConcProofs ConcCalls ConcCalls2 ConcGlobal
  AtomicProofs P_Conc SpecConcurrent SpecAtomic SpecInside InsideProofs.
Import ListNotations.
Open Scope N_scope.
Ltac Zify.zify_post_hook ::= Z.div_mod_to_equations.

(** The calls of C57: those of the histories, with identifiers in the first stripes. *)
Definition inside_call (G : globals) (pb rb : N) (k : call) : Prop :=
  safe_call G k /\ near_call G pb rb k.

Lemma step_words c o s s' v : step c o s = (s', v) -> s_words s' = s_words s.
Proof. intros E. apply (f_equal fst) in E. cbn [fst] in E. subst s'. destruct o; reflexivity. Qed.
Lemma reach_words G pb rb al nw s0 x : creach G pb rb al nw s0 x ->
  s_words (cf_state x) = s_words s0.
Proof.
  intros R. induction R as [|x y R IH SP]; [reflexivity|]. rewrite <- IH. clear IH R.
  destruct SP; cbn [cf_state]; try reflexivity. eapply step_words; eassumption.
Qed.
Lemma reach_inside P top pb rb G s0 x : started P top pb rb G s0 ->
  2 ^ (12 + pb + rb) <= g_dram_size G -> g_dram_size G mod 4096 = 0 -> s_words s0 <= 8 ->
  creach G pb rb (inside_call G pb rb) false s0 x -> forall c k p l,
  c < g_core_count G -> cf_task x c = Running k p l -> inside G c (s_words s0) p any.
Proof.
  intros ST HD HP HW R. destruct (started_geom _ _ _ _ _ _ ST) as [g _].
  induction R as [|x y R IH SP]; intros c k p l C T; [discriminate|].
  destruct (reach_good _ _ _ _ _ _ _ _ _ ST (fun k (H : inside_call G pb rb k) => proj1 H) R)
    as [_ [q [hd GD]]].
  destruct SP as [s t h c1 k1 C1 T1 AR AL|s t h c1 k1 o f i s' v C1 T1 SP NW
    |s t h c1 k1 v i C1 T1|s t h c1 a v C1 T1 A CA|s t h a v A DA TP];
    cbn [cf_state cf_task cf_held] in *; try (eapply IH; eassumption);
    unfold upd in T; destruct (N.eqb_spec c c1) as [->|NE]; try (eapply IH; eassumption).
  - inversion T; subst. destruct AL as [A1 A2]. eapply i_call; eauto.
  - inversion T; subst. specialize (IH c1 k _ _ C T1). cbn [inside] in IH. apply IH.
    destruct GD as [V I CO HE TA]. cbn [cf_state] in V. split; [|split].
    + intros r' RL ->. pose proof (f_equal snd SP) as EV. cbn -[ld] in EV. subst v. unfold owner_addr.
      rewrite (v_owner _ _ _ V r' RL). split; [apply (ConcProofs.i_owner _ _ _ _ I); exact RL|].
      intros ->. apply (ConcProofs.i_owner0 _ _ _ _ I).
    + intros ->. pose proof (f_equal snd SP) as EV. cbn in EV. congruence.
    + intros ->. pose proof (f_equal snd SP) as EV. cbn -[ld] in EV. subst v.
      rewrite (v_encl _ _ _ V c1 C). apply (ConcProofs.i_encl _ _ _ _ I). exact C.
  - discriminate.
Qed.

(** ** C57 *)
(** In every interleaved execution, every byte that a core's next operation reads
    or writes is a byte of DRAM. *)
Theorem C57_in_dram_partial : forall P top pb rb G s0 x c k o f l a,
  started P top pb rb G s0 -> creach G pb rb (inside_call G pb rb) false s0 x ->
  2 ^ (12 + pb + rb) <= g_dram_size G -> g_dram_size G mod 4096 = 0 -> s_words s0 <= 8 ->
  c < g_core_count G -> cf_task x c = Running k (Do o f) l ->
  accesses (s_words (cf_state x)) o a -> a < g_dram_size G.
Proof.
  intros P top pb rb G s0 x c k o f l a ST R HD HP HW C T A.
  pose proof (reach_inside _ _ _ _ _ _ _ ST HD HP HW R c k _ l C T) as [H _].
  rewrite (reach_words _ _ _ _ _ _ _ R) in A. eapply in_dram_accesses; eassumption.
Qed.
(** Core [c] is about to access address [a]. *)
Definition touching (x : conf) (c a : N) : Prop :=
  exists k o f l, cf_task x c = Running k (Do o f) l /\ accesses (s_words (cf_state x)) o a.
Definition touching_b (x : conf) (c a : N) : bool :=
  match cf_task x c with
  | Running k (Do o f) l =>
      match o with
      | OLd n b | OSt n b _ => (b <=? a) && (a <? b + N.of_nat n)
      | OTas b | OClr b | OFadd b _ => (b <=? a) && (a <? b + 8)
      | OSetDrb b | OSetEdrb b => (b <=? a) && (a <? b + 8 * s_words (cf_state x))
      | _ => false
      end
  | _ => false
  end.
Lemma touching_iff x c a : touching_b x c a = true -> touching x c a.
Proof.
  unfold touching_b, touching. destruct (cf_task x c) as [|k [v|o f|] l]; try discriminate.
  intros H. exists k, o, f, l. split; [reflexivity|]. destruct o; cbn [accesses]; lia.
Qed.
(** Two cores at work: core 1 is about to store the owner of region 2, core 0 is
    about to test the lock of the region. *)
Definition ex_c57 : conf :=
  begin ex_G 0 (CCreateEnclave (2 * 262144) 0 4095 1 false)
    (ops ex_G 8 1 (begin ex_G 1 (CBlock 2) (initial ex_s0))).
Example C57_example : creach ex_G 6 4 (inside_call ex_G 6 4) false ex_s0 ex_c57 /\
  2 ^ (12 + 6 + 4) <= g_dram_size ex_G /\ g_dram_size ex_G mod 4096 = 0 /\ s_words ex_s0 <= 8 /\
  touching ex_c57 1 (g_dram_region ex_G + 40 * 2 + 8) /\
  touching ex_c57 0 (g_dram_region ex_G + 40 * 2).
Proof.
  split; [|split; [|split; [|split; [|split]]]].
  - unfold ex_c57. apply begin_reach;
      [reflexivity|vm_compute; reflexivity|repeat split; reflexivity|split; [exact I|reflexivity]|].
    apply ops_reach; [reflexivity|].
    apply begin_reach; [reflexivity|reflexivity|reflexivity|split; exact I|]. constructor.
  - vm_compute. discriminate.
  - vm_compute. reflexivity.
  - vm_compute. discriminate.
  - apply touching_iff. vm_compute. reflexivity.
  - apply touching_iff. vm_compute. reflexivity.
Qed.

(** The restrictions are needed.  A core is about to access a byte outside DRAM: *)
Definition leaves_dram (G : globals) (x : conf) : Prop :=
  exists c a, c < g_core_count G /\ touching x c a /\ g_dram_size G <= a.

(** 16 regions of 8 KB stripes, of which DRAM of [size] bytes has about [size]/2^17
    per region. *)
Definition small_platform (size : N) : platform :=
  mkPlatform size 2 (fun i => i =? 1) (fun _ => 64) (fun _ => 1024) 0 1 2.
Definition small_G (size : N) : globals := globals_of (small_platform size) 1 4 0 1024.
Definition small_s0 (size : N) : state :=
  fst (run 0 (boot_from (small_platform size) 0) (ex_boot_state 0)).
Lemma small_started size : size = 2 ^ 18 \/ size = 2 ^ 16 + 2 ^ 15 ->
  started (small_platform size) 0 1 4 (small_G size) (small_s0 size).
Proof.
  intros SZ. assert (S : supported (small_platform size) 0 1 4).
  { destruct SZ as [-> | ->]; constructor; try (vm_compute; intuition congruence);
    try (intros [i [H1 [H2 H3]]]; cbn in *; assert (i = 0) by lia; subst; discriminate);
    (exists 6, 10; vm_compute; intuition congruence). }
  assert (B0 : run 0 (boot_from (small_platform size) 0) (ex_boot_state 0) =
    (small_s0 size, Some (small_G size))).
  { destruct (boot_supported 0 (ex_boot_state 0) _ _ _ _ S) as [s' [G [R B]]].
    unfold small_s0. rewrite R. cbn [fst]. rewrite (bt_globals _ _ _ _ _ _ _ _ B).
    replace (2 ^ address_bits_for (tables_end 0 (p_core_count (small_platform size)) (2 ^ 4))) with 1024
      by (vm_compute; reflexivity). reflexivity. }
  constructor.
  - exact S.
  - destruct SZ as [-> | ->]; vm_compute; discriminate.
  - exists 0, (ex_boot_state 0). split; [destruct SZ as [-> | ->]; vm_compute; reflexivity|].
    split; [exact B0|]. split; [reflexivity|]. split.
    + intros c' a _ _ _. cbn. apply N.land_0_r.
    + cbn. lia.
Qed.

(** DRAM that ends before the first stripe of the last region: making that region a
    metadata region zeroes memory beyond DRAM. *)
Definition freed_conf (size r : N) : conf :=
  let G := small_G size in
  ops G 60 0 (begin G 0 (CFree r) (ops G 50 0 (begin G 0 CFlush
    (ops G 50 1 (begin G 1 CFlush (ops G 50 0 (begin G 0 (CBlock r)
      (initial (small_s0 size))))))))).
Lemma freed_reach size r (al : call -> Prop) : r < 2 ^ 64 ->
  is_idle (ops (small_G size) 50 0 (begin (small_G size) 0 (CBlock r)
      (initial (small_s0 size)))) 1 = true ->
  is_idle (ops (small_G size) 50 1 (begin (small_G size) 1 CFlush (ops (small_G size) 50 0
    (begin (small_G size) 0 (CBlock r) (initial (small_s0 size)))))) 0 = true ->
  is_idle (ops (small_G size) 50 0 (begin (small_G size) 0 CFlush
    (ops (small_G size) 50 1 (begin (small_G size) 1 CFlush (ops (small_G size) 50 0
    (begin (small_G size) 0 (CBlock r) (initial (small_s0 size)))))))) 0 = true ->
  al (CBlock r) -> al (CFree r) -> al CFlush ->
  creach (small_G size) 1 4 al false (small_s0 size) (freed_conf size r).
Proof.
  intros R I1 I2 I3 A1 A2 A3. unfold freed_conf. cbv zeta.
  apply ops_reach; [reflexivity|]. apply begin_reach; [reflexivity|exact I3|exact R|exact A2|].
  apply ops_reach; [reflexivity|]. apply begin_reach; [reflexivity|exact I2|exact I|exact A3|].
  apply ops_reach; [reflexivity|]. apply begin_reach; [reflexivity|exact I1|exact I|exact A3|].
  apply ops_reach; [reflexivity|]. apply begin_reach; [reflexivity|reflexivity|exact R|exact A1|].
  constructor.
Qed.
Theorem C57_short_dram_refuted : exists P top pb rb G s0 x,
  started P top pb rb G s0 /\ creach G pb rb (inside_call G pb rb) false s0 x /\
  g_dram_size G mod 4096 = 0 /\ s_words s0 <= 8 /\ leaves_dram G x.
Proof.
  set (D := 2 ^ 16 + 2 ^ 15).
  exists (small_platform D), 0, 1, 4, (small_G D), (small_s0 D),
    (ops (small_G D) 4 0 (begin (small_G D) 0 (CCreateMetadataRegion 15) (freed_conf D 15))).
  split; [apply small_started; right; reflexivity|]. split; [|split; [|split]].
  - apply ops_reach; [reflexivity|].
    apply begin_reach; [reflexivity|vm_compute; reflexivity|reflexivity|split; exact I|].
    apply freed_reach; try (vm_compute; reflexivity); split; exact I.
  - vm_compute. reflexivity.
  - vm_compute. discriminate.
  - exists 0, (15 * 8192). split; [reflexivity|]. split; [|vm_compute; discriminate].
    apply touching_iff. vm_compute. reflexivity.
Qed.

(** create_enclave with an identifier in the second stripe of its region: the map
    entry is computed far outside DRAM (see C41). *)
Definition second_id : N := 2 ^ 17 + 2 * 8192.
Theorem C57_second_stripe_refuted : exists P top pb rb G s0 x,
  started P top pb rb G s0 /\ creach G pb rb (safe_call G) false s0 x /\
  2 ^ (12 + pb + rb) <= g_dram_size G /\ g_dram_size G mod 4096 = 0 /\ s_words s0 <= 8 /\
  leaves_dram G x.
Proof.
  set (D := 2 ^ 18).
  set (y := ops (small_G D) (N.to_nat 3000) 0 (begin (small_G D) 0 (CCreateMetadataRegion 2) (freed_conf D 2))).
  exists (small_platform D), 0, 1, 4, (small_G D), (small_s0 D),
    (ops (small_G D) 4 0 (begin (small_G D) 0 (CCreateEnclave second_id 0 4095 1 false) y)).
  split; [apply small_started; left; reflexivity|]. split; [|split; [|split; [|split]]].
  - apply ops_reach; [reflexivity|].
    apply begin_reach; [reflexivity|vm_compute; reflexivity|repeat split; reflexivity|exact I|].
    apply ops_reach; [reflexivity|].
    apply begin_reach; [reflexivity|vm_compute; reflexivity|reflexivity|exact I|].
    apply freed_reach; try (vm_compute; reflexivity); exact I.
  - vm_compute. discriminate.
  - vm_compute. reflexivity.
  - vm_compute. discriminate.
  - exists 0, (2 ^ 63 + 2 * 8192). split; [reflexivity|]. split; [|vm_compute; discriminate].
    apply touching_iff. vm_compute. reflexivity.
Qed.
(** copy_debug_enclave_page reads the record of an enclave that need not be in DRAM. *)
Theorem C57_copy_debug_refuted : exists P top pb rb G s0 x,
  started P top pb rb G s0 /\ creach G pb rb (safe_call G) false s0 x /\
  2 ^ (12 + pb + rb) <= g_dram_size G /\ g_dram_size G mod 4096 = 0 /\ s_words s0 <= 8 /\
  leaves_dram G x.
Proof.
  exists ex_platform, 0, 6, 4, ex_G, ex_s0,
    (ops ex_G 5 0 (begin ex_G 0 (CCopyDebugPage (2 ^ 63) (2 * 262144) (3 * 262144) false) (initial ex_s0))).
  split; [exact ex_started|]. split; [|split; [|split; [|split]]].
  - apply ops_reach; [reflexivity|].
    apply begin_reach; [reflexivity|vm_compute; reflexivity|repeat split; reflexivity| |constructor].
    exact I.
  - vm_compute. discriminate.
  - vm_compute. reflexivity.
  - vm_compute. discriminate.
  - exists 0, (2 ^ 63 + 24). split; [reflexivity|]. split; [|vm_compute; discriminate].
    apply touching_iff. vm_compute. reflexivity.
Qed.
(** accept_thread uses an address as a region number. *)
Theorem C57_accept_thread_refuted : exists P top pb rb G s0 x,
  started P top pb rb G s0 /\ creach G pb rb (fun _ => True) false s0 x /\
  2 ^ (12 + pb + rb) <= g_dram_size G /\ g_dram_size G mod 4096 = 0 /\ s_words s0 <= 8 /\
  leaves_dram G x.
Proof.
  exists ex_platform, 0, 6, 4, ex_G, ex_s0,
    (ops ex_G 2 0 (begin ex_G 0 (CAcceptThread 0 (1023 * 4096)) (initial ex_s0))).
  split; [exact ex_started|]. split; [|split; [|split; [|split]]].
  - apply ops_reach; [reflexivity|].
    apply begin_reach; [reflexivity|vm_compute; reflexivity|repeat split; reflexivity|exact I|constructor].
  - vm_compute. discriminate.
  - vm_compute. reflexivity.
  - vm_compute. discriminate.
  - exists 0, (64 + 40 * (1023 * 4096)). split; [reflexivity|]. split; [|vm_compute; discriminate].
    apply touching_iff. vm_compute. reflexivity.
Qed.

Definition P_Inside_theorems := (C57_in_dram_partial, C57_example, C57_short_dram_refuted,
  C57_second_stripe_refuted, C57_copy_debug_refuted, C57_accept_thread_refuted).
Print Assumptions P_Inside_theorems.
