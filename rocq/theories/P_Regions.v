(** * Properties C23-C32: region ownership in every history.

    [started P top pb rb G s0] and [history G pb rb s0 h s] are defined in
    SpecHistory.v: a boot followed by any sequence of API calls on any core, OS
    memory writes and DMA writes.  Two kinds of calls are not in these histories
    because they break the properties: accept_thread where its unchecked addresses
    reach the monitor (C49) and copy_debug_enclave_page with enclave_id = 0
    writing below the monitor top (C48); theorems about histories are therefore
    named _partial, and the _refuted theorems show what these calls do. *)
From Coq Require Import NArith ZArith Lia Bool List.
From Coq Require Import ZifyBool ZifyNat ZifyN.
From Verif Require Import Word Machine ModelBare ModelHash ModelInl ModelRegions
  ModelMetadata ModelEnclave ModelBoot ModelApi Lib BareProofs BootProofs SpecGeometry
  GeomProofs SpecMonitor SpecHistory ViewProofs SeqProofs SeqCalls HistoryProofs
  HistoryFacts P_Boot Trace.
Import ListNotations.
Open Scope N_scope.
Ltac Zify.zify_post_hook ::= Z.div_mod_to_equations.

(** ** A machine to which the theorems apply: 4 MB, 2 cores, 16 regions. *)
Definition ex_G : globals := globals_of ex_platform 6 4 0 1024.
Definition ex_s0 : state := fst (run 0 (boot_from ex_platform 0) (ex_boot_state 0)).
Lemma ex_booted : run 0 (boot_from ex_platform 0) (ex_boot_state 0) = (ex_s0, Some ex_G).
Proof.
  destruct (boot_supported 0 (ex_boot_state 0) ex_platform 0 6 4 ex_supported)
    as [s' [G [R B]]].
  unfold ex_s0. rewrite R. cbn [fst].
  rewrite (bt_globals _ _ _ _ _ _ _ _ B).
  replace (2 ^ address_bits_for (tables_end 0 (p_core_count ex_platform) (2 ^ 4))) with 1024
    by (vm_compute; reflexivity).
  reflexivity.
Qed.
Example ex_started : started ex_platform 0 6 4 ex_G ex_s0.
Proof.
  constructor.
  - exact ex_supported.
  - vm_compute. discriminate.
  - exists 0, (ex_boot_state 0). split; [vm_compute; reflexivity|].
    split; [exact ex_booted|]. split; [reflexivity|]. split.
    + intros c' a _ _ _. cbn. apply N.land_0_r.
    + vm_compute. discriminate.
Qed.

Lemma call_val G c k s v : snd (do_call G c k s) = Some v ->
  do_call G c k s = (fst (do_call G c k s), Some v).
Proof. intros <-. apply surjective_pairing. Qed.

(** From a state that shows M any further call of the histories can be made. *)
Lemma can_call P top pb rb G s M c k : reachable P top pb rb G s -> shows G s M ->
  c < g_core_count G -> call_args_ok k -> seq_call G pb rb k ->
  exists s' v M', do_call G c k s = (s', Some v) /\
    effect pb rb (g_core_count G) (g_dram_size G) (ECall c k) v M M' /\ shows G s' M' /\
    estep G pb rb s (ECall c k) v s' /\ reachable P top pb rb G s'.
Proof.
  intros R K C A S. destruct (reach_shows _ _ _ _ _ _ R) as [g [HD _]].
  destruct (call_refines G pb rb g HD s M c k K C A S) as [s' [v [M' [RR [E [K' _]]]]]].
  assert (ES : estep G pb rb s (ECall c k) v s') by (constructor; auto).
  exists s', v, M'. split; [auto|]. split; [auto|]. split; [auto|]. split; [auto|].
  eapply reach_step; eauto.
Qed.
Lemma reach_start P top pb rb G s : started P top pb rb G s -> reachable P top pb rb G s.
Proof. intros H. exists s, []. split; [auto|constructor]. Qed.
Lemma hist_call G pb rb s0 h s e v s' : history G pb rb s0 h s -> estep G pb rb s e v s' ->
  history G pb rb s0 (h ++ [(e, v)]) s'.
Proof. intros. econstructor; eauto. Qed.

(** ** C23 *)

(** The owner field of a region changes at an event only in one of the five
    documented ways: 0 = OS, 1 = blocked, 2 = metadata, 3 = free. *)
Theorem C23_transitions_partial : forall P top pb rb G s0 h s e v s' r,
  started P top pb rb G s0 -> history G pb rb s0 h s -> estep G pb rb s e v s' ->
  r < g_dram_region_count G -> owner_of G s' r <> owner_of G s r ->
  exists c, v = 0 /\
   ((e = ECall c (CBlock r) /\ owner_of G s r = 0 /\ owner_of G s' r = 1) \/
    (e = ECall c (CFree r) /\ owner_of G s r = 1 /\ owner_of G s' r = 3) \/
    (e = ECall c (CFree r) /\ owner_of G s r = 2 /\ owner_of G s' r = 3) \/
    (e = ECall c (CCreateMetadataRegion r) /\ owner_of G s r = 3 /\ owner_of G s' r = 2) \/
    (e = ECall c (CAssign r 0) /\ owner_of G s r = 3 /\ owner_of G s' r = 0)).
Proof.
  intros P top pb rb G s0 h s e v s' r ST H E R NE.
  destruct (reach_shows P top pb rb G s) as [g [HD [M K]]]; [exists s0, h; auto|].
  destruct (step_refines G pb rb g HD s M e v s' K E) as [M' [EF K']].
  rewrite (sh_owner _ _ _ K r R) in *. rewrite (sh_owner _ _ _ K' r R) in *.
  apply effect_change in EF.
  destruct EF; cbn [m_owner set_owner tick load_access m_flush m_set_dma m_stick] in *;
    try (exfalso; apply NE; reflexivity);
    unfold upd in *; (destruct (N.eqb_spec r r0) as [<-|]; [|congruence]);
    exists c; (split; [reflexivity|]).
  - left. rewrite H2. auto.
  - do 3 right. left. rewrite H1. auto.
  - do 4 right. rewrite H1. auto.
  - destruct H1 as [[-> _]| ->]; cbn [owner_code]; auto 10.
Qed.

(** All five transitions occur: block, free, create metadata, free, assign. *)
Example C23_example : forall r, 2 <= r < 16 ->
  exists s1 s2 s3 s4 s5,
  do_call ex_G 0 (CBlock r) ex_s0 = (s1, Some 0) /\ owner_of ex_G s1 r = 1 /\
  do_call ex_G 1 (CFree r) s1 = (s2, Some 0) /\ owner_of ex_G s2 r = 3 /\
  do_call ex_G 1 (CCreateMetadataRegion r) s2 = (s3, Some 0) /\ owner_of ex_G s3 r = 2 /\
  do_call ex_G 0 (CFree r) s3 = (s4, Some 0) /\ owner_of ex_G s4 r = 3 /\
  do_call ex_G 0 (CAssign r 0) s4 = (s5, Some 0) /\ owner_of ex_G s5 r = 0 /\
  reachable ex_platform 0 6 4 ex_G s5.
Proof.
  intros r R.
  destruct (started_shows _ _ _ _ _ _ ex_started) as [ac [c0 [_ [_ K0]]]].
  pose proof (reach_start _ _ _ _ _ _ ex_started) as R0.
  assert (RC : r < g_dram_region_count ex_G) by exact (proj2 R).
  assert (RW : r < W64) by (unfold W64; lia).
  assert (E0 : (r =? 0) = false) by lia. assert (E1 : (16 <=? r) = false) by lia.
  assert (TK : forall M, taken M r = false) by (intros; unfold taken; rewrite E0; reflexivity).
  destruct (can_call _ _ _ _ _ _ _ 0 (CBlock r) R0 K0) as [s1 [v1 [M1 [C1 [F1 [K1 [_ R1]]]]]]];
    [reflexivity|exact RW|exact I|].
  cbn [effect] in F1. unfold block_table in F1. change (2 ^ 4) with 16 in F1.
  rewrite E0, E1 in F1. cbn [orb m_owner boot_mstate m_stuck m_dma_start m_dma_end] in F1.
  unfold touches, stripe_start in F1.
  change (g_monitor_top ex_G) with 1024 in F1. change (2 ^ (12 + 6)) with 262144 in F1.
  replace (_ && _) with false in F1 by lia. inversion F1; subst v1 M1; clear F1.
  destruct (can_call _ _ _ _ _ _ _ 1 (CFree r) R1 K1) as [s2 [v2 [M2 [C2 [F2 [K2 [_ R2]]]]]]];
    [reflexivity|exact RW|exact I|].
  cbn [effect] in F2. unfold free_table in F2. change (2 ^ 4) with 16 in F2. rewrite E1, TK in F2.
  cbn [m_owner load_access tick set_owner boot_mstate] in F2. rewrite upd_same in F2.
  replace (all_flushed _ _ _) with true in F2.
  2:{ symmetry. unfold all_flushed. apply forallb_forall. intros i _.
      cbn [m_flushed m_blocked_at load_access tick set_owner boot_mstate m_clock].
      rewrite upd_same. reflexivity. }
  inversion F2; subst v2 M2; clear F2.
  destruct (can_call _ _ _ _ _ _ _ 1 (CCreateMetadataRegion r) R2 K2)
    as [s3 [v3 [M3 [C3 [F3 [K3 [_ R3]]]]]]]; [reflexivity|exact RW|exact I|].
  cbn [effect] in F3. unfold create_metadata_table in F3. change (2 ^ 4) with 16 in F3.
  rewrite E1, TK in F3.
  cbn [m_owner load_access tick set_owner boot_mstate] in F3. rewrite upd_same in F3.
  inversion F3; subst v3 M3; clear F3.
  destruct (can_call _ _ _ _ _ _ _ 0 (CFree r) R3 K3) as [s4 [v4 [M4 [C4 [F4 [K4 [_ R4]]]]]]];
    [reflexivity|exact RW|exact I|].
  cbn [effect] in F4. unfold free_table in F4. change (2 ^ 4) with 16 in F4. rewrite E1, TK in F4.
  cbn [m_owner load_access tick set_owner boot_mstate] in F4. rewrite upd_same in F4.
  inversion F4; subst v4 M4; clear F4.
  destruct (can_call _ _ _ _ _ _ _ 0 (CAssign r 0) R4 K4) as [s5 [v5 [M5 [C5 [F5 [K5 [_ R5]]]]]]];
    [reflexivity|split; [exact RW|reflexivity]|exact I|].
  cbn [effect] in F5. unfold assign_table in F5. change (2 ^ 4) with 16 in F5. rewrite E1, TK in F5.
  cbn [m_owner load_access tick set_owner boot_mstate] in F5. rewrite upd_same in F5.
  replace (region_of 6 4 0) with 0 in F5 by (vm_compute; reflexivity).
  rewrite N.eqb_sym, E0 in F5. cbn in F5.
  inversion F5; subst v5 M5; clear F5.
  exists s1, s2, s3, s4, s5.
  rewrite (sh_owner _ _ _ K1 r RC), (sh_owner _ _ _ K2 r RC), (sh_owner _ _ _ K3 r RC),
    (sh_owner _ _ _ K4 r RC), (sh_owner _ _ _ K5 r RC).
  cbn [m_owner load_access tick set_owner boot_mstate]. rewrite !upd_same.
  repeat split; auto.
Qed.

(** Without the restriction the property is false: after one block and one
    flush, copy_debug_enclave_page(0, 0, os_addr, write) overwrites the monitor
    (whose first page holds the tables) with OS memory; the blocked region 2 is
    OS-owned again. *)
Theorem C23_copy_debug_refuted :
  exists P top pb rb G s0 s1 s2 s3,
    started P top pb rb G s0 /\
    do_call G 0 (CBlock 2) s0 = (s1, Some 0) /\
    do_call G 0 CFlush s1 = (s2, Some 0) /\
    reachable P top pb rb G s2 /\ owner_of G s2 2 = 1 /\
    do_call G 0 (CCopyDebugPage 0 0 (3 * 262144) false) s2 = (s3, Some 0) /\
    owner_of G s3 2 = 0.
Proof.
  exists ex_platform, 0, 6, 4, ex_G, ex_s0.
  pose (s1 := fst (do_call ex_G 0 (CBlock 2) ex_s0)).
  pose (s2 := fst (do_call ex_G 0 CFlush s1)).
  pose (s3 := fst (do_call ex_G 0 (CCopyDebugPage 0 0 (3 * 262144) false) s2)).
  assert (C1 : do_call ex_G 0 (CBlock 2) ex_s0 = (s1, Some 0)).
  { apply call_val. vm_compute. reflexivity. }
  assert (C2 : do_call ex_G 0 CFlush s1 = (s2, Some 0)).
  { apply call_val. vm_compute. reflexivity. }
  assert (C3 : do_call ex_G 0 (CCopyDebugPage 0 0 (3 * 262144) false) s2 = (s3, Some 0)).
  { apply call_val. vm_compute. reflexivity. }
  exists s1, s2, s3.
  split; [exact ex_started|]. split; [exact C1|]. split; [exact C2|].
  split.
  { exists ex_s0, ([] ++ [(ECall 0 (CBlock 2), 0)] ++ [(ECall 0 CFlush, 0)]).
    split; [exact ex_started|]. cbn [app].
    apply (hist_snoc _ _ _ _ [(ECall 0 (CBlock 2), 0)] s1).
    - apply (hist_snoc _ _ _ _ [] ex_s0); [constructor|].
      constructor; [reflexivity|reflexivity|exact I|exact C1].
    - constructor; [reflexivity|exact I|exact I|exact C2]. }
  split; [vm_compute; reflexivity|]. split; [exact C3|].
  vm_compute. reflexivity.
Qed.

(** ** C24 *)
Theorem C24_region0_partial : forall P top pb rb G s0 h s,
  started P top pb rb G s0 -> history G pb rb s0 h s -> owner_of G s 0 = 0.
Proof.
  intros P top pb rb G s0 h s ST H.
  destruct (reach_shows P top pb rb G s) as [g [HD [M K]]]; [exists s0, h; auto|].
  rewrite (sh_owner _ _ _ K), (sh_region0 _ _ _ K); [reflexivity|].
  rewrite (geo_count _ _ _ g). apply pow2_pos.
Qed.

(** The calls that could do it are refused. *)
Theorem C24_calls_refused : forall P top pb rb G s c,
  reachable P top pb rb G s -> c < g_core_count G ->
  forall k, (k = CBlock 0 \/ k = CFree 0 \/ k = CCreateMetadataRegion 0 \/
             exists e, e < 2 ^ 64 /\ k = CAssign 0 e) ->
  exists s' v, do_call G c k s = (s', Some v) /\ v <> 0 /\ same_machine s s'.
Proof.
  intros P top pb rb G s c R C k KK.
  destruct (reach_shows _ _ _ _ _ _ R) as [g [HD [M K]]].
  pose proof (sh_region0 _ _ _ K) as O.
  assert (A : call_args_ok k /\ seq_call G pb rb k).
  { destruct KK as [->|[->|[->|[e [E ->]]]]]; cbn; repeat split; auto. }
  destruct A as [A S].
  destruct (call_refines G pb rb g HD s M c k K C A S) as [s' [v [M' [RR [E [_ F]]]]]].
  exists s', v. split; [exact RR|].
  assert (V : v <> 0).
  { destruct KK as [->|[->|[->|[e [_ ->]]]]]; cbn [effect] in E.
    - apply block_inv in E as [[V _]|(_ & X & _)]; [exact V|congruence].
    - apply free_inv in E as [[V _]|(_ & _ & _ & [[X _]|X])]; [exact V|congruence|congruence].
    - apply create_inv in E as [[V _]|(_ & _ & X & _)]; [exact V|congruence].
    - apply assign_inv in E as [[V _]|(_ & _ & _ & X & _)]; [exact V|congruence]. }
  split; [exact V|].
  destruct KK as [->|[->|[->|[e [_ ->]]]]]; apply F; exact V.
Qed.
Example C24_example : owner_of ex_G ex_s0 0 = 0.
Proof. apply (C24_region0_partial ex_platform 0 6 4 ex_G ex_s0 []); [exact ex_started|constructor]. Qed.

(** The same copy with one byte prepared by the OS blocks region 0. *)
Theorem C24_copy_debug_refuted :
  exists P top pb rb G s0 h s s',
    started P top pb rb G s0 /\ history G pb rb s0 h s /\
    do_call G 0 (CCopyDebugPage 0 0 (3 * 262144) false) s = (s', Some 0) /\
    owner_of G s' 0 = 1.
Proof.
  exists ex_platform, 0, 6, 4, ex_G, ex_s0.
  pose (s1 := fst (do_call ex_G 0 (CBlock 2) ex_s0)).
  pose (s2 := fst (do_call ex_G 0 CFlush s1)).
  pose (s3 := set_mem s2 (st 1 (s_mem s2) (3 * 262144 + 72) 1)).
  pose (s4 := fst (do_call ex_G 0 (CCopyDebugPage 0 0 (3 * 262144) false) s3)).
  assert (C1 : do_call ex_G 0 (CBlock 2) ex_s0 = (s1, Some 0)).
  { apply call_val. vm_compute. reflexivity. }
  assert (C2 : do_call ex_G 0 CFlush s1 = (s2, Some 0)).
  { apply call_val. vm_compute. reflexivity. }
  assert (C3 : do_call ex_G 0 (CCopyDebugPage 0 0 (3 * 262144) false) s3 = (s4, Some 0)).
  { apply call_val. vm_compute. reflexivity. }
  exists [(ECall 0 (CBlock 2), 0); (ECall 0 CFlush, 0); (EStore 0 (3 * 262144 + 72) 1, 0)], s3, s4.
  split; [exact ex_started|]. split; [|split; [exact C3|vm_compute; reflexivity]].
  apply (hist_snoc _ _ _ _ [(ECall 0 (CBlock 2), 0); (ECall 0 CFlush, 0)] s2).
  - apply (hist_snoc _ _ _ _ [(ECall 0 (CBlock 2), 0)] s1).
    + apply (hist_snoc _ _ _ _ [] ex_s0); [constructor|].
      constructor; [reflexivity|reflexivity|exact I|exact C1].
    + constructor; [reflexivity|exact I|exact I|exact C2].
  - constructor; [reflexivity|reflexivity|]. split; [vm_compute; reflexivity|].
    vm_compute. discriminate.
Qed.

(** accept_thread with the region table for the new thread's record (C49): the OS stores one
    byte, the call returns ok and region 0 is blocked. *)
Theorem C24_accept_thread_refuted :
  exists P top pb rb G s0 h s s',
    started P top pb rb G s0 /\ history G pb rb s0 h s /\
    do_call G 0 (CAcceptThread (g_dram_region G) (3 * 262144)) s = (s', Some 0) /\
    owner_of G s' 0 = 1.
Proof.
  exists ex_platform, 0, 6, 4, ex_G, ex_s0.
  pose (s1 := set_mem ex_s0 (st 1 (s_mem ex_s0) (3 * 262144) 1)).
  pose (s2 := fst (do_call ex_G 0 (CAcceptThread 64 (3 * 262144)) s1)).
  exists [(EStore 0 (3 * 262144) 1, 0)], s1, s2.
  split; [exact ex_started|]. split.
  { apply (hist_snoc _ _ _ _ [] ex_s0); [constructor|].
    constructor; [reflexivity|reflexivity|]. split; [vm_compute; reflexivity|].
    vm_compute. discriminate. }
  split; [apply call_val; vm_compute; reflexivity|vm_compute; reflexivity].
Qed.
(** With a thread outside region 0 the call is one of the histories: it succeeds, writes the
    thread's record and no table of the monitor. *)
Example C24_accept_thread_example : exists s1 s2,
  history ex_G 6 4 ex_s0
    [(EStore 0 (3 * 262144) 77, 0); (ECall 1 (CAcceptThread (5 * 262144 + 4096) (3 * 262144)), 0)] s2 /\
  do_call ex_G 1 (CAcceptThread (5 * 262144 + 4096) (3 * 262144)) s1 = (s2, Some 0) /\
  ld 8 (s_mem s2) (5 * 262144 + 4096 + 8) = 77 /\ owner_of ex_G s2 5 = 0.
Proof.
  pose (s1 := set_mem ex_s0 (st 1 (s_mem ex_s0) (3 * 262144) 77)).
  pose (s2 := fst (do_call ex_G 1 (CAcceptThread (5 * 262144 + 4096) (3 * 262144)) s1)).
  assert (D : do_call ex_G 1 (CAcceptThread (5 * 262144 + 4096) (3 * 262144)) s1 = (s2, Some 0)).
  { apply call_val. vm_compute. reflexivity. }
  exists s1, s2. split; [|split; [exact D|split; vm_compute; reflexivity]].
  apply (hist_snoc _ _ _ _ [(EStore 0 (3 * 262144) 77, 0)] s1).
  - apply (hist_snoc _ _ _ _ [] ex_s0); [constructor|].
    constructor; [reflexivity|reflexivity|]. split; [vm_compute; reflexivity|].
    vm_compute. discriminate.
  - constructor; [reflexivity|split; reflexivity| |exact D].
    intros _. vm_compute. repeat split; discriminate.
Qed.

(** ** C25 *)
Theorem C25_bitmap_partial : forall P top pb rb G s0 h s r,
  started P top pb rb G s0 -> history G pb rb s0 h s -> r < g_dram_region_count G ->
  (os_bit G s r = true <-> owner_of G s r = 0).
Proof.
  intros P top pb rb G s0 h s r ST H R.
  destruct (reach_shows P top pb rb G s) as [g [HD [M K]]]; [exists s0, h; auto|].
  rewrite (sh_bit _ _ _ K r R), (sh_owner _ _ _ K r R).
  destruct (m_owner M r); cbn; intuition congruence.
Qed.

(** Every owner field holds one of the four codes. *)
Theorem C25_owner_codes_partial : forall P top pb rb G s0 h s r,
  started P top pb rb G s0 -> history G pb rb s0 h s -> r < g_dram_region_count G ->
  owner_of G s r = 0 \/ owner_of G s r = 1 \/ owner_of G s r = 2 \/ owner_of G s r = 3.
Proof.
  intros P top pb rb G s0 h s r ST H R.
  destruct (reach_shows P top pb rb G s) as [g [HD [M K]]]; [exists s0, h; auto|].
  rewrite (sh_owner _ _ _ K r R). destruct (m_owner M r); cbn; auto.
Qed.

Theorem C25_copy_debug_refuted :
  exists P top pb rb G s0 h s s',
    started P top pb rb G s0 /\ history G pb rb s0 h s /\
    do_call G 0 (CCopyDebugPage 0 0 (3 * 262144) false) s = (s', Some 0) /\
    owner_of G s' 5 = 0 /\ os_bit G s' 5 = false.
Proof.
  exists ex_platform, 0, 6, 4, ex_G, ex_s0.
  pose (s1 := fst (do_call ex_G 0 (CBlock 2) ex_s0)).
  pose (s2 := fst (do_call ex_G 0 CFlush s1)).
  pose (s4 := fst (do_call ex_G 0 (CCopyDebugPage 0 0 (3 * 262144) false) s2)).
  assert (C1 : do_call ex_G 0 (CBlock 2) ex_s0 = (s1, Some 0)).
  { apply call_val. vm_compute. reflexivity. }
  assert (C2 : do_call ex_G 0 CFlush s1 = (s2, Some 0)).
  { apply call_val. vm_compute. reflexivity. }
  assert (C3 : do_call ex_G 0 (CCopyDebugPage 0 0 (3 * 262144) false) s2 = (s4, Some 0)).
  { apply call_val. vm_compute. reflexivity. }
  exists [(ECall 0 (CBlock 2), 0); (ECall 0 CFlush, 0)], s2, s4.
  split; [exact ex_started|].
  split; [|split; [exact C3|split; vm_compute; reflexivity]].
  apply (hist_snoc _ _ _ _ [(ECall 0 (CBlock 2), 0)] s1).
  - apply (hist_snoc _ _ _ _ [] ex_s0); [constructor|].
    constructor; [reflexivity|reflexivity|exact I|exact C1].
  - constructor; [reflexivity|exact I|exact I|exact C2].
Qed.

(** ** C26

    The tables are in SpecMonitor.v; [shows G s M] says that the fields of the
    machine state are those of the abstract state M. *)
Theorem C26_abstract_state_exists : forall P top pb rb G s,
  reachable P top pb rb G s -> exists M, shows G s M.
Proof. intros P top pb rb G s R. apply (reach_shows _ _ _ _ _ _ R). Qed.

Theorem C26_block : forall P top pb rb G s M c r,
  reachable P top pb rb G s -> shows G s M -> c < g_core_count G -> r < 2 ^ 64 ->
  exists s', do_call G c (CBlock r) s = (s', Some (fst (block_table pb rb c r M))) /\
    shows G s' (snd (block_table pb rb c r M)).
Proof.
  intros P top pb rb G s M c r R K C A.
  destruct (can_call _ _ _ _ _ _ _ c (CBlock r) R K C A I) as [s' [v [M' [D [E [K' _]]]]]].
  cbn [effect] in E. exists s'. rewrite <- E. auto.
Qed.
Theorem C26_create_metadata_region : forall P top pb rb G s M c r,
  reachable P top pb rb G s -> shows G s M -> c < g_core_count G -> r < 2 ^ 64 ->
  exists s', do_call G c (CCreateMetadataRegion r) s =
      (s', Some (fst (create_metadata_table rb r M))) /\
    shows G s' (snd (create_metadata_table rb r M)).
Proof.
  intros P top pb rb G s M c r R K C A.
  destruct (can_call _ _ _ _ _ _ _ c (CCreateMetadataRegion r) R K C A I)
    as [s' [v [M' [D [E [K' _]]]]]].
  cbn [effect] in E. exists s'. rewrite <- E. auto.
Qed.
Theorem C26_assign : forall P top pb rb G s M c r e,
  reachable P top pb rb G s -> shows G s M -> c < g_core_count G -> r < 2 ^ 64 ->
  e < 2 ^ 64 ->
  exists s', do_call G c (CAssign r e) s = (s', Some (fst (assign_table pb rb c r e M))) /\
    shows G s' (snd (assign_table pb rb c r e M)).
Proof.
  intros P top pb rb G s M c r e R K C A A2.
  destruct (can_call _ _ _ _ _ _ _ c (CAssign r e) R K C (conj A A2) I)
    as [s' [v [M' [D [E [K' _]]]]]].
  cbn [effect] in E. exists s'. rewrite <- E. auto.
Qed.
Theorem C26_free : forall P top pb rb G s M c r,
  reachable P top pb rb G s -> shows G s M -> c < g_core_count G -> r < 2 ^ 64 ->
  exists s', do_call G c (CFree r) s =
      (s', Some (fst (free_table rb (g_core_count G) r M))) /\
    shows G s' (snd (free_table rb (g_core_count G) r M)).
Proof.
  intros P top pb rb G s M c r R K C A.
  destruct (can_call _ _ _ _ _ _ _ c (CFree r) R K C A I)
    as [s' [v [M' [D [E [K' _]]]]]].
  cbn [effect] in E. exists s'. rewrite <- E. auto.
Qed.
Theorem C26_flush : forall P top pb rb G s M c,
  reachable P top pb rb G s -> shows G s M -> c < g_core_count G ->
  exists s', do_call G c CFlush s = (s', Some 0) /\ shows G s' (m_flush M c).
Proof.
  intros P top pb rb G s M c R K C.
  destruct (can_call _ _ _ _ _ _ _ c CFlush R K C I I)
    as [s' [v [M' [D [E [K' _]]]]]].
  cbn [effect] in E. destruct E as [-> ->]. exists s'. auto.
Qed.
Theorem C26_set_dma_range : forall P top pb rb G s M c base mask,
  reachable P top pb rb G s -> shows G s M -> c < g_core_count G ->
  base < 2 ^ 64 -> mask < 2 ^ 64 ->
  exists s' v M', do_call G c (CSetDmaRange base mask) s = (s', Some v) /\
    dma_table (g_dram_size G) base mask v M M' /\ shows G s' M'.
Proof.
  intros P top pb rb G s M c base mask R K C A A2.
  destruct (can_call _ _ _ _ _ _ _ c (CSetDmaRange base mask) R K C (conj A A2) I)
    as [s' [v [M' [D [E [K' _]]]]]].
  cbn [effect] in E. exists s', v, M'. auto.
Qed.

(** Block by a caller that is not the owner, in any state at all (the caller may
    be an enclave, the owner an enclave): refused, without effect. *)
Theorem C26_block_not_owner : forall G pb rb s c r,
  geom G pb rb -> c < g_core_count G -> 0 < r < g_dram_region_count G ->
  lock_of G s r = 0 -> owner_of G s r <> enclave_of G s c ->
  exists s', do_call G c (CBlock r) s = (s', Some access_denied) /\ same_machine s s'.
Proof.
  intros G pb rb s c r g C [R0 R] L NO.
  pose proof (view_of_view G s) as V. set (o := view_of G s) in *.
  assert (W : wp G c (block_dram_region G r) o (fun v o' => v = access_denied /\ oeq o o')).
  { unfold block_dram_region. destruct (is_dynamic_dram_region G r) eqn:DY.
    2:{ exfalso. pose proof (dyn_false G pb rb g r DY) as X.
        rewrite <- (geo_count _ _ _ g) in X. lia. }
    cbn [negb]. apply wp_bind, (wp_tas G pb rb g); [exact R|].
    replace (o_lock o r) with 0 by (symmetry; exact L). cbn [N.eqb negb].
    unfold read_dram_region_owner. apply wp_bind, (wp_owner G pb rb g); [exact R|].
    apply wp_bind, (wp_current G pb rb g); [exact C|].
    cbn [o_owner o_encl with_lock].
    destruct (N.eqb_spec (o_owner o r) (o_encl o c)) as [E|_]; [exfalso; apply NO; exact E|].
    cbn [negb]. apply wp_bind, (wp_clr G pb rb g); [exact R|]. apply wp_ret.
    split; [reflexivity|]. constructor; intros; try reflexivity.
    cbn [o_lock with_lock]. unfold upd. destruct (N.eqb_spec r0 r); auto.
    subst. symmetry. exact L. }
  destruct (W s V) as [s' [v [o' [RR [V' [-> E]]]]]].
  exists s'. split; [exact RR|]. apply (oeq_view_same G pb rb g s s' o o'); auto.
Qed.

(** Region 3 blocked twice: the second call is refused. *)
Example C26_example : exists M s1 s2, shows ex_G ex_s0 M /\
  do_call ex_G 1 (CBlock 3) ex_s0 = (s1, Some 0) /\
  do_call ex_G 0 (CBlock 3) s1 = (s2, Some access_denied).
Proof.
  destruct (started_shows _ _ _ _ _ _ ex_started) as [ac [c0 [_ [_ K0]]]].
  pose proof (reach_start _ _ _ _ _ _ ex_started) as R0.
  destruct (can_call _ _ _ _ _ _ _ 1 (CBlock 3) R0 K0) as [s1 [v1 [M1 [C1 [F1 [K1 [_ R1]]]]]]];
    [reflexivity|reflexivity|exact I|].
  cbn [effect] in F1. vm_compute (block_table _ _ _ _ _) in F1.
  assert (v1 = 0 /\ M1 = snd (block_table 6 4 1 3 (boot_mstate ac (g_monitor_top ex_G)))) as [-> ->]
    by (inversion F1; auto).
  destruct (C26_block _ _ _ _ _ _ _ 0 3 R1 K1) as [s2 [C2 _]]; [reflexivity|reflexivity|].
  exists (boot_mstate ac (g_monitor_top ex_G)), s1, s2.
  split; [exact K0|]. split; [exact C1|]. rewrite C2. reflexivity.
Qed.

(** ** C27 *)

(** A call that does not return ok changes nothing (for the two thread calls
    see the next theorem; the queries and exit_enclave return no result code and
    are covered by C28). *)
Theorem C27_failed_no_effect_partial : forall P top pb rb G s c k s' v,
  reachable P top pb rb G s -> c < g_core_count G -> call_args_ok k ->
  seq_call G pb rb k ->
  (forall e t a b d f, k <> CLoadThread e t a b d f) -> (forall e t, k <> CAssignThread e t) ->
  (forall t a, k <> CAcceptThread t a) ->
  do_call G c k s = (s', Some v) -> v <> 0 -> same_machine s s'.
Proof.
  intros P top pb rb G s c k s' v R C A S NL NA NC D V.
  destruct (reach_shows _ _ _ _ _ _ R) as [g [HD [M K]]].
  destruct (call_refines G pb rb g HD s M c k K C A S) as [s2 [v2 [M' [D2 [_ [_ F]]]]]].
  rewrite D in D2. inversion D2; subst.
  assert (FK : fails k v2) by (destruct k; cbn; auto; eapply NC; reflexivity). specialize (F FK).
  destruct k; try exact F; exfalso; [eapply NL|eapply NA]; reflexivity.
Qed.

(** load_thread and assign_thread never return ok; they change nothing or only
    overwrite a nonzero 8-byte word at enclave_id by 1. *)
Theorem C27_thread_calls_partial : forall P top pb rb G s c k s' v e,
  reachable P top pb rb G s -> c < g_core_count G -> call_args_ok k ->
  ((exists t, k = CAssignThread e t) \/ (exists t x y z w, k = CLoadThread e t x y z w)) ->
  do_call G c k s = (s', Some v) ->
  v <> 0 /\ (same_machine s s' \/
    (ld 8 (s_mem s) e <> 0 /\ ld 8 (s_mem s') e = 1 /\
     (forall b, b < e \/ e + 8 <= b -> s_mem s' b mod 256 = s_mem s b mod 256) /\
     (forall c', s_cores s' c' = s_cores s c'))).
Proof.
  intros P top pb rb G s c k s' v e R C A KK D.
  destruct (reach_shows _ _ _ _ _ _ R) as [g [HD [M K]]].
  assert (S : seq_call G pb rb k) by (destruct KK as [[t ->]|[t [x [y [z [w ->]]]]]]; exact I).
  destruct (call_refines G pb rb g HD s M c k K C A S) as [s2 [v2 [M' [D2 [E [_ F]]]]]].
  rewrite D in D2. inversion D2; subst.
  assert (V : v2 <> 0).
  { destruct KK as [[t ->]|[t [x [y [z [w ->]]]]]]; cbn [effect] in E; apply E. }
  split; [exact V|].
  destruct KK as [[t ->]|[t [x [y [z [w ->]]]]]]; specialize (F V); cbn [lock_word] in F;
    (destruct F as [F|[F1 [F2 F3]]]; [left; exact F|right]);
    (split; [exact F1|split; [exact F3|split; [apply F2|apply F2]]]).
Qed.
Example C27_example : exists s', do_call ex_G 1 (CFree 5) ex_s0 = (s', Some invalid_state) /\
  same_machine ex_s0 s'.
Proof.
  exists (fst (do_call ex_G 1 (CFree 5) ex_s0)).
  assert (D : do_call ex_G 1 (CFree 5) ex_s0 =
              (fst (do_call ex_G 1 (CFree 5) ex_s0), Some invalid_state))
    by (apply call_val; vm_compute; reflexivity).
  split; [exact D|].
  eapply (C27_failed_no_effect_partial _ _ _ _ _ _ 1 (CFree 5));
    [apply reach_start, ex_started|reflexivity|reflexivity|exact I|discriminate|discriminate
    |discriminate|exact D|discriminate].
Qed.

(** ** C28 *)
Theorem C28_queries : forall P top pb rb G s M c r,
  reachable P top pb rb G s -> shows G s M -> c < g_core_count G -> r < 2 ^ 64 ->
  (exists s', do_call G c (CRegionState r) s = (s', Some (state_table rb r M)) /\
     same_machine s s') /\
  (exists s', do_call G c (CRegionOwner r) s = (s', Some (owner_table rb r M)) /\
     same_machine s s') /\
  (exists s', do_call G c (CCheckOwnership r) s =
       (s', Some (check_ownership_table rb r M)) /\ same_machine s s').
Proof.
  intros P top pb rb G s M c r R K C A.
  destruct (reach_shows _ _ _ _ _ _ R) as [g [HD _]].
  split; [|split].
  - destruct (call_refines G pb rb g HD s M c (CRegionState r) K C A I)
      as [s2 [v2 [M' [D2 [[-> _] [_ F]]]]]]. exists s2. split; [exact D2|apply F; exact I].
  - destruct (call_refines G pb rb g HD s M c (CRegionOwner r) K C A I)
      as [s2 [v2 [M' [D2 [[-> _] [_ F]]]]]]. exists s2. split; [exact D2|apply F; exact I].
  - destruct (call_refines G pb rb g HD s M c (CCheckOwnership r) K C A I)
      as [s2 [v2 [M' [D2 [[-> _] [_ F]]]]]]. exists s2. split; [exact D2|apply F; exact I].
Qed.

(** The answers in terms of the machine state: for a valid region that is not
    locked, the state is free (1) / blocked (2) / owned (4) according to the
    owner field. *)
Theorem C28_state_accurate : forall P top pb rb G s c r s' v,
  reachable P top pb rb G s -> c < g_core_count G -> r < g_dram_region_count G ->
  lock_of G s r = 0 -> do_call G c (CRegionState r) s = (s', Some v) ->
  (v = 1 <-> owner_of G s r = 3) /\ (v = 2 <-> owner_of G s r = 1) /\
  (v = 4 <-> owner_of G s r = 0 \/ owner_of G s r = 2).
Proof.
  intros P top pb rb G s c r s' v R C RR L D.
  destruct (reach_shows _ _ _ _ _ _ R) as [g [HD [M K]]].
  assert (A : r < 2 ^ 64).
  { rewrite (geo_count _ _ _ g) in RR. pose proof (geo_rb _ _ _ g).
    assert (2 ^ rb <= 2 ^ 30) by (apply N.pow_le_mono_r; lia).
    change (2 ^ 30) with 1073741824 in *. change (2 ^ 64) with W64. unfold W64. lia. }
  destruct (C28_queries P top pb rb G s M c r R K C A) as [[s2 [D2 _]] _].
  rewrite D in D2. inversion D2; subst. clear D2.
  rewrite (sh_lock _ _ _ K r RR) in L. rewrite (sh_owner _ _ _ K r RR).
  rewrite (geo_count _ _ _ g) in RR.
  unfold state_table, taken. destruct (N.leb_spec (2 ^ rb) r); [lia|].
  destruct ((r =? 0) && m_stuck M); [discriminate|].
  destruct (m_owner M r); cbn; intuition congruence.
Qed.
Example C28_example : exists s', do_call ex_G 1 (CRegionState 5) ex_s0 = (s', Some 4).
Proof.
  exists (fst (do_call ex_G 1 (CRegionState 5) ex_s0)). apply call_val. vm_compute. reflexivity.
Qed.

(** ** C29 *)
Theorem C29_region_locks_partial : forall P top pb rb G s c k s' v r,
  reachable P top pb rb G s -> c < g_core_count G -> call_args_ok k ->
  seq_call G pb rb k -> r < g_dram_region_count G ->
  (forall t p, k = CCreateThread t p -> v <> 0) -> (forall t, k = CDeleteThread t -> v <> 0) ->
  do_call G c k s = (s', Some v) -> lock_of G s' r = lock_of G s r.
Proof.
  intros P top pb rb G s c k s' v r R C A S RR N1 N2 D.
  destruct (reach_shows _ _ _ _ _ _ R) as [g [HD [M K]]].
  destruct (call_refines G pb rb g HD s M c k K C A S) as [s2 [v2 [M' [D2 [E [K' _]]]]]].
  rewrite D in D2. inversion D2; subst.
  rewrite (sh_lock _ _ _ K r RR), (sh_lock _ _ _ K' r RR).
  apply effect_change in E.
  assert (X : m_stuck M' = m_stuck M).
  { inversion E; subst; try reflexivity.
    exfalso. match goal with Y : _ \/ _ |- _ =>
      destruct Y as [[t [p Hk]]|[t Hk]]; [eapply N1|eapply N2]; eauto end. }
  rewrite X. reflexivity.
Qed.

(** delete_thread returns ok and leaves the lock of region 0 taken; from then on
    no region can be blocked. *)
Theorem C29_refuted : forall P top pb rb G s0 c t,
  started P top pb rb G s0 -> c < g_core_count G -> t < 2 ^ 64 ->
  exists s1, do_call G c (CDeleteThread t) s0 = (s1, Some 0) /\
    lock_of G s0 0 = 0 /\ lock_of G s1 0 = 1 /\
    forall h s2 c' r s3 v, history G pb rb s1 h s2 -> c' < g_core_count G ->
      r < 2 ^ 64 -> do_call G c' (CBlock r) s2 = (s3, Some v) -> v <> 0.
Proof.
  intros P top pb rb G s0 c t ST C T.
  destruct (started_geom _ _ _ _ _ _ ST) as [g HD].
  destruct (started_shows _ _ _ _ _ _ ST) as [ac [c0 [_ [_ K0]]]].
  assert (N0 : 0 < g_dram_region_count G)
    by (rewrite (geo_count _ _ _ g); apply pow2_pos).
  assert (W : wp G c (call_prog G (CDeleteThread t)) (view_of G s0)
    (fun v o' => v = ok)).
  { pose proof (view_of_view G s0) as V.
    pose proof (shows_like G pb rb g s0 _ _ V K0) as L.
    cbn [call_prog]. eapply wp_weaken; [|apply (SeqCalls4.delete_thread_seq G pb rb g c t _ _ L C)].
    cbv beta. intros v o' (X & _). exact X. }
  destruct (call_refines G pb rb g HD s0 _ c (CDeleteThread t) K0 C T I)
    as [s1 [v1 [M1 [D1 [E1 [K1 _]]]]]].
  destruct (W s0 (view_of_view G s0)) as [s2 [v2 [o2 [D2 [_ ->]]]]].
  unfold do_call in *. rewrite D1 in D2. inversion D2; subst s2 v1.
  cbn [effect] in E1. destruct E1 as [[X _]|(_ & _ & ->)]; [exfalso; apply X; reflexivity|].
  exists s1. split; [exact D1|].
  split; [rewrite (sh_lock _ _ _ K0 0 N0); reflexivity|].
  split; [rewrite (sh_lock _ _ _ K1 0 N0); reflexivity|].
  intros h s2 c' r s3 v H C' A D.
  destruct (history_refines G pb rb g HD s1 _ h s2 K1 H) as [M2 [MH K2]].
  assert (ST2 : m_stuck M2 = true).
  { clear -MH. induction MH as [|h M e v M' H IH E]; [reflexivity|].
    apply effect_change in E. destruct E; auto. }
  destruct (call_refines G pb rb g HD s2 M2 c' (CBlock r) K2 C' A I)
    as [s4 [v4 [M4 [D4 [E4 _]]]]].
  unfold do_call in *. rewrite D in D4. inversion D4; subst.
  cbn [effect] in E4. apply block_inv in E4 as [[V _]|(_ & _ & _ & _ & X & _)]; [exact V|].
  congruence.
Qed.
Example C29_example : exists s', do_call ex_G 0 (CAssign 3 0) ex_s0 = (s', Some invalid_state) /\
  lock_of ex_G s' 3 = 0.
Proof.
  exists (fst (do_call ex_G 0 (CAssign 3 0) ex_s0)).
  split; [apply call_val|]; vm_compute; reflexivity.
Qed.

(** ** C30 *)
Ltac uses_tac :=
  repeat first [progress cbv zeta | exact I | apply uses_bind; [|intros ?]
    | apply uses_op; intro; discriminate
    | apply uses_for_exit; intros ?
    | match goal with |- uses _ (if ?b then _ else _) => destruct b
                    | |- uses _ (match ?b with Some _ => _ | None => _ end) => destruct b end].
Lemma block_no_flush G r : uses not_flush (block_dram_region G r).
Proof.
  unfold block_dram_region, test_and_set_dram_region_lock, clear_dram_region_lock,
    read_dram_region_owner, current_enclave, current_core_info, dma_check,
    set_enclave_region_bitmap_bit, set_bitmap_bit, load64, store64. uses_tac.
Qed.
Lemma free_no_flush G r : uses not_flush (free_dram_region G r).
Proof.
  unfold free_dram_region, test_and_set_dram_region_lock, clear_dram_region_lock,
    read_dram_region_owner, stale_core, load64, store64. uses_tac.
Qed.

(** Refuted: on every machine, right after boot, region r can be blocked and then
    freed although no core has ever flushed. *)
Theorem C30_refuted : forall P top pb rb G s0 c c' r,
  started P top pb rb G s0 -> c < g_core_count G -> c' < g_core_count G ->
  2 <= r < g_dram_region_count G ->
  exists s1 s2, do_call G c (CBlock r) s0 = (s1, Some 0) /\
    do_call G c' (CFree r) s1 = (s2, Some 0) /\
    owner_of G s1 r = 1 /\ owner_of G s2 r = 3 /\
    forall i, i < g_core_count G -> r_tlb_flushes (s_cores s2 i) = r_tlb_flushes (s_cores s0 i).
Proof.
  intros P top pb rb G s0 c c' r ST C C' [R2 R].
  destruct (started_geom _ _ _ _ _ _ ST) as [g HD].
  destruct (started_shows _ _ _ _ _ _ ST) as [ac [c0 [_ [_ K0]]]].
  pose proof (reach_start _ _ _ _ _ _ ST) as R0.
  assert (RB : r < 2 ^ rb) by (rewrite <- (geo_count _ _ _ g); exact R).
  assert (RW : r < W64).
  { pose proof (geo_rb _ _ _ g). assert (2 ^ rb <= 2 ^ 30) by (apply N.pow_le_mono_r; lia).
    change (2 ^ 30) with 1073741824 in *. unfold W64. lia. }
  assert (E0 : (r =? 0) = false) by lia. assert (E1 : (2 ^ rb <=? r) = false) by lia.
  destruct (can_call _ _ _ _ _ _ _ c (CBlock r) R0 K0 C RW I)
    as [s1 [v1 [M1 [C1 [F1 [K1 [_ R1]]]]]]].
  cbn [effect] in F1. unfold block_table in F1.
  rewrite E0, E1 in F1. cbn [orb m_owner boot_mstate m_stuck m_dma_start m_dma_end] in F1.
  replace (touches _ _ _ _) with false in F1.
  2:{ symmetry. unfold touches, stripe_start. pose proof (geo_fits _ _ _ g) as F.
      assert (SP : 2 ^ 12 <= 2 ^ (12 + pb)) by (apply N.pow_le_mono_r; lia).
      change (2 ^ 12) with 4096 in SP.
      revert F SP. generalize (2 ^ (12 + pb)). intros x F SP.
      apply andb_false_intro2. apply N.leb_gt. nia. }
  inversion F1; subst v1 M1; clear F1.
  destruct (can_call _ _ _ _ _ _ _ c' (CFree r) R1 K1 C' RW I)
    as [s2 [v2 [M2 [C2 [F2 [K2 [_ R2']]]]]]].
  cbn [effect] in F2. unfold free_table, taken in F2. rewrite E0, E1 in F2. cbn [andb] in F2.
  cbn [m_owner load_access tick set_owner boot_mstate] in F2. rewrite upd_same in F2.
  replace (all_flushed _ _ _) with true in F2.
  2:{ symmetry. unfold all_flushed. apply forallb_forall. intros i _.
      cbn [m_flushed m_blocked_at load_access tick set_owner boot_mstate m_clock].
      rewrite upd_same. reflexivity. }
  inversion F2; subst v2 M2; clear F2.
  exists s1, s2. split; [exact C1|]. split; [exact C2|].
  rewrite (sh_owner _ _ _ K1 r R), (sh_owner _ _ _ K2 r R).
  cbn [m_owner load_access tick set_owner boot_mstate]. rewrite !upd_same.
  split; [reflexivity|]. split; [reflexivity|].
  intros i I.
  rewrite (run_flushes c' i _ _ _ _ (free_no_flush G r) C2).
  apply (run_flushes c i _ _ _ _ (block_no_flush G r) C1).
Qed.
Example C30_refuted_example : exists s1 s2, do_call ex_G 0 (CBlock 2) ex_s0 = (s1, Some 0) /\
  do_call ex_G 1 (CFree 2) s1 = (s2, Some 0).
Proof.
  destruct (C30_refuted _ _ _ _ _ _ 0 1 2 ex_started) as [s1 [s2 [H1 [H2 _]]]];
    [reflexivity|reflexivity|split; [discriminate|reflexivity]|].
  exists s1, s2. auto.
Qed.

(** What holds: when r, blocked by the event shown and not blocked again since,
    is freed, every core c' either flushed after that block, or no block at all
    happened between its last flush (or boot) and that block. *)
Theorem C30_flushed_partial : forall P top pb rb G s0 h1 c r h2 s c2 s' c',
  started P top pb rb G s0 ->
  history G pb rb s0 (h1 ++ (ECall c (CBlock r), 0) :: h2) s ->
  blocks (h1 ++ (ECall c (CBlock r), 0) :: h2) < 2 ^ 64 ->
  owner_of G s r = 1 -> none (ok_block_of r) h2 ->
  estep G pb rb s (ECall c2 (CFree r)) 0 s' -> c' < g_core_count G ->
  ~ none (flush_by c') h2 \/
  exists a b, h1 = a ++ b /\ none ok_block b /\
    (a = [] \/ exists a', a = a' ++ [(ECall c' CFlush, 0)]).
Proof.
  intros P top pb rb G s0 h1 c r h2 s c2 s' c' ST H B O NB E C'.
  destruct (started_geom _ _ _ _ _ _ ST) as [g HD].
  destruct (started_shows _ _ _ _ _ _ ST) as [ac [c0 [_ [_ K0]]]].
  apply history_app in H as [s1 [H1 H2]].
  apply (history_app G pb rb s1 [_] h2 s) in H2 as [s2 [E2 H2]]. apply history_one in E2.
  destruct (history_refines G pb rb g HD s0 _ h1 s1 K0 H1) as [M1 [MH1 K1]].
  destruct (step_refines G pb rb g HD s1 M1 _ _ s2 K1 E2) as [M2 [EF2 K2]].
  destruct (history_refines G pb rb g HD s2 _ h2 s K2 H2) as [M [MH2 K]].
  destruct (step_refines G pb rb g HD s M _ _ s' K E) as [M' [EF' _]].
  change (2 ^ 64) with W64 in B.
  change ((ECall c (CBlock r), 0) :: h2) with ([(ECall c (CBlock r), 0)] ++ h2) in B.
  rewrite !blocks_app, blocks_one in B. cbn [ok_block] in B.
  pose proof (clock_counts _ _ _ _ _ _ _ MH1 eq_refl) as CC.
  cbn [m_clock boot_mstate] in CC. rewrite N.add_0_l, N.mod_small in CC by lia.
  apply block_inv in EF2 as [[V _]|(_ & R0 & RB & _ & _ & _ & EM2)];
    [exfalso; apply V; reflexivity|].
  (* block time of r *)
  assert (BT : m_blocked_at M2 r = blocks h1).
  { subst M2. cbn [m_blocked_at load_access tick set_owner m_clock]. rewrite upd_same.
    exact CC. }
  assert (CL2 : m_clock M2 = blocks h1 + 1).
  { subst M2. cbn [m_clock load_access tick set_owner]. rewrite CC, N.mod_small by lia.
    reflexivity. }
  assert (FL2 : m_flushed M2 c' = m_flushed M1 c') by (subst M2; reflexivity).
  assert (BTM : m_blocked_at M r = blocks h1).
  { clear -MH2 NB BT. induction MH2 as [|h M e v M' H IH E]; auto.
    apply none_app in NB as [N1 N2]. apply none_one in N2. specialize (IH N1).
    apply effect_change in E. destruct E; auto. cbn in N2.
    cbn [m_blocked_at load_access tick set_owner]. rewrite upd_other; auto.
    apply N.eqb_neq. rewrite N.eqb_sym. exact N2. }
  (* the free succeeded *)
  cbn [effect] in EF'. apply free_inv in EF' as [[V _]|(_ & _ & _ & AF)];
    [exfalso; apply V; reflexivity|].
  assert (RC : r < g_dram_region_count G) by (rewrite (geo_count _ _ _ g); exact RB).
  rewrite (sh_owner _ _ _ K r RC) in O.
  destruct AF as [[_ AF]|X]; [|rewrite X in O; discriminate].
  assert (FC : blocks h1 <= m_flushed M c').
  { unfold all_flushed in AF. rewrite forallb_forall in AF.
    specialize (AF (N.to_nat c')). rewrite N2Nat.id in AF. rewrite BTM in AF.
    apply N.leb_le, AF. apply in_seq. lia. }
  assert (FM1 : m_flushed M1 c' <= m_clock M1).
  { eapply flush_le_clock; [exact MH1| |]; cbn [m_clock boot_mstate m_flushed]; lia. }
  destruct (flush_time _ _ _ _ M2 h2 M c' MH2) as [[NF FE]|[a [b [-> _]]]].
  - rewrite CL2. lia.
  - rewrite FL2, CL2, <- CC. lia.
  - right. rewrite FE, FL2 in FC.
    destruct (flush_time _ _ _ _ _ h1 M1 c' MH1) as [[NF1 FE1]|[a [b [-> [_ FE1]]]]].
    + cbn [m_clock boot_mstate]. lia.
    + reflexivity.
    + exists [], h1. split; [reflexivity|]. split; [|left; reflexivity].
      apply blocks_0. rewrite FE1 in FC. cbn [m_flushed boot_mstate] in FC. lia.
    + exists (a ++ [(ECall c' CFlush, 0)]), b. split; [rewrite <- app_assoc; reflexivity|].
      split; [|right; eauto]. apply blocks_0.
      rewrite FE1 in FC. cbn [m_clock boot_mstate] in FC.
      change ((ECall c' CFlush, 0) :: b) with ([(ECall c' CFlush, 0)] ++ b) in FC.
      rewrite !blocks_app, blocks_one in FC. cbn [ok_block] in FC. lia.
  - left. intros NN. specialize (NN (ECall c' CFlush, 0)).
    rewrite (proj2 (N.eqb_eq c' c') eq_refl : flush_by c' (ECall c' CFlush, 0) = true) in NN.
    discriminate NN. apply in_or_app. right. left. reflexivity.
Qed.

(** ** C31 *)

(** After r was blocked, and while it was not freed, once every core has flushed
    a free of r by any core returns ok. *)
Theorem C31_flush_suffices_partial : forall P top pb rb G s0 h1 c r h2 s c2,
  started P top pb rb G s0 ->
  history G pb rb s0 (h1 ++ (ECall c (CBlock r), 0) :: h2) s ->
  blocks (h1 ++ (ECall c (CBlock r), 0) :: h2) < 2 ^ 64 ->
  none (ok_free_of r) h2 ->
  (forall c', c' < g_core_count G -> ~ none (flush_by c') h2) ->
  c2 < g_core_count G ->
  exists s', do_call G c2 (CFree r) s = (s', Some 0) /\ owner_of G s' r = 3.
Proof.
  intros P top pb rb G s0 h1 c r h2 s c2 ST H B NF FL C2.
  destruct (started_geom _ _ _ _ _ _ ST) as [g HD].
  destruct (started_shows _ _ _ _ _ _ ST) as [ac [c0 [_ [_ K0]]]].
  assert (RE : reachable P top pb rb G s) by (eexists _, _; eauto).
  apply history_app in H as [s1 [H1 H2]].
  apply (history_app G pb rb s1 [_] h2 s) in H2 as [s2 [E2 H2]]. apply history_one in E2.
  destruct (history_refines G pb rb g HD s0 _ h1 s1 K0 H1) as [M1 [MH1 K1]].
  destruct (step_refines G pb rb g HD s1 M1 _ _ s2 K1 E2) as [M2 [EF2 K2]].
  destruct (history_refines G pb rb g HD s2 _ h2 s K2 H2) as [M [MH2 K]].
  change (2 ^ 64) with W64 in B.
  change ((ECall c (CBlock r), 0) :: h2) with ([(ECall c (CBlock r), 0)] ++ h2) in B.
  rewrite !blocks_app, blocks_one in B. cbn [ok_block] in B.
  pose proof (clock_counts _ _ _ _ _ _ _ MH1 eq_refl) as CC.
  cbn [m_clock boot_mstate] in CC. rewrite N.add_0_l, N.mod_small in CC by lia.
  apply block_inv in EF2 as [[V _]|(_ & R0 & RB & _ & _ & _ & EM2)];
    [exfalso; apply V; reflexivity|].
  assert (BT : m_blocked_at M2 r = blocks h1).
  { subst M2. cbn [m_blocked_at load_access tick set_owner m_clock]. rewrite upd_same.
    exact CC. }
  assert (CL2 : m_clock M2 = blocks h1 + 1).
  { subst M2. cbn [m_clock load_access tick set_owner]. rewrite CC, N.mod_small by lia.
    reflexivity. }
  destruct (stays_blocked _ _ _ _ M2 h2 M r MH2) as (OM & BM & _).
  { subst M2. cbn [m_owner load_access tick set_owner]. apply upd_same. }
  { exact NF. }
  assert (AF : all_flushed (g_core_count G) M r = true).
  { unfold all_flushed. apply forallb_forall. intros i I. apply in_seq in I.
    assert (C' : N.of_nat i < g_core_count G) by lia.
    rewrite BM, BT. apply N.leb_le.
    assert (FM1 : m_flushed M1 (N.of_nat i) <= m_clock M1).
    { eapply flush_le_clock; [exact MH1| |]; cbn [m_clock boot_mstate m_flushed]; lia. }
    destruct (flush_time _ _ _ _ M2 h2 M (N.of_nat i) MH2) as [[NN _]|[a [b [_ [_ FE]]]]].
    - rewrite CL2. lia.
    - rewrite CL2, <- CC. replace (m_flushed M2 (N.of_nat i)) with (m_flushed M1 (N.of_nat i))
        by (subst M2; reflexivity). lia.
    - exfalso. apply (FL (N.of_nat i) C'). exact NN.
    - rewrite FE, CL2. lia. }
  assert (RW : r < W64).
  { pose proof (geo_rb _ _ _ g). assert (2 ^ rb <= 2 ^ 30) by (apply N.pow_le_mono_r; lia).
    change (2 ^ 30) with 1073741824 in *. unfold W64. lia. }
  destruct (can_call _ _ _ _ _ _ _ c2 (CFree r) RE K C2 RW I) as [s3 [v3 [M3 [C3 [F3 [K3 _]]]]]].
  cbn [effect] in F3. unfold free_table, taken in F3. rewrite OM, AF in F3.
  replace (2 ^ rb <=? r) with false in F3 by lia. replace (r =? 0) with false in F3 by lia.
  inversion F3; subst. exists s3. split; [exact C3|].
  rewrite (sh_owner _ _ _ K3) by (rewrite (geo_count _ _ _ g); exact RB).
  cbn [m_owner set_owner]. rewrite upd_same. reflexivity.
Qed.

(** ** C32 *)

(** The k-th successful block (counting from 0) gets block time k and leaves the
    clock at k + 1; no flush time is above the clock. *)
Theorem C32_block_times_partial : forall P top pb rb G s0 h s c r s',
  started P top pb rb G s0 -> history G pb rb s0 h s ->
  blocks h + 1 < 2 ^ 64 ->
  estep G pb rb s (ECall c (CBlock r)) 0 s' ->
  blocked_at_of G s' r = blocks h /\ clock_of G s' = blocks h + 1.
Proof.
  intros P top pb rb G s0 h s c r s' ST H B E. change (2 ^ 64) with W64 in B.
  destruct (started_geom _ _ _ _ _ _ ST) as [g HD].
  destruct (started_shows _ _ _ _ _ _ ST) as [ac [c0 [_ [_ K0]]]].
  destruct (history_refines G pb rb g HD s0 _ h s K0 H) as [M1 [MH1 K1]].
  destruct (step_refines G pb rb g HD s M1 _ _ s' K1 E) as [M2 [EF2 K2]].
  pose proof (clock_counts _ _ _ _ _ _ _ MH1 eq_refl) as CC.
  cbn [m_clock boot_mstate] in CC. rewrite N.add_0_l, N.mod_small in CC by lia.
  apply block_inv in EF2 as [[V _]|(_ & R0 & RB & _ & _ & _ & EM2)];
    [exfalso; apply V; reflexivity|].
  assert (RC : r < g_dram_region_count G) by (rewrite (geo_count _ _ _ g); exact RB).
  rewrite (sh_blocked _ _ _ K2 r RC), (sh_clock _ _ _ K2). subst M2.
  cbn [m_blocked_at m_clock load_access tick set_owner]. rewrite upd_same, CC.
  split; [reflexivity|]. apply N.mod_small. lia.
Qed.

(** Hence strictly increasing block times. *)
Theorem C32_increasing_partial : forall P top pb rb G s0 h1 s1 c1 r1 s1' h2 s2 c2 r2 s2',
  started P top pb rb G s0 -> history G pb rb s0 h1 s1 ->
  estep G pb rb s1 (ECall c1 (CBlock r1)) 0 s1' ->
  history G pb rb s0 (h1 ++ (ECall c1 (CBlock r1), 0) :: h2) s2 ->
  estep G pb rb s2 (ECall c2 (CBlock r2)) 0 s2' ->
  blocks (h1 ++ (ECall c1 (CBlock r1), 0) :: h2) + 1 < 2 ^ 64 ->
  blocked_at_of G s1' r1 < blocked_at_of G s2' r2.
Proof.
  intros P top pb rb G s0 h1 s1 c1 r1 s1' h2 s2 c2 r2 s2' ST H1 E1 H2 E2 B.
  assert (L : blocks h1 < blocks (h1 ++ (ECall c1 (CBlock r1), 0) :: h2)).
  { change ((ECall c1 (CBlock r1), 0) :: h2) with ([(ECall c1 (CBlock r1), 0)] ++ h2).
    rewrite !blocks_app, blocks_one. cbn [ok_block]. lia. }
  destruct (C32_block_times_partial _ _ _ _ _ _ _ _ _ _ _ ST H1 ltac:(lia) E1) as [-> _].
  destruct (C32_block_times_partial _ _ _ _ _ _ _ _ _ _ _ ST H2 B E2) as [-> _].
  exact L.
Qed.
Theorem C32_flush_below_clock_partial : forall P top pb rb G s0 h s c,
  started P top pb rb G s0 -> history G pb rb s0 h s -> blocks h < 2 ^ 64 ->
  c < g_core_count G -> flushed_of G s c <= clock_of G s.
Proof.
  intros P top pb rb G s0 h s c ST H B C. change (2 ^ 64) with W64 in B.
  destruct (started_geom _ _ _ _ _ _ ST) as [g HD].
  destruct (started_shows _ _ _ _ _ _ ST) as [ac [c0 [_ [_ K0]]]].
  destruct (history_refines G pb rb g HD s0 _ h s K0 H) as [M1 [MH1 K1]].
  rewrite (sh_flushed _ _ _ K1 c C), (sh_clock _ _ _ K1).
  eapply flush_le_clock; [exact MH1| |]; cbn [m_clock boot_mstate m_flushed]; lia.
Qed.
Example C31_C32_example : exists s1 s2 s3 s4,
  history ex_G 6 4 ex_s0 ([] ++ (ECall 0 (CBlock 2), 0) ::
    [(ECall 0 CFlush, 0); (ECall 1 CFlush, 0)]) s3 /\
  do_call ex_G 0 (CBlock 2) ex_s0 = (s1, Some 0) /\ blocked_at_of ex_G s1 2 = 0 /\
  do_call ex_G 0 CFlush s1 = (s2, Some 0) /\ do_call ex_G 1 CFlush s2 = (s3, Some 0) /\
  do_call ex_G 1 (CFree 2) s3 = (s4, Some 0) /\
  (exists s5, do_call ex_G 1 (CBlock 4) s4 = (s5, Some 0) /\ blocked_at_of ex_G s5 4 = 1).
Proof.
  pose (s1 := fst (do_call ex_G 0 (CBlock 2) ex_s0)).
  pose (s2 := fst (do_call ex_G 0 CFlush s1)).
  pose (s3 := fst (do_call ex_G 1 CFlush s2)).
  pose (s4 := fst (do_call ex_G 1 (CFree 2) s3)).
  assert (C1 : do_call ex_G 0 (CBlock 2) ex_s0 = (s1, Some 0))
    by (apply call_val; vm_compute; reflexivity).
  assert (C2 : do_call ex_G 0 CFlush s1 = (s2, Some 0))
    by (apply call_val; vm_compute; reflexivity).
  assert (C3 : do_call ex_G 1 CFlush s2 = (s3, Some 0))
    by (apply call_val; vm_compute; reflexivity).
  assert (C4 : do_call ex_G 1 (CFree 2) s3 = (s4, Some 0))
    by (apply call_val; vm_compute; reflexivity).
  exists s1, s2, s3, s4. split.
  { cbn [app]. apply (hist_snoc _ _ _ _ [(ECall 0 (CBlock 2), 0); (ECall 0 CFlush, 0)] s2).
    - apply (hist_snoc _ _ _ _ [(ECall 0 (CBlock 2), 0)] s1).
      + apply (hist_snoc _ _ _ _ [] ex_s0); [constructor|].
        constructor; [reflexivity|reflexivity|exact I|exact C1].
      + constructor; [reflexivity|exact I|exact I|exact C2].
    - constructor; [reflexivity|exact I|exact I|exact C3]. }
  split; [exact C1|]. split; [vm_compute; reflexivity|]. split; [exact C2|].
  split; [exact C3|]. split; [exact C4|].
  exists (fst (do_call ex_G 1 (CBlock 4) s4)).
  split; [apply call_val|]; vm_compute; reflexivity.
Qed.

(** The bound on the number of blocks is needed: the clock is a 64-bit counter.
    A history on the example machine with any number k < 2^64 of rounds of
    block, flush on both cores, free, assign exists. *)
Definition calm (M : mstate) (k : N) : Prop :=
  (forall r, m_owner M r = OS) /\ m_stuck M = false /\ m_clock M = k /\
  m_dma_start M = 1024 /\ m_dma_end M = 1025.
Lemma block_calm h s M k c r : history ex_G 6 4 ex_s0 h s -> shows ex_G s M ->
  calm M k -> c < 2 -> 2 <= r < 16 -> k < W64 ->
  exists s', do_call ex_G c (CBlock r) s = (s', Some 0) /\
    history ex_G 6 4 ex_s0 (h ++ [(ECall c (CBlock r), 0)]) s' /\
    shows ex_G s' (load_access (tick (set_owner M r Blocked) r) c).
Proof.
  intros H K (A1 & A2 & A3 & A4 & A5) C R KB.
  assert (RE : reachable ex_platform 0 6 4 ex_G s) by (eexists _, _; split; [exact ex_started|exact H]).
  assert (RW : r < W64) by (unfold W64; lia).
  destruct (can_call _ _ _ _ _ _ _ c (CBlock r) RE K C RW I) as [s' [v [M' [D [E [K' [ES _]]]]]]].
  cbn [effect] in E. unfold block_table in E. change (2 ^ 4) with 16 in E.
  replace (r =? 0) with false in E by lia. replace (16 <=? r) with false in E by lia.
  rewrite A1, A2, A4, A5 in E. cbn [orb] in E. unfold touches, stripe_start in E.
  change (2 ^ (12 + 6)) with 262144 in E.
  replace (_ && _) with false in E by lia. inversion E; subst.
  exists s'. split; [exact D|]. split; [|exact K']. econstructor; eauto.
Qed.
Lemma flush_both h s M : history ex_G 6 4 ex_s0 h s -> shows ex_G s M ->
  exists s1 s2, do_call ex_G 0 CFlush s = (s1, Some 0) /\
    do_call ex_G 1 CFlush s1 = (s2, Some 0) /\
    history ex_G 6 4 ex_s0 (h ++ [(ECall 0 CFlush, 0)] ++ [(ECall 1 CFlush, 0)]) s2 /\
    shows ex_G s2 (m_flush (m_flush M 0) 1).
Proof.
  intros H K.
  assert (RE : reachable ex_platform 0 6 4 ex_G s) by (eexists _, _; split; [exact ex_started|exact H]).
  destruct (can_call _ _ _ _ _ _ _ 0 CFlush RE K eq_refl I I) as [s1 [v [M' [D [[-> ->] [K' [ES RE1]]]]]]].
  destruct (can_call _ _ _ _ _ _ _ 1 CFlush RE1 K' eq_refl I I) as [s2 [v2 [M2 [D2 [[-> ->] [K2 [ES2 _]]]]]]].
  exists s1, s2. split; [exact D|]. split; [exact D2|]. split; [|exact K2].
  rewrite app_assoc. econstructor; [|exact ES2]. econstructor; eauto.
Qed.
Lemma rounds k : k < W64 -> exists h s M, history ex_G 6 4 ex_s0 h s /\ shows ex_G s M /\
  calm M k /\ blocks h = k.
Proof.
  induction k as [|k IH] using N.peano_ind; intros KB.
  - destruct (started_shows _ _ _ _ _ _ ex_started) as [ac [c0 [_ [_ K0]]]].
    exists [], ex_s0, (boot_mstate ac (g_monitor_top ex_G)).
    split; [constructor|]. split; [exact K0|]. split; [|reflexivity].
    repeat split.
  - destruct IH as [h [s [M [H [K [CM BM]]]]]]; [lia|].
    destruct (block_calm h s M k 0 2 H K CM eq_refl ltac:(lia) ltac:(lia)) as [s1 [D1 [H1 K1]]].
    destruct (flush_both _ _ _ H1 K1) as [s2 [s3 [D2 [D3 [H3 K3]]]]].
    assert (RE3 : reachable ex_platform 0 6 4 ex_G s3)
      by (eexists _, _; split; [exact ex_started|exact H3]).
    destruct CM as (A1 & A2 & A3 & A4 & A5).
    destruct (can_call _ _ _ _ _ _ _ 0 (CFree 2) RE3 K3 eq_refl eq_refl I)
      as [s4 [v4 [M4 [D4 [E4 [K4 [ES4 RE4]]]]]]].
    cbn [effect] in E4. unfold free_table in E4. change (2 ^ 4 <=? 2) with false in E4.
    unfold taken in E4. change (2 =? 0) with false in E4.
    cbn [andb m_owner m_flush load_access tick set_owner] in E4. rewrite upd_same in E4.
    replace (all_flushed _ _ _) with true in E4.
    2:{ symmetry. unfold all_flushed.
        cbn [m_owner m_blocked_at m_flushed m_clock m_flush load_access tick set_owner].
        change (seq 0 (N.to_nat (g_core_count ex_G))) with (seq 0 2). cbn [seq forallb].
        change (N.of_nat 0) with 0. change (N.of_nat 1) with 1.
        repeat first [rewrite upd_same | rewrite upd_other by discriminate].
        rewrite A3, N.mod_small by lia. rewrite andb_true_r. apply andb_true_intro.
        split; apply N.leb_le; lia. }
    inversion E4; subst v4 M4. clear E4.
    destruct (can_call _ _ _ _ _ _ _ 0 (CAssign 2 0) RE4 K4 eq_refl (conj eq_refl eq_refl) I)
      as [s5 [v5 [M5 [D5 [E5 [K5 [ES5 _]]]]]]].
    cbn [effect] in E5. unfold assign_table in E5. change (2 ^ 4 <=? 2) with false in E5.
    unfold taken in E5. change (2 =? 0) with false in E5.
    change (region_of 6 4 0) with 0 in E5.
    cbn [andb m_owner m_flush load_access tick set_owner m_stuck] in E5. rewrite upd_same in E5.
    rewrite A2 in E5. cbn in E5. inversion E5; subst v5 M5. clear E5.
    eexists _, s5, _. split; [econstructor; [econstructor; [exact H3|exact ES4]|exact ES5]|].
    split; [exact K5|]. split.
    + repeat split; cbn [m_owner m_clock m_stuck m_dma_start m_dma_end m_flush load_access tick
        set_owner]; auto.
      * intros r. unfold upd. destruct (r =? 2); auto.
      * rewrite A3. rewrite N.mod_small; lia.
    + rewrite !blocks_app, !blocks_one. cbn [ok_block]. lia.
Qed.

(** After 2^64 blocks, with region 2 blocked last and both cores flushed since,
    freeing region 2 fails; and the next block gets time 0, below the time
    2^64-1 of the block of region 2. *)
Theorem C31_wrap_refuted : exists h s1 s2 s3 s4,
  history ex_G 6 4 ex_s0 h s1 /\ blocks h = 2 ^ 64 /\ owner_of ex_G s1 2 = 1 /\
  do_call ex_G 0 CFlush s1 = (s2, Some 0) /\ do_call ex_G 1 CFlush s2 = (s3, Some 0) /\
  do_call ex_G 0 (CFree 2) s3 = (s4, Some invalid_state).
Proof.
  destruct (rounds (W64 - 1)) as [h [s [M [H [K [CM BM]]]]]]; [reflexivity|].
  destruct (block_calm h s M _ 0 2 H K CM eq_refl ltac:(lia) eq_refl) as [s1 [D1 [H1 K1]]].
  destruct (flush_both _ _ _ H1 K1) as [s2 [s3 [D2 [D3 [H3 K3]]]]].
  assert (RE3 : reachable ex_platform 0 6 4 ex_G s3)
    by (eexists _, _; split; [exact ex_started|exact H3]).
  destruct CM as (A1 & A2 & A3 & A4 & A5).
  destruct (can_call _ _ _ _ _ _ _ 0 (CFree 2) RE3 K3 eq_refl eq_refl I)
    as [s4 [v4 [M4 [D4 [E4 [K4 [ES4 RE4]]]]]]].
  cbn [effect] in E4. unfold free_table in E4. change (2 ^ 4 <=? 2) with false in E4.
  unfold taken in E4. change (2 =? 0) with false in E4.
  cbn [andb m_owner m_flush load_access tick set_owner] in E4. rewrite upd_same in E4.
  replace (all_flushed _ _ _) with false in E4.
  2:{ symmetry. unfold all_flushed.
      cbn [m_owner m_blocked_at m_flushed m_clock m_flush load_access tick set_owner].
      change (seq 0 (N.to_nat (g_core_count ex_G))) with (seq 0 2). cbn [seq forallb].
      change (N.of_nat 0) with 0. change (N.of_nat 1) with 1.
      repeat first [rewrite upd_same | rewrite upd_other by discriminate].
      rewrite A3. apply andb_false_intro1. vm_compute. reflexivity. }
  inversion E4; subst v4 M4. clear E4.
  exists (h ++ [(ECall 0 (CBlock 2), 0)]), s1, s2, s3, s4.
  split; [exact H1|]. split; [rewrite blocks_app, blocks_one, BM; reflexivity|].
  split; [|auto].
  rewrite (sh_owner _ _ _ K1 2 eq_refl). cbn [m_owner load_access tick set_owner].
  rewrite upd_same. reflexivity.
Qed.
Theorem C32_wrap_refuted : exists h s1 s2,
  history ex_G 6 4 ex_s0 h s1 /\ blocks h = 2 ^ 64 /\
  blocked_at_of ex_G s1 2 = 2 ^ 64 - 1 /\
  do_call ex_G 0 (CBlock 3) s1 = (s2, Some 0) /\ blocked_at_of ex_G s2 3 = 0.
Proof.
  destruct (rounds (W64 - 1)) as [h [s [M [H [K [CM BM]]]]]]; [reflexivity|].
  destruct (block_calm h s M _ 0 2 H K CM eq_refl ltac:(lia) eq_refl) as [s1 [D1 [H1 K1]]].
  assert (RE1 : reachable ex_platform 0 6 4 ex_G s1)
    by (eexists _, _; split; [exact ex_started|exact H1]).
  destruct CM as (A1 & A2 & A3 & A4 & A5).
  destruct (can_call _ _ _ _ _ _ _ 0 (CBlock 3) RE1 K1 eq_refl eq_refl I)
    as [s4 [v4 [M4 [D4 [E4 [K4 [ES4 RE4]]]]]]].
  cbn [effect] in E4. unfold block_table in E4. change (2 ^ 4 <=? 3) with false in E4.
  change (3 =? 0) with false in E4.
  cbn [orb m_owner m_stuck m_dma_start m_dma_end load_access tick set_owner] in E4.
  rewrite upd_other, A1, A2, A4, A5 in E4 by discriminate.
  change (touches 1024 1025 (stripe_start 6 4 3 0) (stripe_start 6 4 (3 + 1) 0)) with false in E4.
  cbv iota in E4. inversion E4; subst v4 M4. clear E4.
  exists (h ++ [(ECall 0 (CBlock 2), 0)]), s1, s4.
  split; [exact H1|]. split; [rewrite blocks_app, blocks_one, BM; reflexivity|].
  rewrite (sh_blocked _ _ _ K1 2 eq_refl), (sh_blocked _ _ _ K4 3 eq_refl).
  cbn [m_blocked_at m_clock load_access tick set_owner]. rewrite !upd_same, A3.
  split; [reflexivity|]. split; [exact D4|]. reflexivity.
Qed.

(** What all theorems of this file rest on. *)
Definition P_Regions_theorems := (C23_transitions_partial, C23_copy_debug_refuted,
  C24_region0_partial, C24_calls_refused, C24_copy_debug_refuted, C24_accept_thread_refuted,
  C24_accept_thread_example, C25_bitmap_partial,
  C25_owner_codes_partial, C25_copy_debug_refuted, C26_abstract_state_exists, C26_block,
  C26_create_metadata_region, C26_assign, C26_free, C26_flush, C26_set_dma_range,
  C26_block_not_owner, C27_failed_no_effect_partial, C27_thread_calls_partial, C28_queries,
  C28_state_accurate, C29_region_locks_partial, C29_refuted, C30_refuted,
  C30_flushed_partial, C31_flush_suffices_partial, C32_block_times_partial,
  C32_increasing_partial, C32_flush_below_clock_partial, C31_wrap_refuted, C32_wrap_refuted).
Print Assumptions P_Regions_theorems.
