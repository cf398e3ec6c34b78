(** * Property C96: how long a call can take. *)
From Coq Require Import NArith ZArith Lia Bool List.
From Coq Require Import ZifyBool ZifyNat ZifyN.
From Verif Require Import Word Machine ModelBare ModelHash ModelInl ModelRegions
  ModelMetadata ModelEnclave ModelBoot ModelApi Lib BareProofs BootProofs SpecGeometry
  GeomProofs Trace SpecMonitor SpecHistory SpecConcurrent ViewProofs SeqProofs SeqCalls SeqCalls2
  SpecContract HistoryProofs P_Boot P_Regions P_Metadata P_Enclave P_Contract P_Contract3 SystemProofs
  ConcBound CostProofs SpecCost.
Import ListNotations.
Open Scope N_scope.
Ltac Zify.zify_post_hook ::= Z.div_mod_to_equations.

Lemma call_cost G pb rb : geom G pb rb ->
  forall k, call_args_ok k -> loop_ends G pb rb k -> within (call_prog G k) (most_operations G pb rb k) any.
Proof.
  intros g k A EN.
  destruct k; cbn [call_prog call_args_ok most_operations] in *.
  - eapply c_block; eauto.
  - eapply c_check; eauto.
  - eapply c_state; eauto.
  - eapply c_owner; eauto.
  - rewrite <- (geo_size _ _ _ g). eapply c_set_dma; try exact EN; eauto; tauto.
  - eapply c_create_metadata; eauto.
  - eapply c_assign; eauto.
  - eapply c_free; eauto.
  - eapply c_flush; eauto.
  - eapply c_create_enclave; eauto.
  - eapply c_load_page_table; eauto.
  - eapply c_load_page; eauto.
  - eapply c_load_thread; eauto.
  - eapply c_assign_thread; eauto.
  - eapply c_init; eauto.
  - eapply c_enter; eauto.
  - unfold wipe_stores. rewrite <- (geo_size _ _ _ g). eapply c_delete; [eassumption|exact EN].
  - eapply c_copy; eauto.
  - eapply c_accept_thread; eauto.
  - eapply c_create_thread; eauto; tauto.
  - eapply c_delete_thread; eauto.
  - eapply c_exit; eauto.
Qed.
Lemma within_trace {A} c (p : prog A) : forall m Q s, within p m Q -> N.of_nat (length (trace c p s)) <= m.
Proof.
  induction p as [a|o f IH|]; intros m Q s W; cbn [within trace] in *; [cbn; lia| |contradiction].
  destruct W as [W1 W2]. destruct (step c o s) as [s' v]. cbn [length].
  specialize (IH v (m - 1) Q s' (W2 v)). lia.
Qed.

(** ** C96 *)
(** In any state whatever, reachable or not. *)
Theorem C96_operations : forall G pb rb c k s,
  geom G pb rb -> call_args_ok k -> loop_ends G pb rb k ->
  N.of_nat (length (trace c (call_prog G k) s)) <= most_operations G pb rb k.
Proof. intros G pb rb c k s g A EN. eapply within_trace, call_cost; eauto. Qed.
(** And while other cores, the OS and devices change the memory: a call that has not
    returned has executed no more operations than that. *)
Theorem C96_interleaved : forall P top pb rb G s0 x c k p l,
  started P top pb rb G s0 -> creach G pb rb (fun _ => True) false s0 x -> c < g_core_count G ->
  cf_task x c = Running k p l -> loop_ends G pb rb k -> N.of_nat (length l) <= most_operations G pb rb k.
Proof.
  intros P top pb rb G s0 x c k p l ST R C T EN. destruct (started_geom _ _ _ _ _ _ ST) as [g _].
  assert (INV : exists m, m + N.of_nat (length l) <= most_operations G pb rb k /\ within p m any).
  { revert c k p l C T EN. induction R as [|x y R IH SP]; intros c k p l C T EN; [discriminate|].
    destruct SP as [s t h c1 k1 C1 T1 AR AL|s t h c1 k1 op f i s' v C1 T1 SP NW
      |s t h c1 k1 v i C1 T1|s t h c1 a v C1 T1 A CA|s t h a v A DA TP];
      cbn [cf_state cf_task cf_held] in *; try (eapply IH; eassumption).
    - unfold upd in T. destruct (N.eqb_spec c c1) as [->|]; [|eapply IH; eassumption].
      inversion T; subst. exists (most_operations G pb rb k). cbn [length]. split; [lia|].
      apply (call_cost G pb rb g); assumption.
    - unfold upd in T. destruct (N.eqb_spec c c1) as [->|]; [|eapply IH; eassumption].
      inversion T; subst. destruct (IH c1 k _ _ C1 T1 EN) as [m [M W]]. cbn [within] in W.
      destruct W as [W1 W2]. exists (m - 1). split; [cbn [length]; lia|apply W2].
    - unfold upd in T. destruct (N.eqb_spec c c1) as [->|]; [discriminate|eapply IH; eassumption]. }
  destruct INV as [m [M _]]. lia.
Qed.
(** The calls on one region take at most 17 operations on every machine, except free (one
    load per core) and create_metadata_region (the map). *)
Theorem C96_region_calls : forall P top pb rb G s0 x c k p l,
  started P top pb rb G s0 -> creach G pb rb (fun _ => True) false s0 x -> c < g_core_count G ->
  cf_task x c = Running k p l ->
  match k with
  | CBlock _ | CCheckOwnership _ | CRegionState _ | CRegionOwner _ | CAssign _ _ | CFlush =>
      N.of_nat (length l) <= 17
  | CFree _ => N.of_nat (length l) <= 5 + g_core_count G
  | _ => True
  end.
Proof.
  intros P top pb rb G s0 x c k p l ST R C T.
  pose proof (C96_interleaved P top pb rb G s0 x c k p l ST R C T) as B.
  destruct k; cbn [most_operations loop_ends] in B; try exact I; specialize (B I); lia.
Qed.

(** The bounds are reached. *)
Definition taken (c : N) (k : call) (s : state) : N * option N :=
  (N.of_nat (length (trace c (call_prog ex_G k) s)), snd (do_call ex_G c k s)).
Example C96_example :
  g_dram_size ex_G + 2 ^ (12 + 6 + 4) <= 2 ^ 64 /\ g_core_count ex_G = 2 /\
  taken 0 (CBlock 5) ex_s0 = (16, Some 0) /\ taken 0 (CCheckOwnership 5) ex_s0 = (5, Some 0) /\
  taken 0 (CFree 15) ex_block = (7, Some 0) /\ taken 0 (CAssign 15 0) ex_free = (10, Some 0) /\
  taken 0 CFlush ex_s0 = (4, Some 0) /\ taken 0 (CRegionOwner 3) ex_s0 = (3, Some 0) /\
  taken 0 (CCreateMetadataRegion 15) ex_free = (517, Some 0) /\ g_metadata_region_start ex_G = 1 /\
  taken 0 (CSetDmaRange (2 * 2 ^ 18) (2 ^ 19 - 1)) ex_s0 = (12, Some 0) /\ pieces (2 ^ 19) (2 ^ 18) = 2 /\
  taken 0 (CInitEnclave ex_encl) ex_own = (602, Some 0) /\
  taken 0 (CCopyDebugPage ex_encl (page_addr 6 4 3 1) (page_addr 6 4 8 0) true) ex_debug = (1032, Some 0) /\
  taken 0 (CLoadPage ex_encl (ex_encl + 4096) 0x50000 8192 0) (ex_loading 0 0xffff) = (7, Some 0).
Proof. repeat split; vm_compute; first [reflexivity|discriminate]. Qed.

Definition P_Cost_theorems := (C96_operations, C96_interleaved, C96_region_calls, C96_example).
Print Assumptions P_Cost_theorems.
