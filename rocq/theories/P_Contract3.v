(** * Properties C64-C65: the debug copy and the thread calls on every machine state. *)
From Coq Require Import NArith ZArith Lia Bool List.
From Coq Require Import ZifyBool ZifyNat ZifyN.
From Verif Require Import Word Machine ModelBare ModelHash ModelInl ModelRegions
  ModelMetadata ModelEnclave ModelBoot ModelApi Lib BareProofs SpecGeometry
  GeomProofs SpecMonitor SpecHistory SpecMetadata
  ViewProofs SeqProofs SeqCalls SeqCalls2 SeqCalls3 SeqCalls5 SeqCalls6
  HistoryProofs HistoryFacts MetaProofs P_Boot P_Regions P_Metadata P_Enclave P_Inside
  SpecContract ContractProofs ContractProofs2 ContractProofs3 ContractProofs4 P_Contract.
Import ListNotations.
Open Scope N_scope.
Ltac Zify.zify_post_hook ::= Z.div_mod_to_equations.

(** ** C64 *)
(** The only hypothesis about the arguments is that the destination of a successful
    copy is not the monitor's memory; see C64_monitor_overwritten_refuted. *)
Theorem C64_enclave_records : forall G pb rb s c id ea oa (rd : bool),
  geom G pb rb -> clean_locks G s -> record_at G id -> ea < 2 ^ 64 -> oa < 2 ^ 64 ->
  let code := copy_debug_code G pb rb s id ea oa in
  let dst := if rd then oa else ea in let src := if rd then ea else oa in
  (code = 0 -> g_monitor_top G <= dst) ->
  exists s', do_call G c (CCopyDebugPage id ea oa rd) s = (s', Some code) /\
    (code <> 0 -> same_machine s s') /\
    (code = 0 -> changes_only (bytes_of dst 4096) s s' /\
       (g_monitor_top G <= src -> src <> dst -> page_copied s s' dst src)).
Proof.
  intros G pb rb s c id ea oa rd g CL RA HE HO code dst src SAFE.
  destruct (copy_debug_wp G pb rb g s c CL id ea oa rd RA HE HO SAFE s (view_of_view G s))
    as [s' [v [o' [R [V [EV [F S]]]]]]].
  exists s'. unfold do_call. cbn [call_prog]. rewrite R. fold code in EV. subst v.
  split; [reflexivity|]. split.
  { intros NZ. exact (oeq_view_same G pb rb g s s' _ o' (view_of_view G s) V (F NZ)). }
  intros Z. destruct (S Z) as [m [E [CP FR]]]. fold dst src in CP, FR. specialize (SAFE Z).
  assert (VM : view G (set_mem s m) (with_rest (view_of G s) m)).
  { apply (v_set_rest _ _ _ g); [apply view_of_view|]. intros b NR. apply FR.
    left. apply N.nle_gt. intros X. apply NR, (rest_high G pb rb g). lia. }
  pose proof (oeq_view_same G pb rb g _ s' _ o' VM V E) as SM.
  split; [split|].
  - destruct E. apply (same_regs G s s' o' V);
      cbn [with_rest view_of o_regs o_words o_dmar_base o_dmar_mask o_dma_start o_dma_end] in *; auto.
  - intros b NP. rewrite (sm_mem _ _ SM). apply FR. unfold bytes_of in NP. lia.
  - intros T1 T2 j J. rewrite (sm_mem _ _ SM). apply (CP T1 T2 j J).
Qed.
(** In particular a successful copy is only of pages of a debug enclave, into or out of
    a page of a region the OS owns. *)
Theorem C64_only_debug : forall G pb rb s c id ea oa (rd : bool) s',
  geom G pb rb -> clean_locks G s -> record_at G id -> ea < 2 ^ 64 -> oa < 2 ^ 64 ->
  g_monitor_top G <= (if rd then oa else ea) ->
  do_call G c (CCopyDebugPage id ea oa rd) s = (s', Some 0) ->
  word s (id + 24) <> 0 /\ owner_of G s (main_region G pb rb id) = id /\
  enclave_bit s id (region_of pb rb ea) = true /\ owner_of G s (region_of pb rb oa) = 0.
Proof.
  intros G pb rb s c id ea oa rd s' g CL RA HE HO TOP D.
  destruct (C64_enclave_records G pb rb s c id ea oa rd g CL RA HE HO (fun _ => TOP)) as [s1 [D1 _]].
  rewrite D in D1. injection D1 as _ Z. symmetry in Z. unfold copy_debug_code in Z. cbv zeta in Z.
  destruct (_ || _); [discriminate|]. destruct (is_locked _ _ _); [discriminate|].
  destruct (_ || _); [discriminate|].
  destruct (N.eqb_spec (word s (id + 24)) 0); [discriminate|].
  destruct (enclave_bit s id (region_of pb rb ea)); [|discriminate].
  destruct (N.eqb_spec (owner_of G s (region_of pb rb oa)) 0); [|discriminate].
  destruct (N.eqb_spec (owner_of G s (main_region G pb rb id)) id); [|discriminate]. auto.
Qed.
(** The region of the monitor counts as the OS's, so the OS can have a page of a
    debug enclave copied over the monitor's tables, and the monitor's tables copied
    into the enclave. *)
Definition ex_debug : state := put (put ex_running (ex_encl + 24) 1) (page_addr 6 4 3 0 + g_dram_region ex_G + 40 * 9 + 8) 77.
Theorem C64_monitor_overwritten_refuted : exists G pb rb s s1 s2 id ea,
  geom G pb rb /\ clean_locks G s /\ record_at G id /\
  owner_of G s 9 = 0 /\
  do_call G 0 (CCopyDebugPage id ea 0 true) s = (s1, Some 0) /\ owner_of G s1 9 = 77 /\
  do_call G 0 (CCopyDebugPage id ea 0 false) s = (s2, Some 0) /\
  word s2 (ea + g_dram_region G + 40 * 5 + 8) = owner_of G s 5 /\ owner_of G s 5 <> 0.
Proof.
  exists ex_G, 6, 4, ex_debug, (fst (do_call ex_G 0 (CCopyDebugPage ex_encl (page_addr 6 4 3 0) 0 true) ex_debug)),
    (fst (do_call ex_G 0 (CCopyDebugPage ex_encl (page_addr 6 4 3 0) 0 false) ex_debug)),
    ex_encl, (page_addr 6 4 3 0).
  split; [apply (started_geom _ _ _ _ _ _ ex_started)|].
  split; [apply clean_iff; vm_compute; reflexivity|].
  split; [split; vm_compute; discriminate|].
  split; [vm_compute; reflexivity|].
  split; [apply call_val; vm_compute; reflexivity|].
  split; [vm_compute; reflexivity|].
  split; [apply call_val; vm_compute; reflexivity|].
  split; [vm_compute; reflexivity|vm_compute; discriminate].
Qed.
Example C64_example : let s := ex_debug in let ea := page_addr 6 4 3 1 in
  clean_locks ex_G s /\ record_at ex_G ex_encl /\
  copy_debug_code ex_G 6 4 s ex_encl ea (page_addr 6 4 8 0) = 0 /\
  g_monitor_top ex_G <= page_addr 6 4 8 0 /\
  copy_debug_code ex_G 6 4 ex_running ex_encl ea (page_addr 6 4 8 0) = 2 /\
  copy_debug_code ex_G 6 4 s ex_encl ea (page_addr 6 4 3 0) = 1 /\
  copy_debug_code ex_G 6 4 s ex_encl ea (page_addr 6 4 5 0) = 3 /\
  copy_debug_code ex_G 6 4 s ex_encl (page_addr 6 4 4 0) (page_addr 6 4 8 0) = 1.
Proof.
  split; [apply clean_iff; vm_compute; reflexivity|].
  split; [split; vm_compute; discriminate|].
  split; [vm_compute; reflexivity|]. split; [vm_compute; discriminate|].
  do 3 (split; [vm_compute; reflexivity|]). vm_compute; reflexivity.
Qed.

(** ** C65 *)
(** Both thread calls give the same answer, for all arguments; they never succeed, and
    all they ever change is the lock word of the record of an enclave, which they leave
    at 1 if it was not 0. *)
Theorem C65_thread_calls : forall G pb rb s c id t pc1 sp1 pc2 sp2 k,
  geom G pb rb -> clean_locks G s -> owner_of G s 0 <> 2 -> id < 2 ^ 64 ->
  k = CAssignThread id t \/ k = CLoadThread id t pc1 sp1 pc2 sp2 ->
  exists s', do_call G c k s = (s', Some (thread_code G pb rb s id t)) /\
    same_machine (thread_state G pb rb s id) s'.
Proof.
  intros G pb rb s c id t pc1 sp1 pc2 sp2 k g CL R02 H K.
  assert (W : wp G c (call_prog G k) (view_of G s)
    (fun v o' => v = thread_code G pb rb s id t /\ kept G pb rb s id o')).
  { destruct K as [-> | ->]; cbn [call_prog].
    - apply (assign_thread_any G pb rb g); auto.
    - apply (load_thread_any G pb rb g); auto. }
  destruct (W s (view_of_view G s)) as [s' [v [o' [R [V [-> KP]]]]]].
  exists s'. split; [exact R|]. unfold kept in KP.
  assert (VM : view G (thread_state G pb rb s id)
    (with_rest (view_of G s) (s_mem (thread_state G pb rb s id)))).
  { unfold thread_state in *.
    destruct (_ && _ && _) eqn:C.
    - apply (v_set_rest _ _ _ g); [apply view_of_view|]. intros b NR.
      apply byte_st_out. left. apply N.nle_gt. intros X. apply NR, (rest_high G pb rb g).
      assert (M0 : meta_code G pb rb s id = 0) by lia. unfold meta_code in M0.
      destruct (in_dram_page G id) eqn:IP; [|discriminate]. cbn [negb] in M0.
      destruct (is_locked _ _ _); [discriminate|].
      destruct (N.eqb_spec (owner_of G s (region_of pb rb id)) 2) as [OW|]; [|discriminate].
      pose proof (page_facts G pb rb g s R02 id H IP OW). lia.
    - replace (with_rest (view_of G s) (s_mem s)) with (view_of G s) by reflexivity.
      apply view_of_view. }
  exact (oeq_view_same G pb rb g _ s' _ o' VM V KP).
Qed.
(** An enclave's lock word, like those of the regions, is 0 or 1, and then nothing changes. *)
Theorem C65_no_change : forall G pb rb s c id t pc1 sp1 pc2 sp2 k,
  geom G pb rb -> clean_locks G s -> owner_of G s 0 <> 2 -> id < 2 ^ 64 -> word s id <= 1 ->
  k = CAssignThread id t \/ k = CLoadThread id t pc1 sp1 pc2 sp2 ->
  same_machine s (fst (do_call G c k s)).
Proof.
  intros G pb rb s c id t pc1 sp1 pc2 sp2 k g CL R02 H W1 K.
  destruct (C65_thread_calls G pb rb s c id t pc1 sp1 pc2 sp2 k g CL R02 H K) as [s' [D SM]].
  rewrite D. cbn [fst]. unfold thread_state in SM.
  destruct (N.eqb_spec (word s id) 0); [rewrite andb_false_r in SM; exact SM|].
  destruct (_ && _ && _); [|exact SM]. destruct SM as [SM1 SM2 SM3 SM4 SM5 SM6 SM7].
  constructor; auto. intros b. rewrite SM1. cbn [put set_mem s_mem].
  change (byte (st 8 (s_mem s) id 1) b = byte (s_mem s) b).
  destruct (N.lt_ge_cases b id); [apply byte_st_out; auto|].
  destruct (N.lt_ge_cases b (id + 8)); [|apply byte_st_out; auto].
  replace b with (id + (b - id)) by lia.
  apply (ld_byte_inj 8); [|change (N.of_nat 8) with 8; lia].
  rewrite ld8_st8 by reflexivity. unfold word in *. lia.
Qed.
Theorem C65_no_threads_refuted : forall G pb rb s id t, thread_code G pb rb s id t <> 0.
Proof.
  intros G pb rb s id t. unfold thread_code.
  destruct (N.eqb_spec (enclave_code G pb rb s id) 0) as [E|E]; cbn [negb]; [|exact E].
  destruct (N.eqb_spec (meta_code G pb rb s t) 0) as [M|M]; cbn [negb]; [discriminate|exact M].
Qed.
(** Region 7 holds metadata, with an enclave on page 2 and a free page 3. *)
Definition ex_meta : state :=
  put (put ex_s0 (lock_addr ex_G 7 + 8) 2) (map_entry 6 4 (page_addr 6 4 7 2))
    (enclave_entry (page_addr 6 4 7 2)).
Example C65_example : let s := ex_meta in let id := page_addr 6 4 7 2 in
  clean_locks ex_G s /\ owner_of ex_G s 0 <> 2 /\ first_stripe 6 4 id /\ word s id <= 1 /\
  enclave_code ex_G 6 4 s id = 0 /\ meta_code ex_G 6 4 s (page_addr 6 4 7 3) = 0 /\
  thread_code ex_G 6 4 s id (page_addr 6 4 7 3) = 2 /\
  thread_code ex_G 6 4 s id (page_addr 6 4 6 3) = 2 /\
  thread_code ex_G 6 4 s (page_addr 6 4 7 3) (page_addr 6 4 7 3) = 1 /\
  thread_code ex_G 6 4 (put s id 1) id (page_addr 6 4 7 3) = 3 /\
  thread_code ex_G 6 4 (put s (lock_addr ex_G 7) 1) id (page_addr 6 4 7 3) = 3.
Proof.
  split; [apply clean_iff; vm_compute; reflexivity|].
  split; [vm_compute; discriminate|]. split; [vm_compute; reflexivity|].
  split; [vm_compute; discriminate|].
  do 6 (split; [vm_compute; reflexivity|]). vm_compute; reflexivity.
Qed.

Definition P_Contract3_theorems := (C64_enclave_records, C64_only_debug,
  C64_monitor_overwritten_refuted, C64_example, C65_thread_calls, C65_no_change, C65_no_threads_refuted,
  C65_example).
Print Assumptions P_Contract3_theorems.
