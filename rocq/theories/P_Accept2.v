(** * C78: accept_thread on every machine state, every argument and every overlap. *)
From Coq Require Import NArith ZArith Lia Bool List.
From Coq Require Import ZifyBool ZifyNat ZifyN.
From Verif Require Import Word Machine ModelBare ModelHash ModelInl ModelRegions
  ModelMetadata ModelEnclave ModelBoot ModelApi Lib BareProofs SpecGeometry
  GeomProofs SpecMonitor SpecHistory SpecMetadata ViewProofs SeqProofs SeqCalls SeqCalls2 SeqCalls4 HistoryProofs
  SpecContract SpecContract3 P_Regions P_Metadata P_Enclave P_Contract P_Positive P_Accept SpecContract5 SpecContract6 ContractProofs4 ContractProofs7 P_Inside P_Contract6.
Import ListNotations.
Open Scope N_scope.
Ltac Zify.zify_post_hook ::= Z.div_mod_to_equations.


Theorem C78_exact : forall G pb rb s c t a,
  geom G pb rb -> c < g_core_count G -> t < 2 ^ 64 ->
  exists s', do_call G c (CAcceptThread t a) s = (s', Some (accept_code G pb rb s c t a)) /\
    same_registers s s' /\ s_mem s' = s_mem (accept_state G pb rb s c t a).
Proof.
  intros G pb rb s c t a g C T64.
  pose proof (geo_pb _ _ _ g) as PB. pose proof (geo_rb _ _ _ g) as RB.
  pose proof (layout _ _ _ g) as (L1 & L2 & L3 & L4 & L5 & L6 & L7 & L8).
  change (2 ^ 31) with 2147483648 in L7. change (2 ^ 30) with 1073741824 in L8.
  pose proof (geo_count _ _ _ g) as GC.
  unfold do_call. cbn [call_prog]. unfold accept_thread, is_dram_address.
  unfold accept_state, accept_code, accept_record, accept_both, accept_taken, in_dram_page.
  assert (PA : is_page_aligned a = (a mod 4096 =? 0)).
  { pose proof (page_aligned_iff a) as P. destruct (is_page_aligned a), (N.eqb_spec (a mod 4096) 0); intuition congruence. }
  rewrite PA. destruct (N.ltb_spec a (g_dram_size G)) as [AD|_]; [|cbn; eexists; split; [reflexivity|]; split;
    [repeat split|reflexivity]].
  destruct (a mod 4096 =? 0) eqn:PA'; [|cbn; eexists; split; [reflexivity|]; split; [repeat split|reflexivity]].
  cbn [negb orb andb].
  assert (CE : run c (current_enclave G) s = (s, Some (enclave_of G s c))).
  { unfold current_enclave, current_core_info. cbn -[ld st wadd wmul core_addr].
    replace (wadd (core_addr G c) ci_enclave_id) with (g_core G + 32 * c); [reflexivity|].
    unfold core_addr. change core_info_size with 32. change ci_enclave_id with 0.
    rewrite (wmul_small 32 c) by (unfold W64; lia).
    rewrite (wadd_small (g_core G)) by (unfold W64; lia).
    rewrite wadd_small by (unfold W64; lia). lia. }
  rewrite run_bind, CE. cbv iota beta zeta. 
  assert (LA : forall r, r < g_dram_region_count G -> wadd (region_addr G r) dri_lock = lock_addr G r).
  { intros r R. unfold region_addr, lock_addr. change dram_region_info_size with 40. change dri_lock with 0.
    rewrite (wmul_small 40 r) by (unfold W64; lia).
    rewrite (wadd_small (g_dram_region G)) by (unfold W64; lia).
    rewrite wadd_small by (unfold W64; lia). lia. }
  assert (OA : forall r, r < g_dram_region_count G -> wadd (region_addr G r) dri_owner = lock_addr G r + 8).
  { intros r R. unfold region_addr, lock_addr. change dram_region_info_size with 40. change dri_owner with 8.
    rewrite (wmul_small 40 r) by (unfold W64; lia).
    rewrite (wadd_small (g_dram_region G)) by (unfold W64; lia).
    rewrite wadd_small by (unfold W64; lia). lia. }
  assert (W : wadd (region_addr G a) dri_lock = accept_word G a).
  { unfold accept_word, region_addr, wadd, wmul. change dram_region_info_size with 40.
    change dri_lock with 0. rewrite N.add_0_r. change (2 ^ 64) with W64.
    rewrite N.mod_mod by discriminate. apply N.add_mod_idemp_r. discriminate. }
  assert (RL : forall x, region_of pb rb x < g_dram_region_count G)
    by (intros x; rewrite GC; apply region_of_lt).
  rewrite !(region_for_spec G pb rb g).
  unfold test_and_set_dram_region_lock, clear_dram_region_lock, read_dram_region_owner.
  rewrite W, !LA, !OA by apply RL.
  unfold own_region, owner_of, lock_of. fold (lock_addr G (region_of pb rb a)).
  fold (lock_addr G (region_of pb rb (enclave_of G s c))).
  set (e := enclave_of G s c) in *.
  set (w := accept_word G a) in *. set (la := lock_addr G (region_of pb rb a)) in *.
  set (le := lock_addr G (region_of pb rb e)) in *. clearbody w la le.
  rewrite run_bind, run_tas. cbv iota beta.
  destruct (N.eqb_spec (word s w) 0) as [Z|Z]; cbn [negb]; cycle 1.
  { eexists. split; [reflexivity|]. split; [repeat split|reflexivity]. }
  set (s1 := put s w 1).
  assert (S1 : same_registers s s1) by (repeat split).
  rewrite run_bind, run_load. cbv iota beta. fold (word s1 (la + 8)).
  destruct (N.eqb_spec (word s1 (la + 8)) e) as [O|O]; cbn [negb]; cycle 1.
  { rewrite run_bind, run_clr. cbv iota beta.
    eexists. split; [reflexivity|]. split; [exact S1|reflexivity]. }
  rewrite run_bind, run_tas. cbv iota beta. fold (word s1 le).
  set (s2 := put s1 le 1).
  assert (S2 : same_registers s s2) by exact S1.
  destruct (N.eqb_spec (word s1 le) 0) as [Y|Y]; cbn [negb]; cycle 1.
  { rewrite run_bind, run_clr. cbv iota beta.
    eexists. split; [reflexivity|]. split; [exact S2|reflexivity]. }
  assert (AM : exists z, run c (accept_metadata_pages G t thread_metadata_pages e thread_metadata_page_type) s2
    = (z, Some (if word s2 (entry_at pb rb t) =? 0 then 0 else 2)) /\ same_registers s z /\
    s_mem z = if word s2 (entry_at pb rb t) =? 0 then s_mem (put s2 (entry_at pb rb t) (N.lor e 3))
      else s_mem s2).
  { clearbody s2. 
    unfold accept_metadata_pages, assign_metadata_pages.
    change thread_metadata_pages with 1. change thread_metadata_page_type with 3.
    rewrite (stripe_page_for_spec G pb rb g), (geo_pages _ _ _ g).
    assert (PL : (t / 4096) mod 2 ^ pb < 2 ^ pb) by (apply N.mod_lt, pow2_nz).
    pose proof (N.pow_le_mono_r 2 pb 30 ltac:(lia) ltac:(lia)) as P30. change (2 ^ 30) with 1073741824 in P30.
    set (sp := (t / 4096) mod 2 ^ pb) in *. set (pp := 2 ^ pb) in *.
    rewrite wadd_small by (unfold W64; clear -PL P30; lia). unfold sp, pp in *.
    destruct (N.ltb_spec (2 ^ pb) ((t / 4096) mod 2 ^ pb + 1)) as [?|_]; [lia|].
    assert (ME : exists y, run c (metadata_page_info_for G t) s2 = (y, Some (entry_at pb rb t)) /\ same_registers s y /\ s_mem y = s_mem s2).
    { rewrite <- (map_at G pb rb g t T64). unfold metadata_page_info_for, dram_region_page_for, ub_if.
      destruct (64 <=? page_for_shift G); eexists; (split; [reflexivity|]); (split; [exact S2|reflexivity]). }
    destruct ME as (y & ME & Sy & My). rewrite run_bind, ME. cbv iota beta. clear ME.
    assert (M0 : forall q, q < W64 -> wadd q (wmul 8 0) = q).
    { intros q Q. change (wmul 8 0) with 0. rewrite wadd_small by lia. lia. }
    assert (MW : entry_at pb rb t < W64).
    { rewrite <- (map_at G pb rb g t T64). unfold metadata_page_info_for_val, wadd. apply N.mod_lt. discriminate. }
    change (N.to_nat 1) with 1%nat. change (N.to_nat (1 - 1)) with 0%nat. cbn [for_exit for_n].
    rewrite M0 by exact MW. unfold load64, store64, word. cbn -[ld st].
    rewrite My. destruct (N.eqb_spec (ld 8 (s_mem s2) (entry_at pb rb t)) 0); cbn -[ld st];
      eexists; (split; [reflexivity|]); (split; [exact Sy|]); cbn [s_mem set_mem]; rewrite ?My; reflexivity. }
  destruct AM as (z & AM & Sz & Mz). rewrite run_bind, AM. clear AM.
  set (me := entry_at pb rb t) in *.
  destruct (N.eqb_spec (word s2 me) 0) as [M|M]; cycle 1.
  { cbv iota beta. cbn [negb N.eqb Pos.eqb monitor_ok]. rewrite run_bind, run_clr. cbv iota beta. rewrite run_bind, run_clr. cbv iota beta.
    eexists. split; [reflexivity|]. split; [exact Sz|].
    cbn [s_mem set_mem put]. rewrite Mz. reflexivity. }
  cbv iota beta. change (negb (0 =? monitor_ok)) with false. change (negb true) with false. cbv iota. change (negb (0 =? 0)) with false. cbv iota.
  pose proof (geo_D _ _ _ g) as GD.
  apply N.eqb_eq in PA'.
  assert (AA : forall k, k < 64 -> wadd a k = a + k).
  { intros k K. apply wadd_small. unfold W64 in *. clear -K PA' AD GD. lia. }
  rewrite run_bind, run_clr1. cbv iota beta.
  do 5 (rewrite run_bind, run_load; cbv iota beta).
  do 5 (rewrite run_bind, run_store; cbv iota beta).
  do 2 (rewrite run_bind, run_clr; cbv iota beta).
  change ti_lock with 0. change ti_entry_pc with 8. change ti_entry_stack with 16. change ti_fault_pc with 24.
  change ti_fault_stack with 32. change ti_eptbr with 40. change tii_entry_pc with 0. change tii_entry_stack with 8.
  change tii_fault_pc with 16. change tii_fault_stack with 24. change tii_eptbr with 32.
  rewrite !AA by reflexivity. rewrite !(N.add_0_r a).
  eexists. split; [reflexivity|]. split; [exact Sz|].
  unfold word. cbn [s_mem set_mem put]. rewrite Mz. reflexivity.
Qed.

(** The record in the argument block itself: clearing the record's lock erases the first word
    of the block before it is read. *)
Example C78_overlap_example : let a := 20480 in let s := put (put ex_s0 a 5) (a + 8) 6 in
  accept_code ex_G 6 4 s 0 a a = 0 /\
  word (accept_state ex_G 6 4 s 0 a a) a = 0 /\
  word (accept_state ex_G 6 4 s 0 a a) (a + 8) = 0 /\
  word (accept_state ex_G 6 4 s 0 a a) (a + 16) = 6 /\
  snd (do_call ex_G 0 (CAcceptThread a a) s) = Some 0 /\
  word (fst (do_call ex_G 0 (CAcceptThread a a) s)) (a + 16) = 6 /\
  (* a record at the end of the address space wraps around *)
  accept_code ex_G 6 4 s 0 (2 ^ 64 - 16) a = 0 /\
  word (accept_state ex_G 6 4 s 0 (2 ^ 64 - 16) a) 0 = 6.
Proof. cbv zeta. do 7 (split; [vm_compute; reflexivity|]). vm_compute. reflexivity. Qed.

Definition P_Accept2_theorems := (C78_exact, C78_overlap_example).
Print Assumptions P_Accept2_theorems.
