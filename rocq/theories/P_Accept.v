(** * Property C78: what accept_thread does, on every machine state. *)
From Coq Require Import NArith ZArith Lia Bool List.
From Coq Require Import ZifyBool ZifyNat ZifyN.
From Verif Require Import Word Machine ModelBare ModelHash ModelInl ModelRegions
  ModelMetadata ModelEnclave ModelBoot ModelApi Lib BareProofs SpecGeometry
  GeomProofs SpecMonitor SpecHistory SpecMetadata ViewProofs SeqProofs SeqCalls SeqCalls2 SeqCalls4 HistoryProofs
  SpecContract SpecContract3 P_Regions P_Metadata P_Enclave P_Contract P_Positive.
Import ListNotations.
Open Scope N_scope.
Ltac Zify.zify_post_hook ::= Z.div_mod_to_equations.

(** Memories that agree but for a word. *)
Definition off (q : N) (m m' : mem) : Prop := forall b, ~ bytes_of q 8 b -> byte m b = byte m' b.
Lemma off_st q m m' a v : off q m m' -> off q (st 8 m a v) (st 8 m' a v).
Proof.
  intros H b B. destruct (N.lt_ge_cases b a).
  { rewrite !byte_st_out by auto. auto. }
  destruct (N.lt_ge_cases b (a + 8)).
  - rewrite !byte_st_in by (auto; change (N.of_nat 8) with 8; lia). reflexivity.
  - rewrite !byte_st_out by (change (N.of_nat 8) with 8; lia). auto.
Qed.
Lemma off_q q m m' v : off q m m' -> off q (st 8 m q v) m'.
Proof.
  intros H b B. rewrite byte_st_out; [auto|]. unfold bytes_of in B. change (N.of_nat 8) with 8. lia.
Qed.
Lemma off_all q m m' : off q m m' -> ld 8 m q = ld 8 m' q -> forall b, m b mod 256 = m' b mod 256.
Proof.
  intros H E b. change (byte m b = byte m' b). destruct (N.lt_ge_cases b q).
  { apply H. unfold bytes_of. lia. }
  destruct (N.lt_ge_cases b (q + 8)).
  - replace b with (q + (b - q)) by lia. apply (ld_byte_inj 8 m m' q E). change (N.of_nat 8) with 8. lia.
  - apply H. unfold bytes_of. lia.
Qed.
Lemma off_refl q m : off q m m.
Proof. intros b B. reflexivity. Qed.

Lemma run_tas c s q : run c (v <- op1 (OTas q) ;; Ret (negb (v =? 0))) s = (put s q 1, Some (negb (word s q =? 0))).
Proof. cbn -[ld st]. unfold word. destruct (ld 8 (s_mem s) q =? 0); reflexivity. Qed.
Lemma run_clr c s q : run c (op1 (OClr q) ;; Ret tt) s = (put s q 0, Some tt).
Proof. reflexivity. Qed.
Lemma run_clr1 c s q : run c (op1 (OClr q)) s = (put s q 0, Some 0).
Proof. reflexivity. Qed.
Lemma run_load c s q : run c (load64 q) s = (s, Some (word s q)).
Proof. reflexivity. Qed.
Lemma run_store c s q v : run c (store64 q v) s = (put s q v, Some 0).
Proof. reflexivity. Qed.

Theorem C78_accept_thread : forall G pb rb s c t a,
  geom G pb rb -> c < g_core_count G -> clean_locks G s -> accept_apart G pb rb t a ->
  exists s', do_call G c (CAcceptThread t a) s = (s', Some (accept_thread_code G pb rb s c t a)) /\
    same_registers s s' /\ same_memory (accept_thread_state G pb rb s c t a) s'.
Proof.
  intros G pb rb s c t a g C CL AP.
  pose proof (geo_pb _ _ _ g) as PB. pose proof (geo_rb _ _ _ g) as RB.
  pose proof (layout _ _ _ g) as (L1 & L2 & L3 & L4 & L5 & L6 & L7 & L8).
  change (2 ^ 31) with 2147483648 in L7. change (2 ^ 30) with 1073741824 in L8.
  pose proof (geo_count _ _ _ g) as GC.
  unfold accept_apart in AP. cbv zeta in AP.
  destruct AP as (Tw & Tt & Te & Ta & F & A1 & A2 & A3 & A4 & A5 & A6). unfold apart in *.
  assert (T : t < 2 ^ 60).
  { unfold first_stripe in F. pose proof (N.pow_le_mono_r 2 (12 + pb + rb) 60 ltac:(lia) ltac:(lia)). lia. }
  change (2 ^ 60) with 1152921504606846976 in T.
  unfold do_call. cbn [call_prog]. unfold accept_thread, is_dram_address.
  unfold accept_thread_state, accept_thread_code, in_dram_page.
  assert (PA : is_page_aligned a = (a mod 4096 =? 0)).
  { pose proof (page_aligned_iff a) as P. destruct (is_page_aligned a), (N.eqb_spec (a mod 4096) 0); intuition congruence. }
  rewrite PA. destruct (N.ltb_spec a (g_dram_size G)) as [AD|_]; [|cbn; eexists; split; [reflexivity|]; split;
    [repeat split|intros b; reflexivity]].
  destruct (a mod 4096 =? 0); [|cbn; eexists; split; [reflexivity|]; split; [repeat split|intros b; reflexivity]].
  cbn [negb orb andb].
  assert (CE : run c (current_enclave G) s = (s, Some (enclave_of G s c))).
  { unfold current_enclave, current_core_info. cbn -[ld st wadd wmul core_addr].
    replace (wadd (core_addr G c) ci_enclave_id) with (g_core G + 32 * c); [reflexivity|].
    unfold core_addr. change core_info_size with 32. change ci_enclave_id with 0.
    rewrite (wmul_small 32 c) by (unfold W64; lia).
    rewrite (wadd_small (g_core G)) by (unfold W64; lia).
    rewrite wadd_small by (unfold W64; lia). lia. }
  rewrite run_bind, CE. cbv iota beta zeta. set (e := enclave_of G s c) in *.
  assert (LA : forall r, r < g_dram_region_count G -> wadd (region_addr G r) dri_lock = lock_addr G r).
  { intros r R. unfold region_addr, lock_addr. change dram_region_info_size with 40. change dri_lock with 0.
    rewrite (wmul_small 40 r) by (unfold W64; lia).
    rewrite (wadd_small (g_dram_region G)) by (unfold W64; lia).
    rewrite wadd_small by (unfold W64; lia). lia. }
  assert (OA : forall r, r < g_dram_region_count G -> wadd (region_addr G r) dri_owner = lock_addr G r + 8).
  { intros r R. unfold region_addr, lock_addr. change dram_region_info_size with 40. change dri_owner with 8.
    rewrite (wmul_small 40 r) by (unfold W64; lia).
    rewrite (wadd_small (g_dram_region G)) by (unfold W64; lia).
    rewrite wadd_small by (unfold W64; lia). lia. }
  assert (W : wadd (region_addr G a) dri_lock = accept_word G a).
  { unfold accept_word, region_addr, wadd, wmul. change dram_region_info_size with 40.
    change dri_lock with 0. rewrite N.add_0_r. change (2 ^ 64) with W64.
    rewrite N.mod_mod by discriminate. apply N.add_mod_idemp_r. discriminate. }
  assert (RL : forall x, region_of pb rb x < g_dram_region_count G)
    by (intros x; rewrite GC; apply region_of_lt).
  assert (LO : forall x, lock_addr G (region_of pb rb x) + 16 <= g_monitor_top G)
    by (intros x; pose proof (RL x); unfold lock_addr; lia).
  rewrite !(region_for_spec G pb rb g).
  unfold test_and_set_dram_region_lock, clear_dram_region_lock, read_dram_region_owner.
  rewrite W, !LA, !OA by apply RL.
  assert (W8 : accept_word G a < 2 ^ 64) by (apply N.mod_lt; discriminate).
  set (w := accept_word G a) in *. set (la := lock_addr G (region_of pb rb a)) in *.
  pose proof (LO a) as LOa. fold la in LOa.
  pose proof (LO e) as LOe. pose proof (CL (region_of pb rb e) (RL e)) as CLe.
  unfold own_region, is_locked. change (enclave_of G s c) with e.
  change (lock_of G s (region_of pb rb e)) with (ld 8 (s_mem s) (lock_addr G (region_of pb rb e))) in *.
  set (le := lock_addr G (region_of pb rb e)) in *.
  change (owner_of G s (region_of pb rb a)) with (ld 8 (s_mem s) (la + 8)).
  unfold word.
  rewrite run_bind, run_tas. cbv iota beta. unfold word.
  destruct (N.eqb_spec (ld 8 (s_mem s) w) 0) as [Z|Z]; cbn [negb]; cycle 1.
  { eexists. split; [reflexivity|]. split; [repeat split|intros b; reflexivity]. }
  rewrite run_bind, run_load. cbv iota beta. unfold word. cbn [s_mem put set_mem].
  rewrite (ld_st_other 8 8 (s_mem s) w) by (change (N.of_nat 8) with 8; lia).
  destruct (N.eqb_spec (ld 8 (s_mem s) (la + 8)) e) as [O|O]; cbn [negb]; cycle 1.
  { rewrite run_bind, run_clr. cbv iota beta.
    eexists. split; [reflexivity|]. split; [repeat split|intros b; reflexivity]. }
  rewrite run_bind, run_tas. cbv iota beta. unfold word. cbn [s_mem put set_mem].
  rewrite (ld_st_other 8 8 (s_mem s) w) by (change (N.of_nat 8) with 8; lia).
  destruct (N.eqb_spec (ld 8 (s_mem s) le) 0) as [Y|Y]; cbn [negb]; cycle 1.
  { rewrite run_bind, run_clr. cbv iota beta. destruct CLe as [?|CLe]; [contradiction|]. rewrite CLe. cbn [N.eqb Pos.eqb negb].
    eexists. split; [reflexivity|]. split; [repeat split|].
    intros b. cbn [s_mem set_mem put]. apply (off_all le).
    - apply off_st, off_q, off_refl.
    - destruct (N.eq_dec le la) as [E|E].
      + rewrite E, !ld8_st8 by reflexivity. reflexivity.
      + assert (le + 8 <= la \/ la + 8 <= le) by (subst le la; unfold lock_addr in *; lia).
        rewrite !(ld_st_other 8 8 _ la) by (change (N.of_nat 8) with 8; lia).
        rewrite ld8_st8 by reflexivity. rewrite ld_st_other by (change (N.of_nat 8) with 8; lia). auto. }
  rewrite Y. change (0 =? 1) with false. cbv iota.
  assert (AM : exists z, run c (accept_metadata_pages G t thread_metadata_pages e thread_metadata_page_type) (put (put s w 1) le 1)
    = (z, Some (if ld 8 (s_mem s) (map_entry pb rb t) =? 0 then 0 else 2)) /\ same_registers s z /\
    s_mem z = if ld 8 (s_mem s) (map_entry pb rb t) =? 0 then s_mem (put (put (put s w 1) le 1) (map_entry pb rb t) (N.lor e 3))
      else s_mem (put (put s w 1) le 1)).
  { assert (E0 : ld 8 (s_mem (put (put s w 1) le 1)) (map_entry pb rb t) = ld 8 (s_mem s) (map_entry pb rb t)).
    { unfold put. cbn [s_mem set_mem].
      rewrite !ld_st_other by (change (N.of_nat 8) with 8; lia). reflexivity. }
    assert (S0 : same_registers s (put (put s w 1) le 1)) by (repeat split).
    revert E0 S0. generalize (put (put s w 1) le 1). intros x E0 S0.
    unfold accept_metadata_pages, assign_metadata_pages.
    change thread_metadata_pages with 1. change thread_metadata_page_type with 3.
    rewrite (stripe_page_for_spec G pb rb g), (geo_pages _ _ _ g).
    assert (PL : (t / 4096) mod 2 ^ pb < 2 ^ pb) by (apply N.mod_lt, pow2_nz).
    pose proof (N.pow_le_mono_r 2 pb 30 ltac:(lia) ltac:(lia)) as P30. change (2 ^ 30) with 1073741824 in P30.
    set (sp := (t / 4096) mod 2 ^ pb) in *. set (pp := 2 ^ pb) in *.
    rewrite wadd_small by (unfold W64; clear -PL P30; lia). unfold sp, pp in *.
    destruct (N.ltb_spec (2 ^ pb) ((t / 4096) mod 2 ^ pb + 1)) as [?|_]; [lia|].
    assert (ME : exists y, run c (metadata_page_info_for G t) x = (y, Some (map_entry pb rb t)) /\ same_registers s y /\ s_mem y = s_mem x).
    { rewrite <- (first_stripe_entry G pb rb t g F). unfold metadata_page_info_for, dram_region_page_for, ub_if.
      destruct (64 <=? page_for_shift G); eexists; (split; [reflexivity|]); (split; [exact S0|reflexivity]). }
    destruct ME as (y & ME & Sy & My). rewrite run_bind, ME. cbv iota beta. clear ME.
    assert (M0 : forall q, q < W64 -> wadd q (wmul 8 0) = q).
    { intros q Q. change (wmul 8 0) with 0. rewrite wadd_small by lia. lia. }
    assert (MW : map_entry pb rb t < W64).
    { rewrite <- (first_stripe_entry G pb rb t g F). unfold metadata_page_info_for_val, wadd. apply N.mod_lt. discriminate. }
    change (N.to_nat 1) with 1%nat. change (N.to_nat (1 - 1)) with 0%nat. cbn [for_exit for_n].
    rewrite M0 by exact MW. unfold load64, store64. cbn -[ld st].
    rewrite My, E0. destruct (N.eqb_spec (ld 8 (s_mem s) (map_entry pb rb t)) 0); cbn -[ld st];
      eexists; (split; [reflexivity|]); (split; [exact Sy|]); cbn [s_mem set_mem]; rewrite ?My; reflexivity. }
  destruct AM as (z & AM & Sz & Mz). rewrite run_bind, AM. clear AM.
  set (me := map_entry pb rb t) in *.
  destruct (N.eqb_spec (ld 8 (s_mem s) me) 0) as [M|M]; cycle 1.
  { cbv iota beta. cbn [negb N.eqb Pos.eqb monitor_ok]. rewrite run_bind, run_clr. cbv iota beta. rewrite run_bind, run_clr. cbv iota beta.
    eexists. split; [reflexivity|]. split; [exact Sz|].
    intros b. cbn [s_mem set_mem put]. rewrite Mz. cbn [s_mem set_mem put]. apply (off_all le).
    - apply off_st, off_q, off_q, off_refl.
    - destruct (N.eq_dec le la) as [E|E].
      + rewrite E, !ld8_st8 by reflexivity. reflexivity.
      + assert (le + 8 <= la \/ la + 8 <= le) by (subst le la; unfold lock_addr in *; lia).
        rewrite !(ld_st_other 8 8 _ la) by (change (N.of_nat 8) with 8; lia).
        rewrite ld8_st8 by reflexivity. rewrite ld_st_other by (change (N.of_nat 8) with 8; lia). auto. }
  cbv iota beta. change (negb (0 =? monitor_ok)) with false. change (negb true) with false. cbv iota. change (negb (0 =? 0)) with false. cbv iota.
  assert (AT : forall k, k < 64 -> wadd t k = t + k) by (intros k K; apply wadd_small; unfold W64; lia).
  pose proof (geo_D _ _ _ g) as GD.
  apply page_aligned_iff in PA.
  assert (AA : forall k, k < 64 -> wadd a k = a + k).
  { intros k K. apply wadd_small. unfold W64 in *. clear -K PA AD GD. lia. }
  rewrite run_bind, run_clr1. cbv iota beta.
  do 5 (rewrite run_bind, run_load; cbv iota beta).
  do 5 (rewrite run_bind, run_store; cbv iota beta).
  do 2 (rewrite run_bind, run_clr; cbv iota beta).
  change ti_lock with 0. change ti_entry_pc with 8. change ti_entry_stack with 16. change ti_fault_pc with 24.
  change ti_fault_stack with 32. change ti_eptbr with 40. change tii_entry_pc with 0. change tii_entry_stack with 8.
  change tii_fault_pc with 16. change tii_fault_stack with 24. change tii_eptbr with 32.
  rewrite !AT, !AA by reflexivity. rewrite !N.add_0_r.
  eexists. split; [reflexivity|]. split; [exact Sz|].
  assert (LD : forall k, k + 8 <= 40 -> word (put z t 0) (a + k) = word s (a + k)).
  { intros k K. unfold word, put. cbn [s_mem set_mem]. rewrite Mz. cbn [s_mem set_mem put].
    rewrite !ld_st_other by (change (N.of_nat 8) with 8; lia). reflexivity. }
  rewrite !LD by lia. pose proof (LD 0 ltac:(lia)) as LD0. rewrite N.add_0_r in LD0. rewrite LD0. clear LD LD0.
  intros b. unfold put_thread. cbn [s_mem set_mem put]. rewrite Mz. cbn [s_mem set_mem put]. apply (off_all le).
  - apply off_st, off_q. do 7 apply off_st. apply off_q, off_refl.
  - destruct (N.eq_dec le la) as [E|E].
    + rewrite E, !ld8_st8 by reflexivity. reflexivity.
    + assert (le + 8 <= la \/ la + 8 <= le) by (subst le la; unfold lock_addr in *; lia).
      rewrite !(ld_st_other 8 8 _ la) by (change (N.of_nat 8) with 8; lia).
      rewrite ld8_st8 by reflexivity. symmetry.
      assert (X : forall m q v, g_monitor_top G <= q -> ld 8 (st 8 m q v) le = ld 8 m le).
      { intros m q v Q. apply ld_st_other. change (N.of_nat 8) with 8. lia. }
      rewrite !X by (clear -Tw Tt Te Ta; lia). exact Y.
Qed.

(** The words of the thread's record and of the map after a successful call. *)
Theorem C78_accepted : forall G pb rb s c t a s',
  geom G pb rb -> c < g_core_count G -> clean_locks G s -> accept_apart G pb rb t a ->
  do_call G c (CAcceptThread t a) s = (s', Some 0) ->
  word s' (map_entry pb rb t) = N.lor (enclave_of G s c) 3 mod 2 ^ 64 /\ word s' t = 0 /\
  forall k, k <= 4 -> word s' (t + 8 + 8 * k) = word s (a + 8 * k).
Proof.
  intros G pb rb s c t a s' g C CL AP D.
  destruct (C78_accept_thread G pb rb s c t a g C CL AP) as (s1 & D1 & _ & M).
  rewrite D in D1. inversion D1 as [[E1 E2]]. subst s1. clear D1 D.
  pose proof (layout _ _ _ g) as (L1 & L2 & L3 & L4 & L5 & L6 & L7 & L8).
  assert (LO : lock_addr G (region_of pb rb a) + 16 <= g_monitor_top G).
  { pose proof (region_of_lt pb rb a) as RL. rewrite <- (geo_count _ _ _ g) in RL. unfold lock_addr. lia. }
  destruct AP as (Tw & Tt & Te & Ta & F & A1 & A2 & A3 & A4 & A5 & A6). unfold apart in *.
  assert (W : forall q, word s' q = word (accept_thread_state G pb rb s c t a) q).
  { intros q. unfold word. apply ld_byte. intros b _ _. apply M. }
  rewrite !W. assert (W' : forall k, k <= 4 -> word s' (t + 8 + 8 * k) = word (accept_thread_state G pb rb s c t a) (t + 8 + 8 * k))
    by (intros; apply W). clear W M.
  unfold accept_thread_state in *. rewrite <- E2 in W' |- *.
  unfold accept_thread_code in E2.
  destruct (in_dram_page G a); [|discriminate]. cbn [negb] in *.
  destruct (word s (accept_word G a) =? 0); [|discriminate]. cbn [negb] in *. change (0 =? 0) with true in *. cbn [negb] in *.
  unfold put_thread, put, word in *. cbn [s_mem set_mem] in *.
  split; [|split].
  - rewrite !(ld_st_other 8 8) by (change (N.of_nat 8) with 8; lia). apply (ld_st_same 8).
  - rewrite !(ld_st_other 8 8) by (change (N.of_nat 8) with 8; lia). apply ld8_st8. reflexivity.
  - intros k K. rewrite W' by exact K. clear W'.
    rewrite (ld_st_other 8 8) by (change (N.of_nat 8) with 8; lia).
    assert (B : forall q, ld 8 (s_mem s) q < W64) by (intros; apply ld8_bound).
    assert (K' : k = 0 \/ k = 1 \/ k = 2 \/ k = 3 \/ k = 4) by lia.
    destruct K' as [->|[->|[->|[->| ->]]]].
    + replace (t + 8 + 8 * 0) with (t + 8) by lia. rewrite !(ld_st_other 8 8) by (change (N.of_nat 8) with 8; lia).
      rewrite ld8_st8 by auto. f_equal. lia.
    + replace (t + 8 + 8 * 1) with (t + 16) by lia. rewrite !(ld_st_other 8 8) by (change (N.of_nat 8) with 8; lia).
      apply ld8_st8; auto.
    + replace (t + 8 + 8 * 2) with (t + 24) by lia. rewrite !(ld_st_other 8 8) by (change (N.of_nat 8) with 8; lia).
      apply ld8_st8; auto.
    + replace (t + 8 + 8 * 3) with (t + 32) by lia. rewrite !(ld_st_other 8 8) by (change (N.of_nat 8) with 8; lia).
      apply ld8_st8; auto.
    + replace (t + 8 + 8 * 4) with (t + 40) by lia. apply ld8_st8; auto.
Qed.

(** api.h:117-120: the page is one that was assigned to the calling enclave, so that its
    entry in the map is not empty (it names the enclave: metadata_inl.h:102-104,171-174).
    Such a page is never accepted: the parameter [free_info] of assign_metadata_pages is
    not used, and a page that is marked in the map, in any way, is refused. *)
Theorem C78_reserved_refuted : forall G pb rb s c t a s',
  geom G pb rb -> c < g_core_count G -> clean_locks G s -> accept_apart G pb rb t a ->
  word s (map_entry pb rb t) <> 0 ->
  do_call G c (CAcceptThread t a) s <> (s', Some 0).
Proof.
  intros G pb rb s c t a s' g C CL AP N D.
  destruct (C78_accept_thread G pb rb s c t a g C CL AP) as (s1 & D1 & _).
  rewrite D in D1. inversion D1 as [[E1 E2]]. unfold accept_thread_code in E2.
  destruct (in_dram_page G a); [|discriminate].
  destruct (word s (accept_word G a) =? 0); [|discriminate].
  destruct (_ =? enclave_of G s c); [|discriminate]. destruct (is_locked _ _ _); [discriminate|].
  destruct (N.eqb_spec (word s (map_entry pb rb t)) 0); [contradiction|discriminate].
Qed.

(** The start state: the argument block in page 5, whose "lock" is a word of page 200;
    the thread's record in page 131. Then the same call again, when the entry is set. *)
Example C78_example : let a := 20480 in let t := 536576 in
  geom ex_G 6 4 /\ clean_locks ex_G ex_s0 /\ accept_apart ex_G 6 4 t a /\
  accept_word ex_G a = 819264 /\ map_entry 6 4 t = 524312 /\
  accept_thread_code ex_G 6 4 ex_s0 0 t a = 0 /\
  let s := fst (do_call ex_G 0 (CAcceptThread t a) (put ex_s0 (a + 8) 77)) in
  snd (do_call ex_G 0 (CAcceptThread t a) (put ex_s0 (a + 8) 77)) = Some 0 /\
  word s (t + 16) = 77 /\ word s 524312 = 3 /\ word s 819264 = 1 /\
  clean_locks ex_G (put s 819264 0) /\ accept_thread_code ex_G 6 4 s 0 t a = 3 /\
  accept_thread_code ex_G 6 4 (put s 819264 0) 0 t a = 2 /\
  snd (do_call ex_G 0 (CAcceptThread t a) (put s 819264 0)) = Some 2.
Proof.
  cbv zeta.
  assert (CL : forall s, forallb (fun r => lock_of ex_G s (N.of_nat r) =? 0) (seq 0 16) = true -> clean_locks ex_G s).
  { intros s H r R. left. rewrite forallb_forall in H.
    assert (R' : r < 16) by exact R.
    specialize (H (N.to_nat r)). rewrite N2Nat.id in H. apply N.eqb_eq, H, in_seq. lia. }
  split; [apply (started_geom _ _ _ _ _ _ ex_started)|]. split; [apply CL; vm_compute; reflexivity|].
  split.
  { unfold accept_apart, apart, first_stripe. cbv zeta. change (accept_word ex_G 20480) with 819264.
    change (map_entry 6 4 536576) with 524312. change (g_monitor_top ex_G) with 1024. change (2 ^ (12 + 6 + 4)) with 4194304. lia. }
  do 7 (split; [vm_compute; reflexivity|]).
  split; [apply CL; vm_compute; reflexivity|].
  do 2 (split; [vm_compute; reflexivity|]). vm_compute. reflexivity.
Qed.

Definition P_Accept_theorems := (C78_accept_thread, C78_accepted, C78_reserved_refuted, C78_example).
Print Assumptions P_Accept_theorems.
