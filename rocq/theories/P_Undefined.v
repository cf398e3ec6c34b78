(** * C87: which calls execute undefined behaviour, in which states. *)
From Coq Require Import NArith ZArith Lia Bool List.
From Coq Require Import ZifyBool ZifyNat ZifyN.
From Verif Require Import Word Machine ModelBare ModelHash ModelInl ModelRegions
  ModelMetadata ModelEnclave ModelBoot ModelApi Lib BareProofs SpecGeometry
  GeomProofs SpecMonitor SpecHistory SpecMetadata ViewProofs SeqProofs SeqCalls SeqCalls2 SeqCalls4 SeqCalls5 HistoryProofs HistoryFacts
  SpecSystem P_System P_Boot
  SpecContract SpecContract2 SpecContract3 P_Regions P_Metadata P_Enclave P_Contract P_Positive P_Accept SpecContract5 SpecContract6 ContractProofs4 ContractProofs7 P_Inside P_Contract6
  P_Accept2 SpecUndefined.
Import ListNotations.
Open Scope N_scope.
Ltac Zify.zify_post_hook ::= Z.div_mod_to_equations.

(** The log only grows. *)
Lemma ub_step c o s s' v : step c o s = (s', v) -> (length (s_ub s) <= length (s_ub s'))%nat.
Proof. intros H. destruct o; cbn in H; injection H as <- <-; cbn; lia. Qed.
Lemma ub_grows {A} c (p : prog A) : forall s, (length (s_ub s) <= length (s_ub (fst (run c p s))))%nat.
Proof.
  induction p as [a|o f IH|]; intros s; cbn [run fst]; auto.
  destruct (step c o s) as [s' v] eqn:E. apply ub_step in E. specialize (IH v s'). lia.
Qed.
(** Once something has been logged, whatever follows. *)
Lemma ub_more {A B} c (p : prog A) (f : A -> prog B) s y v : run c p s = (y, v) ->
  (length (s_ub s) < length (s_ub y))%nat -> (length (s_ub s) < length (s_ub (fst (run c (bind p f) s))))%nat.
Proof.
  intros R L. rewrite run_bind, R. destruct v as [v|]; [|exact L].
  pose proof (ub_grows c (f v) y). lia.
Qed.
Lemma longer {A} (l l' : list A) : (length l < length l')%nat -> l' <> l.
Proof. intros L ->. lia. Qed.

Section Undefined.
Variables (G : globals) (pb rb : N).
Hypothesis g : geom G pb rb.

Lemma ub_at c a s : exists y v, run c (metadata_page_info_for G a) s = (y, v) /\
  (length (s_ub s) < length (s_ub y))%nat.
Proof.
  destruct (run c (metadata_page_info_for G a) s) as [y v] eqn:E. exists y, v. split; [reflexivity|].
  replace y with (fst (run c (metadata_page_info_for G a) s)) by (rewrite E; reflexivity).
  unfold metadata_page_info_for.
  destruct (run c (dram_region_page_for G a) s) as [y1 v1] eqn:E1.
  eapply ub_more; [exact E1|].
  pose proof (C18_page_index_refuted c G pb rb g s a) as U. rewrite E1 in U. cbn [fst] in U.
  rewrite U. cbn. lia.
Qed.
Lemma lock_at r : r < g_dram_region_count G -> wadd (region_addr G r) dri_lock = lock_addr G r.
Proof.
  intros R. pose proof (layout _ _ _ g) as (L1 & L2 & L3 & L4 & L5 & L6 & L7 & L8).
  change (2 ^ 31) with 2147483648 in L7.
  unfold region_addr, lock_addr. change dram_region_info_size with 40. change dri_lock with 0.
  rewrite (wmul_small 40 r) by (unfold W64; lia).
  rewrite (wadd_small (g_dram_region G)) by (unfold W64; lia).
  rewrite wadd_small by (unfold W64; lia). lia.
Qed.
Lemma owner_at r : r < g_dram_region_count G -> wadd (region_addr G r) dri_owner = lock_addr G r + 8.
Proof.
  intros R. pose proof (layout _ _ _ g) as (L1 & L2 & L3 & L4 & L5 & L6 & L7 & L8).
  change (2 ^ 31) with 2147483648 in L7.
  unfold region_addr, lock_addr. change dram_region_info_size with 40. change dri_owner with 8.
  rewrite (wmul_small 40 r) by (unfold W64; lia).
  rewrite (wadd_small (g_dram_region G)) by (unfold W64; lia).
  rewrite wadd_small by (unfold W64; lia). lia.
Qed.
Lemma meta_run c a s : clean_locks G s -> exists y r,
  run c (lock_metadata_region_for G a) s = (y, Some (meta_code G pb rb s a, r)) /\ s_ub y = s_ub s /\
  (meta_code G pb rb s a = 0 -> y = put s (lock_addr G (region_of pb rb a)) 1 /\ r = region_of pb rb a).
Proof.
  intros CL. unfold lock_metadata_region_for, meta_code, in_dram_page, is_dram_address.
  assert (PA : is_page_aligned a = (a mod 4096 =? 0)).
  { pose proof (page_aligned_iff a) as P. destruct (is_page_aligned a), (N.eqb_spec (a mod 4096) 0); intuition congruence. }
  rewrite PA. destruct (a <? g_dram_size G); cbn [negb orb andb].
  2:{ rewrite orb_true_r. eexists _, _. split; [reflexivity|]. split; [reflexivity|discriminate]. }
  destruct (a mod 4096 =? 0); cbn [negb orb andb].
  2:{ eexists _, _. split; [reflexivity|]. split; [reflexivity|discriminate]. }
  rewrite (region_for_spec G pb rb g).
  assert (RL : region_of pb rb a < g_dram_region_count G) by (rewrite (geo_count _ _ _ g); apply region_of_lt).
  set (r := region_of pb rb a) in *.
  unfold test_and_set_dram_region_lock, clear_dram_region_lock. rewrite (lock_at r RL), (owner_at r RL).
  rewrite run_bind, P_Accept.run_tas. cbv iota beta.
  unfold is_locked. change (lock_of G s r) with (word s (lock_addr G r)).
  assert (CLR : word s (lock_addr G r) = 0 \/ word s (lock_addr G r) = 1) by exact (CL r RL).
  destruct (N.eqb_spec (word s (lock_addr G r)) 0) as [Z|Z]; cbn [negb].
  2:{ destruct CLR as [?|CLR]; [contradiction|]. rewrite CLR. eexists _, _. split; [reflexivity|]. split; [reflexivity|discriminate]. }
  rewrite Z. change (0 =? 1) with false. cbv iota.
  rewrite run_bind, P_Accept.run_load. cbv iota beta.
  assert (OW : word (put s (lock_addr G r) 1) (lock_addr G r + 8) = owner_of G s r).
  { unfold word, put. cbn [s_mem set_mem]. rewrite ld_st_other; [reflexivity|]. change (N.of_nat 8) with 8. lia. }
  rewrite OW. change metadata_enclave_id with 2. destruct (owner_of G s r =? 2); cbn [negb].
  - eexists _, _. split; [reflexivity|]. split; [reflexivity|]. auto.
  - rewrite run_bind, P_Accept.run_clr. cbv iota beta.
    eexists _, _. split; [reflexivity|]. split; [reflexivity|discriminate].
Qed.

(** lock_enclave: past the region's lock the map is consulted. *)
Lemma lock_enclave_ub c id s : clean_locks G s -> exists y v,
  run c (lock_enclave G id) s = (y, Some v) /\
  (meta_code G pb rb s id = 0 -> (length (s_ub s) < length (s_ub y))%nat) /\
  (meta_code G pb rb s id <> 0 -> v <> 0 /\ s_ub y = s_ub s).
Proof.
  intros CL. unfold lock_enclave.
  destruct (is_dram_address G id) eqn:DA, (is_page_aligned id) eqn:PA; cbn [negb orb];
  try (eexists _, _; split; [reflexivity|]; split;
    [intros M; exfalso; revert M; unfold meta_code, in_dram_page;
     pose proof (page_aligned_iff id) as P; unfold is_dram_address in DA; rewrite DA; cbn [andb negb];
     try discriminate; destruct (N.eqb_spec (id mod 4096) 0); try discriminate; intuition congruence
    |split; [discriminate|reflexivity]]).
  destruct (meta_run c id s CL) as (y & r & R & U & Z).
  rewrite run_bind, R. cbv iota beta zeta. change monitor_ok with 0.
  destruct (N.eqb_spec (meta_code G pb rb s id) 0) as [M|M]; cbn [negb].
  2:{ eexists _, _. split; [reflexivity|]. split; [intros; contradiction|]. auto. }
  destruct (Z M) as [-> ->].
  match goal with |- context [run c (bind (metadata_page_info_for G id) ?f) ?s1] =>
    assert (L : (length (s_ub s) < length (s_ub (fst (run c (bind (metadata_page_info_for G id) f) s1))))%nat);
    [destruct (ub_at c id s1) as (y1 & v1 & R1 & L1); exact (ub_more c _ f s1 y1 v1 R1 L1)|]
  end.
  match goal with |- context [run c ?p ?s1] => set (q := p) in *; destruct (run c q s1) as [y [v|]] eqn:E end.
  - exists y, v. split; [reflexivity|]. split; [intros _; exact L|intros; contradiction].
  - exfalso. revert E. unfold q, metadata_page_info_for, dram_region_page_for, ub_if, clear_dram_region_lock.
    clear. destruct (64 <=? page_for_shift G); cbn -[ld st wadd wmul wsub];
    destruct (negb (_ =? _)); cbn -[ld st wadd wmul wsub]; discriminate.
Qed.
End Undefined.

Theorem C87_undefined_iff : forall G pb rb s c k,
  geom G pb rb -> clean_locks G s -> c < g_core_count G -> call_args_ok k ->
  (executes_undefined G c k s <-> undefined_for G pb rb s c k).
Proof.
  intros G pb rb s c k g CL C A. unfold executes_undefined.
  assert (OFF : looks_up_page k = false -> ~ s_ub (fst (do_call G c k s)) <> s_ub s).
  { intros L X. apply X. destruct (do_call G c k s) as [s' r] eqn:D. eapply C69_undefined; eauto. }
  destruct k; cbn [undefined_for]; try (split; [intros X; exfalso; revert X; apply OFF; reflexivity|intros []]);
    clear OFF; unfold do_call; cbn [call_prog call_args_ok] in *.
  - (* create_enclave *)
    destruct A as (A1 & A2 & A3 & A4).
    unfold create_enclave, enclave_range_ok.
    pose proof (range_iff ev_base ev_mask A2 A3) as RI.
    destruct (is_valid_range ev_base ev_mask) eqn:VR; cbn [negb].
    2:{ split; [intros X; exfalso; apply X; reflexivity|]. intros [[X _] _]. apply RI in X. discriminate. }
    assert (PR : pow2_range ev_base ev_mask) by (apply RI; reflexivity).
    rewrite page_size_val. change (2 ^ 64) with W64 in *.
    assert (ME : (wadd ev_mask 1 <? 4096) = negb ((4096 <=? ev_mask + 1) && (ev_mask + 1 <? W64))).
    { destruct (N.eq_dec (ev_mask + 1) W64) as [E|E].
      - unfold wadd. rewrite E. rewrite N.mod_same by discriminate.
        rewrite N.ltb_irrefl, andb_false_r. reflexivity.
      - rewrite wadd_small by lia. lia. }
    rewrite ME. destruct ((4096 <=? ev_mask + 1) && (ev_mask + 1 <? W64)) eqn:MB; cbn [negb].
    2:{ split; [intros X; exfalso; apply X; reflexivity|]. intros [[_ X] _]. lia. }
    assert (GOOD : pow2_range ev_base ev_mask /\ 4096 <= ev_mask + 1 < W64) by (split; [auto|lia]).
    clear ME MB RI VR.
    destruct (meta_run G pb rb g c enclave_id s CL) as (y & r & R & U & Z).
    rewrite run_bind, R. cbv iota beta zeta. change monitor_ok with 0.
    destruct (N.eqb_spec (meta_code G pb rb s enclave_id) 0) as [M|M]; cbn [negb].
    2:{ cbn [run fst]. rewrite U. split; [intros X; exfalso; apply X; reflexivity|]. intros [_ [X _]]. contradiction. }
    destruct (Z M) as [-> ->]. clear R U Z.
    set (q := region_of pb rb enclave_id).
    assert (RL : q < g_dram_region_count G) by (unfold q; rewrite (geo_count _ _ _ g); apply region_of_lt).
    rewrite (owner_at G pb rb g q RL), run_bind, P_Accept.run_load. cbv iota beta.
    assert (OW : word (put s (lock_addr G q) 1) (lock_addr G q + 8) = 2).
    { unfold word, put. cbn [s_mem set_mem]. rewrite ld_st_other by (change (N.of_nat 8) with 8; lia).
      change (ld 8 (s_mem s) (lock_addr G q + 8)) with (owner_of G s q).
      revert M. unfold meta_code. fold q. destruct (in_dram_page G enclave_id); [|discriminate]. cbn [negb].
      destruct (is_locked G s q); [discriminate|]. destruct (N.eqb_spec (owner_of G s q) 2); [auto|discriminate]. }
    rewrite OW. change (negb (2 =? metadata_enclave_id)) with false. cbv iota.
    unfold reserve_metadata_pages, assign_metadata_pages.
    rewrite (pages_any G pb rb g), (stripe_page_for_spec G pb rb g), (geo_pages _ _ _ g).
    fold (page_of pb enclave_id).
    assert (PL : page_of pb enclave_id < 2 ^ pb) by (apply N.mod_lt, pow2_nz).
    pose proof (geo_pb _ _ _ g) as PB.
    pose proof (N.pow_le_mono_r 2 pb 30 ltac:(lia) ltac:(lia)) as P30. change (2 ^ 30) with 1073741824 in P30.
    assert (UL : used_pages (g_dram_region_count G) mailbox_count <= 4503599627370496).
    { unfold used_pages. change (2 ^ 64) with W64. unfold W64. lia. }
    rewrite wadd_small by (unfold W64; clear -PL P30 UL; lia).
    destruct (N.ltb_spec (2 ^ pb) (page_of pb enclave_id + used_pages (g_dram_region_count G) mailbox_count)) as [X|X].
    + cbn [bind]. change (negb (monitor_invalid_value =? 0)) with true. cbv iota.
      unfold clear_dram_region_lock. rewrite run_bind, P_Accept.run_clr. cbv iota beta. cbn [run fst put set_mem s_ub].
      split; [intros Y; exfalso; apply Y; reflexivity|]. intros [_ [_ Y]]. clear -X Y. lia.
    + split; [intros _; auto|]. intros _. apply longer.
      change (s_ub s) with (s_ub (put s (lock_addr G q) 1)).
      match goal with |- context [run c (bind (bind (metadata_page_info_for G enclave_id) ?f1) ?f2) ?s1] =>
        destruct (ub_at G pb rb g c enclave_id s1) as (y1 & v1 & R1 & L1);
        destruct (run c (bind (metadata_page_info_for G enclave_id) f1) s1) as [y2 v2] eqn:R2;
        apply (ub_more c _ f2 s1 y2 v2 R2); pose proof (ub_more c _ f1 s1 y1 v1 R1 L1) as L2;
        rewrite R2 in L2; exact L2 end.
  - (* load_thread *)
    unfold load_thread. destruct (lock_enclave_ub G pb rb g c enclave_id s CL) as (y & v & R & L1 & L2).
    split.
    + intros X. destruct (N.eq_dec (meta_code G pb rb s enclave_id) 0) as [M|M]; [exact M|].
      exfalso. apply X. destruct (L2 M) as [V E]. rewrite run_bind, R. change monitor_ok with 0.
      destruct (N.eqb_spec v 0); [contradiction|]. exact E.
    + intros M. apply longer. eapply ub_more; [exact R|]. apply L1, M.
  - (* assign_thread *)
    unfold assign_thread. destruct (lock_enclave_ub G pb rb g c enclave_id s CL) as (y & v & R & L1 & L2).
    split.
    + intros X. destruct (N.eq_dec (meta_code G pb rb s enclave_id) 0) as [M|M]; [exact M|].
      exfalso. apply X. destruct (L2 M) as [V E]. rewrite run_bind, R. change monitor_ok with 0.
      destruct (N.eqb_spec v 0); [contradiction|]. exact E.
    + intros M. apply longer. eapply ub_more; [exact R|]. apply L1, M.
  - (* accept_thread *)
    destruct A as (A1 & A2).
    unfold accept_thread. unfold accept_taken, own_region.
    set (a := thread_info_addr) in *.
    assert (PA : is_page_aligned a = (a mod 4096 =? 0)).
    { pose proof (page_aligned_iff a) as P. destruct (is_page_aligned a), (N.eqb_spec (a mod 4096) 0); intuition congruence. }
    assert (IP : in_dram_page G a = is_dram_address G a && is_page_aligned a).
    { rewrite PA. reflexivity. }
    rewrite IP. destruct (is_dram_address G a && is_page_aligned a) eqn:B.
    2:{ replace (negb (is_dram_address G a) || negb (is_page_aligned a)) with true
          by (destruct (is_dram_address G a), (is_page_aligned a); try reflexivity; discriminate).
        split; [intros X; exfalso; apply X; reflexivity|]. intros [X _]. discriminate. }
    replace (negb (is_dram_address G a) || negb (is_page_aligned a)) with false
      by (destruct (is_dram_address G a), (is_page_aligned a); try reflexivity; discriminate).
    pose proof (layout _ _ _ g) as (L1 & L2 & L3 & L4 & L5 & L6 & L7 & L8).
    change (2 ^ 31) with 2147483648 in L7. change (2 ^ 30) with 1073741824 in L8.
    assert (CE : run c (current_enclave G) s = (s, Some (enclave_of G s c))).
    { unfold current_enclave, current_core_info. cbn -[ld st wadd wmul core_addr].
      replace (wadd (core_addr G c) ci_enclave_id) with (g_core G + 32 * c); [reflexivity|].
      unfold core_addr. change core_info_size with 32. change ci_enclave_id with 0.
      rewrite (wmul_small 32 c) by (unfold W64; lia).
      rewrite (wadd_small (g_core G)) by (unfold W64; lia).
      rewrite wadd_small by (unfold W64; lia). lia. }
    rewrite run_bind, CE. cbv iota beta zeta.
    assert (W : wadd (region_addr G a) dri_lock = accept_word G a).
    { unfold accept_word, region_addr, wadd, wmul. change dram_region_info_size with 40.
      change dri_lock with 0. rewrite N.add_0_r. change (2 ^ 64) with W64.
      rewrite N.mod_mod by discriminate. apply N.add_mod_idemp_r. discriminate. }
    assert (RL : forall x, region_of pb rb x < g_dram_region_count G)
      by (intros x; rewrite (geo_count _ _ _ g); apply region_of_lt).
    rewrite !(region_for_spec G pb rb g).
    unfold test_and_set_dram_region_lock, clear_dram_region_lock, read_dram_region_owner.
    rewrite W, !(lock_at G pb rb g), !(owner_at G pb rb g) by apply RL.
    set (e := enclave_of G s c) in *. set (w := accept_word G a) in *.
    set (s1 := put s w 1). unfold owner_of, lock_of.
    fold (lock_addr G (region_of pb rb a)). fold (lock_addr G (region_of pb rb e)).
    set (la := lock_addr G (region_of pb rb a)) in *.
    set (le := lock_addr G (region_of pb rb e)) in *. clearbody w la le.
    rewrite run_bind, P_Accept.run_tas. cbv iota beta. fold s1.
    destruct (N.eqb_spec (word s w) 0) as [Z|Z]; cbn [negb].
    2:{ split; [intros X; exfalso; apply X; reflexivity|]. intros (_ & X & _). contradiction. }
    rewrite run_bind, P_Accept.run_load. cbv iota beta. fold (word s1 (la + 8)).
    destruct (N.eqb_spec (word s1 (la + 8)) e) as [O|O]; cbn [negb].
    2:{ rewrite run_bind, P_Accept.run_clr. cbv iota beta.
        split; [intros X; exfalso; apply X; reflexivity|]. intros (_ & _ & X & _). contradiction. }
    rewrite run_bind, P_Accept.run_tas. cbv iota beta. fold (word s1 le).
    destruct (N.eqb_spec (word s1 le) 0) as [Y|Y]; cbn [negb].
    2:{ rewrite run_bind, P_Accept.run_clr. cbv iota beta.
        split; [intros X; exfalso; apply X; reflexivity|]. intros (_ & _ & _ & X). contradiction. }
    split; [intros _; auto|]. intros _. apply longer.
    change (s_ub s) with (s_ub (put s1 le 1)).
    unfold accept_metadata_pages, assign_metadata_pages.
    change thread_metadata_pages with 1.
    rewrite (stripe_page_for_spec G pb rb g), (geo_pages _ _ _ g).
    assert (PL : (thread_id / 4096) mod 2 ^ pb < 2 ^ pb) by (apply N.mod_lt, pow2_nz).
    pose proof (geo_pb _ _ _ g) as PB.
    pose proof (N.pow_le_mono_r 2 pb 30 ltac:(lia) ltac:(lia)) as P30. change (2 ^ 30) with 1073741824 in P30.
    rewrite wadd_small by (unfold W64; clear -PL P30; lia).
    destruct (N.ltb_spec (2 ^ pb) ((thread_id / 4096) mod 2 ^ pb + 1)) as [?|_]; [clear -PL H; lia|].
    match goal with |- context [run c (bind (bind (metadata_page_info_for G thread_id) ?f1) ?f2) ?s2] =>
      destruct (ub_at G pb rb g c thread_id s2) as (y1 & v1 & R1 & LL1);
      destruct (run c (bind (metadata_page_info_for G thread_id) f1) s2) as [y2 v2] eqn:R2;
      apply (ub_more c _ f2 s2 y2 v2 R2); pose proof (ub_more c _ f1 s2 y1 v1 R1 LL1) as LL2;
      rewrite R2 in LL2; exact LL2 end.
Qed.

(** Both calls that can succeed at all execute it whenever they do. *)
Theorem C87_success_refuted : forall G pb rb s c k s',
  geom G pb rb -> clean_locks G s -> owner_of G s 0 <> 2 -> c < g_core_count G -> call_args_ok k ->
  (exists id base mask mc d, k = CCreateEnclave id base mask mc d) \/ (exists t a, k = CAcceptThread t a) ->
  do_call G c k s = (s', Some 0) -> executes_undefined G c k s.
Proof.
  intros G pb rb s c k s' g CL R02 C A K D.
  apply (C87_undefined_iff G pb rb s c k g CL C A).
  destruct K as [(id & base & mask & mc & d & ->)|(t & a & ->)]; cbn [undefined_for call_args_ok] in *.
  - destruct A as (A1 & A2 & A3 & A4).
    destruct (C71_create_enclave G pb rb s c id base mask mc d g CL R02 A1 A2 A3 A4) as (s2 & v & D2 & OC & _).
    rewrite D in D2. injection D2 as <- <-. unfold create_enclave_outcome in OC. cbv zeta in OC.
    destruct OC as [[_ X]|[[_ [X Y]]|[[_ [_ [_ X]]]|[[_ [_ [_ [_ X]]]]|(X & Y & Z & _)]]]]; try discriminate X; auto.
    exfalso. apply X. auto.
  - destruct A as (A1 & A2).
    destruct (C78_exact G pb rb s c t a g C A1) as (s2 & D2 & _).
    rewrite D in D2. injection D2 as <- V. unfold accept_code in V. cbv zeta in *.
    destruct (in_dram_page G a); [|discriminate]. cbn [negb] in V.
    destruct (N.eqb_spec (word s (accept_word G a)) 0) as [?|]; [|discriminate]. cbn [negb] in V.
    destruct (N.eqb_spec (owner_of G (accept_taken G s a) (region_of pb rb a)) (enclave_of G s c)) as [?|]; [|discriminate]. cbn [negb] in V.
    destruct (N.eqb_spec (lock_of G (accept_taken G s a) (own_region G pb rb s c)) 0) as [?|]; [|discriminate]. auto.
Qed.

(** In particular in every reachable state: no enclave has ever been created, and no thread
    accepted, by defined behaviour. *)
Theorem C87_reachable_refuted : forall P top pb rb G s c k s',
  reachable P top pb rb G s -> c < g_core_count G -> call_args_ok k ->
  (exists id base mask mc d, k = CCreateEnclave id base mask mc d) \/ (exists t a, k = CAcceptThread t a) ->
  do_call G c k s = (s', Some 0) -> executes_undefined G c k s.
Proof.
  intros P top pb rb G s c k s' R C A K D.
  destruct (reach_shows _ _ _ _ _ _ R) as [g [HD [M S]]].
  apply (C87_success_refuted G pb rb s c k s' g); auto.
  - intros r RL. rewrite (sh_lock _ _ _ S r RL). destruct ((r =? 0) && m_stuck M); auto.
  - rewrite (sh_owner _ _ _ S 0), (sh_region0 _ _ _ S); [discriminate|].
    rewrite (geo_count _ _ _ g). apply pow2_pos.
Qed.
Example C87_example : let id := page_addr 6 4 15 1 in
  reachable ex_platform 0 6 4 ex_G ex_meta /\ clean_locks ex_G ex_meta /\
  (exists s', do_call ex_G 1 (CCreateEnclave id 0x10000 0xffff 1 true) ex_meta = (s', Some 0)) /\
  (exists s', do_call ex_G 1 (CAcceptThread (5 * 262144 + 4096) (3 * 262144)) ex_meta = (s', Some 0)) /\
  executes_undefined ex_G 1 (CAssignThread id 0) ex_meta /\
  ~ executes_undefined ex_G 1 (CCreateEnclave 4096 0x10000 0xffff 1 true) ex_meta /\
  ~ executes_undefined ex_G 1 (CAcceptThread (5 * 262144 + 4096) (15 * 262144)) ex_meta.
Proof.
  destruct C38_example as (E1 & _ & _ & _ & _ & _ & _ & R). cbv zeta.
  assert (CL : clean_locks ex_G ex_meta) by (apply clean_iff; vm_compute; reflexivity).
  pose proof (reach_shows _ _ _ _ _ _ R) as [g _].
  split; [exact R|]. split; [exact CL|]. split; [exact E1|]. split.
  { eexists. apply call_val. vm_compute. reflexivity. }
  split; [|split].
  - apply (C87_undefined_iff ex_G 6 4); [exact g|exact CL|reflexivity|vm_compute; auto|vm_compute; reflexivity].
  - intros X. apply (C87_undefined_iff ex_G 6 4) in X; [|exact g|exact CL|reflexivity|vm_compute; auto].
    destruct X as [_ [X _]]. vm_compute in X. discriminate.
  - intros X. apply (C87_undefined_iff ex_G 6 4) in X; [|exact g|exact CL|reflexivity|vm_compute; auto].
    destruct X as [_ [_ [X _]]]. vm_compute in X. discriminate.
Qed.

Definition P_Undefined_theorems := (C87_undefined_iff, C87_success_refuted, C87_reachable_refuted, C87_example).
Print Assumptions P_Undefined_theorems.
