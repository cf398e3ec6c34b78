(** * What does hold of claims that are refuted in general. *)
From Coq Require Import NArith ZArith Lia Bool List.
From Coq Require Import ZifyBool ZifyNat ZifyN.
From Verif Require Import Word Machine ModelBare ModelHash ModelInl ModelRegions
  ModelMetadata ModelEnclave ModelBoot ModelApi Lib Trace BareProofs SpecGeometry
  GeomProofs SpecMonitor SpecHistory SpecMetadata
  ViewProofs SeqProofs SeqCalls SeqCalls2 SeqCalls3 SeqCalls4 SeqCalls5 SeqCalls6
  HistoryProofs HistoryFacts MetaProofs P_Boot P_Regions P_Metadata P_Enclave P_Inside
  SpecContract ContractProofs ContractProofs2 P_Contract P_Contract2 FootProofs.
Import ListNotations.
Open Scope N_scope.
Ltac Zify.zify_post_hook ::= Z.div_mod_to_equations.

(** ** C40 *)
(** On a page that metadata_region_start allows, the record lies wholly after the map,
    and the map entries of other pages are untouched. *)
Theorem C40_usable_partial :
  forall P top pb rb G s c id base mask mc d s',
  reachable P top pb rb G s -> c < g_core_count G ->
  id < 2 ^ 64 -> base < 2 ^ 64 -> mask < 2 ^ 64 -> mc < 2 ^ 64 ->
  2 ^ (12 + pb + rb) <= g_dram_size G -> first_stripe pb rb id -> usable G pb id ->
  do_call G c (CCreateEnclave id base mask mc d) s = (s', Some 0) ->
  let map := stripe_start pb rb (region_of pb rb id) 0 in
  map + 8 * 2 ^ pb <= id /\
  forall i, i < 2 ^ pb -> (i < page_of pb id \/ page_of pb id + N.max 1 (pages G mc) <= i) ->
    ld 8 (s_mem s') (map + 8 * i) = ld 8 (s_mem s) (map + 8 * i).
Proof.
  intros P top pb rb G s c id base mask mc d s' R C A1 A2 A3 A4 FULL F U D map.
  destruct (reach_shows _ _ _ _ _ _ R) as [g [HD [M K]]].
  destruct (create_run G pb rb g HD s M c id base mask mc d s' 0 K C A1 A2 A3 A4 D) as [CC X].
  destruct (X eq_refl) as (T & R0 & AL & LD & OW & CR & RS). clear X.
  destruct (created_facts G pb rb g HD id base mask mc d _ _ A1 F CR) as (FR & FREE & FRAME & MK).
  pose proof (map_size G pb rb g HD FULL) as MS.
  pose proof (first_stripe_addr G pb rb HD id F AL) as EA. fold map in EA. unfold usable in U.
  assert (B : map + 8 * 2 ^ pb <= id) by (clear -EA MS U; lia).
  split; [exact B|]. intros i I O. apply ld_byte. intros b B1 B2.
  change (N.of_nat 8) with 8 in B2.
  apply FRAME; unfold map_entry; fold map; clear -B1 B2 B I O; lia.
Qed.
(** The first usable page. *)
Example C40_example : let id := page_addr 6 4 15 1 in
  g_metadata_region_start ex_G = 1 /\ first_stripe 6 4 id /\ usable ex_G 6 id /\
  2 ^ (12 + 6 + 4) <= g_dram_size ex_G.
Proof.
  split; [vm_compute; reflexivity|]. split; [vm_compute; reflexivity|].
  split; vm_compute; discriminate.
Qed.

(** ** C42 *)
(** The refusal the documentation describes exists: a metadata region with a nonzero pin
    count is not freed. (No call ever makes the count nonzero, so this state is not
    reachable: C42_live_region_freed_refuted.) *)
Theorem C42_pinned_partial : forall G pb rb s c r s' v,
  geom G pb rb -> clean_locks G s -> owner_of G s r = 2 -> pinned_of G s r <> 0 ->
  do_call G c (CFree r) s = (s', Some v) -> v <> 0 /\ same_machine s s'.
Proof.
  intros G pb rb s c r s' v g CL O PN D.
  destruct (C63_free G pb rb s c r g CL) as [s1 [D1 [F _]]]. rewrite D in D1.
  injection D1 as <- ->.
  assert (NZ : free_code G s r <> 0).
  { unfold free_code. destruct (negb _); [discriminate|]. destruct (is_locked _ _ _); [discriminate|].
    rewrite O. change (2 =? 1) with false. change (2 =? 2) with true. cbv iota.
    destruct (N.eqb_spec (pinned_of G s r) 0); [contradiction|discriminate]. }
  auto.
Qed.
Definition ex_pinned : state := put (put ex_s0 (lock_addr ex_G 3 + 8) 2) (lock_addr ex_G 3 + 24) 1.
Example C42_pinned_example : clean_locks ex_G ex_pinned /\ owner_of ex_G ex_pinned 3 = 2 /\
  pinned_of ex_G ex_pinned 3 = 1 /\
  snd (do_call ex_G 0 (CFree 3) ex_pinned) = Some 2.
Proof.
  split; [apply clean_iff; vm_compute; reflexivity|].
  do 2 (split; [vm_compute; reflexivity|]). vm_compute; reflexivity.
Qed.

(** ** C44 *)
(** If the enclave owned the region its record is in, it could be initialised and then
    entered. *)
Theorem C44_owned_partial : forall G pb rb s c c' id t,
  geom G pb rb -> clean_locks G s -> record_ok G pb rb s id ->
  names_enclave G pb rb s id = true ->
  is_locked G s (main_region G pb rb id) = false -> word s (id + 16) = 0 ->
  exists s1 s2, do_call G c (CInitEnclave id) s = (s1, Some 0) /\
    do_call G c' (CEnterEnclave id t) s1 = (s2, Some 0).
Proof.
  intros G pb rb s c c' id t g CL RI NE L W.
  destruct (C59_init_enclave G pb rb s c id g CL RI) as [s1 [D1 _]].
  assert (Z : init_code G pb rb s id = 0).
  { unfold init_code, loading_code. rewrite L, NE, W. reflexivity. }
  rewrite Z in D1. exists s1.
  destruct (C59_lifecycle G pb rb s c id s1 g CL RI D1) as [E _].
  exists (fst (do_call G c' (CEnterEnclave id t) s1)). split; [exact D1|].
  apply call_val. apply E.
Qed.
Example C44_example : let s := ex_loading 0 0xffff in
  clean_locks ex_G s /\ (forall id, record_ok ex_G 6 4 s id) /\ names_enclave ex_G 6 4 s ex_encl = true /\
  is_locked ex_G s (main_region ex_G 6 4 ex_encl) = false /\ word s (ex_encl + 16) = 0.
Proof.
  split; [apply clean_iff; vm_compute; reflexivity|].
  split; [apply ex_ok; vm_compute; reflexivity|].
  do 2 (split; [vm_compute; reflexivity|]). vm_compute; reflexivity.
Qed.

(** ** C46 *)
(** An enclave with threads is not deleted, nor is anything else touched. *)
Theorem C46_live_refused_partial : forall G pb rb s c id s' v,
  geom G pb rb -> clean_locks G s -> record_ok G pb rb s id -> word s (id + 32) <> 0 ->
  do_call G c (CDeleteEnclave id) s = (s', Some v) -> v <> 0 /\ same_machine s s'.
Proof.
  intros G pb rb s c id s' v g CL RI TC D.
  assert (NZ : delete_enclave_code G pb rb s id <> 0).
  { unfold delete_enclave_code. destruct (is_locked _ _ _); [discriminate|].
    destruct (negb _); [discriminate|].
    destruct (N.eqb_spec (word s (id + 32)) 0); [contradiction|discriminate]. }
  destruct (C62_refused G pb rb s c id g CL RI NZ) as [s1 [D1 SM]].
  rewrite D in D1. injection D1 as <- ->. auto.
Qed.
Example C46_example : let s := put (ex_loading 0 0xffff) (ex_encl + 32) 1 in
  clean_locks ex_G s /\ (forall id, record_ok ex_G 6 4 s id) /\ word s (ex_encl + 32) = 1 /\
  snd (do_call ex_G 0 (CDeleteEnclave ex_encl) s) = Some 2.
Proof.
  split; [apply clean_iff; vm_compute; reflexivity|].
  split; [apply ex_ok; vm_compute; reflexivity|].
  split; vm_compute; reflexivity.
Qed.

(** ** C58 *)
(** Exactly which addresses load_page accepts once everything else is in order: those of
    [va & mask = base]; the first page of a range that starts at 0 is among them. *)
Theorem C58_accepted_partial : forall G pb rb s c id pa va oa acl,
  geom G pb rb -> clean_locks G s -> record_ok G pb rb s id ->
  pow2_range (word s (id + 48)) (word s (id + 56)) ->
  loading_code G pb rb s id 0 = 0 -> in_dram_page G pa = true -> in_dram_page G oa = true ->
  word s (id + 72) < pa ->
  snd (do_call G c (CLoadPage id pa va oa acl) s) = Some 0 <->
  word s (id + 48) = 0 /\ va mod (word s (id + 56) + 1) = 0.
Proof.
  intros G pb rb s c id pa va oa acl g CL RI PR LC PA OA LL.
  destruct (C60_load_page G pb rb s c id pa va oa acl g CL RI) as [s1 [D1 _]].
  rewrite D1. cbn [snd].
  assert (E : load_page_code G pb rb s id pa va oa = if accepts_va s id va then 0 else 1).
  { unfold load_page_code. rewrite PA, OA. cbn [negb orb].
    unfold loading_code in *. destruct (is_locked G s (main_region G pb rb id)); [discriminate LC|].
    destruct (negb (names_enclave G pb rb s id)); [discriminate LC|].
    destruct (negb (word s (id + 16) =? 0)); [discriminate LC|].
    destruct (N.leb_spec pa (word s (id + 72))); [lia|]. destruct (accepts_va s id va); reflexivity. }
  rewrite E. unfold accepts_va.
  destruct PR as [k [K [MK BK]]]. rewrite MK.
  replace (2 ^ k - 1 + 1) with (2 ^ k) by (pose proof (pow2_pos k); lia).
  replace (2 ^ k - 1) with (N.ones k) by (rewrite N.ones_equiv; lia).
  rewrite N.land_ones. set (b := word s (id + 48)) in *.
  pose proof (pow2_nz k) as NZ. pose proof (N.mod_lt va (2 ^ k) NZ) as LT.
  destruct (N.eqb_spec (va mod 2 ^ k) b) as [EQ|NE].
  - split; [|reflexivity]. intros _. rewrite <- EQ in BK. rewrite N.mod_mod in BK by exact NZ.
    split; [congruence|exact BK].
  - split; [discriminate|]. intros [B0 V0]. congruence.
Qed.
Example C58_accepted_example : let s := ex_loading 0 0xffff in
  clean_locks ex_G s /\ (forall id, record_ok ex_G 6 4 s id) /\
  pow2_range (word s (ex_encl + 48)) (word s (ex_encl + 56)) /\
  loading_code ex_G 6 4 s ex_encl 0 = 0 /\ in_dram_page ex_G (ex_encl + 4096) = true /\
  in_dram_page ex_G 8192 = true /\ word s (ex_encl + 72) < ex_encl + 4096.
Proof.
  split; [apply clean_iff; vm_compute; reflexivity|].
  split; [apply ex_ok; vm_compute; reflexivity|].
  split; [exists 16; repeat split; vm_compute; try reflexivity; discriminate|].
  do 3 (split; [vm_compute; reflexivity|]). vm_compute; reflexivity.
Qed.

(** ** C49 *)
(** Everything accept_thread may write, on every machine state: the word it takes for a
    lock (see C49_address_as_index_refuted), the locks of the region of the address and of
    the caller's region, the map entry of the thread's page, and the first 48 bytes of the
    thread. In particular no region changes owner and no register changes. *)
Definition accept_thread_writes (G : globals) (pb rb c : N) (s : state) (t a b : N) : Prop :=
  bytes_of ((g_dram_region G + 40 * a) mod 2 ^ 64) 8 b \/
  bytes_of (lock_addr G (region_of pb rb a)) 8 b \/
  bytes_of (lock_addr G (own_region G pb rb s c)) 8 b \/
  bytes_of (map_entry pb rb t) 8 b \/ bytes_of t 48 b.
Lemma first_stripe_entry G pb rb t : geom G pb rb -> first_stripe pb rb t ->
  metadata_page_info_for_val G t = map_entry pb rb t.
Proof.
  intros g F. pose proof (geo_pb _ _ _ g). pose proof (geo_rb _ _ _ g).
  assert (T : t < W64).
  { unfold first_stripe in F. pose proof (N.pow_le_mono_r 2 (12 + pb + rb) 60 ltac:(lia) ltac:(lia)).
    unfold W64. change (2 ^ 60) with 1152921504606846976 in *. lia. }
  rewrite (map_entry_val G pb rb g t T). unfold map_entry, stripe_start, page_of.
  unfold map_skew. rewrite (N.div_small t (2 ^ (12 + pb + rb)) F), N.mul_0_l, N.mod_0_l by discriminate. lia.
Qed.
Theorem C49_footprint_partial : forall G pb rb c s t a s' v,
  geom G pb rb -> c < g_core_count G -> first_stripe pb rb t ->
  do_call G c (CAcceptThread t a) s = (s', v) ->
  changes_only (accept_thread_writes G pb rb c s t a) s s'.
Proof.
  intros G pb rb c s t a s' v g C F D.
  pose proof (geo_pb _ _ _ g) as PB. pose proof (geo_rb _ _ _ g) as RB.
  pose proof (layout _ _ _ g) as (L1 & L2 & L3 & L4 & L5 & L6 & L7 & L8).
  change (2 ^ 31) with 2147483648 in L7. change (2 ^ 30) with 1073741824 in L8.
  pose proof (geo_count _ _ _ g) as GC.
  assert (T : t < 2 ^ 60).
  { unfold first_stripe in F. pose proof (N.pow_le_mono_r 2 (12 + pb + rb) 60 ltac:(lia) ltac:(lia)). lia. }
  change (2 ^ 60) with 1152921504606846976 in T.
  unfold do_call in D. cbn [call_prog] in D. unfold accept_thread in D.
  destruct (negb _ || negb _); [cbn in D; inversion D; subst; apply changes_refl|].
  rewrite run_bind in D.
  assert (CE : run c (current_enclave G) s = (s, Some (enclave_of G s c))).
  { unfold current_enclave, current_core_info. cbn -[ld st wadd wmul core_addr].
    replace (wadd (core_addr G c) ci_enclave_id) with (g_core G + 32 * c); [reflexivity|].
    unfold core_addr. change core_info_size with 32. change ci_enclave_id with 0.
    rewrite (wmul_small 32 c) by (unfold W64; lia).
    rewrite (wadd_small (g_core G)) by (unfold W64; lia).
    rewrite wadd_small by (unfold W64; lia). lia. }
  rewrite CE in D. cbv iota beta zeta in D. set (e := enclave_of G s c) in *.
  eapply run_changes; [|exact D]. clear D CE.
  set (P := accept_thread_writes G pb rb c s t a).
  assert (LA : forall r, r < g_dram_region_count G -> wadd (region_addr G r) dri_lock = lock_addr G r).
  { intros r R. unfold region_addr, lock_addr. change dram_region_info_size with 40. change dri_lock with 0.
    rewrite (wmul_small 40 r) by (unfold W64; lia).
    rewrite (wadd_small (g_dram_region G)) by (unfold W64; lia).
    rewrite wadd_small by (unfold W64; lia). lia. }
  assert (W : wadd (region_addr G a) dri_lock = (g_dram_region G + 40 * a) mod 2 ^ 64).
  { unfold region_addr, wadd, wmul. change dram_region_info_size with 40.
    change dri_lock with 0. rewrite N.add_0_r. change (2 ^ 64) with W64.
    rewrite N.mod_mod by discriminate. apply N.add_mod_idemp_r. discriminate. }
  assert (U1 : uses (writes_in P) (test_and_set_dram_region_lock G a)).
  { unfold test_and_set_dram_region_lock. apply uses_bind; [|intros ?; exact Logic.I].
    apply uses_op. cbn [writes_in]. rewrite W. intros b B. left. exact B. }
  assert (RL : forall x, region_of pb rb x < g_dram_region_count G)
    by (intros x; rewrite GC; apply region_of_lt).
  assert (CLA : uses (writes_in P) (clear_dram_region_lock G (dram_region_for G a))).
  { unfold clear_dram_region_lock. rewrite (region_for_spec G pb rb g), LA by apply RL.
    apply uses_bind; [|intros ?; exact Logic.I]. apply uses_op. cbn [writes_in]. intros b B. right. left. exact B. }
  assert (CLE : uses (writes_in P) (clear_dram_region_lock G (dram_region_for G e))).
  { unfold clear_dram_region_lock. rewrite (region_for_spec G pb rb g), LA by apply RL.
    apply uses_bind; [|intros ?; exact Logic.I]. apply uses_op. cbn [writes_in]. intros b B. right. right. left. exact B. }
  assert (TE : uses (writes_in P) (test_and_set_dram_region_lock G (dram_region_for G e))).
  { unfold test_and_set_dram_region_lock. rewrite (region_for_spec G pb rb g), LA by apply RL.
    apply uses_bind; [|intros ?; exact Logic.I]. apply uses_op. cbn [writes_in]. intros b B. right. right. left. exact B. }
  assert (FD : forall k, k + 8 <= 48 -> forall b, bytes_of (wadd t k) 8 b -> P b).
  { intros k K b B. rewrite wadd_small in B by (unfold W64; lia). unfold bytes_of in B.
    right. right. right. right. unfold bytes_of. lia. }
  assert (AC : uses (writes_in P) (accept_metadata_pages G t thread_metadata_pages e thread_metadata_page_type)).
  { unfold accept_metadata_pages, assign_metadata_pages.
    destruct (_ <? _); [exact Logic.I|].
    change (metadata_page_info_for G t) with
      (page <- (ub_if (64 <=? page_for_shift G) 1 ;; Ret (dram_region_page_for_val G t)) ;;
       Ret (wadd (N.land t (g_dram_region_mask G)) (wmul 8 page))).
    assert (E : forall A (f : N -> prog A), uses (writes_in P) (f (metadata_page_info_for_val G t)) ->
      uses (writes_in P) (bind (page <- (ub_if (64 <=? page_for_shift G) 1 ;; Ret (dram_region_page_for_val G t)) ;;
       Ret (wadd (N.land t (g_dram_region_mask G)) (wmul 8 page))) f)).
    { intros A f X. unfold ub_if. destruct (_ <=? _); cbn [bind op1 uses]; [split; [exact Logic.I|]; intros _|]; exact X. }
    apply E. rewrite (first_stripe_entry G pb rb t g F).
    apply uses_bind.
    { apply uses_for_exit. intros i. apply uses_bind; [apply uses_op; exact Logic.I|].
      intros x. destruct (x =? 0); exact Logic.I. }
    intros [x|]; [exact Logic.I|]. apply uses_bind.
    { apply uses_op. cbn [writes_in]. intros b B. right. right. right. left. exact B. }
    intros _. apply uses_bind; [|intros ?; exact Logic.I].
    replace (N.to_nat (thread_metadata_pages - 1)) with 0%nat by (vm_compute; reflexivity). exact Logic.I. }
  apply uses_bind; [exact U1|]. intros b1. destruct b1; [exact Logic.I|].
  apply uses_bind; [unfold read_dram_region_owner; apply uses_op; exact Logic.I|]. intros o.
  destruct (negb (o =? e)).
  { apply uses_bind; [exact CLA|intros ?; exact Logic.I]. }
  apply uses_bind; [exact TE|]. intros b2. destruct b2.
  { apply uses_bind; [exact CLA|intros ?; exact Logic.I]. }
  apply uses_bind; [exact AC|]. intros x. destruct (negb (x =? monitor_ok)).
  { apply uses_bind; [exact CLE|intros ?]. apply uses_bind; [exact CLA|intros ?; exact Logic.I]. }
  apply uses_bind.
  { apply uses_op. cbn [writes_in]. apply FD. unfold ti_lock. lia. }
  intros _.
  do 5 (apply uses_bind; [apply uses_op; exact Logic.I|intros ?]).
  apply uses_bind; [apply uses_op; cbn [writes_in]; apply FD; unfold ti_entry_pc; lia|intros ?].
  apply uses_bind; [apply uses_op; cbn [writes_in]; apply FD; unfold ti_entry_stack; lia|intros ?].
  apply uses_bind; [apply uses_op; cbn [writes_in]; apply FD; unfold ti_fault_pc; lia|intros ?].
  apply uses_bind; [apply uses_op; cbn [writes_in]; apply FD; unfold ti_fault_stack; lia|intros ?].
  apply uses_bind; [apply uses_op; cbn [writes_in]; apply FD; unfold ti_eptbr; lia|intros ?].
  apply uses_bind; [exact CLE|intros ?]. apply uses_bind; [exact CLA|intros ?; exact Logic.I].
Qed.
Example C49_footprint_example : let t := page_addr 6 4 3 5 in
  first_stripe 6 4 t /\ snd (do_call ex_G 0 (CAcceptThread t 20480) ex_s0) <> None /\
  ld 8 (s_mem (fst (do_call ex_G 0 (CAcceptThread t 20480) ex_s0))) (64 + 40 * 20480) = 1.
Proof.
  split; [vm_compute; reflexivity|]. split; [vm_compute; discriminate|vm_compute; reflexivity].
Qed.

Definition P_Positive_theorems :=
  (C40_usable_partial, C40_example, C42_pinned_partial, C42_pinned_example, C44_owned_partial,
   C44_example, C46_live_refused_partial, C46_example, C58_accepted_partial,
   C58_accepted_example, C49_footprint_partial, C49_footprint_example).
Print Assumptions P_Positive_theorems.
