(** * C62 and C64: the exact effects of delete_enclave and copy_debug_enclave_page. *)
From Coq Require Import NArith ZArith Lia Bool List.
From Coq Require Import ZifyBool ZifyNat ZifyN.
From Verif Require Import Word Machine ModelBare ModelHash ModelInl ModelRegions
  ModelMetadata ModelEnclave ModelBoot ModelApi Lib BareProofs SpecGeometry
  GeomProofs SpecMonitor SpecHistory SpecMetadata
  ViewProofs SeqProofs SeqCalls SeqCalls2 SeqCalls3 SeqCalls5 SeqCalls6
  HistoryProofs HistoryFacts MetaProofs P_Boot P_Regions P_Metadata P_Enclave P_Inside
  SpecContract ContractProofs ContractProofs2 ContractProofs3 ContractProofs4 P_Contract
  P_Contract3 SpecContract4 ContractProofs6.
Import ListNotations.
Open Scope N_scope.
Ltac Zify.zify_post_hook ::= Z.div_mod_to_equations.

(** ** C64 *)
(** Every identifier and every pair of pages, the monitor's own included: the call
    takes the two locks, copies the page as it then is, and gives the locks back. *)
Theorem C64_debug_copy : forall G pb rb s c id ea oa (rd : bool),
  geom G pb rb -> clean_locks G s -> record_in_space G id ->
  let code := debug_copy_code G pb rb s id ea oa in
  exists s', do_call G c (CCopyDebugPage id ea oa rd) s = (s', Some code) /\
    same_machine (if code =? 0 then debug_copy_state G pb rb s id ea oa rd else s) s'.
Proof.
  intros G pb rb s c id ea oa rd g CL RS code. unfold do_call. cbn [call_prog].
  apply (debug_copy_run G pb rb g c s id ea oa rd CL RS).
Qed.
(** The OS itself has identifier 0: if the third word of the table of cores (the
    thread of core 0) is not 0, it may copy any page of its regions onto any other,
    the pages of the monitor, which are in region 0, included. *)
Theorem C64_os_copies_refuted : forall G pb rb s c ea oa rd,
  geom G pb rb -> clean_locks G s ->
  in_dram_page G ea = true -> in_dram_page G oa = true ->
  region_of pb rb oa <> 0 -> is_locked G s 0 = false -> is_locked G s (region_of pb rb oa) = false ->
  owner_of G s 0 = 0 -> owner_of G s (region_of pb rb oa) = 0 ->
  g_core G = 0 -> 2 <= g_core_count G -> word s 24 <> 0 -> os_bit G s (region_of pb rb ea) = true ->
  exists s', do_call G c (CCopyDebugPage 0 ea oa rd) s = (s', Some 0) /\
    same_machine (debug_copy_state G pb rb s 0 ea oa rd) s'.
Proof.
  intros G pb rb s c ea oa rd g CL PE PO R0 L0 LR O0 OR C0 C2 W24 OB.
  pose proof (layout _ _ _ g) as (L1 & L2 & L3 & L4 & L5 & L6 & L7 & L8).
  assert (TW : g_monitor_top G < W64) by (change (2 ^ 30) with 1073741824 in L8; unfold W64; lia).
  destruct (C64_debug_copy G pb rb s c 0 ea oa rd g CL) as [s' [D SM]].
  { unfold record_in_space. change (2 ^ 64) with W64. change (2 ^ 30) with 1073741824 in L8. unfold W64. lia. }
  exists s'. rewrite D.
  assert (K : debug_copy_code G pb rb s 0 ea oa = 0).
  { unfold debug_copy_code. rewrite PE, PO. cbn [negb orb].
    assert (M : main_region G pb rb 0 = 0).
    { unfold main_region. rewrite (region_of_0 pb rb). destruct (_ <? _); reflexivity. }
    rewrite M, L0, LR. replace (region_of pb rb oa =? 0) with false by lia. cbn [orb].
    assert (RN : region_of pb rb oa < g_dram_region_count G) by apply (region_lt' G pb rb g).
    set (s1 := taken_lock _ _ _).
    assert (HI : forall a, (a + 8 <= g_dram_region G \/ g_dram_regions G <= a) -> word s1 a = word s a).
    { intros a A. unfold word, s1, taken_lock, put, lock_addr. cbn [s_mem set_mem].
      rewrite !ld_st_other by (change (N.of_nat 8) with 8; lia). reflexivity. }
    rewrite N.add_0_l. rewrite HI by lia. destruct (N.eqb_spec (word s 24) 0); [contradiction|].
    unfold access_bit. cbn [N.eqb]. unfold os_bit in *. fold (word s1 (g_os_region_bitmap G + 8 * (region_of pb rb ea / 64))).
    rewrite HI by lia. unfold word. rewrite OB, O0, OR. reflexivity. }
  rewrite K in *. split; [reflexivity|exact SM].
Qed.
Example C64_exact_example : let s := ex_debug in
  clean_locks ex_G s /\ record_in_space ex_G ex_encl /\ record_in_space ex_G 0 /\
  debug_copy_code ex_G 6 4 s ex_encl (page_addr 6 4 3 0) 0 = 0 /\
  debug_copy_code ex_G 6 4 s ex_encl (page_addr 6 4 3 1) (page_addr 6 4 8 0) = 0 /\
  debug_copy_code ex_G 6 4 s 0 0 (page_addr 6 4 8 0) = 2 /\
  debug_copy_code ex_G 6 4 (put s 24 1) 0 0 (page_addr 6 4 8 0) = 0 /\
  owner_of ex_G s 9 = 0 /\
  owner_of ex_G (debug_copy_state ex_G 6 4 s ex_encl (page_addr 6 4 3 0) 0 true) 9 = 77.
Proof.
  split; [apply clean_iff; vm_compute; reflexivity|].
  split; [vm_compute; discriminate|]. split; [vm_compute; discriminate|].
  do 5 (split; [vm_compute; reflexivity|]). vm_compute; reflexivity.
Qed.

(** ** C62 *)
(** Every state, every identifier, every bitmap. *)
Theorem C62_delete_enclave : forall G pb rb s c id,
  geom G pb rb -> clean_locks G s -> record_ok G pb rb s id ->
  g_dram_size G + 2 ^ (12 + pb + rb) <= 2 ^ 64 ->
  exists s', do_call G c (CDeleteEnclave id) s = (s', Some (delete_enclave_code G pb rb s id)) /\
    same_machine (delete_enclave_state G pb rb s id) s'.
Proof.
  intros G pb rb s c id g CL RI WB. exact (delete_exact G pb rb g s c id CL RI WB).
Qed.
Lemma marked_owner G k : forall i s r, r < g_dram_region_count G -> 
  owner_of G (marked_free G i k s) r = if (i <=? r) && (r <? i + N.of_nat k) then 3 else owner_of G s r.
Proof.
  induction k as [|k IH]; intros i s r R; cbn [marked_free].
  - replace ((i <=? r) && (r <? i + N.of_nat 0)) with false by lia. reflexivity.
  - rewrite IH by auto. unfold owner_of, put, lock_addr. cbn [s_mem set_mem].
    destruct (N.eq_dec r i) as [->|NR].
    + replace (i + 1 <=? i) with false by lia. cbn [andb].
      replace ((i <=? i) && (i <? i + N.of_nat (S k))) with true by lia. apply ld8_st8. reflexivity.
    + rewrite ld_st_other by (change (N.of_nat 8) with 8; lia).
      replace ((i <=? r) && (r <? i + N.of_nat (S k))) with ((i + 1 <=? r) && (r <? i + 1 + N.of_nat k)) by lia.
      reflexivity.
Qed.
(** With DRAM that reaches into the last round below 2^64 the wipe of the first region never
    ends (C47): the deletion with the bit set diverges.  In all other cases the call is as
    above. *)
Lemma delete_diverges G pb rb s c id : geom G pb rb -> clean_locks G s -> record_ok G pb rb s id ->
  2 ^ 64 < g_dram_size G + 2 ^ (12 + pb + rb) ->
  delete_enclave_code G pb rb s id = 0 -> enclave_bit s id (g_dram_region_count G) = true ->
  snd (run c (delete_enclave G id) s) = None.
Proof.
  intros g CL RI H K ZB. unfold delete_enclave, delete_enclave_code in *. cbv zeta.
  destruct (is_locked G s (main_region G pb rb id)) eqn:L; [discriminate|].
  destruct (names_enclave G pb rb s id) eqn:NE; cbn [negb] in *; [|discriminate].
  pose proof (named_record G pb rb s id RI NE) as RA.
  destruct (word s (id + 32) =? 0) eqn:TC; cbn [negb] in *; [|discriminate].
  pose proof (main_lt G pb rb g id) as QN. pose proof (idle G s CL _ QN L) as Z0.
  set (q := main_region G pb rb id) in *.
  rewrite run_bind. rewrite (main_val G pb rb g). fold q. rewrite (run_tas G pb rb g c q s QN).
  change (lock_of G s q = 0) in Z0. rewrite Z0. cbn [N.eqb negb].
  assert (V0 : view G (taken_lock G s q) (with_lock (view_of G s) q 1)).
  { destruct (wp_tas G pb rb g c q (view_of G s) (fun b o' => o' = with_lock (view_of G s) q 1) QN eq_refl s (view_of_view G s))
      as [s1 [b [o' [R [V ->]]]]].
    rewrite (run_tas G pb rb g c q s QN) in R. injection R as R _. rewrite R. exact V. }
  set (s0 := taken_lock G s q) in *.
  assert (BE : run c (bad_enclave_id G id) s0 = (s0, Some false)).
  { unfold names_enclave in NE. apply andb_true_iff in NE. destruct NE as [N0 NO].
    unfold bad_enclave_id, is_valid_enclave_id. change null_enclave_id with 0.
    destruct (id =? 0); [discriminate|]. rewrite (main_val G pb rb g). fold q.
    rewrite !run_bind. 
    pose proof (run_owner G pb rb g c q s0 QN) as RO. unfold read_dram_region_owner in RO.
    rewrite RO. unfold s0. unfold taken_lock. rewrite owner_taken.
    cbn -[owner_of]. fold q in NO. rewrite NO. reflexivity. }
  rewrite run_bind, BE. cbv iota beta.
  assert (TE : run c (load64 (wadd id ei_thread_count)) s0 = (s0, Some (word s (id + 32)))).
  { destruct RA as [RA1 RA2]. change (2 ^ 64) with W64 in RA2. change ei_thread_count with 32.
    rewrite wadd_small by lia. unfold load64. cbn -[ld].
    f_equal. f_equal. unfold word. apply ld_byte. intros b B1 B2.
    unfold s0, taken_lock, put. cbn [s_mem set_mem].
    pose proof (field_table G pb rb g q 0 QN ltac:(lia)). apply byte_st_out.
    right. change (N.of_nat 8) with 8. lia. }
  rewrite run_bind, TE. cbv iota beta. rewrite TC. cbn [negb]. rewrite run_bind.
  destruct (del_lock G pb rb g s c CL id RA (N.to_nat (g_dram_region_count G)) 0
       (upd (o_lock (view_of G s)) q 1)) with (s := s0) as [s1 [x [o1 [R1 [V1 [f1 [-> HX]]]]]]]; [lia| |exact V0|].
  { intros r. unfold upd, upto, mine. fold q. destruct (r =? q); [reflexivity|].
    replace (r <? 0) with false by lia. reflexivity. }
  fold q in R1. rewrite R1. destruct x as [z|].
  { exfalso. destruct HX as [ZR [BZ _]]. rewrite N2Nat.id in ZR.
    rewrite (busy_exists G pb rb s id z) in K by (auto; lia). discriminate. }
  cbv iota beta. rewrite run_bind.
  pose proof (layout _ _ _ g) as (L1 & L2 & L3 & L4 & L5 & L6 & L7 & L8).
  destruct (N.to_nat (g_dram_region_count G)) as [|m] eqn:EN; [lia|]. cbn [for_n].
  assert (ZB1 : bit_at (s_mem s1) (id + 304) (g_dram_region_count G) = true).
  { rewrite bit_at_word. fold (enclave_bit s1 id (g_dram_region_count G)). rewrite <- ZB. unfold enclave_bit. f_equal.
    apply ld_byte. intros b B1 B2. rewrite (v_rest _ _ _ V1); [reflexivity|].
    apply (rest_high G pb rb g). destruct RA. lia. }
  rewrite run_bind. rewrite run_bind.
  rewrite (bitmap_addr G id RA). rewrite read_bitmap_bit_run.
  2:{ destruct RA as [RA1 RA2]. change (2 ^ 64) with W64 in RA2. unfold word_of_bit.
      assert (g_dram_region_count G / 64 <= g_dram_region_bitmap_words G) by (clear -L5; lia). lia. }
  rewrite ZB1.
  rewrite run_bind, run_store64, run_bind, run_store64.
  unfold bzero_dram_region.
  set (s2 := set_mem _ _).
  pose proof (C47_huge_dram_refuted G pb rb c s2 0 g H
    (S (N.to_nat (g_dram_size G / wshl (g_dram_region_count G) (g_dram_region_shift G))))) as DV.
  destruct (run c (bzero_stripes _ _ _ _ _) s2) as [s3 [u|]]; [discriminate DV|reflexivity].
Qed.
Theorem C62_every_machine : forall G pb rb s c id,
  geom G pb rb -> clean_locks G s -> record_ok G pb rb s id ->
  if (2 ^ 64 <? g_dram_size G + 2 ^ (12 + pb + rb)) && (delete_enclave_code G pb rb s id =? 0) &&
     enclave_bit s id (g_dram_region_count G)
  then snd (do_call G c (CDeleteEnclave id) s) = None
  else exists s', do_call G c (CDeleteEnclave id) s = (s', Some (delete_enclave_code G pb rb s id)) /\
    same_machine (delete_enclave_state G pb rb s id) s'.
Proof.
  intros G pb rb s c id g CL RI.
  destruct (N.ltb_spec (2 ^ 64) (g_dram_size G + 2 ^ (12 + pb + rb))) as [H|H]; cbn [andb].
  2:{ apply C62_delete_enclave; auto. }
  destruct (N.eqb_spec (delete_enclave_code G pb rb s id) 0) as [K|K]; cbn [andb].
  - destruct (enclave_bit s id (g_dram_region_count G)) eqn:ZB.
    + apply (delete_diverges G pb rb); auto.
    + unfold delete_enclave_state. rewrite ZB, andb_false_r.
      exact (only_run G pb rb g s c _ _ (ContractProofs.delete_wp G pb rb g s c CL id RI (fun _ => ZB))).
  - unfold delete_enclave_state. destruct (N.eqb_spec (delete_enclave_code G pb rb s id) 0); [contradiction|]. cbn [andb].
    apply (only_run G pb rb g s c _ _ (ContractProofs.delete_wp G pb rb g s c CL id RI (fun X => False_ind _ (K X)))).
Qed.
(** After a deletion with the bit set no enclave and no metadata region is left: the
    regions up to the one of the bit are free, all others belong to the OS, which finds
    in them what their owners left there. *)
Theorem C62_ownership_lost_refuted : forall G pb rb s c id s',
  geom G pb rb -> clean_locks G s -> record_ok G pb rb s id ->
  g_dram_size G + 2 ^ (12 + pb + rb) <= 2 ^ 64 ->
  enclave_bit s id (g_dram_region_count G) = true ->
  do_call G c (CDeleteEnclave id) s = (s', Some 0) ->
  let t := last_erased G pb rb id in
  (forall r, r < g_dram_region_count G ->
     owner_of G s' r = if (1 <=? r) && (r <=? t) then 3 else 0) /\
  (forall a, a < g_dram_size G -> region_of pb rb a <= t -> region_of pb rb a <> 0 ->
     s_mem s' a mod 256 = 0) /\
  (forall a, t < region_of pb rb a -> s_mem s' a mod 256 = s_mem s a mod 256).
Proof.
  intros G pb rb s c id s' g CL RI WB ZB D t.
  destruct (C62_delete_enclave G pb rb s c id g CL RI WB) as [s1 [D1 SM]].
  rewrite D in D1. injection D1 as <- K. symmetry in K.
  unfold delete_enclave_state in SM. rewrite K, ZB in SM. cbn [N.eqb andb] in SM.
  unfold deleted_state in SM. fold t in SM.
  assert (TB : forall r, r < g_dram_region_count G -> owner_of G (erased G pb rb 0 t s) r = 0).
  { intros r R. unfold owner_of. apply ld8_zero. intros b B. rewrite byte_erased.
    pose proof (field_table G pb rb g r 8 R ltac:(lia)) as F. unfold lock_addr in F.
    rewrite (table_region G pb rb g), (table_round G pb rb g) by lia.
    replace (0 <=? 0) with true by lia. replace (0 <=? t) with true by lia. reflexivity. }
  assert (MB : forall a, region_of pb rb a <> 0 -> byte (s_mem s') a = byte (s_mem (erased G pb rb 0 t s)) a).
  { intros a RA. rewrite (sm_byte _ _ _ SM).
    assert (X : forall k i z, i + N.of_nat k <= g_dram_region_count G ->
      byte (s_mem (marked_free G i k z)) a = byte (s_mem z) a).
    { induction k as [|k IH]; intros i z Ik; [reflexivity|]. cbn [marked_free]. rewrite IH by lia.
      unfold put. cbn [s_mem set_mem]. apply byte_st_out.
      pose proof (field_table G pb rb g i 8 ltac:(lia) ltac:(lia)) as F.
      destruct (N.lt_ge_cases a (g_monitor_top G)) as [A|A].
      - exfalso. apply RA, (table_region G pb rb g a A).
      - change (N.of_nat 8) with 8. lia. }
    apply X. pose proof (t_lt G pb rb g id). fold t in H. lia. }
  split; [|split].
  - intros r R. unfold owner_of. rewrite (sm_word _ _ _ SM).
    fold (owner_of G (marked_free G 1 (N.to_nat t) (erased G pb rb 0 t s)) r).
    rewrite marked_owner by auto. rewrite (TB r R).
    replace (r <? 1 + N.of_nat (N.to_nat t)) with (r <=? t) by lia. reflexivity.
  - intros a A1 A2 A3. change (byte (s_mem s') a = 0). rewrite MB by auto. rewrite byte_erased.
    assert (IR : in_round G pb rb a = true).
    { unfold in_round. apply N.ltb_lt. eapply N.le_lt_trans; [|exact A1]. rewrite N.mul_comm.
      apply N.mul_div_le. apply pow2_nz. }
    rewrite IR. replace (0 <=? region_of pb rb a) with true by lia.
    replace (region_of pb rb a <=? t) with true by lia. reflexivity.
  - intros a A. change (byte (s_mem s') a = byte (s_mem s) a). rewrite MB by lia. rewrite byte_erased.
    replace (region_of pb rb a <=? t) with false by lia. rewrite andb_false_r. reflexivity.
Qed.
Example C62_exact_example : let G := small_G (2 ^ 18) in
  clean_locks G ex_over /\ record_ok G 1 4 ex_over e1 /\ g_dram_size G + 2 ^ (12 + 1 + 4) <= 2 ^ 64 /\
  delete_enclave_code G 1 4 ex_over e1 = 0 /\ enclave_bit ex_over e1 16 = true /\
  g_dram_region_count G = 16 /\ last_erased G 1 4 e1 = 3.
Proof.
  split; [apply clean_iff; vm_compute; reflexivity|].
  split; [intros _; split; vm_compute; discriminate|]. split; [vm_compute; discriminate|].
  do 3 (split; [vm_compute; reflexivity|]). vm_compute; reflexivity.
Qed.

Definition P_Contract5_theorems := (C64_debug_copy, C64_os_copies_refuted, C64_exact_example,
  C62_delete_enclave, C62_every_machine, C62_ownership_lost_refuted, C62_exact_example).
Print Assumptions P_Contract5_theorems.
