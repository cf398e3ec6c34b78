(** * Property C61, continued: create_thread on every machine state. *)
From Coq Require Import NArith ZArith Lia Bool List.
From Coq Require Import ZifyBool ZifyNat ZifyN.
From Verif Require Import Word Machine ModelBare ModelHash ModelInl ModelRegions
  ModelMetadata ModelEnclave ModelBoot ModelApi Lib BareProofs SpecGeometry
  GeomProofs SpecMonitor SpecHistory SpecMetadata
  ViewProofs SeqProofs SeqCalls SeqCalls2 HistoryProofs P_Boot P_Regions P_Metadata P_Enclave
  SpecContract ContractProofs P_Contract SpecContract4 ContractProofs6.
Import ListNotations.
Open Scope N_scope.
Ltac Zify.zify_post_hook ::= Z.div_mod_to_equations.

Lemma read_bit_any c s b r : r < 2 ^ 60 -> run c (read_bitmap_bit b r) s =
  (s, Some (N.testbit (ld 8 (s_mem s) ((b + 8 * (r / 64)) mod W64)) (r mod 64))).
Proof.
  intros R. change (2 ^ 60) with 1152921504606846976 in R.
  assert (W : wadd b (wmul 8 (r / 64)) = (b + 8 * (r / 64)) mod W64).
  { rewrite wmul_small by (unfold W64; lia). reflexivity. }
  pose proof (read_bitmap_bit_run c s ((b + 8 * (r / 64)) mod W64) (r mod 64)) as X.
  assert (Z : r mod 64 / 64 = 0) by lia. assert (Z2 : (r mod 64) mod 64 = r mod 64) by lia.
  unfold word_of_bit in X. rewrite Z, N.mul_0_r, N.add_0_r in X.
  assert (W1 : (b + 8 * (r / 64)) mod W64 < W64) by (apply N.mod_lt; discriminate).
  specialize (X W1).
  unfold read_bitmap_bit in *. cbv zeta in *. rewrite W.
  rewrite bit_at_word, Z, Z2, N.mul_0_r, N.add_0_r in X. rewrite <- X.
  assert (Z3 : wadd ((b + 8 * (r / 64)) mod W64) (wmul 8 0) = (b + 8 * (r / 64)) mod W64).
  { rewrite wmul_small, N.mul_0_r by reflexivity. unfold wadd. rewrite N.add_0_r.
    apply N.mod_small, N.mod_lt. discriminate. }
  rewrite Z3. reflexivity.
Qed.
Lemma top_page_region pb rb : pb <= 18 -> 1 <= rb <= 30 -> region_of pb rb (W64 - 4096) <> 0.
Proof.
  intros PB RB. unfold region_of.
  assert (E : (W64 - 4096) / 2 ^ (12 + pb) = 2 ^ (52 - pb) - 1).
  { assert (X : W64 = 2 ^ (12 + pb) * 2 ^ (52 - pb)).
    { rewrite <- N.pow_add_r. replace (12 + pb + (52 - pb)) with 64 by lia. reflexivity. }
    assert (P : 4096 <= 2 ^ (12 + pb)).
    { change 4096 with (2 ^ 12). apply N.pow_le_mono_r; lia. }
    pose proof (pow2_pos (52 - pb)). set (q := 2 ^ (12 + pb)) in *. set (k := 2 ^ (52 - pb)) in *.
    clearbody q k. symmetry. apply (N.div_unique _ _ _ (q - 4096)); [lia|]. rewrite X. nia. }
  rewrite E.
  assert (X : 2 ^ (52 - pb) = 2 ^ rb * 2 ^ (52 - pb - rb)).
  { rewrite <- N.pow_add_r. f_equal. lia. }
  assert (P : 2 <= 2 ^ rb) by (change 2 with (2 ^ 1) at 1; apply N.pow_le_mono_r; lia).
  pose proof (pow2_pos (52 - pb - rb)). rewrite X.
  set (q := 2 ^ rb) in *. set (k := 2 ^ (52 - pb - rb)) in *. clearbody q k.
  assert (M : (q * k - 1) mod q = q - 1).
  { symmetry. apply (N.mod_unique _ _ (k - 1)); [lia|nia]. }
  rewrite M. lia.
Qed.

(** The result and the state afterwards, for every state and all arguments. *)
Theorem C61_create_thread : forall G pb rb s c t pa,
  geom G pb rb -> clean_locks G s -> c < g_core_count G -> pa < 2 ^ 64 ->
  let code := create_thread_code G pb rb s c pa in
  exists s', do_call G c (CCreateThread t pa) s = (s', Some code) /\
    (code <> 0 -> same_machine s s') /\
    (code = 0 -> same_machine (put s (lock_addr G (own_region G pb rb s c)) 1) s').
Proof.
  intros G pb rb s c t pa g CL C HP code. unfold do_call. cbn [call_prog].
  unfold code, create_thread, create_thread_code. clear code. rewrite (dram_page G).
  assert (no : forall w, w <> 0 -> (w <> 0 -> same_machine s s) /\
    (w = 0 -> same_machine (put s (lock_addr G (own_region G pb rb s c)) 1) s)).
  { intros w W0. split; [intros _; apply sm_refl|]. intros; contradiction. }
  destruct (is_page_aligned pa) eqn:PA; cbn [negb andb orb].
  2:{ rewrite andb_false_r. cbn [negb orb]. exists s. split; [reflexivity|apply no; discriminate]. }
  destruct (is_dram_address G pa) eqn:PD; cbn [negb andb orb].
  2:{ exists s. split; [reflexivity|apply no; discriminate]. }
  unfold is_dram_address in PD. cbv zeta. change thread_metadata_size with 552.
  assert (AL : pa mod 4096 = 0) by (apply page_aligned_iff; auto).
  change (2 ^ 64) with W64 in *.
  assert (P4 : pa + 4096 <= W64) by (unfold W64 in *; lia).
  rewrite (wadd_small pa 552) by lia. rewrite (wsub_small (pa + 552) 1) by lia.
  assert (EQ : is_dram_address G (pa + 552 - 1) = negb (g_dram_size G <? pa + 552)).
  { unfold is_dram_address. lia. }
  rewrite EQ, negb_involutive.
  destruct (g_dram_size G <? pa + 552); [exists s; split; [reflexivity|apply no; discriminate]|].
  assert (CE : run c (current_enclave G) s = (s, Some (enclave_of G s c))).
  { unfold current_enclave, current_core_info. cbn [bind op1 run step]. rewrite run_load64.
    rewrite (caddr G pb rb g) by (auto; reflexivity). change ci_enclave_id with 0.
    rewrite N.add_0_r. reflexivity. }
  rewrite run_bind, CE. cbv zeta. rewrite !(region_for_spec G pb rb g).
  fold (own_region G pb rb s c). set (q := own_region G pb rb s c).
  assert (Q : q < g_dram_region_count G) by apply (region_lt' G pb rb g).
  rewrite run_bind, (run_tas G pb rb g) by exact Q.
  assert (LK : negb (lock_of G s q =? 0) = is_locked G s q).
  { unfold is_locked. destruct (CL q Q) as [-> | ->]; reflexivity. }
  rewrite LK. destruct (is_locked G s q) eqn:L.
  { exists (taken_lock G s q). split; [reflexivity|]. split; [|discriminate]. intros _.
    apply put_same. unfold is_locked in L. apply N.eqb_eq in L. exact L. }
  assert (L0 : lock_of G s q = 0).
  { unfold is_locked in L. apply N.eqb_neq in L. destruct (CL q Q); [auto|contradiction]. }
  assert (BACK : same_machine s (freed_lock G (taken_lock G s q) q)).
  { apply sm_trans with (put s (lock_addr G q) 0).
    - apply put_same. exact L0.
    - apply put_put; reflexivity. }
  assert (RN : region_of pb rb pa < 2 ^ 60).
  { pose proof (region_lt' G pb rb g pa). pose proof (layout _ _ _ g) as LY.
    change (2 ^ 60) with 1152921504606846976. change (2 ^ 31) with 2147483648 in LY. lia. }
  rewrite run_bind, read_bit_any by exact RN.
  assert (BIT : N.testbit (ld 8 (s_mem (taken_lock G s q))
      ((enclave_region_bitmap (enclave_of G s c) + 8 * (region_of pb rb pa / 64)) mod W64))
      (region_of pb rb pa mod 64) = own_bit G pb rb s c (region_of pb rb pa)).
  { unfold own_bit. cbv zeta. change (2 ^ 64) with W64. unfold word, taken_lock. fold q.
    f_equal. f_equal. unfold enclave_region_bitmap, wadd. change enclave_info_t_size with 304.
    rewrite N.add_mod_idemp_l by discriminate. reflexivity. }
  rewrite BIT. destruct (own_bit G pb rb s c (region_of pb rb pa)); cbn [negb].
  2:{ exists (freed_lock G (taken_lock G s q) q). split; [|split; [auto|discriminate]].
      rewrite run_bind, (run_clr G pb rb g) by exact Q. reflexivity. }
  cbn [thread_pages]. destruct (N.ltb_spec pa (pa + 552)); [|lia].
  rewrite (region_for_spec G pb rb g), N.eqb_refl. cbn [negb]. rewrite page_size_val.
  destruct (N.eqb_spec (pa + 4096) W64) as [E|E].
  - assert (W0 : wadd pa 4096 = 0) by (unfold wadd; rewrite E; reflexivity).
    rewrite W0. destruct (N.ltb_spec 0 (pa + 552)); [|lia].
    rewrite (region_for_spec G pb rb g). rewrite (region0_low pb rb 0) by apply pow2_pos.
    assert (NZ : region_of pb rb pa <> 0).
    { replace pa with (W64 - 4096) by lia. apply top_page_region;
        [pose proof (geo_pb _ _ _ g); lia|apply (geo_rb _ _ _ g)]. }
    replace (0 =? region_of pb rb pa) with false by lia. cbn [negb bind].
    exists (freed_lock G (taken_lock G s q) q). split; [|split; [auto|discriminate]].
    rewrite run_bind, (run_clr G pb rb g) by exact Q. reflexivity.
  - rewrite wadd_small by lia. replace (pa + 4096 <? pa + 552) with false by lia. cbn [bind].
    exists (taken_lock G s q). split; [reflexivity|]. split; [intros X; exfalso; apply X; reflexivity|].
    intros _. apply sm_refl.
Qed.
(** On core 1 the enclave asks for threads, on core 0 the OS: its record would be the
    monitor's own memory, where the word of region 6's lock is taken for its bitmap. *)
Example C61_thread_example : let s := ex_running in
  let s2 := put s (lock_addr ex_G 6) 1 in
  clean_locks ex_G s /\ clean_locks ex_G s2 /\
  create_thread_code ex_G 6 4 s 1 (page_addr 6 4 3 0) = 0 /\
  create_thread_code ex_G 6 4 s 1 (page_addr 6 4 4 0) = 2 /\
  create_thread_code ex_G 6 4 s 1 (page_addr 6 4 3 0 + 8) = 1 /\
  create_thread_code ex_G 6 4 (put s (lock_addr ex_G 5) 1) 1 (page_addr 6 4 3 0) = 3 /\
  enclave_of ex_G s2 0 = 0 /\ lock_addr ex_G 6 = 304 /\
  create_thread_code ex_G 6 4 s2 0 0 = 0 /\ create_thread_code ex_G 6 4 s 0 0 = 2.
Proof.
  do 2 (split; [apply clean_iff; vm_compute; reflexivity|]).
  do 7 (split; [vm_compute; reflexivity|]). vm_compute; reflexivity.
Qed.

Definition P_Thread_theorems := (C61_create_thread, C61_thread_example).
Print Assumptions P_Thread_theorems.
