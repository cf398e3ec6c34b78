(** * Properties C58-C62: the enclave calls on every machine state.

    The statements quantify over arbitrary memory contents: the only hypotheses
    are that the globals describe a supported geometry, that every region lock
    holds 0 or 1, and that an enclave identifier's record does not overlap the
    monitor's tables.  Every state reachable from boot satisfies them
    ([reachable_clean]); states in which enclaves own regions do, too. *)
From Coq Require Import NArith ZArith Lia Bool List.
From Coq Require Import ZifyBool ZifyNat ZifyN.
From Verif Require Import Word Machine ModelBare ModelHash ModelInl ModelRegions
  ModelMetadata ModelEnclave ModelBoot ModelApi Lib BareProofs BootProofs SpecSha256 HashProofs
  SpecMeasure MeasureProofs SpecGeometry
  GeomProofs SpecMonitor SpecHistory SpecMetadata
  ViewProofs SeqProofs SeqCalls SeqCalls2 SeqCalls3 SeqCalls4 SeqCalls5 SeqCalls6
  HistoryProofs HistoryFacts MetaProofs P_Boot P_Regions P_Metadata P_Enclave P_Inside
  SpecContract ContractProofs ContractProofs2.
Import ListNotations.
Open Scope N_scope.
Ltac Zify.zify_post_hook ::= Z.div_mod_to_equations.

Theorem reachable_clean : forall P top pb rb G s,
  reachable P top pb rb G s -> geom G pb rb /\ clean_locks G s.
Proof.
  intros P top pb rb G s R. destruct (reach_shows _ _ _ _ _ _ R) as [g [HD [M K]]].
  split; [exact g|]. intros r Hr. rewrite (sh_lock _ _ _ K r Hr).
  destruct ((r =? 0) && m_stuck M); auto.
Qed.
Definition clean_b (G : globals) (s : state) : bool :=
  forallb (fun j => let l := lock_of G s (N.of_nat j) in (l =? 0) || (l =? 1))
    (seq 0 (N.to_nat (g_dram_region_count G))).
Lemma clean_iff G s : clean_b G s = true -> clean_locks G s.
Proof.
  unfold clean_b. rewrite forallb_forall. intros H r R.
  specialize (H (N.to_nat r)). rewrite N2Nat.id in H. cbv zeta in H.
  assert (In (N.to_nat r) (seq 0 (N.to_nat (g_dram_region_count G)))) by (apply in_seq; lia).
  specialize (H H0). lia.
Qed.

(** From views to states. *)
Lemma same_regs G s s' o' : view G s' o' ->
  (forall c, o_regs o' c = s_cores s c) -> o_words o' = s_words s ->
  o_dmar_base o' = s_dmar_base s -> o_dmar_mask o' = s_dmar_mask s ->
  o_dma_start o' = s_dma_start s -> o_dma_end o' = s_dma_end s -> same_registers s s'.
Proof.
  intros [] H1 H2 H3 H4 H5 H6. unfold same_registers. rewrite v_words, v_dmar_base, v_dmar_mask, v_dma_start, v_dma_end.
  repeat split; auto. intros c. rewrite v_regs. auto.
Qed.

(** ** C58 *)
Lemma low_mask_accepts k base va : k <= 64 -> base mod 2 ^ k = 0 ->
  N.land va (2 ^ k - 1) = base <-> base = 0 /\ va mod 2 ^ k = 0.
Proof.
  intros K B.
  replace (2 ^ k - 1) with (N.ones k) by (rewrite N.ones_equiv, N.pred_sub; reflexivity).
  rewrite N.land_ones. pose proof (N.mod_lt va (2 ^ k) (pow2_nz k)) as L.
  split.
  - intros E. rewrite <- E in B. rewrite N.mod_small in B by auto. rewrite <- E. auto.
  - intros [-> E]. exact E.
Qed.
(** An enclave's address range is [base, base + mask], with mask + 1 a power of two
    and base aligned to it (create_enclave checks both).  A page is accepted only if
    base is 0, and then only at multiples of the size of the range: not one page of
    an enclave with a non-zero base can be loaded, and page 0 of an enclave with
    base 0 has addresses outside the range that are accepted. *)
Theorem C58_va_check_refuted : forall G pb rb s c id pa va oa acl base mask s',
  geom G pb rb -> clean_locks G s -> record_ok G pb rb s id ->
  word s (id + 48) = base -> word s (id + 56) = mask -> pow2_range base mask ->
  do_call G c (CLoadPage id pa va oa acl) s = (s', Some 0) ->
  base = 0 /\ va mod (mask + 1) = 0.
Proof.
  intros G pb rb s c id pa va oa acl base mask s' g CL RI WB WM [k [K [MK BK]]] D.
  destruct (only_run G pb rb g s c _ _ (load_page_wp G pb rb g s c CL id pa va oa acl RI))
    as [s1 [D1 _]].
  unfold do_call in D. cbn [call_prog] in D. rewrite D in D1. injection D1 as _ D1.
  unfold load_page_code, loading_code in D1.
  destruct (negb (in_dram_page G pa) || negb (in_dram_page G oa)); [discriminate|].
  destruct (is_locked G s (main_region G pb rb id)); [discriminate|].
  destruct (negb (names_enclave G pb rb s id)); [discriminate|].
  destruct (negb (word s (id + 16) =? 0)); [discriminate|].
  destruct (pa <=? word s (id + 72)); [discriminate|].
  destruct (accepts_va s id va) eqn:AV; [|discriminate].
  unfold accepts_va in AV. apply N.eqb_eq in AV. rewrite WB, WM, MK in AV.
  apply low_mask_accepts in AV; auto. rewrite MK.
  pose proof (pow2_pos k). replace (2 ^ k - 1 + 1) with (2 ^ k) by lia. exact AV.
Qed.
(** Both directions on a concrete enclave: range [0x10000, 0x1ffff]; the page at
    0x10000 is refused.  With range [0, 0xffff], 0x50000 is accepted. *)
Lemma ex_ok s : owner_of ex_G s 0 = 0 -> forall id, record_ok ex_G 6 4 s id.
Proof.
  intros O id. apply (record_ok_os ex_G 6 4 (proj1 (started_geom _ _ _ _ _ _ ex_started))); [exact O|].
  vm_compute. discriminate.
Qed.
Definition ex_loading (base mask : N) : state :=
  put (put ex_own (ex_encl + 48) base) (ex_encl + 56) mask.
Example C58_example :
  let s1 := ex_loading 0x10000 0xffff in let s2 := ex_loading 0 0xffff in
  clean_locks ex_G s1 /\ (forall id, record_ok ex_G 6 4 s1 id) /\ pow2_range 0x10000 0xffff /\
  snd (do_call ex_G 0 (CLoadPage ex_encl (ex_encl + 4096) 0x10000 8192 7) s1) = Some 1 /\
  snd (do_call ex_G 0 (CLoadPage ex_encl (ex_encl + 4096) 0x50000 8192 7) s2) = Some 0.
Proof.
  split; [apply clean_iff; vm_compute; reflexivity|].
  split; [apply ex_ok; vm_compute; reflexivity|].
  split; [exact ex_range|]. split; vm_compute; reflexivity.
Qed.

(** ** C59: init_enclave *)
Theorem C59_init_enclave : forall G pb rb s c id,
  geom G pb rb -> clean_locks G s -> record_ok G pb rb s id ->
  let code := init_code G pb rb s id in
  exists s', do_call G c (CInitEnclave id) s = (s', Some code) /\
    (code <> 0 -> same_machine s s') /\
    (code = 0 ->
       changes_only (fun b => bytes_of (id + 16) 8 b \/ bytes_of (id + 80) 224 b) s s' /\
       word s' (id + 16) = 1 /\
       forall c0 h, measured c0 id s h -> 8 * N.of_nat (length (encode h)) < 2 ^ 32 ->
         words_at (s_mem s') (id + 80) 8 = measurement h).
Proof.
  intros G pb rb s c id g CL RI code.
  destruct (init_wp G pb rb g s c CL id RI s (view_of_view G s)) as [s' [v [o' [R [V [EV [F S]]]]]]].
  exists s'. unfold do_call. cbn [call_prog]. rewrite R. fold code in EV. subst v.
  split; [reflexivity|]. split.
  { intros NZ. exact (oeq_view_same G pb rb g s s' _ o' (view_of_view G s) V (F NZ)). }
  intros Z. destruct (S Z) as [m [E [B [W1 H]]]].
  assert (NE : names_enclave G pb rb s id = true).
  { unfold code, init_code, loading_code in Z. destruct (is_locked _ _ _); [discriminate|].
    destruct (names_enclave _ _ _ _ _); [reflexivity|discriminate]. }
  pose proof (named_record G pb rb s id RI NE) as [R1 R2]. change (2 ^ 64) with W64 in R2.
  assert (VM : view G (set_mem s m) (with_rest (view_of G s) m)).
  { apply (v_set_rest _ _ _ g); [apply view_of_view|]. intros b NR. apply B.
    - left. apply N.nle_gt. intros X. apply NR, (rest_high G pb rb g). lia.
    - left. apply N.nle_gt. intros X. apply NR, (rest_high G pb rb g). lia. }
  pose proof (oeq_view_same G pb rb g _ s' _ o' VM V E) as SM.
  assert (BM : forall b, byte (s_mem s') b = byte m b) by (intros b; apply (sm_mem _ _ SM)).
  assert (LM : forall a, ld 8 (s_mem s') a = ld 8 m a) by (intros a; apply ld_byte; intros; apply BM).
  split; [|split].
  - split.
    + destruct E. apply (same_regs G s s' o' V);
        cbn [with_rest view_of o_regs o_words o_dmar_base o_dmar_mask o_dma_start o_dma_end] in *; auto.
    + intros b NP. unfold bytes_of in NP. fold (byte (s_mem s') b) (byte (s_mem s) b).
      rewrite BM. apply B; lia.
  - unfold word. rewrite LM. exact W1.
  - intros c0 h M L. specialize (H c0 h M).
    assert (HW : hash_words (s_mem s') (id + 80) = hash_words m (id + 80)).
    { apply hash_words_ext. intros b Hb. apply BM. }
    change (words_at (s_mem s') (id + 80) 8) with (hash_words (s_mem s') (id + 80)).
    rewrite HW, H.
    pose proof (measured_inv c0 id s h ltac:(lia) M) as [[n [N _]] _].
    unfold measurement, sha256, sha256_32.
    unfold encode. rewrite (pad32_pad (enc_loaded h ++ enc_final) (n + 1)); auto.
    rewrite app_length, N. change (length enc_final) with 64%nat. lia.
Qed.

(** After that the enclave runs and can be neither initialised nor loaded again. *)
Theorem C59_lifecycle : forall G pb rb s c id s1,
  geom G pb rb -> clean_locks G s -> record_ok G pb rb s id ->
  do_call G c (CInitEnclave id) s = (s1, Some 0) ->
  (forall c' t, snd (do_call G c' (CEnterEnclave id t) s1) = Some 0) /\
  (forall c', snd (do_call G c' (CInitEnclave id) s1) = Some 2) /\
  (forall c' pa va oa acl v, snd (do_call G c' (CLoadPage id pa va oa acl) s1) = Some v -> v = 1 \/ v = 2) /\
  (forall c' pa va l acl v, snd (do_call G c' (CLoadPageTable id pa va l acl) s1) = Some v -> v = 1 \/ v = 2).
Proof.
  intros G pb rb s c id s1 g CL RI D.
  destruct (C59_init_enclave G pb rb s c id g CL RI) as [s' [D' [_ S]]].
  rewrite D in D'. injection D' as <- Z. symmetry in Z.
  destruct (S Z) as [[SR CH] [W1 _]].
  unfold init_code, loading_code in Z.
  destruct (is_locked G s (main_region G pb rb id)) eqn:L; [discriminate|].
  destruct (names_enclave G pb rb s id) eqn:NE; [|discriminate].
  pose proof (named_record G pb rb s id RI NE) as RA. pose proof RA as [R1 R2].
  assert (RI1 : record_ok G pb rb s1 id) by (intros _; exact RA). change (2 ^ 64) with W64 in R2.
  pose proof (layout _ _ _ g) as (L1 & L2 & L3 & L4 & L5 & L6 & L7 & L8).
  assert (LOW : forall a, a + 8 <= g_monitor_top G -> ld 8 (s_mem s1) a = ld 8 (s_mem s) a).
  { intros a A. apply ld_byte. intros b B1 B2. change (N.of_nat 8) with 8 in B2.
    apply CH. unfold bytes_of. lia. }
  assert (LK : forall r, r < g_dram_region_count G -> lock_of G s1 r = lock_of G s r).
  { intros r R. apply LOW. lia. }
  assert (OW : forall r, r < g_dram_region_count G -> owner_of G s1 r = owner_of G s r).
  { intros r R. apply LOW. lia. }
  assert (CL1 : clean_locks G s1) by (intros r R; rewrite LK by auto; apply CL; auto).
  pose proof (main_lt G pb rb g id) as MN.
  assert (L' : is_locked G s1 (main_region G pb rb id) = false).
  { unfold is_locked in *. rewrite LK by auto. exact L. }
  assert (NE' : names_enclave G pb rb s1 id = true).
  { unfold names_enclave in *. rewrite OW by auto. exact NE. }
  split; [|split; [|split]].
  - intros c' t.
    destruct (enter_wp G pb rb g s1 c' CL1 id t RI1 s1 (view_of_view G s1)) as [s2 [v [o2 [R [_ [EV _]]]]]].
    unfold do_call. cbn [call_prog]. rewrite R. cbn [snd]. f_equal. rewrite EV.
    unfold enter_code. rewrite L', NE', W1. reflexivity.
  - intros c'. destruct (C59_init_enclave G pb rb s1 c' id g CL1 RI1) as [s2 [D2 _]].
    rewrite D2. cbn [snd]. f_equal. unfold init_code, loading_code. rewrite L', NE', W1. reflexivity.
  - intros c' pa va oa acl v D2.
    destruct (only_run G pb rb g s1 c' _ _ (load_page_wp G pb rb g s1 c' CL1 id pa va oa acl RI1))
      as [s2 [D3 _]].
    unfold do_call in D2. cbn [call_prog] in D2. rewrite D3 in D2. cbn [snd] in D2. injection D2 as <-.
    unfold load_page_code, loading_code. rewrite L', NE', W1.
    destruct (_ || _); auto.
  - intros c' pa va l acl v D2.
    destruct (only_run G pb rb g s1 c' _ _ (load_page_table_wp G pb rb g s1 c' CL1 test_arch id pa va l acl RI1
       ltac:(cbn; lia) eq_refl)) as [s2 [D3 _]].
    unfold do_call in D2. cbn [call_prog] in D2. rewrite D3 in D2. cbn [snd] in D2. injection D2 as <-.
    unfold load_page_table_code, loading_code. rewrite L', NE', W1.
    destruct (_ || _); auto.
Qed.
Example C59_example : let s := ex_loading 0x10000 0xffff in
  clean_locks ex_G s /\ (forall id, record_ok ex_G 6 4 s id) /\ init_code ex_G 6 4 s ex_encl = 0 /\
  init_code ex_G 6 4 (put s (ex_encl + 16) 1) ex_encl = 2 /\
  init_code ex_G 6 4 (put s (lock_addr ex_G 5) 1) ex_encl = 3 /\
  init_code ex_G 6 4 s (ex_encl + 4096) = 1.
Proof.
  split; [apply clean_iff; vm_compute; reflexivity|].
  split; [apply ex_ok; vm_compute; reflexivity|].
  do 3 (split; [vm_compute; reflexivity|]). vm_compute; reflexivity.
Qed.

(** ** C60: the loading calls *)
Theorem C60_load_page : forall G pb rb s c id pa va oa acl,
  geom G pb rb -> clean_locks G s -> record_ok G pb rb s id ->
  exists s', do_call G c (CLoadPage id pa va oa acl) s =
      (s', Some (load_page_code G pb rb s id pa va oa)) /\ same_machine s s'.
Proof.
  intros G pb rb s c id pa va oa acl g CL RI.
  exact (only_run G pb rb g s c _ _ (load_page_wp G pb rb g s c CL id pa va oa acl RI)).
Qed.
(** Level [levels - 1] is the root of the page table tree; the test architecture
    has three levels, the hardware architecture is covered as well. *)
Theorem C60_load_page_table : forall arch G pb rb s c id pa va level acl,
  (1 <= pa_levels arch)%nat -> N.of_nat (pa_levels arch) < 2 ^ 64 ->
  geom G pb rb -> clean_locks G s -> record_ok G pb rb s id ->
  exists s', run c (load_page_table G arch id pa va level acl) s =
      (s', Some (load_page_table_code G pb rb s (N.of_nat (pa_levels arch)) id pa va level)) /\
    same_machine s s'.
Proof.
  intros arch G pb rb s c id pa va level acl L1 L2 g CL RI.
  exact (only_run G pb rb g s c _ _ (load_page_table_wp G pb rb g s c CL arch id pa va level acl RI L1 L2)).
Qed.
(** So a successful load neither copies the page, nor moves the loading position
    (offset 72), nor extends the measurement. *)
Theorem C60_nothing_loaded_refuted : forall G pb rb s c id pa va oa acl s',
  geom G pb rb -> clean_locks G s -> record_ok G pb rb s id ->
  do_call G c (CLoadPage id pa va oa acl) s = (s', Some 0) ->
  (forall b, s_mem s' b mod 256 = s_mem s b mod 256) /\
  word s' (id + 72) = word s (id + 72).
Proof.
  intros G pb rb s c id pa va oa acl s' g CL RI D.
  destruct (C60_load_page G pb rb s c id pa va oa acl g CL RI) as [s1 [D1 SM]].
  rewrite D in D1. injection D1 as <- _.
  split; [apply (sm_mem _ _ SM)|]. unfold word. apply ld_byte. intros b _ _. apply (sm_mem _ _ SM).
Qed.
Example C60_example : let s := ex_loading 0 0xffff in
  clean_locks ex_G s /\ (forall id, record_ok ex_G 6 4 s id) /\
  load_page_code ex_G 6 4 s ex_encl (ex_encl + 4096) 0x50000 8192 = 0 /\
  load_page_code ex_G 6 4 s ex_encl (ex_encl + 4097) 0x50000 8192 = 1 /\
  load_page_code ex_G 6 4 (put s (ex_encl + 72) (ex_encl + 4096)) ex_encl (ex_encl + 4096) 0x50000 8192 = 1 /\
  load_page_table_code ex_G 6 4 s 3 ex_encl (ex_encl + 4096) 0x50001 2 = 0 /\
  load_page_table_code ex_G 6 4 s 3 ex_encl (ex_encl + 4096) 0x50001 1 = 1 /\
  load_page_table_code ex_G 6 4 s 3 ex_encl (ex_encl + 4096) 0x50000 3 = 1 /\
  N.of_nat (pa_levels test_arch) = 3.
Proof.
  split; [apply clean_iff; vm_compute; reflexivity|].
  split; [apply ex_ok; vm_compute; reflexivity|].
  do 6 (split; [vm_compute; reflexivity|]). reflexivity.
Qed.

(** ** C61: entering, leaving, threads *)
Definition same_lock_set G r s s' := same_machine (put s (lock_addr G r) 1) s'.
Lemma locked_same G pb rb s s' o' r : geom G pb rb -> r < g_dram_region_count G -> view G s' o' ->
  locked_only G s r o' -> same_machine (put s (lock_addr G r) 1) s'.
Proof.
  intros g R V E. refine (oeq_view_same G pb rb g _ s' _ o' _ V E).
  apply (v_set_lock _ _ _ g); auto; [reflexivity|apply view_of_view].
Qed.
Theorem C61_enter_enclave : forall G pb rb s c id t,
  geom G pb rb -> clean_locks G s -> record_ok G pb rb s id ->
  let code := enter_code G pb rb s id in
  exists s', do_call G c (CEnterEnclave id t) s = (s', Some code) /\
    (code <> 0 -> same_machine s s') /\
    (code = 0 -> same_machine (put s (lock_addr G (main_region G pb rb id)) 1) s').
Proof.
  intros G pb rb s c id t g CL RI code.
  destruct (enter_wp G pb rb g s c CL id t RI s (view_of_view G s)) as [s' [v [o' [R [V [EV [F S]]]]]]].
  exists s'. unfold do_call. cbn [call_prog]. rewrite R. fold code in EV. subst v.
  split; [reflexivity|]. split.
  - intros NZ. exact (oeq_view_same G pb rb g s s' _ o' (view_of_view G s) V (F NZ)).
  - intros Z. apply (locked_same G pb rb s s' o'); auto. apply (main_lt G pb rb g).
Qed.
(** The lock of the enclave's main region stays taken after a successful entry, so
    every later call on that region, including another entry, is refused. *)
Theorem C61_entry_wedges_refuted : forall G pb rb s c id t s1,
  geom G pb rb -> clean_locks G s -> record_ok G pb rb s id ->
  do_call G c (CEnterEnclave id t) s = (s1, Some 0) ->
  forall c' t', snd (do_call G c' (CEnterEnclave id t') s1) = Some 3 /\
    snd (do_call G c' (CDeleteEnclave id) s1) = Some 3.
Proof.
  intros G pb rb s c id t s1 g CL RI D c' t'.
  destruct (C61_enter_enclave G pb rb s c id t g CL RI) as [s' [D' [_ S]]].
  rewrite D in D'. injection D' as <- Z. symmetry in Z. specialize (S Z).
  assert (RI1 : record_ok G pb rb s1 id).
  { intros _. apply RI. unfold enter_code in Z. destruct (is_locked _ _ _); [discriminate|].
    destruct (names_enclave G pb rb s id); [reflexivity|discriminate]. }
  pose proof (main_lt G pb rb g id) as MN. set (q := main_region G pb rb id) in *.
  assert (BM : forall a, ld 8 (s_mem s1) a = ld 8 (st 8 (s_mem s) (lock_addr G q) 1) a).
  { intros a. apply ld_byte. intros b _ _. apply (sm_mem _ _ S). }
  assert (LK : lock_of G s1 q = 1).
  { unfold lock_of. rewrite BM. apply ld8_st8. reflexivity. }
  assert (CL1 : clean_locks G s1).
  { intros r R. destruct (N.eq_dec r q) as [->|NR]; [auto|].
    unfold lock_of. rewrite BM. rewrite ld_st_other by (unfold lock_addr; change (N.of_nat 8) with 8; lia).
    apply CL; auto. }
  assert (IL : is_locked G s1 q = true) by (unfold is_locked; rewrite LK; reflexivity).
  split.
  - destruct (C61_enter_enclave G pb rb s1 c' id t' g CL1 RI1) as [s2 [D2 _]].
    rewrite D2. cbn [snd]. unfold enter_code. fold q. rewrite IL. reflexivity.
  - unfold do_call. cbn [call_prog]. unfold delete_enclave. cbv zeta.
    rewrite (main_val G pb rb g). fold q. rewrite run_bind.
    assert (T : exists s2, run c' (test_and_set_dram_region_lock G q) s1 = (s2, Some true)).
    { destruct (tas G pb rb g s1 c' CL1 q (fun b _ => b = true) MN IL s1 (view_of_view G s1))
        as [s2 [b [o2 [R [_ ->]]]]]. eauto. }
    destruct T as [s2 ->]. reflexivity.
Qed.
Theorem C61_exit_enclave : forall G pb rb s c,
  geom G pb rb -> clean_locks G s -> c < g_core_count G ->
  exists s', do_call G c CExitEnclave s = (s', Some 0) /\ same_machine s s'.
Proof.
  intros G pb rb s c g CL C. exact (only_run G pb rb g s c _ _ (exit_wp G s c C)).
Qed.
Theorem C61_delete_thread : forall G pb rb s c t,
  geom G pb rb -> clean_locks G s -> c < g_core_count G ->
  let code := delete_thread_code G pb rb s c in
  exists s', do_call G c (CDeleteThread t) s = (s', Some code) /\
    (code <> 0 -> same_machine s s') /\
    (code = 0 -> same_machine (put s (lock_addr G (own_region G pb rb s c)) 1) s').
Proof.
  intros G pb rb s c t g CL C code.
  destruct (delete_thread_wp G pb rb g s c CL t C s (view_of_view G s)) as [s' [v [o' [R [V [EV [F S]]]]]]].
  exists s'. unfold do_call. cbn [call_prog]. rewrite R. fold code in EV. subst v.
  split; [reflexivity|]. split.
  - intros NZ. exact (oeq_view_same G pb rb g s s' _ o' (view_of_view G s) V (F NZ)).
  - intros Z. apply (locked_same G pb rb s s' o'); auto. apply (region_lt' G pb rb g).
Qed.
(** Core 1 runs the example enclave, which owns regions 3 and 5. *)
Definition ex_running : state := put (put ex_own (ex_encl + 16) 1) (g_core ex_G + 32) ex_encl.
Example C61_example : let s := ex_running in
  clean_locks ex_G s /\ (forall id, record_ok ex_G 6 4 s id) /\ record_at ex_G (enclave_of ex_G s 1) /\
  enter_code ex_G 6 4 s ex_encl = 0 /\ enter_code ex_G 6 4 ex_own ex_encl = 2 /\
  enter_code ex_G 6 4 s (ex_encl + 4096) = 1 /\
  delete_thread_code ex_G 6 4 s 1 = 0 /\
  delete_thread_code ex_G 6 4 (put s (lock_addr ex_G 5) 1) 1 = 3.
Proof.
  split; [apply clean_iff; vm_compute; reflexivity|].
  split; [apply ex_ok; vm_compute; reflexivity|].
  split; [split; vm_compute; discriminate|].
  do 4 (split; [vm_compute; reflexivity|]). vm_compute; reflexivity.
Qed.

(** ** C62: delete_enclave *)
Theorem C62_bit_clear : forall G pb rb s c id,
  geom G pb rb -> clean_locks G s -> record_ok G pb rb s id ->
  (delete_enclave_code G pb rb s id = 0 -> enclave_bit s id (g_dram_region_count G) = false) ->
  exists s', do_call G c (CDeleteEnclave id) s =
      (s', Some (delete_enclave_code G pb rb s id)) /\ same_machine s s'.
Proof.
  intros G pb rb s c id g CL RI Z.
  exact (only_run G pb rb g s c _ _ (ContractProofs.delete_wp G pb rb g s c CL id RI Z)).
Qed.
(** A refused call changes nothing, whatever the enclave's record holds. *)
Theorem C62_refused : forall G pb rb s c id,
  geom G pb rb -> clean_locks G s -> record_ok G pb rb s id ->
  delete_enclave_code G pb rb s id <> 0 ->
  exists s', do_call G c (CDeleteEnclave id) s =
      (s', Some (delete_enclave_code G pb rb s id)) /\ same_machine s s'.
Proof.
  intros G pb rb s c id g CL RI NZ. apply C62_bit_clear; auto.
  intros Z. contradiction.
Qed.
Example C62_example : let s := ex_own in
  clean_locks ex_G s /\ (forall id, record_ok ex_G 6 4 s id) /\
  enclave_bit s ex_encl (g_dram_region_count ex_G) = false /\
  delete_enclave_code ex_G 6 4 s ex_encl = 0 /\
  delete_enclave_code ex_G 6 4 (put s (ex_encl + 32) 1) ex_encl = 2 /\
  delete_enclave_code ex_G 6 4 (put s (lock_addr ex_G 3) 1) ex_encl = 3 /\
  delete_enclave_code ex_G 6 4 (put s (lock_addr ex_G 4) 1) ex_encl = 0 /\
  delete_enclave_code ex_G 6 4 (put s (lock_addr ex_G 5) 1) ex_encl = 3 /\
  delete_enclave_code ex_G 6 4 s (ex_encl + 4096) = 1.
Proof.
  split; [apply clean_iff; vm_compute; reflexivity|].
  split; [apply ex_ok; vm_compute; reflexivity|].
  do 6 (split; [vm_compute; reflexivity|]). vm_compute; reflexivity.
Qed.

(** With that bit set, the loop frees and wipes every region up to the enclave's main
    one, whoever owns it, starting with the monitor's own.  The bit is in the
    enclave's record, past the bits create_enclave and assign_dram_region set.
    The state: enclave [e1] owns region 3, enclave [e2] region 2; deleting [e1] erases
    [e2]'s memory and all the tables of the monitor; the erased table says that [e1]'s
    region 9 is the OS's, although its contents were not wiped. *)
Definition e1 : N := page_addr 1 4 3 0.
Definition e2 : N := page_addr 1 4 2 0.
Definition ex_over : state := let G := small_G (2 ^ 18) in
  put (put (put (put (put (put (small_s0 (2 ^ 18)) (lock_addr G 3 + 8) e1) (lock_addr G 2 + 8) e2)
    (e1 + 304) (N.setbit 8 16)) (e2 + 4096) 77) (lock_addr G 9 + 8) e1)
    (page_addr 1 4 9 0) 99.
Theorem C62_foreign_regions_refuted :
  exists s', do_call (small_G (2 ^ 18)) 0 (CDeleteEnclave e1) ex_over = (s', Some 0) /\
    owner_of (small_G (2 ^ 18)) ex_over 2 = e2 /\ word ex_over (e2 + 4096) = 77 /\
    word s' (e2 + 4096) = 0 /\
    owner_of (small_G (2 ^ 18)) ex_over 9 = e1 /\ owner_of (small_G (2 ^ 18)) s' 9 = 0 /\
    word s' (page_addr 1 4 9 0) = 99 /\
    owner_of (small_G (2 ^ 18)) s' 2 = 3 /\ owner_of (small_G (2 ^ 18)) s' 3 = 3.
Proof.
  eexists. split; [apply call_val; vm_compute; reflexivity|].
  do 7 (split; [vm_compute; reflexivity|]). vm_compute; reflexivity.
Qed.

Definition P_Contract_theorems := (reachable_clean, C58_va_check_refuted, C58_example,
  C59_init_enclave, C59_lifecycle, C59_example, C60_load_page, C60_load_page_table,
  C60_nothing_loaded_refuted, C60_example, C61_enter_enclave, C61_entry_wedges_refuted,
  C61_exit_enclave, C61_delete_thread, C61_example,
  C62_bit_clear, C62_refused, C62_foreign_regions_refuted, C62_example).
Print Assumptions P_Contract_theorems.
