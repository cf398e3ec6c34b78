(** * Property C63: the region calls on every machine state, including states in
    which enclaves run and own regions. *)
From Coq Require Import NArith ZArith Lia Bool List.
From Coq Require Import ZifyBool ZifyNat ZifyN.
From Verif Require Import Word Machine ModelBare ModelHash ModelInl ModelRegions
  ModelMetadata ModelEnclave ModelBoot ModelApi Lib BareProofs SpecGeometry
  GeomProofs SpecMonitor SpecHistory SpecMetadata
  ViewProofs SeqProofs SeqCalls SeqCalls2 SeqCalls3 SeqCalls5 SeqCalls6
  HistoryProofs HistoryFacts MetaProofs P_Boot P_Regions P_Metadata P_Enclave P_Inside
  SpecContract ContractProofs ContractProofs2 P_Contract.
Import ListNotations.
Open Scope N_scope.
Ltac Zify.zify_post_hook ::= Z.div_mod_to_equations.

(** ** C63: queries *)
Theorem C63_queries : forall G pb rb s c r,
  geom G pb rb -> clean_locks G s -> c < g_core_count G ->
  (exists s', do_call G c (CRegionState r) s = (s', Some (region_state_code G s r)) /\ same_machine s s') /\
  (exists s', do_call G c (CRegionOwner r) s = (s', Some (region_owner_code G s r)) /\ same_machine s s') /\
  (exists s', do_call G c (CCheckOwnership r) s = (s', Some (check_ownership_code G s c r)) /\ same_machine s s').
Proof.
  intros G pb rb s c r g CL C. split; [|split].
  - exact (only_run G pb rb g s c _ _ (region_state_wp G pb rb g s c CL r)).
  - exact (only_run G pb rb g s c _ _ (region_owner_wp G pb rb g s c CL r)).
  - exact (only_run G pb rb g s c _ _ (check_ownership_wp G pb rb g s c CL r C)).
Qed.

(** ** C63: free *)
Theorem C63_free : forall G pb rb s c r,
  geom G pb rb -> clean_locks G s ->
  let code := free_code G s r in
  exists s', do_call G c (CFree r) s = (s', Some code) /\
    (code <> 0 -> same_machine s s') /\
    (code = 0 -> same_machine (freed_state G s r) s').
Proof.
  intros G pb rb s c r g CL code.
  destruct (free_wp G pb rb g s c CL r s (view_of_view G s)) as [s' [v [o' [R [V [EV [F S]]]]]]].
  exists s'. unfold do_call. cbn [call_prog]. rewrite R. fold code in EV. subst v.
  split; [reflexivity|]. split.
  - intros NZ. exact (oeq_view_same G pb rb g s s' _ o' (view_of_view G s) V (F NZ)).
  - intros Z. refine (oeq_view_same G pb rb g _ s' _ o' _ V (S Z)).
    apply (v_put_owner G pb rb g); [apply view_of_view| |reflexivity].
    unfold code, free_code in Z. destruct (N.ltb_spec r (g_dram_region_count G)); [auto|discriminate].
Qed.

(** ** C63: create_metadata_region *)
Theorem C63_create_metadata_region : forall G pb rb s c r,
  geom G pb rb -> clean_locks G s -> r <> 0 ->
  let code := create_metadata_code G s r in
  let map := stripe_start pb rb r 0 in
  exists s', do_call G c (CCreateMetadataRegion r) s = (s', Some code) /\
    (code <> 0 -> same_machine s s') /\
    (code = 0 -> same_registers s s' /\ owner_of G s' r = 2 /\ pinned_of G s' r = 0 /\
       (forall b, bytes_of map (4096 * g_metadata_region_start G) b -> s_mem s' b mod 256 = 0) /\
       (forall b, ~ bytes_of map (4096 * g_metadata_region_start G) b ->
          ~ bytes_of (lock_addr G r + 8) 8 b -> ~ bytes_of (lock_addr G r + 24) 8 b ->
          s_mem s' b mod 256 = s_mem s b mod 256)).
Proof.
  intros G pb rb s c r g CL R0 code map.
  destruct (create_metadata_wp G pb rb g s c CL r R0 s (view_of_view G s)) as [s' [v [o' [R [V [EV [F S]]]]]]].
  exists s'. unfold do_call. cbn [call_prog]. rewrite R. fold code in EV. subst v.
  split; [reflexivity|]. split.
  - intros NZ. exact (oeq_view_same G pb rb g s s' _ o' (view_of_view G s) V (F NZ)).
  - intros Z. destruct (S Z) as [m [E [ZM FM]]].
    assert (RN : r < g_dram_region_count G).
    { unfold code, create_metadata_code in Z. destruct (N.ltb_spec r (g_dram_region_count G)); [auto|discriminate]. }
    pose proof (stripe_high G pb rb g r 0 ltac:(lia)) as SH.
    set (t := put (put s (lock_addr G r + 8) 2) (lock_addr G r + 24) 0).
    assert (VT : view G t (with_pinned (with_owner (view_of G s) r 2) r 0)).
    { apply (v_set_pinned _ _ _ g); auto; [reflexivity|]. apply (v_set_owner _ _ _ g); auto; [reflexivity|].
      apply view_of_view. }
    set (m' := fun b => if (map <=? b) && (b <? map + 4096 * g_metadata_region_start G) then 0 else s_mem t b).
    pose proof (layout _ _ _ g) as (L1 & L2 & L3 & L4 & L5 & L6 & L7 & L8).
    assert (VM : view G (set_mem t m') (with_rest (with_pinned (with_owner (view_of G s) r 2) r 0) m)).
    { assert (V1 : view G (set_mem t m') (with_rest (with_pinned (with_owner (view_of G s) r 2) r 0) m')).
      { apply (v_set_rest _ _ _ g); [exact VT|]. intros b NR. unfold byte, m'.
        destruct (N.leb_spec map b); [exfalso; apply NR, (rest_high G pb rb g); unfold map in *; lia|reflexivity]. }
      destruct V1; constructor; auto. intros b RB. rewrite v_rest by auto. cbn [o_rest with_rest].
      unfold byte at 1. unfold m'.
      destruct (N.leb_spec map b); cbn [andb]; [destruct (N.ltb_spec b (map + 4096 * g_metadata_region_start G))|];
        unfold map in *.
      - rewrite ZM by lia. reflexivity.
      - rewrite FM by lia. exact (ViewProofs.v_rest _ _ _ VT b RB).
      - rewrite FM by lia. exact (ViewProofs.v_rest _ _ _ VT b RB). }
    pose proof (oeq_view_same G pb rb g _ s' _ o' VM V E) as SM.
    assert (BM : forall b, s_mem s' b mod 256 = m' b mod 256) by (intros b; apply (sm_mem _ _ SM)).
    assert (LT : forall a, a + 8 <= g_monitor_top G -> ld 8 (s_mem s') a = ld 8 (s_mem t) a).
    { intros a A. apply ld_byte. intros b B1 B2. change (N.of_nat 8) with 8 in B2.
      unfold byte. rewrite BM. unfold m'. unfold map. destruct (N.leb_spec (stripe_start pb rb r 0) b); [lia|reflexivity]. }
    split; [|split; [|split; [|split]]].
    + destruct SM. unfold same_registers. cbn [s_cores s_words s_dmar_base s_dmar_mask s_dma_start s_dma_end set_mem] in *.
      repeat split; auto.
    + unfold owner_of. rewrite LT by lia. unfold t, put. cbn [set_mem s_mem].
      rewrite ld_st_other by (unfold lock_addr; change (N.of_nat 8) with 8; lia). apply ld8_st8. reflexivity.
    + unfold pinned_of. rewrite LT by lia. unfold t, put. cbn [set_mem s_mem].
      apply ld8_st8. reflexivity.
    + intros b B. rewrite BM. unfold m', bytes_of in *.
      destruct (N.leb_spec map b); [|lia]. destruct (N.ltb_spec b (map + 4096 * g_metadata_region_start G)); [reflexivity|lia].
    + intros b B1 B2 B3. rewrite BM. unfold m', bytes_of in *.
      destruct (N.leb_spec map b); cbn [andb]; [destruct (N.ltb_spec b (map + 4096 * g_metadata_region_start G)); [lia|]|];
      unfold t, put; cbn [set_mem s_mem]; rewrite !st_out by (change (N.of_nat 8) with 8; lia); reflexivity.
Qed.

(** ** C63: block, assign, flush *)
Lemma view_creg G t o1 c cr : view G t o1 -> view G (set_creg t c cr) (with_regs o1 c cr).
Proof.
  intros V. destruct V. constructor; cbn -[ld st]; intros; auto. unfold upd. destruct (c0 =? c); auto.
Qed.
Lemma loaded_machine G pb rb s c s' o' id t o1 : geom G pb rb -> view G s' o' ->
  view G t o1 -> loaded G s c id o1 o' -> g_dram_region_bitmap_words G <= s_words s ->
  record_id G id -> (forall c0, s_cores t c0 = s_cores s c0) ->
  s_words t = s_words s -> s_dmar_base t = s_dmar_base s -> s_dmar_mask t = s_dmar_mask s ->
  s_dma_start t = s_dma_start s -> s_dma_end t = s_dma_end s ->
  same_memory t s' /\ same_others c s s' /\ loads_access G c id s s'.
Proof.
  intros g V' V [d [D E]] WS RI TC TW TB TM T1 T2.
  set (r := o_regs (view_of G s) c) in *. change (o_regs (view_of G s) c) with (s_cores s c) in r.
  set (cr := if id =? 0
      then mkCregs d (r_edrb r) (r_par_base r) (r_par_mask r) (r_cache_shift r) (r_tlb_flushes r)
      else mkCregs (r_drb r) d (r_par_base r) (r_par_mask r) (r_cache_shift r) (r_tlb_flushes r)) in *.
  assert (VT : view G (set_creg t c cr) (with_regs o1 c cr)).
  { apply view_creg. exact V. }
  pose proof (oeq_view_same G pb rb g _ s' _ o' VT V' E) as SM.
  assert (MEM : same_memory t s') by (intros b; apply (sm_mem _ _ SM)).
  assert (CC : s_cores s' c = cr).
  { rewrite (sm_cores _ _ SM). cbn [set_creg s_cores]. unfold upd. rewrite N.eqb_refl. reflexivity. }
  split; [exact MEM|]. split.
  - destruct SM. cbn [set_creg s_cores s_words s_dmar_base s_dmar_mask s_dma_start s_dma_end] in *.
    repeat split; try congruence.
    intros c' NC. rewrite sm_cores. unfold upd. destruct (N.eqb_spec c' c); [contradiction|apply TC].
  - pose proof (layout _ _ _ g) as (L1 & L2 & L3 & L4 & L5 & L6 & L7 & L8).
    unfold loads_access. cbv zeta. rewrite CC. unfold cr.
    assert (LD : forall a, ld 8 (s_mem s') a = ld 8 (s_mem t) a).
    { intros a. apply ld_byte. intros b _ _. apply MEM. }
    split; [|destruct (id =? 0); auto 10].
    intros j J. specialize (D j J WS). unfold region_bit, bit_word, word, drb_bit, edrb_bit.
    destruct (N.eqb_spec id 0) as [I0|I0]; cbn [r_drb r_edrb]; rewrite D.
    + rewrite <- (v_bit _ _ _ V) by lia. rewrite bit_at_word. rewrite LD. reflexivity.
    + f_equal. rewrite LD. symmetry. apply ld_byte. intros b B1 B2. change (N.of_nat 8) with 8 in B2.
      destruct RI as [X|[R1 R2]]; [contradiction|].
      apply (v_rest _ _ _ V), (rest_high G pb rb g). lia.
Qed.

(** A blocked region: owner 1, the previous owner noted, the clock advanced by one
    and its old value noted, the bit in the owner's bitmap cleared, and the owner's
    access register on this core reloaded from the bitmap. *)
Theorem C63_block : forall G pb rb s c r,
  geom G pb rb -> clean_locks G s -> c < g_core_count G ->
  record_id G (enclave_of G s c) -> s_dma_start s <= s_dma_end s ->
  g_dram_region_bitmap_words G <= s_words s ->
  let code := block_code G pb rb s c r in
  exists s', do_call G c (CBlock r) s = (s', Some code) /\
    (code <> 0 -> same_machine s s') /\
    (code = 0 -> same_memory (blocked_state G s r) s' /\ same_others c s s' /\
       loads_access G c (owner_of G s r) s s').
Proof.
  intros G pb rb s c r g CL C RI DMA WS code.
  destruct (block_wp G pb rb g s c CL r C RI DMA s (view_of_view G s)) as [s' [v [o' [R [V [EV [F S]]]]]]].
  exists s'. unfold do_call. cbn [call_prog]. rewrite R. fold code in EV. subst v.
  split; [reflexivity|]. split.
  - intros NZ. exact (oeq_view_same G pb rb g s s' _ o' (view_of_view G s) V (F NZ)).
  - intros Z. specialize (S Z).
    assert (RN : r < g_dram_region_count G /\ owner_of G s r = enclave_of G s c).
    { unfold code, block_code in Z. cbv zeta in Z. destruct (is_dynamic G r) eqn:DY; [|discriminate].
      cbn [negb] in Z. destruct (is_locked G s r); [discriminate|].
      destruct (N.eqb_spec (owner_of G s r) (enclave_of G s c)); [|discriminate].
      split; [unfold is_dynamic in DY; lia|auto]. }
    destruct RN as [RN OE]. rewrite <- OE in RI.
    assert (OB : owner_of G s r < W64) by apply ld8_bound.
    assert (KB : clock_of G s < W64) by apply ld8_bound.
    refine (loaded_machine G pb rb s c s' o' (owner_of G s r) (blocked_state G s r)
      (blocked_ost G s r) g V _ S WS RI _ _ _ _ _ _); try reflexivity.
    unfold blocked_state. cbv zeta.
    set (own := owner_of G s r) in *. set (k := clock_of G s) in *.
    assert (VB := v_put_bit G pb rb g c
      (put (put (put (put s (lock_addr G r + 16) own) (lock_addr G r + 8) 1) (g_dram_regions G) ((k + 1) mod 2 ^ 64))
           (lock_addr G r + 32) k)
      (with_blocked (with_clock (with_owner (with_prev (view_of G s) r own) r 1) (wadd k 1)) r k)
      own r false).
    assert (X : view G
         (put (put (put (put s (lock_addr G r + 16) own) (lock_addr G r + 8) 1)
               (g_dram_regions G) ((k + 1) mod 2 ^ 64)) (lock_addr G r + 32) k)
         (with_blocked (with_clock (with_owner (with_prev (view_of G s) r own) r 1) (wadd k 1)) r k)).
    { apply (v_put_blocked G pb rb g); auto.
      apply (v_put_clock G pb rb g); [|apply N.mod_lt; discriminate].
      apply (v_put_owner G pb rb g); auto; [|reflexivity].
      apply (v_put_prev G pb rb g); auto. apply view_of_view. }
    specialize (VB X RN RI OB). unfold blocked_ost. cbv zeta. fold own k.
    destruct (own =? 0); exact VB.
Qed.

(** An assigned region: the new owner, and its bit set.  The access register of this
    core is reloaded if the OS gets the region; if an enclave gets it, no register
    changes. *)
Theorem C63_assign : forall G pb rb s c r id,
  geom G pb rb -> clean_locks G s -> record_id G id -> id < 2 ^ 64 ->
  g_dram_region_bitmap_words G <= s_words s ->
  let code := assign_code G pb rb s r id in
  exists s', do_call G c (CAssign r id) s = (s', Some code) /\
    (code <> 0 -> same_machine s s') /\
    (code = 0 -> same_memory (assigned_state G s r id) s' /\ same_others c s s' /\
       (id = 0 -> loads_access G c 0 s s') /\ (id <> 0 -> s_cores s' c = s_cores s c)).
Proof.
  intros G pb rb s c r id g CL RI IB WS code.
  destruct (assign_wp G pb rb g s c CL r id RI IB s (view_of_view G s)) as [s' [v [o' [R [V [EV [F S]]]]]]].
  exists s'. unfold do_call. cbn [call_prog]. rewrite R. fold code in EV. subst v.
  split; [reflexivity|]. split.
  - intros NZ. exact (oeq_view_same G pb rb g s s' _ o' (view_of_view G s) V (F NZ)).
  - intros Z. specialize (S Z).
    assert (RN : r < g_dram_region_count G).
    { unfold code, assign_code in Z. destruct (N.ltb_spec r (g_dram_region_count G)); [auto|discriminate]. }
    assert (VA : view G (assigned_state G s r id) (assigned_ost G s r id)).
    { unfold assigned_state, assigned_ost. cbv zeta.
      refine (v_put_bit G pb rb g c (put s (lock_addr G r + 8) id) (with_owner (view_of G s) r id) id r true _ RN RI IB).
      apply (v_put_owner G pb rb g); auto. apply view_of_view. }
    destruct (N.eqb_spec id 0) as [I0|I0].
    + destruct (loaded_machine G pb rb s c s' o' id (assigned_state G s r id)
        (assigned_ost G s r id) g V VA S WS RI) as [A [B D]]; try reflexivity.
      split; [exact A|]. split; [exact B|]. split; [intros _; rewrite <- I0; exact D|contradiction].
    + pose proof (oeq_view_same G pb rb g _ s' _ o' VA V S) as SM.
      split; [intros b; apply (sm_mem _ _ SM)|]. split; [|split; [intros; contradiction|]].
      * destruct SM. unfold same_others. split; [intros c' _; apply sm_cores|]. auto 10.
      * intros _. apply (sm_cores _ _ SM).
Qed.

(** A flush notes the clock as the core's flush time and flushes its TLB once. *)
Theorem C63_flush : forall G pb rb s c,
  geom G pb rb -> c < g_core_count G ->
  exists s', do_call G c CFlush s = (s', Some 0) /\
    same_memory (put s (g_core G + 32 * c + 24) (clock_of G s)) s' /\ same_others c s s' /\
    let r := s_cores s c in
    s_cores s' c = mkCregs (r_drb r) (r_edrb r) (r_par_base r) (r_par_mask r) (r_cache_shift r)
                     (r_tlb_flushes r + 1).
Proof.
  intros G pb rb s c g C.
  destruct (flush_wp G pb rb g s c C s (view_of_view G s)) as [s' [v [o' [R [V [EV E]]]]]].
  exists s'. unfold do_call. cbn [call_prog]. rewrite R. subst v. split; [reflexivity|].
  assert (KB : clock_of G s < W64) by apply ld8_bound.
  assert (VF : view G (set_creg (put s (g_core G + 32 * c + 24) (clock_of G s)) c (flushed_regs s c))
     (with_regs (with_flushed (view_of G s) c (clock_of G s)) c (flushed_regs s c))).
  { assert (X : view G (put s (g_core G + 32 * c + 24) (clock_of G s)) (with_flushed (view_of G s) c (clock_of G s))).
    { apply (v_set_flushed _ _ _ g); auto. apply view_of_view. }
    apply view_creg. exact X. }
  pose proof (oeq_view_same G pb rb g _ s' _ o' VF V E) as SM.
  split; [intros b; apply (sm_mem _ _ SM)|]. split.
  - destruct SM. unfold same_others. split; [|auto 10].
    intros c' NC. rewrite sm_cores. cbn [set_creg s_cores put set_mem]. unfold upd.
    destruct (N.eqb_spec c' c); [contradiction|reflexivity].
  - cbv zeta. rewrite (sm_cores _ _ SM). cbn [set_creg s_cores]. unfold upd. rewrite N.eqb_refl. reflexivity.
Qed.

(** Core 1 runs the enclave of C61, which owns regions 3 and 5; region 7 is free. *)
Definition ex_shared : state := put ex_running (lock_addr ex_G 7 + 8) 3.
Example C63_example : let s := ex_shared in
  geom ex_G 6 4 /\ clean_locks ex_G s /\ record_id ex_G (enclave_of ex_G s 1) /\
  record_id ex_G ex_encl /\
  s_dma_start s <= s_dma_end s /\ g_dram_region_bitmap_words ex_G <= s_words s /\
  (* the enclave blocks one region of its two, but not the one of its record;
     the OS can block neither *)
  block_code ex_G 6 4 s 1 3 = 0 /\ block_code ex_G 6 4 s 1 5 = 3 /\
  block_code ex_G 6 4 s 0 3 = 4 /\ block_code ex_G 6 4 s 1 4 = 4 /\ block_code ex_G 6 4 s 0 4 = 0 /\
  block_code ex_G 6 4 (put s (lock_addr ex_G 3 + 24) 1) 1 3 = 2 /\
  (* it can be given the free region *)
  assign_code ex_G 6 4 s 7 ex_encl = 0 /\ assign_code ex_G 6 4 s 7 0 = 0 /\
  assign_code ex_G 6 4 s 3 0 = 2 /\ assign_code ex_G 6 4 s 7 (ex_encl + 4096) = 1 /\
  assign_code ex_G 6 4 (put s (lock_addr ex_G 5) 1) 7 ex_encl = 3 /\
  create_metadata_code ex_G s 7 = 0 /\ create_metadata_code ex_G s 3 = 2 /\
  region_owner_code ex_G s 3 = ex_encl /\ region_state_code ex_G s 3 = 4 /\
  check_ownership_code ex_G s 1 3 = 0 /\ check_ownership_code ex_G s 0 3 = 2 /\
  free_code ex_G s 3 = 2 /\ free_code ex_G (put s (lock_addr ex_G 3 + 8) 1) 3 = 0 /\
  free_code ex_G (put (put s (lock_addr ex_G 3 + 8) 1) (lock_addr ex_G 3 + 32) 9) 3 = 2.
Proof.
  split; [apply (started_geom _ _ _ _ _ _ ex_started)|].
  split; [apply clean_iff; vm_compute; reflexivity|].
  split; [right; split; vm_compute; discriminate|].
  split; [right; split; vm_compute; discriminate|].
  do 2 (split; [vm_compute; discriminate|]).
  do 19 (split; [vm_compute; reflexivity|]). vm_compute; reflexivity.
Qed.

Definition P_Contract2_theorems := (C63_queries, C63_free, C63_create_metadata_region,
  C63_block, C63_assign, C63_flush, C63_example).
Print Assumptions P_Contract2_theorems.
