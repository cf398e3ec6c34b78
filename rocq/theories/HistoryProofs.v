(** * Every history refines the abstract machine. *)
From Coq Require Import NArith ZArith Lia Bool List.
From Coq Require Import ZifyBool ZifyNat ZifyN.
From Verif Require Import Word Machine ModelBare ModelHash ModelInl ModelRegions
  ModelMetadata ModelEnclave ModelBoot ModelApi Lib BareProofs BootProofs SpecGeometry
  GeomProofs SpecMonitor SpecHistory ViewProofs SeqProofs SeqCalls SeqCalls2
  SeqCalls3 SeqCalls4 SeqCalls5 SeqCalls6 SeqCalls7.
Import ListNotations.
Open Scope N_scope.
Ltac Zify.zify_post_hook ::= Z.div_mod_to_equations.

(** Equality of memories but for the bytes [lo, hi). *)
Definition same_but (lo hi : N) (s s' : state) : Prop :=
  (forall b, b < lo \/ hi <= b -> s_mem s' b mod 256 = s_mem s b mod 256) /\
  (forall c, s_cores s' c = s_cores s c) /\ s_words s' = s_words s /\
  s_dmar_base s' = s_dmar_base s /\ s_dmar_mask s' = s_dmar_mask s /\
  s_dma_start s' = s_dma_start s /\ s_dma_end s' = s_dma_end s.

Section Refine.
Variables (G : globals) (pb rb : N).
Hypothesis g : geom G pb rb.
Hypothesis HD : g_dram_size G + g_dram_stripe_size G <= W64.
Local Notation n := (g_dram_region_count G).
Local Notation eff := (effect pb rb (g_core_count G) (g_dram_size G)).

(** Calls that may fail with an effect: the thread calls may write 1 into an
    enclave lock word. *)
Definition lock_word (k : call) : option N :=
  match k with
  | CLoadThread id _ _ _ _ _ | CAssignThread id _ => Some id
  | _ => None
  end.
Definition fails (k : call) (v : N) : Prop :=
  match k with
  | CRegionState _ | CRegionOwner _ | CCheckOwnership _ | CExitEnclave => True
  | CAcceptThread _ _ => False
  | _ => v <> ok
  end.

(** What a call does to the memory outside the monitor's tables. *)
Definition frame_post (k : call) (M : mstate) (v : N) (o o' : ost) : Prop :=
  match k with
  | CCreateMetadataRegion r => v = ok ->
      (forall b, stripe_start pb rb r 0 <= b <
                 stripe_start pb rb r 0 + 4096 * g_metadata_region_start G ->
         byte (o_rest o') b = 0) /\
      (forall b, b < stripe_start pb rb r 0 \/
                 stripe_start pb rb r 0 + 4096 * g_metadata_region_start G <= b ->
         byte (o_rest o') b = byte (o_rest o) b)
  | CCreateEnclave id base mask mc d =>
      create_code G pb rb id base mask mc M (o_rest o) v /\
      (v = ok -> g_monitor_top G <= id /\
         created G id base mask mc d (o_rest o) (o_rest o'))
  | CCopyDebugPage e ea oa rd => v = ok ->
      e = 0 /\
      let dst := if rd then oa else ea in
      g_monitor_top G <= dst /\ region_of pb rb oa <> 0 /\
      m_owner M (region_of pb rb oa) = OS /\ m_owner M (region_of pb rb ea) = OS /\
      ea mod 4096 = 0 /\ oa mod 4096 = 0 /\
      (let src := if rd then ea else oa in g_monitor_top G <= src -> src <> dst ->
       forall j, j < 4096 -> byte (o_rest o') (dst + j) = byte (o_rest o) (src + j)) /\
      forall b, b < dst \/ dst + 4096 <= b -> byte (o_rest o') b = byte (o_rest o) b
  | CAcceptThread t a => forall b, ~ accept_bytes G t a b -> byte (o_rest o') b = byte (o_rest o) b
  | CLoadThread _ _ _ _ _ _ | CAssignThread _ _ => True
  | _ => rest_same o o'
  end.
Lemma created_ext id base mask mc d m0 m2 m2' :
  (forall b, byte m2' b = byte m2 b) ->
  created G id base mask mc d m0 m2 -> created G id base mask mc d m0 m2'.
Proof.
  intros E [F [m1 (A & B & C & D)]]. split; [exact F|]. exists m1. split; [exact A|].
  split; [exact B|]. split.
  - eapply fresh_ext; [exact C|]. intros b _. apply E.
  - intros b X. rewrite E. apply D. exact X.
Qed.

Definition ost_post (c : N) (k : call) (M : mstate) (o : ost) (v : N) (o' : ost) : Prop :=
  exists M', eff (ECall c k) v M M' /\ like G o' M' /\
   (fails k v -> match lock_word k with
                 | None => oeq o o'
                 | Some id => touched G id o o' end) /\
   frame_post k M v o o'.

Lemma touched_like id o o' M : like G o M -> touched G id o o' -> like G o' M.
Proof.
  intros K [E|[_ [_ [_ [_ E]]]]].
  - eapply like_ext; [exact E|auto].
  - eapply like_ext; [exact E|]. apply like_rest. auto.
Qed.

Lemma call_post c k o M : like G o M -> c < g_core_count G -> call_args_ok k ->
  seq_call G pb rb k -> wp G c (call_prog G k) o (ost_post c k M o).
Proof.
  intros K C A S.
  assert (RF : forall v o', v <> ok -> oeq o o' -> like G o' M)
    by (intros v o' _ E; eapply like_ext; [exact E|auto]).
  destruct k; cbn [call_prog]; unfold ost_post; cbn [effect lock_word fails frame_post];
    cbn [call_args_ok] in A.
  - eapply wp_weaken; [|apply (block_seq G pb rb g c dram_region o M K C)].
    cbv beta. intros v o' (V & L & Q). eexists. split; [|split; [exact L|exact Q]].
    rewrite V. destruct (block_table _ _ _ _ _); reflexivity.
  - eapply wp_weaken; [|apply (check_ownership_seq G pb rb g c dram_region o M K C)].
    cbv beta. intros v o' (V & E). exists M. split; [auto|]. split; [|split; [auto|exact (oe_rest _ _ E)]].
    eapply like_ext; eauto.
  - eapply wp_weaken; [|apply (region_state_seq G pb rb g c dram_region o M K)].
    cbv beta. intros v o' (V & E). exists M. split; [auto|]. split; [|split; [auto|exact (oe_rest _ _ E)]].
    eapply like_ext; eauto.
  - eapply wp_weaken; [|apply (region_owner_seq G pb rb g c dram_region o M K)].
    cbv beta. intros v o' (V & E). exists M. split; [auto|]. split; [|split; [auto|exact (oe_rest _ _ E)]].
    eapply like_ext; eauto.
  - destruct A as [A1 A2].
    eapply wp_weaken; [|apply (set_dma_seq G pb rb g c base mask o M K A1 A2 HD)].
    cbv beta. intros v o' (M' & T & L & Q). exists M'. auto.
  - eapply wp_weaken; [|apply (create_metadata_seq G pb rb g c dram_region o M K)].
    cbv beta. intros v o' ((V & L & Q) & F). eexists. split; [|split; [exact L|split; [exact Q|exact F]]].
    rewrite V. destruct (create_metadata_table _ _ _); reflexivity.
  - eapply wp_weaken; [|apply (assign_seq G pb rb g c dram_region new_owner o M K C)].
    cbv beta. intros v o' (V & L & Q). eexists. split; [|split; [exact L|exact Q]].
    rewrite V. destruct (assign_table _ _ _ _ _ _); reflexivity.
  - eapply wp_weaken; [|apply (free_seq G pb rb g c dram_region o M K)].
    cbv beta. intros v o' (V & L & Q). eexists. split; [|split; [exact L|exact Q]].
    rewrite V. destruct (free_table _ _ _ _); reflexivity.
  - eapply wp_weaken; [|apply (flush_seq G pb rb g c o M K C)].
    cbv beta. intros v o' X. exists (m_flush M c). split; [split; [apply X|reflexivity]|].
    split; [apply X|]. split; [intros Y; exfalso; apply Y; apply X|apply X].
  - destruct A as (A1 & A2 & A3 & A4).
    eapply wp_weaken; [|apply (create_enclave_seq G pb rb g c enclave_id ev_base ev_mask
      mailbox_count debug o M K A1 A2 A3 A4)].
    cbv beta. intros v o' (Q0 & Q1 & Q2). exists M. split; [reflexivity|].
    split; [|split; [exact Q1|split; [exact Q0|]]].
    + destruct (N.eq_dec v ok) as [V|V].
      * destruct (Q2 V) as [m2 [E _]]. eapply like_ext; [exact E|]. apply like_rest; auto.
      * eapply like_ext; [apply Q1; auto|auto].
    + intros V. destruct (Q2 V) as [m2 [E [T CR]]]. split; [exact T|].
      eapply created_ext; [|exact CR]. exact (oe_rest _ _ E).
  - eapply wp_weaken; [|apply (load_page_table_seq G pb rb g c test_arch enclave_id phys_addr
      virtual_addr level acl o M K)].
    cbv beta. intros v o' [V E]. exists M. split; [auto|]. split; [eapply RF; eauto|].
    split; [auto|exact (oe_rest _ _ E)].
  - eapply wp_weaken; [|apply (load_page_seq G pb rb g c enclave_id phys_addr
      virtual_addr os_addr acl o M K)].
    cbv beta. intros v o' [V E]. exists M. split; [auto|]. split; [eapply RF; eauto|].
    split; [auto|exact (oe_rest _ _ E)].
  - destruct A as (A1 & A2 & _).
    eapply wp_weaken; [|apply (load_thread_seq G pb rb g c enclave_id thread_id entry_pc
      entry_stack fault_pc fault_stack o M K A1 A2)].
    cbv beta. intros v o' [V E]. exists M. split; [auto|].
    split; [eapply touched_like; eauto|auto].
  - destruct A as (A1 & A2).
    eapply wp_weaken; [|apply (assign_thread_seq G pb rb g c enclave_id thread_id o M K A1 A2)].
    cbv beta. intros v o' [V E]. exists M. split; [auto|].
    split; [eapply touched_like; eauto|auto].
  - eapply wp_weaken; [|apply (init_enclave_seq G pb rb g c enclave_id o M K)].
    cbv beta. intros v o' [V E]. exists M. split; [auto|]. split; [eapply RF; eauto|].
    split; [auto|exact (oe_rest _ _ E)].
  - eapply wp_weaken; [|apply (enter_enclave_seq G pb rb g c enclave_id thread_id o M K)].
    cbv beta. intros v o' [V E]. exists M. split; [auto|]. split; [eapply RF; eauto|].
    split; [auto|exact (oe_rest _ _ E)].
  - eapply wp_weaken; [|apply (delete_enclave_seq G pb rb g c enclave_id o M K)].
    cbv beta. intros v o' [V E]. exists M. split; [auto|]. split; [eapply RF; eauto|].
    split; [auto|exact (oe_rest _ _ E)].
  - destruct A as (A1 & A2 & A3).
    eapply wp_weaken; [|apply (copy_debug_seq G pb rb g c enclave_id enclave_addr os_addr
      read_from_enclave o M K A2 A3)].
    2:{ intros -> ->. exact S. }
    cbv beta. intros v o' [[V E]|[V [E0 [T [T2 [X1 [X2 [X3 [X4 [X5 [m [E [F0 F]]]]]]]]]]]]]; exists M;
      (split; [reflexivity|]).
    + split; [eapply RF; eauto|]. split; [auto|]. intros Y. contradiction.
    + split; [eapply like_ext; [exact E|apply like_rest; auto]|].
      split; [intros Y; contradiction|]. intros _. split; [exact E0|]. cbv zeta.
      repeat (split; [assumption|]). split.
      * intros Y1 Y2 j J. rewrite (oe_rest _ _ E). apply F0; auto.
      * intros b B. rewrite (oe_rest _ _ E). apply F. exact B.
  - destruct A as (A1 & A2).
    eapply wp_weaken; [|apply (accept_seq G pb rb g c thread_id thread_info_addr o M K C A1 S)].
    cbv beta. intros v o' [m [E F]]. exists M. split; [reflexivity|].
    split; [eapply like_ext; [exact E|apply like_rest; auto]|]. split; [intros []|].
    intros b NB. rewrite (oe_rest _ _ E). apply F. exact NB.
  - destruct A as (A1 & A2).
    eapply wp_weaken; [|apply (create_thread_seq G pb rb g c thread_id phys_addr o M K C A2 HD)].
    cbv beta. intros v o' [(V & L & Q & R)|[V E]].
    + unfold stick_table in *. destruct (m_stuck M) eqn:ST; cbn [fst snd] in *.
      * exists M. split; [left; split; [rewrite V; discriminate|reflexivity]|]. auto.
      * exists (m_stick M). split; [right; auto|]. auto.
    + exists M. split; [left; auto|]. split; [eapply RF; eauto|].
      split; [auto|exact (oe_rest _ _ E)].
  - eapply wp_weaken; [|apply (delete_thread_seq G pb rb g c thread_id o M K C)].
    cbv beta. intros v o' (V & L & Q & R).
    unfold stick_table in *. destruct (m_stuck M) eqn:ST; cbn [fst snd] in *.
    + exists M. split; [left; split; [rewrite V; discriminate|reflexivity]|]. auto.
    + exists (m_stick M). split; [right; auto|]. auto.
  - eapply wp_weaken; [|apply (exit_enclave_seq G c o)].
    cbv beta. intros v o' [V E]. exists M. split; [auto|]. split; [|split; [auto|exact (oe_rest _ _ E)]].
    eapply like_ext; eauto.
Qed.

Lemma oeq_view_same s s' o o' : view G s o -> view G s' o' -> oeq o o' -> same_machine s s'.
Proof.
  intros V V' E. apply (view_same G pb rb g s s' o); auto.
  apply (view_ext G s' o' o); auto. apply oeq_sym. exact E.
Qed.

(** ** Calls *)
Lemma call_refines s M c k : shows G s M -> c < g_core_count G -> call_args_ok k ->
  seq_call G pb rb k ->
  exists s' v M', do_call G c k s = (s', Some v) /\ eff (ECall c k) v M M' /\
    shows G s' M' /\
    (fails k v -> match lock_word k with
       | None => same_machine s s'
       | Some id => same_machine s s' \/ (ld 8 (s_mem s) id <> 0 /\
            same_but id (id + 8) s s' /\ ld 8 (s_mem s') id = 1) end).
Proof.
  intros K C A S.
  pose proof (view_of_view G s) as V. set (o := view_of G s) in *.
  pose proof (shows_like G pb rb g s o M V K) as L.
  destruct (call_post c k o M L C A S s V) as [s' [v [o' [R [V' [M' [E [L' [F _]]]]]]]]].
  exists s', v, M'. split; [exact R|]. split; [exact E|].
  split; [apply (shows_of G pb rb g s' o'); auto|].
  intros FK. specialize (F FK). destruct (lock_word k) as [id|].
  - destruct F as [F|[T1 [T2 [_ [T3 F]]]]].
    + left. apply (oeq_view_same s s' o o'); auto.
    + right.
      set (s1 := set_mem s (st 8 (s_mem s) id 1)).
      assert (RH : forall b, id <= b < id + 8 -> rest G b)
        by (intros b B; apply (rest_high G pb rb g); lia).
      assert (V1 : exists o1, view G s1 o1 /\ oeq (with_rest o (st 8 (o_rest o) id 1)) o1).
      { destruct (wp_st_rest G pb rb g c id 1 o
          (fun _ x => x = with_rest o (st 8 (o_rest o) id 1)) eq_refl RH eq_refl s V)
          as [s2 [z [o2 [R2 [V2 ->]]]]].
        rewrite run_store64 in R2. inversion R2. subst.
        eexists. split; [exact V2|apply oeq_refl]. }
      destruct V1 as [o1 [V1 E1]].
      assert (SM : same_machine s1 s').
      { apply (oeq_view_same s1 s' o1 o'); auto.
        eapply oeq_trans; [apply oeq_sym; exact E1|exact F]. }
      assert (LB : ld 8 (s_mem s) id = ld 8 (o_rest o) id).
      { apply ld_byte. intros b B1 B2. apply (v_rest _ _ _ V), RH.
        change (N.of_nat 8) with 8 in B2. lia. }
      destruct SM. split; [rewrite LB; auto|]. split.
      * repeat split; auto. intros b B. rewrite sm_mem. unfold s1. cbn [s_mem set_mem].
        change (byte (st 8 (s_mem s) id 1) b = byte (s_mem s) b).
        apply byte_st_out. change (N.of_nat 8) with 8. lia.
      * rewrite (ld_byte 8 (s_mem s') (st 8 (s_mem s) id 1)).
        -- apply ld8_st8. reflexivity.
        -- intros b _ _. apply (sm_mem b).
  - apply (oeq_view_same s s' o o'); auto.
Qed.

(** ** Writes outside the monitor *)
Lemma write_shows s M a v : shows G s M -> g_monitor_top G <= a ->
  shows G (set_mem s (st 1 (s_mem s) a v)) M.
Proof.
  intros K T.
  pose proof (view_of_view G s) as V. set (o := view_of G s) in *.
  pose proof (shows_like G pb rb g s o M V K) as L.
  apply (shows_of G pb rb g _ (with_rest o (st 1 (s_mem s) a v))).
  - apply (v_set_rest G pb rb g); auto. intros b NB. apply byte_st_out.
    change (N.of_nat 1) with 1.
    destruct (N.lt_ge_cases b a); auto. destruct (N.lt_ge_cases b (a + 1)); auto.
    exfalso. apply NB. apply (rest_high G pb rb g). lia.
  - apply like_rest. auto.
Qed.

Lemma cpu_above s M c a : shows G s M -> c < g_core_count G ->
  cpu_may_access pb rb (s_cores s c) a -> g_monitor_top G <= a.
Proof.
  intros K C [_ NP]. apply N.nlt_ge. intros L. apply NP.
  apply (sh_protected _ _ _ K); auto.
Qed.

Lemma step_refines s M e v s' : shows G s M -> estep G pb rb s e v s' ->
  exists M', eff e v M M' /\ shows G s' M'.
Proof.
  intros K E. destruct E as [s c k v s' C A S R|s c a v C A CA|s a v A DA T].
  - destruct (call_refines s M c k K C A S) as [s2 [v2 [M' [R2 [E [K2 _]]]]]].
    rewrite R in R2. inversion R2; subst. exists M'. auto.
  - exists M. split; [reflexivity|]. apply write_shows; auto.
    eapply cpu_above; eauto.
  - exists M. split; [reflexivity|]. apply write_shows; auto.
Qed.

Lemma history_refines s0 M0 h s : shows G s0 M0 -> history G pb rb s0 h s ->
  exists M, mhistory pb rb (g_core_count G) (g_dram_size G) M0 h M /\ shows G s M.
Proof.
  intros K H. induction H as [|h s e v s' H IH E].
  - exists M0. split; [constructor|auto].
  - destruct IH as [M [MH KM]]. destruct (step_refines s M e v s' KM E) as [M' [EF K']].
    exists M'. split; [econstructor; eauto|auto].
Qed.
End Refine.

(** ** The state after boot *)
Lemma started_geom P top pb rb G s : started P top pb rb G s ->
  geom G pb rb /\ g_dram_size G + g_dram_stripe_size G <= W64.
Proof.
  intros [S D [c [s0 [C [R _]]]]].
  destruct (boot_supported c s0 P top pb rb S) as [s1 [G1 [R1 B]]].
  rewrite R in R1. inversion R1; subst s1 G1.
  pose proof (booted_geom _ _ _ _ _ _ _ _ S B) as g. split; auto.
  rewrite (geo_size _ _ _ g), (bt_globals _ _ _ _ _ _ _ _ B). exact D.
Qed.

Lemma started_shows P top pb rb G s : started P top pb rb G s ->
  exists access c, c < g_core_count G /\
    (forall r, r < g_dram_region_count G -> access c r = true) /\
    shows G s (boot_mstate access (g_monitor_top G)).
Proof.
  intros H. destruct (started_geom _ _ _ _ _ _ H) as [g HDD].
  destruct H as [S D [c [s0 [C [R [Z [PAR WD]]]]]]].
  destruct (boot_supported c s0 P top pb rb S) as [s1 [G1 [R1 B]]].
  rewrite R in R1. inversion R1; subst s1 G1.
  exists (fun c r => drb_bit (s_cores s c) r), c.
  pose proof B as [BG BZ BB BF BC BW B1 B2 B3 B4 B5].
  assert (GC : g_core G = top) by (rewrite BG; reflexivity).
  assert (GN : g_core_count G = p_core_count P) by (rewrite BG; reflexivity).
  assert (GT : exists t, t <= 30 /\ g_monitor_top G = 2 ^ t).
  { destruct (geo_mtop _ _ _ g) as [t T]. exists t. split; auto.
    pose proof (geo_fits _ _ _ g) as F. rewrite T in F. apply pow2_le_inv in F.
    pose proof (geo_pb _ _ _ g). lia. }
  destruct GT as [t [T30 GT]].
  assert (ZT : forall a, g_dram_region G <= a -> a + 8 <= g_os_region_bitmap G ->
     ld 8 (s_mem s) a = 0).
  { intros a A1 A2. apply ld8_zero. intros b Bb. apply BZ. lia. }
  pose proof (layout _ _ _ g) as (L1 & L2 & L3 & L4 & L5 & L6 & L7 & L8).
  assert (ZC : forall a, g_core G <= a -> a + 8 <= g_dram_region G -> ld 8 (s_mem s) a = 0).
  { intros a A1 A2. apply ld8_zero. intros b Bb. unfold byte.
    rewrite BF by lia. apply Z. rewrite <- GC, <- GN. pose proof (geo_dr _ _ _ g). lia. }
  pose proof (geo_dr _ _ _ g) as GDR. pose proof (geo_drs _ _ _ g) as GDS.
  pose proof (geo_bm _ _ _ g) as GBM. pose proof (geo_count _ _ _ g) as GCT.
  assert (BITS : forall r, r < g_dram_region_count G -> os_bit G s r = true).
  { intros r RR. unfold os_bit. rewrite <- bit_at_word. rewrite BB. rewrite GCT in *. lia. }
  split; [rewrite GN; exact C|]. split.
  { intros r RR. unfold drb_bit. rewrite BC, N.eqb_refl. unfold boot_regs. cbn [r_drb].
    destruct (N.ltb_spec (r / 64) (s_words s0)) as [L|L].
    - apply (BITS r RR).
    - exfalso. rewrite GCT in RR. clear -RR L WD. revert RR L WD.
      generalize (2 ^ rb). intros. lia. }
  constructor; unfold lock_of, owner_of, pinned_of, blocked_at_of, clock_of, enclave_of,
      flushed_of; cbn [m_owner m_blocked_at m_clock m_flushed m_access m_stuck m_dma_start
      m_dma_end boot_mstate]; intros.
  - rewrite andb_false_r. apply ZT; lia.
  - apply ZT; lia.
  - apply ZT; lia.
  - apply ZT; lia.
  - apply ZT; lia.
  - apply ZC; lia.
  - apply ZC; lia.
  - split; [auto|]. intros _. apply BITS. assumption.
  - reflexivity.
  - reflexivity.
  - rewrite BC. destruct (N.eqb_spec c0 c) as [->|NE].
    + unfold boot_regs. cbn [r_par_mask r_par_base].
      rewrite GT. apply par_spec; [|lia|rewrite <- GT; assumption].
      rewrite GT in *. pose proof (N.pow_le_mono_r 2 t 30 ltac:(lia) T30).
      change (2 ^ 30) with 1073741824 in *. unfold W64. lia.
    + apply PAR; auto. rewrite <- GN. assumption.
  - rewrite BW. rewrite (geo_words _ _ _ g). exact WD.
  - exact B3.
  - exact B4.
  - assert (2 ^ t <= 2 ^ 30) by (apply N.pow_le_mono_r; lia).
    rewrite GT. change (2 ^ 30) with 1073741824 in *. unfold W64. lia.
  - unfold dma_may_access. rewrite B1, B2.
    change (W64 - 1) with (N.ones 64). rewrite N.land_ones.
    rewrite N.mod_small by assumption. lia.
Qed.
