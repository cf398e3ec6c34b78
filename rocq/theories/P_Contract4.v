(** * Properties C70-C71: set_dma_range and create_enclave on every machine state. *)
From Coq Require Import NArith ZArith Lia Bool List.
From Coq Require Import ZifyBool ZifyNat ZifyN.
From Verif Require Import Word Machine ModelBare ModelHash ModelInl ModelRegions
  ModelMetadata ModelEnclave ModelBoot ModelApi Lib BareProofs SpecGeometry
  GeomProofs SpecMonitor SpecHistory SpecMetadata SpecSha256 HashProofs SpecMeasure MeasureProofs
  ViewProofs SeqProofs SeqCalls SeqCalls2 SeqCalls3 SeqCalls5 SeqCalls6
  HistoryProofs HistoryFacts MetaProofs P_Boot P_Regions P_Metadata P_Enclave P_Inside
  SpecContract ContractProofs ContractProofs2 ContractProofs3 ContractProofs4 P_Contract
  SpecContract2 ContractProofs5.
Import ListNotations.
Open Scope N_scope.
Ltac Zify.zify_post_hook ::= Z.div_mod_to_equations.

(** ** C70 *)
(** The result depends on nothing but the range and the locks; a refused call changes
    nothing, and a successful one changes the window and nothing else. *)
Theorem C70_set_dma_range : forall G pb rb s c base mask,
  geom G pb rb -> clean_locks G s -> base < 2 ^ 64 -> mask < 2 ^ 64 ->
  g_dram_size G + 2 ^ (12 + pb) <= 2 ^ 64 ->
  exists s' v, do_call G c (CSetDmaRange base mask) s = (s', Some v) /\
    set_dma_result G pb rb s base mask v /\
    (v <> 0 -> same_machine s s') /\
    (v = 0 -> same_memory s s' /\ (forall c', s_cores s' c' = s_cores s c') /\
       s_words s' = s_words s /\
       s_dma_start s' = base /\ s_dma_end s' = base + mask + 1 /\
       forall a, a < 2 ^ 64 -> (dma_may_access s' a <-> base <= a <= base + mask)).
Proof.
  intros G pb rb s c base mask g CL HB HM HD.
  assert (HD' : g_dram_size G + g_dram_stripe_size G <= W64).
  { rewrite (geo_size _ _ _ g). exact HD. }
  destruct (set_dma_wp G pb rb g c s base mask CL HB HM HD' s (view_of_view G s))
    as [s' [v [o' [R [V [SR [F S]]]]]]].
  exists s', v. split; [exact R|]. split; [exact SR|]. split.
  { intros NZ. exact (oeq_view_same G pb rb g s s' _ o' (view_of_view G s) V (F NZ)). }
  intros Z. specialize (S Z). subst v.
  assert (PR : pow2_range base mask).
  { destruct SR as [[_ X]|[[_ [_ X]]|[[X _] _]]]; try discriminate X. exact X. }
  pose (s1 := mkState (s_mem s) (s_cores s) (s_words s) base (wnot mask) base (base + mask + 1) (s_ub s)).
  assert (V1 : view G s1 (with_dma (view_of G s) base (wnot mask) base (base + mask + 1))).
  { pose proof (view_of_view G s) as V0. destruct V0. constructor; cbn -[ld st]; intros; auto. }
  pose proof (oeq_view_same G pb rb g s1 s' _ o' V1 V S) as SM.
  split; [intros b; apply (sm_mem _ _ SM)|]. split; [intros c'; apply (sm_cores _ _ SM)|].
  split; [apply (sm_words _ _ SM)|].
  split; [apply (sm_dma_start _ _ SM)|]. split; [apply (sm_dma_end _ _ SM)|].
  intros a A. unfold dma_may_access.
  assert (E1 : s_dmar_mask s' = wnot mask) by apply (sm_dmar_mask _ _ SM).
  assert (E2 : s_dmar_base s' = base) by apply (sm_dmar_base _ _ SM).
  rewrite E1, E2. apply range_members; auto. apply range_iff; auto.
Qed.
(** The result is determined: no two results fit the same state. *)
Theorem C70_result_unique : forall G pb rb s base mask v w,
  set_dma_result G pb rb s base mask v -> set_dma_result G pb rb s base mask w -> v = w.
Proof.
  intros G pb rb s base mask v w A B. unfold set_dma_result in *.
  destruct A as [[A1 A2]|[[A1 [A2 A3]]|[A1 [A2 A3]]]], B as [[B1 B2]|[[B1 [B2 B3]]|[B1 [B2 B3]]]];
    subst; tauto.
Qed.
(** In particular the call succeeds although an enclave, or the monitor, owns the
    memory (compare C33). *)
Theorem C70_owner_ignored_refuted : forall G pb rb s c r,
  geom G pb rb -> (forall q, q < g_dram_region_count G -> lock_of G s q = 0) ->
  g_dram_size G + 2 ^ (12 + pb) <= 2 ^ 64 ->
  2 ^ (12 + pb + rb) <= g_dram_size G -> r < 2 ^ rb ->
  exists s', do_call G c (CSetDmaRange (stripe_start pb rb r 0) (2 ^ (12 + pb) - 1)) s = (s', Some 0) /\
    forall a, stripe_start pb rb r 0 <= a < stripe_start pb rb r 0 + 2 ^ (12 + pb) ->
      dma_may_access s' a.
Proof.
  intros G pb rb s c r g L HD FULL R.
  pose proof (geo_D _ _ _ g) as GD. pose proof (geo_pb _ _ _ g) as GP.
  pose proof (pow2_pos (12 + pb)) as P1.
  assert (SS : stripe_start pb rb r 0 = r * 2 ^ (12 + pb)).
  { unfold stripe_start. lia. }
  rewrite SS in *. rewrite (pow2_add (12 + pb) rb) in FULL.
  assert (X : r * 2 ^ (12 + pb) + (2 ^ (12 + pb) - 1) < g_dram_size G) by nia.
  change (2 ^ 64) with W64 in *.
  destruct (C70_set_dma_range G pb rb s c (r * 2 ^ (12 + pb)) (2 ^ (12 + pb) - 1) g)
    as [s' [v [D [SR [_ Z]]]]].
  - intros q Q. left. auto.
  - change (2 ^ 64) with W64. lia.
  - change (2 ^ 64) with W64. lia.
  - change (2 ^ 64) with W64. exact HD.
  - assert (V0 : v = 0).
    { destruct SR as [[B _]|[[_ [B _]]|[_ [_ B]]]]; [exfalso|exfalso|exact B].
      - apply B. split; [|exact X]. exists (12 + pb). split; [lia|]. split; [reflexivity|].
        apply N.mod_mul, pow2_nz.
      - destruct B as [B|[k [_ B]]]; unfold is_locked in B; rewrite L in B; try discriminate.
        + apply (N0 G pb rb g).
        + apply (region_lt' G pb rb g). }
    subst v. exists s'. split; [exact D|]. destruct (Z eq_refl) as (_ & _ & _ & _ & _ & W).
    intros a A. apply W; [change (2 ^ 64) with W64; lia|lia].
Qed.
Example C70_example :
  clean_locks ex_G ex_running /\
  snd (do_call ex_G 1 (CSetDmaRange 262144 262143) ex_running) = Some 0 /\
  snd (do_call ex_G 1 (CSetDmaRange 0 (2 ^ 22 - 1)) (put ex_running (lock_addr ex_G 5) 1)) = Some 3 /\
  snd (do_call ex_G 1 (CSetDmaRange 0 262143) (put ex_running (lock_addr ex_G 5) 1)) = Some 0 /\
  snd (do_call ex_G 1 (CSetDmaRange 0 (2 ^ 23 - 1)) ex_running) = Some 1 /\
  snd (do_call ex_G 1 (CSetDmaRange 4096 8191) ex_running) = Some 1.
Proof.
  split; [apply clean_iff; vm_compute; reflexivity|].
  do 4 (split; [vm_compute; reflexivity|]). vm_compute; reflexivity.
Qed.

(** ** C71 *)
Theorem C71_first_stripe : forall G pb rb s c id base mask mc d,
  geom G pb rb -> clean_locks G s -> owner_of G s 0 <> 2 ->
  id < 2 ^ 64 -> base < 2 ^ 64 -> mask < 2 ^ 64 ->
  record_bytes (g_dram_region_count G) mc + 4096 <= 2 ^ 64 ->
  first_stripe pb rb id ->
  g_dram_size G + 2 ^ (12 + pb) <= 2 ^ 64 ->
  let k := record_pages (g_dram_region_count G) mc in
  exists s' v, do_call G c (CCreateEnclave id base mask mc d) s = (s', Some v) /\
    create_enclave_result G pb rb s id base mask mc v /\
    (v <> 0 -> same_machine s s') /\
    (v = 0 ->
       changes_only (fun b => bytes_of id 304 b \/ bytes_of (map_entry pb rb id) (8 * k) b) s s' /\
       enclave_fields s' id base mask mc d /\
       (exists s2, run c (finalize_enclave_hash id) s' = (s2, Some tt) /\
          words_at (s_mem s2) (id + 80) 8 = measurement (mkHistory base mask mc d [])) /\
       (2 ^ (12 + pb + rb) <= g_dram_size G -> usable G pb id ->
          (k = 1 -> entry_of pb rb s' id = enclave_entry id) /\
          (k <> 1 -> entry_of pb rb s' id = 1 /\ entry_after pb rb s' id (k - 1) = 0))).
Proof.
  intros G pb rb s c id base mask mc d g CL R02 HI HB HM HC FS HD k.
  assert (HD' : g_dram_size G + g_dram_stripe_size G <= W64).
  { rewrite (geo_size _ _ _ g). exact HD. }
  assert (K1 : 1 <= k) by (unfold k, record_pages, record_bytes; lia).
  destruct (create_wp G pb rb g HD' s c CL R02 id base mask mc d HI HB HM HC FS s (view_of_view G s))
    as [s' [v [o' [R [V [CR [F S]]]]]]].
  exists s', v. split; [exact R|]. split; [exact CR|]. split.
  { intros NZ. exact (oeq_view_same G pb rb g s s' _ o' (view_of_view G s) V (F NZ)). }
  intros Z. destruct (S Z) as [m2 [E [TOP [B4 [AL CT]]]]]. clear F S.
  assert (PB : page_of pb id + k <= 2 ^ pb).
  { subst v. unfold create_enclave_result in CR. cbv zeta in CR. fold k in CR.
    destruct CR as [[_ X]|[[_ [X Y]]|[[_ [_ [_ X]]]|[[_ [_ [_ [_ X]]]]|[_ [_ [X _]]]]]]]; try discriminate X; auto.
    exfalso. auto. }
  destruct (created_facts G pb rb g HD' id base mask mc d _ _ HI FS CT) as (FR & FREE & FRAME & MK).
  change (pages G mc) with (enclave_info_pages G mc) in *.
  rewrite (info_pages_val G pb rb g HD' mc HC) in *. fold k in FREE, FRAME, MK.
  rewrite N.max_r in * by exact K1.
  pose proof (pow2_pos pb) as PP.
  assert (ME : g_monitor_top G <= map_entry pb rb id).
  { rewrite <- (map_first G pb rb g id HI FS).
    apply (SeqCalls4.map_entries_high G pb rb g id k 0); auto.
    - destruct (N.eq_dec (region_of pb rb id) 0) as [R0|]; auto. exfalso.
      destruct CR as [[_ X]|[[_ [X Y]]|[[_ [X Y]]|[[_ [X Y]]|[_ [X Y]]]]]]; try (subst; discriminate);
        try (subst; congruence);
      unfold meta_code in X; rewrite R0 in X; destruct (N.eqb_spec (owner_of G s 0) 2); try contradiction;
      destruct (in_dram_page G id), (is_locked G s 0); discriminate X. }
  assert (VM : view G (set_mem s m2) (with_rest (view_of G s) m2)).
  { apply (v_set_rest _ _ _ g); [apply view_of_view|]. intros b NR. apply FRAME.
    - left. apply N.nle_gt. intros X. apply NR, (rest_high G pb rb g). lia.
    - left. apply N.nle_gt. intros X. apply NR, (rest_high G pb rb g). lia. }
  pose proof (oeq_view_same G pb rb g _ s' _ o' VM V E) as SM.
  assert (BM : forall b, byte (s_mem s') b = byte m2 b) by (intros b; apply (sm_mem _ _ SM)).
  assert (LM : forall a, ld 8 (s_mem s') a = ld 8 m2 a) by (intros a; apply ld_byte; intros; apply BM).
  assert (FR' : fresh_record (s_mem s') id base mask mc d).
  { eapply fresh_ext; [exact FR|]. intros; apply BM. }
  split; [|split; [|split]].
  - split.
    + destruct E. apply (same_regs G s s' o' V);
        cbn [with_rest view_of o_regs o_words o_dmar_base o_dmar_mask o_dma_start o_dma_end] in *; auto.
    + intros b NP. unfold bytes_of in NP. fold (byte (s_mem s') b) (byte (s_mem s) b).
      rewrite BM. apply FRAME; lia.
  - destruct FR'; constructor; assumption.
  - assert (B : id + 304 <= W64) by lia.
    pose proof (fr_measure _ _ _ _ _ _ FR') as I.
    destruct (measure_finalize_run c id B s' _ I) as [m [E1 [W _]]].
    exists (set_mem s' m). split; [exact E1|]. cbn [s_mem set_mem].
    change (words_at m (id + 80) 8) with (hash_words m (id + 80)). rewrite W.
    set (h := mkHistory base mask mc d []).
    assert (EN : enc_create h ++ enc_final = encode h).
    { unfold encode, enc_loaded. cbn [lh_ops h flat_map]. rewrite app_nil_r. reflexivity. }
    rewrite EN. unfold measurement, sha256, sha256_32.
    rewrite (pad32_pad (encode h) 2).
    + reflexivity.
    + rewrite <- EN, app_length. reflexivity.
    + rewrite <- EN, app_length. reflexivity.
  - intros FULL U. destruct MK as [M1 M2].
    { intros b B. left. pose proof (entries_below G pb rb id k g HD' FULL FS U AL PB). lia. }
    unfold entry_of, entry_after, word. rewrite !LM. split.
    + intros Ek. rewrite M1 by lia. apply info_val. exact AL.
    + intros Ek. destruct (M2 ltac:(lia)) as [X1 X2]. split; [|exact X2].
      specialize (X1 0 ltac:(lia)). rewrite N.mul_0_r, N.add_0_r in X1. exact X1.
Qed.
Theorem C71_result_unique : forall G pb rb s id base mask mc v w,
  create_enclave_result G pb rb s id base mask mc v ->
  create_enclave_result G pb rb s id base mask mc w -> v = w.
Proof.
  intros G pb rb s id base mask mc v w A B. unfold create_enclave_result in *. cbv zeta in *.
  destruct A as [[A1 A2]|[[A1 [A2 A3]]|[[A1 [A2 [A3 A4]]]|[[A1 [A2 [A3 [[j [J1 J2]] A4]]]]|[A1 [A2 [A3 [A4 A5]]]]]]]],
    B as [[B1 B2]|[[B1 [B2 B3]]|[[B1 [B2 [B3 B4]]]|[[B1 [B2 [B3 [[i [I1 I2]] B4]]]]|[B1 [B2 [B3 [B4 B5]]]]]]]];
    subst; auto; try tauto; try (exfalso; congruence); try (exfalso; lia);
    exfalso; [apply J2; auto|apply I2; auto].
Qed.
Example C71_example : let id := page_addr 6 4 15 1 in
  clean_locks ex_G ex_meta /\ owner_of ex_G ex_meta 0 <> 2 /\ first_stripe 6 4 id /\ usable ex_G 6 id /\
  record_bytes (g_dram_region_count ex_G) 13 + 4096 <= 2 ^ 64 /\
  g_dram_size ex_G + 2 ^ (12 + 6) <= 2 ^ 64 /\ 2 ^ (12 + 6 + 4) <= g_dram_size ex_G /\
  record_pages (g_dram_region_count ex_G) 12 = 1 /\ record_pages (g_dram_region_count ex_G) 13 = 2 /\
  meta_code ex_G 6 4 ex_meta id = 0 /\
  create_enclave_result ex_G 6 4 ex_meta id 0x10000 0xffff 13 0 /\
  create_enclave_result ex_G 6 4 (put ex_meta (map_entry 6 4 id + 8) 7) id 0x10000 0xffff 13 2 /\
  create_enclave_result ex_G 6 4 ex_meta (page_addr 6 4 3 1) 0x10000 0xffff 13 2 /\
  create_enclave_result ex_G 6 4 ex_meta (page_addr 6 4 15 63) 0x10000 0xffff 13 1.
Proof.
  assert (RO : enclave_range_ok 0x10000 0xffff).
  { split; [exact ex_range|]. split; [discriminate|reflexivity]. }
  cbv zeta.
  split; [apply clean_iff; vm_compute; reflexivity|].
  split; [vm_compute; discriminate|]. split; [vm_compute; reflexivity|].
  split; [vm_compute; discriminate|]. do 3 (split; [vm_compute; discriminate|]).
  do 3 (split; [vm_compute; reflexivity|]).
  split; [|split; [|split]].
  - right; right; right; right. split; [exact RO|]. split; [vm_compute; reflexivity|].
    split; [vm_compute; discriminate|]. split; [|reflexivity].
    intros j J. change (record_pages (g_dram_region_count ex_G) 13) with 2 in J.
    assert (j = 0 \/ j = 1) as [->| ->] by lia; vm_compute; reflexivity.
  - right; right; right; left. split; [exact RO|]. split; [vm_compute; reflexivity|].
    split; [vm_compute; discriminate|]. split; [|reflexivity].
    exists 1. split; [reflexivity|vm_compute; discriminate].
  - right; left. split; [exact RO|]. split; [vm_compute; discriminate|vm_compute; reflexivity].
  - right; right; left. split; [exact RO|]. split; [vm_compute; reflexivity|].
    split; vm_compute; reflexivity.
Qed.

Definition P_Contract4_theorems :=
  (C70_set_dma_range, C70_result_unique, C70_owner_ignored_refuted,
   C71_first_stripe, C71_result_unique).
Print Assumptions P_Contract4_theorems.
