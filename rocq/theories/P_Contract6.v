(** * C71: create_enclave for every identifier and every number of mailboxes. *)
From Coq Require Import NArith ZArith Lia Bool List.
From Coq Require Import ZifyBool ZifyNat ZifyN.
From Verif Require Import Word Machine ModelBare ModelHash ModelInl ModelRegions
  ModelMetadata ModelEnclave ModelBoot ModelApi Lib BareProofs SpecGeometry
  GeomProofs SpecMonitor SpecHistory SpecMetadata SpecSha256 HashProofs SpecMeasure MeasureProofs
  ViewProofs SeqProofs SeqCalls SeqCalls2 SeqCalls3 SeqCalls5 SeqCalls6
  HistoryProofs HistoryFacts MetaProofs P_Boot P_Regions P_Metadata P_Enclave P_Inside
  SpecContract ContractProofs ContractProofs2 ContractProofs3 ContractProofs4 P_Contract
  SpecContract2 ContractProofs5 P_Contract4 SpecContract5 ContractProofs7.
Import ListNotations.
Open Scope N_scope.
Ltac Zify.zify_post_hook ::= Z.div_mod_to_equations.


(** Every identifier, in whatever stripe, and every number of mailboxes: the result is that
    of the first check that fails, a refused call changes nothing, and a successful one
    changes exactly the record's header and the map entries the code computes. *)
Theorem C71_create_enclave : forall G pb rb s c id base mask mc d,
  geom G pb rb -> clean_locks G s -> owner_of G s 0 <> 2 ->
  id < 2 ^ 64 -> base < 2 ^ 64 -> mask < 2 ^ 64 -> mc < 2 ^ 64 ->
  let k := used_pages (g_dram_region_count G) mc in
  exists s' v, do_call G c (CCreateEnclave id base mask mc d) s = (s', Some v) /\
    create_enclave_outcome G pb rb s id base mask mc v /\
    (v <> 0 -> same_machine s s') /\
    (v = 0 ->
       changes_only (fun b => bytes_of id 304 b \/
                              bytes_of (entry_at pb rb id) (8 * N.max 1 k) b) s s' /\
       enclave_fields s' id base mask mc d /\
       (exists s2, run c (finalize_enclave_hash id) s' = (s2, Some tt) /\
          words_at (s_mem s2) (id + 80) 8 = measurement (mkHistory base mask mc d [])) /\
       (entries_apart pb rb id k -> entries_after pb rb s' id k)).
Proof.
  intros G pb rb s c id base mask mc d g CL R02 HI HB HM HC k.
  destruct (create_any G pb rb g s c CL R02 id base mask mc d HI HB HM HC s (view_of_view G s))
    as [s' [v [o' [R [V [CR [F S]]]]]]].
  exists s', v. split; [exact R|]. split; [exact CR|]. split.
  { intros NZ. exact (oeq_view_same G pb rb g s s' _ o' (view_of_view G s) V (F NZ)). }
  intros Z. destruct (S Z) as [m2 [E [TOP [B4 [AL CT]]]]]. clear F S.
  assert (PB : page_of pb id + k <= 2 ^ pb).
  { subst v. unfold create_enclave_outcome in CR. cbv zeta in CR. fold k in CR.
    destruct CR as [[_ X]|[[_ [X Y]]|[[_ [_ [_ X]]]|[[_ [_ [_ [_ X]]]]|[_ [_ [X _]]]]]]]; try discriminate X; auto.
    exfalso. auto. }
  destruct CT as [FREE [m1 (MM & F1 & FR & F2)]].
  rewrite (pages_any G pb rb g) in FREE, MM, F1. rewrite (map_at G pb rb g id HI) in FREE, MM, F1.
  fold k in FREE, MM, F1.
  set (ea := entry_at pb rb id) in *.
  assert (FRAME : forall b, (b < id \/ id + 304 <= b) -> (b < ea \/ ea + 8 * N.max 1 k <= b) ->
    byte m2 b = byte (s_mem s) b).
  { intros b B1 B2. rewrite F2 by exact B1. apply F1. exact B2. }
  pose proof (pow2_pos pb) as PP.
  assert (ME : g_monitor_top G <= ea).
  { unfold ea. rewrite <- (map_at G pb rb g id HI).
    apply (SeqCalls4.map_entries_high G pb rb g id k 0); auto.
    - destruct (N.eq_dec (region_of pb rb id) 0) as [R0|]; auto. exfalso.
      destruct CR as [[_ X]|[[_ [X Y]]|[[_ [X Y]]|[[_ [X Y]]|[_ [X Y]]]]]]; try (subst; discriminate);
        try (subst; congruence);
      unfold meta_code in X; rewrite R0 in X; destruct (N.eqb_spec (owner_of G s 0) 2); try contradiction;
      destruct (in_dram_page G id), (is_locked G s 0); discriminate X. }
  assert (VM : view G (set_mem s m2) (with_rest (view_of G s) m2)).
  { apply (v_set_rest _ _ _ g); [apply view_of_view|]. intros b NR. apply FRAME.
    - left. apply N.nle_gt. intros X. apply NR, (rest_high G pb rb g). lia.
    - left. apply N.nle_gt. intros X. apply NR, (rest_high G pb rb g). lia. }
  pose proof (oeq_view_same G pb rb g _ s' _ o' VM V E) as SM.
  assert (BM : forall b, byte (s_mem s') b = byte m2 b) by (intros b; apply (sm_mem _ _ SM)).
  assert (LM : forall a, ld 8 (s_mem s') a = ld 8 m2 a) by (intros a; apply ld_byte; intros; apply BM).
  assert (FR' : fresh_record (s_mem s') id base mask mc d).
  { eapply fresh_ext; [exact FR|]. intros; apply BM. }
  split; [|split; [|split]].
  - split.
    + destruct E. apply (same_regs G s s' o' V);
        cbn [with_rest view_of o_regs o_words o_dmar_base o_dmar_mask o_dma_start o_dma_end] in *; auto.
    + intros b NP. unfold bytes_of in NP. fold (byte (s_mem s') b) (byte (s_mem s) b).
      rewrite BM. apply FRAME; lia.
  - destruct FR'; constructor; assumption.
  - assert (B : id + 304 <= W64) by lia.
    pose proof (fr_measure _ _ _ _ _ _ FR') as I.
    destruct (measure_finalize_run c id B s' _ I) as [m [E1 [W _]]].
    exists (set_mem s' m). split; [exact E1|]. cbn [s_mem set_mem].
    change (words_at m (id + 80) 8) with (hash_words m (id + 80)). rewrite W.
    set (h := mkHistory base mask mc d []).
    assert (EN : enc_create h ++ enc_final = encode h).
    { unfold encode, enc_loaded. cbn [lh_ops h flat_map]. rewrite app_nil_r. reflexivity. }
    rewrite EN. unfold measurement, sha256, sha256_32.
    rewrite (pad32_pad (encode h) 2).
    + reflexivity.
    + rewrite <- EN, app_length. reflexivity.
    + rewrite <- EN, app_length. reflexivity.
  - intros AP. unfold entries_apart in AP. fold ea in AP.
    assert (LE : forall j, j < N.max 1 k -> ld 8 (s_mem s') (ea + 8 * j) = ld 8 m1 (ea + 8 * j)).
    { intros j J. rewrite LM. apply ld_byte. intros b B1 B2. change (N.of_nat 8) with 8 in B2.
      apply F2. lia. }
    destruct MM as [M1 M2]. unfold entries_after, entry_used, word. fold ea. split.
    + intros C. rewrite LE by lia. rewrite N.mul_0_r, N.add_0_r, (M1 C). apply info_val. exact AL.
    + intros C. destruct (M2 C) as [X1 X2]. split.
      * intros j J. rewrite LE by lia. exact (X1 j J).
      * rewrite LE by lia. exact X2.
Qed.
Theorem C71_outcome_unique : forall G pb rb s id base mask mc v w,
  create_enclave_outcome G pb rb s id base mask mc v ->
  create_enclave_outcome G pb rb s id base mask mc w -> v = w.
Proof.
  intros G pb rb s id base mask mc v w A B. unfold create_enclave_outcome in *. cbv zeta in *.
  destruct A as [[A1 A2]|[[A1 [A2 A3]]|[[A1 [A2 [A3 A4]]]|[[A1 [A2 [A3 [[j [J1 J2]] A4]]]]|[A1 [A2 [A3 [A4 A5]]]]]]]],
    B as [[B1 B2]|[[B1 [B2 B3]]|[[B1 [B2 [B3 B4]]]|[[B1 [B2 [B3 [[i [I1 I2]] B4]]]]|[B1 [B2 [B3 [B4 B5]]]]]]]];
    subst; auto; try tauto; try (exfalso; congruence); try (exfalso; lia);
    exfalso; [apply J2; auto|apply I2; auto].
Qed.
(** Two rounds of stripes: an identifier in the second one has its entry at 2^63 and more; and
    a number of mailboxes for which the record takes no page at all. *)
Definition two_rounds : state :=
  put (small_s0 (2 ^ 18)) (lock_addr (small_G (2 ^ 18)) 3 + 8) 2.
Example C71_any_example : let G := small_G (2 ^ 18) in let id := 2 ^ 17 + 3 * 8192 + 4096 in
  clean_locks G two_rounds /\ owner_of G two_rounds 0 <> 2 /\
  entry_at 1 4 id = 2 ^ 63 + 3 * 8192 + 8 /\ entry_at 1 4 (3 * 8192 + 4096) = 3 * 8192 + 8 /\
  used_pages (g_dram_region_count G) 1 = 1 /\ entries_apart 1 4 id 1 /\
  used_pages (g_dram_region_count G) 667480871088174564 = 0 /\
  create_enclave_outcome G 1 4 two_rounds id 0x10000 0xffff 1 0 /\
  create_enclave_outcome G 1 4 (put two_rounds (2 ^ 63 + 3 * 8192 + 8) 7) id 0x10000 0xffff 1 2 /\
  create_enclave_outcome G 1 4 (put two_rounds (2 ^ 63 + 3 * 8192 + 8) 7) id 0x10000 0xffff
    667480871088174564 0.
Proof.
  assert (RO : enclave_range_ok 0x10000 0xffff).
  { split; [exact ex_range|]. split; [discriminate|reflexivity]. }
  cbv zeta.
  split; [apply clean_iff; vm_compute; reflexivity|].
  split; [vm_compute; discriminate|]. do 3 (split; [vm_compute; reflexivity|]).
  split; [right; vm_compute; discriminate|]. split; [vm_compute; reflexivity|].
  split; [|split].
  - right; right; right; right. split; [exact RO|]. split; [vm_compute; reflexivity|].
    split; [vm_compute; discriminate|]. split; [|reflexivity].
    intros j J. change (used_pages (g_dram_region_count (small_G (2 ^ 18))) 1) with 1 in J.
    assert (j = 0) as -> by lia; vm_compute; reflexivity.
  - right; right; right; left. split; [exact RO|]. split; [vm_compute; reflexivity|].
    split; [vm_compute; discriminate|]. split; [|reflexivity].
    exists 0. split; [reflexivity|vm_compute; discriminate].
  - right; right; right; right. split; [exact RO|]. split; [vm_compute; reflexivity|].
    split; [vm_compute; discriminate|]. split; [|reflexivity].
    intros j J. change (used_pages (g_dram_region_count (small_G (2 ^ 18))) 667480871088174564) with 0 in J. lia.
Qed.

Definition P_Contract6_theorems := (C71_create_enclave, C71_outcome_unique, C71_any_example).
Print Assumptions P_Contract6_theorems.
