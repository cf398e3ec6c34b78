(** * Properties C38-C45: enclave records and the metadata map.

    [reachable], [history] and the calls excluded from histories are as in
    P_Regions.v.  Addresses in the first stripe of their region are meant
    throughout ([first_stripe]); for the others the map entry is computed with an
    undefined shift (dram_region_page_for). [2 ^ (12 + pb + rb) <= g_dram_size G]
    says that DRAM has a full round of stripes; without it the map that
    create_metadata_region clears has fewer entries than the region has pages. *)
From Coq Require Import NArith ZArith Lia Bool List.
From Coq Require Import ZifyBool ZifyNat ZifyN.
From Verif Require Import Word Machine ModelBare ModelHash ModelInl ModelRegions
  ModelMetadata ModelEnclave ModelBoot ModelApi Lib BareProofs BootProofs SpecGeometry
  GeomProofs SpecSha256 SpecMeasure HashProofs MeasureProofs SpecMonitor SpecHistory
  SpecMetadata ViewProofs SeqProofs SeqCalls SeqCalls2 SeqCalls3 SeqCalls4 SeqCalls5 SeqCalls6
  HistoryProofs HistoryFacts MetaProofs MetaProofs2 P_Boot P_Hash P_Regions.
Import ListNotations.
Open Scope N_scope.
Ltac Zify.zify_post_hook ::= Z.div_mod_to_equations.

(** The pages the monitor says an enclave record takes (enclave_metadata_pages,
    metadata.cc:63-65). *)
Definition pages (G : globals) (mc : N) : N := enclave_metadata_pages G mc.

Lemma info_val id : id mod 4096 = 0 ->
  metadata_page_info id enclave_metadata_page_type = enclave_entry id.
Proof.
  intros A. unfold metadata_page_info, enclave_entry. change enclave_metadata_page_type with 2.
  replace id with (id / 4096 * 2 ^ 12) by (change (2 ^ 12) with 4096; lia).
  apply lor_add_mul. reflexivity.
Qed.

(** What [created] says, with the addresses of the first stripe. *)
Lemma created_facts G pb rb : geom G pb rb ->
  g_dram_size G + g_dram_stripe_size G <= W64 ->
  forall id base mask mc d m0 m2, id < W64 -> first_stripe pb rb id ->
  created G id base mask mc d m0 m2 ->
  fresh_record m2 id base mask mc d /\
  (forall j, j < pages G mc -> ld 8 m0 (map_entry pb rb id + 8 * j) = 0) /\
  (forall b, (b < id \/ id + 304 <= b) ->
     (b < map_entry pb rb id \/ map_entry pb rb id + 8 * N.max 1 (pages G mc) <= b) ->
     byte m2 b = byte m0 b) /\
  ((forall b, map_entry pb rb id <= b < map_entry pb rb id + 8 * N.max 1 (pages G mc) ->
      b < id \/ id + 304 <= b) ->
   map_marked m2 (map_entry pb rb id) (pages G mc)
     (metadata_page_info id enclave_metadata_page_type)).
Proof.
  intros g HD id base mask mc d m0 m2 A F [MF [m1 (MM & F1 & FR & F2)]].
  rewrite (map_val G pb rb g HD) in * by auto.
  change (enclave_info_pages G mc) with (pages G mc) in *.
  split; [exact FR|]. split; [exact MF|]. split.
  - intros b B1 B2. rewrite F2 by exact B1. apply F1. exact B2.
  - intros DJ.
    assert (LE : forall j, j < N.max 1 (pages G mc) ->
      ld 8 m2 (map_entry pb rb id + 8 * j) = ld 8 m1 (map_entry pb rb id + 8 * j)).
    { intros j J. apply ld_byte. intros b B1 B2. change (N.of_nat 8) with 8 in B2.
      apply F2. apply DJ. lia. }
    destruct MM as [M1 M2]. split.
    + intros C. rewrite <- (M1 C). specialize (LE 0 ltac:(lia)).
      rewrite N.mul_0_r, N.add_0_r in LE. exact LE.
    + intros C. destruct (M2 C) as [X1 X2]. split.
      * intros j J. rewrite LE by lia. apply X1. exact J.
      * rewrite LE by lia. exact X2.
Qed.

(** The map entries of a structure at a usable page are below the structure. *)
Lemma entries_below G pb rb id k : geom G pb rb ->
  g_dram_size G + g_dram_stripe_size G <= W64 ->
  2 ^ (12 + pb + rb) <= g_dram_size G ->
  first_stripe pb rb id -> usable G pb id -> id mod 4096 = 0 ->
  page_of pb id + k <= 2 ^ pb -> map_entry pb rb id + 8 * k <= id.
Proof.
  intros g HD FULL F U A PG. pose proof (map_size G pb rb g HD FULL) as MS.
  rewrite (first_stripe_addr G pb rb HD id F A) at 2. unfold map_entry, usable in *. lia.
Qed.

(** ** C38 *)

(** A successful create_enclave writes the documented initial values and the
    measurement of exactly its arguments (the hash it would be finalised to is
    [measurement], SpecMeasure.v); besides the 304 bytes of the record and the map
    entries of its pages nothing changes, in particular no register. *)
Theorem C38_create_enclave_partial :
  forall P top pb rb G s c id base mask mc d s',
  reachable P top pb rb G s -> c < g_core_count G ->
  id < 2 ^ 64 -> base < 2 ^ 64 -> mask < 2 ^ 64 -> mc < 2 ^ 64 -> first_stripe pb rb id ->
  do_call G c (CCreateEnclave id base mask mc d) s = (s', Some 0) ->
  id mod 4096 = 0 /\ id < g_dram_size G /\ owner_of G s (region_of pb rb id) = 2 /\
  enclave_fields s' id base mask mc d /\
  (exists s2, run c (finalize_enclave_hash id) s' = (s2, Some tt) /\
     words_at (s_mem s2) (id + 80) 8 = measurement (mkHistory base mask mc d [])) /\
  (forall j, j < pages G mc -> ld 8 (s_mem s) (map_entry pb rb id + 8 * j) = 0) /\
  (forall b, (b < id \/ id + 304 <= b) ->
     (b < map_entry pb rb id \/ map_entry pb rb id + 8 * N.max 1 (pages G mc) <= b) ->
     s_mem s' b mod 256 = s_mem s b mod 256) /\
  (forall c', s_cores s' c' = s_cores s c') /\ s_words s' = s_words s /\
  s_dmar_base s' = s_dmar_base s /\ s_dmar_mask s' = s_dmar_mask s /\
  s_dma_start s' = s_dma_start s /\ s_dma_end s' = s_dma_end s.
Proof.
  intros P top pb rb G s c id base mask mc d s' R C A1 A2 A3 A4 F D.
  destruct (reach_shows _ _ _ _ _ _ R) as [g [HD [M K]]].
  destruct (create_run G pb rb g HD s M c id base mask mc d s' 0 K C A1 A2 A3 A4 D) as [_ X].
  destruct (X eq_refl) as (T & R0 & AL & LD & OW & CR & RS). clear X.
  destruct (created_facts G pb rb g HD id base mask mc d _ _ A1 F CR) as (FR & FREE & FRAME & _).
  split; [exact AL|]. split; [exact LD|]. split.
  { rewrite (sh_owner _ _ _ K); [rewrite OW; reflexivity|].
    rewrite (geo_count _ _ _ g). apply region_of_lt. }
  split; [destruct FR; constructor; assumption|]. split.
  { assert (B : id + 304 <= W64) by (pose proof (geo_D _ _ _ g); unfold W64 in *; lia).
    pose proof (fr_measure _ _ _ _ _ _ FR) as I.
    destruct (measure_finalize_run c id B s' _ I) as [m [E [W _]]].
    exists (set_mem s' m). split; [exact E|]. cbn [s_mem set_mem].
    change (words_at m (id + 80) 8) with (hash_words m (id + 80)). rewrite W.
    set (h := mkHistory base mask mc d []).
    assert (EN : enc_create h ++ enc_final = encode h).
    { unfold encode, enc_loaded. cbn [lh_ops h flat_map]. rewrite app_nil_r. reflexivity. }
    rewrite EN. unfold measurement, sha256, sha256_32.
    rewrite (pad32_pad (encode h) 2).
    - reflexivity.
    - rewrite <- EN, app_length. reflexivity.
    - rewrite <- EN, app_length. reflexivity. }
  split; [exact FREE|]. split; [exact FRAME|].
  destruct RS as (X1 & X2 & X3 & X4 & X5 & X6). auto 10.
Qed.

(** A record of one page is marked in the map with its id and type. *)
Theorem C38_one_page_marked_partial :
  forall P top pb rb G s c id base mask mc d s',
  reachable P top pb rb G s -> c < g_core_count G ->
  id < 2 ^ 64 -> base < 2 ^ 64 -> mask < 2 ^ 64 -> mc < 2 ^ 64 ->
  2 ^ (12 + pb + rb) <= g_dram_size G -> first_stripe pb rb id -> usable G pb id ->
  pages G mc <= 1 ->
  do_call G c (CCreateEnclave id base mask mc d) s = (s', Some 0) ->
  entry_of pb rb s' id = enclave_entry id.
Proof.
  intros P top pb rb G s c id base mask mc d s' R C A1 A2 A3 A4 FULL F U PG D.
  destruct (reach_shows _ _ _ _ _ _ R) as [g [HD [M K]]].
  destruct (create_run G pb rb g HD s M c id base mask mc d s' 0 K C A1 A2 A3 A4 D) as [CC X].
  destruct (X eq_refl) as (T & R0 & AL & LD & OW & CR & RS). clear X.
  destruct (created_facts G pb rb g HD id base mask mc d _ _ A1 F CR) as (FR & FREE & FRAME & MK).
  destruct MK as [M1 _].
  - intros b B. left. pose proof (page_lt pb id).
    pose proof (entries_below G pb rb id 1 g HD FULL F U AL ltac:(lia)). lia.
  - unfold entry_of. rewrite (M1 PG). apply info_val. exact AL.
Qed.

(** A record of two or more pages is not marked as documented: the entry of the
    first page does not hold the id and type, and the entry of the last page stays
    empty. *)
Theorem C38_marking_refuted :
  forall P top pb rb G s c id base mask mc d s',
  reachable P top pb rb G s -> c < g_core_count G ->
  id < 2 ^ 64 -> base < 2 ^ 64 -> mask < 2 ^ 64 -> mc < 2 ^ 64 ->
  2 ^ (12 + pb + rb) <= g_dram_size G -> first_stripe pb rb id -> usable G pb id ->
  2 <= pages G mc ->
  do_call G c (CCreateEnclave id base mask mc d) s = (s', Some 0) ->
  entry_of pb rb s' id <> enclave_entry id /\
  ld 8 (s_mem s') (map_entry pb rb id + 8 * (pages G mc - 1)) = 0.
Proof.
  intros P top pb rb G s c id base mask mc d s' R C A1 A2 A3 A4 FULL F U PG D.
  destruct (reach_shows _ _ _ _ _ _ R) as [g [HD [M K]]].
  destruct (create_run G pb rb g HD s M c id base mask mc d s' 0 K C A1 A2 A3 A4 D) as [CC X].
  destruct (X eq_refl) as (T & R0 & AL & LD & OW & CR & RS). clear X.
  destruct (created_facts G pb rb g HD id base mask mc d _ _ A1 F CR) as (FR & FREE & FRAME & MK).
  assert (PGB : page_of pb id + pages G mc <= 2 ^ pb).
  { destruct CC as [[_ Y]|[_ [_ [[Y1 Y2]|[Y1 [[_ Y2]|[Y3 _]]]]]]]; try discriminate; auto.
    exfalso. apply Y1. auto. }
  destruct MK as [_ M2].
  - intros b B. left. 
    pose proof (entries_below G pb rb id (pages G mc) g HD FULL F U AL PGB). lia.
  - destruct (M2 PG) as [Y1 Y2]. split; [|exact Y2].
    unfold entry_of. specialize (Y1 0 ltac:(lia)). rewrite N.mul_0_r, N.add_0_r in Y1.
    rewrite Y1. unfold enclave_entry. change inner_metadata_page_type with 1.
    assert (4096 <= id); [|lia].
    assert (id <> 0); [intros E; apply R0; rewrite E|lia].
    unfold region_of. rewrite N.div_0_l by apply pow2_nz. apply N.mod_0_l, pow2_nz.
Qed.

(** ** Placing an enclave in a fresh metadata region *)
Definition page_addr (pb rb r i : N) : N := stripe_start pb rb r 0 + 4096 * i.

Lemma page_addr_facts pb rb r i : r < 2 ^ rb -> i < 2 ^ pb ->
  region_of pb rb (page_addr pb rb r i) = r /\ page_of pb (page_addr pb rb r i) = i /\
  first_stripe pb rb (page_addr pb rb r i) /\ page_addr pb rb r i mod 4096 = 0 /\
  map_entry pb rb (page_addr pb rb r i) = stripe_start pb rb r 0 + 8 * i.
Proof.
  intros R I. unfold page_addr, stripe_start, map_entry, page_of, stripe_start.
  rewrite N.mul_0_l, N.add_0_l.
  assert (E : r * 2 ^ (12 + pb) + 4096 * i = (r * 2 ^ pb + i) * 4096)
    by (rewrite S_split; lia).
  assert (D : (r * 2 ^ (12 + pb) + 4096 * i) / 4096 = r * 2 ^ pb + i)
    by (rewrite E; apply N.div_mul; discriminate).
  assert (P : ((r * 2 ^ (12 + pb) + 4096 * i) / 4096) mod 2 ^ pb = i).
  { rewrite D. rewrite N.add_comm, N.mod_add by apply pow2_nz. apply N.mod_small. exact I. }
  assert (F : first_stripe pb rb (r * 2 ^ (12 + pb) + 4096 * i)).
  { unfold first_stripe. rewrite (pow2_add (12 + pb) rb).
    apply N.lt_le_trans with (2 ^ (12 + pb) * (r + 1)).
    - rewrite (S_split pb). lia.
    - apply N.mul_le_mono_l. lia. }
  assert (RG : region_of pb rb (r * 2 ^ (12 + pb) + 4096 * i) = r).
  { rewrite first_stripe_region by exact F. symmetry.
    apply N.div_unique with (4096 * i); [rewrite S_split; lia|lia]. }
  split; [exact RG|]. split; [exact P|]. split; [exact F|]. split.
  - rewrite E. apply N.mod_mul. discriminate.
  - rewrite RG, P. lia.
Qed.

Lemma after_create_metadata P top pb rb G s c r s' :
  reachable P top pb rb G s -> c < g_core_count G -> r < 2 ^ 64 ->
  do_call G c (CCreateMetadataRegion r) s = (s', Some 0) ->
  reachable P top pb rb G s' /\ r < 2 ^ rb /\ r <> 0 /\
  (exists M, shows G s' M /\ m_owner M r = Metadata) /\
  (forall b, stripe_start pb rb r 0 <= b <
     stripe_start pb rb r 0 + 4096 * g_metadata_region_start G -> s_mem s' b mod 256 = 0).
Proof.
  intros R C RW D. destruct (reach_shows _ _ _ _ _ _ R) as [g [HD [M K]]].
  assert (ES : estep G pb rb s (ECall c (CCreateMetadataRegion r)) 0 s')
    by (constructor; [auto|exact RW|exact I|exact D]).
  split; [eapply reach_step; eauto|].
  pose proof (view_of_view G s) as V. set (o := view_of G s) in *.
  pose proof (shows_like G pb rb g s o M V K) as L.
  destruct (call_post G pb rb g HD c (CCreateMetadataRegion r) o M L C RW I s V)
    as [s2 [w [o' [RR [V' [M' [EF [L' [_ FP]]]]]]]]].
  unfold do_call in D. rewrite D in RR. inversion RR; subst s2 w. clear RR.
  cbn [effect] in EF. apply create_inv in EF as [[X _]|(_ & R1 & R2 & ->)]; [contradiction|].
  assert (R0 : r <> 0).
  { intros ->. rewrite (sh_region0 _ _ _ K) in R2. discriminate. }
  split; [exact R1|]. split; [exact R0|]. split.
  - exists (set_owner M r Metadata). split; [apply (shows_of G pb rb g s' o'); auto|].
    cbn [m_owner set_owner]. apply upd_same.
  - cbn [frame_post] in FP. destruct (FP eq_refl) as [Z _]. intros b B.
    specialize (Z b B). change (byte (s_mem s') b = 0). rewrite <- Z.
    apply (v_rest _ _ _ V'), (rest_high G pb rb g).
    pose proof (stripe_high G pb rb g r 0 ltac:(lia)). lia.
Qed.

Lemma create_in_fresh P top pb rb G s c r s1 c1 i base mask mc d :
  reachable P top pb rb G s -> c < g_core_count G -> r < 2 ^ 64 ->
  do_call G c (CCreateMetadataRegion r) s = (s1, Some 0) ->
  2 ^ (12 + pb + rb) <= g_dram_size G ->
  c1 < g_core_count G -> base < W64 -> mask < W64 -> mc < W64 ->
  pow2_range base mask -> 4096 <= mask + 1 < W64 ->
  i < 2 ^ pb -> i + pages G mc <= 2 ^ pb ->
  exists s2, do_call G c1 (CCreateEnclave (page_addr pb rb r i) base mask mc d) s1 = (s2, Some 0) /\
    reachable P top pb rb G s2 /\ first_stripe pb rb (page_addr pb rb r i).
Proof.
  intros R C RW D FULL C1 A2 A3 A4 PR MB I PG.
  destruct (after_create_metadata _ _ _ _ _ _ _ _ _ R C RW D) as (RE & R1 & R0 & [M [K OW]] & Z).
  destruct (reach_shows _ _ _ _ _ _ R) as [g [HD _]].
  destruct (page_addr_facts pb rb r i R1 I) as (Q1 & Q2 & Q3 & Q4 & Q5).
  assert (LD : page_addr pb rb r i < g_dram_size G)
    by (eapply N.lt_le_trans; [exact Q3|exact FULL]).
  assert (A1 : page_addr pb rb r i < W64) by (pose proof (geo_D _ _ _ g); lia).
  destruct (create_succeeds G pb rb g HD s1 M c1 (page_addr pb rb r i) base mask mc d) as [s2 E]; auto.
  - rewrite Q1. exact OW.
  - rewrite Q2. exact PG.
  - rewrite (map_val G pb rb g HD) by auto. rewrite Q5. intros j J.
    apply ld_zero. intros b B. change (N.of_nat 8) with 8 in B. apply Z.
    pose proof (map_size G pb rb g HD FULL).
    change (enclave_info_pages G mc) with (pages G mc) in J. lia.
  - exists s2. split; [exact E|]. split; [|exact Q3].
    eapply reach_step; [exact RE|].
    refine (es_call _ _ _ _ c1 _ _ _ C1 _ _ E); [cbn; auto|exact Logic.I].
Qed.

(** A metadata region of the example machine. *)
Definition ex_block : state := fst (do_call ex_G 0 (CBlock 15) ex_s0).
Definition ex_free : state := fst (do_call ex_G 0 (CFree 15) ex_block).
Definition ex_meta : state := fst (do_call ex_G 0 (CCreateMetadataRegion 15) ex_free).
Lemma ex_block_call : do_call ex_G 0 (CBlock 15) ex_s0 = (ex_block, Some 0).
Proof. apply call_val. vm_compute. reflexivity. Qed.
Lemma ex_free_call : do_call ex_G 0 (CFree 15) ex_block = (ex_free, Some 0).
Proof. apply call_val. vm_compute. reflexivity. Qed.
Lemma ex_meta_call : do_call ex_G 0 (CCreateMetadataRegion 15) ex_free = (ex_meta, Some 0).
Proof. apply call_val. vm_compute. reflexivity. Qed.
Lemma ex_free_reach : reachable ex_platform 0 6 4 ex_G ex_free.
Proof.
  eapply reach_step; [eapply reach_step; [apply reach_start; exact ex_started|]|].
  - refine (es_call _ _ _ _ 0 _ _ _ _ _ _ ex_block_call); [reflexivity|reflexivity|exact I].
  - refine (es_call _ _ _ _ 0 _ _ _ _ _ _ ex_free_call); [reflexivity|reflexivity|exact I].
Qed.

(** The hypotheses of the C38 theorems are met: records of one and of two pages
    can be created at usable pages. *)
Lemma ex_range : pow2_range 0x10000 0xffff.
Proof. exists 16. split; [lia|]. split; reflexivity. Qed.
Lemma ex_fits : forall i mc d, i < 64 -> mc < W64 -> i + pages ex_G mc <= 64 ->
  exists s', do_call ex_G 1 (CCreateEnclave (page_addr 6 4 15 i) 0x10000 0xffff mc d) ex_meta
     = (s', Some 0) /\ reachable ex_platform 0 6 4 ex_G s' /\
     first_stripe 6 4 (page_addr 6 4 15 i).
Proof.
  intros i mc d I MC PG.
  refine (create_in_fresh ex_platform 0 6 4 ex_G ex_free 0 15 ex_meta 1 i 0x10000 0xffff mc d
    ex_free_reach _ _ ex_meta_call _ _ _ _ MC ex_range _ I PG);
    [reflexivity|reflexivity|vm_compute; discriminate|reflexivity|reflexivity|reflexivity|].
  split; [discriminate|reflexivity].
Qed.
Example C38_example :
  (exists s', do_call ex_G 1 (CCreateEnclave (page_addr 6 4 15 1) 0x10000 0xffff 1 true) ex_meta
     = (s', Some 0)) /\ pages ex_G 1 = 1 /\
  (exists s', do_call ex_G 1 (CCreateEnclave (page_addr 6 4 15 1) 0x10000 0xffff 13 true) ex_meta
     = (s', Some 0)) /\ pages ex_G 13 = 2 /\
  usable ex_G 6 (page_addr 6 4 15 1) /\ first_stripe 6 4 (page_addr 6 4 15 1) /\
  2 ^ (12 + 6 + 4) <= g_dram_size ex_G /\ reachable ex_platform 0 6 4 ex_G ex_meta.
Proof.
  split.
  { destruct (ex_fits 1 1 true) as [s' [E _]]; [reflexivity|reflexivity|discriminate|eauto]. }
  split; [vm_compute; reflexivity|]. split.
  { destruct (ex_fits 1 13 true) as [s' [E _]]; [reflexivity|reflexivity|discriminate|eauto]. }
  split; [vm_compute; reflexivity|]. split; [vm_compute; discriminate|].
  split; [vm_compute; reflexivity|]. split; [vm_compute; discriminate|].
  eapply reach_step; [exact ex_free_reach|].
  refine (es_call _ _ _ _ 0 _ _ _ _ _ _ ex_meta_call); [reflexivity|reflexivity|exact I].
Qed.

(** ** C39 *)

(** The pages of an enclave created at [id], except the last one of two or more,
    are not given to another enclave while the events leave the region alone. *)
Theorem C39_no_double_allocation_partial :
  forall P top pb rb G s c id base mask mc d s1 h s2 c' id' base' mask' mc' d' s3,
  reachable P top pb rb G s -> c < g_core_count G -> c' < g_core_count G ->
  id < 2 ^ 64 -> base < 2 ^ 64 -> mask < 2 ^ 64 -> mc < 2 ^ 64 ->
  id' < 2 ^ 64 -> base' < 2 ^ 64 -> mask' < 2 ^ 64 -> mc' < 2 ^ 64 ->
  2 ^ (12 + pb + rb) <= g_dram_size G ->
  first_stripe pb rb id -> usable G pb id -> first_stripe pb rb id' ->
  do_call G c (CCreateEnclave id base mask mc d) s = (s1, Some 0) ->
  history G pb rb s1 h s2 ->
  Forall (undisturbed G pb rb (region_of pb rb id)) h ->
  do_call G c' (CCreateEnclave id' base' mask' mc' d') s2 = (s3, Some 0) ->
  forall a, id <= a < id + 4096 * N.max 1 (pages G mc - 1) ->
    ~ (id' <= a < id' + 4096 * pages G mc').
Proof.
  intros P top pb rb G s c id base mask mc d s1 h s2 c' id' base' mask' mc' d' s3
    R C C' A1 A2 A3 A4 B1 B2 B3 B4 FULL F U F' D H UN D' a IN IN'.
  destruct (reach_shows _ _ _ _ _ _ R) as [g [HD [M K]]].
  destruct (create_run G pb rb g HD s M c id base mask mc d s1 0 K C A1 A2 A3 A4 D) as [CC X].
  destruct (X eq_refl) as (T & R0 & AL & LD & OW & CR & RS). clear X.
  destruct (created_facts G pb rb g HD id base mask mc d _ _ A1 F CR) as (FR & FREE & FRAME & MK).
  assert (PGB : page_of pb id + pages G mc <= 2 ^ pb).
  { destruct CC as [[_ Y]|[_ [_ [[Y1 Y2]|[Y1 [[_ Y2]|[Y3 _]]]]]]]; try discriminate; auto.
    exfalso. apply Y1. auto. }
  pose proof (page_lt pb id) as PL.
  pose proof (first_stripe_addr G pb rb HD id F AL) as IDE.
  set (r := region_of pb rb id) in *.
  assert (RL : r < 2 ^ rb) by apply region_of_lt.
  (* the page of a *)
  set (j := (a - id) / 4096).
  assert (J : j < N.max 1 (pages G mc - 1)) by (unfold j; lia).
  set (i := page_of pb id + j).
  assert (I : i < 2 ^ pb) by (unfold i; lia).
  (* its entry is not empty in s1 *)
  assert (NZ : ld 8 (s_mem s1) (slot pb rb r i) <> 0).
  { replace (slot pb rb r i) with (map_entry pb rb id + 8 * j)
      by (unfold slot, map_entry, i; fold r; lia).
    destruct MK as [M1 M2].
    { intros b B. left.
      pose proof (entries_below G pb rb id (N.max 1 (pages G mc)) g HD FULL F U AL ltac:(lia)). lia. }
    destruct (N.le_gt_cases (pages G mc) 1) as [L|L].
    - replace j with 0 by lia. rewrite N.mul_0_r, N.add_0_r, (M1 L), (info_val id AL).
      unfold enclave_entry. lia.
    - destruct (M2 ltac:(lia)) as [Y _]. rewrite Y by lia. discriminate. }
  assert (ES : estep G pb rb s (ECall c (CCreateEnclave id base mask mc d)) 0 s1)
    by (constructor; [auto|cbn; auto|exact Logic.I|exact D]).
  destruct (step_refines G pb rb g HD s M _ _ _ K ES) as [M1 [EF K1]].
  cbn in EF. subst M1.
  destruct (marked_history G pb rb g HD FULL s1 M h s2 r i K1 H UN OW RL I NZ) as [M2 [K2 [OW2 NZ2]]].
  (* the second create *)
  destruct (create_run G pb rb g HD s2 M2 c' id' base' mask' mc' d' s3 0 K2 C' B1 B2 B3 B4 D') as [CC' X].
  destruct (X eq_refl) as (T' & R0' & AL' & LD' & OW' & CR' & RS'). clear X.
  destruct (created_facts G pb rb g HD id' base' mask' mc' d' _ _ B1 F' CR') as (_ & FREE' & _ & _).
  assert (PGB' : page_of pb id' + pages G mc' <= 2 ^ pb).
  { destruct CC' as [[_ Y]|[_ [_ [[Y1 Y2]|[Y1 [[_ Y2]|[Y3 _]]]]]]]; try discriminate; auto.
    exfalso. apply Y1. auto. }
  pose proof (first_stripe_addr G pb rb HD id' F' AL') as IDE'.
  set (r' := region_of pb rb id') in *.
  assert (EQ : r' = r /\ page_of pb id' <= i < page_of pb id' + pages G mc').
  { assert (X1 : r * 2 ^ (12 + pb) + 4096 * i <= a < r * 2 ^ (12 + pb) + 4096 * i + 4096).
    { rewrite IDE in IN. unfold stripe_start in *. unfold i, j. lia. }
    assert (X2 : r' * 2 ^ (12 + pb) + 4096 * page_of pb id' <= a <
       r' * 2 ^ (12 + pb) + 4096 * page_of pb id' + 4096 * pages G mc').
    { rewrite IDE' in IN'. unfold stripe_start in IN'. lia. }
    assert (RR : r' = r).
    { destruct (N.lt_trichotomy r' r) as [L|[L|L]]; [exfalso|exact L|exfalso].
      - assert (Y : (r' + 1) * 2 ^ (12 + pb) <= r * 2 ^ (12 + pb)) by (apply N.mul_le_mono_r; lia).
        rewrite N.mul_add_distr_r in Y. pose proof (S_split pb) as SS.
        set (x := r * 2 ^ (12 + pb)) in *. set (y := r' * 2 ^ (12 + pb)) in *.
        rewrite SS in Y. clear -Y X1 X2 I PGB'. lia.
      - assert (Y : (r + 1) * 2 ^ (12 + pb) <= r' * 2 ^ (12 + pb)) by (apply N.mul_le_mono_r; lia).
        rewrite N.mul_add_distr_r in Y. pose proof (S_split pb) as SS.
        set (x := r * 2 ^ (12 + pb)) in *. set (y := r' * 2 ^ (12 + pb)) in *.
        rewrite SS in Y. clear -Y X1 X2 I PGB'. lia. }
    split; [exact RR|]. rewrite RR in X2. lia. }
  destruct EQ as [RR PP]. apply NZ2.
  replace (slot pb rb r i) with (map_entry pb rb id' + 8 * (i - page_of pb id'))
    by (unfold slot, map_entry; fold r'; rewrite RR; lia).
  apply FREE'. lia.
Qed.

(** The hypotheses are met: two enclaves are created one after the other in one
    metadata region, with an event in between. *)
(** A successful call that does not write outside the monitor's tables. *)
Lemma flush_keeps P top pb rb G s c s' b :
  reachable P top pb rb G s -> c < g_core_count G ->
  do_call G c CFlush s = (s', Some 0) -> g_monitor_top G <= b ->
  s_mem s' b mod 256 = s_mem s b mod 256.
Proof.
  intros R C D B. destruct (reach_shows _ _ _ _ _ _ R) as [g [HD [M K]]].
  pose proof (view_of_view G s) as V. set (o := view_of G s) in *.
  pose proof (shows_like G pb rb g s o M V K) as L.
  destruct (call_post G pb rb g HD c CFlush o M L C Logic.I Logic.I s V)
    as [s2 [w [o' [RR [V' [M' [EF [L' [_ FP]]]]]]]]].
  unfold do_call in D. rewrite D in RR. inversion RR; subst s2 w. clear RR.
  cbn [frame_post] in FP. specialize (FP b).
  change (byte (s_mem s') b = byte (s_mem s) b). change (byte (s_mem s) b) with (byte (o_rest o) b).
  rewrite <- FP. apply (v_rest _ _ _ V'), (rest_high G pb rb g). exact B.
Qed.

(** The next free page can be used. *)
Lemma create_next P top pb rb G s c r i base mask mc d s1 s2 c' mc' d' :
  reachable P top pb rb G s -> c < g_core_count G -> c' < g_core_count G ->
  base < W64 -> mask < W64 -> mc < W64 -> mc' < W64 ->
  2 ^ (12 + pb + rb) <= g_dram_size G ->
  r < 2 ^ rb -> i + 1 < 2 ^ pb -> g_metadata_region_start G <= i ->
  pages G mc <= 1 -> pages G mc' <= 1 ->
  ld 8 (s_mem s) (stripe_start pb rb r 0 + 8 * (i + 1)) = 0 ->
  do_call G c (CCreateEnclave (page_addr pb rb r i) base mask mc d) s = (s1, Some 0) ->
  do_call G c CFlush s1 = (s2, Some 0) ->
  exists s3, do_call G c' (CCreateEnclave (page_addr pb rb r (i + 1)) base mask mc' d') s2 = (s3, Some 0).
Proof.
  intros R C C' A2 A3 A4 A5 FULL RL I U P1 P2 Z D DF.
  destruct (reach_shows _ _ _ _ _ _ R) as [g [HD [M K]]].
  destruct (page_addr_facts pb rb r i RL ltac:(lia)) as (Q1 & Q2 & Q3 & Q4 & Q5).
  destruct (page_addr_facts pb rb r (i + 1) RL I) as (S1 & S2 & S3 & S4 & S5).
  assert (W : page_addr pb rb r i < W64)
    by (pose proof (geo_D _ _ _ g); unfold first_stripe in Q3; lia).
  assert (W' : page_addr pb rb r (i + 1) < W64)
    by (pose proof (geo_D _ _ _ g); unfold first_stripe in S3; lia).
  destruct (create_run G pb rb g HD s M c _ base mask mc d s1 0 K C W A2 A3 A4 D) as [CC X].
  destruct (X eq_refl) as (T & R0 & AL & LD & OW & CR & RS). clear X.
  destruct (created_facts G pb rb g HD _ base mask mc d _ _ W Q3 CR) as (_ & _ & FRAME & _).
  assert (E1 : estep G pb rb s (ECall c (CCreateEnclave (page_addr pb rb r i) base mask mc d)) 0 s1)
    by (constructor; [auto|cbn; auto|exact Logic.I|exact D]).
  pose proof (reach_step _ _ _ _ _ _ _ _ _ R E1) as R1.
  assert (E2 : estep G pb rb s1 (ECall c CFlush) 0 s2)
    by (constructor; [auto|exact Logic.I|exact Logic.I|exact DF]).
  destruct (step_refines G pb rb g HD s M _ _ _ K E1) as [M1 [EF1 K1]].
  cbn in EF1. subst M1.
  destruct (step_refines G pb rb g HD s1 M _ _ _ K1 E2) as [M2 [EF2 K2]].
  cbn in EF2. destruct EF2 as [_ EF2].
  assert (PR : pow2_range base mask /\ 4096 <= mask + 1 < W64).
  { destruct CC as [[_ Y]|[Y1 [Y2 _]]]; [discriminate|auto]. }
  rewrite Q1 in OW, R0.
  apply (create_succeeds G pb rb g HD s2 M2); auto; try apply PR.
  - unfold first_stripe in S3. lia.
  - rewrite S1, EF2. exact OW.
  - rewrite S2. change (enclave_info_pages G mc') with (pages G mc'). lia.
  - rewrite (map_val G pb rb g HD) by auto. rewrite S5. intros j J.
    change (enclave_info_pages G mc') with (pages G mc') in J. replace j with 0 by lia.
    rewrite N.mul_0_r, N.add_0_r. etransitivity; [|exact Z]. apply ld_byte. intros b B1 B2.
    change (N.of_nat 8) with 8 in B2.
    assert (BL : b < page_addr pb rb r i).
    { pose proof (map_size G pb rb g HD FULL). unfold page_addr. lia. }
    assert (BT : g_monitor_top G <= b).
    { pose proof (stripe_high G pb rb g r 0 ltac:(lia)). lia. }
    unfold byte. rewrite (flush_keeps _ _ _ _ _ s1 c s2 b R1 C DF BT).
    apply FRAME; [left; exact BL|]. right. rewrite Q5. lia.
Qed.

Example C39_example : exists s1 s2 s3,
  do_call ex_G 1 (CCreateEnclave (page_addr 6 4 15 1) 0x10000 0xffff 1 true) ex_meta = (s1, Some 0) /\
  history ex_G 6 4 s1 [(ECall 1 CFlush, 0)] s2 /\
  Forall (undisturbed ex_G 6 4 15) [(ECall 1 CFlush, 0)] /\
  do_call ex_G 0 (CCreateEnclave (page_addr 6 4 15 2) 0x10000 0xffff 1 true) s2 = (s3, Some 0) /\
  usable ex_G 6 (page_addr 6 4 15 1).
Proof.
  destruct (ex_fits 1 1 true) as [s1 [E1 [R1 _]]]; [reflexivity|reflexivity|discriminate|].
  destruct (reach_shows _ _ _ _ _ _ R1) as [_ [_ [M1 K1]]].
  destruct (can_call _ _ _ _ _ s1 M1 1 CFlush R1 K1) as [s2 [v [M2 [D2 [EF [K2 [ES R2]]]]]]];
    [reflexivity|exact I|exact I|].
  cbn in EF. destruct EF as [-> _].
  assert (RM : reachable ex_platform 0 6 4 ex_G ex_meta).
  { eapply reach_step; [exact ex_free_reach|].
    refine (es_call _ _ _ _ 0 _ _ _ _ _ _ ex_meta_call); [reflexivity|reflexivity|exact I]. }
  assert (Z : ld 8 (s_mem ex_meta) (stripe_start 6 4 15 0 + 8 * (1 + 1)) = 0)
    by (vm_compute; reflexivity).
  assert (X : exists s3, do_call ex_G 0
    (CCreateEnclave (page_addr 6 4 15 2) 0x10000 0xffff 1 true) s2 = (s3, Some 0)).
  { refine (create_next _ _ _ _ _ ex_meta 1 15 1 0x10000 0xffff 1 true s1 s2 0 1 true RM
      _ _ _ _ _ _ _ _ _ _ _ _ Z E1 D2); vm_compute; first [reflexivity|discriminate]. }
  destruct X as [s3 E3].
  exists s1, s2, s3. split; [exact E1|]. split.
    { apply (hist_snoc _ _ _ _ [] s1); [constructor|exact ES]. }
    split; [repeat constructor|]. split; [exact E3|]. vm_compute; discriminate.
Qed.

(** The last page of a record of two or more pages is free for the next
    enclave. *)
Theorem C39_last_page_refuted :
  forall P top pb rb G s c id base mask mc d s1 c' mc' d',
  reachable P top pb rb G s -> c < g_core_count G -> c' < g_core_count G ->
  id < 2 ^ 64 -> base < 2 ^ 64 -> mask < 2 ^ 64 -> mc < 2 ^ 64 -> mc' < 2 ^ 64 ->
  2 ^ (12 + pb + rb) <= g_dram_size G -> first_stripe pb rb id -> usable G pb id ->
  2 <= pages G mc -> pages G mc' <= 1 ->
  do_call G c (CCreateEnclave id base mask mc d) s = (s1, Some 0) ->
  exists s2, do_call G c'
    (CCreateEnclave (id + 4096 * (pages G mc - 1)) base mask mc' d') s1 = (s2, Some 0).
Proof.
  intros P top pb rb G s c id base mask mc d s1 c' mc' d' R C C' A1 A2 A3 A4 A5 FULL F U PG PG' D.
  destruct (C38_marking_refuted P top pb rb G s c id base mask mc d s1) as [_ LAST]; auto.
  destruct (reach_shows _ _ _ _ _ _ R) as [g [HD [M K]]].
  destruct (create_run G pb rb g HD s M c id base mask mc d s1 0 K C A1 A2 A3 A4 D) as [CC X].
  destruct (X eq_refl) as (T & R0 & AL & LD & OW & CR & RS). clear X.
  assert (PR : pow2_range base mask /\ 4096 <= mask + 1 < W64 /\ page_of pb id + pages G mc <= 2 ^ pb).
  { destruct CC as [[_ Y]|[Y1 [Y2 [[Z1 Z2]|[Z1 [[_ Z2]|[Z3 _]]]]]]]; try discriminate.
    - exfalso. apply Z1. auto.
    - auto. }
  destruct PR as (PR & MB & PGB).
  pose proof (first_stripe_addr G pb rb HD id F AL) as IDE.
  set (r := region_of pb rb id) in *.
  assert (RL : r < 2 ^ rb) by apply region_of_lt.
  set (i := page_of pb id) in *. set (k := pages G mc) in *.
  assert (IE : id + 4096 * (k - 1) = page_addr pb rb r (i + (k - 1))) by (unfold page_addr; lia).
  rewrite IE.
  destruct (page_addr_facts pb rb r (i + (k - 1)) RL ltac:(lia)) as (S1 & S2 & S3 & S4 & S5).
  assert (E1 : estep G pb rb s (ECall c (CCreateEnclave id base mask mc d)) 0 s1)
    by (constructor; [auto|cbn; auto|exact Logic.I|exact D]).
  destruct (step_refines G pb rb g HD s M _ _ _ K E1) as [M1 [EF1 K1]].
  cbn in EF1. subst M1.
  assert (W' : page_addr pb rb r (i + (k - 1)) < g_dram_size G) by (unfold first_stripe in S3; lia).
  assert (WW : page_addr pb rb r (i + (k - 1)) < W64) by (pose proof (geo_D _ _ _ g); lia).
  apply (create_succeeds G pb rb g HD s1 M); auto.
  - rewrite S1. exact OW.
  - rewrite S2. change (enclave_info_pages G mc') with (pages G mc'). lia.
  - rewrite (map_val G pb rb g HD) by auto. rewrite S5. intros j J.
    change (enclave_info_pages G mc') with (pages G mc') in J. replace j with 0 by lia.
    rewrite N.mul_0_r, N.add_0_r. etransitivity; [|exact LAST]. f_equal. unfold map_entry. fold r i. lia.
Qed.

(** With a mailbox count whose record size wraps to almost 2^64 no pages are
    needed, and a live enclave is created anew. *)
Lemma pages_zero G pb rb : geom G pb rb -> rb <= 6 -> pages G 667480871088174564 = 0.
Proof.
  intros g R. unfold pages, enclave_metadata_pages, enclave_info_pages, enclave_info_size,
    enclave_mailbox, enclave_mailboxes, enclave_region_bitmap.
  rewrite (geo_words _ _ _ g).
  assert (W : (2 ^ rb + 63) / 64 = 1).
  { pose proof (N.pow_le_mono_r 2 rb 6 ltac:(discriminate) R) as L.
    pose proof (pow2_pos rb). change (2 ^ 6) with 64 in L. 
    symmetry. apply N.div_unique with (2 ^ rb - 1); lia. }
  rewrite W. vm_compute. reflexivity.
Qed.
Theorem C39_live_enclave_refuted :
  forall P top pb rb G s c id base mask mc d s1 c' d',
  reachable P top pb rb G s -> c < g_core_count G -> c' < g_core_count G ->
  id < 2 ^ 64 -> base < 2 ^ 64 -> mask < 2 ^ 64 -> mc < 2 ^ 64 ->
  rb <= 6 ->
  do_call G c (CCreateEnclave id base mask mc d) s = (s1, Some 0) ->
  exists s2, do_call G c' (CCreateEnclave id base mask 667480871088174564 d') s1 = (s2, Some 0).
Proof.
  intros P top pb rb G s c id base mask mc d s1 c' d' R C C' A1 A2 A3 A4 RB D.
  destruct (reach_shows _ _ _ _ _ _ R) as [g [HD [M K]]].
  destruct (create_run G pb rb g HD s M c id base mask mc d s1 0 K C A1 A2 A3 A4 D) as [CC X].
  destruct (X eq_refl) as (T & R0 & AL & LD & OW & CR & RS). clear X.
  assert (PR : pow2_range base mask /\ 4096 <= mask + 1 < W64).
  { destruct CC as [[_ Y]|[Y1 [Y2 _]]]; [discriminate|auto]. }
  assert (E1 : estep G pb rb s (ECall c (CCreateEnclave id base mask mc d)) 0 s1)
    by (constructor; [auto|cbn; auto|exact Logic.I|exact D]).
  destruct (step_refines G pb rb g HD s M _ _ _ K E1) as [M1 [EF1 K1]].
  cbn in EF1. subst M1.
  pose proof (pages_zero G pb rb g RB) as PZ.
  change (pages G 667480871088174564) with (enclave_info_pages G 667480871088174564) in PZ.
  apply (create_succeeds G pb rb g HD s1 M); auto; try apply PR.
  - reflexivity.
  - rewrite PZ. pose proof (page_lt pb id). lia.
  - rewrite PZ. intros j J. lia.
Qed.

(** ** C40 *)

(** Right after create_metadata_region an enclave can be placed on the first page
    of the region, which holds the map; and, since this overwrites the map, the
    same page can be given out again. *)
Theorem C40_map_page_refuted :
  forall P top pb rb G s c r s1 base mask mc d,
  reachable P top pb rb G s -> c < g_core_count G -> r < 2 ^ 64 ->
  do_call G c (CCreateMetadataRegion r) s = (s1, Some 0) ->
  2 ^ (12 + pb + rb) <= g_dram_size G ->
  base < 2 ^ 64 -> mask < 2 ^ 64 -> mc < 2 ^ 64 ->
  pow2_range base mask -> 4096 <= mask + 1 < 2 ^ 64 -> pages G mc <= 1 ->
  1 <= g_metadata_region_start G /\
  exists s2 s3, let id := stripe_start pb rb r 0 in
    do_call G c (CCreateEnclave id base mask mc d) s1 = (s2, Some 0) /\
    do_call G c (CCreateEnclave id base mask mc d) s2 = (s3, Some 0).
Proof.
  intros P top pb rb G s c r s1 base mask mc d R C RW D FULL A2 A3 A4 PR MB PG.
  destruct (reach_shows _ _ _ _ _ _ R) as [g [HD _]].
  pose proof (map_size G pb rb g HD FULL) as MS. pose proof (pow2_pos pb) as PP.
  split; [lia|].
  destruct (create_in_fresh P top pb rb G s c r s1 c 0 base mask mc d) as [s2 [E2 [R2 F]]]; auto.
  { lia. }
  destruct (after_create_metadata _ _ _ _ _ _ _ _ _ R C RW D) as (R1 & RL & R0 & [M [K OW]] & _).
  replace (stripe_start pb rb r 0) with (page_addr pb rb r 0) by (unfold page_addr; lia).
  destruct (page_addr_facts pb rb r 0 RL PP) as (Q1 & Q2 & Q3 & Q4 & Q5).
  set (id := page_addr pb rb r 0) in *.
  assert (W : id < W64) by (pose proof (geo_D _ _ _ g); unfold first_stripe in F; lia).
  destruct (create_run G pb rb g HD s1 M c id base mask mc d s2 0 K C W A2 A3 A4 E2) as [CC X].
  destruct (X eq_refl) as (T & _ & AL & LD & _ & CR & RS). clear X.
  destruct (created_facts G pb rb g HD id base mask mc d _ _ W F CR) as (FR & _).
  assert (E1 : estep G pb rb s1 (ECall c (CCreateEnclave id base mask mc d)) 0 s2)
    by (constructor; [auto|cbn; auto|exact Logic.I|exact E2]).
  destruct (step_refines G pb rb g HD s1 M _ _ _ K E1) as [M1 [EF1 K1]].
  cbn in EF1. subst M1.
  destruct (create_succeeds G pb rb g HD s2 M c id base mask mc d) as [s3 E3]; auto.
  - rewrite Q1. exact OW.
  - rewrite Q2. change (enclave_info_pages G mc) with (pages G mc). lia.
  - rewrite (map_val G pb rb g HD) by auto. rewrite Q5. intros j J.
    change (enclave_info_pages G mc) with (pages G mc) in J. replace j with 0 by lia.
    pose proof (fr_lock _ _ _ _ _ _ FR) as LZ. unfold id, page_addr in LZ.
    rewrite ?N.mul_0_r, ?N.add_0_r in LZ. rewrite ?N.mul_0_r, ?N.add_0_r. exact LZ.
  - exists s2, s3. split; [exact E2|exact E3].
Qed.
Example C40_example :
  do_call ex_G 0 (CCreateMetadataRegion 15) ex_free = (ex_meta, Some 0) /\
  reachable ex_platform 0 6 4 ex_G ex_free /\ 2 ^ (12 + 6 + 4) <= g_dram_size ex_G /\
  pow2_range 0x10000 0xffff /\ pages ex_G 1 <= 1.
Proof.
  split; [exact ex_meta_call|]. split; [exact ex_free_reach|].
  split; [vm_compute; discriminate|]. split; [exact ex_range|]. vm_compute; discriminate.
Qed.

(** ** C41 *)

(** The reserved pages cover the record and are the fewest that do, unless the
    size comes within a page of 2^64. *)
Theorem C41_pages_cover_partial : forall P top pb rb G s mc,
  reachable P top pb rb G s ->
  record_bytes (2 ^ rb) mc + 4096 <= 2 ^ 64 ->
  record_bytes (2 ^ rb) mc <= 4096 * enclave_metadata_pages G mc /\
  4096 * enclave_metadata_pages G mc < record_bytes (2 ^ rb) mc + 4096.
Proof.
  intros P top pb rb G s mc R H. destruct (reach_shows _ _ _ _ _ _ R) as [g [HD _]].
  unfold enclave_metadata_pages.
  rewrite (info_pages_val G pb rb g HD) by (rewrite (geo_count _ _ _ g); exact H).
  rewrite (geo_count _ _ _ g). unfold record_pages.
  set (x := record_bytes (2 ^ rb) mc). clearbody x. clear. lia.
Qed.
Example C41_example : forall rb, rb <= 30 -> record_bytes (2 ^ rb) 1000000 + 4096 <= 2 ^ 64.
Proof.
  intros rb H. unfold record_bytes.
  pose proof (N.pow_le_mono_r 2 rb 30 ltac:(discriminate) H) as L.
  change (2 ^ 30) with 1073741824 in L. change (2 ^ 64) with 18446744073709551616. 
  set (x := 2 ^ rb) in *. clearbody x. lia.
Qed.

(** 2^60 mailboxes need more than 2^64 bytes, but get the pages of an enclave
    without mailboxes, and create_enclave accepts them. *)
Theorem C41_overflow_refuted : forall P top pb rb G s,
  reachable P top pb rb G s ->
  2 ^ 64 < record_bytes (2 ^ rb) (2 ^ 60) /\
  enclave_metadata_pages G (2 ^ 60) = enclave_metadata_pages G 0 /\
  forall c id base mask d s',
    c < g_core_count G -> id < 2 ^ 64 -> base < 2 ^ 64 -> mask < 2 ^ 64 ->
    do_call G c (CCreateEnclave id base mask 0 d) s = (s', Some 0) ->
    exists s2, do_call G c (CCreateEnclave id base mask (2 ^ 60) d) s = (s2, Some 0).
Proof.
  intros P top pb rb G s R. destruct (reach_shows _ _ _ _ _ _ R) as [g [HD [M K]]].
  assert (EQ : enclave_info_pages G (2 ^ 60) = enclave_info_pages G 0).
  { unfold enclave_info_pages, enclave_info_size, enclave_mailbox.
    do 2 f_equal. }
  split.
  { unfold record_bytes. change (2 ^ 60) with 1152921504606846976.
    change (2 ^ 64) with 18446744073709551616. lia. }
  split; [exact EQ|].
  intros c id base mask d s' C A1 A2 A3 D.
  destruct (create_run G pb rb g HD s M c id base mask 0 d s' 0 K C A1 A2 A3 eq_refl D) as [CC X].
  destruct (X eq_refl) as (T & R0 & AL & LD & OW & CR & RS). clear X.
  assert (PR : pow2_range base mask /\ 4096 <= mask + 1 < W64 /\
    page_of pb id + enclave_info_pages G 0 <= 2 ^ pb).
  { destruct CC as [[_ Y]|[Y1 [Y2 [[Z1 Z2]|[Z1 [[_ Z2]|[Z3 _]]]]]]]; try discriminate.
    - exfalso. apply Z1. auto.
    - auto. }
  destruct PR as (X1 & X2 & X3).
  apply (create_succeeds G pb rb g HD s M c id base mask (2 ^ 60) d K C A1 A2 A3 eq_refl X1 X2
    AL LD OW).
  - rewrite EQ. exact X3.
  - rewrite EQ. apply CR.
Qed.

(** A thread record fits in the pages reserved for it. *)
Theorem C41_thread_pages_cover : thread_metadata_size <= 4096 * api_thread_metadata_pages.
Proof. vm_compute. discriminate. Qed.

(** ** C42 *)

(** In every reachable state a metadata region can be freed, in particular right
    after an enclave was created in it. *)
Theorem C42_live_region_freed_refuted :
  forall P top pb rb G s c id base mask mc d s' c',
  reachable P top pb rb G s -> c < g_core_count G -> c' < g_core_count G ->
  id < 2 ^ 64 -> base < 2 ^ 64 -> mask < 2 ^ 64 -> mc < 2 ^ 64 ->
  do_call G c (CCreateEnclave id base mask mc d) s = (s', Some 0) ->
  exists s2, do_call G c' (CFree (region_of pb rb id)) s' = (s2, Some 0) /\
    owner_of G s2 (region_of pb rb id) = 3.
Proof.
  intros P top pb rb G s c id base mask mc d s' c' R C C' A1 A2 A3 A4 D.
  destruct (reach_shows _ _ _ _ _ _ R) as [g [HD [M K]]].
  destruct (create_run G pb rb g HD s M c id base mask mc d s' 0 K C A1 A2 A3 A4 D) as [CC X].
  destruct (X eq_refl) as (T & R0 & AL & LD & OW & CR & RS). clear X.
  assert (E1 : estep G pb rb s (ECall c (CCreateEnclave id base mask mc d)) 0 s')
    by (constructor; [auto|cbn; auto|exact Logic.I|exact D]).
  destruct (step_refines G pb rb g HD s M _ _ _ K E1) as [M1 [EF1 K1]].
  cbn in EF1. subst M1.
  set (r := region_of pb rb id) in *.
  assert (RL : r < 2 ^ rb) by apply region_of_lt.
  assert (RW : r < W64).
  { pose proof (geo_rb _ _ _ g). pose proof (p60 rb ltac:(lia)). unfold W64. lia. }
  destruct (call_refines G pb rb g HD s' M c' (CFree r) K1 C' RW Logic.I)
    as [s2 [v [M2 [D2 [EF [K2 _]]]]]].
  cbn [effect] in EF. unfold free_table in EF.
  destruct (N.leb_spec (2 ^ rb) r); [lia|].
  rewrite (taken_not0 M r R0), OW in EF. inversion EF; subst v M2.
  exists s2. split; [exact D2|].
  rewrite (sh_owner _ _ _ K2) by (rewrite (geo_count _ _ _ g); exact RL).
  cbn [m_owner set_owner]. rewrite upd_same. reflexivity.
Qed.

(** ** C43 *)

(** The counts are zero, but the bits of the enclave's region bitmap are whatever
    the memory held before. *)
Theorem C43_new_enclave_partial :
  forall P top pb rb G s c id base mask mc d s',
  reachable P top pb rb G s -> c < g_core_count G ->
  id < 2 ^ 64 -> base < 2 ^ 64 -> mask < 2 ^ 64 -> mc < 2 ^ 64 ->
  2 ^ (12 + pb + rb) <= g_dram_size G -> first_stripe pb rb id -> usable G pb id ->
  do_call G c (CCreateEnclave id base mask mc d) s = (s', Some 0) ->
  ld 8 (s_mem s') (id + 40) = 0 /\ ld 8 (s_mem s') (id + 32) = 0 /\
  (forall r, r < g_dram_region_count G -> enclave_bit s' id r = enclave_bit s id r).
Proof.
  intros P top pb rb G s c id base mask mc d s' R C A1 A2 A3 A4 FULL F U D.
  destruct (reach_shows _ _ _ _ _ _ R) as [g [HD [M K]]].
  destruct (create_run G pb rb g HD s M c id base mask mc d s' 0 K C A1 A2 A3 A4 D) as [CC X].
  destruct (X eq_refl) as (T & R0 & AL & LD & OW & CR & RS). clear X.
  destruct (created_facts G pb rb g HD id base mask mc d _ _ A1 F CR) as (FR & FREE & FRAME & MK).
  assert (PGB : page_of pb id + pages G mc <= 2 ^ pb).
  { destruct CC as [[_ Y]|[_ [_ [[Y1 Y2]|[Y1 [[_ Y2]|[Y3 _]]]]]]]; try discriminate; auto.
    exfalso. apply Y1. auto. }
  split; [apply FR|]. split; [apply FR|]. intros r RL. unfold enclave_bit. f_equal.
  apply ld_byte. intros b B1 B2. apply FRAME; [lia|]. right.
  pose proof (page_lt pb id) as PL.
  pose proof (entries_below G pb rb id (N.max 1 (pages G mc)) g HD FULL F U AL ltac:(lia)). lia.
Qed.

Definition ex_dirty : state := set_mem ex_s0 (st 1 (s_mem ex_s0) (page_addr 6 4 15 1 + 304) 8).
Definition ex_dirty1 : state := fst (do_call ex_G 0 (CBlock 15) ex_dirty).
Definition ex_dirty2 : state := fst (do_call ex_G 0 (CFree 15) ex_dirty1).
Definition ex_dirty3 : state := fst (do_call ex_G 0 (CCreateMetadataRegion 15) ex_dirty2).

(** An enclave that, right after its creation, has region 3 in its bitmap. *)
Theorem C43_bitmap_refuted :
  exists s s', reachable ex_platform 0 6 4 ex_G s /\
    do_call ex_G 0 (CCreateEnclave (page_addr 6 4 15 1) 0x10000 0xffff 1 false) s = (s', Some 0) /\
    enclave_bit s' (page_addr 6 4 15 1) 3 = true.
Proof.
  assert (D1 : do_call ex_G 0 (CBlock 15) ex_dirty = (ex_dirty1, Some 0))
    by (apply call_val; vm_compute; reflexivity).
  assert (D2 : do_call ex_G 0 (CFree 15) ex_dirty1 = (ex_dirty2, Some 0))
    by (apply call_val; vm_compute; reflexivity).
  assert (D3 : do_call ex_G 0 (CCreateMetadataRegion 15) ex_dirty2 = (ex_dirty3, Some 0))
    by (apply call_val; vm_compute; reflexivity).
  assert (R0 : reachable ex_platform 0 6 4 ex_G ex_dirty).
  { eapply reach_step; [apply reach_start; exact ex_started|].
    apply (es_store ex_G 6 4 ex_s0 0); [reflexivity|reflexivity|].
    vm_compute. split; [reflexivity|discriminate]. }
  assert (R2 : reachable ex_platform 0 6 4 ex_G ex_dirty2).
  { eapply reach_step; [eapply reach_step; [exact R0|]|].
    - refine (es_call _ _ _ _ 0 _ _ _ _ _ _ D1); [reflexivity|reflexivity|exact I].
    - refine (es_call _ _ _ _ 0 _ _ _ _ _ _ D2); [reflexivity|reflexivity|exact I]. }
  assert (R3 : reachable ex_platform 0 6 4 ex_G ex_dirty3).
  { eapply reach_step; [exact R2|].
    refine (es_call _ _ _ _ 0 _ _ _ _ _ _ D3); [reflexivity|reflexivity|exact I]. }
  assert (X : exists s2, do_call ex_G 0
      (CCreateEnclave (page_addr 6 4 15 1) 0x10000 0xffff 1 false) ex_dirty3 = (s2, Some 0) /\
    reachable ex_platform 0 6 4 ex_G s2 /\ first_stripe 6 4 (page_addr 6 4 15 1)).
  { refine (create_in_fresh ex_platform 0 6 4 ex_G ex_dirty2 0 15 ex_dirty3 0 1 0x10000 0xffff 1
      false R2 _ _ D3 _ _ _ _ _ ex_range _ _ _);
    [reflexivity|reflexivity|vm_compute; discriminate|reflexivity|reflexivity|reflexivity|reflexivity
    |split; [discriminate|reflexivity]|reflexivity|vm_compute; discriminate]. }
  destruct X as [s' [E [_ F]]].
  exists ex_dirty3, s'. split; [exact R3|]. split; [exact E|].
  assert (U : usable ex_G 6 (page_addr 6 4 15 1)) by (vm_compute; discriminate).
  assert (FL : 2 ^ (12 + 6 + 4) <= g_dram_size ex_G) by (vm_compute; discriminate).
  destruct (C43_new_enclave_partial ex_platform 0 6 4 ex_G ex_dirty3 0 (page_addr 6 4 15 1)
      0x10000 0xffff 1 false s' R3 eq_refl eq_refl eq_refl eq_refl eq_refl FL F U E) as (_ & _ & B).
  rewrite (B 3 eq_refl). vm_compute. reflexivity.
Qed.

(** ** C44 *)

(** In no reachable state do the calls that load, initialise, enter or delete an
    enclave, or give a region to it, succeed. *)
Theorem C44_never_loaded_refuted :
  forall P top pb rb G s c k v s',
  reachable P top pb rb G s -> c < g_core_count G -> call_args_ok k ->
  match k with
  | CLoadPageTable _ _ _ _ _ | CLoadPage _ _ _ _ _ | CInitEnclave _
  | CEnterEnclave _ _ | CDeleteEnclave _ => True
  | CAssign _ e => e <> 0
  | _ => False
  end ->
  do_call G c k s = (s', Some v) -> v <> 0.
Proof.
  intros P top pb rb G s c k v s' R C A KK D.
  destruct (reach_shows _ _ _ _ _ _ R) as [g [HD [M K]]].
  assert (S : seq_call G pb rb k) by (destruct k; try exact I; contradiction).
  destruct (call_refines G pb rb g HD s M c k K C A S) as [s2 [w [M' [D2 [EF _]]]]].
  rewrite D in D2. inversion D2; subst s2 w.
  destruct k; try contradiction; cbn [effect] in EF; try apply EF.
  apply assign_inv in EF as [[V _]|(_ & _ & E & _)]; [exact V|contradiction].
Qed.
Example C44_example : exists s, reachable ex_platform 0 6 4 ex_G s /\
  exists s', do_call ex_G 0 (CInitEnclave (page_addr 6 4 15 1)) s = (s', Some 1).
Proof.
  exists ex_free. split; [exact ex_free_reach|]. eexists. apply call_val. vm_compute. reflexivity.
Qed.

(** ** C45 *)
Theorem C45_no_threads_refuted :
  forall P top pb rb G s c k v s',
  reachable P top pb rb G s -> c < g_core_count G -> call_args_ok k ->
  match k with CAssignThread _ _ | CLoadThread _ _ _ _ _ _ => True | _ => False end ->
  do_call G c k s = (s', Some v) -> v <> 0.
Proof.
  intros P top pb rb G s c k v s' R C A KK D.
  destruct (reach_shows _ _ _ _ _ _ R) as [g [HD [M K]]].
  assert (S : seq_call G pb rb k) by (destruct k; try exact I; contradiction).
  destruct (call_refines G pb rb g HD s M c k K C A S) as [s2 [w [M' [D2 [EF _]]]]].
  rewrite D in D2. inversion D2; subst s2 w.
  destruct k; try contradiction; cbn [effect] in EF; apply EF.
Qed.

Definition P_Metadata_theorems :=
  (C38_create_enclave_partial, C38_one_page_marked_partial, C38_marking_refuted,
   C39_no_double_allocation_partial, C39_last_page_refuted, C39_live_enclave_refuted,
   C40_map_page_refuted, C41_pages_cover_partial, C41_overflow_refuted,
   C41_thread_pages_cover, C42_live_region_freed_refuted, C43_new_enclave_partial,
   C43_bitmap_refuted, C44_never_loaded_refuted, C45_no_threads_refuted).
Print Assumptions P_Metadata_theorems.
