(** * create_enclave and the metadata map, machine level. *)
From Coq Require Import NArith ZArith Lia Bool List.
From Coq Require Import ZifyBool ZifyNat ZifyN.
From Verif Require Import Word Machine ModelBare ModelHash ModelInl ModelRegions
  ModelMetadata ModelEnclave ModelBoot ModelApi Lib BareProofs BootProofs SpecGeometry
  GeomProofs SpecMeasure HashProofs MeasureProofs SpecMonitor SpecHistory SpecMetadata
  ViewProofs SeqProofs SeqCalls SeqCalls2 SeqCalls3 SeqCalls4 SeqCalls5 SeqCalls6
  HistoryProofs HistoryFacts.
Import ListNotations.
Open Scope N_scope.
Ltac Zify.zify_post_hook ::= Z.div_mod_to_equations.

Section Meta.
Variables (G : globals) (pb rb : N).
Hypothesis g : geom G pb rb.
Hypothesis HD : g_dram_size G + g_dram_stripe_size G <= W64.
Local Notation n := (g_dram_region_count G).

Lemma info_size_val mc : record_bytes n mc < W64 ->
  enclave_info_size G mc = record_bytes n mc.
Proof.
  intros H. unfold enclave_info_size, enclave_mailbox, enclave_mailboxes,
    enclave_region_bitmap, record_bytes in *.
  change enclave_info_t_size with 304. change mailbox_size with 304.
  rewrite (geo_words _ _ _ g). rewrite (geo_count _ _ _ g) in *.
  set (w := (2 ^ rb + 63) / 64) in *. clearbody w.
  rewrite !wmul_small by lia. rewrite (wadd_small 0) by (unfold W64; lia).
  rewrite (wadd_small (0 + 304)) by lia. rewrite wadd_small by lia. lia.
Qed.
Lemma info_pages_val mc : record_bytes n mc + 4096 <= W64 ->
  enclave_info_pages G mc = record_pages n mc.
Proof.
  intros H. unfold enclave_info_pages, record_pages.
  rewrite info_size_val by (unfold W64 in *; lia). apply pages_needed_val. exact H.
Qed.
Lemma map_val id : id < W64 -> first_stripe pb rb id ->
  metadata_page_info_for_val G id = map_entry pb rb id.
Proof.
  intros H F. rewrite (map_entry_val G pb rb g) by auto.
  rewrite map_skew_first by exact F. unfold map_entry, stripe_start, page_of. lia.
Qed.
Lemma first_stripe_region id : first_stripe pb rb id ->
  region_of pb rb id = id / 2 ^ (12 + pb).
Proof.
  intros F. unfold region_of. apply N.mod_small. apply N.div_lt_upper_bound; [apply pow2_nz|].
  rewrite <- pow2_add. exact F.
Qed.
(** Decomposition of an aligned address of the first stripe. *)
Lemma first_stripe_addr id : first_stripe pb rb id -> id mod 4096 = 0 ->
  id = stripe_start pb rb (region_of pb rb id) 0 + 4096 * page_of pb id.
Proof.
  intros F A. rewrite (first_stripe_region id F). unfold stripe_start, page_of.
  pose proof (S_split pb) as S. rewrite S.
  pose proof (pow2_pos pb) as PP. set (p := 2 ^ pb) in *. clearbody p.
  rewrite <- N.div_div by lia.
  pose proof (N.div_mod id 4096 ltac:(discriminate)) as D.
  pose proof (N.div_mod (id / 4096) p ltac:(lia)) as D2.
  set (x := id / 4096 / p) in *. set (y := (id / 4096) mod p) in *. clearbody x y.
  rewrite N.mul_0_l, N.add_0_l.
  replace (x * (4096 * p)) with (4096 * (p * x)) by lia. lia.
Qed.
Lemma page_lt id : page_of pb id < 2 ^ pb.
Proof. apply N.mod_lt, pow2_nz. Qed.

(** The map entries stay below the usable pages when DRAM has a full round of
    stripes. *)
Lemma map_size : 2 ^ (12 + pb + rb) <= g_dram_size G ->
  8 * 2 ^ pb <= 4096 * g_metadata_region_start G.
Proof.
  intros F. rewrite (geo_mstart _ _ _ g), (geo_mpages _ _ _ g).
  assert (A : 2 ^ pb <= g_dram_size G / 2 ^ (12 + rb)).
  { apply N.div_le_lower_bound; [apply pow2_nz|]. rewrite <- pow2_add.
    replace (12 + rb + pb) with (12 + pb + rb) by lia. exact F. }
  assert (B : 2 ^ pb <= 2 ^ (9 + pb)) by (apply pow2_le; lia).
  set (u := g_dram_size G / 2 ^ (12 + rb)) in *. set (w := 2 ^ (9 + pb)) in *.
  set (p := 2 ^ pb) in *. clearbody u w p. lia.
Qed.

(** ** One call of create_enclave *)
Definition regs_same (s s' : state) : Prop :=
  (forall c, s_cores s' c = s_cores s c) /\ s_words s' = s_words s /\
  s_dmar_base s' = s_dmar_base s /\ s_dmar_mask s' = s_dmar_mask s /\
  s_dma_start s' = s_dma_start s /\ s_dma_end s' = s_dma_end s.

Lemma created_low id base mask mc d m0 m2 b : g_monitor_top G <= id ->
  id < W64 -> region_of pb rb id <> 0 ->
  page_of pb id + enclave_info_pages G mc <= 2 ^ pb ->
  created G id base mask mc d m0 m2 -> b < g_monitor_top G -> byte m2 b = byte m0 b.
Proof.
  intros T W R PG [_ [m1 (_ & F1 & _ & F2)]] B. rewrite F2 by lia. apply F1. left.
  destruct (map_entries_high G pb rb g id (enclave_info_pages G mc) 0) as [X _]; auto. lia.
Qed.

Lemma create_run s M c id base mask mc d s' v : shows G s M -> c < g_core_count G ->
  id < W64 -> base < W64 -> mask < W64 -> mc < W64 ->
  do_call G c (CCreateEnclave id base mask mc d) s = (s', Some v) ->
  create_code G pb rb id base mask mc M (s_mem s) v /\
  (v = ok -> g_monitor_top G <= id /\ region_of pb rb id <> 0 /\ id mod 4096 = 0 /\
     id < g_dram_size G /\ m_owner M (region_of pb rb id) = Metadata /\
     created G id base mask mc d (s_mem s) (s_mem s') /\ regs_same s s').
Proof.
  intros K C A1 A2 A3 A4 D.
  pose proof (view_of_view G s) as V. set (o := view_of G s) in *.
  pose proof (shows_like G pb rb g s o M V K) as L.
  destruct (create_enclave_seq G pb rb g c id base mask mc d o M L A1 A2 A3 A4 s V)
    as [s2 [w [o' [R [V' (Q0 & Q1 & Q2)]]]]].
  unfold do_call in D. cbn [call_prog] in D. rewrite D in R. inversion R; subst s2 w. clear R.
  change (o_rest o) with (s_mem s) in *. split; [exact Q0|].
  intros VO. destruct (Q2 VO) as [m2 [E [T CR]]].
  assert (LM : lock_meta_code G pb rb id M = ok /\
     page_of pb id + enclave_info_pages G mc <= 2 ^ pb).
  { destruct Q0 as [[_ X]|[_ [_ [[X1 X2]|[X1 [[_ X2]|[X3 _]]]]]]].
    - rewrite VO in X. discriminate.
    - rewrite VO in X2. exfalso. apply X1. auto.
    - rewrite VO in X2. discriminate.
    - split; [exact X1|exact X3]. }
  destruct LM as [LM PG].
  destruct (meta_not0 G pb rb g id o M L LM) as (R0 & AL & LD & OW & _).
  split; [exact T|]. split; [exact R0|]. split; [exact AL|]. split; [exact LD|]. split; [exact OW|].
  assert (VM : view G (set_mem s m2) (with_rest o m2)).
  { apply (v_set_rest G pb rb g); auto. intros b NB.
    apply (created_low id base mask mc d); auto. apply N.nle_gt. intros X. apply NB.
    apply (rest_high G pb rb g). exact X. }
  destruct (oeq_view_same G pb rb g (set_mem s m2) s' _ _ VM V' E) as [].
  cbn [s_mem set_mem s_cores s_words s_dmar_base s_dmar_mask s_dma_start s_dma_end] in *.
  split; [|repeat split; auto].
  eapply created_ext; [|exact CR]. exact sm_mem.
Qed.

(** Conversely: when it succeeds. *)
Lemma create_succeeds s M c id base mask mc d : shows G s M -> c < g_core_count G ->
  id < W64 -> base < W64 -> mask < W64 -> mc < W64 ->
  pow2_range base mask -> 4096 <= mask + 1 < W64 ->
  id mod 4096 = 0 -> id < g_dram_size G ->
  m_owner M (region_of pb rb id) = Metadata ->
  page_of pb id + enclave_info_pages G mc <= 2 ^ pb ->
  map_free (s_mem s) (metadata_page_info_for_val G id) (enclave_info_pages G mc) ->
  exists s', do_call G c (CCreateEnclave id base mask mc d) s = (s', Some 0).
Proof.
  intros K C A1 A2 A3 A4 PR MB AL LD OW PG MF.
  destruct (call_refines G pb rb g HD s M c (CCreateEnclave id base mask mc d) K C)
    as [s' [v [M' [D _]]]]; [cbn; auto|exact I|].
  destruct (create_run s M c id base mask mc d s' v K C A1 A2 A3 A4 D) as [Q _].
  exists s'. rewrite D. do 2 f_equal.
  assert (T : taken M (region_of pb rb id) = false).
  { apply taken_not0. intros E. rewrite E, (sh_region0 _ _ _ K) in OW. discriminate. }
  assert (LM : lock_meta_code G pb rb id M = ok).
  { unfold lock_meta_code. rewrite AL. cbn [N.eqb negb orb].
    destruct (N.leb_spec (g_dram_size G) id); [lia|]. rewrite T, OW. reflexivity. }
  unfold page_of in PG.
  destruct Q as [[X _]|[_ [_ [[X1 _]|[_ [[X3 _]|[_ [[X4 _]|[_ X5]]]]]]]]].
  - exfalso. apply X. auto.
  - contradiction.
  - lia.
  - contradiction.
  - exact X5.
Qed.
End Meta.
