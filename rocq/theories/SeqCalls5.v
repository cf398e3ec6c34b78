(** * The metadata map and the calls that use it (sequential execution). *)
From Coq Require Import NArith ZArith Lia Bool List.
From Coq Require Import ZifyBool ZifyNat ZifyN.
From Verif Require Import Word Machine ModelBare ModelHash ModelInl ModelRegions
  ModelMetadata ModelEnclave ModelBoot ModelApi Lib BareProofs SpecGeometry
  GeomProofs SpecMeasure HashProofs MeasureProofs SpecMonitor ViewProofs SeqProofs SeqCalls SeqCalls2
  SeqCalls3 SeqCalls4.
Import ListNotations.
Open Scope N_scope.
Ltac Zify.zify_post_hook ::= Z.div_mod_to_equations.

Section Calls5.
Variables (G : globals) (pb rb : N).
Hypothesis g : geom G pb rb.
Local Notation n := (g_dram_region_count G).

Definition lock_meta_code (id : N) (M : mstate) : N :=
  if negb (id mod 4096 =? 0) || (g_dram_size G <=? id) then invalid_value
  else if taken M (region_of pb rb id) then concurrent_call
  else match m_owner M (region_of pb rb id) with
       | Metadata => ok | _ => invalid_state end.

Lemma aligned_bool id : is_page_aligned id = (id mod 4096 =? 0).
Proof.
  apply eq_true_iff_eq. rewrite page_aligned_iff, N.eqb_eq. reflexivity.
Qed.

Lemma lock_meta_seq c id o M : like G o M ->
  wp G c (lock_metadata_region_for G id) o (fun vr o' =>
    fst vr = lock_meta_code id M /\
    (fst vr <> ok -> oeq o o') /\
    (fst vr = ok -> snd vr = region_of pb rb id /\
       o' = with_lock o (region_of pb rb id) 1)).
Proof.
  intros K. unfold lock_metadata_region_for, lock_meta_code.
  rewrite aligned_bool. unfold is_dram_address.
  replace (negb (id <? g_dram_size G)) with (g_dram_size G <=? id) by lia.
  destruct (negb (id mod 4096 =? 0) || (g_dram_size G <=? id)).
  { apply wp_ret. split; [reflexivity|]. split; [intros _; apply oeq_refl|discriminate]. }
  rewrite (region_for_spec G pb rb g). set (r := region_of pb rb id).
  assert (R : r < n) by (rewrite (n_val G pb rb g); apply region_of_lt).
  apply wp_bind. apply (wp_tas_taken G pb rb g c r o M); auto.
  destruct (taken M r) eqn:T.
  { apply wp_ret. split; [reflexivity|]. split; [|discriminate]. intros _.
    apply (oeq_taken G o M); auto. }
  bnd (wp_owner G pb rb g). cbn [o_owner with_lock]. rewrite (lk_owner _ _ _ K r R).
  destruct (m_owner M r); cbn [owner_code].
  1,2,4: bnd (wp_clr G pb rb g); apply wp_ret; split; [reflexivity|];
    split; [|discriminate]; intros _; apply (oeq_released G o M); auto.
  apply wp_ret. split; [reflexivity|]. split; [intros X; exfalso; apply X; reflexivity|].
  intros _. split; reflexivity.
Qed.

Lemma meta_not0 id o M : like G o M -> lock_meta_code id M = ok ->
  region_of pb rb id <> 0 /\ id mod 4096 = 0 /\ id < g_dram_size G /\
  m_owner M (region_of pb rb id) = Metadata /\ taken M (region_of pb rb id) = false /\
  g_monitor_top G <= id /\ id + 4096 <= W64.
Proof.
  intros K. unfold lock_meta_code.
  destruct (N.eqb_spec (id mod 4096) 0) as [A|A]; cbn [negb orb]; [|discriminate].
  destruct (N.leb_spec (g_dram_size G) id) as [D|D]; [discriminate|].
  destruct (taken M _) eqn:T; [discriminate|].
  destruct (m_owner M _) eqn:OW; try discriminate. intros _.
  assert (R0 : region_of pb rb id <> 0).
  { intros E. rewrite E, (lk_region0 _ _ _ K) in OW. discriminate. }
  repeat split; auto.
  - apply N.le_trans with (2 ^ (12 + pb)); [apply (geo_fits _ _ _ g)|].
    apply N.nlt_ge. intros L. apply R0. apply region0_low; auto.
  - pose proof (geo_D _ _ _ g). unfold W64 in *. lia.
Qed.

(** ** assign_metadata_pages *)
Lemma wp_map_entry c id o (Q : N -> ost -> Prop) :
  Q (metadata_page_info_for_val G id) o -> wp G c (metadata_page_info_for G id) o Q.
Proof.
  intros H. unfold metadata_page_info_for, dram_region_page_for.
  apply wp_bind, wp_bind, wp_ub. apply wp_ret. apply wp_ret. exact H.
Qed.

Lemma busy_seq c o a : forall k i, g_monitor_top G <= a ->
  a + 8 * (i + N.of_nat k) <= W64 ->
  wp G c (for_exit k i (fun i => v <- load64 (wadd a (wmul 8 i)) ;;
             if v =? 0 then Ret None else Ret (Some monitor_invalid_state))) o
    (fun res o' => o' = o /\
      ((res = None /\ forall j, i <= j < i + N.of_nat k -> ld 8 (o_rest o) (a + 8 * j) = 0) \/
       (res = Some monitor_invalid_state /\
        exists j, i <= j < i + N.of_nat k /\ ld 8 (o_rest o) (a + 8 * j) <> 0))).
Proof.
  induction k as [|k IH]; intros i A B; cbn [for_exit].
  - apply wp_ret. split; auto. left. split; auto. intros j J. cbn in J. lia.
  - rewrite wmul_small by lia. rewrite wadd_small by lia.
    apply wp_bind, wp_bind. apply wp_load_rest.
    { intros b X. apply (rest_high G pb rb g). lia. }
    destruct (N.eqb_spec (ld 8 (o_rest o) (a + 8 * i)) 0) as [E|E]; apply wp_ret.
    + eapply wp_weaken; [|apply IH; lia]. cbv beta. intros res o' [-> [[-> H]|[-> [j [J1 J2]]]]].
      * split; auto. left. split; auto. intros j J.
        destruct (N.eq_dec j i) as [->|]; [auto|apply H; lia].
      * split; auto. right. split; auto. exists j. split; [lia|auto].
    + apply wp_ret. split; auto. right. split; auto. exists i. split; [lia|auto].
Qed.

Lemma fill_seq c v a (Q : unit -> ost -> Prop) : forall k i o, v < W64 -> g_monitor_top G <= a ->
  a + 8 * (i + N.of_nat k) <= W64 ->
  (forall m, (forall j, i <= j < i + N.of_nat k -> ld 8 m (a + 8 * j) = v) ->
     (forall b, b < a + 8 * i \/ a + 8 * (i + N.of_nat k) <= b ->
        byte m b = byte (o_rest o) b) ->
     Q tt (with_rest o m)) ->
  wp G c (for_n k i (fun i => store64 (wadd a (wmul 8 i)) v ;; Ret tt)) o Q.
Proof.
  induction k as [|k IH]; intros i o V A B H; cbn [for_n].
  - apply wp_ret. replace o with (with_rest o (o_rest o)) by (destruct o; reflexivity).
    apply H; auto. intros j J. cbn in J. lia.
  - rewrite wmul_small by lia. rewrite wadd_small by lia.
    apply wp_bind, wp_bind. apply (wp_st_rest G pb rb g); auto.
    { intros b X. apply (rest_high G pb rb g). lia. }
    apply wp_ret. apply IH; auto; [lia|].
    cbn [o_rest with_rest]. intros m M1 M2.
    change (with_rest (with_rest o (st 8 (o_rest o) (a + 8 * i) v)) m) with (with_rest o m).
    apply H.
    + intros j J. destruct (N.eq_dec j i) as [->|].
      * rewrite (ld_byte 8 m (st 8 (o_rest o) (a + 8 * i) v)).
        -- apply ld8_st8; auto.
        -- intros b B1 B2. change (N.of_nat 8) with 8 in B2. apply M2. lia.
      * apply M1. lia.
    + intros b X. rewrite M2 by lia. apply byte_st_out. change (N.of_nat 8) with 8. lia.
Qed.

(** The number of entries and their values after an allocation of [count]
    pages (the values the code leaves). *)
Definition map_marked (m : mem) (a count info : N) : Prop :=
  (count <= 1 -> ld 8 m a = info) /\
  (2 <= count -> (forall j, j < count - 1 -> ld 8 m (a + 8 * j) = inner_metadata_page_type) /\
                 ld 8 m (a + 8 * (count - 1)) = 0).
Definition map_free (m : mem) (a count : N) : Prop :=
  forall j, j < count -> ld 8 m (a + 8 * j) = 0.

Lemma assign_pages_seq c id count ow ty fi o :
  id < W64 -> region_of pb rb id <> 0 -> count <= 2 ^ 60 ->
  metadata_page_info ow ty < W64 ->
  let a := metadata_page_info_for_val G id in
  wp G c (assign_metadata_pages G id count ow ty fi) o (fun v o' =>
    (v = invalid_value /\ 2 ^ pb < (id / 4096) mod 2 ^ pb + count /\ o' = o) \/
    ((id / 4096) mod 2 ^ pb + count <= 2 ^ pb /\
      ((v = invalid_state /\ ~ map_free (o_rest o) a count /\ o' = o) \/
       (v = ok /\ map_free (o_rest o) a count /\ exists m, o' = with_rest o m /\
          map_marked m a count (metadata_page_info ow ty) /\
          (forall b, b < a \/ a + 8 * N.max 1 count <= b -> byte m b = byte (o_rest o) b))))).
Proof.
  intros H R CB IB a. unfold assign_metadata_pages.
  rewrite (stripe_page_for_spec G pb rb g), (geo_pages _ _ _ g).
  assert (PL : (id / 4096) mod 2 ^ pb < 2 ^ pb) by (apply N.mod_lt, pow2_nz).
  pose proof (geo_pb _ _ _ g) as GP. pose proof (p30 pb ltac:(lia)) as P30.
  change (2 ^ 60) with 1152921504606846976 in CB.
  rewrite wadd_small by (unfold W64; lia).
  set (sp := (id / 4096) mod 2 ^ pb) in *.
  destruct (N.ltb_spec (2 ^ pb) (sp + count)) as [L|L].
  { apply wp_ret. left. auto. }
  assert (HI : forall i, i < count \/ i = 0 -> g_monitor_top G <= a /\ a + 8 * i + 8 <= W64).
  { intros i I. apply (map_entries_high G pb rb g id count i); auto. }
  destruct (HI 0 (or_intror eq_refl)) as [A0 A1].
  assert (AC : a + 8 * count <= W64).
  { destruct (N.eq_dec count 0) as [->|]; [lia|]. specialize (HI (count - 1)). lia. }
  apply wp_bind. apply wp_map_entry. fold a.
  apply wp_bind. eapply wp_weaken; [|apply busy_seq; rewrite ?N2Nat.id; auto].
  rewrite N2Nat.id.
  cbv beta. intros res o' [-> [[-> F]|[-> [j [J1 J2]]]]].
  2:{ apply wp_ret. right. split; [lia|]. left. split; [reflexivity|]. split; auto.
      intros X. apply J2, X. lia. }
  apply wp_bind. apply (wp_st_rest G pb rb g); auto.
  { intros b X. apply (rest_high G pb rb g). lia. }
  apply wp_bind. apply fill_seq; rewrite ?N2Nat.id; auto; [reflexivity|lia|].
  cbn [o_rest with_rest]. intros m M1 M2.
  apply wp_ret. right. split; [lia|]. right. split; [reflexivity|].
  split; [intros j J; apply F; lia|].
  exists m. split; [reflexivity|]. split; [split|].
  - intros C1. rewrite (ld_byte 8 m (st 8 (o_rest o) a (metadata_page_info ow ty))).
    + apply ld8_st8; auto.
    + intros b B1 B2. change (N.of_nat 8) with 8 in B2. apply M2. lia.
  - intros C2. split.
    + intros j J. apply M1. lia.
    + rewrite (ld_byte 8 m (o_rest o)); [apply F; lia|].
      intros b B1 B2. change (N.of_nat 8) with 8 in B2. rewrite M2 by lia.
      apply byte_st_out. change (N.of_nat 8) with 8. lia.
  - intros b X. rewrite M2 by lia. apply byte_st_out. change (N.of_nat 8) with 8. lia.
Qed.

(** ** create_enclave *)
Lemma wp_confined {A} c (p : prog A) lo hi (P : A -> mem -> Prop) o (Q : A -> ost -> Prop) :
  (forall b, lo <= b < hi -> rest G b) ->
  (forall s, view G s o -> exists m v, run c p s = (set_mem s m, Some v) /\
     (forall b, b < lo \/ hi <= b -> byte m b = byte (s_mem s) b) /\ P v m) ->
  (forall v m m', P v m -> (forall b, lo <= b < hi -> byte m' b = byte m b) ->
     (forall b, b < lo \/ hi <= b -> byte m' b = byte (o_rest o) b) ->
     Q v (with_rest o m')) ->
  wp G c p o Q.
Proof.
  intros R X Y s V. destruct (X s V) as [m [v [E [F PM]]]].
  destruct (view_confined G pb rb g s o m lo hi V R F) as [m' [V' [A1 A2]]].
  exists (set_mem s m), v, (with_rest o m'). split; auto. split; auto.
  apply (Y v m); auto.
Qed.

Lemma measure_inv_ext ei m m' msg : measure_inv ei m msg ->
  (forall b, ei + 80 <= b < ei + 304 -> byte m' b = byte m b) ->
  measure_inv ei m' msg.
Proof.
  intros [I Z] H. split.
  - eapply session_inv_other; [exact I|]. intros b B. apply H. lia.
  - intros b B. rewrite H by lia. apply Z. lia.
Qed.

(** The enclave record right after its creation. *)
Record fresh_record (m : mem) (id base mask mc : N) (d : bool) : Prop := mkFresh {
  fr_lock : ld 8 m id = 0;
  fr_mailboxes : ld 8 m (id + 8) = mc;
  fr_initialized : ld 8 m (id + 16) = 0;
  fr_debug : ld 8 m (id + 24) = if d then 1 else 0;
  fr_threads : ld 8 m (id + 32) = 0;
  fr_regions : ld 8 m (id + 40) = 0;
  fr_base : ld 8 m (id + 48) = base;
  fr_mask : ld 8 m (id + 56) = mask;
  fr_eptbr : ld 8 m (id + 64) = 0;
  fr_last : ld 8 m (id + 72) = 0;
  fr_measure : measure_inv id m (enc_create (mkHistory base mask mc d [])) }.

Lemma fresh_ext m m' id base mask mc d : fresh_record m id base mask mc d ->
  (forall b, id <= b < id + 304 -> byte m' b = byte m b) ->
  fresh_record m' id base mask mc d.
Proof.
  intros [] H.
  constructor; try (erewrite (ld_byte 8 m' m); [eassumption|]; intros b B1 B2;
    change (N.of_nat 8) with 8 in B2; apply H; lia).
  eapply measure_inv_ext; [exact fr_measure0|]. intros b B. apply H. lia.
Qed.

Lemma init_info_run c s id base mask mc d : id + 304 <= W64 ->
  base < W64 -> mask < W64 -> mc < W64 ->
  exists m, run c (init_enclave_info id base mask mc d) s = (set_mem s m, Some tt) /\
    fresh_record m id base mask mc d /\
    (forall b, b < id \/ id + 304 <= b -> byte m b = byte (s_mem s) b).
Proof.
  intros H B1 B2 B3. unfold init_enclave_info.
  change ei_lock with 0. change ei_mailbox_count with 8. change ei_is_initialized with 16.
  change ei_is_debug with 24. change ei_thread_count with 32.
  change ei_dram_region_count with 40. change ei_ev_base with 48. change ei_ev_mask with 56.
  change ei_load_eptbr with 64. change ei_last_load_addr with 72.
  rewrite (wadd_small id 0), (wadd_small id 8), (wadd_small id 16), (wadd_small id 24),
    (wadd_small id 32), (wadd_small id 40), (wadd_small id 48), (wadd_small id 56),
    (wadd_small id 64), (wadd_small id 72) by lia.
  rewrite N.add_0_r.
  rewrite run_bind. rewrite run_op1. cbn [step fst snd].
  run_stores.
  match goal with |- context [run c _ (set_mem s ?x)] => set (m1 := x) end.
  destruct (measure_create_run c id H (set_mem s m1) base mask mc d B1 B2 B3)
    as [m [E [I F]]].
  rewrite E, set_mem_set_mem. exists m. split; [reflexivity|].
  cbn [s_mem set_mem] in F.
  assert (DB : N_of_bool d < W64) by (destruct d; reflexivity).
  assert (L : forall k, k <= 72 -> ld 8 m (id + k) = ld 8 m1 (id + k)).
  { intros k Kk. apply ld_byte. intros b X1 X2. change (N.of_nat 8) with 8 in X2.
    unfold byte. rewrite F; auto. left. lia. }
  split.
  - constructor; try exact I.
    + rewrite <- (N.add_0_r id). rewrite L by lia. rewrite N.add_0_r. unfold m1. mld. reflexivity.
    + rewrite L by lia. unfold m1. mld. reflexivity.
    + rewrite L by lia. unfold m1. mld. reflexivity.
    + rewrite L by lia. unfold m1. mld. destruct d; reflexivity.
    + rewrite L by lia. unfold m1. mld. reflexivity.
    + rewrite L by lia. unfold m1. mld. reflexivity.
    + rewrite L by lia. unfold m1. mld. reflexivity.
    + rewrite L by lia. unfold m1. mld. reflexivity.
    + rewrite L by lia. unfold m1. mld. reflexivity.
    + rewrite L by lia. unfold m1. mld. reflexivity.
  - intros b B. unfold byte. rewrite F by (unfold outside_measure; lia).
    unfold m1. repeat (rewrite st_out by (change (N.of_nat 8) with 8; lia)). reflexivity.
Qed.

Lemma info_pages_small mc : enclave_info_pages G mc <= 2 ^ 60.
Proof.
  unfold enclave_info_pages, pages_needed_for.
  change page_shift with 12. rewrite wshr_small by reflexivity.
  pose proof (wsub_lt (wadd (enclave_info_size G mc) page_size) 1).
  change (2 ^ 12) with 4096. change (2 ^ 60) with 1152921504606846976.
  unfold W64 in *. apply N.div_le_upper_bound; lia.
Qed.
Lemma info_lt id ty : id < W64 -> ty < 16 -> metadata_page_info id ty < W64.
Proof.
  intros A B. unfold metadata_page_info. rewrite W64_pow in *. apply lor_lt; auto.
  eapply N.lt_le_trans; [exact B|]. change 16 with (2 ^ 4). apply pow2_le. lia.
Qed.

(** What a successful create_enclave does to the memory outside the tables. *)
Definition created (id base mask mc : N) (d : bool) (m0 m2 : mem) : Prop :=
  let a := metadata_page_info_for_val G id in
  let count := enclave_info_pages G mc in
  map_free m0 a count /\
  exists m1,
    map_marked m1 a count (metadata_page_info id enclave_metadata_page_type) /\
    (forall b, b < a \/ a + 8 * N.max 1 count <= b -> byte m1 b = byte m0 b) /\
    fresh_record m2 id base mask mc d /\
    (forall b, b < id \/ id + 304 <= b -> byte m2 b = byte m1 b).

Lemma oeq_relock o M r m : like G o M -> r < n -> taken M r = false ->
  oeq (with_rest o m) (with_lock (with_rest (with_lock o r 1) m) r 0).
Proof. intros K R T. pose proof (free_lock G o M r K R T). oeqs. Qed.

Definition create_code (id base mask mc : N) (M : mstate) (m0 : mem) (v : N) : Prop :=
  (~ (pow2_range base mask /\ 4096 <= mask + 1 < W64) /\ v = invalid_value) \/
  (pow2_range base mask /\ 4096 <= mask + 1 < W64 /\
   ((lock_meta_code id M <> ok /\ v = lock_meta_code id M) \/
    (lock_meta_code id M = ok /\
     let count := enclave_info_pages G mc in
     ((2 ^ pb < (id / 4096) mod 2 ^ pb + count /\ v = invalid_value) \/
      ((id / 4096) mod 2 ^ pb + count <= 2 ^ pb /\
       ((~ map_free m0 (metadata_page_info_for_val G id) count /\ v = invalid_state) \/
        (map_free m0 (metadata_page_info_for_val G id) count /\ v = ok))))))).

Lemma create_enclave_seq c id base mask mc d o M : like G o M ->
  id < W64 -> base < W64 -> mask < W64 -> mc < W64 ->
  wp G c (create_enclave G id base mask mc d) o (fun v o' =>
    create_code id base mask mc M (o_rest o) v /\
    (v <> ok -> oeq o o') /\
    (v = ok -> exists m2, oeq (with_rest o m2) o' /\ g_monitor_top G <= id /\
       created id base mask mc d (o_rest o) m2)).
Proof.
  intros K HI HB HM HC. unfold create_enclave, create_code.
  pose proof (range_iff base mask HB HM) as RI.
  destruct (is_valid_range base mask) eqn:VR; cbn [negb].
  2:{ apply wp_ret. split; [|split; [intros _; apply oeq_refl|discriminate]].
      left. split; auto. intros [X _]. apply RI in X. discriminate. }
  assert (PR : pow2_range base mask) by (apply RI; reflexivity).
  rewrite page_size_val.
  assert (ME : (wadd mask 1 <? 4096) = negb ((4096 <=? mask + 1) && (mask + 1 <? W64))).
  { destruct (N.eq_dec (mask + 1) W64) as [E|E].
    - unfold wadd. rewrite E. rewrite N.mod_same by discriminate.
      rewrite N.ltb_irrefl, andb_false_r. reflexivity.
    - rewrite wadd_small by lia. lia. }
  rewrite ME.
  destruct ((4096 <=? mask + 1) && (mask + 1 <? W64)) eqn:MB; cbn [negb].
  2:{ apply wp_ret. split; [|split; [intros _; apply oeq_refl|discriminate]].
      left. split; auto. lia. }
  apply wp_bind. eapply wp_weaken; [|apply (lock_meta_seq c id o M K)].
  cbv beta. intros [v r] o1 [E1 [E2 E3]]. cbn [fst snd] in *.
  destruct (N.eq_dec v ok) as [VO|VO].
  2:{ destruct (N.eqb_spec v monitor_ok) as [X|X]; [exfalso; apply VO; exact X|].
      cbn [negb]. apply wp_ret.
      split; [|split; [auto|intros Y; contradiction]].
      right. split; auto. split; [lia|]. left. rewrite <- E1. auto. }
  rewrite VO in *. change (ok =? monitor_ok) with true. cbn [negb].
  destruct (E3 eq_refl) as [-> ->]. symmetry in E1.
  destruct (meta_not0 id o M K E1) as (R0 & AL & LD & OW & T & TOP & H4).
  set (q := region_of pb rb id) in *.
  assert (R : q < n) by (rewrite (n_val G pb rb g); apply region_of_lt).
  bnd (wp_owner G pb rb g). cbn [o_owner with_lock]. rewrite (lk_owner _ _ _ K q R), OW.
  change (owner_code Metadata =? metadata_enclave_id) with true. cbn [negb].
  apply wp_bind. unfold reserve_metadata_pages.
  eapply wp_weaken; [|apply (assign_pages_seq c id (enclave_info_pages G mc) id
     enclave_metadata_page_type empty_metadata_page_type); auto;
     [apply info_pages_small|apply info_lt; [auto|reflexivity]]].
  cbv beta. cbn [o_rest with_lock].
  set (a := metadata_page_info_for_val G id). set (count := enclave_info_pages G mc).
  intros w o2 [[-> [X ->]]|[C [[-> [F ->]]|[-> [F [m1 [-> [MM FR]]]]]]]].
  - change (invalid_value =? monitor_ok) with false. cbn [negb].
    bnd (wp_clr G pb rb g). apply wp_ret.
    split; [|split; [intros _; apply (oeq_released G o M); auto|discriminate]].
    right. split; auto. split; [lia|]. right. split; auto.
  - change (invalid_state =? monitor_ok) with false. cbn [negb].
    bnd (wp_clr G pb rb g). apply wp_ret.
    split; [|split; [intros _; apply (oeq_released G o M); auto|discriminate]].
    right. split; auto. split; [lia|]. right. split; [auto|]. cbv zeta. right. split; auto.
  - change (ok =? monitor_ok) with true. cbn [negb].
    apply wp_bind.
    apply (wp_confined c _ id (id + 304) (fun _ m => fresh_record m id base mask mc d)).
    + intros b B. apply (rest_high G pb rb g). lia.
    + intros s V. destruct (init_info_run c s id base mask mc d) as [m [RR [FF X]]];
        auto; [lia|]. exists m, tt. auto.
    + intros u m m' FM S1 S2. cbn [o_rest with_rest] in S2.
      bnd (wp_clr G pb rb g). apply wp_ret.
      split; [|split; [intros X; exfalso; apply X; reflexivity|]].
      * right. split; auto. split; [lia|]. right. split; [auto|]. cbv zeta. right. split; auto.
      * intros _. exists m'. split; [apply (oeq_relock o M); auto|]. split; auto.
        split; auto. exists m1. split; auto. split; auto. split.
        -- eapply fresh_ext; [exact FM|exact S1].
        -- exact S2.
Qed.
End Calls5.
