(** * The enclave calls over every machine state. *)
From Coq Require Import NArith ZArith Lia Bool List.
From Coq Require Import ZifyBool ZifyNat ZifyN.
From Verif Require Import Word Machine ModelBare ModelHash ModelInl ModelRegions
  ModelMetadata ModelEnclave ModelBoot ModelApi Lib BareProofs HashProofs SpecMeasure
  MeasureProofs SpecGeometry
  GeomProofs SpecMonitor SpecMetadata ViewProofs SeqProofs SeqCalls SeqCalls2 SeqCalls3
  SeqCalls5 SeqCalls6 HistoryProofs SpecContract.
Import ListNotations.
Open Scope N_scope.
Ltac Zify.zify_post_hook ::= Z.div_mod_to_equations.

(** finalize_enclave_hash whatever the record holds. *)
Lemma finalize_any c ei s : ei + 304 <= W64 ->
  exists m, run c (finalize_enclave_hash ei) s = (set_mem s m, Some tt) /\
    forall b, b < ei + 80 \/ ei + 304 <= b -> m b = s_mem s b.
Proof.
  intros H. unfold finalize_enclave_hash, finalize_hash, extend_enclave_block,
    enclave_measurement_block. cbv zeta.
  change ei_hash_block with 240. change ei_hash with 80. change mb_opcode with 0.
  change hs_padding with 96.
  rewrite !(wadd_small ei) by lia. rewrite (wadd_small (ei + 240)) by lia.
  rewrite (wadd_small (ei + 80)) by lia.
  rewrite run_bind, run_store64.
  set (s1 := set_mem s _).
  destruct (extend_hash_run c s1 (ei + 80) (ei + 240)) as [m1 [E1 [_ [_ F1]]]]; try lia.
  rewrite run_bind, E1.
  destruct (extend_hash_run c (set_mem s1 m1) (ei + 80) (ei + 80 + 96)) as [m2 [E2 [_ [_ F2]]]]; try lia.
  rewrite E2. exists m2. split; [unfold s1; rewrite !set_mem_set_mem; reflexivity|].
  intros b B. rewrite F2 by lia. cbn [s_mem set_mem]. rewrite F1 by lia.
  unfold s1. cbn [s_mem set_mem]. apply st_out. change (N.of_nat 8) with 8. lia.
Qed.

Lemma relocked (o : ost) q m o2 : oeq (with_rest (with_lock o q 1) m) o2 -> o_lock o q = 0 ->
  oeq (with_rest o m) (with_lock o2 q 0).
Proof.
  intros [] Z. constructor; cbn in *; intros; auto.
  unfold upd in *. destruct (N.eqb_spec r q) as [->|NR]; [auto|].
  rewrite oe_lock. destruct (N.eqb_spec r q); [contradiction|reflexivity].
Qed.

Section Contract.
Variables (G : globals) (pb rb : N).
Hypothesis g : geom G pb rb.
Local Notation n := (g_dram_region_count G).
Local Notation W := (g_dram_region_bitmap_words G).

Lemma main_val e : clamped_dram_region_for G e = main_region G pb rb e.
Proof.
  unfold clamped_dram_region_for, main_region, is_dram_address.
  rewrite (region_for_spec G pb rb g). reflexivity.
Qed.
Lemma main_lt e : main_region G pb rb e < n.
Proof. rewrite <- main_val. apply (clamped_lt G pb rb g). Qed.
Lemma region_lt' a : region_of pb rb a < n.
Proof. rewrite <- (region_for_spec G pb rb g). apply (region_lt G pb rb g). Qed.

(** Views of a fixed state. *)
Section At.
Variables (s : state) (c : N).
Hypothesis CL : clean_locks G s.
Local Notation o := (view_of G s).

Lemma busy r : is_locked G s r = true -> oeq o (with_lock o r 1).
Proof.
  unfold is_locked. intros L. apply N.eqb_eq in L.
  assert (L' : o_lock o r = 1) by exact L. oeqs.
Qed.
Lemma idle r : r < n -> is_locked G s r = false -> o_lock o r = 0.
Proof.
  unfold is_locked. intros R L. apply N.eqb_neq in L. destruct (CL r R); [auto|contradiction].
Qed.
Lemma released r : r < n -> is_locked G s r = false -> oeq o (with_lock (with_lock o r 1) r 0).
Proof. intros R L. pose proof (idle r R L) as Z. oeqs. Qed.
Lemma tas r (Q : bool -> ost -> Prop) : r < n -> Q (is_locked G s r) (with_lock o r 1) ->
  wp G c (test_and_set_dram_region_lock G r) o Q.
Proof.
  intros R H. apply (wp_tas G pb rb g); auto.
  replace (negb (o_lock o r =? 0)) with (is_locked G s r); [exact H|].
  unfold is_locked. change (o_lock o r) with (lock_of G s r). destruct (CL r R) as [->| ->]; reflexivity.
Qed.

Lemma named_record e : record_ok G pb rb s e -> names_enclave G pb rb s e = true -> record_at G e.
Proof. auto. Qed.
Lemma record_id_ok e : record_id G e -> record_ok G pb rb s e.
Proof. intros [->|R] H; [discriminate|exact R]. Qed.
(** Every identifier will do if the region of the monitor is the OS's, and DRAM does not
    reach the end of the address space. *)
Lemma record_ok_os e : owner_of G s 0 = 0 ->
  g_dram_size G + 312 + 8 * g_dram_region_bitmap_words G <= 2 ^ 64 -> record_ok G pb rb s e.
Proof.
  intros O0 D NE. unfold names_enclave in NE. destruct (N.eqb_spec e 0) as [|E0]; [discriminate|].
  cbn [negb andb] in NE. apply N.eqb_eq in NE. unfold main_region in NE.
  destruct (N.ltb_spec e (g_dram_size G)) as [L|L].
  - split; [|lia]. apply N.nlt_ge. intros X. apply E0. rewrite <- NE.
    replace (region_of pb rb e) with 0; [exact O0|]. symmetry.
    apply region0_low. pose proof (geo_fits _ _ _ g). lia.
  - exfalso. apply E0. rewrite <- NE. exact O0.
Qed.
(** The prologue of load_page_table, load_page, init_enclave, enter_enclave and
    delete_enclave. *)
Lemma guard e (k : prog N) (Q : N -> ost -> Prop) :
  let q := main_region G pb rb e in
  (is_locked G s q = true -> Q 3 (with_lock o q 1)) ->
  (is_locked G s q = false -> names_enclave G pb rb s e = false ->
     Q 1 (with_lock (with_lock o q 1) q 0)) ->
  (is_locked G s q = false -> names_enclave G pb rb s e = true ->
     wp G c k (with_lock o q 1) Q) ->
  wp G c (t <- test_and_set_dram_region_lock G (clamped_dram_region_for G e) ;;
    if (t : bool) then Ret monitor_concurrent_call
    else
    bad <- bad_enclave_id G e ;;
    if (bad : bool) then
      clear_dram_region_lock G (clamped_dram_region_for G e) ;; Ret monitor_invalid_value
    else k) o Q.
Proof.
  intros q H3 H1 HK. rewrite main_val. fold q. pose proof (main_lt e) as R. fold q in R.
  apply wp_bind. apply tas; auto.
  destruct (is_locked G s q) eqn:L; [apply wp_ret; auto|].
  apply wp_bind. unfold bad_enclave_id. unfold names_enclave in *. fold q in H1, HK.
  change null_enclave_id with 0. destruct (N.eqb_spec e 0) as [->|E0]; cbn [negb andb] in *.
  { apply wp_ret. bnd (wp_clr G pb rb g). apply wp_ret. auto. }
  unfold is_valid_enclave_id. rewrite main_val. fold q.
  apply wp_bind, wp_bind. apply (wp_owner G pb rb g); auto. apply wp_ret, wp_ret.
  change (o_owner (with_lock o q 1) q) with (owner_of G s q).
  destruct (owner_of G s q =? e) eqn:OW; cbn [negb].
  - auto.
  - bnd (wp_clr G pb rb g). apply wp_ret. auto.
Qed.

Lemma field e k off (f : N -> prog N) (Q : N -> ost -> Prop) : record_at G e -> k + 8 <= 304 ->
  off = k -> forall r v, wp G c (f (word s (e + k))) (with_lock o r v) Q ->
  wp G c (bind (load64 (wadd e off)) f) (with_lock o r v) Q.
Proof.
  intros [R1 R2] K -> r v H. change (2 ^ 64) with W64 in R2. rewrite wadd_small by lia.
  apply wp_bind. apply wp_load_rest; [|exact H].
  intros b B. apply (rest_high G pb rb g). lia.
Qed.

(** Postconditions: result [v] and nothing changed. *)
Definition only (v : N) (w : N) (o' : ost) : Prop := w = v /\ oeq o o'.
Lemma only_run (p : prog N) v : wp G c p o (only v) ->
  exists s', run c p s = (s', Some v) /\ same_machine s s'.
Proof.
  intros H. destruct (H s (view_of_view G s)) as [s' [a [o' [R [V [-> E]]]]]].
  exists s'. split; [exact R|]. exact (oeq_view_same G pb rb g s s' o o' (view_of_view G s) V E).
Qed.

Lemma va_check {T} e va (f : bool -> prog T) (Q : T -> ost -> Prop) r v : record_at G e ->
  wp G c (f (accepts_va s e va)) (with_lock o r v) Q ->
  wp G c (bind (is_enclave_virtual_address va e) f) (with_lock o r v) Q.
Proof.
  intros [R1 R2] H. change (2 ^ 64) with W64 in R2. unfold is_enclave_virtual_address.
  change ei_ev_mask with 56. change ei_ev_base with 48. rewrite !wadd_small by lia.
  apply wp_bind. apply wp_bind. apply wp_load_rest.
  { intros b B. apply (rest_high G pb rb g). lia. }
  apply wp_bind. apply wp_load_rest.
  { intros b B. apply (rest_high G pb rb g). lia. }
  apply wp_ret. exact H.
Qed.
Ltac out := bnd (wp_clr G pb rb g); [apply main_lt|]; apply wp_ret; split;
  [reflexivity|apply released; auto; apply main_lt].

Lemma dram_page a : in_dram_page G a = is_dram_address G a && is_page_aligned a.
Proof. unfold in_dram_page, is_dram_address. rewrite aligned_bool. reflexivity. Qed.

Lemma load_page_table_wp pa e p va l acl : record_ok G pb rb s e ->
  (1 <= pa_levels pa)%nat -> N.of_nat (pa_levels pa) < W64 ->
  wp G c (load_page_table G pa e p va l acl) o
    (only (load_page_table_code G pb rb s (N.of_nat (pa_levels pa)) e p va l)).
Proof.
  intros RI L1 L2. unfold load_page_table, load_page_table_code, loading_code. rewrite dram_page.
  destruct (is_dram_address G p); cbn [negb andb orb];
    [|apply wp_ret; split; [reflexivity|apply oeq_refl]].
  destruct (is_page_aligned p); cbn [negb andb orb];
    [|apply wp_ret; split; [reflexivity|apply oeq_refl]].
  destruct (N.of_nat (pa_levels pa) <=? l); [apply wp_ret; split; [reflexivity|apply oeq_refl]|].
  cbv zeta. apply guard.
  - intros L. rewrite L. split; [reflexivity|apply busy; auto].
  - intros L NE. rewrite L, NE. split; [reflexivity|apply released; auto; apply main_lt].
  - intros L NE. rewrite L, NE. cbn [negb]. rewrite main_val.
    pose proof (named_record e RI NE) as RA.
    apply (field e 16); [auto|lia|reflexivity|].
    destruct (word s (e + 16) =? 0); cbn [negb]; [|out].
    apply (field e 72); [auto|lia|reflexivity|].
    destruct (p <=? word s (e + 72)); [out|].
    assert (WS : wsub (N.of_nat (pa_levels pa)) 1 = N.of_nat (pa_levels pa) - 1).
    { apply wsub_small; lia. }
    rewrite WS.
    destruct (l =? N.of_nat (pa_levels pa) - 1); cbn [negb andb].
    + apply wp_bind, wp_ret. out.
    + apply wp_bind. apply va_check; auto. apply wp_ret.
      destruct (accepts_va s e va); cbn [negb]; out.
Qed.

Lemma load_page_wp e p va oa acl : record_ok G pb rb s e ->
  wp G c (load_page G e p va oa acl) o (only (load_page_code G pb rb s e p va oa)).
Proof.
  intros RI. unfold load_page, load_page_code, loading_code. rewrite !dram_page.
  destruct (is_dram_address G p), (is_dram_address G oa); cbn [negb andb orb];
    rewrite ?orb_true_r;
    try (apply wp_ret; split; [reflexivity|apply oeq_refl]).
  destruct (is_page_aligned p), (is_page_aligned oa); cbn [negb andb orb];
    try (apply wp_ret; split; [reflexivity|apply oeq_refl]).
  cbv zeta. apply guard.
  - intros L. rewrite L. split; [reflexivity|apply busy; auto].
  - intros L NE. rewrite L, NE. split; [reflexivity|apply released; auto; apply main_lt].
  - intros L NE. rewrite L, NE. cbn [negb]. rewrite main_val.
    pose proof (named_record e RI NE) as RA.
    apply (field e 16); [auto|lia|reflexivity|].
    destruct (word s (e + 16) =? 0); cbn [negb]; [|out].
    apply (field e 72); [auto|lia|reflexivity|].
    destruct (p <=? word s (e + 72)); [out|].
    apply va_check; auto.
    destruct (accepts_va s e va); cbn [negb]; out.
Qed.

(** init_enclave: success *)
Definition opened (e : N) (o' : ost) : Prop :=
  exists m, oeq (with_rest o m) o' /\
    (forall b, (b < e + 16 \/ e + 24 <= b) -> (b < e + 80 \/ e + 304 <= b) ->
       byte m b = byte (s_mem s) b) /\
    ld 8 m (e + 16) = 1 /\
    (forall c0 h, measured c0 e s h -> hash_words m (e + 80) = sha256_32 (encode h)).

Lemma init_wp e : record_ok G pb rb s e ->
  wp G c (init_enclave G e) o
    (fun v o' => v = init_code G pb rb s e /\ (v <> 0 -> oeq o o') /\ (v = 0 -> opened e o')).
Proof.
  intros RI. unfold init_enclave, init_code, loading_code. cbv zeta. apply guard.
  - intros L. rewrite L. split; [reflexivity|]. split; [intros _; apply busy; auto|discriminate].
  - intros L NE. rewrite L, NE. split; [reflexivity|].
    split; [intros _; apply released; auto; apply main_lt|discriminate].
  - intros L NE. rewrite L, NE. cbn [negb]. rewrite main_val.
    pose proof (named_record e RI NE) as RA. pose proof RA as [R1 R2]. change (2 ^ 64) with W64 in R2.
    apply (field e 16); [auto|lia|reflexivity|].
    destruct (word s (e + 16) =? 0); cbn [negb].
    2:{ bnd (wp_clr G pb rb g); [apply main_lt|]; apply wp_ret; split; [reflexivity|].
        split; [intros _; apply released; auto; apply main_lt|discriminate]. }
    change ei_is_initialized with 16. rewrite wadd_small by lia.
    set (q := main_region G pb rb e).
    assert (X : wp G c (finalize_enclave_hash e ;; store64 (e + 16) 1 ;; Ret tt) (with_lock o q 1)
      (fun _ o' => exists m, oeq (with_rest (with_lock o q 1) m) o' /\
        (forall b, (b < e + 16 \/ e + 24 <= b) -> (b < e + 80 \/ e + 304 <= b) ->
           byte m b = byte (s_mem s) b) /\
        ld 8 m (e + 16) = 1 /\
        (forall c0 h, measured c0 e s h -> hash_words m (e + 80) = sha256_32 (encode h)))).
    { apply (wp_confined G pb rb g c _ e (e + 304) (fun _ m =>
        (forall b, e <= b < e + 304 -> (b < e + 16 \/ e + 24 <= b) -> (b < e + 80 \/ e + 304 <= b) ->
           byte m b = byte (s_mem s) b) /\
        ld 8 m (e + 16) = 1 /\
        (forall c0 h, measured c0 e s h -> hash_words m (e + 80) = sha256_32 (encode h)))).
      - intros b B. apply (rest_high G pb rb g). lia.
      - intros s1 V. destruct (finalize_any c e s1) as [m [E F]]; [lia|].
        exists (st 8 m (e + 16) 1), tt. rewrite run_bind, E, run_bind, run_store64.
        cbn [run s_mem set_mem]. rewrite set_mem_set_mem. split; [reflexivity|].
        assert (SB : forall b, g_monitor_top G <= b -> byte (s_mem s1) b = byte (s_mem s) b).
        { intros b B. rewrite (v_rest _ _ _ V) by (apply (rest_high G pb rb g); auto). reflexivity. }
        split; [|split; [|split]].
        + intros b B. unfold byte. rewrite st_out by (change (N.of_nat 8) with 8; lia).
          rewrite F by lia. reflexivity.
        + intros b B1 B2 B3. rewrite <- SB by lia. unfold byte.
          rewrite st_out by (change (N.of_nat 8) with 8; lia). rewrite F by lia. reflexivity.
        + apply ld8_st8. reflexivity.
        + intros c0 h M.
          assert (M1 : measured c0 e s1 h).
          { eapply measured_other; [exact M|]. intros b B. apply SB. lia. }
          apply measured_inv in M1; [|lia].
          destruct (measure_finalize_run c e ltac:(lia) s1 _ M1) as [m2 [E2 [W2 _]]].
          assert (EM : set_mem s1 m = set_mem s1 m2) by congruence.
          assert (EM' : m = m2) by (exact (f_equal s_mem EM)). subst m2.
          unfold encode. rewrite <- W2. apply hash_words_ext.
          intros b B. unfold byte. rewrite st_out by (change (N.of_nat 8) with 8; lia). reflexivity.
      - intros u m m' [P1 [P2 P3]] A1 A2. cbn [o_rest with_lock] in A2.
        exists m'. split; [apply oeq_refl|]. split; [|split].
        + intros b B1 B2. destruct (N.lt_ge_cases b e) as [X|X].
          { rewrite A2 by auto. reflexivity. }
          destruct (N.lt_ge_cases b (e + 304)) as [Y|Y].
          { rewrite A1 by lia. apply P1; lia. }
          rewrite A2 by auto. reflexivity.
        + rewrite <- P2. apply ld_byte. intros b B1 B2. change (N.of_nat 8) with 8 in B2. apply A1. lia.
        + intros c0 h M. rewrite <- (P3 c0 h M). apply hash_words_ext.
          intros b B. apply A1. lia. }
    intros s1 V. destruct (X s1 V) as [s2 [u [o2 [R [V2 [m [E [B1 [B2 B3]]]]]]]]].
    destruct (wp_clr G pb rb g c q o2 (fun _ o' => o' = with_lock o2 q 0) (main_lt e) eq_refl s2 V2)
      as [s3 [u3 [o3 [R3 [V3 ->]]]]].
    exists s3, 0, (with_lock o2 q 0). split; [|split; [exact V3|]].
    { rewrite run_bind in R. rewrite run_bind.
      destruct (run c (finalize_enclave_hash e) s1) as [sf [uf|]]; [|discriminate].
      rewrite run_bind, run_store64 in R. rewrite run_bind, run_store64. cbn [run] in R.
      injection R as R _. rewrite R. rewrite run_bind, R3. reflexivity. }
    split; [reflexivity|]. split; [intros Y; exfalso; apply Y; reflexivity|]. intros _.
    exists m. split; [|auto].
    pose proof (idle q (main_lt e) L) as Z.
    apply (relocked _ _ _ _ E Z).
Qed.

(** ** Running *)
Definition locked_only (r : N) (o' : ost) : Prop := oeq (with_lock o r 1) o'.
Lemma enter_wp e t : record_ok G pb rb s e ->
  wp G c (enter_enclave G e t) o
    (fun v o' => v = enter_code G pb rb s e /\ (v <> 0 -> oeq o o') /\
       (v = 0 -> locked_only (main_region G pb rb e) o')).
Proof.
  intros RI. unfold enter_enclave, enter_code. cbv zeta. apply guard.
  - intros L. rewrite L. split; [reflexivity|]. split; [intros _; apply busy; auto|discriminate].
  - intros L NE. rewrite L, NE. split; [reflexivity|].
    split; [intros _; apply released; auto; apply main_lt|discriminate].
  - intros L NE. rewrite L, NE. cbn [negb]. rewrite main_val.
    pose proof (named_record e RI NE) as RA.
    apply (field e 16); [auto|lia|reflexivity|].
    destruct (word s (e + 16) =? 0).
    + bnd (wp_clr G pb rb g); [apply main_lt|]; apply wp_ret; split; [reflexivity|].
      split; [intros _; apply released; auto; apply main_lt|discriminate].
    + apply wp_ret. split; [reflexivity|]. split; [intros Y; exfalso; apply Y; reflexivity|].
      intros _. apply oeq_refl.
Qed.
Lemma exit_wp : c < g_core_count G -> wp G c (exit_enclave G) o (only 0).
Proof.
  intros C. unfold exit_enclave, current_core_info.
  apply wp_bind, wp_bind, wp_core, wp_ret.
  do 3 (apply wp_bind, wp_load_any; intros ? _). apply wp_ret. split; [reflexivity|apply oeq_refl].
Qed.
Lemma delete_thread_wp t : c < g_core_count G ->
  wp G c (delete_thread G t) o
    (fun v o' => v = delete_thread_code G pb rb s c /\ (v <> 0 -> oeq o o') /\
       (v = 0 -> locked_only (own_region G pb rb s c) o')).
Proof.
  intros C. unfold delete_thread, delete_thread_code. bnd (wp_current G pb rb g). cbv zeta.
  change (o_encl o c) with (enclave_of G s c). rewrite (region_for_spec G pb rb g).
  fold (own_region G pb rb s c). apply wp_bind. apply tas; [apply region_lt'|].
  destruct (is_locked G s (own_region G pb rb s c)) eqn:L; apply wp_ret; split; try reflexivity;
    split; try discriminate.
  - intros _. apply busy; auto.
  - intros X; exfalso; apply X; reflexivity.
  - intros _. apply oeq_refl.
Qed.
Lemma bitmap_addr e : record_at G e -> enclave_region_bitmap e = e + 304.
Proof.
  intros [R1 R2]. change (2 ^ 64) with W64 in R2. unfold enclave_region_bitmap.
  change enclave_info_t_size with 304. apply wadd_small. lia.
Qed.
(** The bitmap of an enclave as seen whatever the locks are. *)
Lemma bit_any {T} e o1 j (f : bool -> prog T) (Q : T -> ost -> Prop) :
  (forall b, g_monitor_top G <= b -> byte (o_rest o1) b = byte (s_mem s) b) ->
  record_at G e -> j <= n ->
  wp G c (f (enclave_bit s e j)) o1 Q ->
  wp G c (bind (read_bitmap_bit (enclave_region_bitmap e) j) f) o1 Q.
Proof.
  intros SB RA J H s1 V. rewrite (bitmap_addr e RA).
  destruct RA as [R1 R2]. change (2 ^ 64) with W64 in R2.
  pose proof (layout _ _ _ g) as (L1 & L2 & L3 & L4 & L5 & L6 & L7 & L8).
  assert (JW : j / 64 <= W) by lia.
  rewrite run_bind, read_bitmap_bit_run by (unfold word_of_bit; lia).
  rewrite bit_at_word. destruct (H s1 V) as [s2 [a [o2 X]]]. exists s2, a, o2.
  replace (N.testbit _ _) with (enclave_bit s e j); [exact X|].
  unfold enclave_bit. f_equal. apply ld_byte. intros b B1 B2. change (N.of_nat 8) with 8 in B2.
  rewrite (v_rest _ _ _ V) by (apply (rest_high G pb rb g); lia). symmetry. apply SB. lia.
Qed.

(** ** delete_enclave when the bit after the last region is clear *)
Definition locks (f : N -> N) : ost := mkOst f (o_owner o) (o_prev o) (o_pinned o)
  (o_blocked o) (o_clock o) (o_encl o) (o_flushed o) (o_bit o) (o_rest o) (o_regs o)
  (o_words o) (o_dmar_base o) (o_dmar_mask o) (o_dma_start o) (o_dma_end o).
Lemma locks_eq f h : (forall r, h r = f r) -> oeq (locks f) (locks h).
Proof. intros H. constructor; cbn [locks o_lock o_owner o_prev o_pinned o_blocked
  o_clock o_encl o_flushed o_bit o_rest o_regs o_words o_dmar_base o_dmar_mask
  o_dma_start o_dma_end]; auto. Qed.
Lemma with_lock_locks f r v : with_lock (locks f) r v = locks (upd f r v).
Proof. reflexivity. Qed.

Section Del.
Variable e : N.
Hypothesis RA : record_at G e.
Local Notation q := (main_region G pb rb e).
Definition mine (i r : N) : bool := (r <? i) && enclave_bit s e r.
(** the main region and those below [i] are locked *)
Definition upto (i r : N) : N := if (r =? q) || mine i r then 1 else lock_of G s r.
Definition busy_at (r : N) : bool := negb (r =? q) && enclave_bit s e r && is_locked G s r.

Lemma del_lock : forall k i f, i + N.of_nat k <= n -> (forall r, f r = upto i r) ->
  wp G c (for_exit k i (fun i =>
       if i =? q then Ret None
       else
         b <- read_bitmap_bit (enclave_region_bitmap e) i ;;
         if (b : bool) then
           t <- test_and_set_dram_region_lock G i ;;
           if (t : bool) then Ret (Some i) else Ret None
         else Ret None)) (locks f)
    (fun x o' => exists f', o' = locks f' /\ match x with
       | Some z => i <= z < i + N.of_nat k /\ busy_at z = true /\ (forall y, i <= y < z -> busy_at y = false) /\
           (forall r, f' r = upto z r)
       | None => (forall z, i <= z < i + N.of_nat k -> busy_at z = false) /\
           (forall r, f' r = upto (i + N.of_nat k) r) end).
Proof.
  induction k as [|k IH]; intros i f B L; cbn [for_exit].
  - apply wp_ret. exists f. split; [reflexivity|]. split; [lia|].
    intros r. rewrite L. f_equal. lia.
  - assert (NEXT : forall f1, busy_at i = false -> (forall r, f1 r = upto (i + 1) r) ->
      wp G c (for_exit k (i + 1) (fun i =>
       if i =? q then Ret None
       else
         b <- read_bitmap_bit (enclave_region_bitmap e) i ;;
         if (b : bool) then
           t <- test_and_set_dram_region_lock G i ;;
           if (t : bool) then Ret (Some i) else Ret None
         else Ret None)) (locks f1)
    (fun x o' => exists f', o' = locks f' /\ match x with
       | Some z => i <= z < i + N.of_nat (S k) /\ busy_at z = true /\ (forall y, i <= y < z -> busy_at y = false) /\
           (forall r, f' r = upto z r)
       | None => (forall z, i <= z < i + N.of_nat (S k) -> busy_at z = false) /\
           (forall r, f' r = upto (i + N.of_nat (S k)) r) end)).
    { intros f1 NB L1. eapply wp_weaken; [|apply (IH (i + 1) f1); [lia|exact L1]].
      cbv beta. intros x o' [f' [-> H]]. exists f'. split; [reflexivity|]. destruct x as [z|].
      - destruct H as [Z [BZ [FB F]]]. split; [lia|]. split; [exact BZ|]. split; [|exact F].
        intros y Y. destruct (N.eq_dec y i) as [->|]; [exact NB|]. apply FB. lia.
      - destruct H as [Z F]. split.
        + intros z ZR. destruct (N.eq_dec z i) as [->|]; [exact NB|]. apply Z. lia.
        + intros r. rewrite F. f_equal. lia. }
    apply wp_bind. destruct (N.eqb_spec i q) as [EI|EI].
    + apply wp_ret. apply NEXT.
      * unfold busy_at. rewrite EI, N.eqb_refl. reflexivity.
      * intros r. rewrite L. unfold upto, mine. destruct (N.eqb_spec r q); [reflexivity|].
        cbn [orb]. replace (r <? i + 1) with (r <? i) by lia. reflexivity.
    + apply bit_any; [reflexivity|auto|lia|].
      destruct (enclave_bit s e i) eqn:EB.
      * apply wp_bind. apply (wp_tas G pb rb g); [lia|].
        cbn [locks o_lock]. rewrite with_lock_locks.
        assert (FI : f i = lock_of G s i).
        { rewrite L. unfold upto, mine. replace (i =? q) with false by lia.
          replace (i <? i) with false by lia. reflexivity. }
        rewrite FI. destruct (CL i ltac:(lia)) as [LI|LI]; rewrite LI.
        -- cbn [N.eqb negb]. apply wp_ret. apply NEXT.
           { unfold busy_at, is_locked. rewrite LI. rewrite andb_false_r. reflexivity. }
           intros r. unfold upd. destruct (N.eqb_spec r i) as [->|NR].
           { unfold upto, mine. rewrite EB. replace (i <? i + 1) with true by lia.
             cbn [andb]. rewrite orb_true_r. reflexivity. }
           rewrite L. unfold upto, mine. replace (r <? i + 1) with (r <? i) by lia. reflexivity.
        -- cbn [N.eqb Pos.eqb negb]. apply wp_ret. apply wp_ret.
           exists (upd f i 1). split; [reflexivity|]. split; [lia|]. split.
           { unfold busy_at, is_locked. rewrite EB, LI. replace (i =? q) with false by lia. reflexivity. }
           split; [lia|].
           intros r. unfold upd. destruct (N.eqb_spec r i) as [->|NR]; [|auto].
           rewrite <- L, FI. auto.
      * apply wp_ret. apply NEXT.
        { unfold busy_at. rewrite EB, andb_false_r. reflexivity. }
        intros r. rewrite L. unfold upto, mine.
        destruct (N.eq_dec r i) as [->|NR]; [rewrite EB, !andb_false_r; reflexivity|].
        replace (r <? i + 1) with (r <? i) by lia. reflexivity.
Qed.

(** the main region and those in [[i, z)] are locked *)
Definition from (i z r : N) : N :=
  if (r =? q) || (negb (r <? i) && mine z r) then 1 else lock_of G s r.
Lemma del_unlock z : z <= n -> (forall r, r < z -> busy_at r = false) ->
  forall k i f, i + N.of_nat k = z -> (forall r, f r = from i z r) ->
  wp G c (for_n k i (fun i =>
       if i =? q then Ret tt
       else
         b <- read_bitmap_bit (enclave_region_bitmap e) i ;;
         if (b : bool) then clear_dram_region_lock G i else Ret tt)) (locks f)
    (fun _ o' => exists f', o' = locks f' /\ forall r, f' r = from z z r).
Proof.
  intros ZN NB. induction k as [|k IH]; intros i f B L; cbn [for_n].
  - apply wp_ret. exists f. split; [reflexivity|]. intros r. rewrite L. f_equal. lia.
  - apply wp_bind. destruct (N.eqb_spec i q) as [EI|EI].
    + apply wp_ret. apply IH; [lia|]. intros r. rewrite L. unfold from.
      destruct (N.eqb_spec r q); [reflexivity|]. replace (r <? i + 1) with (r <? i) by lia. reflexivity.
    + apply bit_any; [reflexivity|auto|lia|].
      destruct (enclave_bit s e i) eqn:EB.
      * apply (wp_clr G pb rb g); [lia|]. rewrite with_lock_locks. apply IH; [lia|].
        intros r. unfold upd. destruct (N.eqb_spec r i) as [->|NR].
        -- unfold from. replace (i =? q) with false by lia. replace (i <? i + 1) with true by lia.
           cbn [negb andb orb]. specialize (NB i ltac:(lia)). unfold busy_at, is_locked in NB.
           rewrite EB in NB. replace (i =? q) with false in NB by lia. cbn [negb andb] in NB.
           destruct (CL i ltac:(lia)) as [X|X]; [auto|rewrite X in NB; discriminate].
        -- rewrite L. unfold from. replace (r <? i + 1) with (r <? i) by lia. reflexivity.
      * apply wp_ret. apply IH; [lia|]. intros r. rewrite L. unfold from.
        destruct (N.eq_dec r i) as [->|NR].
        { unfold mine. rewrite EB, !andb_false_r. reflexivity. }
        replace (r <? i + 1) with (r <? i) by lia. reflexivity.
Qed.
Lemma del_free f : enclave_bit s e n = false -> forall (p : N -> prog unit) k i,
  wp G c (for_n k i (fun i =>
           b <- read_bitmap_bit (enclave_region_bitmap e) n ;;
           if (b : bool) then p i else Ret tt)) (locks f) (fun _ o' => o' = locks f).
Proof.
  intros Z p. induction k as [|k IH]; intros i; cbn [for_n].
  - apply wp_ret. reflexivity.
  - apply wp_bind. apply bit_any; [reflexivity|auto|lia|]. rewrite Z. apply wp_ret. apply IH.
Qed.
Lemma busy_forall : (forall z, z < n -> busy_at z = false) -> regions_busy G pb rb s e = false.
Proof.
  intros H. unfold regions_busy. destruct (existsb _ _) eqn:E; [|reflexivity].
  apply existsb_exists in E. destruct E as [j [J E]]. apply in_seq in J.
  exfalso. cbv zeta in E. specialize (H (N.of_nat j) ltac:(lia)). unfold busy_at in H. congruence.
Qed.
Lemma busy_exists z : z < n -> busy_at z = true -> regions_busy G pb rb s e = true.
Proof.
  intros Z B. unfold regions_busy. apply existsb_exists. exists (N.to_nat z). split.
  - apply in_seq. lia.
  - rewrite N2Nat.id. exact B.
Qed.
End Del.

Lemma delete_wp e : record_ok G pb rb s e ->
  (delete_enclave_code G pb rb s e = 0 -> enclave_bit s e n = false) ->
  wp G c (delete_enclave G e) o (only (delete_enclave_code G pb rb s e)).
Proof.
  intros RI Z. unfold delete_enclave, delete_enclave_code in *. cbv zeta. apply guard.
  - intros L. rewrite L. split; [reflexivity|]. apply busy; auto.
  - intros L NE. rewrite L, NE. split; [reflexivity|]. apply released; auto; apply main_lt.
  - intros L NE. rewrite L, NE in *. cbn [negb] in *. rewrite main_val.
    pose proof (named_record e RI NE) as RA.
    apply (field e 32); [auto|lia|reflexivity|].
    destruct (word s (e + 32) =? 0); cbn [negb] in *; [|out].
    pose proof (main_lt e) as QN. pose proof (idle _ QN L) as Z0.
    set (q := main_region G pb rb e) in *.
    assert (CLR : forall f z (p : prog N) v, (forall r, f r = from e z z r) ->
      p = (clear_dram_region_lock G q ;; Ret v) -> wp G c p (locks f) (only v)).
    { intros f z p v F ->. bnd (wp_clr G pb rb g). apply wp_ret. split; [reflexivity|].
      rewrite with_lock_locks.
      assert (E : forall r, upd f q 0 r = o_lock o r).
      { intros r. unfold upd. destruct (N.eqb_spec r q) as [->|NR]; [auto|].
        rewrite F. unfold from. fold q. replace (r =? q) with false by lia.
        cbn [orb]. unfold mine. destruct (r <? z); reflexivity. }
      constructor; cbn [locks o_lock o_owner o_prev o_pinned o_blocked
        o_clock o_encl o_flushed o_bit o_rest o_regs o_words o_dmar_base o_dmar_mask
        o_dma_start o_dma_end]; auto. }
    apply wp_bind. change (with_lock o q 1) with (locks (upd (o_lock o) q 1)).
    eapply wp_weaken; [|apply (del_lock e RA (N.to_nat n) 0 (upd (o_lock o) q 1)); [lia|]].
    2:{ intros r. unfold upd, upto, mine. fold q. destruct (r =? q); [reflexivity|].
        replace (r <? 0) with false by lia. reflexivity. }
    cbv beta. intros x o1 [f1 [-> H]]. destruct x as [z|].
    + destruct H as [ZR [BZ [FB F]]]. rewrite N2Nat.id in ZR.
      rewrite (busy_exists e z) by (auto; lia).
      apply wp_bind. unfold unlock_enclave_regions.
      eapply wp_weaken; [|apply (del_unlock e RA z ltac:(lia)
        ltac:(intros y Y; apply FB; lia) (N.to_nat z) 0 f1); [lia|]].
      * cbv beta. intros _ o2 [f2 [-> F2]]. apply (CLR f2 z _ _ F2). reflexivity.
      * intros r. rewrite F. unfold upto, from. replace (r <? 0) with false by lia. reflexivity.
    + destruct H as [NB F]. rewrite N2Nat.id, N.add_0_l in *.
      rewrite (busy_forall e) in * by (intros z ZN; apply NB; lia).
      apply wp_bind. eapply wp_weaken; [|apply (del_free e RA f1 (Z eq_refl))].
      cbv beta. intros _ o2 ->. apply wp_bind. unfold unlock_enclave_regions.
      eapply wp_weaken; [|apply (del_unlock e RA n ltac:(lia)
        ltac:(intros y Y; apply NB; lia) (N.to_nat n) 0 f1); [lia|]].
      * cbv beta. intros _ o3 [f3 [-> F3]]. apply (CLR f3 n _ _ F3). reflexivity.
      * intros r. rewrite F. unfold upto, from. replace (r <? 0) with false by lia. reflexivity.
Qed.
End At.
End Contract.
