(** * copy_debug_enclave_page over every machine state. *)
From Coq Require Import NArith ZArith Lia Bool List.
From Coq Require Import ZifyBool ZifyNat ZifyN.
From Verif Require Import Word Machine ModelBare ModelHash ModelInl ModelRegions
  ModelMetadata ModelEnclave ModelBoot ModelApi Lib BareProofs SpecGeometry
  GeomProofs SpecMonitor SpecMetadata ViewProofs SeqProofs SeqCalls SeqCalls2 SeqCalls3
  SeqCalls5 SeqCalls6 HistoryProofs SpecContract ContractProofs ContractProofs2.
Import ListNotations.
Open Scope N_scope.
Ltac Zify.zify_post_hook ::= Z.div_mod_to_equations.

Section Copy.
Variables (G : globals) (pb rb : N).
Hypothesis g : geom G pb rb.
Local Notation n := (g_dram_region_count G).
Variables (s : state) (c : N).
Hypothesis CL : clean_locks G s.
Local Notation o := (view_of G s).

Lemma copy_debug_wp e ea oa (rd : bool) : record_at G e -> ea < W64 -> oa < W64 ->
  let dst := if rd then oa else ea in let src := if rd then ea else oa in
  (copy_debug_code G pb rb s e ea oa = 0 -> g_monitor_top G <= dst) ->
  wp G c (copy_debug_enclave_page G e ea oa rd) o (fun v o' =>
    v = copy_debug_code G pb rb s e ea oa /\ (v <> 0 -> oeq o o') /\
    (v = 0 -> exists m, oeq (with_rest o m) o' /\
      (g_monitor_top G <= src -> src <> dst ->
       forall j, j < 4096 -> byte m (dst + j) = byte (s_mem s) (src + j)) /\
      forall b, b < dst \/ dst + 4096 <= b -> byte m b = byte (s_mem s) b)).
Proof.
  intros RA HE HO dst src SAFE. unfold copy_debug_enclave_page.
  remember (copy_debug_code G pb rb s e ea oa) as k eqn:K.
  unfold copy_debug_code in K. rewrite !(dram_page G) in K. cbv zeta in K.
  assert (no : forall w o', k = w -> w <> 0 -> oeq o o' ->
    w = k /\ (w <> 0 -> oeq o o') /\
    (w = 0 -> exists m, oeq (with_rest o m) o' /\
      (g_monitor_top G <= src -> src <> dst ->
       forall j, j < 4096 -> byte m (dst + j) = byte (s_mem s) (src + j)) /\
      forall b, b < dst \/ dst + 4096 <= b -> byte m b = byte (s_mem s) b)).
  { intros w o' -> W0 E. split; [reflexivity|]. split; [auto|]. intros; contradiction. }
  destruct (is_page_aligned ea) eqn:AE, (is_page_aligned oa) eqn:AO; cbn [negb orb];
    rewrite ?andb_false_r, ?andb_true_r in K; cbn [negb orb] in K; rewrite ?orb_true_r in K;
    try (apply wp_ret; apply no; [exact K|discriminate|apply oeq_refl]).
  destruct (is_dram_address G ea) eqn:DE, (is_dram_address G oa) eqn:DO; cbn [negb orb andb] in *;
    try (apply wp_ret; apply no; [exact K|discriminate|apply oeq_refl]).
  apply page_aligned_iff in AE, AO.
  rewrite (main_val G pb rb g), !(region_for_spec G pb rb g).
  set (q := main_region G pb rb e) in *. set (x := region_of pb rb ea) in *.
  set (r := region_of pb rb oa) in *.
  assert (Q : q < n) by apply (main_lt G pb rb g).
  assert (X : x < n) by apply (region_lt' G pb rb g).
  assert (R : r < n) by apply (region_lt' G pb rb g).
  apply wp_bind. apply (tas G pb rb g s c CL); auto.
  destruct (is_locked G s q) eqn:LQ.
  { apply wp_ret. apply no; [exact K|discriminate|apply busy; auto]. }
  pose proof (idle G s CL q Q LQ) as ZQ.
  assert (SF : second_free G s q r = negb ((r =? q) || is_locked G s r)).
  { unfold second_free. rewrite negb_orb. reflexivity. }
  apply (second G pb rb g s c CL q r); auto.
  { rewrite SF. intros S0 o1 E. apply (clear_second G pb rb g s c CL q); auto.
    intros o' E'. apply negb_false_iff in S0. rewrite S0 in K. apply no; [exact K|discriminate|auto]. }
  rewrite SF. intros S1 RQ ZR. apply negb_true_iff in S1. rewrite S1 in K.
  unfold read_dram_region_owner. bnd (wp_owner G pb rb g). bnd (wp_owner G pb rb g).
  change (o_owner (with_lock (with_lock o q 1) r 1) q) with (owner_of G s q).
  change (o_owner (with_lock (with_lock o q 1) r 1) r) with (owner_of G s r).
  pose proof (layout _ _ _ g) as (L1 & L2 & L3 & L4 & L5 & L6 & L7 & L8).
  unfold read_enclave_region_bitmap_bit. change null_enclave_id with 0.
  destruct (N.eqb_spec e 0) as [E0|E0]; [destruct RA; lia|].
  apply (bit_any G pb rb g s c e (with_lock (with_lock o q 1) r 1) x); [reflexivity|auto|lia|].
  assert (W24 : wadd e ei_is_debug = e + 24).
  { destruct RA as [R1 R2]. change (2 ^ 64) with W64 in R2. unfold ei_is_debug. apply wadd_small. lia. }
  rewrite W24. apply wp_bind. apply wp_load_rest.
  { intros b B. apply (rest_high G pb rb g). destruct RA. lia. }
  change (ld 8 (o_rest (with_lock (with_lock o q 1) r 1)) (e + 24)) with (word s (e + 24)).
  assert (fail : forall v, k = v -> v <> 0 ->
    wp G c (clear_dram_region_lock G r ;; clear_dram_region_lock G q ;; Ret v)
      (with_lock (with_lock o q 1) r 1)
      (fun v o' => v = k /\ (v <> 0 -> oeq o o') /\
    (v = 0 -> exists m, oeq (with_rest o m) o' /\
      (g_monitor_top G <= src -> src <> dst ->
       forall j, j < 4096 -> byte m (dst + j) = byte (s_mem s) (src + j)) /\
      forall b, b < dst \/ dst + 4096 <= b -> byte m b = byte (s_mem s) b))).
  { intros v KV VN. bnd (wp_clr G pb rb g). bnd (wp_clr G pb rb g). apply wp_ret.
    apply no; auto. oeqs. }
  apply wp_bind.
  destruct (word s (e + 24) =? 0).
  { change (monitor_invalid_state =? monitor_ok) with false. apply wp_ret.
    apply fail; [exact K|discriminate]. }
  destruct (enclave_bit s e x); cbn [negb andb] in *.
  2:{ change (monitor_invalid_value =? monitor_ok) with false. apply wp_ret.
      apply fail; [exact K|discriminate]. }
  destruct (owner_of G s r =? 0); cbn [negb andb] in *.
  2:{ change (monitor_invalid_value =? monitor_ok) with false. apply wp_ret.
      apply fail; [exact K|discriminate]. }
  destruct (owner_of G s q =? e); cbn [negb] in *.
  2:{ change (monitor_invalid_value =? monitor_ok) with false. apply wp_ret.
      apply fail; [exact K|discriminate]. }
  change (monitor_ok =? monitor_ok) with true. cbv iota.
  specialize (SAFE K).
  assert (HD : g_dram_size G < W64) by apply (geo_D _ _ _ g).
  unfold is_dram_address in DE, DO.
  assert (BE : ea + 4096 <= W64) by (unfold W64 in *; lia).
  assert (BO : oa + 4096 <= W64) by (unfold W64 in *; lia).
  assert (DB : dst + 4096 <= W64) by (unfold dst; destruct rd; auto).
  apply (wp_confined G pb rb g c _ dst (dst + 4096) (fun _ m =>
     g_monitor_top G <= src -> src <> dst ->
     forall j, j < 4096 -> byte m (dst + j) = byte (s_mem s) (src + j))).
  - intros b B. apply (rest_high G pb rb g). lia.
  - intros s1 V.
    assert (RUN : exists m, run c (bcopy64 dst src page_size) s1 = (set_mem s1 m, Some tt) /\
       (src <> dst -> forall j, j < 4096 -> byte m (dst + j) = byte (s_mem s1) (src + j)) /\
       forall b, b < dst \/ dst + 4096 <= b -> m b = s_mem s1 b).
    { destruct (N.eq_dec src dst) as [SD|SD].
      - destruct (bcopy_frame c dst src s1 DB) as [m [RR F]]. exists m.
        split; [exact RR|]. split; [contradiction|exact F].
      - assert (DA : dst mod 4096 = 0) by (unfold dst; destruct rd; auto).
        assert (SA : src mod 4096 = 0) by (unfold src; destruct rd; auto).
        assert (SB : src + 4096 <= W64) by (unfold src; destruct rd; auto).
        destruct (bcopy64_run c s1 dst src 4096 eq_refl ltac:(lia) SB ltac:(lia))
          as [m [RR [Z F]]]. exists m. split; [exact RR|]. auto. }
    destruct RUN as [m [RR [Z F]]]. exists m, tt. split; [|split].
    + unfold dst, src in RR. destruct rd; exact RR.
    + intros b B. unfold byte. rewrite F; auto.
    + intros Y1 Y2 j J. rewrite (Z Y2 j J).
      rewrite (v_rest _ _ _ V) by (apply (rest_high G pb rb g); lia). reflexivity.
  - intros u m m' C1 C2 C3. change (o_rest (with_lock (with_lock o q 1) r 1)) with (s_mem s) in C3.
    bnd (wp_clr G pb rb g). bnd (wp_clr G pb rb g). apply wp_ret.
    split; [symmetry; exact K|]. split; [intros Y; exfalso; apply Y; reflexivity|]. intros _.
    exists m'. split; [oeqs|]. split; [|exact C3].
    intros Y1 Y2 j J. rewrite C2 by lia. apply C1; auto.
Qed.
End Copy.
