(** * accept_thread away from the monitor (sequential execution). *)
From Coq Require Import NArith ZArith Lia Bool List.
From Coq Require Import ZifyBool ZifyNat ZifyN.
From Verif Require Import Word Machine ModelBare ModelHash ModelInl ModelRegions
  ModelMetadata ModelEnclave ModelBoot ModelApi Lib BareProofs SpecGeometry
  GeomProofs SpecMonitor ViewProofs SeqProofs SeqCalls SeqCalls2
  SeqCalls3 SeqCalls4 SeqCalls5 SeqCalls6.
Import ListNotations.
Open Scope N_scope.
Ltac Zify.zify_post_hook ::= Z.div_mod_to_equations.

Section Accept.
Variables (G : globals) (pb rb : N).
Hypothesis g : geom G pb rb.
Local Notation n := (g_dram_region_count G).

(** The bytes it may write: the word taken for a lock, the map entry, the record. *)
Definition accept_bytes (t a b : N) : Prop :=
  g_dram_region G + 40 * a <= b < g_dram_region G + 40 * a + 8 \/
  metadata_page_info_for_val G t <= b < metadata_page_info_for_val G t + 8 \/
  t <= b < t + 48.
Definition accepted (t a : N) (o o' : ost) : Prop :=
  exists m, oeq (with_rest o m) o' /\
    forall b, ~ accept_bytes t a b -> byte m b = byte (o_rest o) b.

Lemma accept_seq c t a o M : like G o M -> c < g_core_count G -> t < W64 ->
  (a < g_dram_size G /\ a mod 4096 = 0 ->
     region_of pb rb a <> 0 /\ g_dram_region G + 40 * a + 8 <= W64 /\
     region_of pb rb t <> 0 /\ t + 48 <= W64) ->
  wp G c (accept_thread G t a) o (fun v o' => accepted t a o o').
Proof.
  intros K C T64 H. unfold accept_thread.
  destruct (is_dram_address G a) eqn:DA; cbn [negb orb].
  2:{ apply wp_ret. exists (o_rest o). split; [destruct o; apply oeq_refl|auto]. }
  destruct (is_page_aligned a) eqn:PA; cbn [negb].
  2:{ apply wp_ret. exists (o_rest o). split; [destruct o; apply oeq_refl|auto]. }
  unfold is_dram_address in DA. apply page_aligned_iff in PA.
  destruct H as (RA & AW & RT & TW); [lia|].
  pose proof (layout _ _ _ g) as (L1 & L2 & L3 & L4 & L5 & L6 & L7 & L8).
  pose proof (geo_fits _ _ _ g) as GF.
  assert (HI : forall x, region_of pb rb x <> 0 -> g_monitor_top G <= x).
  { intros x X. apply N.le_trans with (2 ^ (12 + pb)); [exact GF|]. apply N.nlt_ge.
    intros L. apply X. apply region0_low; auto. }
  pose proof (HI a RA) as TA. pose proof (HI t RT) as TT.
  set (w := g_dram_region G + 40 * a).
  assert (WH : forall b, w <= b < w + 8 -> rest G b).
  { intros b B. apply (rest_high G pb rb g). unfold w in B. lia. }
  apply wp_bind. apply (wp_current G pb rb g); auto. cbv zeta.
  rewrite (lk_encl _ _ _ K c C). rewrite !(region_for_spec G pb rb g).
  set (q := region_of pb rb a) in *.
  assert (Q : q < n) by (rewrite (n_val G pb rb g); apply region_of_lt).
  assert (Q0 : region_of pb rb 0 = 0) by (apply region0_low; apply pow2_pos). rewrite Q0.
  assert (N0 : 0 < n) by lia.
  assert (LQ : o_lock o q = 0).
  { rewrite (lk_lock _ _ _ K q Q). unfold taken. replace (q =? 0) with false by lia. reflexivity. }
  apply wp_bind. unfold test_and_set_dram_region_lock at 1.
  assert (WA : wadd (region_addr G a) dri_lock = w).
  { unfold region_addr. change dram_region_info_size with 40. change dri_lock with 0.
    rewrite (wmul_small 40 a) by (unfold w, W64 in *; lia). rewrite (wadd_small (g_dram_region G)) by (unfold w in *; lia).
    rewrite wadd_small by (unfold w in *; lia). unfold w. lia. }
  rewrite WA. apply wp_bind. apply (wp_tas_rest G pb rb g); [exact WH|]. apply wp_ret.
  assert (FW : forall b, ~ accept_bytes t a b -> byte (st 8 (o_rest o) w 1) b = byte (o_rest o) b).
  { intros b NB. apply byte_st_out. change (N.of_nat 8) with 8. unfold accept_bytes in NB. fold w in NB. lia. }
  set (m1 := st 8 (o_rest o) w 1) in *.
  assert (ONE : forall o2, oeq (with_rest o m1) o2 -> accepted t a o o2).
  { intros o2 E. exists m1. auto. }
  destruct (ld 8 (o_rest o) w =? 0); cbn [N.eqb negb]; [|apply wp_ret; apply ONE; apply oeq_refl].
  set (o1 := with_rest o m1).
  apply wp_bind. apply (wp_owner G pb rb g); auto.
  destruct (negb (o_owner o1 q =? 0)).
  { apply wp_bind. apply (wp_clr G pb rb g); auto. apply wp_ret. apply ONE. fold o1.
    assert (LQ1 : o_lock o1 q = 0) by exact LQ. oeqs. }
  assert (K1 : like G o1 M) by (apply like_rest; exact K).
  apply wp_bind. apply (wp_tas_taken G pb rb g c 0 o1 M); auto.
  destruct (taken M 0) eqn:TK.
  { apply wp_bind. apply (wp_clr G pb rb g); auto. apply wp_ret. apply ONE. fold o1.
    pose proof (busy_lock G o1 M 0 K1 N0 TK) as B0. assert (LQ1 : o_lock o1 q = 0) by exact LQ. oeqs. }
  assert (L0 : o_lock o1 0 = 0) by (rewrite (lk_lock _ _ _ K1 0 N0), TK; reflexivity).
  assert (LQ1 : o_lock o1 q = 0) by exact LQ.
  set (o2 := with_lock o1 0 1).
  assert (BACK : forall m, oeq (with_rest o m) (with_lock (with_lock (with_rest o2 m) 0 0) q 0)).
  { intros m. unfold o2, o1 in *. oeqs. }
  assert (PL : (t / 4096) mod 2 ^ pb < 2 ^ pb) by (apply N.mod_lt, pow2_nz).
  apply wp_bind. unfold accept_metadata_pages. change thread_metadata_pages with 1.
  eapply wp_weaken; [|apply (assign_pages_seq G pb rb g c t 1 0 thread_metadata_page_type); auto;
    [discriminate|reflexivity]].
  cbv beta. cbn [o_rest with_lock with_rest o2 o1].
  intros v o3 [[-> [X ->]]|[_ [[-> [_ ->]]|[-> [_ [m2 [-> [_ F2]]]]]]]]; [exfalso; lia| |].
  - change (invalid_state =? monitor_ok) with false. cbn [negb].
    apply wp_bind. apply (wp_clr G pb rb g); auto.
    apply wp_bind. apply (wp_clr G pb rb g); auto. apply wp_ret. apply ONE. exact (BACK m1).
  - change (ok =? monitor_ok) with true. cbn [negb].
    change (N.max 1 1) with 1 in F2. change (8 * 1) with 8 in F2. fold m1 in F2.
    assert (TF : forall k, k + 8 <= 48 -> wadd t k = t + k) by (intros k KK; apply wadd_small; lia).
    assert (TR : forall k b, k + 8 <= 48 -> t + k <= b < t + k + 8 -> rest G b).
    { intros k b KK B. apply (rest_high G pb rb g). lia. }
    assert (FT : forall m k v, k + 8 <= 48 ->
      (forall b, ~ accept_bytes t a b -> byte m b = byte (o_rest o) b) ->
      forall b, ~ accept_bytes t a b -> byte (st 8 m (t + k) v) b = byte (o_rest o) b).
    { intros m k v KK FM b NB. rewrite byte_st_out; [apply FM; exact NB|].
      change (N.of_nat 8) with 8. unfold accept_bytes in NB. lia. }
    assert (FM2 : forall b, ~ accept_bytes t a b -> byte m2 b = byte (o_rest o) b).
    { intros b NB. rewrite F2; [apply FW; exact NB|]. unfold accept_bytes in NB. lia. }
    change ti_lock with 0. change ti_entry_pc with 8. change ti_entry_stack with 16.
    change ti_fault_pc with 24. change ti_fault_stack with 32. change ti_eptbr with 40.
    rewrite !TF by lia.
    apply wp_bind. apply (wp_clr_rest G pb rb g); [intros b B; apply (TR 0 b); lia|].
    do 5 (apply wp_bind, wp_load_any; intros ? ?).
    do 5 (apply wp_bind; apply (wp_st_rest G pb rb g); [assumption|intros b B; eapply TR; [|exact B]; lia|]).
    apply wp_bind. apply (wp_clr G pb rb g); auto.
    apply wp_bind. apply (wp_clr G pb rb g); auto. apply wp_ret.
    cbn [o_rest with_rest with_lock].
    eexists. split; [apply BACK|].
    do 6 (apply FT; [clear; lia|]). exact FM2.
Qed.
End Accept.
