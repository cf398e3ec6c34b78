(** * Property C80 with accept_thread among the calls. *)
From Coq Require Import NArith ZArith Lia Bool List.
From Coq Require Import ZifyBool ZifyNat ZifyN.
From Verif Require Import Word Machine ModelInl ModelApi Lib SpecGeometry GeomProofs SpecMonitor
  SpecHistory ViewProofs SeqProofs SeqCalls HistoryProofs HistoryFacts P_Boot P_Regions SpecConcurrent
  P_Conc SpecLinear LinGlobal P_Linear SpecSystem SpecRest SpecContract P_Contract2 P_Rest.
Import ListNotations.
Open Scope N_scope.
Ltac Zify.zify_post_hook ::= Z.div_mod_to_equations.

(** The event is a flush, a free of region [r] or an assignment of [r] to the OS, on any core
    and with any result. *)
Definition only_reclaims (r : N) (x : event * N) : Prop :=
  exists c, fst x = ECall c CFlush \/ fst x = ECall c (CFree r) \/ fst x = ECall c (CAssign r 0).

Section Late.
Variables (G : globals) (pb rb r : N).
Hypothesis g : geom G pb rb.
Hypothesis R : r < g_dram_region_count G.
Hypothesis C0 : 0 < g_core_count G.
(** Blocked with a time to come. *)
Definition late (s : state) : Prop :=
  clean_locks G s /\ owner_of G s r = 1 /\ clock_of G s < blocked_at_of G s r /\
  flushed_of G s 0 < blocked_at_of G s r /\ g_dram_region_bitmap_words G <= s_words s.
Lemma late_words s s' : (forall a, g_dram_region G <= a -> a + 8 <= g_os_region_bitmap G ->
    ld 8 (s_mem s') a = ld 8 (s_mem s) a) ->
  flushed_of G s' 0 = flushed_of G s 0 \/ flushed_of G s' 0 = clock_of G s ->
  s_words s' = s_words s -> late s -> late s'.
Proof.
  intros E F W (A & B & C & D & H).
  pose proof (layout G pb rb g) as (L1 & L2 & L3 & L4 & L5 & L6 & L7 & L8).
  unfold late, clean_locks, owner_of, lock_of, blocked_at_of, clock_of in *.
  rewrite !E by lia. split; [intros q Q; rewrite E by lia; auto|]. split; [exact B|]. split; [exact C|].
  split; [destruct F as [->| ->]; assumption|]. rewrite W. exact H.
Qed.
Lemma mem_ld s s' : same_memory s s' -> forall a, ld 8 (s_mem s') a = ld 8 (s_mem s) a.
Proof. intros H a. apply ld_ext. intros b _ _. apply H. Qed.
Lemma late_same s s' : same_machine s s' -> late s -> late s'.
Proof.
  intros SM. pose proof (mem_ld s s' (sm_mem _ _ SM)) as E.
  apply late_words; [intros; apply E|left; unfold flushed_of; apply E|apply (sm_words _ _ SM)].
Qed.
Lemma late_step s e v s' : estep G pb rb s e v s' -> only_reclaims r (e, v) -> late s -> late s'.
Proof.
  intros ES [c X] L. cbn [fst] in X.
  pose proof (layout G pb rb g) as (L1 & L2 & L3 & L4 & L5 & L6 & L7 & L8).
  destruct X as [->|[->| ->]]; inversion ES as [s1 c1 k1 v1 s2 CC AA SS DC| |]; subst; clear ES.
  - destruct (C63_flush G pb rb s c g CC) as (s2 & D2 & SM & (_ & SW & _) & _). rewrite DC in D2. inversion D2. subst s2.
    pose proof (mem_ld _ _ SM) as E. unfold put in E. cbn [set_mem s_mem] in E.
    revert L. apply late_words.
    + intros a A1 A2. rewrite E. apply ld_st_other. right. change (N.of_nat 8) with 8. lia.
    + unfold flushed_of. rewrite E. destruct (N.eq_dec c 0) as [->|NE].
      * right. apply ld8_st8. apply ld8_bound.
      * left. apply ld_st_other. left. change (N.of_nat 8) with 8. lia.
    + exact SW.
  - destruct L as (A & B & C & D & H). destruct (C63_free G pb rb s c r g A) as (s2 & D2 & SM & _).
    rewrite DC in D2. inversion D2. subst s2. apply (late_same s); [|repeat split; assumption]. apply SM.
    assert (AF : all_flushed_since G s (blocked_at_of G s r) = false).
    { unfold all_flushed_since. destruct (N.to_nat (g_core_count G)) eqn:NE; [lia|].
      cbn [seq forallb]. change (N.of_nat 0) with 0.
      replace (blocked_at_of G s r <=? flushed_of G s 0) with false by (symmetry; apply N.leb_gt; exact D).
      reflexivity. }
    unfold free_code. rewrite AF, B. destruct (r <? g_dram_region_count G), (is_locked G s r); cbn; discriminate.
  - destruct L as (A & B & C & D & H).
    destruct (C63_assign G pb rb s c r 0 g A (or_introl eq_refl) eq_refl H) as (s2 & D2 & SM & _).
    rewrite DC in D2. inversion D2. subst s2. apply (late_same s); [|repeat split; assumption]. apply SM.
    unfold assign_code. rewrite B. destruct (r <? g_dram_region_count G), (is_locked G s r); cbn; discriminate.
Qed.
Lemma late_history s h s' : history G pb rb s h s' -> Forall (only_reclaims r) h -> late s -> late s'.
Proof.
  intros HI FA L. induction HI as [|h s1 e v s2 HI IH ES]; [exact L|].
  apply Forall_app in FA. destruct FA as [FA FE]. inversion FE. subst. eapply late_step; eauto.
Qed.
End Late.

(** After a successful accept_thread (C49) a region may be blocked with a block time beyond the
    clock, while all calls have returned and no lock is held.  No flushes, frees and
    assignments, in any number and on any cores, take it out of that state. *)
Theorem C80_accept_thread_refuted : exists P top pb rb G s0 l x r,
  started P top pb rb G s0 /\ observed G pb rb (fun _ => True) s0 l x /\ quiet G x /\
  started_blocks l < 2 ^ 64 /\ lock_of G (cf_state x) 0 = 0 /\ 0 < r < g_dram_region_count G /\
  owner_of G (cf_state x) r <> 0 /\
  forall h s, history G pb rb (cf_state x) h s -> Forall (only_reclaims r) h -> owner_of G s r = 1.
Proof.
  destruct ex_late_facts as (OB & Q & SB & LK & OW).
  exists ex_platform, 0, 6, 4, ex_G, ex_s0, (snd ex_late), (fst ex_late), 5.
  split; [exact ex_started|]. split; [exact OB|]. split; [exact Q|]. split; [exact SB|].
  split; [exact LK|]. split; [split; reflexivity|]. split; [rewrite OW; discriminate|].
  intros h s HI FA.
  destruct (started_geom _ _ _ _ _ _ ex_started) as [g _].
  assert (L : late ex_G 5 (cf_state (fst ex_late))).
  { split; [|repeat split; vm_compute; first [reflexivity|discriminate]].
    intros q Hq. change (g_dram_region_count ex_G) with 16 in Hq.
    assert (D : In q [0;1;2;3;4;5;6;7;8;9;10;11;12;13;14;15]) by (cbn; lia).
    cbn [In] in D. repeat (destruct D as [<-|D]; [left; vm_compute; reflexivity|]). destruct D. }
  destruct (late_history ex_G 6 4 5 g eq_refl eq_refl _ _ _ HI FA L) as (_ & O & _). exact O.
Qed.
(** The hypotheses are met by histories that do something. *)
Lemma called G c k s v : snd (do_call G c k s) = Some v -> do_call G c k s = (fst (do_call G c k s), Some v).
Proof. intros <-. apply surjective_pairing. Qed.
Definition late1 : state := fst (do_call ex_G 1 CFlush (cf_state (fst ex_late))).
Definition late2 : state := fst (do_call ex_G 0 (CFree 5) late1).
Definition late3 : state := fst (do_call ex_G 1 (CAssign 5 0) late2).
Example C80_accept_thread_example : history ex_G 6 4 (cf_state (fst ex_late))
    [(ECall 1 CFlush, ok); (ECall 0 (CFree 5), invalid_state); (ECall 1 (CAssign 5 0), invalid_state)] late3.
Proof.
  assert (E1 : snd (do_call ex_G 1 CFlush (cf_state (fst ex_late))) = Some ok) by (vm_compute; reflexivity).
  assert (E2 : snd (do_call ex_G 0 (CFree 5) late1) = Some invalid_state) by (vm_compute; reflexivity).
  assert (E3 : snd (do_call ex_G 1 (CAssign 5 0) late2) = Some invalid_state) by (vm_compute; reflexivity).
  apply called in E1. apply called in E2. apply called in E3.
  apply (hist_snoc ex_G 6 4 _ [(ECall 1 CFlush, ok); (ECall 0 (CFree 5), invalid_state)] late2);
    [|apply es_call; [reflexivity|repeat split; reflexivity|repeat split; try reflexivity; exact Logic.I|exact E3]].
  apply (hist_snoc ex_G 6 4 _ [(ECall 1 CFlush, ok)] late1);
    [|apply es_call; [reflexivity|repeat split; reflexivity|exact Logic.I|exact E2]].
  apply (hist_snoc ex_G 6 4 _ [] (cf_state (fst ex_late)));
    [constructor|apply es_call; [reflexivity|exact Logic.I|exact Logic.I|exact E1]].
Qed.
Definition P_Rest2_theorems := (C80_accept_thread_refuted, C80_accept_thread_example).
Print Assumptions P_Rest2_theorems.
