(** * Property C91: stale TLB entries. *)
From Coq Require Import NArith ZArith Lia Bool List.
From Coq Require Import ZifyBool ZifyNat ZifyN.
From Verif Require Import Word Machine ModelBare ModelHash ModelInl ModelRegions
  ModelMetadata ModelEnclave ModelBoot ModelApi Lib BareProofs BootProofs SpecGeometry
  GeomProofs Trace SpecMonitor SpecHistory ViewProofs SeqProofs SeqCalls SeqCalls2
  HistoryProofs HistoryFacts P_Boot P_Regions SpecSystem P_System SpecLinear SpecAccess P_Access SpecTlb.
Import ListNotations.
Open Scope N_scope.
Ltac Zify.zify_post_hook ::= Z.div_mod_to_equations.

Definition events (h : list tevent) : list (event * N) :=
  flat_map (fun e => match e with
    | TEvent e v => [(e, v)] | TFill _ _ => [] | TStore c a v => [(EStore c a v, 0)] end) h.
Lemma events_app h h' : events (h ++ h') = events h ++ events h'.
Proof. apply flat_map_app. Qed.
Lemma tnone_events (p : event * N -> bool) h : (forall c a v, p (EStore c a v, 0) = false) ->
  tnone p h -> none p (events h).
Proof.
  intros S H x I. apply in_flat_map in I. destruct I as (e & I & X). specialize (H e I).
  destruct e as [e v|c q|c a v]; cbn in X; [|destruct X|].
  - destruct X as [<-|[]]. exact H.
  - destruct X as [<-|[]]. apply S.
Qed.
Lemma events_tnone (p : event * N -> bool) h : none p (events h) -> tnone p h.
Proof.
  intros H e I. destruct e as [e v|c q|c a v]; try reflexivity. apply H.
  apply in_flat_map. exists (TEvent e v). split; [exact I|]. left. reflexivity.
Qed.
Lemma tblocks_events h : tblocks h = blocks (events h).
Proof.
  unfold tblocks, blocks. f_equal. induction h as [|e h IH]; [reflexivity|].
  destruct e as [e v|c q|c a v]; cbn [events flat_map app filter event_of];
    fold (events h); [|exact IH|exact IH].
  destruct (ok_block (e, v)); cbn [length]; rewrite IH; reflexivity.
Qed.

Lemma thistory_app G pb rb s0 h1 h2 y : thistory G pb rb s0 (h1 ++ h2) y ->
  exists x, thistory G pb rb s0 h1 x.
Proof.
  revert y. induction h2 as [|e h2 IH] using rev_ind; intros y H.
  - rewrite app_nil_r in H. eauto.
  - rewrite app_assoc in H. inversion H as [E|h x e' z H1 S E1].
    + destruct (h1 ++ h2); discriminate.
    + apply app_inj_tail in E1 as [-> ->]. eauto.
Qed.
Lemma thistory_snoc_inv G pb rb s0 h e y : thistory G pb rb s0 (h ++ [e]) y ->
  exists x, thistory G pb rb s0 h x /\ tstep G pb rb x e y.
Proof.
  intros H. inversion H as [E|h' x e' z H1 S E1]; [destruct h; discriminate|].
  apply app_inj_tail in E1 as [-> ->]. eauto.
Qed.

(** A flush is counted. *)
Lemma flush_counts G c s v s' : do_call G c CFlush s = (s', v) ->
  r_tlb_flushes (s_cores s' c) = r_tlb_flushes (s_cores s c) + 1.
Proof.
  intros D. pose proof (f_equal fst D) as E. cbn [fst] in E. rewrite <- E. clear.
  cbn. unfold set_creg. cbn. rewrite N.eqb_refl. reflexivity.
Qed.
Lemma kept_in s s' T c p : In (c, p) (kept s s' T) <->
  In (c, p) T /\ r_tlb_flushes (s_cores s' c) = r_tlb_flushes (s_cores s c).
Proof. unfold kept. rewrite filter_In. cbn [fst]. rewrite N.eqb_eq. reflexivity. Qed.
Lemma no_flush G pb rb s e v s' c : estep G pb rb s e v s' ->
  r_tlb_flushes (s_cores s' c) = r_tlb_flushes (s_cores s c) -> flush_by c (e, v) = false.
Proof.
  intros E F. destruct E as [s c' k v s' C A S D|s c' a v C A CA|s a v A DA T]; try reflexivity.
  destruct k; try reflexivity. cbn. apply N.eqb_neq. intros ->.
  apply flush_counts in D. lia.
Qed.

Section Refine.
Variables (P : platform) (top pb rb : N) (G : globals) (s0 : state).
Hypothesis ST : started P top pb rb G s0.
Local Notation mhist := (mhistory pb rb (g_core_count G) (g_dram_size G)).
Local Notation thist := (thistory G pb rb s0).

Lemma tlb_refines : exists M0, shows G s0 M0 /\ m_clock M0 = 0 /\ (forall c, m_flushed M0 c = 0) /\
  (forall r, m_owner M0 r = OS) /\ forall h x, thist h x ->
  (forall c p, In (c, p) (snd x) -> c < g_core_count G /\ forall a, a / 4096 = p -> g_monitor_top G <= a) /\
  exists M, mhist M0 (events h) M /\ shows G (fst x) M.
Proof.
  destruct (started_geom _ _ _ _ _ _ ST) as [g HD].
  destruct (started_shows _ _ _ _ _ _ ST) as [ac [c0 [_ [_ K0]]]].
  exists (boot_mstate ac (g_monitor_top G)). split; [exact K0|]. split; [reflexivity|]. split; [reflexivity|]. split; [reflexivity|].
  intros h x H. induction H as [|h x e y H IH E].
  - split; [intros c p []|]. exists (boot_mstate ac (g_monitor_top G)). split; [constructor|exact K0].
  - destruct IH as [TI [M [MH K]]]. rewrite events_app.
    destruct E as [s T e v s' E|s T c p C PW A|s T c a v I]; cbn [fst snd] in *.
    + split; [intros c p I; apply kept_in in I as [I _]; auto|].
      destruct (step_refines G pb rb g HD s M e v s' K E) as [M' [EF K']].
      exists M'. split; [econstructor; eauto|exact K'].
    + split.
      * intros c' p' [X|X]; [|auto]. inversion X; subst. split; [exact C|].
        intros a AP. eapply cpu_above; eauto.
      * exists M. cbn [events flat_map app]. rewrite app_nil_r. auto.
    + split; [exact TI|]. exists M. split; [econstructor; [exact MH|reflexivity]|].
      apply (write_shows G pb rb g HD); [exact K|]. apply (proj2 (TI c _ I)). reflexivity.
Qed.

(** Where an entry comes from. *)
Lemma entry_filled h x c p : thist h x -> In (c, p) (snd x) ->
  exists h1 h2 y, h = h1 ++ TFill c p :: h2 /\ thist h1 y /\ c < g_core_count G /\
    (forall a, a / 4096 = p -> cpu_may_access pb rb (s_cores (fst y) c) a) /\ tnone (flush_by c) h2.
Proof.
  intros H. revert c p. induction H as [|h x e y H IH E]; intros c p I; [destruct I|].
  destruct E as [s T e v s' E|s T c' p' C PW A|s T c' a v I']; cbn [snd] in *.
  - apply kept_in in I as [I F]. destruct (IH c p I) as (h1 & h2 & z & -> & TH & C & A & N).
    exists h1, (h2 ++ [TEvent e v]), z. split; [rewrite <- app_assoc; reflexivity|].
    split; [exact TH|]. split; [exact C|]. split; [exact A|].
    intros e' I'. apply in_app_or in I' as [I'|[<-|[]]]; [auto|]. cbn. eapply no_flush; eauto.
  - destruct I as [X|I].
    + inversion X; subst. exists h, [], (s, T). split; [reflexivity|]. split; [exact H|].
      split; [exact C|]. split; [exact A|]. intros e [].
    + destruct (IH c p I) as (h1 & h2 & z & -> & TH & C' & A' & N).
      exists h1, (h2 ++ [TFill c' p']), z. split; [rewrite <- app_assoc; reflexivity|].
      split; [exact TH|]. split; [exact C'|]. split; [exact A'|].
      intros e' I'. apply in_app_or in I' as [I'|[<-|[]]]; [auto|reflexivity].
  - destruct (IH c p I) as (h1 & h2 & z & -> & TH & C' & A' & N).
    exists h1, (h2 ++ [TStore c' a v]), z. split; [rewrite <- app_assoc; reflexivity|].
    split; [exact TH|]. split; [exact C'|]. split; [exact A'|].
    intros e' I''. apply in_app_or in I'' as [I''|[<-|[]]]; [auto|reflexivity].
Qed.

(** A region that is not the OS's and not admitted by the registers of c stays so. *)
Lemma away c r M h M' : mhist M h M' -> none (ok_assign_of r) h -> m_owner M r <> OS ->
  m_owner M' r <> OS /\ (m_access M c r = false -> m_access M' c r = false).
Proof.
  intros H N O. induction H as [|h M1 e v M2 H IH E]; [auto|].
  apply none_app in N as [N1 N2]. apply none_one in N2. destruct (IH N1) as [O1 A1]. clear IH.
  apply effect_change in E. destruct E;
    cbn [m_owner m_access load_access tick set_owner m_flush m_set_dma m_stick] in *; auto.
  - unfold upd at 1. split; [destruct (r =? r0); [discriminate|auto]|]. intros A.
    unfold upd at 1. destruct (c =? c0); [|auto]. unfold upd.
    destruct (r =? r0); [reflexivity|]. match goal with |- is_os (m_owner ?m r) = _ => destruct (m_owner m r); [contradiction|reflexivity..] end.
  - unfold upd at 1. split; [destruct (r =? r0); [discriminate|auto]|auto].
  - cbn in N2. rewrite N.eqb_sym in N2. unfold upd at 1. rewrite N2. split; [auto|]. intros A.
    unfold upd at 1. destruct (c =? c0); [|auto]. unfold upd. rewrite N2.
    match goal with |- is_os (m_owner ?m r) = _ => destruct (m_owner m r); [contradiction|reflexivity..] end.
  - unfold upd at 1. split; [destruct (r =? r0); [discriminate|auto]|auto].
Qed.
Lemma given_up_owner r h M0 M : given_up r h -> mhist M0 (events h) M -> m_owner M r <> OS.
Proof.
  intros (a & c & b & -> & N) H. rewrite events_app in H.
  change (events (TEvent (ECall c (CBlock r)) 0 :: b)) with ([(ECall c (CBlock r), 0)] ++ events b) in H.
  apply mhist_app in H as [M1 [H1 H]]. apply mhist_app in H as [M2 [H2 H]].
  apply mhist_one in H2. cbn [effect] in H2.
  apply block_inv in H2 as [[V _]|(_ & _ & _ & _ & _ & _ & ->)]; [exfalso; apply V; reflexivity|].
  apply (away 0 r) in H; [apply H| |].
  - apply tnone_events; [reflexivity|exact N].
  - cbn [m_owner load_access tick set_owner]. rewrite upd_same. discriminate.
Qed.
Lemma reload_access c x M M' r : ok_reload_by c x = true ->
  effect pb rb (g_core_count G) (g_dram_size G) (fst x) (snd x) M M' -> m_owner M' r <> OS ->
  m_access M' c r = false.
Proof.
  destruct x as [[c' k|? ? ?|? ?] [|v]]; try discriminate. cbn [ok_reload_by fst snd]. intros R E O.
  apply andb_prop in R as [C R]. apply N.eqb_eq in C. subst c'.
  assert (X : exists M3, M' = load_access M3 c).
  { destruct k; try discriminate; cbn [effect] in E.
    - apply block_inv in E as [[V _]|(_ & _ & _ & _ & _ & _ & ->)]; [exfalso; apply V; reflexivity|eauto].
    - apply assign_inv in E as [[V _]|(_ & _ & _ & _ & ->)]; [exfalso; apply V; reflexivity|eauto]. }
  destruct X as [M3 ->]. cbn [m_access m_owner load_access] in *. rewrite upd_same.
  destruct (m_owner M3 r); [contradiction|reflexivity..].
Qed.
End Refine.

Lemma split_after {A} (y f : A) : forall p q a b, p ++ y :: q = a ++ f :: b -> y <> f -> ~ In y b ->
  exists d, q = d ++ f :: b /\ a = p ++ y :: d.
Proof.
  induction p as [|z p IH]; intros q a b E NE NI.
  - destruct a as [|z a]; cbn in E; inversion E; subst; [contradiction|]. exists a. auto.
  - destruct a as [|z' a]; cbn in E; inversion E; subst.
    + exfalso. apply NI. apply in_or_app. right. left. reflexivity.
    + destruct (IH _ _ _ H1 NE NI) as (d & -> & ->). exists d. auto.
Qed.

(** ** C91 *)
(** After a region was blocked, core c reloaded its registers (by a successful block or
    assignment, such as that block) and then flushed, its TLB holds no page of the region
    until the region is assigned again. *)
Theorem C91_flushed_partial : forall P top pb rb G s0 h1 e h2 v h3 x c p r,
  started P top pb rb G s0 ->
  thistory G pb rb s0 (h1 ++ e :: h2 ++ TEvent (ECall c CFlush) v :: h3) x ->
  given_up r (h1 ++ [e]) -> event_of (ok_reload_by c) e = true -> r < 2 ^ rb ->
  tnone (ok_assign_of r) h2 -> tnone (ok_assign_of r) h3 ->
  (forall a, a / 4096 = p -> region_of pb rb a = r) -> ~ In (c, p) (snd x).
Proof.
  intros P top pb rb G s0 h1 e h2 v h3 x c p r ST H GU RL RB N2 N3 PR I.
  destruct (started_geom _ _ _ _ _ _ ST) as [g HD].
  destruct (entry_filled _ _ _ _ _ _ _ _ H I) as (k1 & k2 & y & E & TH & C & A & NF).
  replace (h1 ++ e :: h2 ++ TEvent (ECall c CFlush) v :: h3)
    with ((h1 ++ e :: h2) ++ TEvent (ECall c CFlush) v :: h3) in E by (rewrite <- app_assoc; reflexivity).
  apply split_after in E as (d & -> & ->); [|discriminate|].
  2:{ intros X. specialize (NF _ X). cbn in NF. rewrite N.eqb_refl in NF. discriminate. }
  destruct (tlb_refines _ _ _ _ _ _ ST) as (M0 & K0 & _ & _ & _ & REF).
  destruct (REF _ _ TH) as [_ [M [MH K]]].
  replace ((h1 ++ e :: h2) ++ TEvent (ECall c CFlush) v :: d)
    with (((h1 ++ [e]) ++ h2) ++ TEvent (ECall c CFlush) v :: d) in MH
    by (rewrite <- !app_assoc; reflexivity).
  rewrite events_app in MH. apply mhist_app in MH as [M2 [MH12 MHd]].
  rewrite events_app in MH12. apply mhist_app in MH12 as [M1 [MH1 MH2]].
  pose proof (given_up_owner _ _ _ r _ _ _ GU MH1) as O1.
  assert (A1 : m_access M1 c r = false).
  { destruct e as [e w|? ?|? ? ?]; try discriminate. cbn [event_of] in RL.
    rewrite events_app in MH1. apply mhist_app in MH1 as [M3 [_ MH1]]. cbn [events flat_map app] in MH1.
    apply mhist_one in MH1. exact (reload_access _ _ _ c (e, w) _ _ r RL MH1 O1). }
  destruct (away _ _ _ c r _ _ _ MH2) as [O2 A2]; [apply tnone_events; [reflexivity|exact N2]|exact O1|].
  destruct (away _ _ _ c r _ _ _ MHd) as [O3 A3]; [|exact O2|].
  { apply tnone_events; [reflexivity|]. intros z [<-|Z]; [reflexivity|]. apply N3.
    apply in_or_app. left. exact Z. }
  specialize (A3 (A2 A1)).
  assert (PA : p * 4096 / 4096 = p) by (apply N.div_mul; discriminate).
  destruct (A _ PA) as [X _]. rewrite (PR _ PA) in X.
  rewrite (sh_access _ _ _ K c r C) in X; [congruence|]. rewrite (geo_count _ _ _ g). exact RB.
Qed.

(** *** Freed regions *)
Section Freed.
Variables (pb rb cores dram : N).
Local Notation mhist := (mhistory pb rb cores dram).
Lemma still_blocked r M h M' : mhist M h M' -> none (ok_free_of r) h -> m_owner M r = Blocked ->
  m_owner M' r = Blocked /\ none (ok_assign_of r) h /\ m_blocked_at M' r = m_blocked_at M r.
Proof.
  intros H N O. induction H as [|h M1 e v M2 H IH E]; [split; [exact O|split; [apply none_nil|reflexivity]]|].
  apply none_app in N as [N1 N2]. apply none_one in N2. destruct (IH N1) as (O1 & A1 & B1). clear IH.
  assert (A2 : ok_assign_of r (e, v) = false).
  { destruct e as [c k|? ? ?|? ?]; try reflexivity. destruct k; try reflexivity.
    destruct v; try reflexivity. cbn. apply N.eqb_neq. intros ->.
    cbn [effect] in E. apply assign_inv in E as [[V _]|(_ & _ & _ & X & _)];
      [apply V; reflexivity|congruence]. }
  rewrite none_app, none_one. split; [|split; [split; assumption|]]; rewrite <- ?B1; clear A1 A2 B1 O H;
    apply effect_change in E; destruct E; auto;
    cbn [m_owner m_blocked_at load_access tick set_owner m_flush m_set_dma m_stick]; auto.
  - rewrite upd_other; [exact O1|]. intros ->. congruence.
  - rewrite upd_other; [exact O1|]. intros ->. congruence.
  - rewrite upd_other; [exact O1|]. intros ->. congruence.
  - rewrite upd_other; [exact O1|]. intros ->. cbn in N2. rewrite N.eqb_refl in N2. discriminate.
  - rewrite upd_other; [reflexivity|]. intros ->. congruence.
Qed.
End Freed.

Lemma not_tnone (p : event * N -> bool) h : (forall c a v, p (EStore c a v, 0) = false) ->
  ~ none p (events h) -> exists a e v b, h = a ++ TEvent e v :: b /\ p (e, v) = true.
Proof.
  intros S. induction h as [|e h IH]; intros N; [exfalso; apply N; apply none_nil|].
  destruct (event_of p e) eqn:E.
  - destruct e as [e v|? ?|? ? ?]; try discriminate. exists [], e, v, h. auto.
  - destruct IH as (a & e' & v & b & -> & X).
    + intros H. apply N. change (e :: h) with ([e] ++ h). rewrite events_app. apply none_app. split; [|exact H].
      apply tnone_events; [exact S|]. intros x [<-|[]]. exact E.
    + exists (e :: a), e', v, b. auto.
Qed.

(** The core that blocked a region holds no page of it when the region is freed, provided
    that some region was blocked between the core's last flush and that block. *)
Theorem C91_freed_partial : forall P top pb rb G s0 a c1 r1 b c r h2 c2 x p,
  started P top pb rb G s0 ->
  thistory G pb rb s0 ((a ++ TEvent (ECall c1 (CBlock r1)) 0 :: b) ++ TEvent (ECall c (CBlock r)) 0 :: h2 ++
    [TEvent (ECall c2 (CFree r)) 0]) x ->
  tblocks ((a ++ TEvent (ECall c1 (CBlock r1)) 0 :: b) ++ TEvent (ECall c (CBlock r)) 0 :: h2) < 2 ^ 64 ->
  tnone (flush_by c) b -> tnone (ok_free_of r) h2 ->
  (forall a, a / 4096 = p -> region_of pb rb a = r) -> ~ In (c, p) (snd x).
Proof.
  intros P top pb rb G s0 a c1 r1 b c r h2 c2 x p ST H B NB NF PR.
  destruct (started_geom _ _ _ _ _ _ ST) as [g HD].
  destruct (tlb_refines _ _ _ _ _ _ ST) as (M0 & K0 & CL0 & FL0 & _ & REF).
  set (h1 := a ++ TEvent (ECall c1 (CBlock r1)) 0 :: b) in *.
  destruct (REF _ _ H) as [TC [M' [MH _]]].
  rewrite tblocks_events in B.
  replace (h1 ++ TEvent (ECall c (CBlock r)) 0 :: h2 ++ [TEvent (ECall c2 (CFree r)) 0])
    with ((h1 ++ TEvent (ECall c (CBlock r)) 0 :: h2) ++ [TEvent (ECall c2 (CFree r)) 0]) in MH
    by (rewrite <- app_assoc; reflexivity).
  rewrite events_app in MH. cbn [events flat_map app] in MH.
  apply mhist_app in MH as [M [MH MF]]. apply mhist_one in MF. cbn [effect] in MF.
  apply free_inv in MF as [[V _]|(_ & RB & _ & AF)]; [exfalso; apply V; reflexivity|].
  change (flat_map _ (h1 ++ TEvent (ECall c (CBlock r)) 0 :: h2)) with (events (h1 ++ TEvent (ECall c (CBlock r)) 0 :: h2)) in MH.
  rewrite events_app in MH, B.
  change (events (TEvent (ECall c (CBlock r)) 0 :: h2)) with ([(ECall c (CBlock r), 0)] ++ events h2) in MH, B.
  rewrite !blocks_app, blocks_one in B. cbn [ok_block] in B.
  apply mhist_app in MH as [M1 [MH1 MH]]. apply mhist_app in MH as [M2 [MB MH2]].
  apply mhist_one in MB. cbn [effect] in MB.
  apply block_inv in MB as [[V _]|(_ & R0 & _ & OS1 & _ & _ & EM2)]; [exfalso; apply V; reflexivity|].
  change (2 ^ 64) with W64 in B.
  pose proof (clock_counts _ _ _ _ _ _ _ MH1 ltac:(rewrite CL0; reflexivity)) as CC.
  rewrite CL0, N.add_0_l, N.mod_small in CC by lia.
  assert (O2 : m_owner M2 r = Blocked).
  { subst M2. cbn [m_owner load_access tick set_owner]. apply upd_same. }
  destruct (still_blocked _ _ _ _ r _ _ _ MH2) as (O & NA & BT);
    [apply tnone_events; [reflexivity|exact NF]|exact O2|].
  destruct AF as [[_ AF]|X]; [|congruence].
  assert (BT2 : m_blocked_at M2 r = blocks (events h1)).
  { subst M2. cbn [m_blocked_at load_access tick set_owner]. rewrite upd_same. exact CC. }
  intros IN. assert (C : c < g_core_count G) by (apply (TC c p IN)).
  assert (FC : blocks (events h1) <= m_flushed M c).
  { unfold all_flushed in AF. rewrite forallb_forall in AF.
    specialize (AF (N.to_nat c)). rewrite N2Nat.id in AF. rewrite BT, BT2 in AF.
    apply N.leb_le, AF. apply in_seq. lia. }
  assert (FM1 : m_flushed M1 c < blocks (events h1)).
  { unfold h1 at 1. rewrite events_app.
    change (events (TEvent (ECall c1 (CBlock r1)) 0 :: b)) with ([(ECall c1 (CBlock r1), 0)] ++ events b).
    rewrite !blocks_app, blocks_one. cbn [ok_block].
    destruct (flush_time _ _ _ _ _ _ M1 c MH1) as [[NF1 FE1]|[a' [b' [E [NF1 FE1]]]]];
      [rewrite CL0; lia|rewrite CL0, FL0; lia|rewrite FE1, FL0; lia|].
    rewrite FE1, CL0. unfold h1 in E. rewrite events_app in E. symmetry in E.
    change (events (TEvent (ECall c1 (CBlock r1)) 0 :: b)) with ((ECall c1 (CBlock r1), 0) :: events b) in E.
    apply split_after in E as (d & -> & E2); [|discriminate|].
    - rewrite E2.
      change ((ECall c CFlush, 0) :: d) with ([(ECall c CFlush, 0)] ++ d). rewrite !blocks_app, blocks_one. cbn. lia.
    - intros X. pose proof (tnone_events (flush_by c) b ltac:(reflexivity) NB _ X) as Y. cbn in Y.
      rewrite N.eqb_refl in Y. discriminate. }
  assert (CL2 : m_clock M2 = blocks (events h1) + 1).
  { subst M2. cbn [m_clock load_access tick set_owner]. rewrite CC, N.mod_small by lia. reflexivity. }
  assert (FL2 : m_flushed M2 c = m_flushed M1 c) by (subst M2; reflexivity).
  destruct (not_tnone (flush_by c) h2) as (u & e & v & w & E & FB); [reflexivity| |].
  { intros N. destruct (flush_time _ _ _ _ M2 _ M c MH2) as [[_ FE]|[a' [b' [E _]]]];
      [rewrite CL2; lia|rewrite FL2, CL2; lia|rewrite FE, FL2 in FC; lia|].
    rewrite E in N. specialize (N (ECall c CFlush, 0)). cbn in N. rewrite N.eqb_refl in N.
    discriminate N. apply in_or_app. right. left. reflexivity. }
  destruct e as [c' k|? ? ?|? ?]; try discriminate. destruct k; try discriminate.
  cbn in FB. apply N.eqb_eq in FB. subst c' h2.
  apply events_tnone in NA.
  revert IN.
  apply (C91_flushed_partial P top pb rb G s0 h1 (TEvent (ECall c (CBlock r)) 0) u v
    (w ++ [TEvent (ECall c2 (CFree r)) 0]) x c p r ST).
  - rewrite <- app_assoc in H. exact H.
  - exists h1, c, []. split; [reflexivity|]. intros e [].
  - cbn. rewrite N.eqb_refl. reflexivity.
  - exact RB.
  - intros e I. apply NA. apply in_or_app. auto.
  - intros e I. apply in_app_or in I as [I|[<-|[]]]; [|reflexivity]. apply NA.
    apply in_or_app. right. right. exact I.
  - exact PR.
Qed.

(** *** The monitor and single-core machines *)
(** No TLB ever holds a page with a byte of the monitor, and stores through it leave the
    monitor's memory alone. *)
Theorem C91_monitor : forall P top pb rb G s0 h x, started P top pb rb G s0 ->
  thistory G pb rb s0 h x ->
  (forall c a, c < g_core_count G -> can_reach pb rb x c a -> g_monitor_top G <= a) /\
  forall c a v y, tstep G pb rb x (TStore c a v) y ->
    forall b, b < g_monitor_top G -> s_mem (fst y) b = s_mem (fst x) b.
Proof.
  intros P top pb rb G s0 h x ST H. destruct (started_geom _ _ _ _ _ _ ST) as [g HD].
  destruct (tlb_refines _ _ _ _ _ _ ST) as (M0 & K0 & _ & _ & _ & REF).
  destruct (REF _ _ H) as [TC [M [MH K]]]. split.
  - intros c a C [A|I]; [eapply cpu_above; eauto|]. apply (proj2 (TC c _ I)). reflexivity.
  - intros c a v y S b L. inversion S as [| |s T c' a' v' I]; subst. cbn [fst snd] in *.
    pose proof (proj2 (TC c _ I) a eq_refl) as T1.
    cbn [set_mem s_mem]. unfold st. replace (a <=? b) with false by lia. reflexivity.
Qed.

Lemma os_or_blocked_since pb rb cores dram r M h M' : mhistory pb rb cores dram M h M' -> m_owner M r = OS ->
  m_owner M' r = OS \/ exists c, In (ECall c (CBlock r), 0) h.
Proof.
  intros H O. induction H as [|h M1 e v M2 H IH E]; [auto|].
  destruct IH as [O1|(c & I)]; [|right; exists c; apply in_or_app; auto].
  apply effect_change in E. destruct E; auto;
    cbn [m_owner load_access tick set_owner m_flush m_set_dma m_stick].
  - unfold upd. destruct (N.eqb_spec r r0) as [->|]; [|auto]. right. exists c. apply in_or_app. right. left. reflexivity.
  - unfold upd. destruct (N.eqb_spec r r0) as [->|]; [congruence|auto].
  - unfold upd. destruct (N.eqb_spec r r0) as [->|]; auto.
  - unfold upd. destruct (N.eqb_spec r r0) as [->|]; [|auto]. destruct H1 as [[X _]|X]; congruence.
Qed.
Lemma thist_cores G pb rb s0 h x c k v : thistory G pb rb s0 h x -> In (TEvent (ECall c k) v) h ->
  c < g_core_count G.
Proof.
  intros H. induction H as [|h x e y H IH E]; intros I; [destruct I|].
  apply in_app_or in I as [I|[->|[]]]; [auto|]. inversion E as [s T e v' s' ES| |]; subst.
  inversion ES. assumption.
Qed.
(** On a machine with one core, whatever the OS can reach belongs to the OS, or was blocked
    and the core has not flushed since. *)
Theorem C91_single_core_partial : forall P top pb rb G s0 h x c a,
  started P top pb rb G s0 -> thistory G pb rb s0 h x -> g_core_count G = 1 ->
  c < g_core_count G -> can_reach pb rb x c a ->
  owner_of G (fst x) (region_of pb rb a) = 0 \/
  exists h1 h2, h = h1 ++ TEvent (ECall c (CBlock (region_of pb rb a))) 0 :: h2 /\
    tnone (flush_by c) h2.
Proof.
  intros P top pb rb G s0 h x c a ST H C1 C A.
  destruct (started_geom _ _ _ _ _ _ ST) as [g HD].
  pose proof (region_of_lt pb rb a) as RB.
  assert (RC : region_of pb rb a < g_dram_region_count G) by (rewrite (geo_count _ _ _ g); exact RB).
  destruct (tlb_refines _ _ _ _ _ _ ST) as (M0 & K0 & _ & _ & O0 & REF).
  (* what the registers admit *)
  assert (REG : forall h x M, thistory G pb rb s0 h x ->
    mhistory pb rb (g_core_count G) (g_dram_size G) M0 (events h) M -> shows G (fst x) M ->
    cpu_may_access pb rb (s_cores (fst x) c) a -> m_owner M (region_of pb rb a) = OS).
  { clear h x H A. intros h x M H MH K [A _].
    rewrite (sh_access _ _ _ K c _ C RC) in A.
    apply (access_sound pb rb (g_core_count G) (g_dram_size G) c M0 (events h) M MH); auto.
    apply tnone_events; [reflexivity|]. intros e I. destruct e as [e v|? ?|? ? ?]; try reflexivity.
    destruct e as [c' k|? ? ?|? ?]; try reflexivity.
    pose proof (thist_cores _ _ _ _ _ _ _ _ _ H I) as C'. cbn.
    destruct k; try reflexivity. destruct v; try reflexivity.
    replace c' with c by lia. rewrite N.eqb_refl. reflexivity. }
  assert (ALL : exists M, mhistory pb rb (g_core_count G) (g_dram_size G) M0 (events h) M /\ shows G (fst x) M /\
    (In (c, a / 4096) (snd x) -> m_owner M (region_of pb rb a) = OS \/
     exists h1 h2, h = h1 ++ TEvent (ECall c (CBlock (region_of pb rb a))) 0 :: h2 /\ tnone (flush_by c) h2)).
  { clear A. induction H as [|h x e y H IH E].
    - exists M0. split; [constructor|]. split; [exact K0|]. intros [].
    - destruct IH as (M & MH & K & IH).
      assert (FLAT : forall e', e = e' -> (forall ev v, e' <> TEvent ev v) ->
        (exists h1 h2, h = h1 ++ TEvent (ECall c (CBlock (region_of pb rb a))) 0 :: h2 /\ tnone (flush_by c) h2) ->
        exists h1 h2, h ++ [e'] = h1 ++ TEvent (ECall c (CBlock (region_of pb rb a))) 0 :: h2 /\ tnone (flush_by c) h2).
      { intros e' _ NE (h1 & h2 & -> & N). exists h1, (h2 ++ [e']). split; [rewrite <- app_assoc; reflexivity|].
        intros z Z. apply in_app_or in Z as [Z|[<-|[]]]; [auto|]. destruct e'; [exfalso; eapply NE; reflexivity|reflexivity..]. }
      destruct E as [s T e v s' E|s T c' p' C' PW A|s T c' b v I]; cbn [fst snd] in *.
      + destruct (step_refines G pb rb g HD s M e v s' K E) as [M' [EF K']].
        exists M'. split; [rewrite events_app; econstructor; eauto|]. split; [exact K'|].
        intros I. apply kept_in in I as [I F]. specialize (IH I).
        pose proof (no_flush _ _ _ _ _ _ _ _ E F) as NF.
        destruct IH as [O|(h1 & h2 & -> & N)].
        * destruct (os_or_blocked_since pb rb (g_core_count G) (g_dram_size G) (region_of pb rb a) M [(e, v)] M') as [O'|(c' & [X|[]])].
          -- apply (mh_snoc pb rb _ _ M [] M e v M'); [constructor|exact EF].
          -- exact O.
          -- left. exact O'.
          -- right. inversion X; subst e v. inversion E; subst. replace c' with c by lia.
             exists h, []. split; [reflexivity|]. intros z [].
        * right. exists h1, (h2 ++ [TEvent e v]). split; [rewrite <- app_assoc; reflexivity|].
          intros z Z. apply in_app_or in Z as [Z|[<-|[]]]; [auto|exact NF].
      + exists M. split; [rewrite events_app; cbn [events flat_map app]; rewrite app_nil_r; exact MH|].
        split; [exact K|]. intros [X|I].
        * inversion X; subst. left. apply (REG h (s, T) M H MH K). apply A. reflexivity.
        * destruct (IH I) as [O|X]; [left; exact O|right]. eapply FLAT; [reflexivity|discriminate|exact X].
      + destruct (REF _ _ H) as [TC _]. cbn [snd] in TC.
        exists M. split; [rewrite events_app; econstructor; [exact MH|reflexivity]|].
        split; [apply (write_shows G pb rb g HD); [exact K|]; apply (proj2 (TC c' _ I)); reflexivity|].
        intros I'. destruct (IH I') as [O|X]; [left; exact O|right]. eapply FLAT; [reflexivity|discriminate|exact X]. }
  destruct ALL as (M & MH & K & ALL). rewrite (sh_owner _ _ _ K _ RC).
  destruct A as [A|A]; [left; rewrite (REG _ _ _ H MH K A); reflexivity|].
  destruct (ALL A) as [->|X]; [left; reflexivity|right; exact X].
Qed.

(** *** Refuted *)
Lemma create_no_flush G r : uses not_flush (create_metadata_region G r).
Proof.
  unfold create_metadata_region, test_and_set_dram_region_lock, clear_dram_region_lock,
    read_dram_region_owner, init_metadata_region, bzero64, load64, store64. uses_tac.
  apply uses_for_n. intros i. uses_tac.
Qed.
Lemma kept_all G c k s s' v T : uses not_flush (call_prog G k) -> do_call G c k s = (s', Some v) ->
  kept s s' T = T.
Proof.
  intros U D. unfold kept. induction T as [|e T IH]; [reflexivity|]. cbn [filter].
  rewrite (run_flushes c (fst e) _ _ _ _ U D), N.eqb_refl, IH. reflexivity.
Qed.
Lemma region_above pb rb G a : geom G pb rb -> region_of pb rb a <> 0 -> g_monitor_top G <= a.
Proof.
  intros g R. pose proof (geo_fits _ _ _ g) as F.
  destruct (N.lt_ge_cases a (2 ^ (12 + pb))) as [L|L]; [|lia].
  exfalso. apply R. unfold region_of. rewrite N.div_small by exact L. apply N.mod_0_l.
  apply N.pow_nonzero. discriminate.
Qed.

(** On every machine, right after boot: the booting core caches a page of region r, and
    blocks and frees the region without a flush.  The region becomes a metadata region and
    the core can still store to it. *)
Theorem C91_refuted : forall P top pb rb G s0, started P top pb rb G s0 ->
  exists c, c < g_core_count G /\ forall r p, 2 <= r < g_dram_region_count G -> p < 2 ^ 52 ->
  (forall a, a / 4096 = p -> region_of pb rb a = r) ->
  exists x, thistory G pb rb s0 [TFill c p; TEvent (ECall c (CBlock r)) 0;
      TEvent (ECall c (CFree r)) 0; TEvent (ECall c (CCreateMetadataRegion r)) 0] x /\
    owner_of G (fst x) r = 2 /\ (forall a, a / 4096 = p -> can_reach pb rb x c a) /\
    forall a v, a / 4096 = p -> v < 256 -> exists y, tstep G pb rb x (TStore c a v) y /\ s_mem (fst y) a = v.
Proof.
  intros P top pb rb G s0 ST.
  destruct (started_geom _ _ _ _ _ _ ST) as [g HD].
  pose proof (reach_start _ _ _ _ _ _ ST) as R0.
  destruct (started_shows _ _ _ _ _ _ ST) as [ac [_ [_ [_ K0]]]].
  destruct ST as [S D [c [sb [C [RUN [Z [PAR WD]]]]]]].
  destruct (C21_os_memory_reachable c sb P top pb rb S) as (s1 & G1 & RUN1 & ACC).
  { revert WD. generalize (2 ^ rb). intros n WD. lia. }
  rewrite RUN in RUN1. inversion RUN1; subst s1 G1. clear RUN1.
  destruct (boot_supported c sb P top pb rb S) as (s1 & G1 & RUN1 & B).
  rewrite RUN in RUN1. inversion RUN1; subst s1 G1. clear RUN1.
  assert (CC : c < g_core_count G) by (rewrite (bt_globals _ _ _ _ _ _ _ _ B); exact C).
  exists c. split; [exact CC|]. intros r p [R2 R] PW PR.
  assert (RB : r < 2 ^ rb) by (rewrite <- (geo_count _ _ _ g); exact R).
  assert (RW : r < W64).
  { pose proof (geo_rb _ _ _ g). assert (2 ^ rb <= 2 ^ 30) by (apply N.pow_le_mono_r; lia).
    change (2 ^ 30) with 1073741824 in *. unfold W64. lia. }
  assert (E0 : (r =? 0) = false) by lia. assert (E1 : (2 ^ rb <=? r) = false) by lia.
  destruct (can_call _ _ _ _ _ _ _ c (CBlock r) R0 K0 CC RW I)
    as [s1 [v1 [M1 [C1 [F1 [K1 [S1 R1]]]]]]].
  cbn [effect] in F1. unfold block_table in F1.
  rewrite E0, E1 in F1. cbn [orb m_owner boot_mstate m_stuck m_dma_start m_dma_end] in F1.
  replace (touches _ _ _ _) with false in F1.
  2:{ symmetry. unfold touches, stripe_start. pose proof (geo_fits _ _ _ g) as F.
      assert (SP : 2 ^ 12 <= 2 ^ (12 + pb)) by (apply N.pow_le_mono_r; lia).
      change (2 ^ 12) with 4096 in SP.
      revert F SP. generalize (2 ^ (12 + pb)). intros x F SP.
      apply andb_false_intro2. apply N.leb_gt. nia. }
  inversion F1; subst v1 M1; clear F1.
  destruct (can_call _ _ _ _ _ _ _ c (CFree r) R1 K1 CC RW I)
    as [s2 [v2 [M2 [C2 [F2 [K2 [S2 R2']]]]]]].
  cbn [effect] in F2. unfold free_table, taken in F2. rewrite E0, E1 in F2. cbn [andb] in F2.
  cbn [m_owner load_access tick set_owner boot_mstate] in F2. rewrite upd_same in F2.
  replace (all_flushed _ _ _) with true in F2.
  2:{ symmetry. unfold all_flushed. apply forallb_forall. intros i _.
      cbn [m_flushed m_blocked_at load_access tick set_owner boot_mstate m_clock].
      rewrite upd_same. reflexivity. }
  inversion F2; subst v2 M2; clear F2.
  destruct (can_call _ _ _ _ _ _ _ c (CCreateMetadataRegion r) R2' K2 CC RW I)
    as [s3 [v3 [M3 [C3 [F3 [K3 [S3 R3]]]]]]].
  cbn [effect] in F3. unfold create_metadata_table, taken in F3. rewrite E0, E1 in F3. cbn [andb] in F3.
  cbn [m_owner load_access tick set_owner boot_mstate] in F3. rewrite !upd_same in F3.
  inversion F3; subst v3 M3; clear F3.
  exists (s3, [(c, p)]). split; [|split; [|split]].
  - change ([TFill c p; TEvent (ECall c (CBlock r)) 0; TEvent (ECall c (CFree r)) 0; TEvent (ECall c (CCreateMetadataRegion r)) 0])
      with (((([] ++ [TFill c p]) ++ [TEvent (ECall c (CBlock r)) 0]) ++ [TEvent (ECall c (CFree r)) 0]) ++
        [TEvent (ECall c (CCreateMetadataRegion r)) 0]).
    eapply th_snoc; [eapply th_snoc; [eapply th_snoc; [eapply th_snoc; [constructor|]|]|]|].
    + apply ts_fill; [exact CC|exact PW|]. intros a AP. apply ACC.
      * change (2 ^ 64) with (2 ^ 52 * 4096). apply N.div_lt_upper_bound in PW || idtac. rewrite <- AP in PW.
        pose proof (N.div_mod' a 4096). pose proof (N.mod_lt a 4096 ltac:(discriminate)). lia.
      * apply (region_above pb rb G a g). rewrite (PR a AP). lia.
    + apply ts_event. exact S1.
    + rewrite (kept_all G c (CBlock r) _ _ _ _ (block_no_flush G r) C1). apply ts_event. exact S2.
    + rewrite (kept_all G c (CFree r) _ _ _ _ (free_no_flush G r) C2).
      rewrite <- (kept_all G c (CCreateMetadataRegion r) _ _ _ [(c, p)] (create_no_flush G r) C3) at 2. apply ts_event. exact S3.
  - cbn [fst]. rewrite (sh_owner _ _ _ K3 r R). cbn [m_owner set_owner]. rewrite upd_same. reflexivity.
  - intros a AP. right. rewrite AP. left. reflexivity.
  - intros a v AP V. eexists. split; [apply ts_store; rewrite AP; left; reflexivity|].
    cbn [fst set_mem s_mem]. unfold st. change (N.of_nat 1) with 1.
    replace ((a <=? a) && (a <? a + 1)) with true by (symmetry; apply andb_true_intro; split; lia).
    rewrite N.sub_diag. cbn [N.mul]. rewrite N.shiftr_0_r. apply N.mod_small. exact V.
Qed.

(** *** A machine with one core *)
Definition one_platform : platform :=
  mkPlatform (2 ^ 22) 2 (fun i => i =? 1) (fun _ => 64) (fun _ => 1024) 0 10 1.
Definition one_G : globals := globals_of one_platform 6 4 0 1024.
Definition one_s0 : state := fst (run 0 (boot_from one_platform 0) (ex_boot_state 0)).
Example one_started : started one_platform 0 6 4 one_G one_s0.
Proof.
  assert (S : supported one_platform 0 6 4).
  { constructor; try (vm_compute; intuition congruence).
    - intros [i [H1 [H2 H3]]]. cbn in *. assert (i = 0) by lia. subst. discriminate.
    - exists 6, 10. vm_compute. intuition congruence. }
  assert (B0 : run 0 (boot_from one_platform 0) (ex_boot_state 0) = (one_s0, Some one_G)).
  { destruct (boot_supported 0 (ex_boot_state 0) _ _ _ _ S) as [s' [G [R B]]].
    unfold one_s0. rewrite R. cbn [fst]. rewrite (bt_globals _ _ _ _ _ _ _ _ B).
    replace (2 ^ address_bits_for (tables_end 0 (p_core_count one_platform) (2 ^ 4))) with 1024
      by (vm_compute; reflexivity). reflexivity. }
  constructor.
  - exact S.
  - vm_compute. discriminate.
  - exists 0, (ex_boot_state 0). split; [vm_compute; reflexivity|].
    split; [exact B0|]. split; [reflexivity|]. split.
    + intros c' a _ _ _. cbn. apply N.land_0_r.
    + vm_compute. discriminate.
Qed.

(** *** Examples *)
Lemma page_128 : forall a, a / 4096 = 128 -> region_of 6 4 a = 2.
Proof.
  intros a A. unfold region_of. change (2 ^ (12 + 6)) with (4096 * 64). change (2 ^ 4) with 16.
  rewrite <- N.div_div by discriminate. rewrite A. reflexivity.
Qed.
Lemma page_128_access (r : cregs) : r_par_base r = 0 -> r_par_mask r = W64 - 1024 ->
  r_drb r 0 = 65535 -> forall a, a / 4096 = 128 -> cpu_may_access 6 4 r a.
Proof.
  intros PB PM DR a A. split; [rewrite (page_128 a A)|].
  - unfold drb_bit. change (2 / 64) with 0. rewrite DR. reflexivity.
  - rewrite PB, PM. intros X. assert (T : N.testbit (N.land a (W64 - 1024)) 19 = false).
    { rewrite X. reflexivity. }
    rewrite N.land_spec in T. change (N.testbit (W64 - 1024) 19) with true in T. rewrite andb_true_r in T.
    rewrite N.testbit_eqb in T. change (2 ^ 19) with (4096 * 128) in T.
    rewrite <- N.div_div in T by discriminate. rewrite A in T. discriminate.
Qed.
Definition tcall (G : globals) (c : N) (k : call) (x : state * tlb) : state * tlb :=
  let s' := fst (do_call G c k (fst x)) in (s', kept (fst x) s' (snd x)).
Lemma tcall_step G pb rb s0 h x c k : thistory G pb rb s0 h x -> c < g_core_count G -> call_args_ok k ->
  seq_call G pb rb k -> snd (do_call G c k (fst x)) = Some 0 ->
  thistory G pb rb s0 (h ++ [TEvent (ECall c k) 0]) (tcall G c k x).
Proof.
  intros H C A S V. econstructor; [exact H|]. destruct x as [s T]. apply ts_event. cbn [fst snd] in *.
  constructor; auto. apply call_val. exact V.
Qed.
(** The core caches page 128 of region 2, regions 3 and 2 are blocked, both cores flush and
    region 2 is freed. *)
Definition ex_tlb : list tevent :=
  ([TFill 0 128] ++ TEvent (ECall 0 (CBlock 3)) 0 :: []) ++ TEvent (ECall 0 (CBlock 2)) 0 ::
  [TEvent (ECall 0 CFlush) 0; TEvent (ECall 1 CFlush) 0] ++ [TEvent (ECall 0 (CFree 2)) 0].
Definition ex_tlb_end : state * tlb :=
  tcall ex_G 0 (CFree 2) (tcall ex_G 1 CFlush (tcall ex_G 0 CFlush (tcall ex_G 0 (CBlock 2)
    (tcall ex_G 0 (CBlock 3) (ex_s0, [(0, 128)]))))).
Lemma ex_tlb_history : thistory ex_G 6 4 ex_s0 ex_tlb ex_tlb_end.
Proof.
  change ex_tlb with (((((([] ++ [TFill 0 128]) ++ [TEvent (ECall 0 (CBlock 3)) 0]) ++
    [TEvent (ECall 0 (CBlock 2)) 0]) ++ [TEvent (ECall 0 CFlush) 0]) ++ [TEvent (ECall 1 CFlush) 0]) ++
    [TEvent (ECall 0 (CFree 2)) 0]). unfold ex_tlb_end.
  apply tcall_step; [|reflexivity|reflexivity|exact Logic.I|vm_compute; reflexivity].
  apply tcall_step; [|reflexivity|exact Logic.I|exact Logic.I|vm_compute; reflexivity].
  apply tcall_step; [|reflexivity|exact Logic.I|exact Logic.I|vm_compute; reflexivity].
  apply tcall_step; [|reflexivity|reflexivity|exact Logic.I|vm_compute; reflexivity].
  apply tcall_step; [|reflexivity|reflexivity|exact Logic.I|vm_compute; reflexivity].
  econstructor; [constructor|]. apply ts_fill; [reflexivity|reflexivity|].
  apply page_128_access; vm_compute; reflexivity.
Qed.
Example C91_freed_example : thistory ex_G 6 4 ex_s0 ex_tlb ex_tlb_end /\
  owner_of ex_G (fst ex_tlb_end) 2 = 3 /\ ~ In (0, 128) (snd ex_tlb_end).
Proof.
  split; [exact ex_tlb_history|]. split; [vm_compute; reflexivity|].
  apply (C91_freed_partial ex_platform 0 6 4 ex_G ex_s0 [TFill 0 128] 0 3 [] 0 2
    [TEvent (ECall 0 CFlush) 0; TEvent (ECall 1 CFlush) 0] 0 ex_tlb_end 128 ex_started ex_tlb_history).
  - reflexivity.
  - intros e [].
  - intros e [<-|[<-|[]]]; reflexivity.
  - exact page_128.
Qed.
Example C91_flushed_example : ~ In (0, 128) (snd ex_tlb_end).
Proof.
  apply (C91_flushed_partial ex_platform 0 6 4 ex_G ex_s0
    [TFill 0 128; TEvent (ECall 0 (CBlock 3)) 0] (TEvent (ECall 0 (CBlock 2)) 0) [] 0
    [TEvent (ECall 1 CFlush) 0; TEvent (ECall 0 (CFree 2)) 0] ex_tlb_end 0 128 2 ex_started ex_tlb_history).
  - exists [TFill 0 128; TEvent (ECall 0 (CBlock 3)) 0], 0, []. split; [reflexivity|]. intros e [].
  - reflexivity.
  - reflexivity.
  - intros e [].
  - intros e [<-|[<-|[]]]; reflexivity.
  - exact page_128.
Qed.
(** One core: after the block of region 2 its cached page is still reachable. *)
Example C91_single_core_example : exists x,
  thistory one_G 6 4 one_s0 [TFill 0 128; TEvent (ECall 0 (CBlock 2)) 0] x /\
  g_core_count one_G = 1 /\ can_reach 6 4 x 0 (128 * 4096) /\ owner_of one_G (fst x) 2 = 1.
Proof.
  exists (tcall one_G 0 (CBlock 2) (one_s0, [(0, 128)])). split; [|split; [reflexivity|split]].
  - apply (tcall_step one_G 6 4 one_s0 [TFill 0 128] (one_s0, [(0, 128)]) 0 (CBlock 2));
      [|reflexivity|reflexivity|exact Logic.I|vm_compute; reflexivity].
    apply (th_snoc one_G 6 4 one_s0 [] (one_s0, [])); [constructor|].
    apply ts_fill; [reflexivity|reflexivity|]. apply page_128_access; vm_compute; reflexivity.
  - right. vm_compute. left. reflexivity.
  - vm_compute. reflexivity.
Qed.
Example C91_refuted_example : exists c x, thistory one_G 6 4 one_s0 [TFill c 128; TEvent (ECall c (CBlock 2)) 0;
      TEvent (ECall c (CFree 2)) 0; TEvent (ECall c (CCreateMetadataRegion 2)) 0] x /\
  can_reach 6 4 x c (128 * 4096).
Proof.
  destruct (C91_refuted _ _ _ _ _ _ one_started) as (c & _ & H). exists c.
  destruct (H 2 128) as (x & TH & _ & A & _); [vm_compute; intuition congruence|reflexivity|exact page_128|].
  exists x. split; [exact TH|]. apply A. reflexivity.
Qed.

Definition P_Tlb_theorems := (C91_flushed_partial, C91_freed_partial, C91_monitor,
  C91_single_core_partial, C91_refuted).
Print Assumptions P_Tlb_theorems.
