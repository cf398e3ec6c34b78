(** * Properties C80 to C82: after concurrent calls have come to rest. *)
From Coq Require Import NArith ZArith Lia Bool List.
From Coq Require Import ZifyBool ZifyNat ZifyN.
From Verif Require Import Word Machine ModelInl ModelApi Lib SpecGeometry GeomProofs SpecMonitor
  SpecHistory ViewProofs SeqProofs SeqCalls HistoryProofs HistoryFacts P_Boot P_Regions SpecConcurrent
  P_Conc SpecLinear LinGlobal P_Linear SpecSystem P_System SpecRest.
Import ListNotations.
Open Scope N_scope.
Ltac Zify.zify_post_hook ::= Z.div_mod_to_equations.

Section Times.
Variables (pb rb cores dram : N) (M0 : mstate).
Notation at_ := (atomic pb rb cores dram M0).

(** What an effect does to the owners and times. *)
Inductive timely : N -> call -> N -> N -> mstate -> mstate -> Prop :=
| ti_same c k t v M M' : k <> CFlush -> (is_block k = true -> v <> ok) ->
    m_blocked_at M' = m_blocked_at M -> m_clock M' = m_clock M -> m_flushed M' = m_flushed M ->
    (forall r, m_owner M' r = Blocked -> m_owner M r = Blocked) -> timely c k t v M M'
| ti_block c r t M M' : m_owner M r = OS -> m_blocked_at M' = upd (m_blocked_at M) r (m_clock M) ->
    m_clock M' = (m_clock M + 1) mod W64 -> m_flushed M' = m_flushed M ->
    m_owner M' = upd (m_owner M) r Blocked -> timely c (CBlock r) t ok M M'
| ti_flush c t t' M : t <= t' <= m_clock M -> timely c CFlush t ok M (flush_at M c t').

Lemma effect_timely c k t v M M' : k <> CFlush -> effect pb rb cores dram (ECall c k) v M M' ->
  timely c k t v M M'.
Proof.
  intros NF E. apply effect_change in E. inversion E; subst.
  - apply ti_same; auto. intros B V. subst v. destruct k; try discriminate B. discriminate.
  - apply ti_block; auto.
  - apply ti_same; auto; try discriminate. intros r'. cbn. unfold upd. destruct (r' =? r); [discriminate|auto].
  - apply ti_same; auto; try discriminate. intros r'. cbn. unfold upd. destruct (r' =? r); [discriminate|auto].
  - apply ti_same; auto; try discriminate. intros r'. cbn. unfold upd. destruct (r' =? r); [discriminate|auto].
  - congruence.
  - apply ti_same; auto; discriminate.
  - apply ti_same; auto. intros B. exfalso. repeat match goal with H : _ \/ _ |- _ => destruct H | H : exists _, _ |- _ => destruct H end; subst k; discriminate.
Qed.
Lemma takes_timely O c k t v M M' : takes_effect pb rb cores dram O c k t v M M' -> timely c k t v M M'.
Proof.
  intros [(_ & B & ->)|E].
  - apply ti_same; auto; [intros ->; contradiction|]. intros K V. subst v. destruct k; try discriminate.
    cbn in B. destruct B as (_ & _ & B). discriminate.
  - destruct k; try (apply effect_timely; [discriminate|exact E]).
    + destruct E as [-> (t' & T & ->)]. apply ti_flush; auto.
    + subst M'. apply ti_same; auto; discriminate.
    + subst M'. apply ti_same; auto; discriminate.
Qed.

(** The clock counts the successful blocks. *)
Lemma clock_took l H M st : at_ l H M st -> m_clock M0 + started_blocks l < W64 ->
  m_clock M = m_clock M0 + N.of_nat (tookv is_block ok H).
Proof.
  intros AT. induction AT as [|l H M st c k AT IH SC|l H M st c k t v M' AT IH SC TE|l H M st c k v AT IH SC]; intros B.
  - cbn. lia.
  - apply IH. unfold started_blocks, starts in *. rewrite app_count in B. lia.
  - specialize (IH B).
    destruct (pending pb rb cores dram M0 _ _ _ _ (at_effect _ _ _ _ _ _ _ _ _ _ _ _ _ _ AT SC TE)) as (D & _ & _ & CN).
    destruct (CN is_block) as [CN1 _].
    pose proof (tookv_took is_block ok (H ++ [(ECall c k, v)])) as LE.
    assert (E : tookv is_block ok (H ++ [(ECall c k, v)]) = (tookv is_block ok H + (if is_block k && N.eqb v ok then 1 else 0))%nat).
    { unfold tookv. rewrite app_count. cbn. destruct (is_block k && (v =? ok)); reflexivity. }
    unfold started_blocks in B.
    apply takes_timely in TE. rewrite E in *. inversion TE; subst.
    + match goal with H : m_clock M' = _ |- _ => rewrite H end.
      destruct (is_block k) eqn:BK; cbn [andb]; [|lia]. destruct (N.eqb_spec v ok); [exfalso; match goal with H : _ -> v <> ok |- _ => apply H end; auto|lia].
    + match goal with H : m_clock M' = _ |- _ => rewrite H end. cbn [is_block andb] in *.
      change (ok =? ok) with true in *. cbv iota in *. rewrite N.mod_small by lia. lia.
    + cbn. lia.
  - apply IH. unfold started_blocks, starts in *. rewrite app_count in B. lia.
Qed.
Lemma started_app a b : started_blocks (a ++ b) = started_blocks a + started_blocks b.
Proof. unfold started_blocks, starts. rewrite app_count. lia. Qed.

(** Block times lie in the past, and those of blocked regions differ. *)
Lemma times_ok l H M st : at_ l H M st -> m_clock M0 + started_blocks l < W64 ->
  (forall r, m_owner M0 r <> Blocked) -> (forall r, m_blocked_at M0 r <= m_clock M0) ->
  (forall r, m_blocked_at M r <= m_clock M) /\
  (forall r, m_owner M r = Blocked -> m_blocked_at M r < m_clock M) /\
  (forall r r', m_owner M r = Blocked -> m_owner M r' = Blocked -> m_blocked_at M r = m_blocked_at M r' -> r = r').
Proof.
  intros AT B NB LE. induction AT as [|l H M st c k AT IH SC|l H M st c k t v M' AT IH SC TE|l H M st c k v AT IH SC].
  - split; [exact LE|]. split; intros r; [intros X; destruct (NB r X)|intros r' X; destruct (NB r X)].
  - apply IH. rewrite started_app in B. lia.
  - specialize (IH B). destruct IH as (I1 & I2 & I3).
    pose proof (clock_took _ _ _ _ AT B) as C1.
    pose proof (clock_took _ _ _ _ (at_effect _ _ _ _ _ _ _ _ _ _ _ _ _ _ AT SC TE) B) as C2.
    assert (MONO : m_clock M <= m_clock M').
    { rewrite C1, C2. unfold tookv. rewrite app_count. lia. }
    apply takes_timely in TE. inversion TE; subst.
    + repeat match goal with H : m_blocked_at M' = _ |- _ => rewrite H | H : m_clock M' = _ |- _ => rewrite H end. auto.
    + match goal with H : m_blocked_at M' = _ |- _ => rewrite H end.
      match goal with H : m_owner M' = _ |- _ => rewrite H end.
      assert (CL : m_clock M < m_clock M').
      { clear - C1 C2. rewrite C2, C1. unfold tookv. rewrite app_count. cbn. lia. }
      unfold upd. split; [|split].
      * intros r'. destruct (r' =? r); [lia|]. specialize (I1 r'). lia.
      * intros r'. destruct (r' =? r); [lia|]. intros O. specialize (I2 r' O). lia.
      * intros r1 r2. destruct (N.eqb_spec r1 r) as [->|N1], (N.eqb_spec r2 r) as [->|N2]; auto.
        -- intros _ O E. specialize (I2 r2 O). lia.
        -- intros O _ E. specialize (I2 r1 O). lia.
    + cbn. auto.
  - apply IH. rewrite started_app in B. lia.
Qed.

(** After [l1]: a core that completes a flush started since has a flush time not before
    the clock at that point; a block since then is reported or in progress. *)
Definition settled (r T : N) (l2 : list obs) (M : mstate) (st : N -> status) : Prop :=
  T <= m_clock M /\
  (m_blocked_at M r <= T \/ (exists c, st c = Done (CBlock r) ok) \/
   (exists c, In (Finish c (CBlock r) ok) l2)) /\
  (forall c, (exists a b, l2 = a ++ Start c CFlush :: b) ->
     (T <= m_flushed M c \/ exists t, st c = Waiting CFlush t) /\
     forall t, st c = Waiting CFlush t -> T <= t).
Lemma settled_at r l H M st : at_ l H M st -> m_clock M0 + started_blocks l < W64 ->
  (forall r, m_owner M0 r <> Blocked) -> (forall r, m_blocked_at M0 r <= m_clock M0) ->
  forall l1 l2, l = l1 ++ l2 -> exists T, settled r T l2 M st.
Proof.
  intros AT B NB LE.
  assert (NIL : forall l H M st, at_ l H M st -> m_clock M0 + started_blocks l < W64 -> settled r (m_clock M) [] M st).
  { intros l' H' M' st' AT' B'. destruct (times_ok _ _ _ _ AT' B' NB LE) as (T1 & _). split; [lia|].
    split; [left; apply T1|]. intros c (a & b & E). destruct a; discriminate. }
  induction AT as [|l H M st c k AT IH SC|l H M st c k t v M' AT IH SC TE|l H M st c k v AT IH SC]; intros l1 l2 E.
  - destruct l1; [|discriminate]. cbn in E. subst l2. exists (m_clock M0). apply (NIL [] []); [constructor|exact B].
  - pose proof (at_start _ _ _ _ _ _ _ _ _ c k AT SC) as AT'.
    destruct l2 as [|e l2 _] using rev_ind; [eexists; eapply NIL; eauto|].
    rewrite app_assoc in E. apply app_inj_tail in E. destruct E as [E <-].
    rewrite started_app in B.
    destruct (IH ltac:(lia) l1 l2 E) as (T & S1 & S2 & S3). exists T. split; [exact S1|]. split.
    + destruct S2 as [S2|[[c' S2]|[c' S2]]]; [auto| |].
      * right; left. exists c'. unfold upd. destruct (N.eqb_spec c' c) as [->|]; [congruence|exact S2].
      * right; right. exists c'. apply in_or_app. auto.
    + intros c' (a & b & X). unfold upd. destruct (N.eqb_spec c' c) as [->|NE].
      * destruct b as [|e b _] using rev_ind.
        { apply app_inj_tail in X. destruct X as [_ X]. inversion X; subst.
          split; [right; eexists; reflexivity|]. intros t E. inversion E; subst. exact S1. }
        rewrite app_comm_cons, app_assoc in X. apply app_inj_tail in X. destruct X as [X _].
        destruct (S3 c (ex_intro _ a (ex_intro _ b X))) as [[S|(t & S)] _]; [|congruence].
        split; [auto|]. intros t E'. inversion E'; subst. exact S1.
      * apply S3. destruct b as [|e b _] using rev_ind.
        { apply app_inj_tail in X. destruct X as [_ X]. inversion X. congruence. }
        rewrite app_comm_cons, app_assoc in X. apply app_inj_tail in X. destruct X as [X _]. eauto.
  - pose proof (at_effect _ _ _ _ _ _ _ _ _ _ _ _ _ _ AT SC TE) as AT'.
    destruct (IH B l1 l2 E) as (T & S1 & S2 & S3). exists T.
    pose proof (clock_took _ _ _ _ AT B) as C1. pose proof (clock_took _ _ _ _ AT' B) as C2.
    assert (MONO : m_clock M <= m_clock M').
    { rewrite C1, C2. unfold tookv. rewrite app_count. lia. }
    apply takes_timely in TE. split; [lia|]. split.
    + destruct S2 as [S2|[[c' S2]|[c' S2]]]; [|right; left|right; right; exists c'; exact S2].
      * inversion TE; subst.
        -- left. match goal with H : m_blocked_at M' = _ |- _ => rewrite H end. exact S2.
        -- match goal with H : m_blocked_at M' = _ |- _ => rewrite H end. unfold upd at 1.
           destruct (N.eqb_spec r r0) as [<-|]; [|auto]. right; left. exists c. unfold upd. rewrite N.eqb_refl. reflexivity.
        -- left. exact S2.
      * exists c'. unfold upd. destruct (N.eqb_spec c' c) as [->|]; [congruence|exact S2].
    + intros c' X. destruct (S3 c' X) as [S4 S5]. split.
      * inversion TE; subst.
        -- match goal with H : m_flushed M' = _ |- _ => rewrite H end.
           destruct S4 as [S|(t' & S)]; [auto|]. right. exists t'. unfold upd. destruct (N.eqb_spec c' c) as [->|]; [congruence|auto].
        -- match goal with H : m_flushed M' = _ |- _ => rewrite H end.
           destruct S4 as [S|(t' & S)]; [auto|]. right. exists t'. unfold upd. destruct (N.eqb_spec c' c) as [->|]; [congruence|auto].
        -- cbn [flush_at m_flushed]. unfold upd. destruct (N.eqb_spec c' c) as [->|]; [|exact S4].
           left. specialize (S5 t SC). lia.
      * intros t'. unfold upd. destruct (N.eqb_spec c' c) as [->|]; [discriminate|]. apply S5.
  - pose proof (at_finish _ _ _ _ _ _ _ _ _ c k v AT SC) as AT'.
    destruct l2 as [|e l2 _] using rev_ind; [eexists; eapply NIL; eauto|].
    rewrite app_assoc in E. apply app_inj_tail in E. destruct E as [E <-].
    rewrite started_app in B.
    destruct (IH ltac:(lia) l1 l2 E) as (T & S1 & S2 & S3). exists T. split; [exact S1|]. split.
    + destruct S2 as [S2|[[c' S2]|[c' S2]]]; [auto| |].
      * destruct (N.eq_dec c' c) as [->|NE].
        -- right; right. exists c. apply in_or_app. right. rewrite S2 in SC. inversion SC; subst. left. reflexivity.
        -- right; left. exists c'. unfold upd. destruct (N.eqb_spec c' c) as [->|]; [congruence|exact S2].
      * right; right. exists c'. apply in_or_app. auto.
    + intros c' (a & b & X).
      assert (Y : exists a b, l2 = a ++ Start c' CFlush :: b).
      { destruct b as [|e b _] using rev_ind; [apply app_inj_tail in X; destruct X as [_ X]; discriminate|].
        rewrite app_comm_cons, app_assoc in X. apply app_inj_tail in X. destruct X as [X _]. eauto. }
      destruct (S3 c' Y) as [S4 S5]. split.
      * destruct S4 as [S|(t & S)]; [auto|]. right. exists t. unfold upd. destruct (N.eqb_spec c' c) as [->|]; [congruence|exact S].
      * intros t'. unfold upd. destruct (N.eqb_spec c' c) as [->|]; [discriminate|]. apply S5.
Qed.
End Times.

(** Only the existing cores make calls. *)
Lemma no_core G pb rb (al : call -> Prop) s0 l x : observed G pb rb al s0 l x ->
  forall c, g_core_count G <= c -> cf_task x c = Idle.
Proof.
  assert (STEP : forall x y, cstep G pb rb al true x y -> (forall c, g_core_count G <= c -> cf_task x c = Idle) ->
    forall c, g_core_count G <= c -> cf_task y c = Idle).
  { intros x' y SP IH c C. destruct SP; cbn [cf_task] in *; auto; unfold upd;
      match goal with |- context [c =? ?d] => destruct (N.eqb_spec c d); [lia|auto] end. }
  induction 1; intros; eauto.
Qed.

(** ** C80 *)
(** After any interleaving, once all calls have returned, the state is one of the abstract
    machine, reached by the effects of the interleaved calls, and every later history of
    calls and stores follows the sequential tables from there. *)
Theorem C80_sequential_partial : forall P top pb rb G s0 (allowed : call -> Prop),
  started P top pb rb G s0 -> (forall k, allowed k -> safe_call G k) ->
  exists access, forall l x, observed G pb rb allowed s0 l x -> quiet G x ->
  exists H M st,
    atomic pb rb (g_core_count G) (g_dram_size G) (boot_mstate access (g_monitor_top G)) l H M st /\
    shows G (cf_state x) M /\
    forall h s, history G pb rb (cf_state x) h s ->
    exists M', mhistory pb rb (g_core_count G) (g_dram_size G) M h M' /\ shows G s M'.
Proof.
  intros P top pb rb G s0 allowed ST AL. destruct (started_geom _ _ _ _ _ _ ST) as [g HD].
  destruct (C76_linearizable_partial P top pb rb G s0 allowed ST AL) as [ac [_ LIN]].
  exists ac. intros l x OB Q. destruct (LIN l x OB) as (H & M & st & AT & _ & _ & _ & _ & K).
  exists H, M, st. split; [exact AT|]. split; [apply K, Q|]. intros h s HI.
  apply (history_refines G pb rb g HD (cf_state x) M h s (K Q) HI).
Qed.
(** After any interleaving, once all calls have returned and while the lock of region 0 is
    free, the OS gets any region other than region 0 back with flushes on all cores, free
    and assign, and no other region changes owner. *)
Theorem C80_reclaim_partial : forall P top pb rb G s0 (allowed : call -> Prop) l x c r,
  started P top pb rb G s0 -> (forall k, allowed k -> safe_call G k) ->
  observed G pb rb allowed s0 l x -> quiet G x -> started_blocks l < 2 ^ 64 ->
  lock_of G (cf_state x) 0 = 0 -> c < g_core_count G -> 0 < r < g_dram_region_count G ->
  owner_of G (cf_state x) r <> 0 ->
  exists h' s', history G pb rb (cf_state x) h' s' /\ Forall (reclaims c r) h' /\
    owner_of G s' r = 0 /\ os_bit G s' r = true /\ drb_bit (s_cores s' c) r = true /\
    forall r', r' < g_dram_region_count G -> r' <> r -> owner_of G s' r' = owner_of G (cf_state x) r'.
Proof.
  intros P top pb rb G s0 allowed l x c r ST AL OB Q B LK C R NO.
  destruct (started_geom _ _ _ _ _ _ ST) as [g HD].
  destruct (C76_linearizable_partial P top pb rb G s0 allowed ST AL) as [ac [K0 LIN]].
  destruct (LIN l x OB) as (H & M & st & AT & _ & _ & _ & _ & K). specialize (K Q).
  destruct (times_ok _ _ _ _ _ _ _ _ _ AT) as (T1 & _).
  { cbn. exact B. } { intros. discriminate. } { intros. cbn. lia. }
  apply (reclaim_from G pb rb (cf_state x) M c r g HD K); auto.
  pose proof (geo_count _ _ _ g) as CN.
  rewrite (sh_lock _ _ _ K 0) in LK by lia. change (0 =? 0) with true in LK.
  cbn [andb] in LK. destruct (m_stuck M); [discriminate|reflexivity].
Qed.

(** ** C81 *)
(** The flush protocol under concurrency: if region [r] is blocked, no block of it was
    reported during [l2], and every core started and completed a flush during [l2], then
    once all calls have returned free_dram_region succeeds, on any core, whatever other calls
    were interleaved. *)
Theorem C81_flush_then_free_partial : forall P top pb rb G s0 (allowed : call -> Prop) l1 l2 x c r,
  started P top pb rb G s0 -> (forall k, allowed k -> safe_call G k) ->
  observed G pb rb allowed s0 (l1 ++ l2) x -> quiet G x -> started_blocks (l1 ++ l2) < 2 ^ 64 ->
  lock_of G (cf_state x) 0 = 0 -> c < g_core_count G -> r < g_dram_region_count G ->
  owner_of G (cf_state x) r = 1 ->
  (forall c', ~ In (Finish c' (CBlock r) ok) l2) ->
  (forall c', c' < g_core_count G -> flushes_in c' l2) ->
  exists s', do_call G c (CFree r) (cf_state x) = (s', Some ok) /\ owner_of G s' r = 3 /\
    forall r', r' < g_dram_region_count G -> r' <> r -> owner_of G s' r' = owner_of G (cf_state x) r'.
Proof.
  intros P top pb rb G s0 allowed l1 l2 x c r ST AL OB Q B LK C R OW NB FL.
  destruct (started_geom _ _ _ _ _ _ ST) as [g HD].
  destruct (C76_linearizable_partial P top pb rb G s0 allowed ST AL) as [ac [K0 LIN]].
  destruct (LIN _ x OB) as (H & M & st & AT & NC & _ & _ & _ & K). specialize (K Q).
  destruct (settled_at _ _ _ _ _ r _ _ _ _ AT) with (l1 := l1) (l2 := l2) as (T & _ & S2 & S3); auto.
  { intros. discriminate. } { intros. cbn. lia. }
  pose proof (geo_count _ _ _ g) as CN.
  assert (U : m_stuck M = false).
  { rewrite (sh_lock _ _ _ K 0) in LK by lia. change (0 =? 0) with true in LK.
    cbn [andb] in LK. destruct (m_stuck M); [discriminate|reflexivity]. }
  assert (OM : m_owner M r = Blocked).
  { rewrite (sh_owner _ _ _ K r) in OW by exact R. destruct (m_owner M r); try discriminate OW. reflexivity. }
  assert (BT : m_blocked_at M r <= T).
  { destruct S2 as [S2|[[c' S2]|[c' S2]]]; [exact S2| |destruct (NB c' S2)].
    assert (I : cf_task x c' = Idle).
    { destruct (N.lt_ge_cases c' (g_core_count G)); [apply Q; auto|eapply no_core; eauto]. }
    apply NC in I. congruence. }
  destruct (free_it G pb rb g HD (cf_state x) M c r K C U) as (s' & HI & K').
  { split; [|lia]. destruct (N.eq_dec r 0) as [->|]; [|lia].
    rewrite (sh_region0 _ _ _ K) in OM. discriminate. }
  { right. split; [exact OM|]. unfold all_flushed. apply forallb_forall. intros i I. apply in_seq in I.
    apply N.leb_le. assert (CI : N.of_nat i < g_core_count G) by lia.
    destruct (FL _ CI) as (a & b & d & v & E). destruct (S3 (N.of_nat i)) as [[S|(t & S)] _]; [eauto|lia|].
    assert (I' : cf_task x (N.of_nat i) = Idle) by (apply Q; auto). apply NC in I'. congruence. }
  exists s'. apply history_one in HI. inversion HI; subst. split; [assumption|]. split.
  - rewrite (sh_owner _ _ _ K' r) by exact R. cbn. rewrite upd_same. reflexivity.
  - intros r' R' NE. rewrite (sh_owner _ _ _ K' r'), (sh_owner _ _ _ K r') by auto.
    cbn. rewrite upd_other by auto. reflexivity.
Qed.

(** ** C82 *)
(** At every instant of every interleaving two blocked regions that are not locked have
    different block times, both of them in the past. *)
Theorem C82_block_times_partial : forall P top pb rb G s0 (allowed : call -> Prop) l x r,
  started P top pb rb G s0 -> (forall k, allowed k -> safe_call G k) ->
  observed G pb rb allowed s0 l x -> started_blocks l < 2 ^ 64 ->
  r < g_dram_region_count G -> lock_of G (cf_state x) r = 0 -> owner_of G (cf_state x) r = 1 ->
  blocked_at_of G (cf_state x) r < clock_of G (cf_state x) /\
  forall r', r' < g_dram_region_count G -> lock_of G (cf_state x) r' = 0 ->
    owner_of G (cf_state x) r' = 1 -> r' <> r ->
    blocked_at_of G (cf_state x) r' <> blocked_at_of G (cf_state x) r.
Proof.
  intros P top pb rb G s0 allowed l x r ST AL OB B R LK OW.
  destruct (C76_linearizable_partial P top pb rb G s0 allowed ST AL) as [ac [K0 LIN]].
  destruct (LIN _ x OB) as (H & M & st & AT & _ & FR & CK & _).
  destruct (times_ok _ _ _ _ _ _ _ _ _ AT) as (_ & T2 & T3).
  { cbn. exact B. } { intros. discriminate. } { intros. cbn. lia. }
  assert (BL : forall q, q < g_dram_region_count G -> lock_of G (cf_state x) q = 0 ->
    owner_of G (cf_state x) q = 1 -> m_owner M q = Blocked /\ blocked_at_of G (cf_state x) q = m_blocked_at M q).
  { intros q Hq Lq Oq. destruct (FR q Hq Lq) as [E1 E2]. split; [|exact E2]. rewrite E1 in Oq.
    destruct (m_owner M q); try discriminate Oq. reflexivity. }
  destruct (BL r R LK OW) as [O1 E1]. rewrite E1, CK. split; [apply T2; exact O1|].
  intros r' R' LK' OW' NE E. destruct (BL r' R' LK' OW') as [O2 E2]. apply NE, T3; auto. congruence.
Qed.

(** ** An example *)
(** Core 0 blocks region 5 while core 1 blocks region 6; both flush. *)
Definition ex_rest : conf * list obs :=
  oops ex_G 50 1 (oops ex_G 50 0 (obegin ex_G 1 CFlush (obegin ex_G 0 CFlush
  (oops ex_G 50 1 (oops ex_G 50 0 (obegin ex_G 1 (CBlock 6)
    (oops ex_G 2 0 (obegin ex_G 0 (CBlock 5) (initial ex_s0, []))))))))).
Definition ex_l1 : list obs := [Start 0 (CBlock 5); Start 1 (CBlock 6); Finish 0 (CBlock 5) ok; Finish 1 (CBlock 6) ok].
Definition ex_l2 : list obs := [Start 0 CFlush; Start 1 CFlush; Finish 0 CFlush ok; Finish 1 CFlush ok].
Lemma is_idle_task x c : is_idle x c = true -> cf_task x c = Idle.
Proof. unfold is_idle. destruct (cf_task x c); [reflexivity|discriminate]. Qed.
Example C80_example : observed ex_G 6 4 (safe_call ex_G) ex_s0 (ex_l1 ++ ex_l2) (fst ex_rest) /\
  quiet ex_G (fst ex_rest) /\ started_blocks (ex_l1 ++ ex_l2) = 2 /\
  lock_of ex_G (cf_state (fst ex_rest)) 0 = 0 /\ lock_of ex_G (cf_state (fst ex_rest)) 5 = 0 /\
  lock_of ex_G (cf_state (fst ex_rest)) 6 = 0 /\
  owner_of ex_G (cf_state (fst ex_rest)) 5 = 1 /\ owner_of ex_G (cf_state (fst ex_rest)) 6 = 1 /\
  (forall c r, ~ In (Finish c (CBlock r) ok) ex_l2) /\
  (forall c, c < g_core_count ex_G -> flushes_in c ex_l2).
Proof.
  split; [|split].
  - assert (E : snd ex_rest = ex_l1 ++ ex_l2) by (vm_compute; reflexivity).
    rewrite <- E. unfold ex_rest.
    do 2 (apply oops_observed; [vm_compute; reflexivity|]).
    do 2 (apply obegin_observed; [vm_compute; reflexivity|vm_compute; reflexivity|reflexivity|exact Logic.I|]).
    do 2 (apply oops_observed; [vm_compute; reflexivity|]).
    apply obegin_observed; [vm_compute; reflexivity|vm_compute; reflexivity|reflexivity|exact Logic.I|].
    apply oops_observed; [vm_compute; reflexivity|].
    apply obegin_observed; [vm_compute; reflexivity|vm_compute; reflexivity|reflexivity|exact Logic.I|].
    apply ob_none.
  - assert (Q : is_idle (fst ex_rest) 0 = true /\ is_idle (fst ex_rest) 1 = true) by (vm_compute; split; reflexivity).
    intros c C. change (g_core_count ex_G) with 2 in C.
    assert (X : c = 0 \/ c = 1) by lia. destruct Q as [Q0 Q1].
    destruct X as [-> | ->]; apply is_idle_task; assumption.
  - do 6 (split; [vm_compute; reflexivity|]). split.
    + intros c r [X|[X|[X|[X|[]]]]]; discriminate.
    + intros c C. change (g_core_count ex_G) with 2 in C.
      assert (X : c = 0 \/ c = 1) by lia. destruct X as [-> | ->].
      * exists [], [Start 1 CFlush], [Finish 1 CFlush ok], ok. reflexivity.
      * exists [Start 0 CFlush], [Finish 0 CFlush ok], [], ok. reflexivity.
Qed.

(** ** accept_thread *)
(** accept_thread takes its thread argument for an address that it may write to (C49). Core 0
    stores bytes [v] and [w] in its argument block, in memory of the OS, at the places of the
    entry point and of the fault stack; with the entry of region [r] in the region table for a
    thread, they become the region's owner and block time. *)
Definition ostore8 (a v : N) (x : conf * list obs) : conf * list obs :=
  (mkConf (set_mem (cf_state (fst x)) (st 1 (s_mem (cf_state (fst x))) a v))
     (cf_task (fst x)) (cf_held (fst x)), snd x).
Lemma ostore8_observed a v x : is_idle (fst x) 0 = true -> a < W64 ->
  cpu_may_access 6 4 (s_cores (cf_state (fst x)) 0) a ->
  observed ex_G 6 4 (fun _ => True) ex_s0 (snd x) (fst x) ->
  observed ex_G 6 4 (fun _ => True) ex_s0 (snd (ostore8 a v x)) (fst (ostore8 a v x)).
Proof.
  intros I A AC R. destruct x as [[s t h] l]. unfold is_idle in I. unfold ostore8. cbn [cf_task cf_state cf_held fst snd] in *.
  assert (T : t 0 = Idle) by (destruct (t 0); [reflexivity|discriminate]).
  eapply ob_other; [exact R|apply cs_store with (c := 0); [reflexivity|exact T|exact A|exact AC]|]. cbn. tauto.
Qed.
Definition args_at : N := 3 * 262144.
Definition forge (r v w : N) (x : conf * list obs) : conf * list obs :=
  oops ex_G 50 0 (obegin ex_G 0 (CAcceptThread (g_dram_region ex_G + 40 * r) args_at)
    (ostore8 (args_at + 24) w (ostore8 args_at v x))).
Definition ex_first : conf * list obs := oops ex_G 50 0 (obegin ex_G 0 (CBlock 5) (initial ex_s0, [])).
Definition ex_same : conf * list obs :=
  forge 6 1 0 ex_first.
Definition ex_late : conf * list obs :=
  oops ex_G 50 1 (obegin ex_G 1 CFlush (oops ex_G 50 0 (obegin ex_G 0 CFlush
    (forge 5 1 200 ex_first)))).
Lemma forge_observed r v w x : is_idle (fst x) 0 = true ->
  cpu_may_access 6 4 (s_cores (cf_state (fst x)) 0) args_at ->
  cpu_may_access 6 4 (s_cores (cf_state (fst x)) 0) (args_at + 24) ->
  is_idle (fst (forge r v w x)) 0 = true -> g_dram_region ex_G + 40 * r < W64 ->
  observed ex_G 6 4 (fun _ => True) ex_s0 (snd x) (fst x) ->
  observed ex_G 6 4 (fun _ => True) ex_s0 (snd (forge r v w x)) (fst (forge r v w x)).
Proof.
  intros I A B Q R OB. unfold forge.
  apply oops_observed; [reflexivity|].
  apply obegin_observed; [reflexivity|exact I|split; [exact R|reflexivity]|exact Logic.I|].
  apply ostore8_observed; [exact I|reflexivity|exact B|].
  apply ostore8_observed; [exact I|reflexivity|exact A|exact OB].
Qed.
Lemma ex_forge_observed r w : g_dram_region ex_G + 40 * r < W64 ->
  is_idle (fst (forge r 1 w ex_first)) 0 = true ->
  observed ex_G 6 4 (fun _ => True) ex_s0 (snd (forge r 1 w ex_first)) (fst (forge r 1 w ex_first)).
Proof.
  intros R Q.
  apply forge_observed; [vm_compute; reflexivity| | |exact Q|exact R|].
  - split; vm_compute; first [reflexivity|discriminate].
  - split; vm_compute; first [reflexivity|discriminate].
  - unfold ex_first. apply oops_observed; [vm_compute; reflexivity|].
    apply obegin_observed; [vm_compute; reflexivity|vm_compute; reflexivity|reflexivity|exact Logic.I|].
    apply ob_none.
Qed.
Lemma two_idle x : is_idle x 0 = true -> is_idle x 1 = true -> quiet ex_G x.
Proof.
  intros Q0 Q1 c C. change (g_core_count ex_G) with 2 in C.
  assert (X : c = 0 \/ c = 1) by lia. destruct X as [-> | ->]; apply is_idle_task; assumption.
Qed.
(** Two blocked regions with the same block time. *)
Theorem C82_accept_thread_refuted : exists P top pb rb G s0 l x r r',
  started P top pb rb G s0 /\ observed G pb rb (fun _ => True) s0 l x /\ quiet G x /\
  started_blocks l < 2 ^ 64 /\ r < g_dram_region_count G /\ r' < g_dram_region_count G /\ r <> r' /\
  lock_of G (cf_state x) r = 0 /\ lock_of G (cf_state x) r' = 0 /\
  owner_of G (cf_state x) r = 1 /\ owner_of G (cf_state x) r' = 1 /\
  blocked_at_of G (cf_state x) r = blocked_at_of G (cf_state x) r'.
Proof.
  exists ex_platform, 0, 6, 4, ex_G, ex_s0, (snd ex_same), (fst ex_same), 5, 6.
  split; [exact ex_started|]. split.
  { apply (ex_forge_observed 6 0); vm_compute; reflexivity. }
  split; [apply two_idle; vm_compute; reflexivity|].
  do 3 (split; [vm_compute; reflexivity|]). split; [discriminate|].
  repeat split; vm_compute; reflexivity.
Qed.
Lemma ex_late_facts : observed ex_G 6 4 (fun _ => True) ex_s0 (snd ex_late) (fst ex_late) /\
  quiet ex_G (fst ex_late) /\ started_blocks (snd ex_late) < 2 ^ 64 /\
  lock_of ex_G (cf_state (fst ex_late)) 0 = 0 /\ owner_of ex_G (cf_state (fst ex_late)) 5 = 1.
Proof.
  split.
  { unfold ex_late.
    apply oops_observed; [vm_compute; reflexivity|].
    apply obegin_observed; [vm_compute; reflexivity|vm_compute; reflexivity|reflexivity|exact Logic.I|].
    apply oops_observed; [vm_compute; reflexivity|].
    apply obegin_observed; [vm_compute; reflexivity|vm_compute; reflexivity|reflexivity|exact Logic.I|].
    apply (ex_forge_observed 5 200); vm_compute; reflexivity. }
  split; [apply two_idle; vm_compute; reflexivity|].
  repeat split; vm_compute; reflexivity.
Qed.
(** A region blocked before every core flushed that cannot be freed. *)
Theorem C81_accept_thread_refuted : exists P top pb rb G s0 l1 l2 x c r,
  started P top pb rb G s0 /\ observed G pb rb (fun _ => True) s0 (l1 ++ l2) x /\ quiet G x /\
  started_blocks (l1 ++ l2) < 2 ^ 64 /\ lock_of G (cf_state x) 0 = 0 /\ c < g_core_count G /\
  r < g_dram_region_count G /\ owner_of G (cf_state x) r = 1 /\
  (forall c', ~ In (Finish c' (CBlock r) ok) l2) /\
  (forall c', c' < g_core_count G -> flushes_in c' l2) /\
  snd (do_call G c (CFree r) (cf_state x)) = Some invalid_state.
Proof.
  destruct ex_late_facts as (OB & Q & SB & LK & OW).
  exists ex_platform, 0, 6, 4, ex_G, ex_s0, [Start 0 (CBlock 5); Finish 0 (CBlock 5) ok],
    [Start 0 (CAcceptThread (g_dram_region ex_G + 40 * 5) args_at);
     Finish 0 (CAcceptThread (g_dram_region ex_G + 40 * 5) args_at) ok;
     Start 0 CFlush; Finish 0 CFlush ok; Start 1 CFlush; Finish 1 CFlush ok], (fst ex_late), 0, 5.
  split; [exact ex_started|].
  match goal with |- observed _ _ _ _ _ ?l _ /\ _ =>
    assert (E : snd ex_late = l) by (vm_compute; reflexivity); rewrite <- E end.
  split; [exact OB|]. split; [exact Q|]. split; [exact SB|]. split; [exact LK|].
  split; [reflexivity|]. split; [reflexivity|]. split; [exact OW|].
  split; [|split; [|vm_compute; reflexivity]].
  - intros c [X|[X|[X|[X|[X|[X|[]]]]]]]; discriminate.
  - intros c C. change (g_core_count ex_G) with 2 in C.
    assert (X : c = 0 \/ c = 1) by lia. destruct X as [-> | ->].
    + eexists [_; _], [], [_; _], ok. reflexivity.
    + eexists [_; _; _; _], [], [], ok. reflexivity.
Qed.

Definition P_Rest_theorems := (C80_sequential_partial, C80_reclaim_partial, C81_flush_then_free_partial, C82_block_times_partial, C80_example,
  C82_accept_thread_refuted, C81_accept_thread_refuted).
Print Assumptions P_Rest_theorems.
