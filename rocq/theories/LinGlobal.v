(** * Atomicity: every interleaved execution is an execution of the atomic machine. *)
From Coq Require Import NArith ZArith Lia Bool List.
From Coq Require Import ZifyBool ZifyNat ZifyN.
From Verif Require Import Word Machine ModelBare ModelHash ModelInl ModelRegions
  ModelMetadata ModelEnclave ModelBoot ModelApi Lib BareProofs SpecGeometry
  GeomProofs Trace SpecMonitor SpecHistory SpecConcurrent ViewProofs SeqProofs SeqCalls SeqCalls3
  HistoryProofs ConcProofs ConcCalls ConcCalls2 ConcGlobal SpecLinear LinProofs LinOps LinCalls LinCalls2.
Import ListNotations.
Open Scope N_scope.
Ltac Zify.zify_post_hook ::= Z.div_mod_to_equations.

Section Global.
Variables (G : globals) (pb rb : N).
Hypothesis g : geom G pb rb.
Variable allowed : call -> Prop.
Hypothesis allowed_safe : forall k, allowed k -> safe_call G k.
Local Notation n := (g_dram_region_count G).
Local Notation cores := (g_core_count G).
Local Notation agree := (agree G true).
Local Notation inv := (inv G true).
Local Notation gua := (gua G true).
Local Notation res := (res G).
Local Notation linv := (linv G).
Local Notation magree := (magree G).
Local Notation mgua := (mgua G).
Local Notation lsafe := (lsafe G pb rb).
Local Notation lends := (lends G pb rb).
Local Notation atomic := (atomic pb rb cores (g_dram_size G)).

Definition ltask (c : N) (t : task) (st : status) (o : ost) (hd : hold) (M : mstate) : Prop :=
  match t with
  | Idle => st = NoCall /\ (c < cores -> forall r, r < n -> hd r <> Some c)
  | Running k p _ => c < cores /\ exists t0 so,
      st = match so with None => Waiting k t0 | Some v => Done k v end /\
      exists h o' m a, res c hd h /\ agree c h o' o /\ magree c h m M /\
        (forall r, r < n -> drb_bit (o_regs o c) r = a r) /\
        lsafe c k t0 p h o' m a so (lends c k t0)
  end.

Record lgood (x : conf) (o : ost) (hd : hold) (M : mstate) (st : N -> status) : Prop := mkLgood {
  lg_view : view G (cf_state x) o;
  lg_inv : inv o hd;
  lg_linv : linv o hd M;
  lg_cores : forall r c, r < n -> hd r = Some c -> c < cores \/ c = cores;
  lg_task : forall c, ltask c (cf_task x c) (st c) o hd M }.

Lemma mgua_magree c c' hd1 o1 M1 o2 M2 h : c' <> c -> mgua c hd1 o1 M1 o2 M2 -> res c' hd1 h ->
  magree c' h M1 M2.
Proof.
  intros NE [G1 G2 G3 G4 G5 G6] R. pose proof (n_pos G pb rb g) as NP.
  assert (NC : forall r, r < n -> h r = true -> hd1 r <> Some c).
  { intros r RL H. apply (R r RL) in H. congruence. }
  constructor; intros; auto.
Qed.
Lemma ltask_other c c' k x o1 hd1 o2 hd2 M1 M2 t st : c' <> c -> gua c k x o1 hd1 o2 hd2 ->
  mgua c hd1 o1 M1 o2 M2 -> ltask c' t st o1 hd1 M1 -> ltask c' t st o2 hd2 M2.
Proof.
  intros NE GU MG T. destruct t as [|k' p i]; cbn [ltask] in *.
  - destruct T as [E F]. split; [exact E|]. intros C' r R X.
    destruct (g_hold _ _ _ _ _ _ _ _ _ GU r R) as [Y|[[Y1 Y2]|[Y1 Y2]]]; try congruence.
    apply (F C' r R). congruence.
  - destruct T as (C' & t0 & so & E & h & o' & m & a & R & A & MA & RG & S). split; [exact C'|].
    exists t0, so. split; [exact E|]. exists h, o', m, a.
    split; [eapply (gua_res G true); eauto|]. split.
    { eapply agree_trans; eauto. eapply (gua_agree G pb rb g true); eauto. }
    split; [eapply magree_trans; eauto; eapply mgua_magree; eauto|]. split; [|exact S].
    intros r RL. rewrite (mg_regs _ _ _ _ _ _ _ MG) by auto. auto.
Qed.

(** Steps of the atomic machine, and what is observed of them. *)
Inductive asteps (M : mstate) (st : N -> status) : list obs -> mstate -> (N -> status) -> Prop :=
| as_none : asteps M st [] M st
| as_start l M1 st1 c k : asteps M st l M1 st1 -> st1 c = NoCall ->
    asteps M st (l ++ [Start c k]) M1 (upd st1 c (Waiting k (m_clock M1)))
| as_effect l M1 st1 c k t v M2 : asteps M st l M1 st1 -> st1 c = Waiting k t ->
    takes_effect pb rb cores (g_dram_size G) (exists c', c' <> c /\ st1 c' <> NoCall) c k t v M1 M2 ->
    asteps M st l M2 (upd st1 c (Done k v))
| as_finish l M1 st1 c k v : asteps M st l M1 st1 -> st1 c = Done k v ->
    asteps M st (l ++ [Finish c k v]) M1 (upd st1 c NoCall).
Lemma atomic_asteps M0 l H M st l' M' st' : atomic M0 l H M st -> asteps M st l' M' st' ->
  exists H', atomic M0 (l ++ l') H' M' st'.
Proof.
  intros A S. induction S as [|l' M1 st1 c k S IH SC|l' M1 st1 c k t v M2 S IH SC TE|l' M1 st1 c k v S IH SC].
  - exists H. rewrite app_nil_r. exact A.
  - destruct IH as [H' IH]. exists H'. rewrite app_assoc. apply at_start; auto.
  - destruct IH as [H' IH]. eexists. eapply at_effect; eauto.
  - destruct IH as [H' IH]. exists H'. rewrite app_assoc. apply at_finish; auto.
Qed.

(** What one step of a machine operation does. *)
Lemma lgood_op s t h c k x f i s' v o hd M st :
  lgood (mkConf s t h) o hd M st -> c < cores -> t c = Running k (Do x f) i ->
  step c x s = (s', v) -> clock_of G s <= clock_of G s' ->
  exists o' hd' M' st', lgood (mkConf s' (upd t c (Running k (f v) ((x, v) :: i)))
      (held_after G c x v h)) o' hd' M' st' /\
    asteps M st [] M' st'.
Proof.
  intros [V I L CO TA] C T ST NW. cbn [cf_state cf_task cf_held] in *.
  pose proof (TA c) as TC. rewrite T in TC. cbn [ltask] in TC.
  destruct TC as (_ & t0 & so & E & h1 & o1 & m & a & R & A & MA & RG & S).
  cbn [LinProofs.lsafe] in S.
  destruct (S s o hd M C V I L R A MA RG s' v ST NW)
    as (o2 & V2 & I2 & GU & M2 & so' & LS & L2 & MG & h' & o' & m' & a' & R' & A' & MA' & RG' & S').
  set (hd' := hold_after G c x v hd) in *.
  assert (BASE : forall st', (forall c', c' <> c -> st' c' = st c') ->
    st' c = match so' with None => Waiting k t0 | Some w => Done k w end ->
    lgood (mkConf s' (upd t c (Running k (f v) ((x, v) :: i))) (held_after G c x v h)) o2 hd' M2 st').
  { intros st' EO EC. constructor; cbn [cf_state cf_task cf_held]; auto.
    - intros r c' RL H. destruct (g_hold _ _ _ _ _ _ _ _ _ GU r RL) as [X|[[X1 X2]|[X1 X2]]].
      + rewrite X in H. eauto.
      + rewrite X2 in H. inversion H. subst. left. exact C.
      + congruence.
    - intros c'. unfold upd. destruct (N.eqb_spec c' c) as [->|NE].
      + cbn [ltask]. split; [exact C|]. exists t0, so'. split; [exact EC|].
        exists h', o', m', a'. do 4 (split; [assumption|]). exact S'.
      + rewrite EO by auto. eapply ltask_other; eauto. }
  destruct LS as [[-> ->]|(-> & w & -> & TE)].
  - exists o2, hd', M, st. split; [apply BASE; auto|apply as_none].
  - exists o2, hd', M2, (upd st c (Done k w)). split.
    + apply BASE; [intros c' NE; apply upd_other; exact NE|apply upd_same].
    + apply as_effect with (M1 := M) (t := t0); [apply as_none|auto|].
      destruct TE as [(OT & BS & EQ)|TE]; [left|right; exact TE].
      split; [|auto]. destruct OT as (r & c' & RL & HR & NE & NCO). exists c'. split; [exact NE|].
      intros NC. specialize (TA c'). destruct (t c') as [|k' p' i']; cbn [ltask] in TA.
      * destruct (CO r c' RL HR) as [CL|CL]; [|contradiction]. apply (proj2 TA CL r RL HR).
      * destruct TA as (_ & t1 & so1 & E1 & _). rewrite NC in E1. destruct so1; discriminate.
Qed.

Lemma lgood_write s t h a v o hd M sg : lgood (mkConf s t h) o hd M sg -> g_monitor_top G <= a ->
  exists o', lgood (mkConf (set_mem s (st 1 (s_mem s) a v)) t h) o' hd M sg.
Proof.
  intros [V I L CO TA] T. cbn [cf_state cf_task cf_held] in *.
  exists (with_rest o (st 1 (s_mem s) a v)).
  constructor; cbn [cf_state cf_task cf_held]; auto.
  - apply (v_set_rest G pb rb g); auto. intros b NB. apply byte_st_out.
    change (N.of_nat 1) with 1.
    destruct (N.lt_ge_cases b a); auto. destruct (N.lt_ge_cases b (a + 1)); auto.
    exfalso. apply NB. apply (rest_high G pb rb g). lia.
  - destruct I as [I1 I2 I3 I4 I5 I6 I7 I8 I9]. constructor; auto.
  - destruct L as [L1 L2 L3 L4 L5 L6 L7 L8 L9 L10 L11]. constructor; auto.
  - intros c. specialize (TA c). destruct (t c) as [|k p i]; cbn [ltask] in *; [exact TA|].
    destruct TA as (C & t0 & so & E & h1 & o' & m & b & R & A & MA & RG & S). split; [exact C|].
    exists t0, so. split; [exact E|]. exists h1, o', m, b.
    split; [exact R|]. split; [|auto].
    destruct A as [A1 A2 A3 A4 A5 A6 A7 A8]. constructor; auto.
Qed.

Lemma lgood_start s t h c k o hd M sg : lgood (mkConf s t h) o hd M sg -> c < cores -> t c = Idle ->
  call_args_ok k -> allowed k ->
  lgood (mkConf s (upd t c (Running k (call_prog G k) [])) h) o hd M (upd sg c (Waiting k (m_clock M))).
Proof.
  intros [V I L CO TA] C T AR AL. cbn [cf_state cf_task cf_held] in *.
  constructor; cbn [cf_state cf_task cf_held]; auto.
  intros c'. unfold upd. destruct (N.eqb_spec c' c) as [->|NE]; [|auto].
  specialize (TA c). rewrite T in TA. cbn [ltask] in *. destruct TA as [_ F]. split; [exact C|].
  exists (m_clock M), None. split; [reflexivity|].
  exists (fun _ => false), o, M, (drb_bit (o_regs o c)).
  split; [intros r R; split; [discriminate|intros X; exfalso; apply (F C r R X)]|].
  split; [apply agree_refl|]. split; [apply magree_refl|]. split; [auto|].
  apply (call_lin G pb rb g); auto. rewrite (l_clock _ _ _ _ L). lia.
Qed.

(** A call returns: it took effect before, or takes effect now. *)
Lemma lgood_return s t h c k v i o hd M sg : lgood (mkConf s t h) o hd M sg -> c < cores ->
  t c = Running k (Ret v) i ->
  exists hd' M', lgood (mkConf s (upd t c Idle) h) o hd' M' (upd sg c NoCall) /\
  (sg c = Done k v /\ M' = M \/ exists t0, sg c = Waiting k t0 /\
     forall b, takes_effect pb rb cores (g_dram_size G) b c k t0 v M M').
Proof.
  intros [V I L CO TA] C T. cbn [cf_state cf_task cf_held] in *.
  pose proof (TA c) as TC. rewrite T in TC. cbn [ltask LinProofs.lsafe] in TC.
  destruct TC as (_ & t0 & so & E & h1 & o' & m & a & R & A & MA & RG & LE).
  pose proof (n_pos G pb rb g) as NP.
  destruct LE as [[F S]|(LK & VO & SO & HK & TI & SA)].
  { exists hd, M. split.
    - constructor; cbn [cf_state cf_task cf_held]; auto.
      intros c'. unfold upd. destruct (N.eqb_spec c' c) as [->|NE]; [|auto].
      cbn [ltask]. split; [reflexivity|]. intros _ r RL X. apply (R r RL) in X. rewrite F in X by auto. discriminate.
    - destruct S as [->|[-> TE]]; [left; split; [exact E|reflexivity]|right]. exists t0. split; [exact E|].
      intros b. apply TE. }
  assert (H0 : h1 0 = true) by (rewrite HK by auto; reflexivity).
  pose proof (proj1 (R 0 NP) H0) as HC.
  assert (ONLY : forall r, r < n -> hd r = Some c -> r = 0).
  { intros r RL X. apply (R r RL) in X. rewrite HK in X by auto. lia. }
  pose proof (l_unstuck G pb rb g _ _ _ _ _ L R C H0) as US.
  destruct (TI H0) as [TC TD].
  destruct (a_dma _ _ _ _ _ _ A H0) as (D1 & D2 & D3 & D4).
  assert (DO : dma_ok o).
  { unfold dma_ok in *. rewrite D1, D2, D3, D4. exact TD. }
  assert (O0 : o_owner o 0 = owner_code (m_owner M 0)).
  { rewrite (a_owner _ _ _ _ _ _ A), (ma_owner _ _ _ _ _ MA) by auto. apply (sa_owner _ _ _ _ _ _ SA); auto. }
  assert (B0 : o_bit o 0 = true).
  { rewrite (a_bit _ _ _ _ _ _ A) by auto. rewrite (TC 0 NP), <- (a_owner _ _ _ _ _ _ A) by auto.
    rewrite (i_owner0 _ _ _ _ I). reflexivity. }
  exists (upd hd 0 (Some cores)), (m_stick M). split.
  - constructor; cbn [cf_state cf_task cf_held]; auto.
    + destruct I as [I1 I2 I3 I4 I5 I6 I7 I8 I9]. constructor; auto.
      * intros r RL. unfold upd. destruct (N.eqb_spec r 0) as [->|NZ]; [rewrite I1, HC by auto; reflexivity|auto].
      * intros r RL. left. destruct (I6 r RL) as [X|[c' [X1 X2]]]; [exact X|].
        assert (c' = c) by congruence. subst c'. rewrite (ONLY r RL X2). unfold clean.
        rewrite B0, I3. reflexivity.
    + destruct L as [L1 L2 L3 L4 L5 L6 L7 L8 L9 L10 L11]. constructor; cbn; auto.
      * intros r RL X. destruct (N.eq_dec r 0) as [->|NZ]; [exact O0|].
        apply L1; auto. unfold open in *. rewrite upd_other in X by auto. exact X.
      * intros r RL X. destruct (N.eq_dec r 0) as [->|NZ].
        { rewrite (a_blocked _ _ _ _ _ _ A), (ma_blocked _ _ _ _ _ MA) by auto.
          apply (sa_blocked _ _ _ _ _ _ SA); auto. }
        apply L2; auto. unfold open in *. rewrite upd_other in X by auto. exact X.
      * intros _. rewrite D3, D4. destruct (ma_dma _ _ _ _ _ MA H0) as [-> ->].
        apply (sa_dma _ _ _ _ _ _ SA); auto.
      * intros r RL. left. destruct (L6 r RL) as [X|[c' [X1 X2]]]; [exact X|].
        assert (c' = c) by congruence. subst c'. rewrite (ONLY r RL X2), O0.
        destruct (m_owner M 0); reflexivity.
      * intros c' r C' RL _. destruct (N.eq_dec c' c) as [->|NE].
        { rewrite RG, (ma_access _ _ _ _ _ MA) by auto. apply (sa_access _ _ _ _ _ _ SA); auto. }
        apply L7; auto. congruence.
      * split; reflexivity.
      * intros r RL X. destruct (N.eq_dec r 0) as [NZ|NZ]; [exact NZ|]. rewrite upd_other in X by auto. auto.
    + intros r c' RL. unfold upd. destruct (N.eqb_spec r 0) as [->|NZ]; [|eauto].
      intros X. inversion X. auto.
    + intros c'. unfold upd at 1 2. destruct (N.eqb_spec c' c) as [->|NE].
      * cbn [ltask]. split; [reflexivity|]. intros _ r RL. unfold upd. destruct (N.eqb_spec r 0) as [->|NZ].
        { intros X. inversion X. lia. }
        intros X. apply NZ. auto.
      * specialize (TA c'). destruct (t c') as [|k' p' i']; cbn [ltask] in *.
        { destruct TA as [X F]. split; [exact X|]. intros C' r RL. unfold upd.
          destruct (N.eqb_spec r 0) as [->|NZ]; [intros Y; inversion Y; lia|auto]. }
        destruct TA as (C' & t1 & so1 & E1 & h' & o1 & m1 & a1 & R1 & A1 & MA1 & RG1 & S1).
        split; [exact C'|]. exists t1, so1. split; [exact E1|]. exists h', o1, m1, a1.
        split; [|split; [exact A1|split; [|split; [exact RG1|exact S1]]]].
        { intros r RL. rewrite (R1 r RL). unfold upd. destruct (N.eqb_spec r 0) as [->|NZ]; [|reflexivity].
          rewrite HC. split; [congruence|intros X; inversion X; lia]. }
        destruct MA1 as [X1 X2 X3 X4 X5]. constructor; auto.
  - right. exists t0. rewrite E, SO. split; [reflexivity|]. intros b. right.
    destruct k; try discriminate LK; cbn [effect]; right; auto.
Qed.

(** What is observed of a step of an interleaved execution. *)
Inductive ostep : conf -> list obs -> conf -> Prop :=
| os_start x y c k : cstep G pb rb allowed true x y ->
    cf_task x c = Idle -> cf_task y c = Running k (call_prog G k) [] -> ostep x [Start c k] y
| os_finish x y c k v i : cstep G pb rb allowed true x y ->
    cf_task x c = Running k (Ret v) i -> cf_task y c = Idle -> ostep x [Finish c k v] y
| os_other x y : cstep G pb rb allowed true x y ->
    (forall c, cf_task x c = Idle <-> cf_task y c = Idle) -> ostep x [] y.

Lemma lgood_step x e y o hd M sg : ostep x e y -> lgood x o hd M sg ->
  exists o' hd' M' sg', asteps M sg e M' sg' /\ lgood y o' hd' M' sg'.
Proof.
  intros OS LG. destruct OS as [x y c k ST T1 T2|x y c k v i ST T1 T2|x y ST TI].
  - inversion ST; subst; cbn [cf_state cf_task cf_held] in *.
    + destruct (N.eq_dec c c0) as [->|NE]; [|rewrite upd_other in T2 by auto; congruence].
      rewrite upd_same in T2. inversion T2; subst.
      exists o, hd, M, (upd sg c0 (Waiting k (m_clock M))). split.
      * apply (as_start _ _ [] _ _ c0 k); [apply as_none|]. pose proof (lg_task _ _ _ _ _ LG c0) as TC.
        cbn [cf_task] in TC. rewrite T1 in TC. apply TC.
      * apply lgood_start; auto.
    + exfalso. destruct (N.eq_dec c c0) as [->|NE]; [|rewrite upd_other in T2 by auto]; congruence.
    + exfalso. destruct (N.eq_dec c c0) as [->|NE]; [|rewrite upd_other in T2 by auto]; congruence.
    + congruence.
    + congruence.
  - inversion ST; subst; cbn [cf_state cf_task cf_held] in *.
    + exfalso. destruct (N.eq_dec c c0) as [->|NE]; [|rewrite upd_other in T2 by auto]; congruence.
    + exfalso. destruct (N.eq_dec c c0) as [->|NE]; [|rewrite upd_other in T2 by auto]; congruence.
    + destruct (N.eq_dec c c0) as [->|NE]; [|rewrite upd_other in T2 by auto; congruence].
      assert (EQ : k0 = k /\ v0 = v /\ l = i) by (split; [congruence|split; congruence]).
      destruct EQ as (-> & -> & ->).
      destruct (lgood_return s t h c0 k v i o hd M sg LG) as (hd' & M' & LG' & CASE); auto.
      destruct CASE as [[DN ->]|(t0 & WT & TE)].
      * exists o, hd', M, (upd sg c0 NoCall). split; [|exact LG'].
        apply (as_finish _ _ [] _ _ c0 k v); [apply as_none|exact DN].
      * exists o, hd', M', (upd (upd sg c0 (Done k v)) c0 NoCall). split.
        { apply (as_finish _ _ [] _ _ c0 k v); [|apply upd_same].
          eapply as_effect; [apply as_none|exact WT|apply TE]. }
        { destruct LG' as [V I L CO TA]. constructor; auto. intros c'. specialize (TA c').
          enough (E : upd (upd sg c0 (Done k v)) c0 NoCall c' = upd sg c0 NoCall c') by (rewrite E; exact TA).
          unfold upd. destruct (c' =? c0); reflexivity. }
    + congruence.
    + congruence.
  - inversion ST; subst; cbn [cf_state cf_task cf_held] in *.
    + exfalso. specialize (TI c). rewrite upd_same in TI. destruct TI as [TI _]. specialize (TI H0). discriminate.
    + match goal with C : c < cores, T : t c = Running _ _ _, S : step c _ s = _, NW : true = true -> _ |- _ =>
        destruct (lgood_op _ _ _ _ _ _ _ _ _ _ _ _ _ _ LG C T S (NW eq_refl)) as (o' & hd' & M' & sg' & LG' & STEP) end.
      exists o', hd', M', sg'. auto.
    + exfalso. specialize (TI c). rewrite upd_same in TI. destruct TI as [_ TI]. specialize (TI eq_refl). congruence.
    + match goal with CA : cpu_may_access _ _ _ _ |- _ => destruct CA as [_ NP] end.
      destruct (lgood_write s t h a v o hd M sg LG) as [o' LG'].
      { apply N.nlt_ge. intros LT. apply NP. pose proof (lg_view _ _ _ _ _ LG) as V. cbn [cf_state] in V.
        rewrite (v_regs _ _ _ V) by auto. apply (i_par _ _ _ _ (lg_inv _ _ _ _ _ LG)); auto. }
      exists o', hd, M, sg. split; [apply as_none|exact LG'].
    + destruct (lgood_write s t h a v o hd M sg LG) as [o' LG']; auto.
      exists o', hd, M, sg. split; [apply as_none|exact LG'].
Qed.

Lemma observed_atomic s0 M0 : 
  (exists o hd, lgood (initial s0) o hd M0 (fun _ => NoCall)) ->
  forall l x, observed G pb rb allowed s0 l x ->
  exists H M sg o hd, atomic M0 l H M sg /\ lgood x o hd M sg.
Proof.
  intros [o0 [hd0 S0]].
  assert (ONE : forall l x e y, ostep x e y -> (exists H M sg o hd, atomic M0 l H M sg /\ lgood x o hd M sg) ->
    exists H M sg o hd, atomic M0 (l ++ e) H M sg /\ lgood y o hd M sg).
  { intros l x e y ST (H & M & sg & o & hd & AT & LG).
    destruct (lgood_step _ _ _ _ _ _ _ ST LG) as (o' & hd' & M' & sg' & AS & LG').
    destruct (atomic_asteps _ _ _ _ _ _ _ _ AT AS) as [H' AT']. exists H', M', sg', o', hd'. auto. }
  induction 1 as [|l x y c k OB IH ST T1 T2|l x y c k v i OB IH ST T1 T2|l x y OB IH ST TI].
  - exists [], M0, (fun _ => NoCall), o0, hd0. split; [apply at_none|exact S0].
  - eapply ONE; [apply os_start with (x := x); auto|exact IH].
  - eapply ONE; [apply os_finish with (x := x) (i := i); auto|exact IH].
  - rewrite <- (app_nil_r l). eapply ONE; [apply os_other with (x := x); auto|exact IH].
Qed.

(** At quiet points the monitor's tables are those of the atomic machine. *)
Lemma lgood_quiet x o hd M sg : lgood x o hd M sg -> quiet G x -> shows G (cf_state x) M.
Proof.
  intros [V I L CO TA] Q.
  assert (HN : forall r, r < n -> hd r = None \/ r = 0 /\ hd r = Some cores).
  { intros r R. destruct (hd r) as [c|] eqn:E; [|left; reflexivity]. right.
    destruct (CO r c R E) as [C| ->]; [|split; [|reflexivity]; eapply (l_only0 _ _ _ _ L); eauto].
    exfalso. specialize (TA c). rewrite (Q c C) in TA. apply (proj2 TA C r R E). }
  assert (OP : forall r, r < n -> open G hd r) by (intros r R; destruct (HN r R) as [X|[_ X]]; [left|right]; exact X).
  pose proof (n_pos G pb rb g) as NP.
  destruct L as [L1 L2 L3 L4 L5 L6 L7 L8 L9 L10 L11], I as [I1 I2 I3 I4 I5 I6 I7 I8 I9].
  destruct (L5 (OP 0 NP)) as [D1 D2].
  assert (DM : dma_ok o).
  { destruct (HN 0 NP) as [HZ|[_ HZ]]; [|apply L11; exact HZ].
    destruct I7 as [X|[c X]]; [exact X|]. rewrite HZ in X. discriminate. }
  destruct DM as [DM1 DM2].
  eapply (shows_of G pb rb g); [exact V|]. constructor; auto.
  - intros r R. rewrite I1 by auto. unfold taken. destruct (HN r R) as [X|[-> X]]; rewrite X.
    + destruct (N.eqb_spec r 0) as [->|_]; [|reflexivity].
      destruct (m_stuck M) eqn:SK; [|reflexivity]. pose proof (proj1 L8 eq_refl). congruence.
    + apply L8 in X. rewrite X. reflexivity.
  - intros r R. assert (X : clean o r).
    { destruct (I6 r R) as [X|[c [X1 X2]]]; [exact X|].
      destruct (HN r R) as [Y|[-> Y]]; [congruence|]. unfold clean. rewrite (proj2 (L11 Y)), I3. reflexivity. }
    unfold clean in X. rewrite X, L1 by auto. destruct (m_owner M r); reflexivity.
  - specialize (L1 0 NP (OP 0 NP)). rewrite I3 in L1. destruct (m_owner M 0); cbn in L1; congruence.
  - intros c r C R. apply L7; auto. intros X. destruct (HN 0 NP) as [Y|[_ Y]]; [congruence|].
    rewrite Y in X. inversion X. lia.
  - rewrite <- D1, <- D2. exact DM1.
  - intros a A. rewrite DM2 by auto. rewrite D1, D2. tauto.
Qed.
(** At every point, for a region whose lock is free. *)
Lemma lgood_free x o hd M sg r : lgood x o hd M sg -> r < n -> lock_of G (cf_state x) r = 0 ->
  owner_of G (cf_state x) r = owner_code (m_owner M r) /\
  blocked_at_of G (cf_state x) r = m_blocked_at M r.
Proof.
  intros [V I L CO TA] R LF. unfold lock_of, owner_of, blocked_at_of in *.
  rewrite (v_lock _ _ _ V), (i_lock _ _ _ _ I) in LF by auto.
  assert (HN : hd r = None) by (destruct (hd r); [discriminate|reflexivity]).
  rewrite (v_owner _ _ _ V), (v_blocked _ _ _ V) by auto.
  split; [apply (l_owner _ _ _ _ L)|apply (l_blocked _ _ _ _ L)]; auto; left; auto.
Qed.
Lemma lgood_clock x o hd M sg : lgood x o hd M sg -> clock_of G (cf_state x) = m_clock M /\
  forall c, c < cores -> flushed_of G (cf_state x) c = m_flushed M c.
Proof.
  intros [V I L CO TA]. unfold clock_of, flushed_of. rewrite (v_clock _ _ _ V). split; [apply (l_clock _ _ _ _ L)|].
  intros c C. rewrite (v_flushed _ _ _ V) by auto. apply (l_flushed _ _ _ _ L); auto.
Qed.

(** Every execution is observed. *)
Lemma reach_observed s0 x : creach G pb rb allowed true s0 x <-> exists l, observed G pb rb allowed s0 l x.
Proof.
  split.
  - induction 1 as [|x y R IH ST]; [exists []; apply ob_none|]. destruct IH as [l OB].
    inversion ST; subst.
    + exists (l ++ [Start c k]). apply ob_start with (x := mkConf s t h); auto. cbn. apply upd_same.
    + exists l. apply ob_other with (x := mkConf s t h); auto. cbn. intros c'.
      unfold upd. destruct (N.eqb_spec c' c) as [->|NE]; [|tauto]. split; congruence.
    + exists (l ++ [Finish c k v]). apply ob_finish with (x := mkConf s t h) (i := l0); auto. cbn. apply upd_same.
    + exists l. apply ob_other with (x := mkConf s t h); auto. cbn. tauto.
    + exists l. apply ob_other with (x := mkConf s t h); auto. cbn. tauto.
  - intros [l OB]. induction OB; [apply cr_start| | |]; eapply cr_step; eauto.
Qed.
End Global.

Lemma lgood_boot P top pb rb G s0 M : started P top pb rb G s0 -> shows G s0 M -> m_stuck M = false ->
  lgood G pb rb (initial s0) (view_of G s0) (fun _ => None) M (fun _ => NoCall).
Proof.
  intros ST K SK. destruct (started_geom _ _ _ _ _ _ ST) as [g HDD].
  pose proof (good_start P top pb rb G s0 (fun _ => True) true ST) as [V I CO HE TA].
  cbn [initial cf_state cf_task cf_held] in *.
  pose proof (shows_like G pb rb g s0 _ _ V K) as L.
  constructor; cbn [initial cf_state cf_task cf_held]; auto.
  - destruct L. constructor; auto.
    + intros r R. left. rewrite lk_owner by auto. destruct (m_owner M r); reflexivity.
    + rewrite SK. split; discriminate.
    + intros r R X. discriminate.
    + intros X. discriminate.
  - intros r c R X. discriminate.
  - intros c. split; [reflexivity|]. intros _ r R. discriminate.
Qed.
