(** * Atomicity: the judgement of ConcProofs with an abstract state beside it. *)
From Coq Require Import NArith ZArith Lia Bool List.
From Coq Require Import ZifyBool ZifyNat ZifyN.
From Verif Require Import Word Machine ModelBare ModelHash ModelInl ModelRegions
  ModelMetadata ModelEnclave ModelBoot ModelApi Lib BareProofs SpecGeometry
  GeomProofs Trace SpecMonitor SpecHistory SpecConcurrent ViewProofs SeqProofs SeqCalls SeqCalls2 SeqCalls3
  ConcProofs SpecLinear.
Import ListNotations.
Open Scope N_scope.
Ltac Zify.zify_post_hook ::= Z.div_mod_to_equations.

Section Lin.
Variables (G : globals) (pb rb : N).
Hypothesis g : geom G pb rb.
Local Notation n := (g_dram_region_count G).
Local Notation W := (g_dram_region_bitmap_words G).
Local Notation cores := (g_core_count G).
Local Notation inv := (inv G true).
Local Notation agree := (agree G true).
Local Notation gua := (gua G true).
Local Notation res := (res G).
Local Notation safe := (safe G true).
Local Notation tidy := (tidy G).
Local Notation hold_after := (hold_after G).

(** A lock that a call returned with is held by nobody, written [Some cores]. *)
Definition open (hd : hold) (r : N) : Prop := hd r = None \/ hd r = Some cores.
(** The abstract state agrees with the actual one on what no call has locked. *)
Record linv (o : ost) (hd : hold) (M : mstate) : Prop := mkLinv {
  l_owner : forall r, r < n -> open hd r -> o_owner o r = owner_code (m_owner M r);
  l_blocked : forall r, r < n -> open hd r -> o_blocked o r = m_blocked_at M r;
  l_clock : o_clock o = m_clock M;
  l_flushed : forall c, c < cores -> o_flushed o c = m_flushed M c;
  l_dma : open hd 0 -> o_dma_start o = m_dma_start M /\ o_dma_end o = m_dma_end M;
  l_os : forall r, r < n -> is_os (m_owner M r) = (o_owner o r =? 0) \/
    exists c, hd 0 = Some c /\ hd r = Some c;
  l_access : forall c r, c < cores -> r < n -> hd 0 <> Some c ->
    drb_bit (o_regs o c) r = m_access M c r;
  l_stuck : m_stuck M = true <-> hd 0 = Some cores;
  l_words : W <= o_words o;
  l_only0 : forall r, r < n -> hd r = Some cores -> r = 0;
  l_window : hd 0 = Some cores -> dma_ok o /\ o_bit o 0 = true }.
Lemma l_unstuck o hd M c h : linv o hd M -> res c hd h -> c < cores -> h 0 = true -> m_stuck M = false.
Proof.
  intros L R C H. destruct (m_stuck M) eqn:E; [|reflexivity].
  apply (l_stuck _ _ _ L) in E. apply (R 0 (n_pos G pb rb g)) in H. rewrite E in H. inversion H. lia.
Qed.

(** What a core knows of the abstract state. *)
Record magree (c : N) (h : N -> bool) (m M : mstate) : Prop := mkMagree {
  ma_owner : forall r, r < n -> h r = true -> m_owner M r = m_owner m r;
  ma_blocked : forall r, r < n -> h r = true -> m_blocked_at M r = m_blocked_at m r;
  ma_os : h 0 = true -> forall r, r < n -> is_os (m_owner M r) = is_os (m_owner m r);
  ma_dma : h 0 = true -> m_dma_start M = m_dma_start m /\ m_dma_end M = m_dma_end m;
  ma_access : forall r, r < n -> m_access M c r = m_access m c r }.

(** What a step of core [c] may do to it, and to access registers. *)
Record mgua (c : N) (hd1 : hold) (o1 : ost) (M1 : mstate) (o2 : ost) (M2 : mstate) : Prop := mkMgua {
  mg_owner : forall r, r < n -> hd1 r <> Some c -> m_owner M2 r = m_owner M1 r;
  mg_blocked : forall r, r < n -> hd1 r <> Some c -> m_blocked_at M2 r = m_blocked_at M1 r;
  mg_os : hd1 0 <> Some c -> forall r, r < n -> is_os (m_owner M2 r) = is_os (m_owner M1 r);
  mg_dma : hd1 0 <> Some c -> m_dma_start M2 = m_dma_start M1 /\ m_dma_end M2 = m_dma_end M1;
  mg_access : forall c' r, c' <> c -> r < n -> m_access M2 c' r = m_access M1 c' r;
  mg_regs : forall c' r, c' <> c -> r < n -> drb_bit (o_regs o2 c') r = drb_bit (o_regs o1 c') r }.

(** Another core holds a lock. *)
Definition others (c : N) (hd : hold) : Prop :=
  exists r c', r < n /\ hd r = Some c' /\ c' <> c /\ c' <> cores.
Definition teff (b : Prop) (c : N) (k : call) (t v : N) (M M' : mstate) : Prop :=
  takes_effect pb rb cores (g_dram_size G) b c k t v M M'.

(** The call has no effect yet ([None]) or had one with result [v]. *)
Definition lstep (b : Prop) (c : N) (k : call) (t : N) (st : option N) (M : mstate)
  (st' : option N) (M' : mstate) : Prop :=
  (st' = st /\ M' = M) \/
  (st = None /\ exists v, st' = Some v /\ teff b c k t v M M').

Section Judgement.
Variables (c : N) (k : call) (t : N).

Fixpoint lsafe {A} (p : prog A) (h : N -> bool) (o : ost) (m : mstate) (a : N -> bool)
  (st : option N)
  (Q : A -> (N -> bool) -> ost -> mstate -> (N -> bool) -> option N -> Prop) : Prop :=
  match p with
  | Ret v => Q v h o m a st
  | Stop => True
  | Do x f =>
      forall s1 o1 hd1 M1, c < cores -> view G s1 o1 -> inv o1 hd1 -> linv o1 hd1 M1 -> res c hd1 h ->
      agree c h o o1 -> magree c h m M1 -> (forall r, r < n -> drb_bit (o_regs o1 c) r = a r) ->
      forall s2 v, step c x s1 = (s2, v) -> clock_of G s1 <= clock_of G s2 ->
        exists o2, view G s2 o2 /\ inv o2 (hold_after c x v hd1) /\
          gua c k x o1 hd1 o2 (hold_after c x v hd1) /\
          exists M2 st', lstep (others c hd1) c k t st M1 st' M2 /\
            linv o2 (hold_after c x v hd1) M2 /\ mgua c hd1 o1 M1 o2 M2 /\
          exists h' o' m' a', res c (hold_after c x v hd1) h' /\ agree c h' o' o2 /\
            magree c h' m' M2 /\ (forall r, r < n -> drb_bit (o_regs o2 c) r = a' r) /\
            lsafe (f v) h' o' m' a' st' Q
  end.

(** ** Structure *)
Lemma magree_refl h m : magree c h m m.
Proof. constructor; auto. Qed.
Lemma magree_trans h m m1 m2 : magree c h m m1 -> magree c h m1 m2 -> magree c h m m2.
Proof.
  intros [A1 A2 A3 A4 A5] [B1 B2 B3 B4 B5]. constructor; intros.
  - rewrite B1, A1; auto.
  - rewrite B2, A2; auto.
  - rewrite B3, A3; auto.
  - destruct (A4 H), (B4 H). split; congruence.
  - rewrite B5, A5; auto.
Qed.
Lemma lsafe_weaken {A} (p : prog A) : forall h o m a st (Q Q' : A -> (N -> bool) -> ost -> mstate -> (N -> bool) -> option N -> Prop),
  (forall v h o m a st, Q v h o m a st -> Q' v h o m a st) -> lsafe p h o m a st Q -> lsafe p h o m a st Q'.
Proof.
  induction p as [v|x f IH|]; intros h o m a st Q Q' HQ S; cbn [lsafe] in *; auto.
  intros s1 o1 hd1 M1 CC V I L R AG MA RG s2 v ST NW.
  destruct (S s1 o1 hd1 M1 CC V I L R AG MA RG s2 v ST NW)
    as (o2 & V2 & I2 & G2 & M2 & st' & LS & L2 & MG & h' & o' & m' & a' & R' & A' & MA' & RG' & S').
  exists o2. do 3 (split; [assumption|]). exists M2, st'. do 3 (split; [assumption|]).
  exists h', o', m', a'. do 4 (split; [assumption|]). eapply IH; eauto.
Qed.
Lemma lsafe_bind {A B} (p : prog A) (f : A -> prog B) : forall h o m a st
  (Q : B -> (N -> bool) -> ost -> mstate -> (N -> bool) -> option N -> Prop),
  lsafe p h o m a st (fun v h' o' m' a' st' => lsafe (f v) h' o' m' a' st' Q) ->
  lsafe (bind p f) h o m a st Q.
Proof.
  induction p as [v|x f0 IH|]; intros h o m a st Q S; cbn [lsafe bind] in *; auto.
  intros s1 o1 hd1 M1 CC V I L R AG MA RG s2 v ST NW.
  destruct (S s1 o1 hd1 M1 CC V I L R AG MA RG s2 v ST NW)
    as (o2 & V2 & I2 & G2 & M2 & st' & LS & L2 & MG & h' & o' & m' & a' & R' & A' & MA' & RG' & S').
  exists o2. do 3 (split; [assumption|]). exists M2, st'. do 3 (split; [assumption|]).
  exists h', o', m', a'. do 4 (split; [assumption|]). apply IH. exact S'.
Qed.
Lemma lsafe_ret {A} (v : A) h o m a st (Q : A -> (N -> bool) -> ost -> mstate -> (N -> bool) -> option N -> Prop) :
  Q v h o m a st -> lsafe (Ret v) h o m a st Q.
Proof. auto. Qed.

Lemma linv_hold o hd hd' M : (forall r, r < n -> hd' r = hd r) -> linv o hd M -> linv o hd' M.
Proof.
  intros E [L1 L2 L3 L4 L5 L6 L7 L8 L9 L10 L11]. pose proof (n_pos G pb rb g) as NP.
  assert (OP : forall r, r < n -> open hd' r -> open hd r).
  { intros r R. unfold open. rewrite E by auto. auto. }
  constructor; auto.
  - intros r R. rewrite !E by auto. auto.
  - intros c' r C R. rewrite E by auto. auto.
  - rewrite E by auto. auto.
  - intros r R. rewrite E by auto. auto.
  - rewrite E by auto. auto.
Qed.
Lemma open_not hd r : c < cores -> open hd r -> hd r <> Some c.
Proof. clear t k. intros C [X|X] Y; rewrite X in Y; inversion Y; subst; lia. Qed.

(** ** The instant of the effect, before an operation, under locks *)
Lemma lsafe_effect {A} x (f : N -> prog A) h o m a v F
  (Q : A -> (N -> bool) -> ost -> mstate -> (N -> bool) -> option N -> Prop) :
  (forall b o1 hd1 M, linv o1 hd1 M -> (h 0 = true -> m_stuck M = false) -> agree c h o o1 -> magree c h m M -> teff b c k t v M (F M)) ->
  (forall o1 hd1 M, c < cores -> linv o1 hd1 M -> res c hd1 h -> magree c h m M ->
     linv o1 hd1 (F M) /\ mgua c hd1 o1 M o1 (F M) /\ magree c h (F m) (F M)) ->
  lsafe (Do x f) h o (F m) a (Some v) Q -> lsafe (Do x f) h o m a None Q.
Proof.
  intros T LI S s1 o1 hd1 M1 CC V I L R AG MA RG s2 w ST NW.
  destruct (LI o1 hd1 M1 CC L R MA) as (L' & MG' & MA').
  destruct (S s1 o1 hd1 (F M1) CC V I L' R AG MA' RG s2 w ST NW)
    as (o2 & V2 & I2 & G2 & M2 & st' & LS & L2 & MG & REST).
  exists o2. do 3 (split; [assumption|]). exists M2, st'.
  destruct LS as [[-> ->]|[X _]]; [|discriminate].
  split; [right; split; [reflexivity|]; exists v; split; [reflexivity|]; apply (T _ o1 hd1); auto; eapply l_unstuck; eauto|].
  split; [exact L2|]. split; [|exact REST].
  destruct MG as [X1 X2 X3 X4 X5 X6], MG' as [Y1 Y2 Y3 Y4 Y5 Y6]. constructor; intros.
  - apply Y1; auto.
  - apply Y2; auto.
  - apply Y3; auto.
  - apply Y4; auto.
  - apply Y5; auto.
  - apply X6; auto.
Qed.
(** An effect that leaves the abstract state as it is. *)
Lemma lsafe_look {A} x (f : N -> prog A) h o m a v
  (Q : A -> (N -> bool) -> ost -> mstate -> (N -> bool) -> option N -> Prop) :
  (forall b o1 hd1 M, linv o1 hd1 M -> (h 0 = true -> m_stuck M = false) -> agree c h o o1 -> magree c h m M -> teff b c k t v M M) ->
  lsafe (Do x f) h o m a (Some v) Q -> lsafe (Do x f) h o m a None Q.
Proof.
  intros T S. apply (lsafe_effect x f h o m a v (fun M => M)); [exact T| |exact S].
  intros o1 hd1 M _ L R MA. split; [exact L|]. split; [|exact MA]. constructor; auto.
Qed.

(** ** Operations that the abstract state does not notice *)
Definition moves (k : call) : bool :=
  match k with CBlock _ | CAssign _ _ => true | _ => false end.
Record framed (h : N -> bool) (s1 s2 : state) : Prop := mkFramed {
  f_clock : clock_of G s2 = clock_of G s1;
  f_flushed : forall c', c' < cores -> flushed_of G s2 c' = flushed_of G s1 c';
  f_words : s_words s2 = s_words s1;
  f_regs : forall c' r, r < n -> drb_bit (s_cores s2 c') r = drb_bit (s_cores s1 c') r;
  f_owner : moves k = false \/ h 0 = true \/
    (forall r, r < n -> owner_of G s2 r = owner_of G s1 r) }.
Definition plain (h : N -> bool) (x : op) : Prop :=
  (forall v hd r, r < n -> hold_after c x v hd r = hd r) /\
  (forall s1 s2 v, step c x s1 = (s2, v) -> framed h s1 s2).

Lemma res_same hd1 hd2 h h' : (forall r, r < n -> hd2 r = hd1 r) -> res c hd1 h -> res c hd2 h' ->
  forall r, r < n -> h' r = h r.
Proof.
  intros E R1 R2 r RL. specialize (R1 r RL). specialize (R2 r RL). rewrite E in R2 by auto.
  destruct (h' r), (h r); auto.
  - symmetry. apply R1, R2. reflexivity.
  - apply R2, R1. reflexivity.
Qed.
Lemma gua_window x o1 o2 hd1 hd2 : gua c k x o1 hd1 o2 hd2 -> hd1 0 <> Some c ->
  dma_ok o1 /\ o_bit o1 0 = true -> dma_ok o2 /\ o_bit o2 0 = true.
Proof.
  intros GU NC [D B]. destruct (g_os _ _ _ _ _ _ _ _ _ GU NC) as (X0 & X1 & X2 & X3 & X4).
  split.
  - unfold dma_ok in *. rewrite X1, X2, X3, X4. exact D.
  - rewrite (proj2 (proj2 (g_cells _ _ _ _ _ _ _ _ _ GU 0 (n_pos G pb rb g) NC))). exact B.
Qed.
Lemma framed_linv h x s1 s2 o1 o2 hd1 M : c < cores -> framed h s1 s2 -> view G s1 o1 -> view G s2 o2 ->
  res c hd1 h -> gua c k x o1 hd1 o2 hd1 -> linv o1 hd1 M -> linv o2 hd1 M.
Proof.
  clear t. intros CC [F1 F2 F3 F4 F5] V1 V2 R GU [L1 L2 L3 L4 L5 L6 L7 L8 L9 L10 L11].
  pose proof (n_pos G pb rb g) as NP.
  constructor; auto.
  - intros r RL H. rewrite (proj1 (g_cells _ _ _ _ _ _ _ _ _ GU r RL (open_not _ _ CC H))). auto.
  - intros r RL H. rewrite (proj1 (proj2 (g_cells _ _ _ _ _ _ _ _ _ GU r RL (open_not _ _ CC H)))). auto.
  - rewrite <- (v_clock _ _ _ V2). unfold clock_of in F1. rewrite F1, (v_clock _ _ _ V1). auto.
  - intros c' C'. specialize (F2 c' C'). unfold flushed_of in F2.
    rewrite <- (v_flushed _ _ _ V2), F2, (v_flushed _ _ _ V1) by auto. auto.
  - intros H. destruct (g_os _ _ _ _ _ _ _ _ _ GU (open_not _ _ CC H)) as (_ & _ & _ & X1 & X2).
    rewrite X1, X2. auto.
  - intros r RL. destruct (h 0) eqn:H0.
    + destruct (h r) eqn:HR.
      * right. exists c. split; [apply (R 0 NP)|apply (R r RL)]; auto.
      * assert (hd1 r <> Some c) by (intros X; apply (R r RL) in X; congruence).
        rewrite (proj1 (g_cells _ _ _ _ _ _ _ _ _ GU r RL H)). auto.
    + assert (E : (o_owner o2 r =? 0) = (o_owner o1 r =? 0)).
      { destruct F5 as [F5|[F5|F5]]; [|congruence|].
        - destruct (N.eq_dec (o_owner o2 r) (o_owner o1 r)) as [E|E]; [rewrite E; reflexivity|].
          destruct (g_change _ _ _ _ _ _ _ _ _ GU r RL E) as [_ OC].
          unfold owner_change in OC.
          destruct OC as [[-> _]|[[_ [-> ->]]|[[_ [-> ->]]|[[_ [-> ->]]|[-> _]]]]];
            try discriminate; reflexivity.
        - specialize (F5 r RL). unfold owner_of in F5.
          rewrite <- (v_owner _ _ _ V2), F5, (v_owner _ _ _ V1) by auto. reflexivity. }
      rewrite E. auto.
  - intros c' r C' RL H. rewrite <- (v_regs _ _ _ V2), F4, (v_regs _ _ _ V1) by auto. auto.
  - rewrite <- (v_words _ _ _ V2), F3, (v_words _ _ _ V1). auto.
  - intros H. eapply gua_window; eauto. rewrite H. intros Y. inversion Y. lia.
Qed.
Lemma framed_ext h h' s1 s2 : h' 0 = h 0 -> framed h s1 s2 -> framed h' s1 s2.
Proof. intros E [F1 F2 F3 F4 F5]. constructor; auto. rewrite E. auto. Qed.

Lemma lsafe_plain {A} (p : prog A) : forall h h0 o m a st
  (Q : A -> (N -> bool) -> ost -> mstate -> (N -> bool) -> option N -> Prop),
  (forall r, r < n -> h0 r = h r) ->
  uses (plain h) p -> safe c k p h0 o (fun v h' o' => h' = h /\ Q v h o' m a st) ->
  lsafe p h0 o m a st Q.
Proof.
  induction p as [v|x f IH|]; intros h h0 o m a st Q HE U S; cbn [lsafe ConcProofs.safe uses] in *.
  - destruct S as [-> S]. exact S.
  - destruct U as [[U1 U2] U3].
    intros s1 o1 hd1 M1 CC V I L R AG MA RG s2 v ST NW.
    destruct (S s1 o1 hd1 V I R AG s2 v ST ltac:(auto)) as (o2 & V2 & I2 & GU & h' & o' & R' & A' & S').
    pose proof (n_pos G pb rb g) as NP.
    exists o2. do 3 (split; [assumption|]). exists M1, st. split; [left; auto|].
    pose proof (U2 s1 s2 v ST) as FR.
    assert (HE' : forall r, r < n -> h' r = h r).
    { intros r RL. rewrite <- HE by auto. exact (res_same hd1 _ h0 h' (fun r0 => U1 v hd1 r0) R R' r RL). }
    split.
    { apply (linv_hold _ hd1); [auto|].
      apply (framed_linv h0 x s1 s2 o1 o2 hd1); auto.
      - eapply framed_ext; [|exact FR]. auto.
      - destruct GU as [G1 G2 G3 G4 G5 G6 G7 G8 G9 G10]. constructor; auto. }
    split.
    { constructor; auto. intros c' r NE RL.
      rewrite <- (v_regs _ _ _ V2), (f_regs _ _ _ FR), (v_regs _ _ _ V) by auto. reflexivity. }
    exists h', o', m, a. split; [exact R'|]. split; [exact A'|]. split.
    { destruct MA as [A1 A2 A3 A4 A5]. rewrite HE in A3, A4 by auto.
      constructor; auto.
      - intros r RL X. apply A1; auto. rewrite HE, <- HE' by auto. exact X.
      - intros r RL X. apply A2; auto. rewrite HE, <- HE' by auto. exact X.
      - rewrite HE' by auto. exact A3.
      - rewrite HE' by auto. exact A4. }
    split.
    { intros r RL. rewrite <- (v_regs _ _ _ V2), (f_regs _ _ _ FR), (v_regs _ _ _ V) by auto. auto. }
    apply (IH v h); auto.
  - exact Logic.I.
Qed.
Lemma lsafe_is_plain {A} (p : prog A) h o m a st
  (Q : A -> (N -> bool) -> ost -> mstate -> (N -> bool) -> option N -> Prop) :
  uses (plain h) p -> safe c k p h o (fun v h' o' => h' = h /\ Q v h o' m a st) ->
  lsafe p h o m a st Q.
Proof. apply lsafe_plain. auto. Qed.

(** Which operations are plain. *)
Lemma framed_refl h s : framed h s s.
Proof. constructor; auto. Qed.
Lemma framed_mem h s1 m' :
  (forall b, ~ rest G b -> (forall r, r < n -> ~ g_dram_region G + 40 * r + 8 <= b < g_dram_region G + 40 * r + 16) ->
     g_os_region_bitmap G <= b \/ (exists r, r < n /\ g_dram_region G + 40 * r <= b < g_dram_region G + 40 * r + 40) \/
       byte m' b = byte (s_mem s1) b) ->
  (moves k = false \/ h 0 = true \/
    (forall r, r < n -> owner_of G (set_mem s1 m') r = owner_of G s1 r)) ->
  framed h s1 (set_mem s1 m').
Proof.
  intros H O. pose proof (layout _ _ _ g) as (L1 & L2 & L3 & L4 & L5 & L6 & L7 & L8).
  assert (NR : forall b, g_core G <= b < g_os_region_bitmap G ->
     ~ (g_core G <= b < g_dram_region G /\ 8 <= (b - g_core G) mod 32 < 24) -> ~ rest G b).
  { intros b B1 B2 [X|[X|X]]; lia. }
  constructor; auto.
  - unfold clock_of. cbn [s_mem set_mem]. apply ld_byte. intros b I1 I2. change (N.of_nat 8) with 8 in I2.
    destruct (H b) as [X|[[r [R X]]|X]]; [| | | |exact X].
    + apply NR; lia.
    + intros r R X. lia.
    + lia.
    + lia.
  - intros c' C'. unfold flushed_of. cbn [s_mem set_mem]. apply ld_byte. intros b I1 I2.
    change (N.of_nat 8) with 8 in I2.
    destruct (H b) as [X|[[r [R X]]|X]]; [| | | |exact X].
    + apply NR; [lia|]. intros [_ X].
      replace (b - g_core G) with (24 + (b - g_core G - 32 * c' - 24) + c' * 32) in X by lia.
      rewrite N.mod_add, N.mod_small in X by lia. lia.
    + intros r R X. lia.
    + lia.
    + lia.
Qed.
Lemma plain_ld h w a : plain h (OLd w a).
Proof. split; [reflexivity|]. intros s1 s2 v E. cbn in E. inversion E; subst. apply framed_refl. Qed.
Lemma plain_core h : plain h OCore.
Proof. split; [reflexivity|]. intros s1 s2 v E. cbn in E. inversion E; subst. apply framed_refl. Qed.
Lemma plain_dma_start h : plain h OGetDmaStart.
Proof. split; [reflexivity|]. intros s1 s2 v E. cbn in E. inversion E; subst. apply framed_refl. Qed.
Lemma plain_dma_end h : plain h OGetDmaEnd.
Proof. split; [reflexivity|]. intros s1 s2 v E. cbn in E. inversion E; subst. apply framed_refl. Qed.
Lemma plain_ub h i : plain h (OUb i).
Proof. split; [reflexivity|]. intros s1 s2 v E. cbn in E. inversion E; subst. constructor; auto. Qed.
Lemma plain_set_dma h x : (match x with OSetDmaStart _ | OSetDmaEnd _ | OSetDmarBase _ | OSetDmarMask _ => True
   | _ => False end) -> plain h x.
Proof.
  intros X. split; [intros; destruct x; try contradiction; reflexivity|].
  intros s1 s2 v E. destruct x; try contradiction; cbn in E; inversion E; subst; constructor; auto.
Qed.
Lemma plain_flush_tlb h : plain h OFlushTlb.
Proof.
  split; [reflexivity|]. intros s1 s2 v E. cbn in E. inversion E; subst. constructor; auto.
  intros c' r R. cbn. unfold upd. destruct (N.eqb_spec c' c); [subst; reflexivity|reflexivity].
Qed.
Lemma plain_high h x : high_op G x -> plain h x.
Proof.
  intros X. pose proof (layout _ _ _ g) as (L1 & L2 & L3 & L4 & L5 & L6 & L7 & L8).
  assert (LK : forall r, r < n -> lock_addr G r < g_monitor_top G) by (unfold lock_addr; intros; lia).
  split.
  { intros v hd r R. specialize (LK r R). destruct x; cbn in X; try contradiction; try reflexivity;
      cbn; destruct (N.eqb_spec a (lock_addr G r)); try reflexivity; lia. }
  intros s1 s2 v E.
  assert (K : forall sz a w, g_monitor_top G <= a -> framed h s1 (set_mem s1 (st sz (s_mem s1) a w))).
  { intros sz a w B. apply framed_mem.
    - intros b NR _. right. right. apply byte_st_out. left.
      destruct (N.lt_ge_cases b a); auto. exfalso. apply NR. apply (rest_high G pb rb g). lia.
    - right. right. intros r R. unfold owner_of. cbn [s_mem set_mem]. apply ld_st_other. left. lia. }
  destruct x; cbn in X; try contradiction; cbn [step] in E; inversion E; subst; auto;
    try apply framed_refl. constructor; auto.
Qed.
Lemma plain_high_uses {A} h (p : prog A) : uses (high_op G) p -> uses (plain h) p.
Proof.
  induction p as [v|x f IH|]; cbn; auto. intros [U1 U2]. split; [apply plain_high; auto|auto].
Qed.
Lemma plain_field h r off v : r < n -> off = 8 /\ (moves k = false \/ h 0 = true) \/
    off = 16 \/ off = 24 \/ off = 32 ->
  plain h (OSt 8 (g_dram_region G + 40 * r + off) v).
Proof.
  intros R O. split; [reflexivity|]. intros s1 s2 w E. cbn [step] in E. inversion E; subst.
  apply framed_mem.
  - intros b NR NO.
    destruct (N.lt_ge_cases b (g_dram_region G + 40 * r)).
    { right. right. apply byte_st_out. change (N.of_nat 8) with 8. lia. }
    destruct (N.lt_ge_cases b (g_dram_region G + 40 * r + 40)).
    { right. left. exists r. lia. }
    right. right. apply byte_st_out. change (N.of_nat 8) with 8. lia.
  - destruct O as [[_ [O|O]]|O]; auto. right. right. intros x X. unfold owner_of. cbn [s_mem set_mem].
    apply ld_st_other. change (N.of_nat 8) with 8. lia.
Qed.
Lemma plain_bitmap h j v : j < 64 * W ->
  plain h (OSt 8 (g_os_region_bitmap G + 8 * (j / 64)) v).
Proof.
  intros J. pose proof (layout _ _ _ g) as (L1 & L2 & L3 & L4 & L5 & L6 & L7 & L8).
  split; [reflexivity|]. intros s1 s2 w E. cbn [step] in E. inversion E; subst.
  apply framed_mem.
  - intros b NR NO. destruct (N.lt_ge_cases b (g_os_region_bitmap G)); [|left; auto].
    right. right. apply byte_st_out. left. lia.
  - right. right. intros x X. unfold owner_of. cbn [s_mem set_mem].
    apply ld_st_other. left. change (N.of_nat 8) with 8. lia.
Qed.

(** ** Locks *)
Lemma gua_hold x o1 hd1 o2 hd2 : gua c k x o1 hd1 o2 hd2 -> gua c k x o1 hd1 o2 hd1.
Proof. intros [G1 G2 G3 G4 G5 G6 G7 G8 G9 G10]. constructor; auto. Qed.
Lemma linv_acquire o hd M r : c < cores -> hd r = None -> linv o hd M -> linv o (upd hd r (Some c)) M.
Proof.
  clear t. intros CC N0 [L1 L2 L3 L4 L5 L6 L7 L8 L9 L10 L11].
  assert (E : forall x c', hd x = Some c' -> upd hd r (Some c) x = Some c').
  { intros x c' X. rewrite upd_other by congruence. exact X. }
  assert (E' : forall x, upd hd r (Some c) x = None -> hd x = None).
  { intros x X. destruct (hd x) eqn:Y; [apply E in Y; congruence|reflexivity]. }
  assert (E2 : forall x, upd hd r (Some c) x = Some cores <-> hd x = Some cores).
  { intros x. unfold upd. destruct (N.eqb_spec x r) as [->|_]; [|reflexivity].
    rewrite N0. split; [intros X; inversion X; lia|discriminate]. }
  assert (OP : forall x, open (upd hd r (Some c)) x -> open hd x).
  { intros x [X|X]; [left; auto|right; apply E2; auto]. }
  constructor; auto.
  - intros x X. destruct (L6 x X) as [Y|[c' [Y Z]]]; [auto|]. right. exists c'. auto.
  - rewrite E2. auto.
  - intros x X Y. apply E2 in Y. auto.
  - rewrite E2. auto.
Qed.
Lemma linv_release o hd M r : c < cores -> r < n -> hd r = Some c -> linv o hd M ->
  o_owner o r = owner_code (m_owner M r) -> o_blocked o r = m_blocked_at M r ->
  (r = 0 -> (o_dma_start o = m_dma_start M /\ o_dma_end o = m_dma_end M) /\
     (forall x, x < n -> hd x = Some c -> is_os (m_owner M x) = (o_owner o x =? 0)) /\
     (forall x, x < n -> drb_bit (o_regs o c) x = m_access M c x)) ->
  linv o (upd hd r None) M.
Proof.
  clear t. intros CC R HR [L1 L2 L3 L4 L5 L6 L7 L8 L9 L10 L11] E1 E2 E3.
  assert (E4 : forall x, upd hd r None x = Some cores <-> hd x = Some cores).
  { intros x. unfold upd. destruct (N.eqb_spec x r) as [->|_]; [|reflexivity].
    rewrite HR. split; [discriminate|intros X; inversion X; lia]. }
  constructor; auto.
  - intros x X. unfold open, upd. destruct (N.eqb_spec x r); [subst; auto|auto].
  - intros x X. unfold open, upd. destruct (N.eqb_spec x r); [subst; auto|auto].
  - unfold open, upd. destruct (N.eqb_spec 0 r) as [Z|Z]; [intros _; apply E3; auto|auto].
  - intros x X. destruct (L6 x X) as [Y|[c' [Y Z]]]; [auto|].
    destruct (N.eq_dec x r) as [->|NR].
    { left. rewrite E1. destruct (m_owner M r); reflexivity. }
    destruct (N.eq_dec r 0) as [->|N0].
    { left. apply E3; auto. congruence. }
    right. exists c'. rewrite !upd_other by auto. auto.
  - intros c' x C' X. unfold upd. destruct (N.eqb_spec 0 r) as [Z|Z]; [|auto].
    subst r. intros _. destruct (N.eq_dec c' c) as [->|NE]; [apply E3; auto|].
    apply L7; auto. congruence.
  - rewrite E4. auto.
  - intros x X Y. apply E4 in Y. auto.
  - rewrite E4. auto.
Qed.
Lemma plain_lock h r s1 v : r < n -> framed h s1 (set_mem s1 (st 8 (s_mem s1) (lock_addr G r) v)).
Proof.
  intros R. unfold lock_addr. apply framed_mem.
  - intros b NR NO.
    destruct (N.lt_ge_cases b (g_dram_region G + 40 * r)).
    { right. right. apply byte_st_out. change (N.of_nat 8) with 8. lia. }
    destruct (N.lt_ge_cases b (g_dram_region G + 40 * r + 40)).
    { right. left. exists r. lia. }
    right. right. apply byte_st_out. change (N.of_nat 8) with 8. lia.
  - right. right. intros x X. unfold owner_of. cbn [s_mem set_mem].
    apply ld_st_other. change (N.of_nat 8) with 8. lia.
Qed.

Lemma lsafe_tas r h o m a st (Q : bool -> (N -> bool) -> ost -> mstate -> (N -> bool) -> option N -> Prop) :
  r < n ->
  (Q true h o m a st \/
   (st = None /\ exists v, (forall (b : Prop) M, (h 0 = true -> m_stuck M = false) -> magree c h m M ->
      (h r = false -> b \/ r = 0 /\ m_stuck M = true) -> teff b c k t v M M) /\ Q true h o m a (Some v))) ->
  (forall o' m', h r = false -> agree c h o o' -> magree c h m m' ->
     (forall x, x < n -> o_owner o' x < 4) -> o_owner o' 0 = 0 ->
     (r = 0 -> tidy (upd h r true) o') -> (tidy h o -> tidy (upd h r true) o') ->
     o_owner o' r = owner_code (m_owner m' r) -> o_blocked o' r = m_blocked_at m' r ->
     (r = 0 -> (o_dma_start o' = m_dma_start m' /\ o_dma_end o' = m_dma_end m') /\
        (forall x, x < n -> is_os (m_owner m' x) = (o_owner o' x =? 0))) ->
     (h 0 = false -> c < cores -> forall x, x < n -> a x = m_access m' c x) ->
     Q false (upd h r true) o' m' a st) ->
  lsafe (test_and_set_dram_region_lock G r) h o m a st Q.
Proof.
  intros R QT QF.
  pose (P := fun (b : bool) (h' : N -> bool) (o' : ost) =>
    (b = true /\ h' = h /\ o' = o) \/
    (b = false /\ h' = upd h r true /\ h r = false /\ agree c h o o' /\
     (forall x, x < n -> o_owner o' x < 4) /\ o_owner o' 0 = 0 /\
     (r = 0 -> tidy (upd h r true) o') /\ (tidy h o -> tidy (upd h r true) o'))).
  assert (S : safe c k (test_and_set_dram_region_lock G r) h o P).
  { apply (safe_tas G pb rb g true); auto; [left; auto|]. intros o' H1 H2 H3 H4 H5 H6. right.
    repeat (split; [assumption || reflexivity|]). assumption. }
  unfold test_and_set_dram_region_lock in *. rewrite (region_addr_lock G pb rb g) in * by auto.
  cbn [bind op1 lsafe ConcProofs.safe] in *.
  intros s1 o1 hd1 M1 CC V I L RS AG MA RG s2 v ST NW.
  destruct (S s1 o1 hd1 V I RS AG s2 v ST ltac:(auto)) as (o2 & V2 & I2 & GU & h' & o' & R' & A' & S').
  exists o2. do 3 (split; [assumption|]).
  cbn [step] in ST. pose proof (f_equal fst ST) as E2. pose proof (f_equal snd ST) as Ev.
  cbn [fst snd] in E2, Ev. unfold lock_addr in Ev at 1.
  rewrite (v_lock _ _ _ V r R), (i_lock _ _ _ _ I r R) in Ev.
  pose proof (plain_lock h r s1 1 R) as FR. rewrite E2 in FR.
  assert (L2 : linv o2 hd1 M1).
  { apply (framed_linv h (OTas (lock_addr G r)) s1 s2 o1 o2 hd1); auto. eapply gua_hold; eauto. }
  assert (MG : mgua c hd1 o1 M1 o2 M1).
  { constructor; auto. intros c' x NE X.
    rewrite <- (v_regs _ _ _ V2), (f_regs _ _ _ FR), (v_regs _ _ _ V) by auto. reflexivity. }
  assert (RG2 : forall x, x < n -> drb_bit (o_regs o2 c) x = a x).
  { intros x X. rewrite <- (v_regs _ _ _ V2), (f_regs _ _ _ FR), (v_regs _ _ _ V) by auto. auto. }
  destruct (hd1 r) as [cr|] eqn:HR; cbn in Ev; subst v.
  - assert (E : forall x, x < n -> hold_after c (OTas (lock_addr G r)) 1 hd1 x = hd1 x).
    { intros x _. cbn. rewrite andb_false_r. reflexivity. }
    destruct S' as [(_ & -> & ->)|(X & _)]; [|discriminate].
    assert (L3 : linv o2 (hold_after c (OTas (lock_addr G r)) 1 hd1) M1).
    { apply (linv_hold _ hd1); auto. }
    destruct QT as [QT|(-> & v & TE & QT)].
    + exists M1, st. split; [left; auto|]. split; [exact L3|]. split; [exact MG|].
      exists h, o, m, a. auto 10.
    + exists M1, (Some v). split; [|split; [exact L3|split; [exact MG|]]].
      * right. split; [reflexivity|]. exists v. split; [reflexivity|]. apply TE; auto.
        { eapply l_unstuck; eauto. }
        intros HF. destruct (N.eq_dec cr cores) as [->|NC].
        { right. assert (r = 0) by (apply (l_only0 _ _ _ L); auto). subst r. split; [reflexivity|].
          apply (l_stuck _ _ _ L). exact HR. }
        left. exists r, cr. split; [exact R|]. split; [exact HR|]. split; [|exact NC].
        intros ->. apply (RS r R) in HR. congruence.
      * exists h, o, m, a. auto 10.
  - assert (E : forall x, x < n -> hold_after c (OTas (lock_addr G r)) 0 hd1 x = upd hd1 r (Some c) x).
    { intros x _. cbn. unfold lock_addr, upd. rewrite andb_true_r.
      destruct (N.eqb_spec (g_dram_region G + 40 * r) (g_dram_region G + 40 * x)),
        (N.eqb_spec x r); try reflexivity; lia. }
    destruct S' as [(X & _)|(_ & -> & HF & AG' & O4 & O0 & T0 & T1)]; [discriminate|].
    exists M1, st. split; [left; auto|]. split.
    { apply (linv_hold _ (upd hd1 r (Some c))); auto. apply linv_acquire; auto. }
    split; [exact MG|]. exists (upd h r true), o', M1, a. do 2 (split; [assumption|]).
    split; [apply magree_refl|]. split; [exact RG2|].
    assert (UR : upd h r true r = true) by apply upd_same.
    apply QF; auto.
    + rewrite <- (a_owner _ _ _ _ _ _ A') by auto. apply (l_owner _ _ _ L2); auto. left; auto.
    + rewrite <- (a_blocked _ _ _ _ _ _ A') by auto. apply (l_blocked _ _ _ L2); auto. left; auto.
    + intros ->. destruct (a_dma _ _ _ _ _ _ A' UR) as (_ & _ & D1 & D2). split.
      * rewrite <- D1, <- D2. apply (l_dma _ _ _ L2); auto. left; auto.
      * intros x X. destruct (l_os _ _ _ L2 x X) as [Y|[c' [Y _]]]; [|congruence]. rewrite Y.
        destruct (T0 eq_refl UR) as [TC _]. specialize (TC x X). unfold clean in TC.
        rewrite <- TC, <- (a_bits _ _ _ _ _ _ A' UR)
          by (pose proof (layout _ _ _ g) as (L11 & L12 & L13 & L14 & L15 & L16 & L17 & L18); lia).
        destruct (i_clean _ _ _ _ I2 x X) as [Z|[c' [Z1 Z2]]]; [unfold clean in Z; auto|].
        rewrite E in Z1, Z2 by auto. 
        destruct (N.eq_dec x 0) as [->|XN].
        { rewrite (i_owner0 _ _ _ _ I2). rewrite (a_bits _ _ _ _ _ _ A' UR), TC, O0; [reflexivity|].
          pose proof (layout _ _ _ g) as (L11 & L12 & L13 & L14 & L15 & L16 & L17 & L18); lia. }
        rewrite upd_same in Z1. inversion Z1; subst c'. rewrite upd_other in Z2 by auto.
        assert (UX : upd h 0 true x = true).
        { rewrite upd_other by auto. apply (RS x X). exact Z2. }
        rewrite (a_bit _ _ _ _ _ _ A'), (a_owner _ _ _ _ _ _ A') by auto. auto.
    + intros H0 C x X. rewrite <- RG2 by auto. apply (l_access _ _ _ L2); auto.
      intros Y. apply (RS 0 (n_pos G pb rb g)) in Y. congruence.
Qed.

Lemma lsafe_clr r h o m a st (Q : unit -> (N -> bool) -> ost -> mstate -> (N -> bool) -> option N -> Prop) :
  r < n -> h r = true -> tidy h o ->
  o_owner o r = owner_code (m_owner m r) -> o_blocked o r = m_blocked_at m r ->
  (r = 0 -> (o_dma_start o = m_dma_start m /\ o_dma_end o = m_dma_end m) /\
     (forall x, x < n -> h x = true -> is_os (m_owner m x) = (o_owner o x =? 0)) /\
     (forall x, x < n -> a x = m_access m c x)) ->
  Q tt (upd h r false) o m a st -> lsafe (clear_dram_region_lock G r) h o m a st Q.
Proof.
  intros R HR T E1 E2 E3 H.
  assert (S : safe c k (clear_dram_region_lock G r) h o (fun _ h' o' => h' = upd h r false /\ o' = o)).
  { apply (safe_clr G pb rb g true); auto. }
  unfold clear_dram_region_lock in *. rewrite (region_addr_lock G pb rb g) in * by auto.
  cbn [bind op1 lsafe ConcProofs.safe] in *.
  intros s1 o1 hd1 M1 CC V I L RS AG MA RG s2 v ST NW.
  destruct (S s1 o1 hd1 V I RS AG s2 v ST ltac:(auto)) as (o2 & V2 & I2 & GU & h' & o' & R' & A' & S').
  destruct S' as [-> ->].
  exists o2. do 3 (split; [assumption|]).
  cbn [step] in ST. pose proof (f_equal fst ST) as E4. pose proof (f_equal snd ST) as Ev.
  cbn [fst snd] in E4, Ev. subst v.
  pose proof (plain_lock h r s1 0 R) as FR. rewrite E4 in FR.
  assert (L2 : linv o2 hd1 M1).
  { apply (framed_linv h (OClr (lock_addr G r)) s1 s2 o1 o2 hd1); auto. eapply gua_hold; eauto. }
  assert (V2' : view G s2 (with_lock o1 r 0)).
  { rewrite <- E4. apply (v_set_lock G pb rb g); auto. reflexivity. }
  assert (VO : forall x, x < n -> o_owner o2 x = o_owner o1 x).
  { intros x X. rewrite <- (v_owner _ _ _ V2) by auto. rewrite (v_owner _ _ _ V2') by auto. reflexivity. }
  assert (VB : forall x, x < n -> o_blocked o2 x = o_blocked o1 x).
  { intros x X. rewrite <- (v_blocked _ _ _ V2) by auto. rewrite (v_blocked _ _ _ V2') by auto. reflexivity. }
  assert (RG2 : forall x, x < n -> drb_bit (o_regs o2 c) x = a x).
  { intros x X. rewrite <- (v_regs _ _ _ V2), (f_regs _ _ _ FR), (v_regs _ _ _ V) by auto. auto. }
  assert (E : forall x, x < n -> hold_after c (OClr (lock_addr G r)) 0 hd1 x = upd hd1 r None x).
  { intros x _. cbn. unfold upd, lock_addr.
    destruct (N.eqb_spec (g_dram_region G + 40 * r) (g_dram_region G + 40 * x)),
        (N.eqb_spec x r); try reflexivity; lia. }
  exists M1, st. split; [left; auto|]. split.
  { apply (linv_hold _ (upd hd1 r None)); auto. apply linv_release; auto.
    - apply (RS r R). exact HR.
    - rewrite VO by auto. rewrite (a_owner _ _ _ _ _ _ AG), (ma_owner _ _ _ _ MA) by auto. exact E1.
    - rewrite VB by auto. rewrite (a_blocked _ _ _ _ _ _ AG), (ma_blocked _ _ _ _ MA) by auto. exact E2.
    - intros ->. destruct (E3 eq_refl) as (D & OO & AC). split; [|split].
      + destruct (a_dma _ _ _ _ _ _ AG HR) as (_ & _ & D1 & D2). destruct (ma_dma _ _ _ _ MA HR) as [D3 D4].
        rewrite <- (v_dma_start _ _ _ V2), <- (v_dma_end _ _ _ V2).
        rewrite (v_dma_start _ _ _ V2'), (v_dma_end _ _ _ V2'). cbn. rewrite D1, D2, D3, D4. exact D.
      + intros x X HX. apply (RS x X) in HX.
        rewrite VO, (a_owner _ _ _ _ _ _ AG), (ma_owner _ _ _ _ MA) by auto. auto.
      + intros x X. rewrite RG2, (ma_access _ _ _ _ MA) by auto. auto. }
  split.
  { constructor; auto. intros c' x NE X.
    rewrite <- (v_regs _ _ _ V2), (f_regs _ _ _ FR), (v_regs _ _ _ V) by auto. reflexivity. }
  exists (upd h r false), o, m, a. do 2 (split; [assumption|]). split; [|auto].
  assert (MM : forall x, upd h r false x = true -> h x = true).
  { intros x. unfold upd. destruct (x =? r); [discriminate|auto]. }
  destruct MA as [A1 A2 A3 A4 A5]. constructor; auto.
Qed.

(** ** Registers *)
Lemma lsafe_set_drb h o m a st (Q : N -> (N -> bool) -> ost -> mstate -> (N -> bool) -> option N -> Prop) :
  calm k = false -> h 0 = true -> Q 0 h o m (o_bit o) st ->
  lsafe (op1 (OSetDrb (g_os_region_bitmap G))) h o m a st Q.
Proof.
  intros CA H0 H.
  assert (S : safe c k (op1 (OSetDrb (g_os_region_bitmap G))) h o (fun _ h' o' => h' = h /\ o' = o)).
  { apply (safe_regs G pb rb g true); eauto. }
  cbn [op1 lsafe ConcProofs.safe] in *.
  intros s1 o1 hd1 M1 CC V I L RS AG MA RG s2 v ST NW.
  destruct (S s1 o1 hd1 V I RS AG s2 v ST ltac:(auto)) as (o2 & V2 & I2 & GU & h' & o' & R' & A' & S').
  destruct S' as [-> ->].
  exists o2. do 3 (split; [assumption|]).
  cbn [step] in ST. pose proof (f_equal fst ST) as E2. pose proof (f_equal snd ST) as Ev.
  cbn [fst snd] in E2, Ev. subst v.
  pose proof (n_pos G pb rb g) as NP. pose proof (proj1 (RS 0 NP) H0) as HC.
  assert (EC : (forall c', c' <> c -> s_cores s2 c' = s_cores s1 c') /\ s_mem s2 = s_mem s1 /\ s_words s2 = s_words s1 /\
     s_dma_start s2 = s_dma_start s1 /\ s_dma_end s2 = s_dma_end s1).
  { rewrite <- E2. unfold set_creg; cbn. repeat split. intros c' NE. destruct (N.eqb_spec c' c); [contradiction|reflexivity]. }
  destruct EC as (EC & EM & EW & ES & EE).
  assert (OTH : forall c' x, c' <> c -> drb_bit (o_regs o2 c') x = drb_bit (o_regs o1 c') x).
  { intros c' x NE. rewrite <- (v_regs _ _ _ V2), EC, (v_regs _ _ _ V) by auto. reflexivity. }
  exists M1, st. split; [left; auto|]. split.
  { apply (linv_hold _ hd1); [reflexivity|]. destruct L as [L1 L2 L3 L4 L5 L6 L7 L8 L9 L10 L11].
    assert (VO : forall x, x < n -> o_owner o2 x = o_owner o1 x).
    { intros x X. rewrite <- (v_owner _ _ _ V2), EM, (v_owner _ _ _ V) by auto. reflexivity. }
    constructor; auto.
    - intros x X HX. rewrite VO; auto.
    - intros x X HX. rewrite <- (v_blocked _ _ _ V2), EM, (v_blocked _ _ _ V) by auto. auto.
    - rewrite <- (v_clock _ _ _ V2), EM, (v_clock _ _ _ V). auto.
    - intros c' C'. rewrite <- (v_flushed _ _ _ V2), EM, (v_flushed _ _ _ V) by auto. auto.
    - intros X. destruct (open_not _ _ CC X). auto.
    - intros x X. rewrite VO by auto. auto.
    - intros c' x C' X NE. rewrite OTH by congruence. auto.
    - rewrite <- (v_words _ _ _ V2), EW, (v_words _ _ _ V). auto.
    - rewrite HC. intros X. inversion X. lia. }
  split; [constructor; auto|].
  exists h, o, m, (o_bit o). do 3 (split; [assumption|]). split; [|exact H].
  intros x X. rewrite <- (v_regs _ _ _ V2), <- E2. cbn -[snapshot ld].
  rewrite N.eqb_refl.
  pose proof (layout _ _ _ g) as (L11 & L12 & L13 & L14 & L15 & L16 & L17 & L18).
  pose proof (l_words _ _ _ L) as LW.
  unfold drb_bit. cbn [r_drb]. unfold snapshot.
  rewrite (v_words _ _ _ V). destruct (N.ltb_spec (x / 64) (o_words o1)); [|lia].
  rewrite <- (a_bits _ _ _ _ _ _ AG H0) by lia.
  rewrite <- (v_bit _ _ _ V) by lia. rewrite bit_at_word. reflexivity.
Qed.
End Judgement.
End Lin.
