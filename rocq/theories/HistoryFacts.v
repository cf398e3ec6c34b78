(** * Facts about the abstract machine's histories. *)
From Coq Require Import NArith ZArith Lia Bool List.
From Coq Require Import ZifyBool ZifyNat ZifyN.
From Verif Require Import Word Machine ModelInl ModelBoot ModelApi Lib BareProofs BootProofs
  SpecGeometry GeomProofs SpecMonitor SpecHistory HistoryProofs.
Import ListNotations.
Open Scope N_scope.
Ltac Zify.zify_post_hook ::= Z.div_mod_to_equations.

Section Facts.
Variables (pb rb cores dram : N).
Local Notation eff := (effect pb rb cores dram).
Local Notation mhist := (mhistory pb rb cores dram).

Lemma pair_eq {A B} (a a' : A) (b b' : B) : (a, b) = (a', b') -> a = a' /\ b = b'.
Proof. intros H. inversion H. auto. Qed.

(** All successful and all failing cases of an event. *)
Lemma block_inv c r M v M' : (v, M') = block_table pb rb c r M ->
  (v <> ok /\ M' = M) \/
  (v = ok /\ r <> 0 /\ r < 2 ^ rb /\ m_owner M r = OS /\ m_stuck M = false /\
   touches (m_dma_start M) (m_dma_end M) (stripe_start pb rb r 0)
     (stripe_start pb rb (r + 1) 0) = false /\
   M' = load_access (tick (set_owner M r Blocked) r) c).
Proof.
  unfold block_table. intros H.
  destruct (N.eqb_spec r 0); destruct (N.leb_spec (2 ^ rb) r); cbn [orb] in H;
    try (apply pair_eq in H as [-> ->]; left; split; [discriminate|reflexivity]).
  destruct (m_owner M r) eqn:O;
    try (apply pair_eq in H as [-> ->]; left; split; [discriminate|reflexivity]).
  destruct (m_stuck M) eqn:S;
    [apply pair_eq in H as [-> ->]; left; split; [discriminate|reflexivity]|].
  destruct (touches _ _ _ _) eqn:T;
    [apply pair_eq in H as [-> ->]; left; split; [discriminate|reflexivity]|].
  apply pair_eq in H as [-> ->]. right. auto 10.
Qed.
Lemma create_inv r M v M' : (v, M') = create_metadata_table rb r M ->
  (v <> ok /\ M' = M) \/
  (v = ok /\ r < 2 ^ rb /\ m_owner M r = Free /\ M' = set_owner M r Metadata).
Proof.
  unfold create_metadata_table. intros H.
  destruct (N.leb_spec (2 ^ rb) r);
    [apply pair_eq in H as [-> ->]; left; split; [discriminate|reflexivity]|].
  destruct (taken M r);
    [apply pair_eq in H as [-> ->]; left; split; [discriminate|reflexivity]|].
  destruct (m_owner M r) eqn:O; apply pair_eq in H as [-> ->];
    try (left; split; [discriminate|reflexivity]). right. auto.
Qed.
Lemma assign_inv c r e M v M' : (v, M') = assign_table pb rb c r e M ->
  (v <> ok /\ M' = M) \/
  (v = ok /\ r < 2 ^ rb /\ e = 0 /\ m_owner M r = Free /\
   M' = load_access (set_owner M r OS) c).
Proof.
  unfold assign_table. intros H.
  destruct (N.leb_spec (2 ^ rb) r);
    [apply pair_eq in H as [-> ->]; left; split; [discriminate|reflexivity]|].
  destruct (taken M r);
    [apply pair_eq in H as [-> ->]; left; split; [discriminate|reflexivity]|].
  destruct (m_owner M r) eqn:O;
    try (apply pair_eq in H as [-> ->]; left; split; [discriminate|reflexivity]).
  destruct (_ || _);
    [apply pair_eq in H as [-> ->]; left; split; [discriminate|reflexivity]|].
  destruct (N.eqb_spec e 0); apply pair_eq in H as [-> ->];
    [right; auto 10|left; split; [discriminate|reflexivity]].
Qed.
Lemma free_inv r M v M' : (v, M') = free_table rb cores r M ->
  (v <> ok /\ M' = M) \/
  (v = ok /\ r < 2 ^ rb /\ M' = set_owner M r Free /\
   ((m_owner M r = Blocked /\ all_flushed cores M r = true) \/ m_owner M r = Metadata)).
Proof.
  unfold free_table. intros H.
  destruct (N.leb_spec (2 ^ rb) r);
    [apply pair_eq in H as [-> ->]; left; split; [discriminate|reflexivity]|].
  destruct (taken M r);
    [apply pair_eq in H as [-> ->]; left; split; [discriminate|reflexivity]|].
  destruct (m_owner M r) eqn:O;
    try (apply pair_eq in H as [-> ->]; left; split; [discriminate|reflexivity]).
  - destruct (all_flushed cores M r) eqn:A; apply pair_eq in H as [-> ->];
      [right; auto 10|left; split; [discriminate|reflexivity]].
  - apply pair_eq in H as [-> ->]. right. auto 10.
Qed.

(** The events that change something, and how. *)
Inductive change : event -> N -> mstate -> mstate -> Prop :=
| ch_none e v M : ok_block (e, v) = false -> (forall c, flush_by c (e, v) = false) ->
    (forall r, ok_free_of r (e, v) = false) -> change e v M M
| ch_block c r M : r <> 0 -> r < 2 ^ rb -> m_owner M r = OS -> m_stuck M = false ->
    touches (m_dma_start M) (m_dma_end M) (stripe_start pb rb r 0)
     (stripe_start pb rb (r + 1) 0) = false ->
    change (ECall c (CBlock r)) 0 M (load_access (tick (set_owner M r Blocked) r) c)
| ch_create c r M : r < 2 ^ rb -> m_owner M r = Free ->
    change (ECall c (CCreateMetadataRegion r)) 0 M (set_owner M r Metadata)
| ch_assign c r M : r < 2 ^ rb -> m_owner M r = Free ->
    change (ECall c (CAssign r 0)) 0 M (load_access (set_owner M r OS) c)
| ch_free c r M : r < 2 ^ rb ->
    ((m_owner M r = Blocked /\ all_flushed cores M r = true) \/ m_owner M r = Metadata) ->
    change (ECall c (CFree r)) 0 M (set_owner M r Free)
| ch_flush c M : change (ECall c CFlush) 0 M (m_flush M c)
| ch_dma c b m M : pow2_range b m -> b + m < dram -> m_stuck M = false ->
    change (ECall c (CSetDmaRange b m)) 0 M (m_set_dma M b (b + m + 1))
| ch_stick c k M : (exists t p, k = CCreateThread t p) \/ (exists t, k = CDeleteThread t) ->
    m_stuck M = false ->
    change (ECall c k) 0 M (m_stick M).

Ltac quiet := apply ch_none; [reflexivity|intros; reflexivity|intros; reflexivity].
Lemma not_ok_block c r v : v <> ok -> ok_block (ECall c (CBlock r), v) = false.
Proof. intros H. destruct v; [contradiction|reflexivity]. Qed.
Lemma not_ok_free r c r' v : v <> ok -> ok_free_of r (ECall c (CFree r'), v) = false.
Proof. intros H. destruct v; [contradiction|reflexivity]. Qed.

Lemma effect_change e v M M' : eff e v M M' -> change e v M M'.
Proof.
  destruct e as [c k|c a x|a x]; [|intros ->; quiet|intros ->; quiet].
  destruct k; cbn [effect]; intros H.
  - apply block_inv in H as [[V ->]|(-> & H1 & H2 & H3 & H4 & H5 & ->)].
    + apply ch_none; [apply not_ok_block; auto|reflexivity|reflexivity].
    + apply ch_block; auto.
  - destruct H as [_ ->]. quiet.
  - destruct H as [_ ->]. quiet.
  - destruct H as [_ ->]. quiet.
  - destruct H as [(_ & _ & ->)|[(_ & _ & _ & _ & ->)|(H1 & H2 & H3 & -> & ->)]];
      [quiet|quiet|]. apply ch_dma; auto.
  - apply create_inv in H as [[V ->]|(-> & H1 & H2 & ->)]; [quiet|].
    apply ch_create; auto.
  - apply assign_inv in H as [[V ->]|(-> & H1 & -> & H2 & ->)]; [quiet|].
    apply ch_assign; auto.
  - apply free_inv in H as [[V ->]|(-> & H1 & -> & H2)].
    + apply ch_none; [reflexivity|reflexivity|intros; apply not_ok_free; auto].
    + apply ch_free; auto.
  - destruct H as [-> ->]. apply ch_flush.
  - subst. quiet.
  - destruct H as [_ ->]. quiet.
  - destruct H as [_ ->]. quiet.
  - destruct H as [_ ->]. quiet.
  - destruct H as [_ ->]. quiet.
  - destruct H as [_ ->]. quiet.
  - destruct H as [_ ->]. quiet.
  - destruct H as [_ ->]. quiet.
  - subst. quiet.
  - subst. quiet.
  - destruct H as [[_ ->]|(-> & H & ->)]; [quiet|]. apply ch_stick; eauto.
  - destruct H as [[_ ->]|(-> & H & ->)]; [quiet|]. apply ch_stick; eauto.
  - destruct H as [_ ->]. quiet.
Qed.

Lemma mhist_app M0 h1 h2 M : mhist M0 (h1 ++ h2) M ->
  exists M1, mhist M0 h1 M1 /\ mhist M1 h2 M.
Proof.
  revert M. induction h2 as [|x h2 IH] using rev_ind; intros M H.
  - rewrite app_nil_r in H. exists M. split; [auto|constructor].
  - rewrite app_assoc in H. inversion H as [E|h M1 e v M2 H1 E E1].
    + destruct (h1 ++ h2); discriminate.
    + apply app_inj_tail in E1 as [E1 E2]. subst.
      destruct (IH M1 H1) as [M3 [H3 H4]]. exists M3. split; auto.
      econstructor; eauto.
Qed.
Lemma mhist_snoc_inv M0 h e v M : mhist M0 (h ++ [(e, v)]) M ->
  exists M1, mhist M0 h M1 /\ eff e v M1 M.
Proof.
  intros H. inversion H as [E|h' M1 e' v' M2 H1 E E1].
  - destruct h; discriminate.
  - apply app_inj_tail in E1 as [E1 E2]. inversion E2. subst. eauto.
Qed.
Lemma mhist_one M0 e v M : mhist M0 [(e, v)] M -> eff e v M0 M.
Proof.
  intros H. apply (mhist_snoc_inv M0 [] e v M) in H as [M1 [H1 H2]].
  inversion H1 as [E|h M2 e' v' M3 A1 A2 E E1]; [subst; auto|].
  destruct h; discriminate.
Qed.

Lemma blocks_app h1 h2 : blocks (h1 ++ h2) = blocks h1 + blocks h2.
Proof. unfold blocks. rewrite filter_app, app_length. lia. Qed.
Lemma blocks_one x : blocks [x] = if ok_block x then 1 else 0.
Proof. unfold blocks. cbn [filter]. destruct (ok_block x); reflexivity. Qed.
Lemma none_app p h1 h2 : none p (h1 ++ h2) <-> none p h1 /\ none p h2.
Proof.
  unfold none. split.
  - intros H. split; intros x I; apply H; apply in_or_app; auto.
  - intros [H1 H2] x I. apply in_app_or in I as [I|I]; auto.
Qed.
Lemma none_one p x : none p [x] <-> p x = false.
Proof.
  unfold none. split; [intros H; apply H; left; auto|].
  intros H y [<-|[]]; auto.
Qed.
Lemma none_nil p : none p [].
Proof. intros x []. Qed.
Lemma blocks_0 h : blocks h = 0 -> none ok_block h.
Proof.
  unfold blocks. intros H x I. destruct (ok_block x) eqn:E; auto.
  assert (In x (filter ok_block h)) by (apply filter_In; auto).
  destruct (filter ok_block h); [contradiction|discriminate].
Qed.

(** The clock counts the blocks. *)
Lemma clock_counts M0 h M : mhist M0 h M -> m_clock M0 < W64 ->
  m_clock M = (m_clock M0 + blocks h) mod W64.
Proof.
  intros H L. induction H as [|h M e v M' H IH E].
  - unfold blocks. cbn. rewrite N.add_0_r. symmetry. apply N.mod_small. auto.
  - apply effect_change in E. rewrite blocks_app, blocks_one.
    destruct E; [rewrite H0, N.add_0_r; auto|..];
      cbn [ok_block m_clock set_owner tick load_access m_flush m_set_dma m_stick];
      rewrite ?N.add_0_r; auto.
    + rewrite IH. rewrite N.add_assoc. rewrite N.add_mod_idemp_l by discriminate.
      reflexivity.
    + destruct H0 as [[t [p ->]]|[t ->]]; cbn [ok_block]; rewrite N.add_0_r; auto.
Qed.

(** A core's flush time is the number of blocks before its last flush. *)
Lemma flush_time M0 h M c : mhist M0 h M -> m_clock M0 + blocks h < W64 ->
  m_flushed M0 c <= m_clock M0 ->
  (none (flush_by c) h /\ m_flushed M c = m_flushed M0 c) \/
  exists a b, h = a ++ (ECall c CFlush, 0) :: b /\ none (flush_by c) b /\
    m_flushed M c = m_clock M0 + blocks a.
Proof.
  intros H B F. induction H as [|h M e v M' H IH E].
  - left. split; [apply none_nil|auto].
  - rewrite blocks_app in B.
    pose proof (clock_counts M0 h M H ltac:(lia)) as CC.
    rewrite N.mod_small in CC by lia.
    specialize (IH ltac:(lia)). apply effect_change in E.
    assert (KEEP : flush_by c (e, v) = false -> m_flushed M' c = m_flushed M c ->
      (none (flush_by c) (h ++ [(e, v)]) /\ m_flushed M' c = m_flushed M0 c) \/
      (exists a b, h ++ [(e, v)] = a ++ (ECall c CFlush, 0) :: b /\ none (flush_by c) b /\
        m_flushed M' c = m_clock M0 + blocks a)).
    { intros K1 K2. destruct IH as [[I1 I2]|[a [b [I1 [I2 I3]]]]].
      - left. split; [apply none_app; split; [auto|apply none_one; auto]|congruence].
      - right. exists a, (b ++ [(e, v)]). split; [rewrite I1, <- app_assoc; reflexivity|].
        split; [apply none_app; split; [auto|apply none_one; auto]|congruence]. }
    destruct E; try (apply KEEP; [reflexivity|reflexivity]).
    + apply KEEP; auto.
    + destruct (N.eqb_spec c0 c) as [->|NE].
      * right. exists h, []. split; [reflexivity|]. split; [apply none_nil|].
        cbn [m_flush m_flushed]. unfold upd. rewrite N.eqb_refl. exact CC.
      * apply KEEP.
        -- cbn [flush_by]. apply N.eqb_neq. auto.
        -- cbn [m_flush m_flushed]. unfold upd.
           destruct (N.eqb_spec c c0); [congruence|reflexivity].
    + apply KEEP; [|reflexivity]. destruct H0 as [[t [p ->]]|[t ->]]; reflexivity.
Qed.

Lemma flush_le_clock M0 h M c : mhist M0 h M -> m_clock M0 + blocks h < W64 ->
  m_flushed M0 c <= m_clock M0 -> m_flushed M c <= m_clock M.
Proof.
  intros H B F. pose proof (clock_counts M0 h M H ltac:(lia)) as CC.
  rewrite N.mod_small in CC by lia.
  destruct (flush_time M0 h M c H B F) as [[_ ->]|[a [b [-> [_ ->]]]]]; [lia|].
  rewrite CC, blocks_app. lia.
Qed.

(** While a region is not freed again it stays blocked, with its block time. *)
Lemma stays_blocked M0 h M r : mhist M0 h M -> m_owner M0 r = Blocked ->
  none (ok_free_of r) h ->
  m_owner M r = Blocked /\ m_blocked_at M r = m_blocked_at M0 r /\
  none (ok_block_of r) h.
Proof.
  intros H O N. induction H as [|h M e v M' H IH E].
  - repeat split; auto. apply none_nil.
  - apply none_app in N as [N1 N2]. apply none_one in N2.
    destruct (IH N1) as (I1 & I2 & I3). apply effect_change in E.
    assert (X : forall o r', (o = Blocked \/ r' <> r) ->
      upd (m_owner M) r' o r = Blocked).
    { intros o r' D. unfold upd. destruct (N.eqb_spec r r'); [|auto].
      destruct D; [auto|congruence]. }
    rewrite none_app, none_one.
    destruct E; cbn [m_owner m_blocked_at set_owner tick load_access m_flush m_set_dma m_stick
      ok_block_of ok_block] in *; repeat split; auto.
    + destruct e as [c k| |]; auto. destruct k; auto. destruct v; [discriminate|reflexivity].
    + unfold upd. destruct (N.eqb_spec r r0); [subst; congruence|auto].
    + apply N.eqb_neq. intros ->. congruence.
    + apply X. right. intros ->. congruence.
    + apply X. right. intros ->. congruence.
    + apply X. right. intros ->. cbn in N2. rewrite N.eqb_refl in N2. discriminate.
    + destruct H0 as [[t [p ->]]|[t ->]]; reflexivity.
Qed.
End Facts.

(** ** Access registers *)
Lemma access_sound pb rb cores dram c M0 h M :
  mhistory pb rb cores dram M0 h M ->
  none (ok_block_not_by c) h ->
  (forall r, r < 2 ^ rb -> m_access M0 c r = true -> m_owner M0 r = OS) ->
  forall r, r < 2 ^ rb -> m_access M c r = true -> m_owner M r = OS.
Proof.
  intros H N A. induction H as [|h M e v M' H IH E]; auto.
  apply none_app in N as [N1 N2]. apply none_one in N2. specialize (IH N1).
  apply effect_change in E.
  destruct E; intros x X; cbn [m_owner m_access set_owner tick load_access m_flush m_set_dma
    m_stick]; auto.
  - cbn in N2. destruct (N.eqb_spec c0 c) as [->|]; [|discriminate].
    unfold upd at 1. rewrite N.eqb_refl. unfold upd. destruct (N.eqb_spec x r); cbn;
      [discriminate|]. destruct (m_owner M x); cbn; congruence.
  - intros B. specialize (IH x X B). unfold upd. destruct (N.eqb_spec x r); auto.
    congruence.
  - unfold upd at 1. destruct (N.eqb_spec c c0) as [->|].
    + unfold upd. destruct (N.eqb_spec x r); auto. destruct (m_owner M x); cbn; congruence.
    + intros B. unfold upd. destruct (N.eqb_spec x r); auto.
  - intros B. specialize (IH x X B). unfold upd. destruct (N.eqb_spec x r); auto.
    subst. destruct H1 as [[Y _]|Y]; congruence.
Qed.

(** ** Composition of machine histories *)
Lemma history_app G pb rb s0 h1 h2 s : history G pb rb s0 (h1 ++ h2) s ->
  exists s1, history G pb rb s0 h1 s1 /\ history G pb rb s1 h2 s.
Proof.
  revert s. induction h2 as [|x h2 IH] using rev_ind; intros s H.
  - rewrite app_nil_r in H. exists s. split; [auto|constructor].
  - rewrite app_assoc in H. inversion H as [E|h s1 e v s2 H1 E E1].
    + destruct (h1 ++ h2); discriminate.
    + apply app_inj_tail in E1 as [E1 E2]. subst.
      destruct (IH s1 H1) as [s3 [H3 H4]]. exists s3. split; auto.
      econstructor; eauto.
Qed.
Lemma history_one G pb rb s0 e v s : history G pb rb s0 [(e, v)] s ->
  estep G pb rb s0 e v s.
Proof.
  intros H. inversion H as [E|h s1 e' v' s2 H1 E E1].
  destruct h as [|y h]; [|destruct h; discriminate].
  inversion E1. subst. inversion H1 as [X|h2 s3 e3 v3 s4 X1 X2 X3]; subst; auto.
  destruct h2; discriminate.
Qed.

Lemma reach_shows P top pb rb G s : reachable P top pb rb G s ->
  geom G pb rb /\ g_dram_size G + g_dram_stripe_size G <= W64 /\ exists M, shows G s M.
Proof.
  intros [s0 [h [ST H]]]. destruct (started_geom _ _ _ _ _ _ ST) as [g HD].
  destruct (started_shows _ _ _ _ _ _ ST) as [ac [c [_ [_ K]]]].
  destruct (history_refines G pb rb g HD s0 _ h s K H) as [M [_ KM]].
  eauto.
Qed.
Lemma reach_step P top pb rb G s e v s' : reachable P top pb rb G s ->
  estep G pb rb s e v s' -> reachable P top pb rb G s'.
Proof.
  intros [s0 [h [ST H]]] E. exists s0, (h ++ [(e, v)]). split; auto.
  econstructor; eauto.
Qed.
Lemma owner_code_inj o o' : owner_code o = owner_code o' -> o = o'.
Proof. destruct o, o'; cbn; congruence. Qed.
