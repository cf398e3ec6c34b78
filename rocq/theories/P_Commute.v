(** * Property C88: calls on different regions can be exchanged. *)
From Coq Require Import NArith ZArith Lia Bool List.
From Coq Require Import ZifyBool ZifyNat ZifyN.
From Verif Require Import Word Machine ModelInl ModelBoot ModelApi Lib BootProofs SpecGeometry GeomProofs SpecMonitor
  SpecHistory ViewProofs SeqProofs SeqCalls HistoryProofs HistoryFacts P_Boot P_Regions SpecCommute.
Import ListNotations.
Open Scope N_scope.

(** What a call about [r] depends on. *)
Definition same_for (cores r : N) (M N : mstate) : Prop :=
  m_owner M r = m_owner N r /\ m_blocked_at M r = m_blocked_at N r /\
  (forall c, c < cores -> m_flushed M c = m_flushed N c) /\
  m_stuck M = m_stuck N /\ m_dma_start M = m_dma_start N /\ m_dma_end M = m_dma_end N.
(** A successful block. *)
Definition blocked (k : call) (v : N) : bool := match k with CBlock _ => v =? 0 | _ => false end.
(** A successful block or assignment: the core's access register is loaded. *)
Definition loads (k : call) (v : N) : bool := match k with CBlock _ | CAssign _ _ => v =? 0 | _ => false end.

Section Effects.
Variables (pb rb cores dram : N).
Notation eff := (effect pb rb cores dram).

Lemma effect_frame c k r v M M' : about k r -> eff (ECall c k) v M M' ->
  (forall q, q <> r -> m_owner M' q = m_owner M q /\ m_blocked_at M' q = m_blocked_at M q) /\
  m_flushed M' = m_flushed M /\ m_stuck M' = m_stuck M /\ m_dma_start M' = m_dma_start M /\
  m_dma_end M' = m_dma_end M /\
  m_clock M' = (if blocked k v then (m_clock M + 1) mod W64 else m_clock M) /\
  (blocked k v = false -> m_blocked_at M' r = m_blocked_at M r) /\
  (forall q x, m_access M' q x = if loads k v && (q =? c) then is_os (m_owner M' x) else m_access M q x).
Proof.
  intros A E. destruct k; try contradiction; cbn [about] in A; subst; cbn [effect blocked loads] in *.
  2,3,4: destruct E as [-> ->]; cbn; tauto.
  - unfold block_table in E. destruct (_ || _); [inversion E; subst; cbn; tauto|].
    destruct (m_owner M r) eqn:O; try (inversion E; subst; cbn; tauto).
    destruct (m_stuck M) eqn:S; [inversion E; subst; cbn; rewrite S; tauto|].
    destruct (touches _ _ _ _); inversion E; subst; [cbn; rewrite S; tauto|].
    cbn. split; [|split; [reflexivity|split; [exact S|]]].
    + intros q Q. unfold upd. destruct (N.eqb_spec q r); [contradiction|auto].
    + do 3 (split; [reflexivity|]). split; [discriminate|]. intros q x. unfold upd at 1. destruct (q =? c); reflexivity.
  - unfold create_metadata_table in E. destruct (_ <=? _); [inversion E; subst; cbn; tauto|].
    destruct (taken M r); [inversion E; subst; cbn; tauto|].
    destruct (m_owner M r); inversion E; subst; try (cbn; tauto). cbn.
    split; [|tauto]. intros q Q. unfold upd. destruct (N.eqb_spec q r); [contradiction|auto].
  - unfold assign_table in E. destruct (_ <=? _); [inversion E; subst; cbn; tauto|].
    destruct (taken M r); [inversion E; subst; cbn; tauto|].
    destruct (m_owner M r); try (inversion E; subst; cbn; tauto).
    destruct (_ || _); [inversion E; subst; cbn; tauto|]. destruct (_ =? 0); inversion E; subst; [|cbn; tauto].
    cbn. split; [|do 4 (split; [reflexivity|])].
    + intros q Q. unfold upd. destruct (N.eqb_spec q r); [contradiction|auto].
    + split; [reflexivity|]. split; [reflexivity|]. intros q x. unfold upd at 1. destruct (q =? c); reflexivity.
  - unfold free_table in E. destruct (_ <=? _); [inversion E; subst; cbn; tauto|].
    destruct (taken M r); [inversion E; subst; cbn; tauto|].
    assert (T : forall o, upd (m_owner M) r o = upd (m_owner M) r o) by reflexivity.
    destruct (m_owner M r); try (inversion E; subst; cbn; tauto).
    + destruct (all_flushed _ _ _); inversion E; subst; [|cbn; tauto]. cbn.
      split; [|tauto]. intros q Q. unfold upd. destruct (N.eqb_spec q r); [contradiction|auto].
    + inversion E; subst. cbn.
      split; [|tauto]. intros q Q. unfold upd. destruct (N.eqb_spec q r); [contradiction|auto].
Qed.

Lemma effect_os c k r v M M' : about k r -> eff (ECall c k) v M M' -> loads k v = false ->
  forall q, is_os (m_owner M' q) = is_os (m_owner M q).
Proof.
  intros A E L q. destruct k; try contradiction; cbn [about] in A; subst; cbn [effect loads] in *.
  2,3,4: destruct E as [-> ->]; reflexivity.
  - apply block_inv in E as [[_ ->]|(-> & _)]; [reflexivity|discriminate L].
  - apply create_inv in E as [[_ ->]|(_ & _ & O & ->)]; [reflexivity|]. cbn. unfold upd.
    destruct (N.eqb_spec q r) as [->|]; [rewrite O|]; reflexivity.
  - apply assign_inv in E as [[_ ->]|(-> & _)]; [reflexivity|discriminate L].
  - apply free_inv in E as [[_ ->]|(_ & _ & -> & O)]; [reflexivity|]. cbn. unfold upd.
    destruct (N.eqb_spec q r) as [->|]; [|reflexivity]. destruct O as [[O _]|O]; rewrite O; reflexivity.
Qed.

Lemma effect_local c k r v w M M' N N' : about k r -> same_for cores r M N ->
  eff (ECall c k) v M M' -> eff (ECall c k) w N N' -> v = w /\ m_owner M' r = m_owner N' r.
Proof.
  intros A (O & B & F & S & D1 & D2) E1 E2.
  destruct k; try contradiction; cbn [about] in A; subst; cbn [effect] in *.
  - unfold block_table in *. rewrite <- O, <- S, <- D1, <- D2 in E2. destruct (_ || _); [inversion E1; inversion E2; subst; auto|].
    destruct (m_owner M r) eqn:OM; try (inversion E1; inversion E2; subst; split; congruence).
    destruct (m_stuck M); [inversion E1; inversion E2; subst; split; congruence|].
    destruct (touches _ _ _ _); inversion E1; inversion E2; subst; split; try congruence.
    cbn. unfold upd. rewrite N.eqb_refl. reflexivity.
  - destruct E1 as [-> ->], E2 as [-> ->]. unfold check_ownership_table. rewrite O. auto.
  - destruct E1 as [-> ->], E2 as [-> ->]. unfold state_table, taken. rewrite O, S. auto.
  - destruct E1 as [-> ->], E2 as [-> ->]. unfold owner_table, taken. rewrite O, S. auto.
  - unfold create_metadata_table, taken in *. rewrite <- O, <- S in E2. destruct (_ <=? _); [inversion E1; inversion E2; subst; auto|].
    destruct (_ && _); [inversion E1; inversion E2; subst; auto|].
    destruct (m_owner M r) eqn:OM; inversion E1; inversion E2; subst; split; try congruence.
    cbn. unfold upd. rewrite N.eqb_refl. reflexivity.
  - unfold assign_table, taken in *. rewrite <- O, <- S in E2. destruct (_ <=? _); [inversion E1; inversion E2; subst; auto|].
    destruct (_ && _) in *; [inversion E1; inversion E2; subst; auto|].
    destruct (m_owner M r) eqn:OM; try (inversion E1; inversion E2; subst; split; congruence).
    destruct (_ || _); [inversion E1; inversion E2; subst; split; congruence|].
    destruct (_ =? 0) in *; inversion E1; inversion E2; subst; split; try congruence.
    cbn. unfold upd. rewrite N.eqb_refl. reflexivity.
  - assert (AF : all_flushed cores N r = all_flushed cores M r).
    { unfold all_flushed. assert (FA : forall l, (forall i, In i l -> N.of_nat i < cores) ->
        forallb (fun c0 => m_blocked_at N r <=? m_flushed N (N.of_nat c0)) l =
        forallb (fun c0 => m_blocked_at M r <=? m_flushed M (N.of_nat c0)) l).
      { induction l as [|i l IH]; intros H; [reflexivity|]. cbn [forallb]. rewrite IH by (intros; apply H; right; assumption).
        rewrite B, F by (apply H; left; reflexivity). reflexivity. }
      apply FA. intros i I. apply in_seq in I. lia. }
    unfold free_table, taken in *. rewrite <- O, <- S, AF in E2. destruct (_ <=? _); [inversion E1; inversion E2; subst; auto|].
    destruct (_ && _); [inversion E1; inversion E2; subst; auto|].
    destruct (m_owner M r) eqn:OM; try (inversion E1; inversion E2; subst; split; congruence).
    + destruct (all_flushed _ _ _); inversion E1; inversion E2; subst; split; try congruence.
      cbn. unfold upd. rewrite N.eqb_refl. reflexivity.
    + inversion E1; inversion E2; subst; split; try congruence.
      cbn. unfold upd. rewrite N.eqb_refl. reflexivity.
Qed.

Lemma exchange c1 c2 k1 k2 r1 r2 v1 v2 w1 w2 M M1 M12 M2 M21 : about k1 r1 -> about k2 r2 -> r1 <> r2 ->
  eff (ECall c1 k1) v1 M M1 -> eff (ECall c2 k2) v2 M1 M12 ->
  eff (ECall c2 k2) w2 M M2 -> eff (ECall c1 k1) w1 M2 M21 ->
  v1 = w1 /\ v2 = w2 /\ (forall q, m_owner M12 q = m_owner M21 q) /\ m_clock M12 = m_clock M21 /\
  m_flushed M12 = m_flushed M21 /\ m_stuck M12 = m_stuck M21 /\ m_dma_start M12 = m_dma_start M21 /\
  m_dma_end M12 = m_dma_end M21 /\
  (blocked k1 v1 && blocked k2 v2 = false -> forall q, m_blocked_at M12 q = m_blocked_at M21 q) /\
  (forall c, (c1 = c2 \/ c <> c1 /\ c <> c2) -> forall q, m_access M12 c q = m_access M21 c q).
Proof.
  intros A1 A2 NE E1 E12 E2 E21.
  destruct (effect_frame _ _ _ _ _ _ A1 E1) as (F1 & F1b & F1c & F1d & F1e & F1f & F1g & F1h).
  destruct (effect_frame _ _ _ _ _ _ A2 E12) as (G1 & G1b & G1c & G1d & G1e & G1f & G1g & G1h).
  destruct (effect_frame _ _ _ _ _ _ A2 E2) as (F2 & F2b & F2c & F2d & F2e & F2f & F2g & F2h).
  destruct (effect_frame _ _ _ _ _ _ A1 E21) as (G2 & G2b & G2c & G2d & G2e & G2f & G2g & G2h).
  assert (S1 : same_for cores r1 M M2).
  { destruct (F2 r1 NE) as [X Y]. unfold same_for. rewrite X, Y, F2b, F2c, F2d, F2e. do 5 (split; [reflexivity|]). reflexivity. }
  assert (S2 : same_for cores r2 M1 M).
  { destruct (F1 r2 (fun e => NE (eq_sym e))) as [X Y]. unfold same_for. rewrite X, Y, F1b, F1c, F1d, F1e. do 5 (split; [reflexivity|]). reflexivity. }
  destruct (effect_local _ _ _ _ _ _ _ _ _ A1 S1 E1 E21) as [V1 O1].
  destruct (effect_local _ _ _ _ _ _ _ _ _ A2 S2 E12 E2) as [V2 O2].
  subst w1 w2.
  assert (OW : forall q, m_owner M12 q = m_owner M21 q).
  { intros q. destruct (N.eq_dec q r1) as [->|N1].
    - destruct (G1 r1 NE) as [-> _]. exact O1.
    - destruct (N.eq_dec q r2) as [->|N2].
      + destruct (G2 r2 N1) as [-> _]. exact O2.
      + destruct (G1 q N2) as [-> _]. destruct (F1 q N1) as [-> _].
        destruct (G2 q N1) as [-> _]. destruct (F2 q N2) as [-> _]. reflexivity. }
  split; [reflexivity|]. split; [reflexivity|]. split; [exact OW|].
  split. { rewrite G1f, F1f, G2f, F2f. destruct (blocked k1 v1), (blocked k2 v2); reflexivity. }
  split; [congruence|]. split; [congruence|]. split; [congruence|]. split; [congruence|].
  split.
  - intros B q. destruct (N.eq_dec q r1) as [->|N1].
    + destruct (G1 r1 NE) as [_ ->]. destruct (F2 r1 NE) as [_ X].
      destruct (blocked k1 v1) eqn:BK; [|rewrite (F1g eq_refl), (G2g eq_refl); symmetry; exact X].
      destruct k1; try discriminate BK. cbn [blocked] in BK. apply N.eqb_eq in BK. subst v1.
      cbn [about] in A1. subst. cbn [effect] in E1, E21.
      destruct (block_inv _ _ _ _ _ _ _ E1) as [[X0 _]|(_ & _ & _ & _ & _ & _ & ->)]; [elim X0; reflexivity|].
      destruct (block_inv _ _ _ _ _ _ _ E21) as [[X0 _]|(_ & _ & _ & _ & _ & _ & ->)]; [elim X0; reflexivity|]. cbn. unfold upd. rewrite !N.eqb_refl.
      cbn [andb] in B. rewrite F2f, B. reflexivity.
    + destruct (N.eq_dec q r2) as [->|N2].
      * destruct (G2 r2 N1) as [_ ->]. destruct (F1 r2 N1) as [_ X].
        destruct (blocked k2 v2) eqn:BK; [|rewrite (F2g eq_refl), (G1g eq_refl); exact X].
        destruct k2; try discriminate BK. cbn [blocked] in BK. apply N.eqb_eq in BK. subst v2.
        cbn [about] in A2. subst. cbn [effect] in E2, E12.
        destruct (block_inv _ _ _ _ _ _ _ E2) as [[X0 _]|(_ & _ & _ & _ & _ & _ & ->)]; [elim X0; reflexivity|].
        destruct (block_inv _ _ _ _ _ _ _ E12) as [[X0 _]|(_ & _ & _ & _ & _ & _ & ->)]; [elim X0; reflexivity|]. cbn. unfold upd. rewrite !N.eqb_refl.
        rewrite andb_true_r in B. rewrite F1f, B. reflexivity.
      * destruct (G1 q N2) as [_ ->]. destruct (F1 q N1) as [_ ->].
        destruct (G2 q N1) as [_ ->]. destruct (F2 q N2) as [_ ->]. reflexivity.
  - intros c C q. rewrite G1h, G2h. destruct C as [->|[N1 N2]].
    + rewrite F1h, F2h. pose proof (effect_os _ _ _ _ _ _ A2 E12) as P2. pose proof (effect_os _ _ _ _ _ _ A1 E21) as P1.
      pose proof (OW q) as OQ.
      destruct (loads k1 v1) eqn:L1, (loads k2 v2) eqn:L2, (c =? c2); cbn [andb]; try reflexivity; try (rewrite OQ; reflexivity).
      * rewrite <- (P2 eq_refl). rewrite OQ. reflexivity.
      * rewrite <- (P1 eq_refl). rewrite OQ. reflexivity.
    + rewrite F1h, F2h. destruct (N.eqb_spec c c1); [contradiction|]. destruct (N.eqb_spec c c2); [contradiction|].
      rewrite !andb_false_r. reflexivity.
Qed.
End Effects.

(** In every reachable state two calls about different regions, made by any two cores one
    after the other, give the same results in either order, and leave the same owners,
    locks, bitmap, clock, flush times and DMA range; also the same block times unless both
    are successful blocks (whose times are then exchanged), and the same accessible regions
    on every core that did not take part, or on all if one core made both calls. *)
Theorem C88_exchange : forall P top pb rb G s c1 c2 k1 k2 r1 r2, reachable P top pb rb G s ->
  c1 < g_core_count G -> c2 < g_core_count G -> call_args_ok k1 -> call_args_ok k2 ->
  about k1 r1 -> about k2 r2 -> r1 <> r2 ->
  exists s1 s12 s2 s21 v1 v2,
    do_call G c1 k1 s = (s1, Some v1) /\ do_call G c2 k2 s1 = (s12, Some v2) /\
    do_call G c2 k2 s = (s2, Some v2) /\ do_call G c1 k1 s2 = (s21, Some v1) /\
    same_regions G s12 s21 /\
    (v1 <> ok \/ v2 <> ok \/ k1 <> CBlock r1 \/ k2 <> CBlock r2 ->
       forall r, r < g_dram_region_count G -> same_block_time G s12 s21 r) /\
    (forall c, c < g_core_count G -> c1 = c2 \/ c <> c1 /\ c <> c2 -> same_access G s12 s21 c).
Proof.
  intros P top pb rb G s c1 c2 k1 k2 r1 r2 (s0 & h & ST & HI) C1 C2 K1 K2 A1 A2 NE.
  destruct (started_geom _ _ _ _ _ _ ST) as [g HD].
  destruct (reach_shows P top pb rb G s) as (_ & _ & M & K); [exists s0, h; auto|].
  assert (Q1 : seq_call G pb rb k1) by (destruct k1; try contradiction; exact Logic.I).
  assert (Q2 : seq_call G pb rb k2) by (destruct k2; try contradiction; exact Logic.I).
  destruct (call_refines G pb rb g HD s M c1 k1 K C1 K1 Q1) as (s1 & v1 & M1 & R1 & E1 & S1 & _).
  destruct (call_refines G pb rb g HD s1 M1 c2 k2 S1 C2 K2 Q2) as (s12 & v2 & M12 & R12 & E12 & S12 & _).
  destruct (call_refines G pb rb g HD s M c2 k2 K C2 K2 Q2) as (s2 & w2 & M2 & R2 & E2 & S2 & _).
  destruct (call_refines G pb rb g HD s2 M2 c1 k1 S2 C1 K1 Q1) as (s21 & w1 & M21 & R21 & E21 & S21 & _).
  destruct (exchange _ _ _ _ _ _ _ _ _ _ _ _ _ _ _ _ _ _ _ A1 A2 NE E1 E12 E2 E21)
    as (<- & <- & OW & CK & FL & SK & D1 & D2 & BT & AC).
  exists s1, s12, s2, s21, v1, v2. do 4 (split; [assumption|]). split; [|split].
  - constructor.
    + intros r R. rewrite (sh_owner _ _ _ S12), (sh_owner _ _ _ S21), OW by exact R. reflexivity.
    + intros r R. rewrite (sh_lock _ _ _ S12), (sh_lock _ _ _ S21), SK by exact R. reflexivity.
    + intros r R. pose proof (sh_bit _ _ _ S12 r R) as B1. pose proof (sh_bit _ _ _ S21 r R) as B2.
      rewrite OW in B1. apply eq_true_iff_eq. rewrite B1, B2. reflexivity.
    + rewrite (sh_clock _ _ _ S12), (sh_clock _ _ _ S21). exact CK.
    + intros c C. rewrite (sh_flushed _ _ _ S12), (sh_flushed _ _ _ S21), FL by exact C. reflexivity.
    + rewrite (sh_dma_start _ _ _ S12), (sh_dma_start _ _ _ S21). exact D1.
    + rewrite (sh_dma_end _ _ _ S12), (sh_dma_end _ _ _ S21). exact D2.
  - intros H r R. unfold same_block_time. rewrite (sh_blocked _ _ _ S12), (sh_blocked _ _ _ S21) by exact R.
    apply BT. destruct (blocked k1 v1) eqn:B1; [|reflexivity]. destruct (blocked k2 v2) eqn:B2; [|reflexivity].
    destruct k1; try discriminate B1. destruct k2; try discriminate B2. cbn [about blocked] in *.
    apply N.eqb_eq in B1, B2. subst. destruct H as [H|[H|[H|H]]]; elim H; reflexivity.
  - intros c C X r R. rewrite (sh_access _ _ _ S12), (sh_access _ _ _ S21) by assumption. apply AC. exact X.
Qed.

(** In two reachable states of a machine that agree on region [r] (its owner and block
    time), on the flush times, the DMA range and the lock of region 0, a call about [r] gives
    the same result and the same new owner of [r], whatever the state of the other regions
    and of memory. *)
Theorem C88_local : forall P top pb rb G s s' c k r, reachable P top pb rb G s ->
  reachable P top pb rb G s' -> c < g_core_count G -> call_args_ok k -> about k r ->
  r < g_dram_region_count G ->
  owner_of G s r = owner_of G s' r -> blocked_at_of G s r = blocked_at_of G s' r ->
  (forall c', c' < g_core_count G -> flushed_of G s c' = flushed_of G s' c') ->
  s_dma_start s = s_dma_start s' -> s_dma_end s = s_dma_end s' ->
  lock_of G s 0 = lock_of G s' 0 ->
  exists s1 s1' v, do_call G c k s = (s1, Some v) /\ do_call G c k s' = (s1', Some v) /\
    owner_of G s1 r = owner_of G s1' r.
Proof.
  intros P top pb rb G s s' c k r RE RE' C A AB R O B F D1 D2 L.
  destruct (reach_shows P top pb rb G s RE) as (g & HD & M & K).
  destruct (reach_shows P top pb rb G s' RE') as (_ & _ & N & K').
  assert (Q : seq_call G pb rb k) by (destruct k; try contradiction; exact Logic.I).
  destruct (call_refines G pb rb g HD s M c k K C A Q) as (s1 & v1 & M1 & R1 & E1 & S1 & _).
  destruct (call_refines G pb rb g HD s' N c k K' C A Q) as (s2 & v2 & M2 & R2 & E2 & S2 & _).
  assert (SF : same_for (g_core_count G) r M N).
  { unfold same_for. rewrite (sh_owner _ _ _ K), (sh_owner _ _ _ K') in O by exact R.
    rewrite (sh_blocked _ _ _ K), (sh_blocked _ _ _ K') in B by exact R.
    rewrite (sh_dma_start _ _ _ K), (sh_dma_start _ _ _ K') in D1.
    rewrite (sh_dma_end _ _ _ K), (sh_dma_end _ _ _ K') in D2.
    assert (Z : 0 < g_dram_region_count G) by lia.
    rewrite (sh_lock _ _ _ K), (sh_lock _ _ _ K') in L by exact Z.
    split; [destruct (m_owner M r), (m_owner N r); try reflexivity; discriminate O|].
    split; [exact B|]. split.
    { intros c' C'. specialize (F c' C'). rewrite (sh_flushed _ _ _ K), (sh_flushed _ _ _ K') in F by exact C'. exact F. }
    split; [cbn [N.eqb andb] in L; destruct (m_stuck M), (m_stuck N); try reflexivity; discriminate L|].
    split; assumption. }
  destruct (effect_local _ _ _ _ _ _ _ _ _ _ _ _ _ AB SF E1 E2) as [V OW].
  subst v2. exists s1, s2, v1. split; [exact R1|]. split; [exact R2|].
  rewrite (sh_owner _ _ _ S1), (sh_owner _ _ _ S2), OW by exact R. reflexivity.
Qed.

(** Core 0 blocks region 5, core 1 blocks region 6, in either order; and then core 1 frees
    region 5 while core 0 asks about region 6. *)
Definition after (l : list (N * call)) (s : state) : state :=
  fold_left (fun s x => fst (do_call ex_G (fst x) (snd x) s)) l s.
Example C88_example :
  let s12 := after [(0, CBlock 5); (1, CBlock 6)] ex_s0 in
  let s21 := after [(1, CBlock 6); (0, CBlock 5)] ex_s0 in
  reachable ex_platform 0 6 4 ex_G ex_s0 /\ about (CBlock 5) 5 /\ about (CBlock 6) 6 /\
  call_args_ok (CBlock 5) /\ call_args_ok (CBlock 6) /\
  owner_of ex_G s12 5 = 1 /\ owner_of ex_G s21 5 = 1 /\ owner_of ex_G s12 6 = 1 /\ owner_of ex_G s21 6 = 1 /\
  clock_of ex_G s12 = 2 /\ clock_of ex_G s21 = 2 /\
  (* the block times are exchanged, and core 0 was left with access to region 6 in one order *)
  blocked_at_of ex_G s12 5 = 0 /\ blocked_at_of ex_G s21 5 = 1 /\
  drb_bit (s_cores s12 0) 6 = true /\ drb_bit (s_cores s21 0) 6 = false.
Proof.
  cbv zeta. split; [apply reach_start, ex_started|]. split; [reflexivity|]. split; [reflexivity|].
  do 11 (split; [vm_compute; reflexivity|]). vm_compute; reflexivity.
Qed.

(** Region 6 before and after region 5 was blocked. *)
Example C88_local_example : let s' := after [(0, CBlock 5)] ex_s0 in
  reachable ex_platform 0 6 4 ex_G ex_s0 /\ reachable ex_platform 0 6 4 ex_G s' /\
  owner_of ex_G ex_s0 6 = owner_of ex_G s' 6 /\ blocked_at_of ex_G ex_s0 6 = blocked_at_of ex_G s' 6 /\
  (forall c, c < g_core_count ex_G -> flushed_of ex_G ex_s0 c = flushed_of ex_G s' c) /\
  s_dma_start ex_s0 = s_dma_start s' /\ s_dma_end ex_s0 = s_dma_end s' /\
  lock_of ex_G ex_s0 0 = lock_of ex_G s' 0 /\ clock_of ex_G ex_s0 <> clock_of ex_G s'.
Proof.
  cbv zeta. split; [apply reach_start, ex_started|]. split.
  { exists ex_s0, ([] ++ [(ECall 0 (CBlock 5), 0)]). split; [exact ex_started|].
    econstructor; [constructor|]. constructor; [reflexivity|vm_compute; reflexivity|exact Logic.I|].
    unfold after. cbn [fold_left fst snd]. apply call_val. vm_compute. reflexivity. }
  split; [vm_compute; reflexivity|]. split; [vm_compute; reflexivity|]. split.
  { intros c C. change (g_core_count ex_G) with 2 in C.
    assert (X : c = 0 \/ c = 1) by lia. destruct X as [-> | ->]; vm_compute; reflexivity. }
  do 3 (split; [vm_compute; reflexivity|]). vm_compute. discriminate.
Qed.

Definition P_Commute_theorems := (C88_exchange, C88_local, C88_example, C88_local_example).
Print Assumptions P_Commute_theorems.
