(** * Properties C76, C77: calls on different cores behave as if executed one at
    a time.

    accept_thread and copy_debug_enclave_page over the monitor (C48, C49) are left
    out; therefore the theorems are named _partial. *)
From Coq Require Import NArith ZArith Lia Bool List.
From Coq Require Import ZifyBool ZifyNat ZifyN.
From Verif Require Import Word Machine ModelBare ModelHash ModelInl ModelRegions
  ModelMetadata ModelEnclave ModelBoot ModelApi Lib BareProofs BootProofs SpecGeometry
  GeomProofs Trace SpecMonitor SpecHistory SpecConcurrent ViewProofs SeqProofs SeqCalls
  HistoryProofs P_Boot P_Regions ConcProofs ConcGlobal P_Conc SpecLinear LinProofs LinGlobal.
Import ListNotations.
Open Scope N_scope.
Ltac Zify.zify_post_hook ::= Z.div_mod_to_equations.

(** ** C76 *)
(** Whatever is observed of an interleaved execution is observed of the machine
    that executes calls atomically, between their start and their return.  Both
    have the same calls in progress; their states agree wherever no lock is held,
    and entirely when no call is in progress. *)
Theorem C76_linearizable_partial : forall P top pb rb G s0 (allowed : call -> Prop),
  started P top pb rb G s0 -> (forall k, allowed k -> safe_call G k) ->
  exists access, shows G s0 (boot_mstate access (g_monitor_top G)) /\
  forall l x, observed G pb rb allowed s0 l x ->
  exists H M st,
    atomic pb rb (g_core_count G) (g_dram_size G) (boot_mstate access (g_monitor_top G)) l H M st /\
    (forall c, st c = NoCall <-> cf_task x c = Idle) /\
    (forall r, r < g_dram_region_count G -> lock_of G (cf_state x) r = 0 ->
       owner_of G (cf_state x) r = owner_code (m_owner M r) /\
       blocked_at_of G (cf_state x) r = m_blocked_at M r) /\
    clock_of G (cf_state x) = m_clock M /\
    (forall c, c < g_core_count G -> flushed_of G (cf_state x) c = m_flushed M c) /\
    (quiet G x -> shows G (cf_state x) M).
Proof.
  intros P top pb rb G s0 allowed ST AL.
  destruct (started_geom _ _ _ _ _ _ ST) as [g HD].
  destruct (started_shows _ _ _ _ _ _ ST) as [ac [c0 [C0 [_ K]]]].
  exists ac. split; [exact K|]. intros l x OB.
  destruct (observed_atomic G pb rb g allowed AL s0 (boot_mstate ac (g_monitor_top G))) with (l := l) (x := x)
    as (H & M & st & o & hd & AT & LG); auto.
  { exists (view_of G s0), (fun _ => None). eapply lgood_boot; eauto. }
  exists H, M, st. split; [exact AT|]. split.
  { intros c. pose proof (lg_task _ _ _ _ _ _ _ _ LG c) as TC. destruct (cf_task x c) as [|k p i]; cbn in TC.
    - tauto.
    - destruct TC as (_ & t0 & so & E & _). rewrite E. destruct so; split; discriminate. }
  split; [intros r R LF; eapply lgood_free; eauto|].
  destruct (lgood_clock G pb rb x o hd M st LG) as [E1 E2].
  split; [exact E1|]. split; [exact E2|].
  intros Q. eapply lgood_quiet; eauto.
Qed.

(** Every execution is observed. *)
Theorem C76_all_executions : forall G pb rb allowed s0 x,
  creach G pb rb allowed true s0 x <-> exists l, observed G pb rb allowed s0 l x.
Proof. intros. apply reach_observed. Qed.

(** ** C77: counting winners *)
Section Count.
Variables (pb rb cores dram : N) (M0 : mstate).
Local Notation atomic := (atomic pb rb cores dram M0).
Definition wait (p : call -> bool) (D : list (N * status)) : nat :=
  length (filter (fun e => match snd e with Waiting k _ => p k | _ => false end) D).
Definition done (p : call -> bool) (v : N) (D : list (N * status)) : nat :=
  length (filter (fun e => match snd e with Done k w => p k && (w =? v) | _ => false end) D).
Definition took (p : call -> bool) (H : list (event * N)) : nat :=
  length (filter (fun e => match fst e with ECall _ k => p k | _ => false end) H).
Definition tookv (p : call -> bool) (v : N) (H : list (event * N)) : nat :=
  length (filter (fun e => match fst e with ECall _ k => p k && (snd e =? v) | _ => false end) H).
Lemma app_count {A} (f : A -> bool) a b : length (filter f (a ++ b)) = (length (filter f a) + length (filter f b))%nat.
Proof. rewrite filter_app, app_length. reflexivity. Qed.

Lemma pending l H M st : atomic l H M st -> exists D,
  NoDup (map fst D) /\ (forall c s, In (c, s) D <-> st c = s /\ s <> NoCall) /\
  forall p, starts p l = (took p H + wait p D)%nat /\
    forall v, tookv p v H = (finishes p v l + done p v D)%nat.
Proof.
  induction 1 as [|l H M st c k AT IH SC|l H M st c k t v M' AT IH SC TE|l H M st c k v AT IH SC].
  - exists []. split; [constructor|]. split; [intros c s; cbn; split; [tauto|intros [<- X]; congruence]|].
    intros p. split; reflexivity.
  - destruct IH as (D & ND & IN & CN). exists ((c, Waiting k (m_clock M)) :: D). split; [|split].
    + cbn. constructor; [|exact ND]. intros X. apply in_map_iff in X. destruct X as [[c' s] [E Y]].
      cbn in E. subst c'. apply IN in Y. destruct Y; congruence.
    + intros c' s. cbn. rewrite IN. unfold upd. destruct (N.eqb_spec c' c) as [->|NE].
      * split; [intros [E|[E1 E2]]; [inversion E; split; [reflexivity|discriminate]|congruence]|].
        intros [<- _]. auto.
      * split; [intros [E|E]; [inversion E; congruence|exact E]|auto].
    + intros p. destruct (CN p) as [C1 C2]. unfold starts, finishes in *. split.
      * rewrite app_count, C1. unfold wait. cbn. destruct (p k); cbn; lia.
      * intros v. rewrite app_count, (C2 v). unfold done. cbn. lia.
  - destruct IH as (D & ND & IN & CN).
    assert (X : In (c, Waiting k t) D) by (apply IN; split; [exact SC|discriminate]).
    apply in_split in X. destruct X as (D1 & D2 & ->).
    rewrite map_app in ND. cbn in ND. pose proof (NoDup_remove_2 _ _ _ ND) as NI.
    apply NoDup_remove_1 in ND. rewrite <- map_app in ND, NI.
    assert (NN : forall s, ~ In (c, s) (D1 ++ D2)).
    { intros s Y. apply NI. apply in_map_iff. exists (c, s). auto. }
    exists ((c, Done k v) :: D1 ++ D2). split; [|split].
    + cbn. constructor; auto.
    + intros c' s. specialize (IN c' s). cbn [In]. unfold upd. destruct (N.eqb_spec c' c) as [->|NE].
      * split; [intros [E|E]; [inversion E; split; [reflexivity|discriminate]|destruct (NN _ E)]|].
        intros [<- _]. auto.
      * rewrite <- IN. rewrite !in_app_iff. cbn [In]. split; [intros [E|[E|E]]; auto; inversion E; congruence|].
        intros [E|[E|E]]; auto. inversion E; congruence.
    + intros p. destruct (CN p) as [C1 C2]. unfold wait, done, took, tookv in *. split.
      * rewrite !app_count in *. cbn [filter snd length fst] in *.
        destruct (p k); cbn [length] in *; rewrite ?app_count in *; lia.
      * intros w. specialize (C2 w). rewrite !app_count in *. cbn [filter snd length fst] in *.
        destruct (p k && (v =? w)); cbn [length] in *; rewrite ?app_count in *; lia.
  - destruct IH as (D & ND & IN & CN).
    assert (X : In (c, Done k v) D) by (apply IN; split; [exact SC|discriminate]).
    apply in_split in X. destruct X as (D1 & D2 & ->).
    rewrite map_app in ND. cbn in ND. pose proof (NoDup_remove_2 _ _ _ ND) as NI.
    apply NoDup_remove_1 in ND. rewrite <- map_app in ND, NI.
    assert (NN : forall s, ~ In (c, s) (D1 ++ D2)).
    { intros s Y. apply NI. apply in_map_iff. exists (c, s). auto. }
    exists (D1 ++ D2). split; [exact ND|]. split.
    + intros c' s. specialize (IN c' s). unfold upd. destruct (N.eqb_spec c' c) as [->|NE].
      * split; [intros E; destruct (NN _ E)|]. intros [<- Y]. congruence.
      * rewrite <- IN. rewrite !in_app_iff. cbn [In]. split; [tauto|].
        intros [E|[E|E]]; auto. inversion E; congruence.
    + intros p. destruct (CN p) as [C1 C2]. unfold starts, finishes, wait, done in *. split.
      * rewrite !app_count in *. cbn [filter snd length fst] in *. lia.
      * intros w. specialize (C2 w). rewrite !app_count in *. cbn [filter snd length fst] in *.
        destruct (p k && (v =? w)); cbn [length] in *; lia.
Qed.
Lemma tookv_took p v H : (tookv p v H <= took p H)%nat.
Proof.
  unfold tookv, took. induction H as [|[e w] H IH]; cbn; [lia|].
  destruct e as [c k| |]; cbn; try exact IH. destruct (p k); cbn; [|exact IH].
  destruct (w =? v); cbn; lia.
Qed.

(** How the successful calls of a region alternate. *)
Definition fits (r : N) (M : mstate) (H : list (event * N)) : Prop :=
  let B := tookv (block_of r) ok H in let A := tookv (assign_of r) ok H in
  let F := tookv (free_of r) ok H in let C := tookv (metadata_of r) ok H in
  match m_owner M r with
  | OS => B = A /\ F = (A + C)%nat
  | Blocked | Metadata => B = (A + 1)%nat /\ F = (A + C)%nat
  | Free => B = (A + 1)%nat /\ F = (A + C + 1)%nat
  end.
Lemma owner_counts r l H M st : atomic l H M st -> m_owner M0 r = OS -> fits r M H.
Proof.
  intros AT OW. induction AT as [|l H M st c k AT IH SC|l H M st c k t v M' AT IH SC TE|l H M st c k v AT IH SC]; auto.
  { unfold fits. rewrite OW. cbn. auto. }
  assert (SAME : M' = M -> (v <> ok \/ match k with CBlock _ | CAssign _ _ | CFree _ | CCreateMetadataRegion _ => False | _ => True end) ->
    fits r M' (H ++ [(ECall c k, v)])).
  { intros -> NV.
    assert (Z : forall p, (p = block_of r \/ p = assign_of r \/ p = free_of r \/ p = metadata_of r) ->
      tookv p ok (H ++ [(ECall c k, v)]) = tookv p ok H).
    { intros p PC. unfold tookv. rewrite app_count. cbn.
      assert (E : p k && (v =? ok) = false).
      { destruct (N.eqb_spec v ok) as [E|E]; [|apply andb_false_r]. destruct NV as [NV|NV]; [contradiction|].
        destruct k; try contradiction; destruct PC as [->|[->|[->| ->]]]; reflexivity. }
      rewrite E. cbn. lia. }
    unfold fits. cbv zeta. rewrite !Z by tauto. exact IH. }
  unfold fits in IH. cbv zeta in *.
  assert (STEP : forall p, tookv p ok (H ++ [(ECall c k, v)]) = (tookv p ok H + (if p k && N.eqb v ok then 1 else 0))%nat).
  { intros p. unfold tookv. rewrite app_count. cbn. destruct (p k && (v =? ok)); reflexivity. }
  destruct TE as [(_ & BS & EQ)|TE].
  { apply SAME; auto. destruct k; cbn in BS; try contradiction; auto; left; intros X; subst v; decompose [and] BS; discriminate. }
  destruct k; cbn in TE; try contradiction;
    try solve [apply SAME; auto | destruct TE as [_ TE]; apply SAME; auto].
  - (* block *)
    unfold block_table in TE. destruct (_ || _); [inversion TE; subst; apply SAME; auto; left; discriminate|].
    destruct (m_owner M dram_region) eqn:OR; try solve [inversion TE; subst; apply SAME; auto; left; discriminate].
    destruct (m_stuck M); [inversion TE; subst; apply SAME; auto; left; discriminate|]. destruct (touches _ _ _ _); [inversion TE; subst; apply SAME; auto; left; discriminate|].
    inversion TE; subst. unfold fits. cbn [m_stuck load_access tick set_owner m_owner]. cbv zeta.
    rewrite !STEP. cbn [block_of assign_of free_of metadata_of andb]. unfold upd.
    destruct (N.eqb_spec dram_region r) as [->|NE].
    + rewrite N.eqb_refl, OR in *. cbn. lia.
    + destruct (N.eqb_spec r dram_region); [congruence|]. cbn. destruct (m_owner M r); lia.
  - (* set_dma *)
    destruct TE as [(_ & -> & ->)|[(_ & _ & _ & _ & ->)|(_ & _ & _ & -> & ->)]]; [apply SAME; auto|apply SAME; auto|].
    unfold fits. cbn [m_stuck m_set_dma m_owner]. cbv zeta. rewrite !STEP. cbn. rewrite !Nat.add_0_r. exact IH.
  - (* create_metadata *)
    unfold create_metadata_table in TE. destruct (_ <=? _); [inversion TE; subst; apply SAME; auto; left; discriminate|].
    destruct (taken _ _); [inversion TE; subst; apply SAME; auto; left; discriminate|].
    destruct (m_owner M dram_region) eqn:OR; try solve [inversion TE; subst; apply SAME; auto; left; discriminate].
    inversion TE; subst. unfold fits. cbn [m_stuck load_access tick set_owner m_owner]. cbv zeta.
    rewrite !STEP. cbn [block_of assign_of free_of metadata_of andb]. unfold upd.
    destruct (N.eqb_spec dram_region r) as [->|NE].
    + rewrite N.eqb_refl, OR in *. cbn. lia.
    + destruct (N.eqb_spec r dram_region); [congruence|]. cbn. destruct (m_owner M r); lia.
  - (* assign to anyone *)
    unfold assign_table in TE. destruct (_ <=? _); [inversion TE; subst; apply SAME; auto; left; discriminate|].
    destruct (taken M dram_region); [inversion TE; subst; apply SAME; auto; left; discriminate|].
    destruct (m_owner M dram_region) eqn:OR; try solve [inversion TE; subst; apply SAME; auto; left; discriminate].
    destruct (_ || _); [inversion TE; subst; apply SAME; auto; left; discriminate|].
    destruct (_ =? 0); [|inversion TE; subst; apply SAME; auto; left; discriminate].
    inversion TE; subst. unfold fits. cbn [m_stuck load_access tick set_owner m_owner]. cbv zeta.
    rewrite !STEP. cbn [block_of assign_of free_of metadata_of andb]. unfold upd.
    destruct (N.eqb_spec dram_region r) as [->|NE].
    + rewrite N.eqb_refl, OR in *. cbn. lia.
    + destruct (N.eqb_spec r dram_region); [congruence|]. cbn. destruct (m_owner M r); lia.
  - (* free *)
    unfold free_table in TE. destruct (_ <=? _); [inversion TE; subst; apply SAME; auto; left; discriminate|].
    destruct (taken M dram_region); [inversion TE; subst; apply SAME; auto; left; discriminate|].
    assert (FR : (v, M') = (ok, set_owner M dram_region Free) ->
      (m_owner M dram_region = Blocked \/ m_owner M dram_region = Metadata) ->
      fits r M' (H ++ [(ECall c (CFree dram_region), v)])).
    { intros EQ OR. inversion EQ; subst. unfold fits. cbn [m_stuck load_access tick set_owner m_owner]. cbv zeta.
      rewrite !STEP. cbn [block_of assign_of free_of metadata_of andb]. unfold upd.
      destruct (N.eqb_spec dram_region r) as [->|NE].
      + rewrite N.eqb_refl. destruct OR as [OR|OR]; rewrite OR in IH; cbn; lia.
      + destruct (N.eqb_spec r dram_region); [congruence|]. cbn. destruct (m_owner M r); lia. }
    destruct (m_owner M dram_region) eqn:OR; try solve [inversion TE; subst; apply SAME; auto; left; discriminate]; auto.
    destruct (all_flushed _ _ _); [auto|inversion TE; subst; apply SAME; auto; left; discriminate].
  - (* flush *)
    destruct TE as [-> (t' & _ & ->)]. unfold fits. cbn [m_stuck flush_at m_owner]. cbv zeta.
    rewrite !STEP. cbn. rewrite !Nat.add_0_r. exact IH.
  - (* create_thread *)
    destruct TE as [[_ ->]|(_ & _ & ->)]; [apply SAME; auto|].
    unfold fits. cbn [m_stick m_owner]. cbv zeta. rewrite !STEP. cbn. rewrite !Nat.add_0_r. exact IH.
  - (* delete_thread *)
    destruct TE as [[_ ->]|(_ & _ & ->)]; [apply SAME; auto|].
    unfold fits. cbn [m_stick m_owner]. cbv zeta. rewrite !STEP. cbn. rewrite !Nat.add_0_r. exact IH.
Qed.
End Count.

(** The machine that executes calls atomically keeps the counts. *)
Lemma winners pb rb cores dram M0 l H M st r : (forall q, m_owner M0 q = OS) ->
  atomic pb rb cores dram M0 l H M st ->
  (finishes (block_of r) ok l <= starts (assign_of r) l + 1)%nat /\
  (finishes (assign_of r) ok l + finishes (metadata_of r) ok l <= starts (free_of r) l)%nat /\
  (finishes (free_of r) ok l <= starts (assign_of r) l + starts (metadata_of r) l + 1)%nat /\
  (finishes (assign_of r) ok l <= starts (block_of r) l)%nat.
Proof.
  intros M0S AT.
  pose proof (owner_counts _ _ _ _ _ r _ _ _ _ AT (M0S r)) as FT.
  destruct (pending _ _ _ _ _ _ _ _ _ AT) as (D & _ & _ & CN).
  destruct (CN (block_of r)) as [B1 B2]. specialize (B2 ok).
  destruct (CN (assign_of r)) as [A1 A2]. specialize (A2 ok).
  destruct (CN (free_of r)) as [F1 F2]. specialize (F2 ok).
  destruct (CN (metadata_of r)) as [C1 C2]. specialize (C2 ok).
  pose proof (tookv_took (block_of r) ok H). pose proof (tookv_took (assign_of r) ok H).
  pose proof (tookv_took (free_of r) ok H). pose proof (tookv_took (metadata_of r) ok H).
  unfold fits in FT. cbv zeta in FT. destruct (m_owner M r); lia.
Qed.

(** Of the calls on a region that are made while others are in progress, only as
    many succeed as if they had been made one after the other: one block more than
    assignments to the OS, no more assignments and metadata regions than frees,
    one free more than assignments and metadata regions. *)
Theorem C77_winners_partial : forall P top pb rb G s0 (allowed : call -> Prop) l x r,
  started P top pb rb G s0 -> (forall k, allowed k -> safe_call G k) ->
  observed G pb rb allowed s0 l x ->
  (finishes (block_of r) ok l <= starts (assign_of r) l + 1)%nat /\
  (finishes (assign_of r) ok l + finishes (metadata_of r) ok l <= starts (free_of r) l)%nat /\
  (finishes (free_of r) ok l <= starts (assign_of r) l + starts (metadata_of r) l + 1)%nat /\
  (finishes (assign_of r) ok l <= starts (block_of r) l)%nat.
Proof.
  intros P top pb rb G s0 allowed l x r ST AL OB.
  destruct (C76_linearizable_partial P top pb rb G s0 allowed ST AL) as [ac [_ LIN]].
  destruct (LIN l x OB) as (H & M & st & AT & _).
  eapply winners; [|exact AT]. reflexivity.
Qed.

(** ** Example: two cores block the same region at the same time. *)
Fixpoint oops (G : globals) (m : nat) (c : N) (x : conf * list obs) : conf * list obs :=
  match m with
  | O => x
  | S m' =>
      match cf_task (fst x) c with
      | Running k (Do o f) i =>
          let '(s', v) := step c o (cf_state (fst x)) in
          if clock_of G s' <? clock_of G (cf_state (fst x)) then x else
          oops G m' c (mkConf s' (upd (cf_task (fst x)) c (Running k (f v) ((o, v) :: i)))
                        (held_after G c o v (cf_held (fst x))), snd x)
      | Running k (Ret v) i => (mkConf (cf_state (fst x)) (upd (cf_task (fst x)) c Idle) (cf_held (fst x)),
                                snd x ++ [Finish c k v])
      | _ => x
      end
  end.
Definition obegin (G : globals) (c : N) (k : call) (x : conf * list obs) : conf * list obs :=
  (begin G c k (fst x), snd x ++ [Start c k]).
Lemma oops_observed G pb rb (al : call -> Prop) s0 c : c < g_core_count G -> forall m x,
  observed G pb rb al s0 (snd x) (fst x) -> observed G pb rb al s0 (snd (oops G m c x)) (fst (oops G m c x)).
Proof.
  intros C. induction m as [|m IH]; intros [x l] R; cbn [oops]; [exact R|].
  destruct x as [s t h]. cbn [cf_state cf_task cf_held fst snd] in *.
  destruct (t c) as [|k p i] eqn:T; [exact R|]. destruct p as [v|o f|]; [| |exact R].
  - cbn [fst snd]. eapply ob_finish; [exact R|eapply cs_return; eauto|exact T|apply upd_same].
  - destruct (step c o s) as [s' v] eqn:SP.
    destruct (N.ltb_spec (clock_of G s') (clock_of G s)); [exact R|].
    apply IH. cbn [fst snd]. eapply ob_other; [exact R|eapply cs_op; eauto|].
    cbn. intros c'. unfold upd. destruct (N.eqb_spec c' c) as [->|NE]; [|tauto]. split; congruence.
Qed.
Lemma obegin_observed G pb rb (al : call -> Prop) s0 c k x : c < g_core_count G -> is_idle (fst x) c = true ->
  call_args_ok k -> al k -> observed G pb rb al s0 (snd x) (fst x) ->
  observed G pb rb al s0 (snd (obegin G c k x)) (fst (obegin G c k x)).
Proof.
  intros C I A AL R. destruct x as [[s t h] l]. unfold is_idle in I. cbn [cf_task fst snd] in *.
  assert (T : t c = Idle) by (destruct (t c); [reflexivity|discriminate]).
  unfold obegin, begin. cbn [cf_state cf_task cf_held fst snd].
  eapply ob_start; [exact R|apply cs_start; auto|exact T|apply upd_same].
Qed.

(** Two cores block the same region; then delete_thread keeps the lock of region
    0, and a block that was in progress, and every later one, is refused. *)
Definition ex_race : conf * list obs :=
  oops ex_G 50 0 (oops ex_G 50 1 (obegin ex_G 1 (CBlock 5)
    (oops ex_G 3 0 (obegin ex_G 0 (CBlock 5) (initial ex_s0, []))))).
Definition ex_stuck : conf * list obs :=
  oops ex_G 50 0 (oops ex_G 50 1 (obegin ex_G 1 (CDeleteThread 0)
    (oops ex_G 3 0 (obegin ex_G 0 (CBlock 6) ex_race)))).
Definition ex_obs : list obs :=
  [Start 0 (CBlock 5); Start 1 (CBlock 5); Finish 1 (CBlock 5) concurrent_call; Finish 0 (CBlock 5) ok;
   Start 0 (CBlock 6); Start 1 (CDeleteThread 0); Finish 1 (CDeleteThread 0) ok;
   Finish 0 (CBlock 6) concurrent_call].
Example C76_example : observed ex_G 6 4 (safe_call ex_G) ex_s0 ex_obs (fst ex_stuck) /\
  is_idle (fst ex_stuck) 0 = true /\ is_idle (fst ex_stuck) 1 = true /\
  (forall k, safe_call ex_G k -> safe_call ex_G k).
Proof.
  split; [|split; [vm_compute; reflexivity|split; [vm_compute; reflexivity|auto]]].
  assert (E : snd ex_stuck = ex_obs) by (vm_compute; reflexivity).
  rewrite <- E. unfold ex_stuck, ex_race.
  do 2 (apply oops_observed; [vm_compute; reflexivity|]).
  apply obegin_observed; [vm_compute; reflexivity|vm_compute; reflexivity|reflexivity|exact Logic.I|].
  apply oops_observed; [vm_compute; reflexivity|].
  apply obegin_observed; [vm_compute; reflexivity|vm_compute; reflexivity|reflexivity|exact Logic.I|].
  do 2 (apply oops_observed; [vm_compute; reflexivity|]).
  apply obegin_observed; [vm_compute; reflexivity|vm_compute; reflexivity|reflexivity|exact Logic.I|].
  apply oops_observed; [vm_compute; reflexivity|].
  apply obegin_observed; [vm_compute; reflexivity|vm_compute; reflexivity|reflexivity|exact Logic.I|].
  apply ob_none.
Qed.

(** ** accept_thread *)
(** Region 5 is blocked; a successful accept_thread whose thread is the region's entry in the
    region table (C49) returns it to the OS; it is blocked a second time. *)
Definition ex_twice : conf * list obs :=
  oops ex_G 50 1 (obegin ex_G 1 (CBlock 5)
    (oops ex_G 50 0 (obegin ex_G 0 (CAcceptThread (g_dram_region ex_G + 40 * 5) (3 * 262144))
      (oops ex_G 50 0 (obegin ex_G 0 (CBlock 5) (initial ex_s0, [])))))).
Definition ex_obs2 : list obs :=
  [Start 0 (CBlock 5); Finish 0 (CBlock 5) ok;
   Start 0 (CAcceptThread (g_dram_region ex_G + 40 * 5) (3 * 262144));
   Finish 0 (CAcceptThread (g_dram_region ex_G + 40 * 5) (3 * 262144)) ok;
   Start 1 (CBlock 5); Finish 1 (CBlock 5) ok].
Lemma ex_twice_observed : observed ex_G 6 4 (fun _ => True) ex_s0 ex_obs2 (fst ex_twice).
Proof.
  assert (E : snd ex_twice = ex_obs2) by (vm_compute; reflexivity).
  rewrite <- E. unfold ex_twice.
  apply oops_observed; [vm_compute; reflexivity|].
  apply obegin_observed; [vm_compute; reflexivity|vm_compute; reflexivity|reflexivity|exact Logic.I|].
  apply oops_observed; [vm_compute; reflexivity|].
  apply obegin_observed; [vm_compute; reflexivity|vm_compute; reflexivity|split; vm_compute; reflexivity|exact Logic.I|].
  apply oops_observed; [vm_compute; reflexivity|].
  apply obegin_observed; [vm_compute; reflexivity|vm_compute; reflexivity|reflexivity|exact Logic.I|].
  apply ob_none.
Qed.
(** With accept_thread among the calls two blocks of a region succeed without an
    assignment between them. *)
Theorem C77_accept_thread_refuted : exists P top pb rb G s0 l x r,
  started P top pb rb G s0 /\ observed G pb rb (fun _ => True) s0 l x /\
  finishes (block_of r) ok l = 2%nat /\ starts (assign_of r) l = 0%nat.
Proof.
  exists ex_platform, 0, 6, 4, ex_G, ex_s0, ex_obs2, (fst ex_twice), 5.
  split; [exact ex_started|]. split; [exact ex_twice_observed|]. split; vm_compute; reflexivity.
Qed.
(** So there is an execution that no machine executing the calls atomically explains. *)
Theorem C76_accept_thread_refuted : exists P top pb rb G s0 l x,
  started P top pb rb G s0 /\ observed G pb rb (fun _ => True) s0 l x /\
  forall access top' H M st,
    ~ atomic pb rb (g_core_count G) (g_dram_size G) (boot_mstate access top') l H M st.
Proof.
  exists ex_platform, 0, 6, 4, ex_G, ex_s0, ex_obs2, (fst ex_twice).
  split; [exact ex_started|]. split; [exact ex_twice_observed|].
  intros access top' H M st AT.
  destruct (winners _ _ _ _ (boot_mstate access top') _ _ _ _ 5 (fun _ => eq_refl) AT) as [W _].
  vm_compute in W. lia.
Qed.

Definition P_Linear_theorems := (C76_linearizable_partial, C76_all_executions, C77_winners_partial,
  C77_accept_thread_refuted, C76_accept_thread_refuted).
Print Assumptions P_Linear_theorems.
