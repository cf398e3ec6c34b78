(** * Property C89 for load_thread and assign_thread.

    These calls take a second kind of lock: the first word of the record of the
    enclave they name.  accept_thread and copy_debug_enclave_page over the monitor
    (C48, C49) are left out; therefore the theorem is named _partial. *)
From Coq Require Import NArith ZArith Lia Bool List.
From Coq Require Import ZifyBool ZifyNat ZifyN.
From Verif Require Import Word Machine ModelBare ModelHash ModelInl ModelRegions
  ModelMetadata ModelEnclave ModelBoot ModelApi Lib BareProofs BootProofs SpecGeometry
  GeomProofs Trace SpecMonitor SpecHistory SpecConcurrent ViewProofs SeqProofs SeqCalls
  HistoryProofs P_Boot P_Regions ConcProofs ConcGlobal P_Conc SpecLinear LinProofs LinGlobal
  P_Linear SpecAtomic SpecContract AtomicProofs SpecRefuse RefuseProofs P_Refuse
  SeqCalls2 SeqCalls3 SeqCalls5 ConcCalls ConcCalls2 ContractProofs.
Import ListNotations.
Open Scope N_scope.
Ltac Zify.zify_post_hook ::= Z.div_mod_to_equations.

(** The address of the record whose lock a call takes. *)
Definition record_of (k : call) : N :=
  match k with CLoadThread id _ _ _ _ _ | CAssignThread id _ => id | _ => 0 end.

(** ** Results of a program and the locks it found held *)
Definition found (G : globals) (id : N) (o : op) (v : N) : bool :=
  match o with
  | OTas a => negb (v =? 0) && match region_at G a with Some _ => true | None => a =? id end
  | _ => false
  end.
Section RP.
Variables (G : globals) (pb rb : N) (g : geom G pb rb) (c : N) (HC : c < g_core_count G) (id : N).
Fixpoint rp {A} (p : prog A) (b : bool) (Q : bool -> A -> Prop) : Prop :=
  match p with
  | Ret a => Q b a
  | Do o f => forall v, rp (f v) (b || found G id o v) Q
  | Stop => True
  end.
Lemma rp_bind {A B} (p : prog A) (f : A -> prog B) : forall b Q,
  rp p b (fun b a => rp (f a) b Q) -> rp (bind p f) b Q.
Proof. induction p as [a|o k IH|]; intros b Q; cbn; auto. Qed.
Lemma rp_val {A} (R : A -> Prop) (p : prog A) : forall b (Q : bool -> A -> Prop),
  gives R p -> (forall a b', R a -> Q b' a) -> rp p b Q.
Proof. induction p as [a|o k IH|]; intros b Q; cbn; auto. Qed.
Lemma rp_any {A} (p : prog A) : forall b (Q : bool -> A -> Prop),
  (forall a b', (b = true -> b' = true) -> Q b' a) -> rp p b Q.
Proof.
  induction p as [a|o k IH|]; intros b Q H; cbn; auto. intros v. apply IH.
  intros a b' E. apply H. intros ->. apply E. reflexivity.
Qed.
Definition ok3 (b : bool) (v : N) : Prop := v = 3 -> b = true.
Lemma gives_bind' {A B} (R : A -> Prop) (S : B -> Prop) (p : prog A) (f : A -> prog B) :
  gives R p -> (forall a, R a -> gives S (f a)) -> gives S (bind p f).
Proof. intros H1 H2. induction p as [a|o k IH|]; cbn in *; auto. Qed.

Lemma rp_meta a b (Q : bool -> N * N -> Prop) :
  (forall b' v r, ok3 b' v -> Q b' (v, r)) -> rp (lock_metadata_region_for G a) b Q.
Proof.
  intros H. unfold lock_metadata_region_for.
  destruct (_ || _); [apply H; discriminate|].
  rewrite (region_for_spec G pb rb g). set (r := region_of pb rb a).
  assert (R : r < g_dram_region_count G) by apply (region_lt' G pb rb g).
  apply rp_bind. unfold test_and_set_dram_region_lock. rewrite (lock_raddr G pb rb g c HC) by exact R.
  cbn. intros v. rewrite region_at_lock by exact R.
  destruct (v =? 0); cbn [negb andb].
  - intros o. destruct (o =? metadata_enclave_id); cbn [negb].
    + apply H. discriminate.
    + intros ?. apply H. discriminate.
  - apply H. intros _. apply orb_true_r.
Qed.
Lemma rp_lock b (Q : bool -> N -> Prop) : id < W64 ->
  (forall b' v, ok3 b' v -> Q b' v) -> rp (lock_enclave G id) b Q.
Proof.
  intros W H. unfold lock_enclave. destruct (_ || _); [apply H; discriminate|].
  apply rp_bind, rp_meta. intros b1 v r O1. change monitor_ok with 0.
  destruct (v =? 0); cbn [negb]; [|apply H; exact O1].
  apply rp_bind, rp_any. intros pi b2 _. apply rp_bind, rp_any. intros w b3 _.
  apply rp_bind. destruct (negb _).
  - cbn [rp]. apply rp_bind, rp_any. intros [] b4 _. apply H. discriminate.
  - apply rp_bind. cbn [op1 rp]. intros t. apply rp_bind, rp_any. intros [] b4 E. apply H. intros X. apply E.
    destruct (N.eqb_spec t 0) as [T|T]; [discriminate|]. unfold found.
    change ei_lock with 0. assert (A : wadd id 0 = id) by (unfold wadd; rewrite N.add_0_r; apply N.mod_small; exact W).
    rewrite A, N.eqb_refl. replace (t =? 0) with false by lia. cbn [negb andb].
    destruct (region_at G id); apply orb_true_r.
Qed.
Lemma rp_assign_thread t : id < W64 -> rp (assign_thread G id t) false ok3.
Proof.
  intros W. unfold assign_thread. change monitor_ok with 0.
  apply rp_bind, rp_lock; [exact W|]. intros b1 v O1.
  destruct (v =? 0); cbn [negb]; [|exact O1].
  apply rp_bind, rp_meta. intros b2 w r O2.
  destruct (w =? 0); cbn [negb].
  2:{ apply rp_bind, rp_any. intros [] b3 E X. apply E, O2, X. }
  apply (rp_val (fun v => v <> 3)); [|intros a b' N3 X; contradiction].
  apply gives_bind. intros init.
  apply (gives_bind' (fun v => v <> 3)).
  { destruct (negb _); [apply reserve_gives|discriminate]. }
  intros u U. destruct (u =? 0); cbn [negb]; repeat (apply gives_bind; intros ?); [discriminate|exact U].
Qed.
Lemma rp_load_thread t e1 e2 e3 e4 : id < W64 -> rp (load_thread G id t e1 e2 e3 e4) false ok3.
Proof.
  intros W. unfold load_thread. change monitor_ok with 0.
  apply rp_bind, rp_lock; [exact W|]. intros b1 v O1.
  destruct (v =? 0); cbn [negb]; [|exact O1].
  apply rp_bind, rp_meta. intros b2 w r O2.
  destruct (w =? 0); cbn [negb].
  2:{ apply rp_bind, rp_any. intros [] b3 E X. apply E, O2, X. }
  apply (rp_val (fun v => v <> 3)); [|intros a b' N3 X; contradiction].
  apply gives_bind. intros init.
  apply (gives_bind' (fun v => v <> 3)).
  { destruct (negb _); [discriminate|]. apply gives_bind. intros ep.
    destruct (_ =? _); [discriminate|apply reserve_gives]. }
  intros u U. destruct (u =? 0); cbn [negb]; repeat (apply gives_bind; intros ?); [discriminate|exact U].
Qed.
End RP.
Lemma rp_call G pb rb (g : geom G pb rb) c k : c < g_core_count G -> call_args_ok k ->
  locks_record k = true -> rp G (record_of k) (call_prog G k) false ok3.
Proof.
  intros C A L. destruct k; try discriminate; cbn [record_of call_prog call_args_ok] in *.
  - apply (rp_load_thread G pb rb g c C). apply A.
  - apply (rp_assign_thread G pb rb g c C). apply A.
Qed.

Section Run.
Variables (P : platform) (top pb rb : N) (G : globals) (s0 : state) (allowed : call -> Prop).
Hypothesis ST : started P top pb rb G s0.
Hypothesis AL : forall k, allowed k -> safe_call G k.
Local Notation observed := (observed G pb rb allowed s0).
Local Notation cores := (g_core_count G).
Local Notation track := (track G).

(** At some instant after [l1] and [Start c k] the word of the record was not 0. *)
Definition locked_record (c : N) (k : call) (l1 l2 : list obs) : Prop :=
  exists a b y, l2 = a ++ b /\ observed (l1 ++ Start c k :: a) y /\
    ld 8 (s_mem (cf_state y)) (record_of k) <> 0.
Lemma locked_more c k l1 l2 e : locked_record c k l1 l2 -> locked_record c k l1 (l2 ++ [e]).
Proof. intros (a & b & y & -> & H). exists a, (b ++ [e]), y. rewrite app_assoc. auto. Qed.
Definition rinv (l : list obs) (x : conf) : Prop := forall c k p i, cf_task x c = Running k p i ->
  locks_record k = true -> exists l1 l2 b, l = l1 ++ Start c k :: l2 /\ no_core c l2 /\
    rp G (record_of k) p b ok3 /\
    (b = true -> failed (track i) = true \/ locked_record c k l1 l2).
Lemma failed_next o v i : failed (track i) = true -> failed (track ((o, v) :: i)) = true.
Proof.
  intros F. cbn [RefuseProofs.track]. destruct o; cbn [next]; auto.
  - destruct (region_at G a); [|exact F]. destruct (v =? 0); [exact F|reflexivity].
  - destruct (region_at G a); exact F.
Qed.
Lemma rinv_observed l x : observed l x -> rinv l x.
Proof.
  revert l x. destruct (started_geom _ _ _ _ _ _ ST) as [g _].
  assert (MORE : forall l s t h c e, rinv l (mkConf s t h) ->
    (forall c', c' <> c -> by_core c' e = false) -> forall c' k p i, c' <> c -> t c' = Running k p i ->
    locks_record k = true -> exists l1 l2 b, l ++ [e] = l1 ++ Start c' k :: l2 /\ no_core c' l2 /\
    rp G (record_of k) p b ok3 /\ (b = true -> failed (track i) = true \/ locked_record c' k l1 l2)).
  { intros l s t h c e IH B c' k p i NE T L. destruct (IH c' k p i T L) as (l1 & l2 & b & E & NC & RP & F).
    exists l1, (l2 ++ [e]), b. split; [rewrite E, <- app_assoc; reflexivity|].
    split; [apply no_core_snoc; auto|]. split; [exact RP|]. intros X.
    destruct (F X); auto using locked_more. }
  apply observed_cases.
  - intros c k p i T. discriminate.
  - intros l s t h c k OB IH C T AR AK c' k' p i T' L. cbn [cf_task] in T'. unfold upd in T'.
    destruct (N.eqb_spec c' c) as [->|NE].
    + inversion T'. subst. exists l, [], false. split; [reflexivity|]. split; [intros e []|].
      split; [apply (rp_call G pb rb g c); auto|discriminate].
    + eapply (MORE l s t h c); eauto; cbn; intros; apply N.eqb_neq; congruence.
  - intros l s t h c k o f i s' v OB IH C T SP NW c' k' p i' T' L. cbn [cf_task] in T'. unfold upd in T'.
    destruct (N.eqb_spec c' c) as [->|NE]; [|exact (IH c' k' p i' T' L)].
    inversion T'. subst k' p i'. destruct (IH c k _ i T L) as (l1 & l2 & b & E & NC & RP & F).
    exists l1, l2, (b || found G (record_of k) o v). split; [exact E|]. split; [exact NC|].
    split; [exact (RP v)|]. intros X. apply orb_prop in X. destruct X as [X|X].
    { destruct (F X) as [Y|Y]; [left; apply failed_next; exact Y|right; exact Y]. }
    destruct o; try discriminate. cbn [found] in X. apply andb_prop in X. destruct X as [V X].
    destruct (region_at G a) as [r|] eqn:RA.
    + left. cbn [RefuseProofs.track next]. rewrite RA. destruct (v =? 0); [discriminate|reflexivity].
    + right. apply N.eqb_eq in X. subst a. exists l2, [], (mkConf s t h). rewrite app_nil_r.
      split; [reflexivity|]. rewrite <- E. split; [exact OB|]. cbn [cf_state].
      pose proof (f_equal snd SP) as EV. cbn -[ld] in EV. intros Z. rewrite Z in EV. subst v. discriminate.
  - intros l s t h c k v i OB IH C T c' k' p i' T' L. cbn [cf_task] in T'. unfold upd in T'.
    destruct (N.eqb_spec c' c) as [->|NE]; [discriminate|].
    eapply (MORE l s t h c); eauto; cbn; intros; apply N.eqb_neq; congruence.
  - intros l s t h s' OB IH. exact IH.
Qed.

Lemma record_cause l x : observed l x -> forall l1 l2 l3 c k,
  l = l1 ++ Start c k :: l2 ++ Finish c k 3 :: l3 -> no_core c l2 -> locks_record k = true ->
  cause pb rb G c k l1 l2 \/ locked_record c k l1 l2.
Proof.
  revert l x. apply (observed_cases G pb rb allowed s0 (fun l _ => forall l1 l2 l3 c k,
    l = l1 ++ Start c k :: l2 ++ Finish c k 3 :: l3 -> no_core c l2 -> locks_record k = true ->
    cause pb rb G c k l1 l2 \/ locked_record c k l1 l2)).
  - intros l1 l2 l3 c k E. destruct l1; discriminate.
  - intros l s t h c k OB IH C T AR AK l1 l2 l3 c1 k1 E NC LR.
    destruct l3 as [|e l3] using rev_ind.
    + replace (l1 ++ Start c1 k1 :: l2 ++ [Finish c1 k1 3]) with ((l1 ++ Start c1 k1 :: l2) ++ [Finish c1 k1 3]) in E
        by (rewrite <- app_assoc; reflexivity).
      apply snoc_eq in E. destruct E. discriminate.
    + clear IHl3. eapply IH; eauto. eapply proj1. apply snoc_eq with (b := e). rewrite E.
      rewrite <- !app_assoc. cbn. rewrite <- app_assoc. reflexivity.
  - auto.
  - intros l s t h c k v i OB IH C T l1 l2 l3 c1 k1 E NC LR.
    destruct l3 as [|e l3] using rev_ind.
    + replace (l1 ++ Start c1 k1 :: l2 ++ [Finish c1 k1 3]) with ((l1 ++ Start c1 k1 :: l2) ++ [Finish c1 k1 3]) in E
        by (rewrite <- app_assoc; reflexivity).
      apply snoc_eq in E. destruct E as [E1 E2]. inversion E2. subst c1 k1 v.
      pose proof (linv_observed _ _ _ _ _ _ _ ST AL _ _ OB c) as LI. cbn [cf_task cf_held] in LI. rewrite T in LI.
      destruct LI as (m1 & m2 & E3 & NC' & _ & CA).
      destruct (rinv_observed _ _ OB c k _ i T LR) as (n1 & n2 & b & E4 & NC2 & RP & F).
      cbn [rp ok3] in RP. specialize (F (RP eq_refl)).
      destruct (split_unique _ _ _ _ _ _ _ (eq_trans (eq_sym E3) E1) NC' NC) as (-> & _ & ->).
      destruct (split_unique _ _ _ _ _ _ _ (eq_trans (eq_sym E4) E1) NC2 NC) as (-> & _ & ->).
      destruct F as [F|F]; [left; exact (CA F)|right; exact F].
    + clear IHl3. eapply IH; eauto. eapply proj1. apply snoc_eq with (b := e). rewrite E.
      rewrite <- !app_assoc. cbn. rewrite <- app_assoc. reflexivity.
  - auto.
Qed.
End Run.

(** A load_thread or assign_thread is refused because of concurrency only for one
    of the reasons of C89_refusal_justified_partial, or because at some instant
    between its start and its return the first word of the record it names, the
    lock of the record, was not 0.  C89_record_refuted shows that this happens
    although no call is in progress. *)
Theorem C89_record_partial : forall P top pb rb G s0 l1 l2 l3 x c k,
  started P top pb rb G s0 ->
  observed G pb rb (safe_call G) s0 (l1 ++ Start c k :: l2 ++ Finish c k concurrent_call :: l3) x ->
  (forall e, In e l2 -> by_core c e = false) -> locks_record k = true ->
  names_twice G pb rb k \/
  (concerns G pb rb k 0 /\
   exists c' k', leaky k' = true /\ In (Finish c' k' ok) (l1 ++ l2)) \/
  (exists a b c' k' r, l2 = a ++ b /\ c' <> c /\ in_call (l1 ++ Start c k :: a) c' = Some k' /\
    concerns G pb rb k r /\ concerns G pb rb k' r) \/
  exists a b y, l2 = a ++ b /\
    observed G pb rb (safe_call G) s0 (l1 ++ Start c k :: a) y /\
    ld 8 (s_mem (cf_state y)) (record_of k) <> 0.
Proof.
  intros P top pb rb G s0 l1 l2 l3 x c k ST OB NC LR.
  destruct (record_cause P top pb rb G s0 (safe_call G) ST (all_safe G) _ x OB l1 l2 l3 c k eq_refl NC LR)
    as [[H|[H|H]]|H]; auto.
Qed.
(** The refused assign_thread of C89_record_refuted meets the hypotheses. *)
Example C89_record_example :
  observed ex_G 6 4 (safe_call ex_G) ex_s0
    (ex_before ++ Start 1 (CAssignThread 532480 0) :: [] ++ [Finish 1 (CAssignThread 532480 0) concurrent_call])
    (fst ex_record) /\ locks_record (CAssignThread 532480 0) = true.
Proof.
  split; [|reflexivity].
  assert (E : snd ex_record = ex_before ++ [Start 1 (CAssignThread (532480) 0);
       Finish 1 (CAssignThread (532480) 0) concurrent_call]) by (vm_compute; reflexivity).
  cbn [app]. rewrite <- E. unfold ex_record, ocall. obs_tac. unfold ex_forged.
  do 4 (apply ostore_observed with (c := 0);
      [reflexivity|vm_compute; reflexivity|reflexivity|split; [vm_compute; reflexivity|vm_compute; discriminate]|]).
  unfold ex_stale, ocall. obs_tac.
Qed.
Definition P_Record_theorems := C89_record_partial.
Print Assumptions P_Record_theorems.
