(** * Property C85: what a core's access bitmap says, and how access is revoked on all cores. *)
From Coq Require Import NArith ZArith Lia Bool List.
From Coq Require Import ZifyBool ZifyNat ZifyN.
From Verif Require Import Word Machine ModelInl ModelApi Lib SpecGeometry GeomProofs SpecMonitor
  SpecHistory ViewProofs SeqProofs SeqCalls HistoryProofs HistoryFacts P_Regions SpecConcurrent
  P_Conc SpecLinear LinGlobal P_Linear SpecSystem P_System P_Rest SpecAccess.
Import ListNotations.
Open Scope N_scope.
Ltac Zify.zify_post_hook ::= Z.div_mod_to_equations.

(** What an effect does to owners and access bitmaps. *)
Inductive granting (c : N) (k : call) (v : N) (M M' : mstate) : Prop :=
| gr_same : reloads k && (v =? 0) = false -> m_access M' = m_access M ->
    (forall r, m_owner M' r = OS <-> m_owner M r = OS) -> granting c k v M M'
| gr_load q : k = CBlock q \/ (exists e, k = CAssign q e) -> v = 0 ->
    m_access M' = upd (m_access M) c (fun r => is_os (m_owner M' r)) ->
    (forall r, r <> q -> m_owner M' r = m_owner M r) -> granting c k v M M'.

Section Facts.
Variables (pb rb cores dram : N).
Lemma effect_granting c k v M M' : effect pb rb cores dram (ECall c k) v M M' -> granting c k v M M'.
Proof.
  intros E. destruct k; cbn [effect] in E;
    try (lazymatch type of E with _ /\ _ => idtac end; destruct E as [_ ->]; apply gr_same; [reflexivity|reflexivity|tauto]);
    try (subst M'; apply gr_same; [reflexivity|reflexivity|tauto]).
  - apply block_inv in E as [[V ->]|(-> & H1 & H2 & H3 & H4 & H5 & ->)].
    + apply gr_same; [|reflexivity|tauto]. cbn. apply N.eqb_neq. exact V.
    + eapply gr_load; [left; reflexivity|reflexivity|reflexivity|].
      intros r NE. cbn. apply upd_other. exact NE.
  - destruct E as [(_ & _ & ->)|[(_ & _ & _ & _ & ->)|(H1 & H2 & H3 & -> & ->)]];
      (apply gr_same; [reflexivity|reflexivity|tauto]).
  - apply create_inv in E as [[V ->]|(-> & H1 & H2 & ->)]; (apply gr_same; [reflexivity|reflexivity|]); [tauto|].
    intros r'. cbn. unfold upd. destruct (N.eqb_spec r' dram_region) as [->|]; [|tauto].
    rewrite H2. split; discriminate.
  - apply assign_inv in E as [[V ->]|(-> & H1 & -> & H2 & ->)].
    + apply gr_same; [|reflexivity|tauto]. cbn. apply N.eqb_neq. exact V.
    + eapply gr_load; [right; eexists; reflexivity|reflexivity|reflexivity|].
      intros r NE. cbn. apply upd_other. exact NE.
  - apply free_inv in E as [[V ->]|(-> & H1 & -> & H2)]; (apply gr_same; [reflexivity|reflexivity|]); [tauto|].
    intros r'. cbn. unfold upd. destruct (N.eqb_spec r' dram_region) as [->|]; [|tauto].
    split; [discriminate|]. intros X. rewrite X in H2. destruct H2 as [[H2 _]|H2]; discriminate.
  - destruct E as [[_ ->]|(-> & H & ->)]; (apply gr_same; [reflexivity|reflexivity|tauto]).
  - destruct E as [[_ ->]|(-> & H & ->)]; (apply gr_same; [reflexivity|reflexivity|tauto]).
Qed.
Lemma takes_granting O c k t v M M' : takes_effect pb rb cores dram O c k t v M M' -> granting c k v M M'.
Proof.
  intros [(_ & B & ->)|E].
  - apply gr_same; [|reflexivity|tauto]. destruct (N.eqb_spec v 0) as [->|]; [|apply andb_false_r].
    rewrite andb_true_r. destruct k; try reflexivity; cbn in B; destruct B as (B1 & B2); try destruct B2 as (_ & B2); discriminate.
  - destruct k; try (apply effect_granting; exact E).
    + destruct E as [-> (t' & T & ->)]. apply gr_same; [reflexivity|reflexivity|tauto].
    + subst M'. apply gr_same; [reflexivity|reflexivity|tauto].
    + subst M'. apply gr_same; [reflexivity|reflexivity|tauto].
Qed.

Lemma mhist_access c M0 h M : mhistory pb rb cores dram M0 h M -> none (ok_reload_by c) h ->
  m_access M c = m_access M0 c.
Proof.
  intros H N. induction H as [|h M e v M' H IH E]; [reflexivity|].
  apply none_app in N as [N1 N2]. apply none_one in N2. specialize (IH N1). rewrite <- IH.
  destruct e as [c' k|c' a x|a x]; [|cbn in E; subst; reflexivity|cbn in E; subst; reflexivity].
  apply effect_granting in E. destruct E as [_ A _|q K V A _]; [rewrite A; reflexivity|].
  rewrite A. apply upd_other. intros ->. subst v. cbn in N2. rewrite N.eqb_refl in N2.
  destruct K as [->|[e ->]]; discriminate.
Qed.

(** ** Interleaved calls *)
Variable M0 : mstate.
Notation at_ := (atomic pb rb cores dram M0).
Definition moved (r : N) (l2 : list obs) (st : N -> status) : Prop :=
  (exists c, st c = Done (CBlock r) 0 \/ exists e, st c = Done (CAssign r e) 0) \/ reports_move r l2.
Definition reloading (c : N) (l2 : list obs) (st : N -> status) : Prop :=
  ((exists k, In (Start c k) l2) /\ exists k, reloads k = true /\ st c = Done k 0) \/ reloads_in c l2.
Definition revoked (r : N) (l2 : list obs) (M : mstate) (st : N -> status) : Prop :=
  moved r l2 st \/ m_owner M r = OS \/ forall c, reloading c l2 st -> m_access M c r = false.

Lemma moved_grow r l2 st l2' st' : (forall c k v, st c = Done k v -> st' c = Done k v \/ In (Finish c k v) l2') ->
  (forall e, In e l2 -> In e l2') -> moved r l2 st -> moved r l2' st'.
Proof.
  intros S L [(c & [D|(e & D)])|(c & [F|(e & F)])].
  - destruct (S _ _ _ D) as [X|X]; [left; exists c; auto|right; exists c; auto].
  - destruct (S _ _ _ D) as [X|X]; [left; exists c; right; exists e; auto|right; exists c; right; exists e; auto].
  - right. exists c. left. auto.
  - right. exists c. right. exists e. auto.
Qed.
Lemma reloads_snoc c l e : reloads_in c (l ++ [e]) ->
  reloads_in c l \/ (exists k k', In (Start c k) l /\ reloads k' = true /\ e = Finish c k' 0).
Proof.
  intros (a & k & b & k' & d & R & E). destruct d as [|x d _] using rev_ind.
  - right. exists k, k'. replace (a ++ Start c k :: b ++ [Finish c k' 0]) with ((a ++ Start c k :: b) ++ [Finish c k' 0]) in E
      by (rewrite <- app_assoc; reflexivity).
    apply app_inj_tail in E as [E X]. subst. split; [|auto]. apply in_or_app. right. left. reflexivity.
  - left. replace (a ++ Start c k :: b ++ Finish c k' 0 :: d ++ [x]) with ((a ++ Start c k :: b ++ Finish c k' 0 :: d) ++ [x]) in E
      by (rewrite <- app_assoc; cbn; rewrite <- app_assoc; reflexivity).
    apply app_inj_tail in E as [E X]. exists a, k, b, k', d. auto.
Qed.
Lemma reloads_nil c : ~ reloads_in c [].
Proof. intros (a & k & b & k' & d & _ & E). destruct a; discriminate. Qed.

Lemma revoked_at r l H M st : at_ l H M st -> forall l1 l2, l = l1 ++ l2 -> revoked r l2 M st.
Proof.
  intros AT.
  assert (NIL : forall M st, revoked r [] M st).
  { intros M' st'. right. right. intros c [[(k & []) _]|R]. destruct (reloads_nil c R). }
  induction AT as [|l H M st c k AT IH SC|l H M st c k t v M' AT IH SC TE|l H M st c k v AT IH SC]; intros l1 l2 E.
  - destruct l2; [apply NIL|]. destruct l1; discriminate.
  - destruct l2 as [|e l2 _] using rev_ind; [apply NIL|].
    rewrite app_assoc in E. apply app_inj_tail in E. destruct E as [E <-].
    destruct (IH l1 l2 E) as [MV|[O|A]]; [left|right; left; exact O|right; right].
    + eapply moved_grow; [| |exact MV].
      * intros c' k' v' D. left. unfold upd. destruct (N.eqb_spec c' c) as [->|]; [congruence|exact D].
      * intros e I. apply in_or_app. auto.
    + intros c' [[X (k' & RK & D)]|R].
      * unfold upd in D. destruct (N.eqb_spec c' c) as [->|NE]; [discriminate|]. apply A. left. split; [|eauto].
        destruct X as (k0 & X). apply in_app_or in X. destruct X as [X|[X|[]]]; [eauto|]. inversion X. congruence.
      * apply reloads_snoc in R. destruct R as [R|(k1 & k2 & _ & _ & X)]; [|discriminate]. apply A. right. exact R.
  - destruct (IH l1 l2 E) as [MV|[O|A]].
    + left. eapply moved_grow; [| |exact MV]; [|auto].
      intros c' k' v' D. left. unfold upd. destruct (N.eqb_spec c' c) as [->|]; [congruence|exact D].
    + apply takes_granting in TE. destruct TE as [_ _ OW|q K -> _ OW].
      * right; left. apply OW. exact O.
      * destruct (N.eq_dec r q) as [<-|NE]; [|right; left; rewrite OW; auto].
        left. left. exists c. unfold upd. rewrite N.eqb_refl. destruct K as [->|(e & ->)]; [auto|right; exists e; reflexivity].
    + destruct (m_owner M' r) eqn:O'; [right; left; exact O'|right; right|right; right|right; right];
      (assert (NO : is_os (m_owner M' r) = false) by (rewrite O'; reflexivity); clear O';
       intros c' R; apply takes_granting in TE; destruct TE as [NR AC _|q K -> AC _];
       rewrite AC;
       [ apply A; destruct R as [[I (k' & RK & D)]|R]; [|right; exact R];
         unfold upd in D; destruct (N.eqb_spec c' c) as [->|NE];
         [inversion D; subst; rewrite RK in NR; discriminate|left; eauto]
       | unfold upd at 1; destruct (N.eqb_spec c' c) as [->|NE]; [exact NO|];
         apply A; destruct R as [[I (k' & RK & D)]|R]; [|right; exact R];
         unfold upd in D; destruct (N.eqb_spec c' c); [contradiction|left; eauto]]).
  - destruct l2 as [|e l2 _] using rev_ind; [apply NIL|].
    rewrite app_assoc in E. apply app_inj_tail in E. destruct E as [E <-].
    destruct (IH l1 l2 E) as [MV|[O|A]]; [left|right; left; exact O|right; right].
    + eapply moved_grow; [| |exact MV].
      * intros c' k' v' D. unfold upd. destruct (N.eqb_spec c' c) as [->|]; [|auto].
        right. rewrite D in SC. inversion SC; subst. apply in_or_app. right. left. reflexivity.
      * intros e I. apply in_or_app. auto.
    + intros c' [[X (k' & RK & D)]|R].
      * unfold upd in D. destruct (N.eqb_spec c' c) as [->|NE]; [discriminate|]. apply A. left. split; [|eauto].
        destruct X as (k0 & X). apply in_app_or in X. destruct X as [X|[X|[]]]; [eauto|]. discriminate.
      * apply reloads_snoc in R. destruct R as [R|(k1 & k2 & I & RK & X)]; [apply A; right; exact R|].
        inversion X; subst. apply A. left. split; [eauto|]. eauto.
Qed.
End Facts.

(** ** C85 *)
(** Sequentially: the regions a core may access are exactly those that belonged to the OS
    right after its last successful block or assign. *)
Theorem C85_bitmap_exact : forall P top pb rb G s0 h1 c k s1 h2 s q,
  started P top pb rb G s0 -> reloads k = true ->
  history G pb rb s0 (h1 ++ [(ECall c k, 0)]) s1 -> history G pb rb s1 h2 s ->
  none (ok_reload_by c) h2 -> c < g_core_count G -> q < g_dram_region_count G ->
  (drb_bit (s_cores s c) q = true <-> owner_of G s1 q = 0).
Proof.
  intros P top pb rb G s0 h1 c k s1 h2 s q ST RK H1 H2 NR C Q.
  destruct (started_geom _ _ _ _ _ _ ST) as [g HD].
  destruct (started_shows _ _ _ _ _ _ ST) as [ac [c0 [_ [_ K0]]]].
  destruct (history_refines G pb rb g HD s0 _ _ s1 K0 H1) as [M1 [MH1 K1]].
  destruct (history_refines G pb rb g HD s1 _ h2 s K1 H2) as [M [MH2 K]].
  rewrite (sh_access _ _ _ K c q C Q), (mhist_access _ _ _ _ c M1 h2 M MH2 NR), (sh_owner _ _ _ K1 q Q).
  apply mhist_snoc_inv in MH1 as [M2 [_ E]]. apply effect_granting in E.
  destruct E as [X _ _|q' _ _ A _]; [rewrite RK in X; discriminate|].
  rewrite A, upd_same. destruct (m_owner M1 q); cbn; split; congruence.
Qed.
(** A core that never reloaded keeps what the boot gave it: every region if it booted. *)
Theorem C85_bitmap_boot : forall P top pb rb G s0 h s c q,
  started P top pb rb G s0 -> history G pb rb s0 h s -> none (ok_reload_by c) h ->
  c < g_core_count G -> q < g_dram_region_count G ->
  drb_bit (s_cores s c) q = drb_bit (s_cores s0 c) q.
Proof.
  intros P top pb rb G s0 h s c q ST H NR C Q.
  destruct (started_geom _ _ _ _ _ _ ST) as [g HD].
  destruct (started_shows _ _ _ _ _ _ ST) as [ac [c0 [_ [_ K0]]]].
  destruct (history_refines G pb rb g HD s0 _ h s K0 H) as [M [MH K]].
  rewrite (sh_access _ _ _ K c q C Q), (sh_access _ _ _ K0 c q C Q).
  rewrite (mhist_access _ _ _ _ c _ h M MH NR). reflexivity.
Qed.

(** Under concurrency: if region [r] does not belong to the OS, no block or assign of it was
    reported during [l2], and every core made some successful block or assign call
    during [l2], then once all calls have returned no core can access the region. *)
Theorem C85_revocation_partial : forall P top pb rb G s0 (allowed : call -> Prop) l1 l2 x r,
  started P top pb rb G s0 -> (forall k, allowed k -> safe_call G k) ->
  observed G pb rb allowed s0 (l1 ++ l2) x -> quiet G x ->
  r < g_dram_region_count G -> owner_of G (cf_state x) r <> 0 ->
  ~ reports_move r l2 -> (forall c, c < g_core_count G -> reloads_in c l2) ->
  forall c a, c < g_core_count G -> region_of pb rb a = r ->
    ~ cpu_may_access pb rb (s_cores (cf_state x) c) a.
Proof.
  intros P top pb rb G s0 allowed l1 l2 x r ST AL OB Q R NO NM RL c a C A [X _].
  destruct (C76_linearizable_partial P top pb rb G s0 allowed ST AL) as [ac [K0 LIN]].
  destruct (LIN _ x OB) as (H & M & st & AT & NC & _ & _ & _ & K). specialize (K Q).
  rewrite A, (sh_access _ _ _ K c r C R) in X. rewrite (sh_owner _ _ _ K r R) in NO.
  destruct (revoked_at _ _ _ _ _ r _ _ _ _ AT l1 l2 eq_refl) as [[(c' & D)|MV]|[O|V]].
  - assert (I : cf_task x c' = Idle).
    { destruct (N.lt_ge_cases c' (g_core_count G)); [apply Q; auto|eapply no_core; eauto]. }
    apply NC in I. destruct D as [D|(e & D)]; congruence.
  - contradiction.
  - rewrite O in NO. apply NO. reflexivity.
  - rewrite (V c) in X; [discriminate|]. right. apply RL, C.
Qed.

(** ** Examples *)
(** Core 0 blocks region 5; then cores 0 and 1 block regions 6 and 7, one call starting while
    the other runs. *)
Definition ex_revoke : conf * list obs :=
  oops ex_G 50 1 (oops ex_G 50 0 (obegin ex_G 1 (CBlock 7) (oops ex_G 2 0 (obegin ex_G 0 (CBlock 6)
  (oops ex_G 50 0 (obegin ex_G 0 (CBlock 5) (initial ex_s0, []))))))).
Definition ex_r1 : list obs := [Start 0 (CBlock 5); Finish 0 (CBlock 5) ok].
Definition ex_r2 : list obs := [Start 0 (CBlock 6); Start 1 (CBlock 7); Finish 0 (CBlock 6) ok; Finish 1 (CBlock 7) ok].
Example C85_example : observed ex_G 6 4 (safe_call ex_G) ex_s0 (ex_r1 ++ ex_r2) (fst ex_revoke) /\
  quiet ex_G (fst ex_revoke) /\ owner_of ex_G (cf_state (fst ex_revoke)) 5 = 1 /\
  ~ reports_move 5 ex_r2 /\ (forall c, c < g_core_count ex_G -> reloads_in c ex_r2).
Proof.
  assert (TWO : forall c, c < g_core_count ex_G -> c = 0 \/ c = 1).
  { intros c C. change (g_core_count ex_G) with 2 in C. lia. }
  split; [|split].
  - assert (E : snd ex_revoke = ex_r1 ++ ex_r2) by (vm_compute; reflexivity).
    rewrite <- E. unfold ex_revoke.
    do 2 (apply oops_observed; [vm_compute; reflexivity|]).
    apply obegin_observed; [vm_compute; reflexivity|vm_compute; reflexivity|reflexivity|exact Logic.I|].
    apply oops_observed; [vm_compute; reflexivity|].
    apply obegin_observed; [vm_compute; reflexivity|vm_compute; reflexivity|reflexivity|exact Logic.I|].
    apply oops_observed; [vm_compute; reflexivity|].
    apply obegin_observed; [vm_compute; reflexivity|vm_compute; reflexivity|reflexivity|exact Logic.I|].
    apply ob_none.
  - assert (Q : is_idle (fst ex_revoke) 0 = true /\ is_idle (fst ex_revoke) 1 = true) by (vm_compute; split; reflexivity).
    intros c C. destruct Q as [Q0 Q1]. destruct (TWO c C) as [-> | ->]; apply is_idle_task; assumption.
  - split; [vm_compute; reflexivity|]. split.
    + intros (c & [X|(e & X)]); repeat (destruct X as [X|X]; [discriminate|]); destruct X.
    + intros c C. destruct (TWO c C) as [-> | ->].
      * exists [], (CBlock 6), [Start 1 (CBlock 7)], (CBlock 6), [Finish 1 (CBlock 7) ok]. split; reflexivity.
      * exists [Start 0 (CBlock 6)], (CBlock 7), [Finish 0 (CBlock 6) ok], (CBlock 7), []. split; reflexivity.
Qed.
(** The block made by core 0 alone leaves the bitmap of core 1 as it was. *)
Example C85_before : drb_bit (s_cores (fst (do_call ex_G 0 (CBlock 5) ex_s0)) 1) 5 =
  drb_bit (s_cores ex_s0 1) 5.
Proof. vm_compute. reflexivity. Qed.

Definition P_Access_theorems := (C85_bitmap_exact, C85_bitmap_boot, C85_revocation_partial, C85_example).
Print Assumptions P_Access_theorems.
