(** * Interleaved execution: rely and guarantee of one core. *)
From Coq Require Import NArith ZArith Lia Bool List.
From Coq Require Import ZifyBool ZifyNat ZifyN.
From Verif Require Import Word Machine ModelBare ModelHash ModelInl ModelRegions
  ModelMetadata ModelEnclave ModelBoot ModelApi Lib BareProofs SpecGeometry
  GeomProofs Trace SpecMonitor SpecHistory SpecConcurrent ViewProofs SeqProofs SeqCalls SeqCalls3.
Import ListNotations.
Open Scope N_scope.
Ltac Zify.zify_post_hook ::= Z.div_mod_to_equations.

Section Rely.
Variables (G : globals) (pb rb : N).
Hypothesis g : geom G pb rb.
Variable nw : bool.
Local Notation n := (g_dram_region_count G).
Local Notation W := (g_dram_region_bitmap_words G).
Local Notation cores := (g_core_count G).

(** Which core holds the lock of a region. *)
Definition hold := N -> option N.

Definition clean (o : ost) (r : N) : Prop := o_bit o r = (o_owner o r =? 0).
Definition dma_ok (o : ost) : Prop :=
  o_dma_start o < o_dma_end o < W64 /\
  forall a, a < W64 -> (N.land a (o_dmar_mask o) = o_dmar_base o <->
                        o_dma_start o <= a < o_dma_end o).

(** Holds at every instant. *)
Record inv (o : ost) (hd : hold) : Prop := mkInv {
  i_lock : forall r, r < n -> o_lock o r = match hd r with Some _ => 1 | None => 0 end;
  i_owner : forall r, r < n -> o_owner o r < 4;
  i_owner0 : o_owner o 0 = 0;
  i_pinned : forall r, r < n -> o_pinned o r = 0;
  i_encl : forall c, c < cores -> o_encl o c = 0;
  i_clean : forall r, r < n -> clean o r \/ exists c, hd 0 = Some c /\ hd r = Some c;
  i_dma : dma_ok o \/ exists c, hd 0 = Some c;
  i_par : forall c a, c < cores -> a < g_monitor_top G ->
    N.land a (r_par_mask (o_regs o c)) = r_par_base (o_regs o c);
  i_flushed : nw = true -> forall c, c < cores -> o_flushed o c <= o_clock o }.

(** What core [c], holding the locks [h], knows of the actual state [o1] when it
    last knew [o]. *)
Record agree (c : N) (h : N -> bool) (o o1 : ost) : Prop := mkAgree {
  a_owner : forall r, r < n -> h r = true -> o_owner o1 r = o_owner o r;
  a_blocked : forall r, r < n -> h r = true -> o_blocked o1 r = o_blocked o r;
  a_bit : forall r, r < n -> h r = true -> o_bit o1 r = o_bit o r;
  a_bits : h 0 = true -> forall j, j < 64 * W -> o_bit o1 j = o_bit o j;
  a_dma : h 0 = true -> o_dmar_base o1 = o_dmar_base o /\ o_dmar_mask o1 = o_dmar_mask o /\
    o_dma_start o1 = o_dma_start o /\ o_dma_end o1 = o_dma_end o;
  a_flushed : o_flushed o1 c = o_flushed o c;
  a_mono : nw = true -> forall c', c' < cores -> o_flushed o c' <= o_flushed o1 c';
  a_clock : nw = true -> o_clock o <= o_clock o1 }.

Definition res (c : N) (hd : hold) (h : N -> bool) : Prop :=
  forall r, r < n -> (h r = true <-> hd r = Some c).

(** Calls that change neither owners, times, the DMA range nor registers. *)
Definition calm (k : call) : bool :=
  match k with
  | CBlock _ | CAssign _ _ | CFree _ | CCreateMetadataRegion _ | CSetDmaRange _ _ | CFlush => false
  | _ => true
  end.
(** What a step of core [c] running call [k] may do. *)
Record gua (c : N) (k : call) (o : op) (o1 : ost) (hd1 : hold) (o2 : ost) (hd2 : hold)
  : Prop := mkGua {
  g_cells : forall r, r < n -> hd1 r <> Some c ->
    o_owner o2 r = o_owner o1 r /\ o_blocked o2 r = o_blocked o1 r /\ o_bit o2 r = o_bit o1 r;
  g_hold : forall r, r < n -> hd2 r = hd1 r \/ (hd1 r = None /\ hd2 r = Some c) \/
    (hd1 r = Some c /\ hd2 r = None);
  g_os : hd1 0 <> Some c -> (forall j, j < 64 * W -> o_bit o2 j = o_bit o1 j) /\
    o_dmar_base o2 = o_dmar_base o1 /\ o_dmar_mask o2 = o_dmar_mask o1 /\
    o_dma_start o2 = o_dma_start o1 /\ o_dma_end o2 = o_dma_end o1;
  g_flushed : forall c', c' <> c -> o_flushed o2 c' = o_flushed o1 c';
  g_mono : nw = true -> o_clock o1 <= o_clock o2 /\
    forall c', c' < cores -> o_flushed o1 c' <= o_flushed o2 c';
  g_change : forall r, r < n -> o_owner o2 r <> o_owner o1 r ->
    hd1 r = Some c /\ owner_change k r (o_owner o1 r) (o_owner o2 r);
  g_free : nw = true -> forall r, r < n -> o_owner o1 r = 1 -> o_owner o2 r = 3 ->
    forall c', c' < cores -> o_blocked o1 r <= o_flushed o1 c';
  g_clr : forall r, r < n -> o = OClr (lock_addr G r) -> hd1 r = Some c;
  g_store : match o with
            | OSt _ a v => forall r, r < n -> a = g_dram_region G + 40 * r + 8 ->
                hd1 r = Some c /\ owner_change k r (o_owner o1 r) v
            | _ => True
            end;
  g_calm : calm k = true ->
    (forall r, r < n -> o_owner o2 r = o_owner o1 r) /\
    (forall r, r < n -> o_blocked o2 r = o_blocked o1 r) /\
    o_clock o2 = o_clock o1 /\
    (forall c', c' < cores -> o_flushed o2 c' = o_flushed o1 c') /\
    (o_dma_start o2 = o_dma_start o1 /\ o_dma_end o2 = o_dma_end o1) /\
    (forall c', o_regs o2 c' = o_regs o1 c') }.
Ltac calm_tac := lazymatch goal with
  | |- calm _ = true -> _ => solve [intros; congruence | intros _; repeat split; intros; reflexivity]
  end.

Definition hold_after (c : N) (o : op) (v : N) (hd : hold) : hold :=
  fun r => match o with
           | OTas a => if (a =? lock_addr G r) && (v =? 0) then Some c else hd r
           | OClr a => if a =? lock_addr G r then None else hd r
           | _ => hd r
           end.

Fixpoint safe {A} (c : N) (k : call) (p : prog A) (h : N -> bool) (o : ost)
  (Q : A -> (N -> bool) -> ost -> Prop) : Prop :=
  match p with
  | Ret a => Q a h o
  | Stop => True
  | Do x f =>
      forall s1 o1 hd1, view G s1 o1 -> inv o1 hd1 -> res c hd1 h -> agree c h o o1 ->
      forall s2 v, step c x s1 = (s2, v) ->
        (nw = true -> clock_of G s1 <= clock_of G s2) ->
        exists o2, view G s2 o2 /\ inv o2 (hold_after c x v hd1) /\
          gua c k x o1 hd1 o2 (hold_after c x v hd1) /\
          exists h' o', res c (hold_after c x v hd1) h' /\ agree c h' o' o2 /\
            safe c k (f v) h' o' Q
  end.

(** ** Structure *)
Lemma agree_refl c h o : agree c h o o.
Proof. constructor; auto; intros; lia. Qed.
Lemma agree_trans c h o o1 o2 : agree c h o o1 -> agree c h o1 o2 -> agree c h o o2.
Proof.
  intros [A1 A2 A3 A4 A5 A6 A7 A8] [B1 B2 B3 B4 B5 B6 B7 B8]. constructor; intros.
  - rewrite B1, A1; auto.
  - rewrite B2, A2; auto.
  - rewrite B3, A3; auto.
  - rewrite B4, A4; auto.
  - destruct (A5 H) as (X1 & X2 & X3 & X4), (B5 H) as (Y1 & Y2 & Y3 & Y4). repeat split; congruence.
  - congruence.
  - specialize (A7 H c' H0). specialize (B7 H c' H0). lia.
  - specialize (A8 H). specialize (B8 H). lia.
Qed.
Lemma safe_agree {A} c k (p : prog A) : forall h o o1 (Q : A -> (N -> bool) -> ost -> Prop),
  (forall a h o o1, agree c h o o1 -> Q a h o -> Q a h o1) ->
  agree c h o o1 -> safe c k p h o Q -> safe c k p h o1 Q.
Proof.
  destruct p as [a|x f|]; intros h o o1 Q MQ AG S; cbn [safe] in *; [eauto| |exact I].
  intros s1 o2 hd1 V I R A2. apply S; auto. eapply agree_trans; eauto.
Qed.
Lemma safe_weaken {A} c k (p : prog A) : forall h o (Q Q' : A -> (N -> bool) -> ost -> Prop),
  (forall a h o, Q a h o -> Q' a h o) -> safe c k p h o Q -> safe c k p h o Q'.
Proof.
  induction p as [a|x f IH|]; intros h o Q Q' HQ S; cbn [safe] in *; auto.
  intros s1 o1 hd1 V I R AG s2 v ST NW.
  destruct (S s1 o1 hd1 V I R AG s2 v ST NW) as (o2 & V2 & I2 & G2 & h' & o' & R' & A' & S').
  exists o2. repeat (split; [assumption|]). exists h', o'. repeat (split; [assumption|]).
  eapply IH; eauto.
Qed.
Lemma safe_bind {A B} c k (p : prog A) (f : A -> prog B) : forall h o (Q : B -> (N -> bool) -> ost -> Prop),
  safe c k p h o (fun a h' o' => safe c k (f a) h' o' Q) -> safe c k (bind p f) h o Q.
Proof.
  induction p as [a|x f0 IH|]; intros h o Q S; cbn [safe bind] in *; auto.
  intros s1 o1 hd1 V I R AG s2 v ST NW.
  destruct (S s1 o1 hd1 V I R AG s2 v ST NW) as (o2 & V2 & I2 & G2 & h' & o' & R' & A' & S').
  exists o2. repeat (split; [assumption|]). exists h', o'. repeat (split; [assumption|]).
  apply IH. exact S'.
Qed.
Lemma safe_ret {A} c k (a : A) h o (Q : A -> (N -> bool) -> ost -> Prop) :
  Q a h o -> safe c k (Ret a) h o Q.
Proof. auto. Qed.

Lemma n_pos : 0 < n.
Proof. pose proof (layout _ _ _ g) as (L1 & L2 & L3 & L4 & L5 & L6 & L7 & L8). lia. Qed.

(** Locks held by others are not affected by their being relabelled. *)
Lemma inv_hold o hd hd' : (forall r, r < n -> hd' r = hd r) -> inv o hd -> inv o hd'.
Proof.
  intros E [I1 I2 I3 I4 I5 I6 I7 I8 I9]. constructor; auto.
  - intros r R. rewrite E by auto. auto.
  - intros r R. rewrite !E by (auto using n_pos). auto.
  - rewrite E by (auto using n_pos). auto.
Qed.
Lemma res_hold c hd hd' h : (forall r, r < n -> hd' r = hd r) -> res c hd h -> res c hd' h.
Proof. intros E H r R. rewrite E by auto. auto. Qed.

Lemma gua_same c k x o hd hd' : (forall r, r < n -> hd' r = hd r) ->
  (forall r, r < n -> x <> OClr (lock_addr G r)) -> (forall m a v, x <> OSt m a v) ->
  gua c k x o hd o hd'.
Proof.
  intros E NC NS. constructor; try calm_tac; intros; auto.
  - repeat split; lia.
  - contradiction.
  - lia.
  - exfalso. eapply NC; eauto.
  - destruct x; auto. exfalso. eapply NS. reflexivity.
Qed.

(** An operation that changes nothing in the view. *)
Lemma safe_silent {A} c k x (f : N -> prog A) h o (Q : A -> (N -> bool) -> ost -> Prop) (P : N -> ost -> Prop) :
  (match x with OLd _ _ | OCore | OGetDmaStart | OGetDmaEnd | OUb _ => True | _ => False end) ->
  (forall s1 o1 hd1, view G s1 o1 -> inv o1 hd1 -> res c hd1 h -> agree c h o o1 ->
     P (snd (step c x s1)) o1) ->
  (forall v o1, P v o1 -> agree c h o o1 -> exists o', agree c h o' o1 /\ safe c k (f v) h o' Q) ->
  safe c k (Do x f) h o Q.
Proof.
  intros SL PV S s1 o1 hd1 V I R AG s2 v ST NW.
  assert (V2 : view G s2 o1).
  { destruct x; try contradiction; cbn in ST; inversion ST; subst; auto.
    destruct V. constructor; cbn; auto. }
  assert (E : forall r, r < n -> hold_after c x v hd1 r = hd1 r).
  { intros r _. destruct x; try contradiction; reflexivity. }
  exists o1. split; [exact V2|]. split; [eapply inv_hold; eauto|]. split.
  { apply gua_same; [exact E| |]; intros; destruct x; try contradiction; discriminate. }
  specialize (PV s1 o1 hd1 V I R AG). rewrite ST in PV. cbn [snd] in PV.
  destruct (S v o1 PV AG) as [o' [A' S']]. exists h, o'.
  split; [eapply res_hold; eauto|]. auto.
Qed.

Lemma safe_load_any c k a h o (Q : N -> (N -> bool) -> ost -> Prop) :
  (forall v, v < W64 -> Q v h o) -> safe c k (load64 a) h o Q.
Proof.
  intros H. apply (safe_silent c k _ _ h o Q (fun v _ => v < W64)); [exact I| |].
  - intros. cbn. apply ld8_bound.
  - intros v o1 L AG. exists o. split; [exact AG|]. apply H, L.
Qed.
Lemma safe_core c k h o (Q : N -> (N -> bool) -> ost -> Prop) :
  Q c h o -> safe c k (op1 OCore) h o Q.
Proof.
  intros H. apply (safe_silent c k _ _ h o Q (fun v _ => v = c)); [exact I|auto|].
  intros v o1 -> AG. exists o. auto.
Qed.
Lemma safe_get_dma c k x h o (Q : N -> (N -> bool) -> ost -> Prop) :
  x = OGetDmaStart \/ x = OGetDmaEnd -> (forall v, Q v h o) -> safe c k (op1 x) h o Q.
Proof.
  intros X H. apply (safe_silent c k _ _ h o Q (fun v _ => True)); [destruct X; subst; exact I|auto|].
  intros v o1 _ AG. exists o. split; [exact AG|]. apply H.
Qed.
Lemma safe_ub c k b code h o (Q : unit -> (N -> bool) -> ost -> Prop) :
  Q tt h o -> safe c k (ub_if b code) h o Q.
Proof.
  intros H. unfold ub_if. destruct b; [|exact H].
  apply (safe_silent c k _ _ h o Q (fun v _ => True)); [exact I|auto|].
  intros v o1 _ AG. exists o. auto.
Qed.
Lemma safe_owner_held c k r h o (Q : N -> (N -> bool) -> ost -> Prop) : r < n -> h r = true ->
  Q (o_owner o r) h o -> safe c k (load64 (wadd (region_addr G r) dri_owner)) h o Q.
Proof.
  intros R HR H. rewrite (raddr G pb rb g) by (auto; reflexivity). change dri_owner with 8.
  apply (safe_silent c k _ _ h o Q (fun v _ => v = o_owner o r)); [exact I| |].
  - intros s1 o1 hd1 V _ _ AG. cbn -[ld]. rewrite (v_owner _ _ _ V r R). apply (a_owner _ _ _ _ AG); auto.
  - intros v o1 -> AG. exists o. auto.
Qed.
Lemma safe_owner_any c k r h o (Q : N -> (N -> bool) -> ost -> Prop) : r < n ->
  (forall v, v < 4 -> (r = 0 -> v = 0) -> Q v h o) ->
  safe c k (load64 (wadd (region_addr G r) dri_owner)) h o Q.
Proof.
  intros R H. rewrite (raddr G pb rb g) by (auto; reflexivity). change dri_owner with 8.
  apply (safe_silent c k _ _ h o Q (fun v _ => v < 4 /\ (r = 0 -> v = 0))); [exact I| |].
  - intros s1 o1 hd1 V I _ AG. cbn -[ld]. rewrite (v_owner _ _ _ V r R). split.
    + apply (i_owner _ _ I); auto.
    + intros ->. apply (i_owner0 _ _ I).
  - intros v o1 [X1 X2] AG. exists o. split; [exact AG|]. apply H; auto.
Qed.
Lemma safe_blocked c k r h o (Q : N -> (N -> bool) -> ost -> Prop) : r < n -> h r = true ->
  Q (o_blocked o r) h o -> safe c k (load64 (wadd (region_addr G r) dri_blocked_at)) h o Q.
Proof.
  intros R HR H. rewrite (raddr G pb rb g) by (auto; reflexivity). change dri_blocked_at with 32.
  apply (safe_silent c k _ _ h o Q (fun v _ => v = o_blocked o r)); [exact I| |].
  - intros s1 o1 hd1 V _ _ AG. cbn -[ld]. rewrite (v_blocked _ _ _ V r R). apply (a_blocked _ _ _ _ AG); auto.
  - intros v o1 -> AG. exists o. auto.
Qed.
Lemma safe_current c k h o (Q : N -> (N -> bool) -> ost -> Prop) : c < cores ->
  Q 0 h o -> safe c k (current_enclave G) h o Q.
Proof.
  intros C H. unfold current_enclave, current_core_info.
  apply safe_bind, safe_bind, safe_core, safe_ret.
  rewrite (caddr G pb rb g) by (auto; reflexivity). change ci_enclave_id with 0. rewrite N.add_0_r.
  apply (safe_silent c k _ _ h o Q (fun v _ => v = 0)); [exact I| |].
  - intros s1 o1 hd1 V I _ AG. cbn -[ld]. rewrite (v_encl _ _ _ V c C). apply (i_encl _ _ I); auto.
  - intros v o1 -> AG. exists o. auto.
Qed.
(** The flush times read are lower bounds of the later ones. *)
Lemma safe_flushed c k i h o (Q : N -> (N -> bool) -> ost -> Prop) : i < cores ->
  (forall v, Q v h (with_flushed o i v)) ->
  safe c k (load64 (wadd (core_addr G i) ci_flushed_at)) h o Q.
Proof.
  intros C H. rewrite (caddr G pb rb g) by (auto; reflexivity). change ci_flushed_at with 24.
  apply (safe_silent c k _ _ h o Q (fun v o1 => v = o_flushed o1 i)); [exact I| |].
  - intros s1 o1 hd1 V _ _ AG. cbn -[ld]. apply (v_flushed _ _ _ V); auto.
  - intros v o1 -> AG. exists (with_flushed o i (o_flushed o1 i)). split; [|apply H].
    destruct AG as [A1 A2 A3 A4 A5 A6 A7 A8]. constructor; cbn; auto.
    + unfold upd. destruct (N.eqb_spec c i); [subst; reflexivity|auto].
    + intros NW c' C'. unfold upd. destruct (N.eqb_spec c' i); [subst; lia|auto].
Qed.
Lemma safe_clock c k h o (Q : N -> (N -> bool) -> ost -> Prop) : c < cores ->
  (forall v, v < W64 -> (nw = true -> o_flushed o c <= v) -> Q v h (with_clock o v)) ->
  safe c k (load64 (wadd (g_dram_regions G) drs_block_clock)) h o Q.
Proof.
  intros C H. rewrite (clock_addr G pb rb g).
  apply (safe_silent c k _ _ h o Q (fun v o1 => v = o_clock o1 /\ v < W64 /\
    (nw = true -> o_flushed o1 c <= v))); [exact I| |].
  - intros s1 o1 hd1 V I _ AG. cbn -[ld]. rewrite (v_clock _ _ _ V).
    split; [reflexivity|]. split; [rewrite <- (v_clock _ _ _ V); apply ld8_bound|].
    intros NW. apply (i_flushed _ _ I); auto.
  - intros v o1 (-> & B & F) AG. exists (with_clock o (o_clock o1)). split.
    + destruct AG as [A1 A2 A3 A4 A5 A6 A7 A8]. constructor; cbn; auto. intros; lia.
    + apply H; auto. intros NW. rewrite <- (a_flushed _ _ _ _ AG). auto.
Qed.

(** ** Locks *)
Definition tidy (h : N -> bool) (o : ost) : Prop :=
  h 0 = true -> (forall r, r < n -> clean o r) /\ dma_ok o.

Lemma tidy_agree c h o o1 hd1 : agree c h o o1 -> inv o1 hd1 -> res c hd1 h ->
  tidy h o -> tidy h o1.
Proof.
  intros A I R T H0. destruct (T H0) as [T1 T2]. split.
  - intros r RL. destruct (i_clean _ _ I r RL) as [C|[c' [C1 C2]]]; [exact C|].
    apply (R 0 n_pos) in H0. assert (c' = c) by congruence. subst c'. apply (R r RL) in C2.
    unfold clean. rewrite (a_owner _ _ _ _ A), (a_bit _ _ _ _ A) by auto. apply T1; auto.
  - destruct (a_dma _ _ _ _ A H0) as (X1 & X2 & X3 & X4). unfold dma_ok in *.
    rewrite X1, X2, X3, X4. exact T2.
Qed.

Lemma lock_addr_inj r r' : lock_addr G r = lock_addr G r' -> r = r'.
Proof. unfold lock_addr. lia. Qed.
Lemma region_addr_lock r : r < n -> wadd (region_addr G r) dri_lock = lock_addr G r.
Proof.
  intros R. rewrite (raddr G pb rb g) by (auto; reflexivity). change dri_lock with 0.
  rewrite N.add_0_r. reflexivity.
Qed.

Lemma safe_tas c k r h o (Q : bool -> (N -> bool) -> ost -> Prop) : r < n ->
  Q true h o ->
  (forall o', h r = false -> agree c h o o' ->
     (forall x, x < n -> o_owner o' x < 4) -> o_owner o' 0 = 0 ->
     (r = 0 -> tidy (upd h r true) o') -> (tidy h o -> tidy (upd h r true) o') ->
     Q false (upd h r true) o') ->
  safe c k (test_and_set_dram_region_lock G r) h o Q.
Proof.
  intros R QT QF. unfold test_and_set_dram_region_lock. rewrite region_addr_lock by auto.
  cbn [bind op1]. intros s1 o1 hd1 V I RS AG s2 v ST NW.
  cbn [step] in ST. unfold lock_addr in *.
  rewrite (v_lock _ _ _ V r R) in ST. rewrite (i_lock _ _ I r R) in ST.
  pose proof (v_set_lock G pb rb g s1 o1 r 1 eq_refl R V) as V2.
  assert (OL : forall x, x < n -> o_lock (with_lock o1 r 1) x =
     if x =? r then 1 else o_lock o1 x) by reflexivity.
  assert (AG2 : agree c h o (with_lock o1 r 1)).
  { destruct AG as [A1 A2 A3 A4 A5 A6 A7 A8]. constructor; cbn; auto. }
  destruct (hd1 r) as [cr|] eqn:HR.
  - cbn in ST. inversion ST; subst s2 v. exists (with_lock o1 r 1). split; [exact V2|].
    assert (E : forall x, x < n -> hold_after c (OTas (g_dram_region G + 40 * r)) 1 hd1 x = hd1 x).
    { intros x _. cbn. rewrite andb_false_r. reflexivity. }
    split; [|split].
    + apply (inv_hold _ hd1); [exact E|]. destruct I as [I1 I2 I3 I4 I5 I6 I7 I8 I9].
      constructor; auto. intros x X. rewrite OL by auto. destruct (N.eqb_spec x r); [|auto].
      subst. rewrite HR. reflexivity.
    + constructor; try calm_tac; cbn [with_lock o_owner o_blocked o_bit o_dmar_base o_dmar_mask o_dma_start
        o_dma_end o_flushed o_clock]; intros; auto; try (split; lia); try contradiction; try lia.
      discriminate.
    + exists h, o. split; [apply (res_hold _ hd1); auto|]. split; [exact AG2|]. exact QT.
  - cbn in ST. inversion ST; subst s2 v. exists (with_lock o1 r 1). split; [exact V2|].
    assert (E : forall x, x < n -> hold_after c (OTas (g_dram_region G + 40 * r)) 0 hd1 x =
       upd hd1 r (Some c) x).
    { intros x _. cbn. unfold lock_addr, upd. rewrite andb_true_r.
      destruct (N.eqb_spec (g_dram_region G + 40 * r) (g_dram_region G + 40 * x)),
        (N.eqb_spec x r); try reflexivity; lia. }
    assert (HF : h r = false).
    { destruct (h r) eqn:X; [|reflexivity]. apply (RS r R) in X. congruence. }
    assert (I2 : inv (with_lock o1 r 1) (upd hd1 r (Some c))).
    { destruct I as [I1 I2 I3 I4 I5 I6 I7 I8 I9]. constructor; auto.
      - intros x X. rewrite OL by auto. unfold upd. destruct (N.eqb_spec x r); auto.
      - intros x X. destruct (I6 x X) as [C|[c' [C1 C2]]]; [left; exact C|].
        right. exists c'. rewrite !upd_other by congruence. auto.
      - destruct I7 as [D|[c' C1]]; [left; exact D|]. right. exists c'.
        rewrite upd_other by congruence. auto. }
    assert (R2 : res c (upd hd1 r (Some c)) (upd h r true)).
    { intros x X. unfold upd. destruct (N.eqb_spec x r); [intuition|apply RS; auto]. }
    split; [apply (inv_hold _ (upd hd1 r (Some c))); auto|]. split.
    + constructor; try calm_tac; cbn [with_lock o_owner o_blocked o_bit o_dmar_base o_dmar_mask o_dma_start
        o_dma_end o_flushed o_clock]; intros; auto; try (split; lia); try contradiction; try lia.
      * rewrite E by auto. unfold upd. destruct (N.eqb_spec r0 r); [subst|auto].
        right. left. auto.
      * discriminate.
    + exists (upd h r true), (with_lock o1 r 1).
      split; [apply (res_hold _ (upd hd1 r (Some c))); auto|]. split; [apply agree_refl|].
      cbn [safe]. change (negb (0 =? 0)) with false.
      apply QF; auto.
      * apply (i_owner _ _ I).
      * apply (i_owner0 _ _ I).
      * intros -> _. split.
        -- intros x X. destruct (i_clean _ _ I x X) as [C|[c' [C1 C2]]]; [exact C|congruence].
        -- destruct (i_dma _ _ I) as [D|[c' C1]]; [exact D|congruence].
      * intros T H0. destruct (N.eq_dec r 0) as [Z|Z].
        -- subst r. split.
           ++ intros x X. destruct (i_clean _ _ I x X) as [C|[c' [C1 C2]]]; [exact C|congruence].
           ++ destruct (i_dma _ _ I) as [D|[c' C1]]; [exact D|congruence].
        -- rewrite upd_other in H0 by auto. exact (tidy_agree c h o o1 hd1 AG I RS T H0).
Qed.

Lemma safe_clr c k r h o (Q : unit -> (N -> bool) -> ost -> Prop) : r < n -> h r = true ->
  tidy h o -> Q tt (upd h r false) o -> safe c k (clear_dram_region_lock G r) h o Q.
Proof.
  intros R HR T H. unfold clear_dram_region_lock. rewrite region_addr_lock by auto.
  cbn [bind op1]. intros s1 o1 hd1 V I RS AG s2 v ST NW.
  cbn [step] in ST. inversion ST; subst s2 v. clear ST.
  exists (with_lock o1 r 0). split; [apply (v_set_lock G pb rb g); auto; reflexivity|].
  set (hd2 := upd hd1 r None).
  assert (E : forall x, x < n -> hold_after c (OClr (lock_addr G r)) 0 hd1 x = hd2 x).
  { intros x _. cbn. unfold hd2, upd, lock_addr.
    destruct (N.eqb_spec (g_dram_region G + 40 * r) (g_dram_region G + 40 * x)),
        (N.eqb_spec x r); try reflexivity; lia. }
  pose proof (proj1 (RS r R) HR) as HC.
  pose proof (tidy_agree c h o o1 hd1 AG I RS T) as T1.
  assert (I2 : inv (with_lock o1 r 0) hd2).
  { pose proof n_pos as NP. destruct I as [I1 I2 I3 I4 I5 I6 I7 I8 I9]. constructor; auto.
    - intros x X. cbn [with_lock o_lock]. unfold hd2, upd. destruct (N.eqb_spec x r); auto.
    - intros x X. destruct (h 0) eqn:H0.
      + left. exact (proj1 (T1 H0) x X).
      + destruct (I6 x X) as [C|[c' [C1 C2]]]; [left; exact C|]. right. exists c'.
        assert (c' <> c). { intros ->. apply (RS 0 NP) in C1. congruence. }
        unfold hd2. rewrite !upd_other by congruence. auto.
    - destruct (h 0) eqn:H0.
      + left. exact (proj2 (T1 H0)).
      + destruct I7 as [D|[c' C1]]; [left; exact D|]. right. exists c'.
        assert (c' <> c). { intros ->. apply (RS 0 NP) in C1. congruence. }
        unfold hd2. rewrite upd_other by congruence. auto. }
  split; [apply (inv_hold _ hd2); auto|]. split.
  - constructor; try calm_tac; cbn [with_lock o_owner o_blocked o_bit o_dmar_base o_dmar_mask o_dma_start
        o_dma_end o_flushed o_clock]; intros; auto; try (split; lia); try contradiction; try lia.
    + rewrite E by auto. unfold hd2, upd. destruct (N.eqb_spec r0 r); [subst|auto].
      right. right. auto.
    + inversion H1 as [X]. apply lock_addr_inj in X. subst. exact HC.
  - exists (upd h r false), o. split.
    + apply (res_hold _ hd2); auto. intros x X. unfold hd2, upd.
      destruct (N.eqb_spec x r); [intuition congruence|apply RS; auto].
    + split; [|exact H].
      assert (M : forall x, upd h r false x = true -> h x = true).
      { intros x. unfold upd. destruct (x =? r); [discriminate|auto]. }
      destruct AG as [A1 A2 A3 A4 A5 A6 A7 A8]. constructor; cbn; auto.
Qed.

(** ** Stores *)
(** An operation on no lock. *)
Lemma safe_step {A} c k x (f : N -> prog A) h o (Q : A -> (N -> bool) -> ost -> Prop) :
  (forall v hd r, r < n -> hold_after c x v hd r = hd r) ->
  (forall r, r < n -> x <> OClr (lock_addr G r)) ->
  (forall s1 o1 hd1, view G s1 o1 -> inv o1 hd1 -> res c hd1 h -> agree c h o o1 ->
     forall s2 v, step c x s1 = (s2, v) ->
       (nw = true -> clock_of G s1 <= clock_of G s2) ->
       exists o2, view G s2 o2 /\ inv o2 hd1 /\ gua c k x o1 hd1 o2 hd1 /\
         exists o', agree c h o' o2 /\ safe c k (f v) h o' Q) ->
  safe c k (Do x f) h o Q.
Proof.
  intros E NC S s1 o1 hd1 V I R AG s2 v ST NW.
  destruct (S s1 o1 hd1 V I R AG s2 v ST NW) as (o2 & V2 & I2 & G2 & o' & A' & S').
  exists o2. split; [exact V2|]. split; [apply (inv_hold _ hd1); auto|]. split.
  - destruct G2 as [G1 G2 G3 G4 G5 G6 G7 G8 G9 G10]. constructor; try assumption.
    intros r RR. left. apply E. exact RR.
  - exists h, o'. split; [apply (res_hold _ hd1); auto|]. auto.
Qed.

Lemma safe_st_prev c k r v h o (Q : N -> (N -> bool) -> ost -> Prop) : r < n -> v < W64 ->
  Q 0 h o -> safe c k (store64 (wadd (region_addr G r) dri_previous_owner) v) h o Q.
Proof.
  intros R B H. rewrite (raddr G pb rb g) by (auto; reflexivity). change dri_previous_owner with 16.
  apply safe_step; [reflexivity|discriminate|].
  intros s1 o1 hd1 V I RS AG s2 w ST NW. cbn [step] in ST. inversion ST; subst s2 w.
  exists (with_prev o1 r v). split; [apply (v_set_prev G pb rb g); auto|].
  split; [destruct I; constructor; auto|]. split.
  - constructor; try calm_tac; cbn; intros; auto; try (repeat split; lia); try contradiction; try lia. discriminate.
  - exists o. split; [|exact H]. destruct AG; constructor; auto.
Qed.
Lemma safe_st_pinned c k r h o (Q : N -> (N -> bool) -> ost -> Prop) : r < n ->
  Q 0 h o -> safe c k (store64 (wadd (region_addr G r) dri_pinned_pages) 0) h o Q.
Proof.
  intros R H. rewrite (raddr G pb rb g) by (auto; reflexivity). change dri_pinned_pages with 24.
  apply safe_step; [reflexivity|discriminate|].
  intros s1 o1 hd1 V I RS AG s2 w ST NW. cbn [step] in ST. inversion ST; subst s2 w.
  exists (with_pinned o1 r 0). split; [apply (v_set_pinned G pb rb g); auto; reflexivity|].
  split.
  { destruct I as [I1 I2 I3 I4 I5 I6 I7 I8 I9]; constructor; auto.
    intros x X. cbn. unfold upd. destruct (x =? r); auto. }
  split.
  - constructor; try calm_tac; cbn; intros; auto; try (repeat split; lia); try contradiction; try lia. discriminate.
  - exists o. split; [|exact H]. destruct AG; constructor; auto.
Qed.
Lemma safe_pinned c k r h o (Q : N -> (N -> bool) -> ost -> Prop) : r < n ->
  Q 0 h o -> safe c k (load64 (wadd (region_addr G r) dri_pinned_pages)) h o Q.
Proof.
  intros R H. rewrite (raddr G pb rb g) by (auto; reflexivity). change dri_pinned_pages with 24.
  apply (safe_silent c k _ _ h o Q (fun v _ => v = 0)); [exact I| |].
  - intros s1 o1 hd1 V I _ AG. cbn -[ld]. rewrite (v_pinned _ _ _ V r R). apply (i_pinned _ _ I); auto.
  - intros v o1 -> AG. exists o. auto.
Qed.
Lemma safe_st_blocked c k r v h o (Q : N -> (N -> bool) -> ost -> Prop) : r < n -> v < W64 ->
  calm k = false -> h r = true -> Q 0 h (with_blocked o r v) ->
  safe c k (store64 (wadd (region_addr G r) dri_blocked_at) v) h o Q.
Proof.
  intros R B CA HR H. rewrite (raddr G pb rb g) by (auto; reflexivity). change dri_blocked_at with 32.
  apply safe_step; [reflexivity|discriminate|].
  intros s1 o1 hd1 V I RS AG s2 w ST NW. cbn [step] in ST. inversion ST; subst s2 w.
  pose proof (proj1 (RS r R) HR) as HC.
  exists (with_blocked o1 r v). split; [apply (v_set_blocked G pb rb g); auto|].
  split; [destruct I; constructor; auto|]. split.
  - constructor; try calm_tac; cbn; intros; auto; try (repeat split; lia); try contradiction; try lia; try discriminate.
    split; [auto|]. split; [|auto]. unfold upd. destruct (N.eqb_spec r0 r); [congruence|auto].
  - exists (with_blocked o r v). split; [|exact H].
    destruct AG as [A1 A2 A3 A4 A5 A6 A7 A8]; constructor; auto.
    intros x X HX. cbn. unfold upd. destruct (x =? r); auto.
Qed.
Lemma safe_st_owner c k r v h o (Q : N -> (N -> bool) -> ost -> Prop) : r < n -> r <> 0 -> v < 4 ->
  h r = true -> owner_change k r (o_owner o r) v ->
  (nw = true -> o_owner o r = 1 -> v = 3 ->
     forall c', c' < cores -> o_blocked o r <= o_flushed o c') ->
  h 0 = true \/ (o_owner o r =? 0) = (v =? 0) ->
  Q 0 h (with_owner o r v) ->
  safe c k (store64 (wadd (region_addr G r) dri_owner) v) h o Q.
Proof.
  intros R RN B HR OC FL CL H.
  assert (CA : calm k = false).
  { unfold owner_change in OC. destruct OC as [[-> _]|[[-> _]|[[-> _]|[[-> _]|[-> _]]]]]; reflexivity. }
  rewrite (raddr G pb rb g) by (auto; reflexivity). change dri_owner with 8.
  apply safe_step; [reflexivity|discriminate|].
  intros s1 o1 hd1 V I RS AG s2 w ST NW. cbn [step] in ST. inversion ST; subst s2 w.
  pose proof (proj1 (RS r R) HR) as HC.
  assert (EO : o_owner o1 r = o_owner o r) by (apply (a_owner _ _ _ _ AG); auto).
  assert (EB : o_blocked o1 r = o_blocked o r) by (apply (a_blocked _ _ _ _ AG); auto).
  exists (with_owner o1 r v). split; [apply (v_set_owner G pb rb g); auto; unfold W64; lia|].
  split; [|split].
  - destruct I as [I1 I2 I3 I4 I5 I6 I7 I8 I9]. constructor; auto.
    + intros x X. cbn. unfold upd. destruct (x =? r); auto.
    + cbn. rewrite upd_other by auto. auto.
    + intros x X. unfold clean. cbn. destruct (N.eq_dec x r) as [->|NE].
      * rewrite upd_same. destruct CL as [H0|EQ].
        -- right. exists c. split; [apply (RS 0 n_pos); auto|auto].
        -- destruct (I6 r R) as [C|C]; [left|right; auto].
           unfold clean in C. rewrite <- EQ, <- EO. exact C.
      * rewrite upd_other by auto. apply I6; auto.
  - constructor; try calm_tac; cbn; intros; auto; try (repeat split; lia); try contradiction; try lia; try discriminate.
    + split; [|auto]. unfold upd. destruct (N.eqb_spec r0 r); [congruence|auto].
    + revert H1. unfold upd. destruct (N.eqb_spec r0 r) as [->|NE]; [|intros X; contradiction].
      intros _. rewrite EO. auto.
    + revert H3. unfold upd. destruct (N.eqb_spec r0 r) as [->|NE]; [|lia].
      intros V3. rewrite EB. apply N.le_trans with (o_flushed o c').
      * apply FL; auto; congruence.
      * apply (a_mono _ _ _ _ AG); auto.
    + assert (r0 = r) by lia. subst r0. rewrite EO. auto.
  - exists (with_owner o r v). split; [|exact H].
    destruct AG as [A1 A2 A3 A4 A5 A6 A7 A8]; constructor; auto.
    intros x X HX. cbn. unfold upd. destruct (x =? r); auto.
Qed.
Lemma safe_fadd c k h o (Q : N -> (N -> bool) -> ost -> Prop) : calm k = false ->
  (forall v, v < W64 -> Q v h o) ->
  safe c k (op1 (OFadd (wadd (g_dram_regions G) drs_block_clock) 1)) h o Q.
Proof.
  intros CA H. rewrite (clock_addr G pb rb g).
  apply safe_step; [reflexivity|discriminate|].
  intros s1 o1 hd1 V I RS AG s2 w ST NW. cbn [step] in ST.
  rewrite (v_clock _ _ _ V) in ST. inversion ST; subst s2 w.
  pose proof (v_set_clock G pb rb g s1 o1 (wadd (o_clock o1) 1) (wadd_lt _ _) V) as V2.
  unfold clock_of in NW. rewrite (v_clock _ _ _ V), (v_clock _ _ _ V2) in NW. cbn in NW.
  exists (with_clock o1 (wadd (o_clock o1) 1)). split; [exact V2|].
  split; [|split].
  - destruct I as [I1 I2 I3 I4 I5 I6 I7 I8 I9]. constructor; auto.
    intros X c' C'. cbn. specialize (I9 X c' C'). specialize (NW X). lia.
  - constructor; try calm_tac; cbn; intros; auto; try (repeat split; lia); try contradiction; try lia; try discriminate.
  - exists o. split.
    + destruct AG as [A1 A2 A3 A4 A5 A6 A7 A8]; constructor; auto.
      intros X. cbn. specialize (A8 X). specialize (NW X). lia.
    + apply H. rewrite <- (v_clock _ _ _ V). apply ld8_bound.
Qed.
Lemma safe_st_flushed c k v h o (Q : N -> (N -> bool) -> ost -> Prop) : c < cores -> v < W64 ->
  calm k = false ->
  (nw = true -> v <= o_clock o /\ o_flushed o c <= v) ->
  Q 0 h (with_flushed o c v) ->
  safe c k (store64 (wadd (core_addr G c) ci_flushed_at) v) h o Q.
Proof.
  intros C B CA L H. rewrite (caddr G pb rb g) by (auto; reflexivity). change ci_flushed_at with 24.
  apply safe_step; [reflexivity|discriminate|].
  intros s1 o1 hd1 V I RS AG s2 w ST NW. cbn [step] in ST. inversion ST; subst s2 w.
  exists (with_flushed o1 c v). split; [apply (v_set_flushed G pb rb g); auto|].
  split; [|split].
  - destruct I as [I1 I2 I3 I4 I5 I6 I7 I8 I9]. constructor; auto.
    intros X c' C'. cbn. unfold upd. destruct (c' =? c); [|auto].
    pose proof (a_clock _ _ _ _ AG X). specialize (L X). lia.
  - constructor; try calm_tac; cbn; intros; auto; try (repeat split; lia); try contradiction; try lia; try discriminate.
    + unfold upd. destruct (N.eqb_spec c' c); [contradiction|auto].
    + split; [lia|]. intros c' C'. unfold upd. destruct (N.eqb_spec c' c) as [->|NE]; [|lia].
      pose proof (a_flushed _ _ _ _ AG). specialize (L H0). lia.
    + exfalso. pose proof (layout _ _ _ g) as (L1 & L2 & L3 & L4 & L5 & L6 & L7 & L8). lia.
  - exists (with_flushed o c v). split; [|exact H].
    destruct AG as [A1 A2 A3 A4 A5 A6 A7 A8]; constructor; auto.
    + cbn. rewrite !upd_same. reflexivity.
    + intros X c' C'. cbn. unfold upd. destruct (c' =? c); [lia|auto].
Qed.

(** Registers of the core that no property at every instant depends on. *)
Lemma safe_regs c k x h o (Q : N -> (N -> bool) -> ost -> Prop) :
  x = OFlushTlb \/ (exists a, x = OSetDrb a) -> calm k = false -> Q 0 h o ->
  safe c k (op1 x) h o Q.
Proof.
  intros X CA H. apply safe_step.
  { intros. destruct X as [->|[a ->]]; reflexivity. }
  { intros. destruct X as [->|[a ->]]; discriminate. }
  intros s1 o1 hd1 V I RS AG s2 w ST NW.
  assert (E : exists r', view G s2 (with_regs o1 c r') /\ w = 0 /\
    r_par_base r' = r_par_base (o_regs o1 c) /\ r_par_mask r' = r_par_mask (o_regs o1 c)).
  { destruct X as [->|[a ->]]; cbn [step] in ST; inversion ST; subst s2 w; eexists.
    - split; [destruct V; constructor; cbn -[ld st]; intros; auto|].
      + instantiate (1 := ltac:(shelve)). unfold upd. destruct (c0 =? c); [reflexivity|auto].
      + cbn. rewrite (v_regs _ _ _ V). auto.
    - split; [destruct V; constructor; cbn -[ld st]; intros; auto|].
      + instantiate (1 := ltac:(shelve)). unfold upd. destruct (c0 =? c); [reflexivity|auto].
      + cbn. rewrite (v_regs _ _ _ V). auto. }
  destruct E as (r' & V2 & -> & P1 & P2).
  exists (with_regs o1 c r'). split; [exact V2|]. split; [|split].
  - destruct I as [I1 I2 I3 I4 I5 I6 I7 I8 I9]. constructor; auto.
    intros c' a C A. cbn. unfold upd. destruct (N.eqb_spec c' c) as [->|NE]; [|auto].
    rewrite P1, P2. auto.
  - constructor; try calm_tac; cbn; intros; auto; try (repeat split; lia); try contradiction; try lia.
    + destruct X as [->|[a ->]]; discriminate.
    + destruct X as [->|[a ->]]; exact Logic.I.
  - exists o. split; [|exact H]. destruct AG; constructor; auto.
Qed.

(** The word read is the one stored over later, because lock 0 protects the bitmap. *)
Lemma safe_set_bit c k j v h o (Q : unit -> (N -> bool) -> ost -> Prop) : j < n ->
  h 0 = true -> h j = true -> Q tt h (with_bit o j v) ->
  safe c k (set_enclave_region_bitmap_bit G 0 j v) h o Q.
Proof.
  intros J H0 HJ H. unfold set_enclave_region_bitmap_bit.
  change (0 =? null_enclave_id) with true. cbv iota.
  pose proof (layout _ _ _ g) as (L1 & L2 & L3 & L4 & L5 & L6 & L7 & L8).
  pose proof (word_in G pb rb g j J) as WI. unfold word_of_bit in WI.
  unfold set_bitmap_bit. rewrite wmul_small, wadd_small by lia. rewrite bit_mask_val.
  set (a := g_os_region_bitmap G + 8 * (j / 64)) in *.
  apply safe_bind.
  apply (safe_silent c k _ _ h o _ (fun w _ => w < W64 /\
    forall i, i < 64 -> N.testbit w i = o_bit o (64 * (j / 64) + i))); [exact I| |].
  { intros s1 o1 hd1 V I RS AG. cbn [step snd]. split; [apply ld8_bound|].
    intros i Hi. rewrite <- (a_bits _ _ _ _ AG H0) by lia.
    rewrite <- (v_bit _ _ _ V) by lia. rewrite bit_at_word.
    replace ((64 * (j / 64) + i) / 64) with (j / 64) by lia.
    replace ((64 * (j / 64) + i) mod 64) with i by lia. reflexivity. }
  intros w o1 [WB WV] AG. exists o. split; [exact AG|]. clear AG o1. cbn [safe].
  replace (if v then store64 a (N.lor w (2 ^ (j mod 64)))
           else store64 a (N.land w (wnot (2 ^ (j mod 64)))))
    with (store64 a (updated_word w (j mod 64) v)) by (destruct v; reflexivity).
  apply safe_bind. apply safe_step; [reflexivity|discriminate|].
  intros s1 o1 hd1 V I RS AG s2 x ST NW. cbn [step] in ST. inversion ST; subst s2 x.
  assert (EW : w = ld 8 (s_mem s1) a).
  { apply N.bits_inj. intros i. destruct (N.lt_ge_cases i 64) as [Li|Li].
    - rewrite WV by auto. rewrite <- (a_bits _ _ _ _ AG H0) by lia.
      rewrite <- (v_bit _ _ _ V) by lia. rewrite bit_at_word.
      replace ((64 * (j / 64) + i) / 64) with (j / 64) by lia.
      replace ((64 * (j / 64) + i) mod 64) with i by lia. reflexivity.
    - rewrite (testbit_small w 64), (testbit_small (ld 8 (s_mem s1) a) 64); auto.
      change (2 ^ 64) with W64. apply ld8_bound. }
  pose proof (proj1 (RS 0 n_pos) H0) as HC0. pose proof (proj1 (RS j J) HJ) as HCJ.
  exists (with_bit o1 j v). split.
  { rewrite EW. apply (v_set_bit G pb rb g); auto. }
  split; [|split].
  - destruct I as [I1 I2 I3 I4 I5 I6 I7 I8 I9]. constructor; auto.
    intros x X. unfold clean. cbn. destruct (N.eq_dec x j) as [->|NE].
    + right. exists c. auto.
    + rewrite upd_other by auto. apply I6; auto.
  - constructor; try calm_tac; cbn; intros; auto; try (repeat split; lia); try contradiction; try lia; try discriminate.
    split; [auto|]. split; [auto|]. unfold upd. destruct (N.eqb_spec r j); [congruence|auto].
  - exists (with_bit o j v). split; [|exact H].
    destruct AG as [A1 A2 A3 A4 A5 A6 A7 A8]; constructor; auto.
    + intros x X HX. cbn. unfold upd. destruct (x =? j); auto.
    + intros X x HX. cbn. unfold upd. destruct (x =? j); auto.
Qed.

Lemma safe_dma_op {A} c k x (f : N -> prog A) h o (Q : A -> (N -> bool) -> ost -> Prop) :
  (match x with OSetDmaStart _ | OSetDmaEnd _ | OSetDmarBase _ | OSetDmarMask _ => True
   | _ => False end) -> calm k = false -> h 0 = true ->
  safe c k (f 0) h (match x with
     | OSetDmaStart v => with_dma o (o_dmar_base o) (o_dmar_mask o) v (o_dma_end o)
     | OSetDmaEnd v => with_dma o (o_dmar_base o) (o_dmar_mask o) (o_dma_start o) v
     | OSetDmarBase v => with_dma o v (o_dmar_mask o) (o_dma_start o) (o_dma_end o)
     | OSetDmarMask v => with_dma o (o_dmar_base o) v (o_dma_start o) (o_dma_end o)
     | _ => o end) Q ->
  safe c k (Do x f) h o Q.
Proof.
  intros X CA H0 H. apply safe_step.
  { intros. destruct x; try contradiction; reflexivity. }
  { intros. destruct x; try contradiction; discriminate. }
  intros s1 o1 hd1 V I RS AG s2 w ST NW.
  pose proof (proj1 (RS 0 n_pos) H0) as HC0.
  destruct x; try contradiction; cbn [step] in ST; inversion ST; subst s2 w.
  1: exists (with_dma o1 v (o_dmar_mask o1) (o_dma_start o1) (o_dma_end o1)).
  2: exists (with_dma o1 (o_dmar_base o1) v (o_dma_start o1) (o_dma_end o1)).
  3: exists (with_dma o1 (o_dmar_base o1) (o_dmar_mask o1) v (o_dma_end o1)).
  4: exists (with_dma o1 (o_dmar_base o1) (o_dmar_mask o1) (o_dma_start o1) v).
  all: split; [destruct V; constructor; cbn -[ld st]; intros; auto|].
  all: split; [destruct I as [I1 I2 I3 I4 I5 I6 I7 I8 I9]; constructor; auto; right; eauto|].
  all: split;
    [constructor; try calm_tac; cbn; intros; auto; try (repeat split; lia); try contradiction; try lia; discriminate|].
  all: eexists; split; [|exact H].
  all: destruct AG as [A1 A2 A3 A4 A5 A6 A7 A8]; constructor; auto.
  all: intros _; destruct (A5 H0) as (X1 & X2 & X3 & X4); cbn; auto.
Qed.

(** ** Accesses above the monitor's tables *)
Definition high_op (x : op) : Prop :=
  match x with
  | OLd _ _ | OUb _ | OCore => True
  | OSt _ a _ | OTas a | OClr a => g_monitor_top G <= a
  | _ => False
  end.
Lemma safe_high {A} c k (p : prog A) : forall h o (Q : A -> (N -> bool) -> ost -> Prop),
  uses high_op p -> (forall a, Q a h o) -> safe c k p h o Q.
Proof.
  pose proof (layout _ _ _ g) as (L1 & L2 & L3 & L4 & L5 & L6 & L7 & L8).
  induction p as [a|x f IH|]; intros h o Q U H; cbn [safe uses] in *; auto.
  destruct U as [U1 U2].
  assert (LK : forall r, r < n -> lock_addr G r < g_monitor_top G) by (unfold lock_addr; intros; lia).
  apply safe_step.
  { intros v hd r R. specialize (LK r R). destruct x; cbn in U1; try contradiction; try reflexivity;
      cbn; destruct (N.eqb_spec a (lock_addr G r)); try reflexivity; lia. }
  { intros r R E. specialize (LK r R). subst x. cbn in U1. lia. }
  intros s1 o1 hd1 V I RS AG s2 v ST NW.
  assert (E : exists m, view G s2 (with_rest o1 m)).
  { assert (K : forall sz a w, g_monitor_top G <= a ->
      exists m, view G (set_mem s1 (st sz (s_mem s1) a w)) (with_rest o1 m)).
    { intros sz a w B.
      destruct (view_confined G pb rb g s1 o1 (st sz (s_mem s1) a w) a (a + N.of_nat sz) V)
        as [m [V' _]]; [| |eauto].
      - intros b Hb. apply (rest_high G pb rb g). lia.
      - intros b Hb. apply byte_st_out. lia. }
    assert (K0 : exists m, view G s1 (with_rest o1 m)).
    { exists (o_rest o1). destruct V; constructor; auto. }
    destruct x; cbn in U1; try contradiction; cbn [step] in ST; inversion ST; subst; auto.
    exists (o_rest o1). destruct V; constructor; cbn; auto. }
  destruct E as [m V2]. exists (with_rest o1 m). split; [exact V2|].
  split; [destruct I; constructor; auto|]. split.
  - constructor; try calm_tac; cbn; intros; auto; try (repeat split; lia); try contradiction; try lia.
    + exfalso. specialize (LK r H0). subst x. cbn in U1. lia.
    + destruct x; auto. cbn in U1. intros r R E. exfalso. lia.
  - exists o. split; [destruct AG; constructor; auto|]. apply IH; auto.
Qed.
End Rely.
