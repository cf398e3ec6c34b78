(** * Atomicity: every region call. *)
From Coq Require Import NArith ZArith Lia Bool List.
From Coq Require Import ZifyBool ZifyNat ZifyN.
From Verif Require Import Word Machine ModelBare ModelHash ModelInl ModelRegions
  ModelMetadata ModelEnclave ModelBoot ModelApi Lib BareProofs SpecGeometry
  GeomProofs Trace SpecMonitor SpecHistory SpecConcurrent ViewProofs SeqProofs SeqCalls SeqCalls2 SeqCalls3
  SeqCalls4 SeqCalls5 ConcProofs ConcCalls ConcCalls2 SpecLinear LinProofs LinOps.
Import ListNotations.
Open Scope N_scope.
Ltac Zify.zify_post_hook ::= Z.div_mod_to_equations.

Section Calls.
Variables (G : globals) (pb rb : N).
Hypothesis g : geom G pb rb.
Local Notation n := (g_dram_region_count G).
Local Notation W := (g_dram_region_bitmap_words G).
Local Notation cores := (g_core_count G).
Local Notation inv := (inv G true).
Local Notation agree := (agree G true).
Local Notation res := (res G).
Local Notation safe := (safe G true).
Local Notation tidy := (tidy G).
Local Notation linv := (linv G).
Local Notation magree := (magree G).
Local Notation mgua := (mgua G).
Local Notation teff := (teff G pb rb).
Local Notation lsafe := (lsafe G pb rb).
Local Notation same_as := (same_as G).

(** At the end of a call: no lock is held and the call took effect, or takes
    effect now without changing anything; or the call keeps the lock of region 0,
    under which nothing changed. *)
Definition lends (c : N) (k : call) (t : N) : post N := fun v h o m a st =>
  (forall r, r < n -> h r = false) /\
  (st = Some v \/ st = None /\ forall b M, teff b c k t v M M) \/
  leaky k = true /\ v = ok /\ st = None /\ (forall r, r < n -> h r = (r =? 0)) /\
  tidy h o /\ same_as c h o m a.

Lemma np : 0 < n. Proof. exact (n_pos G pb rb g). Qed.
Ltac ups := unfold upd; repeat match goal with
  | |- context [?a =? ?b] => destruct (N.eqb_spec a b) end; try congruence; auto.

(** ** Locks *)
Lemma ltas c k t r h o m a st (Q : post bool) : c < cores -> r < n -> same_as c h o m a ->
  (Q true h o m a st \/
   (st = None /\ exists v, (forall (b : Prop) M, (h 0 = true -> m_stuck M = false) -> magree c h m M ->
        (h r = false -> b \/ r = 0 /\ m_stuck M = true) ->
      teff b c k t v M M) /\ Q true h o m a (Some v))) ->
  (forall o' m', h r = false -> agree c h o o' -> magree c h m m' ->
     (forall x, x < n -> o_owner o' x < 4) -> o_owner o' 0 = 0 ->
     (tidy h o -> tidy (upd h r true) o') -> same_as c (upd h r true) o' m' a ->
     (r = 0 -> forall x, x < n -> is_os (m_owner m' x) = (o_owner o' x =? 0)) ->
     Q false (upd h r true) o' m' a st) ->
  lsafe c k t (test_and_set_dram_region_lock G r) h o m a st Q.
Proof.
  intros C R SA QT QF. apply (lsafe_tas G pb rb g); auto.
  intros o' m' HF AG MA O4 O0 T0 T1 EO EB EZ EA. apply QF; auto; [|intros Z; apply EZ; auto].
  destruct SA as [S1 S2 S3 S4]. constructor.
  - intros x X H. revert H. unfold upd. destruct (N.eqb_spec x r) as [->|NE]; [auto|]. intros H.
    rewrite (a_owner _ _ _ _ _ _ AG), (ma_owner _ _ _ _ _ MA) by auto. auto.
  - intros x X H. revert H. unfold upd. destruct (N.eqb_spec x r) as [->|NE]; [auto|]. intros H.
    rewrite (a_blocked _ _ _ _ _ _ AG), (ma_blocked _ _ _ _ _ MA) by auto. auto.
  - intros H. destruct (N.eq_dec r 0) as [->|NE]; [apply EZ; auto|]. rewrite upd_other in H by auto.
    destruct (a_dma _ _ _ _ _ _ AG H) as (_ & _ & -> & ->). destruct (ma_dma _ _ _ _ _ MA H) as [-> ->]. auto.
  - intros H x X. destruct (h 0) eqn:H0; [|auto].
    rewrite (ma_access _ _ _ _ _ MA) by auto. auto.
Qed.
Lemma lclr c k t r h o m a st (Q : post unit) : r < n -> h r = true -> tidy h o -> same_as c h o m a ->
  Q tt (upd h r false) o m a st -> lsafe c k t (clear_dram_region_lock G r) h o m a st Q.
Proof.
  intros R HR T [S1 S2 S3 S4] H. apply (lsafe_clr G pb rb g); auto.
  intros ->. split; [auto|]. split; [|auto]. intros x X HX. rewrite S1 by auto.
  destruct (m_owner m x); reflexivity.
Qed.
Lemma leffect_clr c k t r h o m a v F (Q : post unit) :
  (forall b o1 hd1 M, linv o1 hd1 M -> (h 0 = true -> m_stuck M = false) -> agree c h o o1 -> magree c h m M -> teff b c k t v M (F M)) ->
  (forall o1 hd1 M, c < cores -> linv o1 hd1 M -> res c hd1 h -> magree c h m M ->
     linv o1 hd1 (F M) /\ mgua c hd1 o1 M o1 (F M) /\ magree c h (F m) (F M)) ->
  lsafe c k t (clear_dram_region_lock G r) h o (F m) a (Some v) Q ->
  lsafe c k t (clear_dram_region_lock G r) h o m a None Q.
Proof. unfold clear_dram_region_lock. cbn [bind op1]. apply (lsafe_effect G pb rb g). Qed.
Lemma llook_clr c k t r h o m a v (Q : post unit) :
  (forall b o1 hd1 M, linv o1 hd1 M -> (h 0 = true -> m_stuck M = false) -> agree c h o o1 -> magree c h m M -> teff b c k t v M M) ->
  lsafe c k t (clear_dram_region_lock G r) h o m a (Some v) Q ->
  lsafe c k t (clear_dram_region_lock G r) h o m a None Q.
Proof. unfold clear_dram_region_lock. cbn [bind op1]. apply (lsafe_look G pb rb g). Qed.
Lemma sa_sub c h h' o m a : (forall r, r < n -> h' r = true -> h r = true) -> same_as c h o m a ->
  same_as c h' o m a.
Proof.
  intros E [S1 S2 S3 S4]. pose proof np. constructor; auto.
Qed.
Lemma sa_none c h o m a : (forall r, r < n -> h r = false) -> same_as c h o m a.
Proof. intros E. pose proof np. constructor; intros; rewrite E in *; auto; discriminate. Qed.
Lemma tidy_none h o : (forall r, r < n -> h r = false) -> tidy h o.
Proof. intros E X. rewrite E in X by exact np. discriminate. Qed.

(** ** Changes of the abstract state under locks *)
Lemma lin_set_owner c h m r w o1 hd1 M : c < cores -> r < n -> h r = true -> r <> 0 ->
  is_os (m_owner m r) = is_os w \/ h 0 = true ->
  linv o1 hd1 M -> res c hd1 h -> magree c h m M ->
  linv o1 hd1 (set_owner M r w) /\ mgua c hd1 o1 M o1 (set_owner M r w) /\
  magree c h (set_owner m r w) (set_owner M r w).
Proof.
  intros CC R HR RZ OW L RS MA. pose proof (proj1 (RS r R) HR) as HC.
  split; [|split].
  - destruct L as [L1 L2 L3 L4 L5 L6 L7 L8 L9 L10 L11]. constructor; cbn; auto.
    + intros x X H. rewrite upd_other by (intros ->; destruct (open_not _ _ _ _ CC H HC)). auto.
    + intros x X. destruct (N.eq_dec x r) as [->|NE]; [|rewrite upd_other by auto; auto].
      rewrite upd_same. destruct OW as [OW|HZ].
      * rewrite <- OW, <- (ma_owner _ _ _ _ _ MA) by auto. auto.
      * right. exists c. split; [apply (RS 0 np); auto|auto].
  - constructor; cbn; intros; auto.
    + rewrite upd_other by congruence. auto.
    + destruct (N.eq_dec r0 r) as [->|NE]; [|rewrite upd_other by auto; auto].
      rewrite upd_same. destruct OW as [OW|HZ].
      * rewrite <- OW, <- (ma_owner _ _ _ _ _ MA) by auto. auto.
      * apply (RS 0 np) in HZ. contradiction.
  - destruct MA as [A1 A2 A3 A4 A5]. constructor; cbn; auto.
    + intros x X H. unfold upd. destruct (x =? r); auto.
    + intros H x X. unfold upd. destruct (x =? r); auto.
Qed.
Lemma lin_load c h m o1 hd1 M : h 0 = true -> c < cores ->
  linv o1 hd1 M -> res c hd1 h -> magree c h m M ->
  linv o1 hd1 (load_access M c) /\ mgua c hd1 o1 M o1 (load_access M c) /\
  magree c h (load_access m c) (load_access M c).
Proof.
  intros H0 C L RS MA. pose proof (proj1 (RS 0 np) H0) as HC.
  split; [|split].
  - destruct L as [L1 L2 L3 L4 L5 L6 L7 L8 L9 L10 L11]. constructor; cbn; auto.
    intros c' x C' X NE. rewrite upd_other by congruence. auto.
  - constructor; cbn; intros; auto. rewrite upd_other by auto. auto.
  - destruct MA as [A1 A2 A3 A4 A5]. constructor; cbn; auto.
    intros x X. rewrite !upd_same. auto.
Qed.
Lemma lin_dma c h m s e o1 hd1 M : c < cores -> h 0 = true ->
  linv o1 hd1 M -> res c hd1 h -> magree c h m M ->
  linv o1 hd1 (m_set_dma M s e) /\ mgua c hd1 o1 M o1 (m_set_dma M s e) /\
  magree c h (m_set_dma m s e) (m_set_dma M s e).
Proof.
  intros CC H0 L RS MA. pose proof (proj1 (RS 0 np) H0) as HC.
  split; [|split].
  - destruct L as [L1 L2 L3 L4 L5 L6 L7 L8 L9 L10 L11]. constructor; cbn; auto.
    intros X. destruct (open_not _ _ _ _ CC X HC).
  - constructor; cbn; intros; auto. contradiction.
  - destruct MA as [A1 A2 A3 A4 A5]. constructor; cbn; auto.
Qed.
Lemma mgua_trans c hd o M1 M2 M3 : mgua c hd o M1 o M2 -> mgua c hd o M2 o M3 -> mgua c hd o M1 o M3.
Proof.
  intros [X1 X2 X3 X4 X5 X6] [Y1 Y2 Y3 Y4 Y5 Y6]. constructor; intros.
  - rewrite Y1, X1; auto.
  - rewrite Y2, X2; auto.
  - rewrite Y3, X3; auto.
  - destruct (X4 H), (Y4 H). split; congruence.
  - rewrite Y5, X5; auto.
  - auto.
Qed.

(** ** Plain operations *)
Ltac plt := unfold read_dram_region_owner, current_enclave, current_core_info, load64, store64, op1;
  cbn [bind uses];
  repeat first [apply plain_ld | apply plain_core | apply plain_dma_start | apply plain_dma_end
               | apply plain_flush_tlb | exact Logic.I | intros ? | split].
Ltac lb L := apply lsafe_bind; apply (lsafe_is_plain G pb rb g); [plt|apply (L G pb rb g true)].
Ltac lb0 L := apply lsafe_bind; apply (lsafe_is_plain G pb rb g); [plt|apply (L G pb rb g)].
Ltac sr := split; [reflexivity|].

Lemma lst_owner c k t r v h o m a st (Q : post N) : r < n -> r <> 0 -> v < 4 ->
  h r = true -> owner_change k r (o_owner o r) v ->
  (o_owner o r = 1 -> v = 3 -> forall c', c' < cores -> o_blocked o r <= o_flushed o c') ->
  h 0 = true \/ (moves k = false /\ (o_owner o r =? 0) = (v =? 0)) ->
  Q 0 h (with_owner o r v) m a st ->
  lsafe c k t (store64 (wadd (region_addr G r) dri_owner) v) h o m a st Q.
Proof.
  intros R RZ B HR OC FL CL H. apply (lsafe_is_plain G pb rb g).
  - rewrite (raddr G pb rb g) by (auto; reflexivity). change dri_owner with 8.
    cbn [uses store64 op1]. split; [apply (plain_field G pb rb g); auto; left; split; [reflexivity|tauto]|auto].
  - apply (safe_st_owner G pb rb g true); auto. tauto.
Qed.
Lemma lst_prev c k t r v h o m a st (Q : post N) : r < n -> v < W64 -> Q 0 h o m a st ->
  lsafe c k t (store64 (wadd (region_addr G r) dri_previous_owner) v) h o m a st Q.
Proof.
  intros R B H. apply (lsafe_is_plain G pb rb g).
  - rewrite (raddr G pb rb g) by (auto; reflexivity). change dri_previous_owner with 16.
    cbn [uses store64 op1]. split; [apply (plain_field G pb rb g); auto|auto].
  - apply (safe_st_prev G pb rb g true); auto.
Qed.
Lemma lst_pinned c k t r h o m a st (Q : post N) : r < n -> Q 0 h o m a st ->
  lsafe c k t (store64 (wadd (region_addr G r) dri_pinned_pages) 0) h o m a st Q.
Proof.
  intros R H. apply (lsafe_is_plain G pb rb g).
  - rewrite (raddr G pb rb g) by (auto; reflexivity). change dri_pinned_pages with 24.
    cbn [uses store64 op1]. split; [apply (plain_field G pb rb g); auto|auto].
  - apply (safe_st_pinned G pb rb g true); auto.
Qed.
Lemma lst_blocked c k t r v h o m a st (Q : post N) : r < n -> v < W64 -> calm k = false ->
  h r = true -> Q 0 h (with_blocked o r v) m a st ->
  lsafe c k t (store64 (wadd (region_addr G r) dri_blocked_at) v) h o m a st Q.
Proof.
  intros R B CA HR H. apply (lsafe_is_plain G pb rb g).
  - rewrite (raddr G pb rb g) by (auto; reflexivity). change dri_blocked_at with 32.
    cbn [uses store64 op1]. split; [apply (plain_field G pb rb g); auto|auto].
  - apply (safe_st_blocked G pb rb g true); auto.
Qed.
Lemma lset_bit c k t j v h o m a st (Q : post unit) : j < n ->
  h 0 = true -> h j = true -> Q tt h (with_bit o j v) m a st ->
  lsafe c k t (set_enclave_region_bitmap_bit G 0 j v) h o m a st Q.
Proof.
  intros J H0 HJ H. apply (lsafe_is_plain G pb rb g); [|apply (safe_set_bit G pb rb g true); auto].
  pose proof (layout _ _ _ g) as (L1 & L2 & L3 & L4 & L5 & L6 & L7 & L8).
  pose proof (word_in G pb rb g j J) as WI. unfold word_of_bit in WI.
  unfold set_enclave_region_bitmap_bit, set_bitmap_bit.
  change (0 =? null_enclave_id) with true. cbv iota.
  rewrite wmul_small, wadd_small by lia.
  cbn [bind load64 store64 op1 uses]. split; [apply plain_ld|]. intros w.
  destruct v; cbn [bind store64 op1 uses]; (split; [apply (plain_bitmap G pb rb g); lia|auto]).
Qed.
Lemma lhigh {A} c k t (p : prog A) h o m a st (Q : post A) : uses (high_op G) p ->
  (forall v, Q v h o m a st) -> lsafe c k t p h o m a st Q.
Proof.
  intros U H. apply (lsafe_is_plain G pb rb g); [apply (plain_high_uses G pb rb g); auto|].
  apply (safe_high G pb rb g); auto.
Qed.

(** A failed attempt at a lock. *)
Ltac tasf v0 := right; split; [reflexivity|]; exists v0; split.
Ltac lret := apply lsafe_ret.
Ltac allf HN := let x := fresh in let X := fresh in intros x X; specialize (HN x X); ups.

Lemma code0 w : (owner_code w =? 0) = is_os w. Proof. destruct w; reflexivity. Qed.

Lemma lin_check c t h o m a r : c < cores -> (forall x, x < n -> h x = false) ->
  lsafe c (CCheckOwnership r) t (dram_region_check_ownership G r) h o m a None (lends c (CCheckOwnership r) t).
Proof.
  intros C HN. pose proof (n_val G pb rb g) as NV.
  unfold dram_region_check_ownership, is_dynamic_dram_region, is_valid_dram_region.
  destruct (N.ltb_spec r n) as [R|R].
  2:{ rewrite andb_false_r. lret. left. split; [exact HN|]. right. split; [reflexivity|]. intros b M. right.
      split; [|reflexivity]. unfold check_ownership_table. rewrite <- NV.
      destruct (N.leb_spec n r); [|lia]. rewrite orb_true_r. reflexivity. }
  rewrite andb_true_r. destruct (N.eqb_spec r 0) as [Z|Z]; cbn [negb].
  { lret. left. split; [exact HN|]. right. split; [reflexivity|]. intros b M. right.
    split; [|reflexivity]. subst. reflexivity. }
  apply lsafe_bind, ltas; auto; [apply sa_none; auto| |].
  { tasf 3.
    - intros b M _ _ H. destruct (H ltac:(auto)) as [H'|[H' _]]; [|contradiction].
      left. split; [exact H'|]. split; [|reflexivity]. cbn. rewrite <- NV. auto.
    - lret. left. split; [exact HN|left; reflexivity]. }
  intros o1 m1 HF AG MA B Z0 T1 SA _. specialize (T1 (tidy_none h o HN)).
  cbn [negb]. lb safe_owner_held; auto; [ups|]. sr. lb safe_current; auto. sr.
  apply lsafe_bind. rewrite (sa_owner _ _ _ _ _ _ SA) by (auto; ups). rewrite code0.
  set (v := if is_os (m_owner m1 r) then monitor_ok else monitor_invalid_state).
  apply (llook_clr c _ t r _ _ _ _ v).
  { intros b o2 hd2 M L US _ MA2. right. split; [|reflexivity].
    unfold check_ownership_table. rewrite <- NV.
    destruct (N.eqb_spec r 0) as [?|_]; [contradiction|]. destruct (N.leb_spec n r); [lia|]. cbn [orb].
    rewrite (ma_owner _ _ _ _ _ MA2) by (auto; ups). unfold v. destruct (m_owner m1 r); reflexivity. }
  apply lclr; auto; [ups|]. lret. left. split; [allf HN|left; reflexivity].
Qed.
Lemma lin_state c t h o m a r : c < cores -> (forall x, x < n -> h x = false) ->
  lsafe c (CRegionState r) t (dram_region_state G r) h o m a None (lends c (CRegionState r) t).
Proof.
  intros C HN. pose proof (n_val G pb rb g) as NV.
  unfold dram_region_state, is_valid_dram_region.
  destruct (N.ltb_spec r n) as [R|R]; cbn [negb].
  2:{ lret. left. split; [exact HN|]. right. split; [reflexivity|]. intros b M. right.
      split; [|reflexivity]. unfold state_table. rewrite <- NV.
      destruct (N.leb_spec n r); [|lia]. reflexivity. }
  apply lsafe_bind, ltas; auto; [apply sa_none; auto| |].
  { tasf 3.
    - intros b M _ _ H. destruct (H ltac:(auto)) as [H'|[-> H']].
      2:{ right. split; [|reflexivity]. unfold state_table, taken. rewrite <- NV, H'.
        destruct (N.leb_spec n 0); [lia|]. reflexivity. }
      left. split; [exact H'|]. split; [|reflexivity]. cbn. rewrite <- NV. auto.
    - lret. left. split; [exact HN|left; reflexivity]. }
  intros o1 m1 HF AG MA B Z0 T1 SA _. specialize (T1 (tidy_none h o HN)).
  lb safe_owner_held; auto; [ups|]. sr.
  apply lsafe_bind. rewrite (sa_owner _ _ _ _ _ _ SA) by (auto; ups).
  set (v := if owner_code (m_owner m1 r) =? null_enclave_id then _ else _).
  apply (llook_clr c _ t r _ _ _ _ v).
  { intros b o2 hd2 M L US _ MA2. right. split; [|reflexivity].
    assert (TK : taken M r = false).
    { unfold taken. destruct (N.eqb_spec r 0) as [->|_]; [|reflexivity]. apply US, upd_same. }
    unfold state_table. rewrite TK, <- NV. destruct (N.leb_spec n r); [lia|].
    rewrite (ma_owner _ _ _ _ _ MA2) by (auto; ups). unfold v. destruct (m_owner m1 r); reflexivity. }
  apply lclr; auto; [ups|]. lret. left. split; [allf HN|left; reflexivity].
Qed.
Lemma lin_owner c t h o m a r : c < cores -> (forall x, x < n -> h x = false) ->
  lsafe c (CRegionOwner r) t (dram_region_owner G r) h o m a None (lends c (CRegionOwner r) t).
Proof.
  intros C HN. pose proof (n_val G pb rb g) as NV.
  unfold dram_region_owner, is_valid_dram_region.
  destruct (N.ltb_spec r n) as [R|R]; cbn [negb].
  2:{ lret. left. split; [exact HN|]. right. split; [reflexivity|]. intros b M. right.
      split; [|reflexivity]. unfold owner_table. rewrite <- NV.
      destruct (N.leb_spec n r); [|lia]. reflexivity. }
  apply lsafe_bind, ltas; auto; [apply sa_none; auto| |].
  { tasf 0.
    - intros b M _ _ H. destruct (H ltac:(auto)) as [H'|[-> H']].
      2:{ right. split; [|reflexivity]. unfold owner_table, taken. rewrite <- NV, H'.
        destruct (N.leb_spec n 0); [lia|]. reflexivity. }
      left. split; [exact H'|]. split; [|reflexivity]. cbn. rewrite <- NV. auto.
    - lret. left. split; [exact HN|left; reflexivity]. }
  intros o1 m1 HF AG MA B Z0 T1 SA _. specialize (T1 (tidy_none h o HN)).
  lb safe_owner_held; auto; [ups|]. sr.
  apply lsafe_bind. rewrite (sa_owner _ _ _ _ _ _ SA) by (auto; ups).
  set (v := if _ || _ then null_enclave_id else _).
  apply (llook_clr c _ t r _ _ _ _ v).
  { intros b o2 hd2 M L US _ MA2. right. split; [|reflexivity].
    assert (TK : taken M r = false).
    { unfold taken. destruct (N.eqb_spec r 0) as [->|_]; [|reflexivity]. apply US, upd_same. }
    unfold owner_table. rewrite TK, <- NV. destruct (N.leb_spec n r); [lia|].
    rewrite (ma_owner _ _ _ _ _ MA2) by (auto; ups). unfold v. destruct (m_owner m1 r); reflexivity. }
  apply lclr; auto; [ups|]. lret. left. split; [allf HN|left; reflexivity].
Qed.

Lemma lin_flush c t h o m a : c < cores -> (forall x, x < n -> h x = false) -> t <= o_clock o ->
  lsafe c CFlush t (flush_cached_dram_regions G) h o m a None (lends c CFlush t).
Proof.
  intros C HN TO. unfold flush_cached_dram_regions, dram_region_tlb_flush.
  apply lsafe_bind.
  lb safe_regs; auto. sr. lb safe_core. sr.
  apply lsafe_bind. apply (lsafe_is_plain G pb rb g); [plt|].
  apply (safe_silent G pb rb g true c CFlush _ _ h o _ (fun v o1 => v = o_clock o1 /\ v < W64 /\
    o_flushed o1 c <= v /\ t <= v)); [exact Logic.I| |].
  { intros s1 o1 hd1 V I _ AG. rewrite (clock_addr G pb rb g). cbn -[ld]. rewrite (v_clock _ _ _ V).
    split; [reflexivity|]. split; [rewrite <- (v_clock _ _ _ V); apply ld8_bound|].
    split; [apply (i_flushed _ _ _ _ I); auto|]. pose proof (a_clock _ _ _ _ _ _ AG eq_refl). lia. }
  intros v o1 (-> & B & F & TV) AG. exists o1. split; [apply agree_refl|]. sr.
  apply lsafe_bind. apply (lsafe_st_flushed G pb rb g); auto; [lia|].
  lret. lret. left. split; [exact HN|left; reflexivity].
Qed.

Lemma lin_block c t h o m a r : c < cores -> (forall x, x < n -> h x = false) ->
  lsafe c (CBlock r) t (block_dram_region G r) h o m a None (lends c (CBlock r) t).
Proof.
  intros C HN. pose proof (n_val G pb rb g) as NV. pose proof np as NP.
  unfold block_dram_region, is_dynamic_dram_region, is_valid_dram_region.
  destruct (N.ltb_spec r n) as [R|R].
  2:{ rewrite andb_false_r. lret. left. split; [exact HN|]. right. split; [reflexivity|]. intros b M. right.
      cbn [effect]. unfold block_table. rewrite <- NV.
      destruct (N.leb_spec n r); [|lia]. rewrite orb_true_r. reflexivity. }
  rewrite andb_true_r. destruct (N.eqb_spec r 0) as [Z|Z]; cbn [negb].
  { lret. left. split; [exact HN|]. right. split; [reflexivity|]. intros b M. right. subst. reflexivity. }
  assert (BT : forall M, block_table pb rb c r M = match m_owner M r with
       | OS => if m_stuck M then (concurrent_call, M)
           else if touches (m_dma_start M) (m_dma_end M)
                     (stripe_start pb rb r 0) (stripe_start pb rb (r + 1) 0)
           then (invalid_state, M)
           else (ok, load_access (tick (set_owner M r Blocked) r) c)
       | _ => (access_denied, M)
       end).
  { intros M. unfold block_table. rewrite <- NV. destruct (N.eqb_spec r 0) as [?|_]; [contradiction|].
    destruct (N.leb_spec n r); [lia|]. reflexivity. }
  apply lsafe_bind, ltas; auto; [apply sa_none; auto| |].
  { tasf 3.
    - intros b M _ _ H. destruct (H ltac:(auto)) as [H'|[H' _]]; [|contradiction].
      left. split; [exact H'|]. split; [|reflexivity]. cbn. rewrite <- NV. auto.
    - lret. left. split; [exact HN|left; reflexivity]. }
  intros o1 m1 HF AG MA B Z0 T1 SA _. specialize (T1 (tidy_none h o HN)).
  assert (UR : upd h r true r = true) by ups.
  lb safe_owner_held; auto. sr. lb safe_current; auto. sr. change null_enclave_id with 0.
  rewrite (sa_owner _ _ _ _ _ _ SA), code0 by auto.
  destruct (m_owner m1 r) eqn:OW; cbn [is_os negb].
  2,3,4: apply lsafe_bind; apply (llook_clr c _ t r _ _ _ _ access_denied);
    [intros b o2 hd2 M L US _ MA2; right; cbn [effect]; rewrite BT;
     rewrite (ma_owner _ _ _ _ _ MA2), OW by auto; reflexivity|];
    apply lclr; auto; lret; left; split; [allf HN|left; reflexivity].
  cbn [owner_code]. change (0 =? 0) with true. cbn [negb andb].
  apply lsafe_bind. lret. cbv iota.
  rewrite (region_for_0 G pb rb g).
  apply lsafe_bind, ltas; auto.
  { tasf 3.
    - intros b M _ MA2 H. destruct H as [H|[_ H]]; [rewrite upd_other by auto; auto| |].
      + left. split; [exact H|]. split; [|reflexivity]. cbn. rewrite <- NV. auto.
      + right. cbn [effect]. rewrite BT, (ma_owner _ _ _ _ _ MA2), OW, H by auto. reflexivity.
    - apply lsafe_bind, lclr; auto. lret. left. split; [allf HN|left; reflexivity]. }
  intros o2 m2 HF2 AG2 MA2 B2 Z2 T2 SA2 OS2. specialize (T2 T1). specialize (OS2 eq_refl).
  set (h2 := upd (upd h r true) 0 true) in *.
  assert (H2R : h2 r = true) by (unfold h2; ups).
  assert (H20 : h2 0 = true) by (unfold h2; ups).
  assert (H2N : forall x, x < n -> upd (upd h2 0 false) r false x = false).
  { unfold h2. allf HN. }
  assert (OW2 : m_owner m2 r = OS).
  { rewrite (ma_owner _ _ _ _ _ MA2) by auto. exact OW. }
  assert (O2 : o_owner o2 r = 0).
  { rewrite (sa_owner _ _ _ _ _ _ SA2), OW2 by auto. reflexivity. }
  destruct (T2 H20) as [TC [TD _]].
  destruct (sa_dma _ _ _ _ _ _ SA2 H20) as [DS DE].
  assert (CT : dma_range_crossed (dram_region_start G r) (dram_region_start G (wadd r 1))
      (o_dma_start o2) (o_dma_end o2) =
    touches (m_dma_start m2) (m_dma_end m2) (stripe_start pb rb r 0) (stripe_start pb rb (r + 1) 0)).
  { pose proof (layout _ _ _ g) as (L1 & L2 & L3 & L4 & L5 & L6 & L7 & L8).
    rewrite wadd_small by (unfold W64; lia).
    rewrite !(region_start_val G pb rb g), crossed_touches by
      (try lia; unfold stripe_start; rewrite N.mul_add_distr_r; lia).
    rewrite DS, DE. reflexivity. }
  apply lsafe_bind. unfold dma_check. change (0 =? 0) with true. cbv iota.
  lb0 safe_dma_start; auto. sr. lb0 safe_dma_end; auto. sr. lret. rewrite CT.
  destruct (touches _ _ _ _) eqn:TO.
  { apply lsafe_bind. apply (llook_clr c _ t 0 _ _ _ _ invalid_state).
    { intros b o3 hd3 M L US _ MA3. right. cbn [effect]. rewrite BT.
      rewrite (ma_owner _ _ _ _ _ MA3), OW2, (US H20) by auto.
      destruct (ma_dma _ _ _ _ _ MA3 H20) as [-> ->]. rewrite TO. reflexivity. }
    assert (S3 : same_as c (upd h2 0 false) o2 m2 a).
    { eapply sa_sub; [|exact SA2]. intros x X. ups. }
    apply lclr; auto. apply lsafe_bind, lclr; auto; [ups|intros X; rewrite upd_same in X; discriminate|].
    lret. left. split; [exact H2N|left; reflexivity]. }
  apply lsafe_bind, lst_prev; auto; [reflexivity|].
  apply lsafe_bind, lst_owner; [auto|auto|reflexivity|auto| | |left; auto|].
  { left. auto. }
  { intros X. exfalso. congruence. }
  apply lsafe_bind, (lsafe_fadd G pb rb g); auto. intros v V.
  apply lsafe_bind, lst_blocked; auto.
  apply lsafe_bind, lset_bit; auto.
  set (o3 := with_bit (with_blocked (with_owner o2 r blocked_enclave_id) r v) r false).
  apply lsafe_bind, (lsafe_set_drb G pb rb g); auto.
  assert (T4 : tidy h2 o3).
  { intros _. split; [|exact (proj2 (T2 H20))].
    intros x X. unfold clean, o3. cbn. unfold upd. destruct (N.eqb_spec x r); [reflexivity|].
    apply TC; auto. }
  assert (S4 : same_as c h2 o3 (blocked_m m2 c r v) (o_bit o3)).
  { destruct SA2 as [S1 S2 S3 S4]. constructor; unfold o3; cbn; auto.
    - intros x X HX. unfold upd. destruct (N.eqb_spec x r); [reflexivity|auto].
    - intros x X HX. unfold upd. destruct (N.eqb_spec x r); auto.
    - intros _ x X. rewrite upd_same. unfold upd. destruct (N.eqb_spec x r); [reflexivity|].
      rewrite OS2 by auto. apply TC. auto. }
  apply lsafe_bind, lclr; auto. apply lsafe_bind, lclr; auto; [ups| | |].
  - intros X. rewrite upd_same in X. discriminate.
  - eapply sa_sub; [|exact S4]. intros x X. ups.
  - lret. left. split; [exact H2N|left; reflexivity].
Qed.
End Calls.
