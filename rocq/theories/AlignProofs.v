(** * The operations of the API calls are naturally aligned. *)
From Coq Require Import NArith ZArith Lia Bool List.
From Coq Require Import ZifyBool ZifyNat ZifyN.
From Verif Require Import Word Machine ModelBare ModelHash ModelInl ModelRegions
  ModelMetadata ModelEnclave ModelBoot ModelApi Lib BareProofs BootProofs SpecGeometry
  GeomProofs Trace SpecMonitor SpecHistory ViewProofs SeqProofs SeqCalls SeqCalls2 SeqCalls3
  SeqCalls4 SeqCalls5 ConcCalls2 SpecConcurrent SpecAtomic AtomicProofs SpecAlign.
Import ListNotations.
Open Scope N_scope.
Ltac Zify.zify_post_hook ::= Z.div_mod_to_equations.

Definition al8 (a : N) : Prop := a mod 8 = 0.
Definition al4 (a : N) : Prop := a mod 4 = 0.
Lemma al84 a : al8 a -> al4 a. Proof. unfold al8, al4. lia. Qed.
Lemma al8_wadd a b : al8 a -> al8 b -> al8 (wadd a b).
Proof. unfold al8, wadd, W64. lia. Qed.
Lemma al4_wadd a b : al4 a -> al4 b -> al4 (wadd a b).
Proof. unfold al4, wadd, W64. lia. Qed.
Lemma al8_wmul k x : al8 k -> al8 (wmul k x).
Proof.
  unfold al8, wmul. intros H. apply N.mod_divide in H; [|lia]. destruct H as [q ->].
  replace (q * 8 * x) with (q * x * 8) by lia. generalize (q * x). unfold W64. lia.
Qed.
Lemma al4_mul x : al4 (4 * x). Proof. unfold al4. lia. Qed.
Lemma al8_land a b : al8 b -> al8 (N.land a b).
Proof.
  unfold al8. change 8 with (2 ^ 3). rewrite <- !N.land_ones. intros H.
  rewrite <- N.land_assoc, H. apply N.land_0_r.
Qed.
Lemma al8_page a : is_page_aligned a = true -> al8 a.
Proof. intros H. apply page_aligned_iff in H. unfold al8. lia. Qed.

Ltac al := lazymatch goal with
  | |- al8 (wadd _ _) => apply al8_wadd; al
  | |- al8 (wmul _ _) => apply al8_wmul; reflexivity
  | |- al4 (wadd _ _) => apply al4_wadd; al
  | |- al4 (4 * _) => apply al4_mul
  | _ => first [assumption | apply al84; assumption | reflexivity]
  end.

Notation nat_al := naturally_aligned.
Lemma u_ld8 a : al8 a -> uses nat_al (load64 a). Proof. cbn. auto. Qed.
Lemma u_st8 a v : al8 a -> uses nat_al (store64 a v). Proof. cbn. auto. Qed.
Lemma u_ld4 a : al4 a -> uses nat_al (load32 a). Proof. cbn. auto. Qed.
Lemma u_st4 a v : al4 a -> uses nat_al (store32 a v). Proof. cbn. auto. Qed.
Ltac u1 := apply uses_bind;
  [first [apply u_ld8; al | apply u_st8; al | apply u_ld4; al | apply u_st4; al]|intros ?].

Lemma u_bzero a k : al8 a -> uses nat_al (bzero64 a k).
Proof. intros A. unfold bzero64. apply uses_for_n. intros j. u1. exact I. Qed.
Lemma u_bcopy d s k : al8 d -> al8 s -> uses nat_al (bcopy64 d s k).
Proof. intros A B. unfold bcopy64. apply uses_for_n. intros j. u1. u1. exact I. Qed.
Lemma u_schedule w b i : al4 w -> al4 b -> uses nat_al (sha_schedule w b i).
Proof.
  intros A B. unfold sha_schedule. destruct (i <? 16).
  - u1. u1. exact I.
  - u1. u1. u1. u1. u1. exact I.
Qed.
Lemma u_rounds w b : al4 w -> al4 b -> forall m i v, uses nat_al (sha_rounds m w b i v).
Proof.
  intros A B. induction m as [|m IH]; intros i v; cbn [sha_rounds]; [exact I|].
  apply uses_bind; [apply u_schedule; auto|]. intros wi. apply IH.
Qed.
Lemma u_hash_add p j x : al4 p -> uses nat_al (hash_add p j x).
Proof. intros A. unfold hash_add. u1. u1. exact I. Qed.
Lemma u_extend st b : al4 st -> al4 b -> uses nat_al (extend_hash st b).
Proof.
  intros A B. unfold extend_hash. assert (H : al4 (wadd st hs_h)) by al.
  cbv zeta. do 8 u1. apply uses_bind; [apply u_rounds; al|]. intros v.
  do 8 (apply uses_bind; [apply u_hash_add; exact H|intros _]). u1. u1. exact I.
Qed.
Lemma u_init_hash st : al8 st -> uses nat_al (init_hash st).
Proof.
  intros A. unfold init_hash. do 8 u1.
  apply uses_bind; [apply u_bzero; al|intros _]. u1. exact I.
Qed.
Lemma u_init_enclave_hash id a b m d : al8 id -> uses nat_al (init_enclave_hash id a b m d).
Proof.
  intros A. unfold init_enclave_hash, enclave_measurement_block, extend_enclave_block. cbv zeta.
  apply uses_bind; [apply u_bzero; al|intros _].
  apply uses_bind; [apply u_init_hash; al|intros _]. do 5 u1.
  apply uses_bind; [apply u_extend; al|intros _]. do 4 u1. exact I.
Qed.
Lemma u_init_info id a b m d : al8 id -> uses nat_al (init_enclave_info id a b m d).
Proof.
  intros A. unfold init_enclave_info. apply uses_bind; [apply uses_op; cbn; change (al8 (wadd id ei_lock)); al|intros _].
  do 9 u1. apply u_init_enclave_hash; auto.
Qed.
Lemma u_thread_hash id a b d e : al8 id -> uses nat_al (extend_enclave_hash_with_thread id a b d e).
Proof.
  intros A. unfold extend_enclave_hash_with_thread, enclave_measurement_block, extend_enclave_block. cbv zeta.
  do 5 u1. apply uses_bind; [apply u_extend; al|intros _]. do 4 u1. exact I.
Qed.
Lemma u_readbit a r : al8 a -> uses nat_al (read_bitmap_bit a r).
Proof. intros A. unfold read_bitmap_bit. cbv zeta. u1. exact I. Qed.
Lemma u_setbit a r b : al8 a -> uses nat_al (set_bitmap_bit a r b).
Proof.
  intros A. unfold set_bitmap_bit. cbv zeta. u1.
  apply uses_bind; [destruct b; apply u_st8; al|]. intros _. exact I.
Qed.

Section AL.
Variables (G : globals) (pb rb : N) (g : geom G pb rb).
Variables (c : N) (HC : c < g_core_count G).
Hypothesis HT : al8 (g_core G).
Notation n := (g_dram_region_count G).

Fixpoint aligned {A} (p : prog A) (Q : A -> Prop) : Prop :=
  match p with
  | Ret a => Q a
  | Do o k => naturally_aligned o /\ forall v, may_give G c o v -> aligned (k v) Q
  | Stop => True
  end.
Lemma a_bind {A B} (p : prog A) (f : A -> prog B) Q :
  aligned p (fun a => aligned (f a) Q) -> aligned (bind p f) Q.
Proof. induction p as [a|o k IH|]; cbn; auto. intros [H1 H2]. split; auto. Qed.
Lemma a_ret {A} (a : A) (Q : A -> Prop) : Q a -> aligned (Ret a) Q.
Proof. auto. Qed.
Lemma a_uses {A} (p : prog A) (Q : A -> Prop) : uses nat_al p -> (forall a, Q a) -> aligned p Q.
Proof. induction p as [a|o k IH|]; cbn; auto. intros [H1 H2] H. split; auto. Qed.
Lemma a_weaken {A} (p : prog A) (Q Q' : A -> Prop) : (forall a, Q a -> Q' a) -> aligned p Q -> aligned p Q'.
Proof. intros H. induction p as [a|o k IH|]; cbn; auto. intros [H1 H2]. split; auto. Qed.
Definition any {A} (_ : A) : Prop := True.

(** ** Addresses of the tables *)
Lemma al_region r : al8 (region_addr G r).
Proof.
  unfold region_addr. assert (al8 (g_dram_region G)).
  { rewrite (geo_dr _ _ _ g). revert HT. unfold al8. lia. }
  al.
Qed.
Lemma al_core i : al8 (core_addr G i).
Proof. unfold core_addr. al. Qed.
Lemma al_drs : al8 (g_dram_regions G).
Proof. rewrite (geo_drs _ _ _ g), (geo_dr _ _ _ g). revert HT. unfold al8. generalize (2 ^ rb). lia. Qed.
Lemma al_bitmap : al8 (g_os_region_bitmap G).
Proof. rewrite (geo_bm _ _ _ g). pose proof al_drs as H. revert H. unfold al8. lia. Qed.
Lemma al_rmask : al8 (g_dram_region_mask G).
Proof.
  rewrite (geo_rm _ _ _ g). replace (12 + pb) with (9 + pb + 3) by lia. rewrite pow2_add.
  change (2 ^ 3) with 8. unfold al8. rewrite N.mul_assoc. apply N.mod_mul. lia.
Qed.
Lemma al_page_info id page : al8 (wadd (N.land id (g_dram_region_mask G)) (wmul 8 page)).
Proof. apply al8_wadd; [apply al8_land, al_rmask|al]. Qed.
Lemma al_start r : r < n -> al8 (dram_region_start G r).
Proof.
  intros R. rewrite (region_start_val G pb rb g) by lia. unfold stripe_start.
  rewrite N.mul_0_l, N.add_0_l. replace (12 + pb) with (9 + pb + 3) by lia. rewrite pow2_add.
  change (2 ^ 3) with 8. unfold al8. rewrite N.mul_assoc. apply N.mod_mul. lia.
Qed.
Hint Resolve al_region al_core al_drs al_bitmap : core.
Ltac al' := lazymatch goal with
  | |- al8 (wadd _ _) => apply al8_wadd; al'
  | |- al8 (wmul _ _) => apply al8_wmul; reflexivity
  | |- al8 (region_addr _ _) => apply al_region
  | |- al8 (core_addr _ _) => apply al_core
  | |- al8 (g_dram_regions _) => apply al_drs
  | |- al8 (g_os_region_bitmap _) => apply al_bitmap
  | _ => first [assumption | reflexivity]
  end.

Lemma u_tas r : uses nat_al (test_and_set_dram_region_lock G r).
Proof.
  unfold test_and_set_dram_region_lock. apply uses_bind; [|intros v; exact I].
  apply uses_op. change (al8 (wadd (region_addr G r) dri_lock)). al'.
Qed.
Lemma u_clr r : uses nat_al (clear_dram_region_lock G r).
Proof.
  unfold clear_dram_region_lock. apply uses_bind; [|intros v; exact I].
  apply uses_op. change (al8 (wadd (region_addr G r) dri_lock)). al'.
Qed.
Lemma a_tas r (Q : bool -> Prop) : (forall b, Q b) -> aligned (test_and_set_dram_region_lock G r) Q.
Proof. intros H. apply a_uses; auto. apply u_tas. Qed.
Lemma a_clr r (Q : unit -> Prop) : Q tt -> aligned (clear_dram_region_lock G r) Q.
Proof. intros H. apply a_uses; [apply u_clr|intros []; exact H]. Qed.
Lemma a_ld a (Q : N -> Prop) : al8 a -> (forall v, Q v) -> aligned (load64 a) Q.
Proof. intros A H. apply a_uses; auto. apply u_ld8; auto. Qed.
Lemma a_st a v (Q : N -> Prop) : al8 a -> (forall v, Q v) -> aligned (store64 a v) Q.
Proof. intros A H. apply a_uses; auto. apply u_st8; auto. Qed.
Lemma a_op o (Q : N -> Prop) : naturally_aligned o -> (forall v, Q v) -> aligned (op1 o) Q.
Proof. cbn. auto. Qed.
Lemma a_owner r (Q : N -> Prop) : r < n -> (forall v, v < 4 -> (r = 0 -> v = 0) -> Q v) ->
  aligned (load64 (wadd (region_addr G r) dri_owner)) Q.
Proof.
  intros R H. cbn. split; [change (al8 (wadd (region_addr G r) dri_owner)); al'|].
  rewrite (owner_raddr G pb rb g c HC) by exact R.
  intros v M. destruct M as [M _]. destruct (M r R eq_refl). auto.
Qed.
Lemma a_core (Q : N -> Prop) : Q c -> aligned (op1 OCore) Q.
Proof. cbn. intros H. split; [exact I|]. intros v [_ [M _]]. rewrite (M eq_refl). exact H. Qed.
Lemma a_cur (Q : N -> Prop) : Q 0 -> aligned (current_enclave G) Q.
Proof.
  intros H. cbn. split; [exact I|]. intros v [_ [M _]]. specialize (M eq_refl). subst v.
  split; [change (al8 (wadd (core_addr G c) ci_enclave_id)); al'|].
  change (wadd (core_addr G c) ci_enclave_id) with (wadd (core_addr G c) 0).
  rewrite (caddr G pb rb g) by (auto; reflexivity).
  rewrite N.add_0_r. intros v [_ [_ M]]. specialize (M eq_refl). subst v. exact H.
Qed.
Ltac ab L := apply a_bind; apply L.
Ltac no := apply a_ret; exact I.
Ltac ald := apply a_bind, a_ld; [al'|intros ?].
Ltac ast := apply a_bind, a_st; [al'|intros _].
Ltac aclr := apply a_bind, a_clr.
Ltac atas := apply a_bind, a_tas; intros [|].
Ltac aop := apply a_bind, a_op; [first [exact I | match goal with
  | |- naturally_aligned (OFadd ?a _) => change (al8 a); al'
  | |- naturally_aligned (_ ?a) => change (al8 a); al' end]|intros ?].
Lemma npos0 : 0 < n.
Proof. pose proof (layout _ _ _ g) as (L1 & L2 & L3 & L4 & L5 & L6 & L7 & L8). lia. Qed.

(** ** Region calls *)
Lemma a_block r : aligned (block_dram_region G r) any.
Proof.
  unfold block_dram_region, is_dynamic_dram_region, is_valid_dram_region.
  destruct (N.ltb_spec r n) as [R|R]; [|rewrite andb_false_r; no].
  rewrite andb_true_r. destruct (N.eqb_spec r 0) as [Z|Z]; cbn [negb]; [no|].
  atas; [no|].
  unfold read_dram_region_owner. ab a_owner; auto. intros ow O4 _.
  ab a_cur.
  destruct (N.eqb_spec ow 0); cbn [negb]; [|aclr; no].
  subst ow. change (0 =? null_enclave_id) with true. cbn [negb andb bind].
  rewrite (region_for_0 G pb rb g).
  atas; [aclr; no|].
  unfold dma_check. change (0 =? 0) with true. cbv iota.
  apply a_bind. aop. aop. apply a_ret.
  destruct (dma_range_crossed _ _ _ _); [aclr; aclr; no|].
  do 2 ast. aop. ast.
  unfold set_enclave_region_bitmap_bit. change (0 =? null_enclave_id) with true. cbv iota.
  apply a_bind, a_uses; [apply u_setbit; al'|intros _]. aop. aclr. aclr. no.
Qed.
Lemma a_check r : aligned (dram_region_check_ownership G r) any.
Proof.
  unfold dram_region_check_ownership, is_dynamic_dram_region, is_valid_dram_region.
  destruct (N.ltb_spec r n) as [R|R]; [|rewrite andb_false_r; no].
  rewrite andb_true_r. destruct (N.eqb_spec r 0) as [Z|Z]; cbn [negb]; [no|].
  atas; [no|].
  unfold read_dram_region_owner. ab a_owner; auto. intros ow O4 _. ab a_cur. aclr. no.
Qed.
Lemma a_state r : aligned (dram_region_state G r) any.
Proof.
  unfold dram_region_state. destruct (negb _); [no|]. atas; [no|].
  unfold read_dram_region_owner. ald. aclr. no.
Qed.
Lemma a_owner_call r : aligned (dram_region_owner G r) any.
Proof.
  unfold dram_region_owner. destruct (negb _); [no|]. atas; [no|].
  unfold read_dram_region_owner. ald. aclr. no.
Qed.
Lemma a_stripes e : forall fuel a b, aligned (dma_stripes fuel G a e b) any.
Proof.
  induction fuel as [|k IH]; intros a b; cbn [dma_stripes]; destruct (a <? e); try exact I.
  set (r := dram_region_for G a).
  apply a_bind. assert (T : forall t : bool, aligned
    (if t then Ret None else o <- load64 (wadd (region_addr G r) dri_owner) ;;
       (if negb (r =? 0) then clear_dram_region_lock G r else Ret tt) ;;
       dma_stripes k G (wadd a (g_dram_stripe_size G)) e (if negb (o =? 0) then false else b)) any).
  { intros [|]; [exact I|]. ald. apply a_bind.
    destruct (negb (r =? 0)); [apply a_clr|apply a_ret]; apply IH. }
  destruct (negb (r =? 0)); [apply a_tas; auto|apply a_ret, (T false)].
Qed.
Lemma a_set_dma a b : aligned (set_dma_range G a b) any.
Proof.
  unfold set_dma_range. destruct (negb _); [no|]. destruct (negb _); [no|].
  atas; [no|]. apply a_bind. eapply a_weaken; [|apply a_stripes].
  intros [os|] _; [|aclr; no]. do 4 aop. aclr. no.
Qed.
Lemma a_create_metadata r : aligned (create_metadata_region G r) any.
Proof.
  unfold create_metadata_region, is_valid_dram_region.
  destruct (N.ltb_spec r n) as [R|R]; cbn [negb]; [|no].
  atas; [no|].
  unfold read_dram_region_owner. ald.
  destruct (negb _); [aclr; no|]. apply a_bind. unfold init_metadata_region. do 2 ast.
  apply a_uses; [apply u_bzero, al_start, R|intros []; aclr; no].
Qed.
Lemma a_valid_id e (Q : bool -> Prop) : (e <> 0 -> Q false) -> (e = 0 -> Q true) ->
  aligned (is_valid_enclave_id G e) Q.
Proof.
  intros H1 H2. unfold is_valid_enclave_id.
  assert (CL : clamped_dram_region_for G e < n) by apply (clamped_lt G pb rb g).
  ab a_owner; auto. intros ow O5 O6. apply a_ret.
  destruct (N.eq_dec e 0) as [->|NZ].
  - assert (Z : clamped_dram_region_for G 0 = 0).
    { unfold clamped_dram_region_for. rewrite (zero_dram G pb rb g). apply (region_for_0 G pb rb g). }
    rewrite (O6 Z). auto.
  - destruct (N.eqb_spec ow e) as [->|NE]; auto. exfalso. apply NZ, O6.
    unfold clamped_dram_region_for.
    rewrite (small_region G pb rb g) by lia. destruct (is_dram_address G e); reflexivity.
Qed.
Lemma a_assign r e : aligned (assign_dram_region G r e) any.
Proof.
  unfold assign_dram_region. destruct (negb _); [no|]. atas; [no|].
  unfold read_dram_region_owner. ald. destruct (negb _); [aclr; no|].
  atas; [aclr; no|]. ab a_valid_id.
  - intros _. cbn [bind]. aclr. aclr. no.
  - intros ->. apply a_bind. ast.
    unfold set_enclave_region_bitmap_bit. change (0 =? null_enclave_id) with true. cbv iota.
    apply a_bind, a_uses; [apply u_setbit; al'|intros _].
    change (0 =? 0) with true. cbv iota.
    apply a_bind. aop. apply a_ret, a_ret. aclr. aclr. no.
Qed.
Lemma u_stale b : uses nat_al (stale_core G b).
Proof.
  unfold stale_core. apply uses_for_exit. intros j.
  apply uses_bind; [apply u_ld8; al'|]. intros v. destruct (v <? b); exact I.
Qed.
Lemma a_free r : aligned (free_dram_region G r) any.
Proof.
  unfold free_dram_region. destruct (negb _); [no|]. atas; [no|].
  unfold read_dram_region_owner. ald. apply a_bind.
  assert (E : forall v : N, aligned (clear_dram_region_lock G r ;; Ret v) any) by (intros ?; aclr; no).
  destruct (_ =? blocked_enclave_id).
  - ald. apply a_bind. apply a_uses; [apply u_stale|].
    intros [[]|]; [apply a_ret, E|]. ast. apply a_ret, E.
  - destruct (_ =? metadata_enclave_id); [|apply a_ret, E].
    ald. destruct (_ =? 0); [|apply a_ret, E]. ast. apply a_ret, E.
Qed.
Lemma a_flush : aligned (flush_cached_dram_regions G) any.
Proof.
  unfold flush_cached_dram_regions, dram_region_tlb_flush.
  apply a_bind. aop. ab a_core. aop. ast. no.
Qed.

(** ** Enclave calls that stop at the identifier check *)
Lemma a_guard e (p : prog N) : aligned
  (t <- test_and_set_dram_region_lock G (clamped_dram_region_for G e) ;;
   if (t : bool) then Ret monitor_concurrent_call else
   bad <- bad_enclave_id G e ;;
   if (bad : bool) then clear_dram_region_lock G (clamped_dram_region_for G e) ;; Ret monitor_invalid_value
   else p) any.
Proof.
  atas; [no|]. apply a_bind. unfold bad_enclave_id, null_enclave_id.
  destruct (N.eqb_spec e 0) as [->|NZ]; [apply a_ret; aclr; no|].
  ab a_valid_id; [|intros; contradiction]. intros _. apply a_ret. cbn [negb]. aclr. no.
Qed.
Lemma a_exit : aligned (exit_enclave G) any.
Proof.
  unfold exit_enclave, current_core_info. apply a_bind. ab a_core. apply a_ret.
  do 3 ald. no.
Qed.
Lemma a_delete_thread t : aligned (delete_thread G t) any.
Proof.
  unfold delete_thread. ab a_cur. atas; no.
Qed.
Lemma a_thread_pages e r : forall fuel a, aligned (thread_pages fuel G a e r) any.
Proof.
  induction fuel as [|k IH]; intros a; cbn [thread_pages]; destruct (a <? e); try exact I.
  destruct (negb _); [exact I|apply IH].
Qed.
Lemma a_create_thread t a : aligned (create_thread G t a) any.
Proof.
  unfold create_thread. do 3 (destruct (negb _); [no|]).
  ab a_cur. atas; [no|].
  apply a_bind, a_uses; [apply u_readbit; change (enclave_region_bitmap 0) with 304; reflexivity|].
  intros [|]; cbn [negb]; [|aclr; no]. apply a_bind.
  eapply a_weaken; [|apply a_thread_pages]. intros [|] _; [aclr; no|no].
Qed.

(** ** Enclave records and the metadata map *)
Lemma u_info_for {A} id (f : N -> prog A) :
  (forall a, al8 a -> uses nat_al (f a)) -> uses nat_al (bind (metadata_page_info_for G id) f).
Proof.
  intros H. unfold metadata_page_info_for, dram_region_page_for, ub_if.
  destruct (64 <=? page_for_shift G); cbn [bind uses]; [split; [exact I|intros _]|]; apply H, al_page_info.
Qed.
Lemma u_assign id count ow ty fi : uses nat_al (assign_metadata_pages G id count ow ty fi).
Proof.
  unfold assign_metadata_pages. destruct (_ <? _); [exact I|].
  apply u_info_for. intros a A. apply uses_bind.
  - apply uses_for_exit. intros j. u1. destruct (_ =? 0); exact I.
  - intros [e|]; [exact I|]. u1. apply uses_bind; [|intros _; exact I].
    apply uses_for_n. intros j. u1. exact I.
Qed.
Lemma a_lock_meta id (Q : N * N -> Prop) :
  (forall v r, v <> monitor_ok -> Q (v, r)) ->
  (al8 id -> forall r, Q (monitor_ok, r)) ->
  aligned (lock_metadata_region_for G id) Q.
Proof.
  intros QF QT. unfold lock_metadata_region_for.
  destruct (is_page_aligned id) eqn:PA; cbn [negb orb]; [|apply a_ret, QF; discriminate].
  apply al8_page in PA.
  destruct (negb _); [apply a_ret, QF; discriminate|].
  atas; [apply a_ret, QF; discriminate|]. ald. destruct (negb _).
  - aclr. apply a_ret, QF. discriminate.
  - apply a_ret, QT, PA.
Qed.
Lemma a_unlock id (Q : unit -> Prop) : al8 id -> Q tt -> aligned (unlock_enclave id) Q.
Proof. intros R H. unfold unlock_enclave. aop. apply a_ret. exact H. Qed.
Lemma a_lock_enclave id (Q : N -> Prop) :
  (forall v, v <> monitor_ok -> Q v) -> (al8 id -> Q monitor_ok) ->
  aligned (lock_enclave G id) Q.
Proof.
  intros QF QT. unfold lock_enclave. destruct (_ || _); [apply a_ret, QF; discriminate|].
  ab a_lock_meta.
  - intros v r V. destruct (N.eqb_spec v monitor_ok); [contradiction|]. cbn [negb]. apply a_ret, QF; auto.
  - intros RA r. change (monitor_ok =? monitor_ok) with true. cbn [negb].
    assert (K : forall w, al8 w -> aligned (v <- load64 w ;;
        (result <- (if negb (v =? metadata_page_info id enclave_metadata_page_type)
           then Ret monitor_invalid_value
           else t <- op1 (OTas (wadd id ei_lock)) ;;
                Ret (if t =? 0 then monitor_ok else monitor_concurrent_call)) ;;
         clear_dram_region_lock G r ;; Ret result)) Q).
    { intros w WB. ald. apply a_bind. destruct (negb _).
      - apply a_ret. aclr. apply a_ret, QF. discriminate.
      - aop. apply a_ret.
        aclr. apply a_ret. destruct (_ =? 0); [apply QT; exact RA|apply QF; discriminate]. }
    unfold metadata_page_info_for, dram_region_page_for, ub_if.
    destruct (64 <=? page_for_shift G); cbn [bind aligned]; [split; [exact I|intros v _]|];
      apply K, al_page_info.
Qed.
Lemma a_create_enclave id a b m d : aligned (create_enclave G id a b m d) any.
Proof.
  unfold create_enclave. destruct (negb _); [no|]. destruct (_ <? _); [no|].
  ab a_lock_meta.
  - intros v r V. destruct (N.eqb_spec v monitor_ok); [contradiction|]. cbn [negb]. no.
  - intros RA r. change (monitor_ok =? monitor_ok) with true. cbn [negb].
    ald. destruct (negb _); [aclr; no|].
    apply a_bind, a_uses; [apply u_assign|]. intros w.
    destruct (negb _); [aclr; no|].
    apply a_bind, a_uses; [apply u_init_info; exact RA|]. intros _. aclr. no.
Qed.
Lemma a_assign_thread id t : aligned (assign_thread G id t) any.
Proof.
  unfold assign_thread. ab a_lock_enclave.
  - intros v V. destruct (N.eqb_spec v monitor_ok); [contradiction|]. cbn [negb]. no.
  - intros RA. change (monitor_ok =? monitor_ok) with true. cbn [negb]. ab a_lock_meta.
    + intros v r V. destruct (N.eqb_spec v monitor_ok); [contradiction|]. cbn [negb].
      ab a_unlock; auto. no.
    + intros RT r. change (monitor_ok =? monitor_ok) with true. cbn [negb].
      assert (E : forall w : N, aligned (clear_dram_region_lock G r ;; unlock_enclave id ;; Ret w) any).
      { intros w. aclr. ab a_unlock; auto. no. }
      ald. apply a_bind, a_uses.
      { destruct (negb _); [|exact I]. apply u_assign. }
      intros w. destruct (negb _); [apply E|]. ald. ast. apply E.
Qed.
Lemma a_load_thread id t a b d e : aligned (load_thread G id t a b d e) any.
Proof.
  unfold load_thread. ab a_lock_enclave.
  - intros v V. destruct (N.eqb_spec v monitor_ok); [contradiction|]. cbn [negb]. no.
  - intros RA. change (monitor_ok =? monitor_ok) with true. cbn [negb]. ab a_lock_meta.
    + intros v r V. destruct (N.eqb_spec v monitor_ok); [contradiction|]. cbn [negb].
      ab a_unlock; auto. no.
    + intros RT r. change (monitor_ok =? monitor_ok) with true. cbn [negb].
      assert (E : forall w : N, aligned (clear_dram_region_lock G r ;; unlock_enclave id ;; Ret w) any).
      { intros w. aclr. ab a_unlock; auto. no. }
      ald. apply a_bind, a_uses.
      { destruct (negb _); [exact I|]. u1. destruct (_ =? 0); [exact I|]. apply u_assign. }
      intros w. destruct (negb _); [apply E|]. ald. ast. aop. do 4 ast. ald. ast.
      apply a_bind, a_uses; [apply u_thread_hash; exact RA|]. intros _. apply E.
Qed.
Lemma a_copy_debug e ea oa rd : al8 e -> aligned (copy_debug_enclave_page G e ea oa rd) any.
Proof.
  intros HE. unfold copy_debug_enclave_page.
  destruct (is_page_aligned ea) eqn:AE, (is_page_aligned oa) eqn:AO; cbn [negb orb]; try no.
  apply al8_page in AE. apply al8_page in AO.
  destruct (negb _ || negb _); [no|].
  set (q := clamped_dram_region_for G e). set (x := dram_region_for G ea).
  set (r := dram_region_for G oa).
  atas; [no|]. atas; [aclr; no|].
  unfold read_dram_region_owner. apply a_bind, a_ld; [al'|intros v1]. apply a_bind, a_ld; [al'|intros v2].
  assert (GOAL : forall b : bool, aligned
    (dbg <- load64 (wadd e ei_is_debug);;
      let result := monitor_ok in
      let result := if negb (v1 =? e) then monitor_invalid_value else result in
      let result := if negb (v2 =? null_enclave_id) then monitor_invalid_value else result in
      let result := if negb b then monitor_invalid_value else result in
      let result := if dbg =? 0 then monitor_invalid_state else result in
      (if result =? monitor_ok
       then if rd then bcopy64 oa ea page_size else bcopy64 ea oa page_size
       else Ret tt);; clear_dram_region_lock G r;; clear_dram_region_lock G q;; Ret result) any).
  { intros b. ald. cbv zeta. apply a_bind, a_uses.
    - destruct (_ =? monitor_ok); [|exact I]. destruct rd; apply u_bcopy; assumption.
    - intros _. aclr. aclr. no. }
  apply a_bind. unfold read_enclave_region_bitmap_bit.
  destruct (e =? null_enclave_id); apply a_uses; try exact GOAL; apply u_readbit; [al'|].
  unfold enclave_region_bitmap. al'.
Qed.

(** The record read by copy_debug_enclave_page is at an address the caller chooses. *)
Definition aligned_call (k : call) : Prop :=
  match k with CCopyDebugPage id _ _ _ => id mod 8 = 0 | _ => True end.
Lemma a_call k : safe_call G k -> aligned_call k -> aligned (call_prog G k) any.
Proof.
  intros S Al. destruct k; cbn [call_prog safe_call aligned_call] in *.
  - apply a_block.
  - apply a_check.
  - apply a_state.
  - apply a_owner_call.
  - apply a_set_dma.
  - apply a_create_metadata.
  - apply a_assign.
  - apply a_free.
  - apply a_flush.
  - apply a_create_enclave; auto.
  - unfold load_page_table. do 2 (destruct (negb _); [no|]). destruct (_ <=? level); [no|]. apply a_guard.
  - unfold load_page. do 2 (destruct (_ || _); [no|]). apply a_guard.
  - apply a_load_thread; auto.
  - apply a_assign_thread; auto.
  - apply a_guard.
  - apply a_guard.
  - apply a_guard.
  - apply a_copy_debug; auto.
  - contradiction.
  - apply a_create_thread.
  - apply a_delete_thread.
  - apply a_exit.
Qed.
End AL.
