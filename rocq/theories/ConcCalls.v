(** * Interleaved execution: every call keeps the rules of ConcProofs. *)
From Coq Require Import NArith ZArith Lia Bool List.
From Coq Require Import ZifyBool ZifyNat ZifyN.
From Verif Require Import Word Machine ModelBare ModelHash ModelInl ModelRegions
  ModelMetadata ModelEnclave ModelBoot ModelApi Lib BareProofs SpecGeometry
  GeomProofs Trace SpecMonitor SpecHistory SpecConcurrent ViewProofs SeqProofs SeqCalls
  SeqCalls2 SeqCalls3 SeqCalls4 SeqCalls5 ConcProofs.
Import ListNotations.
Open Scope N_scope.
Ltac Zify.zify_post_hook ::= Z.div_mod_to_equations.

Section Calls.
Variables (G : globals) (pb rb : N).
Hypothesis g : geom G pb rb.
Variable nw : bool.
Local Notation n := (g_dram_region_count G).
Local Notation W := (g_dram_region_bitmap_words G).
Local Notation cores := (g_core_count G).
Local Notation safe := (safe G nw).
Local Notation tidy := (tidy G).
Local Notation agree := (agree G nw).

(** At the end of a call. *)
Definition ends (k : call) (h0 : N -> bool) {A} : A -> (N -> bool) -> ost -> Prop :=
  fun _ h o => (forall r, r < n -> h r = true -> h0 r = true \/ (leaky k = true /\ r = 0)) /\
    tidy h o.

Lemma npos : 0 < n. Proof. exact (n_pos G pb rb g). Qed.
Lemma tidy_sub h h' o : (h' 0 = true -> h 0 = true) -> tidy h o -> tidy h' o.
Proof. intros H T X. apply T, H, X. Qed.

Ltac sb L := apply safe_bind; apply (L G pb rb g nw).
Ltac sl L := apply (L G pb rb g nw).
Ltac ups := unfold upd; repeat match goal with
  | |- context [?a =? ?b] => destruct (N.eqb_spec a b) end; try congruence; auto.
Ltac upsin H := unfold upd in H; repeat match type of H with
  | context [?a =? ?b] => destruct (N.eqb_spec a b) end; try congruence; auto.
(** Back to the locks held at the start. *)
Ltac fin := split; [let x := fresh in let X := fresh in let Y := fresh in
  intros x X Y; left; upsin Y | try (eapply tidy_sub; [|eassumption]; ups)].
Ltac tsub := eapply tidy_sub; [|eassumption]; ups.

Ltac clr := sb safe_clr; try solve [exact npos | auto | ups | tsub].

Lemma safe_check c h o r : c < cores -> tidy h o ->
  safe c (CCheckOwnership r) (dram_region_check_ownership G r) h o (ends (CCheckOwnership r) h).
Proof.
  intros C T. unfold dram_region_check_ownership, is_dynamic_dram_region, is_valid_dram_region.
  destruct (N.ltb_spec r n) as [R|R]; [|rewrite andb_false_r; apply safe_ret; fin].
  rewrite andb_true_r. destruct (N.eqb_spec r 0) as [Z|Z]; cbn [negb]; [apply safe_ret; fin|].
  sb safe_tas; auto; [apply safe_ret; fin|]. intros o1 HF AG B Z0 T0 T1. specialize (T1 T).
  cbn [negb]. unfold read_dram_region_owner. sb safe_owner_held; auto; [ups|].
  sb safe_current; auto. clr. apply safe_ret. fin.
Qed.
Lemma safe_state c h o r : tidy h o ->
  safe c (CRegionState r) (dram_region_state G r) h o (ends (CRegionState r) h).
Proof.
  intros T. unfold dram_region_state, is_valid_dram_region.
  destruct (N.ltb_spec r n) as [R|R]; cbn [negb]; [|apply safe_ret; fin].
  sb safe_tas; auto; [apply safe_ret; fin|]. intros o1 HF AG B Z0 T0 T1. specialize (T1 T).
  unfold read_dram_region_owner. sb safe_owner_held; auto; [ups|].
  clr. apply safe_ret. fin.
Qed.
Lemma safe_owner_call c h o r : tidy h o ->
  safe c (CRegionOwner r) (dram_region_owner G r) h o (ends (CRegionOwner r) h).
Proof.
  intros T. unfold dram_region_owner, is_valid_dram_region.
  destruct (N.ltb_spec r n) as [R|R]; cbn [negb]; [|apply safe_ret; fin].
  sb safe_tas; auto; [apply safe_ret; fin|]. intros o1 HF AG B Z0 T0 T1. specialize (T1 T).
  unfold read_dram_region_owner. sb safe_owner_held; auto; [ups|].
  clr. apply safe_ret. fin.
Qed.
Lemma safe_flush c h o : c < cores -> tidy h o ->
  safe c CFlush (flush_cached_dram_regions G) h o (ends CFlush h).
Proof.
  intros C T. unfold flush_cached_dram_regions, dram_region_tlb_flush.
  apply safe_bind, safe_bind. sl safe_regs; auto. sb safe_core.
  sb safe_clock; auto. intros v V L. sb safe_st_flushed; auto.
  { intros X. split; [cbn; lia|]. cbn. auto. }
  apply safe_ret, safe_ret. split; [auto|exact T].
Qed.

Lemma safe_dma_check c k h o r q (Q : bool -> (N -> bool) -> ost -> Prop) :
  (forall b, Q b h o) -> safe c k (dma_check G r q) h o Q.
Proof.
  intros H. unfold dma_check. destruct (q =? 0); [|apply safe_ret; auto].
  sb safe_get_dma; auto. intros v. sb safe_get_dma; auto. intros v'. apply safe_ret; auto.
Qed.

Lemma safe_block c h o r : c < cores -> tidy h o ->
  safe c (CBlock r) (block_dram_region G r) h o (ends (CBlock r) h).
Proof.
  intros C T. unfold block_dram_region, is_dynamic_dram_region, is_valid_dram_region.
  destruct (N.ltb_spec r n) as [R|R]; [|rewrite andb_false_r; apply safe_ret; fin].
  rewrite andb_true_r. destruct (N.eqb_spec r 0) as [Z|Z]; cbn [negb]; [apply safe_ret; fin|].
  sb safe_tas; auto; [apply safe_ret; fin|]. intros o1 HF AG B Z0 T0 T1. specialize (T1 T).
  unfold read_dram_region_owner. sb safe_owner_held; auto; [ups|].
  sb safe_current; auto. change null_enclave_id with 0.
  destruct (N.eqb_spec (o_owner o1 r) 0) as [O|O]; cbn [negb].
  2:{ clr. apply safe_ret. fin. }
  apply safe_bind, safe_ret. cbn [andb]. rewrite O, (region_for_0 G pb rb g).
  sb safe_tas; auto; [exact npos| |].
  { clr. apply safe_ret. fin. }
  intros o2 HF2 AG2 B2 Z2 T2 T3. specialize (T2 eq_refl). clear T3.
  assert (O2 : o_owner o2 r = 0).
  { rewrite (a_owner _ _ _ _ _ _ AG2); auto. ups. }
  apply safe_bind, safe_dma_check. intros b. destruct b.
  { clr. clr. apply safe_ret. fin. }
  sb safe_st_prev; auto; [reflexivity|].
  sb safe_st_owner; [auto|auto|reflexivity|ups| | |left; ups|].
  { left. auto. }
  { intros _ X. exfalso. congruence. }
  sb safe_fadd; [reflexivity|]. intros v V. sb safe_st_blocked; [auto|auto|reflexivity|ups|].
  sb safe_set_bit; [auto|ups|ups|].
  assert (T4 : tidy (upd (upd h r true) 0 true)
     (with_bit (with_blocked (with_owner o2 r blocked_enclave_id) r v) r false)).
  { intros _. destruct (T2 (upd_same _ _ _)) as [TC TD]. split; [|exact TD].
    intros x X. unfold clean. cbn. unfold upd. destruct (N.eqb_spec x r); [reflexivity|].
    apply TC; auto. }
  change (0 =? 0) with true. cbv iota. sb safe_regs; eauto.
  clr. clr. apply safe_ret. fin.
Qed.

Lemma safe_stale c k h r b (Q : option unit -> (N -> bool) -> ost -> Prop) : forall m i o,
  i + N.of_nat m = cores -> (forall x, x < i -> b <= o_flushed o x) ->
  (forall o', (forall x, o_owner o' x = o_owner o x) -> (forall x, o_blocked o' x = o_blocked o x) ->
     (tidy h o -> tidy h o') -> Q (Some tt) h o') ->
  (forall o', (forall x, o_owner o' x = o_owner o x) -> (forall x, o_blocked o' x = o_blocked o x) ->
     (tidy h o -> tidy h o') -> (forall x, x < cores -> b <= o_flushed o' x) -> Q None h o') ->
  h r = true ->
  safe c k (for_exit m i (fun i => f <- load64 (wadd (core_addr G i) ci_flushed_at) ;;
              if f <? b then Ret (Some tt) else Ret None)) h o Q.
Proof.
  induction m as [|m IH]; intros i o E L QS QN HR; cbn [for_exit].
  - apply safe_ret, QN; auto. intros x X. apply L. lia.
  - apply safe_bind. sb safe_flushed; [lia|]. intros v.
    destruct (N.ltb_spec v b) as [V|V].
    + apply safe_ret, safe_ret. apply QS; auto.
    + apply safe_ret. apply IH; [lia| | | |exact HR].
      * intros x X. cbn. unfold upd. destruct (N.eqb_spec x i); [lia|]. apply L. lia.
      * intros o' E1 E2 E3. apply QS; auto.
      * intros o' E1 E2 E3 E4. apply QN; auto.
Qed.

Lemma safe_free c h o r : tidy h o ->
  safe c (CFree r) (free_dram_region G r) h o (ends (CFree r) h).
Proof.
  intros T. unfold free_dram_region, is_valid_dram_region.
  destruct (N.ltb_spec r n) as [R|R]; cbn [negb]; [|apply safe_ret; fin].
  sb safe_tas; auto; [apply safe_ret; fin|]. intros o1 HF AG B Z0 T0 T1. specialize (T1 T).
  unfold read_dram_region_owner. sb safe_owner_held; auto; [ups|].
  change blocked_enclave_id with 1. change metadata_enclave_id with 2. change free_enclave_id with 3.
  assert (RZ : o_owner o1 r <> 0 -> r <> 0) by congruence.
  assert (TW : forall o', (forall x, o_owner o' x = o_owner o1 x) -> o_owner o1 r <> 0 ->
     tidy (upd h r true) o' -> tidy (upd h r true) (with_owner o' r 3)).
  { intros o' E NZ TT H0. destruct (TT H0) as [TC TD]. split; [|exact TD].
    intros x X. specialize (TC x X). unfold clean in *. cbn. unfold upd.
    destruct (N.eqb_spec x r) as [->|NE]; [|exact TC].
    rewrite E in TC. rewrite TC. destruct (N.eqb_spec (o_owner o1 r) 0); [contradiction|reflexivity]. }
  destruct (N.eqb_spec (o_owner o1 r) 1) as [O1|O1].
  - apply safe_bind. sb safe_blocked; auto; [ups|].
    apply safe_bind. unfold stale_core.
    apply (safe_stale c _ _ r); [lia| | | |ups].
    { intros x X. lia. }
    + intros o' E1 E2 E3. apply safe_ret. clr. apply safe_ret. fin.
      eapply tidy_sub; [|exact (E3 T1)]. ups.
    + intros o' E1 E2 E3 E4. sb safe_st_owner; [auto|apply RZ; congruence|reflexivity|ups| | | |].
      * rewrite E1, O1. right. left. auto.
      * intros _ _ _ c' C'. rewrite E2. auto.
      * right. rewrite E1, O1. reflexivity.
      * apply safe_ret. assert (T4 := TW o' E1 ltac:(congruence) (E3 T1)).
        clr. apply safe_ret. fin.
  - destruct (N.eqb_spec (o_owner o1 r) 2) as [O2|O2].
    + apply safe_bind. sb safe_pinned; auto. change (0 =? 0) with true. cbv iota.
      sb safe_st_owner; [auto|apply RZ; congruence|reflexivity|ups| | | |].
      * rewrite O2. right. right. left. auto.
      * intros _ X. congruence.
      * right. rewrite O2. reflexivity.
      * apply safe_ret. assert (T4 := TW o1 (fun _ => eq_refl) ltac:(congruence) T1).
        clr. apply safe_ret. fin.
    + apply safe_bind, safe_ret. clr. apply safe_ret. fin.
Qed.

(** ** Enclave ids: none is valid but 0. *)
Lemma safe_valid_id c k e h o (Q : bool -> (N -> bool) -> ost -> Prop) :
  Q (e =? 0) h o -> safe c k (is_valid_enclave_id G e) h o Q.
Proof.
  intros H. unfold is_valid_enclave_id.
  sb safe_owner_any; [apply (clamped_lt G pb rb g)|]. intros v V V0. apply safe_ret.
  enough (E : (v =? e) = (e =? 0)) by (rewrite E; auto).
  assert (Z : e < 4 -> clamped_dram_region_for G e = 0).
  { intros L. unfold clamped_dram_region_for. rewrite (small_region G pb rb g) by lia.
    destruct (is_dram_address G e); reflexivity. }
  destruct (N.eqb_spec e 0) as [->|E]; [apply N.eqb_eq, V0, Z; lia|].
  apply N.eqb_neq. intros ->. specialize (V0 (Z V)). contradiction.
Qed.
Lemma safe_bad_id c k e h o (Q : bool -> (N -> bool) -> ost -> Prop) :
  Q true h o -> safe c k (bad_enclave_id G e) h o Q.
Proof.
  intros H. unfold bad_enclave_id. change null_enclave_id with 0.
  destruct (N.eqb_spec e 0) as [->|E]; [exact H|].
  apply safe_bind, safe_valid_id. destruct (N.eqb_spec e 0); [contradiction|]. exact H.
Qed.
(** The common start of load_page_table, load_page, init_enclave, enter_enclave,
    delete_enclave. *)
Lemma safe_guard_bad c k e (p : prog N) h o : tidy h o ->
  safe c k (t <- test_and_set_dram_region_lock G (clamped_dram_region_for G e) ;;
          if (t : bool) then Ret monitor_concurrent_call
          else
          bad <- bad_enclave_id G e ;;
          if (bad : bool) then
            clear_dram_region_lock G (clamped_dram_region_for G e) ;;
            Ret monitor_invalid_value
          else p) h o (fun v h' o' => v <> monitor_ok /\ ends k h v h' o').
Proof.
  intros T. pose proof (clamped_lt G pb rb g e) as R. set (r := clamped_dram_region_for G e) in *.
  sb safe_tas; auto; [apply safe_ret; split; [discriminate|fin]|]. intros o1 HF AG B Z0 T0 T1. specialize (T1 T).
  apply safe_bind, safe_bad_id. clr. apply safe_ret. split; [discriminate|fin].
Qed.
Lemma safe_guard c k e (p : prog N) h o : tidy h o ->
  safe c k (t <- test_and_set_dram_region_lock G (clamped_dram_region_for G e) ;;
          if (t : bool) then Ret monitor_concurrent_call
          else
          bad <- bad_enclave_id G e ;;
          if (bad : bool) then
            clear_dram_region_lock G (clamped_dram_region_for G e) ;;
            Ret monitor_invalid_value
          else p) h o (ends k h).
Proof.
  intros T. eapply safe_weaken; [|apply safe_guard_bad; exact T]. cbv beta. tauto.
Qed.

Lemma safe_assign c h o r e : tidy h o ->
  safe c (CAssign r e) (assign_dram_region G r e) h o (ends (CAssign r e) h).
Proof.
  intros T. unfold assign_dram_region, is_valid_dram_region.
  destruct (N.ltb_spec r n) as [R|R]; cbn [negb]; [|apply safe_ret; fin].
  sb safe_tas; auto; [apply safe_ret; fin|]. intros o1 HF AG B Z0 T0 T1. specialize (T1 T).
  unfold read_dram_region_owner. sb safe_owner_held; auto; [ups|].
  change free_enclave_id with 3.
  destruct (N.eqb_spec (o_owner o1 r) 3) as [O|O]; cbn [negb]; [|clr; apply safe_ret; fin].
  assert (RZ : r <> 0) by congruence.
  set (q := dram_region_for G e). assert (Q : q < n) by apply (region_lt G pb rb g).
  sb safe_tas; auto; [clr; apply safe_ret; fin|].
  intros o2 HF2 AG2 B2 Z2 T2 T3. specialize (T3 T1).
  assert (QR : q <> r) by (intros X; rewrite X, upd_same in HF2; discriminate).
  assert (O2 : o_owner o2 r = 3).
  { rewrite (a_owner _ _ _ _ _ _ AG2); auto. ups. }
  apply safe_bind, safe_valid_id. destruct (N.eqb_spec e 0) as [E|E].
  - subst e. assert (Q0 : q = 0) by (unfold q; apply (region_for_0 G pb rb g)).
    clearbody q. subst q.
    apply safe_bind. sb safe_st_owner; [auto|auto|reflexivity|ups| | |left; ups|].
    { rewrite O2. unfold owner_change. tauto. }
    { intros _ X. exfalso. congruence. }
    sb safe_set_bit; [auto|ups|ups|].
    assert (T4 : tidy (upd (upd h r true) 0 true) (with_bit (with_owner o2 r 0) r true)).
    { intros _. destruct (T3 (upd_same _ _ _)) as [TC TD]. split; [|exact TD].
      intros x X. unfold clean. cbn. unfold upd. destruct (N.eqb_spec x r); [reflexivity|].
      apply TC; auto. }
    change (0 =? 0) with true. cbv iota. apply safe_bind. sb safe_regs; eauto.
    apply safe_ret, safe_ret. clr. clr. apply safe_ret. fin.
  - apply safe_bind, safe_ret. clr. clr. apply safe_ret. fin.
Qed.

(** ** Writes above the tables *)
Lemma uses_bzero a b : g_monitor_top G <= a -> a + b <= W64 ->
  uses (high_op G) (bzero64 a b).
Proof.
  intros A B. unfold bzero64.
  assert (H : forall m i, 8 * (i + N.of_nat m) <= b ->
    uses (high_op G) (for_n m i (fun i => store64 (wadd a (wmul 8 i)) 0 ;; Ret tt))).
  { induction m as [|m IH]; intros i L; cbn [for_n]; [exact I|].
    apply uses_bind; [|intros _; apply IH; lia].
    rewrite wmul_small, wadd_small by lia. cbn. split; [lia|auto]. }
  apply H. rewrite N2Nat.id. lia.
Qed.

Lemma safe_create_metadata c h o r : tidy h o ->
  safe c (CCreateMetadataRegion r) (create_metadata_region G r) h o (ends (CCreateMetadataRegion r) h).
Proof.
  intros T. unfold create_metadata_region, is_valid_dram_region.
  destruct (N.ltb_spec r n) as [R|R]; cbn [negb]; [|apply safe_ret; fin].
  sb safe_tas; auto; [apply safe_ret; fin|]. intros o1 HF AG B Z0 T0 T1. specialize (T1 T).
  unfold read_dram_region_owner. sb safe_owner_held; auto; [ups|].
  change free_enclave_id with 3.
  destruct (N.eqb_spec (o_owner o1 r) 3) as [O|O]; cbn [negb]; [|clr; apply safe_ret; fin].
  assert (RZ : r <> 0) by congruence.
  unfold init_metadata_region. apply safe_bind.
  sb safe_st_owner; [auto|auto|reflexivity|ups| | | |].
  { rewrite O. unfold owner_change, metadata_enclave_id. tauto. }
  { intros _ X. congruence. }
  { right. rewrite O. reflexivity. }
  sb safe_st_pinned; auto. apply (safe_high G pb rb g).
  - destruct (map_bytes G pb rb g) as [MB1 MB2]. rewrite MB1.
    rewrite (region_start_val G pb rb g) by lia.
    pose proof (stripe_high G pb rb g r 0 ltac:(lia)) as SH.
    apply uses_bzero; auto.
    assert (stripe_start pb rb r 0 + g_dram_stripe_size G <= W64); [|lia].
    rewrite (geo_size _ _ _ g). unfold stripe_start. rewrite N.mul_0_l, N.add_0_l.
    assert (X : (r + 1) * 2 ^ (12 + pb) <= 2 ^ rb * 2 ^ (12 + pb)).
    { apply N.mul_le_mono_r. rewrite (n_val G pb rb g) in R. lia. }
    rewrite <- pow2_add in X.
    pose proof (p60 (rb + (12 + pb))). pose proof (geo_pb _ _ _ g). pose proof (geo_rb _ _ _ g).
    unfold W64. lia.
  - intros _.
    assert (T4 : tidy (upd h r true) (with_owner o1 r metadata_enclave_id)).
    { intros H0. destruct (T1 H0) as [TC TD]. split; [|exact TD].
      intros x X. specialize (TC x X). unfold clean in *. cbn. unfold upd.
      destruct (N.eqb_spec x r) as [->|NE]; [|exact TC]. rewrite O in TC. exact TC. }
    clr. apply safe_ret. fin.
Qed.

(** ** set_dma_range *)
Lemma safe_dma_loop c k h (Q : option bool -> (N -> bool) -> ost -> Prop) : h 0 = true ->
  (forall h' v o, tidy h' o -> (forall r, h' r = h r) -> Q v h' o) ->
  forall fuel a e b o h', (forall r, h' r = h r) -> tidy h' o ->
  safe c k (dma_stripes fuel G a e b) h' o Q.
Proof.
  intros H0 QQ. induction fuel as [|f IH]; intros a e b o h' HH T; cbn [dma_stripes].
  - destruct (a <? e); [exact I|]. apply safe_ret. apply QQ; auto.
  - destruct (a <? e); [|apply safe_ret; apply QQ; auto].
    set (r := dram_region_for G a). assert (R : r < n) by apply (region_lt G pb rb g).
    destruct (N.eqb_spec r 0) as [R0|R0]; cbn [negb].
    + cbn [bind]. sb safe_owner_any; auto.
    + sb safe_tas; auto; [apply safe_ret; apply QQ; auto|].
      intros o1 HF AG B Z0 T0 T1. specialize (T1 T).
      sb safe_owner_any; auto. intros v _ _. clr. apply IH.
      * intros x. rewrite <- HH. ups.
      * eapply tidy_sub; [|exact T1]. ups.
Qed.
Lemma safe_set_dma c h o base mask : base < W64 -> mask < W64 -> tidy h o ->
  safe c (CSetDmaRange base mask) (set_dma_range G base mask) h o (ends (CSetDmaRange base mask) h).
Proof.
  intros HB HM T. unfold set_dma_range.
  destruct (is_valid_range base mask) eqn:VR; cbn [negb]; [|apply safe_ret; fin].
  destruct (is_dram_address G (N.lor base mask)) eqn:DA; cbn [negb]; [|apply safe_ret; fin].
  destruct (range_last base mask HB HM VR) as [LO LW].
  sb safe_tas; auto; [exact npos|apply safe_ret; fin|]. intros o1 HF AG B Z0 T0 T1.
  specialize (T1 T). clear T0.
  rewrite LO in *. unfold is_dram_address in DA.
  assert (RE : wadd (base + mask) 1 = base + mask + 1).
  { apply wadd_small. pose proof (geo_D _ _ _ g). lia. }
  rewrite RE. apply safe_bind. apply (safe_dma_loop c _ (upd h 0 true)); auto.
  intros h' [v|] o2 T2 HH.
  2:{ sb safe_clr; auto; [exact npos|rewrite HH; apply upd_same|]. apply safe_ret.
      split; [intros x X Y; left; upsin Y; rewrite HH in Y; upsin Y|eapply tidy_sub; [|exact T2]; ups]. }
  assert (H0 : h' 0 = true) by (rewrite HH; apply upd_same).
  apply (safe_dma_op G pb rb g nw); [exact I|reflexivity|exact H0|].
  apply (safe_dma_op G pb rb g nw); [exact I|reflexivity|exact H0|].
  apply (safe_dma_op G pb rb g nw); [exact I|reflexivity|exact H0|].
  apply (safe_dma_op G pb rb g nw); [exact I|reflexivity|exact H0|].
  cbv iota beta.
  assert (T3 : tidy h' (with_dma (with_dma (with_dma (with_dma o2
      (o_dmar_base o2) (o_dmar_mask o2) base (o_dma_end o2))
      (o_dmar_base o2) (o_dmar_mask o2) base (base + mask + 1))
      base (o_dmar_mask o2) base (base + mask + 1))
      base (wnot mask) base (base + mask + 1))).
  { intros _. split; [exact (proj1 (T2 H0))|]. split; cbn.
    - pose proof (geo_D _ _ _ g). lia.
    - intros a A. rewrite range_members by auto. lia. }
  sb safe_clr; auto; [exact npos|]. apply safe_ret.
  split; [intros x X Y; left; upsin Y; rewrite HH in Y; upsin Y|eapply tidy_sub; [|exact T3]; ups].
Qed.

(** ** Calls that only look *)
Lemma safe_exit c h o : tidy h o -> safe c CExitEnclave (exit_enclave G) h o (ends CExitEnclave h).
Proof.
  intros T. unfold exit_enclave, current_core_info. apply safe_bind. sb safe_core. apply safe_ret.
  sb safe_load_any. intros _ _. sb safe_load_any. intros _ _. sb safe_load_any. intros _ _.
  apply safe_ret. fin.
Qed.
Lemma safe_delete_thread c h o t : c < cores -> tidy h o ->
  safe c (CDeleteThread t) (delete_thread G t) h o (ends (CDeleteThread t) h).
Proof.
  intros C T. unfold delete_thread. sb safe_current; auto. rewrite (region_for_0 G pb rb g).
  sb safe_tas; auto; [exact npos|apply safe_ret; fin|]. intros o1 HF AG B Z0 T0 T1.
  apply safe_ret. split; [|auto]. intros r R Y.
  destruct (N.eq_dec r 0) as [X|X]; [right; split; [reflexivity|exact X]|left].
  rewrite upd_other in Y by auto. exact Y.
Qed.
Lemma safe_create_thread c h o t p : c < cores -> tidy h o ->
  safe c (CCreateThread t p) (create_thread G t p) h o (ends (CCreateThread t p) h).
Proof.
  intros C T. unfold create_thread.
  destruct (negb (is_page_aligned p)); [apply safe_ret; fin|].
  destruct (negb (is_dram_address G p)); [apply safe_ret; fin|].
  destruct (negb (is_dram_address G _)); [apply safe_ret; fin|].
  sb safe_current; auto. rewrite (region_for_0 G pb rb g).
  sb safe_tas; auto; [exact npos|apply safe_ret; fin|]. intros o1 HF AG B Z0 T0 T1.
  specialize (T1 T).
  unfold read_bitmap_bit. apply safe_bind. sb safe_load_any. intros w _. apply safe_ret.
  destruct (negb (negb _)); [clr; apply safe_ret; fin|].
  apply safe_bind.
  assert (S : forall f a e r h o (Q : bool -> (N -> bool) -> ost -> Prop), (forall b, Q b h o) ->
    safe c (CCreateThread t p) (thread_pages f G a e r) h o Q).
  { induction f as [|f IH]; intros a e r h' o' Q QQ; cbn [thread_pages].
    - destruct (a <? e); [exact I|apply safe_ret; auto].
    - destruct (a <? e); [|apply safe_ret; auto].
      destruct (negb _); [apply safe_ret; auto|]. apply IH. auto. }
  apply S. intros [|].
  - clr. apply safe_ret. fin.
  - apply safe_ret. split; [|auto]. intros r R Y.
  destruct (N.eq_dec r 0) as [X|X]; [right; split; [reflexivity|exact X]|left].
  rewrite upd_other in Y by auto. exact Y.
Qed.
End Calls.
