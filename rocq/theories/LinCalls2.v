(** * Atomicity: the remaining region calls, the calls without effect, every call. *)
From Coq Require Import NArith ZArith Lia Bool List.
From Coq Require Import ZifyBool ZifyNat ZifyN.
From Verif Require Import Word Machine ModelBare ModelHash ModelInl ModelRegions
  ModelMetadata ModelEnclave ModelBoot ModelApi Lib BareProofs SpecGeometry
  GeomProofs Trace SpecMonitor SpecHistory SpecConcurrent ViewProofs SeqProofs SeqCalls SeqCalls2 SeqCalls3
  SeqCalls4 SeqCalls5 ConcProofs ConcCalls ConcCalls2 SpecLinear LinProofs LinOps LinCalls.
Import ListNotations.
Open Scope N_scope.
Ltac Zify.zify_post_hook ::= Z.div_mod_to_equations.

Section Calls.
Variables (G : globals) (pb rb : N).
Hypothesis g : geom G pb rb.
Local Notation n := (g_dram_region_count G).
Local Notation W := (g_dram_region_bitmap_words G).
Local Notation cores := (g_core_count G).
Local Notation agree := (agree G true).
Local Notation res := (res G).
Local Notation safe := (safe G true).
Local Notation tidy := (tidy G).
Local Notation linv := (linv G).
Local Notation magree := (magree G).
Local Notation mgua := (mgua G).
Local Notation teff := (teff G pb rb).
Local Notation lsafe := (lsafe G pb rb).
Local Notation same_as := (same_as G).
Local Notation lends := (lends G pb rb).
Local Notation np := (np G pb rb g).

Ltac ups := unfold upd; repeat match goal with
  | |- context [?a =? ?b] => destruct (N.eqb_spec a b) end; try congruence; auto.
Ltac plt := unfold read_dram_region_owner, current_enclave, current_core_info, load64, store64, op1;
  cbn [bind uses];
  repeat first [apply plain_ld | apply plain_core | apply plain_dma_start | apply plain_dma_end
               | apply plain_flush_tlb | exact Logic.I | intros ? | split].
Ltac lb L := apply lsafe_bind; apply (lsafe_is_plain G pb rb g); [plt|apply (L G pb rb g true)].
Ltac sr := split; [reflexivity|].
Ltac tasf v0 := right; split; [reflexivity|]; exists v0; split.
Ltac lret := apply lsafe_ret.
Ltac allf HN := let x := fresh in let X := fresh in intros x X; specialize (HN x X); ups.

(** ** free_dram_region *)
Lemma lin_stale c t h r m a (Q : post (option unit)) : r < n -> h r = true -> m_owner m r = Blocked ->
  forall f i o,
  i + N.of_nat f = cores -> (forall x, x < i -> m_blocked_at m r <= o_flushed o x) ->
  (forall o', (forall x, o_owner o' x = o_owner o x) -> (forall x, o_blocked o' x = o_blocked o x) ->
     (tidy h o -> tidy h o') -> (same_as c h o m a -> same_as c h o' m a) ->
     Q (Some tt) h o' m a (Some invalid_state)) ->
  (forall o', (forall x, o_owner o' x = o_owner o x) -> (forall x, o_blocked o' x = o_blocked o x) ->
     (tidy h o -> tidy h o') -> (same_as c h o m a -> same_as c h o' m a) ->
     (forall x, x < cores -> m_blocked_at m r <= o_flushed o' x) -> Q None h o' m a None) ->
  lsafe c (CFree r) t (for_exit f i (fun i => w <- load64 (wadd (core_addr G i) ci_flushed_at) ;;
              if w <? m_blocked_at m r then Ret (Some tt) else Ret None)) h o m a None Q.
Proof.
  intros R HR MO. induction f as [|f IH]; intros i o E L QS QN; cbn [for_exit].
  - lret. apply QN; auto. intros x X. apply L. lia.
  - apply lsafe_bind, lsafe_bind. apply (lsafe_flushed G pb rb g) with (r := r); auto; [lia| |].
    + intros v V. destruct (N.ltb_spec v (m_blocked_at m r)); [|lia]. lret. lret. apply QS; auto.
      intros [S1 S2 S3 S4]. constructor; auto.
    + intros v V. destruct (N.ltb_spec v (m_blocked_at m r)); [lia|]. lret.
      assert (SS : same_as c h o m a -> same_as c h (with_flushed o i v) m a)
        by (intros [S1 S2 S3 S4]; constructor; auto).
      apply IH; [lia| | |].
      * intros x X. cbn. unfold upd. destruct (N.eqb_spec x i); [lia|]. apply L. lia.
      * intros o' E1 E2 E3 E4. apply QS; auto.
      * intros o' E1 E2 E3 E4 E5. apply QN; auto.
Qed.

Lemma lin_free c t h o m a r : c < cores -> (forall x, x < n -> h x = false) ->
  lsafe c (CFree r) t (free_dram_region G r) h o m a None (lends c (CFree r) t).
Proof.
  intros C HN. pose proof (n_val G pb rb g) as NV. pose proof np as NP.
  unfold free_dram_region, is_valid_dram_region.
  destruct (N.ltb_spec r n) as [R|R]; cbn [negb].
  2:{ lret. left. split; [exact HN|]. right. split; [reflexivity|]. intros b M. right.
      cbn [effect]. unfold free_table. rewrite <- NV.
      destruct (N.leb_spec n r); [|lia]. reflexivity. }
  assert (FT : forall M, (r = 0 -> m_stuck M = false) -> free_table rb cores r M = match m_owner M r with
       | Blocked => if all_flushed cores M r then (ok, set_owner M r Free)
                    else (invalid_state, M)
       | Metadata => (ok, set_owner M r Free)
       | _ => (invalid_state, M) end).
  { intros M S. assert (TK : taken M r = false).
    { unfold taken. destruct (N.eqb_spec r 0) as [E|_]; [exact (S E)|reflexivity]. }
    unfold free_table. rewrite TK, <- NV. destruct (N.leb_spec n r); [lia|]. reflexivity. }
  apply lsafe_bind, (ltas G pb rb g); auto; [apply (sa_none G pb rb g); auto| |].
  { tasf 3.
    - intros b M _ _ H. destruct (H ltac:(auto)) as [H'|[-> H']].
      { left. split; [exact H'|]. split; [|reflexivity]. cbn. rewrite <- NV. auto. }
      right. cbn [effect]. unfold free_table, taken. rewrite <- NV, H'.
      destruct (N.leb_spec n 0); [lia|]. reflexivity.
    - lret. left. split; [exact HN|left; reflexivity]. }
  intros o1 m1 HF AG MA B Z0 T1 SA _. specialize (T1 (tidy_none G pb rb g h o HN)).
  assert (UR : upd h r true r = true) by ups. set (h1 := upd h r true) in *.
  assert (HE : forall x, x < n -> upd h1 r false x = false) by (unfold h1; allf HN).
  lb safe_owner_held; auto. sr.
  change blocked_enclave_id with 1. change metadata_enclave_id with 2. change free_enclave_id with 3.
  pose proof (sa_owner _ _ _ _ _ _ SA r R UR) as O1.
  assert (RZ : m_owner m1 r <> OS -> r <> 0).
  { intros X ->. rewrite Z0 in O1. destruct (m_owner m1 0); cbn in O1; congruence. }
  (* the successful ends *)
  assert (TW : forall o', (forall x, o_owner o' x = o_owner o1 x) -> m_owner m1 r <> OS ->
     tidy h1 o' -> tidy h1 (with_owner o' r 3)).
  { intros o' E NZ TT H0. destruct (TT H0) as [TC TD]. split; [|exact TD].
    intros x X. specialize (TC x X). unfold clean in *. cbn. unfold upd.
    destruct (N.eqb_spec x r) as [->|NE]; [|exact TC].
    rewrite E, O1 in TC. rewrite TC. destruct (m_owner m1 r); [contradiction| | |]; reflexivity. }
  assert (SW : forall o', same_as c h1 o' m1 a -> same_as c h1 (with_owner o' r 3) (set_owner m1 r Free) a).
  { intros o' [S1 S2 S3 S4]. constructor; cbn; auto. intros x X H. unfold upd.
    destruct (N.eqb_spec x r); [reflexivity|auto]. }
  assert (OKE : forall o', m_owner m1 r <> OS -> tidy h1 o' -> same_as c h1 o' m1 a ->
     (forall x, o_owner o' x = o_owner o1 x) ->
     (m_owner m1 r = Blocked -> forall x, x < cores -> m_blocked_at m1 r <= o_flushed o' x) ->
     (m_owner m1 r = Blocked \/ m_owner m1 r = Metadata) ->
     lsafe c (CFree r) t (clear_dram_region_lock G r ;; Ret monitor_ok) h1 (with_owner o' r 3) m1 a None
       (lends c (CFree r) t)).
  { intros o' NOS TT SS EO FL OR. apply lsafe_bind.
    apply (leffect_clr G pb rb g) with (v := ok) (F := fun M => set_owner M r Free).
    - intros b o2 hd2 M L US AG2 MA2. right. cbn [effect]. rewrite FT by (intros E0; apply US; rewrite <- E0 at 1; auto).
      rewrite (ma_owner _ _ _ _ _ MA2) by auto. destruct OR as [OR|OR]; rewrite OR; [|reflexivity].
      assert (AF : all_flushed cores M r = true); [|rewrite AF; reflexivity].
      unfold all_flushed. apply forallb_forall. intros i IN. apply in_seq in IN.
      assert (IC : N.of_nat i < cores) by lia.
      rewrite (ma_blocked _ _ _ _ _ MA2), <- (l_flushed _ _ _ _ L) by auto.
      pose proof (a_mono _ _ _ _ _ _ AG2 eq_refl _ IC) as X. cbn in X.
      specialize (FL OR _ IC). apply N.leb_le. lia.
    - intros o2 hd2 M _ L RS MA2. apply (lin_set_owner G pb rb g); auto.
      left. destruct (m_owner m1 r); [contradiction| | |]; reflexivity.
    - apply (lclr G); auto. lret. left. split; [exact HE|left; reflexivity]. }
  assert (BAD : forall st, (m_owner m1 r <> Blocked /\ m_owner m1 r <> Metadata) ->
     st = None ->
     lsafe c (CFree r) t (clear_dram_region_lock G r ;; Ret monitor_invalid_state) h1 o1 m1 a st
       (lends c (CFree r) t)).
  { intros st [N1 N2] ->. apply lsafe_bind. apply (llook_clr G pb rb g) with (v := invalid_state).
    - intros b o2 hd2 M L US AG2 MA2. right. cbn [effect]. rewrite FT by (intros E0; apply US; rewrite <- E0 at 1; auto).
      rewrite (ma_owner _ _ _ _ _ MA2) by auto. destruct (m_owner m1 r); try reflexivity; contradiction.
    - apply (lclr G); auto. lret. left. split; [exact HE|left; reflexivity]. }
  rewrite O1. destruct (m_owner m1 r) eqn:OW; cbn [owner_code].
  - change (0 =? 1) with false. change (0 =? 2) with false. cbv iota. apply lsafe_bind. lret.
    apply BAD; [split; discriminate|reflexivity].
  - change (1 =? 1) with true. cbv iota. apply lsafe_bind.
    lb safe_blocked; auto. sr. rewrite (sa_blocked _ _ _ _ _ _ SA) by auto.
    apply lsafe_bind. unfold stale_core. apply (lin_stale c t h1 r m1 a); auto; [lia| | |].
    + intros x X. lia.
    + intros o' E1 E2 E3 E4. lret. apply lsafe_bind, (lclr G); auto. lret.
      left. split; [exact HE|left; reflexivity].
    + intros o' E1 E2 E3 E4 E5. apply lsafe_bind, (lst_owner G pb rb g); auto; [apply RZ; discriminate|reflexivity| | | |].
      * rewrite E1, O1. right. left. auto.
      * intros _ _ c' C'. rewrite E2, (sa_blocked _ _ _ _ _ _ SA) by auto. auto.
      * right. rewrite E1, O1. auto.
      * lret. apply OKE; auto. discriminate.
  - change (2 =? 1) with false. change (2 =? 2) with true. cbv iota. apply lsafe_bind.
    lb safe_pinned; auto. sr. change (0 =? 0) with true. cbv iota.
    apply lsafe_bind, (lst_owner G pb rb g); auto; [apply RZ; discriminate|reflexivity| | | |].
    + rewrite O1. right. right. left. auto.
    + intros X. rewrite O1 in X. discriminate.
    + right. rewrite O1. auto.
    + lret. apply OKE; auto; discriminate.
  - change (3 =? 1) with false. change (3 =? 2) with false. cbv iota. apply lsafe_bind. lret.
    apply BAD; [split; discriminate|reflexivity].
Qed.

(** ** create_metadata_region *)
Lemma lin_create_metadata c t h o m a r : c < cores -> (forall x, x < n -> h x = false) ->
  lsafe c (CCreateMetadataRegion r) t (create_metadata_region G r) h o m a None
    (lends c (CCreateMetadataRegion r) t).
Proof.
  intros C HN. pose proof (n_val G pb rb g) as NV. pose proof np as NP.
  unfold create_metadata_region, is_valid_dram_region.
  destruct (N.ltb_spec r n) as [R|R]; cbn [negb].
  2:{ lret. left. split; [exact HN|]. right. split; [reflexivity|]. intros b M. right.
      cbn [effect]. unfold create_metadata_table. rewrite <- NV.
      destruct (N.leb_spec n r); [|lia]. reflexivity. }
  assert (FT : forall M, (r = 0 -> m_stuck M = false) -> create_metadata_table rb r M = match m_owner M r with
       | Free => (ok, set_owner M r Metadata)
       | _ => (invalid_state, M) end).
  { intros M S. assert (TK : taken M r = false).
    { unfold taken. destruct (N.eqb_spec r 0) as [E|_]; [exact (S E)|reflexivity]. }
    unfold create_metadata_table. rewrite TK, <- NV. destruct (N.leb_spec n r); [lia|]. reflexivity. }
  apply lsafe_bind, (ltas G pb rb g); auto; [apply (sa_none G pb rb g); auto| |].
  { tasf 3.
    - intros b M _ _ H. destruct (H ltac:(auto)) as [H'|[-> H']].
      { left. split; [exact H'|]. split; [|reflexivity]. cbn. rewrite <- NV. auto. }
      right. cbn [effect]. unfold create_metadata_table, taken. rewrite <- NV, H'.
      destruct (N.leb_spec n 0); [lia|]. reflexivity.
    - lret. left. split; [exact HN|left; reflexivity]. }
  intros o1 m1 HF AG MA B Z0 T1 SA _. specialize (T1 (tidy_none G pb rb g h o HN)).
  assert (UR : upd h r true r = true) by ups. set (h1 := upd h r true) in *.
  assert (HE : forall x, x < n -> upd h1 r false x = false) by (unfold h1; allf HN).
  lb safe_owner_held; auto. sr. change free_enclave_id with 3.
  pose proof (sa_owner _ _ _ _ _ _ SA r R UR) as O1.
  destruct (N.eqb_spec (o_owner o1 r) 3) as [O|O]; cbn [negb].
  2:{ apply lsafe_bind. apply (llook_clr G pb rb g) with (v := invalid_state).
    - intros b o2 hd2 M L US AG2 MA2. right. cbn [effect]. rewrite FT by (intros E0; apply US; rewrite <- E0 at 1; auto).
      rewrite (ma_owner _ _ _ _ _ MA2) by auto. rewrite O1 in O.
      destruct (m_owner m1 r); try reflexivity. exfalso. apply O. reflexivity.
    - apply (lclr G); auto. lret. left. split; [exact HE|left; reflexivity]. }
  assert (OW : m_owner m1 r = Free).
  { rewrite O1 in O. destruct (m_owner m1 r); try discriminate O. reflexivity. }
  assert (RZ : r <> 0) by congruence.
  unfold init_metadata_region. apply lsafe_bind.
  apply lsafe_bind, (lst_owner G pb rb g); auto; [reflexivity| | | |].
  { rewrite O. unfold owner_change, metadata_enclave_id. tauto. }
  { intros X. congruence. }
  { right. rewrite O. auto. }
  apply lsafe_bind, (lst_pinned G pb rb g); auto. apply (lhigh G pb rb g).
  - destruct (map_bytes G pb rb g) as [MB1 MB2]. rewrite MB1.
    rewrite (region_start_val G pb rb g) by lia.
    pose proof (stripe_high G pb rb g r 0 ltac:(lia)) as SH.
    apply uses_bzero; auto.
    assert (stripe_start pb rb r 0 + g_dram_stripe_size G <= W64); [|lia].
    rewrite (geo_size _ _ _ g). unfold stripe_start. rewrite N.mul_0_l, N.add_0_l.
    assert (X : (r + 1) * 2 ^ (12 + pb) <= 2 ^ rb * 2 ^ (12 + pb)).
    { apply N.mul_le_mono_r. rewrite (n_val G pb rb g) in R. lia. }
    rewrite <- pow2_add in X.
    pose proof (p60 (rb + (12 + pb))). pose proof (geo_pb _ _ _ g). pose proof (geo_rb _ _ _ g).
    unfold W64. lia.
  - intros _.
    assert (T4 : tidy h1 (with_owner o1 r metadata_enclave_id)).
    { intros H0. destruct (T1 H0) as [TC TD]. split; [|exact TD].
      intros x X. specialize (TC x X). unfold clean in *. cbn. unfold upd.
      destruct (N.eqb_spec x r) as [->|NE]; [|exact TC]. rewrite O in TC. exact TC. }
    apply lsafe_bind.
    apply (leffect_clr G pb rb g) with (v := ok) (F := fun M => set_owner M r Metadata).
    + intros b o2 hd2 M L US AG2 MA2. right. cbn [effect]. rewrite FT by (intros E0; apply US; rewrite <- E0 at 1; auto).
      rewrite (ma_owner _ _ _ _ _ MA2), OW by auto. reflexivity.
    + intros o2 hd2 M _ L RS MA2. apply (lin_set_owner G pb rb g); auto.
      left. rewrite OW. reflexivity.
    + apply (lclr G); auto.
      * destruct SA as [S1 S2 S3 S4]. constructor; cbn; auto. intros x X H. unfold upd.
        destruct (N.eqb_spec x r); [reflexivity|auto].
      * lret. left. split; [exact HE|left; reflexivity].
Qed.

(** ** assign_dram_region *)
Lemma lin_assign c t h o m a r e : c < cores -> (forall x, x < n -> h x = false) ->
  lsafe c (CAssign r e) t (assign_dram_region G r e) h o m a None (lends c (CAssign r e) t).
Proof.
  intros C HN. pose proof (n_val G pb rb g) as NV. pose proof np as NP.
  unfold assign_dram_region, is_valid_dram_region.
  destruct (N.ltb_spec r n) as [R|R]; cbn [negb].
  2:{ lret. left. split; [exact HN|]. right. split; [reflexivity|]. intros b M. right.
      cbn [effect]. unfold assign_table. rewrite <- NV.
      destruct (N.leb_spec n r); [|lia]. reflexivity. }
  assert (FT : forall M, (r = 0 -> m_stuck M = false) -> assign_table pb rb c r e M = match m_owner M r with
       | Free => if (region_of pb rb e =? r) || taken M (region_of pb rb e)
           then (concurrent_call, M)
           else if e =? 0 then (ok, load_access (set_owner M r OS) c)
           else (invalid_value, M)
       | _ => (invalid_state, M) end).
  { intros M S. assert (TK : taken M r = false).
    { unfold taken. destruct (N.eqb_spec r 0) as [E|_]; [exact (S E)|reflexivity]. }
    unfold assign_table. rewrite TK, <- NV. destruct (N.leb_spec n r); [lia|]. reflexivity. }
  apply lsafe_bind, (ltas G pb rb g); auto; [apply (sa_none G pb rb g); auto| |].
  { tasf 3.
    - intros b M _ _ H. destruct (H ltac:(auto)) as [H'|[-> H']].
      { left. split; [exact H'|]. split; [|reflexivity]. cbn. rewrite <- NV. auto. }
      right. cbn [effect]. unfold assign_table, taken. rewrite <- NV, H'.
      destruct (N.leb_spec n 0); [lia|]. reflexivity.
    - lret. left. split; [exact HN|left; reflexivity]. }
  intros o1 m1 HF AG MA B Z0 T1 SA _. specialize (T1 (tidy_none G pb rb g h o HN)).
  assert (UR : upd h r true r = true) by ups. set (h1 := upd h r true) in *.
  assert (HE : forall x, x < n -> upd h1 r false x = false) by (unfold h1; allf HN).
  lb safe_owner_held; auto. sr. change free_enclave_id with 3.
  pose proof (sa_owner _ _ _ _ _ _ SA r R UR) as O1.
  destruct (N.eqb_spec (o_owner o1 r) 3) as [O|O]; cbn [negb].
  2:{ apply lsafe_bind. apply (llook_clr G pb rb g) with (v := invalid_state).
    - intros b o2 hd2 M L US AG2 MA2. right. cbn [effect]. rewrite FT by (intros E0; apply US; rewrite <- E0 at 1; auto).
      rewrite (ma_owner _ _ _ _ _ MA2) by auto. rewrite O1 in O.
      destruct (m_owner m1 r); try reflexivity. exfalso. apply O. reflexivity.
    - apply (lclr G); auto. lret. left. split; [exact HE|left; reflexivity]. }
  assert (OW : m_owner m1 r = Free).
  { rewrite O1 in O. destruct (m_owner m1 r); try discriminate O. reflexivity. }
  assert (RZ : r <> 0) by congruence.
  cbv zeta. rewrite (region_for_spec G pb rb g).
  set (q := region_of pb rb e). assert (Q : q < n).
  { unfold q. rewrite <- (region_for_spec G pb rb g). apply (region_lt G pb rb g). }
  apply lsafe_bind, (ltas G pb rb g); auto.
  { tasf 3.
    - intros b M MS MA2 H. destruct (N.eq_dec q r) as [QR|QR].
      + right. cbn [effect]. rewrite FT by contradiction.
        rewrite (ma_owner _ _ _ _ _ MA2), OW by auto. fold q. rewrite QR, N.eqb_refl. reflexivity.
      + destruct H as [H|[QZ H]]; [unfold h1; rewrite upd_other by auto; auto| |].
        { left. split; [exact H|]. split; [|reflexivity]. cbn. rewrite <- NV. auto. }
        right. cbn [effect]. rewrite FT by contradiction.
        rewrite (ma_owner _ _ _ _ _ MA2), OW by auto. fold q. unfold taken. rewrite QZ, H, orb_true_r. reflexivity.
    - apply lsafe_bind, (lclr G); auto. lret. left. split; [exact HE|left; reflexivity]. }
  intros o2 m2 HF2 AG2 MA2 B2 Z2 T2 SA2 OS2. specialize (T2 T1).
  assert (QR : q <> r) by (intros X; unfold h1 in HF2; rewrite X, upd_same in HF2; discriminate).
  set (h2 := upd h1 q true) in *.
  assert (H2R : h2 r = true) by (unfold h2, h1; ups).
  assert (H2Q : h2 q = true) by (unfold h2, h1; ups).
  assert (H2N : forall x, x < n -> upd (upd h2 q false) r false x = false).
  { unfold h2, h1. allf HN. }
  assert (OW2 : m_owner m2 r = Free).
  { rewrite (ma_owner _ _ _ _ _ MA2) by auto. exact OW. }
  assert (O2 : o_owner o2 r = 3).
  { rewrite (sa_owner _ _ _ _ _ _ SA2), OW2 by auto. reflexivity. }
  apply lsafe_bind. apply (lsafe_is_plain G pb rb g).
  { unfold is_valid_enclave_id. plt. }
  apply (safe_valid_id G pb rb g true). sr.
  assert (SB : forall o' m' a', same_as c h2 o' m' a' -> same_as c (upd h2 q false) o' m' a').
  { intros o' m' a'. apply (sa_sub G pb rb g). intros x X. ups. }
  destruct (N.eqb_spec e 0) as [E|E].
  - assert (Q0 : q = 0).
    { unfold q. rewrite E, <- (region_for_spec G pb rb g). apply (region_for_0 G pb rb g). }
    assert (QE : q = region_of pb rb e) by reflexivity.
    clearbody q. subst q e. specialize (OS2 eq_refl). destruct (T2 H2Q) as [TC TD].
    apply lsafe_bind, lsafe_bind, (lst_owner G pb rb g); auto; [reflexivity| | |].
    { rewrite O2. unfold owner_change. tauto. }
    { intros X. exfalso. congruence. }
    apply lsafe_bind, (lset_bit G pb rb g); auto.
    set (o3 := with_bit (with_owner o2 r 0) r true).
    change (0 =? 0) with true. cbv iota.
    apply lsafe_bind, lsafe_bind, (lsafe_set_drb G pb rb g); auto. lret. lret.
    assert (T4 : tidy h2 o3).
    { intros _. split; [|exact TD].
      intros x X. unfold clean, o3. cbn. unfold upd. destruct (N.eqb_spec x r); [reflexivity|].
      apply TC; auto. }
    set (F := fun M => load_access (set_owner M r OS) c).
    assert (S4 : same_as c h2 o3 (F m2) (o_bit o3)).
    { destruct SA2 as [S1 S2 S3 S4]. constructor; unfold o3, F; cbn; auto.
      - intros x X HX. unfold upd. destruct (N.eqb_spec x r); [reflexivity|auto].
      - intros _ x X. rewrite upd_same. unfold upd. destruct (N.eqb_spec x r); [reflexivity|].
        rewrite OS2 by auto. apply TC. auto. }
    apply lsafe_bind. apply (leffect_clr G pb rb g) with (v := ok) (F := F).
    + intros b o4 hd4 M L US AG4 MA4. right. cbn [effect]. rewrite FT by (intros E0; apply US; rewrite <- E0 at 1; auto).
      rewrite (ma_owner _ _ _ _ _ MA4), OW2 by auto. rewrite <- QE.
      destruct (N.eqb_spec 0 r); [contradiction|]. unfold taken. rewrite (US H2Q). reflexivity.
    + intros o4 hd4 M _ L RS MA4. unfold F.
      destruct (lin_set_owner G pb rb g c h2 m2 r OS o4 hd4 M) as (L' & MG' & MA'); auto.
      destruct (lin_load G pb rb g c h2 (set_owner m2 r OS) o4 hd4 (set_owner M r OS)) as (L2 & MG2 & MA5); auto.
      split; [exact L2|]. split; [|exact MA5]. eapply mgua_trans; eauto.
    + apply (lclr G); auto. apply lsafe_bind, (lclr G); auto; [ups| |].
      * intros X. rewrite upd_same in X. discriminate.
      * lret. left. split; [exact H2N|left; reflexivity].
  - apply lsafe_bind. lret. apply lsafe_bind. apply (llook_clr G pb rb g) with (v := invalid_value).
    + intros b o4 hd4 M L US AG4 MA4. right. cbn [effect]. rewrite FT by (intros E0; apply US; rewrite <- E0 at 1; auto).
      rewrite (ma_owner _ _ _ _ _ MA4), OW2 by auto. fold q.
      destruct (N.eqb_spec q r); [contradiction|].
      assert (TK : taken M q = false).
      { unfold taken. destruct (N.eqb_spec q 0) as [EQ|_]; [|reflexivity]. apply US. rewrite <- EQ. exact H2Q. }
      rewrite TK. destruct (N.eqb_spec e 0); [contradiction|]. reflexivity.
    + apply (lclr G); auto. apply lsafe_bind, (lclr G); auto; [ups| |].
      * eapply tidy_sub; [|exact T2]. ups.
      * lret. left. split; [exact H2N|left; reflexivity].
Qed.

(** ** set_dma_range *)
Lemma lin_dma_loop c t h base mask ac (Q : post (option bool)) : c < cores -> h 0 = true ->
  (forall r, r < n -> r <> 0 -> h r = false) ->
  (forall (b : Prop) M, b -> teff b c (CSetDmaRange base mask) t concurrent_call M M) ->
  (forall h' v o m, tidy h' o -> same_as c h' o m ac -> (forall r, h' r = h r) -> Q (Some v) h' o m ac None) ->
  (forall h' o m, tidy h' o -> same_as c h' o m ac -> (forall r, h' r = h r) -> Q None h' o m ac (Some concurrent_call)) ->
  forall fuel a e b o m h', (forall r, h' r = h r) -> tidy h' o -> same_as c h' o m ac ->
  lsafe c (CSetDmaRange base mask) t (dma_stripes fuel G a e b) h' o m ac None Q.
Proof.
  intros C H0 HN TE QS QN. induction fuel as [|f IH]; intros a e b o m h' HH T SA; cbn [dma_stripes].
  - destruct (a <? e); [exact Logic.I|]. lret. apply QS; auto.
  - destruct (a <? e); [|lret; apply QS; auto].
    set (r := dram_region_for G a). assert (R : r < n) by apply (region_lt G pb rb g).
    destruct (N.eqb_spec r 0) as [R0|R0]; cbn [negb].
    + cbn [bind]. lb safe_owner_any; auto.
    + apply lsafe_bind, (ltas G pb rb g); auto.
      { tasf concurrent_call.
        - intros b' M MS MA H. apply TE; auto.
          destruct H as [H|[H _]]; [rewrite HH; apply HN; auto|exact H|contradiction].
        - lret. apply QN; auto. }
      intros o1 m1 HF AG MA B Z0 T1 SA1 _. specialize (T1 T).
      lb safe_owner_any; auto. intros v _ _. sr.
      apply lsafe_bind, (lclr G); auto; [ups|]. apply IH.
      * intros x. rewrite <- HH. ups.
      * eapply tidy_sub; [|exact T1]. ups.
      * eapply (sa_sub G pb rb g); [|exact SA1]. intros x X. ups.
Qed.

Lemma lin_set_dma c t h o m a base mask : c < cores -> (forall x, x < n -> h x = false) ->
  base < W64 -> mask < W64 ->
  lsafe c (CSetDmaRange base mask) t (set_dma_range G base mask) h o m a None
    (lends c (CSetDmaRange base mask) t).
Proof.
  intros C HN HB HM. pose proof np as NP. unfold set_dma_range.
  pose proof (range_iff base mask HB HM) as RI.
  destruct (is_valid_range base mask) eqn:VR; cbn [negb].
  2:{ lret. left. split; [exact HN|]. right. split; [reflexivity|]. intros b M. right. left.
      split; auto. intros [X _]. apply RI in X. discriminate. }
  assert (PR : pow2_range base mask) by (apply RI; reflexivity).
  destruct (range_last base mask HB HM VR) as [LO LW].
  rewrite LO. unfold is_dram_address.
  destruct (N.ltb_spec (base + mask) (g_dram_size G)) as [D|D]; cbn [negb].
  2:{ lret. left. split; [exact HN|]. right. split; [reflexivity|]. intros b M. right. left.
      split; auto. lia. }
  apply lsafe_bind, (ltas G pb rb g); auto; [apply (sa_none G pb rb g); auto| |].
  { tasf 3.
    - intros b M _ _ H. destruct (H ltac:(auto)) as [H'|[_ H']].
      + left. split; [exact H'|]. split; [|reflexivity]. cbn. auto.
      + right. right. left. auto.
    - lret. left. split; [exact HN|left; reflexivity]. }
  intros o1 m1 HF AG MA B Z0 T1 SA _. specialize (T1 (tidy_none G pb rb g h o HN)).
  assert (RE : wadd (base + mask) 1 = base + mask + 1).
  { apply wadd_small. pose proof (geo_D _ _ _ g). lia. }
  rewrite RE.
  apply lsafe_bind. apply (lin_dma_loop c t (upd h 0 true) base mask a); auto.
  { intros r R RZ. rewrite upd_other by auto. auto. }
  { intros b M BB. left. split; [exact BB|]. split; [|reflexivity]. cbn. auto. }
  - intros h' v o2 m2 T2 SA2 HH.
    assert (H0 : h' 0 = true) by (rewrite HH; apply upd_same).
    assert (HE : forall x, x < n -> upd h' 0 false x = false).
    { intros x X. unfold upd. destruct (N.eqb_spec x 0); [reflexivity|]. rewrite HH, upd_other; auto. }
    set (h2 := h') in *.
    assert (DO : forall x (f : N -> prog N) o', match x with
         OSetDmaStart _ | OSetDmaEnd _ | OSetDmarBase _ | OSetDmarMask _ => True | _ => False end ->
       lsafe c (CSetDmaRange base mask) t (f 0) h2 (match x with
         | OSetDmaStart v => with_dma o' (o_dmar_base o') (o_dmar_mask o') v (o_dma_end o')
         | OSetDmaEnd v => with_dma o' (o_dmar_base o') (o_dmar_mask o') (o_dma_start o') v
         | OSetDmarBase v => with_dma o' v (o_dmar_mask o') (o_dma_start o') (o_dma_end o')
         | OSetDmarMask v => with_dma o' (o_dmar_base o') v (o_dma_start o') (o_dma_end o')
         | _ => o' end) m2 a None (lends c (CSetDmaRange base mask) t) ->
       lsafe c (CSetDmaRange base mask) t (y <- op1 x ;; f y) h2 o' m2 a None (lends c (CSetDmaRange base mask) t)).
    { intros x f o' X L. apply lsafe_bind. apply (lsafe_is_plain G pb rb g).
      - cbn [op1 uses]. split; [apply plain_set_dma; exact X|auto].
      - apply (safe_dma_op G pb rb g true); auto. cbn [safe]. split; [reflexivity|exact L]. }
    apply DO; [exact Logic.I|]. apply DO; [exact Logic.I|]. apply DO; [exact Logic.I|].
    apply DO; [exact Logic.I|]. cbv iota beta.
    set (o3 := with_dma _ _ _ _ _).
    assert (T3 : tidy h2 o3).
    { intros _. split; [exact (proj1 (T2 H0))|]. split; cbn.
      - pose proof (geo_D _ _ _ g). lia.
      - intros x A. rewrite range_members by auto. lia. }
    apply lsafe_bind. apply (leffect_clr G pb rb g) with (v := ok) (F := fun M => m_set_dma M base (base + mask + 1)).
    + intros b o4 hd4 M L US AG4 MA4. right. right. right.
      split; [exact PR|]. split; [exact D|]. split; [exact (US H0)|]. auto.
    + intros o4 hd4 M _ L RS MA4. apply (lin_dma G pb rb g); auto.
    + apply (lclr G); auto.
      * destruct SA2 as [S1 S2 S3 S4]. constructor; cbn; auto.
      * lret. left. split; [exact HE|left; reflexivity].
  - intros h' o2 m2 T2 SA2 HH.
    assert (H0 : h' 0 = true) by (rewrite HH; apply upd_same).
    apply lsafe_bind, (lclr G); auto. lret. left. split; [|left; reflexivity].
    intros x X. unfold upd. destruct (N.eqb_spec x 0); [reflexivity|]. rewrite HH, upd_other; auto.
Qed.

(** ** Calls without effect on regions *)
Lemma lin_calm c k t h o m a (P : N -> Prop) : c < cores -> calm k = true -> leaky k = false ->
  (forall x, x < n -> h x = false) ->
  safe c k (call_prog G k) h o (fun v h' o' => P v /\ ends G k h v h' o') ->
  (forall v (b : Prop) M, P v -> teff b c k t v M M) ->
  lsafe c k t (call_prog G k) h o m a None (lends c k t).
Proof.
  intros C CA LK HN S TE.
  eapply (lsafe_weaken G pb rb); [|apply (lsafe_calm G pb rb g c k t _ C CA h o m a _ S); apply (sa_none G pb rb g); exact HN].
  cbv beta. intros v h' o' m' a' st (-> & _ & PV & EH & _). left. split.
  - intros r R. destruct (h' r) eqn:E; [|reflexivity].
    destruct (EH r R E) as [X|[X _]]; [rewrite HN in X by auto; discriminate|congruence].
  - right. split; [reflexivity|]. intros b M. apply TE. exact PV.
Qed.

(** ** Calls that return with the lock of region 0 *)
Definition keeps (h0 : N -> bool) : N -> (N -> bool) -> ost -> Prop := fun v h o =>
  tidy h o /\ (v <> monitor_ok /\ (forall r, r < n -> h r = h0 r) \/
              v = monitor_ok /\ forall r, r < n -> h r = upd h0 0 true r).
Ltac kf := split; [|left; split; [discriminate|intros ? ?; ups]].
Lemma keeps_delete_thread c h o t : c < cores -> tidy h o ->
  safe c (CDeleteThread t) (delete_thread G t) h o (keeps h).
Proof.
  intros C T. unfold delete_thread. apply safe_bind; apply (safe_current G pb rb g true); auto.
  rewrite (region_for_0 G pb rb g).
  apply safe_bind; apply (safe_tas G pb rb g true); auto; [exact np|apply safe_ret; kf; auto|].
  intros o1 HF AG B Z0 T0 T1. apply safe_ret. split; [auto|]. right. auto.
Qed.
Lemma keeps_create_thread c h o t p : c < cores -> tidy h o ->
  safe c (CCreateThread t p) (create_thread G t p) h o (keeps h).
Proof.
  intros C T. unfold create_thread.
  destruct (negb (is_page_aligned p)); [apply safe_ret; kf; auto|].
  destruct (negb (is_dram_address G p)); [apply safe_ret; kf; auto|].
  destruct (negb (is_dram_address G _)); [apply safe_ret; kf; auto|].
  apply safe_bind; apply (safe_current G pb rb g true); auto. rewrite (region_for_0 G pb rb g).
  apply safe_bind; apply (safe_tas G pb rb g true); auto; [exact np|apply safe_ret; kf; auto|].
  intros o1 HF AG B Z0 T0 T1. specialize (T1 T).
  assert (CLR : forall w, w <> monitor_ok ->
     safe c (CCreateThread t p) (clear_dram_region_lock G 0 ;; Ret w) (upd h 0 true) o1 (keeps h)).
  { intros w NW. apply safe_bind, (safe_clr G pb rb g true); auto; [exact np|]. apply safe_ret.
    split; [eapply tidy_sub; [|exact T1]; ups|]. left. split; [exact NW|]. intros x X. ups. }
  unfold read_bitmap_bit. apply safe_bind.
  apply safe_bind; apply (safe_load_any G pb rb g true). intros w _. apply safe_ret.
  destruct (negb (negb _)); [apply CLR; discriminate|].
  apply safe_bind.
  assert (S : forall f a e r h o (Q : bool -> (N -> bool) -> ost -> Prop), (forall b, Q b h o) ->
    safe c (CCreateThread t p) (thread_pages f G a e r) h o Q).
  { induction f as [|f IH]; intros a e r h' o' Q QQ; cbn [thread_pages].
    - destruct (a <? e); [exact Logic.I|apply safe_ret; auto].
    - destruct (a <? e); [|apply safe_ret; auto].
      destruct (negb _); [apply safe_ret; auto|]. apply IH. auto. }
  apply S. intros [|]; [apply CLR; discriminate|]. apply safe_ret. split; [auto|]. right. auto.
Qed.
Lemma lin_leaky c k t h o m a : c < cores -> leaky k = true -> (forall x, x < n -> h x = false) ->
  safe c k (call_prog G k) h o (keeps h) ->
  lsafe c k t (call_prog G k) h o m a None (lends c k t).
Proof.
  intros C LK HN S.
  assert (CA : calm k = true) by (destruct k; try discriminate LK; reflexivity).
  eapply (lsafe_weaken G pb rb); [|apply (lsafe_calm G pb rb g c k t _ C CA h o m a _ S); apply (sa_none G pb rb g); exact HN].
  cbv beta. intros v h' o' m' a' st (-> & SA & T & [[V E]|[V E]]).
  - left. split; [intros r R; rewrite E; auto|]. right. split; [reflexivity|].
    intros b M. right. destruct k; try discriminate LK; left; split; auto.
  - right. do 3 (split; [assumption || reflexivity|]). split; [|split; assumption].
    intros r R. rewrite E by auto. unfold upd. rewrite HN by auto. destruct (r =? 0); reflexivity.
Qed.

(** ** Every call *)
Lemma call_lin c k t h o m a : c < cores -> call_args_ok k -> safe_call G k ->
  (forall x, x < n -> h x = false) -> t <= o_clock o ->
  lsafe c k t (call_prog G k) h o m a None (lends c k t).
Proof.
  intros C A S HN TO.
  pose proof (tidy_none G pb rb g h o HN) as T.
  assert (ANY : calm k = true -> leaky k = false -> (forall v (b : Prop) M, teff b c k t v M M) ->
    lsafe c k t (call_prog G k) h o m a None (lends c k t)).
  { intros CA LK TE. apply lin_calm with (P := fun _ => True); auto.
    eapply safe_weaken; [|apply (call_safe G pb rb g true c k h o C A S T)]. cbv beta. auto. }
  assert (NOT : calm k = true -> leaky k = false ->
    safe c k (call_prog G k) h o (fun v h' o' => v <> monitor_ok /\ ends G k h v h' o') ->
    (forall v (b : Prop) M, v <> monitor_ok -> teff b c k t v M M) ->
    lsafe c k t (call_prog G k) h o m a None (lends c k t)).
  { intros CA LK SS TE. apply lin_calm with (P := fun v => v <> monitor_ok); auto. }
  assert (EB : forall w (Q : Prop), w <> monitor_ok ->
     safe c k (Ret w) h o (fun v h' o' => v <> monitor_ok /\ ends G k h v h' o')).
  { intros w Q W. cbn [ConcProofs.safe]. split; [exact W|]. split; auto. }
  destruct k; cbn [call_prog call_args_ok safe_call leaky] in *; try contradiction.
  - apply (lin_block G pb rb g); auto.
  - apply (lin_check G pb rb g); auto.
  - apply (lin_state G pb rb g); auto.
  - apply (lin_owner G pb rb g); auto.
  - apply lin_set_dma; tauto.
  - apply lin_create_metadata; auto.
  - apply lin_assign; auto.
  - apply lin_free; auto.
  - apply (lin_flush G pb rb g); auto.
  - apply ANY; auto. intros v b M. right. reflexivity.
  - apply NOT; auto; [|intros v b M V; right; split; auto].
    unfold load_page_table.
    destruct (negb (is_dram_address G phys_addr)); [apply (EB _ True); discriminate|].
    destruct (negb (is_page_aligned phys_addr)); [apply (EB _ True); discriminate|].
    destruct (_ <=? level); [apply (EB _ True); discriminate|]. apply (safe_guard_bad G pb rb g); auto.
  - apply NOT; auto; [|intros v b M V; right; split; auto].
    unfold load_page.
    destruct (negb (is_dram_address G phys_addr) || _); [apply (EB _ True); discriminate|].
    destruct (negb (is_page_aligned phys_addr) || _); [apply (EB _ True); discriminate|].
    apply (safe_guard_bad G pb rb g); auto.
  - apply ANY; auto. intros v b M. right. reflexivity.
  - apply ANY; auto. intros v b M. right. reflexivity.
  - apply NOT; auto; [|intros v b M V; right; split; auto]. apply (safe_guard_bad G pb rb g); auto.
  - apply NOT; auto; [|intros v b M V; right; split; auto]. apply (safe_guard_bad G pb rb g); auto.
  - apply NOT; auto; [|intros v b M V; right; split; auto]. apply (safe_guard_bad G pb rb g); auto.
  - apply ANY; auto. intros v b M. right. reflexivity.
  - apply lin_leaky; auto. apply keeps_create_thread; auto.
  - apply lin_leaky; auto. apply keeps_delete_thread; auto.
  - apply lin_calm with (P := fun v => v = ok); auto; [|intros v b M V; right; split; auto].
    cbn [call_prog]. unfold exit_enclave, current_core_info. apply safe_bind, safe_bind.
    apply (safe_core G pb rb g true). apply safe_ret.
    do 3 (apply safe_bind; apply (safe_load_any G pb rb g true); intros _ _).
    apply safe_ret. split; [reflexivity|]. split; auto.
Qed.
End Calls.
