(** * The region calls over every machine state. *)
From Coq Require Import NArith ZArith Lia Bool List.
From Coq Require Import ZifyBool ZifyNat ZifyN.
From Verif Require Import Word Machine ModelBare ModelHash ModelInl ModelRegions
  ModelMetadata ModelEnclave ModelBoot ModelApi Lib BareProofs SpecGeometry
  GeomProofs SpecMonitor SpecMetadata ViewProofs SeqProofs SeqCalls SeqCalls2 SeqCalls3
  SeqCalls5 SeqCalls6 HistoryProofs SpecContract ContractProofs.
Import ListNotations.
Open Scope N_scope.
Ltac Zify.zify_post_hook ::= Z.div_mod_to_equations.

Lemma updated_setbit w i v : i < 64 -> w < W64 ->
  updated_word w i v = if v then N.setbit w i else N.clearbit w i.
Proof.
  intros I H. apply N.bits_inj. intros t. rewrite updated_word_spec by auto.
  destruct v.
  - rewrite N.setbit_eqb, (N.eqb_sym i t). destruct (t =? i); [reflexivity|].
    rewrite orb_false_l. reflexivity.
  - rewrite N.clearbit_eqb, (N.eqb_sym i t). destruct (t =? i); [rewrite andb_false_r|rewrite andb_true_r]; reflexivity.
Qed.

Section Regions.
Variables (G : globals) (pb rb : N).
Hypothesis g : geom G pb rb.
Local Notation n := (g_dram_region_count G).
Local Notation W := (g_dram_region_bitmap_words G).

Lemma put_bit_mem s id r v : put_bit G s id r v =
  set_mem s (bit_updated_mem (s_mem s) (if id =? 0 then g_os_region_bitmap G else id + 304) r v).
Proof.
  unfold put_bit, put, bit_updated_mem, word_of_bit, bit_word. f_equal. f_equal.
  rewrite updated_setbit by (try apply ld8_bound; apply N.mod_lt; discriminate). reflexivity.
Qed.

Lemma wp_set_bit_rest c e j v o (Q : unit -> ost -> Prop) : record_at G e -> e <> 0 -> j < n ->
  Q tt (with_rest o (bit_updated_mem (o_rest o) (e + 304) j v)) ->
  wp G c (set_enclave_region_bitmap_bit G e j v) o Q.
Proof.
  intros RA E0 J H. unfold set_enclave_region_bitmap_bit. change null_enclave_id with 0.
  destruct (N.eqb_spec e 0); [contradiction|]. rewrite (bitmap_addr G e RA).
  destruct RA as [R1 R2]. change (2 ^ 64) with W64 in R2.
  pose proof (layout _ _ _ g) as (L1 & L2 & L3 & L4 & L5 & L6 & L7 & L8).
  unfold set_bitmap_bit. rewrite wmul_small, wadd_small by lia.
  apply wp_bind. apply wp_load_rest.
  { intros b B. apply (rest_high G pb rb g). lia. }
  rewrite bit_mask_val.
  assert (ST : wp G c (if v then store64 (e + 304 + 8 * (j / 64)) (N.lor (ld 8 (o_rest o) (e + 304 + 8 * (j / 64))) (2 ^ (j mod 64)))
    else store64 (e + 304 + 8 * (j / 64)) (N.land (ld 8 (o_rest o) (e + 304 + 8 * (j / 64))) (wnot (2 ^ (j mod 64))))) o
    (fun _ o' => o' = with_rest o (bit_updated_mem (o_rest o) (e + 304) j v))).
  { unfold bit_updated_mem, word_of_bit, updated_word.
    assert (UL : updated_word (ld 8 (o_rest o) (e + 304 + 8 * (j / 64))) (j mod 64) v < W64).
    { apply updated_word_lt; [apply N.mod_lt; discriminate|apply ld8_bound]. }
    unfold updated_word in UL.
    destruct v; (apply (wp_st_rest G pb rb g); [exact UL|intros b B; apply (rest_high G pb rb g); lia|reflexivity]). }
  apply wp_bind. eapply wp_weaken; [|exact ST]. cbv beta. intros _ o' ->. apply wp_ret. exact H.
Qed.

(** Loading an access register. *)
Lemma wp_load_drb c o (Q : N -> ost -> Prop) :
  (forall d, (forall j, j < n -> W <= o_words o -> N.testbit (d (j / 64)) (j mod 64) = o_bit o j) ->
     let r := o_regs o c in
     Q 0 (with_regs o c (mkCregs d (r_edrb r) (r_par_base r) (r_par_mask r) (r_cache_shift r)
                           (r_tlb_flushes r)))) ->
  wp G c (op1 (OSetDrb (g_os_region_bitmap G))) o Q.
Proof.
  intros H s V. cbn [op1 run step].
  eexists _, _, _. split; [reflexivity|split; [|apply (H (snapshot s (r_drb (s_cores s c)) (g_os_region_bitmap G)))]].
  - cbv zeta. rewrite <- !(v_regs _ _ _ V). destruct V. constructor; cbn -[ld st snapshot]; intros; auto.
    unfold upd. destruct (c0 =? c); [reflexivity|auto].
  - intros j J LW. unfold snapshot.
    pose proof (layout _ _ _ g) as (L1 & L2 & L3 & L4 & L5 & L6 & L7 & L8).
    rewrite (v_words _ _ _ V). destruct (N.ltb_spec (j / 64) (o_words o)); [|lia].
    rewrite <- (v_bit _ _ _ V) by lia. rewrite bit_at_word. reflexivity.
Qed.
Lemma wp_load_edrb c e o (Q : N -> ost -> Prop) : record_at G e ->
  (forall d, (forall j, j < n -> W <= o_words o ->
       N.testbit (d (j / 64)) (j mod 64) =
       N.testbit (ld 8 (o_rest o) (e + 304 + 8 * (j / 64))) (j mod 64)) ->
     let r := o_regs o c in
     Q 0 (with_regs o c (mkCregs (r_drb r) d (r_par_base r) (r_par_mask r) (r_cache_shift r)
                           (r_tlb_flushes r)))) ->
  wp G c (op1 (OSetEdrb (enclave_region_bitmap e))) o Q.
Proof.
  intros RA H s V. rewrite (bitmap_addr G e RA). cbn [op1 run step].
  eexists _, _, _. split; [reflexivity|split; [|apply (H (snapshot s (r_edrb (s_cores s c)) (e + 304)))]].
  - cbv zeta. rewrite <- !(v_regs _ _ _ V). destruct V. constructor; cbn -[ld st snapshot]; intros; auto.
    unfold upd. destruct (c0 =? c); [reflexivity|auto].
  - intros j J LW. unfold snapshot. destruct RA as [R1 R2]. change (2 ^ 64) with W64 in R2.
    pose proof (layout _ _ _ g) as (L1 & L2 & L3 & L4 & L5 & L6 & L7 & L8).
    rewrite (v_words _ _ _ V). destruct (N.ltb_spec (j / 64) (o_words o)); [|lia].
    f_equal. apply ld_byte. intros b B1 B2. change (N.of_nat 8) with 8 in B2.
    apply (v_rest _ _ _ V), (rest_high G pb rb g). lia.
Qed.

Section At.
Variables (s : state) (c : N).
Hypothesis CL : clean_locks G s.
Local Notation o := (view_of G s).
Local Notation only := (only G s).
Ltac same := apply wp_ret; split; [reflexivity|apply oeq_refl].

Lemma dyn_eq r : is_dynamic_dram_region G r = is_dynamic G r.
Proof. unfold is_dynamic_dram_region, is_valid_dram_region, is_dynamic. reflexivity. Qed.

Lemma check_ownership_wp r : c < g_core_count G ->
  wp G c (dram_region_check_ownership G r) o (only (check_ownership_code G s c r)).
Proof.
  intros C. unfold dram_region_check_ownership, check_ownership_code. rewrite dyn_eq.
  destruct (is_dynamic G r) eqn:DY; cbn [negb]; [|same].
  assert (R : r < n) by (unfold is_dynamic in DY; lia).
  apply wp_bind. apply (tas G pb rb g s c CL); auto.
  destruct (is_locked G s r) eqn:L.
  { apply wp_ret. split; [reflexivity|apply busy; auto]. }
  unfold read_dram_region_owner. bnd (wp_owner G pb rb g). bnd (wp_current G pb rb g).
  bnd (wp_clr G pb rb g). apply wp_ret. split; [reflexivity|].
  apply released; auto.
Qed.
Lemma region_state_wp r : wp G c (dram_region_state G r) o (only (region_state_code G s r)).
Proof.
  unfold dram_region_state, region_state_code, is_valid_dram_region.
  destruct (r <? n) eqn:V; cbn [negb]; [|same].
  assert (R : r < n) by lia.
  apply wp_bind. apply (tas G pb rb g s c CL); auto.
  destruct (is_locked G s r) eqn:L.
  { apply wp_ret. split; [reflexivity|apply busy; auto]. }
  unfold read_dram_region_owner. bnd (wp_owner G pb rb g).
  bnd (wp_clr G pb rb g). apply wp_ret. split; [|apply released; auto].
  change (o_owner (with_lock o r 1) r) with (owner_of G s r).
  change null_enclave_id with 0. change blocked_enclave_id with 1. change free_enclave_id with 3.
  destruct (N.eqb_spec (owner_of G s r) 0) as [->|]; reflexivity.
Qed.
Lemma region_owner_wp r : wp G c (dram_region_owner G r) o (only (region_owner_code G s r)).
Proof.
  unfold dram_region_owner, region_owner_code, is_valid_dram_region.
  destruct (r <? n) eqn:V; cbn [negb]; [|same].
  assert (R : r < n) by lia.
  apply wp_bind. apply (tas G pb rb g s c CL); auto.
  destruct (is_locked G s r) eqn:L.
  { apply wp_ret. split; [reflexivity|apply busy; auto]. }
  unfold read_dram_region_owner. bnd (wp_owner G pb rb g).
  bnd (wp_clr G pb rb g). apply wp_ret. split; [reflexivity|apply released; auto].
Qed.

(** Success: memory is that of [t], and [E] about the registers. *)
Lemma free_wp r : 
  wp G c (free_dram_region G r) o
    (fun v o' => v = free_code G s r /\ (v <> 0 -> oeq o o') /\
       (v = 0 -> oeq (with_owner o r 3) o')).
Proof.
  unfold free_dram_region, free_code, is_valid_dram_region.
  assert (no : forall w o', w <> 0 -> oeq o o' ->
    w = w /\ (w <> 0 -> oeq o o') /\ (w = 0 -> oeq (with_owner o r 3) o')).
  { intros w o' W0 E. split; [reflexivity|]. split; [auto|]. intros; contradiction. }
  destruct (r <? n) eqn:V; cbn [negb].
  2:{ apply wp_ret. apply no; [discriminate|apply oeq_refl]. }
  assert (R : r < n) by lia.
  apply wp_bind. apply (tas G pb rb g s c CL); auto.
  destruct (is_locked G s r) eqn:L.
  { apply wp_ret. apply no; [discriminate|apply busy; auto]. }
  pose proof (idle G s CL r R L) as LR.
  unfold read_dram_region_owner. bnd (wp_owner G pb rb g).
  change (o_owner (with_lock o r 1) r) with (owner_of G s r).
  change blocked_enclave_id with 1. change metadata_enclave_id with 2.
  assert (bad : wp G c (Ret monitor_invalid_state) (with_lock o r 1) (fun a o1 =>
    wp G c (clear_dram_region_lock G r ;; Ret a) o1 (fun v o' =>
       v = 2 /\ (v <> 0 -> oeq o o') /\ (v = 0 -> oeq (with_owner o r 3) o')))).
  { apply wp_ret. bnd (wp_clr G pb rb g). apply wp_ret. apply no; [discriminate|].
    apply released; auto. }
  assert (good : wp G c (store64 (wadd (region_addr G r) dri_owner) free_enclave_id ;; Ret monitor_ok)
    (with_lock o r 1) (fun a o1 =>
    wp G c (clear_dram_region_lock G r ;; Ret a) o1 (fun v o' =>
       v = 0 /\ (v <> 0 -> oeq o o') /\ (v = 0 -> oeq (with_owner o r 3) o')))).
  { bnd (wp_st_owner G pb rb g); [reflexivity|]. apply wp_ret. bnd (wp_clr G pb rb g). apply wp_ret.
    split; [reflexivity|]. split; [intros X; exfalso; apply X; reflexivity|]. intros _. oeqs. }
  apply wp_bind. destruct (owner_of G s r =? 1).
  - bnd (wp_blocked G pb rb g). apply wp_bind. unfold stale_core.
    eapply wp_weaken; [|apply (stale_seq G pb rb g); lia].
    cbv beta. intros res o1 [-> E]. change (N.to_nat 0) with 0%nat in E.
    change (o_blocked (with_lock o r 1) r) with (blocked_at_of G s r) in E.
    change (res = None <-> all_flushed_since G s (blocked_at_of G s r) = true) in E.
    destruct (all_flushed_since G s (blocked_at_of G s r)).
    + assert (res = None) as -> by (apply E; reflexivity). exact good.
    + destruct res; [exact bad|]. destruct E as [E _]. discriminate (E eq_refl).
  - destruct (owner_of G s r =? 2); [|exact bad].
    bnd (wp_pinned G pb rb g). change (o_pinned (with_lock o r 1) r) with (pinned_of G s r).
    destruct (pinned_of G s r =? 0); [exact good|exact bad].
Qed.

Lemma create_metadata_wp r : r <> 0 ->
  wp G c (create_metadata_region G r) o
    (fun v o' => v = create_metadata_code G s r /\ (v <> 0 -> oeq o o') /\
       (v = 0 -> exists m, oeq (with_rest (with_pinned (with_owner o r 2) r 0) m) o' /\
          (forall b, stripe_start pb rb r 0 <= b < stripe_start pb rb r 0 + 4096 * g_metadata_region_start G ->
             byte m b = 0) /\
          (forall b, b < stripe_start pb rb r 0 \/ stripe_start pb rb r 0 + 4096 * g_metadata_region_start G <= b ->
             byte m b = byte (s_mem s) b))).
Proof.
  intros R0. unfold create_metadata_region, create_metadata_code, is_valid_dram_region.
  destruct (r <? n) eqn:V; cbn [negb].
  2:{ apply wp_ret. split; [reflexivity|]. split; [intros _; apply oeq_refl|discriminate]. }
  assert (R : r < n) by lia.
  apply wp_bind. apply (tas G pb rb g s c CL); auto.
  destruct (is_locked G s r) eqn:L.
  { apply wp_ret. split; [reflexivity|]. split; [intros _; apply busy; auto|discriminate]. }
  pose proof (idle G s CL r R L) as LR.
  unfold read_dram_region_owner. bnd (wp_owner G pb rb g).
  change (o_owner (with_lock o r 1) r) with (owner_of G s r). change free_enclave_id with 3.
  destruct (owner_of G s r =? 3); cbn [negb].
  2:{ bnd (wp_clr G pb rb g). apply wp_ret. split; [reflexivity|].
      split; [intros _; apply released; auto|discriminate]. }
  apply wp_bind. unfold init_metadata_region.
  bnd (wp_st_owner G pb rb g); [reflexivity|].
  bnd (wp_st_pinned G pb rb g); [reflexivity|].
  destruct (map_bytes G pb rb g) as [MB1 MB2]. rewrite MB1.
  rewrite (region_start_val G pb rb g) by lia.
  pose proof (stripe_high G pb rb g r 0 ltac:(lia)) as SH.
  assert (SB : stripe_start pb rb r 0 + 4096 * g_metadata_region_start G <= W64).
  { assert (stripe_start pb rb r 0 + g_dram_stripe_size G <= W64); [|lia].
    rewrite (geo_size _ _ _ g). unfold stripe_start. rewrite N.mul_0_l, N.add_0_l.
    assert ((r + 1) * 2 ^ (12 + pb) <= 2 ^ rb * 2 ^ (12 + pb)).
    { apply N.mul_le_mono_r. rewrite (n_val G pb rb g) in R. lia. }
    rewrite <- pow2_add in H.
    pose proof (p60 (rb + (12 + pb))). pose proof (geo_pb _ _ _ g). pose proof (geo_rb _ _ _ g).
    unfold W64. lia. }
  apply (wp_bzero G pb rb g); auto.
  - lia.
  - intros b B. apply (rest_high G pb rb g). lia.
  - intros m Z F. cbn [o_rest with_pinned with_owner with_lock] in F.
    bnd (wp_clr G pb rb g). apply wp_ret.
    split; [reflexivity|]. split; [intros X; exfalso; apply X; reflexivity|]. intros _.
    exists m. split; [|split; auto]. oeqs.
Qed.

(** The second lock, of [q], while [r] is held. *)
Lemma second r q {T} (yes no : prog T) (Q : T -> ost -> Prop) : r < n -> q < n ->
  is_locked G s r = false ->
  (second_free G s r q = false -> forall o1, oeq (with_lock o r 1) o1 -> wp G c yes o1 Q) ->
  (second_free G s r q = true -> q <> r -> o_lock o q = 0 ->
     wp G c no (with_lock (with_lock o r 1) q 1) Q) ->
  wp G c (t2 <- test_and_set_dram_region_lock G q ;; if (t2 : bool) then yes else no)
    (with_lock o r 1) Q.
Proof.
  intros R QN L Y N. pose proof (idle G s CL r R L) as LR. unfold second_free in *.
  apply wp_bind. apply (wp_tas G pb rb g); auto.
  destruct (N.eqb_spec q r) as [->|NR]; cbn [negb andb] in *.
  - cbn [o_lock with_lock]. rewrite upd_same. cbn [N.eqb negb]. apply Y; [reflexivity|]. oeqs.
  - cbn [o_lock with_lock]. rewrite upd_other by auto.
    destruct (is_locked G s q) eqn:LQ; cbn [negb] in *.
    + unfold is_locked in LQ. apply N.eqb_eq in LQ.
      change (o_lock o q) with (lock_of G s q). rewrite LQ. cbn [N.eqb negb].
      apply Y; [reflexivity|]. assert (LQ' : o_lock o q = 1) by exact LQ. oeqs.
    + pose proof (idle G s CL q QN LQ) as ZQ. rewrite ZQ. cbn [N.eqb negb]. apply N; auto.
Qed.
Lemma clear_second r o1 (v : N) (Q : N -> ost -> Prop) : r < n ->
  oeq (with_lock o r 1) o1 -> is_locked G s r = false ->
  (forall o', oeq o o' -> Q v o') ->
  wp G c (clear_dram_region_lock G r ;; Ret v) o1 Q.
Proof.
  intros R E L H. pose proof (idle G s CL r R L) as LR.
  bnd (wp_clr G pb rb g). apply wp_ret. apply H.
  destruct E. constructor; cbn [with_lock o_lock o_owner o_prev o_pinned o_blocked
        o_clock o_encl o_flushed o_bit o_rest o_regs o_words o_dmar_base o_dmar_mask
        o_dma_start o_dma_end] in *; auto.
  intros r0. unfold upd in *. destruct (N.eqb_spec r0 r) as [->|]; [auto|]. rewrite oe_lock.
  destruct (N.eqb_spec r0 r); [contradiction|reflexivity].
Qed.

(** The tables after a block; [m] is what happens outside them. *)
Definition blocked_ost (r : N) : ost :=
  let own := owner_of G s r in
  let o1 := with_blocked (with_clock (with_owner (with_prev o r own) r 1)
              (wadd (clock_of G s) 1)) r (clock_of G s) in
  if own =? 0 then with_bit o1 r false
  else with_rest o1 (bit_updated_mem (s_mem s) (own + 304) r false).
Definition loaded (id : N) (o1 o' : ost) : Prop :=
  let r := o_regs o c in exists d,
    (forall j, j < n -> W <= s_words s -> N.testbit (d (j / 64)) (j mod 64) =
       if id =? 0 then o_bit o1 j
       else N.testbit (ld 8 (o_rest o1) (id + 304 + 8 * (j / 64))) (j mod 64)) /\
    oeq (with_regs o1 c (if id =? 0
      then mkCregs d (r_edrb r) (r_par_base r) (r_par_mask r) (r_cache_shift r) (r_tlb_flushes r)
      else mkCregs (r_drb r) d (r_par_base r) (r_par_mask r) (r_cache_shift r) (r_tlb_flushes r))) o'.

Lemma block_wp r : c < g_core_count G -> record_id G (enclave_of G s c) ->
  s_dma_start s <= s_dma_end s ->
  wp G c (block_dram_region G r) o
    (fun v o' => v = block_code G pb rb s c r /\ (v <> 0 -> oeq o o') /\
       (v = 0 -> loaded (owner_of G s r) (blocked_ost r) o')).
Proof.
  intros C RI DMA. unfold block_dram_region, block_code. rewrite dyn_eq. cbv zeta.
  assert (no : forall w o', w <> 0 -> oeq o o' ->
    w = w /\ (w <> 0 -> oeq o o') /\ (w = 0 -> loaded (owner_of G s r) (blocked_ost r) o')).
  { intros w o' W0 E. split; [reflexivity|]. split; [auto|]. intros; contradiction. }
  destruct (is_dynamic G r) eqn:DY; cbn [negb].
  2:{ apply wp_ret. apply no; [discriminate|apply oeq_refl]. }
  assert (R : r < n /\ r <> 0) by (unfold is_dynamic in DY; lia). destruct R as [R R0].
  apply wp_bind. apply (tas G pb rb g s c CL); auto.
  destruct (is_locked G s r) eqn:L.
  { apply wp_ret. apply no; [discriminate|apply busy; auto]. }
  pose proof (idle G s CL r R L) as LR.
  unfold read_dram_region_owner. bnd (wp_owner G pb rb g). bnd (wp_current G pb rb g).
  change (o_owner (with_lock o r 1) r) with (owner_of G s r).
  change (o_encl (with_lock o r 1) c) with (enclave_of G s c).
  destruct (N.eqb_spec (owner_of G s r) (enclave_of G s c)) as [OE|OE]; cbn [negb].
  2:{ bnd (wp_clr G pb rb g). apply wp_ret. apply no; [discriminate|]. apply released; auto. }
  rewrite <- OE in RI. change null_enclave_id with 0.
  assert (OB : owner_of G s r < W64) by apply ld8_bound.
  set (own := owner_of G s r) in *.
  apply wp_bind.
  assert (PIN : wp G c (if negb (own =? 0) then load64 (wadd (region_addr G r) dri_pinned_pages) else Ret 0)
    (with_lock o r 1) (fun v o' => o' = with_lock o r 1 /\
       negb (own =? 0) && negb (v =? 0) = negb (own =? 0) && negb (pinned_of G s r =? 0))).
  { destruct (own =? 0); cbn [negb andb].
    - apply wp_ret. auto.
    - apply (wp_pinned G pb rb g); auto. }
  eapply wp_weaken; [|exact PIN]. cbv beta. intros pin o1 [-> ->].
  destruct (negb (own =? 0) && negb (pinned_of G s r =? 0)).
  { bnd (wp_clr G pb rb g). apply wp_ret. apply no; [discriminate|]. apply released; auto. }
  rewrite (region_for_spec G pb rb g). fold (owner_region pb rb own).
  set (q := owner_region pb rb own).
  assert (QN : q < n) by apply (region_lt' G pb rb g).
  apply (second r q); auto.
  { intros SF o1 E. rewrite SF. cbn [negb]. apply (clear_second r); auto.
    intros o' E'. apply no; [discriminate|auto]. }
  intros SF QR ZQ. rewrite SF. cbn [negb].
  assert (D : wp G c (dma_check G r q) (with_lock (with_lock o r 1) q 1)
    (fun b o' => b = (q =? 0) && dma_blocks pb rb s r /\ o' = with_lock (with_lock o r 1) q 1)).
  { unfold dma_check. destruct (q =? 0); [|apply wp_ret; auto]. cbv zeta.
    bnd wp_dma_start. bnd wp_dma_end. apply wp_ret.
    change (o_dma_start (with_lock (with_lock o r 1) q 1)) with (s_dma_start s).
    change (o_dma_end (with_lock (with_lock o r 1) q 1)) with (s_dma_end s).
    assert (R1 : wadd r 1 = r + 1).
    { apply wadd_small. pose proof (layout _ _ _ g) as (L1 & L2 & L3 & L4 & L5 & L6 & L7 & L8).
      unfold W64. lia. }
    rewrite R1, !(region_start_val G pb rb g) by lia. split; [|reflexivity].
    rewrite crossed_touches; [reflexivity|auto|].
    unfold stripe_start. apply N.add_le_mono_l, N.mul_le_mono_r. lia. }
  apply wp_bind. eapply wp_weaken; [|exact D]. cbv beta. intros b o1 [-> ->].
  destruct ((q =? 0) && dma_blocks pb rb s r).
  { bnd (wp_clr G pb rb g). bnd (wp_clr G pb rb g). apply wp_ret. apply no; [discriminate|]. oeqs. }
  bnd (wp_st_prev G pb rb g). bnd (wp_st_owner G pb rb g); [reflexivity|].
  apply wp_bind. apply (wp_fadd G pb rb g). intros CB.
  bnd (wp_st_blocked G pb rb g).
  set (k := clock_of G s) in *.
  unfold loaded, blocked_ost. fold own k.
  destruct (N.eqb_spec own 0) as [O0|O0].
  - rewrite O0 at 1. bnd (wp_set_bit G pb rb g).
    apply wp_bind. apply wp_load_drb. intros d D1. cbv zeta.
    bnd (wp_clr G pb rb g). bnd (wp_clr G pb rb g). apply wp_ret.
    split; [reflexivity|]. split; [intros X; exfalso; apply X; reflexivity|]. intros _.
    exists d. split.
    + intros j J LW. rewrite (D1 j J LW). reflexivity.
    + oeqs.
  - destruct RI as [X|RA]; [contradiction|].
    apply wp_bind. apply wp_set_bit_rest; auto.
    apply wp_bind. apply (wp_load_edrb c own); [auto|]. intros d D1. cbv zeta.
    bnd (wp_clr G pb rb g). bnd (wp_clr G pb rb g). apply wp_ret.
    split; [reflexivity|]. split; [intros X; exfalso; apply X; reflexivity|]. intros _.
    exists d. split.
    + intros j J LW. rewrite (D1 j J LW). reflexivity.
    + oeqs.
Qed.

Definition assigned_ost (r id : N) : ost :=
  let o1 := with_owner o r id in
  if id =? 0 then with_bit o1 r true
  else with_rest o1 (bit_updated_mem (s_mem s) (id + 304) r true).
Lemma assign_wp r id : record_id G id -> id < W64 ->
  wp G c (assign_dram_region G r id) o
    (fun v o' => v = assign_code G pb rb s r id /\ (v <> 0 -> oeq o o') /\
       (v = 0 -> if id =? 0 then loaded id (assigned_ost r id) o'
                 else oeq (assigned_ost r id) o')).
Proof.
  intros RI IB. unfold assign_dram_region, assign_code, is_valid_dram_region. cbv zeta.
  assert (no : forall w o', w <> 0 -> oeq o o' ->
    w = w /\ (w <> 0 -> oeq o o') /\ (w = 0 -> if id =? 0 then loaded id (assigned_ost r id) o'
                 else oeq (assigned_ost r id) o')).
  { intros w o' W0 E. split; [reflexivity|]. split; [auto|]. intros; contradiction. }
  destruct (r <? n) eqn:V; cbn [negb].
  2:{ apply wp_ret. apply no; [discriminate|apply oeq_refl]. }
  assert (R : r < n) by lia.
  apply wp_bind. apply (tas G pb rb g s c CL); auto.
  destruct (is_locked G s r) eqn:L.
  { apply wp_ret. apply no; [discriminate|apply busy; auto]. }
  pose proof (idle G s CL r R L) as LR.
  unfold read_dram_region_owner. bnd (wp_owner G pb rb g).
  change (o_owner (with_lock o r 1) r) with (owner_of G s r). change free_enclave_id with 3.
  destruct (owner_of G s r =? 3); cbn [negb].
  2:{ bnd (wp_clr G pb rb g). apply wp_ret. apply no; [discriminate|]. apply released; auto. }
  rewrite (region_for_spec G pb rb g). fold (owner_region pb rb id).
  set (q := owner_region pb rb id).
  assert (QN : q < n) by apply (region_lt' G pb rb g).
  apply (second r q); auto.
  { intros SF o1 E. rewrite SF. cbn [negb]. apply (clear_second r); auto.
    intros o' E'. apply no; [discriminate|auto]. }
  intros SF QR ZQ. rewrite SF. cbn [negb].
  unfold is_valid_enclave_id. rewrite (main_val G pb rb g). cbv zeta.
  pose proof (main_lt G pb rb g id) as MN.
  apply wp_bind, wp_bind. apply (wp_owner G pb rb g); auto. apply wp_ret.
  change (o_owner (with_lock (with_lock o r 1) q 1) (main_region G pb rb id))
    with (owner_of G s (main_region G pb rb id)).
  destruct (owner_of G s (main_region G pb rb id) =? id); cbn [negb].
  2:{ apply wp_bind, wp_ret. bnd (wp_clr G pb rb g). bnd (wp_clr G pb rb g). apply wp_ret.
      apply no; [discriminate|]. oeqs. }
  apply wp_bind. bnd (wp_st_owner G pb rb g).
  unfold loaded, assigned_ost.
  destruct (N.eqb_spec id 0) as [I0|I0].
  - rewrite I0 at 1. bnd (wp_set_bit G pb rb g).
    apply wp_bind. apply wp_bind. apply wp_load_drb. intros d D1. cbv zeta. apply wp_ret. apply wp_ret.
    bnd (wp_clr G pb rb g). bnd (wp_clr G pb rb g). apply wp_ret.
    split; [reflexivity|]. split; [intros X; exfalso; apply X; reflexivity|]. intros _.
    exists d. split.
    + intros j J LW. rewrite (D1 j J LW). reflexivity.
    + oeqs.
  - destruct RI as [X|RA]; [contradiction|].
    apply wp_bind. apply wp_set_bit_rest; auto. apply wp_bind, wp_ret. apply wp_ret.
    bnd (wp_clr G pb rb g). bnd (wp_clr G pb rb g). apply wp_ret.
    split; [reflexivity|]. split; [intros X; exfalso; apply X; reflexivity|]. intros _. oeqs.
Qed.

Definition flushed_regs : cregs := let r := s_cores s c in
  mkCregs (r_drb r) (r_edrb r) (r_par_base r) (r_par_mask r) (r_cache_shift r) (r_tlb_flushes r + 1).
Lemma flush_wp : c < g_core_count G ->
  wp G c (flush_cached_dram_regions G) o
    (fun v o' => v = 0 /\ oeq (with_regs (with_flushed o c (clock_of G s)) c flushed_regs) o').
Proof.
  intros C. unfold flush_cached_dram_regions, dram_region_tlb_flush.
  apply wp_bind, wp_bind.
  assert (T : wp G c (op1 OFlushTlb) o (fun v o' => o' = with_regs o c flushed_regs)).
  { intros s1 V. cbn [op1 run step]. eexists _, _, _. split; [reflexivity|]. split; [|reflexivity].
    unfold flushed_regs. cbv zeta. change (s_cores s c) with (o_regs o c).
    rewrite <- !(v_regs _ _ _ V). destruct V. constructor; cbn -[ld st view_of]; intros; auto.
    unfold upd. destruct (c0 =? c); [reflexivity|auto]. }
  eapply wp_weaken; [|exact T]. cbv beta. intros _ o1 ->.
  apply wp_bind, wp_core. apply wp_bind. apply (wp_clock G pb rb g). intros B.
  bnd (wp_st_flushed G pb rb g). apply wp_ret. apply wp_ret. split; [reflexivity|]. oeqs.
Qed.
End At.

(** ** From views to machines *)
Section Back.
Variables (s s' : state) (c : N) (o' : ost).
Hypothesis V' : view G s' o'.
Lemma memory_of t o1 : view G t o1 -> oeq o1 o' -> same_memory t s'.
Proof.
  intros V E b. exact (sm_mem _ _ (oeq_view_same G pb rb g t s' o1 o' V V' E) b).
Qed.
Lemma v_put_owner t o1 r v : view G t o1 -> r < n -> v < W64 ->
  view G (put t (lock_addr G r + 8) v) (with_owner o1 r v).
Proof. intros. apply (v_set_owner _ _ _ g); auto. Qed.
Lemma v_put_prev t o1 r v : view G t o1 -> r < n -> v < W64 ->
  view G (put t (lock_addr G r + 16) v) (with_prev o1 r v).
Proof. intros. apply (v_set_prev _ _ _ g); auto. Qed.
Lemma v_put_blocked t o1 r v : view G t o1 -> r < n -> v < W64 ->
  view G (put t (lock_addr G r + 32) v) (with_blocked o1 r v).
Proof. intros. apply (v_set_blocked _ _ _ g); auto. Qed.
Lemma v_put_clock t o1 v : view G t o1 -> v < W64 ->
  view G (put t (g_dram_regions G) v) (with_clock o1 v).
Proof. intros. apply (v_set_clock _ _ _ g); auto. Qed.
Lemma v_put_bit t o1 id r v : view G t o1 -> r < n -> record_id G id -> id < W64 ->
  view G (put_bit G t id r v)
    (if id =? 0 then with_bit o1 r v
     else with_rest o1 (bit_updated_mem (o_rest o1) (id + 304) r v)).
Proof.
  intros V R RI IB. rewrite put_bit_mem. destruct (N.eqb_spec id 0) as [I0|I0].
  - apply (v_set_bit _ _ _ g); auto.
  - destruct RI as [X|RA]; [contradiction|].
    destruct (wp_set_bit_rest c id r v o1 (fun _ o2 => o2 = with_rest o1 (bit_updated_mem (o_rest o1) (id + 304) r v))
      RA I0 R eq_refl t V) as [t' [u [o2 [RUN [V2 ->]]]]].
    unfold set_enclave_region_bitmap_bit in RUN. change null_enclave_id with 0 in RUN.
    destruct (N.eqb_spec id 0); [contradiction|].
    rewrite (bitmap_addr G id RA) in RUN. destruct RA as [R1 R2]. change (2 ^ 64) with W64 in R2.
    pose proof (layout _ _ _ g) as (L1 & L2 & L3 & L4 & L5 & L6 & L7 & L8).
    rewrite set_bitmap_bit_run in RUN by (unfold word_of_bit; lia).
    injection RUN as RUN. subst t'. exact V2.
Qed.
End Back.
End Regions.
