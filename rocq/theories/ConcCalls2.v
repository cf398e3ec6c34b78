(** * Interleaved execution: the calls on metadata, and all calls. *)
From Coq Require Import NArith ZArith Lia Bool List.
From Coq Require Import ZifyBool ZifyNat ZifyN.
From Verif Require Import Word Machine ModelBare ModelHash ModelInl ModelRegions
  ModelMetadata ModelEnclave ModelBoot ModelApi Lib BareProofs SpecGeometry
  GeomProofs Trace SpecMonitor SpecHistory SpecConcurrent ViewProofs SeqProofs SeqCalls
  SeqCalls2 SeqCalls3 SeqCalls4 SeqCalls5 SeqCalls6 ConcProofs ConcCalls.
Import ListNotations.
Open Scope N_scope.
Ltac Zify.zify_post_hook ::= Z.div_mod_to_equations.

Section Calls2.
Variables (G : globals) (pb rb : N).
Hypothesis g : geom G pb rb.
Variable nw : bool.
Local Notation n := (g_dram_region_count G).
Local Notation cores := (g_core_count G).
Local Notation safe := (safe G nw).
Local Notation tidy := (tidy G).
Local Notation agree := (agree G nw).
Local Notation ends := (ends G).
Local Notation top := (g_monitor_top G).
Local Notation high p := (uses (high_op G) p).

Ltac sb L := apply safe_bind; apply (L G pb rb g nw).
Ltac sl L := apply (L G pb rb g nw).
Ltac ups := unfold upd; repeat match goal with
  | |- context [?a =? ?b] => destruct (N.eqb_spec a b) end; try congruence; auto.
Ltac upsin H := unfold upd in H; repeat match type of H with
  | context [?a =? ?b] => destruct (N.eqb_spec a b) end; try congruence; auto.
Ltac fin := split; [let x := fresh in let X := fresh in let Y := fresh in
  intros x X Y; left; upsin Y | try (eapply (tidy_sub G); [|eassumption]; ups)].
Ltac tsub := eapply (tidy_sub G); [|eassumption]; ups.
Ltac clr := sb safe_clr; try solve [exact (npos G pb rb g) | auto | ups | tsub].
Ltac wsm := repeat match goal with
  | |- context [wadd ?a ?b] =>
      lazymatch a with context [wadd _ _] => fail | _ => idtac end;
      rewrite (wadd_small a b) by lia end.

(** ** Programs that store only above the tables *)
Lemma high_ld k a : high (op1 (OLd k a)). Proof. cbn. auto. Qed.
Lemma high_st k a v : top <= a -> high (op1 (OSt k a v)). Proof. cbn. auto. Qed.
Lemma high_for_n (body : N -> prog unit) : forall m i,
  (forall j, i <= j < i + N.of_nat m -> high (body j)) -> high (for_n m i body).
Proof.
  induction m as [|m IH]; intros i H; cbn [for_n]; [exact I|].
  apply uses_bind; [apply H; lia|]. intros _. apply IH. intros j J. apply H. lia.
Qed.
Lemma high_for_exit {R} (body : N -> prog (option R)) : forall m i,
  (forall j, i <= j < i + N.of_nat m -> high (body j)) -> high (for_exit m i body).
Proof.
  induction m as [|m IH]; intros i H; cbn [for_exit]; [exact I|].
  apply uses_bind; [apply H; lia|]. intros [x|]; [exact I|]. apply IH. intros j J. apply H. lia.
Qed.
Ltac hst := apply uses_bind; [apply high_st; wsm; lia|intros _].
Ltac hld := apply uses_bind; [apply high_ld|intros ?].

Lemma land15 i : N.land i 0xf < 16.
Proof. change 15 with (N.ones 4). rewrite N.land_ones. apply N.mod_lt. discriminate. Qed.
Lemma high_schedule w b i : top <= w -> w + 64 <= W64 -> high (sha_schedule w b i).
Proof.
  intros A B. unfold sha_schedule. pose proof (land15 i).
  destruct (i <? 16).
  - hld. hst. exact I.
  - hld. hld. hld. hld. hst. exact I.
Qed.
Lemma high_rounds w b : top <= w -> w + 64 <= W64 -> forall m i v, high (sha_rounds m w b i v).
Proof.
  intros A B. induction m as [|m IH]; intros i v; cbn [sha_rounds]; [exact I|].
  apply uses_bind; [apply high_schedule; auto|]. intros wi. apply IH.
Qed.
Lemma high_extend st b : top <= st -> st + 160 <= W64 -> high (extend_hash st b).
Proof.
  intros A B. unfold extend_hash, hs_h, hs_work, hs_padding, hash_block_size.
  do 8 hld. apply uses_bind.
  { apply high_rounds; wsm; lia. }
  intros v. unfold hash_add.
  assert (HA : forall j x, j < 8 ->
    high (o <- load32 (wadd (wadd st 0) (4 * j)) ;; store32 (wadd (wadd st 0) (4 * j)) (wadd32 o x) ;; Ret tt)).
  { intros j x J. hld. hst. exact I. }
  do 8 (apply uses_bind; [apply HA; reflexivity|intros _]).
  hld. hst. exact I.
Qed.
Lemma high_init_hash st : top <= st -> st + 160 <= W64 -> high (init_hash st).
Proof.
  intros A B. unfold init_hash, hs_padding, hash_block_size.
  do 8 hst. apply uses_bind; [apply uses_bzero; wsm; lia|]. intros _. hst. exact I.
Qed.
Lemma high_init_enclave_hash id a b m d : top <= id -> id + 304 <= W64 ->
  high (init_enclave_hash id a b m d).
Proof.
  intros A B. unfold init_enclave_hash, enclave_measurement_block, extend_enclave_block.
  change ei_hash_block with 240. change ei_hash with 80. change hash_block_size with 64.
  change mb_opcode with 0. change mb_ptr1 with 8. change mb_ptr2 with 16.
  change mb_size1 with 40. change mb_size2 with 48.
  apply uses_bind; [apply uses_bzero; wsm; lia|intros _].
  apply uses_bind; [apply high_init_hash; wsm; lia|intros _].
  cbv zeta. do 5 hst. apply uses_bind; [apply high_extend; wsm; lia|intros _]. do 4 hst. exact I.
Qed.
Lemma high_init_info id a b m d : top <= id -> id + 304 <= W64 ->
  high (init_enclave_info id a b m d).
Proof.
  intros A B. unfold init_enclave_info.
  change ei_lock with 0. change ei_mailbox_count with 8. change ei_is_initialized with 16.
  change ei_is_debug with 24. change ei_thread_count with 32. change ei_dram_region_count with 40.
  change ei_ev_base with 48. change ei_ev_mask with 56. change ei_load_eptbr with 64.
  change ei_last_load_addr with 72.
  apply uses_bind; [cbn; split; [wsm; lia|auto]|intros _].
  do 9 hst. apply high_init_enclave_hash; auto.
Qed.
Lemma high_thread_hash id a b d e : top <= id -> id + 304 <= W64 ->
  high (extend_enclave_hash_with_thread id a b d e).
Proof.
  intros A B. unfold extend_enclave_hash_with_thread, enclave_measurement_block, extend_enclave_block.
  change ei_hash_block with 240. change ei_hash with 80.
  change mb_opcode with 0. change mb_ptr1 with 8. change mb_ptr2 with 16.
  change mb_ptr3 with 24. change mb_ptr4 with 32.
  cbv zeta. do 5 hst. apply uses_bind; [apply high_extend; wsm; lia|intros _]. do 4 hst. exact I.
Qed.
Lemma high_bcopy d s k : top <= d -> d + k <= W64 -> high (bcopy64 d s k).
Proof.
  intros A B. unfold bcopy64. apply high_for_n. rewrite N2Nat.id. intros j J.
  hld. rewrite wmul_small by lia. hst. exact I.
Qed.
Lemma high_assign id count ow ty fi : id < W64 -> region_of pb rb id <> 0 -> count <= 2 ^ 60 ->
  high (assign_metadata_pages G id count ow ty fi).
Proof.
  intros H R CB. unfold assign_metadata_pages.
  rewrite (stripe_page_for_spec G pb rb g), (geo_pages _ _ _ g).
  assert (PL : (id / 4096) mod 2 ^ pb < 2 ^ pb) by (apply N.mod_lt, pow2_nz).
  pose proof (geo_pb _ _ _ g) as GP. pose proof (p30 pb ltac:(lia)) as P30.
  change (2 ^ 60) with 1152921504606846976 in CB.
  rewrite wadd_small by (unfold W64; lia).
  set (sp := (id / 4096) mod 2 ^ pb) in *.
  destruct (N.ltb_spec (2 ^ pb) (sp + count)) as [L|L]; [exact I|].
  set (a := metadata_page_info_for_val G id).
  assert (HI : forall i, i < count \/ i = 0 -> top <= a /\ a + 8 * i + 8 <= W64).
  { intros i I. apply (map_entries_high G pb rb g id count i); auto. }
  destruct (HI 0 (or_intror eq_refl)) as [A0 A1].
  assert (AC : a + 8 * count <= W64).
  { destruct (N.eq_dec count 0) as [->|]; [lia|]. specialize (HI (count - 1)). lia. }
  unfold metadata_page_info_for, dram_region_page_for, ub_if.
  assert (K : high (busy <- for_exit (N.to_nat count) 0
              (fun i => v <- load64 (wadd a (wmul 8 i)) ;;
                        if v =? 0 then Ret None
                        else Ret (Some monitor_invalid_state)) ;;
    match (busy : option N) with
    | Some e => Ret e
    | None =>
        store64 a (metadata_page_info ow ty) ;;
        for_n (N.to_nat (count - 1)) 0
          (fun i => store64 (wadd a (wmul 8 i)) inner_metadata_page_type ;; Ret tt) ;;
        Ret monitor_ok
    end)).
  { apply uses_bind.
    - apply high_for_exit. intros j J. hld. destruct (_ =? 0); exact I.
    - intros [e|]; [exact I|]. hst. apply uses_bind; [|intros _; exact I].
      apply high_for_n. rewrite N2Nat.id. intros j J. rewrite wmul_small by lia. hst. exact I. }
  destruct (64 <=? page_for_shift G).
  - cbn [bind op1]. split; [exact I|]. intros _. exact K.
  - cbn [bind]. exact K.
Qed.

(** ** lock_metadata_region_for, lock_enclave *)
Lemma region_high id : region_of pb rb id <> 0 -> top <= id.
Proof.
  intros R. apply N.le_trans with (2 ^ (12 + pb)); [apply (geo_fits _ _ _ g)|].
  apply N.nlt_ge. intros L. apply R. apply region0_low; auto.
Qed.
Definition meta_addr (id : N) : Prop :=
  region_of pb rb id <> 0 /\ id < W64 /\ top <= id /\ id + 4096 <= W64.
Lemma safe_lock_meta c k id h o (Q : N * N -> (N -> bool) -> ost -> Prop) :
  (forall v, fst v <> monitor_ok ->
     forall h' o', (forall r, h' r = h r) -> tidy h' o' -> Q v h' o') ->
  (forall o', meta_addr id -> h (region_of pb rb id) = false ->
     o_owner o' (region_of pb rb id) = 2 -> tidy (upd h (region_of pb rb id) true) o' ->
     Q (monitor_ok, region_of pb rb id) (upd h (region_of pb rb id) true) o') ->
  tidy h o -> safe c k (lock_metadata_region_for G id) h o Q.
Proof.
  intros QF QT T. unfold lock_metadata_region_for.
  destruct (is_page_aligned id) eqn:PA; cbn [negb orb]; [|apply safe_ret, QF; auto; discriminate].
  destruct (is_dram_address G id) eqn:DA; cbn [negb]; [|apply safe_ret, QF; auto; discriminate].
  rewrite (region_for_spec G pb rb g). set (r := region_of pb rb id) in *.
  assert (R : r < n) by (rewrite (n_val G pb rb g); apply region_of_lt).
  sb safe_tas; auto; [apply safe_ret, QF; auto; discriminate|].
  intros o1 HF AG B Z0 T0 T1. specialize (T1 T).
  sb safe_owner_held; auto; [ups|]. change metadata_enclave_id with 2.
  destruct (N.eqb_spec (o_owner o1 r) 2) as [O|O]; cbn [negb].
  - apply safe_ret. apply QT; auto.
    assert (R0 : r <> 0) by congruence.
    unfold is_dram_address in DA. pose proof (geo_D _ _ _ g). apply page_aligned_iff in PA.
    split; [exact R0|]. split; [lia|]. split; [apply region_high; auto|]. unfold W64 in *. lia.
  - clr. apply safe_ret, QF; [discriminate| |tsub]. intros x. ups.
Qed.
Lemma safe_lock_enclave c k id h o (Q : N -> (N -> bool) -> ost -> Prop) :
  (forall v h' o', (v = monitor_ok -> meta_addr id) -> (forall r, h' r = h r) ->
     tidy h' o' -> Q v h' o') ->
  tidy h o -> safe c k (lock_enclave G id) h o Q.
Proof.
  intros QQ T. unfold lock_enclave.
  destruct (is_dram_address G id) eqn:DA; cbn [negb orb];
    [|apply safe_ret, QQ; auto; discriminate].
  destruct (is_page_aligned id) eqn:PA; cbn [negb]; [|apply safe_ret, QQ; auto; discriminate].
  apply safe_bind, safe_lock_meta; auto.
  - intros [v r] V h' o' HH T'. cbn [fst] in V. destruct (N.eqb_spec v monitor_ok); [contradiction|].
    cbn [negb]. apply safe_ret. apply QQ; auto. intros X; contradiction.
  - intros o' MA HF O T'. cbn [negb]. change (monitor_ok =? monitor_ok) with true. cbn [negb].
    apply safe_bind. unfold metadata_page_info_for, dram_region_page_for.
    apply safe_bind, safe_bind. sl safe_ub. apply safe_ret, safe_ret.
    apply safe_bind. apply (safe_load_any G pb rb g nw). intros w _.
    assert (R : region_of pb rb id < n) by (rewrite (n_val G pb rb g); apply region_of_lt).
    assert (CL : forall v, safe c k (clear_dram_region_lock G (region_of pb rb id) ;; Ret v)
      (upd h (region_of pb rb id) true) o' Q).
    { intros v. clr. apply safe_ret, QQ; [auto| |tsub]. intros x. ups. }
    apply safe_bind. destruct (negb _).
    + apply safe_ret, CL.
    + apply safe_bind. apply (safe_high G pb rb g).
      * destruct MA as (M1 & M2 & M3 & M4). change ei_lock with 0.
        unfold op1; cbn [uses high_op bind]. split; [wsm; lia|auto].
      * intros t. apply safe_ret, CL.
Qed.
Lemma safe_unlock c k id h o (Q : unit -> (N -> bool) -> ost -> Prop) : meta_addr id ->
  Q tt h o -> safe c k (unlock_enclave id) h o Q.
Proof.
  intros (M1 & M2 & M3 & M4) H. apply (safe_high G pb rb g); [|intros []; exact H].
  unfold unlock_enclave. change ei_lock with 0. cbn [bind op1 uses high_op]. split; [wsm; lia|auto].
Qed.

Lemma tidy_ext h h' o : (forall r, h' r = h r) -> tidy h o -> tidy h' o.
Proof. intros H. apply tidy_sub. rewrite H. auto. Qed.
Lemma ends_ext {A} k h h' o (v : A) : (forall r, r < n -> h' r = true -> h r = true) ->
  tidy h' o -> ends k h v h' o.
Proof. intros H T. split; [intros r R Y; left; auto|exact T]. Qed.

Lemma safe_create_enclave c h o id a b m d : tidy h o ->
  safe c (CCreateEnclave id a b m d) (create_enclave G id a b m d) h o
    (ends (CCreateEnclave id a b m d) h).
Proof.
  intros T. unfold create_enclave.
  destruct (negb (is_valid_range a b)); [apply safe_ret; fin|].
  destruct (wadd b 1 <? page_size); [apply safe_ret; fin|].
  apply safe_bind, safe_lock_meta; auto.
  - intros [v r] V h' o' HH T'. cbn [fst] in V. destruct (N.eqb_spec v monitor_ok); [contradiction|].
    cbn [negb]. apply safe_ret. apply ends_ext; auto. intros r' _. rewrite HH. auto.
  - intros o' (M1 & M2 & M3 & M4) HF O T'. change (monitor_ok =? monitor_ok) with true. cbn [negb].
    assert (R : region_of pb rb id < n) by (rewrite (n_val G pb rb g); apply region_of_lt).
    set (r := region_of pb rb id) in *.
    sb safe_owner_held; auto; [ups|]. change metadata_enclave_id with 2. rewrite O.
    change (2 =? 2) with true. cbn [negb].
    apply safe_bind. apply (safe_high G pb rb g).
    { apply high_assign; auto. apply (info_pages_small G). }
    intros v. destruct (v =? monitor_ok); cbn [negb]; [|clr; apply safe_ret; fin].
    apply safe_bind. apply (safe_high G pb rb g); [apply high_init_info; auto; lia|]. intros _.
    clr. apply safe_ret. fin.
Qed.

Lemma thread_pages_small : thread_metadata_pages <= 2 ^ 60.
Proof. vm_compute. discriminate. Qed.

Lemma safe_assign_thread c h o id t : tidy h o ->
  safe c (CAssignThread id t) (assign_thread G id t) h o (ends (CAssignThread id t) h).
Proof.
  intros T. unfold assign_thread. apply safe_bind, safe_lock_enclave; auto.
  intros v h1 o1 MA H1 T1. destruct (N.eqb_spec v monitor_ok) as [V|V]; cbn [negb].
  2:{ apply safe_ret. apply ends_ext; auto. intros r' _. rewrite H1. auto. }
  specialize (MA V). apply safe_bind, safe_lock_meta; auto.
  - intros [v' r] V' h' o' HH T'. cbn [fst] in V'. destruct (N.eqb_spec v' monitor_ok); [contradiction|].
    cbn [negb]. apply safe_bind, safe_unlock; auto. apply safe_ret. apply ends_ext; auto.
    intros r' _. rewrite HH, H1. auto.
  - intros o2 MT HF O T2. change (monitor_ok =? monitor_ok) with true. cbn [negb].
    assert (R : region_of pb rb t < n) by (rewrite (n_val G pb rb g); apply region_of_lt).
    set (r := region_of pb rb t) in *.
    assert (END : forall w : N, safe c (CAssignThread id t)
      (clear_dram_region_lock G r ;; unlock_enclave id ;; Ret w) (upd h1 r true) o2
      (ends (CAssignThread id t) h)).
    { intros w. clr. apply safe_bind, safe_unlock; auto. apply safe_ret.
      apply ends_ext; [|tsub]. intros x X Y. rewrite <- H1. upsin Y. }
    apply safe_bind. apply (safe_load_any G pb rb g nw). intros i _.
    destruct MA as (M1 & M2 & M3 & M4).
    apply safe_bind. apply (safe_high G pb rb g).
    { destruct (negb (i =? 0)); [|exact I]. apply high_assign; auto. apply thread_pages_small. }
    intros w. destruct (w =? monitor_ok); cbn [negb]; [|apply END].
    apply safe_bind. apply (safe_load_any G pb rb g nw). intros tc _.
    apply safe_bind. apply (safe_high G pb rb g).
    { change ei_thread_count with 32. apply high_st. wsm. lia. }
    intros _. apply END.
Qed.
Lemma safe_load_thread c h o id t a b d e : tidy h o ->
  safe c (CLoadThread id t a b d e) (load_thread G id t a b d e) h o (ends (CLoadThread id t a b d e) h).
Proof.
  intros T. unfold load_thread. apply safe_bind, safe_lock_enclave; auto.
  intros v h1 o1 MA H1 T1. destruct (N.eqb_spec v monitor_ok) as [V|V]; cbn [negb].
  2:{ apply safe_ret. apply ends_ext; auto. intros r' _. rewrite H1. auto. }
  specialize (MA V). apply safe_bind, safe_lock_meta; auto.
  - intros [v' r] V' h' o' HH T'. cbn [fst] in V'. destruct (N.eqb_spec v' monitor_ok); [contradiction|].
    cbn [negb]. apply safe_bind, safe_unlock; auto. apply safe_ret. apply ends_ext; auto.
    intros r' _. rewrite HH, H1. auto.
  - intros o2 MT HF O T2. change (monitor_ok =? monitor_ok) with true. cbn [negb].
    assert (R : region_of pb rb t < n) by (rewrite (n_val G pb rb g); apply region_of_lt).
    set (r := region_of pb rb t) in *.
    assert (END : forall w : N, safe c (CLoadThread id t a b d e)
      (clear_dram_region_lock G r ;; unlock_enclave id ;; Ret w) (upd h1 r true) o2
      (ends (CLoadThread id t a b d e) h)).
    { intros w. clr. apply safe_bind, safe_unlock; auto. apply safe_ret.
      apply ends_ext; [|tsub]. intros x X Y. rewrite <- H1. upsin Y. }
    apply safe_bind. apply (safe_load_any G pb rb g nw). intros i _.
    destruct MA as (M1 & M2 & M3 & M4). destruct MT as (N1 & N2 & N3 & N4).
    apply safe_bind. apply (safe_high G pb rb g).
    { destruct (negb (i =? 0)); [exact I|]. hld. destruct (_ =? 0); [exact I|].
      apply high_assign; auto. apply thread_pages_small. }
    intros w. destruct (w =? monitor_ok); cbn [negb]; [|apply END].
    apply safe_bind. apply (safe_load_any G pb rb g nw). intros tc _.
    apply safe_bind. apply (safe_high G pb rb g).
    { change ei_thread_count with 32. apply high_st. wsm. lia. }
    intros _.
    change ti_lock with 0. change ti_entry_pc with 8. change ti_entry_stack with 16.
    change ti_fault_pc with 24. change ti_fault_stack with 32. change ti_eptbr with 40.
    apply safe_bind. apply (safe_high G pb rb g); [cbn; split; [wsm; lia|auto]|intros _].
    do 4 (apply safe_bind; apply (safe_high G pb rb g); [apply high_st; wsm; lia|intros _]).
    apply safe_bind. apply (safe_load_any G pb rb g nw). intros ep _.
    apply safe_bind. apply (safe_high G pb rb g); [apply high_st; wsm; lia|intros _].
    apply safe_bind. apply (safe_high G pb rb g); [apply high_thread_hash; lia|intros _].
    apply END.
Qed.

Lemma safe_copy_debug c h o e ea oa rd : ea < W64 -> oa < W64 ->
  (e = 0 -> rd = false -> top <= ea) -> tidy h o ->
  safe c (CCopyDebugPage e ea oa rd) (copy_debug_enclave_page G e ea oa rd) h o
    (ends (CCopyDebugPage e ea oa rd) h).
Proof.
  intros HE HO SAFE T. unfold copy_debug_enclave_page.
  destruct (is_page_aligned ea) eqn:AE, (is_page_aligned oa) eqn:AO; cbn [negb orb];
    try (apply safe_ret; fin).
  destruct (is_dram_address G ea) eqn:DE, (is_dram_address G oa) eqn:DO; cbn [negb orb];
    try (apply safe_ret; fin).
  apply page_aligned_iff in AE, AO.
  set (q := clamped_dram_region_for G e). set (x := dram_region_for G ea).
  set (r := dram_region_for G oa).
  assert (Q : q < n) by apply (clamped_lt G pb rb g).
  assert (R : r < n) by apply (region_lt G pb rb g).
  sb safe_tas; auto; [apply safe_ret; fin|]. intros o1 HF AG B Z0 T0 T1. specialize (T1 T).
  sb safe_tas; auto; [clr; apply safe_ret; fin|].
  intros o2 HF2 AG2 B2 Z2 T2 T3. specialize (T3 T1).
  assert (RQ : r <> q) by (intros X; rewrite X, upd_same in HF2; discriminate).
  unfold read_dram_region_owner.
  assert (END : forall w : N, safe c (CCopyDebugPage e ea oa rd)
      (clear_dram_region_lock G r ;; clear_dram_region_lock G q ;; Ret w) (upd (upd h q true) r true) o2
      (ends (CCopyDebugPage e ea oa rd) h)).
  { intros w. clr. clr. apply safe_ret. fin. }
  sb safe_owner_any; auto. intros v1 V1 V10. sb safe_owner_any; auto. intros v2 V2 V20.
  apply safe_bind. unfold read_enclave_region_bitmap_bit.
  assert (RB : forall bm (F : bool -> prog N),
    (forall b, safe c (CCopyDebugPage e ea oa rd) (F b) (upd (upd h q true) r true) o2
       (ends (CCopyDebugPage e ea oa rd) h)) ->
    safe c (CCopyDebugPage e ea oa rd) (read_bitmap_bit bm x) (upd (upd h q true) r true) o2
      (fun b h' o' => safe c (CCopyDebugPage e ea oa rd) (F b) h' o'
         (ends (CCopyDebugPage e ea oa rd) h))).
  { intros bm F HFF. unfold read_bitmap_bit. apply safe_bind. apply (safe_load_any G pb rb g nw).
    intros w _. apply safe_ret. apply HFF. }
  assert (GOAL : forall b, safe c (CCopyDebugPage e ea oa rd)
    (dbg <- load64 (wadd e ei_is_debug);;
      let result := monitor_ok in
      let result := if negb (v1 =? e) then monitor_invalid_value else result in
      let result := if negb (v2 =? null_enclave_id) then monitor_invalid_value else result in
      let result := if negb b then monitor_invalid_value else result in
      let result := if dbg =? 0 then monitor_invalid_state else result in
      (if result =? monitor_ok
       then if rd then bcopy64 oa ea page_size else bcopy64 ea oa page_size
       else Ret tt);; clear_dram_region_lock G r;; clear_dram_region_lock G q;; Ret result)
     (upd (upd h q true) r true) o2 (ends (CCopyDebugPage e ea oa rd) h)).
  { intros b. apply safe_bind. apply (safe_load_any G pb rb g nw). intros dbg _. cbv zeta.
    match goal with |- context [if ?res =? monitor_ok then _ else Ret tt] => set (v := res) end.
    apply safe_bind.
    assert (HD : g_dram_size G < W64) by apply (geo_D _ _ _ g).
    unfold is_dram_address in DE, DO.
    assert (BE : ea + 4096 <= W64) by (unfold W64 in *; lia).
    assert (BO : oa + 4096 <= W64) by (unfold W64 in *; lia).
    apply (safe_high G pb rb g); [|intros _; apply END].
    destruct (N.eqb_spec v monitor_ok) as [VE|VE]; [|exact I].
    assert (E1 : v1 = e).
    { destruct (N.eqb_spec v1 e) as [X|X]; [exact X|]. exfalso. unfold v in VE. cbn [negb] in VE.
      destruct (dbg =? 0), b, (negb (v2 =? null_enclave_id)); discriminate VE. }
    assert (E0 : e = 0).
    { destruct (N.eq_dec e 0) as [X|X]; [exact X|]. exfalso.
      assert (Z : q = 0).
      { unfold q, clamped_dram_region_for. rewrite (small_region G pb rb g) by lia.
        destruct (is_dram_address G e); reflexivity. }
      specialize (V10 Z). congruence. }
    assert (QZ : q = 0).
    { unfold q, clamped_dram_region_for. rewrite E0, (zero_dram G pb rb g).
      apply (region_for_0 G pb rb g). }
    change page_size with 4096. destruct rd; apply high_bcopy; auto.
    apply region_high. rewrite <- (region_for_spec G pb rb g). fold r. congruence. }
  destruct (e =? null_enclave_id); apply RB; exact GOAL.
Qed.

(** ** Every call *)
Lemma call_safe c k h o : c < cores -> call_args_ok k -> safe_call G k -> tidy h o ->
  safe c k (call_prog G k) h o (ends k h).
Proof.
  intros C A S T. destruct k; cbn [call_prog call_args_ok safe_call] in *.
  - apply (safe_block G pb rb g); auto.
  - apply (safe_check G pb rb g); auto.
  - apply (safe_state G pb rb g); auto.
  - apply (safe_owner_call G pb rb g); auto.
  - apply (safe_set_dma G pb rb g); tauto.
  - apply (safe_create_metadata G pb rb g); auto.
  - apply (safe_assign G pb rb g); auto.
  - apply (safe_free G pb rb g); auto.
  - apply (safe_flush G pb rb g); auto.
  - apply safe_create_enclave; auto.
  - unfold load_page_table.
    destruct (negb (is_dram_address G phys_addr)); [apply safe_ret; fin|].
    destruct (negb (is_page_aligned phys_addr)); [apply safe_ret; fin|].
    destruct (_ <=? level); [apply safe_ret; fin|]. apply (safe_guard G pb rb g); auto.
  - unfold load_page.
    destruct (negb (is_dram_address G phys_addr) || _); [apply safe_ret; fin|].
    destruct (negb (is_page_aligned phys_addr) || _); [apply safe_ret; fin|].
    apply (safe_guard G pb rb g); auto.
  - apply safe_load_thread; auto.
  - apply safe_assign_thread; auto.
  - apply (safe_guard G pb rb g); auto.
  - apply (safe_guard G pb rb g); auto.
  - apply (safe_guard G pb rb g); auto.
  - apply safe_copy_debug; try tauto. intros -> ->. exact S.
  - contradiction.
  - apply (safe_create_thread G pb rb g); auto.
  - apply (safe_delete_thread G pb rb g); auto.
  - apply (safe_exit G pb rb g); auto.
Qed.
End Calls2.
