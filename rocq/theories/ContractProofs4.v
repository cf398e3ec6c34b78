(** * assign_thread and load_thread over every machine state. *)
From Coq Require Import NArith ZArith Lia Bool List.
From Coq Require Import ZifyBool ZifyNat ZifyN.
From Verif Require Import Word Machine ModelBare ModelHash ModelInl ModelRegions
  ModelMetadata ModelEnclave ModelBoot ModelApi Lib BareProofs SpecGeometry
  GeomProofs SpecMonitor SpecMetadata ViewProofs SeqProofs SeqCalls SeqCalls2 SeqCalls3
  SeqCalls4 SeqCalls5 SeqCalls6 HistoryProofs MetaProofs P_Metadata SpecContract ContractProofs.
Import ListNotations.
Open Scope N_scope.
Ltac Zify.zify_post_hook ::= Z.div_mod_to_equations.

Section Threads.
Variables (G : globals) (pb rb : N).
Hypothesis g : geom G pb rb.
Local Notation n := (g_dram_region_count G).

Lemma map_first id : id < W64 -> first_stripe pb rb id ->
  metadata_page_info_for_val G id = map_entry pb rb id.
Proof.
  intros H F. rewrite (map_entry_val G pb rb g) by auto.
  rewrite map_skew_first by exact F. unfold map_entry, stripe_start, page_of. lia.
Qed.
Lemma map_at id : id < W64 -> metadata_page_info_for_val G id = entry_at pb rb id.
Proof.
  intros H. rewrite (map_entry_val G pb rb g) by auto.
  unfold entry_at, map_entry, stripe_start, page_of, map_skew. change (2 ^ 64) with W64. lia.
Qed.
Definition mcode (o : ost) (a : N) : N :=
  if negb (in_dram_page G a) then 1
  else if o_lock o (region_of pb rb a) =? 1 then 3
  else if o_owner o (region_of pb rb a) =? 2 then 0 else 2.
Definition clean (o : ost) : Prop := forall r, r < n -> o_lock o r = 0 \/ o_lock o r = 1.

Lemma meta_any c a o : clean o ->
  wp G c (lock_metadata_region_for G a) o (fun vr o' =>
    fst vr = mcode o a /\ (fst vr <> 0 -> oeq o o') /\
    (fst vr = 0 -> snd vr = region_of pb rb a /\ o' = with_lock o (region_of pb rb a) 1 /\
       o_lock o (region_of pb rb a) = 0 /\ o_owner o (region_of pb rb a) = 2 /\
       in_dram_page G a = true)).
Proof.
  intros CL. unfold lock_metadata_region_for, mcode.
  assert (D : negb (is_page_aligned a) || negb (is_dram_address G a) = negb (in_dram_page G a)).
  { rewrite (dram_page G). destruct (is_page_aligned a), (is_dram_address G a); reflexivity. }
  rewrite D. destruct (in_dram_page G a) eqn:IP; cbn [negb].
  2:{ apply wp_ret. split; [reflexivity|]. split; [intros _; apply oeq_refl|discriminate]. }
  rewrite (region_for_spec G pb rb g). set (r := region_of pb rb a).
  assert (R : r < n) by apply (region_lt' G pb rb g).
  apply wp_bind. apply (wp_tas G pb rb g); auto.
  destruct (CL r R) as [L|L]; rewrite L; cbn [N.eqb Pos.eqb negb].
  2:{ apply wp_ret. split; [reflexivity|]. split; [|discriminate]. intros _. oeqs. }
  bnd (wp_owner G pb rb g). change metadata_enclave_id with 2.
  change (o_owner (with_lock o r 1) r) with (o_owner o r).
  destruct (N.eqb_spec (o_owner o r) 2) as [OW|OW]; cbn [negb].
  - apply wp_ret. split; [reflexivity|]. split; [intros X; exfalso; apply X; reflexivity|]. auto.
  - bnd (wp_clr G pb rb g). apply wp_ret. split; [reflexivity|]. split; [|discriminate].
    intros _. oeqs.
Qed.

Section At.
Variables (s : state) (c : N).
Hypothesis CL : clean_locks G s.
Hypothesis R02 : owner_of G s 0 <> 2.
Local Notation o := (view_of G s).
Lemma mcode_meta a : mcode o a = meta_code G pb rb s a.
Proof. reflexivity. Qed.

Variable id : N.
Hypothesis H : id < W64.

(** What a call leaves behind: nothing, or the lock word set from another value. *)
Definition kept (o' : ost) : Prop := oeq (with_rest o (s_mem (thread_state G pb rb s id))) o'.
Lemma kept_none o' : meta_code G pb rb s id <> 0 \/ word s (entry_at pb rb id) <> enclave_entry id \/
  word s id = 0 -> oeq o o' -> kept o'.
Proof.
  intros C E. unfold kept, thread_state.
  replace ((meta_code G pb rb s id =? 0) && (word s (entry_at pb rb id) =? enclave_entry id)
     && negb (word s id =? 0)) with false by lia.
  destruct E. constructor; cbn [with_rest view_of o_lock o_owner o_prev o_pinned o_blocked
        o_clock o_encl o_flushed o_bit o_rest o_regs o_words o_dmar_base o_dmar_mask
        o_dma_start o_dma_end] in *; auto.
Qed.
Definition locked_id : ost := with_rest o (st 8 (s_mem s) id 1).

Lemma page_facts : in_dram_page G id = true -> owner_of G s (region_of pb rb id) = 2 ->
  region_of pb rb id <> 0 /\ id mod 4096 = 0 /\ g_monitor_top G <= id /\ id + 4096 <= W64.
Proof.
  intros IP OW. unfold in_dram_page in IP.
  assert (R0 : region_of pb rb id <> 0) by (intros E; rewrite E in OW; contradiction).
  assert (AL : id mod 4096 = 0) by lia. pose proof (geo_D _ _ _ g).
  split; [exact R0|]. split; [exact AL|]. split; [|unfold W64 in *; lia].
  apply N.le_trans with (2 ^ (12 + pb)); [apply (geo_fits _ _ _ g)|].
  apply N.nlt_ge. intros L. apply R0. apply region0_low; auto.
Qed.

Lemma lock_enclave_any :
  wp G c (lock_enclave G id) o (fun v o' =>
    v = enclave_code G pb rb s id /\ (v <> 0 -> kept o') /\
    (v = 0 -> oeq locked_id o' /\ in_dram_page G id = true /\
       owner_of G s (region_of pb rb id) = 2 /\ word s id = 0 /\
       word s (entry_at pb rb id) = enclave_entry id)).
Proof.
  unfold lock_enclave, enclave_code.
  assert (D : negb (is_dram_address G id) || negb (is_page_aligned id) = negb (in_dram_page G id)).
  { rewrite (dram_page G). destruct (is_page_aligned id), (is_dram_address G id); reflexivity. }
  rewrite D. destruct (in_dram_page G id) eqn:IP; cbn [negb].
  2:{ unfold meta_code. rewrite IP. cbn [negb N.eqb].
      apply wp_ret. split; [reflexivity|]. split; [|discriminate]. intros _.
      apply kept_none; [left; unfold meta_code; rewrite IP; discriminate|apply oeq_refl]. }
  apply wp_bind. eapply wp_weaken; [|apply (meta_any c id o CL)].
  cbv beta. intros [v r] o1 [E1 [E2 E3]]. cbn [fst snd] in *. rewrite mcode_meta in E1. rewrite <- E1.
  change monitor_ok with 0.
  destruct (N.eqb_spec v 0) as [V0|V0]; cbn [negb].
  2:{ apply wp_ret. split; [reflexivity|]. split; [|intros; contradiction]. intros _.
      apply kept_none; [left; rewrite <- E1; exact V0|auto]. }
  destruct (E3 V0) as [-> [-> [LR [OW _]]]]. clear E2 E3.
  change (owner_of G s (region_of pb rb id) = 2) in OW.
  destruct (page_facts IP OW) as [R0 [AL [TOP B4]]].
  set (q := region_of pb rb id) in *.
  assert (R : q < n) by apply (region_lt' G pb rb g).
  apply wp_bind. apply (wp_map_entry G). rewrite (map_at id H).
  assert (A : g_monitor_top G <= entry_at pb rb id /\ entry_at pb rb id + 8 * 0 + 8 <= W64).
  { rewrite <- (map_at id H). apply (map_entries_high G pb rb g id 0 0); auto.
    pose proof (N.mod_lt (id / 4096) (2 ^ pb) (pow2_nz _)). lia. }
  apply wp_bind. apply wp_load_rest.
  { intros b X. apply (rest_high G pb rb g). lia. }
  change (ld 8 (o_rest (with_lock o q 1)) (entry_at pb rb id)) with (word s (entry_at pb rb id)).
  rewrite (info_val id AL).
  destruct (N.eqb_spec (word s (entry_at pb rb id)) (enclave_entry id)) as [EE|EE]; cbn [negb].
  2:{ apply wp_bind, wp_ret. bnd (wp_clr G pb rb g). apply wp_ret. split; [reflexivity|].
      split; [|discriminate]. intros _. apply kept_none; [auto|oeqs]. }
  change ei_lock with 0. rewrite wadd_small by (unfold W64 in *; lia). rewrite N.add_0_r.
  apply wp_bind, wp_bind. apply (wp_tas_rest G pb rb g).
  { intros b X. apply (rest_high G pb rb g). lia. }
  change (ld 8 (o_rest (with_lock o q 1)) id) with (word s id).
  change (o_rest (with_lock o q 1)) with (s_mem s).
  apply wp_ret. bnd (wp_clr G pb rb g). apply wp_ret.
  destruct (N.eqb_spec (word s id) 0) as [W0|W0]; cbn [negb N.eqb].
  - split; [reflexivity|]. split; [intros X; exfalso; apply X; reflexivity|]. intros _.
    split; [|auto]. unfold locked_id. oeqs.
  - split; [reflexivity|]. split; [|discriminate]. intros _. unfold kept, thread_state.
    rewrite <- E1, V0, EE, !N.eqb_refl.
    destruct (N.eqb_spec (word s id) 0); [contradiction|]. cbn [negb andb put set_mem s_mem]. oeqs.
Qed.

(** The enclave lock released again. *)
Lemma unlock_any (v k : N) o2 : v = k -> g_monitor_top G <= id -> id + 8 <= W64 ->
  word s id = 0 -> oeq locked_id o2 ->
  wp G c (unlock_enclave id ;; Ret v) o2 (fun w o' => w = k /\ kept o').
Proof.
  intros VK TOP H8 Z E2. apply wp_bind. unfold unlock_enclave.
  change ei_lock with 0. rewrite wadd_small by lia. rewrite N.add_0_r.
  apply wp_bind. apply (wp_clr_rest G pb rb g).
  { intros b X. apply (rest_high G pb rb g). lia. }
  apply wp_ret. apply wp_ret. split; [auto|]. apply kept_none; [auto|]. unfold locked_id in E2.
  destruct E2. constructor; cbn [with_rest o_lock o_owner o_prev o_pinned o_blocked
        o_clock o_encl o_flushed o_bit o_rest o_regs o_words o_dmar_base o_dmar_mask
        o_dma_start o_dma_end] in *; auto.
  intros b. change (o_rest o) with (s_mem s). rewrite <- (relock_bytes (s_mem s) id Z b).
  destruct (N.lt_ge_cases b id) as [L|L].
  { rewrite !(byte_st_out 8 _ id 0) by (left; lia). auto. }
  destruct (N.lt_ge_cases b (id + 8)) as [L2|L2].
  { rewrite !byte_st_in by (auto; change (N.of_nat 8) with 8; lia). reflexivity. }
  rewrite !(byte_st_out 8 _ id 0) by (right; change (N.of_nat 8) with 8; lia). auto.
Qed.

(** The reservation of the enclave's own page always fails. *)
Lemma own_busy ty o1 q : ty < 16 -> region_of pb rb id <> 0 -> word s id = 0 ->
  word s (entry_at pb rb id) = enclave_entry id -> oeq locked_id o1 ->
  wp G c (reserve_metadata_pages G id thread_metadata_pages id ty) (with_lock o1 q 1)
    (fun v o' => v = 2 /\ o' = with_lock o1 q 1).
Proof.
  intros TY R0 Z EE E.
  change thread_metadata_pages with 1. unfold reserve_metadata_pages.
  eapply wp_weaken; [|apply (assign_pages_seq G pb rb g c id 1 id ty); auto;
    [discriminate|apply info_lt; auto]].
  cbv beta. pose proof (N.mod_lt (id / 4096) (2 ^ pb) (pow2_nz _)) as PL.
  intros v o' [[-> [X ->]]|[_ [[-> [_ ->]]|[-> [F _]]]]]; [exfalso; lia|auto|].
  exfalso. assert (NZ : word s (entry_at pb rb id) <> 0) by (rewrite EE; unfold enclave_entry; lia).
  apply NZ. specialize (F 0 ltac:(lia)).
  cbn [o_rest with_lock] in F. rewrite N.mul_0_r, N.add_0_r, (map_at id H) in F.
  unfold word. set (a := entry_at pb rb id) in *.
  apply ld8_zero. intros b B.
  assert (F' : byte (o_rest o1) b = 0).
  { replace b with (a + (b - a)) by lia.
    rewrite (byte_of_ld 8) by (change (N.of_nat 8) with 8; lia).
    rewrite F, N.div_0_l by apply pow2_nz. reflexivity. }
  rewrite (oe_rest _ _ E) in F'. unfold locked_id in F'. cbn [o_rest with_rest] in F'.
  destruct (N.lt_ge_cases b id) as [L|L].
  { rewrite byte_st_out in F' by (left; lia). auto. }
  destruct (N.lt_ge_cases b (id + 8)) as [L2|L2].
  2:{ rewrite byte_st_out in F' by (right; change (N.of_nat 8) with 8; lia). auto. }
  assert (X : byte (s_mem s) b = byte (fun _ => 0) b); [|exact X].
  replace b with (id + (b - id)) by lia.
  apply (ld_byte_inj 8 (s_mem s) (fun _ => 0) id); [|change (N.of_nat 8) with 8; lia].
  unfold word in Z. rewrite Z. symmetry. apply ld8_zero. reflexivity.
Qed.

(** Both thread calls: the enclave, the thread's page, then [chk], which can only
    say invalid_state. *)
Lemma thread_any t (chk : prog N) (yes : N -> prog N) :
  (forall o1 q, region_of pb rb id <> 0 -> word s id = 0 ->
     word s (entry_at pb rb id) = enclave_entry id -> oeq locked_id o1 ->
     wp G c chk (with_lock o1 q 1) (fun v o' => v = 2 /\ o' = with_lock o1 q 1)) ->
  wp G c (result <- lock_enclave G id ;;
    if negb (result =? monitor_ok) then Ret result
    else
    lr <- lock_metadata_region_for G t ;;
    let '(result, r) := (lr : N * N) in
    if negb (result =? monitor_ok) then unlock_enclave id ;; Ret result
    else
    result <- chk ;;
    if negb (result =? monitor_ok) then
      clear_dram_region_lock G r ;; unlock_enclave id ;; Ret result
    else yes r) o
   (fun v o' => v = thread_code G pb rb s id t /\ kept o').
Proof.
  intros CK. unfold thread_code. change monitor_ok with 0.
  apply wp_bind. eapply wp_weaken; [|apply lock_enclave_any].
  cbv beta. intros v o1 [V1 [NZ1 Z1]]. rewrite <- V1.
  destruct (N.eqb_spec v 0) as [V0|V0]; cbn [negb].
  2:{ apply wp_ret. split; [reflexivity|auto]. }
  destruct (Z1 V0) as [E [IP [OW [W0 EE]]]]. clear NZ1 Z1.
  destruct (page_facts IP OW) as [R0 [AL [TOP B4]]].
  assert (CL1 : clean o1).
  { intros r R. rewrite (oe_lock _ _ E r). exact (CL r R). }
  assert (MC : mcode o1 t = meta_code G pb rb s t).
  { unfold mcode. rewrite (oe_lock _ _ E), (oe_owner _ _ E). reflexivity. }
  apply wp_bind. eapply wp_weaken; [|apply (meta_any c t o1 CL1)].
  cbv beta. intros [w r] o2 [E1 [E2 E3]]. cbn [fst snd] in *. rewrite MC in E1. rewrite <- E1.
  destruct (N.eqb_spec w 0) as [W0'|W0']; cbn [negb].
  2:{ apply unlock_any; auto; [lia|]. exact (oeq_trans _ _ _ E (E2 W0')). }
  destruct (E3 W0') as [-> [-> [LR _]]]. set (q := region_of pb rb t) in *.
  assert (Q : q < n) by apply (region_lt' G pb rb g).
  apply wp_bind. eapply wp_weaken; [|apply (CK o1 q); auto].
  cbv beta. intros u o2 [-> ->]. cbn [N.eqb negb].
  bnd (wp_clr G pb rb g). apply unlock_any; auto; [lia|].
  refine (oeq_trans _ _ _ E _). oeqs.
Qed.
End At.

Lemma assign_thread_any s c id t : clean_locks G s -> owner_of G s 0 <> 2 -> id < W64 ->
  wp G c (assign_thread G id t) (view_of G s)
    (fun v o' => v = thread_code G pb rb s id t /\ kept s id o').
Proof.
  intros CL R02 H.
  refine (thread_any s c CL R02 id H t
    (init <- load64 (wadd id ei_is_initialized) ;;
     if negb (init =? 0)
     then reserve_metadata_pages G id thread_metadata_pages id thread_metadata_page_type
     else Ret monitor_invalid_state) _ _).
  intros o1 q R0 W0 EE E. apply wp_bind, wp_load_any. intros ini _.
  destruct (negb (ini =? 0)).
  - apply (own_busy s c R02 id H); auto. reflexivity.
  - apply wp_ret. auto.
Qed.
Lemma load_thread_any s c id t p1 p2 p3 p4 : clean_locks G s -> owner_of G s 0 <> 2 -> id < W64 ->
  wp G c (load_thread G id t p1 p2 p3 p4) (view_of G s)
    (fun v o' => v = thread_code G pb rb s id t /\ kept s id o').
Proof.
  intros CL R02 H.
  refine (thread_any s c CL R02 id H t
    (init <- load64 (wadd id ei_is_initialized) ;;
     if negb (init =? 0) then Ret monitor_invalid_state
     else
       eptbr <- load64 (wadd id ei_load_eptbr) ;;
       if eptbr =? 0 then Ret monitor_invalid_state
       else reserve_metadata_pages G id thread_metadata_pages id thread_metadata_page_type) _ _).
  intros o1 q R0 W0 EE E. apply wp_bind, wp_load_any. intros ini _.
  destruct (negb (ini =? 0)); [apply wp_ret; auto|].
  apply wp_bind, wp_load_any. intros ep _. destruct (ep =? 0); [apply wp_ret; auto|].
  apply (own_busy s c R02 id H); auto. reflexivity.
Qed.
End Threads.
