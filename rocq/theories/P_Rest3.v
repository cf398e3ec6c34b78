(** * Properties C23, C25, C27, C29, C52, C53, C55, C56, C66, C85, C86 and C94 with accept_thread among the calls. *)
From Coq Require Import NArith ZArith Lia Bool List.
From Coq Require Import ZifyBool ZifyNat ZifyN.
From Verif Require Import Word Machine ModelInl ModelApi Lib SpecGeometry GeomProofs SpecMonitor
  SpecHistory ViewProofs SeqProofs SeqCalls HistoryProofs P_Boot P_Regions SpecConcurrent
  P_Conc SpecLinear LinGlobal P_Linear SpecSystem SpecAtomic P_Refuse P_Rest SpecAccess P_Metadata
  SpecRest SpecTlb SpecShootdown P_Shootdown.
Import ListNotations.
Open Scope N_scope.
Ltac Zify.zify_post_hook ::= Z.div_mod_to_equations.

(** ** C52 *)
(** After a successful accept_thread (C49), with all calls returned and all region locks
    free, a region may have an owner that is no legal value while the OS bitmap says that it
    belongs to the OS. *)
Definition ex_seven : conf * list obs := forge 6 7 0 (initial ex_s0, []).
Theorem C52_accept_thread_refuted : exists P top pb rb G s0 l x r,
  started P top pb rb G s0 /\ observed G pb rb (fun _ => True) s0 l x /\ quiet G x /\
  (forall q, q < g_dram_region_count G -> lock_of G (cf_state x) q = 0) /\
  r < g_dram_region_count G /\ 3 < owner_of G (cf_state x) r /\ os_bit G (cf_state x) r = true.
Proof.
  exists ex_platform, 0, 6, 4, ex_G, ex_s0, (snd ex_seven), (fst ex_seven), 6.
  split; [exact ex_started|]. split.
  { apply forge_observed; [vm_compute; reflexivity| | |vm_compute; reflexivity|reflexivity|apply ob_none];
      split; vm_compute; first [reflexivity|discriminate]. }
  split; [apply two_idle; vm_compute; reflexivity|]. split.
  { intros q Hq. change (g_dram_region_count ex_G) with 16 in Hq.
    assert (D : In q [0;1;2;3;4;5;6;7;8;9;10;11;12;13;14;15]) by (cbn; lia).
    cbn [In] in D. repeat (destruct D as [<-|D]; [vm_compute; reflexivity|]). destruct D. }
  repeat split; vm_compute; reflexivity.
Qed.
(** accept_thread may also take region 0 from the OS. *)
Definition ex_zero : conf * list obs := forge 0 1 0 (initial ex_s0, []).
Theorem C52_region_zero_refuted : exists P top pb rb G s0 l x,
  started P top pb rb G s0 /\ observed G pb rb (fun _ => True) s0 l x /\ quiet G x /\
  owner_of G (cf_state x) 0 <> 0.
Proof.
  exists ex_platform, 0, 6, 4, ex_G, ex_s0, (snd ex_zero), (fst ex_zero).
  split; [exact ex_started|]. split.
  { apply forge_observed; [vm_compute; reflexivity| | |vm_compute; reflexivity|reflexivity|apply ob_none];
      split; vm_compute; first [reflexivity|discriminate]. }
  split; [apply two_idle; vm_compute; reflexivity|]. vm_compute. discriminate.
Qed.

(** ** C53 *)
(** All calls have returned, none of them was create_thread or delete_thread, and the lock
    word of a region is set: the last field of a thread record at the entry of region 6 is the
    lock of region 7.  From then on every call about that region is refused. *)
Definition ex_locked : conf * list obs :=
  oops ex_G 50 0 (obegin ex_G 0 (CAcceptThread (g_dram_region ex_G + 40 * 6) args_at)
    (ostore8 (args_at + tii_eptbr) 1 (initial ex_s0, []))).
Theorem C53_accept_thread_refuted : exists P top pb rb G s0 x t a r,
  started P top pb rb G s0 /\
  observed G pb rb (fun _ => True) s0
    [Start 0 (CAcceptThread t a); Finish 0 (CAcceptThread t a) ok] x /\ quiet G x /\
  0 < r < g_dram_region_count G /\ lock_of G (cf_state x) r <> 0 /\
  forall c k, c < g_core_count G ->
    In k [CCheckOwnership r; CRegionState r; CCreateMetadataRegion r; CAssign r 0; CFree r; CBlock r] ->
    snd (do_call G c k (cf_state x)) = Some concurrent_call.
Proof.
  exists ex_platform, 0, 6, 4, ex_G, ex_s0, (fst ex_locked), (g_dram_region ex_G + 40 * 6), args_at, 7.
  split; [exact ex_started|].
  match goal with |- observed _ _ _ _ _ ?l _ /\ _ =>
    assert (E : snd ex_locked = l) by (vm_compute; reflexivity); rewrite <- E end.
  split.
  { unfold ex_locked. apply oops_observed; [reflexivity|].
    apply obegin_observed; [reflexivity|vm_compute; reflexivity|split; reflexivity|exact Logic.I|].
    apply ostore8_observed; [vm_compute; reflexivity|reflexivity| |apply ob_none].
    split; vm_compute; first [reflexivity|discriminate]. }
  split; [apply two_idle; vm_compute; reflexivity|]. split; [split; reflexivity|].
  split; [vm_compute; discriminate|].
  intros c k C IN. change (g_core_count ex_G) with 2 in C.
  assert (D : c = 0 \/ c = 1) by lia. cbn [In] in IN.
  destruct D as [-> | ->]; repeat (destruct IN as [<-|IN]; [vm_compute; reflexivity|]); destruct IN.
Qed.

(** ** C55 *)
(** Regions 4 and 5 are blocked; a successful accept_thread overwrites the block time of region 5;
    then a free of region 5 succeeds although no core has flushed since it was blocked. *)
Definition ex_both : conf * list obs := ocall 50 0 (CBlock 5) (ocall 50 0 (CBlock 4) (initial ex_s0, [])).
Definition ex_rushed : conf * list obs := ocall 50 0 (CFree 5) (forge 5 1 0 ex_both).
Definition ex_rush : list obs :=
  [Start 0 (CAcceptThread (g_dram_region ex_G + 40 * 5) args_at);
   Finish 0 (CAcceptThread (g_dram_region ex_G + 40 * 5) args_at) ok;
   Start 0 (CFree 5); Finish 0 (CFree 5) ok].
Theorem C55_accept_thread_refuted : exists P top pb rb G s0 l1 l2 x y r,
  started P top pb rb G s0 /\ observed G pb rb (fun _ => True) s0 l1 x /\ quiet G x /\
  observed G pb rb (fun _ => True) s0 (l1 ++ l2) y /\
  owner_of G (cf_state x) r = 1 /\ (forall c, ~ In (Finish c (CBlock r) ok) l2) /\
  (exists c, In (Finish c (CFree r) ok) l2) /\ owner_of G (cf_state y) r = 3 /\
  forall c, c < g_core_count G -> flushed_of G (cf_state y) c < blocked_at_of G (cf_state x) r.
Proof.
  exists ex_platform, 0, 6, 4, ex_G, ex_s0, (snd ex_both), ex_rush, (fst ex_both), (fst ex_rushed), 5.
  split; [exact ex_started|]. split; [unfold ex_both, ocall; obs_tac|].
  split; [apply two_idle; vm_compute; reflexivity|].
  assert (E : snd ex_rushed = snd ex_both ++ ex_rush) by (vm_compute; reflexivity). rewrite <- E.
  split.
  { unfold ex_rushed, ocall. obs_tac.
    apply forge_observed; [vm_compute; reflexivity| | |vm_compute; reflexivity|reflexivity|unfold ex_both, ocall; obs_tac];
      split; vm_compute; first [reflexivity|discriminate]. }
  split; [vm_compute; reflexivity|]. split.
  { intros c IN. repeat (destruct IN as [IN|IN]; [discriminate|]). destruct IN. }
  split; [exists 0; cbn; auto|]. split; [vm_compute; reflexivity|].
  intros c C. change (g_core_count ex_G) with 2 in C.
  assert (D : c = 0 \/ c = 1) by lia. destruct D as [-> | ->]; vm_compute; reflexivity.
Qed.

(** ** C56 *)
(** Core 1's block of region 5 has found it to belong to the OS; an accept_thread of core 0
    makes the region free; core 1 is about to make the free region a blocked one. *)
Definition ex_middle : conf * list obs :=
  oops ex_G 6 1 (forge 5 3 0 (oops ex_G 2 1 (obegin ex_G 1 (CBlock 5) (initial ex_s0, [])))).
Definition heads (t : task) : option (call * op) :=
  match t with Running k (Do o _) _ => Some (k, o) | _ => None end.
Lemma heads_running t k o : heads t = Some (k, o) -> exists f l, t = Running k (Do o f) l.
Proof.
  destruct t as [|k' [a|o' f|] l]; cbn; try discriminate. intros X. inversion X. subst. eauto.
Qed.
Theorem C56_accept_thread_refuted : exists P top pb rb G s0 l x c k m r w f i,
  started P top pb rb G s0 /\ observed G pb rb (fun _ => True) s0 l x /\
  c < g_core_count G /\ r < g_dram_region_count G /\
  cf_task x c = Running k (Do (OSt m (owner_addr G r) w) f) i /\
  ~ owner_change k r (owner_of G (cf_state x) r) w.
Proof.
  assert (H : heads (cf_task (fst ex_middle) 1) = Some (CBlock 5, OSt 8 (owner_addr ex_G 5) 1))
    by (vm_compute; reflexivity).
  apply heads_running in H. destruct H as [f [i H]].
  exists ex_platform, 0, 6, 4, ex_G, ex_s0, (snd ex_middle), (fst ex_middle), 1, (CBlock 5), 8%nat, 5, 1, f, i.
  split; [exact ex_started|]. split; [|split; [reflexivity|split; [reflexivity|split; [exact H|]]]].
  - unfold ex_middle. apply oops_observed; [vm_compute; reflexivity|].
    apply forge_observed; [vm_compute; reflexivity| | |vm_compute; reflexivity|reflexivity|obs_tac];
      split; vm_compute; first [reflexivity|discriminate].
  - assert (O : owner_of ex_G (cf_state (fst ex_middle)) 5 = 3) by (vm_compute; reflexivity).
    rewrite O. intros [X|[X|[X|[X|X]]]]; destruct X as (X & Y & Z); discriminate.
Qed.

(** ** C85 *)
(** Region 6 was taken from the OS by an accept_thread; after that no block or assign of it
    is reported and every core loads its bitmap, and still core 0 can access it. *)
Definition ex_taken : conf * list obs :=
  forge 6 1 0 (ocall 50 0 (CFree 5) (ocall 50 1 CFlush (ocall 50 0 CFlush (ocall 50 0 (CBlock 5) (initial ex_s0, []))))).
Definition ex_reloaded : conf * list obs := ocall 50 1 (CBlock 8) (ocall 50 0 (CAssign 5 0) ex_taken).
Definition ex_l2 : list obs :=
  [Start 0 (CAssign 5 0); Finish 0 (CAssign 5 0) ok; Start 1 (CBlock 8); Finish 1 (CBlock 8) ok].
Theorem C85_accept_thread_refuted : exists P top pb rb G s0 l1 l2 x r,
  started P top pb rb G s0 /\ observed G pb rb (fun _ => True) s0 (l1 ++ l2) x /\ quiet G x /\
  r < g_dram_region_count G /\ owner_of G (cf_state x) r <> 0 /\
  ~ reports_move r l2 /\ (forall c, c < g_core_count G -> reloads_in c l2) /\
  exists c a, c < g_core_count G /\ region_of pb rb a = r /\
    cpu_may_access pb rb (s_cores (cf_state x) c) a.
Proof.
  exists ex_platform, 0, 6, 4, ex_G, ex_s0, (snd ex_taken), ex_l2, (fst ex_reloaded), 6.
  assert (TWO : forall c, c < g_core_count ex_G -> c = 0 \/ c = 1).
  { intros c C. change (g_core_count ex_G) with 2 in C. lia. }
  split; [exact ex_started|].
  assert (E : snd ex_reloaded = snd ex_taken ++ ex_l2) by (vm_compute; reflexivity). rewrite <- E.
  split.
  { unfold ex_reloaded, ocall. obs_tac. unfold ex_taken.
    apply forge_observed; [vm_compute; reflexivity| | |vm_compute; reflexivity|reflexivity|unfold ocall; obs_tac];
      split; vm_compute; first [reflexivity|discriminate]. }
  split; [apply two_idle; vm_compute; reflexivity|]. split; [reflexivity|].
  split; [vm_compute; discriminate|]. split; [|split].
  - intros (c & [X|(e & X)]); repeat (destruct X as [X|X]; [discriminate|]); destruct X.
  - intros c C. destruct (TWO c C) as [-> | ->].
    + exists [], (CAssign 5 0), [], (CAssign 5 0), [Start 1 (CBlock 8); Finish 1 (CBlock 8) ok]. split; reflexivity.
    + exists [Start 0 (CAssign 5 0); Finish 0 (CAssign 5 0) ok], (CBlock 8), [], (CBlock 8), []. split; reflexivity.
  - exists 0, (6 * 262144). split; [reflexivity|]. split; [reflexivity|].
    split; vm_compute; first [reflexivity|discriminate].
Qed.

(** ** C27 *)
(** An accept_thread whose argument block lies in a region that the caller does not own fails,
    but it has set a word: it locks at 40 times the block's address behind the region table and
    releases the lock of the block's region. *)
Definition ex_block_at : N := 15 * 262144.
Theorem C27_accept_thread_refuted : exists P top pb rb G s c k s' v a,
  reachable P top pb rb G s /\ c < g_core_count G /\ call_args_ok k /\ seq_call G pb rb k /\
  do_call G c k s = (s', Some v) /\ v <> 0 /\ a < 2 ^ 64 /\ s_mem s' a <> s_mem s a.
Proof.
  assert (D : snd (do_call ex_G 0 (CAcceptThread 786432 ex_block_at) ex_free) = Some invalid_value)
    by (vm_compute; reflexivity).
  exists ex_platform, 0, 6, 4, ex_G, ex_free, 0, (CAcceptThread 786432 ex_block_at),
    (fst (do_call ex_G 0 (CAcceptThread 786432 ex_block_at) ex_free)), invalid_value,
    (g_dram_region ex_G + 40 * ex_block_at).
  split; [exact ex_free_reach|]. split; [reflexivity|]. split; [split; reflexivity|]. split.
  { intros _. repeat split; vm_compute; discriminate. }
  split; [rewrite <- D; apply surjective_pairing|]. split; [discriminate|].
  split; [reflexivity|]. vm_compute. discriminate.
Qed.

(** ** C66 *)
(** An OS store and an accept_thread, both in memory of the OS; the block that follows is
    refused, and succeeds without them. *)
Definition ex_stored : state :=
  set_mem ex_s0 (st 1 (s_mem ex_s0) (args_at + tii_eptbr) 1).
Definition ex_accept : call := CAcceptThread (g_dram_region ex_G + 40 * 6) args_at.
Definition ex_accepted : state := fst (do_call ex_G 0 ex_accept ex_stored).
Theorem C66_accept_thread_refuted : exists P top pb rb G s0 c a v t b s1 r,
  started P top pb rb G s0 /\ c < g_core_count G /\
  cpu_may_access pb rb (s_cores s0 c) a /\ call_args_ok (CAcceptThread t b) /\
  do_call G c (CAcceptThread t b) (set_mem s0 (st 1 (s_mem s0) a v)) = (s1, Some ok) /\
  snd (do_call G c (CBlock r) s1) = Some concurrent_call /\
  snd (do_call G c (CBlock r) s0) = Some ok.
Proof.
  assert (D : snd (do_call ex_G 0 ex_accept ex_stored) = Some ok) by (vm_compute; reflexivity).
  exists ex_platform, 0, 6, 4, ex_G, ex_s0, 0, (args_at + tii_eptbr), 1,
    (g_dram_region ex_G + 40 * 6), args_at, ex_accepted, 7.
  split; [exact ex_started|]. split; [reflexivity|].
  split; [split; vm_compute; first [reflexivity|discriminate]|]. split; [split; reflexivity|].
  split; [fold ex_stored; fold ex_accept; rewrite <- D; apply surjective_pairing|].
  split; vm_compute; reflexivity.
Qed.

(** ** C86 *)
(** Region 15 is blocked and no core can access it; an accept_thread of a thread and an
    argument block in region 0 sets a byte of it. *)
Definition ex_far : conf * list obs := ocall 50 1 (CBlock 14) (ocall 50 0 (CBlock 15) (initial ex_s0, [])).
Definition ex_reached : conf * list obs := ocall 50 0 (CAcceptThread 102400 98304) ex_far.
Theorem C86_accept_thread_refuted : exists P top pb rb G s0 l x y c t a v r b,
  started P top pb rb G s0 /\ observed G pb rb (fun _ => True) s0 l x /\ quiet G x /\
  r <> 0 /\ owner_of G (cf_state x) r = 1 /\
  (forall d e, d < g_core_count G -> region_of pb rb e = r ->
     ~ cpu_may_access pb rb (s_cores (cf_state x) d) e) /\
  region_of pb rb t <> r /\ region_of pb rb a <> r /\
  observed G pb rb (fun _ => True) s0 (l ++ [Start c (CAcceptThread t a); Finish c (CAcceptThread t a) v]) y /\
  region_of pb rb b = r /\
  s_mem (cf_state y) b mod 256 <> s_mem (cf_state x) b mod 256.
Proof.
  exists ex_platform, 0, 6, 4, ex_G, ex_s0, (snd ex_far), (fst ex_far), (fst ex_reached), 0, 102400, 98304, ok, 15,
    (g_dram_region ex_G + 40 * 98304).
  split; [exact ex_started|]. split; [unfold ex_far, ocall; obs_tac|].
  split; [apply two_idle; vm_compute; reflexivity|]. split; [discriminate|].
  split; [vm_compute; reflexivity|]. split.
  { intros d e D E [X _]. rewrite E in X. change (g_core_count ex_G) with 2 in D.
    assert (Y : d = 0 \/ d = 1) by lia.
    assert (Z : drb_bit (s_cores (cf_state (fst ex_far)) 0) 15 = false /\
      drb_bit (s_cores (cf_state (fst ex_far)) 1) 15 = false) by (vm_compute; split; reflexivity).
    destruct Z as [Z0 Z1]. destruct Y as [-> | ->]; congruence. }
  split; [vm_compute; discriminate|]. split; [vm_compute; discriminate|].
  assert (E : snd ex_reached = snd ex_far ++ [Start 0 (CAcceptThread 102400 98304);
    Finish 0 (CAcceptThread 102400 98304) ok]) by (vm_compute; reflexivity).
  rewrite <- E. split; [unfold ex_reached, ex_far, ocall; obs_tac|].
  split; [vm_compute; reflexivity|]. vm_compute. discriminate.
Qed.

(** ** C94 *)
(** After the accept_thread of C85 core 0 reloads its registers and then flushes, and still
    reaches region 6, which is not the OS's. *)
Definition ex_ordered : conf * list obs := ocall 50 0 CFlush (ocall 50 0 (CAssign 5 0) ex_taken).
Theorem C94_accept_thread_refuted : exists P top pb rb G s0 l1 l2 l3 x T r c a,
  started P top pb rb G s0 /\ tobserved G pb rb (fun _ => True) s0 (l1 ++ l2 ++ l3) x T /\ quiet G x /\
  r < g_dram_region_count G /\ owner_of G (cf_state x) r <> 0 /\ ~ reports_move r (l2 ++ l3) /\
  c < g_core_count G /\ reloads_in c l2 /\ flushes_in c l3 /\
  region_of pb rb a = r /\ can_reach pb rb (cf_state x, T) c a.
Proof.
  assert (E : snd ex_ordered = snd ex_taken ++ [Start 0 (CAssign 5 0); Finish 0 (CAssign 5 0) ok] ++
    [Start 0 CFlush; Finish 0 CFlush ok]) by (vm_compute; reflexivity).
  assert (OB : observed ex_G 6 4 (fun _ => True) ex_s0 (snd ex_ordered) (fst ex_ordered)).
  { unfold ex_ordered, ocall. obs_tac. unfold ex_taken.
    apply forge_observed; [vm_compute; reflexivity| | |vm_compute; reflexivity|reflexivity|unfold ocall; obs_tac];
      split; vm_compute; first [reflexivity|discriminate]. }
  apply C94_contains in OB. rewrite E in OB.
  exists ex_platform, 0, 6, 4, ex_G, ex_s0, (snd ex_taken), [Start 0 (CAssign 5 0); Finish 0 (CAssign 5 0) ok],
    [Start 0 CFlush; Finish 0 CFlush ok], (fst ex_ordered), [], 6, 0, (6 * 262144).
  split; [exact ex_started|]. split; [exact OB|].
  split; [apply two_idle; vm_compute; reflexivity|]. split; [reflexivity|].
  split; [vm_compute; discriminate|]. split.
  { intros (c & [X|(e & X)]); repeat (destruct X as [X|X]; [discriminate|]); destruct X. }
  split; [reflexivity|]. split.
  { exists [], (CAssign 5 0), [], (CAssign 5 0), []. split; reflexivity. }
  split. { exists [], [], [], ok. reflexivity. }
  split; [reflexivity|]. left. split; vm_compute; first [reflexivity|discriminate].
Qed.

(** ** C23, C25, C29 *)
(** One OS store and one successful accept_thread with its argument block in memory of the OS. *)
Definition ex_byte : state := set_mem ex_s0 (st 1 (s_mem ex_s0) args_at 7).
Definition ex_odd : state := fst (do_call ex_G 0 ex_accept ex_byte).
(** The OS's region 6 gets an owner code that does not exist; the OS bitmap still has it. *)
Theorem C25_accept_thread_refuted : exists P top pb rb G s0 c a v t b s1 r,
  started P top pb rb G s0 /\ c < g_core_count G /\
  cpu_may_access pb rb (s_cores s0 c) a /\ call_args_ok (CAcceptThread t b) /\
  do_call G c (CAcceptThread t b) (set_mem s0 (st 1 (s_mem s0) a v)) = (s1, Some ok) /\
  r < g_dram_region_count G /\ 3 < owner_of G s1 r /\ os_bit G s1 r = true.
Proof.
  assert (D : snd (do_call ex_G 0 ex_accept ex_byte) = Some ok) by (vm_compute; reflexivity).
  exists ex_platform, 0, 6, 4, ex_G, ex_s0, 0, args_at, 7, (g_dram_region ex_G + 40 * 6), args_at, ex_odd, 6.
  split; [exact ex_started|]. split; [reflexivity|].
  split; [split; vm_compute; first [reflexivity|discriminate]|]. split; [split; reflexivity|].
  split; [fold ex_byte; fold ex_accept; rewrite <- D; apply surjective_pairing|].
  split; [reflexivity|]. split; vm_compute; reflexivity.
Qed.
(** A region changes its owner in a call that is none of block, assign, free and
    create_metadata_region. *)
Theorem C23_accept_thread_refuted : exists P top pb rb G s0 c a v t b s1 r,
  started P top pb rb G s0 /\ c < g_core_count G /\
  cpu_may_access pb rb (s_cores s0 c) a /\ call_args_ok (CAcceptThread t b) /\
  do_call G c (CAcceptThread t b) (set_mem s0 (st 1 (s_mem s0) a v)) = (s1, Some ok) /\
  r < g_dram_region_count G /\ owner_of G s0 r = 0 /\ owner_of G s1 r = v /\ v <> 0.
Proof.
  assert (D : snd (do_call ex_G 0 ex_accept ex_byte) = Some ok) by (vm_compute; reflexivity).
  exists ex_platform, 0, 6, 4, ex_G, ex_s0, 0, args_at, 7, (g_dram_region ex_G + 40 * 6), args_at, ex_odd, 6.
  split; [exact ex_started|]. split; [reflexivity|].
  split; [split; vm_compute; first [reflexivity|discriminate]|]. split; [split; reflexivity|].
  split; [fold ex_byte; fold ex_accept; rewrite <- D; apply surjective_pairing|].
  split; [reflexivity|]. split; [vm_compute; reflexivity|]. split; [vm_compute; reflexivity|discriminate].
Qed.
(** The lock of region 7 was free before the call and is set after it. *)
Theorem C29_accept_thread_refuted : exists P top pb rb G s0 c a v t b s1 r,
  started P top pb rb G s0 /\ c < g_core_count G /\
  cpu_may_access pb rb (s_cores s0 c) a /\ call_args_ok (CAcceptThread t b) /\
  do_call G c (CAcceptThread t b) (set_mem s0 (st 1 (s_mem s0) a v)) = (s1, Some ok) /\
  0 < r < g_dram_region_count G /\ lock_of G s0 r = 0 /\ lock_of G s1 r <> 0.
Proof.
  assert (D : snd (do_call ex_G 0 ex_accept ex_stored) = Some ok) by (vm_compute; reflexivity).
  exists ex_platform, 0, 6, 4, ex_G, ex_s0, 0, (args_at + tii_eptbr), 1,
    (g_dram_region ex_G + 40 * 6), args_at, ex_accepted, 7.
  split; [exact ex_started|]. split; [reflexivity|].
  split; [split; vm_compute; first [reflexivity|discriminate]|]. split; [split; reflexivity|].
  split; [fold ex_stored; fold ex_accept; rewrite <- D; apply surjective_pairing|].
  split; [split; reflexivity|]. split; [vm_compute; reflexivity|vm_compute; discriminate].
Qed.
Definition P_Rest3_theorems := (C27_accept_thread_refuted, C52_accept_thread_refuted, C52_region_zero_refuted, C53_accept_thread_refuted, C55_accept_thread_refuted,
  C56_accept_thread_refuted, C66_accept_thread_refuted, C85_accept_thread_refuted,
  C86_accept_thread_refuted, C94_accept_thread_refuted,
  C23_accept_thread_refuted, C25_accept_thread_refuted, C29_accept_thread_refuted).
Print Assumptions P_Rest3_theorems.
