(** * Property C79: the monitor does not reveal the contents of a region. *)
From Coq Require Import NArith ZArith Lia Bool List.
From Coq Require Import ZifyBool ZifyNat ZifyN.
From Verif Require Import Word Machine ModelBare ModelHash ModelInl ModelRegions
  ModelMetadata ModelEnclave ModelBoot ModelApi Lib BareProofs BootProofs SpecGeometry
  GeomProofs Trace SpecMonitor SpecHistory ViewProofs SeqProofs SeqCalls SeqCalls2 SeqCalls3
  HistoryProofs P_Boot P_Regions P_Enclave ConcProofs ConcCalls ConcCalls2 ConcGlobal
  AtomicProofs P_Conc SpecConcurrent SpecAtomic SpecInside SpecSecret SecretProofs P_Inside.
Import ListNotations.
Open Scope N_scope.
Ltac Zify.zify_post_hook ::= Z.div_mod_to_equations.

Section Match.
Variables (pb rb r : N).
Notation same := (same_outside pb rb r).

Lemma same_ld s y k a : same s y -> avoids pb rb r a (N.of_nat k) ->
  ld k (s_mem s) a = ld k (s_mem y) a.
Proof. intros S A. apply ld_byte. intros b B1 B2. apply (so_mem _ _ _ _ _ S), A. lia. Qed.
Lemma same_st s y k a v : same s y -> same (set_mem s (st k (s_mem s) a v)) (set_mem y (st k (s_mem y) a v)).
Proof.
  intros S. destruct S. constructor; cbn [s_mem set_mem s_cores s_words s_dmar_base s_dmar_mask s_dma_start s_dma_end]; auto.
  intros b B. change (byte (st k (s_mem s) a v) b = byte (st k (s_mem y) a v) b).
  destruct (N.lt_ge_cases b a); [rewrite !byte_st_out by auto; apply so_mem; auto|].
  destruct (N.lt_ge_cases b (a + N.of_nat k)); [rewrite !byte_st_in by auto; reflexivity|].
  rewrite !byte_st_out by auto. apply so_mem; auto.
Qed.
Lemma same_cores s y c f f' : same s y ->
  (forall i, r_drb f i = r_drb f' i) -> (forall i, r_edrb f i = r_edrb f' i) ->
  r_par_base f = r_par_base f' -> r_par_mask f = r_par_mask f' -> r_cache_shift f = r_cache_shift f' ->
  r_tlb_flushes f = r_tlb_flushes f' -> same (set_creg s c f) (set_creg y c f').
Proof.
  intros S. destruct S. intros. constructor; cbn [s_mem set_creg s_cores s_words s_dmar_base s_dmar_mask s_dma_start s_dma_end]; auto;
    intros c'; destruct (c' =? c); auto.
Qed.
Lemma step_same c o s y s' v : same s y -> mute pb rb (s_words s) r o -> step c o s = (s', v) ->
  exists y', step c o y = (y', v) /\ same s' y'.
Proof.
  intros S M E.
  assert (F : fst (step c o s) = s' /\ snd (step c o s) = v) by (rewrite E; auto).
  clear E. destruct F as [<- <-].
  exists (fst (step c o y)). assert (G : snd (step c o y) = snd (step c o s) /\ same (fst (step c o s)) (fst (step c o y))).
  2:{ destruct G as [<- G]. split; [destruct (step c o y); reflexivity|exact G]. }
  destruct o; cbn [step fst snd mute] in *; try (split; [reflexivity|]); auto.
  - rewrite (same_ld s y) by auto. auto.
  - apply same_st; auto.
  - rewrite (same_ld s y 8 a) by auto. split; [reflexivity|]. apply same_st; auto.
  - apply same_st; auto.
  - rewrite (same_ld s y 8 a) by auto. split; [reflexivity|]. apply same_st; auto.
  - destruct S. apply same_cores; [constructor; auto|..]; cbn; auto. congruence.
  - destruct S. apply same_cores; [constructor; auto|..]; cbn; auto.
  - destruct S. apply same_cores; [constructor; auto|..]; cbn; auto.
  - destruct S. apply same_cores; [constructor; auto|..]; cbn; auto.
  - pose proof S as S'. destruct S'. apply same_cores; [constructor; auto|..]; cbn [r_drb r_edrb r_par_base r_par_mask r_cache_shift r_tlb_flushes]; auto.
    intros i. unfold snapshot. rewrite <- so_words. destruct (N.ltb_spec i (s_words s)); [|auto].
    apply same_ld; auto. intros b B. apply M. change (N.of_nat 8) with 8 in B. lia.
  - pose proof S as S'. destruct S'. apply same_cores; [constructor; auto|..]; cbn [r_drb r_edrb r_par_base r_par_mask r_cache_shift r_tlb_flushes]; auto.
    intros i. unfold snapshot. rewrite <- so_words. destruct (N.ltb_spec i (s_words s)); [|auto].
    apply same_ld; auto. intros b B. apply M. change (N.of_nat 8) with 8 in B. lia.
  - destruct S. constructor; auto.
  - destruct S. constructor; auto.
  - destruct S. split; auto. constructor; auto.
  - destruct S. split; auto. constructor; auto.
  - destruct S. constructor; auto.
  - destruct S. constructor; auto.
  - destruct S. constructor; auto.
Qed.

(** One step of an execution can be made from the other configuration. *)
Lemma match_step G al x y x' :
  (forall c k o f l, c < g_core_count G -> cf_task x c = Running k (Do o f) l -> mute pb rb (s_words (cf_state x)) r o) ->
  cstep G pb rb al false x x' -> same_conf pb rb r x y ->
  exists y', cstep G pb rb al false y y' /\ same_conf pb rb r x' y'.
Proof.
  intros MU SP [SS [ST SH]]. destruct y as [sy ty hy]. cbn [cf_state cf_task cf_held] in *.
  destruct SP as [s t h c k C T A AL|s t h c k o f l s' v C T SP NW|s t h c k v l C T|s t h c a v C T A M|s t h a v A M TP];
    cbn [cf_state cf_task cf_held] in *.
  - exists (mkConf sy (upd ty c (Running k (call_prog G k) [])) hy).
    split; [apply cs_start; auto; congruence|]. split; [exact SS|]. split; [|exact SH].
    intros c'. cbn [cf_task]. unfold upd. destruct (c' =? c); auto.
  - destruct (step_same c o s sy s' v SS (MU c k o f l C T) SP) as (y' & SP' & SS').
    exists (mkConf y' (upd ty c (Running k (f v) ((o, v) :: l))) (held_after G c o v hy)).
    split; [apply (cs_op _ _ _ _ _ sy ty hy c k o f l y' v); [exact C|rewrite <- ST; exact T|exact SP'|discriminate]|]. split; [exact SS'|]. split.
    + intros c'. cbn [cf_task]. unfold upd. destruct (c' =? c); auto.
    + intros c' q. cbn [cf_held]. unfold held_after. destruct o; auto;
        repeat match goal with |- context [if ?b then _ else _] => destruct b end; auto.
  - exists (mkConf sy (upd ty c Idle) hy).
    split; [apply (cs_return _ _ _ _ _ sy ty hy c k v l); [exact C|rewrite <- ST; exact T]|]. split; [exact SS|]. split; [|exact SH].
    intros c'. cbn [cf_task]. unfold upd. destruct (c' =? c); auto.
  - exists (mkConf (set_mem sy (st 1 (s_mem sy) a v)) ty hy). split.
    + apply (cs_store _ _ _ _ _ sy ty hy c a v); [exact C|rewrite <- ST; exact T|exact A|]. destruct SS, M as [M1 M2]. split.
      * unfold drb_bit in *. rewrite <- so_drb. exact M1.
      * rewrite <- so_par_base, <- so_par_mask. exact M2.
    + split; [apply same_st; exact SS|]. split; auto.
  - exists (mkConf (set_mem sy (st 1 (s_mem sy) a v)) ty hy). split.
    + apply cs_dma; [exact A| |exact TP]. destruct SS. unfold dma_may_access in *. congruence.
    + split; [apply same_st; exact SS|]. split; auto.
Qed.
End Match.

(** The calls in progress never read region [r]. *)
Lemma hushed_step P top pb rb G s0 r x y : started P top pb rb G s0 ->
  creach G pb rb (public_call G pb rb r) false s0 x -> r <> 0 ->
  avoids pb rb r (g_os_region_bitmap G) (8 * s_words s0) ->
  owner_of G (cf_state x) r <> 2 ->
  (forall c k p l, c < g_core_count G -> cf_task x c = Running k p l -> hushed G pb rb c (s_words s0) r p any) ->
  cstep G pb rb (public_call G pb rb r) false x y ->
  (forall c k p l, c < g_core_count G -> cf_task y c = Running k p l -> hushed G pb rb c (s_words s0) r p any).
Proof.
  intros ST R NZ HW OW IH SP c k p l C T. destruct (started_geom _ _ _ _ _ _ ST) as [g _].
  destruct (reach_good _ _ _ _ _ _ _ _ _ ST (fun k (H : public_call G pb rb r k) => proj1 H) R)
    as [_ [q [hd GD]]].
  destruct SP as [s t h c1 k1 C1 T1 AR AL|s t h c1 k1 o f i s' v C1 T1 SP NW
    |s t h c1 k1 v i C1 T1|s t h c1 a v C1 T1 A CA|s t h a v A DA TP];
    cbn [cf_state cf_task cf_held] in *; try (eapply IH; eassumption);
    unfold upd in T; destruct (N.eqb_spec c c1) as [->|NE]; try (eapply IH; eassumption).
  - inversion T; subst. eapply SecretProofs.i_call; eauto.
  - inversion T; subst. specialize (IH c1 k _ _ C T1). cbn [hushed] in IH. apply IH.
    destruct GD as [V I CO HE TA]. cbn [cf_state] in V. split; [split; [|split]|].
    + intros r' RL ->. pose proof (f_equal snd SP) as EV. cbn -[ld] in EV. subst v. unfold owner_addr.
      rewrite (v_owner _ _ _ V r' RL). split; [apply (ConcProofs.i_owner _ _ _ _ I); exact RL|].
      intros ->. apply (ConcProofs.i_owner0 _ _ _ _ I).
    + intros ->. pose proof (f_equal snd SP) as EV. cbn in EV. congruence.
    + intros ->. pose proof (f_equal snd SP) as EV. cbn -[ld] in EV. subst v.
      rewrite (v_encl _ _ _ V c1 C). apply (ConcProofs.i_encl _ _ _ _ I). exact C.
    + intros ->. pose proof (f_equal snd SP) as EV. cbn -[ld] in EV. subst v. exact OW.
  - discriminate.
Qed.

(** Start from a reachable configuration without calls in progress and replace the
    contents of region [r] by anything.  Whatever the cores, the OS and the devices do
    from there, every operation of every call gives the same value, every call the same
    result, and memory outside the region and all registers stay the same, as long as the
    region is not a metadata region and not named by copy_debug_enclave_page. *)
Theorem C79_secret_partial : forall P top pb rb G s0 r x y l,
  started P top pb rb G s0 -> creach G pb rb (public_call G pb rb r) false s0 x -> quiet G x ->
  r <> 0 -> avoids pb rb r (g_os_region_bitmap G) (8 * s_words s0) ->
  execution G pb rb (public_call G pb rb r) x l ->
  Forall (fun z => owner_of G (cf_state z) r <> 2) (x :: l) ->
  same_conf pb rb r x y ->
  exists l', execution G pb rb (public_call G pb rb r) y l' /\ Forall2 (same_conf pb rb r) l l'.
Proof.
  intros P top pb rb G s0 r x y l ST R QX NZ HW EX OW SC.
  assert (HU : forall c k p i, c < g_core_count G -> cf_task x c = Running k p i ->
    hushed G pb rb c (s_words s0) r p any).
  { intros c k p i C T. rewrite (QX c C) in T. discriminate. }
  clear QX. revert y SC. induction EX as [x|x z l SP EX IH]; intros y SC.
  { exists []. split; constructor. }
  inversion OW as [|? ? O1 O2]; subst.
  assert (MU : forall c k o f i, c < g_core_count G -> cf_task x c = Running k (Do o f) i ->
    mute pb rb (s_words (cf_state x)) r o).
  { intros c k o f i C T. specialize (HU c k _ i C T). cbn [hushed] in HU.
    rewrite (reach_words _ _ _ _ _ _ _ R). apply HU. }
  destruct (match_step pb rb r G _ x y z MU SP SC) as (z' & SP' & SC').
  destruct (IH (cr_step _ _ _ _ _ _ _ _ R SP) O2 (hushed_step _ _ _ _ _ _ _ _ _ ST R NZ HW O1 HU SP) z' SC') as (l' & E' & F').
  exists (z' :: l'). split; [econstructor; eauto|constructor; auto].
Qed.

(** ** What the theorem leaves out *)
Lemma same_outside_put pb rb r s a v : (forall b, a <= b < a + 8 -> region_of pb rb b = r) ->
  same_outside pb rb r s (set_mem s (st 8 (s_mem s) a v)).
Proof.
  intros A. constructor; cbn [s_mem set_mem s_cores s_words s_dmar_base s_dmar_mask s_dma_start s_dma_end]; auto.
  intros b B. change (byte (s_mem s) b = byte (st 8 (s_mem s) a v) b). symmetry. apply byte_st_out.
  change (N.of_nat 8) with 8. destruct (N.lt_ge_cases b a); [auto|]. destruct (N.lt_ge_cases b (a + 8)); [|auto].
  exfalso. apply B, A. lia.
Qed.
Lemma ex_region a k : 2 * 262144 <= a -> a + k <= 3 * 262144 ->
  forall b, a <= b < a + k -> region_of 6 4 b = 2.
Proof.
  intros A K b B. unfold region_of. change (2 ^ (12 + 6)) with 262144. change (2 ^ 4) with 16.
  replace (b / 262144) with 2; [reflexivity|]. apply (N.div_unique b 262144 2 (b - 2 * 262144)); lia.
Qed.
(** Region 2 is blocked and the registers of core 0 deny access to it. *)
Lemma ex_b2_reachable : reachable ex_platform 0 6 4 ex_G ex_b2.
Proof.
  exists ex_s0, [(ECall 0 (CBlock 2), 0)]. split; [exact ex_started|].
  apply (hist_snoc _ _ _ _ [] ex_s0); [constructor|].
  refine (es_call _ _ _ _ 0 _ _ _ _ _ _ ex_b2_call); [reflexivity|reflexivity|exact Logic.I].
Qed.

(** copy_debug_enclave_page tests the word at its first argument + 24 without checking
    that the argument is an enclave: its result tells whether a word of a blocked region
    is zero. *)
Theorem C79_copy_debug_refuted :
  ~ (forall P top pb rb G s y r c k, reachable P top pb rb G s -> c < g_core_count G -> call_args_ok k ->
       safe_call G k -> r < g_dram_region_count G -> r <> 0 -> owner_of G s r = 1 ->
       (forall b, region_of pb rb b = r -> ~ cpu_may_access pb rb (s_cores s c) b) ->
       same_outside pb rb r s y -> snd (do_call G c k s) = snd (do_call G c k y)).
Proof.
  intros H. pose (y := set_mem ex_b2 (st 8 (s_mem ex_b2) (2 * 262144 + 24) 1)).
  specialize (H ex_platform 0 6 4 ex_G ex_b2 y 2 0 (CCopyDebugPage (2 * 262144) (3 * 262144) (4 * 262144) false)
    ex_b2_reachable).
  assert (E1 : snd (do_call ex_G 0 (CCopyDebugPage (2 * 262144) (3 * 262144) (4 * 262144) false) ex_b2) = Some 2)
    by (vm_compute; reflexivity).
  assert (E2 : snd (do_call ex_G 0 (CCopyDebugPage (2 * 262144) (3 * 262144) (4 * 262144) false) y) = Some 1)
    by (vm_compute; reflexivity).
  rewrite E1, E2 in H. assert (D : Some 2 <> Some 1) by discriminate. apply D, H; clear.
  - reflexivity.
  - vm_compute. auto.
  - exact Logic.I.
  - reflexivity.
  - discriminate.
  - vm_compute. reflexivity.
  - intros b B [M _]. rewrite B in M. vm_compute in M. discriminate.
  - apply same_outside_put, ex_region; lia.
Qed.
(** accept_thread takes a lock word computed from an address as if it were a region
    number: its result tells whether a word of a blocked region is zero (and it
    overwrites the word). *)
Theorem C79_accept_thread_refuted :
  ~ (forall P top pb rb G s y r c k, reachable P top pb rb G s -> c < g_core_count G -> call_args_ok k ->
       match k with CCopyDebugPage _ _ _ _ => False | _ => True end ->
       r < g_dram_region_count G -> r <> 0 -> owner_of G s r = 1 ->
       (forall b, region_of pb rb b = r -> ~ cpu_may_access pb rb (s_cores s c) b) ->
       same_outside pb rb r s y -> snd (do_call G c k s) = snd (do_call G c k y)).
Proof.
  intros H. pose (y := set_mem ex_b2 (st 8 (s_mem ex_b2) 655424 1)).
  specialize (H ex_platform 0 6 4 ex_G ex_b2 y 2 0 (CAcceptThread (4 * 262144) 16384) ex_b2_reachable).
  assert (E1 : snd (do_call ex_G 0 (CAcceptThread (4 * 262144) 16384) ex_b2) = Some 0)
    by (vm_compute; reflexivity).
  assert (E2 : snd (do_call ex_G 0 (CAcceptThread (4 * 262144) 16384) y) = Some 3)
    by (vm_compute; reflexivity).
  rewrite E1, E2 in H. assert (D : Some 0 <> Some 3) by discriminate. apply D, H; clear.
  - reflexivity.
  - vm_compute. auto.
  - exact Logic.I.
  - reflexivity.
  - discriminate.
  - vm_compute. reflexivity.
  - intros b B [M _]. rewrite B in M. vm_compute in M. discriminate.
  - apply same_outside_put, ex_region; lia.
Qed.

(** ** An example *)
Fixpoint walk (m : nat) (c : N) (x : conf) : list conf :=
  match m with O => [] | S m => let y := ops ex_G 1 c x in y :: walk m c y end.
Fixpoint may_walk (m : nat) (c : N) (x : conf) : bool :=
  match m with O => true | S m => can_op ex_G c x && may_walk m c (ops ex_G 1 c x) end.
Lemma walk_execution al c : c < g_core_count ex_G -> forall m x,
  may_walk m c x = true -> execution ex_G 6 4 al x (walk m c x).
Proof.
  intros C. induction m as [|m IH]; intros x M; [constructor|].
  cbn [may_walk] in M. apply andb_true_iff in M. destruct M as [M1 M2]. cbn [walk].
  apply ex_cons; [apply op_step; auto|]. apply IH, M2.
Qed.
(** Core 0 blocks region 2; the contents of the region are 0, or a secret. *)
Definition ex_begun : conf := begin ex_G 0 (CBlock 2) (initial ex_s0).
Definition ex_steps : list conf := ex_begun :: walk 16 0 ex_begun.
Definition ex_secret : state := set_mem ex_s0 (st 8 (s_mem ex_s0) (2 * 262144 + 4096) 424242).
Lemma ex_width : avoids 6 4 2 (g_os_region_bitmap ex_G) (8 * s_words ex_s0).
Proof.
  intros b B. assert (L : g_os_region_bitmap ex_G + 8 * s_words ex_s0 <= 2 ^ (12 + 6)) by (vm_compute; discriminate).
  rewrite (region0_low 6 4) by lia. discriminate.
Qed.
Example C79_example : exists P top pb rb G s0 r x y l, started P top pb rb G s0 /\
  creach G pb rb (public_call G pb rb r) false s0 x /\ quiet G x /\
  r <> 0 /\ avoids pb rb r (g_os_region_bitmap G) (8 * s_words s0) /\
  execution G pb rb (public_call G pb rb r) x l /\
  Forall (fun z => owner_of G (cf_state z) r <> 2) (x :: l) /\
  same_conf pb rb r x y /\
  ld 8 (s_mem (cf_state x)) (2 * 262144 + 4096) <> ld 8 (s_mem (cf_state y)) (2 * 262144 + 4096) /\
  length l = 17%nat /\ owner_of G (cf_state x) r = 0 /\ owner_of G (cf_state (last l x)) r = 1.
Proof.
  exists ex_platform, 0, 6, 4, ex_G, ex_s0, 2, (initial ex_s0), (initial ex_secret), ex_steps.
  split; [exact ex_started|]. split; [constructor|]. split; [intros c C; reflexivity|].
  split; [discriminate|]. split; [exact ex_width|]. split.
  { apply ex_cons; [|apply walk_execution; [reflexivity|vm_compute; reflexivity]].
    unfold ex_begun, begin, initial. cbn [cf_state cf_task cf_held].
    apply cs_start; [reflexivity|reflexivity|reflexivity|split; exact Logic.I]. }
  split.
  { assert (H : forallb (fun z => negb (owner_of ex_G (cf_state z) 2 =? 2)) (initial ex_s0 :: ex_steps) = true)
      by (vm_compute; reflexivity).
    rewrite forallb_forall in H. apply Forall_forall. intros z Z E. specialize (H z Z).
    rewrite E in H. discriminate. }
  split.
  { unfold same_conf, initial, ex_secret. cbn [cf_state cf_task cf_held].
    split; [|split; intros; reflexivity].
    apply (same_outside_put 6 4 2 ex_s0 (2 * 262144 + 4096) 424242 (ex_region (2 * 262144 + 4096) 8 ltac:(lia) ltac:(lia))). }
  split; [vm_compute; discriminate|]. split; [reflexivity|].
  split; vm_compute; reflexivity.
Qed.

Definition P_Secret_theorems := (C79_secret_partial, C79_copy_debug_refuted, C79_accept_thread_refuted, C79_example).
Print Assumptions P_Secret_theorems.
