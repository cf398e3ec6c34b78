(** * Property C79, second part: a region of any owner, metadata regions included, that no
    call names. *)
From Coq Require Import NArith ZArith Lia Bool List.
From Coq Require Import ZifyBool ZifyNat ZifyN.
From Verif Require Import Word Machine ModelBare ModelHash ModelInl ModelRegions
  ModelMetadata ModelEnclave ModelBoot ModelApi Lib BareProofs BootProofs SpecGeometry
  GeomProofs Trace SpecMonitor SpecHistory ViewProofs SeqProofs SeqCalls SeqCalls2 SeqCalls3
  HistoryProofs P_Boot P_Regions P_Enclave ConcProofs ConcCalls ConcCalls2 ConcGlobal
  AtomicProofs P_Conc SpecConcurrent SpecAtomic SpecInside SpecSecret SecretProofs TouchProofs
  P_Inside P_Secret SpecTouch P_Touch P_Touch2.
Import ListNotations.
Open Scope N_scope.
Ltac Zify.zify_post_hook ::= Z.div_mod_to_equations.

Lemma untouching_mute pb rb W r o : untouching pb rb W r o -> mute pb rb W r o.
Proof. destruct o; cbn [untouching mute]; auto. Qed.

(** Start from any reachable configuration without calls in progress, and change the bytes
    of region [r] (not region 0) arbitrarily.  Whoever owns the region, and whatever happens to
    its ownership: as long as no call that names it is made, each execution from one
    configuration has a counterpart from the other in which every call reads the same values and
    returns the same result, and everything but the region is the same. *)
Theorem C79_unnamed_partial : forall P top pb rb G s0 r x y l,
  started P top pb rb G s0 -> creach G pb rb (safe_call G) false s0 x -> quiet G x ->
  r <> 0 -> avoids pb rb r (g_os_region_bitmap G) (8 * s_words s0) ->
  execution G pb rb (unnamed_call G pb rb r) x l ->
  same_conf pb rb r x y ->
  exists l', execution G pb rb (unnamed_call G pb rb r) y l' /\ Forall2 (same_conf pb rb r) l l'.
Proof.
  intros P top pb rb G s0 r x y l ST R QX NZ HW EX SC.
  assert (HU : forall c k p i, c < g_core_count G -> cf_task x c = Running k p i ->
    spares G pb rb c (s_words s0) r False p any).
  { intros c k p i C T. rewrite (QX c C) in T. discriminate. }
  clear QX. revert y SC. induction EX as [x|x z l SP EX IH]; intros y SC.
  { exists []. split; constructor. }
  assert (MU : forall c k o f i, c < g_core_count G -> cf_task x c = Running k (Do o f) i ->
    mute pb rb (s_words (cf_state x)) r o).
  { intros c k o f i C T. specialize (HU c k _ i C T). cbn [spares] in HU.
    rewrite (reach_words _ _ _ _ _ _ _ R). apply untouching_mute, HU. }
  destruct (match_step pb rb r G _ x y z MU SP SC) as (z' & SP' & SC').
  assert (R' : creach G pb rb (safe_call G) false s0 z).
  { eapply cr_step; [exact R|]. eapply cstep_mono; [|exact SP]. intros k K. apply K. }
  assert (HU' : forall c k p i, c < g_core_count G -> cf_task z c = Running k p i ->
    spares G pb rb c (s_words s0) r False p any).
  { eapply spares_step; [exact ST|exact R|exact NZ|exact HW|intros []|intros k K; apply unnamed_public; exact K|exact HU|exact SP]. }
  destruct (IH R' HU' z' SC') as (l' & E' & F').
  exists (z' :: l'). split; [econstructor; eauto|constructor; auto].
Qed.

(** ** An example: region 2 becomes a metadata region; then core 1 blocks region 3.  The map of
    region 2 is empty, or has a page marked. *)
Definition ex_made : conf :=
  ops ex_G 700 0 (begin ex_G 0 (CCreateMetadataRegion 2)
    (ops ex_G 50 0 (begin ex_G 0 (CFree 2) (ops ex_G 50 0 (begin ex_G 0 (CBlock 2) (initial ex_s0)))))).
Definition mark (x : conf) : conf :=
  mkConf (set_mem (cf_state x) (st 8 (s_mem (cf_state x)) (2 * 262144 + 8) 3))
    (cf_task x) (cf_held x).
Lemma mark_same x : same_conf 6 4 2 x (mark x).
Proof.
  unfold same_conf, mark. cbn [cf_state cf_task cf_held].
  split; [|split; intros; reflexivity].
  apply (same_outside_put 6 4 2 _ (2 * 262144 + 8) 3 (ex_region (2 * 262144 + 8) 8 ltac:(lia) ltac:(lia))).
Qed.
Lemma third_step x : is_idle x 1 = true ->
  cstep ex_G 6 4 (unnamed_call ex_G 6 4 2) false x (begin ex_G 1 (CBlock 3) x).
Proof.
  intros Q1. destruct x as [s t h]. unfold begin. cbn [cf_state cf_task cf_held].
  apply cs_start; [reflexivity| |reflexivity|split; [exact Logic.I|split; [intros []|exact Logic.I]]].
  revert Q1. unfold is_idle. cbn [cf_task]. destruct (t 1); [reflexivity|discriminate].
Qed.
Definition ex_third : conf := begin ex_G 1 (CBlock 3) ex_made.
Definition ex_path3 : list conf := ex_third :: walk 16 1 ex_third.
Example C79_unnamed_example : exists P top pb rb G s0 r x y l, started P top pb rb G s0 /\
  creach G pb rb (safe_call G) false s0 x /\ quiet G x /\
  r <> 0 /\ avoids pb rb r (g_os_region_bitmap G) (8 * s_words s0) /\
  execution G pb rb (unnamed_call G pb rb r) x l /\ same_conf pb rb r x y /\
  ld 8 (s_mem (cf_state x)) (2 * 262144 + 8) <> ld 8 (s_mem (cf_state y)) (2 * 262144 + 8) /\
  owner_of G (cf_state x) r = 2 /\ owner_of G (cf_state x) 3 = 0 /\
  owner_of G (cf_state (last l x)) 3 = 1.
Proof.
  exists ex_platform, 0, 6, 4, ex_G, ex_s0, 2, ex_made, (mark ex_made), ex_path3.
  split; [exact ex_started|].
  assert (ID : forall x c, is_idle x c = true -> cf_task x c = Idle).
  { intros x c. unfold is_idle. destruct (cf_task x c); [reflexivity|discriminate]. }
  assert (Q : is_idle ex_made 0 = true /\ is_idle ex_made 1 = true) by (vm_compute; split; reflexivity).
  split.
  { unfold ex_made. do 3 (apply ops_reach; [reflexivity|];
      apply begin_reach; [reflexivity|vm_compute; reflexivity|reflexivity|exact Logic.I|]). constructor. }
  split.
  { intros c C. change (g_core_count ex_G) with 2 in C.
    assert (X : c = 0 \/ c = 1) by lia. destruct Q as [Q0 Q1].
    destruct X as [-> | ->]; apply ID; assumption. }
  split; [discriminate|]. split; [exact ex_width|]. split.
  { unfold ex_path3, ex_third.
    apply ex_cons; [exact (third_step ex_made (proj2 Q))|apply walk_execution; [reflexivity|vm_compute; reflexivity]]. }
  split; [exact (mark_same ex_made)|].
  split; [vm_compute; discriminate|]. split; [vm_compute; reflexivity|]. split; vm_compute; reflexivity.
Qed.

Definition P_Secret2_theorems := (C79_unnamed_partial, C79_unnamed_example).
Print Assumptions P_Secret2_theorems.
