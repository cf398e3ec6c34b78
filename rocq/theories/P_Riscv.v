(** * Property C93: the monitor on the RISC-V architecture of the repository. *)
From Coq Require Import NArith ZArith Lia Bool List.
From Verif Require Import Word Machine ModelBare ModelHash ModelInl ModelRegions
  ModelMetadata ModelEnclave ModelBoot ModelApi ModelRiscv SpecGeometry SpecMonitor.
From Verif Require Import P_Boot P_Regions.
Import ListNotations.
Open Scope N_scope.

(** Values a program may return if every test_and_set yields 0, whatever its other
    operations yield. *)
Fixpoint rets0 {A} (Q : A -> Prop) (p : prog A) : Prop :=
  match p with
  | Ret a => Q a
  | Do (OTas _) k => rets0 Q (k 0)
  | Do _ k => forall v, rets0 Q (k v)
  | Stop => True
  end.
Lemma rets0_do {A} (Q : A -> Prop) o (k : N -> prog A) : (forall v, rets0 Q (k v)) -> rets0 Q (Do o k).
Proof. intros H. destruct o; cbn [rets0]; auto. Qed.
Lemma rets0_run {A} (Q : A -> Prop) c (p : prog A) : forall s s' a,
  rets0 Q p -> run c (on_riscv p) s = (s', Some a) -> Q a.
Proof.
  induction p as [a|o k IH|]; intros s s' x R H.
  - cbn in *. inversion H; subst; auto.
  - destruct o; cbn [on_riscv riscv_op op1 bind run step rets0] in *; try (eapply IH; [|exact H]; auto).
  - discriminate.
Qed.
Lemma rets0_true {A} (p : prog A) : rets0 (fun _ => True) p.
Proof. induction p as [a|o k IH|]; cbn; auto. destruct o; auto. Qed.
Lemma rets0_bind {A B} (P : A -> Prop) (Q : B -> Prop) (p : prog A) (f : A -> prog B) :
  rets0 P p -> (forall a, P a -> rets0 Q (f a)) -> rets0 Q (bind p f).
Proof. intros H F. induction p as [a|o k IH|]; cbn in *; auto. destruct o; auto. Qed.
Lemma rets0_seq {A B} (Q : B -> Prop) (p : prog A) (f : A -> prog B) :
  (forall a, rets0 Q (f a)) -> rets0 Q (bind p f).
Proof. intros F. apply (rets0_bind (fun _ => True)); [apply rets0_true|auto]. Qed.
Lemma rets0_for_exit {R} (Q : option R -> Prop) n : forall i body, Q None ->
  (forall i, rets0 Q (body i)) -> rets0 Q (for_exit n i body).
Proof.
  induction n as [|n IH]; intros i body Z B; cbn [for_exit]; [exact Z|].
  apply (rets0_bind Q); [apply B|]. intros [x|] X; [exact X|]. apply IH; auto.
Qed.
Lemma rets0_tas G r : rets0 (fun b => b = false) (test_and_set_dram_region_lock G r).
Proof. reflexivity. Qed.
Lemma rets0_lock {A} (Q : A -> Prop) G r (f : bool -> prog A) :
  rets0 Q (f false) -> rets0 Q (bind (test_and_set_dram_region_lock G r) f).
Proof. intros H. apply (rets0_bind _ _ _ _ (rets0_tas G r)). intros a ->. exact H. Qed.

Definition not3 (v : N) : Prop := v <> 3.
Ltac r0_tac :=
  repeat first
    [ progress cbv zeta
    | match goal with
      | |- rets0 _ (Ret _) => cbn [rets0]
      | |- rets0 _ Stop => exact Logic.I
      | |- rets0 _ (if false then _ else _) => cbv iota
      | |- rets0 _ (if ?b then _ else _) => destruct b
      | |- rets0 _ (match ?b with Some _ => _ | None => _ end) => destruct b
      | |- rets0 _ (bind (test_and_set_dram_region_lock _ _) _) => apply rets0_lock
      | |- rets0 _ (bind ?p _) =>
          lazymatch p with
          | (if _ then _ else _) => fail
          | for_exit _ _ _ => fail
          | dma_stripes _ _ _ _ _ => fail
          | accept_metadata_pages _ _ _ _ _ => fail
          | _ => apply rets0_seq; intros ?
          end
      end ].
Ltac r0_seqs := r0_tac; repeat (apply rets0_seq; intros ?; r0_tac).
Ltac n3 := lazymatch goal with |- rets0 _ _ => idtac | _ =>
  unfold not3, monitor_ok, monitor_invalid_value, monitor_invalid_state,
    monitor_access_denied, monitor_unsupported in *;
  repeat match goal with |- context [if ?b then _ else _] => destruct b end;
  try discriminate; try assumption end.

Lemma lock_meta0 G a : rets0 (fun x => not3 (fst x)) (lock_metadata_region_for G a).
Proof. unfold lock_metadata_region_for. r0_tac; cbn [fst]; n3. Qed.
Lemma assign_pages0 G a n o t f : rets0 not3 (assign_metadata_pages G a n o t f).
Proof.
  unfold assign_metadata_pages. destruct (_ <? _); [cbn; n3|].
  apply rets0_seq; intros pi.
  apply (rets0_bind (fun x => match x with Some e => not3 e | None => True end)).
  - apply rets0_for_exit; [exact Logic.I|]. intros i. r0_tac; try exact Logic.I. n3.
  - intros [e|] H; [exact H|]. r0_tac; n3.
Qed.
Lemma lock_enclave0 G a : rets0 not3 (lock_enclave G a).
Proof.
  unfold lock_enclave. destruct (_ || _); [cbn; n3|].
  apply (rets0_bind (fun x => not3 (fst x))); [apply lock_meta0|]. intros [v r] H. cbn [fst] in H.
  destruct (negb _); [exact H|].
  apply rets0_seq; intros p. apply rets0_seq; intros w.
  apply (rets0_bind not3).
  - destruct (negb _); [cbn; n3|]. cbn. n3.
  - intros x X. r0_tac. exact X.
Qed.
Lemma dma_stripes0 G n : forall a e b, rets0 (fun x => x <> None) (dma_stripes n G a e b).
Proof.
  induction n as [|n IH]; intros a e b; cbn [dma_stripes]; destruct (a <? e); try exact Logic.I;
    try (cbn; discriminate).
  cbv zeta. apply (rets0_bind (fun t => t = false)).
  - destruct (negb _); [apply rets0_tas|reflexivity].
  - intros t ->. apply rets0_seq; intros o. apply rets0_seq; intros _. apply IH.
Qed.

Lemma call0 G k : match k with CRegionState _ | CRegionOwner _ => True | _ => rets0 not3 (call_prog G k) end.
Proof.
  destruct k; cbn [call_prog]; try exact Logic.I.
  - unfold block_dram_region. r0_seqs; n3.
  - unfold dram_region_check_ownership. r0_tac; n3.
  - unfold set_dma_range. do 2 (destruct (negb _); [cbn; n3|]). apply rets0_lock. cbv zeta.
    apply (rets0_bind _ _ _ _ (dma_stripes0 _ _ _ _ _)). intros [x|] X; [|congruence]. r0_seqs; n3.
  - unfold create_metadata_region. r0_seqs; n3.
  - unfold assign_dram_region. r0_tac; n3.
    apply (rets0_bind not3); [r0_seqs; n3|]. intros x X. r0_seqs. exact X.
  - unfold free_dram_region. r0_tac; n3.
    apply (rets0_bind not3); [|intros x X; r0_seqs; exact X].
    r0_tac; n3.
  - unfold flush_cached_dram_regions. r0_tac. discriminate.
  - unfold create_enclave. do 2 (destruct (_ : bool); [cbn; n3|]).
    apply (rets0_bind (fun x => not3 (fst x))); [apply lock_meta0|].
    intros [v r] H; cbn [fst] in H. destruct (negb _); [exact H|].
    apply rets0_seq; intros o. destruct (negb _); [r0_tac; n3|].
    apply (rets0_bind not3); [apply assign_pages0|]. intros x X. r0_seqs; n3.
  - unfold load_page_table. r0_seqs; n3.
  - unfold load_page. r0_seqs; n3.
  - unfold load_thread. apply (rets0_bind not3); [apply lock_enclave0|]. intros x X.
    destruct (negb _); [exact X|].
    apply (rets0_bind (fun x => not3 (fst x))); [apply lock_meta0|].
    intros [v r] H; cbn [fst] in H. destruct (negb _); [r0_tac; exact H|].
    apply rets0_seq; intros o. apply (rets0_bind not3).
    { destruct (negb _); [cbn; n3|]. apply rets0_seq; intros y. destruct (_ =? _); [cbn; n3|].
      apply assign_pages0. }
    intros y Y. destruct (negb _); r0_seqs; n3.
  - unfold assign_thread. apply (rets0_bind not3); [apply lock_enclave0|]. intros x X.
    destruct (negb _); [exact X|].
    apply (rets0_bind (fun x => not3 (fst x))); [apply lock_meta0|].
    intros [v r] H; cbn [fst] in H. destruct (negb _); [r0_tac; exact H|].
    apply rets0_seq; intros o. apply (rets0_bind not3).
    { destruct (negb _); [apply assign_pages0|cbn; n3]. }
    intros y Y. destruct (negb _); r0_seqs; n3.
  - unfold init_enclave. r0_seqs; n3.
  - unfold enter_enclave. r0_seqs; n3.
  - unfold delete_enclave. r0_tac; n3. apply (rets0_bind (fun x => x = None)).
    + apply rets0_for_exit; [reflexivity|]. intros i. r0_tac; reflexivity.
    + intros x ->. r0_seqs; n3.
  - unfold copy_debug_enclave_page. r0_seqs; n3.
  - unfold accept_thread. r0_tac; n3.
    apply (rets0_bind not3); [apply assign_pages0|]. intros x X. r0_seqs; n3.
  - unfold create_thread. r0_seqs; n3.
  - unfold delete_thread. r0_seqs; n3.
  - unfold exit_enclave. r0_tac; discriminate.
Qed.

(** ** C93 *)
(** The identification registers are stubs that report a machine without DRAM, caches and
    cores: on every state and for every end of the monitor's image, boot never ends. *)
Theorem C93_boot_refuted : forall c s top,
  snd (run c (on_riscv (boot_from riscv_platform top)) s) = None.
Proof. intros c s top. reflexivity. Qed.

(** Even if it had: a lock is never found taken, whatever the lock words hold, so no call is
    ever refused because of another one. *)
Theorem C93_locks_refuted : forall G c k s s',
  (forall r, k <> CRegionState r) -> (forall r, k <> CRegionOwner r) ->
  run c (on_riscv (call_prog G k)) s <> (s', Some 3).
Proof.
  intros G c k s s' N1 N2 H. generalize (call0 G k).
  assert (X : forall Q : Prop, (rets0 not3 (call_prog G k) -> Q) ->
     match k with CRegionState _ | CRegionOwner _ => True | _ => rets0 not3 (call_prog G k) end -> Q)
    by (intros Q F; destruct k; auto; exfalso; first [eapply N1; reflexivity|eapply N2; reflexivity]).
  apply X. intros R. exact (rets0_run not3 c _ s s' 3 R H eq_refl).
Qed.

(** No program of the monitor changes what a core or a device may access, or flushes a TLB:
    the boot protects nothing and block revokes nothing. *)
Theorem C93_registers_refuted : forall A (p : prog A) c s s' r pb rb,
  run c (on_riscv p) s = (s', r) ->
  (forall c' a, cpu_may_access pb rb (s_cores s' c') a <-> cpu_may_access pb rb (s_cores s c') a) /\
  (forall a, dma_may_access s' a <-> dma_may_access s a) /\
  (forall c', r_tlb_flushes (s_cores s' c') = r_tlb_flushes (s_cores s c')).
Proof.
  intros A p c s s' r pb rb H.
  assert (E : s_cores s' = s_cores s /\ s_dmar_base s' = s_dmar_base s /\ s_dmar_mask s' = s_dmar_mask s).
  { revert s H. induction p as [a|o k IH|]; intros s H; cbn [on_riscv run] in H.
    - inversion H; auto.
    - destruct o; cbn [riscv_op op1 bind run step] in H; apply IH in H; exact H.
    - inversion H; auto. }
  destruct E as (E1 & E2 & E3). rewrite E1. unfold dma_may_access. rewrite E2, E3. tauto.
Qed.

(** All cores believe to be core 0. *)
Theorem C93_core_refuted : forall A (p : prog A) c c' s,
  run c (on_riscv p) s = run c' (on_riscv p) s.
Proof.
  intros A p c c'. induction p as [a|o k IH|]; intros s; cbn [on_riscv]; [reflexivity| |reflexivity].
  destruct o; cbn [riscv_op op1 bind run step]; apply IH.
Qed.

(** For instance, in the state after boot of the example machine (with a working boot): two
    successful blocks of region 3 that is already locked by somebody; both cores may still
    access it. *)
Example C93_example :
  let s := set_mem ex_s0 (st 8 (s_mem ex_s0) (64 + 40 * 3) 1) in
  snd (do_call ex_G 0 (CBlock 3) s) = Some 3 /\
  let s1 := fst (run 0 (on_riscv (call_prog ex_G (CBlock 3))) s) in
  snd (run 0 (on_riscv (call_prog ex_G (CBlock 3))) s) = Some 0 /\
  owner_of ex_G s1 3 = 1 /\ region_of 6 4 (3 * 262144) = 3 /\
  cpu_may_access 6 4 (s_cores s1 0) (3 * 262144).
Proof.
  repeat split; try (vm_compute; reflexivity). vm_compute. discriminate.
Qed.

Definition P_Riscv_theorems :=
  (C93_boot_refuted, C93_locks_refuted, C93_registers_refuted, C93_core_refuted, C93_example).
Print Assumptions P_Riscv_theorems.
