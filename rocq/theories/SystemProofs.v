(** * Structural facts about all calls: values returned, operations used. *)
From Coq Require Import NArith ZArith Lia Bool List.
From Verif Require Import Word Machine ModelBare ModelHash ModelInl ModelRegions
  ModelMetadata ModelEnclave ModelBoot ModelApi Lib Trace SpecGeometry SpecMonitor SpecHistory SpecSystem.
Import ListNotations.
Open Scope N_scope.

(** ** Values a program may return, whatever its operations yield. *)
Fixpoint rets {A} (Q : A -> Prop) (p : prog A) : Prop :=
  match p with
  | Ret a => Q a
  | Do o k => forall v, rets Q (k v)
  | Stop => True
  end.
Lemma rets_run {A} (Q : A -> Prop) c (p : prog A) : forall s s' a,
  rets Q p -> run c p s = (s', Some a) -> Q a.
Proof.
  induction p as [a|o k IH|]; intros s s' x R H; cbn in *.
  - inversion H; subst; auto.
  - destruct (step c o s) as [s1 v]. eapply IH; eauto.
  - discriminate.
Qed.
Lemma rets_true {A} (p : prog A) : rets (fun _ => True) p.
Proof. induction p; cbn; auto. Qed.
Lemma rets_bind {A B} (P : A -> Prop) (Q : B -> Prop) (p : prog A) (f : A -> prog B) :
  rets P p -> (forall a, P a -> rets Q (f a)) -> rets Q (bind p f).
Proof. intros H F. induction p as [a|o k IH|]; cbn in *; auto. Qed.
Lemma rets_seq {A B} (Q : B -> Prop) (p : prog A) (f : A -> prog B) :
  (forall a, rets Q (f a)) -> rets Q (bind p f).
Proof. intros F. apply (rets_bind (fun _ => True)); [apply rets_true|auto]. Qed.
Lemma rets_for_exit {R} (Q : option R -> Prop) n : forall i body, Q None ->
  (forall i, rets Q (body i)) -> rets Q (for_exit n i body).
Proof.
  induction n as [|n IH]; intros i body Z B; cbn [for_exit]; [exact Z|].
  apply (rets_bind Q); [apply B|]. intros [x|] X; [exact X|]. apply IH; auto.
Qed.

Ltac rets_tac :=
  repeat first
    [ progress cbv zeta
    | match goal with
      | |- rets _ (Ret _) => cbn [rets]
      | |- rets _ Stop => exact Logic.I
      | |- rets _ (if ?b then _ else _) => destruct b
      | |- rets _ (match ?b with Some _ => _ | None => _ end) => destruct b
      | |- rets _ (bind ?p _) =>
          lazymatch p with
          | (if _ then _ else _) => fail
          | accept_metadata_pages _ _ _ _ _ => fail
          | _ => apply rets_seq; intros ?
          end
      end ].
Ltac rets_seqs := rets_tac; repeat (apply rets_seq; intros ?; rets_tac).
Definition small (v : N) : Prop := v <= 3.
Ltac codes := unfold small, monitor_ok, monitor_invalid_value, monitor_invalid_state,
  monitor_concurrent_call, monitor_access_denied, monitor_unsupported in *;
  repeat match goal with |- (if ?b then _ else _) <= _ => destruct b end; try lia.

Lemma lock_meta_rets G a : rets (fun x => small (fst x)) (lock_metadata_region_for G a).
Proof. unfold lock_metadata_region_for. rets_tac; cbn [fst]; codes. Qed.
Lemma assign_pages_rets G a n o t f : rets small (assign_metadata_pages G a n o t f).
Proof.
  unfold assign_metadata_pages. destruct (_ <? _); [cbn; codes|].
  apply rets_seq; intros pi.
  apply (rets_bind (fun x => match x with Some e => small e | None => True end)).
  - apply rets_for_exit; [exact Logic.I|]. intros i. rets_tac; try exact Logic.I. codes.
  - intros [e|] H; [exact H|]. rets_tac; codes.
Qed.
Lemma lock_enclave_rets G a : rets small (lock_enclave G a).
Proof.
  unfold lock_enclave. destruct (_ || _); [cbn; codes|].
  apply (rets_bind (fun x => small (fst x))); [apply lock_meta_rets|]. intros [v r] H. cbn [fst] in H.
  destruct (negb _); [exact H|].
  apply rets_seq; intros p. apply rets_seq; intros w.
  apply (rets_bind small).
  - rets_tac; codes.
  - intros x X. rets_tac. exact X.
Qed.

Ltac res := first [assumption | codes].
Lemma call_rets G k : rets (documented_result k) (call_prog G k).
Proof.
  destruct k; cbn [call_prog]; unfold documented_result.
  - unfold block_dram_region. rets_seqs; codes.
  - unfold dram_region_check_ownership. rets_tac; match goal with |- context [if ?b then _ else _] => destruct b | _ => idtac end; codes.
  - unfold dram_region_state. rets_tac;
      unfold dram_region_invalid, dram_region_locked, dram_region_owned, dram_region_blocked, dram_region_free; try lia;
      repeat match goal with |- context [if ?b then _ else _] => destruct b end; lia.
  - apply rets_true.
  - unfold set_dma_range. rets_seqs; codes.
  - unfold create_metadata_region. rets_seqs; codes.
  - unfold assign_dram_region. rets_tac; codes.
    apply (rets_bind small); [rets_seqs; codes|]. intros x X. rets_seqs. exact X.
  - unfold free_dram_region. rets_tac; codes.
    apply (rets_bind small); [rets_seqs; codes|]. intros x X. rets_seqs. exact X.
  - unfold flush_cached_dram_regions. rets_tac. reflexivity.
  - unfold create_enclave. do 2 (destruct (_ : bool); [cbn; codes|]).
    apply (rets_bind (fun x => small (fst x))); [apply lock_meta_rets|].
    intros [v r] H; cbn [fst] in H. destruct (negb _); [exact H|].
    apply rets_seq; intros o. destruct (negb _); [rets_tac; codes|].
    apply (rets_bind small); [apply assign_pages_rets|]. intros x X. rets_seqs; res.
  - unfold load_page_table. rets_seqs; codes.
  - unfold load_page. rets_seqs; codes.
  - unfold load_thread. apply (rets_bind small); [apply lock_enclave_rets|]. intros x X.
    destruct (negb _); [exact X|].
    apply (rets_bind (fun x => small (fst x))); [apply lock_meta_rets|].
    intros [v r] H; cbn [fst] in H. destruct (negb _); [rets_tac; exact H|].
    apply rets_seq; intros o. apply (rets_bind small).
    { destruct (negb _); [cbn; codes|]. apply rets_seq; intros y. destruct (_ =? _); [cbn; codes|].
      apply assign_pages_rets. }
    intros y Y. destruct (negb _); rets_seqs; res.
  - unfold assign_thread. apply (rets_bind small); [apply lock_enclave_rets|]. intros x X.
    destruct (negb _); [exact X|].
    apply (rets_bind (fun x => small (fst x))); [apply lock_meta_rets|].
    intros [v r] H; cbn [fst] in H. destruct (negb _); [rets_tac; exact H|].
    apply rets_seq; intros o. apply (rets_bind small).
    { destruct (negb _); [apply assign_pages_rets|cbn; codes]. }
    intros y Y. destruct (negb _); rets_seqs; res.
  - unfold init_enclave. rets_seqs; codes.
  - unfold enter_enclave. rets_seqs; codes.
  - unfold delete_enclave. rets_seqs; codes.
  - unfold copy_debug_enclave_page. rets_seqs; codes;
      repeat match goal with |- context [if ?b then _ else _] => destruct b end; lia.
  - unfold accept_thread. rets_tac; codes.
    apply (rets_bind small); [apply assign_pages_rets|]. intros x X. rets_seqs; res.
  - unfold create_thread. rets_seqs; codes.
  - unfold delete_thread. rets_seqs; codes.
  - unfold exit_enclave. rets_tac; reflexivity.
Qed.

(** ** Operations used *)
Ltac uses_step :=
  first
    [ progress cbv zeta
    | exact Logic.I
    | match goal with
      | |- uses _ (Ret _) => exact Logic.I
      | |- uses _ Stop => exact Logic.I
      | |- uses _ (op1 _) => apply uses_op; cbn [operates]; eauto
      | |- uses _ (load64 _) => apply uses_op; exact Logic.I
      | |- uses _ (store64 _ _) => apply uses_op; exact Logic.I
      | |- uses _ (load32 _) => apply uses_op; exact Logic.I
      | |- uses _ (store32 _ _) => apply uses_op; exact Logic.I
      | |- uses _ (if ?b then _ else _) => destruct b
      | |- uses _ (match ?b with Some _ => _ | None => _ end) => destruct b
      | |- uses _ (for_n _ _ _) => apply uses_for_n; intros ?
      | |- uses _ (for_exit _ _ _) => apply uses_for_exit; intros ?
      | |- uses _ (let '(_, _) := ?x in _) => destruct x
      | |- uses _ (bind _ _) => apply uses_bind; [|intros ?]
      end ].
Ltac uses_all := repeat uses_step.
(** Memory operations only. *)
Definition memory_op (o : op) : Prop :=
  match o with
  | OLd _ _ | OSt _ _ _ | OTas _ | OClr _ | OFadd _ _ | OCore => True
  | _ => False
  end.
Lemma uses_weaken {A} (P Q : op -> Prop) (p : prog A) :
  (forall o, P o -> Q o) -> uses P p -> uses Q p.
Proof.
  intros W U. induction p as [a|o k IH|]; cbn in *; auto. destruct U as [U1 U2]. split; auto.
Qed.
Lemma memory_operates k o : memory_op o -> operates k o.
Proof. destruct o; cbn; auto; contradiction. Qed.
Lemma mem_uses {A} k (p : prog A) : uses memory_op p -> uses (operates k) p.
Proof. apply uses_weaken. apply memory_operates. Qed.
Ltac mu := repeat first
    [ progress cbv zeta
    | match goal with
      | |- uses _ (Ret _) => exact Logic.I
      | |- uses _ Stop => exact Logic.I
      | |- uses _ (op1 _) => apply uses_op; exact Logic.I
      | |- uses _ (load64 _) => apply uses_op; exact Logic.I
      | |- uses _ (store64 _ _) => apply uses_op; exact Logic.I
      | |- uses _ (load32 _) => apply uses_op; exact Logic.I
      | |- uses _ (store32 _ _) => apply uses_op; exact Logic.I
      | |- uses _ (if ?b then _ else _) => destruct b
      | |- uses _ (match ?b with Some _ => _ | None => _ end) => destruct b
      | |- uses _ (for_n _ _ _) => apply uses_for_n; intros ?
      | |- uses _ (for_exit _ _ _) => apply uses_for_exit; intros ?
      | |- uses _ (bind _ _) => apply uses_bind; [|intros ?]
      end
    | solve [auto 1 with mem nocore] | assumption ].
Create HintDb mem discriminated.
Lemma m_tas G r : uses memory_op (test_and_set_dram_region_lock G r).
Proof. unfold test_and_set_dram_region_lock. mu. Qed.
Lemma m_clr G r : uses memory_op (clear_dram_region_lock G r).
Proof. unfold clear_dram_region_lock. mu. Qed.
Lemma m_owner_rd G r : uses memory_op (read_dram_region_owner G r).
Proof. unfold read_dram_region_owner. mu. Qed.
Lemma m_core G : uses memory_op (current_core_info G).
Proof. unfold current_core_info. mu. Qed.
#[local] Hint Resolve m_tas m_clr m_owner_rd m_core : mem.
Lemma m_cur G : uses memory_op (current_enclave G).
Proof. unfold current_enclave. mu. Qed.
Lemma m_setbit a b v : uses memory_op (set_bitmap_bit a b v).
Proof. unfold set_bitmap_bit. mu. Qed.
Lemma m_rdbit a b : uses memory_op (read_bitmap_bit a b).
Proof. unfold read_bitmap_bit. mu. Qed.
#[local] Hint Resolve m_cur m_setbit m_rdbit : mem.
Lemma m_esetbit G a b v : uses memory_op (set_enclave_region_bitmap_bit G a b v).
Proof. unfold set_enclave_region_bitmap_bit. mu. Qed.
Lemma m_erdbit G a b : uses memory_op (read_enclave_region_bitmap_bit G a b).
Proof. unfold read_enclave_region_bitmap_bit. mu. Qed.
Lemma m_valid G id : uses memory_op (is_valid_enclave_id G id).
Proof. unfold is_valid_enclave_id. mu. Qed.
#[local] Hint Resolve m_esetbit m_erdbit m_valid : mem.
Lemma m_bad G id : uses memory_op (bad_enclave_id G id).
Proof. unfold bad_enclave_id. mu. Qed.
Lemma m_bzero a n : uses memory_op (bzero64 a n).
Proof. unfold bzero64. mu. Qed.
Lemma m_bcopy a b n : uses memory_op (bcopy64 a b n).
Proof. unfold bcopy64. mu. Qed.
#[local] Hint Resolve m_bad m_bzero m_bcopy : mem.
Lemma m_stripes G st rs n : forall a, uses memory_op (bzero_stripes n G st rs a).
Proof. induction n as [|n IH]; intros a; cbn [bzero_stripes]; mu; apply IH. Qed.
Lemma m_wipe G r : uses memory_op (bzero_dram_region G r).
Proof. unfold bzero_dram_region. apply m_stripes. Qed.
Lemma m_dma G e n : forall a b, uses memory_op (dma_stripes n G a e b).
Proof. induction n as [|n IH]; intros a b; cbn [dma_stripes]; mu; apply IH. Qed.
Lemma m_va v id : uses memory_op (is_enclave_virtual_address v id).
Proof. unfold is_enclave_virtual_address. mu. Qed.
Lemma m_tp G e r n : forall a, uses memory_op (thread_pages n G a e r).
Proof. induction n as [|n IH]; intros a; cbn [thread_pages]; mu; apply IH. Qed.
#[local] Hint Resolve m_wipe m_dma m_va m_tp : mem.
Lemma m_sched w b i : uses memory_op (sha_schedule w b i).
Proof. unfold sha_schedule. mu. Qed.
#[local] Hint Resolve m_sched : mem.
Lemma m_rounds w b n : forall i v, uses memory_op (sha_rounds n w b i v).
Proof. induction n as [|n IH]; intros i v; cbn [sha_rounds]; mu; apply IH. Qed.
Lemma m_hadd p j x : uses memory_op (hash_add p j x).
Proof. unfold hash_add. mu. Qed.
#[local] Hint Resolve m_rounds m_hadd : mem.
Lemma m_extend a b : uses memory_op (extend_hash a b).
Proof. unfold extend_hash. mu. Qed.
#[local] Hint Resolve m_extend : mem.
Local Opaque extend_hash.
Lemma m_inith a : uses memory_op (init_hash a).
Proof. unfold init_hash. mu. Qed.
Lemma m_finh a : uses memory_op (finalize_hash a).
Proof. unfold finalize_hash. mu. Qed.
#[local] Hint Resolve m_inith m_finh : mem.
Local Opaque init_hash finalize_hash.

Lemma m_extblock a : uses memory_op (extend_enclave_block a).
Proof. exact (m_extend _ _). Qed.
#[local] Hint Resolve m_extblock : mem.
Lemma m_finenc a : uses memory_op (finalize_enclave_hash a).
Proof.
  unfold finalize_enclave_hash. cbv zeta.
  apply uses_bind; [apply uses_op; exact Logic.I|intros ?].
  apply uses_bind; [exact (m_extblock _)|intros ?].
  exact (m_finh _).
Qed.
Lemma m_thr a b c d e : uses memory_op (extend_enclave_hash_with_thread a b c d e).
Proof.
  unfold extend_enclave_hash_with_thread. cbv zeta.
  do 5 (apply uses_bind; [apply uses_op; exact Logic.I|intros ?]).
  apply uses_bind; [exact (m_extblock _)|intros ?]. mu.
Qed.
#[local] Hint Resolve m_finenc m_thr : mem.
Lemma m_initinfo a b c d e : uses memory_op (init_enclave_info a b c d e).
Proof. unfold init_enclave_info, init_enclave_hash. mu. Qed.
Lemma m_lockmeta G a : uses memory_op (lock_metadata_region_for G a).
Proof. unfold lock_metadata_region_for. mu. Qed.
Lemma m_unlock a : uses memory_op (unlock_enclave a).
Proof. unfold unlock_enclave. mu. Qed.
Lemma m_stale G a : uses memory_op (stale_core G a).
Proof. unfold stale_core. mu. Qed.
Lemma m_unlockr G a b n : uses memory_op (unlock_enclave_regions G a b n).
Proof. unfold unlock_enclave_regions. mu. Qed.
Lemma m_initmeta G r : uses memory_op (init_metadata_region G r).
Proof. unfold init_metadata_region. mu. Qed.
#[local] Hint Resolve m_initinfo m_lockmeta m_unlock m_stale m_unlockr m_initmeta : mem.

(** The same with undefined behaviour. *)
Definition memory_ub (o : op) : Prop := memory_op o \/ exists n, o = OUb n.
Lemma memory_memory_ub {A} (p : prog A) : uses memory_op p -> uses memory_ub p.
Proof. apply uses_weaken. intros o. left. auto. Qed.

#[local] Hint Resolve memory_memory_ub : mem.
Lemma mb_page G a : uses memory_ub (dram_region_page_for G a).
Proof.
  unfold dram_region_page_for, ub_if. apply uses_bind; [|intros ?; exact Logic.I].
  destruct (_ <=? _); [|exact Logic.I]. apply uses_op. right. eauto.
Qed.
Lemma mb_info G a : uses memory_ub (metadata_page_info_for G a).
Proof.
  unfold metadata_page_info_for. apply uses_bind; [apply mb_page|intros ?; exact Logic.I].
Qed.
Lemma mb_assign G a n o t f : uses memory_ub (assign_metadata_pages G a n o t f).
Proof.
  unfold assign_metadata_pages. destruct (_ <? _); [exact Logic.I|].
  apply uses_bind; [apply mb_info|intros p]. apply uses_bind.
  - apply uses_for_exit. intros i. apply memory_memory_ub. mu.
  - intros [e|]; apply memory_memory_ub; mu.
Qed.
Lemma mb_lock G a : uses memory_ub (lock_enclave G a).
Proof.
  unfold lock_enclave. destruct (_ || _); [exact Logic.I|].
  apply uses_bind; [apply memory_memory_ub; apply m_lockmeta|]. intros [v r].
  destruct (negb _); [exact Logic.I|]. apply uses_bind; [apply mb_info|].
  intros p. apply memory_memory_ub. mu.
Qed.
Lemma mub_uses {A} k (p : prog A) :
  (forall n, operates k (OUb n)) -> uses memory_ub p -> uses (operates k) p.
Proof.
  intros U. apply uses_weaken. intros o [M|[n ->]]; [apply memory_operates; exact M|apply U].
Qed.
Ltac mub := repeat first
    [ progress cbv zeta
    | match goal with
      | |- uses _ (Ret _) => exact Logic.I
      | |- uses _ (assign_metadata_pages _ _ _ _ _ _) => apply mb_assign
      | |- uses _ (reserve_metadata_pages _ _ _ _ _) => unfold reserve_metadata_pages
      | |- uses _ (accept_metadata_pages _ _ _ _ _) => unfold accept_metadata_pages
      | |- uses _ (lock_enclave _ _) => apply mb_lock
      | |- uses _ (metadata_page_info_for _ _) => apply mb_info
      | |- uses _ (extend_enclave_hash_with_thread _ _ _ _ _) =>
          apply memory_memory_ub; apply m_thr
      | |- uses _ (init_enclave_info _ _ _ _ _) => apply memory_memory_ub; apply m_initinfo
      | |- uses _ (lock_metadata_region_for _ _) => apply memory_memory_ub; apply m_lockmeta
      | |- uses _ (clear_dram_region_lock _ _) => apply memory_memory_ub; apply m_clr
      | |- uses _ (test_and_set_dram_region_lock _ _) => apply memory_memory_ub; apply m_tas
      | |- uses _ (unlock_enclave _) => apply memory_memory_ub; apply m_unlock
      | |- uses _ (current_enclave _) => apply memory_memory_ub; apply m_cur
      | |- uses _ (op1 _) => apply uses_op; left; exact Logic.I
      | |- uses _ (load64 _) => apply uses_op; left; exact Logic.I
      | |- uses _ (store64 _ _) => apply uses_op; left; exact Logic.I
      | |- uses _ (let (_, _) := ?x in _) => destruct x
      | |- uses _ (if ?b then _ else _) => destruct b
      | |- uses _ (match ?b with Some _ => _ | None => _ end) => destruct b
      | |- uses _ (bind _ _) => apply uses_bind; [|intros ?]
      end ].
Ltac ou := apply mem_uses; solve [auto 1 with mem nocore].
Ltac mo := repeat first
    [ progress cbv zeta
    | match goal with
      | |- uses _ (Ret _) => exact Logic.I
      | |- uses _ Stop => exact Logic.I
      | |- uses _ (op1 _) => apply uses_op; cbn [operates]; eauto
      | |- uses _ (load64 _) => apply uses_op; exact Logic.I
      | |- uses _ (store64 _ _) => apply uses_op; exact Logic.I
      | |- uses _ (if ?b then _ else _) => destruct b
      | |- uses _ (match ?b with Some _ => _ | None => _ end) => destruct b
      | |- uses _ (for_n _ _ _) => apply uses_for_n; intros ?
      | |- uses _ (for_exit _ _ _) => apply uses_for_exit; intros ?
      | |- uses _ (bind _ _) => apply uses_bind; [|intros ?]
      end
    | ou ].
(** Every call operates only the hardware it may. *)
Lemma call_uses G k : uses (operates k) (call_prog G k).
Proof.
  destruct k; cbn [call_prog].
  - unfold block_dram_region, dma_check. mo.
  - unfold dram_region_check_ownership. mo.
  - unfold dram_region_state. mo.
  - unfold dram_region_owner. mo.
  - unfold set_dma_range. mo.
  - unfold create_metadata_region. mo.
  - unfold assign_dram_region. mo.
  - unfold free_dram_region. mo.
  - unfold flush_cached_dram_regions, dram_region_tlb_flush. mo.
  - apply mub_uses; [exact (fun _ => Logic.I)|]. unfold create_enclave. mub.
  - apply mem_uses. unfold load_page_table. mu.
  - apply mem_uses. unfold load_page. mu.
  - apply mub_uses; [exact (fun _ => Logic.I)|]. unfold load_thread. mub.
  - apply mub_uses; [exact (fun _ => Logic.I)|]. unfold assign_thread. mub.
  - apply mem_uses. unfold init_enclave. 
    repeat first [ progress cbv zeta
      | lazymatch goal with
        | |- uses _ (finalize_enclave_hash _) => apply m_finenc
        | |- uses _ (bind _ _) => apply uses_bind; [|intros ?]
        | |- uses _ (if ?b then _ else _) => destruct b
        end | mu ].
  - apply mem_uses. unfold enter_enclave. mu.
  - apply mem_uses. unfold delete_enclave. mu.
  - apply mem_uses. unfold copy_debug_enclave_page. mu.
  - apply mub_uses; [exact (fun _ => Logic.I)|]. unfold accept_thread. mub. apply memory_memory_ub; apply m_owner_rd.
  - apply mem_uses. unfold create_thread. mu.
  - apply mem_uses. unfold delete_thread. mu.
  - apply mem_uses. unfold exit_enclave. mu.
Qed.

(** ** What the operations a call may use do to the hardware *)
Lemma hardware_refl c k s : hardware_of c k s s.
Proof. split; auto. Qed.
Lemma hardware_trans c k s1 s2 s3 :
  hardware_of c k s1 s2 -> hardware_of c k s2 s3 -> hardware_of c k s1 s3.
Proof.
  intros [A1 [A2 A2'] A3 A4 A5 A6 A7 A8] [B1 [B2 B2'] B3 B4 B5 B6 B7 B8]. split.
  - intros i I. rewrite B1, A1 by auto. reflexivity.
  - split; congruence.
  - congruence.
  - congruence.
  - intros N. rewrite B5, A5 by auto. reflexivity.
  - intros N1 N2. rewrite B6, A6 by auto. reflexivity.
  - intros N. rewrite B7, A7 by auto. reflexivity.
  - intros N. destruct (A8 N) as (X1 & X2 & X3 & X4), (B8 N) as (Y1 & Y2 & Y3 & Y4).
    repeat split; congruence.
Qed.
Lemma step_hardware c k o s s' v : operates k o -> step c o s = (s', v) -> hardware_of c k s s'.
Proof.
  intros O H. destruct o; cbn in O, H; inversion H; subst; clear H; try contradiction;
    try (apply hardware_refl; fail);
    (split; cbn [set_mem set_creg s_cores s_words s_dmar_base s_dmar_mask s_dma_start s_dma_end];
     try reflexivity; try (repeat split; reflexivity));
    try (intros i NE; destruct (N.eqb_spec i c); [contradiction|reflexivity]);
    try (rewrite N.eqb_refl; cbn; repeat split; reflexivity);
    try (intros ?; rewrite N.eqb_refl; reflexivity);
    try (intros ? ?; rewrite N.eqb_refl; reflexivity).
  - intros X. contradiction.
  - intros X Y. destruct O as [[r ->]|(r & e & ->)]; [destruct (X r)|destruct (Y r e)]; reflexivity.
  - intros X. destruct O as [r ->]. destruct (X r). reflexivity.
  - intros X. destruct O as (b & m & ->). destruct (X b m). reflexivity.
  - intros X. destruct O as (b & m & ->). destruct (X b m). reflexivity.
  - intros X. destruct O as (b & m & ->). destruct (X b m). reflexivity.
  - intros X. destruct O as (b & m & ->). destruct (X b m). reflexivity.
Qed.
Lemma run_hardware {A} c k (p : prog A) : forall s s' r, uses (operates k) p ->
  run c p s = (s', r) -> hardware_of c k s s'.
Proof.
  induction p as [a|o f IH|]; intros s s' r U H; cbn in *.
  - inversion H. apply hardware_refl.
  - destruct U as [U1 U2]. destruct (step c o s) as [s1 v] eqn:E.
    eapply hardware_trans; [eapply step_hardware; eauto|eapply IH; eauto].
  - inversion H. apply hardware_refl.
Qed.
Lemma step_ub c k o s s' v : looks_up_page k = false -> operates k o ->
  step c o s = (s', v) -> s_ub s' = s_ub s.
Proof.
  intros L O H. destruct o; cbn in H; inversion H; subst; try reflexivity.
  cbn in O. destruct k; cbn in L; try contradiction; discriminate.
Qed.
Lemma run_ub {A} c k (p : prog A) : looks_up_page k = false ->
  forall s s' r, uses (operates k) p -> run c p s = (s', r) -> s_ub s' = s_ub s.
Proof.
  intros L. induction p as [a|o f IH|]; intros s s' r U H; cbn in *.
  - inversion H. reflexivity.
  - destruct U as [U1 U2]. destruct (step c o s) as [s1 v] eqn:E.
    rewrite (IH v s1 s' r (U2 v) H). eapply step_ub; eauto.
  - inversion H. reflexivity.
Qed.
