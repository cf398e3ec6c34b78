(** * Proofs about the software page walk (properties C08, C09). *)
From Coq Require Import NArith ZArith Lia Bool List.
From Coq Require Import ZifyBool ZifyNat ZifyN.
From Verif Require Import Word Machine ModelBare ModelInl Lib BareProofs
  SpecPageTable Trace.
Import ListNotations.
Open Scope N_scope.
Ltac Zify.zify_post_hook ::= Z.div_mod_to_equations.

(** Geometries the monitor's walk is written for. *)
Definition geometry_ok (pa : pt_arch) : Prop :=
  (1 <= pa_levels pa)%nat /\
  (forall l, pa_shift pa l <= 30 /\ pa_entry_shift pa l <= 30) /\
  bits_below (pa_shift pa) (pa_levels pa) < 64.

Lemma test_arch_ok : geometry_ok test_arch.
Proof.
  split; [cbn; lia|]. split; [|reflexivity].
  intros [|[|l]]; cbn; lia.
Qed.
Lemma riscv_arch_ok : geometry_ok riscv_arch.
Proof.
  split; [cbn; lia|]. split; [|reflexivity]. intros l; cbn; lia.
Qed.

Lemma bits_below_mono sh l : bits_below sh l <= bits_below sh (S l).
Proof. cbn. lia. Qed.
Lemma bits_below_le sh l l' : (l <= l')%nat -> bits_below sh l <= bits_below sh l'.
Proof.
  intros H. induction H; [reflexivity|]. pose proof (bits_below_mono sh m). lia.
Qed.

Lemma translated_bits_from_val pa left : forall level sum,
  bits_below (pa_shift pa) (level + left) < W64 ->
  sum = bits_below (pa_shift pa) level ->
  translated_bits_from pa left level sum
  = bits_below (pa_shift pa) (level + left).
Proof.
  induction left as [|k IH]; intros level sum B E.
  - cbn. rewrite Nat.add_0_r. auto.
  - cbn [translated_bits_from].
    assert (L : bits_below (pa_shift pa) (S level) < W64).
    { eapply N.le_lt_trans; [|apply B]. apply bits_below_le. lia. }
    cbn in L. rewrite wadd_small by lia.
    rewrite IH.
    + f_equal. lia.
    + replace (S level + k)%nat with (level + S k)%nat by lia. auto.
    + cbn. lia.
Qed.

Lemma translated_bits_val pa : geometry_ok pa ->
  page_table_translated_bits pa = bits_below (pa_shift pa) (pa_levels pa).
Proof.
  intros [_ [_ B]]. unfold page_table_translated_bits.
  rewrite translated_bits_from_val; auto. cbn [Nat.add]. unfold W64. lia.
Qed.

Section Walk.
  Variable pa : pt_arch.
  Hypothesis OK : geometry_ok pa.
  Let sh := pa_shift pa.
  Let es := pa_entry_shift pa.

  Lemma walk_entry_addr l va table :
    (l < pa_levels pa)%nat -> va < W64 ->
    wadd table (wshl (N.land (wshr va (wsub (bits_below sh (S l)) (pa_shift pa l)))
                        (int_pred (int_shl 1 (pa_shift pa l))))
                     (pa_entry_shift pa l))
    = entry_of sh es l table va.
  Proof.
    intros L V. destruct OK as [_ [S B]]. destruct (S l) as [S1 S2].
    assert (BL : bits_below sh (Datatypes.S l) < 64).
    { eapply N.le_lt_trans; [|apply B]. apply bits_below_le. lia. }
    cbn [bits_below] in *. subst sh es.
    rewrite wsub_small by (unfold W64; lia).
    replace (bits_below (pa_shift pa) l + pa_shift pa l - pa_shift pa l)
      with (bits_below (pa_shift pa) l) by lia.
    rewrite wshr_small by lia. rewrite int_shl_one by lia.
    assert (P : 2 ^ pa_shift pa l <= 2 ^ 30) by (apply pow2_le; auto).
    change (2 ^ 30) with 1073741824 in P. pose proof (pow2_pos (pa_shift pa l)).
    rewrite int_pred_small by lia. rewrite land_mask.
    unfold entry_of, va_field.
    set (f := va / 2 ^ bits_below (pa_shift pa) l mod 2 ^ pa_shift pa l).
    assert (F : f < 2 ^ pa_shift pa l) by (apply N.mod_lt, pow2_nz).
    rewrite wshl_small; [reflexivity|lia|].
    assert (P2 : 2 ^ pa_entry_shift pa l <= 2 ^ 30) by (apply pow2_le; auto).
    change (2 ^ 30) with 1073741824 in P2.
    pose proof (pow2_pos (pa_entry_shift pa l)). unfold W64. nia.
  Qed.

  Lemma entry_valid_val m e : pte_is_valid (ld 8 m e) = entry_valid m e.
  Proof. apply pte_is_valid_val. Qed.
  Lemma entry_target_val m e : pte_target (ld 8 m e) = entry_target m e.
  Proof.
    rewrite pte_target_val by (apply ld8_bound). unfold entry_target.
    apply sub_mod_eq. discriminate.
  Qed.

  (** The entry found by walking down to [level] and the walk's result, for a
      walk that enters a table of level [l] >= [level]. *)
  Fixpoint entry_at (m : mem) (l : nat) (table va : N) (level : nat) : option N :=
    let e := entry_of sh es l table va in
    if Nat.eqb l level then Some e
    else if entry_valid m e then
           match l with
           | O => None
           | S k => entry_at m k (entry_target m e) va level
           end
         else None.

  Lemma walk_loop_run c s va level : va < W64 -> forall l table,
    (level <= l)%nat -> (l < pa_levels pa)%nat ->
    run c (walk_loop pa (S l) (bits_below sh (S l)) table va level) s
    = (s, Some (match entry_at (s_mem s) l table va level with
                | Some e => e | None => 0 end)).
  Proof.
    intros V l. induction l as [|l IH]; intros table Hl Hp.
    - cbn [walk_loop]. rewrite walk_entry_addr by auto.
      assert (level = O) by lia. subst. cbn. reflexivity.
    - remember (S l) as l1. cbn [walk_loop]. rewrite walk_entry_addr by auto.
      cbn [entry_at]. subst l1. cbn [entry_at].
      destruct (Nat.eqb_spec (S l) level) as [E|E]; [reflexivity|].
      unfold is_valid_page_table_entry. rewrite run_bind.
      rewrite run_bind, run_load64. cbn [run]. rewrite entry_valid_val.
      destruct (entry_valid (s_mem s) (entry_of sh es (S l) table va)).
      + unfold page_table_entry_target. rewrite run_bind, run_bind, run_load64.
        cbn [run]. rewrite entry_target_val.
        replace (wsub (bits_below sh (S (S l))) (pa_shift pa (S l)))
          with (bits_below sh (S l)).
        * apply IH; lia.
        * destruct OK as [_ [_ B]].
          assert (BL : bits_below sh (S (S l)) < 64).
          { eapply N.le_lt_trans; [|apply B]. apply bits_below_le. lia. }
          rewrite wsub_small; [cbn; unfold sh; lia|cbn; unfold sh; lia|].
          unfold W64. lia.
      + reflexivity.
  Qed.

  Lemma walk_to_entry_run c s ptb va level :
    va < W64 -> (level < pa_levels pa)%nat ->
    run c (walk_page_tables_to_entry pa ptb va level) s
    = (s, Some (if ptb =? 0 then 0
                else match entry_at (s_mem s) (pred (pa_levels pa)) ptb va level
                     with Some e => e | None => 0 end)).
  Proof.
    intros V L. unfold walk_page_tables_to_entry.
    destruct (ptb =? 0); [reflexivity|].
    rewrite translated_bits_val by auto.
    destruct (pa_levels pa) as [|n] eqn:E; [lia|].
    cbn [pred]. change (pa_shift pa) with sh. apply walk_loop_run; auto; lia.
  Qed.

  Lemma translate_entry_at m va : forall l table,
    translate sh es m l table va =
    match entry_at m l table va 0 with
    | Some e => if entry_valid m e then Some (e, entry_target m e) else None
    | None => None
    end.
  Proof.
    induction l as [|l IH]; intros table; cbn [translate entry_at Nat.eqb].
    - reflexivity.
    - destruct (entry_valid m _); auto.
  Qed.

  (** What walk_page_tables returns. *)
  Definition walk_result (m : mem) (ptb va : N) : N :=
    if ptb =? 0 then 0
    else match translate sh es m (pred (pa_levels pa)) ptb va with
         | Some (e, t) => if e =? 0 then 0 else t
         | None => 0
         end.

  Lemma walk_run c s ptb va : va < W64 ->
    run c (walk_page_tables pa ptb va) s = (s, Some (walk_result (s_mem s) ptb va)).
  Proof.
    intros V. unfold walk_page_tables, walk_result.
    rewrite run_bind, walk_to_entry_run by (auto; destruct OK; lia).
    destruct (ptb =? 0); [reflexivity|].
    rewrite translate_entry_at.
    destruct (entry_at _ _ _ _ _) as [e|]; [|reflexivity].
    destruct (e =? 0) eqn:E.
    - cbn [run]. destruct (entry_valid _ _); [rewrite E|]; reflexivity.
    - unfold is_valid_page_table_entry, page_table_entry_target.
      rewrite !run_bind, run_load64. cbn [run]. rewrite entry_valid_val.
      destruct (entry_valid _ _); [|reflexivity].
      rewrite run_bind, run_load64. cbn [run]. rewrite E, entry_target_val.
      reflexivity.
  Qed.

  (** ** Locality: a walk depends only on the entries on its path. *)
  Lemma translate_local m m' va : forall l table,
    (forall e, In e (path sh es m l table va) -> ld 8 m' e = ld 8 m e) ->
    translate sh es m' l table va = translate sh es m l table va.
  Proof.
    induction l as [|l IH]; intros table H; cbn [translate path] in *.
    - unfold entry_valid, entry_target in *. rewrite (H _ (or_introl eq_refl)).
      reflexivity.
    - unfold entry_valid, entry_target in *. rewrite (H _ (or_introl eq_refl)).
      destruct (N.testbit _ 0); auto.
      apply IH. intros e He. apply H. right. exact He.
  Qed.

  Lemma path_length m va : forall l table,
    (length (path sh es m l table va) <= S l)%nat.
  Proof.
    induction l as [|l IH]; intros table; cbn [path length].
    - destruct (entry_valid _ _); cbn; lia.
    - destruct (entry_valid _ _); cbn; [|lia].
      specialize (IH (entry_target m (entry_of sh es (S l) table va))). lia.
  Qed.

  (** ** The loads executed by a walk. *)
  Definition loads_of (es0 : list N) (o : op) : Prop :=
    exists e, In e es0 /\ o = OLd 8 e.

  Lemma walk_loop_trace c s va : va < W64 -> forall l table,
    (l < pa_levels pa)%nat ->
    let t := trace c (walk_loop pa (S l) (bits_below sh (S l)) table va 0) s in
    Forall (loads_of (path sh es (s_mem s) l table va)) t /\
    (length t <= 2 * l)%nat /\
    match entry_at (s_mem s) l table va 0 with
    | Some e => In e (path sh es (s_mem s) l table va)
    | None => True
    end.
  Proof.
    intros V. induction l as [|l IH]; intros table Hp.
    - cbn [walk_loop]. rewrite walk_entry_addr by auto.
      cbn. repeat split; auto.
    - remember (S l) as l1. cbn [walk_loop]. rewrite walk_entry_addr by auto.
      subst l1. cbn [entry_at path].
      set (e := entry_of sh es (S l) table va).
      cbn [Nat.eqb].
      unfold is_valid_page_table_entry.
      rewrite trace_bind, !run_bind, run_load64. cbn [run].
      rewrite trace_bind, run_load64. cbn [trace].
      rewrite entry_valid_val.
      assert (LE : forall r, loads_of (e :: r) (OLd 8 e))
        by (intros; exists e; split; [left|]; reflexivity).
      destruct (entry_valid (s_mem s) e) eqn:EV.
      + unfold page_table_entry_target.
        rewrite trace_bind, !run_bind, run_load64. cbn [run].
        rewrite trace_bind, run_load64. cbn [trace].
        rewrite entry_target_val.
        replace (wsub (bits_below sh (S (S l))) (pa_shift pa (S l)))
          with (bits_below sh (S l)).
        * destruct (IH (entry_target (s_mem s) e)) as [F [Len E]]; [lia|].
          cbn [app load64 op1 trace step fst snd]. split; [|split].
          -- constructor; [apply LE|]. constructor; [apply LE|].
             eapply Forall_impl; [|exact F].
             intros o [x [X1 X2]]. exists x. split; [right|]; auto.
          -- cbn [length]. lia.
          -- destruct (entry_at _ _ _ _ _); auto. right. exact E.
        * destruct OK as [_ [_ B]].
          assert (BL : bits_below sh (S (S l)) < 64).
          { eapply N.le_lt_trans; [|apply B]. apply bits_below_le. lia. }
          rewrite wsub_small; [cbn; unfold sh; lia|cbn; unfold sh; lia|].
          unfold W64. lia.
      + cbn [app load64 op1 trace step fst snd]. split; [|split]; auto.
        cbn. lia.
  Qed.

  Lemma walk_trace c s ptb va : va < W64 ->
    let t := trace c (walk_page_tables pa ptb va) s in
    Forall (loads_of (path sh es (s_mem s) (pred (pa_levels pa)) ptb va)) t /\
    (length t <= 2 * pa_levels pa)%nat.
  Proof.
    intros V. cbv zeta. unfold walk_page_tables.
    rewrite trace_bind, walk_to_entry_run by (auto; destruct OK; lia).
    unfold walk_page_tables_to_entry.
    destruct (ptb =? 0) eqn:Z; [cbn; split; [constructor|lia]|].
    rewrite translated_bits_val by auto.
    destruct OK as [L1 _].
    destruct (pa_levels pa) as [|n] eqn:E; [lia|]. cbn [pred].
    destruct (walk_loop_trace c s va V n ptb) as [F [Len En]]; [lia|].
    change (pa_shift pa) with sh.
    destruct (entry_at (s_mem s) n ptb va 0) as [e|] eqn:EA.
    - destruct (e =? 0); [cbn [trace]; rewrite app_nil_r; split; [auto|lia]|].
      unfold is_valid_page_table_entry, page_table_entry_target.
      rewrite trace_bind, !run_bind, run_load64. cbn [run].
      rewrite trace_bind, run_load64. cbn [trace].
      assert (LE : loads_of (path sh es (s_mem s) n ptb va) (OLd 8 e))
        by (exists e; auto).
      destruct (pte_is_valid _).
      + rewrite trace_bind, run_load64. cbn [trace app load64 op1 step].
        split.
        * apply Forall_app. split; auto.
        * rewrite app_length. cbn [length]. lia.
      + cbn [trace app load64 op1 step]. split.
        * apply Forall_app. split; auto.
        * rewrite app_length. cbn [length]. lia.
    - cbn [trace N.eqb]. rewrite app_nil_r. split; [auto|lia].
  Qed.

  (** ** Building a mapping top-down. *)

  (** Writes, for level [l] = n-1 down to 0, the entry found by walking to that
      level, with target [pages l]. *)
  Fixpoint link_levels (n : nat) (ptb va : N) (pages acl : nat -> N)
    : prog unit :=
    match n with
    | O => Ret tt
    | S l =>
        e <- walk_page_tables_to_entry pa ptb va l ;;
        write_page_table_entry e (pages l) (acl l) ;;
        link_levels l ptb va pages acl
    end.

  (** The table entered at level [l]. *)
  Definition table_at (ptb : N) (pages : nat -> N) (l : nat) : N :=
    if Nat.eqb (S l) (pa_levels pa) then ptb else pages (S l).
  Definition entry_addr_at (ptb va : N) (pages : nat -> N) (l : nat) : N :=
    entry_of sh es l (table_at ptb pages l) va.

  (** The entries are pairwise disjoint and not at address 0. *)
  Definition entries_disjoint (ptb va : N) (pages : nat -> N) : Prop :=
    forall l, (l < pa_levels pa)%nat ->
      entry_addr_at ptb va pages l <> 0 /\
      forall l', (l' < pa_levels pa)%nat -> l <> l' ->
        entry_addr_at ptb va pages l + 8 <= entry_addr_at ptb va pages l' \/
        entry_addr_at ptb va pages l' + 8 <= entry_addr_at ptb va pages l.

  (** Memory where the levels [k .. levels-1] are linked. *)
  Definition linked_above (m : mem) (ptb va : N) (pages : nat -> N) (k : nat)
    : Prop :=
    forall l, (k <= l)%nat -> (l < pa_levels pa)%nat ->
      entry_valid m (entry_addr_at ptb va pages l) = true /\
      entry_target m (entry_addr_at ptb va pages l) = pages l.

  Lemma entry_at_linked m ptb va pages k :
    linked_above m ptb va pages (S k) -> forall d l, l = (k + d)%nat ->
    (l < pa_levels pa)%nat ->
    entry_at m l (table_at ptb pages l) va k = Some (entry_addr_at ptb va pages k).
  Proof.
    intros H d. induction d as [|d IH]; intros l E L.
    - rewrite Nat.add_0_r in E. subst l.
      destruct k; cbn [entry_at]; rewrite Nat.eqb_refl; reflexivity.
    - destruct l as [|l]; [lia|]. cbn [entry_at].
      destruct (Nat.eqb_spec (S l) k); [lia|].
      destruct (H (S l)) as [V T]; [lia|lia|].
      fold (entry_addr_at ptb va pages (S l)). rewrite V, T.
      replace (pages (S l)) with (table_at ptb pages l).
      + apply IH; lia.
      + unfold table_at. destruct (Nat.eqb_spec (S l) (pa_levels pa)); [lia|].
        reflexivity.
  Qed.

  Lemma walk_to_entry_linked c s ptb va pages k :
    va < W64 -> ptb <> 0 -> (k < pa_levels pa)%nat ->
    linked_above (s_mem s) ptb va pages (S k) ->
    run c (walk_page_tables_to_entry pa ptb va k) s
    = (s, Some (entry_addr_at ptb va pages k)).
  Proof.
    intros V Z K H. rewrite walk_to_entry_run by auto.
    destruct (N.eqb_spec ptb 0); [congruence|].
    pose proof (entry_at_linked (s_mem s) ptb va pages k H
      (pred (pa_levels pa) - k) (pred (pa_levels pa))) as E.
    replace (table_at ptb pages (pred (pa_levels pa))) with ptb in E.
    - rewrite E by lia. reflexivity.
    - unfold table_at. destruct (Nat.eqb_spec (S (pred (pa_levels pa))) (pa_levels pa));
        [reflexivity|lia].
  Qed.

  Lemma link_levels_run c ptb va pages acl : va < W64 -> ptb <> 0 ->
    entries_disjoint ptb va pages ->
    (forall l, (l < pa_levels pa)%nat -> pages l mod 4096 = 0 /\ pages l < W64) ->
    forall n s, (n <= pa_levels pa)%nat ->
    linked_above (s_mem s) ptb va pages n ->
    exists m, run c (link_levels n ptb va pages acl) s = (set_mem s m, Some tt) /\
      linked_above m ptb va pages 0 /\
      (forall b, (forall l, (l < n)%nat ->
          b < entry_addr_at ptb va pages l \/
          entry_addr_at ptb va pages l + 8 <= b) -> m b = s_mem s b).
  Proof.
    intros V Z D PG. induction n as [|n IH]; intros s N0 H.
    - exists (s_mem s). rewrite set_mem_id. repeat split; auto; apply H; auto.
    - cbn [link_levels]. rewrite run_bind, (walk_to_entry_linked _ _ _ _ pages) by auto.
      unfold write_page_table_entry. rewrite run_bind, run_bind, run_store64.
      cbn [run]. set (e := entry_addr_at ptb va pages n).
      destruct (PG n) as [P1 P2]; [lia|].
      destruct (pte_roundtrip (pages n) (acl n) P1 P2) as [R1 [R2 R3]].
      set (s1 := set_mem s _).
      destruct (IH s1) as [m [R [L F]]]; [lia| |].
      + intros l L1 L2. unfold s1. cbn [s_mem set_mem].
        destruct (Nat.eq_dec l n) as [->|Ne].
        * unfold entry_valid. rewrite <- entry_target_val. fold e.
          rewrite ld8_st8 by auto. rewrite <- pte_is_valid_val. auto.
        * destruct (H l) as [H1 H2]; [lia|lia|].
          unfold entry_valid, entry_target in *.
          destruct (D l L2) as [_ DD]. specialize (DD n N0 Ne). fold e in DD.
          rewrite ld_st_other by lia. auto.
      + exists m. split; [rewrite R; reflexivity|split; [auto|]].
        * intros b B. rewrite F by (intros; apply B; lia).
          unfold s1. cbn [s_mem set_mem]. apply st_out.
          specialize (B n). fold e in B. lia.
  Qed.

  Lemma linked_translate m ptb va pages : forall l,
    linked_above m ptb va pages 0 -> (l < pa_levels pa)%nat ->
    translate sh es m l (table_at ptb pages l) va =
    Some (entry_addr_at ptb va pages 0, pages O).
  Proof.
    induction l as [|l IH]; intros H L; cbn [translate].
    - destruct (H O) as [V T]; [lia|lia|]. fold (entry_addr_at ptb va pages 0).
      rewrite V, T. reflexivity.
    - destruct (H (S l)) as [V T]; [lia|lia|].
      fold (entry_addr_at ptb va pages (S l)). rewrite V, T.
      rewrite <- IH by (auto; lia). f_equal. unfold table_at.
      destruct (Nat.eqb_spec (S l) (pa_levels pa)); [lia|]. reflexivity.
  Qed.

  Lemma link_walk c s ptb va pages acl :
    va < W64 -> ptb <> 0 -> entries_disjoint ptb va pages ->
    (forall l, (l < pa_levels pa)%nat -> pages l mod 4096 = 0 /\ pages l < W64) ->
    exists m,
      run c (link_levels (pa_levels pa) ptb va pages acl) s
        = (set_mem s m, Some tt) /\
      (* the address translates to the page *)
      translate sh es m (pred (pa_levels pa)) ptb va
        = Some (entry_addr_at ptb va pages 0, pages O) /\ walk_result m ptb va = pages O /\
      (* only the entries on the path were written *)
      (forall b, (forall l, (l < pa_levels pa)%nat ->
          b < entry_addr_at ptb va pages l \/
          entry_addr_at ptb va pages l + 8 <= b) -> m b = s_mem s b).
  Proof.
    intros V Z D PG.
    destruct (link_levels_run c ptb va pages acl V Z D PG (pa_levels pa) s)
      as [m [R [L F]]]; [lia|intros l; lia|].
    exists m. split; [auto|].
    assert (T : translate sh es m (pred (pa_levels pa)) ptb va
        = Some (entry_addr_at ptb va pages 0, pages O)).
    { destruct OK as [L1 _].
      rewrite <- (linked_translate m ptb va pages (pred (pa_levels pa)) L) by lia.
      f_equal. unfold table_at.
      destruct (Nat.eqb_spec (S (pred (pa_levels pa))) (pa_levels pa));
        [reflexivity|lia]. }
    split; [auto|]. split; [|auto].
    unfold walk_result. rewrite T. destruct (N.eqb_spec ptb 0); [congruence|].
    destruct (D O) as [NZ _]; [destruct OK; lia|].
    destruct (N.eqb_spec (entry_addr_at ptb va pages 0) 0); [congruence|].
    reflexivity.
  Qed.
End Walk.

(** Translations of addresses of the same page agree. *)
Lemma va_field_page sh l va va' : va / 4096 = va' / 4096 ->
  va_field sh l va = va_field sh l va'.
Proof.
  intros H. unfold va_field.   assert (E : forall v, v / 2 ^ bits_below sh l
                        = v / 4096 / 2 ^ (bits_below sh l - 12)).
  { intros v. rewrite N.div_div by (discriminate || apply pow2_nz).
    change 4096 with (2 ^ 12). rewrite <- N.pow_add_r. do 2 f_equal.
    pose proof (bits_below_le sh 0 l). cbn in *. lia. }
  rewrite !E, H. reflexivity.
Qed.
Lemma translate_same_page sh es m va va' : va / 4096 = va' / 4096 ->
  forall l table, translate sh es m l table va = translate sh es m l table va'.
Proof.
  intros H. assert (E : forall l t, entry_of sh es l t va = entry_of sh es l t va').
  { intros. unfold entry_of. rewrite (va_field_page sh l va va' H). reflexivity. }
  induction l as [|l IH]; intros t; cbn [translate]; rewrite !E; auto.
  destruct (entry_valid _ _); auto.
Qed.

(** ** Disjoint tables have disjoint entries. *)
Definition tables_disjoint (pa : pt_arch) (table : nat -> N) : Prop :=
  forall l, (l < pa_levels pa)%nat ->
    0 < table l /\
    table l + 2 ^ (pa_shift pa l + pa_entry_shift pa l) <= W64 /\
    forall l', (l' < pa_levels pa)%nat -> l <> l' ->
      table l + 2 ^ (pa_shift pa l + pa_entry_shift pa l) <= table l' \/
      table l' + 2 ^ (pa_shift pa l' + pa_entry_shift pa l') <= table l.

Lemma entry_in_table sh es l table va : 3 <= es l ->
  table + 2 ^ (sh l + es l) <= W64 ->
  table <= entry_of sh es l table va /\
  entry_of sh es l table va + 8 <= table + 2 ^ (sh l + es l).
Proof.
  intros E H. unfold entry_of.
  set (f := va_field sh l va).
  assert (F : f < 2 ^ sh l) by (apply N.mod_lt, pow2_nz).
  rewrite N.pow_add_r in *.
  assert (8 <= 2 ^ es l) by (apply (pow2_le 3); auto).
  rewrite N.mod_small; [nia|]. change (2 ^ 64) with W64. nia.
Qed.

Lemma tables_entries_disjoint pa ptb va pages :
  (forall l, 3 <= pa_entry_shift pa l) ->
  tables_disjoint pa (table_at pa ptb pages) ->
  entries_disjoint pa ptb va pages.
Proof.
  intros E D l L. destruct (D l L) as [D1 [D2 D3]].
  pose proof (entry_in_table (pa_shift pa) (pa_entry_shift pa) l
                (table_at pa ptb pages l) va (E l) D2) as [X1 X2].
  unfold entry_addr_at. split; [lia|]. intros l' L' Ne.
  destruct (D l' L') as [D1' [D2' _]].
  pose proof (entry_in_table (pa_shift pa) (pa_entry_shift pa) l'
                (table_at pa ptb pages l') va (E l') D2') as [Y1 Y2].
  specialize (D3 l' L' Ne). lia.
Qed.

(** C09 with all its conclusions. *)
Lemma link_full pa c s ptb va pages acl :
  geometry_ok pa -> (forall l, 3 <= pa_entry_shift pa l) ->
  va < W64 ->
  tables_disjoint pa (table_at pa ptb pages) ->
  (forall l, (l < pa_levels pa)%nat -> pages l mod 4096 = 0 /\ pages l < W64) ->
  exists m,
    run c (link_levels pa (pa_levels pa) ptb va pages acl) s
      = (set_mem s m, Some tt) /\
    (forall s', s_mem s' = m ->
       run c (walk_page_tables pa ptb va) s' = (s', Some (pages O))) /\
    (forall b, (forall l, (l < pa_levels pa)%nat ->
        b < entry_addr_at pa ptb va pages l \/
        entry_addr_at pa ptb va pages l + 8 <= b) -> m b = s_mem s b) /\
    (forall ptb' va',
       (forall e l, In e (path (pa_shift pa) (pa_entry_shift pa) (s_mem s)
                            (pred (pa_levels pa)) ptb' va') ->
          (l < pa_levels pa)%nat ->
          e + 8 <= entry_addr_at pa ptb va pages l \/
          entry_addr_at pa ptb va pages l + 8 <= e) ->
       translate (pa_shift pa) (pa_entry_shift pa) m (pred (pa_levels pa)) ptb' va'
       = translate (pa_shift pa) (pa_entry_shift pa) (s_mem s)
           (pred (pa_levels pa)) ptb' va').
Proof.
  intros OK E V TD PG.
  assert (Z : ptb <> 0).
  { destruct OK as [L1 _]. destruct (TD (pred (pa_levels pa))) as [Z _]; [lia|].
    unfold table_at in Z.
    destruct (Nat.eqb_spec (S (pred (pa_levels pa))) (pa_levels pa)); lia. }
  destruct (link_walk pa OK c s ptb va pages acl V Z
    (tables_entries_disjoint _ _ _ _ E TD) PG) as [m [R [T [W F]]]].
  exists m. split; [auto|]. split; [|split; [auto|]].
  - intros s' S. rewrite walk_run by auto. rewrite S, W. reflexivity.
  - intros ptb' va' H. apply translate_local. intros e IE.
    apply ld_ext. intros b B1 B2. rewrite F; auto.
    intros l L. specialize (H e l IE L). lia.
Qed.
