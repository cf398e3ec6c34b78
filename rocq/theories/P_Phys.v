(** * Properties C72-C75: physical pointers, memory loops, atomics of the test
    architecture. *)
From Coq Require Import NArith ZArith Lia Bool List.
From Coq Require Import ZifyBool ZifyNat ZifyN.
From Verif Require Import Word Machine ModelBare ModelInl ModelRegions ModelMetadata ModelEnclave
  ModelApi ModelPhys SpecPhys Lib SpecGeometry SpecMonitor SpecHistory
  HistoryProofs P_Boot P_Regions P_Metadata SpecContract P_Contract.
Import ListNotations.
Open Scope N_scope.
Ltac Zify.zify_post_hook ::= Z.div_mod_to_equations.

(** ** C72: pointers behave like array indices *)
Lemma phys_add_val size p n : phys_add size p n = (p + size * n) mod 2 ^ 64.
Proof.
  unfold phys_add, wadd, wmul. change (2 ^ 64) with W64.
  rewrite N.add_mod_idemp_r by discriminate. reflexivity.
Qed.
Theorem C72_pointer_arithmetic : forall size p n m, p < 2 ^ 64 ->
  phys_index size p n = phys_add size p n /\
  phys_add size p 0 = p /\
  phys_add size (phys_add size p n) m = phys_add size p (n + m) /\
  phys_sub size (phys_add size p n) n = p /\
  phys_add size (phys_sub size p n) n = p /\
  phys_sub size p 0 = p.
Proof.
  intros size p n m P. split; [reflexivity|]. rewrite !phys_add_val.
  change (2 ^ 64) with W64 in *.
  split; [rewrite N.mul_0_r, N.add_0_r; apply N.mod_small, P|].
  split.
  { rewrite N.add_mod_idemp_l by discriminate. f_equal. lia. }
  unfold phys_sub, wsub, wmul. rewrite N.mul_0_r.
  generalize (size * n) as q. intros q. unfold W64 in *.
  split; [lia|]. split; [lia|]. lia.
Qed.
(** An array element inside the address space: the address the C++ abstract machine
    gives, and different elements have different, non-overlapping addresses. *)
Theorem C72_array : forall size p n, p + size * n <= 2 ^ 64 -> 0 < size ->
  (forall i, i < n -> phys_index size p i = p + size * i) /\
  (forall i j, i < n -> j < n -> phys_eq (phys_index size p i) (phys_index size p j) = true -> i = j) /\
  (forall i j b, i < n -> j < n ->
     bytes_of (phys_index size p i) size b -> bytes_of (phys_index size p j) size b -> i = j).
Proof.
  intros size p n H S. change (2 ^ 64) with W64 in H.
  assert (V : forall i, i < n -> phys_index size p i = p + size * i).
  { intros i I. change (phys_index size p i) with (phys_add size p i).
    rewrite phys_add_val. change (2 ^ 64) with W64. apply N.mod_small. nia. }
  split; [exact V|]. split.
  - intros i j I J E. unfold phys_eq in E. rewrite !V in E by auto. nia.
  - intros i j b I J. unfold bytes_of. rewrite !V by auto. intros [A B] [C D]. nia.
Qed.
Example C72_example : 64 + 40 * 16 <= 2 ^ 64 /\ phys_index 40 64 3 = 184 /\
  phys_add 8 (2 ^ 64 - 8) 1 = 0 /\ phys_sub 40 184 3 = 64 /\ phys_eq 184 (phys_index 40 64 3) = true.
Proof. split; [discriminate|]. do 3 (split; [vm_compute; reflexivity|]). vm_compute; reflexivity. Qed.

(** ** C73: the loops of bzero and bcopy end after bytes / 8 words, wherever they start *)
Lemma same_refl {A} (p : prog A) : same_prog p p.
Proof. induction p; constructor; auto. Qed.
Lemma same_bind {A B} (p p' : prog A) (f f' : A -> prog B) : same_prog p p' ->
  (forall a, same_prog (f a) (f' a)) -> same_prog (bind p f) (bind p' f').
Proof. intros H F. induction H; cbn; try constructor; auto. Qed.

Lemma at_end start w i : start < W64 -> 8 * w < W64 -> i <= w ->
  phys_eq (phys_add 8 start i) (phys_add 8 start w) = (i =? w).
Proof.
  intros S W I. unfold phys_eq. rewrite !phys_add_val. change (2 ^ 64) with W64.
  unfold W64 in *. destruct (N.eqb_spec i w) as [->|NE]; [apply N.eqb_refl|].
  apply N.eqb_neq. lia.
Qed.
Lemma add_one start i : phys_add 8 (phys_add 8 start i) 1 = phys_add 8 start (i + 1).
Proof.
  rewrite !phys_add_val. rewrite N.add_mod_idemp_l by discriminate. f_equal. lia.
Qed.

Theorem C73_bzero_loop : forall fuel start bytes, start < 2 ^ 64 -> bytes < 2 ^ 64 ->
  bytes / 8 <= N.of_nat fuel ->
  same_prog (bzero_code fuel start bytes) (bzero64 start bytes).
Proof.
  intros fuel start bytes HS HB HF. change (2 ^ 64) with W64 in *.
  unfold bzero_code, bzero64. set (w := bytes / 8) in *.
  assert (W : 8 * w < W64) by (unfold w, W64 in *; lia).
  assert (G : forall k i fu, N.of_nat k + i = w -> N.of_nat k <= N.of_nat fu ->
    same_prog (bzero_loop fu (phys_add 8 start i) (phys_add 8 start w))
      (for_n k i (fun i => store64 (wadd start (wmul 8 i)) 0 ;; Ret tt))).
  { induction k as [|k IH]; intros i fu E F.
    - assert (i = w) by lia. subst i. destruct fu; cbn [bzero_loop];
        rewrite (at_end start w w HS W (N.le_refl w)), N.eqb_refl; cbn [negb for_n]; constructor.
    - destruct fu as [|fu]; [lia|]. cbn [bzero_loop].
      rewrite (at_end start w i HS W) by lia.
      destruct (N.eqb_spec i w); [lia|]. cbn [negb for_n bind store64 op1].
      constructor. intros v. cbn [bind]. rewrite add_one. apply IH; lia. }
  replace start with (phys_add 8 start 0) at 1.
  - apply G; lia.
  - rewrite phys_add_val. change (2 ^ 64) with W64. rewrite N.mul_0_r, N.add_0_r.
    apply N.mod_small, HS.
Qed.
Theorem C73_bcopy_loop : forall fuel dest source bytes,
  dest < 2 ^ 64 -> source < 2 ^ 64 -> bytes < 2 ^ 64 -> bytes / 8 <= N.of_nat fuel ->
  same_prog (bcopy_code fuel dest source bytes) (bcopy64 dest source bytes).
Proof.
  intros fuel dest start bytes HD HS HB HF. change (2 ^ 64) with W64 in *.
  unfold bcopy_code, bcopy64. set (w := bytes / 8) in *.
  assert (W : 8 * w < W64) by (unfold w, W64 in *; lia).
  assert (G : forall k i fu, N.of_nat k + i = w -> N.of_nat k <= N.of_nat fu ->
    same_prog (bcopy_loop fu (phys_add 8 dest i) (phys_add 8 start i) (phys_add 8 start w))
      (for_n k i (fun i => v <- load64 (wadd start (wmul 8 i)) ;;
              store64 (wadd dest (wmul 8 i)) v ;; Ret tt))).
  { induction k as [|k IH]; intros i fu E F.
    - assert (i = w) by lia. subst i. destruct fu; cbn [bcopy_loop];
        rewrite (at_end start w w HS W (N.le_refl w)), N.eqb_refl; cbn [negb for_n]; constructor.
    - destruct fu as [|fu]; [lia|]. cbn [bcopy_loop].
      rewrite (at_end start w i HS W) by lia.
      destruct (N.eqb_spec i w); [lia|]. cbn [negb for_n bind load64 store64 op1].
      constructor. intros v. cbn [bind]. constructor. intros u. cbn [bind].
      rewrite !add_one. apply IH; lia. }
  assert (Z : forall p, p < W64 -> phys_add 8 p 0 = p).
  { intros p P. rewrite phys_add_val. change (2 ^ 64) with W64. rewrite N.mul_0_r, N.add_0_r.
    apply N.mod_small, P. }
  rewrite <- (Z dest HD) at 1. replace start with (phys_add 8 start 0) at 1 by auto.
  apply G; lia.
Qed.
(** Equal programs behave equally, sequentially and in every interleaving (they execute
    the same operations). *)
Theorem C73_equal_runs : forall A (p q : prog A) c s, same_prog p q -> run c p s = run c q s.
Proof.
  intros A p q c s H. revert s. induction H; intros s; cbn; auto. destruct (step c o s). auto.
Qed.
Example C73_example :
  let s' := fst (run 0 (bcopy_code 512 8192 4096 4096) (mkState (fun a => a) (s_cores ex_s0) 1 0 0 0 0 [])) in
  bytes_of 8192 4096 9000 /\ s_mem s' 9000 = (9000 - 4096) mod 256 /\ s_mem s' 12288 = 12288 /\
  s_mem (fst (run 0 (bzero_code 3 (2 ^ 64 - 8) 24) s')) (2 ^ 64 - 3) = 0 /\
  s_mem (fst (run 0 (bzero_code 3 (2 ^ 64 - 8) 24) s')) 15 = 0 /\
  snd (run 0 (bzero_code 2 0 24) s') = None.
Proof.
  cbv zeta. split; [split; [discriminate|reflexivity]|].
  do 4 (split; [vm_compute; reflexivity|]). vm_compute; reflexivity.
Qed.

(** ** C74: one call at a time, the test architecture's atomics are as good as atomic
    ones *)
Lemma st_st_same m a u v b : st 8 (st 8 m a u) a v b = st 8 m a v b.
Proof. unfold st. destruct ((a <=? b) && (b <? a + N.of_nat 8)); reflexivity. Qed.

Lemma op_code_run c o s : run c (op_code o) s = (fst (step c o s), Some (snd (step c o s))).
Proof.
  destruct o; cbn [op_code]; unfold op1; cbn [run];
    try (destruct (step c _ s) as [x y] eqn:E; cbn in E |- *; try (injection E as <- <-); reflexivity).
Qed.
Theorem C74_sequential : forall A (p : prog A) c s, run c (on_test_arch p) s = run c p s.
Proof.
  intros A p c. induction p as [a|o k IH|]; intros s; cbn [on_test_arch]; auto.
  rewrite run_bind, op_code_run. cbn [run]. destruct (step c o s) as [s' v]. cbn. apply IH.
Qed.
(** So every theorem about a call that runs alone holds of the code with these atomics. *)
Theorem C74_calls : forall G c k s, run c (on_test_arch (call_prog G k)) s = do_call G c k s.
Proof. intros. apply C74_sequential. Qed.
Example C74_example : let p := on_test_arch (call_prog ex_G (CBlock 3)) in
  (match p with Do (OLd 8 a) _ => a = lock_addr ex_G 3 | _ => False end) /\
  (match call_prog ex_G (CBlock 3) with Do (OTas a) _ => a = lock_addr ex_G 3 | _ => False end) /\
  snd (run 0 p ex_s0) = Some 0.
Proof. cbv zeta. do 2 (split; [vm_compute; reflexivity|]). vm_compute; reflexivity. Qed.

(** ** C75: concurrently they are not *)
(** From a state after boot with a free region, one core assigns it to the OS, another
    makes it a metadata region. Under one interleaving of the test architecture's code
    both calls return monitor_ok: the region ends up a metadata region that the OS's
    region bitmap gives to the OS. With atomic operations this schedule refuses one of
    them (in general see C51-C56). *)
Definition ex_schedule : list N := [0; 1; 1; 1] ++ repeat 0 40 ++ repeat 1 2000.
Lemma play_val G (r : state * (N -> prog N)) :
  result (snd r 0) = Some 0 -> result (snd r 1) = Some 0 ->
  owner_of G (fst r) 15 = 2 -> os_bit G (fst r) 15 = true ->
  exists s' ps, r = (s', ps) /\ result (ps 0) = Some 0 /\ result (ps 1) = Some 0 /\
    owner_of G s' 15 = 2 /\ os_bit G s' 15 = true.
Proof. destruct r as [s' ps]. intros. exists s', ps. auto. Qed.
Theorem C75_exclusion_refuted : exists P top pb rb G s cs s' ps,
  reachable P top pb rb G s /\ owner_of G s 15 = 3 /\
  play cs (two (on_test_arch (call_prog G (CAssign 15 0)))
               (on_test_arch (call_prog G (CCreateMetadataRegion 15)))) s = (s', ps) /\
  result (ps 0) = Some 0 /\ result (ps 1) = Some 0 /\
  owner_of G s' 15 = 2 /\ os_bit G s' 15 = true.
Proof.
  exists ex_platform, 0, 6, 4, ex_G, ex_free, ex_schedule.
  assert (A : owner_of ex_G ex_free 15 = 3) by (vm_compute; reflexivity).
  destruct (play_val ex_G (play ex_schedule (two (on_test_arch (call_prog ex_G (CAssign 15 0)))
               (on_test_arch (call_prog ex_G (CCreateMetadataRegion 15)))) ex_free))
    as [s' [ps [E [R1 [R2 [O B]]]]]];
    [vm_compute; reflexivity|vm_compute; reflexivity|vm_compute; reflexivity|vm_compute; reflexivity|].
  exists s', ps. split; [exact ex_free_reach|]. split; [exact A|]. split; [exact E|]. auto.
Qed.
Example C75_atomic_example :
  let ps := snd (play ex_schedule (two (call_prog ex_G (CAssign 15 0))
    (call_prog ex_G (CCreateMetadataRegion 15))) ex_free) in
  result (ps 0) = Some 0 /\ result (ps 1) = Some 3.
Proof. cbv zeta. split; vm_compute; reflexivity. Qed.

Definition P_Phys_theorems :=
  (C72_pointer_arithmetic, C72_array, C73_bzero_loop, C73_bcopy_loop, C73_equal_runs,
   C74_sequential, C74_calls, C75_exclusion_refuted).
Print Assumptions P_Phys_theorems.
