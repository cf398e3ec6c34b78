(** * Property C95: measuring and copying do not reveal data by the addresses accessed. *)
From Coq Require Import NArith ZArith Lia Bool List.
From Coq Require Import ZifyBool ZifyNat ZifyN.
From Verif Require Import Word Machine ModelBare ModelHash ModelInl ModelRegions
  ModelMetadata ModelEnclave ModelBoot ModelApi Lib BareProofs BootProofs SpecGeometry
  GeomProofs Trace SpecMonitor SpecHistory ViewProofs SeqProofs SeqCalls SeqCalls2
  SpecContract HistoryProofs P_Boot P_Regions P_Metadata P_Enclave P_Contract P_Contract3 SystemProofs SpecPattern.
Import ListNotations.
Open Scope N_scope.
Ltac Zify.zify_post_hook ::= Z.div_mod_to_equations.

Lemma wadd_sum a b c : wadd (wadd a b) c = wadd a (b + c).
Proof. unfold wadd. rewrite N.add_mod_idemp_l by discriminate. f_equal. lia. Qed.
Lemma st_other n m a v b : ~ (a <= b < a + N.of_nat n) -> st n m a v b = m b.
Proof. intros H. unfold st. destruct ((a <=? b) && (b <? a + N.of_nat n)) eqn:E; [lia|reflexivity]. Qed.
Section Twin.
Variable S : N -> Prop.
(** An operation that reads no byte of [S]. *)
Definition clear (o : op) : Prop :=
  match o with
  | OLd n a => forall b, a <= b < a + N.of_nat n -> ~ S b
  | OTas a | OClr a | OFadd a _ => forall b, a <= b < a + 8 -> ~ S b
  | OSetDrb _ | OSetEdrb _ => False
  | _ => True
  end.
(** The two programs do the same, except for loads that may give different values and
    stores of different values to [S]. *)
Fixpoint twin {A} (R : A -> A -> Prop) (p p' : prog A) : Prop :=
  match p, p' with
  | Ret a, Ret a' => R a a'
  | Do o f, Do o' f' =>
      (o = o' /\ clear o /\ forall v, twin R (f v) (f' v)) \/
      (exists n a, o = OLd n a /\ o' = OLd n a /\ forall v v', twin R (f v) (f' v')) \/
      (exists n a x x', o = OSt n a x /\ o' = OSt n a x' /\ (forall b, a <= b < a + N.of_nat n -> S b) /\
         forall v, twin R (f v) (f' v))
  | Stop, Stop => True
  | _, _ => False
  end.

Lemma differ_st n a v v' s s' : differ_in S s s' ->
  v = v' \/ (forall b, a <= b < a + N.of_nat n -> S b) ->
  differ_in S (set_mem s (st n (s_mem s) a v)) (set_mem s' (st n (s_mem s') a v')).
Proof.
  intros [D1 D2 D3 D4 D5 D6 D7] H. constructor; cbn [set_mem s_mem s_cores s_words s_dmar_base s_dmar_mask s_dma_start s_dma_end]; auto.
  intros b NB. unfold st. destruct ((a <=? b) && (b <? a + N.of_nat n)) eqn:E; [|auto].
  destruct H as [->|H]; [reflexivity|]. exfalso. apply NB, H. lia.
Qed.
Lemma ld_differ n a s s' : differ_in S s s' -> (forall b, a <= b < a + N.of_nat n -> ~ S b) ->
  ld n (s_mem s) a = ld n (s_mem s') a.
Proof. intros D H. apply ld_ext. intros b B1 B2. apply (df_mem _ _ _ D), H. lia. Qed.
(** A [clear] operation. *)
Lemma clear_step c o s s' : differ_in S s s' -> clear o ->
  snd (step c o s) = snd (step c o s') /\ differ_in S (fst (step c o s)) (fst (step c o s')).
Proof.
  intros D H.
  assert (L8 : forall a, (forall b, a <= b < a + 8 -> ~ S b) -> ld 8 (s_mem s) a = ld 8 (s_mem s') a)
    by (intros a HA; apply ld_differ; auto).
  assert (CR : forall r r', r = r' -> differ_in S (set_creg s c r) (set_creg s' c r')).
  { intros r r' ->. destruct D. constructor; cbn; auto. intros c'. destruct (c' =? c); auto. }
  destruct o; cbn [clear] in H; try contradiction; cbn [step fst snd].
  - split; [apply ld_differ; auto|exact D].
  - split; [reflexivity|]. apply differ_st; auto.
  - rewrite (L8 _ H). split; [reflexivity|]. apply differ_st; auto.
  - split; [reflexivity|]. apply differ_st; auto.
  - rewrite (L8 _ H). split; [reflexivity|]. apply differ_st; auto.
  - split; [reflexivity|exact D].
  - split; [reflexivity|]. apply CR. rewrite (df_cores _ _ _ D c). reflexivity.
  - split; [reflexivity|]. apply CR. rewrite (df_cores _ _ _ D c). reflexivity.
  - split; [reflexivity|]. apply CR. rewrite (df_cores _ _ _ D c). reflexivity.
  - split; [reflexivity|]. apply CR. rewrite (df_cores _ _ _ D c). reflexivity.
  - split; [reflexivity|]. destruct D. constructor; cbn; auto.
  - split; [reflexivity|]. destruct D. constructor; cbn; auto.
  - split; [apply D|exact D].
  - split; [apply D|exact D].
  - split; [reflexivity|]. destruct D. constructor; cbn; auto.
  - split; [reflexivity|]. destruct D. constructor; cbn; auto.
  - split; [reflexivity|]. destruct D. constructor; cbn; auto.
Qed.
Definition related {A} (R : A -> A -> Prop) (a a' : option A) : Prop :=
  match a, a' with Some a, Some a' => R a a' | None, None => True | _, _ => False end.
Lemma twin_run {A} (R : A -> A -> Prop) c (p : prog A) : forall p' s s', twin R p p' -> differ_in S s s' ->
  pattern c p s = pattern c p' s' /\ related R (snd (run c p s)) (snd (run c p' s')) /\
  differ_in S (fst (run c p s)) (fst (run c p' s')).
Proof.
  induction p as [a|o f IH|]; intros p' s s' T D; destruct p' as [a'|o' f'|]; cbn [twin] in T; try contradiction.
  - cbn. auto.
  - cbn [pattern run].
    destruct T as [(<- & CL & T)|[(n & a & -> & -> & T)|(n & a & x & x' & -> & -> & IN & T)]].
    + destruct (clear_step c o s s' D CL) as [E DF].
      destruct (step c o s) as [s1 v], (step c o s') as [s1' v']. cbn [fst snd] in *. subst v'.
      destruct (IH v (f' v) s1 s1' (T v) DF) as (P & X & Y). rewrite P. auto.
    + cbn [step]. destruct (IH _ (f' (ld n (s_mem s') a)) s s' (T (ld n (s_mem s) a) (ld n (s_mem s') a)) D) as (P & X & Y).
      rewrite P. auto.
    + cbn [step shape]. destruct (IH _ (f' 0) _ _ (T 0) (differ_st n a x x' s s' D (or_intror IN))) as (P & X & Y).
      rewrite P. auto.
  - cbn. auto.
Qed.
Lemma twin_bind {A B} (R : A -> A -> Prop) (Q : B -> B -> Prop) (p : prog A) : forall p' (f f' : A -> prog B),
  twin R p p' -> (forall a a', R a a' -> twin Q (f a) (f' a')) -> twin Q (bind p f) (bind p' f').
Proof.
  induction p as [a|o k IH|]; intros p' f f' T H; destruct p' as [a'|o' k'|]; cbn [twin] in T; try contradiction; cbn [bind twin]; auto.
  destruct T as [(-> & CL & T)|[(n & a & -> & -> & T)|(n & a & x & x' & -> & -> & IN & T)]].
  - left. auto.
  - right; left. exists n, a. auto.
  - right; right. exists n, a, x, x'. auto.
Qed.
Lemma twin_uses {A} (p : prog A) : uses clear p -> twin eq p p.
Proof. induction p as [a|o k IH|]; cbn [uses twin]; auto. intros [C U]. left. auto. Qed.
Lemma twin_for n body body' : forall i, (forall j, twin eq (body j) (body' j)) -> twin eq (for_n n i body) (for_n n i body').
Proof.
  induction n as [|n IH]; intros i H; cbn [for_n]; [reflexivity|].
  eapply twin_bind; [apply H|]. intros a a' _. apply IH, H.
Qed.
Lemma twin_for_lt n body : forall i, (forall j, i <= j < i + N.of_nat n -> twin eq (body j) (body j)) ->
  twin eq (for_n n i body) (for_n n i body).
Proof.
  induction n as [|n IH]; intros i H; cbn [for_n]; [reflexivity|].
  eapply twin_bind; [apply H; lia|]. intros a a' _. apply IH. intros j J. apply H. lia.
Qed.
Lemma t_ld {A} (R : A -> A -> Prop) n a (f f' : N -> prog A) : (forall v v', twin R (f v) (f' v')) ->
  twin R (bind (op1 (OLd n a)) f) (bind (op1 (OLd n a)) f').
Proof. intros H. cbn. right; left. exists n, a. auto. Qed.
Lemma t_st {A} (R : A -> A -> Prop) n a x x' (f f' : N -> prog A) : (forall b, a <= b < a + N.of_nat n -> S b) ->
  (forall v, twin R (f v) (f' v)) -> twin R (bind (op1 (OSt n a x)) f) (bind (op1 (OSt n a x')) f').
Proof. intros I H. cbn. right; right. exists n, a, x, x'. auto. Qed.
Lemma t_ret {A} (R : A -> A -> Prop) a a' : R a a' -> twin R (Ret a) (Ret a').
Proof. auto. Qed.

(** ** SHA-256 *)
(** The [k] bytes at [h] lie in [S]. *)
Definition covers (h k : N) : Prop := forall x off n, x = wadd h off -> off + n <= k ->
  forall b, x <= b < x + n -> S b.
Lemma covers_sub h k h' k' off : covers h k -> h' = wadd h off -> off + k' <= k -> covers h' k'.
Proof. intros C -> L x o n -> O b B. apply (C _ (off + o) n (wadd_sum h off o)); [lia|exact B]. Qed.
Lemma t_stc {A} (R : A -> A -> Prop) h k n a x x' (f f' : N -> prog A) off : covers h k -> a = wadd h off ->
  off + N.of_nat n <= k ->
  (forall v, twin R (f v) (f' v)) -> twin R (bind (op1 (OSt n a x)) f) (bind (op1 (OSt n a x')) f').
Proof. intros C E L H. apply t_st; [|exact H]. intros b B. apply (C _ off _ E L). exact B. Qed.

Variable h : N.
Hypothesis IN : covers h 160.

Lemma t_schedule block i : i < 64 -> twin (fun _ _ => True) (sha_schedule (wadd h hs_work) block i) (sha_schedule (wadd h hs_work) block i).
Proof.
  intros I. unfold sha_schedule, load32, store32.
  assert (X : N.land i 0xf < 16) by (change 0xf with (N.ones 4); rewrite N.land_ones; apply N.mod_lt; discriminate).
  destruct (i <? 16).
  - apply t_ld. intros v v'. cbv zeta. eapply t_stc; [exact IN|apply wadd_sum|unfold hs_work; cbn [N.of_nat]; lia|].
    intros _. apply t_ret. exact Logic.I.
  - apply t_ld. intros w15 w15'. apply t_ld. intros w2 w2'. cbv zeta. apply t_ld. intros w7 w7'. apply t_ld. intros wi wi'.
    eapply t_stc; [exact IN|apply wadd_sum|unfold hs_work; cbn [N.of_nat]; lia|].
    intros _. apply t_ret. exact Logic.I.
Qed.
Lemma t_rounds block n : forall i v v', i + N.of_nat n <= 64 ->
  twin (fun _ _ => True) (sha_rounds n (wadd h hs_work) block i v) (sha_rounds n (wadd h hs_work) block i v').
Proof.
  induction n as [|n IH]; intros i v v' L; cbn [sha_rounds]; [exact Logic.I|].
  eapply twin_bind; [apply t_schedule; lia|]. intros a a' _. apply IH. lia.
Qed.
Lemma t_hash_add j x x' : j < 8 -> twin eq (hash_add (wadd h hs_h) j x) (hash_add (wadd h hs_h) j x').
Proof.
  intros J. unfold hash_add, load32, store32. apply t_ld. intros v v'.
  eapply t_stc; [exact IN|apply wadd_sum|unfold hs_h; cbn [N.of_nat]; lia|]. intros _. apply t_ret. reflexivity.
Qed.
Lemma t_extend block : twin eq (extend_hash h block) (extend_hash h block).
Proof.
  unfold extend_hash. cbv zeta.
  do 8 (unfold load32 at 1; apply t_ld; intros ? ?).
  eapply twin_bind; [apply t_rounds; cbn; lia|]. intros x x' _.
  do 8 (eapply twin_bind; [apply t_hash_add; reflexivity|]; intros [] [] _).
  unfold load32, store32. apply t_ld. intros ? ?.
  eapply t_stc; [exact IN|reflexivity|vm_compute; discriminate|]. intros _. apply t_ret. reflexivity.
Qed.
Lemma t_finalize : twin eq (finalize_hash h) (finalize_hash h).
Proof. unfold finalize_hash. exact (t_extend (wadd h hs_padding)). Qed.
Lemma t_init : twin eq (init_hash h) (init_hash h).
Proof.
  unfold init_hash, store32.
  do 8 (eapply t_stc; [exact IN|reflexivity|vm_compute; discriminate|]; intros _).
  eapply twin_bind; [|intros [] [] _].
  - unfold bzero64, store64. apply twin_for_lt. intros j J. change (N.to_nat (hash_block_size / 8)) with 8%nat in J.
    eapply t_stc; [exact IN|apply wadd_sum| |intros _; apply t_ret; reflexivity].
    unfold wmul, hs_padding. cbn [N.of_nat] in *. rewrite N.mod_small by (unfold W64; lia). lia.
  - eapply t_stc; [exact IN|reflexivity|vm_compute; discriminate|]. intros _. apply t_ret. reflexivity.
Qed.
End Twin.

(** ** Measurements *)
Section Measure.
Variable S : N -> Prop.
Variable e : N.
(** The hash state and the hash block of the record at [e]. *)
Hypothesis IN : covers S (wadd e ei_hash) 224.
Lemma in_hash : covers S (wadd e ei_hash) 160.
Proof. intros x off n E L. apply (IN x off n E). lia. Qed.
Lemma block_at x : wadd (wadd e ei_hash_block) x = wadd (wadd e ei_hash) (160 + x).
Proof. rewrite !wadd_sum. replace (ei_hash_block + x) with (ei_hash + (160 + x)) by (unfold ei_hash_block, ei_hash; lia). reflexivity. Qed.
Ltac stm1 := eapply t_stc; [exact IN|apply block_at|vm_compute; discriminate|]; intros _.
Lemma t_block : twin S eq (extend_enclave_block e) (extend_enclave_block e).
Proof. unfold extend_enclave_block. exact (t_extend S _ in_hash _). Qed.
Ltac stb := eapply twin_bind; [apply t_block|]; intros [] [] _.
Ltac done_ := apply t_ret; reflexivity.
Lemma t_init_enclave b m c d b' m' c' d' :
  twin S eq (init_enclave_hash e b m c d) (init_enclave_hash e b' m' c' d').
Proof.
  unfold init_enclave_hash, enclave_measurement_block, store64. cbv zeta.
  eapply twin_bind; [|intros [] [] _].
  { unfold bzero64, store64. apply twin_for_lt. intros j J. change (N.to_nat (hash_block_size / 8)) with 8%nat in J.
    eapply t_stc; [exact IN|apply block_at| |intros _; apply t_ret; reflexivity].
    unfold wmul. cbn [N.of_nat] in *. rewrite N.mod_small by (unfold W64; lia). lia. }
  eapply twin_bind; [apply t_init, in_hash|intros [] [] _].
  do 5 stm1. stb. repeat stm1. done_.
Qed.
Lemma t_page_table v l a v' l' a' :
  twin S eq (extend_enclave_hash_with_page_table e v l a) (extend_enclave_hash_with_page_table e v' l' a').
Proof.
  unfold extend_enclave_hash_with_page_table, enclave_measurement_block, store64. cbv zeta.
  do 4 stm1. stb. do 3 stm1. done_.
Qed.
Lemma t_page v a v' a' phys :
  twin S eq (extend_enclave_hash_with_page e v a phys) (extend_enclave_hash_with_page e v' a' phys).
Proof.
  unfold extend_enclave_hash_with_page, enclave_measurement_block, store64. cbv zeta.
  do 3 stm1. stb. do 2 stm1. apply twin_for. intros j. exact (t_extend S _ in_hash _).
Qed.
Lemma t_thread a b c d a' b' c' d' :
  twin S eq (extend_enclave_hash_with_thread e a b c d) (extend_enclave_hash_with_thread e a' b' c' d').
Proof.
  unfold extend_enclave_hash_with_thread, enclave_measurement_block, store64. cbv zeta.
  do 5 stm1. stb. do 4 stm1. done_.
Qed.
Lemma t_final : twin S eq (finalize_enclave_hash e) (finalize_enclave_hash e).
Proof.
  unfold finalize_enclave_hash, enclave_measurement_block, store64. cbv zeta. stm1. stb. exact (t_finalize S _ in_hash).
Qed.
End Measure.

(** ** Calls *)
Section Calls.
Variables (G : globals) (pb rb : N).
Hypothesis g : geom G pb rb.
Variable S : N -> Prop.
(** [S] lies above the monitor's memory. *)
Hypothesis HIGH : forall b, b < g_monitor_top G -> ~ S b.
Lemma low_clear r off : r < g_dram_region_count G -> off < 40 -> off + 8 <= 40 ->
  forall b, wadd (region_addr G r) off <= b < wadd (region_addr G r) off + 8 -> ~ S b.
Proof.
  intros R O O8 b. pose proof (layout _ _ _ g) as (L1 & L2 & L3 & L4 & L5 & L6 & L7 & L8).
  change (2 ^ 30) with 1073741824 in L8. unfold region_addr, dram_region_info_size.
  rewrite (wmul_small 40 r), (wadd_small (g_dram_region G)), wadd_small by (unfold W64; lia).
  intros B. apply HIGH. lia.
Qed.
Ltac off8 := vm_compute; (reflexivity || discriminate).
Lemma t_tas r : r < g_dram_region_count G ->
  twin S eq (test_and_set_dram_region_lock G r) (test_and_set_dram_region_lock G r).
Proof. intros R. apply twin_uses. cbn [uses bind op1 test_and_set_dram_region_lock clear]. split; [|auto]. apply low_clear; auto; off8. Qed.
Lemma t_clr r : r < g_dram_region_count G -> twin S eq (clear_dram_region_lock G r) (clear_dram_region_lock G r).
Proof. intros R. apply twin_uses. cbn [uses bind op1 clear_dram_region_lock clear]. split; [|auto]. apply low_clear; auto; off8. Qed.
Lemma t_owner r : r < g_dram_region_count G -> twin S eq (read_dram_region_owner G r) (read_dram_region_owner G r).
Proof. intros R. apply twin_uses. cbn [uses bind op1 read_dram_region_owner load64 clear]. split; [|auto]. apply low_clear; auto; off8. Qed.
Lemma t_load64 a : (forall b, a <= b < a + 8 -> ~ S b) -> twin S eq (load64 a) (load64 a).
Proof. intros H. apply twin_uses. cbn [uses op1 load64 clear]. auto. Qed.
Ltac tb L := eapply twin_bind; [apply L|]; [..|intros ? ? <-].
Lemma t_bcopy d x : (forall b, d <= b < d + 4096 -> S b) -> d + 4096 <= W64 ->
  twin S eq (bcopy64 d x page_size) (bcopy64 d x page_size).
Proof.
  intros H DW. unfold bcopy64. apply twin_for_lt. intros j J.
  change (N.to_nat (page_size / 8)) with 512%nat in J. cbn [N.of_nat] in J.
  unfold load64, store64. apply t_ld. intros v v'. apply t_st; [|intros _; apply t_ret; reflexivity].
  intros b B. apply H. revert B. rewrite wmul_small, wadd_small by (unfold W64 in *; lia). cbn [N.of_nat]. lia.
Qed.
Lemma t_copy_debug id ea oa rd :
  (forall b, ea <= b < ea + 4096 -> S b) -> (forall b, oa <= b < oa + 4096 -> S b) ->
  ea + 4096 <= W64 -> oa + 4096 <= W64 ->
  id + 304 + 8 * g_dram_region_bitmap_words G <= W64 ->
  (forall b, id <= b < id + 304 + 8 * g_dram_region_bitmap_words G -> ~ S b) ->
  twin S eq (copy_debug_enclave_page G id ea oa rd) (copy_debug_enclave_page G id ea oa rd).
Proof.
  intros HE HO WE WO WI HI. unfold copy_debug_enclave_page.
  destruct (_ || _); [apply t_ret; reflexivity|]. destruct (_ || _); [apply t_ret; reflexivity|].
  cbv zeta. set (q := clamped_dram_region_for G id). set (x := dram_region_for G ea).
  set (r := dram_region_for G oa).
  assert (Q : q < g_dram_region_count G) by apply (clamped_lt G pb rb g).
  assert (R : r < g_dram_region_count G) by apply (region_lt G pb rb g).
  assert (X : x < g_dram_region_count G) by apply (region_lt G pb rb g).
  clearbody q x r.
  tb t_tas; [exact Q|]. destruct a; [apply t_ret; reflexivity|].
  tb t_tas; [exact R|]. destruct a; [tb t_clr; [exact Q|]; apply t_ret; reflexivity|].
  tb t_owner; [exact Q|]. tb t_owner; [exact R|].
  eapply (twin_bind S eq); [|intros b ? <-].
  { apply twin_uses. pose proof (layout _ _ _ g) as (L1 & L2 & L3 & L4 & L5 & L6 & L7 & L8).
    assert (XW : x / 64 < g_dram_region_bitmap_words G) by (clear - X L5; lia).
    change (2 ^ 30) with 1073741824 in L8.
    unfold read_enclave_region_bitmap_bit, enclave_region_bitmap, read_bitmap_bit. change enclave_info_t_size with 304.
    destruct (id =? null_enclave_id); cbn [uses bind op1 load64 clear]; (split; [|auto]); intros b;
      rewrite wmul_small by (clear - XW L4 L8 WI; unfold W64 in *; lia).
    - rewrite wadd_small by (clear - XW L4 L8; unfold W64 in *; lia). intros B. apply HIGH.
      cbn [N.of_nat] in B. clear - B XW L4. lia.
    - rewrite (wadd_small id) by (clear - WI XW; unfold W64 in *; lia).
      rewrite wadd_small by (clear - WI XW; unfold W64 in *; lia). intros B. apply HI.
      cbn [N.of_nat] in B. clear - B XW. lia. }
  eapply (twin_bind S eq); [apply t_load64|intros dbg ? <-].
  { change ei_is_debug with 24. rewrite wadd_small by (unfold W64 in *; lia). intros b' B. apply HI. lia. }
  eapply (twin_bind S eq); [|intros [] [] _].
  - destruct (_ =? monitor_ok); [|reflexivity]. destruct rd; apply t_bcopy; auto.
  - tb t_clr; [exact R|]. tb t_clr; [exact Q|]. apply t_ret. reflexivity.
Qed.
Lemma t_init_call id : id + 304 <= W64 -> covers S (wadd id ei_hash) 224 ->
  (forall b, id <= b < id + 80 -> ~ S b) ->
  twin S eq (init_enclave G id) (init_enclave G id).
Proof.
  intros WI IN HI. unfold init_enclave. cbv zeta.
  assert (Q : clamped_dram_region_for G id < g_dram_region_count G) by apply (clamped_lt G pb rb g).
  tb t_tas; [exact Q|]. destruct a; [apply t_ret; reflexivity|].
  eapply (twin_bind S eq); [|intros bad ? <-].
  { unfold bad_enclave_id, is_valid_enclave_id.
    destruct (id =? null_enclave_id); [apply t_ret; reflexivity|].
    apply twin_uses. cbn [uses bind op1 load64 clear]. split; [|auto]. apply low_clear; auto; off8. }
  destruct bad; [tb t_clr; [exact Q|]; apply t_ret; reflexivity|].
  eapply (twin_bind S eq); [apply t_load64|intros i ? <-].
  { change ei_is_initialized with 16. rewrite wadd_small by (unfold W64 in *; lia). intros b' B. apply HI. lia. }
  destruct (negb _); [tb t_clr; [exact Q|]; apply t_ret; reflexivity|].
  eapply (twin_bind S eq); [apply t_final, IN|intros [] [] _].
  eapply (twin_bind S eq); [apply twin_uses; cbn [uses op1 store64 clear]; auto|intros ? ? <-].
  tb t_clr; [exact Q|]. apply t_ret. reflexivity.
Qed.
End Calls.

Lemma covers_all h k : covers anywhere h k.
Proof. intros x off n E L b B. exact Logic.I. Qed.
Lemma differ_refl S s : differ_in S s s.
Proof. constructor; auto. Qed.

(** ** C95 *)
(** Hashing accesses the same addresses in the same order whatever the memory contains. *)
Theorem C95_hash : forall c h block s s', differ_in anywhere s s' ->
  pattern c (init_hash h) s = pattern c (init_hash h) s' /\
  pattern c (extend_hash h block) s = pattern c (extend_hash h block) s' /\
  pattern c (finalize_hash h) s = pattern c (finalize_hash h) s'.
Proof.
  intros c h block s s' D. split; [|split].
  - eapply (twin_run anywhere); [apply t_init, covers_all|exact D].
  - eapply (twin_run anywhere); [apply t_extend, covers_all|exact D].
  - eapply (twin_run anywhere); [apply t_finalize, covers_all|exact D].
Qed.
(** So do the measurements of an enclave, also whatever the values measured. *)
Theorem C95_measurement : forall c e phys s s', differ_in anywhere s s' ->
  (forall b m n d b' m' n' d', pattern c (init_enclave_hash e b m n d) s = pattern c (init_enclave_hash e b' m' n' d') s') /\
  (forall v l a v' l' a', pattern c (extend_enclave_hash_with_page_table e v l a) s =
     pattern c (extend_enclave_hash_with_page_table e v' l' a') s') /\
  (forall v a v' a', pattern c (extend_enclave_hash_with_page e v a phys) s =
     pattern c (extend_enclave_hash_with_page e v' a' phys) s') /\
  (forall p q f g p' q' f' g', pattern c (extend_enclave_hash_with_thread e p q f g) s =
     pattern c (extend_enclave_hash_with_thread e p' q' f' g') s') /\
  pattern c (finalize_enclave_hash e) s = pattern c (finalize_enclave_hash e) s'.
Proof.
  intros c e phys s s' D. pose proof (covers_all (wadd e ei_hash) 224) as C.
  split; [|split; [|split; [|split]]]; intros.
  - eapply (twin_run anywhere); [apply t_init_enclave, C|exact D].
  - eapply (twin_run anywhere); [apply t_page_table, C|exact D].
  - eapply (twin_run anywhere); [apply t_page, C|exact D].
  - eapply (twin_run anywhere); [apply t_thread, C|exact D].
  - eapply (twin_run anywhere); [apply t_final, C|exact D].
Qed.

Lemma page_fits G pb rb a : geom G pb rb -> is_page_aligned a = true -> is_dram_address G a = true ->
  a + 4096 <= W64.
Proof.
  intros g A D. unfold is_page_aligned, is_aligned_to_mask, is_dram_address in *. pose proof (geo_D _ _ _ g) as GD.
  change (wsub page_size 1) with (N.ones 12) in A.
  rewrite N.land_ones in A. change (2 ^ 12) with 4096 in A. unfold W64 in *. lia.
Qed.
(** The bytes of the two pages. *)
Definition pages (ea oa b : N) : Prop := at_ ea 4096 b \/ at_ oa 4096 b.
(** Two machines that differ in the two pages of a copy_debug_enclave_page only: the same
    accesses, the same result, and still no other differences. *)
Theorem C95_copy_debug : forall G pb rb c id ea oa (rd : bool) s s', geom G pb rb ->
  g_monitor_top G <= ea -> g_monitor_top G <= oa ->
  id + 304 + 8 * g_dram_region_bitmap_words G <= 2 ^ 64 ->
  (forall b, at_ id (304 + 8 * g_dram_region_bitmap_words G) b -> ~ pages ea oa b) ->
  differ_in (pages ea oa) s s' ->
  let p := call_prog G (CCopyDebugPage id ea oa rd) in
  pattern c p s = pattern c p s' /\ snd (run c p s) = snd (run c p s') /\
  differ_in (pages ea oa) (fst (run c p s)) (fst (run c p s')).
Proof.
  intros G pb rb c id ea oa rd s s' g HE HO WI HI D p.
  assert (T : twin (pages ea oa) eq p p).
  { unfold p. cbn [call_prog].
    destruct (is_page_aligned ea && is_page_aligned oa && is_dram_address G ea && is_dram_address G oa) eqn:OK.
    - apply andb_prop in OK as [OK D2]. apply andb_prop in OK as [OK D1]. apply andb_prop in OK as [A1 A2].
      apply (t_copy_debug G pb rb g).
      + intros b B [X|X]; unfold at_ in X; lia.
      + intros b B. left. exact B.
      + intros b B. right. exact B.
      + exact (page_fits G pb rb ea g A1 D1).
      + exact (page_fits G pb rb oa g A2 D2).
      + exact WI.
      + intros b B. apply HI. unfold at_. lia.
    - unfold copy_debug_enclave_page.
      destruct (is_page_aligned ea), (is_page_aligned oa), (is_dram_address G ea), (is_dram_address G oa);
        try discriminate; reflexivity. }
  destruct (twin_run _ eq c p p s s' T D) as (P & R & F). split; [exact P|]. split; [|exact F].
  unfold related in R. destruct (snd (run c p s)), (snd (run c p s')); try contradiction; congruence.
Qed.
(** Likewise init_enclave and the state of the measurement. *)
Theorem C95_init_enclave : forall G pb rb c id s s', geom G pb rb ->
  g_monitor_top G <= id -> id + 304 <= 2 ^ 64 ->
  differ_in (at_ (id + 80) 224) s s' ->
  let p := call_prog G (CInitEnclave id) in
  pattern c p s = pattern c p s' /\ snd (run c p s) = snd (run c p s') /\
  differ_in (at_ (id + 80) 224) (fst (run c p s)) (fst (run c p s')).
Proof.
  intros G pb rb c id s s' g HI WI D p. change (2 ^ 64) with W64 in WI.
  assert (T : twin (at_ (id + 80) 224) eq p p).
  { unfold p. cbn [call_prog]. apply (t_init_call G pb rb g).
    - intros b B X. unfold at_ in X. lia.
    - exact WI.
    - intros x off k -> L b B. change ei_hash with 80 in B. rewrite (wadd_small id) in B by lia.
      rewrite wadd_small in B by lia. unfold at_. lia.
    - intros b B X. unfold at_ in X. lia. }
  destruct (twin_run _ eq c p p s s' T D) as (P & R & F). split; [exact P|]. split; [|exact F].
  unfold related in R. destruct (snd (run c p s)), (snd (run c p s')); try contradiction; congruence.
Qed.

(** ** A debugging copy of two different pages *)
Definition ex_page : N := page_addr 6 4 3 1.
Definition ex_buffer : N := page_addr 6 4 8 0.
Definition ex_other : state := put ex_debug (ex_page + 8) 5.
Lemma put_differ s a v : differ_in (at_ a 8) s (put s a v).
Proof.
  constructor; auto. intros b B. unfold put. cbn [set_mem s_mem]. rewrite st_other; [reflexivity|].
  intros X. apply B. exact X.
Qed.
Lemma differ_more (S S' : N -> Prop) s s' : (forall b, S b -> S' b) -> differ_in S s s' -> differ_in S' s s'.
Proof. intros I [D1 D2 D3 D4 D5 D6 D7]. constructor; auto. Qed.
Example C95_example :
  differ_in (pages ex_page ex_buffer) ex_debug ex_other /\
  word ex_debug (ex_page + 8) <> word ex_other (ex_page + 8) /\
  g_monitor_top ex_G <= ex_page /\ g_monitor_top ex_G <= ex_buffer /\
  ex_encl + 304 + 8 * g_dram_region_bitmap_words ex_G <= 2 ^ 64 /\
  (forall b, at_ ex_encl (304 + 8 * g_dram_region_bitmap_words ex_G) b -> ~ pages ex_page ex_buffer b) /\
  snd (run 0 (call_prog ex_G (CCopyDebugPage ex_encl ex_page ex_buffer true)) ex_debug) = Some 0 /\
  N.of_nat (length (pattern 0 (call_prog ex_G (CCopyDebugPage ex_encl ex_page ex_buffer true)) ex_debug)) = 1032 /\
  word (fst (run 0 (call_prog ex_G (CCopyDebugPage ex_encl ex_page ex_buffer true)) ex_other)) (ex_buffer + 8) = 5.
Proof.
  split; [apply (differ_more (at_ (ex_page + 8) 8)); [unfold pages, at_; intros b B; lia|apply put_differ]|].
  split; [vm_compute; discriminate|]. split; [vm_compute; discriminate|]. split; [vm_compute; discriminate|].
  split; [vm_compute; discriminate|]. split.
  - intros b. unfold pages, at_.
    replace ex_page with 790528 by (vm_compute; reflexivity).
    replace ex_buffer with 2097152 by (vm_compute; reflexivity).
    replace ex_encl with 1314816 by (vm_compute; reflexivity).
    replace (g_dram_region_bitmap_words ex_G) with 1 by (vm_compute; reflexivity). lia.
  - split; [vm_compute; reflexivity|]. split; vm_compute; reflexivity.
Qed.

Definition P_Pattern_theorems := (C95_hash, C95_measurement, C95_copy_debug, C95_init_enclave, C95_example).
Print Assumptions P_Pattern_theorems.
