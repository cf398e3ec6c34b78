(** * Properties C97 and C98: DRAM regions and the last-level cache. *)
From Coq Require Import NArith ZArith Lia Bool List.
From Coq Require Import ZifyBool ZifyNat ZifyN.
From Verif Require Import Word Machine ModelBare ModelHash ModelInl ModelRegions
  ModelMetadata ModelEnclave ModelBoot ModelApi Lib BareProofs BootProofs SpecGeometry
  GeomProofs Trace SpecMonitor SpecHistory ViewProofs SeqProofs SeqCalls SeqCalls2 SeqCalls3
  HistoryProofs P_Boot P_Regions P_Enclave ConcProofs ConcCalls ConcCalls2 ConcGlobal
  AtomicProofs P_Conc SpecConcurrent SpecAtomic SpecInside SpecSecret TouchProofs P_Inside P_Secret
  SpecTouch P_Touch P_Touch2 BootProofs2 SpecBoot P_Platform SpecSystem P_System SpecCache.
Import ListNotations.
Open Scope N_scope.
Ltac Zify.zify_post_hook ::= Z.div_mod_to_equations.

(** ** Regions have their own sets *)
Lemma pow_split a b : a <= b -> 2 ^ b = 2 ^ a * 2 ^ (b - a).
Proof. intros H. rewrite <- N.pow_add_r. f_equal. lia. Qed.
Lemma pow_nz a : 2 ^ a <> 0.
Proof. apply N.pow_nonzero. discriminate. Qed.
Lemma set_region lb st pb rb a : lb <= 12 -> lb + st = 12 + rb ->
  cache_set lb st pb a / 2 ^ (12 - lb) = region_of pb rb a.
Proof.
  intros L E. unfold cache_set, region_of. set (q := a / 2 ^ (12 + pb)).
  assert (S : 2 ^ st = 2 ^ (12 - lb) * 2 ^ rb) by (rewrite <- N.pow_add_r; f_equal; lia).
  assert (F : 4096 = 2 ^ lb * 2 ^ (12 - lb)) by (rewrite <- N.pow_add_r; replace (lb + (12 - lb)) with 12 by lia; reflexivity).
  pose proof (pow_nz (12 - lb)) as Z1. pose proof (pow_nz lb) as Z2. pose proof (pow_nz rb) as Z3.
  rewrite S, N.mod_mul_r by assumption.
  set (x := a mod 4096 + 4096 * q). rewrite (N.mul_comm (2 ^ (12 - lb)) (_ mod 2 ^ rb)), N.div_add by assumption.
  rewrite (N.div_small (_ mod 2 ^ (12 - lb))) by (apply N.mod_lt; assumption). rewrite N.add_0_l.
  rewrite N.div_div by assumption. rewrite <- F. f_equal.
  unfold x. rewrite (N.mul_comm 4096), N.div_add by discriminate.
  rewrite N.div_small; [reflexivity|]. apply N.mod_lt. discriminate.
Qed.
Lemma sets_apart lb st pb rb a b : lb <= 12 -> lb + st = 12 + rb ->
  region_of pb rb a <> region_of pb rb b -> cache_set lb st pb a <> cache_set lb st pb b.
Proof. intros L E N H. apply N. rewrite <- !(set_region lb st) by assumption. rewrite H. reflexivity. Qed.

(** The last-level cache of a platform: lines of 2^lb bytes, 2^st sets. *)
Definition last_cache (P : platform) (lb st : N) : Prop :=
  p_line_size P (p_cache_levels P - 1) = 2 ^ lb /\ p_set_count P (p_cache_levels P - 1) = 2 ^ st.
Lemma last_bits P top d t pb rb lb st : boots P top d t pb rb -> last_cache P lb st -> lb + st = 12 + rb.
Proof.
  intros B [L S]. destruct (bs_cache _ _ _ _ _ _ B) as (lb' & st' & _ & _ & E & _ & L' & S').
  rewrite L in L'. rewrite S in S'. apply N.pow_inj_r in L'; [|lia]. apply N.pow_inj_r in S'; [|lia]. lia.
Qed.

(** On every platform that boots and whose cache lines are at most a page long: the 2^st
    sets are cut into 2^rb equal parts, and on the core that booted, whatever calls were
    made since, addresses in region [r] are kept in the [r]-th part only.  So no two
    addresses in different regions share a set, and each region gets all of its part. *)
Theorem C97_own_sets_partial : forall P top d t pb rb lb st c s, sane P top ->
  boots P top d t pb rb -> last_cache P lb st -> lb <= 12 ->
  exists s' G, run c (boot_from P top) s = (s', Some G) /\
  forall allowed nowrap x, creach G pb rb allowed nowrap s' x ->
    (forall a b, region_of pb rb a <> region_of pb rb b ->
       cache_set lb st (shift_of x c) a <> cache_set lb st (shift_of x c) b) /\
    (forall a, cache_set lb st (shift_of x c) a / 2 ^ (12 - lb) = region_of pb rb a) /\
    (forall r k, r < 2 ^ rb -> k < 2 ^ (12 - lb) ->
       exists a, a < 2 ^ (12 + pb + rb) /\ region_of pb rb a = r /\
         cache_set lb st (shift_of x c) a = 2 ^ (12 - lb) * r + k).
Proof.
  intros P top d t pb rb lb st c s SN B LC L. pose proof (last_bits _ _ _ _ _ _ _ _ B LC) as E.
  destruct (C84_boot_result c s P top d t pb rb SN B) as [s' [R BE]].
  exists s', (boot_globals P top t pb rb). split; [exact R|]. intros al nw x X.
  destruct (C69_protection_constant _ _ _ _ _ _ _ c X) as [_ [_ SH]].
  unfold shift_of. rewrite SH, (be_shift _ _ _ _ _ BE).
  split; [|split].
  - intros a b N. apply (sets_apart lb st pb rb); assumption.
  - intros a. apply set_region; assumption.
  - intros r k HR HK.
    assert (F : 4096 = 2 ^ lb * 2 ^ (12 - lb)) by (rewrite <- N.pow_add_r; replace (lb + (12 - lb)) with 12 by lia; reflexivity).
    assert (K : 2 ^ lb * k < 4096) by (rewrite F; apply N.mul_lt_mono_pos_l; [pose proof (pow_nz lb); lia|exact HK]).
    assert (P12 : 2 ^ (12 + pb) = 4096 * 2 ^ pb) by (rewrite N.pow_add_r; reflexivity).
    assert (Z : 2 ^ (12 + pb) <> 0) by apply pow_nz.
    exists (2 ^ lb * k + r * 2 ^ (12 + pb)).
    assert (Q : (2 ^ lb * k + r * 2 ^ (12 + pb)) / 2 ^ (12 + pb) = r).
    { rewrite N.div_add by exact Z. rewrite N.div_small; [lia|]. rewrite P12. pose proof (pow_nz pb). nia. }
    assert (M : (2 ^ lb * k + r * 2 ^ (12 + pb)) mod 4096 = 2 ^ lb * k).
    { rewrite P12. replace (r * (4096 * 2 ^ pb)) with (r * 2 ^ pb * 4096) by ring.
      rewrite N.mod_add by discriminate. apply N.mod_small, K. }
    split; [|split].
    + rewrite (N.pow_add_r 2 (12 + pb) rb). rewrite P12 in *. pose proof (pow_nz pb).
      assert (2 ^ lb * k < 4096 * 2 ^ pb) by nia.
      assert (r + 1 <= 2 ^ rb) by lia. nia.
    + unfold region_of. rewrite Q. apply N.mod_small, HR.
    + unfold cache_set. rewrite Q, M. rewrite F, <- N.mul_assoc, <- N.mul_add_distr_l.
      rewrite N.mul_comm, N.div_mul by apply pow_nz.
      rewrite N.add_comm. apply N.mod_small.
      replace st with ((12 - lb) + rb) by lia. rewrite N.pow_add_r.
      assert (r + 1 <= 2 ^ rb) by lia. nia.
Qed.

(** ** What one can learn *)
Section Timing.
Variables (cell : Type) (look_up : cell -> N -> cell * bool).
Variables (lb st pb rb r : N).
Hypothesis L : lb <= 12.
Hypothesis E : lb + st = 12 + rb.
(** The sets of region [r] are in the same state. *)
Definition same_sets (u v : N -> cell) : Prop :=
  forall a, region_of pb rb a = r -> u (cache_set lb st pb a) = v (cache_set lb st pb a).
Definition mine (a : N) : bool := region_of pb rb a =? r.
Lemma use_other a u v : region_of pb rb a <> r -> same_sets u v ->
  same_sets (fst (use_line cell look_up lb st pb a u)) v.
Proof.
  intros N S b B. cbn [use_line fst].
  assert (H : cache_set lb st pb b <> cache_set lb st pb a).
  { apply (sets_apart lb st pb rb); [exact L|exact E|congruence]. }
  apply N.eqb_neq in H. rewrite H. apply S, B.
Qed.
Lemma same_sym u v : same_sets u v -> same_sets v u.
Proof. intros S a A. symmetry. apply S, A. Qed.
Lemma use_mine a u v : region_of pb rb a = r -> same_sets u v ->
  same_sets (fst (use_line cell look_up lb st pb a u)) (fst (use_line cell look_up lb st pb a v)) /\
  snd (use_line cell look_up lb st pb a u) = snd (use_line cell look_up lb st pb a v).
Proof.
  intros A S. cbn [use_line fst snd]. rewrite (S a A). split; [|reflexivity].
  intros b B. destruct (_ =? _); [reflexivity|apply S, B].
Qed.
Lemma use_others l : forall u v, (forall a, In a l -> region_of pb rb a <> r) -> same_sets u v ->
  same_sets (use_lines cell look_up lb st pb l u) v.
Proof.
  induction l as [|a l IH]; intros u v H S; cbn [use_lines]; [exact S|].
  apply IH; [intros b B; apply H; right; exact B|]. apply use_other; [apply H; left; reflexivity|exact S].
Qed.
Lemma hits_filter l : forall u v, same_sets u v ->
  filter (fun p => mine (fst p)) (hits cell look_up lb st pb l u) =
  hits cell look_up lb st pb (filter mine l) v.
Proof.
  induction l as [|a l IH]; intros u v S; cbn [hits filter]; [reflexivity|].
  cbn [fst]. destruct (mine a) eqn:M.
  - apply N.eqb_eq in M. destruct (use_mine a u v M S) as [S' ->]. cbn [hits]. f_equal. apply IH, S'.
  - apply N.eqb_neq in M. apply IH. apply use_other; [exact M|exact S].
Qed.
End Timing.

(** Whatever the cache does inside a set: on cores with the shift that boot chose, which of
    the accesses to region [r] hit and which miss is determined by the accesses to region
    [r] and by what region [r]'s sets kept before, and not influenced by any accesses to
    other regions. *)
Theorem C97_timing : forall P top d t pb rb lb st cell look_up r l l' u u',
  boots P top d t pb rb -> last_cache P lb st -> lb <= 12 ->
  (forall a, region_of pb rb a = r -> u (cache_set lb st pb a) = u' (cache_set lb st pb a)) ->
  filter (fun a => region_of pb rb a =? r) l = filter (fun a => region_of pb rb a =? r) l' ->
  filter (fun p => region_of pb rb (fst p) =? r) (hits cell look_up lb st pb l u) =
  filter (fun p => region_of pb rb (fst p) =? r) (hits cell look_up lb st pb l' u').
Proof.
  intros P top d t pb rb lb st cell look_up r l l' u u' B LC L S F.
  pose proof (last_bits _ _ _ _ _ _ _ _ B LC) as E.
  pose proof (hits_filter cell look_up lb st pb rb r L E) as H. unfold same_sets, mine in H.
  rewrite (H l u u' S), (H l' u' u' (fun a _ => eq_refl)). unfold mine. rewrite F. reflexivity.
Qed.

(** ** The monitor *)
Lemma monitor_apart P top pb rb G s0 r x c k o f i lb st :
  started P top pb rb G s0 -> creach G pb rb (safe_call G) false s0 x ->
  lb <= 12 -> lb + st = 12 + rb ->
  (forall c k p i, c < g_core_count G -> cf_task x c = Running k p i ->
    spares G pb rb c (s_words s0) r False p any) ->
  c < g_core_count G -> cf_task x c = Running k (Do o f) i ->
  forall a, accesses (s_words (cf_state x)) o a -> region_of pb rb a <> r.
Proof.
  intros ST R L E HU C T a AC. specialize (HU c k _ i C T). cbn [spares] in HU. destruct HU as [U _].
  rewrite (reach_words _ _ _ _ _ _ _ R) in AC.
  destruct o; cbn [accesses untouching] in *; try contradiction; apply U; exact AC.
Qed.
Lemma reach_shift G pb rb al nw s0 x c : creach G pb rb al nw s0 x ->
  shift_of x c = r_cache_shift (s_cores s0 c).
Proof. intros R. apply (C69_protection_constant _ _ _ _ _ _ _ c R). Qed.

(** If all cores have the shift that boot chose: while no core's registers admit region [r]
    and no call names it, neither the software nor the monitor, on any core, changes what
    the cache keeps of region [r], nor what the region's sets keep at all. *)
Theorem C97_undisturbed_partial : forall P top d t pb rb G s0 lb st cell look_up r x u y v,
  started P top pb rb G s0 -> boots P top d t pb rb -> last_cache P lb st -> lb <= 12 ->
  (forall c, c < g_core_count G -> r_cache_shift (s_cores s0 c) = pb) ->
  creach G pb rb (safe_call G) false s0 x -> quiet G x ->
  r <> 0 -> avoids pb rb r (g_os_region_bitmap G) (8 * s_words s0) ->
  cached cell look_up lb st G pb rb (unnamed_call G pb rb r) (hidden G pb rb r) (x, u) (y, v) ->
  forall a, region_of pb rb a = r -> v (cache_set lb st pb a) = u (cache_set lb st pb a).
Proof.
  intros P top d t pb rb G s0 lb st cell look_up r x u y v ST B LC L SH R QX NZ HW CA.
  pose proof (last_bits _ _ _ _ _ _ _ _ B LC) as E.
  assert (HU : forall c k p i, c < g_core_count G -> cf_task x c = Running k p i ->
    spares G pb rb c (s_words s0) r False p any).
  { intros c k p i C T. rewrite (QX c C) in T. discriminate. }
  clear QX. remember (x, u) as w eqn:W. remember (y, v) as w' eqn:W'.
  revert W' x u W HU R. induction CA as [w|w w1 w2 Q S CA IH]; intros W' x u W HU R.
  - rewrite W in W'. injection W' as -> ->. reflexivity.
  - subst w. cbn [fst] in Q. specialize (IH W'). destruct w1 as [x1 u1].
    assert (NEXT : cstep G pb rb (unnamed_call G pb rb r) false x x1 ->
      creach G pb rb (safe_call G) false s0 x1 /\
      (forall c k p i, c < g_core_count G -> cf_task x1 c = Running k p i ->
        spares G pb rb c (s_words s0) r False p any)).
    { intros SP. split.
      - eapply cr_step; [exact R|]. eapply cstep_mono; [|exact SP]. intros k K. apply K.
      - eapply spares_step; [exact ST|exact R|exact NZ|exact HW|intros []|intros k K; apply unnamed_public; exact K|exact HU|exact SP]. }
    assert (SX : forall c, c < g_core_count G -> shift_of x c = pb).
    { intros c C. rewrite (reach_shift _ _ _ _ _ _ _ _ R). apply SH, C. }
    assert (OUT : forall a, region_of pb rb a <> r ->
      same_sets cell lb st pb rb r (fst (use_line cell look_up lb st pb a u)) u).
    { intros a N. apply use_other; [exact L|exact E|exact N|]. intros b _. reflexivity. }
    assert (KEY : same_sets cell lb st pb rb r u1 u /\
      creach G pb rb (safe_call G) false s0 x1 /\
      (forall c k p i, c < g_core_count G -> cf_task x1 c = Running k p i ->
        spares G pb rb c (s_words s0) r False p any)).
    { inversion S; subst.
      - split; [|apply NEXT; assumption]. rewrite SX by assumption.
        apply use_others; [exact L|exact E| |intros b _; reflexivity].
        intros a A. match goal with H : forall a, In a _ <-> _ |- _ => apply H in A end.
        eapply (monitor_apart _ _ _ _ _ _ _ _ _ _ _ _ _ lb st ST R L E HU); eassumption.
      - split; [intros b _; reflexivity|apply NEXT; assumption].
      - split; [|split; assumption]. rewrite SX by assumption. apply OUT. intros A. eapply Q; eassumption.
      - split; [|apply NEXT; assumption]. rewrite SX by assumption. apply OUT. intros A. eapply Q; eassumption.
      - split; [intros b _; reflexivity|apply NEXT; assumption]. }
    destruct KEY as [K1 [K2 K3]]. intros a A. rewrite (IH x1 u1 eq_refl K3 K2 a A). apply K1, A.
Qed.

(** A machine with one core needs no more. *)
Theorem C97_one_core_partial : forall P top d t pb rb G s0 lb st cell look_up r x u y v,
  sane P top -> p_core_count P = 1 ->
  started P top pb rb G s0 -> boots P top d t pb rb -> last_cache P lb st -> lb <= 12 ->
  creach G pb rb (safe_call G) false s0 x -> quiet G x ->
  r <> 0 -> avoids pb rb r (g_os_region_bitmap G) (8 * s_words s0) ->
  cached cell look_up lb st G pb rb (unnamed_call G pb rb r) (hidden G pb rb r) (x, u) (y, v) ->
  forall a, region_of pb rb a = r -> v (cache_set lb st pb a) = u (cache_set lb st pb a).
Proof.
  intros P top d t pb rb G s0 lb st cell look_up r x u y v SN ONE ST B LC L R QX NZ HW CA.
  eapply C97_undisturbed_partial; try eassumption.
  destruct (st_boot _ _ _ _ _ _ ST) as (c & s & C & RB & _).
  destruct (C84_boot_result c s P top d t pb rb SN B) as [s' [R' BE]]. rewrite RB in R'.
  injection R' as <- ->. intros c' C'. cbn [g_core_count boot_globals] in C'.
  replace c' with c by lia. apply (be_shift _ _ _ _ _ BE).
Qed.

(** ** The other cores *)

(** Boot sets the shift on the booting core and on no other, and nothing changes it later.
    A core whose shift is still 0 keeps an address of region 0, which the OS always owns, in
    the same set as the booting core keeps an address of region 1; and there is an address
    that the two cores keep in different sets. *)
Theorem C97_other_cores_refuted : forall P top d t pb rb lb st c c' s, sane P top ->
  boots P top d t pb rb -> last_cache P lb st -> lb <= 12 -> c' <> c ->
  r_cache_shift (s_cores s c') = 0 -> 1 <= pb ->
  exists s' G, run c (boot_from P top) s = (s', Some G) /\
  forall allowed nowrap x, creach G pb rb allowed nowrap s' x ->
    shift_of x c' = 0 /\ shift_of x c = pb /\
    region_of pb rb (2 ^ (12 + pb)) = 1 /\ region_of pb rb 4096 = 0 /\
    cache_set lb st (shift_of x c') 4096 = cache_set lb st (shift_of x c) (2 ^ (12 + pb)) /\
    cache_set lb st (shift_of x c') (2 ^ (12 + pb)) <> cache_set lb st (shift_of x c) (2 ^ (12 + pb)).
Proof.
  intros P top d t pb rb lb st c c' s SN B LC L NE Z PB.
  pose proof (last_bits _ _ _ _ _ _ _ _ B LC) as E.
  assert (RB : 1 <= rb) by (destruct (bs_cache _ _ _ _ _ _ B) as (? & ? & _ & _ & _ & ? & _); lia).
  destruct (C84_boot_result c s P top d t pb rb SN B) as [s' [R BE]].
  exists s', (boot_globals P top t pb rb). split; [exact R|]. intros al nw x X.
  assert (S1 : shift_of x c' = 0).
  { rewrite (reach_shift _ _ _ _ _ _ _ _ X), (be_cores _ _ _ _ _ BE c' NE). exact Z. }
  assert (S2 : shift_of x c = pb).
  { rewrite (reach_shift _ _ _ _ _ _ _ _ X). apply (be_shift _ _ _ _ _ BE). }
  rewrite S1, S2. split; [reflexivity|]. split; [reflexivity|].
  assert (P12 : 2 ^ (12 + pb) = 4096 * 2 ^ pb) by (rewrite N.pow_add_r; reflexivity).
  assert (PB2 : 2 ^ pb = 2 * 2 ^ (pb - 1)) by (rewrite <- N.pow_succ_r'; f_equal; lia).
  assert (RB2 : 2 ^ rb = 2 * 2 ^ (rb - 1)) by (rewrite <- N.pow_succ_r'; f_equal; lia).
  pose proof (pow_nz (pb - 1)) as Z1. pose proof (pow_nz (rb - 1)) as Z2. pose proof (pow_nz (12 + pb)) as Z3.
  assert (Q0 : 4096 / 2 ^ (12 + pb) = 0) by (apply N.div_small; nia).
  assert (R1 : region_of pb rb (2 ^ (12 + pb)) = 1).
  { unfold region_of. rewrite N.div_same by assumption. apply N.mod_small. lia. }
  split; [exact R1|]. split.
  { unfold region_of. rewrite Q0. apply N.mod_0_l, pow_nz. }
  split.
  - unfold cache_set. rewrite (N.div_same (2 ^ (12 + pb))) by assumption. change (2 ^ (12 + 0)) with 4096.
    replace (2 ^ (12 + pb) mod 4096) with 0; [reflexivity|]. rewrite P12, N.mul_comm. symmetry. apply N.mod_mul. discriminate.
  - intros H.
    assert (H1 : cache_set lb st 0 (2 ^ (12 + pb)) / 2 ^ (12 - lb) = 1).
    { rewrite H, (set_region lb st pb rb) by assumption. exact R1. }
    rewrite (set_region lb st 0 rb) in H1 by assumption. unfold region_of in H1.
    change (2 ^ (12 + 0)) with 4096 in H1. rewrite P12, N.mul_comm, N.div_mul in H1 by discriminate.
    destruct (N.le_gt_cases rb pb) as [LE|GT].
    + rewrite (pow_split rb pb LE), N.mul_comm, N.mod_mul in H1 by apply pow_nz. discriminate.
    + rewrite N.mod_small in H1 by (apply N.pow_lt_mono_r; lia). lia.
Qed.

(** ** Lines longer than a page *)

(** Boot accepts them, and then the first bytes of regions 0 and 1 share a set. *)
Theorem C97_long_lines_refuted : forall P top d t pb rb lb st, boots P top d t pb rb ->
  last_cache P lb st -> 12 < lb ->
  region_of pb rb 0 = 0 /\ region_of pb rb (2 ^ (12 + pb)) = 1 /\
  cache_set lb st pb 0 = cache_set lb st pb (2 ^ (12 + pb)).
Proof.
  intros P top d t pb rb lb st B LC L.
  assert (RB : 1 <= rb) by (destruct (bs_cache _ _ _ _ _ _ B) as (? & ? & _ & _ & _ & ? & _); lia).
  assert (RB2 : 2 ^ rb = 2 * 2 ^ (rb - 1)) by (rewrite <- N.pow_succ_r'; f_equal; lia).
  pose proof (pow_nz (rb - 1)) as Z2. pose proof (pow_nz (12 + pb)) as Z3.
  split; [unfold region_of; rewrite N.div_0_l by assumption; apply N.mod_0_l, pow_nz|]. split.
  - unfold region_of. rewrite N.div_same by assumption. apply N.mod_small. lia.
  - unfold cache_set. rewrite (N.div_same (2 ^ (12 + pb))), (N.div_0_l (2 ^ (12 + pb))) by assumption.
    assert (P12 : 2 ^ (12 + pb) = 2 ^ pb * 4096) by (rewrite N.pow_add_r, N.mul_comm; reflexivity).
    rewrite P12, N.mod_mul by discriminate.
    assert (4096 < 2 ^ lb) by (change 4096 with (2 ^ 12); apply N.pow_lt_mono_r; lia).
    rewrite !N.div_small; [reflexivity|lia|]. cbn. pose proof (pow_nz lb). lia.
Qed.
Definition long_platform : platform :=
  mkPlatform (2 ^ 22) 2 (fun i => i =? 1) (fun _ => 8192) (fun _ => 8) 0 10 2.
Example C97_long_example : sane long_platform 0 /\ last_cache long_platform 13 3 /\
  exists d t, boots long_platform 0 d t 6 4.
Proof.
  assert (SN : sane long_platform 0) by (constructor; vm_compute; intuition congruence).
  split; [exact SN|]. split; [split; reflexivity|]. do 2 eexists.
  apply (supported_boots _ _ _ _ SN). constructor; try (vm_compute; intuition congruence).
  - intros [i [H1 [H2 H3]]]. cbn in *. assert (i = 0) by lia. subst. discriminate.
  - exists 13, 3. vm_compute. intuition congruence.
Qed.

(** ** What is handed over with a region *)
Lemma range_list b k : exists l, forall a, In a l <-> b <= a < b + N.of_nat k.
Proof.
  exists (map (fun i => b + N.of_nat i) (seq 0 k)). intros a. rewrite in_map_iff. split.
  - intros [i [<- I]]. apply in_seq in I. lia.
  - intros H. exists (N.to_nat (a - b)). split; [lia|]. apply in_seq. lia.
Qed.
Lemma op_bytes W o : exists l, forall a, In a l <-> accesses W o a.
Proof.
  assert (NO : exists l : list N, forall a, In a l <-> False) by (exists []; intros a; cbn; tauto).
  destruct o; cbn [accesses]; try exact NO; try apply range_list; try apply (range_list _ 8).
  - destruct (range_list a (N.to_nat (8 * W))) as [l H]. exists l. intros b. rewrite H. lia.
  - destruct (range_list a (N.to_nat (8 * W))) as [l H]. exists l. intros b. rewrite H. lia.
Qed.
Lemma step_cached cell look_up lb st G pb rb al x y u : cstep G pb rb al false x y ->
  exists v, cache_step cell look_up lb st G pb rb al (x, u) (y, v).
Proof.
  intros S. assert (S' := S).
  destruct S as [s t h c k C T A AL|s t h c k o f i s' v C T SP NW|s t h c k v i C T|s t h c a v C T A M|s t h a v A M TP].
  - eexists. eapply (cc_call _ _ _ _ _ _ _ _ _ _ _ c); [exact S'|]. cbn [cf_task]. unfold upd. rewrite N.eqb_refl, T.
    split; [discriminate|reflexivity].
  - destruct (op_bytes (s_words s) o) as [l HL]. eexists.
    eapply (cc_monitor _ _ _ _ _ _ _ _ _ _ _ c); [exact C|exact S'|exact T| |exact HL].
    cbn [cf_task]. unfold upd. rewrite N.eqb_refl. reflexivity.
  - eexists. eapply (cc_call _ _ _ _ _ _ _ _ _ _ _ c); [exact S'|]. cbn [cf_task]. unfold upd. rewrite N.eqb_refl, T.
    split; [discriminate|congruence].
  - eexists. eapply (cc_store _ _ _ _ _ _ _ _ _ _ _ c a v); auto.
  - eexists. eapply cc_device; [exact S'|]. exists a, v. repeat split; assumption.
Qed.
Lemma last_first {A} (l : list A) : forall y x, last (y :: l) x = last l y.
Proof. induction l as [|z l IH]; intros y x; [reflexivity|]. cbn [last] in *. destruct l; [reflexivity|apply IH]. Qed.
Lemma execution_cached cell look_up lb st G pb rb al (Q : conf -> Prop) l : forall x u,
  execution G pb rb al x l -> Forall Q (x :: l) ->
  exists v, cached cell look_up lb st G pb rb al Q (x, u) (last l x, v).
Proof.
  induction l as [|y l IH]; intros x u EX F.
  - exists u. apply ca_done.
  - inversion EX as [|? ? ? S EX']; subst. inversion F as [|? ? QX F']; subst.
    destruct (step_cached cell look_up lb st _ _ _ _ _ _ u S) as [v1 S1].
    destruct (IH y v1 EX' F') as [v CA]. exists v. rewrite last_first.
    eapply ca_step; [exact QX|exact S1|exact CA].
Qed.

(** In every machine with the same shift on all cores: however region [r] goes from one owner
    to the next (blocked, freed, assigned, all cores flushing their TLBs, anything but
    deleting an enclave), as long as no core's registers admit it and no call names it, its
    sets keep at the end exactly what they kept at the start, whatever that was: the new
    owner's first hits and misses show what the previous owner accessed last. *)
Theorem C98_handed_over_refuted : forall P top d t pb rb G s0 lb st cell look_up r x l u,
  started P top pb rb G s0 -> boots P top d t pb rb -> last_cache P lb st -> lb <= 12 ->
  (forall c, c < g_core_count G -> r_cache_shift (s_cores s0 c) = pb) ->
  creach G pb rb (safe_call G) false s0 x -> quiet G x ->
  r <> 0 -> avoids pb rb r (g_os_region_bitmap G) (8 * s_words s0) ->
  execution G pb rb (unnamed_call G pb rb r) x l -> Forall (hidden G pb rb r) (x :: l) ->
  exists v, cached cell look_up lb st G pb rb (unnamed_call G pb rb r) (hidden G pb rb r) (x, u) (last l x, v) /\
    forall a, region_of pb rb a = r ->
      v (cache_set lb st pb a) = u (cache_set lb st pb a) /\
      snd (use_line cell look_up lb st pb a v) = snd (use_line cell look_up lb st pb a u).
Proof.
  intros P top d t pb rb G s0 lb st cell look_up r x l u ST B LC L SH R QX NZ HW EX F.
  destruct (execution_cached cell look_up lb st _ _ _ _ _ l x u EX F) as [v CA].
  exists v. split; [exact CA|]. intros a A.
  assert (H : v (cache_set lb st pb a) = u (cache_set lb st pb a)) by (eapply C97_undisturbed_partial; eassumption).
  split; [exact H|]. cbn [use_line snd]. rewrite H. reflexivity.
Qed.

(** ** An example: both cores have shift 6 before boot *)
Definition cx_boot_state : Machine.state :=
  mkState (ex_mem 0) (fun _ => mkCregs (fun _ => 0) (fun _ => 0) 0 0 6 0) 1 0 0 0 0 [].
Definition cx_s0 : Machine.state := fst (run 0 (boot_from ex_platform 0) cx_boot_state).
Lemma cx_started : started ex_platform 0 6 4 ex_G cx_s0.
Proof.
  assert (B0 : run 0 (boot_from ex_platform 0) cx_boot_state = (cx_s0, Some ex_G)).
  { destruct (boot_supported 0 cx_boot_state ex_platform 0 6 4 ex_supported) as [s' [G [R B]]].
    unfold cx_s0. rewrite R. cbn [fst]. rewrite (bt_globals _ _ _ _ _ _ _ _ B).
    replace (2 ^ address_bits_for (tables_end 0 (p_core_count ex_platform) (2 ^ 4))) with 1024
      by (vm_compute; reflexivity). reflexivity. }
  constructor.
  - exact ex_supported.
  - vm_compute. discriminate.
  - exists 0, cx_boot_state. split; [vm_compute; reflexivity|].
    split; [exact B0|]. split; [reflexivity|]. split.
    + intros c' a _ _ _. cbn. apply N.land_0_r.
    + cbn. lia.
Qed.
(** Core 0 has blocked region 2. *)
Definition cx_blocked : conf := ops ex_G 18 0 (begin ex_G 0 (CBlock 2) (initial cx_s0)).
Definition can_step (c : N) (x : conf) : bool :=
  can_op ex_G c x || match cf_task x c with Running _ (Ret _) _ => true | _ => false end.
Fixpoint can_steps (m : nat) (c : N) (x : conf) : bool :=
  match m with O => true | S m => can_step c x && can_steps m c (ops ex_G 1 c x) end.
Lemma can_step_ok al c x : c < g_core_count ex_G -> can_step c x = true -> cstep ex_G 6 4 al false x (ops ex_G 1 c x).
Proof.
  intros C H. unfold can_step in H. apply orb_true_iff in H. destruct H as [H|H]; [apply op_step; assumption|].
  destruct x as [s t h]. cbn [ops cf_task cf_state cf_held] in *.
  destruct (t c) as [|k [v|o f|] i] eqn:T; try discriminate. eapply cs_return; eauto.
Qed.
Lemma steps_execution al c : c < g_core_count ex_G -> forall m x,
  can_steps m c x = true -> execution ex_G 6 4 al x (walk m c x).
Proof.
  intros C. induction m as [|m IH]; intros x M; [constructor|].
  cbn [can_steps] in M. apply andb_true_iff in M. destruct M as [M1 M2]. cbn [walk].
  apply ex_cons; [apply can_step_ok; auto|]. apply IH, M2.
Qed.
Lemma execution_app G pb rb al l : forall x l', execution G pb rb al x l ->
  execution G pb rb al (last l x) l' -> execution G pb rb al x (l ++ l').
Proof.
  induction l as [|y l IH]; intros x l' E E'; [exact E'|]. inversion E; subst. cbn [app].
  apply ex_cons; [assumption|]. apply IH; [assumption|]. rewrite last_first in E'. exact E'.
Qed.
Lemma execution_then G pb rb al l x y l' : execution G pb rb al x l -> y = last l x ->
  execution G pb rb al y l' -> execution G pb rb al x (l ++ l').
Proof. intros E -> E'. apply execution_app; assumption. Qed.
Definition made (c : N) (k : call) (m : nat) (x : conf) : list conf :=
  begin ex_G c k x :: walk m c (begin ex_G c k x).
Lemma made_execution (al : call -> Prop) c k m x : c < g_core_count ex_G -> is_idle x c = true ->
  call_args_ok k -> al k -> can_steps m c (begin ex_G c k x) = true ->
  execution ex_G 6 4 al x (made c k m x).
Proof.
  intros C I A AL M. unfold made. apply ex_cons; [|apply steps_execution; assumption].
  destruct x as [s t h]. unfold begin. cbn [cf_state cf_task cf_held] in *.
  apply cs_start; auto. unfold is_idle in I. cbn [cf_task] in I. destruct (t c); [reflexivity|discriminate].
Qed.
(** Both cores flush, core 0 frees the region and assigns it. *)
Definition cx_flush0 : list conf := made 0 CFlush 5 cx_blocked.
Definition cx_1 : conf := last cx_flush0 cx_blocked.
Definition cx_flush1 : list conf := made 1 CFlush 5 cx_1.
Definition cx_2 : conf := last cx_flush1 cx_1.
Definition cx_free : list conf := made 0 (CFree 2) 8 cx_2.
Definition cx_3 : conf := last cx_free cx_2.
Definition cx_assign : list conf := made 0 (CAssign 2 0) 10 cx_3.
Definition cx_path : list conf := cx_flush0 ++ cx_flush1 ++ cx_free ++ cx_assign.
Definition cx_hidden (x : conf) : bool :=
  negb ((is_idle x 0) && drb_bit (s_cores (cf_state x) 0) 2) &&
  negb ((is_idle x 1) && drb_bit (s_cores (cf_state x) 1) 2).
Lemma cx_hidden_ok x : cx_hidden x = true -> hidden ex_G 6 4 2 x.
Proof.
  unfold cx_hidden. intros H c a C T A [M _]. rewrite A in M.
  apply andb_true_iff in H. destruct H as [H0 H1]. apply negb_true_iff in H0, H1.
  change (g_core_count ex_G) with 2 in C. assert (D : c = 0 \/ c = 1) by lia.
  destruct D as [-> | ->]; unfold is_idle in *; rewrite T, M in *; discriminate.
Qed.
Lemma cx_idle x c : is_idle x c = true -> cf_task x c = Idle.
Proof. unfold is_idle. destruct (cf_task x c); [reflexivity|discriminate]. Qed.
(** A cache with one line per set; the software uses one line of region 2, or does not,
    before it gives the region up. *)
Definition one_line (q : option N) (n : N) : option N * bool :=
  (Some n, match q with Some m => m =? n | None => false end).
Definition cx_address : N := 2 * 262144 + 320.
Definition cx_unused : N -> option N := fun _ => None.
Definition cx_used : N -> option N := fst (use_line (option N) one_line 6 10 6 cx_address cx_unused).
Lemma cx_boots : boots ex_platform 0 22 10 6 4.
Proof. exact (supported_boots _ _ _ _ ex_sane ex_supported_any). Qed.
Lemma cx_last : last_cache ex_platform 6 10.
Proof. split; reflexivity. Qed.
Lemma cx_shifts : forall c, c < g_core_count ex_G -> r_cache_shift (s_cores cx_s0 c) = 6.
Proof.
  assert (H : r_cache_shift (s_cores cx_s0 0) = 6 /\ r_cache_shift (s_cores cx_s0 1) = 6) by (vm_compute; split; reflexivity).
  intros c C. change (g_core_count ex_G) with 2 in C. assert (D : c = 0 \/ c = 1) by lia.
  destruct D as [-> | ->]; apply H.
Qed.
Lemma cx_reach : creach ex_G 6 4 (safe_call ex_G) false cx_s0 cx_blocked.
Proof.
  unfold cx_blocked. apply ops_reach; [reflexivity|].
  apply begin_reach; [reflexivity|vm_compute; reflexivity|reflexivity|exact Logic.I|]. constructor.
Qed.
Lemma cx_quiet : quiet ex_G cx_blocked.
Proof.
  assert (Q : is_idle cx_blocked 0 = true /\ is_idle cx_blocked 1 = true) by (vm_compute; split; reflexivity).
  intros c C. change (g_core_count ex_G) with 2 in C. assert (X : c = 0 \/ c = 1) by lia. destruct Q as [Q0 Q1].
  destruct X as [-> | ->]; apply cx_idle; assumption.
Qed.
Lemma cx_width : avoids 6 4 2 (g_os_region_bitmap ex_G) (8 * s_words cx_s0).
Proof.
  assert (W : s_words cx_s0 = s_words ex_s0) by (vm_compute; reflexivity). rewrite W. exact ex_width.
Qed.
Lemma cx_execution : execution ex_G 6 4 (unnamed_call ex_G 6 4 2) cx_blocked cx_path.
Proof.
  unfold cx_path. eapply execution_then with (y := cx_1);
    [|unfold cx_1; reflexivity|eapply execution_then with (y := cx_2);
      [|unfold cx_2; reflexivity|eapply execution_then with (y := cx_3); [|unfold cx_3; reflexivity|]]].
  - apply made_execution; [reflexivity|vm_compute; reflexivity|reflexivity| |vm_compute; reflexivity].
    split; [exact Logic.I|]. split; [intros []|exact Logic.I].
  - apply made_execution; [reflexivity|vm_compute; reflexivity|reflexivity| |vm_compute; reflexivity].
    split; [exact Logic.I|]. split; [intros []|exact Logic.I].
  - apply made_execution; [reflexivity|vm_compute; reflexivity|reflexivity| |vm_compute; reflexivity].
    split; [exact Logic.I|]. split; [intros []|exact Logic.I].
  - apply made_execution; [reflexivity|vm_compute; reflexivity|split; reflexivity| |vm_compute; reflexivity].
    split; [exact Logic.I|]. split; [intros []|exact Logic.I].
Qed.
Lemma cx_all_hidden : Forall (hidden ex_G 6 4 2) (cx_blocked :: cx_path).
Proof.
  assert (H : forallb cx_hidden (cx_blocked :: cx_path) = true) by (vm_compute; reflexivity).
  rewrite forallb_forall in H. apply Forall_forall. intros z Z. apply cx_hidden_ok, H, Z.
Qed.
Lemma cx_last_owner : owner_of ex_G (cf_state (last cx_path cx_blocked)) 2 = 0.
Proof. vm_compute. reflexivity. Qed.
(** The OS blocks region 2, both cores flush, it is freed and assigned again; the next access
    hits exactly if the previous owner used the line. *)
Example C98_example : exists x y v w,
  creach ex_G 6 4 (safe_call ex_G) false cx_s0 x /\ owner_of ex_G (cf_state x) 2 = 1 /\
  owner_of ex_G (cf_state y) 2 = 0 /\
  cached (option N) one_line 6 10 ex_G 6 4 (unnamed_call ex_G 6 4 2) (hidden ex_G 6 4 2) (x, cx_used) (y, v) /\
  cached (option N) one_line 6 10 ex_G 6 4 (unnamed_call ex_G 6 4 2) (hidden ex_G 6 4 2) (x, cx_unused) (y, w) /\
  snd (use_line (option N) one_line 6 10 6 cx_address v) = true /\
  snd (use_line (option N) one_line 6 10 6 cx_address w) = false.
Proof.
  destruct (C98_handed_over_refuted ex_platform 0 22 10 6 4 ex_G cx_s0 6 10 (option N) one_line 2 cx_blocked
    cx_path cx_used cx_started cx_boots cx_last ltac:(lia) cx_shifts cx_reach cx_quiet ltac:(discriminate)
    cx_width cx_execution cx_all_hidden) as [v [CV HV]].
  destruct (C98_handed_over_refuted ex_platform 0 22 10 6 4 ex_G cx_s0 6 10 (option N) one_line 2 cx_blocked
    cx_path cx_unused cx_started cx_boots cx_last ltac:(lia) cx_shifts cx_reach cx_quiet ltac:(discriminate)
    cx_width cx_execution cx_all_hidden) as [w [CW HW]].
  exists cx_blocked, (last cx_path cx_blocked), v, w.
  assert (A : region_of 6 4 cx_address = 2) by reflexivity.
  split; [exact cx_reach|]. split; [vm_compute; reflexivity|]. split; [exact cx_last_owner|].
  split; [exact CV|]. split; [exact CW|].
  destruct (HV cx_address A) as [_ ->]. destruct (HW cx_address A) as [_ ->]. split; reflexivity.
Qed.
(** While region 2 is blocked the OS and the monitor do access memory, and the cache. *)
Example C97_example : sane ex_platform 0 /\ boots ex_platform 0 22 10 6 4 /\ last_cache ex_platform 6 10 /\
  started ex_platform 0 6 4 ex_G cx_s0 /\ (forall c, c < g_core_count ex_G -> r_cache_shift (s_cores cx_s0 c) = 6) /\
  exists y v, cached (option N) one_line 6 10 ex_G 6 4 (unnamed_call ex_G 6 4 2) (hidden ex_G 6 4 2)
    (cx_blocked, cx_used) (y, v) /\ v 192 = Some 12288 /\ v (cache_set 6 10 6 cx_address) = cx_used (cache_set 6 10 6 cx_address).
Proof.
  split; [exact ex_sane|]. split; [exact cx_boots|]. split; [exact cx_last|]. split; [exact cx_started|].
  split; [exact cx_shifts|].
  assert (H0 : hidden ex_G 6 4 2 cx_blocked) by exact (Forall_inv cx_all_hidden).
  assert (M : cpu_may_access 6 4 (s_cores (cf_state cx_blocked) 0) (3 * 262144)).
  { split; [vm_compute; reflexivity|]. vm_compute. discriminate. }
  assert (T : cf_task cx_blocked 0 = Idle) by (apply cx_quiet; reflexivity).
  assert (SH : shift_of cx_blocked 0 = 6) by (vm_compute; reflexivity).
  do 2 eexists. split.
  - eapply ca_step; [exact H0| |apply ca_done].
    apply (cc_load _ _ _ _ _ _ _ _ _ _ 0 (3 * 262144)); [reflexivity|exact T|reflexivity|exact M].
  - rewrite SH. split; vm_compute; reflexivity.
Qed.
(** Before boot all shifts are 0, as in the hypotheses of C97_other_cores_refuted. *)
Example C97_reset_example : sane ex_platform 0 /\ boots ex_platform 0 22 10 6 4 /\
  last_cache ex_platform 6 10 /\ r_cache_shift (s_cores (ex_boot_state 0) 1) = 0.
Proof. split; [exact ex_sane|]. split; [exact cx_boots|]. split; [exact cx_last|reflexivity]. Qed.
(** A machine with one core. *)
Definition single_platform : platform :=
  mkPlatform (2 ^ 22) 2 (fun i => i =? 1) (fun _ => 64) (fun _ => 1024) 0 10 1.
Example C97_single_example : sane single_platform 0 /\ p_core_count single_platform = 1 /\
  supported single_platform 0 6 4 /\ boots single_platform 0 22 10 6 4 /\ last_cache single_platform 6 10.
Proof.
  assert (SN : sane single_platform 0) by (constructor; vm_compute; intuition congruence).
  split; [exact SN|]. split; [reflexivity|].
  assert (S : supported single_platform 0 6 4).
  { constructor; try (vm_compute; intuition congruence).
    - intros [i [H1 [H2 H3]]]. cbn in *. assert (i = 0) by lia. subst. discriminate.
    - exists 6, 10. vm_compute. intuition congruence. }
  split; [exact S|]. split; [|split; reflexivity].
  assert (SA : supported_any single_platform 0 6 4).
  { destruct S as [A1 A2 A3 A4 A5 A6 A7 A8 A9 A10]. constructor; auto. }
  exact (supported_boots single_platform 0 6 4 SN SA).
Qed.

Definition P_Cache_theorems := (C97_own_sets_partial, C97_timing, C97_undisturbed_partial, C97_one_core_partial,
  C97_other_cores_refuted, C97_long_lines_refuted, C97_long_example, C98_handed_over_refuted, C98_example,
  C97_example, C97_reset_example, C97_single_example).
Print Assumptions P_Cache_theorems.
