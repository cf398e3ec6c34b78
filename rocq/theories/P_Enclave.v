(** * Properties C46-C50: deleting and wiping, the debug copy, accept_thread,
    result codes. *)
From Coq Require Import NArith ZArith Lia Bool List.
From Coq Require Import ZifyBool ZifyNat ZifyN.
From Verif Require Import Word Machine ModelBare ModelHash ModelInl ModelRegions
  ModelMetadata ModelEnclave ModelBoot ModelApi Lib BareProofs BootProofs SpecGeometry
  GeomProofs SpecMonitor SpecHistory SpecMetadata
  ViewProofs SeqProofs SeqCalls SeqCalls2 SeqCalls3 SeqCalls4 SeqCalls5 SeqCalls6
  HistoryProofs HistoryFacts MetaProofs P_Boot P_Regions P_Metadata.
Import ListNotations.
Open Scope N_scope.
Ltac Zify.zify_post_hook ::= Z.div_mod_to_equations.

(** ** C46 *)
Section Delete.
Variables (G : globals) (pb rb : N).
Hypothesis g : geom G pb rb.
Local Notation n := (g_dram_region_count G).

(** Equal up to the locks. *)
Definition unlocked (o : ost) : ost := mkOst (fun _ => 0) (o_owner o) (o_prev o) (o_pinned o)
  (o_blocked o) (o_clock o) (o_encl o) (o_flushed o) (o_bit o) (o_rest o) (o_regs o)
  (o_words o) (o_dmar_base o) (o_dmar_mask o) (o_dma_start o) (o_dma_end o).
Definition locks_only (o o' : ost) : Prop := unlocked o' = unlocked o.
Lemma lo_lock o o' r v : locks_only o o' -> locks_only o (with_lock o' r v).
Proof. intros H. exact H. Qed.

Lemma wp_bits {A} c base j (p : prog A) (q : prog A) o Q :
  wp G c p o Q -> wp G c q o Q ->
  wp G c (b <- read_bitmap_bit base j ;; if (b : bool) then p else q) o Q.
Proof.
  intros H1 H2. unfold read_bitmap_bit. apply wp_bind, wp_bind, wp_load_any. intros w _.
  apply wp_ret. destruct (negb _); auto.
Qed.

Lemma lock_loop c base q o0 : forall k i o, i + N.of_nat k <= n -> locks_only o0 o ->
  wp G c (for_exit k i (fun i =>
       if i =? q then Ret None
       else
         b <- read_bitmap_bit base i ;;
         if (b : bool) then
           t <- test_and_set_dram_region_lock G i ;;
           if (t : bool) then Ret (Some i) else Ret None
         else Ret None)) o
    (fun x o' => locks_only o0 o' /\ match x with Some z => z < n | None => True end).
Proof.
  induction k as [|k IH]; intros i o B L; cbn [for_exit].
  - apply wp_ret. auto.
  - apply wp_bind. destruct (i =? q).
    + apply wp_ret. apply IH; [lia|exact L].
    + apply wp_bits.
      * apply wp_bind. apply (wp_tas G pb rb g); [lia|]. destruct (negb (o_lock o i =? 0)).
        -- apply wp_ret. apply wp_ret. split; [apply lo_lock; exact L|lia].
        -- apply wp_ret. apply IH; [lia|apply lo_lock; exact L].
      * apply wp_ret. apply IH; [lia|exact L].
Qed.
Lemma unlock_loop c base q o0 : forall k i o, i + N.of_nat k <= n -> locks_only o0 o ->
  wp G c (for_n k i (fun i =>
       if i =? q then Ret tt
       else
         b <- read_bitmap_bit base i ;;
         if (b : bool) then clear_dram_region_lock G i else Ret tt)) o
    (fun _ o' => locks_only o0 o').
Proof.
  induction k as [|k IH]; intros i o B L; cbn [for_n].
  - apply wp_ret. exact L.
  - apply wp_bind. destruct (i =? q).
    + apply wp_ret. apply IH; [lia|exact L].
    + apply wp_bits.
      * apply (wp_clr G pb rb g); [lia|]. apply IH; [lia|apply lo_lock; exact L].
      * apply wp_ret. apply IH; [lia|exact L].
Qed.
Lemma free_loop c a w (j : N) f : forall k i o,
  (forall b, a <= b < a + 8 -> rest G b) -> ld 8 (o_rest o) a = w -> N.testbit w (j mod 64) = false ->
  wp G c (for_n k i (fun i =>
     b <- (x <- load64 a ;; Ret (negb (N.land x (wshl 1 (j mod 64)) =? 0))) ;;
     if (b : bool) then f i else Ret tt)) o (fun _ o' => o' = o).
Proof.
  induction k as [|k IH]; intros i o H E Z; cbn [for_n].
  - apply wp_ret. reflexivity.
  - apply wp_bind, wp_bind, wp_bind, wp_load_rest; [exact H|]. apply wp_ret. rewrite E.
    assert (B : N.land w (wshl 1 (j mod 64)) = 0).
    { rewrite wshl_small; [|lia|].
      - rewrite N.mul_1_l. apply N.bits_inj_0. intros t. rewrite N.land_spec, N.pow2_bits_eqb.
        destruct (N.eqb_spec (j mod 64) t) as [<-|]; [rewrite Z; reflexivity|apply andb_false_r].
      - rewrite N.mul_1_l. change W64 with (2 ^ 64). apply N.pow_lt_mono_r; lia. }
    rewrite B. cbn [N.eqb negb]. apply wp_ret. apply IH; auto.
Qed.

Lemma delete_wp c id o : g_monitor_top G <= id -> id + 304 + 8 * (n / 64) + 8 <= W64 ->
  N.testbit (ld 8 (o_rest o) (id + 304 + 8 * (n / 64))) (n mod 64) = false ->
  wp G c (delete_enclave G id) o (fun _ o' => locks_only o o').
Proof.
  intros T H Z. unfold delete_enclave. set (q := clamped_dram_region_for G id).
  assert (Q : q < n) by apply (clamped_lt G pb rb g).
  assert (L0 : locks_only o o) by reflexivity.
  bnd (wp_tas G pb rb g). destruct (negb (o_lock o q =? 0)).
  { apply wp_ret. apply lo_lock. exact L0. }
  apply wp_bind. unfold bad_enclave_id. destruct (id =? null_enclave_id).
  { apply wp_ret. bnd (wp_clr G pb rb g). apply wp_ret. do 2 apply lo_lock. exact L0. }
  apply wp_bind, wp_bind, wp_load_any. intros w _. apply wp_ret. apply wp_ret.
  destruct (negb (w =? id)).
  { bnd (wp_clr G pb rb g). apply wp_ret. do 2 apply lo_lock. exact L0. }
  apply wp_bind, wp_load_any. intros tc _. destruct (negb (tc =? 0)).
  { bnd (wp_clr G pb rb g). apply wp_ret. do 2 apply lo_lock. exact L0. }
  apply wp_bind.
  eapply wp_weaken; [|apply (lock_loop c (enclave_region_bitmap id) q o); [rewrite N2Nat.id; lia|]].
  2:{ apply lo_lock. exact L0. }
  cbv beta. intros [z|] o1 [L1 ZL].
  - apply wp_bind. unfold unlock_enclave_regions.
    eapply wp_weaken; [|apply (unlock_loop c _ q o); [rewrite N2Nat.id; lia|exact L1]].
    cbv beta. intros _ o2 L2. bnd (wp_clr G pb rb g). apply wp_ret. apply lo_lock. exact L2.
  - apply wp_bind. unfold read_bitmap_bit.
    assert (A : wadd (enclave_region_bitmap id) (wmul 8 (n / 64)) = id + 304 + 8 * (n / 64)).
    { unfold enclave_region_bitmap. change enclave_info_t_size with 304.
      rewrite (wadd_small id) by lia. rewrite wmul_small by lia. apply wadd_small. lia. }
    rewrite A.
    eapply wp_weaken; [|apply (free_loop c (id + 304 + 8 * (n / 64)) (ld 8 (o_rest o1) (id + 304 + 8 * (n / 64))) n); [|reflexivity|]].
    + cbv beta. intros _ o2 ->. apply wp_bind. unfold unlock_enclave_regions.
      eapply wp_weaken; [|apply (unlock_loop c _ q o); [rewrite N2Nat.id; lia|exact L1]].
      cbv beta. intros _ o3 L3. bnd (wp_clr G pb rb g). apply wp_ret. apply lo_lock. exact L3.
    + intros b B. apply (rest_high G pb rb g). lia.
    + assert (E : o_rest o1 = o_rest o) by (change (o_rest (unlocked o1) = o_rest (unlocked o)); rewrite L1; reflexivity).
      rewrite E. exact Z.
Qed.
End Delete.

(** Whatever the state and the result, delete_enclave changes no owner, no byte
    outside the monitor and no OS bit, if bit [n] of the enclave's bitmap (one past
    the last region, which no region has) is clear: the loop that frees the regions
    tests this bit instead of the region's. *)
Theorem C46_nothing_freed_refuted : forall G pb rb s c id s' v,
  geom G pb rb ->
  g_monitor_top G <= id -> id + 304 + 8 * (g_dram_region_count G / 64) + 8 <= 2 ^ 64 ->
  enclave_bit s id (g_dram_region_count G) = false ->
  do_call G c (CDeleteEnclave id) s = (s', Some v) ->
  (forall r, r < g_dram_region_count G -> owner_of G s' r = owner_of G s r) /\
  (forall r, r < g_dram_region_count G -> os_bit G s' r = os_bit G s r) /\
  (forall b, g_monitor_top G <= b -> s_mem s' b mod 256 = s_mem s b mod 256).
Proof.
  intros G pb rb s c id s' v g T H B D.
  pose proof (view_of_view G s) as V. set (o := view_of G s) in *.
  destruct (delete_wp G pb rb g c id o T H B s V) as [s2 [w [o' [R [V' L]]]]].
  unfold do_call in D. cbn [call_prog] in D. rewrite D in R. inversion R; subst s2 w. clear R.
  assert (E1 : o_owner o' = o_owner o) by (change (o_owner (unlocked o') = o_owner (unlocked o)); rewrite L; reflexivity).
  assert (E2 : o_bit o' = o_bit o) by (change (o_bit (unlocked o') = o_bit (unlocked o)); rewrite L; reflexivity).
  assert (E3 : o_rest o' = o_rest o) by (change (o_rest (unlocked o') = o_rest (unlocked o)); rewrite L; reflexivity).
  split; [|split].
  - intros r RL. unfold owner_of. rewrite (v_owner _ _ _ V' r RL), (v_owner _ _ _ V r RL), E1. reflexivity.
  - intros r RL. unfold os_bit. rewrite <- !bit_at_word.
    assert (J : r < 64 * g_dram_region_bitmap_words G).
    { rewrite (geo_words _ _ _ g). rewrite (geo_count _ _ _ g) in RL. lia. }
    rewrite (v_bit _ _ _ V' r J), (v_bit _ _ _ V r J), E2. reflexivity.
  - intros b Bb. change (byte (s_mem s') b = byte (s_mem s) b).
    pose proof (rest_high G pb rb g b Bb) as RH.
    rewrite (v_rest _ _ _ V' b RH), (v_rest _ _ _ V b RH), E3. reflexivity.
Qed.

(** A state (not reachable from boot, see C44) in which delete_enclave succeeds for
    an enclave that owns region 3: the region is neither freed nor wiped. *)
Definition ex_encl : N := page_addr 6 4 5 1.
Definition ex_own : state :=
  set_mem ex_s0 (st 8 (st 8 (st 8 (st 8 (s_mem ex_s0)
    (g_dram_region ex_G + 40 * 5 + 8) ex_encl) (g_dram_region ex_G + 40 * 3 + 8) ex_encl)
    (ex_encl + 304) 40) (page_addr 6 4 3 0) 77).
Example C46_example :
  g_monitor_top ex_G <= ex_encl /\ enclave_bit ex_own ex_encl (g_dram_region_count ex_G) = false /\
  enclave_bit ex_own ex_encl 3 = true /\
  exists s', do_call ex_G 0 (CDeleteEnclave ex_encl) ex_own = (s', Some 0) /\
    owner_of ex_G s' 3 = ex_encl /\ ld 8 (s_mem s') (page_addr 6 4 3 0) = 77.
Proof.
  split; [vm_compute; discriminate|]. split; [vm_compute; reflexivity|].
  split; [vm_compute; reflexivity|]. eexists.
  split; [apply call_val; vm_compute; reflexivity|]. split; vm_compute; reflexivity.
Qed.

(** ** C47 *)
Lemma bzero_stripes_run c G pb rb r : geom G pb rb -> r < 2 ^ rb ->
  g_dram_size G + 2 ^ (12 + pb + rb) <= 2 ^ 64 ->
  forall k z s, g_dram_size G / 2 ^ (12 + pb + rb) + 1 <= z + N.of_nat k ->
  exists m, run c (bzero_stripes k G (2 ^ (12 + pb + rb)) (r * 2 ^ (12 + pb))
                     (z * 2 ^ (12 + pb + rb))) s = (set_mem s m, Some tt) /\
    (forall a, z <= a / 2 ^ (12 + pb + rb) -> region_of pb rb a = r ->
       a / 2 ^ (12 + pb + rb) * 2 ^ (12 + pb + rb) < g_dram_size G -> byte m a = 0) /\
    (forall a, a / 2 ^ (12 + pb + rb) < z \/ region_of pb rb a <> r \/
       g_dram_size G <= a / 2 ^ (12 + pb + rb) * 2 ^ (12 + pb + rb) ->
       byte m a = byte (s_mem s) a).
Proof.
  intros g R W. set (SS := 2 ^ (12 + pb + rb)) in *. set (D := g_dram_size G) in *.
  assert (SP : 0 < SS) by apply pow2_pos. assert (SN : SS <> 0) by lia.
  assert (SE : SS = 2 ^ (12 + pb) * 2 ^ rb) by apply pow2_add.
  set (S1 := 2 ^ (12 + pb)) in *. assert (S1P : 0 < S1) by apply pow2_pos.
  induction k as [|k IH]; intros z s F; cbn [bzero_stripes]; fold D.
  - assert (NL : D <= z * SS).
    { assert (D / SS + 1 <= z) by lia.
      pose proof (N.div_mod D SS SN). pose proof (N.mod_lt D SS SN).
      assert ((D / SS + 1) * SS <= z * SS) by (apply N.mul_le_mono_r; auto). nia. }
    destruct (N.ltb_spec (z * SS) D); [lia|].
    exists (s_mem s). rewrite set_mem_id. split; [reflexivity|]. split; [|auto].
    intros a A1 _ A2. exfalso.
    assert (z * SS <= a / SS * SS) by (apply N.mul_le_mono_r; auto). lia.
  - destruct (N.ltb_spec (z * SS) D) as [L|L].
    2:{ exists (s_mem s). rewrite set_mem_id. split; [reflexivity|]. split; [|auto].
        intros a A1 _ A2. exfalso.
        assert (z * SS <= a / SS * SS) by (apply N.mul_le_mono_r; auto). lia. }
    assert (RS : r * S1 + S1 <= SS).
    { rewrite SE, N.mul_comm. replace (S1 * r + S1) with (S1 * (r + 1)) by lia.
      apply N.mul_le_mono_l. lia. }
    assert (LO : N.lor (z * SS) (r * S1) = z * SS + r * S1).
    { apply lor_add_mul. fold SS. lia. }
    rewrite LO, (geo_size _ _ _ g). fold S1.
    rewrite run_bind.
    destruct (bzero64_run c s (z * SS + r * S1) S1) as [m1 [E1 [Z1 F1]]].
    { unfold S1. replace (12 + pb) with (3 + (9 + pb)) by lia. rewrite pow2_add.
      change (2 ^ 3) with 8. rewrite N.mul_comm. apply N.mod_mul. discriminate. }
    { unfold W64 in *. lia. }
    rewrite E1.
    assert (NX : wadd (z * SS) SS = (z + 1) * SS) by (rewrite wadd_small by (unfold W64 in *; lia); lia).
    rewrite NX.
    destruct (IH (z + 1) (set_mem s m1)) as [m [E [ZZ FF]]]; [lia|].
    exists m. rewrite E, set_mem_set_mem. split; [reflexivity|]. cbn [s_mem set_mem] in FF.
    (* addresses of stripe z of region r *)
    assert (IN : forall a, a / SS = z -> region_of pb rb a = r -> z * SS + r * S1 <= a < z * SS + r * S1 + S1).
    { intros a A1 A2. unfold region_of in A2. fold S1 in A2.
      pose proof (N.div_mod a SS SN) as DM. rewrite A1 in DM.
      pose proof (N.mod_lt a SS SN) as ML.
      assert (X : a / S1 = z * 2 ^ rb + r).
      { pose proof (N.div_mod (a / S1) (2 ^ rb) (pow2_nz rb)) as D2. rewrite A2 in D2.
        rewrite N.div_div in D2 by (try apply pow2_nz; lia).
        rewrite <- SE, A1 in D2. lia. }
      pose proof (N.div_mod a S1 ltac:(lia)) as D3. rewrite X in D3.
      pose proof (N.mod_lt a S1 ltac:(lia)) as D4. rewrite SE.
      assert (EQ : S1 * (z * 2 ^ rb + r) = z * (S1 * 2 ^ rb) + r * S1) by ring.
      rewrite EQ in D3. clear - D3 D4. generalize dependent (a mod S1).
      generalize (z * (S1 * 2 ^ rb) + r * S1). intros. lia. }
    assert (OUT : forall a, z * SS + r * S1 <= a < z * SS + r * S1 + S1 ->
        a / SS = z /\ region_of pb rb a = r).
    { intros a A. split.
      - symmetry. apply N.div_unique with (a - z * SS); lia.
      - unfold region_of. fold S1.
        assert (X : a / S1 = z * 2 ^ rb + r).
        { symmetry. apply N.div_unique with (a - (z * SS + r * S1)); [lia|].
          assert (EQ : S1 * (z * 2 ^ rb + r) = z * SS + r * S1) by (rewrite SE; ring).
          rewrite EQ. lia. }
        rewrite X, N.add_comm, N.mod_add by apply pow2_nz. apply N.mod_small. exact R. }
    split.
    + intros a A1 A2 A3. destruct (N.eq_dec (a / SS) z) as [AZ|AZ].
      * rewrite FF by lia. apply Z1. apply IN; auto.
      * apply ZZ; auto. lia.
    + intros a A. rewrite FF by (destruct A as [A|[A|A]]; [left; lia|auto|auto]).
      unfold byte. rewrite F1; [reflexivity|].
      destruct (N.lt_ge_cases a (z * SS + r * S1)) as [X1|X1]; [auto|].
      destruct (N.lt_ge_cases a (z * SS + r * S1 + S1)) as [X2|X2]; [|auto].
      exfalso. destruct (OUT a (conj X1 X2)) as [Y1 Y2].
      destruct A as [A|[A|A]]; [lia|contradiction|]. rewrite Y1 in A. lia.
Qed.

(** bzero_dram_region(r) zeroes all DRAM bytes of region [r] and changes no byte of
    another region, for every geometry whose DRAM ends a round of stripes below
    2^64; if DRAM is a whole number of rounds, nothing outside DRAM changes. *)
Theorem C47_wipe_partial : forall G pb rb c s r,
  geom G pb rb -> r < g_dram_region_count G ->
  g_dram_size G + 2 ^ (12 + pb + rb) <= 2 ^ 64 ->
  exists m, run c (bzero_dram_region G r) s = (set_mem s m, Some tt) /\
    (forall a, a < g_dram_size G -> region_of pb rb a = r -> m a mod 256 = 0) /\
    (forall a, region_of pb rb a <> r -> m a mod 256 = s_mem s a mod 256) /\
    (g_dram_size G mod 2 ^ (12 + pb + rb) = 0 ->
       forall a, g_dram_size G <= a -> m a mod 256 = s_mem s a mod 256).
Proof.
  intros G pb rb c s r g R W. rewrite (geo_count _ _ _ g) in R.
  unfold bzero_dram_region. rewrite (geo_rs _ _ _ g), (geo_count _ _ _ g).
  pose proof (geo_pb _ _ _ g) as GP. pose proof (geo_rb _ _ _ g) as GR.
  assert (P60 : 2 ^ (12 + pb + rb) <= 2 ^ 60) by (apply pow2_le; lia).
  change (2 ^ 60) with 1152921504606846976 in P60.
  assert (SE : 2 ^ (12 + pb + rb) = 2 ^ (12 + pb) * 2 ^ rb) by apply pow2_add.
  rewrite (wshl_small (2 ^ rb)) by (try lia; unfold W64; lia).
  rewrite (wshl_small r).
  2:{ lia. }
  2:{ apply N.lt_le_trans with (2 ^ rb * 2 ^ (12 + pb)).
      - apply N.mul_lt_mono_pos_r; [apply pow2_pos|exact R].
      - unfold W64. lia. }
  replace (2 ^ rb * 2 ^ (12 + pb)) with (2 ^ (12 + pb + rb)) by lia.
  destruct (bzero_stripes_run c G pb rb r g R W
    (S (N.to_nat (g_dram_size G / 2 ^ (12 + pb + rb)))) 0 s ltac:(lia)) as [m [E [Z F]]].
  rewrite N.mul_0_l in E. exists m. split; [exact E|].
  set (SS := 2 ^ (12 + pb + rb)) in *. assert (SN : SS <> 0) by apply pow2_nz.
  split; [|split].
  - intros a A1 A2. apply Z; [apply N.le_0_l|exact A2|].
    rewrite N.mul_comm. eapply N.le_lt_trans; [apply N.mul_div_le; exact SN|exact A1].
  - intros a A. apply F. auto.
  - intros M0 a A. apply F. right. right.
    pose proof (N.div_mod (g_dram_size G) SS SN) as DM. rewrite M0, N.add_0_r in DM.
    pose proof (N.div_le_mono (g_dram_size G) a SS SN A).
    rewrite DM at 1. rewrite N.mul_comm. apply N.mul_le_mono_r. exact H.
Qed.
Example C47_example : geom ex_G 6 4 /\ 3 < g_dram_region_count ex_G /\
  g_dram_size ex_G + 2 ^ (12 + 6 + 4) <= 2 ^ 64 /\ g_dram_size ex_G mod 2 ^ (12 + 6 + 4) = 0.
Proof.
  split; [apply (started_geom _ _ _ _ _ _ ex_started)|]. split; [reflexivity|].
  split; [vm_compute; discriminate|vm_compute; reflexivity].
Qed.

(** With DRAM that reaches into the last round below 2^64 the loop never ends,
    however many iterations are allowed. *)
Theorem C47_huge_dram_refuted : forall G pb rb c s r,
  geom G pb rb -> 2 ^ 64 < g_dram_size G + 2 ^ (12 + pb + rb) ->
  forall fuel, snd (run c (bzero_stripes fuel G
     (wshl (g_dram_region_count G) (g_dram_region_shift G))
     (wshl r (g_dram_region_shift G)) 0) s) = None.
Proof.
  intros G pb rb c s r g H fuel.
  pose proof (geo_pb _ _ _ g) as GP. pose proof (geo_rb _ _ _ g) as GR.
  assert (P60 : 2 ^ (12 + pb + rb) <= 2 ^ 60) by (apply pow2_le; lia).
  change (2 ^ 60) with 1152921504606846976 in P60.
  assert (SE : 2 ^ (12 + pb + rb) = 2 ^ (12 + pb) * 2 ^ rb) by apply pow2_add.
  assert (ST : wshl (g_dram_region_count G) (g_dram_region_shift G) = 2 ^ (12 + pb + rb)).
  { rewrite (geo_rs _ _ _ g), (geo_count _ _ _ g). rewrite wshl_small by (try lia; unfold W64; lia). lia. }
  rewrite ST. set (rs := wshl r _). set (SS := 2 ^ (12 + pb + rb)) in *.
  assert (SN : SS <> 0) by apply pow2_nz.
  set (K := 2 ^ (64 - (12 + pb + rb))).
  assert (WK : W64 = K * SS).
  { unfold K, SS. rewrite <- pow2_add. replace (64 - (12 + pb + rb) + (12 + pb + rb)) with 64 by lia. reflexivity. }
  assert (X : forall fuel z s, z < K ->
     snd (run c (bzero_stripes fuel G SS rs (z * SS)) s) = None).
  { induction fuel0 as [|k IH]; intros z s1 ZK; cbn [bzero_stripes].
    - destruct (N.ltb_spec (z * SS) (g_dram_size G)) as [L|L]; [reflexivity|].
      exfalso. change (2 ^ 64) with W64 in H.
      assert ((z + 1) * SS <= K * SS) by (apply N.mul_le_mono_r; lia). lia.
    - destruct (N.ltb_spec (z * SS) (g_dram_size G)) as [L|L].
      + rewrite run_bind. unfold bzero64. 
        destruct (run c _ s1) as [s2 [u|]] eqn:E; [|reflexivity].
        destruct (N.eq_dec (z + 1) K) as [ZE|ZE].
        * assert (NX : wadd (z * SS) SS = 0 * SS).
          { unfold wadd. replace (z * SS + SS) with W64; [rewrite N.mod_same by discriminate; lia|].
            rewrite WK, <- ZE. lia. }
          rewrite NX. apply IH. lia.
        * assert ((z + 2) * SS <= K * SS) by (apply N.mul_le_mono_r; lia).
          assert (NX : wadd (z * SS) SS = (z + 1) * SS) by (rewrite wadd_small by lia; lia).
          rewrite NX. apply IH. lia.
      + exfalso. change (2 ^ 64) with W64 in H.
        assert ((z + 1) * SS <= K * SS) by (apply N.mul_le_mono_r; lia). lia. }
  specialize (X fuel 0 s). rewrite N.mul_0_l in X. apply X. apply pow2_pos.
Qed.

(** A supported platform with so much DRAM boots. *)
Definition huge_platform : platform :=
  mkPlatform (2 ^ 64 - 4096) 2 (fun i => i =? 1) (fun _ => 64) (fun _ => 1024) 0 18 2.
Example C47_huge_example : exists s' G,
  run 0 (boot_from huge_platform 0) (ex_boot_state 0) = (s', Some G) /\
  geom G 18 4 /\ 2 ^ 64 < g_dram_size G + 2 ^ (12 + 18 + 4).
Proof.
  assert (S : supported huge_platform 0 18 4).
  { constructor; try (vm_compute; intuition congruence).
    - intros [i [H1 [H2 H3]]]. cbn in *. assert (i = 0) by lia. subst. discriminate.
    - exists 6, 10. vm_compute. intuition congruence. }
  destruct (boot_supported 0 (ex_boot_state 0) _ _ _ _ S) as [s' [G [R B]]].
  exists s', G. split; [exact R|]. split; [exact (booted_geom _ _ _ _ _ _ _ _ S B)|].
  rewrite (bt_globals _ _ _ _ _ _ _ _ B). vm_compute. reflexivity.
Qed.

(** ** C48 *)

(** In every reachable state a debug copy either fails and changes nothing, or it
    copies a page between two OS-owned regions other than the monitor's, with
    enclave_id = 0; no register, no byte outside the destination page changes, and
    the destination gets exactly the source page.  So no enclave or metadata memory
    is ever copied.  Excluded is writing below the monitor top with enclave_id = 0
    (see the _refuted theorems). *)
Theorem C48_debug_copy_partial : forall P top pb rb G s c e ea oa (rd : bool) s' v,
  reachable P top pb rb G s -> c < g_core_count G ->
  e < 2 ^ 64 -> ea < 2 ^ 64 -> oa < 2 ^ 64 ->
  (e = 0 -> rd = false -> g_monitor_top G <= ea) ->
  do_call G c (CCopyDebugPage e ea oa rd) s = (s', Some v) ->
  (v <> 0 /\ same_machine s s') \/
  (v = 0 /\ e = 0 /\ ea mod 4096 = 0 /\ oa mod 4096 = 0 /\
   owner_of G s (region_of pb rb oa) = 0 /\ owner_of G s (region_of pb rb ea) = 0 /\
   g_monitor_top G <= oa /\ regs_same s s' /\
   let dst := if rd then oa else ea in
   let src := if rd then ea else oa in
   (forall b, b < dst \/ dst + 4096 <= b -> s_mem s' b mod 256 = s_mem s b mod 256) /\
   (g_monitor_top G <= src -> src <> dst -> forall j, j < 4096 ->
      s_mem s' (dst + j) mod 256 = s_mem s (src + j) mod 256)).
Proof.
  intros P top pb rb G s c e ea oa rd s' v R C HE H1 H2 SAFE D.
  destruct (reach_shows _ _ _ _ _ _ R) as [g [HD [M K]]].
  pose proof (view_of_view G s) as V. set (o := view_of G s) in *.
  pose proof (shows_like G pb rb g s o M V K) as L.
  destruct (copy_debug_seq G pb rb g c e ea oa rd o M L H1 H2 SAFE s V)
    as [s2 [w [o' [RR [V' Q]]]]].
  unfold do_call in D. cbn [call_prog] in D. rewrite D in RR. inversion RR; subst s2 w. clear RR.
  destruct Q as [[VN E]|[VO [E0 [T [T2 [X1 [X2 [X3 [X4 [X5 [m [E [F0 F]]]]]]]]]]]]].
  { left. split; [exact VN|]. apply (oeq_view_same G pb rb g s s' o o'); auto. }
  right. cbv zeta in T, T2, F0, F. cbv zeta.
  change (o_rest o) with (s_mem s) in *.
  set (dst := if rd then oa else ea) in *. set (src := if rd then ea else oa) in *.
  assert (OT : g_monitor_top G <= oa).
  { apply N.nlt_ge. intros Y. apply X1. apply region0_low.
    pose proof (geo_fits _ _ _ g). lia. }
  assert (VM : view G (set_mem s m) (with_rest o m)).
  { apply (v_set_rest G pb rb g); auto. intros b NB. apply F. left.
    apply N.nle_gt. intros X. apply NB. apply (rest_high G pb rb g). lia. }
  destruct (oeq_view_same G pb rb g (set_mem s m) s' _ _ VM V' E) as [SM S1 S2 S3 S4 S5 S6].
  cbn [s_mem set_mem s_cores s_words s_dmar_base s_dmar_mask s_dma_start s_dma_end] in *.
  assert (RL : forall a, region_of pb rb a < g_dram_region_count G)
    by (intros; rewrite (geo_count _ _ _ g); apply region_of_lt).
  split; [exact VO|]. split; [exact E0|]. split; [exact X4|]. split; [exact X5|].
  split. { rewrite (sh_owner _ _ _ K) by apply RL. rewrite X2. reflexivity. }
  split. { rewrite (sh_owner _ _ _ K) by apply RL. rewrite X3. reflexivity. }
  split; [exact OT|]. split; [repeat split; auto|].
  split.
  - intros b B. rewrite SM. apply F. exact B.
  - intros Y1 Y2 j J. rewrite SM. apply F0; auto.
Qed.

(** The machine of P_Regions.v after block(2) and a flush by core 0. *)
Definition ex_b2 : state := fst (do_call ex_G 0 (CBlock 2) ex_s0).
Definition ex_f2 : state := fst (do_call ex_G 0 CFlush ex_b2).
Lemma ex_b2_call : do_call ex_G 0 (CBlock 2) ex_s0 = (ex_b2, Some 0).
Proof. apply call_val. vm_compute. reflexivity. Qed.
Lemma ex_f2_call : do_call ex_G 0 CFlush ex_b2 = (ex_f2, Some 0).
Proof. apply call_val. vm_compute. reflexivity. Qed.
Lemma ex_f2_history : history ex_G 6 4 ex_s0
  [(ECall 0 (CBlock 2), 0); (ECall 0 CFlush, 0)] ex_f2.
Proof.
  apply (hist_snoc _ _ _ _ [(ECall 0 (CBlock 2), 0)] ex_b2).
  - apply (hist_snoc _ _ _ _ [] ex_s0); [constructor|].
    refine (es_call _ _ _ _ 0 _ _ _ _ _ _ ex_b2_call); [reflexivity|reflexivity|exact I].
  - refine (es_call _ _ _ _ 0 _ _ _ _ _ _ ex_f2_call); [reflexivity|exact I|exact I].
Qed.
Lemma ex_f2_reachable : reachable ex_platform 0 6 4 ex_G ex_f2.
Proof. eexists _, _. split; [exact ex_started|exact ex_f2_history]. Qed.

Example C48_example : exists s',
  do_call ex_G 0 (CCopyDebugPage 0 (3 * 262144) (4 * 262144) true) ex_f2 = (s', Some 0).
Proof. eexists. apply call_val. vm_compute. reflexivity. Qed.

(** The OS can read the monitor: the owner fields of all regions are copied to
    OS memory. *)
Theorem C48_monitor_read_refuted : exists P top pb rb G s s' oa,
  reachable P top pb rb G s /\
  do_call G 0 (CCopyDebugPage 0 0 oa true) s = (s', Some 0) /\
  cpu_may_access pb rb (s_cores s 0) oa /\ ~ cpu_may_access pb rb (s_cores s 0) 0 /\
  forall r, r < g_dram_region_count G ->
    ld 8 (s_mem s') (oa + (g_dram_region G + 40 * r + 8)) = owner_of G s r.
Proof.
  exists ex_platform, 0, 6, 4, ex_G, ex_f2,
    (fst (do_call ex_G 0 (CCopyDebugPage 0 0 (3 * 262144) true) ex_f2)), (3 * 262144).
  split; [exact ex_f2_reachable|]. split; [apply call_val; vm_compute; reflexivity|].
  split; [split; [vm_compute; reflexivity|vm_compute; discriminate]|].
  split. { intros [_ X]. apply X. vm_compute. reflexivity. }
  set (s' := fst _).
  assert (X : forallb (fun i => let r := N.of_nat i in
    ld 8 (s_mem s') (3 * 262144 + (g_dram_region ex_G + 40 * r + 8)) =? owner_of ex_G ex_f2 r)
    (seq 0 16) = true) by (vm_compute; reflexivity).
  rewrite forallb_forall in X. intros r RL. change (g_dram_region_count ex_G) with 16 in RL.
  specialize (X (N.to_nat r) ltac:(apply in_seq; lia)). cbv zeta in X.
  rewrite N2Nat.id in X. apply N.eqb_eq in X. exact X.
Qed.

(** The OS can write the monitor: it stores a value in its own memory and copies
    it into the owner field of a region. *)
Theorem C48_monitor_write_refuted : exists P top pb rb G s0 h s s' oa,
  started P top pb rb G s0 /\ history G pb rb s0 h s /\
  do_call G 0 (CCopyDebugPage 0 0 oa false) s = (s', Some 0) /\
  owner_of G s 5 = 0 /\ owner_of G s' 5 = 77.
Proof.
  pose (A := 3 * 262144 + (g_dram_region ex_G + 40 * 5 + 8)).
  pose (s := set_mem ex_f2 (st 1 (s_mem ex_f2) A 77)).
  exists ex_platform, 0, 6, 4, ex_G, ex_s0,
    [(ECall 0 (CBlock 2), 0); (ECall 0 CFlush, 0); (EStore 0 A 77, 0)], s,
    (fst (do_call ex_G 0 (CCopyDebugPage 0 0 (3 * 262144) false) s)), (3 * 262144).
  split; [exact ex_started|]. split.
  { apply (hist_snoc _ _ _ _ [(ECall 0 (CBlock 2), 0); (ECall 0 CFlush, 0)] ex_f2).
    - exact ex_f2_history.
    - refine (es_store _ _ _ _ 0 A 77 _ _ _); [reflexivity|vm_compute; reflexivity|].
      split; [vm_compute; reflexivity|vm_compute; discriminate]. }
  split; [apply call_val; vm_compute; reflexivity|].
  split; vm_compute; reflexivity.
Qed.

(** The result reveals whether the word at enclave_id + 24 is zero, whatever
    memory this is: nothing is checked before it is read and its value overrides
    the other error codes. *)
Theorem C48_leak_refuted : forall P top pb rb G s c e ea oa rd s' v,
  reachable P top pb rb G s -> c < g_core_count G ->
  g_monitor_top G <= e -> e + 32 <= 2 ^ 64 ->
  ea mod 4096 = 0 -> ea < g_dram_size G -> oa mod 4096 = 0 -> oa < g_dram_size G ->
  lock_of G s 0 = 0 ->
  region_of pb rb oa <> (if e <? g_dram_size G then region_of pb rb e else 0) ->
  do_call G c (CCopyDebugPage e ea oa rd) s = (s', Some v) ->
  v = if ld 8 (s_mem s) (e + 24) =? 0 then 2 else 1.
Proof.
  intros P top pb rb G s c e ea oa rd s' v R C TE WE A1 A2 A3 A4 LK RN D.
  destruct (reach_shows _ _ _ _ _ _ R) as [g [HD [M K]]].
  pose proof (view_of_view G s) as V. set (o := view_of G s) in *.
  pose proof (shows_like G pb rb g s o M V K) as L.
  assert (N0 : 0 < g_dram_region_count G) by (rewrite (geo_count _ _ _ g); apply pow2_pos).
  assert (ST : m_stuck M = false).
  { rewrite (sh_lock _ _ _ K 0 N0) in LK. cbn [N.eqb andb] in LK. destruct (m_stuck M); congruence. }
  assert (TK : forall r, taken M r = false).
  { intros r. unfold taken. rewrite ST. apply andb_false_r. }
  assert (W : wp G c (copy_debug_enclave_page G e ea oa rd) o (fun v _ =>
    v = if ld 8 (s_mem s) (e + 24) =? 0 then 2 else 1)).
  { unfold copy_debug_enclave_page.
    rewrite (proj2 (page_aligned_iff ea) A1), (proj2 (page_aligned_iff oa) A3). cbn [negb orb].
    unfold is_dram_address at 1 2.
    destruct (N.ltb_spec ea (g_dram_size G)); [|lia].
    destruct (N.ltb_spec oa (g_dram_size G)); [|lia]. cbn [negb orb].
    set (q := clamped_dram_region_for G e). set (x := dram_region_for G ea).
    set (r := dram_region_for G oa).
    assert (Q : q < g_dram_region_count G) by apply (clamped_lt G pb rb g).
    assert (RR : r < g_dram_region_count G) by apply (region_lt G pb rb g).
    assert (QR : r <> q).
    { unfold q, r, clamped_dram_region_for, is_dram_address.
      rewrite !(region_for_spec G pb rb g).
      destruct (e <? g_dram_size G); [exact RN|].
      intros Y. apply RN. rewrite Y. apply (region_for_0 G pb rb g) || reflexivity. }
    pose proof (free_lock G o M q L Q (TK q)) as LQ.
    pose proof (free_lock G o M r L RR (TK r)) as LR.
    bnd (wp_tas G pb rb g). rewrite LQ. cbn [N.eqb negb].
    bnd (wp_tas G pb rb g). cbn [o_lock with_lock]. rewrite upd_other by auto.
    rewrite LR. cbn [N.eqb negb].
    unfold read_dram_region_owner.
    bnd (wp_owner G pb rb g). bnd (wp_owner G pb rb g). cbn [o_owner with_lock].
    pose proof (owner_is_id G pb rb g o M e L) as OI. fold q in OI. rewrite OI.
    assert (E0 : 0 < g_monitor_top G).
    { destruct (geo_mtop _ _ _ g) as [t ->]. apply pow2_pos. }
    destruct (N.eqb_spec e 0) as [Z|Z]; [lia|]. cbn [negb].
    apply wp_bind. unfold read_enclave_region_bitmap_bit. change null_enclave_id with 0.
    destruct (N.eqb_spec e 0); [contradiction|]. unfold read_bitmap_bit.
    apply wp_bind, wp_load_any. intros w _. apply wp_ret.
    apply wp_bind. rewrite (wadd_small e) by (change ei_is_debug with 24; unfold W64; lia).
    change ei_is_debug with 24.
    apply wp_load_rest. { intros b B. apply (rest_high G pb rb g). lia. }
    cbn [o_rest with_lock]. change (o_rest o) with (s_mem s).
    destruct (ld 8 (s_mem s) (e + 24) =? 0).
    - change (monitor_invalid_state =? monitor_ok) with false. apply wp_bind, wp_ret.
      bnd (wp_clr G pb rb g). bnd (wp_clr G pb rb g). apply wp_ret. reflexivity.
    - match goal with |- context [if ?res =? monitor_ok then _ else Ret tt] =>
        replace res with monitor_invalid_value end.
      2:{ repeat match goal with |- context [if ?t then _ else _] => destruct t end; reflexivity. }
      change (monitor_invalid_value =? monitor_ok) with false. apply wp_bind, wp_ret.
      bnd (wp_clr G pb rb g). bnd (wp_clr G pb rb g). apply wp_ret. reflexivity. }
  destruct (W s V) as [s2 [w [o' [RR [_ Q]]]]].
  unfold do_call in D. cbn [call_prog] in D. rewrite D in RR. inversion RR; subst. reflexivity.
Qed.

(** ** C49 *)

(** accept_thread passes the address of its argument block as the index of the
    region to lock: it sets the word [40 * address] bytes above the region table,
    whatever is there, and reports concurrent_call if the word was not zero. *)
Theorem C49_address_as_index_refuted : forall G c s tid a,
  a < g_dram_size G -> a mod 4096 = 0 ->
  let w := (g_dram_region G + 40 * a) mod 2 ^ 64 in
  ld 8 (s_mem s) w <> 0 ->
  do_call G c (CAcceptThread tid a) s = (set_mem s (st 8 (s_mem s) w 1), Some 3).
Proof.
  intros G c s tid a A1 A2 w NZ. unfold do_call. cbn [call_prog]. unfold accept_thread.
  unfold is_dram_address. destruct (N.ltb_spec a (g_dram_size G)); [|lia].
  rewrite (proj2 (page_aligned_iff a) A2). cbn [negb orb].
  assert (W : wadd (region_addr G a) dri_lock = w).
  { unfold region_addr, wadd, wmul. change dram_region_info_size with 40.
    change dri_lock with 0. rewrite N.add_0_r. unfold w. change (2 ^ 64) with W64.
    rewrite N.mod_mod by discriminate. apply N.add_mod_idemp_r. discriminate. }
  rewrite run_bind. unfold current_enclave, current_core_info. cbn -[ld st wadd wmul region_addr].
  rewrite W. destruct (N.eqb_spec (ld 8 (s_mem s) w) 0); [contradiction|]. reflexivity.
Qed.

(** From a reachable state: region 3 is blocked, yet a call by the OS changes a
    word in it. *)
Theorem C49_writes_blocked_region_refuted : exists P top pb rb G s0 h s s' tid a w,
  started P top pb rb G s0 /\ history G pb rb s0 h s /\
  region_of pb rb w = 3 /\ owner_of G s 3 = 1 /\ ld 8 (s_mem s) w = 9 /\
  do_call G 0 (CAcceptThread tid a) s = (s', Some 3) /\ ld 8 (s_mem s') w = 1.
Proof.
  pose (s1 := set_mem ex_s0 (st 1 (s_mem ex_s0) 819264 9)).
  pose (s2 := fst (do_call ex_G 0 (CBlock 3) s1)).
  exists ex_platform, 0, 6, 4, ex_G, ex_s0,
    [(EStore 0 819264 9, 0); (ECall 0 (CBlock 3), 0)], s2,
    (fst (do_call ex_G 0 (CAcceptThread 0 20480) s2)), 0, 20480, 819264.
  split; [exact ex_started|]. split.
  { apply (hist_snoc _ _ _ _ [(EStore 0 819264 9, 0)] s1).
    - apply (hist_snoc _ _ _ _ [] ex_s0); [constructor|].
      refine (es_store _ _ _ _ 0 819264 9 _ _ _); [reflexivity|reflexivity|].
      split; [vm_compute; reflexivity|vm_compute; discriminate].
    - refine (es_call _ _ _ _ 0 _ 0 _ _ _ _ _); [reflexivity|reflexivity|exact I|].
      apply call_val. vm_compute. reflexivity. }
  split; [vm_compute; reflexivity|]. split; [vm_compute; reflexivity|].
  split; [vm_compute; reflexivity|].
  split; [apply call_val; vm_compute; reflexivity|vm_compute; reflexivity].
Qed.

(** It releases a lock it never acquired: if the word above is zero and the caller
    does not own the region of the address, the lock of that region is cleared,
    even when another core holds it. *)
Theorem C49_clears_foreign_lock_refuted : forall G pb rb c s tid a s' v,
  geom G pb rb -> a < g_dram_size G -> a mod 4096 = 0 -> c < g_core_count G ->
  let w := (g_dram_region G + 40 * a) mod 2 ^ 64 in
  g_monitor_top G <= w -> ld 8 (s_mem s) w = 0 ->
  owner_of G s (region_of pb rb a) <> enclave_of G s c ->
  do_call G c (CAcceptThread tid a) s = (s', Some v) ->
  v = 1 /\ lock_of G s' (region_of pb rb a) = 0 /\ ld 8 (s_mem s') w = 1.
Proof.
  intros G pb rb c s tid a s' v g A1 A2 C w WT Z OW D.
  unfold do_call in D. cbn [call_prog] in D. unfold accept_thread in D.
  unfold is_dram_address in D. destruct (N.ltb_spec a (g_dram_size G)); [|lia].
  rewrite (proj2 (page_aligned_iff a) A2) in D. cbn [negb orb] in D.
  pose proof (layout _ _ _ g) as (L1 & L2 & L3 & L4 & L5 & L6 & L7 & L8).
  assert (W : wadd (region_addr G a) dri_lock = w).
  { unfold region_addr, wadd, wmul. change dram_region_info_size with 40.
    change dri_lock with 0. rewrite N.add_0_r. unfold w. change (2 ^ 64) with W64.
    rewrite N.mod_mod by discriminate. apply N.add_mod_idemp_r. discriminate. }
  set (r := region_of pb rb a) in *.
  assert (RL : r < 2 ^ rb) by apply region_of_lt.
  pose proof (geo_count _ _ _ g) as GC. rewrite <- GC in RL.
  change (2 ^ 31) with 2147483648 in L7. change (2 ^ 30) with 1073741824 in L8.
  assert (RA : region_addr G r = g_dram_region G + 40 * r).
  { unfold region_addr. change dram_region_info_size with 40.
    rewrite (wmul_small 40 r) by (unfold W64; lia). apply wadd_small. unfold W64. lia. }
  assert (CA : wadd (core_addr G c) ci_enclave_id = g_core G + 32 * c).
  { unfold core_addr. change core_info_size with 32. change ci_enclave_id with 0.
    rewrite (wmul_small 32 c) by (unfold W64; lia).
    rewrite (wadd_small (g_core G)) by (unfold W64; lia).
    rewrite wadd_small by (unfold W64; lia). lia. }
  rewrite run_bind in D. unfold current_enclave, current_core_info in D.
  cbn -[ld st wadd wmul region_addr core_addr dram_region_for] in D.
  rewrite CA, W, Z in D. rewrite (region_for_spec G pb rb g) in D. fold r in D.
  cbn -[ld st wadd wmul region_addr core_addr dram_region_for] in D.
  rewrite RA in D.
  rewrite (wadd_small _ dri_owner) in D by (change dri_owner with 8; unfold W64; lia).
  rewrite (wadd_small _ dri_lock) in D by (change dri_lock with 0; unfold W64; lia).
  change dri_owner with 8 in D. change dri_lock with 0 in D. rewrite N.add_0_r in D.
  rewrite ld_st_other in D by (change (N.of_nat 8) with 8; lia).
  change (ld 8 (s_mem s) (g_dram_region G + 40 * r + 8)) with (owner_of G s r) in D.
  change (ld 8 (s_mem s) (g_core G + 32 * c)) with (enclave_of G s c) in D.
  destruct (N.eqb_spec (owner_of G s r) (enclave_of G s c)); [contradiction|].
  cbn -[ld st] in D. inversion D; subst s' v. split; [reflexivity|].
  unfold lock_of. cbn [s_mem set_mem]. split.
  - apply ld8_st8. reflexivity.
  - rewrite ld_st_other by (change (N.of_nat 8) with 8; lia). apply ld8_st8. reflexivity.
Qed.
(** Core 1 holds the lock of region 2, which is blocked, when core 0 calls. *)
Example C49_example : let s := set_mem ex_b2 (st 8 (s_mem ex_b2) (g_dram_region ex_G + 40 * 2) 1) in
  let a := 2 * 262144 in let w := (g_dram_region ex_G + 40 * a) mod 2 ^ 64 in
  a < g_dram_size ex_G /\ a mod 4096 = 0 /\ region_of 6 4 a = 2 /\
  g_monitor_top ex_G <= w /\ ld 8 (s_mem s) w = 0 /\
  owner_of ex_G s 2 = 1 /\ enclave_of ex_G s 0 = 0 /\ lock_of ex_G s 2 = 1.
Proof.
  cbv zeta. split; [vm_compute; reflexivity|]. split; [vm_compute; reflexivity|].
  split; [vm_compute; reflexivity|]. split; [vm_compute; discriminate|].
  repeat (split; [vm_compute; reflexivity|]). vm_compute. reflexivity.
Qed.

(** ** C50 *)

(** The codes of api.h:24-81 that calls return are pairwise different, except for
    monitor_async_exit. *)
Theorem C50_distinct_partial :
  NoDup [monitor_ok; monitor_invalid_value; monitor_invalid_state;
         monitor_concurrent_call; monitor_access_denied; monitor_unsupported].
Proof.
  unfold monitor_ok, monitor_invalid_value, monitor_invalid_state, monitor_concurrent_call,
    monitor_access_denied, monitor_unsupported.
  repeat constructor; cbn; intuition discriminate.
Qed.
Theorem C50_async_exit_refuted : monitor_async_exit = monitor_access_denied.
Proof. reflexivity. Qed.

Definition P_Enclave_theorems := (C46_nothing_freed_refuted, C46_example, C47_wipe_partial,
  C47_huge_dram_refuted, C47_huge_example, C48_debug_copy_partial, C48_monitor_read_refuted,
  C48_monitor_write_refuted, C48_leak_refuted, C49_address_as_index_refuted,
  C49_writes_blocked_region_refuted, C49_clears_foreign_lock_refuted, C49_example,
  C50_distinct_partial, C50_async_exit_refuted).
Print Assumptions P_Enclave_theorems.
