(** * set_dma_range and create_enclave over every machine state. *)
From Coq Require Import NArith ZArith Lia Bool List.
From Coq Require Import ZifyBool ZifyNat ZifyN.
From Verif Require Import Word Machine ModelBare ModelHash ModelInl ModelRegions
  ModelMetadata ModelEnclave ModelBoot ModelApi Lib BareProofs SpecGeometry
  GeomProofs SpecMonitor SpecMetadata ViewProofs SeqProofs SeqCalls SeqCalls2 SeqCalls3
  SeqCalls4 SeqCalls5 SeqCalls6 HistoryProofs MetaProofs P_Metadata SpecContract
  ContractProofs ContractProofs4 SpecContract2.
Import ListNotations.
Open Scope N_scope.
Ltac Zify.zify_post_hook ::= Z.div_mod_to_equations.

Section Dma.
Variables (G : globals) (pb rb : N).
Hypothesis g : geom G pb rb.
Local Notation n := (g_dram_region_count G).
Local Notation S1 := (2 ^ (12 + pb)).

Lemma stripe_size_pos : 1 <= g_dram_stripe_size G.
Proof. rewrite (geo_size _ _ _ g). pose proof (pow2_pos (12 + pb)). lia. Qed.

Lemma dma_loop_any c o e : clean G o ->
  e + g_dram_stripe_size G <= W64 ->
  forall fuel a, e <= a + N.of_nat fuel * g_dram_stripe_size G ->
  forall bb o1, oeq (with_lock o 0 1) o1 ->
  wp G c (dma_stripes fuel G a e bb) o1
    (fun res o' => oeq (with_lock o 0 1) o' /\
       match res with
       | Some _ => forall k, a + k * S1 < e ->
           region_of pb rb (a + k * S1) = 0 \/ o_lock o (region_of pb rb (a + k * S1)) = 0
       | None => exists k, a + k * S1 < e /\
           o_lock o (region_of pb rb (a + k * S1)) = 1
       end).
Proof.
  intros CL EB. pose proof stripe_size_pos as SP.
  assert (SE : g_dram_stripe_size G = S1) by apply (geo_size _ _ _ g).
  induction fuel as [|k IH]; intros a F bb o1 E; cbn [dma_stripes].
  - destruct (N.ltb_spec a e); [lia|]. apply wp_ret. split; [auto|]. intros j J. exfalso. lia.
  - destruct (N.ltb_spec a e) as [L|L];
      [|apply wp_ret; split; [auto|]; intros j J; exfalso; lia].
    rewrite (region_for_spec G pb rb g).
    set (r := region_of pb rb a). assert (R : r < n) by apply (region_lt' G pb rb g).
    assert (F' : e <= wadd a (g_dram_stripe_size G) + N.of_nat k * g_dram_stripe_size G).
    { rewrite wadd_small by lia. lia. }
    assert (NX : wadd a (g_dram_stripe_size G) = a + S1) by (rewrite wadd_small by lia; lia).
    assert (UP : forall res o', (r = 0 \/ o_lock o r = 0) ->
      (oeq (with_lock o 0 1) o' /\
       match (res : option bool) with
       | Some _ => forall k, a + S1 + k * S1 < e ->
           region_of pb rb (a + S1 + k * S1) = 0 \/ o_lock o (region_of pb rb (a + S1 + k * S1)) = 0
       | None => exists k, a + S1 + k * S1 < e /\
           o_lock o (region_of pb rb (a + S1 + k * S1)) = 1
       end) ->
      (oeq (with_lock o 0 1) o' /\
       match res with
       | Some _ => forall k, a + k * S1 < e ->
           region_of pb rb (a + k * S1) = 0 \/ o_lock o (region_of pb rb (a + k * S1)) = 0
       | None => exists k, a + k * S1 < e /\
           o_lock o (region_of pb rb (a + k * S1)) = 1
       end)).
    { intros res o' H0 [A B]. split; [auto|]. destruct res.
      - intros j J. destruct (N.eq_dec j 0) as [->|NJ].
        + rewrite N.mul_0_l, N.add_0_r. exact H0.
        + replace (a + j * S1) with (a + S1 + (j - 1) * S1) in * by nia. auto.
      - destruct B as [j [J1 J2]]. exists (j + 1).
        replace (a + (j + 1) * S1) with (a + S1 + j * S1) by nia. auto. }
    rewrite NX in *.
    destruct (N.eqb_spec r 0) as [R0|R0].
    + cbn [negb]. cbn [bind]. apply wp_bind. apply (wp_owner G pb rb g); auto.
      eapply wp_weaken; [|apply IH; auto]. intros res o'. apply UP; auto.
    + cbn [negb]. apply wp_bind. apply (wp_tas G pb rb g); auto.
      rewrite (oe_lock _ _ E). cbn [o_lock with_lock]. rewrite upd_other by auto.
      destruct (CL r R) as [LR|LR]; rewrite LR; cbn [N.eqb Pos.eqb negb].
      * apply wp_bind. apply (wp_owner G pb rb g); auto.
        bnd (wp_clr G pb rb g). eapply wp_weaken; [|apply IH; auto].
        { intros res o'. apply UP; auto. }
        destruct E. constructor; cbn; auto. intros. unfold upd.
        destruct (N.eqb_spec r0 r) as [->|]; [|apply oe_lock].
        destruct (N.eqb_spec r 0); [contradiction|auto].
      * apply wp_ret. split.
        { destruct E. constructor; cbn; auto. intros. unfold upd.
          destruct (N.eqb_spec r0 r) as [->|]; [|apply oe_lock].
          destruct (N.eqb_spec r 0); [contradiction|auto]. }
        exists 0. rewrite N.mul_0_l, N.add_0_r. auto.
Qed.

Lemma set_dma_wp c s base mask : clean_locks G s ->
  base < W64 -> mask < W64 ->
  g_dram_size G + g_dram_stripe_size G <= W64 ->
  wp G c (set_dma_range G base mask) (view_of G s)
    (fun v o' => set_dma_result G pb rb s base mask v /\
       (v <> 0 -> oeq (view_of G s) o') /\
       (v = 0 -> oeq (with_dma (view_of G s) base (wnot mask) base (base + mask + 1)) o')).
Proof.
  intros CL HB HM HD. 
  assert (LE : forall r, o_lock (view_of G s) r = lock_of G s r) by reflexivity.
  assert (CLo : clean G (view_of G s)) by exact CL.
  set (o := view_of G s) in *. clearbody o. unfold set_dma_range, set_dma_result, dma_range_ok.
  pose proof (range_iff base mask HB HM) as RI.
  destruct (is_valid_range base mask) eqn:VR; cbn [negb].
  2:{ apply wp_ret. split; [|split; [intros _; apply oeq_refl|discriminate]].
      left. split; auto. intros [X _]. apply RI in X. discriminate. }
  assert (PR : pow2_range base mask) by (apply RI; reflexivity).
  destruct (range_last base mask HB HM VR) as [LO LW].
  rewrite LO. unfold is_dram_address.
  destruct (N.ltb_spec (base + mask) (g_dram_size G)) as [D|D]; cbn [negb].
  2:{ apply wp_ret. split; [|split; [intros _; apply oeq_refl|discriminate]].
      left. split; auto. lia. }
  pose proof (N0 G pb rb g) as NP.
  apply wp_bind. apply (wp_tas G pb rb g); auto.
  destruct (CL 0 NP) as [L0|L0]; rewrite LE, L0; cbn [N.eqb Pos.eqb negb].
  2:{ apply wp_ret. split; [|split; [|discriminate]].
      - right; left. split; auto. split; auto. left. unfold is_locked. rewrite L0. reflexivity.
      - intros _. rewrite <- LE in L0. oeqs. }
  rewrite wadd_small by (pose proof (geo_D _ _ _ g); lia).
  apply wp_bind. pose proof stripe_size_pos as SP.
  eapply wp_weaken; [|apply (dma_loop_any c o (base + mask + 1) CLo); [lia| |apply oeq_refl]].
  2:{ rewrite Nat2N.inj_succ, N2Nat.id.
      set (S := g_dram_stripe_size G) in *.
      replace (base + mask + 1 - base) with (mask + 1) by lia.
      pose proof (N.div_mod (mask + 1) S). pose proof (N.mod_lt (mask + 1) S).
      generalize n. intros n0. nia. }
  cbv beta. intros res o1 [E LK]. destruct res as [b'|].
  2:{ bnd (wp_clr G pb rb g). apply wp_ret. split; [|split; [|discriminate]].
      - right; left. split; auto. split; auto. right. destruct LK as [k [K1 K2]].
        exists k. split; [lia|]. unfold is_locked. rewrite <- LE, K2. reflexivity.
      - intros _. rewrite <- LE in L0. destruct E. constructor; cbn; auto.
        intros. unfold upd. destruct (N.eqb_spec r 0) as [->|NE]; [auto|].
        rewrite oe_lock. cbn. apply upd_other. auto. }
  intros s1 V.
  destruct (wp_set_dma G c o1 base (base + mask + 1) base (wnot mask)
    (fun _ o' => o' = with_dma o1 base (wnot mask) base (base + mask + 1))
    eq_refl s1 V) as [s2 [z [o2 [R [V2 ->]]]]].
  destruct (wp_clr G pb rb g c 0 (with_dma o1 base (wnot mask) base (base + mask + 1))
    (fun _ o' => o' = with_lock (with_dma o1 base (wnot mask) base (base + mask + 1)) 0 0)
    NP eq_refl s2 V2) as [s3 [z3 [o3 [R3 [V3 ->]]]]].
  exists s3, ok, (with_lock (with_dma o1 base (wnot mask) base (base + mask + 1)) 0 0).
  split; [|split; [exact V3|]].
  { cbn [bind op1 run] in R |- *. cbn [step] in R |- *.
    injection R as R _. cbn [s_mem s_cores s_words s_dmar_base s_dmar_mask s_dma_start s_dma_end s_ub].
    rewrite R. rewrite run_bind, R3. reflexivity. }
  split; [|split; [intros X; exfalso; apply X; reflexivity|]].
  - right; right. split; auto. split; auto. intros [B|[k [K1 K2]]].
    + unfold is_locked in B. rewrite L0 in B. discriminate.
    + unfold is_locked in K2. rewrite <- LE in K2.
      destruct (LK k ltac:(lia)) as [Z|Z].
      * rewrite Z, LE, L0 in K2. discriminate.
      * rewrite Z in K2. discriminate.
  - intros _. rewrite <- LE in L0. destruct E. constructor; cbn; auto.
    intros. unfold upd. destruct (N.eqb_spec r 0) as [->|NE]; [auto|].
    rewrite oe_lock. cbn. apply upd_other. auto.
Qed.
End Dma.

Section Create.
Variables (G : globals) (pb rb : N).
Hypothesis g : geom G pb rb.
Hypothesis HD : g_dram_size G + g_dram_stripe_size G <= W64.
Variables (s : state) (c : N).
Hypothesis CL : clean_locks G s.
Hypothesis R02 : owner_of G s 0 <> 2.
Local Notation n := (g_dram_region_count G).
Local Notation o := (view_of G s).

Lemma create_wp id base mask mc d :
  id < W64 -> base < W64 -> mask < W64 -> record_bytes n mc + 4096 <= W64 ->
  first_stripe pb rb id ->
  wp G c (create_enclave G id base mask mc d) o (fun v o' =>
    create_enclave_result G pb rb s id base mask mc v /\
    (v <> 0 -> oeq o o') /\
    (v = 0 -> exists m2, oeq (with_rest o m2) o' /\ g_monitor_top G <= id /\ id + 4096 <= W64 /\
       id mod 4096 = 0 /\
       created G id base mask mc d (s_mem s) m2)).
Proof.
  intros HI HB HM HC FS. unfold create_enclave, create_enclave_result, enclave_range_ok.
  assert (HC' : mc < W64) by (unfold record_bytes in HC; unfold W64 in *; lia).
  pose proof (info_pages_val G pb rb g HD mc HC) as IPV.
  change (2 ^ 64) with W64.
  pose proof (range_iff base mask HB HM) as RI.
  destruct (is_valid_range base mask) eqn:VR; cbn [negb].
  2:{ apply wp_ret. split; [|split; [intros _; apply oeq_refl|discriminate]].
      left. split; auto. intros [X _]. apply RI in X. discriminate. }
  assert (PR : pow2_range base mask) by (apply RI; reflexivity).
  rewrite page_size_val.
  assert (ME : (wadd mask 1 <? 4096) = negb ((4096 <=? mask + 1) && (mask + 1 <? W64))).
  { destruct (N.eq_dec (mask + 1) W64) as [E|E].
    - unfold wadd. rewrite E. rewrite N.mod_same by discriminate.
      rewrite N.ltb_irrefl, andb_false_r. reflexivity.
    - rewrite wadd_small by lia. lia. }
  rewrite ME.
  destruct ((4096 <=? mask + 1) && (mask + 1 <? W64)) eqn:MB; cbn [negb].
  2:{ apply wp_ret. split; [|split; [intros _; apply oeq_refl|discriminate]].
      left. split; auto. lia. }
  assert (GOOD : pow2_range base mask /\ 4096 <= mask + 1 < W64) by (split; [auto|lia]).
  apply wp_bind. eapply wp_weaken; [|apply (meta_any G pb rb g c id o CL)].
  cbv beta. intros [v r] o1 [E1 [E2 E3]]. cbn [fst snd] in *.
  change (mcode G pb rb o id) with (meta_code G pb rb s id) in E1.
  change monitor_ok with 0.
  destruct (N.eqb_spec v 0) as [V0|V0]; cbn [negb].
  2:{ apply wp_ret. split; [|split; [auto|intros Y; contradiction]].
      right; left. split; auto. rewrite <- E1. auto. }
  destruct (E3 V0) as [-> [-> [LR [OW IP]]]]. clear E2 E3. rewrite V0 in E1. symmetry in E1.
  destruct (page_facts G pb rb g s R02 id HI IP OW) as [R0 [AL [TOP B4]]].
  set (q := region_of pb rb id) in *.
  assert (R : q < n) by apply (region_lt' G pb rb g).
  bnd (wp_owner G pb rb g). change (o_owner (with_lock o q 1) q) with (o_owner o q). rewrite OW.
  change (2 =? metadata_enclave_id) with true. cbn [negb].
  assert (REL : oeq o (with_lock (with_lock o q 1) q 0)) by oeqs.
  apply wp_bind. unfold reserve_metadata_pages.
  eapply wp_weaken; [|apply (assign_pages_seq G pb rb g c id (enclave_info_pages G mc) id
     enclave_metadata_page_type empty_metadata_page_type); auto;
     [apply (info_pages_small G)|apply info_lt; [auto|reflexivity]]].
  cbv beta. cbn [o_rest with_lock]. change (o_rest o) with (s_mem s).
  rewrite IPV. rewrite (map_first G pb rb g id HI FS).
  set (k := record_pages n mc) in *. fold (page_of pb id).
  intros w o2 [[-> [X ->]]|[C [[-> [F ->]]|[-> [F [m1 [-> [MM FR]]]]]]]].
  - change (invalid_value =? 0) with false. cbn [negb].
    bnd (wp_clr G pb rb g). apply wp_ret.
    split; [|split; [auto|discriminate]]. right; right; left. auto.
  - change (invalid_state =? 0) with false. cbn [negb].
    bnd (wp_clr G pb rb g). apply wp_ret.
    split; [|split; [auto|discriminate]]. right; right; right; left.
    split; auto. split; auto. split; auto. split; auto.
    destruct (existsb (fun j => negb (entry_after pb rb s id (N.of_nat j) =? 0)) (seq 0 (N.to_nat k))) eqn:EX.
    + apply existsb_exists in EX. destruct EX as [j [J1 J2]]. apply in_seq in J1.
      exists (N.of_nat j). split; [lia|]. destruct (N.eqb_spec (entry_after pb rb s id (N.of_nat j)) 0); [discriminate|auto].
    + exfalso. apply F. intros j J. 
      destruct (N.eqb_spec (entry_after pb rb s id j) 0) as [Z|Z]; [exact Z|].
      exfalso. assert (TT : existsb (fun j => negb (entry_after pb rb s id (N.of_nat j) =? 0)) (seq 0 (N.to_nat k)) = true).
      { apply existsb_exists. exists (N.to_nat j). split; [apply in_seq; lia|].
        rewrite N2Nat.id. destruct (N.eqb_spec (entry_after pb rb s id j) 0); [contradiction|reflexivity]. }
      rewrite TT in EX. discriminate.
  - change (ok =? 0) with true. cbn [negb].
    apply wp_bind.
    apply (wp_confined G pb rb g c _ id (id + 304) (fun _ m => fresh_record m id base mask mc d)).
    + intros b B. apply (rest_high G pb rb g). lia.
    + intros s0 V. destruct (init_info_run c s0 id base mask mc d) as [m [RR [FF X]]];
        auto; [lia|]. exists m, tt. auto.
    + intros u m m' FM S1 S2. cbn [o_rest with_rest] in S2.
      bnd (wp_clr G pb rb g). apply wp_ret.
      split; [|split; [intros X; exfalso; apply X; reflexivity|]].
      * right; right; right; right. auto.
      * intros _. exists m'. split; [oeqs|]. split; auto. split; auto. split; auto.
        split; [rewrite IPV, (map_first G pb rb g id HI FS); exact F|].
        exists m1. rewrite IPV, (map_first G pb rb g id HI FS). fold k. split; auto. split; auto. split.
        -- eapply fresh_ext; [exact FM|exact S1].
        -- exact S2.
Qed.
End Create.
