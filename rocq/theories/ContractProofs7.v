(** * create_enclave for every identifier and every number of mailboxes. *)
From Coq Require Import NArith ZArith Lia Bool List.
From Coq Require Import ZifyBool ZifyNat ZifyN.
From Verif Require Import Word Machine ModelBare ModelHash ModelInl ModelRegions
  ModelMetadata ModelEnclave ModelBoot ModelApi Lib BareProofs SpecGeometry
  GeomProofs SpecMonitor SpecMetadata ViewProofs SeqProofs SeqCalls SeqCalls2 SeqCalls3
  SeqCalls4 SeqCalls5 SeqCalls6 HistoryProofs MetaProofs P_Metadata SpecContract
  ContractProofs ContractProofs4 SpecContract2 ContractProofs5 SpecContract5.
Import ListNotations.
Open Scope N_scope.
Ltac Zify.zify_post_hook ::= Z.div_mod_to_equations.

Section Create.
Variables (G : globals) (pb rb : N).
Hypothesis g : geom G pb rb.
Local Notation n := (g_dram_region_count G).

Lemma size_any mc : enclave_info_size G mc = record_bytes n mc mod W64.
Proof.
  unfold enclave_info_size, enclave_mailbox, enclave_mailboxes, enclave_region_bitmap, record_bytes.
  change enclave_info_t_size with 304. change mailbox_size with 304.
  rewrite (geo_words _ _ _ g), (geo_count _ _ _ g).
  pose proof (geo_rb _ _ _ g) as RB. pose proof (p30 rb ltac:(lia)) as P30.
  set (w := (2 ^ rb + 63) / 64) in *. assert (w < 1073741824 + 64) by (unfold w; lia). clearbody w.
  rewrite (wadd_small 0) by (unfold W64; lia).
  rewrite (wmul_small 8 w) by (unfold W64; lia). rewrite (wadd_small (0 + 304)) by (unfold W64; lia).
  unfold wadd, wmul. rewrite N.add_mod_idemp_r by discriminate. f_equal.
Qed.
Lemma pages_any mc : enclave_info_pages G mc = used_pages n mc.
Proof.
  unfold enclave_info_pages, used_pages. rewrite size_any. change (2 ^ 64) with W64.
  set (z := record_bytes n mc mod W64). assert (Z : z < W64) by (apply N.mod_lt; discriminate).
  clearbody z. unfold pages_needed_for. change page_shift with 12. rewrite wshr_small by lia.
  change (2 ^ 12) with 4096. f_equal. unfold wsub, wadd. rewrite page_size_val. unfold W64 in *. lia.
Qed.

Variables (s : state) (c : N).
Hypothesis CL : clean_locks G s.
Hypothesis R02 : owner_of G s 0 <> 2.
Local Notation o := (view_of G s).
Lemma create_any id base mask mc d :
  id < W64 -> base < W64 -> mask < W64 -> mc < W64 ->
  wp G c (create_enclave G id base mask mc d) o (fun v o' =>
    create_enclave_outcome G pb rb s id base mask mc v /\
    (v <> 0 -> oeq o o') /\
    (v = 0 -> exists m2, oeq (with_rest o m2) o' /\ g_monitor_top G <= id /\ id + 4096 <= W64 /\
       id mod 4096 = 0 /\
       created G id base mask mc d (s_mem s) m2)).
Proof.
  intros HI HB HM HC'. unfold create_enclave, create_enclave_outcome, enclave_range_ok.
  pose proof (pages_any mc) as IPV.
  change (2 ^ 64) with W64.
  pose proof (range_iff base mask HB HM) as RI.
  destruct (is_valid_range base mask) eqn:VR; cbn [negb].
  2:{ apply wp_ret. split; [|split; [intros _; apply oeq_refl|discriminate]].
      left. split; auto. intros [X _]. apply RI in X. discriminate. }
  assert (PR : pow2_range base mask) by (apply RI; reflexivity).
  rewrite page_size_val.
  assert (ME : (wadd mask 1 <? 4096) = negb ((4096 <=? mask + 1) && (mask + 1 <? W64))).
  { destruct (N.eq_dec (mask + 1) W64) as [E|E].
    - unfold wadd. rewrite E. rewrite N.mod_same by discriminate.
      rewrite N.ltb_irrefl, andb_false_r. reflexivity.
    - rewrite wadd_small by lia. lia. }
  rewrite ME.
  destruct ((4096 <=? mask + 1) && (mask + 1 <? W64)) eqn:MB; cbn [negb].
  2:{ apply wp_ret. split; [|split; [intros _; apply oeq_refl|discriminate]].
      left. split; auto. lia. }
  assert (GOOD : pow2_range base mask /\ 4096 <= mask + 1 < W64) by (split; [auto|lia]).
  apply wp_bind. eapply wp_weaken; [|apply (meta_any G pb rb g c id o CL)].
  cbv beta. intros [v r] o1 [E1 [E2 E3]]. cbn [fst snd] in *.
  change (mcode G pb rb o id) with (meta_code G pb rb s id) in E1.
  change monitor_ok with 0.
  destruct (N.eqb_spec v 0) as [V0|V0]; cbn [negb].
  2:{ apply wp_ret. split; [|split; [auto|intros Y; contradiction]].
      right; left. split; auto. rewrite <- E1. auto. }
  destruct (E3 V0) as [-> [-> [LR [OW IP]]]]. clear E2 E3. rewrite V0 in E1. symmetry in E1.
  destruct (page_facts G pb rb g s R02 id HI IP OW) as [R0 [AL [TOP B4]]].
  set (q := region_of pb rb id) in *.
  assert (R : q < n) by apply (region_lt' G pb rb g).
  bnd (wp_owner G pb rb g). change (o_owner (with_lock o q 1) q) with (o_owner o q). rewrite OW.
  change (2 =? metadata_enclave_id) with true. cbn [negb].
  assert (REL : oeq o (with_lock (with_lock o q 1) q 0)) by oeqs.
  apply wp_bind. unfold reserve_metadata_pages.
  eapply wp_weaken; [|apply (assign_pages_seq G pb rb g c id (enclave_info_pages G mc) id
     enclave_metadata_page_type empty_metadata_page_type); auto;
     [apply (info_pages_small G)|apply info_lt; [auto|reflexivity]]].
  cbv beta. cbn [o_rest with_lock]. change (o_rest o) with (s_mem s).
  rewrite IPV. rewrite (map_at G pb rb g id HI).
  set (k := used_pages n mc) in *. fold (page_of pb id).
  intros w o2 [[-> [X ->]]|[C [[-> [F ->]]|[-> [F [m1 [-> [MM FR]]]]]]]].
  - change (invalid_value =? 0) with false. cbn [negb].
    bnd (wp_clr G pb rb g). apply wp_ret.
    split; [|split; [auto|discriminate]]. right; right; left. auto.
  - change (invalid_state =? 0) with false. cbn [negb].
    bnd (wp_clr G pb rb g). apply wp_ret.
    split; [|split; [auto|discriminate]]. right; right; right; left.
    split; auto. split; auto. split; auto. split; auto.
    destruct (existsb (fun j => negb (entry_used pb rb s id (N.of_nat j) =? 0)) (seq 0 (N.to_nat k))) eqn:EX.
    + apply existsb_exists in EX. destruct EX as [j [J1 J2]]. apply in_seq in J1.
      exists (N.of_nat j). split; [lia|]. destruct (N.eqb_spec (entry_used pb rb s id (N.of_nat j)) 0); [discriminate|auto].
    + exfalso. apply F. intros j J. 
      destruct (N.eqb_spec (entry_used pb rb s id j) 0) as [Z|Z]; [exact Z|].
      exfalso. assert (TT : existsb (fun j => negb (entry_used pb rb s id (N.of_nat j) =? 0)) (seq 0 (N.to_nat k)) = true).
      { apply existsb_exists. exists (N.to_nat j). split; [apply in_seq; lia|].
        rewrite N2Nat.id. destruct (N.eqb_spec (entry_used pb rb s id j) 0); [contradiction|reflexivity]. }
      rewrite TT in EX. discriminate.
  - change (ok =? 0) with true. cbn [negb].
    apply wp_bind.
    apply (wp_confined G pb rb g c _ id (id + 304) (fun _ m => fresh_record m id base mask mc d)).
    + intros b B. apply (rest_high G pb rb g). lia.
    + intros s0 V. destruct (init_info_run c s0 id base mask mc d) as [m [RR [FF X]]];
        auto; [lia|]. exists m, tt. auto.
    + intros u m m' FM S1 S2. cbn [o_rest with_rest] in S2.
      bnd (wp_clr G pb rb g). apply wp_ret.
      split; [|split; [intros X; exfalso; apply X; reflexivity|]].
      * right; right; right; right. auto.
      * intros _. exists m'. split; [oeqs|]. split; auto. split; auto. split; auto.
        split; [rewrite IPV, (map_at G pb rb g id HI); exact F|].
        exists m1. rewrite IPV, (map_at G pb rb g id HI). fold k. split; auto. split; auto. split.
        -- eapply fresh_ext; [exact FM|exact S1].
        -- exact S2.
Qed.
End Create.
