(** * The boot on every platform, DRAM narrower than the cache index included (C84). *)
From Coq Require Import NArith ZArith Lia Bool List.
From Coq Require Import ZifyBool ZifyNat ZifyN.
From Verif Require Import Word Machine ModelBare ModelHash ModelInl ModelBoot Lib
  BareProofs BootProofs.
Import ListNotations.
Open Scope N_scope.
Ltac Zify.zify_post_hook ::= Z.div_mod_to_equations.

(** The platform is one the monitor supports, with [pb] page bits in a stripe and
    2^rb regions. *)
Record supported_any (P : platform) (top pb rb : N) : Prop := mkSupportedAny {
  sa_levels : 1 <= p_cache_levels P < 2 ^ 64;
  sa_private : ~ inner_shared P;
  sa_cache : exists lb st, lb <= 30 /\ st <= 30 /\
    p_line_size P (llc P) = 2 ^ lb /\ p_set_count P (llc P) = 2 ^ st /\
    lb + st = 12 + rb;
  sa_rb : 1 <= rb <= 30;
  sa_dram : 1 <= p_dram_size P < 2 ^ 64;
  (* what the code makes of a DRAM narrower than the cache index: the maximum shift *)
  sa_pb : pb = if 12 + rb <=? address_bits_for (p_dram_size P)
               then N.min (address_bits_for (p_dram_size P) - (12 + rb)) (p_max_shift P)
               else p_max_shift P;
  sa_min : p_min_shift P <= pb;
  sa_shift : 12 + pb <= 30;
  sa_tables : tables_end top (p_core_count P) (2 ^ rb) <= 2 ^ (12 + pb) }.

Lemma chosen_bits_any ab cb mx : ab <= 64 -> cb <= 60 -> mx < 2 ^ 32 ->
  chosen_bits ab cb mx = if cb <=? ab then N.min (ab - cb) mx else mx.
Proof.
  intros A C M. change (2 ^ 32) with 4294967296 in M. destruct (N.leb_spec cb ab) as [H|H].
  - apply chosen_bits_min; [exact H|unfold W64; lia].
  - unfold chosen_bits, wsub, wrap, W64.
    match goal with |- (if mx <? ?x then _ else _) = _ => assert (mx < x) end.
    { lia. }
    destruct (N.ltb_spec mx ((ab + (18446744073709551616 - cb mod 18446744073709551616)) mod 18446744073709551616)); lia.
Qed.

Lemma boot_any c s P top pb rb : p_max_shift P < 2 ^ 32 -> supported_any P top pb rb ->
  exists s' G, run c (boot_from P top) s = (s', Some G) /\
    booted P top pb rb c s G s'.
Proof.
  intros MX [L NS [lb [st [LB [ST [LS [SC CB]]]]]] RB D PB MN SH TB].
  change (2 ^ 64) with W64 in *.
  unfold boot_from. rewrite run_bind.
  rewrite (dram_regions_split c s P lb st) by auto. cbv zeta.
  replace (st + lb) with (12 + rb) by lia.
  assert (A64 : address_bits_for (p_dram_size P) <= 64) by (apply address_bits_le64; lia).
  rewrite chosen_bits_any by (try exact MX; lia). rewrite <- PB.
  replace ((12 + rb <=? 12) || (pb <? p_min_shift P)) with false by lia.
  rewrite ge_tail_run by lia.
  assert (P30 : 2 ^ (12 + pb) <= 2 ^ 30) by (apply pow2_le; lia).
  destruct (boot_rest_run c s P pb rb top) as [s' [E [U S]]]; try lia.
  cbv zeta. 
  set (mtop := 2 ^ address_bits_for (tables_end top (p_core_count P) (2 ^ rb))) in *.
  assert (ML : mtop <= 2 ^ (12 + pb)).
  { unfold mtop. apply pow2_le. apply address_bits_iff; auto.
    - unfold tables_end. lia.
    - change (2 ^ 30) with 1073741824 in P30. unfold W64. lia. }
  replace (2 ^ (12 + pb) <? mtop) with false in E by lia.
  eexists s', _. split; [exact E|]. apply S. auto.
Qed.

(** Conversely: a boot that ends without undefined behaviour, on a platform with
    sane counts and with DRAM any width, is a supported
    one. *)
Lemma boot_inv_any c s P top s' G :
  1 <= p_cache_levels P < 2 ^ 64 ->
  p_line_size P (llc P) < 2 ^ 64 -> p_set_count P (llc P) < 2 ^ 64 ->
  1 <= p_dram_size P < 2 ^ 64 -> p_max_shift P < 2 ^ 32 ->
  top < 2 ^ 32 -> p_core_count P < 2 ^ 32 ->
  run c (boot_from P top) s = (s', Some G) -> s_ub s' = s_ub s ->
  exists pb rb, supported_any P top pb rb /\ booted P top pb rb c s G s'.
Proof.
  intros L LW SW D MX T C R U. pose proof MX as MX'.
  assert (U' : ubs s' = ubs s) by (unfold ubs; rewrite U; reflexivity). 
  change (2 ^ 64) with W64 in *. change (2 ^ 32) with 4294967296 in *.
  pose proof R as R0.
  unfold boot_from in R. apply run_bind_ub in R; auto.
  destruct R as [s1 [ge [R1 [R2 [U1 U2]]]]].
  pose proof R1 as R1'.
  apply dram_regions_inv in R1; auto.
  destruct R1 as [NS [lb [st [LB [ST [LS [SC [CB MN]]]]]]]].
  rewrite (dram_regions_split c s P lb st) in R1' by auto. cbv zeta in R1'.
  rewrite (N.add_comm lb st) in *.
  set (pb := chosen_bits _ _ _) in *.
  assert (A64 : address_bits_for (p_dram_size P) <= 64) by (apply address_bits_le64; lia).
  assert (PBE : pb = if st + lb <=? address_bits_for (p_dram_size P)
    then N.min (address_bits_for (p_dram_size P) - (st + lb)) (p_max_shift P) else p_max_shift P).
  { unfold pb. apply chosen_bits_any; try exact MX'; lia. }
  assert (PM : pb <= p_max_shift P).
  { rewrite PBE. clear. destruct (st + lb <=? _); [apply N.le_min_r|apply N.le_refl]. }
  replace ((st + lb <=? 12) || (pb <? p_min_shift P)) with false in R1' by lia.
  pose proof R1' as R1''.
  apply ge_tail_inv in R1''; auto; try (unfold W64; lia).
  destruct R1'' as [SH CB2].
  set (rb := st + lb - 12). assert (RB : st + lb = 12 + rb) by lia.
  rewrite RB in R1'. rewrite ge_tail_run in R1' by lia.
  inversion R1'; subst s1 ge. clear R1'.
  (* the tables *)
  cbv zeta in R2.
  assert (R30 : 2 ^ rb <= 2 ^ 30) by (apply pow2_le; lia).
  change (2 ^ 30) with 1073741824 in R30.
  assert (TW : tables_end top (p_core_count P) (2 ^ rb) < W64)
    by (unfold tables_end, words_of_count, W64; lia).
  assert (TB30 : tables_end top (p_core_count P) (2 ^ rb) <= 2 ^ 30).
  { pose proof R2 as Q. rewrite run_bind in Q.
    destruct (dynamic_arrays_run c (set_shift s c pb) P pb rb top) as [m [E _]]; [lia|auto|].
    rewrite E in Q. unfold boot_init_protection in Q.
    apply run_bind_ub in Q; [|exact U2]. destruct Q as [s2 [u [Q1 [Q2 [U3 U4]]]]].
    apply ub_if_inv in Q1; auto. destruct Q1 as [Q1 _].
    apply int_shl_ub_one_inv in Q1.
    change (g_monitor_top _) with (tables_end top (p_core_count P) (2 ^ rb)) in Q1.
    apply address_bits_iff in Q1; auto. unfold tables_end. lia. }
  destruct (boot_rest_run c s P pb rb top) as [s'' [E [UU S]]]; try lia.
  cbv zeta in E, S. rewrite E in R2.
  set (mtop := 2 ^ address_bits_for (tables_end top (p_core_count P) (2 ^ rb))) in *.
  destruct (2 ^ (12 + pb) <? mtop) eqn:X; [discriminate|].
  apply N.ltb_ge in X. inversion R2; subst s'' G. exists pb, rb. split; [|apply S; auto].
  clear R0 E S UU U U' U1 U2 R2.
  split.
  - exact L.
  - exact NS.
  - exists lb, st. repeat split; auto. rewrite N.add_comm. exact RB.
  - lia.
  - exact D.
  - rewrite <- RB. exact PBE.
  - exact MN.
  - exact SH.
  - apply N.le_trans with mtop; [|exact X]. unfold mtop.
    apply address_bits_iff; [unfold tables_end; lia|exact TW|apply N.le_refl].
Qed.
