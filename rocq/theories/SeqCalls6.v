(** * Thread calls and the debug copy (sequential execution). *)
From Coq Require Import NArith ZArith Lia Bool List.
From Coq Require Import ZifyBool ZifyNat ZifyN.
From Verif Require Import Word Machine ModelBare ModelHash ModelInl ModelRegions
  ModelMetadata ModelEnclave ModelBoot ModelApi Lib BareProofs SpecGeometry
  GeomProofs SpecMonitor ViewProofs SeqProofs SeqCalls SeqCalls2
  SeqCalls3 SeqCalls4 SeqCalls5.
Import ListNotations.
Open Scope N_scope.
Ltac Zify.zify_post_hook ::= Z.div_mod_to_equations.

Lemma oeq_trans a b c : oeq a b -> oeq b c -> oeq a c.
Proof.
  intros [] []. constructor; intros; congruence.
Qed.
Lemma oeq_sym a b : oeq a b -> oeq b a.
Proof. intros []. constructor; intros; symmetry; auto. Qed.

Section Calls6.
Variables (G : globals) (pb rb : N).
Hypothesis g : geom G pb rb.
Local Notation n := (g_dram_region_count G).

(** A refused thread call may only set a lock word that was neither 0 nor 1. *)
Definition touched (id : N) (o o' : ost) : Prop :=
  oeq o o' \/
  (g_monitor_top G <= id /\ id + 8 <= W64 /\ id mod 4096 = 0 /\ ld 8 (o_rest o) id <> 0 /\
   oeq (with_rest o (st 8 (o_rest o) id 1)) o').

Lemma lock_enclave_seq c id o M : like G o M -> id < W64 ->
  wp G c (lock_enclave G id) o (fun v o' =>
    (v <> ok /\ touched id o o') \/
    (v = ok /\ lock_meta_code G pb rb id M = ok /\ ld 8 (o_rest o) id = 0 /\
     ld 8 (o_rest o) (metadata_page_info_for_val G id) <> 0 /\
     oeq (with_rest o (st 8 (o_rest o) id 1)) o')).
Proof.
  intros K H. unfold lock_enclave.
  destruct (negb (is_dram_address G id) || negb (is_page_aligned id)).
  { apply wp_ret. left. split; [discriminate|left; apply oeq_refl]. }
  apply wp_bind. eapply wp_weaken; [|apply (lock_meta_seq G pb rb g c id o M K)].
  cbv beta. intros [v r] o1 [E1 [E2 E3]]. cbn [fst snd] in *.
  destruct (N.eq_dec v ok) as [VO|VO].
  2:{ destruct (N.eqb_spec v monitor_ok) as [X|X]; [exfalso; apply VO; exact X|].
      cbn [negb]. apply wp_ret. left. split; auto. left. auto. }
  rewrite VO in *. change (ok =? monitor_ok) with true. cbn [negb].
  destruct (E3 eq_refl) as [-> ->]. symmetry in E1.
  destruct (meta_not0 G pb rb g id o M K E1) as (R0 & AL & LD & OW & T & TOP & H4).
  set (q := region_of pb rb id) in *.
  assert (R : q < n) by (rewrite (n_val G pb rb g); apply region_of_lt).
  apply wp_bind. apply (wp_map_entry G).
  set (a := metadata_page_info_for_val G id).
  assert (A : g_monitor_top G <= a /\ a + 8 * 0 + 8 <= W64).
  { apply (map_entries_high G pb rb g id 0 0); auto.
    pose proof (N.mod_lt (id / 4096) (2 ^ pb) (pow2_nz _)). lia. }
  apply wp_bind. apply wp_load_rest.
  { intros b X. apply (rest_high G pb rb g). lia. }
  cbn [o_rest with_lock].
  destruct (N.eqb_spec (ld 8 (o_rest o) a)
    (metadata_page_info id enclave_metadata_page_type)) as [E|E]; cbn [negb].
  2:{ apply wp_bind, wp_ret. bnd (wp_clr G pb rb g). apply wp_ret. left.
      split; [discriminate|]. left. apply (oeq_released G o M); auto. }
  apply wp_bind, wp_bind. change ei_lock with 0. rewrite wadd_small by lia.
  rewrite N.add_0_r. apply (wp_tas_rest G pb rb g).
  { intros b X. apply (rest_high G pb rb g). lia. }
  cbn [o_rest with_lock]. apply wp_ret. bnd (wp_clr G pb rb g). apply wp_ret.
  destruct (N.eqb_spec (ld 8 (o_rest o) id) 0) as [Z|Z].
  - right. split; [reflexivity|]. split; [auto|]. split; [auto|]. split.
    + rewrite E. intros X. unfold metadata_page_info in X. apply N.lor_eq_0_iff in X.
      destruct X as [_ X]. discriminate.
    + apply (oeq_relock G o M); auto.
  - left. split; [discriminate|]. right. split; [auto|]. split; [lia|]. split; [exact AL|].
    split; [auto|].
    apply (oeq_relock G o M); auto.
Qed.

Lemma relock_bytes m a : ld 8 m a = 0 ->
  forall b, byte (st 8 (st 8 m a 1) a 0) b = byte m b.
Proof.
  intros Z b.
  destruct (N.lt_ge_cases b a) as [L|L].
  { rewrite !byte_st_out by (left; lia). reflexivity. }
  destruct (N.lt_ge_cases b (a + 8)) as [L2|L2].
  2:{ rewrite !byte_st_out by (right; change (N.of_nat 8) with 8; lia). reflexivity. }
  replace b with (a + (b - a)) by lia.
  apply (ld_byte_inj 8 (st 8 (st 8 m a 1) a 0) m a); [|change (N.of_nat 8) with 8; lia].
  rewrite ld8_st8 by reflexivity. auto.
Qed.

(** The tail of a thread call after both locks were taken and a refusal. *)
Lemma unlock_tail c id o o1 M q (v : N) : like G o M -> like G o1 M -> v <> ok ->
  oeq (with_rest o (st 8 (o_rest o) id 1)) o1 -> ld 8 (o_rest o) id = 0 ->
  g_monitor_top G <= id -> id + 8 <= W64 ->
  q < n -> taken M q = false ->
  wp G c (clear_dram_region_lock G q ;; unlock_enclave id ;; Ret v) (with_lock o1 q 1)
    (fun w o' => w <> ok /\ touched id o o').
Proof.
  intros K K1 VO E Z TOP H8 R T.
  bnd (wp_clr G pb rb g). apply wp_bind. unfold unlock_enclave.
  change ei_lock with 0. rewrite wadd_small by lia. rewrite N.add_0_r.
  apply wp_bind. apply (wp_clr_rest G pb rb g).
  { intros b X. apply (rest_high G pb rb g). lia. }
  apply wp_ret. apply wp_ret. split; auto. left.
  pose proof (free_lock G o M q K R T) as LQ.
  cbn [o_rest with_lock with_rest].
  destruct E. constructor; cbn -[N.add N.mul W64 ld st] in *; intros; auto.
  - unfold upd. destruct (N.eqb_spec r q) as [->|]; [auto|]. auto.
  - rewrite <- (relock_bytes (o_rest o) id Z b).
    destruct (N.lt_ge_cases b id) as [L|L].
    { rewrite !(byte_st_out 8 _ id 0) by (left; lia). auto. }
    destruct (N.lt_ge_cases b (id + 8)) as [L2|L2].
    { rewrite !byte_st_in by (auto; change (N.of_nat 8) with 8; lia). reflexivity. }
    rewrite !(byte_st_out 8 _ id 0) by (right; change (N.of_nat 8) with 8; lia). auto.
Qed.
Lemma unlock_only c id o o1 o2 (v : N) : v <> ok ->
  oeq (with_rest o (st 8 (o_rest o) id 1)) o1 -> oeq o1 o2 -> ld 8 (o_rest o) id = 0 ->
  g_monitor_top G <= id -> id + 8 <= W64 ->
  wp G c (unlock_enclave id ;; Ret v) o2 (fun w o' => w <> ok /\ touched id o o').
Proof.
  intros VO E E' Z TOP H8. pose proof (oeq_trans _ _ _ E E') as E2.
  apply wp_bind. unfold unlock_enclave.
  change ei_lock with 0. rewrite wadd_small by lia. rewrite N.add_0_r.
  apply wp_bind. apply (wp_clr_rest G pb rb g).
  { intros b X. apply (rest_high G pb rb g). lia. }
  apply wp_ret. apply wp_ret. split; auto. left.
  destruct E2. constructor; cbn -[N.add N.mul W64 ld st] in *; intros; auto.
  rewrite <- (relock_bytes (o_rest o) id Z b).
  destruct (N.lt_ge_cases b id) as [L|L].
  { rewrite !(byte_st_out 8 _ id 0) by (left; lia). auto. }
  destruct (N.lt_ge_cases b (id + 8)) as [L2|L2].
  { rewrite !byte_st_in by (auto; change (N.of_nat 8) with 8; lia). reflexivity. }
  rewrite !(byte_st_out 8 _ id 0) by (right; change (N.of_nat 8) with 8; lia). auto.
Qed.

(** The reservation of the enclave's own page always fails. *)
Lemma own_page_busy c id ty o o1 M q : like G o M ->
  id < W64 -> ty < 16 -> lock_meta_code G pb rb id M = ok -> ld 8 (o_rest o) id = 0 ->
  ld 8 (o_rest o) (metadata_page_info_for_val G id) <> 0 ->
  oeq (with_rest o (st 8 (o_rest o) id 1)) o1 ->
  wp G c (reserve_metadata_pages G id thread_metadata_pages id ty) (with_lock o1 q 1)
    (fun v o' => v <> ok /\ o' = with_lock o1 q 1).
Proof.
  intros K H TY LM Z NZ E.
  destruct (meta_not0 G pb rb g id o M K LM) as (R0 & AL & LD & OW & T & TOP & H4).
  change thread_metadata_pages with 1. unfold reserve_metadata_pages.
  eapply wp_weaken; [|apply (assign_pages_seq G pb rb g c id 1 id ty); auto;
    [discriminate|apply info_lt; auto]].
  cbv beta. intros v o' [[-> [_ ->]]|[_ [[-> [_ ->]]|[-> [F _]]]]];
    [split; [discriminate|reflexivity]..|].
  exfalso. apply NZ. specialize (F 0 ltac:(lia)).
  cbn [o_rest with_lock] in F. rewrite N.mul_0_r, N.add_0_r in F.
  set (a := metadata_page_info_for_val G id) in *.
  apply ld8_zero. intros b B.
  assert (F' : byte (o_rest o1) b = 0).
  { replace b with (a + (b - a)) by lia.
    rewrite (byte_of_ld 8) by (change (N.of_nat 8) with 8; lia).
    rewrite F, N.div_0_l by apply pow2_nz. reflexivity. }
  rewrite (oe_rest _ _ E) in F'. cbn [o_rest with_rest] in F'.
  destruct (N.lt_ge_cases b id) as [L|L].
  { rewrite byte_st_out in F' by (left; lia). auto. }
  destruct (N.lt_ge_cases b (id + 8)) as [L2|L2].
  2:{ rewrite byte_st_out in F' by (right; change (N.of_nat 8) with 8; lia). auto. }
  assert (X : byte (o_rest o) b = byte (fun _ => 0) b); [|exact X].
  replace b with (id + (b - id)) by lia.
  apply (ld_byte_inj 8 (o_rest o) (fun _ => 0) id); [|change (N.of_nat 8) with 8; lia].
  rewrite Z. symmetry. apply ld8_zero. reflexivity.
Qed.

Lemma assign_thread_seq c id t o M : like G o M -> id < W64 -> t < W64 ->
  wp G c (assign_thread G id t) o (fun v o' => v <> ok /\ touched id o o').
Proof.
  intros K H HT. unfold assign_thread.
  apply wp_bind. eapply wp_weaken; [|apply (lock_enclave_seq c id o M K H)].
  cbv beta. intros v o1 [[V1 T1]|[-> [LM [Z [NZ E]]]]].
  { destruct (N.eqb_spec v monitor_ok) as [X|X]; [exfalso; apply V1; exact X|].
    cbn [negb]. apply wp_ret. auto. }
  change (ok =? monitor_ok) with true. cbn [negb].
  destruct (meta_not0 G pb rb g id o M K LM) as (R0 & AL & LD & OW & T & TOP & H4).
  assert (K1 : like G o1 M) by (eapply like_ext; [exact E|]; apply like_rest; auto).
  apply wp_bind. eapply wp_weaken; [|apply (lock_meta_seq G pb rb g c t o1 M K1)].
  cbv beta. intros [w r] o2 [E1 [E2 E3]]. cbn [fst snd] in *.
  destruct (N.eq_dec w ok) as [WO|WO].
  2:{ destruct (N.eqb_spec w monitor_ok) as [X|X]; [exfalso; apply WO; exact X|].
      cbn [negb]. apply (unlock_only c id o o1 o2 w); auto. lia. }
  rewrite WO in *. change (ok =? monitor_ok) with true. cbn [negb].
  destruct (E3 eq_refl) as [-> ->]. symmetry in E1.
  destruct (meta_not0 G pb rb g t o1 M K1 E1) as (R0t & ALt & LDt & OWt & Tt & TOPt & H4t).
  set (q := region_of pb rb t) in *.
  assert (R : q < n) by (rewrite (n_val G pb rb g); apply region_of_lt).
  apply wp_bind, wp_load_any. intros ini _.
  apply wp_bind.
  assert (X : wp G c (if negb (ini =? 0)
     then reserve_metadata_pages G id thread_metadata_pages id thread_metadata_page_type
     else Ret monitor_invalid_state) (with_lock o1 q 1)
    (fun v o' => v <> ok /\ o' = with_lock o1 q 1)).
  { destruct (negb (ini =? 0)).
    - apply (own_page_busy c id thread_metadata_page_type o o1 M q); auto. reflexivity.
    - apply wp_ret. split; [discriminate|reflexivity]. }
  eapply wp_weaken; [|exact X]. cbv beta. intros u o2 [UO ->].
  destruct (N.eqb_spec u monitor_ok) as [Y|Y]; [exfalso; apply UO; exact Y|]. cbn [negb].
  apply (unlock_tail c id o o1 M q u); auto. lia.
Qed.

Lemma load_thread_seq c id t p1 p2 p3 p4 o M : like G o M -> id < W64 -> t < W64 ->
  wp G c (load_thread G id t p1 p2 p3 p4) o (fun v o' => v <> ok /\ touched id o o').
Proof.
  intros K H HT. unfold load_thread.
  apply wp_bind. eapply wp_weaken; [|apply (lock_enclave_seq c id o M K H)].
  cbv beta. intros v o1 [[V1 T1]|[-> [LM [Z [NZ E]]]]].
  { destruct (N.eqb_spec v monitor_ok) as [X|X]; [exfalso; apply V1; exact X|].
    cbn [negb]. apply wp_ret. auto. }
  change (ok =? monitor_ok) with true. cbn [negb].
  destruct (meta_not0 G pb rb g id o M K LM) as (R0 & AL & LD & OW & T & TOP & H4).
  assert (K1 : like G o1 M) by (eapply like_ext; [exact E|]; apply like_rest; auto).
  apply wp_bind. eapply wp_weaken; [|apply (lock_meta_seq G pb rb g c t o1 M K1)].
  cbv beta. intros [w r] o2 [E1 [E2 E3]]. cbn [fst snd] in *.
  destruct (N.eq_dec w ok) as [WO|WO].
  2:{ destruct (N.eqb_spec w monitor_ok) as [X|X]; [exfalso; apply WO; exact X|].
      cbn [negb]. apply (unlock_only c id o o1 o2 w); auto. lia. }
  rewrite WO in *. change (ok =? monitor_ok) with true. cbn [negb].
  destruct (E3 eq_refl) as [-> ->]. symmetry in E1.
  destruct (meta_not0 G pb rb g t o1 M K1 E1) as (R0t & ALt & LDt & OWt & Tt & TOPt & H4t).
  set (q := region_of pb rb t) in *.
  assert (R : q < n) by (rewrite (n_val G pb rb g); apply region_of_lt).
  apply wp_bind, wp_load_any. intros ini _.
  apply wp_bind.
  assert (X : wp G c (if negb (ini =? 0) then Ret monitor_invalid_state
     else
       eptbr <- load64 (wadd id ei_load_eptbr) ;;
       if eptbr =? 0 then Ret monitor_invalid_state
       else reserve_metadata_pages G id thread_metadata_pages
              id thread_metadata_page_type) (with_lock o1 q 1)
    (fun v o' => v <> ok /\ o' = with_lock o1 q 1)).
  { destruct (negb (ini =? 0)).
    - apply wp_ret. split; [discriminate|reflexivity].
    - apply wp_bind, wp_load_any. intros ep _. destruct (ep =? 0).
      + apply wp_ret. split; [discriminate|reflexivity].
      + apply (own_page_busy c id thread_metadata_page_type o o1 M q); auto. reflexivity. }
  eapply wp_weaken; [|exact X]. cbv beta. intros u o2 [UO ->].
  destruct (N.eqb_spec u monitor_ok) as [Y|Y]; [exfalso; apply UO; exact Y|]. cbn [negb].
  apply (unlock_tail c id o o1 M q u); auto. lia.
Qed.

(** ** copy_debug_enclave_page *)
Lemma bcopy_frame_loop c dest source : forall k i s, dest + 8 * (i + N.of_nat k) <= W64 ->
  exists m, run c (for_n k i (fun i => v <- load64 (wadd source (wmul 8 i)) ;;
              store64 (wadd dest (wmul 8 i)) v ;; Ret tt)) s = (set_mem s m, Some tt) /\
    forall b, b < dest + 8 * i \/ dest + 8 * (i + N.of_nat k) <= b -> m b = s_mem s b.
Proof.
  induction k as [|k IH]; intros i s H; cbn [for_n].
  - exists (s_mem s). rewrite set_mem_id. split; reflexivity.
  - rewrite run_bind. rewrite run_bind, run_load64. rewrite run_bind, run_store64.
    cbn [run]. rewrite (wmul_small 8 i), (wadd_small dest) by lia.
    set (w := ld 8 (s_mem s) _).
    destruct (IH (i + 1) (set_mem s (st 8 (s_mem s) (dest + 8 * i) w)) ltac:(lia))
      as [m [E F]].
    exists m. rewrite E, set_mem_set_mem. split; [reflexivity|].
    intros b B. rewrite F by lia. cbn [s_mem set_mem]. apply st_out.
    change (N.of_nat 8) with 8. lia.
Qed.
Lemma bcopy_frame c dest source s : dest + 4096 <= W64 ->
  exists m, run c (bcopy64 dest source page_size) s = (set_mem s m, Some tt) /\
    forall b, b < dest \/ dest + 4096 <= b -> m b = s_mem s b.
Proof.
  intros H. unfold bcopy64. rewrite page_size_val. change (N.to_nat (4096 / 8)) with 512%nat.
  destruct (bcopy_frame_loop c dest source 512 0 s) as [m [E F]].
  { change (N.of_nat 512) with 512. lia. }
  exists m. split; [exact E|]. intros b B. apply F. change (N.of_nat 512) with 512. lia.
Qed.

Lemma copy_debug_seq c e ea oa (rd : bool) o M : like G o M ->
  ea < W64 -> oa < W64 ->
  (e = 0 -> rd = false -> g_monitor_top G <= ea) ->
  wp G c (copy_debug_enclave_page G e ea oa rd) o (fun v o' =>
    (v <> ok /\ oeq o o') \/
    (v = ok /\ e = 0 /\
     let dst := if rd then oa else ea in
     g_monitor_top G <= dst /\ dst + 4096 <= W64 /\
     region_of pb rb oa <> 0 /\ m_owner M (region_of pb rb oa) = OS /\
     m_owner M (region_of pb rb ea) = OS /\ ea mod 4096 = 0 /\ oa mod 4096 = 0 /\
     exists m, oeq (with_rest o m) o' /\
      (let src := if rd then ea else oa in g_monitor_top G <= src -> src <> dst ->
       forall j, j < 4096 -> byte m (dst + j) = byte (o_rest o) (src + j)) /\
      forall b, b < dst \/ dst + 4096 <= b -> byte m b = byte (o_rest o) b)).
Proof.
  intros K HE HO SAFE. unfold copy_debug_enclave_page.
  destruct (is_page_aligned ea) eqn:AE, (is_page_aligned oa) eqn:AO; cbn [negb orb];
    try (apply wp_ret; left; split; [discriminate|apply oeq_refl]).
  destruct (is_dram_address G ea) eqn:DE, (is_dram_address G oa) eqn:DO; cbn [negb orb];
    try (apply wp_ret; left; split; [discriminate|apply oeq_refl]).
  apply page_aligned_iff in AE, AO.
  set (q := clamped_dram_region_for G e). set (x := dram_region_for G ea).
  set (r := dram_region_for G oa).
  assert (Q : q < n) by apply (clamped_lt G pb rb g).
  assert (X : x < n) by apply (region_lt G pb rb g).
  assert (R : r < n) by apply (region_lt G pb rb g).
  apply wp_bind. apply (wp_tas_taken G pb rb g c q o M); auto.
  destruct (taken M q) eqn:TQ.
  { apply wp_ret. left. split; [discriminate|]. apply (oeq_taken G o M); auto. }
  pose proof (free_lock G o M q K Q TQ) as LQ.
  apply wp_bind. apply (wp_tas G pb rb g); auto. cbn [o_lock with_lock].
  destruct (N.eq_dec r q) as [RQ|RQ].
  { rewrite RQ, upd_same. cbn [N.eqb negb]. bnd (wp_clr G pb rb g). apply wp_ret.
    left. split; [discriminate|]. oeqs. }
  rewrite upd_other, (lk_lock _ _ _ K r R) by auto.
  destruct (taken M r) eqn:TR; cbn [N.eqb negb].
  { pose proof (busy_lock G o M r K R TR). bnd (wp_clr G pb rb g). apply wp_ret.
    left. split; [discriminate|]. oeqs. }
  pose proof (free_lock G o M r K R TR) as LR.
  unfold read_dram_region_owner.
  bnd (wp_owner G pb rb g). bnd (wp_owner G pb rb g). cbn [o_owner with_lock].
  rewrite (lk_owner _ _ _ K r R). 
  pose proof (owner_is_id G pb rb g o M e K) as OI. fold q in OI. rewrite OI.
  destruct (N.eqb_spec e 0) as [E0|E0]; cbn [negb].
  2:{ apply wp_bind. unfold read_enclave_region_bitmap_bit. change null_enclave_id with 0.
      destruct (N.eqb_spec e 0); [contradiction|]. unfold read_bitmap_bit.
      apply wp_bind, wp_load_any. intros w _. apply wp_ret.
      apply wp_bind, wp_load_any. intros dbg _.
      apply wp_bind.
      match goal with |- context [if ?res =? monitor_ok then _ else Ret tt] =>
        set (v := res) end.
      assert (VN : v <> ok).
      { unfold v. cbv iota beta zeta. repeat match goal with |- context [if ?t then _ else _] => destruct t end;
          intros VX; vm_compute in VX; discriminate VX. }
      destruct (N.eqb_spec v monitor_ok) as [Y|Y]; [exfalso; apply VN; exact Y|].
      apply wp_ret. bnd (wp_clr G pb rb g). bnd (wp_clr G pb rb g). apply wp_ret.
      left. split; [exact VN|]. oeqs. }
  subst e.
  apply wp_bind. apply (wp_get_bit G pb rb g); auto. cbn [o_bit with_lock].
  rewrite (lk_bit _ _ _ K x X).
  apply wp_bind, wp_load_any. intros dbg _.
  change null_enclave_id with 0.
  apply wp_bind.
  assert (QZ : q = 0).
  { unfold q, clamped_dram_region_for. rewrite (zero_dram G pb rb g).
    apply (region_for_0 G pb rb g). }
  assert (HD : g_dram_size G < W64) by apply (geo_D _ _ _ g).
  unfold is_dram_address in DE, DO.
  assert (BE : ea + 4096 <= W64) by (unfold W64 in *; lia).
  assert (BO : oa + 4096 <= W64) by (unfold W64 in *; lia).
  assert (fail : forall v, v <> ok ->
    wp G c (clear_dram_region_lock G r ;; clear_dram_region_lock G q ;; Ret v)
      (with_lock (with_lock o q 1) r 1)
      (fun v o' => v <> ok /\ oeq o o')).
  { intros v VN. bnd (wp_clr G pb rb g). bnd (wp_clr G pb rb g). apply wp_ret.
    split; [exact VN|]. oeqs. }
  destruct (dbg =? 0).
  { cbn [N.eqb]. change (monitor_invalid_state =? monitor_ok) with false. apply wp_ret.
    eapply wp_weaken; [|apply fail; discriminate]. cbv beta. auto. }
  destruct (is_os (m_owner M x)) eqn:OX; cbn [negb].
  2:{ change (monitor_invalid_value =? monitor_ok) with false. apply wp_ret.
      eapply wp_weaken; [|apply fail; discriminate]. cbv beta. auto. }
  destruct (N.eqb_spec (owner_code (m_owner M r)) 0) as [OR|OR]; cbn [negb].
  2:{ change (monitor_invalid_value =? monitor_ok) with false. apply wp_ret.
      eapply wp_weaken; [|apply fail; discriminate]. cbv beta. auto. }
  change (monitor_ok =? monitor_ok) with true. cbv iota.
  change 0 with (owner_code OS) in OR. apply owner_code_inj in OR.
  apply is_os_iff in OX.
  assert (OT : g_monitor_top G <= oa).
  { apply N.le_trans with (2 ^ (12 + pb)); [apply (geo_fits _ _ _ g)|].
    apply N.nlt_ge. intros L. apply RQ. rewrite QZ. unfold r.
    rewrite (region_for_spec G pb rb g). apply region0_low; auto. }
  set (dst := if rd then oa else ea).
  assert (DT : g_monitor_top G <= dst /\ dst + 4096 <= W64).
  { unfold dst. destruct rd; split; auto. }
  set (src := if rd then ea else oa).
  apply (wp_confined G pb rb g c _ dst (dst + 4096) (fun _ m =>
     g_monitor_top G <= src -> src <> dst ->
     forall j, j < 4096 -> byte m (dst + j) = byte (o_rest o) (src + j))).
  - intros b B. apply (rest_high G pb rb g). lia.
  - intros s V.
    assert (RUN : exists m, run c (bcopy64 dst src page_size) s = (set_mem s m, Some tt) /\
       (src <> dst -> forall j, j < 4096 -> byte m (dst + j) = byte (s_mem s) (src + j)) /\
       forall b, b < dst \/ dst + 4096 <= b -> m b = s_mem s b).
    { destruct (N.eq_dec src dst) as [SD|SD].
      - destruct (bcopy_frame c dst src s ltac:(lia)) as [m [RR F]]. exists m.
        split; [exact RR|]. split; [contradiction|exact F].
      - assert (DA : dst mod 4096 = 0) by (unfold dst; destruct rd; auto).
        assert (SA : src mod 4096 = 0) by (unfold src; destruct rd; auto).
        assert (SB : src + 4096 <= W64) by (unfold src; destruct rd; auto).
        destruct (bcopy64_run c s dst src 4096 eq_refl ltac:(lia) SB ltac:(lia))
          as [m [RR [Z F]]]. exists m. split; [exact RR|]. auto. }
    destruct RUN as [m [RR [Z F]]]. exists m, tt. split; [|split].
    + unfold dst, src in RR. destruct rd; exact RR.
    + intros b B. unfold byte. rewrite F; auto.
    + intros S1 S2 j J. rewrite (Z S2 j J).
      rewrite (v_rest _ _ _ V) by (apply (rest_high G pb rb g); lia). reflexivity.
  - intros u m m' C1 C2 S2. cbn [o_rest with_lock] in S2.
    bnd (wp_clr G pb rb g). bnd (wp_clr G pb rb g). apply wp_ret.
    right. split; [reflexivity|]. split; [reflexivity|]. cbv zeta. fold dst.
    unfold x, r in *. rewrite (region_for_spec G pb rb g) in *.
    split; [apply DT|]. split; [apply DT|]. split; [rewrite QZ in RQ; exact RQ|].
    split; [auto|]. split; [auto|]. split; [auto|]. split; [auto|].
    exists m'. split; [oeqs|]. split; [|exact S2].
    fold src. intros Y1 Y2 j J. rewrite C2 by lia. apply C1; auto.
Qed.
End Calls6.
