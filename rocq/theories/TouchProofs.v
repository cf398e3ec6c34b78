(** * The operations of the API calls neither read nor write a region that is not named
    and that belongs to the OS or is blocked. *)
From Coq Require Import NArith ZArith Lia Bool List.
From Coq Require Import ZifyBool ZifyNat ZifyN.
From Verif Require Import Word Machine ModelBare ModelHash ModelInl ModelRegions
  ModelMetadata ModelEnclave ModelBoot ModelApi Lib BareProofs BootProofs SpecGeometry
  GeomProofs Trace SpecMonitor SpecHistory ViewProofs SeqProofs SeqCalls SeqCalls2 SeqCalls3
  SeqCalls4 SeqCalls5 ConcCalls2 SpecConcurrent SpecAtomic AtomicProofs SpecInside SpecSecret.
Import ListNotations.
Open Scope N_scope.
Ltac Zify.zify_post_hook ::= Z.div_mod_to_equations.

Section S.
Variables (G : globals) (pb rb : N) (g : geom G pb rb).
Variables (c : N) (HC : c < g_core_count G).
Variables (W r0 : N) (HW : avoids pb rb r0 (g_os_region_bitmap G) (8 * W)).
Variable (HR : r0 <> 0).
(** Whether the region is known to belong to the OS or to be blocked. *)
Variable OWN : Prop.
Notation n := (g_dram_region_count G).
Notation D := (g_dram_size G).
Notation out := (avoids pb rb r0).

Definition untouching (o : op) : Prop :=
  match o with
  | OLd k b | OSt k b _ => out b (N.of_nat k)
  | OTas b | OFadd b _ | OClr b => out b 8
  | OSetDrb b | OSetEdrb b => out b (8 * W)
  | _ => True
  end.
Arguments avoids : simpl never.
Definition gives (o : op) (v : N) : Prop :=
  may_give G c o v /\ (OWN -> o = OLd 8 (owner_addr G r0) -> v <> 2 /\ v <> 3).

Fixpoint spares {A} (p : prog A) (Q : A -> Prop) : Prop :=
  match p with
  | Ret a => Q a
  | Do o k => untouching o /\ forall v, gives o v -> spares (k v) Q
  | Stop => True
  end.
Lemma out_sub a k b m : out a k -> a <= b -> b + m <= a + k -> out b m.
Proof. intros H L1 L2 x X. apply H. lia. Qed.
Lemma out_low a k : a + k <= 2 ^ (12 + pb) -> out a k.
Proof.
  intros H b B. rewrite (region0_low pb rb). - auto. - lia.
Qed.
Lemma i_bind {A B} (p : prog A) (f : A -> prog B) Q :
  spares p (fun a => spares (f a) Q) -> spares (bind p f) Q.
Proof. induction p as [a|o k IH|]; cbn; auto. intros [H1 H2]. split; auto. Qed.
Lemma i_ret {A} (a : A) (Q : A -> Prop) : Q a -> spares (Ret a) Q.
Proof. auto. Qed.
Lemma i_uses {A} (p : prog A) (Q : A -> Prop) : uses untouching p -> (forall a, Q a) -> spares p Q.
Proof. induction p as [a|o k IH|]; cbn; auto. intros [H1 H2] H. split; auto. Qed.
Definition any {A} (_ : A) : Prop := True.

(** ** Addresses of the tables *)
Lemma tables_low : g_os_region_bitmap G + 8 * g_dram_region_bitmap_words G <= 2 ^ (12 + pb) /\
  g_os_region_bitmap G + 8 * g_dram_region_bitmap_words G <= W64 /\
  304 + 8 * g_dram_region_bitmap_words G <= 2 ^ (12 + pb).
Proof.
  pose proof (layout _ _ _ g) as (L1 & L2 & L3 & L4 & L5 & L6 & L7 & L8).
  pose proof (geo_fits _ _ _ g) as GF.
  pose proof (pow2_le 12 (12 + pb) ltac:(lia)) as S12. change (2 ^ 12) with 4096 in S12.
  change (2 ^ 30) with 1073741824 in L8.
  assert (NW : 64 * g_dram_region_bitmap_words G <= n + 63) by (rewrite (geo_words _ _ _ g), <- (geo_count _ _ _ g); lia).
  set (w := g_dram_region_bitmap_words G) in *. set (p := 2 ^ (12 + pb)) in *. clearbody p w.
  unfold W64 in *. lia.
Qed.
Lemma raddr_in r off : r < n -> off + 8 <= 40 -> out (g_dram_region G + 40 * r + off) 8.
Proof.
  intros R O. pose proof (layout _ _ _ g) as (L1 & L2 & L3 & L4 & L5 & L6 & L7 & L8).
  pose proof tables_low. apply out_low. lia.
Qed.
Lemma caddr_in i off : i < g_core_count G -> off + 8 <= 32 -> out (g_core G + 32 * i + off) 8.
Proof.
  intros R O. pose proof (layout _ _ _ g) as (L1 & L2 & L3 & L4 & L5 & L6 & L7 & L8).
  pose proof tables_low. apply out_low. lia.
Qed.

Lemma i_tas r (Q : bool -> Prop) : r < n -> (forall b, Q b) ->
  spares (test_and_set_dram_region_lock G r) Q.
Proof.
  intros R H. unfold test_and_set_dram_region_lock. rewrite (raddr G pb rb g) by (auto; reflexivity).
  cbn. split; [apply raddr_in; auto; vm_compute; discriminate|auto].
Qed.
Lemma i_clr r (Q : unit -> Prop) : r < n -> Q tt -> spares (clear_dram_region_lock G r) Q.
Proof.
  intros R H. unfold clear_dram_region_lock. rewrite (raddr G pb rb g) by (auto; reflexivity).
  cbn. split; [apply raddr_in; auto; vm_compute; discriminate|auto].
Qed.
Lemma i_rld r off (Q : N -> Prop) : r < n -> off + 8 <= 40 -> (forall v, Q v) ->
  spares (load64 (wadd (region_addr G r) off)) Q.
Proof.
  intros R O H. rewrite (raddr G pb rb g) by (auto; lia). cbn.
  split; [apply raddr_in; auto|auto].
Qed.
Lemma i_rst r off v (Q : N -> Prop) : r < n -> off + 8 <= 40 -> (forall v, Q v) ->
  spares (store64 (wadd (region_addr G r) off) v) Q.
Proof.
  intros R O H. rewrite (raddr G pb rb g) by (auto; lia). cbn.
  split; [apply raddr_in; auto|auto].
Qed.
Lemma i_owner r (Q : N -> Prop) : r < n -> (forall v, v < 4 -> (r = 0 -> v = 0) -> (OWN -> v = 2 \/ v = 3 -> r <> r0) -> Q v) ->
  spares (load64 (wadd (region_addr G r) dri_owner)) Q.
Proof.
  intros R H. rewrite (owner_raddr G pb rb g c HC) by exact R. cbn. split.
  - unfold owner_addr. apply raddr_in; auto. vm_compute. discriminate.
  - intros v [M M2]. destruct M as [M _]. destruct (M r R eq_refl) as [M3 M4]. apply H; auto.
    intros E0 E ->. destruct (M2 E0 eq_refl). lia.
Qed.
Lemma i_op o (Q : N -> Prop) : untouching o -> (forall v, Q v) -> spares (op1 o) Q.
Proof. cbn. auto. Qed.
Lemma i_core (Q : N -> Prop) : Q c -> spares (op1 OCore) Q.
Proof. cbn. intros H. split; [exact I|]. intros v [[_ [M _]] _]. rewrite (M eq_refl). exact H. Qed.
Lemma i_cur (Q : N -> Prop) : Q 0 -> spares (current_enclave G) Q.
Proof.
  intros H. cbn. split; [exact I|]. intros v [[_ [M _]] _]. specialize (M eq_refl). subst v.
  change (wadd (core_addr G c) ci_enclave_id) with (wadd (core_addr G c) 0).
  rewrite (caddr G pb rb g) by (auto; reflexivity). split.
  - apply caddr_in; auto. lia.
  - rewrite N.add_0_r. intros v [[_ [_ M]] _]. specialize (M eq_refl). subst v. exact H.
Qed.

Ltac ib L := apply i_bind; apply L.
Ltac no := apply i_ret; exact I.
Ltac off8 := vm_compute; discriminate.

(** ** Bitmaps *)
Lemma word_in r : r < n -> r / 64 < g_dram_region_bitmap_words G.
Proof.
  intros R. pose proof (layout _ _ _ g) as (L1 & L2 & L3 & L4 & L5 & L6 & L7 & L8). lia.
Qed.
Lemma i_readbit a r (Q : bool -> Prop) : r < n -> a + 8 * g_dram_region_bitmap_words G <= W64 ->
  out a (8 * g_dram_region_bitmap_words G) ->
  (forall b, Q b) -> spares (read_bitmap_bit a r) Q.
Proof.
  intros R A O H. pose proof (word_in r R).
  unfold read_bitmap_bit. rewrite wmul_small, wadd_small by (unfold W64 in *; lia).
  apply i_bind, i_op; [cbn; eapply out_sub; [exact O| |]; lia|]. intros v. apply i_ret. auto.
Qed.
Lemma i_setbit a r b (Q : unit -> Prop) : r < n -> a + 8 * g_dram_region_bitmap_words G <= W64 ->
  out a (8 * g_dram_region_bitmap_words G) ->
  Q tt -> spares (set_bitmap_bit a r b) Q.
Proof.
  intros R A O H. pose proof (word_in r R).
  unfold set_bitmap_bit. rewrite wmul_small, wadd_small by (unfold W64 in *; lia).
  apply i_bind, i_op; [cbn; eapply out_sub; [exact O| |]; lia|]. intros v. apply i_bind.
  destruct b; (apply i_op; [cbn; eapply out_sub; [exact O| |]; lia|]); intros _; apply i_ret; auto.
Qed.
Lemma os_out : out (g_os_region_bitmap G) (8 * g_dram_region_bitmap_words G).
Proof. apply out_low, tables_low. Qed.
Lemma i_bitmap_reg (Q : N -> Prop) : (forall v, Q v) -> spares (op1 (OSetDrb (g_os_region_bitmap G))) Q.
Proof. intros H. apply i_op; auto. Qed.

(** ** Region calls *)
Lemma npos0 : 0 < n.
Proof. pose proof (layout _ _ _ g) as (L1 & L2 & L3 & L4 & L5 & L6 & L7 & L8). lia. Qed.
Hint Resolve npos0 : core.

Lemma i_block r : spares (block_dram_region G r) any.
Proof.
  unfold block_dram_region, is_dynamic_dram_region, is_valid_dram_region.
  destruct (N.ltb_spec r n) as [R|R]; [|rewrite andb_false_r; no].
  rewrite andb_true_r. destruct (N.eqb_spec r 0) as [Z|Z]; cbn [negb]; [no|].
  ib i_tas; auto. intros [|]; [no|].
  unfold read_dram_region_owner. ib i_owner; auto. intros ow O4 _ _.
  ib i_cur.
  destruct (N.eqb_spec ow 0); cbn [negb]; [|ib i_clr; auto; no].
  subst ow. change (0 =? null_enclave_id) with true. cbn [negb andb bind].
  rewrite (region_for_0 G pb rb g).
  ib i_tas; auto. intros [|]; [ib i_clr; auto; no|].
  unfold dma_check. change (0 =? 0) with true. cbv iota.
  apply i_bind. ib i_op; [exact I|]. intros ds. ib i_op; [exact I|]. intros de. apply i_ret.
  destruct (dma_range_crossed _ _ _ _); [ib i_clr; auto; ib i_clr; auto; no|].
  do 2 (ib i_rst; auto; [off8|]; intros _).
  ib i_op. { rewrite (clock_addr G pb rb g). cbn. pose proof tables_low.
    pose proof (layout _ _ _ g) as (L1 & L2 & L3 & L4 & L5 & L6 & L7 & L8). apply out_low. lia. }
  intros bc. ib i_rst; auto; [off8|]. intros _.
  unfold set_enclave_region_bitmap_bit. change (0 =? null_enclave_id) with true. cbv iota.
  ib i_setbit; auto; [apply tables_low|apply os_out|]. ib i_bitmap_reg. intros _.
  ib i_clr; auto. ib i_clr; auto. no.
Qed.
Lemma i_check r : spares (dram_region_check_ownership G r) any.
Proof.
  unfold dram_region_check_ownership, is_dynamic_dram_region, is_valid_dram_region.
  destruct (N.ltb_spec r n) as [R|R]; [|rewrite andb_false_r; no].
  rewrite andb_true_r. destruct (N.eqb_spec r 0) as [Z|Z]; cbn [negb]; [no|].
  ib i_tas; auto. intros [|]; [no|].
  unfold read_dram_region_owner. ib i_owner; auto. intros ow O4 _ _. ib i_cur. ib i_clr; auto. no.
Qed.
Lemma i_state r : spares (dram_region_state G r) any.
Proof.
  unfold dram_region_state, is_valid_dram_region.
  destruct (N.ltb_spec r n) as [R|R]; cbn [negb]; [|no].
  ib i_tas; auto. intros [|]; [no|].
  unfold read_dram_region_owner. ib i_owner; auto. intros ow O4 _ _. ib i_clr; auto. no.
Qed.
Lemma i_owner_call r : spares (dram_region_owner G r) any.
Proof.
  unfold dram_region_owner, is_valid_dram_region.
  destruct (N.ltb_spec r n) as [R|R]; cbn [negb]; [|no].
  ib i_tas; auto. intros [|]; [no|].
  unfold read_dram_region_owner. ib i_owner; auto. intros ow O4 _ _. ib i_clr; auto. no.
Qed.
Lemma i_stripes e : forall fuel a b, spares (dma_stripes fuel G a e b) any.
Proof.
  induction fuel as [|k IH]; intros a b; cbn [dma_stripes]; destruct (a <? e); try exact I.
  set (r := dram_region_for G a). assert (R : r < n) by apply (region_lt G pb rb g).
  apply i_bind. assert (T : forall t : bool, spares
    (if t then Ret None else o <- load64 (wadd (region_addr G r) dri_owner) ;;
       (if negb (r =? 0) then clear_dram_region_lock G r else Ret tt) ;;
       dma_stripes k G (wadd a (g_dram_stripe_size G)) e (if negb (o =? 0) then false else b)) any).
  { intros [|]; [exact I|]. ib i_owner; auto. intros o _ _ _. apply i_bind.
    destruct (negb (r =? 0)); [apply i_clr; auto|apply i_ret]; apply IH. }
  destruct (negb (r =? 0)); [apply i_tas; auto|apply i_ret, (T false)].
Qed.
Lemma i_weaken {A} (p : prog A) (Q Q' : A -> Prop) : (forall a, Q a -> Q' a) -> spares p Q -> spares p Q'.
Proof. intros H. induction p as [a|o k IH|]; cbn; auto. intros [H1 H2]. split; auto. Qed.
Lemma i_set_dma a b : spares (set_dma_range G a b) any.
Proof.
  unfold set_dma_range. destruct (negb _); [no|]. destruct (negb _); [no|].
  ib i_tas; auto. intros [|]; [no|]. apply i_bind. eapply i_weaken; [|apply i_stripes].
  intros [os|] _; [|ib i_clr; auto; no]. do 4 (ib i_op; [exact I|]; intros _). ib i_clr; auto. no.
Qed.

Ltac wsm := repeat match goal with
  | |- context [wadd ?a ?b] =>
      lazymatch a with context [wadd _ _] => fail | _ => idtac end;
      rewrite (wadd_small a b) by lia end.
Lemma u_for_n (body : N -> prog unit) : forall m i,
  (forall j, i <= j < i + N.of_nat m -> uses untouching (body j)) -> uses untouching (for_n m i body).
Proof.
  induction m as [|m IH]; intros i H; cbn [for_n]; [exact I|].
  apply uses_bind; [apply H; lia|]. intros _. apply IH. intros j J. apply H. lia.
Qed.
Lemma u_for_exit {R} (body : N -> prog (option R)) : forall m i,
  (forall j, i <= j < i + N.of_nat m -> uses untouching (body j)) -> uses untouching (for_exit m i body).
Proof.
  induction m as [|m IH]; intros i H; cbn [for_exit]; [exact I|].
  apply uses_bind; [apply H; lia|]. intros [x|]; [exact I|]. apply IH. intros j J. apply H. lia.
Qed.
Lemma u_ld k a : out a (N.of_nat k) -> uses untouching (op1 (OLd k a)). Proof. cbn. auto. Qed.
Lemma u_st k a v : out a (N.of_nat k) -> uses untouching (op1 (OSt k a v)). Proof. cbn. auto. Qed.
Ltac sub := change (N.of_nat 8) with 8; change (N.of_nat 4) with 4;
  match goal with O : out _ _ |- _ => eapply out_sub; [exact O|lia|lia] end.
Ltac ust := apply uses_bind; [apply u_st; wsm; sub|intros _].
Ltac uld := apply uses_bind; [apply u_ld; wsm; sub|intros ?].

Lemma u_bzero a k : a + k <= W64 -> out a k -> uses untouching (bzero64 a k).
Proof. intros B O. unfold bzero64. apply u_for_n. rewrite N2Nat.id. intros j J. rewrite wmul_small by lia. ust. exact I. Qed.
Lemma u_bcopy d s k : s + k <= W64 -> d + k <= W64 -> out s k -> out d k -> uses untouching (bcopy64 d s k).
Proof.
  intros B B' O O'. unfold bcopy64. apply u_for_n. rewrite N2Nat.id. intros j J.
  rewrite !wmul_small by lia. apply uses_bind; [apply u_ld; wsm; change (N.of_nat 8) with 8; eapply out_sub; [exact O|lia|lia]|intros ?]. ust. exact I.
Qed.
Lemma i_create_metadata r : OWN \/ r <> r0 -> spares (create_metadata_region G r) any.
Proof.
  intros NA. unfold create_metadata_region, is_valid_dram_region.
  destruct (N.ltb_spec r n) as [R|R]; cbn [negb]; [|no].
  ib i_tas; auto. intros [|]; [no|].
  unfold read_dram_region_owner. ib i_owner; auto. intros ow O4 O0 NR.
  destruct (N.eqb_spec ow free_enclave_id) as [EF|EF]; cbn [negb]; [|ib i_clr; auto; no].
  apply i_bind. unfold init_metadata_region.
  do 2 (ib i_rst; auto; [off8|]; intros _).
  apply i_uses; [|intros []; ib i_clr; auto; no].
  destruct (map_bytes G pb rb g) as [MB1 MB2]. rewrite MB1.
  rewrite (region_start_val G pb rb g) by lia.
  rewrite (geo_size _ _ _ g) in MB2. unfold stripe_start. rewrite N.mul_0_l, N.add_0_l.
  assert (X : (r + 1) * 2 ^ (12 + pb) <= 2 ^ rb * 2 ^ (12 + pb)).
  { apply N.mul_le_mono_r. rewrite (n_val G pb rb g) in R. lia. }
  rewrite <- pow2_add in X. replace (rb + (12 + pb)) with (12 + pb + rb) in X by lia.
  pose proof (geo_pb _ _ _ g) as GP. pose proof (geo_rb _ _ _ g) as GR.
  pose proof (p60 (12 + pb + rb) ltac:(lia)) as P60. change (2 ^ 60) with 1152921504606846976 in P60.
  assert (RR : r < 2 ^ rb) by (rewrite (n_val G pb rb g) in R; exact R).
  apply u_bzero.
  - revert X MB2 P60. clear. unfold W64. set (p := 2 ^ (12 + pb)). set (q := 2 ^ (12 + pb + rb)).
    set (m := g_metadata_region_start G). clearbody p q m. intros. lia.
  - intros b B. assert (E : b / 2 ^ (12 + pb) = r).
    { symmetry. apply (N.div_unique b (2 ^ (12 + pb)) r (b - r * 2 ^ (12 + pb))); revert B MB2; clear;
        set (p := 2 ^ (12 + pb)); set (m := g_metadata_region_start G); clearbody p m; intros; lia. }
    unfold region_of. rewrite E, N.mod_small by exact RR. destruct NA as [NA|NA]; [apply NR; auto; right; exact EF|exact NA].
Qed.
Lemma i_valid_id e (Q : bool -> Prop) : (e <> 0 -> Q false) -> (e = 0 -> Q true) ->
  spares (is_valid_enclave_id G e) Q.
Proof.
  intros H1 H2. unfold is_valid_enclave_id.
  assert (CL : clamped_dram_region_for G e < n) by apply (clamped_lt G pb rb g).
  ib i_owner; auto. intros ow O5 O6 _. apply i_ret.
  destruct (N.eq_dec e 0) as [->|NZ].
  - assert (Z : clamped_dram_region_for G 0 = 0).
    { unfold clamped_dram_region_for. rewrite (zero_dram G pb rb g). apply (region_for_0 G pb rb g). }
    rewrite (O6 Z). auto.
  - destruct (N.eqb_spec ow e) as [->|NE]; auto. exfalso. apply NZ, O6.
    unfold clamped_dram_region_for.
    rewrite (small_region G pb rb g) by (lia). destruct (is_dram_address G e); reflexivity.
Qed.
Lemma i_assign r e : spares (assign_dram_region G r e) any.
Proof.
  unfold assign_dram_region, is_valid_dram_region.
  destruct (N.ltb_spec r n) as [R|R]; cbn [negb]; [|no].
  ib i_tas; auto. intros [|]; [no|].
  unfold read_dram_region_owner. ib i_owner; auto. intros ow O4 O0 _.
  destruct (negb _); [ib i_clr; auto; no|].
  set (q := dram_region_for G e). assert (Q : q < n) by apply (region_lt G pb rb g).
  ib i_tas; auto. intros [|]; [ib i_clr; auto; no|].
  ib i_valid_id.
  - intros _. cbn [bind]. ib i_clr; auto. ib i_clr; auto. no.
  - intros ->. apply i_bind. ib i_rst; auto; [off8|]. intros _.
    unfold set_enclave_region_bitmap_bit. change (0 =? null_enclave_id) with true. cbv iota.
    ib i_setbit; auto; [apply tables_low|apply os_out|]. change (0 =? 0) with true. cbv iota.
    apply i_bind. ib i_bitmap_reg. intros _. apply i_ret, i_ret. ib i_clr; auto. ib i_clr; auto. no.
Qed.
Lemma u_stale b : uses untouching (stale_core G b).
Proof.
  unfold stale_core. apply u_for_exit. rewrite N2Nat.id, N.add_0_l. intros j J.
  rewrite (caddr G pb rb g) by (try reflexivity; apply J).
  apply uses_bind; [apply u_ld; apply caddr_in; [apply J|off8]|]. intros v. destruct (v <? b); exact I.
Qed.
Lemma i_free r : spares (free_dram_region G r) any.
Proof.
  unfold free_dram_region, is_valid_dram_region.
  destruct (N.ltb_spec r n) as [R|R]; cbn [negb]; [|no].
  ib i_tas; auto. intros [|]; [no|].
  unfold read_dram_region_owner. ib i_owner; auto. intros ow O4 O0 _. apply i_bind.
  assert (E : forall v : N, spares (clear_dram_region_lock G r ;; Ret v) any) by (intros v; ib i_clr; auto; no).
  destruct (ow =? blocked_enclave_id).
  - ib i_rld; auto; [off8|]. intros b. apply i_bind. apply i_uses; [apply u_stale|].
    intros [[]|]; [apply i_ret, E|]. ib i_rst; [exact R|off8|intros _; apply i_ret, E].
  - destruct (ow =? metadata_enclave_id); [|apply i_ret, E].
    ib i_rld; auto; [off8|]. intros b. destruct (b =? 0); [|apply i_ret, E].
    ib i_rst; [exact R|off8|intros _; apply i_ret, E].
Qed.
Lemma i_flush : spares (flush_cached_dram_regions G) any.
Proof.
  unfold flush_cached_dram_regions, dram_region_tlb_flush.
  apply i_bind. ib i_op; [exact I|]. intros _. ib i_core. ib i_op.
  { rewrite (clock_addr G pb rb g). cbn. pose proof tables_low.
    pose proof (layout _ _ _ g) as (L1 & L2 & L3 & L4 & L5 & L6 & L7 & L8). apply out_low. lia. }
  intros b. rewrite (caddr G pb rb g) by (auto; reflexivity).
  ib i_op; [cbn; apply caddr_in; auto; off8|]. intros _. no.
Qed.

(** ** Enclave calls that stop at the identifier check *)
Lemma i_guard e (p : prog N) : spares
  (t <- test_and_set_dram_region_lock G (clamped_dram_region_for G e) ;;
   if (t : bool) then Ret monitor_concurrent_call else
   bad <- bad_enclave_id G e ;;
   if (bad : bool) then clear_dram_region_lock G (clamped_dram_region_for G e) ;; Ret monitor_invalid_value
   else p) any.
Proof.
  assert (CL : clamped_dram_region_for G e < n) by apply (clamped_lt G pb rb g).
  ib i_tas; auto. intros [|]; [no|]. apply i_bind. unfold bad_enclave_id, null_enclave_id.
  destruct (N.eqb_spec e 0) as [->|NZ]; [apply i_ret; ib i_clr; auto; no|].
  ib i_valid_id; [|intros; contradiction]. intros _. apply i_ret. cbn [negb]. ib i_clr; auto. no.
Qed.
Lemma i_exit : spares (exit_enclave G) any.
Proof.
  unfold exit_enclave, current_core_info. apply i_bind. ib i_core. apply i_ret.
  do 3 (rewrite (caddr G pb rb g) by (auto; reflexivity);
    ib i_op; [first [exact I|cbn; apply caddr_in; auto; off8]|]; intros ?). no.
Qed.
Lemma i_delete_thread t : spares (delete_thread G t) any.
Proof.
  unfold delete_thread. ib i_cur. rewrite (region_for_0 G pb rb g). ib i_tas; auto. intros [|]; no.
Qed.
Lemma i_thread_pages e r : forall fuel a, spares (thread_pages fuel G a e r) any.
Proof.
  induction fuel as [|k IH]; intros a; cbn [thread_pages]; destruct (a <? e); try exact I.
  destruct (negb _); [exact I|apply IH].
Qed.
Lemma i_create_thread t a : spares (create_thread G t a) any.
Proof.
  unfold create_thread. do 3 (destruct (negb _); [no|]).
  ib i_cur. rewrite (region_for_0 G pb rb g). ib i_tas; auto. intros [|]; [no|].
  ib i_readbit; [apply (region_lt G pb rb g)| | |].
  { change (enclave_region_bitmap 0) with 304. pose proof tables_low. pose proof (geo_pb _ _ _ g); pose proof (pow2_le (12 + pb) 30 ltac:(lia)) as P30; change (2 ^ 30) with 1073741824 in P30; unfold W64; lia. }
  { change (enclave_region_bitmap 0) with 304. pose proof tables_low. apply out_low. lia. }
  intros [|]; cbn [negb]; [|ib i_clr; auto; no]. apply i_bind.
  eapply i_weaken; [|apply i_thread_pages]. intros [|] _; [ib i_clr; auto; no|no].
Qed.

(** ** Enclave records and the metadata map *)
Lemma u_schedule w b i : w + 64 <= W64 -> b + 64 <= W64 -> out w 64 -> out b 64 -> uses untouching (sha_schedule w b i).
Proof.
  intros A B O1 O2. unfold sha_schedule. pose proof (land15 i).
  pose proof (land15 (i - 15)). pose proof (land15 (i - 2)). pose proof (land15 (i - 7)).
  destruct (N.ltb_spec i 16).
  - uld. ust. exact I.
  - uld. uld. uld. uld. ust. exact I.
Qed.
Lemma u_rounds w b : w + 64 <= W64 -> b + 64 <= W64 -> out w 64 -> out b 64 -> forall m i v, uses untouching (sha_rounds m w b i v).
Proof.
  intros A B O1 O2. induction m as [|m IH]; intros i v; cbn [sha_rounds]; [exact I|].
  apply uses_bind; [apply u_schedule; auto|]. intros wi. apply IH.
Qed.
Lemma u_extend st b : st + 160 <= W64 -> b + 64 <= W64 -> out st 160 -> out b 64 -> uses untouching (extend_hash st b).
Proof.
  intros A B O1 O2. unfold extend_hash, hs_h, hs_work, hs_padding, hash_block_size.
  do 8 uld. apply uses_bind.
  { apply u_rounds; wsm; auto; try lia. sub. }
  intros v. unfold hash_add.
  assert (HA : forall j x, j < 8 -> uses untouching
    (o <- load32 (wadd (wadd st 0) (4 * j)) ;; store32 (wadd (wadd st 0) (4 * j)) (wadd32 o x) ;; Ret tt)).
  { intros j x J. uld. ust. exact I. }
  do 8 (apply uses_bind; [apply HA; reflexivity|intros _]).
  uld. ust. exact I.
Qed.
Lemma u_init_hash st : st + 160 <= W64 -> out st 160 -> uses untouching (init_hash st).
Proof.
  intros A O. unfold init_hash, hs_padding, hash_block_size.
  do 8 ust. apply uses_bind; [apply u_bzero; wsm; try lia; sub|]. intros _. ust. exact I.
Qed.
Lemma u_init_enclave_hash id a b m d : id + 304 <= W64 -> out id 304 -> uses untouching (init_enclave_hash id a b m d).
Proof.
  intros A O. unfold init_enclave_hash, enclave_measurement_block, extend_enclave_block.
  change ei_hash_block with 240. change ei_hash with 80. change hash_block_size with 64.
  change mb_opcode with 0. change mb_ptr1 with 8. change mb_ptr2 with 16.
  change mb_size1 with 40. change mb_size2 with 48.
  apply uses_bind; [apply u_bzero; wsm; try lia; sub|intros _].
  apply uses_bind; [apply u_init_hash; wsm; try lia; sub|intros _].
  cbv zeta. do 5 ust. apply uses_bind; [apply u_extend; wsm; try lia; sub|intros _]. do 4 ust. exact I.
Qed.
Lemma u_init_info id a b m d : id + 304 <= W64 -> out id 304 -> uses untouching (init_enclave_info id a b m d).
Proof.
  intros A O. unfold init_enclave_info.
  change ei_lock with 0. change ei_mailbox_count with 8. change ei_is_initialized with 16.
  change ei_is_debug with 24. change ei_thread_count with 32. change ei_dram_region_count with 40.
  change ei_ev_base with 48. change ei_ev_mask with 56. change ei_load_eptbr with 64.
  change ei_last_load_addr with 72.
  apply uses_bind; [cbn; split; [wsm; sub|auto]|intros _].
  do 9 ust. apply u_init_enclave_hash; auto.
Qed.
Lemma u_thread_hash id a b d e : id + 304 <= W64 -> out id 304 -> uses untouching (extend_enclave_hash_with_thread id a b d e).
Proof.
  intros A O. unfold extend_enclave_hash_with_thread, enclave_measurement_block, extend_enclave_block.
  change ei_hash_block with 240. change ei_hash with 80.
  change mb_opcode with 0. change mb_ptr1 with 8. change mb_ptr2 with 16.
  change mb_ptr3 with 24. change mb_ptr4 with 32.
  cbv zeta. do 5 ust. apply uses_bind; [apply u_extend; wsm; try lia; sub|intros _]. do 4 ust. exact I.
Qed.

(** The map entries of a page of a region lie in stripes of the region. *)
Lemma near_entry id k : id < W64 -> (id < 2 ^ (12 + pb + rb) \/ pb + 2 * rb <= 55) ->
  (id / 4096) mod 2 ^ pb + k <= 2 ^ pb ->
  region_of pb rb id <> r0 ->
  let a := metadata_page_info_for_val G id in
  a + 8 * k <= W64 /\ a + 8 <= W64 /\ out a (8 * k) /\ out a 8.
Proof.
  intros WB H C NR a. destruct (map_skew_round G pb rb g id H) as (q0 & Q0).
  pose proof (map_skew_bound G pb rb g id WB) as SB.
  assert (E : a = region_of pb rb id * 2 ^ (12 + pb) + 8 * ((id / 4096) mod 2 ^ pb) + q0 * 2 ^ (12 + pb + rb)).
  { unfold a. rewrite (map_entry_val G pb rb g) by exact WB. rewrite Q0. reflexivity. }
  clearbody a. subst a. rewrite Q0 in SB. clear Q0 H.
  pose proof (region_of_lt pb rb id) as RL.
  assert (PL : (id / 4096) mod 2 ^ pb < 2 ^ pb) by (apply N.mod_lt, pow2_nz).
  set (p := (id / 4096) mod 2 ^ pb) in *. set (r := region_of pb rb id) in *.
  assert (S12 : 2 ^ (12 + pb) = 4096 * 2 ^ pb) by (rewrite pow2_add; reflexivity).
  assert (SR : 2 ^ (12 + pb + rb) = 2 ^ rb * 2 ^ (12 + pb)) by (rewrite (pow2_add (12 + pb)); apply N.mul_comm).
  assert (OUT : forall j, 8 * p + j <= 2 ^ (12 + pb) ->
    out (r * 2 ^ (12 + pb) + 8 * p + q0 * 2 ^ (12 + pb + rb)) j).
  { intros j J b B. rewrite SR, N.mul_assoc in B. set (z := q0 * 2 ^ rb) in *.
    assert (X : b = (b - r * 2 ^ (12 + pb) - z * 2 ^ (12 + pb)) + (r + z) * 2 ^ (12 + pb)) by lia.
    unfold region_of. rewrite X, N.div_add by apply pow2_nz. rewrite N.div_small by lia.
    unfold z. rewrite N.add_0_l, N.mod_add by apply pow2_nz. rewrite N.mod_small by exact RL. exact NR. }
  assert (M : r * 2 ^ (12 + pb) + 2 ^ (12 + pb) <= 2 ^ (12 + pb + rb)).
  { rewrite SR. set (a := 2 ^ (12 + pb)). clearbody a r. clear - RL. nia. }
  assert (B8 : 8 * p + 8 * k <= 2 ^ (12 + pb) /\ 8 * p + 8 <= 2 ^ (12 + pb)).
  { rewrite S12. set (s := 2 ^ pb) in *. clearbody s p. lia. }
  destruct B8 as [B1 B2]. split; [|split; [|split; [apply OUT; exact B1|apply OUT; exact B2]]].
  - revert B1 M SB. set (z := q0 * 2 ^ (12 + pb + rb)). set (y := r * 2 ^ (12 + pb)). clear. intros. lia.
  - revert B2 M SB. set (z := q0 * 2 ^ (12 + pb + rb)). set (y := r * 2 ^ (12 + pb)). clear. intros. lia.
Qed.
Lemma u_info_for {A} id (f : N -> prog A) : uses untouching (f (metadata_page_info_for_val G id)) ->
  uses untouching (bind (metadata_page_info_for G id) f).
Proof.
  intros H. unfold metadata_page_info_for, dram_region_page_for, ub_if.
  destruct (64 <=? page_for_shift G); cbn [bind uses]; [split; [exact I|intros _]|]; exact H.
Qed.
Lemma u_assign id count ow ty fi : id < W64 -> (id < 2 ^ (12 + pb + rb) \/ pb + 2 * rb <= 55) -> count <= 2 ^ 60 ->
  region_of pb rb id <> r0 ->
  uses untouching (assign_metadata_pages G id count ow ty fi).
Proof.
  intros WB H CB NR. unfold assign_metadata_pages.
  rewrite (stripe_page_for_spec G pb rb g), (geo_pages _ _ _ g).
  assert (PL : (id / 4096) mod 2 ^ pb < 2 ^ pb) by (apply N.mod_lt, pow2_nz).
  pose proof (geo_pb _ _ _ g) as GP. pose proof (p30 pb ltac:(lia)) as P30.
  change (2 ^ 60) with 1152921504606846976 in CB.
  rewrite wadd_small by (unfold W64; lia).
  destruct (N.ltb_spec (2 ^ pb) ((id / 4096) mod 2 ^ pb + count)) as [L|L]; [exact I|].
  destruct (near_entry id count WB H L NR) as (E1 & E2 & O1 & O2).
  apply u_info_for. set (a := metadata_page_info_for_val G id) in *. clearbody a.
  apply uses_bind.
  - apply u_for_exit. rewrite N2Nat.id. intros j J. rewrite wmul_small by (lia).
    uld. destruct (_ =? 0); exact I.
  - intros [e|]; [exact I|]. ust. apply uses_bind; [|intros _; exact I].
    apply u_for_n. rewrite N2Nat.id. intros j J. rewrite wmul_small by (lia). ust. exact I.
Qed.
Definition rec_addr (id : N) : Prop := id + 4096 <= W64 /\ region_of pb rb id <> r0 /\ out id 4096.
Lemma aligned_rec id : is_page_aligned id = true -> is_dram_address G id = true -> region_of pb rb id <> r0 ->
  rec_addr id.
Proof.
  intros PA DA NR. apply page_aligned_iff in PA. unfold is_dram_address in DA.
  pose proof (geo_D _ _ _ g) as GD. apply N.ltb_lt in DA.
  assert (B : id + 4096 <= W64) by (unfold W64 in *; clear -PA DA GD; lia). split; [exact B|]. clear B. split; [exact NR|].
  intros b B. rewrite (page_one_region pb rb b id); [exact NR|]. clear -PA B. lia.
Qed.
Lemma i_lock_meta id (Q : N * N -> Prop) : OWN \/ region_of pb rb id <> r0 ->
  (forall v r, v <> monitor_ok -> Q (v, r)) ->
  (rec_addr id -> Q (monitor_ok, region_of pb rb id)) ->
  spares (lock_metadata_region_for G id) Q.
Proof.
  intros NA QF QT. unfold lock_metadata_region_for.
  destruct (is_page_aligned id) eqn:PA; cbn [negb orb]; [|apply i_ret, QF; discriminate].
  destruct (is_dram_address G id) eqn:DA; cbn [negb]; [|apply i_ret, QF; discriminate].
  assert (R : dram_region_for G id < n) by apply (region_lt G pb rb g).
  ib i_tas; auto. intros [|]; [apply i_ret, QF; discriminate|].
  ib i_owner; auto. intros o O1 O2 O3. destruct (N.eqb_spec o metadata_enclave_id) as [E|E]; cbn [negb]; cycle 1.
  - ib i_clr; auto. apply i_ret, QF. discriminate.
  - rewrite (region_for_spec G pb rb g) in *. apply i_ret. apply QT. apply aligned_rec; auto. destruct NA; auto.
Qed.
Lemma i_unlock id (Q : unit -> Prop) : rec_addr id -> Q tt -> spares (unlock_enclave id) Q.
Proof.
  intros [R1 [R2 R3]] H. unfold unlock_enclave. change ei_lock with 0. ib i_op; [cbn; wsm; sub|]. intros _. apply i_ret. exact H.
Qed.
Lemma i_lock_enclave id (Q : N -> Prop) : OWN \/ region_of pb rb id <> r0 -> (id < 2 ^ (12 + pb + rb) \/ pb + 2 * rb <= 55) ->
  (forall v, v <> monitor_ok -> Q v) -> (rec_addr id -> Q monitor_ok) ->
  spares (lock_enclave G id) Q.
Proof.
  intros NA H QF QT. unfold lock_enclave. destruct (_ || _); [apply i_ret, QF; discriminate|].
  ib i_lock_meta; [exact NA| |].
  - intros v r V. destruct (N.eqb_spec v monitor_ok); [contradiction|]. cbn [negb]. apply i_ret, QF; auto.
  - intros RA. change (monitor_ok =? monitor_ok) with true. cbn [negb].
    assert (R : region_of pb rb id < n) by (rewrite (n_val G pb rb g); apply region_of_lt).
    destruct RA as (RA1 & RA2 & RA3) eqn:ERA; clear ERA.
    assert (E : spares (page_info <- metadata_page_info_for G id ;; v <- load64 page_info ;;
      (result <- (if negb (v =? metadata_page_info id enclave_metadata_page_type)
         then Ret monitor_invalid_value
         else t <- op1 (OTas (wadd id ei_lock)) ;;
              Ret (if t =? 0 then monitor_ok else monitor_concurrent_call)) ;;
       clear_dram_region_lock G (region_of pb rb id) ;; Ret result)) Q).
    { assert (PB : (id / 4096) mod 2 ^ pb < 2 ^ pb) by (apply N.mod_lt, pow2_nz).
      destruct (near_entry id 0 ltac:(clear -RA1; unfold W64 in *; lia) H ltac:(lia) RA2) as (_ & _ & _ & E2).
      assert (K : forall w, out w 8 -> spares (v <- load64 w ;;
        (result <- (if negb (v =? metadata_page_info id enclave_metadata_page_type)
           then Ret monitor_invalid_value
           else t <- op1 (OTas (wadd id ei_lock)) ;;
                Ret (if t =? 0 then monitor_ok else monitor_concurrent_call)) ;;
         clear_dram_region_lock G (region_of pb rb id) ;; Ret result)) Q).
      { intros w WB. ib i_op; [exact WB|]. intros v. apply i_bind. destruct (negb _).
        - apply i_ret. ib i_clr; auto. apply i_ret, QF. discriminate.
        - change ei_lock with 0. ib i_op; [cbn; rewrite (wadd_small id 0) by lia; sub|]. intros t. apply i_ret.
          ib i_clr; auto. apply i_ret. destruct (t =? 0); [apply QT; exact RA|apply QF; discriminate]. }
      unfold metadata_page_info_for, dram_region_page_for, ub_if.
      destruct (64 <=? page_for_shift G); cbn [bind spares]; [split; [exact I|intros v _]|];
        apply K; exact E2. }
    exact E.
Qed.
Lemma i_create_enclave id a b m d : OWN \/ region_of pb rb id <> r0 -> (id < 2 ^ (12 + pb + rb) \/ pb + 2 * rb <= 55) -> spares (create_enclave G id a b m d) any.
Proof.
  intros NA H. unfold create_enclave. destruct (negb _); [no|]. destruct (_ <? _); [no|].
  ib i_lock_meta; [exact NA| |].
  - intros v r V. destruct (N.eqb_spec v monitor_ok); [contradiction|]. cbn [negb]. no.
  - intros RA. change (monitor_ok =? monitor_ok) with true. cbn [negb].
    assert (R : region_of pb rb id < n) by (rewrite (n_val G pb rb g); apply region_of_lt).
    ib i_owner; auto. intros o _ _ _. destruct (negb _); [ib i_clr; auto; no|].
    apply i_bind, i_uses; [apply u_assign; auto; [pose proof (proj1 RA) as RA1; clear -RA1; unfold W64 in *; lia|apply info_pages_small|exact (proj1 (proj2 RA))]|]. intros v.
    destruct (negb _); [ib i_clr; auto; no|].
    destruct RA as (RA1 & RA2 & RA3). apply i_bind, i_uses; [apply u_init_info; [lia|sub]|]. intros _.
    ib i_clr; auto. no.
Qed.
Lemma i_assign_thread id t : OWN \/ region_of pb rb id <> r0 -> OWN \/ region_of pb rb t <> r0 -> (id < 2 ^ (12 + pb + rb) \/ pb + 2 * rb <= 55) -> spares (assign_thread G id t) any.
Proof.
  intros NA NB H. unfold assign_thread. ib i_lock_enclave; auto.
  - intros v V. destruct (N.eqb_spec v monitor_ok); [contradiction|]. cbn [negb]. no.
  - intros RA. change (monitor_ok =? monitor_ok) with true. cbn [negb]. ib i_lock_meta; [exact NB| |].
    + intros v r V. destruct (N.eqb_spec v monitor_ok); [contradiction|]. cbn [negb].
      ib i_unlock; auto. no.
    + intros RT. change (monitor_ok =? monitor_ok) with true. cbn [negb].
      assert (R : region_of pb rb t < n) by (rewrite (n_val G pb rb g); apply region_of_lt).
      assert (E : forall w : N, spares (clear_dram_region_lock G (region_of pb rb t) ;; unlock_enclave id ;; Ret w) any).
      { intros w. ib i_clr; auto. ib i_unlock; auto. no. }
      destruct RA as (RA1 & RA2 & RA3). destruct RT as (RT1 & RT2 & RT3).
      ib i_op; [cbn; change ei_is_initialized with 16; wsm; sub|]. intros i.
      apply i_bind, i_uses.
      { destruct (negb _); [|exact I]. apply u_assign; auto; [clear -RA1; unfold W64 in *; lia|vm_compute; discriminate]. }
      intros w. destruct (negb _); [apply E|]. change ei_thread_count with 32.
      ib i_op; [cbn; wsm; sub|]. intros tc.
      ib i_op; [cbn; wsm; sub|]. intros _. apply E.
Qed.
Lemma i_load_thread id t a b d e : OWN \/ region_of pb rb id <> r0 -> OWN \/ region_of pb rb t <> r0 -> (id < 2 ^ (12 + pb + rb) \/ pb + 2 * rb <= 55) -> spares (load_thread G id t a b d e) any.
Proof.
  intros NA NB H. unfold load_thread. ib i_lock_enclave; auto.
  - intros v V. destruct (N.eqb_spec v monitor_ok); [contradiction|]. cbn [negb]. no.
  - intros RA. change (monitor_ok =? monitor_ok) with true. cbn [negb]. ib i_lock_meta; [exact NB| |].
    + intros v r V. destruct (N.eqb_spec v monitor_ok); [contradiction|]. cbn [negb].
      ib i_unlock; auto. no.
    + intros RT. change (monitor_ok =? monitor_ok) with true. cbn [negb].
      assert (R : region_of pb rb t < n) by (rewrite (n_val G pb rb g); apply region_of_lt).
      assert (E : forall w : N, spares (clear_dram_region_lock G (region_of pb rb t) ;; unlock_enclave id ;; Ret w) any).
      { intros w. ib i_clr; auto. ib i_unlock; auto. no. }
      destruct RA as (RA1 & RA2 & RA3). destruct RT as (RT1 & RT2 & RT3).
      ib i_op; [cbn; change ei_is_initialized with 16; wsm; sub|]. intros i.
      change ei_load_eptbr with 64. change ei_thread_count with 32.
      change ti_lock with 0. change ti_entry_pc with 8. change ti_entry_stack with 16.
      change ti_fault_pc with 24. change ti_fault_stack with 32. change ti_eptbr with 40.
      apply i_bind, i_uses.
      { destruct (negb _); [exact I|]. uld. destruct (_ =? 0); [exact I|].
        apply u_assign; auto; [clear -RA1; unfold W64 in *; lia|vm_compute; discriminate]. }
      intros w. destruct (negb _); [apply E|].
      ib i_op; [cbn; wsm; sub|]. intros tc.
      do 6 (ib i_op; [cbn; wsm; sub|]; intros _).
      ib i_op; [cbn; wsm; sub|]. intros ep.
      ib i_op; [cbn; wsm; sub|]. intros _.
      apply i_bind, i_uses; [apply u_thread_hash; [lia|sub]|]. intros _. apply E.
Qed.
Lemma i_copy_debug e ea oa rd : e + 304 + 8 * g_dram_region_bitmap_words G <= 2 ^ 64 ->
  out e (304 + 8 * g_dram_region_bitmap_words G) -> out ea 4096 -> out oa 4096 ->
  spares (copy_debug_enclave_page G e ea oa rd) any.
Proof.
  intros HE OE OA OO. unfold copy_debug_enclave_page. change (2 ^ 64) with W64 in HE.
  destruct (is_page_aligned ea) eqn:AE, (is_page_aligned oa) eqn:AO; cbn [negb orb]; try no.
  destruct (is_dram_address G ea) eqn:DE, (is_dram_address G oa) eqn:DO; cbn [negb orb]; try no.
  pose proof (geo_D _ _ _ g) as GD. apply page_aligned_iff in AE, AO. apply N.ltb_lt in DE, DO.
  assert (B1 : ea + 4096 <= W64) by (unfold W64 in *; clear -AE DE GD; lia).
  assert (B2 : oa + 4096 <= W64) by (unfold W64 in *; clear -AO DO GD; lia).
  set (q := clamped_dram_region_for G e). set (x := dram_region_for G ea).
  set (r := dram_region_for G oa).
  assert (Q : q < n) by apply (clamped_lt G pb rb g).
  assert (R : r < n) by apply (region_lt G pb rb g).
  assert (X : x < n) by apply (region_lt G pb rb g).
  ib i_tas; auto. intros [|]; [no|]. ib i_tas; auto. intros [|]; [ib i_clr; auto; no|].
  unfold read_dram_region_owner. ib i_owner; auto. intros v1 _ _ _. ib i_owner; auto. intros v2 _ _ _.
  assert (GOAL : forall b : bool, spares
    (dbg <- load64 (wadd e ei_is_debug);;
      let result := monitor_ok in
      let result := if negb (v1 =? e) then monitor_invalid_value else result in
      let result := if negb (v2 =? null_enclave_id) then monitor_invalid_value else result in
      let result := if negb b then monitor_invalid_value else result in
      let result := if dbg =? 0 then monitor_invalid_state else result in
      (if result =? monitor_ok
       then if rd then bcopy64 oa ea page_size else bcopy64 ea oa page_size
       else Ret tt);; clear_dram_region_lock G r;; clear_dram_region_lock G q;; Ret result) any).
  { intros b. change ei_is_debug with 24.
    ib i_op; [cbn; wsm; sub|]. intros dbg. cbv zeta. apply i_bind, i_uses.
    - change page_size with 4096. destruct (_ =? monitor_ok); [|exact I].
      destruct rd; apply u_bcopy; auto.
    - intros _. ib i_clr; auto. ib i_clr; auto. no. }
  apply i_bind. unfold read_enclave_region_bitmap_bit.
  destruct (e =? null_enclave_id).
  - apply i_readbit; auto; [apply tables_low|apply os_out].
  - unfold enclave_region_bitmap. change enclave_info_t_size with 304. pose proof (word_in _ X) as XW. rewrite wadd_small by lia.
    apply i_readbit; auto. eapply out_sub; [exact OE|lia|lia].
Qed.

(** The call does not name the region. *)
Definition unnamed (k : call) : Prop :=
  match k with
  | CCreateMetadataRegion r => r <> r0
  | CCreateEnclave id _ _ _ _ => region_of pb rb id <> r0
  | CAssignThread id t | CLoadThread id t _ _ _ _ => region_of pb rb id <> r0 /\ region_of pb rb t <> r0
  | _ => True
  end.
Lemma i_call' k : OWN \/ unnamed k -> public_call G pb rb r0 k -> spares (call_prog G k) any.
Proof.
  intros NA [S Nr]. destruct k; cbn [call_prog safe_call unnamed] in *.
  - apply i_block.
  - apply i_check.
  - apply i_state.
  - apply i_owner_call.
  - apply i_set_dma.
  - apply i_create_metadata; auto.
  - apply i_assign.
  - apply i_free.
  - apply i_flush.
  - apply i_create_enclave; auto.
  - unfold load_page_table. do 2 (destruct (negb _); [no|]). destruct (_ <=? level); [no|]. apply i_guard.
  - unfold load_page. do 2 (destruct (_ || _); [no|]). apply i_guard.
  - apply i_load_thread; tauto.
  - apply i_assign_thread; tauto.
  - apply i_guard.
  - apply i_guard.
  - apply i_guard.
  - apply i_copy_debug; apply Nr.
  - contradiction.
  - apply i_create_thread.
  - apply i_delete_thread.
  - apply i_exit.
Qed.
End S.
Lemma i_call G pb rb (g : geom G pb rb) c (HC : c < g_core_count G) W r0 (HW : avoids pb rb r0 (g_os_region_bitmap G) (8 * W))
  (HR : r0 <> 0) k : public_call G pb rb r0 k -> spares G pb rb c W r0 True (call_prog G k) any.
Proof. intros P. apply i_call'; auto. Qed.
