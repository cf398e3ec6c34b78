(** * The locks a call takes, tries and releases while other cores run. *)
From Coq Require Import NArith ZArith Lia Bool List.
From Coq Require Import ZifyBool ZifyNat ZifyN.
From Verif Require Import Word Machine ModelBare ModelHash ModelInl ModelRegions
  ModelMetadata ModelEnclave ModelBoot ModelApi Lib BareProofs BootProofs SpecGeometry
  GeomProofs Trace SpecMonitor SpecHistory ViewProofs SeqProofs SeqCalls SeqCalls2 SeqCalls3
  SeqCalls5 HistoryProofs ConcProofs ConcCalls ConcCalls2 ConcGlobal SpecConcurrent SpecAtomic SpecContract
  ContractProofs AtomicProofs SpecLinear SpecRefuse.
Import ListNotations.
Open Scope N_scope.
Ltac Zify.zify_post_hook ::= Z.div_mod_to_equations.
Local Notation lock_addr := SpecConcurrent.lock_addr.

Section R.
Variables (G : globals) (pb rb : N) (g : geom G pb rb).
Notation n := (g_dram_region_count G).

(** The region whose lock lies at an address. *)
Definition region_at (a : N) : option N :=
  if (g_dram_region G <=? a) && ((a - g_dram_region G) mod 40 =? 0) &&
     ((a - g_dram_region G) / 40 <? n)
  then Some ((a - g_dram_region G) / 40) else None.
Lemma region_at_lock r : r < n -> region_at (lock_addr G r) = Some r.
Proof.
  intros R. unfold region_at, SpecConcurrent.lock_addr.
  replace (g_dram_region G + 40 * r - g_dram_region G) with (r * 40) by lia.
  rewrite N.mod_mul, N.div_mul by lia.
  replace (g_dram_region G <=? g_dram_region G + 40 * r) with true by lia.
  replace (r <? n) with true by lia. reflexivity.
Qed.
Lemma region_at_inv a r : region_at a = Some r -> r < n /\ a = lock_addr G r.
Proof.
  unfold region_at, SpecConcurrent.lock_addr. destruct (_ && _ && _) eqn:E; [|discriminate].
  intros X. inversion X. subst r. lia.
Qed.
Lemma region_at_high a : g_monitor_top G <= a -> region_at a = None.
Proof.
  intros H. destruct (region_at a) as [r|] eqn:E; [|reflexivity].
  apply region_at_inv in E. destruct E as [R ->]. exfalso.
  pose proof (layout _ _ _ g) as (L1 & L2 & L3 & L4 & L5 & L6 & L7 & L8).
  unfold SpecConcurrent.lock_addr in H. lia.
Qed.

(** What the executed operations (last first) amount to: the locks held, whether a
    lock was found held, whether a lock was released. *)
Fixpoint rem (r : N) (H : list N) : list N :=
  match H with [] => [] | q :: H' => if q =? r then H' else q :: rem r H' end.
Lemma rem_other r q H : q <> r -> In q H -> In q (rem r H).
Proof.
  intros NE. induction H as [|x H IH]; cbn [rem In]; [auto|].
  destruct (N.eqb_spec x r) as [->|]; intros [->|I]; cbn [In]; auto. congruence.
Qed.
Lemma rem_in r q H : In q (rem r H) -> In q H.
Proof.
  induction H as [|x H IH]; cbn [rem In]; [auto|].
  destruct (x =? r); cbn [In]; tauto.
Qed.
Definition locks : Type := list N * bool * bool.
Definition taken (d : locks) : list N := fst (fst d).
Definition failed (d : locks) : bool := snd (fst d).
Definition freed (d : locks) : bool := snd d.
Definition next (o : op) (v : N) (d : locks) : locks :=
  match o with
  | OTas a =>
      match region_at a with
      | Some r => if v =? 0 then (r :: taken d, failed d, freed d) else (taken d, true, freed d)
      | None => d
      end
  | OClr a =>
      match region_at a with
      | Some r => (rem r (taken d), failed d, true)
      | None => d
      end
  | _ => d
  end.
Fixpoint track (l : list (op * N)) : locks :=
  match l with [] => ([], false, false) | (o, v) :: l' => next o v (track l') end.

Variables (c : N) (HC : c < g_core_count G).
Variables (about : N -> Prop) (twice ord : Prop).
(** [Q] holds at the end of every path; on the way, locks are tried as described. *)
Definition tries (o : op) (d : locks) : Prop :=
  forall a r, o = OTas a -> region_at a = Some r ->
    about r /\ (In r (taken d) -> twice) /\
    (ord -> failed d = false /\ freed d = false /\ forall q, In q (taken d) -> r < q).
Fixpoint disc {A} (p : prog A) (d : locks) (Q : locks -> A -> Prop) : Prop :=
  match p with
  | Ret a => Q d a
  | Stop => True
  | Do o k => tries o d /\ forall v, may_give G c o v -> disc (k v) (next o v d) Q
  end.
Lemma disc_weaken {A} (p : prog A) : forall d (Q Q' : locks -> A -> Prop),
  (forall d a, Q d a -> Q' d a) -> disc p d Q -> disc p d Q'.
Proof.
  induction p as [a|o k IH|]; intros d Q Q' H; cbn; eauto. intros [T D]. split; [exact T|]. eauto.
Qed.
Lemma disc_bind {A B} (p : prog A) (f : A -> prog B) : forall d Q,
  disc p d (fun d a => disc (f a) d Q) -> disc (bind p f) d Q.
Proof.
  induction p as [a|o k IH|]; intros d Q; cbn; auto. intros [T D]. split; [exact T|]. auto.
Qed.

(** Operations that concern no lock of a region. *)
Definition aside (o : op) : Prop :=
  match o with OTas a | OClr a => region_at a = None | _ => True end.
Lemma aside_next o v d : aside o -> next o v d = d.
Proof. destruct o; cbn; auto; intros ->; reflexivity. Qed.
Lemma aside_tries o d : aside o -> tries o d.
Proof. intros A a r -> E. cbn in A. congruence. Qed.
Lemma d_uses {A} (p : prog A) : forall d (Q : locks -> A -> Prop),
  uses aside p -> (forall a, Q d a) -> disc p d Q.
Proof.
  induction p as [a|o k IH|]; intros d Q U H; cbn in *; auto.
  destruct U as [U1 U2]. split; [apply aside_tries; exact U1|]. intros v _.
  rewrite aside_next by exact U1. auto.
Qed.
Lemma d_ret {A} (a : A) d (Q : locks -> A -> Prop) : Q d a -> disc (Ret a) d Q.
Proof. auto. Qed.
Lemma d_op o d (Q : locks -> N -> Prop) : aside o -> (forall v, Q d v) -> disc (op1 o) d Q.
Proof. intros A H. apply d_uses; [cbn; auto|exact H]. Qed.
Lemma d_tas r d (Q : locks -> bool -> Prop) : r < n -> about r -> (In r (taken d) -> twice) ->
  (ord -> failed d = false /\ freed d = false /\ forall q, In q (taken d) -> r < q) ->
  Q (taken d, true, freed d) true ->
  Q (r :: taken d, failed d, freed d) false ->
  disc (test_and_set_dram_region_lock G r) d Q.
Proof.
  intros R AB TW OR H1 H2. unfold test_and_set_dram_region_lock. rewrite (lock_raddr G pb rb g c HC) by exact R.
  cbn. split.
  - intros a r' E1 E2. inversion E1. subst a. rewrite region_at_lock in E2 by exact R. inversion E2. subst r'. auto.
  - intros v _. rewrite region_at_lock by exact R. destruct (N.eqb_spec v 0) as [->|]; cbn; auto.
Qed.
Lemma d_clr r d (Q : locks -> unit -> Prop) : r < n ->
  Q (rem r (taken d), failed d, true) tt -> disc (clear_dram_region_lock G r) d Q.
Proof.
  intros R H. unfold clear_dram_region_lock. rewrite (lock_raddr G pb rb g c HC) by exact R. cbn.
  split; [intros a r' E; discriminate|]. intros v _. rewrite region_at_lock by exact R. exact H.
Qed.
Lemma d_owner r d (Q : locks -> N -> Prop) : r < n ->
  (forall v, v < 4 -> (r = 0 -> v = 0) -> Q d v) ->
  disc (load64 (wadd (region_addr G r) dri_owner)) d Q.
Proof.
  intros R H. rewrite (owner_raddr G pb rb g c HC) by exact R. cbn. split; [intros a r' E; discriminate|].
  intros v M. destruct M as [M _]. destruct (M r R eq_refl). auto.
Qed.
Lemma d_cur d (Q : locks -> N -> Prop) : Q d 0 -> disc (current_enclave G) d Q.
Proof.
  intros H. cbn. split; [intros a r' E; discriminate|]. intros v [_ [M _]]. specialize (M eq_refl). subst v.
  change (wadd (core_addr G c) ci_enclave_id) with (wadd (core_addr G c) 0).
  rewrite (caddr G pb rb g) by (auto; reflexivity). rewrite N.add_0_r.
  split; [intros a r' E; discriminate|].
  intros v [_ [_ M]]. specialize (M eq_refl). subst v. exact H.
Qed.
End R.

(** Results of a program. *)
Fixpoint gives {A} (R : A -> Prop) (p : prog A) : Prop :=
  match p with Ret a => R a | Do _ k => forall v, gives R (k v) | Stop => True end.
Lemma gives_bind {A B} (R : B -> Prop) (p : prog A) (f : A -> prog B) :
  (forall a, gives R (f a)) -> gives R (bind p f).
Proof. intros H. induction p as [a|o k IH|]; cbn; auto. Qed.

Section Calls.
Variables (G : globals) (pb rb : N) (g : geom G pb rb).
Hypothesis HD : g_dram_size G + g_dram_stripe_size G <= W64.
Variables (c : N) (HC : c < g_core_count G).
Notation n := (g_dram_region_count G).
Lemma d_gives {A} ab tw od (R : A -> Prop) (p : prog A) : forall d (Q : locks -> A -> Prop),
  uses (aside G) p -> gives R p -> (forall a, R a -> Q d a) -> disc G c ab tw od p d Q.
Proof.
  induction p as [a|o k IH|]; intros d Q U GV H; cbn in *; auto.
  destruct U as [U1 U2]. split; [apply aside_tries; exact U1|]. intros v _.
  rewrite aside_next by exact U1. auto.
Qed.
Lemma high_aside {A} (p : prog A) : uses (high_op G) p -> uses (aside G) p.
Proof.
  induction p as [a|o k IH|]; cbn; auto. intros [H1 H2]. split; [|auto].
  destruct o; cbn in *; auto; apply (region_at_high G pb rb g); exact H1.
Qed.

Definition ended (k : call) (d : locks) (v : N) : Prop :=
  (v = 3 -> locks_record k = false -> failed d = true) /\
  (forall r, In r (taken d) -> r = 0 /\ leaky k = true /\ v = 0).
Definition follows (k : call) : Prop :=
  disc G c (concerns G pb rb k) (names_twice G pb rb k) (in_order G pb rb k)
    (call_prog G k) ([], false, false) (ended k).

Ltac fin := split; [intros X; first [discriminate X | vm_compute in X; discriminate X | intros _; reflexivity
  | intros Y; first [discriminate Y|reflexivity]]
  | cbn -[N.eqb]; rewrite ?N.eqb_refl; cbn; intros ? X; try contradiction].
Ltac ret := apply d_ret; fin.
Ltac tas := apply disc_bind, (d_tas G pb rb g c HC);
  [assumption|cbn; auto|cbn; intros X; try contradiction
  |cbn; intros OR; split; [reflexivity|split; [reflexivity|intros ? X; try contradiction]]
  |cbn [taken failed freed fst snd]|cbn [taken failed freed fst snd]].
Ltac clr := apply disc_bind, (d_clr G pb rb g c HC); [assumption|cbn [taken failed freed fst snd rem]; rewrite ?N.eqb_refl].
Ltac own := apply disc_bind, (d_owner G pb rb g c HC); [assumption|].
Ltac dop := apply disc_bind, d_op; [exact Logic.I|].
Ltac daside := apply disc_bind, d_uses; [|].

Lemma f_check r : follows (CCheckOwnership r).
Proof.
  unfold follows. cbn [call_prog]. unfold dram_region_check_ownership, is_dynamic_dram_region, is_valid_dram_region.
  destruct (N.ltb_spec r n) as [R|R]; [|rewrite andb_false_r; ret].
  rewrite andb_true_r. destruct (N.eqb_spec r 0); cbn [negb]; [ret|].
  tas; [ret|].
  unfold read_dram_region_owner. own. intros ow _ _.
  apply disc_bind, (d_cur G pb rb g c HC). clr. destruct (ow =? 0); ret.
Qed.
Lemma f_state r : follows (CRegionState r).
Proof.
  unfold follows. cbn [call_prog]. unfold dram_region_state, is_valid_dram_region.
  destruct (N.ltb_spec r n) as [R|R]; cbn [negb]; [|ret].
  tas; [ret|].
  unfold read_dram_region_owner. own. intros ow _ _. clr.
  destruct (ow =? null_enclave_id), (ow =? blocked_enclave_id), (ow =? free_enclave_id); ret.
Qed.
Lemma f_owner r : follows (CRegionOwner r).
Proof.
  unfold follows. cbn [call_prog]. unfold dram_region_owner, is_valid_dram_region.
  destruct (N.ltb_spec r n) as [R|R]; cbn [negb]; [|ret].
  tas; [ret|].
  unfold read_dram_region_owner. own. intros ow _ _. clr. apply d_ret. split; [|cbn; tauto].
  change blocked_enclave_id with 1. change free_enclave_id with 3. change null_enclave_id with 0.
  destruct (N.eqb_spec ow 1), (N.eqb_spec ow 3); cbn [orb]; intros X; congruence.
Qed.
Lemma f_flush : follows CFlush.
Proof. unfold follows. cbn. repeat (split; [intros a r E; discriminate|intros ? _]). fin. Qed.
Lemma f_exit : follows CExitEnclave.
Proof. unfold follows. cbn. repeat (split; [intros a r E; discriminate|intros ? _]). fin. Qed.
Lemma aside_bit r b : uses (aside G) (set_enclave_region_bitmap_bit G 0 r b).
Proof.
  unfold set_enclave_region_bitmap_bit. change (0 =? null_enclave_id) with true. cbv iota.
  unfold set_bitmap_bit. cbn. split; [exact Logic.I|]. intros v. destruct b; cbn; auto.
Qed.
Lemma f_block r : follows (CBlock r).
Proof.
  unfold follows. cbn [call_prog]. unfold block_dram_region, is_dynamic_dram_region, is_valid_dram_region.
  destruct (N.ltb_spec r n) as [R|R]; [|rewrite andb_false_r; ret].
  rewrite andb_true_r. destruct (N.eqb_spec r 0) as [Z|Z]; cbn [negb]; [ret|].
  tas; [ret|].
  unfold read_dram_region_owner. own. intros ow _ _.
  apply disc_bind, (d_cur G pb rb g c HC).
  destruct (N.eqb_spec ow 0); cbn [negb]; [|clr; ret].
  subst ow. change (0 =? null_enclave_id) with true. cbn [negb andb bind].
  assert (Q0 : dram_region_for G 0 = 0) by apply (region_for_0 G pb rb g). rewrite Q0.
  assert (N0 : 0 < n) by (clear - R; lia).
  tas; [lia|lia|clr; ret|].
  unfold dma_check. change (0 =? 0) with true. cbv iota.
  apply disc_bind. dop. intros ds. dop. intros de. apply d_ret.
  destruct (dma_range_crossed _ _ _ _); [clr; clr; ret|].
  unfold store64. dop. intros w1. dop. intros w2. dop. intros w3. dop. intros w4.
  daside; [apply aside_bit|]. intros []. dop. intros w5. clr. clr. ret.
Qed.
Lemma stale_aside b : uses (aside G) (stale_core G b).
Proof.
  unfold stale_core. apply uses_for_exit. intros i. cbn. split; [exact Logic.I|].
  intros v. destruct (v <? b); exact Logic.I.
Qed.
Lemma f_free r : follows (CFree r).
Proof.
  unfold follows. cbn [call_prog]. unfold free_dram_region, is_valid_dram_region.
  destruct (N.ltb_spec r n) as [R|R]; cbn [negb]; [|ret].
  tas; [ret|].
  unfold read_dram_region_owner. own. intros ow _ _.
  apply disc_bind. destruct (ow =? blocked_enclave_id).
  - unfold load64. dop. intros b. daside; [apply stale_aside|]. intros [[]|].
    + apply d_ret. clr. ret.
    + unfold store64. dop. intros. apply d_ret. clr. ret.
  - destruct (ow =? metadata_enclave_id).
    + unfold load64. dop. intros b. destruct (b =? 0).
      * unfold store64. dop. intros. apply d_ret. clr. ret.
      * apply d_ret. clr. ret.
    + apply d_ret. clr. ret.
Qed.
Lemma bzero_aside a b : uses (aside G) (bzero64 a b).
Proof. unfold bzero64. apply uses_for_n. intros i. cbn. auto. Qed.
Lemma f_create r : follows (CCreateMetadataRegion r).
Proof.
  unfold follows. cbn [call_prog]. unfold create_metadata_region, is_valid_dram_region.
  destruct (N.ltb_spec r n) as [R|R]; cbn [negb]; [|ret].
  tas; [ret|].
  unfold read_dram_region_owner. own. intros ow _ _.
  destruct (ow =? free_enclave_id); cbn [negb]; [|clr; ret].
  unfold init_metadata_region. daside.
  { apply uses_bind; [cbn; auto|]. intros _. apply uses_bind; [cbn; auto|]. intros _. apply bzero_aside. }
  intros []. clr. ret.
Qed.
Lemma d_valid ab tw od e d (Q : locks -> bool -> Prop) :
  (forall b, (b = true -> e = 0) -> Q d b) -> disc G c ab tw od (is_valid_enclave_id G e) d Q.
Proof.
  intros H. unfold is_valid_enclave_id.
  assert (CL : clamped_dram_region_for G e < n) by apply (clamped_lt G pb rb g).
  own. intros ow O4 O0. apply d_ret. apply H. intros E. apply N.eqb_eq in E. subst ow.
  destruct (N.eq_dec e 0) as [|NZ]; [assumption|]. exfalso. apply NZ, O0.
  unfold clamped_dram_region_for. rewrite (small_region G pb rb g) by (clear - O4; lia).
  destruct (is_dram_address G e); reflexivity.
Qed.
Lemma d_bad ab tw od e d (Q : locks -> bool -> Prop) :
  Q d true -> disc G c ab tw od (bad_enclave_id G e) d Q.
Proof.
  intros H. unfold bad_enclave_id. change null_enclave_id with 0.
  destruct (N.eqb_spec e 0) as [|NE]; [exact H|].
  apply disc_bind, d_valid. intros b B. apply d_ret. destruct b; [exfalso; auto|exact H].
Qed.
Lemma f_assign r e : follows (CAssign r e).
Proof.
  unfold follows. cbn [call_prog]. unfold assign_dram_region, is_valid_dram_region.
  destruct (N.ltb_spec r n) as [R|R]; cbn [negb]; [|ret].
  tas; [ret|].
  unfold read_dram_region_owner. own. intros ow _ _.
  destruct (ow =? free_enclave_id); cbn [negb]; [|clr; ret].
  rewrite (region_for_spec G pb rb g).
  set (q := region_of pb rb e). assert (Q : q < n) by apply (region_lt' G pb rb g).
  tas; [destruct X as [X|X]; [symmetry; exact X|contradiction]|destruct X as [<-|X]; [exact OR|contradiction]|clr; ret|].
  apply disc_bind, d_valid. intros b B.
  apply disc_bind. destruct b.
  - specialize (B eq_refl). subst e. unfold store64. dop. intros w1.
    daside; [apply aside_bit|]. intros []. change (0 =? 0) with true. cbv iota.
    apply disc_bind. dop. intros w2. apply d_ret, d_ret. clr. clr. ret.
  - apply d_ret. clr. clr. ret.
Qed.
Lemma stripes_d (ab : N -> Prop) (tw od : Prop) e lo : (forall a, lo <= a < e -> ab (region_of pb rb a)) ->
  (od -> False) -> e <= g_dram_size G -> forall fuel a b d (Q : locks -> option bool -> Prop),
  lo <= a -> (forall r, In r (taken d) -> r = 0) ->
  (forall d' x, taken d' = taken d -> failed d' = failed d -> Q d' (Some x)) ->
  (forall d', taken d' = taken d -> failed d' = true -> Q d' None) ->
  disc G c ab tw od (dma_stripes fuel G a e b) d Q.
Proof.
  intros AB NO EB. induction fuel as [|k IH]; intros a b d Q LO TK QS QN; cbn [dma_stripes].
  { destruct (a <? e); [exact Logic.I|]. apply d_ret. apply QS; auto. }
  destruct (N.ltb_spec a e) as [L|L]; [|apply d_ret; apply QS; auto].
  rewrite (region_for_spec G pb rb g). set (r := region_of pb rb a).
  assert (R : r < n) by apply (region_lt' G pb rb g).
  assert (NX : forall d2 o b2, taken d2 = taken d -> failed d2 = failed d ->
    disc G c ab tw od (dma_stripes k G (wadd a (g_dram_stripe_size G)) e (if negb (o =? 0) then false else b2)) d2 Q).
  { intros d2 o b2 T F. rewrite wadd_small by lia. apply IH; [lia| | |].
    - intros q I. rewrite T in I. auto.
    - intros d' x T' F'. apply QS; congruence.
    - intros d' T' F'. apply QN; congruence. }
  destruct (N.eqb_spec r 0) as [Z|Z]; cbn [negb].
  - apply disc_bind, d_ret. cbv iota. own. intros o _ _. apply disc_bind, d_ret. apply NX; reflexivity.
  - apply disc_bind, (d_tas G pb rb g c HC); [assumption|apply AB; lia| |tauto| |].
    + intros I. apply TK in I. contradiction.
    + apply d_ret. apply QN; reflexivity.
    + own. intros o _ _. clr. apply NX; reflexivity.
Qed.
Lemma f_dma b m : b < W64 -> m < W64 -> follows (CSetDmaRange b m).
Proof.
  intros B M. unfold follows. cbn [call_prog]. unfold set_dma_range.
  destruct (is_valid_range b m) eqn:V; cbn [negb]; [|ret].
  destruct (is_dram_address G (N.lor b m)) eqn:DA; cbn [negb]; [|ret].
  assert (LO : N.lor b m = b + m).
  { apply (range_iff b m B M) in V. destruct V as (k & K & -> & A).
    pose proof (pow2_pos k) as PP. rewrite (N.div_mod b (2 ^ k)) by lia. rewrite A, N.add_0_r, N.mul_comm.
    apply lor_add_mul. lia. }
  rewrite LO in *. unfold is_dram_address in DA. pose proof (geo_D _ _ _ g) as GD.
  assert (N0 : 0 < n) by apply (n_pos G pb rb g).
  tas; [ret|].
  rewrite (wadd_small (b + m)) by lia.
  apply disc_bind. apply stripes_d with (lo := b).
  - intros a A. cbn. right. exists a. split; [lia|reflexivity].
  - cbn. auto.
  - lia.
  - lia.
  - cbn. intros r [<-|[]]. reflexivity.
  - intros d' x T F. cbn [taken failed fst snd] in T, F.
    dop. intros _. dop. intros _. dop. intros _. dop. intros _.
    apply disc_bind, (d_clr G pb rb g c HC); [assumption|]. rewrite T. ret.
  - intros d' T F. cbn [taken failed fst snd] in T, F.
    apply disc_bind, (d_clr G pb rb g c HC); [assumption|]. rewrite T. apply d_ret.
    split; [intros _ _; exact F|cbn; tauto].
Qed.
Lemma d_meta (ab : N -> Prop) (tw od : Prop) id d (Q : locks -> N * N -> Prop) : ab (region_of pb rb id) ->
  taken d = [] -> (od -> failed d = false /\ freed d = false) ->
  (forall v r, v <> 0 -> v <> 3 -> forall f, Q ([], failed d, f) (v, r)) ->
  (forall r, Q ([], true, freed d) (3, r)) ->
  (meta_addr G pb rb id -> Q ([region_of pb rb id], failed d, freed d) (0, region_of pb rb id)) ->
  disc G c ab tw od (lock_metadata_region_for G id) d Q.
Proof.
  intros AB TK OD QV Q3 Q0. unfold lock_metadata_region_for.
  destruct d as [[t f] fr]. cbn [taken failed freed fst snd] in *. subst t.
  destruct (is_page_aligned id) eqn:PA; cbn [negb orb]; [|apply d_ret; apply QV; discriminate].
  destruct (is_dram_address G id) eqn:DA; cbn [negb]; [|apply d_ret; apply QV; discriminate].
  rewrite (region_for_spec G pb rb g). set (r := region_of pb rb id) in *.
  assert (R : r < n) by apply (region_lt' G pb rb g).
  apply disc_bind, (d_tas G pb rb g c HC); [assumption|assumption|cbn; tauto| | |]; cbn [taken failed freed fst snd].
  - intros X. destruct (OD X). repeat split; auto. cbn. tauto.
  - apply d_ret. apply Q3.
  - own. intros o _ O0. change metadata_enclave_id with 2.
    destruct (N.eqb_spec o 2) as [->|]; cbn [negb].
    + apply d_ret. apply Q0.
      assert (R0 : r <> 0) by (intros X; specialize (O0 X); discriminate).
      unfold is_dram_address in DA. pose proof (geo_D _ _ _ g). apply page_aligned_iff in PA.
      split; [exact R0|]. split; [lia|]. split; [apply (region_high G pb rb g); auto|]. unfold W64 in *. lia.
    + clr. apply d_ret. apply QV; discriminate.
Qed.
Lemma reserve_gives id m o t : gives (fun v => v <> 3) (reserve_metadata_pages G id m o t).
Proof.
  unfold reserve_metadata_pages, assign_metadata_pages. destruct (_ <? _); [discriminate|].
  apply gives_bind. intros pi.
  assert (E : forall k i, gives (fun v => v <> 3)
    (busy <- for_exit k i (fun i => v <- load64 (wadd pi (wmul 8 i)) ;;
       if v =? 0 then Ret None else Ret (Some monitor_invalid_state)) ;;
     match (busy : option N) with
     | Some e => Ret e
     | None => store64 pi (metadata_page_info o t) ;;
        for_n (N.to_nat (m - 1)) 0
          (fun i => store64 (wadd pi (wmul 8 i)) inner_metadata_page_type ;; Ret tt) ;;
        Ret monitor_ok
     end)).
  { induction k as [|k IH]; intros i; cbn [for_exit bind].
    - cbn. intros _. apply gives_bind. intros []. discriminate.
    - cbn. intros v. destruct (v =? 0); cbn; [apply IH|discriminate]. }
  apply E.
Qed.
Lemma f_create_enclave id a b m d : follows (CCreateEnclave id a b m d).
Proof.
  unfold follows. cbn [call_prog]. unfold create_enclave.
  destruct (negb (is_valid_range a b)); [ret|]. destruct (wadd b 1 <? page_size); [ret|].
  assert (R : region_of pb rb id < n) by apply (region_lt' G pb rb g).
  apply disc_bind, d_meta; auto; [reflexivity| | |].
  - intros v r V V3 f. change monitor_ok with 0. replace (v =? 0) with false by lia. cbn [negb]. apply d_ret.
    split; [intros X; contradiction|cbn; tauto].
  - intros r. change (3 =? monitor_ok) with false. cbn [negb]. ret.
  - intros (M1 & M2 & M3 & M4). change (0 =? monitor_ok) with true. cbn [negb failed freed fst snd].
    own. intros o _ _. destruct (o =? metadata_enclave_id); cbn [negb]; [|clr; ret].
    apply disc_bind. apply (d_gives _ _ _ (fun v => v <> 3)).
    { apply high_aside, (high_assign G pb rb g); auto. apply (info_pages_small G). }
    { apply reserve_gives. }
    intros v V. change monitor_ok with 0. destruct (N.eqb_spec v 0) as [->|]; cbn [negb].
    + daside; [apply high_aside, high_init_info; auto; lia|]. intros []. clr. ret.
    + clr. apply d_ret. split; [intros X; contradiction|cbn; tauto].
Qed.
Ltac badcall e := 
  rewrite ?(main_val G pb rb g);
  assert (R : main_region G pb rb e < n) by apply (main_lt G pb rb g);
  tas; [ret|]; apply disc_bind, d_bad; clr; ret.
Lemma f_load_page_table id p v l a : follows (CLoadPageTable id p v l a).
Proof.
  unfold follows. cbn [call_prog]. unfold load_page_table.
  destruct (negb _); [ret|]. destruct (negb _); [ret|]. destruct (_ <=? _); [ret|]. badcall id.
Qed.
Lemma f_load_page id p v o a : follows (CLoadPage id p v o a).
Proof.
  unfold follows. cbn [call_prog]. unfold load_page.
  destruct (_ || _); [ret|]. destruct (_ || _); [ret|]. badcall id.
Qed.
Lemma f_init id : follows (CInitEnclave id).
Proof. unfold follows. cbn [call_prog]. unfold init_enclave. badcall id. Qed.
Lemma f_enter id t : follows (CEnterEnclave id t).
Proof. unfold follows. cbn [call_prog]. unfold enter_enclave. badcall id. Qed.
Lemma f_delete id : follows (CDeleteEnclave id).
Proof. unfold follows. cbn [call_prog]. unfold delete_enclave. badcall id. Qed.
Lemma f_copy e ea oa rd : follows (CCopyDebugPage e ea oa rd).
Proof.
  unfold follows. cbn [call_prog]. unfold copy_debug_enclave_page.
  destruct (_ || _); [ret|]. destruct (_ || _); [ret|].
  rewrite ?(main_val G pb rb g), ?(region_for_spec G pb rb g).
  assert (R : main_region G pb rb e < n) by apply (main_lt G pb rb g).
  assert (Q : region_of pb rb oa < n) by apply (region_lt' G pb rb g).
  tas; [ret|].
  tas; [destruct X as [X|X]; [symmetry; exact X|contradiction]|destruct X as [<-|X]; [exact OR|contradiction]|clr; ret|].
  unfold read_dram_region_owner. own. intros o1 _ _. own. intros o2 _ _.
  daside.
  { unfold read_enclave_region_bitmap_bit, read_bitmap_bit. destruct (_ =? _); cbn; auto. }
  intros b. unfold load64 at 1. dop. intros dbg.
  match goal with |- context [if ?x =? monitor_ok then _ else Ret tt] => set (res := x) end.
  assert (RS : res <> 3).
  { unfold res. destruct (dbg =? 0); [discriminate|]. destruct (negb b); [discriminate|].
    destruct (negb _); [discriminate|]. destruct (negb _); discriminate. }
  clearbody res. daside.
  { destruct (res =? monitor_ok); [|exact Logic.I]. destruct rd; unfold bcopy64; apply uses_for_n; intros i; cbn; auto. }
  intros []. clr. clr. apply d_ret. split; [intros X; contradiction|cbn; tauto].
Qed.
Lemma span_aside fuel : forall a e r, uses (aside G) (thread_pages fuel G a e r).
Proof.
  induction fuel as [|k IH]; intros a e r; cbn [thread_pages]; destruct (a <? e); try exact Logic.I.
  destruct (negb _); [exact Logic.I|apply IH].
Qed.
Lemma f_delete_thread t : follows (CDeleteThread t).
Proof.
  unfold follows. cbn [call_prog]. unfold delete_thread.
  apply disc_bind, (d_cur G pb rb g c HC).
  assert (Q0 : dram_region_for G 0 = 0) by apply (region_for_0 G pb rb g). rewrite Q0.
  assert (N0 : 0 < n) by apply (n_pos G pb rb g).
  tas; [ret|]. apply d_ret. split; [discriminate|]. cbn. intros r [<-|[]]. auto.
Qed.
Lemma f_create_thread t a : follows (CCreateThread t a).
Proof.
  unfold follows. cbn [call_prog]. unfold create_thread.
  destruct (negb _); [ret|]. destruct (negb _); [ret|]. destruct (negb _); [ret|].
  apply disc_bind, (d_cur G pb rb g c HC).
  assert (Q0 : dram_region_for G 0 = 0) by apply (region_for_0 G pb rb g). rewrite Q0.
  assert (N0 : 0 < n) by apply (n_pos G pb rb g).
  tas; [ret|].
  daside; [unfold read_bitmap_bit; cbn; auto|]. intros b. destruct (negb b); [clr; ret|].
  daside; [apply span_aside|]. intros sp. destruct sp; [clr; ret|].
  apply d_ret. split; [discriminate|]. cbn. intros r [<-|[]]. auto.
Qed.
Lemma d_lock_enclave (ab : N -> Prop) (tw od : Prop) id d (Q : locks -> N -> Prop) :
  ab (region_of pb rb id) -> (od -> False) -> taken d = [] ->
  (forall v d', taken d' = [] -> (v = 0 -> meta_addr G pb rb id) -> Q d' v) ->
  disc G c ab tw od (lock_enclave G id) d Q.
Proof.
  intros AB NO TK QQ. unfold lock_enclave.
  assert (R : region_of pb rb id < n) by apply (region_lt' G pb rb g).
  destruct (is_dram_address G id) eqn:DA; cbn [negb orb]; [|apply d_ret; apply QQ; [exact TK|discriminate]].
  destruct (is_page_aligned id) eqn:PA; cbn [negb]; [|apply d_ret; apply QQ; [exact TK|discriminate]].
  apply disc_bind, d_meta; auto; [tauto| | |].
  - intros v r V V3 f. change monitor_ok with 0. replace (v =? 0) with false by lia. cbn [negb]. apply d_ret.
    apply QQ; [reflexivity|intros X; contradiction].
  - intros r. change (3 =? monitor_ok) with false. cbn [negb]. apply d_ret. apply QQ; [reflexivity|discriminate].
  - intros MA. change (0 =? monitor_ok) with true. cbn [negb].
    daside.
    { unfold metadata_page_info_for, dram_region_page_for, ub_if. destruct (_ <=? _); cbn; auto. }
    intros pi. unfold load64 at 1. dop. intros v. apply disc_bind. destruct (negb _).
    + apply d_ret. clr. apply d_ret. apply QQ; auto.
    + apply disc_bind, d_op.
      { cbn. apply (region_at_high G pb rb g). destruct MA as (M1 & M2 & M3 & M4).
        change ei_lock with 0. rewrite wadd_small by lia. lia. }
      intros t. apply d_ret. clr. apply d_ret. apply QQ; auto.
Qed.
Lemma d_unlock (ab : N -> Prop) (tw od : Prop) id d (Q : locks -> unit -> Prop) :
  meta_addr G pb rb id -> Q d tt -> disc G c ab tw od (unlock_enclave id) d Q.
Proof.
  intros (M1 & M2 & M3 & M4) H. unfold unlock_enclave. apply disc_bind, d_op; [|intros _; exact H].
  cbn. apply (region_at_high G pb rb g). change ei_lock with 0. rewrite wadd_small by lia. lia.
Qed.
Lemma f_assign_thread id t : follows (CAssignThread id t).
Proof.
  unfold follows. cbn [call_prog]. unfold assign_thread.
  assert (EN : forall v d, taken d = [] -> ended (CAssignThread id t) d v).
  { intros v d T. split; [discriminate|]. rewrite T. cbn. tauto. }
  assert (R : region_of pb rb t < n) by apply (region_lt' G pb rb g).
  apply disc_bind, d_lock_enclave; [cbn; auto|cbn; auto|reflexivity|].
  intros v d T MA. change monitor_ok with 0. destruct (N.eqb_spec v 0) as [V|]; cbn [negb]; [|apply d_ret; apply EN; exact T].
  specialize (MA V). clear v V. apply disc_bind, d_meta; [cbn; auto|exact T|cbn; tauto| | |].
  - intros v r V V3 f. replace (v =? 0) with false by lia. cbn [negb].
    apply disc_bind, d_unlock; auto. apply d_ret, EN. reflexivity.
  - intros r. change (3 =? 0) with false. cbn [negb].
    apply disc_bind, d_unlock; auto. apply d_ret, EN. reflexivity.
  - intros MT. change (0 =? 0) with true. cbn [negb]. destruct MA as (M1 & M2 & M3 & M4).
    unfold load64 at 1. dop. intros init. daside.
    { destruct (negb _); [|exact Logic.I]. apply high_aside, (high_assign G pb rb g); auto. apply thread_pages_small. }
    intros v. destruct (v =? 0); cbn [negb].
    + unfold load64, store64. dop. intros tc. dop. intros _. clr. apply disc_bind, d_unlock; [split; auto|].
      apply d_ret, EN. reflexivity.
    + clr. apply disc_bind, d_unlock; [split; auto|]. apply d_ret, EN. reflexivity.
Qed.
Lemma f_load_thread id t e1 e2 e3 e4 : follows (CLoadThread id t e1 e2 e3 e4).
Proof.
  unfold follows. cbn [call_prog]. unfold load_thread.
  assert (EN : forall v d, taken d = [] -> ended (CLoadThread id t e1 e2 e3 e4) d v).
  { intros v d T. split; [discriminate|]. rewrite T. cbn. tauto. }
  assert (R : region_of pb rb t < n) by apply (region_lt' G pb rb g).
  apply disc_bind, d_lock_enclave; [cbn; auto|cbn; auto|reflexivity|].
  intros v d T MA. change monitor_ok with 0. destruct (N.eqb_spec v 0) as [V|]; cbn [negb]; [|apply d_ret; apply EN; exact T].
  specialize (MA V). clear v V. apply disc_bind, d_meta; [cbn; auto|exact T|cbn; tauto| | |].
  - intros v r V V3 f. replace (v =? 0) with false by lia. cbn [negb].
    apply disc_bind, d_unlock; auto. apply d_ret, EN. reflexivity.
  - intros r. change (3 =? 0) with false. cbn [negb].
    apply disc_bind, d_unlock; auto. apply d_ret, EN. reflexivity.
  - intros MT. change (0 =? 0) with true. cbn [negb]. destruct MA as (M1 & M2 & M3 & M4).
    destruct MT as (N1 & N2 & N3 & N4).
    unfold load64 at 1. dop. intros init. daside.
    { destruct (negb _); [exact Logic.I|]. cbn [bind load64 op1 uses]. split; [exact Logic.I|]. intros ep.
      destruct (_ =? _); [exact Logic.I|]. apply high_aside, (high_assign G pb rb g); auto. apply thread_pages_small. }
    intros v. destruct (v =? 0); cbn [negb].
    + unfold load64, store64. dop. intros tc. dop. intros _.
      apply disc_bind, d_op.
      { cbn. apply (region_at_high G pb rb g). change ti_lock with 0. rewrite wadd_small by lia. lia. }
      intros _. dop. intros _. dop. intros _. dop. intros _. dop. intros _. dop. intros ep. dop. intros _.
      daside; [apply high_aside, high_thread_hash; lia|]. intros []. clr. apply disc_bind, d_unlock; [split; auto|].
      apply d_ret, EN. reflexivity.
    + clr. apply disc_bind, d_unlock; [split; auto|]. apply d_ret, EN. reflexivity.
Qed.
Lemma follows_all k : safe_call G k -> call_args_ok k -> follows k.
Proof.
  destruct k; cbn [call_args_ok]; intros S A.
  - apply f_block.
  - apply f_check.
  - apply f_state.
  - apply f_owner.
  - apply f_dma; apply A.
  - apply f_create.
  - apply f_assign.
  - apply f_free.
  - apply f_flush.
  - apply f_create_enclave.
  - apply f_load_page_table.
  - apply f_load_page.
  - apply f_load_thread.
  - apply f_assign_thread.
  - apply f_init.
  - apply f_enter.
  - apply f_delete.
  - apply f_copy.
  - destruct S.
  - apply f_create_thread.
  - apply f_delete_thread.
  - apply f_exit.
Qed.
End Calls.
