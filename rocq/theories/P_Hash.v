(** * Properties C10 - C14: SHA-256 and enclave measurement. *)
From Coq Require Import NArith ZArith Lia Bool List.
From Verif Require Import Word Machine ModelBare ModelHash ModelInl Lib BareProofs
  SpecSha256 HashProofs SpecMeasure MeasureProofs.
Import ListNotations.
Open Scope N_scope.

Lemma surjective_pairing' {A B} (p : A * option B) x : snd p = Some x -> p = (fst p, Some x).
Proof. destruct p; cbn. intros ->. reflexivity. Qed.

(** ** C10. [session c state s msg] (HashProofs.v) says that the machine reached
    [s] by init_hash on [state], then extend_hash with blocks whose contents
    concatenate to [msg], with any other activity outside the 160 bytes of the
    state in between.  [hash_words m state] are the eight 32-bit words at
    [state]; [sha256] is SpecSha256.v. *)

(** Messages shorter than 2^32 bits: the digest is SHA-256. *)
Theorem C10_sha256_partial : forall c state s msg,
  state + 160 <= 2 ^ 64 -> session c state s msg ->
  8 * N.of_nat (length msg) < 2 ^ 32 ->
  exists s', run c (finalize_hash state) s = (s', Some tt) /\
    hash_words (s_mem s') state = sha256 msg.
Proof.
  intros c state s msg H S L.
  destruct (session_length c state s msg H S) as [n N].
  destruct (finalize_run c state s msg H S) as [m [E [D _]]].
  exists (set_mem s m). split; [exact E|]. cbn [s_mem set_mem].
  rewrite D. unfold sha256_32, sha256. rewrite (pad32_pad msg n) by auto.
  reflexivity.
Qed.
Print Assumptions C10_sha256_partial.

(** Messages of any length: the digest is the SHA-256 iteration over the message
    padded with its bit length taken modulo 2^32.  What is missing from C10 is
    exactly the upper half of the length field. *)
Theorem C10_sha256_length_mod_partial : forall c state s msg,
  state + 160 <= 2 ^ 64 -> session c state s msg ->
  let l := 8 * N.of_nat (length msg) in
  let padded := msg ++ [0x80] ++ repeat 0 55 ++ be64 (l mod 2 ^ 32) in
  exists s', run c (finalize_hash state) s = (s', Some tt) /\
    hash_words (s_mem s') state = process (Nat.div (length padded) 64) H0 padded.
Proof.
  intros c state s msg H S. cbv zeta.
  destruct (finalize_run c state s msg H S) as [m [E [D _]]].
  exists (set_mem s m). split; [exact E|]. exact D.
Qed.
Print Assumptions C10_sha256_length_mod_partial.

(** From 2^32 bits on this is not the padding of FIPS 180-4. *)
Theorem C10_sha256_refuted : forall c state s msg,
  state + 160 <= 2 ^ 64 -> session c state s msg ->
  2 ^ 32 <= 8 * N.of_nat (length msg) < 2 ^ 64 ->
  let l := 8 * N.of_nat (length msg) in
  msg ++ [0x80] ++ repeat 0 55 ++ be64 (l mod 2 ^ 32) <> pad msg.
Proof.
  intros c state s msg H S L. cbv zeta.
  destruct (session_length c state s msg H S) as [n N].
  exact (pad32_differs msg n N L).
Qed.
Print Assumptions C10_sha256_refuted.

(** Sessions of every block count exist: the functions never fail. *)
Theorem C10_never_fails : forall c state s msg blk,
  state + 160 <= 2 ^ 64 -> blk + 64 <= 2 ^ 64 ->
  blk + 64 <= state \/ state + 160 <= blk -> session c state s msg ->
  exists s', run c (extend_hash state blk) s = (s', Some tt) /\
    session c state s' (msg ++ bytes_at (s_mem s) blk 64).
Proof.
  intros c state s msg blk H B D S.
  destruct (session_inv_extend c state s msg blk H B D
              (session_inv_holds c state s msg H S)) as [m [E _]].
  exists (set_mem s m). split; [exact E|].
  eapply session_extend; eauto.
Qed.
Print Assumptions C10_never_fails.

(** A zeroed machine with one block "0123..." at 4096; the state lives at 8192. *)
Definition ex_mem : mem := fun a => if (4096 <=? a) && (a <? 4160) then a - 4096 + 48 else 0.
Definition ex_regs : cregs := mkCregs (fun _ => 0) (fun _ => 0) 0 0 0 0.
Definition ex_state : Machine.state := mkState ex_mem (fun _ => ex_regs) 1 0 0 0 0 [].

Example C10_example :
  let s1 := fst (run 0 (init_hash 8192) ex_state) in
  let s2 := fst (run 0 (extend_hash 8192 4096) s1) in
  session 0 8192 s2 (map (fun i => N.of_nat i + 48) (seq 0 64)) /\
  session 0 8192 s1 [].
Proof.
  cbv zeta. split.
  - change (map (fun i => N.of_nat i + 48) (seq 0 64)) with
      ([] ++ map (fun i => N.of_nat i + 48) (seq 0 64)).
    replace (map (fun i => N.of_nat i + 48) (seq 0 64)) with
      (bytes_at (s_mem (fst (run 0 (init_hash 8192) ex_state))) 4096 64)
      by (vm_compute; reflexivity).
    eapply session_extend.
    + eapply session_init. apply surjective_pairing'.
      vm_compute. reflexivity.
    + vm_compute. discriminate.
    + left. vm_compute. discriminate.
    + apply surjective_pairing'. vm_compute. reflexivity.
  - eapply session_init. apply surjective_pairing'. vm_compute. reflexivity.
Qed.

(** ** C11 *)
Theorem C11_init_frame : forall c state s s' r, state + 160 <= 2 ^ 64 ->
  run c (init_hash state) s = (s', r) ->
  s' = set_mem s (s_mem s') /\
  forall b, b < state \/ state + 160 <= b -> s_mem s' b = s_mem s b.
Proof.
  intros c state s s' r H R.
  destruct (session_inv_init c state s H) as [m [E [_ F]]].
  rewrite E in R. inversion R; subst. auto.
Qed.
Print Assumptions C11_init_frame.

(** The block may be anywhere outside the hash words and the work area; in
    particular the padding block of the state itself, as finalize_hash uses it. *)
Theorem C11_extend_frame : forall c state blk s s' r,
  state + 160 <= 2 ^ 64 -> blk + 64 <= 2 ^ 64 ->
  blk + 64 <= state \/ state + 96 <= blk ->
  run c (extend_hash state blk) s = (s', r) ->
  s' = set_mem s (s_mem s') /\
  forall b, b < state \/ state + 160 <= b -> s_mem s' b = s_mem s b.
Proof.
  intros c state blk s s' r H B D R.
  destruct (extend_hash_run c s state blk H B D) as [m [E [_ [_ F]]]].
  rewrite E in R. inversion R; subst. split; [reflexivity|].
  intros b Hb. apply F. lia.
Qed.
Print Assumptions C11_extend_frame.

Theorem C11_finalize_frame : forall c state s s' r, state + 160 <= 2 ^ 64 ->
  run c (finalize_hash state) s = (s', r) ->
  s' = set_mem s (s_mem s') /\
  forall b, b < state \/ state + 160 <= b -> s_mem s' b = s_mem s b.
Proof.
  intros c state s s' r H R. unfold finalize_hash in R.
  change hs_padding with 96 in R.
  rewrite wadd_small in R by (change (2 ^ 64) with W64 in H; lia).
  eapply C11_extend_frame in R; eauto; change (2 ^ 64) with W64 in *; lia.
Qed.
Print Assumptions C11_finalize_frame.

Example C11_example :
  let s' := fst (run 0 (init_hash 8192) ex_state) in
  s_mem s' 8192 <> s_mem ex_state 8192 /\ s_mem s' 4096 = 48.
Proof. vm_compute. split; [discriminate|reflexivity]. Qed.

(** ** C12. [measured c ei s h] (MeasureProofs.v): the machine reached [s] by the
    measurement of the creation and of the load operations recorded in the
    history [h], for the enclave record at [ei].  [measurement h] is SHA-256 of
    the encoding of [h] (SpecMeasure.v). *)
Theorem C12_measurement_partial : forall c ei s h, ei + 304 <= 2 ^ 64 ->
  measured c ei s h ->
  8 * N.of_nat (length (encode h)) < 2 ^ 32 ->
  exists s', run c (finalize_enclave_hash ei) s = (s', Some tt) /\
    words_at (s_mem s') (ei + 80) 8 = measurement h /\
    forall b, b < ei + 80 \/ ei + 304 <= b -> s_mem s' b = s_mem s b.
Proof.
  intros c ei s h H M L. pose proof (measured_inv c ei s h H M) as I.
  destruct (measure_finalize_run c ei H s _ I) as [m [E [W [F _]]]].
  exists (set_mem s m). split; [exact E|]. cbn [s_mem set_mem].
  split; [|exact F].
  change (words_at m (ei + 80) 8) with (hash_words m (ei + 80)). rewrite W.
  fold (encode h). unfold measurement, sha256, sha256_32.
  destruct I as [[n [N _]] _].
  rewrite (pad32_pad (encode h) (n + 1)); auto.
  unfold encode. rewrite app_length, N. change (length enc_final) with 64%nat. lia.
Qed.
Print Assumptions C12_measurement_partial.

(** Histories of 2^32 bits or more: as C10, only the length field of the padding
    differs. *)
Theorem C12_measurement_length_mod_partial : forall c ei s h, ei + 304 <= 2 ^ 64 ->
  measured c ei s h ->
  let l := 8 * N.of_nat (length (encode h)) in
  let padded := encode h ++ [0x80] ++ repeat 0 55 ++ be64 (l mod 2 ^ 32) in
  exists s', run c (finalize_enclave_hash ei) s = (s', Some tt) /\
    words_at (s_mem s') (ei + 80) 8 = process (Nat.div (length padded) 64) H0 padded.
Proof.
  intros c ei s h H M. pose proof (measured_inv c ei s h H M) as I.
  destruct (measure_finalize_run c ei H s _ I) as [m [E [W _]]].
  exists (set_mem s m). split; [exact E|]. exact W.
Qed.
Print Assumptions C12_measurement_length_mod_partial.

(** ** C13 *)
Theorem C13_encoding_injective : forall h h', history_ok h -> history_ok h' ->
  encode h = encode h' -> h = h'.
Proof. exact encode_inj. Qed.
Print Assumptions C13_encoding_injective.

(** Executions: if two enclaves were measured and their hashed byte strings are
    equal, then their histories are equal. *)
Theorem C13_measured_injective : forall c ei s h c' ei' s' h',
  measured c ei s h -> measured c' ei' s' h' -> encode h = encode h' -> h = h'.
Proof.
  intros. eapply encode_inj; eauto using measured_history_ok.
Qed.
Print Assumptions C13_measured_injective.

(** Equal measurements of different histories are a SHA-256 collision. *)
Theorem C13_equal_digest_collision : forall c ei s h c' ei' s' h' f f',
  ei + 304 <= 2 ^ 64 -> ei' + 304 <= 2 ^ 64 ->
  measured c ei s h -> measured c' ei' s' h' ->
  8 * N.of_nat (length (encode h)) < 2 ^ 32 ->
  8 * N.of_nat (length (encode h')) < 2 ^ 32 ->
  run c (finalize_enclave_hash ei) s = (f, Some tt) ->
  run c' (finalize_enclave_hash ei') s' = (f', Some tt) ->
  words_at (s_mem f) (ei + 80) 8 = words_at (s_mem f') (ei' + 80) 8 ->
  h = h' \/
  (encode h <> encode h' /\ sha256 (encode h) = sha256 (encode h')).
Proof.
  intros c ei s h c' ei' s' h' f f' H H' M M' L L' R R' E.
  destruct (C12_measurement_partial c ei s h H M L) as [g [G [W _]]].
  destruct (C12_measurement_partial c' ei' s' h' H' M' L') as [g' [G' [W' _]]].
  rewrite R in G. rewrite R' in G'. injection G as <-. injection G' as <-.
  rewrite W, W' in E. unfold measurement in E.
  destruct (list_eq_dec N.eq_dec (encode h) (encode h')) as [Q|Q].
  - left. eapply C13_measured_injective; eauto.
  - right. auto.
Qed.
Print Assumptions C13_equal_digest_collision.

(** Two real histories that differ only in one argument have different encodings. *)
Example C13_example :
  encode (mkHistory 0 0xfff 1 false [LoadPageTable 0 2 7; LoadThread 1 2 3 4]) <>
  encode (mkHistory 0 0xfff 1 false [LoadPageTable 0 2 7; LoadThread 1 2 3 5]).
Proof. vm_compute. discriminate. Qed.

(** ** C14 *)
Theorem C14_no_argument_leak : forall c ei s h, ei + 304 <= 2 ^ 64 ->
  measured c ei s h ->
  forall k, 1 <= k < 8 -> ld 8 (s_mem s) (ei + 240 + 8 * k) = 0.
Proof.
  intros c ei s h H M k K. destruct (measured_inv c ei s h H M) as [_ A].
  apply ld_zero. intros b B. apply A. change (N.of_nat 8) with 8 in B. lia.
Qed.
Print Assumptions C14_no_argument_leak.

(** The operations write nothing outside the measurement fields. *)
Theorem C14_measurement_frame : forall c ei s h, ei + 304 <= 2 ^ 64 ->
  measured c ei s h -> forall va level acl e1 e2 e3 e4 pa s',
  va < 2 ^ 64 -> level < 2 ^ 64 -> acl < 2 ^ 64 ->
  e1 < 2 ^ 64 -> e2 < 2 ^ 64 -> e3 < 2 ^ 64 -> e4 < 2 ^ 64 ->
  pa + 4096 <= 2 ^ 64 -> pa + 4096 <= ei + 80 \/ ei + 304 <= pa ->
  (run c (extend_enclave_hash_with_page_table ei va level acl) s = (s', Some tt) \/
   run c (extend_enclave_hash_with_page ei va acl pa) s = (s', Some tt) \/
   run c (extend_enclave_hash_with_thread ei e1 e2 e3 e4) s = (s', Some tt)) ->
  forall b, b < ei + 80 \/ ei + 304 <= b -> s_mem s' b = s_mem s b.
Proof.
  intros c ei s h H M va level acl e1 e2 e3 e4 pa s' B1 B2 B3 B4 B5 B6 B7 B8 D R.
  pose proof (measured_inv c ei s h H M) as I.
  destruct R as [R|[R|R]].
  - destruct (measure_page_table_run c ei H s _ va level acl B1 B2 B3 I) as [m [E [_ F]]].
    rewrite E in R. inversion R; subst. exact F.
  - destruct (measure_page_run c ei H s _ va acl pa B1 B3 I B8 D) as [m [E [_ F]]].
    rewrite E in R. inversion R; subst. exact F.
  - destruct (measure_thread_run c ei H s _ e1 e2 e3 e4 B4 B5 B6 B7 I) as [m [E [_ F]]].
    rewrite E in R. inversion R; subst. exact F.
Qed.
Print Assumptions C14_measurement_frame.

(** A concrete measured history: creation, a page table, a page, a thread. *)
Example C12_C14_example :
  exists s h, measured 0 8192 s h /\ length (lh_ops h) = 3%nat /\
    8 * N.of_nat (length (encode h)) < 2 ^ 32.
Proof.
  assert (HE : 8192 + 304 <= W64) by (vm_compute; discriminate).
  destruct (measure_create_run 0 8192 HE ex_state 0 0xfffff 1 true) as [m1 [E1 _]];
    try reflexivity.
  assert (M1 : measured 0 8192 (set_mem ex_state m1) (mkHistory 0 0xfffff 1 true []))
    by (eapply measured_create; [..|exact E1]; reflexivity).
  destruct (measure_page_table_run 0 8192 HE (set_mem ex_state m1) _ 0 2 7
    eq_refl eq_refl eq_refl (measured_inv _ _ _ _ HE M1)) as [m2 [E2 _]].
  eapply measured_page_table in M1; [..|exact E2]; try reflexivity.
  destruct (measure_page_run 0 8192 HE (set_mem (set_mem ex_state m1) m2) _ 4096 7 4096
    eq_refl eq_refl (measured_inv _ _ _ _ HE M1)) as [m3 [E3 _]];
    [vm_compute; discriminate|left; vm_compute; discriminate|].
  eapply measured_page in M1; [..|exact E3]; try reflexivity;
    [|vm_compute; discriminate|left; vm_compute; discriminate].
  destruct (measure_thread_run 0 8192 HE (set_mem (set_mem (set_mem ex_state m1) m2) m3)
    _ 1 2 3 4 eq_refl eq_refl eq_refl eq_refl (measured_inv _ _ _ _ HE M1)) as [m4 [E4 _]].
  eapply measured_thread in M1; [..|exact E4]; try reflexivity.
  eexists _, _. split; [exact M1|]. split; [reflexivity|].
  unfold encode. rewrite !app_length. unfold enc_loaded. rewrite app_length.
  cbn [lh_ops app flat_map enc_op]. rewrite !app_length, bytes_at_length.
  reflexivity.
Qed.
