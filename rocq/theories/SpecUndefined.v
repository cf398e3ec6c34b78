(** * When a call executes undefined behaviour.

    The only undefined operation in the code of the calls is the shift by a negative amount in
    dram_region_page_for (C18, C69).  The machine logs it in [s_ub]. *)
From Coq Require Import NArith Bool List.
From Verif Require Import Word Machine ModelInl ModelApi SpecGeometry SpecMonitor SpecMetadata
  SpecContract SpecContract2 SpecContract3 SpecContract5 SpecContract6.
Open Scope N_scope.

(** The call logs something, in other words executes an undefined operation. *)
Definition executes_undefined (G : globals) (c : N) (k : call) (s : state) : Prop :=
  s_ub (fst (do_call G c k s)) <> s_ub s.
(** create_enclave: a valid range, an unlocked metadata region (C71), room for the record;
    assign_thread and load_thread: the identifier lies in an unlocked metadata region;
    accept_thread: the checks before the map is read (C78); no other call. *)
Definition undefined_for (G : globals) (pb rb : N) (s : state) (c : N) (k : call) : Prop :=
  match k with
  | CCreateEnclave id base mask mc _ =>
      enclave_range_ok base mask /\ meta_code G pb rb s id = 0 /\
      page_of pb id + used_pages (g_dram_region_count G) mc <= 2 ^ pb
  | CAssignThread id _ | CLoadThread id _ _ _ _ _ => meta_code G pb rb s id = 0
  | CAcceptThread t a =>
      let s1 := accept_taken G s a in
      in_dram_page G a = true /\ word s (accept_word G a) = 0 /\
      owner_of G s1 (region_of pb rb a) = enclave_of G s c /\
      lock_of G s1 (own_region G pb rb s c) = 0
  | _ => False
  end.
