(** * What an enclave measurement commits to (independent of the code).

    A load history is a list of operations; each is encoded as one 64-byte block
    of eight little-endian 64-bit words, followed by the page contents for a
    page; the measurement is SHA-256 of the concatenation, ended by a block
    that marks the initialisation. *)
From Coq Require Import NArith List.
From Verif Require Import SpecSha256.
Import ListNotations.
Open Scope N_scope.

Inductive load_op : Type :=
| LoadPageTable (virtual_addr level acl : N)
| LoadPage (virtual_addr acl : N) (contents : list N)
| LoadThread (entry_pc entry_stack fault_pc fault_stack : N).

Record load_history := mkHistory {
  lh_base : N; lh_mask : N; lh_mailboxes : N; lh_debug : bool;
  lh_ops : list load_op }.

Definition le64 (x : N) : list N :=
  map (fun i => (x / 2 ^ (8 * i)) mod 256) [0; 1; 2; 3; 4; 5; 6; 7].
Definition block (ws : list N) : list N := flat_map le64 ws.

Definition enc_create (h : load_history) : list N :=
  block [0xAAAAAAAA; lh_base h; lh_mask h; 0; 0; lh_mailboxes h;
         if lh_debug h then 1 else 0; 0].
Definition enc_op (o : load_op) : list N :=
  match o with
  | LoadPageTable va level acl => block [0xBBBBBBBB; va; acl; 0; 0; level; 0; 0]
  | LoadPage va acl contents =>
      block [0xCCCCCCCC; va; acl; 0; 0; 0; 0; 0] ++ contents
  | LoadThread pc sp fpc fsp => block [0xDDDDDDDD; pc; sp; fpc; fsp; 0; 0; 0]
  end.
Definition enc_final : list N := block [0xEEEEEEEE; 0; 0; 0; 0; 0; 0; 0].

Definition enc_loaded (h : load_history) : list N :=
  enc_create h ++ flat_map enc_op (lh_ops h).
Definition encode (h : load_history) : list N := enc_loaded h ++ enc_final.

Definition measurement (h : load_history) : list N := sha256 (encode h).

(** Argument values are 64-bit, page contents are 4096 bytes. *)
Definition op_ok (o : load_op) : Prop :=
  match o with
  | LoadPageTable va level acl => va < 2 ^ 64 /\ level < 2 ^ 64 /\ acl < 2 ^ 64
  | LoadPage va acl contents => va < 2 ^ 64 /\ acl < 2 ^ 64 /\
      length contents = 4096%nat /\ Forall (fun b => b < 256) contents
  | LoadThread a b c d =>
      a < 2 ^ 64 /\ b < 2 ^ 64 /\ c < 2 ^ 64 /\ d < 2 ^ 64
  end.
Definition history_ok (h : load_history) : Prop :=
  lh_base h < 2 ^ 64 /\ lh_mask h < 2 ^ 64 /\ lh_mailboxes h < 2 ^ 64 /\
  Forall op_ok (lh_ops h).
