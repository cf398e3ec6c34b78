(** * Which bytes of physical memory a machine operation reads or writes. *)
From Coq Require Import NArith.
From Verif Require Import Word Machine ModelInl ModelApi.
Open Scope N_scope.

(** [W]: the width of the bitmap registers in words; loading one reads [W] words. *)
Definition accesses (W : N) (o : op) (a : N) : Prop :=
  match o with
  | OLd n b | OSt n b _ => b <= a < b + N.of_nat n
  | OTas b | OClr b | OFadd b _ => b <= a < b + 8
  | OSetDrb b | OSetEdrb b => b <= a < b + 8 * W
  | _ => False
  end.

(** Calls whose identifiers lie in the first stripe of a region
    (copy_debug_enclave_page: whose enclave record lies in DRAM). *)
Definition near_call (G : globals) (pb rb : N) (k : call) : Prop :=
  match k with
  | CCreateEnclave id _ _ _ _ | CAssignThread id _ | CLoadThread id _ _ _ _ _ =>
      id < 2 ^ (12 + pb + rb)
  | CCopyDebugPage id _ _ _ =>
      id + 304 + 8 * g_dram_region_bitmap_words G <= g_dram_size G
  | _ => True
  end.
