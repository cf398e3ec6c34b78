(** * How many memory and register operations each call may take. *)
From Coq Require Import NArith List.
From Verif Require Import Word Machine ModelInl ModelApi SpecGeometry.
Import ListNotations.
Open Scope N_scope.

(** Pieces of [b] bytes needed to cover [a] bytes. *)
Definition pieces (a b : N) : N := (a + b - 1) / b.
(** Stores needed to zero a region, 8 bytes each: its part of each of the stripes of DRAM. *)
Definition wipe_stores (G : globals) (pb rb : N) : N :=
  pieces (g_dram_size G) (2 ^ (12 + pb + rb)) * (2 ^ (12 + pb) / 8).
(** At most this many operations: loads, stores, atomic operations, reads and writes of
    registers and TLB flushes; an undefined operation is counted as one.

    - the calls on one region: a constant, except that freeing reads the flush time of every
      core and turning a region into a metadata region zeroes its map (512 words per page);
    - set_dma_range: three per stripe of the range;
    - create_enclave: two per page that the record may have, and the measurement;
    - copy_debug_enclave_page: a load and a store for each word of the page;
    - init_enclave: two blocks of the hash;
    - delete_enclave: seven per region, and the wiping of all regions. *)
Definition most_operations (G : globals) (pb rb : N) (k : call) : N :=
  match k with
  | CBlock _ => 17
  | CCheckOwnership _ => 5
  | CRegionState _ | CRegionOwner _ => 3
  | CSetDmaRange _ mask => 6 + 3 * pieces (mask + 1) (2 ^ (12 + pb))
  | CCreateMetadataRegion _ => 5 + 512 * g_metadata_region_start G
  | CAssign _ _ => 10
  | CFree _ => 5 + g_core_count G
  | CFlush => 4
  | CCreateEnclave _ _ _ _ _ => 348 + 2 * 2 ^ pb
  | CLoadPageTable _ _ _ _ _ | CLoadPage _ _ _ _ _ => 7
  | CLoadThread _ _ _ _ _ _ => 333
  | CAssignThread _ _ => 18
  | CInitEnclave _ => 602
  | CEnterEnclave _ _ => 4
  | CDeleteEnclave _ => 5 + g_dram_region_count G * (7 + wipe_stores G pb rb)
  | CCopyDebugPage _ _ _ _ => 1032
  | CAcceptThread _ _ => 21
  | CCreateThread _ _ => 5
  | CDeleteThread _ => 3
  | CExitEnclave => 4
  end.

(** The calls whose loops end. set_dma_range steps through its range by stripes, delete_enclave
    through DRAM by rounds of stripes, and either loop runs forever once its address passes the
    end of the 64-bit address space before the end of the loop: for set_dma_range a range shorter
    than a stripe within the last stripe below 2^64, for delete_enclave DRAM that reaches into
    the last round. *)
Definition loop_ends (G : globals) (pb rb : N) (k : call) : Prop :=
  match k with
  | CSetDmaRange base mask =>
      base + 2 ^ (12 + pb) < 2 ^ 64 \/ 2 ^ (12 + pb) <= mask + 1 \/
      g_dram_size G <= base + mask
  | CDeleteEnclave _ => g_dram_size G + 2 ^ (12 + pb + rb) <= 2 ^ 64
  | _ => True
  end.
