(** * set_dma_range and create_enclave over every machine state.

    Like SpecContract.v; the results are relations here because the conditions on
    ranges are propositions. *)
From Coq Require Import NArith Bool List.
From Verif Require Import Word Machine ModelInl ModelApi SpecGeometry SpecMonitor SpecMetadata
  SpecContract.
Import ListNotations.
Open Scope N_scope.

(** ** set_dma_range *)
(** An aligned power-of-two range inside DRAM. *)
Definition dma_range_ok (G : globals) (base mask : N) : Prop :=
  pow2_range base mask /\ base + mask < g_dram_size G.
(** The lock of region 0, or that of a region with a page at [base], [base] + one
    stripe, [base] + two stripes, ..., inside the range. *)
Definition dma_range_busy (G : globals) (pb rb : N) (s : state) (base mask : N) : Prop :=
  is_locked G s 0 = true \/
  exists k, k * 2 ^ (12 + pb) <= mask /\
    is_locked G s (region_of pb rb (base + k * 2 ^ (12 + pb))) = true.
Definition set_dma_result (G : globals) (pb rb : N) (s : state) (base mask v : N) : Prop :=
  (~ dma_range_ok G base mask /\ v = 1) \/
  (dma_range_ok G base mask /\ dma_range_busy G pb rb s base mask /\ v = 3) \/
  (dma_range_ok G base mask /\ ~ dma_range_busy G pb rb s base mask /\ v = 0).

(** ** create_enclave *)
(** An aligned power-of-two range of virtual addresses, of at least a page and less
    than the address space. *)
Definition enclave_range_ok (base mask : N) : Prop :=
  pow2_range base mask /\ 4096 <= mask + 1 < 2 ^ 64.
(** The entry of the [j]-th page after that of [a]. *)
Definition entry_after (pb rb : N) (s : state) (a j : N) : N :=
  word s (map_entry pb rb a + 8 * j).
Definition create_enclave_result (G : globals) (pb rb : N) (s : state) (id base mask mc v : N) : Prop :=
  let k := record_pages (g_dram_region_count G) mc in
  let m := meta_code G pb rb s id in
  (~ enclave_range_ok base mask /\ v = 1) \/
  (enclave_range_ok base mask /\ m <> 0 /\ v = m) \/
  (enclave_range_ok base mask /\ m = 0 /\ 2 ^ pb < page_of pb id + k /\ v = 1) \/
  (enclave_range_ok base mask /\ m = 0 /\ page_of pb id + k <= 2 ^ pb /\
   (exists j, j < k /\ entry_after pb rb s id j <> 0) /\ v = 2) \/
  (enclave_range_ok base mask /\ m = 0 /\ page_of pb id + k <= 2 ^ pb /\
   (forall j, j < k -> entry_after pb rb s id j = 0) /\ v = 0).
