(** * Properties of whole histories and of all calls at once. *)
From Coq Require Import NArith Bool List.
From Verif Require Import Word Machine ModelInl ModelApi SpecGeometry SpecMonitor SpecHistory.
Import ListNotations.
Open Scope N_scope.

(** The events that are calls about DRAM regions. *)
Definition region_call (x : event * N) : bool :=
  match fst x with
  | ECall _ (CBlock _) | ECall _ (CCheckOwnership _) | ECall _ (CRegionState _)
  | ECall _ (CRegionOwner _) | ECall _ (CSetDmaRange _ _)
  | ECall _ (CCreateMetadataRegion _) | ECall _ (CAssign _ _) | ECall _ (CFree _)
  | ECall _ CFlush => true
  | _ => false
  end.
(** A successful create_thread or delete_thread (they leave region 0 locked). *)
Definition ok_thread_call (x : event * N) : bool :=
  match x with
  | (ECall _ (CCreateThread _ _), 0) | (ECall _ (CDeleteThread _), 0) => true
  | _ => false
  end.

(** Two states agree on all that the monitor records about regions and cores, and on
    the access control registers. *)
Record same_accounting (G : globals) (s s' : state) : Prop := mkSameAccounting {
  sa_lock : forall r, r < g_dram_region_count G -> lock_of G s r = lock_of G s' r;
  sa_owner : forall r, r < g_dram_region_count G -> owner_of G s r = owner_of G s' r;
  sa_pinned : forall r, r < g_dram_region_count G -> pinned_of G s r = pinned_of G s' r;
  sa_blocked : forall r, r < g_dram_region_count G ->
    blocked_at_of G s r = blocked_at_of G s' r;
  sa_clock : clock_of G s = clock_of G s';
  sa_enclave : forall c, c < g_core_count G -> enclave_of G s c = enclave_of G s' c;
  sa_flushed : forall c, c < g_core_count G -> flushed_of G s c = flushed_of G s' c;
  sa_bit : forall r, r < g_dram_region_count G -> os_bit G s r = os_bit G s' r;
  sa_access : forall c r, c < g_core_count G -> r < g_dram_region_count G ->
    drb_bit (s_cores s c) r = drb_bit (s_cores s' c) r;
  sa_dma_start : s_dma_start s = s_dma_start s';
  sa_dma_end : s_dma_end s = s_dma_end s';
  sa_window : forall a, a < W64 -> (dma_may_access s a <-> dma_may_access s' a) }.

(** The calls by which the OS gets region [r] back: flushes, free, assign to the OS. *)
Definition reclaims (c r : N) (x : event * N) : Prop :=
  (exists c', x = (ECall c' CFlush, 0)) \/
  x = (ECall c (CFree r), 0) \/ x = (ECall c (CAssign r 0), 0).

(** A successful call that moves a region from or to the OS, or moves the DMA range. *)
Definition ok_move (x : event * N) : bool :=
  match x with
  | (ECall _ (CBlock _), 0) | (ECall _ (CAssign _ _), 0) | (ECall _ (CSetDmaRange _ _), 0) => true
  | _ => false
  end.

(** The results documented for each call (public/api.h): dram_region_state_t for
    dram_region_state, an identifier for dram_region_owner, otherwise an api_result_t.
    monitor_unsupported (5) only where a call documents it (none but the thread calls
    do); access_denied / async_exit (4) only from block_dram_region. *)
Definition documented_result (k : call) (v : N) : Prop :=
  match k with
  | CRegionOwner _ => True
  | CRegionState _ => v <= 4
  | CBlock _ => v <= 4
  | CCreateThread _ _ => v <= 3 \/ v = 5
  | CFlush | CExitEnclave => v = 0
  | _ => v <= 3
  end.

(** The hardware a call may operate, apart from memory: set_dma_range the DMA range,
    flush_cached_dram_regions the TLB, block_dram_region and assign_dram_region the region
    bitmap registers. No call writes PARBASE, PARMASK or the cache index shift.  Undefined
    behaviour (a shift by too many bits, OUb) is possible only in the calls that look up
    a page of a metadata region. *)
Definition operates (k : call) (o : op) : Prop :=
  match o with
  | OFlushTlb => k = CFlush
  | OSetDrb _ => (exists r, k = CBlock r) \/ (exists r e, k = CAssign r e)
  | OSetEdrb _ => exists r, k = CBlock r
  | OSetDmarBase _ | OSetDmarMask _ | OSetDmaStart _ | OSetDmaEnd _ =>
      exists b m, k = CSetDmaRange b m
  | OGetDmaStart | OGetDmaEnd => exists r, k = CBlock r
  | OSetShift _ | OSetParBase _ | OSetParMask _ => False
  | OUb _ =>
      match k with
      | CCreateEnclave _ _ _ _ _ | CAssignThread _ _ | CLoadThread _ _ _ _ _ _
      | CAcceptThread _ _ => True
      | _ => False
      end
  | _ => True
  end.

(** What call [k] on core [c] does to the hardware apart from memory. *)
Record hardware_of (c : N) (k : call) (s s' : state) : Prop := mkHardware {
  hw_others : forall i, i <> c -> s_cores s' i = s_cores s i;
  hw_protected : r_par_base (s_cores s' c) = r_par_base (s_cores s c) /\
    r_par_mask (s_cores s' c) = r_par_mask (s_cores s c);
  hw_shift : r_cache_shift (s_cores s' c) = r_cache_shift (s_cores s c);
  hw_words : s_words s' = s_words s;
  hw_tlb : k <> CFlush -> r_tlb_flushes (s_cores s' c) = r_tlb_flushes (s_cores s c);
  hw_drb : (forall r, k <> CBlock r) -> (forall r e, k <> CAssign r e) ->
    r_drb (s_cores s' c) = r_drb (s_cores s c);
  hw_edrb : (forall r, k <> CBlock r) -> r_edrb (s_cores s' c) = r_edrb (s_cores s c);
  hw_dma : (forall b m, k <> CSetDmaRange b m) ->
    s_dmar_base s' = s_dmar_base s /\ s_dmar_mask s' = s_dmar_mask s /\
    s_dma_start s' = s_dma_start s /\ s_dma_end s' = s_dma_end s }.

(** The calls that compute the page index of an address. *)
Definition looks_up_page (k : call) : bool :=
  match k with
  | CCreateEnclave _ _ _ _ _ | CAssignThread _ _ | CLoadThread _ _ _ _ _ _
  | CAcceptThread _ _ => true
  | _ => false
  end.
