(** * Histories: a machine that booted, then API calls on any core, memory writes
    by the OS and DMA writes by devices, one after the other. *)
From Coq Require Import NArith Bool List.
From Verif Require Import Word Machine ModelInl ModelBoot ModelApi BootProofs
  SpecGeometry SpecMonitor.
Import ListNotations.
Open Scope N_scope.

(** The machine right after a boot on a supported platform by core [c].  The
    hypotheses on the machine before the boot are those boot_init leaves to
    others: a zeroed core table (its initialisation is missing in boot_init.cc),
    the other cores' protected range registers (boot sets only those of the
    booting core), and access registers as wide as the region bitmap. The last
    hypothesis excludes DRAM that ends within a stripe of 2^64, for which
    set_dma_range need not end. *)
Record started (P : platform) (top pb rb : N) (G : globals) (s : state) : Prop :=
mkStarted {
  st_supported : supported P top pb rb;
  st_dram : p_dram_size P + 2 ^ (12 + pb) <= W64;
  st_boot : exists c s0, c < p_core_count P /\
    run c (boot_from P top) s0 = (s, Some G) /\
    (forall b, top <= b < top + 32 * p_core_count P -> s_mem s0 b mod 256 = 0) /\
    (forall c' a, c' < p_core_count P -> c' <> c -> a < g_monitor_top G ->
       N.land a (r_par_mask (s_cores s0 c')) = r_par_base (s_cores s0 c')) /\
    (2 ^ rb + 63) / 64 <= s_words s0 }.

Inductive event :=
| ECall (c : N) (k : call)   (* core c makes an API call *)
| EStore (c a v : N)         (* the OS on core c stores byte v at a *)
| EDma (a v : N).            (* a device stores byte v at a *)

(** Calls excluded from interleavings: accept_thread writes outside its own
    structures and releases locks it does not hold (C49), and with enclave_id = 0 copy_debug_enclave_page can write
    to the monitor (C48). *)
Definition safe_call (G : globals) (k : call) : Prop :=
  match k with
  | CAcceptThread _ _ => False
  | CCopyDebugPage 0 ea _ false => g_monitor_top G <= ea
  | _ => True
  end.

(** In histories, accept_thread is excluded only where it can write to the monitor's memory:
    if its argument block is a page of region 0, or so high up that the word taken for its
    lock (C49) wraps around the address space, or if the identifier of the thread (which
    it does not check) is in region 0 or at the end of the address space. *)
Definition seq_call (G : globals) (pb rb : N) (k : call) : Prop :=
  match k with
  | CAcceptThread t a => a < g_dram_size G /\ a mod 4096 = 0 ->
      region_of pb rb a <> 0 /\ g_dram_region G + 40 * a + 8 <= W64 /\
      region_of pb rb t <> 0 /\ t + 48 <= W64
  | _ => safe_call G k
  end.

(** One event and its result (0 for a store). Device writes to the monitor are
    excluded (set_dma_range does not prevent them, see C33). *)
Inductive estep (G : globals) (pb rb : N) : state -> event -> N -> state -> Prop :=
| es_call s c k v s' : c < g_core_count G -> call_args_ok k -> seq_call G pb rb k ->
    do_call G c k s = (s', Some v) -> estep G pb rb s (ECall c k) v s'
| es_store s c a v : c < g_core_count G -> a < W64 ->
    cpu_may_access pb rb (s_cores s c) a ->
    estep G pb rb s (EStore c a v) 0 (set_mem s (st 1 (s_mem s) a v))
| es_dma s a v : a < W64 -> dma_may_access s a -> g_monitor_top G <= a ->
    estep G pb rb s (EDma a v) 0 (set_mem s (st 1 (s_mem s) a v)).

Inductive history (G : globals) (pb rb : N) (s0 : state)
  : list (event * N) -> state -> Prop :=
| hist_nil : history G pb rb s0 [] s0
| hist_snoc h s e v s' : history G pb rb s0 h s -> estep G pb rb s e v s' ->
    history G pb rb s0 (h ++ [(e, v)]) s'.

(** ** The abstract machine *)

(** What the abstract machine does at an event with result [v]. *)
Definition effect (pb rb cores dram : N) (e : event) (v : N) (M M' : mstate) : Prop :=
  match e with
  | ECall c k =>
      match k with
      | CBlock r => (v, M') = block_table pb rb c r M
      | CCheckOwnership r => v = check_ownership_table rb r M /\ M' = M
      | CRegionState r => v = state_table rb r M /\ M' = M
      | CRegionOwner r => v = owner_table rb r M /\ M' = M
      | CSetDmaRange b m => dma_table dram b m v M M'
      | CCreateMetadataRegion r => (v, M') = create_metadata_table rb r M
      | CAssign r o => (v, M') = assign_table pb rb c r o M
      | CFree r => (v, M') = free_table rb cores r M
      | CFlush => v = ok /\ M' = m_flush M c
      | CExitEnclave => v = ok /\ M' = M
      | CCreateEnclave _ _ _ _ _ | CCopyDebugPage _ _ _ _ | CAcceptThread _ _ => M' = M
      | CLoadPageTable _ _ _ _ _ | CLoadPage _ _ _ _ _ | CInitEnclave _
      | CEnterEnclave _ _ | CDeleteEnclave _ | CLoadThread _ _ _ _ _ _
      | CAssignThread _ _ => v <> ok /\ M' = M
      | CCreateThread _ _ | CDeleteThread _ =>
          (v <> ok /\ M' = M) \/ (v = ok /\ m_stuck M = false /\ M' = m_stick M)
      end
  | EStore _ _ _ | EDma _ _ => M' = M
  end.

Inductive mhistory (pb rb cores dram : N) (M0 : mstate)
  : list (event * N) -> mstate -> Prop :=
| mh_nil : mhistory pb rb cores dram M0 [] M0
| mh_snoc h M e v M' : mhistory pb rb cores dram M0 h M ->
    effect pb rb cores dram e v M M' ->
    mhistory pb rb cores dram M0 (h ++ [(e, v)]) M'.

(** Right after boot everything belongs to the OS and nothing was blocked. *)
Definition boot_mstate (access : N -> N -> bool) (top : N) : mstate :=
  mkM (fun _ => OS) (fun _ => 0) 0 (fun _ => 0) access false top (top + 1).

(** ** Counting in histories *)
Definition ok_block (x : event * N) : bool :=
  match x with (ECall _ (CBlock _), 0) => true | _ => false end.
Definition ok_block_of (r : N) (x : event * N) : bool :=
  match x with (ECall _ (CBlock r'), 0) => r' =? r | _ => false end.
Definition ok_free_of (r : N) (x : event * N) : bool :=
  match x with (ECall _ (CFree r'), 0) => r' =? r | _ => false end.
Definition flush_by (c : N) (x : event * N) : bool :=
  match x with (ECall c' CFlush, _) => c' =? c | _ => false end.
(** A successful block made by a core other than [c]. *)
Definition ok_block_not_by (c : N) (x : event * N) : bool :=
  match x with (ECall c' (CBlock _), 0) => negb (c' =? c) | _ => false end.
(** Number of successful blocks. *)
Definition blocks (h : list (event * N)) : N := N.of_nat (length (filter ok_block h)).
Definition none (p : event * N -> bool) (h : list (event * N)) : Prop :=
  forall x, In x h -> p x = false.

(** States reached after boot. *)
Definition reachable (P : platform) (top pb rb : N) (G : globals) (s : state) : Prop :=
  exists s0 h, started P top pb rb G s0 /\ history G pb rb s0 h s.
