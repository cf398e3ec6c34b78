(** * Specification of the monitor's region accounting.

    A small abstract machine over region owners, block and flush times and the
    DMA range.  Nothing here refers to the monitor's functions. *)
From Coq Require Import NArith Bool List.
From Verif Require Import Word Machine ModelInl ModelApi SpecGeometry.
Import ListNotations.
Open Scope N_scope.

(** ** What a state of the machine says: the documented fields of
    dram_region_info_t, dram_regions_info_t, core_info_t and the OS bitmap
    (src/monitor/dram_regions.h:41-55, cpu_core.h:27-38). *)
Definition lock_of (G : globals) (s : state) (r : N) : N :=
  ld 8 (s_mem s) (g_dram_region G + 40 * r).
Definition owner_of (G : globals) (s : state) (r : N) : N :=
  ld 8 (s_mem s) (g_dram_region G + 40 * r + 8).
Definition pinned_of (G : globals) (s : state) (r : N) : N :=
  ld 8 (s_mem s) (g_dram_region G + 40 * r + 24).
Definition blocked_at_of (G : globals) (s : state) (r : N) : N :=
  ld 8 (s_mem s) (g_dram_region G + 40 * r + 32).
Definition clock_of (G : globals) (s : state) : N :=
  ld 8 (s_mem s) (g_dram_regions G).
Definition enclave_of (G : globals) (s : state) (c : N) : N :=
  ld 8 (s_mem s) (g_core G + 32 * c).
Definition flushed_of (G : globals) (s : state) (c : N) : N :=
  ld 8 (s_mem s) (g_core G + 32 * c + 24).
Definition os_bit (G : globals) (s : state) (r : N) : bool :=
  N.testbit (ld 8 (s_mem s) (g_os_region_bitmap G + 8 * (r / 64))) (r mod 64).

(** Two states agree on everything a program can observe. *)
Record same_machine (s s' : state) : Prop := mkSameMachine {
  sm_mem : forall b, s_mem s' b mod 256 = s_mem s b mod 256;
  sm_cores : forall c, s_cores s' c = s_cores s c;
  sm_words : s_words s' = s_words s;
  sm_dmar_base : s_dmar_base s' = s_dmar_base s;
  sm_dmar_mask : s_dmar_mask s' = s_dmar_mask s;
  sm_dma_start : s_dma_start s' = s_dma_start s;
  sm_dma_end : s_dma_end s' = s_dma_end s }.

(** ** The abstract machine *)
Inductive owner := OS | Blocked | Metadata | Free.
Definition owner_code (o : owner) : N :=
  match o with OS => 0 | Blocked => 1 | Metadata => 2 | Free => 3 end.

Record mstate := mkM {
  m_owner : N -> owner;
  m_blocked_at : N -> N;     (* time of the last block of a region *)
  m_clock : N;               (* number of blocks so far *)
  m_flushed : N -> N;        (* time of the last flush of a core *)
  m_access : N -> N -> bool; (* regions a core's access register admits *)
  m_stuck : bool;            (* region 0's lock was leaked *)
  m_dma_start : N;           (* the DMA range [start, end) *)
  m_dma_end : N }.

(** Every region is unlocked (except for region 0 when its lock was leaked),
    its owner is the abstract one, the OS bitmap holds exactly the OS-owned
    regions, no core runs an enclave. *)
Record shows (G : globals) (s : state) (M : mstate) : Prop := mkShows {
  sh_lock : forall r, r < g_dram_region_count G ->
    lock_of G s r = if (r =? 0) && m_stuck M then 1 else 0;
  sh_owner : forall r, r < g_dram_region_count G ->
    owner_of G s r = owner_code (m_owner M r);
  sh_pinned : forall r, r < g_dram_region_count G -> pinned_of G s r = 0;
  sh_blocked : forall r, r < g_dram_region_count G ->
    blocked_at_of G s r = m_blocked_at M r;
  sh_clock : clock_of G s = m_clock M;
  sh_enclave : forall c, c < g_core_count G -> enclave_of G s c = 0;
  sh_flushed : forall c, c < g_core_count G -> flushed_of G s c = m_flushed M c;
  sh_bit : forall r, r < g_dram_region_count G ->
    os_bit G s r = true <-> m_owner M r = OS;
  sh_region0 : m_owner M 0 = OS;
  (* access registers; every core's protected range covers the monitor *)
  sh_access : forall c r, c < g_core_count G -> r < g_dram_region_count G ->
    drb_bit (s_cores s c) r = m_access M c r;
  sh_protected : forall c a, c < g_core_count G -> a < g_monitor_top G ->
    N.land a (r_par_mask (s_cores s c)) = r_par_base (s_cores s c);
  sh_words : g_dram_region_bitmap_words G <= s_words s;
  sh_dma_start : s_dma_start s = m_dma_start M;
  sh_dma_end : s_dma_end s = m_dma_end M;
  (* the hardware window is the recorded range *)
  sh_dma_order : m_dma_start M < m_dma_end M < W64;
  sh_window : forall a, a < W64 ->
    (dma_may_access s a <-> m_dma_start M <= a < m_dma_end M) }.

Definition upd {A} (f : N -> A) (i : N) (v : A) : N -> A :=
  fun j => if j =? i then v else f j.

Definition is_os (o : owner) : bool := match o with OS => true | _ => false end.

Definition set_owner (M : mstate) (r : N) (o : owner) : mstate :=
  mkM (upd (m_owner M) r o) (m_blocked_at M) (m_clock M) (m_flushed M)
    (m_access M) (m_stuck M) (m_dma_start M) (m_dma_end M).
(** The access register of core [c] is loaded with the OS-owned regions. *)
Definition load_access (M : mstate) (c : N) : mstate :=
  mkM (m_owner M) (m_blocked_at M) (m_clock M) (m_flushed M)
    (upd (m_access M) c (fun r => is_os (m_owner M r)))
    (m_stuck M) (m_dma_start M) (m_dma_end M).
Definition tick (M : mstate) (r : N) : mstate :=
  mkM (m_owner M) (upd (m_blocked_at M) r (m_clock M))
    ((m_clock M + 1) mod W64) (m_flushed M) (m_access M) (m_stuck M)
    (m_dma_start M) (m_dma_end M).
Definition m_flush (M : mstate) (c : N) : mstate :=
  mkM (m_owner M) (m_blocked_at M) (m_clock M) (upd (m_flushed M) c (m_clock M))
    (m_access M) (m_stuck M) (m_dma_start M) (m_dma_end M).
Definition m_set_dma (M : mstate) (s e : N) : mstate :=
  mkM (m_owner M) (m_blocked_at M) (m_clock M) (m_flushed M) (m_access M)
    (m_stuck M) s e.
Definition m_stick (M : mstate) : mstate :=
  mkM (m_owner M) (m_blocked_at M) (m_clock M) (m_flushed M) (m_access M) true
    (m_dma_start M) (m_dma_end M).

(** The DMA range [ds, de) and the stripe [rs, re) touch: they have a common
    point once both end points are included. *)
Definition touches (ds de rs re : N) : bool := (ds <=? re) && (rs <=? de).

(** Every core has a flush time not before the block time of [r]. *)
Definition all_flushed (cores : N) (M : mstate) (r : N) : bool :=
  forallb (fun c => m_blocked_at M r <=? m_flushed M (N.of_nat c))
    (seq 0 (N.to_nat cores)).

(** [base, base+mask] is a power-of-two range: mask = 2^k-1, base a multiple
    of 2^k. *)
Definition pow2_range (base mask : N) : Prop :=
  exists k, k <= 64 /\ mask = 2 ^ k - 1 /\ base mod 2 ^ k = 0.

Definition ok : N := 0.
Definition invalid_value : N := 1.
Definition invalid_state : N := 2.
Definition concurrent_call : N := 3.
Definition access_denied : N := 4.

(** The lock of region [r] is taken although no call is running. *)
Definition taken (M : mstate) (r : N) : bool := (r =? 0) && m_stuck M.

(** The table of results and effects of the region calls, made by the OS.
    [n] regions, [cores] cores; [pb], [rb] as in SpecGeometry. *)
Section Table.
Variables (pb rb cores dram : N).
Let n := 2 ^ rb.

Definition block_table (c r : N) (M : mstate) : N * mstate :=
  if (r =? 0) || (n <=? r) then (invalid_value, M)
  else match m_owner M r with
       | OS =>
           if m_stuck M then (concurrent_call, M)
           else if touches (m_dma_start M) (m_dma_end M)
                     (stripe_start pb rb r 0) (stripe_start pb rb (r + 1) 0)
           then (invalid_state, M)
           else (ok, load_access (tick (set_owner M r Blocked) r) c)
       | _ => (access_denied, M)
       end.

Definition check_ownership_table (r : N) (M : mstate) : N :=
  if (r =? 0) || (n <=? r) then invalid_value
  else match m_owner M r with OS => ok | _ => invalid_state end.

(** dram_region_invalid = 0, free = 1, blocked = 2, locked = 3, owned = 4 *)
Definition state_table (r : N) (M : mstate) : N :=
  if n <=? r then 0
  else if taken M r then 3
  else match m_owner M r with
       | OS | Metadata => 4 | Blocked => 2 | Free => 1 end.

Definition owner_table (r : N) (M : mstate) : N :=
  if n <=? r then 0
  else if taken M r then 0
  else match m_owner M r with Metadata => 2 | _ => 0 end.

Definition create_metadata_table (r : N) (M : mstate) : N * mstate :=
  if n <=? r then (invalid_value, M)
  else if taken M r then (concurrent_call, M)
  else match m_owner M r with
       | Free => (ok, set_owner M r Metadata)
       | _ => (invalid_state, M)
       end.

Definition assign_table (c r e : N) (M : mstate) : N * mstate :=
  if n <=? r then (invalid_value, M)
  else if taken M r then (concurrent_call, M)
  else match m_owner M r with
       | Free =>
           if (region_of pb rb e =? r) || taken M (region_of pb rb e)
           then (concurrent_call, M)
           else if e =? 0 then (ok, load_access (set_owner M r OS) c)
           else (invalid_value, M)
       | _ => (invalid_state, M)
       end.

Definition free_table (r : N) (M : mstate) : N * mstate :=
  if n <=? r then (invalid_value, M)
  else if taken M r then (concurrent_call, M)
  else match m_owner M r with
       | Blocked => if all_flushed cores M r then (ok, set_owner M r Free)
                    else (invalid_state, M)
       | Metadata => (ok, set_owner M r Free)
       | _ => (invalid_state, M)
       end.

(** set_dma_range: which ranges are accepted. *)
Definition dma_table (base mask v : N) (M M' : mstate) : Prop :=
  (~ (pow2_range base mask /\ base + mask < dram) /\ v = invalid_value /\ M' = M) \/
  (pow2_range base mask /\ base + mask < dram /\ m_stuck M = true /\
   v = concurrent_call /\ M' = M) \/
  (pow2_range base mask /\ base + mask < dram /\ m_stuck M = false /\
   v = ok /\ M' = m_set_dma M base (base + mask + 1)).
End Table.
