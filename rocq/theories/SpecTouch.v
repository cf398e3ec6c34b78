(** * Who changes the contents of a region. *)
From Coq Require Import NArith Bool List.
From Verif Require Import Word Machine ModelInl ModelApi SpecGeometry SpecMonitor SpecHistory
  SpecConcurrent.
Import ListNotations.
Open Scope N_scope.

(** The bytes of region [r] are the same in both. *)
Definition same_region (pb rb r : N) (x y : conf) : Prop :=
  forall b, region_of pb rb b = r -> s_mem (cf_state x) b mod 256 = s_mem (cf_state y) b mod 256.
(** The region belongs to the OS or is blocked. *)
Definition os_or_blocked (G : globals) (r : N) (x : conf) : Prop :=
  owner_of G (cf_state x) r = 0 \/ owner_of G (cf_state x) r = 1.
(** The step is a store of the software on a core without a call in progress, which the
    core's registers admit; or a store by a device within the DMA range.
    Neither moves a call that is in progress. *)
Definition os_store (G : globals) (pb rb : N) (x y : conf) : Prop :=
  exists c a v, c < g_core_count G /\ cf_task x c = Idle /\
    cpu_may_access pb rb (s_cores (cf_state x) c) a /\ cf_task y = cf_task x /\
    cf_state y = set_mem (cf_state x) (st 1 (s_mem (cf_state x)) a v).
Definition device_store (x y : conf) : Prop :=
  exists a v, dma_may_access (cf_state x) a /\ cf_task y = cf_task x /\
    cf_state y = set_mem (cf_state x) (st 1 (s_mem (cf_state x)) a v).
(** No core and no device is allowed to access the region. *)
Definition sealed (G : globals) (pb rb r : N) (x : conf) : Prop :=
  forall a, region_of pb rb a = r ->
    (forall c, c < g_core_count G -> ~ cpu_may_access pb rb (s_cores (cf_state x) c) a) /\
    ~ dma_may_access (cf_state x) a.

(** The call names region [r], or an address in it, as something to be filled in, read or
    written.  (block, free and assign name a region only to change its owner;
    accept_thread, whose writes may go anywhere (C49), counts as naming every region.) *)
Definition names_region (G : globals) (pb rb r : N) (k : call) : Prop :=
  match k with
  | CCreateMetadataRegion q => q = r
  | CCreateEnclave id _ _ _ _ => region_of pb rb id = r
  | CAssignThread id t | CLoadThread id t _ _ _ _ => region_of pb rb id = r \/ region_of pb rb t = r
  | CCopyDebugPage id ea oa _ => exists b, region_of pb rb b = r /\
      (id <= b < id + (304 + 8 * g_dram_region_bitmap_words G) \/
       ea <= b < ea + 4096 \/ oa <= b < oa + 4096)
  | CAcceptThread _ _ => True
  | _ => False
  end.
(** Calls that do not name region [r]; records below 2^64; enclave identifiers in the first
    stripes unless pb + 2 rb <= 55 (beyond these stripes the code mislocates the map entry,
    C40; on a machine that is not enormous it still lies in a stripe with the right number
    modulo the number of regions). *)
Definition unnamed_call (G : globals) (pb rb r : N) (k : call) : Prop :=
  safe_call G k /\ ~ names_region G pb rb r k /\
  match k with
  | CCreateEnclave id _ _ _ _ | CAssignThread id _ | CLoadThread id _ _ _ _ _ =>
      id < 2 ^ (12 + pb + rb) \/ pb + 2 * rb <= 55
  | CCopyDebugPage id _ _ _ => id + 304 + 8 * g_dram_region_bitmap_words G <= 2 ^ 64
  | _ => True
  end.
