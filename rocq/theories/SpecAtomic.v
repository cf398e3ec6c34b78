(** * What a single region call does while other cores run. *)
From Coq Require Import NArith Bool List.
From Verif Require Import Word Machine ModelInl ModelApi SpecMonitor SpecHistory SpecConcurrent.
Import ListNotations.
Open Scope N_scope.

(** The address of the owner field of region [r] (dram_regions.h:41-47). *)
Definition owner_addr (G : globals) (r : N) : N := g_dram_region G + 40 * r + 8.

(** The owner (region, value) that a successful region call establishes. *)
Definition establishes (k : call) : option (N * N) :=
  match k with
  | CBlock r => Some (r, 1)
  | CFree r => Some (r, 3)
  | CCreateMetadataRegion r => Some (r, 2)
  | CAssign r o => Some (r, o)
  | _ => None
  end.

(** The stores to owner fields among executed operations, last first. *)
Definition owner_stores (G : globals) (l : list (op * N)) : list (N * N) :=
  flat_map (fun e =>
    match fst e with
    | OSt _ a v =>
        if (g_dram_region G <=? a) && ((a - g_dram_region G) mod 40 =? 8) &&
           ((a - g_dram_region G) / 40 <? g_dram_region_count G)
        then [((a - g_dram_region G) / 40, v)] else []
    | _ => []
    end) l.

(** Operations that change nothing but locks of regions. *)
Definition lock_only (G : globals) (o : op) : Prop :=
  match o with
  | OLd _ _ | OCore | OGetDmaStart | OGetDmaEnd => True
  | OTas a | OClr a => exists r, r < g_dram_region_count G /\ a = lock_addr G r
  | _ => False
  end.
(** The lock of a region was tried and found held. *)
Definition found_locked (G : globals) (l : list (op * N)) : Prop :=
  exists r v, r < g_dram_region_count G /\ v <> 0 /\ In (OTas (lock_addr G r), v) l.

(** Zero or more steps. *)
Inductive csteps (G : globals) (pb rb : N) (allowed : call -> Prop) (nowrap : bool) (x : conf)
  : conf -> Prop :=
| cs_none : csteps G pb rb allowed nowrap x x
| cs_more y z : csteps G pb rb allowed nowrap x y -> cstep G pb rb allowed nowrap y z ->
    csteps G pb rb allowed nowrap x z.
