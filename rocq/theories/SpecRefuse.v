(** * Calls refused because of other calls.

    Which regions a call is about, in terms of its arguments.  Nothing here refers
    to the monitor's functions. *)
From Coq Require Import NArith Bool List.
From Verif Require Import Word Machine ModelInl ModelApi SpecGeometry SpecMonitor SpecHistory
  SpecConcurrent SpecContract SpecLinear.
Import ListNotations.
Open Scope N_scope.

(** The call that core [c] is executing after [l] was observed. *)
Definition in_call (l : list obs) (c : N) : option call :=
  fold_left (fun a e =>
    match e with
    | Start c' k => if c' =? c then Some k else a
    | Finish c' _ _ => if c' =? c then None else a
    end) l None.

(** Observations of core [c]. *)
Definition by_core (c : N) (e : obs) : bool :=
  match e with Start c' _ | Finish c' _ _ => c' =? c end.

(** The regions a call is about: those named by its arguments; region 0 (the OS's)
    if it changes the OS's regions or the DMA range or creates or deletes a thread
    for the OS. *)
Definition concerns (G : globals) (pb rb : N) (k : call) (r : N) : Prop :=
  match k with
  | CBlock q => r = q \/ r = 0
  | CCheckOwnership q | CRegionState q | CRegionOwner q | CCreateMetadataRegion q | CFree q => r = q
  | CAssign q o => r = q \/ r = region_of pb rb o
  | CSetDmaRange b m => r = 0 \/ exists a, b <= a <= b + m /\ r = region_of pb rb a
  | CFlush | CExitEnclave | CAcceptThread _ _ => False
  | CCreateEnclave id _ _ _ _ => r = region_of pb rb id
  | CLoadThread id t _ _ _ _ | CAssignThread id t => r = region_of pb rb id \/ r = region_of pb rb t
  | CLoadPageTable id _ _ _ _ | CLoadPage id _ _ _ _ | CInitEnclave id | CEnterEnclave id _
  | CDeleteEnclave id => r = main_region G pb rb id
  | CCopyDebugPage id _ oa _ => r = main_region G pb rb id \/ r = region_of pb rb oa
  | CCreateThread _ _ | CDeleteThread _ => r = 0
  end.

(** Calls that name the same region twice. *)
Definition names_twice (G : globals) (pb rb : N) (k : call) : Prop :=
  match k with
  | CAssign q o => region_of pb rb o = q
  | CCopyDebugPage id _ oa _ => region_of pb rb oa = main_region G pb rb id
  | _ => False
  end.

(** Calls with a second kind of lock, in the record of the enclave. *)
Definition locks_record (k : call) : bool :=
  match k with CLoadThread _ _ _ _ _ _ | CAssignThread _ _ => true | _ => false end.

(** Calls about one region, or about two of which the second has the smaller number. *)
Definition in_order (G : globals) (pb rb : N) (k : call) : Prop :=
  match k with
  | CSetDmaRange _ _ | CLoadThread _ _ _ _ _ _ | CAssignThread _ _ | CAcceptThread _ _
  | CCreateThread _ _ | CDeleteThread _ => False
  | CAssign q o => region_of pb rb o < q
  | CCopyDebugPage id _ oa _ => region_of pb rb oa < main_region G pb rb id
  | _ => True
  end.
