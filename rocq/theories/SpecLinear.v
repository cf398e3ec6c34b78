(** * Atomicity of calls that run at the same time.

    An abstract machine in which a call takes effect at a single instant between
    its start and its return.  Nothing here refers to the monitor's functions. *)
From Coq Require Import NArith Bool List.
From Verif Require Import Word Machine ModelInl ModelApi SpecGeometry SpecMonitor SpecHistory
  SpecConcurrent.
Import ListNotations.
Open Scope N_scope.

(** ** What is observed of an interleaved execution *)
Inductive obs :=
| Start (c : N) (k : call)            (* core c starts call k *)
| Finish (c : N) (k : call) (v : N).  (* call k of core c returns v *)

Section Observed.
Variables (G : globals) (pb rb : N) (allowed : call -> Prop).
(** [observed s0 l x]: an execution from [s0] to [x] (the block clock does not
    overflow) during which [l] was observed. *)
Inductive observed (s0 : state) : list obs -> conf -> Prop :=
| ob_none : observed s0 [] (initial s0)
| ob_start l x y c k : observed s0 l x -> cstep G pb rb allowed true x y ->
    cf_task x c = Idle -> cf_task y c = Running k (call_prog G k) [] ->
    observed s0 (l ++ [Start c k]) y
| ob_finish l x y c k v i : observed s0 l x -> cstep G pb rb allowed true x y ->
    cf_task x c = Running k (Ret v) i -> cf_task y c = Idle ->
    observed s0 (l ++ [Finish c k v]) y
| ob_other l x y : observed s0 l x -> cstep G pb rb allowed true x y ->
    (forall c, cf_task x c = Idle <-> cf_task y c = Idle) ->
    observed s0 l y.
End Observed.

(** ** The machine that executes calls atomically *)
Inductive status :=
| NoCall
| Waiting (k : call) (t : N)   (* started when the block clock was t, no effect yet *)
| Done (k : call) (v : N).     (* took effect with result v, not yet returned *)

Section Atomic.
Variables (pb rb cores dram : N).

(** The results of a call that found a lock held. *)
Definition busy (k : call) (v : N) : Prop :=
  match k with
  | CBlock r | CCheckOwnership r => r <> 0 /\ r < 2 ^ rb /\ v = concurrent_call
  | CRegionState r => r < 2 ^ rb /\ v = 3
  | CRegionOwner r => r < 2 ^ rb /\ v = 0
  | CSetDmaRange b m => pow2_range b m /\ b + m < dram /\ v = concurrent_call
  | CCreateMetadataRegion r | CAssign r _ | CFree r => r < 2 ^ rb /\ v = concurrent_call
  | _ => False
  end.

(** Core [c] is credited with a flush at time [t]. *)
Definition flush_at (M : mstate) (c t : N) : mstate :=
  mkM (m_owner M) (m_blocked_at M) (m_clock M) (upd (m_flushed M) c t) (m_access M)
    (m_stuck M) (m_dma_start M) (m_dma_end M).

(** The effect of a call: that of SpecHistory, except that it may be refused
    while another call is in progress ([others]), that a flush is credited with
    some time between its start [t] and the instant of its effect, and that the
    calls on enclaves and threads only have no effect on regions. *)
Definition takes_effect (others : Prop) (c : N) (k : call) (t v : N) (M M' : mstate) : Prop :=
  (others /\ busy k v /\ M' = M) \/
  match k with
  | CFlush => v = ok /\ exists t', t <= t' <= m_clock M /\ M' = flush_at M c t'
  | CLoadThread _ _ _ _ _ _ | CAssignThread _ _ => M' = M
  | _ => effect pb rb cores dram (ECall c k) v M M'
  end.

(** [atomic M0 l H M st]: the machine, started in [M0], is in [M]; [l] was
    observed, [H] lists the effects in the order in which they took place. *)
Inductive atomic (M0 : mstate) : list obs -> list (event * N) -> mstate -> (N -> status) -> Prop :=
| at_none : atomic M0 [] [] M0 (fun _ => NoCall)
| at_start l H M st c k : atomic M0 l H M st -> st c = NoCall ->
    atomic M0 (l ++ [Start c k]) H M (upd st c (Waiting k (m_clock M)))
| at_effect l H M st c k t v M' : atomic M0 l H M st -> st c = Waiting k t ->
    takes_effect (exists c', c' <> c /\ st c' <> NoCall) c k t v M M' ->
    atomic M0 l (H ++ [(ECall c k, v)]) M' (upd st c (Done k v))
| at_finish l H M st c k v : atomic M0 l H M st -> st c = Done k v ->
    atomic M0 (l ++ [Finish c k v]) H M (upd st c NoCall).
End Atomic.

(** ** Counting observations *)
(** Calls from [p] that returned [v]; calls from [p] that were started. *)
Definition finishes (p : call -> bool) (v : N) (l : list obs) : nat :=
  length (filter (fun e => match e with Finish _ k w => p k && (w =? v) | _ => false end) l).
Definition starts (p : call -> bool) (l : list obs) : nat :=
  length (filter (fun e => match e with Start _ k => p k | _ => false end) l).
Definition block_of (r : N) (k : call) : bool := match k with CBlock x => x =? r | _ => false end.
Definition free_of (r : N) (k : call) : bool := match k with CFree x => x =? r | _ => false end.
Definition assign_of (r : N) (k : call) : bool := match k with CAssign x _ => x =? r | _ => false end.
Definition metadata_of (r : N) (k : call) : bool :=
  match k with CCreateMetadataRegion x => x =? r | _ => false end.
