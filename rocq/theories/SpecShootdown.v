(** * The TLBs in an interleaved execution.

    The executions of SpecConcurrent.v, with the TLBs of SpecTlb.v: an idle core (one that
    does not execute a call of the monitor) may put a page its registers admit into its TLB
    at any time, and store through its TLB at any time, whatever the other cores do. *)
From Coq Require Import NArith Bool List.
From Verif Require Import Word Machine ModelInl ModelApi SpecGeometry SpecMonitor SpecHistory
  SpecConcurrent SpecLinear SpecTlb.
Import ListNotations.
Open Scope N_scope.

Section Observed.
Variables (G : globals) (pb rb : N) (allowed : call -> Prop).
(** [tobserved s0 l x T]: an execution from [s0] with empty TLBs to [x] with TLBs [T] (the
    block clock does not overflow) during which [l] was observed. *)
Inductive tobserved (s0 : state) : list obs -> conf -> tlb -> Prop :=
| to_none : tobserved s0 [] (initial s0) []
| to_start l x T y c k : tobserved s0 l x T -> cstep G pb rb allowed true x y ->
    cf_task x c = Idle -> cf_task y c = Running k (call_prog G k) [] ->
    tobserved s0 (l ++ [Start c k]) y (kept (cf_state x) (cf_state y) T)
| to_finish l x T y c k v i : tobserved s0 l x T -> cstep G pb rb allowed true x y ->
    cf_task x c = Running k (Ret v) i -> cf_task y c = Idle ->
    tobserved s0 (l ++ [Finish c k v]) y (kept (cf_state x) (cf_state y) T)
| to_other l x T y : tobserved s0 l x T -> cstep G pb rb allowed true x y ->
    (forall c, cf_task x c = Idle <-> cf_task y c = Idle) ->
    tobserved s0 l y (kept (cf_state x) (cf_state y) T)
| to_fill l x T c p : tobserved s0 l x T -> c < g_core_count G -> cf_task x c = Idle -> p < 2 ^ 52 ->
    (forall a, a / 4096 = p -> cpu_may_access pb rb (s_cores (cf_state x) c) a) ->
    tobserved s0 l x ((c, p) :: T)
| to_store l x T c a v : tobserved s0 l x T -> cf_task x c = Idle -> In (c, a / 4096) T ->
    tobserved s0 l (mkConf (set_mem (cf_state x) (st 1 (s_mem (cf_state x)) a v)) (cf_task x) (cf_held x)) T.
End Observed.
