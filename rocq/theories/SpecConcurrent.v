(** * Interleaved execution.

    Every core is idle or executes an API call; one step executes one machine
    operation of one core (the operations of Machine.v are atomic), or starts or
    ends a call, or is a store by the OS on an idle core or by a device. *)
From Coq Require Import NArith Bool List.
From Verif Require Import Word Machine ModelInl ModelApi SpecGeometry SpecMonitor SpecHistory.
Import ListNotations.
Open Scope N_scope.

(** [Running k p l]: the core executes call [k], [p] is what remains of it. [l]
    lists the operations executed so far and the values they gave, last first (a
    history variable: no step depends on it). *)
Inductive task :=
| Idle
| Running (k : call) (p : prog N) (l : list (op * N)).

(** [cf_held c r]: core [c] acquired the lock of region [r] and did not release
    it since. A history variable: no step depends on it. *)
Record conf := mkConf {
  cf_state : state;
  cf_task : N -> task;
  cf_held : N -> N -> bool }.

(** The address of the lock of region [r] (the first field of
    dram_region_info_t, dram_regions.h:41-47). *)
Definition lock_addr (G : globals) (r : N) : N := g_dram_region G + 40 * r.

(** A test-and-set that finds the lock free acquires it; a clear releases it. *)
Definition held_after (G : globals) (c : N) (o : op) (v : N) (held : N -> N -> bool)
  : N -> N -> bool :=
  fun c' r =>
    match o with
    | OTas a => if (c' =? c) && (a =? lock_addr G r) && (v =? 0) then true else held c' r
    | OClr a => if (c' =? c) && (a =? lock_addr G r) then false else held c' r
    | _ => held c' r
    end.

Section Conc.
Variables (G : globals) (pb rb : N).
(** The calls that cores may make. *)
Variable allowed : call -> Prop.
(** If set, the block clock does not overflow (it counts blocks modulo 2^64). *)
Variable nowrap : bool.

Inductive cstep : conf -> conf -> Prop :=
| cs_start s t h c k : c < g_core_count G -> t c = Idle -> call_args_ok k -> allowed k ->
    cstep (mkConf s t h) (mkConf s (upd t c (Running k (call_prog G k) [])) h)
| cs_op s t h c k o f l s' v : c < g_core_count G -> t c = Running k (Do o f) l ->
    step c o s = (s', v) ->
    (nowrap = true -> clock_of G s <= clock_of G s') ->
    cstep (mkConf s t h)
      (mkConf s' (upd t c (Running k (f v) ((o, v) :: l))) (held_after G c o v h))
| cs_return s t h c k v l : c < g_core_count G -> t c = Running k (Ret v) l ->
    cstep (mkConf s t h) (mkConf s (upd t c Idle) h)
| cs_store s t h c a v : c < g_core_count G -> t c = Idle -> a < W64 ->
    cpu_may_access pb rb (s_cores s c) a ->
    cstep (mkConf s t h) (mkConf (set_mem s (st 1 (s_mem s) a v)) t h)
| cs_dma s t h a v : a < W64 -> dma_may_access s a -> g_monitor_top G <= a ->
    cstep (mkConf s t h) (mkConf (set_mem s (st 1 (s_mem s) a v)) t h).

(** All cores idle, no lock acquired yet. *)
Definition initial (s : state) : conf := mkConf s (fun _ => Idle) (fun _ _ => false).

Inductive creach (s0 : state) : conf -> Prop :=
| cr_start : creach s0 (initial s0)
| cr_step x y : creach s0 x -> cstep x y -> creach s0 y.
End Conc.

(** No call is in progress. *)
Definition quiet (G : globals) (x : conf) : Prop :=
  forall c, c < g_core_count G -> cf_task x c = Idle.

(** Calls that return with a lock held (C29). *)
Definition leaky (k : call) : bool :=
  match k with CCreateThread _ _ | CDeleteThread _ => true | _ => false end.

(** The documented owner changes: 0 = OS, 1 = blocked, 2 = metadata, 3 = free. *)
Definition owner_change (k : call) (r a b : N) : Prop :=
  (k = CBlock r /\ a = 0 /\ b = 1) \/
  (k = CFree r /\ a = 1 /\ b = 3) \/
  (k = CFree r /\ a = 2 /\ b = 3) \/
  (k = CCreateMetadataRegion r /\ a = 3 /\ b = 2) \/
  (k = CAssign r 0 /\ a = 3 /\ b = 0).
