(** * The last-level cache.

    Boot divides the DRAM into regions by the last-level cache's index bits
    (src/monitor/boot_init.cc:52-113, dram_regions.h:10-27), so that software using one region
    cannot learn from hits and misses what software using another region accesses.  The
    hardware: a core with cache index shift [n] (set_cache_index_shift,
    src/bare/cpu_context.h:29-35) shifts the physical page number right by [n] before the
    cache takes the number of the set from the address.  Lines have [2^lb] bytes, there are
    [2^st] sets; what a set keeps and when it hits is left open. *)
From Coq Require Import NArith Bool List.
From Verif Require Import Word Machine ModelInl ModelApi SpecGeometry SpecMonitor SpecHistory
  SpecConcurrent SpecInside SpecTouch.
Import ListNotations.
Open Scope N_scope.

Definition cache_set (lb st n a : N) : N :=
  (a mod 4096 + 4096 * (a / 2 ^ (12 + n))) / 2 ^ lb mod 2 ^ st.

Section Cache.
(** The state of a set, and what looking up a line does: the new state, and if it hits. *)
Variables (cell : Type) (look_up : cell -> N -> cell * bool).
Variables (lb st : N).
Definition use_line (n a : N) (x : N -> cell) : (N -> cell) * bool :=
  let k := cache_set lb st n a in
  (fun i => if i =? k then fst (look_up (x k) (a / 2 ^ lb)) else x i,
   snd (look_up (x k) (a / 2 ^ lb))).
Fixpoint use_lines (n : N) (l : list N) (x : N -> cell) : N -> cell :=
  match l with [] => x | a :: l => use_lines n l (fst (use_line n a x)) end.
(** The addresses accessed, each with hit or miss. *)
Fixpoint hits (n : N) (l : list N) (x : N -> cell) : list (N * bool) :=
  match l with
  | [] => []
  | a :: l => (a, snd (use_line n a x)) :: hits n l (fst (use_line n a x))
  end.

(** ** The cache along an execution of the monitor *)
Variables (G : globals) (pb rb : N) (allowed : call -> Prop).
Definition shift_of (x : conf) (c : N) : N := r_cache_shift (s_cores (cf_state x) c).
(** One step of a core, with what it does to the cache.  A machine operation of a call
    accesses its bytes in some order, some of them perhaps more than once; the start and the
    end of a call access nothing; a core without a call in progress loads or stores at any
    address its registers admit; devices do not use the cache. *)
Inductive cache_step : conf * (N -> cell) -> conf * (N -> cell) -> Prop :=
| cc_monitor x y u c k o f i v l : c < g_core_count G -> cstep G pb rb allowed false x y ->
    cf_task x c = Running k (Do o f) i -> cf_task y c = Running k (f v) ((o, v) :: i) ->
    (forall a, In a l <-> accesses (s_words (cf_state x)) o a) ->
    cache_step (x, u) (y, use_lines (shift_of x c) l u)
| cc_call x y u c : cstep G pb rb allowed false x y ->
    (cf_task x c = Idle <-> cf_task y c <> Idle) -> cache_step (x, u) (y, u)
| cc_load x u c a : c < g_core_count G -> cf_task x c = Idle -> a < W64 ->
    cpu_may_access pb rb (s_cores (cf_state x) c) a ->
    cache_step (x, u) (x, fst (use_line (shift_of x c) a u))
| cc_store x y u c a v : c < g_core_count G -> cf_task x c = Idle -> a < W64 ->
    cpu_may_access pb rb (s_cores (cf_state x) c) a -> cstep G pb rb allowed false x y ->
    cf_task y = cf_task x -> cf_state y = set_mem (cf_state x) (Machine.st 1 (s_mem (cf_state x)) a v) ->
    cache_step (x, u) (y, fst (use_line (shift_of x c) a u))
| cc_device x y u : cstep G pb rb allowed false x y -> device_store x y ->
    cache_step (x, u) (y, u).
(** Any number of steps, each of them from a configuration with [Q]. *)
Inductive cached (Q : conf -> Prop) : conf * (N -> cell) -> conf * (N -> cell) -> Prop :=
| ca_done w : cached Q w w
| ca_step w w' w'' : Q (fst w) -> cache_step w w' -> cached Q w' w'' -> cached Q w w''.
End Cache.

(** No core without a call in progress has registers that admit an address of region [r]. *)
Definition hidden (G : globals) (pb rb r : N) (x : conf) : Prop :=
  forall c a, c < g_core_count G -> cf_task x c = Idle -> region_of pb rb a = r ->
    ~ cpu_may_access pb rb (s_cores (cf_state x) c) a.
