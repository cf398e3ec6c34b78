(** * The TLBs.

    The histories of SpecHistory.v check every access of the OS against the access
    registers.  The hardware checks only when it walks a page table: the pages found are
    kept in the core's TLB and used without a check until flush_tlbs()
    (src/bare/cpu_context.h:19-22, src/monitor/public/api.h:91-96).  Here a core may at
    any time put a page its registers admit into its TLB, and store through it later. *)
From Coq Require Import NArith Bool List.
From Verif Require Import Word Machine ModelInl ModelApi SpecGeometry SpecMonitor SpecHistory.
Import ListNotations.
Open Scope N_scope.

(** The cores and numbers of the pages in the TLBs. *)
Definition tlb : Type := list (N * N).

(** What is left in the TLBs when the machine goes from [s] to [s']: the entries of the
    cores that did not flush in between. *)
Definition kept (s s' : state) (T : tlb) : tlb :=
  filter (fun e => r_tlb_flushes (s_cores s' (fst e)) =? r_tlb_flushes (s_cores s (fst e))) T.

Inductive tevent :=
| TEvent (e : event) (v : N)  (* an event of SpecHistory.v with its result *)
| TFill (c p : N)             (* core c caches page p *)
| TStore (c a v : N).         (* the OS on core c stores byte v at a through its TLB *)

Inductive tstep (G : globals) (pb rb : N) : state * tlb -> tevent -> state * tlb -> Prop :=
| ts_event s T e v s' : estep G pb rb s e v s' ->
    tstep G pb rb (s, T) (TEvent e v) (s', kept s s' T)
| ts_fill s T c p : c < g_core_count G -> p < 2 ^ 52 ->
    (forall a, a / 4096 = p -> cpu_may_access pb rb (s_cores s c) a) ->
    tstep G pb rb (s, T) (TFill c p) (s, (c, p) :: T)
| ts_store s T c a v : In (c, a / 4096) T ->
    tstep G pb rb (s, T) (TStore c a v) (set_mem s (st 1 (s_mem s) a v), T).

(** Histories from a machine with empty TLBs. *)
Inductive thistory (G : globals) (pb rb : N) (s0 : state) : list tevent -> state * tlb -> Prop :=
| th_nil : thistory G pb rb s0 [] (s0, [])
| th_snoc h x e y : thistory G pb rb s0 h x -> tstep G pb rb x e y ->
    thistory G pb rb s0 (h ++ [e]) y.

(** Core [c] can reach address [a]: its registers or its TLB admit it. *)
Definition can_reach (pb rb : N) (x : state * tlb) (c a : N) : Prop :=
  cpu_may_access pb rb (s_cores (fst x) c) a \/ In (c, a / 4096) (snd x).

(** ** Events *)
Definition event_of (p : event * N -> bool) (e : tevent) : bool :=
  match e with TEvent e v => p (e, v) | _ => false end.
(** No event of [h] is such. *)
Definition tnone (p : event * N -> bool) (h : list tevent) : Prop :=
  forall e, In e h -> event_of p e = false.
Definition ok_assign_of (r : N) (x : event * N) : bool :=
  match x with (ECall _ (CAssign q _), 0) => q =? r | _ => false end.
(** Region [r] was blocked and not assigned since. *)
Definition given_up (r : N) (h : list tevent) : Prop :=
  exists a c b, h = a ++ TEvent (ECall c (CBlock r)) 0 :: b /\ tnone (ok_assign_of r) b.
Definition tblocks (h : list tevent) : N := N.of_nat (length (filter (event_of ok_block) h)).
