(** * What two executions have in common when only the contents of a region differ. *)
From Coq Require Import NArith Bool List.
From Verif Require Import Word Machine ModelInl ModelApi SpecGeometry SpecMonitor SpecHistory
  SpecConcurrent.
Import ListNotations.
Open Scope N_scope.

(** Everything but the bytes of region [r] is the same. *)
Record same_outside (pb rb r : N) (s s' : state) : Prop := {
  so_mem : forall b, region_of pb rb b <> r -> s_mem s b mod 256 = s_mem s' b mod 256;
  so_drb : forall c i, r_drb (s_cores s c) i = r_drb (s_cores s' c) i;
  so_edrb : forall c i, r_edrb (s_cores s c) i = r_edrb (s_cores s' c) i;
  so_par_base : forall c, r_par_base (s_cores s c) = r_par_base (s_cores s' c);
  so_par_mask : forall c, r_par_mask (s_cores s c) = r_par_mask (s_cores s' c);
  so_shift : forall c, r_cache_shift (s_cores s c) = r_cache_shift (s_cores s' c);
  so_flushes : forall c, r_tlb_flushes (s_cores s c) = r_tlb_flushes (s_cores s' c);
  so_words : s_words s = s_words s';
  so_dmar_base : s_dmar_base s = s_dmar_base s';
  so_dmar_mask : s_dmar_mask s = s_dmar_mask s';
  so_dma_start : s_dma_start s = s_dma_start s';
  so_dma_end : s_dma_end s = s_dma_end s' }.
(** The cores also are at the same points of the same calls, and all operations of these
    calls have given the same values. *)
Definition same_conf (pb rb r : N) (x y : conf) : Prop :=
  same_outside pb rb r (cf_state x) (cf_state y) /\
  (forall c, cf_task x c = cf_task y c) /\ (forall c q, cf_held x c q = cf_held y c q).

(** [k] bytes at [a], none of them in region [r]. *)
Definition avoids (pb rb r a k : N) : Prop :=
  forall b, a <= b < a + k -> region_of pb rb b <> r.
(** Calls whose arguments do not point into region [r], with identifiers in the first
    stripes unless pb + 2 rb <= 55 (beyond these stripes the code mislocates the map entry,
    C40; on a machine that is not enormous it still lies in a stripe with the right number
    modulo the number of regions). *)
Definition public_call (G : globals) (pb rb r : N) (k : call) : Prop :=
  safe_call G k /\
  match k with
  | CCreateEnclave id _ _ _ _ | CAssignThread id _ | CLoadThread id _ _ _ _ _ =>
      id < 2 ^ (12 + pb + rb) \/ pb + 2 * rb <= 55
  | CCopyDebugPage id ea oa _ =>
      id + 304 + 8 * g_dram_region_bitmap_words G <= 2 ^ 64 /\
      avoids pb rb r id (304 + 8 * g_dram_region_bitmap_words G) /\
      avoids pb rb r ea 4096 /\ avoids pb rb r oa 4096
  | _ => True
  end.

Section Exec.
Variables (G : globals) (pb rb : N) (allowed : call -> Prop).
(** The configurations of an execution after its first. *)
Inductive execution : conf -> list conf -> Prop :=
| ex_nil x : execution x []
| ex_cons x y l : cstep G pb rb allowed false x y -> execution y l -> execution x (y :: l).
End Exec.
