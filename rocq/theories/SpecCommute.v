(** * Calls on different regions. *)
From Coq Require Import NArith Bool List.
From Verif Require Import Word Machine ModelInl ModelApi SpecGeometry SpecMonitor.
Open Scope N_scope.

(** The call is about region [r]: it asks for its state or moves it. *)
Definition about (k : call) (r : N) : Prop :=
  match k with
  | CBlock q | CCheckOwnership q | CRegionState q | CRegionOwner q
  | CCreateMetadataRegion q | CAssign q _ | CFree q => q = r
  | _ => False
  end.

(** Both states record the same, except perhaps for the times at which regions were
    blocked and what the cores may access. *)
Record same_regions (G : globals) (s s' : state) : Prop := {
  sr_owner : forall r, r < g_dram_region_count G -> owner_of G s r = owner_of G s' r;
  sr_lock : forall r, r < g_dram_region_count G -> lock_of G s r = lock_of G s' r;
  sr_bit : forall r, r < g_dram_region_count G -> os_bit G s r = os_bit G s' r;
  sr_clock : clock_of G s = clock_of G s';
  sr_flushed : forall c, c < g_core_count G -> flushed_of G s c = flushed_of G s' c;
  sr_dma_start : s_dma_start s = s_dma_start s';
  sr_dma_end : s_dma_end s = s_dma_end s' }.
(** Also the same block time of region [r]. *)
Definition same_block_time (G : globals) (s s' : state) (r : N) : Prop :=
  blocked_at_of G s r = blocked_at_of G s' r.
(** Core [c] may access the same regions. *)
Definition same_access (G : globals) (s s' : state) (c : N) : Prop :=
  forall r, r < g_dram_region_count G -> drb_bit (s_cores s c) r = drb_bit (s_cores s' c) r.
