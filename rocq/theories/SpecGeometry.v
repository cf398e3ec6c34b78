(** * DRAM geometry and access control, stated without the monitor's helpers.

    DRAM is cut into stripes of 2^(12+pb) bytes; consecutive stripes belong to
    consecutive regions, modulo the number of regions 2^rb. *)
From Coq Require Import NArith.
From Verif Require Import Word Machine ModelInl.
Open Scope N_scope.

(** The region an address belongs to. *)
Definition region_of (pb rb a : N) : N := (a / 2 ^ (12 + pb)) mod 2 ^ rb.
(** The first byte of the [k]-th stripe of region [r]. *)
Definition stripe_start (pb rb r k : N) : N :=
  k * 2 ^ (12 + pb + rb) + r * 2 ^ (12 + pb).

(** What the hardware lets a core outside enclave mode access
    (src/bare/cpu_context.h:44-85): the region's bit in DRBMAP is set and the
    address is outside the protected range given by PARBASE, PARMASK. *)
Definition drb_bit (r : cregs) (region : N) : bool :=
  N.testbit (r_drb r (region / 64)) (region mod 64).
Definition cpu_may_access (pb rb : N) (r : cregs) (a : N) : Prop :=
  drb_bit r (region_of pb rb a) = true /\
  N.land a (r_par_mask r) <> r_par_base r.
(** What the DMA filter lets through (src/bare/memory.h:10-18). *)
Definition dma_may_access (s : state) (a : N) : Prop :=
  N.land a (s_dmar_mask s) = s_dmar_base s.

(** The globals describe a geometry with [pb] page bits per stripe and 2^rb
    regions, with the tables laid out below the monitor top. *)
Record geom (G : globals) (pb rb : N) : Prop := mkGeom {
  geo_pb : 12 + pb <= 30;
  geo_rb : 1 <= rb <= 30;
  geo_D : 1 <= g_dram_size G < W64;
  geo_cover : 2 ^ (11 + pb + rb) < g_dram_size G;
  geo_rs : g_dram_region_shift G = 12 + pb;
  geo_ss : g_dram_stripe_shift G = 12 + pb + rb;
  geo_spm : g_dram_stripe_page_mask G = (2 ^ pb - 1) * 2 ^ 12;
  geo_rm : g_dram_region_mask G = (2 ^ rb - 1) * 2 ^ (12 + pb);
  geo_sm : g_dram_stripe_mask G =
    (g_dram_size G - 1) / 2 ^ (12 + pb + rb) * 2 ^ (12 + pb + rb);
  geo_count : g_dram_region_count G = 2 ^ rb;
  geo_size : g_dram_stripe_size G = 2 ^ (12 + pb);
  geo_pages : g_dram_stripe_pages G = 2 ^ pb;
  geo_words : g_dram_region_bitmap_words G = (2 ^ rb + 63) / 64;
  geo_mpages : g_metadata_region_pages G =
    N.min (g_dram_size G / 2 ^ (12 + rb)) (2 ^ (9 + pb));
  geo_mstart : g_metadata_region_start G =
    (8 * g_metadata_region_pages G + 4095) / 4096;
  geo_dr : g_dram_region G = g_core G + 32 * g_core_count G;
  geo_drs : g_dram_regions G = g_dram_region G + 40 * 2 ^ rb;
  geo_bm : g_os_region_bitmap G = g_dram_regions G + 8;
  geo_end : g_os_region_bitmap G + 8 * ((2 ^ rb + 63) / 64) <= g_monitor_top G;
  geo_mtop : exists t, g_monitor_top G = 2 ^ t;
  geo_fits : g_monitor_top G <= 2 ^ (12 + pb) }.

