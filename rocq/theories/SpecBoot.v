(** * Which platforms boot, and what the boot leaves behind.

    All numbers are described by inequalities between powers of two; none of the
    monitor's helpers (address_bits_for, ceil_power_of_two, pages_needed_for) is used. *)
From Coq Require Import NArith Bool List.
From Verif Require Import Word Machine ModelInl ModelBoot.
Open Scope N_scope.

(** [k] is the number of address bits of [n] bytes: the least [k] with n <= 2^k. *)
Definition least_bits (n k : N) : Prop := n <= 2 ^ k /\ forall j, n <= 2 ^ j -> k <= j.

(** Where the monitor's tables end: 32 bytes for each core, 40 for each region, 8 for the
    block clock, and a bitmap with one bit for each region in words of 64 bits. *)
Definition end_of_tables (top cores regions : N) : N :=
  top + 32 * cores + 40 * regions + 8 + 8 * ((regions + 63) / 64).

(** The platforms that boot: [2^rb] regions in stripes of [2^pb] pages, [d] address bits of
    DRAM, monitor memory of [2^t] bytes; [top] is the end of the monitor's image. *)
Record boots (P : platform) (top d t pb rb : N) : Prop := mkBoots {
  bs_levels : 1 <= p_cache_levels P;
  (* only the last level cache is shared *)
  bs_private : forall i, i + 1 < p_cache_levels P -> p_is_shared P i = false;
  (* the last level cache has power of two line sizes and counts, and more than a page of
     index *)
  bs_cache : exists lb st, lb <= 30 /\ st <= 30 /\ lb + st = 12 + rb /\ 1 <= rb <= 30 /\
    p_line_size P (p_cache_levels P - 1) = 2 ^ lb /\
    p_set_count P (p_cache_levels P - 1) = 2 ^ st;
  bs_bits : least_bits (p_dram_size P) d;
  (* the page bits are what the address leaves, cut at the maximum shift; an address
     narrower than the cache index should be refused, but the subtraction wraps and the
     maximum shift is taken *)
  bs_shift : pb = if 12 + rb <=? d then N.min (d - (12 + rb)) (p_max_shift P)
                  else p_max_shift P;
  bs_min : p_min_shift P <= pb;
  bs_int : 12 + pb <= 30;
  (* the monitor's memory ends at the next power of two and fits in one stripe *)
  bs_top : least_bits (end_of_tables top (p_core_count P) (2 ^ rb)) t;
  bs_fits : t <= 12 + pb }.

(** The global variables after the boot. *)
Definition boot_globals (P : platform) (top t pb rb : N) : globals :=
  let D := p_dram_size P in
  let pages := N.min (D / 2 ^ (12 + rb)) (2 ^ (9 + pb)) in
  {| g_monitor_top := 2 ^ t;
     g_core := top;
     g_core_count := p_core_count P;
     g_dram_region := top + 32 * p_core_count P;
     g_dram_regions := top + 32 * p_core_count P + 40 * 2 ^ rb;
     g_os_region_bitmap := top + 32 * p_core_count P + 40 * 2 ^ rb + 8;
     g_dram_size := D;
     g_dram_region_shift := 12 + pb;
     g_dram_stripe_shift := 12 + pb + rb;
     g_dram_stripe_page_mask := (2 ^ pb - 1) * 2 ^ 12;
     g_dram_region_mask := (2 ^ rb - 1) * 2 ^ (12 + pb);
     g_dram_stripe_mask := (D - 1) / 2 ^ (12 + pb + rb) * 2 ^ (12 + pb + rb);
     g_dram_region_count := 2 ^ rb;
     g_dram_stripe_size := 2 ^ (12 + pb);
     g_dram_stripe_pages := 2 ^ pb;
     g_dram_region_bitmap_words := (2 ^ rb + 63) / 64;
     g_metadata_region_pages := pages;
     g_metadata_region_start := (8 * pages + 4095) / 4096 |}.

(** The machine after the boot on core [c]. *)
Record boot_effect (G : globals) (pb c : N) (s s' : state) : Prop := mkEffect {
  (* the region table and the clock are zero; the OS owns every region *)
  be_tables : forall b, g_dram_region G <= b < g_os_region_bitmap G -> s_mem s' b mod 256 = 0;
  be_bitmap : forall j,
    N.testbit (s_mem s' (g_os_region_bitmap G + j / 8) mod 256) (j mod 8) =
    (j <? g_dram_region_count G) ||
    N.testbit (s_mem s (g_os_region_bitmap G + j / 8) mod 256) (j mod 8);
  (* nothing else in memory changed *)
  be_frame : forall b, b < g_dram_region G \/
    g_os_region_bitmap G + 8 * g_dram_region_bitmap_words G <= b -> s_mem s' b = s_mem s b;
  (* the registers of the booting core *)
  be_shift : r_cache_shift (s_cores s' c) = pb;
  be_par_base : r_par_base (s_cores s' c) = 0;
  be_par_mask : r_par_mask (s_cores s' c) = 2 ^ 64 - g_monitor_top G;
  be_drb : forall i, r_drb (s_cores s' c) i =
    if i <? s_words s then ld 8 (s_mem s') (g_os_region_bitmap G + 8 * i)
    else r_drb (s_cores s c) i;
  be_edrb : r_edrb (s_cores s' c) = r_edrb (s_cores s c);
  be_tlb : r_tlb_flushes (s_cores s' c) = r_tlb_flushes (s_cores s c);
  (* no other core is touched *)
  be_cores : forall c', c' <> c -> s_cores s' c' = s_cores s c';
  (* devices may access the single byte at the end of the monitor's memory *)
  be_dmar_base : s_dmar_base s' = g_monitor_top G;
  be_dmar_mask : s_dmar_mask s' = 2 ^ 64 - 1;
  be_dma_start : s_dma_start s' = g_monitor_top G;
  be_dma_end : s_dma_end s' = g_monitor_top G + 1;
  be_words : s_words s' = s_words s;
  (* no undefined behaviour on the way *)
  be_ub : s_ub s' = s_ub s }.
