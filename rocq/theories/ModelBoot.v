(** * Model of src/monitor/boot_init.cc *)
From Coq Require Import NArith ZArith Lia Bool List.
From Verif Require Import Word Machine ModelBare ModelHash ModelInl.
Import ListNotations.
Open Scope N_scope.

(** What the hardware reports at boot: src/bare/memory.h:20-59,
    src/bare/cpu_context.h:14. *)
Record platform := mkPlatform {
  p_dram_size : N;                  (* read_dram_size() *)
  p_cache_levels : N;               (* read_cache_levels() *)
  p_is_shared : N -> bool;          (* is_shared_cache(level) *)
  p_line_size : N -> N;             (* read_cache_line_size(level) *)
  p_set_count : N -> N;             (* read_cache_set_count(level) *)
  p_min_shift : N;                  (* read_min_cache_index_shift() *)
  p_max_shift : N;                  (* read_max_cache_index_shift() *)
  p_core_count : N                  (* read_core_count() *)
}.

(** [1 << n] with an int 1, flagging undefined behaviour (code 2): boot_init.cc:52-113. *)
Definition int_one_shl (n : N) : prog N :=
  ub_if (int_shl_ub 1 n) 2 ;; Ret (int_shl 1 n).

(** boot_init_monitor_top: boot_init.cc:47-50 (a stub, as the TODO says) *)
Definition boot_init_monitor_top : N := 0.

(** What boot_init_dram_regions computes: boot_init.cc:52-113 *)
Record geometry := mkGeometry {
  ge_dram_size : N; ge_region_shift : N; ge_stripe_shift : N;
  ge_stripe_size : N; ge_stripe_pages : N; ge_region_count : N;
  ge_stripe_page_mask : N; ge_region_mask : N; ge_stripe_mask : N;
  ge_bitmap_words : N }.

Definition boot_init_dram_regions (P : platform) : prog geometry :=
  let g_dram_size := p_dram_size P in
  let dram_address_bits := address_bits_for g_dram_size in
  let cache_levels := p_cache_levels P in
  (* lines 59-62 *)
  shared <- for_exit (N.to_nat cache_levels) 0
    (fun i => if p_is_shared P i && negb (i =? wsub cache_levels 1)
              then Ret (Some tt) else Ret None) ;;
  match (shared : option unit) with
  | Some _ => Stop
  | None =>
  let llc := wsub cache_levels 1 in
  let line_size := p_line_size P llc in
  let line_bits := address_bits_for line_size in
  l1 <- int_one_shl line_bits ;;
  if negb (line_size =? l1) then Stop
  else
  let set_count := p_set_count P llc in
  let set_bits := address_bits_for set_count in
  s1 <- int_one_shl set_bits ;;
  if negb (set_count =? s1) then Stop
  else
  let cache_bits := wadd set_bits line_bits in
  if cache_bits <=? page_shift then Stop
  else
  let region_bits := wsub cache_bits page_shift in
  let stripe_page_bits := wsub dram_address_bits cache_bits in
  let max_shift := p_max_shift P in
  let stripe_page_bits :=
    if max_shift <? stripe_page_bits then max_shift else stripe_page_bits in
  let min_shift := p_min_shift P in
  if stripe_page_bits <? min_shift then Stop
  else
  op1 (OSetShift stripe_page_bits) ;;
  let region_shift := wadd page_shift stripe_page_bits in
  let stripe_shift := wadd region_shift region_bits in
  stripe_size <- int_one_shl region_shift ;;
  stripe_pages <- int_one_shl stripe_page_bits ;;
  region_count <- int_one_shl region_bits ;;
  (* ((1 << stripe_page_bits) - 1) << page_shift(): all in int *)
  sp1 <- int_one_shl stripe_page_bits ;;
  ub_if (int_shl_ub (int_pred sp1) page_shift) 3 ;;
  let stripe_page_mask := int_shl (int_pred sp1) page_shift in
  let region_mask := wshl (wsub region_count 1) region_shift in
  let stripe_mask :=
    wshl (wshr (wsub g_dram_size 1) stripe_shift) stripe_shift in
  let words := wsub (wadd region_count 64) 1 / 64 in
  Ret (mkGeometry g_dram_size region_shift stripe_shift stripe_size
         stripe_pages region_count stripe_page_mask region_mask stripe_mask
         words)
  end.

(** boot_init_metadata: boot_init.cc:115-134; yields g_metadata_region_pages
    and g_metadata_region_start. *)
Definition boot_init_metadata (ge : geometry) : N * N :=
  let pages := wshr (ge_dram_size ge)
    (wadd (wsub (ge_stripe_shift ge) (ge_region_shift ge)) page_shift) in
  let map_size := wmul pages 8 in
  if ge_stripe_size ge <? map_size
  then (ge_stripe_size ge / 8, pages_needed_for (ge_stripe_size ge))
  else (pages, pages_needed_for map_size).

(** boot_init_dynamic_arrays: boot_init.cc:136-162. [top] is g_monitor_top on
    entry. *)
Definition boot_init_dynamic_arrays (P : platform) (ge : geometry)
  (meta : N * N) (top : N) : prog globals :=
  let core := top in
  let top := wadd core (wmul core_info_size (p_core_count P)) in
  let dram_region := top in
  let top := wadd dram_region
               (wmul dram_region_info_size (ge_region_count ge)) in
  for_n (N.to_nat (ge_region_count ge)) 0
    (fun i =>
       let region := wadd dram_region (wmul dram_region_info_size i) in
       op1 (OClr (wadd region dri_lock)) ;;
       store64 (wadd region dri_owner) null_enclave_id ;;
       store64 (wadd region dri_previous_owner) null_enclave_id ;;
       store64 (wadd region dri_pinned_pages) 0 ;;
       store64 (wadd region dri_blocked_at) 0 ;;
       Ret tt) ;;
  let dram_regions := top in
  let top := wadd dram_regions dram_regions_info_size in
  store64 (wadd dram_regions drs_block_clock) 0 ;;
  let os_bitmap := top in
  let top := wadd os_bitmap (wmul 8 (ge_bitmap_words ge)) in
  for_n (N.to_nat (ge_region_count ge)) 0
    (fun i => set_bitmap_bit os_bitmap i true) ;;
  Ret (mkGlobals top core (p_core_count P) dram_region dram_regions os_bitmap
         (ge_dram_size ge) (ge_region_shift ge) (ge_stripe_shift ge)
         (ge_stripe_page_mask ge) (ge_region_mask ge) (ge_stripe_mask ge)
         (ge_region_count ge) (ge_stripe_size ge) (ge_stripe_pages ge)
         (ge_bitmap_words ge) (fst meta) (snd meta)).

(** g_monitor_top = top: boot_init.cc:164-180 *)
Definition with_top (G : globals) (top : N) : globals :=
  mkGlobals top (g_core G) (g_core_count G) (g_dram_region G)
    (g_dram_regions G) (g_os_region_bitmap G) (g_dram_size G)
    (g_dram_region_shift G) (g_dram_stripe_shift G)
    (g_dram_stripe_page_mask G) (g_dram_region_mask G) (g_dram_stripe_mask G)
    (g_dram_region_count G) (g_dram_stripe_size G) (g_dram_stripe_pages G)
    (g_dram_region_bitmap_words G) (g_metadata_region_pages G)
    (g_metadata_region_start G).

(** boot_init_protection: boot_init.cc:164-180 *)
Definition boot_init_protection (G : globals) : prog globals :=
  ub_if (int_shl_ub 1 (address_bits_for (g_monitor_top G))) 2 ;;
  let top := ceil_power_of_two (g_monitor_top G) in
  op1 (OSetParBase 0) ;;
  op1 (OSetParMask (wnot (wsub top 1))) ;;
  op1 (OSetDrb (g_os_region_bitmap G)) ;;
  if g_dram_stripe_size G <? top then Stop
  else
  op1 (OSetDmaStart top) ;;
  op1 (OSetDmaEnd (wadd top 1)) ;;
  op1 (OSetDmarBase top) ;;
  op1 (OSetDmarMask (wnot 0)) ;;
  Ret (with_top G top).

(** The boot sequence in the order required by src/monitor/boot_init.h:17-40.
    [top] is the end of the monitor's image. *)
Definition boot_from (P : platform) (top : N) : prog globals :=
  ge <- boot_init_dram_regions P ;;
  let meta := boot_init_metadata ge in
  G <- boot_init_dynamic_arrays P ge meta top ;;
  boot_init_protection G.
Definition boot (P : platform) : prog globals :=
  boot_from P boot_init_monitor_top.
