{
 "claims": [
  {
   "property": "C01",
   "status": "proved",
   "theorems": [
    "C01_range_mask_exact",
    "C01_range_exact",
    "C01_range_members",
    "C01_range_last"
   ],
   "note": "Exact characterisation of accepted masks and ranges, all 64-bit values."
  },
  {
   "property": "C02",
   "status": "partial",
   "theorems": [
    "C02_pages_needed_partial",
    "C02_pages_needed_refuted",
    "C02_page_aligned_exact"
   ],
   "note": "Proved for sizes up to 2^64-4096; the code returns 0 for the 4095 larger sizes (refuted)."
  },
  {
   "property": "C03",
   "status": "partial",
   "theorems": [
    "C03_address_bits",
    "C03_power_of_two_exact",
    "C03_ceil_power_of_two_partial",
    "C03_ceil_power_of_two_refuted"
   ],
   "note": "Bit count and power-of-two test proved for all sizes; ceil_power_of_two proved up to 2^30, refuted above (int shift)."
  },
  {
   "property": "C04",
   "status": "proved",
   "theorems": [
    "C04_set_bit",
    "C04_read_bit"
   ],
   "note": "Bit-level read/write and byte-level frame."
  },
  {
   "property": "C05",
   "status": "proved",
   "theorems": [
    "C05_bzero",
    "C05_bcopy"
   ],
   "note": "Byte-exact effect and frame of bzero/bcopy."
  },
  {
   "property": "C06",
   "status": "proved",
   "theorems": [
    "C06_reverse_involution",
    "C06_reverse_endianness"
   ],
   "note": "Involution and endianness conversion."
  },
  {
   "property": "C07",
   "status": "proved",
   "theorems": [
    "C07_entry_roundtrip",
    "C07_write_read"
   ],
   "note": "Round trip of entries, pure and through memory."
  },
  {
   "property": "C08",
   "status": "proved",
   "theorems": [
    "C08_walk_is_translation",
    "C08_same_page",
    "C08_accesses"
   ],
   "note": "Walk equals the specification translate for both geometries; a leaf entry at physical address 0 counts as unmapped, as in the code."
  },
  {
   "property": "C09",
   "status": "proved",
   "theorems": [
    "C09_link_then_walk"
   ],
   "note": "Top-down linking then walking; frame for other addresses. The linking sequence is the one of the (commented-out) body of load_page_table, built from live functions."
  },
  {
   "property": "C10",
   "status": "partial",
   "theorems": [
    "C10_sha256_partial",
    "C10_sha256_length_mod_partial",
    "C10_sha256_refuted",
    "C10_never_fails"
   ],
   "note": "SHA-256 (FIPS 180-4 specification in SpecSha256.v) for all messages below 2^32 bits; for longer ones the code stores the length modulo 2^32, characterised exactly and shown to differ from the FIPS padding."
  },
  {
   "property": "C11",
   "status": "proved",
   "theorems": [
    "C11_init_frame",
    "C11_extend_frame",
    "C11_finalize_frame"
   ],
   "note": "Byte-level frame of init, extend and finalize."
  },
  {
   "property": "C12",
   "status": "partial",
   "theorems": [
    "C12_measurement_partial",
    "C12_measurement_length_mod_partial"
   ],
   "note": "For load histories below 2^32 bits; above, only the length field of the padding differs (see C10). The measured operations are the functions of measure_inl.h; load_page and load_page_table have commented-out bodies and do not call them."
  },
  {
   "property": "C13",
   "status": "proved",
   "theorems": [
    "C13_encoding_injective",
    "C13_measured_injective",
    "C13_equal_digest_collision"
   ],
   "note": "Injectivity of the encoding for all histories; equal digests of different histories are a SHA-256 collision."
  },
  {
   "property": "C14",
   "status": "proved",
   "theorems": [
    "C14_no_argument_leak",
    "C14_measurement_frame"
   ],
   "note": "Argument words are zero after every measured operation in every history; measurement writes only the measurement fields."
  },
  {
   "property": "C15",
   "status": "partial",
   "theorems": [
    "C15_geometry_partial",
    "C15_masks_partition_partial",
    "C15_masks_cover_refuted",
    "C15_geometry_refuted"
   ],
   "note": "Shifts, sizes, counts and masks for every boot that returns without undefined behaviour on a platform whose DRAM spans the cache index; masks partition the address bits when DRAM is a power of two, refuted otherwise."
  },
  {
   "property": "C16",
   "status": "partial",
   "theorems": [
    "C16_supported_boots",
    "C16_refuses_shared_inner_cache",
    "C16_refuses_line_size",
    "C16_refuses_set_count",
    "C16_refuses_small_cache",
    "C16_refuses_small_dram_partial",
    "C16_refuses_small_dram_refuted",
    "C16_refuses_large_tables"
   ],
   "note": "Unsupported platforms are refused and supported ones boot without undefined behaviour; refuted for DRAM smaller than the cache index and for region shifts above 30."
  },
  {
   "property": "C17",
   "status": "proved",
   "theorems": [
    "C17_boot_establishes_geometry",
    "C17_decomposition",
    "C17_recomposition",
    "C17_region_index_valid",
    "C17_region_start",
    "C17_page_in_one_region"
   ],
   "note": "Decomposition, recomposition, region of a start address, one region per page, for every geometry boot produces."
  },
  {
   "property": "C18",
   "status": "partial",
   "theorems": [
    "C18_page_index_refuted",
    "C18_collision_refuted",
    "C18_first_stripe_partial"
   ],
   "note": "Undefined shift refuted for every argument; with the shift masked as on RISC-V the index is not unique."
  },
  {
   "property": "C19",
   "status": "partial",
   "theorems": [
    "C19_map_fits",
    "C19_entry_per_page_partial",
    "C19_entry_per_page_refuted"
   ],
   "note": "The map fits in the first stripe and in metadata_region_start pages; an entry for every page only for power-of-two DRAM (otherwise refuted)."
  },
  {
   "property": "C20",
   "status": "proved",
   "theorems": [
    "C20_layout",
    "C20_initial_values",
    "C20_frame"
   ],
   "note": "Layout and initial values after every supported boot."
  },
  {
   "property": "C21",
   "status": "proved",
   "theorems": [
    "C21_monitor_protected",
    "C21_os_memory_reachable"
   ],
   "note": "For the booting core, as the property says."
  },
  {
   "property": "C22",
   "status": "partial",
   "theorems": [
    "C22_core_table_refuted",
    "C22_bitmap_tail_refuted",
    "C22_zeroed_memory_partial"
   ],
   "note": "What boot does initialise; the core table and the bitmap bits beyond the count are left as they were (refuted)."
  },
  {
   "property": "C23",
   "status": "partial",
   "theorems": [
    "C23_transitions_partial",
    "C23_copy_debug_refuted",
    "C23_accept_thread_refuted"
   ],
   "note": "For every history of calls on any core, OS writes and DMA writes; excluded: accept_thread whose argument block or thread is in region 0 or at the end of the address space (C24_accept_thread_refuted) and copy_debug_enclave_page(0, below monitor top, write) (C23_copy_debug_refuted), which break it. With accept_thread refuted: C23_accept_thread_refuted."
  },
  {
   "property": "C24",
   "status": "partial",
   "theorems": [
    "C24_region0_partial",
    "C24_calls_refused",
    "C24_copy_debug_refuted",
    "C24_accept_thread_refuted"
   ],
   "note": "Same histories as C23; refuted for copy_debug_enclave_page with enclave_id 0 and for accept_thread with a thread in the monitor's memory."
  },
  {
   "property": "C25",
   "status": "partial",
   "theorems": [
    "C25_bitmap_partial",
    "C25_owner_codes_partial",
    "C25_copy_debug_refuted",
    "C25_accept_thread_refuted"
   ],
   "note": "Same histories; refuted for copy_debug_enclave_page with enclave_id 0. With accept_thread refuted: C25_accept_thread_refuted."
  },
  {
   "property": "C26",
   "status": "proved",
   "theorems": [
    "C26_abstract_state_exists",
    "C26_block",
    "C26_create_metadata_region",
    "C26_assign",
    "C26_free",
    "C26_flush",
    "C26_set_dma_range",
    "C26_block_not_owner"
   ],
   "note": "Result and effect tables (SpecMonitor.v) for every region call, every argument, in every reachable state; block by a non-owner refused in every state at all."
  },
  {
   "property": "C27",
   "status": "partial",
   "theorems": [
    "C27_failed_no_effect_partial",
    "C27_thread_calls_partial",
    "C27_accept_thread_refuted"
   ],
   "note": "All failing calls leave the machine unchanged, except that load_thread/assign_thread may set a nonzero word at enclave_id to 1, and that a failed accept_thread may have set a word behind the region table (C27_accept_thread_refuted; what it writes: C49, C78); copy_debug_enclave_page(0,...) over the monitor excluded."
  },
  {
   "property": "C28",
   "status": "proved",
   "theorems": [
    "C28_queries",
    "C28_state_accurate"
   ],
   "note": "Queries return the table values and change nothing. Metadata regions are reported as owned, as the code does."
  },
  {
   "property": "C29",
   "status": "partial",
   "theorems": [
    "C29_region_locks_partial",
    "C29_refuted",
    "C29_accept_thread_refuted"
   ],
   "note": "All calls of the histories of C23 restore every region lock except delete_thread and create_thread, which leak one (refuted for delete_thread on every machine). With accept_thread refuted: C29_accept_thread_refuted."
  },
  {
   "property": "C30",
   "status": "partial",
   "theorems": [
    "C30_refuted",
    "C30_flushed_partial"
   ],
   "note": "Refuted on every machine (block then free without any flush); proved: each core flushed since the block, or no block happened between its last flush and that block."
  },
  {
   "property": "C31",
   "status": "partial",
   "theorems": [
    "C31_flush_suffices_partial",
    "C31_wrap_refuted"
   ],
   "note": "For histories with fewer than 2^64 blocks; refuted at 2^64 blocks (clock wraps)."
  },
  {
   "property": "C32",
   "status": "partial",
   "theorems": [
    "C32_block_times_partial",
    "C32_increasing_partial",
    "C32_flush_below_clock_partial",
    "C32_wrap_refuted"
   ],
   "note": "For histories with fewer than 2^64 blocks; refuted at 2^64 blocks (clock wraps)."
  },
  {
   "property": "C33",
   "status": "partial",
   "theorems": [
    "C33_range_partial",
    "C33_ownership_refuted",
    "C33_monitor_refuted",
    "C33_blocked_refuted"
   ],
   "note": "set_dma_range accepts exactly the aligned power-of-two ranges in DRAM and the window is the range; ownership and the monitor are not checked (refuted on every machine)."
  },
  {
   "property": "C34",
   "status": "partial",
   "theorems": [
    "C34_first_stripe_partial",
    "C34_refusal_justified",
    "C34_second_stripe_refuted"
   ],
   "note": "First stripe only; refuted on every machine for the second stripe of a region."
  },
  {
   "property": "C35",
   "status": "proved",
   "theorems": [
    "C35_window_is_range",
    "C35_window_changes"
   ],
   "note": "In every reachable state; only set_dma_range changes it."
  },
  {
   "property": "C36",
   "status": "partial",
   "theorems": [
    "C36_latest_core_partial",
    "C36_single_core_partial",
    "C36_monitor_partial",
    "C36_stale_refuted"
   ],
   "note": "For the core that made the latest block or assignment, for single-core machines, and for the monitor's memory on every core; refuted for stale registers of other cores."
  },
  {
   "property": "C37",
   "status": "partial",
   "theorems": [
    "C37_monitor_kept",
    "C37_monitor_kept_many",
    "C37_metadata_kept_partial",
    "C37_metadata_refuted"
   ],
   "note": "Monitor bytes in every reachable state; regions not owned by the OS on single-core machines; refuted for two cores (stale registers)."
  },
  {
   "property": "C38",
   "status": "partial",
   "theorems": [
    "C38_create_enclave_partial",
    "C38_one_page_marked_partial",
    "C38_marking_refuted"
   ],
   "note": "Fields, measurement, frame and registers for every reachable state and all arguments; the map marking is as documented for one-page records and refuted for records of two or more pages."
  },
  {
   "property": "C39",
   "status": "partial",
   "theorems": [
    "C39_no_double_allocation_partial",
    "C39_last_page_refuted",
    "C39_live_enclave_refuted"
   ],
   "note": "Pages are not given out twice while the region is undisturbed, except the last page of records of two or more pages; refuted for that page and for mailbox counts whose size wraps to zero pages."
  },
  {
   "property": "C40",
   "status": "partial",
   "theorems": [
    "C40_map_page_refuted",
    "C40_usable_partial"
   ],
   "note": "Refuted: create_enclave accepts the pages that hold the map, in every fresh metadata region."
  },
  {
   "property": "C41",
   "status": "partial",
   "theorems": [
    "C41_pages_cover_partial",
    "C41_overflow_refuted",
    "C41_thread_pages_cover"
   ],
   "note": "Holds up to sizes of 2^64-4096 bytes; refuted for 2^60 mailboxes."
  },
  {
   "property": "C42",
   "status": "partial",
   "theorems": [
    "C42_live_region_freed_refuted",
    "C42_pinned_partial"
   ],
   "note": "Refuted: in every reachable state a metadata region with a just created enclave can be freed."
  },
  {
   "property": "C43",
   "status": "partial",
   "theorems": [
    "C43_new_enclave_partial",
    "C43_bitmap_refuted"
   ],
   "note": "Counts are zero; the bitmap is unchanged memory: refuted by a reachable execution."
  },
  {
   "property": "C44",
   "status": "partial",
   "theorems": [
    "C44_never_loaded_refuted",
    "C44_owned_partial"
   ],
   "note": "Refuted: no such call succeeds in any reachable state."
  },
  {
   "property": "C45",
   "status": "partial",
   "theorems": [
    "C45_no_threads_refuted"
   ],
   "note": "Refuted: no such call succeeds in any reachable state."
  },
  {
   "property": "C46",
   "status": "partial",
   "theorems": [
    "C46_nothing_freed_refuted",
    "C46_live_refused_partial"
   ],
   "note": "Refuted: with the bit past the last region clear, delete_enclave frees and wipes nothing (the freeing loop reads the bitmap at the wrong index); the frame part (no other region touched) is what remains true."
  },
  {
   "property": "C47",
   "status": "partial",
   "theorems": [
    "C47_wipe_partial",
    "C47_huge_dram_refuted"
   ],
   "note": "Proved for every geometry with DRAM ending a round of stripes below 2^64; for larger DRAM the loop is proved not to terminate."
  },
  {
   "property": "C48",
   "status": "partial",
   "theorems": [
    "C48_debug_copy_partial",
    "C48_monitor_read_refuted",
    "C48_monitor_write_refuted",
    "C48_leak_refuted"
   ],
   "note": "Proved for all reachable states except writes below the monitor top with enclave_id 0; reading/writing the monitor with enclave_id 0 and the one-bit leak at enclave_id+24 are proved as refutations."
  },
  {
   "property": "C49",
   "status": "partial",
   "theorems": [
    "C49_address_as_index_refuted",
    "C49_writes_blocked_region_refuted",
    "C49_clears_foreign_lock_refuted",
    "C49_footprint_partial"
   ],
   "note": "Refuted: accept_thread uses an address as region index, overwrites arbitrary words and clears a lock it never acquired."
  },
  {
   "property": "C50",
   "status": "partial",
   "theorems": [
    "C50_distinct_partial",
    "C50_async_exit_refuted"
   ],
   "note": "Distinct except monitor_async_exit = monitor_access_denied (api.h:60,66)."
  },
  {
   "property": "C51",
   "status": "partial",
   "theorems": [
    "C51_mutual_exclusion_partial",
    "C51_lock_word_partial",
    "C51_release_partial",
    "C51_accept_thread_refuted"
   ],
   "note": "Proved for every interleaving of all calls except accept_thread and copy_debug_enclave_page(0, below monitor top); refuted with accept_thread (it clears a foreign lock)."
  },
  {
   "property": "C52",
   "status": "partial",
   "theorems": [
    "C52_owners_partial",
    "C52_bitmap_partial",
    "C52_dma_partial",
    "C52_changes_partial",
    "C52_accept_thread_refuted",
    "C52_region_zero_refuted"
   ],
   "note": "Proved at every instant of every interleaving of the calls of safe_call; missing: accept_thread and copy_debug_enclave_page(0, ...) writing below the monitor top, which break it (C48, C49): C52_accept_thread_refuted, C52_region_zero_refuted."
  },
  {
   "property": "C53",
   "status": "partial",
   "theorems": [
    "C53_quiet_unlocked_partial",
    "C53_quiet_partial",
    "C53_delete_thread_refuted",
    "C53_accept_thread_refuted"
   ],
   "note": "Proved without create_thread/delete_thread (and with them for all locks except region 0's); refuted with delete_thread, which returns with lock 0 held, and with accept_thread, which may set the lock of any region for good (C53_accept_thread_refuted)."
  },
  {
   "property": "C54",
   "status": "partial",
   "theorems": [
    "C54_bounded_partial",
    "C54_set_dma_refuted",
    "C54_set_dma_exact"
   ],
   "note": "Proved for every machine, interleaving and call except those whose loop wraps around the address space (loop_ends: delete_enclave when DRAM reaches into the last round of stripes below 2^64, set_dma_range of a range shorter than a stripe in the last stripe below 2^64); those are refuted: C47_huge_dram_refuted, C54_set_dma_refuted and, exactly, C54_set_dma_exact."
  },
  {
   "property": "C55",
   "status": "partial",
   "theorems": [
    "C55_flush_race_refuted",
    "C55_flushed_partial",
    "C55_accept_thread_refuted"
   ],
   "note": "Proved while the 64-bit block clock does not wrap, for the calls of safe_call, in terms of the recorded flush times; refuted in terms of actual TLB flushes, because reading the clock and flushing is not atomic (C55_flush_race_refuted). With accept_thread it fails in the recorded times too (C55_accept_thread_refuted)."
  },
  {
   "property": "C56",
   "status": "partial",
   "theorems": [
    "C56_success_once_partial",
    "C56_store_documented_partial",
    "C56_failure_silent_partial",
    "C56_concurrent_justified_partial",
    "C56_accept_thread_refuted"
   ],
   "note": "Proved for every interleaving of all calls except accept_thread and copy_debug_enclave_page(0, below monitor top, write), which can corrupt the tables (C48, C49). That they do: C56_accept_thread_refuted, C24_copy_debug_refuted, C77_accept_thread_refuted."
  },
  {
   "property": "C57",
   "status": "partial",
   "theorems": [
    "C57_in_dram_partial",
    "C57_short_dram_refuted",
    "C57_second_stripe_refuted",
    "C57_copy_debug_refuted",
    "C57_accept_thread_refuted"
   ],
   "note": "Proved for every interleaving of calls except accept_thread and copy_debug writes below the monitor top with id 0, with identifiers in the first stripe round (copy_debug: enclave record in DRAM), when DRAM covers one full stripe round and is page sized; four _refuted theorems show each restriction is needed (create_metadata_region zeroes beyond a short DRAM, create_enclave second-stripe id, copy_debug id 2^63, accept_thread address as region index)."
  },
  {
   "property": "C58",
   "status": "partial",
   "theorems": [
    "C58_va_check_refuted",
    "C58_accepted_partial"
   ],
   "note": "The acceptance condition of load_page/load_page_table is refuted: the virtual address test is wrong (C58_va_check_refuted)."
  },
  {
   "property": "C59",
   "status": "proved",
   "theorems": [
    "C59_init_enclave",
    "C59_lifecycle"
   ],
   "note": "Result table, frame and digest for every state with 0/1 locks; C59_lifecycle gives what later calls return. The history hypothesis is C12's (message below 2^32 bits)."
  },
  {
   "property": "C60",
   "status": "proved",
   "theorems": [
    "C60_load_page",
    "C60_load_page_table",
    "C60_nothing_loaded_refuted"
   ],
   "note": "Result tables for every state; the part of the claim about the ok path is refuted (C60_nothing_loaded_refuted)."
  },
  {
   "property": "C61",
   "status": "proved",
   "theorems": [
    "C61_enter_enclave",
    "C61_entry_wedges_refuted",
    "C61_exit_enclave",
    "C61_delete_thread",
    "C61_create_thread"
   ],
   "note": "Result tables and exact effect for every state and all arguments (create_thread also when the OS is running, or the bitmap wraps around); C61_entry_wedges_refuted shows the consequence of the leaked lock."
  },
  {
   "property": "C62",
   "status": "proved",
   "theorems": [
    "C62_bit_clear",
    "C62_refused",
    "C62_foreign_regions_refuted",
    "C62_delete_enclave",
    "C62_every_machine",
    "C62_ownership_lost_refuted"
   ],
   "note": "The code and the exact state after the call, for every state and identifier: C62_every_machine (including the machines on which it never returns), C62_delete_enclave (DRAM plus one round of stripes within the address space). C62_bit_clear: nothing changes with bit n clear. The documented claim is false of the code: C46, C62_foreign_regions_refuted, C62_ownership_lost_refuted."
  },
  {
   "property": "C63",
   "status": "proved",
   "theorems": [
    "C63_queries",
    "C63_free",
    "C63_create_metadata_region",
    "C63_block",
    "C63_assign",
    "C63_flush"
   ],
   "note": "Tables and exact effects for every state with 0/1 locks; the record of the running or receiving enclave must not overlap the monitor's tables."
  },
  {
   "property": "C64",
   "status": "proved",
   "theorems": [
    "C64_enclave_records",
    "C64_only_debug",
    "C64_monitor_overwritten_refuted",
    "C64_debug_copy",
    "C64_os_copies_refuted"
   ],
   "note": "The code and the exact state after the call for every state, identifier (0 and the monitor's memory included) and pair of pages (C64_debug_copy); C64_enclave_records is the readable case of records outside the monitor. The documented claim fails for the monitor's memory, which counts as the OS's (C64_monitor_overwritten_refuted, C64_os_copies_refuted)."
  },
  {
   "property": "C65",
   "status": "proved",
   "theorems": [
    "C65_thread_calls",
    "C65_no_change",
    "C65_no_threads_refuted"
   ],
   "note": "Exact result and state for all arguments (second-stripe identifiers included). C65_no_threads_refuted: the result is never ok."
  },
  {
   "property": "C66",
   "status": "partial",
   "theorems": [
    "C66_accept_thread_refuted",
    "C66_noninterference_partial",
    "C66_thread_calls_refuted"
   ],
   "note": "Full statement proved for executions without a successful create_thread/delete_thread and without the events excluded from histories (accept_thread whose argument block or thread is in region 0 or at the end of the address space (C24_accept_thread_refuted), copy_debug with id 0 into the monitor, C48; device writes to the monitor, C33). With a successful delete_thread refuted on every machine (C66_thread_calls_refuted): it leaves region 0 locked (C29), and blocks are refused that would succeed without it. With accept_thread: C66_accept_thread_refuted."
  },
  {
   "property": "C67",
   "status": "partial",
   "theorems": [
    "C67_reclaim_partial",
    "C67_wedged",
    "C67_reclaim_refuted"
   ],
   "note": "Proved while the lock of region 0 is free and fewer than 2^64 blocks happened; refuted after a successful create_thread or delete_thread (C67_wedged, C67_reclaim_refuted)."
  },
  {
   "property": "C68",
   "status": "proved",
   "theorems": [
    "C68_documented_results"
   ],
   "note": "Over every machine state."
  },
  {
   "property": "C69",
   "status": "proved",
   "theorems": [
    "C69_hardware",
    "C69_undefined",
    "C69_interleaved",
    "C69_protection_constant"
   ],
   "note": "Over every machine state and every interleaving."
  },
  {
   "property": "C70",
   "status": "proved",
   "theorems": [
    "C70_set_dma_range",
    "C70_result_unique",
    "C70_owner_ignored_refuted"
   ],
   "note": "result table over every state; C70_owner_ignored_refuted shows what the call does not check"
  },
  {
   "property": "C71",
   "status": "proved",
   "theorems": [
    "C71_first_stripe",
    "C71_result_unique",
    "C71_create_enclave",
    "C71_outcome_unique"
   ],
   "note": "For every identifier and mailbox count; region 0 not a metadata region (it never is in a reachable state, C24)."
  },
  {
   "property": "C72",
   "status": "proved",
   "theorems": [
    "C72_pointer_arithmetic",
    "C72_array"
   ],
   "note": "arithmetic of the flat address space"
  },
  {
   "property": "C73",
   "status": "proved",
   "theorems": [
    "C73_bzero_loop",
    "C73_bcopy_loop",
    "C73_equal_runs"
   ],
   "note": "the literal loops equal the loops of the model, for every start and length"
  },
  {
   "property": "C74",
   "status": "proved",
   "theorems": [
    "C74_sequential",
    "C74_calls"
   ],
   "note": ""
  },
  {
   "property": "C75",
   "status": "partial",
   "theorems": [
    "C75_exclusion_refuted"
   ],
   "note": "refuted: an interleaving in which two calls hold the same lock; with atomic operations see C51"
  },
  {
   "property": "C76",
   "status": "partial",
   "theorems": [
    "C76_linearizable_partial",
    "C76_all_executions",
    "C76_accept_thread_refuted"
   ],
   "note": "Every interleaving of all calls but accept_thread and copy_debug_enclave_page over the monitor is linearizable; create_thread and delete_thread, which return with the lock of region 0 held, included. A flush is credited with a time between its start and its effect rather than the time of the effect: the code reads the clock and stores it in two steps. C76_accept_thread_refuted: with accept_thread there are executions that no sequential order explains."
  },
  {
   "property": "C77",
   "status": "partial",
   "theorems": [
    "C77_winners_partial",
    "C77_accept_thread_refuted"
   ],
   "note": "For the same set of calls as C76. C77_accept_thread_refuted: with accept_thread a region is blocked twice in a row."
  },
  {
   "property": "C78",
   "status": "proved",
   "theorems": [
    "C78_accept_thread",
    "C78_accepted",
    "C78_reserved_refuted",
    "C78_exact"
   ],
   "note": "C78_exact: code and exact memory for every state, identifier and argument, overlaps included; C78_accept_thread is the readable form when the blocks do not overlap. The documented acceptance of pages assigned by the OS is refuted (C78_reserved_refuted)."
  },
  {
   "property": "C79",
   "status": "partial",
   "theorems": [
    "C79_secret_partial",
    "C79_copy_debug_refuted",
    "C79_accept_thread_refuted",
    "C79_unnamed_partial"
   ],
   "note": "C79_secret_partial: any region that is not a metadata region, calls whose addresses avoid it. C79_unnamed_partial: a region of any owner, metadata included, while no call names it. Excluded: region 0; identifiers beyond the first stripes (create_enclave, assign_thread, load_thread) on machines with page bits + 2 region bits > 55 (on smaller ones every identifier is covered); copy_debug_enclave_page arguments in the region and accept_thread, both refuted; machines whose region registers are loaded from an area that reaches into the region (registers far wider than the bitmap)."
  },
  {
   "property": "C80",
   "status": "partial",
   "theorems": [
    "C80_sequential_partial",
    "C80_reclaim_partial",
    "C80_accept_thread_refuted"
   ],
   "note": "For the calls of C76 (without accept_thread and copy_debug_enclave_page over the monitor), fewer than 2^64 blocks; reclaiming while the lock of region 0 is free (create_thread and delete_thread leak it). With accept_thread refuted: C80_accept_thread_refuted, a region that no flushes, frees and assignments give back."
  },
  {
   "property": "C81",
   "status": "partial",
   "theorems": [
    "C81_flush_then_free_partial",
    "C81_accept_thread_refuted"
   ],
   "note": "For the calls of C76, fewer than 2^64 blocks, and while the lock of region 0 is free. With accept_thread refuted (C81_accept_thread_refuted): it can set a blocked region's block time beyond the clock, and the region is then not freed after flushes on all cores."
  },
  {
   "property": "C82",
   "status": "partial",
   "theorems": [
    "C82_block_times_partial",
    "C82_accept_thread_refuted"
   ],
   "note": "For the calls of C76 and fewer than 2^64 blocks (the clock wraps, C32). With accept_thread refuted (C82_accept_thread_refuted): two blocked regions with the same time."
  },
  {
   "property": "C83",
   "status": "partial",
   "theorems": [
    "C83_untouched_partial",
    "C83_sealed_partial",
    "C83_accept_thread_refuted"
   ],
   "note": "Proved for every interleaving and region, from any reachable configuration; excluded: region 0, identifiers beyond the first stripe of each region on machines with page bits + 2 region bits > 55, copy_debug_enclave_page pointing into the region (it is asked to write there) and accept_thread, for which C83_accept_thread_refuted shows the code violates it; bitmap registers so wide that the hardware reads them from an area reaching into the region."
  },
  {
   "property": "C84",
   "status": "proved",
   "theorems": [
    "C84_boots",
    "C84_boot_result"
   ],
   "note": "Equivalence and exact result for every platform with 1 <= cache levels, sizes below 2^64 and counts below 2^32 (sane)."
  },
  {
   "property": "C85",
   "status": "partial",
   "theorems": [
    "C85_bitmap_exact",
    "C85_bitmap_boot",
    "C85_revocation_partial",
    "C85_accept_thread_refuted"
   ],
   "note": "Exact bitmaps proved for every history; revocation for every interleaving of the calls of C76 (without accept_thread and copy_debug_enclave_page over the monitor), at the instants at which all calls have returned. With accept_thread it fails (C85_accept_thread_refuted). Without the reload on every core access remains (C36_stale_refuted)."
  },
  {
   "property": "C86",
   "status": "partial",
   "theorems": [
    "C86_accept_thread_refuted",
    "C86_no_access_partial",
    "C86_unchanged_partial",
    "C86_sealed_partial"
   ],
   "note": "Every interleaving, region and owner. Missing: accept_thread (counts as naming every region; C86_accept_thread_refuted, C83_accept_thread_refuted show it writes anywhere), identifiers of create_enclave/assign_thread/load_thread beyond the first stripes on machines with page bits + 2 region bits > 55 (the map entry is mislocated, C40, and only on smaller machines certain to be in a stripe of the same region), copy_debug_enclave_page with id 0 writing to the monitor, bitmap registers so wide that the hardware reads them from an area reaching into the region."
  },
  {
   "property": "C87",
   "status": "partial",
   "theorems": [
    "C87_undefined_iff",
    "C87_success_refuted",
    "C87_reachable_refuted"
   ],
   "note": "Exact: a call executes undefined behaviour iff undefined_for holds (C87_undefined_iff); 18 of the 22 calls never do. Refuted for create_enclave and accept_thread: every success executes the undefined shift (C87_success_refuted, C87_reachable_refuted)."
  },
  {
   "property": "C88",
   "status": "proved",
   "theorems": [
    "C88_exchange",
    "C88_local"
   ],
   "note": "Exchange and locality for all pairs of region calls in every reachable state (histories of C23); what may differ (block times of two blocks, access registers of the two cores) is stated."
  },
  {
   "property": "C89",
   "status": "partial",
   "theorems": [
    "C89_record_partial",
    "C89_refusal_justified_partial",
    "C89_disjoint_partial",
    "C89_leak_refuted",
    "C89_accept_thread_refuted",
    "C89_record_refuted"
   ],
   "note": "every interleaving of calls outside accept_thread and copy_debug_enclave_page over the monitor; a load_thread or assign_thread may also be refused because the lock word of the record it names is set (C89_record_partial), which a stale register lets the OS write (C89_record_refuted). Refuted in full: leaked lock, accept_thread"
  },
  {
   "property": "C90",
   "status": "partial",
   "theorems": [
    "C90_progress_partial",
    "C90_dma_refuted",
    "C90_livelock_refuted",
    "C90_copy_refuted"
   ],
   "note": "proved for calls that name at most one region or the higher one first; refuted without the order: set_dma_range against block_dram_region, copy_debug against copy_debug; C90_livelock_refuted: two cores that retry set_dma_range and block_dram_region may refuse each other in every one of any number of rounds"
  },
  {
   "property": "C91",
   "status": "partial",
   "theorems": [
    "C91_flushed_partial",
    "C91_freed_partial",
    "C91_monitor",
    "C91_single_core_partial",
    "C91_refuted"
   ],
   "note": "proved: the core that blocked a region (or reloaded its registers since) holds no entry of it after a flush, nor when it is freed if another block preceded; no entry of the monitor ever; on one core only OS memory or unflushed blocked regions are reachable; refuted on every machine: fill, block, free, create_metadata without a flush leaves the metadata region writable"
  },
  {
   "property": "C92",
   "status": "partial",
   "theorems": [
    "C92_no_wipe",
    "C92_map_wiped",
    "C92_refuted",
    "C92_enclave_refuted"
   ],
   "note": "exact: block, free and assign write no byte outside the monitor, create_metadata_region zeroes exactly the map pages; refuted: in every reachable state free then assign gives the OS a metadata region with all its contents, e.g. a just created enclave's record"
  },
  {
   "property": "C93",
   "status": "partial",
   "theorems": [
    "C93_boot_refuted",
    "C93_locks_refuted",
    "C93_registers_refuted",
    "C93_core_refuted"
   ],
   "note": "Refuted for every state: boot never ends (C93_boot_refuted), no lock is ever found taken (C93_locks_refuted), no access register, DMA register or TLB ever changes (C93_registers_refuted), all cores are core 0 (C93_core_refuted). What holds on RISC-V are the page table functions (C05-C09). Not modelled: that bzero, bcopy and atomic_load are empty too; and the specialisations written 'inline template<>' do not compile."
  },
  {
   "property": "C94",
   "status": "partial",
   "theorems": [
    "C94_accept_thread_refuted",
    "C94_contains",
    "C94_monitor_partial",
    "C94_linearizable_partial",
    "C94_anytime_partial",
    "C94_shootdown_partial",
    "C94_order_refuted"
   ],
   "note": "Interleaved calls with TLBs (SpecShootdown.v). C94_monitor_partial, C94_linearizable_partial, C94_anytime_partial and C94_shootdown_partial leave out the calls that may write the monitor's tables (C48, C49), as C76 does, and assume fewer than 2^64 blocks. C94_order_refuted: a flush that precedes the reload leaves the region reachable even after it was freed. C94_accept_thread_refuted: with accept_thread, reload and flush do not suffice."
  },
  {
   "property": "C95",
   "status": "proved",
   "theorems": [
    "C95_hash",
    "C95_measurement",
    "C95_copy_debug",
    "C95_init_enclave"
   ],
   "note": "pairs of executions; accesses of the modelled memory operations (constants table and local variables excluded)"
  },
  {
   "property": "C96",
   "status": "proved",
   "theorems": [
    "C96_operations",
    "C96_interleaved",
    "C96_region_calls"
   ],
   "note": "for all calls but those that need not end (loop_ends, see C54); counts operations of the model, not processor cycles"
  },
  {
   "property": "C97",
   "status": "partial",
   "theorems": [
    "C97_own_sets_partial",
    "C97_timing",
    "C97_undisturbed_partial",
    "C97_one_core_partial",
    "C97_other_cores_refuted",
    "C97_long_lines_refuted"
   ],
   "note": "Proved for the booting core, lines of at most a page, and (interleavings) for machines whose cores all have the booting core's shift (one core: always), the calls of C86 that do not name the region; refuted for the other cores, whose shift boot never sets (C97_other_cores_refuted), and for lines longer than a page (C97_long_lines_refuted)."
  },
  {
   "property": "C98",
   "status": "partial",
   "theorems": [
    "C98_handed_over_refuted"
   ],
   "note": "Refuted on every machine whose cores have equal shifts: whatever the region's sets kept when it was blocked they keep when it is assigned (C98_handed_over_refuted; C98_example with a one-line-per-set cache)."
  },
  {
   "property": "C99",
   "status": "partial",
   "theorems": [
    "C99_boot",
    "C99_aligned_partial",
    "C99_copy_debug_refuted",
    "C99_accept_thread_refuted",
    "C99_top_refuted"
   ],
   "note": "Boot on every machine and start state, and every operation of every core in every interleaved execution, without conditions on identifiers, DRAM size or register width. Missing: copy_debug_enclave_page with an identifier that is no multiple of 8 and accept_thread; the code misses the check there (both refuted)."
  }
 ]
}