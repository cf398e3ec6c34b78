{
"C01": ["proved", "Exact characterisation of accepted masks and ranges, all 64-bit values."],
"C02": ["partial", "Proved for sizes up to 2^64-4096; the code returns 0 for the 4095 larger sizes (refuted)."],
"C03": ["partial", "Bit count and power-of-two test proved for all sizes; ceil_power_of_two proved up to 2^30, refuted above (int shift)."],
"C04": ["proved", "Bit-level read/write and byte-level frame."],
"C05": ["proved", "Byte-exact effect and frame of bzero/bcopy."],
"C06": ["proved", "Involution and endianness conversion."],
"C07": ["proved", "Round trip of entries, pure and through memory."],
"C08": ["proved", "Walk equals the specification translate for both geometries; a leaf entry at physical address 0 counts as unmapped, as in the code."],
"C09": ["proved", "Top-down linking then walking; frame for other addresses. The linking sequence is the one of the (commented-out) body of load_page_table, built from live functions."],
"C10": ["partial", "SHA-256 (FIPS 180-4 specification in SpecSha256.v) for all messages below 2^32 bits; for longer ones the code stores the length modulo 2^32, characterised exactly and shown to differ from the FIPS padding."],
"C11": ["proved", "Byte-level frame of init, extend and finalize."],
"C12": ["partial", "For load histories below 2^32 bits; above, only the length field of the padding differs (see C10). The measured operations are the functions of measure_inl.h; load_page and load_page_table have commented-out bodies and do not call them."],
"C13": ["proved", "Injectivity of the encoding for all histories; equal digests of different histories are a SHA-256 collision."],
"C14": ["proved", "Argument words are zero after every measured operation in every history; measurement writes only the measurement fields."],
"C15": ["partial", "Shifts, sizes, counts and masks for every boot that returns without undefined behaviour on a platform whose DRAM spans the cache index; masks partition the address bits when DRAM is a power of two, refuted otherwise."],
"C16": ["partial", "Unsupported platforms are refused and supported ones boot without undefined behaviour; refuted for DRAM smaller than the cache index and for region shifts above 30."],
"C17": ["proved", "Decomposition, recomposition, region of a start address, one region per page, for every geometry boot produces."],
"C18": ["partial", "Undefined shift refuted for every argument; with the shift masked as on RISC-V the index is not unique."],
"C19": ["partial", "The map fits in the first stripe and in metadata_region_start pages; an entry for every page only for power-of-two DRAM (otherwise refuted)."],
"C20": ["proved", "Layout and initial values after every supported boot."],
"C21": ["proved", "For the booting core, as the property says."],
"C22": ["partial", "What boot does initialise; the core table and the bitmap bits beyond the count are left as they were (refuted)."],
"C23": ["partial", "For every history of calls on any core, OS writes and DMA writes; excluded: accept_thread whose argument block or thread is in region 0 or at the end of the address space (C24_accept_thread_refuted) and copy_debug_enclave_page(0, below monitor top, write) (C23_copy_debug_refuted), which break it. With accept_thread refuted: C23_accept_thread_refuted."],
"C24": ["partial", "Same histories as C23; refuted for copy_debug_enclave_page with enclave_id 0 and for accept_thread with a thread in the monitor's memory."],
"C25": ["partial", "Same histories; refuted for copy_debug_enclave_page with enclave_id 0. With accept_thread refuted: C25_accept_thread_refuted."],
"C26": ["proved", "Result and effect tables (SpecMonitor.v) for every region call, every argument, in every reachable state; block by a non-owner refused in every state at all."],
"C27": ["partial", "All failing calls leave the machine unchanged, except that load_thread/assign_thread may set a nonzero word at enclave_id to 1, and that a failed accept_thread may have set a word behind the region table (C27_accept_thread_refuted; what it writes: C49, C78); copy_debug_enclave_page(0,...) over the monitor excluded."],
"C28": ["proved", "Queries return the table values and change nothing. Metadata regions are reported as owned, as the code does."],
"C29": ["partial", "All calls of the histories of C23 restore every region lock except delete_thread and create_thread, which leak one (refuted for delete_thread on every machine). With accept_thread refuted: C29_accept_thread_refuted."],
"C30": ["partial", "Refuted on every machine (block then free without any flush); proved: each core flushed since the block, or no block happened between its last flush and that block."],
"C31": ["partial", "For histories with fewer than 2^64 blocks; refuted at 2^64 blocks (clock wraps)."],
"C32": ["partial", "For histories with fewer than 2^64 blocks; refuted at 2^64 blocks (clock wraps)."],
"C33": ["partial", "set_dma_range accepts exactly the aligned power-of-two ranges in DRAM and the window is the range; ownership and the monitor are not checked (refuted on every machine)."],
"C34": ["partial", "First stripe only; refuted on every machine for the second stripe of a region."],
"C35": ["proved", "In every reachable state; only set_dma_range changes it."],
"C36": ["partial", "For the core that made the latest block or assignment, for single-core machines, and for the monitor's memory on every core; refuted for stale registers of other cores."],
"C37": ["partial", "Monitor bytes in every reachable state; regions not owned by the OS on single-core machines; refuted for two cores (stale registers)."],
"C38": ["partial", "Fields, measurement, frame and registers for every reachable state and all arguments; the map marking is as documented for one-page records and refuted for records of two or more pages."],
"C39": ["partial", "Pages are not given out twice while the region is undisturbed, except the last page of records of two or more pages; refuted for that page and for mailbox counts whose size wraps to zero pages."],
"C40": ["partial", "Refuted: create_enclave accepts the pages that hold the map, in every fresh metadata region."],
"C41": ["partial", "Holds up to sizes of 2^64-4096 bytes; refuted for 2^60 mailboxes."],
"C42": ["partial", "Refuted: in every reachable state a metadata region with a just created enclave can be freed."],
"C43": ["partial", "Counts are zero; the bitmap is unchanged memory: refuted by a reachable execution."],
"C44": ["partial", "Refuted: no such call succeeds in any reachable state."],
"C45": ["partial", "Refuted: no such call succeeds in any reachable state."],
"C46": ["partial", "Refuted: with the bit past the last region clear, delete_enclave frees and wipes nothing (the freeing loop reads the bitmap at the wrong index); the frame part (no other region touched) is what remains true."],
"C47": ["partial", "Proved for every geometry with DRAM ending a round of stripes below 2^64; for larger DRAM the loop is proved not to terminate."],
"C48": ["partial", "Proved for all reachable states except writes below the monitor top with enclave_id 0; reading/writing the monitor with enclave_id 0 and the one-bit leak at enclave_id+24 are proved as refutations."],
"C49": ["partial", "Refuted: accept_thread uses an address as region index, overwrites arbitrary words and clears a lock it never acquired."],
"C50": ["partial", "Distinct except monitor_async_exit = monitor_access_denied (api.h:60,66)."],
"C51": ["partial", "Proved for every interleaving of all calls except accept_thread and copy_debug_enclave_page(0, below monitor top); refuted with accept_thread (it clears a foreign lock)."],
"C52": ["partial", "Proved at every instant of every interleaving of the calls of safe_call; missing: accept_thread and copy_debug_enclave_page(0, ...) writing below the monitor top, which break it (C48, C49): C52_accept_thread_refuted, C52_region_zero_refuted."],
"C53": ["partial", "Proved without create_thread/delete_thread (and with them for all locks except region 0's); refuted with delete_thread, which returns with lock 0 held, and with accept_thread, which may set the lock of any region for good (C53_accept_thread_refuted)."],
"C54": ["partial", "Proved for every machine, interleaving and call except those whose loop wraps around the address space (loop_ends: delete_enclave when DRAM reaches into the last round of stripes below 2^64, set_dma_range of a range shorter than a stripe in the last stripe below 2^64); those are refuted: C47_huge_dram_refuted, C54_set_dma_refuted and, exactly, C54_set_dma_exact."],
"C55": ["partial", "Proved while the 64-bit block clock does not wrap, for the calls of safe_call, in terms of the recorded flush times; refuted in terms of actual TLB flushes, because reading the clock and flushing is not atomic (C55_flush_race_refuted). With accept_thread it fails in the recorded times too (C55_accept_thread_refuted)."],
"C56": ["partial", "Proved for every interleaving of all calls except accept_thread and copy_debug_enclave_page(0, below monitor top, write), which can corrupt the tables (C48, C49). That they do: C56_accept_thread_refuted, C24_copy_debug_refuted, C77_accept_thread_refuted."],
"C57": ["partial", "Proved for every interleaving of calls except accept_thread and copy_debug writes below the monitor top with id 0, with identifiers in the first stripe round (copy_debug: enclave record in DRAM), when DRAM covers one full stripe round and is page sized; four _refuted theorems show each restriction is needed (create_metadata_region zeroes beyond a short DRAM, create_enclave second-stripe id, copy_debug id 2^63, accept_thread address as region index)."],
"C58": ["partial", "The acceptance condition of load_page/load_page_table is refuted: the virtual address test is wrong (C58_va_check_refuted)."],
"C59": ["proved", "Result table, frame and digest for every state with 0/1 locks; C59_lifecycle gives what later calls return. The history hypothesis is C12's (message below 2^32 bits)."],
"C60": ["proved", "Result tables for every state; the part of the claim about the ok path is refuted (C60_nothing_loaded_refuted)."],
"C61": ["proved", "Result tables and exact effect for every state and all arguments (create_thread also when the OS is running, or the bitmap wraps around); C61_entry_wedges_refuted shows the consequence of the leaked lock."],
"C62": ["proved", "The code and the exact state after the call, for every state and identifier: C62_every_machine (including the machines on which it never returns), C62_delete_enclave (DRAM plus one round of stripes within the address space). C62_bit_clear: nothing changes with bit n clear. The documented claim is false of the code: C46, C62_foreign_regions_refuted, C62_ownership_lost_refuted."],
"C63": ["proved", "Tables and exact effects for every state with 0/1 locks; the record of the running or receiving enclave must not overlap the monitor's tables."],
"C64": ["proved", "The code and the exact state after the call for every state, identifier (0 and the monitor's memory included) and pair of pages (C64_debug_copy); C64_enclave_records is the readable case of records outside the monitor. The documented claim fails for the monitor's memory, which counts as the OS's (C64_monitor_overwritten_refuted, C64_os_copies_refuted)."],
"C65": ["proved", "Exact result and state for all arguments (second-stripe identifiers included). C65_no_threads_refuted: the result is never ok."],
"C66": ["partial", "Full statement proved for executions without a successful create_thread/delete_thread and without the events excluded from histories (accept_thread whose argument block or thread is in region 0 or at the end of the address space (C24_accept_thread_refuted), copy_debug with id 0 into the monitor, C48; device writes to the monitor, C33). With a successful delete_thread refuted on every machine (C66_thread_calls_refuted): it leaves region 0 locked (C29), and blocks are refused that would succeed without it. With accept_thread: C66_accept_thread_refuted."],
"C67": ["partial", "Proved while the lock of region 0 is free and fewer than 2^64 blocks happened; refuted after a successful create_thread or delete_thread (C67_wedged, C67_reclaim_refuted)."],
"C68": ["proved", "Over every machine state."],
"C69": ["proved", "Over every machine state and every interleaving."],
"C70": ["proved", "result table over every state; C70_owner_ignored_refuted shows what the call does not check"],
"C71": ["proved", "For every identifier and mailbox count; region 0 not a metadata region (it never is in a reachable state, C24)."],
"C72": ["proved", "arithmetic of the flat address space"],
"C73": ["proved", "the literal loops equal the loops of the model, for every start and length"],
"C74": ["proved", ""],
"C75": ["partial", "refuted: an interleaving in which two calls hold the same lock; with atomic operations see C51"],
"C76": ["partial", "Every interleaving of all calls but accept_thread and copy_debug_enclave_page over the monitor is linearizable; create_thread and delete_thread, which return with the lock of region 0 held, included. A flush is credited with a time between its start and its effect rather than the time of the effect: the code reads the clock and stores it in two steps. C76_accept_thread_refuted: with accept_thread there are executions that no sequential order explains."],
"C77": ["partial", "For the same set of calls as C76. C77_accept_thread_refuted: with accept_thread a region is blocked twice in a row."],
"C78": ["proved", "C78_exact: code and exact memory for every state, identifier and argument, overlaps included; C78_accept_thread is the readable form when the blocks do not overlap. The documented acceptance of pages assigned by the OS is refuted (C78_reserved_refuted)."],
"C79": ["partial", "C79_secret_partial: any region that is not a metadata region, calls whose addresses avoid it. C79_unnamed_partial: a region of any owner, metadata included, while no call names it. Excluded: region 0; identifiers beyond the first stripes (create_enclave, assign_thread, load_thread) on machines with page bits + 2 region bits > 55 (on smaller ones every identifier is covered); copy_debug_enclave_page arguments in the region and accept_thread, both refuted; machines whose region registers are loaded from an area that reaches into the region (registers far wider than the bitmap)."],
"C80": ["partial", "For the calls of C76 (without accept_thread and copy_debug_enclave_page over the monitor), fewer than 2^64 blocks; reclaiming while the lock of region 0 is free (create_thread and delete_thread leak it). With accept_thread refuted: C80_accept_thread_refuted, a region that no flushes, frees and assignments give back."],
"C81": ["partial", "For the calls of C76, fewer than 2^64 blocks, and while the lock of region 0 is free. With accept_thread refuted (C81_accept_thread_refuted): it can set a blocked region's block time beyond the clock, and the region is then not freed after flushes on all cores."],
"C82": ["partial", "For the calls of C76 and fewer than 2^64 blocks (the clock wraps, C32). With accept_thread refuted (C82_accept_thread_refuted): two blocked regions with the same time."],
"C83": ["partial", "Proved for every interleaving and region, from any reachable configuration; excluded: region 0, identifiers beyond the first stripe of each region on machines with page bits + 2 region bits > 55, copy_debug_enclave_page pointing into the region (it is asked to write there) and accept_thread, for which C83_accept_thread_refuted shows the code violates it; bitmap registers so wide that the hardware reads them from an area reaching into the region."],
"C84": ["proved", "Equivalence and exact result for every platform with 1 <= cache levels, sizes below 2^64 and counts below 2^32 (sane)."],
"C85": ["partial", "Exact bitmaps proved for every history; revocation for every interleaving of the calls of C76 (without accept_thread and copy_debug_enclave_page over the monitor), at the instants at which all calls have returned. With accept_thread it fails (C85_accept_thread_refuted). Without the reload on every core access remains (C36_stale_refuted)."],
"C86": ["partial", "Every interleaving, region and owner. Missing: accept_thread (counts as naming every region; C86_accept_thread_refuted, C83_accept_thread_refuted show it writes anywhere), identifiers of create_enclave/assign_thread/load_thread beyond the first stripes on machines with page bits + 2 region bits > 55 (the map entry is mislocated, C40, and only on smaller machines certain to be in a stripe of the same region), copy_debug_enclave_page with id 0 writing to the monitor, bitmap registers so wide that the hardware reads them from an area reaching into the region."],
"C87": ["partial", "Exact: a call executes undefined behaviour iff undefined_for holds (C87_undefined_iff); 18 of the 22 calls never do. Refuted for create_enclave and accept_thread: every success executes the undefined shift (C87_success_refuted, C87_reachable_refuted)."],
"C88": ["proved", "Exchange and locality for all pairs of region calls in every reachable state (histories of C23); what may differ (block times of two blocks, access registers of the two cores) is stated."],
"C89": ["partial", "every interleaving of calls outside accept_thread and copy_debug_enclave_page over the monitor; a load_thread or assign_thread may also be refused because the lock word of the record it names is set (C89_record_partial), which a stale register lets the OS write (C89_record_refuted). Refuted in full: leaked lock, accept_thread"],
"C90": ["partial", "proved for calls that name at most one region or the higher one first; refuted without the order: set_dma_range against block_dram_region, copy_debug against copy_debug; C90_livelock_refuted: two cores that retry set_dma_range and block_dram_region may refuse each other in every one of any number of rounds"],
"C91": ["partial", "proved: the core that blocked a region (or reloaded its registers since) holds no entry of it after a flush, nor when it is freed if another block preceded; no entry of the monitor ever; on one core only OS memory or unflushed blocked regions are reachable; refuted on every machine: fill, block, free, create_metadata without a flush leaves the metadata region writable"],
"C92": ["partial", "exact: block, free and assign write no byte outside the monitor, create_metadata_region zeroes exactly the map pages; refuted: in every reachable state free then assign gives the OS a metadata region with all its contents, e.g. a just created enclave's record"],
"C93": ["partial", "Refuted for every state: boot never ends (C93_boot_refuted), no lock is ever found taken (C93_locks_refuted), no access register, DMA register or TLB ever changes (C93_registers_refuted), all cores are core 0 (C93_core_refuted). What holds on RISC-V are the page table functions (C05-C09). Not modelled: that bzero, bcopy and atomic_load are empty too; and the specialisations written 'inline template<>' do not compile."],
"C94": ["partial", "Interleaved calls with TLBs (SpecShootdown.v). C94_monitor_partial, C94_linearizable_partial, C94_anytime_partial and C94_shootdown_partial leave out the calls that may write the monitor's tables (C48, C49), as C76 does, and assume fewer than 2^64 blocks. C94_order_refuted: a flush that precedes the reload leaves the region reachable even after it was freed. C94_accept_thread_refuted: with accept_thread, reload and flush do not suffice."],
"C95": ["proved", "pairs of executions; accesses of the modelled memory operations (constants table and local variables excluded)"],
"C96": ["proved", "for all calls but those that need not end (loop_ends, see C54); counts operations of the model, not processor cycles"],
"C97": ["partial", "Proved for the booting core, lines of at most a page, and (interleavings) for machines whose cores all have the booting core's shift (one core: always), the calls of C86 that do not name the region; refuted for the other cores, whose shift boot never sets (C97_other_cores_refuted), and for lines longer than a page (C97_long_lines_refuted)."],
"C98": ["partial", "Refuted on every machine whose cores have equal shifts: whatever the region's sets kept when it was blocked they keep when it is assigned (C98_handed_over_refuted; C98_example with a one-line-per-set cache)."],
"C99": ["partial", "Boot on every machine and start state, and every operation of every core in every interleaved execution, without conditions on identifiers, DRAM size or register width. Missing: copy_debug_enclave_page with an identifier that is no multiple of 8 and accept_thread; the code misses the check there (both refuted)."]
}
