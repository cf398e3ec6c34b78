{"id": "C01", "title": "Base/mask range validation is exact", "statement": "A mask is accepted as a range mask exactly when it is 2^k-1 for some k; a base/mask pair is accepted exactly when, in addition, the base is a multiple of 2^k; for an accepted pair the addresses a with (a & ~mask) == base are exactly base..base+mask, and base|mask is the last one.", "quantifier": "every 64-bit base, mask and address", "why_tests_cant": "2^192 triples; a unit test samples a few", "anchors": ["src/bare/bit_masking.h:is_valid_range_mask", "src/bare/bit_masking.h:is_valid_range", "src/bare/bit_masking.h:is_aligned_to_mask"]}
{"id": "C02", "title": "Page rounding is a ceiling", "statement": "The number of pages computed for a byte count is the least n with n*4096 >= count; a page-alignment check accepts exactly the multiples of 4096.", "quantifier": "every 64-bit size (the claim must hold up to 2^64-1)", "why_tests_cant": "the failure is an overflow in the last page of the 64-bit range", "anchors": ["src/bare/bit_masking.h:pages_needed_for", "src/bare/bit_masking.h:is_page_aligned"]}
{"id": "C03", "title": "Address width and power-of-two helpers", "statement": "The bit count for a size n>=1 is the least k with n <= 2^k; the rounded-up power of two of n is the least power of two >= n; the power-of-two test accepts exactly powers of two.", "quantifier": "every 64-bit size n >= 1", "why_tests_cant": "depends on integer widths of intermediate expressions; tests use small sizes", "anchors": ["src/bare/bit_masking.h:address_bits_for", "src/bare/bit_masking.h:ceil_power_of_two", "src/bare/bit_masking.h:is_power_of_two"]}
{"id": "C04", "title": "Bitmap bit operations touch one bit", "statement": "Setting or clearing bit i of a bitmap makes a later read of bit i return that value, leaves every other bit of the bitmap and every byte of memory outside the one 8-byte word unchanged.", "quantifier": "every memory content, bitmap address, bit index and value", "why_tests_cant": "all memory contents and indices", "anchors": ["src/bare/bit_masking.h:set_bitmap_bit", "src/bare/bit_masking.h:read_bitmap_bit"]}
{"id": "C05", "title": "Block zero and block copy do exactly their job", "statement": "Zeroing n bytes (a multiple of 8) makes exactly those bytes zero; copying n bytes between non-overlapping buffers makes the destination equal to the old source; nothing else in memory changes.", "quantifier": "every memory content, address and length that does not wrap", "why_tests_cant": "all lengths and contents", "anchors": ["src/bare/arch/test/memory_arch.h:bzero", "src/bare/arch/test/memory_arch.h:bcopy"]}
{"id": "C06", "title": "Byte reversal converts endianness", "statement": "Reversing the bytes of a 32-bit value is an involution, and applied to a word loaded from little-endian memory gives the big-endian value of the four bytes.", "quantifier": "every 32-bit value / every four bytes", "why_tests_cant": "2^32 values", "anchors": ["src/bare/bit_masking.h:reverse_bytes", "src/crypto/hash.cc:to_big_endian"]}
{"id": "C07", "title": "Page table entries round-trip", "statement": "An entry written with a page-aligned target and any access flags reads back as valid with exactly that target, whatever the flags; the flags cannot change the target or clear the valid bit.", "quantifier": "every page-aligned 64-bit target and every 64-bit flag word", "why_tests_cant": "2^116 combinations", "anchors": ["src/bare/arch/test/page_tables_arch.h:write_page_table_entry", "src/bare/arch/test/page_tables_arch.h:page_table_entry_target", "src/bare/arch/test/page_tables_arch.h:is_valid_page_table_entry"]}
{"id": "C08", "title": "Software page walk implements the page table format", "statement": "The walk returns the target of the leaf entry selected by the bit fields of the virtual address when every entry on the path is valid, and 0 otherwise; two virtual addresses in the same page translate alike; the walk changes no memory and stops after at most one access per level.", "quantifier": "every memory content, table base and virtual address, for both page table geometries", "why_tests_cant": "all page table contents", "anchors": ["src/monitor/enclave_inl.h:walk_page_tables", "src/monitor/enclave_inl.h:walk_page_tables_to_entry", "src/bare/page_tables.h:page_table_translated_bits"]}
{"id": "C09", "title": "Loading page tables top-down makes an address translate", "statement": "If tables for levels 2, 1, 0 and then a page are linked by writing, each time, the entry found by walking to that level, then the walk for that virtual address yields the page, and entries for other virtual addresses in other tables are unaffected.", "quantifier": "every virtual address and every choice of non-overlapping table pages", "why_tests_cant": "all placements and contents", "anchors": ["src/monitor/enclave_inl.h:walk_page_tables_to_entry", "src/bare/arch/test/page_tables_arch.h:write_page_table_entry"]}
{"id": "C10", "title": "The hash is SHA-256", "statement": "Initialising, extending with any sequence of 64-byte blocks and finalising leaves in the state the FIPS 180-4 SHA-256 digest of the concatenated blocks.", "quantifier": "every sequence of blocks (any length), every state address and surrounding memory", "why_tests_cant": "all messages; known-answer tests cover a handful", "anchors": ["src/crypto/hash.cc:init_hash", "src/crypto/hash.cc:extend_hash", "src/crypto/hash.cc:finalize_hash"]}
{"id": "C11", "title": "Hashing stays inside its state", "statement": "The hash functions modify only the 160 bytes of the hash state; the hashed block and all other memory are unchanged.", "quantifier": "every memory content, state and block address that do not overlap", "why_tests_cant": "all placements", "anchors": ["src/crypto/hash.cc:extend_hash", "src/crypto/hash.cc:init_hash"]}
{"id": "C12", "title": "The measurement commits to the load history", "statement": "After create_enclave's measurement step followed by any sequence of measured load operations and the finalisation, the enclave's digest is SHA-256 of the concatenation of the encodings of exactly these operations with exactly these arguments, in order.", "quantifier": "every sequence of measured operations, with all arguments and page contents", "why_tests_cant": "unbounded histories", "anchors": ["src/monitor/measure_inl.h:init_enclave_hash", "src/monitor/measure_inl.h:extend_enclave_hash_with_page", "src/monitor/measure_inl.h:extend_enclave_hash_with_page_table", "src/monitor/measure_inl.h:extend_enclave_hash_with_thread", "src/monitor/measure_inl.h:finalize_enclave_hash"]}
{"id": "C13", "title": "The measurement encoding is injective", "statement": "Two different load histories (operations, argument values, page contents, order, length) never produce the same hashed byte string, so equal measurements mean equal histories or a SHA-256 collision.", "quantifier": "all pairs of load histories", "why_tests_cant": "all pairs of unbounded histories", "anchors": ["src/monitor/measure_inl.h:measurement_block_t"]}
{"id": "C14", "title": "No argument leaks from one measurement into the next", "statement": "After every measured operation the argument words of the measurement block are zero, so that the next block contains nothing but its own opcode and arguments.", "quantifier": "every sequence of measured operations", "why_tests_cant": "unbounded histories", "anchors": ["src/monitor/measure_inl.h:init_enclave_hash"]}
{"id": "C15", "title": "Boot computes a consistent DRAM geometry", "statement": "Whenever boot does not panic: the region count, stripe size and page count are the powers of two given by the masks and shifts, the page, stripe-page, region and stripe masks are disjoint and together cover all DRAM addresses, and the region mask has the documented relation to shift and count.", "quantifier": "every platform description (DRAM size, cache geometry, shift limits, core count)", "why_tests_cant": "all hardware configurations", "anchors": ["src/monitor/boot_init.cc:boot_init_dram_regions", "src/monitor/dram_regions.h:g_dram_region_mask"]}
{"id": "C16", "title": "Boot refuses unsupported platforms and executes no undefined behaviour", "statement": "Boot panics when a non-last-level cache is shared, when line size or set count is not a power of two, when the cache does not extend over a page, or when DRAM is too small for the minimum shift; otherwise it runs to completion and all its shifts are defined.", "quantifier": "every platform description", "why_tests_cant": "all hardware configurations", "anchors": ["src/monitor/boot_init.cc:boot_init_dram_regions", "src/monitor/boot_init.cc:boot_panic"]}
{"id": "C17", "title": "Every DRAM address lies in exactly one region", "statement": "Address decomposition into stripe, region, stripe page and page offset is a bijection on DRAM addresses; the region index of an address is below the region count; the start address of region r belongs to region r; all bytes of a page belong to one region.", "quantifier": "every geometry and DRAM address", "why_tests_cant": "all addresses and geometries", "anchors": ["src/monitor/dram_regions_inl.h:dram_region_for", "src/monitor/dram_regions_inl.h:dram_stripe_page_for", "src/monitor/dram_regions_inl.h:dram_stripe_for", "src/monitor/dram_regions_inl.h:dram_region_start"]}
{"id": "C18", "title": "The page index within a region is unique", "statement": "Two different pages of the same region have different region page indices (so that per-page accounting never mixes them up), and computing the index is defined behaviour.", "quantifier": "every geometry and pair of DRAM addresses", "why_tests_cant": "all pairs of addresses; the failing geometries have several stripes", "anchors": ["src/monitor/dram_regions_inl.h:dram_region_page_for", "src/monitor/metadata_inl.h:metadata_page_info_for"]}
{"id": "C19", "title": "The metadata map fits", "statement": "The page map of a metadata region fits in the first stripe of the region, metadata_region_start() pages hold it, and there is an entry for every page counted by metadata_region_pages().", "quantifier": "every geometry", "why_tests_cant": "all hardware configurations", "anchors": ["src/monitor/boot_init.cc:boot_init_metadata", "src/monitor/metadata.cc:metadata_region_start"]}
{"id": "C20", "title": "Boot lays out the monitor's tables without overlap", "statement": "The core table, region table, block clock and OS bitmap are pairwise disjoint, lie between the image end and the monitor top, inside the first stripe of region 0; after boot every region is unlocked, OS-owned, with no pinned pages, the block clock is 0 and the OS bitmap has exactly the bits of existing regions that boot set.", "quantifier": "every platform, image size and initial memory content", "why_tests_cant": "all configurations and memory contents", "anchors": ["src/monitor/boot_init.cc:boot_init_dynamic_arrays"]}
{"id": "C21", "title": "Boot protects the monitor", "statement": "After boot the protected address range covers every table of the monitor, the OS cannot reach it by CPU accesses on the booting core, and the DMA window does not touch it.", "quantifier": "every platform and initial memory", "why_tests_cant": "all configurations", "anchors": ["src/monitor/boot_init.cc:boot_init_protection"]}
{"id": "C22", "title": "Boot leaves no uninitialised accounting state", "statement": "After boot no core is recorded as running an enclave, every core's flush time is 0, and OS bitmap bits beyond the region count are clear.", "quantifier": "every initial memory content", "why_tests_cant": "tests start from zeroed memory", "anchors": ["src/monitor/boot_init.cc:boot_init_dynamic_arrays", "src/monitor/cpu_core.h:core_info_t"]}
{"id": "C23", "title": "Region ownership follows the documented state machine", "statement": "In every sequential history the only changes of a region's state are OS-owned -> blocked (block by the OS), blocked -> free and metadata -> free (free), free -> metadata (create_metadata_region), free -> owned (assign), each caused by that call naming that region and returning ok.", "quantifier": "every finite history of API calls on any cores, interleaved with OS memory writes the hardware permits", "why_tests_cant": "unbounded histories", "anchors": ["src/monitor/dram_regions.cc:block_dram_region", "src/monitor/dram_regions.cc:free_dram_region", "src/monitor/dram_regions.cc:assign_dram_region", "src/monitor/dram_regions.cc:create_metadata_region"]}
{"id": "C24", "title": "Region 0 always belongs to the OS", "statement": "In every reachable state region 0, which holds the monitor, is owned by the OS; no call ever blocks, frees or reassigns it.", "quantifier": "every finite history", "why_tests_cant": "unbounded histories", "anchors": ["src/monitor/dram_regions_inl.h:is_dynamic_dram_region", "src/monitor/dram_regions.cc:block_dram_region"]}
{"id": "C25", "title": "The OS bitmap always matches ownership", "statement": "In every reachable state bit r of the OS region bitmap is set exactly when region r is owned by the OS.", "quantifier": "every finite history and every region", "why_tests_cant": "unbounded histories", "anchors": ["src/monitor/metadata_inl.h:set_enclave_region_bitmap_bit", "src/monitor/dram_regions.cc:assign_dram_region"]}
{"id": "C26", "title": "Region calls return exactly the documented results", "statement": "For each region call, the returned code and the new state are determined by a small table over (validity of the index, owner, caller, DMA window, flush times); in particular block by a non-owner is refused with access_denied.", "quantifier": "every reachable state and all arguments", "why_tests_cant": "all states", "anchors": ["src/monitor/dram_regions.cc:block_dram_region", "src/monitor/dram_regions.cc:assign_dram_region", "src/monitor/dram_regions.cc:free_dram_region", "src/monitor/dram_regions.cc:create_metadata_region"]}
{"id": "C27", "title": "Failed calls have no effect", "statement": "A call that returns anything but ok leaves memory, ownership, DMA window and access registers as they were.", "quantifier": "every reachable state and all arguments", "why_tests_cant": "all states and arguments", "anchors": ["src/monitor/dram_regions.cc", "src/monitor/metadata.cc", "src/monitor/enclave.cc", "src/monitor/enclave_init.cc"]}
{"id": "C28", "title": "Queries are accurate and have no effect", "statement": "dram_region_state, dram_region_owner and dram_region_check_ownership report the region's state/owner as documented and change nothing.", "quantifier": "every reachable state and region index", "why_tests_cant": "all states", "anchors": ["src/monitor/dram_regions.cc:dram_region_state", "src/monitor/dram_regions.cc:dram_region_owner", "src/monitor/dram_regions.cc:dram_region_check_ownership"]}
{"id": "C29", "title": "Every call releases the locks it takes", "statement": "After any call that ran without interference returns, every region lock and enclave lock has the value it had before.", "quantifier": "every reachable state and all arguments", "why_tests_cant": "all paths and states", "anchors": ["src/monitor/dram_regions_inl.h:clear_dram_region_lock", "src/monitor/enclave.cc:enter_enclave", "src/monitor/enclave.cc:create_thread", "src/monitor/enclave.cc:delete_thread"]}
{"id": "C30", "title": "A region is freed only after all cores flushed their TLBs", "statement": "When free_dram_region(r) succeeds on a blocked region, every core has executed flush_cached_dram_regions since the block of r that made it blocked.", "quantifier": "every finite history, every region, every core", "why_tests_cant": "unbounded histories and core counts", "anchors": ["src/monitor/dram_regions.cc:free_dram_region", "src/monitor/dram_regions_inl.h:dram_region_tlb_flush"]}
{"id": "C31", "title": "Flushing everywhere is enough to free", "statement": "After a block of r, once every core has executed flush_cached_dram_regions, free_dram_region(r) returns ok, whatever other calls happened in between.", "quantifier": "every finite history with fewer than 2^64 blocks", "why_tests_cant": "unbounded histories", "anchors": ["src/monitor/dram_regions.cc:free_dram_region", "src/monitor/dram_regions_inl.h:dram_region_tlb_flush"]}
{"id": "C32", "title": "Block times are strictly increasing", "statement": "Each successful block gets a block time larger than those of all earlier blocks, and no core's flush time exceeds the clock.", "quantifier": "every finite history with fewer than 2^64 blocks", "why_tests_cant": "unbounded histories", "anchors": ["src/monitor/dram_regions.cc:block_dram_region"]}
{"id": "C33", "title": "DMA is confined to OS memory", "statement": "set_dma_range succeeds only if the whole range lies in OS-owned regions, outside the monitor; and in every reachable state every address the DMA window admits is OS memory outside the monitor.", "quantifier": "every history, every address", "why_tests_cant": "all ranges and ownership patterns", "anchors": ["src/monitor/dram_regions.cc:set_dma_range", "src/monitor/public/api.h:set_dma_range"]}
{"id": "C34", "title": "Blocking refuses regions under DMA", "statement": "block_dram_region never succeeds on a region any byte of which is inside the DMA window; conversely a region away from the window is not refused for that reason.", "quantifier": "every geometry (any number of stripes), every DMA window", "why_tests_cant": "all geometries and windows", "anchors": ["src/monitor/dram_regions.cc:block_dram_region"]}
{"id": "C35", "title": "The DMA window register matches the recorded range", "statement": "In every reachable state after boot the hardware DMA registers admit exactly the addresses of the range recorded by the monitor.", "quantifier": "every finite history, every address", "why_tests_cant": "unbounded histories", "anchors": ["src/monitor/dram_regions.cc:set_dma_range", "src/monitor/boot_init.cc:boot_init_protection"]}
{"id": "C36", "title": "The OS cannot access memory it does not own", "statement": "In every reachable state, the access registers of a core running the OS admit only addresses of OS-owned regions outside the monitor.", "quantifier": "every history on any number of cores, every core and address", "why_tests_cant": "unbounded multi-core histories", "anchors": ["src/monitor/dram_regions.cc:block_dram_region", "src/monitor/dram_regions.cc:assign_dram_region", "src/monitor/boot_init.cc:boot_init_protection"]}
{"id": "C37", "title": "OS memory writes cannot corrupt the monitor", "statement": "Whatever the OS writes through permitted CPU accesses, all monitor data (region table, core table, clock, bitmap) and all metadata regions keep their contents.", "quantifier": "every history of calls and permitted writes", "why_tests_cant": "adversarial histories", "anchors": ["src/monitor/boot_init.cc:boot_init_protection", "src/bare/cpu_context.h"]}
{"id": "C38", "title": "create_enclave initialises exactly one enclave record", "statement": "A successful create_enclave writes the documented initial values into the enclave record at enclave_id (not initialised, no threads, given range, mailbox count and debug flag, measurement of exactly these arguments) and marks its pages in the metadata map; it changes nothing else.", "quantifier": "every reachable state and all arguments", "why_tests_cant": "all states and arguments", "anchors": ["src/monitor/metadata.cc:create_enclave", "src/monitor/enclave_inl.h:init_enclave_info"]}
{"id": "C39", "title": "Metadata pages are never allocated twice", "statement": "A successful create_enclave uses only pages that no live structure uses, and afterwards these pages cannot be allocated again until the region is freed.", "quantifier": "every history of metadata calls", "why_tests_cant": "unbounded histories and all sizes", "anchors": ["src/monitor/metadata_inl.h:assign_metadata_pages", "src/monitor/metadata_inl.h:metadata_page_info_for"]}
{"id": "C40", "title": "The metadata map itself cannot be allocated", "statement": "No structure can be placed on the pages that hold the metadata map (below metadata_region_start()).", "quantifier": "every enclave_id", "why_tests_cant": "all addresses", "anchors": ["src/monitor/metadata.cc:create_enclave", "src/monitor/metadata.cc:metadata_region_start"]}
{"id": "C41", "title": "Structures fit in the pages reserved for them", "statement": "The page count reserved for an enclave with n mailboxes covers the record, the bitmap and n mailboxes.", "quantifier": "every mailbox count", "why_tests_cant": "the failing counts are near 2^60", "anchors": ["src/monitor/metadata_inl.h:enclave_info_size", "src/monitor/metadata_inl.h:enclave_info_pages"]}
{"id": "C42", "title": "Metadata regions in use cannot be freed", "statement": "free_dram_region fails on a metadata region that holds a live enclave or thread.", "quantifier": "every history", "why_tests_cant": "unbounded histories", "anchors": ["src/monitor/dram_regions.cc:free_dram_region"]}
{"id": "C43", "title": "A new enclave owns no DRAM regions", "statement": "Right after create_enclave succeeds, the enclave's region bitmap is empty and its region count is 0, whatever the memory contained before.", "quantifier": "every prior memory content", "why_tests_cant": "tests use zeroed memory", "anchors": ["src/monitor/enclave_inl.h:init_enclave_info", "src/monitor/metadata_inl.h:enclave_region_bitmap"]}
{"id": "C44", "title": "An enclave that was created can be loaded, initialised and entered", "statement": "After create_enclave succeeds there is a sequence of calls that assigns regions, loads pages, initialises and enters the enclave.", "quantifier": "every platform", "why_tests_cant": "the negation quantifies over all call sequences", "anchors": ["src/monitor/metadata_inl.h:is_valid_enclave_id", "src/monitor/enclave_init.cc:init_enclave", "src/monitor/enclave.cc:enter_enclave"]}
{"id": "C45", "title": "Threads can be added to an enclave", "statement": "assign_thread and load_thread succeed in some state in which their documented preconditions hold.", "quantifier": "all states and arguments", "why_tests_cant": "the negation quantifies over all states", "anchors": ["src/monitor/metadata.cc:assign_thread", "src/monitor/metadata.cc:load_thread"]}
{"id": "C46", "title": "Deleting an enclave frees and wipes its regions", "statement": "A successful delete_enclave makes every region of the enclave free and zeroes its contents, and touches no other region.", "quantifier": "every enclave region set", "why_tests_cant": "all subsets of regions", "anchors": ["src/monitor/enclave.cc:delete_enclave", "src/monitor/dram_regions_inl.h:bzero_dram_region"]}
{"id": "C47", "title": "Wiping a region zeroes exactly that region", "statement": "bzero_dram_region(r) zeroes every DRAM byte of region r, in all its stripes, and changes no byte of another region.", "quantifier": "every geometry, region and memory content", "why_tests_cant": "all geometries", "anchors": ["src/monitor/dram_regions_inl.h:bzero_dram_region"]}
{"id": "C48", "title": "Debug copies never touch non-debug enclaves or the monitor", "statement": "copy_debug_enclave_page copies only between OS memory and memory of a debug enclave identified by a valid id, and its result reveals nothing about other memory.", "quantifier": "every reachable state and all arguments", "why_tests_cant": "all states and arguments", "anchors": ["src/monitor/enclave.cc:copy_debug_enclave_page"]}
{"id": "C49", "title": "accept_thread only writes its own thread and locks", "statement": "accept_thread acquires a region lock before using the region, releases only locks it acquired and writes only to the thread record of the caller.", "quantifier": "every reachable state and all arguments", "why_tests_cant": "all arguments", "anchors": ["src/monitor/metadata.cc:accept_thread"]}
{"id": "C50", "title": "Result codes identify the outcome", "statement": "Distinct documented outcomes have distinct numeric result codes.", "quantifier": "all pairs of outcomes", "why_tests_cant": "a cross-cutting claim about the interface", "anchors": ["src/monitor/public/api.h:api_result_t"]}
{"id": "C51", "title": "Region locks give mutual exclusion", "statement": "For any interleaving of API calls on any number of cores, no two calls hold the same region lock at the same time, and no call releases a lock it does not hold.", "quantifier": "every schedule, any number of cores and calls", "why_tests_cant": "all interleavings", "anchors": ["src/monitor/dram_regions_inl.h:test_and_set_dram_region_lock", "src/monitor/dram_regions_inl.h:clear_dram_region_lock"]}
{"id": "C52", "title": "Ownership invariants hold under every interleaving", "statement": "At every instant of every interleaving: region 0 is OS-owned, every owner field holds a legal value, and whenever lock 0 and a region's lock are free the OS bitmap bit of that region equals its ownership.", "quantifier": "every schedule, any number of cores and calls", "why_tests_cant": "all interleavings", "anchors": ["src/monitor/dram_regions.cc"]}
{"id": "C53", "title": "All locks are free when no call is running", "statement": "In every interleaving, whenever no API call is in progress every region lock is free, so no sequence of calls can deadlock the monitor.", "quantifier": "every schedule, any number of cores and calls", "why_tests_cant": "all interleavings", "anchors": ["src/monitor/dram_regions.cc"]}
{"id": "C54", "title": "Calls terminate whatever the other cores do", "statement": "Every API call completes within a bounded number of its own steps, independently of the other cores (no call ever waits).", "quantifier": "every schedule and every memory content", "why_tests_cant": "all interleavings", "anchors": ["src/monitor/dram_regions.cc", "src/monitor/metadata.cc", "src/monitor/enclave.cc", "src/monitor/enclave_init.cc", "src/monitor/public/api.h"]}
{"id": "C55", "title": "A freed region was flushed, under every interleaving", "statement": "For any interleaving, when a free of a blocked region takes effect each core's flush time is at least the region's block time.", "quantifier": "every schedule", "why_tests_cant": "all interleavings", "anchors": ["src/monitor/dram_regions.cc:free_dram_region", "src/monitor/dram_regions_inl.h:dram_region_tlb_flush"]}
{"id": "C56", "title": "A region call takes effect exactly once, or not at all", "statement": "While other cores run, a call to block_dram_region, free_dram_region, create_metadata_region or assign_dram_region that reports success has stored the owner of its region exactly once, that store was a documented owner change at that instant made under the region's lock, and a call that reports a failure has changed nothing except region locks that it released again; it reports monitor_concurrent_call only if it found a region lock held.", "quantifier": "every interleaving of the machine operations of API calls on any number of cores, OS stores and DMA stores, every call and every argument", "why_tests_cant": "the number of interleavings of the operations of concurrent calls is unbounded", "anchors": ["src/monitor/dram_regions.cc: block_dram_region, create_metadata_region, assign_dram_region, free_dram_region", "src/monitor/dram_regions_inl.h: test_and_set_dram_region_lock, clear_dram_region_lock"]}
{"id": "C57", "title": "The monitor accesses nothing but DRAM", "statement": "Whatever arguments the API calls are given, every load, store, atomic operation and bitmap register load the monitor performs on physical memory is at an address below the DRAM size, so the bounds assertions of the test architecture never fire and no device register is touched.", "quantifier": "every interleaving of API calls with any 64-bit arguments on any number of cores with OS and DMA stores, every operation of every call", "why_tests_cant": "the addresses are computed from unvalidated 64-bit arguments and from table contents; a test only sees the addresses of the arguments it tries", "anchors": ["src/bare/arch/test/phys_ptr_arch.h", "src/bare/arch/test/memory_arch.h: phys_buffer_size", "src/monitor/dram_regions_inl.h", "src/monitor/metadata_inl.h: metadata_page_info_for, lock_metadata_region_for", "src/monitor/enclave.cc: copy_debug_enclave_page", "src/monitor/dram_regions.cc: create_metadata_region", "src/monitor/metadata.cc: accept_thread"]}
{"id": "C58", "title": "A page inside the enclave's address range can be loaded", "statement": "load_page accepts a virtual address exactly if it lies in the range [ev_base, ev_base + ev_mask] given to create_enclave. (The code tests va & mask == base: refuted; only multiples of the range size are accepted, and only if the base is 0.)", "quantifier": "all memory contents, enclave ranges and load_page arguments", "why_tests_cant": "Any test with base 0 and the first page passes; the claim is about every base, mask and address.", "anchors": ["src/monitor/enclave_inl.h:is_enclave_virtual_address", "src/monitor/enclave_init.cc:load_page"]}
{"id": "C59", "title": "init_enclave: result table, effect and measurement", "statement": "On every state init_enclave returns concurrent_call if the enclave's region is locked, invalid_value for an identifier that names no enclave, invalid_state if already initialised, else ok. A failing call changes nothing. A successful one sets is_initialized, changes only that field and the measurement state, leaves the SHA-256 measurement of the loading history in the hash field; afterwards the enclave can be entered and can be neither loaded nor initialised again.", "quantifier": "all machine states with 0/1 locks (reachable or not), identifiers, loading histories", "why_tests_cant": "Needs every memory content and every loading history; unreachable from boot in the code as written, so no API test reaches the ok path.", "anchors": ["src/monitor/enclave_init.cc:init_enclave", "src/monitor/measure_inl.h:finalize_enclave_hash"]}
{"id": "C60", "title": "load_page and load_page_table: result tables and effect", "statement": "On every state the loading calls return exactly the documented code for the first check that fails, in the code's order, and change nothing when they fail. (On ok they also change nothing: the page is not copied, the loading position not advanced and the measurement not extended: refuted.)", "quantifier": "all machine states with 0/1 locks, all arguments, all page table depths", "why_tests_cant": "Total table over all memory contents and arguments.", "anchors": ["src/monitor/enclave_init.cc:load_page", "src/monitor/enclave_init.cc:load_page_table"]}
{"id": "C61", "title": "enter_enclave, exit_enclave, create_thread and delete_thread: result tables and effect", "statement": "On every state these calls return the documented code for the first failing check and change nothing when they fail. (On ok, enter_enclave, create_thread and delete_thread change exactly one word: they leave the region lock taken, so that later entries and the deletion of the enclave are refused for ever.)", "quantifier": "all machine states with 0/1 locks, all cores and arguments", "why_tests_cant": "Total table over all memory contents; the leak shows only in later calls.", "anchors": ["src/monitor/enclave.cc:enter_enclave", "src/monitor/enclave.cc:exit_enclave", "src/monitor/enclave.cc:create_thread", "src/monitor/enclave.cc:delete_thread"]}
{"id": "C62", "title": "delete_enclave: result table and exact effect on every machine state", "statement": "On every machine state with lock words 0 or 1 delete_enclave returns the code of the first failing check (the main region's lock; the identifier; a remaining thread; the lock of another region of the enclave) and a refused call changes nothing. A successful call releases every lock it took, and its effect is fixed by bit dram_region_count of the enclave's region bitmap, one past the last region: if it is clear, nothing at all changes; if it is set, region 0 up to the region of that bit are wiped, regions 1 up to it are marked free and every other region belongs to the OS; if moreover DRAM reaches into the last round of stripes below 2^64 the call never returns. (Documented: it frees and wipes exactly the enclave's regions. The code refutes this both ways: see C46 and the theorems named refuted.)", "quantifier": "all machine states with 0/1 locks, all identifiers and bitmaps", "why_tests_cant": "All bitmaps and all lock patterns; the bit past the end is uninitialised memory.", "anchors": ["src/monitor/enclave.cc:delete_enclave", "src/monitor/dram_regions_inl.h:bzero_dram_region"]}
{"id": "C63", "title": "Region calls: result table and effect on every state", "statement": "On every state, including those in which enclaves run and own regions, block, assign, free, create_metadata_region, flush and the three queries return exactly the documented code for the first failing check; a failing call changes nothing; a successful one writes exactly the documented fields (owner, previous owner, block clock and stamp, pinned count, owner's bitmap bit, page map, flush time) and reloads the owner's access register on the calling core from the updated bitmap, leaving all other memory and all other cores' registers alone.", "quantifier": "all machine states with 0/1 locks, all cores, regions and enclave identifiers", "why_tests_cant": "Total behaviour over all memory contents, also for enclave owners, which no test can set up through the API.", "anchors": ["src/monitor/dram_regions.cc:block_dram_region", "src/monitor/dram_regions.cc:assign_dram_region", "src/monitor/dram_regions.cc:free_dram_region", "src/monitor/dram_regions.cc:flush_cached_dram_regions", "src/monitor/dram_regions.cc:dram_region_state", "src/monitor/dram_regions.cc:dram_region_owner", "src/monitor/dram_regions.cc:create_metadata_region"]}
{"id": "C64", "title": "Debug copies: result table, only with the debug word set, exact effect", "statement": "On every machine state with lock words 0 or 1 copy_debug_enclave_page returns the code of the first failing check and changes nothing when it fails; it succeeds only if the word at the identifier's debug flag is not 0, the identifier owns the region it points into, the one page lies in a region whose bit is set in that record's region bitmap and the other in a region the OS owns; it then changes exactly the destination page, which gets the contents of the source page (and, where that page lies in the monitor's own region, what follows from the locks being taken before the copy and released after it). (Documented: only pages of debug enclaves and of the OS are touched. Refuted for the monitor's own region, which counts as the OS's: the OS can have monitor memory overwritten with, or copied into, a page.)", "quantifier": "all machine states with 0/1 locks, all enclave identifiers whose record does not run past 2^64, all page addresses and both directions", "why_tests_cant": "All memory contents and all argument combinations; the ok path cannot be set up through the API for an enclave.", "anchors": ["src/monitor/enclave.cc:copy_debug_enclave_page", "src/bare/memory.h:bcopy"]}
{"id": "C65", "title": "assign_thread and load_thread: result table, no effect on refusal", "statement": "On every state the two thread calls return the code of the first failing check (page address, region lock, metadata ownership, map entry, enclave lock, thread page, enclave state) and release every lock they took; the result and the state afterwards are given by a table that is exact for all arguments: nothing changes, except that the lock word of an enclave that was neither 0 nor 1 becomes 1. (They reserve the page of the enclave instead of that of the thread, so they never succeed in any state: refuted.)", "quantifier": "all machine states with 0/1 locks, all arguments", "why_tests_cant": "That a call never succeeds, in any state, is a statement about all states.", "anchors": ["src/monitor/metadata.cc:assign_thread", "src/monitor/metadata.cc:load_thread", "src/monitor/metadata_inl.h:lock_enclave", "src/monitor/metadata_inl.h:assign_metadata_pages"]}
{"id": "C66", "title": "Region accounting is independent of everything but the region calls", "statement": "Removing from an execution every OS store, device write, enclave call and thread call leaves an execution in which every region call gives the same result, and which ends with the same owners, locks, pin counts, block times, block clock, flush times, OS region bitmap, access registers and DMA range.", "quantifier": "every execution after boot, of any length", "why_tests_cant": "a test compares two particular executions", "anchors": ["src/monitor/dram_regions.cc:block_dram_region,assign_dram_region,free_dram_region,set_dma_range", "src/monitor/dram_regions_inl.h:read_dram_region_owner"]}
{"id": "C67", "title": "The OS can always get its regions back", "statement": "From every state reached after boot, each region other than region 0 that the OS does not own can be returned to the OS by flushing all cores, freeing it and assigning it to the OS, without changing the owner of another region.", "quantifier": "every execution after boot, every region and core", "why_tests_cant": "liveness over all reachable states", "anchors": ["src/monitor/dram_regions.cc:free_dram_region,assign_dram_region,flush_cached_dram_regions", "src/monitor/enclave.cc:delete_thread,create_thread"]}
{"id": "C68", "title": "Every call returns one of its documented results", "statement": "On every machine state (also corrupted ones) and for all arguments, a call that ends returns a value documented for it: monitor_access_denied only from block_dram_region, monitor_unsupported only from create_thread, only the region states 0..4 from dram_region_state, only monitor_ok from flush_cached_dram_regions and exit_enclave.", "quantifier": "every machine state, core, call and arguments", "why_tests_cant": "infinitely many states", "anchors": ["src/monitor/public/api.h:api_result_t", "src/monitor/dram_regions.cc", "src/monitor/enclave.cc", "src/monitor/metadata.cc", "src/monitor/enclave_init.cc"]}
{"id": "C69", "title": "A call touches only the hardware it is meant to", "statement": "A call never changes a register of another core, the protected range or the cache index shift of any core; the TLB is flushed only by flush_cached_dram_regions, the region bitmap register is written only by block and assign_dram_region, the enclave region bitmap register only by block_dram_region, the DMA range only by set_dma_range; undefined shifts occur only in the calls that compute the page index of an address. The same holds of each step of interleaved calls.", "quantifier": "every machine state, call, arguments and interleaving", "why_tests_cant": "infinitely many states and schedules", "anchors": ["src/monitor/dram_regions.cc", "src/monitor/dram_regions_inl.h:dram_region_tlb_flush", "src/bare/cpu_context.h", "src/bare/memory.h"]}
{"id": "C70", "title": "set_dma_range on every machine state", "statement": "On every machine state with lock words 0 or 1, set_dma_range returns monitor_invalid_value exactly if the range is not an aligned power of two inside DRAM, otherwise monitor_concurrent_call exactly if region 0 or a region with a stripe of the range is locked, otherwise monitor_ok; a refused call changes nothing, a successful one makes exactly the range accessible to devices and changes nothing else.", "quantifier": "every machine state, core, base and mask", "why_tests_cant": "infinitely many states; the number of stripes visited is unbounded", "anchors": ["src/monitor/dram_regions.cc:set_dma_range"]}
{"id": "C71", "title": "create_enclave on every machine state", "statement": "On every machine state with lock words 0 or 1 in which region 0 is not a metadata region, for every identifier and every number of mailboxes, create_enclave checks in this order: the virtual address range, the page and its metadata region (its lock, its owner), that the record fits the stripe, that every map entry for the record's pages is free. A refused call changes nothing; a successful one changes only the record's header and the map entries, and leaves the documented fields and the measurement of the creation in the record. (The number of pages is the record's size rounded up, computed modulo 2^64, so that it can come out as 0; the map entry of a page outside the first stripe of its region is computed far away from the region's map; for two and more pages all entries but the last get the inner type and the last stays free.)", "quantifier": "all machine states with 0/1 locks and region 0 not a metadata region, all 64-bit identifiers, ranges and mailbox counts", "why_tests_cant": "infinitely many states and arguments", "anchors": ["src/monitor/metadata.cc:create_enclave", "src/monitor/metadata_inl.h:lock_metadata_region_for, assign_metadata_pages, metadata_page_info_for, enclave_info_pages"]}
{"id": "C72", "title": "Physical pointers behave like array indices", "statement": "For every element size, pointer and index: &p[n] = p + n, (p + n) + m = p + (n + m), (p + n) - n = p; inside the address space p + n is the address of the n-th element, pointers to different elements compare different and elements do not overlap.", "quantifier": "every element size, 64-bit address and index", "why_tests_cant": "2^64 addresses times indices, including wrap-around", "anchors": ["src/bare/phys_ptr.h"]}
{"id": "C73", "title": "The bzero and bcopy loops end after bytes/8 words", "statement": "For every start address and byte count, the pointer-comparing loops of bzero and bcopy end, and execute exactly the loads and stores of the first bytes/8 words in order, also when the addresses wrap around.", "quantifier": "every start address, byte count and memory contents", "why_tests_cant": "termination of a pointer-inequality loop for all 2^64 lengths", "anchors": ["src/bare/arch/test/memory_arch.h:bzero", "src/bare/arch/test/memory_arch.h:bcopy"]}
{"id": "C74", "title": "Single-threaded, the test atomics are atomic", "statement": "Executed one call at a time, any monitor call behaves the same with the test architecture's load-then-store implementations of test-and-set, clear and fetch-add as with atomic ones.", "quantifier": "every call, arguments and machine state", "why_tests_cant": "all programs and states", "anchors": ["src/bare/arch/test/phys_atomics_arch.h"]}
{"id": "C75", "title": "Locks exclude on the test architecture", "statement": "Two concurrent calls cannot both take the same region lock with the test architecture's atomics.", "quantifier": "every interleaving", "why_tests_cant": "the unit tests are single threaded, the violating interleaving never occurs in them", "anchors": ["src/bare/arch/test/phys_atomics_arch.h:atomic_flag_test_and_set", "src/monitor/dram_regions_inl.h:test_and_set_dram_region_lock"]}
{"id": "C76", "title": "Calls made at the same time on several cores behave as if executed one at a time", "statement": "For every interleaving of API calls on all cores (accept_thread and copy_debug_enclave_page over the monitor excepted) there is a sequence of atomic effects, each of them between the start and the return of its call and giving the value the call returns, such that every effect is the one of the sequential result table, or the refusal concurrent_call (locked / no owner) while another call is in progress; a flush is credited with a time between its start and its effect. Unlocked regions always agree with the atomic machine, and the whole monitor state does when no call is in progress.", "quantifier": "all platforms on which boot succeeds, all interleavings of the machine operations of calls on all cores with OS and DMA stores, all arguments, any length", "why_tests_cant": "linearizability is a statement about all interleavings of the operations of an unbounded number of calls; a test sees one schedule", "anchors": ["src/monitor/dram_regions.cc:block_dram_region, free_dram_region, assign_dram_region, set_dma_range, create_metadata_region, flush_cached_dram_regions, dram_region_state, dram_region_owner, dram_region_check_ownership", "src/monitor/dram_regions_inl.h:test_and_set_dram_region_lock, clear_dram_region_lock"]}
{"id": "C77", "title": "Races on a region have one winner", "statement": "Under every interleaving, of the calls observed on one region: successful block_dram_region calls are at most one more than the assignments to the OS that were started; successful assignments and metadata creations are at most as many as the free_dram_region calls started; successful frees at most one more than the assignments and metadata creations started; successful assignments at most as many as the blocks started.", "quantifier": "all interleavings, all regions, all arguments, any number of calls on any number of cores", "why_tests_cant": "a double success needs one particular schedule among unboundedly many", "anchors": ["src/monitor/dram_regions.cc:block_dram_region, free_dram_region, assign_dram_region, create_metadata_region"]}
{"id": "C78", "title": "accept_thread does exactly what its result table says, on every machine state", "statement": "On every machine state accept_thread returns invalid_value if the argument block is not at a page address in DRAM or its region is not the caller's, concurrent_call if the word it takes for the region's lock or the lock of the caller's record is set, invalid_state if the page's map entry is not empty, and ok otherwise; on ok the record gets a clear lock and the five words of the argument block, the map entry names the caller and the thread type, and nothing else changes but the two lock words; where these words overlap, the effect is that of storing them in the order the code does. (Documented: it accepts the pages the OS assigned to the enclave. Refuted: such pages, whose entry is not empty, are always refused.)", "quantifier": "all geometries, machine states (reachable or not, any lock words), cores, 64-bit thread identifiers and argument addresses, overlapping or not", "why_tests_cant": "the table ranges over all memory contents and all combinations of lock, owner and map state", "anchors": ["src/monitor/metadata.cc:accept_thread", "src/monitor/metadata_inl.h:accept_metadata_pages, assign_metadata_pages", "src/monitor/public/api.h:accept_thread"]}
{"id": "C79", "title": "The monitor's calls do not reveal the contents of a region", "statement": "Take any reachable configuration and change the bytes of a region (not region 0) arbitrarily. Every interleaved execution from one configuration can be repeated from the other, step for step, with the same value given by every machine operation and the same result of every call, and with memory outside the region, the protection registers and the DMA registers staying equal, as long as the region is not a metadata region and no call's address arguments point into it. Documented: no call reveals such contents whatever its arguments. Refuted: copy_debug_enclave_page tests a word of a blocked region chosen by the caller, and accept_thread tests (and overwrites) one.", "quantifier": "all platforms on which boot succeeds, all pairs of contents, all interleavings of calls on all cores with OS and DMA stores, any length", "why_tests_cant": "it compares every pair of executions that differ in a secret; a test runs one", "anchors": ["src/monitor/dram_regions.cc:block_dram_region, free_dram_region, assign_dram_region, create_metadata_region, flush_cached_dram_regions", "src/monitor/enclave.cc:copy_debug_enclave_page", "src/monitor/metadata.cc:create_enclave", "src/monitor/metadata.cc:accept_thread"]}
{"id": "C80", "title": "After concurrent calls come to rest the sequential behaviour resumes and regions can be reclaimed", "statement": "Whatever calls were interleaved on all cores, once all have returned the monitor state is one that the calls, executed one at a time, would have left, every later sequence of calls follows the sequential result tables, and each region other than region 0 that the OS does not own can be returned to the OS by flushing all cores, freeing it and assigning it, without changing the owner of another region.", "quantifier": "all platforms on which boot succeeds, all interleavings of any length with OS and DMA stores, all later histories, all regions", "why_tests_cant": "a bad schedule could leave a lock, a time or the bitmap in a state no sequential test produces", "anchors": ["src/monitor/dram_regions.cc:block_dram_region, free_dram_region, assign_dram_region, create_metadata_region, flush_cached_dram_regions, set_dma_range"]}
{"id": "C81", "title": "Flushing everywhere is enough to free, whatever runs concurrently", "statement": "If a region is blocked, no block of it was reported since some instant, and every core started and completed flush_cached_dram_regions after that instant, then once all calls have returned free_dram_region on it succeeds on every core and changes no other owner, whatever other calls, stores and device writes were interleaved.", "quantifier": "all interleavings, all regions, all cores, any number of other calls", "why_tests_cant": "the flush times are written by every core while others advance the clock; a stale time in one schedule makes the region unfreeable", "anchors": ["src/monitor/dram_regions.cc:block_dram_region, free_dram_region, assign_dram_region, create_metadata_region, flush_cached_dram_regions, set_dma_range"]}
{"id": "C82", "title": "Concurrent blocks get different times", "statement": "At every instant of every interleaving, two different blocked regions whose locks are free have different block times, both before the block clock.", "quantifier": "all interleavings, all pairs of regions", "why_tests_cant": "two blocks reading the clock at the same time would need one particular schedule", "anchors": ["src/monitor/dram_regions.cc:block_dram_region"]}
{"id": "C83", "title": "Only permitted software and device stores change a region the OS owns or that is blocked", "statement": "Whatever calls are interleaved on all cores, while a region other than region 0 belongs to the OS or is blocked, a byte of it changes only by a store of the software on a core whose protection registers admit the address or by a device store within the DMA range, never by the monitor; hence a blocked region that no core and no device may access keeps its contents, whatever the other cores call meanwhile.", "quantifier": "all platforms on which boot succeeds, all interleavings of any length, all regions except 0, all bytes of the region, all call arguments (except copy_debug_enclave_page pointing into the region and accept_thread, for which it is refuted)", "why_tests_cant": "a monitor write through a wrong pointer corrupts memory only for one combination of arguments, ownership history and schedule", "anchors": ["src/monitor/dram_regions.cc:block_dram_region, free_dram_region, assign_dram_region, create_metadata_region, flush_cached_dram_regions, set_dma_range", "src/monitor/metadata.cc:create_enclave, accept_thread", "src/monitor/enclave_init.cc:load_page, load_page_table", "src/monitor/enclave.cc:copy_debug_enclave_page, enter_enclave, create_thread"]}
{"id": "C84", "title": "Exactly the supported platforms boot, and what boot leaves behind is fully determined", "statement": "On a platform with sane counts boot returns without undefined behaviour exactly when only the last cache level is shared, its line size and set count are powers of two giving more than a page of index, the page bits left by the address width (cut at the maximum shift; the maximum shift itself when DRAM is narrower than the cache index, which the code fails to refuse) reach the minimum shift and give a region shift of at most 30, and the tables fit in one stripe after rounding to a power of two; every global, every memory byte and every register of every core afterwards is then given by a closed formula, whatever memory and registers held before.", "quantifier": "all platforms, all image sizes, all initial memories and registers", "why_tests_cant": "one test boots one platform; a wrong size or mask shows only for particular numbers of cores, regions or DRAM sizes", "anchors": ["src/monitor/boot_init.cc:boot_init_dram_regions, boot_init_metadata, boot_init_dynamic_arrays, boot_init_protection"]}
{"id": "C85", "title": "A core's access bitmap is the OS's regions at its last reload, and a reload on every core revokes access everywhere", "statement": "The regions a core may access are exactly those the OS owned right after that core's last successful block_dram_region or assign_dram_region (the boot's, if it made none). If a region does not belong to the OS, no block or assignment of it was reported during a period, and during that period every core completed a successful block or assign call it started in it, then once all calls have returned no core can access any byte of the region, whatever other calls, stores and device writes were interleaved.", "quantifier": "all histories and all interleavings, all regions, all cores, all addresses", "why_tests_cant": "the bitmap registers are loaded by each core for itself; staleness appears only for particular orders of calls on several cores", "anchors": ["src/monitor/dram_regions.cc:block_dram_region, assign_dram_region", "src/monitor/boot_init.cc:boot_init_protection"]}
{"id": "C86", "title": "The monitor touches a region's contents only for a call that names it", "statement": "Whatever the cores do at the same time and whoever owns a region other than region 0: as long as no call is made that names the region or an address in it as something to fill in, read or write (create_metadata_region of it; create_enclave, assign_thread, load_thread with an identifier in it; copy_debug_enclave_page with a page or record in it; accept_thread), no call on any core reads or writes a byte of it; every change is a store by software or a device that the access registers admit. In particular blocking, freeing and assigning a region, flushing, changing the DMA range and deleting enclaves leave its contents alone.", "quantifier": "all machines, reachable configurations, interleavings of calls, stores and DMA on all cores, regions and owners", "why_tests_cant": "all schedules and all combinations of calls; a test sees only the regions and interleavings it tries", "anchors": ["src/monitor/dram_regions.cc:block_dram_region, free_dram_region, assign_dram_region, create_metadata_region, set_dma_range", "src/monitor/metadata.cc:create_enclave, assign_thread, load_thread", "src/monitor/enclave.cc:delete_enclave, copy_debug_enclave_page", "src/monitor/metadata_inl.h:assign_metadata_pages"]}
{"id": "C87", "title": "API calls execute no undefined behaviour", "statement": "Whatever the state of the machine and the arguments, no API call executes an operation that C++ leaves undefined. (The code breaks this: create_enclave, assign_thread, load_thread and accept_thread shift by a negative amount exactly when they get to consult the page map, so every successful create_enclave and accept_thread does.)", "quantifier": "every machine state with lock words 0 or 1, core, call and arguments; every reachable state", "why_tests_cant": "all states and arguments; the undefined shift happens to give the intended value on common hardware and compilers", "anchors": ["src/monitor/dram_regions_inl.h:dram_region_page_for", "src/monitor/metadata_inl.h:metadata_page_info_for", "src/monitor/metadata.cc:create_enclave", "src/monitor/metadata.cc:accept_thread"]}
{"id": "C88", "title": "Calls on different regions are independent", "statement": "The result of a call that asks about or moves a region, and the region's new owner, depend only on that region, the flush times, the DMA range and the lock of region 0, not on other regions or on memory. Two such calls about different regions, made one after the other by any cores, give the same results in either order and leave the same owners, locks, bitmap, clock, flush times and DMA range.", "quantifier": "every reachable state, every two calls about different regions, any two cores", "why_tests_cant": "all reachable states, all pairs of calls, regions and cores", "anchors": ["src/monitor/dram_regions.cc:block_dram_region", "src/monitor/dram_regions.cc:free_dram_region", "src/monitor/dram_regions.cc:assign_dram_region", "src/monitor/metadata.cc:create_metadata_region"]}
{"id": "C89", "title": "A call is refused as concurrent only because of another call about the same region", "statement": "A call returns concurrent_call only if, between its start and its return, another core was executing a call about one of the regions it is about. In particular calls about disjoint regions never refuse each other, whatever the schedule. (Exceptions in the code, proved: a call that names the same region twice refuses itself; after a successful create_thread or delete_thread the lock of region 0 stays taken; accept_thread takes a word of OS memory for a lock.)", "quantifier": "every interleaving of any number of calls on any number of cores, with OS stores and DMA between them; every call in it", "why_tests_cant": "all schedules and all sets of concurrent calls", "anchors": ["src/monitor/dram_regions_inl.h:test_and_set_dram_region_lock", "src/monitor/dram_regions.cc:block_dram_region", "src/monitor/dram_regions.cc:assign_dram_region", "src/monitor/dram_regions.cc:free_dram_region", "src/monitor/metadata.cc:create_enclave"]}
{"id": "C90", "title": "Concurrent calls do not all refuse each other", "statement": "Between two instants at which no core executes a call, not all the calls made were refused with concurrent_call: at least one got a definite answer. (The code breaks this for calls that take a region with a smaller number first: set_dma_range and block_dram_region of a region under the range, or two copy_debug_enclave_page calls, can refuse each other.)", "quantifier": "every interleaving of any number of calls on any number of cores; every busy period in it", "why_tests_cant": "all schedules; the mutual refusal needs one precise interleaving", "anchors": ["src/monitor/dram_regions.cc:block_dram_region", "src/monitor/dram_regions.cc:set_dma_range", "src/monitor/dram_regions.cc:assign_dram_region", "src/monitor/enclave.cc:copy_debug_enclave_page"]}
{"id": "C91", "title": "Stale TLB entries of a blocked region are gone before it is freed", "statement": "A core that can reach an address through its access registers or its TLB reaches memory of the OS, or of a region that was blocked and not yet freed; once a region is freed no TLB holds a page of it, and no TLB ever holds a page of the monitor. (The code breaks this: a region blocked while the clock still equals the flush times can be freed without any flush, and a metadata region made of it remains writable through the TLB.)", "quantifier": "every history of calls, stores checked by the registers, TLB fills and stores through TLB entries, from every boot; every core, page and region", "why_tests_cant": "all histories; the test machine has no TLB, so no test can observe a stale entry", "anchors": ["src/monitor/public/api.h:block_dram_region", "src/bare/cpu_context.h:flush_tlbs", "src/monitor/dram_regions.cc:block_dram_region", "src/monitor/dram_regions.cc:free_dram_region", "src/monitor/dram_regions.cc:flush_cached_dram_regions"]}
{"id": "C92", "title": "A region that changes hands carries no data of its previous owner", "statement": "When the OS receives a region that held metadata, and when a region given up by the OS becomes a metadata region, none of the previous contents are left in it. (The code breaks this: of all the calls that move a region only create_metadata_region writes to it, and only to the pages of the map; free and assign hand the OS a metadata region with the enclave records, hash states and mailboxes in it.)", "quantifier": "every reachable machine state, core, region and byte of it; every enclave created before", "why_tests_cant": "all states and contents; tests look at the owner fields, not at the bytes of the region", "anchors": ["src/monitor/dram_regions.cc:free_dram_region", "src/monitor/dram_regions.cc:assign_dram_region", "src/monitor/dram_regions.cc:create_metadata_region", "src/monitor/metadata_inl.h:init_metadata_region", "src/monitor/dram_regions_inl.h:bzero_dram_region"]}
{"id": "C93", "title": "The monitor works on the RISC-V architecture in the repository", "statement": "Built for the RISC-V architecture, the monitor boots on supported hardware, a call is refused as concurrent while another core holds a lock it needs, block_dram_region takes hardware access away, set_dma_range moves the DMA window, and each core acts as itself.", "quantifier": "every call, argument and machine state, every end of the monitor's image", "why_tests_cant": "all tests are built for the test architecture; the RISC-V files are never compiled or run", "anchors": ["src/bare/arch/riscv/phys_atomics_arch.h:test_and_set", "src/bare/arch/riscv/memory_arch.h:read_cache_levels", "src/bare/arch/riscv/cpu_context_arch.h:current_core", "src/monitor/boot_init.cc:boot_init_dram_regions"]}
{"id": "C94", "title": "Interleaved calls stay atomic in the presence of TLBs, and a reload followed by a flush revokes a region", "statement": "While cores execute calls at the same time, and idle cores cache pages in their TLBs and store through them without a check, no core ever reaches the monitor's memory and the calls still behave as if executed one at a time. A core that completed a successful block or assign and then a flush reaches no region that is not the OS's, unless the region was reported blocked or assigned in between. A flush before the reload does not suffice.", "quantifier": "every interleaving of calls, TLB fills and stores on every booted machine, every region, core and address", "why_tests_cant": "no test has a TLB or two cores; the property ranges over all interleavings and over the moments at which hardware caches a page", "anchors": ["src/monitor/dram_regions.cc:flush_cached_dram_regions", "src/monitor/dram_regions_inl.h:dram_region_tlb_flush", "src/monitor/dram_regions.cc:block_dram_region", "src/bare/cpu_context.h:flush_tlbs"]}
{"id": "C95", "title": "Hashing, measuring, debugging copies and init_enclave do not reveal data by the addresses they access", "statement": "The kind, width, address and order of the memory accesses of the hash functions, of the measurement functions, of copy_debug_enclave_page and of init_enclave do not depend on the data hashed, measured or copied: two machines that differ in these data only show an observer of the memory bus the same accesses, return the same code, and afterwards differ in these data only.", "quantifier": "every machine, every pair of memories that differ in the data only, all addresses and arguments of the functions", "why_tests_cant": "the property relates two executions, for all contents of the pages and of the hash state; a test compares outputs, not the accesses of pairs of runs", "anchors": ["src/crypto/hash.cc:extend_hash", "src/crypto/hash.cc:finalize_hash", "src/monitor/measure_inl.h:extend_enclave_hash_with_page", "src/monitor/enclave.cc:copy_debug_enclave_page", "src/monitor/enclave_init.cc:init_enclave"]}
{"id": "C96", "title": "Each call takes a bounded number of steps, small and independent of memory size for the calls on one region", "statement": "A call that has not returned has executed at most a stated number of loads, stores, atomic operations, register accesses and TLB flushes, whatever the other cores, the OS and devices do meanwhile: 17 for the calls on one region (free_dram_region: 5 plus one per core; create_metadata_region: the map), three per stripe for set_dma_range, two per page for create_enclave plus the measurement, 1032 for a debugging copy, 602 for init_enclave; only delete_enclave is proportional to the size of DRAM.", "quantifier": "every machine, state, interleaving, call and argument, except the calls that need not end (C54: delete_enclave when DRAM reaches into the last round of stripes below 2^64, set_dma_range of a range shorter than a stripe in the last stripe)", "why_tests_cant": "worst case over all states and interleavings; a test measures single runs", "anchors": ["src/monitor/dram_regions.cc:block_dram_region", "src/monitor/dram_regions.cc:free_dram_region", "src/monitor/dram_regions.cc:set_dma_range", "src/monitor/metadata.cc:create_enclave", "src/monitor/enclave.cc:delete_enclave", "src/monitor/enclave.cc:copy_debug_enclave_page", "src/monitor/enclave_init.cc:init_enclave"]}
{"id": "C97", "title": "DRAM regions do not share last-level cache sets", "statement": "On a platform that boots, two addresses in different DRAM regions are never kept in the same set of the last-level cache, and every region has an equal part of the sets to itself; so which accesses to a region hit and which miss does not depend on accesses to other regions, and neither the OS nor the monitor disturbs the cached contents of a region that is hidden from the OS and that no call names. (The code breaks this: boot sets the cache index shift on the booting core only, so another core maps region 0 into the sets of region 1 and one address to two sets; and boot accepts cache lines longer than a page, with which regions 0 and 1 share a set.)", "quantifier": "every platform, every state before boot, every interleaving of calls afterwards, every two addresses, every sequence of accesses, whatever the cache keeps in a set and however it replaces", "why_tests_cant": "no test has a cache; the claim ranges over all platforms, addresses and access sequences", "anchors": ["src/monitor/boot_init.cc:boot_init_dram_regions", "src/bare/cpu_context.h:set_cache_index_shift", "src/monitor/dram_regions.h", "src/monitor/dram_regions_inl.h:dram_region_for"]}
{"id": "C98", "title": "A region's new owner does not see in the cache what the previous owner accessed", "statement": "After a region was blocked, freed and assigned, its new owner's cache hits and misses do not depend on which addresses the previous owner accessed. (The code breaks this: no call touches the region's cache sets while it changes hands, and no call flushes the last-level cache, so the sets keep what they kept.)", "quantifier": "every machine, reachable state, region other than 0, interleaving of calls and cache contents", "why_tests_cant": "compares all pairs of access histories; no test has a cache", "anchors": ["src/monitor/dram_regions.cc:block_dram_region", "src/monitor/dram_regions.cc:free_dram_region", "src/monitor/dram_regions.cc:assign_dram_region", "src/bare/cpu_context.h:flush_private_caches"]}
{"id": "C99", "title": "The monitor makes only naturally aligned memory accesses", "statement": "Every load, store and atomic operation of the monitor is at an address that is a multiple of its size, in the boot sequence and in every API call, whatever arguments untrusted software passes: misaligned accesses are slow or trap, and a misaligned atomic operation traps or is not atomic, which would crash the monitor or break its locks.", "quantifier": "every machine, initial state, core, call with any arguments and interleaving of the calls of several cores", "why_tests_cant": "must hold for every identifier and address an untrusted caller can pass; on the test hosts a misaligned access passes unnoticed", "anchors": ["src/monitor/boot_init.cc:boot_init_dynamic_arrays", "src/monitor/metadata_inl.h:metadata_page_info_for", "src/monitor/enclave.cc:copy_debug_enclave_page", "src/monitor/metadata.cc:accept_thread", "src/bare/phys_atomics.h:atomic_flag_test_and_set"]}
