#!/usr/bin/env python3
# Writes properties.jsonl (kept as a script so that the list stays consistent).
import json
P=[]
def p(title, statement, quantifier, why, anchors):
    P.append(dict(id="C%02d"%(len(P)+1), title=title, statement=statement,
                  quantifier=quantifier, why_tests_cant=why, anchors=anchors))
B="src/bare/bit_masking.h"
D="src/monitor/dram_regions.cc"; DI="src/monitor/dram_regions_inl.h"
M="src/monitor/metadata.cc"; MI="src/monitor/metadata_inl.h"
E="src/monitor/enclave.cc"; EI="src/monitor/enclave_init.cc"; EL="src/monitor/enclave_inl.h"
BI="src/monitor/boot_init.cc"; H="src/crypto/hash.cc"; ME="src/monitor/measure_inl.h"; A="src/monitor/public/api.h"
PT="src/bare/arch/test/page_tables_arch.h"
# --- bare
p("Base/mask range validation is exact",
  "A mask is accepted as a range mask exactly when it is 2^k-1 for some k; a base/mask pair is accepted exactly when, in addition, the base is a multiple of 2^k; for an accepted pair the addresses a with (a & ~mask) == base are exactly base..base+mask, and base|mask is the last one.",
  "every 64-bit base, mask and address", "2^192 triples; a unit test samples a few", [B+":is_valid_range_mask",B+":is_valid_range",B+":is_aligned_to_mask"])
p("Page rounding is a ceiling",
  "The number of pages computed for a byte count is the least n with n*4096 >= count; a page-alignment check accepts exactly the multiples of 4096.",
  "every 64-bit size (the claim must hold up to 2^64-1)", "the failure is an overflow in the last page of the 64-bit range", [B+":pages_needed_for",B+":is_page_aligned"])
p("Address width and power-of-two helpers",
  "The bit count for a size n>=1 is the least k with n <= 2^k; the rounded-up power of two of n is the least power of two >= n; the power-of-two test accepts exactly powers of two.",
  "every 64-bit size n >= 1", "depends on integer widths of intermediate expressions; tests use small sizes", [B+":address_bits_for",B+":ceil_power_of_two",B+":is_power_of_two"])
p("Bitmap bit operations touch one bit",
  "Setting or clearing bit i of a bitmap makes a later read of bit i return that value, leaves every other bit of the bitmap and every byte of memory outside the one 8-byte word unchanged.",
  "every memory content, bitmap address, bit index and value", "all memory contents and indices", [B+":set_bitmap_bit",B+":read_bitmap_bit"])
p("Block zero and block copy do exactly their job",
  "Zeroing n bytes (a multiple of 8) makes exactly those bytes zero; copying n bytes between non-overlapping buffers makes the destination equal to the old source; nothing else in memory changes.",
  "every memory content, address and length that does not wrap", "all lengths and contents", ["src/bare/arch/test/memory_arch.h:bzero","src/bare/arch/test/memory_arch.h:bcopy"])
p("Byte reversal converts endianness",
  "Reversing the bytes of a 32-bit value is an involution, and applied to a word loaded from little-endian memory gives the big-endian value of the four bytes.",
  "every 32-bit value / every four bytes", "2^32 values", [B+":reverse_bytes",H+":to_big_endian"])
p("Page table entries round-trip",
  "An entry written with a page-aligned target and any access flags reads back as valid with exactly that target, whatever the flags; the flags cannot change the target or clear the valid bit.",
  "every page-aligned 64-bit target and every 64-bit flag word", "2^116 combinations", [PT+":write_page_table_entry",PT+":page_table_entry_target",PT+":is_valid_page_table_entry"])
p("Software page walk implements the page table format",
  "The walk returns the target of the leaf entry selected by the bit fields of the virtual address when every entry on the path is valid, and 0 otherwise; two virtual addresses in the same page translate alike; the walk changes no memory and stops after at most one access per level.",
  "every memory content, table base and virtual address, for both page table geometries", "all page table contents", [EL+":walk_page_tables",EL+":walk_page_tables_to_entry","src/bare/page_tables.h:page_table_translated_bits"])
p("Loading page tables top-down makes an address translate",
  "If tables for levels 2, 1, 0 and then a page are linked by writing, each time, the entry found by walking to that level, then the walk for that virtual address yields the page, and entries for other virtual addresses in other tables are unaffected.",
  "every virtual address and every choice of non-overlapping table pages", "all placements and contents", [EL+":walk_page_tables_to_entry",PT+":write_page_table_entry"])
# --- hash
p("The hash is SHA-256",
  "Initialising, extending with any sequence of 64-byte blocks and finalising leaves in the state the FIPS 180-4 SHA-256 digest of the concatenated blocks.",
  "every sequence of blocks (any length), every state address and surrounding memory", "all messages; known-answer tests cover a handful", [H+":init_hash",H+":extend_hash",H+":finalize_hash"])
p("Hashing stays inside its state",
  "The hash functions modify only the 160 bytes of the hash state; the hashed block and all other memory are unchanged.",
  "every memory content, state and block address that do not overlap", "all placements", [H+":extend_hash",H+":init_hash"])
p("The measurement commits to the load history",
  "After create_enclave's measurement step followed by any sequence of measured load operations and the finalisation, the enclave's digest is SHA-256 of the concatenation of the encodings of exactly these operations with exactly these arguments, in order.",
  "every sequence of measured operations, with all arguments and page contents", "unbounded histories", [ME+":init_enclave_hash",ME+":extend_enclave_hash_with_page",ME+":extend_enclave_hash_with_page_table",ME+":extend_enclave_hash_with_thread",ME+":finalize_enclave_hash"])
p("The measurement encoding is injective",
  "Two different load histories (operations, argument values, page contents, order, length) never produce the same hashed byte string, so equal measurements mean equal histories or a SHA-256 collision.",
  "all pairs of load histories", "all pairs of unbounded histories", [ME+":measurement_block_t"])
p("No argument leaks from one measurement into the next",
  "After every measured operation the argument words of the measurement block are zero, so that the next block contains nothing but its own opcode and arguments.",
  "every sequence of measured operations", "unbounded histories", [ME+":init_enclave_hash"])
# --- boot / geometry
p("Boot computes a consistent DRAM geometry",
  "Whenever boot does not panic: the region count, stripe size and page count are the powers of two given by the masks and shifts, the page, stripe-page, region and stripe masks are disjoint and together cover all DRAM addresses, and the region mask has the documented relation to shift and count.",
  "every platform description (DRAM size, cache geometry, shift limits, core count)", "all hardware configurations", [BI+":boot_init_dram_regions","src/monitor/dram_regions.h:g_dram_region_mask"])
p("Boot refuses unsupported platforms and executes no undefined behaviour",
  "Boot panics when a non-last-level cache is shared, when line size or set count is not a power of two, when the cache does not extend over a page, or when DRAM is too small for the minimum shift; otherwise it runs to completion and all its shifts are defined.",
  "every platform description", "all hardware configurations", [BI+":boot_init_dram_regions",BI+":boot_panic"])
p("Every DRAM address lies in exactly one region",
  "Address decomposition into stripe, region, stripe page and page offset is a bijection on DRAM addresses; the region index of an address is below the region count; the start address of region r belongs to region r; all bytes of a page belong to one region.",
  "every geometry and DRAM address", "all addresses and geometries", [DI+":dram_region_for",DI+":dram_stripe_page_for",DI+":dram_stripe_for",DI+":dram_region_start"])
p("The page index within a region is unique",
  "Two different pages of the same region have different region page indices (so that per-page accounting never mixes them up), and computing the index is defined behaviour.",
  "every geometry and pair of DRAM addresses", "all pairs of addresses; the failing geometries have several stripes", [DI+":dram_region_page_for",MI+":metadata_page_info_for"])
p("The metadata map fits",
  "The page map of a metadata region fits in the first stripe of the region, metadata_region_start() pages hold it, and there is an entry for every page counted by metadata_region_pages().",
  "every geometry", "all hardware configurations", [BI+":boot_init_metadata",M+":metadata_region_start"])
p("Boot lays out the monitor's tables without overlap",
  "The core table, region table, block clock and OS bitmap are pairwise disjoint, lie between the image end and the monitor top, inside the first stripe of region 0; after boot every region is unlocked, OS-owned, with no pinned pages, the block clock is 0 and the OS bitmap has exactly the bits of existing regions that boot set.",
  "every platform, image size and initial memory content", "all configurations and memory contents", [BI+":boot_init_dynamic_arrays"])
p("Boot protects the monitor",
  "After boot the protected address range covers every table of the monitor, the OS cannot reach it by CPU accesses on the booting core, and the DMA window does not touch it.",
  "every platform and initial memory", "all configurations", [BI+":boot_init_protection"])
p("Boot leaves no uninitialised accounting state",
  "After boot no core is recorded as running an enclave, every core's flush time is 0, and OS bitmap bits beyond the region count are clear.",
  "every initial memory content", "tests start from zeroed memory", [BI+":boot_init_dynamic_arrays","src/monitor/cpu_core.h:core_info_t"])
# --- region state machine
p("Region ownership follows the documented state machine",
  "In every sequential history the only changes of a region's state are OS-owned -> blocked (block by the OS), blocked -> free and metadata -> free (free), free -> metadata (create_metadata_region), free -> owned (assign), each caused by that call naming that region and returning ok.",
  "every finite history of API calls on any cores, interleaved with OS memory writes the hardware permits", "unbounded histories", [D+":block_dram_region",D+":free_dram_region",D+":assign_dram_region",D+":create_metadata_region"])
p("Region 0 always belongs to the OS",
  "In every reachable state region 0, which holds the monitor, is owned by the OS; no call ever blocks, frees or reassigns it.",
  "every finite history", "unbounded histories", [DI+":is_dynamic_dram_region",D+":block_dram_region"])
p("The OS bitmap always matches ownership",
  "In every reachable state bit r of the OS region bitmap is set exactly when region r is owned by the OS.",
  "every finite history and every region", "unbounded histories", [MI+":set_enclave_region_bitmap_bit",D+":assign_dram_region"])
p("Region calls return exactly the documented results",
  "For each region call, the returned code and the new state are determined by a small table over (validity of the index, owner, caller, DMA window, flush times); in particular block by a non-owner is refused with access_denied.",
  "every reachable state and all arguments", "all states", [D+":block_dram_region",D+":assign_dram_region",D+":free_dram_region",D+":create_metadata_region"])
p("Failed calls have no effect",
  "A call that returns anything but ok leaves memory, ownership, DMA window and access registers as they were.",
  "every reachable state and all arguments", "all states and arguments", [D, M, E, EI])
p("Queries are accurate and have no effect",
  "dram_region_state, dram_region_owner and dram_region_check_ownership report the region's state/owner as documented and change nothing.",
  "every reachable state and region index", "all states", [D+":dram_region_state",D+":dram_region_owner",D+":dram_region_check_ownership"])
p("Every call releases the locks it takes",
  "After any call that ran without interference returns, every region lock and enclave lock has the value it had before.",
  "every reachable state and all arguments", "all paths and states", [DI+":clear_dram_region_lock",E+":enter_enclave",E+":create_thread",E+":delete_thread"])
p("A region is freed only after all cores flushed their TLBs",
  "When free_dram_region(r) succeeds on a blocked region, every core has executed flush_cached_dram_regions since the block of r that made it blocked.",
  "every finite history, every region, every core", "unbounded histories and core counts", [D+":free_dram_region",DI+":dram_region_tlb_flush"])
p("Flushing everywhere is enough to free",
  "After a block of r, once every core has executed flush_cached_dram_regions, free_dram_region(r) returns ok, whatever other calls happened in between.",
  "every finite history with fewer than 2^64 blocks", "unbounded histories", [D+":free_dram_region",DI+":dram_region_tlb_flush"])
p("Block times are strictly increasing",
  "Each successful block gets a block time larger than those of all earlier blocks, and no core's flush time exceeds the clock.",
  "every finite history with fewer than 2^64 blocks", "unbounded histories", [D+":block_dram_region"])
p("DMA is confined to OS memory",
  "set_dma_range succeeds only if the whole range lies in OS-owned regions, outside the monitor; and in every reachable state every address the DMA window admits is OS memory outside the monitor.",
  "every history, every address", "all ranges and ownership patterns", [D+":set_dma_range",A+":set_dma_range"])
p("Blocking refuses regions under DMA",
  "block_dram_region never succeeds on a region any byte of which is inside the DMA window; conversely a region away from the window is not refused for that reason.",
  "every geometry (any number of stripes), every DMA window", "all geometries and windows", [D+":block_dram_region"])
p("The DMA window register matches the recorded range",
  "In every reachable state after boot the hardware DMA registers admit exactly the addresses of the range recorded by the monitor.",
  "every finite history, every address", "unbounded histories", [D+":set_dma_range",BI+":boot_init_protection"])
p("The OS cannot access memory it does not own",
  "In every reachable state, the access registers of a core running the OS admit only addresses of OS-owned regions outside the monitor.",
  "every history on any number of cores, every core and address", "unbounded multi-core histories", [D+":block_dram_region",D+":assign_dram_region",BI+":boot_init_protection"])
p("OS memory writes cannot corrupt the monitor",
  "Whatever the OS writes through permitted CPU accesses, all monitor data (region table, core table, clock, bitmap) and all metadata regions keep their contents.",
  "every history of calls and permitted writes", "adversarial histories", [BI+":boot_init_protection","src/bare/cpu_context.h"])
# --- metadata
p("create_enclave initialises exactly one enclave record",
  "A successful create_enclave writes the documented initial values into the enclave record at enclave_id (not initialised, no threads, given range, mailbox count and debug flag, measurement of exactly these arguments) and marks its pages in the metadata map; it changes nothing else.",
  "every reachable state and all arguments", "all states and arguments", [M+":create_enclave",EL+":init_enclave_info"])
p("Metadata pages are never allocated twice",
  "A successful create_enclave uses only pages that no live structure uses, and afterwards these pages cannot be allocated again until the region is freed.",
  "every history of metadata calls", "unbounded histories and all sizes", [MI+":assign_metadata_pages",MI+":metadata_page_info_for"])
p("The metadata map itself cannot be allocated",
  "No structure can be placed on the pages that hold the metadata map (below metadata_region_start()).",
  "every enclave_id", "all addresses", [M+":create_enclave",M+":metadata_region_start"])
p("Structures fit in the pages reserved for them",
  "The page count reserved for an enclave with n mailboxes covers the record, the bitmap and n mailboxes.",
  "every mailbox count", "the failing counts are near 2^60", [MI+":enclave_info_size",MI+":enclave_info_pages"])
p("Metadata regions in use cannot be freed",
  "free_dram_region fails on a metadata region that holds a live enclave or thread.",
  "every history", "unbounded histories", [D+":free_dram_region"])
p("A new enclave owns no DRAM regions",
  "Right after create_enclave succeeds, the enclave's region bitmap is empty and its region count is 0, whatever the memory contained before.",
  "every prior memory content", "tests use zeroed memory", [EL+":init_enclave_info",MI+":enclave_region_bitmap"])
p("An enclave that was created can be loaded, initialised and entered",
  "After create_enclave succeeds there is a sequence of calls that assigns regions, loads pages, initialises and enters the enclave.",
  "every platform", "the negation quantifies over all call sequences", [MI+":is_valid_enclave_id",EI+":init_enclave",E+":enter_enclave"])
p("Threads can be added to an enclave",
  "assign_thread and load_thread succeed in some state in which their documented preconditions hold.",
  "all states and arguments", "the negation quantifies over all states", [M+":assign_thread",M+":load_thread"])
p("Deleting an enclave frees and wipes its regions",
  "A successful delete_enclave makes every region of the enclave free and zeroes its contents, and touches no other region.",
  "every enclave region set", "all subsets of regions", [E+":delete_enclave",DI+":bzero_dram_region"])
p("Wiping a region zeroes exactly that region",
  "bzero_dram_region(r) zeroes every DRAM byte of region r, in all its stripes, and changes no byte of another region.",
  "every geometry, region and memory content", "all geometries", [DI+":bzero_dram_region"])
p("Debug copies never touch non-debug enclaves or the monitor",
  "copy_debug_enclave_page copies only between OS memory and memory of a debug enclave identified by a valid id, and its result reveals nothing about other memory.",
  "every reachable state and all arguments", "all states and arguments", [E+":copy_debug_enclave_page"])
p("accept_thread only writes its own thread and locks",
  "accept_thread acquires a region lock before using the region, releases only locks it acquired and writes only to the thread record of the caller.",
  "every reachable state and all arguments", "all arguments", [M+":accept_thread"])
p("Result codes identify the outcome",
  "Distinct documented outcomes have distinct numeric result codes.",
  "all pairs of outcomes", "a cross-cutting claim about the interface", [A+":api_result_t"])
# --- concurrency
p("Region locks give mutual exclusion",
  "For any interleaving of API calls on any number of cores, no two calls hold the same region lock at the same time, and no call releases a lock it does not hold.",
  "every schedule, any number of cores and calls", "all interleavings", [DI+":test_and_set_dram_region_lock",DI+":clear_dram_region_lock"])
p("Ownership invariants hold under every interleaving",
  "At every instant of every interleaving: region 0 is OS-owned, every owner field holds a legal value, and whenever lock 0 and a region's lock are free the OS bitmap bit of that region equals its ownership.",
  "every schedule, any number of cores and calls", "all interleavings", [D])
p("All locks are free when no call is running",
  "In every interleaving, whenever no API call is in progress every region lock is free, so no sequence of calls can deadlock the monitor.",
  "every schedule, any number of cores and calls", "all interleavings", [D])
p("Calls terminate whatever the other cores do",
  "Every API call completes within a bounded number of its own steps, independently of the other cores (no call ever waits).",
  "every schedule and every memory content", "all interleavings", [D, M, E, EI, A])
p("A freed region was flushed, under every interleaving",
  "For any interleaving, when a free of a blocked region takes effect each core's flush time is at least the region's block time.",
  "every schedule", "all interleavings", [D+":free_dram_region",DI+":dram_region_tlb_flush"])
with open("/verif/properties.jsonl","w") as f:
    for x in P: f.write(json.dumps(x)+"\n")
print(len(P)); [print(x["id"],x["title"]) for x in P]
