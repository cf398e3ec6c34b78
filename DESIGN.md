# Formal model of pwnall/sanctum in Rocq (Coq 8.16.1)

## What is modelled

The C++ code of `/repo/src` for the **test architecture** (64-bit, the only
complete one; the riscv files are stubs, of which the page table geometry is used
throughout and the rest only in `ModelRiscv.v`). The model is an executable, total Gallina program, function by
function; every definition cites the file and lines it models.

| model file | code |
|---|---|
| `Word.v` | C++ integer arithmetic: size_t mod 2^64, uint32_t mod 2^32, `int` literals with sign extension |
| `Machine.v` | physical memory (bytes, little endian), registers, atomic flags; programs as trees of machine operations; sequential execution |
| `ModelBare.v` | `bare/bit_masking.h`, `bare/page_tables.h` + both arch geometries, `bzero`/`bcopy` |
| `ModelHash.v` | `crypto/hash.{h,cc}` |
| `ModelInl.v` | `monitor/{dram_regions_inl,cpu_core_inl,metadata_inl,enclave_inl,measure_inl}.h`, structure layouts, constants |
| `ModelRegions.v` | `monitor/dram_regions.cc` |
| `ModelMetadata.v` | `monitor/metadata.cc` |
| `ModelEnclave.v` | `monitor/enclave.cc`, `monitor/enclave_init.cc` (live code only) |
| `ModelBoot.v` | `monitor/boot_init.cc` |
| `ModelApi.v` | the API entry points as one type of calls |
| `ModelRiscv.v` | the stubs of `bare/arch/riscv/{phys_atomics_arch,memory_arch,cpu_context_arch}.h`, except that bzero, bcopy and atomic_load (also stubs) are kept working |
| `ModelPhys.v` | `bare/phys_ptr.h`, and literally the loops and atomics of `bare/arch/test/{memory_arch,phys_atomics_arch}.h` |

A monitor function is a value of type `prog A`: a tree whose nodes are machine
operations (load, store, test-and-set, clear, fetch-add, register writes). The
same tree is run by

* `run` — sequentially, no interference, and
* the interleaving semantics of `SpecConcurrent.v` — any number of cores, one
  operation per step, in any order (sequentially consistent memory; each of the
  operations above is atomic, 8-byte loads and stores included). The atomicity of
  test-and-set and fetch-add is what `bare/phys_atomics.h` promises; the test
  architecture does not implement it (`phys_atomics_arch.h`: "Test-mode flags aren't
  actually atomic") and the riscv version is a stub.

Memory is a function from addresses to bytes, so wild accesses of the code
(there are some) are ordinary accesses with observable effects, not errors.

**Undefined behaviour** is not swept under the rug: operation `OUb` is executed
where the C++ code shifts out of range; it is logged in the state and the
execution goes on with the value an x86-64/RV64 shifter computes. Theorems say
where `OUb` is reached.

### Not modelled

* code inside `/* */` (large parts of load_page, load_page_table, enter_enclave,
  create_thread, delete_thread, exit_enclave);
* `get_attestation_key`, `accept_message`, `read_message`, `send_message`: no body
  in the repository;
* the `assert` bounds checks of the test architecture (memory is total);
* caches (except the last-level cache of C97, C98), timing (except the accesses of
  C95 and the counts of C96), weak memory, the C++ compiler; the TLBs are modelled
  in C91 (sequential) and C94 (interleaved) only, elsewhere by flush events;
* C++ padding: struct layouts (all fields 8-byte words / arrays) are transcribed
  by hand into offsets in `ModelInl.v`.
* 32-bit `size_t` builds.

## Trusted base

* Coq's kernel (and `coqchk`, `vm_compute` in concrete witnesses).
* The transcription C++ → Gallina, and the hardware reading below.
* `Print Assumptions` is run for every listed theorem in the `P_*.v` files; the
  expected answer is "Closed under the global context" (no axioms at all). Any
  exception is listed in the section *Axioms* at the end.
* Hardware reading: a CPU access of the OS on core c to address a is permitted
  iff the bit of region(a) is set in c's DRBMAP register and
  `(a & PARMASK) != PARBASE`; a DMA access to a is permitted iff
  `(a & DMARMASK) == DMARBASE`. (From the comments of `bare/cpu_context.h`,
  `bare/memory.h`, `monitor/boot_init.cc`, `monitor/dram_regions.cc:271`.)

## How statements are organised

* `Spec*.v`: small specifications that do not mention the monitor's functions.
* `*Proofs*.v`, `Seq*.v`, `Conc*.v`, `Lin*.v`, `History*.v`, `Lib.v`, `Trace.v`: lemmas.
* `P_*.v`: only the property theorems, with one `Print Assumptions` of the tuple of
  all theorems of the file, and next to each an `Example` showing that its
  hypotheses are met by a concrete non-trivial case.
* A theorem named `..._partial` proves a property under an extra hypothesis or
  in part; one named `..._refuted` exhibits a concrete execution of the
  modelled code that violates the property as stated (a bug of the code).

| specification | what it defines |
|---|---|
| `SpecPageTable.v` | address translation by multi-level page tables |
| `SpecSha256.v` | SHA-256, from FIPS 180-4 |
| `SpecMeasure.v` | encoding of a load history, the measurement as its hash |
| `SpecGeometry.v` | stripes and regions of DRAM, what the hardware lets cores and devices access |
| `SpecMonitor.v` | the documented words of the monitor's tables; abstract region machine with result tables |
| `SpecHistory.v` | histories: boot, then calls on any core, OS stores, DMA writes |
| `SpecMetadata.v` | metadata map entries, fields and size of an enclave record |
| `SpecConcurrent.v` | interleaved executions, who holds which lock |
| `SpecAtomic.v` | owner stores of an execution of a call |
| `SpecLinear.v` | what is observed of interleaved executions; the machine that executes calls atomically |
| `SpecInside.v` | the bytes an operation accesses |
| `SpecContract.v` | result tables and effects of the calls over arbitrary memory contents |
| `SpecContract2.v` | the same for set_dma_range and create_enclave |
| `SpecContract3.v` | the same for accept_thread |
| `SpecSecret.v` | configurations equal outside a region, calls whose arguments avoid it, executions (C79) |
| `SpecRest.v` | counting blocks and flushes in what was observed (C80–C82) |
| `SpecTouch.v` | who may change the bytes of a region (C83); which calls name a region (C86) |
| `SpecBoot.v` | the platforms that boot, the globals and the machine after boot, in closed form (C84) |
| `SpecAccess.v` | which calls reload a core's access bitmap (C85) |
| `SpecContract4.v` | exact effect of delete_enclave and of the debug copy, the monitor's own memory included (C62, C64) |
| `SpecContract5.v` | create_enclave for every identifier (any stripe) and every number of mailboxes (wrapped sizes) (C71) |
| `SpecContract6.v` | accept_thread on every state, overlaps included, as a sequence of stores (C78) |
| `SpecUndefined.v` | the states and arguments for which a call executes undefined behaviour (C87) |
| `SpecCommute.v` | which calls are about a region; what two states record in common (C88) |
| `SpecRefuse.v` | which regions a call is about; the call a core is executing; calls that name regions in descending order (C89, C90) |
| `SpecTlb.v` | histories with a TLB per core: entries are put in when the registers admit a page, used without a check and dropped by a flush (C91) |
| `SpecShootdown.v` | the same TLBs in an interleaved execution: an idle core caches admitted pages and stores through its TLB while other cores execute calls (C94) |
| `SpecPattern.v` | the accesses of a piece of code without the values (`pattern`), and two machines that differ in given bytes only (C95) |
| `SpecCost.v` | an upper bound on the operations of each call, as a formula in the geometry (C96) |
| `SpecCache.v` | the last-level cache: set number from the shifted address, any replacement, cache contents along an execution (C97, C98) |
| `SpecAlign.v` | naturally aligned operations: the address is a multiple of the size (C99) |
| `SpecPhys.v` | equality of programs; schedules of arbitrary programs |
| `SpecSystem.v` | what an observer of a region sees; documented result codes; hardware registers |

### Three quantifier domains

1. **Histories** (C23–C50): every finite sequence of calls with arbitrary 64-bit
   arguments on any core, stores the hardware lets the OS make and DMA writes the
   filter lets through, from any boot on any supported platform. Two calls are
   excluded (`seq_call`): `accept_thread` where its argument block or its thread is in
   region 0 or at the end of the address space, and `copy_debug_enclave_page` with
   enclave id 0 writing below the top of the monitor; and DMA writes into the
   monitor. Each of them destroys the accounting outright; theorems `C24_copy_debug_refuted`,
   `C24_accept_thread_refuted`, `C33_monitor_refuted` exhibit it.
2. **Interleavings** (C51–C57, C76, C77, C79–C83, C85, C86): the same calls except all of `accept_thread` (`safe_call`; it clears a lock another core may hold, `C51_accept_thread_refuted`), one machine operation per step. A call
   that leaks a lock on success (`leaky`) is excluded where the theorem says so
   and exhibited in a `_refuted` theorem.
3. **Every state** (C58–C65, C68–C71, C78, C87): arbitrary memory contents with lock words 0 or 1, whether
   or not a history reaches them. Needed because no history makes an enclave id
   valid (C44), so that most of the enclave code is dead code from boot; these
   theorems are about that code nonetheless.

Loops without a constant bound (`bzero_dram_region`, `set_dma_range`, the page loop of
`create_thread`) are recursive functions on a fuel argument that exceeds the number of
iterations the loop makes when its address does not wrap around 2^64; running out of
fuel is the program `Stop` (no result), which stands for divergence. Theorems that
claim a result thereby claim that the loop ends. In interleavings a set_dma_range whose loop
wraps (only on machines whose DRAM reaches into the last stripe below 2^64) is modelled as
stopping after one visit of every region, with the lock of region 0 held; the program would go
on visiting regions, and return if it found one locked by another core.

## Plan per property

| id | model / proof |
|---|---|
| C01 | `is_valid_range*` against "∃k, mask=2^k−1"; bit-level induction |
| C02 | `pages_needed_for`; proved for sizes ≤ 2^64−4096, refuted above |
| C03 | `address_bits_for` vs. log2; `ceil_power_of_two` partial (≤2^30), refuted above |
| C04 | `set_bitmap_bit`/`read_bitmap_bit` over byte memory |
| C05 | `bzero64`,`bcopy64` induction over length |
| C06 | bitwise proof |
| C07 | bitwise proof |
| C08 | `walk_page_tables` vs. recursive specification on memory contents, both geometries |
| C09 | sequence of walk + entry write, frame reasoning |
| C10 | refinement of the in-memory ring buffer to FIPS 180-4 by induction on rounds and blocks; partial (<2^32 bits), overflow refuted |
| C11 | frame part of the same proof |
| C12 | induction over measured operations, composed with C10 |
| C13 | decoding of the encoding |
| C14 | invariant of C12 |
| C15–C22 | boot model for arbitrary platforms; arithmetic on powers of two; refutations for int overflow, small DRAM, uninitialised core table |
| C23–C37 | invariant over all finite histories (calls on any core + permitted OS writes), by induction; abstract region machine as specification; refutations by concrete histories (vm_compute); C23, C25, C27, C29 with accept_thread refuted by computed executions (P_Rest3.v) |
| C38–C43 | pre/post-conditions of create_enclave over byte memory, from any reachable state; refutations by concrete histories |
| C44, C45 | "never returns ok" theorems over all reachable (resp. all) states |
| C46–C49 | loop invariants, footprints; refutations |
| C50 | enumeration of the result codes |
| C51–C53 | invariant of the interleaving semantics; each call is a tree for which a lock discipline is proved by a rely-guarantee logic (`ConcProofs.v`); refutations for accept_thread, enter_enclave, ...; C52 and C53 with accept_thread refuted by computed executions (P_Rest3.v, with C27) |
| C54 | a bound on the length of every path of a call's tree, whatever values the operations return, for all calls but those whose loop wraps around the address space (`loop_ends`, SpecCost.v): delete_enclave when DRAM reaches into the last round of stripes (C47 shows that its loop then never ends) and set_dma_range on ranges in the last stripe; the latter run forever exactly when no region is locked (C54_set_dma_exact, LoopProofs.v) |
| C55 | invariant relating block times to the flush times a free call has read; the race refuted by an interleaving; with accept_thread refuted by a computed execution (P_Rest3.v) |
| C56 | enumeration of all paths of a call's tree with the values loads may give; with accept_thread refuted by a computed execution (P_Rest3.v) |
| C57 | every operation in every path accesses bytes in DRAM; refutations |
| C58–C62, C64, C65 | symbolic execution of the enclave, thread and debug calls over arbitrary memory (`wp`), against result tables |
| C62, C64 (exact effects) | the run is computed as a state function (locks, page copy, wipe and marking loops; the wipe of region 0 erases the region table itself) and compared byte by byte with the specified memory |
| C63 | the same for region calls |
| C66, C67 | consequences of the history invariant: no call of the OS changes or reveals the contents of a region it does not own; which regions can be brought back to the OS |
| C68, C69 | structural induction over the call's tree: all results it can return, all operations it contains (`rets`, `uses`) |
| C70, C71 | as C58–C65, for set_dma_range and create_enclave |
| C72–C75 | the layer below the model: arithmetic mod 2^64, induction on the remaining words, induction on programs, a refuting schedule |
| C76 | forward simulation: the rely-guarantee logic of C51 extended by the abstract state; each call's tree is shown to contain one instant of effect on every path (`LinProofs.v`, `LinCalls*.v`), all cores together by induction over executions (`LinGlobal.v`) |
| C77 | counting along the executions of the atomic machine of C76 |
| C78 | symbolic execution of accept_thread on an arbitrary state; memories that agree but for one word |
| C79 | two executions in lock step that differ in the contents of one region; every operation of every path of every call avoids reading the region; refutations for copy_debug_enclave_page and accept_thread |
| C80 | from linearizability (C76): at rest the state shows an abstract state, from which the sequential refinement and the reclaiming calls apply; with accept_thread: an invariant of all histories of flushes, frees and assignments from a reached state (P_Rest2.v), from the contracts of C63 |
| C81 | invariant of the atomic machine after an instant: flush times of completed flushes are not before the clock at that instant, blocks since are reported or in progress; with accept_thread a concrete refuting execution |
| C82 | invariant of the atomic machine: the clock counts successful blocks; with accept_thread a concrete refuting execution |
| C83 | every operation of every call is shown to write outside a region owned by the OS or blocked (rely–guarantee, the owner word being re-read under its lock); refuted for accept_thread |
| C84 | inversion of the boot program (undefined behaviour is recorded in the state) and a run of the four boot functions for every platform that passes its checks |
| C85 | refinement to the abstract machine for histories; for interleavings an invariant of the atomic machine of C76 over the period; with accept_thread refuted by a computed execution (P_Rest3.v) |
| C86 | the analysis of C83 without the assumption on the owner, for calls that do not name the region: every operation of every call avoids it; with accept_thread refuted by a computed execution (P_Rest3.v) |
| C87 | symbolic execution up to the undefined shift; the log of undefined operations only grows |
| C88 | by the refinement of C23: frame and locality of every entry of the table of region calls, then the two orders compared |
| C89 | on the interleaving model of C51: every path of every call takes locks only of the regions the call is about and returns concurrent_call only right after a failed attempt; with the invariant that a taken lock belongs to a call in progress or was leaked (C67), a failed attempt names its cause; load_thread and assign_thread (P_Record.v): along every path a result 3 follows a failed attempt on a region or on the first word of the record, and the latter shows a state during the call whose word is not 0 |
| C90 | same path discipline plus descending order of the two locks; among the calls that wait or were refused, follow the lock to its holder: region numbers decrease, so some call is never refused; for the livelock, a step lemma per operation over an execution whose memory is that after boot but for two lock words, then induction on the rounds |
| C91 | explicit TLBs on top of the histories: an entry was filled when the registers admitted its page and its core has not flushed since; combined with the register, owner and flush-time facts of C27, C30 and C79; refuted on every machine by fill, block, free, create |
| C92 | the exact effects of C63 restricted to the bytes outside the monitor: block, free and assign write none, create_metadata only the map; refuted in every reachable state by free, assign |
| C93 | programs with their operations replaced by the RISC-V stubs; a predicate on the values a program may return when every test_and_set yields 0, walked over all 22 calls; induction over programs for registers and core numbers. Refuted |
| C94 | `LinGlobal.v`'s one-step lemma (each step of the interleaving is a list of steps of the atomic machine) extended with TLB fills and stores; invariant: the TLB of a core that flushed after its reload holds no page of the region, or the region belongs to the OS, or a move of it was or will be reported. The calls of C48/C49 are left out as in C76. The order reload-then-flush is shown necessary; with accept_thread refuted by a computed execution (P_Rest3.v) |
| C95 | relational invariant over pairs of programs (`twin`): each pair of operations is the same and reads equal bytes, or is a load whose value reaches no address, or stores different values into the data; all memories and arguments. The table of SHA-256 constants and the local variables of the C++ functions are not memory accesses of the model, so register spills and the (fixed order) reads of the constants are outside the statement |
| C96 | a bound on the operations of a program for all values its operations may yield (`ConcBound.within`), with explicit numbers and maxima over branches (`CostProofs.v`); carried through interleavings by an invariant (operations done + bound of the rest); the same calls as C54 (`loop_ends`). The example reaches most of the bounds. Operations are those of the model: local variables and constants are free, and processor cycles per operation are not modelled |
| C97 | the set number of an address divided by the sets of a page is its region (arithmetic on powers of two); noninterference by induction over access sequences for an arbitrary per-set automaton; the monitor by the access invariant of C86 along executions with a cache. Hardware assumption: the shift moves the page number right before the set is taken. Refuted for cores other than the booting one and for lines longer than a page. Private caches and devices in the cache are not modelled |
| C98 | refuted for every machine with equal shifts: by C97 no step of a handover changes what the sets of the region keep |
| C99 | boot: every operation of the sequence on any machine whose tables start at a multiple of 8 (C99_boot); calls: along every path the values that operations may give in reachable configurations (as in C57) leave only aligned addresses; no condition on identifiers or DRAM size. Partial: copy_debug_enclave_page (C99_copy_debug_refuted) and accept_thread (C99_accept_thread_refuted) do not check the alignment of an identifier |

`P_Positive.v` holds, for properties that some execution refutes (C40, C42, C44, C46, C49,
C58), the strongest part that does hold of the code.

## Axioms

Every theorem in `MANIFEST.json` is *Closed under the global context*: the proofs use
no axioms, neither of their own nor of the standard library.

vcheck lists seven constants `Coq.ssr.ssrunder.Under_rel.*` under "library_axioms":
they are the fields of an opaque module of the standard library that is loaded when `Lia` /
`Zify` are imported. No theorem depends on them.

## Wrong programs

`seeded/LOG.jsonl` records the edits tried against the theorems, in two ways.

* Edits that are realistic bugs or repairs (ids without the prefix `p-`): a copy of the
  development was edited and rebuilt; a lemma whose proof broke was admitted in the copy and the
  build continued, so that `theorems_failed` are the theorems that rest on a broken lemma or
  whose own proof broke. An edit marked `(a fix)` repairs the code; there the `_refuted`
  theorems fail. `d4` is an equivalent program.
* One-token edits (ids `p-...`): generated systematically (constants, comparisons, connectives,
  variables, dropped statements). The statements of the exact theorems were evaluated for
  the edited definition on sampled arguments and states; `theorems_failed` names those found
  false, hence unprovable (where only a claim id is given, the evaluated statement is
  that of the claim's exact theorem). 1495 edits: 277 are ill-typed, 1050 were found false, 168
  were not. Of these most were inspected: they are equivalent programs, or
  change order of accesses only visible to other cores (C51, C83, C95), or need states that
  the sampling does not reach. They are not in the log.
