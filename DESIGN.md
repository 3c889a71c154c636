# Formal model of mpc-allocator: design

Source: `/repo` (cea-hpc/mpc-allocator, C). Prover: Coq 8.16.1, standard library only.

## 1. Approach

The core of the library is the *allocation chain* (`src/sctk_allocator.c`): chunk headers stored
inline in the user's memory, segregated free lists threaded through the free chunks, splitting and
merging of neighbours, padded headers for aligned blocks. The model keeps this at byte level:

* memory is a total function from addresses (`Z`) to bytes; loads and stores are little-endian and
  **checked**: an access outside the segments the chain owns (or its own structure) is the distinct
  outcome `UB`;
* header fields sit at their real byte offsets (x86-64 Linux layout), free-list links are real pointers
  in memory, the pool sentinels and their status bytes are in the same memory;
* 64-bit arithmetic wraps explicitly (`w64`); signed comparisons are explicit;
* `assume_m`/`assume` (always on) is the outcome `Abort`; `assert` is off (release build), and so are the checks under
  `SCTK_ALLOC_FAST_BUT_LESS_SAFE` (allocator.c 426, 819, 855, inlined.h 330), which common.h 125-127 defines unless
  `SCTK_ALLOC_DEBUG` is set;
* loops take fuel; running out is the outcome `OutOfFuel`, and theorems exclude it;
* what the environment decides (memory given by the source, addresses from `mmap`, schedules) is an
  argument of the operation, never an axiom.

The specification side does not mention chunks, headers or lists: it is phrased over the *observed
trace* (calls and their results) and the bytes the program wrote.

Concurrent parts (spinlock, multi-producer queue, thread-safe chain) are small-step transition systems
whose steps are the atomic actions of the C code; theorems quantify over all interleavings of any
number of threads (sequentially consistent memory).

## 2. Files (rocq/theories)

| file | content | C code |
|---|---|---|
| `Word.v`, `Mem.v` | 64-bit wrap, byte memory, load/store lemmas | - |
| `HeaderModel.v` | chunk header bit fields, both layouts | chunk.h 75-155, inlined.h 54-158 |
| `SizeClass*.v` | size class tables, both lookups | allocator.c 87-105, 183-393 |
| `ChainModel.v` | the allocation chain, byte level | allocator.c 117-1250, 1260-1310, 1415-1650, 1680-1825, 2703-2749; inlined.h |
| `ChainSpec.v` | calls, observations, valid histories, vocabulary of the properties (independent of the proofs) | - |
| `Wp.v`, `ChainInv.v`, `ChainZip.v`, `ChainList.v`, `ChainFl.v`, `ChainPrim.v`, `ChainFind.v`, `ChainSplit.v`, `ChainMerge.v`, `ChainOps.v`, `ChainAlloc.v`, `ChainFree.v` | representation invariant; each function of the chain against it | - |
| `ChainCore*.v`, `ChainStep.v`, `ChainRealloc.v`, `ChainQueue.v`, `ChainRefill.v`, `ChainFuel.v`, `ChainTrace.v`, `ChainEv.v` | each call, then histories; fuel monotonicity; exchanges with the source | - |
| `ChainProps.v`, `ChainWalk.v`, `ChainCap.v`, `ChainSrc.v`, `ChainMore.v`, `ChainLists.v`, `ChainExtra.v` | the lemmas behind the property theorems | - |
| `ChainRun.v` | executable check of validity, concrete histories for examples and refutations | - |
| `RegionModel.v` | registry of segments | allocator.c 2194-2507 |
| `RegionSpec.v`, `RegionProofs.v` | histories of the registry; invariant | - |
| `LightModel.v` | light memory source | light_mm_source.c |
| `LightSpec.v`, `LightProofs.v` | histories of the source; invariant | - |
| `DefSrcModel.v`, `DefSrcProofs.v` | default memory source | allocator.c 1836-2143 |
| `MpscfModel.v` | remote free queue, interleavings | mpscf_queue.h 107-239 |
| `MpscfSpec.v`, `MpscfProofs.v`, `MpscfProps.v`, `MpscfGiven.v` | executions and their traces; inductive invariant; lemmas behind the properties; count of gifts and deliveries of a block | - |
| `LockModel.v`, `LockSpec.v`, `LockProofs.v` | spinlock, interleavings | internal_spinlock.h |
| `AtomicModel.v`, `AtomicSpec.v`, `AtomicProofs.v` | sections of atomic steps under the spinlock, linearizability | allocator.c 1475-1517, 1621-1651 |
| `ThreadSpec.v`, `ThreadProofs.v` | contract of malloc/free on concurrent histories, link to the sequential chain | - |
| `PosixModel.v` | the public functions on the whole allocator: egg, thread chains, registry, light source, thread exit and destruction of chains | posix.c 187-217, 393-538, 561-760, 790-890, 978-1006; posix_export.c 98-144; allocator.c 1128-1142, 1569-1575 |
| `PosixSpec.v` | what the program holds, valid calls, histories | - |
| `ChainPut.v`, `PosixChain.v`, `PosixLocal.v`, `PosixSrc.v` | locality of a chain in a shared memory; the source and the registry seen from the chains | - |
| `PosixInv.v`, `PosixMid.v`, `PosixCall.v`, `PosixRun.v` | invariant of the whole allocator, one call on one chain with its events | - |
| `PosixEff.v`, `PosixFun.v`, `PosixPub.v`, `PosixNew.v`, `PosixApi.v`, `PosixCopy.v`, `PosixRealloc.v`, `PosixStart.v`, `PosixStep.v`, `PosixMore.v` | effects on the blocks of the program; destruction, creation of chains, each public function, start-up, histories, lemmas behind the properties | - |
| `PosixEx.v` | executable check of validity, concrete histories | - |
| `ConcModel.v` | the same public functions cut in pieces, any interleaving of the pieces of several threads | posix.c 561-733, 790-890, 978-1006; allocator.c 1128-1142 |
| `ConcSpec.v` | what the program holds while calls run, valid steps, executions, exclusive access | - |
| `ConcInv.v`, `ConcStep.v`, `ConcReach.v`, `ConcMore.v` | invariant of each call in progress, each piece keeps it, executions, lemmas behind the properties | - |
| `ConcEx.v` | executable check of steps, concrete interleavings | - |
| `CounterModel.v`, `CounterProofs.v` | loads and stores of the counter of segments | allocator.c 1304, 1464-1469, 1536-1575, 1608-1615 |
| `ReclaimSpec.v`, `PosixQueue.v` | which calls empty the queue of the caller, lost pieces; queues and segments along histories and interleavings | - |
| `PmemModel.v`, `PmemSpec.v`, `PmemProofs.v` | persistent memory pool | pmem.c, pmem.h |
| `NumaModel.v`, `NumaSpec.v`, `NumaProofs.v` | page ranges of migration and statistics, scans of the registry | allocator.c 2619-2696, numa_stat.c |
| `ConfigModel.v`, `ConfigSpec.v`, `ConfigProofs.v`, `ConfigAny.v` | environment parsing, plain numbers and any text | config.c 74-169 |
| `Prop*.v` | the property theorems only (`exact lemma`), `Print Assumptions`, non-vacuity examples | - |
| `InitModel.v`, `InitSpec.v`, `InitProofs.v`, `InitMore.v` | start-up with any number of threads and memory source of a new thread | posix.c 198-280, 320-368, 392-515 |
| `RobinModel.v`, `RobinSpec.v`, `RobinProofs.v` | the round robin, one step per access | posix.c 299-313 |
| `PropInit.v` | C55, C56 | - |
| `LightConcModel.v`, `LightConcSpec.v` | several threads on several light sources, one step per shared access; executions, owners, sums | light_mm_source.c 54-61, 145-158, 273-305, 360-508, 531-561 |
| `LightConcProofs.v`, `LightConcOwn.v`, `LightConcCount.v`, `LightConcMore.v`, `LightConcEx.v` | lock, owners, sizes and counters, progress and cleanup, executions that reach the bound | - |
| `PropLightConc.v` | C57, C58 | - |
| `NodeModel.v`, `NodeSpec.v` | preferred node from the answers of hwloc; chains of malloc_on_node, binding of segments, migration | topology.c 162-435, on_node.c 60-162, posix.c 320-368, light_mm_source.c 89-135, 192-265, 432-561, 615-655, allocator.c 2822-2844 |
| `NodeProofs.v`, `PropNode.v` | C59, C60 | - |
| `NumaStatModel.v`, `NumaStatSpec.v` | statistics of the pages of an area by node, both builds | numa_stat.c 92-158, 193-310, 396-399, allocator.c 2666-2695 |
| `NumaStatProofs.v`, `PropNumaStat.v` | C61 | - |
| `TsoModel.v`, `TsoSpec.v` | the remote free queue with store buffers (x86) | mpscf_queue.h 107-239, allocator.c 1800-1821, 2537-2569 |
| `TsoProofs.v`, `TsoProps.v`, `PropTso.v` | C62: a store takes place when it reaches memory; simulation by `MpscfModel.v` | - |
| `LockTsoModel.v`, `LockTsoSpec.v` | the spinlock and the data under it with store buffers | internal_spinlock.h 48-80 |
| `LockTsoProofs.v`, `PropLockTso.v` | C63 | - |
| `ChainFit.v`, `PropFit.v` | C64, C65: size of the blocks, requests to the source | - |
| `FootSpec.v`, `ChainFoot.v`, `PosixFoot.v`, `PropFoot.v` | C66: memory held compared with the blocks in use | - |
| `RemapModel.v`, `RemapProofs.v`, `PropRemap.v` | C67: realloc of huge blocks with mremap (code under HAVE_MREMAP) | allocator.c 1319-1368, 1659-1669, 1680-1749; light_mm_source.c 570-596 |
| `RegConcModel.v`, `RegConcSpec.v`, `RegConcProofs.v`, `RegConcEx.v`, `PropRegConc.v` | C68: the registry of segments, one access at a time, with several threads | allocator.c 73-75, 2194-2416, 2476-2484 |
| `RegDelModel.v`, `RegDelSpec.v`, `RegDelProofs.v`, `PropRegDel.v` | C69: creation and removal of whole regions, end of the default source | allocator.c 2114-2140, 2209-2242, 2347-2384, 2424-2507 |
| `RegSoloSpec.v`, `RegSoloProofs.v`, `PropRegSolo.v` | C70: the registry with several threads (C68) run by one thread at a time, compared with the registry of C29 | allocator.c 2194-2507 |
| `LightSoloSpec.v`, `LightSoloProofs.v`, `PropLightSolo.v` | C71: the light sources with several threads (C57) run by one thread at a time, compared with the source of C31 | light_mm_source.c 54-61, 145-187, 273-305, 360-561 |
| `PlainModel.v`, `PlainProofs.v`, `PropPlain.v` | C72: plain allocations and the value of the network hook | allocator.c 1399-1422 |
| `HookModel.v`, `HookSpec.v`, `HookErase.v`, `HookAlloc.v`, `HookLog.v`, `HookRun.v`, `PropHook.v` | C73: the functions of a chain with the calls of the hooks | sctk_alloc_hooks.h 34-64, allocator.c 1293, 1471, 1513, 1564, 1614, 1624, 1806, 1814, 2589-2599 |
| `DumpModel.v`, `DumpSpec.v`, `DumpProofs.v`, `PropDump.v` | C74: the debug dump of a segment | sctk_alloc_debug.c 44-45, 166-184 |
| `OrderModel.v`, `OrderSpec.v`, `OrderProofs.v`, `PropOrder.v` | C75: the lock operations of all functions, path by path | sctk_allocator.c, sctk_alloc_light_mm_source.c, sctk_alloc_posix.c, sctk_alloc_numa_stat.c (lines in the file) |
| `EggModel.v`, `EggSpec.v`, `EggEx.v`, `EggProofs.v`, `PropEgg.v` | C76: start-up and thread creation when the egg chain has a source (hwloc) | sctk_alloc_posix.c 220-251, 393-468, 475-538 |
| `BankModel.v`, `BankSpec.v`, `BankProofs.v`, `PropBank.v` | C77: search for the high bandwidth bank by several threads, node of a processing unit | sctk_alloc_topology.c 58-88, 135-158, sctk_alloc_on_node.c 173-200 |
| `InitTsoModel.v`, `InitTsoSpec.v`, `InitTsoProofs.v`, `PropInitTso.v` | C78: the start-up of C55 with store buffers | sctk_alloc_posix.c 198-280, 299-368, 392-477, 483-515 |
| `PageModel.v`, `PageSpec.v`, `PageProofs.v`, `PropPage.v` | C79: /proc/self/pagemap shared by threads | sctk_alloc_numa_stat.c 38-88, 121-141, 193-234, 239-274, 314-350 |
| `PoolModel.v`, `PoolSpec.v`, `PoolProofs.v`, `PoolEx.v`, `PropPool.v` | C80: the life of persistent pools | sctk_alloc_pmem.c 25-117, 119-214 |
| `MoveModel.v`, `MoveSpec.v`, `MoveProofs.v`, `PropMove.v` | C81: a thread moves to another node | sctk_alloc_posix.c 211-243, 299-368, 903-966; sctk_allocator.c 2794-2844, 2619-2658 |
| `MsgModel.v`, `MsgTable.v`, `MsgSpec.v`, `MsgProofs.v`, `PropMsg.v` | C82: the messages | sctk_alloc_debug.h 51-66, 110-117; sctk_alloc_debug.c 65, 89-163; sctk_allocator.c 62, 2158-2188; all callers |
| `RegTsoModel.v`, `RegTsoSpec.v`, `RegTsoProofs.v`, `RegTsoEnds.v`, `RegTsoEx.v`, `PropRegTso.v` | C83: the registry with store buffers | sctk_allocator.c 1222-1249, 1560-1565, 2194-2339, 2391-2416; sctk_alloc_posix.c 724, 823; sctk_alloc_internal_spinlock.h 56 |
| `ComeSpec.v`, `ComeProofs.v`, `PropCome.v` | C84: threads that come and go | on the model of C30 (`PosixModel.v`); sctk_alloc_posix.c 391-440, 483-545, 989-1010; sctk_alloc_common.h 110 |
| `HeapTsoModel.v`, `HeapTsoSpec.v`, `HeapTsoProofs.v`, `HeapTsoEx.v`, `PropHeapTso.v` | C85: a shared chain and its blocks with store buffers | sctk_allocator.c 911-960, 1475-1517, 1598-1651; sctk_alloc_internal_spinlock.h 54-66; sctk_alloc_chunk.h 87-109 |
| `MixSpec.v`, `MixProofs.v`, `MixPut.v`, `MixEx.v`, `PropMix.v` | C86: buffers of the user in a chain with a memory source | sctk_allocator.c 1046-1077, 1537-1653, 2840-2842 |
| `ForkSpec.v`, `ForkLock.v`, `ForkQueue.v`, `PropFork.v`, `PropForkQueue.v` | C87: the library in a child made by fork, on OrderModel.v (locks) and MpscfModel.v (queues) | no handler in /repo; the functions of those models; sctk_allocator.c 701-739 cut before 735, 473-531 cut before 513 |
| `SignalSpec.v`, `SignalLock.v`, `SignalQueue.v`, `SignalBatch.v`, `SignalChain.v`, `SignalFree.v`, `PropSignal.v`, `PropSignalQueue.v`, `PropSignalBatch.v`, `PropSignalChain.v`, `PropSignalFree.v` | C88: handlers of signals that call the library, on OrderModel.v (locks), MpscfModel.v (queues) and ChainModel.v (one place of an allocation, one of a free) | no signal is blocked in /repo; the functions of those models; sctk_allocator.c 701-739 cut before 735, 473-531 cut before 513 |
| `ChainHalf.v`, `PropHalf.v` | C14: sizes from 2^63-64 to the wrap zone | allocator.c 367-393, 701-740, 806-846, 1444-1529 |

## 3. Plan per property

| id | what is modelled | how it is proved |
|---|---|---|
| C01 C02 C03 C04 C05 | byte-level chain, arbitrary op sequence, arbitrary user writes in live blocks | representation invariant (chunk walk, free lists, status bytes), preserved by each op; trace theorem by induction |
| C06 C07 C08 | same | invariant "no two adjacent free chunks", coverage of free chunks by free lists |
| C09 | same | case analysis in any state |
| C10 C11 | chain realloc | from alloc/free specs; C11 is false of the code: `_refuted` |
| C12 C13 C42 | padded headers | arithmetic over all residues, then invariant |
| C14 | wrap-around arithmetic | true below 2^63-64; from there to the wrap zone NULL unless a free chunk of exactly 2 MB exists (list 42 is searched with a negative size; the check after the split can never hold because header sizes are below 2^56); refuted inside the wrap zone |
| C15 | calloc on the whole allocator | from malloc and the effect of memset; refuted with overflow and without memory |
| C16 | free of a freed pointer | holds while the header still says FREE; refuted for left-merged blocks |
| C17 | magic byte test | case analysis |
| C18 | user_refill | invariant preservation |
| C19 | can_destroy | equivalence for one segment; refuted for two |
| C20 C21 | tables and lookups | arithmetic proof for all sizes; C21 refuted |
| C22 C23 | chain with memory source | invariant; C23 refuted in the 1 MB band |
| C24 C25 C26 | queue steps | inductive invariant over all interleavings, variant for termination |
| C27 C28 | lock steps; locked sections; contract of the program and of the source read on the history | inductive invariant; simulation by a sequential execution |
| C29 | region table | invariant over set/unset histories |
| C30 | all chains, registry, queues, shared source | invariant over histories of public calls by any number of threads |
| C31 C32 C33 | light source | invariant over histories; C33 refuted |
| C34 | posix_memalign on the whole allocator | from the alignment of blocks; case analysis of the checks, refuted parts |
| C35 | pmem bump allocator | invariant; overflow refuted |
| C36 | page rounding | arithmetic; statistics refuted |
| C47 | pmem pool size, float rounding | arithmetic; exact below 16 MB and for whole pages below 64 GB, within one part in 2^24 else; refuted from 16 MB on and for a failed mmap |
| C48 | scans of the registry | from the registry invariant; "once" refuted |
| C37 | env parsing; `reads` describes what a text means (blanks, sign, digits, rest) without the parser; every text has one reading and every setting follows from it | structural induction on strings |
| C38 | bit fields | bit-vector arithmetic for all values |
| C39 | free lists | part of the chain invariant |
| C40 | statistics | loop over lists computes the sums; self-deadlock refuted part |
| C41 | default source | refuted (non-termination) and partial positive part |
| C43 | thread exit and destroy handler on the whole allocator | life of each chain along histories; refuted for chains without segment and for the lock |
| C45 | registry, `region_del_chain` | invariant for one window; refuted for several |
| C46 | light source, cleanup | invariant, induction over the cache |
| C49 C50 C51 | pieces of public calls of any number of threads | invariant over all interleavings: the one of the whole allocator, plus one condition per call in progress that steps of other threads keep |
| C52 | same; loads and stores of `cnt_macro_blocs` | life of each chain along executions; refuted for three races |
| C53 | whole allocator, calls one after another | trace of each call; an invariant for shared chains; refuted for realloc inside a chain |
| C54 | whole allocator, histories and interleavings | invariant of the chains (a segment holds a used piece) transported to the blocks of the program; refuted for lost pieces |
| C55 | start-up as a list of instructions run by threads | invariant: what was done is the run of a prefix of the list, the lock tells who runs it; rank for progress; refuted for the round robin during the start-up and without nodes |
| C56 | each access to the counter and to the lock is a step | invariant from any quiet state; counting lemma for fairness; refuted for racing first calls and without nodes |
| C57 | steps of the requests and frees of N threads on S sources; cache as a list | invariants (lock, owners, size and bytes under way) by induction over steps; the bound is reached by a constructed execution for every N; rank argument for progress |
| C58 | the same, segments may go to another source; cleanup | sums over threads and sources; refuted after a migration; after cleanup the lock stays taken in every continuation |
| C59 | bitmaps as lists of bits, answers of hwloc as arguments | least bit by induction; the rest by cases; refuted for all answers with status 0 |
| C60 | segments with the node they are bound to, sources and chains of malloc_on_node | invariant over histories; refuted for moved sources, migration off, target -1 |
| C61 | page map and answers of move_pages as arguments, int and unsigned int loop counters | the loop by induction on the pages done; sums over the nodes; refuted for unaligned and large areas, without page map |
| C62 | buffers of stores per thread, loads with forwarding, the swap drains the buffer | relation to the queue of C24-C26 where each store happens when it reaches memory; refuted when the swap does not drain |
| C63 | the same buffers for the lock word and the data | invariant: the lock word, the one unlock on its way, the data of the sections; trylock refuted; refuted for stores that overtake |
| C64 | histories of calls on a chain (as C01) | size of the piece exposed by the allocation lemma, then induction over histories; exact condition of realloc in place |
| C65 | the same, events of the source | events of each call; the search of the free lists is complete up to 2 MB |
| C66 | chains, cache of the light source, whole process | every segment kept has an allocated piece (else it is given back) that covers it up to 2 MB; busy pieces = blocks + lost pieces (C23); the size of the cache as part of the invariant `Mid` (`m_cap`) |
| C67 | `sctk_alloc_chain_realloc` with the mremap branch | the remap is shown equal to: free the segment, let the program store the moved bytes, get a new segment at the answer; each is a step of C01's histories, so the invariant and the frame properties carry over. Refusal, aligned blocks: refuted |
| C68 | each access to the table of regions, the entries, the lock and the headers of segments is a step of a thread | invariant: an entry holds a segment exactly when the segment is registered or the part of its loop that has been done (registration) or is left (unregistration) covers the slot; the slots of two segments differ. A lookup in progress knows a segment that nobody gives back. Termination by a measure of the accesses left. The four conditions are shown necessary by runs. |
| C69 | the calls of the registry with those that create, test and remove regions, on the registry of C29 | the invariant of C29 is kept by the new calls; an entry that is not NULL belongs to a registered segment with a step in the window of the region. The end of a default source is shown to forget every segment that starts in its window. |
| C70 | no new model: the two transcriptions of the registry (RegionModel.v function by function, RegConcModel.v access by access) were written separately and are compared | each access of a call run alone is followed through the function of RegionModel.v (forward simulation, one lemma per function); the states without a call in progress satisfy the invariant of C29, so the exact answer of C29 holds there. |
| C71 | no new model: LightModel.v (links in memory, one source) and LightConcModel.v (lists, several sources and threads) are compared | the cache read in memory is the list (uniqueness of the list); the accesses of a call run alone are executed and compared with the effect of the function, proved with the invariant of C31; induction over the calls for the histories. Segments go back to the source they came from; segments inserted by the user are not part of it. |
| C72 | `sctk_alloc_chain_alloc` with an arbitrary value for the missing result of the hook | 0 and 1: same computation as without alignment; powers of two: C02 and C03; 2^62: the segments are below 2^56 so nothing fits (C14); witnesses by computation for the short blocks and the write outside. |
| C73 | the functions of ChainModel.v again, in a monad that also logs the hook calls (`H`), with one flag per hook | erasure of the log (`erases`, `hsame`): the hooked function computes the same result and memory (the header of alignment is written twice, with the same bytes); then the log of each function is related to the blocks (`pacts`, with free_core, alloc_core) and to the exchanges with the source (`tells`). |
| C74 | the loop of the dump, with the arguments of each printed line as result; an index past the tables of names is undefined | induction on the chunks of the segment given by the invariant of the chain; the end mark is its own successor. |
| C75 | each function as the set of its paths, a path being the list of its lock operations; the machine of OrderSpec.v runs any number of threads | a rank for the locks: every good path is balanced and climbs (lemma per function), so the owner of the highest lock that is waited for can move; refuted parts: a set of locks whose owners are out of the calls or wait inside the set stays taken for ever. |
| C76 | the whole allocator of C30 (PosixModel.v) with the source bound to the egg at the end of start-up, an answer of mmap at thread creation, blocks taken at start-up | without hwloc: the invariant of C30 puts every structure inside the static buffer; with hwloc: reachable states found by computation in which the claim fails. |
| C77 | the search with one access to its static variable per step, any number of threads; the ancestors of a processing unit as a list | invariant: the variable is not yet set, or right, or a thread in the loop will still store a bank; induction on lists. |
| C78 | per thread a buffer of stores (state, piece of work, release of the lock); the lock drains it | invariant: k instructions of the section are in memory, the buffer of the lock owner is the stores of the instructions k..n; steps outside the section are those of C55. |
| C79 | one access to the variable or to the file per step; the position of each file | invariant: lock owner, the open file is the one in the variable, registered exit functions plus those under way = open files, position between fseek and fread. |
| C80 | creation with one answer per system call, use, destruction; live descriptors, open files, mapped pages | invariant: owned = held by the pools + left by failed creations, pools apart; induction over the histories. |
| C81 | the chains, segments and sources of NodeModel.v with the sources of the POSIX layer, the structure of each chain, the round robin | invariant: a binding is the node of the source and exists; one lemma for the cases of a move; induction over the histories. |
| C82 | formats as strings, printf for the conversions used, the buffers, the macros, a table of all their callers | induction on the format (typed formats print what they say, numbers read back); lengths; the table by computation of its texts, for every path and value. |
| C83 | the threads of C68 with a store buffer each (x86; other machines by two switches), the segments mapped, who has a pointer to which segment | invariant: the stores about a segment wait in the buffer of one thread, the one that has it in hand; who has a pointer sees all of them; entries of free addresses are 0 in memory and in every buffer. Calls end: the holder of the lock comes out and its buffer empties, then induction on the blocks left. The switches are refuted by executions. |
| C84 | the whole allocator of C30; histories in which a fresh thread makes one call that needs a chain and ends (`come_go`) | the structures are disjoint blocks of the egg (invariant of C30), so 1696 bytes each are gone from 2 MB; one more always fits while the free blocks of the egg are larger than the alignment needs. Each thread of `come_go` leaves a chain, so the room ends after at most 1236 (refutation for every configuration, by the bound). |
| C85 | any bodies (programs of loads and stores) between lock and unlock, threads that use and hand over blocks outside, a store buffer per thread | simulation of a machine with one memory in which a call is one step. Each cell has an owner (ghost); invariant: a store that waits is in the buffer of the owner of the cell, for cells of the allocator in that of the thread that has or has just left the lock, and behind an unlock or a pointer in a buffer there is no store to what they make available. A body commutes with the stores of others to cells it does not touch. |
| C86 | the functions of ChainModel.v on a chain whose source was set (`with_source`); its states are those of a chain on buffers of the user | on buffers of at most 1 MB every function gives the same result with and without source, call by call (the merged chunk is below 2 MB - 48, and what is huge fits nowhere), so histories coincide. Beyond: the free is computed up to the merge in both cases, the free chunk seen without source tells which branch is taken with it. |
| C87 | fork keeps the locks (OrderModel.v) and the queue (MpscfModel.v) and removes all threads but one, which is outside the calls; new threads may come | quiet forks: the invariant of C75 holds again in the child. Any fork: the state with the locks taken at the fork shown as free follows C75, and the calls that avoid them move in step with it; the others wait for a lock that no list of operations left gives back. Queue: the invariant of C24 goes on in the child; with a gap in front of it the consumer never leaves its wait, with a hidden head it never starts. |
| C88 | a handler puts its lock operations in front of those that its thread has left, at any time, also in a handler; a handler of the owner of a queue runs a whole purge inside the purge of the owner | in order: the invariant of C75 goes on (the locks of the handler are above those held). Refuted part: per lock, a thread that does not hold it takes it before it gives it back, so a set of taken locks whose givers all wait for it is never free again, whatever threads and handlers do. Queue: the invariant of C24 with the place of the owner put aside and put back; with a batch in hand, its entries and the producers that still have to link them are put aside too (the rest goes on as if they were not there), and the log holds up to order. |
| C44 | `sctk_alloc_rfq_count_entries` | refuted: the loop tests the wrong variable |

## 4. Trusted base

* Coq's kernel (checked again with `coqchk`), the standard library. `Print Assumptions` under each
  theorem is expected to say *Closed under the global context*.
* That the Gallina model transcribes the C code; each definition cites the lines.
* Sequential consistency for the concurrent parts, except the remote free queue and the spinlock, which are also treated with the
  store buffers of x86 (C62, C63); x86-64 little-endian layout.

Simplifications of the whole allocator (`PosixModel.v`): public calls run one after another (interleavings are treated in the
queue, lock and locked-section models); the exchanges of a chain with the source and the registry are carried out at the end of
its operation; the release of a chain lock is recorded in the trace (`TUnlock`) but is not a store; thread identifiers stand
for thread-local storage.

Simplifications of the interleavings (`ConcModel.v`): a piece is atomic. Inside a piece the code holds the lock of the shared chain it
works on, or works on the chain of its thread, or registers in a queue (atomic by `MpscfModel.v`); the source and the registry have
their own locks. Two things break this in the code and are treated apart: the path of huge blocks updates `cnt_macro_blocs` without
the lock (`CounterModel.v`), and the two stores that mark a chain are one piece. Free of a foreign pointer is not in the concurrent
programs.

Simplifications of the start-up (`InitModel.v`, `RobinModel.v`): each piece of work of base_init is one instruction; the mutex is atomic;
reads and writes of the state and of the counter are atomic and sequentially consistent; the answers of hwloc are arguments bounded by the
number of nodes (C56_in_range justifies it for the round robin).

Simplifications of the light sources with several threads (`LightConcModel.v`): the cache is a list (the links in memory are in
`LightModel.v`), its search is one step under the lock; mmap succeeds and returns memory that is not mapped; the counter and the size are
integers (bounded by C57_size).

Not modelled: hwloc/NUMA binding calls, tracing, Windows API, TLS mechanics,
printing; the other `HAVE_MREMAP` paths (the build system never defines it; the branch
of realloc is the subject of C67, without the table of regions, which RegionModel.v describes).

Simplifications of the registry with several threads (`RegConcModel.v`): memory is sequentially consistent; clearing the table is one step, and
so is mmap with the store that follows it under the lock; mmap succeeds; the chain written in the header is part of the first step of a
registration; a segment is unmapped at the end of its unregistration.  `once` tells whether the compiler reads an entry once per lookup.

Simplifications of the nodes (`NodeModel.v`): hwloc is not modelled, its answers are arguments, and a call that binds memory succeeds (the
code only prints a warning otherwise); a segment is a size and one node, the addresses are in `LightModel.v` and `NumaModel.v`.  The
position of the segment taken from the cache is the first one of the exact size (the choice plays no role for the binding).

Simplifications of the NUMA statistics (`NumaStatModel.v`): the page map is read once, before the answers of move_pages (as in the code);
the file pointer is open or not available; the floating point ratio of the check is compared exactly.

## 5. Disagreements found between code and properties

* C10: `realloc` computes the old size of an aligned block without its padding (posix.c/allocator.c chain realloc):
  `C10_aligned_refuted`.
* C11: `realloc` frees the old block also when the new allocation failed: `C11_*_refuted`.
* C13: a huge request asks the source for its own size + header instead of the chunk size: for sizes
  k*2MB-63 .. k*2MB-48 the block is up to 16 bytes too small: `C13_huge_gap_refuted`. Such requests are excluded from
  `request_ok`.
* C14: sizes close to 2^64 wrap around and are served: `C14_wrap_*refuted`.
  From 2^63 on, `sctk_alloc_find_adapted_free_chunk` compares with a negative number: a free chunk of exactly 2 MB is accepted and the
  split goes outside (`C14_half_refuted`).
* C16: after a merge with a preceding free chunk the header of the freed block still says "allocated": a second free
  is silent and corrupts the chain: `C16_double_free_missed_refuted`.
* C18: buffers whose size is not a multiple of 16: a later split underflows: `C18_odd_buffer_refuted`. Such buffers are
  excluded from `new_range`.
* C19: `can_destroy` looks at the first segment only, and reads address 32 on a chain without segment: `C19_*_refuted`.
* C21, C40: free chunks above 2 MB go to a list that neither the search nor the statistics visit:
  `C21_*_refuted`, `C40_above_2MB_refuted`.
* C40: `sctk_alloc_chain_get_stat` calls lock instead of unlock: on a thread-safe chain it never returns
  (`C40_double_lock_refuted`).
* C44: `sctk_alloc_rfq_count_entries` loops on `entries`, which does not change: `C44_count_entries_refuted`.
* C23: chunks of 1 MB or 1 MB + 16 on a chain with a source are neither put in the free lists nor given back:
  `C23_band_*refuted`.
* C29: segments smaller than 2 MB in the same slot of the table stop the program, and an address below a segment that
  starts within the first 2 MB is taken to be inside (examples in PropRegion.v). Such segments are excluded from `seg_ok`.
* C33: `mmap` failure is compared with NULL, not MAP_FAILED: `C33_mmap_failure_refuted`, in every reachable state.
* C45: `sctk_alloc_region_del_chain` visits the 1 TB window of the base address of the chain only: `C45_other_window_refuted`.
* C35: the size test of `sctk_pmem_malloc` wraps: `C35_wrap_refuted`.
* C36, C48: NUMA statistics miss the last page of unaligned blocks (`C36_stat_misses_last_page_refuted`); scans treat a
  segment once for each slot of 2 MB (`C48_treated_per_slot_refuted`, `C48_pages_overcounted_refuted`).
* C37: unit suffixes of sizes are ignored: `C37_suffix_refuted`.
* C41: initialisation of the default source does not return for 4 MB or more, and a 2 MB heap serves nothing:
  `C41_init_diverges_refuted`, `C41_never_serves_refuted`.
* C47: a pool size goes through a `float` and can be rounded down (`C47_float_rounding_refuted`); a failed mmap is taken for
  success (`C47_failed_map_refuted`).
* C15: the product of calloc wraps (`C15_overflow_refuted`), and memset is called on NULL (`C15_null_refuted`).
* C34: the test of posix_memalign joins its two conditions with `&&`: only the powers of two that are not multiples of 8
  are rejected (`C34_not_pow2_refuted`), and ENOMEM is never returned (`C34_codes_refuted`).
* C43: a chain without segment when its thread exits is never destroyed (`C43_empty_never_refuted`); the free that destroys
  a chain then unlocks it (`C43_unlock_after_refuted`).
* C52: an exiting thread marks its chain, then empties its queue: a free in between may destroy the chain, and the purge works
  on memory given back (`C52_purge_after_destruction_refuted`). A free that finds the chain not shared and registers after
  the exit is lost, and the chain is never destroyed (`C52_late_free_lost_refuted`). `cnt_macro_blocs` is updated without the lock for
  huge blocks (`C52_counter_many_refuted`, `C52_counter_never_refuted`, `C52_counter_early_refuted`).
* C53: realloc of a block of the caller's chain leaves its queue as it is (`C53_realloc_refuted`).
* C54: a piece lost by C23 keeps its segment and its chain (`C54_lost_block_refuted`).
* C55: with the round robin, a thread that arrives after the state "default" and before the state "numa" asks for the source of a node that
  is not initialised (`C55_robin_early_refuted`); the first condition of line 344 is always true, so that this affects every call; on a
  machine where hwloc shows no node the counter is reduced modulo 0 (`C55_robin_no_node_refuted`, `C56_no_node_refuted`).
* C56: the first calls race on `cnt == -1`: any number of threads get node 0 (`C56_same_node_refuted`), and the lock is initialised again
  while taken (`C56_two_inside_refuted`).
* C57: `sctk_alloc_mm_source_light_keep` reads the size without the lock.  N threads that free at the same time bring the cache to
  keep_mem + N * keep_max; the bound for one thread (C32) is exceeded (`C57_one_thread_bound_refuted`).
* C58: `sctk_alloc_chain_numa_migrate` replaces the source of a chain that has segments; they are given back to the new source, the two
  counters stay wrong and `sctk_alloc_mm_source_light_cleanup` stops the program (`C58_migrated_refuted`).
* C59: `if (status == 0) return -1` (topology.c 204, 216, 263) is inverted: no node is found when hwloc succeeds
  (`C59_bound_thread_refuted`), every thread gets the default source (`C59_source_refuted`) and two bitmaps stay allocated per call; line
  305 overwrites the result of line 302 (`C59_membind_refuted`).  The variant with getcpu returns the logical index of the processing unit
  (`C59_getcpu_refuted`); the header is included under HAVE_LINUX_GETCPU and the function compiled under HAVE_GETCPU, the build defines
  neither.
* C60: `sctk_alloc_mm_source_light_migrate` moves the cache but keeps `numa_node` and `nodeset` (`C60_moved_source_refuted`,
  `C60_moved_back_refuted`); `sctk_alloc_chain_numa_migrate` changes the source also when `numa_migration` is off
  (`C60_moved_chain_refuted`); `sctk_alloc_migrate_numa_mem` reads `obj->nodeset` of NULL for -1 (`C60_reset_refuted`).
* C61: the number of pages is `size >> 12`, too small for every area that is not aligned (`C61_unaligned_refuted`, also C36); `i << 12`
  with an int is undefined above 2 GB (`C61_large_refuted`); in the build without page map it wraps at 4 GB (`C61_above_4gb_refuted`) and
  the loop never ends from 16 TB on (`C61_endless_refuted`); when /proc/self/pagemap cannot be opened `total_mapped` grows and
  `total_pages` does not (`C61_no_map_refuted`); node -1 is used as an index (`C61_no_move_pages_refuted`); without page map
  `total_mapped` is 0 and `sctk_alloc_numa_check` never reports (`C61_check_refuted`).  Not stated: when it reports, it prints a double
  with %d, and its own file and line instead of those of the caller.
* C62: the queue relies on the swap of x86: the barrier of sctk_alloc_mpscf_queue.h:223 is commented out, and with a swap that does not wait for
  earlier stores the owner clears the head after another thread has set it: a block is lost (`C62_no_barrier_refuted`).
* C63: with store buffers `trylock` is refused while the unlock is on its way (`C63_trylock_refuted`); the unlock is a plain store, on
  processors where stores overtake each other a section reads old data (`C63_weak_order_refuted`).
* C64: with MPCALLOC_REALLOC_FACTOR=0 every reallocation in place divides by zero (`C64_null_factor_refuted`).
* C67: with mremap, a refusal of the system stops the program where realloc must return NULL (`C67_no_memory_refuted`); a huge block got with an
  alignment is not at the start of its segment, `mremap` is called with an address inside the segment and the program stops
  (`C67_aligned_refuted`); the sizes of the band of C10 get 16 bytes less than asked (`C67_gap_refuted`).
* C68: `sctk_alloc_region_init` sets its flag before it clears the table, and initialises the lock, without a lock: two threads whose first
  registrations overlap lose a segment (`C68_init_refuted`); a lookup reads its entry several times without a lock: with a compiler that keeps
  the reads and segments not aligned on 2 MB it answers NULL for a block in use (`C68_double_read_refuted`); a lookup of an address outside every
  segment reads the header of a segment that may just have been unmapped (`C68_foreign_refuted`); `sctk_alloc_region_del_chain` follows an entry
  after its test while its owner may clear it (`C68_destroy_refuted`).
* C69: `sctk_alloc_mm_source_default_cleanup` clears the whole region of its heap, with the segments other chains have registered in the same 1 TB:
  a later free of one of their blocks finds no chain (`C69_cleanup_refuted`; a todo at 2128-2130 mentions it).  A heap that ends in the next
  window keeps its part there, since the loop steps by 1 TB from the start of the heap.
* C72: `sctk_net_memory_allocation_hook` (allocator.c 1402-1408) ends without `return`; `sctk_alloc_chain_alloc` uses the value as alignment.
  The C standard makes this undefined behaviour; with usual compilers the register holds the hook pointer (0) and all goes well by accident
  (`C72_null_refuted`, `C72_short_refuted`).  The other properties are stated for the values 0 and powers of two (`ehook`, `hook`).
* C73: the hook of huge allocations (allocator.c 1471) is called before the result of the request is tested: on a refusal its arguments read the
  header of the null block (`C73_refused_huge_refuted`).  `sctk_alloc_rfq_count_entries` (2589-2599), called for the hook of flushes, loops on
  `entries` which never changes (`C73_flush_refuted`).  The requested size of an aligned allocation is announced with the alignment added, and of a
  huge one with the alignment subtracted although it was not added when it is 1 (`C73_request_refuted`).  Not stated as theorems: memory given by
  the user (`sctk_alloc_chain_user_refill`) raises no event, hence the hypothesis on the source in `C73_segments`; a refusal of the source is announced as a
  segment at NULL; `chain_remote_free` is raised with its two chains exchanged with respect to its type.
* C74: `sctk_alloc_debug_dump_segment` (sctk_alloc_debug.c 166-184) starts on the header of the macro bloc, whose size is the whole segment, so its loop stops
  at once (`C74_whole_refuted`); it moves to the next chunk before printing, so the first chunk is never printed; and the end mark of size 0 is its own
  next chunk (`C74_end_refuted`).
* C75: missing unlocks: default source when the mapping fails (sctk_allocator.c 2005-2008), cleanup of a light source (light 284), `get_stat` (2745 locks again), a flag cleared
  between 1475 and 1517.  Allocations under a lock: `calloc` of `read_pagemap` (numa_stat.c 213) under the lock of the regions (2680), hwloc in the migrations (2649, light 648).
  Inversion: regions then page map (2680, numa_stat 216) against page map then regions (fopen and fread allocate).  `mark_current_for_destroy` (posix.c 989-1006) called twice by a thread
  marks the egg chain, whose handler frees into the egg chain under its own lock.
  Simplifications: which path is taken for which arguments is not modelled (all are possible); a process that aborts is left out, so a trylock that fails (2122) is a wait; the lock
  of a destroyed chain stays a lock (its memory is the subject of C43); the unprotected initialisations of locks are in C55, C56 and C68; pthread locks and the internal spinlock
  behave alike, a Windows critical section (recursive) is not modelled.
* C76: with hwloc the egg chain has the default source (posix.c 460).  Once its static buffer is full the structures of new chains are in segments of the source; `chain_free` of the
  last block of a marked chain frees the structure (985), the egg gives the segment back, the source unmaps it or puts it in its cache, and only then the lock in the structure is
  released (sctk_allocator.c 1650).  A block above 1 MB taken from the static buffer before the source is bound is huge for `chain_free` afterwards, but is no segment: 1545 returns
  without doing anything and the block is lost.  The invariants of C30 are not proved for an egg with a source.
* C77: `sctk_topology_mcdram_detection` (topology.c 61-86) stores -1 in its static variable before it searches, so another thread takes -1 for the final answer and
  `sctk_hbw_malloc` uses node 0.  `mpcalloc_topology_get_numa_node_from_cpu` (152) gives the logical index of the parent object instead of the index of its memory child.
* C78: `sctk_global_base_init` (posix.c 76) is a plain variable, tested without the lock (398) and stored without a barrier (440, 463, 279): right with the
  store order of x86 if the compiler keeps the order, wrong where stores overtake each other (`C78_overtaking_refuted`).
* C79: numa_stat.c 78-87 closes the file at exit and puts NULL in the variable; read_pagemap (206) tests only for the marker 0x1, so a thread still reading
  calls fseek(NULL) (`C79_exit_refuted`).  print_detail (327) tests for the marker, not for NULL, and does not initialise (`C79_detail_refuted`); it does not test the
  table it gets (342, numa_stat_cumul does at 256) (`C79_detail_race_refuted`).
* C80: pmem.c frees the descriptor on the path of a device only (103); the returns at 54, 70, 77, 84 lose it, and 70, 77, 84 also the open file
  (`C80_left_behind_refuted`, `C80_exhaust_refuted`).  The answers of malloc (29) and stat (132) are not tested (`C80_no_memory_refuted`, `C80_stat_refuted`).  With the
  size of C47 rounded down, destroying with the size asked for unmaps one page too many (`C80_neighbour_refuted`).
* C81: posix.c 963 compares a node with 128, the number of the default source, but that source has node -1 (226-229): a thread whose node is no longer known has
  its chain bound to node -1, whose object is NULL (`C81_unknown_refuted`).  344 tests `node == -1 || 128`, which is always true (`C81_round_robin_refuted`).  The
  comment at 911-912 expects the first chain on the node of the thread; 508 forces the default source (`C81_first_use_refuted`).  With C59 a bound thread is never
  found (`C81_bound_thread_refuted`).
* C82: sctk_alloc_debug.h 115-116 drops the size of the buffer (`C82_overflow_refuted`: the message of numa_check, numa_stat.c 405, 409).  numa_stat.c 403, 407 give
  a double to `%d` (`C82_ratio_refuted`).  posix.c 857 has four conversions and three values (`C82_realloc_refuted`).  The macros at debug.h 60, 66 pass the message and
  its values as arguments of their own format, so that `%p` is printed as it stands (`C82_values_refuted`: config.c 123, posix.c 358, 704, 838, allocator.c 1602, 1744;
  358 gives no value at all).  The answer of write is not looked at (`C82_short_write_refuted`).
* C83 holds on x86 only: sctk_allocator.c 2232, 2238, 2295, 2336 are plain stores, and nothing orders them before the return of a block to the program
  (`C83_overtake_refuted`, `C83_overtake_region_refuted` for a machine whose stores overtake each other).  A source given by the user that takes no lock and makes no
  system call would break it on x86 as well (`C83_no_fence_refuted`).
* C84: a chain is only destroyed when a block of it is freed after its thread has ended (and nothing in src calls sctk_alloc_posix_mark_current_for_destroy), so a
  thread that holds nothing when it ends leaves 1696 bytes of the egg for ever (`C84_left_behind_refuted`); sctk_alloc_posix.c 499-500 checks the block of the egg only
  by an assert (`C84_full_stops_refuted`, `C84_come_and_go_refuted`).
* C85 holds on x86 only, as C63 and C83: the unlock (sctk_alloc_internal_spinlock.h 66) is a plain store (`C85_weak_unlock_refuted`), and so is the hand-over of a
  pointer by the program (`C85_weak_hand_refuted`).  The bodies are arbitrary programs of loads and stores that are right when run one after another; that the chain of
  ChainModel.v is such a body is C01-C08 and C28, the translation into single loads and stores is not made.
* C86 (user memory stays with the chain): false.  `sctk_alloc_chain_user_refill` (1055-1057) only warns if the chain has a source, `sctk_alloc_chain_numa_migrate`
  (2840-2842) gives one to any chain, and `sctk_alloc_chain_free` decides by the size of the chunk alone (1638): a buffer of 2 MB goes to the source as soon as its
  last block is freed, which then caches or unmaps memory it never gave; in a buffer of 2 MB + 48 bytes this happens with a live block in it.  Not covered: histories
  in which the source also gives memory to such a chain.
* C87 (the child of a fork): false.  Nothing in /repo registers a fork handler (pthread_atfork).  If another thread is in malloc, the child inherits its locks (egg chain,
  light source, regions) and its own malloc waits for ever.  Even without a lock: `sctk_mpscf_queue_insert` (157-169) is not atomic, and a thread that is gone
  between the swap and the link leaves `sctk_mpscf_queue_wait_until_end_is` (184-192) without end, or the head NULL for ever.  Not covered: what the store buffer of
  a thread that is gone still held, and blocks whose free had not reached its swap (they are lost in the child).
* C88 (handlers of signals): false, as for most allocators: malloc in a handler waits for ever for a spin lock of its own thread (egg chain, light source, regions), and the
  lock is lost for all threads; `sctk_mpscft_queue_dequeue_all` (queue.h 202-239) reads and clears the head in two steps, and a purge in between frees the entry whose
  address the owner holds.  In the unlocked chain of the thread, an allocation stopped between the search of
  a chunk and its removal (sctk_allocator.c 735) shares the chunk with an allocation of its handler, then writes at address 24 (C88_chain_refuted).
  A free stopped before the last store of its insertion (513) loses its chunk when the handler frees into the same list (C88_free_refuted).  Not covered: the other
  places inside an operation of that chain (ChainModel.v has no steps there).  At every other place of the
  purge of a queue a purge in a handler only costs the order of delivery (C88_batch, C88_batch_order_refuted).
* Not stated as a theorem: `sctk_alloc_chain_numa_migrate` ignores its `migrate_content` flag.
