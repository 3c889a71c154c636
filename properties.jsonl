{"id": "C01", "title": "Live blocks never overlap", "statement": "At every moment, the byte ranges [ptr, ptr+usable size) of any two blocks that an allocation chain handed out and that were not yet freed are disjoint, including blocks from memalign-style requests.", "quantifier": "every history of alloc / aligned alloc / free / realloc / refill / user writes on a chain, of any length, every size and every power-of-two boundary", "why_tests_cant": "Tests replay a few random sequences; overlap depends on the whole split/merge history and on which chunk a free list yields.", "anchors": ["src/sctk_allocator.c:sctk_alloc_chain_alloc_align", "src/sctk_allocator.c:sctk_alloc_chain_free", "src/sctk_allocator.c:sctk_alloc_split_free_bloc", "src/sctk_allocator.c:sctk_alloc_merge_chunk"]}
{"id": "C02", "title": "Blocks are inside the memory given to the chain and large enough", "statement": "A non-NULL pointer returned for a request of n bytes designates a range of at least n bytes that lies entirely inside one of the memory segments given to the chain and never covers the chain's own bookkeeping data.", "quantifier": "every reachable chain state, every requested size up to the supported maximum, every boundary", "why_tests_cant": "The size arithmetic has rounding and wrap-around cases that cannot be enumerated.", "anchors": ["src/sctk_allocator.c:sctk_alloc_chain_alloc_align", "src/sctk_allocator.c:sctk_alloc_calc_chunk_size", "src/sctk_allocator.c:sctk_alloc_setup_chunk_padded"]}
{"id": "C03", "title": "Returned pointers are aligned", "statement": "Pointers from plain allocation are 16-byte aligned when the segments are 16-byte aligned, and pointers from aligned allocation are multiples of the requested power-of-two boundary.", "quantifier": "every reachable state, every size, every power-of-two boundary", "why_tests_cant": "Alignment of a chunk depends on every split and merge that happened before.", "anchors": ["src/sctk_allocator.c:sctk_alloc_chain_alloc_align", "src/sctk_allocator.c:sctk_alloc_setup_chunk_padded", "src/sctk_allocator.c:sctk_alloc_split_free_bloc"]}
{"id": "C04", "title": "Operations never disturb the content of other live blocks", "statement": "The bytes a program stored in a live block are unchanged by any later allocation, free, refill or reallocation of other blocks on the chain.", "quantifier": "every byte of every live block, every history of operations", "why_tests_cant": "Bookkeeping is stored inline next to user data; one wrong header address corrupts a byte no test looks at.", "anchors": ["src/sctk_allocator.c:sctk_alloc_free_list_insert", "src/sctk_allocator.c:sctk_alloc_free_list_remove", "src/sctk_allocator.c:sctk_alloc_split_free_bloc", "src/sctk_allocator.c:sctk_alloc_merge_chunk", "src/sctk_allocator.c:sctk_alloc_chain_free"]}
{"id": "C05", "title": "Memory safety and termination for any user content", "statement": "Whatever bytes the program writes inside its live blocks, and for every valid sequence of calls, the chain never reads or writes outside its segments and its own structure, never aborts, and every call returns.", "quantifier": "every valid history and every content written by the program in its own blocks", "why_tests_cant": "The allocator follows pointers and sizes stored next to user data; safety is a statement about all contents and all histories.", "anchors": ["src/sctk_allocator.c:sctk_alloc_chain_alloc_align", "src/sctk_allocator.c:sctk_alloc_chain_free", "src/sctk_allocator.c:sctk_alloc_find_adapted_free_chunk", "src/sctk_allocator.c:sctk_alloc_merge_chunk"]}
{"id": "C06", "title": "Freeing everything restores full capacity", "statement": "On a user chain with merging enabled, once every block has been freed each segment is again one single free block, so the largest request that succeeded on the fresh chain succeeds again: no fragmentation survives.", "quantifier": "every history that ends with no live block, in any order of frees", "why_tests_cant": "The order of frees is factorially large; a missed merge is only visible at some order.", "anchors": ["src/sctk_allocator.c:sctk_alloc_merge_chunk", "src/sctk_allocator.c:sctk_alloc_chain_free", "src/sctk_allocator.c:sctk_alloc_get_prev_chunk"]}
{"id": "C07", "title": "An allocation fails only when no free gap is large enough", "statement": "On a chain without memory source whose segments are at most 2 MB, allocation returns NULL only if no free gap between live blocks has room for the rounded request.", "quantifier": "every reachable state, every size", "why_tests_cant": "It is a claim about the absence of any suitable gap in any state.", "anchors": ["src/sctk_allocator.c:sctk_alloc_find_free_chunk", "src/sctk_allocator.c:sctk_alloc_find_first_free_non_empty_list", "src/sctk_allocator.c:sctk_alloc_get_free_list_fast"]}
{"id": "C08", "title": "Bytes are conserved", "statement": "In every state, for each segment, header bytes + live block bytes + free bytes add up exactly to the segment size: memory is neither lost nor counted twice.", "quantifier": "every reachable state of a chain without memory source", "why_tests_cant": "A leak of 16 bytes per operation would pass functional tests.", "anchors": ["src/sctk_allocator.c:sctk_alloc_split_free_bloc", "src/sctk_allocator.c:sctk_alloc_merge_chunk", "src/sctk_allocator.c:sctk_alloc_create_stopper"]}
{"id": "C09", "title": "NULL and zero-size conventions", "statement": "alloc of 0 bytes gives NULL, free of NULL does nothing, realloc(NULL,n) behaves as alloc(n), realloc(p,0) behaves as free(p) and gives NULL, realloc(NULL,0) gives NULL; none of them changes another live block.", "quantifier": "every reachable state, every pointer and size", "why_tests_cant": "Must hold in every state, including nearly full and fragmented ones.", "anchors": ["src/sctk_allocator.c:sctk_alloc_chain_alloc_align", "src/sctk_allocator.c:sctk_alloc_chain_free", "src/sctk_allocator.c:sctk_alloc_chain_realloc"]}
{"id": "C10", "title": "Reallocation keeps the content", "statement": "When reallocation of a block obtained from plain allocation succeeds, the first min(old requested size, new size) bytes of the result equal the old ones, the result has at least the new size, and the old block is released unless it is the result.", "quantifier": "every reachable state, every old and new size, every content", "why_tests_cant": "Depends on threshold arithmetic, on in-place reuse and on copy bounds for all sizes.", "anchors": ["src/sctk_allocator.c:sctk_alloc_chain_realloc", "src/sctk_alloc_config.c:sctk_alloc_config_init_static_defaults"]}
{"id": "C11", "title": "Failed reallocation leaves the old block valid", "statement": "If reallocation to a non-zero size returns NULL, the old block is still allocated with its content.", "quantifier": "every reachable state where the new block cannot be found", "why_tests_cant": "Out-of-memory at the exact moment of realloc in every state.", "anchors": ["src/sctk_allocator.c:sctk_alloc_chain_realloc", "src/sctk_alloc_posix.c:sctk_realloc_inter_chain"]}
{"id": "C12", "title": "Aligned blocks behave as ordinary blocks afterwards", "statement": "A pointer from aligned allocation can be freed, remotely freed and measured exactly as one from plain allocation: the allocator finds the enclosing block from the pointer alone.", "quantifier": "every power-of-two boundary, every size, every body address", "why_tests_cant": "The hidden padding descriptor must be found for all residues of the address modulo the boundary.", "anchors": ["src/sctk_allocator.c:sctk_alloc_setup_chunk_padded", "src/sctk_alloc_inlined.h:sctk_alloc_get_chunk_unpadded", "src/sctk_alloc_inlined.h:sctk_alloc_unpadd_vchunk"]}
{"id": "C13", "title": "Usable size is exact", "statement": "The size reported for a live pointer is at least the requested size, and writing that many bytes touches no other live block and no bookkeeping data.", "quantifier": "every live pointer in every reachable state", "why_tests_cant": "Needs all chunk sizes and paddings.", "anchors": ["src/sctk_alloc_posix.c:sctk_alloc_posix_get_size", "src/sctk_alloc_inlined.h:sctk_alloc_get_chunk_unpadded"]}
{"id": "C14", "title": "Oversized requests fail cleanly", "statement": "A request larger than anything the chain could hold, up to the maximum of size_t, returns NULL and leaves the chain unchanged.", "quantifier": "every size up to 2^64-1, every boundary", "why_tests_cant": "The interesting sizes are at the wrap-around limits of 64-bit arithmetic.", "anchors": ["src/sctk_allocator.c:sctk_alloc_calc_chunk_size", "src/sctk_allocator.c:sctk_alloc_chain_request_mem", "src/sctk_allocator.c:sctk_alloc_chain_alloc_align"]}
{"id": "C15", "title": "calloc gives zeroed memory of nmemb*size bytes", "statement": "calloc(n,s) returns NULL or a block of at least n*s bytes (mathematical product) which are all zero.", "quantifier": "every pair n,s of size_t", "why_tests_cant": "The product overflows for most pairs.", "anchors": ["src/sctk_alloc_posix.c:sctk_calloc"]}
{"id": "C16", "title": "Double free is detected", "statement": "Freeing again a pointer that was already freed and not handed out since stops the program instead of corrupting the chain.", "quantifier": "every reachable state and every previously freed pointer", "why_tests_cant": "Depends on whether the freed block was merged with its neighbours, hence on the whole history.", "anchors": ["src/sctk_allocator.c:sctk_alloc_chain_free", "src/sctk_allocator.c:sctk_alloc_merge_chunk"]}
{"id": "C17", "title": "Foreign pointers are ignored", "statement": "Freeing or reallocating a pointer whose preceding byte is not a valid block mark changes nothing (default mode) or stops the program (strict mode).", "quantifier": "every state and every such pointer", "why_tests_cant": "All byte values and all states.", "anchors": ["src/sctk_allocator.c:sctk_alloc_chain_free", "src/sctk_allocator.c:sctk_alloc_chain_realloc", "src/sctk_alloc_inlined.h:sctk_alloc_get_chunk"]}
{"id": "C18", "title": "Refilling adds capacity and nothing else", "statement": "Giving a new disjoint buffer to a chain keeps all live blocks and their content, and the new memory becomes available for allocation.", "quantifier": "every reachable state, every buffer larger than 80 bytes", "why_tests_cant": "Must hold in every state of the chain.", "anchors": ["src/sctk_allocator.c:sctk_alloc_chain_user_refill", "src/sctk_allocator.c:sctk_alloc_chain_prepare_and_reg_macro_bloc"]}
{"id": "C19", "title": "can_destroy answers whether blocks are still live", "statement": "The emptiness test on a chain answers true exactly when no block of the chain is live.", "quantifier": "every reachable state, chains with one or several segments", "why_tests_cant": "Equivalence over all states.", "anchors": ["src/sctk_allocator.c:sctk_alloc_chain_can_destroy"]}
{"id": "C20", "title": "Size class lookup is exact", "statement": "For every size up to 2 MB the two lookup algorithms (analytic and binary search) return the same class: the smallest class whose size is at least the requested one; a free block is always filed in a class whose size does not exceed the block's.", "quantifier": "every size from 1 to 2 MB", "why_tests_cant": "Two million sizes times two algorithms; the test samples a few.", "anchors": ["src/sctk_allocator.c:sctk_alloc_get_free_list_fast", "src/sctk_allocator.c:sctk_alloc_get_free_list_slow", "src/sctk_allocator.c:sctk_alloc_reverse_analytic_free_size", "src/sctk_allocator.c:sctk_alloc_free_list_insert"]}
{"id": "C21", "title": "Size class lookup above 2 MB", "statement": "For every size above 2 MB both lookup algorithms return a class that the allocation search visits, so blocks larger than 2 MB stay allocatable.", "quantifier": "every size above 2 MB", "why_tests_cant": "Requires all sizes above the last class.", "anchors": ["src/sctk_allocator.c:sctk_alloc_get_free_list_fast", "src/sctk_allocator.c:sctk_alloc_get_free_list_slow", "src/sctk_allocator.c:sctk_alloc_find_first_free_non_empty_list"]}
{"id": "C22", "title": "Memory goes back to the source exactly when it is unused", "statement": "On a chain with a memory source, a segment is returned to the source by the free that releases its last live block, never earlier, and exactly once; the count of segments held equals the number obtained minus the number returned.", "quantifier": "every history on a chain with a memory source, every behaviour of the source", "why_tests_cant": "Returning one segment too early is a use-after-unmap only for some histories.", "anchors": ["src/sctk_allocator.c:sctk_alloc_chain_free_macro_bloc", "src/sctk_allocator.c:sctk_alloc_chain_request_mem", "src/sctk_allocator.c:sctk_alloc_chain_free"]}
{"id": "C23", "title": "Every freed block becomes reusable", "statement": "On a chain with a memory source, freeing a block makes its bytes available again to later allocations or returns them to the source.", "quantifier": "every live block of every reachable state", "why_tests_cant": "There are thresholds (1 MB) at which the allocation path and the free path must agree for all sizes.", "anchors": ["src/sctk_allocator.c:sctk_alloc_chain_is_huge_size", "src/sctk_allocator.c:sctk_alloc_chain_free", "src/sctk_allocator.c:sctk_alloc_chain_free_macro_bloc"]}
{"id": "C24", "title": "Remote frees are delivered exactly once", "statement": "Each block freed by a non-owner thread is handed to the owner exactly once: no remote free is lost or duplicated, whatever the interleaving.", "quantifier": "every number of threads, every number of remote frees, every interleaving of the atomic steps", "why_tests_cant": "Interleavings are unbounded; races show up rarely.", "anchors": ["src/sctk_alloc_mpscf_queue.h:sctk_mpscf_queue_insert", "src/sctk_alloc_mpscf_queue.h:sctk_mpscft_queue_dequeue_all", "src/sctk_allocator.c:sctk_alloc_rfq_register", "src/sctk_allocator.c:sctk_alloc_chain_purge_rfq"]}
{"id": "C25", "title": "Remote frees are delivered in order", "statement": "Entries come out of the remote free queue in the order in which they were published, in particular in program order for each producer.", "quantifier": "every interleaving of producers and the consumer", "why_tests_cant": "All interleavings.", "anchors": ["src/sctk_alloc_mpscf_queue.h:sctk_mpscf_queue_insert", "src/sctk_alloc_mpscf_queue.h:sctk_mpscft_queue_dequeue_all"]}
{"id": "C26", "title": "The remote free consumer always finishes", "statement": "Whenever the producers caught in the middle of an insertion are allowed to finish, the consumer's waiting loop terminates; the consumer never follows a dangling link.", "quantifier": "every interleaving; every state of the queue", "why_tests_cant": "Liveness over all schedules.", "anchors": ["src/sctk_alloc_mpscf_queue.h:sctk_mpscf_queue_wait_until_end_is", "src/sctk_alloc_mpscf_queue.h:sctk_mpscft_queue_dequeue_all"]}
{"id": "C27", "title": "The spinlock gives mutual exclusion", "statement": "At most one thread is between lock and unlock at any time, a successful trylock counts as lock, and when the lock is free some waiting thread can take it.", "quantifier": "every number of threads and every interleaving", "why_tests_cant": "Unbounded interleavings.", "anchors": ["src/sctk_alloc_internal_spinlock.h:sctk_alloc_internal_spinlock_lock", "src/sctk_alloc_internal_spinlock.h:sctk_alloc_internal_spinlock_trylock", "src/sctk_alloc_internal_spinlock.h:sctk_alloc_internal_spinlock_unlock"]}
{"id": "C28", "title": "Thread-safe chains behave as if calls ran one after another", "statement": "With the thread-safe flag, the results of concurrent pool allocations and frees are those of some sequential order of the same calls that respects real time.", "quantifier": "every interleaving of any number of threads", "why_tests_cant": "Unbounded interleavings.", "anchors": ["src/sctk_allocator.c:sctk_alloc_chain_alloc_align", "src/sctk_allocator.c:sctk_alloc_chain_free"]}
{"id": "C29", "title": "Segment lookup by address is exact", "statement": "For registered segments that are disjoint and whose sizes are multiples of 2 MB, the registry returns for any interior address the segment containing it, and NULL for any address outside all segments.", "quantifier": "every set of registered segments, every address below 2^48, every register/unregister history", "why_tests_cant": "All addresses and all segment layouts, including segments not aligned on 2 MB.", "anchors": ["src/sctk_allocator.c:sctk_alloc_region_get_macro_bloc", "src/sctk_allocator.c:sctk_alloc_region_set_entry", "src/sctk_allocator.c:sctk_alloc_region_unset_entry"]}
{"id": "C30", "title": "free() goes to the chain that owns the block", "statement": "A block allocated by one thread and freed by any thread goes back to the allocation chain it came from: directly if the caller owns the chain or the chain is shared, through its remote queue otherwise.", "quantifier": "every assignment of threads to chains and every history", "why_tests_cant": "All histories of several threads.", "anchors": ["src/sctk_alloc_posix.c:sctk_free", "src/sctk_alloc_posix.c:sctk_malloc", "src/sctk_allocator.c:sctk_alloc_region_get_macro_bloc"]}
{"id": "C31", "title": "The memory source never hands out the same memory twice", "statement": "Segments handed out by the light memory source and not yet given back are pairwise disjoint, also when they come from its cache, and have exactly the requested size.", "quantifier": "every history of requests and returns, every behaviour of the OS that returns fresh mappings", "why_tests_cant": "Cache reuse depends on the whole history.", "anchors": ["src/sctk_alloc_light_mm_source.c:sctk_alloc_mm_source_light_request_memory", "src/sctk_alloc_light_mm_source.c:sctk_alloc_mm_source_light_find_in_cache", "src/sctk_alloc_light_mm_source.c:sctk_alloc_mm_source_light_free_memory"]}
{"id": "C32", "title": "Memory source accounting is exact and bounded", "statement": "The cached size equals the sum of the cached segments, the counter equals the number of segments handed out, and the cache never exceeds the configured limit by more than one keepable segment.", "quantifier": "every sequential history of requests and returns, every configuration", "why_tests_cant": "Needs all histories.", "anchors": ["src/sctk_alloc_light_mm_source.c:sctk_alloc_mm_source_light_keep", "src/sctk_alloc_light_mm_source.c:sctk_alloc_mm_source_light_reg_in_cache", "src/sctk_alloc_light_mm_source.c:sctk_alloc_mm_source_light_free_memory"]}
{"id": "C33", "title": "Failure of the OS to give memory is reported as NULL", "statement": "When the OS refuses a mapping, the request returns NULL and the source stays consistent.", "quantifier": "every state and every failing request", "why_tests_cant": "The OS error must be injected at any point.", "anchors": ["src/sctk_alloc_light_mm_source.c:sctk_alloc_mm_source_light_mmap_new_segment", "src/sctk_allocator.c:sctk_alloc_mm_source_default_request_memory", "src/sctk_alloc_common.c:sctk_mmap"]}
{"id": "C34", "title": "posix_memalign follows its contract", "statement": "posix_memalign rejects boundaries that are not a power of two multiple of sizeof(void*) with EINVAL, reports ENOMEM when no memory is available, and otherwise stores a pointer aligned on the boundary with at least size bytes.", "quantifier": "every boundary and every size", "why_tests_cant": "All 2^128 pairs.", "anchors": ["src/sctk_alloc_posix_export.c:posix_memalign", "src/sctk_alloc_posix_export.c:memalign", "src/sctk_alloc_posix.c:sctk_posix_memalign", "src/sctk_alloc_posix.c:sctk_memalign"]}
{"id": "C35", "title": "Persistent memory blocks are disjoint", "statement": "Blocks handed out by the persistent memory pool are pairwise disjoint and inside the pool, and requests that do not fit return NULL.", "quantifier": "every sequence of requests, every size_t size", "why_tests_cant": "All sizes, including overflow.", "anchors": ["src/sctk_alloc_pmem.c:sctk_pmem_malloc", "src/sctk_alloc_pmem.c:sctk_pmem_free"]}
{"id": "C36", "title": "Page ranges cover the block", "statement": "The page range computed for NUMA migration of a block is page aligned and covers every byte of the block.", "quantifier": "every address and size", "why_tests_cant": "All residues modulo the page size.", "anchors": ["src/sctk_alloc_numa_stat.c:sctk_alloc_numa_stat", "src/sctk_allocator.c:sctk_alloc_migrate_numa_mem"]}
{"id": "C37", "title": "Configuration values from the environment", "statement": "A size written in an environment variable with an optional unit suffix is read as the number times the unit; booleans are recognised as documented; other settings keep their default.", "quantifier": "every string", "why_tests_cant": "All strings.", "anchors": ["src/sctk_alloc_config.c:sctk_alloc_config_init_env"]}
{"id": "C38", "title": "Header fields are independent", "statement": "Writing one field of a block header (size, canary, previous size, type, state, mark) never changes another field, and a stored size below 2^56 is read back exactly, on both Unix and Windows layouts.", "quantifier": "every field value and every previous header content", "why_tests_cant": "2^128 header contents.", "anchors": ["src/sctk_alloc_inlined.h:sctk_alloc_set_chunk_header_large_size", "src/sctk_alloc_inlined.h:sctk_alloc_set_chunk_header_large_previous_size", "src/sctk_alloc_inlined.h:sctk_alloc_set_chunk_header_padded_padding"]}
{"id": "C39", "title": "Free lists stay well formed", "statement": "Each free list is always a consistent doubly linked ring: walking it forwards and backwards visits the same blocks, exactly the free blocks of the class, each once, and its non-empty flag is exact.", "quantifier": "every reachable state", "why_tests_cant": "Pointer surgery over all histories.", "anchors": ["src/sctk_allocator.c:sctk_alloc_free_list_insert", "src/sctk_allocator.c:sctk_alloc_free_list_remove", "src/sctk_allocator.c:sctk_alloc_free_list_mark_empty"]}
{"id": "C40", "title": "Statistics tell the truth", "statement": "The statistics of a chain report the exact number of free blocks, total free bytes and largest free block, and the call returns.", "quantifier": "every reachable state", "why_tests_cant": "All states.", "anchors": ["src/sctk_allocator.c:sctk_alloc_chain_get_stat"]}
{"id": "C41", "title": "The default memory source serves its whole heap", "statement": "After initialisation with a heap of k*2MB the default memory source can serve requests from it, and initialisation terminates.", "quantifier": "every heap size that is a multiple of 2 MB", "why_tests_cant": "All heap sizes.", "anchors": ["src/sctk_allocator.c:sctk_alloc_mm_source_default_init", "src/sctk_allocator.c:sctk_alloc_mm_source_insert_segment", "src/sctk_allocator.c:sctk_alloc_mm_source_default_request_memory"]}
{"id": "C42", "title": "The remote free record fits in the block", "statement": "The record that a remote free writes inside the freed block stays inside that block, for plain and aligned blocks of any size.", "quantifier": "every live block in every reachable state", "why_tests_cant": "All sizes and boundaries.", "anchors": ["src/sctk_allocator.c:sctk_alloc_rfq_register", "src/sctk_alloc_rfq.h:sctk_alloc_rfq_entry"]}
{"id": "C43", "title": "A chain marked for destruction is destroyed exactly once, after its last block", "statement": "Once a chain is marked for destruction its destroy handler is called exactly once, when its last segment goes back to the source, and the chain structure is not used afterwards.", "quantifier": "every history of frees after the mark, from any thread", "why_tests_cant": "All orders of frees and races.", "anchors": ["src/sctk_allocator.c:sctk_alloc_chain_mark_for_destroy", "src/sctk_allocator.c:sctk_alloc_chain_free_macro_bloc"]}
{"id": "C44", "title": "The length of a list of remote frees is counted", "statement": "sctk_alloc_rfq_count_entries returns the number of entries of the list it is given.", "quantifier": "every list of entries", "why_tests_cant": "Every length; only the tracing hooks call it, so ordinary tests do not reach it.", "anchors": ["src/sctk_allocator.c:sctk_alloc_rfq_count_entries"]}
{"id": "C45", "title": "Destroying a chain removes all its segments from the registry", "statement": "After sctk_alloc_chain_destroy no address of a segment of the chain is found in the registry any more.", "quantifier": "every registry, every chain, every placement of its segments", "why_tests_cant": "Depends on the placement of the segments in the whole address space.", "anchors": ["src/sctk_allocator.c:sctk_alloc_chain_destroy", "src/sctk_allocator.c:sctk_alloc_region_del_chain"]}
{"id": "C46", "title": "Cleaning up the light memory source gives all its memory back", "statement": "When all segments handed out have been given back, cleanup unmaps every mapping of the source; when some are still out it stops the program instead of unmapping anything.", "quantifier": "every history of the source", "why_tests_cant": "All histories, including inserted segments and cache reuse.", "anchors": ["src/sctk_alloc_light_mm_source.c:sctk_alloc_mm_source_light_cleanup"]}
{"id": "C47", "title": "A persistent pool is at least as large as requested", "statement": "sctk_pmem_create returns NULL or a pool of at least the requested size, rounded up to a page.", "quantifier": "every size and every answer of mmap", "why_tests_cant": "All 2^64 sizes; the rounding goes through a float.", "anchors": ["src/sctk_alloc_pmem.c:sctk_pmem_create", "src/sctk_alloc_pmem.h:SCTK_ROUNDUP"]}
{"id": "C48", "title": "NUMA scans treat each segment of the chain once", "statement": "sctk_alloc_chain_numa_migrate_content and sctk_alloc_chain_get_numa_stat treat every segment of the chain exactly once and nothing else.", "quantifier": "every state of the segment registry", "why_tests_cant": "All registries; segments of any size and alignment.", "anchors": ["src/sctk_allocator.c:sctk_alloc_chain_numa_migrate_content", "src/sctk_allocator.c:sctk_alloc_chain_get_numa_stat"]}
{"id": "C49", "title": "Blocks are safe in every interleaving of the threads", "statement": "With public calls of any number of threads interleaved piece by piece, no step has undefined behaviour, the blocks the program holds never overlap, and a step changes neither the place, the size nor the bytes of a block unless it begins its free or realloc.", "quantifier": "every interleaving, number of threads, program without misuse, answer of mmap", "why_tests_cant": "The number of interleavings is infinite and tests run very few of them.", "anchors": ["src/sctk_alloc_posix.c:sctk_malloc", "src/sctk_alloc_posix.c:sctk_free", "src/sctk_alloc_posix.c:sctk_realloc", "src/sctk_alloc_posix.c:sctk_realloc_inter_chain", "src/sctk_alloc_posix.c:sctk_calloc"]}
{"id": "C50", "title": "One thread at a time works on a chain without lock", "statement": "A thread works on a chain that is not in thread-safe mode only if it is its own chain; other threads only register blocks in its queue, and only the owner empties the queue.", "quantifier": "every interleaving of public calls, thread exits included", "why_tests_cant": "A data race shows only for rare timings.", "anchors": ["src/sctk_alloc_posix.c:sctk_free", "src/sctk_alloc_posix.c:sctk_realloc", "src/sctk_alloc_posix.c:sctk_alloc_posix_mark_current_for_destroy", "src/sctk_allocator.c:sctk_alloc_chain_purge_rfq"]}
{"id": "C51", "title": "Calls return what they should whatever other threads do", "statement": "A call that runs while other threads make calls returns a new block of the size and alignment asked, zeroed for calloc, with the bytes the old block had when the call began for realloc.", "quantifier": "every interleaving, every call", "why_tests_cant": "Depends on the timing of the other threads at every point of the call.", "anchors": ["src/sctk_alloc_posix.c:sctk_malloc", "src/sctk_alloc_posix.c:sctk_calloc", "src/sctk_alloc_posix.c:sctk_realloc", "src/sctk_alloc_posix.c:sctk_memalign"]}
{"id": "C52", "title": "A chain is destroyed once, by the last free, whatever the timing", "statement": "The chain of a thread that exited is destroyed exactly once, when its last segment goes back to the source, and is not used afterwards, with frees and the exit of the thread running at the same time.", "quantifier": "every interleaving of frees, reallocs and exits", "why_tests_cant": "The windows are a few instructions wide.", "anchors": ["src/sctk_allocator.c:sctk_alloc_chain_mark_for_destroy", "src/sctk_allocator.c:sctk_alloc_chain_free_macro_bloc", "src/sctk_alloc_posix.c:sctk_alloc_posix_mark_current_for_destroy"]}
{"id": "C53", "title": "Memory freed by other threads comes back at the owner's next call", "statement": "After a call of malloc, free, calloc, memalign or realloc by a thread, no block freed before by another thread waits in the queue of its chain: what is allocated in the segments of the chain are its blocks in use.", "quantifier": "every history of public calls by any number of threads, every such call", "why_tests_cant": "A queue that is not emptied only costs memory; tests see valid blocks.", "anchors": ["src/sctk_alloc_posix.c:sctk_malloc", "src/sctk_alloc_posix.c:sctk_free", "src/sctk_alloc_posix.c:sctk_realloc", "src/sctk_allocator.c:sctk_alloc_chain_purge_rfq"]}
{"id": "C54", "title": "A chain keeps a segment only while a block in it is in use", "statement": "Each segment held by the chain of a thread contains a block in use by the program or a block waiting in the queue of the chain; the chain of a thread that exited is destroyed exactly when its last block is freed.", "quantifier": "every history of public calls, every interleaving of several threads, every segment", "why_tests_cant": "Retention depends on the whole history of splits and merges and is invisible to the program.", "anchors": ["src/sctk_allocator.c:sctk_alloc_chain_free", "src/sctk_allocator.c:sctk_alloc_chain_free_macro_bloc", "src/sctk_alloc_posix.c:sctk_alloc_posix_destroy_handler"]}
{"id": "C55", "title": "Start-up happens once, and every thread gets an initialised memory source", "statement": "Whatever the interleaving of the first calls of any number of threads, the global structures are initialised once and in order by one thread at a time; a thread that leaves the initialisation finds the configuration, the egg allocator and the default source ready, gets a memory source that is initialised, and can always be brought to that point.", "quantifier": "every machine (with or without hwloc, up to 128 nodes), every option, every number of threads, every interleaving", "why_tests_cant": "The window between the states of the start-up is a few instructions wide and is passed once per process.", "anchors": ["src/sctk_alloc_posix.c:sctk_alloc_posix_base_init", "src/sctk_alloc_posix.c:sctk_alloc_posix_get_local_mm_source", "src/sctk_alloc_posix.c:sctk_alloc_posix_create_new_tls_chain", "src/sctk_alloc_posix.c:sctk_alloc_posix_mmsrc_numa_init_phase_numa"]}
{"id": "C56", "title": "The round robin over memory sources is fair", "statement": "The calls of the round robin exclude each other between lock and unlock; their answers are nodes of the machine, given one after the other, so that two nodes are given the same number of times up to one.", "quantifier": "every number of nodes, every number of threads and calls, every interleaving", "why_tests_cant": "The race is on the first calls of the process only.", "anchors": ["src/sctk_alloc_posix.c:sctk_alloc_posix_source_round_robin"]}
{"id": "C57", "title": "Several threads on one memory source", "statement": "When any number of threads request and free segments on the light memory sources at the same time, each mapping is in use, in one cache or in the hands of one thread, and is unmapped once; the size of a source equals its cache whenever its lock is free, is never negative and is bounded; every call can finish.", "quantifier": "every configuration, every number of threads and sources, every interleaving of the accesses", "why_tests_cant": "The decision to keep a segment is taken without the lock; the overshoot needs all threads between the test and the lock at once.", "anchors": ["src/sctk_alloc_light_mm_source.c:sctk_alloc_mm_source_light_request_memory", "src/sctk_alloc_light_mm_source.c:sctk_alloc_mm_source_light_free_memory", "src/sctk_alloc_light_mm_source.c:sctk_alloc_mm_source_light_find_in_cache", "src/sctk_alloc_light_mm_source.c:sctk_alloc_mm_source_light_reg_in_cache", "src/sctk_alloc_light_mm_source.c:sctk_alloc_mm_source_light_keep"]}
{"id": "C58", "title": "The counters of the memory sources count the segments in use", "statement": "When no call is in progress the counter of each light source is the number of its segments in use, and the counters of all the sources together count all the segments in use, also when chains were moved to another source; cleanup of a source without segments in use unmaps its cache and nothing else, and nobody enters that source afterwards.", "quantifier": "every configuration, every number of threads and sources, every interleaving", "why_tests_cant": "A wrong counter shows up only at the cleanup of a source, after a migration.", "anchors": ["src/sctk_alloc_light_mm_source.c:sctk_alloc_mm_source_light_cleanup", "src/sctk_allocator.c:sctk_alloc_chain_numa_migrate", "src/sctk_alloc_posix.c:sctk_alloc_posix_numa_migrate_chain"]}
{"id": "C59", "title": "A thread bound to the cores of one node prefers that node", "statement": "When the cores (or the memory) of a thread are bound to one NUMA node, the preferred node of the thread is that node and its chain takes the memory source of that node; otherwise it takes a source that exists.", "quantifier": "every answer of hwloc and getcpu, every number of nodes", "why_tests_cant": "A wrong source is not visible in the results of malloc, it only costs time on machines with several nodes; the tests run on machines with one node.", "anchors": ["src/sctk_alloc_topology.c:sctk_get_first_bit_in_bitmap", "src/sctk_alloc_topology.c:sctk_get_preferred_numa_node_no_mpc", "src/sctk_alloc_topology.c:sctk_alloc_init_on_numa_node", "src/sctk_alloc_posix.c:sctk_alloc_posix_get_local_mm_source"]}
{"id": "C60", "title": "Memory of malloc_on_node is bound to its node", "statement": "malloc_on_node accepts exactly the existing nodes and uses the chain of the node; every segment of that chain and every segment kept by its strict source is bound to the node, also after a chain was migrated to another node; migration with target -1 removes the binding.", "quantifier": "every history of requests, frees, insertions and migrations, every number of nodes", "why_tests_cant": "The binding of pages is only visible to the kernel and depends on the order of frees and migrations.", "anchors": ["src/sctk_alloc_on_node.c:sctk_malloc_on_node_init", "src/sctk_alloc_on_node.c:sctk_malloc_on_node_get_chain", "src/sctk_alloc_light_mm_source.c:sctk_alloc_mm_source_light_migrate", "src/sctk_alloc_light_mm_source.c:sctk_alloc_mm_source_light_insert_segment", "src/sctk_alloc_topology.c:sctk_alloc_migrate_numa_mem", "src/sctk_allocator.c:sctk_alloc_chain_numa_migrate"]}
{"id": "C61", "title": "NUMA statistics count each page of the area once, on its node", "statement": "The statistics of an area count every page that the area touches: the total, the pages present, and for each node the pages that the system reports on it; the nodes add up to the pages present, and the check of the ratio fails exactly when too few pages are on the required node.", "quantifier": "every area, every page map, every answer of move_pages", "why_tests_cant": "The answers of the kernel are outside the control of a test and large areas are not tried.", "anchors": ["src/sctk_alloc_numa_stat.c:sctk_alloc_numa_stat_cumul", "src/sctk_alloc_numa_stat.c:sctk_alloc_numa_stat_get_node_of_page", "src/sctk_alloc_numa_stat.c:sctk_alloc_numa_check", "src/sctk_allocator.c:sctk_alloc_chain_get_numa_stat"]}
{"id": "C62", "title": "The remote free queue works with the store buffers of x86", "statement": "When stores wait in a buffer of each thread before they reach memory, the blocks freed by other threads are still delivered to the owner once each and in order, no store of the queue reaches a block that has left the queue, everything published can be collected, and the owner waits only for stores on their way.", "quantifier": "every number of threads, every order of calls and of stores reaching memory", "why_tests_cant": "The delay of a store in a buffer is some nanoseconds; a wrong order shows once in millions of runs, or only on another processor.", "anchors": ["src/sctk_alloc_mpscf_queue.h:sctk_mpscf_queue_insert", "src/sctk_alloc_mpscf_queue.h:sctk_mpscft_queue_dequeue_all", "src/sctk_allocator.c:sctk_alloc_rfq_register", "src/sctk_allocator.c:sctk_alloc_chain_purge_rfq"]}
{"id": "C63", "title": "The internal spinlock protects data with the store buffers of x86", "statement": "With stores delayed in buffers, at most one thread is between lock and unlock, each section reads what the earlier sections wrote, and a lock that nobody holds can be taken.", "quantifier": "every number of threads, every program, every order of stores reaching memory", "why_tests_cant": "The unlock is a plain store; whether later sections can miss earlier stores depends on the processor and on timing.", "anchors": ["src/sctk_alloc_internal_spinlock.h:sctk_alloc_internal_spinlock_lock", "src/sctk_alloc_internal_spinlock.h:sctk_alloc_internal_spinlock_trylock", "src/sctk_alloc_internal_spinlock.h:sctk_alloc_internal_spinlock_unlock"]}
{"id": "C64", "title": "A block is not much larger than asked", "statement": "The usable size of a block exceeds the size asked (plus the alignment, if any) by at most 31 bytes, or by less than 2 MB for requests above 1 MB - 16 on a chain with a memory source; a block that realloc shrinks in place wastes at most the configured threshold and the configured fraction, and realloc keeps the pointer exactly under these limits.", "quantifier": "every history of calls on a chain, every request, every realloc configuration", "why_tests_cant": "The piece that serves a request depends on the whole history of splits and merges; tests look at a few sizes on fresh chains.", "anchors": ["src/sctk_allocator.c:sctk_alloc_split_free_bloc", "src/sctk_allocator.c:sctk_alloc_chain_alloc_align", "src/sctk_allocator.c:sctk_alloc_chain_realloc"]}
{"id": "C65", "title": "More memory is asked to the source only when nothing fits", "statement": "A chain asks its memory source for a segment only in an allocation or a reallocation, for exactly the size of the request rounded up (2 MB for small requests), and only if the request is huge or no free piece of the chain has room for it.", "quantifier": "every history of calls on a chain with a memory source, every request", "why_tests_cant": "Whether some free piece fits depends on the fragmentation left by the whole history.", "anchors": ["src/sctk_allocator.c:sctk_alloc_chain_alloc_align", "src/sctk_allocator.c:sctk_alloc_find_free_chunk", "src/sctk_allocator.c:sctk_alloc_chain_realloc"]}
{"id": "C66", "title": "How much memory the allocator holds for the blocks in use", "statement": "A chain with a memory source holds, for each block in use, at most 2 MB, or the block and 48 bytes if that is more, plus 2 MB for each piece lost in the band of C23. The whole process has mapped at most that, for the blocks held and those waiting in a queue, plus what the settings of the cache allow it to keep (keep_mem + keep_max). When nothing is in use and nothing is lost, the chains hold no segment.", "quantifier": "every history of calls of any number of threads, also between the pieces of concurrent calls; every setting of the cache with limits not negative", "why_tests_cant": "A bound on the memory held after any history; a test only sees the histories it runs, and slow growth appears after long ones.", "anchors": ["src/sctk_allocator.c:sctk_alloc_chain_free", "src/sctk_allocator.c:sctk_alloc_chain_free_macro_bloc", "src/sctk_alloc_light_mm_source.c:sctk_alloc_mm_source_light_free_memory", "src/sctk_alloc_light_mm_source.c:sctk_alloc_mm_source_light_request_memory"]}
{"id": "C67", "title": "realloc of a huge block with mremap", "statement": "In a build with HAVE_MREMAP, realloc of a huge block to a huge size lets the system move or extend the mapping of the block. The block is then at the start of the new mapping, has the size asked and keeps its content up to the smaller size; all other blocks keep their size and content; the chain is in a state it can reach without mremap; nothing outside the new mapping is written and neither the free lists nor the remote queue change, so that another thread may do it without the lock. In the other cases realloc does what it does without mremap. If the system refuses, realloc returns NULL.", "quantifier": "every reachable state of a chain, every huge block, every size, every answer of the system", "why_tests_cant": "The code is compiled out in every build of this repository, so no test runs it; and the claim is about all states and all answers of mremap.", "anchors": ["src/sctk_allocator.c:sctk_alloc_chain_realloc_macro_bloc", "src/sctk_allocator.c:sctk_alloc_chain_realloc", "src/sctk_allocator.c:sctk_alloc_chain_can_remap", "src/sctk_alloc_light_mm_source.c:sctk_alloc_mm_source_light_remap", "src/sctk_alloc_posix.c:sctk_realloc"]}
{"id": "C68", "title": "The registry of segments with several threads", "statement": "While other threads register and unregister segments, a lookup of an address of a registered segment returns that segment; no interleaving stops the program or reads the header of a segment given back; each part of the table is created once and never replaced; from every state the calls that have started can return. This needs a table initialised before the threads start, addresses that lie in a segment nobody is giving back and, if the compiler reads a table entry at each mention of it, segments aligned on 2 MB.", "quantifier": "any number of threads, every interleaving of the accesses to the table, the entries, the lock and the segment headers", "why_tests_cant": "Most reads and writes of the table are made without a lock; the bad interleavings are a few instructions wide.", "anchors": ["src/sctk_allocator.c:sctk_alloc_region_setup", "src/sctk_allocator.c:sctk_alloc_region_get_entry", "src/sctk_allocator.c:sctk_alloc_region_set_entry", "src/sctk_allocator.c:sctk_alloc_region_unset_entry", "src/sctk_allocator.c:sctk_alloc_region_get_macro_bloc", "src/sctk_allocator.c:sctk_alloc_region_del_chain", "src/sctk_allocator.c:sctk_alloc_region_init"]}
{"id": "C69", "title": "Removal of the regions of the registry", "statement": "Creating and removing regions (the parts of the registry that cover 1 TB each) at any moment between the calls does not change what the lookups answer; the removal of a region takes effect exactly when no registered segment uses it and leaves the other regions as they are; after the removal of all regions none exists and no address is found. The end of a memory source that removes the region of its heap keeps the registrations of the other chains.", "quantifier": "every sequence of registrations, unregistrations, lookups, creations and removals; every placement of the segments", "why_tests_cant": "The placement of the segments in the whole address space and all orders of the calls; a wrongly removed region shows only at a later lookup.", "anchors": ["src/sctk_allocator.c:sctk_alloc_region_del", "src/sctk_allocator.c:sctk_alloc_region_has_ref", "src/sctk_allocator.c:sctk_alloc_region_exist", "src/sctk_allocator.c:sctk_alloc_region_del_all", "src/sctk_allocator.c:sctk_alloc_region_setup", "src/sctk_allocator.c:sctk_alloc_mm_source_default_cleanup"]}
{"id": "C70", "title": "Calls of the registry that do not overlap", "statement": "A call of the registry of segments (registration, unregistration, lookup) during which no other thread takes a step has the result and the effect it has in a program with one thread, whatever the other threads have done before, even if they stopped in the middle of their own calls outside the critical section. In every state reached by any number of threads in which no call is in progress, a lookup of any address answers the chain whose segment holds it, and NULL exactly when no registered segment holds it.", "quantifier": "every state with the lock free, every call, every number of threads and interleaving before it; every address below 2^48", "why_tests_cant": "All interleavings before the call and all placements of the segments; tests with one thread say nothing about the state left behind by several.", "anchors": ["src/sctk_allocator.c:sctk_alloc_region_get", "src/sctk_allocator.c:sctk_alloc_region_set_entry", "src/sctk_allocator.c:sctk_alloc_region_unset_entry", "src/sctk_allocator.c:sctk_alloc_region_get_entry", "src/sctk_allocator.c:sctk_alloc_region_setup"]}
{"id": "C71", "title": "Calls on light memory sources that do not overlap", "statement": "A request or a return of a segment on one of several light memory sources, during which no other thread takes a step, has the result and the effect it has in a program with one thread: the same segment (the first of its size in the cache, else a new mapping), the same cache in the same order, the same size and counter, and other sources unchanged. Every sequence of such calls is an execution of the program with threads. The final cleanup unmaps the same segments or stops the program in both.", "quantifier": "every state in which the sources agree, every call, every number of sources, every sequence of calls", "why_tests_cant": "All contents of the caches, sizes and addresses; the comparison is between two descriptions of the code, one with lists and one with links in memory.", "anchors": ["src/sctk_alloc_light_mm_source.c:sctk_alloc_mm_source_light_request_memory", "src/sctk_alloc_light_mm_source.c:sctk_alloc_mm_source_light_find_in_cache", "src/sctk_alloc_light_mm_source.c:sctk_alloc_mm_source_light_free_memory", "src/sctk_alloc_light_mm_source.c:sctk_alloc_mm_source_light_reg_in_cache", "src/sctk_alloc_light_mm_source.c:sctk_alloc_mm_source_light_cleanup"]}
{"id": "C72", "title": "Plain allocations do not depend on an undefined value", "statement": "sctk_alloc_chain_alloc (used by malloc, calloc and realloc) returns a block of the size asked without alignment constraint, or NULL only when there is no room, whatever the processor registers contain when it is called.", "quantifier": "every state of a chain, every size, every value left where the caller looks for the result of sctk_net_memory_allocation_hook", "why_tests_cant": "The value depends on the compiler, its options and the registers at the call; with the usual builds it happens to be 0.", "anchors": ["src/sctk_allocator.c:sctk_net_memory_allocation_hook", "src/sctk_allocator.c:sctk_alloc_chain_alloc", "src/sctk_allocator.c:sctk_alloc_chain_alloc_align", "src/sctk_allocator.c:sctk_alloc_setup_chunk_padded"]}
{"id": "C73", "title": "Installing hooks changes nothing, and the events tell the truth", "statement": "With the hooks of sctk_alloc_hooks.h installed, every call on a chain returns the same result and leaves the same memory as without them; the blocks in use and the segments held are the ones announced and not yet announced as released; the sizes announced are the size asked and the memory occupied.", "quantifier": "every choice of hooks, every history of valid calls on a chain", "why_tests_cant": "The hooks are compiled only with ENABLE_ALLOC_HOOKS; the faulty calls need a refused huge request or a remote free with a particular hook installed.", "anchors": ["src/sctk_alloc_hooks.h:SCTK_ALLOC_HOOK", "src/sctk_allocator.c:sctk_alloc_chain_alloc_align", "src/sctk_allocator.c:sctk_alloc_chain_free", "src/sctk_allocator.c:sctk_alloc_chain_request_mem", "src/sctk_allocator.c:sctk_alloc_chain_free_macro_bloc", "src/sctk_allocator.c:sctk_alloc_chain_purge_rfq", "src/sctk_allocator.c:sctk_alloc_rfq_count_entries"]}
{"id": "C74", "title": "The debug dump of a segment prints its chunks", "statement": "sctk_alloc_debug_dump_segment, given the two ends of a segment of a chain, ends, changes nothing and prints one line per chunk, in order, with its address, its size and whether it is free or allocated.", "quantifier": "every history of valid calls on a chain, every segment, every start and end", "why_tests_cant": "The dump is only called by hand when debugging; its output is not checked by any test.", "anchors": ["src/sctk_alloc_debug.c:sctk_alloc_debug_dump_segment", "src/sctk_alloc_inlined.h:sctk_alloc_get_next_chunk"]}
{"id": "C75", "title": "The locks of the library are given back and never block each other", "statement": "Every public call gives back each lock it takes, never waits for a lock it holds, and takes nested locks in one order (start-up, chain, egg chain, source, regions, round robin): with any number of threads doing any calls, some thread in a call can always go on, and all calls can end with all locks free.", "quantifier": "any number of threads, any chains and sources, any sequence of calls, every path of every function, every interleaving", "why_tests_cant": "Deadlocks need rare paths (failed mapping, new region, allocation inside hwloc) or particular interleavings; a test that does not hang shows nothing.", "anchors": ["src/sctk_allocator.c:sctk_alloc_chain_alloc_align", "src/sctk_allocator.c:sctk_alloc_chain_free", "src/sctk_allocator.c:sctk_alloc_mm_source_default_request_memory", "src/sctk_allocator.c:sctk_alloc_chain_get_numa_stat", "src/sctk_alloc_light_mm_source.c:sctk_alloc_mm_source_light_cleanup", "src/sctk_alloc_light_mm_source.c:sctk_alloc_mm_source_light_migrate", "src/sctk_alloc_posix.c:sctk_alloc_posix_base_init", "src/sctk_alloc_numa_stat.c:sctk_alloc_numa_stat_read_pagemap"]}
{"id": "C76", "title": "The memory of the chain structures stays mapped while it is used, and the egg can use again what it gets back", "statement": "The structure of a chain lies in memory that is mapped whenever the allocator uses it, up to the release of its lock after its destruction, and a block freed into the egg chain can be given again by the egg chain; also when the egg chain has a memory source (build with hwloc).", "quantifier": "any settings, any history of threads starting, calling and exiting, any answers of mmap", "why_tests_cant": "The structure is outside the static buffer only once 2 MB of it are used (more than a thousand threads, or blocks taken through the egg chain), and the segment is unmapped only when the cache is full.", "anchors": ["src/sctk_alloc_posix.c:sctk_alloc_posix_base_init", "src/sctk_alloc_posix.c:sctk_alloc_posix_create_new_tls_chain", "src/sctk_alloc_posix.c:sctk_alloc_posix_destroy_handler", "src/sctk_allocator.c:sctk_alloc_chain_free", "src/sctk_allocator.c:sctk_alloc_chain_free_macro_bloc", "src/sctk_alloc_light_mm_source.c:sctk_alloc_mm_source_light_free_memory"]}
{"id": "C77", "title": "High bandwidth memory comes from the high bandwidth bank", "statement": "sctk_hbw_malloc uses the chain of a NUMA node of subtype MCDRAM when the machine has one, else of node 0, for every caller; the node answered for a processing unit is a node attached to the first object above it that has memory.", "quantifier": "every machine, any number of threads calling at the same time, every interleaving; every tree of hwloc objects", "why_tests_cant": "Machines with such banks are rare, the search runs once per process, and the window of the race is the time of one loop.", "anchors": ["src/sctk_alloc_topology.c:sctk_topology_mcdram_detection", "src/sctk_alloc_topology.c:mpcalloc_topology_get_numa_node_from_cpu", "src/sctk_alloc_on_node.c:sctk_hbw_malloc", "src/sctk_alloc_on_node.c:sctk_malloc_on_node_numa"]}
{"id": "C78", "title": "Start-up is safe with the store buffers of x86", "statement": "When the stores of each thread wait in a buffer (also the one that gives the lock of base_init back), a thread that passes the unlocked test of the state sees the configuration, the egg allocator and the default source; each piece reaches memory once and in order; the source a thread gets is visible to it; at most one thread is inside; no check fails and no thread is stuck.", "quantifier": "every machine, any number of threads, every interleaving of the threads and of their store buffers", "why_tests_cant": "The double-checked test is wrong only in the few cycles in which a store waits; a test machine shows one order of stores among many.", "anchors": ["src/sctk_alloc_posix.c:sctk_alloc_posix_base_init", "src/sctk_alloc_posix.c:sctk_alloc_posix_get_local_mm_source", "src/sctk_alloc_posix.c:sctk_alloc_posix_mmsrc_numa_init_phase_numa"]}
{"id": "C79", "title": "The page map of the process is read safely by several threads", "statement": "Every table that read_pagemap returns is that of the pages asked for, whatever other threads read at the same time; at most one file is open and one thread uses it; the function called at exit closes exactly the open file, and no file stays open once it has run; threads that initialise a statistic before they read never use a NULL or closed file, nor a NULL table, also while the process ends.", "quantifier": "every page map, every range of pages, any number of threads, every interleaving, every answer of fopen and fread", "why_tests_cant": "The position in the shared file is wrong only if two reads cross between fseek and fread; the end of the process must fall into another thread's read.", "anchors": ["src/sctk_alloc_numa_stat.c:sctk_alloc_numa_stat_open_pagemap", "src/sctk_alloc_numa_stat.c:sctk_alloc_numa_stat_at_exit", "src/sctk_alloc_numa_stat.c:sctk_alloc_numa_stat_init", "src/sctk_alloc_numa_stat.c:sctk_alloc_numa_stat_read_pagemap", "src/sctk_alloc_numa_stat.c:sctk_alloc_numa_stat_print_detail"]}
{"id": "C80", "title": "Creating and destroying persistent pools loses nothing", "statement": "A process that creates, uses and destroys persistent memory pools owns exactly the descriptors of the pools it holds and their pages, and no open file; destroying a pool unmaps all its pages and no other; a creation that fails leaves the process as it was.", "quantifier": "every sequence of creations, requests and destructions, every size_t size, every answer of malloc, access, stat, realpath, open, posix_fadvise, posix_fallocate and mmap", "why_tests_cant": "The failing paths need a full file system, a path that disappears between two calls, or no memory; what they lose shows only when the process runs out of files.", "anchors": ["src/sctk_alloc_pmem.c:sctk_pmem_create", "src/sctk_alloc_pmem.c:sctk_pmem_destroy", "src/sctk_alloc_pmem.c:get_file_type", "src/sctk_alloc_pmem.c:create_tmp_file", "src/sctk_alloc_pmem.c:declare_random_access", "src/sctk_alloc_pmem.c:allocate_file_space", "src/sctk_alloc_pmem.c:sctk_pmem_malloc"]}
{"id": "C81", "title": "A chain follows its thread to another NUMA node", "statement": "When a thread that has moved calls sctk_alloc_posix_numa_migrate its chain is linked to the source of the node the thread runs on and, with numa_migration on, the structure and all segments of the chain are bound to that node and those of other chains stay; no memory is ever bound to a node other than that of its source.", "quantifier": "every machine of 2 to 128 nodes, every setting of migration and round robin, every history of starts, requests, frees and moves of any number of chains, every answer of hwloc", "why_tests_cant": "It takes a machine with several nodes, threads that migrate between them and a look at the placement of pages; a test on one node takes the default source on every path.", "anchors": ["src/sctk_alloc_posix.c:sctk_alloc_posix_numa_migrate", "src/sctk_alloc_posix.c:sctk_alloc_posix_numa_migrate_chain", "src/sctk_alloc_posix.c:sctk_alloc_posix_get_local_mm_source", "src/sctk_alloc_posix.c:sctk_alloc_posix_source_round_robin", "src/sctk_allocator.c:sctk_alloc_chain_numa_migrate", "src/sctk_allocator.c:sctk_alloc_chain_numa_migrate_content"]}
{"id": "C82", "title": "Messages are printed whole, with their values, inside their buffers", "statement": "Every error, warning and trace message of the library is printed whole, with the values its caller gives, in a form that reads back to those values, and writing it touches no byte outside of its buffers.", "quantifier": "every caller, every value of the types of C, every format with arguments of the types it asks for, every message of a user, every answer of write", "why_tests_cant": "The messages appear on errors; an overlong message, a wrong type or a missing value damages the stack or prints what happens to be there, which mostly looks right.", "anchors": ["src/sctk_alloc_debug.h:sctk_alloc_sprintf", "src/sctk_alloc_debug.h:assume_m", "src/sctk_alloc_debug.h:sctk_fatal", "src/sctk_alloc_debug.h:warning", "src/sctk_allocator.c:sctk_alloc_perror", "src/sctk_allocator.c:sctk_alloc_pwarning", "src/sctk_alloc_debug.c:sctk_alloc_ptrace", "src/sctk_alloc_debug.c:sctk_alloc_ptrace_init", "src/sctk_alloc_numa_stat.c:sctk_alloc_numa_check"]}
{"id": "C83", "title": "The registry works with store buffers", "statement": "With the store buffers of x86, the lookup of a block by a thread that has a pointer to it returns the segment of the block and its chain in a bounded number of its own accesses; no execution stops the program or reads unmapped memory; a region has one header for all threads; no thread reads an entry of a segment that was given back.", "quantifier": "every number of threads, every interleaving of accesses and of stores reaching memory, every sequence of registrations, returns and lookups, every way threads hand blocks to each other", "why_tests_cant": "The registry is read without lock and the code has no barrier; whether a store waits in a buffer when another thread reads cannot be chosen by a test and depends on the machine.", "anchors": ["src/sctk_allocator.c:sctk_alloc_region_setup", "src/sctk_allocator.c:sctk_alloc_region_set_entry", "src/sctk_allocator.c:sctk_alloc_region_unset_entry", "src/sctk_allocator.c:sctk_alloc_region_get_macro_bloc", "src/sctk_alloc_internal_spinlock.h:sctk_alloc_spinlock_lock", "src/sctk_alloc_posix.c:sctk_free"]}
{"id": "C84", "title": "Threads that come and go leave room for the next", "statement": "The structures of the chains fit in the 2 MB of the egg: as long as few chains exist a new thread gets one; threads that start and end without holding memory leave the room that they found, so any number of threads can follow one another.", "quantifier": "every configuration, every history of calls, starts and ends of threads, every number of threads", "why_tests_cant": "Exhaustion needs more than a thousand threads in one process together with a memory that depends on all calls before; tests start a handful.", "anchors": ["src/sctk_alloc_posix.c:sctk_alloc_posix_create_new_tls_chain", "src/sctk_alloc_posix.c:sctk_alloc_posix_setup_tls_chain", "src/sctk_alloc_posix.c:sctk_alloc_posix_mark_current_for_destroy", "src/sctk_alloc_posix.c:sctk_alloc_posix_base_init", "src/sctk_alloc_common.h:SCTK_ALLOC_EGG_INIT_MEM"]}
{"id": "C85", "title": "A shared chain and its blocks with store buffers", "statement": "With the store buffers of x86, threads that share a thread-safe chain and use their blocks as malloc and free allow cannot see the buffers: every execution reads like one in which each call acts at one moment between call and return and each load gives the value stored last, also in blocks handed from thread to thread by plain stores.", "quantifier": "every number of threads, every interleaving of accesses and of stores reaching memory, every body of calls that is right when calls run one after another, every content of blocks, every way blocks are handed over", "why_tests_cant": "Whether a store waits in a buffer cannot be chosen by a test, and the property is about all bodies and all uses of the blocks.", "anchors": ["src/sctk_allocator.c:sctk_alloc_chain_alloc_align", "src/sctk_allocator.c:sctk_alloc_chain_free", "src/sctk_alloc_internal_spinlock.h:sctk_alloc_internal_spinlock_lock", "src/sctk_alloc_internal_spinlock.h:sctk_alloc_internal_spinlock_unlock", "src/sctk_alloc_chunk.h:sctk_alloc_chunk_header_large"]}
{"id": "C86", "title": "Buffers of the user in a chain with a memory source", "statement": "Memory that the user gives to a chain (sctk_alloc_chain_user_refill) stays with the chain when the chain has a memory source too: frees put it back into the free lists and never hand it to the source.", "quantifier": "every chain on buffers of the user, every history of valid calls, every buffer, every block freed", "why_tests_cant": "The combination is only warned about; whether a free hands a buffer away depends on the exact size of the chunk that the merge gives, one size in 131072.", "anchors": ["src/sctk_allocator.c:sctk_alloc_chain_user_refill", "src/sctk_allocator.c:sctk_alloc_chain_free", "src/sctk_allocator.c:sctk_alloc_chain_free_macro_bloc", "src/sctk_allocator.c:sctk_alloc_chain_numa_migrate"]}
{"id": "C87", "title": "The library works in a child made by fork", "statement": "After a fork by a thread outside the calls of the library, every call of malloc, free and realloc in the child returns, and blocks freed by other threads still reach the owner of their chain.", "quantifier": "every number of threads, every state of their calls at the fork, every lock, every queue of remote frees, children of children, every execution of the child", "why_tests_cant": "The fork has to fall between two instructions of another thread: while it holds a lock, or between its swap of the tail of a queue and its link.", "anchors": ["src/sctk_alloc_posix.c:sctk_malloc", "src/sctk_alloc_posix.c:sctk_free", "src/sctk_alloc_mpscf_queue.h:sctk_mpscf_queue_insert", "src/sctk_alloc_mpscf_queue.h:sctk_mpscf_queue_wait_until_end_is", "src/sctk_alloc_light_mm_source.c:sctk_alloc_mm_source_light_find_in_cache", "src/sctk_allocator.c:sctk_alloc_region_setup", "src/sctk_allocator.c:sctk_alloc_chain_purge_rfq"]}
{"id": "C88", "title": "A handler of a signal may call the library", "statement": "A handler of a signal that interrupts a thread anywhere in the library and calls malloc, free or realloc returns, and so does the interrupted call; the queue of remote frees of the thread is delivered once and in order.", "quantifier": "every number of threads, every state of their calls, handlers in handlers, every lock, every place in the purge of a queue, every execution", "why_tests_cant": "The signal has to fall between two instructions: while the thread holds a lock that its handler needs, or between the load and the store of the head of its queue.", "anchors": ["src/sctk_alloc_posix.c:sctk_malloc", "src/sctk_alloc_posix.c:sctk_free", "src/sctk_alloc_mpscf_queue.h:sctk_mpscft_queue_dequeue_all", "src/sctk_allocator.c:sctk_alloc_chain_purge_rfq", "src/sctk_alloc_light_mm_source.c:sctk_alloc_mm_source_light_find_in_cache", "src/sctk_allocator.c:sctk_alloc_region_setup", "src/sctk_allocator.c:sctk_alloc_chain_alloc_align"]}
