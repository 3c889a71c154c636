{"claims": [
 {"property": "C01", "status": "proved", "theorems": ["C01_blocks_disjoint"], "note": "Every reachable state of a chain: histories of any length of alloc, aligned alloc, free, realloc, refill, program writes, remote free, purge."},
 {"property": "C02", "status": "proved", "theorems": ["C02_result_is_new", "C02_blocks_inside", "C02_ranges_disjoint"], "note": "Every reachable state of a chain: histories of any length of alloc, aligned alloc, free, realloc, refill, program writes, remote free, purge. Sizes that do not wrap around (C14) and outside the 16-byte gap below k*2MB-48 of huge requests (C13_huge_gap_refuted)."},
 {"property": "C03", "status": "proved", "theorems": ["C03_blocks_aligned"], "note": "Every reachable state of a chain: histories of any length of alloc, aligned alloc, free, realloc, refill, program writes, remote free, purge."},
 {"property": "C04", "status": "proved", "theorems": ["C04_content_undisturbed", "C04_one_call"], "note": "Every reachable state of a chain: histories of any length of alloc, aligned alloc, free, realloc, refill, program writes, remote free, purge."},
 {"property": "C05", "status": "proved", "theorems": ["C05_calls_return", "C05_no_undefined_behaviour", "C05_init_returns"], "note": "Every reachable state of a chain: histories of any length of alloc, aligned alloc, free, realloc, refill, program writes, remote free, purge. Memory ranges given to the chain are 8-aligned with sizes multiple of 16 (C18_odd_buffer_refuted shows why); reallocation of plain blocks only (C10_aligned_refuted)."},
 {"property": "C06", "status": "proved", "theorems": ["C06_empty_is_whole", "C06_capacity_restored"], "note": "User chains with merging; the success part needs segments of at most 2 MB + 48 (C21)."},
 {"property": "C07", "status": "proved", "theorems": ["C07_fails_only_when_full", "C07_succeeds_with_room"], "note": "Every reachable state of a chain: histories of any length of alloc, aligned alloc, free, realloc, refill, program writes, remote free, purge."},
 {"property": "C08", "status": "proved", "theorems": ["C08_bytes_conserved", "C08_chunks_tile"], "note": "Every reachable state of a chain: histories of any length of alloc, aligned alloc, free, realloc, refill, program writes, remote free, purge."},
 {"property": "C09", "status": "proved", "theorems": ["C09_conventions"], "note": "Every reachable state of a chain: histories of any length of alloc, aligned alloc, free, realloc, refill, program writes, remote free, purge."},
 {"property": "C10", "status": "proved", "theorems": ["C10_realloc_keeps", "C10_aligned_refuted", "C10_realloc_public"], "note": "Plain blocks, as stated; the theorem named _refuted shows that the restriction to plain blocks is needed. C10_realloc_public: the same on the whole allocator, also from one chain to another."},
 {"property": "C11", "status": "partial", "theorems": ["C11_failed_realloc_frees_refuted", "C11_block_reused_refuted"], "note": "Refuted: every reallocation that returns NULL for a non-zero size has freed the old block."},
 {"property": "C12", "status": "proved", "theorems": ["C12_enclosing_chunk", "C05_calls_return"], "note": "Freeing, remote freeing and measuring aligned blocks are valid calls of C05; the enclosing chunk is found from the pointer."},
 {"property": "C13", "status": "partial", "theorems": ["C13_usable_size", "C13_huge_gap_refuted"], "note": "Proved for every valid request; Refuted for requests of k*2MB-63 to k*2MB-48 bytes on chains with a memory source (block 1 to 16 bytes too small)."},
 {"property": "C14", "status": "partial", "theorems": ["C14_too_big_fails", "C14_wrap_refuted", "C14_wrap_succeeds_refuted", "C14_half_fails", "C14_half_refused", "C14_half_refuted"], "note": "Proved for requests with n + boundary < 2^63 - 64; Refuted for sizes that wrap around (last 16 sizes on user chains, 2^64-47.. on chains with a source, size + boundary). Between 2^63-64 and the wrap zone: proved (NULL, chain unchanged) unless a free chunk of exactly 2 MB exists, in which case sizes from 2^63-16 on end in undefined behaviour or a failed assertion (C14_half_refuted)."},
 {"property": "C15", "status": "partial", "theorems": ["C15_calloc", "C15_overflow_refuted", "C15_null_refuted"], "note": "Proved when the product does not overflow, for threads with a chain of their own. Refuted: the product wraps and a short block is returned; without memory (threads of the egg) memset is called on NULL instead of returning NULL."},
 {"property": "C16", "status": "partial", "theorems": ["C16_free_chunk_detected", "C16_double_free_detected_partial", "C16_double_free_missed_refuted"], "note": "Proved when the freed block was not merged with a free chunk before it; Refuted otherwise: the second free is silent and corrupts the chain."},
 {"property": "C17", "status": "proved", "theorems": ["C17_foreign_ignored"], "note": "Any state at all, any pointer whose preceding byte is readable."},
 {"property": "C18", "status": "partial", "theorems": ["C18_refill_adds", "C18_odd_buffer_refuted"], "note": "Proved for 8-aligned buffers of more than 80 bytes with a size multiple of 16; Refuted for other sizes (undefined behaviour in a later split)."},
 {"property": "C19", "status": "partial", "theorems": ["C19_can_destroy_one_segment", "C19_can_destroy_first_segment_partial", "C19_several_segments_refuted", "C19_no_segment_refuted"], "note": "Exact for one segment; Refuted for several segments or none."},
 {"property": "C20", "status": "proved", "theorems": ["C20_lookup_exact", "C20_request_class", "C20_filing_sound"], "note": "All chunk sizes from 32 bytes to 2 MB, hence all requests from 1 byte."},
 {"property": "C21", "status": "partial", "theorems": ["C21_lookup_above_2MB_refuted", "C21_big_segment_refuted"], "note": "Refuted: the property is false of the code for every size above 2 MB: list 44 is never visited, the binary search diverges."},
 {"property": "C22", "status": "proved", "theorems": ["C22_segments_counted", "C22_put_back_is_unused", "C22_put_back_once", "C22_held_segments_in_use", "C22_gets_fresh"], "note": "The leaked pieces of C23 keep their segment; every other held segment contains a block in use."},
 {"property": "C23", "status": "partial", "theorems": ["C23_freed_memory_fate_partial", "C23_freed_memory_reusable_partial", "C23_band_refuted", "C23_band_reached_refuted"], "note": "Proved outside the band of chunks of 1 MB and 1 MB + 16; Refuted in the band: the free is lost."},
 {"property": "C24", "status": "proved", "theorems": ["C24_delivered_once", "C24_empty_means_all_delivered", "C24_owner_collects_all", "C24_returned_is_published", "C24_given_again"], "note": "Interleavings of any number of producers with the consumer, step by step (sequentially consistent memory); other threads may scribble on blocks they own. A block can be given again exactly after its delivery."},
 {"property": "C25", "status": "proved", "theorems": ["C25_program_order", "C24_delivered_once"], "note": "The delivered sequence is a prefix of the published sequence; per producer the published sequence is program order."},
 {"property": "C26", "status": "proved", "theorems": ["C26_no_dangling_link", "C26_batch_finishes", "C26_batch_taken", "C26_wait_ends"], "note": ""},
 {"property": "C27", "status": "proved", "theorems": ["C27_mutual_exclusion", "C27_trace", "C27_free_lock_can_be_taken", "C27_trylock"], "note": "Swap spinlock of internal_spinlock.h."},
 {"property": "C28", "status": "proved", "theorems": ["C28_linearizable", "C28_state", "C28_threads_safe", "C28_no_crash", "C28_fresh_result"], "note": "For any decomposition of the section into atomic steps, with or without a memory source. Simplifications listed in AtomicModel.v: the header read before the lock and the padding written after the unlock are counted in the section; the huge-block path (which bypasses the lock) is not covered. The last three theorems: on a chain with a source, requests that are not huge and a source that never gives the same memory twice."},
 {"property": "C29", "status": "proved", "theorems": ["C29_lookup_exact", "C29_owner", "C29_calls_return"], "note": "For segments of at least 2 MB (multiples of 2 MB) above 4 MB and below 2^48; examples show what happens outside this domain."},
 {"property": "C30", "status": "proved", "theorems": ["C30_free_routed", "C30_malloc_own_chain", "C30_one_thread_per_chain", "C30_chains_disjoint", "C30_block_place", "C30_blocks_disjoint", "C30_call_effect", "C30_null_only_egg", "C30_start_safe", "C30_calls_safe"], "note": "Histories of public calls (malloc, free, realloc, calloc, memalign, posix_memalign, valloc, thread exit, choice of a chain, stores) by any number of threads, from start-up on any memory. Calls run one after another; the queue and the lock are treated under all interleavings in C24-C28."},
 {"property": "C31", "status": "proved", "theorems": ["C31_result", "C31_disjoint", "C31_untouched", "C31_calls_return"], "note": "Calls one after another, sizes that are multiples of the page size (the chain asks for multiples of 2 MB)."},
 {"property": "C32", "status": "proved", "theorems": ["C32_accounting", "C32_bound", "C32_keep_or_unmap"], "note": "Calls one after another."},
 {"property": "C33", "status": "partial", "theorems": ["C33_served_from_cache_partial", "C33_mmap_failure_refuted"], "note": "Refuted: a refused mapping is not recognised (compared with NULL instead of MAP_FAILED), in every reachable state. Proved: requests the cache can serve do not depend on the OS."},
 {"property": "C34", "status": "partial", "theorems": ["C34_aligned", "C34_small_rejected", "C34_not_pow2_refuted", "C34_codes_refuted"], "note": "Proved: aligned pointer of the size asked for power-of-two boundaries multiple of 8; EINVAL for smaller powers of two. Refuted: boundaries that are not powers of two are never rejected, ENOMEM is never returned."},
 {"property": "C35", "status": "partial", "theorems": ["C35_disjoint_partial", "C35_null_when_full_partial", "C35_release_partial", "C35_wrap_refuted"], "note": "Proved for requests below 2^64 minus the pool size. Refuted: the size test wraps, a larger request is granted and rewinds the pool so that the next block overlaps the first."},
 {"property": "C36", "status": "partial", "theorems": ["C36_migrate_covers", "C36_stat_pages", "C36_stat_misses_last_page_refuted"], "note": "Proved for the migration range. Refuted: the statistics miss the last page of a block that does not start and end on page boundaries."},
 {"property": "C37", "status": "partial", "theorems": ["C37_settings_partial", "C37_every_text", "C37_one_reading", "C37_suffix_refuted", "C37_defaults"], "note": "Proved for plain decimal numbers and booleans, and what any other text gives (C37_every_text: number at the front, limited to long, times the unit mod 2^64). Refuted: unit suffixes are ignored."},
 {"property": "C38", "status": "proved", "theorems": ["C38_read", "C38_write", "C38_write_inside", "C38_same_layout", "C38_padded_read", "C38_padded_write", "C38_padded_inside", "C38_chain_reads", "C38_chain_writes"], "note": "Both header representations (bit fields and masked 64-bit words) and the padded header; the chain model's header reads and writes are tied to them."},
 {"property": "C39", "status": "proved", "theorems": ["C39_lists_well_formed"], "note": "Every reachable state of a chain: histories of any length of alloc, aligned alloc, free, realloc, refill, program writes, remote free, purge."},
 {"property": "C40", "status": "partial", "theorems": ["C40_statistics_exact_partial", "C40_above_2MB_refuted", "C40_double_lock_refuted"], "note": "Refuted: free chunks above 2 MB are not counted (C40_above_2MB_refuted); on a thread-safe chain get_stat takes the lock twice and never returns (C40_double_lock_refuted). C40_statistics_exact_partial: exact when no free chunk is above 2 MB."},
 {"property": "C41", "status": "partial", "theorems": ["C41_init_diverges_refuted", "C41_never_serves_refuted", "C41_smallest_heap_partial"], "note": "Refuted: initialisation never returns for heaps of 4 MB or more and a 2 MB heap serves nothing."},
 {"property": "C42", "status": "proved", "theorems": ["C42_record_inside", "C42_room_for_record"], "note": "Every reachable state of a chain: histories of any length of alloc, aligned alloc, free, realloc, refill, program writes, remote free, purge."},
 {"property": "C43", "status": "partial", "theorems": ["C43_destroyed_when_empty", "C43_marked_once", "C43_never_used_again", "C43_empty_never_refuted", "C43_unlock_after_refuted"], "note": "Proved for every history of calls after the mark, of a chain that has segments: destroyed exactly once, by the call that gives its last segment back, and never called again. Refuted: a chain without segment is never destroyed; the free that destroys the chain releases its lock afterwards. Calls run one after another."},
 {"property": "C44", "status": "partial", "theorems": ["C44_count_entries_refuted"], "note": "Refuted: the loop never advances, so on any non-empty queue the function does not return."},
 {"property": "C45", "status": "partial", "theorems": ["C45_destroy_unregisters_partial", "C45_other_window_refuted"], "note": "Refuted: a segment of the chain in another 1 TB window than its base address stays registered. Proved when all segments are in that window."},
 {"property": "C46", "status": "proved", "theorems": ["C46_cleanup", "C46_cleanup_refused"], "note": "The lock taken by cleanup is never released (the comment in the code says so); the source must not be used afterwards."},
 {"property": "C47", "status": "partial", "theorems": ["C47_pool_size_partial", "C47_pool_pages", "C47_pool_near", "C47_float_rounding_refuted", "C47_failed_map_refuted"], "note": "Proved below 16 MB for every size, and below 64 GB (2^24 pages) for whole pages; beyond, the size is proved right up to one part in 2^24. Refuted: larger sizes can be rounded down by the float conversion, and a failed mmap is taken for success."},
 {"property": "C48", "status": "partial", "theorems": ["C48_scan_partial", "C48_treated_per_slot_refuted", "C48_pages_overcounted_refuted"], "note": "Proved: every segment of the chain is treated and no other. Refuted: a segment is treated once for each 2 MB."},
 {"property": "C49", "status": "proved", "theorems": ["C49_pieces_are_the_call", "C49_steps_safe", "C49_blocks_disjoint", "C49_step_effect", "C49_one_call_per_block"], "note": "Pieces of calls interleave freely; the operations on one chain are atomic pieces (locks and queue: C24 to C28). An exiting thread is supposed to find its chain again at its last purge (see C52)."},
 {"property": "C50", "status": "proved", "theorems": ["C50_exclusive", "C50_no_race", "C50_one_consumer"], "note": "Operations on a shared chain take its lock, except for the counter of segments on the path of huge blocks (see C52)."},
 {"property": "C51", "status": "proved", "theorems": ["C51_result"], "note": "For every call that returns in any interleaving, with respect to the state in which it began."},
 {"property": "C52", "status": "partial", "theorems": ["C52_destroyed_when_empty", "C52_destroyed_once", "C52_never_used_again", "C52_counter_not_early", "C52_counter_one_by_one", "C52_purge_after_destruction_refuted", "C52_late_free_lost_refuted", "C52_counter_many_refuted", "C52_counter_never_refuted", "C52_counter_early_refuted"], "note": "Proved with atomic chain operations, when the exiting thread purges before the destruction. Refuted: the last purge of an exiting thread can come after the destruction; a free decided before the mark and registered after it is lost and the chain stays; concurrent frees of huge blocks can call the handler several times, never, or while a block is left."},
 {"property": "C53", "status": "partial", "theorems": ["C53_queue_emptied", "C53_memory_back", "C53_marked_queue_empty", "C53_realloc_refuted"], "note": "Calls one after another. Proved for all calls except realloc of a block of the caller own chain or of a shared chain. Refuted: realloc inside the chain of the caller leaves the queue as it is."},
 {"property": "C54", "status": "partial", "theorems": ["C54_segment_in_use", "C54_segment_in_use_threads", "C54_destroyed_with_last_block", "C54_destroyed_with_last_block_threads", "C54_lost_block_refuted"], "note": "Histories of calls and all interleavings of atomic chain operations. Refuted for segments with a piece of 1 MB or 1 MB + 16 bytes that free ignores (C23): the chain keeps them."},
 {"property": "C55", "status": "partial", "theorems": ["C55_once_in_order", "C55_stays", "C55_started_ready", "C55_one_inside", "C55_all_done", "C55_source_ready", "C55_no_abort", "C55_no_fault", "C55_default_source", "C55_progress", "C55_robin_early_refuted", "C55_robin_no_node_refuted"], "note": "Proved for every interleaving without the round robin, and with it once the start-up is over. Refuted: with the round robin a thread arriving during the last phase of the start-up is given a source that does not exist yet, and without nodes no thread gets a source."},
 {"property": "C56", "status": "partial", "theorems": ["C56_no_fault", "C56_in_range", "C56_turns", "C56_first_alone", "C56_fair", "C56_same_node_refuted", "C56_two_inside_refuted", "C56_no_node_refuted", "C56_progress"], "note": "Proved from every quiet state, in particular when the first call is made alone. Refuted: racing first calls may all get node 0 and be inside the lock together; without nodes no call returns."},
 {"property": "C57", "status": "partial", "theorems": ["C57_no_fault", "C57_one_owner", "C57_disjoint", "C57_no_twice", "C57_one_inside", "C57_size_exact", "C57_size", "C57_cache", "C57_one_thread_bound_refuted", "C57_progress"], "note": "Proved with the bound keep_mem + N * keep_max for N threads, which is reached. Refuted: the bound keep_mem + keep_max of the sequential property C32 does not hold for several threads, because the size is tested without the lock. The cache is a list here (links in memory: LightModel)."},
 {"property": "C58", "status": "partial", "theorems": ["C58_counter", "C58_sum", "C58_migrated_refuted", "C58_cleanup"], "note": "Proved for each source when segments go back where they came from, and for the sum in all cases. Refuted: after a chain was moved to another source the counters of both sources are wrong and their cleanup aborts."},
 {"property": "C59", "status": "partial", "theorems": ["C59_first_bit", "C59_bound_thread_refuted", "C59_failed_call", "C59_membind_refuted", "C59_source_refuted", "C59_source_exists", "C59_getcpu_refuted"], "note": "Refuted: the tests of the status are inverted, so a thread bound to one node never prefers it; the memory binding is overwritten; with getcpu the number of the processing unit is taken for a node. Proved: the first bit of a bitmap; the source exists in the build without getcpu."},
 {"property": "C60", "status": "partial", "theorems": ["C60_on_node", "C60_bound", "C60_no_fault", "C60_moved_source_refuted", "C60_moved_back_refuted", "C60_moved_chain_refuted", "C60_reset_refuted"], "note": "Proved for histories in which sources are not moved to another node and chains are moved with their content. Refuted: a moved source binds new segments to the old node; with migration off a chain can be moved without its content; target -1 reads through NULL."},
 {"property": "C61", "status": "partial", "theorems": ["C61_counts", "C61_sum", "C61_chain", "C61_check", "C61_page_size", "C61_unaligned_refuted", "C61_large_refuted", "C61_no_map_refuted", "C61_no_move_pages_refuted", "C61_other_build", "C61_above_4gb_refuted", "C61_endless_refuted", "C61_check_refuted"], "note": "Proved for areas of at most 2 GB (4 GB in the build without page map) with a readable page map, including the check of the ratio (exact comparison, no rounding). Refuted: unaligned areas, larger areas, page map or move_pages not available, the check of the ratio in the build without page map."},
 {"property": "C62", "status": "partial", "theorems": ["C62_delivered_once", "C62_no_late_store", "C62_empty_means_all_delivered", "C62_owner_collects_all", "C62_program_order", "C62_returned_is_published", "C62_batch_finishes", "C62_owner_not_blocked", "C62_wait_ends", "C62_no_barrier_refuted"], "note": "Proved for the store buffers of x86, where the swap drains the buffer. Refuted: if the swap does not wait for earlier stores (the explicit barrier of queue.h:226 is commented out), a block is lost."},
 {"property": "C63", "status": "partial", "theorems": ["C63_mutual_exclusion", "C63_sections", "C63_visible", "C63_free_lock_can_be_taken", "C63_trylock_refuted", "C63_weak_order_refuted"], "note": "Proved for the store buffers of x86. Refuted: trylock may be refused although nobody is between lock and unlock; if stores may overtake each other a section can read an old value."},
 {"property": "C64", "status": "proved", "theorems": ["C64_new_block", "C64_every_block", "C64_realloc_in_place", "C64_null_factor_refuted"], "note": "Usable size of new blocks, of every live block in every history, exact condition for realloc in place; the bounds are reached (example). The theorem named _refuted shows that the restriction to a non null realloc factor is needed (division by zero)."},
 {"property": "C65", "status": "proved", "theorems": ["C65_asks_when_full", "C65_no_ask_with_room"], "note": "Free pieces above 2 MB are never looked at (C21), hence the limit in the statement."},
 {"property": "C66", "status": "proved", "theorems": ["C66_chain", "C66_process", "C66_process_threads", "C66_counted", "C66_share", "C66_idle", "C66_lost_refuted"], "note": "The pieces lost by the free of blocks in the band of C23 are counted apart, 2 MB each; C66_lost_refuted shows that the bound without them is false. The first chain (chain 0, static 2 MB) is not counted: it has no memory source."},
 {"property": "C67", "status": "partial", "theorems": ["C67_moves", "C67_not_taken", "C67_not_taken_small", "C67_kept", "C67_no_memory_refuted", "C67_aligned_refuted", "C67_gap_refuted"], "note": "Proved for blocks that start their segment and sizes outside the 16-byte band of C10. Refuted: a refusal of the system stops the program instead of returning NULL; a huge block got with an alignment stops the program; in the band the block is 16 bytes too small."},
 {"property": "C68", "status": "partial", "theorems": ["C68_lookup", "C68_no_stop", "C68_ends", "C68_region_kept", "C68_double_read_refuted", "C68_init_refuted", "C68_foreign_refuted", "C68_destroy_refuted"], "note": "Proved for every interleaving under the conditions of the statement. Refuted: without them each part fails (entries read twice with segments not aligned; table initialised by the first registrations; address outside every segment; a chain taken out of the regions meanwhile)."},
 {"property": "C69", "status": "partial", "theorems": ["C69_lookup", "C69_calls_return", "C69_removed", "C69_all_removed", "C69_cleanup_refuted"], "note": "All but the last sentence proved. Refuted: the end of a default memory source removes the registrations of every chain in the 1 TB of its heap (the code has a todo about it)."},
 {"property": "C70", "status": "proved", "theorems": ["C70_alone", "C70_quiet", "C70_lookup"], "note": "Links the model with one access per step (C68) and the function-by-function model (C29): a call run alone from any state with the lock free gives the same result and table, or the same error. Quiet states of any execution satisfy the hypotheses, and lookups there are exact."},
 {"property": "C71", "status": "proved", "theorems": ["C71_alone", "C71_serial", "C71_cleanup"], "note": "Links the model with threads and lists (C57) and the byte-level model with one thread (C31-C33, C46): a call run alone gives the same segment, cache, size, counter and mappings; any sequence of calls on several sources is an execution of the model with threads."},
 {"property": "C72", "status": "partial", "theorems": ["C72_plain", "C72_power", "C72_null_refuted", "C72_short_refuted"], "note": "Refuted: sctk_net_memory_allocation_hook has no return statement, its value is used as alignment; large values make every request fail, others give a block too short or a write outside the memory of the chain. Proved for the values 0 and 1, and for powers of two that do not wrap."},
 {"property": "C73", "status": "partial", "theorems": ["C73_transparent", "C73_blocks", "C73_segments", "C73_free_size", "C73_alloc_size", "C73_request", "C73_request_refuted", "C73_refused_huge_refuted", "C73_flush_refuted"], "note": "Refuted: with the hook of huge allocations a refused huge request reads the header of the null block instead of returning NULL; with the hook of flushes collecting remote frees never returns (sctk_alloc_rfq_count_entries tests the variable that does not move); the size announced as requested has the alignment added, or one byte less. Proved for all other calls."},
 {"property": "C74", "status": "partial", "theorems": ["C74_prints", "C74_whole_refuted", "C74_end_refuted"], "note": "Refuted: given the two ends of a segment it prints no chunk at all (the first header read is the header of the whole segment); started at a chunk it prints only the chunks after it, and never ends when the end is above the end mark (an end mark of size 0). Proved: from a chunk to an end not above the end mark, it prints exactly the chunks that start strictly between."},
 {"property": "C75", "status": "partial", "theorems": ["C75_no_deadlock", "C75_calls_end", "C75_given_back", "C75_own", "C75_no_self", "C75_lost_stuck", "C75_map_refuted", "C75_cleanup_refuted", "C75_flag_refuted", "C75_stat_refuted", "C75_numa_stat_refuted", "C75_migrate_refuted", "C75_light_migrate_refuted", "C75_egg_refuted", "C75_circle_refuted"], "note": "Refuted: the default source keeps its lock when a mapping fails; the cleanup of a light source keeps its lock; clearing the thread-safe flag during a call loses the lock of the chain; get_stat of a thread-safe chain takes the lock twice; get_numa_stat calls calloc under the lock of the regions; migrations call hwloc (which allocates) under the lock of the regions or of the source; marking the egg chain for destruction makes its purge wait for itself; the locks of the regions and of the page map are taken in both orders. Proved for all the other calls, when none of these happens: no deadlock and all calls can end, for any number of threads, calls and interleavings."},
 {"property": "C76", "status": "partial", "theorems": ["C76_static", "C76_unmapped_refuted", "C76_cached_refuted", "C76_early_refuted"], "note": "Without hwloc the structures are proved to stay in static memory, for all histories. Refuted: with hwloc the free that destroys a chain can give the segment with its structure to the source, which unmaps it (or caches it), before the lock in the structure is released; a block of more than 1 MB taken at start-up before the source is bound to the egg chain is never usable again once freed."},
 {"property": "C77", "status": "partial", "theorems": ["C77_answers", "C77_alone", "C77_settled", "C77_chain", "C77_cpu_node", "C77_race_refuted", "C77_late_refuted", "C77_cpu_far_refuted", "C77_cpu_null_refuted"], "note": "Proved for calls that do not overlap and for all calls after a quiet moment; in every interleaving the answer is a bank or -1. Refuted: a call during the first search (even one that begins after another has ended rightly) is told that there is no bank; the node of a processing unit is the number of the object that has the memory, not of a node, and NULL is read for an unknown unit."},
 {"property": "C78", "status": "partial", "theorems": ["C78_once_in_order", "C78_started_ready", "C78_source_ready", "C78_one_inside", "C78_others_drained", "C78_all_done", "C78_no_abort", "C78_no_fault", "C78_progress", "C78_overtaking_refuted"], "note": "Proved for x86 (buffers first in, first out), for every machine and any number of threads, without the round robin (refuted in C55). Refuted: where stores overtake each other a thread reads the state and goes on without the egg allocator, on every machine: the state is a plain variable stored without a barrier."},
 {"property": "C79", "status": "partial", "theorems": ["C79_read_right", "C79_use_right", "C79_read_done", "C79_one_user", "C79_one_file", "C79_closed_once", "C79_closed_end", "C79_no_fault", "C79_exit_refuted", "C79_detail_refuted", "C79_detail_race_refuted"], "note": "Proved for every interleaving; no fault until the process ends, for threads that initialise first. Refuted: a read that is under way when the function called at exit closes the file uses NULL; print_detail never initialises and uses NULL as a first call, and a NULL table if fopen fails between its test and that of read_pagemap."},
 {"property": "C80", "status": "partial", "theorems": ["C80_ledger_partial", "C80_clean_partial", "C80_destroy", "C80_no_file", "C80_as_C47", "C80_left_behind_refuted", "C80_exhaust_refuted", "C80_no_memory_refuted", "C80_stat_refuted", "C80_neighbour_refuted"], "note": "Proved: exact account of descriptors, files and pages for every history; nothing is left if no creation failed. Refuted: every failing creation but that of a device leaves its descriptor, and its open file once it has one, for good; no memory or a path that disappears is undefined; destroying with the size asked for may unmap a page of someone else."},
 {"property": "C81", "status": "partial", "theorems": ["C81_right_node", "C81_follows_partial", "C81_bound_thread_refuted", "C81_first_use_refuted", "C81_unknown_refuted", "C81_round_robin_refuted"], "note": "Proved: no memory is bound to a node other than that of its source, in every history; if the node of the thread is found the chain and its memory follow. Refuted: a bound thread is not found when hwloc succeeds (C59), so its chain stays on the default source for good; a first chain is made on the default source; from a node to an unknown node is undefined; with the round robin the node of the thread plays no role."},
 {"property": "C82", "status": "partial", "theorems": ["C82_two_passes", "C82_callers_partial", "C82_no_memory", "C82_dont_free", "C82_bind", "C82_trace", "C82_trace_name", "C82_overflow_refuted", "C82_ratio_refuted", "C82_realloc_refuted", "C82_values_refuted", "C82_free_values", "C82_short_write_refuted"], "note": "Proved: what the two passes print, for every format and arguments of its types; the 75 callers of the macros are printed whole; the messages with values and the trace but for realloc. Refuted: the size of the buffers is not used, so a long message of the user overflows; a double goes to %d; the trace of realloc lacks a value; the values given to sctk_fatal and assume_m (six messages) are never printed; a short write loses the rest."},
 {"property": "C83", "status": "proved", "theorems": ["C83_lookup", "C83_lookup_ends", "C83_no_stop", "C83_ends", "C83_known", "C83_region_kept", "C83_regions_agree", "C83_no_stale", "C83_overtake_refuted", "C83_overtake_region_refuted", "C83_no_fence_refuted"], "note": "Proved for the buffers of x86, where the lock of the source or the system call that gives a segment back drains the buffer. The *_refuted theorems show that both facts are needed: on a machine that reorders stores a lookup answers NULL for a live block and two threads see two headers for a region; without the drain the next registration stops the program."},
 {"property": "C84", "status": "partial", "theorems": ["C84_room", "C84_limit", "C84_few", "C84_full_stops_refuted", "C84_come_and_go_refuted", "C84_left_behind_refuted"], "note": "Proved: the structures and the free memory of the egg fit together in 2 MB, at most 1236 chains exist together, and up to 413 always leave room for one more. Refuted: threads that follow one another leave their structure behind even if they hold nothing; at most 1236 of them fill the egg in every configuration, and then every first call of a thread is undefined behaviour (NULL chain, the assert is not compiled)."},
 {"property": "C85", "status": "proved", "theorems": ["C85_story", "C85_memory", "C85_alone", "C85_enters", "C85_weak_unlock_refuted", "C85_weak_hand_refuted"], "note": "Proved for the buffers of x86, for every body of calls that is right one after another (the chain itself: C01-C08, C28). The *_refuted theorems show that the order of stores is needed: on a machine that reorders stores two calls return the same block, and a block handed over shows old content."},
 {"property": "C86", "status": "partial", "theorems": ["C86_small", "C86_small_calls", "C86_put_refuted", "C86_lost_refuted"], "note": "Refuted: for any chain on buffers of the user, a free that makes a chunk of k * 2 MB - 48 bytes at the start of a buffer hands the buffer to the source (with the blocks left in it), elsewhere it takes bytes of another block for a header; a block above 1 MB is not freed at all. Proved: with buffers of at most 1 MB and a source that gives nothing, every history is one without a source and nothing is handed over."},
 {"property": "C87", "status": "partial", "theorems": ["C87_quiet_forks", "C87_quiet_forks_end", "C87_spared_calls", "C87_spared_calls_end", "C87_taken_refuted", "C87_malloc_refuted", "C87_queue_wait_ends", "C87_queue_drain", "C87_queue_refuted", "C87_queue_lost_refuted"], "note": "Refuted: there is no fork handler. A lock taken by another thread at the fork is never given back in the child, and a call that needs it never ends (shown for each lock that malloc needs); a thread gone between swap and link of a remote free makes the next purge of the owner endless, or hides the queue for ever. Proved: forks while no other thread is in a call are safe in all generations; at any fork the calls that only take locks free at the fork end; queues without a thread between swap and link work on."},
 {"property": "C88", "status": "partial", "theorems": ["C88_in_order", "C88_in_order_end", "C88_own_lock_refuted", "C88_others_refuted", "C88_malloc_refuted", "C88_before_refuted", "C88_queue", "C88_queue_refuted", "C88_batch", "C88_batch_all", "C88_batch_order_refuted", "C88_chain_refuted", "C88_free_refuted"], "note": "Refuted: no signal is blocked. A handler that needs a lock of the interrupted thread never returns and the lock is never free again (shown for malloc in malloc and each of its locks); a lock that comes before one that the thread holds can block two threads; a handler that purges the queue of its thread between load and clear of the head makes the owner go on with a freed entry; one that purges while a batch is in hand delivers younger entries first; a handler that allocates the size that its thread is about to take from an unlocked chain gets the chunk that the stopped call has found, and that call then writes through a null link. A free stopped before the last store of its insertion into a free list loses its chunk when a handler frees into the same list. Proved: handlers that only take locks after those held (any nesting) never block anything; purges before the load of the head, or between clear and swap, are safe and keep the order; purges at every place but that between load and clear, with handlers in handlers, lose nothing and deliver nothing twice. Not covered: the other places inside an operation on an unlocked chain."}
]}
