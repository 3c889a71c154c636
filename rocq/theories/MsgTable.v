(** The callers of the macros warning, fatal, sctk_fatal and assume_m (sctk_alloc_debug.h 51-66) in src/: file, line, condition, message.  Those of
    sctk_alloc_posix.c 130-159 are for Windows; sctk_alloc_topology.c 437 prints the text of strerror.  Model only. *)
From Verif Require Import MsgModel.
From Coq Require Import ZArith List Ascii String.
Import ListNotations.
Open Scope Z_scope.
Open Scope string_scope.

(** sctk_alloc_debug.h 55, 60-61, 66. *)
Inductive mkind := KWarn | KFatal | KAssume.
(** One caller (file and line are fields). *)
Record msite := mkSite { ms_kind : mkind; ms_file : string; ms_line : Z; ms_cond : string; ms_msg : string }.
(** One caller prints; [dir]: what the compiler puts in front of the name of the file in __FILE__; [a]: the arguments after the message
    (sctk_alloc_debug.h 55, 60-61, 66). *)
Definition m_site (w : Z -> Z) (dir : string) (s : msite) (a : list marg) (out : string) : Res.res string :=
  match ms_kind s with
  | KWarn => m_warning w (dir ++ ms_file s) (ms_line s) (ms_msg s) out
  | KFatal => m_fatal w (dir ++ ms_file s) (ms_line s) (ms_msg s) a out
  | KAssume => m_assume w (dir ++ ms_file s) (ms_line s) (ms_cond s) (ms_msg s) a out
  end.
(** The table, each entry with its file and line in src/. *)
Definition msites : list msite := [
  mkSite KFatal "sctk_alloc_config.c" 123 "" "Invalide value of %s environement variable, expect 'true' or 'false'.";
  mkSite KWarn "sctk_alloc_inlined.h" 184 "" "Header content error while trying to find chunk header.";
  mkSite KWarn "sctk_alloc_inlined.h" 185 "" "Did you free a system malloc chunk with MPC ?";
  mkSite KAssume "sctk_alloc_inlined.h" 191 "vchunk->type == SCTK_ALLOC_CHUNK_TYPE_LARGE || vchunk->type == SCTK_ALLOC_CHUNK_TYPE_PADDED" "Invalid chunk type.";
  mkSite KAssume "sctk_alloc_inlined.h" 225 "false" "Invalid type of vchunk.";
  mkSite KAssume "sctk_alloc_inlined.h" 331 "chunk->unused_magik == SCTK_ALLOC_MAGIC_STATUS" "Small block not supported for now.";
  mkSite KAssume "sctk_alloc_light_mm_source.c" 211 "(sctk_addr_t)base % SCTK_ALLOC_PAGE_SIZE == 0" "Buffer base adderss must be aligned to page size.";
  mkSite KAssume "sctk_alloc_light_mm_source.c" 213 "size % SCTK_MACRO_BLOC_SIZE == 0" "Buffer size must be aligned to page size.";
  mkSite KAssume "sctk_alloc_light_mm_source.c" 287 "OPA_load_int(&light_source->counter) == 0" "Invalid counter status, must be 0 to call cleanup.";
  mkSite KAssume "sctk_alloc_light_mm_source.c" 490 "macro_bloc != NULL" "Error macro bloc allocation";
  mkSite KAssume "sctk_alloc_mpscf_queue.h" 125 "sctk_mpscf_queue_is_empty(queue)" "Can't cleanup a non empty queue.";
  mkSite KWarn "sctk_alloc_numa_stat.c" 62 "" ("Check you have Linux kernel newer than 2.6.25, and check your PID is valid." ++ NL);
  mkSite KWarn "sctk_alloc_numa_stat.c" 115 "" "Caution, get_node_of_page is supported only on Linux with libnuma support.";
  mkSite KWarn "sctk_alloc_numa_stat.c" 136 "" ("No NUMA node available" ++ NL);
  mkSite KFatal "sctk_alloc_numa_stat.c" 221 "" "Error while seeking over /proc/self/pagemap to read the Linux page table.";
  mkSite KAssume "sctk_alloc_numa_stat.c" 228 "status == last_page-first_page" "Failed to read the required entries of Linux page table in /proc/self/pagemap.";
  mkSite KAssume "sctk_alloc_numa_stat.c" 266 "table[i].order == SCTK_ALLOC_NUMA_STAT_PAGE_SHIFT" "Caution we support only 4K pages up to now, but get another size.";
  mkSite KWarn "sctk_alloc_numa_stat.c" 293 "" "Caution, HAVE_LINUX_PAGEMAP was disabled at compile time, do nothing.";
  mkSite KWarn "sctk_alloc_numa_stat.c" 329 "" "/prof/self/pagemap isn't supported on your platforme or disabled at compile time.";
  mkSite KAssume "sctk_alloc_numa_stat.c" 344 "table[i].order == SCTK_ALLOC_NUMA_STAT_PAGE_SHIFT" "Caution we support only 4K pages up to now, but get another size.";
  mkSite KWarn "sctk_alloc_numa_stat.c" 364 "" "Caution, HAVE_LINUX_PAGEMAP was disabled at compile time, do nothing.";
  mkSite KAssume "sctk_alloc_on_node.c" 121 "node >= 0 && node < SCTK_MAX_NUMA_NODE" "Invalid NUMA node in sctk_malloc_on_node function.";
  mkSite KAssume "sctk_alloc_on_node.c" 128 "chain->source != NULL" "Invalid NUMA node in sctk_malloc_on_node function.";
  mkSite KAssume "sctk_alloc_on_node.c" 141 "node == 0" "You request mapping on NUMA node different from 0, but their is no NUMA node or NUMA isn't supported.";
  mkSite KAssume "sctk_alloc_posix.c" 200 "sctk_global_base_init == SCTK_ALLOC_POSIX_INIT_EGG" "Invalid init state while calling allocator default init phase.";
  mkSite KAssume "sctk_alloc_posix.c" 213 "id <= SCTK_MAX_NUMA_NODE" "Caution, you get more node than supported by allocator. Limit is setup by SCTK_MAX_NUMA_NODE macro in sctk_alloc_common.h.";
  mkSite KAssume "sctk_alloc_posix.c" 236 "sctk_global_base_init == SCTK_ALLOC_POSIX_INIT_EGG" "Invalid init state while calling allocator default init phase.";
  mkSite KAssume "sctk_alloc_posix.c" 254 "sctk_global_base_init == SCTK_ALLOC_POSIX_INIT_DEFAULT" "Invalid init state while calling allocator NUMA init phase.";
  mkSite KAssume "sctk_alloc_posix.c" 259 "nodes <= SCTK_MAX_NUMA_NODE" "Caution, you get more node than supported by allocator. Limit is setup by SCTK_MAX_NUMA_NODE macro in sctk_alloc_posix.c.";
  mkSite KAssume "sctk_alloc_posix.c" 358 "node <= SCTK_MAX_NUMA_NODE" "Node ID (%d) is larger than current SCTK_MAX_NUMA_NODE.";
  mkSite KAssume "sctk_alloc_posix.c" 363 "res->request_memory != NULL" "The memory source to map to current new thread is no initialized.";
  mkSite KFatal "sctk_alloc_posix.c" 704 "" "Allocator error on free(%p), the address you provide is not managed by this memory allocator.";
  mkSite KAssume "sctk_alloc_posix.c" 725 "chain != NULL" "Can't free a pointer not manage by an allocation chain from our allocator.";
  mkSite KAssume "sctk_alloc_posix.c" 838 "chain != NULL" "Allocator error on realloc(%p,%llu), the address you provide is not managed by this memory allocator.";
  mkSite KWarn "sctk_alloc_posix.c" 973 "" "The current thread hasn't setup his allocation up to now.";
  mkSite KWarn "sctk_alloc_topology.c" 435 "" "Failed to move pages on NUMA node.";
  mkSite KWarn "sctk_alloc_topology.c" 494 "" "Thread binding is not supported, please enable support of hwloc at compile time.";
  mkSite KAssume "sctk_allocator.c" 237 "pool->nb_free_lists < SCTK_ALLOC_NB_FREE_LIST" "Error while calculating number of free lists.";
  mkSite KWarn "sctk_allocator.c" 240 "" "Caution, the last free list size must be -1, you didn't follow this requirement, this may leed to errors.";
  mkSite KAssume "sctk_allocator.c" 427 "id >= 0 && id < SCTK_ALLOC_NB_FREE_LIST" "The given list didn't be a member of the given thread pool.";
  mkSite KAssume "sctk_allocator.c" 524 "false" "Unknown insert mode in free list.";
  mkSite KAssume "sctk_allocator.c" 755 "list - pool->free_lists <= pool->nb_free_lists" "The given list didn't be a member of the given pool";
  mkSite KAssume "sctk_allocator.c" 820 "sctk_alloc_get_size(*chunk) >= size" "Chunk size if too small to fit with requested size.";
  mkSite KAssume "sctk_allocator.c" 856 "chunk->unused_magik == SCTK_ALLOC_MAGIC_STATUS" "Small block not supported for now.";
  mkSite KAssume "sctk_allocator.c" 921 "chunk->state == SCTK_ALLOC_CHUNK_STATE_ALLOCATED" "The central chunk must be allocated to be merged.";
  mkSite KAssume "sctk_allocator.c" 1029 "buffer != NULL" "Can't use NULL buffer to create the allocation chain.";
  mkSite KAssume "sctk_allocator.c" 1030 "size > sizeof(struct sctk_alloc_chain)" "To small segment which cannot contain the allocation chain structure.";
  mkSite KAssume "sctk_allocator.c" 1053 "buffer != NULL || size == 0" "Can't manage NULL buffer with non NULL size.";
  mkSite KAssume "sctk_allocator.c" 1055 "size == 0 || size > 64+16" "Buffer size must null or greater than 80o.";
  mkSite KWarn "sctk_allocator.c" 1058 "" "Caution, you tried to refill an allocation chain which has a memory source.";
  mkSite KAssume "sctk_allocator.c" 1132 "destroy_handler != NULL" "Your must provide a destroy handler to destroy an allocation.";
  mkSite KAssume "sctk_allocator.c" 1163 "sctk_alloc_chain_can_destroy(chain)" "Can't destroy the given allocation chain.";
  mkSite KAssume "sctk_allocator.c" 1451 "chain != NULL" "Can't work with NULL allocation chain.";
  mkSite KAssume "sctk_allocator.c" 1487 "sctk_alloc_get_chunk_header_large_size(&chunk->header) >= 32l" "Small blocs are not supported for now, so it's imposible to get such a small size here.";
  mkSite KAssume "sctk_allocator.c" 1504 "sctk_alloc_get_size(vchunk) >= sctk_alloc_calc_chunk_size(size)" "Size error in chunk spliting function.";
  mkSite KAssume "sctk_allocator.c" 1591 "chain != NULL" "Can't free the memory without an allocation chain.";
  mkSite KAssume "sctk_allocator.c" 1602 "! sctk_alloc_config()->strict" "Allocator error on sctk_alloc_chain_free(%p,%p), the address you provide is invalid, 			maybe you override the chunk header.";
  mkSite KAssume "sctk_allocator.c" 1607 "vchunk->state == SCTK_ALLOC_CHUNK_STATE_ALLOCATED" "Double free corruption.";
  mkSite KFatal "sctk_allocator.c" 1744 "" "Allocator error on sctk_alloc_chain_realloc(%p,%p,%llu), the address you provide is invalid, 			maybe you override the chunk header.";
  mkSite KAssume "sctk_allocator.c" 1845 "(sctk_addr_t)base % SCTK_MACRO_BLOC_SIZE == 0" "Base address must be multiple of SCTK_MACRO_BLOC_SIZE to insert the segment in memory source.";
  mkSite KAssume "sctk_allocator.c" 1848 "size % SCTK_MACRO_BLOC_SIZE == 0" "Base address must be multiple of SCTK_MACRO_BLOC_SIZE to insert the segment in memory source.";
  mkSite KAssume "sctk_allocator.c" 1851 "sctk_alloc_region_get((void *)base) == sctk_alloc_region_get((void *)((sctk_addr_t)base + size - 1))" "Segments can't cover more than one region.";
  mkSite KAssume "sctk_allocator.c" 1925 "heap_base % SCTK_MACRO_BLOC_SIZE == 0" "Memory source heap_base address must be multiple of SCTK_MACRO_BLOC_SIZE.";
  mkSite KAssume "sctk_allocator.c" 1926 "heap_size % SCTK_MACRO_BLOC_SIZE == 0" "Memory source heap_size must be multiple of SCTK_MACRO_BLOC_SIZE.";
  mkSite KAssume "sctk_allocator.c" 1931 "sctk_alloc_region_setup(current) != NULL" "Can't create region header.";
  mkSite KAssume "sctk_allocator.c" 1967 "size % SCTK_MACRO_BLOC_SIZE == 0" "The request size on a memory source must be multiple of SCTK_MACRO_BLOC_SIZE.";
  mkSite KAssume "sctk_allocator.c" 2017 "sctk_alloc_get_size(vchunk) >= sctk_alloc_calc_chunk_size(size)" "Size error in chunk spliting function.";
  mkSite KAssume "sctk_allocator.c" 2061 "source != NULL" "Can't free the memory without an allocation chain.";
  mkSite KAssume "sctk_allocator.c" 2074 "vchunk->state == SCTK_ALLOC_CHUNK_STATE_ALLOCATED" "Double free corruption.";
  mkSite KAssume "sctk_allocator.c" 2122 "sctk_alloc_spinlock_trylock(&source_default->spinlock) == 0" "Multiple thread access to memory source while calling cleanup is an error.";
  mkSite KWarn "sctk_allocator.c" 2323 "" "Caution, using macro blocs smaller than SCTK_MACRO_BLOC_SIZE is dangerous, check usage of flag SCTK_ALLOC_CHAIN_DISABLE_REGION_REGISTER.";
  mkSite KAssume "sctk_allocator.c" 2334 "dest->macro_bloc == NULL" "For now, don't support multiple usage of region entries";
  mkSite KWarn "sctk_allocator.c" 2432 "" "Can't delete the given region because it contain refs to valid chains.";
  mkSite KAssume "sctk_allocator.c" 2559 "false" "Invalid chunk type.";
  mkSite KAssume "sctk_allocator.c" 2633 "!(chain->flags & SCTK_ALLOC_CHAIN_DISABLE_REGION_REGISTER)" "NUMA migration of allocation chain is not supported in conjunction with SCTK_ALLOC_CHAIN_DISABLE_REGION_REGISTER."].
