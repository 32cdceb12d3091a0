{"id": "C01", "title": "Live space allocations never overlap and stay inside the space", "statement": "After any sequence of shmemx_space_malloc / shmem_free calls on a space (requests of at least one byte), the byte ranges of all live blocks are pairwise disjoint, each lies inside the space's heap, each is at least as long as the requested size, and each starts on a page boundary relative to the heap base.", "quantifier": "every heap size, page size (power of two), every finite sequence of allocations and frees with arbitrary sizes", "why_tests_cant": "Overlap would need a particular fragmentation history; the number of histories is unbounded.", "anchors": ["src/internal/util/mem_pool.c:OSHMPIU_mempool_init,OSHMPIU_mempool_alloc,OSHMPIU_mempool_free", "src/internal/space_impl.c:OSHMPI_space_malloc,OSHMPI_space_free"]}
{"id": "C02", "title": "Space allocation is first-fit and fails only when no room exists", "statement": "shmemx_space_malloc(size>0) returns the lowest-addressed run of free pages long enough for the request, and returns NULL only when no such run exists; a NULL return changes nothing.", "quantifier": "every reachable pool state and every request size", "why_tests_cant": "Spurious failure depends on the exact fragmentation pattern.", "anchors": ["src/internal/util/mem_pool.c:OSHMPIU_mempool_alloc"]}
{"id": "C03", "title": "Freeing returns exactly the block; bad frees are detected", "statement": "Freeing a live block's start address makes exactly its pages available again and no other block changes; freeing an address of the space that is not inside the first page of a live block aborts (with error checking enabled) and never alters the pool.", "quantifier": "every reachable pool state and every pointer", "why_tests_cant": "A stale or double free corrupts only later allocations, in histories tests do not reach.", "anchors": ["src/internal/util/mem_pool.c:OSHMPIU_mempool_free"]}
{"id": "C04", "title": "Symmetric allocation: same call history gives same offsets on every PE", "statement": "If all PEs call the same sequence of space allocation and free operations, the n-th allocation returns the same offset from the space base on every PE (or NULL on every PE), whatever the local base addresses are.", "quantifier": "every pair of PEs, base addresses and every collective history", "why_tests_cant": "Needs every history; tests see one base address layout.", "anchors": ["src/internal/space_impl.c:OSHMPI_space_malloc,OSHMPI_space_free", "src/internal/util/mem_pool.c:OSHMPIU_mempool_alloc"]}
{"id": "C05", "title": "A zero-byte space allocation is harmless", "statement": "shmemx_space_malloc(space, 0) returns NULL or a pointer and never corrupts memory nor hands out a pointer outside the space.", "quantifier": "every reachable pool state", "why_tests_cant": "Depends on whether the last page is in use when the call is made.", "anchors": ["src/internal/util/mem_pool.c:OSHMPIU_mempool_alloc", "src/internal/space_impl.c:OSHMPI_space_malloc"]}
{"id": "C06", "title": "shmemx_space_align returns an aligned address", "statement": "A non-NULL pointer returned by shmemx_space_align(space, alignment, size) is a multiple of alignment and the block holds size bytes.", "quantifier": "every alignment (power of two), size, heap base and pool state", "why_tests_cant": "The heap base comes from malloc: alignment may hold by luck in a test run.", "anchors": ["src/internal/space_impl.c:OSHMPI_space_align,OSHMPI_space_create"]}
{"id": "C07", "title": "shmemx_space_calloc returns count*size zeroed bytes", "statement": "A non-NULL pointer returned by shmemx_space_calloc(space,count,size) designates a block of at least count*size bytes, all zero; on failure the call returns NULL.", "quantifier": "every count, size and pool state", "why_tests_cant": "Writing past the short block is silent when the next page happens to be free.", "anchors": ["src/shmemx/space.c:shmemx_space_calloc"]}
{"id": "C08", "title": "Every block of the symmetric heap is a symmetric address", "statement": "Any pointer returned by shmem_malloc/shmem_calloc/shmem_align/shmem_realloc can be used, over its whole length, as the remote address of RMA and atomics and can be released with shmem_free.", "quantifier": "every heap size setting and allocation history", "why_tests_cant": "Only the last pages of a nearly full heap are affected.", "anchors": ["src/internal/setup_impl.c:initialize_symm_heap", "src/internal/mem_impl.c:OSHMPI_malloc,OSHMPI_free", "src/include/oshmpi_impl.h:OSHMPI_sobj_check_range"]}
{"id": "C09", "title": "No PE reuses a freed block while another PE may still access it", "statement": "shmem_free on any PE does not release the block before every PE has entered its shmem_free call; shmem_malloc does not return on any PE before every PE has allocated, so a block is remotely accessible as soon as the call returns.", "quantifier": "every number of PEs and every interleaving of a collective history of allocations and frees", "why_tests_cant": "A schedule-dependent race.", "anchors": ["src/internal/mem_impl.c:OSHMPI_malloc,OSHMPI_free,OSHMPI_realloc,OSHMPI_align,OSHMPI_calloc", "src/shmem/mem.c"]}
{"id": "C10", "title": "Aligned symmetric allocation keeps the heaps symmetric", "statement": "After the same history of shmem_malloc/shmem_align/shmem_free on all PEs, the next allocation returns the same heap offset on every PE.", "quantifier": "every alignment and every set of heap base addresses", "why_tests_cant": "Bases are usually page aligned equally in test runs; only large alignments expose it.", "anchors": ["src/internal/mem_impl.c:OSHMPI_align", "src/internal/util/symm_mem.c:OSHMPI_allocate_symm_mem"]}
{"id": "C11", "title": "Symmetric-object handles identify the object", "statement": "The handle sent with an active message decodes to the same object kind, symmetry flag and index it was made from, so two distinct attached spaces never share a handle.", "quantifier": "every kind, flag and index below 2^29", "why_tests_cant": "Bit packing over 2^32 values.", "anchors": ["src/include/oshmpi_impl.h:OSHMPI_SOBJ_SET_HANDLE,OSHMPI_SOBJ_HANDLE_GET_KIND,OSHMPI_SOBJ_HANDLE_CHECK_SYMMBIT,OSHMPI_SOBJ_HANDLE_GET_IDX"]}
{"id": "C12", "title": "Remote accesses hit the corresponding symmetric address on the target", "statement": "A put, get or atomic issued on PE p with symmetric address a that lies at offset d of an object touches, on target t, exactly the bytes at offset d of the same object, in relative-displacement mode, absolute-displacement mode and in the active-message path; nothing else changes.", "quantifier": "every object layout, number of PEs, pair of PEs, address and length", "why_tests_cant": "Depends on base-address layouts chosen by the OS.", "anchors": ["src/include/oshmpi_impl.h:OSHMPI_sobj_query_attr_ictx,OSHMPI_sobj_trans_vaddr_to_disp,OSHMPI_sobj_trans_disp_to_vaddr", "src/internal/rma_impl.h:ctx_put_nbi_impl,ctx_get_nbi_impl"]}
{"id": "C13", "title": "Address classification is unambiguous", "statement": "With non-overlapping symmetric objects, an address is attributed to the unique object containing it, independent of the order of creation of spaces, and an address in no object is rejected.", "quantifier": "every set of disjoint objects and every address", "why_tests_cant": "Needs all layouts.", "anchors": ["src/include/oshmpi_impl.h:OSHMPI_sobj_query_attr_ictx,OSHMPI_sobj_check_range"]}
{"id": "C14", "title": "All PEs agree whether an object is at the same address everywhere", "statement": "After set-up of a symmetric object, every PE computes the same symmetric flag, the flag is 1 iff all bases are equal, and the recorded offset to PE t is base_t - base_me.", "quantifier": "every vector of base addresses", "why_tests_cant": "Depends on layouts of all PEs.", "anchors": ["src/internal/util/symm_mem.c:OSHMPI_sobj_symm_info_allgather,check_symm_mem"]}
{"id": "C15", "title": "Symmetric heap placement is agreed or rolled back on every PE", "statement": "The fixed-address symmetric allocation either succeeds on all PEs at one common address or fails on all PEs with every temporary mapping released; it terminates after at most 100 attempts.", "quantifier": "every pattern of local mmap success and failure on every PE and every attempt", "why_tests_cant": "Failures depend on each process's address map.", "anchors": ["src/internal/util/symm_mem.c:OSHMPI_allocate_symm_mem"]}
{"id": "C16", "title": "Strided team split selects exactly start, start+stride, ...", "statement": "For valid arguments shmem_team_split_strided puts parent PE r in the new team iff r = start + k*stride with 0<=k<size; its number in the new team is k, the team size is `size`, and all other parent PEs get SHMEM_TEAM_INVALID with success.", "quantifier": "every parent size, start, stride>0, size that fit the parent", "why_tests_cant": "All arguments and ranks; the arithmetic uses division and modulo.", "anchors": ["src/shmem/team.c:shmem_team_split_strided", "src/internal/team_impl.c:OSHMPI_team_split"]}
{"id": "C17", "title": "PE translation between teams is exact", "statement": "shmem_team_translate_pe(A,a,B) returns b iff PE number a of team A and number b of team B are the same process; it returns -1 iff that process is not in B or an argument is invalid; translating back returns a.", "quantifier": "every pair of teams, every PE number", "why_tests_cant": "All teams derived by any history of splits.", "anchors": ["src/shmem/team.c:shmem_team_translate_pe"]}
{"id": "C18", "title": "2-D split partitions the parent into a grid", "statement": "shmem_team_split_2d places parent PE r in the x-axis team of row r/xrange at position r mod xrange and in the y-axis team of column r mod xrange at position r/xrange; every parent PE is in exactly one team per axis.", "quantifier": "every parent size and xrange>0", "why_tests_cant": "All sizes including incomplete last rows.", "anchors": ["src/shmem/team.c:shmem_team_split_2d"]}
{"id": "C19", "title": "Invalid split arguments are reported, never mis-executed", "statement": "Team creation with out-of-range start, stride, size or xrange returns a nonzero status with SHMEM_TEAM_INVALID on every PE and has no undefined behaviour.", "quantifier": "every integer argument value", "why_tests_cant": "Division by zero, negative strides and overflow need adversarial inputs.", "anchors": ["src/shmem/team.c:shmem_team_split_strided,shmem_team_split_2d"]}
{"id": "C20", "title": "SHMEM_TEAM_SHARED contains only PEs that share memory", "statement": "Two PEs are members of one SHMEM_TEAM_SHARED iff they share memory (same node).", "quantifier": "every mapping of PEs to nodes", "why_tests_cant": "Single-node test systems cannot observe it.", "anchors": ["src/internal/setup_impl.c:OSHMPI_initialize_thread (team_shared)"]}
{"id": "C21", "title": "shmem_team_sync synchronises every team", "statement": "shmem_team_sync(team) on a valid team returns SHMEM_SUCCESS and no PE returns before every member has called it.", "quantifier": "every team and schedule", "why_tests_cant": "Schedules.", "anchors": ["src/shmem/coll.c:shmem_team_sync", "src/internal/coll_impl.h:OSHMPI_sync_all"]}
{"id": "C22", "title": "Caching of active-set communicators is invisible", "statement": "A collective over active set (start, logstride, size) always runs over exactly the PEs start+i*2^logstride in that order, whatever collectives were called before; all members of the set take the same hit/miss decision so creation never blocks on a member that uses a cached one.", "quantifier": "every history of collective calls over arbitrary active sets in which members participate consistently", "why_tests_cant": "Histories are unbounded and per-PE caches differ.", "anchors": ["src/internal/coll_activeset_impl.h:coll_acquire_comm,coll_find_comm_cache,coll_set_comm_cache"]}
{"id": "C23", "title": "Active-set broadcast copies the root's source", "statement": "After the active-set broadcast every PE of the set other than the root has the root's source elements in dest, where PE_root is the ordinal of the root within the active set; dest on the root is unchanged.", "quantifier": "every active set, root and data", "why_tests_cant": "The default whole-world active set hides wrong rank translation.", "anchors": ["src/internal/coll_activeset_impl.h:OSHMPI_broadcast,coll_check_root_in_active_set"]}
{"id": "C24", "title": "collect concatenates in PE order with per-PE lengths", "statement": "After shmem_collect every member's dest is the concatenation, in order of PE number, of all members' sources of individual lengths; all members choose the same underlying MPI operation.", "quantifier": "every active set/team, all length vectors with total below 2^31", "why_tests_cant": "All length vectors, including zero lengths and equal-length shortcut.", "anchors": ["src/internal/coll_activeset_impl.h:OSHMPI_collect", "src/internal/coll_impl.h:OSHMPI_collect_team"]}
{"id": "C25", "title": "fcollect, alltoall and strided alltoall move the right elements", "statement": "For fcollect dest[j*n+i] on every member is member j's source[i]; for alltoall dest[j*n+i] on member k is member j's source[k*n+i]; for alltoalls dest[(j*n+i)*dst] on k is j's source[(k*n+i)*sst] and no other dest element changes.", "quantifier": "every team/active set size, nelems and strides", "why_tests_cant": "All strides and sizes.", "anchors": ["src/internal/coll_activeset_impl.h:OSHMPI_fcollect,OSHMPI_alltoall,OSHMPI_alltoalls", "src/internal/coll_impl.h:OSHMPI_alltoalls_team", "src/internal/strided_impl.h:OSHMPI_create_strided_dtype"]}
{"id": "C26", "title": "Reductions combine every member's source once, also in place", "statement": "After a reduction every member's dest[i] is the fold of the operator over the members' source[i], with source==dest behaving as if source had been copied first.", "quantifier": "every team size, operator, count and data, in-place or not", "why_tests_cant": "All sizes.", "anchors": ["src/internal/coll_impl.h:OSHMPI_allreduce_team", "src/internal/coll_activeset_impl.h:OSHMPI_allreduce"]}
{"id": "C27", "title": "Active-set barrier completes the caller's outstanding updates", "statement": "When shmem_barrier over an active set returns on a member, all puts and atomics any member issued on the default context before its call (to any PE) are complete at their targets.", "quantifier": "every history of operations over heap, data, spaces and every active set", "why_tests_cant": "Pending operations are usually finished by the time a test looks.", "anchors": ["src/internal/coll_activeset_impl.h:OSHMPI_barrier", "src/internal/am_impl.h:OSHMPI_am_flush"]}
{"id": "C28", "title": "Strided put/get moves element i*sst to i*dst and nothing else", "statement": "iput/iget with strides dst,sst and nelems copies source[i*sst] to dest[i*dst] for i<nelems and leaves all other target bytes unchanged, on both direct and active-message paths, whichever of the fast paths (stride 1, equal strides) is taken.", "quantifier": "every stride pair, nelems, element size", "why_tests_cant": "All strides and sizes.", "anchors": ["src/internal/rma_impl.h:ctx_iput_impl,ctx_iget_impl", "src/internal/strided_impl.h:OSHMPI_create_strided_dtype", "src/internal/rma_am_impl.c:OSHMPI_rma_am_iput_pkt_cb"]}
{"id": "C29", "title": "Datatype caching is invisible", "statement": "A strided transfer behaves the same whether or not an equal datatype was cached by an earlier call, for every history.", "quantifier": "every history of strided calls", "why_tests_cant": "Unbounded histories.", "anchors": ["src/internal/strided_impl.h:strided_find_dtype_cache,strided_set_dtype_cache"]}
{"id": "C30", "title": "Size-suffixed gets (shmem_get8..shmem_get128) transfer exactly nelems elements", "statement": "shmem_getN(dest,source,nelems,pe) copies exactly nelems*N/8 bytes, on both the direct and the active-message path.", "quantifier": "every N, nelems and data", "why_tests_cant": "Active-message RMA needs GPU memory or a special build.", "anchors": ["src/shmem/rma_sized.c.tpl", "maint/rma_sizedef.txt", "src/internal/rma_am_impl.h", "src/internal/rma_am_impl.c"]}
{"id": "C31", "title": "Distributed lock: mutual exclusion", "statement": "At any time at most one PE is between a successful shmem_set_lock/shmem_test_lock and its shmem_clear_lock on the same lock.", "quantifier": "every number of PEs and every interleaving of atomic steps", "why_tests_cant": "Races in all interleavings.", "anchors": ["src/internal/lock_impl.h:OSHMPI_set_lock,OSHMPI_clear_lock,OSHMPI_test_lock"]}
{"id": "C32", "title": "Distributed lock: FIFO hand-over", "statement": "Lock requests by shmem_set_lock are granted in the order in which they reached the queue tail on the root PE.", "quantifier": "every number of PEs and every interleaving", "why_tests_cant": "Races.", "anchors": ["src/internal/lock_impl.h"]}
{"id": "C33", "title": "Distributed lock: no lost hand-over", "statement": "From every reachable state in which some PE is waiting or holding, the PEs' own steps can always lead to the next waiter acquiring; no reachable state is stuck while a PE waits for a released lock, and the lock returns to its initial free state when all release.", "quantifier": "every reachable state of every number of PEs", "why_tests_cant": "Lost wake-ups need specific interleavings.", "anchors": ["src/internal/lock_impl.h"]}
{"id": "C34", "title": "shmem_test_lock never blocks and is exact", "statement": "shmem_test_lock returns 0 having acquired the lock iff the lock was free at its atomic step, and returns 1 without any effect otherwise.", "quantifier": "every reachable state", "why_tests_cant": "Races.", "anchors": ["src/internal/lock_impl.h:OSHMPI_test_lock"]}
{"id": "C35", "title": "Locks work wherever the lock variable is placed", "statement": "The two words used by the lock algorithm are the same symmetric bytes whichever PE issues the operation, for every base-address layout and displacement mode.", "quantifier": "every base-address layout", "why_tests_cant": "Depends on address-space layout randomisation and the dynamic-window build.", "anchors": ["src/internal/lock_impl.h:OSHMPI_set_lock", "src/include/oshmpi_impl.h:OSHMPI_sobj_trans_vaddr_to_disp"]}
{"id": "C36", "title": "Active-message data is matched with its own header", "statement": "On every schedule the payload consumed by the target for an active-message put/iput, and the payload or acknowledgement consumed by the origin, belongs to the operation whose header announced it; no header receive ever consumes a payload.", "quantifier": "every number of PEs and threads, every interleaving and message delay allowed by MPI ordering", "why_tests_cant": "Message races.", "anchors": ["src/internal/am_impl.c:am_progress,am_cb_recv", "src/internal/rma_am_impl.c", "src/internal/rma_am_impl.h"]}
{"id": "C37", "title": "Waiting for completion of active messages is sound", "statement": "After quiet/barrier's active-message completion step returns on a PE, every put, iput and non-fetching atomic it had issued by active message to any PE has been applied at the target; none is applied twice.", "quantifier": "every history and schedule", "why_tests_cant": "Delayed messages.", "anchors": ["src/internal/am_impl.h:OSHMPI_am_flush,OSHMPI_am_flush_all", "src/internal/am_impl.c"]}
{"id": "C38", "title": "Message tags of concurrent operations never collide", "statement": "Tags handed out to concurrent operations of one PE are pairwise distinct and within the MPI tag range, or the program stops with an error.", "quantifier": "every number of operations and threads", "why_tests_cant": "Needs about 2^30 operations.", "anchors": ["src/internal/am_impl.h:OSHMPI_am_get_pkt_ptag"]}
{"id": "C39", "title": "Active messages of one PE to one target take effect in issue order", "statement": "Operations issued by one PE to one target through active messages are applied in program order.", "quantifier": "every schedule", "why_tests_cant": "Message races.", "anchors": ["src/internal/am_impl.c"]}
{"id": "C40", "title": "Atomics are linearizable", "statement": "Every execution of atomics (add, fetch-add, inc, fetch-inc, set, swap, fetch, compare-swap, and/or/xor and fetching forms) on a location by any PEs is equivalent to a sequential order consistent with each PE's program order, with every returned value equal to the value before the operation.", "quantifier": "every number of PEs, histories, data and interleavings", "why_tests_cant": "All interleavings.", "anchors": ["src/internal/amo_am_impl.c", "src/internal/amo_am_impl.h", "src/shmem/amo_std_typed.c.tpl", "src/shmem/amo_ext_typed.c.tpl", "src/shmem/amo_bitws_typed.c.tpl"]}
{"id": "C41", "title": "shmem_finalize completes all outstanding communication", "statement": "When shmem_finalize returns, every operation issued before it has been applied.", "quantifier": "every schedule", "why_tests_cant": "Delayed messages at shutdown.", "anchors": ["src/internal/setup_impl.c:finalize_impl", "src/internal/am_impl.c:OSHMPI_am_finalize"]}
{"id": "C42", "title": "shmem_ctx_quiet completes all operations of that context", "statement": "After shmem_ctx_quiet(ctx) every operation issued on ctx is complete.", "quantifier": "every history and path (direct or active message)", "why_tests_cant": "Timing.", "anchors": ["src/internal/order_impl.h:OSHMPI_ctx_quiet"]}
{"id": "C43", "title": "shmem_quiet completes all operations of the default context; tracking never skips a needed flush", "statement": "After shmem_quiet on a PE all its outstanding default-context operations on heap, data and attached spaces are complete, with operation tracking enabled or not.", "quantifier": "every history", "why_tests_cant": "Timing.", "anchors": ["src/internal/order_impl.h", "src/include/oshmpi_impl.h:OSHMPI_SET_OUTSTANDING_OP"]}
{"id": "C44", "title": "shmem_barrier_all completes all prior communication of all PEs", "statement": "When shmem_barrier_all returns anywhere, every update issued by any PE before its call, on any symmetric object, is complete.", "quantifier": "every history", "why_tests_cant": "Timing.", "anchors": ["src/internal/coll_impl.h:OSHMPI_barrier_all"]}
{"id": "C45", "title": "Manual progress only touches posted receives", "statement": "Making progress (e.g. inside a collective or wait) never tests an uninitialised request.", "quantifier": "every build/run configuration", "why_tests_cant": "Configuration dependent.", "anchors": ["src/internal/am_impl.c", "src/internal/am_progress_impl.h"]}
{"id": "C46", "title": "AMO operation list option is parsed and printed faithfully", "statement": "Setting OSHMPI_AMO_OPS to any comma separated list of operation names enables exactly the listed operations; printing a set and parsing it again yields the same set.", "quantifier": "every string / every subset of operations", "why_tests_cant": "2^14 subsets times all strings.", "anchors": ["src/internal/setup_impl.c:set_env_amo_ops,getstr_env_amo_ops"]}
{"id": "C47", "title": "Direct MPI atomics are only used when MPI guarantees their mutual atomicity", "statement": "When atomics are mapped directly on MPI accumulates, all operations that the user declared fall into one accumulate operation (or that plus no-op), which is what the window hint promises to MPI.", "quantifier": "every subset of declared operations", "why_tests_cant": "MPI races only on specific hardware paths.", "anchors": ["src/internal/setup_impl.c:OSHMPI_set_mpi_info_args"]}
{"id": "C48", "title": "Size strings are converted exactly", "statement": "A size option such as SHMEM_SYMMETRIC_SIZE with an integer value and optional suffix K/M/G/T yields exactly value * 1024^k bytes.", "quantifier": "every decimal integer and suffix", "why_tests_cant": "Rounding errors only above 2^24.", "anchors": ["src/include/oshmpi_util.h:OSHMPIU_str_to_size"]}
{"id": "C49", "title": "Thread level negotiation never over-promises", "statement": "shmem_init_thread returns success iff the provided level is at least the requested one and the provided level never exceeds what MPI provides (downgraded when an asynchronous thread needs it).", "quantifier": "every requested and MPI-provided level and build option", "why_tests_cant": "MPI dependent.", "anchors": ["src/internal/setup_impl.c:OSHMPI_initialize_thread", "src/shmem/setup.c:shmem_init_thread"]}
{"id": "C50", "title": "Heap size arithmetic", "statement": "The heap created for a requested size is page aligned, not smaller than requested, and the allocator gets at least the bookkeeping space on top, for all requested sizes that do not overflow.", "quantifier": "every size and power-of-two page size", "why_tests_cant": "Overflow at 2^64.", "anchors": ["src/include/oshmpi_util.h:OSHMPI_ALIGN", "src/internal/setup_impl.c:initialize_symm_heap", "src/include/oshmpi_impl.h:OSHMPI_get_mspace_sz"]}
{"id": "C51", "title": "shmem_wait_until returns only, and eventually, when the condition holds", "statement": "shmem_TYPE_wait_until(ivar,cmp,v) with a valid cmp returns iff an atomic read of ivar satisfied the comparison; shmem_TYPE_test returns 1 iff its atomic read satisfied it.", "quantifier": "every sequence of values of ivar, operator and value", "why_tests_cant": "Unbounded value sequences.", "anchors": ["src/internal/p2p_impl.h:OSHMPI_COMP,OSHMPI_wait_until,OSHMPI_test"]}
{"id": "C52", "title": "Invalid comparison operators are rejected", "statement": "Passing a comparison constant outside SHMEM_CMP_* does not return success nor hang silently.", "quantifier": "every integer constant", "why_tests_cant": "Misuse path.", "anchors": ["src/internal/p2p_impl.h:OSHMPI_COMP"]}
{"id": "C53", "title": "A space context is owned by at most one creator", "statement": "shmemx_space_create_ctx never returns a context that is currently in use, succeeds whenever a context is free at some scan step order, and returns SHMEM_NO_CTX otherwise; destroying makes it available again.", "quantifier": "every interleaving of threads creating and destroying contexts", "why_tests_cant": "Races.", "anchors": ["src/internal/space_impl.c:OSHMPI_space_create_ctx", "src/internal/ctx_impl.c"]}
{"id": "C54", "title": "Attached spaces are identified consistently on all PEs", "statement": "If all PEs attach and detach spaces in the same order then each attached space has the same handle on every PE and distinct attached spaces have distinct handles.", "quantifier": "every history with fewer than 2^29 attaches", "why_tests_cant": "Unbounded histories.", "anchors": ["src/internal/space_impl.c:OSHMPI_space_attach,OSHMPI_space_detach"]}
{"id": "C55", "title": "Creating a space does not break shmem_quiet before it is attached", "statement": "shmem_quiet/shmem_fence behave correctly when a created space is not attached.", "quantifier": "every history of create/attach/detach/destroy and quiet", "why_tests_cant": "Specific histories.", "anchors": ["src/internal/order_impl.h:OSHMPI_quiet", "src/internal/space_impl.c"]}
{"id": "C56", "title": "Unsupported operations fail loudly", "statement": "Vector waits, put-with-signal and signal operations either behave as specified or stop with an error; they never return silently.", "quantifier": "every call and build option", "why_tests_cant": "Build option dependent.", "anchors": ["src/shmem/p2p_typed.c.tpl", "src/shmem/signal_typed.c.tpl"]}
{"id": "C57", "title": "Context creation fails cleanly", "statement": "shmem_ctx_create reports failure with SHMEM_CTX_INVALID in the handle, and shmem_ctx_get_team/destroy on an invalid handle have no effect.", "quantifier": "every option and team", "why_tests_cant": "API contract.", "anchors": ["src/shmem/context.c"]}
{"id": "C58", "title": "shmem_addr_accessible and shmem_ptr agree with RMA", "statement": "shmem_addr_accessible(a,pe) is 1 iff a put/get to a on pe is accepted; shmem_ptr returns a usable local address or NULL.", "quantifier": "every address and PE", "why_tests_cant": "All addresses.", "anchors": ["src/shmem/setup.c:shmem_addr_accessible,shmem_ptr,shmem_pe_accessible"]}
{"id": "C59", "title": "Every atomic the API offers is implemented on the active-message path", "statement": "For each type/operation pair exposed by the atomic API the active-message handler applies the operation and never aborts.", "quantifier": "every exposed (type, operation) pair", "why_tests_cant": "Finite but large cross product; active-message path not always built.", "anchors": ["src/internal/amo_am_impl.c", "maint/amo_std_typedef.txt", "maint/amo_ext_typedef.txt", "maint/amo_bitws_typedef.txt"]}
{"id": "C60", "title": "Info strings are always terminated and bounded", "statement": "shmem_info_get_name writes at most SHMEM_MAX_NAME_LEN bytes and always NUL-terminates.", "quantifier": "every vendor string length", "why_tests_cant": "Build-time string.", "anchors": ["src/shmem/setup.c:shmem_info_get_name"]}
{"id": "C61", "title": "Memory returned by shmemx_space_calloc stays as other PEs wrote it", "statement": "After shmemx_space_calloc has returned on a PE, a put by that PE to the new block on another PE is not erased by that PE's own zeroing.", "quantifier": "every number of PEs and every interleaving", "why_tests_cant": "A race: the zeroing follows the barrier.", "anchors": ["src/shmemx/space.c:shmemx_space_calloc"]}
{"id": "C62", "title": "Communication on a space that is not attached is rejected", "statement": "A put or get whose address lies in a space that is created but not attached stops with an error and changes no memory.", "quantifier": "every reachable state, address, PE and path", "why_tests_cant": "Depends on layouts and on the window mode.", "anchors": ["src/internal/rma_impl.h", "src/include/oshmpi_impl.h:OSHMPI_sobj_query_attr_ictx,OSHMPI_sobj_trans_vaddr_to_disp"]}
{"id": "C63", "title": "A space context only reaches its own space", "statement": "A put or get through an explicit space context whose target range is not inside the space is rejected.", "quantifier": "every reachable state, address, length, PE and path", "why_tests_cant": "Out-of-range addresses of all kinds.", "anchors": ["src/internal/rma_impl.h", "src/internal/rma_am_impl.h", "src/internal/rma_am_impl.c"]}
{"id": "C64", "title": "Updates made in a critical section are complete when the lock is released", "statement": "When a PE acquires a lock, the puts issued by the previous holder between its acquisition and its shmem_clear_lock have been performed at their targets (OpenSHMEM: shmem_clear_lock performs a quiet on the default context).", "quantifier": "every history of lock operations, puts, deliveries and quiets on any number of PEs", "why_tests_cant": "Depends on when MPI performs a put.", "anchors": ["src/internal/lock_impl.h:OSHMPI_clear_lock", "src/internal/rma_impl.h:OSHMPI_ctx_put"]}
{"id": "C65", "title": "Programs may use any number of remote operations", "statement": "A program that performs remote operations one after another, each completing before the next, is never stopped by the library because of how many it has performed.", "quantifier": "every number of operations, every MPI tag bound", "why_tests_cant": "The failure needs more operations than the MPI tag bound allows (up to 2^31), far beyond any test.", "anchors": ["src/internal/am_impl.h:11-20", "src/internal/am_impl.c:247-253"]}
{"id": "C66", "title": "shmem_fence orders operations", "statement": "An operation that a PE starts after shmem_fence has returned is complete at its target only after every operation the PE had issued before the fence.", "quantifier": "every history of operations on every context, object and path, every target", "why_tests_cant": "Networks deliver in order almost always; a reordering needs particular timing.", "anchors": ["src/internal/order_impl.h:OSHMPI_ctx_fence", "src/shmem/order.c"]}
{"id": "C67", "title": "Strided transfers leak no datatypes", "statement": "Without the datatype cache every derived MPI datatype made for a strided put, get or alltoalls is freed before the call returns; with the cache shmem_finalize frees each of them exactly once.", "quantifier": "every history of strided transfers and strided collectives, both builds", "why_tests_cant": "A leak only shows after a long run, a double free only under a strict MPI.", "anchors": ["src/internal/strided_impl.h:OSHMPI_create_strided_dtype,OSHMPI_free_strided_dtype", "src/internal/strided_impl.c:OSHMPI_strided_finalize"]}
{"id": "C68", "title": "Active-set communicators are freed in a consistent order", "statement": "When the library finalizes, any two PEs free the communicators of the active sets that contain both in the same order, so that the collective MPI_Comm_free calls match.", "quantifier": "every history of collective calls over arbitrary active sets, every interleaving of the PEs", "why_tests_cant": "The order of the cache lists depends on the whole history; a wrong order shows as a rare hang at exit.", "anchors": ["src/internal/coll_impl.c:OSHMPI_coll_finalize", "src/internal/coll_activeset_impl.h:coll_set_comm_cache"]}
{"id": "C69", "title": "Team broadcast copies the root's source to every member", "statement": "After a team broadcast every member of the team, the root included, has the root's source elements in dest, the root being given by its number in the team; no other byte of any PE changes.", "quantifier": "every team (any set and order of PEs), root, number of elements and data", "why_tests_cant": "Teams whose ranks differ from PE numbers are rare in tests.", "anchors": ["src/internal/coll_impl.h:OSHMPI_broadcast_team"]}
{"id": "C70", "title": "GPU features option decides how device buffers are moved", "statement": "OSHMPI_MPI_GPU_FEATURES set to any comma separated list of features enables exactly those; a put or get that involves a device buffer uses MPI RMA iff that feature is listed, else point to point messages iff these are listed, else the program stops; printing and parsing a set yields the same set.", "quantifier": "every list of features, kind of transfer", "why_tests_cant": "Needs GPUs and MPI libraries of each capability.", "anchors": ["src/internal/setup_impl.c:set_env_mpi_gpu_features,getstr_env_mpi_gpu_features", "src/include/oshmpi_impl.h:OSHMPI_check_gpu_direct_rma"]}
{"id": "C71", "title": "Reading the options leaves the environment of the process unchanged", "statement": "After initialisation getenv returns for OSHMPI_AMO_OPS and OSHMPI_MPI_GPU_FEATURES what the user set, so child processes and later readers see it.", "quantifier": "every value of the variables", "why_tests_cant": "No test looks at the environment after initialisation.", "anchors": ["src/internal/setup_impl.c:set_env_amo_ops"]}
{"id": "C72", "title": "Automatic progress thread runs exactly when active messages are used", "statement": "With --enable-async-thread=auto and no override, the progress thread is enabled iff atomics or RMA are based on active messages.", "quantifier": "every build option, debug mode and set of declared operations", "why_tests_cant": "Combination of build and run-time options.", "anchors": ["src/internal/setup_impl.c:initialize_env,OSHMPI_set_mpi_info_args", "configure.ac"]}
{"id": "C73", "title": "Initialisation and finalisation happen once", "statement": "Repeated shmem_init/start_pes calls and repeated shmem_finalize calls are harmless: MPI is initialised once and finalised once, also when only start_pes was called; a program that owns MPI can use the library between its own MPI_Init and MPI_Finalize.", "quantifier": "every sequence of initialisation and finalisation calls", "why_tests_cant": "Only one sequence per process run.", "anchors": ["src/internal/setup_impl.c:finalize_impl,OSHMPI_initialize_thread,OSHMPI_implicit_finalize", "src/shmem/setup.c:start_pes"]}
{"id": "C74", "title": "Ordering calls on an invalid context do nothing", "statement": "shmem_ctx_fence and shmem_ctx_quiet on SHMEM_CTX_INVALID, the handle left by a failed context creation, perform no operation.", "quantifier": "every state", "why_tests_cant": "API contract on a failure path.", "anchors": ["src/internal/order_impl.h:OSHMPI_ctx_fence,OSHMPI_ctx_quiet", "src/shmem/order.c"]}
{"id": "C75", "title": "shmem_realloc is safe against accesses of other PEs and works for every symmetric block", "statement": "shmem_realloc does not move or release the old block before every PE has entered the call, returns nowhere before the block has moved everywhere, keeps the contents, and accepts every block that shmem_free accepts.", "quantifier": "every number of PEs, interleaving and block", "why_tests_cant": "Schedule dependent.", "anchors": ["src/internal/mem_impl.c:OSHMPI_realloc", "src/shmem/mem.c:shmem_realloc"]}
{"id": "C76", "title": "Blocks of the symmetric heap never overlap and keep their contents", "statement": "Live blocks of the symmetric heap are disjoint, inside the heap memory and aligned as requested; shmem_calloc returns count*size zero bytes or NULL if that overflows; a call never changes the place or the bytes of a block it does not name; calls with valid arguments never corrupt the allocator.", "quantifier": "every heap size, page size, placement policy and history of shmem_malloc/calloc/align/realloc/free", "why_tests_cant": "Allocator states are unbounded; overlap shows up only for rare split and merge patterns.", "anchors": ["src/internal/mem_impl.c:OSHMPI_malloc,OSHMPI_calloc,OSHMPI_align,OSHMPI_realloc,OSHMPI_free", "src/dlmalloc/dlmalloc.c:mspace_malloc,mspace_calloc,mspace_memalign,mspace_realloc,mspace_free"]}
{"id": "C77", "title": "Released symmetric heap memory can be used again", "statement": "After every block has been released with shmem_free, the heap can satisfy the same requests as at the start; a released block can be allocated again at once.", "quantifier": "every history of allocations and releases", "why_tests_cant": "Fragmentation and leaks depend on long histories.", "anchors": ["src/internal/mem_impl.c:OSHMPI_free", "src/dlmalloc/dlmalloc.c:mspace_free"]}
{"id": "C78", "title": "Active-message operations complete", "statement": "Under fair scheduling of threads and progress engines, every fetching active-message call, every flush and every handler finishes: with the asynchronous progress thread always, and without it as long as the target keeps polling; a target that does not enter the library can block its peers for ever.", "quantifier": "every number of PEs, every mix of put/get/atomic AM calls, flushes and callbacks, every fair infinite schedule; MPI may hold back the completion of a send until it is received", "why_tests_cant": "A hang is the absence of an event; a test that passes on one schedule says nothing about the others.", "anchors": ["src/internal/am_impl.h:OSHMPI_am_flush", "src/internal/am_progress_impl.h:OSHMPI_am_progress_mpi_waitall,OSHMPI_am_progress_mpi_recv", "src/internal/am_impl.c:OSHMPI_am_cb_progress,am_cb_async_progress"]}
{"id": "C79", "title": "Active messages and collective calls do not deadlock each other", "statement": "A program whose PEs issue active-message operations and make the same collective calls never reaches a state in which some PE has not finished and nothing can happen: with the asynchronous progress thread always; without it if every call that blocks in MPI without polling (team split, space attach/detach, first use of an active set) directly follows shmem_barrier_all.", "quantifier": "every number of PEs, every program of atomics and collectives over arbitrary groups, every interleaving", "why_tests_cant": "Deadlocks need a particular overlap of a pending request and a blocking call.", "anchors": ["src/internal/am_progress_impl.h:OSHMPI_am_progress_mpi_barrier", "src/internal/coll_activeset_impl.h:coll_acquire_comm,OSHMPI_barrier", "src/internal/team_impl.c:OSHMPI_team_split", "src/internal/space_impl.c:OSHMPI_space_attach,OSHMPI_space_detach", "src/internal/setup_impl.c:OSHMPI_finalize"]}
{"id": "C80", "title": "Data put before a fence are there when the flag put after it is seen", "statement": "If a PE puts data, calls shmem_quiet or shmem_fence, and then puts a flag that nobody else writes, then any PE that observes the flag changed also finds the data in the target's memory, and a blocking get that starts after the data's completion returns them.", "quantifier": "every build, every mix of one-sided and active-message paths, every order and delay in which single bytes travel, every number of PEs (one calling thread per PE)", "why_tests_cant": "The failure needs the flag to overtake the data on the network.", "anchors": ["src/internal/order_impl.h:OSHMPI_ctx_quiet,OSHMPI_ctx_fence", "src/internal/rma_impl.h:ctx_put_nbi_impl,ctx_get_nbi_impl", "src/internal/rma_am_impl.c:OSHMPI_put_pkt_cb"]}
{"id": "C81", "title": "Data put before a barrier are there for everyone after it", "statement": "When a barrier has returned on any PE, everything its members had put before it (default context, heap or static data, target in the set or by one-sided communication) is in the target's memory, and every blocking get that starts afterwards on any PE returns it.", "quantifier": "every active set, build, schedule and order of transfers (one calling thread per PE)", "why_tests_cant": "Needs a slow transfer from one PE and a fast get by a third.", "anchors": ["src/internal/coll_impl.h:OSHMPI_barrier_all", "src/internal/coll_activeset_impl.h:OSHMPI_barrier", "src/internal/rma_impl.h:OSHMPI_ctx_get"]}
{"id": "C82", "title": "Atomics mapped on MPI are atomic operations of the routine called", "statement": "When atomics are mapped on MPI accumulate functions, each routine makes the MPI call that does the same as the active-message handler, operations applied at a PE form one sequence of atomic operations in which each call appears once and a fetching call returns the result of its own place, a call made after another has been applied comes later, and shmem_quiet returns only after all earlier calls of its PE have been applied.", "quantifier": "every routine, type, value, memory, number of PEs and threads, every order in which MPI applies the operations", "why_tests_cant": "Wrong mappings show only for particular types and values, lost updates only in particular orders.", "anchors": ["src/internal/amo_impl.h:OSHMPI_amo_cswap,OSHMPI_amo_fetch,OSHMPI_amo_post", "src/shmem/amo_std_typed.c.tpl", "src/shmem/amo_ext_typed.c.tpl", "src/shmem/amo_bitws_typed.c.tpl"]}
{"id": "C83", "title": "Counters lose no update and tickets are distinct", "statement": "If a variable is only changed by atomic add, inc, fetch_add and fetch_inc (and read by fetch), from any PEs and by either implementation, then its value is its first value plus all that was applied, each fetch returns the first value plus what was applied before it, and no two fetch_inc calls return the same value before the type wraps around.", "quantifier": "every integer type, number of PEs and threads, amounts, order of application; operations on other variables may be mixed in", "why_tests_cant": "A lost increment or a doubled ticket needs a particular interleaving.", "anchors": ["src/internal/amo_impl.h", "src/internal/amo_am_impl.c:OSHMPI_amo_fetch_pkt_cb,OSHMPI_amo_post_pkt_cb", "src/shmem/amo_std_typed.c.tpl"]}
{"id": "C84", "title": "Programs without races see one memory", "statement": "If accesses to a byte by puts and gets that conflict never overlap (each conflicting access is started only after the earlier one is complete), then every get returns the value put last before it in the order of the calls, and when all puts are complete the memory holds the last one.", "quantifier": "every build, path (one-sided or active message), number of PEs (one calling thread each), object, context, schedule and order in which single bytes travel", "why_tests_cant": "Stale reads appear only under particular delays on the network.", "anchors": ["src/internal/rma_impl.h:OSHMPI_ctx_put,OSHMPI_ctx_get", "src/internal/order_impl.h:OSHMPI_ctx_quiet", "src/internal/rma_am_impl.h"]}
{"id": "C85", "title": "Critical sections that end with a quiet lose no update", "statement": "If a byte is accessed only by the holder of a lock, by blocking gets and by puts each followed by shmem_quiet before the next access and before shmem_clear_lock, then each get returns what was put last by any PE, the memory holds the last value when nobody holds the lock, and get-compute-put updates have the result of executing them one after the other.", "quantifier": "every number of PEs, locks, critical sections and updates, every schedule and order of transfers", "why_tests_cant": "A lost update needs a put that is slower than the hand-over of the lock.", "anchors": ["src/internal/lock_impl.h:OSHMPI_set_lock,OSHMPI_clear_lock,OSHMPI_test_lock", "src/internal/order_impl.h:OSHMPI_ctx_quiet", "src/internal/rma_impl.h"]}
{"id": "C86", "title": "The library releases what it acquires", "statement": "After any legal sequence of calls the process holds exactly the MPI objects (communicators, groups, windows in open epochs, attached memory, datatypes), memory blocks and critical sections that the library itself needs, one cached entry per distinct active set and strided shape used, and those of teams and spaces not destroyed; repeating create/destroy pairs never grows it; after shmem_finalize only objects the program did not destroy remain, and nothing is released twice.", "quantifier": "every build (dynamic window or not, datatype cache or not), thread level, heap placement and legal sequence of team, active-set, strided, collective and space calls", "why_tests_cant": "Leaks and double releases show after long runs, or not at all.", "anchors": ["src/internal/setup_impl.c:OSHMPI_initialize_thread,finalize_impl", "src/internal/team_impl.c", "src/internal/space_impl.c", "src/internal/coll_activeset_impl.h", "src/internal/strided_impl.h", "src/internal/am_impl.c:OSHMPI_am_initialize,OSHMPI_am_finalize"]}
{"id": "C87", "title": "Internal locks never deadlock", "statement": "Whatever library calls the threads of all PEs make, every thread inside a call can go on or waits, perhaps through other threads and PEs, for one that can: critical sections are entered in one order, never twice by one thread, never kept after a call, and a handler that waits for the second part of a message never prevents that part from being sent. Hence the calls end under every schedule.", "quantifier": "every number of PEs and threads, every sequence of calls, every schedule, with or without progress thread", "why_tests_cant": "Deadlocks need an unlucky interleaving of several threads.", "anchors": ["src/include/oshmpi_impl.h:OSHMPI_THREAD_ENTER_CS,OSHMPI_sobj_query_attr_ictx,OSHMPI_sobj_trans_disp_to_vaddr", "src/internal/am_impl.c:am_cb_manual_progress", "src/internal/rma_am_impl.h", "src/internal/rma_am_impl.c", "src/internal/strided_impl.h", "src/internal/coll_activeset_impl.h", "src/internal/mem_impl.c", "src/internal/space_impl.c", "src/internal/order_impl.h"]}
{"id": "C88", "title": "Looking through the spaces while others change them", "statement": "While some threads create, attach, detach and destroy spaces, others that search the list of spaces for an address, or walk through it for shmem_quiet or shmem_fence, never read a field that has not been set, never touch a window outside its epoch, and never use released memory.", "quantifier": "every number of threads and spaces, every interleaving of the single field writes and reads, with and without operation tracking and dynamic window", "why_tests_cant": "The windows between publishing an object and initialising it are a few instructions long.", "anchors": ["src/internal/space_impl.c:OSHMPI_space_create,OSHMPI_space_destroy,OSHMPI_space_attach,OSHMPI_space_detach,space_ictx_create,space_ictx_destroy", "src/internal/order_impl.h:OSHMPI_ctx_quiet,OSHMPI_ctx_fence,ctx_flush_impl", "src/include/oshmpi_impl.h:OSHMPI_sobj_query_attr_ictx,OSHMPI_sobj_trans_disp_to_vaddr"]}
{"id": "C89", "title": "The progress thread is stopped cleanly", "statement": "shmem_finalize stops the progress thread without hanging (no lost wake-up), after every message that had arrived was handled, and neither thread uses a communicator, mutex or condition variable after it was released.", "quantifier": "every interleaving of the pthread and MPI calls of the two threads, every arrival of messages, spurious wake-ups, with and without progress thread", "why_tests_cant": "The windows are single instructions at the end of the program; a failure there is easily taken for a normal exit.", "anchors": ["src/internal/am_impl.c:am_cb_async_progress,am_cb_progress_end,am_cb_progress_start,am_cb_handle_pkt,OSHMPI_am_finalize"]}
{"id": "C90", "title": "The internal lists hold exactly what was put in", "statement": "Whatever sequence of spaces, communicators and datatypes is created and destroyed, a lookup sees exactly the live objects, each once, in insertion order, and stops at the first match; no operation follows a NULL or freed pointer or fails to end; finalization releases every cached object exactly once.", "quantifier": "every sequence of insertions at either end, removals, frees and reuse of addresses, every stale content of new objects, every search", "why_tests_cant": "Stale next fields and reused addresses depend on the allocator; tests see a few short lists.", "anchors": ["src/internal/util/utlist.h:LL_PREPEND,LL_APPEND,LL_DELETE,LL_FOREACH,LL_FOREACH_SAFE", "src/internal/coll_impl.c:OSHMPI_coll_finalize", "src/internal/strided_impl.c:OSHMPI_strided_finalize", "src/internal/space_impl.c:OSHMPI_space_create,OSHMPI_space_destroy"]}
{"id": "C91", "title": "Each typed routine works with the type in its name", "statement": "For every OpenSHMEM type and every typed operation, the library has exactly one routine of that name, shmem.h declares it with the prototype of its definition, and it passes on its arguments in their places with the C type, element size, MPI datatype, active-message type index and operation that its name says. The generator that makes these routines from templates replaces every placeholder by the field of the table row and changes nothing else. Every index a header can name has exactly one entry in the table of the target and stands for the same datatype or operation there.", "quantifier": "all routines of all types (1542 generated definitions) and, for the generator, all templates and tables of the stated form", "why_tests_cant": "1542 generated definitions differ only in names and constants; a single wrong field or misplaced argument affects one routine for one type, and tests cover a handful of them.", "anchors": ["maint/build_typed_api.pl:49-107", "autogen.sh:107-307", "src/shmem/rma_typed.c.tpl", "src/shmem/amo_std_typed.c.tpl", "maint/rma_typedef.txt", "src/internal/am_impl.c:207-243"]}
{"id": "C92", "title": "Every typed routine uses an MPI operation that MPI defines for its datatype", "statement": "Every typed reduction and atomic passes MPI a pair of predefined operation and datatype that MPI defines, so that no MPI library may reject it or compute something else. This fails for the four reductions of char: they pass MPI_CHAR, which is in no class of types MPI reductions are defined for.", "quantifier": "all 1542 generated routines", "why_tests_cant": "MPI libraries usually accept undefined pairs, so a test with one library passes; whether the pair is defined is a matter of the MPI standard.", "anchors": ["maint/reduce_minmax_team_typedef.txt", "maint/reduce_sumprod_team_typedef.txt", "src/shmem/reduce_sumprod_team_typed.c.tpl"]}
{"id": "C93", "title": "Generic calls reach the routine of their argument's type", "statement": "With C11, a call shmem_OP(...) reaches the routine of OP for the C type its first pointer points to, with or without context, for every type OpenSHMEM defines OP for, and the macros are valid selections (no two compatible types). This holds for pointers to non-const. With a pointer to const, which shmem_g and shmem_atomic_fetch (and the deprecated shmem_fetch) declare for their source, no routine is reached.", "quantifier": "all generic macros, all types, all argument types beyond the deciding ones", "why_tests_cant": "A test calls a few generic macros with a few types; a missing or duplicate association shows only for its own type, at compile time of the program.", "anchors": ["include/shmem.h.in.tpl:28-37", "include/shmem_rma_typed.h.tpl", "include/shmem_amo_ext_typed.h.tpl", "include/shmem_coll_typed.h.tpl"]}
{"id": "C94", "title": "Requests are served from the best fitting free block", "statement": "shmem_malloc and its relatives take the smallest free block of the symmetric heap that is large enough (a request of at most 232 bytes may instead be cut from the block split last, if no block has exactly its size); they use the untouched end of the heap only if no free block fits, memory outside the heap only if the end has no room either, and return NULL only if the system has no more memory then. This holds for heaps of at most 2^40 bytes. In a larger heap a free block of 2^40 bytes or more is not found, and a request that it could serve fails.", "quantifier": "every history of allocations, releases and reallocations, every size and alignment, every answer of the system", "why_tests_cant": "Which block is taken depends on the whole history; the failing case needs a symmetric heap of more than a terabyte.", "anchors": ["src/internal/util/dlmalloc.c:mspace_malloc,tmalloc_large,tmalloc_small,compute_tree_index,insert_large_chunk", "src/internal/mem_impl.c:OSHMPI_malloc"]}
{"id": "C95", "title": "The free lists of the allocator describe exactly the free memory of the symmetric heap", "statement": "In a heap of at most 2^40 bytes, after any history of calls, each free block is in exactly one bin, the one of its size, or is the block split last, and the bins lead to nothing else; so no call on held blocks ever follows a dangling link, and every history has one of the effects that the properties of the heap (C08, C50, C75 to C77) allow.", "quantifier": "every history of allocations, aligned allocations, releases and reallocations, every heap of at most 2^40 bytes", "why_tests_cant": "A block filed in the wrong bin or twice shows much later, as an overlap of two unrelated blocks.", "anchors": ["src/internal/util/dlmalloc.c:insert_small_chunk,unlink_small_chunk,insert_large_chunk,unlink_large_chunk,replace_dv,mspace_free,dispose_chunk,try_realloc_chunk,internal_memalign"]}
{"id": "C96", "title": "Device memory is only touched by operations that MPI supports on it", "statement": "With spaces in device memory or buffers of the program on a device, a communication call touches device memory only by the kinds of MPI operation that OSHMPI_MPI_GPU_FEATURES lists, never by loads and stores of the process, and stops the program when that is not possible.", "quantifier": "every configuration, every list of features, every call, every placement of the local buffer and the object", "why_tests_cant": "Tests run with one MPI library that supports what it supports; on another one the same call crashes or gives wrong data.", "anchors": ["include/oshmpi_impl.h:753-787", "src/internal/amo_impl.h:75-137", "src/internal/amo_am_impl.c:84-185", "src/shmemx/space.c:49-56", "src/internal/space_impl.c:166-197", "src/internal/p2p_impl.h:35-60", "src/internal/lock_impl.h", "README.md:126-142"]}
{"id": "C97", "title": "A buffer given to a call is not used by the library after the call is over", "statement": "MPI reads a source buffer, operand or packet only until the call that gave it has returned, or until a later quiet has returned if the call is nonblocking and the buffer is the program's, and what it reads is what was there when the call was made; results and local variables are only written in the same time. So programs may reuse buffers and stack.", "quantifier": "every number of threads, every sequence of calls, every interleaving, every time at which MPI accesses a buffer it still holds", "why_tests_cant": "MPI libraries copy small messages at once, so that a missing local completion shows only with large messages or another network.", "anchors": ["src/internal/rma_impl.h:107-243", "src/internal/rma_am_impl.h", "src/internal/amo_impl.h:13-72", "src/internal/amo_am_impl.h:13-125", "src/internal/p2p_impl.h:35-60", "src/internal/lock_impl.h:27-170", "src/internal/am_impl.h:22-92", "src/internal/am_progress_impl.h:16-74"]}
{"id": "C98", "title": "Concurrent accesses to one object go through one MPI window", "statement": "Every access to a symmetric object by put, get, atomic, wait, lock or broadcast goes through an MPI window that exposes the object, and accesses that may be concurrent use the same window, because MPI leaves concurrent accesses through distinct overlapping windows undefined and makes accumulates atomic only within a window.", "quantifier": "every configuration, every pair of calls of any kinds, made by any PEs in any states, every object and context", "why_tests_cant": "Most MPI libraries implement all windows over one shared memory segment with the same atomic instructions, so that two overlapping windows behave like one until a network with remote atomics is used.", "anchors": ["src/include/oshmpi_impl.h:669-717", "src/internal/space_impl.c:17-24", "src/internal/space_impl.c:297-325", "src/internal/p2p_impl.h:41", "src/internal/p2p_impl.h:67", "src/internal/lock_impl.h:42", "src/internal/coll_activeset_impl.h:198", "src/internal/setup_impl.c:119-290"]}
{"id": "C99", "title": "Each environment variable has its documented effect, and no other", "statement": "Each option of the library depends only on its own environment variable, 0/1 options are on exactly for a number other than 0, debug modes exactly for the documented words, an environment with readable values is accepted, and unset or empty variables give the documented defaults. The words documented for lists have the documented meaning.", "quantifier": "every build configuration, every environment, every text of every variable", "why_tests_cant": "Tests set a variable to 0 or 1; the space of texts and of combinations of variables is unbounded.", "anchors": ["src/internal/setup_impl.c:397-404", "src/internal/setup_impl.c:598-693", "README.md:87-145"]}
{"id": "C100", "title": "A call moves everything it was asked to move, or fails", "statement": "A put, get or team collective that returns without an error has moved every element it was asked to move, whatever the number of elements, which is a size_t in the API and an int in MPI. Counts that fit in an int are accepted.", "quantifier": "every number of elements, element type, address, memory contents and team, both ways of transfer", "why_tests_cant": "Transfers of more than 2^31 bytes are too large for test machines.", "anchors": ["src/internal/rma_impl.h:13-53", "src/internal/rma_impl.h:107-218", "src/internal/rma_am_impl.h:13-79", "src/internal/rma_am_impl.c:11-38", "src/internal/coll_impl.h:51-160"]}
{"id": "C101", "title": "Every routine the headers declare is in the library and passes its arguments on", "statement": "Every routine declared in shmem.h and shmemx.h that is not made from a template is in the library once, with the declared prototype, whatever C standard program and library are compiled for; the routines that stand for an internal one call just that, and each parameter of it gets the argument that is meant for it (context, origin and target address, element width, count, PE, root, active set, strides).", "quantifier": "every such routine and parameter, each combination of C standards", "why_tests_cant": "A test calls some routines with some arguments; a pair of swapped arguments or a routine missing for another language standard shows only in a call that nobody wrote.", "anchors": ["include/shmem.h.in.tpl:23-27", "include/shmem.h.in.tpl:133-352", "include/shmem.h.in.tpl:321-324", "src/shmem/p2p.c:11-23", "src/shmem/rma.c:9-52", "src/shmem/coll.c:27-68", "src/shmem/coll_activeset.c:9-82", "src/shmem/mem.c:9-88", "src/shmemx/space.c:10-64"]}
{"id": "C102", "title": "A team handle stands for its team for as long as it lives", "statement": "On every PE the answers of shmem_team_my_pe, n_pes, get_config and translate_pe for a handle are those of the team it was returned for, with the configuration given at the split (0 when none is given), from the split until the handle is destroyed, whatever other teams are made and destroyed meanwhile and whatever addresses and MPI handles are reused; a split that cannot allocate memory reports an error.", "quantifier": "all sequences of team calls on a PE with legal arguments, all choices of malloc and MPI among unused addresses and handles", "why_tests_cant": "A dangling or shared object shows only for particular orders of splits and destroys and particular reuse of freed addresses, which a test does not control.", "anchors": ["src/internal/team_impl.c:9-65", "src/shmem/team.c:11-222", "src/internal/setup_impl.c:796-822", "src/include/oshmpi_impl.h:177-203", "include/shmem.h.in.tpl:86-95"]}
{"id": "C103", "title": "Level Zero memory is taken from a driver that has a GPU", "statement": "On a machine with a GPU the library built for Level Zero starts and uses the first driver that has one: its context and its table of devices are those of that driver, and spaces can be created in the memory of its devices and destroyed in any order. A device of another driver is rejected. Without a GPU the library does not start. At the end everything that was taken is released.", "quantifier": "all lists of drivers and devices, all sequences of space creations and destructions in device memory, with and without assertions", "why_tests_cant": "Test machines have one driver with one kind of device.", "anchors": ["src/internal/util/gpu/ze.c:13-79", "src/internal/space_impl.c:113-161", "src/internal/util/gpu/ze.h:13-44"]}
{"id": "C104", "title": "The library changes only the control variable of MPI it is meant to change", "statement": "Starting the library sets the MPI control variable for progress of active messages to 1 unless the user set it or switched this off by OSHMPI_ENABLE_MPI_T; no other control variable changes, no handle is left, and sessions of the MPI tools interface that the program opened stay open as often as it opened them.", "quantifier": "all environments, sets of control variables and orders of starting and ending the library, sessions and writes of the program", "why_tests_cant": "The effect depends on which variables the MPI library has and on sessions the program opens itself; a test has one MPI library and one order.", "anchors": ["src/internal/setup_impl.c:688-732", "src/internal/setup_impl.c:738-744", "src/internal/setup_impl.c:824-824", "src/internal/setup_impl.c:905-905"]}
{"id": "C105", "title": "A build does what the options of configure say, and its locks exist when threads need them", "statement": "Configure takes the documented values of --enable-threads, --enable-amo, --enable-rma, --enable-async-thread and --enable-win-type and refuses others; what the library does by these is what was asked, and it prints them with OSHMPI_VERBOSE. A progress thread is possible only in a build for level multiple. A program that gets level multiple from shmem_init_thread has real mutexes and atomic counters, whatever the configuration, environment and MPI library. --enable-fast takes any list of words, of which the last about a flag decides. Configuring again with the printed options gives the same build.", "quantifier": "all texts of all options, all machines, environments and MPI libraries", "why_tests_cant": "There are hundreds of combinations of options, and a test suite runs with one build.", "anchors": ["configure.ac:195-280", "configure.ac:320-568", "src/include/oshmpi_impl.h:61-112", "src/include/oshmpi_impl.h:305-345", "src/internal/util/thread.h:12-63", "src/internal/setup_impl.c:490-570", "src/internal/setup_impl.c:757-766"]}
{"id": "C106", "title": "Critical sections are used only while their mutexes exist", "statement": "In a program at thread level multiple, from the start of shmem_init to the end of shmem_finalize: no thread - the progress thread included, which starts before and stops during these - enters or leaves a critical section whose mutex is not initialised or already destroyed; no mutex is initialised twice or destroyed while taken. After shmem_finalize none is left, and the mutex of a space lives from its creation until its destruction. The program's part: it uses and destroys spaces properly and no thread is in a call when shmem_finalize is called.", "quantifier": "all numbers of PEs and threads, all calls, all schedules, all builds", "why_tests_cant": "A mutex used too early or too late mostly works by luck, and whether it happens depends on when a message of another PE arrives.", "anchors": ["src/internal/setup_impl.c:193", "src/internal/setup_impl.c:279", "src/internal/setup_impl.c:828-905", "src/internal/am_impl.c:90-177", "src/internal/am_impl.c:189-284", "src/internal/strided_impl.c:12-36", "src/internal/coll_impl.c:10-35", "src/internal/space_impl.c:152-250", "src/include/oshmpi_impl.h:305-345", "src/internal/util/thread.h:22-42"]}
{"id": "C107", "title": "A request arrives on the target as the origin issued it", "statement": "For every sequence of atomic, contiguous, strided and flush requests sent as active messages, the callback that runs on the target for each request acts on the location, with the datatype, operation, operand values, stride and count, that the origin meant, and answers with that datatype and that tag. It never acts on bytes the origin did not set or that an earlier packet left in the buffer; every packet type that is sent has a callback, every index a table entry; an answer has the size of what was stored. Together with the computation of the callbacks, atomics take effect one after the other, each with the value, type and location of its call, and puts and gets copy exactly the elements of the call, at the same place of the same symmetric object on the target as the address of the call has on the caller.", "quantifier": "all sequences of requests, all values in the range of their C types, all previous contents of the receive buffer", "why_tests_cant": "Packets are unions of structures sent as raw bytes, and types travel as numbers: a wrong member, a swapped table line or a leftover byte shows only for the values and types a test happens to use.", "anchors": ["src/internal/am_pre.h:12-145", "src/internal/am_impl.c:17-45", "src/internal/am_impl.c:153-156", "src/internal/am_impl.c:179-263", "src/internal/am_impl.h:51-52", "src/internal/amo_am_impl.h:12-124", "src/internal/amo_am_impl.c:8-184", "src/internal/rma_am_impl.h:12-185", "src/internal/rma_am_impl.c:10-91"]}
{"id": "C108", "title": "Waiting calls do the same with and without the progress thread", "statement": "Every blocking operation the library waits for inside a SHMEM call (send, receive, wait for requests, barrier, broadcast, allgather, allgatherv, alltoall, allreduce) completes the same operation with the same arguments whether the progress thread runs or not. Without it, active messages are handled once after every unsuccessful test until the operation is complete, the call does not return earlier, and an operation that is complete at once handles none.", "quantifier": "all wrappers, all argument values, all numbers of tests until completion, both settings", "why_tests_cant": "The nonblocking branch runs only without the progress thread, has its own argument list for every operation, and its waiting loop depends on timing.", "anchors": ["src/internal/am_progress_impl.h:11-173"]}
{"id": "C109", "title": "Windows get the hints asked for, and spaces their own kind of memory", "statement": "After any valid history of creating, destroying, attaching and detaching spaces: the memory that is allocated is exactly that of the existing spaces, each block taken from the allocator of the space's memory kind (host, CUDA, Level Zero) and given back to it; the windows that exist are exactly those of initialisation and of the attached spaces and their contexts; each window has exactly the MPI hints it is to have: the atomic operations the user names, no ordering, shared memory and collective attachment where meant, and the performance preference of its space. Accesses to a space use a window with that space's preference. Memory of a kind the build does not have is refused.", "quantifier": "all builds, all option values, all valid histories of spaces with any kinds, hints and numbers of contexts", "why_tests_cant": "Hints do not change results, only speed, so no result of a program shows a wrong or missing one; wrong allocators show only on machines with devices.", "anchors": ["src/internal/setup_impl.c:40-140", "src/internal/setup_impl.c:222-275", "src/internal/space_impl.c:17-24", "src/internal/space_impl.c:70-149", "src/internal/space_impl.c:166-249", "src/internal/space_impl.c:276-359"]}
{"id": "C110", "title": "Size-suffixed routines are what their names say", "statement": "The library defines and declares exactly the size-suffixed routines of OpenSHMEM (get, iget, put, iput and the nonblocking forms, and put with signal, each with and without context, for 8, 16, 32, 64 and 128 bits). Each passes on its context, addresses, strides, number of elements and PE in the right places, with an MPI datatype of that size, the index of such a datatype for active messages, and the size of an element.", "quantifier": "all 80 generated routines and their declarations, word by word", "why_tests_cant": "The routines are generated from templates and tables at build time; tests call few of the 80, and a wrong datatype index or size shows only on the active message path.", "anchors": ["src/shmem/rma_sized.c.tpl:1-90", "src/shmem/signal_sized.c.tpl:1-38", "include/shmem_rma_sized.h.tpl:1-21", "include/shmem_signal_sized.h.tpl:1-13", "maint/rma_sizedef.txt:1-6", "maint/signal_sizedef.txt:1-6", "maint/build_sized_api.pl:49-100"]}
{"id": "C111", "title": "The public header has every generated declaration at its place", "statement": "The header users include is its hand-written template, unchanged and in order, with the generated declarations of each of the 15 families of routines, complete and once, between the two comment lines that mark the family's place. Putting in one family never disturbs another, in whatever order they are put in.", "quantifier": "all templates and pieces whose keys are clear; the template and the 15 generated files of the library", "why_tests_cant": "The header is put together by a script when the library is built; a test program that compiles shows only that the routines it calls are declared.", "anchors": ["autogen.sh:21-27", "autogen.sh:110-199", "include/shmem.h.in.tpl:1-360"]}
