# Formal model of pmodels/oshmpi: design

## What this is

A machine-checked model, in Rocq (Coq 8.16.1), of the OSHMPI library (OpenSHMEM on
top of MPI). The source in /repo was read as text; it was never compiled or run.
Every theorem is about the model. The tie between model and code is the citation
(file and lines) carried by each definition.

## Layout

- `rocq/theories/Base.v`: outcomes (`Ok`, `Abort`, `UB`), fixed-width integers, `OSHMPI_ALIGN`.
- `rocq/theories/<Topic>Model.v`: executable model, definitions only, each citing /repo lines.
- `rocq/theories/<Topic>Spec.v`: small specification, independent of the model's helpers.
- `rocq/theories/<Topic>Proofs.v`: lemmas and invariants.
- `rocq/theories/Props_<Topic>.v`: the property theorems only, each closed by `exact`,
  followed by `Print Assumptions` and by an `Example` showing that its hypotheses are met.

Theorem names start with the property id. A suffix `_partial` marks a theorem that
covers part of a property. A suffix `_refuted` marks a counterexample found in the
faithful model: the property as stated is false of the code. For a refuted property
the strongest true part is proved beside it.

## Modelling conventions

- Failing `OSHMPI_ASSERT` is the outcome `Abort` (oshmpi_util.h:71-77). In the build with
  `OSHMPI_DISABLE_ERROR_CHECKING` the macro is empty (line 79); where that matters the model
  takes the build option as a boolean argument.
- C undefined behaviour (out-of-bounds access, signed overflow, division by zero, NULL
  dereference) is the distinct outcome `UB`.
- Unbounded integers are used where no property depends on overflow and the C type is
  wide enough under the stated hypotheses. Where overflow or truncation matters
  (`size_t` arithmetic, `int` counts, tags, handles) the wrap is explicit.
- MPI is external. It is modelled by the behaviour the MPI standard promises:
  windows address `base + disp`, collectives are the standard's functions of the
  contributions, point-to-point messages between two processes on one communicator are
  matched in order, accumulates on one location are atomic when the hint given to the
  window allows it. Each such assumption is a definition or a section variable, never an axiom.
- dlmalloc (src/internal/util/dlmalloc.c) is modelled by its chunk list with boundary tags. The choice among free
  chunks is an arbitrary policy, so the theorems hold for every choice dlmalloc could make; the Dl model then adds
  the choice itself.
- Threads: library state is accessed under critical sections (util/thread.h), so each
  critical section is one atomic step. Atomics of util are single steps.

## Properties: what is modelled and how it is proved

- **C01 Live space allocations never overlap and stay inside the space.** MemPool: executable model of the chunk table with first-fit scan; invariant (chunk table is the encoding of a set of disjoint live regions) by induction over the operation list.
- **C02 Space allocation is first-fit and fails only when no room exists.** MemPool: specification of a free run stated on the set of live blocks, proof that the while loop returns the least one.
- **C03 Freeing returns exactly the block; bad frees are detected.** MemPool: refinement of free to removal of one block from the abstract live set; error branch as Abort outcome.
- **C04 Symmetric allocation: same call history gives same offsets on every PE.** MemPool: simulation between two pools differing only in base.
- **C05 A zero-byte space allocation is harmless.** MemPool: out-of-bounds write is a UB outcome; refuted by a witness (last page in use), and the exact condition proved for all states.
- **C06 shmemx_space_align returns an aligned address.** MemPool: size part proved; alignment refuted by witness; partial: proved when the heap base is itself aligned and alignment divides the page size.
- **C07 shmemx_space_calloc returns count*size zeroed bytes.** MemPool: model of the API wrapper; refuted (count ignored, memset through NULL is UB); partial for count=1.
- **C08 Every block of the symmetric heap is a symmetric address.** Heap: dlmalloc as boundary-tag chunk list with any placement policy, over the memory the code gives it; refuted (whole-heap request, block behind the registered size, private memory when exhausted); partial for blocks that end below the registered size.
- **C09 No PE reuses a freed block while another PE may still access it.** Heap: interleaving semantics of per-PE step sequences with a barrier; invariant on barrier epochs.
- **C10 Aligned symmetric allocation keeps the heaps symmetric.** Heap: the chunk-list model, whose memalign looks at absolute addresses as dlmalloc's does; refuted for alignments larger than the page; partial for bases equal modulo every alignment used, in particular without shmem_align.
- **C11 Symmetric-object handles identify the object.** Sobj: N bit operations; round-trip and injectivity theorem; failure beyond 2^29 shown separately.
- **C12 Remote accesses hit the corresponding symmetric address on the target.** Sobj: world of PEs with bases and byte memories; MPI window access as the MPI standard's address formula; equality of the three address computations and frame theorem.
- **C13 Address classification is unambiguous.** Sobj: classification function versus membership relation.
- **C14 All PEs agree whether an object is at the same address everywhere.** Sobj: model of the allgather and comparison loop.
- **C15 Symmetric heap placement is agreed or rolled back on every PE.** SymmAlloc: oracle for mmap results; loop model; agreement and mapping-leak theorem by induction on attempts.
- **C16 Strided team split selects exactly start, start+stride, ....** Team: model of the checks and of MPI_Comm_split (sort by key); membership/rank theorem.
- **C17 PE translation between teams is exact.** Team: groups as lists of world ranks.
- **C18 2-D split partitions the parent into a grid.** Team: model and grid theorem.
- **C19 Invalid split arguments are reported, never mis-executed.** Team: UB outcome for modulo by zero and int overflow; refuted (stride 0, xrange 0, negative stride accepted, size<=0); partial for the checked conditions.
- **C20 SHMEM_TEAM_SHARED contains only PEs that share memory.** Team: node map; refuted with a two-node witness; partial for one node.
- **C21 shmem_team_sync synchronises every team.** Team/Coll: refuted for user teams (returns error without synchronising); partial for world.
- **C22 Caching of active-set communicators is invisible.** ActiveSet: per-PE cache lists over a global history; invariant relating each cache entry to the MPI group and agreement of members.
- **C23 Active-set broadcast copies the root's source.** Coll: refuted for start/stride other than identity; partial for active sets starting at 0 with stride 1.
- **C24 collect concatenates in PE order with per-PE lengths.** Coll: MPI allgather(v) specification; int32 truncation of counts modelled; theorem below 2^31; refutation beyond.
- **C25 fcollect, alltoall and strided alltoall move the right elements.** Coll+Strided: MPI typemaps for vector/resized types.
- **C26 Reductions combine every member's source once, also in place.** Coll: MPI_Allreduce specification with IN_PLACE.
- **C27 Active-set barrier completes the caller's outstanding updates.** Order: pending-operation model; refuted (active messages to PEs outside the set, windows of spaces); partial for heap/data windows and members.
- **C28 Strided put/get moves element i*sst to i*dst and nothing else.** Strided: typemaps; refinement to elementwise loop.
- **C29 Datatype caching is invisible.** Strided: cache invariant by induction over the history.
- **C30 Size-suffixed gets (shmem_get8..shmem_get128) transfer exactly nelems elements.** Strided/RmaAm: byte counts passed by the generated wrappers; refuted on the active-message path (bits used as bytes); direct path proved.
- **C31 Distributed lock: mutual exclusion.** Lock: interleaving transition system at the granularity of single MPI atomics; queue invariant.
- **C32 Distributed lock: FIFO hand-over.** Lock: history variable of enqueue order and grant order; grant order is a prefix of enqueue order.
- **C33 Distributed lock: no lost hand-over.** Lock: deadlock-freedom and a decreasing measure for waiting PEs along solo runs.
- **C34 shmem_test_lock never blocks and is exact.** Lock: per-step theorem plus frame.
- **C35 Locks work wherever the lock variable is placed.** Lock/Sobj: relative mode proved; refuted in absolute-displacement mode with different bases.
- **C36 Active-message data is matched with its own header.** AM: channel model with MPI non-overtaking matching; invariant over reachable states.
- **C37 Waiting for completion of active messages is sound.** AM: invariant linking per-PE dirty flag to in-flight messages.
- **C38 Message tags of concurrent operations never collide.** AM: counter model with int wrap; distinctness; abort at the bound; refutation when error checks are disabled.
- **C39 Active messages of one PE to one target take effect in issue order.** AM: applied sequence is a prefix of issued sequence per pair.
- **C40 Atomics are linearizable.** AMO: sequential semantics with fixed-width wrap, callbacks at target serialised by the critical section; refinement to a sequential log.
- **C41 shmem_finalize completes all outstanding communication.** AM: refuted: a schedule in which a posted atomic is never applied; partial: holds if every PE calls shmem_barrier_all/quiet before.
- **C42 shmem_ctx_quiet completes all operations of that context.** Order: refuted for operations that went by active message on an explicit context; partial for direct ones.
- **C43 shmem_quiet completes all operations of the default context; tracking never skips a needed flush.** Order: pending sets per window and tracking flags; invariant.
- **C44 shmem_barrier_all completes all prior communication of all PEs.** Order: refuted for spaces in the per-window build; partial for heap/data and for active messages.
- **C45 Manual progress only touches posted receives.** AM config: decision model over the finite configuration space; refuted or proved for each.
- **C46 AMO operation list option is parsed and printed faithfully.** Env: strings as byte lists, strncmp/strtok semantics; round trip; prefix matching behaviour characterised.
- **C47 Direct MPI atomics are only used when MPI guarantees their mutual atomicity.** Env: finite domain of 2^14 subsets; soundness; the internal lock's mixed operations checked against the same hint.
- **C48 Size strings are converted exactly.** Env: single-precision rounding on integers modelled; refuted by 16777217; partial up to 2^24.
- **C49 Thread level negotiation never over-promises.** Setup: decision model over levels.
- **C50 Heap size arithmetic.** Heap: OSHMPI_ALIGN on 64-bit words; sizes and capacity proved; wrap-around near 2^64 and the uncalled get_mspace_sz, which leaves no bookkeeping space, shown as examples.
- **C51 shmem_wait_until returns only, and eventually, when the condition holds.** P2P: loop over a stream of observed values.
- **C52 Invalid comparison operators are rejected.** P2P: refuted: the assertion is inverted; wait spins forever.
- **C53 A space context is owned by at most one creator.** Ctx: interleaving of CAS steps; ownership invariant.
- **C54 Attached spaces are identified consistently on all PEs.** Space: history model, invariant; failure after 2^29 attaches.
- **C55 Creating a space does not break shmem_quiet before it is attached.** Order/Space: NULL context list dereference is UB outcome; refuted; partial when all spaces are attached.
- **C56 Unsupported operations fail loudly.** Misc: outcome model of OSHMPI_ASSERT(0) under both build options; refuted in the fast build.
- **C57 Context creation fails cleanly.** Ctx: API model.
- **C58 shmem_addr_accessible and shmem_ptr agree with RMA.** Sobj: refuted for spaces; partial: soundness (1 implies RMA accepted).
- **C59 Every atomic the API offers is implemented on the active-message path.** AMO: finite tables; forallb lifted.
- **C60 Info strings are always terminated and bounded.** Misc: strncpy model.
- **C61 Memory returned by shmemx_space_calloc stays as other PEs wrote it.** SpaceCtx: interleaving of malloc, barrier, memset and a remote put; refuted by a schedule, shmem_calloc (memset before barrier) proved.
- **C62 Communication on a space that is not attached is rejected.** Sobj: refuted with dynamic windows (NULL offset table), proved for per-object windows and active messages.
- **C63 A space context only reaches its own space.** Sobj: proved on the direct path, refuted on the active-message path.
- **C64 Updates made in a critical section are complete when the lock is released.** Lock: transition system extended with pending puts; refuted (clear_lock flushes only the lock word), proved for programs that call shmem_quiet before releasing.
- **C65 Programs may use any number of remote operations.** AM: refuted: the tag counter is never reset; for every MPI_TAG_UB a sequential program of fetches is stopped at call ub-2002.
- **C66 shmem_fence orders operations.** Order: from the trace of a one-thread PE, by the invariant behind C43; a prefix argument on the trace.
- **C67 Strided transfers leak no datatypes.** Rma: handle table with freed handles kept; free of a predefined or freed handle is an error; invariant live handles = cached handles.
- **C68 Active-set communicators are freed in a consistent order.** Aset: the cache of a PE is a function of the part of the history it takes part in; restricted to common sets both lists are equal.
- **C69 Team broadcast copies the root's source to every member.** Coll: MPI_Bcast specification over the group of the team; the root copies locally.
- **C70 GPU features option decides how device buffers are moved.** Env: same parser as C46 with another table; decision function of the transfer.
- **C71 Reading the options leaves the environment of the process unchanged.** Env: strtok_r writes into the string returned by getenv; refuted for two or more names, unchanged otherwise.
- **C72 Automatic progress thread runs exactly when active messages are used.** Env: the default is computed before the hints; one direction provable, the other refuted.
- **C73 Initialisation and finalisation happen once.** P2p: state machine of flags, atexit handlers and the MPI state; proved for library-only programs; refuted for programs that own MPI.
- **C74 Ordering calls on an invalid context do nothing.** Ctx: API model; refuted, the NULL handle is dereferenced.
- **C75 shmem_realloc is safe against accesses of other PEs and works for every symmetric block.** Sched: interleavings with barriers; refuted, there is no barrier on entry. Heap: blocks of spaces are handed to the allocator of the heap.
- **C76 Blocks of the symmetric heap never overlap and keep their contents.** Heap: invariant over all histories of the chunk-list model of dlmalloc.
- **C77 Released symmetric heap memory can be used again.** Heap: full merging shown by the invariant that no two free chunks are neighbours; refuted for blocks behind the registered size, which shmem_free ignores.
- **C78 Active-message operations complete.** AmLive: an invariant says that whoever waits has a request, reply or handler in flight; a measure decreases with every effective step; fairness then gives termination. Without polling at the target the claim is refuted.
- **C79 Active messages and collective calls do not deadlock each other.** Prog: transition system of who waits for whom; invariant plus analysis of stuck states, bound on effective steps; refuted without polling for each blocking call.
- **C80 Data put before a fence are there when the flag put after it is seen.** Data: byte-by-byte transfers on top of the completion model of Order; invariants relating completed operations and memory; refuted for several threads with operation tracking.
- **C81 Data put before a barrier are there for everyone after it.** Data: from the completion guarantee of barriers (C27, C44) to contents of memory and results of gets.
- **C82 Atomics mapped on MPI are atomic operations of the routine called.** Dir: the MPI call of each routine with MPI's semantics of accumulate; equality with the packet handlers of Amo; transition system where pending operations are applied in any order, invariant on the log.
- **C83 Counters lose no update and tickets are distinct.** Dir: induction over the sequences of C40 and C82.
- **C84 Programs without races see one memory.** Race: invariant on the Data model relating memory, last writer and pending transfers of one byte.
- **C85 Critical sections that end with a quiet lose no update.** Crit: product of the Lock and Data models; mutual exclusion (C31) and completion of shmem_quiet (Order) give the hypothesis of C84. That quiet is needed is C64.
- **C86 The library releases what it acquires.** Res: ledger of acquired resources; the holdings are proved to be a function of the user-visible objects. False in dynamic builds: heap from malloc at one address is unmapped, and the critical section of the heap is never destroyed.
- **C87 Internal locks never deadlock.** Lk: each call is the list of its section entries/exits and message parts; a static order on sections and messages is checked for every call and handler, and gives progress by induction on the rank of what is waited for, and termination by a measure.
- **C88 Looking through the spaces while others change them.** Pub: calls broken up into single writes and reads; invariant by phase of each space. Searches proved safe always; quiet/fence proved safe while listed spaces are settled, refuted during create, attach and detach (the object is published before it is set up, and released while published).
- **C89 The progress thread is stopped cleanly.** Stop: state machine of the two threads; finite invariant, measure for termination, history of handled messages. Hanging excluded, handling proved; use after destruction refuted (pthread_cond_signal after pthread_mutex_unlock may meet the destroyed condition variable), proved to be the only such use, and absent when the finalizing thread destroys after the signal.
- **C90 The internal lists hold exactly what was put in.** Ul: heap of next fields, the macros as loops over pointers; refinement to plain lists by a list-segment invariant with induction on the list.
- **C91 Each typed routine works with the type in its name.** The text of all templates and tables is in GenData (copied line by line), the two Perl generators are functions on lines (GenModel). GenSpec holds a lexer and parser for the generated C, the tables of OpenSHMEM and MPI types (LP64), and what each routine must be as patterns. The general theorem about the generator is by induction over template lines seen as characters and placeholders; the theorem about the generated routines is by computation over all of them.
- **C92 Every typed routine uses an MPI operation that MPI defines for its datatype.** Same model as C91; the table of operations and classes of datatypes of the MPI standard is in GenSpec. The theorem says for which routines the pairs are defined: all but four, which are the witnesses of the refutation.
- **C93 Generic calls reach the routine of their argument's type.** Same model as C91; GenSpec parses the macros of the generated headers and gives C11 selection (6.5.1.1) with LP64 typedefs. Proved by computation over all routines plus a lemma that selection does not look beyond the deciding arguments; refuted for const.
- **C94 Requests are served from the best fitting free block.** Dl: small bins, trees, bit maps and designated victim as pure data structures beside the chunks of the Heap model. Invariant: trees are tries on the bits of the size, maps mark the non-empty bins, bins and victim hold the free chunks; correctness of the bit tricks and of the walk that looks for the least larger size, by induction on trees. Refuted beyond 2^40 bytes: the tree index is computed on 32 bits.
- **C95 The free lists of the allocator describe exactly the free memory of the symmetric heap.** Dl: refinement. Every step of the model with bins is a step of the Heap model under the placement that the bins chose, and keeps the agreement of bins and chunks.
- **C96 Device memory is only touched by operations that MPI supports on it.** Gpu: case analysis of the decision with the state of the Order model (spaces and contexts). Puts and gets are proved in builds that decide at run time; the other builds and calls are characterised exactly, with witnesses that the property fails for atomics and zeroed allocation.
- **C97 A buffer given to a call is not used by the library after the call is over.** Buf: invariant over all interleavings: an operation not completed locally belongs to a running call that still has to complete it, or to a nonblocking call with no quiet since.
- **C98 Concurrent accesses to one object go through one MPI window.** Win: on the states of Order. Windows are equal exactly if the contexts are equal, which gives the property for objects used in one context. Refuted for a wait on a flag set in a space context, and for atomics in two contexts of a space.
- **C99 Each environment variable has its documented effect, and no other.** Opt: initialize_env as a function of the environment. Two sentences of the documentation are false of the code: the default of the progress thread and OSHMPI_AMO_OPS=all (refuted).
- **C100 A call moves everything it was asked to move, or fails.** Big: on the models Rma and Coll, where counts are converted to int as in the code. A count from 2^31 to 2^32 - 1 becomes negative and is rejected by MPI. Refuted for larger counts, and for a get by active messages already for 2^30 + 1 elements of 4 bytes.
- **C101 Every routine the headers declare is in the library and passes its arguments on.** Hand: the text of the headers, of the routines and of the prototypes of the internal routines is data; the conditional parts are selected by a small preprocessor; parameters are matched by name and type with the prototype of the internal routine. Refuted for shmem_wait and shmem_wait_until: a C++ or C99 program sees them declared, and a library compiled for C11 does not have them.
- **C102 A team handle stands for its team for as long as it lives.** Tobj: one PE with the live team objects, MPI communicators and groups keyed by address and handle, where the choices of malloc and MPI are parameters of the calls; refinement to teams as values by an invariant (each object has communicator and group of its own, each handle has an object of its own). Refuted for a failing malloc: the return code of OSHMPI_team_create is ignored and NULL is written through.
- **C103 Level Zero memory is taken from a driver that has a GPU.** Ze: drivers as lists of devices, the globals of ze.c and a ledger of what is allocated; induction over the drivers and over the calls. Refuted: the context and the tables of the drivers passed over are never released, a driver without devices may end the start, without assertions the library starts with no context, GPUs of a second driver cannot be used.
- **C104 The library changes only the control variable of MPI it is meant to change.** Mpit: sessions, variables and handles of the tools interface, with a program that uses it too; invariant and a comparison with the values the program wrote. Refuted for a value the program wrote through the tools interface before the start: only the environment is asked.
- **C105 A build does what the options of configure say, and its locks exist when threads need them.** Cfg: configure as a function from texts of options to macros or an error, the #ifdef chains of the sources as functions of the macros. Proved for all texts, by induction over the words of --enable-fast. Also discharges the hypothesis about builds in C49. Refuted: none does not take back ipo; --enable-g works with --enable-fast=no but not with none; --with-thread-package=pthread, which the help names, is refused; an unknown word for --enable-op-tracking or after O is taken; printed options leave out --enable-ze and a missing optimisation flag.
- **C106 Critical sections are used only while their mutexes exist.** Cs: the lock model of C87 extended by the phases of each PE, the steps of initialisation and release in the order of the code, and the progress thread. Invariant: what remains to be entered is alive; headers exist only once every PE is past its initialisation; the progress thread uses only what is released after it has stopped. Refuted: with direct atomics and direct RMA and no progress thread polls enter a mutex nobody initialised; with a dynamic window the mutex of the heap is never destroyed.
- **C107 A request arrives on the target as the origin issued it.** Pkt: memory of bytes that may be undefined, C's layout rule for structures, the assignments of each issuing routine in order, the registration and index tables built line by line, each callback's reads. Generic lemmas on layout and on loads after stores, then each kind of request. The callbacks' reads are joined with their computations: from the call to the effect on memory, for any sequence of atomics, and for puts and gets, contiguous and strided. With the symmetric objects of Sobj: from the caller's address after any history of space calls to the bytes of the target. Refuted: contiguous transfers of 2 GiB and more, whose size becomes an int count.
- **C108 Waiting calls do the same with and without the progress thread.** Prw: each wrapper's parameter list, its blocking, nonblocking and test calls argument by argument, and the loop with an arbitrary sequence of test results. The specification knows MPI's calls by the role of each argument. By induction on the number of tests, and each wrapper.
- **C109 Windows get the hints asked for, and spaces their own kind of memory.** Info: MPI_Info as a map, the text of the operation list with snprintf's limit, allocators with the blocks they have given out (giving back any other is undefined), windows with the info they were created with. Induction over histories of an abstract list of spaces. In the build with one dynamic window, accesses on the default context ignore the preference: refuted.
- **C110 Size-suffixed routines are what their names say.** GenSized: the generator of GenModel run on the text of templates and tables; the C text is read by the parser of GenSpec and compared with what each routine must be. The size of an element is passed in bits instead of bytes (what follows from it is C30): refuted; all else proved by computing the whole generated text.
- **C111 The public header has every generated declaration at its place.** Asm: insert_file_by_key as a function on lines and its calls in order; induction over the calls, with the conditions on keys checked by computing the generated text of the library.

## Trusted base

- The Coq 8.16.1 kernel: its type checker, and `vm_compute` where a finite check is evaluated
  (vcheck re-checks everything with coqchk, which does not use the virtual machine).
- No axioms. `Print Assumptions` follows every theorem in the `Props_*.v` files. The table at the
  end of this file gives its output for each theorem. coqchk also lists seven parameters of the standard
  library's module `Coq.ssr.ssrunder.Under_rel` (`Under_rel`, `Under_rel_from_rel`, `Under_relE`,
  `Over_rel`, `over_rel`, `over_rel_done`, `under_rel_done`). They are loaded together with
  `lia`/`zify`. No theorem depends on them.
- The reading of /repo. Each definition cites the lines it stands for. Nothing checks the citation
  mechanically, except for C91 to C93, where the templates and tables of the generator are copied
  as text into `GenData.v`.
- The behaviour of MPI, POSIX threads, the operating system and the C compiler as
  described in the next section.

## Simplifications and assumptions, model by model

Heap (`HeapModel.v`, `MemPoolModel.v`, `SymmAllocModel.v`, `SchedModel.v`)
- dlmalloc is modelled as a list of chunks with boundary tags: splitting, coalescing, the minimum chunk
  size, alignment, footers, and the checks on free. Which free chunk is chosen (bins, trees, designated
  victim) is an arbitrary placement policy here; it is modelled in Dl. For C10 the policy is the same on all
  PEs; `C10_dlmalloc_partial` shows it of the code.
- `RTCHECK` and `USAGE_ERROR` failures are UB. The base address is 16-aligned. `sizeof(malloc_state)` is 936 (LP64). dlmalloc is
  built without its own locks.
- Contents of blocks obtained from mmap, and tag writes into words that are not payload, are not modelled. Blocks
  from outside the heap are assumed to lie outside every space.
- A barrier is an enter step and a leave step enabled when all PEs have entered. One thread per PE. Puts take effect
  when issued in the schedule model (completion by `barrier_all` is C44).

Bins of the heap (`DlModel.v`)
- The links of bins and trees are modelled by what they lead to: small bins and the chunks of one size are lists, trees are
  trees, parent links are places in the tree. A bin that disagrees with the chunks is UB.
- The tree index of a chunk is computed from its size where the code keeps it in the chunk; the size is kept with
  the node where the code has it in the head of the chunk. `RTCHECK` is not modelled.
- `compute_tree_index` and `compute_bit2idx` are those for gcc on x86-64 (`X` is an `unsigned int`).
- The model ends (`NoFuel`) when the system gives a second segment to a full heap. Directly mapped chunks are in
  no bin; their resizing keeps them outside the heap or moves them.
- `C94` and `C95` are proved for heaps of at most 2^40 bytes, `C10_dlmalloc_partial` for all.

Symmetric objects and RMA (`SobjModel.v`, `RmaModel.v`, `DataModel.v`)
- A transfer of a PE to itself reads its source completely before it writes.
- The match of MPI type signatures between origin and target is trusted.
- In the data model the bytes of one operation move in any order between its issue and its completion.
  Only plain reads and writes are covered there. Atomics are covered by the Amo and Dir models.

Order (`OrderModel.v`)
- Flushing `MPI_WIN_NULL` aborts. Dereferencing a NULL context list is UB. So are attaching an attached space,
  detaching a space that is not attached, and destroying an attached space.
- The flush of active messages is one step per target. Its inside is C37.
- `MPI_Win_sync` of local stores is not modelled.

Contexts (`CtxModel.v`)
- The compare-and-swap is atomic. A thread inside a call does nothing else. A NULL handle dereference is UB.

Collectives (`CollModel.v`, `AsetModel.v`)
- An MPI collective is a function of all memories before the call. Amounts sent and received must
  match exactly, otherwise the call is erroneous.
- `MPI_Allreduce` folds in rank order. Associativity and rounding of MPI operations are trusted.
- The counts gathered by collect are the low 32 bits (little endian).
- `MPI_Comm_create_group` and collectives may block as long as the MPI standard allows. One thread per PE.

Locks of the API (`LockModel.v`, `CritModel.v`)
- MPI atomics on the lock variable are atomic among each other although both compare-and-swap and replace are
  used on it.
- One calling thread per PE, inside one call at a time. A flush inside a lock routine completes only its own
  operation. Other completions may happen at any time.

Active messages (`AmModel.v`, `AmCfgModel.v`, `AmLiveSpec.v`, `ProgModel.v`)
- Messages between two PEs on one communicator are matched in order.
- Liveness (C78) assumes that threads and engines are scheduled fairly, that MPI delivers, and that a send may be
  delayed until it is received. Finalisation is excluded there.
- In the progress model (C79) handling a request and replying is one step, payloads are
  omitted, and `MPI_Comm_create_group`, `MPI_Comm_split` and `MPI_Win_create` synchronise.
- The final `MPI_Wait` of manual mode is modelled in Stop only.

Atomics (`AmoModel.v`, `DirModel.v`)
- MPI accumulates behave as the standard says, in any order (`accumulate_ordering` is none). Atomicity between different
  operations is assumed in Dir. Whether the hints given to MPI allow it is C47.
- Signed overflow is UB.

Point-to-point synchronisation (`P2pModel.v`)
- Values are integers. At most one active message is handled per poll.

Environment (`EnvModel.v`)
- `strtof` is modelled for unsigned decimal numerals. Others give `NoFuel`, which theorems exclude by
  statement.
- Products with powers of two are exact in double precision. Truncation by `snprintf` is UB.
- The rule "asynchronous progress implies thread level multiple" is configure.ac:464-483; C105_locks proves it of `CfgModel.v`.

Resources (`ResModel.v`)
- malloc and MPI calls succeed. Releasing something that is not held, or with the wrong kind of call, is UB.
- `MPI_Win_free` inside an epoch is erroneous. `munmap` of memory that is not from mmap is UB.

Threads inside the library (`LkModel.v`, `PubModel.v`, `StopModel.v`)
- Thread level MULTIPLE. Mutexes are not recursive. Critical sections are atomic in the other models.
- MPI calls that wait for no other thread of the program are always enabled.
- Pub: field writes and reads are in program order (no weak memory). One PE.
- Stop: POSIX mutexes and condition variables with spurious wake-ups. pthread calls succeed.
  `MPI_Send` of the terminate message to itself completes at once because its receive is posted.

Lists (`UlModel.v`)
- Only the `next` field of objects. malloc returns a fresh address. The number of objects is unbounded.

Device memory (`GpuModel.v`)
- A call is the list of (way of access, memory) pairs. Data, MPI collectives on device buffers are not modelled; the
  initialisation of Level Zero is in `ZeModel.v`. The runtime's answer to "what kind of pointer is this" is trusted.

Local buffers (`BufModel.v`)
- MPI may access a buffer at any time from the start of the operation until its local completion, not afterwards.
- A packet has its final content when the call starts. Quiet flushes every window; the flags that
  let it skip one are in `OrderModel.v` (C43). Windows are fixed. MPI collectives are not in this model.

Windows (`WinModel.v`)
- Windows are named by what they are created for; states and creation are those of `OrderModel.v`. A call is the list of
  windows it may use. Which calls overlap in time is left open: the theorem covers every pair.

Options (`OptModel.v`)
- The environment is a function from names to byte strings. `atoi` outside int is UB. `strtok_r` writing into the
  environment is in `EnvModel.v`. The printed text around values is not modelled.

Generated interface (`GenData.v`, `GenModel.v`)
- The Perl substitutions are plain substring substitutions. `code-cleanup.sh` and `insert_file_by_key` are not
  modelled. Sizes and typedefs are those of LP64 with glibc.
- The generated C is read by a small lexer and parser in `GenSpec.v`. Operation and type classes are those of MPI 3.1.

Routines written by hand (`HandData.v`, `HandModel.v`)
- `HandData.v` is the text of the files, copied by a script. The preprocessor knows the six conditions of these files. Macros
  are not expanded, except the three datatypes of the collectives. What the internal routines do is in the other models.

Team objects (`TobjModel.v`)
- One PE at a time. The other members of a team make the same collective call with the same arguments; MPI_Comm_split gets
  the colours they compute. malloc never returns the block 0x90000, which is the handle SHMEM_TEAM_WORLD. Pointers the
  program passes for results and configurations are valid or, for a configuration, NULL.

Level Zero (`ZeModel.v`)
- Level Zero calls fail only when they are given a wrong handle, or all of them when zeInit fails. Allocations of the host succeed,
  except that malloc(0) may return NULL. Numbers of drivers and devices fit in an int. Contents of device memory are not modelled.

Control variables of MPI (`MpitModel.v`)
- Control variables are ints. MPI either has a variable or not and accepts writes to it or not, for the whole run.

Options of configure (`CfgModel.v`)
- The text of an option is one shell word without blanks and wildcards. What configure finds on the machine (OpenPA, pthreads, CUDA,
  Level Zero) is a parameter. Other checks of configure succeed. Warnings and other compiler flags are not kept.

Life of mutexes (`CsModel.v`)
- What calls do with critical sections is `LkModel.v`. Without the datatype cache a strided lookup enters nothing. A PE leaves a
  barrier only when all have entered it. The address of a new space is not that of a living one. Mutexes of spaces a program
  does not destroy stay. The order of finalisation across PEs is free after the barrier.

Packets (`PktModel.v`)
- LP64, little endian, all PEs run the same build. What a callback does with the location, the values and the datatype it has read is in
  the models of atomics, strided datatypes and symmetric objects; so is how handle and displacement are computed and translated. In the
  theorems of `PktModel.v`, `PktAmoModel.v` and `PktRmaModel.v` the assertion on the displacement is a precondition and the translation a
  parameter; `PktSymModel.v` joins them with `SobjModel.v`, where both are derived. MPI delivers the bytes of a packet unchanged.

Waiting calls (`PrwModel.v`)
- MPI's blocking calls and a nonblocking call followed by a successful test complete the same operation: this is MPI's semantics, stated in
  `PrwSpec.v` by the roles of the arguments. What a round of progress does is in the models of active messages.

Hints and memory of spaces (`InfoModel.v`)
- MPI keeps the info a window is created with as a map from keys to values. The allocators return addresses that are not in use and not
  NULL; histories are valid (numbers and memory fresh, attach and detach in turn, destroy when detached). One PE: all PEs do the same. Sizes,
  symmetric handles and the contexts' use flags are in the other models of spaces.

Size-suffixed routines (`GenSizedModel.v`)
- As for the typed routines: the templates and tables are copied word for word, the generated text is computed, indentation is left out.

Public header (`AsmModel.v`)
- awk as used by `insert_file_by_key`: every line is printed, and after a line that matches the key the rest of the file that is not yet read.
  The keys have no special characters, so matching is containment. The files of declarations are those of the generator models; that each
  was generated before it is put in is the order of autogen.sh, not modelled. The formatting of the result by
  maint/code-cleanup.sh and the version macros that configure fills in are left out.

## Which code is modelled

For each source file: the number of functions (and macros longer than two lines), the models that cite it, and the functions that no model cites.
An uncited function is not modelled.
For `src/shmem` the uncited functions are wrappers that only call the internal routine of the same name.

| file | functions | cited by | not modelled |
|---|---|---|---|
| src/internal/am_impl.c | 10 | AmCfgModel, AmLiveSpec, AmModel, CsModel, GenData, LkModel, OrderModel, P2pModel, PktModel, ResModel, StopModel | none |
| src/internal/am_impl.h | 3 | AmModel, BufModel, CsModel, LkModel, OrderModel, PktModel, ProgModel, ResModel | none |
| src/internal/am_pre.h | 0 | AmModel, AmoModel, GenData, PktModel |  |
| src/internal/am_progress_impl.h | 10 | BufModel, CsModel, ProgModel, PrwModel | none |
| src/internal/amo_am_impl.c | 11 | AmModel, AmoModel, GpuModel, LkModel, PktAmoModel, PktModel, PktSymModel | `OSHMPI_amo_am_finalize` |
| src/internal/amo_am_impl.h | 3 | AmModel, AmoModel, BufModel, GpuModel, LkModel, OrderModel, PktModel, PktSymModel, ProgModel | none |
| src/shmem/amo_bitws_typed.c.tpl | 0 | AmoModel, DirModel, EnvModel, GenData, PktAmoModel |  |
| maint/amo_bitws_typedef.txt | 0 | AmoModel, GenData, PktAmoModel |  |
| src/shmem/amo_ext_typed.c.tpl | 0 | AmoModel, DirModel, EnvModel, GenData, PktAmoModel |  |
| maint/amo_ext_typedef.txt | 0 | AmoModel, GenData, PktAmoModel |  |
| src/internal/amo_impl.h | 6 | BufModel, CsModel, DataModel, DirModel, EnvModel, GenSpec, GpuModel, LkModel, OrderModel, PktSymModel, WinModel | none |
| src/shmem/amo_std_typed.c.tpl | 0 | AmoModel, DirModel, EnvModel, GenData, PktAmoModel |  |
| maint/amo_std_typedef.txt | 0 | AmoModel, GenData, PktAmoModel |  |
| maint/build_sized_api.pl | 0 | GenModel, GenSizedModel |  |
| maint/build_typed_api.pl | 0 | GenModel |  |
| src/shmem/cache.c | 6 | HandData | none |
| src/shmem/coll.c | 8 | HandData, TeamModel | none |
| src/shmem/coll_activeset.c | 12 | HandData | none |
| src/internal/coll_activeset_impl.h | 12 | AsetModel, BufModel, CollModel, GenSpec, GpuModel, HandData, LkModel, OrderModel, ProgModel, ResModel, RmaModel, UlModel, WinModel | none |
| src/internal/coll_impl.c | 2 | CsModel, ResModel, UlModel | none |
| src/internal/coll_impl.h | 9 | CollModel, GenSpec, HandData, LkModel, OrderModel, ProgModel, ResModel, RmaModel, SchedModel, TeamModel | none |
| src/shmem/coll_typed.c.tpl | 0 | GenData |  |
| maint/coll_typedef.txt | 0 | GenData |  |
| src/internal/common.c | 4 | ResModel, SobjModel | `OSHMPI_sobj_symm_info_dbgprint` |
| configure.ac | 0 | CfgModel, CfgSpec, EnvSpec, GenSpec |  |
| src/shmem/context.c | 4 | CtxModel, HandData | none |
| src/internal/ctx_impl.c | 1 | CtxModel, HandData | none |
| src/internal/util/gpu/cuda.h | 1 | GpuModel | none |
| src/internal/util/dlmalloc.c | 113 | DlModel, HeapModel | all but the 21 functions behind the mspace interface that HeapModel cites |
| src/internal/util/gpu/fallback.c | 2 | none | `OSHMPIU_gpu_init`, `OSHMPIU_gpu_finalize` |
| src/shmem/lock.c | 3 | HandData | none |
| src/internal/lock_impl.h | 3 | BufModel, CritModel, EnvModel, GpuModel, HandData, LkModel, LockModel, WinModel | none |
| src/shmem/mem.c | 10 | DlModel, HandData, HeapModel, SchedModel | none |
| src/internal/mem_impl.c | 5 | DlModel, HandData, HeapModel, LkModel, MemPoolModel, ProgModel, PubModel, SchedModel, UlModel | none |
| src/internal/util/mem_pool.c | 4 | MemPoolModel, ResModel | none |
| src/shmem/order.c | 4 | CtxModel, HandData | none |
| src/internal/order_impl.h | 3 | BufModel, CfgModel, CtxModel, HandData, LkModel, OrderModel, PubModel | none |
| src/include/oshmpi_impl.h | 16 | AmCfgModel, BufModel, CfgModel, CsModel, DirModel, EnvModel, GenData, GpuModel, HandData, HeapModel, InfoModel, LkModel, MemPoolModel, OrderModel, PubModel, ResModel, SobjModel, TeamModel, TobjModel, UlModel, WinModel | `fetch_and_op`, `OSHMPI_SET_OUTSTANDING_OP (macro)` |
| src/include/oshmpi_util.h | 12 | Base, CfgModel, CtxModel, EnvModel, GpuModel, MemPoolModel | `OSHMPI_DBGMSG (macro)`, `OSHMPI_CALLPTHREAD (macro)`, `OSHMPI_CALLCUDA (macro)`, `OSHMPIU_malloc`, `OSHMPIU_free`, `OSHMPI_thread_level_str`, `OSHMPIU_single_thread_finc_int` |
| src/shmem/p2p.c | 7 | HandData, P2pModel | none |
| src/internal/p2p_impl.h | 3 | BufModel, EnvModel, GenSpec, GpuModel, HandData, LkModel, P2pModel, WinModel | none |
| src/shmem/p2p_typed.c.tpl | 0 | GenData, P2pModel |  |
| maint/p2p_typedef.txt | 0 | GenData |  |
| src/shmem/profile.c | 1 | HandData | none |
| src/shmem/reduce_bitws_aset_typed.c.tpl | 0 | GenData |  |
| maint/reduce_bitws_aset_typedef.txt | 0 | GenData |  |
| src/shmem/reduce_bitws_team_typed.c.tpl | 0 | GenData |  |
| maint/reduce_bitws_team_typedef.txt | 0 | GenData |  |
| src/shmem/reduce_minmax_aset_typed.c.tpl | 0 | GenData |  |
| maint/reduce_minmax_aset_typedef.txt | 0 | GenData |  |
| src/shmem/reduce_minmax_team_typed.c.tpl | 0 | GenData |  |
| maint/reduce_minmax_team_typedef.txt | 0 | GenData |  |
| src/shmem/reduce_sumprod_aset_typed.c.tpl | 0 | GenData |  |
| maint/reduce_sumprod_aset_typedef.txt | 0 | GenData |  |
| src/shmem/reduce_sumprod_team_typed.c.tpl | 0 | GenData |  |
| maint/reduce_sumprod_team_typedef.txt | 0 | GenData |  |
| src/shmem/rma.c | 8 | HandData | none |
| src/internal/rma_am_impl.c | 6 | AmModel, AmoModel, DataModel, GpuModel, LkModel, PktModel, PktRmaModel, PktSymModel, ResModel, RmaModel, SobjModel | `OSHMPI_rma_am_finalize` |
| src/internal/rma_am_impl.h | 4 | AmLiveSpec, AmModel, BufModel, GpuModel, LkModel, OrderModel, PktModel, PktRmaModel, PktSymModel, ProgModel, ResModel, RmaModel, SobjModel | none |
| src/internal/rma_impl.h | 10 | BufModel, CsModel, DataModel, DirModel, GenSpec, GpuModel, HandData, LkModel, LockModel, OrderModel, PktSymModel, ResModel, RmaModel, SobjModel, WinModel | none |
| src/shmem/rma_sized.c.tpl | 0 | GenData, RmaModel |  |
| maint/rma_sizedef.txt | 0 | GenData, GenSizedModel, RmaModel |  |
| src/shmem/rma_typed.c.tpl | 0 | GenData, RmaModel, SobjModel |  |
| maint/rma_typedef.txt | 0 | GenData |  |
| src/shmem/setup.c | 15 | EnvModel, HandData, P2pModel, SobjModel | none |
| src/internal/setup_impl.c | 21 | AmCfgModel, AmModel, CfgModel, CsModel, DirModel, DlModel, EnvModel, GpuModel, HandData, HeapModel, InfoModel, MpitModel, OptModel, OrderModel, P2pModel, ProgSpec, ResModel, SobjModel, TeamModel, TobjModel, UlModel, WinModel | none |
| include/shmem.h.in.tpl | 0 | CtxModel, EnvModel, GenSpec, HandData, HandModel, P2pModel, TeamModel, TobjModel |  |
| include/shmem_amo_bitws_typed.h.tpl | 0 | GenData |  |
| include/shmem_amo_ext_typed.h.tpl | 0 | GenData |  |
| include/shmem_amo_std_typed.h.tpl | 0 | GenData |  |
| include/shmem_coll_typed.h.tpl | 0 | GenData |  |
| include/shmem_p2p_typed.h.tpl | 0 | GenData |  |
| include/shmem_reduce_bitws_aset_typed.h.tpl | 0 | GenData |  |
| include/shmem_reduce_bitws_team_typed.h.tpl | 0 | GenData |  |
| include/shmem_reduce_minmax_aset_typed.h.tpl | 0 | GenData |  |
| include/shmem_reduce_minmax_team_typed.h.tpl | 0 | GenData |  |
| include/shmem_reduce_sumprod_aset_typed.h.tpl | 0 | GenData |  |
| include/shmem_reduce_sumprod_team_typed.h.tpl | 0 | GenData |  |
| include/shmem_rma_sized.h.tpl | 0 | GenSizedData |  |
| include/shmem_rma_typed.h.tpl | 0 | GenData |  |
| include/shmem_signal_sized.h.tpl | 0 | GenSizedData |  |
| include/shmem_signal_typed.h.tpl | 0 | GenData |  |
| src/shmem/signal.c | 5 | HandData, P2pModel | none |
| src/shmem/signal_sized.c.tpl | 0 | GenData, P2pModel |  |
| maint/signal_sizedef.txt | 0 | GenData, GenSizedModel |  |
| src/shmem/signal_typed.c.tpl | 0 | GenData, P2pModel |  |
| maint/signal_typedef.txt | 0 | GenData |  |
| src/shmemx/space.c | 8 | GpuModel, HandData, HandModel, MemPoolModel, SchedModel | none |
| src/internal/space_impl.c | 23 | CsModel, CtxModel, GpuModel, HandData, InfoModel, LkModel, MemPoolModel, OrderModel, ProgModel, PubModel, ResModel, SchedModel, SobjModel, UlModel, WinModel, ZeModel | none |
| src/internal/strided_impl.c | 4 | CsModel, ResModel, RmaModel, UlModel | `OSHMPI_strided_initialize`, `OSHMPI_strided_finalize` |
| src/internal/strided_impl.h | 8 | AmoModel, CfgModel, CsModel, LkModel, ResModel, RmaModel, UlModel | none |
| src/internal/util/symm_mem.c | 6 | ProgModel, ResModel, SobjModel, SymmAllocModel | none |
| src/shmem/team.c | 7 | HandData, ResModel, TeamModel, TobjModel | none |
| src/internal/team_impl.c | 3 | ProgModel, ResModel, TeamModel, TobjModel | none |
| src/internal/util/thread.h | 4 | CfgModel, CsModel | none |
| src/internal/util/utlist.h | 45 | UlModel | all but the 3 LL macros the library uses |
| src/internal/util/gpu/ze.c | 2 | ZeModel | none |
| src/internal/util/gpu/ze.h | 1 | GpuModel, ZeModel | none |

Also not modelled: the CUDA back end, Fortran, the build system beyond the options of configure, debug printing, performance, real time,
and hardware memory ordering below `MPI_Win_sync`.

## Output of Print Assumptions

| theorem | output |
|---|---|
| `C01_space_blocks_disjoint` | Closed under the global context |
| `C01_space_created` | Closed under the global context |
| `C01_space_heap_size` | Closed under the global context |
| `C01_space_history_safe` | Closed under the global context |
| `C02_space_malloc_first_fit_partial` | Closed under the global context |
| `C02_space_malloc_huge_refuted` | Closed under the global context |
| `C03_space_bad_free_detected` | Closed under the global context |
| `C03_space_destroy_leak_check` | Closed under the global context |
| `C03_space_free_releases` | Closed under the global context |
| `C04_space_allocation_symmetric` | Closed under the global context |
| `C05_space_malloc_zero_partial` | Closed under the global context |
| `C05_space_malloc_zero_refuted` | Closed under the global context |
| `C06_space_align_partial` | Closed under the global context |
| `C06_space_align_refuted` | Closed under the global context |
| `C07_space_calloc_null_refuted` | Closed under the global context |
| `C07_space_calloc_one_partial` | Closed under the global context |
| `C07_space_calloc_short_refuted` | Closed under the global context |
| `C08_full_size_refuted` | Closed under the global context |
| `C08_outside_refuted` | Closed under the global context |
| `C08_symmetric_partial` | Closed under the global context |
| `C08_tail_refuted` | Closed under the global context |
| `C09_access` | Closed under the global context |
| `C09_free` | Closed under the global context |
| `C09_malloc` | Closed under the global context |
| `C09_no_deadlock` | Closed under the global context |
| `C10_align_refuted` | Closed under the global context |
| `C10_dlmalloc_partial` | Closed under the global context |
| `C10_no_align_partial` | Closed under the global context |
| `C10_symmetric_partial` | Closed under the global context |
| `C11_handle_injective` | Closed under the global context |
| `C11_handle_roundtrip` | Closed under the global context |
| `C12_history_refines` | Closed under the global context |
| `C13_classification` | Closed under the global context |
| `C14_symmetry_agreed` | Closed under the global context |
| `C15_symm_alloc_agreed` | Closed under the global context |
| `C15_symm_alloc_progress` | Closed under the global context |
| `C15_symm_free_restores` | Closed under the global context |
| `C16_strided_members` | Closed under the global context |
| `C17_bad_pe_refuted` | Closed under the global context |
| `C17_invalid_team` | Closed under the global context |
| `C17_query` | Closed under the global context |
| `C17_translate_exact_partial` | Closed under the global context |
| `C18_grid` | Closed under the global context |
| `C19_bad_args_refuted` | Closed under the global context |
| `C19_errors_partial` | Closed under the global context |
| `C20_one_node_partial` | Closed under the global context |
| `C20_two_nodes_refuted` | Closed under the global context |
| `C21_user_team_refuted` | Closed under the global context |
| `C21_world_partial` | Closed under the global context |
| `C22_agree` | Closed under the global context |
| `C22_all_calls` | Closed under the global context |
| `C22_distinct` | Closed under the global context |
| `C22_no_deadlock` | Closed under the global context |
| `C22_outside` | Closed under the global context |
| `C22_right_pes` | Closed under the global context |
| `C23_broadcast_partial` | Closed under the global context |
| `C23_broadcast_refuted` | Closed under the global context |
| `C23_wrong` | Closed under the global context |
| `C24_collect` | Closed under the global context |
| `C24_collect_team` | Closed under the global context |
| `C25_alltoall` | Closed under the global context |
| `C25_alltoall_team` | Closed under the global context |
| `C25_alltoalls` | Closed under the global context |
| `C25_alltoalls_team` | Closed under the global context |
| `C25_fcollect` | Closed under the global context |
| `C25_fcollect_team` | Closed under the global context |
| `C26_allreduce` | Closed under the global context |
| `C26_allreduce_team` | Closed under the global context |
| `C27_barrier_am_refuted` | Closed under the global context |
| `C27_barrier_partial` | Closed under the global context |
| `C28_iget_partial` | Closed under the global context |
| `C28_iput_partial` | Closed under the global context |
| `C28_large_refuted` | Closed under the global context |
| `C29_cache_invisible` | Closed under the global context |
| `C30_get_am_all_fail` | Closed under the global context |
| `C30_get_am_refuted` | Closed under the global context |
| `C30_get_direct_partial` | Closed under the global context |
| `C30_put` | Closed under the global context |
| `C30_typed_get` | Closed under the global context |
| `C31_exclusion` | Closed under the global context |
| `C31_trace` | Closed under the global context |
| `C32_fifo` | Closed under the global context |
| `C33_bounded_wait` | Closed under the global context |
| `C33_free_again` | Closed under the global context |
| `C34_test_exact` | Closed under the global context |
| `C34_test_held` | Closed under the global context |
| `C35_lock_words_partial` | Closed under the global context |
| `C35_lock_words_refuted` | Closed under the global context |
| `C36_get` | Closed under the global context |
| `C36_iget` | Closed under the global context |
| `C36_iput` | Closed under the global context |
| `C36_matching` | Closed under the global context |
| `C36_put` | Closed under the global context |
| `C37_flush_one_thread_partial` | Closed under the global context |
| `C37_flush_threads_refuted` | Closed under the global context |
| `C38_tags` | Closed under the global context |
| `C38_tags_unchecked_refuted` | Closed under the global context |
| `C39_call_order` | Closed under the global context |
| `C39_issue_order` | Closed under the global context |
| `C39_thread_order` | Closed under the global context |
| `C40_operation` | Closed under the global context |
| `C40_real_time` | Closed under the global context |
| `C40_sequential` | Closed under the global context |
| `C41_finalize_after_quiet_partial` | Closed under the global context |
| `C41_finalize_refuted` | Closed under the global context |
| `C42_ctx_quiet_am_refuted` | Closed under the global context |
| `C42_ctx_quiet_direct_partial` | Closed under the global context |
| `C43_quiet_one_thread_partial` | Closed under the global context |
| `C43_tracking_threads_refuted` | Closed under the global context |
| `C43_untracked_threads_partial` | Closed under the global context |
| `C44_barrier_all_partial` | Closed under the global context |
| `C44_barrier_all_space_refuted` | Closed under the global context |
| `C45_progress_partial` | Closed under the global context |
| `C45_progress_refuted` | Closed under the global context |
| `C46_every_string` | Closed under the global context |
| `C46_listed` | Closed under the global context |
| `C46_round_trip` | Closed under the global context |
| `C46_special` | Closed under the global context |
| `C47_direct_sound_partial` | Closed under the global context |
| `C47_forced_direct_refuted` | Closed under the global context |
| `C47_lock_refuted` | Closed under the global context |
| `C47_wait_refuted` | Closed under the global context |
| `C47_which_complete` | Closed under the global context |
| `C48_error_partial` | Closed under the global context |
| `C48_exact_partial` | Closed under the global context |
| `C48_exact_refuted` | Closed under the global context |
| `C48_fraction_partial` | Closed under the global context |
| `C49_aborts` | Closed under the global context |
| `C49_again` | Closed under the global context |
| `C49_level` | Closed under the global context |
| `C50_capacity` | Closed under the global context |
| `C50_sizes` | Closed under the global context |
| `C51_test` | Closed under the global context |
| `C51_test_progress` | Closed under the global context |
| `C51_wait_changed` | Closed under the global context |
| `C51_wait_progress` | Closed under the global context |
| `C51_wait_returns` | Closed under the global context |
| `C51_wait_sound` | Closed under the global context |
| `C52_never_rejected_refuted` | Closed under the global context |
| `C52_rejected_refuted` | Closed under the global context |
| `C53_alone` | Closed under the global context |
| `C53_detach` | Closed under the global context |
| `C53_exclusive` | Closed under the global context |
| `C53_no_ctx` | Closed under the global context |
| `C53_wait_free` | Closed under the global context |
| `C54_handles_agree` | Closed under the global context |
| `C55_quiet_created_refuted` | Closed under the global context |
| `C55_quiet_detached_refuted` | Closed under the global context |
| `C55_quiet_returns_partial` | Closed under the global context |
| `C55_quiet_untracked_refuted` | Closed under the global context |
| `C56_checked_partial` | Closed under the global context |
| `C56_fast_refuted` | Closed under the global context |
| `C57_create` | Closed under the global context |
| `C57_invalid` | Closed under the global context |
| `C57_unchanged` | Closed under the global context |
| `C58_accessible_partial` | Closed under the global context |
| `C58_accessible_space_refuted` | Closed under the global context |
| `C58_pe_accessible` | Closed under the global context |
| `C58_ptr` | Closed under the global context |
| `C59_no_abort` | Closed under the global context |
| `C60_name` | Closed under the global context |
| `C61_calloc_partial` | Closed under the global context |
| `C61_calloc_zero_partial` | Closed under the global context |
| `C61_space_calloc_refuted` | Closed under the global context |
| `C62_unattached_dynamic_refuted` | Closed under the global context |
| `C62_unattached_rejected_partial` | Closed under the global context |
| `C63_ctx_bounds_am_refuted` | Closed under the global context |
| `C63_ctx_bounds_partial` | Closed under the global context |
| `C64_quiet_visible_partial` | Closed under the global context |
| `C64_release_refuted` | Closed under the global context |
| `C65_any_number_refuted` | Closed under the global context |
| `C66_fence_orders_partial` | Closed under the global context |
| `C66_threads_refuted` | Closed under the global context |
| `C66_untracked_threads_partial` | Closed under the global context |
| `C67_no_leak` | Closed under the global context |
| `C68_free_order` | Closed under the global context |
| `C69_team_broadcast` | Closed under the global context |
| `C70_gpu_features` | Closed under the global context |
| `C70_round_trip` | Closed under the global context |
| `C70_special` | Closed under the global context |
| `C71_environment_partial` | Closed under the global context |
| `C71_environment_refuted` | Closed under the global context |
| `C72_choice` | Closed under the global context |
| `C72_progress_thread_partial` | Closed under the global context |
| `C72_progress_thread_refuted` | Closed under the global context |
| `C73_life_cycle_partial` | Closed under the global context |
| `C73_user_mpi_refuted` | Closed under the global context |
| `C74_invalid_quiet_refuted` | Closed under the global context |
| `C75_contents_partial` | Closed under the global context |
| `C75_realloc_entry_refuted` | Closed under the global context |
| `C75_realloc_return_partial` | Closed under the global context |
| `C75_space_block_refuted` | Closed under the global context |
| `C76_align` | Closed under the global context |
| `C76_calloc` | Closed under the global context |
| `C76_disjoint` | Closed under the global context |
| `C76_frame` | Closed under the global context |
| `C76_inside` | Closed under the global context |
| `C76_no_ub` | Closed under the global context |
| `C77_released_partial` | Closed under the global context |
| `C77_reuse_partial` | Closed under the global context |
| `C77_tail_refuted` | Closed under the global context |
| `C78_bounded` | Closed under the global context |
| `C78_completes` | Closed under the global context |
| `C78_no_polling_refuted` | Closed under the global context |
| `C78_polled_partial` | Closed under the global context |
| `C78_returns` | Closed under the global context |
| `C79_async` | Closed under the global context |
| `C79_blocking_refuted` | Closed under the global context |
| `C79_bounded` | Closed under the global context |
| `C79_calls_partial` | Closed under the global context |
| `C79_manual_partial` | Closed under the global context |
| `C80_get` | Closed under the global context |
| `C80_message_partial` | Closed under the global context |
| `C80_threads_refuted` | Closed under the global context |
| `C81_barrier_data` | Closed under the global context |
| `C81_get_after_barrier` | Closed under the global context |
| `C82_later` | Closed under the global context |
| `C82_operation` | Closed under the global context |
| `C82_quiet` | Closed under the global context |
| `C82_same_as_am` | Closed under the global context |
| `C82_sequential` | Closed under the global context |
| `C83_counter_am` | Closed under the global context |
| `C83_counter_direct` | Closed under the global context |
| `C83_tickets` | Closed under the global context |
| `C84_race_free` | Closed under the global context |
| `C85_critical_section` | Closed under the global context |
| `C85_no_lost_update` | Closed under the global context |
| `C86_clean` | Closed under the global context |
| `C86_cs_refuted` | Closed under the global context |
| `C86_finalize_partial` | Closed under the global context |
| `C86_held` | Closed under the global context |
| `C86_no_growth` | Closed under the global context |
| `C86_unmap_refuted` | Closed under the global context |
| `C87_finish` | Closed under the global context |
| `C87_no_deadlock` | Closed under the global context |
| `C87_sections` | Closed under the global context |
| `C88_attach_refuted` | Closed under the global context |
| `C88_create_refuted` | Closed under the global context |
| `C88_detach_refuted` | Closed under the global context |
| `C88_lookup` | Closed under the global context |
| `C88_quiet_partial` | Closed under the global context |
| `C89_ends` | Closed under the global context |
| `C89_handled` | Closed under the global context |
| `C89_no_thread_partial` | Closed under the global context |
| `C89_no_thread_refuted` | Closed under the global context |
| `C89_only_signal` | Closed under the global context |
| `C89_safe_partial` | Closed under the global context |
| `C89_signal_refuted` | Closed under the global context |
| `C90_finalize` | Closed under the global context |
| `C90_first_match` | Closed under the global context |
| `C90_no_fault` | Closed under the global context |
| `C90_walk` | Closed under the global context |
| `C91_generator` | Closed under the global context |
| `C91_indices` | Closed under the global context |
| `C91_routines` | Closed under the global context |
| `C92_char_refuted` | Closed under the global context |
| `C92_defined_partial` | Closed under the global context |
| `C93_const` | Closed under the global context |
| `C93_const_refuted` | Closed under the global context |
| `C93_reaches_partial` | Closed under the global context |
| `C94_huge_refuted` | Closed under the global context |
| `C94_null_partial` | Closed under the global context |
| `C94_placed_partial` | Closed under the global context |
| `C95_defined` | Closed under the global context |
| `C95_filed` | Closed under the global context |
| `C95_refines` | Closed under the global context |
| `C96_am_partial` | Closed under the global context |
| `C96_amo_am_refuted` | Closed under the global context |
| `C96_amo_partial` | Closed under the global context |
| `C96_amo_refuted` | Closed under the global context |
| `C96_calloc_refuted` | Closed under the global context |
| `C96_direct_partial` | Closed under the global context |
| `C96_host` | Closed under the global context |
| `C96_other_partial` | Closed under the global context |
| `C96_rma_partial` | Closed under the global context |
| `C96_rma_refuted` | Closed under the global context |
| `C96_space` | Closed under the global context |
| `C97_dest` | Closed under the global context |
| `C97_kept` | Closed under the global context |
| `C97_source` | Closed under the global context |
| `C98_atomic_refuted` | Closed under the global context |
| `C98_exposed` | Closed under the global context |
| `C98_same_partial` | Closed under the global context |
| `C98_wait_refuted` | Closed under the global context |
| `C99_accepted` | Closed under the global context |
| `C99_all_refuted` | Closed under the global context |
| `C99_async` | Closed under the global context |
| `C99_default_partial` | Closed under the global context |
| `C99_mode` | Closed under the global context |
| `C99_own` | Closed under the global context |
| `C99_prints` | Closed under the global context |
| `C99_shown_modes` | Closed under the global context |
| `C99_switch` | Closed under the global context |
| `C99_thread_refuted` | Closed under the global context |
| `C100_accepted` | Closed under the global context |
| `C100_allreduce_partial` | Closed under the global context |
| `C100_alltoall_partial` | Closed under the global context |
| `C100_broadcast_partial` | Closed under the global context |
| `C100_fcollect_partial` | Closed under the global context |
| `C100_fcollect_refuted` | Closed under the global context |
| `C100_get_partial` | Closed under the global context |
| `C100_get_refuted` | Closed under the global context |
| `C100_put_partial` | Closed under the global context |
| `C100_put_refuted` | Closed under the global context |
| `C101_all` | Closed under the global context |
| `C101_declared` | Closed under the global context |
| `C101_linked_partial` | Closed under the global context |
| `C101_mixed_partial` | Closed under the global context |
| `C101_passes` | Closed under the global context |
| `C101_wait_refuted` | Closed under the global context |
| `C102_answers_partial` | Closed under the global context |
| `C102_no_memory_refuted` | Closed under the global context |
| `C102_others` | Closed under the global context |
| `C103_absent` | Closed under the global context |
| `C103_empty_refuted` | Closed under the global context |
| `C103_fast_refuted` | Closed under the global context |
| `C103_left_partial` | Closed under the global context |
| `C103_left_refuted` | Closed under the global context |
| `C103_other_device` | Closed under the global context |
| `C103_second_driver_refuted` | Closed under the global context |
| `C103_start_partial` | Closed under the global context |
| `C104_others_partial` | Closed under the global context |
| `C104_sessions` | Closed under the global context |
| `C104_set` | Closed under the global context |
| `C104_written_refuted` | Closed under the global context |
| `C105_accepts_partial` | Closed under the global context |
| `C105_choices` | Closed under the global context |
| `C105_debug_refuted` | Closed under the global context |
| `C105_fast_partial` | Closed under the global context |
| `C105_locks` | Closed under the global context |
| `C105_multiple_locked` | Closed under the global context |
| `C105_none_refuted` | Closed under the global context |
| `C105_package_refuted` | Closed under the global context |
| `C105_printed` | Closed under the global context |
| `C105_repeat_partial` | Closed under the global context |
| `C105_repeat_refuted` | Closed under the global context |
| `C105_unknown_refuted` | Closed under the global context |
| `C105_ze_refuted` | Closed under the global context |
| `C106_alive_partial` | Closed under the global context |
| `C106_direct_refuted` | Closed under the global context |
| `C106_heap_refuted` | Closed under the global context |
| `C106_never_wrong_partial` | Closed under the global context |
| `C106_released_partial` | Closed under the global context |
| `C106_spaces` | Closed under the global context |
| `C107_answer` | Closed under the global context |
| `C107_atomic` | Closed under the global context |
| `C107_atomics` | Closed under the global context |
| `C107_defined` | Closed under the global context |
| `C107_delivered_partial` | Closed under the global context |
| `C107_get_partial` | Closed under the global context |
| `C107_iget` | Closed under the global context |
| `C107_iput` | Closed under the global context |
| `C107_large_refuted` | Closed under the global context |
| `C107_layout` | Closed under the global context |
| `C107_numbers` | Closed under the global context |
| `C107_put_partial` | Closed under the global context |
| `C107_symmetric_atomic` | Closed under the global context |
| `C107_symmetric_get_partial` | Closed under the global context |
| `C107_symmetric_iget` | Closed under the global context |
| `C107_symmetric_iput` | Closed under the global context |
| `C107_symmetric_put_partial` | Closed under the global context |
| `C108_arguments` | Closed under the global context |
| `C108_not_early` | Closed under the global context |
| `C108_same` | Closed under the global context |
| `C109_context_hint` | Closed under the global context |
| `C109_default_hint_partial` | Closed under the global context |
| `C109_default_hint_refuted` | Closed under the global context |
| `C109_history` | Closed under the global context |
| `C109_short` | Closed under the global context |
| `C109_shown` | Closed under the global context |
| `C109_unbuilt` | Closed under the global context |
| `C110_size_refuted` | Closed under the global context |
| `C110_sized_partial` | Closed under the global context |
| `C110_strided` | Closed under the global context |
| `C111_assembled` | Closed under the global context |
| `C111_header` | Closed under the global context |
| `C111_places` | Closed under the global context |
