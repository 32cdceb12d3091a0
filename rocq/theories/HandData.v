(** The text of the routines written by hand (those that are not made from templates), of their declarations and of the
    prototypes of the internal routines they call, line by line. Lines that hold only a comment or nothing are kept. *)
From Coq Require Import String List.
Import ListNotations.
Local Open Scope string_scope.

(** include/shmem.h.in.tpl:1-360 *)
Definition hdr_shmem : list string := [
  "/* -*- Mode: C; c-basic-offset:4 ; -*- */";
  "/*";
  " * (C) 2018 by Argonne National Laboratory.";
  " *     See COPYRIGHT in top-level directory.";
  " */";
  "";
  "#ifndef OSHMPI_SHMEM_H";
  "#define OSHMPI_SHMEM_H";
  "";
  "#include <stdio.h>";
  "#include <stdlib.h>";
  "#include <stdint.h>";
  "#include <string.h>";
  "#include <stddef.h>";
  "#include <mpi.h>";
  "";
  "/* *INDENT-OFF* */";
  "#if defined(c_plusplus) || defined(__cplusplus)";
  "extern ""C"" {";
  "#endif";
  "/* *INDENT-ON* */";
  "";
  "#if defined(__STDC_VERSION__) && (__STDC_VERSION__ >= 201112L)";
  "#define OSHMPI_HAVE_C11 1";
  "#else";
  "#define OSHMPI_HAVE_C11 0";
  "#endif";
  "";
  "#if OSHMPI_HAVE_C11";
  "#define OSHMPI_C11_ARG0_HELPER(first, ...) first";
  "#define OSHMPI_C11_ARG0(...) OSHMPI_C11_ARG0_HELPER(__VA_ARGS__, extra)";
  "#define OSHMPI_C11_ARG1_HELPER(second, ...) second";
  "#define OSHMPI_C11_ARG1(first, ...) OSHMPI_C11_ARG1_HELPER(__VA_ARGS__, extra)";
  "#define OSHMPI_C11_CTX_VAL(ctx) (ctx)";
  "#define OSHMPI_C11_TEAM_VAL(team) (team)";
  "static inline void shmem_c11_type_ignore(void) {}";
  "#endif";
  "";
  "/* OSHMPI_VERSION is the version string. OSHMPI_NUMVERSION is the";
  " * numeric version that can be used in numeric comparisons.";
  " *";
  " * OSHMPI_VERSION uses the following format:";
  " * Version: [MAJ].[MIN].[REV][EXT][EXT_NUMBER]";
  " * Example: 1.0.7rc1 has";
  " *          MAJ = 1";
  " *          MIN = 0";
  " *          REV = 7";
  " *          EXT = rc";
  " *          EXT_NUMBER = 1";
  " *";
  " * OSHMPI_NUMVERSION will convert EXT to a format number:";
  " *          ALPHA (a) = 0";
  " *          BETA (b)  = 1";
  " *          RC (rc)   = 2";
  " *          PATCH (p) = 3";
  " * Regular releases are treated as patch 0";
  " *";
  " * Numeric version will have 1 digit for MAJ, 2 digits for MIN, 2";
  " * digits for REV, 1 digit for EXT and 2 digits for EXT_NUMBER. So,";
  " * 1.0.7rc1 will have the numeric version 10007201.";
  " */";
  "#define OSHMPI_VERSION ""@OSHMPI_VERSION@""";
  "#define OSHMPI_NUMVERSION @OSHMPI_NUMVERSION@";
  "#define OSHMPI_RELEASE_DATE ""@OSHMPI_RELEASE_DATE@""";
  "#define OSHMPI_BUILD_INFO ""@CONFIGURE_ARGS_CLEAN@""";
  "";
  "#define  SHMEM_MAJOR_VERSION 1";
  "#define _SHMEM_MAJOR_VERSION SHMEM_MAJOR_VERSION";
  "#define  SHMEM_MINOR_VERSION 4";
  "#define _SHMEM_MINOR_VERSION SHMEM_MINOR_VERSION";
  "#define  SHMEM_MAX_NAME_LEN  256";
  "#define _SHMEM_MAX_NAME_LEN  SHMEM_MAX_NAME_LEN";
  "#define  SHMEM_VENDOR_STRING ""OSHMPI""";
  "#define _SHMEM_VENDOR_STRING SHMEM_VENDOR_STRING";
  "";
  "/* Return code of SHMEM routine */";
  "#define SHMEM_SUCCESS 0";
  "#define SHMEM_NO_CTX -1";
  "#define SHMEM_OTHER_ERR -2";
  "";
  "#define SHMEM_THREAD_SINGLE MPI_THREAD_SINGLE";
  "#define SHMEM_THREAD_FUNNELED MPI_THREAD_FUNNELED";
  "#define SHMEM_THREAD_SERIALIZED MPI_THREAD_SERIALIZED";
  "#define SHMEM_THREAD_MULTIPLE MPI_THREAD_MULTIPLE";
  "";
  "/* Opaque Team type */";
  "typedef void* shmem_team_t;";
  "typedef struct {";
  "    int num_contexts;";
  "} shmem_team_config_t;";
  "#define SHMEM_TEAM_WORLD   ((shmem_team_t)0x90000)";
  "#define SHMEM_TEAM_SHARED  ((shmem_team_t)0x90001)";
  "#define SHMEM_TEAM_INVALID ((shmem_team_t)NULL)";
  "";
  "#define SHMEM_TEAM_NUM_CONTEXTS 0x091001L";
  "";
  "/* SHMEM malloc hints */";
  "#define SHMEM_MALLOC_ATOMICS_REMOTE 0x002001L";
  "#define SHMEM_MALLOC_SIGNAL_REMOTE 0x002002L";
  "";
  "/* Context option constants (long) and type */";
  "#define SHMEM_CTX_SERIALIZED 0x001001L";
  "#define SHMEM_CTX_PRIVATE 0x001002L";
  "#define SHMEM_CTX_NOSTORE 0x001003L";
  "";
  "typedef void* shmem_ctx_t;";
  "#define SHMEM_CTX_DEFAULT ((shmem_ctx_t)0x80000)";
  "#define SHMEM_CTX_INVALID ((shmem_ctx_t)NULL)";
  "";
  "/* Signaling Operations */";
  "#define SHMEM_SIGNAL_SET 0";
  "#define SHMEM_SIGNAL_ADD 1";
  "";
  "/* Collective constants */";
  "#define SHMEM_SYNC_VALUE 0L";
  "#define SHMEM_SYNC_SIZE 1";
  "#define SHMEM_BARRIER_SYNC_SIZE 1";
  "#define SHMEM_BCAST_SYNC_SIZE 1";
  "#define SHMEM_REDUCE_SYNC_SIZE 1";
  "#define SHMEM_COLLECT_SYNC_SIZE 1";
  "#define SHMEM_ALLTOALL_SYNC_SIZE 1";
  "#define SHMEM_ALLTOALLS_SYNC_SIZE 1";
  "#define SHMEM_REDUCE_MIN_WRKDATA_SIZE 1";
  "/* (deprecated constants) */";
  "#define _SHMEM_SYNC_VALUE SHMEM_SYNC_VALUE";
  "#define _SHMEM_BARRIER_SYNC_SIZE SHMEM_BARRIER_SYNC_SIZE";
  "#define _SHMEM_BCAST_SYNC_SIZE SHMEM_BCAST_SYNC_SIZE";
  "#define _SHMEM_REDUCE_SYNC_SIZE SHMEM_REDUCE_SYNC_SIZE";
  "#define _SHMEM_COLLECT_SYNC_SIZE SHMEM_COLLECT_SYNC_SIZE";
  "#define _SHMEM_REDUCE_MIN_WRKDATA_SIZE SHMEM_REDUCE_MIN_WRKDATA_SIZE";
  "";
  "/* Point-to-Point comparison constants */";
  "#define SHMEM_CMP_EQ 0x100001";
  "#define SHMEM_CMP_NE 0x100002";
  "#define SHMEM_CMP_GT 0x100003";
  "#define SHMEM_CMP_GE 0x100004";
  "#define SHMEM_CMP_LT 0x100005";
  "#define SHMEM_CMP_LE 0x100006";
  "/* (deprecated constants) */";
  "#define _SHMEM_CMP_EQ SHMEM_CMP_EQ";
  "#define _SHMEM_CMP_NE SHMEM_CMP_NE";
  "#define _SHMEM_CMP_GT SHMEM_CMP_GT";
  "#define _SHMEM_CMP_GE SHMEM_CMP_GE";
  "#define _SHMEM_CMP_LT SHMEM_CMP_LT";
  "#define _SHMEM_CMP_LE SHMEM_CMP_LE";
  "";
  "/* -- Library Setup, Exit, and Query Routines -- */";
  "void shmem_init(void);";
  "int shmem_my_pe(void);";
  "int shmem_n_pes(void);";
  "void shmem_finalize(void);";
  "void shmem_global_exit(int status);";
  "int shmem_pe_accessible(int pe);";
  "int shmem_addr_accessible(const void *addr, int pe);";
  "void *shmem_ptr(const void *dest, int pe);";
  "void shmem_info_get_version(int *major, int *minor);";
  "void shmem_info_get_name(char *name);";
  "/* (deprecated APIs) */";
  "void start_pes(int npes);";
  "int _my_pe(void);";
  "int _num_pes(void);";
  "";
  "#if OSHMPI_HAVE_C11";
  "_Noreturn void shmem_global_exit(int status);";
  "#endif";
  "";
  "/* -- Thread Support -- */";
  "int shmem_init_thread(int requested, int *provided);";
  "void shmem_query_thread(int *provided);";
  "";
  "/* -- Memory Management -- */";
  "void *shmem_malloc(size_t size);";
  "void shmem_free(void *ptr);";
  "void *shmem_realloc(void *ptr, size_t size);";
  "void *shmem_align(size_t alignment, size_t size);";
  "void *shmem_malloc_with_hints(size_t size, long hints);";
  "void *shmem_calloc(size_t count, size_t size);";
  "/* (deprecated APIs) */";
  "void *shmalloc(size_t size);";
  "void shfree(void *ptr);";
  "void *shrealloc(void *ptr, size_t size);";
  "void *shmemalign(size_t alignment, size_t size);";
  "";
  "/* Team Management */";
  "int shmem_team_my_pe(shmem_team_t team);";
  "int shmem_team_n_pes(shmem_team_t team);";
  "int shmem_team_get_config(shmem_team_t team, long config_mask, shmem_team_config_t * config);";
  "int shmem_team_translate_pe(shmem_team_t src_team, int src_pe, shmem_team_t dest_team);";
  "int shmem_team_split_strided(shmem_team_t parent_team, int start, int stride, int size,";
  "                             const shmem_team_config_t *config, long config_mask,";
  "                             shmem_team_t * new_team);";
  "int shmem_team_split_2d(shmem_team_t parent_team, int xrange,";
  "                        const shmem_team_config_t * xaxis_config, long xaxis_mask,";
  "                        shmem_team_t * xaxis_team, const shmem_team_config_t * yaxis_config,";
  "                        long yaxis_mask, shmem_team_t *yaxis_team);";
  "void shmem_team_destroy(shmem_team_t team);";
  "";
  "/* -- Communication Management -- */";
  "int shmem_ctx_create(long options, shmem_ctx_t * ctx);";
  "int shmem_team_create_ctx(shmem_team_t team, long options, shmem_ctx_t * ctx);";
  "void shmem_ctx_destroy(shmem_ctx_t ctx);";
  "int shmem_ctx_get_team(shmem_ctx_t ctx, shmem_team_t * team);";
  "";
  "/* -- RMA and Atomics -- */";
  "void shmem_ctx_putmem(shmem_ctx_t ctx, void *dest, const void *source, size_t nelems, int pe);";
  "void shmem_putmem(void *dest, const void *source, size_t nelems, int pe);";
  "void shmem_ctx_getmem(shmem_ctx_t ctx, void *dest, const void *source, size_t nelems, int pe);";
  "void shmem_getmem(void *dest, const void *source, size_t nelems, int pe);";
  "void shmem_ctx_putmem_nbi(shmem_ctx_t ctx, void *dest, const void *source, size_t nelems, int pe);";
  "void shmem_putmem_nbi(void *dest, const void *source, size_t nelems, int pe);";
  "void shmem_ctx_getmem_nbi(shmem_ctx_t ctx, void *dest, const void *source, size_t nelems, int pe);";
  "void shmem_getmem_nbi(void *dest, const void *source, size_t nelems, int pe);";
  "";
  "/* SHMEM_RMA_TYPED_H start */";
  "/* SHMEM_RMA_TYPED_H end */";
  "";
  "/* SHMEM_RMA_SIZED_H start */";
  "/* SHMEM_RMA_SIZED_H end */";
  "";
  "/* SHMEM_AMO_STD_TYPED_H start */";
  "/* SHMEM_AMO_STD_TYPED_H end */";
  "";
  "/* SHMEM_AMO_EXT_TYPED_H start */";
  "/* SHMEM_AMO_EXT_TYPED_H end */";
  "";
  "/* SHMEM_AMO_BITWS_TYPED_H start */";
  "/* SHMEM_AMO_BITWS_TYPED_H end */";
  "";
  "/* -- Signaling Operations -- */";
  "void shmem_putmem_signal(void *dest, const void *source, size_t nelems, uint64_t *sig_addr,";
  "                         uint64_t signal, int sig_op, int pe);";
  "void shmem_ctx_putmem_signal(shmem_ctx_t ctx, void *dest, const void *source, size_t nelems,";
  "                             uint64_t *sig_addr, uint64_t signal, int sig_op, int pe);";
  "void shmem_putmem_signal_nbi(void *dest, const void *source, size_t nelems, uint64_t *sig_addr,";
  "                             uint64_t signal, int sig_op, int pe);";
  "void shmem_ctx_putmem_signal_nbi(shmem_ctx_t ctx, void *dest, const void *source, size_t nelems,";
  "                                 uint64_t *sig_addr, uint64_t signal, int sig_op, int pe);";
  "uint64_t shmem_signal_fetch(const uint64_t *sig_addr);";
  "";
  "/* SHMEM_SIGNAL_TYPED_H start */";
  "/* SHMEM_SIGNAL_TYPED_H end */";
  "";
  "/* SHMEM_SIGNAL_SIZED_H start */";
  "/* SHMEM_SIGNAL_SIZED_H end */";
  "";
  "/* -- Collectives -- */";
  "void shmem_barrier_all(void);";
  "int shmem_team_sync(shmem_team_t team);";
  "void shmem_sync_all(void);";
  "int shmem_broadcastmem(shmem_team_t team, void *dest, const void *source, size_t nelems,";
  "                       int PE_root);";
  "int shmem_collectmem(shmem_team_t team, void *dest, const void *source, size_t nelems);";
  "int shmem_fcollectmem(shmem_team_t team, void *dest, const void *source, size_t nelems);";
  "int shmem_alltoallmem(shmem_team_t team, void *dest, const void *source, size_t nelems);";
  "int shmem_alltoallsmem(shmem_team_t team, void *dest, const void *source, ptrdiff_t dst,";
  "                       ptrdiff_t sst, size_t nelems);";
  "";
  "/* (deprecated APIs) */";
  "void shmem_sync_aset(int PE_start, int logPE_stride, int PE_size, long *pSync);";
  "void shmem_barrier(int PE_start, int logPE_stride, int PE_size, long *pSync);";
  "void shmem_broadcast32(void *dest, const void *source, size_t nelems, int PE_root, int PE_start,";
  "                       int logPE_stride, int PE_size, long *pSync);";
  "void shmem_broadcast64(void *dest, const void *source, size_t nelems, int PE_root, int PE_start,";
  "                       int logPE_stride, int PE_size, long *pSync);";
  "void shmem_collect32(void *dest, const void *source, size_t nelems, int PE_start, int logPE_stride,";
  "                     int PE_size, long *pSync);";
  "void shmem_collect64(void *dest, const void *source, size_t nelems, int PE_start, int logPE_stride,";
  "                     int PE_size, long *pSync);";
  "void shmem_fcollect32(void *dest, const void *source, size_t nelems, int PE_start, int logPE_stride,";
  "                      int PE_size, long *pSync);";
  "void shmem_fcollect64(void *dest, const void *source, size_t nelems, int PE_start, int logPE_stride,";
  "                      int PE_size, long *pSync);";
  "void shmem_alltoall32(void *dest, const void *source, size_t nelems, int PE_start, int logPE_stride,";
  "                      int PE_size, long *pSync);";
  "void shmem_alltoall64(void *dest, const void *source, size_t nelems, int PE_start, int logPE_stride,";
  "                      int PE_size, long *pSync);";
  "void shmem_alltoalls32(void *dest, const void *source, ptrdiff_t dst, ptrdiff_t sst, size_t nelems,";
  "                       int PE_start, int logPE_stride, int PE_size, long *pSync);";
  "void shmem_alltoalls64(void *dest, const void *source, ptrdiff_t dst, ptrdiff_t sst, size_t nelems,";
  "                       int PE_start, int logPE_stride, int PE_size, long *pSync);";
  "";
  "/* *INDENT-OFF* */";
  "#if OSHMPI_HAVE_C11";
  "#define shmem_sync(...)  \";
  "    _Generic(OSHMPI_C11_TEAM_VAL(OSHMPI_C11_ARG0(__VA_ARGS__)), \";
  "        shmem_team_t: shmem_team_sync, \";
  "        int: shmem_sync_aset, \";
  "        default: shmem_c11_type_ignore     \";
  "    )(__VA_ARGS__)";
  "#else";
  "#define shmem_sync(...) shmem_sync_aset(__VA_ARGS__)";
  "#endif /* OSHMPI_HAVE_C11 */";
  "/* *INDENT-ON* */";
  "";
  "/* SHMEM_COLL_TYPED_H start */";
  "/* SHMEM_COLL_TYPED_H end */";
  "";
  "/* SHMEM_REDUCE_MINMAX_TEAM_TYPED_H start */";
  "/* SHMEM_REDUCE_MINMAX_TEAM_TYPED_H end */";
  "";
  "/* SHMEM_REDUCE_SUMPROD_TEAM_TYPED_H start */";
  "/* SHMEM_REDUCE_SUMPROD_TEAM_TYPED_H end */";
  "";
  "/* SHMEM_REDUCE_BITWS_TEAM_TYPED_H start */";
  "/* SHMEM_REDUCE_BITWS_TEAM_TYPED_H end */";
  "";
  "/* SHMEM_REDUCE_MINMAX_ASET_TYPED_H start */";
  "/* SHMEM_REDUCE_MINMAX_ASET_TYPED_H end */";
  "";
  "/* SHMEM_REDUCE_SUMPROD_ASET_TYPED_H start */";
  "/* SHMEM_REDUCE_SUMPROD_ASET_TYPED_H end */";
  "";
  "/* SHMEM_REDUCE_BITWS_ASET_TYPED_H start */";
  "/* SHMEM_REDUCE_BITWS_ASET_TYPED_H end */";
  "";
  "/* -- Point-To-Point Synchronization -- */";
  "/* SHMEM_P2P_TYPED_H start */";
  "/* SHMEM_P2P_TYPED_H end */";
  "";
  "/* (deprecated APIs) */";
  "#if (OSHMPI_HAVE_C11 == 0)";
  "void shmem_wait_until(long *ivar, int cmp, long cmp_value);";
  "void shmem_wait(long *ivar, long cmp_value);";
  "#endif";
  "void shmem_short_wait(short *ivar, short cmp_value);";
  "void shmem_int_wait(int *ivar, int cmp_value);";
  "void shmem_long_wait(long *ivar, long cmp_value);";
  "void shmem_longlong_wait(long long *ivar, long long cmp_value);";
  "uint64_t shmem_signal_wait_until(uint64_t *sig_addr, int cmp, uint64_t cmp_value);";
  "";
  "/* -- Memory Ordering -- */";
  "void shmem_fence(void);";
  "void shmem_ctx_fence(shmem_ctx_t ctx);";
  "void shmem_quiet(void);";
  "void shmem_ctx_quiet(shmem_ctx_t ctx);";
  "";
  "/* -- Distributed Locking -- */";
  "void shmem_clear_lock(long *lock);";
  "void shmem_set_lock(long *lock);";
  "int shmem_test_lock(long *lock);";
  "";
  "/* -- Profiling Interface -- */";
  "void shmem_pcontrol(int level, ...);";
  "";
  "/* -- Cache Management -- */";
  "/* (deprecated APIs) */";
  "void shmem_clear_cache_inv(void);";
  "void shmem_set_cache_inv(void);";
  "void shmem_clear_cache_line_inv(void *dest);";
  "void shmem_set_cache_line_inv(void *dest);";
  "void shmem_udcflush(void);";
  "void shmem_udcflush_line(void *dest);";
  "";
  "/* *INDENT-OFF* */";
  "#if defined(c_plusplus) || defined(__cplusplus)";
  "} /* extern ""C"" */";
  "#endif";
  "/* *INDENT-ON* */";
  "";
  "#endif /* OSHMPI_SHMEM_H */"
].

(** include/shmemx.h.in:1-48 *)
Definition hdr_shmemx : list string := [
  "/* -*- Mode: C; c-basic-offset:4 ; -*- */";
  "/*";
  " * (C) 2018 by Argonne National Laboratory.";
  " *     See COPYRIGHT in top-level directory.";
  " */";
  "";
  "#ifndef OSHMPI_SHMEMX_H";
  "#define OSHMPI_SHMEMX_H";
  "";
  "#include <shmem.h>";
  "";
  "typedef void *shmemx_space_t;";
  "/*";
  " * ZE device handles are struct pointers, while CUDA handles are integers. If";
  " * we need to use CUDA handles at some point, we need to define this in a way";
  " * that maintains a stable ABI. Mostly likely with a union type.";
  " */";
  "typedef void *shmemx_device_handle_t;";
  "";
  "typedef enum {";
  "    SHMEMX_MEM_HOST,";
  "    SHMEMX_MEM_CUDA,            /* valid only when compile with --enable-cuda */";
  "    SHMEMX_MEM_ZE               /* valid only when compile with --enable-ze */";
  "} shmemx_memkind_t;";
  "";
  "typedef enum {";
  "    SHMEMX_SPACE_LAT_PREFERRED = 1,";
  "    SHMEMX_SPACE_MR_PREFERRED = 2";
  "} shmemx_space_hint_t;";
  "";
  "typedef struct {";
  "    size_t sheap_size;";
  "    int num_contexts;";
  "    shmemx_memkind_t memkind;";
  "    shmemx_device_handle_t device_handle;";
  "    long hints;                 /* combination of options defined in shmemx_space_hint_t with a bitwise OR */";
  "} shmemx_space_config_t;";
  "";
  "void shmemx_space_create(shmemx_space_config_t space_config, shmemx_space_t * space);";
  "void shmemx_space_destroy(shmemx_space_t space);";
  "int shmemx_space_create_ctx(shmemx_space_t space, long options, shmem_ctx_t * ctx);";
  "void shmemx_space_attach(shmemx_space_t space);";
  "void shmemx_space_detach(shmemx_space_t space);";
  "void *shmemx_space_malloc(shmemx_space_t space, size_t size);";
  "void *shmemx_space_calloc(shmemx_space_t space, size_t count, size_t size);";
  "void *shmemx_space_align(shmemx_space_t space, size_t alignment, size_t size);";
  "";
  "#endif /* OSHMPI_SHMEMX_H */"
].

(** src/shmem/setup.c:6-130 *)
Definition c_setup : list string := [
  "";
  "#include <shmem.h>";
  "#include ""oshmpi_impl.h""";
  "";
  "void shmem_init(void)";
  "{";
  "    OSHMPI_NOINLINE_RECURSIVE()";
  "        OSHMPI_initialize_thread(OSHMPI_DEFAULT_THREAD_SAFETY, NULL);";
  "    if (OSHMPI_env.version && OSHMPI_global.team_world_my_pe == 0)";
  "        OSHMPI_PRINTF(""SHMEM library version:\n""";
  "                      ""    SHMEM_MAJOR_VERSION  %d\n""";
  "                      ""    SHMEM_MINOR_VERSION  %d\n""";
  "                      ""    OSHMPI_VERSION       %s\n\n"",";
  "                      SHMEM_MAJOR_VERSION, SHMEM_MINOR_VERSION, OSHMPI_VERSION);";
  "}";
  "";
  "int shmem_my_pe(void)";
  "{";
  "    return OSHMPI_global.team_world_my_pe;";
  "}";
  "";
  "int shmem_n_pes(void)";
  "{";
  "    return OSHMPI_global.team_world_n_pes;";
  "}";
  "";
  "void shmem_finalize(void)";
  "{";
  "    OSHMPI_NOINLINE_RECURSIVE()";
  "        OSHMPI_finalize();";
  "}";
  "";
  "void shmem_global_exit(int status)";
  "{";
  "    OSHMPI_global_exit(status);";
  "    while (1);  /* Mark non-stop to avoid a c11 warning about noreturn. */";
  "}";
  "";
  "int shmem_init_thread(int requested, int *provided)";
  "{";
  "    OSHMPI_NOINLINE_RECURSIVE()";
  "        OSHMPI_initialize_thread(requested, provided);";
  "";
  "    if (OSHMPI_env.version && OSHMPI_global.team_world_my_pe == 0)";
  "        OSHMPI_PRINTF(""SHMEM library version:\n""";
  "                      ""    SHMEM_MAJOR_VERSION  %d\n""";
  "                      ""    SHMEM_MINOR_VERSION  %d\n""";
  "                      ""    OSHMPI_VERSION       %s\n\n"",";
  "                      SHMEM_MAJOR_VERSION, SHMEM_MINOR_VERSION, OSHMPI_VERSION);";
  "";
  "    /* Returns 0 upon success; otherwise, it returns a non-zero value.";
  "     * For any MPI internal error we expect the default behavior is abort from MPI.";
  "     * Thus we check only the provided thread level here. */";
  "    return (requested <= *provided) ? SHMEM_SUCCESS : SHMEM_OTHER_ERR;";
  "}";
  "";
  "void shmem_query_thread(int *provided)";
  "{";
  "    *provided = OSHMPI_global.thread_level;";
  "}";
  "";
  "int shmem_pe_accessible(int pe)";
  "{";
  "    return (pe >= 0 && pe < OSHMPI_global.team_world_n_pes) ? 1 : 0;";
  "}";
  "";
  "int shmem_addr_accessible(const void *addr, int pe)";
  "{";
  "    return ((OSHMPI_sobj_check_range(addr, OSHMPI_global.symm_heap_attr) ||";
  "             OSHMPI_sobj_check_range(addr, OSHMPI_global.symm_data_attr)) &&";
  "            (pe >= 0 && pe < OSHMPI_global.team_world_n_pes)) ? 1 : 0;";
  "}";
  "";
  "void *shmem_ptr(const void *dest, int pe)";
  "{";
  "    /* Do not support load/store for other processes */";
  "    return (pe == OSHMPI_global.team_world_my_pe) ? (void *) dest : NULL;";
  "}";
  "";
  "void shmem_info_get_version(int *major, int *minor)";
  "{";
  "    *major = SHMEM_MAJOR_VERSION;";
  "    *minor = SHMEM_MINOR_VERSION;";
  "}";
  "";
  "void shmem_info_get_name(char *name)";
  "{";
  "    strncpy(name, SHMEM_VENDOR_STRING, SHMEM_MAX_NAME_LEN);";
  "    name[SHMEM_MAX_NAME_LEN - 1] = '\0';        /* Ensure string is null terminated */";
  "}";
  "";
  "";
  "/* (deprecated APIs) */";
  "";
  "void start_pes(int npes)";
  "{";
  "    /* Skip if already initialized */";
  "    if (OSHMPI_global.is_initialized)";
  "        return;";
  "";
  "    OSHMPI_initialize_thread(SHMEM_THREAD_SINGLE, NULL);";
  "";
  "    /* Mark as initialized by start_pes */";
  "    OSHMPI_global.is_start_pes_initialized = 1;";
  "";
  "    /* Register implicit finalization for programs started by start_pes. */";
  "    atexit(OSHMPI_implicit_finalize);";
  "";
  "    if (OSHMPI_env.version && OSHMPI_global.team_world_my_pe == 0)";
  "        OSHMPI_PRINTF(""SHMEM library version:\n""";
  "                      ""    SHMEM_MAJOR_VERSION  %d\n""";
  "                      ""    SHMEM_MINOR_VERSION  %d\n""";
  "                      ""    OSHMPI_VERSION       %s\n\n"",";
  "                      SHMEM_MAJOR_VERSION, SHMEM_MINOR_VERSION, OSHMPI_VERSION);";
  "}";
  "";
  "int _my_pe(void)";
  "{";
  "    return shmem_my_pe();";
  "}";
  "";
  "int _num_pes(void)";
  "{";
  "    return shmem_n_pes();";
  "}"
].

(** src/shmem/mem.c:6-88 *)
Definition c_mem : list string := [
  "";
  "#include <shmem.h>";
  "#include ""oshmpi_impl.h""";
  "";
  "void *shmem_malloc(size_t size)";
  "{";
  "    void *ptr = NULL;";
  "    OSHMPI_NOINLINE_RECURSIVE()";
  "        ptr = OSHMPI_malloc(size);";
  "    return ptr;";
  "}";
  "";
  "void shmem_free(void *ptr)";
  "{";
  "    OSHMPI_NOINLINE_RECURSIVE()";
  "        OSHMPI_free(ptr);";
  "}";
  "";
  "void *shmem_realloc(void *ptr, size_t size)";
  "{";
  "    void *ptrr = NULL;";
  "    OSHMPI_NOINLINE_RECURSIVE()";
  "        ptrr = OSHMPI_realloc(ptr, size);";
  "    return ptrr;";
  "}";
  "";
  "void *shmem_align(size_t alignment, size_t size)";
  "{";
  "    void *ptr = NULL;";
  "    OSHMPI_NOINLINE_RECURSIVE()";
  "        ptr = OSHMPI_align(alignment, size);";
  "    return ptr;";
  "}";
  "";
  "void *shmem_malloc_with_hints(size_t size, long hints)";
  "{";
  "    /* OpenSHMEM 1.5 Section 9.3.2:";
  "     * The information provided by the hints is used to optimize for performance by the implementation.";
  "     * If the implementation cannot optimize, the behavior is same as shmem_malloc. */";
  "    void *ptr = NULL;";
  "    OSHMPI_NOINLINE_RECURSIVE()";
  "        ptr = OSHMPI_malloc(size);";
  "    return ptr;";
  "}";
  "";
  "void *shmem_calloc(size_t count, size_t size)";
  "{";
  "    void *ptr = NULL;";
  "";
  "    /* OpenSHMEM 1.5 Section 9.3.3:";
  "     * When count or size is 0, the shmem_calloc routine returns without performing a barrier.";
  "     * Otherwise, this routine calls a procedure that is semantically equivalent to shmem_barrier_all on exit. */";
  "    if ((count == 0) || (size == 0)) {";
  "        return ptr;";
  "    }";
  "";
  "    OSHMPI_NOINLINE_RECURSIVE()";
  "        ptr = OSHMPI_calloc(count, size);";
  "";
  "    return ptr;";
  "}";
  "";
  "/* (deprecated APIs) */";
  "";
  "void *shmalloc(size_t size)";
  "{";
  "    return shmem_malloc(size);";
  "}";
  "";
  "void shfree(void *ptr)";
  "{";
  "    return shmem_free(ptr);";
  "}";
  "";
  "void *shrealloc(void *ptr, size_t size)";
  "{";
  "    return shmem_realloc(ptr, size);";
  "}";
  "";
  "void *shmemalign(size_t alignment, size_t size)";
  "{";
  "    return shmem_align(alignment, size);";
  "}"
].

(** src/shmem/context.c:6-47 *)
Definition c_context : list string := [
  "#include <shmem.h>";
  "#include ""oshmpi_impl.h""";
  "";
  "int shmem_ctx_create(long options, shmem_ctx_t * ctx)";
  "{";
  "    /* Return nonzero value if context cannot be created.";
  "     * We cannot support it in OSHMPI unless MPI exposes the communication";
  "     * resource management to users (e.g., endpoint).";
  "     *";
  "     * Spec v1.5 defines: an unsuccessful context creation call is not treated";
  "     * as an error and the OpenSHMEM library remains in a correct state. */";
  "    *ctx = SHMEM_CTX_INVALID;";
  "    return SHMEM_NO_CTX;";
  "}";
  "";
  "void shmem_ctx_destroy(shmem_ctx_t ctx)";
  "{";
  "    if (ctx == SHMEM_CTX_INVALID || ctx == SHMEM_CTX_DEFAULT) {";
  "        return;";
  "    }";
  "    OSHMPI_ctx_destroy((OSHMPI_ctx_t *) ctx);";
  "}";
  "";
  "int shmem_team_create_ctx(shmem_team_t team, long options, shmem_ctx_t * ctx)";
  "{";
  "    if (team == SHMEM_TEAM_INVALID) {";
  "        *ctx = SHMEM_CTX_INVALID;";
  "        return SHMEM_OTHER_ERR;";
  "    }";
  "    *ctx = SHMEM_CTX_INVALID;";
  "    return SHMEM_NO_CTX;";
  "}";
  "";
  "int shmem_ctx_get_team(shmem_ctx_t ctx, shmem_team_t * team)";
  "{";
  "    if (ctx == SHMEM_CTX_DEFAULT) {";
  "        *team = SHMEM_TEAM_WORLD;";
  "        return SHMEM_SUCCESS;";
  "    }";
  "    *team = SHMEM_TEAM_INVALID;";
  "    return SHMEM_OTHER_ERR;";
  "}"
].

(** src/shmem/team.c:6-222 *)
Definition c_team : list string := [
  "#include <shmem.h>";
  "#include ""oshmpi_impl.h""";
  "";
  "#include <stdbool.h>";
  "";
  "int shmem_team_my_pe(shmem_team_t team)";
  "{";
  "    OSHMPI_team_t *_team = NULL;";
  "";
  "    if (team == SHMEM_TEAM_INVALID) {";
  "        return -1;";
  "    }";
  "";
  "    if (team == SHMEM_TEAM_WORLD) {";
  "        return OSHMPI_global.team_world_my_pe;";
  "    } else if (team == SHMEM_TEAM_SHARED) {";
  "        return OSHMPI_global.team_shared_my_pe;";
  "    } else {";
  "        _team = OSHMPI_TEAM_HANDLE_TO_OBJ(team);";
  "        return _team->my_pe;";
  "    }";
  "}";
  "";
  "int shmem_team_n_pes(shmem_team_t team)";
  "{";
  "    OSHMPI_team_t *_team = NULL;";
  "";
  "    if (team == SHMEM_TEAM_INVALID) {";
  "        return -1;";
  "    }";
  "";
  "    if (team == SHMEM_TEAM_WORLD) {";
  "        return OSHMPI_global.team_world_n_pes;";
  "    } else if (team == SHMEM_TEAM_SHARED) {";
  "        return OSHMPI_global.team_shared_n_pes;";
  "    } else {";
  "        _team = OSHMPI_TEAM_HANDLE_TO_OBJ(team);";
  "        return _team->n_pes;";
  "    }";
  "}";
  "";
  "int shmem_team_get_config(shmem_team_t team, long config_mask, shmem_team_config_t * config)";
  "{";
  "    OSHMPI_team_t *_team = NULL;";
  "";
  "    if (team == SHMEM_TEAM_INVALID) {";
  "        return -1;";
  "    }";
  "";
  "    if (team == SHMEM_TEAM_WORLD) {";
  "        *config = OSHMPI_global.team_world->config;";
  "    } else if (team == SHMEM_TEAM_SHARED) {";
  "        *config = OSHMPI_global.team_shared->config;";
  "    } else {";
  "        _team = OSHMPI_TEAM_HANDLE_TO_OBJ(team);";
  "        *config = _team->config;";
  "    }";
  "";
  "    return SHMEM_SUCCESS;";
  "}";
  "";
  "int shmem_team_translate_pe(shmem_team_t src_team, int src_pe, shmem_team_t dest_team)";
  "{";
  "    OSHMPI_team_t *_src_team = NULL;";
  "    OSHMPI_team_t *_dest_team = NULL;";
  "    MPI_Group src_group, dest_group;";
  "    int dest_rank = 0;";
  "";
  "    if (src_team == SHMEM_TEAM_INVALID || dest_team == SHMEM_TEAM_INVALID) {";
  "        return -1;";
  "    }";
  "";
  "    if (src_team == SHMEM_TEAM_WORLD) {";
  "        src_group = OSHMPI_global.team_world_group;";
  "    } else if (src_team == SHMEM_TEAM_SHARED) {";
  "        src_group = OSHMPI_global.team_shared_group;";
  "    } else {";
  "        _src_team = OSHMPI_TEAM_HANDLE_TO_OBJ(src_team);";
  "        src_group = _src_team->group;";
  "    }";
  "    if (dest_team == SHMEM_TEAM_WORLD) {";
  "        dest_group = OSHMPI_global.team_world_group;";
  "    } else if (dest_team == SHMEM_TEAM_SHARED) {";
  "        dest_group = OSHMPI_global.team_shared_group;";
  "    } else {";
  "        _dest_team = OSHMPI_TEAM_HANDLE_TO_OBJ(dest_team);";
  "        dest_group = _dest_team->group;";
  "    }";
  "";
  "    OSHMPI_CALLMPI(MPI_Group_translate_ranks(src_group, 1, &src_pe, dest_group, &dest_rank));";
  "    if (dest_rank == MPI_UNDEFINED) {";
  "        dest_rank = -1;";
  "    }";
  "    return dest_rank;";
  "}";
  "";
  "int shmem_team_split_strided(shmem_team_t parent_team, int start, int stride, int size,";
  "                             const shmem_team_config_t * config, long config_mask,";
  "                             shmem_team_t * new_team)";
  "{";
  "    int rc = SHMEM_SUCCESS;";
  "    OSHMPI_team_t *_parent_team = NULL;";
  "    OSHMPI_team_t *_new_team = NULL;";
  "    bool rank_selected = false;";
  "";
  "    if (parent_team == SHMEM_TEAM_INVALID) {";
  "        goto fn_fail;";
  "    }";
  "";
  "    if (parent_team == SHMEM_TEAM_WORLD) {";
  "        _parent_team = OSHMPI_global.team_world;";
  "    } else if (parent_team == SHMEM_TEAM_SHARED) {";
  "        _parent_team = OSHMPI_global.team_shared;";
  "    } else {";
  "        _parent_team = OSHMPI_TEAM_HANDLE_TO_OBJ(parent_team);";
  "    }";
  "";
  "    /* sanity checks";
  "     * 1. valid start pe rank";
  "     * 2. valid end pe rank */";
  "    if (start < 0 || start >= _parent_team->n_pes) {";
  "        goto fn_fail;";
  "    }";
  "";
  "    int end_pe = start + stride * (size - 1);";
  "    if (end_pe < 0 || end_pe >= _parent_team->n_pes) {";
  "        goto fn_fail;";
  "    }";
  "";
  "    /* There are two criterias for a PE to be included in the split team";
  "     * 1. rank of the PE in parent team need to be between start and end (calculated using stride";
  "     * and size).";
  "     * 2. rank of the PE must be selected by the (start, stride, size). */";
  "    rank_selected = (_parent_team->my_pe >= start) && (_parent_team->my_pe <= end_pe)";
  "        && ((_parent_team->my_pe - start) % stride == 0);";
  "";
  "    OSHMPI_team_split(_parent_team, (rank_selected) ? 1 : MPI_UNDEFINED, &_new_team);";
  "";
  "    if (_new_team != NULL) {";
  "        /* handle config if there is config and config_mask != 0 */";
  "        if (config && config_mask != 0) {";
  "            _new_team->config = *config;";
  "        }";
  "    }";
  "    *new_team = OSHMPI_TEAM_OBJ_TO_HANDLE(_new_team);";
  "";
  "  fn_exit:";
  "    return rc;";
  "  fn_fail:";
  "    *new_team = SHMEM_TEAM_INVALID;";
  "    rc = SHMEM_OTHER_ERR;";
  "    goto fn_exit;";
  "}";
  "";
  "int shmem_team_split_2d(shmem_team_t parent_team, int xrange,";
  "                        const shmem_team_config_t * xaxis_config, long xaxis_mask,";
  "                        shmem_team_t * xaxis_team, const shmem_team_config_t * yaxis_config,";
  "                        long yaxis_mask, shmem_team_t * yaxis_team)";
  "{";
  "    int rc = SHMEM_SUCCESS;";
  "    OSHMPI_team_t *_parent_team = NULL;";
  "    OSHMPI_team_t *_new_x_team = NULL;";
  "    OSHMPI_team_t *_new_y_team = NULL;";
  "";
  "    if (parent_team == SHMEM_TEAM_INVALID) {";
  "        goto fn_fail;";
  "    }";
  "";
  "    if (parent_team == SHMEM_TEAM_WORLD) {";
  "        _parent_team = OSHMPI_global.team_world;";
  "    } else if (parent_team == SHMEM_TEAM_SHARED) {";
  "        _parent_team = OSHMPI_global.team_shared;";
  "    } else {";
  "        _parent_team = OSHMPI_TEAM_HANDLE_TO_OBJ(parent_team);";
  "    }";
  "";
  "    /* X, Y position is used for determine the color of the sub group:";
  "     * 1. PEs in the same X team should have the same Y position (same row)";
  "     * 2. PEs in the same Y team should have the same X position (same col) */";
  "    int x_pos = _parent_team->my_pe % xrange;";
  "    int y_pos = _parent_team->my_pe / xrange;";
  "";
  "    OSHMPI_team_split(_parent_team, y_pos, &_new_x_team);";
  "    OSHMPI_team_split(_parent_team, x_pos, &_new_y_team);";
  "";
  "    if (_new_x_team != NULL) {";
  "        if (xaxis_config && xaxis_mask != 0) {";
  "            _new_x_team->config = *xaxis_config;";
  "        }";
  "    }";
  "    if (_new_y_team != NULL) {";
  "        if (yaxis_config && yaxis_mask != 0) {";
  "            _new_y_team->config = *yaxis_config;";
  "        }";
  "    }";
  "";
  "    *xaxis_team = OSHMPI_TEAM_OBJ_TO_HANDLE(_new_x_team);";
  "    *yaxis_team = OSHMPI_TEAM_OBJ_TO_HANDLE(_new_y_team);";
  "";
  "  fn_exit:";
  "    return rc;";
  "  fn_fail:";
  "    *xaxis_team = SHMEM_TEAM_INVALID;";
  "    *yaxis_team = SHMEM_TEAM_INVALID;";
  "    rc = SHMEM_OTHER_ERR;";
  "    goto fn_exit;";
  "}";
  "";
  "void shmem_team_destroy(shmem_team_t team)";
  "{";
  "    OSHMPI_team_t *_team = NULL;";
  "    if (team == SHMEM_TEAM_INVALID || team == SHMEM_TEAM_WORLD || team == SHMEM_TEAM_SHARED) {";
  "        return;";
  "    }";
  "    _team = OSHMPI_TEAM_HANDLE_TO_OBJ(team);";
  "    OSHMPI_team_destroy(&_team);";
  "}"
].

(** src/shmem/rma.c:6-52 *)
Definition c_rma : list string := [
  "";
  "#include <shmem.h>";
  "#include ""oshmpi_impl.h""";
  "";
  "void shmem_ctx_putmem(shmem_ctx_t ctx, void *dest, const void *source, size_t nelems, int pe)";
  "{";
  "    OSHMPI_ctx_put(ctx, MPI_BYTE, 1, source, dest, nelems, pe);";
  "}";
  "";
  "void shmem_putmem(void *dest, const void *source, size_t nelems, int pe)";
  "{";
  "    OSHMPI_ctx_put(SHMEM_CTX_DEFAULT, MPI_BYTE, 1, source, dest, nelems, pe);";
  "}";
  "";
  "void shmem_ctx_getmem(shmem_ctx_t ctx, void *dest, const void *source, size_t nelems, int pe)";
  "{";
  "    OSHMPI_ctx_get(ctx, MPI_BYTE, 1, dest, source, nelems, pe);";
  "}";
  "";
  "void shmem_getmem(void *dest, const void *source, size_t nelems, int pe)";
  "{";
  "    OSHMPI_ctx_get(SHMEM_CTX_DEFAULT, MPI_BYTE, 1, dest, source, nelems, pe);";
  "}";
  "";
  "void shmem_ctx_putmem_nbi(shmem_ctx_t ctx, void *dest, const void *source, size_t nelems, int pe)";
  "{";
  "    OSHMPI_ctx_put_nbi(ctx, MPI_BYTE, 1, source /* origin_addr */ , dest /* target_addr */ , nelems,";
  "                       pe);";
  "}";
  "";
  "void shmem_putmem_nbi(void *dest, const void *source, size_t nelems, int pe)";
  "{";
  "    OSHMPI_ctx_put_nbi(SHMEM_CTX_DEFAULT, MPI_BYTE, 1, source /* origin_addr */ ,";
  "                       dest /* target_addr */ , nelems, pe);";
  "}";
  "";
  "void shmem_ctx_getmem_nbi(shmem_ctx_t ctx, void *dest, const void *source, size_t nelems, int pe)";
  "{";
  "    OSHMPI_ctx_get_nbi(ctx, MPI_BYTE, 1, dest /* origin_addr */ , source /* target_addr */ , nelems,";
  "                       pe);";
  "}";
  "";
  "void shmem_getmem_nbi(void *dest, const void *source, size_t nelems, int pe)";
  "{";
  "    OSHMPI_ctx_get_nbi(SHMEM_CTX_DEFAULT, MPI_BYTE, 1, dest /* origin_addr */ ,";
  "                       source /* target_addr */ , nelems, pe);";
  "}"
].

(** src/shmem/coll.c:6-68 *)
Definition c_coll : list string := [
  "#include <shmem.h>";
  "#include ""oshmpi_impl.h""";
  "";
  "void shmem_barrier_all(void)";
  "{";
  "    OSHMPI_barrier_all();";
  "}";
  "";
  "int shmem_team_sync(shmem_team_t team)";
  "{";
  "    if (team == SHMEM_TEAM_WORLD) {";
  "        OSHMPI_sync_all();";
  "        return SHMEM_SUCCESS;";
  "    }";
  "    return SHMEM_OTHER_ERR;";
  "}";
  "";
  "void shmem_sync_all(void)";
  "{";
  "    OSHMPI_sync_all();";
  "}";
  "";
  "int shmem_broadcastmem(shmem_team_t team, void *dest, const void *source, size_t nelems,";
  "                       int PE_root)";
  "{";
  "    OSHMPI_team_t *team_obj;";
  "    OSHMPI_TEAM_GET_OBJ(team, team_obj);";
  "    OSHMPI_broadcast_team(team_obj, dest, source, nelems, OSHMPI_MPI_COLL_BYTE_T, PE_root);";
  "    return SHMEM_SUCCESS;";
  "}";
  "";
  "int shmem_collectmem(shmem_team_t team, void *dest, const void *source, size_t nelems)";
  "{";
  "    OSHMPI_team_t *team_obj;";
  "    OSHMPI_TEAM_GET_OBJ(team, team_obj);";
  "    OSHMPI_collect_team(team_obj, dest, source, nelems, OSHMPI_MPI_COLL_BYTE_T);";
  "    return SHMEM_SUCCESS;";
  "}";
  "";
  "int shmem_fcollectmem(shmem_team_t team, void *dest, const void *source, size_t nelems)";
  "{";
  "    OSHMPI_team_t *team_obj;";
  "    OSHMPI_TEAM_GET_OBJ(team, team_obj);";
  "    OSHMPI_fcollect_team(team_obj, dest, source, nelems, OSHMPI_MPI_COLL_BYTE_T);";
  "    return SHMEM_SUCCESS;";
  "}";
  "";
  "int shmem_alltoallmem(shmem_team_t team, void *dest, const void *source, size_t nelems)";
  "{";
  "    OSHMPI_team_t *team_obj;";
  "    OSHMPI_TEAM_GET_OBJ(team, team_obj);";
  "    OSHMPI_alltoall_team(team_obj, dest, source, nelems, OSHMPI_MPI_COLL_BYTE_T);";
  "    return SHMEM_SUCCESS;";
  "}";
  "";
  "int shmem_alltoallsmem(shmem_team_t team, void *dest, const void *source, ptrdiff_t dst,";
  "                       ptrdiff_t sst, size_t nelems)";
  "{";
  "    OSHMPI_team_t *team_obj;";
  "    OSHMPI_TEAM_GET_OBJ(team, team_obj);";
  "    OSHMPI_alltoalls_team(team_obj, dest, source, dst, sst, nelems, OSHMPI_MPI_COLL_BYTE_T);";
  "    return SHMEM_SUCCESS;";
  "}"
].

(** src/shmem/coll_activeset.c:6-82 *)
Definition c_coll_activeset : list string := [
  "#include <shmem.h>";
  "#include ""oshmpi_impl.h""";
  "";
  "void shmem_barrier(int PE_start, int logPE_stride, int PE_size, long *pSync)";
  "{";
  "    OSHMPI_barrier(PE_start, logPE_stride, PE_size);";
  "}";
  "";
  "void shmem_sync_aset(int PE_start, int logPE_stride, int PE_size, long *pSync)";
  "{";
  "    /* Deprecated API */";
  "    OSHMPI_sync(PE_start, logPE_stride, PE_size);";
  "}";
  "";
  "void shmem_broadcast32(void *dest, const void *source, size_t nelems, int PE_root, int PE_start,";
  "                       int logPE_stride, int PE_size, long *pSync)";
  "{";
  "    OSHMPI_broadcast(dest, source, nelems, OSHMPI_MPI_COLL32_T, PE_root, PE_start, logPE_stride,";
  "                     PE_size);";
  "}";
  "";
  "void shmem_broadcast64(void *dest, const void *source, size_t nelems, int PE_root, int PE_start,";
  "                       int logPE_stride, int PE_size, long *pSync)";
  "{";
  "    OSHMPI_broadcast(dest, source, nelems, OSHMPI_MPI_COLL64_T, PE_root, PE_start, logPE_stride,";
  "                     PE_size);";
  "}";
  "";
  "void shmem_collect32(void *dest, const void *source, size_t nelems, int PE_start, int logPE_stride,";
  "                     int PE_size, long *pSync)";
  "{";
  "    OSHMPI_collect(dest, source, nelems, OSHMPI_MPI_COLL32_T, PE_start, logPE_stride, PE_size);";
  "}";
  "";
  "void shmem_collect64(void *dest, const void *source, size_t nelems, int PE_start, int logPE_stride,";
  "                     int PE_size, long *pSync)";
  "{";
  "    OSHMPI_collect(dest, source, nelems, OSHMPI_MPI_COLL64_T, PE_start, logPE_stride, PE_size);";
  "}";
  "";
  "void shmem_fcollect32(void *dest, const void *source, size_t nelems, int PE_start, int logPE_stride,";
  "                      int PE_size, long *pSync)";
  "{";
  "    OSHMPI_fcollect(dest, source, nelems, OSHMPI_MPI_COLL32_T, PE_start, logPE_stride, PE_size);";
  "}";
  "";
  "void shmem_fcollect64(void *dest, const void *source, size_t nelems, int PE_start, int logPE_stride,";
  "                      int PE_size, long *pSync)";
  "{";
  "    OSHMPI_fcollect(dest, source, nelems, OSHMPI_MPI_COLL64_T, PE_start, logPE_stride, PE_size);";
  "}";
  "";
  "void shmem_alltoall32(void *dest, const void *source, size_t nelems, int PE_start, int logPE_stride,";
  "                      int PE_size, long *pSync)";
  "{";
  "    OSHMPI_alltoall(dest, source, nelems, OSHMPI_MPI_COLL32_T, PE_start, logPE_stride, PE_size);";
  "}";
  "";
  "void shmem_alltoall64(void *dest, const void *source, size_t nelems, int PE_start, int logPE_stride,";
  "                      int PE_size, long *pSync)";
  "{";
  "    OSHMPI_alltoall(dest, source, nelems, OSHMPI_MPI_COLL64_T, PE_start, logPE_stride, PE_size);";
  "}";
  "";
  "void shmem_alltoalls32(void *dest, const void *source, ptrdiff_t dst, ptrdiff_t sst, size_t nelems,";
  "                       int PE_start, int logPE_stride, int PE_size, long *pSync)";
  "{";
  "    OSHMPI_alltoalls(dest, source, dst, sst, nelems, OSHMPI_MPI_COLL32_T, PE_start, logPE_stride,";
  "                     PE_size);";
  "}";
  "";
  "void shmem_alltoalls64(void *dest, const void *source, ptrdiff_t dst, ptrdiff_t sst, size_t nelems,";
  "                       int PE_start, int logPE_stride, int PE_size, long *pSync)";
  "{";
  "    OSHMPI_alltoalls(dest, source, dst, sst, nelems, OSHMPI_MPI_COLL64_T, PE_start, logPE_stride,";
  "                     PE_size);";
  "}"
].

(** src/shmem/p2p.c:6-55 *)
Definition c_p2p : list string := [
  "";
  "#include <shmem.h>";
  "#include ""oshmpi_impl.h""";
  "";
  "/* Deprecated APIs start */";
  "#if (OSHMPI_HAVE_C11 == 0)";
  "void shmem_wait_until(long *ivar, int cmp, long cmp_value)";
  "{";
  "    /* Does not return until ivar satisfies the condition implied by cmp and cmp_value. */";
  "    OSHMPI_WAIT_UNTIL(ivar, cmp, cmp_value, long, MPI_LONG);";
  "}";
  "";
  "void shmem_wait(long *ivar, long cmp_value)";
  "{";
  "    /* Return when ivar is no longer equal to cmp_value. */";
  "    OSHMPI_WAIT_UNTIL(ivar, SHMEM_CMP_NE, cmp_value, long, MPI_LONG);";
  "}";
  "#endif";
  "";
  "void shmem_short_wait(short *ivar, short cmp_value)";
  "{";
  "    /* Return when ivar is no longer equal to cmp_value. */";
  "    OSHMPI_WAIT_UNTIL(ivar, SHMEM_CMP_NE, cmp_value, short, MPI_SHORT);";
  "}";
  "";
  "void shmem_int_wait(int *ivar, int cmp_value)";
  "{";
  "    /* Return when ivar is no longer equal to cmp_value. */";
  "    OSHMPI_WAIT_UNTIL(ivar, SHMEM_CMP_NE, cmp_value, int, MPI_INT);";
  "}";
  "";
  "void shmem_long_wait(long *ivar, long cmp_value)";
  "{";
  "    /* Return when ivar is no longer equal to cmp_value. */";
  "    OSHMPI_WAIT_UNTIL(ivar, SHMEM_CMP_NE, cmp_value, long, MPI_LONG);";
  "}";
  "";
  "void shmem_longlong_wait(long long *ivar, long long cmp_value)";
  "{";
  "    /* Return when ivar is no longer equal to cmp_value. */";
  "    OSHMPI_WAIT_UNTIL(ivar, SHMEM_CMP_NE, cmp_value, long long, MPI_LONG_LONG);";
  "}";
  "";
  "uint64_t shmem_signal_wait_until(uint64_t * sig_addr, int cmp, uint64_t cmp_value)";
  "{";
  "    OSHMPI_ASSERT(0);";
  "    return SHMEM_OTHER_ERR;";
  "}";
  "";
  "/* Deprecated APIs end */"
].

(** src/shmem/order.c:6-27 *)
Definition c_order : list string := [
  "#include <shmem.h>";
  "#include ""oshmpi_impl.h""";
  "";
  "void shmem_fence(void)";
  "{";
  "    OSHMPI_ctx_fence(SHMEM_CTX_DEFAULT);";
  "}";
  "";
  "void shmem_ctx_fence(shmem_ctx_t ctx)";
  "{";
  "    OSHMPI_ctx_fence(ctx);";
  "}";
  "";
  "void shmem_quiet(void)";
  "{";
  "    OSHMPI_ctx_quiet(SHMEM_CTX_DEFAULT);";
  "}";
  "";
  "void shmem_ctx_quiet(shmem_ctx_t ctx)";
  "{";
  "    OSHMPI_ctx_quiet(ctx);";
  "}"
].

(** src/shmem/lock.c:6-23 *)
Definition c_lock : list string := [
  "";
  "#include <shmem.h>";
  "#include ""oshmpi_impl.h""";
  "";
  "void shmem_clear_lock(long *lock)";
  "{";
  "    OSHMPI_clear_lock(lock);";
  "}";
  "";
  "void shmem_set_lock(long *lock)";
  "{";
  "    OSHMPI_set_lock(lock);";
  "}";
  "";
  "int shmem_test_lock(long *lock)";
  "{";
  "    return OSHMPI_test_lock(lock);";
  "}"
].

(** src/shmem/cache.c:6-35 *)
Definition c_cache : list string := [
  "";
  "#include <shmem.h>";
  "";
  "/* Spec v1.4 section 9.12: They are not required to be supported by";
  " * implementing them as no-ops and where used, they may have no effect on";
  " * cache line states. */";
  "";
  "void shmem_clear_cache_inv(void)";
  "{";
  "}";
  "";
  "void shmem_set_cache_inv(void)";
  "{";
  "}";
  "";
  "void shmem_clear_cache_line_inv(void *dest)";
  "{";
  "}";
  "";
  "void shmem_set_cache_line_inv(void *dest)";
  "{";
  "}";
  "";
  "void shmem_udcflush(void)";
  "{";
  "}";
  "";
  "void shmem_udcflush_line(void *dest)";
  "{";
  "}"
].

(** src/shmem/profile.c:6-11 *)
Definition c_profile : list string := [
  "#include <shmem.h>";
  "#include ""oshmpi_impl.h""";
  "";
  "void shmem_pcontrol(int level, ...)";
  "{";
  "}"
].

(** src/shmem/signal.c:6-38 *)
Definition c_signal : list string := [
  "";
  "#include ""shmem.h""";
  "#include ""oshmpi_impl.h""";
  "";
  "void shmem_putmem_signal(void *dest, const void *source, size_t nelems, uint64_t * sig_addr,";
  "                         uint64_t signal, int sig_op, int pe)";
  "{";
  "    OSHMPI_ASSERT(0);";
  "}";
  "";
  "void shmem_ctx_putmem_signal(shmem_ctx_t ctx, void *dest, const void *source, size_t nelems,";
  "                             uint64_t * sig_addr, uint64_t signal, int sig_op, int pe)";
  "{";
  "    OSHMPI_ASSERT(0);";
  "}";
  "";
  "void shmem_putmem_signal_nbi(void *dest, const void *source, size_t nelems, uint64_t * sig_addr,";
  "                             uint64_t signal, int sig_op, int pe)";
  "{";
  "    OSHMPI_ASSERT(0);";
  "}";
  "";
  "void shmem_ctx_putmem_signal_nbi(shmem_ctx_t ctx, void *dest, const void *source, size_t nelems,";
  "                                 uint64_t * sig_addr, uint64_t signal, int sig_op, int pe)";
  "{";
  "    OSHMPI_ASSERT(0);";
  "}";
  "";
  "uint64_t shmem_signal_fetch(const uint64_t * sig_addr)";
  "{";
  "    OSHMPI_ASSERT(0);";
  "    return SHMEM_OTHER_ERR;";
  "}"
].

(** src/shmemx/space.c:6-64 *)
Definition c_space : list string := [
  "";
  "#include <shmem.h>";
  "#include <shmemx.h>";
  "#include ""oshmpi_impl.h""";
  "";
  "void shmemx_space_create(shmemx_space_config_t space_config, shmemx_space_t * space)";
  "{";
  "    OSHMPI_NOINLINE_RECURSIVE()";
  "        OSHMPI_space_create(space_config, (OSHMPI_space_t **) space);";
  "}";
  "";
  "void shmemx_space_destroy(shmemx_space_t space)";
  "{";
  "    OSHMPI_NOINLINE_RECURSIVE()";
  "        OSHMPI_space_destroy(space);";
  "}";
  "";
  "int shmemx_space_create_ctx(shmemx_space_t space, long options, shmem_ctx_t * ctx)";
  "{";
  "    OSHMPI_NOINLINE_RECURSIVE()";
  "        return OSHMPI_space_create_ctx((OSHMPI_space_t *) space, options, (OSHMPI_ctx_t **) ctx);";
  "}";
  "";
  "void shmemx_space_attach(shmemx_space_t space)";
  "{";
  "    OSHMPI_NOINLINE_RECURSIVE()";
  "        OSHMPI_space_attach((OSHMPI_space_t *) space);";
  "}";
  "";
  "void shmemx_space_detach(shmemx_space_t space)";
  "{";
  "    OSHMPI_NOINLINE_RECURSIVE()";
  "        OSHMPI_space_detach((OSHMPI_space_t *) space);";
  "}";
  "";
  "void *shmemx_space_malloc(shmemx_space_t space, size_t size)";
  "{";
  "    void *ptr = NULL;";
  "    OSHMPI_NOINLINE_RECURSIVE()";
  "        ptr = OSHMPI_space_malloc((OSHMPI_space_t *) space, size);";
  "    return ptr;";
  "}";
  "";
  "void *shmemx_space_calloc(shmemx_space_t space, size_t count, size_t size)";
  "{";
  "    void *ptr = NULL;";
  "    OSHMPI_NOINLINE_RECURSIVE()";
  "        ptr = OSHMPI_space_malloc((OSHMPI_space_t *) space, size);";
  "    memset(ptr, 0, size);";
  "    return ptr;";
  "}";
  "";
  "void *shmemx_space_align(shmemx_space_t space, size_t alignment, size_t size)";
  "{";
  "    void *ptr = NULL;";
  "    OSHMPI_NOINLINE_RECURSIVE()";
  "        ptr = OSHMPI_space_align((OSHMPI_space_t *) space, alignment, size);";
  "    return ptr;";
  "}"
].

(** src/internal/rma_impl.h:107-110, 128-131, 175-178, 197-200 *)
Definition p_rma : list (list string) := [
  ["OSHMPI_STATIC_INLINE_PREFIX void OSHMPI_ctx_put_nbi(shmem_ctx_t ctx,"; "                                                    MPI_Datatype mpi_type, size_t typesz,"; "                                                    const void *origin_addr, void *target_addr,"; "                                                    size_t nelems, int pe)"];
  ["OSHMPI_STATIC_INLINE_PREFIX void OSHMPI_ctx_put(shmem_ctx_t ctx,"; "                                                MPI_Datatype mpi_type, size_t typesz,"; "                                                const void *origin_addr, void *target_addr,"; "                                                size_t nelems, int pe)"];
  ["OSHMPI_STATIC_INLINE_PREFIX void OSHMPI_ctx_get_nbi(shmem_ctx_t ctx,"; "                                                    MPI_Datatype mpi_type, size_t typesz,"; "                                                    void *origin_addr, const void *target_addr,"; "                                                    size_t nelems, int pe)"];
  ["OSHMPI_STATIC_INLINE_PREFIX void OSHMPI_ctx_get(shmem_ctx_t ctx,"; "                                                MPI_Datatype mpi_type, size_t typesz,"; "                                                void *origin_addr, const void *target_addr,"; "                                                size_t nelems, int pe)"]
].

(** src/internal/coll_impl.h:12, 34, 51-53, 70-72, 106-108, 113-115, 120-123 *)
Definition p_coll : list (list string) := [
  ["OSHMPI_STATIC_INLINE_PREFIX void OSHMPI_barrier_all(void)"];
  ["OSHMPI_STATIC_INLINE_PREFIX void OSHMPI_sync_all(void)"];
  ["OSHMPI_STATIC_INLINE_PREFIX void OSHMPI_broadcast_team(OSHMPI_team_t * team, void *dest,"; "                                                       const void *source, size_t nelems,"; "                                                       MPI_Datatype mpi_type, int PE_root)"];
  ["OSHMPI_STATIC_INLINE_PREFIX void OSHMPI_collect_team(OSHMPI_team_t * team, void *dest,"; "                                                     const void *source, size_t nelems,"; "                                                     MPI_Datatype mpi_type)"];
  ["OSHMPI_STATIC_INLINE_PREFIX void OSHMPI_fcollect_team(OSHMPI_team_t * team, void *dest,"; "                                                      const void *source, size_t nelems,"; "                                                      MPI_Datatype mpi_type)"];
  ["OSHMPI_STATIC_INLINE_PREFIX void OSHMPI_alltoall_team(OSHMPI_team_t * team, void *dest,"; "                                                      const void *source, size_t nelems,"; "                                                      MPI_Datatype mpi_type)"];
  ["OSHMPI_STATIC_INLINE_PREFIX void OSHMPI_alltoalls_team(OSHMPI_team_t * team, void *dest,"; "                                                       const void *source, ptrdiff_t dst,"; "                                                       ptrdiff_t sst, size_t nelems,"; "                                                       MPI_Datatype mpi_type)"]
].

(** src/internal/coll_activeset_impl.h:118, 145, 177-179, 210-212, 246-248, 257-259, 268-271 *)
Definition p_aset : list (list string) := [
  ["OSHMPI_STATIC_INLINE_PREFIX void OSHMPI_barrier(int PE_start, int logPE_stride, int PE_size)"];
  ["OSHMPI_STATIC_INLINE_PREFIX void OSHMPI_sync(int PE_start, int logPE_stride, int PE_size)"];
  ["OSHMPI_STATIC_INLINE_PREFIX void OSHMPI_broadcast(void *dest, const void *source, size_t nelems,"; "                                                  MPI_Datatype mpi_type, int PE_root, int PE_start,"; "                                                  int logPE_stride, int PE_size)"];
  ["OSHMPI_STATIC_INLINE_PREFIX void OSHMPI_collect(void *dest, const void *source, size_t nelems,"; "                                                MPI_Datatype mpi_type, int PE_start,"; "                                                int logPE_stride, int PE_size)"];
  ["OSHMPI_STATIC_INLINE_PREFIX void OSHMPI_fcollect(void *dest, const void *source, size_t nelems,"; "                                                 MPI_Datatype mpi_type, int PE_start,"; "                                                 int logPE_stride, int PE_size)"];
  ["OSHMPI_STATIC_INLINE_PREFIX void OSHMPI_alltoall(void *dest, const void *source, size_t nelems,"; "                                                 MPI_Datatype mpi_type, int PE_start,"; "                                                 int logPE_stride, int PE_size)"];
  ["OSHMPI_STATIC_INLINE_PREFIX void OSHMPI_alltoalls(void *dest, const void *source, ptrdiff_t dst,"; "                                                  ptrdiff_t sst, size_t nelems,"; "                                                  MPI_Datatype mpi_type, int PE_start,"; "                                                  int logPE_stride, int PE_size)"]
].

(** src/internal/order_impl.h:36, 67 *)
Definition p_order : list (list string) := [
  ["OSHMPI_STATIC_INLINE_PREFIX void OSHMPI_ctx_fence(shmem_ctx_t ctx OSHMPI_ATTRIBUTE((unused)))"];
  ["OSHMPI_STATIC_INLINE_PREFIX void OSHMPI_ctx_quiet(shmem_ctx_t ctx)"]
].

(** src/internal/lock_impl.h:27, 83, 138 *)
Definition p_lock : list (list string) := [
  ["OSHMPI_STATIC_INLINE_PREFIX void OSHMPI_set_lock(long *lockp)"];
  ["OSHMPI_STATIC_INLINE_PREFIX void OSHMPI_clear_lock(long *lockp)"];
  ["OSHMPI_STATIC_INLINE_PREFIX int OSHMPI_test_lock(long *lockp)"]
].

(** src/internal/mem_impl.c:10, 27, 51, 67, 80 *)
Definition p_mem : list (list string) := [
  ["void *OSHMPI_malloc(size_t size)"];
  ["void OSHMPI_free(void *ptr)"];
  ["void *OSHMPI_realloc(void *ptr, size_t size)"];
  ["void *OSHMPI_align(size_t alignment, size_t size)"];
  ["void *OSHMPI_calloc(size_t count, size_t size)"]
].

(** src/internal/space_impl.c:166, 225, 253, 276, 334, 362, 377 *)
Definition p_space : list (list string) := [
  ["void OSHMPI_space_create(shmemx_space_config_t space_config, OSHMPI_space_t ** space_ptr)"];
  ["void OSHMPI_space_destroy(OSHMPI_space_t * space)"];
  ["int OSHMPI_space_create_ctx(OSHMPI_space_t * space, long options, OSHMPI_ctx_t ** ctx_ptr)"];
  ["void OSHMPI_space_attach(OSHMPI_space_t * space)"];
  ["void OSHMPI_space_detach(OSHMPI_space_t * space)"];
  ["void *OSHMPI_space_malloc(OSHMPI_space_t * space, size_t size)"];
  ["void *OSHMPI_space_align(OSHMPI_space_t * space, size_t alignment, size_t size)"]
].

(** src/internal/setup_impl.c:734, 917, 927 *)
Definition p_setup : list (list string) := [
  ["void OSHMPI_initialize_thread(int required, int *provided)"];
  ["void OSHMPI_finalize(void)"];
  ["void OSHMPI_global_exit(int status)"]
].

(** src/internal/ctx_impl.c:9 *)
Definition p_ctx : list (list string) := [
  ["void OSHMPI_ctx_destroy(OSHMPI_ctx_t * ctx)"]
].

(** src/internal/p2p_impl.h:34 *)
Definition p_wait : list string := [
  "#define OSHMPI_WAIT_UNTIL(ivar, comp_op, comp_value, C_TYPE, MPI_TYPE) do {                         \"
].

(** src/include/oshmpi_impl.h:32-34 *)
Definition p_colltypes : list string := [
  "#define OSHMPI_MPI_COLL_BYTE_T MPI_BYTE";
  "#define OSHMPI_MPI_COLL32_T MPI_UINT32_T";
  "#define OSHMPI_MPI_COLL64_T MPI_UINT64_T"
].
