(** The header templates of the size-suffixed routines, line by line. *)
From Coq Require Import String List.
Import ListNotations.
Local Open Scope string_scope.

(** include/shmem_rma_sized.h.tpl:1-21 *)
Definition hdr_rma_sized : list string := [
  "/* The following lines are automatically generated. DO NOT EDIT. */";
  "/* TPL_BLOCK_START */";
  "void shmem_getSIZENAME(void *dest, const void *source, size_t nelems, int pe);";
  "void shmem_ctx_getSIZENAME(shmem_ctx_t ctx, void *dest, const void *source, size_t nelems, int pe);";
  "void shmem_getSIZENAME_nbi(void *dest, const void *source, size_t nelems, int pe);";
  "void shmem_ctx_getSIZENAME_nbi(shmem_ctx_t ctx, void *dest, const void *source,";
  "                               size_t nelems, int pe);";
  "void shmem_igetSIZENAME(void *dest, const void *source, ptrdiff_t dst, ptrdiff_t sst,";
  "                        size_t nelems, int pe);";
  "void shmem_ctx_igetSIZENAME(shmem_ctx_t ctx, void *dest, const void *source, ptrdiff_t dst,";
  "                            ptrdiff_t sst, size_t nelems, int pe);";
  "void shmem_putSIZENAME(void *dest, const void *source, size_t nelems, int pe);";
  "void shmem_ctx_putSIZENAME(shmem_ctx_t ctx, void *dest, const void *source, size_t nelems, int pe);";
  "void shmem_iputSIZENAME(void *dest, const void *source, ptrdiff_t dst,";
  "                        ptrdiff_t sst, size_t nelems, int pe);";
  "void shmem_ctx_iputSIZENAME(shmem_ctx_t ctx, void *dest, const void *source,";
  "                            ptrdiff_t dst, ptrdiff_t sst, size_t nelems, int pe);";
  "void shmem_putSIZENAME_nbi(void *dest, const void *source, size_t nelems, int pe);";
  "void shmem_ctx_putSIZENAME_nbi(shmem_ctx_t ctx, void *dest, const void *source,";
  "                               size_t nelems, int pe);";
  "/* TPL_BLOCK_END */"
].

(** include/shmem_signal_sized.h.tpl:1-13 *)
Definition hdr_signal_sized : list string := [
  "/* The following lines are automatically generated. DO NOT EDIT. */";
  "/* TPL_BLOCK_START */";
  "";
  "void shmem_putSIZENAME_signal(void *dest, const void *source, size_t nelems, uint64_t *sig_addr,";
  "                              uint64_t signal, int sig_op, int pe);";
  "void shmem_ctx_putSIZENAME_signal(shmem_ctx_t ctx, void *dest, const void *source, size_t nelems,";
  "                                  uint64_t *sig_addr, uint64_t signal, int sig_op, int pe);";
  "void shmem_putSIZENAME_signal_nbi(void *dest, const void *source, size_t nelems, uint64_t *sig_addr,";
  "                                  uint64_t signal, int sig_op, int pe);";
  "void shmem_ctx_putSIZENAME_signal_nbi(shmem_ctx_t ctx, void *dest, const void *source,";
  "                                      size_t nelems, uint64_t *sig_addr, uint64_t signal,";
  "                                      int sig_op, int pe);";
  "/* TPL_BLOCK_END */"
].
