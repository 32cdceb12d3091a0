(** The text of the code templates and type tables, line by line (each definition is one whole file, or the enumeration it names). *)
From Coq Require Import String List.
Import ListNotations.
Local Open Scope string_scope.

(** maint/rma_typedef.txt:1-25 *)
Definition tab_rma : list string := [
  "# TYPE, TYPENAME, MPITYPE, C11_INCLDUE";
  "float, float, MPI_FLOAT, 1";
  "double, double, MPI_DOUBLE, 1";
  "long double, longdouble, MPI_LONG_DOUBLE, 1";
  "char, char, MPI_CHAR, 1";
  "signed char, schar, MPI_SIGNED_CHAR, 1";
  "short, short, MPI_SHORT, 1";
  "int, int, MPI_INT, 1";
  "long, long, MPI_LONG, 1";
  "long long, longlong, MPI_LONG_LONG, 1";
  "unsigned char, uchar, MPI_UNSIGNED_CHAR, 1";
  "unsigned short, ushort, MPI_UNSIGNED_SHORT, 1";
  "unsigned int, uint, MPI_UNSIGNED, 1";
  "unsigned long, ulong, MPI_UNSIGNED_LONG, 1";
  "unsigned long long, ulonglong, MPI_UNSIGNED_LONG_LONG, 1";
  "int8_t, int8, MPI_INT8_T, 0";
  "int16_t, int16, MPI_INT16_T, 0";
  "int32_t, int32, MPI_INT32_T, 0";
  "int64_t, int64, MPI_INT64_T, 0";
  "uint8_t, uint8, MPI_UINT8_T, 0";
  "uint16_t, uint16, MPI_UINT16_T, 0";
  "uint32_t, uint32, MPI_UINT32_T, 0";
  "uint64_t, uint64, MPI_UINT64_T, 0";
  "size_t, size, OSHMPI_MPI_SIZE_T, 0";
  "ptrdiff_t, ptrdiff, OSHMPI_MPI_PTRDIFF_T, 0"
].

(** maint/amo_std_typedef.txt:1-13 *)
Definition tab_amo_std : list string := [
  "# TYPE, TYPENAME, MPITYPE, C11_INCLDUE";
  "int, int, MPI_INT, 1";
  "long, long, MPI_LONG, 1";
  "long long, longlong, MPI_LONG_LONG, 1";
  "unsigned int, uint, MPI_UNSIGNED, 1";
  "unsigned long, ulong, MPI_UNSIGNED_LONG, 1";
  "unsigned long long, ulonglong, MPI_UNSIGNED_LONG_LONG, 1";
  "int32_t, int32, MPI_INT32_T, 0";
  "int64_t, int64, MPI_INT64_T, 0";
  "uint32_t, uint32, MPI_UINT32_T, 0";
  "uint64_t, uint64, MPI_UINT64_T, 0";
  "size_t, size, OSHMPI_MPI_SIZE_T, 0";
  "ptrdiff_t, ptrdiff, OSHMPI_MPI_PTRDIFF_T, 0"
].

(** maint/amo_ext_typedef.txt:1-15 *)
Definition tab_amo_ext : list string := [
  "# TYPE, TYPENAME, MPITYPE, C11_INCLDUE";
  "float, float, MPI_FLOAT, 1";
  "double, double, MPI_DOUBLE, 1";
  "int, int, MPI_INT, 1";
  "long, long, MPI_LONG, 1";
  "long long, longlong, MPI_LONG_LONG, 1";
  "unsigned int, uint, MPI_UNSIGNED, 1";
  "unsigned long, ulong, MPI_UNSIGNED_LONG, 1";
  "unsigned long long, ulonglong, MPI_UNSIGNED_LONG_LONG, 1";
  "int32_t, int32, MPI_INT32_T, 0";
  "int64_t, int64, MPI_INT64_T, 0";
  "uint32_t, uint32, MPI_UINT32_T, 0";
  "uint64_t, uint64, MPI_UINT64_T, 0";
  "size_t, size, OSHMPI_MPI_SIZE_T, 0";
  "ptrdiff_t, ptrdiff, OSHMPI_MPI_PTRDIFF_T, 0"
].

(** maint/amo_bitws_typedef.txt:1-8 *)
Definition tab_amo_bitws : list string := [
  "# TYPE, TYPENAME, MPITYPE, C11_INCLDUE";
  "unsigned int, uint, MPI_UNSIGNED, 1";
  "unsigned long, ulong, MPI_UNSIGNED_LONG, 1";
  "unsigned long long, ulonglong, MPI_UNSIGNED_LONG_LONG, 1";
  "int32_t, int32, MPI_INT32_T, 1";
  "int64_t, int64, MPI_INT64_T, 1";
  "uint32_t, uint32, MPI_UINT32_T, 0";
  "uint64_t, uint64, MPI_UINT64_T, 0"
].

(** maint/coll_typedef.txt:1-25 *)
Definition tab_coll : list string := [
  "# TYPE, TYPENAME, MPITYPE, C11_INCLDUE";
  "float, float, MPI_FLOAT, 1";
  "double, double, MPI_DOUBLE, 1";
  "long double, longdouble, MPI_LONG_DOUBLE, 1";
  "char, char, MPI_CHAR, 1";
  "signed char, schar, MPI_SIGNED_CHAR, 1";
  "short, short, MPI_SHORT, 1";
  "int, int, MPI_INT, 1";
  "long, long, MPI_LONG, 1";
  "long long, longlong, MPI_LONG_LONG, 1";
  "unsigned char, uchar, MPI_UNSIGNED_CHAR, 1";
  "unsigned short, ushort, MPI_UNSIGNED_SHORT, 1";
  "unsigned int, uint, MPI_UNSIGNED, 1";
  "unsigned long, ulong, MPI_UNSIGNED_LONG, 1";
  "unsigned long long, ulonglong, MPI_UNSIGNED_LONG_LONG, 1";
  "int8_t, int8, MPI_INT8_T, 0";
  "int16_t, int16, MPI_INT16_T, 0";
  "int32_t, int32, MPI_INT32_T, 0";
  "int64_t, int64, MPI_INT64_T, 0";
  "uint8_t, uint8, MPI_UINT8_T, 0";
  "uint16_t, uint16, MPI_UINT16_T, 0";
  "uint32_t, uint32, MPI_UINT32_T, 0";
  "uint64_t, uint64, MPI_UINT64_T, 0";
  "size_t, size, OSHMPI_MPI_SIZE_T, 0";
  "ptrdiff_t, ptrdiff, OSHMPI_MPI_PTRDIFF_T, 0"
].

(** maint/p2p_typedef.txt:1-15 *)
Definition tab_p2p : list string := [
  "# TYPE, TYPENAME, MPITYPE, C11_INCLDUE";
  "short, short, MPI_SHORT, 1";
  "int, int, MPI_INT, 1";
  "long, long, MPI_LONG, 1";
  "long long, longlong, MPI_LONG_LONG, 1";
  "unsigned short, ushort, MPI_UNSIGNED_SHORT, 1";
  "unsigned int, uint, MPI_UNSIGNED, 1";
  "unsigned long, ulong, MPI_UNSIGNED_LONG, 1";
  "unsigned long long, ulonglong, MPI_UNSIGNED_LONG_LONG, 1";
  "int32_t, int32, MPI_INT32_T, 0";
  "int64_t, int64, MPI_INT64_T, 0";
  "uint32_t, uint32, MPI_UINT32_T, 0";
  "uint64_t, uint64, MPI_UINT64_T, 0";
  "size_t, size, OSHMPI_MPI_SIZE_T, 0";
  "ptrdiff_t, ptrdiff, OSHMPI_MPI_PTRDIFF_T, 0"
].

(** maint/signal_typedef.txt:1-25 *)
Definition tab_signal : list string := [
  "# TYPE, TYPENAME, MPITYPE, C11_INCLDUE";
  "float, float, MPI_FLOAT, 1";
  "double, double, MPI_DOUBLE, , C11_INCLDUE";
  "long double, longdouble, MPI_LONG_DOUBLE, 1";
  "char, char, MPI_CHAR, 1";
  "signed char, schar, MPI_SIGNED_CHAR, 1";
  "short, short, MPI_SHORT, 1";
  "int, int, MPI_INT, 1";
  "long, long, MPI_LONG, 1";
  "long long, longlong, MPI_LONG_LONG, 1";
  "unsigned char, uchar, MPI_UNSIGNED_CHAR, 1";
  "unsigned short, ushort, MPI_UNSIGNED_SHORT, 1";
  "unsigned int, uint, MPI_UNSIGNED, 1";
  "unsigned long, ulong, MPI_UNSIGNED_LONG, 1";
  "unsigned long long, ulonglong, MPI_UNSIGNED_LONG_LONG, 1";
  "int8_t, int8, MPI_INT8_T, 0";
  "int16_t, int16, MPI_INT16_T, 0";
  "int32_t, int32, MPI_INT32_T, 0";
  "int64_t, int64, MPI_INT64_T, 0";
  "uint8_t, uint8, MPI_UINT8_T, 0";
  "uint16_t, uint16, MPI_UINT16_T, 0";
  "uint32_t, uint32, MPI_UINT32_T, 0";
  "uint64_t, uint64, MPI_UINT64_T, 0";
  "size_t, size, OSHMPI_MPI_SIZE_T, 0";
  "ptrdiff_t, ptrdiff, OSHMPI_MPI_PTRDIFF_T, 0"
].

(** maint/reduce_minmax_aset_typedef.txt:1-8 *)
Definition tab_reduce_minmax_aset : list string := [
  "# TYPE, TYPENAME, MPITYPE";
  "short, short, MPI_SHORT";
  "int, int, MPI_INT";
  "double, double, MPI_DOUBLE";
  "float, float, MPI_FLOAT";
  "long, long, MPI_LONG";
  "long double, longdouble, MPI_LONG_DOUBLE";
  "long long, longlong, MPI_LONG_LONG"
].

(** maint/reduce_sumprod_aset_typedef.txt:1-10 *)
Definition tab_reduce_sumprod_aset : list string := [
  "# TYPE, TYPENAME, MPITYPE";
  "double _Complex, complexd, MPI_C_DOUBLE_COMPLEX";
  "float _Complex, complexf, MPI_C_COMPLEX";
  "short, short, MPI_SHORT";
  "int, int, MPI_INT";
  "double, double, MPI_DOUBLE";
  "float, float, MPI_FLOAT";
  "long, long, MPI_LONG";
  "long double, longdouble, MPI_LONG_DOUBLE";
  "long long, longlong, MPI_LONG_LONG"
].

(** maint/reduce_bitws_aset_typedef.txt:1-5 *)
Definition tab_reduce_bitws_aset : list string := [
  "# TYPE, TYPENAME, MPITYPE";
  "short, short, MPI_SHORT";
  "int, int, MPI_INT";
  "long, long, MPI_LONG";
  "long long, longlong, MPI_LONG_LONG"
].

(** maint/reduce_minmax_team_typedef.txt:1-25 *)
Definition tab_reduce_minmax_team : list string := [
  "# TYPE, TYPENAME, MPITYPE, C11_INCLDUE";
  "float, float, MPI_FLOAT, 1";
  "double, double, MPI_DOUBLE, 1";
  "long double, longdouble, MPI_LONG_DOUBLE, 1";
  "char, char, MPI_CHAR, 1";
  "signed char, schar, MPI_SIGNED_CHAR, 1";
  "short, short, MPI_SHORT, 1";
  "int, int, MPI_INT, 1";
  "long, long, MPI_LONG, 1";
  "long long, longlong, MPI_LONG_LONG, 1";
  "unsigned char, uchar, MPI_UNSIGNED_CHAR, 1";
  "unsigned short, ushort, MPI_UNSIGNED_SHORT, 1";
  "unsigned int, uint, MPI_UNSIGNED, 1";
  "unsigned long, ulong, MPI_UNSIGNED_LONG, 1";
  "unsigned long long, ulonglong, MPI_UNSIGNED_LONG_LONG, 1";
  "int8_t, int8, MPI_INT8_T, 0";
  "int16_t, int16, MPI_INT16_T, 0";
  "int32_t, int32, MPI_INT32_T, 0";
  "int64_t, int64, MPI_INT64_T, 0";
  "uint8_t, uint8, MPI_UINT8_T, 0";
  "uint16_t, uint16, MPI_UINT16_T, 0";
  "uint32_t, uint32, MPI_UINT32_T, 0";
  "uint64_t, uint64, MPI_UINT64_T, 0";
  "size_t, size, OSHMPI_MPI_SIZE_T, 0";
  "ptrdiff_t, ptrdiff, OSHMPI_MPI_PTRDIFF_T, 0"
].

(** maint/reduce_sumprod_team_typedef.txt:1-27 *)
Definition tab_reduce_sumprod_team : list string := [
  "# TYPE, TYPENAME, MPITYPE, C11_INCLDUE";
  "float, float, MPI_FLOAT, 1";
  "double, double, MPI_DOUBLE, 1";
  "long double, longdouble, MPI_LONG_DOUBLE, 1";
  "char, char, MPI_CHAR, 1";
  "signed char, schar, MPI_SIGNED_CHAR, 1";
  "short, short, MPI_SHORT, 1";
  "int, int, MPI_INT, 1";
  "long, long, MPI_LONG, 1";
  "long long, longlong, MPI_LONG_LONG, 1";
  "unsigned char, uchar, MPI_UNSIGNED_CHAR, 1";
  "unsigned short, ushort, MPI_UNSIGNED_SHORT, 1";
  "unsigned int, uint, MPI_UNSIGNED, 1";
  "unsigned long, ulong, MPI_UNSIGNED_LONG, 1";
  "unsigned long long, ulonglong, MPI_UNSIGNED_LONG_LONG, 1";
  "float _Complex, complexf, MPI_C_FLOAT_COMPLEX, 1";
  "double _Complex, complexd, MPI_C_DOUBLE_COMPLEX, 1";
  "int8_t, int8, MPI_INT8_T, 0";
  "int16_t, int16, MPI_INT16_T, 0";
  "int32_t, int32, MPI_INT32_T, 0";
  "int64_t, int64, MPI_INT64_T, 0";
  "uint8_t, uint8, MPI_UINT8_T, 0";
  "uint16_t, uint16, MPI_UINT16_T, 0";
  "uint32_t, uint32, MPI_UINT32_T, 0";
  "uint64_t, uint64, MPI_UINT64_T, 0";
  "size_t, size, OSHMPI_MPI_SIZE_T, 0";
  "ptrdiff_t, ptrdiff, OSHMPI_MPI_PTRDIFF_T, 0"
].

(** maint/reduce_bitws_team_typedef.txt:1-15 *)
Definition tab_reduce_bitws_team : list string := [
  "# TYPE, TYPENAME, MPITYPE, C11_INCLDUE";
  "unsigned char, uchar, MPI_UNSIGNED_CHAR, 1";
  "unsigned short, ushort, MPI_UNSIGNED_SHORT, 1";
  "unsigned int, uint, MPI_UNSIGNED, 1";
  "unsigned long, ulong, MPI_UNSIGNED_LONG, 1";
  "unsigned long long, ulonglong, MPI_UNSIGNED_LONG_LONG, 1";
  "int8_t, int8, MPI_INT8_T, 1";
  "int16_t, int16, MPI_INT16_T, 1";
  "int32_t, int32, MPI_INT32_T, 1";
  "int64_t, int64, MPI_INT64_T, 1";
  "uint8_t, uint8, MPI_UINT8_T, 0";
  "uint16_t, uint16, MPI_UINT16_T, 0";
  "uint32_t, uint32, MPI_UINT32_T, 0";
  "uint64_t, uint64, MPI_UINT64_T, 0";
  "size_t, size, OSHMPI_MPI_SIZE_T, 0"
].

(** maint/rma_sizedef.txt:1-6 *)
Definition tab_rma_size : list string := [
  "# SIZE, SIZENAME, MPITYPE";
  "8, 8, MPI_UINT8_T";
  "16, 16, MPI_UINT16_T";
  "32, 32, MPI_UINT32_T";
  "64, 64, MPI_UINT64_T";
  "128, 128, MPI_C_DOUBLE_COMPLEX"
].

(** maint/signal_sizedef.txt:1-6 *)
Definition tab_signal_size : list string := [
  "# SIZE, SIZENAME, MPITYPE";
  "8, 8, MPI_UINT8_T";
  "16, 16, MPI_UINT16_T";
  "32, 32, MPI_UINT32_T";
  "64, 64, MPI_UINT64_T";
  "128, 128, MPI_C_DOUBLE_COMPLEX"
].

(** src/shmem/rma_typed.c.tpl:1-120 *)
Definition src_rma : list string := [
  "/* -*- Mode: C; c-basic-offset:4 ; -*- */";
  "/*";
  " *  (C) 2018 by Argonne National Laboratory.";
  " *      See COPYRIGHT in top-level directory.";
  " *";
  " * This file is automatically generated. DO NOT EDIT.";
  " */";
  "";
  "#include <shmem.h>";
  "#include ""oshmpi_impl.h""";
  "/* TPL_BLOCK_START */";
  "";
  "TYPE shmem_TYPENAME_g(const TYPE * source, int pe)";
  "{";
  "    TYPE value;";
  "    OSHMPI_ctx_get(SHMEM_CTX_DEFAULT, MPI_TYPE, sizeof(TYPE),";
  "                   &value /* origin_addr */ , source /* target_addr */ , 1, pe);";
  "    return value;";
  "}";
  "";
  "TYPE shmem_ctx_TYPENAME_g(shmem_ctx_t ctx, const TYPE * source, int pe)";
  "{";
  "    TYPE value;";
  "    OSHMPI_ctx_get(ctx, MPI_TYPE, sizeof(TYPE), &value /* origin_addr */ ,";
  "                   source /* target_addr */ , 1, pe);";
  "    return value;";
  "}";
  "";
  "void shmem_TYPENAME_get(TYPE * dest, const TYPE * source, size_t nelems, int pe)";
  "{";
  "    OSHMPI_ctx_get(SHMEM_CTX_DEFAULT, MPI_TYPE, sizeof(TYPE),";
  "                   dest /* origin_addr */ , source /* target_addr */ , nelems, pe);";
  "}";
  "";
  "void shmem_ctx_TYPENAME_get(shmem_ctx_t ctx, TYPE * dest, const TYPE * source,";
  "                            size_t nelems, int pe)";
  "{";
  "    OSHMPI_ctx_get(ctx, MPI_TYPE, sizeof(TYPE), dest /* origin_addr */ ,";
  "                   source /* target_addr */ , nelems, pe);";
  "}";
  "";
  "void shmem_TYPENAME_get_nbi(TYPE * dest, const TYPE * source, size_t nelems, int pe)";
  "{";
  "    OSHMPI_ctx_get_nbi(SHMEM_CTX_DEFAULT, MPI_TYPE, sizeof(TYPE), dest /* origin_addr */ ,";
  "                       source /* target_addr */ , nelems, pe);";
  "}";
  "";
  "void shmem_ctx_TYPENAME_get_nbi(shmem_ctx_t ctx, TYPE * dest, const TYPE * source,";
  "                                size_t nelems, int pe)";
  "{";
  "    OSHMPI_ctx_get_nbi(ctx, MPI_TYPE, sizeof(TYPE), dest /* origin_addr */ ,";
  "                       source /* target_addr */ , nelems, pe);";
  "}";
  "";
  "void shmem_TYPENAME_iget(TYPE * dest, const TYPE * source, ptrdiff_t dst, ptrdiff_t sst,";
  "                         size_t nelems, int pe)";
  "{";
  "    OSHMPI_ctx_iget(SHMEM_CTX_DEFAULT, MPI_TYPE, OSHMPI_AM_MPI_TYPE, dest /* origin_addr */ ,";
  "                    source /* target_addr */ , dst, sst, nelems, pe);";
  "}";
  "";
  "void shmem_ctx_TYPENAME_iget(shmem_ctx_t ctx, TYPE * dest, const TYPE * source, ptrdiff_t dst,";
  "                             ptrdiff_t sst, size_t nelems, int pe)";
  "{";
  "    OSHMPI_ctx_iget(ctx, MPI_TYPE, OSHMPI_AM_MPI_TYPE, dest /* origin_addr */ ,";
  "                    source /* target_addr */ , dst, sst, nelems, pe);";
  "}";
  "";
  "void shmem_TYPENAME_p(TYPE * dest, TYPE value, int pe)";
  "{";
  "    OSHMPI_ctx_put(SHMEM_CTX_DEFAULT, MPI_TYPE, sizeof(TYPE), &value /* origin_addr */ ,";
  "                   dest /* target_addr */ , 1, pe);";
  "}";
  "";
  "void shmem_ctx_TYPENAME_p(shmem_ctx_t ctx, TYPE * dest, TYPE value, int pe)";
  "{";
  "    OSHMPI_ctx_put(ctx, MPI_TYPE, sizeof(TYPE), &value /* origin_addr */ ,";
  "                   dest /* target_addr */ , 1, pe);";
  "}";
  "";
  "void shmem_TYPENAME_put(TYPE * dest, const TYPE * source, size_t nelems, int pe)";
  "{";
  "    OSHMPI_ctx_put(SHMEM_CTX_DEFAULT, MPI_TYPE, sizeof(TYPE), source /* origin_addr */ ,";
  "                   dest /* target_addr */ , nelems, pe);";
  "}";
  "";
  "void shmem_ctx_TYPENAME_put(shmem_ctx_t ctx, TYPE * dest, const TYPE * source,";
  "                            size_t nelems, int pe)";
  "{";
  "    OSHMPI_ctx_put(ctx, MPI_TYPE, sizeof(TYPE), source /* origin_addr */ ,";
  "                   dest /* target_addr */ , nelems, pe);";
  "}";
  "";
  "void shmem_TYPENAME_iput(TYPE * dest, const TYPE * source, ptrdiff_t dst,";
  "                         ptrdiff_t sst, size_t nelems, int pe)";
  "{";
  "    OSHMPI_ctx_iput(SHMEM_CTX_DEFAULT, MPI_TYPE, OSHMPI_AM_MPI_TYPE, source /* origin_addr */ ,";
  "                    dest /* target_addr */ , dst, sst, nelems, pe);";
  "}";
  "";
  "void shmem_ctx_TYPENAME_iput(shmem_ctx_t ctx, TYPE * dest, const TYPE * source,";
  "                             ptrdiff_t dst, ptrdiff_t sst, size_t nelems, int pe)";
  "{";
  "    OSHMPI_ctx_iput(ctx, MPI_TYPE, OSHMPI_AM_MPI_TYPE, source /* origin_addr */ , dest /* target_addr */ ,";
  "                    dst, sst, nelems, pe);";
  "}";
  "";
  "void shmem_TYPENAME_put_nbi(TYPE * dest, const TYPE * source, size_t nelems, int pe)";
  "{";
  "    OSHMPI_ctx_put_nbi(SHMEM_CTX_DEFAULT, MPI_TYPE, sizeof(TYPE), source /* origin_addr */ ,";
  "                       dest /* target_addr */ , nelems, pe);";
  "}";
  "";
  "void shmem_ctx_TYPENAME_put_nbi(shmem_ctx_t ctx, TYPE * dest, const TYPE * source,";
  "                                size_t nelems, int pe)";
  "{";
  "    OSHMPI_ctx_put_nbi(ctx, MPI_TYPE, sizeof(TYPE), source /* origin_addr */ ,";
  "                       dest /* target_addr */ , nelems, pe);";
  "}";
  "/* TPL_BLOCK_END */"
].

(** src/shmem/amo_std_typed.c.tpl:1-168 *)
Definition src_amo_std : list string := [
  "/* -*- Mode: C{} c-basic-offset:4 {} -*- */";
  "/*";
  " *  (C) 2018 by Argonne National Laboratory.";
  " *      See COPYRIGHT in top-level directory.";
  " *";
  " * This file is automatically generated. DO NOT EDIT.";
  " */";
  "";
  "#include <shmem.h>";
  "#include ""oshmpi_impl.h""";
  "/* TPL_BLOCK_START */";
  "";
  "TYPE shmem_TYPENAME_atomic_compare_swap(TYPE * dest, TYPE cond, TYPE value, int pe)";
  "{";
  "    TYPE oldval;";
  "    OSHMPI_amo_cswap(SHMEM_CTX_DEFAULT, MPI_TYPE, OSHMPI_AM_MPI_TYPE, sizeof(TYPE),";
  "                     dest, &cond, &value, pe, &oldval);";
  "    return oldval;";
  "}";
  "";
  "TYPE shmem_ctx_TYPENAME_atomic_compare_swap(shmem_ctx_t ctx, TYPE * dest, TYPE cond, TYPE";
  "                                            value, int pe)";
  "{";
  "    TYPE oldval;";
  "    OSHMPI_amo_cswap(ctx, MPI_TYPE, OSHMPI_AM_MPI_TYPE, sizeof(TYPE), dest, &cond, &value, pe,";
  "                     &oldval);";
  "    return oldval;";
  "}";
  "";
  "TYPE shmem_TYPENAME_atomic_fetch_inc(TYPE * dest, int pe)";
  "{";
  "    TYPE one = 1, oldval;";
  "    OSHMPI_amo_fetch(SHMEM_CTX_DEFAULT, MPI_TYPE, OSHMPI_AM_MPI_TYPE, sizeof(TYPE),";
  "                     MPI_SUM, OSHMPI_AM_MPI_SUM, dest, &one, pe, &oldval);";
  "    return oldval;";
  "}";
  "";
  "TYPE shmem_ctx_TYPENAME_atomic_fetch_inc(shmem_ctx_t ctx, TYPE * dest, int pe)";
  "{";
  "    TYPE one = 1, oldval;";
  "    OSHMPI_amo_fetch(ctx, MPI_TYPE, OSHMPI_AM_MPI_TYPE, sizeof(TYPE), MPI_SUM, OSHMPI_AM_MPI_SUM,";
  "                     dest, &one, pe, &oldval);";
  "    return oldval;";
  "}";
  "";
  "void shmem_TYPENAME_atomic_inc(TYPE * dest, int pe)";
  "{";
  "    TYPE one = 1;";
  "    OSHMPI_amo_post(SHMEM_CTX_DEFAULT, MPI_TYPE, OSHMPI_AM_MPI_TYPE, sizeof(TYPE),";
  "                    MPI_SUM, OSHMPI_AM_MPI_SUM, dest, &one, pe);";
  "}";
  "";
  "void shmem_ctx_TYPENAME_atomic_inc(shmem_ctx_t ctx, TYPE * dest, int pe)";
  "{";
  "    TYPE one = 1;";
  "    OSHMPI_amo_post(ctx, MPI_TYPE, OSHMPI_AM_MPI_TYPE, sizeof(TYPE), MPI_SUM, OSHMPI_AM_MPI_SUM,";
  "                    dest, &one, pe);";
  "}";
  "";
  "TYPE shmem_TYPENAME_atomic_fetch_add(TYPE * dest, TYPE value, int pe)";
  "{";
  "    TYPE oldval;";
  "    OSHMPI_amo_fetch(SHMEM_CTX_DEFAULT, MPI_TYPE, OSHMPI_AM_MPI_TYPE, sizeof(TYPE),";
  "                     MPI_SUM, OSHMPI_AM_MPI_SUM, dest, &value, pe, &oldval);";
  "    return oldval;";
  "}";
  "";
  "TYPE shmem_ctx_TYPENAME_atomic_fetch_add(shmem_ctx_t ctx, TYPE * dest, TYPE value, int pe)";
  "{";
  "    TYPE oldval;";
  "    OSHMPI_amo_fetch(ctx, MPI_TYPE, OSHMPI_AM_MPI_TYPE, sizeof(TYPE), MPI_SUM, OSHMPI_AM_MPI_SUM,";
  "                     dest, &value, pe, &oldval);";
  "    return oldval;";
  "}";
  "";
  "void shmem_TYPENAME_atomic_add(TYPE * dest, TYPE value, int pe)";
  "{";
  "    OSHMPI_amo_post(SHMEM_CTX_DEFAULT, MPI_TYPE, OSHMPI_AM_MPI_TYPE, sizeof(TYPE),";
  "                    MPI_SUM, OSHMPI_AM_MPI_SUM, dest, &value, pe);";
  "}";
  "";
  "void shmem_ctx_TYPENAME_atomic_add(shmem_ctx_t ctx, TYPE * dest, TYPE value, int pe)";
  "{";
  "    OSHMPI_amo_post(ctx, MPI_TYPE, OSHMPI_AM_MPI_TYPE, sizeof(TYPE), MPI_SUM, OSHMPI_AM_MPI_SUM,";
  "                    dest, &value, pe);";
  "}";
  "";
  "void shmem_TYPENAME_atomic_compare_swap_nbi(TYPE * fetch, TYPE * dest, TYPE cond, TYPE value,";
  "                                            int pe)";
  "{";
  "    OSHMPI_amo_cswap(SHMEM_CTX_DEFAULT, MPI_TYPE, OSHMPI_AM_MPI_TYPE, sizeof(TYPE),";
  "                     dest, &cond, &value, pe, fetch);";
  "}";
  "";
  "void shmem_ctx_TYPENAME_atomic_compare_swap_nbi(shmem_ctx_t ctx, TYPE * fetch, TYPE * dest,";
  "                                                TYPE cond, TYPE value, int pe)";
  "{";
  "    OSHMPI_amo_cswap(ctx, MPI_TYPE, OSHMPI_AM_MPI_TYPE, sizeof(TYPE), dest, &cond, &value, pe,";
  "                     fetch);";
  "}";
  "";
  "void shmem_TYPENAME_atomic_fetch_inc_nbi(TYPE * fetch, TYPE * dest, int pe)";
  "{";
  "    TYPE one = 1;";
  "    OSHMPI_amo_fetch(SHMEM_CTX_DEFAULT, MPI_TYPE, OSHMPI_AM_MPI_TYPE, sizeof(TYPE),";
  "                     MPI_SUM, OSHMPI_AM_MPI_SUM, dest, &one, pe, fetch);";
  "}";
  "";
  "void shmem_ctx_TYPENAME_atomic_fetch_inc_nbi(shmem_ctx_t ctx, TYPE * fetch, TYPE * dest, int pe)";
  "{";
  "    TYPE one = 1;";
  "    OSHMPI_amo_fetch(ctx, MPI_TYPE, OSHMPI_AM_MPI_TYPE, sizeof(TYPE), MPI_SUM, OSHMPI_AM_MPI_SUM,";
  "                     dest, &one, pe, fetch);";
  "}";
  "";
  "void shmem_TYPENAME_atomic_fetch_add_nbi(TYPE * fetch, TYPE * dest, TYPE value, int pe)";
  "{";
  "    OSHMPI_amo_fetch(SHMEM_CTX_DEFAULT, MPI_TYPE, OSHMPI_AM_MPI_TYPE, sizeof(TYPE),";
  "                     MPI_SUM, OSHMPI_AM_MPI_SUM, dest, &value, pe, fetch);";
  "}";
  "";
  "void shmem_ctx_TYPENAME_atomic_fetch_add_nbi(shmem_ctx_t ctx, TYPE * fetch, TYPE * dest, TYPE value,";
  "                                             int pe)";
  "{";
  "    OSHMPI_amo_fetch(ctx, MPI_TYPE, OSHMPI_AM_MPI_TYPE, sizeof(TYPE), MPI_SUM, OSHMPI_AM_MPI_SUM,";
  "                     dest, &value, pe, fetch);";
  "}";
  "";
  "/* Deprecated APIs start */";
  "TYPE shmem_TYPENAME_cswap(TYPE * dest, TYPE cond, TYPE value, int pe)";
  "{";
  "    TYPE oldval;";
  "    OSHMPI_amo_cswap(SHMEM_CTX_DEFAULT, MPI_TYPE, OSHMPI_AM_MPI_TYPE, sizeof(TYPE),";
  "                     dest, &cond, &value, pe, &oldval);";
  "    return oldval;";
  "}";
  "";
  "TYPE shmem_TYPENAME_finc(TYPE * dest, int pe)";
  "{";
  "    TYPE one = 1, oldval;";
  "    OSHMPI_amo_fetch(SHMEM_CTX_DEFAULT, MPI_TYPE, OSHMPI_AM_MPI_TYPE, sizeof(TYPE),";
  "                     MPI_SUM, OSHMPI_AM_MPI_SUM, dest, &one, pe, &oldval);";
  "    return oldval;";
  "}";
  "";
  "void shmem_TYPENAME_inc(TYPE * dest, int pe)";
  "{";
  "    TYPE one = 1;";
  "    OSHMPI_amo_post(SHMEM_CTX_DEFAULT, MPI_TYPE, OSHMPI_AM_MPI_TYPE, sizeof(TYPE), MPI_SUM,";
  "                    OSHMPI_AM_MPI_SUM, dest, &one, pe);";
  "}";
  "";
  "TYPE shmem_TYPENAME_fadd(TYPE * dest, TYPE value, int pe)";
  "{";
  "    TYPE oldval;";
  "    OSHMPI_amo_fetch(SHMEM_CTX_DEFAULT, MPI_TYPE, OSHMPI_AM_MPI_TYPE, sizeof(TYPE), MPI_SUM,";
  "                     OSHMPI_AM_MPI_SUM, dest, &value, pe, &oldval);";
  "    return oldval;";
  "}";
  "";
  "void shmem_TYPENAME_add(TYPE * dest, TYPE value, int pe)";
  "{";
  "    OSHMPI_amo_post(SHMEM_CTX_DEFAULT, MPI_TYPE, OSHMPI_AM_MPI_TYPE, sizeof(TYPE), MPI_SUM,";
  "                    OSHMPI_AM_MPI_SUM, dest, &value, pe);";
  "}";
  "";
  "/* Deprecated APIs end */";
  "/* TPL_BLOCK_END */"
].

(** src/shmem/amo_ext_typed.c.tpl:1-107 *)
Definition src_amo_ext : list string := [
  "";
  "/* -*- Mode: C{} c-basic-offset:4 {} -*- */";
  "/*";
  " *  (C) 2018 by Argonne National Laboratory.";
  " *      See COPYRIGHT in top-level directory.";
  " *";
  " * This file is automatically generated. DO NOT EDIT.";
  " */";
  "";
  "#include <shmem.h>";
  "#include ""oshmpi_impl.h""";
  "/* TPL_BLOCK_START */";
  "";
  "TYPE shmem_TYPENAME_atomic_fetch(const TYPE * source, int pe)";
  "{";
  "    TYPE oldval;";
  "    OSHMPI_amo_fetch(SHMEM_CTX_DEFAULT, MPI_TYPE, OSHMPI_AM_MPI_TYPE, sizeof(TYPE), MPI_NO_OP,";
  "                     OSHMPI_AM_MPI_NO_OP, (void *) source, NULL, pe, &oldval);";
  "    return oldval;";
  "}";
  "";
  "TYPE shmem_ctx_TYPENAME_atomic_fetch(shmem_ctx_t ctx, const TYPE * source, int pe)";
  "{";
  "    TYPE oldval;";
  "    OSHMPI_amo_fetch(ctx, MPI_TYPE, OSHMPI_AM_MPI_TYPE, sizeof(TYPE), MPI_NO_OP,";
  "                     OSHMPI_AM_MPI_NO_OP, (void *) source, NULL, pe, &oldval);";
  "    return oldval;";
  "}";
  "";
  "void shmem_TYPENAME_atomic_set(TYPE * dest, TYPE value, int pe)";
  "{";
  "    OSHMPI_amo_post(SHMEM_CTX_DEFAULT, MPI_TYPE, OSHMPI_AM_MPI_TYPE, sizeof(TYPE), MPI_REPLACE,";
  "                    OSHMPI_AM_MPI_REPLACE, dest, &value, pe);";
  "}";
  "";
  "void shmem_ctx_TYPENAME_atomic_set(shmem_ctx_t ctx, TYPE * dest, TYPE value, int pe)";
  "{";
  "    OSHMPI_amo_post(ctx, MPI_TYPE, OSHMPI_AM_MPI_TYPE, sizeof(TYPE), MPI_REPLACE,";
  "                    OSHMPI_AM_MPI_REPLACE, dest, &value, pe);";
  "}";
  "";
  "TYPE shmem_TYPENAME_atomic_swap(TYPE * dest, TYPE value, int pe)";
  "{";
  "    TYPE oldval;";
  "    OSHMPI_amo_fetch(SHMEM_CTX_DEFAULT, MPI_TYPE, OSHMPI_AM_MPI_TYPE, sizeof(TYPE), MPI_REPLACE,";
  "                     OSHMPI_AM_MPI_REPLACE, dest, &value, pe, &oldval);";
  "    return oldval;";
  "}";
  "";
  "TYPE shmem_ctx_TYPENAME_atomic_swap(shmem_ctx_t ctx, TYPE * dest, TYPE value, int pe)";
  "{";
  "    TYPE oldval;";
  "    OSHMPI_amo_fetch(ctx, MPI_TYPE, OSHMPI_AM_MPI_TYPE, sizeof(TYPE), MPI_REPLACE,";
  "                     OSHMPI_AM_MPI_REPLACE, dest, &value, pe, &oldval);";
  "    return oldval;";
  "}";
  "";
  "void shmem_TYPENAME_atomic_fetch_nbi(TYPE * fetch, const TYPE * source, int pe)";
  "{";
  "    OSHMPI_amo_fetch(SHMEM_CTX_DEFAULT, MPI_TYPE, OSHMPI_AM_MPI_TYPE, sizeof(TYPE), MPI_NO_OP,";
  "                     OSHMPI_AM_MPI_NO_OP, (void *) source, NULL, pe, fetch);";
  "}";
  "";
  "void shmem_ctx_TYPENAME_atomic_fetch_nbi(shmem_ctx_t ctx, TYPE * fetch, const TYPE * source, int pe)";
  "{";
  "    OSHMPI_amo_fetch(ctx, MPI_TYPE, OSHMPI_AM_MPI_TYPE, sizeof(TYPE), MPI_NO_OP,";
  "                     OSHMPI_AM_MPI_NO_OP, (void *) source, NULL, pe, fetch);";
  "}";
  "";
  "void shmem_TYPENAME_atomic_swap_nbi(TYPE * fetch, TYPE * dest, TYPE value, int pe)";
  "{";
  "    OSHMPI_amo_fetch(SHMEM_CTX_DEFAULT, MPI_TYPE, OSHMPI_AM_MPI_TYPE, sizeof(TYPE), MPI_REPLACE,";
  "                     OSHMPI_AM_MPI_REPLACE, dest, &value, pe, fetch);";
  "}";
  "";
  "void shmem_ctx_TYPENAME_atomic_swap_nbi(shmem_ctx_t ctx, TYPE * fetch, TYPE * dest, TYPE value,";
  "                                        int pe)";
  "{";
  "    OSHMPI_amo_fetch(ctx, MPI_TYPE, OSHMPI_AM_MPI_TYPE, sizeof(TYPE), MPI_REPLACE,";
  "                     OSHMPI_AM_MPI_REPLACE, dest, &value, pe, fetch);";
  "}";
  "";
  "/* Deprecated APIs start */";
  "TYPE shmem_TYPENAME_fetch(const TYPE * source, int pe)";
  "{";
  "    TYPE oldval;";
  "    OSHMPI_amo_fetch(SHMEM_CTX_DEFAULT, MPI_TYPE, OSHMPI_AM_MPI_TYPE, sizeof(TYPE), MPI_NO_OP,";
  "                     OSHMPI_AM_MPI_NO_OP, (void *) source, NULL, pe, &oldval);";
  "    return oldval;";
  "}";
  "";
  "void shmem_TYPENAME_set(TYPE * dest, TYPE value, int pe)";
  "{";
  "    OSHMPI_amo_post(SHMEM_CTX_DEFAULT, MPI_TYPE, OSHMPI_AM_MPI_TYPE, sizeof(TYPE), MPI_REPLACE,";
  "                    OSHMPI_AM_MPI_REPLACE, dest, &value, pe);";
  "}";
  "";
  "TYPE shmem_TYPENAME_swap(TYPE * dest, TYPE value, int pe)";
  "{";
  "    TYPE oldval;";
  "    OSHMPI_amo_fetch(SHMEM_CTX_DEFAULT, MPI_TYPE, OSHMPI_AM_MPI_TYPE, sizeof(TYPE), MPI_REPLACE,";
  "                     OSHMPI_AM_MPI_REPLACE, dest, &value, pe, &oldval);";
  "    return oldval;";
  "}";
  "";
  "/* Deprecated APIs end */";
  "/* TPL_BLOCK_END */"
].

(** src/shmem/amo_bitws_typed.c.tpl:1-136 *)
Definition src_amo_bitws : list string := [
  "/* -*- Mode: C{} c-basic-offset:4 {} -*- */";
  "/*";
  " *  (C) 2018 by Argonne National Laboratory.";
  " *      See COPYRIGHT in top-level directory.";
  " *";
  " * This file is automatically generated. DO NOT EDIT.";
  " */";
  "";
  "#include <shmem.h>";
  "#include ""oshmpi_impl.h""";
  "/* TPL_BLOCK_START */";
  "";
  "TYPE shmem_TYPENAME_atomic_fetch_and(TYPE * dest, TYPE value, int pe)";
  "{";
  "    TYPE oldval;";
  "    OSHMPI_amo_fetch(SHMEM_CTX_DEFAULT, MPI_TYPE, OSHMPI_AM_MPI_TYPE, sizeof(TYPE), MPI_BAND,";
  "                     OSHMPI_AM_MPI_BAND, dest, &value, pe, &oldval);";
  "    return oldval;";
  "}";
  "";
  "TYPE shmem_ctx_TYPENAME_atomic_fetch_and(shmem_ctx_t ctx, TYPE * dest, TYPE value, int pe)";
  "{";
  "    TYPE oldval;";
  "    OSHMPI_amo_fetch(ctx, MPI_TYPE, OSHMPI_AM_MPI_TYPE, sizeof(TYPE), MPI_BAND,";
  "                     OSHMPI_AM_MPI_BAND, dest, &value, pe, &oldval);";
  "    return oldval;";
  "}";
  "";
  "void shmem_TYPENAME_atomic_and(TYPE * dest, TYPE value, int pe)";
  "{";
  "    OSHMPI_amo_post(SHMEM_CTX_DEFAULT, MPI_TYPE, OSHMPI_AM_MPI_TYPE, sizeof(TYPE), MPI_BAND,";
  "                    OSHMPI_AM_MPI_BAND, dest, &value, pe);";
  "}";
  "";
  "void shmem_ctx_TYPENAME_atomic_and(shmem_ctx_t ctx, TYPE * dest, TYPE value, int pe)";
  "{";
  "    OSHMPI_amo_post(ctx, MPI_TYPE, OSHMPI_AM_MPI_TYPE, sizeof(TYPE), MPI_BAND, OSHMPI_AM_MPI_BAND,";
  "                    dest, &value, pe);";
  "}";
  "";
  "TYPE shmem_TYPENAME_atomic_fetch_or(TYPE * dest, TYPE value, int pe)";
  "{";
  "    TYPE oldval;";
  "    OSHMPI_amo_fetch(SHMEM_CTX_DEFAULT, MPI_TYPE, OSHMPI_AM_MPI_TYPE, sizeof(TYPE), MPI_BOR,";
  "                     OSHMPI_AM_MPI_BOR, dest, &value, pe, &oldval);";
  "    return oldval;";
  "}";
  "";
  "TYPE shmem_ctx_TYPENAME_atomic_fetch_or(shmem_ctx_t ctx, TYPE * dest, TYPE value, int pe)";
  "{";
  "    TYPE oldval;";
  "    OSHMPI_amo_fetch(ctx, MPI_TYPE, OSHMPI_AM_MPI_TYPE, sizeof(TYPE), MPI_BOR, OSHMPI_AM_MPI_BOR,";
  "                     dest, &value, pe, &oldval);";
  "    return oldval;";
  "}";
  "";
  "void shmem_TYPENAME_atomic_or(TYPE * dest, TYPE value, int pe)";
  "{";
  "    OSHMPI_amo_post(SHMEM_CTX_DEFAULT, MPI_TYPE, OSHMPI_AM_MPI_TYPE, sizeof(TYPE), MPI_BOR,";
  "                    OSHMPI_AM_MPI_BOR, dest, &value, pe);";
  "}";
  "";
  "void shmem_ctx_TYPENAME_atomic_or(shmem_ctx_t ctx, TYPE * dest, TYPE value, int pe)";
  "{";
  "    OSHMPI_amo_post(ctx, MPI_TYPE, OSHMPI_AM_MPI_TYPE, sizeof(TYPE), MPI_BOR, OSHMPI_AM_MPI_BOR,";
  "                    dest, &value, pe);";
  "}";
  "";
  "TYPE shmem_TYPENAME_atomic_fetch_xor(TYPE * dest, TYPE value, int pe)";
  "{";
  "    TYPE oldval;";
  "    OSHMPI_amo_fetch(SHMEM_CTX_DEFAULT, MPI_TYPE, OSHMPI_AM_MPI_TYPE, sizeof(TYPE), MPI_BXOR,";
  "                     OSHMPI_AM_MPI_BXOR, dest, &value, pe, &oldval);";
  "    return oldval;";
  "}";
  "";
  "TYPE shmem_ctx_TYPENAME_atomic_fetch_xor(shmem_ctx_t ctx, TYPE * dest, TYPE value, int pe)";
  "{";
  "    TYPE oldval;";
  "    OSHMPI_amo_fetch(ctx, MPI_TYPE, OSHMPI_AM_MPI_TYPE, sizeof(TYPE), MPI_BXOR,";
  "                     OSHMPI_AM_MPI_BXOR, dest, &value, pe, &oldval);";
  "    return oldval;";
  "}";
  "";
  "void shmem_TYPENAME_atomic_xor(TYPE * dest, TYPE value, int pe)";
  "{";
  "    OSHMPI_amo_post(SHMEM_CTX_DEFAULT, MPI_TYPE, OSHMPI_AM_MPI_TYPE, sizeof(TYPE), MPI_BXOR,";
  "                    OSHMPI_AM_MPI_BXOR, dest, &value, pe);";
  "}";
  "";
  "void shmem_ctx_TYPENAME_atomic_xor(shmem_ctx_t ctx, TYPE * dest, TYPE value, int pe)";
  "{";
  "    OSHMPI_amo_post(ctx, MPI_TYPE, OSHMPI_AM_MPI_TYPE, sizeof(TYPE), MPI_BXOR, OSHMPI_AM_MPI_BXOR,";
  "                    dest, &value, pe);";
  "}";
  "";
  "void shmem_TYPENAME_atomic_fetch_and_nbi(TYPE * fetch, TYPE * dest, TYPE value, int pe)";
  "{";
  "    OSHMPI_amo_fetch(SHMEM_CTX_DEFAULT, MPI_TYPE, OSHMPI_AM_MPI_TYPE, sizeof(TYPE), MPI_BAND,";
  "                     OSHMPI_AM_MPI_BAND, dest, &value, pe, fetch);";
  "}";
  "";
  "void shmem_ctx_TYPENAME_atomic_fetch_and_nbi(shmem_ctx_t ctx, TYPE * fetch, TYPE * dest, TYPE value,";
  "                                             int pe)";
  "{";
  "    OSHMPI_amo_fetch(ctx, MPI_TYPE, OSHMPI_AM_MPI_TYPE, sizeof(TYPE), MPI_BAND,";
  "                     OSHMPI_AM_MPI_BAND, dest, &value, pe, fetch);";
  "}";
  "";
  "void shmem_TYPENAME_atomic_fetch_or_nbi(TYPE * fetch, TYPE * dest, TYPE value, int pe)";
  "{";
  "    OSHMPI_amo_fetch(SHMEM_CTX_DEFAULT, MPI_TYPE, OSHMPI_AM_MPI_TYPE, sizeof(TYPE), MPI_BOR,";
  "                     OSHMPI_AM_MPI_BOR, dest, &value, pe, fetch);";
  "}";
  "";
  "void shmem_ctx_TYPENAME_atomic_fetch_or_nbi(shmem_ctx_t ctx, TYPE * fetch, TYPE * dest, TYPE value,";
  "                                            int pe)";
  "{";
  "    OSHMPI_amo_fetch(ctx, MPI_TYPE, OSHMPI_AM_MPI_TYPE, sizeof(TYPE), MPI_BOR, OSHMPI_AM_MPI_BOR,";
  "                     dest, &value, pe, fetch);";
  "}";
  "";
  "void shmem_TYPENAME_atomic_fetch_xor_nbi(TYPE * fetch, TYPE * dest, TYPE value, int pe)";
  "{";
  "    OSHMPI_amo_fetch(SHMEM_CTX_DEFAULT, MPI_TYPE, OSHMPI_AM_MPI_TYPE, sizeof(TYPE), MPI_BXOR,";
  "                     OSHMPI_AM_MPI_BXOR, dest, &value, pe, fetch);";
  "}";
  "";
  "void shmem_ctx_TYPENAME_atomic_fetch_xor_nbi(shmem_ctx_t ctx, TYPE * fetch, TYPE * dest, TYPE value,";
  "                                             int pe)";
  "{";
  "    OSHMPI_amo_fetch(ctx, MPI_TYPE, OSHMPI_AM_MPI_TYPE, sizeof(TYPE), MPI_BXOR, OSHMPI_AM_MPI_BXOR,";
  "                     dest, &value, pe, fetch);";
  "}";
  "";
  "/* TPL_BLOCK_END */"
].

(** src/shmem/coll_typed.c.tpl:1-50 *)
Definition src_coll : list string := [
  "/* -*- Mode: C; c-basic-offset:4 ; -*- */";
  "/*";
  " * (C) 2022 by Argonne National Laboratory.";
  " *     See COPYRIGHT in top-level directory.";
  " */";
  "#include <shmem.h>";
  "#include ""oshmpi_impl.h""";
  "";
  "/* TPL_BLOCK_START */";
  "";
  "int shmem_TYPENAME_broadcast(shmem_team_t team, TYPE * dest, const TYPE * source, size_t nelems,";
  "                             int PE_root)";
  "{";
  "    OSHMPI_team_t *team_obj;";
  "    OSHMPI_TEAM_GET_OBJ(team, team_obj);";
  "    OSHMPI_broadcast_team(team_obj, dest, source, nelems, MPI_TYPE, PE_root);";
  "    return SHMEM_SUCCESS;";
  "}";
  "int shmem_TYPENAME_collect(shmem_team_t team, TYPE * dest, const TYPE * source, size_t nelems)";
  "{";
  "    OSHMPI_team_t *team_obj;";
  "    OSHMPI_TEAM_GET_OBJ(team, team_obj);";
  "    OSHMPI_collect_team(team_obj, dest, source, nelems, MPI_TYPE);";
  "    return SHMEM_SUCCESS;";
  "}";
  "int shmem_TYPENAME_fcollect(shmem_team_t team, TYPE * dest, const TYPE * source, size_t nelems)";
  "{";
  "    OSHMPI_team_t *team_obj;";
  "    OSHMPI_TEAM_GET_OBJ(team, team_obj);";
  "    OSHMPI_fcollect_team(team_obj, dest, source, nelems, MPI_TYPE);";
  "    return SHMEM_SUCCESS;";
  "}";
  "";
  "int shmem_TYPENAME_alltoall(shmem_team_t team, TYPE * dest, const TYPE * source, size_t nelems)";
  "{";
  "    OSHMPI_team_t *team_obj;";
  "    OSHMPI_TEAM_GET_OBJ(team, team_obj);";
  "    OSHMPI_alltoall_team(team_obj, dest, source, nelems, MPI_TYPE);";
  "    return SHMEM_SUCCESS;";
  "}";
  "";
  "int shmem_TYPENAME_alltoalls(shmem_team_t team, TYPE * dest, const TYPE * source, ptrdiff_t dst,";
  "                             ptrdiff_t sst, size_t nelems)";
  "{";
  "    OSHMPI_team_t *team_obj;";
  "    OSHMPI_TEAM_GET_OBJ(team, team_obj);";
  "    OSHMPI_alltoalls_team(team_obj, dest, source, dst, sst, nelems, MPI_TYPE);";
  "    return SHMEM_SUCCESS;";
  "}";
  "/* TPL_BLOCK_END */"
].

(** src/shmem/p2p_typed.c.tpl:1-108 *)
Definition src_p2p : list string := [
  "/* -*- Mode: C; c-basic-offset:4 ; -*- */";
  "/*";
  " *  (C) 2018 by Argonne National Laboratory.";
  " *      See COPYRIGHT in top-level directory.";
  " *";
  " * This file is automatically generated. DO NOT EDIT.";
  " */";
  "";
  "#include <shmem.h>";
  "#include ""oshmpi_impl.h""";
  "/* TPL_BLOCK_START */";
  "";
  "void shmem_TYPENAME_wait_until(TYPE * ivar, int cmp, TYPE cmp_value)";
  "{";
  "    /* Does not return until ivar satisfies the condition implied by cmp and cmp_value. */";
  "    OSHMPI_WAIT_UNTIL(ivar, cmp, cmp_value, TYPE, MPI_TYPE);";
  "}";
  "";
  "void shmem_TYPENAME_wait_until_all(TYPE * ivars, size_t nelems, const int *status, int cmp,";
  "                                   TYPE cmp_value)";
  "{";
  "    OSHMPI_ASSERT(0);";
  "}";
  "";
  "size_t shmem_TYPENAME_wait_until_any(TYPE * ivars, size_t nelems, const int *status, int cmp,";
  "                                     TYPE cmp_value)";
  "{";
  "    OSHMPI_ASSERT(0);";
  "    return SHMEM_OTHER_ERR;";
  "}";
  "";
  "size_t shmem_TYPENAME_wait_until_some(TYPE * ivars, size_t nelems, size_t *indices,";
  "                                      const int *status, int cmp, TYPE cmp_value)";
  "{";
  "    OSHMPI_ASSERT(0);";
  "    return SHMEM_OTHER_ERR;";
  "}";
  "";
  "void shmem_TYPENAME_wait_until_all_vector(TYPE * ivars, size_t nelems, const int *status, int cmp,";
  "                                          TYPE * cmp_values)";
  "{";
  "    OSHMPI_ASSERT(0);";
  "}";
  "";
  "size_t shmem_TYPENAME_wait_until_any_vector(TYPE * ivars, size_t nelems, const int *status, int cmp,";
  "                                            TYPE * cmp_values)";
  "{";
  "    OSHMPI_ASSERT(0);";
  "    return SHMEM_OTHER_ERR;";
  "}";
  "";
  "size_t shmem_TYPENAME_wait_until_some_vector(TYPE * ivars, size_t nelems, size_t *indices,";
  "                                             const int *status, int cmp, TYPE * cmp_values)";
  "{";
  "    OSHMPI_ASSERT(0);";
  "    return SHMEM_OTHER_ERR;";
  "}";
  "";
  "int shmem_TYPENAME_test(TYPE * ivar, int cmp, TYPE cmp_value)";
  "{";
  "    int test_ret = 0;";
  "    /* Returns 1 if the comparison evaluates to true; otherwise, returns 0. */";
  "    OSHMPI_TEST(ivar, cmp, cmp_value, TYPE, MPI_TYPE, test_ret);";
  "    return test_ret;";
  "}";
  "";
  "int shmem_TYPENAME_test_all(TYPE * ivars, size_t nelems, const int *status, int cmp,";
  "                            TYPE cmp_value)";
  "{";
  "    OSHMPI_ASSERT(0);";
  "    return SHMEM_OTHER_ERR;";
  "}";
  "";
  "size_t shmem_TYPENAME_test_any(TYPE * ivars, size_t nelems, const int *status, int cmp,";
  "                               TYPE cmp_value)";
  "{";
  "    OSHMPI_ASSERT(0);";
  "    return SHMEM_OTHER_ERR;";
  "}";
  "";
  "size_t shmem_TYPENAME_test_some(TYPE * ivars, size_t nelems, size_t *indices, const int *status,";
  "                                int cmp, TYPE cmp_value)";
  "{";
  "    OSHMPI_ASSERT(0);";
  "    return SHMEM_OTHER_ERR;";
  "}";
  "";
  "int shmem_TYPENAME_test_all_vector(TYPE * ivars, size_t nelems, const int *status, int cmp,";
  "                                   TYPE * cmp_values)";
  "{";
  "    OSHMPI_ASSERT(0);";
  "    return SHMEM_OTHER_ERR;";
  "}";
  "";
  "size_t shmem_TYPENAME_test_any_vector(TYPE * ivars, size_t nelems, const int *status, int cmp,";
  "                                      TYPE * cmp_values)";
  "{";
  "    OSHMPI_ASSERT(0);";
  "    return SHMEM_OTHER_ERR;";
  "}";
  "";
  "size_t shmem_TYPENAME_test_some_vector(TYPE * ivars, size_t nelems, size_t *indices,";
  "                                       const int *status, int cmp, TYPE * cmp_values)";
  "{";
  "    OSHMPI_ASSERT(0);";
  "    return SHMEM_OTHER_ERR;";
  "}";
  "/* TPL_BLOCK_END */"
].

(** src/shmem/signal_typed.c.tpl:1-38 *)
Definition src_signal : list string := [
  "/* -*- Mode: C; c-basic-offset:4 ; -*- */";
  "/*";
  " *  (C) 2022 by Argonne National Laboratory.";
  " *      See COPYRIGHT in top-level directory.";
  " *";
  " * This file is automatically generated. DO NOT EDIT.";
  " */";
  "";
  "#include <shmem.h>";
  "#include ""oshmpi_impl.h""";
  "";
  "/* TPL_BLOCK_START */";
  "";
  "void shmem_TYPENAME_put_signal(TYPE * dest, const TYPE * source, size_t nelems, uint64_t *sig_addr,";
  "                               uint64_t signal, int sig_op, int pe)";
  "{";
  "    OSHMPI_ASSERT(0);";
  "}";
  "";
  "void shmem_ctx_TYPENAME_put_signal(shmem_ctx_t ctx, TYPE * dest, const TYPE * source, size_t nelems,";
  "                                   uint64_t *sig_addr, uint64_t signal, int sig_op, int pe)";
  "{";
  "    OSHMPI_ASSERT(0);";
  "}";
  "";
  "void shmem_TYPENAME_put_signal_nbi(TYPE * dest, const TYPE * source, size_t nelems,";
  "                                   uint64_t *sig_addr, uint64_t signal, int sig_op, int pe)";
  "{";
  "    OSHMPI_ASSERT(0);";
  "}";
  "";
  "void shmem_ctx_TYPENAME_put_signal_nbi(shmem_ctx_t ctx, TYPE * dest, const TYPE * source,";
  "                                       size_t nelems, uint64_t *sig_addr, uint64_t signal,";
  "                                       int sig_op, int pe)";
  "{";
  "    OSHMPI_ASSERT(0);";
  "}";
  "/* TPL_BLOCK_END */"
].

(** src/shmem/reduce_minmax_aset_typed.c.tpl:1-26 *)
Definition src_reduce_minmax_aset : list string := [
  "/* -*- Mode: C{} c-basic-offset:4 {} -*- */";
  "/*";
  " *  (C) 2018 by Argonne National Laboratory.";
  " *      See COPYRIGHT in top-level directory.";
  " *";
  " * This file is automatically generated. DO NOT EDIT.";
  " */";
  "";
  "#include <shmem.h>";
  "#include ""oshmpi_impl.h""";
  "/* TPL_BLOCK_START */";
  "";
  "/* depreciated APIs */";
  "void shmem_TYPENAME_min_to_all(TYPE * dest, const TYPE * source, int nreduce, int PE_start,";
  "                               int logPE_stride, int PE_size, TYPE * pWrk, long *pSync)";
  "{";
  "    OSHMPI_allreduce(dest, source, nreduce, MPI_TYPE, MPI_MIN, PE_start, logPE_stride, PE_size);";
  "}";
  "";
  "void shmem_TYPENAME_max_to_all(TYPE * dest, const TYPE * source, int nreduce, int PE_start,";
  "                               int logPE_stride, int PE_size, TYPE * pWrk, long *pSync)";
  "{";
  "    OSHMPI_allreduce(dest, source, nreduce, MPI_TYPE, MPI_MAX, PE_start, logPE_stride, PE_size);";
  "}";
  "/* end of deprecation */";
  "/* TPL_BLOCK_END */"
].

(** src/shmem/reduce_sumprod_aset_typed.c.tpl:1-26 *)
Definition src_reduce_sumprod_aset : list string := [
  "/* -*- Mode: C{} c-basic-offset:4 {} -*- */";
  "/*";
  " *  (C) 2018 by Argonne National Laboratory.";
  " *      See COPYRIGHT in top-level directory.";
  " *";
  " * This file is automatically generated. DO NOT EDIT.";
  " */";
  "";
  "#include <shmem.h>";
  "#include ""oshmpi_impl.h""";
  "/* TPL_BLOCK_START */";
  "";
  "/* deprecated APIs */";
  "void shmem_TYPENAME_sum_to_all(TYPE * dest, const TYPE * source, int nreduce, int PE_start,";
  "                               int logPE_stride, int PE_size, TYPE * pWrk, long *pSync)";
  "{";
  "    OSHMPI_allreduce(dest, source, nreduce, MPI_TYPE, MPI_SUM, PE_start, logPE_stride, PE_size);";
  "}";
  "";
  "void shmem_TYPENAME_prod_to_all(TYPE * dest, const TYPE * source, int nreduce, int PE_start,";
  "                                int logPE_stride, int PE_size, TYPE * pWrk, long *pSync)";
  "{";
  "    OSHMPI_allreduce(dest, source, nreduce, MPI_TYPE, MPI_PROD, PE_start, logPE_stride, PE_size);";
  "}";
  "/* end of deprecation */";
  "/* TPL_BLOCK_END */"
].

(** src/shmem/reduce_bitws_aset_typed.c.tpl:1-32 *)
Definition src_reduce_bitws_aset : list string := [
  "/* -*- Mode: C{} c-basic-offset:4 {} -*- */";
  "/*";
  " *  (C) 2018 by Argonne National Laboratory.";
  " *      See COPYRIGHT in top-level directory.";
  " *";
  " * This file is automatically generated. DO NOT EDIT.";
  " */";
  "";
  "#include <shmem.h>";
  "#include ""oshmpi_impl.h""";
  "/* TPL_BLOCK_START */";
  "";
  "/* deprecated APIs */";
  "void shmem_TYPENAME_and_to_all(TYPE * dest, const TYPE * source, int nreduce, int PE_start,";
  "                               int logPE_stride, int PE_size, TYPE * pWrk, long *pSync)";
  "{";
  "    OSHMPI_allreduce(dest, source, nreduce, MPI_TYPE, MPI_BAND, PE_start, logPE_stride, PE_size);";
  "}";
  "";
  "void shmem_TYPENAME_or_to_all(TYPE * dest, const TYPE * source, int nreduce, int PE_start,";
  "                              int logPE_stride, int PE_size, TYPE * pWrk, long *pSync)";
  "{";
  "    OSHMPI_allreduce(dest, source, nreduce, MPI_TYPE, MPI_BOR, PE_start, logPE_stride, PE_size);";
  "}";
  "";
  "void shmem_TYPENAME_xor_to_all(TYPE * dest, const TYPE * source, int nreduce, int PE_start,";
  "                               int logPE_stride, int PE_size, TYPE * pWrk, long *pSync)";
  "{";
  "    OSHMPI_allreduce(dest, source, nreduce, MPI_TYPE, MPI_BXOR, PE_start, logPE_stride, PE_size);";
  "}";
  "/* end of deprecation */";
  "/* TPL_BLOCK_END */"
].

(** src/shmem/reduce_minmax_team_typed.c.tpl:1-28 *)
Definition src_reduce_minmax_team : list string := [
  "/* -*- Mode: C{} c-basic-offset:4 {} -*- */";
  "/*";
  " *  (C) 2022 by Argonne National Laboratory.";
  " *      See COPYRIGHT in top-level directory.";
  " *";
  " * This file is automatically generated. DO NOT EDIT.";
  " */";
  "";
  "#include <shmem.h>";
  "#include ""oshmpi_impl.h""";
  "/* TPL_BLOCK_START */";
  "";
  "int shmem_TYPENAME_min_reduce(shmem_team_t team, TYPE * dest, const TYPE * source, size_t nreduce)";
  "{";
  "    OSHMPI_team_t *team_obj;";
  "    OSHMPI_TEAM_GET_OBJ(team, team_obj);";
  "    OSHMPI_allreduce_team(team_obj, dest, source, nreduce, MPI_TYPE, MPI_MIN);";
  "    return SHMEM_SUCCESS;";
  "}";
  "";
  "int shmem_TYPENAME_max_reduce(shmem_team_t team, TYPE * dest, const TYPE * source, size_t nreduce)";
  "{";
  "    OSHMPI_team_t *team_obj;";
  "    OSHMPI_TEAM_GET_OBJ(team, team_obj);";
  "    OSHMPI_allreduce_team(team_obj, dest, source, nreduce, MPI_TYPE, MPI_MAX);";
  "    return SHMEM_SUCCESS;";
  "}";
  "/* TPL_BLOCK_END */"
].

(** src/shmem/reduce_sumprod_team_typed.c.tpl:1-28 *)
Definition src_reduce_sumprod_team : list string := [
  "/* -*- Mode: C{} c-basic-offset:4 {} -*- */";
  "/*";
  " *  (C) 2022 by Argonne National Laboratory.";
  " *      See COPYRIGHT in top-level directory.";
  " *";
  " * This file is automatically generated. DO NOT EDIT.";
  " */";
  "";
  "#include <shmem.h>";
  "#include ""oshmpi_impl.h""";
  "/* TPL_BLOCK_START */";
  "";
  "int shmem_TYPENAME_sum_reduce(shmem_team_t team, TYPE * dest, const TYPE * source, size_t nreduce)";
  "{";
  "    OSHMPI_team_t *team_obj;";
  "    OSHMPI_TEAM_GET_OBJ(team, team_obj);";
  "    OSHMPI_allreduce_team(team_obj, dest, source, nreduce, MPI_TYPE, MPI_SUM);";
  "    return SHMEM_SUCCESS;";
  "}";
  "";
  "int shmem_TYPENAME_prod_reduce(shmem_team_t team, TYPE * dest, const TYPE * source, size_t nreduce)";
  "{";
  "    OSHMPI_team_t *team_obj;";
  "    OSHMPI_TEAM_GET_OBJ(team, team_obj);";
  "    OSHMPI_allreduce_team(team_obj, dest, source, nreduce, MPI_TYPE, MPI_PROD);";
  "    return SHMEM_SUCCESS;";
  "}";
  "/* TPL_BLOCK_END */"
].

(** src/shmem/reduce_bitws_team_typed.c.tpl:1-36 *)
Definition src_reduce_bitws_team : list string := [
  "/* -*- Mode: C{} c-basic-offset:4 {} -*- */";
  "/*";
  " *  (C) 2022 by Argonne National Laboratory.";
  " *      See COPYRIGHT in top-level directory.";
  " *";
  " * This file is automatically generated. DO NOT EDIT.";
  " */";
  "";
  "#include <shmem.h>";
  "#include ""oshmpi_impl.h""";
  "/* TPL_BLOCK_START */";
  "";
  "int shmem_TYPENAME_and_reduce(shmem_team_t team, TYPE * dest, const TYPE * source, size_t nreduce)";
  "{";
  "    OSHMPI_team_t *team_obj;";
  "    OSHMPI_TEAM_GET_OBJ(team, team_obj);";
  "    OSHMPI_allreduce_team(team_obj, dest, source, nreduce, MPI_TYPE, MPI_BAND);";
  "    return SHMEM_SUCCESS;";
  "}";
  "";
  "int shmem_TYPENAME_or_reduce(shmem_team_t team, TYPE * dest, const TYPE * source, size_t nreduce)";
  "{";
  "    OSHMPI_team_t *team_obj;";
  "    OSHMPI_TEAM_GET_OBJ(team, team_obj);";
  "    OSHMPI_allreduce_team(team_obj, dest, source, nreduce, MPI_TYPE, MPI_BOR);";
  "    return SHMEM_SUCCESS;";
  "}";
  "";
  "int shmem_TYPENAME_xor_reduce(shmem_team_t team, TYPE * dest, const TYPE * source, size_t nreduce)";
  "{";
  "    OSHMPI_team_t *team_obj;";
  "    OSHMPI_TEAM_GET_OBJ(team, team_obj);";
  "    OSHMPI_allreduce_team(team_obj, dest, source, nreduce, MPI_TYPE, MPI_BXOR);";
  "    return SHMEM_SUCCESS;";
  "}";
  "/* TPL_BLOCK_END */"
].

(** src/shmem/rma_sized.c.tpl:1-90 *)
Definition src_rma_sized : list string := [
  "/* -*- Mode: C{} c-basic-offset:4 {} -*- */";
  "/*";
  " *  (C) 2018 by Argonne National Laboratory.";
  " *      See COPYRIGHT in top-level directory.";
  " *";
  " * This file is automatically generated. DO NOT EDIT.";
  " */";
  "";
  "#include <shmem.h>";
  "#include ""oshmpi_impl.h""";
  "/* TPL_BLOCK_START */";
  "";
  "void shmem_getSIZENAME(void *dest, const void *source, size_t nelems, int pe)";
  "{";
  "    OSHMPI_ctx_get(SHMEM_CTX_DEFAULT, MPI_TYPE, SIZE, dest /* origin_addr */ ,";
  "                   source /* target_addr */ , nelems, pe);";
  "}";
  "";
  "void shmem_ctx_getSIZENAME(shmem_ctx_t ctx, void *dest, const void *source, size_t nelems, int pe)";
  "{";
  "    OSHMPI_ctx_get(ctx, MPI_TYPE, SIZE, dest /* origin_addr */ ,";
  "                   source /* target_addr */ , nelems, pe);";
  "}";
  "";
  "void shmem_getSIZENAME_nbi(void *dest, const void *source, size_t nelems, int pe)";
  "{";
  "    OSHMPI_ctx_get_nbi(SHMEM_CTX_DEFAULT, MPI_TYPE, SIZE, dest /* origin_addr */ ,";
  "                       source /* target_addr */ , nelems, pe);";
  "}";
  "";
  "void shmem_ctx_getSIZENAME_nbi(shmem_ctx_t ctx, void *dest, const void *source,";
  "                               size_t nelems, int pe)";
  "{";
  "    OSHMPI_ctx_get_nbi(ctx, MPI_TYPE, SIZE, dest /* origin_addr */ ,";
  "                       source /* target_addr */ , nelems, pe);";
  "}";
  "";
  "void shmem_igetSIZENAME(void *dest, const void *source, ptrdiff_t dst, ptrdiff_t sst,";
  "                        size_t nelems, int pe)";
  "{";
  "    OSHMPI_ctx_iget(SHMEM_CTX_DEFAULT, MPI_TYPE, OSHMPI_AM_MPI_TYPE, dest /* origin_addr */ ,";
  "                    source /* target_addr */ , dst, sst, nelems, pe);";
  "}";
  "";
  "void shmem_ctx_igetSIZENAME(shmem_ctx_t ctx, void *dest, const void *source, ptrdiff_t dst,";
  "                            ptrdiff_t sst, size_t nelems, int pe)";
  "{";
  "    OSHMPI_ctx_iget(ctx, MPI_TYPE, OSHMPI_AM_MPI_TYPE, dest /* origin_addr */ ,";
  "                    source /* target_addr */ , dst, sst, nelems, pe);";
  "}";
  "";
  "void shmem_putSIZENAME(void *dest, const void *source, size_t nelems, int pe)";
  "{";
  "    OSHMPI_ctx_put(SHMEM_CTX_DEFAULT, MPI_TYPE, SIZE, source /* origin_addr */ ,";
  "                   dest /* target_addr */ , nelems, pe);";
  "}";
  "";
  "void shmem_ctx_putSIZENAME(shmem_ctx_t ctx, void *dest, const void *source, size_t nelems, int pe)";
  "{";
  "    OSHMPI_ctx_put(ctx, MPI_TYPE, SIZE, source /* origin_addr */ ,";
  "                   dest /* target_addr */ , nelems, pe);";
  "}";
  "";
  "void shmem_iputSIZENAME(void *dest, const void *source, ptrdiff_t dst,";
  "                        ptrdiff_t sst, size_t nelems, int pe)";
  "{";
  "    OSHMPI_ctx_iput(SHMEM_CTX_DEFAULT, MPI_TYPE, OSHMPI_AM_MPI_TYPE, source /* origin_addr */ ,";
  "                    dest /* target_addr */ , dst, sst, nelems, pe);";
  "}";
  "";
  "void shmem_ctx_iputSIZENAME(shmem_ctx_t ctx, void *dest, const void *source,";
  "                            ptrdiff_t dst, ptrdiff_t sst, size_t nelems, int pe)";
  "{";
  "    OSHMPI_ctx_iput(ctx, MPI_TYPE, OSHMPI_AM_MPI_TYPE, source /* origin_addr */ ,";
  "                    dest /* target_addr */ , dst, sst, nelems, pe);";
  "}";
  "";
  "void shmem_putSIZENAME_nbi(void *dest, const void *source, size_t nelems, int pe)";
  "{";
  "    OSHMPI_ctx_put_nbi(SHMEM_CTX_DEFAULT, MPI_TYPE, SIZE, source /* origin_addr */ ,";
  "                       dest /* target_addr */ , nelems, pe);";
  "}";
  "";
  "void shmem_ctx_putSIZENAME_nbi(shmem_ctx_t ctx, void *dest, const void *source,";
  "                               size_t nelems, int pe)";
  "{";
  "    OSHMPI_ctx_put_nbi(ctx, MPI_TYPE, SIZE, source /* origin_addr */ ,";
  "                       dest /* target_addr */ , nelems, pe);";
  "}";
  "/* TPL_BLOCK_END */"
].

(** src/shmem/signal_sized.c.tpl:1-38 *)
Definition src_signal_sized : list string := [
  "/* -*- Mode: C{} c-basic-offset:4 {} -*- */";
  "/*";
  " *  (C) 2022 by Argonne National Laboratory.";
  " *      See COPYRIGHT in top-level directory.";
  " *";
  " * This file is automatically generated. DO NOT EDIT.";
  " */";
  "";
  "#include <shmem.h>";
  "#include ""oshmpi_impl.h""";
  "";
  "/* TPL_BLOCK_START */";
  "";
  "void shmem_putSIZENAME_signal(void *dest, const void *source, size_t nelems, uint64_t *sig_addr,";
  "                              uint64_t signal, int sig_op, int pe)";
  "{";
  "    OSHMPI_ASSERT(0);";
  "}";
  "";
  "void shmem_ctx_putSIZENAME_signal(shmem_ctx_t ctx, void *dest, const void *source, size_t nelems,";
  "                                  uint64_t *sig_addr, uint64_t signal, int sig_op, int pe)";
  "{";
  "    OSHMPI_ASSERT(0);";
  "}";
  "";
  "void shmem_putSIZENAME_signal_nbi(void *dest, const void *source, size_t nelems, uint64_t *sig_addr,";
  "                                  uint64_t signal, int sig_op, int pe)";
  "{";
  "    OSHMPI_ASSERT(0);";
  "}";
  "";
  "void shmem_ctx_putSIZENAME_signal_nbi(shmem_ctx_t ctx, void *dest, const void *source,";
  "                                      size_t nelems, uint64_t *sig_addr, uint64_t signal,";
  "                                      int sig_op, int pe)";
  "{";
  "    OSHMPI_ASSERT(0);";
  "}";
  "/* TPL_BLOCK_END */"
].

(** include/shmem_rma_typed.h.tpl:1-143 *)
Definition hdr_rma : list string := [
  "/* The following lines are automatically generated. DO NOT EDIT. */";
  "/* TPL_BLOCK_START */";
  "TYPE shmem_TYPENAME_g(const TYPE * source, int pe);";
  "TYPE shmem_ctx_TYPENAME_g(shmem_ctx_t ctx, const TYPE * source, int pe);";
  "void shmem_TYPENAME_get(TYPE * dest, const TYPE * source, size_t nelems, int pe);";
  "void shmem_ctx_TYPENAME_get(shmem_ctx_t ctx, TYPE * dest, const TYPE * source,";
  "                            size_t nelems, int pe);";
  "void shmem_TYPENAME_get_nbi(TYPE * dest, const TYPE * source, size_t nelems, int pe);";
  "void shmem_ctx_TYPENAME_get_nbi(shmem_ctx_t ctx, TYPE * dest, const TYPE * source,";
  "                                size_t nelems, int pe);";
  "void shmem_TYPENAME_iget(TYPE * dest, const TYPE * source, ptrdiff_t dst, ptrdiff_t sst,";
  "                         size_t nelems, int pe);";
  "void shmem_ctx_TYPENAME_iget(shmem_ctx_t ctx, TYPE * dest, const TYPE * source, ptrdiff_t dst,";
  "                             ptrdiff_t sst, size_t nelems, int pe);";
  "void shmem_TYPENAME_p(TYPE * dest, TYPE value, int pe);";
  "void shmem_ctx_TYPENAME_p(shmem_ctx_t ctx, TYPE * dest, TYPE value, int pe);";
  "void shmem_TYPENAME_put(TYPE * dest, const TYPE * source, size_t nelems, int pe);";
  "void shmem_ctx_TYPENAME_put(shmem_ctx_t ctx, TYPE * dest, const TYPE * source,";
  "                            size_t nelems, int pe);";
  "void shmem_TYPENAME_iput(TYPE * dest, const TYPE * source, ptrdiff_t dst,";
  "                         ptrdiff_t sst, size_t nelems, int pe);";
  "void shmem_ctx_TYPENAME_iput(shmem_ctx_t ctx, TYPE * dest, const TYPE * source,";
  "                             ptrdiff_t dst, ptrdiff_t sst, size_t nelems, int pe);";
  "void shmem_TYPENAME_put_nbi(TYPE * dest, const TYPE * source, size_t nelems, int pe);";
  "void shmem_ctx_TYPENAME_put_nbi(shmem_ctx_t ctx, TYPE * dest, const TYPE * source,";
  "                                size_t nelems, int pe);";
  "/* TPL_BLOCK_END */";
  "";
  "/* *INDENT-OFF* */";
  "#if OSHMPI_HAVE_C11";
  "#define shmem_g(...)  \";
  "    _Generic(OSHMPI_C11_CTX_VAL(OSHMPI_C11_ARG0(__VA_ARGS__)), \";
  "        shmem_ctx_t:  _Generic((OSHMPI_C11_ARG1(__VA_ARGS__)), \";
  "/* TPL_C11_BLOCK_START */";
  "            TYPE*: shmem_ctx_TYPENAME_g,   \";
  "/* TPL_C11_BLOCK_END */";
  "            default: shmem_c11_type_ignore \";
  "        ), \";
  "        /* TPL_C11_BLOCK_START */";
  "        TYPE*: shmem_TYPENAME_g,       \";
  "        /* TPL_C11_BLOCK_END */";
  "        default: shmem_c11_type_ignore     \";
  "    )(__VA_ARGS__)";
  "";
  "#define shmem_get(...)  \";
  "    _Generic(OSHMPI_C11_CTX_VAL(OSHMPI_C11_ARG0(__VA_ARGS__)), \";
  "        shmem_ctx_t:  _Generic((OSHMPI_C11_ARG1(__VA_ARGS__)), \";
  "/* TPL_C11_BLOCK_START */";
  "            TYPE*: shmem_ctx_TYPENAME_get, \";
  "/* TPL_C11_BLOCK_END */";
  "            default: shmem_c11_type_ignore \";
  "        ), \";
  "        /* TPL_C11_BLOCK_START */";
  "        TYPE*: shmem_TYPENAME_get,     \";
  "        /* TPL_C11_BLOCK_END */";
  "        default: shmem_c11_type_ignore     \";
  "    )(__VA_ARGS__)";
  "";
  "#define shmem_get_nbi(...)  \";
  "    _Generic(OSHMPI_C11_CTX_VAL(OSHMPI_C11_ARG0(__VA_ARGS__)), \";
  "        shmem_ctx_t:  _Generic((OSHMPI_C11_ARG1(__VA_ARGS__)), \";
  "/* TPL_C11_BLOCK_START */";
  "            TYPE*: shmem_ctx_TYPENAME_get_nbi, \";
  "/* TPL_C11_BLOCK_END */";
  "            default: shmem_c11_type_ignore     \";
  "        ), \";
  "        /* TPL_C11_BLOCK_START */";
  "        TYPE*: shmem_TYPENAME_get_nbi,     \";
  "        /* TPL_C11_BLOCK_END */";
  "        default: shmem_c11_type_ignore         \";
  "    )(__VA_ARGS__)";
  "";
  "#define shmem_iget(...)  \";
  "    _Generic(OSHMPI_C11_CTX_VAL(OSHMPI_C11_ARG0(__VA_ARGS__)), \";
  "        shmem_ctx_t:  _Generic((OSHMPI_C11_ARG1(__VA_ARGS__)), \";
  "/* TPL_C11_BLOCK_START */";
  "            TYPE*: shmem_ctx_TYPENAME_iget, \";
  "/* TPL_C11_BLOCK_END */";
  "            default: shmem_c11_type_ignore  \";
  "        ), \";
  "        /* TPL_C11_BLOCK_START */";
  "        TYPE*: shmem_TYPENAME_iget,     \";
  "        /* TPL_C11_BLOCK_END */";
  "        default: shmem_c11_type_ignore      \";
  "    )(__VA_ARGS__)";
  "";
  "#define shmem_p(...)  \";
  "    _Generic(OSHMPI_C11_CTX_VAL(OSHMPI_C11_ARG0(__VA_ARGS__)), \";
  "        shmem_ctx_t:  _Generic((OSHMPI_C11_ARG1(__VA_ARGS__)), \";
  "/* TPL_C11_BLOCK_START */";
  "            TYPE*: shmem_ctx_TYPENAME_p,   \";
  "/* TPL_C11_BLOCK_END */";
  "            default: shmem_c11_type_ignore \";
  "        ), \";
  "        /* TPL_C11_BLOCK_START */";
  "        TYPE*: shmem_TYPENAME_p,       \";
  "        /* TPL_C11_BLOCK_END */";
  "        default: shmem_c11_type_ignore     \";
  "    )(__VA_ARGS__)";
  "";
  "#define shmem_put(...)  \";
  "    _Generic(OSHMPI_C11_CTX_VAL(OSHMPI_C11_ARG0(__VA_ARGS__)), \";
  "        shmem_ctx_t:  _Generic((OSHMPI_C11_ARG1(__VA_ARGS__)), \";
  "/* TPL_C11_BLOCK_START */";
  "            TYPE*: shmem_ctx_TYPENAME_put, \";
  "/* TPL_C11_BLOCK_END */";
  "            default: shmem_c11_type_ignore \";
  "        ), \";
  "        /* TPL_C11_BLOCK_START */";
  "        TYPE*: shmem_TYPENAME_put,     \";
  "        /* TPL_C11_BLOCK_END */";
  "        default: shmem_c11_type_ignore     \";
  "    )(__VA_ARGS__)";
  "";
  "#define shmem_put_nbi(...)  \";
  "    _Generic(OSHMPI_C11_CTX_VAL(OSHMPI_C11_ARG0(__VA_ARGS__)), \";
  "        shmem_ctx_t:  _Generic((OSHMPI_C11_ARG1(__VA_ARGS__)), \";
  "/* TPL_C11_BLOCK_START */";
  "            TYPE*: shmem_ctx_TYPENAME_put_nbi, \";
  "/* TPL_C11_BLOCK_END */";
  "            default: shmem_c11_type_ignore     \";
  "        ), \";
  "        /* TPL_C11_BLOCK_START */";
  "        TYPE*: shmem_TYPENAME_put_nbi,     \";
  "        /* TPL_C11_BLOCK_END */";
  "        default: shmem_c11_type_ignore         \";
  "    )(__VA_ARGS__)";
  "";
  "#define shmem_iput(...)  \";
  "    _Generic(OSHMPI_C11_CTX_VAL(OSHMPI_C11_ARG0(__VA_ARGS__)), \";
  "        shmem_ctx_t:  _Generic((OSHMPI_C11_ARG1(__VA_ARGS__)), \";
  "/* TPL_C11_BLOCK_START */";
  "            TYPE*: shmem_ctx_TYPENAME_iput, \";
  "/* TPL_C11_BLOCK_END */";
  "            default: shmem_c11_type_ignore  \";
  "        ), \";
  "        /* TPL_C11_BLOCK_START */";
  "        TYPE*: shmem_TYPENAME_iput,     \";
  "        /* TPL_C11_BLOCK_END */";
  "        default: shmem_c11_type_ignore      \";
  "    )(__VA_ARGS__)";
  "#endif /* OSHMPI_HAVE_C11 */";
  "/* *INDENT-ON* */"
].

(** include/shmem_amo_std_typed.h.tpl:1-219 *)
Definition hdr_amo_std : list string := [
  "/* The following lines are automatically generated. DO NOT EDIT. */";
  "/* TPL_BLOCK_START */";
  "TYPE shmem_TYPENAME_atomic_compare_swap(TYPE * dest, TYPE cond, TYPE value, int pe);";
  "TYPE shmem_ctx_TYPENAME_atomic_compare_swap(shmem_ctx_t ctx, TYPE * dest, TYPE cond, TYPE";
  "                                            value, int pe);";
  "TYPE shmem_TYPENAME_atomic_fetch_inc(TYPE * dest, int pe);";
  "TYPE shmem_ctx_TYPENAME_atomic_fetch_inc(shmem_ctx_t ctx, TYPE * dest, int pe);";
  "void shmem_TYPENAME_atomic_inc(TYPE * dest, int pe);";
  "void shmem_ctx_TYPENAME_atomic_inc(shmem_ctx_t ctx, TYPE * dest, int pe);";
  "TYPE shmem_TYPENAME_atomic_fetch_add(TYPE * dest, TYPE value, int pe);";
  "TYPE shmem_ctx_TYPENAME_atomic_fetch_add(shmem_ctx_t ctx, TYPE * dest, TYPE value, int pe);";
  "void shmem_TYPENAME_atomic_add(TYPE * dest, TYPE value, int pe);";
  "void shmem_ctx_TYPENAME_atomic_add(shmem_ctx_t ctx, TYPE * dest, TYPE value, int pe);";
  "";
  "void shmem_TYPENAME_atomic_compare_swap_nbi(TYPE * fetch,TYPE * dest, TYPE cond, TYPE value,";
  "                                            int pe);";
  "void shmem_ctx_TYPENAME_atomic_compare_swap_nbi(shmem_ctx_t ctx, TYPE * fetch, TYPE * dest,";
  "                                                TYPE cond, TYPE value, int pe);";
  "void shmem_TYPENAME_atomic_fetch_inc_nbi(TYPE * fetch, TYPE * dest, int pe);";
  "void shmem_ctx_TYPENAME_atomic_fetch_inc_nbi(shmem_ctx_t ctx, TYPE * fetch, TYPE * dest, int pe);";
  "void shmem_TYPENAME_atomic_fetch_add_nbi(TYPE * fetch, TYPE * dest, TYPE value, int pe);";
  "void shmem_ctx_TYPENAME_atomic_fetch_add_nbi(shmem_ctx_t ctx, TYPE * fetch, TYPE * dest, TYPE value,";
  "                                             int pe);";
  "/* Deprecated APIs start */";
  "TYPE shmem_TYPENAME_cswap(TYPE * dest, TYPE cond, TYPE value, int pe);";
  "TYPE shmem_TYPENAME_finc(TYPE * dest, int pe);";
  "void shmem_TYPENAME_inc(TYPE * dest, int pe);";
  "TYPE shmem_TYPENAME_fadd(TYPE * dest, TYPE value, int pe);";
  "void shmem_TYPENAME_add(TYPE * dest, TYPE value, int pe);";
  "/* Deprecated APIs end */";
  "/* TPL_BLOCK_END */";
  "";
  "/* *INDENT-OFF* */";
  "#if OSHMPI_HAVE_C11";
  "#define shmem_atomic_compare_swap(...)  \";
  "    _Generic(OSHMPI_C11_CTX_VAL(OSHMPI_C11_ARG0(__VA_ARGS__)), \";
  "        shmem_ctx_t:  _Generic((OSHMPI_C11_ARG1(__VA_ARGS__)), \";
  "/* TPL_C11_BLOCK_START */";
  "            TYPE*: shmem_ctx_TYPENAME_atomic_compare_swap, \";
  "/* TPL_C11_BLOCK_END */";
  "            default: shmem_c11_type_ignore                 \";
  "        ), \";
  "        /* TPL_C11_BLOCK_START */";
  "        TYPE*: shmem_TYPENAME_atomic_compare_swap,     \";
  "        /* TPL_C11_BLOCK_END */";
  "        default: shmem_c11_type_ignore       \";
  "    )(__VA_ARGS__)";
  "";
  "#define shmem_atomic_compare_swap_nbi(...)  \";
  "    _Generic(OSHMPI_C11_CTX_VAL(OSHMPI_C11_ARG0(__VA_ARGS__)), \";
  "        shmem_ctx_t:  _Generic((OSHMPI_C11_ARG1(__VA_ARGS__)), \";
  "/* TPL_C11_BLOCK_START */";
  "            TYPE*: shmem_ctx_TYPENAME_atomic_compare_swap_nbi, \";
  "/* TPL_C11_BLOCK_END */";
  "            default: shmem_c11_type_ignore                 \";
  "        ), \";
  "        /* TPL_C11_BLOCK_START */";
  "        TYPE*: shmem_TYPENAME_atomic_compare_swap_nbi,     \";
  "        /* TPL_C11_BLOCK_END */";
  "        default: shmem_c11_type_ignore       \";
  "    )(__VA_ARGS__)";
  "";
  "#define shmem_atomic_fetch_inc(...)  \";
  "    _Generic(OSHMPI_C11_CTX_VAL(OSHMPI_C11_ARG0(__VA_ARGS__)), \";
  "        shmem_ctx_t:  _Generic((OSHMPI_C11_ARG1(__VA_ARGS__)), \";
  "/* TPL_C11_BLOCK_START */";
  "            TYPE*: shmem_ctx_TYPENAME_atomic_fetch_inc, \";
  "/* TPL_C11_BLOCK_END */";
  "            default: shmem_c11_type_ignore              \";
  "        ), \";
  "        /* TPL_C11_BLOCK_START */";
  "        TYPE*: shmem_TYPENAME_atomic_fetch_inc,     \";
  "        /* TPL_C11_BLOCK_END */";
  "        default: shmem_c11_type_ignore       \";
  "    )(__VA_ARGS__)";
  "";
  "#define shmem_atomic_fetch_inc_nbi(...)  \";
  "    _Generic(OSHMPI_C11_CTX_VAL(OSHMPI_C11_ARG0(__VA_ARGS__)), \";
  "        shmem_ctx_t:  _Generic((OSHMPI_C11_ARG1(__VA_ARGS__)), \";
  "/* TPL_C11_BLOCK_START */";
  "            TYPE*: shmem_ctx_TYPENAME_atomic_fetch_inc_nbi, \";
  "/* TPL_C11_BLOCK_END */";
  "            default: shmem_c11_type_ignore              \";
  "        ), \";
  "        /* TPL_C11_BLOCK_START */";
  "        TYPE*: shmem_TYPENAME_atomic_fetch_inc_nbi,     \";
  "        /* TPL_C11_BLOCK_END */";
  "        default: shmem_c11_type_ignore       \";
  "    )(__VA_ARGS__)";
  "";
  "#define shmem_atomic_inc(...)  \";
  "    _Generic(OSHMPI_C11_CTX_VAL(OSHMPI_C11_ARG0(__VA_ARGS__)), \";
  "        shmem_ctx_t:  _Generic((OSHMPI_C11_ARG1(__VA_ARGS__)), \";
  "/* TPL_C11_BLOCK_START */";
  "            TYPE*: shmem_ctx_TYPENAME_atomic_inc, \";
  "/* TPL_C11_BLOCK_END */";
  "            default: shmem_c11_type_ignore        \";
  "        ), \";
  "        /* TPL_C11_BLOCK_START */";
  "        TYPE*: shmem_TYPENAME_atomic_inc,     \";
  "        /* TPL_C11_BLOCK_END */";
  "        default: shmem_c11_type_ignore       \";
  "    )(__VA_ARGS__)";
  "";
  "#define shmem_atomic_fetch_add(...)  \";
  "    _Generic(OSHMPI_C11_CTX_VAL(OSHMPI_C11_ARG0(__VA_ARGS__)), \";
  "        shmem_ctx_t:  _Generic((OSHMPI_C11_ARG1(__VA_ARGS__)), \";
  "/* TPL_C11_BLOCK_START */";
  "            TYPE*: shmem_ctx_TYPENAME_atomic_fetch_add, \";
  "/* TPL_C11_BLOCK_END */";
  "            default: shmem_c11_type_ignore              \";
  "        ), \";
  "        /* TPL_C11_BLOCK_START */";
  "        TYPE*: shmem_TYPENAME_atomic_fetch_add,     \";
  "        /* TPL_C11_BLOCK_END */";
  "        default: shmem_c11_type_ignore       \";
  "    )(__VA_ARGS__)";
  "";
  "#define shmem_atomic_fetch_add_nbi(...)  \";
  "    _Generic(OSHMPI_C11_CTX_VAL(OSHMPI_C11_ARG0(__VA_ARGS__)), \";
  "        shmem_ctx_t:  _Generic((OSHMPI_C11_ARG1(__VA_ARGS__)), \";
  "/* TPL_C11_BLOCK_START */";
  "            TYPE*: shmem_ctx_TYPENAME_atomic_fetch_add_nbi, \";
  "/* TPL_C11_BLOCK_END */";
  "            default: shmem_c11_type_ignore              \";
  "        ), \";
  "        /* TPL_C11_BLOCK_START */";
  "        TYPE*: shmem_TYPENAME_atomic_fetch_add_nbi,     \";
  "        /* TPL_C11_BLOCK_END */";
  "        default: shmem_c11_type_ignore       \";
  "    )(__VA_ARGS__)";
  "";
  "#define shmem_atomic_add(...)  \";
  "    _Generic(OSHMPI_C11_CTX_VAL(OSHMPI_C11_ARG0(__VA_ARGS__)), \";
  "        shmem_ctx_t:  _Generic((OSHMPI_C11_ARG1(__VA_ARGS__)), \";
  "/* TPL_C11_BLOCK_START */";
  "            TYPE*: shmem_ctx_TYPENAME_atomic_add, \";
  "/* TPL_C11_BLOCK_END */";
  "            default: shmem_c11_type_ignore        \";
  "        ), \";
  "        /* TPL_C11_BLOCK_START */";
  "        TYPE*: shmem_TYPENAME_atomic_add,     \";
  "        /* TPL_C11_BLOCK_END */";
  "        default: shmem_c11_type_ignore       \";
  "    )(__VA_ARGS__)";
  "";
  "/* Deprecated APIs start */";
  "#define shmem_cswap(...)  \";
  "    _Generic(OSHMPI_C11_CTX_VAL(OSHMPI_C11_ARG0(__VA_ARGS__)), \";
  "        shmem_ctx_t:  _Generic((OSHMPI_C11_ARG1(__VA_ARGS__)), \";
  "/* TPL_C11_BLOCK_START */";
  "            TYPE*: shmem_ctx_TYPENAME_atomic_compare_swap, \";
  "/* TPL_C11_BLOCK_END */";
  "            default: shmem_c11_type_ignore   \";
  "        ), \";
  "        /* TPL_C11_BLOCK_START */";
  "        TYPE*: shmem_TYPENAME_atomic_compare_swap,     \";
  "        /* TPL_C11_BLOCK_END */";
  "        default: shmem_c11_type_ignore       \";
  "    )(__VA_ARGS__)";
  "";
  "#define shmem_finc(...)  \";
  "    _Generic(OSHMPI_C11_CTX_VAL(OSHMPI_C11_ARG0(__VA_ARGS__)), \";
  "        shmem_ctx_t:  _Generic((OSHMPI_C11_ARG1(__VA_ARGS__)), \";
  "/* TPL_C11_BLOCK_START */";
  "            TYPE*: shmem_ctx_TYPENAME_atomic_fetch_inc, \";
  "/* TPL_C11_BLOCK_END */";
  "            default: shmem_c11_type_ignore  \";
  "        ), \";
  "        /* TPL_C11_BLOCK_START */";
  "        TYPE*: shmem_TYPENAME_atomic_fetch_inc,     \";
  "        /* TPL_C11_BLOCK_END */";
  "        default: shmem_c11_type_ignore      \";
  "    )(__VA_ARGS__)";
  "";
  "#define shmem_inc(...)  \";
  "    _Generic(OSHMPI_C11_CTX_VAL(OSHMPI_C11_ARG0(__VA_ARGS__)), \";
  "        shmem_ctx_t:  _Generic((OSHMPI_C11_ARG1(__VA_ARGS__)), \";
  "/* TPL_C11_BLOCK_START */";
  "            TYPE*: shmem_ctx_TYPENAME_atomic_inc, \";
  "/* TPL_C11_BLOCK_END */";
  "            default: shmem_c11_type_ignore \";
  "        ), \";
  "        /* TPL_C11_BLOCK_START */";
  "        TYPE*: shmem_TYPENAME_atomic_inc,     \";
  "        /* TPL_C11_BLOCK_END */";
  "        default: shmem_c11_type_ignore      \";
  "    )(__VA_ARGS__)";
  "";
  "#define shmem_fadd(...)  \";
  "    _Generic(OSHMPI_C11_CTX_VAL(OSHMPI_C11_ARG0(__VA_ARGS__)), \";
  "        shmem_ctx_t:  _Generic((OSHMPI_C11_ARG1(__VA_ARGS__)), \";
  "/* TPL_C11_BLOCK_START */";
  "            TYPE*: shmem_ctx_TYPENAME_atomic_fetch_add, \";
  "/* TPL_C11_BLOCK_END */";
  "            default: shmem_c11_type_ignore  \";
  "        ), \";
  "        /* TPL_C11_BLOCK_START */";
  "        TYPE*: shmem_TYPENAME_atomic_fetch_add,     \";
  "        /* TPL_C11_BLOCK_END */";
  "        default: shmem_c11_type_ignore      \";
  "    )(__VA_ARGS__)";
  "";
  "#define shmem_add(...)  \";
  "    _Generic(OSHMPI_C11_CTX_VAL(OSHMPI_C11_ARG0(__VA_ARGS__)), \";
  "        shmem_ctx_t:  _Generic((OSHMPI_C11_ARG1(__VA_ARGS__)), \";
  "/* TPL_C11_BLOCK_START */";
  "            TYPE*: shmem_ctx_TYPENAME_atomic_add, \";
  "/* TPL_C11_BLOCK_END */";
  "            default: shmem_c11_type_ignore \";
  "        ), \";
  "        /* TPL_C11_BLOCK_START */";
  "        TYPE*: shmem_TYPENAME_atomic_add,     \";
  "        /* TPL_C11_BLOCK_END */";
  "        default: shmem_c11_type_ignore     \";
  "    )(__VA_ARGS__)";
  "/* Deprecated APIs end */";
  "#endif /* OSHMPI_HAVE_C11 */";
  "/* *INDENT-ON* */"
].

(** include/shmem_amo_ext_typed.h.tpl:1-140 *)
Definition hdr_amo_ext : list string := [
  "/* The following lines are automatically generated. DO NOT EDIT. */";
  "/* TPL_BLOCK_START */";
  "TYPE shmem_TYPENAME_atomic_fetch(const TYPE * source, int pe);";
  "TYPE shmem_ctx_TYPENAME_atomic_fetch(shmem_ctx_t ctx, const TYPE * source, int pe);";
  "void shmem_TYPENAME_atomic_set(TYPE * dest, TYPE value, int pe);";
  "void shmem_ctx_TYPENAME_atomic_set(shmem_ctx_t ctx, TYPE * dest, TYPE value, int pe);";
  "TYPE shmem_TYPENAME_atomic_swap(TYPE * dest, TYPE value, int pe);";
  "TYPE shmem_ctx_TYPENAME_atomic_swap(shmem_ctx_t ctx, TYPE * dest, TYPE value, int pe);";
  "";
  "void shmem_TYPENAME_atomic_fetch_nbi(TYPE * fetch, const TYPE * source, int pe);";
  "void shmem_ctx_TYPENAME_atomic_fetch_nbi(shmem_ctx_t ctx, TYPE * fetch, const TYPE * source,";
  "                                         int pe);";
  "void shmem_TYPENAME_atomic_swap_nbi(TYPE * fetch, TYPE * dest, TYPE value, int pe);";
  "void shmem_ctx_TYPENAME_atomic_swap_nbi(shmem_ctx_t ctx, TYPE * fetch, TYPE * dest, TYPE value,";
  "                                        int pe);";
  "/* Deprecated APIs start */";
  "TYPE shmem_TYPENAME_fetch(const TYPE * source, int pe);";
  "void shmem_TYPENAME_set(TYPE * dest, TYPE value, int pe);";
  "TYPE shmem_TYPENAME_swap(TYPE * dest, TYPE value, int pe);";
  "/* Deprecated APIs end */";
  "/* TPL_BLOCK_END */";
  "";
  "/* *INDENT-OFF* */";
  "#if OSHMPI_HAVE_C11";
  "#define shmem_atomic_fetch(...)  \";
  "    _Generic(OSHMPI_C11_CTX_VAL(OSHMPI_C11_ARG0(__VA_ARGS__)), \";
  "        shmem_ctx_t:  _Generic((OSHMPI_C11_ARG1(__VA_ARGS__)), \";
  "/* TPL_C11_BLOCK_START */";
  "            TYPE*: shmem_ctx_TYPENAME_atomic_fetch, \";
  "/* TPL_C11_BLOCK_END */";
  "            default: shmem_c11_type_ignore          \";
  "        ), \";
  "        /* TPL_C11_BLOCK_START */";
  "        TYPE*: shmem_TYPENAME_atomic_fetch,     \";
  "        /* TPL_C11_BLOCK_END */";
  "        default: shmem_c11_type_ignore       \";
  "    )(__VA_ARGS__)";
  "";
  "#define shmem_atomic_fetch_nbi(...)  \";
  "    _Generic(OSHMPI_C11_CTX_VAL(OSHMPI_C11_ARG0(__VA_ARGS__)), \";
  "        shmem_ctx_t:  _Generic((OSHMPI_C11_ARG1(__VA_ARGS__)), \";
  "/* TPL_C11_BLOCK_START */";
  "            TYPE*: shmem_ctx_TYPENAME_atomic_fetch_nbi, \";
  "/* TPL_C11_BLOCK_END */";
  "            default: shmem_c11_type_ignore          \";
  "        ), \";
  "        /* TPL_C11_BLOCK_START */";
  "        TYPE*: shmem_TYPENAME_atomic_fetch_nbi,     \";
  "        /* TPL_C11_BLOCK_END */";
  "        default: shmem_c11_type_ignore       \";
  "    )(__VA_ARGS__)";
  "";
  "#define shmem_atomic_set(...)  \";
  "    _Generic(OSHMPI_C11_CTX_VAL(OSHMPI_C11_ARG0(__VA_ARGS__)), \";
  "        shmem_ctx_t:  _Generic((OSHMPI_C11_ARG1(__VA_ARGS__)), \";
  "/* TPL_C11_BLOCK_START */";
  "            TYPE*: shmem_ctx_TYPENAME_atomic_set, \";
  "/* TPL_C11_BLOCK_END */";
  "            default: shmem_c11_type_ignore        \";
  "        ), \";
  "        /* TPL_C11_BLOCK_START */";
  "        TYPE*: shmem_TYPENAME_atomic_set,     \";
  "        /* TPL_C11_BLOCK_END */";
  "        default: shmem_c11_type_ignore       \";
  "    )(__VA_ARGS__)";
  "";
  "#define shmem_atomic_swap(...)  \";
  "    _Generic(OSHMPI_C11_CTX_VAL(OSHMPI_C11_ARG0(__VA_ARGS__)), \";
  "        shmem_ctx_t:  _Generic((OSHMPI_C11_ARG1(__VA_ARGS__)), \";
  "/* TPL_C11_BLOCK_START */";
  "            TYPE*: shmem_ctx_TYPENAME_atomic_swap, \";
  "/* TPL_C11_BLOCK_END */";
  "            default: shmem_c11_type_ignore         \";
  "        ), \";
  "        /* TPL_C11_BLOCK_START */";
  "        TYPE*: shmem_TYPENAME_atomic_swap,     \";
  "        /* TPL_C11_BLOCK_END */";
  "        default: shmem_c11_type_ignore       \";
  "    )(__VA_ARGS__)";
  "";
  "#define shmem_atomic_swap_nbi(...)  \";
  "    _Generic(OSHMPI_C11_CTX_VAL(OSHMPI_C11_ARG0(__VA_ARGS__)), \";
  "        shmem_ctx_t:  _Generic((OSHMPI_C11_ARG1(__VA_ARGS__)), \";
  "/* TPL_C11_BLOCK_START */";
  "            TYPE*: shmem_ctx_TYPENAME_atomic_swap_nbi, \";
  "/* TPL_C11_BLOCK_END */";
  "            default: shmem_c11_type_ignore         \";
  "        ), \";
  "        /* TPL_C11_BLOCK_START */";
  "        TYPE*: shmem_TYPENAME_atomic_swap_nbi,     \";
  "        /* TPL_C11_BLOCK_END */";
  "        default: shmem_c11_type_ignore       \";
  "    )(__VA_ARGS__)";
  "";
  "/* Deprecated APIs start */";
  "#define shmem_fetch(...)  \";
  "    _Generic(OSHMPI_C11_CTX_VAL(OSHMPI_C11_ARG0(__VA_ARGS__)), \";
  "        shmem_ctx_t:  _Generic((OSHMPI_C11_ARG1(__VA_ARGS__)), \";
  "/* TPL_C11_BLOCK_START */";
  "            TYPE*: shmem_ctx_TYPENAME_atomic_fetch, \";
  "/* TPL_C11_BLOCK_END */";
  "            default: shmem_c11_type_ignore   \";
  "        ), \";
  "        /* TPL_C11_BLOCK_START */";
  "        TYPE*: shmem_TYPENAME_atomic_fetch,     \";
  "        /* TPL_C11_BLOCK_END */";
  "        default: shmem_c11_type_ignore       \";
  "    )(__VA_ARGS__)";
  "";
  "#define shmem_set(...)  \";
  "    _Generic(OSHMPI_C11_CTX_VAL(OSHMPI_C11_ARG0(__VA_ARGS__)), \";
  "        shmem_ctx_t:  _Generic((OSHMPI_C11_ARG1(__VA_ARGS__)), \";
  "/* TPL_C11_BLOCK_START */";
  "            TYPE*: shmem_ctx_TYPENAME_atomic_set, \";
  "/* TPL_C11_BLOCK_END */";
  "            default: shmem_c11_type_ignore \";
  "        ), \";
  "        /* TPL_C11_BLOCK_START */";
  "        TYPE*: shmem_TYPENAME_atomic_set,     \";
  "        /* TPL_C11_BLOCK_END */";
  "        default: shmem_c11_type_ignore       \";
  "    )(__VA_ARGS__)";
  "";
  "#define shmem_swap(...)  \";
  "    _Generic(OSHMPI_C11_CTX_VAL(OSHMPI_C11_ARG0(__VA_ARGS__)), \";
  "        shmem_ctx_t:  _Generic((OSHMPI_C11_ARG1(__VA_ARGS__)), \";
  "/* TPL_C11_BLOCK_START */";
  "            TYPE*: shmem_ctx_TYPENAME_atomic_swap, \";
  "/* TPL_C11_BLOCK_END */";
  "            default: shmem_c11_type_ignore  \";
  "        ), \";
  "        /* TPL_C11_BLOCK_START */";
  "        TYPE*: shmem_TYPENAME_atomic_swap,     \";
  "        /* TPL_C11_BLOCK_END */";
  "        default: shmem_c11_type_ignore       \";
  "    )(__VA_ARGS__)";
  "/* Deprecated APIs end */";
  "";
  "#endif /* OSHMPI_HAVE_C11 */";
  "/* *INDENT-ON* */"
].

(** include/shmem_amo_bitws_typed.h.tpl:1-156 *)
Definition hdr_amo_bitws : list string := [
  "/* The following lines are automatically generated. DO NOT EDIT. */";
  "/* TPL_BLOCK_START */";
  "TYPE shmem_TYPENAME_atomic_fetch_and(TYPE * dest, TYPE value, int pe);";
  "TYPE shmem_ctx_TYPENAME_atomic_fetch_and(shmem_ctx_t ctx, TYPE * dest, TYPE value, int pe);";
  "void shmem_TYPENAME_atomic_and(TYPE * dest, TYPE value, int pe);";
  "void shmem_ctx_TYPENAME_atomic_and(shmem_ctx_t ctx, TYPE * dest, TYPE value, int pe);";
  "TYPE shmem_TYPENAME_atomic_fetch_or(TYPE * dest, TYPE value, int pe);";
  "TYPE shmem_ctx_TYPENAME_atomic_fetch_or(shmem_ctx_t ctx, TYPE * dest, TYPE value, int pe);";
  "void shmem_TYPENAME_atomic_or(TYPE * dest, TYPE value, int pe);";
  "void shmem_ctx_TYPENAME_atomic_or(shmem_ctx_t ctx, TYPE * dest, TYPE value, int pe);";
  "TYPE shmem_TYPENAME_atomic_fetch_xor(TYPE * dest, TYPE value, int pe);";
  "TYPE shmem_ctx_TYPENAME_atomic_fetch_xor(shmem_ctx_t ctx, TYPE * dest, TYPE value, int pe);";
  "void shmem_TYPENAME_atomic_xor(TYPE * dest, TYPE value, int pe);";
  "void shmem_ctx_TYPENAME_atomic_xor(shmem_ctx_t ctx, TYPE * dest, TYPE value, int pe);";
  "";
  "void shmem_TYPENAME_atomic_fetch_and_nbi(TYPE * fetch, TYPE * dest, TYPE value, int pe);";
  "void shmem_ctx_TYPENAME_atomic_fetch_and_nbi(shmem_ctx_t ctx, TYPE * fetch, TYPE * dest, TYPE value,";
  "                                             int pe);";
  "void shmem_TYPENAME_atomic_fetch_or_nbi(TYPE * fetch, TYPE * dest, TYPE value, int pe);";
  "void shmem_ctx_TYPENAME_atomic_fetch_or_nbi(shmem_ctx_t ctx, TYPE * fetch, TYPE * dest, TYPE value,";
  "                                            int pe);";
  "void shmem_TYPENAME_atomic_fetch_xor_nbi(TYPE * fetch, TYPE * dest, TYPE value, int pe);";
  "void shmem_ctx_TYPENAME_atomic_fetch_xor_nbi(shmem_ctx_t ctx, TYPE * fetch, TYPE * dest, TYPE value,";
  "                                             int pe);";
  "/* TPL_BLOCK_END */";
  "";
  "/* *INDENT-OFF* */";
  "#if OSHMPI_HAVE_C11";
  "#define shmem_atomic_fetch_and(...)  \";
  "    _Generic(OSHMPI_C11_CTX_VAL(OSHMPI_C11_ARG0(__VA_ARGS__)), \";
  "        shmem_ctx_t:  _Generic((OSHMPI_C11_ARG1(__VA_ARGS__)), \";
  "/* TPL_C11_BLOCK_START */";
  "            TYPE*: shmem_ctx_TYPENAME_atomic_fetch_and, \";
  "/* TPL_C11_BLOCK_END */";
  "            default: shmem_c11_type_ignore       \";
  "        ), \";
  "        /* TPL_C11_BLOCK_START */";
  "        TYPE*: shmem_TYPENAME_atomic_fetch_and,     \";
  "        /* TPL_C11_BLOCK_END */";
  "        default: shmem_c11_type_ignore       \";
  "    )(__VA_ARGS__)";
  "";
  "#define shmem_atomic_and(...)  \";
  "    _Generic(OSHMPI_C11_CTX_VAL(OSHMPI_C11_ARG0(__VA_ARGS__)), \";
  "        shmem_ctx_t:  _Generic((OSHMPI_C11_ARG1(__VA_ARGS__)), \";
  "/* TPL_C11_BLOCK_START */";
  "            TYPE*: shmem_ctx_TYPENAME_atomic_and, \";
  "/* TPL_C11_BLOCK_END */";
  "            default: shmem_c11_type_ignore \";
  "        ), \";
  "        /* TPL_C11_BLOCK_START */";
  "        TYPE*: shmem_TYPENAME_atomic_and,     \";
  "        /* TPL_C11_BLOCK_END */";
  "        default: shmem_c11_type_ignore       \";
  "    )(__VA_ARGS__)";
  "";
  "#define shmem_atomic_fetch_or(...)  \";
  "    _Generic(OSHMPI_C11_CTX_VAL(OSHMPI_C11_ARG0(__VA_ARGS__)), \";
  "        shmem_ctx_t:  _Generic((OSHMPI_C11_ARG1(__VA_ARGS__)), \";
  "/* TPL_C11_BLOCK_START */";
  "            TYPE*: shmem_ctx_TYPENAME_atomic_fetch_or, \";
  "/* TPL_C11_BLOCK_END */";
  "            default: shmem_c11_type_ignore      \";
  "        ), \";
  "        /* TPL_C11_BLOCK_START */";
  "        TYPE*: shmem_TYPENAME_atomic_fetch_or,     \";
  "        /* TPL_C11_BLOCK_END */";
  "        default: shmem_c11_type_ignore       \";
  "    )(__VA_ARGS__)";
  "";
  "#define shmem_atomic_or(...)  \";
  "    _Generic(OSHMPI_C11_CTX_VAL(OSHMPI_C11_ARG0(__VA_ARGS__)), \";
  "        shmem_ctx_t:  _Generic((OSHMPI_C11_ARG1(__VA_ARGS__)), \";
  "/* TPL_C11_BLOCK_START */";
  "            TYPE*: shmem_ctx_TYPENAME_atomic_or, \";
  "/* TPL_C11_BLOCK_END */";
  "            default: shmem_c11_type_ignore\";
  "        ), \";
  "        /* TPL_C11_BLOCK_START */";
  "        TYPE*: shmem_TYPENAME_atomic_or,     \";
  "        /* TPL_C11_BLOCK_END */";
  "        default: shmem_c11_type_ignore       \";
  "    )(__VA_ARGS__)";
  "";
  "#define shmem_atomic_fetch_xor(...)  \";
  "    _Generic(OSHMPI_C11_CTX_VAL(OSHMPI_C11_ARG0(__VA_ARGS__)), \";
  "        shmem_ctx_t:  _Generic((OSHMPI_C11_ARG1(__VA_ARGS__)), \";
  "/* TPL_C11_BLOCK_START */";
  "            TYPE*: shmem_ctx_TYPENAME_atomic_fetch_xor, \";
  "/* TPL_C11_BLOCK_END */";
  "            default: shmem_c11_type_ignore       \";
  "        ), \";
  "        /* TPL_C11_BLOCK_START */";
  "        TYPE*: shmem_TYPENAME_atomic_fetch_xor,     \";
  "        /* TPL_C11_BLOCK_END */";
  "        default: shmem_c11_type_ignore       \";
  "    )(__VA_ARGS__)";
  "";
  "#define shmem_atomic_xor(...)  \";
  "    _Generic(OSHMPI_C11_CTX_VAL(OSHMPI_C11_ARG0(__VA_ARGS__)), \";
  "        shmem_ctx_t:  _Generic((OSHMPI_C11_ARG1(__VA_ARGS__)), \";
  "/* TPL_C11_BLOCK_START */";
  "            TYPE*: shmem_ctx_TYPENAME_atomic_xor, \";
  "/* TPL_C11_BLOCK_END */";
  "            default: shmem_c11_type_ignore \";
  "        ), \";
  "        /* TPL_C11_BLOCK_START */";
  "        TYPE*: shmem_TYPENAME_atomic_xor,     \";
  "        /* TPL_C11_BLOCK_END */";
  "        default: shmem_c11_type_ignore       \";
  "    )(__VA_ARGS__)";
  "";
  "#define shmem_atomic_fetch_and_nbi(...)  \";
  "    _Generic(OSHMPI_C11_CTX_VAL(OSHMPI_C11_ARG0(__VA_ARGS__)), \";
  "        shmem_ctx_t:  _Generic((OSHMPI_C11_ARG1(__VA_ARGS__)), \";
  "/* TPL_C11_BLOCK_START */";
  "            TYPE*: shmem_ctx_TYPENAME_atomic_fetch_and_nbi, \";
  "/* TPL_C11_BLOCK_END */";
  "            default: shmem_c11_type_ignore       \";
  "        ), \";
  "        /* TPL_C11_BLOCK_START */";
  "        TYPE*: shmem_TYPENAME_atomic_fetch_and_nbi,     \";
  "        /* TPL_C11_BLOCK_END */";
  "        default: shmem_c11_type_ignore       \";
  "    )(__VA_ARGS__)";
  "";
  "#define shmem_atomic_fetch_or_nbi(...)  \";
  "    _Generic(OSHMPI_C11_CTX_VAL(OSHMPI_C11_ARG0(__VA_ARGS__)), \";
  "        shmem_ctx_t:  _Generic((OSHMPI_C11_ARG1(__VA_ARGS__)), \";
  "/* TPL_C11_BLOCK_START */";
  "            TYPE*: shmem_ctx_TYPENAME_atomic_fetch_or_nbi, \";
  "/* TPL_C11_BLOCK_END */";
  "            default: shmem_c11_type_ignore      \";
  "        ), \";
  "        /* TPL_C11_BLOCK_START */";
  "        TYPE*: shmem_TYPENAME_atomic_fetch_or_nbi,     \";
  "        /* TPL_C11_BLOCK_END */";
  "        default: shmem_c11_type_ignore       \";
  "    )(__VA_ARGS__)";
  "";
  "#define shmem_atomic_fetch_xor_nbi(...)  \";
  "    _Generic(OSHMPI_C11_CTX_VAL(OSHMPI_C11_ARG0(__VA_ARGS__)), \";
  "        shmem_ctx_t:  _Generic((OSHMPI_C11_ARG1(__VA_ARGS__)), \";
  "/* TPL_C11_BLOCK_START */";
  "            TYPE*: shmem_ctx_TYPENAME_atomic_fetch_xor_nbi, \";
  "/* TPL_C11_BLOCK_END */";
  "            default: shmem_c11_type_ignore       \";
  "        ), \";
  "        /* TPL_C11_BLOCK_START */";
  "        TYPE*: shmem_TYPENAME_atomic_fetch_xor_nbi,     \";
  "        /* TPL_C11_BLOCK_END */";
  "        default: shmem_c11_type_ignore       \";
  "    )(__VA_ARGS__)";
  "";
  "#endif /* OSHMPI_HAVE_C11 */";
  "/* *INDENT-ON* */"
].

(** include/shmem_coll_typed.h.tpl:1-69 *)
Definition hdr_coll : list string := [
  "/* The following lines are automatically generated. DO NOT EDIT. */";
  "/* TPL_BLOCK_START */";
  "int shmem_TYPENAME_broadcast(shmem_team_t team, TYPE * dest, const TYPE * source, size_t nelems,";
  "                             int PE_root);";
  "int shmem_TYPENAME_collect(shmem_team_t team, TYPE * dest, const TYPE * source, size_t nelems);";
  "int shmem_TYPENAME_fcollect(shmem_team_t team, TYPE * dest, const TYPE * source, size_t nelems);";
  "int shmem_TYPENAME_alltoall(shmem_team_t team, TYPE * dest, const TYPE * source, size_t nelems);";
  "int shmem_TYPENAME_alltoalls(shmem_team_t team, TYPE * dest, const TYPE * source, ptrdiff_t dst,";
  "                             ptrdiff_t sst, size_t nelems);";
  "/* TPL_BLOCK_END */";
  "";
  "/* *INDENT-OFF* */";
  "#if OSHMPI_HAVE_C11";
  "#define shmem_broadcast(...)  \";
  "    _Generic(OSHMPI_C11_TEAM_VAL(OSHMPI_C11_ARG0(__VA_ARGS__)), \";
  "        shmem_team_t:  _Generic((OSHMPI_C11_ARG1(__VA_ARGS__)), \";
  "/* TPL_C11_BLOCK_START */";
  "            TYPE*: shmem_TYPENAME_broadcast,   \";
  "/* TPL_C11_BLOCK_END */";
  "            default: shmem_c11_type_ignore \";
  "        ), \";
  "        default: shmem_c11_type_ignore     \";
  "    )(__VA_ARGS__)";
  "";
  "#define shmem_collect(...)  \";
  "    _Generic(OSHMPI_C11_TEAM_VAL(OSHMPI_C11_ARG0(__VA_ARGS__)), \";
  "        shmem_team_t:  _Generic((OSHMPI_C11_ARG1(__VA_ARGS__)), \";
  "/* TPL_C11_BLOCK_START */";
  "            TYPE*: shmem_TYPENAME_collect,   \";
  "/* TPL_C11_BLOCK_END */";
  "            default: shmem_c11_type_ignore \";
  "        ), \";
  "        default: shmem_c11_type_ignore     \";
  "    )(__VA_ARGS__)";
  "";
  "#define shmem_fcollect(...)  \";
  "    _Generic(OSHMPI_C11_TEAM_VAL(OSHMPI_C11_ARG0(__VA_ARGS__)), \";
  "        shmem_team_t:  _Generic((OSHMPI_C11_ARG1(__VA_ARGS__)), \";
  "/* TPL_C11_BLOCK_START */";
  "            TYPE*: shmem_TYPENAME_fcollect,   \";
  "/* TPL_C11_BLOCK_END */";
  "            default: shmem_c11_type_ignore \";
  "        ), \";
  "        default: shmem_c11_type_ignore     \";
  "    )(__VA_ARGS__)";
  "";
  "#define shmem_alltoall(...)  \";
  "    _Generic(OSHMPI_C11_TEAM_VAL(OSHMPI_C11_ARG0(__VA_ARGS__)), \";
  "        shmem_team_t:  _Generic((OSHMPI_C11_ARG1(__VA_ARGS__)), \";
  "/* TPL_C11_BLOCK_START */";
  "            TYPE*: shmem_TYPENAME_alltoall,   \";
  "/* TPL_C11_BLOCK_END */";
  "            default: shmem_c11_type_ignore \";
  "        ), \";
  "        default: shmem_c11_type_ignore     \";
  "    )(__VA_ARGS__)";
  "";
  "#define shmem_alltoalls(...)  \";
  "    _Generic(OSHMPI_C11_TEAM_VAL(OSHMPI_C11_ARG0(__VA_ARGS__)), \";
  "        shmem_team_t:  _Generic((OSHMPI_C11_ARG1(__VA_ARGS__)), \";
  "/* TPL_C11_BLOCK_START */";
  "            TYPE*: shmem_TYPENAME_alltoalls,   \";
  "/* TPL_C11_BLOCK_END */";
  "            default: shmem_c11_type_ignore \";
  "        ), \";
  "        default: shmem_c11_type_ignore     \";
  "    )(__VA_ARGS__)";
  "#endif /* OSHMPI_HAVE_C11 */";
  "/* *INDENT-ON* */"
].

(** include/shmem_p2p_typed.h.tpl:1-145 *)
Definition hdr_p2p : list string := [
  "/* The following lines are automatically generated. DO NOT EDIT. */";
  "/* TPL_BLOCK_START */";
  "void shmem_TYPENAME_wait_until(TYPE * ivar, int cmp, TYPE cmp_value);";
  "void shmem_TYPENAME_wait_until_all(TYPE * ivars, size_t nelems, const int *status, int cmp,";
  "                                   TYPE cmp_value);";
  "size_t shmem_TYPENAME_wait_until_any(TYPE * ivars, size_t nelems, const int *status, int cmp,";
  "                                     TYPE cmp_value);";
  "size_t shmem_TYPENAME_wait_until_some(TYPE * ivars, size_t nelems, size_t *indices,";
  "                                      const int *status, int cmp, TYPE cmp_value);";
  "void shmem_TYPENAME_wait_until_all_vector(TYPE * ivars, size_t nelems, const int *status, int cmp,";
  "                                          TYPE * cmp_values);";
  "size_t shmem_TYPENAME_wait_until_any_vector(TYPE * ivars, size_t nelems, const int *status, int cmp,";
  "                                            TYPE * cmp_values);";
  "size_t shmem_TYPENAME_wait_until_some_vector(TYPE * ivars, size_t nelems, size_t *indices,";
  "                                             const int *status, int cmp, TYPE * cmp_values);";
  "int shmem_TYPENAME_test(TYPE * ivar, int cmp, TYPE cmp_value);";
  "int shmem_TYPENAME_test_all(TYPE * ivars, size_t nelems, const int *status, int cmp,";
  "                            TYPE cmp_value);";
  "size_t shmem_TYPENAME_test_any(TYPE * ivars, size_t nelems, const int *status, int cmp,";
  "                               TYPE cmp_value);";
  "size_t shmem_TYPENAME_test_some(TYPE * ivars, size_t nelems, size_t *indices, const int *status,";
  "                                int cmp, TYPE cmp_value);";
  "int shmem_TYPENAME_test_all_vector(TYPE * ivars, size_t nelems, const int *status, int cmp,";
  "                                   TYPE * cmp_values);";
  "size_t shmem_TYPENAME_test_any_vector(TYPE * ivars, size_t nelems, const int *status, int cmp,";
  "                                      TYPE * cmp_values);";
  "size_t shmem_TYPENAME_test_some_vector(TYPE * ivars, size_t nelems, size_t *indices,";
  "                                       const int *status, int cmp, TYPE * cmp_values);";
  "/* TPL_BLOCK_END */";
  "";
  "/* *INDENT-OFF* */";
  "#if OSHMPI_HAVE_C11";
  "#define shmem_wait_until(...)  \";
  "    _Generic(OSHMPI_C11_CTX_VAL(OSHMPI_C11_ARG0(__VA_ARGS__)), \";
  "        /* TPL_C11_BLOCK_START */";
  "        TYPE*: shmem_TYPENAME_wait_until,     \";
  "        /* TPL_C11_BLOCK_END */";
  "        default: shmem_c11_type_ignore   \";
  "    )(__VA_ARGS__)";
  "";
  "#define shmem_wait_until_all(...)  \";
  "    _Generic(OSHMPI_C11_CTX_VAL(OSHMPI_C11_ARG0(__VA_ARGS__)), \";
  "        /* TPL_C11_BLOCK_START */";
  "        TYPE*: shmem_TYPENAME_wait_until_all,     \";
  "        /* TPL_C11_BLOCK_END */";
  "        default: shmem_c11_type_ignore   \";
  "    )(__VA_ARGS__)";
  "";
  "#define shmem_wait_until_any(...)  \";
  "    _Generic(OSHMPI_C11_CTX_VAL(OSHMPI_C11_ARG0(__VA_ARGS__)), \";
  "        /* TPL_C11_BLOCK_START */";
  "        TYPE*: shmem_TYPENAME_wait_until_any,     \";
  "        /* TPL_C11_BLOCK_END */";
  "        default: shmem_c11_type_ignore   \";
  "    )(__VA_ARGS__)";
  "";
  "#define shmem_wait_until_some(...)  \";
  "    _Generic(OSHMPI_C11_CTX_VAL(OSHMPI_C11_ARG0(__VA_ARGS__)), \";
  "        /* TPL_C11_BLOCK_START */";
  "        TYPE*: shmem_TYPENAME_wait_until_some,     \";
  "        /* TPL_C11_BLOCK_END */";
  "        default: shmem_c11_type_ignore   \";
  "    )(__VA_ARGS__)";
  "";
  "#define shmem_wait_until_all_vector(...)  \";
  "    _Generic(OSHMPI_C11_CTX_VAL(OSHMPI_C11_ARG0(__VA_ARGS__)), \";
  "        /* TPL_C11_BLOCK_START */";
  "        TYPE*: shmem_TYPENAME_wait_until_all_vector,     \";
  "        /* TPL_C11_BLOCK_END */";
  "        default: shmem_c11_type_ignore   \";
  "    )(__VA_ARGS__)";
  "";
  "#define shmem_wait_until_any_vector(...)  \";
  "    _Generic(OSHMPI_C11_CTX_VAL(OSHMPI_C11_ARG0(__VA_ARGS__)), \";
  "        /* TPL_C11_BLOCK_START */";
  "        TYPE*: shmem_TYPENAME_wait_until_any_vector,     \";
  "        /* TPL_C11_BLOCK_END */";
  "        default: shmem_c11_type_ignore   \";
  "    )(__VA_ARGS__)";
  "";
  "#define shmem_wait_until_some_vector(...)  \";
  "    _Generic(OSHMPI_C11_CTX_VAL(OSHMPI_C11_ARG0(__VA_ARGS__)), \";
  "        /* TPL_C11_BLOCK_START */";
  "        TYPE*: shmem_TYPENAME_wait_until_some_vector,     \";
  "        /* TPL_C11_BLOCK_END */";
  "        default: shmem_c11_type_ignore   \";
  "    )(__VA_ARGS__)";
  "";
  "#define shmem_test(...)  \";
  "    _Generic(OSHMPI_C11_CTX_VAL(OSHMPI_C11_ARG0(__VA_ARGS__)), \";
  "        /* TPL_C11_BLOCK_START */";
  "        TYPE*: shmem_TYPENAME_test,     \";
  "        /* TPL_C11_BLOCK_END */";
  "        default: shmem_c11_type_ignore   \";
  "    )(__VA_ARGS__)";
  "";
  "#define shmem_test_all(...)  \";
  "    _Generic(OSHMPI_C11_CTX_VAL(OSHMPI_C11_ARG0(__VA_ARGS__)), \";
  "        /* TPL_C11_BLOCK_START */";
  "        TYPE*: shmem_TYPENAME_test_all,     \";
  "        /* TPL_C11_BLOCK_END */";
  "        default: shmem_c11_type_ignore   \";
  "    )(__VA_ARGS__)";
  "";
  "#define shmem_test_any(...)  \";
  "    _Generic(OSHMPI_C11_CTX_VAL(OSHMPI_C11_ARG0(__VA_ARGS__)), \";
  "        /* TPL_C11_BLOCK_START */";
  "        TYPE*: shmem_TYPENAME_test_any,     \";
  "        /* TPL_C11_BLOCK_END */";
  "        default: shmem_c11_type_ignore   \";
  "    )(__VA_ARGS__)";
  "";
  "#define shmem_test_some(...)  \";
  "    _Generic(OSHMPI_C11_CTX_VAL(OSHMPI_C11_ARG0(__VA_ARGS__)), \";
  "        /* TPL_C11_BLOCK_START */";
  "        TYPE*: shmem_TYPENAME_test_some,     \";
  "        /* TPL_C11_BLOCK_END */";
  "        default: shmem_c11_type_ignore   \";
  "    )(__VA_ARGS__)";
  "";
  "#define shmem_test_all_vector(...)  \";
  "    _Generic(OSHMPI_C11_CTX_VAL(OSHMPI_C11_ARG0(__VA_ARGS__)), \";
  "        /* TPL_C11_BLOCK_START */";
  "        TYPE*: shmem_TYPENAME_test_all_vector,     \";
  "        /* TPL_C11_BLOCK_END */";
  "        default: shmem_c11_type_ignore   \";
  "    )(__VA_ARGS__)";
  "";
  "#define shmem_test_any_vector(...)  \";
  "    _Generic(OSHMPI_C11_CTX_VAL(OSHMPI_C11_ARG0(__VA_ARGS__)), \";
  "        /* TPL_C11_BLOCK_START */";
  "        TYPE*: shmem_TYPENAME_test_any_vector,     \";
  "        /* TPL_C11_BLOCK_END */";
  "        default: shmem_c11_type_ignore   \";
  "    )(__VA_ARGS__)";
  "";
  "#define shmem_test_some_vector(...)  \";
  "    _Generic(OSHMPI_C11_CTX_VAL(OSHMPI_C11_ARG0(__VA_ARGS__)), \";
  "        /* TPL_C11_BLOCK_START */";
  "        TYPE*: shmem_TYPENAME_test_some_vector,     \";
  "        /* TPL_C11_BLOCK_END */";
  "        default: shmem_c11_type_ignore   \";
  "    )(__VA_ARGS__)";
  "#endif /* OSHMPI_HAVE_C11 */";
  "/* *INDENT-ON* */"
].

(** include/shmem_signal_typed.h.tpl:1-45 *)
Definition hdr_signal : list string := [
  "/* The following lines are automatically generated. DO NOT EDIT. */";
  "/* TPL_BLOCK_START */";
  "";
  "void shmem_TYPENAME_put_signal(TYPE * dest, const TYPE * source, size_t nelems, uint64_t *sig_addr,";
  "                               uint64_t signal, int sig_op, int pe);";
  "void shmem_ctx_TYPENAME_put_signal(shmem_ctx_t ctx, TYPE * dest, const TYPE * source, size_t nelems,";
  "                                   uint64_t *sig_addr, uint64_t signal, int sig_op, int pe);";
  "void shmem_TYPENAME_put_signal_nbi(TYPE * dest, const TYPE * source, size_t nelems,";
  "                                   uint64_t *sig_addr, uint64_t signal, int sig_op, int pe);";
  "void shmem_ctx_TYPENAME_put_signal_nbi(shmem_ctx_t ctx, TYPE * dest, const TYPE * source,";
  "                                       size_t nelems, uint64_t *sig_addr, uint64_t signal,";
  "                                       int sig_op, int pe);";
  "/* TPL_BLOCK_END */";
  "";
  "/* *INDENT-OFF* */";
  "#if OSHMPI_HAVE_C11";
  "#define shmem_put_signal(...)  \";
  "    _Generic(OSHMPI_C11_CTX_VAL(OSHMPI_C11_ARG0(__VA_ARGS__)), \";
  "        shmem_ctx_t:  _Generic((OSHMPI_C11_ARG1(__VA_ARGS__)), \";
  "/* TPL_C11_BLOCK_START */";
  "            TYPE*: shmem_ctx_TYPENAME_put_signal,   \";
  "/* TPL_C11_BLOCK_END */";
  "            default: shmem_c11_type_ignore \";
  "        ), \";
  "        /* TPL_C11_BLOCK_START */";
  "        TYPE*: shmem_TYPENAME_put_signal,       \";
  "        /* TPL_C11_BLOCK_END */";
  "        default: shmem_c11_type_ignore     \";
  "    )(__VA_ARGS__)";
  "";
  "#define shmem_put_signal_nbi(...)  \";
  "    _Generic(OSHMPI_C11_CTX_VAL(OSHMPI_C11_ARG0(__VA_ARGS__)), \";
  "        shmem_ctx_t:  _Generic((OSHMPI_C11_ARG1(__VA_ARGS__)), \";
  "/* TPL_C11_BLOCK_START */";
  "            TYPE*: shmem_ctx_TYPENAME_put_signal_nbi, \";
  "/* TPL_C11_BLOCK_END */";
  "            default: shmem_c11_type_ignore     \";
  "        ), \";
  "        /* TPL_C11_BLOCK_START */";
  "        TYPE*: shmem_TYPENAME_put_signal_nbi,     \";
  "        /* TPL_C11_BLOCK_END */";
  "        default: shmem_c11_type_ignore         \";
  "    )(__VA_ARGS__)";
  "#endif /* OSHMPI_HAVE_C11 */";
  "/* *INDENT-ON* */"
].

(** include/shmem_reduce_minmax_aset_typed.h.tpl:1-8 *)
Definition hdr_reduce_minmax_aset : list string := [
  "/* The following lines are automatically generated. DO NOT EDIT. */";
  "/* TPL_BLOCK_START */";
  "/* deprecated APIs */";
  "void shmem_TYPENAME_min_to_all(TYPE * dest, const TYPE * source, int nreduce, int PE_start,";
  "                               int logPE_stride, int PE_size, TYPE * pWrk, long *pSync);";
  "void shmem_TYPENAME_max_to_all(TYPE * dest, const TYPE * source, int nreduce, int PE_start,";
  "                               int logPE_stride, int PE_size, TYPE * pWrk, long *pSync);";
  "/* TPL_BLOCK_END */"
].

(** include/shmem_reduce_sumprod_aset_typed.h.tpl:1-8 *)
Definition hdr_reduce_sumprod_aset : list string := [
  "/* The following lines are automatically generated. DO NOT EDIT. */";
  "/* TPL_BLOCK_START */";
  "/* deprecated APIs */";
  "void shmem_TYPENAME_sum_to_all(TYPE * dest, const TYPE * source, int nreduce, int PE_start,";
  "                               int logPE_stride, int PE_size, TYPE * pWrk, long *pSync);";
  "void shmem_TYPENAME_prod_to_all(TYPE * dest, const TYPE * source, int nreduce, int PE_start,";
  "                                int logPE_stride, int PE_size, TYPE * pWrk, long *pSync);";
  "/* TPL_BLOCK_END */"
].

(** include/shmem_reduce_bitws_aset_typed.h.tpl:1-10 *)
Definition hdr_reduce_bitws_aset : list string := [
  "/* The following lines are automatically generated. DO NOT EDIT. */";
  "/* TPL_BLOCK_START */";
  "/* depreciated APIs */";
  "void shmem_TYPENAME_and_to_all(TYPE * dest, const TYPE * source, int nreduce, int PE_start,";
  "                               int logPE_stride, int PE_size, TYPE * pWrk, long *pSync);";
  "void shmem_TYPENAME_or_to_all(TYPE * dest, const TYPE * source, int nreduce, int PE_start,";
  "                              int logPE_stride, int PE_size, TYPE * pWrk, long *pSync);";
  "void shmem_TYPENAME_xor_to_all(TYPE * dest, const TYPE * source, int nreduce, int PE_start,";
  "                               int logPE_stride, int PE_size, TYPE * pWrk, long *pSync);";
  "/* TPL_BLOCK_END */"
].

(** include/shmem_reduce_minmax_team_typed.h.tpl:1-31 *)
Definition hdr_reduce_minmax_team : list string := [
  "/* The following lines are automatically generated. DO NOT EDIT. */";
  "/* TPL_BLOCK_START */";
  "int shmem_TYPENAME_min_reduce(shmem_team_t team, TYPE * dest, const TYPE * source, size_t nreduce);";
  "int shmem_TYPENAME_max_reduce(shmem_team_t team, TYPE * dest, const TYPE * source, size_t nreduce);";
  "/* TPL_BLOCK_END */";
  "";
  "/* *INDENT-OFF* */";
  "#if OSHMPI_HAVE_C11";
  "#define shmem_min_reduce(...)  \";
  "    _Generic(OSHMPI_C11_TEAM_VAL(OSHMPI_C11_ARG0(__VA_ARGS__)), \";
  "        shmem_team_t:  _Generic((OSHMPI_C11_ARG1(__VA_ARGS__)), \";
  "/* TPL_C11_BLOCK_START */";
  "            TYPE*: shmem_TYPENAME_min_reduce,   \";
  "/* TPL_C11_BLOCK_END */";
  "            default: shmem_c11_type_ignore \";
  "        ), \";
  "        default: shmem_c11_type_ignore     \";
  "    )(__VA_ARGS__)";
  "";
  "#define shmem_max_reduce(...)  \";
  "    _Generic(OSHMPI_C11_TEAM_VAL(OSHMPI_C11_ARG0(__VA_ARGS__)), \";
  "        shmem_team_t:  _Generic((OSHMPI_C11_ARG1(__VA_ARGS__)), \";
  "/* TPL_C11_BLOCK_START */";
  "            TYPE*: shmem_TYPENAME_max_reduce,   \";
  "/* TPL_C11_BLOCK_END */";
  "            default: shmem_c11_type_ignore \";
  "        ), \";
  "        default: shmem_c11_type_ignore     \";
  "    )(__VA_ARGS__)";
  "#endif /* OSHMPI_HAVE_C11 */";
  "/* *INDENT-ON* */"
].

(** include/shmem_reduce_sumprod_team_typed.h.tpl:1-31 *)
Definition hdr_reduce_sumprod_team : list string := [
  "/* The following lines are automatically generated. DO NOT EDIT. */";
  "/* TPL_BLOCK_START */";
  "int shmem_TYPENAME_sum_reduce(shmem_team_t team, TYPE * dest, const TYPE * source, size_t nreduce);";
  "int shmem_TYPENAME_prod_reduce(shmem_team_t team, TYPE * dest, const TYPE * source, size_t nreduce);";
  "/* TPL_BLOCK_END */";
  "";
  "/* *INDENT-OFF* */";
  "#if OSHMPI_HAVE_C11";
  "#define shmem_sum_reduce(...)  \";
  "    _Generic(OSHMPI_C11_TEAM_VAL(OSHMPI_C11_ARG0(__VA_ARGS__)), \";
  "        shmem_team_t:  _Generic((OSHMPI_C11_ARG1(__VA_ARGS__)), \";
  "/* TPL_C11_BLOCK_START */";
  "            TYPE*: shmem_TYPENAME_sum_reduce,   \";
  "/* TPL_C11_BLOCK_END */";
  "            default: shmem_c11_type_ignore \";
  "        ), \";
  "        default: shmem_c11_type_ignore     \";
  "    )(__VA_ARGS__)";
  "";
  "#define shmem_prod_reduce(...)  \";
  "    _Generic(OSHMPI_C11_TEAM_VAL(OSHMPI_C11_ARG0(__VA_ARGS__)), \";
  "        shmem_team_t:  _Generic((OSHMPI_C11_ARG1(__VA_ARGS__)), \";
  "/* TPL_C11_BLOCK_START */";
  "            TYPE*: shmem_TYPENAME_prod_reduce,   \";
  "/* TPL_C11_BLOCK_END */";
  "            default: shmem_c11_type_ignore \";
  "        ), \";
  "        default: shmem_c11_type_ignore     \";
  "    )(__VA_ARGS__)";
  "#endif /* OSHMPI_HAVE_C11 */";
  "/* *INDENT-ON* */"
].

(** include/shmem_reduce_bitws_team_typed.h.tpl:1-43 *)
Definition hdr_reduce_bitws_team : list string := [
  "/* The following lines are automatically generated. DO NOT EDIT. */";
  "/* TPL_BLOCK_START */";
  "int shmem_TYPENAME_and_reduce(shmem_team_t team, TYPE * dest, const TYPE * source, size_t nreduce);";
  "int shmem_TYPENAME_or_reduce(shmem_team_t team, TYPE * dest, const TYPE * source, size_t nreduce);";
  "int shmem_TYPENAME_xor_reduce(shmem_team_t team, TYPE * dest, const TYPE * source, size_t nreduce);";
  "/* TPL_BLOCK_END */";
  "";
  "/* *INDENT-OFF* */";
  "#if OSHMPI_HAVE_C11";
  "#define shmem_and_reduce(...)  \";
  "    _Generic(OSHMPI_C11_TEAM_VAL(OSHMPI_C11_ARG0(__VA_ARGS__)), \";
  "        shmem_team_t:  _Generic((OSHMPI_C11_ARG1(__VA_ARGS__)), \";
  "/* TPL_C11_BLOCK_START */";
  "            TYPE*: shmem_TYPENAME_and_reduce,   \";
  "/* TPL_C11_BLOCK_END */";
  "            default: shmem_c11_type_ignore \";
  "        ), \";
  "        default: shmem_c11_type_ignore     \";
  "    )(__VA_ARGS__)";
  "";
  "#define shmem_or_reduce(...)  \";
  "    _Generic(OSHMPI_C11_TEAM_VAL(OSHMPI_C11_ARG0(__VA_ARGS__)), \";
  "        shmem_team_t:  _Generic((OSHMPI_C11_ARG1(__VA_ARGS__)), \";
  "/* TPL_C11_BLOCK_START */";
  "            TYPE*: shmem_TYPENAME_or_reduce,   \";
  "/* TPL_C11_BLOCK_END */";
  "            default: shmem_c11_type_ignore \";
  "        ), \";
  "        default: shmem_c11_type_ignore     \";
  "    )(__VA_ARGS__)";
  "";
  "#define shmem_xor_reduce(...)  \";
  "    _Generic(OSHMPI_C11_TEAM_VAL(OSHMPI_C11_ARG0(__VA_ARGS__)), \";
  "        shmem_team_t:  _Generic((OSHMPI_C11_ARG1(__VA_ARGS__)), \";
  "/* TPL_C11_BLOCK_START */";
  "            TYPE*: shmem_TYPENAME_xor_reduce,   \";
  "/* TPL_C11_BLOCK_END */";
  "            default: shmem_c11_type_ignore \";
  "        ), \";
  "        default: shmem_c11_type_ignore     \";
  "    )(__VA_ARGS__)";
  "#endif /* OSHMPI_HAVE_C11 */";
  "/* *INDENT-ON* */"
].

(** src/internal/am_pre.h:12-49 *)
Definition am_enums : list string := [
  "typedef enum {";
  "    OSHMPI_AM_MPI_CHAR,";
  "    OSHMPI_AM_MPI_SIGNED_CHAR,";
  "    OSHMPI_AM_MPI_SHORT,";
  "    OSHMPI_AM_MPI_INT,";
  "    OSHMPI_AM_MPI_LONG,";
  "    OSHMPI_AM_MPI_LONG_LONG,";
  "    OSHMPI_AM_MPI_UNSIGNED_CHAR,";
  "    OSHMPI_AM_MPI_UNSIGNED_SHORT,";
  "    OSHMPI_AM_MPI_UNSIGNED,";
  "    OSHMPI_AM_MPI_UNSIGNED_LONG,";
  "    OSHMPI_AM_MPI_UNSIGNED_LONG_LONG,";
  "    OSHMPI_AM_MPI_INT8_T,";
  "    OSHMPI_AM_MPI_INT16_T,";
  "    OSHMPI_AM_MPI_INT32_T,";
  "    OSHMPI_AM_MPI_INT64_T,";
  "    OSHMPI_AM_MPI_UINT8_T,";
  "    OSHMPI_AM_MPI_UINT16_T,";
  "    OSHMPI_AM_MPI_UINT32_T,";
  "    OSHMPI_AM_MPI_UINT64_T,";
  "    OSHMPI_AM_OSHMPI_MPI_SIZE_T,";
  "    OSHMPI_AM_OSHMPI_MPI_PTRDIFF_T,";
  "    OSHMPI_AM_MPI_FLOAT,";
  "    OSHMPI_AM_MPI_DOUBLE,";
  "    OSHMPI_AM_MPI_LONG_DOUBLE,";
  "    OSHMPI_AM_MPI_C_DOUBLE_COMPLEX,";
  "    OSHMPI_AM_MPI_DATATYPE_MAX,";
  "} OSHMPI_am_mpi_datatype_index_t;";
  "";
  "typedef enum {";
  "    OSHMPI_AM_MPI_BAND,";
  "    OSHMPI_AM_MPI_BOR,";
  "    OSHMPI_AM_MPI_BXOR,";
  "    OSHMPI_AM_MPI_NO_OP,";
  "    OSHMPI_AM_MPI_REPLACE,";
  "    OSHMPI_AM_MPI_SUM,";
  "    OSHMPI_AM_MPI_OP_MAX,";
  "} OSHMPI_am_mpi_op_index_t;"
].

(** src/internal/am_impl.c:209-243 *)
Definition am_tables : list string := [
  "    OSHMPI_am.datatypes_table[OSHMPI_AM_MPI_CHAR] = MPI_CHAR;";
  "    OSHMPI_am.datatypes_table[OSHMPI_AM_MPI_SIGNED_CHAR] = MPI_SIGNED_CHAR;";
  "    OSHMPI_am.datatypes_table[OSHMPI_AM_MPI_SHORT] = MPI_SHORT;";
  "    OSHMPI_am.datatypes_table[OSHMPI_AM_MPI_INT] = MPI_INT;";
  "    OSHMPI_am.datatypes_table[OSHMPI_AM_MPI_LONG] = MPI_LONG;";
  "    OSHMPI_am.datatypes_table[OSHMPI_AM_MPI_LONG_LONG] = MPI_LONG_LONG;";
  "    OSHMPI_am.datatypes_table[OSHMPI_AM_MPI_UNSIGNED_CHAR] = MPI_UNSIGNED_CHAR;";
  "    OSHMPI_am.datatypes_table[OSHMPI_AM_MPI_UNSIGNED_SHORT] = MPI_UNSIGNED_SHORT;";
  "    OSHMPI_am.datatypes_table[OSHMPI_AM_MPI_UNSIGNED] = MPI_UNSIGNED;";
  "    OSHMPI_am.datatypes_table[OSHMPI_AM_MPI_UNSIGNED_LONG] = MPI_UNSIGNED_LONG;";
  "    OSHMPI_am.datatypes_table[OSHMPI_AM_MPI_UNSIGNED_LONG_LONG] = MPI_UNSIGNED_LONG_LONG;";
  "    OSHMPI_am.datatypes_table[OSHMPI_AM_MPI_INT8_T] = MPI_INT8_T;";
  "    OSHMPI_am.datatypes_table[OSHMPI_AM_MPI_INT16_T] = MPI_INT16_T;";
  "    OSHMPI_am.datatypes_table[OSHMPI_AM_MPI_INT32_T] = MPI_INT32_T;";
  "    OSHMPI_am.datatypes_table[OSHMPI_AM_MPI_INT64_T] = MPI_INT64_T;";
  "    OSHMPI_am.datatypes_table[OSHMPI_AM_MPI_UINT8_T] = MPI_UINT8_T;";
  "    OSHMPI_am.datatypes_table[OSHMPI_AM_MPI_UINT16_T] = MPI_UINT16_T;";
  "    OSHMPI_am.datatypes_table[OSHMPI_AM_MPI_UINT32_T] = MPI_UINT32_T;";
  "    OSHMPI_am.datatypes_table[OSHMPI_AM_MPI_UINT64_T] = MPI_UINT64_T;";
  "    OSHMPI_am.datatypes_table[OSHMPI_AM_OSHMPI_MPI_SIZE_T] = OSHMPI_MPI_SIZE_T;";
  "    OSHMPI_am.datatypes_table[OSHMPI_AM_OSHMPI_MPI_PTRDIFF_T] = OSHMPI_MPI_PTRDIFF_T;";
  "    OSHMPI_am.datatypes_table[OSHMPI_AM_MPI_FLOAT] = MPI_FLOAT;";
  "    OSHMPI_am.datatypes_table[OSHMPI_AM_MPI_DOUBLE] = MPI_DOUBLE;";
  "    OSHMPI_am.datatypes_table[OSHMPI_AM_MPI_LONG_DOUBLE] = MPI_LONG_DOUBLE;";
  "    OSHMPI_am.datatypes_table[OSHMPI_AM_MPI_C_DOUBLE_COMPLEX] = MPI_C_DOUBLE_COMPLEX;";
  "";
  "    /* Global op table used for index translation */";
  "    OSHMPI_am.ops_table = OSHMPIU_malloc(sizeof(MPI_Op) * OSHMPI_AM_MPI_OP_MAX);";
  "    OSHMPI_ASSERT(OSHMPI_am.ops_table);";
  "    OSHMPI_am.ops_table[OSHMPI_AM_MPI_BAND] = MPI_BAND;";
  "    OSHMPI_am.ops_table[OSHMPI_AM_MPI_BOR] = MPI_BOR;";
  "    OSHMPI_am.ops_table[OSHMPI_AM_MPI_BXOR] = MPI_BXOR;";
  "    OSHMPI_am.ops_table[OSHMPI_AM_MPI_NO_OP] = MPI_NO_OP;";
  "    OSHMPI_am.ops_table[OSHMPI_AM_MPI_REPLACE] = MPI_REPLACE;";
  "    OSHMPI_am.ops_table[OSHMPI_AM_MPI_SUM] = MPI_SUM;"
].
