(** The routines written by hand: C101. *)
From Coq Require Import String Ascii List Bool ZArith.
From Verif Require Import GenData GenModel GenSpec HandData HandModel HandSpec HandProofs.
Import ListNotations.
Local Open Scope string_scope.

(** When program and library are compiled for the same C, the library has every routine that the headers declare, with that
    prototype. *)
Theorem C101_linked_partial (c11 : bool) (d : list string) : In d (declarations c11) ->
  exists f, In f (definitions c11) /\ proto (fst f) = proto d.
Proof. exact (declared_defined c11 d). Qed.
Print Assumptions C101_linked_partial.
(** The other way round every routine has a declaration with its prototype, and one definition. *)
Theorem C101_declared (c11 : bool) : NoDup (map (fun f => name_of (fst f)) (definitions c11)) /\
  forall f, In f (definitions c11) -> exists d, In d (declarations c11) /\ proto d = proto (fst f).
Proof. split; [exact (defined_once c11)|exact (defined_declared c11)]. Qed.
Print Assumptions C101_declared.
(** A program in C11 can use a library compiled for an older C; an older program can use all but two routines of a library
    compiled for C11. *)
Theorem C101_mixed_partial : (forall d, In d (declarations true) -> exists f, In f (definitions false) /\ proto (fst f) = proto d) /\
  forall d, In d (declarations false) -> ~ In (name_of d) ["shmem_wait_until"; "shmem_wait"] -> exists f, In f (definitions true) /\ proto (fst f) = proto d.
Proof. split; [exact mixed_new|exact mixed_old]. Qed.
Print Assumptions C101_mixed_partial.
(** These two are declared in an older C (and in C++), and the library does not have them: a program that calls them does not link. *)
Theorem C101_wait_refuted : forall n, In n ["shmem_wait_until"; "shmem_wait"] ->
  (exists d, In d (declarations false) /\ name_of d = n) /\ forall f, In f (definitions true) -> name_of (fst f) <> n.
Proof. exact old_missing. Qed.
Print Assumptions C101_wait_refuted.
(** Each routine of the table is one call of its internal routine, and each parameter of that routine gets what it must get. *)
Theorem C101_passes (c11 : bool) (r : row) : In r (table c11) ->
  exists d f, In d (callees c11) /\ In f (definitions c11) /\ passes r d f = true.
Proof. exact (all_pass c11 r). Qed.
Print Assumptions C101_passes.
(** There are no others than these, those listed as having a body of their own, and those without effect. *)
Theorem C101_all (c11 : bool) (f : item) : In f (definitions c11) ->
  (exists r, In r (table c11) /\ r_name r = name_of (fst f)) \/ In (name_of (fst f)) own_body \/
  (In (name_of (fst f)) no_effect /\ snd f = Some []).
Proof. exact (all_kinds c11 f). Qed.
Print Assumptions C101_all.

(** The numbers of routines and of rows. *)
Example C101_count : (List.length (definitions true), List.length (definitions false), List.length (table true), List.length (table false)) = (96, 98, 57, 59).
Proof. vm_compute. reflexivity. Qed.
Example C101_proto : hd [] (declarations true) = ["void"; "shmem_init"; "("; "void"; ")"].
Proof. vm_compute. reflexivity. Qed.
(** Swapped buffers, another width, a constant for the PE, a dropped call, a call after the call do not pass. *)
Example C101_strict :
  let get := ["OSHMPI_STATIC_INLINE_PREFIX void OSHMPI_ctx_get(shmem_ctx_t ctx, MPI_Datatype mpi_type, size_t typesz, void *origin_addr,";
              "const void *target_addr, size_t nelems, int pe)"] in
  let try body := existsb (fun r => existsb (passes r (proto (tokens false get)))
       (functions_of ("void shmem_getmem(void *dest, const void *source, size_t nelems, int pe) {" :: body))) (get_like "getmem" "OSHMPI_ctx_get") in
  (try ["OSHMPI_ctx_get(SHMEM_CTX_DEFAULT, MPI_BYTE, 1, dest /* origin */, source, nelems, pe); }"],
   try ["OSHMPI_ctx_get(SHMEM_CTX_DEFAULT, MPI_BYTE, 1, source, dest, nelems, pe); }"],
   try ["OSHMPI_ctx_get(SHMEM_CTX_DEFAULT, MPI_UINT32_T, 1, dest, source, nelems, pe); }"],
   try ["OSHMPI_ctx_get(SHMEM_CTX_DEFAULT, MPI_BYTE, 1, dest, source, nelems, 0); }"],
   try ["OSHMPI_ctx_get(SHMEM_CTX_DEFAULT, MPI_BYTE, 1, dest, source, pe, nelems); }"],
   try ["}"],
   try ["OSHMPI_ctx_get(SHMEM_CTX_DEFAULT, MPI_BYTE, 1, dest, source, nelems, pe); OSHMPI_ctx_quiet(SHMEM_CTX_DEFAULT); }"])
  = (true, false, false, false, false, false, false).
Proof. vm_compute. reflexivity. Qed.
