(** C110: the size-suffixed routines. *)
From Coq Require Import String List Bool ZArith.
From Verif Require Import GenData GenModel GenSpec GenSizedData GenSizedModel GenSizedSpec GenSizedProofs.
Import ListNotations.
Local Open Scope string_scope.

(** The files define exactly the size-suffixed routines, each with its parameters, its context, origin and target, strides and number in their
    places, a datatype of the size and the index of such a datatype; the size of an element is given as the suffix. The headers declare
    the same. Missing: the size of an element, which is to be in bytes, see below. *)
Theorem C110_sized_partial t h l : In (t, h, l) sized_files ->
  Forall2 (fun r f => sized_as true r f = true) (srts l) (functions t) /\ Forall2 (fun f d => declares f d = true) (functions t) (functions h).
Proof. intros I. destruct (sized_one t h l I) as (A & B & _). split; assumption. Qed.
Print Assumptions C110_sized_partial.

(** Routines that do not give a size are right. *)
Theorem C110_strided t h l : In (t, h, l) sized_files ->
  Forall2 (fun r f => gives_size r = false -> sized_as false r f = true) (srts l) (functions t).
Proof.
  intros I. destruct (sized_one t h l I) as (_ & _ & C). induction C; constructor; [|assumption]. apply H.
Qed.
Print Assumptions C110_strided.

(** All routines that give one, give the number of bits. *)
Theorem C110_size_refuted : exists t h l r f, In (t, h, l) sized_files /\ In (r, f) (combine (srts l) (functions t)) /\
  name_of (fst f) = "shmem_get16" /\ sized_as true r f = true /\ sized_as false r f = false.
Proof.
  destruct size_bits as (x & r & f & I & J & K). destruct x as ((t, h), l). exists t, h, l, r, f. repeat split; assumption || apply K.
Qed.
Print Assumptions C110_size_refuted.

(** 60 routines of put and get, 20 of signals. *)
Example C110_nonvacuous : map (fun x => List.length (functions (fst (fst x)))) sized_files = [60; 20] /\
  map name_of (map fst (firstn 12 (functions (hd [] sized_c)))) =
    ["shmem_get8"; "shmem_ctx_get8"; "shmem_get8_nbi"; "shmem_ctx_get8_nbi"; "shmem_iget8"; "shmem_ctx_iget8"; "shmem_put8"; "shmem_ctx_put8";
     "shmem_iput8"; "shmem_ctx_iput8"; "shmem_put8_nbi"; "shmem_ctx_put8_nbi"].
Proof. vm_compute. split; reflexivity. Qed.
(** Strides that are exchanged, a datatype of another size and the default context do not pass. *)
Example C110_strict :
  let r := (true, ("16", 2%Z, "2"), ("iget", "", mem ++ str ++ num, strided "OSHMPI_ctx_iget" "dest" "source"))%list in
  let f a b c := (tokens false ["void shmem_ctx_iget16(shmem_ctx_t ctx, void *dest, const void *source, ptrdiff_t dst, ptrdiff_t sst, size_t nelems, int pe)"],
    Some [tokens false ["OSHMPI_ctx_iget(" ++ a ++ ", " ++ b ++ ", OSHMPI_AM_MPI_UINT16_T, dest, source, " ++ c ++ ", nelems, pe)"]; []]) in
  map (fun x => sized_as false r x)
    [f "ctx" "MPI_UINT16_T" "dst, sst"; f "ctx" "MPI_UINT16_T" "sst, dst"; f "ctx" "MPI_UINT32_T" "dst, sst"; f "SHMEM_CTX_DEFAULT" "MPI_UINT16_T" "dst, sst"] =
  [true; false; false; false].
Proof. vm_compute. reflexivity. Qed.
