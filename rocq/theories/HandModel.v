(** The routines written by hand, as the C compiler sees them: src/shmem/*.c, src/shmemx/space.c and the two headers. *)
From Coq Require Import String Ascii List Bool.
From Verif Require Import GenModel HandData.
Import ListNotations.
Local Open Scope string_scope.

(** The conditions in these files, for a translation unit in C11 or later or in an older C ([c11]). shmem.h.in.tpl:23-27 decides
    by __STDC_VERSION__, which C++ does not define: a C++ program counts as an older C. The parts for C++ only (shmem.h.in.tpl:18-20,
    355-357: linkage) are left out. *)
Definition condition (c11 : bool) (l : string) : option bool :=
  if String.eqb l "#ifndef OSHMPI_SHMEM_H" || String.eqb l "#ifndef OSHMPI_SHMEMX_H" then Some true
  else if String.eqb l "#if defined(c_plusplus) || defined(__cplusplus)" then Some false
  else if String.eqb l "#if defined(__STDC_VERSION__) && (__STDC_VERSION__ >= 201112L)" then Some c11
  else if String.eqb l "#if OSHMPI_HAVE_C11" then Some c11
  else if String.eqb l "#if (OSHMPI_HAVE_C11 == 0)" then Some (negb c11)
  else None.
(** A line that goes on in the next one. *)
Fixpoint goes_on (l : string) : bool :=
  match l with EmptyString => false | String c EmptyString => Ascii.eqb c "\"%char | String _ r => goes_on r end.
(** The preprocessor: conditional parts; definitions of macros and inclusions are dropped. [st]: the conditions around. None: a
    condition it does not know. *)
Fixpoint preprocess (c11 : bool) (st : list bool) (cont : bool) (ls : list string) : option (list string) :=
  match ls with
  | [] => Some []
  | l :: r =>
      if cont then preprocess c11 st (goes_on l) r
      else if pre "#if" l then
        match condition c11 l with Some b => preprocess c11 (b :: st) (goes_on l) r | None => None end
      else if pre "#else" l then match st with b :: s => preprocess c11 (negb b :: s) (goes_on l) r | [] => None end
      else if pre "#endif" l then match st with _ :: s => preprocess c11 s (goes_on l) r | [] => None end
      else if pre "#" l then preprocess c11 st (goes_on l) r
      else match preprocess c11 st (goes_on l) r with
           | Some t => Some (if forallb (fun b => b) st then l :: t else t)
           | None => None
           end
  end.
Definition unit (c11 : bool) (ls : list string) : list string :=
  match preprocess c11 [] false ls with Some t => t | None => [] end.
(** What a program sees that includes shmem.h and shmemx.h. *)
Definition program_text (c11 : bool) : list (list string) := map (unit c11) [hdr_shmem; hdr_shmemx].
(** What the library holds (src/shmem/Makefile.mk:6-41, src/shmemx/Makefile.mk: all files). *)
Definition library_text (c11 : bool) : list (list string) :=
  map (unit c11) [c_setup; c_mem; c_context; c_team; c_rma; c_coll; c_coll_activeset; c_p2p; c_order; c_lock; c_cache; c_profile; c_signal; c_space].
