(** How the public header is put together: insert_file_by_key (autogen.sh:21-27) and its calls (autogen.sh:110-199). *)
From Coq Require Import String List Bool.
From Verif Require Import GenData GenModel GenSizedData HandData.
Import ListNotations.
Local Open Scope string_scope.

(** insert_file_by_key (autogen.sh:21-27): awk prints every line, and after a line with the key what is left to read of the file: all of it after
    the first such line, nothing later. The keys have no special characters. *)
Fixpoint insert (key : string) (file ls : list string) : list string :=
  match ls with
  | [] => []
  | l :: r => if has key l then (l :: file ++ insert key [] r)%list else l :: insert key file r
  end.
(** The files and keys in their order (autogen.sh:115-198). *)
Definition steps : list (string * list string) :=
  [("SHMEM_RMA_TYPED_H start", generate true tab_rma hdr_rma); ("SHMEM_RMA_SIZED_H start", generate false tab_rma_size hdr_rma_sized);
   ("SHMEM_AMO_STD_TYPED_H start", generate true tab_amo_std hdr_amo_std); ("SHMEM_AMO_EXT_TYPED_H start", generate true tab_amo_ext hdr_amo_ext);
   ("SHMEM_AMO_BITWS_TYPED_H start", generate true tab_amo_bitws hdr_amo_bitws); ("SHMEM_COLL_TYPED_H start", generate true tab_coll hdr_coll);
   ("SHMEM_REDUCE_MINMAX_ASET_TYPED_H start", generate true tab_reduce_minmax_aset hdr_reduce_minmax_aset);
   ("SHMEM_REDUCE_SUMPROD_ASET_TYPED_H start", generate true tab_reduce_sumprod_aset hdr_reduce_sumprod_aset);
   ("SHMEM_REDUCE_BITWS_ASET_TYPED_H start", generate true tab_reduce_bitws_aset hdr_reduce_bitws_aset);
   ("SHMEM_REDUCE_MINMAX_TEAM_TYPED_H start", generate true tab_reduce_minmax_team hdr_reduce_minmax_team);
   ("SHMEM_REDUCE_SUMPROD_TEAM_TYPED_H start", generate true tab_reduce_sumprod_team hdr_reduce_sumprod_team);
   ("SHMEM_REDUCE_BITWS_TEAM_TYPED_H start", generate true tab_reduce_bitws_team hdr_reduce_bitws_team);
   ("SHMEM_SIGNAL_TYPED_H start", generate true tab_signal hdr_signal); ("SHMEM_SIGNAL_SIZED_H start", generate false tab_signal_size hdr_signal_sized);
   ("SHMEM_P2P_TYPED_H start", generate true tab_p2p hdr_p2p)].
Definition assemble (steps : list (string * list string)) (tpl : list string) : list string :=
  fold_left (fun t kf => insert (fst kf) (snd kf) t) steps tpl.
(** include/shmem.h.in (autogen.sh:110: a copy of the template to start with) *)
Definition shmem_h : list string := assemble steps hdr_shmem.
