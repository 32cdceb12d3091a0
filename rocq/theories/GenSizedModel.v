(** The size-suffixed routines: what autogen.sh:120-122, 189-191, 214-218, 295-299 generate from maint/rma_sizedef.txt and
    maint/signal_sizedef.txt with maint/build_sized_api.pl (GenModel.generate). *)
From Coq Require Import String List.
From Verif Require Import GenData GenModel GenSizedData.
Import ListNotations.

(** src/shmem/rma_sized.c (autogen.sh:214-218) and src/shmem/signal_sized.c (autogen.sh:295-299) *)
Definition sized_c : list (list string) := [sized_text; generate false tab_signal_size src_signal_sized].
(** include/shmem_rma_sized.h (autogen.sh:120-122) and include/shmem_signal_sized.h (autogen.sh:189-191), inserted in shmem.h *)
Definition sized_h : list (list string) := [generate false tab_rma_size hdr_rma_sized; generate false tab_signal_size hdr_signal_sized].
