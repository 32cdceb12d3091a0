(** Put and get over active messages from the call to the effect: data and packet leave the origin, the callback receives into or sends
    from the place the packet names (rma_am_impl.h, rma_am_impl.c). *)
From Verif Require Import Base AmModel AmoModel.
From Verif Require PktModel PktSpec.

Section S.
(** Translation of handle and displacement (SobjModel); floating-point operations are not used here. *)
Variable addr : Z -> Z -> Z.
Let fadd (_ : ctype) (a _ : list Z) : list Z := a.
Let feq (_ : ctype) (_ _ : list Z) : bool := false.

(** What the callbacks do with the memory of the target: the data message of a put [od] is received, that of a get is the result
    (rma_am_impl.c:10-83). A negative count is an MPI error. *)
Definition exec_rma (a : PktModel.action) (od : option (list Z)) (m : bytes) : outcome (bytes * list Z) :=
  match a with
  | PktModel.APut h d n _ => if n <? 0 then Abort else exec_pkt fadd feq (PPut (addr h d) (Z.to_nat n)) od m
  | PktModel.AGet h d n _ => if n <? 0 then Abort else exec_pkt fadd feq (PGet (addr h d) (Z.to_nat n)) od m
  | PktModel.AIput h d st n t _ => exec_pkt fadd feq (PIput (Z.to_nat (PktSpec.dsize t)) (addr h d) st (Z.to_nat n)) od m
  | PktModel.AIget h d st n t _ => exec_pkt fadd feq (PIget (Z.to_nat (PktSpec.dsize t)) (addr h d) st (Z.to_nat n)) od m
  | PktModel.AAbort | PktModel.ANone => Abort
  | _ => UB
  end.
Definition through (buf : PktModel.mem) (r : PktModel.req) : PktModel.action := PktModel.handle_pkt (PktModel.receive buf (PktModel.issue r)).

(** OSHMPI_rma_am_put (rma_am_impl.h:12-44) of [n] elements of type [t]: memory of the origin, memory of the target; result: the target's
    memory. The element type is given by its index; typesz is its size. *)
Definition am_put (buf : PktModel.mem) (t : PktModel.tix) (n : nat) (src h d g : Z) (mo mt : bytes) : outcome bytes :=
  let sz := PktSpec.dsize (PktSpec.named t) in
  let data := ld mo src (Z.to_nat sz * n) in
  do p <- exec_rma (through buf (PktModel.RPut (sz * Z.of_nat n) h d g)) (Some data) mt; Ok (fst p).
(** OSHMPI_rma_am_get (rma_am_impl.h:47-79): result: the origin's memory. *)
Definition am_get (buf : PktModel.mem) (t : PktModel.tix) (n : nat) (dst h d g : Z) (mo mt : bytes) : outcome bytes :=
  let sz := PktSpec.dsize (PktSpec.named t) in
  do p <- exec_rma (through buf (PktModel.RGet (sz * Z.of_nat n) h d g)) None mt;
  if (length (snd p) <=? Z.to_nat sz * n)%nat then Ok (st mo dst (snd p)) else Abort.
(** OSHMPI_rma_am_iput (rma_am_impl.h:82-127): strides in elements. *)
Definition am_iput (buf : PktModel.mem) (t : PktModel.tix) (n : nat) (src ost tst h d g : Z) (mo mt : bytes) : outcome bytes :=
  let sz := Z.to_nat (PktSpec.dsize (PktSpec.named t)) in
  let data := ld_st mo sz src ost n in
  do p <- exec_rma (through buf (PktModel.RIput t tst (Z.of_nat n) h d g)) (Some data) mt; Ok (fst p).
(** OSHMPI_rma_am_iget (rma_am_impl.h:130-177) *)
Definition am_iget (buf : PktModel.mem) (t : PktModel.tix) (n : nat) (dst ost tst h d g : Z) (mo mt : bytes) : outcome bytes :=
  let sz := Z.to_nat (PktSpec.dsize (PktSpec.named t)) in
  do p <- exec_rma (through buf (PktModel.RIget t tst (Z.of_nat n) h d g)) None mt;
  if (length (snd p) <=? sz * n)%nat then Ok (st_st mo sz dst ost n (snd p)) else Abort.
End S.
