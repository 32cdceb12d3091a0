(** Calls over active messages from the symmetric address of the caller to the memory of the target: the origin finds the object and the
    displacement (SobjModel), the packet carries them as bytes (PktModel), the callback finds the address on its own PE (SobjModel) and
    works on it (PktAmoModel, PktRmaModel). *)
From Verif Require Import Base AmModel AmoModel SobjModel.
From Verif Require PktModel PktSpec PktAmoModel PktRmaModel.

(** What the origin puts in the packet for the address [dest] of the call (amo_impl.h:85-92, amo_am_impl.h:28-33; rma_impl.h:139-147,
    rma_am_impl.h:23-30): handle and displacement. *)
Definition place (checks : bool) (w : world) (p : Z) (c : ctxarg) (dest t : Z) : outcome (Z * Z) :=
  do pp <- get_pe w p;
  do x <- query_checked checks pp c dest;
  do d <- am_disp checks w x dest t;
  Ok (a_handle (fst x), d).

(** Handle and displacement the callback reads from its packet. *)
Definition place_read (a : PktModel.action) : option (Z * Z) :=
  match a with
  | PktModel.ACswap h d _ _ _ _ _ | PktModel.AFetch h d _ _ _ _ _ | PktModel.APost h d _ _ _
  | PktModel.APut h d _ _ | PktModel.AGet h d _ _ | PktModel.AIput h d _ _ _ _ | PktModel.AIget h d _ _ _ _ => Some (h, d)
  | _ => None
  end.
(** The start of each callback (amo_am_impl.c:92-93, 123-124, 157-158, rma_am_impl.c:16-17, 30-31, 45-46, 68-69) on PE [pt]. *)
Definition located (checks : bool) (pt : pe) (a : PktModel.action) : outcome Z :=
  match place_read a with Some (h, d) => am_target checks pt h d | None => Ok 0 end.

Section S.
Variable fadd : ctype -> list Z -> list Z -> list Z.
Variable feq : ctype -> list Z -> list Z -> bool.
Variable checks : bool.
Variable w : world.
(** Origin, context, symmetric address and target of the call; tag of the packet; the target's receive buffer. *)
Variables (p : Z) (c : ctxarg) (dest t g : Z) (buf : PktModel.mem).

(** An atomic (amo_impl.h:75-138): memory of the target afterwards and the answer. *)
Definition sym_amo (ty : ctype) (x : api) : outcome (bytes * list Z) :=
  do hd <- place checks w p c dest t;
  do pt <- get_pe w t;
  let a := PktModel.handle_pkt (PktModel.receive buf (PktModel.issue (PktAmoModel.wire ty x (fst hd) (snd hd) g))) in
  do v <- located checks pt a;
  PktAmoModel.exec_action fadd feq (fun _ _ => v) a (pe_mem pt).

(** Puts (rma_impl.h:128-173; none of no elements): the memory of the target afterwards. *)
Definition sym_iput (ty : PktModel.tix) (n : nat) (src ost tst : Z) : outcome bytes :=
  do pp <- get_pe w p;
  do pt <- get_pe w t;
  if (n =? 0)%nat then Ok (pe_mem pt) else
  do hd <- place checks w p c dest t;
  do v <- located checks pt (PktRmaModel.through buf (PktModel.RIput ty tst (Z.of_nat n) (fst hd) (snd hd) g));
  PktRmaModel.am_iput (fun _ _ => v) buf ty n src ost tst (fst hd) (snd hd) g (pe_mem pp) (pe_mem pt).
Definition sym_put (ty : PktModel.tix) (n : nat) (src : Z) : outcome bytes :=
  do pp <- get_pe w p;
  do pt <- get_pe w t;
  if (n =? 0)%nat then Ok (pe_mem pt) else
  do hd <- place checks w p c dest t;
  do v <- located checks pt (PktRmaModel.through buf (PktModel.RPut (PktSpec.dsize (PktSpec.named ty) * Z.of_nat n) (fst hd) (snd hd) g));
  PktRmaModel.am_put (fun _ _ => v) buf ty n src (fst hd) (snd hd) g (pe_mem pp) (pe_mem pt).
(** Gets (rma_impl.h:197-243): the memory of the origin afterwards; [dest] is the address on the target. *)
Definition sym_iget (ty : PktModel.tix) (n : nat) (dst ost tst : Z) : outcome bytes :=
  do pp <- get_pe w p;
  do pt <- get_pe w t;
  if (n =? 0)%nat then Ok (pe_mem pp) else
  do hd <- place checks w p c dest t;
  do v <- located checks pt (PktRmaModel.through buf (PktModel.RIget ty tst (Z.of_nat n) (fst hd) (snd hd) g));
  PktRmaModel.am_iget (fun _ _ => v) buf ty n dst ost tst (fst hd) (snd hd) g (pe_mem pp) (pe_mem pt).
Definition sym_get (ty : PktModel.tix) (n : nat) (dst : Z) : outcome bytes :=
  do pp <- get_pe w p;
  do pt <- get_pe w t;
  if (n =? 0)%nat then Ok (pe_mem pp) else
  do hd <- place checks w p c dest t;
  do v <- located checks pt (PktRmaModel.through buf (PktModel.RGet (PktSpec.dsize (PktSpec.named ty) * Z.of_nat n) (fst hd) (snd hd) g));
  PktRmaModel.am_get (fun _ _ => v) buf ty n dst (fst hd) (snd hd) g (pe_mem pp) (pe_mem pt).
End S.
