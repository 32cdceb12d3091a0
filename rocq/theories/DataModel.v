(** Data under the completion model of OrderModel: when the bytes of puts reach the target and when
    gets read them. MPI one-sided communication and active messages transfer the bytes of an
    operation one by one, in any order, at any time between the MPI call that starts the operation and
    its completion (rma_impl.h:13-53, amo_impl.h:33-50: MPI_Put, MPI_Get, MPI_Accumulate with
    MPI_REPLACE; rma_am_impl.c:11-83).
    Simplified: only operations that write given bytes or read; each operation is named by its number. *)
From Verif Require Import Base OrderModel.

(** Operation: the bytes [bs] to address [a] of PE [t], or [n] bytes from there. *)
Inductive opd : Type := Wr (t a : Z) (bs : list Z) | Rd (t a : Z) (n : nat).
Definition o_len (d : opd) : nat := match d with Wr _ _ bs => length bs | Rd _ _ n => n end.
Definition o_tgt (d : opd) : Z := match d with Wr t _ _ | Rd t _ _ => t end.

Record mst : Type := mkMst {
  m_g : Z -> ost;
  m_mem : Z -> Z -> Z;                  (* memory of each PE *)
  m_land : Z -> Z -> nat -> bool;       (* byte j of operation id of PE p has been transferred *)
  m_res : Z -> Z -> nat -> Z            (* what a get has read *)
}.

Section Data.
Variable c : oconf.
(** The operations of each PE, by number. *)
Variable W : Z -> Z -> opd.

Definition upd3 {X : Type} (f : Z -> Z -> nat -> X) (p id : Z) (j : nat) (x : X) : Z -> Z -> nat -> X :=
  fun q i k => if (q =? p) && (i =? id) && (k =? j)%nat then x else f q i k.
Definition wr (m : Z -> Z -> Z) (t a v : Z) : Z -> Z -> Z :=
  fun u b => if (u =? t) && (b =? a) then v else m u b.

(** Byte [j] of operation [id] of PE [p] is transferred. *)
Definition land (s : mst) (p id : Z) (j : nat) : mst :=
  if m_land s p id j then s else
  match W p id with
  | Wr t a bs =>
      match nth_error bs j with
      | Some v => mkMst (m_g s) (wr (m_mem s) t (a + Z.of_nat j) v) (upd3 (m_land s) p id j true) (m_res s)
      | None => s
      end
  | Rd t a n =>
      if (j <? n)%nat then
        mkMst (m_g s) (m_mem s) (upd3 (m_land s) p id j true) (upd3 (m_res s) p id j (m_mem s t (a + Z.of_nat j)))
      else s
  end.
(** What is left of an operation, when it is complete. *)
Definition land_all (s : mst) (p id : Z) : mst :=
  fold_left (fun s j => land s p id j) (seq 0 (o_len (W p id))) s.
Definition land_ev (s : mst) (e : Z * oev) : mst :=
  match e with (p, EDone id) => land_all s p id | _ => s end.

(** Steps of OrderModel, and transfers of single bytes of pending operations. A call names an operation to
    its target. *)
Inductive mlab : Type := ML (lb : glab) | MLand (p id : Z) (j : nat).
Definition call_ok (lb : glab) : bool :=
  match lb with GCall p _ (CRma _ _ _ id t _) => o_tgt (W p id) =? t | _ => true end.
Definition mstep (s : mst) (lb : mlab) : outcome (mst * list (Z * oev)) :=
  match lb with
  | ML l =>
      if call_ok l then
        do x <- gstep c (m_g s) l;
        Ok (fold_left land_ev (snd x) (mkMst (fst x) (m_mem s) (m_land s) (m_res s)), snd x)
      else Ok (s, [])
  | MLand p id j =>
      Ok (if existsb (fun x => pd_id x =? id) (o_pend (m_g s p)) then land s p id j else s, [])
  end.
Fixpoint mrun (s : mst) (ls : list mlab) : outcome (mst * list (Z * oev)) :=
  match ls with
  | [] => Ok (s, [])
  | lb :: rest => do x <- mstep s lb; do y <- mrun (fst x) rest; Ok (fst y, snd x ++ snd y)
  end.
Definition m_init (mem : Z -> Z -> Z) : mst := mkMst g_init mem (fun _ _ _ => false) (fun _ _ _ => 0).
End Data.
