(** Locks and data together: PEs that call shmem_set_lock, shmem_test_lock and shmem_clear_lock
    (lock_impl.h:28-168, as in LockModel) on any number of locks and put, get, quiet, fence and barrier (OrderModel, DataModel).
    A PE has one calling thread: inside one call it makes no other. The flushes of the lock routines
    (lock_impl.h:59, 67, 76, 107, 115, 129) only wait for their own operation here; what else they complete is left to
    the transfers that may happen at any time. *)
From Verif Require Import Base OrderModel DataModel LockModel.

Record xst : Type := mkX {
  x_d : mst;
  x_l : Z -> lstate;            (* each lock *)
  x_busy : Z -> option Z        (* lock routine in which a PE is *)
}.
Inductive xev : Type := XD (e : oev) | XL (k : Z) (e : lev).
Inductive xlab : Type := XData (lb : mlab) | XLock (k p : Z) (o : lop).

Section Crit.
Variable c : oconf.
Variable W : Z -> Z -> opd.

Definition xpair (p k : Z) (e : lev) : Z * xev := (p, XL k e).
Definition dpair (e : Z * oev) : Z * xev := (fst e, XD (snd e)).

Definition xstep (s : xst) (lb : xlab) : outcome (xst * list (Z * xev)) :=
  match lb with
  | XData d =>
      let free := match d with ML (GCall p _ _) => match x_busy s p with None => true | Some _ => false end | _ => true end in
      if free then
        do r <- mstep c W (x_d s) d;
        Ok (mkX (fst r) (x_l s) (x_busy s), map dpair (snd r))
      else Ok (s, [])
  | XLock k p o =>
      let free := match o_thr (m_g (x_d s) p) 0 with Some _ => false | None => match x_busy s p with Some k' => k' =? k | None => true end end in
      if free && (0 <=? p) && (p <? oc_n c) then
        let '(l, ev) := lstep_n (oc_n c) (x_l s k) (p, o) in
        Ok (mkX (x_d s) (fset (x_l s) k l) (fset (x_busy s) p (match lk_pc l p with Idle | Held => None | _ => Some k end)), map (xpair p k) ev)
      else Ok (s, [])
  end.
Fixpoint xrun (s : xst) (ls : list xlab) : outcome (xst * list (Z * xev)) :=
  match ls with
  | [] => Ok (s, [])
  | lb :: rest => do x <- xstep s lb; do y <- xrun (fst x) rest; Ok (fst y, snd x ++ snd y)
  end.
Definition x_init (m0 : Z -> Z -> Z) : xst := mkX (m_init m0) (fun _ => l_init) (fun _ => None).
End Crit.
