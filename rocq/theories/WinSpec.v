(** MPI leaves undefined what happens when operations through distinct windows access the same
    memory concurrently (MPI 3.1, 11.2.1). *)
From Verif Require Import Base AmCfgModel OrderModel WinModel.

(** The object is one the context may be used for: any for the default context, the own space for
    a context of a space. *)
Definition in_reach (x : octx) (o : oobj) : Prop :=
  match x with XDefault => True | XSpace k _ => o = OSpace k end.

(** The context the program gives with a call; wait, lock and broadcast take none, which means the
    default context. *)
Definition given_ctx (a : wcall) : octx :=
  match a with WRma x _ _ => x | WWait => XDefault | WLock => XDefault | WBcast => XDefault end.

(** Two calls conflict when they may access the object through distinct windows that both expose it. *)
Definition window_clash (s : ost) (o : oobj) (l1 l2 : loc) : Prop :=
  l1 <> l2 /\ exposes s l1 o = true /\ exposes s l2 o = true.
