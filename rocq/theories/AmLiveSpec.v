(** What the liveness properties of active messages talk about. *)
From Verif Require Import Base AmModel.

Section AmLive.
Variables A D M R : Type.
Variable exec : A -> option D -> M -> outcome (M * R).
Variable ub : Z.
Variable n : Z.
Notation ast := (ast A D M R).
Notation step := (step exec ub n).

(** The thread is inside an operation or a flush. *)
Definition in_call (x : tst A D R) : bool :=
  match x with TIdle | TFin | TStop | TAbort => false | _ => true end.

(** Not the start of a call: a thread going on, or a callback engine. *)
Definition internal (l : label A D) : Prop :=
  match l with LGo _ _ | LCb _ _ _ => True | _ => False end.
(** The same actor. *)
Definition same_actor (l l' : label A D) : Prop :=
  match l, l' with
  | LGo p i, LGo p' i' => p = p' /\ i = i'
  | LCb t p _, LCb t' p' _ => t = t' /\ p = p'
  | _, _ => False
  end.
Definition is_fin (l : label A D) : Prop := match l with LFin _ _ => True | _ => False end.

(** The state after [k] steps of a schedule. *)
Fixpoint at_time (s : ast) (sg : nat -> label A D) (k : nat) : ast :=
  match k with O => s | S k => fst (step (at_time s sg k) (sg k)) end.

(** MPI may delay the local completion of a send (MPI_Waitall on the sends of an operation without
    reply) until the receiver has taken what was sent to it. *)
Definition held (s : ast) (l : label A D) : Prop :=
  match l with
  | LGo p i => match a_thr s p i with TFlag t _ _ _ => a_comm s p t <> [] | _ => False end
  | _ => False
  end.
(** Without the asynchronous thread the engine of a PE runs only while some thread of this PE is
    inside a call that polls: an active-message operation, or ([pol]) any other polling call, such
    as a barrier. *)
Definition unpolled (pol : Z -> Prop) (s : ast) (l : label A D) : Prop :=
  match l with
  | LCb t _ _ => ~ pol t /\ forall i, in_call (a_thr s t i) = false
  | _ => False
  end.

(** Without the asynchronous thread a thread that polls runs the handler itself, and does nothing else
    until the handler returns (am_impl.c:97-120). A put sends its header and its payload before
    it polls (rma_am_impl.h:32-36), so a thread between the two is not held up. *)
Definition in_handler (s : ast) (l : label A D) : Prop :=
  match l with
  | LGo p i => (exists q g r, a_cb s p = CbRecv q g r) /\ (forall t g r, a_thr s p i <> TData t g r)
  | _ => False
  end.

(** Weak fairness: no actor is passed over for ever, unless it is again and again excused or has
    nothing to do. *)
Definition fair (excuse : nat -> ast -> label A D -> Prop) (s : ast) (sg : nat -> label A D) : Prop :=
  forall k l, internal l -> exists m, (k <= m)%nat /\
    (same_actor l (sg m) \/ excuse m (at_time s sg m) l \/ step (at_time s sg m) l = (at_time s sg m, [])).

(** All steps of [ls] from [s] do something. *)
Fixpoint all_effective (s : ast) (ls : list (label A D)) : Prop :=
  match ls with [] => True | l :: r => step s l <> (s, []) /\ all_effective (fst (step s l)) r end.

Definition handler_failed (s : ast) : Prop := exists t q r, a_cb s t = CbAbort q r.
Definition all_returned (s : ast) : Prop := forall p i, in_call (a_thr s p i) = false.
End AmLive.

Arguments in_call {A D R}.
Arguments internal {A D}.
Arguments same_actor {A D}.
Arguments is_fin {A D}.
Arguments at_time {A D M R}.
Arguments held {A D M R}.
Arguments unpolled {A D M R}.
Arguments in_handler {A D M R}.
Arguments fair {A D M R}.
Arguments all_effective {A D M R}.
Arguments handler_failed {A D M R}.
Arguments all_returned {A D M R}.
