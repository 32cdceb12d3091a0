(** What waiting, information and the life cycle should do. *)
From Verif Require Import Base P2pModel.
Open Scope Z_scope.

(** The comparison named by a constant of the API. *)
Inductive cmp_holds : Z -> Z -> Z -> Prop :=
| HEq a b : a = b -> cmp_holds 0x100001 a b
| HNe a b : a <> b -> cmp_holds 0x100002 a b
| HGt a b : a > b -> cmp_holds 0x100003 a b
| HGe a b : a >= b -> cmp_holds 0x100004 a b
| HLt a b : a < b -> cmp_holds 0x100005 a b
| HLe a b : a <= b -> cmp_holds 0x100006 a b.
Definition cmp_valid (c : Z) : Prop := 0x100001 <= c <= 0x100006.

(** The state before the [n]-th read of a PE that polls [n] times without returning. *)
Fixpoint state_at (async : bool) (arr : nat -> list pevent) (s : pst) (i n : nat) : pst :=
  match n with
  | O => fold_left pev (arr i) s
  | S n => state_at async arr (cb_progress async (fold_left pev (arr i) s)) (S i) n
  end.
(** The value of the variable once all messages in the queue are handled. *)
Definition drained (s : pst) : Z := fold_left (fun m f => f m) (p_queue s) (p_mem s).

(** A string inside a buffer. *)
Definition c_string (buf s : list Z) : Prop :=
  (exists r, buf = s ++ 0 :: r) /\ ~ In 0 s.

(** Calls of the library that initialise it. *)
Definition is_init (c : lcall) : Prop := c = LInit \/ c = LStartPes.
