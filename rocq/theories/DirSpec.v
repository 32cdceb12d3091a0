(** What atomics mapped on MPI do, and what a counter kept with them counts. *)
From Verif Require Import Base AmModel AmSpec AmoModel AmoSpec DirModel.

(** A sequence of atomic operations (type, address, operation, result) from memory [m] to memory [m']. *)
Fixpoint ops_seq (m : bytes) (log : list (ctype * Z * api * list Z)) (m' : bytes) : Prop :=
  match log with
  | [] => m' = m
  | (c, a, x, rep) :: rest => exists m1, amo_step_ok c a x m m1 rep /\ ops_seq m1 rest m'
  end.
Definition of_dop (e : Z * dop * list Z) : ctype * Z * api * list Z :=
  let '(_, x, rep) := e in (d_ty x, d_adr x, d_api x, rep).

(** Calls with a type the routine exists for and arguments of that type. *)
Definition dcalls (ls : list dlab) : Prop :=
  forall x, In (DCall x) ls -> In (d_ty x) (api_types (d_api x)) /\ amo_args_ok (d_ty x) (d_api x).

(** ** Counters *)

(** An operation that adds to a variable, and how much. *)
Inductive adds : api -> Z -> Prop :=
| adds_finc : adds AFinc 1 | adds_inc : adds AInc 1
| adds_fadd v : adds (AFadd v) v | adds_add v : adds (AAdd v) v
| adds_fetch : adds AFetch 0.
(** The bytes of two variables are disjoint. *)
Definition apart (c : ctype) (a : Z) (c' : ctype) (a' : Z) : Prop :=
  a' + Z.of_nat (ct_width c') <= a \/ a + Z.of_nat (ct_width c) <= a'.
(** An operation adds [v] to the variable of type [c] at [a], or is on other bytes and [v] is 0. *)
Definition counts (c : ctype) (a : Z) (c' : ctype) (a' : Z) (x : api) (v : Z) : Prop :=
  (c' = c /\ a' = a /\ adds x v) \/ (apart c a c' a' /\ v = 0).
Definition wrap_to (c : ctype) (v : Z) : Z := if ct_signed c then v else v mod 2 ^ ct_bits c.
Definition total (l : list Z) : Z := fold_right Z.add 0 l.

Definition ctype_eq_dec (c c' : ctype) : {c = c'} + {c <> c'}.
Proof. decide equality. Defined.
(** Result of operation [k] of a history, if it fetches from the variable. *)
Definition fetched_at (c : ctype) (a : Z) (log : list (ctype * Z * api * list Z)) (k : nat) : option Z :=
  match nth_error log k with
  | Some (c', a', x, rep) =>
      if (if ctype_eq_dec c' c then true else false) && (a' =? a) && amo_fetches x then Some (val c rep) else None
  | None => None
  end.

(** The variable started at [v0]; operations with the amounts [vs] have been done, and [now] is its value. Each
    fetching one returned the value after those before it. [fetched k]: result of operation [k], if it was
    a fetching one on the variable. *)
Definition counter_ok (c : ctype) (v0 now : Z) (vs : list Z) (fetched : nat -> option Z) : Prop :=
  now = wrap_to c (v0 + total vs) /\
  forall k r, fetched k = Some r -> (k < length vs)%nat /\ r = wrap_to c (v0 + total (firstn k vs)).
