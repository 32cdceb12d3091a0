(** What strided and contiguous transfers mean, byte by byte. *)
From Verif Require Import Base RmaModel.

(** [n] elements of [sz] bytes go from [sm], address [sa], every [ss] elements, to address [da],
    every [ds] elements, of a memory that was [dm] and is now [dm']; nothing else changes. *)
Definition strided_copy (sz n : Z) (sm : mem) (sa ss : Z) (dm : mem) (da ds : Z) (dm' : mem) : Prop :=
  (forall i b, 0 <= i < n -> 0 <= b < sz -> dm' (da + i * ds * sz + b) = sm (sa + i * ss * sz + b)) /\
  (forall a, (forall i b, 0 <= i < n -> 0 <= b < sz -> a <> da + i * ds * sz + b) -> dm' a = dm a).

(** [bytes] consecutive bytes. *)
Definition copy_bytes (bytes : Z) (sm : mem) (sa : Z) (dm : mem) (da : Z) (dm' : mem) : Prop :=
  (forall k, 0 <= k < bytes -> dm' (da + k) = sm (sa + k)) /\
  (forall a, ~ (da <= a < da + bytes) -> dm' a = dm a).

(** Values that survive the conversions to int. *)
Definition int_ok (z : Z) : Prop := - 2 ^ 31 <= z < 2 ^ 31.

(** A history of uses of the datatype layer in one process. *)
Inductive tuse : Type :=
| UPair (n st1 st2 : Z) (b : bt) (ext1 ext2 : Z)
| UOne (n st : Z) (b : bt).
Definition use (cached : bool) (t : dts) (u : tuse) : outcome (dts * list (Z * dt)) :=
  match u with
  | UPair n s1 s2 b e1 e2 => do r <- strided_pair cached t n s1 s2 b e1 e2; let '(t1, a, c) := r in Ok (t1, [a; c])
  | UOne n s b => do r <- strided_one cached t n s b; let '(t1, a) := r in Ok (t1, [a])
  end.
Fixpoint uses (cached : bool) (t : dts) (us : list tuse) : outcome (dts * list (list (Z * dt))) :=
  match us with
  | [] => Ok (t, [])
  | u :: r => do a <- use cached t u; do b <- uses cached (fst a) r; Ok (fst b, snd a :: snd b)
  end.

(** Datatypes that exist. *)
Definition live_types (t : dts) : list nat :=
  filter (fun n => match nth_error (t_objs t) n with Some (Some _) => true | _ => false end)
    (seq 0 (length (t_objs t))).
