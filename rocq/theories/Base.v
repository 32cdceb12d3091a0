(** Common definitions: outcomes of C code, fixed-width integers, OSHMPI_ALIGN. *)
From Coq Require Export List Arith ZArith Lia Bool.
From Coq Require Export ZifyBool ZifyNat ZifyN.
Export ListNotations.
Open Scope Z_scope.

(** Result of running a piece of C code.
    [Ok a]   normal return;
    [Abort]  MPI_Abort, from a failed OSHMPI_ASSERT (src/include/oshmpi_util.h:71-77)
             or OSHMPI_ERR_ABORT (oshmpi_util.h:83-88);
    [UB]     C undefined behaviour (out-of-bounds access, NULL dereference,
             division by zero, signed overflow);
    [NoFuel] the model's loop bound was exhausted (no counterpart in C: theorems exclude it). *)
Inductive outcome (A : Type) : Type :=
| Ok (a : A)
| Abort
| UB
| NoFuel.
Arguments Ok {A} a.
Arguments Abort {A}.
Arguments UB {A}.
Arguments NoFuel {A}.

Definition bind {A B : Type} (x : outcome A) (f : A -> outcome B) : outcome B :=
  match x with
  | Ok a => f a
  | Abort => Abort
  | UB => UB
  | NoFuel => NoFuel
  end.
Notation "'do' p <- x ; f" := (bind x (fun p => f))
  (at level 200, p pattern, x at level 100, f at level 200, right associativity).

(** OSHMPI_ASSERT (src/include/oshmpi_util.h:71-80). [checks] is true unless the
    library is built with OSHMPI_DISABLE_ERROR_CHECKING, where the macro is empty. *)
Definition c_assert (checks b : bool) : outcome unit :=
  if b then Ok tt else if checks then Abort else Ok tt.

(** C integer conversions on LP64 platforms (size_t, unsigned long: 64 bits; int: 32 bits,
    two's complement, out-of-range conversion to int wraps as in gcc/clang). *)
Definition wrap64 (z : Z) : Z := z mod 2 ^ 64.
Definition wrap32 (z : Z) : Z := z mod 2 ^ 32.
Definition to_int (z : Z) : Z := (z + 2 ^ 31) mod 2 ^ 32 - 2 ^ 31.
Definition to_long (z : Z) : Z := (z + 2 ^ 63) mod 2 ^ 64 - 2 ^ 63.

Definition INT_MAX : Z := 2 ^ 31 - 1.

(** OSHMPI_ALIGN (src/include/oshmpi_util.h:51-53):
    (((unsigned long) (val) + (align) - 1) & ~((align) - 1)), [align] of type size_t. *)
Definition c_align (val align : Z) : Z :=
  Z.land (wrap64 (val + align - 1)) (wrap64 (Z.lnot (align - 1))).

(** List update by index (used for C array stores). *)
Fixpoint upd {A : Type} (l : list A) (n : nat) (x : A) : list A :=
  match l, n with
  | [], _ => []
  | _ :: t, O => x :: t
  | a :: t, S n' => a :: upd t n' x
  end.

(** C array access with a (signed) index: [None] when out of bounds. *)
Definition aget {A : Type} (l : list A) (i : Z) : option A :=
  if i <? 0 then None else nth_error l (Z.to_nat i).
Definition aset {A : Type} (l : list A) (i : Z) (x : A) : option (list A) :=
  if (0 <=? i) && (i <? Z.of_nat (length l)) then Some (upd l (Z.to_nat i) x) else None.

(** Outcome from an array access: out of bounds is UB. *)
Definition of_opt {A : Type} (o : option A) : outcome A :=
  match o with Some a => Ok a | None => UB end.

(** Run [f 0], ..., [f (n-1)] (one result per PE). *)
Fixpoint outs {A : Type} (f : Z -> outcome A) (i : Z) (n : nat) : outcome (list A) :=
  match n with
  | O => Ok []
  | S n' => do a <- f i; do l <- outs f (i + 1) n'; Ok (a :: l)
  end.

#[global] Arguments Z.add : simpl never.
#[global] Arguments Z.sub : simpl never.
#[global] Arguments Z.mul : simpl never.
#[global] Arguments Z.div : simpl never.
#[global] Arguments Z.modulo : simpl never.
#[global] Arguments Z.pow : simpl never.
#[global] Arguments Z.of_nat : simpl never.
#[global] Arguments Z.to_nat : simpl never.

(** Close a goal by computation. *)
Ltac vmr := vm_compute; reflexivity.
