(** What an atomic operation does, on the mathematical value of the variable. *)
From Verif Require Import Base AmModel AmoModel.

Definition in_type (c : ctype) (v : Z) : Prop :=
  if ct_signed c then - 2 ^ (ct_bits c - 1) <= v < 2 ^ (ct_bits c - 1) else 0 <= v < 2 ^ ct_bits c.

(** The variable of type [c] at address [a]. *)
Definition var (c : ctype) (m : bytes) (a : Z) : Z := val c (ld m a (ct_width c)).

(** The value after the operation; unsigned types wrap. *)
Definition amo_new (c : ctype) (x : api) (old : Z) : Z :=
  let wrap v := if ct_signed c then v else v mod 2 ^ ct_bits c in
  match x with
  | ACswap cond v => if old =? cond then v else old
  | AFinc | AInc => wrap (old + 1)
  | AFadd v | AAdd v => wrap (old + v)
  | AFetch => old
  | ASet v | ASwap v => v
  | AFand v | AAnd v => Z.land old v
  | AFor v | AOr v => Z.lor old v
  | AFxor v | AXor v => Z.lxor old v
  end.
Definition amo_fetches (x : api) : bool :=
  match x with
  | ACswap _ _ | AFinc | AFadd _ | AFetch | ASwap _ | AFand _ | AFor _ | AFxor _ => true
  | _ => false
  end.
Definition amo_args_ok (c : ctype) (x : api) : Prop :=
  match x with
  | ACswap cond v => in_type c cond /\ in_type c v
  | AFadd v | AAdd v | ASet v | ASwap v | AFand v | AAnd v | AFor v | AOr v | AFxor v | AXor v => in_type c v
  | AFinc | AInc | AFetch => True
  end.

Definition byte (x : Z) : Prop := 0 <= x < 256.
Definition byte_mem (m : bytes) : Prop := forall a, byte (m a).

(** One atomic operation on the variable of type [c] at [a]: memory [m] before, [m'] after, reply
    [rep]. Nothing else changes, and a fetching operation returns the value before. *)
Definition amo_step_ok (c : ctype) (a : Z) (x : api) (m m' : bytes) (rep : list Z) : Prop :=
  var c m' a = amo_new c x (var c m a) /\ in_type c (var c m' a) /\
  (forall b, b < a \/ a + Z.of_nat (ct_width c) <= b -> m' b = m b) /\
  (amo_fetches x = true -> val c rep = var c m a).

(** A call of the atomic API, with a type the routine exists for and arguments of that type. *)
Definition amo_call (r : req pkt (list Z)) : Prop :=
  exists c a x, In c (api_types x) /\ amo_args_ok c x /\ r = api_req c a x.
Definition amo_calls (ls : list (label pkt (list Z))) : Prop :=
  forall l, In l ls -> match l with LOp _ _ _ r => amo_call r | _ => True end.

(** The address of byte [j] of element [i] of a strided object: [esz] bytes per element, [s]
    elements from one to the next. *)
Definition el (a s : Z) (esz i j : nat) : Z := a + Z.of_nat i * s * Z.of_nat esz + Z.of_nat j.
(** [m'] is [m] with the elements of the strided object replaced by the data, nothing else. *)
Definition scattered (a s : Z) (esz n : nat) (d : list Z) (m m' : bytes) : Prop :=
  (forall i j, (i < n)%nat -> (j < esz)%nat -> m' (el a s esz i j) = nth (i * esz + j) d 0) /\
  (forall b, (forall i j, (i < n)%nat -> (j < esz)%nat -> b <> el a s esz i j) -> m' b = m b).
(** [d] is what the elements of the strided object hold. *)
Definition gathered (a s : Z) (esz n : nat) (d : list Z) (m : bytes) : Prop :=
  length d = (n * esz)%nat /\
  forall i j, (i < n)%nat -> (j < esz)%nat -> nth (i * esz + j) d 0 = m (el a s esz i j).

(** A sequence of atomic operations from memory [m] to memory [m'], with their replies. *)
Fixpoint amo_seq (m : bytes) (log : list (Z * req pkt (list Z) * list Z)) (m' : bytes) : Prop :=
  match log with
  | [] => m' = m
  | (_, r, rep) :: rest =>
      exists c a x m1, r = api_req c a x /\ amo_step_ok c a x m m1 rep /\ amo_seq m1 rest m'
  end.
