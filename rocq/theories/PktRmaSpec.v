(** What a strided copy does. *)
From Verif Require Import Base AmoModel AmoSpec.
From Verif Require PktModel PktSpec.

(** Element [i] of [from], [fs] elements apart at [a], is in [m'] at element [i] of the object at [b], [ts] elements apart; all other
    bytes are those of [m]. *)
Definition copied (esz n : nat) (from : bytes) (a fs : Z) (m m' : bytes) (b ts : Z) : Prop :=
  (forall i j, (i < n)%nat -> (j < esz)%nat -> m' (el b ts esz i j) = from (el a fs esz i j)) /\
  (forall x, (forall i j, (i < n)%nat -> (j < esz)%nat -> x <> el b ts esz i j) -> m' x = m x).
Definition width (t : PktModel.tix) : nat := Z.to_nat (PktSpec.dsize (PktSpec.named t)).
