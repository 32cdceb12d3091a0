(** What a program without races may rely on: each byte behaves as a variable in one memory. *)
From Verif Require Import Base OrderModel DataModel DataSpec.

(** An operation reads the byte [a] of PE [t]. *)
Definition reads (d : opd) (t a : Z) : Prop := exists b n j, d = Rd t b n /\ a = b + Z.of_nat j /\ (j < n)%nat.
(** Two operations on that byte, at least one of which writes it. *)
Definition conflict (d d' : opd) (t a : Z) : Prop :=
  (exists v, writes d t a v) /\ ((exists v, writes d' t a v) \/ reads d' t a) \/
  reads d t a /\ (exists v, writes d' t a v).

(** Accesses to the byte do not overlap: when an operation on it is started (for the first time), all earlier ones in conflict
    with it are complete. *)
Definition ordered (W : Z -> Z -> opd) (log : list (Z * oev)) (t a : Z) : Prop :=
  forall u q i x o k id t' dev v, log = u ++ (q, EStart i (CRma x o k id t' dev)) :: v ->
  ((exists y, writes (W q id) t a y) \/ reads (W q id) t a) ->
  ~ issued u q id /\ forall p' id', issued u p' id' -> conflict (W p' id') (W q id) t a -> In (p', EDone id') u.

(** The value that an operation writes to the byte. *)
Definition wval (d : opd) (t a : Z) : option Z :=
  match d with
  | Wr t' b bs => if (t' =? t) && (b <=? a) then nth_error bs (Z.to_nat (a - b)) else None
  | Rd _ _ _ => None
  end.
(** The value last written to the byte, in the order in which the operations are started. *)
Fixpoint lastw (W : Z -> Z -> opd) (t a v0 : Z) (log : list (Z * oev)) : Z :=
  match log with
  | [] => v0
  | (p, EStart _ (CRma _ _ _ id _ _)) :: r => lastw W t a (match wval (W p id) t a with Some v => v | None => v0 end) r
  | _ :: r => lastw W t a v0 r
  end.
