(** Lists as lists: which objects exist, and which are in the list. *)
From Verif Require Import Base UlModel.

Definition ab : Type := (list Z * list Z)%type.  (* existing objects; the list *)
Definition ab_legal (a : ab) (o : lop) : Prop :=
  match o with
  | LNew p _ => p <> 0 /\ ~ In p (fst a)
  | LAppend p | LPrepend p | LFree p => In p (fst a) /\ ~ In p (snd a)
  | LDelete p => In p (snd a)
  end.
Definition without (p : Z) (l : list Z) : list Z := filter (fun q => negb (q =? p)) l.
Definition ab_step (a : ab) (o : lop) : ab :=
  match o with
  | LNew p _ => (p :: fst a, snd a)
  | LAppend p => (fst a, snd a ++ [p])
  | LPrepend p => (fst a, p :: snd a)
  | LDelete p => (fst a, without p (snd a))
  | LFree p => (without p (fst a), snd a)
  end.
Fixpoint ab_ok (a : ab) (os : list lop) : Prop :=
  match os with [] => True | o :: r => ab_legal a o /\ ab_ok (ab_step a o) r end.
Fixpoint ab_run (a : ab) (os : list lop) : ab := match os with [] => a | o :: r => ab_run (ab_step a o) r end.
(** Elements up to and including the first that satisfies [stop]. *)
Fixpoint upto (stop : Z -> bool) (l : list Z) : list Z :=
  match l with [] => [] | x :: r => if stop x then [x] else x :: upto stop r end.
