(** What stopping the progress thread should do. *)
From Verif Require Import Base StopModel.

(** Headers that arrived before the finalizing thread sent TERMINATE, in order. *)
Fixpoint before_term (xs : list slab) : list Z :=
  match xs with
  | [] => []
  | GM :: _ => []
  | GArrive n :: r => n :: before_term r
  | _ :: r => before_term r
  end.
(** Steps of the two threads themselves. *)
Definition own (x : slab) : Prop := x = GM \/ x = GT.
(** The order that is safe: the condition variable is destroyed only after the progress thread has signalled and ended. *)
Fixpoint waits (s : sst) (xs : list slab) : Prop :=
  match xs with
  | [] => True
  | x :: r => (x = GM -> s_m s = MCondD -> s_t s = TGone) /\
              match sstep s x with Some (Ok s') => waits s' r | _ => True end
  end.
