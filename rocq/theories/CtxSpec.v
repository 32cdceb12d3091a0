(** What ownership of contexts means, from the history of events alone. *)
From Verif Require Import Base CtxModel.
Open Scope nat_scope.
Open Scope list_scope.

(** Context [i] was returned to some caller and not destroyed since. *)
Definition owned (h : list cev) (i : nat) : Prop :=
  exists h1 t h2, h = h1 ++ EGot t i :: h2 /\ forall t', ~ In (EDestroy t' i) h2.
(** No event of thread [t]. *)
Definition actor (e : cev) : nat :=
  match e with ECall t | EGot t _ | ENone t | EDestroy t _ => t end.
Definition silent (t : nat) (h : list cev) : Prop := forall e, In e h -> actor e <> t.
(** During a call of [t], which is the end of the history: [i] was owned at some moment. *)
Definition owned_during (h1 : list cev) (t : nat) (h2 : list cev) (i : nat) : Prop :=
  exists a b, h2 = a ++ b /\ owned (h1 ++ ECall t :: a) i.
(** Steps of one thread in a schedule. *)
Definition steps_of (t : nat) (l : list cact) : nat :=
  length (filter (fun a => match a with AStep t' => t' =? t | _ => false end) l).
