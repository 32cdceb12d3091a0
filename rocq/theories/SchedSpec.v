(** What collective allocation should guarantee, in terms of traces. *)
From Verif Require Import Base SchedModel.
Open Scope nat_scope.
Open Scope list_scope.

(** The calls that allocate a block on every PE. *)
Definition allocates (c : mcall) : Prop :=
  match c with
  | CMalloc size => size <> 0%Z
  | CAlign | CSpaceMalloc | CSpaceCalloc => True
  | CCalloc count size => count <> 0%Z /\ size <> 0%Z
  | _ => False
  end.
(** Every PE has finished. *)
Definition finished {A} (st : list (pe A)) : Prop :=
  Forall (fun x => prog x = [] /\ waiting x = false) st.
