(** When a walk of shmem_quiet through the spaces should be harmless. *)
From Verif Require Import Base PubModel.

(** A listed space is settled: no call is making, attaching or detaching it (one that destroys it may be waiting to take it out),
    and it is attached, or it has no contexts and - with tracking - was never attached, or - with the dynamic window - has no
    window of its own. *)
Definition settled (dyn track : bool) (s : pst) (k : Z) : Prop :=
  match p_todo s k, p_stat s k with
  | [], SAtt _ => True
  | [], SNew n => n = 0%nat /\ (dyn = true \/ track = true)
  | [], SDet n => n = 0%nat /\ dyn = true
  | MEnter :: _, SGone n att => n = 0%nat /\ (dyn = true \/ (track = true /\ att = false))
  | _, _ => False
  end.
Definition calm (dyn track : bool) (s : pst) : Prop := forall k, In k (p_list s) -> settled dyn track s k.
(** A run in which nobody calls shmem_quiet or shmem_fence: readers only search. *)
Definition no_quiet (xs : list plab) : bool := forallb (fun x => match x with PRead _ true => false | _ => true end) xs.
