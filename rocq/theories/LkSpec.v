(** What it means to wait for another thread, and to be stuck. *)
From Verif Require Import Base LkModel.
From Coq Require Import Relations.

Definition thread : Type := (Z * Z)%type.
(** [a] waits for [b]: for a critical section [b] is in, or for the second part of a message [b] has still to send. *)
Definition waits (s : lst) (a b : thread) : Prop :=
  match l_th s (fst a) (snd a) with
  | AEnter l :: _ => fst b = fst a /\ l_own s (fst a) l = Some (snd b)
  | AMatch m :: _ => l_done s m = false /\ In (AClose m) (l_th s (fst b) (snd b))
  | _ => False
  end.
Definition can_move (async : bool) (s : lst) (a : thread) : Prop := exists s', lstep async s (LGo (fst a) (snd a)) = Some s'.
Definition busy (s : lst) (a : thread) : Prop := l_th s (fst a) (snd a) <> [].
(** A thread is not lost: following whom it waits for one comes to a thread that can go on. *)
Definition alive (async : bool) (s : lst) (a : thread) : Prop :=
  exists b, clos_refl_trans thread (waits s) a b /\ can_move async s b.
(** A step inside calls, by one of the threads [T]. *)
Definition inside (T : list thread) (x : lab) : Prop :=
  match x with LCall _ _ _ => False | LGo p i => In (p, i) T | LHdr p i _ _ _ => In (p, i) T end.
