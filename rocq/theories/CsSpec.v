(** What is asked of the mutexes: never used outside their life, and gone at the end. *)
From Verif Require Import Base LkModel CsModel.

(** The polls of a build that neither uses active messages nor has a progress thread enter a mutex nobody initialises; in all
    others the mutex is there or is not entered. *)
Definition polled_mutex_exists (b : bld) : Prop := b_am b = true \/ b_async b = true.
Definition is_pool (l : lk) : bool := match l with LPool _ => true | _ => false end.
(** The mutex of space [k] of PE [q] according to the calls: alive from its creation until its destruction. *)
Definition space_life1 (q k : Z) (a : bool) (x : xlab) : bool :=
  match x with
  | XCreate p _ j => if (q =? p) && (k =? j) then true else a
  | XKill p _ j => if (q =? p) && (k =? j) then false else a
  | _ => a
  end.
Definition space_life (q k : Z) (xs : list xlab) : bool := fold_left (space_life1 q k) xs false.
Section S.
Variables (b : bld) (np nt : nat).
Definition reachable (s : xst) : Prop := exists xs, xrun b np nt (xst0 b) xs = Some (Ok s).
(** The thread is about to use the mutex: to enter or to leave its section. *)
Definition about_to_use (s : xst) (p i : Z) (l : lk) : Prop :=
  exists r, l_th (x_l s) p i = AEnter l :: r \/ l_th (x_l s) p i = AExit l :: r.
End S.
