(** Critical sections: what a program must do, and what it may rely on. *)
From Verif Require Import Base OrderModel OrderSpec OrderProofs3 DataModel DataSpec LockModel RaceSpec CritModel.

(** The events of the data calls, and those of lock [k]. *)
Fixpoint xd (log : list (Z * xev)) : list (Z * oev) :=
  match log with [] => [] | (p, XD e) :: r => (p, e) :: xd r | _ :: r => xd r end.
Fixpoint xl (k : Z) (log : list (Z * xev)) : list lev :=
  match log with [] => [] | (_, XL k' e) :: r => if k' =? k then e :: xl k r else xl k r | _ :: r => xl k r end.

Definition xsingle (ls : list xlab) : Prop := forall d, In (XData d) ls -> single [d].

(** PE [q] holds lock [k] after the events [u]: it has acquired it and not called shmem_clear_lock since. *)
Definition holds (k q : Z) (u : list (Z * xev)) : Prop :=
  exists a b, u = a ++ (q, XL k (EAcq q)) :: b /\ ~ In (q, XL k (ERel q)) b.
(** In the events [l] of a PE: operation [id] has been issued, and after that shmem_quiet or shmem_fence has been
    called and has returned. *)
Definition synced (n : Z) (l : list oev) (id : Z) : Prop :=
  exists l1 l2 l3 cf, l = l1 ++ EStart 0 cf :: l2 ++ ERet 0 cf :: l3 /\ quiet_or_fence XDefault cf /\
    (forall c', ~ In (ERet 0 c') l2) /\ returned l1 n id.

(** Lock [k] guards the byte [a] of PE [t]: only its holder reads or writes it, by blocking gets and by any puts; shmem_quiet
    (or fence) comes between a put and the next access by the same PE, and between a put and shmem_clear_lock. *)
Definition guarded (n : Z) (W : Z -> Z -> opd) (log : list (Z * xev)) (t a k : Z) : Prop :=
  (forall u q i x o kd id t' dev v, log = u ++ (q, XD (EStart i (CRma x o kd id t' dev))) :: v ->
     (exists y, writes (W q id) t a y) \/ reads (W q id) t a ->
     holds k q u /\ ~ issued (xd u) q id /\ (reads (W q id) t a -> blocking kd) /\
     forall id' y, issued (xd u) q id' -> writes (W q id') t a y -> synced n (plog q (xd u)) id') /\
  (forall u q v, log = u ++ (q, XL k (ERel q)) :: v ->
     forall id' y, issued (xd u) q id' -> writes (W q id') t a y -> synced n (plog q (xd u)) id').

(** Read, compute, write: each put of the byte writes [F q id v], where [v] is what the PE has got from it in the same
    critical section, without putting to it in between. *)
Definition updates (F : Z -> Z -> Z -> Z) (W : Z -> Z -> opd) (res : Z -> Z -> nat -> Z) (log : list (Z * xev)) (t a k : Z) : Prop :=
  forall u q i x o kd id t' dev v y, log = u ++ (q, XD (EStart i (CRma x o kd id t' dev))) :: v -> writes (W q id) t a y ->
  exists u1 i1 x1 o1 kd1 g t1 dev1 u2 b len j,
    u = u1 ++ (q, XD (EStart i1 (CRma x1 o1 kd1 g t1 dev1))) :: u2 /\ W q g = Rd t b len /\ a = b + Z.of_nat j /\ (j < len)%nat /\
    ~ In (q, XL k (ERel q)) u2 /\ (forall id' y', issued (xd u2) q id' -> ~ writes (W q id') t a y') /\ y = F q id (res q g j).
(** All updates, one after the other. *)
Fixpoint serial (F : Z -> Z -> Z -> Z) (W : Z -> Z -> opd) (t a v : Z) (log : list (Z * oev)) : Z :=
  match log with
  | [] => v
  | (p, EStart _ (CRma _ _ _ id _ _)) :: r => serial F W t a (match wval (W p id) t a with Some _ => F p id v | None => v end) r
  | _ :: r => serial F W t a v r
  end.
