(** Communicators of active sets (src/internal/coll_activeset_impl.h:9-116): every PE has its own
    cache; a miss creates a communicator, which is collective over the members of the set. *)
From Verif Require Import Base ListLib TeamModel.

(** ** Active sets *)

(** (PE_start, logPE_stride, PE_size). *)
Record key : Type := mkKey { k_start : Z; k_log : Z; k_size : Z }.
Definition key_eqb (a b : key) : bool :=
  (k_start a =? k_start b) && (k_log a =? k_log b) && (k_size a =? k_size b).

(** The list of PEs (coll_activeset_impl.h:96-103): [1 << logPE_stride] and the sums are int, a
    shift by less than 0 or more than 30 and overflow are undefined. Callers must pass a size of at
    least 1. *)
Definition shl1 (l : Z) : outcome Z := if (0 <=? l) && (l <=? 30) then Ok (2 ^ l) else UB.
Definition pe_list (k : key) : outcome group :=
  if k_size k <? 1 then UB else
  do st <- shl1 (k_log k);
  outs (fun i => do m <- int_op (i * st); int_op (k_start k + m)) 0 (Z.to_nat (k_size k)).

(** MPI_Group_incl of the world group of [n]: ranks out of range are an MPI error. *)
Definition group_incl (n : Z) (l : group) : outcome group :=
  if forallb (fun p => (0 <=? p) && (p <? n)) l then Ok l else Abort.

(** ** Communicators *)

(** MPI_Comm_create_group(world, group, tag): the calls of the members of a group that are each
    one's [ord]-th with this group and tag make one communicator. *)
Inductive comm : Type := CWorld | CNew (g : group) (tag : Z) (ord : nat).
Definition comm_group (n : Z) (c : comm) : group :=
  match c with CWorld => zseq 0 (Z.to_nat n) | CNew g _ _ => g end.

Fixpoint list_eqb (a b : list Z) : bool :=
  match a, b with
  | [], [] => true
  | x :: a', y :: b' => (x =? y) && list_eqb a' b'
  | _, _ => false
  end.
Definition comm_eqb (a b : comm) : bool :=
  match a, b with
  | CWorld, CWorld => true
  | CNew g t o, CNew g' t' o' => list_eqb g g' && (t =? t') && Nat.eqb o o'
  | _, _ => false
  end.

(** ** Processes *)

(** What a PE is doing: nothing, inside MPI_Comm_create_group, inside the collective that the
    communicator was acquired for. *)
Inductive pc : Type :=
| PIdle
| PCreate (k : key) (g : group) (ord : nat)
| PColl (k : key) (c : comm) (ord : nat).

(** One PE: the calls still to come, its cache (list head first), its position. The calls of all
    PEs are given as one list of active sets; a PE passes over the sets it does not belong to. *)
Record pe : Type := mkPe { pe_rem : list key; pe_cache : list (key * comm); pe_pc : pc }.

(** [a_ent p g tag]: calls of MPI_Comm_create_group that [p] has entered; [a_arr p c]: collectives
    that [p] has entered on [c]. *)
Record ast : Type := mkAst { a_pe : Z -> pe; a_ent : Z -> group -> Z -> nat; a_arr : Z -> comm -> nat }.

Definition a_init (h : list key) : ast := mkAst (fun _ => mkPe h [] PIdle) (fun _ _ _ => 0%nat) (fun _ _ => 0%nat).

Definition set_pe (s : ast) (p : Z) (x : pe) : ast :=
  mkAst (fun q => if q =? p then x else a_pe s q) (a_ent s) (a_arr s).
Definition inc_ent (s : ast) (p : Z) (g : group) (t : Z) : ast :=
  mkAst (a_pe s)
    (fun q g' t' => if (q =? p) && list_eqb g' g && (t' =? t) then S (a_ent s q g' t') else a_ent s q g' t')
    (a_arr s).
Definition inc_arr (s : ast) (p : Z) (c : comm) : ast :=
  mkAst (a_pe s) (a_ent s)
    (fun q c' => if (q =? p) && comm_eqb c' c then S (a_arr s q c') else a_arr s q c').

(** PE [p] entered its [ord]-th collective on [c], for active set [k]. *)
Inductive aev : Type := ACall (p : Z) (k : key) (c : comm) (ord : nat).

Definition enter_coll (s : ast) (p : Z) (x : pe) (k : key) (c : comm) : ast * list aev :=
  let s1 := inc_arr s p c in
  let o := a_arr s1 p c in
  (set_pe s1 p (mkPe (pe_rem x) (pe_cache x) (PColl k c o)), [ACall p k c o]).

(** coll_find_comm_cache (coll_activeset_impl.h:52-71). *)
Definition find_comm (x : pe) (k : key) : option comm :=
  option_map snd (find (fun e => key_eqb (fst e) k) (pe_cache x)).

(** One step of PE [p] in a world of [n]; [None]: it has to wait or has nothing to do.
    coll_acquire_comm (73-116), then the collective. A collective lets its callers go when all
    members have arrived, MPI_Comm_create_group when all members have entered it. *)
Definition astep (n p : Z) (s : ast) : outcome (option (ast * list aev)) :=
  let x := a_pe s p in
  match pe_pc x with
  | PIdle =>
      match pe_rem x with
      | [] => Ok None
      | k :: r =>
          do g0 <- pe_list k;
          if negb (existsb (Z.eqb p) g0) then Ok (Some (set_pe s p (mkPe r (pe_cache x) PIdle), []))
          else if (k_start k =? 0) && (k_log k =? 0) && (k_size k =? n) then
            Ok (Some (enter_coll s p x k CWorld))
          else match find_comm x k with
               | Some c => Ok (Some (enter_coll s p x k c))
               | None =>
                   do g <- group_incl n g0;
                   let s1 := inc_ent s p g (k_start k) in
                   Ok (Some (set_pe s1 p (mkPe (pe_rem x) (pe_cache x) (PCreate k g (a_ent s1 p g (k_start k)))), []))
               end
      end
  | PCreate k g o =>
      if forallb (fun q => Nat.leb o (a_ent s q g (k_start k))) g then
        let c := CNew g (k_start k) o in
        Ok (Some (enter_coll s p (mkPe (pe_rem x) ((k, c) :: pe_cache x) (pe_pc x)) k c))
      else Ok None
  | PColl k c o =>
      if forallb (fun q => Nat.leb o (a_arr s q c)) (comm_group n c) then
        Ok (Some (set_pe s p (mkPe (tl (pe_rem x)) (pe_cache x) PIdle), []))
      else Ok None
  end.

(** A schedule of PEs; the turn of a PE that waits passes. *)
Fixpoint arun (n : Z) (s : ast) (sched : list Z) : outcome (ast * list aev) :=
  match sched with
  | [] => Ok (s, [])
  | p :: r =>
      if negb ((0 <=? p) && (p <? n)) then UB else
      do o <- astep n p s;
      match o with
      | None => arun n s r
      | Some (s1, e1) => do x <- arun n s1 r; Ok (fst x, e1 ++ snd x)
      end
  end.
