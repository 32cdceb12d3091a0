(** Teams (src/shmem/team.c, src/internal/team_impl.c, team set-up in setup_impl.c). *)
From Verif Require Import Base.

(** ** MPI communicators and groups (external) *)

(** A communicator / group is the list of its members' ranks in MPI_COMM_WORLD. *)
Definition group : Type := list Z.

(** Position of world rank [p] in a group: MPI_Comm_rank, MPI_Group_translate_ranks. *)
Fixpoint index_of (g : group) (p : Z) : option Z :=
  match g with
  | [] => None
  | q :: r => if q =? p then Some 0 else option_map (fun i => i + 1) (index_of r p)
  end.

Definition MPI_UNDEFINED : Z := -32766.

(** MPI_Comm_split: stable sort of the members by key (ties: old rank), one group per colour.
    Entries are (colour, (key, world rank)) in old-rank order. *)
Fixpoint insert_key (e : Z * Z) (l : list (Z * Z)) : list (Z * Z) :=
  match l with
  | [] => [e]
  | f :: r => if fst e <=? fst f then e :: f :: r else f :: insert_key e r
  end.
Definition sort_keys (l : list (Z * Z)) : list (Z * Z) := fold_right insert_key [] l.
Definition color_group (l : list (Z * (Z * Z))) (c : Z) : group :=
  map snd (sort_keys (map snd (filter (fun e => fst e =? c) l))).

(** The communicator each caller gets; MPI_COMM_NULL is [None]. A negative colour other than
    MPI_UNDEFINED is an MPI error. *)
Definition comm_split (l : list (Z * (Z * Z))) : outcome (list (option group)) :=
  if existsb (fun e => (fst e <? 0) && negb (fst e =? MPI_UNDEFINED)) l then Abort
  else Ok (map (fun e => if fst e =? MPI_UNDEFINED then None else Some (color_group l (fst e))) l).

(** ** Team handles *)

(** shmem_team_t as held by one PE: the three constants (include/shmem.h.in.tpl:91-93) or a
    pointer to an OSHMPI_team_t, represented by the group of its communicator. *)
Inductive team : Type := TInvalid | TWorld | TShared | TObj (g : group).

(** The library's team globals (setup_impl.c:797-822). MPI_COMM_TYPE_SHARED, an implementation's
    constant, is passed to MPI_Comm_split as a colour. *)
Record tglobal : Type := mkTG { tg_world : group; tg_shared : group }.

(** OSHMPI_team_split (team_impl.c:43-64) by all members of [g]; PE with old rank i passes colour
    [colors i] and key my_pe = i. *)
Fixpoint entries (colors : Z -> Z) (i : Z) (g : group) : list (Z * (Z * Z)) :=
  match g with
  | [] => []
  | p :: r => (colors i, (i, p)) :: entries colors (i + 1) r
  end.
Definition team_split (g : group) (colors : Z -> Z) : outcome (list team) :=
  do l <- comm_split (entries colors 0 g);
  Ok (map (fun o => match o with Some h => TObj h | None => TInvalid end) l).

(** setup_impl.c:797-822: MPI_COMM_WORLD of [n] processes, and the "shared" team. *)
Fixpoint world_group (i : Z) (n : nat) : group :=
  match n with O => [] | S m => i :: world_group (i + 1) m end.
Definition team_init (comm_type_shared : Z) (n : nat) (me : Z) : outcome tglobal :=
  let w := world_group 0 n in
  do l <- comm_split (entries (fun _ => comm_type_shared) 0 w);
  do o <- of_opt (aget l me);
  do s <- of_opt o;
  Ok (mkTG w s).

(** Group of a valid handle (the pattern team.c:78-90, oshmpi_impl.h:349-358). *)
Definition team_group (G : tglobal) (t : team) : option group :=
  match t with
  | TInvalid => None
  | TWorld => Some (tg_world G)
  | TShared => Some (tg_shared G)
  | TObj g => Some g
  end.

(** shmem_team_n_pes (team.c:29-45) and shmem_team_my_pe (11-27) on PE [me]. *)
Definition team_n_pes (G : tglobal) (t : team) : Z :=
  match team_group G t with None => -1 | Some g => Z.of_nat (length g) end.
Definition team_my_pe (G : tglobal) (me : Z) (t : team) : outcome Z :=
  match team_group G t with None => Ok (-1) | Some g => of_opt (index_of g me) end.

(** MPI_Group_translate_ranks for one rank: MPI_PROC_NULL maps to itself, a rank outside the
    group is an error, a process not in the second group yields MPI_UNDEFINED. *)
Definition translate_rank (proc_null : Z) (g1 : group) (a : Z) (g2 : group) : outcome Z :=
  if a =? proc_null then Ok proc_null
  else match aget g1 a with
       | None => Abort
       | Some p => Ok (match index_of g2 p with Some b => b | None => MPI_UNDEFINED end)
       end.

(** shmem_team_translate_pe (team.c:67-100). *)
Definition team_translate_pe (proc_null : Z) (G : tglobal) (src : team) (a : Z) (dst : team)
  : outcome Z :=
  match team_group G src, team_group G dst with
  | Some g1, Some g2 =>
      do r <- translate_rank proc_null g1 a g2;
      Ok (if r =? MPI_UNDEFINED then -1 else r)
  | _, _ => Ok (-1)
  end.

(** ** Splits *)

(** int arithmetic: signed overflow is undefined. *)
Definition int_op (z : Z) : outcome Z :=
  if (- 2 ^ 31 <=? z) && (z <=? INT_MAX) then Ok z else UB.

Definition SHMEM_SUCCESS : Z := 0.
Definition SHMEM_OTHER_ERR : Z := -2.

(** Arguments checks and rank selection of shmem_team_split_strided (team.c:124-142) for the PE
    of rank [my] in a parent of [n] PEs. [None]: fn_fail. [%] is C's truncating remainder. *)
Definition strided_color (n my start stride size : Z) : outcome (option Z) :=
  if (start <? 0) || (n <=? start) then Ok None else
  do s1 <- int_op (size - 1);
  do m <- int_op (stride * s1);
  do e <- int_op (start + m);
  if (e <? 0) || (n <=? e) then Ok None else
  do sel <- (if (start <=? my) && (my <=? e) then
               (if stride =? 0 then UB else Ok (Z.rem (my - start) stride =? 0))
             else Ok false);
  Ok (Some (if (sel : bool) then 1 else MPI_UNDEFINED)).

(** shmem_team_split_strided (team.c:102-158), called by every PE of the parent with the same
    arguments; result per parent rank: return value and *new_team. Configurations are ignored
    (no effect but storing them). All PEs decide alike whether to fail, because the checks do not
    depend on the rank; the collective split happens only otherwise. *)
Definition split_strided (G : tglobal) (parent : team) (start stride size : Z)
  : outcome (list (Z * team)) :=
  match team_group G parent with
  | None => Ok []   (* no members: see split_strided_invalid *)
  | Some g =>
      do cs <- outs (fun i => strided_color (Z.of_nat (length g)) i start stride size) 0 (length g);
      if existsb (fun c => match c with None => true | Some _ => false end) cs
      then Ok (map (fun _ => (SHMEM_OTHER_ERR, TInvalid)) g)
      else
        do ts <- team_split g (fun i => match aget cs i with Some (Some c) => c | _ => MPI_UNDEFINED end);
        Ok (map (fun t => (SHMEM_SUCCESS, t)) ts)
  end.

(** shmem_team_split_2d (team.c:160-212): result per parent rank: return value, x team, y team.
    Division by zero is undefined. *)
Definition split_2d (G : tglobal) (parent : team) (xrange : Z)
  : outcome (list (Z * team * team)) :=
  match team_group G parent with
  | None => Ok []
  | Some g =>
      if (xrange =? 0) && negb (Nat.eqb (length g) 0) then UB else
      do xs <- team_split g (fun i => Z.quot i xrange);
      do ys <- team_split g (fun i => Z.rem i xrange);
      Ok (map (fun xy => (SHMEM_SUCCESS, fst xy, snd xy)) (combine xs ys))
  end.

(** ** shmem_team_sync (src/shmem/coll.c:14-21) as a transition system *)

(** What a PE is doing: not called yet, inside the MPI barrier of OSHMPI_sync_all
    (coll_impl.h:34-44), or back with a return value. *)
Inductive sync_pc : Type := SBefore | SInside | SDone (rc : Z).

(** One step of PE [i]. The MPI barrier over the world lets a member out only when all world PEs
    have entered (MPI standard). *)
Definition sync_entered (p : sync_pc) : bool :=
  match p with SBefore => false | _ => true end.
Definition sync_step (t : team) (st : list sync_pc) (i : Z) : option (list sync_pc) :=
  match aget st i with
  | Some SBefore =>
      match t with
      | TWorld => Some (upd st (Z.to_nat i) SInside)
      | _ => Some (upd st (Z.to_nat i) (SDone SHMEM_OTHER_ERR))
      end
  | Some SInside =>
      if forallb sync_entered st then Some (upd st (Z.to_nat i) (SDone SHMEM_SUCCESS)) else None
  | _ => None
  end.
(** Running a schedule; steps that are not enabled are skipped. *)
Definition sync_run (t : team) (st : list sync_pc) (sched : list Z) : list sync_pc :=
  fold_left (fun st i => match sync_step t st i with Some st' => st' | None => st end) sched st.
