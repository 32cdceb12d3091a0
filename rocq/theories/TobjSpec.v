(** What teams are for a program: values with members and a configuration, known by handles. *)
From Verif Require Import Base TeamModel TobjModel.

(** A team: its members' world ranks in team order, and its configuration (num_contexts). *)
Record tval : Type := mkT { v_group : list Z; v_cfg : Z }.
(** The teams a PE has: the predefined ones and those it made and has not destroyed. *)
Record teams : Type := mkTeams { t_world : list Z; t_shared : list Z; t_user : list (Z * tval) }.

Definition team_of (T : teams) (h : Z) : option tval :=
  if h =? H_INVALID then None else
  if h =? H_WORLD then Some (mkT (t_world T) 0) else
  if h =? H_SHARED then Some (mkT (t_shared T) 0) else look (t_user T) h.

(** Numbers 0 .. n-1. *)
Definition upto (n : Z) : list Z := map Z.of_nat (seq 0 (Z.to_nat n)).
(** Members of [g] with the numbers [l]. *)
Definition pick (g : list Z) (l : list Z) : list Z := map (fun i => nth (Z.to_nat i) g 0) l.
(** The PEs a strided split selects, and the row and the column of number [r] in a grid of width x. *)
Definition strided_of (g : list Z) (start stride size : Z) : list Z :=
  pick g (map (fun k => start + k * stride) (upto size)).
Definition row_of (g : list Z) (x r : Z) : list Z :=
  pick g (filter (fun i => i / x =? r / x) (upto (Z.of_nat (length g)))).
Definition col_of (g : list Z) (x r : Z) : list Z :=
  pick g (filter (fun i => i mod x =? r mod x) (upto (Z.of_nat (length g)))).

(** Number of [p] in [g]. *)
Fixpoint number (g : list Z) (p : Z) : option Z :=
  match g with
  | [] => None
  | q :: r => if q =? p then Some 0 else match number r p with Some i => Some (i + 1) | None => None end
  end.

(** The configuration of a new team: the one given, else the default 0. *)
Definition config_of (cfg : option Z) (mask : Z) : Z :=
  match cfg with Some v => if mask =? 0 then 0 else v | None => 0 end.

Definition add_team (T : teams) (h : Z) (g : list Z) (c : Z) : teams :=
  mkTeams (t_world T) (t_shared T) ((h, mkT g c) :: t_user T).
Definition name_of (w : new) : Z := match nw_addr w with Some a => a | None => H_INVALID end.

(** The effect of a call of PE [me] and what it returns; [None] where the caller breaks a rule:
    a handle that is not a team's (destroyed or made up), a PE number outside the team, a stride,
    size or width below 1, or a product outside int. *)
Definition answer (me : Z) (T : teams) (c : call) : option (teams * res) :=
  match c with
  | CMy t =>
      if t =? H_INVALID then Some (T, RInt (-1)) else
      match team_of T t with
      | Some v => match number (v_group v) me with Some i => Some (T, RInt i) | None => None end
      | None => None
      end
  | CN t =>
      if t =? H_INVALID then Some (T, RInt (-1)) else
      match team_of T t with Some v => Some (T, RInt (Z.of_nat (length (v_group v)))) | None => None end
  | CConfig t =>
      if t =? H_INVALID then Some (T, RConfig (-1) None) else
      match team_of T t with Some v => Some (T, RConfig 0 (Some (v_cfg v))) | None => None end
  | CTranslate t a u =>
      if (t =? H_INVALID) || (u =? H_INVALID) then Some (T, RInt (-1)) else
      match team_of T t, team_of T u with
      | Some v, Some w =>
          if (0 <=? a) && (a <? Z.of_nat (length (v_group v))) then
            Some (T, RInt (match number (v_group w) (nth (Z.to_nat a) (v_group v) 0) with
                           | Some b => b | None => -1 end))
          else None
      | _, _ => None
      end
  | CStrided t start stride size cfg mask w =>
      if t =? H_INVALID then Some (T, RTeam SHMEM_OTHER_ERR H_INVALID) else
      match team_of T t with
      | Some v =>
          let n := Z.of_nat (length (v_group v)) in
          if (1 <=? stride) && (1 <=? size) && (stride * (size - 1) + Z.max 0 start <=? INT_MAX)
             && (size <=? INT_MAX) then
            if (start <? 0) || (n <=? start) || (n <=? start + stride * (size - 1))
            then Some (T, RTeam SHMEM_OTHER_ERR H_INVALID)
            else
              let g := strided_of (v_group v) start stride size in
              match number g me with
              | Some _ => Some (add_team T (name_of w) g (config_of cfg mask),
                                RTeam SHMEM_SUCCESS (name_of w))
              | None => Some (T, RTeam SHMEM_SUCCESS H_INVALID)
              end
          else None
      | None => None
      end
  | C2d t x xcfg xmask ycfg ymask wx wy =>
      if t =? H_INVALID then Some (T, RTeams SHMEM_OTHER_ERR H_INVALID H_INVALID) else
      match team_of T t with
      | Some v =>
          match number (v_group v) me with
          | Some r =>
              if 1 <=? x then
                Some (add_team (add_team T (name_of wx) (row_of (v_group v) x r) (config_of xcfg xmask))
                               (name_of wy) (col_of (v_group v) x r) (config_of ycfg ymask),
                      RTeams SHMEM_SUCCESS (name_of wx) (name_of wy))
              else None
          | None => None
          end
      | None => None
      end
  | CDestroy t =>
      if (t =? H_INVALID) || (t =? H_WORLD) || (t =? H_SHARED) then Some (T, RVoid) else
      match team_of T t with
      | Some _ => Some (mkTeams (t_world T) (t_shared T) (del (t_user T) t), RVoid)
      | None => None
      end
  end.
Fixpoint answers (me : Z) (T : teams) (cs : list call) : option (teams * list res) :=
  match cs with
  | [] => Some (T, [])
  | c :: r =>
      match answer me T c with
      | Some (T', a) =>
          match answers me T' r with Some (U, l) => Some (U, a :: l) | None => None end
      | None => None
      end
  end.

(** What malloc and MPI guarantee for a new team: malloc succeeds with a block that is not in use
    and is none of the handle constants; MPI's handles are not in use. *)
Definition new_ok (s : pe) (w : new) : Prop :=
  (exists a, nw_addr w = Some a /\ ~ In a [H_INVALID; H_WORLD; H_SHARED] /\ look (p_heap s) a = None) /\
  look (p_comms s) (nw_comm w) = None /\ look (p_groups s) (nw_group w) = None.
Definition apart (w v : new) : Prop :=
  nw_addr w <> nw_addr v /\ nw_comm w <> nw_comm v /\ nw_group w <> nw_group v.
Definition call_ok (s : pe) (c : call) : Prop :=
  match c with
  | CStrided _ _ _ _ _ _ w => new_ok s w
  | C2d _ _ _ _ _ _ wx wy => new_ok s wx /\ new_ok s wy /\ apart wx wy
  | _ => True
  end.
Fixpoint calls_ok (pn : Z) (s : pe) (cs : list call) : Prop :=
  match cs with
  | [] => True
  | c :: r => call_ok s c /\ match do_call pn s c with Ok p => calls_ok pn (fst p) r | _ => True end
  end.
(** The start: nothing is in use. *)
Definition start_ok (w v : new) : Prop :=
  (exists a, nw_addr w = Some a /\ a <> H_INVALID) /\ (exists a, nw_addr v = Some a /\ a <> H_INVALID) /\ apart w v.
