(** Team objects of one PE: the OSHMPI_team_t blocks behind the handles, the MPI communicators and
    groups they hold, and their configurations (src/shmem/team.c, src/internal/team_impl.c, team
    set-up in src/internal/setup_impl.c:797-822). TeamModel.v has the view of all PEs at once, where
    a team is the list of its members; here a handle is a pointer that can dangle or be reused. *)
From Verif Require Import Base TeamModel.

(** A store keyed by addresses or MPI handles. *)
Fixpoint look {A : Type} (l : list (Z * A)) (k : Z) : option A :=
  match l with
  | [] => None
  | (j, a) :: r => if j =? k then Some a else look r k
  end.
Definition del {A : Type} (l : list (Z * A)) (k : Z) : list (Z * A) :=
  filter (fun e => negb (fst e =? k)) l.
Definition put {A : Type} (l : list (Z * A)) (k : Z) (a : A) : list (Z * A) := (k, a) :: del l k.

(** shmem_team_t, a pointer: the constants of include/shmem.h.in.tpl:91-93 or the address of an
    object (OSHMPI_TEAM_OBJ_TO_HANDLE, oshmpi_impl.h:347-348). *)
Definition H_INVALID : Z := 0.
Definition H_WORLD : Z := 589824.
Definition H_SHARED : Z := 589825.

(** OSHMPI_team_t (oshmpi_impl.h:177-183); the configuration has the one field num_contexts
    (include/shmem.h.in.tpl:88-90). *)
Record obj : Type := mkObj { ob_my : Z; ob_n : Z; ob_comm : Z; ob_group : Z; ob_cfg : Z }.

(** One PE: its world rank, the live blocks, MPI's live communicators and groups, and the team
    fields of OSHMPI_global (oshmpi_impl.h:185-203). *)
Record pe : Type := mkPe {
  p_me : Z; p_heap : list (Z * obj); p_comms : list (Z * group); p_groups : list (Z * group);
  p_world : Z; p_shared : Z;
  p_wmy : Z; p_wn : Z; p_wgroup : Z;
  p_smy : Z; p_sn : Z; p_sgroup : Z }.
Definition with_heap (s : pe) (h : list (Z * obj)) : pe :=
  mkPe (p_me s) h (p_comms s) (p_groups s) (p_world s) (p_shared s)
       (p_wmy s) (p_wn s) (p_wgroup s) (p_smy s) (p_sn s) (p_sgroup s).
Definition with_mpi (s : pe) (c g : list (Z * group)) : pe :=
  mkPe (p_me s) (p_heap s) c g (p_world s) (p_shared s)
       (p_wmy s) (p_wn s) (p_wgroup s) (p_smy s) (p_sn s) (p_sgroup s).

Definition MPI_COMM_NULL : Z := -1.
Definition MPI_GROUP_NULL : Z := -1.

(** What malloc and MPI answer when a team is made: the address ([None]: NULL), the handle of the
    new communicator and that of its group. *)
Record new : Type := mkNew { nw_addr : option Z; nw_comm : Z; nw_group : Z }.

(** OSHMPI_team_create (team_impl.c:9-33): the new block, or nothing when malloc fails. *)
Definition create (s : pe) (w : new) : pe * option Z :=
  match nw_addr w with
  | None => (s, None)
  | Some a => (with_heap s (put (p_heap s) a (mkObj (-1) (-1) MPI_COMM_NULL MPI_GROUP_NULL 0)), Some a)
  end.

(** Access to a block: NULL, a constant or a freed block is undefined. *)
Definition deref (s : pe) (a : Z) : outcome obj := of_opt (look (p_heap s) a).
(** An MPI call on a handle that is not live is an MPI error, which aborts (OSHMPI_CALLMPI). *)
Definition live (l : list (Z * group)) (k : Z) : outcome group :=
  match look l k with Some g => Ok g | None => Abort end.

(** What the members of [g] pass to MPI_Comm_split: the member of rank i passes colour [colors i]
    and key i, this PE (rank [r]) passes [color] and [key]. *)
Definition split_args (g : group) (colors : Z -> Z) (r color key : Z) : list (Z * (Z * Z)) :=
  upd (entries colors 0 g) (Z.to_nat r) (color, (key, nth (Z.to_nat r) g 0)).

(** OSHMPI_team_split (team_impl.c:43-65) on the object at [a]. The assignments through [_new_team]
    follow the call of OSHMPI_team_create without a look at its return code (55-59). *)
Definition obj_split (s : pe) (a : Z) (colors : Z -> Z) (color : Z) (w : new)
  : outcome (pe * Z) :=
  do o <- deref s a;
  do g <- live (p_comms s) (ob_comm o);
  do r <- of_opt (index_of g (p_me s));
  do l <- comm_split (split_args g colors r color (ob_my o));
  do c <- of_opt (aget l r);
  match c with
  | None => Ok (s, H_INVALID)
  | Some h =>
      let s1 := with_mpi s (put (p_comms s) (nw_comm w) h) (put (p_groups s) (nw_group w) h) in
      let (s2, b) := create s1 w in
      do b <- of_opt b;
      do h' <- live (p_comms s2) (nw_comm w);
      do my <- of_opt (index_of h' (p_me s2));
      do o2 <- deref s2 b;
      Ok (with_heap s2 (put (p_heap s2) b
            (mkObj my (Z.of_nat (length h')) (nw_comm w) (nw_group w) (ob_cfg o2))), b)
  end.

(** The parent's object (team.c:115-121, 174-180). *)
Definition parent_addr (s : pe) (t : Z) : Z :=
  if t =? H_WORLD then p_world s else if t =? H_SHARED then p_shared s else t.

(** Storing a configuration (team.c:144-149, 192-201): [cfg] is what the program's pointer points
    to, [None] for NULL. *)
Definition set_config (s : pe) (b : Z) (cfg : option Z) (mask : Z) : outcome pe :=
  if b =? H_INVALID then Ok s else
  match cfg with
  | Some v => if mask =? 0 then Ok s else
      do o <- deref s b;
      Ok (with_heap s (put (p_heap s) b (mkObj (ob_my o) (ob_n o) (ob_comm o) (ob_group o) v)))
  | None => Ok s
  end.

(** shmem_team_split_strided (team.c:102-158). The other members of the parent make the same call
    with the same arguments (it is collective) and their colours are computed alike. *)
Definition m_strided (s : pe) (t start stride size : Z) (cfg : option Z) (mask : Z) (w : new)
  : outcome (pe * (Z * Z)) :=
  if t =? H_INVALID then Ok (s, (SHMEM_OTHER_ERR, H_INVALID)) else
  let a := parent_addr s t in
  do o <- deref s a;
  do c <- strided_color (ob_n o) (ob_my o) start stride size;
  match c with
  | None => Ok (s, (SHMEM_OTHER_ERR, H_INVALID))
  | Some color =>
      do r <- obj_split s a (fun i => match strided_color (ob_n o) i start stride size with
                                      | Ok (Some c) => c | _ => MPI_UNDEFINED end) color w;
      do s' <- set_config (fst r) (snd r) cfg mask;
      Ok (s', (SHMEM_SUCCESS, snd r))
  end.

(** shmem_team_split_2d (team.c:160-212). *)
Definition m_2d (s : pe) (t xrange : Z) (xcfg : option Z) (xmask : Z) (ycfg : option Z) (ymask : Z)
  (wx wy : new) : outcome (pe * (Z * Z * Z)) :=
  if t =? H_INVALID then Ok (s, (SHMEM_OTHER_ERR, H_INVALID, H_INVALID)) else
  let a := parent_addr s t in
  do o <- deref s a;
  if xrange =? 0 then UB else
  let x_pos := Z.rem (ob_my o) xrange in
  let y_pos := Z.quot (ob_my o) xrange in
  do rx <- obj_split s a (fun i => Z.quot i xrange) y_pos wx;
  do ry <- obj_split (fst rx) a (fun i => Z.rem i xrange) x_pos wy;
  do s1 <- set_config (fst ry) (snd rx) xcfg xmask;
  do s2 <- set_config s1 (snd ry) ycfg ymask;
  Ok (s2, (SHMEM_SUCCESS, snd rx, snd ry)).

(** shmem_team_my_pe, shmem_team_n_pes, shmem_team_get_config (team.c:11-65). *)
Definition m_my_pe (s : pe) (t : Z) : outcome Z :=
  if t =? H_INVALID then Ok (-1) else
  if t =? H_WORLD then Ok (p_wmy s) else
  if t =? H_SHARED then Ok (p_smy s) else do o <- deref s t; Ok (ob_my o).
Definition m_n_pes (s : pe) (t : Z) : outcome Z :=
  if t =? H_INVALID then Ok (-1) else
  if t =? H_WORLD then Ok (p_wn s) else
  if t =? H_SHARED then Ok (p_sn s) else do o <- deref s t; Ok (ob_n o).
(** Return value and what is stored through the program's pointer, if anything. *)
Definition m_get_config (s : pe) (t : Z) : outcome (Z * option Z) :=
  if t =? H_INVALID then Ok (-1, None) else
  do o <- deref s (if t =? H_WORLD then p_world s else if t =? H_SHARED then p_shared s else t);
  Ok (SHMEM_SUCCESS, Some (ob_cfg o)).

(** shmem_team_translate_pe (team.c:67-100). *)
Definition group_handle (s : pe) (t : Z) : outcome Z :=
  if t =? H_WORLD then Ok (p_wgroup s) else
  if t =? H_SHARED then Ok (p_sgroup s) else do o <- deref s t; Ok (ob_group o).
Definition m_translate (proc_null : Z) (s : pe) (t a u : Z) : outcome Z :=
  if (t =? H_INVALID) || (u =? H_INVALID) then Ok (-1) else
  do h1 <- group_handle s t;
  do h2 <- group_handle s u;
  do g1 <- live (p_groups s) h1;
  do g2 <- live (p_groups s) h2;
  do r <- translate_rank proc_null g1 a g2;
  Ok (if r =? MPI_UNDEFINED then -1 else r).

(** OSHMPI_team_destroy (team_impl.c:35-41) and shmem_team_destroy (team.c:214-222). *)
Definition obj_destroy (s : pe) (a : Z) : outcome pe :=
  do o <- deref s a;
  do _ <- live (p_groups s) (ob_group o);
  do _ <- live (p_comms s) (ob_comm o);
  let s1 := with_mpi s (del (p_comms s) (ob_comm o)) (del (p_groups s) (ob_group o)) in
  Ok (with_heap s1 (del (p_heap s1) a)).
Definition m_destroy (s : pe) (t : Z) : outcome pe :=
  if (t =? H_INVALID) || (t =? H_WORLD) || (t =? H_SHARED) then Ok s else obj_destroy s t.

(** Set-up of the predefined teams (setup_impl.c:796-822) on PE [me] of [n]; the communicators'
    handles are those of [w] (MPI_Comm_dup) and [v] (MPI_Comm_split). A failing malloc is followed
    by a store through an uninitialised global, i.e. NULL. *)
Definition init (comm_type_shared : Z) (n : nat) (me : Z) (w v : new) : outcome pe :=
  let gw := world_group 0 n in
  do wmy <- of_opt (index_of gw me);
  let wn := Z.of_nat (length gw) in
  let s0 := mkPe me [] [(nw_comm w, gw)] [(nw_group w, gw)] 0 0 wmy wn (nw_group w) 0 0 0 in
  let (s1, b) := create s0 w in
  do b <- of_opt b;
  let s2 := with_heap s1 (put (p_heap s1) b (mkObj wmy wn (nw_comm w) (nw_group w) 0)) in
  do l <- comm_split (entries (fun _ => comm_type_shared) 0 gw);
  do o <- of_opt (aget l me);
  do gs <- (match o with Some g => Ok g | None => Abort end);
  let s3 := with_mpi s2 (put (p_comms s2) (nw_comm v) gs) (put (p_groups s2) (nw_group v) gs) in
  do smy <- of_opt (index_of gs me);
  let sn := Z.of_nat (length gs) in
  let (s4, d) := create s3 v in
  do d <- of_opt d;
  Ok (mkPe me (put (p_heap s4) d (mkObj smy sn (nw_comm v) (nw_group v) 0)) (p_comms s4) (p_groups s4)
        b d wmy wn (nw_group w) smy sn (nw_group v)).

(** ** Sequences of calls *)
Inductive call : Type :=
| CMy (t : Z) | CN (t : Z) | CConfig (t : Z) | CTranslate (t a u : Z)
| CStrided (t start stride size : Z) (cfg : option Z) (mask : Z) (w : new)
| C2d (t xrange : Z) (xcfg : option Z) (xmask : Z) (ycfg : option Z) (ymask : Z) (wx wy : new)
| CDestroy (t : Z).
Inductive res : Type :=
| RInt (z : Z) | RConfig (rc : Z) (c : option Z) | RTeam (rc h : Z) | RTeams (rc x y : Z) | RVoid.

Definition do_call (pn : Z) (s : pe) (c : call) : outcome (pe * res) :=
  match c with
  | CMy t => do z <- m_my_pe s t; Ok (s, RInt z)
  | CN t => do z <- m_n_pes s t; Ok (s, RInt z)
  | CConfig t => do p <- m_get_config s t; Ok (s, RConfig (fst p) (snd p))
  | CTranslate t a u => do z <- m_translate pn s t a u; Ok (s, RInt z)
  | CStrided t st sr sz cfg m w =>
      do p <- m_strided s t st sr sz cfg m w; Ok (fst p, RTeam (fst (snd p)) (snd (snd p)))
  | C2d t x xc xm yc ym wx wy =>
      do p <- m_2d s t x xc xm yc ym wx wy;
      Ok (fst p, RTeams (fst (fst (snd p))) (snd (fst (snd p))) (snd (snd p)))
  | CDestroy t => do s' <- m_destroy s t; Ok (s', RVoid)
  end.
Fixpoint run (pn : Z) (s : pe) (cs : list call) : outcome (pe * list res) :=
  match cs with
  | [] => Ok (s, [])
  | c :: r => do p <- do_call pn s c; do q <- run pn (fst p) r; Ok (fst q, snd p :: snd q)
  end.
