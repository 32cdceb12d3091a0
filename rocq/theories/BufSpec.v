(** Which buffers are lent to the library, and programs that respect it. *)
From Verif Require Import Base BufModel.

Definition nonblocking (c : bcall) : bool :=
  match c with CPut _ nbi _ _ _ | CGet _ nbi _ _ _ => nbi | _ => false end.
(** The cells of the program a call gets as source and as destination. *)
Definition sources (c : bcall) : list Z := match c with CPut _ _ _ _ l => l | _ => [] end.
Definition dests (c : bcall) : list Z :=
  match c with
  | CGet _ _ _ _ l | CBcast _ _ l => l
  | CAmo _ _ _ _ (Some l) => l
  | _ => []
  end.
(** Local variables the library gives MPI to write. *)
Definition out_local (j : Z) : bool := (j =? 2) || (j =? 5).
Definition reads (i : Z) (c : bcall) (b : buf) : Prop :=
  match b with BUser a => In a (sources c) | BStack k j => k = i /\ out_local j = false end.
Definition writes (i : Z) (c : bcall) (b : buf) : Prop :=
  match b with BUser a => In a (dests c) | BStack k j => k = i /\ out_local j = true end.

(** A quiet that was called after call [n] returned has returned. *)
Definition quieted (log : list bev) (n : Z) : Prop :=
  exists l1 l2 q i ts m, log = l1 ++ ERet n :: l2 /\ In (ECall q i (CQuiet ts) m) l2 /\ In (ERet q) l2.
(** Call [n] may still use its buffers: it has not returned; or it is nonblocking, the cell is the
    program's, and no quiet has been called after its return and returned. *)
Definition lends (log : list bev) (n i : Z) (c : bcall) (b : buf) : Prop :=
  (exists m, In (ECall n i c m) log) /\
  (~ In (ERet n) log \/ nonblocking c = true /\ (exists a, b = BUser a) /\ ~ quieted log n).

Definition windows (c : bcall) : list Z :=
  match c with
  | CPut _ _ w _ _ | CP _ w _ | CGet _ _ w _ _ | CG _ w _ | CAmo _ _ w _ _ | CWait w _ _
  | CSetLock w _ _ _ _ _ | CClearLock w _ _ _ _ _ | CTestLock w _ | CBcast w _ _ => [w]
  | CQuiet _ => []
  end.

(** What OpenSHMEM asks of programs: they do not write a cell that is lent, nor give a cell that is
    lent as destination to another call, nor as destination a cell that is lent at all. A thread's
    own frames use its stack only outside the library. *)
Definition allowed (W : list Z) (log : list bev) (lb : blab) : Prop :=
  match lb with
  | LSet b _ => forall n i c, lends log n i c b -> ~ reads i c b /\ ~ writes i c b
  | LCall _ c _ =>
      (forall w, In w (windows c) -> In w W) /\
      (forall a, In a (dests c) -> ~ In a (sources c)) /\
      (forall a n i' c', lends log n i' c' (BUser a) ->
         (In a (sources c) -> ~ In a (dests c')) /\
         (In a (dests c) -> ~ In a (dests c') /\ ~ In a (sources c')))
  | _ => True
  end.

Inductive brun (W : list Z) (m0 : buf -> Z) : list bev -> bst -> Prop :=
| R_init : brun W m0 [] (b_init m0)
| R_step : forall log s lb s' ev, brun W m0 log s -> allowed W log lb -> bgo W s lb = (s', ev) ->
    brun W m0 (log ++ ev) s'.
