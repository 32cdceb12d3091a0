(** What a program should find held, told from its calls alone (no ledger). *)
From Verif Require Import Base ResModel.

(** What the program has made: teams it is in (alive or destroyed), spaces with their memory kind, contexts and whether attached
    (and then: at one address everywhere), distinct active sets and strided shapes used. *)
Record uspace : Type := mkUS { us_dev : option bool; us_n : nat; us_at : option bool }.
Record ust : Type := mkU { u_teams : list bool; u_spaces : list (option uspace); u_sets : list akey; u_shapes : list tkey }.
Definition u0 : ust := mkU [] [] [] [].

Definition add_new {A : Type} (eqb : A -> A -> bool) (x : A) (l : list A) : list A :=
  if existsb (fun y => eqb y x) l then l else x :: l.
(** A shape counts when it is not contiguous. *)
Definition add_shape (k : tkey) (l : list tkey) : list tkey :=
  if snd (fst (fst k)) =? 1 then l else add_new tkey_eqb k l.
Definition shape_ext (ext : bool) (n st : Z) : Z := if ext then wrap64 (n * st) else 0.

(** The calls a program may make: only teams and spaces that exist, attach what is not attached, detach what is,
    destroy what is not. *)
Definition ulegal (u : ust) (o : rop) : bool :=
  match o with
  | UTeamDestroy (Some i) => match nth_error (u_teams u) i with Some true => true | _ => false end
  | USpaceAttach i _ => match nth_error (u_spaces u) i with Some (Some p) => match us_at p with None => true | _ => false end | _ => false end
  | USpaceDetach i => match nth_error (u_spaces u) i with Some (Some p) => match us_at p with Some _ => true | _ => false end | _ => false end
  | USpaceDestroy i => match nth_error (u_spaces u) i with Some (Some p) => match us_at p with None => true | _ => false end | _ => false end
  | _ => true
  end.
Definition uset_att (u : ust) (i : nat) (a : option bool) : ust :=
  match nth_error (u_spaces u) i with
  | Some (Some p) => mkU (u_teams u) (upd (u_spaces u) i (Some (mkUS (us_dev p) (us_n p) a))) (u_sets u) (u_shapes u)
  | _ => u
  end.
Definition ustep (u : ust) (o : rop) : ust :=
  match o with
  | UTeamSplit m => if m then mkU (u_teams u ++ [true]) (u_spaces u) (u_sets u) (u_shapes u) else u
  | UTeamDestroy (Some i) => mkU (upd (u_teams u) i false) (u_spaces u) (u_sets u) (u_shapes u)
  | UTeamDestroy None => u
  | UActiveSet k => mkU (u_teams u) (u_spaces u) (add_new akey_eqb k (u_sets u)) (u_shapes u)
  | UStrided n a b ty e =>
      mkU (u_teams u) (u_spaces u) (u_sets u)
        (add_shape (n, b, ty, shape_ext e n b) (add_shape (n, a, ty, shape_ext e n a) (u_shapes u)))
  | UStridedAm n a ty => mkU (u_teams u) (u_spaces u) (u_sets u) (add_shape (n, a, ty, 0) (u_shapes u))
  | UCollect | UAmFlush => u
  | USpaceCreate d n => mkU (u_teams u) (u_spaces u ++ [Some (mkUS d n None)]) (u_sets u) (u_shapes u)
  | USpaceAttach i sym => uset_att u i (Some sym)
  | USpaceDetach i => uset_att u i None
  | USpaceDestroy i => mkU (u_teams u) (upd (u_spaces u) i None) (u_sets u) (u_shapes u)
  end.
Fixpoint ulegal_all (u : ust) (os : list rop) : bool :=
  match os with [] => true | o :: r => ulegal u o && ulegal_all (ustep u o) r end.
Definition ufinal (os : list rop) : ust := fold_left ustep os u0.

(** How many of each kind. *)
Definition one (b : bool) : Z := if b then 1 else 0.
Definition is (k j : rkind) : Z := one (rkind_eqb k j).
(** A team: communicator, group, object. *)
Definition team_need (k : rkind) : Z := is k RComm + is k RGroup + is k RMem.
(** A cached communicator and a cached datatype. *)
Definition set_need (k : rkind) : Z := is k RComm + is k RGroup + is k RMem.
Definition shape_need (c : rcfg) (k : rkind) : Z := if rc_scache c then is k RType + is k RMem else 0.
(** A space; with contexts and windows when attached. *)
Definition att_need (c : rcfg) (n : nat) (sym : bool) (k : rkind) : Z :=
  (Z.of_nat n + one (negb (rc_dyn c))) * (is k RWin + is k REpoch)
  + one (rc_dyn c) * is k RAtt + one (rc_dyn c && negb sym) * is k RMem + one (0 <? Z.of_nat n) * is k RMem.
Definition space_need (c : rcfg) (p : uspace) (k : rkind) : Z :=
  2 * is k RMem + is k (match us_dev p with None => RMem | Some z => RDev z end) + one (rc_mult c) * is k RCs
  + match us_at p with Some sym => att_need c (us_n p) sym k | None => 0 end.
Definition sumZ {A : Type} (f : A -> Z) (l : list A) : Z := fold_right (fun a z => f a + z) 0 l.
(** What the user made and still has. *)
Definition user_need (c : rcfg) (u : ust) (k : rkind) : Z :=
  sumZ (fun b => one b * team_need k) (u_teams u)
  + sumZ (fun o => match o with Some p => space_need c p k | None => 0 end) (u_spaces u).
(** What the caches hold. *)
Definition cache_need (c : rcfg) (u : ust) (k : rkind) : Z :=
  Z.of_nat (length (u_sets u)) * set_need k + Z.of_nat (length (u_shapes u)) * shape_need c k.
(** What the library itself holds from start to end. *)
Definition lib_need (c : rcfg) (o : rora) (k : rkind) : Z :=
  2 * team_need k
  + (if rc_dyn c
     then is k RWin + is k REpoch + 2 * is k RAtt + is k (if ro_ag o then RMap else RMem)
          + (one (negb (ro_ds o)) + one (negb (ro_hs o))) * is k RMem
     else 2 * (is k RWin + is k REpoch))
  + one (rc_am c) * (2 * is k RComm + 3 * is k RMem + one (rc_mult c) * is k RCs)
  + one (rc_mult c) * (3 + one (rc_scache c)) * is k RCs.

(** How many are held. *)
Definition count_k (k : rkind) (l : list res) : Z := sumZ (fun x => is (snd x) k) l.
(** Nothing of the user's is left: all teams and spaces destroyed. *)
Definition u_clean (u : ust) : bool :=
  forallb negb (u_teams u) && forallb (fun o => match o with None => true | Some _ => false end) (u_spaces u).
(** A heap mapped at the agreed address is at one address on all PEs (C15). *)
Definition ora_ok (o : rora) : Prop := ro_ag o = true -> ro_hs o = true.
