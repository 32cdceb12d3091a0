(** What windows are to be created with, and whose memory is whose. *)
From Coq Require Import String.
From Verif Require Import Base EnvModel InfoModel.
Open Scope string_scope.
Open Scope Z_scope.

(** A space as the program asked for it. *)
Record asp : Type := mkA { a_kind : Z; a_nctx : nat; a_hints : Z; a_base : Z; a_att : bool }.
Definition ast : Type := list (Z * asp).
(** Kind of memory: 1 is CUDA, 2 is Level Zero, everything else host memory. *)
Definition from (k : Z) : alloc := match k with 1 => ACuda | 2 => AZe | _ => AMalloc end.
Definition built (b : build) (a : alloc) : Prop := match a with AMalloc => True | ACuda => b_cuda b = true | AZe => b_ze b = true end.

(** Valid histories: fresh numbers and blocks, kinds that are built; destroy when not attached, attach when not attached, detach when
    attached. *)
Inductive arun (b : build) : list op -> ast -> Prop :=
  | ANil : arun b [] []
  | ACreate l s id k n h base : arun b l s -> ~ In id (map fst s) -> built b (from k) -> base <> 0 -> ~ In base (map (fun e => a_base (snd e)) s) ->
      arun b (l ++ [Create id k n h base])%list (s ++ [(id, mkA k n h base false)])%list
  | ADestroy l s1 s2 id a : arun b l (s1 ++ (id, a) :: s2)%list -> a_att a = false -> arun b (l ++ [Destroy id])%list (s1 ++ s2)%list
  | AAttach l s1 s2 id a : arun b l (s1 ++ (id, a) :: s2)%list -> a_att a = false ->
      arun b (l ++ [Attach id])%list (s1 ++ (id, mkA (a_kind a) (a_nctx a) (a_hints a) (a_base a) true) :: s2)%list
  | ADetach l s1 s2 id a : arun b l (s1 ++ (id, a) :: s2)%list -> a_att a = true ->
      arun b (l ++ [Detach id])%list (s1 ++ (id, mkA (a_kind a) (a_nctx a) (a_hints a) (a_base a) false) :: s2)%list.

(** The memory that is allocated: that of the spaces, from the allocators of their kinds. *)
Definition memory_ok (s : ast) (live : list (alloc * Z)) : Prop :=
  NoDup live /\ forall e, In e live <-> exists id a, In (id, a) s /\ e = (from (a_kind a), a_base a).

(** The windows that exist. *)
Definition wanted_win (dyn : bool) (s : ast) (w : win) : Prop :=
  match w with
  | WSymm => dyn = true
  | WData | WHeap => dyn = false
  | WDefault id => dyn = false /\ exists a, In (id, a) s /\ a_att a = true
  | WCtx id k => exists a, In (id, a) s /\ a_att a = true /\ (k < a_nctx a)%nat
  end.
(** The preference a space's hints ask for. *)
Definition preference (h : Z) : option string := if Z.testbit h 1 then Some "mr" else if Z.testbit h 0 then Some "lat" else None.
(** Names of the operations that the bits of the option ask for; "sum" for any option but the empty one, see C47. *)
Definition spelled (ops : Z) : list string :=
  ((if Z.testbit ops 0 then ["cswap"] else []) ++
   (if ops =? 0 then [] else ["sum"]) ++
   (if Z.testbit ops 5 then ["no_op"] else []) ++
   (if Z.testbit ops 6 || Z.testbit ops 7 then ["replace"] else []) ++
   (if Z.testbit ops 8 || Z.testbit ops 9 then ["band"] else []) ++
   (if Z.testbit ops 10 || Z.testbit ops 11 then ["bor"] else []) ++
   (if Z.testbit ops 12 || Z.testbit ops 13 then ["bxor"] else []))%list.
Definition ops_text (ops : Z) : string := match spelled ops with [] => "none" | l => String.concat "," l end.
(** One operation at a time, or one and reading. *)
Definition acc_wanted (ops : Z) : string := match spelled ops with [_] => "same_op" | _ => "same_op_no_op" end.
(** What a key is to have, [pref] being the preference of the space the window belongs to. *)
Definition wanted (ops : Z) (w : win) (pref : option string) (key : string) : option string :=
  if String.eqb key "which_accumulate_ops" then Some (ops_text ops)
  else if String.eqb key "accumulate_ops" then Some (acc_wanted ops)
  else if String.eqb key "accumulate_ordering" then Some "none"
  else if String.eqb key "disable_shm_accumulate" then Some "true"
  else if String.eqb key "perf_preference" then pref
  else match w with
       | WSymm => if String.eqb key "coll_attach" then Some "true" else None
       | WHeap => if String.eqb key "alloc_shm" then Some "true" else None
       | _ => None
       end.
Definition owner (w : win) : option Z := match w with WDefault id | WCtx id _ => Some id | _ => None end.
Definition info_ok (ops : Z) (s : ast) (w : win) (i : info) : Prop :=
  match owner w with
  | None => forall key, i key = wanted ops w None key
  | Some id => forall a, In (id, a) s -> forall key, i key = wanted ops w (preference (a_hints a)) key
  end.
Definition windows_ok (b : build) (s : ast) (l : list (win * info)) : Prop :=
  NoDup (map fst l) /\ (forall w, In w (map fst l) <-> wanted_win (b_dyn b) s w) /\ forall w i, In (w, i) l -> info_ok (b_ops b) s w i.
(** The longest list of operations fits. *)
Definition room (b : build) : Prop := 38 <= b_maxlen b.
Definition started (b : build) (l : list op) : outcome st := do s <- init b; run b l s.
(** The hints of a space as a list. *)
Definition hints_list (h : Z) : list string := ((if Z.testbit h 0 then ["lat"] else []) ++ (if Z.testbit h 1 then ["mr"] else []))%list.
