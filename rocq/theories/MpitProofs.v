(** Proofs about MpitModel. *)
From Coq Require Import String.
From Verif Require Import Base EnvModel OptModel MpitModel MpitSpec.
Open Scope Z_scope.
Open Scope list_scope.

Lemma find_write : forall n m v l,
  find_var n (write_var m v l) =
  match find_var n l with
  | Some c => Some (if String.eqb m n && cv_writable c then mkCvar (cv_name c) v (cv_writable c) else c)
  | None => None
  end.
Proof.
  intros n m v l. induction l as [|c l IH]; [reflexivity|]. cbn [write_var].
  unfold find_var in *. cbn [find].
  destruct (String.eqb (cv_name c) m) eqn:E.
  - apply String.eqb_eq in E. subst m.
    destruct (String.eqb (cv_name c) n) eqn:F.
    + destruct (cv_writable c) eqn:W; cbn [find cv_name]; rewrite F; cbn [andb]; rewrite ?W; reflexivity.
    + replace (find _ ((if cv_writable c then _ else c) :: l))
        with (find (fun c0 => String.eqb (cv_name c0) n) l).
      2:{ destruct (cv_writable c); cbn [find cv_name]; now rewrite F. }
      destruct (find _ l); reflexivity.
  - cbn [find]. destruct (String.eqb (cv_name c) n) eqn:F; [|exact IH].
    apply String.eqb_eq in F. subst n. rewrite String.eqb_sym in E. rewrite E. reflexivity.
Qed.

(** What holds of every state: [u] sessions of the program. *)
Definition good (s : mpit) (u : nat) (b : bool) : Prop :=
  mt_refs s = Z.of_nat u + (if b then 1 else 0) /\ mt_handles s = 0%nat /\ mt_lib s = b.

Lemma init_step : forall e on s u, option_ok e on -> good s u false ->
  exists s', lib_init e s = Ok s' /\ good s' u true /\
    mt_vars s' = (if on then match getenv_nonempty e PROGRESS_VAR with
                             | Some _ => mt_vars s
                             | None => match find_var PROGRESS_VAR (mt_vars s) with
                                       | Some _ => write_var PROGRESS_VAR 1 (mt_vars s)
                                       | None => mt_vars s
                                       end
                             end
                  else mt_vars s).
Proof.
  intros e on s u O (R & H & L). unfold lib_init. rewrite L, O. cbn [bind]. unfold initialize_mpit.
  destruct on; cbn [negb].
  - unfold set_mpit_cvar. destruct (getenv_nonempty e PROGRESS_VAR).
    + cbn. eexists. split; [reflexivity|]. split; [|reflexivity]. repeat split; cbn; [lia|assumption].
    + cbn [mt_refs set_refs]. destruct (mt_refs s + 1 <=? 0) eqn:E; [lia|]. cbn [mt_vars set_refs].
      destruct (find_var PROGRESS_VAR (mt_vars s)); cbn; eexists; (split; [reflexivity|]);
        (split; [|reflexivity]); repeat split; cbn; try lia; rewrite H; reflexivity.
  - cbn. eexists. split; [reflexivity|]. split; [|reflexivity]. repeat split; cbn; [lia|assumption].
Qed.

Lemma step_ok : forall e on s u b o, option_ok e on -> good s u b -> legal u [o] ->
  exists s', tstep e s o = Ok s' /\ good s' (sessions u [o]) (up b [o]) /\
    mt_vars s' = match o with
                 | TWrite n v => write_var n v (mt_vars s)
                 | TShmemInit => if b then mt_vars s else
                     if on then match getenv_nonempty e PROGRESS_VAR with
                             | Some _ => mt_vars s
                             | None => match find_var PROGRESS_VAR (mt_vars s) with
                                       | Some _ => write_var PROGRESS_VAR 1 (mt_vars s)
                                       | None => mt_vars s
                                       end
                             end
                     else mt_vars s
                 | _ => mt_vars s
                 end.
Proof.
  intros e on s u b o O G L. destruct o as [| | | |n v]; cbn [tstep sessions up].
  - destruct b.
    + destruct G as (R & H & X). unfold lib_init. rewrite X. exists s. repeat split; auto.
    + exact (init_step e on s u O G).
  - destruct G as (R & H & X). unfold lib_fini. rewrite X. destruct b.
    + destruct (mt_refs s <=? 0) eqn:E; [lia|]. eexists. split; [reflexivity|]. split; [|reflexivity].
      repeat split; cbn; [lia|assumption].
    + exists s. repeat split; auto.
  - destruct G as (R & H & X). eexists. split; [reflexivity|]. split; [|reflexivity].
    repeat split; cbn [mt_refs set_refs mt_handles mt_lib]; auto; lia.
  - destruct G as (R & H & X). destruct L as [L _]. destruct (mt_refs s <=? 0) eqn:E; [destruct b; lia|].
    eexists. split; [reflexivity|]. split; [|reflexivity].
    repeat split; cbn [mt_refs set_refs mt_handles mt_lib]; auto; lia.
  - destruct G as (R & H & X). destruct L as [L _]. destruct (mt_refs s <=? 0) eqn:E; [destruct b; lia|].
    eexists. split; [reflexivity|]. split; [|reflexivity]. repeat split; auto.
Qed.
Lemma legal_cons : forall o os u, legal u (o :: os) -> legal u [o] /\ legal (sessions u [o]) os.
Proof. intros [] os u H; cbn in *; tauto. Qed.
Lemma sessions_cons : forall o os u, sessions u (o :: os) = sessions (sessions u [o]) os.
Proof. intros [] os u; reflexivity. Qed.
Lemma up_cons : forall o os b, up b (o :: os) = up (up b [o]) os.
Proof. intros [] os b; reflexivity. Qed.
Lemma written_cons : forall n v o os, written n v (o :: os) = written n (written n v [o]) os.
Proof. intros n v [] os; reflexivity. Qed.

Lemma run_good : forall e on os s u b, option_ok e on -> good s u b -> legal u os ->
  exists s', trun e s os = Ok s' /\ good s' (sessions u os) (up b os).
Proof.
  intros e on os. induction os as [|o os IH]; intros s u b O G L.
  { exists s. auto. }
  apply legal_cons in L. destruct L as [L1 L2].
  destruct (step_ok e on s u b o O G L1) as (s1 & R1 & G1 & _).
  cbn [trun]. rewrite R1. cbn [bind]. rewrite sessions_cons, up_cons. exact (IH s1 _ _ O G1 L2).
Qed.

Lemma find_name : forall n l c, find_var n l = Some c -> cv_name c = n.
Proof. intros n l c H. apply find_some in H. now apply String.eqb_eq. Qed.

Lemma run_value : forall e on n os s u b, option_ok e on -> good s u b -> legal u os -> untouched e n ->
  exists s', trun e s os = Ok s' /\
    find_var n (mt_vars s') =
    match find_var n (mt_vars s) with
    | Some c => Some (if cv_writable c then mkCvar (cv_name c) (written n (cv_val c) os) (cv_writable c) else c)
    | None => None
    end.
Proof.
  intros e on n os. induction os as [|o os IH]; intros s u b O G L U.
  { exists s. split; [reflexivity|]. destruct (find_var n (mt_vars s)) as [[x y []]|]; reflexivity. }
  apply legal_cons in L. destruct L as [L1 L2].
  destruct (step_ok e on s u b o O G L1) as (s1 & R1 & G1 & V).
  destruct (IH s1 _ _ O G1 L2 U) as (s' & R & F). exists s'. cbn [trun]. rewrite R1. cbn [bind].
  split; [exact R|]. rewrite F. clear F.
  assert (X : find_var n (mt_vars s1) =
    match find_var n (mt_vars s) with
    | Some c => Some (if cv_writable c then mkCvar (cv_name c) (written n (cv_val c) [o]) (cv_writable c) else c)
    | None => None
    end).
  { rewrite V. clear V. destruct o as [| | | |m v]; cbn [written];
      try (destruct (find_var n (mt_vars s)) as [[x y []]|]; reflexivity).
    - assert (Same : find_var n (mt_vars s) =
        match find_var n (mt_vars s) with
        | Some c => Some (if cv_writable c then mkCvar (cv_name c) (cv_val c) (cv_writable c) else c)
        | None => None
        end) by (destruct (find_var n (mt_vars s)) as [[x y []]|]; reflexivity).
      destruct b; [exact Same|]. destruct on; [|exact Same].
      destruct (getenv_nonempty e PROGRESS_VAR) eqn:GE; [exact Same|].
      destruct (find_var PROGRESS_VAR (mt_vars s)) eqn:FV; [|exact Same].
      rewrite find_write. replace (String.eqb PROGRESS_VAR n) with false.
      + destruct (find_var n (mt_vars s)) as [[x y []]|]; reflexivity.
      + symmetry. apply String.eqb_neq. intros <-. destruct U as [U|[U|U]].
        * now apply U.
        * now apply U.
        * unfold option_ok in O, U. rewrite O in U. discriminate.
    - rewrite find_write. destruct (find_var n (mt_vars s)) as [[x y []]|]; destruct (String.eqb m n); reflexivity. }
  rewrite X. destruct (find_var n (mt_vars s)) as [[x y []]|]; cbn [cv_writable cv_name cv_val]; try reflexivity.
  rewrite (written_cons n y o os). reflexivity.
Qed.

Lemma run_app : forall e a b s, trun e s (a ++ b) = do s <- trun e s a; trun e s b.
Proof.
  intros e a. induction a as [|o a IH]; intros b s; [reflexivity|]. cbn [trun app].
  destruct (tstep e s o); cbn; auto.
Qed.
Lemma good0 : forall vars, good (mpit0 vars) 0 false.
Proof. intros vars. repeat split. Qed.

Theorem sessions_balanced : forall e on vars os, option_ok e on -> legal 0 os ->
  exists s, trun e (mpit0 vars) os = Ok s /\ mt_handles s = 0%nat /\
    mt_refs s = Z.of_nat (sessions 0 os) + (if up false os then 1 else 0).
Proof.
  intros e on vars os O L. destruct (run_good e on os _ 0 false O (good0 vars) L) as (s & R & G1 & G2 & G3).
  exists s. auto.
Qed.
Theorem untouched_vars : forall e on vars os n c, option_ok e on -> legal 0 os -> untouched e n ->
  find_var n vars = Some c ->
  exists s, trun e (mpit0 vars) os = Ok s /\
    value s n = Some (if cv_writable c then written n (cv_val c) os else cv_val c).
Proof.
  intros e on vars os n c O L U F.
  destruct (run_value e on n os _ 0 false O (good0 vars) L U) as (s & R & V).
  exists s. split; [exact R|]. unfold value. rewrite V. cbn [mt_vars mpit0]. rewrite F. cbn.
  now destruct (cv_writable c).
Qed.
Theorem started : forall e vars os s c, option_ok e true -> legal 0 os -> up false os = false ->
  trun e (mpit0 vars) os = Ok s -> find_var PROGRESS_VAR (mt_vars s) = Some c -> cv_writable c = true ->
  getenv_nonempty e PROGRESS_VAR = None ->
  exists s1, tstep e s TShmemInit = Ok s1 /\ value s1 PROGRESS_VAR = Some 1.
Proof.
  intros e vars os s c O L P R F W N.
  destruct (run_good e true os _ 0 false O (good0 vars) L) as (s' & R' & G). rewrite R in R'. inversion R'; subst s'.
  rewrite P in G. destruct (init_step e true s _ O G) as (s1 & R1 & _ & V). exists s1. split; [exact R1|].
  rewrite N, F in V. unfold value. rewrite V, find_write, F, String.eqb_refl, W. reflexivity.
Qed.
