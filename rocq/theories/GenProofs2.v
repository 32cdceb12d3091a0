(** What the generators make: checked by computation, once for all files. *)
From Coq Require Import String Ascii List Bool ZArith Lia.
From Verif Require Import GenData GenModel GenSpec GenProofs.
Import ListNotations.
Local Open Scope string_scope.

Fixpoint all2 {A B} (p : A -> B -> bool) (a : list A) (b : list B) : bool :=
  match a, b with [], [] => true | x :: a', y :: b' => p x y && all2 p a' b' | _, _ => false end.
Lemma all2_Forall2 {A B} (p : A -> B -> bool) a : forall b, all2 p a b = true -> Forall2 (fun x y => p x y = true) a b.
Proof. induction a; intros [|y b] H; cbn in H; try discriminate; constructor; apply andb_true_iff in H; [apply H|apply IHa, H]. Qed.
Definition mem (s : string) (l : list string) : bool := existsb (String.eqb s) l.
Lemma mem_In s l : mem s l = true -> In s l.
Proof. unfold mem. rewrite existsb_exists. intros (x & I & E). apply String.eqb_eq in E. subst. exact I. Qed.
Lemma words_eqb_eq a : forall b, words_eqb a b = true -> a = b.
Proof. induction a; intros [|y b] H; cbn in H; try discriminate; [reflexivity|]. apply andb_true_iff in H as [E H]. apply String.eqb_eq in E. subst. f_equal. apply IHa, H. Qed.
(** A call of the generic form, seen only as far as it decides. *)
Definition reach_ok (ms : list (string * gexp)) (c : class) (r : bool * string * string * rspec) : bool :=
  let '(tns, both, pl) := c in let '(ctx, tn, op, _) := r in
  let o := op_of op in
  mem o (map fst (if ctx then both else (both ++ pl)%list)) &&
  match reach ms (macro_of r) (firstn (deciding r) (map no_const (call_args r))) with
  | Some n => existsb (fun tn' => ty_eqb (ctype tn') (ctype tn) && String.eqb ("shmem_" ++ (if ctx then "ctx_" else "") ++ tn' ++ "_" ++ o) n) tns
  | None => false
  end.
Definition ignored (ms : list (string * gexp)) (r : bool * string * string * rspec) : bool :=
  match reach ms (macro_of r) (firstn (deciding r) (call_args r)) with Some n => String.eqb n "shmem_c11_type_ignore" | None => false end.
Definition file_ok (p : list string * list string * class) : bool :=
  let '(t, h, c) := p in
  let fs := functions t in
  let rs := routines c in
  all2 realises rs fs && all2 declares fs (functions h)
  && forallb (fun f => Bool.eqb (defined f) (negb (mem (name_of (fst f)) char_reductions))) fs
  && (negb (generic c) || let ms := macros h in forallb (reach_ok ms c) rs && forallb (fun r => negb (const_first r) || ignored ms r) rs).
Lemma files_ok : forallb file_ok generated = true.
Proof. vm_cast_no_check (eq_refl true). Qed.
Lemma select_more f : forall m b e n, select f (firstn m b) e = Some n -> select f b e = Some n.
Proof.
  induction f; intros m b e n H; [discriminate|]. destruct e as [s|c alts|]; cbn in *; auto.
  destruct (ctrl_arg c) as [k|]; [|discriminate]. destruct (nth_error (firstn m b) k) as [ty|] eqn:E; [|discriminate].
  assert (E2 : nth_error b k = Some ty).
  { clear - E. revert m b E. induction k; intros [|m] [|x b] E; cbn in *; try discriminate; eauto. }
  rewrite E2. destruct (filter (fun a => ty_eqb (fst a) ty) alts) as [|a l]; [|eauto].
  destruct (filter (fun a => ty_eqb (fst a) ["default"]) alts) as [|a l]; [discriminate|eauto].
Qed.
Lemma file_of t h c : In (t, h, c) generated -> file_ok (t, h, c) = true.
Proof. intros I. pose proof files_ok as F. rewrite forallb_forall in F. exact (F _ I). Qed.
Lemma typed_routines t h c : In (t, h, c) generated ->
  Forall2 (fun r f => realises r f = true) (routines c) (functions t) /\ Forall2 (fun f d => declares f d = true) (functions t) (functions h).
Proof.
  intros I. apply file_of in I. cbn [file_ok] in I. rewrite !andb_true_iff in I. destruct I as (((A & B) & _) & _).
  split; apply all2_Forall2; assumption.
Qed.
Lemma routines_defined t h c f : In (t, h, c) generated -> In f (functions t) -> (defined f = true <-> ~ In (name_of (fst f)) char_reductions).
Proof.
  intros I J. apply file_of in I. cbn [file_ok] in I. rewrite !andb_true_iff in I. destruct I as ((_ & D) & _).
  rewrite forallb_forall in D. specialize (D f J). apply Bool.eqb_prop in D. rewrite D, negb_true_iff. split.
  - intros E N. unfold mem in E. assert (X : existsb (String.eqb (name_of (fst f))) char_reductions = true); [|congruence].
    apply existsb_exists. exists (name_of (fst f)). split; [exact N|apply String.eqb_refl].
  - intros N. destruct (mem _ _) eqn:E; [|reflexivity]. apply mem_In in E. contradiction.
Qed.
Lemma in_routines (tns : list string) (both pl : list (string * rspec)) (ctx : bool) (tn o : string) : In tn tns -> In o (map fst (if ctx then both else (both ++ pl)%list)) ->
  exists s : rspec, In (ctx, tn, o, s) (routines (tns, both, pl)).
Proof.
  intros T O. apply in_map_iff in O as ((o' & s) & E & O). cbn in E. subst o'. exists s. cbn. apply in_flat_map. exists tn. split; [exact T|].
  apply in_or_app. destruct ctx.
  - left. apply in_flat_map. exists (o, s). split; [exact O|]. cbn. auto.
  - apply in_app_or in O as [O|O]; [left; apply in_flat_map; exists (o, s); split; [exact O|]; cbn; auto|].
    right. apply in_map_iff. exists (o, s). auto.
Qed.
Lemma generic_reaches t h c r (b : list (list string)) : In (t, h, c) generated -> generic c = true -> In r (routines c) ->
  firstn (deciding r) b = firstn (deciding r) (map no_const (call_args r)) ->
  exists r', In r' (routines c) /\ serves r r' /\ reaches h (macro_of r) b = Some (rname r').
Proof.
  intros I G R F. apply file_of in I. cbn [file_ok] in I. rewrite !andb_true_iff in I. destruct I as (_ & M). rewrite G in M. cbn [negb orb] in M.
  apply andb_true_iff in M as [M _]. rewrite forallb_forall in M. specialize (M r R). destruct c as ((tns & both) & pl). destruct r as (((ctx & tn) & op) & s). unfold reach_ok in M.
  apply andb_true_iff in M as [O M]. apply mem_In in O. rewrite <- F in M. clear F.
  unfold reaches, reach in *. destruct (find _ _) as [e|]; [|discriminate]. destruct (gvalid 3 e); [|discriminate].
  destruct (select 3 (firstn _ b) e) as [n|] eqn:S; [|discriminate]. rewrite (select_more _ _ _ _ _ S).
  apply existsb_exists in M as (tn' & T & E). apply andb_true_iff in E as [E1 E2]. apply String.eqb_eq in E2. subst n.
  destruct (in_routines tns both pl ctx tn' (op_of op) T O) as (s' & I'). exists (ctx, tn', op_of op, s'). split; [exact I'|]. split.
  - cbn. repeat split. apply words_eqb_eq, E1.
  - reflexivity.
Qed.
Lemma const_ignored t h c r b : In (t, h, c) generated -> generic c = true -> In r (routines c) -> const_first r = true ->
  firstn (deciding r) b = firstn (deciding r) (call_args r) -> reaches h (macro_of r) b = Some "shmem_c11_type_ignore".
Proof.
  intros I G R C F. apply file_of in I. cbn [file_ok] in I. rewrite !andb_true_iff in I. destruct I as (_ & M). rewrite G in M. cbn [negb orb] in M.
  apply andb_true_iff in M as [_ M]. rewrite forallb_forall in M. specialize (M r R). rewrite C in M. cbn [negb orb] in M. unfold ignored in M.
  rewrite <- F in M. unfold reaches, reach in *. destruct (find _ _) as [e|]; [|discriminate]. destruct (gvalid 3 e); [|discriminate].
  destruct (select 3 (firstn _ b) e) as [n|] eqn:S; [|discriminate]. rewrite (select_more _ _ _ _ _ S). apply String.eqb_eq in M. congruence.
Qed.
(** * Indices *)
Fixpoint nodupb (l : list string) : bool := match l with [] => true | x :: r => negb (mem x r) && nodupb r end.
Lemma mem_iff s l : mem s l = true <-> In s l.
Proof. split; [apply mem_In|]. intros I. unfold mem. apply existsb_exists. exists s. split; [exact I|apply String.eqb_refl]. Qed.
Lemma nodupb_ok l : nodupb l = true -> NoDup l.
Proof.
  induction l; intros H; constructor; cbn in H; apply andb_true_iff in H as [H1 H2]; [|auto]. apply negb_true_iff in H1.
  intros I. apply mem_iff in I. congruence.
Qed.
Definition index_ok (p : list string * list (string * string)) : bool :=
  let '(names, tab) := p in
  nodupb names && forallb (fun i => mem i (map fst tab)) (removelast names) && forallb (fun i => mem i (removelast names)) (map fst tab)
  && forallb (fun i => match entry tab i with Some m => String.eqb i ("OSHMPI_AM_" ++ m) | None => false end) (map fst tab).
Lemma indices_ok : forall names tab, In (names, tab) (combine (enums (tokens false am_enums)) [dt_table; op_table]) ->
  NoDup names /\ forall i, (In i (removelast names) <-> In i (map fst tab)) /\ (In i (map fst tab) -> exists m, entry tab i = Some m /\ i = "OSHMPI_AM_" ++ m).
Proof.
  assert (A : forallb index_ok (combine (enums (tokens false am_enums)) [dt_table; op_table]) = true) by (vm_compute; reflexivity).
  intros names tab I. rewrite forallb_forall in A. specialize (A _ I). cbn [index_ok] in A. rewrite !andb_true_iff in A.
  destruct A as (((N & F1) & F2) & F3). rewrite forallb_forall in F1, F2, F3. split; [apply nodupb_ok, N|].
  intros i. split; [split; intros J; apply mem_In; auto|]. intros J. specialize (F3 i J). destruct (entry tab i) as [m|]; [|discriminate].
  exists m. split; [reflexivity|]. apply String.eqb_eq, F3.
Qed.
(** * Witnesses *)
Lemma char_undefined : forall n, In n char_reductions ->
  exists t h c f, In (t, h, c) generated /\ In f (functions t) /\ name_of (fst f) = n /\ defined f = false.
Proof.
  assert (A : forallb (fun n => existsb (fun p => existsb (fun f => String.eqb (name_of (fst f)) n && negb (defined f)) (functions (fst (fst p))))
                 (firstn 2 (skipn 8 generated))) char_reductions = true) by (vm_compute; reflexivity).
  intros n I. rewrite forallb_forall in A. specialize (A n I). apply existsb_exists in A as (((t & h) & c) & J & E).
  apply existsb_exists in E as (f & K & E). cbn in K. apply andb_true_iff in E as [E1 E2]. apply String.eqb_eq in E1. apply negb_true_iff in E2.
  exists t, h, c, f. repeat split; auto. rewrite <- (firstn_skipn 8 generated). apply in_or_app. right.
  rewrite <- (firstn_skipn 2 (skipn 8 generated)). apply in_or_app. left. exact J.
Qed.
Lemma in_generated_0 : In (generate true tab_rma src_rma, generate true tab_rma hdr_rma, hd ([], [], []) classes) generated.
Proof. unfold generated, c_text, h_text, c_runs, h_runs, classes. cbn [map combine fst snd hd]. left. reflexivity. Qed.
Lemma const_g : exists t h c r, In (t, h, c) generated /\ generic c = true /\ In r (routines c) /\
  hd [] (call_args r) = ["const"; "int"; "*"] /\ rname r = "shmem_int_g" /\ macro_of r = "shmem_g" /\
  reaches h (macro_of r) (call_args r) = Some "shmem_c11_type_ignore".
Proof.
  assert (R : In (false, "int", "g", snd (hd ("", ([], [], [])) rma_ops)) (routines (hd ([], [], []) classes))).
  { destruct (in_routines rma_tn rma_ops [] false "int" "g") as (s & I).
    - apply mem_In. reflexivity.
    - apply mem_In. reflexivity.
    - cbn [hd classes]. cbn [routines]. apply in_flat_map. exists "int". split; [apply mem_In; reflexivity|]. left. reflexivity. }
  eexists _, _, _, _. split; [exact in_generated_0|]. split; [vm_compute; reflexivity|]. split; [exact R|].
  do 3 (split; [vm_compute; reflexivity|]).
  refine (const_ignored _ _ _ _ _ in_generated_0 _ R _ eq_refl); vm_compute; reflexivity.
Qed.
