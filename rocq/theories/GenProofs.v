(** Proofs about the generators. *)
From Coq Require Import String Ascii List Bool ZArith Lia.
From Verif Require Import GenData GenModel GenSpec.
Import ListNotations.
Local Open Scope string_scope.

(** * Substitution *)
Lemma app_assoc_s (a b c : string) : (a ++ b) ++ c = a ++ (b ++ c).
Proof. induction a; cbn; congruence. Qed.
Lemma sub_hit k v r : k <> EmptyString -> sub k v (k ++ r) = v ++ sub k v r.
Proof.
  intros K. unfold sub. destruct k as [|a k]; [congruence|]. cbn [append sub_from].
  assert (P : pre (String a k) (String a (k ++ r)) = true).
  { cbn. rewrite Ascii.eqb_refl. cbn. clear. induction k; cbn; [destruct r; reflexivity|]. rewrite Ascii.eqb_refl. exact IHk. }
  rewrite P. cbn [String.length]. rewrite PeanoNat.Nat.sub_0_r || idtac. f_equal.
  replace (S (String.length k) - 1) with (String.length k) by lia.
  clear P K. generalize (String a k). intros key. induction k; cbn; [reflexivity|]. exact IHk.
Qed.
Lemma sub_miss k v c r : pre k (String c r) = false -> sub k v (String c r) = String c (sub k v r).
Proof. intros H. unfold sub. cbn [sub_from]. rewrite H. reflexivity. Qed.
Lemma sub_nil k v : sub k v EmptyString = EmptyString.
Proof. reflexivity. Qed.
Local Arguments Ascii.eqb : simpl never.
Fixpoint chs (s : string) : list sym := match s with EmptyString => [] | String c r => Ch c :: chs r end.
Lemma render_app a b : render (a ++ b) = render a ++ render b.
Proof. induction a; cbn; [reflexivity|]. rewrite IHa. symmetry. apply app_assoc_s. Qed.
Lemma render_chs s : render (chs s) = s.
Proof. induction s; cbn; congruence. Qed.
Definition head_Y (s : string) : bool := match s with String c _ => Ascii.eqb c "Y"%char | EmptyString => false end.
(** What remains after each substitution. *)
Definition t1 (row : list string) (l : list sym) : list sym := flat_map (fun s => match s with KName => chs (field row 1) | _ => [s] end) l.
Definition t2 (row : list string) (l : list sym) : list sym := flat_map (fun s => match s with KMpi => chs (field row 2) | _ => [s] end) l.
Definition t3 (row : list string) (l : list sym) : list sym := flat_map (fun s => match s with KType => chs (field row 0) | _ => [s] end) l.
Fixpoint ok2 (prev : option sym) (l : list sym) : bool :=
  match l with
  | [] => true
  | s :: r =>
      match s with
      | Ch c => negb (Ascii.eqb c "Y"%char)
      | KName => false
      | KMpi => true
      | KType => match prev with None => true | Some (Ch c) => negb (Ascii.eqb c "_"%char) | Some _ => false end
      end && ok2 (Some s) r
  end.
Lemma line_head p l : line_ok p l = true -> head_Y (render l) = false.
Proof. destruct l as [|[c| | |] r]; cbn; try reflexivity. rewrite andb_true_iff, negb_true_iff. tauto. Qed.
Lemma ok2_head p l : ok2 p l = true -> head_Y (render l) = false.
Proof. destruct l as [|[c| | |] r]; cbn; try reflexivity. rewrite andb_true_iff, negb_true_iff. tauto. Qed.
Lemma pre_Y k c r : head_Y r = false -> pre (String "T" (String "Y" k)) (String c r) = false.
Proof.
  intros H. cbn. destruct (Ascii.eqb "T" c); [|reflexivity]. cbn. destruct r as [|d r]; [reflexivity|]. cbn in *.
  destruct (Ascii.eqb "Y" d) eqn:E; [|reflexivity]. apply Ascii.eqb_eq in E. subst d. discriminate.
Qed.
Lemma not_N_pre r : not_N r = true -> pre "NAME" (render r) = false.
Proof.
  destruct r as [|[c| | |] r]; cbn; try reflexivity. intros H. destruct (Ascii.eqb "N" c) eqn:E; [|reflexivity].
  apply Ascii.eqb_eq in E. subst c. discriminate.
Qed.
Lemma stage1 row l : forall p, line_ok p l = true -> sub "TYPENAME" (field row 1) (render l) = render (t1 row l).
Proof.
  induction l as [|s l IH]; intros p H; [reflexivity|]. cbn [line_ok] in H. apply andb_true_iff in H as [H1 H2].
  pose proof (IH _ H2) as E. pose proof (line_head _ _ H2) as HY.
  unfold t1. cbn [flat_map]. fold (t1 row l). rewrite render_app, <- E. cbn [render].
  destruct s; cbn [sym_text].
  - cbn [append render]. rewrite sub_miss; [reflexivity|]. apply pre_Y, HY.
  - rewrite sub_hit by discriminate. rewrite render_chs. reflexivity.
  - pose proof (not_N_pre _ H1) as NN. cbn [append render].
    do 4 (rewrite sub_miss by reflexivity). rewrite sub_miss by exact NN. do 3 (rewrite sub_miss by reflexivity). reflexivity.
  - apply andb_true_iff in H1 as [H1 _]. pose proof (not_N_pre _ H1) as NN. cbn [append render].
    rewrite sub_miss by exact NN. do 3 (rewrite sub_miss by reflexivity). reflexivity.
Qed.
Lemma ok2_chs s : forall p l, no_Y s = true -> match s with EmptyString => ok2 p l = true | _ => forall q, ok2 (Some (Ch q)) l = true end -> ok2 p (chs s ++ l) = true.
Proof.
  induction s as [|c s IH]; intros p l N H; [exact H|]. cbn in *. apply andb_true_iff in N as [N1 N2]. rewrite N1. cbn.
  apply IH; [exact N2|]. destruct s; [apply H|exact H].
Qed.
Lemma ok2_1 row : no_Y (field row 1) = true -> forall l p, line_ok p l = true -> ok2 p (t1 row l) = true.
Proof.
  intros N. induction l as [|s l IH]; intros p H; [reflexivity|]. cbn [line_ok] in H. apply andb_true_iff in H as [H1 H2].
  specialize (IH _ H2). unfold t1. cbn [flat_map]. fold (t1 row l). destruct s; cbn [app ok2].
  - rewrite H1. exact IH.
  - assert (K : forall q, ok2 q (t1 row l) = true).
    { intros q. destruct l as [|[c| | |] l]; try discriminate; [reflexivity|]. revert IH. unfold t1. cbn. auto. }
    apply ok2_chs; [exact N|]. destruct (field row 1); [apply K|intros; apply K].
  - exact IH.
  - apply andb_true_iff in H1 as [_ H1]. rewrite H1. exact IH.
Qed.
Lemma pre_mpi p l c : ok2 p (Ch c :: l) = true -> pre "MPI_TYPE" (String c (render l)) = false.
Proof.
  intros H. cbn [ok2] in H. apply andb_true_iff in H as [_ H]. cbn [pre].
  destruct (Ascii.eqb "M" c); [|reflexivity]. cbn [andb].
  destruct l as [|[c1| | |] l]; try reflexivity. cbn [render sym_text append pre]. destruct (Ascii.eqb "P" c1); [|reflexivity]. cbn [andb].
  cbn [ok2] in H. apply andb_true_iff in H as [_ H].
  destruct l as [|[c2| | |] l]; try reflexivity. cbn [render sym_text append pre]. destruct (Ascii.eqb "I" c2); [|reflexivity]. cbn [andb].
  cbn [ok2] in H. apply andb_true_iff in H as [_ H].
  destruct l as [|[c3| | |] l]; try reflexivity. cbn [render sym_text append pre]. destruct (Ascii.eqb "_" c3) eqn:E3; [|reflexivity]. cbn [andb].
  apply Ascii.eqb_eq in E3. subst c3. cbn [ok2] in H. apply andb_true_iff in H as [_ H].
  destruct l as [|[c4| | |] l]; try reflexivity; [|discriminate|discriminate].
  cbn [render sym_text append pre]. destruct (Ascii.eqb "T" c4); [|reflexivity]. cbn [andb].
  cbn [ok2] in H. apply andb_true_iff in H as [_ H]. apply ok2_head in H.
  destruct (render l) as [|d r]; [reflexivity|]. cbn in H |- *. destruct (Ascii.eqb "Y" d) eqn:E; [|reflexivity].
  apply Ascii.eqb_eq in E. subst d. discriminate.
Qed.
Lemma stage2 row l : forall p, ok2 p l = true -> sub "MPI_TYPE" (field row 2) (render l) = render (t2 row l).
Proof.
  induction l as [|s l IH]; intros p H; [reflexivity|]. pose proof H as H0. cbn [ok2] in H. apply andb_true_iff in H as [H1 H2].
  pose proof (IH _ H2) as E. unfold t2. cbn [flat_map]. fold (t2 row l). rewrite render_app, <- E. cbn [render].
  destruct s; cbn [sym_text].
  - cbn [append render]. rewrite sub_miss; [reflexivity|]. exact (pre_mpi _ _ _ H0).
  - discriminate.
  - rewrite sub_hit by discriminate. rewrite render_chs. reflexivity.
  - cbn [append render]. do 4 (rewrite sub_miss by reflexivity). reflexivity.
Qed.
(** Characters and TYPE only. *)
Fixpoint ok3 (l : list sym) : bool :=
  match l with [] => true | Ch c :: r => negb (Ascii.eqb c "Y"%char) && ok3 r | KType :: r => ok3 r | _ => false end.
Lemma ok3_app a b : ok3 (a ++ b) = ok3 a && ok3 b.
Proof. induction a as [|[c| | |] a IH]; cbn; auto. rewrite IH, andb_assoc. reflexivity. Qed.
Lemma ok3_chs s : no_Y s = true -> ok3 (chs s) = true.
Proof. induction s; cbn; auto. rewrite andb_true_iff. intros [H1 H2]. rewrite H1. exact (IHs H2). Qed.
Lemma ok3_2 row : no_Y (field row 2) = true -> forall l p, ok2 p l = true -> ok3 (t2 row l) = true.
Proof.
  intros N. induction l as [|s l IH]; intros p H; [reflexivity|]. cbn [ok2] in H. apply andb_true_iff in H as [H1 H2].
  specialize (IH _ H2). unfold t2. cbn [flat_map]. fold (t2 row l). rewrite ok3_app, IH, andb_true_r.
  destruct s; cbn; try reflexivity; [rewrite H1; reflexivity|discriminate|apply ok3_chs, N].
Qed.
Lemma ok3_head l : ok3 l = true -> head_Y (render l) = false.
Proof. destruct l as [|[c| | |] r]; cbn; try reflexivity. rewrite andb_true_iff, negb_true_iff. tauto. Qed.
Lemma stage3 row l : ok3 l = true -> sub "TYPE" (field row 0) (render l) = render (t3 row l).
Proof.
  induction l as [|s l IH]; intros H; [reflexivity|].
  assert (H2 : ok3 l = true). { destruct s; cbn in H; try discriminate; [apply andb_true_iff in H; apply H|exact H]. }
  pose proof (IH H2) as E. unfold t3. cbn [flat_map]. fold (t3 row l). rewrite render_app, <- E. cbn [render].
  destruct s; cbn [sym_text]; try discriminate.
  - cbn [append render]. rewrite sub_miss; [reflexivity|]. apply pre_Y, ok3_head, H2.
  - rewrite sub_hit by discriminate. rewrite render_chs. reflexivity.
Qed.
Lemma t3_app row a b : (t3 row (a ++ b) = t3 row a ++ t3 row b)%list.
Proof. apply flat_map_app. Qed.
Lemma t2_app row a b : (t2 row (a ++ b) = t2 row a ++ t2 row b)%list.
Proof. apply flat_map_app. Qed.
Lemma t2_chs row s : t2 row (chs s) = chs s.
Proof. induction s; cbn; [reflexivity|]. fold (t2 row (chs s)). rewrite IHs. reflexivity. Qed.
Lemma t3_chs row s : t3 row (chs s) = chs s.
Proof. induction s; cbn; [reflexivity|]. fold (t3 row (chs s)). rewrite IHs. reflexivity. Qed.
Lemma inst_t row l : render (t3 row (t2 row (t1 row l))) = inst row l.
Proof.
  induction l as [|s l IH]; [reflexivity|]. unfold t1. cbn [flat_map]. fold (t1 row l). rewrite t2_app, t3_app, render_app, IH. cbn [inst].
  f_equal. destruct s; cbn [sym_inst].
  - reflexivity.
  - rewrite t2_chs, t3_chs. apply render_chs.
  - unfold t2. cbn [flat_map]. rewrite app_nil_r, t3_chs. apply render_chs.
  - unfold t2, t3. cbn. rewrite app_nil_r. apply render_chs.
Qed.
Theorem expand_inst row l : line_ok None l = true -> row_ok row = true -> expand true row (render l) = inst row l.
Proof.
  intros L R. unfold row_ok in R. rewrite !andb_true_iff in R. destruct R as ((R0 & R1) & R2). unfold expand.
  rewrite (stage1 row l None L). pose proof (ok2_1 row R1 l None L) as O2. rewrite (stage2 row _ None O2).
  rewrite (stage3 row _ (ok3_2 row R2 _ _ O2)). apply inst_t.
Qed.
(** Reading a line loses nothing. *)
Fixpoint sdrop (n : nat) (s : string) : string := match n, s with S m, String _ r => sdrop m r | _, _ => s end.
Lemma read_skip n : forall s, read_line n s = read_line 0 (sdrop n s).
Proof. induction n; intros [|c s]; try reflexivity. cbn [sdrop]. rewrite <- IHn. reflexivity. Qed.
Lemma pre_app k : forall s, pre k s = true -> s = k ++ sdrop (String.length k) s.
Proof.
  induction k as [|a k IH]; intros s H; [destruct s; reflexivity|]. destruct s as [|b s]; [discriminate|]. cbn in H.
  apply andb_true_iff in H as [E H]. apply Ascii.eqb_eq in E. subst b. cbn. f_equal. apply IH, H.
Qed.
Lemma sdrop_len n : forall s, String.length (sdrop n s) <= String.length s.
Proof. induction n; intros [|c s]; cbn; try lia. specialize (IHn s). lia. Qed.
Lemma render_read_n n : forall s, String.length s <= n -> render (read_line 0 s) = s.
Proof.
  induction n; intros [|c s] L; try reflexivity; [cbn in L; lia|]. cbn [String.length] in L. cbn [read_line].
  destruct (pre "TYPENAME" (String c s)) eqn:E1.
  { apply pre_app in E1. cbn [String.length sdrop] in E1. rewrite read_skip. cbn [render sym_text]. rewrite IHn; [symmetry; exact E1|].
    pose proof (sdrop_len 7 s). lia. }
  destruct (pre "MPI_TYPE" (String c s)) eqn:E2.
  { apply pre_app in E2. cbn [String.length sdrop] in E2. rewrite read_skip. cbn [render sym_text]. rewrite IHn; [symmetry; exact E2|].
    pose proof (sdrop_len 7 s). lia. }
  destruct (pre "TYPE" (String c s)) eqn:E3.
  { apply pre_app in E3. cbn [String.length sdrop] in E3. rewrite read_skip. cbn [render sym_text]. rewrite IHn; [symmetry; exact E3|].
    pose proof (sdrop_len 3 s). lia. }
  cbn [render sym_text append]. rewrite IHn; [reflexivity|lia].
Qed.
Lemma render_read s : render (read_line 0 s) = s.
Proof. exact (render_read_n _ s (le_n _)). Qed.

(** * The loop over the template *)
Lemma block_seg b z rest : forallb (fun l => negb (is_start true l) && negb (is_end true l) && line_ok None (read_line 0 l)) b = true -> is_end true z = true ->
  block true (b ++ z :: rest)%list = b.
Proof.
  intros B Z. induction b as [|l b IH]; cbn [app block]; [rewrite Z; reflexivity|]. cbn in B. rewrite !andb_true_iff, !negb_true_iff in B.
  destruct B as (((_ & B) & _) & C). rewrite B. f_equal. apply IH, C.
Qed.
Lemma skip_seg rows b z rest : forallb (fun l => negb (is_start true l) && negb (is_end true l) && line_ok None (read_line 0 l)) b = true -> is_end true z = true ->
  gen true rows Skip (b ++ z :: rest)%list = gen true rows Plain rest.
Proof.
  intros B Z. induction b as [|l b IH]; cbn [app gen]; [rewrite Z; reflexivity|]. cbn in B. rewrite !andb_true_iff, !negb_true_iff in B.
  destruct B as (((_ & B) & _) & C). rewrite B. apply IH, C.
Qed.
Lemma text_seg rows ls rest : forallb (fun l => negb (is_start true l)) ls = true ->
  gen true rows Plain (ls ++ rest)%list = (ls ++ gen true rows Plain rest)%list.
Proof.
  intros H. induction ls as [|l ls IH]; [reflexivity|]. cbn in H. apply andb_true_iff in H as [H1 H2]. apply negb_true_iff in H1.
  cbn [app gen]. rewrite H1. f_equal. apply IH, H2.
Qed.
Lemma flat_map_eq {A B} (f g : A -> list B) l : (forall x, In x l -> f x = g x) -> flat_map f l = flat_map g l.
Proof. induction l; intros H; cbn; [reflexivity|]. rewrite (H a (or_introl eq_refl)), IHl; auto. intros; apply H. now right. Qed.
Theorem gen_segs rows segs : forallb row_ok rows = true -> forallb seg_ok segs = true -> forallb (rows_ok rows) segs = true ->
  gen true rows Plain (flat_map seg_lines segs) = flat_map (seg_out rows) segs.
Proof.
  intros R. induction segs as [|s segs IH]; intros S O; [reflexivity|]. cbn [forallb] in S, O.
  apply andb_true_iff in S as [S1 S2]. apply andb_true_iff in O as [O1 O2]. specialize (IH S2 O2). cbn [flat_map]. destruct s as [ls|a b z].
  - cbn [seg_lines seg_out]. rewrite text_seg by exact S1. rewrite IH. reflexivity.
  - cbn [seg_ok] in S1. rewrite !andb_true_iff, negb_true_iff in S1. destruct S1 as (((A & Z) & NZ) & B).
    cbn [seg_lines]. rewrite <- app_comm_cons, <- app_assoc. cbn [app gen]. rewrite A.
    set (rest := flat_map seg_lines segs) in *.
    assert (G : forall c11 l0 tl, (b ++ z :: rest)%list = l0 :: tl ->
              filter (fun row => negb (c11 && String.eqb (field row 3) "0")) rows = seg_rows rows a ->
              gen true rows (First c11) (l0 :: tl) =
              (flat_map (fun row => map (expand true row) b) (seg_rows rows a) ++ gen true rows Plain rest)%list).
    { intros c11 l0 tl E F.
      assert (NS : is_start true l0 = false).
      { destruct b as [|x b']; cbn in E; injection E as <- _; [exact NZ|]. cbn in B. rewrite !andb_true_iff, !negb_true_iff in B. apply B. }
      cbn [gen]. rewrite NS, F. unfold rows_ok in O1. destruct (seg_rows rows a) as [|r0 rs] eqn:SR; [discriminate|].
      rewrite <- E, (block_seg b z rest B Z). f_equal.
      destruct b as [|x b']; cbn in E; injection E as <- <-.
      - rewrite Z. reflexivity.
      - pose proof B as B0. cbn in B. rewrite !andb_true_iff, !negb_true_iff in B. destruct B as (((_ & X) & _) & B). rewrite X.
        apply skip_seg; assumption. }
    destruct (b ++ z :: rest)%list as [|l0 tl] eqn:E; [destruct b; discriminate|].
    rewrite (G _ l0 tl eq_refl) by reflexivity. rewrite IH. f_equal. cbn [seg_out].
    apply flat_map_eq. intros row I. apply map_ext_in. intros l L.
    unfold seg_rows in I. apply filter_In in I as [I _]. rewrite forallb_forall in R, B. specialize (B l L).
    rewrite !andb_true_iff in B. rewrite <- (render_read l) at 1. apply expand_inst; [apply B|apply R, I].
Qed.
