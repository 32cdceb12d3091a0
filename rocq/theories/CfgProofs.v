(** Proofs about the options of configure. *)
From Verif Require Import Base AmCfgModel EnvModel EnvSpec CfgModel CfgSpec.
From Coq Require Import String Ascii.
Open Scope string_scope.
Open Scope list_scope.

Lemma def_app : forall n a b, def n (a ++ b) = def n a || def n b.
Proof. intros. unfold def. apply existsb_app. Qed.
Lemma value_app : forall n a b, value n (a ++ b) = if def n a then value n a else value n b.
Proof.
  induction a as [|m a IH]; intros b; simpl; auto.
  destruct (n =? fst m); simpl; auto.
Qed.
Lemma all_of_cons : forall x r ms, all_of (x :: r) = Some ms ->
  exists a b, x = Some a /\ all_of r = Some b /\ ms = a ++ b.
Proof.
  intros x r ms H. simpl in H. destruct x as [a|]; [|discriminate].
  destruct (all_of r) as [b|]; [|discriminate]. inversion H. subst. exists a, b. auto.
Qed.

(** What each section defines. *)
Ltac sec H := repeat match type of H with context [if ?c then _ else _] =>
  destruct c eqn:? end; inversion H; subst; clear H.
Lemma orb_f : forall b, b || false = b. Proof. destruct b; auto. Qed.
Lemma fast_def : forall v l n, fast_sec v = Some l -> def n l =
  (n =? "OSHMPI_FAST_OPTS") && negb (f_opts (fast_of v) =? "") ||
  ((n =? "OSHMPI_DISABLE_DEBUG") || (n =? "OSHMPI_DISABLE_ERROR_CHECKING")) && f_ndebug (fast_of v) ||
  ((n =? "OSHMPI_ENABLE_IPO") || (n =? "-ipo")) && f_ipo (fast_of v).
Proof.
  intros v l n H. unfold fast_sec in H. inversion H. subst. clear H.
  rewrite !def_app.
  destruct (f_opts (fast_of v) =? ""), (f_ndebug (fast_of v)), (f_ipo (fast_of v));
    cbn -[String.eqb]; rewrite ?orb_f, ?andb_false_r, ?andb_true_r, ?orb_f; cbn -[String.eqb];
    rewrite ?orb_assoc; auto.
Qed.
Lemma fast_value : forall v l, fast_sec v = Some l ->
  value "OSHMPI_FAST_OPTS" l = f_opts (fast_of v).
Proof.
  intros v l H. unfold fast_sec in H. inversion H. subst. clear H.
  destruct (f_opts (fast_of v) =? "") eqn:E; simpl; auto.
  apply String.eqb_eq in E. rewrite E. destruct (f_ndebug (fast_of v)), (f_ipo (fast_of v)); reflexivity.
Qed.
Ltac secl H n := sec H; cbn -[String.eqb]; rewrite ?orb_f, ?andb_true_r, ?andb_false_r, ?orb_f;
  cbn -[String.eqb]; rewrite ?orb_f; auto.
Lemma g_def : forall f v l n, g_sec f v = Some l ->
  def n l = ((n =? "-g") || (n =? "OSHMPI_ENABLE_DBG")) && ((f =? "no") && (v =? "yes")).
Proof. intros f v l n H. unfold g_sec, macro0 in H. secl H n. Qed.
Ltac neqs := repeat match goal with
  | E : (?v =? ?s) = true |- _ => apply String.eqb_eq in E; subst v end.
Ltac secd H := sec H; neqs; cbn -[String.eqb];
  repeat match goal with E : (?v =? ?s) = false |- _ => rewrite E; clear E end;
  repeat match goal with |- context [?a =? ?b] =>
    match a with
    | String _ _ => match b with String _ _ => let x := eval vm_compute in (a =? b) in change (a =? b) with x end
    end end;
  rewrite ?andb_false_r, ?andb_true_r, ?orb_false_r; cbn -[String.eqb]; auto.
Lemma threads_def : forall v l n, threads_sec v = Some l -> def n l =
  (n =? "OSHMPI_ENABLE_THREAD_SINGLE") && (v =? "single") ||
  (n =? "OSHMPI_ENABLE_THREAD_FUNNELED") && (v =? "funneled") ||
  (n =? "OSHMPI_ENABLE_THREAD_SERIALIZED") && (v =? "serialized") ||
  (n =? "OSHMPI_ENABLE_THREAD_MULTIPLE") && (v =? "multiple").
Proof. intros v l n H. unfold threads_sec, macro1 in H. secd H. Qed.
Lemma amo_def : forall v l n, amo_sec v = Some l -> def n l =
  (n =? "OSHMPI_ENABLE_DIRECT_AMO") && (v =? "direct") ||
  (n =? "OSHMPI_ENABLE_AM_AMO") && (v =? "am").
Proof. intros v l n H. unfold amo_sec, macro1, macro0 in H. secd H. Qed.
Lemma rma_def : forall v l n, rma_sec v = Some l -> def n l =
  (n =? "OSHMPI_ENABLE_DIRECT_RMA") && (v =? "direct") ||
  (n =? "OSHMPI_ENABLE_AM_RMA") && (v =? "am").
Proof. intros v l n H. unfold rma_sec, macro1, macro0 in H. secd H. Qed.
Lemma track_def : forall v l n, track_sec v = Some l -> def n l =
  (n =? "OSHMPI_ENABLE_OP_TRACKING") && (v =? "yes").
Proof. intros v l n H. unfold track_sec, macro1, macro0 in H. secd H. Qed.
Lemma cache_def : forall v l n, cache_sec v = Some l -> def n l =
  (n =? "OSHMPI_ENABLE_STRIDED_DTYPE_CACHE") && (v =? "yes").
Proof. intros v l n H. unfold cache_sec, macro1, macro0 in H. secd H. Qed.
Lemma async_def : forall t v l n, async_sec t v = Some l -> def n l =
  (n =? "OSHMPI_ENABLE_AM_ASYNC_THREAD") && (v =? "yes") ||
  (n =? "OSHMPI_DISABLE_AM_ASYNC_THREAD") && (v =? "no").
Proof. intros t v l n H. unfold async_sec, macro1, macro0 in H. secd H. Qed.
Lemma pkg_def : forall h t v l n, pkg_sec h t v = Some l -> def n l =
  (n =? "OSHMPI_THREAD_CS_LOCK") && (t =? "multiple").
Proof. intros h t v l n H. unfold pkg_sec, macro1, macro0 in H. secd H. Qed.
Lemma pkg_value : forall h t v l, pkg_sec h t v = Some l -> def "OSHMPI_THREAD_CS_LOCK" l = true ->
  value "OSHMPI_THREAD_CS_LOCK" l = "OSHMPI_THREAD_CS_LOCK__PTHREAD_MUTEX".
Proof. intros h t v l H D. unfold pkg_sec, macro1, macro0 in H. sec H; auto; discriminate D. Qed.
Lemma win_def : forall v l n, win_sec v = Some l -> def n l =
  (n =? "OSHMPI_ENABLE_DYNAMIC_WIN") && (v =? "dynamic_win").
Proof. intros v l n H. unfold win_sec, macro1, macro0 in H. secd H. Qed.
Lemma cuda_def : forall h v l n, cuda_sec h v = Some l -> def n l =
  (n =? "OSHMPI_ENABLE_CUDA") && (v =? "yes").
Proof. intros h v l n H. unfold cuda_sec, macro1, macro0 in H. secd H. Qed.
Lemma ze_def : forall h v l n, ze_sec h v = Some l -> def n l =
  (n =? "OSHMPI_ENABLE_ZE") && (v =? "yes").
Proof. intros h v l n H. unfold ze_sec, macro1, macro0 in H. secd H. Qed.

(** The macros of a configuration. *)
Lemma configure_inv : forall h o ms, configure h o = Some ms ->
  exists l1 l2 l3 l4 l5 l6 l7 l8 l9 l10 l11 l12,
  fast_sec (v_fast o) = Some l1 /\ g_sec (v_fast o) (given "no" (o_g o)) = Some l2 /\
  threads_sec (v_threads o) = Some l3 /\ amo_sec (given "auto" (o_amo o)) = Some l4 /\
  rma_sec (given "auto" (o_rma o)) = Some l5 /\ track_sec (given "yes" (o_track o)) = Some l6 /\
  cache_sec (given "yes" (o_cache o)) = Some l7 /\
  async_sec (v_threads o) (given "no" (o_async o)) = Some l8 /\
  pkg_sec h (v_threads o) (given "default" (o_pkg o)) = Some l9 /\
  win_sec (given "win_creates" (o_win o)) = Some l10 /\
  cuda_sec h (given "no" (o_cuda o)) = Some l11 /\ ze_sec h (given "no" (o_ze o)) = Some l12 /\
  ms = l1 ++ l2 ++ l3 ++ l4 ++ l5 ++ l6 ++ l7 ++ l8 ++ l9 ++ l10 ++ l11 ++ l12.
Proof.
  intros h o ms H. unfold configure in H.
  apply all_of_cons in H; destruct H as [l1 [x [H1 [H E1]]]].
  apply all_of_cons in H; destruct H as [l2 [x2 [H2 [H E2]]]].
  apply all_of_cons in H; destruct H as [l3 [x3 [H3 [H E3]]]].
  apply all_of_cons in H; destruct H as [l4 [x4 [H4 [H E4]]]].
  apply all_of_cons in H; destruct H as [l5 [x5 [H5 [H E5]]]].
  apply all_of_cons in H; destruct H as [l6 [x6 [H6 [H E6]]]].
  apply all_of_cons in H; destruct H as [l7 [x7 [H7 [H E7]]]].
  apply all_of_cons in H; destruct H as [l8 [x8 [H8 [H E8]]]].
  apply all_of_cons in H; destruct H as [l9 [x9 [H9 [H E9]]]].
  apply all_of_cons in H; destruct H as [l10 [x10 [H10 [H E10]]]].
  apply all_of_cons in H; destruct H as [l11 [x11 [H11 [H E11]]]].
  apply all_of_cons in H; destruct H as [l12 [x12 [H12 [H E12]]]].
  simpl in H. inversion H. subst.
  exists l1, l2, l3, l4, l5, l6, l7, l8, l9, l10, l11, l12.
  rewrite app_nil_r. repeat (split; [assumption|]). reflexivity.
Qed.

(** Every question the sources ask of the macros, answered by the options. *)
Record answers (o : opts) (ms : list macro) : Prop := {
  an_opts : def "OSHMPI_FAST_OPTS" ms = negb (f_opts (fast_of (v_fast o)) =? "");
  an_val : value "OSHMPI_FAST_OPTS" ms = f_opts (fast_of (v_fast o));
  an_nd : def "OSHMPI_DISABLE_DEBUG" ms = f_ndebug (fast_of (v_fast o));
  an_ne : def "OSHMPI_DISABLE_ERROR_CHECKING" ms = f_ndebug (fast_of (v_fast o));
  an_ipo : def "OSHMPI_ENABLE_IPO" ms = f_ipo (fast_of (v_fast o));
  an_ipo2 : def "-ipo" ms = f_ipo (fast_of (v_fast o));
  an_g : def "-g" ms = (v_fast o =? "no") && (given "no" (o_g o) =? "yes");
  an_s : def "OSHMPI_ENABLE_THREAD_SINGLE" ms = (v_threads o =? "single");
  an_f : def "OSHMPI_ENABLE_THREAD_FUNNELED" ms = (v_threads o =? "funneled");
  an_z : def "OSHMPI_ENABLE_THREAD_SERIALIZED" ms = (v_threads o =? "serialized");
  an_m : def "OSHMPI_ENABLE_THREAD_MULTIPLE" ms = (v_threads o =? "multiple");
  an_da : def "OSHMPI_ENABLE_DIRECT_AMO" ms = (given "auto" (o_amo o) =? "direct");
  an_aa : def "OSHMPI_ENABLE_AM_AMO" ms = (given "auto" (o_amo o) =? "am");
  an_dr : def "OSHMPI_ENABLE_DIRECT_RMA" ms = (given "auto" (o_rma o) =? "direct");
  an_ar : def "OSHMPI_ENABLE_AM_RMA" ms = (given "auto" (o_rma o) =? "am");
  an_t : def "OSHMPI_ENABLE_OP_TRACKING" ms = (given "yes" (o_track o) =? "yes");
  an_c : def "OSHMPI_ENABLE_STRIDED_DTYPE_CACHE" ms = (given "yes" (o_cache o) =? "yes");
  an_ya : def "OSHMPI_ENABLE_AM_ASYNC_THREAD" ms = (given "no" (o_async o) =? "yes");
  an_na : def "OSHMPI_DISABLE_AM_ASYNC_THREAD" ms = (given "no" (o_async o) =? "no");
  an_l : def "OSHMPI_THREAD_CS_LOCK" ms = (v_threads o =? "multiple");
  an_lv : v_threads o = "multiple" ->
          value "OSHMPI_THREAD_CS_LOCK" ms = "OSHMPI_THREAD_CS_LOCK__PTHREAD_MUTEX";
  an_w : def "OSHMPI_ENABLE_DYNAMIC_WIN" ms = (given "win_creates" (o_win o) =? "dynamic_win");
  an_cu : def "OSHMPI_ENABLE_CUDA" ms = (given "no" (o_cuda o) =? "yes");
  an_ze : def "OSHMPI_ENABLE_ZE" ms = (given "no" (o_ze o) =? "yes")
}.
Ltac closed := repeat match goal with |- context [?a =? ?b] =>
    match a with
    | String _ _ => match b with String _ _ =>
        let x := eval vm_compute in (a =? b) in change (a =? b) with x end
    end end.
Lemma configure_answers : forall h o ms, configure h o = Some ms -> answers o ms.
Proof.
  intros h o ms H. apply configure_inv in H.
  destruct H as (l1 & l2 & l3 & l4 & l5 & l6 & l7 & l8 & l9 & l10 & l11 & l12 &
    H1 & H2 & H3 & H4 & H5 & H6 & H7 & H8 & H9 & H10 & H11 & H12 & E).
  assert (D : forall n, def n ms =
    ((n =? "OSHMPI_FAST_OPTS") && negb (f_opts (fast_of (v_fast o)) =? "") ||
     ((n =? "OSHMPI_DISABLE_DEBUG") || (n =? "OSHMPI_DISABLE_ERROR_CHECKING")) &&
       f_ndebug (fast_of (v_fast o)) ||
     ((n =? "OSHMPI_ENABLE_IPO") || (n =? "-ipo")) && f_ipo (fast_of (v_fast o))) ||
    (((n =? "-g") || (n =? "OSHMPI_ENABLE_DBG")) &&
       ((v_fast o =? "no") && (given "no" (o_g o) =? "yes")) ||
    (((n =? "OSHMPI_ENABLE_THREAD_SINGLE") && (v_threads o =? "single") ||
     (n =? "OSHMPI_ENABLE_THREAD_FUNNELED") && (v_threads o =? "funneled") ||
     (n =? "OSHMPI_ENABLE_THREAD_SERIALIZED") && (v_threads o =? "serialized") ||
     (n =? "OSHMPI_ENABLE_THREAD_MULTIPLE") && (v_threads o =? "multiple")) ||
    (((n =? "OSHMPI_ENABLE_DIRECT_AMO") && (given "auto" (o_amo o) =? "direct") ||
     (n =? "OSHMPI_ENABLE_AM_AMO") && (given "auto" (o_amo o) =? "am")) ||
    (((n =? "OSHMPI_ENABLE_DIRECT_RMA") && (given "auto" (o_rma o) =? "direct") ||
     (n =? "OSHMPI_ENABLE_AM_RMA") && (given "auto" (o_rma o) =? "am")) ||
    ((n =? "OSHMPI_ENABLE_OP_TRACKING") && (given "yes" (o_track o) =? "yes") ||
    ((n =? "OSHMPI_ENABLE_STRIDED_DTYPE_CACHE") && (given "yes" (o_cache o) =? "yes") ||
    (((n =? "OSHMPI_ENABLE_AM_ASYNC_THREAD") && (given "no" (o_async o) =? "yes") ||
     (n =? "OSHMPI_DISABLE_AM_ASYNC_THREAD") && (given "no" (o_async o) =? "no")) ||
    ((n =? "OSHMPI_THREAD_CS_LOCK") && (v_threads o =? "multiple") ||
    ((n =? "OSHMPI_ENABLE_DYNAMIC_WIN") && (given "win_creates" (o_win o) =? "dynamic_win") ||
    ((n =? "OSHMPI_ENABLE_CUDA") && (given "no" (o_cuda o) =? "yes") ||
     (n =? "OSHMPI_ENABLE_ZE") && (given "no" (o_ze o) =? "yes")))))))))))).
  { intro n. subst ms. rewrite !def_app.
    rewrite (fast_def _ _ n H1), (g_def _ _ _ n H2), (threads_def _ _ n H3), (amo_def _ _ n H4),
      (rma_def _ _ n H5), (track_def _ _ n H6), (cache_def _ _ n H7), (async_def _ _ _ n H8),
      (pkg_def _ _ _ _ n H9), (win_def _ _ n H10), (cuda_def _ _ _ n H11), (ze_def _ _ _ n H12).
    reflexivity. }
  constructor;
    try (rewrite D; closed; rewrite ?orb_true_l, ?andb_false_l, ?andb_true_l, ?orb_false_l, ?orb_false_r;
         reflexivity).
  - subst ms. rewrite value_app. destruct (def "OSHMPI_FAST_OPTS" l1) eqn:F.
    + apply fast_value. exact H1.
    + pose proof (fast_value _ _ H1) as V.
      rewrite (fast_def _ _ "OSHMPI_FAST_OPTS" H1) in F. revert F. closed.
      rewrite ?orb_true_l, ?andb_false_l, ?andb_true_l, ?orb_false_l, ?orb_false_r. intro F.
      destruct (f_opts (fast_of (v_fast o)) =? "") eqn:G; [|discriminate F].
      apply String.eqb_eq in G. rewrite G.
      assert (N : forall l, def "OSHMPI_FAST_OPTS" l = false -> value "OSHMPI_FAST_OPTS" l = "").
      { induction l as [|m l IH]; intro Q; auto. cbn -[String.eqb] in *.
        destruct ("OSHMPI_FAST_OPTS" =? fst m); [discriminate Q|]. apply IH. exact Q. }
      apply N. rewrite !def_app.
      rewrite (g_def _ _ _ _ H2), (threads_def _ _ _ H3), (amo_def _ _ _ H4),
      (rma_def _ _ _ H5), (track_def _ _ _ H6), (cache_def _ _ _ H7), (async_def _ _ _ _ H8),
      (pkg_def _ _ _ _ _ H9), (win_def _ _ _ H10), (cuda_def _ _ _ _ H11), (ze_def _ _ _ _ H12).
      closed. rewrite ?andb_false_l. reflexivity.
  - intro M. subst ms. rewrite !value_app.
    rewrite (fast_def _ _ _ H1), (g_def _ _ _ _ H2), (threads_def _ _ _ H3), (amo_def _ _ _ H4),
      (rma_def _ _ _ H5), (track_def _ _ _ H6), (cache_def _ _ _ H7), (async_def _ _ _ _ H8).
    closed. rewrite ?andb_false_l. cbn [orb andb].
    pose proof (pkg_def _ _ _ _ "OSHMPI_THREAD_CS_LOCK" H9) as P. rewrite M in P.
    rewrite P. closed. cbn [orb andb]. eapply pkg_value; eauto.
Qed.

(** The values accepted. *)
Lemma all_of_some : forall l, (exists ms, all_of l = Some ms) <-> Forall (fun x => x <> None) l.
Proof.
  induction l as [|x r IH]; simpl.
  - split; eauto.
  - split.
    + intros [ms H]. destruct x as [a|]; [|discriminate]. destruct (all_of r) as [b|] eqn:E; [|discriminate].
      constructor; [discriminate|]. apply IH. eauto.
    + intro F. inversion F as [|y z A B]. subst. apply IH in B. destruct B as [b B]. rewrite B.
      destruct x as [a|]; [eauto|contradiction A; reflexivity].
Qed.
Lemma threads_ok : forall v, threads_sec v <> None <-> listed v threads_doc.
Proof.
  intro v. unfold threads_sec, macro1, listed, threads_doc. split.
  - intro H. destruct (v =? "single") eqn:A; [|destruct (v =? "funneled") eqn:B;
      [|destruct (v =? "serialized") eqn:C; [|destruct (v =? "multiple") eqn:D; [|congruence]]]];
      neqs; eexists; simpl; eauto 10.
  - intros [a H]. simpl in H.
    repeat (destruct H as [H|H]; [inversion H; subst; discriminate|]). destruct H.
Qed.
Lemma amo_ok : forall v, amo_sec v <> None <-> listed v method_doc.
Proof.
  intro v. unfold amo_sec, macro1, macro0, listed, method_doc. split.
  - intro H. destruct (v =? "direct") eqn:A; [|destruct (v =? "am") eqn:B;
      [|destruct (v =? "auto") eqn:C; [|congruence]]]; neqs; eexists; simpl; eauto 10.
  - intros [a H]. simpl in H.
    repeat (destruct H as [H|H]; [inversion H; subst; discriminate|]). destruct H.
Qed.
Lemma rma_ok : forall v, rma_sec v <> None <-> listed v method_doc.
Proof.
  intro v. unfold rma_sec, macro1, macro0, listed, method_doc. split.
  - intro H. destruct (v =? "direct") eqn:A; [|destruct (v =? "am") eqn:B;
      [|destruct (v =? "auto") eqn:C; [|congruence]]]; neqs; eexists; simpl; eauto 10.
  - intros [a H]. simpl in H.
    repeat (destruct H as [H|H]; [inversion H; subst; discriminate|]). destruct H.
Qed.
Lemma async_ok : forall t v, async_sec t v <> None <->
  listed v async_doc /\ (v <> "no" -> t = "multiple").
Proof.
  intros t v. unfold async_sec, macro1, macro0, listed, async_doc. split.
  - intro H. destruct (v =? "no") eqn:A.
    + neqs. split; [eexists; simpl; eauto 10|congruence].
    + destruct (t =? "multiple") eqn:M; [|congruence]. apply String.eqb_eq in M.
      split; auto. destruct (v =? "yes") eqn:B; [|destruct (v =? "auto") eqn:C; [|congruence]];
        neqs; eexists; simpl; eauto 10.
  - intros [[a H] T]. simpl in H.
    destruct H as [H|[H|[H|[]]]]; inversion H; subst; try discriminate;
      rewrite (T ltac:(discriminate)); discriminate.
Qed.
Lemma win_ok : forall v, win_sec v <> None <-> listed v win_doc.
Proof.
  intro v. unfold win_sec, macro1, macro0, listed, win_doc. split.
  - intro H. destruct (v =? "dynamic_win") eqn:A; [|destruct (v =? "win_creates") eqn:B; [|congruence]];
      neqs; eexists; simpl; eauto 10.
  - intros [a H]. simpl in H.
    repeat (destruct H as [H|H]; [inversion H; subst; discriminate|]). destruct H.
Qed.
Lemma pkg_ok : forall h t v, pkg_sec h t v <> None <->
  (t = "multiple" -> h_opa h = true /\ (h_lpthread h = true -> h_mutex h = true)) /\
  (t = "multiple" -> In v ["default"; "posix"; "pthreads"]).
Proof.
  intros h t v. unfold pkg_sec, macro0. destruct (t =? "multiple") eqn:T.
  - apply String.eqb_eq in T. split.
    + intro H. destruct (h_opa h); [|congruence].
      destruct (v =? "default") eqn:A; [|destruct (v =? "posix") eqn:B;
        [|destruct (v =? "pthreads") eqn:C; [|simpl in H; congruence]]];
      neqs; simpl in H; (split; [intros _; split; auto;
        destruct (h_lpthread h), (h_mutex h); simpl in H; congruence|intros _; simpl; auto]).
    + intros [P Q]. destruct (P T) as [P1 P2]. rewrite P1.
      assert (L : h_lpthread h && negb (h_mutex h) = false).
      { destruct (h_lpthread h); simpl; auto. rewrite P2; auto. }
      rewrite L. specialize (Q T). simpl in Q.
      destruct Q as [Q|[Q|[Q|[]]]]; subst v; discriminate.
  - apply String.eqb_neq in T. split; intros; [split; intro; contradiction|discriminate].
Qed.
Lemma dev_ok : forall (b : bool) n v,
  (if v =? "yes" then if b then macro1 n else None else macro0) <> None <-> (v = "yes" -> b = true).
Proof.
  intros b n v. destruct (v =? "yes") eqn:E.
  - apply String.eqb_eq in E. destruct b; split; intro H.
    + intros _. reflexivity.
    + discriminate.
    + exfalso. apply H. reflexivity.
    + specialize (H E). discriminate.
  - apply String.eqb_neq in E. split; intros; [contradiction|discriminate].
Qed.
Lemma track_ok : forall v, track_sec v <> None.
Proof. intro v. unfold track_sec. destruct (v =? "yes"); discriminate. Qed.
Lemma cache_ok : forall v, cache_sec v <> None.
Proof. intro v. unfold cache_sec. destruct (v =? "yes"); discriminate. Qed.
Lemma g_ok : forall f v, g_sec f v <> None.
Proof. intros f v. unfold g_sec. destruct (f =? "no"), (v =? "yes"); discriminate. Qed.

Lemma configure_accepts : forall h o,
  (exists ms, configure h o = Some ms) <-> accepted o /\ possible h o.
Proof.
  intros h o. unfold configure. rewrite all_of_some.
  change (given "no" (o_cuda o)) with (asked "no" (o_cuda o)).
  change (given "no" (o_ze o)) with (asked "no" (o_ze o)).
  split.
  - intro F.
    repeat match goal with H : Forall _ (_ :: _) |- _ =>
      apply Forall_cons_iff in H; let A := fresh "A" in destruct H as [A H] end.
    apply threads_ok in A1. apply amo_ok in A2. apply rma_ok in A3. apply async_ok in A6.
    apply pkg_ok in A7. apply win_ok in A8.
    pose proof (proj1 (dev_ok _ _ _) A9) as A9'. pose proof (proj1 (dev_ok _ _ _) A10) as A10'.
    destruct A6 as [A6 A6']. destruct A7 as [A7 A7'].
    split.
    + unfold accepted.
      split; [exact A1|]. split; [exact A2|]. split; [exact A3|]. split; [exact A6|].
      split; [exact A8|]. split; [exact A6'|exact A7'].
    + unfold possible. split; [exact A7|]. split; [exact A9'|exact A10'].
  - intros [(B1 & B2 & B3 & B4 & B5 & B6 & B7) (P1 & P2 & P3)].
    apply Forall_cons; [discriminate|]. apply Forall_cons; [apply g_ok|].
    apply Forall_cons; [apply threads_ok; exact B1|].
    apply Forall_cons; [apply amo_ok; exact B2|].
    apply Forall_cons; [apply rma_ok; exact B3|].
    apply Forall_cons; [apply track_ok|]. apply Forall_cons; [apply cache_ok|].
    apply Forall_cons; [apply async_ok; split; [exact B4|exact B6]|].
    apply Forall_cons; [apply pkg_ok; split; [exact P1|exact B7]|].
    apply Forall_cons; [apply win_ok; exact B5|].
    apply Forall_cons; [apply dev_ok; exact P2|].
    apply Forall_cons; [apply dev_ok; exact P3|]. constructor.
Qed.

(** What the sources choose. *)
Lemma configure_choices : forall h o ms, configure h o = Some ms ->
  In (asked "multiple" (o_threads o), build_of ms) threads_doc /\
  In (asked "auto" (o_amo o), amo_of ms) method_doc /\
  In (asked "auto" (o_rma o), rma_of ms) method_doc /\
  In (asked "no" (o_async o), async_of ms) async_doc /\
  In (asked "win_creates" (o_win o), dynamic_of ms) win_doc /\
  (track_of ms = true <-> asked "yes" (o_track o) = "yes") /\
  (cache_of ms = true <-> asked "yes" (o_cache o) = "yes") /\
  (def "OSHMPI_ENABLE_CUDA" ms = true <-> asked "no" (o_cuda o) = "yes") /\
  (def "OSHMPI_ENABLE_ZE" ms = true <-> asked "no" (o_ze o) = "yes").
Proof.
  intros h o ms H. pose proof (configure_answers _ _ _ H) as A.
  assert (X : accepted o) by (apply (configure_accepts h); eauto).
  destruct X as (B1 & B2 & B3 & B4 & B5 & B6 & B7).
  unfold build_of, amo_of, rma_of, async_of, dynamic_of, track_of, cache_of.
  rewrite (an_s _ _ A), (an_f _ _ A), (an_z _ _ A), (an_da _ _ A), (an_aa _ _ A), (an_dr _ _ A),
    (an_ar _ _ A), (an_ya _ _ A), (an_na _ _ A), (an_w _ _ A), (an_t _ _ A), (an_c _ _ A),
    (an_cu _ _ A), (an_ze _ _ A).
  unfold v_threads. change given with asked.
  repeat split; try (apply String.eqb_eq); auto.
  - destruct B1 as [a B1]. simpl in B1. repeat (destruct B1 as [B1|B1]; [inversion B1; simpl; auto 10|]). destruct B1.
  - destruct B2 as [a B2]. simpl in B2. repeat (destruct B2 as [B2|B2]; [inversion B2; simpl; auto 10|]). destruct B2.
  - destruct B3 as [a B3]. simpl in B3. repeat (destruct B3 as [B3|B3]; [inversion B3; simpl; auto 10|]). destruct B3.
  - destruct B4 as [a B4]. simpl in B4. repeat (destruct B4 as [B4|B4]; [inversion B4; simpl; auto 10|]). destruct B4.
  - destruct B5 as [a B5]. simpl in B5. repeat (destruct B5 as [B5|B5]; [inversion B5; simpl; auto 10|]). destruct B5.
Qed.

(** Locks. *)
Lemma configure_locks : forall h o ms, configure h o = Some ms ->
  (build_of ms = BMultiple <-> mutex_of ms = true) /\
  (build_of ms = BMultiple <-> atomics_of ms = true) /\
  (async_of ms <> ANo -> build_of ms = BMultiple).
Proof.
  intros h o ms H. pose proof (configure_answers _ _ _ H) as A.
  assert (X : accepted o) by (apply (configure_accepts h); eauto).
  destruct X as (B1 & _ & _ & B4 & _ & B6 & _).
  unfold build_of, mutex_of, atomics_of, async_of.
  rewrite (an_s _ _ A), (an_f _ _ A), (an_z _ _ A), (an_m _ _ A), (an_l _ _ A), (an_ya _ _ A),
    (an_na _ _ A).
  pose proof (an_lv _ _ A) as V. unfold v_threads in *. change given with asked in *.
  destruct B1 as [a B1]. simpl in B1.
  destruct B1 as [B1|[B1|[B1|[B1|[]]]]]; inversion B1 as [[E E']]; rewrite <- E in *; simpl;
    try (split; [split; discriminate|]; split; [split; discriminate|]; intro N;
         exfalso; apply N; destruct (asked "no" (o_async o) =? "yes") eqn:Y;
         [apply String.eqb_eq in Y; rewrite Y in B6; exfalso;
          assert (Q : "yes" <> "no") by discriminate; apply B6 in Q; discriminate Q|
          destruct (asked "no" (o_async o) =? "no") eqn:Z; auto; exfalso;
          apply String.eqb_neq in Z; apply B6 in Z; discriminate Z]).
  rewrite (V eq_refl). repeat split; auto.
Qed.
Lemma locks_when_multiple : forall h o ms d b e e' w r st ret,
  configure h o = Some ms ->
  shmem_init_thread (setup_of ms d b e e') w None r = Ok (st, t_multiple, ret) ->
  enter_cs_locks ms st = true /\ atomics_of ms = true.
Proof.
  intros h o ms d b e e' w r st ret H I.
  destruct (configure_locks _ _ _ H) as (L1 & L2 & _).
  assert (B : build_of ms = BMultiple /\ st = t_multiple).
  { unfold shmem_init_thread in I.
    destruct (initialize_thread _ w r) as [l| | |] eqn:T; simpl in I; try discriminate.
    inversion I. subst. split; auto.
    unfold initialize_thread in T.
    destruct (negb _); [discriminate|].
    destruct (enable_async_thread _ && _) in T; [discriminate|].
    inversion T as [T1]. clear T. simpl in T1. unfold degrade, t_multiple, t_single in *.
    destruct (build_of ms); auto; exfalso; revert T1;
    repeat match goal with |- context [if ?c then _ else _] => destruct c eqn:? end; lia. }
  destruct B as [B E]. subst st. split; [|apply L2; exact B].
  unfold enter_cs_locks. pose proof (proj1 L2 B) as M. unfold atomics_of in M. rewrite M.
  rewrite (proj1 L1 B). reflexivity.
Qed.
