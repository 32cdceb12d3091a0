(** Property theorems C27, C42-C44, C55 and C66 (completion and order of operations). *)
From Verif Require Import Base AmCfgModel OrderModel OrderSpec OrderProofs OrderProofs2 OrderProofs3.

(** Results of concrete runs. *)
Definition log_of {S E : Type} (x : outcome (S * list E)) : list E := match x with Ok (_, l) => l | _ => [] end.
Definition st_of {S E : Type} (d : S) (x : outcome (S * list E)) : S := match x with Ok (s, _) => s | _ => d end.
Definition go (i : Z) (n : nat) : list olab := repeat (OGo i true) n.

(** Builds: everything on MPI one-sided communication, heap and data windows; with tracking or not. *)
Definition cfg (track : bool) : oconf := mkOconf 3 false track true CDirect DbgAuto false false false.
(** Atomics by active message. *)
Definition cfg_am : oconf := mkOconf 3 false true false CDirect DbgAuto false false false.

(** ** C43 shmem_quiet *)

(** On a PE where one thread calls the library: shmem_quiet and shmem_fence complete every
    operation issued before, on every context, object and path, with tracking or without. *)
Theorem C43_quiet_one_thread_partial : forall c ls s log,
  one_thread ls -> orun c o_init ls = Ok (s, log) ->
  completes (quiet_or_fence XDefault) (any_op c) log.
Proof. exact quiet_one_thread. Qed.
Print Assumptions C43_quiet_one_thread_partial.

(** With any number of threads, in a build without tracking: every operation that uses MPI
    one-sided communication. *)
Theorem C43_untracked_threads_partial : forall c ls s log,
  oc_track c = false -> orun c o_init ls = Ok (s, log) ->
  completes (quiet_or_fence XDefault) (any_window_op c) log.
Proof. exact quiet_untracked. Qed.
Print Assumptions C43_untracked_threads_partial.

(** A put, an AM atomic post, a get and a quiet. *)
Definition ex_quiet : list olab :=
  OCall 0 (CRma XDefault OHeap KPut 1 2 false) :: go 0 3 ++ OCall 0 (CRma XDefault OData KPost 2 1 false) :: go 0 3
  ++ OCall 0 (CRma XDefault OData KGet 3 1 false) :: go 0 3 ++ OCall 0 (CQuiet XDefault) :: go 0 20.
Example C43_nonvacuous :
  one_thread ex_quiet /\
  log_of (orun cfg_am o_init ex_quiet) =
    [EStart 0 (CRma XDefault OHeap KPut 1 2 false); ERet 0 (CRma XDefault OHeap KPut 1 2 false);
     EStart 0 (CRma XDefault OData KPost 2 1 false); ERet 0 (CRma XDefault OData KPost 2 1 false);
     EStart 0 (CRma XDefault OData KGet 3 1 false); EDone 3; ERet 0 (CRma XDefault OData KGet 3 1 false);
     EStart 0 (CQuiet XDefault); EDone 1; EDone 2; ERet 0 (CQuiet XDefault)].
Proof.
  split; [|vmr]. intros lb H. cbn in H. repeat (destruct H as [<-|H]; [cbn; auto|]). destruct H.
Qed.

(** With tracking and two threads it is false: thread 1 is in quiet, has flushed the window and has
    not yet reset the flag; thread 0 puts, sets the flag and returns; thread 1 resets the flag;
    the quiet of thread 0 then flushes nothing, and its put is still pending when it returns. *)
Definition ex_race : list olab :=
  OCall 0 (CRma XDefault OHeap KPut 1 2 false) :: go 0 3 ++
  OCall 1 (CQuiet XDefault) :: go 1 2 ++
  OCall 0 (CRma XDefault OHeap KPut 2 2 false) :: go 0 3 ++
  go 1 3 ++
  OCall 0 (CQuiet XDefault) :: go 0 3.
Theorem C43_tracking_threads_refuted : exists c ls s log,
  oc_track c = true /\ orun c o_init ls = Ok (s, log) /\ (forall k, by_window c k) /\
  ~ completes (quiet_or_fence XDefault) (any_window_op c) log /\
  In (ERet 0 (CQuiet XDefault)) log /\ o_pend s = [mkPend 2 (RWin LHeap)].
Proof.
  exists (cfg true), ex_race, (st_of o_init (orun (cfg true) o_init ex_race)), (log_of (orun (cfg true) o_init ex_race)).
  split; [reflexivity|]. split; [vm_compute; reflexivity|]. split; [intros []; reflexivity|].
  split; [|split; [vm_compute; tauto|vmr]].
  intros H.
  specialize (H
    [EStart 0 (CRma XDefault OHeap KPut 1 2 false); ERet 0 (CRma XDefault OHeap KPut 1 2 false);
     EStart 1 (CQuiet XDefault); EDone 1;
     EStart 0 (CRma XDefault OHeap KPut 2 2 false); ERet 0 (CRma XDefault OHeap KPut 2 2 false);
     ERet 1 (CQuiet XDefault)] [] [] 0 (CQuiet XDefault)).
  assert (Q : In (EDone 2) [EStart 0 (CRma XDefault OHeap KPut 1 2 false); ERet 0 (CRma XDefault OHeap KPut 1 2 false);
     EStart 1 (CQuiet XDefault); EDone 1;
     EStart 0 (CRma XDefault OHeap KPut 2 2 false); ERet 0 (CRma XDefault OHeap KPut 2 2 false);
     ERet 1 (CQuiet XDefault)]).
  { apply (H ltac:(vmr) (or_introl eq_refl) ltac:(intros c' []) 0 (CRma XDefault OHeap KPut 2 2 false) 2).
    - cbn; tauto.
    - exists XDefault, OHeap, KPut, 2, false. split; reflexivity. }
  cbn in Q. repeat (destruct Q as [Q|Q]; [discriminate|]). destruct Q.
Qed.
Print Assumptions C43_tracking_threads_refuted.

(** ** C42 shmem_ctx_quiet on a context of a space *)

(** It completes the operations of that context that use MPI one-sided communication. *)
Theorem C42_ctx_quiet_direct_partial : forall c ls s log k i,
  orun c o_init ls = Ok (s, log) -> oc_track c = false \/ one_thread ls ->
  completes (quiet_or_fence (XSpace k i)) (window_op_on c (XSpace k i)) log.
Proof. exact ctx_quiet_direct. Qed.
Print Assumptions C42_ctx_quiet_direct_partial.

Definition ex_ctx (k : rkind) : list olab :=
  OCall 0 (CCreate 7 2 false) :: go 0 2 ++ OCall 0 (CAttach 7) :: go 0 2 ++
  OCall 0 (CRma (XSpace 7 1) (OSpace 7) k 1 2 false) :: go 0 3 ++ OCall 0 (CQuiet (XSpace 7 1)) :: go 0 4.
Example C42_nonvacuous : by_window (cfg true) KPut /\
  log_of (orun (cfg true) o_init (ex_ctx KPut)) =
  [EStart 0 (CCreate 7 2 false); ERet 0 (CCreate 7 2 false); EStart 0 (CAttach 7); ERet 0 (CAttach 7);
   EStart 0 (CRma (XSpace 7 1) (OSpace 7) KPut 1 2 false); ERet 0 (CRma (XSpace 7 1) (OSpace 7) KPut 1 2 false);
   EStart 0 (CQuiet (XSpace 7 1)); EDone 1; ERet 0 (CQuiet (XSpace 7 1))].
Proof. split; vmr. Qed.

(** It is false of operations by active message: one thread, an atomic add on the context, and its
    quiet returns while the add is pending. *)
Theorem C42_ctx_quiet_am_refuted : exists c ls s log,
  one_thread ls /\ orun c o_init ls = Ok (s, log) /\
  ~ completes (quiet_or_fence (XSpace 7 1)) (op_on c (XSpace 7 1)) log /\
  In (ERet 0 (CQuiet (XSpace 7 1))) log /\ o_pend s = [mkPend 1 (RAm 2)].
Proof.
  exists cfg_am, (ex_ctx KPost), (st_of o_init (orun cfg_am o_init (ex_ctx KPost))), (log_of (orun cfg_am o_init (ex_ctx KPost))).
  split; [intros lb H; cbn in H; repeat (destruct H as [<-|H]; [cbn; auto|]); destruct H|].
  split; [vm_compute; reflexivity|]. split; [|split; [vm_compute; tauto|vmr]].
  intros H.
  specialize (H [EStart 0 (CCreate 7 2 false); ERet 0 (CCreate 7 2 false); EStart 0 (CAttach 7); ERet 0 (CAttach 7);
   EStart 0 (CRma (XSpace 7 1) (OSpace 7) KPost 1 2 false); ERet 0 (CRma (XSpace 7 1) (OSpace 7) KPost 1 2 false)]
   [] [] 0 (CQuiet (XSpace 7 1)) ltac:(vmr) (or_introl eq_refl) ltac:(intros c' [])
   0 (CRma (XSpace 7 1) (OSpace 7) KPost 1 2 false) 1).
  assert (Q := H ltac:(cbn; tauto) ltac:(exists (OSpace 7), KPost, 2, false; cbn; split; [reflexivity|lia])).
  cbn in Q. repeat (destruct Q as [Q|Q]; [discriminate|]). destruct Q.
Qed.
Print Assumptions C42_ctx_quiet_am_refuted.

(** ** C27, C44 Barriers *)

(** For every active set, on PEs with one calling thread: when a member's k-th barrier returns,
    every member has started its k-th, and the default-context operations it had issued by then
    are complete, provided they are on the heap or static data (on any object when there is the
    dynamic window), and go to members of the set or by MPI one-sided communication. *)
Theorem C27_barrier_partial : forall c ls g log b,
  one_thread_each ls -> grun c g_init ls = Ok (g, log) -> barrier_completes b (barrier_op c b) log.
Proof. exact barrier_completes_ok. Qed.
Print Assumptions C27_barrier_partial.

(** The set of all PEs: no condition on the path. *)
Theorem C44_barrier_all_partial : forall c ls g log,
  one_thread_each ls -> grun c g_init ls = Ok (g, log) ->
  barrier_completes (world_set c)
    (fun cl id => exists o k t dev, cl = CRma XDefault o k id t dev /\ 0 <= t < oc_n c /\
       (oc_dyn c = true \/ o = OHeap \/ o = OData)) log.
Proof. exact barrier_all_ok. Qed.
Print Assumptions C44_barrier_all_partial.

Definition ggo (p : Z) (n : nat) : list glab := repeat (GGo p 0) n.
(** PEs 0 and 2 in the set {0, 2}; PE 2 puts first, PE 0 waits for it. *)
Definition ex_set : bset := mkBset 0 1 2.
Definition ex_bar : list glab :=
  GCall 0 0 (CBarrier ex_set) :: ggo 0 5 ++
  GCall 2 0 (CRma XDefault OHeap KPut 1 1 false) :: ggo 2 3 ++ GCall 2 0 (CBarrier ex_set) :: ggo 2 5 ++ ggo 0 2.
Example C27_nonvacuous : one_thread_each ex_bar /\ members ex_set = [0; 2] /\
  log_of (grun (cfg true) g_init ex_bar) =
  [(0, EStart 0 (CBarrier ex_set)); (2, EStart 0 (CRma XDefault OHeap KPut 1 1 false));
   (2, ERet 0 (CRma XDefault OHeap KPut 1 1 false)); (2, EStart 0 (CBarrier ex_set)); (2, EDone 1);
   (2, ERet 0 (CBarrier ex_set)); (0, ERet 0 (CBarrier ex_set))].
Proof.
  split; [|split; vmr]. intros lb H. cbn in H. repeat (destruct H as [<-|H]; [cbn; auto|]). destruct H.
Qed.

(** An atomic add by active message to a PE outside the set is pending when the barrier returns. *)
Definition ex_bar_am : list glab :=
  GCall 0 0 (CRma XDefault OHeap KPost 1 1 false) :: ggo 0 3 ++
  GCall 0 0 (CBarrier ex_set) :: ggo 0 5 ++ GCall 2 0 (CBarrier ex_set) :: ggo 2 7 ++ ggo 0 3.
Theorem C27_barrier_am_refuted : exists c ls g log b,
  one_thread_each ls /\ grun c g_init ls = Ok (g, log) /\
  ~ barrier_completes b (default_op c) log /\
  In (0, ERet 0 (CBarrier b)) log /\ o_pend (g 0) = [mkPend 1 (RAm 1)].
Proof.
  exists cfg_am, ex_bar_am, (st_of g_init (grun cfg_am g_init ex_bar_am)), (log_of (grun cfg_am g_init ex_bar_am)), ex_set.
  split; [intros lb H; cbn in H; repeat (destruct H as [<-|H]; [cbn; auto|]); destruct H|].
  split; [vm_compute; reflexivity|]. split; [|split; [vm_compute; tauto|vmr]].
  intros H.
  destruct (H [(0, EStart 0 (CRma XDefault OHeap KPost 1 1 false)); (0, ERet 0 (CRma XDefault OHeap KPost 1 1 false));
    (0, EStart 0 (CBarrier ex_set)); (2, EStart 0 (CBarrier ex_set)); (2, ERet 0 (CBarrier ex_set))]
    0 0 [] ltac:(vmr) 0 ltac:(vm_compute; tauto)) as [_ Q].
  assert (Q1 := Q [(0, EStart 0 (CRma XDefault OHeap KPost 1 1 false)); (0, ERet 0 (CRma XDefault OHeap KPost 1 1 false))]
    0 [(2, EStart 0 (CBarrier ex_set)); (2, ERet 0 (CBarrier ex_set))] eq_refl ltac:(vmr)
    0 (CRma XDefault OHeap KPost 1 1 false) 1 ltac:(cbn; tauto)
    ltac:(exists OHeap, KPost, 1, false; cbn; split; [reflexivity|lia])).
  cbn in Q1. repeat (destruct Q1 as [Q1|Q1]; [discriminate|]). destruct Q1.
Qed.
Print Assumptions C27_barrier_am_refuted.

(** A put to memory of a space, with separate windows, is pending when shmem_barrier_all returns. *)
Definition w3 : bset := mkBset 0 0 3.
Definition ex_bar_space : list glab :=
  GCall 0 0 (CCreate 7 0 false) :: ggo 0 2 ++ GCall 0 0 (CAttach 7) :: ggo 0 2 ++
  GCall 0 0 (CRma XDefault (OSpace 7) KPut 1 1 false) :: ggo 0 3 ++
  GCall 0 0 (CBarrier w3) :: ggo 0 3 ++ GCall 1 0 (CBarrier w3) :: ggo 1 3 ++
  GCall 2 0 (CBarrier w3) :: ggo 2 3 ++ ggo 0 2.
Theorem C44_barrier_all_space_refuted : exists c ls g log,
  one_thread_each ls /\ grun c g_init ls = Ok (g, log) /\ (forall k, by_window c k) /\
  ~ barrier_completes (world_set c) (default_op c) log /\
  In (0, ERet 0 (CBarrier (world_set c))) log /\ o_pend (g 0) = [mkPend 1 (RWin (LDef 7))].
Proof.
  exists (cfg true), ex_bar_space, (st_of g_init (grun (cfg true) g_init ex_bar_space)),
    (log_of (grun (cfg true) g_init ex_bar_space)).
  split; [intros lb H; cbn in H; repeat (destruct H as [<-|H]; [cbn; auto|]); destruct H|].
  split; [vm_compute; reflexivity|]. split; [intros []; reflexivity|]. split; [|split; [vm_compute; tauto|vmr]].
  intros H.
  set (pre := [(0, EStart 0 (CCreate 7 0 false)); (0, ERet 0 (CCreate 7 0 false)); (0, EStart 0 (CAttach 7)); (0, ERet 0 (CAttach 7));
    (0, EStart 0 (CRma XDefault (OSpace 7) KPut 1 1 false)); (0, ERet 0 (CRma XDefault (OSpace 7) KPut 1 1 false))]).
  set (post := [(1, EStart 0 (CBarrier w3)); (2, EStart 0 (CBarrier w3))]).
  destruct (H (pre ++ (0, EStart 0 (CBarrier w3)) :: post) 0 0 [] ltac:(vmr) 0 ltac:(vm_compute; tauto)) as [_ Q].
  assert (Q1 := Q pre 0 post eq_refl ltac:(vmr)
    0 (CRma XDefault (OSpace 7) KPut 1 1 false) 1 ltac:(cbn; tauto)
    ltac:(exists (OSpace 7), KPut, 1, false; cbn; split; [reflexivity|lia])).
  cbn in Q1. repeat (destruct Q1 as [Q1|Q1]; [discriminate|]). destruct Q1.
Qed.
Print Assumptions C44_barrier_all_space_refuted.

(** ** C55 Spaces that are not attached *)

(** Where every space is attached, or has no contexts and either shares the dynamic window or was
    never attached in a build with tracking, quiet and fence return. *)
Theorem C55_quiet_returns_partial : forall c ls s log i x,
  orun c o_init ls = Ok (s, log) -> o_thr s i = None ->
  (forall sp, In sp (o_spaces s) -> quiet_safe c log sp) -> quiet_or_fence XDefault x ->
  exists n s' log', orun c s (OCall i x :: repeat (OGo i true) n) = Ok (s', log') /\
    o_thr s' i = None /\ In (ERet i x) log'.
Proof. exact quiet_returns. Qed.
Print Assumptions C55_quiet_returns_partial.

Definition ex_two : list olab :=
  OCall 0 (CCreate 7 2 false) :: go 0 2 ++ OCall 0 (CAttach 7) :: go 0 2 ++ OCall 0 (CCreate 8 0 true) :: go 0 2 ++
  OCall 0 (CRma XDefault (OSpace 7) KPut 1 2 false) :: go 0 3.
Definition ex_two_st : ost := st_of o_init (orun (cfg true) o_init ex_two).
Definition ex_two_log : list oev := log_of (orun (cfg true) o_init ex_two).
Example C55_nonvacuous :
  o_spaces ex_two_st = [mkOsp 7 2 false true; mkOsp 8 0 true false] /\ o_thr ex_two_st 0 = None /\
  forall sp, In sp (o_spaces ex_two_st) -> quiet_safe (cfg true) ex_two_log sp.
Proof.
  assert (E : o_spaces ex_two_st = [mkOsp 7 2 false true; mkOsp 8 0 true false]) by vmr.
  assert (L : ex_two_log = [EStart 0 (CCreate 7 2 false); ERet 0 (CCreate 7 2 false); EStart 0 (CAttach 7); ERet 0 (CAttach 7);
    EStart 0 (CCreate 8 0 true); ERet 0 (CCreate 8 0 true);
    EStart 0 (CRma XDefault (OSpace 7) KPut 1 2 false); ERet 0 (CRma XDefault (OSpace 7) KPut 1 2 false)]) by vmr.
  rewrite E, L. split; [reflexivity|]. split; [vmr|]. intros sp [<-|[<-|[]]]; [left; reflexivity|].
  right. split; [cbn; lia|]. right. split; [reflexivity|]. intros i H. cbn in H.
  repeat (destruct H as [H|H]; [discriminate|]). destruct H.
Qed.

(** Elsewhere it goes wrong: after shmemx_space_create of a space with contexts, shmem_quiet reads
    through a NULL ctx_list, in every build. *)
Theorem C55_quiet_created_refuted : forall c, exists ls s log,
  one_thread ls /\ orun c o_init ls = Ok (s, log) /\ log = [EStart 0 (CCreate 7 2 false); ERet 0 (CCreate 7 2 false)] /\
  orun c s [OCall 0 (CQuiet XDefault)] = UB.
Proof.
  intros c. exists (OCall 0 (CCreate 7 2 false) :: go 0 2). eexists _, _.
  split; [intros lb H; cbn in H; repeat (destruct H as [<-|H]; [cbn; auto|]); destruct H|].
  split; [cbn; reflexivity|]. split; reflexivity.
Qed.
Print Assumptions C55_quiet_created_refuted.

(** Without contexts, separate windows, no tracking: shmem_quiet flushes MPI_WIN_NULL. *)
Theorem C55_quiet_untracked_refuted : exists c ls s log,
  one_thread ls /\ orun c o_init ls = Ok (s, log) /\ log = [EStart 0 (CCreate 7 0 false); ERet 0 (CCreate 7 0 false)] /\
  orun c s (OCall 0 (CQuiet XDefault) :: go 0 10) = Abort.
Proof.
  exists (cfg false), (OCall 0 (CCreate 7 0 false) :: go 0 2). eexists _, _.
  split; [intros lb H; cbn in H; repeat (destruct H as [<-|H]; [cbn; auto|]); destruct H|].
  split; [cbn; reflexivity|]. split; [reflexivity|vm_compute; reflexivity].
Qed.
Print Assumptions C55_quiet_untracked_refuted.

(** With tracking, after a put, quietless detach: the flag is left set and the next shmem_quiet
    flushes the window that detach has freed. *)
Definition ex_detach : list olab :=
  OCall 0 (CCreate 7 0 false) :: go 0 2 ++ OCall 0 (CAttach 7) :: go 0 2 ++
  OCall 0 (CRma XDefault (OSpace 7) KPut 1 2 false) :: go 0 3 ++ OCall 0 (CDetach 7) :: go 0 2.
Theorem C55_quiet_detached_refuted : exists c ls s log,
  oc_track c = true /\ one_thread ls /\ orun c o_init ls = Ok (s, log) /\ o_thr s 0 = None /\ o_pend s = [] /\
  orun c s (OCall 0 (CQuiet XDefault) :: go 0 10) = Abort.
Proof.
  exists (cfg true), ex_detach, (st_of o_init (orun (cfg true) o_init ex_detach)), (log_of (orun (cfg true) o_init ex_detach)).
  split; [reflexivity|].
  split; [intros lb H; cbn in H; repeat (destruct H as [<-|H]; [cbn; auto|]); destruct H|].
  split; [vm_compute; reflexivity|]. split; [vmr|]. split; vmr.
Qed.
Print Assumptions C55_quiet_detached_refuted.

(** ** C66 shmem_fence *)

(** On a PE with one calling thread, an operation that starts after a fence has returned is
    complete only after all those issued before the fence, whatever their targets, contexts and
    paths. *)
Theorem C66_fence_orders_partial : forall c ls s log,
  one_thread ls -> orun c o_init ls = Ok (s, log) -> fence_orders c log.
Proof. exact fence_order_ok. Qed.
Print Assumptions C66_fence_orders_partial.

(** With any number of threads, in a build without tracking: operations by MPI one-sided communication issued before the fence
    are complete before any operation that starts after it. *)
Theorem C66_untracked_threads_partial : forall c ls s log,
  oc_track c = false -> orun c o_init ls = Ok (s, log) -> fence_orders_for (any_window_op c) log.
Proof. intros c ls s log T R. eapply fence_order_for; [eapply quiet_untracked; eauto|exact R]. Qed.
Print Assumptions C66_untracked_threads_partial.

(** With tracking and two threads it is false: thread 1 resets the flag after the put of thread 0, the fence of thread 0 flushes
    nothing, and its next put is complete before the first. *)
Definition ex_fence_race : list olab :=
  OCall 0 (CRma XDefault OHeap KPut 1 2 false) :: go 0 3 ++
  OCall 1 (CQuiet XDefault) :: go 1 2 ++
  OCall 0 (CRma XDefault OHeap KPut 2 2 false) :: go 0 3 ++
  go 1 3 ++
  OCall 0 (CFence XDefault) :: go 0 3 ++
  OCall 0 (CRma XDefault OHeap KPut 3 2 false) :: go 0 3 ++ [ONet 3].
Theorem C66_threads_refuted : exists c ls s log,
  oc_track c = true /\ orun c o_init ls = Ok (s, log) /\ ~ fence_orders_for (any_window_op c) log /\ In (EDone 3) log /\ ~ In (EDone 2) log.
Proof.
  exists (cfg true), ex_fence_race, (st_of o_init (orun (cfg true) o_init ex_fence_race)), (log_of (orun (cfg true) o_init ex_fence_race)).
  split; [reflexivity|]. split; [vm_compute; reflexivity|].
  assert (N2 : ~ In (EDone 2) (log_of (orun (cfg true) o_init ex_fence_race))) by (vm_compute; intuition discriminate).
  split; [|split; [vm_compute; tauto|exact N2]].
  intros H. apply N2.
  specialize (H
    [EStart 0 (CRma XDefault OHeap KPut 1 2 false); ERet 0 (CRma XDefault OHeap KPut 1 2 false);
     EStart 1 (CQuiet XDefault); EDone 1;
     EStart 0 (CRma XDefault OHeap KPut 2 2 false); ERet 0 (CRma XDefault OHeap KPut 2 2 false);
     ERet 1 (CQuiet XDefault)] []
    [EStart 0 (CRma XDefault OHeap KPut 3 2 false); ERet 0 (CRma XDefault OHeap KPut 3 2 false); EDone 3] 0 (CFence XDefault)
    ltac:(vmr) eq_refl ltac:(intros c' []) 0 (CRma XDefault OHeap KPut 2 2 false) 2 ltac:(cbn; tauto)
    ltac:(exists XDefault, OHeap, KPut, 2, false; split; reflexivity)
    [EStart 0 (CRma XDefault OHeap KPut 1 2 false); ERet 0 (CRma XDefault OHeap KPut 1 2 false);
     EStart 1 (CQuiet XDefault); EDone 1;
     EStart 0 (CRma XDefault OHeap KPut 2 2 false); ERet 0 (CRma XDefault OHeap KPut 2 2 false);
     ERet 1 (CQuiet XDefault); EStart 0 (CFence XDefault); ERet 0 (CFence XDefault);
     EStart 0 (CRma XDefault OHeap KPut 3 2 false); ERet 0 (CRma XDefault OHeap KPut 3 2 false)] [] 3 ltac:(vmr)).
  assert (Q := H ltac:(intros j' x o k t dev Hi; cbn in Hi; repeat (destruct Hi as [Hi|Hi]; [discriminate|]); destruct Hi)).
  clear H. exfalso. cbn in Q. repeat (destruct Q as [Q|Q]; [discriminate|]). destruct Q.
Qed.
Print Assumptions C66_threads_refuted.

Definition ex_fence : list olab :=
  OCall 0 (CRma XDefault OHeap KPutNbi 1 2 false) :: go 0 3 ++ OCall 0 (CFence XDefault) :: go 0 20 ++
  OCall 0 (CRma XDefault OHeap KPut 2 2 false) :: go 0 3 ++ [ONet 2].
Example C66_nonvacuous : one_thread ex_fence /\
  log_of (orun cfg_am o_init ex_fence) =
    [EStart 0 (CRma XDefault OHeap KPutNbi 1 2 false); ERet 0 (CRma XDefault OHeap KPutNbi 1 2 false);
     EStart 0 (CFence XDefault); EDone 1; ERet 0 (CFence XDefault);
     EStart 0 (CRma XDefault OHeap KPut 2 2 false); ERet 0 (CRma XDefault OHeap KPut 2 2 false); EDone 2].
Proof.
  split; [|vmr]. intros lb H. cbn in H. repeat (destruct H as [<-|H]; [cbn; auto|]). destruct H.
Qed.
