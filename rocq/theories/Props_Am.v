(** Property theorems C36-C41, C45, C59 and C65 (active messages and atomics). *)
From Verif Require Import Base BaseProofs ListLib LockModel AmModel AmSpec AmProofs AmProofs2 AmProofs3
  AmoModel AmoSpec AmoProofs AmCfgModel AmCfgProofs.

(** A small instance for the examples: the memory is a list of numbers, a put appends its payload,
    a post or a fetch appends its argument; a fetch returns the list before. *)
Definition ex_exec (a : Z) (od : option Z) (m : list Z) : outcome (list Z * list Z) :=
  Ok (m ++ [match od with Some d => d | None => a end], m).
Definition ex_put (d : Z) : req Z Z := mkReq KPut 0 (Some d).
Definition ex_post (a : Z) : req Z Z := mkReq KPost a None.
Definition ex_fetch (a : Z) : req Z Z := mkReq KFetch a None.
Definition ex_m0 (_ : Z) : list Z := [].
Definition ex_run (ub n : Z) ls := run ex_exec ub n (a_init ex_m0) ls.

(** ** C36 Payloads, acknowledgements and headers are matched *)

(** For any threads, any schedule, any tag posted for the header receive: no payload is taken for
    a header; the history of every PE is a sequential execution in which each operation is applied
    with the payload of its own caller; a returned value is the reply of the caller's own operation. *)
Theorem C36_matching : forall A D M R (exec : A -> option D -> M -> outcome (M * R)) ub n m0, ub <= INT_MAX -> forall ls,
  let '(s, evs) := run exec ub n (a_init m0) ls in
  (forall t, a_cb s t <> CbBad) /\
  (forall t, seq_exec exec (m0 t) (a_log s t) (a_mem s t)) /\
  (forall p i t r x, In (ERet p i t r x) evs ->
     match x with Some v => In (p, r, v) (a_log s t) | None => rq_kind r <> KFetch end).
Proof. exact am_matching. Qed.
Print Assumptions C36_matching.

(** Two threads of PE 0 and PE 2 put to PE 1; the payloads arrive in the opposite order of the
    headers, and PE 2's fetch returns between them. *)
Definition ex36 : list (label Z Z) :=
  [LOp 0 0 1 (ex_put 10); LOp 0 1 1 (ex_put 20); LGo 0 0; LGo 0 1; LGo 0 1; LGo 0 0; LOp 2 0 1 (ex_fetch 7); LGo 2 0;
   LCb 1 0 true; LCb 1 0 true; LCb 1 2 true; LGo 2 0; LCb 1 0 false; LCb 1 0 false; LGo 2 0; LGo 0 0; LGo 0 1].
Example C36_nonvacuous : a_mem (fst (ex_run 5000 3 ex36)) 1 = [10; 7; 20] /\
  snd (ex_run 5000 3 ex36) = [ERet 2 0 1 (ex_fetch 7) (Some [10]); ERet 0 0 1 (ex_put 10) None; ERet 0 1 1 (ex_put 20) None].
Proof. split; vmr. Qed.

(** What the target does with the data that came with a header: a put stores all bytes and nothing
    else, a strided put one element every [s], gets return the elements and change nothing. *)
Theorem C36_put : forall fadd feq a d m,
  exists m', exec_pkt fadd feq (PPut a (length d)) (Some d) m = Ok (m', []) /\
    scattered a 1 1 (length d) d m m'.
Proof. exact exec_put. Qed.
Theorem C36_iput : forall fadd feq a s esz n d m, 1 <= s -> length d = (esz * n)%nat ->
  exists m', exec_pkt fadd feq (PIput esz a s n) (Some d) m = Ok (m', []) /\
    scattered a s esz n d m m'.
Proof. exact exec_iput. Qed.
Theorem C36_get : forall fadd feq a nb m,
  exists d, exec_pkt fadd feq (PGet a nb) None m = Ok (m, d) /\ gathered a 1 1 nb d m.
Proof. exact exec_get. Qed.
Theorem C36_iget : forall fadd feq a s esz n m,
  exists d, exec_pkt fadd feq (PIget esz a s n) None m = Ok (m, d) /\ gathered a s esz n d m.
Proof. exact exec_iget. Qed.
Print Assumptions C36_put.
Print Assumptions C36_iput.
Print Assumptions C36_get.
Print Assumptions C36_iget.
Example C36_iput_ex :
  match exec_pkt (fun _ _ b => b) (fun _ _ _ => false) (PIput 2 100 3 2) (Some [1; 2; 3; 4]) (fun _ => 0) with
  | Ok (m, _) => ld m 100 8 = [1; 2; 0; 0; 0; 0; 3; 4]
  | _ => False
  end.
Proof. vmr. Qed.

(** ** C37 The completion step waits for everything *)

(** For a PE whose library calls come from one thread: when OSHMPI_am_flush over [ps] returns, what
    has been applied at each of these PEs is exactly what was called, once each, in order. Missing:
    PEs that call from several threads, for which the claim is false. *)
Theorem C37_flush_one_thread_partial : forall A D M R (exec : A -> option D -> M -> outcome (M * R)) ub n m0, ub <= INT_MAX ->
  forall ls l p i ps, one_thread p (ls ++ [l]) ->
  let s := fst (run exec ub n (a_init m0) ls) in let s' := fst (step exec ub n s l) in
  In (EFlushed p i ps) (snd (step exec ub n s l)) ->
  forall t, In t ps -> applied p (a_log s' t) = a_called s' p t.
Proof. exact am_flush_sound. Qed.
Print Assumptions C37_flush_one_thread_partial.

Definition ex37 : list (label Z Z) :=
  [LOp 0 0 1 (ex_put 1); LGo 0 0; LGo 0 0; LGo 0 0; LOp 0 0 2 (ex_post 2); LGo 0 0; LFlush 0 0 [0; 1; 2];
   LGo 0 0; LGo 0 0; LGo 0 0; LGo 0 0; LGo 0 0; LGo 0 0; LCb 1 0 false; LCb 2 0 false; LCb 2 0 false; LGo 0 0;
   LCb 1 0 false; LCb 1 0 false; LGo 0 0; LGo 0 0; LGo 0 0; LGo 0 0; LGo 0 0; LGo 0 0].
Example C37_nonvacuous :
  snd (step ex_exec 5000 3 (fst (ex_run 5000 3 ex37)) (LGo 0 0)) = [EFlushed 0 0 [0; 1; 2]] /\
  applied 0 (a_log (fst (ex_run 5000 3 ex37)) 1) = [ex_put 1] /\ applied 0 (a_log (fst (ex_run 5000 3 ex37)) 2) = [ex_post 2].
Proof. split; [vmr|]. split; vmr. Qed.

(** Two threads: the fetch of thread 1 stores its "nothing outstanding" after thread 0 has recorded
    its post. Thread 0's completion step then returns although its post has not been applied. *)
Definition ex37r : list (label Z Z) :=
  [LOp 0 1 1 (ex_fetch 5); LGo 0 1; LCb 1 0 false; LGo 0 1; LOp 0 0 1 (ex_post 6); LGo 0 0; LGo 0 1;
   LFlush 0 0 [0; 1]; LGo 0 0; LGo 0 0; LGo 0 0].
Theorem C37_flush_threads_refuted : exists (ls : list (label Z Z)),
  let '(s, evs) := run ex_exec 5000 2 (a_init ex_m0) ls in
  (exists evs', evs = evs' ++ [ERet 0 0 1 (ex_post 6) None; ERet 0 1 1 (ex_fetch 5) (Some []); EFlushed 0 0 [0; 1]]) /\
  ~ In (ex_post 6) (applied 0 (a_log s 1)).
Proof.
  exists ex37r. vm_compute. split; [exists []; reflexivity|]. intros [H|[]]. discriminate H.
Qed.
Print Assumptions C37_flush_threads_refuted.

(** ** C38 Tags *)

Theorem C38_tags : forall A D M R (exec : A -> option D -> M -> outcome (M * R)) ub n m0, ub <= INT_MAX -> forall ls,
  let s := fst (run exec ub n (a_init m0) ls) in
  (forall p i g, tag_of (a_thr s p i) = Some g -> PTAG_START <= g < ub) /\
  (forall p i j g, tag_of (a_thr s p i) = Some g -> tag_of (a_thr s p j) = Some g -> i = j).
Proof. exact am_tags. Qed.
Print Assumptions C38_tags.

Example C38_nonvacuous : let s := fst (ex_run 5000 3 (firstn 4 ex36)) in
  tag_of (a_thr s 0 0) = Some 2003 /\ tag_of (a_thr s 0 1) = Some 2004.
Proof. split; vmr. Qed.

(** Built without error checks (OSHMPI_DISABLE_ERROR_CHECKING), the tag leaves the range of MPI. *)
Theorem C38_tags_unchecked_refuted : exists ub c g, 0 <= c <= INT_MAX /\ PTAG_START < ub <= INT_MAX /\
  am_ptag false ub c = Ok g /\ ~ 0 <= g <= ub.
Proof.
  exists 32767, (INT_MAX - 1000), (- 2 ^ 31 + 1002). split; [unfold INT_MAX; lia|]. split; [unfold PTAG_START, INT_MAX; lia|].
  split; [vmr|]. lia.
Qed.
Print Assumptions C38_tags_unchecked_refuted.

(** ** C39 Order *)

(** Operations of one PE on one target take effect in the order their headers were sent, whatever
    the threads; *)
Theorem C39_issue_order : forall A D M R (exec : A -> option D -> M -> outcome (M * R)) ub n m0, ub <= INT_MAX -> forall ls p t,
  prefix (applied p (a_log (fst (run exec ub n (a_init m0) ls)) t)) (a_issued (fst (run exec ub n (a_init m0) ls)) p t).
Proof. exact am_order. Qed.
Print Assumptions C39_issue_order.
(** for each thread, in the order of its calls; *)
Theorem C39_thread_order : forall A D M R (exec : A -> option D -> M -> outcome (M * R)) ub n m0, ub <= INT_MAX ->
  forall (tid : req A D -> Z) ls, Forall (tells_thread tid) ls -> forall p t i,
  prefix (of_thread tid i (applied p (a_log (fst (run exec ub n (a_init m0) ls)) t)))
         (of_thread tid i (a_called (fst (run exec ub n (a_init m0) ls)) p t)).
Proof. exact am_order_thread. Qed.
Print Assumptions C39_thread_order.
(** and for a PE with one thread, in the order of its calls, with nothing left out or repeated. *)
Theorem C39_call_order : forall A D M R (exec : A -> option D -> M -> outcome (M * R)) ub n m0, ub <= INT_MAX -> forall ls p t,
  one_thread p ls ->
  prefix (applied p (a_log (fst (run exec ub n (a_init m0) ls)) t)) (a_called (fst (run exec ub n (a_init m0) ls)) p t).
Proof. exact am_order_one. Qed.
Print Assumptions C39_call_order.

Example C39_nonvacuous : let s := fst (ex_run 5000 3 (firstn 15 ex37)) in
  applied 0 (a_log s 2) = [ex_post 2] /\ a_called s 0 1 = [ex_put 1] /\ applied 0 (a_log s 1) = [].
Proof. split; [vmr|]. split; vmr. Qed.

(** ** C40 Atomics are linearizable *)

(** Calls of the atomic API from any PEs and threads, any schedule: the history of each PE is a
    sequence of atomic operations from its initial to its present memory, each changing just its
    variable, by the operation, and each fetching one returning the value before. *)
Theorem C40_sequential : forall fadd feq ub n (m0 : Z -> bytes) ls, ub <= INT_MAX -> (forall t, byte_mem (m0 t)) -> amo_calls ls ->
  let s := fst (run (exec_pkt fadd feq) ub n (a_init m0) ls) in
  forall t, amo_seq (m0 t) (a_log s t) (a_mem s t).
Proof. exact amo_linear. Qed.
Print Assumptions C40_sequential.

(** A value returned to a caller is the reply of its own operation, which is in the history by
    then; later operations come after it in the history. *)
Theorem C40_real_time : forall A D M R (exec : A -> option D -> M -> outcome (M * R)) ub n m0, ub <= INT_MAX -> forall ls1 ls2 p i t r v,
  let '(s1, evs) := run exec ub n (a_init m0) ls1 in
  In (ERet p i t r (Some v)) evs ->
  In (p, r, v) (a_log s1 t) /\ prefix (a_log s1 t) (a_log (fst (run exec ub n s1 ls2)) t).
Proof.
  intros A D M R exec ub n m0 HU ls1 ls2 p i t r v. pose proof (am_matching A D M R exec ub n m0 HU ls1) as H.
  destruct (run exec ub n (a_init m0) ls1) as [s1 evs]. destruct H as (_ & _ & H). intros HE. split; [exact (H _ _ _ _ _ HE)|].
  apply log_grows.
Qed.
Print Assumptions C40_real_time.

(** One operation of the API on the active-message path, for every type, value and memory: *)
Theorem C40_operation : forall fadd feq c a x m, byte_mem m -> In c (api_types x) -> amo_args_ok c x ->
  match exec_pkt fadd feq (rq_args (api_req c a x)) None m with
  | Ok (m', rep) => amo_step_ok c a x m m' rep /\ byte_mem m'
  | UB => ~ in_type c (amo_new c x (var c m a))
  | _ => False
  end.
Proof. exact exec_api. Qed.
Print Assumptions C40_operation.

Definition no_fadd (_ : ctype) (a _ : list Z) : list Z := a.
Definition no_feq (_ : ctype) (_ _ : list Z) : bool := false.
Definition zero_mem (_ : Z) : bytes := fun _ => 0.
(** Two PEs do a fetch-and-increment of a long at address 8 of PE 0, one of them after adding -3. *)
Definition ex40 : list (label pkt (list Z)) :=
  [LOp 0 0 0 (api_req CLong 8 (AAdd (-3))); LGo 0 0; LOp 1 0 0 (api_req CLong 8 AFinc); LGo 1 0; LOp 0 0 0 (api_req CLong 8 AFinc); LGo 0 0;
   LCb 0 0 false; LCb 0 0 false; LCb 0 1 false; LGo 0 0; LGo 1 0; LGo 0 0; LGo 1 0].
Example C40_nonvacuous : amo_calls ex40 /\
  let '(s, evs) := run (exec_pkt no_fadd no_feq) 5000 2 (a_init zero_mem) ex40 in
  var CLong (a_mem s 0) 8 = -1 /\
  evs = [ERet 0 0 0 (api_req CLong 8 (AAdd (-3))) None; ERet 0 0 0 (api_req CLong 8 AFinc) (Some (repr CLong (-3)));
         ERet 1 0 0 (api_req CLong 8 AFinc) (Some (repr CLong (-2)))].
Proof.
  split.
  - assert (H1 : amo_call (api_req CLong 8 (AAdd (-3)))).
    { exists CLong, 8, (AAdd (-3)). split; [cbn; tauto|]. split; [|reflexivity]. split; [vm_compute; discriminate|vmr]. }
    assert (H2 : amo_call (api_req CLong 8 AFinc)).
    { exists CLong, 8, AFinc. split; [cbn; tauto|]. split; [exact I|reflexivity]. }
    intros l H. unfold ex40 in H. repeat (destruct H as [<-|H]; [first [exact H1|exact H2|exact I]|]). destruct H.
  - vm_compute. split; reflexivity.
Qed.

(** ** C41 Finalize *)

(** shmem_finalize only waits in an MPI barrier (setup_impl.c:865): PE 0 posts, both PEs finalize and
    stop, and the post is never applied. *)
Definition ex41 : list (label Z Z) :=
  [LOp 0 0 1 (ex_post 5); LGo 0 0; LFin 0 0; LFin 1 0; LGo 0 0; LGo 1 0; LCb 0 0 false; LCb 1 1 false].
Theorem C41_finalize_refuted : exists (ls : list (label Z Z)),
  let s := fst (run ex_exec 5000 2 (a_init ex_m0) ls) in
  a_called s 0 1 = [ex_post 5] /\ a_thr s 0 0 = TStop /\ a_thr s 1 0 = TStop /\ a_cb s 0 = CbDone /\ a_cb s 1 = CbDone /\
  a_log s 1 = [] /\ forall ls', a_log (fst (run ex_exec 5000 2 s ls')) 1 = [].
Proof.
  exists ex41. cbn zeta. split; [vmr|]. split; [vmr|]. split; [vmr|]. split; [vmr|]. split; [vmr|]. split; [vmr|].
  assert (K : forall ls' s, a_cb s 1 = CbDone -> a_log (fst (run ex_exec 5000 2 s ls')) 1 = a_log s 1).
  { induction ls' as [|l ls' IH]; intros s E; [reflexivity|]. cbn [run].
    assert (K1 : a_cb (fst (step ex_exec 5000 2 s l)) 1 = CbDone /\ a_log (fst (step ex_exec 5000 2 s l)) 1 = a_log s 1).
    { exact (done_step _ _ _ _ ex_exec 5000 2 s l 1 E). }
    destruct (step ex_exec 5000 2 s l) as [s1 e1]. cbn [fst] in K1. destruct K1 as [K1 K2]. specialize (IH s1 K1).
    destruct (run ex_exec 5000 2 s1 ls'). cbn [fst] in *. congruence. }
  intros ls'. rewrite K; vmr.
Qed.
Print Assumptions C41_finalize_refuted.

(** If a single-threaded PE completes its active messages to all PEs (shmem_quiet or
    shmem_barrier_all) and makes no further call on remote memory, then everything it called has
    been applied, in every later state, and so when shmem_finalize returns. Missing: programs that
    rely on shmem_finalize itself. *)
Theorem C41_finalize_after_quiet_partial : forall A D M R (exec : A -> option D -> M -> outcome (M * R)) ub n m0, ub <= INT_MAX ->
  forall ls l ls2 p i ps, one_thread p (ls ++ [l] ++ ls2) -> no_calls p ls2 ->
  let s := fst (run exec ub n (a_init m0) ls) in
  In (EFlushed p i ps) (snd (step exec ub n s l)) ->
  let s2 := fst (run exec ub n (a_init m0) (ls ++ [l] ++ ls2)) in
  forall t, In t ps -> applied p (a_log s2 t) = a_called s2 p t.
Proof. exact am_final. Qed.
Print Assumptions C41_finalize_after_quiet_partial.

Definition ex41b : list (label Z Z) := [LFin 0 0; LFin 1 0; LFin 2 0; LGo 0 0; LGo 1 0; LGo 2 0; LCb 0 0 false; LCb 1 1 false].
Example C41_nonvacuous : let s := fst (ex_run 5000 3 (ex37 ++ [LGo 0 0] ++ ex41b)) in
  a_cb s 1 = CbDone /\ a_thr s 0 0 = TStop /\ a_mem s 1 = [1].
Proof. split; [vmr|]. split; vmr. Qed.

(** ** C45 Progress and the posted receive *)

(** In every configuration but direct atomics with direct RMA and no asynchronous thread, however
    often progress is made, only a posted receive is tested. In that configuration the first
    progress tests a request that was never set. *)
Theorem C45_progress_partial : forall c k j, (exists r, program c k j = Ok r) <->
  (atomics_by_mpi c -> cf_rma c = CDirect -> has_thread c \/ (k = 0%nat /\ j = 0%nat)).
Proof. exact program_iff. Qed.
Print Assumptions C45_progress_partial.

Definition ex_cfg : cfg := mkCfg CRuntime CRuntime ANo false DbgAuto true false.
Example C45_nonvacuous : atomics_by_mpi ex_cfg /\ ~ has_thread ex_cfg /\ cf_rma ex_cfg <> CDirect /\
  program ex_cfg 3 2 = Ok RDone.
Proof.
  split; [right; split; [reflexivity|]; left; split; [now right|reflexivity]|].
  split; [intros [H|[H _]]; discriminate|]. split; [discriminate|vmr].
Qed.

(** --enable-amo=direct --enable-rma=direct --disable-async-thread: the first barrier that polls
    tests a request that was never set. *)
Theorem C45_progress_refuted : exists c, cf_amo c = CDirect /\ cf_rma c = CDirect /\ cf_async c = ANo /\ program c 1 0 = UB.
Proof. exists (mkCfg CDirect CDirect ANo false DbgAuto false false). repeat split. Qed.
Print Assumptions C45_progress_refuted.

(** ** C59 Every atomic is implemented *)

Theorem C59_no_abort : forall fadd feq c a x m, byte_mem m -> In c (api_types x) -> amo_args_ok c x ->
  exec_pkt fadd feq (rq_args (api_req c a x)) None m <> Abort /\
  exec_pkt fadd feq (rq_args (api_req c a x)) None m <> NoFuel /\
  (in_type c (amo_new c x (var c m a)) -> exists m' rep, exec_pkt fadd feq (rq_args (api_req c a x)) None m = Ok (m', rep)) /\
  (rq_kind (api_req c a x) = KFetch <-> amo_fetches x = true).
Proof.
  intros fadd feq c a x m H1 H2 H3. pose proof (exec_api fadd feq c a x m H1 H2 H3) as H.
  destruct (exec_pkt fadd feq (rq_args (api_req c a x)) None m) as [[m' rep]| | |]; try contradiction;
    (split; [discriminate|]; split; [discriminate|]; split; [try (intros; exfalso; tauto); eauto|]); destruct x; cbn; split; congruence.
Qed.
Print Assumptions C59_no_abort.

Example C59_nonvacuous : In CFloat (api_types (ASwap 5)) /\ amo_args_ok CFloat (ASwap 5) /\
  In CUint32 (api_types (AFxor 255)) /\ ~ In CInt (api_types (AFxor 255)).
Proof. split; [cbn; tauto|]. split; [split; [vm_compute; discriminate|vmr]|]. split; [cbn; tauto|]. cbn. intuition discriminate. Qed.

(** ** C65 Any number of operations *)

(** The tag counter is never reset: for every MPI_TAG_UB, a single-PE program that does nothing but
    shmem_int_atomic_fetch, each call returning before the next, is stopped at call ub - 2002. *)
Theorem C65_any_number_refuted : forall fadd feq ub, ub <= INT_MAX -> PTAG_START < ub -> forall m0 : Z -> bytes,
  let k := Z.to_nat (ub - PTAG_START) in
  let '(s, evs) := run (exec_pkt fadd feq) ub 1 (a_init m0) (fetches k) in
  length evs = k /\ a_thr (fst (step (exec_pkt fadd feq) ub 1 s (LOp 0 0 0 fetch_op))) 0 0 = TAbort.
Proof. exact tags_run_out. Qed.
Print Assumptions C65_any_number_refuted.
Example C65_nonvacuous : PTAG_START < 2005 /\
  length (snd (run (exec_pkt no_fadd no_feq) 2005 1 (a_init zero_mem) (fetches 2))) = 2%nat /\
  a_thr (fst (run (exec_pkt no_fadd no_feq) 2005 1 (a_init zero_mem) (fetches 3))) 0 0 = TAbort.
Proof. split; [unfold PTAG_START; lia|]. split; vmr. Qed.
