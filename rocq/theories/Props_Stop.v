(** C89: stopping the progress thread. *)
From Verif Require Import Base StopModel StopSpec StopProofs.

(** shmem_finalize cannot hang: no wake-up is lost. From every state the two threads have only a bounded number of steps left,
    whatever the schedule, and when neither can go on, both are through. *)
Theorem C89_ends async xs s : srun (sst0 async) xs = Some (Ok s) ->
  exists N, forall ys s', Forall own ys -> srun s ys = Some (Ok s') ->
    (length ys <= N)%nat /\
    (sstep s' GM = None -> sstep s' GT = None -> s_m s' = MEnd /\ s_t s' = (if async then TGone else TNone)).
Proof.
  intros E. assert (I := SI_run _ _ _ (SI0 async) E). exists (work s). intros ys s' O R. split.
  - assert (W := work_run _ _ _ I O R). lia.
  - intros E1 E2. destruct (stuck_end s' (SI_run _ _ _ I R) E1 E2) as [M T]. split; [exact M|].
    assert (N := tnone_run _ _ _ R). assert (N0 := tnone_run _ _ _ E). cbn in N0. destruct async, T as [T|T]; auto.
    + apply N, N0 in T. discriminate.
    + exfalso. assert (Q := proj2 N (proj2 N0 eq_refl)). congruence.
Qed.
Print Assumptions C89_ends.
(** The finalizing thread goes to sleep before the progress thread sees TERMINATE, and is woken up. *)
Definition sleep_run : list slab := [GArrive 5; GM; GM; GM; GT; GArrive 6; GT; GT; GT; GT].
Example C89_sleeps : match srun (sst0 true) sleep_run with
  | Some (Ok s) => s_m s = MSleep /\ s_asleep s = true /\ s_t s = TSignal | _ => False end.
Proof. vm_compute. repeat split; reflexivity. Qed.
Example C89_wakes : match srun (sst0 true) (sleep_run ++ [GT; GM; GM; GM; GM; GM]) with
  | Some (Ok s) => s_m s = MEnd /\ s_t s = TGone /\ s_handled s = [5] /\ s_q s = [HWork 6] | _ => False end.
Proof. vm_compute. repeat split; reflexivity. Qed.

(** With a progress thread, exactly the messages that arrived before TERMINATE was sent have been handled, in order, when
    shmem_finalize goes on to release the communicators. *)
Theorem C89_handled xs s : srun (sst0 true) xs = Some (Ok s) -> s_m s = MEnd -> s_handled s = before_term xs /\ s_lost s = [].
Proof.
  intros E M. assert (I := SI_run _ _ _ (SI0 true) E). assert (S := seen_run _ _ _ (SI0 true) E).
  assert (N := tnone_run _ _ _ E). cbn in N. assert (NT : s_t s <> TNone) by (intros Q; apply N in Q; discriminate).
  assert (A := si_ok _ I). rewrite M in A.
  assert (L : s_lost s = []) by (apply (si_lost _ I); rewrite M; destruct (s_t s); [congruence|reflexivity..]).
  split; [|exact L]. cbn in S. unfold seen, pend in S. rewrite L in S.
  destruct (s_t s); try discriminate A; try congruence; cbn in S; rewrite app_nil_r in S; exact S.
Qed.
Print Assumptions C89_handled.
(** Without one, provided that all messages had been handled before. *)
Theorem C89_no_thread_partial xs s : srun (sst0 false) xs = Some (Ok s) -> s_m s = MEnd -> s_handled s = before_term xs -> s_lost s = [].
Proof.
  intros E M H. assert (S := seen_run _ _ _ (SI0 false) E). cbn in S. unfold seen in S. rewrite <- H in S.
  rewrite <- app_nil_r in S. apply app_inv_head in S. apply app_eq_nil in S. tauto.
Qed.
Print Assumptions C89_no_thread_partial.
Example C89_no_thread : match srun (sst0 false) [GArrive 5; GPoll; GM; GM] with
  | Some (Ok s) => s_m s = MEnd /\ s_handled s = [5] /\ s_lost s = [] | _ => False end.
Proof. vm_compute. repeat split; reflexivity. Qed.
(** Otherwise the last receive takes a message and nobody handles it. *)
Theorem C89_no_thread_refuted : exists xs s, srun (sst0 false) xs = Some (Ok s) /\ s_m s = MEnd /\ s_lost s = [5] /\ before_term xs = [5].
Proof. exists [GArrive 5; GM; GM]. eexists. vm_compute. repeat split; reflexivity. Qed.
Print Assumptions C89_no_thread_refuted.

(** Nothing that is gone is used - no MPI call after the communicators, no lock after the mutex was destroyed, nothing destroyed
    while in use - if the condition variable is destroyed only after the progress thread has signalled it. *)
Theorem C89_safe_partial async xs r : waits (sst0 async) xs -> srun (sst0 async) xs = Some r -> exists s, r = Ok s.
Proof. intros W E. eapply waits_ok; eauto; [apply SI0|]. destruct async; discriminate. Qed.
Print Assumptions C89_safe_partial.
Example C89_waits : waits (sst0 true) (sleep_run ++ [GT; GM; GM; GM; GM; GM]).
Proof. vm_compute. repeat split; intros; try discriminate; reflexivity. Qed.
(** The signal of the progress thread is the only call that can meet something gone. *)
Theorem C89_only_signal async xs r : srun (sst0 async) xs = Some r -> (exists s, r = Ok s) \/
  (r = UB /\ exists ys s zs, xs = ys ++ GT :: zs /\ srun (sst0 async) ys = Some (Ok s) /\ s_t s = TSignal /\ s_cd s = true).
Proof. intros E. eapply run_fault; eauto. apply SI0. Qed.
Print Assumptions C89_only_signal.
(** And it can: it comes after the mutex is released, when the finalizing thread may already have seen the flag and destroyed both. *)
Theorem C89_signal_refuted : exists xs, srun (sst0 true) xs = Some UB.
Proof. exists [GM; GT; GT; GT; GT; GM; GM; GM; GM; GM; GT]. vmr. Qed.
Print Assumptions C89_signal_refuted.
