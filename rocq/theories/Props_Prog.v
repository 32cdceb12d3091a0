(** Deadlock freedom of programs that mix active messages with collectives. *)
From Verif Require Import Base LockModel LockProofs AmModel AmLiveProofs2 ProgModel ProgSpec ProgProofs ProgProofs2.

(** ** C79: active messages and collectives do not deadlock each other *)
(** With the asynchronous thread: any groups, any kinds of collectives. *)
Theorem C79_async : forall n c mem kd prog ls, well_formed n c mem prog ->
  ~ deadlock true mem kd (grun true mem kd (q_init prog) ls).
Proof. intros n c mem kd prog ls W [H F]. apply F. eapply prog_no_deadlock; eauto. Qed.
Theorem C79_bounded : forall async n c mem kd prog, well_formed n c mem prog ->
  exists B, forall ls, all_change async mem kd (q_init prog) ls -> (length ls <= B)%nat.
Proof. exact prog_bounded. Qed.
(** Without it: if every blocking collective directly follows another collective of all PEs, and the
    program ends with a polling barrier. Missing: other programs (refuted below). *)
Theorem C79_manual_partial : forall n c mem kd prog ls, well_formed n c mem prog ->
  guarded n mem kd prog -> ends_with_barrier n c mem kd prog ->
  ~ deadlock false mem kd (grun false mem kd (q_init prog) ls).
Proof. intros n c mem kd prog ls W G E [H F]. apply F. eapply prog_no_deadlock; eauto. Qed.
(** Library calls: programs without calls with a blocking phase, or with shmem_barrier_all before each of them. *)
Theorem C79_calls_partial : forall async n cs ls, 0 < n -> same_calls n cs ->
  async = true \/ (forall p, 0 <= p < n -> after_barrier (cs p)) ->
  ~ deadlock async (world n) (kind_of cs) (grun async (world n) (kind_of cs) (q_init (actions cs)) ls).
Proof. intros async n cs ls Hn SC M [H F]. apply F. apply calls_no_deadlock; assumption. Qed.

Definition ex_calls (p : Z) : list call :=
  if p =? 0 then [CPost 1; CBarrierAll; CSplit; CFetch 1; CSyncAll]
  else if p =? 1 then [CFetch 0; CPost 0; CBarrierAll; CSplit; CSyncAll] else [].
Example C79_calls_nonvacuous : same_calls 2 ex_calls /\ (forall p, 0 <= p < 2 -> after_barrier (ex_calls p)).
Proof.
  assert (R : forall p, 0 <= p < 2 -> p = 0 \/ p = 1) by lia.
  split; [constructor|].
  - intros p q Hp Hq. destruct (R p Hp) as [-> | ->], (R q Hq) as [-> | ->]; reflexivity.
  - intros p t. unfold ex_calls. destruct (p =? 0); [|destruct (p =? 1)]; simpl; intuition (try congruence);
      match goal with H : _ = _ |- _ => injection H as <-; lia end.
  - intros p Hp. unfold ex_calls. destruct (Z.eqb_spec p 0); [lia|]. destruct (Z.eqb_spec p 1); [lia|]. reflexivity.
  - intros p Hp. destruct (R p Hp) as [-> | ->]; [exists [CPost 1; CBarrierAll; CSplit; CFetch 1]|exists [CFetch 0; CPost 0; CBarrierAll; CSplit]]; reflexivity.
  - intros p Hp. apply after_of_ab. destruct (R p Hp) as [-> | ->]; reflexivity.
Qed.
Definition ex_sched : list glabel :=
  flat_map (fun _ => [GGo 0; GGo 1; GCb 0 0; GCb 1 0]) (seq 0 20).
Example C79_done : let s := grun false (world 2) (kind_of ex_calls) (q_init (actions ex_calls)) ex_sched in
  (q_pe s 0, q_pe s 1) = (PRun [], PRun []).
Proof. vm_compute. reflexivity. Qed.
(** Manual progress: one PE is inside a blocking MPI call and does not poll, another waits for its reply
    before it enters the same call. *)
Theorem C79_blocking_refuted : forall x, polling_call x = false -> exists cs ls,
  same_calls 2 cs /\ (forall p y, In y (cs p) -> polling_call y = true \/ y = x) /\
  deadlock false (world 2) (kind_of cs) (grun false (world 2) (kind_of cs) (q_init (actions cs)) ls).
Proof.
  intros x Hx. exists (fun p => if p =? 0 then [x; CSyncAll] else if p =? 1 then [CFetch 0; x; CSyncAll] else []), [GGo 0; GGo 1].
  assert (R : forall p, 0 <= p < 2 -> p = 0 \/ p = 1) by lia.
  split; [|split; [|split]].
  - constructor.
    + intros p q Hp Hq. destruct (R p Hp) as [-> | ->], (R q Hq) as [-> | ->]; reflexivity.
    + intros p t. destruct (p =? 0); [|destruct (p =? 1)]; simpl; intuition (subst; try discriminate);
        match goal with H : _ = _ |- _ => injection H as <-; lia end.
    + intros p Hp. destruct (Z.eqb_spec p 0); [lia|]. destruct (Z.eqb_spec p 1); [lia|]. reflexivity.
    + intros p Hp. destruct (R p Hp) as [-> | ->]; [exists [x]|exists [CFetch 0; x]]; reflexivity.
  - intros p y. destruct (p =? 0); [|destruct (p =? 1)]; simpl; intuition (subst; auto).
  - intros [p|t j].
    + destruct (Z.eq_dec p 0) as [->|H0]; [destruct x as [t|t| | | |[]|[]| | |]; try discriminate; reflexivity|].
      destruct (Z.eq_dec p 1) as [->|H1]; [destruct x as [t|t| | | |[]|[]| | |]; try discriminate; reflexivity|].
      apply Z.eqb_neq in H0, H1.
      destruct x as [t|t| | | |[]|[]| | |]; try discriminate; cbn; unfold fset, actions; cbn; rewrite ?H0, ?H1; reflexivity.
    + destruct (Z.eq_dec t 0) as [->|H0]; [destruct x as [t|t| | | |[]|[]| | |]; try discriminate; reflexivity|].
      destruct (Z.eq_dec t 1) as [->|H1]; [destruct j, x as [t|t| | | |[]|[]| | |]; try discriminate; reflexivity|].
      apply Z.eqb_neq in H0, H1.
      destruct x as [t'|t'| | | |[]|[]| | |]; try discriminate; cbn; unfold fset, actions; cbn; rewrite ?H0, ?H1; reflexivity.
  - intros F. specialize (F 1). revert F. destruct x as [t|t| | | |[]|[]| | |]; try discriminate; intros F; vm_compute in F; discriminate.
Qed.

Print Assumptions C79_async.
Print Assumptions C79_bounded.
Print Assumptions C79_manual_partial.
Print Assumptions C79_calls_partial.
Print Assumptions C79_blocking_refuted.
