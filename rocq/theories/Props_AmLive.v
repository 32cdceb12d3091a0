(** Property theorems C78 (every active-message call completes). *)
From Verif Require Import Base BaseProofs ListLib LockModel LockProofs AmModel AmSpec AmProofs AmProofs2 AmProofs3
  AmLiveSpec AmLiveProofs AmLiveProofs2 AmLiveProofs3 Props_Am.

(** ** C78 Every call completes *)

(** With an engine that runs by itself on every PE (the asynchronous thread): from any reachable
    state, under any weakly fair schedule of the threads and engines, there is a time from which on
    no thread is inside an active-message operation or flush, unless the handler of some request
    failed. MPI may delay the completion of a send until it is received. *)
Theorem C78_completes : forall A D M R (exec : A -> option D -> M -> outcome (M * R)) ub n m0, ub <= INT_MAX ->
  forall ls sg, (forall l, In l ls -> ~ is_fin l) -> (forall k, internal (sg k)) ->
  let s := fst (run exec ub n (a_init m0) ls) in
  fair exec ub n (fun _ => held) s sg ->
  exists K, forall m, (K <= m)%nat -> all_returned (at_time exec ub n s sg m) \/ handler_failed (at_time exec ub n s sg m).
Proof. exact am_fair_async. Qed.
Print Assumptions C78_completes.

(** A thread leaves a call only by returning, or by a failed assertion. *)
Theorem C78_returns : forall A D M R (exec : A -> option D -> M -> outcome (M * R)) ub n s l p i,
  in_call (a_thr s p i) = true -> in_call (a_thr (fst (step exec ub n s l)) p i) = false ->
  (exists t r x, In (ERet p i t r x) (snd (step exec ub n s l))) \/
  (exists ps, In (EFlushed p i ps) (snd (step exec ub n s l))) \/
  a_thr (fst (step exec ub n s l)) p i = TAbort.
Proof. intros A D M R exec ub n s. exact (am_ends A D M R exec ub n (a_mem s) s). Qed.
Print Assumptions C78_returns.

(** From any reachable state, the threads and engines together do a bounded number of steps. *)
Theorem C78_bounded : forall A D M R (exec : A -> option D -> M -> outcome (M * R)) ub n m0, ub <= INT_MAX ->
  forall ls, (forall l, In l ls -> ~ is_fin l) ->
  let s := fst (run exec ub n (a_init m0) ls) in
  exists N, forall ls', Forall internal ls' -> all_effective exec ub n s ls' -> (length ls' <= N)%nat.
Proof. exact am_bound. Qed.
Print Assumptions C78_bounded.

(** Without the asynchronous thread, when the handlers are run by the threads that poll, the same holds
    if from some time on every PE is inside a call that polls. Missing: PEs that do not call the library, for which the claim is false. *)
Theorem C78_polled_partial : forall A D M R (exec : A -> option D -> M -> outcome (M * R)) ub n m0, ub <= INT_MAX ->
  forall ls sg (pol : nat -> Z -> Prop), (forall l, In l ls -> ~ is_fin l) -> (forall k, internal (sg k)) ->
  let s := fst (run exec ub n (a_init m0) ls) in
  fair exec ub n (fun k s l => held s l \/ in_handler s l \/ unpolled (pol k) s l) s sg ->
  (exists k0, forall k t, (k0 <= k)%nat -> 0 <= t < n -> pol k t \/ exists i, in_call (a_thr (at_time exec ub n s sg k) t i) = true) ->
  exists K, forall m, (K <= m)%nat -> all_returned (at_time exec ub n s sg m) \/ handler_failed (at_time exec ub n s sg m).
Proof. exact am_fair_polled. Qed.
Print Assumptions C78_polled_partial.

(** A schedule that lets every actor of two PEs go in turn: PE 0 fetches from PE 1 and PE 1 puts to
    PE 0. It is fair, and both calls have returned after 24 steps. *)
Definition ex78 : list (label Z Z) := [LOp 0 0 1 (ex_fetch 7); LOp 1 0 0 (ex_put 5)].
Definition ex78_turn : list (label Z Z) := [LGo 0 0; LGo 1 0; LCb 0 0 true; LCb 0 1 true; LCb 1 0 true; LCb 1 1 true].
Definition ex78_sg (k : nat) : label Z Z := nth (k mod 6) ex78_turn (LGo 0 0).
Definition ex78_s := fst (ex_run 5000 2 ex78).

Lemma ex78_hit j : (j < 6)%nat -> forall k, exists m, (k <= m)%nat /\ ex78_sg m = nth j ex78_turn (LGo 0 0).
Proof.
  intros Hj k. exists (k * 6 + j)%nat. split; [lia|]. unfold ex78_sg.
  rewrite Nat.add_comm, Nat.mod_add by lia. rewrite Nat.mod_small by lia. reflexivity.
Qed.
Lemma ex78_internal k : internal (ex78_sg k).
Proof.
  unfold ex78_sg. assert (H : (k mod 6 < 6)%nat) by (apply Nat.mod_upper_bound; lia).
  destruct (k mod 6)%nat as [|[|[|[|[|[|?]]]]]]; try exact I. lia.
Qed.
Lemma ex78_sup k : sup Z Z (list Z) (list Z) [0] (at_time ex_exec 5000 2 ex78_s ex78_sg k).
Proof.
  induction k as [|k IH].
  - intros p i Hi. unfold ex78_s, ex_run, ex78. simpl. assert (i <> 0) by (intros ->; apply Hi; left; reflexivity).
    unfold fset2, fset. repeat match goal with |- context [?a =? ?b] => destruct (Z.eqb_spec a b); try lia; try reflexivity end.
  - simpl. pose proof (sup_step _ _ _ _ ex_exec 5000 2 _ (ex78_sg k) [0] IH) as H.
    pose proof (ex78_internal k) as HI. destruct (ex78_sg k); try (destruct HI; fail); exact H.
Qed.
Example C78_fair_nonvacuous : fair ex_exec 5000 2 (fun _ => held) ex78_s ex78_sg.
Proof.
  intros k l Hl.
  assert (NOP : (forall s, step ex_exec 5000 2 s l = (s, [])) \/ (exists i, i <> 0 /\ exists p, l = LGo p i) \/ exists j, (j < 6)%nat /\ same_actor l (nth j ex78_turn (LGo 0 0))).
  { destruct l as [| | |p i|t p any]; try (destruct Hl; fail).
    - destruct (Z.eq_dec i 0) as [->|Hi]; [|right; left; eauto].
      destruct (is_pe 2 p) eqn:E; [|left; intros s; simpl; rewrite E; reflexivity].
      unfold is_pe in E. apply andb_true_iff in E. rewrite Z.leb_le, Z.ltb_lt in E. right; right.
      assert (p = 0 \/ p = 1) as [->| ->] by lia; [exists 0%nat|exists 1%nat]; (split; [lia|split; reflexivity]).
    - destruct (is_pe 2 t && is_pe 2 p) eqn:E; [|left; intros s; simpl; rewrite E; reflexivity].
      unfold is_pe in E. rewrite !andb_true_iff, !Z.leb_le, !Z.ltb_lt in E. right; right.
      assert ((t = 0 \/ t = 1) /\ (p = 0 \/ p = 1)) as [[->| ->] [->| ->]] by lia;
        [exists 2%nat|exists 3%nat|exists 4%nat|exists 5%nat]; (split; [lia|split; reflexivity]). }
  destruct NOP as [H|[(i & Hi & p & ->)|(j & Hj & H)]].
  - exists k. split; [lia|]. right; right. apply H.
  - exists k. split; [lia|]. right; right. simpl. rewrite (ex78_sup k p i) by (intros [F|[]]; congruence). destruct (is_pe 2 p); reflexivity.
  - destruct (ex78_hit j Hj k) as (m & Hm & E). exists m. split; [exact Hm|]. left. rewrite E. exact H.
Qed.
Example C78_polled_nonvacuous :
  fair ex_exec 5000 2 (fun _ s l => held s l \/ in_handler s l \/ unpolled (fun _ => True) s l) ex78_s ex78_sg.
Proof. intros k l Hl. destruct (C78_fair_nonvacuous k l Hl) as (m & Hm & H). exists m. split; [exact Hm|]. tauto. Qed.
Example C78_done : a_thr (at_time ex_exec 5000 2 ex78_s ex78_sg 24) 0 0 = TIdle /\
  a_thr (at_time ex_exec 5000 2 ex78_s ex78_sg 24) 1 0 = TIdle /\ in_call (a_thr ex78_s 0 0) = true /\
  a_mem (at_time ex_exec 5000 2 ex78_s ex78_sg 24) 1 = [7] /\ a_mem (at_time ex_exec 5000 2 ex78_s ex78_sg 24) 0 = [5].
Proof. vm_compute. repeat split; reflexivity. Qed.

(** Without the asynchronous thread: PE 0 fetches from PE 1, which makes no library call. The call
    never returns although the schedule is fair. *)
Definition ex78b_sg (k : nat) : label Z Z := LGo 0 0.
Definition ex78b_s := fst (ex_run 5000 2 [LOp 0 0 1 (ex_fetch 7)]).
Lemma ex78b_at k : at_time ex_exec 5000 2 ex78b_s ex78b_sg (S k) = fst (step ex_exec 5000 2 ex78b_s (LGo 0 0)).
Proof. induction k as [|k IH]; [reflexivity|]. simpl. simpl in IH. rewrite IH. reflexivity. Qed.

Theorem C78_no_polling_refuted : exists ls (sg : nat -> label Z Z),
  let s := fst (run ex_exec 5000 2 (a_init ex_m0) ls) in
  (forall k, internal (sg k)) /\
  fair ex_exec 5000 2 (fun _ s l => held s l \/ unpolled (fun _ => False) s l) s sg /\
  forall m, in_call (a_thr (at_time ex_exec 5000 2 s sg m) 0 0) = true.
Proof.
  exists [LOp 0 0 1 (ex_fetch 7)], ex78b_sg. split; [intros k; exact I|]. split.
  - intros k l Hl. exists (S k). split; [lia|]. fold ex78b_s. change (fst (run ex_exec 5000 2 (a_init ex_m0) [LOp 0 0 1 (ex_fetch 7)])) with ex78b_s.
    rewrite ex78b_at. destruct l as [| | |p i|t p any]; try (destruct Hl; fail).
    + destruct (Z.eq_dec p 0) as [->|Hp]; [destruct (Z.eq_dec i 0) as [->|Hi]|].
      * left. split; reflexivity.
      * right; right. unfold ex78b_s, ex_run. simpl. unfold fset2, fset. simpl. destruct (Z.eqb_spec i 0); [contradiction|]. reflexivity.
      * right; right. unfold ex78b_s, ex_run. simpl. unfold fset2, fset. simpl. destruct (Z.eqb_spec p 0); [contradiction|]. destruct (is_pe 2 p); reflexivity.
    + destruct (Z.eq_dec t 1) as [->|Ht].
      * right; left; right. split; [tauto|]. intros i. reflexivity.
      * right; right. unfold ex78b_s, ex_run. simpl. unfold is_pe. destruct (Z.eq_dec t 0) as [->|Ht0].
        -- simpl. unfold fset2, fset. simpl. destruct (p =? 0); simpl; destruct ((0 <=? p) && (p <? 2)); reflexivity.
        -- replace ((0 <=? t) && (t <? 2)) with false by (symmetry; apply andb_false_iff; rewrite Z.leb_gt, Z.ltb_ge; lia). reflexivity.
  - change (fst (run ex_exec 5000 2 (a_init ex_m0) [LOp 0 0 1 (ex_fetch 7)])) with ex78b_s.
    intros [|m]; [reflexivity|]. rewrite ex78b_at. reflexivity.
Qed.
Print Assumptions C78_no_polling_refuted.
