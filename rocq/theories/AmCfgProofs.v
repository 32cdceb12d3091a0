From Verif Require Import Base BaseProofs LockModel LockProofs AmModel AmProofs AmSpec AmProofs3 AmoModel AmCfgModel.

Lemma polls_posted c k : polls c k RPosted = Ok RPosted.
Proof.
  induction k as [|k IH]; [reflexivity|]. cbn [polls]. unfold am_cb_progress. destruct (async_thread c); exact IH.
Qed.
Lemma polls_async c k r : async_thread c = true -> polls c k r = Ok r.
Proof. intros E. induction k as [|k IH]; [reflexivity|]. cbn [polls]. unfold am_cb_progress. rewrite E. exact IH. Qed.

Lemma program_ok c k j : direct_amo c && direct_rma_config c = false \/ async_thread c = true -> exists r, program c k j = Ok r.
Proof.
  intros H. unfold program, am_initialize. destruct (direct_amo c && direct_rma_config c) eqn:E.
  - destruct H as [H|H]; [discriminate|]. rewrite !polls_async by exact H. cbn [bind]. rewrite polls_async by exact H. cbn [bind].
    unfold am_finalize. rewrite E. eauto.
  - rewrite polls_posted. cbn [bind]. rewrite polls_posted. cbn [bind]. unfold am_finalize. rewrite E. eauto.
Qed.

Lemma direct_amo_iff c : direct_amo c = true <-> atomics_by_mpi c.
Proof.
  unfold direct_amo, atomics_by_mpi. destruct (cf_amo c), (cf_nodebug c), (cf_dbg c); intuition congruence.
Qed.
Lemma async_iff c : async_thread c = true <-> has_thread c.
Proof. unfold async_thread, has_thread. destruct (cf_async c); intuition congruence. Qed.
Lemma rma_iff c : direct_rma_config c = true <-> cf_rma c = CDirect.
Proof. unfold direct_rma_config. destruct (cf_rma c); intuition congruence. Qed.
Lemma polls_unset c k : async_thread c = false -> polls c (S k) RUnset = UB.
Proof. intros E. cbn. unfold am_cb_progress. now rewrite E. Qed.
Lemma program_iff c k j : (exists r, program c k j = Ok r) <->
  (atomics_by_mpi c -> cf_rma c = CDirect -> has_thread c \/ (k = 0%nat /\ j = 0%nat)).
Proof.
  rewrite <- direct_amo_iff, <- async_iff, <- rma_iff. split.
  - intros (r & E) H1 H2. destruct (async_thread c) eqn:A; auto. right.
    unfold program, am_initialize in E. rewrite H1, H2 in E. cbn [andb] in E.
    destruct k as [|k]; [|rewrite polls_unset in E by auto; discriminate].
    destruct j as [|j]; [auto|]. change (polls c 0 RUnset) with (Ok RUnset : outcome cbreq) in E. cbn [bind] in E. rewrite polls_unset in E by auto. discriminate.
  - intros H. destruct (direct_amo c && direct_rma_config c) eqn:E.
    + apply andb_prop in E. destruct E as [E1 E2]. destruct (H E1 E2) as [A|[-> ->]].
      * apply program_ok. auto.
      * unfold program, am_initialize, am_finalize. rewrite E1, E2. cbn. eauto.
    + apply program_ok. auto.
Qed.

(** ** The tag counter runs out *)
Section Exhaust.
Variable fadd : ctype -> list Z -> list Z -> list Z.
Variable feq : ctype -> list Z -> list Z -> bool.
Variable ub : Z.
Hypothesis ub_int : ub <= INT_MAX.
Hypothesis ub_ok : PTAG_START < ub.
Notation run := (run (exec_pkt fadd feq) ub 1).
Definition fetch_op : req pkt (list Z) := api_req CInt 0 AFetch.
(** One shmem_int_atomic_fetch of PE 0 from itself, all the way to its return. *)
Definition one_fetch : list (label pkt (list Z)) := [LOp 0 0 0 fetch_op; LGo 0 0; LCb 0 0 false; LGo 0 0; LGo 0 0].
Fixpoint fetches (k : nat) : list (label pkt (list Z)) := match k with O => [] | S k => one_fetch ++ fetches k end.

Notation step := (step (exec_pkt fadd feq) ub 1).
Notation ast := (ast pkt (list Z) bytes (list Z)).

Definition at_pe (s : ast) (c : Z) (x : tst pkt (list Z) (list Z)) (q : list (msg pkt (list Z))) (k : list (amsg pkt (list Z) (list Z))) : Prop :=
  a_cnt s 0 = c /\ a_thr s 0 0 = x /\ a_comm s 0 0 = q /\ a_ack s 0 0 = k /\ a_cb s 0 = CbIdle.

Ltac fin := split; [reflexivity|]; repeat split; cbn; rewrite ?fset2_eq, ?fset_eq; congruence.

Lemma fs1 s c : 0 <= c -> c + PTAG_START < ub -> at_pe s c TIdle [] [] ->
  exists s', step s (LOp 0 0 0 fetch_op) = (s', []) /\ at_pe s' (c + 1) (TTag 0 (c + PTAG_START) fetch_op) [] [].
Proof.
  intros H0 H1 (E1 & E2 & E3 & E4 & E5). unfold AmModel.step.
  replace (is_pe 1 0 && is_pe 1 0 && req_ok fetch_op) with true by reflexivity. rewrite E2. cbn zeta. cbn [fetch_op api_req rq_kind].
  cbn [a_cnt set_called]. rewrite E1. unfold am_ptag, am_ptag_next, c_assert. rewrite !to_int_id by (unfold INT_MAX, PTAG_START in *; lia).
  assert (EL : (c + PTAG_START <? ub) = true) by lia. rewrite EL. cbn [bind]. eexists. fin.
Qed.
Lemma fs2 s c g : at_pe s c (TTag 0 g fetch_op) [] [] ->
  exists s', step s (LGo 0 0) = (s', []) /\ at_pe s' c (TAck 0 g fetch_op) [MH (HReq g fetch_op)] [].
Proof.
  intros (E1 & E2 & E3 & E4 & E5). unfold AmModel.step. replace (is_pe 1 0) with true by reflexivity. rewrite E2.
  eexists. split; [reflexivity|]. repeat split; cbn; rewrite ?fset2_eq, ?E3; first [congruence|reflexivity].
Qed.
Lemma fs3 s c g : at_pe s c (TAck 0 g fetch_op) [MH (HReq g fetch_op)] [] ->
  exists s' x, step s (LCb 0 0 false) = (s', []) /\ at_pe s' c (TAck 0 g fetch_op) [] [(g, Some (fetch_op, x))].
Proof.
  intros (E1 & E2 & E3 & E4 & E5). unfold AmModel.step. replace (is_pe 1 0 && is_pe 1 0) with true by reflexivity. rewrite E5, E3.
  cbn [take_hdr]. cbn zeta. unfold fetch_op at 1. cbn [api_req rq_kind]. unfold run_cb. unfold fetch_op at 1. cbn [api_req rq_args exec_pkt]. unfold op_type. cbn [ct_fp bind].
  unfold op_int. cbn [bind]. unfold fetch_op at 2. cbn [api_req rq_kind]. cbn zeta.
  do 2 eexists. split; [reflexivity|]. repeat split; cbn; rewrite ?fset2_eq, ?fset_eq, ?E4; first [congruence|exact E2|reflexivity].
Qed.
Lemma fs4 s c g x : at_pe s c (TAck 0 g fetch_op) [] [(g, Some (fetch_op, x))] ->
  exists s', step s (LGo 0 0) = (s', []) /\ at_pe s' c (TFlag 0 false fetch_op (Some x)) [] [].
Proof.
  intros (E1 & E2 & E3 & E4 & E5). unfold AmModel.step. replace (is_pe 1 0) with true by reflexivity. rewrite E2, E4.
  cbn [take_ack]. rewrite Z.eqb_refl. eexists. fin.
Qed.
Lemma fs5 s c x : at_pe s c (TFlag 0 false fetch_op (Some x)) [] [] ->
  exists s', step s (LGo 0 0) = (s', [ERet 0 0 0 fetch_op (Some x)]) /\ at_pe s' c TIdle [] [].
Proof.
  intros (E1 & E2 & E3 & E4 & E5). unfold AmModel.step. replace (is_pe 1 0) with true by reflexivity. rewrite E2. eexists. fin.
Qed.

Lemma one_fetch_ok s c : 0 <= c -> c + PTAG_START < ub -> at_pe s c TIdle [] [] ->
  exists s' x, run s one_fetch = (s', [ERet 0 0 0 fetch_op (Some x)]) /\ at_pe s' (c + 1) TIdle [] [].
Proof.
  intros H0 H1 S0. destruct (fs1 _ _ H0 H1 S0) as (s1 & X1 & S1). destruct (fs2 _ _ _ S1) as (s2 & X2 & S2).
  destruct (fs3 _ _ _ S2) as (s3 & x & X3 & S3). destruct (fs4 _ _ _ _ S3) as (s4 & X4 & S4). destruct (fs5 _ _ _ S4) as (s5 & X5 & S5).
  exists s5, x. split; [|exact S5]. unfold one_fetch. cbn [AmModel.run]. rewrite X1, X2, X3, X4, X5. reflexivity.
Qed.

Lemma fetches_ok k : forall s c, 0 <= c -> c + Z.of_nat k + PTAG_START <= ub -> at_pe s c TIdle [] [] ->
  at_pe (fst (run s (fetches k))) (c + Z.of_nat k) TIdle [] [] /\ length (snd (run s (fetches k))) = k.
Proof.
  induction k as [|k IH]; intros s c H0 H1 HS.
  - cbn [fetches AmModel.run fst snd]. rewrite Z.add_0_r. split; [exact HS|reflexivity].
  - cbn [fetches]. rewrite run_app. destruct (one_fetch_ok s c) as (s' & x & E & S'); [exact H0|lia|exact HS|]. rewrite E. cbn [fst snd].
    destruct (IH s' (c + 1)) as [I1 I2]; [lia|lia|exact S'|]. replace (c + Z.of_nat (S k)) with (c + 1 + Z.of_nat k) by lia.
    split; [exact I1|]. cbn [app length]. rewrite I2. reflexivity.
Qed.

Lemma tags_run_out (m0 : Z -> bytes) :
  let k := Z.to_nat (ub - PTAG_START) in
  let '(s, evs) := run (a_init m0) (fetches k) in
  length evs = k /\ a_thr (fst (step s (LOp 0 0 0 fetch_op))) 0 0 = TAbort.
Proof.
  cbn zeta. destruct (fetches_ok (Z.to_nat (ub - PTAG_START)) (a_init m0) 0) as [H1 H2]; [lia|lia|repeat split|].
  destruct (run (a_init m0) (fetches (Z.to_nat (ub - PTAG_START)))) as [s evs]. cbn [fst snd] in *. split; [exact H2|].
  destruct H1 as (E1 & E2 & _). unfold AmModel.step.
  replace (is_pe 1 0 && is_pe 1 0 && req_ok fetch_op) with true by reflexivity. rewrite E2. cbn zeta. cbn [fetch_op api_req rq_kind].
  cbn [a_cnt set_called]. rewrite E1. unfold am_ptag, c_assert. rewrite !to_int_id by (unfold INT_MAX, PTAG_START in *; lia).
  assert (EL : (0 + Z.of_nat (Z.to_nat (ub - PTAG_START)) + PTAG_START <? ub) = false) by lia. rewrite EL. cbn [bind].
  cbn. reflexivity.
Qed.
End Exhaust.
