(** Property theorems C82 and C83 (atomics mapped on MPI; counters). *)
From Verif Require Import Base AmModel AmSpec AmoModel AmoSpec DirModel DirSpec DirProofs.
From Verif Require EnvModel.

(** ** C82 The two ways of doing atomics agree *)

(** Every routine, type, address and memory: the MPI call that the library makes and the packet that it sends change
    the memory in the same way and give the same result. *)
Theorem C82_same_as_am : forall fadd feq c a x m, In c (api_types x) ->
  match mpi_exec c a (dir_call c x) m, exec_pkt fadd feq (rq_args (api_req c a x)) None m with
  | Ok (m1, r1), Ok (m2, r2) => (forall b, m1 b = m2 b) /\ r1 = r2
  | UB, UB => True
  | _, _ => False
  end.
Proof. exact same_as_am. Qed.
Print Assumptions C82_same_as_am.

(** And it is the operation of the routine. *)
Theorem C82_operation : forall c a x m, byte_mem m -> In c (api_types x) -> amo_args_ok c x ->
  match mpi_exec c a (dir_call c x) m with
  | Ok (m', rep) => amo_step_ok c a x m m' rep /\ byte_mem m'
  | UB => ~ in_type c (amo_new c x (var c m a))
  | _ => False
  end.
Proof. exact exec_dir. Qed.
Print Assumptions C82_operation.

(** Any PEs and threads, MPI applying the operations in any order: what has been applied at a PE is a sequence of atomic operations
    from its first memory to its present one; each call is applied at most once, and a fetching call returns the
    result of its own operation. *)
Theorem C82_sequential : forall m0 ls s evs, (forall t, byte_mem (m0 t)) -> dcalls ls -> drun (d_init m0) ls = Ok (s, evs) ->
  (forall t, ops_seq (m0 t) (map of_dop (d_log s t)) (d_mem s t)) /\
  (forall t, NoDup (map (fun e => fst (fst e)) (d_log s t))) /\
  (forall t id x v, In (id, x, v) (d_log s t) -> d_tgt x = t /\ In (DStart id x) evs) /\
  (forall id x v, In (DRet id x v) evs -> In (DStart id x) evs /\
     match v with Some r => amo_fetches (d_api x) = true /\ In (id, x, r) (d_log s (d_tgt x)) | None => amo_fetches (d_api x) = false end).
Proof.
  intros m0 ls s evs HM HC E. pose proof (drun_init _ _ _ _ HM HC E) as H.
  split; [intros t; apply (di_mem _ _ _ H t)|]. split; [exact (di_lnd _ _ _ H)|].
  split; [intros t id x v F; destruct (di_log _ _ _ H _ _ _ _ F) as (F1 & F2 & _); auto|exact (di_ret _ _ _ H)].
Qed.
Print Assumptions C82_sequential.

(** When shmem_quiet returns, all that its PE has called before has been applied. *)
Theorem C82_quiet : forall m0 ls s evs p i s', (forall t, byte_mem (m0 t)) -> dcalls ls -> drun (d_init m0) ls = Ok (s, evs) ->
  dstep s (DGo p i) = Ok (s', [DQuietRet p i]) ->
  forall id x, In (DStart id x) evs -> d_org x = p -> exists v, In (id, x, v) (d_log s (d_tgt x)).
Proof. exact quiet_applied. Qed.
Print Assumptions C82_quiet.

(** What has been applied stays first: what is called after that comes later in the sequence. *)
Theorem C82_later : forall m0 ls1 ls2 s1 e1 s2 e2 t, (forall t, byte_mem (m0 t)) -> dcalls (ls1 ++ ls2) ->
  drun (d_init m0) ls1 = Ok (s1, e1) -> drun s1 ls2 = Ok (s2, e2) ->
  exists r, d_log s2 t = d_log s1 t ++ r /\
    (forall id x v, In (DStart id x) e2 -> ~ In (id, x, v) (d_log s1 t)).
Proof.
  intros m0 ls1 ls2 s1 e1 s2 e2 t HM HC E1 E2.
  assert (HC1 : dcalls ls1) by (intros x F; apply HC; apply in_or_app; auto).
  assert (HC2 : dcalls ls2) by (intros x F; apply HC; apply in_or_app; auto).
  destruct (drun_log _ _ _ _ t E2) as (r & R). exists r. split; [exact R|]. intros id x v F1 F2.
  pose proof (drun_init _ _ _ _ HM HC1 E1) as H1. destruct (di_log _ _ _ H1 _ _ _ _ F2) as (_ & F3 & _).
  pose proof (di_next _ _ _ H1 _ _ F3) as N. exact (starts_next _ _ _ _ E2 _ _ F1 N).
Qed.
Print Assumptions C82_later.

Definition dz : Z -> bytes := fun _ _ => 0.
Definition finc (p i : Z) : dop := mkDop p i 2 CUlong 8 AFinc.
Definition addop (p i v : Z) : dop := mkDop p i 2 CUlong 8 (AAdd v).
(** PE 0 adds 5 and does a fetch-and-increment, PE 1 a fetch-and-increment; the add is applied last. *)
Definition ex82 : list dlab :=
  [DCall (addop 0 0 5); DGo 0 0; DCall (finc 0 0); DCall (finc 1 0); DApply 2; DApply 1; DGo 0 0; DGo 1 0; DQuiet 0 0; DGo 0 0; DApply 0; DGo 0 0].
Example C82_nonvacuous : (forall t, byte_mem (dz t)) /\ dcalls ex82 /\
  match drun (d_init dz) ex82 with
  | Ok (s, evs) => evs = [DStart 0 (addop 0 0 5); DRet 0 (addop 0 0 5) None; DStart 1 (finc 0 0); DStart 2 (finc 1 0);
                          DRet 1 (finc 0 0) (Some (repr CUlong 1)); DRet 2 (finc 1 0) (Some (repr CUlong 0)); DQuietStart 0 0; DQuietRet 0 0] /\
      map (fun e => fst (fst e)) (d_log s 2) = [2; 1; 0] /\ var CUlong (d_mem s 2) 8 = 7
  | _ => False
  end.
Proof.
  split; [intros t a; unfold dz, byte; lia|]. split; [|vm_compute; repeat split; reflexivity].
  intros x H. repeat (destruct H as [H|H]; [first [discriminate H | injection H as <-; simpl; split; [tauto|try exact I; cbv; split; congruence]]|]). destruct H.
Qed.

(** ** C83 Counters *)

(** A variable on which only additions, increments and fetches are done, from any PEs and threads: its value is the first value plus
    all that has been applied (modulo the range of unsigned types), and each fetching operation returns
    the first value plus what was applied before it. *)
Theorem C83_counter_direct : forall m0 ls s evs c a t, (forall t, byte_mem (m0 t)) -> dcalls ls -> drun (d_init m0) ls = Ok (s, evs) ->
  forall amt : Z -> Z, (forall id x, In (DStart id x) evs -> d_tgt x = t -> counts c a (d_ty x) (d_adr x) (d_api x) (amt id)) ->
  counter_ok c (var c (m0 t) a) (var c (d_mem s t) a) (map (fun e => amt (fst (fst e))) (d_log s t)) (fetched_at c a (map of_dop (d_log s t))).
Proof. exact direct_counter. Qed.
Print Assumptions C83_counter_direct.

(** The same by active messages. *)
Theorem C83_counter_am : forall fadd feq ub n (m0 : Z -> bytes) ls c a t, ub <= INT_MAX -> (forall t, byte_mem (m0 t)) ->
  (forall l, In l ls -> match l with
     | LOp _ _ _ r => exists c' a' x' v, In c' (api_types x') /\ amo_args_ok c' x' /\ r = api_req c' a' x' /\ counts c a c' a' x' v
     | _ => True end) ->
  let s := fst (run (exec_pkt fadd feq) ub n (a_init m0) ls) in
  exists log' vs, Forall2 (fun e e' => let '(_, r, rep) := e in let '(c', a', x, rep') := e' in r = api_req c' a' x /\ rep' = rep) (a_log s t) log' /\
    Forall2 (fun e v => let '(c', a', x, _) := e in counts c a c' a' x v) log' vs /\
    counter_ok c (var c (m0 t) a) (var c (a_mem s t) a) vs (fetched_at c a log').
Proof. exact am_counter. Qed.
Print Assumptions C83_counter_am.

(** Tickets: where a variable is only incremented and fetched, no two calls of atomic_fetch_inc return the same value, as long
    as there are fewer operations than values of the type. *)
Theorem C83_tickets : forall m0 ls s evs c a t, (forall t, byte_mem (m0 t)) -> dcalls ls -> drun (d_init m0) ls = Ok (s, evs) ->
  (forall x, In (DCall x) ls -> d_tgt x = t ->
     apart c a (d_ty x) (d_adr x) \/ (d_ty x = c /\ d_adr x = a /\ (d_api x = AFinc \/ d_api x = AInc \/ d_api x = AFetch))) ->
  Z.of_nat (length (d_log s t)) < 2 ^ ct_bits c ->
  forall id1 id2 x1 x2 v1 v2, In (DRet id1 x1 (Some v1)) evs -> In (DRet id2 x2 (Some v2)) evs -> id1 <> id2 ->
  d_api x1 = AFinc -> d_api x2 = AFinc -> d_tgt x1 = t -> d_tgt x2 = t -> d_ty x1 = c -> d_ty x2 = c -> d_adr x1 = a -> d_adr x2 = a ->
  val c v1 <> val c v2.
Proof. exact direct_tickets. Qed.
Print Assumptions C83_tickets.

(** Two tickets, and a store to the neighbouring variable. *)
Definition ex83 : list dlab :=
  [DCall (finc 0 0); DCall (finc 1 0); DCall (mkDop 3 0 2 CUlong 16 (ASet 9)); DApply 1; DApply 2; DApply 0; DGo 0 0; DGo 1 0].
Example C83_nonvacuous : dcalls ex83 /\
  (forall x, In (DCall x) ex83 -> d_tgt x = 2 ->
     apart CUlong 8 (d_ty x) (d_adr x) \/ (d_ty x = CUlong /\ d_adr x = 8 /\ (d_api x = AFinc \/ d_api x = AInc \/ d_api x = AFetch))) /\
  match drun (d_init dz) ex83 with
  | Ok (s, evs) => In (DRet 0 (finc 0 0) (Some (repr CUlong 1))) evs /\ In (DRet 1 (finc 1 0) (Some (repr CUlong 0))) evs /\
      length (d_log s 2) = 3%nat /\ var CUlong (d_mem s 2) 8 = 2
  | _ => False
  end.
Proof.
  split; [|split].
  - intros x H. repeat (destruct H as [H|H]; [first [discriminate H | injection H as <-; simpl; split; [tauto|try exact I; cbv; split; congruence]]|]). destruct H.
  - intros x H _. repeat (destruct H as [H|H]; [first [discriminate H | injection H as <-; simpl; first [right; tauto | left; unfold apart; simpl; lia]]|]). destruct H.
  - vm_compute. repeat split; try reflexivity; tauto.
Qed.
(** By active messages: an add of -3 and two fetch-and-increments (the run of C40). *)
Example C83_am_nonvacuous : forall r, r = api_req CLong 8 (AAdd (-3)) \/ r = api_req CLong 8 AFinc ->
  exists c' a' x' v, In c' (api_types x') /\ amo_args_ok c' x' /\ r = api_req c' a' x' /\ counts CLong 8 c' a' x' v.
Proof.
  intros r [->| ->].
  - exists CLong, 8, (AAdd (-3)), (-3). split; [simpl; tauto|]. split; [cbv; split; congruence|]. split; [reflexivity|]. left. repeat split; constructor.
  - exists CLong, 8, AFinc, 1. split; [simpl; tauto|]. split; [exact I|]. split; [reflexivity|]. left. repeat split; constructor.
Qed.
