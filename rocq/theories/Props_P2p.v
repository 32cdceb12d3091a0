(** Properties of waiting, unsupported operations, information and the life cycle. *)
From Coq Require Import String.
From Verif Require Import Base EnvModel P2pModel P2pSpec P2pProofs.
Open Scope Z_scope.
Open Scope list_scope.

(** ** C51: shmem_wait_until and shmem_test *)
(** What it returns on is a value of the variable that satisfies the comparison, and no earlier
    read did. *)
Theorem C51_wait_sound : forall fuel checks async sym arr s cmp v x n s', cmp_valid cmp ->
  wait_until fuel checks async sym arr s cmp v = Ok (x, n, s') ->
  s' = state_at async arr s 0 n /\ x = p_mem s' /\ cmp_holds cmp x v /\
  forall k, (k < n)%nat -> ~ cmp_holds cmp (p_mem (state_at async arr s 0 k)) v.
Proof. exact wait_sound. Qed.
(** It returns as soon as a read satisfies the comparison, in all modes. *)
Theorem C51_wait_returns : forall fuel checks async arr s cmp v n, cmp_valid cmp ->
  cmp_holds cmp (p_mem (state_at async arr s 0 n)) v -> (n < fuel)%nat ->
  exists x k s', wait_until fuel checks async true arr s cmp v = Ok (x, k, s') /\ (k <= n)%nat.
Proof. exact wait_returns. Qed.
(** Without a progress thread, active messages that arrive at the waiting PE are handled: if
    nothing else arrives after read [N] and the messages received by then make the comparison
    true, the call returns. *)
Theorem C51_wait_progress : forall fuel checks arr s cmp v N, cmp_valid cmp ->
  (forall j, (N < j)%nat -> arr j = []) ->
  cmp_holds cmp (drained (state_at false arr s 0 N)) v ->
  (N + length (p_queue (state_at false arr s 0 N)) < fuel)%nat ->
  exists x k s', wait_until fuel checks false true arr s cmp v = Ok (x, k, s') /\
    (k <= N + length (p_queue (state_at false arr s 0 N)))%nat.
Proof. exact wait_live. Qed.
Definition arr_ex (i : nat) : list pevent :=
  match i with
  | 1%nat => [EAm (fun _ => 5); EDirect (fun x => x + 1)]
  | 2%nat => [EAm (fun x => x + 4)]
  | _ => []
  end.
Example C51_wait_ex :
  cmp_valid CMP_GE /\
  (forall j, (2 < j)%nat -> arr_ex j = []) /\
  drained (state_at false arr_ex {| p_mem := 0; p_queue := [] |} 0 2) = 9 /\
  wait_until 10 true false true arr_ex {| p_mem := 0; p_queue := [] |} CMP_GE 7 =
    Ok (9, 3%nat, {| p_mem := 9; p_queue := [] |}).
Proof.
  split; [unfold cmp_valid, CMP_GE; lia|]. split; [|split; reflexivity].
  intros j Hj. do 3 (destruct j; [lia|]). reflexivity.
Qed.
Theorem C51_test : forall checks async s cmp v, cmp_valid cmp ->
  (test checks async true s cmp v = Ok (1, s) /\ cmp_holds cmp (p_mem s) v) \/
  (test checks async true s cmp v = Ok (0, cb_progress async s) /\ ~ cmp_holds cmp (p_mem s) v).
Proof. exact test_spec. Qed.
(** Polling with shmem_test makes progress too. *)
Theorem C51_test_progress : forall fuel checks arr s cmp v N, cmp_valid cmp ->
  (forall j, (N < j)%nat -> arr j = []) ->
  cmp_holds cmp (drained (state_at false arr s 0 N)) v ->
  (N + length (p_queue (state_at false arr s 0 N)) < fuel)%nat ->
  exists k s', test_loop fuel checks false true arr 0 s cmp v = Ok (k, s') /\
    cmp_holds cmp (p_mem s') v.
Proof. exact test_live. Qed.
Example C51_test_ex :
  test_loop 10 true false true arr_ex 0 {| p_mem := 0; p_queue := [] |} CMP_GE 7 =
    Ok (3%nat, {| p_mem := 9; p_queue := [] |}) /\
  test true false true {| p_mem := 3; p_queue := [] |} CMP_LT 3 =
    Ok (0, {| p_mem := 3; p_queue := [] |}).
Proof. split; reflexivity. Qed.
(** shmem_int_wait and the like return on the first other value. *)
Theorem C51_wait_changed : forall fuel checks async sym arr s v x n s',
  shmem_wait fuel checks async sym arr s v = Ok (x, n, s') ->
  x = p_mem s' /\ x <> v /\ forall k, (k < n)%nat -> p_mem (state_at async arr s 0 k) = v.
Proof.
  intros fuel checks async sym arr s v x n s' E.
  assert (Hv : cmp_valid CMP_NE) by (unfold cmp_valid, CMP_NE; lia).
  destruct (wait_sound _ _ _ _ _ _ _ _ _ _ _ Hv E) as (_ & Hx & Hh & Hk). split; auto. split.
  - inversion Hh; subst; auto.
  - intros k Hk'. destruct (Z.eq_dec (p_mem (state_at async arr s 0 k)) v) as [E'|E']; auto.
    exfalso. apply (Hk k Hk'). now constructor.
Qed.
Example C51_wait_changed_ex :
  shmem_wait 5 true false true arr_ex {| p_mem := 0; p_queue := [] |} 0 =
    Ok (1, 1%nat, {| p_mem := 1; p_queue := [fun _ => 5] |}).
Proof. reflexivity. Qed.

(** ** C52: invalid comparison operators *)
(** Even with error checking, a wait with any other constant never returns and never stops with an
    error, whatever happens to the variable; the test answers 0 for every value. *)
Theorem C52_rejected_refuted : exists cmp, ~ cmp_valid cmp /\
  forall fuel checks async arr s v,
    wait_until fuel checks async true arr s cmp v = NoFuel /\
    test checks async true s cmp v = Ok (0, cb_progress async s).
Proof.
  exists 0. split; [unfold cmp_valid; lia|]. intros fuel checks async arr s v.
  assert (K : ~ cmp_valid 0) by (unfold cmp_valid; lia).
  unfold wait_until, test, resolve. cbn [c_assert negb andb bind].
  replace (c_assert checks true) with (Ok tt) by (destruct checks; reflexivity). cbn [bind].
  rewrite wait_invalid by auto. rewrite comp_invalid by auto. split; reflexivity.
Qed.
(** No invalid constant is ever rejected. *)
Theorem C52_never_rejected_refuted : forall cmp, ~ cmp_valid cmp ->
  forall fuel checks async arr s v, wait_until fuel checks async true arr s cmp v = NoFuel.
Proof.
  intros cmp Hc fuel checks async arr s v. unfold wait_until, resolve.
  replace (c_assert checks true) with (Ok tt) by (destruct checks; reflexivity). cbn [bind].
  now apply wait_invalid.
Qed.
Example C52_ex : ~ cmp_valid 7 /\ ~ cmp_valid (-1).
Proof. unfold cmp_valid. lia. Qed.

(** ** C56: unsupported operations *)
(** With error checking every such function stops the program. *)
Theorem C56_checked_partial : forall name k (M : Type) (mem : M), In (name, k) unsupported ->
  call_unsupported true k mem = Abort.
Proof. reflexivity. Qed.
Example C56_ex : In ("shmem_TYPENAME_put_signal"%string, RVoid) unsupported /\
  In ("shmem_TYPENAME_wait_until_any"%string, RSize) unsupported.
Proof. split; cbn; tauto. Qed.
(** Missing: the fast build. There each of them returns without having done anything: a wait for
    all returns although the variables do not satisfy the comparison, a put with signal transfers
    nothing, a wait for any returns an index that is not one of the variables. *)
Theorem C56_fast_refuted : forall M (mem : M), exists n1 n2 n3,
  n1 = "shmem_TYPENAME_wait_until_all"%string /\ n2 = "shmem_TYPENAME_put_signal"%string /\
  n3 = "shmem_TYPENAME_wait_until_any"%string /\
  (exists k, In (n1, k) unsupported /\ call_unsupported false k mem = Ok (None, mem)) /\
  (exists k, In (n2, k) unsupported /\ call_unsupported false k mem = Ok (None, mem)) /\
  (exists k r, In (n3, k) unsupported /\ call_unsupported false k mem = Ok (Some r, mem) /\
     r = 2 ^ 64 - 2).
Proof.
  intros M mem. do 3 eexists. do 3 (split; [reflexivity|]). split; [|split].
  - exists RVoid. split; [cbn; tauto | reflexivity].
  - exists RVoid. split; [cbn; tauto | reflexivity].
  - exists RSize, (2 ^ 64 - 2). split; [cbn; tauto|]. split; reflexivity.
Qed.

(** ** C60: shmem_info_get_name *)
(** A buffer of at least 256 bytes holds the NUL-terminated name, cut to 255 bytes, and nothing
    behind the first 256 bytes changes. *)
Theorem C60_name : forall vendor name, ~ In 0 vendor -> (256 <= length name)%nat ->
  exists b, info_get_name vendor name = Ok b /\ length b = length name /\
    c_string b (firstn 255 vendor) /\ skipn 256 b = skipn 256 name.
Proof. exact info_name. Qed.
Example C60_ex : ~ In 0 (repeat 65 300) /\
  info_get_name (repeat 65 300) (repeat 7 258) = Ok (repeat 65 255 ++ [0; 7; 7]) /\
  info_get_name [72; 105] (repeat 7 256) = Ok (72 :: 105 :: repeat 0 254).
Proof.
  split; [|split; reflexivity]. intros H. apply repeat_spec in H. discriminate.
Qed.

(** ** C73: life cycle *)
(** A program that uses only the library: any number of initialisation calls, then any number of
    finalize calls, then exit. MPI is initialised once, and finalised once unless nothing asks for
    it (shmem_init without shmem_finalize). *)
Theorem C73_life_cycle_partial : forall c cs k, is_init c -> Forall is_init cs ->
  exists s, process (c :: cs ++ repeat LFinalize k) = Ok s /\ l_ninit s = 1%nat /\
    l_nfinal s = (if (0 <? k)%nat then 1%nat else match c with LStartPes => 1%nat | _ => 0%nat end) /\
    (l_init s = true <-> k = 0%nat /\ c = LInit).
Proof. exact life_cycle. Qed.
Example C73_ex :
  process [LStartPes; LInit; LStartPes; LFinalize; LFinalize] =
    Ok {| l_init := false; l_start := true; l_atexit := 1; l_mpi := MDown; l_ninit := 1;
          l_nfinal := 1 |} /\
  process [LStartPes] =
    Ok {| l_init := false; l_start := true; l_atexit := 1; l_mpi := MDown; l_ninit := 1;
          l_nfinal := 1 |}.
Proof. split; reflexivity. Qed.
(** A program that initialises MPI itself cannot finalise it itself: finalising the library
    finalises MPI as well, and finalising MPI first makes shmem_finalize stop the program. *)
Theorem C73_user_mpi_refuted :
  process [LMpiInit; LInit; LFinalize; LMpiFinalize] = UB /\
  process [LMpiInit; LInit; LMpiFinalize; LFinalize] = Abort /\
  process [LInit; LFinalize; LInit] = UB.
Proof. split; [|split]; reflexivity. Qed.

Print Assumptions C51_wait_sound.
Print Assumptions C51_wait_returns.
Print Assumptions C51_wait_progress.
Print Assumptions C51_test.
Print Assumptions C51_test_progress.
Print Assumptions C51_wait_changed.
Print Assumptions C52_rejected_refuted.
Print Assumptions C52_never_rejected_refuted.
Print Assumptions C56_checked_partial.
Print Assumptions C56_fast_refuted.
Print Assumptions C60_name.
Print Assumptions C73_life_cycle_partial.
Print Assumptions C73_user_mpi_refuted.
