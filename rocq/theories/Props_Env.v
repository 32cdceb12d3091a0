(** Properties of the options and the setup. *)
From Coq Require Import String.
From Verif Require Import Base AmCfgModel EnvModel EnvSpec EnvProofs.
Open Scope Z_scope.
Open Scope list_scope.

(** ** C46: OSHMPI_AMO_OPS *)
Theorem C46_listed : forall l, l <> [] ->
  exists m, init_amo_ops (Some (commas (map (fun o => bytes (amo_name o)) l))) = Ok m /\
    is_mask 14 m /\ forall o, Z.testbit m (amo_bit o) = true <-> In o l.
Proof. exact amo_listed. Qed.
Example C46_listed_ex :
  init_amo_ops (Some (commas (map (fun o => bytes (amo_name o)) [Aset; Afetch; Aset]))) =
    Ok (2 ^ 5 + 2 ^ 6).
Proof. reflexivity. Qed.
(** Any other text: an operation is enabled iff its name begins some field of the list. *)
Theorem C46_every_string : forall s, s <> [] -> ~ starts (bytes "none") s ->
  ~ starts (bytes "any_op") s ->
  exists m, init_amo_ops (Some s) = Ok m /\ is_mask 14 m /\
    forall o, Z.testbit m (amo_bit o) = true <->
      exists tok, field s tok /\ starts (bytes (amo_name o)) tok.
Proof. exact amo_every. Qed.
(** The match is by prefix, and a space hides a name. *)
Example C46_every_string_ex :
  init_amo_ops (Some (bytes ",,increment, add,fetch,")) = Ok (2 ^ 2 + 2 ^ 5).
Proof. reflexivity. Qed.
Theorem C46_special : forall r,
  init_amo_ops (Some (bytes "none" ++ r)) = Ok 0 /\
  init_amo_ops (Some (bytes "any_op" ++ r)) = Ok (2 ^ 14 - 1) /\
  init_amo_ops (Some []) = Ok (2 ^ 14 - 1) /\ init_amo_ops None = Ok (2 ^ 14 - 1).
Proof. intros r. split; [|split; [|split]]; reflexivity. Qed.
Theorem C46_round_trip : forall checks m, is_mask 14 m ->
  exists s, getstr_amo checks m = Ok s /\ Z.of_nat (length s) < 256 /\
    init_amo_ops (Some s) = Ok m.
Proof. exact amo_round. Qed.
Example C46_round_trip_ex :
  getstr_amo true (2 ^ 4 + 2 ^ 5 + 2 ^ 8) = Ok (bytes "add,fetch,fand") /\
  getstr_amo true 0 = Ok (bytes "none").
Proof. split; reflexivity. Qed.

(** ** C47: direct atomics and the window hints *)
(** With the decision left to run time and no debug override, the declared operations are atomic
    with each other under the hint. Missing: builds and debug modes that force direct atomics,
    the operations of locks and of wait_until (refuted below). *)
Theorem C47_direct_sound_partial : forall c ops l,
  cf_amo c = CRuntime -> cf_nodebug c = true \/ cf_dbg c <> DbgDirect ->
  cf_amo_direct c = h_direct (set_mpi_info_args ops) -> direct_amo c = true ->
  (forall o, In o l -> Z.testbit ops (amo_bit o) = true) ->
  atomic_under (h_acc (set_mpi_info_args ops)) (map (fun o => direct_op (amo_bit o)) l).
Proof.
  intros c ops l Hr Hd Ha Hdir Hl. apply direct_sound; auto. rewrite <- Ha.
  unfold direct_amo in Hdir. rewrite Hr in Hdir. destruct (cf_nodebug c); auto.
  destruct (cf_dbg c); try discriminate; auto. destruct Hd; congruence.
Qed.
Example C47_direct_sound_ex :
  let h := set_mpi_info_args (2 ^ 4 + 2 ^ 2 + 2 ^ 5) in
  h_direct h = true /\ h_acc h = HSameOpNoOp /\ h_which h = [OSum; ONoOp] /\
  h_direct (set_mpi_info_args (2 ^ 4 + 2 ^ 6)) = false.
Proof. vm_compute. split; [|split; [|split]]; reflexivity. Qed.
Theorem C47_which_complete : forall ops o, Z.testbit ops (amo_bit o) = true ->
  In (direct_op (amo_bit o)) (h_which (set_mpi_info_args ops)).
Proof. exact which_complete. Qed.
(** A build with --enable-amo=direct, or debug mode "direct", maps all declared operations on
    MPI while the hint promises one operation. *)
Theorem C47_forced_direct_refuted :
  (exists c ops l, cf_amo c = CDirect /\ cf_amo_direct c = h_direct (set_mpi_info_args ops) /\
     init_amo_ops None = Ok ops /\ (forall o, In o l -> Z.testbit ops (amo_bit o) = true) /\
     direct_amo c = true /\
     ~ atomic_under (h_acc (set_mpi_info_args ops)) (map (fun o => direct_op (amo_bit o)) l)) /\
  (exists c ops l, cf_amo c = CRuntime /\ cf_dbg c = DbgDirect /\
     cf_amo_direct c = h_direct (set_mpi_info_args ops) /\
     init_amo_ops None = Ok ops /\ (forall o, In o l -> Z.testbit ops (amo_bit o) = true) /\
     direct_amo c = true /\
     ~ atomic_under (h_acc (set_mpi_info_args ops)) (map (fun o => direct_op (amo_bit o)) l)).
Proof.
  assert (N : ~ atomic_under (h_acc (set_mpi_info_args (2 ^ 14 - 1)))
                (map (fun o => direct_op (amo_bit o)) [Aadd; Aset])).
  { intros (op & H). pose proof (H OSum (or_introl eq_refl)).
    pose proof (H OReplace (or_intror (or_introl eq_refl))). intuition congruence. }
  assert (L : forall o, In o [Aadd; Aset] -> Z.testbit (2 ^ 14 - 1) (amo_bit o) = true).
  { intros o [<- | [<- | []]]; reflexivity. }
  split.
  - exists {| cf_amo := CDirect; cf_rma := CRuntime; cf_async := ARuntime; cf_nodebug := true;
              cf_dbg := DbgAuto; cf_amo_direct := false; cf_env_async := true |},
           (2 ^ 14 - 1), [Aadd; Aset].
    split; [|split; [|split; [|split; [|split]]]]; try reflexivity; assumption.
  - exists {| cf_amo := CRuntime; cf_rma := CRuntime; cf_async := ARuntime; cf_nodebug := false;
              cf_dbg := DbgDirect; cf_amo_direct := false; cf_env_async := true |},
           (2 ^ 14 - 1), [Aadd; Aset].
    split; [|split; [|split; [|split; [|split; [|split]]]]]; try reflexivity; assumption.
Qed.
(** The operations of locks break the hint whatever is declared. *)
Theorem C47_lock_refuted :
  exists ops, init_amo_ops None = Ok ops /\
    ~ atomic_under (h_acc (set_mpi_info_args ops)) lock_ops.
Proof.
  exists (2 ^ 14 - 1). split; [reflexivity|]. intros (op & H).
  pose proof (H OReplace (or_introl eq_refl)).
  pose proof (H OCas ltac:(cbn; tauto)). intuition congruence.
Qed.
(** With OSHMPI_AMO_OPS=add the hint promises one operation only, and shmem_wait_until reads the
    variable with MPI_NO_OP while other PEs add to it. *)
Theorem C47_wait_refuted :
  exists ops, init_amo_ops (Some (bytes "add")) = Ok ops /\
    h_direct (set_mpi_info_args ops) = true /\
    ~ atomic_under (h_acc (set_mpi_info_args ops)) [direct_op (amo_bit Aadd); wait_op].
Proof.
  exists (2 ^ 4). split; [reflexivity|]. split; [reflexivity|]. intros (op & H).
  pose proof (H OSum (or_introl eq_refl)) as [A | (A & _)]; [|vm_compute in A; discriminate].
  pose proof (H ONoOp (or_intror (or_introl eq_refl))) as [B | (B & _)];
    [congruence|vm_compute in B; discriminate].
Qed.

(** ** C48: SHMEM_SYMMETRIC_SIZE *)
(** Exact for numbers with at most 24 significant bits, so for all up to 2^24. Missing: larger
    numbers (refuted below; the error is bounded). *)
Theorem C48_exact_partial : forall ds suf k m j, decimal ds -> size_suffix suf k ->
  dec_val ds = m * 2 ^ j -> 0 <= m < 2 ^ 24 -> 0 <= j -> dec_val ds * 1024 ^ k < 2 ^ 63 ->
  init_heap_size (Some (ds ++ suf)) = Ok (dec_val ds * 1024 ^ k).
Proof. exact heap_exact. Qed.
Example C48_exact_ex :
  decimal (bytes "300000000") /\ dec_val (bytes "300000000") = 1171875 * 2 ^ 8 /\
  init_heap_size (Some (bytes "300000000")) = Ok 300000000 /\
  init_heap_size (Some (bytes "512M")) = Ok (512 * 1024 ^ 2) /\
  init_heap_size (Some (bytes "3.1M")) = Ok 3250586 /\
  init_heap_size (Some (bytes "2GiB")) = Ok (2 * 1024 ^ 3) /\
  init_heap_size (Some (bytes "512 M")) = Ok 512 /\
  size_suffix (bytes "GiB") 3 /\ size_suffix (bytes " M") 0.
Proof.
  split; [split; [discriminate|repeat constructor; discriminate]|].
  split; [reflexivity|split; [reflexivity|split; [reflexivity|]]].
  split; [reflexivity|]. split; [reflexivity|]. split; [reflexivity|].
  split; constructor; [left; cbn; tauto|right]. split; [|split; [left|]; reflexivity].
  cbn. intuition discriminate.
Qed.
Theorem C48_exact_refuted : exists ds suf k r, decimal ds /\ size_suffix suf k /\
  dec_val ds * 1024 ^ k < 2 ^ 25 /\ init_heap_size (Some (ds ++ suf)) = Ok r /\
  r <> dec_val ds * 1024 ^ k.
Proof.
  exists (bytes "16777217"), [], 0, 16777216.
  split; [split; [discriminate|repeat constructor; discriminate]|].
  split; [constructor|]. split; [reflexivity|]. split; [reflexivity|]. discriminate.
Qed.
(** For every integer the relative error is at most 2^-24. *)
Theorem C48_error_partial : forall ds suf k, decimal ds -> size_suffix suf k ->
  dec_val ds * 1024 ^ k < 2 ^ 62 ->
  exists r, init_heap_size (Some (ds ++ suf)) = Ok r /\
    2 ^ 24 * Z.abs (r - dec_val ds * 1024 ^ k) <= dec_val ds * 1024 ^ k.
Proof. exact heap_error. Qed.
Example C48_error_ex : init_heap_size (Some (bytes "99999999999")) = Ok 99999997952.
Proof. reflexivity. Qed.
(** A number [a / b] with a fraction: the same relative error, and less than one byte more. *)
Theorem C48_fraction_partial : forall ip fp suf k a b, decimal ip ->
  Forall (fun c => 48 <= c <= 57) fp -> size_suffix suf k ->
  a = dec_val (ip ++ fp) -> b = 10 ^ Z.of_nat (length fp) -> b <= a ->
  a * 1024 ^ k < b * 2 ^ 62 ->
  exists r, init_heap_size (Some (ip ++ 46 :: fp ++ suf)) = Ok r /\
    2 ^ 24 * Z.abs (r * b - a * 1024 ^ k) <= a * 1024 ^ k + 2 ^ 24 * b.
Proof. exact size_frac. Qed.
Example C48_fraction_ex :
  init_heap_size (Some (bytes "1" ++ 46 :: bytes "5" ++ bytes "k")) = Ok 1536 /\
  init_heap_size (Some (bytes "2" ++ 46 :: bytes "75" ++ [])) = Ok 2.
Proof. split; reflexivity. Qed.

(** ** C49: thread levels *)
Theorem C49_level : forall s w r st p ret,
  shmem_init_thread s w None r = Ok (st, p, ret) ->
  level r /\ st = p /\
  (exists asked, asked <= build_max (s_build s) /\ p <= asked /\ p <= mpi_level w asked) /\
  (ret = 0 <-> r <= p) /\ (ret = 0 \/ ret = -2) /\
  (enable_async_thread s = true -> p = 3) /\
  (enable_async_thread s = false -> p <= r).
Proof.
  intros s w r st p ret. unfold shmem_init_thread.
  destruct (initialize_thread s w r) as [l| | |] eqn:E; cbn [bind]; try discriminate.
  intros H. injection H as <- <- <-.
  destruct (init_thread_spec s w r l E) as (asked & Hr & Ea & El & Hasync).
  split; auto. split; auto. split; [|split; [|split; [|split]]].
  - exists asked. destruct (enable_async_thread s); lia.
  - unfold SHMEM_SUCCESS, SHMEM_OTHER_ERR. destruct (r <=? l) eqn:?; lia.
  - unfold SHMEM_SUCCESS, SHMEM_OTHER_ERR. destruct (r <=? l); auto.
  - auto.
  - intros A. rewrite A in Ea. lia.
Qed.
Definition ex_setup b a : setup :=
  {| s_build := b; s_env_async := a;
     s_cfg := {| cf_amo := CRuntime; cf_rma := CRuntime; cf_async := ARuntime; cf_nodebug := true;
                 cf_dbg := DbgAuto; cf_amo_direct := false; cf_env_async := false |} |}.
Definition ex_mpi l : mpi_env := {| mpi_already := None; mpi_init_thread := fun r => Z.min r l |}.
Example C49_level_ex :
  shmem_init_thread (ex_setup BMultiple (Some 0)) (ex_mpi 2) None 3 = Ok (2, 2, -2) /\
  shmem_init_thread (ex_setup BMultiple None) (ex_mpi 3) None 0 = Ok (3, 3, 0).
Proof. split; reflexivity. Qed.
(** A second call changes nothing and reports the level of the first. *)
Theorem C49_again : forall s w l r, shmem_init_thread s w (Some l) r =
  Ok (l, l, if r <=? l then 0 else -2).
Proof. reflexivity. Qed.
(** Initialisation fails exactly for an unknown level, or when the progress thread is enabled and
    MPI cannot give MULTIPLE. *)
Theorem C49_aborts : forall s w r, configured s -> (forall q, mpi_level w q <= 3) ->
  shmem_init_thread s w None r = Abort <->
  ~ level r \/ (enable_async_thread s = true /\ mpi_level w 3 < 3).
Proof. exact configured_aborts. Qed.
Example C49_aborts_ex :
  configured (ex_setup BMultiple None) /\
  shmem_init_thread (ex_setup BMultiple None) (ex_mpi 2) None 0 = Abort /\
  shmem_init_thread (ex_setup BMultiple (Some 0)) (ex_mpi 2) None 0 = Ok (0, 0, 0) /\
  shmem_init_thread (ex_setup BMultiple None) (ex_mpi 3) None 7 = Abort.
Proof. split; [intros _; reflexivity|]. split; [|split]; reflexivity. Qed.

(** ** C70: OSHMPI_MPI_GPU_FEATURES *)
(** A transfer of a device buffer uses MPI RMA iff its kind is listed, else MPI point to point
    iff that is listed, else the program stops; host buffers always use RMA. *)
Theorem C70_gpu_features : forall l, l <> [] ->
  exists m, init_gpu_features (Some (commas (map (fun o => bytes (gpu_name o)) l))) = Ok m /\
    is_mask 4 m /\ (forall o, Z.testbit m (gpu_bit o) = true <-> In o l) /\
    forall k, check_gpu_direct_rma m false k = Ok true /\
      (check_gpu_direct_rma m true k = Ok true <->
         In (match k with KPut => Gput | KGet => Gget end) l) /\
      (check_gpu_direct_rma m true k = Ok false <->
         ~ In (match k with KPut => Gput | KGet => Gget end) l /\ In Gpt2pt l).
Proof. exact gpu_features. Qed.
Example C70_gpu_features_ex :
  init_gpu_features (Some (bytes "pt2pt,get")) = Ok 5 /\
  check_gpu_direct_rma 5 true KPut = Ok false /\ check_gpu_direct_rma 5 true KGet = Ok true /\
  check_gpu_direct_rma 8 true KGet = Abort.
Proof. split; [|split; [|split]]; reflexivity. Qed.
Theorem C70_round_trip : forall checks m, is_mask 4 m ->
  exists s, getstr_gpu checks m = Ok s /\ Z.of_nat (length s) < 256 /\
    init_gpu_features (Some s) = Ok m.
Proof. exact gpu_round. Qed.
Theorem C70_special : forall r,
  init_gpu_features (Some (bytes "none" ++ r)) = Ok 0 /\
  init_gpu_features (Some (bytes "all" ++ r)) = Ok 15 /\
  init_gpu_features (Some []) = Ok 15 /\ init_gpu_features None = Ok 15.
Proof. intros r. split; [|split; [|split]]; reflexivity. Qed.

(** ** C71: the environment of the process *)
Theorem C71_environment_refuted : exists s, env_after (bytes "any_op") s <> s.
Proof. exists (bytes "add,fetch"). discriminate. Qed.
(** Unchanged if there is no comma behind a name. Missing: lists of two or more names. *)
Theorem C71_environment_partial : forall all s,
  starts (bytes "none") s \/ starts all s \/ ~ In 44 s -> env_after all s = s.
Proof. exact env_same. Qed.
Example C71_environment_ex :
  env_after (bytes "any_op") (bytes "add,fetch") = bytes "add" /\
  env_after (bytes "any_op") (bytes "fetch") = bytes "fetch".
Proof. split; reflexivity. Qed.

(** ** C72: when the progress thread runs (--enable-async-thread=auto) *)
(** Without an override by the user it runs whenever some operations are active messages.
    Missing: that it does not run otherwise (refuted below). *)
Theorem C72_progress_thread_partial : forall s ops,
  cf_async (s_cfg s) = ARuntime -> s_env_async s = None ->
  direct_amo (final_cfg s ops) = false \/ direct_rma_config (final_cfg s ops) = false ->
  enable_async_thread s = true.
Proof. exact progress_thread. Qed.
Example C72_progress_thread_ex :
  direct_amo (final_cfg (ex_setup BMultiple None) (2 ^ 14 - 1)) = false /\
  enable_async_thread (ex_setup BMultiple None) = true.
Proof. split; reflexivity. Qed.
(** The configure option and the user decide. *)
Theorem C72_choice : forall s,
  (cf_async (s_cfg s) = AYes -> enable_async_thread s = true) /\
  (cf_async (s_cfg s) = ANo -> enable_async_thread s = false) /\
  (forall v, cf_async (s_cfg s) = ARuntime -> s_env_async s = Some v -> (enable_async_thread s = true <-> v <> 0)).
Proof.
  intros s. unfold enable_async_thread. split; [|split]; [intros ->; reflexivity..|]. intros v -> ->.
  rewrite negb_true_iff, Z.eqb_neq. reflexivity.
Qed.
Example C72_choice_ex : exists s, cf_async (s_cfg s) = ARuntime /\ s_env_async s = Some 0 /\ enable_async_thread s = false.
Proof.
  exists {| s_build := BMultiple; s_cfg := s_cfg (ex_setup BMultiple None); s_env_async := Some 0 |}. split; [|split]; reflexivity.
Qed.
(** With direct RMA and OSHMPI_AMO_OPS=add everything is direct, yet the thread runs: the default
    is computed before the declared operations are looked at. *)
Theorem C72_progress_thread_refuted : exists s ops,
  configured s /\ cf_async (s_cfg s) = ARuntime /\ s_env_async s = None /\
  init_amo_ops (Some (bytes "add")) = Ok ops /\
  direct_amo (final_cfg s ops) = true /\ direct_rma_config (final_cfg s ops) = true /\
  enable_async_thread s = true.
Proof.
  exists {| s_build := BMultiple; s_env_async := None;
     s_cfg := {| cf_amo := CRuntime; cf_rma := CDirect; cf_async := ARuntime; cf_nodebug := true;
                 cf_dbg := DbgAuto; cf_amo_direct := false; cf_env_async := false |} |}, (2 ^ 4).
  split; [intros _; reflexivity|].
  split; [|split; [|split; [|split; [|split]]]]; reflexivity.
Qed.

Print Assumptions C46_listed.
Print Assumptions C46_every_string.
Print Assumptions C46_special.
Print Assumptions C46_round_trip.
Print Assumptions C47_direct_sound_partial.
Print Assumptions C47_which_complete.
Print Assumptions C47_forced_direct_refuted.
Print Assumptions C47_lock_refuted.
Print Assumptions C47_wait_refuted.
Print Assumptions C48_exact_partial.
Print Assumptions C48_exact_refuted.
Print Assumptions C48_error_partial.
Print Assumptions C48_fraction_partial.
Print Assumptions C49_level.
Print Assumptions C49_again.
Print Assumptions C49_aborts.
Print Assumptions C70_gpu_features.
Print Assumptions C70_round_trip.
Print Assumptions C70_special.
Print Assumptions C71_environment_refuted.
Print Assumptions C71_environment_partial.
Print Assumptions C72_progress_thread_partial.
Print Assumptions C72_choice.
Print Assumptions C72_progress_thread_refuted.
