(** C108: blocking MPI calls with and without the progress thread. *)
From Verif Require Import PrwModel PrwSpec PrwProofs.

(** Every wrapper completes the operation it is named after with the arguments it was given, each in the role it has in the blocking
    call. Without the progress thread active messages are handled once after each test that says incomplete, and not after the last. *)
Theorem C108_same w vs flag k fuel (async : bool) : In w wrappers -> length vs = length (wr_params w) -> first_true flag k -> (k < fuel)%nat ->
  exists evs, run async fuel flag w vs = Some evs /\
    completes evs (wr_name w, norm (combine (roles (wr_name w)) vs)) (if async then 0 else k).
Proof. exact (wrapper_ok w vs flag k fuel async). Qed.
Print Assumptions C108_same.

(** It does not return before a test says that the operation is complete. *)
Theorem C108_not_early w vs flag fuel evs : run false fuel flag w vs = Some evs -> exists k, first_true flag k /\ (k < fuel)%nat.
Proof. exact (returns_late fuel flag w vs evs). Qed.
Print Assumptions C108_not_early.

(** The operations and their arguments can be told apart: what is completed determines what was given. *)
Theorem C108_arguments w w' vs vs' : In w wrappers -> In w' wrappers -> length vs = length (wr_params w) -> length vs' = length (wr_params w') ->
  wr_name w = wr_name w' -> norm (combine (roles (wr_name w)) vs) = norm (combine (roles (wr_name w')) vs') -> w = w' /\ vs = vs'.
Proof. exact (arguments w w' vs vs'). Qed.
Print Assumptions C108_arguments.

(** An allreduce that is complete at the third test. *)
Example C108_nonvacuous :
  let vs := [V 10; V 20; V 3; V 40; V 50; V 60] in
  let flag i := (2 <=? i)%nat in
  In w_allreduce wrappers /\ length vs = length (wr_params w_allreduce) /\ first_true flag 2 /\
  run false 5 flag w_allreduce vs =
    Some [Call "MPI_Iallreduce" [V 10; V 20; V 3; V 40; V 50; V 60; VReq]; Test "MPI_Test" [VReq; VFlag; VIgnore] false; Progress;
          Test "MPI_Test" [VReq; VFlag; VIgnore] false; Progress; Test "MPI_Test" [VReq; VFlag; VIgnore] true] /\
  run true 5 flag w_allreduce vs = Some [Call "MPI_Allreduce" vs].
Proof.
  cbv zeta. split; [cbn; tauto|]. split; [reflexivity|]. split; [|split; reflexivity]. split; [reflexivity|].
  intros i I. apply Nat.leb_gt. exact I.
Qed.
