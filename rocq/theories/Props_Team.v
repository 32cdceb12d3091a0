(** Property theorems C16-C21 (teams). *)
From Verif Require Import Base ListLib TeamModel TeamSpec TeamProofs.

(** C16. [cts] is the implementation's value of MPI_COMM_TYPE_SHARED. *)
Theorem C16_strided_members : forall cts n me G parent start stride size,
  0 <= cts -> 0 <= me < Z.of_nat n -> team_init cts n me = Ok G -> team_reach G parent ->
  Z.of_nat n <= INT_MAX ->
  0 <= start -> 0 < stride -> 0 < size -> start + stride * (size - 1) < team_n_pes G parent ->
  exists l, split_strided G parent start stride size = Ok l /\
    Z.of_nat (length l) = team_n_pes G parent /\
    forall r p, member G parent r = Some p ->
      exists t, aget l r = Some (SHMEM_SUCCESS, t) /\
        ((exists k, 0 <= k < size /\ r = start + k * stride /\
            team_n_pes G t = size /\ team_my_pe G p t = Ok k /\
            forall k', 0 <= k' < size -> member G t k' = member G parent (start + k' * stride)) \/
         ((forall k, 0 <= k < size -> r <> start + k * stride) /\ t = TInvalid)).
Proof. exact strided_members. Qed.
Print Assumptions C16_strided_members.

Definition G7 : tglobal := mkTG [0;1;2;3;4;5;6] [0;1;2;3;4;5;6].
Example C16_nonvacuous :
  team_init 1 7 3 = Ok G7 /\ team_reach G7 TWorld /\ 1 + 2 * (3 - 1) < team_n_pes G7 TWorld /\
  split_strided G7 TWorld 1 2 3 =
    Ok [(0, TInvalid); (0, TObj [1;3;5]); (0, TInvalid); (0, TObj [1;3;5]); (0, TInvalid);
        (0, TObj [1;3;5]); (0, TInvalid)].
Proof. split; [vmr|]. split; [constructor|]. split; vmr. Qed.
Example C16_nested :
  split_strided G7 (TObj [1;3;5]) 0 2 2 = Ok [(0, TObj [1;5]); (0, TInvalid); (0, TObj [1;5])].
Proof. vmr. Qed.

(** C17: exact for existing PEs of valid teams, with round trip; invalid handles give -1. *)
Theorem C17_translate_exact_partial : forall pn cts n me G A B a p,
  pn < 0 -> 0 <= cts -> team_init cts n me = Ok G -> 0 <= me < Z.of_nat n ->
  team_reach G A -> team_reach G B -> member G A a = Some p ->
  exists b, team_translate_pe pn G A a B = Ok b /\
    ((member G B b = Some p /\ team_translate_pe pn G B b A = Ok a) \/
     (b = -1 /\ forall b', member G B b' <> Some p)).
Proof. exact translate_spec. Qed.
Print Assumptions C17_translate_exact_partial.

Theorem C17_invalid_team : forall pn G a t,
  team_translate_pe pn G TInvalid a t = Ok (-1) /\ team_translate_pe pn G t a TInvalid = Ok (-1).
Proof. intros. split; [reflexivity|]. unfold team_translate_pe. simpl. destruct (team_group G t); reflexivity. Qed.
Print Assumptions C17_invalid_team.

(** What shmem_team_n_pes and shmem_team_my_pe return: the members are numbered from 0 to n_pes - 1,
    my_pe is the caller's number, and both are -1 for SHMEM_TEAM_INVALID. *)
Theorem C17_query : forall cts n me G t, 0 <= cts -> 0 <= me < Z.of_nat n -> team_init cts n me = Ok G ->
  team_n_pes G TInvalid = -1 /\ team_my_pe G me TInvalid = Ok (-1) /\
  (team_reach G t -> 0 <= team_n_pes G t /\
     (forall a, (exists p, member G t a = Some p) <-> 0 <= a < team_n_pes G t) /\
     (forall p k, team_my_pe G p t = Ok k <-> member G t k = Some p)).
Proof. exact team_query. Qed.
Print Assumptions C17_query.

Lemma reach_odd : team_reach G7 (TObj [1;3;5]).
Proof.
  eapply (TR_strided G7 TWorld 1 2 3); [constructor|vmr| |discriminate].
  right. left. reflexivity.
Qed.
Example C17_nonvacuous :
  team_reach G7 (TObj [1;3;5]) /\ member G7 (TObj [1;3;5]) 1 = Some 3 /\
  team_translate_pe (-1) G7 (TObj [1;3;5]) 1 TWorld = Ok 3 /\
  team_translate_pe (-1) G7 TWorld 3 (TObj [1;3;5]) = Ok 1 /\
  team_translate_pe (-1) G7 TWorld 2 (TObj [1;3;5]) = Ok (-1).
Proof. split; [exact reach_odd|]. split; [vmr|]. split; [vmr|]. split; vmr. Qed.

(** C17 fails for a PE number outside the source team: MPI aborts instead of returning -1, for
    every such number but the implementation's MPI_PROC_NULL. *)
Theorem C17_bad_pe_refuted : exists cts n me G A B a,
  team_init cts n me = Ok G /\ team_reach G A /\ team_reach G B /\
  member G A a = None /\ team_translate_pe (-1) G A a B = Abort.
Proof.
  exists 1, 7%nat, 3, G7, (TObj [1;3;5]), TWorld, 3.
  split; [vmr|]. split; [exact reach_odd|]. split; [constructor|]. split; vmr.
Qed.
Print Assumptions C17_bad_pe_refuted.

(** C18. *)
Theorem C18_grid : forall cts n me G parent x,
  0 <= cts -> 0 <= me < Z.of_nat n -> team_init cts n me = Ok G -> team_reach G parent -> 0 < x ->
  exists l, split_2d G parent x = Ok l /\ Z.of_nat (length l) = team_n_pes G parent /\
    forall r p, member G parent r = Some p ->
      exists tx ty, aget l r = Some (SHMEM_SUCCESS, tx, ty) /\
        team_my_pe G p tx = Ok (r mod x) /\ team_my_pe G p ty = Ok (r / x) /\
        forall r2 p2, member G parent r2 = Some p2 ->
          ((exists k, member G tx k = Some p2) <-> r2 / x = r / x) /\
          ((exists k, member G ty k = Some p2) <-> r2 mod x = r mod x).
Proof. exact grid_members. Qed.
Print Assumptions C18_grid.

Example C18_nonvacuous :
  team_init 1 7 3 = Ok G7 /\
  split_2d G7 TWorld 3 =
    Ok [(0, TObj [0;1;2], TObj [0;3;6]); (0, TObj [0;1;2], TObj [1;4]); (0, TObj [0;1;2], TObj [2;5]);
        (0, TObj [3;4;5], TObj [0;3;6]); (0, TObj [3;4;5], TObj [1;4]); (0, TObj [3;4;5], TObj [2;5]);
        (0, TObj [6], TObj [0;3;6])].
Proof. split; vmr. Qed.

(** C19, for positive stride and size without overflow: an error and SHMEM_TEAM_INVALID on every
    PE exactly when the selection does not fit. *)
Theorem C19_errors_partial : forall cts n me G parent start stride size,
  0 <= cts -> 0 <= me < Z.of_nat n -> team_init cts n me = Ok G -> team_reach G parent ->
  Z.of_nat n <= INT_MAX ->
  - 2 ^ 31 <= start <= INT_MAX -> 0 < stride <= INT_MAX -> 0 < size <= INT_MAX ->
  stride * (size - 1) + Z.max 0 start <= INT_MAX ->
  exists l, split_strided G parent start stride size = Ok l /\
    Z.of_nat (length l) = team_n_pes G parent /\
    ((0 <= start /\ start + stride * (size - 1) < team_n_pes G parent /\
      (forall rc t, In (rc, t) l -> rc = SHMEM_SUCCESS) /\ exists rc t, In (rc, t) l /\ t <> TInvalid) \/
     (~ (0 <= start /\ start + stride * (size - 1) < team_n_pes G parent) /\
      forall rc t, In (rc, t) l -> rc = SHMEM_OTHER_ERR /\ t = TInvalid)).
Proof. exact strided_error_iff. Qed.
Print Assumptions C19_errors_partial.

Example C19_nonvacuous :
  split_strided G7 TWorld 1 2 4 = Ok (map (fun _ => (-2, TInvalid)) [0;1;2;3;4;5;6]) /\
  split_strided G7 TWorld (-1) 2 2 = Ok (map (fun _ => (-2, TInvalid)) [0;1;2;3;4;5;6]).
Proof. split; vmr. Qed.

(** C19 fails: zero stride and zero xrange divide by zero, large arguments overflow int, a
    negative xrange aborts in MPI, and a negative stride or a size of 0 is reported as success
    although no team is created. *)
Theorem C19_bad_args_refuted :
  team_init 1 7 3 = Ok G7 /\
  (exists start size, split_strided G7 TWorld start 0 size = UB) /\
  (exists start stride size, 0 < stride <= INT_MAX /\ 0 < size <= INT_MAX /\
     split_strided G7 TWorld start stride size = UB) /\
  (exists start stride size l, stride < 0 /\ split_strided G7 TWorld start stride size = Ok l /\
     forall rc t, In (rc, t) l -> rc = SHMEM_SUCCESS /\ t = TInvalid) /\
  (exists start stride size l, size <= 0 /\ split_strided G7 TWorld start stride size = Ok l /\
     forall rc t, In (rc, t) l -> rc = SHMEM_SUCCESS /\ t = TInvalid) /\
  split_2d G7 TWorld 0 = UB /\ split_2d G7 TWorld (-2) = Abort.
Proof.
  split; [vmr|]. split; [exists 0, 1; vmr|]. split.
  { exists 1, 65536, 65536. unfold INT_MAX. split; [lia|]. split; [lia|]. vmr. }
  split.
  { exists 3, (-1), 2, (map (fun _ => (0, TInvalid)) (zseq 0 7)). split; [lia|]. split; [vmr|].
    intros rc t H. apply in_map_iff in H. destruct H as (? & E & _). injection E as <- <-; split; reflexivity. }
  split.
  { exists 3, 1, 0, (map (fun _ => (0, TInvalid)) (zseq 0 7)). split; [lia|]. split; [vmr|].
    intros rc t H. apply in_map_iff in H. destruct H as (? & E & _). injection E as <- <-; split; reflexivity. }
  split; vmr.
Qed.
Print Assumptions C19_bad_args_refuted.

(** C20 holds when all PEs are on one node, and fails otherwise: SHMEM_TEAM_SHARED has all PEs. *)
Definition shared_iff_same_node (G : tglobal) (n : nat) (node : Z -> Z) : Prop :=
  forall i j, 0 <= i < Z.of_nat n -> 0 <= j < Z.of_nat n ->
    ((exists a b, member G TShared a = Some i /\ member G TShared b = Some j) <-> node i = node j).

Theorem C20_one_node_partial : forall cts n me G node,
  0 <= cts -> 0 <= me < Z.of_nat n -> team_init cts n me = Ok G ->
  (forall i j, node i = node j) -> shared_iff_same_node G n node.
Proof.
  intros cts n me G node Hc Hm EG HN i j Hi Hj.
  rewrite (team_init_ok cts n me Hc Hm) in EG. injection EG as <-.
  split; [intros _; apply HN|]. intros _. exists i, j. unfold member. simpl.
  rewrite !aget_zseq by assumption. split; reflexivity.
Qed.
Print Assumptions C20_one_node_partial.
Example C20_nonvacuous : team_init 1 7 3 = Ok G7 /\ member G7 TShared 4 = Some 4.
Proof. split; vmr. Qed.

Theorem C20_two_nodes_refuted : exists cts n me G node,
  0 <= cts /\ 0 <= me < Z.of_nat n /\ team_init cts n me = Ok G /\ ~ shared_iff_same_node G n node.
Proof.
  exists 1, 7%nat, 3, G7, (fun i => i / 4). split; [lia|]. split; [lia|]. split; [vmr|].
  intros H. destruct (H 0 4 ltac:(lia) ltac:(lia)) as [H1 _].
  assert (E : 0 / 4 = 4 / 4) by (apply H1; exists 0, 4; split; vmr). vm_compute in E. discriminate.
Qed.
Print Assumptions C20_two_nodes_refuted.

(** C21 for SHMEM_TEAM_WORLD: whatever the schedule, a PE that has returned got SHMEM_SUCCESS and
    by then every PE had called. *)
Theorem C21_world_partial : forall n sched i rc,
  aget (sync_run TWorld (repeat SBefore n) sched) i = Some (SDone rc) ->
  rc = SHMEM_SUCCESS /\
  forall j p, aget (sync_run TWorld (repeat SBefore n) sched) j = Some p -> p <> SBefore.
Proof. exact sync_world_init. Qed.
Print Assumptions C21_world_partial.
Example C21_nonvacuous :
  sync_run TWorld (repeat SBefore 3) [0;0;1;2;0;1;1] = [SDone 0; SDone 0; SInside].
Proof. vmr. Qed.

(** C21 fails for every other team: one member returns an error before any other member called. *)
Theorem C21_user_team_refuted : exists G t sched,
  team_init 1 7 3 = Ok G /\ team_reach G t /\ team_n_pes G t = 3 /\
  sync_run t (repeat SBefore 3) sched = [SDone SHMEM_OTHER_ERR; SBefore; SBefore].
Proof.
  exists G7, (TObj [1;3;5]), [0]. split; [vmr|]. split; [exact reach_odd|]. split; vmr.
Qed.
Print Assumptions C21_user_team_refuted.
