(** Property theorems C102 (team handles and configurations). *)
From Verif Require Import Base TeamModel TobjModel TobjSpec TobjProofs TobjProofs2.

(** Every sequence of team calls on a PE, from initialisation on, gives the answers that teams as
    plain values would give, whatever addresses and handles malloc and MPI choose (and reuse) among
    those not in use. What is missing: a malloc that fails. *)
Theorem C102_answers_partial : forall pn cts n me w v G cs T l,
  pn < 0 -> 0 <= cts -> 0 <= me < Z.of_nat n -> Z.of_nat n <= INT_MAX -> start_ok w v ->
  team_init cts n me = Ok G ->
  exists s, init cts n me w v = Ok s /\
    (calls_ok pn s cs -> answers me (mkTeams (upto (Z.of_nat n)) (tg_shared G) []) cs = Some (T, l) ->
     exists s', run pn s cs = Ok (s', l)).
Proof. exact all_calls. Qed.
Print Assumptions C102_answers_partial.

(** A call leaves every other team as it is: its number of PEs, the caller's number, its
    configuration and its members, even when the team it was split from is destroyed. *)
Theorem C102_others : forall pn cts n me w v G s cs T l c T' a t x,
  pn < 0 -> 0 <= cts -> 0 <= me < Z.of_nat n -> Z.of_nat n <= INT_MAX -> start_ok w v ->
  team_init cts n me = Ok G -> init cts n me w v = Ok s -> calls_ok pn s (cs ++ [c]) ->
  answers me (mkTeams (upto (Z.of_nat n)) (tg_shared G) []) cs = Some (T, l) ->
  answer me T c = Some (T', a) -> team_of T t = Some x -> c <> CDestroy t ->
  exists s1 s2, run pn s cs = Ok (s1, l) /\ do_call pn s1 c = Ok (s2, a) /\
    m_my_pe s2 t = m_my_pe s1 t /\ m_n_pes s2 t = m_n_pes s1 t /\ m_get_config s2 t = m_get_config s1 t /\
    (exists r, m_my_pe s1 t = Ok r /\ aget (v_group x) r = Some me) /\
    m_n_pes s1 t = Ok (Z.of_nat (length (v_group x))) /\
    m_get_config s1 t = Ok (SHMEM_SUCCESS, Some (v_cfg x)) /\
    forall i p, aget (v_group x) i = Some p ->
      m_translate pn s1 t i H_WORLD = Ok p /\ m_translate pn s2 t i H_WORLD = Ok p.
Proof. exact other_teams. Qed.
Print Assumptions C102_others.

(** When malloc fails in a split, OSHMPI_team_create reports SHMEM_OTHER_ERR but OSHMPI_team_split
    goes on to write through the NULL pointer; the program gets no error code. *)
Theorem C102_no_memory_refuted : exists pn cts n me w v s t u start stride size,
  init cts n me w v = Ok s /\ start_ok w v /\ nw_addr u = None /\
  (exists b, new_ok s (mkNew (Some b) (nw_comm u) (nw_group u)) /\
     exists s', do_call pn s (CStrided t start stride size None 0 (mkNew (Some b) (nw_comm u) (nw_group u)))
                = Ok (s', RTeam SHMEM_SUCCESS b)) /\
  do_call pn s (CStrided t start stride size None 0 u) = UB.
Proof.
  exists (-1), 1, 4%nat, 2, (mkNew (Some 4096) 1 1), (mkNew (Some 4160) 2 2).
  eexists. exists H_WORLD, (mkNew None 3 3), 0, 2, 2.
  split; [vm_compute; reflexivity|]. split.
  { split; [exists 4096; split; [reflexivity|discriminate]|].
    split; [exists 4160; split; [reflexivity|discriminate]|].
    repeat split; discriminate. }
  split; [reflexivity|]. split; [|vm_compute; reflexivity].
  exists 4224. split.
  - split; [|split; reflexivity]. exists 4224. split; [reflexivity|]. split; [|reflexivity].
    unfold H_INVALID, H_WORLD, H_SHARED. intros [X|[X|[X|[]]]]; discriminate.
  - eexists. vm_compute. reflexivity.
Qed.
Print Assumptions C102_no_memory_refuted.

(** PE 2 of 6: a strided team with a configuration, a grid of it without and with one, the parent
    destroyed, and its address and MPI handles used again for another team. *)
Definition ex_calls : list call :=
  [ CStrided H_WORLD 0 1 5 (Some 7) 1 (mkNew (Some 4224) 3 3);
    C2d 4224 2 None 0 (Some 9) 1 (mkNew (Some 4288) 4 4) (mkNew (Some 4352) 5 5);
    CConfig 4224; CDestroy 4224;
    CStrided H_WORLD 1 1 2 (Some 8) 0 (mkNew (Some 4224) 3 3);
    CN 4288; CMy 4288; CConfig 4288; CConfig 4352; CN 4352; CTranslate 4352 1 H_WORLD;
    CConfig 4224; CTranslate 4352 2 4288; CStrided 4352 3 1 1 None 0 (mkNew (Some 4416) 6 6);
    CStrided H_WORLD 3 1 2 None 0 (mkNew (Some 4416) 6 6); CDestroy H_WORLD; CN H_WORLD; CConfig H_INVALID ].
Example C102_nonvacuous :
  team_init 1 6 2 = Ok (mkTG [0;1;2;3;4;5] [0;1;2;3;4;5]) /\
  start_ok (mkNew (Some 4096) 1 1) (mkNew (Some 4160) 2 2) /\
  (exists s, init 1 6 2 (mkNew (Some 4096) 1 1) (mkNew (Some 4160) 2 2) = Ok s /\ calls_ok (-1) s ex_calls /\
    option_map snd (answers 2 (mkTeams (upto 6) [0;1;2;3;4;5] []) ex_calls) =
      Some [RTeam 0 4224; RTeams 0 4288 4352; RConfig 0 (Some 7); RVoid; RTeam 0 4224;
            RInt 2; RInt 0; RConfig 0 (Some 0); RConfig 0 (Some 9); RInt 3; RInt 2;
            RConfig 0 (Some 0); RInt (-1); RTeam (-2) 0; RTeam 0 0; RVoid; RInt 6; RConfig (-1) None]).
Proof.
  split; [vm_compute; reflexivity|]. split.
  { split; [exists 4096; split; [reflexivity|discriminate]|].
    split; [exists 4160; split; [reflexivity|discriminate]|].
    repeat split; discriminate. }
  eexists. split; [vm_compute; reflexivity|]. split; [|vm_compute; reflexivity].
  vm_compute.
  repeat match goal with
  | |- _ /\ _ => split
  | |- True => exact I
  | |- exists a, _ => eexists
  | |- _ = _ -> False => discriminate
  | |- _ \/ _ -> False => intros [X|[X|[X|[]]]]; discriminate
  | |- _ = _ => reflexivity
  end.
Qed.
