(** C88: looking through the spaces while other threads change them. *)
From Verif Require Import Base PubModel PubSpec PubProofs PubProofs2 PubProofs3.

(** Searches for the space of an address never read anything unset or released, whatever spaces other threads are making,
    attaching, detaching and destroying at the same time. *)
Theorem C88_lookup dyn track xs r : no_quiet xs = true -> prun dyn track pst0 xs = Some r -> exists s, r = Ok s.
Proof. intros N E. eapply search_run; eauto; [apply PI0|]. intros i. reflexivity. Qed.
Print Assumptions C88_lookup.
Definition muts (k : Z) (n : nat) : list plab := repeat (PMut k) n.
Definition gos (i : Z) (n : nat) : list plab := repeat (PGo i) n.
(** A search while one space is being made and another waits to be destroyed; then the destroy goes on. *)
Definition lookup_run : list plab :=
  [PCreate 1 1] ++ muts 1 9 ++ [PCreate 2 3] ++ muts 2 5 ++ [PDestroy 1; PRead 7 false] ++ gos 7 2 ++ muts 2 1 ++ gos 7 2 ++ muts 1 4.
Example C88_lookup_run : no_quiet lookup_run = true /\
  match prun false true pst0 lookup_run with Some (Ok s) => p_list s = [2] /\ f_mem (p_f s 1) = false /\ p_rd s 7 = [] | _ => False end.
Proof. vm_compute. repeat split; reflexivity. Qed.
(** The search stands between the destroy and the list. *)
Example C88_lookup_waits :
  prun false true pst0 ([PCreate 1 1] ++ muts 1 9 ++ [PDestroy 1; PRead 7 false; PGo 7; PMut 1]) = None.
Proof. vmr. Qed.

(** shmem_quiet and shmem_fence as well, but only as long as each space in the list is settled. *)
Theorem C88_quiet_partial dyn track xs s i r : prun dyn track pst0 xs = Some (Ok s) -> calm dyn track s ->
  pstep dyn track s (PGo i) = Some r -> exists s', r = Ok s'.
Proof. intros E C P. eapply calm_go; eauto. eapply PI_run; eauto. apply PI0. Qed.
Print Assumptions C88_quiet_partial.
Definition quiet_run : list plab :=
  [PCreate 1 2] ++ muts 1 9 ++ [PAttach 1] ++ muts 1 10 ++ [PPut 1 None; PPut 1 (Some 1%nat)] ++ [PCreate 2 0] ++ muts 2 9 ++ [PDestroy 2; PRead 7 true] ++ gos 7 3.
Example C88_quiet_run : match prun false true pst0 quiet_run with
  | Some (Ok s) => calm false true s /\ p_rd s 7 = [WSlot 1 1; WDef 1; WCfg 2; WExit] /\ f_ctx (p_f s 1) = CArr [mkSlot (Some WLive) (Some false); mkSlot (Some WLive) (Some true)]
  | _ => False end.
Proof.
  vm_compute. split; [|split; reflexivity]. intros k [<-|[<-|[]]]; [exact I|]. split; [reflexivity|]. right. split; reflexivity.
Qed.
Example C88_quiet_end : match prun false true pst0 (quiet_run ++ gos 7 5 ++ muts 2 4) with
  | Some (Ok s) => p_rd s 7 = [] /\ sl_flag (f_def (p_f s 1)) = Some false /\ p_list s = [1]
  | _ => False end.
Proof. vm_compute. repeat split; reflexivity. Qed.

(** A space being made is in the list before its fields are set. *)
Theorem C88_create_refuted dyn track : exists xs, prun dyn track pst0 xs = Some UB.
Proof. exists ([PCreate 1 0] ++ muts 1 5 ++ [PRead 7 true] ++ gos 7 2). destruct dyn, track; vmr. Qed.
Print Assumptions C88_create_refuted.
(** The contexts of a space being attached can be seen before they are set. *)
Theorem C88_attach_refuted dyn track : exists xs s k, prun dyn track pst0 xs = Some (Ok s) /\ p_stat s k = SAtt 1 /\
  exists ys, prun dyn track s ys = Some UB.
Proof.
  exists ([PCreate 1 1] ++ muts 1 (if dyn then 7 else 9) ++ [PAttach 1] ++ muts 1 (if dyn then 1 else 4)).
  destruct dyn, track; eexists; exists 1; (split; [vm_compute; reflexivity|]); (split; [reflexivity|]);
    exists ([PRead 7 true] ++ gos 7 3); vm_compute; reflexivity.
Qed.
Print Assumptions C88_attach_refuted.
(** The contexts of a space being detached can be seen after they are released. *)
Theorem C88_detach_refuted dyn track : exists xs s k, prun dyn track pst0 xs = Some (Ok s) /\ p_stat s k = SDet 1 /\
  f_ctx (p_f s k) = CFreed /\ exists ys, prun dyn track s ys = Some UB.
Proof.
  exists ([PCreate 1 1] ++ muts 1 (if dyn then 7 else 9) ++ [PAttach 1] ++ muts 1 (if dyn then 4 else 7) ++ [PDetach 1] ++ muts 1 (if dyn then 3 else 5)).
  destruct dyn, track; eexists; exists 1; (split; [vm_compute; reflexivity|]); (split; [reflexivity|]); (split; [reflexivity|]);
    exists ([PRead 7 true] ++ gos 7 3); vm_compute; reflexivity.
Qed.
Print Assumptions C88_detach_refuted.
