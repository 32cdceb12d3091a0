(** Properties of the communicators of active sets. *)
From Verif Require Import Base AsetModel AsetSpec AsetProofs.

(** ** C22 Caching of active-set communicators is invisible *)

(** Whatever was called before, a collective runs over exactly the PEs of its set, in order. *)
Theorem C22_right_pes : forall n h sched s log, valid_hist n h -> arun n (a_init h) sched = Ok (s, log) ->
  forall p k c o, In (ACall p k c o) log -> comm_group n c = set_pes k /\ In p (set_pes k).
Proof. intros n h sched s log H. apply (run_groups n h H sched (a_init h)). apply ainv_init. Qed.
Print Assumptions C22_right_pes.

(** Two members of a set use the same communicators, each the same number of times in the same
    order, so their collectives match. *)
Theorem C22_agree : forall n h sched s log p q k, valid_hist n h ->
  arun n (a_init h) sched = Ok (s, log) -> valid_set n k -> in_set k p -> in_set k q ->
  prefix (calls_of p k log) (calls_of q k log) \/ prefix (calls_of q k log) (calls_of p k log).
Proof. intros n h sched s log p q k H. apply (run_agree n h H sched). Qed.
Print Assumptions C22_agree.

(** Different sets of PEs never share a communicator. *)
Theorem C22_distinct : forall n h sched s log p q k k' c o o', valid_hist n h ->
  arun n (a_init h) sched = Ok (s, log) ->
  In (ACall p k c o) log -> In (ACall q k' c o') log -> set_pes k = set_pes k'.
Proof. intros n h sched s log p q k k' c o o' H. apply (run_distinct n h H sched). Qed.
Print Assumptions C22_distinct.

(** No order of the PEs leads to an error or to a state in which they wait for each other for
    ever: from every reachable state all calls of all PEs can complete. *)
Theorem C22_no_deadlock : forall n h sched, valid_hist n h -> 0 < n -> Forall (fun p => 0 <= p < n) sched ->
  exists s log, arun n (a_init h) sched = Ok (s, log) /\
  exists sched' s' log', arun n s sched' = Ok (s', log') /\ all_done n s'.
Proof.
  intros n h sched H Hn F. destruct (run_ok n h H sched (a_init h) (ainv_init n h) F) as (s & log & E).
  exists s, log. split; auto. exact (no_deadlock n h H sched s log Hn E).
Qed.
Print Assumptions C22_no_deadlock.

(** The PEs enter the collectives of their programs, in order, and all of them by the end. *)
Theorem C22_all_calls : forall n h sched s log p, valid_hist n h ->
  arun n (a_init h) sched = Ok (s, log) -> 0 <= p < n ->
  prefix (keys_of p log) (filter (member p) h) /\ (all_done n s -> keys_of p log = filter (member p) h).
Proof. intros n h sched s log p H. apply (run_program n h H sched). Qed.
Print Assumptions C22_all_calls.

(** A PE that is the first to name a set with a member outside the world gets an error, not a
    communicator. *)
Theorem C22_outside : forall n p s k r q, pe_pc (a_pe s p) = PIdle -> pe_rem (a_pe s p) = k :: r ->
  find_comm (a_pe s p) k = None -> in_set k p -> in_set k q -> ~ (0 <= q < n) ->
  forall x, astep n p s <> Ok x.
Proof. exact outside_rejected. Qed.
Example C22_outside_ex : in_set (mkKey 1 1 3) 3 /\ in_set (mkKey 1 1 3) 5 /\
  astep 5 3 (a_init [mkKey 1 1 3]) = Abort /\ astep 6 3 (a_init [mkKey 1 1 3]) <> Abort.
Proof.
  split; [exists 1; split; [cbn; lia|reflexivity]|]. split; [exists 2; split; [cbn; lia|reflexivity]|].
  split; [reflexivity|vm_compute; discriminate].
Qed.
Print Assumptions C22_outside.

(** Four PEs, overlapping sets, one used twice, one of them the world. *)
Definition ex_hist : list key := [mkKey 0 1 2; mkKey 0 0 4; mkKey 1 0 3; mkKey 0 1 2; mkKey 1 1 2].
Definition ex_sched : list Z := concat (repeat [3; 0; 2; 1] 12).
Example C22_nonvacuous :
  match arun 4 (a_init ex_hist) ex_sched with
  | Ok (s, log) =>
      calls_of 0 (mkKey 0 1 2) log = [(CNew [0; 2] 0 1, 1%nat); (CNew [0; 2] 0 1, 2%nat)] /\
      calls_of 2 (mkKey 0 1 2) log = calls_of 0 (mkKey 0 1 2) log /\
      calls_of 3 (mkKey 0 0 4) log = [(CWorld, 1%nat)] /\
      keys_of 1 log = [mkKey 0 0 4; mkKey 1 0 3; mkKey 1 1 2] /\
      map (fun p => length (pe_rem (a_pe s p))) [0; 1; 2; 3] = [0; 0; 0; 0]%nat /\
      map fst (pe_cache (a_pe s 2)) = [mkKey 1 0 3; mkKey 0 1 2]
  | _ => False
  end.
Proof. vm_compute. split; [|split; [|split; [|split; [|split]]]]; reflexivity. Qed.
Example C22_valid : valid_hist 4 ex_hist.
Proof.
  split; [vm_compute; discriminate|]. intros k H.
  repeat (destruct H as [<-|H]; [unfold valid_set; cbn; lia|]). destruct H.
Qed.

(** ** C68 Active-set communicators are freed in a consistent order *)

(** OSHMPI_coll_finalize (coll_impl.c:21-35) frees the cached communicators in the order of the
    list. MPI_Comm_free is collective: any two PEs free those they share in the same order. *)
Theorem C68_free_order : forall n h sched s log p q, valid_hist n h ->
  arun n (a_init h) sched = Ok (s, log) -> all_done n s -> 0 <= p < n -> 0 <= q < n ->
  filter (fun k => member p k && member q k) (map fst (pe_cache (a_pe s p))) =
  filter (fun k => member p k && member q k) (map fst (pe_cache (a_pe s q))).
Proof. intros n h sched s log p q H. apply (cache_order n h H sched). Qed.
Print Assumptions C68_free_order.

Example C68_nonvacuous :
  match arun 4 (a_init [mkKey 0 1 2; mkKey 0 0 3; mkKey 1 0 3; mkKey 0 0 3]) ex_sched with
  | Ok (s, log) =>
      map fst (pe_cache (a_pe s 0)) = [mkKey 0 0 3; mkKey 0 1 2] /\
      map fst (pe_cache (a_pe s 2)) = [mkKey 1 0 3; mkKey 0 0 3; mkKey 0 1 2] /\
      map (fun p => length (pe_rem (a_pe s p))) [0; 1; 2; 3] = [0; 0; 0; 0]%nat
  | _ => False
  end.
Proof. vm_compute. split; [|split]; reflexivity. Qed.
