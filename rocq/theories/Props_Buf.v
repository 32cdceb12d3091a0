(** C97: a buffer given to a call is not used after the call is over. *)
From Verif Require Import Base BufModel BufSpec BufProofs.

(** Whenever MPI reads a cell for a call, in any execution with any number of threads, the cell is
    one the call may read and is lent at that moment, and the value is the one it held when the call
    was made. *)
Theorem C97_source : forall W m0 log s l1 l2 n b v, brun W m0 log s -> log = l1 ++ EGot n b v :: l2 ->
  exists i c m, In (ECall n i c m) l1 /\ (forall i' c' m', In (ECall n i' c' m') log -> i' = i /\ c' = c /\ m' = m) /\
    reads i c b /\ lends l1 n i c b /\ v = m b.
Proof. exact got_call. Qed.

(** Whenever MPI writes a cell for a call, it is a destination of that call and lent at that moment. *)
Theorem C97_dest : forall W m0 log s l1 l2 n b v, brun W m0 log s -> log = l1 ++ EWrote n b v :: l2 ->
  exists i c m, In (ECall n i c m) l1 /\ (forall i' c' m', In (ECall n i' c' m') log -> i' = i /\ c' = c /\ m' = m) /\
    writes i c b /\ lends l1 n i c b.
Proof. exact wrote_call. Qed.

(** A cell that is not lent as destination only changes when the program writes it, or when its
    thread enters the library if it is on the stack. So results stay as they are. *)
Theorem C97_kept : forall W m0 log s lb s' ev b, brun W m0 log s -> bgo W s lb = (s', ev) ->
  (forall v, lb <> LSet b v) -> (forall c f i j, b = BStack i j -> lb <> LCall i c f) ->
  (forall n i c, lends log n i c b -> ~ writes i c b) -> b_mem s' b = b_mem s b.
Proof. exact cell_kept. Qed.

(** Cases: labels played from the start; the program's part of the rules is checked by hand below. *)
Fixpoint play (W : list Z) (s : bst) (ls : list blab) : bst * list bev :=
  match ls with
  | [] => (s, [])
  | lb :: r => let (s', ev) := bgo W s lb in let (s2, e2) := play W s' r in (s2, ev ++ e2)
  end.
Definition reads_of (log : list bev) : list (Z * Z) :=
  flat_map (fun e => match e with EGot n _ v => [(n, v)] | _ => [] end) log.

(** A blocking put whose source is overwritten after the return, and a nonblocking one still open:
    MPI reads 7 for the first before it returns and 5 for the second after its return; nothing is read
    once quiet has flushed the window. *)
Definition case_labels : list blab :=
  [LCall 0 (CPut false false 1 3 [10]) (fun _ => 0); LGo 0; LRead 0 (BUser 10); LGo 0; LGo 0;
   LSet (BUser 10) 99;
   LCall 0 (CPut false true 1 3 [11]) (fun _ => 0); LGo 0; LGo 0; LRead 0 (BUser 11);
   LCall 0 (CQuiet [2]) (fun _ => 0); LGo 0; LRead 0 (BUser 11); LGo 0; LGo 0; LGo 0; LRead 0 (BUser 11)].
Definition mem0 (b : buf) : Z := match b with BUser 10 => 7 | BUser 11 => 5 | _ => 0 end.
Example C97_ex : reads_of (snd (play [1] (b_init mem0) case_labels)) = [(0, 7); (1, 5)] /\
  b_ops (fst (play [1] (b_init mem0) case_labels)) = [].
Proof. split; vmr. Qed.

(** Such executions are runs: a put by a program that then overwrites the source. *)
Example C97_run_ex : exists log s, brun [1] mem0 log s /\ In (EGot 0 (BUser 10) 7) log /\ b_mem s (BUser 10) = 99.
Proof.
  assert (ST : forall log s lb, brun [1] mem0 log s -> allowed [1] log lb ->
            brun [1] mem0 (log ++ snd (bgo [1] s lb)) (fst (bgo [1] s lb))).
  { intros log s lb H1 H2. eapply R_step; [exact H1|exact H2|apply surjective_pairing]. }
  pose proof (R_init [1] mem0) as H.
  apply ST with (lb := LCall 0 (CPut false false 1 3 [10]) (fun _ => 0)) in H.
  2:{ cbn [allowed windows dests]. split; [intros w X; exact X|]. split; [intros a []|].
      intros a n i' c' [[m []] _]. }
  apply ST with (lb := LGo 0) in H; [|exact I].
  apply ST with (lb := LRead 0 (BUser 10)) in H; [|exact I].
  apply ST with (lb := LGo 0) in H; [|exact I].
  apply ST with (lb := LGo 0) in H; [|exact I].
  apply ST with (lb := LSet (BUser 10) 99) in H.
  2:{ cbn. intros n i c [[m X] X2]. cbn in X. destruct X as [X|[X|[X|[]]]]; try discriminate X.
      inversion X; subst. exfalso. destruct X2 as [X2|[X2 _]]; [|discriminate X2]. apply X2. cbn. auto. }
  eexists. eexists. split; [exact H|]. split; [cbn; auto|reflexivity].
Qed.

Print Assumptions C97_source.
Print Assumptions C97_dest.
Print Assumptions C97_kept.
