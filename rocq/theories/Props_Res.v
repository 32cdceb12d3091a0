(** C86: the library releases what it acquires. *)
From Verif Require Import Base ResModel ResSpec ResProofs ResProofs2 ResProofs3.

(** After any legal calls exactly the following is held: what the library needs itself, one entry per distinct active set and
    strided shape used so far, and what belongs to the teams and spaces the program has not destroyed. No call is undefined. *)
Theorem C86_held c o us : ulegal_all u0 us = true ->
  exists l s, rstart c o us = Ok (l, s) /\
    forall k, count_k k (ld_live s) = lib_need c o k + cache_need c (ufinal us) k + user_need c (ufinal us) k.
Proof. exact (held_exactly c o us). Qed.
Print Assumptions C86_held.

(** Repeating calls that make and destroy costs nothing: the same objects alive, the same resources held. *)
Theorem C86_no_growth c o us vs : ulegal_all u0 us = true -> ulegal_all u0 vs = true -> ufinal us = ufinal vs ->
  exists l s m t, rstart c o us = Ok (l, s) /\ rstart c o vs = Ok (m, t) /\
    forall k, count_k k (ld_live s) = count_k k (ld_live t).
Proof.
  intros A B E. destruct (held_exactly c o us A) as (l & s & E1 & H1). destruct (held_exactly c o vs B) as (m & t & E2 & H2).
  exists l, s, m, t. split; [exact E1|]. split; [exact E2|]. intros k. rewrite H1, H2, E. reflexivity.
Qed.
Print Assumptions C86_no_growth.

(** shmem_finalize releases everything but what belongs to objects the program did not destroy (attachments to the dynamic window go
    with the window) - and, in dynamic builds with thread level multiple, one critical section.
    Missing for the full statement: that critical section, and heaps from malloc that are at one address on all PEs. *)
Theorem C86_finalize_partial c o us : ulegal_all u0 us = true -> ora_ok o ->
  (rc_dyn c = true -> ro_ag o = false -> ro_hs o = false) ->
  exists s, rfull c o us = Ok s /\
    forall k, count_k k (ld_live s) =
      one (rc_dyn c && rc_mult c) * is k RCs + (1 - one (rc_dyn c) * is k RAtt) * user_need c (ufinal us) k.
Proof.
  intros L O M. apply finalize_exactly; [exact L|]. intros D. unfold ora_ok in O. specialize (M D).
  destruct (ro_ag o); [exact (O eq_refl)|exact (M eq_refl)].
Qed.
Print Assumptions C86_finalize_partial.

(** In builds without the dynamic window nothing is left when the program destroyed its teams and spaces. *)
Theorem C86_clean c o us : rc_dyn c = false -> ulegal_all u0 us = true -> u_clean (ufinal us) = true ->
  exists s, rfull c o us = Ok s /\ ld_live s = [].
Proof.
  intros D L C. destruct (finalize_exactly c o us L) as (s & E & H); [intros D'; congruence|].
  exists s. split; [exact E|].
  assert (Z0 : forall k, count_k k (ld_live s) = 0).
  { intros k. rewrite H, D. cbn [andb one]. unfold u_clean in C. apply andb_true_iff in C as [C1 C2].
    assert (Q1 : sumZ (fun b => one b * team_need k) (u_teams (ufinal us)) = 0).
    { clear - C1. induction (u_teams (ufinal us)) as [|b l IH]; [reflexivity|]. cbn [forallb] in C1. apply andb_true_iff in C1 as [B C1].
      unfold sumZ in *. cbn [fold_right]. rewrite (IH C1). destruct b; [discriminate B|]. cbn [one]. lia. }
    assert (Q2 : sumZ (fun q => match q with Some p => space_need c p k | None => 0 end) (u_spaces (ufinal us)) = 0).
    { clear - C2. induction (u_spaces (ufinal us)) as [|b l IH]; [reflexivity|]. cbn [forallb] in C2. apply andb_true_iff in C2 as [B C2].
      unfold sumZ in *. cbn [fold_right]. rewrite (IH C2). destruct b; [discriminate B|]. lia. }
    unfold user_need. rewrite Q1, Q2. lia. }
  destruct (ld_live s) as [|[i k] r]; [reflexivity|]. specialize (Z0 k). rewrite count_cons in Z0. cbn [snd] in Z0.
  assert (P : 0 <= count_k k r). { clear. unfold count_k, sumZ. induction r as [|x r IH]; cbn [fold_right]; [lia|]. assert (0 <= is (snd x) k) by (unfold is, one; destruct (rkind_eqb (snd x) k); lia). lia. }
  unfold is in Z0. rewrite (proj2 (rkind_eqb_eq k k) eq_refl) in Z0. cbn [one] in Z0. lia.
Qed.
Print Assumptions C86_clean.

(** A dynamic-window build whose heap came from malloc, at one address on all PEs (always so on one PE), is unmapped with munmap,
    whatever the program did. *)
Theorem C86_unmap_refuted : exists c o, ora_ok o /\
  (forall us, ulegal_all u0 us = true -> rfull c o us = UB) /\ ulegal_all u0 [] = true.
Proof.
  exists (mkRC true false true true), (mkRO false true true). split; [discriminate|]. split; [|reflexivity].
  intros us L. apply finalize_fails; auto.
Qed.
Print Assumptions C86_unmap_refuted.
(** A dynamic-window build with thread level multiple never destroys the critical section of the heap. *)
Theorem C86_cs_refuted : exists c o s, ora_ok o /\ rfull c o [] = Ok s /\ ld_live s <> [].
Proof.
  exists (mkRC true true true true), (mkRO true true true).
  eexists. split; [intros _; reflexivity|]. split; [vm_compute; reflexivity|]. discriminate.
Qed.
Print Assumptions C86_cs_refuted.

(** A program that uses everything: the calls are legal, run, and nothing is left. *)
Definition ex_calls : list rop :=
  [UTeamSplit true; UTeamSplit false; UActiveSet (0, 1, 2); UActiveSet (0, 1, 2); UStrided 3 2 4 1 false; UStrided 3 2 2 1 true;
   UStridedAm 3 2 1; USpaceCreate None 2; USpaceCreate (Some true) 0; USpaceAttach 0 false; USpaceAttach 1 true; UCollect; UAmFlush;
   USpaceDetach 0; USpaceDestroy 0; USpaceDetach 1; USpaceDestroy 1; UTeamDestroy None; UTeamDestroy (Some 0%nat)].
Example C86_legal : ulegal_all u0 ex_calls = true /\ u_clean (ufinal ex_calls) = true.
Proof. split; vm_compute; reflexivity. Qed.
Example C86_runs : rfull (mkRC false true true true) (mkRO false false false) ex_calls = Ok (mkLed [] 53).
Proof. vm_compute. reflexivity. Qed.
(** Calls that are not legal are found out. *)
Example C86_double_destroy : rstart (mkRC false true true true) (mkRO false false false) [UTeamSplit true; UTeamDestroy (Some 0%nat); UTeamDestroy (Some 0%nat)] = UB.
Proof. vm_compute. reflexivity. Qed.
(** A space left attached keeps its windows, in their epochs, at the end. *)
Example C86_left_attached : exists s, rfull (mkRC false false true true) (mkRO false false false) [USpaceCreate None 1; USpaceAttach 0 true] = Ok s
  /\ count_k RWin (ld_live s) = 2 /\ count_k REpoch (ld_live s) = 2.
Proof. eexists. split; [vm_compute; reflexivity|]. split; vm_compute; reflexivity. Qed.
