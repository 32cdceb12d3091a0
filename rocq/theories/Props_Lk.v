(** C87: internal locks never deadlock. *)
From Verif Require Import Base LkModel LkSpec LkProofs.
From Coq Require Import Relations.

(** Whatever calls the threads of all PEs make, in whatever schedule: every thread inside a call can go on, or waits - perhaps
    through others - for one that can. *)
Theorem C87_no_deadlock async xs s a : lrun async lst0 xs = Some s -> busy s a -> alive async s a.
Proof. intros E B. destruct (LI_run _ _ _ _ _ LI0 E) as (h & I). eapply alive_LI; eauto. Qed.
Print Assumptions C87_no_deadlock.

(** No thread tries to enter a critical section it is already in; none leaves a call inside one. *)
Theorem C87_sections async xs s p i l : lrun async lst0 xs = Some s -> l_own s p l = Some i ->
  l_th s p i <> [] /\ forall r, l_th s p i <> AEnter l :: r.
Proof.
  intros E O. destruct (LI_run _ _ _ _ _ LI0 E) as (h & I). split.
  - intros T. exact (idle_free s h p i l I T O).
  - intros r T. exact (no_self s h p i l r I T O).
Qed.
Print Assumptions C87_sections.

(** So all calls end: among finitely many threads the steps inside calls are bounded, however scheduled, and when no step is
    possible no thread is inside a call and no section is taken. *)
Theorem C87_finish async xs s T : lrun async lst0 xs = Some s -> NoDup T -> (forall a, busy s a -> In a T) ->
  exists N, forall ys s', Forall (inside T) ys -> lrun async s ys = Some s' ->
    (length ys <= N)%nat /\
    ((forall y, inside T y -> lstep async s' y = None) -> forall p i l, l_th s' p i = [] /\ l_own s' p l = None).
Proof.
  intros E NT B. exists (work T (nodup Z.eq_dec (map fst T)) s). intros ys s' F R.
  assert (TP : forall a, In a T -> In (fst a) (nodup Z.eq_dec (map fst T))) by (intros a A; apply nodup_In, in_map; exact A).
  split.
  - generalize (run_bound async T _ ys NT (NoDup_nodup _ _) TP s s' F R). lia.
  - intros Z.
    assert (B' : forall a, busy s' a -> In a T).
    { clear - B F R. revert s B R. induction ys as [|y ys IH]; intros s B R; cbn [lrun] in R.
      - injection R as <-. exact B.
      - destruct (lstep async s y) as [s1|] eqn:S; [|discriminate]. inversion F; subst. apply (IH ltac:(assumption) s1); [|exact R].
        intros [q j] Q. unfold busy in Q. cbn [fst snd] in Q. destruct y as [p i c|p i|p i n sp v]; cbn [inside] in *; [contradiction| |].
        + destruct (pair_dec (q, j) (p, i)) as [->|N]; [assumption|]. apply B. unfold busy. cbn [fst snd]. intros Q'. apply Q.
          cbn [lstep] in S. destruct (l_th s p i) as [|a r]; [discriminate|].
          destruct a as [l|l|m t k|m|m| |]; repeat match type of S with context [match ?x with _ => _ end] => destruct x end; try discriminate S;
            injection S as <-; cbn [l_th]; rewrite set_th_other by exact N; exact Q'.
        + destruct (pair_dec (q, j) (p, i)) as [->|N]; [assumption|]. apply B. unfold busy. cbn [fst snd]. intros Q'. apply Q.
          cbn [lstep] in S. destruct (l_th s p i) as [|a r]; [discriminate|]. destruct a; try discriminate S.
          destruct (nth_error (l_box s p) n) as [[m k]|]; [|discriminate S]. injection S as <-. cbn [l_th]. rewrite set_th_other by exact N. exact Q'. }
    assert (E' : lrun async lst0 (xs ++ ys) = Some s').
    { clear - E R. revert E. generalize lst0. induction xs as [|x xs IH]; intros z E; cbn [lrun app] in *.
      - injection E as ->. exact R.
      - destruct (lstep async z x); [|discriminate]. apply IH. exact E. }
    assert (D : forall p i, l_th s' p i = []).
    { intros p i. destruct (l_th s' p i) as [|a r] eqn:T1; [reflexivity|]. exfalso.
      assert (Bu : busy s' (p, i)) by (unfold busy; cbn [fst snd]; congruence).
      destruct (C87_no_deadlock async (xs ++ ys) s' (p, i) E' Bu) as ([q j] & _ & M). destruct M as (s2 & M).
      cbn [fst snd] in M. rewrite (Z (LGo q j)) in M; [discriminate|]. cbn [inside]. apply B'. unfold busy. cbn [fst snd].
      intros T2. cbn [lstep] in M. rewrite T2 in M. discriminate. }
    intros p i l. split; [apply D|]. destruct (l_own s' p l) as [j|] eqn:O; [|reflexivity]. exfalso.
    exact (proj1 (C87_sections async (xs ++ ys) s' p j l E' O) (D p j)).
Qed.
Print Assumptions C87_finish.

(** PE 0 is between header and payload of a strided put and waits for the datatype cache, which its other thread is in;
    the handler at PE 1 waits for the payload inside the progress section; the other thread of PE 1 waits for that section. *)
Definition ex_run : list lab :=
  [LCall 0 0 (CIput true SMiss 1 2); LGo 0 0; LGo 0 0; LGo 0 0;
   LCall 0 1 (CDirectStrided false SHit SHit); LGo 0 1;
   LCall 1 0 (CWait false 1); LGo 1 0; LGo 1 0; LGo 1 0; LHdr 1 0 0 false SHit; LGo 1 0; LGo 1 0;
   LCall 1 1 (CGet false 0 1); LGo 1 1; LGo 1 1; LGo 1 1].
Example C87_chain : exists s, lrun false lst0 ex_run = Some s /\
  waits s (1, 1) (1, 0) /\ waits s (1, 0) (0, 0) /\ waits s (0, 0) (0, 1) /\ can_move false s (0, 1) /\
  ~ can_move false s (1, 1) /\ ~ can_move false s (1, 0) /\ ~ can_move false s (0, 0).
Proof.
  eexists. split; [vm_compute; reflexivity|].
  split; [vm_compute; auto|]. split; [vm_compute; tauto|]. split; [vm_compute; auto|].
  split; [eexists; vm_compute; reflexivity|].
  repeat split; intros [s' E]; vm_compute in E; discriminate E.
Qed.
(** The same threads run to the end. *)
Example C87_ends : exists s, lrun false lst0 (ex_run ++ repeat (LGo 0 1) 4 ++ repeat (LGo 0 0) 14 ++ repeat (LGo 1 0) 2 ++ repeat (LGo 1 1) 3) = Some s
  /\ l_th s 0 0 = [] /\ l_th s 0 1 = [] /\ l_th s 1 0 = [] /\ l_th s 1 1 = [].
Proof. eexists. split; [vm_compute; reflexivity|]. vm_compute. auto. Qed.
