(** Critical sections are entered in one order; so nobody waits in a circle. *)
From Verif Require Import Base LkModel LkSpec.
From Coq Require Import Relations.

Lemma lk_eqb_eq a b : lk_eqb a b = true <-> a = b.
Proof.
  destruct a, b; cbn; split; intros H; try discriminate; try reflexivity; try congruence.
  - apply Z.eqb_eq in H. congruence.
  - injection H as ->. apply Z.eqb_refl.
Qed.

(** What a thread holds: sections, and messages whose second part it owes. *)
Inductive res : Type := RL (l : lk) | RM (m : Z).
Definition res_eqb (a b : res) : bool :=
  match a, b with RL l, RL k => lk_eqb l k | RM m, RM n => m =? n | _, _ => false end.
Lemma res_eqb_eq a b : res_eqb a b = true <-> a = b.
Proof.
  destruct a, b; cbn; split; intros H; try discriminate.
  - apply lk_eqb_eq in H. congruence.
  - apply lk_eqb_eq. congruence.
  - apply Z.eqb_eq in H. congruence.
  - injection H as ->. apply Z.eqb_refl.
Qed.
Definition lrank (l : lk) : nat :=
  match l with LCb => 0 | LStrided | LComm => 2 | LSpaces => 3 | LPool _ | LHeap => 4 end%nat.
Definition rank (r : res) : nat := match r with RL l => lrank l | RM _ => 1%nat end.
Definition needs (k : mk) : bool := match k with KPost => false | _ => true end.
Definition mem (r : res) (H : list res) : bool := existsb (fun x => res_eqb x r) H.
Definition rem (r : res) (H : list res) : list res := filter (fun x => negb (res_eqb x r)) H.
Lemma mem_In r H : mem r H = true <-> In r H.
Proof.
  unfold mem. rewrite existsb_exists. split.
  - intros (x & I & E). apply res_eqb_eq in E. congruence.
  - intros I. exists r. split; [exact I|]. apply res_eqb_eq. reflexivity.
Qed.
Lemma In_rem x r H : In x (rem r H) <-> In x H /\ x <> r.
Proof.
  unfold rem. rewrite filter_In. split; intros [A B]; split; auto.
  - intros E. apply res_eqb_eq in E. rewrite E in B. discriminate.
  - destruct (res_eqb x r) eqn:E; [|reflexivity]. apply res_eqb_eq in E. congruence.
Qed.

(** The discipline. *)
Definition below (n : nat) (H : list res) : bool := forallb (fun x => (rank x <? n)%nat) H.
Lemma below_In n H x : below n H = true -> In x H -> (rank x < n)%nat.
Proof. unfold below. rewrite forallb_forall. intros A I. specialize (A x I). apply Nat.ltb_lt in A. exact A. Qed.
Fixpoint okseq (H : list res) (a : list act) : bool :=
  match a with
  | [] => match H with [] => true | _ => false end
  | AEnter l :: r => below (lrank l) H && okseq (RL l :: H) r
  | AExit l :: r => mem (RL l) H && okseq (rem (RL l) H) r
  | AOpen m _ k :: r => okseq (if needs k then RM m :: H else H) r
  | AClose m :: r => mem (RM m) H && okseq (rem (RM m) H) r
  | AMatch _ :: r => below 1 H && okseq H r
  | ATest :: r => below 1 H && okseq H r
  | AMpi :: r => okseq H r
  end.

Lemma rem_out r H : below (rank r) H = true -> rem r (r :: H) = H.
Proof.
  intros B. unfold rem. cbn [filter]. rewrite (proj2 (res_eqb_eq r r) eq_refl). cbn [negb].
  induction H as [|x H IH]; [reflexivity|]. cbn [filter].
  unfold below in B. cbn [forallb] in B. apply andb_true_iff in B as [B1 B2]. apply Nat.ltb_lt in B1.
  destruct (res_eqb x r) eqn:E; [apply res_eqb_eq in E; subst; lia|]. cbn [negb]. f_equal. apply IH. exact B2.
Qed.
(** A section without anything inside, or with other work in it. *)
Lemma ok_section H l r : below (lrank l) H = true -> okseq H (section l ++ r) = okseq H r.
Proof.
  intros B. unfold section. cbn [app okseq]. rewrite B. cbn [andb].
  assert (M : mem (RL l) (RL l :: H) = true) by (apply mem_In; left; reflexivity). rewrite M. cbn [andb].
  rewrite rem_out by exact B. reflexivity.
Qed.
Lemma below_le n k H : (n <= k)%nat -> below n H = true -> below k H = true.
Proof. intros L. unfold below. rewrite !forallb_forall. intros B x I. specialize (B x I). apply Nat.ltb_lt in B. apply Nat.ltb_lt. lia. Qed.

Lemma ok_stride H v r : below 2 H = true -> okseq H (stride v ++ r) = okseq H r.
Proof.
  intros B. destruct v; cbn [stride].
  - reflexivity.
  - apply ok_section. exact B.
  - rewrite <- app_assoc. rewrite ok_section by exact B. cbn [app okseq].
    change (AEnter LStrided :: AExit LStrided :: r) with (section LStrided ++ r). apply ok_section. exact B.
Qed.
Lemma ok_trans H sp r : below 3 H = true -> okseq H (trans sp ++ r) = okseq H r.
Proof. intros B. destruct sp; [|reflexivity]. apply ok_section. exact B. Qed.
Lemma ok_query H sp r : below 3 H = true -> okseq H (query sp ++ r) = okseq H r.
Proof. intros B. destruct sp; [|reflexivity]. apply ok_section. exact B. Qed.

(** Handlers may run where nothing but the progress section is held. *)
Lemma ok_handler H k m sp v r : below 1 H = true -> okseq H (handler k m sp v ++ r) = okseq H r.
Proof.
  intros B. assert (B2 : below 2 H = true) by (eapply below_le; [|exact B]; lia).
  assert (B3 : below 3 H = true) by (eapply below_le; [|exact B]; lia).
  destruct k; cbn [handler]; rewrite <- ?app_assoc; rewrite ?ok_trans by exact B3; rewrite ?ok_stride by exact B2;
    cbn [app okseq]; rewrite ?B; reflexivity.
Qed.

(** Calls keep the discipline. *)
Lemma ok_polls async n r : okseq [] r = true -> okseq [] (polls async n ++ r) = true.
Proof.
  intros B. induction n as [|n IH]; [exact B|]. cbn [polls].
  destruct async; cbn; exact IH.
Qed.
Lemma ok_polls' async n : okseq [] (polls async n) = true.
Proof. rewrite <- (app_nil_r (polls async n)). apply ok_polls. reflexivity. Qed.
Lemma ok_flushes ts : forall m r, okseq [] r = true -> okseq [] (flushes m ts ++ r) = true.
Proof.
  induction ts as [|t ts IH]; intros m r B; [exact B|]. cbn [flushes app okseq needs].
  assert (M : mem (RM m) [RM m] = true) by (apply mem_In; left; reflexivity). rewrite M. cbn [andb].
  rewrite (rem_out (RM m) []) by reflexivity. apply IH. exact B.
Qed.
Lemma ok_am_flush async m ts n r : okseq [] r = true -> okseq [] (am_flush async m ts n ++ r) = true.
Proof. intros B. unfold am_flush. rewrite <- app_assoc. apply ok_flushes. apply ok_polls. exact B. Qed.
Lemma ok_barrier_all async m ts n n' r : okseq [] r = true -> okseq [] (barrier_all async m ts n n' ++ r) = true.
Proof.
  intros B. unfold barrier_all. cbn [app okseq]. rewrite <- app_assoc. apply ok_am_flush. cbn [app okseq].
  apply ok_polls. exact B.
Qed.
Lemma ok_barrier_all' async m ts n n' : okseq [] (barrier_all async m ts n n') = true.
Proof. rewrite <- (app_nil_r (barrier_all async m ts n n')). apply ok_barrier_all. reflexivity. Qed.
Lemma ok_two m t k r : needs k = true -> okseq [] r = true -> okseq [] ([AOpen m t k; AClose m] ++ r) = true.
Proof.
  intros N B. cbn [app okseq]. rewrite N.
  assert (M : mem (RM m) [RM m] = true) by (apply mem_In; left; reflexivity). rewrite M. cbn [andb].
  rewrite (rem_out (RM m) []) by reflexivity. exact B.
Qed.
Lemma ok_twos m t k v r : needs k = true -> okseq [] r = true -> okseq [] ([AOpen m t k] ++ stride v ++ [AClose m] ++ r) = true.
Proof.
  intros N B. change ([AOpen m t k] ++ stride v ++ [AClose m] ++ r) with (AOpen m t k :: (stride v ++ ([AClose m] ++ r))).
  cbn [okseq]. rewrite N. rewrite ok_stride by reflexivity. cbn [app okseq].
  assert (M : mem (RM m) [RM m] = true) by (apply mem_In; left; reflexivity). rewrite M. cbn [andb].
  rewrite (rem_out (RM m) []) by reflexivity. exact B.
Qed.
Lemma ok_mpis n : forall H r, okseq H (repeat AMpi n ++ r) = okseq H r.
Proof. induction n as [|n IH]; intros H r; [reflexivity|]. cbn [repeat app okseq]. apply IH. Qed.
Lemma ok_comm hit r : okseq [] (acquire_comm hit ++ r) = okseq [] r.
Proof.
  unfold acquire_comm. rewrite <- app_assoc. rewrite ok_section by reflexivity. destruct hit; [reflexivity|].
  rewrite <- app_assoc. cbn [app okseq]. change (AEnter LComm :: AExit LComm :: r) with (section LComm ++ r).
  apply ok_section. reflexivity.
Qed.
Lemma rem1 r : rem r [r] = [].
Proof. unfold rem. cbn [filter]. rewrite (proj2 (res_eqb_eq r r) eq_refl). reflexivity. Qed.
Lemma mem1 r H : mem r (r :: H) = true.
Proof. apply mem_In. left. reflexivity. Qed.

Lemma ok_call async m c : okseq [] (call_acts async m c) = true.
Proof.
  destruct c; cbn [call_acts]; rewrite ?ok_query by reflexivity.
  - apply ok_two; [reflexivity|apply ok_polls'].
  - apply ok_two; [reflexivity|apply ok_polls'].
  - apply ok_twos; [reflexivity|apply ok_polls'].
  - apply ok_twos; [reflexivity|apply ok_polls'].
  - apply ok_two; [reflexivity|apply ok_polls'].
  - apply ok_two; [reflexivity|apply ok_polls'].
  - cbn [app okseq needs]. apply ok_polls'.
  - reflexivity.
  - rewrite !ok_stride by reflexivity. reflexivity.
  - cbn [app okseq]. change (below (lrank LSpaces) []) with true. cbn [andb].
    rewrite ok_mpis. cbn [app okseq]. rewrite mem1, rem1. cbn [andb].
    rewrite <- (app_nil_r (am_flush async m ts n)). apply ok_am_flush. reflexivity.
  - reflexivity.
  - apply ok_barrier_all'.
  - cbn [app okseq]. change (below (lrank LHeap) []) with true. rewrite mem1, rem1. cbn [andb]. apply ok_barrier_all'.
  - destruct where_ as [[k|]|].
    + apply ok_barrier_all. cbn [okseq]. cbn [lrank below forallb rank Nat.ltb Nat.leb andb].
      rewrite mem1. cbn [andb]. rewrite rem_out by reflexivity. reflexivity.
    + apply ok_barrier_all. reflexivity.
    + apply ok_barrier_all. reflexivity.
  - reflexivity.
  - reflexivity.
  - cbn [app okseq]. change (below (lrank (LPool k)) []) with true. rewrite mem1, rem1. cbn [andb]. apply ok_barrier_all'.
  - cbn [okseq]. change (below (lrank (LPool k)) []) with true. rewrite mem1, rem1. reflexivity.
  - rewrite !ok_stride by reflexivity. rewrite ok_comm. cbn [app okseq]. apply ok_polls'.
  - cbn [app okseq]. apply ok_am_flush. rewrite ok_comm. cbn [app okseq]. apply ok_polls'.
  - rewrite !ok_stride by reflexivity. cbn [app okseq]. apply ok_polls'.
  - cbn [app okseq]. apply ok_polls'.
  - cbn [app okseq]. apply ok_polls'.
  - destruct async; reflexivity.
Qed.

(** The invariant: each thread holds [h p i]. *)
Definition holdf : Type := Z -> Z -> list res.
Definition owed (s : lst) (h : holdf) (m : Z) : Prop := l_done s m = true \/ exists q j, In (RM m) (h q j).
Record LI (s : lst) (h : holdf) : Prop := {
  li_ok : forall p i, okseq (h p i) (l_th s p i) = true;
  li_own : forall p l i, l_own s p l = Some i <-> In (RL l) (h p i);
  li_box : forall p m k, In (m, k) (l_box s p) -> needs k = true -> owed s h m;
  li_match : forall p i m, In (AMatch m) (l_th s p i) -> owed s h m
}.

Lemma set_th_same f p i a : set_th f p i a p i = a.
Proof. unfold set_th. rewrite !Z.eqb_refl. reflexivity. Qed.
Lemma set_th_other f p i a q j : (q, j) <> (p, i) -> set_th f p i a q j = f q j.
Proof.
  intros N. unfold set_th. destruct (q =? p) eqn:A; [|reflexivity]. destruct (j =? i) eqn:B; [|reflexivity].
  apply Z.eqb_eq in A, B. subst. congruence.
Qed.
Definition seth (h : holdf) (p i : Z) (H : list res) : holdf := fun q j => if (q =? p) && (j =? i) then H else h q j.
Lemma seth_same h p i H : seth h p i H p i = H.
Proof. unfold seth. rewrite !Z.eqb_refl. reflexivity. Qed.
Lemma seth_other h p i H q j : (q, j) <> (p, i) -> seth h p i H q j = h q j.
Proof.
  intros N. unfold seth. destruct (q =? p) eqn:A; [|reflexivity]. destruct (j =? i) eqn:B; [|reflexivity].
  apply Z.eqb_eq in A, B. subst. congruence.
Qed.
Lemma pair_dec (a b : Z * Z) : {a = b} + {a <> b}.
Proof. decide equality; apply Z.eq_dec. Qed.

Lemma LI0 : LI lst0 (fun _ _ => []).
Proof. split; cbn; try tauto. intros. split; [discriminate|tauto]. Qed.

(** Changing one thread's remaining work and holdings, nothing else. *)
Lemma owed_mono s s' h h' m :
  (l_done s m = true -> l_done s' m = true) ->
  (forall q j, In (RM m) (h q j) -> l_done s' m = true \/ exists q j, In (RM m) (h' q j)) -> owed s h m -> owed s' h' m.
Proof. intros A B [C|(q & j & C)]; [left; auto|]. destruct (B q j C) as [D|D]; [left|right]; auto. Qed.

Lemma match_handler k m sp v m' : In (AMatch m') (handler k m sp v) -> m' = m /\ needs k = true.
Proof.
  assert (S1 : forall l, ~ In (AMatch m') (section l)) by (intros l; unfold section; cbn; intuition discriminate).
  assert (S2 : forall v, ~ In (AMatch m') (stride v)).
  { intros [| |]; cbn; intuition discriminate. }
  assert (S3 : forall sp, ~ In (AMatch m') (trans sp)) by (intros [|]; cbn; intuition discriminate).
  destruct k; cbn [handler needs]; rewrite ?in_app_iff; cbn [In]; intros H;
    repeat match goal with H : _ \/ _ |- _ => destruct H as [H|H] end;
    try (exfalso; first [exact (S3 _ H)|exact (S2 _ H)|exact H|discriminate H]); try (injection H as ->; auto).
Qed.
Lemma match_call async m c m' : ~ In (AMatch m') (call_acts async m c).
Proof.
  assert (S1 : forall l, ~ In (AMatch m') (section l)) by (intros l; unfold section; cbn; intuition discriminate).
  assert (S2 : forall v, ~ In (AMatch m') (stride v)) by (intros [| |]; cbn; intuition discriminate).
  assert (S3 : forall sp, ~ In (AMatch m') (query sp)) by (intros [|]; cbn; intuition discriminate).
  assert (S4 : forall n, ~ In (AMatch m') (polls async n)).
  { induction n as [|n IH]; [exact (fun x => x)|]. cbn [polls]. rewrite in_app_iff. intros [H|H]; [|exact (IH H)].
    destruct async; cbn in H; intuition discriminate. }
  assert (S5 : forall ts m, ~ In (AMatch m') (flushes m ts)).
  { induction ts as [|t ts IH]; intros k; [exact (fun x => x)|]. cbn [flushes]. rewrite in_app_iff. intros [H|H]; [|exact (IH _ H)].
    cbn in H. intuition discriminate. }
  assert (S6 : forall m ts n, ~ In (AMatch m') (am_flush async m ts n)).
  { intros k ts n. unfold am_flush. rewrite in_app_iff. intros [H|H]; [exact (S5 _ _ H)|exact (S4 _ H)]. }
  assert (S7 : forall m ts n n', ~ In (AMatch m') (barrier_all async m ts n n')).
  { intros k ts n n'. unfold barrier_all. rewrite !in_app_iff. cbn [In].
    intros [H|[H|[H|H]]]; try (exact (S6 _ _ _ H)); try (exact (S4 _ H)); intuition discriminate. }
  assert (S8 : forall hit, ~ In (AMatch m') (acquire_comm hit)) by (intros [|]; cbn; intuition discriminate).
  assert (S9 : forall n, ~ In (AMatch m') (repeat AMpi n)).
  { intros n H. apply repeat_spec in H. discriminate. }
  destruct c; try (destruct where_ as [[?|]|]); try (destruct async); cbn [call_acts]; rewrite ?in_app_iff; cbn [In]; intros H;
    repeat match goal with H : _ \/ _ |- _ => destruct H as [H|H] end;
    first [exact (S3 _ H)|exact (S2 _ H)|exact (S4 _ H)|exact (S6 _ _ _ H)|exact (S7 _ _ _ _ H)|exact (S8 _ H)|exact (S9 _ H)
          |exact H|discriminate H].
Qed.

Lemma In_del {A : Type} (l : list A) : forall n x, In x (del n l) -> In x l.
Proof.
  induction l as [|y l IH]; intros [|n] x H; cbn in H; try tauto; try (right; exact H).
  destruct H as [H|H]; [left; exact H|right; eapply IH; exact H].
Qed.

(** One step of one thread: [H'] is what it holds afterwards. *)
Lemma LI_one s h p i own' box' done' nxt a H' :
  LI s h ->
  okseq H' a = true ->
  (forall q l j, (q, j) <> (p, i) -> (own' q l = Some j <-> l_own s q l = Some j)) ->
  (forall l, own' p l = Some i <-> In (RL l) H') ->
  (forall m, l_done s m = true -> done' m = true) ->
  (forall m, In (RM m) (h p i) -> In (RM m) H' \/ done' m = true) ->
  (forall q m k, In (m, k) (box' q) -> In (m, k) (l_box s q) \/ (needs k = true -> In (RM m) H')) ->
  (forall m, In (AMatch m) a -> In (AMatch m) (l_th s p i) \/ owed s h m) ->
  LI (mkL own' box' done' nxt (set_th (l_th s) p i a)) (seth h p i H').
Proof.
  intros I A O1 O2 D M B T.
  assert (OW : forall m, owed s h m -> owed (mkL own' box' done' nxt (set_th (l_th s) p i a)) (seth h p i H') m).
  { intros m. apply owed_mono; [exact (D m)|]. intros q j Q. cbn [l_done].
    destruct (pair_dec (q, j) (p, i)) as [E|E].
    - injection E as -> ->. destruct (M m Q) as [Q'|Q']; [right|left; exact Q'].
      exists p, i. rewrite seth_same. exact Q'.
    - right. exists q, j. rewrite seth_other by exact E. exact Q. }
  split; cbn [l_th l_own l_box].
  - intros q j. destruct (pair_dec (q, j) (p, i)) as [E|E].
    + injection E as -> ->. rewrite set_th_same, seth_same. exact A.
    + rewrite set_th_other, seth_other by exact E. apply (li_ok _ _ I).
  - intros q l j. destruct (pair_dec (q, j) (p, i)) as [E|E].
    + injection E as -> ->. rewrite seth_same. apply O2.
    + rewrite seth_other by exact E. rewrite (O1 q l j E). apply (li_own _ _ I).
  - intros q m k Q N. destruct (B q m k Q) as [Q'|Q'].
    + apply OW. eapply (li_box _ _ I); eauto.
    + right. exists p, i. rewrite seth_same. exact (Q' N).
  - intros q j m Q. apply OW. destruct (pair_dec (q, j) (p, i)) as [E|E].
    + injection E as -> ->. rewrite set_th_same in Q. destruct (T m Q) as [Q'|Q']; [|exact Q']. eapply (li_match _ _ I); exact Q'.
    + rewrite set_th_other in Q by exact E. eapply (li_match _ _ I); exact Q.
Qed.

Lemma LI_step async s h x s' : LI s h -> lstep async s x = Some s' -> exists h', LI s' h'.
Proof.
  intros I E. destruct x as [p i c|p i|p i n sp v]; cbn [lstep] in E.
  - destruct (l_th s p i) eqn:T; [|discriminate]. injection E as <-. exists (seth h p i []).
    assert (HN : h p i = []).
    { generalize (li_ok _ _ I p i). rewrite T. cbn [okseq]. destruct (h p i); [reflexivity|discriminate]. }
    apply LI_one; auto.
    + apply ok_call.
    + intros q l j _. reflexivity.
    + intros l. rewrite (li_own _ _ I), HN. reflexivity.
    + intros m. rewrite HN. intros [].
    + intros m M. exfalso. exact (match_call _ _ _ _ M).
  - destruct (l_th s p i) as [|a r] eqn:T; [discriminate|].
    generalize (li_ok _ _ I p i). rewrite T. intros A.
    assert (TM : forall m, In (AMatch m) r -> In (AMatch m) (l_th s p i) \/ owed s h m).
    { intros m Q. left. rewrite T. right. exact Q. }
    destruct a as [l|l|m t k|m|m| |]; cbn [okseq] in A.
    + destruct (l_own s p l) as [j|] eqn:O; [discriminate|]. injection E as <-. apply andb_true_iff in A as [A1 A2].
      exists (seth h p i (RL l :: h p i)). apply LI_one; auto.
      * intros q k j N. unfold set_own. destruct ((q =? p) && lk_eqb k l) eqn:Q; [|reflexivity].
        apply andb_true_iff in Q as [Q1 Q2]. apply Z.eqb_eq in Q1. apply lk_eqb_eq in Q2. subst. rewrite O. split; [|discriminate].
        intros Q. injection Q as ->. congruence.
      * intros k. unfold set_own. rewrite Z.eqb_refl. cbn [andb In]. destruct (lk_eqb k l) eqn:Q.
        -- apply lk_eqb_eq in Q. subst. tauto.
        -- rewrite (li_own _ _ I). split; [tauto|]. intros [Q'|Q']; [|exact Q'].
           injection Q' as ->. rewrite (proj2 (lk_eqb_eq k k) eq_refl) in Q. discriminate.
      * intros m M. left. right. exact M.
    + destruct (l_own s p l) as [j|] eqn:O; [|discriminate]. destruct (j =? i) eqn:J; [|discriminate].
      apply Z.eqb_eq in J. subst j. injection E as <-. apply andb_true_iff in A as [A1 A2].
      exists (seth h p i (rem (RL l) (h p i))). apply LI_one; auto.
      * intros q k j N. unfold set_own. destruct ((q =? p) && lk_eqb k l) eqn:Q; [|reflexivity].
        apply andb_true_iff in Q as [Q1 Q2]. apply Z.eqb_eq in Q1. apply lk_eqb_eq in Q2. subst. rewrite O. split; [discriminate|].
        intros Q. injection Q as <-. congruence.
      * intros k. unfold set_own. rewrite Z.eqb_refl. cbn [andb]. rewrite In_rem. destruct (lk_eqb k l) eqn:Q.
        -- apply lk_eqb_eq in Q. subst. split; [discriminate|]. intros [_ Q]. congruence.
        -- rewrite (li_own _ _ I). split; [|tauto]. intros M. split; [exact M|]. intros Q'. injection Q' as ->.
           rewrite (proj2 (lk_eqb_eq l l) eq_refl) in Q. discriminate.
      * intros m M. left. apply In_rem. split; [exact M|discriminate].
    + injection E as <-. exists (seth h p i (if needs k then RM m :: h p i else h p i)). apply LI_one; auto.
      * intros q l j _. reflexivity.
      * intros l. rewrite (li_own _ _ I). destruct (needs k); cbn [In]; [|reflexivity]. split; [tauto|]. intros [Q|Q]; [discriminate|exact Q].
      * intros m' M. left. destruct (needs k); [right|]; exact M.
      * intros q m' k' Q. unfold set1 in Q. destruct (q =? t) eqn:Q1; [|left; exact Q]. apply Z.eqb_eq in Q1. subst.
        apply in_app_iff in Q as [Q|[Q|[]]]; [left; exact Q|]. right. injection Q as -> ->. intros N. rewrite N. left. reflexivity.
    + injection E as <-. apply andb_true_iff in A as [A1 A2]. exists (seth h p i (rem (RM m) (h p i))). apply LI_one; auto.
      * intros q l j _. reflexivity.
      * intros l. rewrite (li_own _ _ I), In_rem. split; [|tauto]. intros M. split; [exact M|discriminate].
      * intros m' M. unfold set1. destruct (m' =? m); [reflexivity|exact M].
      * intros m' M. unfold set1. destruct (m' =? m) eqn:Q; [right; reflexivity|]. left. apply In_rem. split; [exact M|].
        intros Q'. injection Q' as ->. rewrite Z.eqb_refl in Q. discriminate.
    + destruct (l_done s m) eqn:D; [|discriminate]. injection E as <-. apply andb_true_iff in A as [A1 A2].
      exists (seth h p i (h p i)). apply LI_one; auto; [intros q l j _; reflexivity|intros l; apply (li_own _ _ I)].
    + injection E as <-. apply andb_true_iff in A as [A1 A2].
      exists (seth h p i (h p i)). apply LI_one; auto; [intros q l j _; reflexivity|intros l; apply (li_own _ _ I)].
    + injection E as <-.
      exists (seth h p i (h p i)). apply LI_one; auto; [intros q l j _; reflexivity|intros l; apply (li_own _ _ I)].
  - destruct (l_th s p i) as [|a r] eqn:T; [discriminate|]. destruct a; try discriminate.
    destruct (nth_error (l_box s p) n) as [[m k]|] eqn:N; [|discriminate]. injection E as <-.
    generalize (li_ok _ _ I p i). rewrite T. cbn [okseq]. intros A. apply andb_true_iff in A as [A1 A2].
    exists (seth h p i (h p i)). apply LI_one; auto.
    + rewrite ok_handler by exact A1. exact A2.
    + intros q l j _. reflexivity.
    + intros l. apply (li_own _ _ I).
    + intros q m' k' Q. left. unfold set1 in Q. destruct (q =? p) eqn:Q1; [|exact Q]. apply Z.eqb_eq in Q1. subst. eapply In_del. exact Q.
    + intros m' Q. apply in_app_iff in Q as [Q|Q].
      * right. apply match_handler in Q as [-> Q]. eapply (li_box _ _ I); [|exact Q]. eapply nth_error_In. exact N.
      * left. rewrite T. right. exact Q.
Qed.
Lemma LI_run async xs : forall s h s', LI s h -> lrun async s xs = Some s' -> exists h', LI s' h'.
Proof.
  induction xs as [|x xs IH]; intros s h s' I E; cbn [lrun] in E.
  - injection E as <-. exists h. exact I.
  - destruct (lstep async s x) as [s1|] eqn:S; [|discriminate]. destruct (LI_step _ _ _ _ _ I S) as (h1 & I1). eapply IH; eauto.
Qed.

(** Holding something means having something left to do; the thing is given back later. *)
Lemma ok_close a : forall H m, okseq H a = true -> In (RM m) H -> In (AClose m) a.
Proof.
  induction a as [|x a IH]; intros H m A I; cbn [okseq] in A.
  - destruct H; [destruct I|discriminate].
  - destruct x as [l|l|n t k|n|n| |]; try (apply andb_true_iff in A as [A1 A2]); try (right; eapply IH; eauto; fail).
    + right. eapply IH; [exact A2|]. right. exact I.
    + right. eapply IH; [exact A2|]. apply In_rem. split; [exact I|discriminate].
    + right. eapply IH; [exact A|]. destruct (needs k); [right|]; exact I.
    + destruct (Z.eq_dec n m) as [->|N]; [left; reflexivity|]. right. eapply IH; [exact A2|]. apply In_rem. split; [exact I|congruence].
Qed.

(** Following whom one waits for leads to resources of higher and higher rank. *)
Definition want (s : lst) (p i : Z) : option nat :=
  match l_th s p i with AEnter l :: _ => Some (lrank l) | AMatch m :: _ => Some 1%nat | _ => None end.
Lemma moves_or_waits async s h p i : LI s h -> l_th s p i <> [] ->
  can_move async s (p, i) \/
  exists q j n, want s p i = Some n /\ waits s (p, i) (q, j) /\ (exists x, In x (h q j) /\ rank x = n).
Proof.
  intros I N. destruct (l_th s p i) as [|a r] eqn:T; [congruence|]. clear N.
  generalize (li_ok _ _ I p i). rewrite T. intros A.
  unfold can_move, waits, want. cbn [lstep fst snd]. rewrite T.
  destruct a as [l|l|m t k|m|m| |]; try (left; eexists; reflexivity).
  - destruct (l_own s p l) as [j|] eqn:O; [|left; eexists; reflexivity]. right. exists p, j, (lrank l).
    split; [reflexivity|]. split; [split; [reflexivity|cbn [snd]; reflexivity]|]. exists (RL l). split; [apply (li_own _ _ I); exact O|reflexivity].
  - cbn [okseq] in A. apply andb_true_iff in A as [A1 _]. apply mem_In in A1. apply (li_own _ _ I) in A1. rewrite A1, Z.eqb_refl.
    left. eexists. reflexivity.
  - destruct (l_done s m) eqn:D; [left; eexists; reflexivity|]. right.
    assert (O : owed s h m) by (eapply (li_match _ _ I p i); rewrite T; left; reflexivity).
    destruct O as [O|(q & j & O)]; [congruence|]. exists q, j, 1%nat. split; [reflexivity|]. split.
    + split; [reflexivity|]. cbn [fst snd]. eapply ok_close; [apply (li_ok _ _ I)|exact O].
    + exists (RM m). split; [exact O|reflexivity].
Qed.
Lemma want_above s h p i n x : LI s h -> want s p i = Some n -> In x (h p i) -> (rank x < n)%nat.
Proof.
  intros I W X. unfold want in W. generalize (li_ok _ _ I p i). destruct (l_th s p i) as [|a r]; [discriminate|].
  destruct a as [l|l|m t k|m|m| |]; try discriminate; injection W as <-; cbn [okseq]; intros A; apply andb_true_iff in A as [A _];
    eapply below_In; eauto.
Qed.
Lemma want_bound s p i n : want s p i = Some n -> (n <= 4)%nat.
Proof.
  unfold want. destruct (l_th s p i) as [|a r]; [discriminate|]. destruct a as [l|l|m t k|m|m| |]; try discriminate; intros E; injection E as <-.
  - destruct l; cbn; lia.
  - lia.
Qed.
Lemma hold_busy s h p i x : LI s h -> In x (h p i) -> l_th s p i <> [].
Proof.
  intros I X T. generalize (li_ok _ _ I p i). rewrite T. cbn [okseq]. destruct (h p i); [destruct X|discriminate].
Qed.

Lemma alive_rank async s h : LI s h -> forall d p i n, (4 <= n + d)%nat -> want s p i = Some n -> alive async s (p, i).
Proof.
  intros I. induction d as [|d IH]; intros p i n L W.
  - assert (B : l_th s p i <> []) by (unfold want in W; destruct (l_th s p i); congruence).
    destruct (moves_or_waits async s h p i I B) as [M|(q & j & n' & W' & Q & x & X & R)].
    + exists (p, i). split; [apply rt_refl|exact M].
    + rewrite W in W'. injection W' as <-. generalize (hold_busy s h q j x I X). intros B'.
      destruct (moves_or_waits async s h q j I B') as [M|(q' & j' & n' & W' & _)].
      * exists (q, j). split; [apply rt_step; exact Q|exact M].
      * generalize (want_above s h q j n' x I W' X) (want_bound s q j n' W'). lia.
  - assert (B : l_th s p i <> []) by (unfold want in W; destruct (l_th s p i); congruence).
    destruct (moves_or_waits async s h p i I B) as [M|(q & j & n' & W' & Q & x & X & R)].
    + exists (p, i). split; [apply rt_refl|exact M].
    + rewrite W in W'. injection W' as <-. generalize (hold_busy s h q j x I X). intros B'.
      destruct (moves_or_waits async s h q j I B') as [M|(q' & j' & n' & W' & _)].
      * exists (q, j). split; [apply rt_step; exact Q|exact M].
      * generalize (want_above s h q j n' x I W' X). intros R'.
        destruct (IH q j n' ltac:(lia) W') as (b & Cb & Mb). exists b. split; [|exact Mb].
        eapply rt_trans; [apply rt_step; exact Q|exact Cb].
Qed.
Lemma alive_LI async s h a : LI s h -> busy s a -> alive async s a.
Proof.
  intros I B. destruct a as [p i]. destruct (moves_or_waits async s h p i I B) as [M|(q & j & n & W & _)].
  - exists (p, i). split; [apply rt_refl|exact M].
  - apply (alive_rank async s h I 4 p i n); [lia|exact W].
Qed.

(** No thread enters a section it is in, and none is left behind at the end of a call. *)
Lemma no_self s h p i l r : LI s h -> l_th s p i = AEnter l :: r -> l_own s p l <> Some i.
Proof.
  intros I T O. apply (li_own _ _ I) in O. generalize (li_ok _ _ I p i). rewrite T. cbn [okseq]. intros A.
  apply andb_true_iff in A as [A _]. generalize (below_In _ _ _ A O). cbn. lia.
Qed.
Lemma idle_free s h p i l : LI s h -> l_th s p i = [] -> l_own s p l <> Some i.
Proof. intros I T O. apply (li_own _ _ I) in O. exact (hold_busy s h p i _ I O T). Qed.

(** Steps inside calls are bounded. *)
Definition w1 (a : act) : nat := match a with AOpen _ _ _ => 10%nat | _ => 1%nat end.
Fixpoint wt (a : list act) : nat := match a with [] => 0%nat | x :: r => (w1 x + wt r)%nat end.
Lemma wt_app a b : wt (a ++ b) = (wt a + wt b)%nat.
Proof. induction a as [|x a IH]; cbn [app wt]; [reflexivity|]. rewrite IH. lia. Qed.
Lemma wt_handler k m sp v : (wt (handler k m sp v) <= 8)%nat.
Proof. destruct k, sp, v; cbn; lia. Qed.
Fixpoint sumn {A : Type} (f : A -> nat) (l : list A) : nat := match l with [] => 0%nat | x :: r => (f x + sumn f r)%nat end.
Definition work (T : list thread) (P : list Z) (s : lst) : nat :=
  (sumn (fun a => wt (l_th s (fst a) (snd a))) T + sumn (fun p => 9 * length (l_box s p)) P)%nat.
Lemma sumn_ext {A : Type} (f g : A -> nat) l : (forall x, In x l -> f x = g x) -> sumn f l = sumn g l.
Proof. induction l as [|x l IH]; intros E; [reflexivity|]. cbn [sumn]. rewrite (E x) by (left; reflexivity). rewrite IH; [reflexivity|]. intros y Y. apply E. right. exact Y. Qed.
Lemma sumn_one {A : Type} (f g : A -> nat) l y : NoDup l -> In y l -> (forall x, x <> y -> f x = g x) -> (sumn f l + g y = sumn g l + f y)%nat.
Proof.
  induction l as [|x l IH]; intros N I E; [destruct I|]. inversion N as [|? ? N1 N2]; subst. cbn [sumn]. destruct I as [->|I].
  - rewrite (sumn_ext f g l); [lia|]. intros z Z. apply E. intros ->. contradiction.
  - assert (x <> y) by (intros ->; contradiction). rewrite (E x) by assumption. specialize (IH N2 I E). lia.
Qed.
Lemma sumn_le {A : Type} (dec : forall x y : A, {x = y} + {x <> y}) (f g : A -> nat) l y c :
  NoDup l -> (forall x, x <> y -> f x = g x) -> (f y <= g y + c)%nat -> (sumn f l <= sumn g l + c)%nat.
Proof.
  intros N E C. destruct (in_dec dec y l) as [I|I].
  - generalize (sumn_one f g l y N I E). lia.
  - rewrite (sumn_ext f g l); [lia|]. intros x X. apply E. intros ->. contradiction.
Qed.

Lemma work_dec async T P s x s' : NoDup T -> NoDup P -> (forall a, In a T -> In (fst a) P) -> inside T x -> lstep async s x = Some s' ->
  (work T P s' < work T P s)%nat.
Proof.
  intros NT NP TP IN E.
  assert (TH : forall p i a own box done nxt, In (p, i) T ->
    (sumn (fun b => wt (l_th (mkL own box done nxt (set_th (l_th s) p i a)) (fst b) (snd b))) T + wt (l_th s p i)
     = sumn (fun b => wt (l_th s (fst b) (snd b))) T + wt a)%nat).
  { intros p i a own box done nxt I.
    generalize (sumn_one (fun b => wt (l_th (mkL own box done nxt (set_th (l_th s) p i a)) (fst b) (snd b)))
                  (fun b => wt (l_th s (fst b) (snd b))) T (p, i) NT I).
    cbn [fst snd l_th]. rewrite set_th_same. intros Q. apply Q. intros [q j] N. cbn [fst snd]. rewrite set_th_other by exact N. reflexivity. }
  destruct x as [p i c|p i|p i n sp v]; cbn [inside] in IN; [contradiction| |]; cbn [lstep] in E.
  - destruct (l_th s p i) as [|a r] eqn:T1; [discriminate|]. unfold work.
    destruct a as [l|l|m t k|m|m| |].
    + destruct (l_own s p l); [discriminate|]. injection E as <-.
      generalize (TH p i r (set_own (l_own s) p l (Some i)) (l_box s) (l_done s) (l_next s) IN). rewrite T1. cbn [wt w1 l_box]. lia.
    + destruct (l_own s p l) as [j|]; [|discriminate]. destruct (j =? i); [|discriminate]. injection E as <-.
      generalize (TH p i r (set_own (l_own s) p l None) (l_box s) (l_done s) (l_next s) IN). rewrite T1. cbn [wt w1 l_box]. lia.
    + injection E as <-.
      generalize (TH p i r (l_own s) (set1 (l_box s) t (l_box s t ++ [(m, k)])) (l_done s) (l_next s) IN). rewrite T1. cbn [wt w1 l_box].
      assert (B : (sumn (fun p => 9 * length (set1 (l_box s) t (l_box s t ++ [(m, k)]) p)) P <= sumn (fun p => 9 * length (l_box s p)) P + 9)%nat).
      { apply (sumn_le Z.eq_dec _ _ P t 9 NP).
        - intros q N. unfold set1. apply Z.eqb_neq in N. rewrite N. reflexivity.
        - unfold set1. rewrite Z.eqb_refl, app_length. cbn [length]. lia. }
      cbn [l_box] in *. lia.
    + injection E as <-.
      generalize (TH p i r (l_own s) (l_box s) (set1 (l_done s) m true) (l_next s) IN). rewrite T1. cbn [wt w1 l_box]. lia.
    + destruct (l_done s m); [|discriminate]. injection E as <-.
      generalize (TH p i r (l_own s) (l_box s) (l_done s) (l_next s) IN). rewrite T1. cbn [wt w1 l_box]. lia.
    + injection E as <-.
      generalize (TH p i r (l_own s) (l_box s) (l_done s) (l_next s) IN). rewrite T1. cbn [wt w1 l_box]. lia.
    + injection E as <-.
      generalize (TH p i r (l_own s) (l_box s) (l_done s) (l_next s) IN). rewrite T1. cbn [wt w1 l_box]. lia.
  - destruct (l_th s p i) as [|a r] eqn:T1; [discriminate|]. destruct a; try discriminate.
    destruct (nth_error (l_box s p) n) as [[m k]|] eqn:N; [|discriminate]. injection E as <-. unfold work.
    generalize (TH p i (handler k m sp v ++ r) (l_own s) (set1 (l_box s) p (del n (l_box s p))) (l_done s) (l_next s) IN).
    rewrite T1, wt_app. cbn [wt w1 l_box]. generalize (wt_handler k m sp v).
    assert (B : (sumn (fun q => 9 * length (set1 (l_box s) p (del n (l_box s p)) q)) P + 9 * length (l_box s p)
                 = sumn (fun q => 9 * length (l_box s q)) P + 9 * length (del n (l_box s p)))%nat).
    { generalize (sumn_one (fun q => 9 * length (set1 (l_box s) p (del n (l_box s p)) q))%nat (fun q => 9 * length (l_box s q))%nat P p NP (TP _ IN)).
      unfold set1. rewrite Z.eqb_refl. intros Q. apply Q. intros q Nq. apply Z.eqb_neq in Nq. rewrite Nq. reflexivity. }
    assert (L : forall (A : Type) (l : list A) k y, nth_error l k = Some y -> length l = S (length (del k l))).
    { intros A. induction l as [|z l IH]; intros [|k'] y Q; cbn in Q; try discriminate; [reflexivity|]. cbn. f_equal. eapply IH. exact Q. }
    specialize (L _ _ _ _ N). cbn [l_box] in *. lia.
Qed.
Lemma run_bound async T P xs : NoDup T -> NoDup P -> (forall a, In a T -> In (fst a) P) -> forall s s', Forall (inside T) xs ->
  lrun async s xs = Some s' -> (length xs + work T P s' <= work T P s)%nat.
Proof.
  intros NT NP TP. induction xs as [|x xs IH]; intros s s' F E; cbn [lrun] in E.
  - injection E as <-. cbn. lia.
  - destruct (lstep async s x) as [s1|] eqn:S; [|discriminate]. inversion F; subst.
    generalize (work_dec async T P s x s1 NT NP TP ltac:(assumption) S) (IH s1 s' ltac:(assumption) E). cbn [length]. lia.
Qed.
