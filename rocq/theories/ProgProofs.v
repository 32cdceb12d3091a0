(** No deadlock between collectives and active messages. *)
From Coq Require Import Sorted.
From Verif Require Import Base BaseProofs ListLib LockModel LockProofs AmModel AmLiveProofs2 ProgModel ProgSpec.

Lemma fset_at {X} (f : Z -> X) p x q : fset f p x q = if Z.eq_dec q p then x else f q.
Proof. destruct (Z.eq_dec q p) as [->|H]; [apply fset_eq|apply fset_ne; exact H]. Qed.

Lemma del_in {X} j (l : list X) x y : nth_error l j = Some x -> In y l -> y = x \/ In y (del j l).
Proof.
  revert l. induction j as [|j IH]; intros [|z l] E HI; try discriminate; simpl in *.
  - injection E as ->. destruct HI as [->|HI]; [left; reflexivity|right; exact HI].
  - destruct HI as [->|HI]; [right; left; reflexivity|]. destruct (IH l E HI); [left; assumption|right; right; assumption].
Qed.
Lemma del_len {X} j (l : list X) x : nth_error l j = Some x -> length l = S (length (del j l)).
Proof.
  revert l. induction j as [|j IH]; intros [|z l] E; try discriminate; simpl in *; [reflexivity|]. rewrite (IH l E). reflexivity.
Qed.
Lemma rm_in t ts u : In u (rm t ts) <-> In u ts /\ u <> t.
Proof. unfold rm. rewrite filter_In, negb_true_iff, Z.eqb_neq. reflexivity. Qed.

Lemma forallb_exists_false {X} (g : X -> bool) l : forallb g l = false -> exists x, In x l /\ g x = false.
Proof.
  induction l as [|a l IH]; [discriminate|]. simpl. destruct (g a) eqn:E; [|intros _; exists a; auto].
  intros H. destruct (IH H) as (x & H1 & H2). exists x. auto.
Qed.
Lemma exists_last_or_nil {X} (l : list X) : l = [] \/ exists l' x, l = l' ++ [x].
Proof. induction l as [|x l _] using rev_ind; [left; reflexivity|right; eauto]. Qed.

Lemma colls_app a b : colls (a ++ b) = colls a ++ colls b.
Proof. apply flat_map_app. Qed.
Lemma colls_in k r : In k (colls r) <-> In (AColl k) r.
Proof.
  unfold colls. rewrite in_flat_map. split.
  - intros (a & Ha & HI). destruct a; simpl in HI; try tauto. destruct HI as [->|[]]. exact Ha.
  - intros H. exists (AColl k). split; [exact H|left; reflexivity].
Qed.

Section ProgProofs.
Variable async : bool.
Variable n : Z.
Variable c : nat.
Variable mem : nat -> list Z.
Variable kd : nat -> ckind.
Variable prog : Z -> list action.
Hypothesis WF : well_formed n c mem prog.
Notation gstep := (gstep async mem kd).
Notation grun := (grun async mem kd).

Definition rem (x : pst) : list action := match x with PRun r | PWait _ r | PIn _ r => r end.

Definition lastok (d : list action) (x : pst) : Prop :=
  match x with PIn k _ => exists d', d = d' ++ [AColl k] | PWait _ _ => exists d' ts, d = d' ++ [AOp ts] | _ => True end.

Record J (s : gst) : Prop := mkJ {
  j_rem : forall p, exists d, prog p = d ++ rem (q_pe s p) /\ (forall k, q_ent s k p = true <-> In (AColl k) d) /\
            lastok d (q_pe s p);
  j_wait : forall p ts r t, q_pe s p = PWait ts r -> In t ts -> 0 <= t < n /\ In (p, true) (q_box s t);
  j_left : forall p k, q_ent s k p = true -> (exists r, q_pe s p = PIn k r) \/ all_in mem s k = true;
  j_box : forall t, q_box s t <> [] -> 0 <= t < n;
  j_idle : forall p, ~ 0 <= p < n -> q_pe s p = PRun []
}.

Lemma J_init : J (q_init prog).
Proof.
  constructor; simpl; try discriminate; try congruence; [|intros p Hp; rewrite (wf_pe _ _ _ _ WF p Hp); reflexivity].
  intros p. exists []. split; [reflexivity|]. split; [|exact I]. intros k. split; [discriminate|intros []].
Qed.

Lemma put_all_pe ts : forall s p, q_pe (put_all s ts p) = q_pe s /\ q_ent (put_all s ts p) = q_ent s.
Proof. induction ts as [|t ts IH]; intros s p; [split; reflexivity|]. simpl. apply (IH (put_box s t (p, true))). Qed.
Lemma put_box_in s t m u x : In x (q_box s u) -> In x (q_box (put_box s t m) u).
Proof. simpl. rewrite fset_at. destruct (Z.eq_dec u t) as [->|]; [intros H; apply in_or_app; left; exact H|auto]. Qed.
Lemma put_all_in ts : forall s p u x, In x (q_box s u) -> In x (q_box (put_all s ts p) u).
Proof. induction ts as [|t ts IH]; intros s p u x H; [exact H|]. simpl. apply IH. apply put_box_in. exact H. Qed.
Lemma put_all_new ts : forall s p t, In t ts -> In (p, true) (q_box (put_all s ts p) t).
Proof.
  induction ts as [|t0 ts IH]; intros s p t H; [destruct H|]. simpl. destruct H as [->|H]; [|apply IH; exact H].
  apply put_all_in. simpl. rewrite fset_eq. apply in_or_app. right; left; reflexivity.
Qed.
Lemma put_all_box ts : forall s p t, q_box (put_all s ts p) t <> [] -> q_box s t <> [] \/ In t ts.
Proof.
  induction ts as [|t0 ts IH]; intros s p t H; [left; exact H|]. simpl in H. destruct (IH _ _ _ H) as [F|F]; [|right; right; exact F].
  simpl in F. rewrite fset_at in F. destruct (Z.eq_dec t t0) as [->|]; [right; left; reflexivity|left; exact F].
Qed.
Lemma all_in_mono s s' k : (forall p, q_ent s k p = true -> q_ent s' k p = true) -> all_in mem s k = true -> all_in mem s' k = true.
Proof. unfold all_in. rewrite !forallb_forall. auto. Qed.

(** A step of PE [p] that leaves everybody else alone. *)
Lemma J_upd s s' p x' : J s -> (forall q, q <> p -> q_pe s' q = q_pe s q) -> q_pe s' p = x' ->
  (forall u m, In m (q_box s u) -> In m (q_box s' u)) -> (forall u, q_box s' u <> [] -> 0 <= u < n) ->
  (forall k q, q_ent s k q = true -> q_ent s' k q = true) -> (forall k q, q <> p -> q_ent s' k q = q_ent s k q) ->
  (exists d, prog p = d ++ rem x' /\ (forall k, q_ent s' k p = true <-> In (AColl k) d) /\
     lastok d x') ->
  (forall ts r t, x' = PWait ts r -> In t ts -> 0 <= t < n /\ In (p, true) (q_box s' t)) ->
  (forall k, q_ent s' k p = true -> (exists r, x' = PIn k r) \/ all_in mem s' k = true) ->
  0 <= p < n -> J s'.
Proof.
  intros [] H1 H2 H3 H4 H5 H6 H7 H8 H9 H10. constructor.
  - intros q. destruct (Z.eq_dec q p) as [->|Hq]; [rewrite H2; exact H7|].
    destruct (j_rem0 q) as (d & E1 & E2 & E3). exists d. rewrite (H1 q Hq). split; [exact E1|]. split; [|exact E3].
    intros k. rewrite (H6 k q Hq). apply E2.
  - intros q ts r t. destruct (Z.eq_dec q p) as [->|Hq]; [rewrite H2; apply H8|].
    rewrite (H1 q Hq). intros E HI. destruct (j_wait0 _ _ _ _ E HI). split; [assumption|auto].
  - intros q k. destruct (Z.eq_dec q p) as [->|Hq]; [rewrite H2; apply H9|].
    rewrite (H6 k q Hq), (H1 q Hq). intros E. destruct (j_left0 q k E) as [F|F]; [left; exact F|right].
    eapply all_in_mono; [|exact F]. auto.
  - exact H4.
  - intros q Hq. destruct (Z.eq_dec q p) as [->|Hqp]; [contradiction|]. rewrite (H1 q Hqp). auto.
Qed.

Lemma rem_in s p a : J s -> In a (rem (q_pe s p)) -> In a (prog p).
Proof. intros [] H. destruct (j_rem0 p) as (d & E & _). rewrite E. apply in_or_app. right. exact H. Qed.

Lemma J_step s l : J s -> J (gstep s l).
Proof.
  intros H. pose proof H as []. destruct l as [p|t j]; simpl.
  - destruct (j_rem0 p) as (d & E1 & E2 & E3).
    assert (RP : q_pe s p <> PRun [] -> 0 <= p < n).
    { intros F. destruct (Z_lt_dec p n), (Z_le_dec 0 p); try lia; destruct F; apply j_idle0; lia. }
    destruct (q_pe s p) as [[|a r]|[|t ts] r|k r] eqn:EP; simpl in E1; try exact H; specialize (RP ltac:(discriminate)).
    + destruct a as [ts|t|k].
      * destruct (put_all_pe ts s p) as [P1 P2].
        assert (RG : forall t, In t ts -> 0 <= t < n).
        { intros t Ht. apply (wf_op _ _ _ _ WF p ts); [|exact Ht]. rewrite E1. apply in_or_app. right; left; reflexivity. }
        eapply (J_upd s _ p _ H); try reflexivity; try exact RP.
        -- intros q Hq. simpl. rewrite fset_ne by exact Hq. rewrite P1. reflexivity.
        -- intros u m. simpl. apply put_all_in.
        -- intros u Hu. simpl in Hu. apply put_all_box in Hu. destruct Hu as [Hu|Hu]; auto.
        -- intros k q. simpl. rewrite P2. auto.
        -- intros k q _. simpl. rewrite P2. reflexivity.
        -- simpl. rewrite fset_eq. exists (d ++ [AOp ts]). rewrite <- app_assoc. split; [exact E1|]. split; [|exists d, ts; reflexivity].
           intros k. rewrite P2, E2, in_app_iff. simpl. split; [tauto|]. intros [F|[F|[]]]; [exact F|discriminate].
        -- intros ts' r' t. simpl. rewrite fset_eq. intros [= <- <-] Ht. split; [auto|]. apply put_all_new. exact Ht.
        -- intros k. simpl. rewrite P2. intros F. destruct (j_left0 p k F) as [(r' & G)|G]; [rewrite EP in G; discriminate|].
           right. eapply all_in_mono; [|exact G]. simpl. rewrite P2. auto.
      * eapply (J_upd s _ p _ H); try reflexivity; try exact RP.
        -- intros q Hq. simpl. apply fset_ne. exact Hq.
        -- intros u m. apply put_box_in.
        -- intros u. simpl. rewrite fset_at. destruct (Z.eq_dec u t) as [->|]; [|auto]. intros _.
           apply (wf_post _ _ _ _ WF p t). rewrite E1. apply in_or_app. right; left; reflexivity.
        -- auto.
        -- simpl. rewrite fset_eq. exists (d ++ [APost t]). rewrite <- app_assoc. split; [exact E1|]. split; [|exact I].
           intros k. rewrite E2, in_app_iff. simpl. split; [tauto|]. intros [F|[F|[]]]; [exact F|discriminate].
        -- intros ts' r' u. simpl. rewrite fset_eq. discriminate.
        -- intros k. simpl. intros F. destruct (j_left0 p k F) as [(r' & G)|G]; [rewrite EP in G; discriminate|]. right. exact G.
      * assert (MON : forall j q, q_ent s j q = true -> (if (j =? k)%nat && (q =? p) then true else q_ent s j q) = true)
          by (intros j q F; destruct (_ && _); [reflexivity|exact F]).
        eapply (J_upd s _ p _ H); try reflexivity; try exact RP.
        -- intros q Hq. simpl. apply fset_ne. exact Hq.
        -- auto.
        -- auto.
        -- intros j q. simpl. apply MON.
        -- intros j q Hq. simpl. destruct (Z.eqb_spec q p); [contradiction|]. rewrite andb_false_r. reflexivity.
        -- simpl. rewrite fset_eq. exists (d ++ [AColl k]). rewrite <- app_assoc. split; [exact E1|]. split; [|exists d; reflexivity].
           intros j. rewrite Z.eqb_refl, andb_true_r, in_app_iff, <- E2. simpl. destruct (Nat.eqb_spec j k) as [->|Hj].
           ++ split; [intros _; right; left; reflexivity|reflexivity].
           ++ split; [tauto|]. intros [F|[F|[]]]; [exact F|congruence].
        -- intros ts' r' u. simpl. rewrite fset_eq. discriminate.
        -- intros j. simpl. rewrite fset_eq, Z.eqb_refl, andb_true_r. destruct (Nat.eqb_spec j k) as [->|Hj]; [intros _; left; exists r; reflexivity|].
           intros F. destruct (j_left0 p j F) as [(r' & G)|G]; [rewrite EP in G; discriminate|]. right.
           eapply all_in_mono; [|exact G]. simpl. intros q. apply MON.
    + eapply (J_upd s _ p _ H); try reflexivity; try exact RP; auto.
      * intros q Hq. simpl. apply fset_ne. exact Hq.
      * simpl. rewrite fset_eq. exists d. simpl. auto.
      * intros ts' r' u. simpl. rewrite fset_eq. discriminate.
      * intros k. simpl. intros F. destruct (j_left0 p k F) as [(r' & G)|G]; [rewrite EP in G; discriminate|]. right. exact G.
    + destruct (all_in mem s k) eqn:EA; [|exact H]. eapply (J_upd s _ p _ H); try reflexivity; try exact RP; auto.
      * intros q Hq. simpl. apply fset_ne. exact Hq.
      * simpl. rewrite fset_eq. exists d. simpl. auto.
      * intros ts' r' u. simpl. rewrite fset_eq. discriminate.
      * intros j. simpl. intros F. destruct (j_left0 p j F) as [(r' & G)|G]; [|right; exact G].
        rewrite EP in G. injection G as <- <-. right. exact EA.
  - destruct (answers async kd (q_pe s t)); [|exact H]. destruct (nth_error (q_box s t) j) as [[p w]|] eqn:EN; [|exact H].
    set (s1 := mkGst (q_pe s) (fset (q_box s) t (del j (q_box s t))) (q_ent s)).
    assert (BX : forall u m, In m (q_box s u) -> (u = t /\ m = (p, w)) \/ In m (q_box s1 u)).
    { intros u m Hm. simpl. rewrite fset_at. destruct (Z.eq_dec u t) as [->|]; [|right; exact Hm].
      destruct (del_in j (q_box s t) (p, w) m EN Hm) as [->|F]; [left; auto|right; exact F]. }
    assert (BR : forall u, q_box s1 u <> [] -> 0 <= u < n).
    { intros u. simpl. rewrite fset_at. destruct (Z.eq_dec u t) as [->|]; [|apply j_box0]. intros F. apply j_box0.
      intros G. rewrite G in EN. destruct j; discriminate. }
    destruct w.
    + unfold reply. simpl. destruct (q_pe s p) as [r|ts r|k r] eqn:EP.
      1,3: constructor; simpl; auto; intros q ts' r' u E HI; destruct (j_wait0 _ _ _ _ E HI) as [F1 F2]; split; [exact F1|];
           destruct (BX _ _ F2) as [[F3 F4]|F3]; [injection F4 as ->; congruence|exact F3].
      constructor; simpl.
      * intros q. destruct (Z.eq_dec q p) as [->|Hq]; [rewrite fset_eq|rewrite fset_ne by exact Hq; auto].
        destruct (j_rem0 p) as (d & E1 & E2 & E3). rewrite EP in E1, E3. exists d. auto.
      * intros q ts' r' u. destruct (Z.eq_dec q p) as [->|Hq].
        -- rewrite fset_eq. intros [= <- <-] HI. apply rm_in in HI. destruct HI as [HI Hne].
           destruct (j_wait0 _ _ _ _ EP HI) as [F1 F2]. split; [exact F1|]. destruct (BX _ _ F2) as [[F3 F4]|F3]; [contradiction|exact F3].
        -- rewrite fset_ne by exact Hq. intros E HI. destruct (j_wait0 _ _ _ _ E HI) as [F1 F2]. split; [exact F1|].
           destruct (BX _ _ F2) as [[F3 F4]|F3]; [congruence|exact F3].
      * intros q k F. destruct (j_left0 q k F) as [(r' & G)|G]; [|right; exact G]. left.
        rewrite fset_ne; [eauto|]. intros ->. rewrite EP in G. discriminate.
      * exact BR.
      * intros q Hq. rewrite fset_ne; [auto|]. intros ->. rewrite (j_idle0 p Hq) in EP. discriminate.
    + constructor; simpl; auto. intros q ts' r' u E HI. destruct (j_wait0 _ _ _ _ E HI) as [F1 F2]. split; [exact F1|].
      destruct (BX _ _ F2) as [[F3 F4]|F3]; [discriminate|exact F3].
Qed.
Lemma J_run ls : forall s, J s -> J (grun s ls).
Proof. induction ls as [|l ls IH]; intros s H; [exact H|]. simpl. apply IH. apply J_step. exact H. Qed.

(** ** The number of steps is bounded *)
Definition wa (a : action) : nat := match a with AOp ts => (length ts + 2)%nat | _ => 2%nat end.
Definition wp (x : pst) : nat := match x with PRun r => sumn wa r | PWait _ r | PIn _ r => S (sumn wa r) end.
Definition nu (s : gst) : nat := (S1 wp (q_pe s) (zrange n) + S1 (@length (Z * bool)) (q_box s) (zrange n))%nat.

Lemma put_all_len ts : forall s p, (forall t, In t ts -> In t (zrange n)) ->
  S1 (@length (Z * bool)) (q_box (put_all s ts p)) (zrange n) = (S1 (@length (Z * bool)) (q_box s) (zrange n) + length ts)%nat.
Proof.
  induction ts as [|t ts IH]; intros s p H; [simpl; lia|]. simpl. rewrite IH by (intros u Hu; apply H; right; exact Hu).
  pose proof (S1_fset (@length (Z * bool)) (q_box s) (zrange n) t (q_box s t ++ [(p, true)]) (zrange_nodup n) (H t (or_introl eq_refl))) as U.
  rewrite app_length in U. simpl in *. lia.
Qed.

Lemma in_range s p : J s -> q_pe s p <> PRun [] -> In p (zrange n).
Proof.
  intros [] F. apply zrange_in. destruct (Z_lt_dec p n), (Z_le_dec 0 p); try lia; destruct F; apply j_idle0; lia.
Qed.
Lemma nu_step s l : J s -> gstep s l = s \/ (nu (gstep s l) < nu s)%nat.
Proof.
  intros H. pose proof H as []. destruct l as [p|t j]; simpl.
  - destruct (j_rem0 p) as (d & E1 & _).
    pose proof (fun x => S1_fset wp (q_pe s) (zrange n) p x (zrange_nodup n)) as UP.
    pose proof (in_range s p H) as RP.
    destruct (q_pe s p) as [[|a r]|[|t ts] r|k r] eqn:EP; simpl in E1; try (left; reflexivity); specialize (RP ltac:(discriminate)).
    + right. unfold nu. destruct a as [ts|t|k]; simpl.
      * destruct (put_all_pe ts s p) as [P1 _]. rewrite P1. rewrite put_all_len.
        -- specialize (UP (PWait ts r) RP). simpl in UP. lia.
        -- intros t Ht. apply zrange_in. apply (wf_op _ _ _ _ WF p ts); [|exact Ht]. rewrite E1. apply in_or_app. right; left; reflexivity.
      * specialize (UP (PRun r) RP). simpl in UP.
        assert (Ht : In t (zrange n)) by (apply zrange_in; apply (wf_post _ _ _ _ WF p t); rewrite E1; apply in_or_app; right; left; reflexivity).
        pose proof (S1_fset (@length (Z * bool)) (q_box s) (zrange n) t (q_box s t ++ [(p, false)]) (zrange_nodup n) Ht) as U.
        rewrite app_length in U. simpl in U. lia.
      * specialize (UP (PIn k r) RP). simpl in UP. lia.
    + right. unfold nu. specialize (UP (PRun r) RP). simpl in *. lia.
    + destruct (all_in mem s k); [right|left; reflexivity]. unfold nu. specialize (UP (PRun r) RP). simpl in *. lia.
  - destruct (answers async kd (q_pe s t)); [|left; reflexivity].
    destruct (nth_error (q_box s t) j) as [[p w]|] eqn:EN; [|left; reflexivity]. right.
    assert (Ht : In t (zrange n)).
    { apply zrange_in, j_box0. intros G. rewrite G in EN. destruct j; discriminate. }
    pose proof (S1_fset (@length (Z * bool)) (q_box s) (zrange n) t (del j (q_box s t)) (zrange_nodup n) Ht) as U.
    pose proof (del_len _ _ _ EN) as DL.
    assert (S1 wp (q_pe (if w then reply (mkGst (q_pe s) (fset (q_box s) t (del j (q_box s t))) (q_ent s)) p t
      else mkGst (q_pe s) (fset (q_box s) t (del j (q_box s t))) (q_ent s))) (zrange n) = S1 wp (q_pe s) (zrange n) /\
      q_box (if w then reply (mkGst (q_pe s) (fset (q_box s) t (del j (q_box s t))) (q_ent s)) p t
      else mkGst (q_pe s) (fset (q_box s) t (del j (q_box s t))) (q_ent s)) = fset (q_box s) t (del j (q_box s t))) as [W1 W2].
    { destruct w; [|split; reflexivity]. unfold reply. simpl. destruct (q_pe s p) as [|ts r|] eqn:EP; try (split; reflexivity).
      split; [|reflexivity]. simpl.
      assert (RP : In p (zrange n)) by (apply (in_range s p H); congruence).
      pose proof (S1_fset wp (q_pe s) (zrange n) p (PWait (rm t ts) r) (zrange_nodup n) RP) as V. rewrite EP in V. simpl in V. lia. }
    unfold nu. rewrite W1, W2. lia.
Qed.
Lemma bounded ls : forall s, J s -> all_change async mem kd s ls -> (length ls <= nu s)%nat.
Proof.
  induction ls as [|l ls IH]; intros s H A; [simpl; lia|]. simpl in A. destruct A as [A1 A2].
  destruct (nu_step s l H) as [F|F]; [contradiction|]. specialize (IH _ (J_step _ l H) A2). simpl. lia.
Qed.

(** ** The order of the collectives *)
Lemma seq_sorted g : forall m a, StronglySorted lt (filter g (seq a m)).
Proof.
  induction m as [|m IH]; intros a; simpl; [constructor|]. destruct (g a); [|apply IH]. constructor; [apply IH|].
  rewrite Forall_forall. intros x Hx. apply filter_In in Hx. destruct Hx as [Hx _]. apply in_seq in Hx. lia.
Qed.
Lemma sorted_app A B x y : StronglySorted lt (A ++ B) -> In x A -> In y B -> (x < y)%nat.
Proof.
  induction A as [|a A IH]; intros H HA HB; [destruct HA|]. simpl in H. inversion H; subst. destruct HA as [->|HA]; [|apply IH; assumption].
  rewrite Forall_forall in H3. apply H3. apply in_or_app. right. exact HB.
Qed.
Lemma coll_lt p A B x y : prog p = A ++ B -> In (AColl x) A -> In (AColl y) B -> (x < y)%nat.
Proof.
  intros E HA HB. apply (sorted_app (colls A) (colls B)); [|apply colls_in; exact HA|apply colls_in; exact HB].
  rewrite <- colls_app, <- E, (wf_colls _ _ _ _ WF p). apply seq_sorted.
Qed.
Lemma coll_member p q k : In (AColl k) (prog p) -> In q (mem k) -> In (AColl k) (prog q).
Proof.
  intros H HI. apply colls_in in H. apply colls_in. rewrite (wf_colls _ _ _ _ WF) in H. rewrite (wf_colls _ _ _ _ WF).
  apply filter_In in H. apply filter_In. split; [tauto|]. apply existsb_exists. exists q. split; [exact HI|apply Z.eqb_refl].
Qed.

(** ** Stuck states *)
Lemma set_pe_ne s s' p x : x <> q_pe s p -> set_pe s' p x <> s.
Proof. intros H E. apply H. rewrite <- E. simpl. rewrite fset_eq. reflexivity. Qed.
Lemma cons_ne {X} (a : X) l : l <> a :: l.
Proof. intros E. apply (f_equal (@length X)) in E. simpl in E. lia. Qed.

Lemma stuck_pe s p : stuck async mem kd s ->
  q_pe s p = PRun [] \/ (exists t ts r, q_pe s p = PWait (t :: ts) r) \/ (exists k r, q_pe s p = PIn k r /\ all_in mem s k = false).
Proof.
  intros H. specialize (H (GGo p)). simpl in H. destruct (q_pe s p) as [[|a r]|[|t ts] r|k r] eqn:EP; [left; reflexivity| | |right; left; eauto|].
  - exfalso. destruct a as [ts|t|k]; revert H; apply set_pe_ne; rewrite EP; try discriminate. intros [= E]. exact (cons_ne _ _ E).
  - exfalso. revert H; apply set_pe_ne; rewrite EP; discriminate.
  - right; right. destruct (all_in mem s k) eqn:EA; [|eauto]. exfalso. revert H; apply set_pe_ne; rewrite EP; discriminate.
Qed.
Lemma stuck_box s t m : stuck async mem kd s -> In m (q_box s t) -> answers async kd (q_pe s t) = false.
Proof.
  intros H HI. destruct (answers async kd (q_pe s t)) eqn:EA; [exfalso|reflexivity].
  apply In_nth_error in HI. destruct HI as (j & Ej). specialize (H (GCb t j)). simpl in H. rewrite EA, Ej in H. destruct m as [p w].
  apply (f_equal (fun s => length (q_box s t))) in H. pose proof (del_len _ _ _ Ej).
  assert (q_box (if w then reply (mkGst (q_pe s) (fset (q_box s) t (del j (q_box s t))) (q_ent s)) p t
      else mkGst (q_pe s) (fset (q_box s) t (del j (q_box s t))) (q_ent s)) t = del j (q_box s t)) as E.
  { destruct w; [|simpl; apply fset_eq]. unfold reply. simpl. destruct (q_pe s p); simpl; apply fset_eq. }
  rewrite E in H. lia.
Qed.

(** All members are at a collective that is not complete: only the first such one matters. *)
Lemma all_in_false s k : all_in mem s k = false -> exists q, In q (mem k) /\ q_ent s k q = false.
Proof.
  unfold all_in. intros H. destruct (forallb_exists_false _ _ H) as (q & H1 & H2). eauto.
Qed.
Lemma min_nat (P : nat -> Prop) : (forall k, P k \/ ~ P k) -> forall k, P k -> exists m, P m /\ forall j, P j -> (m <= j)%nat.
Proof.
  intros D k. induction k as [k IH] using lt_wf_ind. intros Hk.
  assert (X : (exists j, (j < k)%nat /\ P j) \/ forall j, (j < k)%nat -> ~ P j).
  { clear -D. induction k as [|k IHk]; [right; lia|]. destruct IHk as [(j & H1 & H2)|H]; [left; exists j; split; [lia|exact H2]|].
    destruct (D k) as [F|F]; [left; exists k; split; [lia|exact F]|]. right. intros j Hj. destruct (Nat.eq_dec j k) as [->|]; [exact F|apply H; lia]. }
  destruct X as [(j & H1 & H2)|X]; [apply (IH j H1 H2)|]. exists k. split; [exact Hk|]. intros j Hj.
  destruct (le_lt_dec k j); [assumption|]. exfalso. apply (X j); assumption.
Qed.

Lemma no_wait_finished s : J s -> stuck async mem kd s -> (forall p ts r, q_pe s p <> PWait ts r) -> finished s.
Proof.
  intros HJ H NW p. destruct (stuck_pe s p H) as [F|[(t & ts & r & F)|(k & r & F & _)]]; [exact F|exfalso; exact (NW _ _ _ F)|exfalso].
  set (P := fun k => exists q, In q (zrange n) /\ exists r, q_pe s q = PIn k r).
  assert (D : forall j, P j \/ ~ P j).
  { intros j. unfold P. induction (zrange n) as [|q L IH]; [right; intros (q & [] & _)|].
    destruct IH as [(q' & H1 & H2)|IH]; [left; exists q'; split; [right; exact H1|exact H2]|].
    destruct (q_pe s q) as [r'|ts' r'|k' r'] eqn:EQ; [| |destruct (Nat.eq_dec k' j) as [->|Hk]; [left; exists q; split; [left; reflexivity|eauto]|]];
      right; intros (q' & [->|H1] & r'' & H2); try (apply IH; eauto; fail); congruence. }
  assert (P0 : P k) by (exists p; split; [apply (in_range s p HJ); congruence|eauto]).
  destruct (min_nat P D k P0) as (m & (q & Hq & r' & Em) & Hmin).
  destruct (stuck_pe s q H) as [F1|[(t & ts & r1 & F1)|(k1 & r1 & F1 & F2)]]; try congruence.
  rewrite Em in F1. injection F1 as <- <-. destruct (all_in_false _ _ F2) as (u & Hu & Eu).
  pose proof HJ as []. destruct (j_rem0 q) as (d & E1 & E2 & E3). rewrite Em in E1, E3. destruct E3 as (d' & ->).
  assert (Hm : In (AColl m) (prog q)) by (rewrite E1; apply in_or_app; left; apply in_or_app; right; left; reflexivity).
  pose proof (coll_member _ _ _ Hm Hu) as Hmu. destruct (j_rem0 u) as (e & G1 & G2 & G3).
  assert (NE : ~ In (AColl m) e) by (rewrite <- G2, Eu; discriminate).
  rewrite G1 in Hmu. apply in_app_or in Hmu. destruct Hmu as [Hmu|Hmu]; [contradiction|].
  destruct (stuck_pe s u H) as [F1|[(t & ts & r2 & F1)|(k2 & r2 & F1 & _)]].
  - rewrite F1 in Hmu. destruct Hmu.
  - exact (NW _ _ _ F1).
  - rewrite F1 in G3, G1, Hmu. destruct G3 as (e' & ->). simpl in *.
    assert (m <= k2)%nat by (apply Hmin; exists u; split; [apply (in_range s u HJ); congruence|eauto]).
    assert (k2 < m)%nat; [|lia]. apply (coll_lt u (e' ++ [AColl k2]) r2 k2 m G1); [apply in_or_app; right; left; reflexivity|exact Hmu].
Qed.

Lemma app_last {X} (a b : list X) x y : a ++ [x] = b ++ [y] -> a = b /\ x = y.
Proof. apply app_inj_tail. Qed.

(** The same element in two decompositions. *)
Lemma split_unique p A B A' B' k : prog p = A ++ AColl k :: B -> prog p = A' ++ B' -> ~ In (AColl k) A' -> exists C, A = A' ++ C.
Proof.
  intros E1 E2 H. rewrite E1 in E2. clear E1. revert A' E2 H. induction A as [|a A IH]; intros A' E2 H.
  - destruct A' as [|a' A']; [exists []; reflexivity|]. simpl in E2. injection E2 as <- _. exfalso. apply H. left; reflexivity.
  - destruct A' as [|a' A']; [exists (a :: A); reflexivity|]. simpl in E2. injection E2 as <- E2.
    destruct (IH A' E2) as (C & ->); [intros F; apply H; right; exact F|]. exists C. reflexivity.
Qed.

Lemma no_deadlock s : J s -> stuck async mem kd s ->
  async = true \/ (guarded n mem kd prog /\ ends_with_barrier n c mem kd prog) -> finished s.
Proof.
  intros HJ H MODE. apply no_wait_finished; [exact HJ|exact H|]. intros p ts r EP. pose proof HJ as [].
  destruct (stuck_pe s p H) as [F|[(t & ts' & r' & F)|(k & r' & F & _)]]; try congruence.
  rewrite EP in F. injection F as -> <-. destruct (j_wait0 _ _ _ t EP (or_introl eq_refl)) as [Ht Hm].
  pose proof (stuck_box _ _ _ H Hm) as NA. destruct MODE as [EAS|(GU & f & _ & _ & FB)]; [unfold answers in NA; rewrite EAS in NA; discriminate|].
  destruct (j_rem0 p) as (d & E1 & E2 & E3). rewrite EP in E1, E3. destruct E3 as (d' & ts0 & ->). simpl in E1.
  destruct (j_rem0 t) as (e & G1 & G2 & G3).
  destruct (stuck_pe s t H) as [F1|[(t2 & ts2 & r2 & F1)|(k & r2 & F1 & F2)]].
  - (* the target has finished: everybody has entered the last barrier *)
    rewrite F1 in G1. simpl in G1. rewrite app_nil_r in G1. subst e.
    destruct (FB t Ht) as [Mt (rt & Et)].
    assert (Ef : q_ent s f t = true) by (apply G2; rewrite Et; apply in_or_app; right; left; reflexivity).
    assert (Hp : 0 <= p < n) by (apply zrange_in, (in_range s p HJ); congruence).
    destruct (FB p Hp) as [Mp (rp & Ep)].
    destruct (j_left0 t f Ef) as [(r3 & F3)|F3]; [congruence|]. unfold all_in in F3. rewrite forallb_forall in F3.
    specialize (F3 p Mp). apply E2 in F3.
    destruct (exists_last_or_nil r) as [->|(r0 & x & ->)].
    + rewrite app_nil_r in E1. rewrite Ep in E1. apply app_last in E1. destruct E1; discriminate.
    + rewrite app_assoc, Ep in E1. apply app_last in E1. destruct E1 as [E1 <-].
      pose proof (coll_lt p (d' ++ [AOp ts0]) (r0 ++ [AColl f]) f f) as L.
      rewrite app_assoc, <- E1 in L. specialize (L Ep F3 ltac:(apply in_or_app; right; left; reflexivity)). lia.
  - rewrite F1 in NA. unfold answers in NA. rewrite orb_true_r in NA. discriminate.
  - (* the target is inside a blocking collective: the one before it is complete *)
    rewrite F1 in NA, G1, G3. unfold answers in NA. apply orb_false_elim in NA. destruct NA as [_ NA].
    destruct (kd k) eqn:EK; [discriminate|]. destruct G3 as (e' & ->). simpl in G1. rewrite <- app_assoc in G1.
    destruct (GU t k e' r2 G1 EK) as (j & pre & -> & MJ & ->).
    assert (Ej : q_ent s j t = true) by (apply G2; apply in_or_app; left; apply in_or_app; right; left; reflexivity).
    destruct (j_left0 t j Ej) as [(r3 & F3)|F3]; [rewrite F1 in F3; injection F3 as E _; lia|].
    unfold all_in in F3. rewrite forallb_forall in F3.
    destruct (all_in_false _ _ F2) as (u & Hu & Eu).
    pose proof (F3 u (MJ u (wf_mem _ _ _ _ WF _ _ Hu))) as Eju. destruct (j_rem0 u) as (g & I1 & I2 & I3). apply I2 in Eju.
    assert (Hku : In (AColl (S j)) (prog u)).
    { apply (coll_member t); [|exact Hu]. rewrite G1. apply in_or_app. right; left; reflexivity. }
    assert (NE : ~ In (AColl (S j)) g) by (rewrite <- I2, Eu; discriminate).
    destruct (in_split _ _ Hku) as (A & B & EA). destruct (GU u (S j) A B EA EK) as (j' & pre' & Ej' & _ & ->).
    injection Ej' as <-. destruct (split_unique u _ _ _ _ _ EA I1 NE) as (C & EC).
    (* g ends at the collective before *)
    assert (g = pre' ++ [AColl j]).
    { destruct (exists_last_or_nil C) as [->|(C0 & x & ->)]; [rewrite app_nil_r in EC; congruence|]. exfalso.
      rewrite app_assoc in EC. apply app_last in EC. destruct EC as [EC <-].
      pose proof (coll_lt u g (rem (q_pe s u)) j j I1 Eju) as L. rewrite EC, EA in *. 
      rewrite <- !app_assoc in I1. apply app_inv_head in I1. rewrite <- I1 in L.
      specialize (L ltac:(apply in_or_app; right; left; reflexivity)). lia. }
    subst g. rewrite EA in I1. apply app_inv_head in I1.
    destruct (stuck_pe s u H) as [F4|[(t4 & ts4 & r4 & F4)|(k4 & r4 & F4 & F5)]].
    + rewrite F4 in I1. discriminate.
    + rewrite F4 in I3. destruct I3 as (x & y & I3). apply app_last in I3. destruct I3; discriminate.
    + rewrite F4 in I3. destruct I3 as (x & I3). apply app_last in I3. destruct I3 as [_ [= <-]].
      assert (all_in mem s j = true) by (unfold all_in; rewrite forallb_forall; exact F3). congruence.
Qed.
End ProgProofs.
