(** Every step keeps the invariant; what readers meet. *)
From Verif Require Import Base PubModel PubSpec PubProofs PubProofs2.

Section P.
Variables dyn track : bool.
Notation ph := (ph dyn).
Notation PI := (PI dyn).
Notation vis := (vis dyn).

Lemma vis_ext s s' o : (forall k, In k (p_list s) -> In k (p_list s')) ->
  (forall k n, In k (p_list s) -> f_cfg (p_f s k) = Some n -> f_cfg (p_f s' k) = Some n) -> vis s o -> vis s' o.
Proof. intros A B. destruct o; cbn; auto; [|intros [I D]; auto]. intros [I (n & E & L)]. split; [auto|]. exists n. split; auto. Qed.

(** A call begins. *)
Lemma PI_begin s k st m : PI s -> p_todo s k = [] -> incs m = false ->
  (forall b, ph (p_stat s k) [] b (p_f s k) -> ph st m b (p_f s k)) ->
  PI (mkP (p_f s) (set1 (p_todo s) k m) (set1 (p_stat s) k st) (p_list s) (p_cs s) (p_rd s)).
Proof.
  intros I T C H. split; cbn [p_f p_todo p_stat p_list p_cs p_rd].
  - intros j. destruct (pi_ph _ _ I j) as (b & B1 & B2). exists b. split; [|exact B2].
    destruct (Z.eq_dec j k) as [->|N]; [rewrite !set1_same|rewrite !set1_other by exact N; exact B1].
    rewrite T in B1. exact (H b B1).
  - intros j. destruct (Z.eq_dec j k) as [->|N]; [rewrite set1_same|rewrite set1_other by exact N; apply (pi_cs _ _ I)].
    rewrite C. rewrite <- (pi_cs _ _ I), T. reflexivity.
  - intros i. destruct (pi_rd _ _ I i) as [R|[R|(R1 & ops & R2 & R3)]]; [left|right; left|right; right]; auto.
    split; [exact R1|]. exists ops. split; [exact R2|]. eapply Forall_impl; [|exact R3]. intros o. apply vis_ext; cbn; auto.
Qed.

(** Outside readers only flags change. *)
Lemma PI_flags s k f i r : PI s -> fsim (p_f s k) f ->
  (p_rd s i = r \/ (p_cs s = Some (OReader i) /\ exists ops, r = ops ++ [WExit] /\ Forall (vis s) ops)) ->
  PI (mkP (set1 (p_f s) k f) (p_todo s) (p_stat s) (p_list s) (p_cs s) (set1 (p_rd s) i r)).
Proof.
  intros I S R.
  assert (V : forall o, vis s o -> vis (mkP (set1 (p_f s) k f) (p_todo s) (p_stat s) (p_list s) (p_cs s) (set1 (p_rd s) i r)) o).
  { intros o. apply vis_ext; cbn; auto. intros j n _ E. destruct (Z.eq_dec j k) as [->|N]; [rewrite set1_same|rewrite set1_other; auto].
    destruct S as (_ & _ & C & _). congruence. }
  split; cbn [p_f p_todo p_stat p_list p_cs p_rd].
  - intros j. destruct (pi_ph _ _ I j) as (b & B1 & B2). exists b. split; [|exact B2].
    destruct (Z.eq_dec j k) as [->|N]; [rewrite set1_same|rewrite set1_other by exact N; exact B1]. eapply ph_sim; eauto.
  - apply (pi_cs _ _ I).
  - intros j. destruct (Z.eq_dec j i) as [->|N].
    + rewrite set1_same. destruct R as [R|(R1 & ops & R2 & R3)].
      * rewrite <- R. destruct (pi_rd _ _ I i) as [Q|[Q|(Q1 & ops & Q2 & Q3)]]; [left; exact Q|right; left; exact Q|right; right].
        split; [exact Q1|]. exists ops. split; [exact Q2|]. eapply Forall_impl; [exact V|exact Q3].
      * right. right. split; [exact R1|]. exists ops. split; [exact R2|]. eapply Forall_impl; [exact V|exact R3].
    + rewrite set1_other by exact N. destruct (pi_rd _ _ I j) as [Q|[Q|(Q1 & ops & Q2 & Q3)]]; [left; exact Q|right; left; exact Q|right; right].
      split; [exact Q1|]. exists ops. split; [exact Q2|]. eapply Forall_impl; [exact V|exact Q3].
Qed.
Lemma set1_id {A : Type} (f : Z -> A) k j : set1 f k (f k) j = f j.
Proof. unfold set1. destruct (j =? k) eqn:E; [apply Z.eqb_eq in E; congruence|reflexivity]. Qed.
Lemma fsim_refl f : fsim f f.
Proof. repeat split; left; reflexivity. Qed.
(** A reader moves on without writing. *)
Lemma PI_read s i r : PI s -> p_cs s = Some (OReader i) -> (exists ops, r = ops ++ [WExit] /\ Forall (vis s) ops) ->
  PI (mkP (p_f s) (p_todo s) (p_stat s) (p_list s) (p_cs s) (set1 (p_rd s) i r)).
Proof.
  intros I C R. assert (Q := PI_flags s 0 (p_f s 0) i r I (fsim_refl _) (or_intror (conj C R))).
  split; cbn [p_f p_todo p_stat p_list p_cs p_rd].
  - intros k. generalize (pi_ph _ _ Q k). cbn [p_f p_todo p_stat p_list]. rewrite set1_id. auto.
  - apply (pi_cs _ _ Q).
  - intros j. generalize (pi_rd _ _ Q j). cbn [p_rd p_cs]. intros [A|[A|(A1 & ops & A2 & A3)]]; [left; exact A|right; left; exact A|right; right].
    split; [exact A1|]. exists ops. split; [exact A2|]. eapply Forall_impl; [|exact A3]. intros o. apply vis_ext; cbn; auto.
    intros k n _. rewrite set1_id. auto.
Qed.

Lemma flush_sim x y : flush1 track x = Ok y -> sim x y.
Proof.
  unfold flush1. destruct (sl_flag x) as [b|] eqn:F.
  - destruct (track && negb b); [intros E; injection E as <-; left; reflexivity|].
    destruct (sl_win x) as [[| |]|] eqn:W; try discriminate. intros E. injection E as <-.
    destruct track; [|left; reflexivity]. right. cbn. eauto 6.
  - destruct track; [discriminate|]. destruct (sl_win x) as [[| |]|]; try discriminate. intros E. injection E as <-. left. reflexivity.
Qed.

Lemma ph_none_b t b f : ph SNone t b f -> b = false.
Proof. intros H. inversion H. reflexivity. Qed.

(** Entering and leaving the section, and changing the list, for a call that changes a space. *)
Lemma ph_enter st t b f : ph st (MEnter :: t) b f -> ph st t b f /\ incs t = true.
Proof.
  intros H. remember (MEnter :: t) as ot eqn:E.
  destruct H; try discriminate E; try (injection E as <-; split; [constructor; auto; fail|reflexivity]).
  - unfold def_prog in E. destruct dyn; discriminate.
  - destruct n; discriminate.
  - exfalso. destruct (Nat.eq_dec i n) as [->|N]; [rewrite slots_from_n in E; discriminate|]. rewrite slots_from_S in E by lia. discriminate.
  - exfalso. subst t0. assert (I : In MEnter (detach_prog dyn n)) by (rewrite H1; apply in_app_iff; right; left; reflexivity).
    destruct (detach_plain dyn n _ I) as [Q|[Q _]]; discriminate.
Qed.
Lemma ph_exit st t b f : ph st (MExit :: t) b f -> ph st t b f /\ incs t = false.
Proof.
  intros H. remember (MExit :: t) as ot eqn:E.
  destruct H; try discriminate E; try (injection E as <-; split; [constructor; auto; fail|reflexivity]).
  - unfold def_prog in E. destruct dyn; discriminate.
  - destruct n; discriminate.
  - exfalso. destruct (Nat.eq_dec i n) as [->|N]; [rewrite slots_from_n in E; discriminate|]. rewrite slots_from_S in E by lia. discriminate.
  - exfalso. subst t0. assert (I : In MExit (detach_prog dyn n)) by (rewrite H1; apply in_app_iff; right; left; reflexivity).
    destruct (detach_plain dyn n _ I) as [Q|[Q _]]; discriminate.
Qed.
Lemma ph_append st t b f : ph st (MAppend :: t) b f -> b = false /\ ph st t true f /\ incs t = true.
Proof.
  intros H. remember (MAppend :: t) as ot eqn:E.
  destruct H; try discriminate E; try (injection E as <-; split; [reflexivity|]; split; [constructor; auto; fail|reflexivity]).
  - unfold def_prog in E. destruct dyn; discriminate.
  - destruct n; discriminate.
  - exfalso. destruct (Nat.eq_dec i n) as [->|N]; [rewrite slots_from_n in E; discriminate|]. rewrite slots_from_S in E by lia. discriminate.
  - exfalso. subst t0. assert (I : In MAppend (detach_prog dyn n)) by (rewrite H1; apply in_app_iff; right; left; reflexivity).
    destruct (detach_plain dyn n _ I) as [Q|[Q _]]; discriminate.
Qed.
Lemma ph_delete st t b f : ph st (MDelete :: t) b f -> ph st t false f /\ incs t = true.
Proof.
  intros H. remember (MDelete :: t) as ot eqn:E.
  destruct H; try discriminate E; try (injection E as <-; split; [constructor; auto; fail|reflexivity]).
  - unfold def_prog in E. destruct dyn; discriminate.
  - destruct n; discriminate.
  - exfalso. destruct (Nat.eq_dec i n) as [->|N]; [rewrite slots_from_n in E; discriminate|]. rewrite slots_from_S in E by lia. discriminate.
  - exfalso. subst t0. assert (I : In MDelete (detach_prog dyn n)) by (rewrite H1; apply in_app_iff; right; left; reflexivity).
    destruct (detach_plain dyn n _ I) as [Q|[Q _]]; discriminate.
Qed.

Lemma PI_mut s k f t l cs : PI s ->
  (exists b, ph (p_stat s k) t b f /\ (b = true <-> In k l)) ->
  (forall j, j <> k -> In j l <-> In j (p_list s)) ->
  (incs t = true <-> cs = Some (OSpace k)) ->
  (forall j, j <> k -> (cs = Some (OSpace j) <-> p_cs s = Some (OSpace j))) ->
  (forall i, cs = Some (OReader i) <-> p_cs s = Some (OReader i)) ->
  (forall i, p_cs s = Some (OReader i) -> (In k (p_list s) -> In k l) /\
     (forall n, In k (p_list s) -> f_cfg (p_f s k) = Some n -> f_cfg f = Some n)) ->
  PI (mk_f s k f t l cs).
Proof.
  intros I P L C CO CR V. unfold mk_f. split; cbn [p_f p_todo p_stat p_list p_cs p_rd].
  - intros j. destruct (Z.eq_dec j k) as [->|N]; [rewrite !set1_same; exact P|rewrite !set1_other by exact N].
    destruct (pi_ph _ _ I j) as (b & B1 & B2). exists b. split; [exact B1|]. rewrite (L j N). exact B2.
  - intros j. destruct (Z.eq_dec j k) as [->|N]; [rewrite set1_same; exact C|rewrite set1_other by exact N].
    rewrite (CO j N). apply (pi_cs _ _ I).
  - intros i. destruct (pi_rd _ _ I i) as [R|[R|(R1 & ops & R2 & R3)]]; [left; exact R|right; left; exact R|right; right].
    split; [apply CR; exact R1|]. exists ops. split; [exact R2|]. eapply Forall_impl; [|exact R3].
    destruct (V i R1) as [V1 V2]. intros o. apply vis_ext; cbn [p_list p_f].
    + intros j J. destruct (Z.eq_dec j k) as [->|N]; [auto|]. apply L; auto.
    + intros j n J E. destruct (Z.eq_dec j k) as [->|N]; [rewrite set1_same; eauto|rewrite set1_other; auto].
Qed.

Lemma PI_step s x s' : PI s -> pstep dyn track s x = Some (Ok s') -> PI s'.
Proof.
  intros I E. destruct x as [k n|k|k|k|k|k o|i q|i]; cbn [pstep] in E.
  - destruct (p_todo s k) eqn:T; [|discriminate]. destruct (p_stat s k) eqn:S; try discriminate. injection E as <-.
    apply PI_begin; auto; try reflexivity. intros b H. rewrite S in H. apply ph_none_b in H. subst b. constructor.
  - destruct (p_todo s k) eqn:T; [|discriminate].
    assert (G : forall n b, base (p_f s k) -> f_ctx (p_f s k) = CNull -> f_cfg (p_f s k) = Some n -> b = true -> ph (SAtt n) (attach_prog dyn n) b (p_f s k)).
    { intros n b A1 A2 A3 ->. unfold attach_prog. destruct dyn eqn:D; [apply ph_a3; auto; left; reflexivity|apply ph_a0; auto]. }
    assert (GI : forall n, incs (attach_prog dyn n) = false) by (intros n; unfold attach_prog; destruct dyn; [apply ctxs_incs|reflexivity]).
    destruct (p_stat s k) as [|n|n|n|n a] eqn:S; try discriminate; injection E as <-; apply PI_begin; auto; intros b H; rewrite S in H.
    + apply ph_new in H as (-> & H1 & H2 & H3 & _). auto.
    + apply ph_det in H as (-> & H1 & H2 & H3). auto.
  - destruct (p_todo s k) eqn:T; [|discriminate]. destruct (p_stat s k) as [|n|n|n|n a] eqn:S; try discriminate. injection E as <-.
    apply PI_begin; auto.
    + apply (detach_incs dyn n [] (detach_prog dyn n)). reflexivity.
    + intros b H. rewrite S in H. apply ph_att in H as (-> & H1 & H2 & _). apply (ph_d dyn n _ [] (detach_prog dyn n)); auto.
      intros Q. exfalso. unfold detach_prog in Q. apply app_eq_nil in Q as [_ Q]. apply app_eq_nil in Q as [_ Q]. discriminate.
  - destruct (p_todo s k) eqn:T; [|discriminate].
    destruct (p_stat s k) as [|n|n|n|n a] eqn:S; try discriminate; injection E as <-; apply PI_begin; auto; try reflexivity; intros b H; rewrite S in H.
    + apply ph_new in H as (-> & H1 & H2 & H3 & H4). constructor; auto.
    + apply ph_det in H as (-> & H1 & H2 & H3). constructor; auto. discriminate.
  - destruct (p_todo s k) as [|o t] eqn:T; [discriminate|]. destruct (pi_ph _ _ I k) as (b & B1 & B2). rewrite T in B1.
    assert (PL : plain o = true -> Some (Ok (mk_f s k (wr (p_f s k) o) t (p_list s) (p_cs s))) = Some (Ok s') -> PI s').
    { intros P Q. injection Q as <-. apply PI_mut; [exact I|..].
      - exists b. split; [|exact B2]. apply ph_wr; auto.
      - intros j _. reflexivity.
      - rewrite (ph_incs _ _ _ _ _ _ B1 P). rewrite <- (pi_cs _ _ I k), T. destruct o; try discriminate P; reflexivity.
      - intros j _. reflexivity.
      - intros i. reflexivity.
      - intros i R. split; [auto|]. intros n L C. apply B2 in L. destruct (ph_cfg _ _ _ _ _ _ B1 P L) as [Q|Q]; congruence. }
    destruct o; try (apply PL; [reflexivity|exact E]).
    + destruct (p_cs s) as [w|] eqn:CS; [discriminate|]. injection E as <-. destruct (ph_enter _ _ _ _ B1) as [H1 H2].
      apply PI_mut; [exact I|..].
      * exists b. auto.
      * intros j _. reflexivity.
      * tauto.
      * intros j N. rewrite CS. split; [|discriminate]. intros Q. injection Q as ->. congruence.
      * intros i. rewrite CS. split; discriminate.
      * intros i. rewrite CS. discriminate.
    + assert (CS : p_cs s = Some (OSpace k)) by (apply (pi_cs _ _ I); rewrite T; reflexivity).
      injection E as <-. destruct (ph_exit _ _ _ _ B1) as [H1 H2]. apply PI_mut; [exact I|..].
      * exists b. auto.
      * intros j _. reflexivity.
      * rewrite H2. split; discriminate.
      * intros j N. rewrite CS. split; [discriminate|]. intros Q. injection Q as ->. congruence.
      * intros i. rewrite CS. split; discriminate.
      * intros i. rewrite CS. discriminate.
    + assert (CS : p_cs s = Some (OSpace k)) by (apply (pi_cs _ _ I); rewrite T; reflexivity).
      injection E as <-. destruct (ph_append _ _ _ _ B1) as (H0 & H1 & H2). apply PI_mut; [exact I|..].
      * exists true. split; [exact H1|]. split; [|reflexivity]. intros _. apply in_app_iff. right. left. reflexivity.
      * intros j N. rewrite in_app_iff. cbn. split; [intros [Q|[Q|[]]]; [exact Q|congruence]|tauto].
      * tauto.
      * intros j N. reflexivity.
      * intros i. reflexivity.
      * intros i. rewrite CS. discriminate.
    + assert (CS : p_cs s = Some (OSpace k)) by (apply (pi_cs _ _ I); rewrite T; reflexivity).
      injection E as <-. destruct (ph_delete _ _ _ _ B1) as (H1 & H2). apply PI_mut; [exact I|..].
      * exists false. split; [exact H1|]. split; [discriminate|]. rewrite filter_In. intros [_ Q]. rewrite Z.eqb_refl in Q. discriminate.
      * intros j N. rewrite filter_In. apply Z.eqb_neq in N. rewrite N. cbn. tauto.
      * tauto.
      * intros j N. reflexivity.
      * intros i. reflexivity.
      * intros i. rewrite CS. discriminate.
  - destruct (p_todo s k) eqn:T; [|discriminate]. destruct (p_stat s k) as [|n|n|n|n a] eqn:S; try discriminate.
    destruct (pi_ph _ _ I k) as (b & B1 & B2). rewrite S, T in B1. apply ph_att in B1 as (-> & [M A] & C & D & X).
    assert (RD : forall f, fsim (p_f s k) f -> PI (mkP (set1 (p_f s) k f) (p_todo s) (p_stat s) (p_list s) (p_cs s) (p_rd s))).
    { intros f F. assert (Q := PI_flags s k f 0 (p_rd s 0) I F (or_introl eq_refl)). split; cbn [p_f p_todo p_stat p_list p_cs p_rd].
      - apply (pi_ph _ _ Q).
      - apply (pi_cs _ _ Q).
      - intros i. generalize (pi_rd _ _ Q i). cbn [p_rd p_cs]. rewrite set1_id. intros [R|[R|(R1 & ops & R2 & R3)]]; [left; exact R|right; left; exact R|right; right].
        split; [exact R1|]. exists ops. split; [exact R2|]. eapply Forall_impl; [|exact R3]. intros o'. apply vis_ext; cbn; auto. }
    destruct o as [i|].
    + destruct (f_ctx (p_f s k)) as [| |l|] eqn:FC; try discriminate. destruct (nth_error l i) as [x|] eqn:NX; [|discriminate]. injection E as <-.
      apply RD. repeat split; cbn; auto; [|left; reflexivity]. right. exists l, (upd l i (mkSlot (sl_win x) (Some true))).
      split; [exact FC|]. split; [reflexivity|]. split; [apply upd_len|]. intros j y Y. rewrite nth_upd in Y.
      destruct (j =? i)%nat eqn:J; [|exists y; split; [exact Y|left; reflexivity]]. apply Nat.eqb_eq in J. subst j.
      destruct (i <? length l)%nat; [|discriminate]. injection Y as <-. exists x. split; [exact NX|].
      destruct X as [[_ X]|(l' & X1 & X2 & X3)].
      * congruence.
      * injection X1 as <-. destruct (X3 i x NX) as [Y1 Y2]. right. cbn. eauto 8.
    + destruct D as [D|[D1 D2]]; [rewrite D in E; discriminate|]. destruct dyn; [discriminate|]. injection E as <-. apply RD.
      repeat split; cbn; auto; [left; reflexivity|]. right. cbn. eauto 8.
  - destruct (p_rd s i) eqn:R; [|discriminate]. injection E as <-. split; cbn [p_f p_todo p_stat p_list p_cs p_rd].
    + apply (pi_ph _ _ I).
    + apply (pi_cs _ _ I).
    + intros j. destruct (Z.eq_dec j i) as [->|N]; [rewrite set1_same; right; left; eauto|rewrite set1_other by exact N].
      destruct (pi_rd _ _ I j) as [Q|[Q|(Q1 & ops & Q2 & Q3)]]; [left; exact Q|right; left; exact Q|right; right].
      split; [exact Q1|]. exists ops. split; [exact Q2|]. eapply Forall_impl; [|exact Q3]. intros o'. apply vis_ext; cbn; auto.
  - destruct (p_rd s i) as [|o r] eqn:R; [discriminate|].
    destruct (pi_rd _ _ I i) as [Q|[(q & Q)|(CS & ops & Q & V)]]; rewrite R in Q; [discriminate| |].
    + injection Q as -> ->. destruct (p_cs s) eqn:CS; [discriminate|]. injection E as <-. split; cbn [p_f p_todo p_stat p_list p_cs p_rd].
      * apply (pi_ph _ _ I).
      * intros k. rewrite (pi_cs _ _ I k), CS. split; discriminate.
      * intros j. destruct (Z.eq_dec j i) as [->|N]; [rewrite set1_same|rewrite set1_other by exact N].
        -- right. right. split; [reflexivity|]. eexists. split; [reflexivity|]. apply Forall_forall. intros o O.
           apply in_map_iff in O as (k & <- & O). destruct q; exact O.
        -- destruct (pi_rd _ _ I j) as [Q|[Q|(Q1 & _)]]; [left; exact Q|right; left; exact Q|congruence].
    + destruct ops as [|o' ops].
      * injection Q as -> ->. injection E as <-. split; cbn [p_f p_todo p_stat p_list p_cs p_rd].
        -- apply (pi_ph _ _ I).
        -- intros k. rewrite (pi_cs _ _ I k), CS. split; discriminate.
        -- intros j. destruct (Z.eq_dec j i) as [->|N]; [rewrite set1_same; left; reflexivity|rewrite set1_other by exact N].
           destruct (pi_rd _ _ I j) as [Q|[Q|(Q1 & _)]]; [left; exact Q|right; left; exact Q|congruence].
      * injection Q as -> ->. inversion V as [|? ? V1 V2]; subst. destruct o' as [q|k|k j|k|k|]; try contradiction.
        -- cbn in V1. cbv zeta in E. destruct (f_mem (p_f s k)); [|discriminate]. destruct (f_cfg (p_f s k)) as [n|] eqn:C; [|discriminate].
           injection E as <-. apply PI_read; auto. exists (map (WSlot k) (seq 0 n) ++ (if dyn then [] else [WDef k]) ++ ops).
           split; [rewrite <- !app_assoc; reflexivity|]. apply Forall_app. split; [|apply Forall_app; split; [|exact V2]].
           ++ apply Forall_forall. intros o O. apply in_map_iff in O as (j & <- & O). apply in_seq in O. split; [exact V1|]. exists n. split; [exact C|lia].
           ++ destruct dyn eqn:D; [constructor|]. constructor; [split; [exact V1|reflexivity]|constructor].
        -- cbv zeta in E. destruct (f_mem (p_f s k)) eqn:FM; [|discriminate]. destruct (f_ctx (p_f s k)) as [| |l|] eqn:C; try discriminate.
           destruct (nth_error l j) as [x|] eqn:X; [|discriminate]. destruct (flush1 track x) as [y| | |] eqn:F; try discriminate.
           injection E as <-. apply flush_sim in F.
           apply PI_flags; auto; [|right; split; [exact CS|]; exists ops; auto].
           split; [exact (eq_sym FM)|]. split; [reflexivity|]. split; [reflexivity|]. split; [|left; reflexivity]. right. exists l, (upd l j y). split; [exact C|]. split; [reflexivity|].
           split; [apply upd_len|]. intros j' y' Y. rewrite nth_upd in Y. destruct (j' =? j)%nat eqn:J.
           ++ apply Nat.eqb_eq in J. subst j'. destruct (j <? length l)%nat; [|discriminate]. injection Y as <-. eauto.
           ++ exists y'. split; [exact Y|left; reflexivity].
        -- cbv zeta in E. destruct (f_mem (p_f s k)) eqn:FM; [|discriminate]. destruct (flush1 track (f_def (p_f s k))) as [y| | |] eqn:F; try discriminate.
           injection E as <-. apply flush_sim in F. apply PI_flags; auto; [|right; split; [exact CS|]; exists ops; auto].
           split; [exact (eq_sym FM)|]. split; [reflexivity|]. split; [reflexivity|]. split; [left; reflexivity|exact F].
        -- cbv zeta in E. destruct (f_mem (p_f s k) && f_attr (p_f s k)); [|discriminate]. injection E as <-. apply PI_read; auto. exists ops. auto.
Qed.

Lemma PI_run xs : forall s s', PI s -> prun dyn track s xs = Some (Ok s') -> PI s'.
Proof.
  induction xs as [|x xs IH]; intros s s' I E; cbn [prun] in E; [injection E as <-; exact I|].
  destruct (pstep dyn track s x) as [[s1| | |]|] eqn:S; try discriminate. eapply IH; [|exact E]. eapply PI_step; eauto.
Qed.

Lemma ph_listed st t f : ph st t true f -> base f.
Proof. intros H. remember true as b eqn:B. destruct H; try discriminate B; assumption. Qed.
Lemma listed_base s k : PI s -> In k (p_list s) -> base (p_f s k).
Proof. intros I L. destruct (pi_ph _ _ I k) as (b & B1 & B2). apply B2 in L. subst b. eapply ph_listed; eauto. Qed.

(** Searches. *)
Definition search (o : wop) : bool := match o with WEnter false | WAttr _ | WExit => true | _ => false end.
Definition searches (s : pst) : Prop := forall i, forallb search (p_rd s i) = true.

Lemma search_step s x : PI s -> searches s -> match x with PRead _ true => false | _ => true end = true ->
  forall r, pstep dyn track s x = Some r -> exists s', r = Ok s' /\ searches s'.
Proof.
  intros I S X r E.
  assert (U : forall s', p_rd s' = p_rd s -> searches s') by (intros s' Q i; rewrite Q; apply S).
  assert (U1 : forall i w, forallb search w = true -> forall f t st l cs, searches (mkP f t st l cs (set1 (p_rd s) i w))).
  { intros i w W f t st l cs j. cbn [p_rd]. destruct (Z.eq_dec j i) as [->|N]; [rewrite set1_same; exact W|rewrite set1_other by exact N; apply S]. }
  destruct x as [k n|k|k|k|k|k o|i q|i]; cbn [pstep] in E.
  - destruct (p_todo s k); [|discriminate]. destruct (p_stat s k); try discriminate. injection E as <-. eexists. split; [reflexivity|]. apply U. reflexivity.
  - destruct (p_todo s k); [|discriminate]. destruct (p_stat s k); try discriminate; injection E as <-; eexists; (split; [reflexivity|]); apply U; reflexivity.
  - destruct (p_todo s k); [|discriminate]. destruct (p_stat s k); try discriminate; injection E as <-; eexists; (split; [reflexivity|]); apply U; reflexivity.
  - destruct (p_todo s k); [|discriminate]. destruct (p_stat s k); try discriminate; injection E as <-; eexists; (split; [reflexivity|]); apply U; reflexivity.
  - destruct (p_todo s k) as [|o t]; [discriminate|]. destruct o; try (injection E as <-; eexists; (split; [reflexivity|]); apply U; reflexivity).
    destruct (p_cs s); [discriminate|]. injection E as <-; eexists; (split; [reflexivity|]); apply U; reflexivity.
  - destruct (p_todo s k); [|discriminate]. destruct (p_stat s k); try discriminate. destruct o as [i|].
    + destruct (f_ctx (p_f s k)); try discriminate. destruct (nth_error l i); [|discriminate].
      injection E as <-; eexists; (split; [reflexivity|]); apply U; reflexivity.
    + destruct dyn; [discriminate|]. injection E as <-; eexists; (split; [reflexivity|]); apply U; reflexivity.
  - destruct q; [discriminate|]. destruct (p_rd s i); [|discriminate]. injection E as <-. eexists. split; [reflexivity|]. apply U1. reflexivity.
  - assert (Si := S i). destruct (p_rd s i) as [|o w] eqn:R; [discriminate|]. cbn [forallb] in Si. apply andb_true_iff in Si as [S1 S2].
    destruct o as [q|k|k j|k|k|]; try discriminate S1.
    + destruct q; [discriminate|]. destruct (p_cs s); [discriminate|]. injection E as <-. eexists. split; [reflexivity|]. apply U1.
      rewrite forallb_app. apply andb_true_iff. split; [|reflexivity]. apply forallb_forall. intros o O. apply in_map_iff in O as (k & <- & _). reflexivity.
    + destruct (pi_rd _ _ I i) as [Q|[(q & Q)|(CS & ops & Q & V)]]; rewrite R in Q; [discriminate|discriminate|].
      destruct ops as [|o' ops]; [discriminate|]. injection Q as <- Q. inversion V as [|? ? V1 V2]; subst.
      destruct (listed_base s k I V1) as [B1 B2]. cbv zeta in E. rewrite B1, B2 in E. injection E as <-. eexists. split; [reflexivity|]. apply U1. exact S2.
    + injection E as <-. eexists. split; [reflexivity|]. apply U1. exact S2.
Qed.
Lemma search_run xs : forall s r, PI s -> searches s -> no_quiet xs = true -> prun dyn track s xs = Some r -> exists s', r = Ok s'.
Proof.
  induction xs as [|x xs IH]; intros s r I S N E; cbn [prun] in E; [injection E as <-; eauto|].
  cbn [no_quiet forallb] in N. apply andb_true_iff in N as [N1 N2].
  destruct (pstep dyn track s x) as [r1|] eqn:P; [|discriminate].
  destruct (search_step s x I S N1 r1 P) as (s1 & -> & S1). eapply (IH s1); auto. eapply PI_step; eauto.
Qed.

(** Walks through settled spaces. *)
Lemma flush_live x : live_slot x -> exists y, flush1 track x = Ok y.
Proof. intros [W (b & F)]. unfold flush1. rewrite F, W. destruct (track && negb b); eauto. Qed.
Lemma calm_go s i r : PI s -> calm dyn track s -> pstep dyn track s (PGo i) = Some r -> exists s', r = Ok s'.
Proof.
  intros I C E. cbn [pstep] in E. destruct (p_rd s i) as [|o w] eqn:R; [discriminate|].
  destruct (pi_rd _ _ I i) as [Q|[(q & Q)|(CS & ops & Q & V)]]; rewrite R in Q; [discriminate| |].
  - injection Q as -> ->. destruct (p_cs s); [discriminate|]. injection E as <-. unfold set_rd. eauto.
  - destruct ops as [|o' ops].
    + injection Q as -> ->. injection E as <-. unfold set_rd. eauto.
    + injection Q as -> ->. inversion V as [|? ? V1 V2]; subst. destruct o' as [q|k|k j|k|k|]; try contradiction; cbv zeta in E; injection E as <-.
      * cbn in V1. assert (T := C k V1). destruct (pi_ph _ _ I k) as (b & B1 & B2). assert (b = true) by (apply B2; exact V1). subst b.
        destruct (ph_listed _ _ _ B1) as [B3 _]. rewrite B3.
        unfold settled in T. destruct (p_todo s k) as [|[] t] eqn:TD; destruct (p_stat s k) as [|n1|n1|n1|n1 a] eqn:ST; try contradiction.
        -- apply ph_new in B1 as (_ & _ & _ & -> & _). unfold set_rd. eauto.
        -- apply ph_att in B1 as (_ & _ & -> & _). unfold set_rd. eauto.
        -- apply ph_det in B1 as (_ & _ & -> & _). unfold set_rd. eauto.
        -- apply ph_gone in B1 as (_ & _ & -> & _). unfold set_rd. eauto.
      * destruct V1 as [V1 (n0 & V3 & V4)]. assert (T := C k V1). destruct (pi_ph _ _ I k) as (b & B1 & B2). assert (b = true) by (apply B2; exact V1). subst b.
        destruct (ph_listed _ _ _ B1) as [B3 _]. rewrite B3.
        unfold settled in T. destruct (p_todo s k) as [|[] t] eqn:TD; destruct (p_stat s k) as [|n1|n1|n1|n1 a] eqn:ST; try contradiction.
        -- apply ph_new in B1 as (_ & _ & _ & B1 & _). destruct T as [-> _]. rewrite B1 in V3. injection V3 as <-. lia.
        -- apply ph_att in B1 as (_ & _ & B1 & _ & [[-> _]|(l & L1 & L2 & L3)]); rewrite B1 in V3; injection V3 as <-; [lia|].
           rewrite L1. destruct (nth_error l j) as [x|] eqn:X; [|apply nth_error_None in X; lia].
           destruct (flush_live x (L3 j x X)) as (y & ->). cbn. unfold set_rd. eauto.
        -- apply ph_det in B1 as (_ & _ & B1 & _). destruct T as [-> _]. rewrite B1 in V3. injection V3 as <-. lia.
        -- apply ph_gone in B1 as (_ & _ & B1 & _). destruct T as [-> _]. rewrite B1 in V3. injection V3 as <-. lia.
      * destruct V1 as [V1 D]. assert (T := C k V1). destruct (pi_ph _ _ I k) as (b & B1 & B2). assert (b = true) by (apply B2; exact V1). subst b.
        destruct (ph_listed _ _ _ B1) as [B3 _]. rewrite B3.
        assert (G : exists y, flush1 track (f_def (p_f s k)) = Ok y).
        { assert (FR : track = true -> fresh_def dyn (p_f s k) -> exists y, flush1 track (f_def (p_f s k)) = Ok y).
          { intros -> [Q|Q]; [congruence|]. rewrite Q. cbn. eauto. }
          unfold settled in T. destruct (p_todo s k) as [|[] t] eqn:TD; destruct (p_stat s k) as [|n1|n1|n1|n1 a] eqn:ST; try contradiction.
          - apply ph_new in B1 as (_ & _ & _ & _ & B1). destruct T as [_ [T|T]]; [congruence|auto].
          - apply ph_att in B1 as (_ & _ & _ & [B1|B1] & _); [congruence|]. apply flush_live. exact B1.
          - destruct T as [_ T]. congruence.
          - apply ph_gone in B1 as (_ & _ & _ & B1). destruct T as [_ [T|[T1 T2]]]; [congruence|auto]. }
        destruct G as (y & ->). cbn. unfold set_rd. eauto.
      * cbn in V1. destruct (listed_base s k I V1) as [B1 B2]. rewrite B1, B2. unfold set_rd. cbn. eauto.
Qed.
End P.
