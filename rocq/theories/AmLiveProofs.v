(** Liveness of active messages: a waiting thread's request or reply is in flight, and a measure
    that every step of a thread or of an engine decreases. *)
From Verif Require Import Base BaseProofs ListLib LockModel LockProofs AmModel AmSpec AmProofs AmProofs2 AmProofs3 AmLiveSpec.

Section AmLiveProofs.
Variables A D M R : Type.
Variable exec : A -> option D -> M -> outcome (M * R).
Variable ub : Z.
Variable n : Z.
Variable m0 : Z -> M.
Hypothesis ub_int : ub <= INT_MAX.
Notation req := (req A D).
Notation msg := (msg A D).
Notation amsg := (amsg A D R).
Notation tst := (tst A D R).
Notation ast := (ast A D M R).
Notation step := (step exec ub n).
Notation run := (run exec ub n).
Notation inv := (inv A D M R exec m0).
Notation waiton := (waiton A D R).
Notation infl := (infl A D R).

(** ** Whoever waits has something in flight *)

Definition aborted (x : cbst A D) : Prop := exists q r, x = CbAbort q r.
Definition xw (s : ast) : Prop :=
  forall p i t y, waiton (a_thr s p i) t = Some y -> infl (a_comm s p t) (a_ack s t p) y \/ aborted (a_cb s t).

Lemma xw_thr s s' p i x' t0 : xw s ->
  a_thr s' = fset2 (a_thr s) p i x' -> a_cb s' = a_cb s ->
  (forall q t, q <> p \/ t <> t0 -> a_comm s' q t = a_comm s q t /\ a_ack s' t q = a_ack s t q) ->
  (forall t y, waiton x' t = Some y -> (t <> t0 /\ waiton (a_thr s p i) t = Some y) \/
                                       infl (a_comm s' p t) (a_ack s' t p) y \/ aborted (a_cb s t)) ->
  (forall j y, j <> i -> waiton (a_thr s p j) t0 = Some y -> infl (a_comm s p t0) (a_ack s t0 p) y ->
     infl (a_comm s' p t0) (a_ack s' t0 p) y) ->
  xw s'.
Proof.
  intros H ET EC EO HX HJ q j t y. rewrite ET, EC. destruct (Z.eq_dec q p) as [->|Hq].
  - destruct (Z.eq_dec j i) as [->|Hj].
    + rewrite fset2_eq. intros E. destruct (HX t y E) as [[H1 H2]|H1]; [|exact H1].
      destruct (EO p t (or_intror H1)) as [-> ->]. eauto.
    + rewrite fset2_ne by tauto. intros E. destruct (Z.eq_dec t t0) as [->|Ht].
      * destruct (H _ _ _ _ E) as [H1|H1]; [left; eauto|right; exact H1].
      * destruct (EO p t (or_intror Ht)) as [-> ->]. eauto.
  - rewrite fset2_ne by tauto. destruct (EO q t (or_introl Hq)) as [-> ->]. eauto.
Qed.

Lemma xw_cb s s' p t0 : xw s -> a_thr s' = a_thr s ->
  (forall q t, q <> p \/ t <> t0 -> a_comm s' q t = a_comm s q t /\ a_ack s' t q = a_ack s t q) ->
  (forall t, t <> t0 -> a_cb s' t = a_cb s t) -> ~ aborted (a_cb s t0) ->
  (forall y, infl (a_comm s p t0) (a_ack s t0 p) y -> infl (a_comm s' p t0) (a_ack s' t0 p) y \/ aborted (a_cb s' t0)) ->
  xw s'.
Proof.
  intros H ET EO EC NA HP q j t y. rewrite ET. intros E. destruct (H _ _ _ _ E) as [H1|H1].
  - destruct (Z.eq_dec t t0) as [->|Ht].
    + destruct (Z.eq_dec q p) as [->|Hq]; [auto|]. destruct (EO q t0 (or_introl Hq)) as [-> ->]. left; exact H1.
    + destruct (EO q t (or_intror Ht)) as [-> ->]. left; exact H1.
  - destruct (Z.eq_dec t t0) as [->|Ht]; [contradiction|]. rewrite (EC t Ht). right; exact H1.
Qed.

Lemma infl_ack_rm c (k : list amsg) g y0 k' y : take_ack g k = Some (y0, k') -> infl c k y -> fst y <> g -> infl c k' y.
Proof.
  intros E H Hg. apply take_ack_split in E. destruct E as (k1 & k2 & -> & ->).
  destruct H as [H|(a & Ha & H)]; [left; exact H|]. right. exists a. split; [|exact H].
  apply in_app_or in Ha. apply in_or_app. destruct Ha as [Ha|[<-|Ha]]; [tauto| |tauto].
  exfalso. apply Hg. destruct y0 as [[r x]|]; simpl in H; subst y; reflexivity.
Qed.

Lemma infl_more c k m y : infl c k y -> infl (c ++ [m]) k y.
Proof. intros H. apply (proj2 (AmProofs.infl_snoc A D M R ub m0 c k m y)). right. exact H. Qed.
Lemma infl_ack_more c (k : list amsg) a y : infl c k y -> infl c (k ++ [a]) y.
Proof. intros [H|(b & Hb & H)]; [left; exact H|]. right. exists b. split; [apply in_or_app; left; exact Hb|exact H]. Qed.

Ltac oth := intros; simpl; repeat (rewrite fset2_ne by tauto); split; reflexivity.

Lemma xw_step s l : inv s -> xw s -> xw (fst (step s l)).
Proof.
  intros I H. destruct l as [p i t r|p i ps|p i|p i|t p any]; simpl.
  - destruct (_ && _) eqn:EB; [|exact H]. destruct (a_thr s p i) eqn:ET; try exact H.
    destruct (rq_kind r) eqn:EK.
    + simpl. apply (xw_thr s _ p i (TFlag t true r None) t H); try reflexivity; [oth|intros; discriminate|].
      intros j y _ _ Hy. simpl. rewrite fset2_eq. apply infl_more. exact Hy.
    + destruct (am_ptag true ub (a_cnt s p)) as [g| | |]; simpl;
        eapply (xw_thr s _ p i _ t H); try reflexivity; try oth; try (intros; discriminate); auto.
    + destruct (am_ptag true ub (a_cnt s p)) as [g| | |]; simpl;
        eapply (xw_thr s _ p i _ t H); try reflexivity; try oth; try (intros; discriminate); auto.
  - destruct (_ && _) eqn:EB; [|exact H]. destruct (a_thr s p i) eqn:ET; try exact H. simpl.
    eapply (xw_thr s _ p i _ 0 H); try reflexivity; try oth; try (intros; discriminate); auto.
  - destruct (_ && _) eqn:EB; [|exact H]. destruct (a_thr s p i) eqn:ET; try exact H. simpl.
    eapply (xw_thr s _ p i _ 0 H); try reflexivity; try oth; try (intros; discriminate); auto.
  - destruct (is_pe n p); [|exact H]. pose proof (in_t _ _ _ _ _ _ s I p) as TIp. destruct TIp.
    destruct (a_thr s p i) as [|t g r|t g r|t g r|t v r x|todo ps|todo g w ps|w g ps|todo ps| | |] eqn:ET; try exact H.
    + simpl. eapply (xw_thr s _ p i _ t H); try reflexivity; [oth| |].
      * intros t' y E. simpl. destruct (rq_kind r) eqn:EK; simpl in E.
        -- destruct (Z.eqb_spec t t'); [|discriminate]. subst t'. injection E as <-. exfalso.
           specialize (ti_ok i). rewrite ET in ti_ok. simpl in ti_ok. tauto.
        -- discriminate.
        -- destruct (Z.eqb_spec t t'); [|discriminate]. subst t'. injection E as <-.
           right. left. rewrite fset2_eq. apply (proj2 (AmProofs.infl_snoc A D M R ub m0 _ _ _ _)). left. simpl. auto.
      * intros j y _ _ Hy. simpl. rewrite fset2_eq. apply infl_more. exact Hy.
    + destruct (rq_data r) as [d|]; [|exact H]. simpl.
      eapply (xw_thr s _ p i _ t H); try reflexivity; [oth|intros; discriminate|].
      intros j y _ _ Hy. simpl. rewrite fset2_eq. apply infl_more. exact Hy.
    + destruct (take_ack g (a_ack s t p)) as [[y0 c]|] eqn:EK; [|exact H].
      assert (J : forall x', (forall t' y, waiton x' t' = Some y -> False) -> xw (set_thr (set_ack s t p c) p i x')).
      { intros x' Hx. eapply (xw_thr s _ p i _ t H); try reflexivity.
        - intros q t' Hq. simpl. split; [reflexivity|]. apply fset2_ne. tauto.
        - intros t' y E. destruct (Hx _ _ E).
        - intros j y Hj E Hy. simpl. rewrite fset2_eq. eapply infl_ack_rm; eauto.
          intros Hg. apply Hj. destruct y as [g' o]. simpl in Hg. subst g'.
          apply (ti_uniq j i g); [eapply wait_tag; eauto|rewrite ET; reflexivity]. }
      destruct y0 as [[r' x]|]; simpl; apply J; intros; discriminate.
    + simpl. eapply (xw_thr s _ p i _ t H); try reflexivity; try oth; try (intros; discriminate); auto.
    + destruct todo as [|t rest].
      * simpl. eapply (xw_thr s _ p i _ 0 H); try reflexivity; try oth; try (intros; discriminate); auto.
      * destruct (a_flag s p t).
        -- destruct (am_ptag true ub (a_cnt s p)) as [g| | |]; simpl;
             eapply (xw_thr s _ p i _ t H); try reflexivity; try oth; try (intros; discriminate); auto.
        -- simpl. eapply (xw_thr s _ p i _ 0 H); try reflexivity; try oth; try (intros; discriminate); auto.
    + assert (HW : forall t, mem_z t w = true -> infl (a_comm s p t) (a_ack s t p) (g, None) \/ aborted (a_cb s t)).
      { intros t Ht. apply (H p i t). rewrite ET. simpl. rewrite Ht. reflexivity. }
      destruct todo as [|t rest].
      * simpl. eapply (xw_thr s _ p i _ 0 H); try reflexivity; try oth; auto.
        intros t y. simpl. destruct (mem_z t w) eqn:EM; [|discriminate]. intros [= <-]. right. exact (HW t EM).
      * destruct (a_flag s p t).
        -- simpl. eapply (xw_thr s _ p i _ t H); try reflexivity; [oth| |].
           ++ intros t' y. simpl. destruct (Z.eq_dec t' t) as [->|Ht].
              ** destruct (mem_z t (w ++ [t])) eqn:EM; [|discriminate]. intros [= <-].
                 right. left. rewrite fset2_eq. apply (proj2 (AmProofs.infl_snoc A D M R ub m0 _ _ _ _)). left. reflexivity.
              ** rewrite (mem_z_app M ub m0) by exact Ht. destruct (mem_z t' w) eqn:EM; [|discriminate]. intros [= <-].
                 left. split; [exact Ht|]. rewrite ET. simpl. rewrite EM. reflexivity.
           ++ intros j y _ _ Hy. simpl. rewrite fset2_eq. apply infl_more. exact Hy.
        -- simpl. eapply (xw_thr s _ p i _ 0 H); try reflexivity; try oth; auto.
           intros t' y. simpl. destruct (mem_z t' w) eqn:EM; [|discriminate]. intros [= <-]. right. exact (HW t' EM).
    + destruct w as [|t rest].
      * simpl. eapply (xw_thr s _ p i _ 0 H); try reflexivity; try oth; try (intros; discriminate); auto.
      * destruct (take_ack g (a_ack s t p)) as [[y0 c]|] eqn:EK; [|exact H].
        simpl. eapply (xw_thr s _ p i _ t H); try reflexivity.
        -- intros q t' Hq. simpl. split; [reflexivity|]. apply fset2_ne. tauto.
        -- intros t' y. simpl. destruct (mem_z t' rest) eqn:EM; [|discriminate]. intros [= <-].
           destruct (Z.eq_dec t' t) as [->|Ht].
           ++ exfalso. specialize (ti_ok i). rewrite ET in ti_ok. simpl in ti_ok. inversion ti_ok; subst.
              apply mem_z_spec in EM. contradiction.
           ++ left. split; [exact Ht|]. rewrite ET. unfold AmProofs.waiton. rewrite mem_z_cons by exact Ht. rewrite EM. reflexivity.
        -- intros j y Hj E Hy. simpl. rewrite fset2_eq. eapply infl_ack_rm; eauto.
           intros Hg. apply Hj. destruct y as [g' o]. simpl in Hg. subst g'.
           apply (ti_uniq j i g); [eapply wait_tag; eauto|rewrite ET; reflexivity].
    + destruct todo as [|t rest]; simpl;
        eapply (xw_thr s _ p i _ 0 H); try reflexivity; try oth; try (intros; discriminate); auto.
    + destruct (forallb _ _); [|exact H].
      simpl. eapply (xw_thr s _ p i _ p H); try reflexivity; [oth|intros; discriminate|].
      intros j y _ _ Hy. simpl. rewrite fset2_eq. apply infl_more. exact Hy.
  - destruct (is_pe n t && is_pe n p) eqn:EB; [|exact H].
    destruct (a_cb s t) as [|q g r| | |] eqn:EC; try exact H.
    + assert (NA : ~ aborted (a_cb s t)) by (rewrite EC; intros (? & ? & ?); discriminate).
      destruct (take_hdr any (a_comm s p t)) as [[m c]|] eqn:EH; [|exact H].
      pose proof (in_p _ _ _ _ _ _ s I p t) as []. destruct pi_scan as (S & HS & _). rewrite EC in HS. simpl in HS.
      destruct (scan_head _ _ _ _ _ _ _ HS EH) as (h & -> & EM).
      assert (RM : forall y, infl (a_comm s p t) (a_ack s t p) y -> infl_m A D (MH h) y \/ infl c (a_ack s t p) y).
      { intros y [(m & Hm & Hy)|Hy]; [|right; right; exact Hy]. rewrite EM in Hm. destruct Hm as [<-|Hm]; [left; exact Hy|].
        right. left. exists m. auto. }
      destruct h as [g r|g|].
      * destruct (rq_kind r) eqn:EK.
        -- unfold run_cb. simpl. rewrite EK. destruct (exec (rq_args r) None (a_mem s t)) as [[m x]| | |]; simpl;
             (apply (xw_cb s _ p t H); try reflexivity; try exact NA;
               [oth|intros; simpl; apply fset_ne; assumption|simpl; rewrite fset2_eq; intros y Hy; left;
                destruct (RM y Hy) as [[F _]|F]; [congruence|exact F]]).
        -- simpl. apply (xw_cb s _ p t H); try reflexivity; try exact NA;
             [oth|intros; simpl; apply fset_ne; assumption|simpl; rewrite fset2_eq; intros y Hy; left;
                destruct (RM y Hy) as [[F _]|F]; [congruence|exact F]].
        -- unfold run_cb. simpl. rewrite EK. destruct (exec (rq_args r) None (a_mem s t)) as [[m x]| | |]; simpl;
             (apply (xw_cb s _ p t H); try reflexivity; try exact NA;
               [oth|intros; simpl; apply fset_ne; assumption|simpl; rewrite ?fset2_eq, ?fset_eq; intros y Hy]).
           ++ left. destruct (RM y Hy) as [[_ F]|F]; [|apply infl_ack_more; exact F].
              right. exists (g, Some (r, x)). split; [apply in_or_app; right; left; reflexivity|exact F].
           ++ right. exists p, r. reflexivity.
           ++ right. exists p, r. reflexivity.
           ++ right. exists p, r. reflexivity.
      * simpl. apply (xw_cb s _ p t H); try reflexivity; try exact NA; [oth|].
        simpl. rewrite !fset2_eq. intros y Hy. left. destruct (RM y Hy) as [F|F]; [|apply infl_ack_more; exact F].
        right. exists (g, None). split; [apply in_or_app; right; left; reflexivity|exact F].
      * simpl. apply (xw_cb s _ p t H); try reflexivity; try exact NA; [oth|intros; simpl; apply fset_ne; assumption|].
        simpl. rewrite fset2_eq. intros y Hy. left. destruct (RM y Hy) as [F|F]; [destruct F|exact F].
    + assert (NA : ~ aborted (a_cb s t)) by (rewrite EC; intros (? & ? & ?); discriminate).
      destruct (take_data g (a_comm s q t)) as [[d c]|] eqn:EH; [|exact H].
      pose proof (in_p _ _ _ _ _ _ s I q t) as []. rewrite EC in pi_cb. simpl in pi_cb. rewrite Z.eqb_refl in pi_cb.
      destruct (pi_cb g r eq_refl) as [EK _].
      assert (RM : forall y, infl (a_comm s q t) (a_ack s t q) y -> infl c (a_ack s t q) y).
      { intros y [(m & Hm & Hy)|Hy]; [|right; exact Hy]. left. exists m. split; [|exact Hy].
        assert (Hm' : In m c \/ m = MD g d).
        { clear - EH Hm. revert c EH. induction (a_comm s q t) as [|[h|g2 d2] cc IH]; intros c EH; [destruct Hm| |]; simpl in EH.
          - destruct (take_data g cc) as [[x rr]|] eqn:E2; [|discriminate]. injection EH as -> <-.
            destruct Hm as [<-|Hm]; [left; left; reflexivity|]. destruct (IH Hm rr eq_refl); [left; right; assumption|right; assumption].
          - destruct (Z.eqb_spec g2 g) as [->|Hne].
            + injection EH as -> ->. destruct Hm as [<-|Hm]; [right; reflexivity|left; exact Hm].
            + destruct (take_data g cc) as [[x rr]|] eqn:E2; [|discriminate]. injection EH as -> <-.
              destruct Hm as [<-|Hm]; [left; left; reflexivity|]. destruct (IH Hm rr eq_refl); [left; right; assumption|right; assumption]. }
        destruct Hm' as [Hm'| ->]; [exact Hm'|destruct Hy]. }
      unfold run_cb. simpl. rewrite EK. destruct (exec (rq_args r) (Some d) (a_mem s t)) as [[m x]| | |]; simpl;
        (apply (xw_cb s _ q t H); try reflexivity; try exact NA;
          [oth|intros; simpl; apply fset_ne; assumption|simpl; rewrite fset2_eq; intros y Hy; left; auto]).
Qed.
End AmLiveProofs.
