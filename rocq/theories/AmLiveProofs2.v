(** Liveness of active messages, continued: ranges, the measure, progress, fair schedules. *)
From Verif Require Import Base BaseProofs ListLib LockModel LockProofs AmModel AmSpec AmProofs AmProofs2 AmProofs3
  AmLiveSpec AmLiveProofs.

(** ** Sums *)
Fixpoint sumn {X : Type} (f : X -> nat) (l : list X) : nat :=
  match l with [] => 0%nat | x :: r => (f x + sumn f r)%nat end.
Definition S1 {X : Type} (w : X -> nat) (f : Z -> X) (L : list Z) : nat := sumn (fun p => w (f p)) L.
Definition S2 {X : Type} (w : X -> nat) (f : Z -> Z -> X) (L1 L2 : list Z) : nat :=
  sumn (fun p => S1 w (f p) L2) L1.

Lemma sumn_ext {X} (f g : X -> nat) l : (forall x, In x l -> f x = g x) -> sumn f l = sumn g l.
Proof.
  induction l as [|x l IH]; intros H; [reflexivity|]. simpl. rewrite (H x) by (left; reflexivity).
  rewrite IH; [reflexivity|]. intros y Hy. apply H. right; exact Hy.
Qed.
Lemma sumn_upd {X} (f g : X -> nat) x l : NoDup l -> In x l -> (forall y, In y l -> y <> x -> f y = g y) ->
  (sumn f l + g x = sumn g l + f x)%nat.
Proof.
  induction l as [|y l IH]; intros ND HI H; [destruct HI|]. inversion ND; subst. simpl. destruct HI as [->|HI].
  - rewrite (sumn_ext f g l); [lia|]. intros z Hz. apply H; [right; exact Hz|]. intros ->. contradiction.
  - rewrite (H y); [|left; reflexivity|intros ->; contradiction].
    assert (E : (sumn f l + g x = sumn g l + f x)%nat) by (apply IH; auto; intros z Hz; apply H; right; exact Hz). lia.
Qed.
Lemma S1_fset {X} (w : X -> nat) f L p x : NoDup L -> In p L ->
  (S1 w (fset f p x) L + w (f p) = S1 w f L + w x)%nat.
Proof.
  intros ND HI. unfold S1. pose proof (sumn_upd (fun q => w (fset f p x q)) (fun q => w (f q)) p L ND HI) as H.
  simpl in H. rewrite fset_eq in H. apply H. intros y _ Hy. rewrite fset_ne by exact Hy. reflexivity.
Qed.
Lemma S2_fset {X} (w : X -> nat) f L1 L2 p q x : NoDup L1 -> NoDup L2 -> In p L1 -> In q L2 ->
  (S2 w (fset2 f p q x) L1 L2 + w (f p q) = S2 w f L1 L2 + w x)%nat.
Proof.
  intros N1 N2 I1 I2. unfold S2.
  pose proof (sumn_upd (fun a => S1 w (fset2 f p q x a) L2) (fun a => S1 w (f a) L2) p L1 N1 I1) as H.
  simpl in H. rewrite fset2_same in H. pose proof (S1_fset w (f p) L2 q x N2 I2) as H2.
  assert (forall y, In y L1 -> y <> p -> S1 w (fset2 f p q x y) L2 = S1 w (f y) L2).
  { intros y _ Hy. rewrite fset2_row by exact Hy. reflexivity. }
  specialize (H H0). lia.
Qed.

Lemma zrange_in k x : In x (zrange k) <-> 0 <= x < k.
Proof.
  unfold zrange. rewrite in_map_iff. split.
  - intros (y & <- & H). apply in_seq in H. lia.
  - intros H. exists (Z.to_nat x). split; [lia|]. apply in_seq. lia.
Qed.
Lemma zrange_nodup k : NoDup (zrange k).
Proof. unfold zrange. apply FinFun.Injective_map_NoDup; [intros a b; lia|apply seq_NoDup]. Qed.

Section AmLiveProofs2.
Variables A D M R : Type.
Variable exec : A -> option D -> M -> outcome (M * R).
Variable ub : Z.
Variable n : Z.
Variable m0 : Z -> M.
Hypothesis ub_int : ub <= INT_MAX.
Notation req := (req A D).
Notation msg := (msg A D).
Notation amsg := (amsg A D R).
Notation tst := (tst A D R).
Notation ast := (ast A D M R).
Notation step := (step exec ub n).
Notation run := (run exec ub n).
Notation inv := (inv A D M R exec m0).
Notation waiton := (waiton A D R).
Notation infl := (infl A D R).
Notation xw := (xw A D M R).
Notation pe := (is_pe n).

Lemma pe_in p : pe p = true <-> In p (zrange n).
Proof. rewrite zrange_in. unfold is_pe. rewrite andb_true_iff, Z.leb_le, Z.ltb_lt. reflexivity. Qed.

(** ** Ranges *)
Definition tgt (x : tst) : bool :=
  match x with
  | TTag t _ _ | TData t _ _ | TAck t _ _ | TFlag t _ _ _ => pe t
  | TFCount todo ps => forallb pe todo && forallb pe ps
  | TFSend todo _ w ps => forallb pe todo && forallb pe w && forallb pe ps
  | TFWait w _ ps => forallb pe w && forallb pe ps
  | TFReset todo ps => forallb pe todo && forallb pe ps
  | _ => true
  end.
Record G (s : ast) : Prop := mkG {
  g_thr : forall p i, a_thr s p i <> TIdle -> pe p = true /\ tgt (a_thr s p i) = true /\ a_thr s p i <> TFin;
  g_comm : forall p t m, In m (a_comm s p t) -> pe p = true /\ pe t = true /\ m <> MH HTerm;
  g_cb : forall t, a_cb s t <> CbDone /\ forall q g r, a_cb s t = CbRecv q g r -> pe q = true /\ pe t = true
}.

Lemma G_thr s s' p i x' : G s -> a_thr s' = fset2 (a_thr s) p i x' -> a_cb s' = a_cb s ->
  pe p = true -> tgt x' = true -> x' <> TFin ->
  (forall q t, a_comm s' q t = a_comm s q t \/
     (pe q = true /\ pe t = true /\ exists m, m <> MH HTerm /\ a_comm s' q t = a_comm s q t ++ [m])) ->
  G s'.
Proof.
  intros [] ET EC Hp Hx Hf HC. constructor.
  - intros q j. rewrite ET. destruct (Z.eq_dec q p) as [->|Hq]; [destruct (Z.eq_dec j i) as [->|Hj]|].
    + rewrite fset2_eq. auto.
    + rewrite fset2_ne by tauto. auto.
    + rewrite fset2_ne by tauto. auto.
  - intros q t m. destruct (HC q t) as [->|(H1 & H2 & m' & Hm & ->)]; [apply g_comm0|].
    intros HI. apply in_app_or in HI. destruct HI as [HI|[<-|[]]]; [eapply g_comm0; eauto|auto].
  - rewrite EC. exact g_cb0.
Qed.
Lemma G_cb s s' t0 : G s -> a_thr s' = a_thr s -> (forall t, t <> t0 -> a_cb s' t = a_cb s t) ->
  a_cb s' t0 <> CbDone -> (forall q g r, a_cb s' t0 = CbRecv q g r -> pe q = true /\ pe t0 = true) ->
  (forall q t m, In m (a_comm s' q t) -> In m (a_comm s q t)) -> G s'.
Proof.
  intros [] ET EC H1 H2 HC. constructor.
  - rewrite ET. exact g_thr0.
  - intros q t m Hm. apply HC in Hm. eauto.
  - intros t. destruct (Z.eq_dec t t0) as [->|Ht]; [auto|]. rewrite (EC t Ht). auto.
Qed.

Lemma fset2_in {X} (f : Z -> Z -> list X) p q c : (forall m, In m c -> In m (f p q)) ->
  forall a b m, In m (fset2 f p q c a b) -> In m (f a b).
Proof.
  intros H a b m. destruct (Z.eq_dec a p) as [->|Ha]; [destruct (Z.eq_dec b q) as [->|Hb]|].
  - rewrite fset2_eq. apply H.
  - rewrite fset2_ne by tauto. auto.
  - rewrite fset2_ne by tauto. auto.
Qed.
Lemma take_hdr_in any (c : list msg) m c' : take_hdr any c = Some (m, c') -> forall x, In x c' -> In x c.
Proof.
  revert c'. induction c as [|[h|g d] c IH]; intros c' E x Hx; [discriminate| |]; simpl in E.
  - injection E as <- <-. right; exact Hx.
  - destruct any; [injection E as <- <-; right; exact Hx|].
    destruct (take_hdr false c) as [[y r]|]; [|discriminate]. injection E as <- <-.
    destruct Hx as [<-|Hx]; [left; reflexivity|right; eapply IH; eauto].
Qed.
Lemma take_hdr_mem any (c : list msg) m c' : take_hdr any c = Some (m, c') -> In m c.
Proof.
  revert c'. induction c as [|[h|g d] c IH]; intros c' E; [discriminate| |]; simpl in E.
  - injection E as <- <-. left; reflexivity.
  - destruct any; [injection E as <- <-; left; reflexivity|].
    destruct (take_hdr false c) as [[y r]|]; [|discriminate]. injection E as <- <-. right. eapply IH; eauto.
Qed.

Ltac snoc p t := intros q t1; simpl;
  (destruct (Z.eq_dec q p) as [->|?Hq]; [destruct (Z.eq_dec t1 t) as [->|?Ht]|];
    [rewrite fset2_eq; right; split; [assumption|split; [assumption|eexists; split; [|reflexivity]; discriminate]]
    |rewrite fset2_ne by tauto; left; reflexivity|rewrite fset2_ne by tauto; left; reflexivity]).
Ltac bsplit := repeat match goal with
  | H : _ && _ = true |- _ => apply andb_true_iff in H; destruct H
  | |- _ && _ = true => apply andb_true_iff; split
  end; try assumption; try reflexivity.
Ltac gs s p i H := eapply (G_thr s _ p i _ H); try reflexivity; try assumption; try discriminate; try (intros; left; reflexivity).

Lemma G_step s l : G s -> ~ is_fin l -> G (fst (step s l)).
Proof.
  intros H NF. destruct l as [p i t r|p i ps|p i|p i|t p any]; simpl.
  - destruct (_ && _) eqn:EB; [|exact H]. bsplit. destruct (a_thr s p i) eqn:ET; try exact H.
    destruct (rq_kind r) eqn:EK.
    + simpl. gs s p i H. snoc p t.
    + destruct (am_ptag true ub (a_cnt s p)) as [g| | |]; simpl; gs s p i H.
    + destruct (am_ptag true ub (a_cnt s p)) as [g| | |]; simpl; gs s p i H.
  - destruct (_ && _) eqn:EB; [|exact H]. bsplit. destruct (a_thr s p i) eqn:ET; try exact H. simpl.
    gs s p i H; simpl; bsplit.
  - exfalso. apply NF. exact I.
  - destruct (pe p) eqn:EP; [|exact H]. 
    destruct (a_thr s p i) as [|t g r|t g r|t g r|t v r x|todo ps|todo g w ps|w g ps|todo ps| | |] eqn:ET; try exact H;
      (destruct (g_thr s H p i) as (_ & HT & HF); [rewrite ET; discriminate|]); rewrite ET in HT; simpl in HT.
    + simpl. gs s p i H; [destruct (rq_kind r); exact HT|destruct (rq_kind r); discriminate|snoc p t].
    + destruct (rq_data r) as [d|]; [|exact H]. simpl. gs s p i H. snoc p t.
    + destruct (take_ack g (a_ack s t p)) as [[[[r' x]|] c]|] eqn:EK; [| |exact H]; simpl; gs s p i H.
    + simpl. gs s p i H.
    + destruct todo as [|t rest].
      * simpl. gs s p i H.
      * simpl in HT. bsplit. destruct (a_flag s p t).
        -- destruct (am_ptag true ub (a_cnt s p)) as [g| | |]; simpl; gs s p i H; simpl; bsplit.
        -- simpl. gs s p i H; simpl; bsplit.
    + destruct todo as [|t rest].
      * simpl. gs s p i H; simpl; simpl in HT; bsplit.
      * simpl in HT. bsplit. destruct (a_flag s p t).
        -- simpl. gs s p i H; [|snoc p t]. simpl. bsplit. rewrite forallb_app. simpl. bsplit.
        -- simpl. gs s p i H; simpl; bsplit.
    + destruct w as [|t rest].
      * simpl in HT. simpl. gs s p i H; simpl; bsplit.
      * simpl in HT. bsplit. destruct (take_ack g (a_ack s t p)) as [[y0 c]|] eqn:EK; [|exact H].
        simpl. gs s p i H; simpl; bsplit.
    + destruct todo as [|t rest]; simpl in HT; bsplit; simpl; gs s p i H; simpl; bsplit.
    + exfalso. apply HF. exact ET.
  - destruct (pe t && pe p) eqn:EB; [|exact H]. bsplit. rename H0 into Ht, H1 into Hp.
    destruct (a_cb s t) as [|q g r| | |] eqn:EC; try exact H.
    + destruct (take_hdr any (a_comm s p t)) as [[m c]|] eqn:EH; [|exact H].
      pose proof (take_hdr_in _ _ _ _ EH) as HI. pose proof (take_hdr_mem _ _ _ _ EH) as HM.
      destruct m as [h|g d].
      * destruct h as [g r|g|].
        -- destruct (rq_kind r) eqn:EK; unfold run_cb; simpl.
           ++ rewrite EK. destruct (exec (rq_args r) None (a_mem s t)) as [[m x]| | |]; simpl;
                (apply (G_cb s _ t H); simpl; rewrite ?fset_eq;
                  [reflexivity|intros; apply fset_ne; assumption|discriminate|intros; discriminate|apply fset2_in; exact HI]).
           ++ apply (G_cb s _ t H); simpl; rewrite ?fset_eq;
                [reflexivity|intros; apply fset_ne; assumption|discriminate|intros q1 g1 r1 [= <- <- <-]; auto|apply fset2_in; exact HI].
           ++ rewrite EK. destruct (exec (rq_args r) None (a_mem s t)) as [[m x]| | |]; simpl;
                (apply (G_cb s _ t H); simpl; rewrite ?fset_eq;
                  [reflexivity|intros; apply fset_ne; assumption|discriminate|intros; discriminate|apply fset2_in; exact HI]).
        -- simpl. apply (G_cb s _ t H); simpl; rewrite ?EC;
             [reflexivity|intros; reflexivity|discriminate|intros; discriminate|apply fset2_in; exact HI].
        -- exfalso. apply (g_comm s H) in HM. destruct HM as (_ & _ & HM). apply HM. reflexivity.
      * simpl. apply (G_cb s _ t H); simpl; rewrite ?fset_eq;
          [reflexivity|intros; apply fset_ne; assumption|discriminate|intros; discriminate|apply fset2_in; exact HI].
    + destruct (take_data g (a_comm s q t)) as [[d c]|] eqn:EH; [|exact H].
      destruct (take_data_hdr _ _ _ _ _ _ EH) as (_ & _ & HI).
      unfold run_cb. simpl. destruct (exec (rq_args r) (Some d) (a_mem s t)) as [[m x]| | |]; [destruct (rq_kind r)| | |]; simpl;
        (apply (G_cb s _ t H); simpl; rewrite ?fset_eq;
          [reflexivity|intros; apply fset_ne; assumption|discriminate|intros; discriminate|apply fset2_in; exact HI]).
Qed.

Lemma G_init : G (a_init m0).
Proof. constructor; simpl; [congruence|intros p t m []|]. intros t. split; [discriminate|intros; discriminate]. Qed.
Lemma xw_init : xw (a_init m0).
Proof. intros p i t y E. discriminate. Qed.

(** ** Threads that never appear stay idle *)
Definition sup (I : list Z) (s : ast) : Prop := forall p i, ~ In i I -> a_thr s p i = TIdle.
Definition lthr (l : label A D) : list Z :=
  match l with LOp _ i _ _ | LFlush _ i _ | LFin _ i => [i] | _ => [] end.
Lemma run_cb_thr s t p g (r : req) od : a_thr (run_cb exec s t p g r od) = a_thr s.
Proof.
  unfold run_cb. destruct (exec _ _ _) as [[m x]| | |]; [|reflexivity|reflexivity|reflexivity].
  destruct (rq_kind r); reflexivity.
Qed.
Lemma cb_thr s t p any : a_thr (fst (step s (LCb t p any))) = a_thr s.
Proof.
  simpl. destruct (_ && _); [|reflexivity]. destruct (a_cb s t) as [|q g r| | |]; try reflexivity.
  - destruct (take_hdr any (a_comm s p t)) as [[[[g r|g|]|g d] c]|]; try reflexivity.
    destruct (rq_kind r); try reflexivity; simpl; rewrite run_cb_thr; reflexivity.
  - destruct (take_data g (a_comm s q t)) as [[d c]|]; [|reflexivity]. simpl. rewrite run_cb_thr. reflexivity.
Qed.

Lemma fset2_sup (f : Z -> Z -> tst) p i x I : (forall q j, ~ In j I -> f q j = TIdle) -> In i I ->
  forall q j, ~ In j I -> fset2 f p i x q j = TIdle.
Proof. intros H Hi q j Hj. rewrite fset2_ne; [auto|]. right. intros ->. contradiction. Qed.

Lemma sup_step s l I : sup I s -> sup (lthr l ++ I) (fst (step s l)).
Proof.
  intros H. assert (HX : forall L, sup (L ++ I) s) by (intros L p i Hi; apply H; intros F; apply Hi; apply in_or_app; right; exact F).
  unfold sup. destruct l as [p i t r|p i ps|p i|p i|t p any].
  - simpl. destruct (_ && _); [|exact (HX [i])]. destruct (a_thr s p i) eqn:ET; try exact (HX [i]).
    destruct (rq_kind r); [|destruct (am_ptag _ _ _)..]; simpl; apply (fset2_sup _ p i _ (i :: I)); try (exact (HX [i])); left; reflexivity.
  - simpl. destruct (_ && _); [|exact (HX [i])]. destruct (a_thr s p i) eqn:ET; try exact (HX [i]).
    simpl. apply (fset2_sup _ p i _ (i :: I)); [exact (HX [i])|left; reflexivity].
  - simpl. destruct (_ && _); [|exact (HX [i])]. destruct (a_thr s p i) eqn:ET; try exact (HX [i]).
    simpl. apply (fset2_sup _ p i _ (i :: I)); [exact (HX [i])|left; reflexivity].
  - simpl. destruct (in_dec Z.eq_dec i I) as [Hi|Hi].
    + destruct (pe p); [|exact H].
      destruct (a_thr s p i) as [|t g r|t g r|t g r|t v r x|todo ps|todo g w ps|w g ps|todo ps| | |] eqn:ET; try exact H;
      try (simpl; apply fset2_sup; assumption).
      * destruct (rq_data r); [|exact H]. simpl; apply fset2_sup; assumption.
      * destruct (take_ack g (a_ack s t p)) as [[[[r' x]|] c]|]; [| |exact H]; simpl; apply fset2_sup; assumption.
      * destruct todo as [|t rest]; [|destruct (a_flag s p t); [destruct (am_ptag _ _ _)|]]; simpl; apply fset2_sup; assumption.
      * destruct todo as [|t rest]; [|destruct (a_flag s p t)]; simpl; apply fset2_sup; assumption.
      * destruct w as [|t rest]; [|destruct (take_ack g (a_ack s t p)) as [[y0 c]|]; [|exact H]]; simpl; apply fset2_sup; assumption.
      * destruct todo as [|t rest]; simpl; apply fset2_sup; assumption.
      * destruct (forallb _ _); [|exact H]. simpl; apply fset2_sup; assumption.
    + rewrite (H p i Hi). destruct (pe p); exact H.
  - rewrite cb_thr. exact H.
Qed.
Lemma sup_run ls : forall s I, sup I s -> exists I', sup I' (fst (run s ls)).
Proof.
  induction ls as [|l ls IH]; intros s I H; [exists I; exact H|]. simpl.
  pose proof (sup_step s l I H) as H1. destruct (step s l) as [s1 e1]. simpl in H1.
  destruct (IH s1 _ H1) as (I' & HI). destruct (run s1 ls) as [s2 e2]. exists I'. exact HI.
Qed.

(** ** The measure *)
Definition wt (x : tst) : nat :=
  match x with
  | TTag _ _ _ => 6 | TData _ _ _ => 3 | TAck _ _ _ => 2 | TFlag _ _ _ _ => 1
  | TFCount todo ps => length todo + 5 * length ps + 5
  | TFSend todo _ w ps => 4 * length todo + length w + length ps + 3
  | TFWait w _ ps => length w + length ps + 2
  | TFReset todo _ => length todo + 1
  | TFin => 3
  | TIdle | TStop | TAbort => 0
  end%nat.
Definition wm (m : msg) : nat :=
  match m with
  | MH (HReq _ r) => match rq_kind r with KPost => 1 | _ => 2 end
  | MH (HFlush _) => 2 | MH HTerm => 1
  | MD _ _ => 1
  end%nat.
Definition wc (c : list msg) : nat := sumn wm c.
Definition wcb (x : cbst A D) : nat := match x with CbRecv _ _ _ => 1%nat | _ => 0%nat end.
Definition mu (I : list Z) (s : ast) : nat :=
  (S2 wt (a_thr s) (zrange n) I + S2 wc (a_comm s) (zrange n) (zrange n) +
   S2 (@length amsg) (a_ack s) (zrange n) (zrange n) + S1 wcb (a_cb s) (zrange n))%nat.

Lemma wc_snoc c m : wc (c ++ [m]) = (wc c + wm m)%nat.
Proof. unfold wc. induction c as [|x c IH]; simpl; [lia|]. rewrite IH. lia. Qed.
Lemma wc_hdr any c m c' : take_hdr any c = Some (m, c') -> wc c = (wc c' + wm m)%nat.
Proof.
  unfold wc. revert c'. induction c as [|[h|g d] c IH]; intros c' E; [discriminate| |]; simpl in E.
  - injection E as <- <-. simpl. lia.
  - destruct any; [injection E as <- <-; simpl; lia|].
    destruct (take_hdr false c) as [[y r]|]; [|discriminate]. injection E as <- <-. simpl. rewrite (IH r eq_refl). lia.
Qed.
Lemma wc_data g c d c' : take_data g c = Some (d, c') -> wc c = (wc c' + 1)%nat.
Proof.
  unfold wc. revert c'. induction c as [|[h|g2 d2] c IH]; intros c' E; [discriminate| |]; simpl in E.
  - destruct (take_data g c) as [[y r]|]; [|discriminate]. injection E as -> <-. simpl. rewrite (IH r eq_refl). lia.
  - destruct (g2 =? g); [injection E as <- <-; simpl; lia|].
    destruct (take_data g c) as [[y r]|]; [|discriminate]. injection E as -> <-. simpl. rewrite (IH r eq_refl). lia.
Qed.
Lemma len_snoc (k : list amsg) (a : amsg) : @length amsg (k ++ [a]) = S (@length amsg k).
Proof. rewrite app_length. simpl. lia. Qed.
Lemma len_ack g (k : list amsg) y k' : take_ack g k = Some (y, k') -> length k = S (length k').
Proof. intros E. apply take_ack_split in E. destruct E as (k1 & k2 & -> & ->). rewrite !app_length. simpl. lia. Qed.

Lemma mu_step I s l : internal l -> G s -> sup I s -> NoDup I ->
  step s l = (s, []) \/ (mu I (fst (step s l)) < mu I s)%nat.
Proof.
  intros HL H HS ND. destruct l as [p i t r|p i ps|p i|p i|t p any]; try (destruct HL; fail); clear HL.
  - destruct (in_dec Z.eq_dec i I) as [Hi|Hi].
    2:{ left. simpl. rewrite (HS p i Hi). destruct (pe p); reflexivity. }
    simpl. destruct (pe p) eqn:EP; [|left; reflexivity].
    assert (Hp : In p (zrange n)) by (apply pe_in; exact EP).
    assert (HT0 : a_thr s p i <> TIdle -> tgt (a_thr s p i) = true) by (intros F; apply (g_thr s H p i F)).
    pose proof (fun x => S2_fset wt (a_thr s) (zrange n) I p i x (zrange_nodup n) ND Hp Hi) as UT.
    pose proof (fun t c Ht => S2_fset wc (a_comm s) (zrange n) (zrange n) p t c (zrange_nodup n) (zrange_nodup n) Hp Ht) as UC.
    pose proof (fun t c Ht => S2_fset (@length amsg) (a_ack s) (zrange n) (zrange n) t p c (zrange_nodup n) (zrange_nodup n) Ht Hp) as UA.
    destruct (a_thr s p i) as [|t g r|t g r|t g r|t v r x|todo ps|todo g w ps|w g ps|todo ps| | |] eqn:ET; try (left; reflexivity);
      (assert (HT : tgt (a_thr s p i) = true) by (rewrite ET; apply HT0; discriminate)); rewrite ET in HT; simpl in HT; unfold mu.
    + right. simpl. assert (Ht : In t (zrange n)) by (apply pe_in; exact HT).
      specialize (UC t (a_comm s p t ++ [MH (HReq g r)]) Ht). rewrite wc_snoc in UC. simpl in UC.
      specialize (UT (match rq_kind r with KPut => TData t g r | _ => TAck t g r end)).
      destruct (rq_kind r); simpl in UT; lia.
    + destruct (rq_data r) as [d|]; [|left; reflexivity]. right. simpl. assert (Ht : In t (zrange n)) by (apply pe_in; exact HT).
      specialize (UC t (a_comm s p t ++ [MD g d]) Ht). rewrite wc_snoc in UC. simpl in UC.
      specialize (UT (TFlag t true r None)). simpl in UT. lia.
    + assert (Ht : In t (zrange n)) by (apply pe_in; exact HT).
      destruct (take_ack g (a_ack s t p)) as [[y c]|] eqn:EK; [|left; reflexivity]. right.
      apply len_ack in EK. specialize (UA t c Ht). 
      destruct y as [[r' x]|]; simpl; [specialize (UT (TFlag t false r (Some x)))|specialize (UT (TFlag t false r None))]; simpl in UT; lia.
    + right. simpl. specialize (UT TIdle). simpl in UT. lia.
    + right. destruct todo as [|t rest]; [|destruct (a_flag s p t); [destruct (am_ptag _ _ _) as [g| | |]|]]; simpl.
      * specialize (UT TIdle). simpl in UT. lia.
      * specialize (UT (TFSend ps g [] ps)). simpl in UT. lia.
      * specialize (UT TAbort). simpl in UT. lia.
      * specialize (UT TAbort). simpl in UT. lia.
      * specialize (UT TAbort). simpl in UT. lia.
      * specialize (UT (TFCount rest ps)). simpl in UT. lia.
    + right. destruct todo as [|t rest]; [|destruct (a_flag s p t)]; simpl.
      * specialize (UT (TFWait w g ps)). simpl in UT. lia.
      * simpl in HT. bsplit. assert (Ht : In t (zrange n)) by (apply pe_in; assumption).
        specialize (UC t (a_comm s p t ++ [MH (HFlush g)]) Ht). rewrite wc_snoc in UC. simpl in UC.
        specialize (UT (TFSend rest g (w ++ [t]) ps)). simpl in UT. rewrite app_length in UT. simpl in UT. lia.
      * specialize (UT (TFSend rest g w ps)). simpl in UT. lia.
    + destruct w as [|t rest].
      * right. simpl. specialize (UT (TFReset ps ps)). simpl in UT. lia.
      * simpl in HT. bsplit. assert (Ht : In t (zrange n)) by (apply pe_in; assumption).
        destruct (take_ack g (a_ack s t p)) as [[y c]|] eqn:EK; [|left; reflexivity]. right. simpl.
        apply len_ack in EK. specialize (UA t c Ht). specialize (UT (TFWait rest g ps)). simpl in UT. lia.
    + right. destruct todo as [|t rest]; simpl.
      * specialize (UT TIdle). simpl in UT. lia.
      * specialize (UT (TFReset rest ps)). simpl in UT. lia.
    + destruct (g_thr s H p i) as (_ & _ & F); [rewrite ET; discriminate|]. rewrite ET in F. contradiction.
  - simpl. destruct (pe t && pe p) eqn:EB; [|left; reflexivity]. bsplit.
    assert (Ht : In t (zrange n)) by (apply pe_in; assumption).
    pose proof (fun x => S1_fset wcb (a_cb s) (zrange n) t x (zrange_nodup n) Ht) as UB.
    pose proof (fun q c Hq => S2_fset wc (a_comm s) (zrange n) (zrange n) q t c (zrange_nodup n) (zrange_nodup n) Hq Ht) as UC.
    pose proof (fun q c Hq => S2_fset (@length amsg) (a_ack s) (zrange n) (zrange n) t q c (zrange_nodup n) (zrange_nodup n) Ht Hq) as UA.
    destruct (a_cb s t) as [|q g r| | |] eqn:EC; try (left; reflexivity).
    + assert (Hp : In p (zrange n)) by (apply pe_in; assumption).
      destruct (take_hdr any (a_comm s p t)) as [[m c]|] eqn:EH; [|left; reflexivity]. right.
      apply wc_hdr in EH. specialize (UC p c Hp). unfold mu.
      destruct m as [[g r|g|]|g d]; simpl in EH.
      * destruct (rq_kind r) eqn:EK; rewrite ?EK in EH; unfold run_cb; simpl; rewrite ?EK.
        -- destruct (exec _ _ _) as [[m x]| | |]; simpl;
             [specialize (UB CbIdle)|specialize (UB (CbAbort p r))..]; simpl in UB; lia.
        -- specialize (UB (CbRecv p g r)). simpl in UB. lia.
        -- destruct (exec _ _ _) as [[m x]| | |]; simpl;
             [specialize (UB CbIdle); specialize (UA p (a_ack s t p ++ @cons amsg (g, Some (r, x)) nil) Hp); rewrite len_snoc in UA; simpl in UA
             |specialize (UB (CbAbort p r))..]; simpl in UB; lia.
      * simpl. specialize (UA p (a_ack s t p ++ @cons amsg (g, None) nil) Hp). rewrite len_snoc in UA. simpl in UA. lia.
      * simpl. specialize (UB CbDone). simpl in UB. lia.
      * simpl. specialize (UB CbBad). simpl in UB. lia.
    + destruct (g_cb s H t) as [_ F]. destruct (F _ _ _ EC) as [Fq _].
      assert (Hq : In q (zrange n)) by (apply pe_in; assumption).
      destruct (take_data g (a_comm s q t)) as [[d c]|] eqn:EH; [|left; reflexivity]. right.
      apply wc_data in EH. specialize (UC q c Hq). unfold mu, run_cb. simpl.
      destruct (exec _ _ _) as [[m x]| | |]; [destruct (rq_kind r)| | |]; simpl;
        [specialize (UB CbIdle)|specialize (UB CbIdle)
        |specialize (UB CbIdle); specialize (UA q (a_ack s t q ++ @cons amsg (g, Some (r, x)) nil) Hq); rewrite len_snoc in UA; simpl in UA
        |specialize (UB (CbAbort q r))..]; simpl in UB; lia.
Qed.
End AmLiveProofs2.
