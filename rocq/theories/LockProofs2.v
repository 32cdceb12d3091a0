From Coq Require Import Permutation.
From Verif Require Import Base BaseProofs ListLib LockModel LockProofs.

(** ** Runs *)

Lemma step_n_inv n s q l s' ev : linv n s q -> n <= INT_MAX -> lstep_n n s l = (s', ev) ->
  exists q', linv n s' q' /\ lchange s s' (fst l) q q' ev.
Proof.
  intros I Hn E. unfold lstep_n in E.
  destruct ((0 <=? fst l) && (fst l <? n)) eqn:B.
  - eapply step_inv; eauto. lia.
  - injection E as <- <-. exists q. split; [exact I|]. apply ch_same; auto.
Qed.

Lemma lrun_cons n s l r : lrun n s (l :: r) =
  (fst (lrun n (fst (lstep_n n s l)) r), snd (lstep_n n s l) ++ snd (lrun n (fst (lstep_n n s l)) r)).
Proof.
  simpl. destruct (lstep_n n s l) as [s1 e1]. simpl. destruct (lrun n s1 r). reflexivity.
Qed.

Lemma lrun_app n l1 : forall s l2, lrun n s (l1 ++ l2) =
  (fst (lrun n (fst (lrun n s l1)) l2), snd (lrun n s l1) ++ snd (lrun n (fst (lrun n s l1)) l2)).
Proof.
  induction l1 as [|l r IH]; intros s l2.
  - simpl. destruct (lrun n s l2); reflexivity.
  - rewrite <- app_comm_cons, !lrun_cons, IH. cbn [fst snd]. rewrite app_assoc. reflexivity.
Qed.

Lemma run_inv n ls : forall s q, n <= INT_MAX -> linv n s q -> exists q', linv n (fst (lrun n s ls)) q'.
Proof.
  induction ls as [|l r IH]; intros s q Hn I; [exists q; exact I|].
  rewrite lrun_cons. cbn [fst]. destruct (lstep_n n s l) as [s1 e1] eqn:E.
  destruct (step_n_inv _ _ _ _ _ _ I Hn E) as (q1 & I1 & _). simpl. eapply IH; eauto.
Qed.

Definition lreach (n : Z) (s : lstate) : Prop := exists ls, fst (lrun n l_init ls) = s.

Lemma reach_inv n s : n <= INT_MAX -> lreach n s -> exists q, linv n s q.
Proof. intros Hn (ls & <-). eapply run_inv; eauto. apply linv_init. Qed.

(** ** Mutual exclusion *)

Lemma held_unique n s p p' : n <= INT_MAX -> lreach n s -> lk_pc s p = Held -> lk_pc s p' = Held -> p = p'.
Proof.
  intros Hn R H1 H2. destruct (reach_inv _ _ Hn R) as (q & I).
  destruct (head_q _ _ _ p I) as (t & E1); try congruence.
  destruct (head_q _ _ _ p' I) as (t' & E2); try congruence.
Qed.

(** The events: who is inside; [None] when the order of events breaks exclusion. *)
Definition ev_ok (h : option Z) (e : lev) : option (option Z) :=
  match e, h with
  | EAcq p, None => Some (Some p)
  | ERel p, Some p' => if p =? p' then Some None else None
  | EAcq _, Some _ => None
  | ERel _, None => None
  | _, _ => Some h
  end.
Fixpoint evs_ok (h : option Z) (l : list lev) : option (option Z) :=
  match l with [] => Some h | e :: r => match ev_ok h e with Some h' => evs_ok h' r | None => None end end.
Lemma evs_ok_app h l1 : forall l2, evs_ok h (l1 ++ l2) =
  match evs_ok h l1 with Some h' => evs_ok h' l2 | None => None end.
Proof.
  revert h. induction l1 as [|e r IH]; intros h l2; [reflexivity|]. simpl.
  destruct (ev_ok h e); [apply IH|reflexivity].
Qed.

Definition holder (s : lstate) (q : list Z) : option Z :=
  match q with [] => None | h :: _ => match lk_pc s h with Held => Some h | _ => None end end.

Lemma step_evs n s q l s' ev : linv n s q -> n <= INT_MAX -> lstep_n n s l = (s', ev) ->
  exists q', linv n s' q' /\ evs_ok (holder s q) ev = Some (holder s' q').
Proof.
  intros I Hn E. destruct (step_n_inv _ _ _ _ _ _ I Hn E) as (q' & I' & CH). exists q'. split; [exact I'|].
  set (x := fst l) in *. clearbody x. clear E.
  pose proof (li_nodup _ _ _ I) as ND.
  inversion CH; subst.
  - destruct H1 as [->| ->]; reflexivity.
  - simpl. f_equal. unfold holder. destruct q as [|h t]; [reflexivity|].
    rewrite H3; [reflexivity|]. intros ->. apply H. left; reflexivity.
  - simpl. rewrite H1. reflexivity.
  - simpl. f_equal. destruct q as [|h t]; [contradiction|]. simpl.
    rewrite H3; [reflexivity|]. intros ->. apply H0. left; reflexivity.
  - simpl. rewrite H4; [reflexivity|]. intros ->. inversion ND; contradiction.
  - simpl. rewrite H1, H2. reflexivity.
  - simpl. rewrite H1, Z.eqb_refl. reflexivity.
  - simpl. rewrite H1, H2, Z.eqb_refl. reflexivity.
  - simpl. rewrite H1, H2. reflexivity.
  - simpl. rewrite H1, H2. reflexivity.
  - simpl. rewrite H1. rewrite H4; [rewrite H3; reflexivity|]. intros ->. inversion ND as [|? ? N1 _]; subst.
    apply N1. left; reflexivity.
Qed.

Lemma run_evs n ls : forall s q, n <= INT_MAX -> linv n s q ->
  exists q', linv n (fst (lrun n s ls)) q' /\
    evs_ok (holder s q) (snd (lrun n s ls)) = Some (holder (fst (lrun n s ls)) q').
Proof.
  induction ls as [|l r IH]; intros s q Hn I; [exists q; split; [exact I|reflexivity]|].
  rewrite lrun_cons. cbn [fst snd]. destruct (lstep_n n s l) as [s1 e1] eqn:E. cbn [fst snd].
  destruct (step_evs _ _ _ _ _ _ I Hn E) as (q1 & I1 & V). destruct (IH s1 q1 Hn I1) as (q2 & I2 & V2).
  exists q2. split; [exact I2|]. rewrite evs_ok_app, V. exact V2.
Qed.

(** ** First come, first served *)

Fixpoint enqs (l : list lev) : list Z :=
  match l with [] => [] | EEnq p :: r => p :: enqs r | _ :: r => enqs r end.
Fixpoint acqs (l : list lev) : list Z :=
  match l with [] => [] | EAcq p :: r => p :: acqs r | _ :: r => acqs r end.
Lemma enqs_app a b : enqs (a ++ b) = enqs a ++ enqs b.
Proof. induction a as [|[] a IH]; simpl; rewrite ?IH; reflexivity. Qed.
Lemma acqs_app a b : acqs (a ++ b) = acqs a ++ acqs b.
Proof. induction a as [|[] a IH]; simpl; rewrite ?IH; reflexivity. Qed.

Definition pending (s : lstate) (q : list Z) : list Z :=
  match q with [] => [] | h :: t => match lk_pc s h with SWait => h :: t | _ => t end end.

Lemma step_fifo n s q l s' ev : linv n s q -> n <= INT_MAX -> lstep_n n s l = (s', ev) ->
  exists q', linv n s' q' /\ pending s q ++ enqs ev = acqs ev ++ pending s' q'.
Proof.
  intros I Hn E. destruct (step_n_inv _ _ _ _ _ _ I Hn E) as (q' & I' & CH). exists q'. split; [exact I'|].
  set (x := fst l) in *. clearbody x. clear E.
  pose proof (li_nodup _ _ _ I) as ND.
  inversion CH; subst.
  - destruct H1 as [->| ->]; simpl; apply app_nil_r.
  - simpl. rewrite app_nil_r. unfold pending. destruct q as [|h t]; [reflexivity|].
    rewrite H3; [reflexivity|]. intros ->. apply H. left; reflexivity.
  - simpl. rewrite H1. reflexivity.
  - simpl. destruct q as [|h t]; [contradiction|]. simpl.
    rewrite H3; [|intros ->; apply H0; left; reflexivity]. destruct (lk_pc s h); reflexivity.
  - simpl. rewrite app_nil_r. rewrite H4; [reflexivity|]. intros ->. inversion ND; contradiction.
  - simpl. rewrite app_nil_r, H1, H2. reflexivity.
  - simpl. rewrite H1. reflexivity.
  - simpl. rewrite app_nil_r, H1, H2. reflexivity.
  - simpl. rewrite app_nil_r, H1, H2. reflexivity.
  - simpl. rewrite app_nil_r, H1, H2. reflexivity.
  - simpl. rewrite app_nil_r, H1. rewrite H4; [rewrite H3; reflexivity|]. intros ->.
    inversion ND as [|? ? N1 _]; subst. apply N1. left; reflexivity.
Qed.

Lemma run_fifo n ls : forall s q, n <= INT_MAX -> linv n s q ->
  exists q', linv n (fst (lrun n s ls)) q' /\
    pending s q ++ enqs (snd (lrun n s ls)) = acqs (snd (lrun n s ls)) ++ pending (fst (lrun n s ls)) q'.
Proof.
  induction ls as [|l r IH]; intros s q Hn I.
  - exists q. split; [exact I|]. simpl. apply app_nil_r.
  - rewrite lrun_cons. cbn [fst snd]. destruct (lstep_n n s l) as [s1 e1] eqn:E. cbn [fst snd].
    destruct (step_fifo _ _ _ _ _ _ I Hn E) as (q1 & I1 & V). destruct (IH s1 q1 Hn I1) as (q2 & I2 & V2).
    exists q2. split; [exact I2|]. rewrite enqs_app, acqs_app, <- app_assoc, <- V2, !app_assoc, V. reflexivity.
Qed.

Lemma fifo_from_init n ls : n <= INT_MAX ->
  exists waiting, enqs (snd (lrun n l_init ls)) = acqs (snd (lrun n l_init ls)) ++ waiting /\ NoDup waiting /\
    forall p, In p waiting <->
      (lk_pc (fst (lrun n l_init ls)) p = SWait \/ exists c, lk_pc (fst (lrun n l_init ls)) p = SNotify c).
Proof.
  intros Hn. destruct (run_fifo n ls l_init [] Hn (linv_init n)) as (q & I & E).
  exists (pending (fst (lrun n l_init ls)) q). split; [exact E|].
  set (s := fst (lrun n l_init ls)) in *. clearbody s. clear E.
  pose proof (li_nodup _ _ _ I) as ND. split.
  - unfold pending. destruct q as [|h t]; [constructor|]. inversion ND; subst. destruct (lk_pc s h); assumption.
  - intros p. split.
    + unfold pending. destruct q as [|h t]; [intros []|]. destruct (li_queue _ _ _ I) as (_ & _ & C).
      intros Hp. assert (Hc : In p t \/ (p = h /\ lk_pc s h = SWait)).
      { destruct (lk_pc s h); auto. destruct Hp; auto. }
      destruct Hc as [Hc|[-> Hc]]; [|auto]. apply (chain_wait _ _ _ _ C Hc).
    + intros Hw. assert (Hin : In p q) by (apply (in_q n s q p I); destruct Hw as [->|[c ->]]; discriminate).
      unfold pending. destruct q as [|h t]; [destruct Hin|]. destruct (li_queue _ _ _ I) as (_ & HH & _).
      destruct Hin as [->|Hin].
      * destruct Hw as [W|[c W]]; [rewrite W; left; reflexivity|]. unfold head_ok in HH. rewrite W in HH. destruct HH.
      * destruct (lk_pc s h); simpl; auto.
Qed.

(** ** Bounded waiting *)

Definition waits (s : lstate) (p : Z) : Prop := lk_pc s p = SWait \/ exists c, lk_pc s p = SNotify c.

Definition phase (c : lpc) : nat :=
  match c with SWait => 5 | Held => 4 | CWait => 3 | CReset _ => 2 | CSignal _ => 1 | _ => 0 end.
Definition nt (c : lpc) : nat := match c with SNotify _ => 1 | _ => 0 end.
Fixpoint sumw (s : lstate) (l : list Z) : nat :=
  match l with [] => 0 | x :: r => 6 + nt (lk_pc s x) + sumw s r end.
Definition meas (s : lstate) (pre : list Z) (p : Z) : nat :=
  match pre with [] => 1 | h :: t => phase (lk_pc s h) + sumw s t + 1 + nt (lk_pc s p) end.

Lemma sumw_same s s' l : (forall y, In y l -> lk_pc s' y = lk_pc s y) -> sumw s' l = sumw s l.
Proof. induction l as [|x r IH]; intros H; [reflexivity|]. simpl. rewrite H by (left; reflexivity). rewrite IH; [reflexivity|]. intros y Hy. apply H. right; exact Hy. Qed.

Lemma sumw_dec s s' l x : (exists c, lk_pc s x = SNotify c) -> lk_pc s' x = SWait ->
  (forall y, y <> x -> lk_pc s' y = lk_pc s y) ->
  (sumw s' l <= sumw s l)%nat /\ (In x l -> (sumw s' l < sumw s l)%nat).
Proof.
  intros (c & Hc) Hx HO. induction l as [|y r [IH1 IH2]]; [simpl; split; [lia|intros []]|]. cbn [sumw].
  destruct (Z.eq_dec y x) as [->|Hne].
  - rewrite Hc, Hx. simpl. split; [lia|intros _; lia].
  - rewrite HO by exact Hne. split; [lia|]. intros [E|Hin]; [contradiction|]. specialize (IH2 Hin). lia.
Qed.

Lemma meas_same s s' pre p : (forall y, In y (pre ++ [p]) -> lk_pc s' y = lk_pc s y) -> meas s' pre p = meas s pre p.
Proof.
  intros H. destruct pre as [|h t]; [reflexivity|]. simpl.
  rewrite H by (left; reflexivity). rewrite (H p) by (right; apply in_or_app; right; left; reflexivity).
  rewrite (sumw_same s s' t); [reflexivity|]. intros y Hy. apply H. right. apply in_or_app. left; exact Hy.
Qed.

Lemma waits_same s s' p : lk_pc s' p = lk_pc s p -> waits s p -> waits s' p.
Proof. unfold waits. intros ->. auto. Qed.

Lemma prog n s l s' ev pre p post :
  linv n s (pre ++ p :: post) -> n <= INT_MAX -> waits s p -> lstep_n n s l = (s', ev) ->
  In (EAcq p) ev \/
  (exists pre' post', linv n s' (pre' ++ p :: post') /\ waits s' p /\ (meas s' pre' p < meas s pre p)%nat) \/
  (exists post', linv n s' (pre ++ p :: post') /\ waits s' p /\ forall y, In y (pre ++ [p]) -> lk_pc s' y = lk_pc s y).
Proof.
  intros I Hn W E. destruct (step_n_inv _ _ _ _ _ _ I Hn E) as (q' & I' & CH).
  set (x := fst l) in *. clearbody x. clear E.
  pose proof (li_nodup _ _ _ I) as ND. remember (pre ++ p :: post) as q eqn:Eq.
  assert (Hin : forall y, In y (pre ++ [p]) -> In y q).
  { intros y Hy. subst q. apply in_app_or in Hy. apply in_or_app. destruct Hy as [Hy|[<-|[]]]; [auto|right; left; reflexivity]. }
  assert (NW : forall c, lk_pc s p = c -> c = Held \/ c = Idle \/ c = CWait \/ (exists m, c = CReset m) \/ (exists m, c = CSignal m) -> False).
  { intros c Hc Hd. destruct W as [W|[m W]]; rewrite W in Hc; subst c;
      destruct Hd as [?|[?|[?|[[? ?]|[? ?]]]]]; discriminate. }
  destruct CH as [ev A B C|A B C D F|A B C F|A A2 B C F|h t A A2 B C D F|t A B C D F|A B C D F|b t A B C D F
                 |t m A B C D F|t m A B C D F|b t m A B C D C2 F].
  - (* same *) subst s'. right; right. exists post. split; [subst; exact I|]. split; [exact W|reflexivity].
  - (* begin *) right; right. exists post. subst q'. split; [subst; exact I'|].
    assert (HF : forall y, In y (pre ++ [p]) -> lk_pc s' y = lk_pc s y)
      by (intros y Hy; apply F; intros ->; apply A, Hin; exact Hy).
    split; [|exact HF]. eapply waits_same; [|exact W]. apply HF. apply in_or_app. right; left; reflexivity.
  - subst q. destruct pre; discriminate.
  - right; right. exists (post ++ [x]). subst q'. split.
    { rewrite Eq in I'. rewrite <- app_assoc in I'. exact I'. }
    assert (HF : forall y, In y (pre ++ [p]) -> lk_pc s' y = lk_pc s y)
      by (intros y Hy; apply F; intros ->; apply A2, Hin; exact Hy).
    split; [|exact HF]. eapply waits_same; [|exact W]. apply HF. apply in_or_app. right; left; reflexivity.
  - (* notify *) subst q'. destruct pre as [|h' t'].
    + right; right. exists post. split; [subst; exact I'|].
      assert (Hp : p <> x). { intros ->. simpl in Eq. rewrite A in Eq. injection Eq as -> ->. subst q. inversion ND; contradiction. }
      split; [eapply waits_same; [|exact W]; apply F; exact Hp|].
      intros y [<-|[]]. apply F. exact Hp.
    + assert (Eh : h' = h) by (subst q; simpl in A; congruence). subst h'.
      assert (Hhx : h <> x) by (intros ->; subst q; simpl in A; injection A as A; subst t; inversion ND; contradiction).
      destruct (sumw_dec s s' t' x C D F) as [S1 S2].
      assert (NP : (nt (lk_pc s' p) <= nt (lk_pc s p))%nat /\ (x = p -> (nt (lk_pc s' p) < nt (lk_pc s p))%nat)).
      { destruct (Z.eq_dec x p) as [->|Hne].
        - destruct C as (c & C). rewrite C, D. simpl. split; [lia|intros; lia].
        - rewrite F by congruence. split; [lia|intros; contradiction]. }
      assert (W' : waits s' p).
      { destruct (Z.eq_dec x p) as [->|Hne]; [left; exact D|]. eapply waits_same; [|exact W]. apply F. congruence. }
      destruct (in_dec Z.eq_dec x (t' ++ [p])) as [Hx|Hx].
      * right; left. exists (h :: t'), post. split; [subst; exact I'|]. split; [exact W'|].
        cbn [meas]. rewrite F by exact Hhx. destruct NP as [P1 P2]. apply in_app_or in Hx.
        destruct Hx as [Hx|[<-|[]]]; [specialize (S2 Hx); lia|specialize (P2 eq_refl); lia].
      * right; right. exists post. split; [subst; exact I'|]. split; [exact W'|].
        intros y Hy. apply F. intros ->. destruct Hy as [Hy|Hy]; contradiction.
  - (* acq *) subst q'. destruct pre as [|h' t'].
    + left. simpl in Eq. rewrite A in Eq. injection Eq as -> ->. left; reflexivity.
    + rewrite A in Eq. injection Eq as -> ->. right; left. exists (h' :: t'), post.
      assert (Nh : forall y, In y (t' ++ [p]) -> y <> h').
      { intros y Hy ->. rewrite A in ND. inversion ND as [|? ? N1 _]; subst. apply N1. apply in_app_or in Hy. apply in_or_app.
        destruct Hy as [Hy|[<-|[]]]; [auto|right; left; reflexivity]. }
      split; [subst; exact I'|].
      assert (Ep : lk_pc s' p = lk_pc s p) by (apply F, Nh, in_or_app; right; left; reflexivity).
      split; [eapply waits_same; eauto|].
      cbn [meas]. rewrite Ep, C, D. rewrite (sumw_same s s' t') by (intros y Hy; apply F, Nh, in_or_app; left; exact Hy).
      simpl. lia.
  - (* rel0 *) exfalso. rewrite A in Eq. destruct pre as [|h' t'].
    + injection Eq as Eq _. subst p. eapply NW; eauto.
    + injection Eq as _ Eq. destruct t'; discriminate.
  - (* rel *) subst q'. rewrite A in Eq. destruct pre as [|h' t'].
    + exfalso. injection Eq as Eq _. subst p. eapply NW; eauto.
    + injection Eq as <- Eq. right; left. exists (x :: t'), post. rewrite A, Eq in ND, I'. inversion ND as [|? ? N1 _]; subst.
      assert (Nh : forall y, In y (t' ++ [p]) -> y <> x).
      { intros y Hy ->. apply N1. apply in_app_or in Hy. apply in_or_app.
        destruct Hy as [Hy|[<-|[]]]; [auto|right; left; reflexivity]. }
      split; [exact I'|].
      assert (Ep : lk_pc s' p = lk_pc s p) by (apply F, Nh, in_or_app; right; left; reflexivity).
      split; [eapply waits_same; eauto|].
      cbn [meas]. rewrite Ep, C, D. rewrite (sumw_same s s' t') by (intros y Hy; apply F, Nh, in_or_app; left; exact Hy).
      simpl. lia.
  - (* next *) subst q'. rewrite A in Eq. destruct pre as [|h' t'].
    + exfalso. injection Eq as Eq _. subst p. eapply NW; eauto.
    + injection Eq as <- Eq. right; left. exists (x :: t'), post. rewrite A, Eq in ND, I'. inversion ND as [|? ? N1 _]; subst.
      assert (Nh : forall y, In y (t' ++ [p]) -> y <> x).
      { intros y Hy ->. apply N1. apply in_app_or in Hy. apply in_or_app.
        destruct Hy as [Hy|[<-|[]]]; [auto|right; left; reflexivity]. }
      split; [exact I'|].
      assert (Ep : lk_pc s' p = lk_pc s p) by (apply F, Nh, in_or_app; right; left; reflexivity).
      split; [eapply waits_same; eauto|].
      cbn [meas]. rewrite Ep, C, D. rewrite (sumw_same s s' t') by (intros y Hy; apply F, Nh, in_or_app; left; exact Hy).
      simpl. lia.
  - (* reset *) subst q'. rewrite A in Eq. destruct pre as [|h' t'].
    + exfalso. injection Eq as Eq _. subst p. eapply NW; [exact C|]. right; right; right; left. eauto.
    + injection Eq as <- Eq. right; left. exists (x :: t'), post. rewrite A, Eq in ND, I'. inversion ND as [|? ? N1 _]; subst.
      assert (Nh : forall y, In y (t' ++ [p]) -> y <> x).
      { intros y Hy ->. apply N1. apply in_app_or in Hy. apply in_or_app.
        destruct Hy as [Hy|[<-|[]]]; [auto|right; left; reflexivity]. }
      split; [exact I'|].
      assert (Ep : lk_pc s' p = lk_pc s p) by (apply F, Nh, in_or_app; right; left; reflexivity).
      split; [eapply waits_same; eauto|].
      cbn [meas]. rewrite Ep, C, D. rewrite (sumw_same s s' t') by (intros y Hy; apply F, Nh, in_or_app; left; exact Hy).
      simpl. lia.
  - (* pass *) rewrite A in Eq. destruct pre as [|h' t'].
    + exfalso. injection Eq as Eq _. subst p. eapply NW; [exact C|]. do 4 right. eauto.
    + injection Eq as <- Eq. right; left. rewrite A in ND. inversion ND as [|? ? N1 _]; subst q'.
      assert (Nh : forall y, In y (b :: t) -> y <> x) by (intros y Hy ->; contradiction).
      destruct t' as [|b' t'].
      * injection Eq as -> ->. exists [], post. split; [exact I'|].
        assert (Ep : lk_pc s' p = lk_pc s p) by (apply F, Nh; left; reflexivity).
        split; [eapply waits_same; eauto|]. cbn [meas]. rewrite C. simpl. lia.
      * injection Eq as <- Eq. exists (b :: t'), post. split; [rewrite Eq in I'; exact I'|].
        assert (Nt : forall y, In y (t' ++ [p]) -> y <> x).
        { intros y Hy. apply Nh. right. rewrite Eq. apply in_app_or in Hy. apply in_or_app.
          destruct Hy as [Hy|[<-|[]]]; [auto|right; left; reflexivity]. }
        assert (Ep : lk_pc s' p = lk_pc s p) by (apply F, Nt, in_or_app; right; left; reflexivity).
        split; [eapply waits_same; eauto|].
        cbn [meas sumw]. rewrite (F b) by (apply Nh; left; reflexivity). rewrite Ep, C, C2.
        rewrite (sumw_same s s' t') by (intros y Hy; apply F, Nt, in_or_app; left; exact Hy). simpl. lia.
Qed.

(** The step that must happen next. *)
Definition keyl (s : lstate) (pre : list Z) (p : Z) : label :=
  match pre with
  | [] => (p, OpGo)
  | h :: t =>
      match lk_pc s h with
      | Held => (h, OpClear)
      | CWait => match lk_pc s (hd p t) with SNotify _ => (hd p t, OpGo) | _ => (h, OpGo) end
      | _ => (h, OpGo)
      end
  end.

Lemma keyl_same s s' pre p : (forall y, In y (pre ++ [p]) -> lk_pc s' y = lk_pc s y) -> keyl s' pre p = keyl s pre p.
Proof.
  intros H. destruct pre as [|h t]; [reflexivity|]. simpl. rewrite H by (left; reflexivity).
  rewrite (H (hd p t)); [reflexivity|]. right. destruct t; simpl; auto.
Qed.

Lemma keyl_in s pre p : In (fst (keyl s pre p)) (pre ++ [p]) /\ (snd (keyl s pre p) = OpGo \/ snd (keyl s pre p) = OpClear).
Proof.
  destruct pre as [|h t]; [simpl; auto|]. simpl.
  assert (Hh : h = h \/ In h (t ++ [p])) by auto.
  assert (Ht : h = hd p t \/ In (hd p t) (t ++ [p])) by (right; destruct t; simpl; auto).
  destruct (lk_pc s h); simpl; auto. destruct (lk_pc s (hd p t)); simpl; auto.
Qed.

Lemma key_moves n s pre p post :
  linv n s (pre ++ p :: post) -> n <= INT_MAX -> waits s p ->
  lk_pc (fst (lstep_n n s (keyl s pre p))) (fst (keyl s pre p)) <> lk_pc s (fst (keyl s pre p)).
Proof.
  intros I Hn W. pose proof (li_queue _ _ _ I) as Q. destruct (keyl_in s pre p) as [KI _].
  assert (KR : 0 <= fst (keyl s pre p) < n).
  { apply (li_range _ _ _ I). apply in_app_or in KI. apply in_or_app. destruct KI as [K|[<-|[]]]; [auto|right; left; reflexivity]. }
  unfold lstep_n. replace (_ && _) with true by lia.
  destruct pre as [|h t].
  - cbn [keyl fst snd] in *. cbn [app queue_ok] in Q. destruct Q as (_ & HH & _). unfold head_ok in HH. unfold lstep.
    destruct W as [W|[c W]]; rewrite W in *; [|destruct HH].
    destruct (Z.eqb_spec (SIGNAL (lk_next s p)) 0); [contradiction|]. simpl. rewrite fset_eq. discriminate.
  - cbn [app queue_ok] in Q. destruct Q as (_ & HH & C). unfold head_ok in HH. cbn [keyl] in *.
    destruct (lk_pc s h) eqn:P; try (exfalso; exact HH); cbn [fst snd] in *.
    + unfold lstep. rewrite P. destruct (Z.eqb_spec (SIGNAL (lk_next s h)) 0); [contradiction|].
      simpl. rewrite fset_eq. discriminate.
    + unfold lstep. rewrite P. destruct (lk_last s =? h + 1); simpl; rewrite fset_eq; discriminate.
    + assert (CB : exists r, t ++ p :: post = hd p t :: r) by (destruct t; simpl; eauto).
      destruct CB as (r & CB). rewrite CB in C. cbn [chain] in C. destruct C as (L & _).
      destruct L as [[L1 L2]|[L1 L2]]; rewrite L1; cbn [fst snd]; unfold lstep.
      * rewrite L1. simpl. rewrite fset_eq. discriminate.
      * rewrite P. assert (NZ : NEXT (lk_next s h) <> 0).
        { destruct L2 as [L2|[L2 _]]; [|congruence]. rewrite L2.
          pose proof (li_range _ _ _ I (hd p t)) as R. rewrite <- app_comm_cons, CB in R. specialize (R ltac:(simpl; auto)). lia. }
        destruct (Z.eqb_spec (NEXT (lk_next s h)) 0); [contradiction|]. simpl. rewrite fset_eq. discriminate.
    + unfold lstep. rewrite P. simpl. rewrite fset_eq. discriminate.
    + unfold lstep. rewrite P. simpl. rewrite fset_eq. discriminate.
Qed.

Definition good (n : Z) (s : lstate) (p : Z) (m : nat) : Prop :=
  exists pre post, linv n s (pre ++ p :: post) /\ waits s p /\ (meas s pre p <= m)%nat.

Lemma step_good n s p m l s' ev : n <= INT_MAX -> good n s p m -> lstep_n n s l = (s', ev) ->
  In (EAcq p) ev \/ good n s' p m.
Proof.
  intros Hn (pre & post & I & W & M) E.
  destruct (prog _ _ _ _ _ _ _ _ I Hn W E) as [A|[(pre' & post' & I' & W' & M')|(post' & I' & W' & F)]].
  - left; exact A.
  - right. exists pre', post'. split; [exact I'|]. split; [exact W'|lia].
  - right. exists pre, post'. split; [exact I'|]. split; [exact W'|]. rewrite (meas_same s s' pre p F). exact M.
Qed.

Lemma run_good n p m ls : forall s, n <= INT_MAX -> good n s p m ->
  In (EAcq p) (snd (lrun n s ls)) \/ good n (fst (lrun n s ls)) p m.
Proof.
  induction ls as [|l r IH]; intros s Hn G; [right; exact G|].
  rewrite lrun_cons. cbn [fst snd]. destruct (lstep_n n s l) as [s1 e1] eqn:E. cbn [fst snd].
  destruct (step_good _ _ _ _ _ _ _ Hn G E) as [A|G1]; [left; apply in_or_app; left; exact A|].
  destruct (IH s1 Hn G1) as [A|G2]; [left; apply in_or_app; right; exact A|right; exact G2].
Qed.

Lemma round_dec n p pre ls : forall s post, n <= INT_MAX -> linv n s (pre ++ p :: post) -> waits s p ->
  In (keyl s pre p) ls ->
  In (EAcq p) (snd (lrun n s ls)) \/ good n (fst (lrun n s ls)) p (meas s pre p - 1).
Proof.
  induction ls as [|l r IH]; intros s post Hn I W K; [destruct K|].
  rewrite lrun_cons. cbn [fst snd]. destruct (lstep_n n s l) as [s1 e1] eqn:E. cbn [fst snd].
  destruct (prog _ _ _ _ _ _ _ _ I Hn W E) as [A|[(pre' & post' & I' & W' & M')|(post' & I' & W' & F)]].
  - left. apply in_or_app. left; exact A.
  - destruct (run_good n p (meas s pre p - 1) r s1 Hn) as [A|G].
    + exists pre', post'. split; [exact I'|]. split; [exact W'|lia].
    + left. apply in_or_app. right; exact A.
    + right. exact G.
  - destruct K as [->|K].
    + exfalso. apply (key_moves _ _ _ _ _ I Hn W). rewrite E. cbn [fst]. apply F. apply keyl_in.
    + rewrite <- (keyl_same s s1 pre p F) in K.
      destruct (IH s1 post' Hn I' W' K) as [A|G]; [left; apply in_or_app; right; exact A|].
      right. rewrite (meas_same s s1 pre p F) in G. exact G.
Qed.

(** A round in which every PE takes at least one step of the routine it is in, and releases the
    lock if it holds it. *)
Definition fair_round (n : Z) (r : list label) : Prop :=
  forall q, 0 <= q < n -> In (q, OpGo) r /\ In (q, OpClear) r.

Lemma meas_pos s pre p : (1 <= meas s pre p)%nat.
Proof. destruct pre; simpl; lia. Qed.

Lemma rounds_dec n p rs : forall s m, n <= INT_MAX -> good n s p m -> (forall r, In r rs -> fair_round n r) ->
  (m <= length rs)%nat -> In (EAcq p) (snd (lrun n s (concat rs))).
Proof.
  induction rs as [|r rs IH]; intros s m Hn (pre & post & I & W & M) HF HL.
  - simpl in HL. pose proof (meas_pos s pre p). lia.
  - cbn [concat]. rewrite lrun_app. cbn [snd]. apply in_or_app.
    destruct (round_dec n p pre r s post Hn I W) as [A|G].
    + destruct (keyl_in s pre p) as [K1 K2]. destruct (keyl s pre p) as [x o]. cbn [fst snd] in *.
      assert (Hx : 0 <= x < n).
      { apply (li_range _ _ _ I). apply in_app_or in K1. apply in_or_app. destruct K1 as [K|[<-|[]]]; [auto|right; left; reflexivity]. }
      destruct (HF r (or_introl eq_refl) x Hx) as [F1 F2]. destruct K2 as [->| ->]; assumption.
    + left; exact A.
    + right. eapply IH; [exact Hn|exact G| |].
      * intros r' Hr'. apply HF. right; exact Hr'.
      * simpl in HL. pose proof (meas_pos s pre p). lia.
Qed.

Lemma sumw_bound s l : (sumw s l <= 7 * length l)%nat.
Proof. induction l as [|x r IH]; [simpl; lia|]. simpl length. cbn [sumw]. assert (nt (lk_pc s x) <= 1)%nat by (destruct (lk_pc s x); simpl; lia). lia. Qed.

Lemma nodup_range_length (q : list Z) n : NoDup q -> (forall p, In p q -> 0 <= p < n) -> Z.of_nat (length q) <= Z.max 0 n.
Proof.
  intros ND H. assert (L : (length q <= length (zseq 0 (Z.to_nat n)))%nat).
  { apply NoDup_incl_length; [exact ND|]. intros p Hp. apply in_zseq. specialize (H p Hp). lia. }
  rewrite zseq_length in L. lia.
Qed.

Lemma reach_good n s p : n <= INT_MAX -> lreach n s -> waits s p -> good n s p (Z.to_nat (7 * n)).
Proof.
  intros Hn R W. destruct (reach_inv _ _ Hn R) as (q & I).
  assert (Hin : In p q) by (apply (in_q n s q p I); destruct W as [->|[c ->]]; discriminate).
  apply in_split in Hin. destruct Hin as (pre & post & ->). exists pre, post. split; [exact I|]. split; [exact W|].
  pose proof (nodup_range_length _ n (li_nodup _ _ _ I) (li_range _ _ _ I)) as L.
  rewrite app_length in L. simpl length in L.
  assert (NP : (nt (lk_pc s p) <= 1)%nat) by (destruct (lk_pc s p); simpl; lia).
  destruct pre as [|h t]; [simpl in *; lia|].
  cbn [meas]. pose proof (sumw_bound s t).
  assert (phase (lk_pc s h) <= 5)%nat by (destruct (lk_pc s h); simpl; lia).
  simpl length in L. lia.
Qed.

Lemma bounded_wait n s p rs : n <= INT_MAX -> lreach n s -> waits s p ->
  (forall r, In r rs -> fair_round n r) -> 7 * n <= Z.of_nat (length rs) ->
  In (EAcq p) (snd (lrun n s (concat rs))).
Proof.
  intros Hn R W HF HL. eapply rounds_dec; [exact Hn|apply reach_good; eassumption|exact HF|lia].
Qed.

Lemma all_idle n s : n <= INT_MAX -> lreach n s -> (forall p, lk_pc s p = Idle) ->
  lk_last s = 0 /\ forall p, NEXT (lk_next s p) = 0.
Proof.
  intros Hn R H. destruct (reach_inv _ _ Hn R) as (q & I).
  assert (q = []).
  { destruct q as [|h t]; [reflexivity|]. exfalso. eapply (out_q n s (h :: t) h I); [left; apply H|left; reflexivity]. }
  subst q. split; [apply (li_queue _ _ _ I)|]. intros p. apply (li_out _ _ _ I). intros [].
Qed.

(** ** test_lock *)

Definition lock_free (s : lstate) : Prop := forall p, lk_pc s p = Idle \/ lk_pc s p = SFetch.

Lemma free_iff n s q : linv n s q -> (lock_free s <-> lk_last s = 0).
Proof.
  intros I. rewrite (last0 _ _ _ I). split.
  - intros H. destruct q as [|h t]; [reflexivity|]. exfalso. eapply (out_q n s (h :: t) h I); [apply H|left; reflexivity].
  - intros -> p. eapply not_in_pc; [exact I|intros []].
Qed.

Lemma test_exact n s p : n <= INT_MAX -> lreach n s -> 0 <= p < n -> lk_pc s p = Idle ->
  (lock_free s /\ snd (lstep s p OpTest) = [EEnq p; EAcq p] /\ lk_pc (fst (lstep s p OpTest)) p = Held /\
     forall q, q <> p -> lk_pc (fst (lstep s p OpTest)) q = lk_pc s q) \/
  (~ lock_free s /\ lstep s p OpTest = (s, [ETestFail p])).
Proof.
  intros Hn R Hp P. destruct (reach_inv _ _ Hn R) as (q & I). unfold lstep. rewrite P.
  destruct (Z.eqb_spec (lk_last s) 0) as [E|E].
  - left. split; [apply (free_iff _ _ _ I); exact E|]. split; [reflexivity|]. simpl. split; [apply fset_eq|].
    intros q' Hq. apply fset_ne. exact Hq.
  - right. split; [|reflexivity]. intros H. apply (free_iff _ _ _ I) in H. contradiction.
Qed.

Lemma test_held n s p : n <= INT_MAX -> lreach n s -> 0 <= p < n -> lk_pc s p = Held ->
  lstep s p OpTest = (s, [ETestFail p]).
Proof.
  intros Hn R Hp P. destruct (reach_inv _ _ Hn R) as (q & I). unfold lstep. rewrite P.
  destruct (Z.eqb_spec (lk_last s) 0) as [E|E]; [|reflexivity].
  apply (free_iff _ _ _ I) in E. destruct (E p); congruence.
Qed.
