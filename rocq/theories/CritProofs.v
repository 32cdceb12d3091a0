(** Critical sections give race-free accesses. *)
From Verif Require Import Base BaseProofs AmCfgModel OrderModel OrderSpec OrderProofs OrderProofs2 OrderProofs3
  DataModel DataSpec DataProofs DataProofs2 LockModel LockProofs LockProofs2 LockProofs3 RaceSpec RaceProofs CritModel CritSpec.

Lemma xd_app a b : xd (a ++ b) = xd a ++ xd b.
Proof. induction a as [|[p [e|k e]] a IH]; simpl; rewrite ?IH; reflexivity. Qed.
Lemma xl_app k a b : xl k (a ++ b) = xl k a ++ xl k b.
Proof. induction a as [|[p [e|k' e]] a IH]; simpl; rewrite ?IH; auto. destruct (k' =? k); reflexivity. Qed.
Lemma xd_dpair l : xd (map dpair l) = l.
Proof. induction l as [|[p e] l IH]; simpl; rewrite ?IH; reflexivity. Qed.
Lemma xl_dpair k l : xl k (map dpair l) = [].
Proof. induction l as [|[p e] l IH]; simpl; auto. Qed.
Lemma xd_xpair p k l : xd (map (xpair p k) l) = [].
Proof. induction l as [|e l IH]; simpl; auto. Qed.
Lemma xl_xpair p k l k' : xl k' (map (xpair p k) l) = if k =? k' then l else [].
Proof. induction l as [|e l IH]; simpl; [destruct (k =? k'); reflexivity|]. rewrite IH. destruct (k =? k'); reflexivity. Qed.
Lemma in_xd p e log : In (p, e) (xd log) <-> In (p, XD e) log.
Proof.
  induction log as [|[q [e'|k e']] log IH]; simpl; [tauto| |].
  - rewrite IH. split; intros [H|H]; auto; left; congruence.
  - rewrite IH. split; intros H; auto. destruct H as [H|H]; [discriminate|exact H].
Qed.
Lemma xd_split log : forall u' p e v', xd log = u' ++ (p, e) :: v' -> exists u v, log = u ++ (p, XD e) :: v /\ xd u = u'.
Proof.
  induction log as [|[q [e1|k e1]] log IH]; intros u' p e v' E; simpl in E.
  - destruct u'; discriminate.
  - destruct u' as [|y u'].
    + simpl in E. injection E as -> -> E. exists [], log. auto.
    + simpl in E. injection E as <- E. destruct (IH _ _ _ _ E) as (u & v & -> & <-). exists ((q, XD e1) :: u), v. auto.
  - destruct (IH _ _ _ _ E) as (u & v & -> & <-). exists ((q, XL k e1) :: u), v. auto.
Qed.

Lemma lrun_app n a : forall s b, lrun n s (a ++ b) = (fst (lrun n (fst (lrun n s a)) b), snd (lrun n s a) ++ snd (lrun n (fst (lrun n s a)) b)).
Proof.
  induction a as [|l a IH]; intros s b; simpl; [destruct (lrun n s b); reflexivity|].
  destruct (lstep_n n s l) as [s1 e1]. rewrite IH. destruct (lrun n s1 a) as [s2 e2]. simpl. destruct (lrun n s2 b) as [s3 e3]. simpl. rewrite app_assoc. reflexivity.
Qed.

Section Crit.
Variable c : oconf.
Variable W : Z -> Z -> opd.
Variable m0 : Z -> Z -> Z.
Notation n := (oc_n c).

Lemma mrun_snoc ls : forall s s1 log lb s2 ev, mrun c W s ls = Ok (s1, log) -> mstep c W s1 lb = Ok (s2, ev) -> mrun c W s (ls ++ [lb]) = Ok (s2, log ++ ev).
Proof.
  induction ls as [|l ls IH]; intros s s1 log lb s2 ev E1 E2; simpl in *.
  - injection E1 as <- <-. rewrite E2. simpl. rewrite app_nil_r. reflexivity.
  - destruct (mstep c W s l) as [[s3 e3]| | |]; simpl in *; try discriminate.
    destruct (mrun c W s3 ls) as [[s4 e4]| | |] eqn:E3; simpl in *; try discriminate. injection E1 as <- <-.
    rewrite (IH _ _ _ _ _ _ E3 E2). simpl. rewrite app_assoc. reflexivity.
Qed.

(** A call is under way or has returned. *)
Definition T (log : list (Z * oev)) (g : Z -> ost) : Prop :=
  forall q i cl, In (q, EStart i cl) log -> In (q, ERet i cl) log \/ exists m, o_thr (g q) i = Some (cl, m).
Definition lockish (e : xev) : Prop := match e with XD (EStart 0 _) | XL _ _ => True | _ => False end.
Definition WF (log : list (Z * xev)) : Prop :=
  forall u q e v, log = u ++ (q, e) :: v -> lockish e ->
  (exists g, ginv c g (xd u)) /\ forall cl, In (q, EStart 0 cl) (xd u) -> In (q, ERet 0 cl) (xd u).

Lemma ostep_thr s lb s' ev i : ostep c s lb = Ok (s', ev) ->
  (forall cl m, o_thr s i = Some (cl, m) -> (exists m', o_thr s' i = Some (cl, m')) \/ In (ERet i cl) ev) /\
  (forall cl, In (EStart i cl) ev -> exists m', o_thr s' i = Some (cl, m')).
Proof.
  intros H. destruct lb as [j cl|j r|id]; cbn -[done_ids mi_step] in H.
  - destruct (o_thr s j) eqn:TJ; [inversion H; subst; split; [eauto|intros ? []]|].
    destruct (call_steps c s cl) as [m| | |]; cbn in H; inversion H; subst; cbn. destruct (Z.eqb_spec j i) as [->|N]; split.
    + intros cl' m' F. congruence.
    + intros cl' [F|[]]. injection F as <-. eauto.
    + eauto.
    + intros cl' [F|[]]. injection F as F _. contradiction.
  - destruct (o_thr s j) as [[cl [|m rest]]|] eqn:TJ.
    + inversion H; subst; cbn. split; [|intros cl' [F|[]]; discriminate]. intros cl' m' F. destruct (Z.eqb_spec j i) as [->|N]; [|eauto].
      rewrite TJ in F. injection F as <- _. right. left; reflexivity.
    + destruct (mi_step c r s m rest) as [[[s1 e1] r1]| | |] eqn:E; cbn in H; inversion H; subst. cbn.
      pose proof (mi_thr c _ _ _ _ _ _ _ E) as TT.
      assert (TE : forall e, In e ev -> exists id, e = EDone id) by (intros e F; exact (mi_ev c _ _ _ _ _ _ _ _ E F)).
      rewrite TT. split; [|intros cl' F; destruct (TE _ F); discriminate].
      intros cl' m' F. destruct (Z.eqb_spec j i) as [->|N]; [|eauto]. rewrite TJ in F. injection F as <- _. eauto.
    + inversion H; subst. split; [eauto|intros ? []].
  - inversion H; subst. cbn. split; [eauto|]. intros cl F. apply in_map_iff in F. destruct F as (x & F & _). discriminate.
Qed.

Lemma app_split {X} (l : list X) : forall b u x v, l ++ b = u ++ x :: v -> (exists v', l = u ++ x :: v') \/ (exists r, u = l ++ r /\ b = r ++ x :: v).
Proof.
  induction l as [|y l IH]; intros b u x v E; [right; exists u; auto|]. destruct u as [|z u]; simpl in E; injection E as -> E.
  - left. exists l. reflexivity.
  - destruct (IH _ _ _ _ E) as [(v' & ->)|(r & -> & ->)]; [left; exists v'; reflexivity|right; exists r; auto].
Qed.

Definition evpe (e : lev) : Z := match e with EEnq p | EAcq p | ERel p | ETestFail p => p end.
Record XI (log : list (Z * xev)) (s : xst) : Prop := mkXI {
  xi_run : exists dls, single dls /\ mrun c W (m_init m0) dls = Ok (x_d s, xd log);
  xi_lock : forall k, exists lls, lrun n l_init lls = (x_l s k, xl k log);
  xi_T : T (xd log) (m_g (x_d s));
  xi_WF : WF log;
  xi_pe : forall q k e, In (q, XL k e) log -> evpe e = q
}.

Lemma lstep_pe s p o s' ev : lstep s p o = (s', ev) -> forall e, In e ev -> evpe e = p.
Proof.
  unfold lstep. intros E e F.
  destruct (lk_pc s p), o; try (injection E as <- <-; destruct F);
    repeat match type of E with (if ?b then _ else _) = _ => destruct b end; injection E as <- <-;
    repeat (destruct F as [<-|F]; [reflexivity|]); destruct F.
Qed.

Lemma T_step log s d s' ev : mstep c W s d = Ok (s', ev) -> T log (m_g s) -> T (log ++ ev) (m_g s').
Proof.
  intros E H q i cl F. destruct d as [l|p id j]; simpl in E.
  - destruct (call_ok W l); [|injection E as <- <-; rewrite app_nil_r in *; auto].
    destruct (gstep c (m_g s) l) as [[g' e']| | |] eqn:EG; simpl in E; try discriminate. injection E as <- <-. rewrite land_evs_g. cbn [m_g].
    destruct (gstep_inv _ _ _ _ _ EG) as (p & lb & s2 & e1 & ES & -> & -> & _). destruct (ostep_thr _ _ _ _ i ES) as [O1 O2].
    apply in_app_or in F. destruct F as [F|F].
    + destruct (H q i cl F) as [G|[m G]]; [left; apply in_or_app; auto|]. destruct (Z.eqb_spec q p) as [->|N]; [|right; eauto].
      destruct (O1 _ _ G) as [G1|G1]; [right; exact G1|left]. apply in_or_app. right. apply in_map. exact G1.
    + apply in_map_iff in F. destruct F as (e & F & G). injection F as <- ->. rewrite Z.eqb_refl. right. apply O2. exact G.
  - injection E as <- <-. rewrite app_nil_r in *. destruct (existsb _ _); [rewrite land_g|]; auto.
Qed.

Lemma xstep_XI log s lb s' ev : xsingle [lb] -> xstep c W s lb = Ok (s', ev) -> XI log s -> XI (log ++ ev) s'.
Proof.
  intros SG E [(dls & DS & DR) HL HT HW HP]. destruct (mrun_from_init c W m0 _ _ _ DS DR) as [G _].
  destruct lb as [d|k p o]; cbn [xstep] in E.
  - match type of E with (if ?b then _ else _) = _ => destruct b end; [|injection E as <- <-; rewrite app_nil_r; constructor; eauto].
    destruct (mstep c W (x_d s) d) as [[d' e']| | |] eqn:EM; simpl in E; try discriminate. injection E as <- <-.
    assert (SD : single [d]) by (apply SG; left; reflexivity).
    constructor; simpl.
    + exists (dls ++ [d]). split; [intros x F; apply in_app_or in F; destruct F as [F|F]; [apply DS|apply SD]; exact F|].
      rewrite xd_app, xd_dpair. eapply mrun_snoc; eauto.
    + intros k. rewrite xl_app, xl_dpair, app_nil_r. apply HL.
    + rewrite xd_app, xd_dpair. eapply T_step; eauto.
    + intros u q e v EU LK. destruct (app_split _ _ _ _ _ EU) as [(v' & EL)|(r & -> & ER)]; [eapply HW; eauto|].
      destruct d as [l|p id j]; simpl in EM; [|injection EM as <- <-; destruct r; discriminate].
      destruct (call_ok W l); [|injection EM as <- <-; destruct r; discriminate].
      destruct (gstep c (m_g (x_d s)) l) as [[g' e1]| | |] eqn:EG; simpl in EM; try discriminate. injection EM as _ <-.
      destruct (gstep_inv _ _ _ _ _ EG) as (p & lb & s2 & e2 & ES & _ & -> & _).
      destruct (step_ev c _ _ _ _ ES) as [(j & cl & -> & _ & TN & _)|[(j & cl & r' & -> & _)|F]].
      * simpl in ER. destruct r as [|y r]; [|destruct r; discriminate]. injection ER as <- <- <-. rewrite app_nil_r.
        split; [exists (m_g (x_d s)); exact G|]. intros cl' F. destruct j; try destruct LK.
        destruct (HT _ _ _ F) as [F1|[m F1]]; [exact F1|cbn in TN, F1; congruence].
      * simpl in ER. destruct r as [|y r]; [|destruct r; discriminate]. injection ER as <- <- <-. destruct LK.
      * exfalso. assert (IE : In (q, e) (map dpair (map (pair p) e2))) by (rewrite ER; apply in_or_app; right; left; reflexivity).
        apply in_map_iff in IE. destruct IE as ([q' e'] & E1 & IE). injection E1 as <- <-. apply in_map_iff in IE. destruct IE as (x & E1 & IE). injection E1 as <- <-.
        destruct (F _ IE) as [id ->]. destruct LK.
    + intros q k e F. apply in_app_or in F. destruct F as [F|F]; [eapply HP; eauto|]. apply in_map_iff in F. destruct F as (x & F & _). discriminate.
  - match type of E with (if ?b then _ else _) = _ => destruct b eqn:EB end; [|injection E as <- <-; rewrite app_nil_r; constructor; eauto].
    destruct (lstep_n n (x_l s k) (p, o)) as [l ev1] eqn:EL. injection E as <- <-.
    assert (TN : o_thr (m_g (x_d s) p) 0 = None) by (destruct (o_thr (m_g (x_d s) p) 0); [discriminate|reflexivity]).
    constructor; simpl.
    + exists dls. rewrite xd_app, xd_xpair, app_nil_r. auto.
    + intros k'. rewrite xl_app, xl_xpair. unfold fset. destruct (HL k') as (lls & LR). rewrite (Z.eqb_sym k' k). destruct (Z.eqb_spec k k') as [<-|N].
      * exists (lls ++ [(p, o)]). rewrite lrun_app, LR. simpl. rewrite EL. simpl. rewrite app_nil_r. reflexivity.
      * exists lls. rewrite app_nil_r. exact LR.
    + rewrite xd_app, xd_xpair, app_nil_r. exact HT.
    + intros u q e v EU LK. destruct (app_split _ _ _ _ _ EU) as [(v' & EL')|(r & -> & ER)]; [eapply HW; eauto|].
      assert (XR : xd r = [] /\ q = p).
      { clear - ER. revert r ER. induction ev1 as [|y l IH]; intros r ER; [destruct r; discriminate|]. simpl in ER. destruct r as [|z r].
        - injection ER as <- _. auto.
        - injection ER as <- ER. apply IH in ER. simpl. exact ER. }
      destruct XR as [XR ->]. rewrite xd_app, XR, app_nil_r. split; [exists (m_g (x_d s)); exact G|]. intros cl F.
      destruct (HT _ _ _ F) as [F1|[m F1]]; [exact F1|congruence].
    + intros q k' e F. apply in_app_or in F. destruct F as [F|F]; [eapply HP; eauto|]. apply in_map_iff in F. destruct F as (x & F & G1). injection F as <- <- <-.
      unfold lstep_n in EL. simpl in EL. destruct ((0 <=? p) && (p <? n)); [eapply lstep_pe; eauto|injection EL as <- <-; destruct G1].
Qed.
Lemma xrun_XI ls : forall log s s' log', xsingle ls -> xrun c W s ls = Ok (s', log') -> XI log s -> XI (log ++ log') s'.
Proof.
  induction ls as [|lb ls IH]; intros log s s' log' SG E H; simpl in E; [injection E as <- <-; rewrite app_nil_r; exact H|].
  destruct (xstep c W s lb) as [[s1 e1]| | |] eqn:E1; simpl in E; try discriminate.
  destruct (xrun c W s1 ls) as [[s2 e2]| | |] eqn:E2; simpl in E; try discriminate. injection E as <- <-.
  rewrite app_assoc. eapply IH; [intros d F; apply SG; right; exact F|exact E2|].
  eapply xstep_XI; [|exact E1|exact H]. intros d [F|[]]. apply SG. left; exact F.
Qed.
Lemma XI_init : XI [] (x_init m0).
Proof.
  constructor; simpl; try (intros; contradiction).
  - exists []. split; [intros x []|reflexivity].
  - intros k. exists []. reflexivity.
  - intros q i cl [].
  - intros u q e v E. destruct u; discriminate.
Qed.

(** ** Who holds the lock *)
Lemma evs_keep q l : forall h', evs_ok (Some q) l = Some h' -> ~ In (ERel q) l -> h' = Some q.
Proof.
  induction l as [|e l IH]; intros h' E N; simpl in E; [congruence|]. destruct e as [p|p|p|p]; simpl in E; try discriminate; try (apply IH; [exact E|intros F; apply N; right; exact F]).
  destruct (Z.eqb_spec p q) as [->|]; [|discriminate]. exfalso. apply N. left; reflexivity.
Qed.
Lemma hold_after q h l1 l2 h' : evs_ok h (l1 ++ EAcq q :: l2) = Some h' -> ~ In (ERel q) l2 -> h' = Some q.
Proof.
  intros E N. rewrite evs_ok_app in E. destruct (evs_ok h l1) as [h1|]; [|discriminate]. simpl in E. destruct h1; [discriminate|].
  eapply evs_keep; eauto.
Qed.
Lemma xl_in k e log : In e (xl k log) -> exists q, In (q, XL k e) log.
Proof.
  induction log as [|[q [e'|k' e']] log IH]; simpl; [intros []| |].
  - intros F. destruct (IH F) as [p F1]. exists p. auto.
  - destruct (Z.eqb_spec k' k) as [->|].
    + intros [->|F]; [exists q; auto|]. destruct (IH F) as [p F1]. exists p. auto.
    + intros F. destruct (IH F) as [p F1]. exists p. auto.
Qed.
Lemma holds_evs k q u h : (forall p k e, In (p, XL k e) u -> evpe e = p) -> evs_ok None (xl k u) = Some h -> holds k q u -> h = Some q.
Proof.
  intros HP E (a & b & -> & N). rewrite xl_app in E. simpl in E. rewrite Z.eqb_refl in E. eapply hold_after; [exact E|].
  intros F. apply N. destruct (xl_in _ _ _ F) as [p F1]. assert (X : evpe (ERel q) = p) by (eapply HP; apply in_or_app; right; right; exact F1).
  simpl in X. subst p. exact F1.
Qed.

Lemma synced_done g log q id : ginv c g log -> synced n (plog q log) id -> In (q, EDone id) log.
Proof.
  intros [G _] (l1 & l2 & l3 & cf & E & HQ & HN & (j & x & o & k & t & dev & HR & HT)). destruct (G q) as (lq & O & R). apply plog_in.
  pose proof (quiet_one_thread c lq _ _ O R l1 l2 _ 0 cf E HQ HN j _ id HR) as Q.
  specialize (Q ltac:(exists x, o, k, t, dev; auto)). rewrite E. apply in_app_or in Q. apply in_or_app. destruct Q as [Q|Q]; [left; exact Q|].
  right. right. apply in_or_app. left; exact Q.
Qed.

Lemma guarded_ordered log s t a k : n <= INT_MAX -> XI log s -> guarded n W log t a k -> (forall p i cl, In (p, EStart i cl) (xd log) -> i = 0) ->
  ordered W (xd log) t a.
Proof.
  intros HN [_ HL _ HW HP] [GA GB] I0 u' q i x o kd id t' dev v' E HT.
  destruct (xd_split _ _ _ _ _ E) as (u & v & EL & EU). subst u'.
  destruct (GA _ _ _ _ _ _ _ _ _ _ EL HT) as (HH & HF & HB & HS). split; [exact HF|].
  assert (i = 0) by (apply (I0 q i (CRma x o kd id t' dev)); rewrite E; apply in_or_app; right; left; reflexivity). subst i.
  destruct (HW _ _ _ _ EL) as ((g & G) & RT); [exact Logic.I|].
  intros p' id' (i1 & x1 & o1 & k1 & t1 & d1 & HI) HC.
  assert (IH : In (p', EStart i1 (CRma x1 o1 k1 id' t1 d1)) (xd log)) by (rewrite E; apply in_or_app; left; exact HI).
  pose proof (I0 _ _ _ IH) as ->. clear IH.
  assert (TC : (exists y, writes (W p' id') t a y) \/ reads (W p' id') t a) by (destruct HC as [[C1 _]|[C1 _]]; auto).
  (* either way the operation is complete after the events [w] of a prefix *)
  assert (FIN : forall w g, ginv c g (xd w) -> In (p', EStart 0 (CRma x1 o1 k1 id' t1 d1)) (xd w) ->
     (forall cl, In (p', EStart 0 cl) (xd w) -> In (p', ERet 0 cl) (xd w)) ->
     (forall y, writes (W p' id') t a y -> synced n (plog p' (xd w)) id') -> In (p', EDone id') (xd w)).
  { intros w g' G' IW RW SW. destruct TC as [[y TC]|TC]; [eapply synced_done; eauto|].
    apply in_xd in HI. destruct (in_split _ _ HI) as (u1 & u2 & EU1).
    assert (EL1 : log = u1 ++ (p', XD (EStart 0 (CRma x1 o1 k1 id' t1 d1))) :: (u2 ++ (q, XD (EStart 0 (CRma x o kd id t' dev))) :: v)).
    { rewrite EL, EU1, <- app_assoc. reflexivity. }
    destruct (GA _ _ _ _ _ _ _ _ _ _ EL1 (or_intror TC)) as (_ & _ & BK & _). specialize (BK TC).
    destruct G' as [G' _]. destruct (G' p') as (lq & _ & RQ). apply plog_in. eapply blocking_done; [exact RQ|exact BK|]. apply in_plog. apply RW. exact IW. }
  destruct (Z.eq_dec p' q) as [->|NQ].
  - eapply FIN; eauto. intros y HY. eapply HS; [|exact HY]. exists 0, x1, o1, k1, t1, d1. exact HI.
  - pose proof HI as HI'. apply in_xd in HI'. destruct (in_split _ _ HI') as (u1 & u2 & EU1).
    assert (EL1 : log = u1 ++ (p', XD (EStart 0 (CRma x1 o1 k1 id' t1 d1))) :: (u2 ++ (q, XD (EStart 0 (CRma x o kd id t' dev))) :: v)).
    { rewrite EL, EU1, <- app_assoc. reflexivity. }
    destruct (GA _ _ _ _ _ _ _ _ _ _ EL1 TC) as (HH1 & _).
    assert (EV : exists h, evs_ok None (xl k log) = Some h).
    { destruct (HL k) as (lls & LR). destruct (trace_exclusion n lls HN) as (h & E1 & _). rewrite LR in E1. exists h. exact E1. }
    destruct EV as (h & EV). rewrite EL, xl_app, evs_ok_app in EV. destruct (evs_ok None (xl k u)) as [hu|] eqn:EVU; [|discriminate].
    assert (HPU : forall p k e, In (p, XL k e) u -> evpe e = p) by (intros p0 k0 e0 F; apply (HP p0 k0 e0); rewrite EL; apply in_or_app; left; exact F).
    pose proof (holds_evs k q u hu HPU EVU HH) as ->.
    rewrite EU1, xl_app, evs_ok_app in EVU. destruct (evs_ok None (xl k u1)) as [h1|] eqn:EV1; [|discriminate].
    assert (h1 = Some p') as ->.
    { eapply (holds_evs k p' u1); eauto. intros p0 k0 e0 F. apply (HPU p0 k0 e0). rewrite EU1. apply in_or_app; left; exact F. }
    assert (IR : In (ERel p') (xl k ((p', XD (EStart 0 (CRma x1 o1 k1 id' t1 d1))) :: u2))).
    { destruct (in_dec (fun a b : lev => ltac:(decide equality; apply Z.eq_dec) : {a = b} + {a <> b}) (ERel p') (xl k ((p', XD (EStart 0 (CRma x1 o1 k1 id' t1 d1))) :: u2))) as [F|F]; [exact F|].
      apply evs_keep in EVU; [congruence|exact F]. }
    simpl in IR. destruct (xl_in _ _ _ IR) as (pr & IR1).
    assert (pr = p'). { symmetry. apply (HPU pr k (ERel p')). rewrite EU1. apply in_or_app. right; right; exact IR1. } subst pr.
    destruct (in_split _ _ IR1) as (w1 & w2 & EW2).
    set (w := u1 ++ (p', XD (EStart 0 (CRma x1 o1 k1 id' t1 d1))) :: w1).
    assert (ELW : log = w ++ (p', XL k (ERel p')) :: (w2 ++ (q, XD (EStart 0 (CRma x o kd id t' dev))) :: v)).
    { rewrite EL1, EW2. unfold w. rewrite <- !app_assoc. reflexivity. }
    destruct (HW _ _ _ _ ELW) as ((g' & G') & RT'); [exact Logic.I|].
    assert (IW : In (p', EStart 0 (CRma x1 o1 k1 id' t1 d1)) (xd w)).
    { apply in_xd. unfold w. apply in_or_app. right. left. reflexivity. }
    assert (D : In (p', EDone id') (xd w)).
    { apply (FIN w g' G' IW RT'). intros y HY. apply (GB _ _ _ ELW id' y); [|exact HY]. exists 0, x1, o1, k1, t1, d1. exact IW. }
    apply in_xd. apply in_xd in D. rewrite EU1, EW2. unfold w in D. apply in_app_or in D. apply in_or_app.
    destruct D as [D|[D|D]]; [left; exact D|discriminate|right; right; apply in_or_app; left; exact D].
Qed.

Lemma single_starts dls : forall s s' log, single dls -> mrun c W s dls = Ok (s', log) -> forall p i cl, In (p, EStart i cl) log -> i = 0.
Proof.
  induction dls as [|d dls IH]; intros s s' log SG E p i cl F; simpl in E; [injection E as <- <-; destruct F|].
  destruct (mstep c W s d) as [[s1 e1]| | |] eqn:E1; simpl in E; try discriminate.
  destruct (mrun c W s1 dls) as [[s2 e2]| | |] eqn:E2; simpl in E; try discriminate. injection E as <- <-.
  apply in_app_or in F. destruct F as [F|F]; [|eapply IH; [|exact E2|exact F]; intros x Hx; apply SG; right; exact Hx].
  specialize (SG d (or_introl eq_refl)). destruct d as [l|p' id j]; simpl in E1; [|injection E1 as _ <-; destruct F].
  destruct (call_ok W l); [|injection E1 as _ <-; destruct F].
  destruct (gstep c (m_g s) l) as [[g' e']| | |] eqn:EG; simpl in E1; try discriminate. injection E1 as _ <-.
  destruct (gstep_inv _ _ _ _ _ EG) as (p1 & lb & s3 & e3 & ES & _ & -> & LB). apply in_map_iff in F. destruct F as (e & F & G). injection F as <- ->.
  destruct (step_ev c _ _ _ _ ES) as [(j & cl' & -> & EL & _)|[(j & cl' & r & -> & _)|F]].
  - destruct G as [G|[]]. injection G as -> ->. subst lb. destruct l; destruct LB as [_ LB]; try discriminate. injection LB as -> _. exact SG.
  - destruct G as [G|[]]. discriminate.
  - destruct (F _ G). discriminate.
Qed.

Lemma critical ls s log t a k : n <= INT_MAX -> xsingle ls -> xrun c W (x_init m0) ls = Ok (s, log) -> guarded n W log t a k ->
  (forall L1 q i x o kd g t' dev L2 b len j, log = L1 ++ (q, XD (EStart i (CRma x o kd g t' dev))) :: L2 ->
     W q g = Rd t b len -> a = b + Z.of_nat j -> (j < len)%nat -> In (q, XD (ERet i (CRma x o kd g t' dev))) log ->
     m_res (x_d s) q g j = lastw W t a (m0 t a) (xd L1)) /\
  ((forall q, ~ holds k q log) -> m_mem (x_d s) t a = lastw W t a (m0 t a) (xd log)).
Proof.
  intros HN SG E GD. pose proof (xrun_XI _ _ _ _ _ SG E XI_init) as H. simpl in H. pose proof H as [HR HL HT HW HP]. destruct HR as (dls & DS & DR).
  pose proof (single_starts _ _ _ _ DS DR) as I0. pose proof (guarded_ordered log s t a k HN H GD I0) as O.
  destruct (race_free c W m0 t a dls _ _ DS DR O) as [R1 R2]. destruct (mrun_from_init c W m0 _ _ _ DS DR) as [G _]. split.
  - intros L1 q i x o kd g t' dev L2 b len j EL EW EA HJ HRet.
    assert (EX : xd log = xd L1 ++ (q, EStart i (CRma x o kd g t' dev)) :: xd L2) by (rewrite EL, xd_app; reflexivity).
    apply (R1 _ _ _ _ _ _ _ _ _ _ _ _ _ EX EW EA HJ). destruct G as [G _]. destruct (G q) as (lq & _ & RQ). apply plog_in.
    destruct GD as [GA _]. assert (RD : reads (W q g) t a) by (exists b, len, j; auto).
    destruct (GA _ _ _ _ _ _ _ _ _ _ EL (or_intror RD)) as (_ & _ & BK & _). eapply blocking_done; [exact RQ|exact (BK RD)|]. apply in_plog. apply in_xd. exact HRet.
  - intros NH. apply R2. intros p id v HI HV. destruct HI as (i & x & o & kd & t' & dev & HI). pose proof (I0 _ _ _ HI) as ->.
    pose proof HI as HI'. apply in_xd in HI'. destruct (in_split _ _ HI') as (u & w & EL). destruct GD as [GA GB].
    destruct (GA _ _ _ _ _ _ _ _ _ _ EL (or_introl (ex_intro _ v HV))) as (HH & _).
    destruct HH as (u1 & u2 & EU & HU).
    assert (IR : In (p, XL k (ERel p)) w).
    { destruct (in_dec (fun a b : Z * xev => ltac:(repeat decide equality) : {a = b} + {a <> b}) (p, XL k (ERel p)) w) as [F|F]; [exact F|]. exfalso.
      apply (NH p). exists u1, (u2 ++ (p, XD (EStart 0 (CRma x o kd id t' dev))) :: w). split; [rewrite EL, EU, <- app_assoc; reflexivity|].
      intros F1. apply in_app_or in F1. destruct F1 as [F1|[F1|F1]]; [contradiction|discriminate|contradiction]. }
    destruct (in_split _ _ IR) as (w1 & w2 & EW).
    assert (ELW : log = (u ++ (p, XD (EStart 0 (CRma x o kd id t' dev))) :: w1) ++ (p, XL k (ERel p)) :: w2) by (rewrite EL, EW, <- app_assoc; reflexivity).
    destruct (HW _ _ _ _ ELW) as ((g' & G') & _); [exact Logic.I|].
    assert (D : In (p, EDone id) (xd (u ++ (p, XD (EStart 0 (CRma x o kd id t' dev))) :: w1))).
    { eapply synced_done; [exact G'|]. apply (GB _ _ _ ELW id v); [|exact HV]. exists 0, x, o, kd, t', dev. apply in_xd. apply in_or_app. right. left; reflexivity. }
    rewrite ELW, xd_app. apply in_or_app. left; exact D.
Qed.
End Crit.
