(** Updates in critical sections are not lost. *)
From Verif Require Import Base BaseProofs AmCfgModel OrderModel OrderSpec OrderProofs OrderProofs2 OrderProofs3
  DataModel DataSpec DataProofs DataProofs2 LockModel LockProofs LockProofs2 LockProofs3 RaceSpec RaceProofs CritModel CritSpec CritProofs.

Lemma serial_app F W t a l : forall v l', serial F W t a v (l ++ l') = serial F W t a (serial F W t a v l) l'.
Proof.
  induction l as [|[p e] l IH]; intros v l'; [reflexivity|]. destruct e as [i cl|i cl|id]; simpl; auto. destruct cl; simpl; auto.
Qed.

Lemma serial_updates c W m0 F ls s log t a k : oc_n c <= INT_MAX -> xsingle ls -> xrun c W (x_init m0) ls = Ok (s, log) ->
  guarded (oc_n c) W log t a k -> updates F W (m_res (x_d s)) log t a k ->
  lastw W t a (m0 t a) (xd log) = serial F W t a (m0 t a) (xd log).
Proof.
  intros HN SG E GD UP. pose proof (xrun_XI c W m0 _ _ _ _ _ SG E (XI_init c W m0)) as H. simpl in H. destruct H as [HR HL HT HW HP].
  destruct HR as (dls & DS & DR). pose proof (single_starts c W _ _ _ _ DS DR) as I0.
  destruct (critical c W m0 ls s log t a k HN SG E GD) as [CR _]. destruct GD as [GA _].
  assert (EV : exists h, evs_ok None (xl k log) = Some h).
  { destruct (HL k) as (lls & LR). destruct (trace_exclusion (oc_n c) lls HN) as (h & E1 & _). rewrite LR in E1. exists h. exact E1. }
  assert (ONE : forall w v p q, log = w ++ v -> holds k p w -> holds k q w -> p = q).
  { intros w v p q EL H1 H2. destruct EV as (h & EV). rewrite EL, xl_app, evs_ok_app in EV. destruct (evs_ok None (xl k w)) as [hw|] eqn:EW; [|discriminate].
    assert (HPW : forall p k e, In (p, XL k e) w -> evpe e = p) by (intros p0 k0 e0 F0; apply (HP p0 k0 e0); rewrite EL; apply in_or_app; left; exact F0).
    pose proof (holds_evs k p w hw HPW EW H1). pose proof (holds_evs k q w hw HPW EW H2). congruence. }
  assert (P : forall w v, log = w ++ v -> lastw W t a (m0 t a) (xd w) = serial F W t a (m0 t a) (xd w)).
  { intros w. induction w as [|[q e] w IH] using rev_ind; intros v EL; [reflexivity|]. rewrite <- app_assoc in EL. simpl in EL.
    specialize (IH _ EL). rewrite !xd_app. destruct e as [e|k' e]; simpl; [|rewrite app_nil_r; exact IH].
    rewrite lastw_app, serial_app, <- IH. destruct e as [i cl|i cl|id]; simpl; try reflexivity. destruct cl as [x o kd id t' dev| | | | | | |]; simpl; try reflexivity.
    destruct (wval (W q id) t a) as [y|] eqn:EY; [|reflexivity]. apply writes_wval in EY.
    destruct (UP _ _ _ _ _ _ _ _ _ _ _ EL EY) as (u1 & i1 & x1 & o1 & kd1 & g & t1 & dev1 & u2 & b & len & j & EU & EG & EA & HJ & NR & NW & ->).
    f_equal.
    set (rest := u2 ++ (q, XD (EStart i (CRma x o kd id t' dev))) :: v).
    assert (EL1 : log = u1 ++ (q, XD (EStart i1 (CRma x1 o1 kd1 g t1 dev1))) :: rest) by (rewrite EL, EU, <- app_assoc; reflexivity).
    assert (RD : reads (W q g) t a) by (exists b, len, j; auto).
    destruct (GA _ _ _ _ _ _ _ _ _ _ EL1 (or_intror RD)) as ((c1 & c2 & EC & NC) & _).
    assert (RET : In (q, XD (ERet i1 (CRma x1 o1 kd1 g t1 dev1))) log).
    { assert (i1 = 0). { apply (I0 q i1 (CRma x1 o1 kd1 g t1 dev1)). rewrite EL1, xd_app. apply in_or_app. right. left; reflexivity. } subst i1.
      assert (i = 0). { apply (I0 q i (CRma x o kd id t' dev)). rewrite EL, xd_app. apply in_or_app. right. left; reflexivity. } subst i.
      destruct (HW _ _ _ _ EL) as (_ & RT); [exact Logic.I|]. rewrite EL. apply in_or_app. left. apply in_xd. apply RT. apply in_xd.
      rewrite EU. apply in_or_app. right. left; reflexivity. }
    rewrite (CR _ _ _ _ _ _ _ _ _ _ _ _ _ EL1 EG EA HJ RET). rewrite EU, xd_app, lastw_app. simpl. rewrite EG. simpl. symmetry.
    apply lastw_none. intros [p e] HI. destruct (isw W t a (p, e)) as [y'|] eqn:EI; [exfalso|reflexivity].
    unfold isw in EI. destruct (st_of (p, e)) as [[p' id']|] eqn:ES; [|discriminate].
    destruct (st_inv _ _ _ ES) as (i2 & x2 & o2 & k2 & t2 & dev2 & EE). injection EE as -> ->. apply writes_wval in EI.
    destruct (Z.eq_dec p' q) as [->|NQ]; [apply (NW id' y'); [exists i2, x2, o2, k2, t2, dev2; exact HI|exact EI]|].
    apply in_xd in HI. destruct (in_split _ _ HI) as (a1 & a2 & EA2).
    set (pre := u1 ++ (q, XD (EStart i1 (CRma x1 o1 kd1 g t1 dev1))) :: a1).
    assert (EL2 : log = pre ++ (p', XD (EStart i2 (CRma x2 o2 k2 id' t2 dev2))) :: (a2 ++ (q, XD (EStart i (CRma x o kd id t' dev))) :: v)).
    { rewrite EL1. unfold rest, pre. rewrite EA2, <- !app_assoc. reflexivity. }
    destruct (GA _ _ _ _ _ _ _ _ _ _ EL2 (or_introl (ex_intro _ y' EI))) as (HH & _).
    apply NQ. apply (ONE pre _ p' q EL2 HH). exists c1, (c2 ++ (q, XD (EStart i1 (CRma x1 o1 kd1 g t1 dev1))) :: a1).
    split; [unfold pre; rewrite EC, <- app_assoc; reflexivity|]. intros FR. apply in_app_or in FR. destruct FR as [FR|[FR|FR]]; [contradiction|discriminate|].
    apply NR. rewrite EA2. apply in_or_app. left; exact FR. }
  apply (P log []). rewrite app_nil_r. reflexivity.
Qed.
