(** Proofs about windows. *)
From Verif Require Import Base AmCfgModel OrderModel WinModel WinSpec.

Lemma windows_loc : forall c s o a ls l, windows_of c s o a = Ok ls -> In l ls ->
  loc_of c s (call_ctx a) o = Ok l.
Proof.
  intros c s o a ls l H Hl. unfold windows_of in H. destruct (loc_of c s (call_ctx a) o) as [l0| | |]; try discriminate H.
  cbn [bind] in H. destruct a as [x k dev| | |].
  - destruct (is_direct c s x o k dev) as [[]| | |]; try discriminate H; injection H as <-; [|destruct Hl].
    destruct Hl as [<-|[]]. reflexivity.
  - injection H as <-. destruct Hl as [<-|[]]. reflexivity.
  - injection H as <-. destruct Hl as [<-|[]]. reflexivity.
  - injection H as <-. destruct Hl as [<-|[]]. reflexivity.
Qed.

Lemma loc_exposes : forall c s x o l, in_reach x o -> loc_of c s x o = Ok l -> exposes s l o = true.
Proof.
  intros c s x o l Hr H. destruct x as [|k i]; cbn [loc_of] in H.
  - destruct o as [| |k]; try (injection H as <-; destruct (oc_dyn c); reflexivity).
    destruct (find_sp s k) as [sp|] eqn:F; [|discriminate H].
    destruct (os_att sp) eqn:A; [|discriminate H]. injection H as <-.
    destruct (oc_dyn c); cbn [exposes]; rewrite F; [exact A|]. now rewrite Z.eqb_refl.
  - cbn in Hr. subst o. destruct (find_sp s k) as [sp|] eqn:F; [|discriminate H].
    destruct (os_att sp) eqn:A; [|discriminate H]. cbn [andb] in H.
    destruct ((0 <=? i) && (i <? os_nctx sp)); [|discriminate H].
    injection H as <-. cbn [exposes]. now rewrite Z.eqb_refl, F.
Qed.

Lemma loc_ctx : forall c s1 s2 x1 x2 o l1 l2, in_reach x1 o -> in_reach x2 o ->
  loc_of c s1 x1 o = Ok l1 -> loc_of c s2 x2 o = Ok l2 -> (l1 = l2 <-> x1 = x2).
Proof.
  intros c s1 s2 x1 x2 o l1 l2 R1 R2 H1 H2.
  assert (HD : forall s l, loc_of c s XDefault o = Ok l ->
            l = match o with OHeap => if oc_dyn c then LSymm else LHeap
                           | OData => if oc_dyn c then LSymm else LData
                           | OSpace k => if oc_dyn c then LSymm else LDef k end).
  { intros s l H. cbn [loc_of] in H. destruct o as [| |k]; try (now injection H as <-).
    destruct (find_sp s k) as [sp|]; [|discriminate H]. destruct (os_att sp); [now injection H as <-|discriminate H]. }
  assert (HS : forall s k i l, loc_of c s (XSpace k i) o = Ok l -> l = LCtx k i).
  { intros s k i l H. cbn [loc_of] in H. destruct (find_sp s k) as [sp|]; [|discriminate H].
    destruct (os_att sp && (0 <=? i) && (i <? os_nctx sp)); [now injection H as <-|discriminate H]. }
  destruct x1 as [|k1 i1]; destruct x2 as [|k2 i2].
  - apply HD in H1, H2. subst. tauto.
  - apply HD in H1. apply HS in H2. subst. split; [|discriminate]. destruct o, (oc_dyn c); discriminate.
  - apply HS in H1. apply HD in H2. subst. split; [|discriminate]. destruct o, (oc_dyn c); discriminate.
  - apply HS in H1, H2. subst. split; congruence.
Qed.

Lemma given a : call_ctx a = given_ctx a.
Proof. destruct a; reflexivity. Qed.

Lemma same_window : forall c s1 s2 o a1 a2 ls1 ls2 l1 l2,
  in_reach (given_ctx a1) o -> in_reach (given_ctx a2) o ->
  windows_of c s1 o a1 = Ok ls1 -> windows_of c s2 o a2 = Ok ls2 -> In l1 ls1 -> In l2 ls2 ->
  (l1 = l2 <-> given_ctx a1 = given_ctx a2).
Proof.
  intros c s1 s2 o a1 a2 ls1 ls2 l1 l2 R1 R2 H1 H2 I1 I2.
  rewrite <- (given a1) in *. rewrite <- (given a2) in *. eapply loc_ctx; eauto; eapply windows_loc; eauto.
Qed.

Lemma window_exposes : forall c s o a ls l, in_reach (given_ctx a) o ->
  windows_of c s o a = Ok ls -> In l ls -> exposes s l o = true.
Proof. intros c s o a ls l R H I. rewrite <- given in R. eapply loc_exposes; eauto. eapply windows_loc; eauto. Qed.
