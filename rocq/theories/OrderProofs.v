(** Proofs about OrderModel: one PE. *)
From Verif Require Import Base BaseProofs AmCfgModel OrderModel OrderSpec.

Lemma loc_eqb_eq a b : loc_eqb a b = true <-> a = b.
Proof.
  destruct a, b; cbn; split; intros H; try discriminate; try reflexivity;
    try (f_equal; lia); try (injection H; intros; subst; lia).
Qed.
Lemma loc_eqb_refl a : loc_eqb a a = true.
Proof. apply loc_eqb_eq; reflexivity. Qed.
Lemma bset_eqb_eq a b : bset_eqb a b = true <-> a = b.
Proof.
  destruct a, b; unfold bset_eqb; cbn; split; intros H.
  - f_equal; lia.
  - injection H; intros; subst. lia.
Qed.
Lemma bset_eqb_refl a : bset_eqb a a = true.
Proof. apply bset_eqb_eq; reflexivity. Qed.

(** ** Completing operations *)

Lemma done_keep f s p : In p (o_pend s) ->
  (f p = true /\ In (EDone (pd_id p)) (snd (done_ids f s))) \/
  (f p = false /\ In p (o_pend (fst (done_ids f s)))).
Proof.
  intros H. unfold done_ids; cbn. destruct (f p) eqn:E; [left|right]; split; auto.
  - apply in_map_iff. exists p. split; auto. apply filter_In; auto.
  - apply filter_In. rewrite E; auto.
Qed.
Lemma done_back f s p : In p (o_pend (fst (done_ids f s))) -> In p (o_pend s) /\ f p = false.
Proof.
  unfold done_ids; cbn. intros H. apply filter_In in H. destruct H as [H E].
  split; auto. destruct (f p); auto; discriminate.
Qed.
Lemma done_ev f s e : In e (snd (done_ids f s)) -> exists id, e = EDone id.
Proof. cbn. intros H. apply in_map_iff in H. destruct H as (p & <- & _). eauto. Qed.

Section One.
Variable c : oconf.

Ltac splitH H :=
  repeat first
    [ match type of H with context [match ?x with _ => _ end] =>
        match type of x with
        | mi => fail 1
        | _ => let E := fresh "E" in destruct x eqn:E; cbn in H; try discriminate H
        end end ].

Lemma find_app k l x :
  find (fun y => os_id y =? k) (l ++ [x]) =
  match find (fun y => os_id y =? k) l with Some y => Some y | None => if os_id x =? k then Some x else None end.
Proof. induction l as [|y l IH]; cbn; auto. destruct (os_id y =? k); auto. Qed.
Lemma find_upd k k' att l :
  find (fun y => os_id y =? k') (upd_sp k att l) =
  match find (fun y => os_id y =? k') l with
  | Some y => Some (if k =? k' then mkOsp k (os_nctx y) (os_dev y) att else y)
  | None => None
  end.
Proof.
  unfold upd_sp. induction l as [|y l IH]; [reflexivity|]. cbn.
  destruct (os_id y =? k) eqn:E1; cbn.
  - destruct (k =? k') eqn:E2.
    + replace (os_id y =? k') with true by lia. reflexivity.
    + replace (os_id y =? k') with false by lia. apply IH.
  - destruct (os_id y =? k') eqn:E3.
    + replace (k =? k') with false by lia. reflexivity.
    + rewrite IH. reflexivity.
Qed.
Lemma find_filter k k' l :
  find (fun y => os_id y =? k') (filter (fun x => negb (os_id x =? k)) l) =
  if k =? k' then None else find (fun y => os_id y =? k') l.
Proof.
  induction l as [|y l IH]; cbn; [destruct (k =? k'); auto|].
  destruct (os_id y =? k) eqn:E1; cbn.
  - rewrite IH. destruct (k =? k') eqn:E2; auto. replace (os_id y =? k') with false by lia. auto.
  - destruct (os_id y =? k') eqn:E3.
    + replace (k =? k') with false by lia. auto.
    + rewrite IH. auto.
Qed.

(** *** Space calls *)
Lemma space_keep s cl s' ev p : space_step c s cl = Ok (s', ev) -> In p (o_pend s) ->
  In p (o_pend s') \/ In (EDone (pd_id p)) ev.
Proof.
  intros H Hp. destruct cl; cbn -[done_ids] in H; try (injection H; intros; subst; auto; fail).
  - destruct (find_sp s k); inversion H; subst; auto.
  - destruct (find_sp s k) as [sp|]; [destruct (os_att sp)|]; inversion H; subst; auto.
  - destruct (find_sp s k) as [sp|]; [destruct (os_att sp)|]; try discriminate.
    destruct (done_keep (of_space k) s p Hp) as [[_ A]|[_ A]];
      destruct (done_ids (of_space k) s) as [s1 e1]; inversion H; subst; auto.
  - destruct (find_sp s k) as [sp|]; [destruct (os_att sp)|]; inversion H; subst; auto.
Qed.
Lemma space_back s cl s' ev p : space_step c s cl = Ok (s', ev) -> In p (o_pend s') -> In p (o_pend s).
Proof.
  intros H Hp. destruct cl; cbn -[done_ids] in H; try (injection H; intros; subst; auto; fail).
  - destruct (find_sp s k); inversion H; subst; auto.
  - destruct (find_sp s k) as [sp|]; [destruct (os_att sp)|]; inversion H; subst; auto.
  - destruct (find_sp s k) as [sp|]; [destruct (os_att sp)|]; try discriminate.
    assert (D := done_back (of_space k) s p).
    destruct (done_ids (of_space k) s) as [s1 e1]; inversion H; subst; apply D; auto.
  - destruct (find_sp s k) as [sp|]; [destruct (os_att sp)|]; inversion H; subst; auto.
Qed.
Lemma space_same s cl s' ev : space_step c s cl = Ok (s', ev) ->
  o_thr s' = o_thr s /\ o_ent s' = o_ent s /\ o_am s' = o_am s.
Proof.
  intros H. destruct cl; cbn -[done_ids] in H; try (injection H; intros; subst; auto; fail).
  - destruct (find_sp s k); inversion H; subst; auto.
  - destruct (find_sp s k) as [sp|]; [destruct (os_att sp)|]; inversion H; subst; auto.
  - destruct (find_sp s k) as [sp|]; [destruct (os_att sp)|]; inversion H; subst; auto.
  - destruct (find_sp s k) as [sp|]; [destruct (os_att sp)|]; inversion H; subst; auto.
Qed.
(** Pending operations keep their window and their flag. *)
Lemma space_live s cl s' ev : space_step c s cl = Ok (s', ev) ->
  (forall p l, In p (o_pend s) -> pd_route p = RWin l -> win_ok c s l = true) ->
  forall p l, In p (o_pend s') -> pd_route p = RWin l ->
    win_ok c s' l = true /\ o_flag s' l = o_flag s l.
Proof.
  intros H L p l Hp Hr. assert (Hp0 := space_back _ _ _ _ _ H Hp). assert (W := L _ _ Hp0 Hr).
  destruct cl; cbn -[done_ids] in H; try (injection H; intros; subst; auto; fail).
  - destruct (find_sp s k) eqn:E; inversion H; subst; clear H. cbn in Hp.
    destruct l; cbn in *; auto; unfold find_sp in *; cbn in *; rewrite find_app; cbn;
      (destruct (k =? k0) eqn:E2;
       [replace k0 with k in W by lia; rewrite E in W; try discriminate;
        rewrite andb_false_r in W; discriminate|]);
      (destruct (find (fun x => os_id x =? k0) (o_spaces s)); auto).
  - destruct (find_sp s k) as [sp|] eqn:E; [|discriminate]. destruct (os_att sp) eqn:A; inversion H; subst; clear H.
    destruct l; cbn in *; auto; unfold find_sp in *; cbn in *; rewrite find_upd;
      (destruct (k =? k0) eqn:E2;
       [replace k0 with k in W by lia; rewrite E in W; cbn in W; rewrite A in W;
        try rewrite andb_false_r in W; discriminate|]);
      (destruct (find (fun x => os_id x =? k0) (o_spaces s)); auto).
  - destruct (find_sp s k) as [sp|] eqn:E; [|discriminate]. destruct (os_att sp) eqn:A; [|discriminate].
    assert (D := done_back (of_space k) s p).
    unfold done_ids in H. inversion H; subst; clear H. cbn -[win_ok] in Hp.
    apply D in Hp. destruct Hp as [_ Hf]. unfold of_space in Hf. rewrite Hr in Hf.
    destruct l; cbn in *; auto; unfold find_sp in *; cbn in *; rewrite find_upd; rewrite Hf;
      destruct (find (fun x => os_id x =? k0) (o_spaces s)); auto.
  - destruct (find_sp s k) as [sp|] eqn:E; [|discriminate]. destruct (os_att sp) eqn:A; inversion H; subst; clear H.
    destruct l; cbn in *; auto; unfold find_sp in *; cbn in *; rewrite find_filter;
      (destruct (k =? k0) eqn:E2;
       [replace k0 with k in W by lia; rewrite E in W; cbn in W; rewrite A in W;
        try rewrite andb_false_r in W; discriminate|]); auto.
Qed.

(** *** Steps *)
Lemma mi_keep r s m rest s' ev rest' p : mi_step c r s m rest = Ok (s', ev, rest') -> In p (o_pend s) ->
  In p (o_pend s') \/ In (EDone (pd_id p)) ev.
Proof.
  intros H Hp. destruct m; cbn -[done_ids space_step] in H.
  all: try (inversion H; subst; cbn; auto; try (left; apply in_or_app; auto); fail).
  - destruct (win_ok c s l); inversion H; subst. left. cbn. apply in_or_app; auto.
  - destruct (oc_track c); inversion H; subst; auto.
  - destruct (done_keep (is_id id) s p Hp) as [[_ A]|[_ A]]; inversion H; subst; auto.
  - destruct (done_keep (on_am t) s p Hp) as [[_ A]|[_ A]]; inversion H; subst; auto.
  - destruct (oc_track c && negb (o_flag s l)); inversion H; subst; auto.
  - destruct (win_ok c s l); [|discriminate].
    destruct (done_keep (on_win l) s p Hp) as [[_ A]|[_ A]]; inversion H; subst; auto.
  - destruct (oc_track c); inversion H; subst; auto.
  - destruct (o_am s t); [|inversion H; subst; auto].
    destruct (done_keep (on_am t) s p Hp) as [[_ A]|[_ A]];
      destruct (done_ids (on_am t) s) as [s1 e1]; inversion H; subst; auto.
  - destruct r; inversion H; subst; auto.
  - destruct (space_step c s c0) as [[s1 e1]| | |] eqn:E; cbn in H; inversion H; subst.
    eapply space_keep; eauto.
Qed.
Lemma mi_back r s m rest s' ev rest' p : mi_step c r s m rest = Ok (s', ev, rest') -> In p (o_pend s') ->
  In p (o_pend s) \/
  (exists id l, m = MIssue id l /\ p = mkPend id (RWin l) /\ win_ok c s l = true) \/
  (exists id t, m = MAmPost id t /\ p = mkPend id (RAm t)).
Proof.
  intros H Hp. destruct m; cbn -[done_ids space_step] in H.
  all: try (inversion H; subst; cbn; auto; fail).
  - destruct (win_ok c s l) eqn:W; inversion H; subst. cbn in Hp. apply in_app_or in Hp.
    destruct Hp as [Hp|[<-|[]]]; auto. right; left; eauto.
  - destruct (oc_track c); inversion H; subst; auto.
  - inversion H; subst. apply filter_In in Hp. tauto.
  - inversion H; subst. cbn in Hp. apply in_app_or in Hp.
    destruct Hp as [Hp|[<-|[]]]; auto. right; right; eauto.
  - inversion H; subst. apply filter_In in Hp. tauto.
  - destruct (oc_track c && negb (o_flag s l)); inversion H; subst; auto.
  - destruct (win_ok c s l); inversion H; subst. apply filter_In in Hp. tauto.
  - destruct (oc_track c); inversion H; subst; auto.
  - destruct (o_am s t); inversion H; subst; auto. cbn in Hp. apply filter_In in Hp. tauto.
  - destruct r; inversion H; subst; auto.
  - destruct (space_step c s c0) as [[s1 e1]| | |] eqn:E; cbn in H; inversion H; subst.
    left. eapply space_back; eauto.
Qed.
Lemma mi_thr r s m rest s' ev rest' : mi_step c r s m rest = Ok (s', ev, rest') -> o_thr s' = o_thr s.
Proof.
  intros H. destruct m; cbn -[space_step] in H.
  all: repeat match type of H with context [if ?x then _ else _] => destruct x end;
    try (inversion H; subst; reflexivity).
  destruct (space_step c s c0) as [[s1 e1]| | |] eqn:E; cbn in H; inversion H; subst.
  apply space_same in E. tauto.
Qed.
Lemma mi_ent r s m rest s' ev rest' b : mi_step c r s m rest = Ok (s', ev, rest') ->
  o_ent s' b = o_ent s b + (match m with MEnter b' => if bset_eqb b' b then 1 else 0 | _ => 0 end).
Proof.
  intros H. destruct m; cbn -[space_step] in H.
  all: repeat match type of H with context [if ?x then _ else _] => destruct x end;
    try (inversion H; subst; cbn; lia).
  - inversion H; subst. cbn. destruct (bset_eqb b0 b) eqn:E; [apply bset_eqb_eq in E; subst|]; lia.
  - destruct (space_step c s c0) as [[s1 e1]| | |] eqn:E; cbn in H; inversion H; subst.
    apply space_same in E. destruct E as (_ & -> & _). lia.
Qed.
(** Events of a step inside a call are completions. *)
Lemma mi_ev r s m rest s' ev rest' e : mi_step c r s m rest = Ok (s', ev, rest') -> In e ev ->
  exists id, e = EDone id.
Proof.
  intros H He. destruct m; cbn -[space_step done_ids] in H.
  all: repeat match type of H with context [if ?x then _ else _] => destruct x end;
    try (inversion H; subst; destruct He; fail).
  - assert (D := done_ev (is_id id) s e). destruct (done_ids (is_id id) s). inversion H; subst. auto.
  - assert (D := done_ev (on_am t) s e). destruct (done_ids (on_am t) s). inversion H; subst. auto.
  - assert (D := done_ev (on_win l) s e). destruct (done_ids (on_win l) s). inversion H; subst. auto.
  - destruct (done_ids (on_am t) s) as [s1 e1] eqn:D. inversion H; subst.
    apply (done_ev (on_am t) s). rewrite D; auto.
  - destruct (space_step c s c0) as [[s1 e1]| | |] eqn:E; cbn in H; inversion H; subst.
    destruct c0; cbn -[done_ids] in E; try (inversion E; subst; destruct He; fail).
    + destruct (find_sp s k); inversion E; subst; destruct He.
    + destruct (find_sp s k) as [sp|]; [destruct (os_att sp)|]; inversion E; subst; destruct He.
    + destruct (find_sp s k) as [sp|]; [destruct (os_att sp)|]; try discriminate.
      destruct (done_ids (of_space k) s) as [s2 e2] eqn:D. inversion E; subst.
      apply (done_ev (of_space k) s). rewrite D; auto.
    + destruct (find_sp s k) as [sp|]; [destruct (os_att sp)|]; inversion E; subst; destruct He.
Qed.

Lemma step_keep s lb s' ev p : ostep c s lb = Ok (s', ev) -> In p (o_pend s) ->
  In p (o_pend s') \/ In (EDone (pd_id p)) ev.
Proof.
  intros H Hp. destruct lb as [i cl|i r|id]; cbn -[done_ids mi_step] in H.
  - destruct (o_thr s i); [inversion H; subst; auto|].
    destruct (call_steps c s cl); cbn in H; inversion H; subst; auto.
  - destruct (o_thr s i) as [[cl [|m rest]]|]; try (inversion H; subst; auto; fail).
    destruct (mi_step c r s m rest) as [[[s1 e1] r1]| | |] eqn:E; cbn in H; inversion H; subst.
    cbn. eapply mi_keep; eauto.
  - destruct (done_keep (is_id id) s p Hp) as [[_ A]|[_ A]]; inversion H; subst; auto.
Qed.

(** ** Runs and their logs *)
Lemma orun_app s a b : orun c s (a ++ b) =
  do x <- orun c s a; do y <- orun c (fst x) b; Ok (fst y, snd x ++ snd y).
Proof.
  revert s. induction a as [|lb a IH]; intros s; cbn.
  - destruct (orun c s b) as [[s' e]| | |]; reflexivity.
  - destruct (ostep c s lb) as [[s1 e1]| | |]; cbn; auto. rewrite IH.
    destruct (orun c s1 a) as [[s2 e2]| | |]; cbn; auto.
    destruct (orun c s2 b) as [[s3 e3]| | |]; cbn; auto. rewrite app_assoc. reflexivity.
Qed.
Lemma orun_snoc s a lb s' ev : orun c s (a ++ [lb]) = Ok (s', ev) <->
  exists s1 e1 e2, orun c s a = Ok (s1, e1) /\ ostep c s1 lb = Ok (s', e2) /\ ev = e1 ++ e2.
Proof.
  rewrite orun_app. destruct (orun c s a) as [[s1 e1]| | |]; cbn.
  2-4: split; [discriminate|intros (? & ? & ? & ? & _); discriminate].
  destruct (ostep c s1 lb) as [[s2 e2]| | |] eqn:E; cbn.
  2-4: split; [discriminate|intros (? & ? & ? & Hs & ? & _); inversion Hs; subst; congruence].
  rewrite app_nil_r. split; intros H.
  - inversion H; subst. eauto 6.
  - destruct H as (? & ? & ? & Hs & Ho & ->). inversion Hs; subst. rewrite E in Ho.
    inversion Ho; subst. reflexivity.
Qed.

(** A step gives either one call event or completions. *)
Lemma step_ev s lb s' ev : ostep c s lb = Ok (s', ev) ->
  (exists i cl, ev = [EStart i cl] /\ lb = OCall i cl /\ o_thr s i = None /\
     exists m, call_steps c s cl = Ok m /\ s' = set_thr s i (Some (cl, m))) \/
  (exists i cl r, ev = [ERet i cl] /\ lb = OGo i r /\ o_thr s i = Some (cl, []) /\ s' = set_thr s i None) \/
  (forall e, In e ev -> exists id, e = EDone id).
Proof.
  intros H. destruct lb as [i cl|i r|id]; cbn -[done_ids mi_step] in H.
  - destruct (o_thr s i) eqn:T; [inversion H; subst; right; right; intros e []|].
    destruct (call_steps c s cl) eqn:C; cbn in H; inversion H; subst. left. eauto 8.
  - destruct (o_thr s i) as [[cl [|m rest]]|] eqn:T; try (inversion H; subst; right; right; intros e []; fail).
    + inversion H; subst. right; left. eauto 8.
    + destruct (mi_step c r s m rest) as [[[s1 e1] r1]| | |] eqn:E; cbn in H; inversion H; subst.
      right; right. intros e He. eapply mi_ev; eauto.
  - inversion H; subst. right; right. intros e He. eapply (done_ev (is_id id) s). exact He.
Qed.

Lemma run_split_start ls : forall s s' log l1 i cl l2, orun c s ls = Ok (s', log) ->
  log = l1 ++ EStart i cl :: l2 ->
  exists ls1 ls2 s1 m, ls = ls1 ++ OCall i cl :: ls2 /\ orun c s ls1 = Ok (s1, l1) /\
    o_thr s1 i = None /\ call_steps c s1 cl = Ok m /\
    orun c (set_thr s1 i (Some (cl, m))) ls2 = Ok (s', l2).
Proof.
  induction ls as [|lb ls IH]; intros s s' log l1 i cl l2 H E; cbn in H.
  - inversion H; subst. destruct l1; discriminate.
  - destruct (ostep c s lb) as [[s1 e1]| | |] eqn:ES; cbn in H; try discriminate.
    destruct (orun c s1 ls) as [[s2 e2]| | |] eqn:ER; cbn in H; inversion H; subst. clear H.
    assert (D : forall e, In e e1 -> exists id, e = EDone id \/ True) by (intros; exists 0; auto).
    destruct (step_ev _ _ _ _ ES) as [(i' & cl' & Ee & -> & T & m & C & Es)|[(i' & cl' & r' & Ee & -> & T & Es)|De]];
      clear D.
    + subst e1. destruct l1 as [|x l1].
      * cbn in H2. inversion H2; subst. exists [], ls, s, m. repeat split; auto.
      * cbn in H2. inversion H2; subst.
        destruct (IH _ _ _ _ _ _ _ ER eq_refl) as (ls1 & ls2 & s3 & m' & -> & R1 & T1 & C1 & R2).
        exists (OCall i' cl' :: ls1), ls2, s3, m'. repeat split; auto. cbn in ES |- *. rewrite ES. cbn.
        rewrite R1. reflexivity.
    + subst e1. destruct l1 as [|x l1]; cbn in H2; inversion H2; subst.
      destruct (IH _ _ _ _ _ _ _ ER eq_refl) as (ls1 & ls2 & s3 & m' & -> & R1 & T1 & C1 & R2).
      exists (OGo i' r' :: ls1), ls2, s3, m'. repeat split; auto. cbn in ES |- *. rewrite ES. cbn.
      rewrite R1. reflexivity.
    + assert (exists l1', l1 = e1 ++ l1' /\ e2 = l1' ++ EStart i cl :: l2) as (l1' & -> & Ee2).
      { clear -H2 De. revert l1 H2. induction e1 as [|x e1 IHe]; intros l1 H2; cbn in H2.
        - exists l1; auto.
        - destruct l1 as [|y l1]; cbn in H2; inversion H2; subst.
          + destruct (De (EStart i cl)) as [? ?]; [left; auto|discriminate].
          + destruct (IHe (fun e He => De e (or_intror He)) l1 H1) as (l1' & -> & ->). exists l1'. auto. }
      destruct (IH _ _ _ _ _ _ _ ER Ee2) as (ls1 & ls2 & s3 & m' & -> & R1 & T1 & C1 & R2).
      exists (lb :: ls1), ls2, s3, m'. repeat split; auto. cbn. rewrite ES. cbn. rewrite R1. reflexivity.
Qed.

Lemma run_split_ret ls : forall s s' log l1 i cl l2, orun c s ls = Ok (s', log) ->
  log = l1 ++ ERet i cl :: l2 ->
  exists ls1 r ls2 s1, ls = ls1 ++ OGo i r :: ls2 /\ orun c s ls1 = Ok (s1, l1) /\
    o_thr s1 i = Some (cl, []) /\ orun c (set_thr s1 i None) ls2 = Ok (s', l2).
Proof.
  induction ls as [|lb ls IH]; intros s s' log l1 i cl l2 H E; cbn in H.
  - inversion H; subst. destruct l1; discriminate.
  - destruct (ostep c s lb) as [[s1 e1]| | |] eqn:ES; cbn in H; try discriminate.
    destruct (orun c s1 ls) as [[s2 e2]| | |] eqn:ER; cbn in H; inversion H; subst. clear H.
    destruct (step_ev _ _ _ _ ES) as [(i' & cl' & Ee & -> & T & m & C & Es)|[(i' & cl' & r' & Ee & -> & T & Es)|De]].
    + subst e1. destruct l1 as [|x l1]; cbn in H2; inversion H2; subst.
      destruct (IH _ _ _ _ _ _ _ ER eq_refl) as (ls1 & r & ls2 & s3 & -> & R1 & T1 & R2).
      exists (OCall i' cl' :: ls1), r, ls2, s3. repeat split; auto. cbn in ES |- *. rewrite ES. cbn.
      rewrite R1. reflexivity.
    + subst e1. destruct l1 as [|x l1].
      * cbn in H2. inversion H2; subst. exists [], r', ls, s. repeat split; auto.
      * cbn in H2; inversion H2; subst.
        destruct (IH _ _ _ _ _ _ _ ER eq_refl) as (ls1 & r & ls2 & s3 & -> & R1 & T1 & R2).
        exists (OGo i' r' :: ls1), r, ls2, s3. repeat split; auto. cbn in ES |- *. rewrite ES. cbn.
        rewrite R1. reflexivity.
    + assert (exists l1', l1 = e1 ++ l1' /\ e2 = l1' ++ ERet i cl :: l2) as (l1' & -> & Ee2).
      { clear -H2 De. revert l1 H2. induction e1 as [|x e1 IHe]; intros l1 H2; cbn in H2.
        - exists l1; auto.
        - destruct l1 as [|y l1]; cbn in H2; inversion H2; subst.
          + destruct (De (ERet i cl)) as [? ?]; [left; auto|discriminate].
          + destruct (IHe (fun e He => De e (or_intror He)) l1 H1) as (l1' & -> & ->). exists l1'. auto. }
      destruct (IH _ _ _ _ _ _ _ ER Ee2) as (ls1 & r & ls2 & s3 & -> & R1 & T1 & R2).
      exists (lb :: ls1), r, ls2, s3. repeat split; auto. cbn. rewrite ES. cbn. rewrite R1. reflexivity.
Qed.
End One.
