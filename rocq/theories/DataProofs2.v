(** Blocking gets are complete when they return. *)
From Verif Require Import Base AmCfgModel OrderModel OrderSpec OrderProofs OrderProofs2 OrderProofs3 DataModel DataSpec DataProofs.

Section Blocking.
Variable c : oconf.

Definition pendi (s : ost) (id : Z) : Prop := exists p, In p (o_pend s) /\ pd_id p = id.
Definition stage (log : list oev) (s : ost) (id t : Z) (m : list mi) : Prop :=
  (exists l, m = [MIssue id l; MLocal id]) \/
  (m = [MLocal id] /\ (In (EDone id) log \/ pendi s id)) \/
  m = [MAmPost id t; MAmAck id t; MAmFlag t false] \/
  (m = [MAmAck id t; MAmFlag t false] /\ (In (EDone id) log \/ In (mkPend id (RAm t)) (o_pend s))) \/
  ((m = [MAmFlag t false] \/ m = []) /\ In (EDone id) log).
Definition invB (log : list oev) (s : ost) : Prop :=
  (forall j x o k id t dev, blocking k -> In (ERet j (CRma x o k id t dev)) log -> In (EDone id) log) /\
  (forall j x o k id t dev m, blocking k -> o_thr s j = Some (CRma x o k id t dev, m) -> stage log s id t m).

Lemma stage_keep log s s' ev id t m :
  (forall p, In p (o_pend s) -> In p (o_pend s') \/ In (EDone (pd_id p)) ev) ->
  stage log s id t m -> stage (log ++ ev) s' id t m.
Proof.
  intros K. unfold stage. intros [H|[[H1 H2]|[H|[[H1 H2]|[H1 H2]]]]].
  - left; exact H.
  - right; left. split; [exact H1|]. destruct H2 as [H2|(p & P1 & P2)]; [left; apply in_or_app; auto|].
    destruct (K p P1) as [F|F]; [right; exists p; auto|left; apply in_or_app; right; rewrite <- P2; exact F].
  - right; right; left; exact H.
  - right; right; right; left. split; [exact H1|]. destruct H2 as [H2|H2]; [left; apply in_or_app; auto|].
    destruct (K _ H2) as [F|F]; [right; exact F|left; apply in_or_app; right; exact F].
  - right; right; right; right. split; [exact H1|apply in_or_app; left; exact H2].
Qed.

Lemma call_stage log s x o k id t dev m : blocking k -> call_steps c s (CRma x o k id t dev) = Ok m -> stage log s id t m.
Proof.
  intros B H. cbn in H. destruct (loc_of c s x o) as [l| | |]; cbn in H; try discriminate.
  destruct (is_direct c s x o k dev) as [d| | |]; cbn in H; try discriminate. injection H as <-.
  destruct B as [-> | ->]; destruct d; cbn; unfold stage; eauto.
Qed.

Lemma mi_stage log r s m rest s' ev rest' id t : mi_step c r s m rest = Ok (s', ev, rest') ->
  stage log s id t (m :: rest) -> stage (log ++ ev) s' id t rest'.
Proof.
  intros E H. unfold stage in *. destruct H as [(l & H)|[[H1 H2]|[H|[[H1 H2]|[[H1|H1] H2]]]]]; try discriminate.
  - injection H as -> ->. cbn in E. destruct (win_ok c s l); [|discriminate]. injection E as <- <- <-. right; left. split; [reflexivity|].
    right. exists (mkPend id (RWin l)). split; [cbn; apply in_or_app; right; left; reflexivity|reflexivity].
  - injection H1 as -> ->. cbn -[done_ids] in E. destruct (done_ids (is_id id) s) as [sa ea] eqn:E0. injection E as <- <- <-. right; right; right; right. split; [right; reflexivity|].
    apply in_or_app. destruct H2 as [H2|(p & P1 & P2)]; [left; exact H2|right].
    destruct (done_keep (is_id id) s p P1) as [[_ F]|[F _]]; rewrite ?E0 in *; cbn in *.
    + rewrite <- P2. exact F.
    + unfold is_id in F. lia.
  - injection H as -> ->. cbn in E. injection E as <- <- <-. right; right; right; left. split; [reflexivity|]. right. cbn. apply in_or_app. right; left; reflexivity.
  - injection H1 as -> ->. cbn -[done_ids] in E. destruct (done_ids (on_am t) s) as [sa ea] eqn:E0. injection E as <- <- <-. right; right; right; right. split; [left; reflexivity|].
    apply in_or_app. destruct H2 as [H2|P1]; [left; exact H2|right].
    destruct (done_keep (on_am t) s _ P1) as [[_ F]|[F _]]; rewrite ?E0 in *; cbn in *.
    + exact F.
    + unfold on_am in F. cbn in F. lia.
  - injection H1 as -> ->. cbn in E. injection E as <- <- <-. right; right; right; right. split; [right; reflexivity|apply in_or_app; left; exact H2].
Qed.

Lemma step_invB log s lb s' ev : ostep c s lb = Ok (s', ev) -> invB log s -> invB (log ++ ev) s'.
Proof.
  intros H [A B].
  assert (K := fun p => step_keep c s lb s' ev p H).
  assert (A' : forall j x o k id t dev, blocking k -> In (ERet j (CRma x o k id t dev)) log -> In (EDone id) (log ++ ev)).
  { intros. apply in_or_app. left. eauto. }
  assert (B' : forall j x o k id t dev m, blocking k -> o_thr s j = Some (CRma x o k id t dev, m) -> stage (log ++ ev) s' id t m).
  { intros. eapply stage_keep; eauto. }
  destruct (step_ev _ _ _ _ _ H) as [(i & cl & -> & -> & T & m & C & ->)|[(i & cl & r & -> & -> & T & ->)|De]].
  - split.
    + intros j x o k id t dev Bk Hr. apply in_app_or in Hr. destruct Hr as [Hr|[Hr|[]]]; [eauto|discriminate].
    + intros j x o k id t dev m' Bk Ht. cbn in Ht. destruct (i =? j) eqn:E; [|eauto].
      injection Ht as -> ->. eapply call_stage in C; [|exact Bk]. revert C. unfold stage, pendi. cbn. intros C; exact C.
  - split.
    + intros j x o k id t dev Bk Hr. apply in_app_or in Hr. destruct Hr as [Hr|[Hr|[]]]; [eauto|]. injection Hr as -> ->.
      destruct (B _ _ _ _ _ _ _ _ Bk T) as [(l & F)|[[F _]|[F|[[F _]|[[F|F] D]]]]]; try discriminate. apply in_or_app; left; exact D.
    + intros j x o k id t dev m' Bk Ht. cbn in Ht. destruct (i =? j) eqn:E; [discriminate|]. apply (B' _ _ _ _ _ _ _ _ Bk Ht).
  - split.
    + intros j x o k id t dev Bk Hr. apply in_app_or in Hr. destruct Hr as [Hr|Hr]; [eauto|].
      destruct (De _ Hr); discriminate.
    + intros j x o k id t dev m' Bk Ht.
      destruct lb as [i cl|i r|id']; cbn -[done_ids mi_step] in H.
      * destruct (o_thr s i) eqn:T.
        -- injection H as <- <-. eauto.
        -- destruct (call_steps c s cl); cbn in H; inversion H; subst.
           destruct (De (EStart i cl)) as [? ?]; [left; auto|discriminate].
      * destruct (o_thr s i) as [[cl [|m rest]]|] eqn:T.
        -- inversion H; subst. destruct (De (ERet i cl)) as [? ?]; [left; auto|discriminate].
        -- destruct (mi_step c r s m rest) as [[[s1 e1] r1]| | |] eqn:E; cbn in H; inversion H; subst.
           assert (T1 := mi_thr _ _ _ _ _ _ _ _ E). cbn in Ht. destruct (i =? j) eqn:Ej.
           ++ injection Ht as -> ->. eapply mi_stage in E; [|apply (B _ _ _ _ _ _ _ _ Bk T)]. exact E.
           ++ rewrite T1 in Ht. apply (B' _ _ _ _ _ _ _ _ Bk Ht).
        -- injection H as <- <-. eauto.
      * injection H as <- <-. cbn in Ht. apply (B' _ _ _ _ _ _ _ _ Bk Ht).
Qed.
Lemma run_invB ls : forall s s' log0 log, orun c s ls = Ok (s', log) -> invB log0 s -> invB (log0 ++ log) s'.
Proof.
  induction ls as [|lb ls IH]; intros s s' log0 log H I; cbn in H.
  - inversion H; subst. rewrite app_nil_r. auto.
  - destruct (ostep c s lb) as [[s1 e1]| | |] eqn:E; cbn in H; try discriminate.
    destruct (orun c s1 ls) as [[s2 e2]| | |] eqn:E2; cbn in H; inversion H; subst.
    rewrite app_assoc. eapply IH; eauto. eapply step_invB; eauto.
Qed.
Lemma blocking_done ls s log j x o k id t dev : orun c o_init ls = Ok (s, log) -> blocking k ->
  In (ERet j (CRma x o k id t dev)) log -> In (EDone id) log.
Proof.
  intros H B. assert (I0 : invB [] o_init) by (split; [intros; contradiction|intros; discriminate]).
  destruct (run_invB _ _ _ _ _ H I0) as [A _]. apply (A j x o k id t dev B).
Qed.

Variable W : Z -> Z -> opd.

Lemma get_returned m0 ls s log p a q g t b n j v L1 i x o k t' dev L2 : single ls -> mrun c W (m_init m0) ls = Ok (s, log) ->
  log = L1 ++ (q, EStart i (CRma x o k g t' dev)) :: L2 -> In (p, EDone a) L1 -> ~ issued L1 q g ->
  W q g = Rd t b n -> (j < n)%nat -> writes (W p a) t (b + Z.of_nat j) v -> only_writer W log t (b + Z.of_nat j) p a ->
  blocking k -> (exists i', In (q, ERet i' (CRma x o k g t' dev)) log) -> m_res s q g j = v.
Proof.
  intros SG E EL HD HF EW HJ HW OW Bk (i' & HR).
  apply (get_data c W m0 ls s log p a q g t b n j v L1 i x o k t' dev L2); auto.
  destruct (mrun_from_init c W m0 _ _ _ SG E) as [[G _] _]. destruct (G q) as (lq & _ & EQ). apply plog_in.
  eapply blocking_done; [exact EQ|exact Bk|]. apply in_plog. exact HR.
Qed.
End Blocking.

Section BarrierGet.
Variables (c : oconf) (W : Z -> Z -> opd).

Lemma barrier_get m0 ls s log b p q l1 a r j x o k t t0 dev v l2 p' i x' o' k' g t' dev' l3 B n : single ls -> mrun c W (m_init m0) ls = Ok (s, log) ->
  log = l1 ++ (p, ERet 0 (CBarrier b)) :: l2 ++ (p', EStart i (CRma x' o' k' g t' dev')) :: l3 -> In q (members b) ->
  l1 = a ++ (q, EStart 0 (CBarrier b)) :: r -> starts q b a = starts p b l1 - 1 ->
  In (q, ERet 0 (CRma XDefault o k x t0 dev)) a -> (oc_dyn c = true \/ o = OHeap \/ o = OData) -> In t0 (members b) \/ by_window c k ->
  ~ issued (l1 ++ (p, ERet 0 (CBarrier b)) :: l2) p' g -> blocking k' -> (exists i', In (p', ERet i' (CRma x' o' k' g t' dev')) log) ->
  W p' g = Rd t B n -> (j < n)%nat -> writes (W q x) t (B + Z.of_nat j) v -> only_writer W log t (B + Z.of_nat j) q x ->
  m_res s p' g j = v.
Proof.
  intros SG E EL HQ E1 ES HR HO HT HF Bk HRet EW HJ HW OW.
  assert (HD : In (q, EDone x) l1).
  { destruct (mrun_grun c W _ _ _ _ E) as (gls & EG & EGI). 
    destruct (barrier_completes_ok c gls (m_g s) log b) with (l1 := l1) (p := p) (i := 0) (l2 := l2 ++ (p', EStart i (CRma x' o' k' g t' dev')) :: l3) (q := q) as [_ BC]; auto.
    all: try (eapply single_g; eauto; fail).
    eapply (BC a 0 r E1 ES); [exact HR|]. exists o, k, t0, dev. auto. }
  apply (get_returned c W m0 ls s log q x p' g t B n j v (l1 ++ (p, ERet 0 (CBarrier b)) :: l2) i x' o' k' t' dev' l3); auto.
  - rewrite EL, <- app_assoc. reflexivity.
  - apply in_or_app. left; exact HD.
Qed.
End BarrierGet.
