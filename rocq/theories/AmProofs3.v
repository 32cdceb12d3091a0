From Verif Require Import Base BaseProofs ListLib LockModel LockProofs AmModel AmSpec AmProofs AmProofs2.

Section AmProofs3.
Variables A D M R : Type.
Variable exec : A -> option D -> M -> outcome (M * R).
Variable ub : Z.
Variable n : Z.
Variable m0 : Z -> M.
Hypothesis ub_int : ub <= INT_MAX.
Notation ast := (ast A D M R).
Notation inv := (inv A D M R exec m0).
Notation step := (step exec ub n).
Notation run := (run exec ub n).
Notation SI := (SI A D M R).

Lemma inv0 : inv (a_init m0).
Proof. exact (inv_init _ _ _ _ exec ub m0). Qed.

Lemma run_app ls1 : forall ls2 s, run s (ls1 ++ ls2) =
  (fst (run (fst (run s ls1)) ls2), snd (run s ls1) ++ snd (run (fst (run s ls1)) ls2)).
Proof.
  induction ls1 as [|l ls1 IH]; intros ls2 s; cbn [app AmModel.run]; [cbn [fst snd app]; apply surjective_pairing|].
  destruct (step s l) as [s1 e1]. rewrite IH. destruct (run s1 ls1) as [s2 e2]. cbn [fst snd].
  destruct (run s2 ls2). cbn [fst snd]. rewrite app_assoc. reflexivity.
Qed.

Lemma SI_init p : SI p (a_init m0).
Proof.
  constructor; cbn.
  - reflexivity.
  - intros t. exists []. split; reflexivity.
  - intros t _. split; reflexivity.
Qed.

Lemma SI_step p s l : inv s -> SI p s -> one_thread p [l] -> SI p (fst (step s l)).
Proof.
  intros I S O. specialize (O l (or_introl eq_refl)).
  assert (K : forall q i, lab_pe A D l = Some (q, i) -> (q = p -> i = 0) -> SI p (fst (step s l))).
  { intros q i E H. destruct (Z.eq_dec q p) as [->|Hq].
    - rewrite (H eq_refl) in E. eapply SI_own; eassumption.
    - eapply SI_same; [eapply step_other with (1 := m0); [exact Hq|exact E]|exact S]. }
  destruct l; try (eapply K; [reflexivity|exact O]). eapply SI_cb; [exact I|exact S].
Qed.

Lemma one_cons p (l : label A D) ls : one_thread p (l :: ls) -> one_thread p [l] /\ one_thread p ls.
Proof.
  intros H. split; intros x Hx; apply H; simpl in *; [destruct Hx as [<-|[]]; auto|auto].
Qed.

Lemma SI_run p ls : forall s, inv s -> SI p s -> one_thread p ls -> SI p (fst (run s ls)).
Proof.
  induction ls as [|l ls IH]; intros s I S O; [exact S|]. apply one_cons in O. destruct O as [O1 O2]. cbn [AmModel.run].
  pose proof (inv_step _ _ _ _ exec ub n m0 ub_int s l I) as I1. pose proof (SI_step p s l I S O1) as S1.
  destruct (step s l) as [s1 e1]. cbn [fst] in *. specialize (IH s1 I1 S1 O2). destruct (run s1 ls). exact IH.
Qed.

Lemma reach_inv ls : inv (fst (run (a_init m0) ls)).
Proof. apply inv_run; [exact ub_int|exact inv0]. Qed.
Lemma reach_SI p ls : one_thread p ls -> SI p (fst (run (a_init m0) ls)).
Proof. intros O. apply SI_run; [exact inv0|apply SI_init|exact O]. Qed.

(** *** Histories *)

Lemma logok_seq m lg m' : logok A D M R exec m lg m' -> seq_exec exec m lg m'.
Proof.
  assert (SN : forall lg m m1 p r x m2, seq_exec exec m lg m1 -> exec (rq_args r) (rq_data r) m1 = Ok (m2, x) ->
     seq_exec exec m (lg ++ [(p, r, x)]) m2).
  { induction lg0 as [|[[q r] x] lg0 IH]; intros m1 m2 p r' x' m3 H E; cbn in *.
    - subst. exists m3. split; [exact E|reflexivity].
    - destruct H as (m4 & E1 & H). exists m4. split; [exact E1|]. eapply IH; eassumption. }
  intros H. induction H as [|m lg m1 p r x m2 H IH E]; [reflexivity|]. eapply SN; eassumption.
Qed.

Lemma applied_issued s p t : inv s -> prefix (applied p (a_log s t)) (a_issued s p t).
Proof.
  intros I. pose proof (pi_fifo _ _ _ _ _ _ _ _ _ _ _ _ (in_p _ _ _ _ _ _ _ I p t)) as F. eexists. exact F.
Qed.

Lemma applied_called s p t : inv s -> SI p s -> prefix (applied p (a_log s t)) (a_called s p t).
Proof.
  intros I S. destruct (applied_issued s p t I) as [c E]. destruct (si_call _ _ _ _ _ _ S t) as (l & El & _).
  exists (c ++ l). rewrite El, E, app_assoc. reflexivity.
Qed.

Lemma prefix_eq {X : Type} (a b c : list X) : prefix a b -> prefix b c -> prefix c a -> a = c.
Proof.
  intros [x Ex] [y Ey] [z Ez]. assert (H : length a = length c).
  { apply (f_equal (@length X)) in Ex, Ey, Ez. rewrite !app_length in *. lia. }
  rewrite Ey, Ex in H. rewrite Ey, Ex. rewrite !app_length in H. destruct x; [|simpl in H; lia].
  destruct y; [|simpl in H; lia]. rewrite !app_nil_r. reflexivity.
Qed.

Lemma applied_app p (l1 l2 : list (Z * req A D * R)) : applied p (l1 ++ l2) = applied p l1 ++ applied p l2.
Proof. unfold applied. rewrite filter_app, map_app. reflexivity. Qed.

Lemma log_grows s ls t : prefix (a_log s t) (a_log (fst (run s ls)) t).
Proof. apply run_log. Qed.
Lemma applied_grows s ls p t : prefix (applied p (a_log s t)) (applied p (a_log (fst (run s ls)) t)).
Proof. destruct (log_grows s ls t) as [l E]. rewrite E, applied_app. eexists. reflexivity. Qed.

(** *** The completion step *)

Lemma quiet_applied s p t : inv s -> SI p s -> quiet A D (cbp A D (a_cb s t) p) (a_comm s p t) ->
  pend A D R (a_thr s p 0) t = [] -> a_thr s p 0 <> TAbort -> applied p (a_log s t) = a_called s p t.
Proof.
  intros I S [Q1 Q2] HP HA. pose proof (pi_fifo _ _ _ _ _ _ _ _ _ _ _ _ (in_p _ _ _ _ _ _ _ I p t)) as F.
  rewrite Q1, Q2, !app_nil_r in F. destruct (si_call _ _ _ _ _ _ S t) as (l & El & Hl). rewrite (Hl HA), HP, app_nil_r in El.
  rewrite El. symmetry. exact F.
Qed.

Lemma flushed_step s l p i ps : inv s -> SI p s -> one_thread p [l] -> In (EFlushed p i ps) (snd (step s l)) ->
  forall t, In t ps -> applied p (a_log (fst (step s l)) t) = a_called (fst (step s l)) p t.
Proof.
  intros I S O. specialize (O l (or_introl eq_refl)). destruct l as [q j t r|q j qs|q j|q j|t q any]; unfold AmModel.step.
  - destruct (is_pe n q && is_pe n t && req_ok r); [|intros []]. destruct (a_thr s q j); try (intros []). cbn zeta.
    destruct (rq_kind r); [intros []| |]; destruct (am_ptag true ub _); intros [].
  - destruct (is_pe n q && forallb (is_pe n) qs && nodup_z qs); [|intros []]. destruct (a_thr s q j); intros [].
  - destruct (is_pe n q && (j =? 0)); [|intros []]. destruct (a_thr s q j); intros [].
  - destruct (is_pe n q); [|intros []].
    destruct (a_thr s q j) as [|t g r|t g r|t g r|t v r x|todo us|todo g w us|w g us|todo us| | |] eqn:ET; try solve [intros []].
    + destruct (rq_data r); [|intros []]; intros [].
    + destruct (take_ack g (a_ack s t q)) as [[[[? ?]|] ?]|]; intros [].
    + intros [E|[]]. discriminate E.
    + destruct todo as [|u todo]; [|destruct (a_flag s q u); [destruct (am_ptag true ub _)|]; intros []].
      intros [E|[]] t Ht. injection E as -> -> ->. rewrite (O eq_refl) in *. cbn.
      apply quiet_applied; [exact I|exact S| |rewrite ET; reflexivity|rewrite ET; discriminate].
      pose proof (si_q _ _ _ _ _ _ S t) as Hq. rewrite ET in Hq. destruct Hq as [_ Hq]. apply Hq; [exact Ht|intros []].
    + destruct todo as [|u todo]; [intros []|]. destruct (a_flag s q u); intros [].
    + destruct w as [|u w]; [intros []|]. destruct (take_ack g (a_ack s u q)) as [[? ?]|]; intros [].
    + destruct todo as [|u todo]; [|intros []].
      intros [E|[]] t Ht. injection E as -> -> ->. rewrite (O eq_refl) in *. cbn.
      apply quiet_applied; [exact I|exact S| |rewrite ET; reflexivity|rewrite ET; discriminate].
      pose proof (si_q _ _ _ _ _ _ S t) as Hq. rewrite ET in Hq. destruct Hq as (_ & Hq & _). apply Hq; exact Ht.
    + destruct (forallb _ (zrange n)); intros [].
  - destruct (is_pe n t && is_pe n q); [|intros []]. destruct (a_cb s t) as [|u g r| |u r|]; try (intros []).
    + destruct (take_hdr any (a_comm s q t)) as [[[[g r|g|]|g d] c]|]; try (intros []). cbn zeta. destruct (rq_kind r); intros [].
    + destruct (take_data g (a_comm s u t)) as [[d c]|]; intros [].
Qed.

Lemma called_step s l p t : no_calls p [l] -> a_called (fst (step s l)) p t = a_called s p t.
Proof.
  intros NC. specialize (NC l (or_introl eq_refl)). destruct l as [q j u r|q j qs|q j|q j|u q any].
  - unfold AmModel.step. destruct (is_pe n q && is_pe n u && req_ok r); [|reflexivity]. destruct (a_thr s q j); try reflexivity. cbn zeta.
    destruct (rq_kind r); [| |]; try destruct (am_ptag true ub _); cbn; apply fset2_ne; left; congruence.
  - unfold AmModel.step. destruct (is_pe n q && forallb (is_pe n) qs && nodup_z qs); [|reflexivity]. destruct (a_thr s q j); reflexivity.
  - unfold AmModel.step. destruct (is_pe n q && (j =? 0)); [|reflexivity]. destruct (a_thr s q j); reflexivity.
  - unfold AmModel.step. destruct (is_pe n q); [|reflexivity].
    destruct (a_thr s q j) as [|v g r|v g r|v g r|v b r x|todo us|todo g w us|w g us|todo us| | |]; try reflexivity.
    + destruct (rq_data r); reflexivity.
    + destruct (take_ack g (a_ack s v q)) as [[[[? ?]|] ?]|]; reflexivity.
    + destruct todo as [|w todo]; [reflexivity|]. destruct (a_flag s q w); [destruct (am_ptag true ub _)|]; reflexivity.
    + destruct todo as [|x todo]; [reflexivity|]. destruct (a_flag s q x); reflexivity.
    + destruct w as [|x w]; [reflexivity|]. destruct (take_ack g (a_ack s x q)) as [[? ?]|]; reflexivity.
    + destruct todo; reflexivity.
    + destruct (forallb _ (zrange n)); reflexivity.
  - destruct (cb_same _ _ _ _ exec ub n s u q any p) as (_ & _ & E & _). rewrite E. reflexivity.
Qed.

Lemma called_run ls : forall s p t, no_calls p ls -> a_called (fst (run s ls)) p t = a_called s p t.
Proof.
  induction ls as [|l ls IH]; intros s p t NC; [reflexivity|]. cbn [AmModel.run].
  assert (N1 : no_calls p [l]) by (intros x [<-|[]]; apply NC; left; reflexivity).
  assert (N2 : no_calls p ls) by (intros x Hx; apply NC; right; exact Hx).
  pose proof (called_step s l p t N1) as E. destruct (step s l) as [s1 e1]. cbn [fst] in E.
  specialize (IH s1 p t N2). destruct (run s1 ls). cbn [fst] in *. congruence.
Qed.

(** *** Tags *)

Definition cntok (s : ast) : Prop := forall p, a_cnt s p = 0 \/ (0 < a_cnt s p /\ a_cnt s p + PTAG_START <= ub).

Lemma cnt_ptag c g : c = 0 \/ (0 < c /\ c + PTAG_START <= ub) -> am_ptag true ub c = Ok g ->
  (0 < am_ptag_next c /\ am_ptag_next c + PTAG_START <= ub).
Proof.
  unfold am_ptag, am_ptag_next, c_assert. intros H. assert (B : 0 <= c <= INT_MAX - PTAG_START) by (unfold INT_MAX, PTAG_START in *; lia).
  assert (B1 : - 2 ^ 31 <= c + PTAG_START < 2 ^ 31) by (unfold INT_MAX, PTAG_START in *; lia).
  assert (B2 : - 2 ^ 31 <= c + 1 < 2 ^ 31) by (unfold INT_MAX, PTAG_START in *; lia).
  rewrite !to_int_id by (unfold INT_MAX, PTAG_START in *; lia).
  destruct (c + PTAG_START <? ub) eqn:E; cbn; intros E1; [|discriminate]. unfold PTAG_START in *. lia.
Qed.

Lemma cntok_step s l : cntok s -> cntok (fst (step s l)).
Proof.
  intros C. assert (K : forall q g, am_ptag true ub (a_cnt s q) = Ok g -> forall st : ast,
     a_cnt st = fset (a_cnt s) q (am_ptag_next (a_cnt s q)) -> cntok st).
  { intros q g E st ES p. rewrite ES. destruct (Z.eq_dec p q) as [->|Hp]; [rewrite fset_eq; right; eapply cnt_ptag; [apply C|exact E]|].
    rewrite fset_ne by congruence. apply C. }
  destruct l as [q j u r|q j qs|q j|q j|u q any]; unfold AmModel.step.
  - destruct (is_pe n q && is_pe n u && req_ok r); [|exact C]. destruct (a_thr s q j); try exact C. cbn zeta.
    destruct (rq_kind r); [exact C| |]; (destruct (am_ptag true ub _) eqn:E; [eapply K; [exact E|reflexivity]|exact C..]).
  - destruct (is_pe n q && forallb (is_pe n) qs && nodup_z qs); [|exact C]. destruct (a_thr s q j); exact C.
  - destruct (is_pe n q && (j =? 0)); [|exact C]. destruct (a_thr s q j); exact C.
  - destruct (is_pe n q); [|exact C].
    destruct (a_thr s q j) as [|v g r|v g r|v g r|v b r x|todo us|todo g w us|w g us|todo us| | |]; try exact C.
    + destruct (rq_data r); exact C.
    + destruct (take_ack g (a_ack s v q)) as [[[[? ?]|] ?]|]; exact C.
    + destruct todo as [|w todo]; [exact C|]. destruct (a_flag s q w); [|exact C].
      destruct (am_ptag true ub _) eqn:E; [eapply K; [exact E|reflexivity]|exact C..].
    + destruct todo as [|x todo]; [exact C|]. destruct (a_flag s q x); exact C.
    + destruct w as [|x w]; [exact C|]. destruct (take_ack g (a_ack s x q)) as [[? ?]|]; exact C.
    + destruct todo; exact C.
    + destruct (forallb _ (zrange n)); exact C.
  - assert (HR : forall (st : ast) t q g r od, a_cnt st = a_cnt s -> cntok (fst (run_cb exec st t q g r od, @nil (aev A D R)))).
    { intros st t q' g r od E p. cbn [fst]. unfold run_cb. destruct (exec _ _ _) as [[? ?]| | |]; [destruct (rq_kind r)|..]; cbn; rewrite E; apply C. }
    destruct (is_pe n u && is_pe n q); [|exact C]. destruct (a_cb s u) as [|w g r| |w r|]; try exact C.
    + destruct (take_hdr any (a_comm s q u)) as [[[[g r|g|]|g d] c]|]; try exact C. cbn zeta. destruct (rq_kind r); [|exact C|]; apply HR; reflexivity.
    + destruct (take_data g (a_comm s w u)) as [[d c]|]; [|exact C]. apply HR; reflexivity.
Qed.
Lemma cntok_run ls : forall s, cntok s -> cntok (fst (run s ls)).
Proof.
  induction ls as [|l ls IH]; intros s C; [exact C|]. cbn [AmModel.run]. pose proof (cntok_step s l C) as C1.
  destruct (step s l) as [s1 e1]. cbn [fst] in *. specialize (IH s1 C1). destruct (run s1 ls). exact IH.
Qed.

(** *** The theorems *)

Lemma am_matching ls : let '(s, evs) := run (a_init m0) ls in
  (forall t, a_cb s t <> CbBad) /\
  (forall t, seq_exec exec (m0 t) (a_log s t) (a_mem s t)) /\
  (forall p i t r x, In (ERet p i t r x) evs ->
     match x with Some v => In (p, r, v) (a_log s t) | None => rq_kind r <> KFetch end).
Proof.
  pose proof (reach_inv ls) as I. pose proof (run_ret _ _ _ _ exec ub n m0 ub_int ls (a_init m0) inv0) as RT.
  destruct (run (a_init m0) ls) as [s evs]. cbn [fst snd] in *. split; [apply (in_bad _ _ _ _ _ _ _ I)|].
  split; [intros t; apply logok_seq, (in_log _ _ _ _ _ _ _ I)|]. intros p i t r x H.
  rewrite Forall_forall in RT. apply RT in H. exact H.
Qed.

Lemma am_flush_sound ls l p i ps : one_thread p (ls ++ [l]) ->
  let s := fst (run (a_init m0) ls) in let s' := fst (step s l) in
  In (EFlushed p i ps) (snd (step s l)) ->
  forall t, In t ps -> applied p (a_log s' t) = a_called s' p t.
Proof.
  cbn zeta. intros O. assert (O1 : one_thread p ls) by (intros x Hx; apply O, in_or_app; left; exact Hx).
  assert (O2 : one_thread p [l]) by (intros x Hx; apply O, in_or_app; right; exact Hx).
  apply flushed_step; [apply reach_inv|apply reach_SI; exact O1|exact O2].
Qed.

Lemma am_order ls p t : prefix (applied p (a_log (fst (run (a_init m0) ls)) t)) (a_issued (fst (run (a_init m0) ls)) p t).
Proof. apply applied_issued, reach_inv. Qed.
Lemma am_order_one ls p t : one_thread p ls ->
  prefix (applied p (a_log (fst (run (a_init m0) ls)) t)) (a_called (fst (run (a_init m0) ls)) p t).
Proof. intros O. apply applied_called; [apply reach_inv|apply reach_SI; exact O]. Qed.

Lemma am_tags ls : let s := fst (run (a_init m0) ls) in
  (forall p i g, tag_of (a_thr s p i) = Some g -> PTAG_START <= g < ub) /\
  (forall p i j g, tag_of (a_thr s p i) = Some g -> tag_of (a_thr s p j) = Some g -> i = j).
Proof.
  cbn zeta. pose proof (reach_inv ls) as I. assert (C : cntok (fst (run (a_init m0) ls))) by (apply cntok_run; intros p; left; reflexivity).
  split.
  - intros p i g E. pose proof (ti_tag _ _ _ _ _ (in_t _ _ _ _ _ _ _ I p) i g E) as B. specialize (C p). lia.
  - intros p i j g E1 E2. exact (ti_uniq _ _ _ _ _ (in_t _ _ _ _ _ _ _ I p) i j g E1 E2).
Qed.

(** Everything flushed stays complete while the PE makes no further call: up to and after its
    finalize. *)
Lemma am_final ls l ls2 p i ps : one_thread p (ls ++ [l] ++ ls2) -> no_calls p ls2 ->
  let s := fst (run (a_init m0) ls) in
  In (EFlushed p i ps) (snd (step s l)) ->
  let s2 := fst (run (a_init m0) (ls ++ [l] ++ ls2)) in
  forall t, In t ps -> applied p (a_log s2 t) = a_called s2 p t.
Proof.
  cbn zeta. intros O NC H t Ht.
  assert (O1 : one_thread p (ls ++ [l])) by (intros x Hx; apply O; rewrite app_assoc; apply in_or_app; left; exact Hx).
  pose proof (am_flush_sound ls l p i ps O1 H t Ht) as E. cbn zeta in E.
  pose proof (am_order_one _ p t O) as P.
  rewrite run_app in P |- *. cbn [fst] in P |- *. rewrite run_app in P |- *. cbn [fst] in P |- *.
  set (s := fst (run (a_init m0) ls)) in *.
  assert (ES : fst (run s [l]) = fst (step s l)).
  { cbn [AmModel.run]. destruct (step s l). reflexivity. }
  rewrite ES in *. set (s1 := fst (step s l)) in *.
  eapply prefix_eq; [exact P|exists []; rewrite app_nil_r; reflexivity|].
  rewrite called_run by exact NC. rewrite <- E. apply applied_grows.
Qed.
(** *** Every handled request was called *)
Section Called.
Variable P : req A D -> Prop.
Definition lab_req (l : label A D) : Prop := match l with LOp _ _ _ r => P r | _ => True end.
Definition ireq (s : ast) : Prop :=
  (forall p t r, In r (a_issued s p t) -> P r) /\ (forall p i t g r, a_thr s p i = TTag t g r -> P r).

Lemma ireq_step s l : lab_req l -> ireq s -> ireq (fst (step s l)).
Proof.
  intros HL [H1 H2].
  assert (K1 : forall (st : ast) q j x, a_issued st = a_issued s -> a_thr st = fset2 (a_thr s) q j x ->
     (forall t g r, x = TTag t g r -> P r) -> ireq st).
  { intros st q j x E1 E2 HX. split; [rewrite E1; exact H1|]. intros p i t g r. rewrite E2.
    destruct (Z.eq_dec p q) as [->|Hp]; [destruct (Z.eq_dec i j) as [->|Hi]|].
    - rewrite fset2_eq. apply HX.
    - rewrite fset2_ne by tauto. apply H2.
    - rewrite fset2_ne by tauto. apply H2. }
  assert (K2 : forall (st : ast) q j x u r0, a_issued st = fset2 (a_issued s) q u (a_issued s q u ++ [r0]) -> a_thr st = fset2 (a_thr s) q j x ->
     P r0 -> (forall t g r, x = TTag t g r -> P r) -> ireq st).
  { intros st q j x u r0 E1 E2 HP HX. split.
    - rewrite E1. intros p t r. destruct (Z.eq_dec p q) as [->|Hp]; [destruct (Z.eq_dec t u) as [->|Ht]|].
      + rewrite fset2_eq. intros Hr. apply in_app_or in Hr. destruct Hr as [Hr|[<-|[]]]; [eapply H1; exact Hr|exact HP].
      + rewrite fset2_ne by tauto. apply H1.
      + rewrite fset2_ne by tauto. apply H1.
    - intros p i t g r. rewrite E2. destruct (Z.eq_dec p q) as [->|Hp]; [destruct (Z.eq_dec i j) as [->|Hi]|].
      + rewrite fset2_eq. apply HX.
      + rewrite fset2_ne by tauto. apply H2.
      + rewrite fset2_ne by tauto. apply H2. }
  assert (C : ireq s) by (split; assumption).
  destruct l as [q j u r|q j qs|q j|q j|u q any]; unfold AmModel.step.
  - destruct (is_pe n q && is_pe n u && req_ok r); [|exact C]. destruct (a_thr s q j); try exact C. cbn zeta.
    destruct (rq_kind r).
    + eapply K2; [reflexivity|reflexivity|exact HL|discriminate].
    + destruct (am_ptag true ub _); (eapply K1; [reflexivity|reflexivity|]); try discriminate. intros t g r' E. injection E as _ _ <-. exact HL.
    + destruct (am_ptag true ub _); (eapply K1; [reflexivity|reflexivity|]); try discriminate. intros t g r' E. injection E as _ _ <-. exact HL.
  - destruct (is_pe n q && forallb (is_pe n) qs && nodup_z qs); [|exact C]. destruct (a_thr s q j); try exact C. eapply K1; [reflexivity|reflexivity|discriminate].
  - destruct (is_pe n q && (j =? 0)); [|exact C]. destruct (a_thr s q j); try exact C. eapply K1; [reflexivity|reflexivity|discriminate].
  - destruct (is_pe n q); [|exact C].
    destruct (a_thr s q j) as [|v g r|v g r|v g r|v b r x|todo us|todo g w us|w g us|todo us| | |] eqn:ET; try exact C.
    + eapply K2; [reflexivity|reflexivity|eapply H2; exact ET|]. destruct (rq_kind r); discriminate.
    + destruct (rq_data r); [|exact C]. eapply K1; [reflexivity|reflexivity|discriminate].
    + destruct (take_ack g (a_ack s v q)) as [[[[? ?]|] ?]|]; [| |exact C]; (eapply K1; [reflexivity|reflexivity|discriminate]).
    + eapply K1; [reflexivity|reflexivity|discriminate].
    + destruct todo as [|w todo]; [eapply K1; [reflexivity|reflexivity|discriminate]|].
      destruct (a_flag s q w); [destruct (am_ptag true ub _)|]; (eapply K1; [reflexivity|reflexivity|discriminate]).
    + destruct todo as [|x todo]; [|destruct (a_flag s q x)]; (eapply K1; [reflexivity|reflexivity|discriminate]).
    + destruct w as [|x w]; [|destruct (take_ack g (a_ack s x q)) as [[? ?]|]]; [| |exact C]; (eapply K1; [reflexivity|reflexivity|discriminate]).
    + destruct todo; (eapply K1; [reflexivity|reflexivity|discriminate]).
    + destruct (forallb _ (zrange n)); [|exact C]. eapply K1; [reflexivity|reflexivity|discriminate].
  - destruct C as [C1 C2]. split.
    + intros p t r. destruct (cb_same _ _ _ _ exec ub n s u q any p) as (_ & _ & _ & E). cbn zeta in E. unfold AmModel.step in E. rewrite E. apply C1.
    + intros p i t g r. destruct (cb_same _ _ _ _ exec ub n s u q any p) as (E & _). cbn zeta in E. unfold AmModel.step in E. rewrite E. apply C2.
Qed.

Lemma ireq_run ls : forall s, ireq s -> Forall lab_req ls -> ireq (fst (run s ls)).
Proof.
  induction ls as [|l ls IH]; intros s H F; [exact H|]. inversion F; subst. cbn [AmModel.run]. pose proof (ireq_step s l H2 H) as H1.
  destruct (step s l) as [s1 e1]. cbn [fst] in *. specialize (IH s1 H1 H3). destruct (run s1 ls). exact IH.
Qed.

Lemma log_called ls : Forall lab_req ls -> forall t p r x, In (p, r, x) (a_log (fst (run (a_init m0) ls)) t) -> P r.
Proof.
  intros F t p r x H. assert (IR : ireq (fst (run (a_init m0) ls))).
  { apply ireq_run; [|exact F]. split; [intros ? ? ? []|discriminate]. }
  destruct IR as [IR _]. apply (IR p t). destruct (applied_issued _ p t (reach_inv ls)) as [c ->]. apply in_or_app. left.
  unfold applied. apply in_map_iff. exists (p, r, x). split; [reflexivity|]. apply filter_In. split; [exact H|]. apply Z.eqb_refl.
Qed.
End Called.
(** *** Program order of each thread, when requests tell their thread *)
Section Threads.
Variable tid : req A D -> Z.
Definition ofth (i : Z) (l : list (req A D)) : list (req A D) := filter (fun r => tid r =? i) l.
Definition lab_tid (l : label A D) : Prop := match l with LOp _ i _ r => tid r = i | _ => True end.
Definition TC (s : ast) : Prop := forall p i,
  (forall t g r, a_thr s p i = TTag t g r -> tid r = i) /\
  forall t, exists l, ofth i (a_called s p t) = ofth i (a_issued s p t) ++ l /\
    (a_thr s p i <> TAbort -> l = pend A D R (a_thr s p i) t).

Lemma ofth_app i l1 l2 : ofth i (l1 ++ l2) = ofth i l1 ++ ofth i l2.
Proof. apply filter_app. Qed.
Lemma ofth_one i r : tid r = i -> ofth i [r] = [r].
Proof. intros <-. unfold ofth. cbn. rewrite Z.eqb_refl. reflexivity. Qed.
Lemma ofth_none i r : tid r <> i -> ofth i [r] = [].
Proof. intros H. unfold ofth. cbn. destruct (Z.eqb_spec (tid r) i); [contradiction|reflexivity]. Qed.

Lemma TC_upd s (s' : ast) q j x' : TC s -> a_thr s' = fset2 (a_thr s) q j x' ->
  (forall t g r, x' = TTag t g r -> tid r = j) ->
  (forall p t, p <> q -> a_called s' p t = a_called s p t /\ a_issued s' p t = a_issued s p t) ->
  (forall i t, i <> j -> ofth i (a_called s' q t) = ofth i (a_called s q t) /\ ofth i (a_issued s' q t) = ofth i (a_issued s q t)) ->
  (forall t, exists l, ofth j (a_called s' q t) = ofth j (a_issued s' q t) ++ l /\ (x' <> TAbort -> l = pend A D R x' t)) -> TC s'.
Proof.
  intros T ET H1 H2 H3 H4 p i. rewrite ET. destruct (Z.eq_dec p q) as [->|Hp]; [destruct (Z.eq_dec i j) as [->|Hi]|].
  - rewrite fset2_eq. split; [apply H1|apply H4].
  - rewrite fset2_ne by tauto. destruct (T q i) as [T1 T2]. split; [exact T1|]. intros t. destruct (H3 i t Hi) as [-> ->]. apply T2.
  - rewrite fset2_ne by tauto. destruct (T p i) as [T1 T2]. split; [exact T1|]. intros t. destruct (H2 p t Hp) as [-> ->]. apply T2.
Qed.

Lemma TC_keep s (s' : ast) q j x' : TC s -> a_thr s' = fset2 (a_thr s) q j x' -> a_called s' = a_called s -> a_issued s' = a_issued s ->
  (forall t g r, x' = TTag t g r -> tid r = j) ->
  (forall t, pend A D R (a_thr s q j) t = []) -> a_thr s q j <> TAbort -> (forall t, pend A D R x' t = []) -> TC s'.
Proof.
  intros T E1 E2 E3 HX HP HA HP'. eapply TC_upd; [exact T|exact E1|exact HX| | |]; rewrite ?E2, ?E3; auto.
  intros t. destruct (T q j) as [_ T2]. destruct (T2 t) as (l & El & Hl). exists l. split; [exact El|]. intros _. rewrite HP'. rewrite (Hl HA). apply HP.
Qed.

Lemma TC_step s l : lab_tid l -> TC s -> TC (fst (step s l)).
Proof.
  intros HL C. destruct l as [q j u r|q j qs|q j|q j|u q any]; unfold AmModel.step.
  - destruct (is_pe n q && is_pe n u && req_ok r); [|exact C]. destruct (a_thr s q j) eqn:ET; try exact C. cbn zeta. cbn in HL.
    assert (KC : forall p t, p <> q -> fset2 (a_called s) q u (a_called s q u ++ [r]) p t = a_called s p t) by (intros; apply fset2_ne; tauto).
    assert (KI : forall p t, p <> q -> fset2 (a_issued s) q u (a_issued s q u ++ [r]) p t = a_issued s p t) by (intros; apply fset2_ne; tauto).
    assert (KB : forall (f : Z -> Z -> list (req A D)) i t, i <> j -> ofth i (fset2 f q u (f q u ++ [r]) q t) = ofth i (f q t)).
    { intros f i t Hi. destruct (Z.eq_dec t u) as [->|Ht]; [|rewrite fset2_ne by tauto; reflexivity].
      rewrite fset2_eq, ofth_app, ofth_none by congruence. apply app_nil_r. }
    assert (T0 : forall t, ofth j (a_called s q t) = ofth j (a_issued s q t)).
    { intros t. destruct (C q j) as [_ T2]. destruct (T2 t) as (l & El & Hl). rewrite ET in Hl. rewrite (Hl ltac:(discriminate)) in El. cbn in El.
      rewrite app_nil_r in El. exact El. }
    destruct (rq_kind r).
    + eapply TC_upd; [exact C|reflexivity|discriminate|intros p t Hp; split; [apply KC|apply KI]; exact Hp|intros i t Hi; split; [apply (KB (a_called s))|apply (KB (a_issued s))]; exact Hi|].
      intros t. exists []. split; [|reflexivity]. rewrite app_nil_r. cbn [set_thr send_req set_issued send set_comm set_called set_cnt a_called a_issued a_thr pend fst].
      destruct (Z.eq_dec t u) as [->|Ht]; [rewrite !fset2_eq, !ofth_app, T0; reflexivity|rewrite !fset2_ne by tauto; apply T0].
    + destruct (am_ptag true ub _);
      (eapply TC_upd; [exact C|reflexivity|first [discriminate|intros t g' r' E; injection E as _ _ <-; exact HL]|
         intros p t Hp; split; [apply KC; exact Hp|reflexivity]|intros i t Hi; split; [apply (KB (a_called s)); exact Hi|reflexivity]|]);
      intros t; cbn [set_thr send_req set_issued send set_comm set_called set_cnt a_called a_issued a_thr pend fst]; (destruct (Z.eq_dec t u) as [->|Ht]; [rewrite fset2_eq, ofth_app, ofth_one, T0 by exact HL; eexists; split; [reflexivity|]; intros H; first [contradiction|
        rewrite Z.eqb_refl; reflexivity]|rewrite fset2_ne by tauto; rewrite T0; exists []; rewrite app_nil_r; split; [reflexivity|]; intros H; first [reflexivity|contradiction|
        destruct (Z.eqb_spec u t); [congruence|reflexivity]]]).
    + destruct (am_ptag true ub _);
      (eapply TC_upd; [exact C|reflexivity|first [discriminate|intros t g' r' E; injection E as _ _ <-; exact HL]|
         intros p t Hp; split; [apply KC; exact Hp|reflexivity]|intros i t Hi; split; [apply (KB (a_called s)); exact Hi|reflexivity]|]);
      intros t; cbn [set_thr send_req set_issued send set_comm set_called set_cnt a_called a_issued a_thr pend fst]; (destruct (Z.eq_dec t u) as [->|Ht]; [rewrite fset2_eq, ofth_app, ofth_one, T0 by exact HL; eexists; split; [reflexivity|]; intros H; first [contradiction|
        rewrite Z.eqb_refl; reflexivity]|rewrite fset2_ne by tauto; rewrite T0; exists []; rewrite app_nil_r; split; [reflexivity|]; intros H; first [reflexivity|contradiction|
        destruct (Z.eqb_spec u t); [congruence|reflexivity]]]).
  - destruct (is_pe n q && forallb (is_pe n) qs && nodup_z qs); [|exact C]. destruct (a_thr s q j) eqn:ET; try exact C.
    eapply TC_keep; [exact C|reflexivity..|discriminate|rewrite ET; reflexivity|rewrite ET; discriminate|reflexivity].
  - destruct (is_pe n q && (j =? 0)); [|exact C]. destruct (a_thr s q j) eqn:ET; try exact C.
    eapply TC_keep; [exact C|reflexivity..|discriminate|rewrite ET; reflexivity|rewrite ET; discriminate|reflexivity].
  - destruct (is_pe n q); [|exact C].
    destruct (a_thr s q j) as [|v g r|v g r|v g r|v b r x|todo us|todo g w us|w g us|todo us| | |] eqn:ET; try exact C.
    + destruct (C q j) as [T1 T2]. assert (HT : tid r = j) by (eapply T1; exact ET).
      eapply TC_upd; [exact C|reflexivity|destruct (rq_kind r); discriminate| | |].
      * intros p t Hp. split; [reflexivity|]. cbn [set_thr send_req set_issued send set_comm set_called set_cnt a_called a_issued a_thr pend fst]. apply fset2_ne; tauto.
      * intros i t Hi. split; [reflexivity|]. cbn [set_thr send_req set_issued send set_comm set_called set_cnt a_called a_issued a_thr pend fst]. destruct (Z.eq_dec t v) as [->|Ht]; [|rewrite fset2_ne by tauto; reflexivity].
        rewrite fset2_eq, ofth_app, ofth_none by congruence. apply app_nil_r.
      * intros t. exists []. rewrite app_nil_r. split; [|destruct (rq_kind r); reflexivity]. cbn [set_thr send_req set_issued send set_comm set_called set_cnt a_called a_issued a_thr pend fst]. destruct (T2 t) as (l & El & Hl). rewrite ET in Hl.
        rewrite (Hl ltac:(discriminate)) in El. cbn in El. rewrite El. destruct (Z.eq_dec t v) as [->|Ht].
        -- rewrite fset2_eq, ofth_app, ofth_one by exact HT. rewrite Z.eqb_refl. reflexivity.
        -- rewrite fset2_ne by tauto. destruct (Z.eqb_spec v t); [congruence|]. apply app_nil_r.
    + destruct (rq_data r); [|exact C]. eapply TC_keep; [exact C|reflexivity..|discriminate|rewrite ET; reflexivity|rewrite ET; discriminate|reflexivity].
    + destruct (take_ack g (a_ack s v q)) as [[[[? ?]|] ?]|]; [| |exact C]; (eapply TC_keep; [exact C|reflexivity..|discriminate|rewrite ET; reflexivity|rewrite ET; discriminate|reflexivity]).
    + eapply TC_keep; [exact C|reflexivity..|discriminate|rewrite ET; reflexivity|rewrite ET; discriminate|reflexivity].
    + destruct todo as [|w todo]; [|destruct (a_flag s q w); [destruct (am_ptag true ub _)|]]; (eapply TC_keep; [exact C|reflexivity..|discriminate|rewrite ET; reflexivity|rewrite ET; discriminate|reflexivity]).
    + destruct todo as [|x todo]; [|destruct (a_flag s q x)]; (eapply TC_keep; [exact C|reflexivity..|discriminate|rewrite ET; reflexivity|rewrite ET; discriminate|reflexivity]).
    + destruct w as [|x w]; [|destruct (take_ack g (a_ack s x q)) as [[? ?]|]]; [| |exact C]; (eapply TC_keep; [exact C|reflexivity..|discriminate|rewrite ET; reflexivity|rewrite ET; discriminate|reflexivity]).
    + destruct todo; (eapply TC_keep; [exact C|reflexivity..|discriminate|rewrite ET; reflexivity|rewrite ET; discriminate|reflexivity]).
    + destruct (forallb _ (zrange n)); [|exact C]. eapply TC_keep; [exact C|reflexivity..|discriminate|rewrite ET; reflexivity|rewrite ET; discriminate|reflexivity].
  - intros p i. destruct (cb_same _ _ _ _ exec ub n s u q any p) as (E1 & _ & E2 & E3). cbn zeta in E1, E2, E3. unfold AmModel.step in E1, E2, E3.
    rewrite E1, E2, E3. apply C.
Qed.

Lemma TC_run ls : forall s, TC s -> Forall lab_tid ls -> TC (fst (run s ls)).
Proof.
  induction ls as [|l ls IH]; intros s H F; [exact H|]. inversion F; subst. cbn [AmModel.run]. pose proof (TC_step s l H2 H) as H1.
  destruct (step s l) as [s1 e1]. cbn [fst] in *. specialize (IH s1 H1 H3). destruct (run s1 ls). exact IH.
Qed.

Lemma am_order_thread ls : Forall lab_tid ls -> forall p t i,
  prefix (ofth i (applied p (a_log (fst (run (a_init m0) ls)) t))) (ofth i (a_called (fst (run (a_init m0) ls)) p t)).
Proof.
  intros F p t i. assert (T : TC (fst (run (a_init m0) ls))).
  { apply TC_run; [|exact F]. intros q j. split; [discriminate|]. intros u. exists []. split; reflexivity. }
  destruct (T p i) as [_ T2]. destruct (T2 t) as (l & -> & _). destruct (am_order ls p t) as [c ->]. rewrite ofth_app. 
  exists (ofth i c ++ l). rewrite app_assoc. reflexivity.
Qed.
End Threads.
(** *** A stopped callback engine handles nothing more *)
Lemma done_step s l t : a_cb s t = CbDone ->
  a_cb (fst (step s l)) t = CbDone /\ a_log (fst (step s l)) t = a_log s t.
Proof.
  intros E. destruct l as [q j u r|q j qs|q j|q j|u q any]; unfold AmModel.step.
  - destruct (is_pe n q && is_pe n u && req_ok r); [|auto]. destruct (a_thr s q j); auto. cbn zeta.
    destruct (rq_kind r); [auto| |]; destruct (am_ptag true ub _); auto.
  - destruct (is_pe n q && forallb (is_pe n) qs && nodup_z qs); [|auto]. destruct (a_thr s q j); auto.
  - destruct (is_pe n q && (j =? 0)); [|auto]. destruct (a_thr s q j); auto.
  - destruct (is_pe n q); [|auto].
    destruct (a_thr s q j) as [|v g r|v g r|v g r|v b r x|todo us|todo g w us|w g us|todo us| | |]; auto.
    + destruct (rq_data r); auto.
    + destruct (take_ack g (a_ack s v q)) as [[[[? ?]|] ?]|]; auto.
    + destruct todo as [|w todo]; [auto|]. destruct (a_flag s q w); [destruct (am_ptag true ub _)|]; auto.
    + destruct todo as [|x todo]; [auto|]. destruct (a_flag s q x); auto.
    + destruct w as [|x w]; [auto|]. destruct (take_ack g (a_ack s x q)) as [[? ?]|]; auto.
    + destruct todo; auto.
    + destruct (forallb _ (zrange n)); auto.
  - destruct (is_pe n u && is_pe n q); [|auto]. destruct (Z.eq_dec u t) as [->|Hu]; [rewrite E; auto|].
    assert (HR : forall (st : ast) q g r od, a_cb st t = CbDone -> a_log st t = a_log s t ->
       a_cb (fst (run_cb exec st u q g r od, @nil (aev A D R))) t = CbDone /\ a_log (fst (run_cb exec st u q g r od, @nil (aev A D R))) t = a_log s t).
    { intros st q' g r od E1 E2. cbn [fst]. unfold run_cb.
      destruct (exec _ _ _) as [[? ?]| | |]; [destruct (rq_kind r)|..]; cbn [send_ack set_ack set_cb handled a_cb a_log]; rewrite ?fset_ne by congruence; auto. }
    destruct (a_cb s u) as [|w g r| |w r|]; auto.
    + destruct (take_hdr any (a_comm s q u)) as [[[[g r|g|]|g d] c]|]; auto; cbn zeta.
      * destruct (rq_kind r); [|cbn; rewrite ?fset_ne by congruence; auto|]; apply HR; auto.
      * cbn. rewrite fset_ne by congruence. auto.
      * cbn. rewrite fset_ne by congruence. auto.
    + destruct (take_data g (a_comm s w u)) as [[d c]|]; [|auto]. apply HR; auto.
Qed.
End AmProofs3.
