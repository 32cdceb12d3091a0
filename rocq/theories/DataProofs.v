(** Data arrive before the flag that announces them, and before a barrier returns. *)
From Verif Require Import Base BaseProofs AmCfgModel OrderModel OrderSpec OrderProofs OrderProofs2 OrderProofs3 DataModel DataSpec.

Section DataProofs.
Variable c : oconf.
Variable W : Z -> Z -> opd.
Variable m0 : Z -> Z -> Z.
Notation mstep := (mstep c W).
Notation mrun := (mrun c W).
Notation land := (land W).

Lemma upd3_eq {X} (f : Z -> Z -> nat -> X) p id j x : upd3 f p id j x p id j = x.
Proof. unfold upd3. rewrite !Z.eqb_refl, Nat.eqb_refl. reflexivity. Qed.
Lemma upd3_cases {X} (f : Z -> Z -> nat -> X) p id j x q i k :
  (q = p /\ i = id /\ k = j /\ upd3 f p id j x q i k = x) \/ ((q <> p \/ i <> id \/ k <> j) /\ upd3 f p id j x q i k = f q i k).
Proof.
  unfold upd3. destruct (Z.eqb_spec q p), (Z.eqb_spec i id), (Nat.eqb_spec k j); simpl; tauto.
Qed.

(** ** Which bytes have been transferred *)
Record I (log : list (Z * oev)) (s : mst) : Prop := mkI {
  i_done : forall p id j, In (p, EDone id) log -> (j < o_len (W p id))%nat -> m_land s p id j = true;
  i_land : forall p id j, m_land s p id j = true -> (j < o_len (W p id))%nat /\ issued log p id;
  i_mem : forall t a, (m_mem s t a = m0 t a /\ forall p id b bs j, m_land s p id j = true -> W p id = Wr t b bs -> a <> b + Z.of_nat j) \/
     (exists p id b bs j, m_land s p id j = true /\ W p id = Wr t b bs /\ a = b + Z.of_nat j /\ nth_error bs j = Some (m_mem s t a))
}.

Lemma land_g s p id j : m_g (land s p id j) = m_g s.
Proof. unfold DataModel.land. destruct (m_land s p id j); auto. destruct (W p id); [destruct (nth_error bs j)|destruct (j <? n)%nat]; reflexivity. Qed.
Lemma land_all_g s p id : m_g (land_all W s p id) = m_g s.
Proof.
  unfold land_all. generalize (seq 0 (o_len (W p id))). intros l. revert s. induction l as [|j l IH]; intros s; [reflexivity|].
  simpl. rewrite IH. apply land_g.
Qed.
Lemma land_evs_g ev : forall s, m_g (fold_left (land_ev W) ev s) = m_g s.
Proof.
  induction ev as [|[p e] ev IH]; intros s; [reflexivity|]. simpl. rewrite IH. destruct e; simpl; auto. apply land_all_g.
Qed.

Definition mono (s s' : mst) : Prop := forall p id j, m_land s p id j = true -> m_land s' p id j = true.
Lemma land_mono s p id j : mono s (land s p id j).
Proof.
  intros q i k H. unfold DataModel.land. destruct (m_land s p id j); auto.
  assert (U : upd3 (m_land s) p id j true q i k = true) by (destruct (upd3_cases (m_land s) p id j true q i k) as [(_ & _ & _ & ->)|[_ ->]]; auto).
  destruct (W p id); [destruct (nth_error bs j)|destruct (j <? n)%nat]; auto.
Qed.
Lemma land_here s p id j : (j < o_len (W p id))%nat -> m_land (land s p id j) p id j = true.
Proof.
  intros H. unfold DataModel.land. destruct (m_land s p id j) eqn:E; auto. destruct (W p id) as [t a bs|t a n]; simpl in H.
  - destruct (nth_error bs j) eqn:EN; [simpl; apply upd3_eq|]. apply nth_error_None in EN. lia.
  - destruct (Nat.ltb_spec j n); [simpl; apply upd3_eq|lia].
Qed.
Lemma land_only s p id j q i k : m_land (land s p id j) q i k = true ->
  m_land s q i k = true \/ (q = p /\ i = id /\ k = j /\ (j < o_len (W p id))%nat).
Proof.
  unfold DataModel.land. destruct (m_land s p id j); auto. destruct (W p id) as [t a bs|t a n]; simpl.
  - destruct (nth_error bs j) eqn:EN; auto. simpl. assert (j < length bs)%nat by (apply nth_error_Some; congruence).
    destruct (upd3_cases (m_land s) p id j true q i k) as [(-> & -> & -> & _)|[_ ->]]; auto.
  - destruct (Nat.ltb_spec j n); auto. simpl. destruct (upd3_cases (m_land s) p id j true q i k) as [(-> & -> & -> & _)|[_ ->]]; auto.
Qed.
Lemma land_all_mono s p id : mono s (land_all W s p id).
Proof.
  unfold land_all. generalize (seq 0 (o_len (W p id))). intros l. revert s. induction l as [|j l IH]; intros s q i k H; [exact H|].
  simpl. apply IH. apply land_mono. exact H.
Qed.
Lemma fold_mono p id l : forall s, mono s (fold_left (fun s j => land s p id j) l s).
Proof. induction l as [|j l IH]; intros s q i k H; [exact H|]. simpl. apply IH. apply land_mono. exact H. Qed.
Lemma land_all_here s p id j : (j < o_len (W p id))%nat -> m_land (land_all W s p id) p id j = true.
Proof.
  intros H. unfold land_all. assert (HI : In j (seq 0 (o_len (W p id)))) by (apply in_seq; lia). revert s HI.
  generalize (seq 0 (o_len (W p id))) as l. induction l as [|k l IH]; intros s HI; [destruct HI|]. simpl. destruct HI as [->|HI]; [|apply IH; exact HI].
  apply fold_mono. apply land_here. exact H.
Qed.

(** [I] without the first clause, kept by each transfer. *)
Definition I2 (log : list (Z * oev)) (s : mst) : Prop :=
  (forall p id j, m_land s p id j = true -> (j < o_len (W p id))%nat /\ issued log p id) /\
  (forall t a, (m_mem s t a = m0 t a /\ forall p id b bs j, m_land s p id j = true -> W p id = Wr t b bs -> a <> b + Z.of_nat j) \/
     (exists p id b bs j, m_land s p id j = true /\ W p id = Wr t b bs /\ a = b + Z.of_nat j /\ nth_error bs j = Some (m_mem s t a))).
Lemma land_I2 log s p id j : I2 log s -> issued log p id -> I2 log (land s p id j).
Proof.
  intros [H1 H2] HI. split.
  - intros q i k H. apply land_only in H. destruct H as [H|(-> & -> & -> & H)]; auto.
  - intros t a. pose proof (land_only s p id j) as LO. pose proof (land_mono s p id j) as LM. revert LO LM.
    unfold DataModel.land. destruct (m_land s p id j) eqn:EL; [intros _ _; apply H2|].
    destruct (W p id) as [t1 a1 bs|t1 a1 n] eqn:EW; simpl.
    + destruct (nth_error bs j) as [v|] eqn:EN; [|intros _ _; apply H2]. simpl. intros LO LM. unfold wr.
      destruct (Z.eqb_spec t t1) as [->|Ht]; [destruct (Z.eqb_spec a (a1 + Z.of_nat j)) as [->|Ha]|]; simpl.
      * right. exists p, id, a1, bs, j. rewrite upd3_eq. auto.
      * destruct (H2 t1 a) as [[M1 M2]|(q & i & b & bs' & k & M1 & M2)]; [left|right; exists q, i, b, bs', k; split; [apply LM; exact M1|exact M2]].
        split; [exact M1|]. intros q i b bs' k HL HW. destruct (LO _ _ _ HL) as [F|(-> & -> & -> & _)]; [eapply M2; eauto|].
        rewrite EW in HW. injection HW as <- <-. exact Ha.
      * destruct (H2 t a) as [[M1 M2]|(q & i & b & bs' & k & M1 & M2)]; [left|right; exists q, i, b, bs', k; split; [apply LM; exact M1|exact M2]].
        split; [exact M1|]. intros q i b bs' k HL HW. destruct (LO _ _ _ HL) as [F|(-> & -> & -> & _)]; [eapply M2; eauto|].
        rewrite EW in HW. congruence.
    + destruct (j <? n)%nat; [|intros _ _; apply H2]. simpl. intros LO LM.
      destruct (H2 t a) as [[M1 M2]|(q & i & b & bs' & k & M1 & M2)]; [left|right; exists q, i, b, bs', k; split; [apply LM; exact M1|exact M2]].
      split; [exact M1|]. intros q i b bs' k HL HW. destruct (LO _ _ _ HL) as [F|(-> & -> & -> & _)]; [eapply M2; eauto|].
      rewrite EW in HW. discriminate.
Qed.
Lemma land_all_I2 log s p id : I2 log s -> issued log p id -> I2 log (land_all W s p id).
Proof.
  intros H HI. unfold land_all. generalize (seq 0 (o_len (W p id))). intros l. revert s H. induction l as [|j l IH]; intros s H; [exact H|].
  simpl. apply IH. apply land_I2; assumption.
Qed.

Lemma issued_app log ev p id : issued log p id -> issued (log ++ ev) p id.
Proof. intros (i & x & o & k & t & dev & H). exists i, x, o, k, t, dev. apply in_or_app. left; exact H. Qed.
Lemma I2_log log ev s : I2 log s -> I2 (log ++ ev) s.
Proof. intros [H1 H2]. split; [|exact H2]. intros p id j H. destruct (H1 p id j H) as [F1 F2]. split; [exact F1|apply issued_app; exact F2]. Qed.

(** [ginv] with one thread each. *)
Lemma glabs_one ls l : single ls -> In (ML l) ls -> one_thread_each [l].
Proof. intros H HI lb [<-|[]]. specialize (H _ HI). destruct l; auto. Qed.

Lemma issued_of log g p id : ginv c g log ->
  (In (p, EDone id) log \/ exists x, In x (o_pend (g p)) /\ pd_id x = id) -> issued log p id.
Proof.
  intros [G _] H. destruct (G p) as (lq & _ & R). destruct (run_invS c _ _ _ _ _ R invS_init) as (_ & _ & _ & S1 & S2).
  assert (X : exists j cl, In (EStart j cl) (plog p log) /\ cl_id cl = Some id).
  { destruct H as [H|(x & H & <-)]; [apply S2; apply in_plog; exact H|apply S1; exact H]. }
  destruct X as (j & cl & X1 & X2). destruct cl as [x o k i t dev| | | | | | |]; try discriminate. injection X2 as ->.
  exists j, x, o, k, t, dev. apply plog_in. exact X1.
Qed.

Lemma evs_I2 log ev : forall s, I2 log s -> (forall p id, In (p, EDone id) ev -> issued log p id) ->
  I2 log (fold_left (land_ev W) ev s).
Proof.
  induction ev as [|[p e] ev IH]; intros s H HD; [exact H|]. simpl. apply IH; [|intros q i HI; apply HD; right; exact HI].
  destruct e; simpl; auto. apply land_all_I2; [exact H|]. apply HD. left; reflexivity.
Qed.
Lemma evs_mono ev : forall s, mono s (fold_left (land_ev W) ev s).
Proof.
  induction ev as [|[p e] ev IH]; intros s q i k H; [exact H|]. simpl. apply IH. destruct e; simpl; auto. apply land_all_mono. exact H.
Qed.
Lemma evs_done ev p id j : In (p, EDone id) ev -> (j < o_len (W p id))%nat -> forall s, m_land (fold_left (land_ev W) ev s) p id j = true.
Proof.
  induction ev as [|[q e] ev IH]; intros HI HJ s; [destruct HI|]. simpl. destruct HI as [E|HI]; [|apply IH; assumption].
  injection E as -> ->. apply evs_mono. simpl. apply land_all_here. exact HJ.
Qed.

Lemma mstep_I log s lb s' ev : single [lb] -> mstep s lb = Ok (s', ev) -> ginv c (m_g s) log -> I log s ->
  ginv c (m_g s') (log ++ ev) /\ I (log ++ ev) s' /\ mono s s'.
Proof.
  intros SG E G H. destruct lb as [l|p id j]; simpl in E.
  - destruct (call_ok W l); [|injection E as <- <-; rewrite app_nil_r; split; [exact G|split; [exact H|intros ? ? ? F; exact F]]].
    destruct (gstep c (m_g s) l) as [[g' e']| | |] eqn:EG; simpl in E; try discriminate. injection E as <- <-.
    rewrite land_evs_g. cbn [m_g].
    assert (G' : ginv c g' (log ++ e')) by (eapply gstep_ginv; [|exact EG|exact G]; eapply glabs_one; [exact SG|left; reflexivity]).
    split; [exact G'|]. destruct H as [D L M].
    assert (X : I2 (log ++ e') (fold_left (land_ev W) e' (mkMst g' (m_mem s) (m_land s) (m_res s)))).
    { apply evs_I2; [|intros p id HI; apply (issued_of _ _ _ _ G'); left; apply in_or_app; right; exact HI].
      apply I2_log. split; [exact L|exact M]. }
    split; [|intros q i k F; apply evs_mono; exact F].
    destruct X as [X1 X2]. constructor; [|exact X1|exact X2].
    intros p id j HI HJ. apply in_app_or in HI. destruct HI as [HI|HI]; [|apply evs_done; assumption].
    apply evs_mono. simpl. auto.
  - injection E as <- <-. rewrite app_nil_r. destruct (existsb (fun x => pd_id x =? id) (o_pend (m_g s p))) eqn:EX;
      [|split; [exact G|split; [exact H|intros ? ? ? F; exact F]]].
    rewrite land_g. split; [exact G|]. split; [|apply land_mono]. destruct H as [D L M].
    assert (HI : issued log p id).
    { apply (issued_of _ _ _ _ G). right. apply existsb_exists in EX. destruct EX as (x & X1 & X2). exists x. split; [exact X1|lia]. }
    destruct (land_I2 log s p id j (conj L M) HI) as [X1 X2]. constructor; [|exact X1|exact X2].
    intros q i k F1 F2. apply land_mono. auto.
Qed.
Lemma I_init : I [] (m_init m0).
Proof. constructor; simpl; try discriminate; [intros p id j []|]. intros t a. left. split; [reflexivity|]. discriminate. Qed.
Lemma mrun_I ls : forall log0 s s' log, single ls -> mrun s ls = Ok (s', log) -> ginv c (m_g s) log0 -> I log0 s ->
  ginv c (m_g s') (log0 ++ log) /\ I (log0 ++ log) s'.
Proof.
  induction ls as [|lb ls IH]; intros log0 s s' log SG E G H; simpl in E; [injection E as <- <-; rewrite app_nil_r; auto|].
  destruct (mstep s lb) as [[s1 e1]| | |] eqn:E1; simpl in E; try discriminate.
  destruct (mrun s1 ls) as [[s2 e2]| | |] eqn:E2; simpl in E; try discriminate. injection E as <- <-.
  destruct (mstep_I _ _ _ _ _ ltac:(intros x [<-|[]]; apply SG; left; reflexivity) E1 G H) as (G1 & H1 & _).
  rewrite app_assoc. eapply IH; eauto. intros x Hx. apply SG. right; exact Hx.
Qed.
Lemma mrun_from_init ls s log : single ls -> mrun (m_init m0) ls = Ok (s, log) -> ginv c (m_g s) log /\ I log s.
Proof. intros SG E. apply (mrun_I ls [] _ _ _ SG E); [apply ginv_init|apply I_init]. Qed.

(** A byte that only one operation writes, when that operation is complete. *)
Lemma done_value log s p id t a v : I log s -> In (p, EDone id) log -> writes (W p id) t a v -> only_writer W log t a p id ->
  m_mem s t a = v.
Proof.
  intros [D L M] HD (b & bs & j & EW & -> & EN) OW.
  assert (LJ : m_land s p id j = true).
  { apply D; [exact HD|]. rewrite EW. simpl. apply nth_error_Some. congruence. }
  destruct (M t (b + Z.of_nat j)) as [[_ F]|(q & i & b' & bs' & k & F1 & F2 & F3 & F4)]; [destruct (F _ _ _ _ _ LJ EW eq_refl)|].
  assert (q = p /\ i = id) as [-> ->].
  { destruct (L _ _ _ F1) as [_ F5]. apply (OW q i (m_mem s t (b + Z.of_nat j)) F5). exists b', bs', k. auto. }
  rewrite EW in F2. injection F2 as <- <-. assert (j = k) by lia. subst k. congruence.
Qed.
(** A byte that has changed: its writer has been started. *)
Lemma changed_issued log s p id t a : I log s -> m_mem s t a <> m0 t a -> only_writer W log t a p id -> issued log p id.
Proof.
  intros [D L M] HC OW. destruct (M t a) as [[F _]|(q & i & b & bs & k & F1 & F2 & F3 & F4)]; [contradiction|].
  destruct (L _ _ _ F1) as [_ F5]. destruct (OW q i (m_mem s t a) F5) as [-> ->]; [exists b, bs, k; auto|exact F5].
Qed.

Lemma message ls s log p a f t A v tf F : single ls -> mrun (m_init m0) ls = Ok (s, log) ->
  fenced (oc_n c) (plog p log) a f ->
  only_writer W log tf F p f -> writes (W p a) t A v -> only_writer W log t A p a ->
  m_mem s tf F <> m0 tf F -> m_mem s t A = v.
Proof.
  intros SG E FE OF HW OA HC.
  destruct (mrun_from_init _ _ _ SG E) as [G H]. destruct (changed_issued _ _ _ _ _ _ H HC OF) as (i & x & o & k & t1 & dev & HI).
  apply in_plog in HI. destruct (in_split _ _ HI) as (u & w & EU).
  destruct (FE _ _ _ _ _ _ _ _ EU) as (l1 & l2 & l3 & cf & -> & HQ & HN & (j & x' & o' & k' & t' & dev' & HR & HT)).
  apply (done_value log s p a t A v H); auto. apply plog_in. destruct G as [G _]. destruct (G p) as (lq & O & R).
  rewrite <- app_assoc in EU. simpl in EU. rewrite <- app_assoc in EU. simpl in EU.
  pose proof (quiet_one_thread c lq _ _ O R l1 l2 _ 0 cf EU HQ HN j _ a HR) as Q.
  specialize (Q ltac:(exists x', o', k', t', dev'; auto)). rewrite EU. apply in_app_or in Q. apply in_or_app. destruct Q as [Q|Q]; [left; exact Q|].
  right. right. apply in_or_app. left; exact Q.
Qed.

(** ** Barriers *)
Lemma mrun_grun ls : forall s s' log, mrun s ls = Ok (s', log) -> exists gls, grun c (m_g s) gls = Ok (m_g s', log) /\
  forall l, In l gls -> In (ML l) ls.
Proof.
  induction ls as [|lb ls IH]; intros s s' log E; simpl in E; [injection E as <- <-; exists []; split; [reflexivity|intros l []]|].
  destruct (mstep s lb) as [[s1 e1]| | |] eqn:E1; simpl in E; try discriminate.
  destruct (mrun s1 ls) as [[s2 e2]| | |] eqn:E2; simpl in E; try discriminate. injection E as <- <-.
  destruct (IH _ _ _ E2) as (gls & R & HI). destruct lb as [l|p id j]; simpl in E1.
  - destruct (call_ok W l); [|injection E1 as <- <-; exists gls; split; [exact R|intros x Hx; right; auto]].
    destruct (gstep c (m_g s) l) as [[g' e']| | |] eqn:EG; simpl in E1; try discriminate. injection E1 as <- <-.
    rewrite land_evs_g in R. cbn [m_g] in R. exists (l :: gls). split; [|intros x [<-|Hx]; [left; reflexivity|right; auto]].
    simpl. rewrite EG. simpl. rewrite R. reflexivity.
  - injection E1 as <- <-. exists gls. split; [|intros x Hx; right; auto]. simpl in *.
    destruct (existsb _ _); [rewrite land_g in R|]; exact R.
Qed.
Lemma single_g ls gls : single ls -> (forall l, In l gls -> In (ML l) ls) -> one_thread_each gls.
Proof. intros S H l Hl. specialize (S _ (H l Hl)). destruct l; auto. Qed.

Lemma barrier_data ls s log b p q l1 a r j x o k t dev v A l2 : single ls -> mrun (m_init m0) ls = Ok (s, log) ->
  log = l1 ++ (p, ERet 0 (CBarrier b)) :: l2 -> In q (members b) ->
  l1 = a ++ (q, EStart 0 (CBarrier b)) :: r -> starts q b a = starts p b l1 - 1 ->
  In (q, ERet 0 (CRma XDefault o k x t dev)) a -> (oc_dyn c = true \/ o = OHeap \/ o = OData) -> In t (members b) \/ by_window c k ->
  writes (W q x) j A v -> only_writer W log j A q x -> m_mem s j A = v.
Proof.
  intros SG E EL HQ E1 ES HR HO HT HW OW. destruct (mrun_from_init _ _ _ SG E) as [G H].
  destruct (mrun_grun _ _ _ _ E) as (gls & R & HI).
  destruct (barrier_completes_ok c gls _ _ b (single_g _ _ SG HI) R l1 p 0 l2 EL q HQ) as [_ B].
  apply (done_value log s q x j A v H); auto. rewrite EL. apply in_or_app. left.
  apply (B a 0 r E1 ES 0 _ x HR). exists o, k, t, dev. auto.
Qed.

(** ** Gets *)
Lemma done_issued log s l g' ev p id : gstep c (m_g s) l = Ok (g', ev) -> one_thread_each [l] -> ginv c (m_g s) log ->
  In (p, EDone id) ev -> issued log p id.
Proof.
  intros EG O G HI. pose proof (gstep_ginv _ _ _ _ _ _ O EG G) as G'.
  assert (X : issued (log ++ ev) p id) by (apply (issued_of _ _ _ _ G'); left; apply in_or_app; right; exact HI).
  destruct X as (i & x & o & k & t & dev & X). exists i, x, o, k, t, dev. apply in_app_or in X. destruct X as [X|X]; [exact X|exfalso].
  destruct (gstep_inv _ _ _ _ _ EG) as (q & lb & s1 & e1 & ES & _ & -> & _).
  apply in_map_iff in HI. destruct HI as (e & E1 & HI). injection E1 as -> ->.
  apply in_map_iff in X. destruct X as (e' & E2 & X). injection E2 as ->.
  destruct (step_ev c _ _ _ _ ES) as [(j & cl & -> & _)|[(j & cl & r & -> & _)|F]].
  - destruct HI as [F|[]]; discriminate.
  - destruct HI as [F|[]]; discriminate.
  - destruct (F _ X). discriminate.
Qed.

(** What a get has read was in memory at some time after its start. *)
Definition R (log : list (Z * oev)) (s : mst) : Prop :=
  forall q g t b n j, W q g = Rd t b n -> m_land s q g j = true ->
  exists L L' s1, log = L ++ L' /\ I L s1 /\ issued L q g /\ m_res s q g j = m_mem s1 t (b + Z.of_nat j).

Lemma land_I log s p id j : I log s -> issued log p id -> I log (land s p id j).
Proof.
  intros [D L M] HI. destruct (land_I2 log s p id j (conj L M) HI) as [X1 X2]. constructor; [|exact X1|exact X2].
  intros q i k F1 F2. apply land_mono. auto.
Qed.
Lemma land_R log s p id j : I log s -> issued log p id -> R log s -> R log (land s p id j).
Proof.
  intros HI HS HR q g t b n k EW HL.
  assert (K : m_land s q g k = true -> (q <> p \/ g <> id \/ k <> j) \/ m_land s p id j = true).
  { intros F. destruct (Z.eq_dec q p) as [->|]; [|tauto]. destruct (Z.eq_dec g id) as [->|]; [|tauto]. destruct (Nat.eq_dec k j) as [->|]; tauto. }
  destruct (land_only _ _ _ _ _ _ _ HL) as [F|(-> & -> & -> & F)].
  - destruct (HR q g t b n k EW F) as (L & L' & s1 & H1 & H2 & H3 & H4). exists L, L', s1. split; [exact H1|]. split; [exact H2|]. split; [exact H3|].
    rewrite <- H4. unfold DataModel.land. destruct (m_land s p id j) eqn:EL; [reflexivity|].
    destruct (K F) as [F1|F1]; [|discriminate].
    destruct (W p id); [destruct (nth_error bs j); reflexivity|destruct (j <? n0)%nat; [|reflexivity]]. simpl.
    destruct (upd3_cases (m_res s) p id j (m_mem s t0 (a + Z.of_nat j)) q g k) as [(-> & -> & -> & _)|[_ ->]]; [|reflexivity].
    destruct F1 as [F1|[F1|F1]]; contradiction.
  - destruct (m_land s p id j) eqn:EL; [destruct (HR p id t b n j EW EL) as (L & L' & s1 & H1 & H2 & H3 & H4);
      exists L, L', s1; unfold DataModel.land; rewrite EL; auto|].
    exists log, [], s. rewrite app_nil_r. split; [reflexivity|]. split; [exact HI|]. split; [exact HS|].
    unfold DataModel.land. rewrite EL, EW. rewrite EW in F. simpl in F. destruct (Nat.ltb_spec j n); [|lia]. simpl. apply upd3_eq.
Qed.
Lemma land_all_R log s p id : I log s -> issued log p id -> R log s -> I log (land_all W s p id) /\ R log (land_all W s p id).
Proof.
  intros HI HS. unfold land_all. generalize (seq 0 (o_len (W p id))). intros l. revert s HI.
  induction l as [|j l IH]; intros s HI HR; [auto|]. simpl. apply IH; [apply land_I|apply land_R]; assumption.
Qed.
Lemma evs_R log ev : forall s, I log s -> R log s -> (forall p id, In (p, EDone id) ev -> issued log p id) ->
  R log (fold_left (land_ev W) ev s).
Proof.
  induction ev as [|[p e] ev IH]; intros s HI HR HD; [exact HR|]. simpl.
  assert (X : I log (land_ev W s (p, e)) /\ R log (land_ev W s (p, e))).
  { destruct e; simpl; auto. apply land_all_R; auto. apply HD. left; reflexivity. }
  destruct X. apply IH; auto. intros q i F. apply HD. right; exact F.
Qed.
Lemma R_log log ev s : R log s -> R (log ++ ev) s.
Proof.
  intros H q g t b n j EW HL. destruct (H q g t b n j EW HL) as (L & L' & s1 & -> & H1). exists L, (L' ++ ev), s1.
  rewrite app_assoc. auto.
Qed.
Lemma mstep_R log s lb s' ev : single [lb] -> mstep s lb = Ok (s', ev) -> ginv c (m_g s) log -> I log s -> R log s -> R (log ++ ev) s'.
Proof.
  intros SG E G H HR. apply R_log. destruct lb as [l|p id j]; simpl in E.
  - destruct (call_ok W l); [|injection E as <- <-; exact HR].
    destruct (gstep c (m_g s) l) as [[g' e']| | |] eqn:EG; simpl in E; try discriminate. injection E as <- <-.
    apply evs_R.
    + destruct H. constructor; assumption.
    + exact HR.
    + intros p id HI. eapply done_issued; eauto. eapply glabs_one; [exact SG|left; reflexivity].
  - injection E as <- <-. destruct (existsb (fun x => pd_id x =? id) (o_pend (m_g s p))) eqn:EX; [|exact HR].
    apply land_R; auto. apply (issued_of _ _ _ _ G). right. apply existsb_exists in EX. destruct EX as (x & X1 & X2). exists x. split; [exact X1|lia].
Qed.
Lemma mrun_R ls : forall log0 s s' log, single ls -> mrun s ls = Ok (s', log) -> ginv c (m_g s) log0 -> I log0 s -> R log0 s -> R (log0 ++ log) s'.
Proof.
  induction ls as [|lb ls IH]; intros log0 s s' log SG E G H HR; simpl in E; [injection E as <- <-; rewrite app_nil_r; auto|].
  destruct (mstep s lb) as [[s1 e1]| | |] eqn:E1; simpl in E; try discriminate.
  destruct (mrun s1 ls) as [[s2 e2]| | |] eqn:E2; simpl in E; try discriminate. injection E as <- <-.
  assert (SG1 : single [lb]) by (intros x [<-|[]]; apply SG; left; reflexivity).
  destruct (mstep_I _ _ _ _ _ SG1 E1 G H) as (G1 & H1 & _). pose proof (mstep_R _ _ _ _ _ SG1 E1 G H HR) as R1.
  rewrite app_assoc. eapply IH; eauto. intros x Hx. apply SG. right; exact Hx.
Qed.

Lemma prefix_longer {X} (l1 l2 L L' : list X) x : l1 ++ x :: l2 = L ++ L' -> (exists r, L = l1 ++ r) \/ (exists r, l1 = L ++ r).
Proof.
  revert L. induction l1 as [|y l1 IH]; intros L E; [left; exists L; reflexivity|].
  destruct L as [|z L]; [right; exists (y :: l1); reflexivity|]. simpl in E. injection E as <- E.
  destruct (IH L E) as [(r & ->)|(r & ->)]; [left|right]; exists r; reflexivity.
Qed.

Lemma get_data ls s log p a q g t b n j v L1 i x o k t' dev L2 : single ls -> mrun (m_init m0) ls = Ok (s, log) ->
  log = L1 ++ (q, EStart i (CRma x o k g t' dev)) :: L2 -> In (p, EDone a) L1 -> ~ issued L1 q g ->
  W q g = Rd t b n -> (j < n)%nat -> writes (W p a) t (b + Z.of_nat j) v -> only_writer W log t (b + Z.of_nat j) p a ->
  In (q, EDone g) log -> m_res s q g j = v.
Proof.
  intros SG E EL HD HF EW HJ HW OW HG. destruct (mrun_from_init _ _ _ SG E) as [_ [D _ _]].
  assert (RR : R log s).
  { apply (mrun_R ls [] _ _ _ SG E); [apply ginv_init|apply I_init|]. intros ? ? ? ? ? ? _ F. discriminate. }
  assert (LJ : m_land s q g j = true) by (apply D; [exact HG|rewrite EW; exact HJ]).
  destruct (RR _ _ _ _ _ _ EW LJ) as (L & L' & s1 & E1 & H1 & H2 & ->). rewrite EL in E1.
  destruct (prefix_longer _ _ _ _ _ E1) as [(r & ->)|(r & ->)].
  - apply (done_value (L1 ++ r) s1 p a t _ v H1); auto; [apply in_or_app; left; exact HD|].
    intros q' i' v' F. apply OW. rewrite EL, E1. destruct F as (i1 & x1 & o1 & k1 & t1 & dev1 & F).
    exists i1, x1, o1, k1, t1, dev1. apply in_or_app. left; exact F.
  - exfalso. apply HF. apply issued_app. exact H2.
Qed.
End DataProofs.
