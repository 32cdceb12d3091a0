(** Liveness of active messages, continued: some actor can always go on, and fair schedules. *)
From Verif Require Import Base BaseProofs ListLib LockModel LockProofs AmModel AmSpec AmProofs AmProofs2 AmProofs3
  AmLiveSpec AmLiveProofs AmLiveProofs2.

Section AmLiveProofs3.
Variables A D M R : Type.
Variable exec : A -> option D -> M -> outcome (M * R).
Variable ub : Z.
Variable n : Z.
Variable m0 : Z -> M.
Hypothesis ub_int : ub <= INT_MAX.
Notation req := (req A D).
Notation msg := (msg A D).
Notation amsg := (amsg A D R).
Notation tst := (tst A D R).
Notation ast := (ast A D M R).
Notation label := (label A D).
Notation step := (step exec ub n).
Notation run := (run exec ub n).
Notation at_time := (at_time exec ub n).
Notation fair := (fair exec ub n).
Notation all_effective := (all_effective exec ub n).
Notation inv := (inv A D M R exec m0).
Notation waiton := (waiton A D R).
Notation infl := (infl A D R).
Notation xw := (xw A D M R).
Notation aborted := (aborted A D).
Notation G := (G A D M R n).
Notation sup := (sup A D M R).
Notation mu := (mu A D M R n).
Notation wt := (wt A D R).
Notation wc := (wc A D).
Notation pe := (is_pe n).

Lemma take_data_in g d (c : list msg) : In (MD g d) c -> exists y, take_data g c = Some y.
Proof.
  induction c as [|[h|g2 d2] c IH]; intros HI; [destruct HI| |]; simpl.
  - destruct HI as [HI|HI]; [discriminate|]. destruct (IH HI) as ([x r] & ->). eauto.
  - destruct (Z.eqb_spec g2 g) as [E|E]; [eauto|]. destruct HI as [HI|HI]; [congruence|].
    destruct (IH HI) as ([x r] & ->). eauto.
Qed.
Lemma scan_open S0 c S g d : scan A D S0 c S -> In (g, d) S0 -> In (g, d) S \/ In (MD g d) c.
Proof.
  intros H. induction H as [S|g1 r d1 S c S' K E H IH|g1 r S c S' K H IH|g1 S c S' H IH|S c S' H IH|g1 d1 S1 S2 c S' H IH]; intros HI.
  - left; exact HI.
  - destruct IH as [F|F]; [right; exact HI|left; exact F|right; right; exact F].
  - destruct (IH HI); [left; assumption|right; right; assumption].
  - destruct (IH HI); [left; assumption|right; right; assumption].
  - destruct (IH HI); [left; assumption|right; right; assumption].
  - apply in_app_or in HI. destruct HI as [HI|[HI|HI]].
    + destruct IH as [F|F]; [apply in_or_app; left; exact HI|left; exact F|right; right; exact F].
    + injection HI as -> ->. right; left; reflexivity.
    + destruct IH as [F|F]; [apply in_or_app; right; exact HI|left; exact F|right; right; exact F].
Qed.
Lemma take_ack_in g (k : list amsg) y : In (g, y) k -> exists z, take_ack g k = Some z.
Proof.
  induction k as [|[g' x] k IH]; intros HI; [destruct HI|]. simpl. destruct (Z.eqb_spec g' g) as [E|E]; [eauto|].
  destruct HI as [HI|HI]; [congruence|]. destruct (IH HI) as ([a b] & ->). eauto.
Qed.
Lemma infl_take k g o : infl [] k (g, o) -> exists z, take_ack g k = Some z.
Proof.
  intros [(m & [] & _)|([g' y] & Ha & H)]. apply (take_ack_in g k y).
  replace g with g'; [exact Ha|]. destruct y as [[r x]|]; simpl in H; congruence.
Qed.

Lemma thr_ne (s s' : ast) (e : list (aev A D R)) p i x : a_thr s' p i = x -> wt x <> wt (a_thr s p i) -> (s', e) <> (s, []).
Proof. intros E H F. injection F as -> _. congruence. Qed.
Ltac thr_changes p i ET := eapply (thr_ne _ _ _ p i); [simpl; apply fset2_eq|rewrite ET; simpl; rewrite ?app_length; simpl; lia].

Lemma cb_comm s t p any : pe t = true -> pe p = true -> a_cb s t = CbIdle ->
  forall h c, a_comm s p t = MH h :: c -> step s (LCb t p any) <> (s, []).
Proof.
  intros Ht Hp EC h c EM F. apply (f_equal (fun z => wc (a_comm (fst z) p t))) in F. simpl in F.
  rewrite Ht, Hp, EC, EM in F. simpl in F.
  assert (W : (wc (MH h :: c) = wc c + wm A D (MH h))%nat) by (unfold AmLiveProofs2.wc; simpl; lia).
  assert (W1 : (0 < wm A D (MH h))%nat) by (destruct h as [g r| |]; simpl; [destruct (rq_kind r)| |]; lia).
  assert (X : forall r od g, a_comm (run_cb exec (set_comm s p t c) t p g r od) p t = c).
  { intros r od g. unfold run_cb. simpl. destruct (exec _ _ _) as [[m x]| | |]; [destruct (rq_kind r)| | |]; simpl; apply fset2_eq. }
  destruct h as [g r|g|]; [destruct (rq_kind r) eqn:EK| |]; simpl in F; rewrite ?X, ?fset2_eq in F; lia.
Qed.
Lemma cb_data s t q g r any p : pe t = true -> pe p = true -> a_cb s t = CbRecv q g r ->
  forall y, take_data g (a_comm s q t) = Some y -> step s (LCb t p any) <> (s, []).
Proof.
  intros Ht Hp EC [d c] ED F. apply (f_equal (fun z => wc (a_comm (fst z) q t))) in F. simpl in F.
  rewrite Ht, Hp, EC, ED in F. simpl in F.
  assert (X : forall od, a_comm (run_cb exec (set_comm s q t c) t q g r od) q t = c).
  { intros od. unfold run_cb. simpl. destruct (exec _ _ _) as [[m x]| | |]; [destruct (rq_kind r)| | |]; simpl; apply fset2_eq. }
  rewrite X in F. apply (wc_data A D M m0) in ED. lia.
Qed.

(** Some actor can go on while a thread is inside a call. *)
Lemma progress s p i : inv s -> xw s -> G s -> (forall t, pe t = true -> ~ aborted (a_cb s t)) ->
  in_call (a_thr s p i) = true ->
  exists l, internal l /\ ~ held s l /\ ~ in_handler s l /\ forall l', same_actor l l' -> step s l' <> (s, []).
Proof.
  intros I X H NA HC.
  destruct (existsb (fun t => match a_cb s t with CbRecv _ _ _ => true | _ => false end) (zrange n)) eqn:E1.
  { apply existsb_exists in E1. destruct E1 as (t & Ht & E). apply pe_in in Ht.
    destruct (a_cb s t) as [|q g r| | |] eqn:EC; try discriminate.
    destruct (g_cb _ _ _ _ _ s H t) as [_ F]. destruct (F _ _ _ EC) as [Hq _]. clear F.
    pose proof (in_p _ _ _ _ _ _ s I q t) as []. rewrite EC in pi_cb, pi_scan. simpl in pi_cb, pi_scan. rewrite Z.eqb_refl in pi_cb, pi_scan.
    destruct (pi_cb g r eq_refl) as [EK EO]. unfold req_ok in EO. rewrite EK in EO.
    destruct pi_scan as (S & HS & _ & HD). simpl in HS. destruct (rq_data r) as [d|] eqn:ED; [|discriminate].
    destruct (scan_open _ _ _ g d HS (or_introl eq_refl)) as [HI|HI].
    - apply HD in HI. destruct HI as (j & Hj). unfold dat in Hj.
      destruct (a_thr s q j) as [| |t' g' r'| | | | | | | | |] eqn:ET; try discriminate.
      destruct (Z.eqb_spec t' t) as [Htt|_]; [|discriminate]. subst t'.
      destruct (rq_data r') as [d'|] eqn:ED'; [|discriminate]. injection Hj as -> ->.
      exists (LGo q j). split; [exact Logic.I|]. split; [unfold held; rewrite ET; tauto|].
      split; [intros [_ F]; exact (F _ _ _ ET)|].
      intros [| | |q' j'|] HA; try (destruct HA; fail). destruct HA as [<- <-].
      simpl. rewrite Hq, ET, ED'. thr_changes q j ET.
    - apply take_data_in in HI. destruct HI as (y & HY).
      exists (LCb t q true). split; [exact Logic.I|]. split; [simpl; tauto|]. split; [simpl; tauto|].
      intros [| | | |t' q' any'] HA; try (destruct HA; fail). destruct HA as [<- <-]. eapply cb_data; eauto. }
  destruct (existsb (fun q => existsb (fun t => match a_comm s q t with [] => false | _ => true end) (zrange n)) (zrange n)) eqn:E2.
  { apply existsb_exists in E2. destruct E2 as (q & Hq & E). apply existsb_exists in E. destruct E as (t & Ht & E).
    apply pe_in in Hq. apply pe_in in Ht. destruct (a_comm s q t) as [|m c] eqn:EM; [discriminate|].
    assert (EC : a_cb s t = CbIdle).
    { destruct (a_cb s t) as [|q' g r| |q' r|] eqn:EC; [reflexivity| | | |].
      - assert (existsb (fun t => match a_cb s t with CbRecv _ _ _ => true | _ => false end) (zrange n) = true); [|congruence].
        apply existsb_exists. exists t. split; [apply pe_in; exact Ht|]. rewrite EC. reflexivity.
      - destruct (g_cb _ _ _ _ _ s H t) as [F _]. congruence.
      - exfalso. apply (NA t Ht). rewrite EC. exists q', r. reflexivity.
      - exfalso. apply (in_bad _ _ _ _ _ _ s I t). exact EC. }
    pose proof (in_p _ _ _ _ _ _ s I q t) as []. rewrite EC, EM in pi_scan. simpl in pi_scan. destruct pi_scan as (S & HS & _).
    destruct m as [h|g d].
    - exists (LCb t q true). split; [exact Logic.I|]. split; [simpl; tauto|]. split; [simpl; tauto|].
      intros [| | | |t' q' any'] HA; try (destruct HA; fail). destruct HA as [<- <-]. eapply cb_comm; eauto.
    - exfalso. inversion HS as [| | | | |g1 d1 S1 S2 c1 S' HS1]. destruct S1; discriminate. }
  assert (EMP : forall q t, a_comm s q t = []).
  { intros q t. destruct (a_comm s q t) as [|m c] eqn:EM; [reflexivity|]. exfalso.
    destruct (g_comm _ _ _ _ _ s H q t m) as (Hq & Ht & _); [rewrite EM; left; reflexivity|].
    assert (existsb (fun q => existsb (fun t => match a_comm s q t with [] => false | _ => true end) (zrange n)) (zrange n) = true); [|congruence].
    apply existsb_exists. exists q. split; [apply pe_in; exact Hq|]. apply existsb_exists. exists t. split; [apply pe_in; exact Ht|].
    rewrite EM. reflexivity. }
  assert (NI : a_thr s p i <> TIdle) by (intros F; rewrite F in HC; discriminate).
  destruct (g_thr _ _ _ _ _ s H p i NI) as (Hp & HT & _).
  assert (WA : forall t g o, pe t = true -> waiton (a_thr s p i) t = Some (g, o) -> exists z, take_ack g (a_ack s t p) = Some z).
  { intros t g o Ht HW. destruct (X p i t _ HW) as [F|F]; [|exfalso; apply (NA t Ht F)]. rewrite EMP in F. eapply infl_take; eauto. }
  exists (LGo p i). split; [exact Logic.I|]. split.
  { unfold held. destruct (a_thr s p i); try tauto. rewrite EMP. congruence. }
  split.
  { intros [(q & g & r & F) _].
    assert (existsb (fun t => match a_cb s t with CbRecv _ _ _ => true | _ => false end) (zrange n) = true); [|congruence].
    apply existsb_exists. exists p. split; [apply pe_in; exact Hp|]. rewrite F. reflexivity. }
  intros [| | |p' i'|] HA; try (destruct HA; fail). destruct HA as [<- <-].
  pose proof (in_t _ _ _ _ _ _ s I p) as []. specialize (ti_ok i).
  simpl. rewrite Hp.
  destruct (a_thr s p i) as [|t g r|t g r|t g r|t v r x|todo ps|todo g w ps|w g ps|todo ps| | |] eqn:ET; try discriminate; simpl in HT, ti_ok.
  - destruct (rq_kind r); thr_changes p i ET.
  - destruct ti_ok as [EO EK]. unfold req_ok in EO. rewrite EK in EO. destruct (rq_data r) as [d|]; [|discriminate].
    thr_changes p i ET.
  - destruct (WA t g (Some r) HT) as ([y c] & ->); [simpl; rewrite Z.eqb_refl; reflexivity|].
    destruct y as [[r' x]|]; thr_changes p i ET.
  - destruct todo as [|t rest]; [|destruct (a_flag s p t); [destruct (am_ptag _ _ _) as [g| | |]|]]; thr_changes p i ET.
  - destruct todo as [|t rest]; [|destruct (a_flag s p t)]; thr_changes p i ET.
  - destruct w as [|t rest]; [thr_changes p i ET|]. simpl in HT. apply andb_true_iff in HT. destruct HT as [HT _].
    apply andb_true_iff in HT. destruct HT as [HT _].
    destruct (WA t g None HT) as ([y c] & ->); [simpl; rewrite Z.eqb_refl; reflexivity|]. thr_changes p i ET.
  - destruct todo as [|t rest]; thr_changes p i ET.
Qed.

(** ** Fair schedules *)
Record L (I : list Z) (s : ast) : Prop := mkL { l_inv : inv s; l_xw : xw s; l_g : G s; l_sup : sup I s }.

Lemma L_step I s l : internal l -> L I s -> L I (fst (step s l)).
Proof.
  intros HL []. constructor.
  - apply inv_step; assumption.
  - eapply xw_step; eassumption.
  - apply (G_step A D M R exec ub n m0); [assumption|]. destruct l; simpl in *; tauto.
  - pose proof (sup_step A D M R exec ub n s l I l_sup0) as HS. destruct l; try (destruct HL; fail); exact HS.
Qed.

Lemma reach_L ls : (forall l, In l ls -> ~ is_fin l) -> exists I, NoDup I /\ L I (fst (run (a_init m0) ls)).
Proof.
  intros NF.
  assert (H : xw (fst (run (a_init m0) ls)) /\ G (fst (run (a_init m0) ls))).
  { assert (HH : forall ls s, (forall l, In l ls -> ~ is_fin l) -> inv s -> xw s -> G s -> xw (fst (run s ls)) /\ G (fst (run s ls))).
    { clear - ub_int. induction ls as [|l ls IH]; intros s NF HI HX HG; [auto|]. simpl.
      assert (I1 : inv (fst (step s l))) by (apply inv_step; assumption).
      assert (X1 : xw (fst (step s l))) by (eapply xw_step; eassumption).
      assert (G1 : G (fst (step s l))) by (apply (G_step A D M R exec ub n m0); [assumption|apply NF; left; reflexivity]).
      destruct (step s l) as [s1 e1]. simpl in *. specialize (IH s1 (fun l' Hl => NF l' (or_intror Hl)) I1 X1 G1).
      destruct (run s1 ls) as [s2 e2]. exact IH. }
    apply HH; [exact NF|apply (AmProofs3.inv0 A D M R exec ub m0)|apply xw_init|apply G_init]. }
  destruct (sup_run A D M R exec ub n ls (a_init m0) []) as (I0 & HS); [intros p i _; reflexivity|].
  exists (nodup Z.eq_dec I0). split; [apply NoDup_nodup|]. destruct H as [HX HG]. constructor; try assumption.
  - apply reach_inv. exact ub_int.
  - intros p i Hi. apply HS. intros F. apply Hi. apply nodup_In. exact F.
Qed.

Lemma L_time I s sg : (forall k, internal (sg k)) -> L I s -> forall k, L I (at_time s sg k).
Proof. intros HS H. induction k as [|k IH]; [exact H|]. simpl. apply L_step; [apply HS|exact IH]. Qed.

Lemma mu_mono I s sg : NoDup I -> (forall k, internal (sg k)) -> L I s -> forall k m, (k <= m)%nat ->
  at_time s sg m = at_time s sg k \/ (mu I (at_time s sg m) < mu I (at_time s sg k))%nat.
Proof.
  intros ND HS H k m Hm. induction Hm as [|m Hm IH]; [left; reflexivity|]. simpl.
  pose proof (L_time I s sg HS H m) as [].
  destruct (mu_step A D M R exec ub n m0 I (at_time s sg m) (sg m) (HS m) l_g0 l_sup0 ND) as [E|E].
  - rewrite E. simpl. exact IH.
  - right. destruct IH as [IH|IH]; [rewrite <- IH; exact E|lia].
Qed.

Definition good (s : ast) : Prop := all_returned s \/ handler_failed s.

Lemma good_dec I s : L I s -> good s \/
  ((forall t, pe t = true -> ~ aborted (a_cb s t)) /\ exists p i, in_call (a_thr s p i) = true).
Proof.
  intros []. 
  destruct (existsb (fun t => match a_cb s t with CbAbort _ _ => true | _ => false end) (zrange n)) eqn:E1.
  { left. right. apply existsb_exists in E1. destruct E1 as (t & _ & E). exists t.
    destruct (a_cb s t) as [| | |q r|]; try discriminate. exists q, r. reflexivity. }
  destruct (existsb (fun p => existsb (fun i => in_call (a_thr s p i)) I) (zrange n)) eqn:E2.
  { right. split.
    - intros t Ht (q & r & F).
      assert (existsb (fun t => match a_cb s t with CbAbort _ _ => true | _ => false end) (zrange n) = true); [|congruence].
      apply existsb_exists. exists t. split; [apply pe_in; exact Ht|]. rewrite F. reflexivity.
    - apply existsb_exists in E2. destruct E2 as (p & _ & E). apply existsb_exists in E. destruct E as (i & _ & E). eauto. }
  left. left. intros p i. destruct (in_call (a_thr s p i)) eqn:E; [|reflexivity].
  destruct (in_dec Z.eq_dec i I) as [Hi|Hi].
  - assert (existsb (fun p => existsb (fun i => in_call (a_thr s p i)) I) (zrange n) = true); [|congruence].
    apply existsb_exists. exists p. split.
    + apply pe_in. apply (g_thr _ _ _ _ _ s l_g0 p i). intros F. rewrite F in E. discriminate.
    + apply existsb_exists. exists i. auto.
  - rewrite (l_sup0 p i Hi) in E. discriminate.
Qed.

Lemma thr_step s l p i : internal l -> in_call (a_thr s p i) = false -> in_call (a_thr (fst (step s l)) p i) = false.
Proof.
  intros HL H. destruct l as [| | |q j|t q any]; try (destruct HL; fail).
  - simpl. destruct (is_pe n q); [|exact H].
    destruct (Z.eq_dec q p) as [->|Hq]; [destruct (Z.eq_dec j i) as [->|Hj]|].
    + destruct (a_thr s p i) eqn:ET; try discriminate; simpl; rewrite ?ET; try reflexivity.
      destruct (forallb _ _); simpl; rewrite ?fset2_eq, ?ET; reflexivity.
    + destruct (a_thr s p j) as [|t g r|t g r|t g r|t v r x|todo ps|todo g w ps|w g ps|todo ps| | |] eqn:ET; try exact H;
      repeat match goal with |- context [match ?e with _ => _ end] => destruct e; try exact H end;
      simpl; rewrite ?fset2_ne by first [left; congruence|right; congruence]; exact H.
    + destruct (a_thr s q j) as [|t g r|t g r|t g r|t v r x|todo ps|todo g w ps|w g ps|todo ps| | |] eqn:ET; try exact H;
      repeat match goal with |- context [match ?e with _ => _ end] => destruct e; try exact H end;
      simpl; rewrite ?fset2_ne by first [left; congruence|right; congruence]; exact H.
  - rewrite cb_thr. exact H.
Qed.

Lemma cb_abort_stays s l t q r : a_cb s t = CbAbort q r -> a_cb (fst (step s l)) t = CbAbort q r.
Proof.
  intros H. destruct l as [p i t' r'|p i ps|p i|p i|t' p any]; simpl;
    try (repeat match goal with |- context [match ?e with _ => _ end] => destruct e; try exact H end; exact H).
  destruct (_ && _); [|exact H]. destruct (Z.eq_dec t' t) as [->|Ht]; [rewrite H; exact H|].
  assert (RC : forall s1 p g (r : req) od, a_cb s1 = a_cb s -> a_cb (run_cb exec s1 t' p g r od) t = CbAbort q r -> True) by auto.
  assert (X : forall s1 p g (r' : req) od, a_cb s1 = a_cb s -> a_cb (run_cb exec s1 t' p g r' od) t = CbAbort q r).
  { intros s1 p1 g1 r1 od E. unfold run_cb. destruct (exec _ _ _) as [[m x]| | |]; [destruct (rq_kind r1)| | |]; simpl;
      rewrite fset_ne by congruence; rewrite E; exact H. }
  destruct (a_cb s t') as [|q' g r'| | |]; try exact H.
  - destruct (take_hdr any (a_comm s p t')) as [[[[g r'|g|]|g d] c]|]; try exact H.
    + destruct (rq_kind r') eqn:EK; simpl; [apply X; reflexivity| |apply X; reflexivity].
      rewrite fset_ne by congruence. exact H.
    + simpl. rewrite fset_ne by congruence. exact H.
    + simpl. rewrite fset_ne by congruence. exact H.
  - destruct (take_data g (a_comm s q' t')) as [[d c]|]; [|exact H]. simpl. apply X. reflexivity.
Qed.

Lemma good_step s l : internal l -> good s -> good (fst (step s l)).
Proof.
  intros HL [H|(t & q & r & H)].
  - left. intros p i. apply thr_step; [exact HL|apply H].
  - right. exists t, q, r. apply cb_abort_stays. exact H.
Qed.

Lemma fair_good I s sg (excuse : nat -> ast -> label -> Prop) k0 :
  NoDup I -> (forall k, internal (sg k)) -> L I s -> fair excuse s sg ->
  (forall k l, (k0 <= k)%nat -> excuse k (at_time s sg k) l -> held (at_time s sg k) l \/ in_handler (at_time s sg k) l \/ step (at_time s sg k) l = (at_time s sg k, [])) ->
  exists K, forall m, (K <= m)%nat -> good (at_time s sg m).
Proof.
  intros ND HS H HF HE.
  assert (KEY : forall N k, (k0 <= k)%nat -> (mu I (at_time s sg k) < N)%nat -> exists K, good (at_time s sg K)).
  { induction N as [|N IH]; intros k Hk0 Hk; [lia|].
    destruct (good_dec I (at_time s sg k) (L_time I s sg HS H k)) as [HG|(NA & p & i & HC)]; [exists k; exact HG|].
    pose proof (L_time I s sg HS H k) as [].
    destruct (progress (at_time s sg k) p i) as (l & HL & NH & NR & HP); try assumption.
    destruct (HF k l HL) as (m & Hm & HM).
    destruct (mu_mono I s sg ND HS H k m Hm) as [E|E].
    - rewrite E in HM. destruct HM as [HM|[HM|HM]].
      + destruct (mu_step A D M R exec ub n m0 I (at_time s sg k) (sg m) (HS m) l_g0 l_sup0 ND) as [F|F]; [destruct (HP (sg m) HM F)|].
        apply (IH (S m)); [lia|]. simpl. rewrite E. lia.
      + rewrite <- E in HM. apply HE in HM; [|lia]. rewrite E in HM. destruct HM as [HM|[HM|HM]]; [contradiction|contradiction|].
        exfalso. apply (HP l); [|exact HM]. destruct l; try (destruct HL; fail); simpl; auto.
      + exfalso. apply (HP l); [|exact HM]. destruct l; try (destruct HL; fail); simpl; auto.
    - apply (IH m); lia. }
  destruct (KEY (S (mu I (at_time s sg k0))) k0) as (K & HK); [lia|lia|].
  exists K. intros m Hm. induction Hm as [|m Hm IH]; [exact HK|]. simpl. apply good_step; [apply HS|exact IH].
Qed.

Lemma am_fair_async ls sg : (forall l, In l ls -> ~ is_fin l) -> (forall k, internal (sg k)) ->
  let s := fst (run (a_init m0) ls) in
  fair (fun _ => held) s sg ->
  exists K, forall m, (K <= m)%nat -> all_returned (at_time s sg m) \/ handler_failed (at_time s sg m).
Proof.
  intros NF HS s HF. destruct (reach_L ls NF) as (I & ND & HL).
  apply (fair_good I s sg (fun _ => held) 0 ND HS HL HF). intros k l _ Hh. left; exact Hh.
Qed.

Lemma am_fair_polled ls sg (pol : nat -> Z -> Prop) : (forall l, In l ls -> ~ is_fin l) -> (forall k, internal (sg k)) ->
  let s := fst (run (a_init m0) ls) in
  fair (fun k s l => held s l \/ in_handler s l \/ unpolled (pol k) s l) s sg ->
  (exists k0, forall k t, (k0 <= k)%nat -> 0 <= t < n -> pol k t \/ exists i, in_call (a_thr (at_time s sg k) t i) = true) ->
  exists K, forall m, (K <= m)%nat -> all_returned (at_time s sg m) \/ handler_failed (at_time s sg m).
Proof.
  intros NF HS s HF (k0 & HP). destruct (reach_L ls NF) as (I & ND & HL).
  apply (fair_good I s sg _ k0 ND HS HL HF). intros k l Hk [Hh|[Hr|Hu]]; [left; exact Hh|right; left; exact Hr|].
  right. right. destruct l as [| | | |t p any]; try (destruct Hu; fail). destruct Hu as [Hu HU]. simpl.
  destruct (is_pe n t) eqn:Et; [|reflexivity]. exfalso.
  unfold is_pe in Et. apply andb_true_iff in Et. rewrite Z.leb_le, Z.ltb_lt in Et.
  destruct (HP k t Hk Et) as [F|(i & F)]; [exact (Hu F)|]. rewrite HU in F. discriminate.
Qed.

Lemma am_bound ls : (forall l, In l ls -> ~ is_fin l) ->
  let s := fst (run (a_init m0) ls) in
  exists N, forall ls', Forall internal ls' -> all_effective s ls' -> (length ls' <= N)%nat.
Proof.
  intros NF s. destruct (reach_L ls NF) as (I & ND & HL). exists (mu I s). fold s in HL.
  intros ls'. revert HL. generalize s. clear s. induction ls' as [|l ls' IH]; intros s HL HI HE; [simpl; lia|].
  destruct HE as [HE1 HE2]. inversion HI; subst. pose proof HL as [].
  destruct (mu_step A D M R exec ub n m0 I s l H1 l_g0 l_sup0 ND) as [E|E]; [contradiction|].
  specialize (IH (fst (step s l)) (L_step I s l H1 HL) H2 HE2). simpl. lia.
Qed.

(** A call ends by returning, or by a failed assertion. *)
Lemma am_ends s l p i : in_call (a_thr s p i) = true -> in_call (a_thr (fst (step s l)) p i) = false ->
  (exists t r x, In (ERet p i t r x) (snd (step s l))) \/ (exists ps, In (EFlushed p i ps) (snd (step s l))) \/
  a_thr (fst (step s l)) p i = TAbort.
Proof.
  intros H. destruct l as [q j t r|q j ps|q j|q j|t q any].
  - simpl. destruct (_ && _); [|simpl; congruence]. destruct (a_thr s q j) eqn:ET; try (simpl; congruence).
    assert (q <> p \/ j <> i) by (destruct (Z.eq_dec q p), (Z.eq_dec j i); subst; [rewrite ET in H; discriminate|tauto..]).
    destruct (rq_kind r); [|destruct (am_ptag _ _ _)..]; simpl; rewrite fset2_ne by (destruct H0; [left|right]; congruence); congruence.
  - simpl. destruct (_ && _); [|simpl; congruence]. destruct (a_thr s q j) eqn:ET; try (simpl; congruence).
    assert (q <> p \/ j <> i) by (destruct (Z.eq_dec q p), (Z.eq_dec j i); subst; [rewrite ET in H; discriminate|tauto..]).
    simpl; rewrite fset2_ne by (destruct H0; [left|right]; congruence); congruence.
  - simpl. destruct (_ && _); [|simpl; congruence]. destruct (a_thr s q j) eqn:ET; try (simpl; congruence).
    assert (q <> p \/ j <> i) by (destruct (Z.eq_dec q p), (Z.eq_dec j i); subst; [rewrite ET in H; discriminate|tauto..]).
    simpl; rewrite fset2_ne by (destruct H0; [left|right]; congruence); congruence.
  - simpl. destruct (is_pe n q); [|simpl; congruence].
    destruct (Z.eq_dec q p) as [->|Hq]; [destruct (Z.eq_dec j i) as [->|Hj]|].
    + destruct (a_thr s p i) as [|t g r|t g r|t g r|t v r x|todo ps|todo g w ps|w g ps|todo ps| | |] eqn:ET; try discriminate.
      * simpl. rewrite fset2_eq. destruct (rq_kind r); discriminate.
      * destruct (rq_data r); simpl; rewrite ?fset2_eq, ?ET; discriminate.
      * destruct (take_ack g (a_ack s t p)) as [[[[r' x]|] c]|]; simpl; rewrite ?fset2_eq, ?ET; discriminate.
      * simpl. intros _. left. exists t, r, x. left; reflexivity.
      * destruct todo as [|t rest]; [|destruct (a_flag s p t); [destruct (am_ptag _ _ _)|]]; simpl; rewrite ?fset2_eq, ?ET;
          try discriminate; try (intros _; right; right; reflexivity). intros _. right; left. exists ps. left; reflexivity.
      * destruct todo as [|t rest]; [|destruct (a_flag s p t)]; simpl; rewrite ?fset2_eq, ?ET; discriminate.
      * destruct w as [|t rest]; [|destruct (take_ack g (a_ack s t p)) as [[y0 c]|]]; simpl; rewrite ?fset2_eq, ?ET; discriminate.
      * destruct todo as [|t rest]; simpl; rewrite ?fset2_eq, ?ET; try discriminate. intros _. right; left. exists ps. left; reflexivity.
    + intros F. exfalso. revert F. rewrite <- not_true_iff_false. intros F. apply F. clear F.
      destruct (a_thr s p j) as [|t g r|t g r|t g r|t v r x|todo ps|todo g w ps|w g ps|todo ps| | |] eqn:ET; try exact H;
      repeat match goal with |- context [match ?e with _ => _ end] => destruct e; try exact H end;
      simpl; rewrite ?fset2_ne by first [left; congruence|right; congruence]; exact H.
    + intros F. exfalso. revert F. rewrite <- not_true_iff_false. intros F. apply F. clear F.
      destruct (a_thr s q j) as [|t g r|t g r|t g r|t v r x|todo ps|todo g w ps|w g ps|todo ps| | |] eqn:ET; try exact H;
      repeat match goal with |- context [match ?e with _ => _ end] => destruct e; try exact H end;
      simpl; rewrite ?fset2_ne by first [left; congruence|right; congruence]; exact H.
  - rewrite cb_thr. congruence.
Qed.
End AmLiveProofs3.
