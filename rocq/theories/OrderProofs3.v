(** Proofs about OrderModel: barriers of all PEs, quiet with spaces, fence. *)
From Verif Require Import Base BaseProofs AmCfgModel OrderModel OrderSpec OrderProofs OrderProofs2.

Section One.
Variable c : oconf.

(** ** Counting barriers on one PE *)
Fixpoint lstarts (b : bset) (log : list oev) : Z :=
  match log with
  | [] => 0
  | EStart _ (CBarrier b') :: r => (if bset_eqb b' b then 1 else 0) + lstarts b r
  | _ :: r => lstarts b r
  end.
Fixpoint cntE (b : bset) (m : list mi) : Z :=
  match m with
  | [] => 0
  | MEnter b' :: r => (if bset_eqb b' b then 1 else 0) + cntE b r
  | _ :: r => cntE b r
  end.
Lemma cntE_app b x y : cntE b (x ++ y) = cntE b x + cntE b y.
Proof. induction x as [|a x IH]; cbn; [lia|]. destruct a; cbn; lia. Qed.
Lemma cntE_nonneg b x : 0 <= cntE b x.
Proof. induction x as [|a x IH]; cbn; [lia|]. destruct a; cbn; try lia. destruct (bset_eqb b0 b); lia. Qed.
Lemma cntE_none b x : (forall y, In y x -> match y with MEnter _ => False | _ => True end) -> cntE b x = 0.
Proof.
  induction x as [|a x IH]; intros H; cbn; auto.
  assert (Ha := H a (or_introl eq_refl)). destruct a; try contradiction; apply IH; intros; apply H; right; auto.
Qed.
Lemma cntE_map {A} b (f : A -> mi) l : (forall a, match f a with MEnter _ => False | _ => True end) -> cntE b (map f l) = 0.
Proof. intros H. apply cntE_none. intros y Hy. apply in_map_iff in Hy. destruct Hy as (a & <- & _). apply H. Qed.
Lemma cntE_am b l : cntE b (am_flush_steps c l) = 0.
Proof. unfold am_flush_steps. destruct (no_am c); auto. apply cntE_map. intros; exact I. Qed.

Lemma call_cnt s cl m b : call_steps c s cl = Ok m ->
  cntE b m = match cl with CBarrier b' => if bset_eqb b' b then 1 else 0 | _ => 0 end.
Proof.
  intros H. assert (Q : forall x, quiet_steps c s x = Ok m -> cntE b m = 0).
  { intros x Hq. apply cntE_none. intros y Hy. assert (P := quiet_plain c s x m Hq y Hy).
    unfold quiet_steps in Hq. destruct x.
    - destruct (space_locs c (o_spaces s)); cbn in Hq; inversion Hq; subst.
      repeat (apply in_app_or in Hy; destruct Hy as [Hy|Hy]);
        try (apply in_map_iff in Hy; destruct Hy as (? & <- & _); exact I).
      unfold am_flush_steps in Hy. destruct (no_am c); [destruct Hy|].
      apply in_map_iff in Hy; destruct Hy as (? & <- & _); exact I.
    - destruct (loc_of c s (XSpace k i) OHeap); cbn in Hq; inversion Hq; subst.
      destruct Hy as [<-|[]]. exact I. }
  destruct cl; cbn in H; eauto; try (inversion H; subst; reflexivity).
  - destruct (loc_of c s x o); cbn in H; try discriminate.
    destruct (is_direct c s x o k dev) as [d| | |]; cbn in H; inversion H; subst.
    destruct d, k; reflexivity.
  - inversion H; subst. unfold barrier_steps. rewrite !cntE_app, cntE_am, cntE_map by (intros; exact I).
    cbn. lia.
Qed.

Lemma mi_cnt r s x rest s' ev rest' b : mi_step c r s x rest = Ok (s', ev, rest') ->
  cntE b rest' = cntE b (x :: rest) - match x with MEnter b' => if bset_eqb b' b then 1 else 0 | _ => 0 end.
Proof.
  intros H. destruct x; cbn -[space_step] in H;
    repeat match type of H with context [if ?y then _ else _] => destruct y end;
    try (inversion H; subst; cbn; lia).
  destruct (space_step c s c0); cbn in H; inversion H; subst; cbn; lia.
Qed.

Fixpoint fol (m : list mi) : Prop :=
  match m with
  | [] => True
  | x :: r => fol r /\ match x with MEnter b => In (MLeave b) r | _ => True end
  end.
Lemma fol_none x y : (forall z, In z x -> match z with MEnter _ => False | _ => True end) -> fol y -> fol (x ++ y).
Proof.
  induction x as [|a x IH]; intros H F; cbn; auto.
  split; [apply IH; auto; intros; apply H; right; auto|].
  assert (Q := H a (or_introl eq_refl)). destruct a; auto; contradiction.
Qed.
Lemma am_noenter l z : In z (am_flush_steps c l) -> match z with MEnter _ => False | _ => True end.
Proof.
  unfold am_flush_steps. destruct (no_am c); intros H; [destruct H|].
  apply in_map_iff in H; destruct H as (? & <- & _); exact I.
Qed.
Lemma map_noenter {A} (f : A -> mi) l z : (forall a, match f a with MEnter _ => False | _ => True end) ->
  In z (map f l) -> match z with MEnter _ => False | _ => True end.
Proof. intros H Hz. apply in_map_iff in Hz; destruct Hz as (a & <- & _); apply H. Qed.
Lemma call_fol s cl m : call_steps c s cl = Ok m -> fol m.
Proof.
  assert (Q : forall x, quiet_steps c s x = Ok m -> fol m).
  { intros x Hq. rewrite <- (app_nil_r m). apply fol_none; [|exact I]. intros z Hz.
    unfold quiet_steps in Hq. destruct x.
    - destruct (space_locs c (o_spaces s)); cbn in Hq; inversion Hq; subst.
      repeat (apply in_app_or in Hz; destruct Hz as [Hz|Hz]);
        try (eapply map_noenter; [|exact Hz]; intros; exact I).
      eapply am_noenter; eauto.
    - destruct (loc_of c s (XSpace k i) OHeap); cbn in Hq; inversion Hq; subst.
      destruct Hz as [<-|[]]. exact I. }
  intros H. destruct cl; cbn in H; eauto; try (inversion H; subst; cbn; auto; fail).
  - destruct (loc_of c s x o); cbn in H; try discriminate.
    destruct (is_direct c s x o k dev) as [d| | |]; cbn in H; inversion H; subst.
    destruct d, k; cbn; auto.
  - inversion H; subst. unfold barrier_steps.
    apply fol_none; [intros z; apply map_noenter; intros; exact I|].
    apply fol_none; [intros z; apply am_noenter|]. cbn; auto.
Qed.
Lemma mi_fol r s x rest s' ev rest' : mi_step c r s x rest = Ok (s', ev, rest') -> fol (x :: rest) -> fol rest'.
Proof.
  intros H F. destruct x; cbn -[space_step] in H;
    repeat match type of H with context [if ?y then _ else _] => destruct y end;
    try (inversion H; subst; cbn in *; tauto).
  destruct (space_step c s c0); cbn in H; inversion H; subst; cbn in *; tauto.
Qed.

Definition invE (log : list oev) (s : ost) : Prop :=
  (forall b, o_ent s b = lstarts b log - cntE b (rest0 s)) /\
  (forall cl m b, o_thr s 0 = Some (cl, m) -> In (MLeave b) m -> cl = CBarrier b) /\
  fol (rest0 s).

Lemma lstarts_app b x y : lstarts b (x ++ y) = lstarts b x + lstarts b y.
Proof. induction x as [|a x IH]; cbn; [lia|]. destruct a as [i []|i cl|id]; cbn; lia. Qed.
Lemma lstarts_done b ev : (forall e, In e ev -> exists id, e = EDone id) -> lstarts b ev = 0.
Proof.
  induction ev as [|e ev IH]; intros H; cbn; auto. destruct (H e (or_introl eq_refl)) as [id ->].
  apply IH. intros; apply H; right; auto.
Qed.

Lemma call_leave s cl m b : call_steps c s cl = Ok m -> In (MLeave b) m -> cl = CBarrier b.
Proof.
  intros H Hin. destruct cl; cbn in H; try (inversion H; subst; destruct Hin as [Hin|[]]; discriminate).
  - destruct (loc_of c s x o); cbn in H; try discriminate.
    destruct (is_direct c s x o k dev) as [d| | |]; cbn in H; inversion H; subst.
    destruct d, k; cbn in Hin; intuition discriminate.
  - exfalso. destruct x; cbn in H.
    + destruct (space_locs c (o_spaces s)); cbn in H; inversion H; subst.
      repeat (apply in_app_or in Hin; destruct Hin as [Hin|Hin]);
        try (apply in_map_iff in Hin; destruct Hin as (? & ? & _); discriminate).
      unfold am_flush_steps in Hin. destruct (no_am c); [destruct Hin|].
      apply in_map_iff in Hin; destruct Hin as (? & ? & _); discriminate.
    + destruct (find_sp s k) as [sp|]; [|discriminate].
      destruct (os_att sp && (0 <=? i) && (i <? os_nctx sp)); inversion H; subst.
      destruct Hin as [Hin|[]]; discriminate.
  - exfalso. destruct x; cbn in H.
    + destruct (space_locs c (o_spaces s)); cbn in H; inversion H; subst.
      repeat (apply in_app_or in Hin; destruct Hin as [Hin|Hin]);
        try (apply in_map_iff in Hin; destruct Hin as (? & ? & _); discriminate).
      unfold am_flush_steps in Hin. destruct (no_am c); [destruct Hin|].
      apply in_map_iff in Hin; destruct Hin as (? & ? & _); discriminate.
    + destruct (find_sp s k) as [sp|]; [|discriminate].
      destruct (os_att sp && (0 <=? i) && (i <? os_nctx sp)); inversion H; subst.
      destruct Hin as [Hin|[]]; discriminate.
  - inversion H; subst. unfold barrier_steps in Hin.
    repeat (apply in_app_or in Hin; destruct Hin as [Hin|Hin]);
      try (apply in_map_iff in Hin; destruct Hin as (? & ? & _); discriminate).
    + unfold am_flush_steps in Hin. destruct (no_am c); [destruct Hin|].
      apply in_map_iff in Hin; destruct Hin as (? & ? & _); discriminate.
    + destruct Hin as [Hin|[Hin|[]]]; [discriminate|inversion Hin; auto].
Qed.
Lemma mi_leave r s x rest s' ev rest' b : mi_step c r s x rest = Ok (s', ev, rest') ->
  In (MLeave b) rest' -> In (MLeave b) (x :: rest).
Proof.
  intros H Hin. destruct x; cbn -[space_step] in H;
    repeat match type of H with context [if ?y then _ else _] => destruct y end;
    try (inversion H; subst; cbn; auto; fail).
  - inversion H; subst. destruct Hin as [Hin|[Hin|Hin]]; try discriminate. cbn; auto.
  - destruct (space_step c s c0); cbn in H; inversion H; subst; cbn; auto.
Qed.

Lemma step_invE log s lb s' ev : one_thread [lb] -> ostep c s lb = Ok (s', ev) -> invE log s -> invE (log ++ ev) s'.
Proof.
  intros O H (A & B & D). assert (O' := O lb (or_introl eq_refl)).
  destruct lb as [i cl|i r|id]; cbn -[done_ids mi_step] in H; subst.
  - destruct (o_thr s 0) eqn:T; [inversion H; subst; rewrite app_nil_r; split; [exact A|split; [rewrite T; exact B|exact D]]|].
    destruct (call_steps c s cl) as [m| | |] eqn:C; cbn in H; inversion H; subst. clear H.
    split; [|split].
    + intros b. cbn. rewrite lstarts_app. unfold rest0; cbn. rewrite (call_cnt _ _ _ b C), A.
      unfold rest0. rewrite T. cbn. destruct cl; cbn; lia.
    + intros cl' m' b Ht Hin. cbn in Ht. inversion Ht; subst. eapply call_leave; eauto.
    + unfold rest0; cbn. eapply call_fol; eauto.
  - destruct (o_thr s 0) as [[cl [|m rest]]|] eqn:T.
    + inversion H; subst. split; [|split].
      * intros b. cbn. rewrite lstarts_app, A. unfold rest0; rewrite T; cbn. lia.
      * intros cl' m' b Ht. discriminate.
      * exact I.
    + destruct (mi_step c r s m rest) as [[[s1 e1] r1]| | |] eqn:E; cbn in H; inversion H; subst. clear H.
      split; [|split].
      * intros b. rewrite lstarts_app, (lstarts_done b ev) by (intros e He; eapply mi_ev; eauto).
        unfold rest0; cbn. rewrite (mi_cnt _ _ _ _ _ _ _ b E), (mi_ent _ _ _ _ _ _ _ _ b E), A.
        unfold rest0; rewrite T. lia.
      * intros cl' m' b Ht Hin. cbn in Ht. inversion Ht; subst. eapply B; eauto. eapply mi_leave; eauto.
      * unfold rest0 in *; cbn. rewrite T in D. eapply mi_fol; eauto.
    + inversion H; subst. rewrite app_nil_r; split; [exact A|split; [rewrite T; exact B|exact D]].
  - inversion H; subst. split; [|split; [exact B|exact D]]. intros b. rewrite lstarts_app.
    rewrite (lstarts_done b (map (fun p => EDone (pd_id p)) (filter (is_id id) (o_pend s))))
      by (intros e He; apply in_map_iff in He; destruct He as (? & <- & _); eauto).
    specialize (A b). unfold rest0 in *. cbn. lia.
Qed.
Lemma run_invE ls : forall s s' log0 log, one_thread ls -> orun c s ls = Ok (s', log) -> invE log0 s -> invE (log0 ++ log) s'.
Proof.
  induction ls as [|lb ls IH]; intros s s' log0 log O H I; cbn in H.
  - inversion H; subst. rewrite app_nil_r. auto.
  - destruct (ostep c s lb) as [[s1 e1]| | |] eqn:E; cbn in H; try discriminate.
    destruct (orun c s1 ls) as [[s2 e2]| | |] eqn:E2; cbn in H; inversion H; subst.
    rewrite app_assoc. eapply IH; eauto; [intros x Hx; apply O; right; auto|].
    eapply step_invE; eauto. intros x [<-|[]]. apply O; left; auto.
Qed.
Lemma invE_init : invE [] o_init.
Proof. split; [reflexivity|split; [intros cl m b H; discriminate|exact I]]. Qed.

(** ** What is covered is done before the PE enters *)
Definition tailE (b : bset) (m : list mi) : Prop :=
  exists pre, m = pre ++ [MEnter b; MLeave b] /\ cntE b pre = 0.

Lemma bphase ls : forall s s' log b m p,
  one_thread ls -> invA c s -> (forall y, In y m -> flushy y) ->
  orun c s ls = Ok (s', log) -> o_thr s 0 = Some (CBarrier b, m) -> In p (o_pend s) -> cov p m -> tailE b m ->
  In (EDone (pd_id p)) log \/ o_ent s' b = o_ent s b.
Proof.
  induction ls as [|lb ls IH]; intros s s' log b m p O I FL H T Hp C TL; cbn in H.
  - inversion H; subst. auto.
  - destruct (ostep c s lb) as [[s1 e1]| | |] eqn:E; cbn in H; try discriminate.
    destruct (orun c s1 ls) as [[s2 e2]| | |] eqn:E2; cbn in H; inversion H; subst. clear H. cbn.
    assert (O1 : one_thread [lb]) by (intros x [<-|[]]; apply O; left; auto).
    assert (O2 : one_thread ls) by (intros x Hx; apply O; right; auto).
    assert (I1 := step_invA _ _ _ _ _ O1 E I).
    assert (K := step_keep _ _ _ _ _ _ E Hp).
    destruct K as [K|K]; [|left; apply in_or_app; auto].
    assert (Olb := O1 lb (or_introl eq_refl)).
    assert (NX : In (EDone (pd_id p)) e1 \/
                 (o_ent s1 b = o_ent s b /\ exists m', o_thr s1 0 = Some (CBarrier b, m') /\ cov p m' /\ tailE b m' /\
                  forall y, In y m' -> flushy y)).
    { destruct lb as [j cl'|j r|id]; cbn -[done_ids mi_step] in E; subst.
      - rewrite T in E. inversion E; subst. right. split; auto. exists m. auto.
      - rewrite T in E. destruct m as [|x rest].
        + unfold cov in C. destruct (pd_route p); cbn in C; tauto.
        + destruct (mi_step c r s x rest) as [[[s3 e3] r3]| | |] eqn:EM; cbn in E; inversion E; subst.
          assert (RF : flag_ok c s p).
          { eapply (regime_flag c p 0 [] s _ (x :: rest)); eauto. right. split; auto. split; auto. intros ? []. }
          destruct (cov_step _ _ _ _ _ _ _ _ _ EM Hp C RF) as [A|[_ A]]; auto.
          right. destruct TL as ([|x' pre] & Em & Cn).
          * inversion Em; subst. exfalso. unfold cov in C. destruct (pd_route p); cbn in C; intuition discriminate.
          * inversion Em; subst. clear Em. cbn. rewrite (mi_ent _ _ _ _ _ _ _ _ b EM).
            assert (Nx : match x' with MEnter b' => if bset_eqb b' b then 1 else 0 | _ => 0 end = 0).
            { assert (Q := cntE_nonneg b pre). cbn in Cn. destruct x'; auto. destruct (bset_eqb b0 b); lia. }
            split; [lia|]. exists r3. split; auto. split; auto. split.
            { assert (ER : r3 = pre ++ [MEnter b; MLeave b] \/
                       (exists z, (r3 = z ++ pre ++ [MEnter b; MLeave b]) /\ cntE b z = 0)).
              { clear -EM. destruct x'; cbn -[space_step] in EM;
                  repeat match type of EM with context [if ?y then _ else _] => destruct y end;
                  try (inversion EM; subst; auto; fail).
                - inversion EM; subst. right. eexists [MFlushAll l; MReset l]. split; auto.
                - inversion EM; subst. right. eexists [MLeave b0]. split; auto.
                - destruct (space_step c s c0); cbn in EM; inversion EM; auto. }
              assert (CP : cntE b pre = 0).
              { assert (Q := cntE_nonneg b pre). cbn in Cn. destruct x'; auto. destruct (bset_eqb b0 b); lia. }
              destruct ER as [->|(z & -> & Cz)]; [exists pre; auto|].
              exists (z ++ pre). rewrite app_assoc. split; auto. rewrite cntE_app. lia. }
            intros y Hy. eapply flushy_step; eauto.
      - inversion E; subst. right. split; auto. exists m. auto. }
    destruct NX as [NX|(EE & m' & T' & C' & TL' & FL')]; [left; apply in_or_app; auto|].
    destruct (IH _ _ _ _ _ _ O2 I1 FL' E2 T' K C' TL') as [A|A]; [left; apply in_or_app; auto|right; lia].
Qed.

Lemma barrier_cov b cl id r : barrier_op c b cl id -> route_ok c cl r ->
  cov (mkPend id r) (barrier_steps c b).
Proof.
  intros (o & k & t & dev & -> & Ho & Ht) R. unfold cov, barrier_steps. cbn [pd_route].
  destruct r as [l|t']; cbn in R.
  - right. apply in_or_app. left. apply in_map. auto.
  - destruct R as (-> & NB & NA). apply in_or_app; right. apply in_or_app; left.
    unfold am_flush_steps. rewrite NA. apply in_map. tauto.
Qed.

Lemma local_barrier ls s log a j b r j' cl id :
  one_thread ls -> orun c o_init ls = Ok (s, log) -> log = a ++ EStart j (CBarrier b) :: r ->
  lstarts b a + 1 <= o_ent s b -> In (ERet j' cl) a -> barrier_op c b cl id -> In (EDone id) log.
Proof.
  intros O R E HE Hr Ho.
  destruct (run_split_start _ _ _ _ _ _ _ _ _ R E) as (ls1 & ls2 & s1 & m & -> & R1 & T1 & C1 & R2).
  assert (j = 0) by (apply (O (OCall j (CBarrier b))); apply in_or_app; right; left; auto). subst j.
  assert (O1 : one_thread ls1) by (intros x Hx; apply O; apply in_or_app; auto).
  assert (O2 : one_thread ls2) by (intros x Hx; apply O; apply in_or_app; right; right; auto).
  assert (I0 := run_inv0 _ _ _ _ _ _ R1 (inv0_init c)). cbn in I0. destruct I0 as [I0 _].
  assert (Hid : cl_id cl = Some id) by (destruct Ho as (o & k & t & dev & -> & _); reflexivity).
  subst log. destruct (I0 _ _ Hr id Hid) as [D|(p & Hp & Hi & Hro)]; [apply in_or_app; auto|].
  assert (IE := run_invE _ _ _ _ _ O1 R1 invE_init). cbn in IE. destruct IE as [IE _].
  assert (IA := run_invA _ _ _ _ _ O1 R1 (invA_init c)).
  cbn in C1. inversion C1; subst m.
  assert (Cv := barrier_cov b cl id (pd_route p) Ho Hro).
  assert (Cp : cov p (barrier_steps c b)) by exact Cv.
  assert (IA2 : invA c (set_thr s1 0 (Some (CBarrier b, barrier_steps c b)))).
  { eapply step_invA with (lb := OCall 0 (CBarrier b)) (s := s1); eauto.
    - intros x [<-|[]]; reflexivity.
    - cbn. rewrite T1. reflexivity. }
  assert (TL : tailE b (barrier_steps c b)).
  { unfold barrier_steps. exists (map MFlushAll (symm_locs c) ++ am_flush_steps c (members b)).
    rewrite app_assoc. split; auto. rewrite cntE_app, cntE_am, cntE_map by (intros; exact I). reflexivity. }
  destruct (bphase ls2 _ _ _ b (barrier_steps c b) p O2 IA2 (barrier_flushy c b) R2 eq_refl Hp Cp TL) as [A|A].
  - apply in_or_app; right; right. rewrite <- Hi. auto.
  - exfalso. cbn in A. rewrite A, IE in HE. unfold rest0 in HE. rewrite T1 in HE. cbn in HE. lia.
Qed.

(** ** All PEs *)
Definition plog (p : Z) (log : list (Z * oev)) : list oev := map snd (filter (fun e => fst e =? p) log).
Lemma plog_app p a b : plog p (a ++ b) = plog p a ++ plog p b.
Proof. unfold plog. rewrite filter_app, map_app. reflexivity. Qed.
Lemma plog_same p ev : plog p (map (pair p) ev) = ev.
Proof.
  unfold plog. induction ev as [|e ev IH]; cbn; auto. rewrite Z.eqb_refl. cbn. f_equal; auto.
Qed.
Lemma plog_other p q ev : q <> p -> plog q (map (pair p) ev) = [].
Proof.
  intros N. unfold plog. induction ev as [|e ev IH]; cbn; auto. replace (p =? q) with false by lia. auto.
Qed.
Lemma starts_plog p b log : starts p b log = lstarts b (plog p log).
Proof.
  unfold plog. induction log as [|[q e] log IH]; cbn; auto.
  destruct (q =? p) eqn:E; cbn; destruct e as [i []|i cl|id]; cbn; rewrite ?E; cbn; auto; lia.
Qed.
Lemma in_plog p e log : In (p, e) log -> In e (plog p log).
Proof. intros H. unfold plog. apply in_map_iff. exists (p, e). split; auto. apply filter_In. cbn. split; auto. lia. Qed.
Lemma plog_in p e log : In e (plog p log) -> In (p, e) log.
Proof.
  unfold plog. intros H. apply in_map_iff in H. destruct H as ([q e'] & <- & H). apply filter_In in H.
  cbn in *. destruct H as [H E]. replace p with q by lia. auto.
Qed.

Lemma gstep_inv g lb g' ev : gstep c g lb = Ok (g', ev) ->
  exists p l s1 e1, ostep c (g p) l = Ok (s1, e1) /\ g' = (fun q => if q =? p then s1 else g q) /\
    ev = map (pair p) e1 /\
    match lb with
    | GCall p' i cl => p = p' /\ l = OCall i cl
    | GGo p' i => p = p' /\ l = OGo i (bar_ready g p i)
    | GNet p' id => p = p' /\ l = ONet id
    end.
Proof.
  unfold gstep. destruct lb as [p i cl|p i|p id]; intros H;
    match type of H with context [ostep c (g ?p) ?l] =>
      destruct (ostep c (g p) l) as [[s1 e1]| | |] eqn:E; cbn in H; inversion H; subst; exists p, l, s1, e1 end; auto 6.
Qed.

Definition ginv (g : Z -> ost) (log : list (Z * oev)) : Prop :=
  (forall q, exists lq, one_thread lq /\ orun c o_init lq = Ok (g q, plog q log)) /\
  (forall p b m, o_thr (g p) 0 = Some (CBarrier b, m) ->
     In (MLeave b) m \/ forall q, In q (members b) -> o_ent (g p) b <= o_ent (g q) b).

Lemma step_ent s lb s' ev b : ostep c s lb = Ok (s', ev) -> o_ent s b <= o_ent s' b.
Proof.
  intros H. destruct lb as [i cl|i r|id]; cbn -[done_ids mi_step] in H.
  - destruct (o_thr s i); [inversion H; subst; lia|].
    destruct (call_steps c s cl); cbn in H; inversion H; subst; cbn; lia.
  - destruct (o_thr s i) as [[cl [|m rest]]|]; try (inversion H; subst; cbn; lia).
    destruct (mi_step c r s m rest) as [[[s1 e1] r1]| | |] eqn:E; cbn in H; inversion H; subst. cbn.
    rewrite (mi_ent _ _ _ _ _ _ _ _ b E). destruct m; try lia. destruct (bset_eqb b0 b); lia.
  - inversion H; subst; cbn; lia.
Qed.

Lemma gstep_ginv g lb g' ev log : one_thread_each [lb] -> gstep c g lb = Ok (g', ev) -> ginv g log -> ginv g' (log ++ ev).
Proof.
  intros O H [A B]. destruct (gstep_inv _ _ _ _ H) as (p & l & s1 & e1 & E & -> & -> & Hl).
  assert (Ol : one_thread [l]).
  { intros x [<-|[]]. assert (Q := O lb (or_introl eq_refl)). destruct lb; destruct Hl as [-> ->]; auto. }
  split.
  - intros q. destruct (A q) as (lq & Oq & Rq). rewrite plog_app. destruct (q =? p) eqn:Eq.
    + assert (q = p) by lia; subst q. rewrite plog_same. exists (lq ++ [l]). split.
      * intros x Hx. apply in_app_or in Hx. destruct Hx; [apply Oq|apply Ol]; auto.
      * apply orun_snoc. eauto 6.
    + rewrite plog_other by lia. rewrite app_nil_r. eauto.
  - intros p0 b m Ht.
    assert (MON : forall q, o_ent (g q) b <= o_ent (if q =? p then s1 else g q) b).
    { intros q. destruct (q =? p) eqn:Eq; [|lia]. replace q with p by lia. eapply step_ent; eauto. }
    destruct (p0 =? p) eqn:Ep.
    2: { destruct (B _ _ _ Ht) as [Q|Q]; auto. right. intros q Hq. specialize (Q q Hq). specialize (MON q). lia. }
    assert (p0 = p) by lia; subst p0. clear Ep.
    assert (IE : invE (plog p log) (g p)).
    { destruct (A p) as (lq & Oq & Rq). exact (run_invE _ _ _ _ _ Oq Rq invE_init). }
    assert (KEEP : o_ent s1 b = o_ent (g p) b -> (In (MLeave b) m \/ forall q, In q (members b) -> o_ent (g p) b <= o_ent (g q) b) ->
       In (MLeave b) m \/ forall q, In q (members b) -> o_ent s1 b <= o_ent (if q =? p then s1 else g q) b).
    { intros Ee [Q|Q]; auto. right. intros q Hq. specialize (Q q Hq). specialize (MON q). lia. }
    destruct l as [i cl|i r|id]; cbn -[done_ids mi_step] in E.
    + assert (i = 0) by (apply (Ol (OCall i cl)); left; auto). subst i.
      destruct (o_thr (g p) 0) as [[cl0 m0]|] eqn:T0.
      * inversion E; subst. apply KEEP; auto; try (eapply B; eauto; fail).
      * destruct (call_steps c (g p) cl) as [m1| | |] eqn:C; cbn in E; inversion E; subst. cbn in Ht.
        inversion Ht; subst. left. cbn in C. inversion C. unfold barrier_steps.
        apply in_or_app; right. apply in_or_app; right. cbn; auto.
    + assert (i = 0) by (apply (Ol (OGo i r)); left; auto). subst i.
      destruct (o_thr (g p) 0) as [[cl0 [|x rest]]|] eqn:T0.
      * inversion E; subst. discriminate.
      * destruct (mi_step c r (g p) x rest) as [[[s3 e3] r3]| | |] eqn:EM; cbn in E; inversion E; subst.
        cbn in Ht. inversion Ht; subst.
        assert (EN := mi_ent _ _ _ _ _ _ _ _ b EM). cbn.
        (* which step *)
        destruct (B _ _ _ T0) as [Q|Q].
        -- destruct Q as [->|Q].
           ++ destruct lb as [p' i' cl'|p' i'|p' id']; destruct Hl as [Hp Hl]; try discriminate Hl. subst p'.
              injection Hl; intros Hr Hi. subst i' r.
              unfold bar_ready in EM. rewrite T0 in EM. cbn in EM.
              destruct (forallb (fun q => o_ent (g p) b <=? o_ent (g q) b) (members b)) eqn:FB.
              ** inversion EM; subst. right. intros q Hq.
                 rewrite forallb_forall in FB. specialize (FB q Hq).
                 destruct (q =? p) eqn:Eq; cbn; lia.
              ** inversion EM; subst. left; cbn; auto.
           ++ left. clear -EM Q. destruct x; cbn -[space_step] in EM;
                repeat match type of EM with context [if ?y then _ else _] => destruct y end;
                try (inversion EM; subst; cbn; auto; fail).
              destruct (space_step c (g p) c0); cbn in EM; inversion EM; subst; auto.
        -- destruct IE as (_ & _ & FO). unfold rest0 in FO. rewrite T0 in FO. cbn in FO.
           assert (CASE : (exists b0, x = MEnter b0 /\ bset_eqb b0 b = true) \/ o_ent s3 b = o_ent (g p) b).
           { rewrite EN. destruct x; try (right; lia). destruct (bset_eqb b0 b) eqn:Eb; [left; eauto|right; lia]. }
           destruct CASE as [(b0 & -> & Eb)|EQ].
           ++ apply bset_eqb_eq in Eb. subst b0. left. cbn in EM. inversion EM; subst. tauto.
           ++ right. intros q Hq. specialize (Q q Hq). specialize (MON q).
              destruct (q =? p); cbn in *; lia.
      * inversion E; subst. rewrite T0 in Ht. discriminate.
    + inversion E; subst. cbn in Ht. apply KEEP; auto; try (eapply B; eauto; fail).
Qed.

Lemma grun_ginv ls : forall g g' log0 log, one_thread_each ls -> grun c g ls = Ok (g', log) -> ginv g log0 ->
  ginv g' (log0 ++ log).
Proof.
  induction ls as [|lb ls IH]; intros g g' log0 log O H I; cbn in H.
  - inversion H; subst. rewrite app_nil_r. auto.
  - destruct (gstep c g lb) as [[g1 e1]| | |] eqn:E; cbn in H; try discriminate.
    destruct (grun c g1 ls) as [[g2 e2]| | |] eqn:E2; cbn in H; inversion H; subst.
    rewrite app_assoc. eapply IH; eauto; [intros x Hx; apply O; right; auto|].
    eapply gstep_ginv; eauto. intros x [<-|[]]. apply O; left; auto.
Qed.
Lemma ginv_init : ginv g_init [].
Proof.
  split; [|intros p b m H; discriminate]. intros q. exists []. split; [intros x []|reflexivity].
Qed.

Lemma gsplit_ret ls : forall g g' log l1 p i cl l2, grun c g ls = Ok (g', log) ->
  log = l1 ++ (p, ERet i cl) :: l2 ->
  exists ls1 g1, (forall lb, In lb ls1 -> In lb ls) /\ grun c g ls1 = Ok (g1, l1) /\ In (GGo p i) ls /\
    o_thr (g1 p) i = Some (cl, []).
Proof.
  induction ls as [|lb ls IH]; intros g g' log l1 p i cl l2 H E; cbn in H.
  - inversion H; subst. destruct l1; discriminate.
  - destruct (gstep c g lb) as [[g1 e1]| | |] eqn:ES; cbn in H; try discriminate.
    destruct (grun c g1 ls) as [[g2 e2]| | |] eqn:ER; cbn in H; inversion H; subst. clear H.
    destruct (gstep_inv _ _ _ _ ES) as (p1 & l & s1 & ev & EO & Eg & Ee & Hl).
    assert (HC : (l1 = [] /\ p1 = p /\ ev = [ERet i cl] /\ e2 = l2) \/
                 exists l1', l1 = e1 ++ l1' /\ e2 = l1' ++ (p, ERet i cl) :: l2).
    { subst e1. destruct (step_ev _ _ _ _ _ EO) as [(i' & cl' & -> & _)|[(i' & cl' & r' & -> & _)|De]].
      - right. destruct l1 as [|x l1]; cbn in H2; inversion H2; subst. exists l1. auto.
      - destruct l1 as [|x l1]; cbn in H2; inversion H2; subst; [left; auto|right; exists l1; auto].
      - right. clear -H2 De. revert l1 H2. induction ev as [|x ev IHe]; intros l1 H2; cbn in H2.
        + exists l1; auto.
        + destruct l1 as [|y l1]; cbn in H2; inversion H2; subst.
          * destruct (De (ERet i cl)) as [? ?]; [left; auto|discriminate].
          * destruct (IHe (fun e He => De e (or_intror He)) l1 H1) as (l1' & -> & ->). exists l1'. auto. }
    destruct HC as [(-> & -> & -> & _)|(l1' & -> & E2)].
    + exists [], g. split; [intros ? []|]. split; [reflexivity|].
      destruct (step_ev _ _ _ _ _ EO) as [(i' & cl' & Q & _)|[(i' & cl' & r' & Q & -> & T & _)|De]].
      * discriminate.
      * inversion Q; subst. split; auto. left. destruct lb; destruct Hl as [<- Hl]; try discriminate.
        inversion Hl; subst; auto.
      * destruct (De (ERet i cl)) as [? ?]; [left; auto|discriminate].
    + destruct (IH _ _ _ _ _ _ _ _ ER E2) as (ls1 & g3 & A & B & C & D).
      exists (lb :: ls1), g3. split; [intros x [->|Hx]; cbn; auto|]. split; [|split; [right; auto|auto]].
      cbn. rewrite ES. cbn. rewrite B. reflexivity.
Qed.

Lemma barrier_completes_ok ls g log b : one_thread_each ls -> grun c g_init ls = Ok (g, log) ->
  barrier_completes b (barrier_op c b) log.
Proof.
  intros O R l1 p i l2 E q Hq.
  destruct (gsplit_ret _ _ _ _ _ _ _ _ _ R E) as (ls1 & g1 & Sub & R1 & Gi & T).
  assert (i = 0) by (apply (O (GGo p i)); auto). subst i.
  assert (O1 : one_thread_each ls1) by (intros x Hx; apply O; auto).
  destruct (grun_ginv _ _ _ _ _ O1 R1 ginv_init) as [A B]. cbn [app] in A.
  assert (IEp : o_ent (g1 p) b = starts p b l1).
  { destruct (A p) as (lp & Op & Rp). destruct (run_invE _ _ _ _ _ Op Rp invE_init) as [IE _].
    rewrite IE. cbn [app]. unfold rest0. rewrite T. cbn [cntE]. rewrite starts_plog. lia. }
  destruct (A q) as (lq & Oq & Rq).
  assert (IEq : o_ent (g1 q) b <= starts q b l1).
  { destruct (run_invE _ _ _ _ _ Oq Rq invE_init) as [IE _]. rewrite IE. cbn [app]. rewrite starts_plog.
    assert (Q := cntE_nonneg b (rest0 (g1 q))). lia. }
  destruct (B _ _ _ T) as [[]|LE]. specialize (LE q Hq).
  split; [lia|].
  intros a j r Ea Hs j' cl id Hr Ho. apply plog_in.
  apply (local_barrier lq (g1 q) (plog q l1) (plog q a) j b (plog q r) j' cl id); auto.
  - rewrite Ea, plog_app. f_equal. unfold plog. cbn. rewrite Z.eqb_refl. reflexivity.
  - rewrite <- starts_plog. lia.
  - apply in_plog; auto.
Qed.

Lemma barrier_all_ok ls g log : one_thread_each ls -> grun c g_init ls = Ok (g, log) ->
  barrier_completes (world_set c)
    (fun cl id => exists o k t dev, cl = CRma XDefault o k id t dev /\ 0 <= t < oc_n c /\
       (oc_dyn c = true \/ o = OHeap \/ o = OData)) log.
Proof.
  intros O R l1 p i l2 E q Hq. destruct (barrier_completes_ok ls g log _ O R l1 p i l2 E q Hq) as [A B].
  split; auto. intros a j r Ea Hs j' cl id Hr (o & k & t & dev & Ec & Ht & Ho).
  apply (B a j r Ea Hs j' cl id Hr). exists o, k, t, dev. split; auto. split; auto. left.
  unfold members, world_set. cbn. apply in_map_iff. exists (Z.to_nat t). split; [lia|]. apply in_seq. lia.
Qed.

(** ** Fence *)
Definition invS (log : list oev) (s : ost) : Prop :=
  (forall j cl m, o_thr s j = Some (cl, m) -> In (EStart j cl) log) /\
  (forall j cl id l m, o_thr s j = Some (cl, m) -> In (MIssue id l) m -> cl_id cl = Some id) /\
  (forall j cl id t m, o_thr s j = Some (cl, m) -> In (MAmPost id t) m -> cl_id cl = Some id) /\
  (forall p, In p (o_pend s) -> exists j cl, In (EStart j cl) log /\ cl_id cl = Some (pd_id p)) /\
  (forall id, In (EDone id) log -> exists j cl, In (EStart j cl) log /\ cl_id cl = Some id).

Lemma call_issue s cl m x : call_steps c s cl = Ok m -> In x m ->
  match x with MIssue id _ | MAmPost id _ => cl_id cl = Some id | _ => True end.
Proof.
  intros H Hin. destruct cl; cbn in H; try (inversion H; subst; destruct Hin as [<-|[]]; exact I).
  - destruct (loc_of c s x0 o); cbn in H; try discriminate.
    destruct (is_direct c s x0 o k dev) as [d| | |]; cbn in H; inversion H; subst.
    destruct d, k; cbn in Hin; intuition (subst; cbn; auto).
  - assert (P := quiet_plain c s _ _ H x Hin). destruct x; auto; contradiction.
  - assert (P := quiet_plain c s _ _ H x Hin). destruct x; auto; contradiction.
  - inversion H; subst. assert (P := barrier_plain c _ x Hin). destruct x; auto; contradiction.
Qed.
Lemma mi_sub r s x rest s' ev rest' y : mi_step c r s x rest = Ok (s', ev, rest') -> In y rest' ->
  match y with MIssue _ _ | MAmPost _ _ => In y (x :: rest) | _ => True end.
Proof.
  intros H Hin. assert (ER : In y rest \/ (exists l, y = MFlushAll l) \/ (exists l, y = MReset l) \/ exists b, y = MLeave b).
  { destruct x; cbn -[space_step] in H;
      repeat match type of H with context [if ?z then _ else _] => destruct z end;
      try (inversion H; subst; auto; fail).
    - inversion H; subst. destruct Hin as [<-|[<-|Hin]]; eauto.
    - inversion H; subst. destruct Hin as [<-|Hin]; eauto.
    - destruct (space_step c s c0); cbn in H; inversion H; subst; auto. }
  destruct ER as [ER|[[l ->]|[[l ->]|[b ->]]]]; auto. destruct y; auto; right; auto.
Qed.
Lemma mi_done r s x rest s' ev rest' id : mi_step c r s x rest = Ok (s', ev, rest') -> In (EDone id) ev ->
  exists p, In p (o_pend s) /\ pd_id p = id.
Proof.
  assert (D : forall f, In (EDone id) (snd (done_ids f s)) -> exists p, In p (o_pend s) /\ pd_id p = id).
  { intros f Hf. cbn in Hf. apply in_map_iff in Hf. destruct Hf as (p & E & Hp). inversion E. exists p.
    apply filter_In in Hp. tauto. }
  intros H Hin. destruct x; cbn -[space_step done_ids] in H;
    repeat match type of H with context [if ?z then _ else _] => destruct z end;
    try (inversion H; subst; destruct Hin; fail).
  - destruct (done_ids (is_id id0) s) as [s1 e1] eqn:E. inversion H; subst. eapply (D (is_id id0)). rewrite E; auto.
  - destruct (done_ids (on_am t) s) as [s1 e1] eqn:E. inversion H; subst. eapply (D (on_am t)). rewrite E; auto.
  - destruct (done_ids (on_win l) s) as [s1 e1] eqn:E. inversion H; subst. eapply (D (on_win l)). rewrite E; auto.
  - destruct (done_ids (on_am t) s) as [s1 e1] eqn:E. inversion H; subst. eapply (D (on_am t)). rewrite E; auto.
  - destruct (space_step c s c0) as [[s1 e1]| | |] eqn:E; cbn in H; inversion H; subst.
    destruct c0; cbn -[done_ids] in E; try (inversion E; subst; destruct Hin; fail).
    + destruct (find_sp s k); inversion E; subst; destruct Hin.
    + destruct (find_sp s k) as [sp|]; [destruct (os_att sp)|]; inversion E; subst; destruct Hin.
    + destruct (find_sp s k) as [sp|]; [destruct (os_att sp)|]; try discriminate.
      destruct (done_ids (of_space k) s) as [s2 e2] eqn:E2. inversion E; subst. eapply (D (of_space k)). rewrite E2; auto.
    + destruct (find_sp s k) as [sp|]; [destruct (os_att sp)|]; inversion E; subst; destruct Hin.
Qed.

Lemma step_invS log s lb s' ev : ostep c s lb = Ok (s', ev) -> invS log s -> invS (log ++ ev) s'.
Proof.
  intros H (A & B & C & D & F).
  assert (AP : forall j cl, In (EStart j cl) log -> In (EStart j cl) (log ++ ev)) by (intros; apply in_or_app; auto).
  assert (D' : forall p, In p (o_pend s) -> exists j cl, In (EStart j cl) (log ++ ev) /\ cl_id cl = Some (pd_id p)).
  { intros p Hp. destruct (D p Hp) as (j & cl & Q & Q'). eauto. }
  assert (F' : forall id, In (EDone id) log -> exists j cl, In (EStart j cl) (log ++ ev) /\ cl_id cl = Some id).
  { intros id Hp. destruct (F id Hp) as (j & cl & Q & Q'). eauto. }
  destruct lb as [i cl|i r|id]; cbn -[done_ids mi_step] in H.
  - destruct (o_thr s i) eqn:T.
    { inversion H; subst. rewrite app_nil_r in *. split; [exact A|]. split; [exact B|]. split; [exact C|]. auto. }
    destruct (call_steps c s cl) as [m| | |] eqn:E; cbn in H; inversion H; subst.
    assert (CI := fun x => call_issue _ _ _ x E).
    split; [|split; [|split; [|split]]].
    + intros j cl' m' Ht. cbn in Ht. apply in_or_app. destruct (i =? j) eqn:Ej; [|eauto].
      inversion Ht; subst. right. left. f_equal. lia.
    + intros j cl' id l m' Ht. cbn in Ht. destruct (i =? j); [|eauto]. inversion Ht; subst. apply (CI (MIssue id l)).
    + intros j cl' id l m' Ht. cbn in Ht. destruct (i =? j); [|eauto]. inversion Ht; subst. apply (CI (MAmPost id l)).
    + auto.
    + intros id Hid. apply in_app_or in Hid. destruct Hid as [Hid|[Hid|[]]]; [auto|discriminate].
  - destruct (o_thr s i) as [[cl [|m rest]]|] eqn:T.
    + inversion H; subst. split; [|split; [|split; [|split]]].
      * intros j cl' m' Ht. cbn in Ht. destruct (i =? j); [discriminate|]. eauto.
      * intros j cl' id l m' Ht. cbn in Ht. destruct (i =? j); [discriminate|]. eauto.
      * intros j cl' id l m' Ht. cbn in Ht. destruct (i =? j); [discriminate|]. eauto.
      * auto.
      * intros id Hid. apply in_app_or in Hid. destruct Hid as [Hid|[Hid|[]]]; [auto|discriminate].
    + destruct (mi_step c r s m rest) as [[[s1 e1] r1]| | |] eqn:E; cbn in H; inversion H; subst.
      assert (TT := mi_thr _ _ _ _ _ _ _ _ E).
      assert (SB := fun y => mi_sub _ _ _ _ _ _ _ y E).
      split; [|split; [|split; [|split]]].
      * intros j cl' m' Ht. cbn in Ht. rewrite TT in Ht. destruct (i =? j) eqn:Ej; [|eauto].
        inversion Ht; subst. replace j with i by lia. eauto.
      * intros j cl' id l m' Ht Hin. cbn in Ht. rewrite TT in Ht. destruct (i =? j) eqn:Ej; [|eauto].
        inversion Ht; subst. eapply B; [exact T|]. exact (SB _ Hin).
      * intros j cl' id l m' Ht Hin. cbn in Ht. rewrite TT in Ht. destruct (i =? j) eqn:Ej; [|eauto].
        inversion Ht; subst. eapply C; [exact T|]. exact (SB _ Hin).
      * intros p Hp. cbn in Hp. destruct (mi_back _ _ _ _ _ _ _ _ _ E Hp) as [Hp0|[(id & l & -> & -> & _)|(id & t & -> & ->)]].
        -- auto.
        -- exists i, cl. split; [eauto|]. cbn. eapply B; [exact T|left; reflexivity].
        -- exists i, cl. split; [eauto|]. cbn. eapply C; [exact T|left; reflexivity].
      * intros id Hid. apply in_app_or in Hid. destruct Hid as [Hid|Hid]; [auto|].
        destruct (mi_done _ _ _ _ _ _ _ _ E Hid) as (p & Hp & <-). auto.
    + inversion H; subst. rewrite app_nil_r in *. split; [exact A|]. split; [exact B|]. split; [exact C|]. auto.
  - inversion H; subst. split; [|split; [|split; [|split]]].
    + intros j cl' m' Ht. cbn in Ht. eauto.
    + intros j cl' id' l m' Ht. cbn in Ht. eauto.
    + intros j cl' id' l m' Ht. cbn in Ht. eauto.
    + intros p Hp. cbn in Hp. apply filter_In in Hp. apply D'. tauto.
    + intros id' Hid. apply in_app_or in Hid. destruct Hid as [Hid|Hid]; [auto|].
      apply in_map_iff in Hid. destruct Hid as (p & Ep & Hp). inversion Ep. apply filter_In in Hp. apply D'. tauto.
Qed.
Lemma run_invS ls : forall s s' log0 log, orun c s ls = Ok (s', log) -> invS log0 s -> invS (log0 ++ log) s'.
Proof.
  induction ls as [|lb ls IH]; intros s s' log0 log H I; cbn in H.
  - inversion H; subst. rewrite app_nil_r. auto.
  - destruct (ostep c s lb) as [[s1 e1]| | |] eqn:E; cbn in H; try discriminate.
    destruct (orun c s1 ls) as [[s2 e2]| | |] eqn:E2; cbn in H; inversion H; subst.
    rewrite app_assoc. eapply IH; eauto. eapply step_invS; eauto.
Qed.
Lemma invS_init : invS [] o_init.
Proof.
  split; [intros j cl m H; discriminate|]. split; [intros j cl id l m H; discriminate|].
  split; [intros j cl id l m H; discriminate|]. split; intros ? [].
Qed.

Lemma prefix_split {A} (P u v Q : list A) (x : A) : P ++ Q = u ++ x :: v -> ~ In x P -> exists w, u = P ++ w.
Proof.
  revert u. induction P as [|a P IH]; intros u E N; cbn in E; [exists u; auto|].
  destruct u as [|b u]; cbn in E; inversion E; subst.
  - exfalso. apply N. left; auto.
  - destruct (IH u H1) as [w ->]; [intros Hx; apply N; right; auto|]. exists w. auto.
Qed.

Lemma fence_order_for P ls s log : completes (quiet_or_fence XDefault) P log -> orun c o_init ls = Ok (s, log) -> fence_orders_for P log.
Proof.
  intros O R l1 l2 l3 i cf E -> N j cl a Hr Ha u v b Eu Hb.
  assert (Q := O l1 l2 l3 i _ E (or_intror eq_refl) N j cl a Hr Ha).
  assert (NB : ~ In (EDone b) (l1 ++ EStart i (CFence XDefault) :: l2)).
  { destruct (run_split_start _ _ _ _ _ _ _ _ _ R E) as (ls1 & ls2 & s1 & m & -> & R1 & T1 & C1 & R2).
    destruct (run_split_ret _ _ _ _ _ _ _ _ _ R2 eq_refl) as (ls3 & r & ls4 & s2 & -> & R3 & T2 & R4).
    assert (RR : orun c o_init (ls1 ++ OCall i (CFence XDefault) :: ls3) = Ok (s2, l1 ++ EStart i (CFence XDefault) :: l2)).
    { rewrite orun_app. rewrite R1. cbn [bind fst snd orun ostep]. rewrite T1, C1. cbn [bind fst snd]. rewrite R3. reflexivity. }
    destruct (run_invS _ _ _ _ _ RR invS_init) as (_ & _ & _ & _ & F). intros HIn.
    destruct (F b HIn) as (j' & cl' & Hs & Hc). destruct cl'; cbn in Hc; inversion Hc; subst.
    apply (Hb j' x o k t dev). cbn in Hs. apply in_app_or in Hs. apply in_or_app. destruct Hs as [Hs|[Hs|Hs]]; auto.
    discriminate. }
  rewrite E in Eu.
  replace (l1 ++ EStart i (CFence XDefault) :: l2 ++ ERet i (CFence XDefault) :: l3)
    with ((l1 ++ EStart i (CFence XDefault) :: l2) ++ ERet i (CFence XDefault) :: l3) in Eu
    by (rewrite <- app_assoc; reflexivity).
  destruct (prefix_split _ _ _ _ _ Eu NB) as [w ->].
  apply in_or_app; left. apply in_app_or in Q. apply in_or_app. destruct Q; [auto|right; right; auto].
Qed.
Lemma fence_order_ok ls s log : one_thread ls -> orun c o_init ls = Ok (s, log) -> fence_orders c log.
Proof. intros O R. eapply fence_order_for; [eapply quiet_one_thread; eauto|exact R]. Qed.

(** ** Quiet with spaces that are not attached *)
Definition once (log : list oev) (k : Z) : Prop := exists i, In (EStart i (CAttach k)) log.
Definition invF (log : list oev) (s : ost) : Prop :=
  (forall j cl m, o_thr s j = Some (cl, m) -> In (EStart j cl) log) /\
  (forall j cl m cl', o_thr s j = Some (cl, m) -> In (MSpace cl') m -> cl' = cl) /\
  (forall j cl m k, o_thr s j = Some (cl, m) -> In (MSetFlag (LDef k)) m -> once log k) /\
  (forall sp, In sp (o_spaces s) -> os_att sp = true -> once log (os_id sp)) /\
  (forall k, o_flag s (LDef k) = true -> once log k) /\
  NoDup (map os_id (o_spaces s)).

Lemma call_mspace s cl m x : call_steps c s cl = Ok m -> In x m ->
  match x with
  | MSpace cl' => cl' = cl
  | MSetFlag (LDef k) => exists sp, find_sp s k = Some sp /\ os_att sp = true
  | _ => True
  end.
Proof.
  intros H Hin.
  assert (Q : forall z, quiet_steps c s z = Ok m -> match x with
  | MSpace cl' => cl' = cl
  | MSetFlag (LDef k) => exists sp, find_sp s k = Some sp /\ os_att sp = true
  | _ => True
  end).
  { intros z Hz. assert (P := plain_flushy c z m s Hz x Hin). destruct x; auto; contradiction. }
  destruct cl; cbn in H; try exact (Q _ H); try (inversion H; subst; destruct Hin as [<-|[]]; reflexivity).
  - destruct (loc_of c s x0 o) as [l| | |] eqn:L; cbn in H; try discriminate.
    destruct (is_direct c s x0 o k dev) as [d| | |]; cbn in H; inversion H; subst.
    destruct d; [|destruct k; cbn in Hin; intuition (subst; auto)].
    assert (HX : x = MSetFlag l \/ match x with MSetFlag _ | MSpace _ => False | _ => True end).
    { destruct k; cbn in Hin; intuition (subst; auto). }
    destruct HX as [->|HX]; [|destruct x; auto; contradiction].
    destruct l as [| | |k'|k' i']; auto. unfold loc_of in L. destruct x0.
    + destruct o; try (destruct (oc_dyn c); discriminate).
      destruct (find_sp s k0) as [sp|] eqn:F; [|discriminate]. destruct (os_att sp) eqn:A; [|discriminate].
      destruct (oc_dyn c); inversion L; subst. eauto.
    + destruct (find_sp s k0) as [sp|]; [|discriminate].
      destruct (os_att sp && (0 <=? i) && (i <? os_nctx sp)); inversion L.
  - inversion H; subst. assert (P := barrier_flushy c _ x Hin). destruct x; auto; contradiction.
Qed.

Lemma upd_sp_ids k a l : map os_id (upd_sp k a l) = map os_id l.
Proof.
  unfold upd_sp. induction l as [|x l IH]; cbn; auto. f_equal; auto. destruct (os_id x =? k) eqn:E; cbn; lia.
Qed.
Lemma in_upd_sp k a l sp : In sp (upd_sp k a l) -> os_att sp = true ->
  (os_id sp = k /\ a = true) \/ (In sp l /\ os_id sp <> k).
Proof.
  unfold upd_sp. intros H A. apply in_map_iff in H. destruct H as (x & E & Hx).
  destruct (os_id x =? k) eqn:Ek; subst; cbn in *; auto. right; split; auto. lia.
Qed.
Lemma NoDup_filter_map {A} (f : A -> Z) (g : A -> bool) l : NoDup (map f l) -> NoDup (map f (filter g l)).
Proof.
  induction l as [|x l IH]; cbn; intros H; auto. inversion H; subst. destruct (g x); cbn; auto.
  constructor; auto. intros Hin. apply H2. apply in_map_iff in Hin. destruct Hin as (y & <- & Hy).
  apply filter_In in Hy. apply in_map. tauto.
Qed.
Lemma NoDup_snoc {A} (l : list A) x : NoDup l -> ~ In x l -> NoDup (l ++ [x]).
Proof.
  induction l as [|y l IH]; intros N H; cbn; [constructor; auto|]. inversion N; subst.
  constructor.
  - intros Hin. apply in_app_or in Hin. destruct Hin as [Hin|[->|[]]]; auto. apply H; left; auto.
  - apply IH; auto. intros Hx; apply H; right; auto.
Qed.

Lemma mi_sub2 r s x rest s' ev rest' y : mi_step c r s x rest = Ok (s', ev, rest') -> In y rest' ->
  match y with MSpace _ | MSetFlag _ => In y (x :: rest) | _ => True end.
Proof.
  intros H Hin. assert (ER : In y rest \/ (exists l, y = MFlushAll l) \/ (exists l, y = MReset l) \/ exists b, y = MLeave b).
  { destruct x; cbn -[space_step] in H;
      repeat match type of H with context [if ?z then _ else _] => destruct z end;
      try (inversion H; subst; auto; fail).
    - inversion H; subst. destruct Hin as [<-|[<-|Hin]]; eauto.
    - inversion H; subst. destruct Hin as [<-|Hin]; eauto.
    - destruct (space_step c s c0); cbn in H; inversion H; subst; auto. }
  destruct ER as [ER|[[l ->]|[[l ->]|[b ->]]]]; auto. destruct y; auto; right; auto.
Qed.
Lemma mi_flag r s x rest s' ev rest' l : mi_step c r s x rest = Ok (s', ev, rest') -> o_flag s' l = true ->
  o_flag s l = true \/ x = MSetFlag l.
Proof.
  intros H. destruct x; cbn -[space_step] in H.
  1,3-8,10-12: repeat match type of H with context [if ?z then _ else _] => destruct z end;
    inversion H; subst; cbn; auto.
  - destruct (oc_track c); inversion H; subst; auto. cbn. destruct (loc_eqb l0 l) eqn:E; auto.
    apply loc_eqb_eq in E. subst. auto.
  - destruct (oc_track c); inversion H; subst; auto. cbn. destruct (loc_eqb l0 l); auto. discriminate.
  - destruct (space_step c s c0) as [[s1 e1]| | |] eqn:E; cbn in H; inversion H; subst.
    destruct c0; cbn in E; try (inversion E; subst; auto; fail).
    + destruct (find_sp s k); inversion E; subst; cbn. destruct l; auto; destruct (k =? k0); auto; discriminate.
    + destruct (find_sp s k) as [sp|]; [destruct (os_att sp)|]; inversion E; subst; cbn.
      destruct l; auto; destruct (k =? k0); auto; discriminate.
    + destruct (find_sp s k) as [sp|]; [destruct (os_att sp)|]; inversion E; subst; cbn; auto.
    + destruct (find_sp s k) as [sp|]; [destruct (os_att sp)|]; inversion E; subst; cbn; auto.
Qed.

Lemma step_invF log s lb s' ev : ostep c s lb = Ok (s', ev) -> invF log s -> invF (log ++ ev) s'.
Proof.
  intros H (A & B & C & D & F & G).
  assert (AP : forall j cl, In (EStart j cl) log -> In (EStart j cl) (log ++ ev)) by (intros; apply in_or_app; auto).
  assert (OP : forall k, once log k -> once (log ++ ev) k) by (intros k [i Hi]; exists i; auto).
  assert (SAME : forall t, o_flag s' = o_flag s -> o_spaces s' = o_spaces s ->
     (forall j cl m, o_thr s' j = Some (cl, m) -> In (EStart j cl) (log ++ ev)) ->
     (forall j cl m cl', o_thr s' j = Some (cl, m) -> In (MSpace cl') m -> cl' = cl) ->
     (forall j cl m k, o_thr s' j = Some (cl, m) -> In (MSetFlag (LDef k)) m -> once (log ++ ev) k) ->
     t = tt -> invF (log ++ ev) s').
  { intros _ E1 E2 X1 X2 X3 _. split; [exact X1|]. split; [exact X2|]. split; [exact X3|].
    rewrite E2. split; [intros; apply OP; auto|]. rewrite E1. split; auto. }
  destruct lb as [i cl|i r|id]; cbn -[done_ids mi_step] in H.
  - destruct (o_thr s i) eqn:T.
    { inversion H; subst. rewrite app_nil_r in *. apply (SAME tt); auto; rewrite ?app_nil_r; eauto. }
    destruct (call_steps c s cl) as [m| | |] eqn:E; cbn in H; inversion H; subst.
    assert (CI := fun x => call_mspace _ _ _ x E).
    apply (SAME tt); auto.
    + intros j cl' m' Ht. cbn in Ht. apply in_or_app. destruct (i =? j) eqn:Ej; [|eauto].
      inversion Ht; subst. right. left. f_equal. lia.
    + intros j cl' m' cl2 Ht. cbn in Ht. destruct (i =? j); [|eauto]. inversion Ht; subst. apply (CI (MSpace cl2)).
    + intros j cl' m' k Ht Hin. cbn in Ht. destruct (i =? j); [|eauto]. inversion Ht; subst.
      destruct (CI _ Hin) as (sp & Fs & As). apply find_some in Fs. destruct Fs as [Fs Ek].
      replace k with (os_id sp) by lia. auto.
  - destruct (o_thr s i) as [[cl [|m rest]]|] eqn:T.
    + inversion H; subst. apply (SAME tt); auto.
      * intros j cl' m' Ht. cbn in Ht. destruct (i =? j); [discriminate|]. eauto.
      * intros j cl' m' cl2 Ht. cbn in Ht. destruct (i =? j); [discriminate|]. eauto.
      * intros j cl' m' k Ht. cbn in Ht. destruct (i =? j); [discriminate|]. eauto.
    + destruct (mi_step c r s m rest) as [[[s1 e1] r1]| | |] eqn:E; cbn in H; inversion H; subst.
      assert (TT := mi_thr _ _ _ _ _ _ _ _ E).
      assert (SB := fun y => mi_sub2 _ _ _ _ _ _ _ y E).
      split; [|split; [|split; [|split; [|split]]]].
      * intros j cl' m' Ht. cbn in Ht. rewrite TT in Ht. destruct (i =? j) eqn:Ej; [|eauto].
        inversion Ht; subst. replace j with i by lia. eauto.
      * intros j cl' m' cl2 Ht Hin. cbn in Ht. rewrite TT in Ht. destruct (i =? j) eqn:Ej; [|eauto].
        inversion Ht; subst. eapply B; [exact T|]. exact (SB _ Hin).
      * intros j cl' m' k Ht Hin. cbn in Ht. rewrite TT in Ht. destruct (i =? j) eqn:Ej; [|eauto].
        inversion Ht; subst. apply OP. eapply C; [exact T|]. exact (SB _ Hin).
      * cbn. intros sp Hsp Ha. destruct (mi_spaces _ _ _ _ _ _ _ _ E) as [Es|(cl' & -> & Es & ->)].
        { rewrite Es in Hsp. auto. }
        assert (cl' = cl) by (eapply B; [exact T|left; reflexivity]). subst cl'.
        assert (ST := A _ _ _ T).
        destruct cl; cbn -[done_ids] in Es; try (inversion Es; subst; auto; fail).
        -- destruct (find_sp s k); inversion Es; subst. cbn in Hsp. apply in_app_or in Hsp.
           destruct Hsp as [Hsp|[<-|[]]]; auto. discriminate.
        -- destruct (find_sp s k) as [sp0|]; [destruct (os_att sp0)|]; inversion Es; subst. cbn in Hsp.
           destruct (in_upd_sp _ _ _ _ Hsp Ha) as [[Ek _]|[Hs _]]; auto. rewrite Ek. apply OP. exists i. auto.
        -- destruct (find_sp s k) as [sp0|]; [destruct (os_att sp0)|]; inversion Es; subst. cbn in Hsp.
           destruct (in_upd_sp _ _ _ _ Hsp Ha) as [[_ Q]|[Hs _]]; auto. discriminate.
        -- destruct (find_sp s k) as [sp0|]; [destruct (os_att sp0)|]; inversion Es; subst. cbn in Hsp.
           apply filter_In in Hsp. apply OP. apply D; tauto.
      * cbn. intros k Hf. apply OP. destruct (mi_flag _ _ _ _ _ _ _ _ E Hf) as [Q| ->]; auto.
        eapply C; [exact T|left; reflexivity].
      * cbn. destruct (mi_spaces _ _ _ _ _ _ _ _ E) as [Es|(cl' & -> & Es & ->)]; [rewrite Es; auto|].
        destruct cl'; cbn -[done_ids] in Es; try (inversion Es; subst; auto; fail).
        -- destruct (find_sp s k) eqn:Fk; inversion Es; subst. cbn. rewrite map_app. cbn. apply NoDup_snoc; auto.
           intros Hin. apply in_map_iff in Hin. destruct Hin as (sp & Ek & Hs).
           unfold find_sp in Fk. apply (find_none _ _ Fk) in Hs. lia.
        -- destruct (find_sp s k) as [sp0|]; [destruct (os_att sp0)|]; inversion Es; subst. cbn. rewrite upd_sp_ids. auto.
        -- destruct (find_sp s k) as [sp0|]; [destruct (os_att sp0)|]; inversion Es; subst. cbn. rewrite upd_sp_ids. auto.
        -- destruct (find_sp s k) as [sp0|]; [destruct (os_att sp0)|]; inversion Es; subst. cbn. apply NoDup_filter_map. auto.
    + inversion H; subst. rewrite app_nil_r in *. apply (SAME tt); auto; rewrite ?app_nil_r; eauto.
  - inversion H; subst. apply (SAME tt); auto; cbn; eauto.
Qed.
Lemma run_invF ls : forall s s' log0 log, orun c s ls = Ok (s', log) -> invF log0 s -> invF (log0 ++ log) s'.
Proof.
  induction ls as [|lb ls IH]; intros s s' log0 log H I; cbn in H.
  - inversion H; subst. rewrite app_nil_r. auto.
  - destruct (ostep c s lb) as [[s1 e1]| | |] eqn:E; cbn in H; try discriminate.
    destruct (orun c s1 ls) as [[s2 e2]| | |] eqn:E2; cbn in H; inversion H; subst.
    rewrite app_assoc. eapply IH; eauto. eapply step_invF; eauto.
Qed.
Lemma invF_init : invF [] o_init.
Proof.
  split; [intros j cl m H; discriminate|]. split; [intros j cl m k H; discriminate|].
  split; [intros j cl m k H; discriminate|]. split; [intros ? []|]. split; [intros k H; discriminate|constructor].
Qed.

Lemma find_nodup l sp : NoDup (map os_id l) -> In sp l -> find (fun x => os_id x =? os_id sp) l = Some sp.
Proof.
  induction l as [|x l IH]; intros N H; [destruct H|]. inversion N; subst. cbn.
  destruct H as [->|H]; [rewrite Z.eqb_refl; auto|].
  destruct (os_id x =? os_id sp) eqn:E; [|auto]. exfalso. apply H2. replace (os_id x) with (os_id sp) by lia.
  apply in_map; auto.
Qed.

(** What quiet can do without going wrong. *)
Definition runs (s : ost) (x : mi) : Prop :=
  match x with
  | MCheck l => win_ok c s l = true \/ (oc_track c = true /\ o_flag s l = false)
  | MAmFlush _ => True
  | _ => False
  end.
Lemma runs_ext s s' x : o_spaces s' = o_spaces s -> (forall l, o_flag s l = false -> o_flag s' l = false) ->
  runs s x -> runs s' x.
Proof.
  intros E F. destruct x; cbn; auto. intros [W|[T W]]; [left|right; auto].
  rewrite (win_ok_ext c s' s l E). auto.
Qed.

Lemma run_quiet m : forall s i cl, o_thr s i = Some (cl, m) -> (forall x, In x m -> runs s x) ->
  exists n s' log, orun c s (repeat (OGo i true) n) = Ok (s', log) /\ o_thr s' i = None /\ In (ERet i cl) log.
Proof.
  induction m as [|x m IH]; intros s i cl T HR.
  - exists 1%nat, (set_thr s i None), [ERet i cl]. cbn. rewrite T. cbn. rewrite Z.eqb_refl. auto.
  - assert (Rx := HR x (or_introl eq_refl)).
    assert (NXT : exists n s1 ev, orun c s (repeat (OGo i true) n) = Ok (s1, ev) /\ o_thr s1 i = Some (cl, m) /\
       o_spaces s1 = o_spaces s /\ forall l, o_flag s l = false -> o_flag s1 l = false).
    { destruct x; cbn in Rx; try contradiction.
      - destruct (oc_track c && negb (o_flag s l)) eqn:E.
        + exists 1%nat. cbn. rewrite T. cbn. rewrite E. cbn. eexists _, _. split; [reflexivity|].
          cbn. rewrite Z.eqb_refl. auto.
        + destruct Rx as [W|[Tr Fl]]; [|rewrite Tr, Fl in E; discriminate].
          exists 3%nat. cbn -[win_ok done_ids]. rewrite T. cbn -[win_ok done_ids]. rewrite E.
          cbn -[win_ok done_ids]. rewrite Z.eqb_refl. cbn -[win_ok done_ids].
          rewrite (win_ok_ext c (set_thr s i (Some (cl, MFlushAll l :: MReset l :: m))) s l eq_refl), W.
          cbn -[win_ok]. rewrite Z.eqb_refl. cbn -[win_ok]. eexists _, _. split; [reflexivity|].
          cbn. rewrite Z.eqb_refl. split; auto. destruct (oc_track c); cbn; split; auto.
          intros l' Hl'. destruct (loc_eqb l l'); auto.
      - exists 1%nat. cbn. rewrite T. cbn. destruct (o_am s t); cbn; eexists _, _; (split; [reflexivity|]);
          cbn; rewrite Z.eqb_refl; auto. }
    destruct NXT as (n & s1 & ev & R1 & T1 & E1 & F1).
    destruct (IH s1 i cl T1) as (n2 & s2 & l2 & R2 & T2 & H2).
    { intros y Hy. eapply runs_ext; eauto. apply HR; right; auto. }
    exists (n + n2)%nat, s2, (ev ++ l2). rewrite repeat_app, orun_app, R1. cbn [bind fst snd]. rewrite R2. cbn.
    split; auto. split; auto. apply in_or_app; auto.
Qed.

Lemma quiet_returns ls s log i x : orun c o_init ls = Ok (s, log) -> o_thr s i = None ->
  (forall sp, In sp (o_spaces s) -> quiet_safe c log sp) -> quiet_or_fence XDefault x ->
  exists n s' log', orun c s (OCall i x :: repeat (OGo i true) n) = Ok (s', log') /\
    o_thr s' i = None /\ In (ERet i x) log'.
Proof.
  intros R T QS Hx.
  destruct (run_invF _ _ _ _ _ R invF_init) as (_ & _ & _ & _ & FL & ND). cbn in FL.
  assert (SL : forall l, (forall sp, In sp l -> quiet_safe c log sp) -> exists sl, space_locs c l = Ok sl /\
     forall z, In z sl -> (exists sp i, In sp l /\ os_att sp = true /\ z = LCtx (os_id sp) i /\ 0 <= i < os_nctx sp) \/
                          (exists sp, In sp l /\ oc_dyn c = false /\ z = LDef (os_id sp))).
  { induction l as [|sp l IH]; intros Q; cbn; [exists []; split; auto; intros z []|].
    destruct IH as (sl & -> & HS); [intros; apply Q; right; auto|].
    assert (Q0 := Q sp (or_introl eq_refl)).
    replace ((0 <? os_nctx sp) && negb (os_att sp)) with false
      by (destruct Q0 as [Q0|[Q0 _]]; [rewrite Q0; rewrite andb_false_r; auto|replace (0 <? os_nctx sp) with false by lia; auto]).
    cbn. eexists. split; [reflexivity|]. intros z Hz. apply in_app_or in Hz. destruct Hz as [Hz|Hz].
    - left. unfold ctx_locs in Hz. apply in_map_iff in Hz. destruct Hz as (n & <- & Hn). apply in_seq in Hn.
      exists sp, (Z.of_nat n). split; [left; auto|]. split; [|split; [auto|lia]].
      destruct Q0 as [Q0|[Q0 _]]; auto. lia.
    - apply in_app_or in Hz. destruct Hz as [Hz|Hz].
      + right. exists sp. destruct (oc_dyn c); [destruct Hz|]. destruct Hz as [<-|[]]. cbn; auto.
      + destruct (HS z Hz) as [(sp' & i' & ? & ?)|(sp' & ? & ?)]; [left; exists sp', i'|right; exists sp']; cbn; tauto. }
  destruct (SL (o_spaces s) QS) as (sl & ESL & HSL).
  assert (CS : exists m, call_steps c s x = Ok m /\ forall y, In y m -> runs s y).
  { rewrite (quiet_steps_of c _ _ s Hx). unfold quiet_steps. rewrite ESL. cbn. eexists. split; [reflexivity|].
    intros y Hy. apply in_app_or in Hy. destruct Hy as [Hy|Hy].
    { apply in_map_iff in Hy. destruct Hy as (l & <- & Hl). cbn. left. unfold symm_locs in Hl.
      destruct (oc_dyn c) eqn:ED; cbn in Hl; intuition (subst; cbn; rewrite ED; auto). }
    apply in_app_or in Hy. destruct Hy as [Hy|Hy].
    2: { unfold am_flush_steps in Hy. destruct (no_am c); [destruct Hy|].
         apply in_map_iff in Hy. destruct Hy as (? & <- & _). exact I. }
    apply in_map_iff in Hy. destruct Hy as (l & <- & Hl).
    destruct (HSL l Hl) as [(sp & i' & Hs & Ha & -> & Hi)|(sp & Hs & Hd & ->)].
    - left. cbn. unfold find_sp. rewrite (find_nodup _ _ ND Hs), Ha. lia.
    - cbn. unfold find_sp. rewrite (find_nodup _ _ ND Hs), Hd. cbn.
      destruct (QS sp Hs) as [Q|[_ [Q|[Q1 Q2]]]]; [left; auto|congruence|].
      right. split; auto. destruct (o_flag s (LDef (os_id sp))) eqn:EF; auto.
      exfalso. destruct (FL _ EF) as [i' Hi']. exact (Q2 i' Hi'). }
  destruct CS as (m & CS & HR).
  destruct (run_quiet m (set_thr s i (Some (x, m))) i x) as (n & s' & l' & R' & T' & H').
  { cbn. rewrite Z.eqb_refl. auto. }
  { intros y Hy. eapply runs_ext; [| |apply HR; auto]; auto. }
  exists n, s', (EStart i x :: l'). cbn [orun ostep]. rewrite T, CS. cbn [bind fst snd]. rewrite R'. cbn.
  split; auto.
Qed.
End One.
