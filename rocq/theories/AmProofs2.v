From Verif Require Import Base BaseProofs ListLib LockModel LockProofs AmModel AmProofs.
Require Import Permutation.

Section AmProofs2.
Variables A D M R : Type.
Variable exec : A -> option D -> M -> outcome (M * R).
Variable ub : Z.
Variable n : Z.
Variable m0 : Z -> M.
Hypothesis ub_int : ub <= INT_MAX.
Notation req := (req A D).
Notation msg := (msg A D).
Notation amsg := (amsg A D R).
Notation tst := (tst A D R).
Notation ast := (ast A D M R).
Notation inv := (inv A D M R exec m0).
Notation step := (step exec ub n).
Notation run := (run exec ub n).
Notation hreqs := (hreqs A D).
Notation htags := (htags A D).
Notation cbp := (cbp A D).
Notation cbv := (cbv A D).
Notation flight := (flight A D R).
Notation CN := (CN A D).
Notation CR := (CR A D).
Notation CA := (CA A D).
Notation hist := (hist A D R).

(** ** Histories only grow *)

Lemma run_cb_log s t p g (r : req) od q : exists l, a_log (run_cb exec s t p g r od) q = a_log s q ++ l.
Proof.
  unfold run_cb. destruct (exec (rq_args r) od (a_mem s t)) as [[m x]| | |]; try (exists []; rewrite app_nil_r; reflexivity).
  assert (H : exists l, a_log (handled s t m p r x) q = a_log s q ++ l).
  { cbn. destruct (Z.eq_dec q t) as [->|Hq]; [rewrite fset_eq; eauto|rewrite fset_ne by exact Hq; exists []; rewrite app_nil_r; reflexivity]. }
  destruct (rq_kind r); exact H.
Qed.

Ltac same := exists []; rewrite app_nil_r; reflexivity.

Lemma step_log s l q : exists l', a_log (fst (step s l)) q = a_log s q ++ l'.
Proof.
  destruct l as [p i t r|p i ps|p i|p i|t p any]; unfold AmModel.step.
  - destruct (is_pe n p && is_pe n t && req_ok r); [|same]. destruct (a_thr s p i); try same. cbn zeta.
    destruct (rq_kind r); [same| |]; (destruct (am_ptag true ub _); same).
  - destruct (is_pe n p && forallb (is_pe n) ps && nodup_z ps); [|same]. destruct (a_thr s p i); same.
  - destruct (is_pe n p && (i =? 0)); [|same]. destruct (a_thr s p i); same.
  - destruct (is_pe n p); [|same]. destruct (a_thr s p i) as [|t g r|t g r|t g r|t v r x|todo ps|todo g w ps|w g ps|todo ps| | |]; try same.
    + destruct (rq_data r); same.
    + destruct (take_ack g (a_ack s t p)) as [[[[? ?]|] ?]|]; same.
    + destruct todo; [same|]. destruct (a_flag s p z); [destruct (am_ptag true ub _); same|same].
    + destruct todo; [same|]. destruct (a_flag s p z); same.
    + destruct w; [same|]. destruct (take_ack g (a_ack s z p)) as [[? ?]|]; same.
    + destruct todo; same.
    + destruct (forallb _ (zrange n)); same.
  - destruct (is_pe n t && is_pe n p); [|same].
    destruct (a_cb s t) as [|q' g r| |q' r|]; try same.
    + destruct (take_hdr any (a_comm s p t)) as [[[[g r|g|]|g d] c]|]; try same.
      cbn zeta. destruct (rq_kind r); [|same|]; cbn [fst]; exact (run_cb_log (set_comm s p t c) t p g r _ q).
    + destruct (take_data g (a_comm s q' t)) as [[d c]|]; [|same]. cbn [fst]. exact (run_cb_log (set_comm s q' t c) t q' g r _ q).
Qed.

Lemma run_log ls : forall s q, exists l, a_log (fst (run s ls)) q = a_log s q ++ l.
Proof.
  induction ls as [|l ls IH]; intros s q; [same|]. simpl.
  destruct (step_log s l q) as (l1 & E1). destruct (step s l) as [s1 e1]. destruct (IH s1 q) as (l2 & E2).
  destruct (run s1 ls) as [s2 e2]. simpl in *. exists (l1 ++ l2). rewrite E2, E1, app_assoc. reflexivity.
Qed.

(** ** What a returning operation returns *)

Definition ret_ok (s : ast) (e : aev A D R) : Prop :=
  match e with
  | ERet p i t r (Some x) => In (p, r, x) (a_log s t)
  | ERet p i t r None => rq_kind r <> KFetch
  | EFlushed _ _ _ => True
  end.

Lemma step_ret s l : inv s -> Forall (ret_ok (fst (step s l))) (snd (step s l)).
Proof.
  intros I. destruct l as [p i t r|p i ps|p i|p i|t p any]; unfold AmModel.step.
  - destruct (is_pe n p && is_pe n t && req_ok r); [|constructor]. destruct (a_thr s p i); try constructor. cbn zeta.
    destruct (rq_kind r); [constructor| |]; (destruct (am_ptag true ub _); constructor).
  - destruct (is_pe n p && forallb (is_pe n) ps && nodup_z ps); [|constructor]. destruct (a_thr s p i); constructor.
  - destruct (is_pe n p && (i =? 0)); [|constructor]. destruct (a_thr s p i); constructor.
  - destruct (is_pe n p); [|constructor].
    destruct (a_thr s p i) as [|t g r|t g r|t g r|t v r x|todo ps|todo g w ps|w g ps|todo ps| | |] eqn:EX; try constructor.
    + destruct (rq_data r); constructor.
    + destruct (take_ack g (a_ack s t p)) as [[[[? ?]|] ?]|]; constructor.
    + pose proof (in_ret _ _ _ _ _ _ _ I _ _ _ _ _ _ EX) as H. destruct x; exact H.
    + constructor.
    + destruct todo; [repeat constructor|]. destruct (a_flag s p z); [destruct (am_ptag true ub _); constructor|constructor].
    + destruct todo; [constructor|]. destruct (a_flag s p z); constructor.
    + destruct w; [constructor|]. destruct (take_ack g (a_ack s z p)) as [[? ?]|]; constructor.
    + destruct todo; repeat constructor.
    + destruct (forallb _ (zrange n)); constructor.
  - destruct (is_pe n t && is_pe n p); [|constructor].
    destruct (a_cb s t) as [|q' g r| |q' r|]; try constructor.
    + destruct (take_hdr any (a_comm s p t)) as [[[[g r|g|]|g d] c]|]; try constructor.
      cbn zeta. destruct (rq_kind r); constructor.
    + destruct (take_data g (a_comm s q' t)) as [[d c]|]; constructor.
Qed.

Lemma run_ret ls : forall s, inv s -> Forall (ret_ok (fst (run s ls))) (snd (run s ls)).
Proof.
  induction ls as [|l ls IH]; intros s I; [constructor|]. simpl.
  pose proof (step_ret s l I) as H1. pose proof (inv_step _ _ _ _ exec ub n m0 ub_int s l I) as I1.
  destruct (step s l) as [s1 e1]. simpl in H1, I1. pose proof (IH s1 I1) as H2.
  pose proof (run_log ls s1) as HL. destruct (run s1 ls) as [s2 e2]. simpl in *.
  apply Forall_app. split; [|exact H2].
  eapply Forall_impl; [|exact H1]. intros [p i t r [x|]|p i ps]; simpl; auto.
  intros H. destruct (HL t) as (l' & ->). apply in_or_app. left. exact H.
Qed.

(** ** One thread *)

Definition quiet (v : cbv) (c : list msg) : Prop := hreqs c = [] /\ cbreqs A D v = [].
Definition tailed (c : list msg) (h : hdr A D) : Prop := exists c', c = c' ++ [MH h].

Definition Q (X : tst) (f : bool) (v : cbv) (c : list msg) (k : list amsg) (t : Z) : Prop :=
  match X with
  | TData t' _ _ | TFlag t' true _ _ => t' = t \/ (f = false -> quiet v c)
  | TFlag t' false _ _ => (t' = t -> quiet v c) /\ (f = false -> quiet v c)
  | TAck t' g r =>
      (t' = t -> tailed c (HReq g r) \/ quiet v c \/ ~ In g (flight v c k)) /\ (t' <> t -> f = false -> quiet v c)
  | TFCount todo ps => (f = false -> quiet v c) /\ (In t ps -> ~ In t todo -> quiet v c)
  | TFSend todo g w ps =>
      (In t w -> tailed c (HFlush g) \/ quiet v c) /\ (~ In t w -> f = false -> quiet v c) /\
      (In t ps -> ~ In t w -> ~ In t todo -> quiet v c)
  | TFWait w g ps =>
      (In t w -> tailed c (HFlush g) \/ quiet v c) /\ (~ In t w -> f = false -> quiet v c) /\
      (In t ps -> ~ In t w -> quiet v c)
  | TFReset todo ps => (In t todo -> In t ps) /\ (In t ps -> quiet v c) /\ (f = false -> quiet v c)
  | _ => f = false -> quiet v c
  end.

Definition pend (X : tst) (t : Z) : list req :=
  match X with TTag t' _ r => if t' =? t then [r] else [] | _ => [] end.

Record SI (p : Z) (s : ast) : Prop := mkSI {
  si_idle : forall i, i <> 0 -> a_thr s p i = TIdle;
  si_call : forall t, exists l, a_called s p t = a_issued s p t ++ l /\
              (a_thr s p 0 <> TAbort -> l = pend (a_thr s p 0) t);
  si_q : forall t, Q (a_thr s p 0) (a_flag s p t) (cbp (a_cb s t) p) (a_comm s p t) (a_ack s t p) t
}.

(** The callback engine. *)
Record cbrel (v v' : cbv) (c c' : list msg) (k k' : list amsg) : Prop := mkCR {
  cr_quiet : quiet v c -> quiet v' c';
  cr_flush : forall g, tailed c (HFlush g) -> tailed c' (HFlush g) \/ quiet v' c';
  cr_req : forall g r, rq_kind r = KFetch -> tailed c (HReq g r) ->
             tailed c' (HReq g r) \/ quiet v' c' \/ ~ In g (flight v' c' k');
  cr_sub : forall g, In g (flight v' c' k') -> In g (flight v c k)
}.

Lemma cbrel_Q X f v v' c c' k k' t : thr_ok A D R X -> cbrel v v' c c' k k' -> Q X f v c k t -> Q X f v' c' k' t.
Proof.
  intros HO [H1 H2 H3 H4]. destruct X as [|t' g r|t' g r|t' g r|t' b r x|todo ps|todo g w ps|w g ps|todo ps| | |]; simpl; try tauto.
  - intros [F1 F2]. split; [|tauto]. intros E. destruct HO as [_ K]. destruct (F1 E) as [F|[F|F]]; [apply H3; auto|auto|right; right; auto].
  - destruct b; tauto.
  - intros (F1 & F2 & F3). split; [intros HI; destruct (F1 HI) as [F|F]; auto|split; tauto].
  - intros (F1 & F2 & F3). split; [intros HI; destruct (F1 HI) as [F|F]; auto|split; tauto].
Qed.

Lemma cbrel_refl v c k : cbrel v v c c k k.
Proof. constructor; auto. Qed.

Lemma tailed_cons h0 c h : tailed (MH h0 :: c) h -> tailed c h \/ (c = [] /\ h0 = h).
Proof.
  intros ([|m c2] & E); simpl in E; injection E as E1 E2; [right|left].
  - split; congruence.
  - exists c2. exact E2.
Qed.

Lemma take_data_tail g d c : forall c' h, take_data g (c ++ [MH h]) = Some (d, c') -> tailed c' h.
Proof.
  induction c as [|[h0|g0 d0] c IH]; intros c' h E; simpl in E; [discriminate| |].
  - destruct (take_data g (c ++ [MH h])) as [[x r]|] eqn:E2; [|discriminate]. injection E as -> <-.
    destruct (IH _ _ E2) as (c2 & ->). exists (MH h0 :: c2). reflexivity.
  - destruct (g0 =? g); [injection E as -> <-; exists c; reflexivity|].
    destruct (take_data g (c ++ [MH h])) as [[x r]|] eqn:E2; [|discriminate]. injection E as -> <-.
    destruct (IH _ _ E2) as (c2 & ->). exists (MD g0 d0 :: c2). reflexivity.
Qed.

Lemma cb_step_rel s t0 p0 any p t : inv s ->
  let s' := fst (step s (LCb t0 p0 any)) in
  cbrel (cbp (a_cb s t) p) (cbp (a_cb s' t) p) (a_comm s p t) (a_comm s' p t) (a_ack s t p) (a_ack s' t p).
Proof.
  intros I. unfold AmModel.step. destruct (is_pe n t0 && is_pe n p0); [|apply cbrel_refl].
  destruct (a_cb s t0) as [|q g r| |q r|] eqn:EC; try apply cbrel_refl.
  - destruct (take_hdr any (a_comm s p0 t0)) as [[m c]|] eqn:E; [|apply cbrel_refl].
    pose proof (in_p _ _ _ _ _ _ _ I p0 t0) as P. rewrite EC in P. cbn [AmProofs.cbp] in P.
    destruct (pi_scan _ _ _ _ _ _ _ _ _ _ _ _ P) as (S & S1 & _).
    destruct (scan_head _ _ any _ S m c S1 E) as (h & -> & Ec). rewrite Ec in P. cbn zeta.
    destruct (Z.eq_dec t t0) as [->|Ht].
    2:{ assert (H : forall s' : ast, a_cb s' t = a_cb s t -> a_comm s' p t = a_comm s p t -> a_ack s' t p = a_ack s t p ->
          cbrel (cbp (a_cb s t) p) (cbp (a_cb s' t) p) (a_comm s p t) (a_comm s' p t) (a_ack s t p) (a_ack s' t p)).
        { intros s' -> -> ->. apply cbrel_refl. }
        apply H.
        - destruct h as [g r|g|]; [destruct (rq_kind r) eqn:K|..]; cbn [fst]; unfold run_cb; try destruct (exec _ _ _) as [[? ?]| | |]; try rewrite K;
            cbn; rewrite ?fset_ne by exact Ht; reflexivity.
        - destruct h as [g r|g|]; [destruct (rq_kind r) eqn:K|..]; cbn [fst]; unfold run_cb; try destruct (exec _ _ _) as [[? ?]| | |]; try rewrite K;
            cbn; rewrite ?fset2_ne by tauto; reflexivity.
        - destruct h as [g r|g|]; [destruct (rq_kind r) eqn:K|..]; cbn [fst]; unfold run_cb; try destruct (exec _ _ _) as [[? ?]| | |]; try rewrite K;
            cbn; rewrite ?fset2_ne by tauto; reflexivity. }
    destruct (Z.eq_dec p p0) as [->|Hp].
    2:{ assert (H : forall s' : ast, (cbp (a_cb s' t0) p = CN) -> a_comm s' p t0 = a_comm s p t0 -> a_ack s' t0 p = a_ack s t0 p ->
          cbrel (cbp (a_cb s t0) p) (cbp (a_cb s' t0) p) (a_comm s p t0) (a_comm s' p t0) (a_ack s t0 p) (a_ack s' t0 p)).
        { intros s' -> -> ->. rewrite EC. apply cbrel_refl. }
        apply H.
        - destruct h as [g r|g|]; [destruct (rq_kind r) eqn:K|..]; cbn [fst]; unfold run_cb; try destruct (exec _ _ _) as [[? ?]| | |]; try rewrite K;
            cbn; rewrite ?fset_eq, ?EC; cbn; try reflexivity; destruct (Z.eqb_spec p0 p); congruence.
        - destruct h as [g r|g|]; [destruct (rq_kind r) eqn:K|..]; cbn [fst]; unfold run_cb; try destruct (exec _ _ _) as [[? ?]| | |]; try rewrite K;
            cbn; rewrite ?fset2_ne by tauto; reflexivity.
        - destruct h as [g r|g|]; [destruct (rq_kind r) eqn:K|..]; cbn [fst]; unfold run_cb; try destruct (exec _ _ _) as [[? ?]| | |]; try rewrite K;
            cbn; rewrite ?fset2_ne by tauto; reflexivity. }
    rewrite EC, Ec. cbn [AmProofs.cbp].
    destruct h as [g r|g|].
    + assert (HR : rq_kind r <> KPut -> cbrel CN (cbp (a_cb (run_cb exec (set_comm s p0 t0 c) t0 p0 g r None) t0) p0) (MH (HReq g r) :: c)
               (a_comm (run_cb exec (set_comm s p0 t0 c) t0 p0 g r None) p0 t0) (a_ack s t0 p0) (a_ack (run_cb exec (set_comm s p0 t0 c) t0 p0 g r None) t0 p0)).
      { intros K.
        assert (Ecm : a_comm (run_cb exec (set_comm s p0 t0 c) t0 p0 g r None) p0 t0 = c).
        { unfold run_cb. destruct (exec _ _ _) as [[? ?]| | |]; [destruct (rq_kind r)|..]; cbn; apply fset2_eq. }
        rewrite Ecm. constructor.
        - intros [H _]. discriminate.
        - intros g' H. apply tailed_cons in H. destruct H as [H|[_ H]]; [left; exact H|discriminate].
        - intros g' r' K' H. apply tailed_cons in H. destruct H as [H|[Hc H]]; [left; exact H|]. injection H as <- <-. right.
          assert (HA : forall s' : ast, s' = set_cb (set_comm s p0 t0 c) t0 (CbAbort p0 r) ->
             quiet (cbp (a_cb s' t0) p0) c \/ ~ In g (flight (cbp (a_cb s' t0) p0) c (a_ack s' t0 p0))).
          { intros s' ->. right. cbn. rewrite fset_eq. cbn. rewrite Z.eqb_refl. subst c. cbn.
            pose proof (pi_nodup _ _ _ _ _ _ _ _ _ _ _ _ P) as ND. unfold AmProofs.flight, AmProofs.htags in ND. cbn in ND. rewrite K' in ND. cbn in ND.
            inversion ND. assumption. }
          unfold run_cb. destruct (exec _ _ _) as [[m x]| | |]; try (apply HA; reflexivity). rewrite K'. cbn. rewrite fset_eq.
          left. subst c. split; reflexivity.
        - intros g'. unfold run_cb. destruct (exec _ _ _) as [[m x]| | |]; [destruct (rq_kind r) eqn:K1|..]; cbn; rewrite ?fset_eq, ?fset2_eq; cbn; rewrite ?Z.eqb_refl;
            unfold AmProofs.flight, AmProofs.htags; cbn; rewrite ?K1; cbn; rewrite ?map_app, ?in_app_iff; cbn; try tauto. }
      destruct (rq_kind r) eqn:K; [apply HR; discriminate| |apply HR; discriminate].
      cbn. rewrite fset_eq, fset2_eq. cbn. rewrite Z.eqb_refl. constructor.
      * intros [H _]. discriminate.
      * intros g' H. apply tailed_cons in H. destruct H as [H|[_ H]]; [left; exact H|discriminate].
      * intros g' r' K' H. apply tailed_cons in H. destruct H as [H|[_ H]]; [left; exact H|]. injection H as <- <-. congruence.
      * intros g'. unfold AmProofs.flight, AmProofs.htags. cbn. rewrite K. cbn. tauto.
    + cbn. rewrite !fset2_eq, EC. cbn. constructor.
      * intros [H1 H2]. split; [exact H1|reflexivity].
      * intros g' H. apply tailed_cons in H. destruct H as [H|[-> H]]; [left; exact H|]. right. split; reflexivity.
      * intros g' r' K' H. apply tailed_cons in H. destruct H as [H|[_ H]]; [left; exact H|discriminate].
      * intros g'. unfold AmProofs.flight, AmProofs.htags. cbn. rewrite map_app, !in_app_iff. cbn. tauto.
    + cbn. rewrite !fset2_eq, fset_eq. cbn. constructor.
      * intros [H1 H2]. split; [exact H1|reflexivity].
      * intros g' H. apply tailed_cons in H. destruct H as [H|[_ H]]; [left; exact H|discriminate].
      * intros g' r' K' H. apply tailed_cons in H. destruct H as [H|[_ H]]; [left; exact H|discriminate].
      * intros g'. unfold AmProofs.flight, AmProofs.htags. cbn. tauto.
  - destruct (take_data g (a_comm s q t0)) as [[d c]|] eqn:E; [|apply cbrel_refl]. cbn [fst].
    pose proof (in_p _ _ _ _ _ _ _ I q t0) as P. rewrite EC in P. cbn [AmProofs.cbp] in P. rewrite Z.eqb_refl in P.
    destruct (pi_cb _ _ _ _ _ _ _ _ _ _ _ _ P g r eq_refl) as [K _].
    set (s' := run_cb exec (set_comm s q t0 c) t0 q g r (Some d)).
    assert (E1 : a_ack s' = a_ack s).
    { unfold s', run_cb. destruct (exec _ _ _) as [[? ?]| | |]; [rewrite K|..]; reflexivity. }
    assert (E2 : a_comm s' = fset2 (a_comm s) q t0 c).
    { unfold s', run_cb. destruct (exec _ _ _) as [[? ?]| | |]; [rewrite K|..]; reflexivity. }
    assert (E3 : a_cb s' = fset (a_cb s) t0 CbIdle \/ a_cb s' = fset (a_cb s) t0 (CbAbort q r)).
    { unfold s', run_cb. destruct (exec _ _ _) as [[? ?]| | |]; [rewrite K|..]; cbn; auto. }
    cbn zeta. rewrite E1, E2.
    destruct (Z.eq_dec t t0) as [->|Ht].
    2:{ rewrite fset2_ne by tauto. destruct E3 as [-> | ->]; rewrite fset_ne by exact Ht; apply cbrel_refl. }
    destruct (Z.eq_dec p q) as [->|Hp].
    2:{ rewrite fset2_ne by tauto. assert (EV : cbp (a_cb s' t0) p = CN).
        { destruct E3 as [-> | ->]; rewrite fset_eq; cbn; [reflexivity|]. destruct (Z.eqb_spec q p); [congruence|reflexivity]. }
        rewrite EV, EC. cbn. destruct (Z.eqb_spec q p); [congruence|]. apply cbrel_refl. }
    rewrite fset2_eq, EC. cbn [AmProofs.cbp]. rewrite Z.eqb_refl.
    assert (EV : cbp (a_cb s' t0) q = CN \/ cbp (a_cb s' t0) q = CA r).
    { destruct E3 as [-> | ->]; rewrite fset_eq; cbn; [left; reflexivity|]. rewrite Z.eqb_refl. right. reflexivity. }
    destruct (take_data_hdr _ _ _ _ _ _ E) as (F1 & F2 & F3).
    constructor.
    + intros [_ H]. discriminate.
    + intros g' (c2 & H). left. rewrite H in E. eapply take_data_tail; eauto.
    + intros g' r' K' (c2 & H). left. rewrite H in E. eapply take_data_tail; eauto.
    + intros g'. unfold AmProofs.flight. rewrite F1. destruct EV as [-> | ->]; cbn; tauto.
Qed.

(** Steps of another PE's threads leave what concerns [p] as sender alone. *)
Definition lab_pe (l : label A D) : option (Z * Z) :=
  match l with LOp p i _ _ | LFlush p i _ | LFin p i | LGo p i => Some (p, i) | LCb _ _ _ => None end.

Definition same_p (p : Z) (s s' : ast) : Prop :=
  a_thr s' p = a_thr s p /\ a_flag s' p = a_flag s p /\ a_comm s' p = a_comm s p /\
  (forall t, a_ack s' t p = a_ack s t p) /\ a_cb s' = a_cb s /\ a_called s' p = a_called s p /\ a_issued s' p = a_issued s p.

Lemma same_p_refl p s : same_p p s s.
Proof. repeat split. Qed.

Lemma step_other p q i s l : q <> p -> lab_pe l = Some (q, i) -> same_p p s (fst (step s l)).
Proof.
  intros Hq. assert (Hp : p <> q) by congruence.
  assert (R1 : forall st : ast, a_thr st = a_thr s \/ (exists i x, a_thr st = fset2 (a_thr s) q i x) ->
       a_flag st = a_flag s \/ (exists t v, a_flag st = fset2 (a_flag s) q t v) ->
       a_comm st = a_comm s \/ (exists t c, a_comm st = fset2 (a_comm s) q t c) ->
       a_ack st = a_ack s \/ (exists t c, a_ack st = fset2 (a_ack s) t q c) ->
       a_cb st = a_cb s ->
       a_called st = a_called s \/ (exists t c, a_called st = fset2 (a_called s) q t c) ->
       a_issued st = a_issued s \/ (exists t c, a_issued st = fset2 (a_issued s) q t c) -> same_p p s st).
  { intros st H1 H2 H3 H4 H5 H6 H7. unfold same_p.
    split; [destruct H1 as [->|(? & ? & ->)]; [reflexivity|apply fset2_row; exact Hp]|].
    split; [destruct H2 as [->|(? & ? & ->)]; [reflexivity|apply fset2_row; exact Hp]|].
    split; [destruct H3 as [->|(? & ? & ->)]; [reflexivity|apply fset2_row; exact Hp]|].
    split; [intros t; destruct H4 as [->|(? & ? & ->)]; [reflexivity|apply fset2_ne; tauto]|].
    split; [exact H5|].
    split; [destruct H6 as [->|(? & ? & ->)]; [reflexivity|apply fset2_row; exact Hp]|].
    destruct H7 as [->|(? & ? & ->)]; [reflexivity|apply fset2_row; exact Hp]. }
  destruct l as [p1 i1 t r|p1 i1 ps|p1 i1|p1 i1|t p1 any]; unfold AmModel.step; intros E; try discriminate; injection E as -> ->.
  - destruct (is_pe n q && is_pe n t && req_ok r); [|apply same_p_refl]. destruct (a_thr s q i); try apply same_p_refl. cbn zeta.
    destruct (rq_kind r); [| |]; try destruct (am_ptag true ub _); apply R1; cbn; eauto.
  - destruct (is_pe n q && forallb (is_pe n) ps && nodup_z ps); [|apply same_p_refl]. destruct (a_thr s q i); try apply same_p_refl; apply R1; cbn; eauto.
  - destruct (is_pe n q && (i =? 0)); [|apply same_p_refl]. destruct (a_thr s q i); try apply same_p_refl; apply R1; cbn; eauto.
  - destruct (is_pe n q); [|apply same_p_refl]. destruct (a_thr s q i) as [|t g r|t g r|t g r|t v r x|todo ps|todo g w ps|w g ps|todo ps| | |]; try apply same_p_refl.
    + apply R1; cbn; eauto.
    + destruct (rq_data r); [|apply same_p_refl]; apply R1; cbn; eauto.
    + destruct (take_ack g (a_ack s t q)) as [[[[? ?]|] ?]|]; [| |apply same_p_refl]; apply R1; cbn; eauto.
    + apply R1; cbn; eauto.
    + destruct todo; [apply R1; cbn; eauto|]. destruct (a_flag s q z); [destruct (am_ptag true ub _)|]; apply R1; cbn; eauto.
    + destruct todo; [apply R1; cbn; eauto|]. destruct (a_flag s q z); apply R1; cbn; eauto.
    + destruct w; [apply R1; cbn; eauto|]. destruct (take_ack g (a_ack s z q)) as [[? ?]|]; [|apply same_p_refl]; apply R1; cbn; eauto.
    + destruct todo; apply R1; cbn; eauto.
    + destruct (forallb _ (zrange n)); [|apply same_p_refl]; apply R1; cbn; eauto.
Qed.

Lemma SI_same p s s' : same_p p s s' -> SI p s -> SI p s'.
Proof.
  intros (E1 & E2 & E3 & E4 & E5 & E6 & E7) []. constructor.
  - rewrite E1. exact si_idle0.
  - rewrite E1, E6, E7. exact si_call0.
  - intros t. rewrite E1, E2, E3, E4, E5. apply si_q0.
Qed.

Lemma cb_same s t0 p0 any p : let s' := fst (step s (LCb t0 p0 any)) in
  a_thr s' p = a_thr s p /\ a_flag s' p = a_flag s p /\ a_called s' p = a_called s p /\ a_issued s' p = a_issued s p.
Proof.
  assert (HR : forall st t q g r od, a_thr (run_cb exec st t q g r od) p = a_thr st p /\ a_flag (run_cb exec st t q g r od) p = a_flag st p /\
    a_called (run_cb exec st t q g r od) p = a_called st p /\ a_issued (run_cb exec st t q g r od) p = a_issued st p).
  { intros. unfold run_cb. destruct (exec _ _ _) as [[? ?]| | |]; [destruct (rq_kind r)|..]; repeat split. }
  unfold AmModel.step. destruct (is_pe n t0 && is_pe n p0); [|repeat split].
  destruct (a_cb s t0) as [|q g r| |q r|]; try solve [repeat split].
  - destruct (take_hdr any (a_comm s p0 t0)) as [[[[g r|g|]|g d] c]|]; try solve [repeat split].
    cbn zeta. destruct (rq_kind r); [|repeat split|]; cbn [fst]; exact (HR (set_comm s p0 t0 c) t0 p0 g r None).
  - destruct (take_data g (a_comm s q t0)) as [[d c]|]; [|repeat split]. cbn [fst]. exact (HR (set_comm s q t0 c) t0 q g r (Some d)).
Qed.

Lemma SI_cb p s t0 p0 any : inv s -> SI p s -> SI p (fst (step s (LCb t0 p0 any))).
Proof.
  intros I []. destruct (cb_same s t0 p0 any p) as (E1 & E2 & E3 & E4). constructor.
  - rewrite E1. exact si_idle0.
  - rewrite E1, E3, E4. exact si_call0.
  - intros t. rewrite E1, E2. eapply cbrel_Q; [apply (ti_ok _ _ _ _ _ (in_t _ _ _ _ _ _ _ I p))|apply cb_step_rel; exact I|apply si_q0].
Qed.

(** The thread's own steps. *)
Lemma SI_upd p s s' x' : SI p s ->
  a_thr s' = fset2 (a_thr s) p 0 x' -> a_cb s' = a_cb s ->
  (forall t, exists l, a_called s' p t = a_issued s' p t ++ l /\ (x' <> TAbort -> l = pend x' t)) ->
  (forall t, Q x' (a_flag s' p t) (cbp (a_cb s t) p) (a_comm s' p t) (a_ack s' t p) t) -> SI p s'.
Proof.
  intros [] ET EC H1 H2. constructor.
  - intros i Hi. rewrite ET, fset2_same, fset_ne by exact Hi. auto.
  - rewrite ET, fset2_eq. exact H1.
  - rewrite ET, EC, fset2_eq. exact H2.
Qed.

Lemma SI_own p s l : inv s -> SI p s -> lab_pe l = Some (p, 0) -> SI p (fst (step s l)).
Proof.
  intros I S. pose proof S as S0. destruct S0.
  assert (SIL : forall (s' : ast) x', a_thr s' = fset2 (a_thr s) p 0 x' -> a_cb s' = a_cb s -> a_comm s' = a_comm s -> a_ack s' = a_ack s ->
     a_called s' = a_called s -> a_issued s' = a_issued s -> a_thr s p 0 <> TAbort -> (forall t, pend x' t = pend (a_thr s p 0) t) ->
     (forall t, Q x' (a_flag s' p t) (cbp (a_cb s t) p) (a_comm s p t) (a_ack s t p) t) -> SI p s').
  { intros s' x' E1 E2 E3 E4 E5 E6 NA EP HQ. apply (SI_upd p s s' x' S E1 E2).
    - intros t. rewrite E5, E6, EP. destruct (si_call0 t) as (l1 & A1 & A2). exists l1. auto.
    - intros t. rewrite E3, E4. apply HQ. }
  destruct l as [p1 i1 t r|p1 i1 ps|p1 i1|p1 i1|t p1 any]; unfold AmModel.step; intros E; try discriminate; injection E as -> ->.
  - destruct (is_pe n p && is_pe n t && req_ok r) eqn:EO; [|exact S]. destruct (a_thr s p 0) eqn:EX; try exact S. cbn zeta.
    assert (CALL : forall x' t1, (x' = TAbort \/ exists g, x' = TTag t g r) ->
       exists l, fset2 (a_called s) p t (a_called s p t ++ [r]) p t1 = a_issued s p t1 ++ l /\ (x' <> TAbort -> l = pend x' t1)).
    { intros x' t1 Hx. destruct (si_call0 t1) as (l1 & A1 & A2). rewrite A2 in A1 by discriminate. simpl in A1. rewrite app_nil_r in A1.
      destruct (Z.eq_dec t1 t) as [->|Ht].
      - rewrite fset2_eq, A1. exists [r]. split; [reflexivity|]. destruct Hx as [->|(g & ->)]; [congruence|]. simpl. rewrite Z.eqb_refl. auto.
      - rewrite fset2_ne by tauto. rewrite A1. exists []. rewrite app_nil_r. split; [reflexivity|]. destruct Hx as [->|(g & ->)]; [congruence|].
        simpl. destruct (Z.eqb_spec t t1); [congruence|auto]. }
    assert (HT : SI p (fst match am_ptag true ub (a_cnt (set_called s p t (a_called s p t ++ [r])) p) with
              | Ok g => (set_thr (set_cnt (set_called s p t (a_called s p t ++ [r])) p (am_ptag_next (a_cnt (set_called s p t (a_called s p t ++ [r])) p))) p 0 (TTag t g r), @nil (aev A D R))
              | _ => (set_thr (set_called s p t (a_called s p t ++ [r])) p 0 TAbort, [])
              end)).
    { destruct (am_ptag true ub _) as [g| | |]; cbn [fst]; eapply (SI_upd p s); try exact S; try reflexivity; try (intros t1; cbn; apply CALL; eauto);
        intros t1; apply si_q0. }
    destruct (rq_kind r) eqn:K; [|exact HT|exact HT].
    cbn [fst]. eapply (SI_upd p s); try exact S; try reflexivity.
    + intros t1. cbn. destruct (si_call0 t1) as (l1 & A1 & A2). rewrite A2 in A1 by discriminate. simpl in A1. rewrite app_nil_r in A1.
      exists []. split; [|auto]. rewrite app_nil_r. destruct (Z.eq_dec t1 t) as [->|Ht].
      * rewrite !fset2_eq, A1. reflexivity.
      * rewrite !fset2_ne by tauto. exact A1.
    + intros t1. cbn. destruct (Z.eq_dec t1 t) as [->|Ht]; [left; reflexivity|]. right. rewrite fset2_ne by tauto. apply si_q0.
  - destruct (is_pe n p && forallb (is_pe n) ps && nodup_z ps); [|exact S]. destruct (a_thr s p 0) eqn:EX; try exact S. cbn [fst].
    eapply SIL; try reflexivity; [discriminate|]. intros t. simpl. specialize (si_q0 t). simpl in si_q0. tauto.
  - destruct (is_pe n p && (0 =? 0)); [|exact S]. destruct (a_thr s p 0) eqn:EX; try exact S. cbn [fst].
    eapply SIL; try reflexivity; [discriminate|]. intros t. simpl. apply si_q0.
  - destruct (is_pe n p); [|exact S]. pose proof (in_t _ _ _ _ _ _ _ I p) as T. pose proof (ti_ok _ _ _ _ _ T 0) as OK.
    destruct (a_thr s p 0) as [|t g r|t g r|t g r|t v r x|todo ps|todo g w ps|w g ps|todo ps| | |] eqn:EX; try exact S.
    + (* TTag *) cbn [fst]. destruct OK as [OK1 OK2].
      set (x' := match rq_kind r with KPut => TData t g r | _ => TAck t g r end).
      apply (SI_upd p s _ x' S); try reflexivity.
      * intros t1. cbn. destruct (si_call0 t1) as (l1 & A1 & A2). rewrite A2 in A1 by discriminate. simpl in A1.
        exists []. split; [|intros _; unfold x'; destruct (rq_kind r); reflexivity]. rewrite app_nil_r. destruct (Z.eqb_spec t t1) as [->|Ht].
        -- rewrite fset2_eq. exact A1.
        -- rewrite fset2_ne by (right; congruence). rewrite app_nil_r in A1. exact A1.
      * intros t1. cbn. specialize (si_q0 t1). simpl in si_q0. unfold x'. destruct (rq_kind r) eqn:K; [contradiction| |]; simpl.
        -- destruct (Z.eq_dec t t1) as [->|Ht]; [left; reflexivity|]. right. rewrite fset2_ne by (right; congruence). exact si_q0.
        -- split.
           ++ intros ->. left. rewrite fset2_eq. eexists. reflexivity.
           ++ intros Ht. rewrite fset2_ne by (right; congruence). exact si_q0.
    + (* TData *) destruct (rq_data r) as [d|]; [|exact S]. cbn [fst]. eapply (SI_upd p s); try exact S; try reflexivity.
      * intros t1. destruct (si_call0 t1) as (l1 & A1 & A2). exists l1. split; [exact A1|]. intros _. apply A2. discriminate.
      * intros t1. cbn. specialize (si_q0 t1). simpl in si_q0. destruct (Z.eq_dec t t1) as [->|Ht]; [left; reflexivity|].
        right. rewrite fset2_ne by (right; congruence). destruct si_q0 as [F|F]; [contradiction|exact F].
    + (* TAck *) destruct (take_ack g (a_ack s t p)) as [[y c]|] eqn:EA; [|exact S].
      pose proof (in_p _ _ _ _ _ _ _ I p t) as P. pose proof (pi_nodup _ _ _ _ _ _ _ _ _ _ _ _ P) as ND.
      assert (QT : quiet (cbp (a_cb s t) p) (a_comm s p t)).
      { destruct (take_ack_split _ _ _ _ _ _ _ EA) as (k1 & k2 & EK & _). rewrite EK in ND.
        specialize (si_q0 t). simpl in si_q0. destruct si_q0 as [F _]. destruct (F eq_refl) as [(c2 & Ec)|[F1|F1]]; [|exact F1|].
        - exfalso. unfold AmProofs.flight in ND. rewrite Ec, htags_app in ND. cbn in ND.
          destruct OK as [_ OK]. rewrite OK in ND. cbn in ND. rewrite <- !app_assoc in ND. cbn in ND.
          apply NoDup_app_remove_l in ND. apply NoDup_app_remove_l in ND. inversion ND as [|? ? NI _]. apply NI.
          rewrite map_app. apply in_or_app. right. left. reflexivity.
        - exfalso. apply F1. rewrite EK. unfold AmProofs.flight. rewrite !in_app_iff, map_app, in_app_iff. right. right. right. left. reflexivity. }
      assert (HX : forall o, SI p (set_thr (set_ack s t p c) p 0 (TFlag t false r o))).
      { intros o. eapply (SI_upd p s); try exact S; try reflexivity.
        * intros t1. destruct (si_call0 t1) as (l1 & A1 & A2). exists l1. split; [exact A1|]. intros _. apply A2. discriminate.
        * intros t1. cbn. specialize (si_q0 t1). simpl in si_q0. destruct (Z.eq_dec t t1) as [->|Ht]; tauto. }
      destruct y as [[r' y]|]; cbn [fst]; apply HX.
    + (* TFlag *) cbn [fst]. eapply (SIL _ TIdle); try reflexivity; [discriminate|]. intros t1. cbn. specialize (si_q0 t1). simpl in si_q0.
      destruct (Z.eq_dec t t1) as [->|Ht].
      * rewrite fset2_eq. destruct v; [discriminate|tauto].
      * rewrite fset2_ne by (right; congruence). destruct v; tauto.
    + (* TFCount *) destruct todo as [|t rest].
      * cbn [fst]. eapply (SIL _ TIdle); try reflexivity; [discriminate|]. intros t1. specialize (si_q0 t1). simpl in *. tauto.
      * destruct (a_flag s p t) eqn:EF.
        -- destruct (am_ptag true ub _) as [g| | |]; cbn [fst];
             [eapply (SIL _ (TFSend ps g [] ps)); try reflexivity; [discriminate|]; intros t1; specialize (si_q0 t1); simpl in *; tauto|..];
             (eapply (SIL _ TAbort); try reflexivity; [discriminate|]; intros t1; specialize (si_q0 t1); simpl in *; tauto).
        -- cbn [fst]. eapply (SIL _ (TFCount rest ps)); try reflexivity; [discriminate|]. intros t1. specialize (si_q0 t1). simpl in *.
           destruct (Z.eq_dec t t1) as [->|Ht]; [tauto|]. destruct si_q0 as [F1 F2]. split; [exact F1|]. intros H1 H2. apply F2; [exact H1|]. intros [H|H]; contradiction.
    + (* TFSend *) destruct todo as [|t rest].
      * cbn [fst]. eapply (SIL _ (TFWait w g ps)); try reflexivity; [discriminate|]. intros t1. specialize (si_q0 t1). simpl in *. tauto.
      * destruct (a_flag s p t) eqn:EF; cbn [fst].
        -- eapply (SI_upd p s); try exact S; try reflexivity.
           ++ intros t1. destruct (si_call0 t1) as (l1 & A1 & A2). exists l1. split; [exact A1|]. intros _. apply A2. discriminate.
           ++ intros t1. cbn. specialize (si_q0 t1). simpl in si_q0. destruct si_q0 as (F1 & F2 & F3). destruct (Z.eq_dec t t1) as [->|Ht].
              ** rewrite fset2_eq. split; [intros _; left; eexists; reflexivity|].
                 assert (In t1 (w ++ [t1])) by (apply in_or_app; right; left; reflexivity). tauto.
              ** rewrite fset2_ne by (right; congruence).
                 assert (HW : In t1 (w ++ [t]) <-> In t1 w) by (rewrite in_app_iff; simpl; split; [intros [H|[H|[]]]; [exact H|contradiction]|tauto]).
                 rewrite HW. split; [exact F1|]. split; [exact F2|]. intros H1 H2 H3. apply F3; auto. intros [H|H]; contradiction.
        -- eapply (SIL _ (TFSend rest g w ps)); try reflexivity; [discriminate|]. intros t1. specialize (si_q0 t1). simpl in *.
           destruct si_q0 as (F1 & F2 & F3). split; [exact F1|]. split; [exact F2|]. intros H1 H2 H3.
           destruct (Z.eq_dec t t1) as [->|Ht]; [auto|]. apply F3; auto. intros [H|H]; contradiction.
    + (* TFWait *) destruct w as [|t rest].
      * cbn [fst]. eapply (SIL _ (TFReset ps ps)); try reflexivity; [discriminate|]. intros t1. specialize (si_q0 t1). simpl in *. tauto.
      * destruct (take_ack g (a_ack s t p)) as [[y c]|] eqn:EA; [|exact S]. cbn [fst].
        pose proof (in_p _ _ _ _ _ _ _ I p t) as P. pose proof (pi_nodup _ _ _ _ _ _ _ _ _ _ _ _ P) as ND.
        assert (QT : quiet (cbp (a_cb s t) p) (a_comm s p t)).
        { destruct (take_ack_split _ _ _ _ _ _ _ EA) as (k1 & k2 & EK & _). rewrite EK in ND.
          specialize (si_q0 t). simpl in si_q0. destruct si_q0 as [F _]. destruct (F (or_introl eq_refl)) as [(c2 & Ec)|F1]; [|exact F1].
          exfalso. unfold AmProofs.flight in ND. rewrite Ec, htags_app in ND. cbn in ND.
          rewrite <- !app_assoc in ND. cbn in ND.
          apply NoDup_app_remove_l in ND. apply NoDup_app_remove_l in ND. inversion ND as [|? ? NI _]. apply NI.
          rewrite map_app. apply in_or_app. right. left. reflexivity. }
        simpl in OK. inversion OK as [|? ? OK1 OK2]; subst.
        eapply (SI_upd p s); try exact S; try reflexivity.
        -- intros t1. destruct (si_call0 t1) as (l1 & A1 & A2). exists l1. split; [exact A1|]. intros _. apply A2. discriminate.
        -- intros t1. cbn. specialize (si_q0 t1). simpl in si_q0. destruct si_q0 as (F1 & F2 & F3). destruct (Z.eq_dec t t1) as [->|Ht]; [tauto|].
           split; [intros H; apply F1; right; exact H|]. split; [intros H1; apply F2; intros [H|H]; contradiction|].
           intros H1 H2. apply F3; [exact H1|]. intros [H|H]; contradiction.
    + (* TFReset *) destruct todo as [|t rest]; cbn [fst].
      * eapply (SIL _ TIdle); try reflexivity; [discriminate|]. intros t1. specialize (si_q0 t1). simpl in *. tauto.
      * eapply (SIL _ (TFReset rest ps)); try reflexivity; [discriminate|]. intros t1. cbn. specialize (si_q0 t1). simpl in si_q0.
        destruct si_q0 as (F1 & F2 & F3). destruct (Z.eq_dec t t1) as [->|Ht]; [rewrite fset2_eq; tauto|].
        rewrite fset2_ne by (right; congruence). split; [intros H; apply F1; right; exact H|]. tauto.
    + destruct (forallb _ (zrange n)); [|exact S]. cbn [fst]. eapply (SI_upd p s); try exact S; try reflexivity.
      * intros t1. destruct (si_call0 t1) as (l1 & A1 & A2). exists l1. split; [exact A1|]. intros _. apply A2. discriminate.
      * intros t1. cbn. specialize (si_q0 t1). simpl in si_q0. destruct (Z.eq_dec t1 p) as [->|Ht].
        -- rewrite fset2_eq. intros F. destruct (si_q0 F) as [F1 F2]. split; [rewrite hreqs_app, F1; reflexivity|exact F2].
        -- rewrite fset2_ne by tauto. exact si_q0.
Qed.
End AmProofs2.
