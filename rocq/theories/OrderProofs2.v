(** Proofs about OrderModel: what is pending, and what quiet and barriers cover. *)
From Verif Require Import Base BaseProofs AmCfgModel OrderModel OrderSpec OrderProofs.

Section One.
Variable c : oconf.

Lemma win_ok_ext s s' l : o_spaces s = o_spaces s' -> win_ok c s l = win_ok c s' l.
Proof. intros E. destruct l; cbn; unfold find_sp; rewrite ?E; reflexivity. Qed.

(** ** The windows of pending operations exist *)
Definition live (s : ost) : Prop :=
  forall p l, In p (o_pend s) -> pd_route p = RWin l -> win_ok c s l = true.

Lemma live_sub s s' : o_spaces s = o_spaces s' -> (forall p, In p (o_pend s') -> In p (o_pend s)) ->
  live s -> live s'.
Proof. intros E H L p l Hp Hr. rewrite <- (win_ok_ext s s' l E). eauto. Qed.

Lemma mi_spaces r s m rest s' ev rest' : mi_step c r s m rest = Ok (s', ev, rest') ->
  o_spaces s' = o_spaces s \/ exists cl, m = MSpace cl /\ space_step c s cl = Ok (s', ev) /\ rest' = rest.
Proof.
  intros H. destruct m; cbn -[space_step] in H.
  all: repeat match type of H with context [if ?x then _ else _] => destruct x end;
    try (inversion H; subst; cbn; auto; fail).
  destruct (space_step c s c0) as [[s1 e1]| | |] eqn:E; cbn in H; inversion H; subst. eauto 6.
Qed.

Lemma mi_live r s m rest s' ev rest' : mi_step c r s m rest = Ok (s', ev, rest') -> live s -> live s'.
Proof.
  intros H L. destruct (mi_spaces _ _ _ _ _ _ _ H) as [E|(cl & -> & E & ->)].
  - intros p l Hp Hr. rewrite <- (win_ok_ext s s' l (eq_sym E)).
    destruct (mi_back _ _ _ _ _ _ _ _ _ H Hp) as [Hp0|[(id & l0 & _ & -> & W)|(id & t & _ & ->)]].
    + eauto.
    + cbn in Hr. inversion Hr; subst. auto.
    + discriminate.
  - intros p l Hp Hr. eapply space_live; eauto.
Qed.

Lemma step_live s lb s' ev : ostep c s lb = Ok (s', ev) -> live s -> live s'.
Proof.
  intros H L. destruct lb as [i cl|i r|id]; cbn -[done_ids mi_step] in H.
  - destruct (o_thr s i); [inversion H; subst; auto|].
    destruct (call_steps c s cl); cbn in H; inversion H; subst. eapply live_sub; eauto.
  - destruct (o_thr s i) as [[cl [|m rest]]|]; try (inversion H; subst; auto; fail).
    + destruct (mi_step c r s m rest) as [[[s1 e1] r1]| | |] eqn:E; cbn in H; inversion H; subst.
      eapply live_sub; [| |eapply mi_live; eauto]; auto.
  - inversion H; subst. apply (live_sub s); auto. intros p Hp. cbn in Hp. apply filter_In in Hp. tauto.
Qed.
Lemma run_live ls : forall s s' log, orun c s ls = Ok (s', log) -> live s -> live s'.
Proof.
  induction ls as [|lb ls IH]; intros s s' log H L; cbn in H; [inversion H; subst; auto|].
  destruct (ostep c s lb) as [[s1 e1]| | |] eqn:E; cbn in H; try discriminate.
  destruct (orun c s1 ls) as [[s2 e2]| | |] eqn:E2; cbn in H; inversion H; subst.
  eapply IH; eauto. eapply step_live; eauto.
Qed.

(** ** Where an operation that has returned is *)
Definition route_ok (cl : ocall) (r : route) : Prop :=
  match cl with
  | CRma x o k id t dev =>
      match r with
      | RWin l =>
          match x with
          | XSpace k i => l = LCtx k i
          | XDefault => (oc_dyn c = true \/ o = OHeap \/ o = OData) -> In l (symm_locs c)
          end
      | RAm t' => t' = t /\ ~ by_window c k /\ no_am c = false
      end
  | _ => False
  end.
Definition cl_id (cl : ocall) : option Z := match cl with CRma _ _ _ id _ _ => Some id | _ => None end.

Definition status (log : list oev) (s : ost) (cl : ocall) : Prop :=
  forall id, cl_id cl = Some id ->
  In (EDone id) log \/ exists p, In p (o_pend s) /\ pd_id p = id /\ route_ok cl (pd_route p).

Definition todo (cl : ocall) (m : list mi) : Prop :=
  exists id, cl_id cl = Some id /\
  ((exists l r, m = MIssue id l :: r /\ route_ok cl (RWin l)) \/
   (exists t r, m = MAmPost id t :: r /\ route_ok cl (RAm t))).

Definition inv0 (log : list oev) (s : ost) : Prop :=
  (forall j cl, In (ERet j cl) log -> status log s cl) /\
  (forall j cl m, o_thr s j = Some (cl, m) -> todo cl m \/ status log s cl).

Lemma status_keep log s cl s' ev :
  (forall p, In p (o_pend s) -> In p (o_pend s') \/ In (EDone (pd_id p)) ev) ->
  status log s cl -> status (log ++ ev) s' cl.
Proof.
  intros K S0 id Hid. destruct (S0 id Hid) as [D|(p & Hp & Hi & Hr)].
  - left. apply in_or_app; auto.
  - destruct (K p Hp) as [Hp'|D]; [right; eauto|]. left. apply in_or_app. subst id. auto.
Qed.

Lemma call_todo s cl m : call_steps c s cl = Ok m -> cl_id cl = None \/ todo cl m.
Proof.
  intros H. destruct cl; cbn in H; auto. right. exists id. split; [reflexivity|].
  destruct (loc_of c s x o) as [l| | |] eqn:L; cbn in H; try discriminate.
  destruct (is_direct c s x o k dev) as [d| | |] eqn:D; cbn in H; try discriminate.
  inversion H; subst. clear H.
  destruct d.
  - left.
    assert (R : route_ok (CRma x o k id t dev) (RWin l)).
    { cbn. destruct x.
      - intros P. cbn in L. unfold symm_locs. destruct o.
        + destruct (oc_dyn c); inversion L; subst; cbn; auto.
        + destruct (oc_dyn c); inversion L; subst; cbn; auto.
        + destruct P as [P|[P|P]]; try discriminate. rewrite P in *.
          destruct (find_sp s k0) as [sp|]; [|discriminate]. destruct (os_att sp); inversion L; subst. cbn; auto.
      - cbn in L. destruct (find_sp s k0) as [sp|]; [|discriminate].
        destruct (os_att sp && (0 <=? i) && (i <? os_nctx sp)); inversion L; subst; auto. }
    destruct k; cbn [direct_steps]; eauto 6.
  - right.
    assert (R : route_ok (CRma x o k id t dev) (RAm t)).
    { cbn. split; auto. unfold is_direct in D. unfold by_window, no_am. destruct (is_amo k).
      - inversion D as [D']. rewrite D'. split; [discriminate|]. reflexivity.
      - unfold direct_rma in D. destruct (oc_rma c) eqn:E; try discriminate;
          (split; [intros X; discriminate X|rewrite andb_false_r; reflexivity]). }
    destruct k; cbn [am_steps]; eauto 6.
Qed.

Lemma step_inv0 log s lb s' ev : ostep c s lb = Ok (s', ev) -> inv0 log s -> inv0 (log ++ ev) s'.
Proof.
  intros H [A B].
  assert (K := fun p => step_keep c s lb s' ev p H).
  assert (A' : forall j cl, In (ERet j cl) log -> status (log ++ ev) s' cl).
  { intros j cl Hr. eapply status_keep; eauto. }
  destruct (step_ev _ _ _ _ _ H) as [(i & cl & -> & -> & T & m & C & ->)|[(i & cl & r & -> & -> & T & ->)|De]].
  - split.
    + intros j cl' Hr. apply in_app_or in Hr. destruct Hr as [Hr|[Hr|[]]]; [eauto|discriminate].
    + intros j cl' m' Ht. cbn in Ht. destruct (i =? j) eqn:E.
      * inversion Ht; subst. destruct (call_todo _ _ _ C) as [N|]; auto. right. intros id Hid. congruence.
      * destruct (B _ _ _ Ht); auto. right. eapply status_keep; eauto.
  - assert (S0 : status log s cl).
    { destruct (B _ _ _ T) as [(id & _ & [(l & r0 & E & _)|(t & r0 & E & _)])|]; auto; discriminate. }
    split.
    + intros j cl' Hr. apply in_app_or in Hr. destruct Hr as [Hr|[Hr|[]]]; [eauto|].
      inversion Hr; subst. eapply status_keep; eauto.
    + intros j cl' m' Ht. cbn in Ht. destruct (i =? j) eqn:E; [discriminate|].
      destruct (B _ _ _ Ht); auto. right. eapply status_keep; eauto.
  - split.
    + intros j cl' Hr. apply in_app_or in Hr. destruct Hr as [Hr|Hr]; [eauto|].
      destruct (De _ Hr); discriminate.
    + intros j cl' m' Ht.
      destruct lb as [i cl|i r|id]; cbn -[done_ids mi_step] in H.
      * destruct (o_thr s i) eqn:T.
        -- inversion H; subst. destruct (B _ _ _ Ht); auto. right. eapply status_keep; eauto.
        -- destruct (call_steps c s cl); cbn in H; inversion H; subst.
           destruct (De (EStart i cl)) as [? ?]; [left; auto|discriminate].
      * destruct (o_thr s i) as [[cl [|m rest]]|] eqn:T.
        -- inversion H; subst. destruct (De (ERet i cl)) as [? ?]; [left; auto|discriminate].
        -- destruct (mi_step c r s m rest) as [[[s1 e1] r1]| | |] eqn:E; cbn in H; inversion H; subst.
           assert (T1 := mi_thr _ _ _ _ _ _ _ _ E). cbn in Ht. destruct (i =? j) eqn:Ej.
           ++ inversion Ht; subst. right.
              destruct (B _ _ _ T) as [(id & Hid & Hm)|]; [|eapply status_keep; eauto].
              intros id' Hid'. assert (id' = id) by congruence. subst id'. right.
              destruct Hm as [(l & r0 & Em & R)|(t & r0 & Em & R)]; inversion Em; subst; cbn in E.
              ** destruct (win_ok c s l); inversion E; subst. exists (mkPend id (RWin l)). cbn.
                 split; [apply in_or_app; right; left; auto|]. auto.
              ** inversion E; subst. exists (mkPend id (RAm t)). cbn.
                 split; [apply in_or_app; right; left; auto|]. auto.
           ++ rewrite T1 in Ht. destruct (B _ _ _ Ht); auto. right. eapply status_keep; eauto.
        -- inversion H; subst. destruct (B _ _ _ Ht); auto. right. eapply status_keep; eauto.
      * inversion H; subst. cbn in Ht. destruct (B _ _ _ Ht); auto. right. eapply status_keep; eauto.
Qed.
Lemma run_inv0 ls : forall s s' log0 log, orun c s ls = Ok (s', log) -> inv0 log0 s -> inv0 (log0 ++ log) s'.
Proof.
  induction ls as [|lb ls IH]; intros s s' log0 log H I; cbn in H.
  - inversion H; subst. rewrite app_nil_r. auto.
  - destruct (ostep c s lb) as [[s1 e1]| | |] eqn:E; cbn in H; try discriminate.
    destruct (orun c s1 ls) as [[s2 e2]| | |] eqn:E2; cbn in H; inversion H; subst.
    rewrite app_assoc. eapply IH; eauto. eapply step_inv0; eauto.
Qed.
Lemma inv0_init : inv0 [] o_init.
Proof. split; [intros j cl []|intros j cl m H; discriminate]. Qed.
Lemma live_init : live o_init.
Proof. intros p l []. Qed.

(** ** The flags, with one thread *)
Definition rest0 (s : ost) : list mi := match o_thr s 0 with Some (_, m) => m | None => [] end.

Fixpoint good (m : list mi) : Prop :=
  match m with
  | [] => True
  | x :: r =>
      good r /\
      match r with
      | MReset l :: _ => x = MFlushAll l
      | MAmFlag t false :: _ => exists id, x = MAmAck id t
      | _ => True
      end
  end.
Definition hd_ok (s : ost) (m : list mi) : Prop :=
  match m with
  | MReset l :: _ => forall p, In p (o_pend s) -> pd_route p <> RWin l
  | MAmFlag t false :: _ => forall p, In p (o_pend s) -> pd_route p <> RAm t
  | _ => True
  end.
Definition flagged (s : ost) (m : list mi) (p : pend) : Prop :=
  match pd_route p with
  | RWin l => oc_track c = true -> o_flag s l = true \/ In (MSetFlag l) m \/ In (MLocal (pd_id p)) m
  | RAm t => o_am s t = true \/ In (MAmFlag t true) m \/ exists id, In (MAmAck id t) m
  end.
(** MIssue is followed by MSetFlag of the same window or MLocal of the same operation,
    MAmPost by the flag or the acknowledgement. *)
Fixpoint paired (m : list mi) : Prop :=
  match m with
  | [] => True
  | x :: r =>
      paired r /\
      match x with
      | MIssue id l => In (MSetFlag l) r \/ In (MLocal id) r
      | MAmPost id t => In (MAmFlag t true) r \/ exists id', In (MAmAck id' t) r
      | _ => True
      end
  end.

Definition invA (s : ost) : Prop :=
  (forall j, j <> 0 -> o_thr s j = None) /\
  good (rest0 s) /\ hd_ok s (rest0 s) /\ paired (rest0 s) /\ live s /\
  (forall p, In p (o_pend s) -> flagged s (rest0 s) p).

Definition plain (x : mi) : Prop :=
  match x with MCheck _ | MFlushAll _ | MAmFlush _ | MEnter _ | MLeave _ | MSpace _ => True | _ => False end.
Lemma plain_good m : (forall x, In x m -> plain x) -> good m /\ paired m /\ forall s, hd_ok s m.
Proof.
  induction m as [|x m IH]; intros P; [repeat split; intros; exact I|].
  destruct IH as (G & Q & _); [intros; apply P; right; auto|].
  assert (Px := P x (or_introl eq_refl)).
  repeat split; auto.
  - destruct m as [|y m]; auto. assert (Py := P y (or_intror (or_introl eq_refl))).
    destruct y; auto; try contradiction.
  - destruct x; auto; contradiction.
  - intros s. destruct x; cbn; auto; contradiction.
Qed.

Lemma quiet_plain s x m : quiet_steps c s x = Ok m -> forall y, In y m -> plain y.
Proof.
  unfold quiet_steps. intros H y Hy. destruct x.
  - destruct (space_locs c (o_spaces s)) as [sl| | |]; cbn in H; inversion H; subst.
    repeat (apply in_app_or in Hy; destruct Hy as [Hy|Hy]);
      try (apply in_map_iff in Hy; destruct Hy as (? & <- & _); exact I).
    unfold am_flush_steps in Hy. destruct (no_am c); [destruct Hy|].
    apply in_map_iff in Hy; destruct Hy as (? & <- & _); exact I.
  - destruct (loc_of c s (XSpace k i) OHeap) as [l| | |]; cbn in H; inversion H; subst.
    destruct Hy as [<-|[]]. exact I.
Qed.
Lemma barrier_plain b y : In y (barrier_steps c b) -> plain y.
Proof.
  unfold barrier_steps. intros Hy.
  repeat (apply in_app_or in Hy; destruct Hy as [Hy|Hy]).
  - apply in_map_iff in Hy; destruct Hy as (? & <- & _); exact I.
  - unfold am_flush_steps in Hy. destruct (no_am c); [destruct Hy|].
    apply in_map_iff in Hy; destruct Hy as (? & <- & _); exact I.
  - destruct Hy as [<-|[<-|[]]]; exact I.
Qed.

Lemma call_shape s cl m : call_steps c s cl = Ok m -> good m /\ paired m /\ forall s', hd_ok s' m.
Proof.
  intros H. destruct cl; cbn in H.
  - destruct (loc_of c s x o) as [l| | |]; cbn in H; try discriminate.
    destruct (is_direct c s x o k dev) as [d| | |]; cbn in H; try discriminate.
    inversion H; subst. destruct d; destruct k; cbn; repeat split; auto; try (intros s0; exact I); eauto 6.
  - apply plain_good. apply (quiet_plain s x m H).
  - apply plain_good. apply (quiet_plain s x m H).
  - inversion H; subst. apply plain_good. apply barrier_plain.
  - inversion H; subst. apply plain_good. intros x [<-|[]]; exact I.
  - inversion H; subst. apply plain_good. intros x [<-|[]]; exact I.
  - inversion H; subst. apply plain_good. intros x [<-|[]]; exact I.
  - inversion H; subst. apply plain_good. intros x [<-|[]]; exact I.
Qed.

Lemma flagged_ext s s' m p : o_flag s = o_flag s' -> o_am s = o_am s' -> flagged s m p -> flagged s' m p.
Proof. unfold flagged. intros -> ->. auto. Qed.
Lemma flagged_nil s m x p :
  flagged s (x :: m) p ->
  (forall l, pd_route p = RWin l -> x <> MSetFlag l) -> (x <> MLocal (pd_id p)) ->
  (forall t, pd_route p = RAm t -> x <> MAmFlag t true /\ forall id, x <> MAmAck id t) ->
  flagged s m p.
Proof.
  unfold flagged. destruct (pd_route p) as [l|t]; intros F A B C.
  - intros Tr. destruct (F Tr) as [F1|[[F1|F1]|[F1|F1]]]; auto; exfalso; first [apply (A l); auto; fail | auto].
  - destruct (C t eq_refl) as [C1 C2].
    destruct F as [F1|[[F1|F1]|[id [F1|F1]]]]; auto; try (exfalso; auto; fail); try (exfalso; eapply C2; eauto; fail).
    right; right; eauto.
Qed.

(** One step of thread 0 keeps the invariant. *)
Lemma mi_invA r s cl x rest s' ev rest' :
  o_thr s 0 = Some (cl, x :: rest) -> invA s -> mi_step c r s x rest = Ok (s', ev, rest') ->
  invA (set_thr s' 0 (Some (cl, rest'))).
Proof.
  intros T (J & G & HD & PR & L & F) H.
  unfold rest0 in G, HD, PR, F. rewrite T in G, HD, PR, F.
  assert (TT := mi_thr _ _ _ _ _ _ _ _ H).
  assert (L' := mi_live _ _ _ _ _ _ _ H L).
  assert (BK := fun p => mi_back _ _ _ _ _ _ _ _ p H).
  cbn in G. destruct G as [G Gx]. cbn in PR. destruct PR as [PR Px].
  split; [|unfold rest0; cbn [set_thr o_thr Z.eqb]].
  { intros j Hj. cbn [set_thr o_thr]. replace (0 =? j) with false by lia. rewrite TT. auto. }
  assert (LL : live (set_thr s' 0 (Some (cl, rest')))) by (eapply live_sub; [| |exact L']; auto).
  destruct x.
  - (* MIssue *)
    cbn in H. destruct (win_ok c s l) eqn:W; inversion H; subst; clear H.
    split; [auto|]. split.
    { destruct rest' as [|y r']; cbn; auto. destruct y; auto; try discriminate Gx. destruct v; auto. destruct Gx; discriminate. }
    split; [auto|]. split; [auto|].
    intros p Hp. cbn in Hp. apply in_app_or in Hp. destruct Hp as [Hp|[<-|[]]].
    + apply (flagged_ext s); auto. eapply flagged_nil; [apply F; auto|..]; intros; try split; intros; discriminate.
    + unfold flagged; cbn. intros _. tauto.
  - (* MSetFlag *)
    cbn in H.
    assert (ES : s' = (if oc_track c then set_flag s l true else s) /\ rest' = rest) by (inversion H; auto).
    destruct ES as [-> ->]. clear H.
    assert (EP : o_pend (if oc_track c then set_flag s l true else s) = o_pend s) by (destruct (oc_track c); auto).
    split; [auto|]. split.
    { destruct rest as [|y r']; cbn; auto. destruct y; auto; try discriminate Gx. destruct v; auto. destruct Gx; discriminate. }
    split; [auto|]. split; [auto|].
    intros p Hp. cbn in Hp. rewrite EP in Hp.
    assert (Fp := F p Hp). unfold flagged in *. cbn. destruct (pd_route p) as [l'|t].
    + intros Tr. rewrite Tr. cbn. destruct (loc_eqb l l') eqn:E; auto.
      destruct (Fp Tr) as [F1|[[F1|F1]|[F1|F1]]]; auto; [|discriminate].
      inversion F1; subst. rewrite loc_eqb_refl in E. discriminate.
    + destruct (oc_track c); cbn; destruct Fp as [F1|[[F1|F1]|[id [F1|F1]]]]; auto; try discriminate; eauto 6.
  - (* MLocal *)
    cbn -[done_ids] in H. inversion H; subst; clear H.
    split; [auto|]. split.
    { destruct rest' as [|y r']; cbn; auto. destruct y; auto; try discriminate Gx. destruct v; auto. destruct Gx; discriminate. }
    split; [auto|]. split; [auto|].
    intros p Hp. cbn in Hp. apply filter_In in Hp. destruct Hp as [Hp E].
    apply (flagged_ext s); auto. eapply flagged_nil; [apply F; auto|..]; intros; try split; intros; try discriminate.
    intros E'. inversion E'; subst. unfold is_id in E. rewrite Z.eqb_refl in E. discriminate.
  - (* MAmPost *)
    cbn in H. inversion H; subst; clear H.
    split; [auto|]. split.
    { destruct rest' as [|y r']; cbn; auto. destruct y; auto; try discriminate Gx. destruct v; auto. destruct Gx; discriminate. }
    split; [auto|]. split; [auto|].
    intros p Hp. cbn in Hp. apply in_app_or in Hp. destruct Hp as [Hp|[<-|[]]].
    + apply (flagged_ext s); auto. eapply flagged_nil; [apply F; auto|..]; intros; try split; intros; discriminate.
    + unfold flagged; cbn. tauto.
  - (* MAmAck *)
    cbn -[done_ids] in H. inversion H; subst; clear H.
    assert (NP : forall p, In p (filter (fun p => negb (on_am t p)) (o_pend s)) -> In p (o_pend s) /\ pd_route p <> RAm t).
    { intros p Hp. apply filter_In in Hp. destruct Hp as [Hp E]. split; auto. intros E'.
      unfold on_am in E. rewrite E', Z.eqb_refl in E. discriminate. }
    split; [auto|]. split.
    { destruct rest' as [|y r']; cbn; auto. destruct y; auto; try discriminate Gx.
      destruct v; auto. destruct Gx as [id' Gx]. inversion Gx; subst.
      intros p Hp. apply NP; auto. }
    split; [auto|]. split; [auto|].
    intros p Hp. apply NP in Hp. destruct Hp as [Hp E].
    apply (flagged_ext s); auto. eapply flagged_nil; [apply F; auto|..]; intros; try split; intros; try discriminate.
    intros E'. inversion E'; subst. congruence.
  - (* MAmFlag *)
    cbn in H. inversion H; subst; clear H.
    split; [auto|]. split.
    { destruct rest' as [|y r']; cbn; auto. destruct y; auto; try discriminate Gx.
      destruct v0; auto. destruct Gx as [id' Gx]. discriminate. }
    split; [auto|]. split; [auto|].
    intros p Hp. cbn in Hp. assert (Fp := F p Hp). unfold flagged in *. cbn.
    destruct (pd_route p) as [l'|t'] eqn:R.
    + intros Tr. destruct (Fp Tr) as [F1|[[F1|F1]|[F1|F1]]]; auto; discriminate.
    + destruct (t =? t') eqn:E.
      * assert (t' = t) by lia; subst t'. destruct v; auto. exfalso. exact (HD p Hp R).
      * destruct Fp as [F1|[[F1|F1]|[id [F1|F1]]]]; auto; try discriminate; eauto 6.
        inversion F1; lia.
  - (* MCheck *)
    cbn in H.
    assert (FR : forall p, In p (o_pend s) -> flagged s rest p).
    { intros p Hp. eapply flagged_nil; [apply F; auto|..]; intros; try split; intros; discriminate. }
    assert (HR : hd_ok s rest).
    { destruct rest as [|y r']; cbn; auto. destruct y; auto; try discriminate Gx. destruct v; auto. destruct Gx; discriminate. }
    destruct (oc_track c && negb (o_flag s l)) eqn:E; inversion H; subst; clear H.
    + split; [auto|]. split; [auto|]. split; [auto|]. split; [auto|].
      intros p Hp. apply (flagged_ext s'); auto.
    + split.
      { cbn. repeat split; auto. destruct rest as [|y r']; auto. destruct y; auto; try discriminate Gx. destruct v; auto. destruct Gx; discriminate. }
      split; [cbn; auto|]. split; [cbn; auto|]. split; [auto|].
      intros p Hp. apply (flagged_ext s'); auto. cbn in Hp. specialize (FR p Hp).
      unfold flagged in *. destruct (pd_route p).
      * intros Tr. destruct (FR Tr) as [|[|]]; cbn; auto.
      * destruct FR as [|[|[id ?]]]; cbn; auto. right; right. exists id. auto.
  - (* MFlushAll *)
    cbn -[done_ids] in H. destruct (win_ok c s l); inversion H; subst; clear H.
    assert (NP : forall p, In p (filter (fun p => negb (on_win l p)) (o_pend s)) -> In p (o_pend s) /\ pd_route p <> RWin l).
    { intros p Hp. apply filter_In in Hp. destruct Hp as [Hp E]. split; auto. intros E'.
      unfold on_win in E. rewrite E', loc_eqb_refl in E. discriminate. }
    split; [auto|]. split.
    { destruct rest' as [|y r']; [exact Logic.I|]. destruct y; auto; unfold hd_ok.
      - destruct v; auto. destruct Gx as [id' Gx]. discriminate.
      - injection Gx as <-. intros p Hp. apply NP; auto. }
    split; [auto|]. split; [auto|].
    intros p Hp. apply NP in Hp. destruct Hp as [Hp E].
    apply (flagged_ext s); auto. eapply flagged_nil; [apply F; auto|..]; intros; try split; intros; discriminate.
  - (* MReset *)
    cbn in H.
    assert (ES : s' = (if oc_track c then set_flag s l false else s) /\ rest' = rest) by (inversion H; auto).
    destruct ES as [-> ->]. clear H.
    assert (EP : o_pend (if oc_track c then set_flag s l false else s) = o_pend s) by (destruct (oc_track c); auto).
    split; [auto|]. split.
    { destruct rest as [|y r']; cbn; auto. destruct y; auto; try discriminate Gx. destruct v; auto. destruct Gx; discriminate. }
    split; [auto|]. split; [auto|].
    intros p Hp. cbn in Hp. rewrite EP in Hp.
    assert (Fp := F p Hp). unfold flagged in *. cbn. destruct (pd_route p) as [l'|t] eqn:R.
    + intros Tr. rewrite Tr. cbn. destruct (loc_eqb l l') eqn:E.
      * apply loc_eqb_eq in E. subst. exfalso. exact (HD p Hp R).
      * destruct (Fp Tr) as [F1|[[F1|F1]|[F1|F1]]]; auto; discriminate.
    + destruct (oc_track c); cbn; destruct Fp as [F1|[[F1|F1]|[id [F1|F1]]]]; auto; try discriminate; eauto 6.
  - (* MAmFlush *)
    cbn -[done_ids] in H.
    assert (HR : hd_ok s rest).
    { destruct rest as [|y r']; cbn; auto. destruct y; auto; try discriminate Gx. destruct v; auto. destruct Gx; discriminate. }
    assert (FR : forall p, In p (o_pend s) -> flagged s rest p).
    { intros p Hp. eapply flagged_nil; [apply F; auto|..]; intros; try split; intros; discriminate. }
    destruct (o_am s t) eqn:A.
    + inversion H; subst; clear H.
      split; [auto|]. split.
      { destruct rest' as [|y r']; cbn; auto. destruct y; auto; try discriminate Gx. destruct v; auto. destruct Gx; discriminate. }
      split; [auto|]. split; [auto|].
      intros p Hp. cbn in Hp. apply filter_In in Hp. destruct Hp as [Hp E].
      specialize (FR p Hp). unfold flagged in *. cbn. destruct (pd_route p) as [l'|t'] eqn:R; auto.
      unfold on_am in E. rewrite R in E. destruct (t =? t'); [discriminate|]. auto.
    + inversion H; subst. split; [auto|]. split; [auto|]. split; [auto|]. split; [auto|].
      intros p Hp. apply (flagged_ext s'); auto.
  - (* MEnter *)
    cbn in H. inversion H; subst; clear H.
    split; [auto|]. split.
    { destruct rest' as [|y r']; cbn; auto. destruct y; auto; try discriminate Gx. destruct v; auto. destruct Gx; discriminate. }
    split; [auto|]. split; [auto|].
    intros p Hp. apply (flagged_ext s); auto. eapply flagged_nil; [apply F; auto|..]; intros; try split; intros; discriminate.
  - (* MLeave *)
    cbn in H. destruct r; inversion H; subst; clear H.
    + split; [auto|]. split.
      { destruct rest' as [|y r']; cbn; auto. destruct y; auto; try discriminate Gx. destruct v; auto. destruct Gx; discriminate. }
      split; [auto|]. split; [auto|].
      intros p Hp. apply (flagged_ext s'); auto. eapply flagged_nil; [apply F; auto|..]; intros; try split; intros; discriminate.
    + split; [cbn; auto|]. split; [exact I|]. split; [cbn; auto|]. split; [auto|].
      intros p Hp. apply (flagged_ext s'); auto.
  - (* MSpace *)
    cbn -[space_step] in H. destruct (space_step c s c0) as [[s1 e1]| | |] eqn:E; cbn in H; inversion H; subst; clear H.
    split; [auto|]. split.
    { destruct rest' as [|y r']; cbn; auto. destruct y; auto; try discriminate Gx. destruct v; auto. destruct Gx; discriminate. }
    split; [auto|]. split; [auto|].
    intros p Hp. cbn in Hp. assert (Hp0 := space_back _ _ _ _ _ _ E Hp).
    assert (FR : flagged s rest' p).
    { eapply flagged_nil; [apply F; auto|..]; intros; try split; intros; discriminate. }
    assert (A := space_same _ _ _ _ _ E). unfold flagged in *. cbn.
    destruct (pd_route p) as [l'|t'] eqn:R.
    + destruct (space_live _ _ _ _ _ E L p l' Hp R) as [_ ->]. auto.
    + destruct A as (_ & _ & ->). auto.
Qed.

Lemma invA_init : invA o_init.
Proof.
  split; [reflexivity|]. split; [exact I|]. split; [exact I|]. split; [exact I|].
  split; [exact live_init|]. intros p [].
Qed.

Lemma step_invA s lb s' ev : one_thread [lb] -> ostep c s lb = Ok (s', ev) -> invA s -> invA s'.
Proof.
  intros O H I. assert (O' := O lb (or_introl eq_refl)).
  destruct lb as [i cl|i r|id]; cbn -[done_ids mi_step] in H; subst.
  - destruct (o_thr s 0) eqn:T; [inversion H; subst; auto|].
    destruct (call_steps c s cl) as [m| | |] eqn:C; cbn in H; inversion H; subst. clear H.
    destruct (call_shape _ _ _ C) as (G & P & HD).
    destruct I as (J & _ & _ & _ & L & F).
    split; [intros j Hj; cbn [set_thr o_thr]; replace (0 =? j) with false by lia; auto|].
    unfold rest0; cbn [set_thr o_thr Z.eqb].
    split; [auto|]. split; [auto|]. split; [auto|].
    split; [eapply live_sub; [| |exact L]; auto|].
    intros p Hp. specialize (F p Hp). unfold rest0 in F. rewrite T in F. unfold flagged in *. cbn.
    destruct (pd_route p); cbn in F.
    + intros Tr. destruct (F Tr) as [|[[]|[]]]; auto.
    + destruct F as [|[[]|[? []]]]; auto.
  - destruct (o_thr s 0) as [[cl [|m rest]]|] eqn:T.
    + inversion H; subst; clear H. destruct I as (J & _ & _ & _ & L & F).
      split; [intros j Hj; cbn [set_thr o_thr]; replace (0 =? j) with false by lia; auto|].
      unfold rest0; cbn [set_thr o_thr Z.eqb].
      split; [exact Logic.I|]. split; [exact Logic.I|]. split; [exact Logic.I|].
      split; [eapply live_sub; [| |exact L]; auto|].
      intros p Hp. specialize (F p Hp). unfold rest0 in F. rewrite T in F. auto.
    + destruct (mi_step c r s m rest) as [[[s1 e1] r1]| | |] eqn:E; cbn in H; inversion H; subst.
      eapply mi_invA; eauto.
    + inversion H; subst; auto.
  - inversion H; subst; clear H. destruct I as (J & G & HD & PR & L & F).
    split; [exact J|]. unfold rest0; cbn [set_pend o_thr].
    split; [auto|]. split.
    { unfold hd_ok in *. fold (rest0 s). destruct (rest0 s) as [|y r']; auto.
      destruct y as [| | | | |t0 [|]| | | | | | |]; auto; intros p Hp; cbn in Hp; apply filter_In in Hp; apply HD; tauto. }
    split; [auto|].
    split; [eapply live_sub; [| |exact L]; auto; intros p Hp; apply filter_In in Hp; tauto|].
    intros p Hp. cbn in Hp. apply filter_In in Hp. apply (F p). tauto.
Qed.
Lemma run_invA ls : forall s s' log, one_thread ls -> orun c s ls = Ok (s', log) -> invA s -> invA s'.
Proof.
  induction ls as [|lb ls IH]; intros s s' log O H I; cbn in H; [inversion H; subst; auto|].
  destruct (ostep c s lb) as [[s1 e1]| | |] eqn:E; cbn in H; try discriminate.
  destruct (orun c s1 ls) as [[s2 e2]| | |] eqn:E2; cbn in H; inversion H; subst.
  eapply IH; eauto. { intros x Hx. apply O; right; auto. }
  eapply step_invA; eauto. intros x [<-|[]]. apply O; left; auto.
Qed.

(** ** Covered operations *)
Definition cov (p : pend) (m : list mi) : Prop :=
  match pd_route p with
  | RWin l => In (MCheck l) m \/ In (MFlushAll l) m
  | RAm t => In (MAmFlush t) m
  end.
Definition flag_ok (s : ost) (p : pend) : Prop :=
  match pd_route p with
  | RWin l => oc_track c = true -> o_flag s l = true
  | RAm t => o_am s t = true
  end.

Lemma cov_step r s x rest s' ev rest' p :
  mi_step c r s x rest = Ok (s', ev, rest') -> In p (o_pend s) -> cov p (x :: rest) -> flag_ok s p ->
  In (EDone (pd_id p)) ev \/ (In p (o_pend s') /\ cov p rest').
Proof.
  intros H Hp C F.
  assert (K := mi_keep _ _ _ _ _ _ _ _ _ H Hp).
  assert (Z0 : cov p rest -> In (EDone (pd_id p)) ev \/ (In p (o_pend s') /\ cov p rest')).
  { intros C'. destruct K as [K|K]; auto. right. split; auto.
    assert (ER : rest' = rest \/ (exists l, rest' = MFlushAll l :: MReset l :: rest) \/ (exists b, rest' = MLeave b :: rest)).
    { clear -H. destruct x; cbn -[space_step] in H;
        repeat match type of H with context [if ?y then _ else _] => destruct y end;
        try (inversion H; subst; eauto; fail).
      destruct (space_step c s c0); cbn in H; inversion H; auto. }
    unfold cov in *. destruct ER as [->|[[l ->]|[b ->]]]; auto.
    - destruct (pd_route p); cbn; tauto.
    - destruct (pd_route p); cbn; tauto. }
  unfold cov in C. unfold flag_ok in F. destruct (pd_route p) as [l|t] eqn:R.
  - destruct C as [[->|C]|[->|C]]; try (apply Z0; unfold cov; rewrite R; auto; fail).
    + cbn in H. destruct (oc_track c) eqn:Tr.
      * rewrite (F eq_refl) in H. cbn in H. inversion H; subst. right. split; auto. unfold cov. rewrite R. cbn. auto.
      * cbn in H. inversion H; subst. right. split; auto. unfold cov. rewrite R. cbn. auto.
    + cbn -[done_ids] in H. destruct (win_ok c s l); [|discriminate].
      destruct (done_keep (on_win l) s p Hp) as [[_ A]|[A _]].
      * inversion H; subst; auto.
      * unfold on_win in A. rewrite R, loc_eqb_refl in A. discriminate.
  - destruct C as [->|C]; try (apply Z0; unfold cov; rewrite R; auto; fail).
    cbn -[done_ids] in H. rewrite F in H.
    destruct (done_keep (on_am t) s p Hp) as [[_ A]|[A _]].
    + destruct (done_ids (on_am t) s); inversion H; subst; auto.
    + unfold on_am in A. rewrite R, Z.eqb_refl in A. discriminate.
Qed.

Definition flushy (x : mi) : Prop :=
  match x with MCheck _ | MFlushAll _ | MReset _ | MAmFlush _ | MEnter _ | MLeave _ => True | _ => False end.
Lemma flushy_step r s x rest s' ev rest' : mi_step c r s x rest = Ok (s', ev, rest') ->
  (forall y, In y (x :: rest) -> flushy y) -> forall y, In y rest' -> flushy y.
Proof.
  intros H F y Hy. assert (Fx := F x (or_introl eq_refl)).
  assert (FR : forall y, In y rest -> flushy y) by (intros; apply F; right; auto).
  destruct x; try contradiction; cbn -[done_ids] in H;
    repeat match type of H with context [if ?z then _ else _] => destruct z end;
    try (inversion H; subst; auto; fail).
  inversion H; subst. destruct Hy as [<-|[<-|Hy]]; cbn; auto.
Qed.

Definition regime (p : pend) (i : Z) (ls : list olab) (s : ost) (m : list mi) : Prop :=
  (oc_track c = false /\ exists l, pd_route p = RWin l) \/
  (i = 0 /\ one_thread ls /\ invA s /\ forall y, In y m -> flushy y).

Lemma regime_flag p i ls s cl m : regime p i ls s m -> o_thr s i = Some (cl, m) -> In p (o_pend s) -> flag_ok s p.
Proof.
  intros [(T & l & R)|(-> & _ & I & FL)] Ht Hp; unfold flag_ok.
  - rewrite R. congruence.
  - destruct I as (_ & _ & _ & _ & _ & F). specialize (F p Hp). unfold rest0 in F. rewrite Ht in F.
    unfold flagged in F. destruct (pd_route p).
    + intros Tr. destruct (F Tr) as [|[A|A]]; auto; destruct (FL _ A).
    + destruct F as [|[A|[id A]]]; auto; destruct (FL _ A).
Qed.

Lemma phase ls : forall s s' log i cl m p,
  orun c s ls = Ok (s', log) -> o_thr s i = Some (cl, m) -> (forall c', ~ In (ERet i c') log) ->
  In p (o_pend s) -> cov p m -> regime p i ls s m ->
  In (EDone (pd_id p)) log \/ (In p (o_pend s') /\ exists m', o_thr s' i = Some (cl, m') /\ cov p m').
Proof.
  induction ls as [|lb ls IH]; intros s s' log i cl m p H T N Hp C R; cbn in H.
  - inversion H; subst. right. eauto.
  - destruct (ostep c s lb) as [[s1 e1]| | |] eqn:E; cbn in H; try discriminate.
    destruct (orun c s1 ls) as [[s2 e2]| | |] eqn:E2; cbn in H; inversion H; subst. clear H. cbn.
    assert (N2 : forall c', ~ In (ERet i c') e2) by (intros c' Hc; apply (N c'); apply in_or_app; auto).
    assert (K := step_keep _ _ _ _ _ _ E Hp).
    destruct K as [K|K]; [|left; apply in_or_app; auto].
    assert (RF := regime_flag _ _ _ _ _ _ R T Hp).
    (* the thread's list afterwards *)
    assert (NX : In (EDone (pd_id p)) e1 \/ exists m', o_thr s1 i = Some (cl, m') /\ cov p m' /\
                 ((forall y, In y m -> flushy y) -> forall y, In y m' -> flushy y)).
    { destruct lb as [j cl'|j r|id]; cbn -[done_ids mi_step] in E.
      - destruct (o_thr s j) eqn:Tj; [inversion E; subst; eauto|].
        destruct (call_steps c s cl'); cbn in E; inversion E; subst. cbn.
        destruct (j =? i) eqn:Ej; [assert (j = i) by lia; subst; congruence|]. eauto.
      - destruct (o_thr s j) as [[cl' [|x rest]]|] eqn:Tj.
        + inversion E; subst. cbn. destruct (j =? i) eqn:Ej; eauto.
          exfalso. apply (N cl'). left. f_equal. lia.
        + destruct (mi_step c r s x rest) as [[[s3 e3] r3]| | |] eqn:EM; cbn in E; inversion E; subst. cbn.
          destruct (j =? i) eqn:Ej.
          * assert (j = i) by lia; subst. rewrite T in Tj. inversion Tj; subst.
            destruct (cov_step _ _ _ _ _ _ _ _ EM Hp C RF) as [A|[_ A]]; auto.
            right. exists r3. repeat split; auto. intros FL. eapply flushy_step; eauto.
          * rewrite (mi_thr _ _ _ _ _ _ _ _ EM). eauto.
        + inversion E; subst; eauto.
      - inversion E; subst. cbn. eauto. }
    destruct NX as [NX|(m' & T' & C' & FL')]; [left; apply in_or_app; auto|].
    assert (R' : regime p i ls s1 m').
    { destruct R as [R|(-> & O & I & FL)]; [left; auto|right].
      split; auto. split; [intros x Hx; apply O; right; auto|]. split; auto.
      eapply step_invA; eauto. intros x [<-|[]]. apply O; left; auto. }
    destruct (IH _ _ _ _ _ _ _ E2 T' N2 K C' R') as [A|A]; auto. left. apply in_or_app; auto.
Qed.

(** A call that covers an operation completes it before it returns. *)
Lemma covered_done ls1 ls2 s1 s2 l1 l2 i cl m p :
  orun c o_init ls1 = Ok (s1, l1) -> call_steps c s1 cl = Ok m -> o_thr s1 i = None ->
  orun c (set_thr s1 i (Some (cl, m))) ls2 = Ok (s2, l2) -> (forall c', ~ In (ERet i c') l2) ->
  o_thr s2 i = Some (cl, []) ->
  In p (o_pend s1) -> cov p m -> (forall y, In y m -> flushy y) ->
  ((oc_track c = false /\ exists l, pd_route p = RWin l) \/ (i = 0 /\ one_thread (ls1 ++ OCall i cl :: ls2))) ->
  In (EDone (pd_id p)) l2.
Proof.
  intros R1 CS T0 R2 N T2 Hp C FL RG.
  assert (R : regime p i ls2 (set_thr s1 i (Some (cl, m))) m).
  { destruct RG as [RG|(-> & O)]; [left; auto|right].
    split; auto. split; [intros x Hx; apply O; apply in_or_app; right; right; auto|]. split; auto.
    eapply step_invA with (lb := OCall 0 cl) (s := s1).
    - intros x [<-|[]]. reflexivity.
    - cbn. rewrite T0, CS. reflexivity.
    - apply (run_invA ls1 o_init s1 l1); auto; [|exact invA_init]. intros x Hx. apply O; apply in_or_app; auto. }
  destruct (phase _ _ _ _ _ _ _ _ R2 ltac:(cbn; rewrite Z.eqb_refl; reflexivity) N Hp C R) as [A|(_ & m' & Tm & Cm)]; auto.
  rewrite T2 in Tm. inversion Tm; subst. unfold cov in Cm. destruct (pd_route p); cbn in Cm; tauto.
Qed.

Lemma plain_flushy x m s : quiet_steps c s x = Ok m -> forall y, In y m -> flushy y.
Proof.
  unfold quiet_steps. intros H y Hy. destruct x.
  - destruct (space_locs c (o_spaces s)) as [sl| | |]; cbn in H; inversion H; subst.
    repeat (apply in_app_or in Hy; destruct Hy as [Hy|Hy]);
      try (apply in_map_iff in Hy; destruct Hy as (? & <- & _); exact I).
    unfold am_flush_steps in Hy. destruct (no_am c); [destruct Hy|].
    apply in_map_iff in Hy; destruct Hy as (? & <- & _); exact I.
  - destruct (loc_of c s (XSpace k i) OHeap) as [l| | |]; cbn in H; inversion H; subst.
    destruct Hy as [<-|[]]. exact I.
Qed.
Lemma barrier_flushy b y : In y (barrier_steps c b) -> flushy y.
Proof.
  unfold barrier_steps. intros Hy.
  repeat (apply in_app_or in Hy; destruct Hy as [Hy|Hy]).
  - apply in_map_iff in Hy; destruct Hy as (? & <- & _); exact I.
  - unfold am_flush_steps in Hy. destruct (no_am c); [destruct Hy|].
    apply in_map_iff in Hy; destruct Hy as (? & <- & _); exact I.
  - destruct Hy as [<-|[<-|[]]]; exact I.
Qed.

(** Quiet looks at every window that exists. *)
Lemma space_locs_in l : forall sl sp, space_locs c l = Ok sl -> In sp l ->
  (oc_dyn c = false -> In (LDef (os_id sp)) sl) /\
  (forall i, 0 <= i < os_nctx sp -> In (LCtx (os_id sp) i) sl).
Proof.
  induction l as [|x l IH]; intros sl sp H Hin; [destruct Hin|]. cbn in H.
  destruct ((0 <? os_nctx x) && negb (os_att x)); [discriminate|].
  destruct (space_locs c l) as [r| | |] eqn:E; cbn in H; inversion H; subst. clear H.
  destruct Hin as [->|Hin].
  - split.
    + intros ->. apply in_or_app; right. cbn. auto.
    + intros i Hi. apply in_or_app; left. unfold ctx_locs. apply in_map_iff. exists (Z.to_nat i).
      split; [f_equal; lia|]. apply in_seq. lia.
  - destruct (IH _ _ eq_refl Hin) as [A B]. split; intros; apply in_or_app; right; apply in_or_app; right; auto.
Qed.
Lemma live_in s l sl : win_ok c s l = true -> space_locs c (o_spaces s) = Ok sl -> In l (symm_locs c ++ sl).
Proof.
  intros W H. apply in_or_app. destruct l; cbn in W; unfold symm_locs.
  - left. destruct (oc_dyn c); cbn; auto; discriminate.
  - left. destruct (oc_dyn c); cbn; auto; discriminate.
  - left. rewrite W. cbn; auto.
  - right. destruct (find_sp s k) as [sp|] eqn:F; [|rewrite andb_false_r in W; discriminate].
    apply find_some in F. destruct F as [F E]. assert (os_id sp = k) by lia. subst k.
    apply (space_locs_in _ _ _ H F). destruct (oc_dyn c); auto; discriminate.
  - right. destruct (find_sp s k) as [sp|] eqn:F; [|discriminate].
    apply find_some in F. destruct F as [F E]. assert (os_id sp = k) by lia. subst k.
    apply (space_locs_in _ _ _ H F). lia.
Qed.

Lemma quiet_cov s m p : quiet_steps c s XDefault = Ok m -> live s -> In p (o_pend s) ->
  (forall t, pd_route p = RAm t -> 0 <= t < oc_n c /\ no_am c = false) -> cov p m.
Proof.
  intros H L Hp A. unfold quiet_steps in H.
  destruct (space_locs c (o_spaces s)) as [sl| | |] eqn:E; cbn in H; inversion H; subst. clear H.
  unfold cov. destruct (pd_route p) as [l|t] eqn:R.
  - left. assert (I := live_in _ _ _ (L p l Hp R) E). apply in_app_or in I.
    apply in_or_app. destruct I as [I|I]; [left; apply in_map; auto|].
    right. apply in_or_app. left. apply in_map; auto.
  - destruct (A t eq_refl) as [A1 A2]. apply in_or_app; right. apply in_or_app; right.
    unfold am_flush_steps. rewrite A2. apply in_map. unfold pes. apply in_map_iff. exists (Z.to_nat t).
    split; [lia|]. apply in_seq. lia.
Qed.

(** ** Quiet and fence *)
Lemma quiet_steps_of x cl s : quiet_or_fence x cl -> call_steps c s cl = quiet_steps c s x.
Proof. intros [->| ->]; reflexivity. Qed.

Lemma completes_gen (sync : ocall -> Prop) (op : ocall -> Z -> Prop) ls s log :
  orun c o_init ls = Ok (s, log) ->
  (forall cl id, op cl id -> cl_id cl = Some id) ->
  (forall ls1 s1 l1 cl m, orun c o_init ls1 = Ok (s1, l1) -> sync cl -> call_steps c s1 cl = Ok m ->
     (forall y, In y m -> flushy y) /\
     forall p cl' id, In p (o_pend s1) -> op cl' id -> route_ok cl' (pd_route p) -> cov p m) ->
  ((oc_track c = false /\ forall cl' id r, op cl' id -> route_ok cl' r -> exists l, r = RWin l) \/ one_thread ls) ->
  completes sync op log.
Proof.
  intros R Hop Hs RG l1 l2 l3 i cl E Sy N j cl' id Hr Ho.
  destruct (run_split_start _ _ _ _ _ _ _ _ _ R E) as (ls1 & ls2 & s1 & m & -> & R1 & T1 & C1 & R2).
  destruct (run_split_ret _ _ _ _ _ _ _ _ _ R2 eq_refl) as (ls3 & r & ls4 & s2 & -> & R3 & T2 & R4).
  assert (I0 := run_inv0 _ _ _ _ _ R1 inv0_init). cbn in I0.
  destruct I0 as [I0 _]. destruct (I0 _ _ Hr id (Hop _ _ Ho)) as [D|(p & Hp & Hid & Hro)].
  { apply in_or_app; auto. }
  destruct (Hs _ _ _ _ _ R1 Sy C1) as [FL CV].
  apply in_or_app; right. rewrite <- Hid.
  eapply (covered_done ls1 ls3 s1 s2 l1 l2 i cl m p R1 C1 T1 R3 N T2 Hp); eauto.
  destruct RG as [[Tr RG]|O]; [left; split; eauto|right].
  split; [apply (O (OCall i cl)); apply in_or_app; right; left; auto|].
  intros x Hx. apply O. apply in_app_or in Hx. apply in_or_app. destruct Hx as [Hx|[Hx|Hx]]; auto.
  - right; left; auto.
  - right; right. apply in_or_app; auto.
Qed.

Lemma quiet_one_thread ls s log : one_thread ls -> orun c o_init ls = Ok (s, log) ->
  completes (quiet_or_fence XDefault) (any_op c) log.
Proof.
  intros O R. eapply completes_gen; eauto.
  - intros cl id (x & o & k & t & dev & -> & _). reflexivity.
  - intros ls1 s1 l1 cl m R1 Sy C1. rewrite (quiet_steps_of _ _ _ Sy) in C1.
    split; [eapply plain_flushy; eauto|].
    intros p cl' id Hp (x & o & k & t & dev & -> & Ht) Hro.
    eapply quiet_cov; eauto; [eapply run_live; eauto; exact live_init|].
    intros t' Et. rewrite Et in Hro. cbn in Hro. destruct Hro as (-> & _ & ?). auto.
Qed.

Lemma quiet_untracked ls s log : oc_track c = false -> orun c o_init ls = Ok (s, log) ->
  completes (quiet_or_fence XDefault) (any_window_op c) log.
Proof.
  intros Tr R. eapply completes_gen; eauto.
  - intros cl id (x & o & k & t & dev & -> & _). reflexivity.
  - intros ls1 s1 l1 cl m R1 Sy C1. rewrite (quiet_steps_of _ _ _ Sy) in C1.
    split; [eapply plain_flushy; eauto|].
    intros p cl' id Hp (x & o & k & t & dev & -> & Bw) Hro.
    eapply quiet_cov; eauto; [eapply run_live; eauto; exact live_init|].
    intros t' Et. rewrite Et in Hro. cbn in Hro. destruct Hro as (_ & ? & _). contradiction.
  - left. split; auto. intros cl' id r (x & o & k & t & dev & -> & Bw) Hro.
    destruct r; eauto. cbn in Hro. tauto.
Qed.

Lemma ctx_quiet_direct ls s log k i : orun c o_init ls = Ok (s, log) ->
  oc_track c = false \/ one_thread ls ->
  completes (quiet_or_fence (XSpace k i)) (window_op_on c (XSpace k i)) log.
Proof.
  intros R RG. eapply completes_gen; eauto.
  - intros cl id (o & kk & t & dev & -> & _). reflexivity.
  - intros ls1 s1 l1 cl m R1 Sy C1. rewrite (quiet_steps_of _ _ _ Sy) in C1.
    split; [eapply plain_flushy; eauto|].
    intros p cl' id Hp (o & kk & t & dev & -> & Bw) Hro.
    unfold quiet_steps in C1. destruct (loc_of c s1 (XSpace k i) OHeap) as [l| | |] eqn:L; cbn -[loc_of] in C1; inversion C1; subst.
    cbn in L. destruct (find_sp s1 k) as [sp|]; [|discriminate].
    destruct (os_att sp && (0 <=? i) && (i <? os_nctx sp)); inversion L; subst.
    unfold cov. destruct (pd_route p) as [l|t']; cbn in Hro; [subst; cbn; auto|tauto].
  - destruct RG as [Tr|O]; [left|right; auto]. split; auto.
    intros cl' id r (o & kk & t & dev & -> & Bw) Hro. destruct r; eauto. cbn in Hro. tauto.
Qed.
End One.
