From Coq Require Import Permutation.
From Verif Require Import Base ResModel ResSpec ResProofs.

Definition o_ut (o : option rteam) : list res := match o with Some t => o_team t | None => [] end.
Definition o_us (c : rcfg) (o : option rspace) : list res := match o with Some p => o_space c p | None => [] end.
Definition o_lib (c : rcfg) (l : lib) : list res :=
  o_comms (lb_comms l) ++ o_opt RCs (lb_ccs l) ++ o_am (lb_am l) ++ o_types (lb_types l)
  ++ o_opt RCs (lb_scs l) ++ o_opt RCs (lb_pcs l) ++ o_heap c (lb_heap l) ++ o_team (lb_shared l) ++ o_team (lb_world l).
Definition o_user (c : rcfg) (l : lib) : list res :=
  flat_map o_ut (lb_teams l) ++ flat_map (o_us c) (lb_spaces l).
Definition owned (c : rcfg) (l : lib) : list res := o_lib c l ++ o_user c l.

Definition some_b {A} (o : option A) : bool := match o with Some _ => true | None => false end.
Record lib_ok (c : rcfg) (o : rora) (l : lib) (u : ust) : Prop := mkLO {
  lo_heap : heap_ok c o (lb_heap l);
  lo_am : am_ok c (lb_am l);
  lo_ccs : some_b (lb_ccs l) = rc_mult c;
  lo_pcs : some_b (lb_pcs l) = rc_mult c;
  lo_scs : some_b (lb_scs l) = rc_mult c && rc_scache c;
  lo_comms : map fst (lb_comms l) = u_sets u;
  lo_types : if rc_scache c then map fst (lb_types l) = u_shapes u else lb_types l = [];
  lo_teams : Forall2 (fun b t => some_b t = b) (u_teams u) (lb_teams l);
  lo_spaces : Forall2 (fun (q : option uspace) p => match q, p with Some q, Some p => space_ok c q p | None, None => True | _, _ => False end) (u_spaces u) (lb_spaces l)
}.

Lemma upd_split {A B} (f : A -> list B) l i y : nth_error l i = Some y ->
  exists rest, Permutation (flat_map f l) (f y ++ rest) /\ (forall z, Permutation (flat_map f (upd l i z)) (f z ++ rest))
    /\ (forall b, In b rest -> exists z, In z l /\ In b (f z)).
Proof.
  revert i. induction l as [|x l IH]; intros [|i] H; try discriminate H; cbn in H.
  - injection H as ->. exists (flat_map f l). cbn. split; [reflexivity|]. split; [reflexivity|].
    intros b I. apply in_flat_map in I as (z & I & J). eauto.
  - destruct (IH i H) as (rest & P1 & P2 & P3). exists (f x ++ rest). cbn. split; [|split].
    + rewrite P1. perm.
    + intros z. rewrite (P2 z). perm.
    + intros b I. apply in_app_iff in I as [I|I]; [eauto|]. destruct (P3 b I) as (z & Iz & J). eauto.
Qed.
Lemma Forall2_nth {A B} (P : A -> B -> Prop) l m i x : Forall2 P l m -> nth_error l i = Some x -> exists y, nth_error m i = Some y /\ P x y.
Proof. intros H. revert i. induction H as [|a b l m Hab H IH]; intros [|i] E; try discriminate E; cbn in *; [injection E as ->; eauto|auto]. Qed.
Lemma Forall2_upd {A B} (P : A -> B -> Prop) l m i x y : Forall2 P l m -> P x y -> Forall2 P (upd l i x) (upd m i y).
Proof. intros H Q. revert i. induction H as [|a b l m Hab H IH]; intros [|i]; cbn; constructor; auto. Qed.
Lemma Forall2_upd_r {A B} (P : A -> B -> Prop) l m i x y : Forall2 P l m -> nth_error l i = Some x -> P x y -> Forall2 P l (upd m i y).
Proof.
  intros H. revert i. induction H as [|a b l m Hab H IH]; intros [|i] E Q; try discriminate E; cbn in *; [injection E as ->; constructor; auto|].
  constructor; auto.
Qed.
Lemma Forall2_snoc {A B} (P : A -> B -> Prop) l m x y : Forall2 P l m -> P x y -> Forall2 P (l ++ [x]) (m ++ [y]).
Proof. intros H Q. apply Forall2_app; auto. Qed.

Lemma comms_no_att l b : ~ In (b, RAtt) (o_comms l).
Proof. intros I. apply in_flat_map in I as ([k [[m c] g]] & _ & [J|[J|[J|[]]]]); discriminate J. Qed.
Lemma types_no_att l b : ~ In (b, RAtt) (o_types l).
Proof. intros I. apply in_flat_map in I as ([k [m t]] & _ & [J|[J|[]]]); discriminate J. Qed.
Lemma team_no_att t b : ~ In (b, RAtt) (o_team t).
Proof. intros [J|[J|[J|[]]]]; discriminate J. Qed.
Lemma ut_no_att l b : ~ In (b, RAtt) (flat_map o_ut l).
Proof. intros I. apply in_flat_map in I as ([t|] & _ & J); [exact (team_no_att _ _ J)|destruct J]. Qed.
Lemma am_no_att a b : ~ In (b, RAtt) (o_am a).
Proof.
  destruct a as [a|]; cbn; [|tauto]. intros I. apply in_app_iff in I as [I|I]; [exact (opt_no_att RCs _ _ ltac:(discriminate) I)|].
  repeat (destruct I as [I|I]; [discriminate I|]). exact I.
Qed.
Lemma heap_backed c h : backed (o_heap c h).
Proof.
  unfold o_heap. destruct (rh_wins h) as [|w [|w2 [|]]]; try solve [intros ? []].
  - destruct (rh_base h) as [[bb ag]|]; [|intros ? []]. intros b I.
    destruct I as [I|[I|[I|[I|[I|I]]]]]; try discriminate I.
    + injection I as <-. right. exists (if ag then RMap else RMem). split; [destruct ag; reflexivity|]. right; right; right; right; left. reflexivity.
    + injection I as <-. left. reflexivity.
    + destruct ag; discriminate I.
    + rewrite !in_app_iff in I. destruct I as [I|[I|I]]; [destruct (attr_no_att _ _ I)|destruct (attr_no_att _ _ I)|destruct (opt_no_att RCs _ b ltac:(discriminate) I)].
  - apply backed_none. intros b. rewrite !in_app_iff. intros [I|[I|I]]; [exact (win_no_att _ _ I)|exact (opt_no_att RCs _ b ltac:(discriminate) I)|exact (win_no_att _ _ I)].
Qed.
Lemma o_lib_backed c l : backed (o_lib c l).
Proof.
  unfold o_lib.
  repeat apply backed_app; try apply heap_backed; apply backed_none; intros b;
    first [apply comms_no_att | apply types_no_att | apply am_no_att | apply team_no_att | apply opt_no_att; discriminate].
Qed.
Lemma spaces_backed c u l : Forall2 (fun (q : option uspace) p => match q, p with Some q, Some p => space_ok c q p | None, None => True | _, _ => False end) u l ->
  forall p, In p l -> backed (o_us c p).
Proof.
  intros H p I. induction H as [|q p' u l Hq H IH]; [destruct I|]. destruct I as [->|I]; [|auto].
  destruct p as [p|]; [|intros b []]. destruct q as [q|]; [|destruct Hq]. exact (o_space_backed _ _ _ Hq).
Qed.
(** All but one space. *)
Lemma rest_backed c u l i p :
  Forall2 (fun (q : option uspace) p => match q, p with Some q, Some p => space_ok c q p | None, None => True | _, _ => False end) u l ->
  nth_error l i = Some p ->
  exists rest, Permutation (flat_map (o_us c) l) (o_us c p ++ rest) /\ (forall z, Permutation (flat_map (o_us c) (upd l i z)) (o_us c z ++ rest)) /\ backed rest.
Proof.
  intros F. revert i. induction F as [|q p' u l Hq H IH]; intros [|i] E; try discriminate E; cbn in E.
  - injection E as ->. exists (flat_map (o_us c) l). cbn. split; [reflexivity|]. split; [reflexivity|].
    apply backed_flat. intros x Ix. exact (spaces_backed c u l H x Ix).
  - destruct (IH i E) as (rest & P1 & P2 & P3). exists (o_us c p' ++ rest). cbn. split; [rewrite P1; perm|]. split; [intros z; rewrite (P2 z); perm|].
    apply backed_app; [|exact P3]. apply (spaces_backed c (q :: u) (p' :: l)); [constructor; assumption|left; reflexivity].
Qed.

Lemma akey_eqb_refl k : akey_eqb k k = true.
Proof. unfold akey_eqb. rewrite !Z.eqb_refl. reflexivity. Qed.
Lemma tkey_eqb_refl k : tkey_eqb k k = true.
Proof. unfold tkey_eqb. rewrite akey_eqb_refl, Z.eqb_refl. reflexivity. Qed.
Lemma existsb_map {A B} (f : A -> B) (p : B -> bool) l : existsb (fun e => p (f e)) l = existsb p (map f l).
Proof. induction l as [|x l IH]; cbn; [reflexivity|]. rewrite IH. reflexivity. Qed.
Lemma find_existsb {A} (p : A -> bool) l : some_b (find p l) = existsb p l.
Proof. induction l as [|x l IH]; cbn; [reflexivity|]. destruct (p x); [reflexivity|exact IH]. Qed.

(** Creating a derived datatype; the shapes afterwards. *)
Lemma create_owns c o k l u s X : lib_ok c o l u -> owns s (X ++ owned c l) ->
  exists t l' s' ex, create_sdtype c k l s = Ok (t, (l', s')) /\
    lib_ok c o l' (mkU (u_teams u) (u_spaces u) (u_sets u) (add_shape k (u_shapes u))) /\
    owns s' (X ++ ex ++ owned c l') /\ (if rc_scache c then ex = [] else ex = o_opt RType t).
Proof.
  intros LO H. destruct k as [[[n st] ty] ext]. unfold create_sdtype, add_shape. cbn [fst snd].
  destruct (st =? 1) eqn:S1.
  { exists None, l, s, []. split; [reflexivity|]. split; [destruct LO, u; constructor; assumption|]. split; [exact H|]. destruct (rc_scache c); reflexivity. }
  set (k := (n, st, ty, ext)).
  destruct (if rc_scache c then find (fun e => tkey_eqb (fst e) k) (lb_types l) else None) as [e|] eqn:F.
  - destruct (rc_scache c) eqn:SC; [|discriminate F]. exists (Some (snd (snd e))), l, s, []. split; [reflexivity|].
    pose proof (lo_types _ _ _ _ LO) as LT. rewrite SC in LT.
    assert (XE : existsb (fun y => tkey_eqb y k) (u_shapes u) = true).
    { rewrite <- LT, <- (existsb_map fst (fun y => tkey_eqb y k)), <- find_existsb, F. reflexivity. }
    unfold add_new. rewrite XE. split; [destruct LO, u; constructor; assumption|]. split; [exact H|reflexivity].
  - acq1 H s1 v.
    assert (Q : exists t s2, (if 0 <? ext then let '(t, s) := acq RType s1 in do s <- rel RType v s; Ok (t, s) else Ok (v, s1)) = Ok (t, s2)
       /\ owns s2 ((t, RType) :: X ++ owned c l)).
    { destruct (0 <? ext).
      - acq1 Ha s2 t. assert (H2 : owns s2 ((v, RType) :: (t, RType) :: X ++ owned c l)) by (eapply owns_perm; [apply perm_swap|exact Ha0]).
        rel1 H2 s3. exists t, s3. auto.
      - exists v, s1. auto. }
    destruct Q as (t & s2 & E & H2). rewrite E. cbn [bind fst snd]. clear E.
    destruct (rc_scache c) eqn:SC.
    + acq1 H2 s3 m. eexists (Some t), _, s3, []. split; [reflexivity|].
      pose proof (lo_types _ _ _ _ LO) as LT. rewrite SC in LT.
      assert (XE : existsb (fun y => tkey_eqb y k) (u_shapes u) = false).
      { rewrite <- LT, <- (existsb_map fst (fun y => tkey_eqb y k)), <- find_existsb, F. reflexivity. }
      unfold add_new. rewrite XE. split; [|split; [|reflexivity]].
      * destruct LO. constructor; cbn; try assumption. rewrite SC. cbn. rewrite LT. reflexivity.
      * eapply owns_perm; [|exact Ha0]. unfold owned, o_lib, o_user. cbn [lb_comms lb_ccs lb_am lb_types lb_scs lb_pcs lb_heap lb_shared lb_world lb_teams lb_spaces with_types].
        unfold o_types at 2. cbn [flat_map]. fold (o_types (lb_types l)). cbn [app]. perm.
    + exists (Some t), l, s2, [(t, RType)]. split; [reflexivity|].
      split; [|split; [eapply owns_perm; [|exact H2]; perm|reflexivity]].
      destruct LO. constructor; cbn; try assumption. rewrite SC in *. assumption.
Qed.
Lemma free_owns c t ex s R : (if rc_scache c then ex = [] else ex = o_opt RType t) -> owns s (ex ++ R) ->
  exists s', free_sdtype c t s = Ok s' /\ owns s' R.
Proof.
  unfold free_sdtype. destruct (rc_scache c); intros -> H; [exists s; auto|].
  destruct t as [t|]; [apply rel_owns, H | exists s; auto].
Qed.
Lemma add_shape_idem k l : add_shape k (add_shape k l) = add_shape k l.
Proof.
  unfold add_shape. destruct (snd (fst (fst k)) =? 1); [reflexivity|]. unfold add_new.
  destruct (existsb (fun y => tkey_eqb y k) l) eqn:E; [rewrite E; reflexivity|]. cbn. rewrite tkey_eqb_refl. reflexivity.
Qed.

Lemma owns_app_swap s A B R : owns s (A ++ B ++ R) -> owns s (B ++ A ++ R).
Proof. apply owns_perm. apply Permutation_app_swap_app. Qed.

Lemma step_ok c o l u s op : lib_ok c o l u -> owns s (owned c l) -> ulegal u op = true ->
  exists l' s', rstep c (l, s) op = Ok (l', s') /\ lib_ok c o l' (ustep u op) /\ owns s' (owned c l').
Proof.
  intros LO H L. destruct op as [m|[i|]|k|n ost tst ty ext|n st ty| | |d n|i sym|i|i]; cbn [rstep ustep ulegal] in *.
  - (* split *) destruct m; [|exists l, s; auto].
    destruct (team_make_owns s _ H) as (t & s1 & E & H1). rewrite E.
    eexists _, s1. split; [reflexivity|]. split.
    + destruct LO. constructor; cbn; try assumption. apply Forall2_snoc; [assumption|reflexivity].
    + eapply owns_perm; [|exact H1]. unfold owned, o_user, with_teams, o_lib. cbn [lb_comms lb_ccs lb_am lb_types lb_scs lb_pcs lb_heap lb_shared lb_world lb_teams lb_spaces].
      rewrite flat_map_app. cbn [flat_map o_ut]. rewrite app_nil_r. fold (o_lib c l). perm.
  - (* team destroy *) destruct (nth_error (u_teams u) i) as [[|]|] eqn:N; try discriminate L.
    destruct (Forall2_nth _ _ _ _ _ (lo_teams _ _ _ _ LO) N) as ([t|] & N' & B); [|discriminate B]. rewrite N'.
    destruct (upd_split o_ut _ _ _ N') as (rest & P1 & P2 & _).
    assert (H1 : owns s (o_team t ++ o_lib c l ++ rest ++ flat_map (o_us c) (lb_spaces l))).
    { eapply owns_perm; [|exact H]. unfold owned, o_user. rewrite P1. cbn [o_ut]. perm. }
    destruct (team_destroy_owns t s _ H1) as (s1 & E & H2). rewrite E. cbn [bind].
    eexists _, s1. split; [reflexivity|]. split.
    + destruct LO. constructor; cbn; try assumption. apply Forall2_upd; [assumption|reflexivity].
    + eapply owns_perm; [|exact H2]. unfold owned, o_user, with_teams, o_lib. cbn [lb_comms lb_ccs lb_am lb_types lb_scs lb_pcs lb_heap lb_shared lb_world lb_teams lb_spaces].
      rewrite (P2 None). cbn [o_ut app]. fold (o_lib c l). perm.
  - exists l, s. auto.
  - (* active set *) unfold aset_acquire.
    assert (X : existsb (fun e => akey_eqb (fst e) k) (lb_comms l) = existsb (fun y => akey_eqb y k) (u_sets u)).
    { rewrite <- (lo_comms _ _ _ _ LO). apply (existsb_map fst (fun y => akey_eqb y k)). }
    rewrite X. unfold add_new. destruct (existsb (fun y => akey_eqb y k) (u_sets u)) eqn:E.
    + exists l, s. split; [reflexivity|]. split; [destruct LO, u; constructor; assumption|exact H].
    + acq1 H s1 pl. acq1 Ha s2 g. acq1 Ha0 s3 cc.
      assert (H4 : owns s3 ((pl, RMem) :: (g, RGroup) :: (cc, RComm) :: owned c l)) by (eapply owns_perm; [|exact Ha1]; perm).
      rel1 H4 s4. acq1 H4 s5 m. eexists _, s5. split; [reflexivity|]. split.
      * destruct LO. constructor; cbn; try assumption. rewrite lo_comms0. reflexivity.
      * eapply owns_perm; [|exact Ha2]. unfold owned, o_user, with_comms, o_lib. cbn [lb_comms lb_ccs lb_am lb_types lb_scs lb_pcs lb_heap lb_shared lb_world lb_teams lb_spaces].
        unfold o_comms at 2. cbn [flat_map]. fold (o_comms (lb_comms l)). cbn [app]. perm.
  - (* strided *) unfold ixfer.
    destruct (create_owns c o (n, ost, ty, if ext then wrap64 (n * ost) else 0) l u s [] LO H) as (t1 & l1 & s1 & x1 & E1 & LO1 & H1 & X1).
    rewrite E1. cbn [bind fst snd].
    destruct (ost =? tst) eqn:ET.
    + apply Z.eqb_eq in ET. subst tst. cbn [bind fst snd].
      destruct (free_owns c t1 x1 s1 _ X1 H1) as (s2 & E2 & H2). rewrite E2. cbn [bind].
      exists l1, s2. split; [reflexivity|]. split; [|exact H2]. unfold shape_ext. rewrite add_shape_idem. exact LO1.
    + destruct (create_owns c o (n, tst, ty, if ext then wrap64 (n * tst) else 0) l1 _ s1 x1 LO1 H1) as (t2 & l2 & s2 & x2 & E2 & LO2 & H2 & X2).
      rewrite E2. cbn [bind fst snd]. cbn [u_teams u_spaces u_sets u_shapes] in LO2.
      destruct (free_owns c t1 x1 s2 _ X1 H2) as (s3 & E3 & H3). rewrite E3. cbn [bind].
      destruct (free_owns c t2 x2 s3 _ X2 H3) as (s4 & E4 & H4). rewrite E4. cbn [bind].
      exists l2, s4. auto.
  - (* one side *) unfold ihalf.
    destruct (create_owns c o (n, st, ty, 0) l u s [] LO H) as (t1 & l1 & s1 & x1 & E1 & LO1 & H1 & X1).
    rewrite E1. cbn [bind fst snd]. destruct (free_owns c t1 x1 s1 _ X1 H1) as (s2 & E2 & H2). rewrite E2. cbn [bind].
    exists l1, s2. auto.
  - unfold collect_r. acq1 H s1 a. acq1 Ha s2 b. rel1 Ha0 s3. rel1 Ha0 s4. exists l, s4. auto.
  - unfold am_flush_r. acq1 H s1 a. rel1 Ha s2. exists l, s2. auto.
  - (* space create *)
    destruct (space_make_owns c d n s _ H) as (p & s1 & E & H1 & O1). rewrite E.
    eexists _, s1. split; [reflexivity|]. split.
    + destruct LO. constructor; cbn; try assumption. apply Forall2_snoc; [assumption|exact O1].
    + eapply owns_perm; [|exact H1]. unfold owned, o_user, with_spaces, o_lib. cbn [lb_comms lb_ccs lb_am lb_types lb_scs lb_pcs lb_heap lb_shared lb_world lb_teams lb_spaces].
      rewrite flat_map_app. cbn [flat_map o_us]. rewrite app_nil_r. fold (o_lib c l). perm.
  - (* attach *)
    destruct (nth_error (u_spaces u) i) as [[q|]|] eqn:N; try discriminate L.
    destruct (us_at q) eqn:QA; [discriminate L|].
    destruct (Forall2_nth _ _ _ _ _ (lo_spaces _ _ _ _ LO) N) as ([p|] & N' & B); [|destruct B]. rewrite N'.
    destruct (rest_backed c _ _ _ _ (lo_spaces _ _ _ _ LO) N') as (rest & P1 & P2 & P3).
    assert (H1 : owns s (o_space c p ++ o_lib c l ++ flat_map o_ut (lb_teams l) ++ rest)).
    { eapply owns_perm; [|exact H]. unfold owned, o_user. rewrite P1. cbn [o_us]. perm. }
    assert (BK : backed (o_lib c l ++ flat_map o_ut (lb_teams l) ++ rest)).
    { apply backed_app; [apply o_lib_backed|]. apply backed_app; [apply backed_none, ut_no_att|exact P3]. }
    destruct (space_attach_owns c q p sym s _ B QA BK H1) as (p' & s1 & E & H2 & O2). rewrite E. cbn [bind fst snd].
    eexists _, s1. split; [reflexivity|]. split.
    + unfold uset_att. rewrite N. destruct LO. constructor; cbn; try assumption. apply Forall2_upd; [assumption|exact O2].
    + eapply owns_perm; [|exact H2]. unfold owned, o_user, with_spaces, o_lib. cbn [lb_comms lb_ccs lb_am lb_types lb_scs lb_pcs lb_heap lb_shared lb_world lb_teams lb_spaces].
      rewrite (P2 (Some p')). cbn [o_us]. fold (o_lib c l). perm.
  - (* detach *)
    destruct (nth_error (u_spaces u) i) as [[q|]|] eqn:N; try discriminate L.
    destruct (us_at q) eqn:QA; [|discriminate L].
    destruct (Forall2_nth _ _ _ _ _ (lo_spaces _ _ _ _ LO) N) as ([p|] & N' & B); [|destruct B]. rewrite N'.
    destruct (rest_backed c _ _ _ _ (lo_spaces _ _ _ _ LO) N') as (rest & P1 & P2 & P3).
    assert (H1 : owns s (o_space c p ++ o_lib c l ++ flat_map o_ut (lb_teams l) ++ rest)).
    { eapply owns_perm; [|exact H]. unfold owned, o_user. rewrite P1. cbn [o_us]. perm. }
    destruct (space_detach_owns c q p s _ B ltac:(congruence) H1) as (p' & s1 & E & H2 & O2). rewrite E. cbn [bind fst snd].
    eexists _, s1. split; [reflexivity|]. split.
    + unfold uset_att. rewrite N. destruct LO. constructor; cbn; try assumption. apply Forall2_upd; [assumption|exact O2].
    + eapply owns_perm; [|exact H2]. unfold owned, o_user, with_spaces, o_lib. cbn [lb_comms lb_ccs lb_am lb_types lb_scs lb_pcs lb_heap lb_shared lb_world lb_teams lb_spaces].
      rewrite (P2 (Some p')). cbn [o_us]. fold (o_lib c l). perm.
  - (* space destroy *)
    destruct (nth_error (u_spaces u) i) as [[q|]|] eqn:N; try discriminate L.
    destruct (us_at q) eqn:QA; [discriminate L|].
    destruct (Forall2_nth _ _ _ _ _ (lo_spaces _ _ _ _ LO) N) as ([p|] & N' & B); [|destruct B]. rewrite N'.
    destruct (rest_backed c _ _ _ _ (lo_spaces _ _ _ _ LO) N') as (rest & P1 & P2 & P3).
    assert (H1 : owns s (o_space c p ++ o_lib c l ++ flat_map o_ut (lb_teams l) ++ rest)).
    { eapply owns_perm; [|exact H]. unfold owned, o_user. rewrite P1. cbn [o_us]. perm. }
    assert (BK : backed (o_lib c l ++ flat_map o_ut (lb_teams l) ++ rest)).
    { apply backed_app; [apply o_lib_backed|]. apply backed_app; [apply backed_none, ut_no_att|exact P3]. }
    destruct (space_destroy_owns c q p s _ B QA BK H1) as (s1 & E & H2). rewrite E. cbn [bind].
    eexists _, s1. split; [reflexivity|]. split.
    + destruct LO. constructor; cbn; try assumption. apply Forall2_upd; [assumption|exact I].
    + eapply owns_perm; [|exact H2]. unfold owned, o_user, with_spaces, o_lib. cbn [lb_comms lb_ccs lb_am lb_types lb_scs lb_pcs lb_heap lb_shared lb_world lb_teams lb_spaces].
      rewrite (P2 None). cbn [o_us app]. fold (o_lib c l). perm.
Qed.
