From Coq Require Import Permutation.
From Verif Require Import Base ResModel ResSpec.

Lemma rkind_eqb_eq a b : rkind_eqb a b = true <-> a = b.
Proof. destruct a, b; simpl; split; intro H; try congruence; try discriminate; try (apply Bool.eqb_prop in H; subst; reflexivity); try (injection H as ->; apply Bool.eqb_reflx). Qed.
Lemma res_eqb_eq x y : res_eqb x y = true <-> x = y.
Proof.
  destruct x as [i a], y as [j b]. unfold res_eqb; cbn [fst snd]. rewrite andb_true_iff, Z.eqb_eq, rkind_eqb_eq.
  split; [intros [-> ->]; reflexivity | intros [= -> ->]; auto].
Qed.
Lemma held_In x s : held_b x s = true <-> In x (ld_live s).
Proof.
  unfold held_b. rewrite existsb_exists. split.
  - intros (y & Hy & E). apply res_eqb_eq in E. subst. exact Hy.
  - intros H. exists x. split; [exact H|]. apply res_eqb_eq. reflexivity.
Qed.
Lemma held_nIn x s : held_b x s = false <-> ~ In x (ld_live s).
Proof. rewrite <- held_In. destruct (held_b x s); split; intro; congruence. Qed.
Lemma take_out_perm x l : In x l -> Permutation l (x :: take_out x l).
Proof.
  induction l as [|y l IH]; simpl; [tauto|]. intros H.
  destruct (res_eqb x y) eqn:E.
  - apply res_eqb_eq in E. subst y. reflexivity.
  - destruct H as [->|H]; [rewrite (proj2 (res_eqb_eq x x) eq_refl) in E; discriminate|].
    rewrite (IH H) at 1. apply perm_swap.
Qed.

Definition prim (k : rkind) : bool := match k with REpoch | RAtt => false | _ => true end.
Definition pids (l : list res) : list Z := map fst (filter (fun x => prim (snd x)) l).
Lemma filter_perm {A} (f : A -> bool) l l' : Permutation l l' -> Permutation (filter f l) (filter f l').
Proof.
  induction 1; simpl; try reflexivity.
  - destruct (f x); [constructor|]; assumption.
  - destruct (f x), (f y); try reflexivity. apply perm_swap.
  - etransitivity; eassumption.
Qed.
Lemma pids_perm l l' : Permutation l l' -> Permutation (pids l) (pids l').
Proof. intros H. unfold pids. apply Permutation_map, filter_perm, H. Qed.
Lemma pids_app a b : pids (a ++ b) = pids a ++ pids b.
Proof. unfold pids. rewrite filter_app, map_app. reflexivity. Qed.
Lemma In_pids b k l : In (b, k) l -> prim k = true -> In b (pids l).
Proof. intros H P. unfold pids. apply in_map_iff. exists (b, k). split; [reflexivity|]. apply filter_In. auto. Qed.

(** [owns s R]: exactly R is held; numbers are unique. *)
Record owns (s : led) (R : list res) : Prop := mkOwns {
  ow_perm : Permutation (ld_live s) R;
  ow_nd : NoDup R;
  ow_pid : NoDup (pids R);
  ow_lt : forall x, In x R -> fst x < ld_next s;
  ow_ge : forall x, In x R -> prim (snd x) = true -> 1 <= fst x;
  ow_nx : 1 <= ld_next s
}.
Lemma owns_perm s R R' : Permutation R R' -> owns s R -> owns s R'.
Proof.
  intros P [H1 H2 H3 H4 H5 H6]. constructor; auto.
  - etransitivity; eassumption.
  - eapply Permutation_NoDup; eassumption.
  - eapply Permutation_NoDup; [apply pids_perm|]; eassumption.
  - intros x Hx. apply H4. eapply Permutation_in; [symmetry|]; eassumption.
  - intros x Hx. apply H5. eapply Permutation_in; [symmetry|]; eassumption.
Qed.
Lemma owns_held s R x : owns s R -> held_b x s = true <-> In x R.
Proof.
  intros H. rewrite held_In. split; intro I; (eapply Permutation_in; [|exact I]); [|symmetry]; apply (ow_perm _ _ H).
Qed.
Lemma owns_nheld s R x : owns s R -> ~ In x R -> held_b x s = false.
Proof. intros H N. destruct (held_b x s) eqn:E; [|reflexivity]. apply (owns_held s R x H) in E. contradiction. Qed.
Lemma owns_tail s x R : owns s (x :: R) -> owns (mkLed (take_out x (ld_live s)) (ld_next s)) R.
Proof.
  intros H. destruct H as [H1 H2 H3 H4 H5 H6]. constructor; cbn [ld_live ld_next]; auto.
  - assert (I : In x (ld_live s)) by (eapply Permutation_in; [symmetry; exact H1 | left; reflexivity]).
    apply (Permutation_cons_inv (a := x)). rewrite <- (take_out_perm x _ I). exact H1.
  - inversion H2; assumption.
  - unfold pids in *. simpl in H3. destruct (prim (snd x)); [inversion H3|]; assumption.
  - intros y Hy. apply H4. right; exact Hy.
  - intros y Hy. apply H5. right; exact Hy.
Qed.
Lemma acq_owns k s R : owns s R -> prim k = true -> owns (snd (acq k s)) ((fst (acq k s), k) :: R) /\ fst (acq k s) = ld_next s.
Proof.
  intros H P. split; [|reflexivity]. destruct H as [H1 H2 H3 H4 H5 H6]. unfold acq; cbn [fst snd].
  constructor; cbn [ld_live ld_next].
  - constructor. exact H1.
  - constructor; [|exact H2]. intros I. apply H4 in I. cbn in I. lia.
  - unfold pids. simpl. rewrite P. simpl. constructor; [|exact H3].
    intros I. apply in_map_iff in I as ([i k'] & E & I). apply filter_In in I as [I _]. apply H4 in I. cbn in *. lia.
  - intros x [<-|I]; [cbn; lia|]. apply H4 in I. lia.
  - intros x [<-|I] Q; [cbn; lia|]. apply H5; assumption.
  - lia.
Qed.
Lemma rel_owns k i s R : owns s ((i, k) :: R) -> exists s', rel k i s = Ok s' /\ owns s' R.
Proof.
  intros H. unfold rel. rewrite (proj2 (owns_held _ _ (i, k) H) (or_introl eq_refl)).
  eexists. split; [reflexivity|]. apply owns_tail, H.
Qed.
Lemma mem_free_owns k i s R : owns s ((i, k) :: R) -> prim k = true -> ~ In (i, RAtt) R -> exists s', mem_free k i s = Ok s' /\ owns s' R.
Proof.
  intros H P N. unfold mem_free. rewrite (owns_nheld _ _ (i, RAtt) H).
  - apply rel_owns, H.
  - intros [E|I]; [injection E as E; subst k; discriminate P|contradiction].
Qed.
Lemma lock_all_owns w s R : owns s ((w, RWin) :: R) -> ~ In (w, REpoch) R ->
  exists s', lock_all w s = Ok s' /\ owns s' ((w, REpoch) :: (w, RWin) :: R).
Proof.
  intros H N. unfold lock_all. rewrite (proj2 (owns_held _ _ (w, RWin) H) (or_introl eq_refl)).
  assert (N' : ~ In (w, REpoch) ((w, RWin) :: R)) by (intros [E|I]; [discriminate E|contradiction]).
  rewrite (owns_nheld _ _ (w, REpoch) H N'). cbn [negb andb].
  eexists. split; [reflexivity|]. destruct H as [H1 H2 H3 H4 H5 H6]. constructor; cbn [ld_live ld_next]; auto.
  - constructor; assumption.
  - intros x [<-|I]; [|auto]. cbn. exact (H4 (w, RWin) (or_introl eq_refl)).
  - intros x [<-|I] Q; [discriminate Q|auto].
Qed.
Lemma attach_owns b s R : owns s R -> ~ In (b, RAtt) R -> b < ld_next s ->
  exists s', win_attach b s = Ok s' /\ owns s' ((b, RAtt) :: R).
Proof.
  intros H N L. unfold win_attach. rewrite (owns_nheld _ _ (b, RAtt) H N). eexists. split; [reflexivity|].
  destruct H as [H1 H2 H3 H4 H5 H6]. constructor; cbn [ld_live ld_next]; auto.
  - constructor; assumption.
  - intros x [<-|I]; [exact L|auto].
  - intros x [<-|I] Q; [discriminate Q|auto].
Qed.

Definition o_win (w : Z) : list res := [(w, REpoch); (w, RWin)].
Lemma ictx_create_owns s R : owns s R -> exists w s', ictx_create s = Ok (w, s') /\ owns s' (o_win w ++ R) /\ w = ld_next s.
Proof.
  intros H. unfold ictx_create. destruct (acq_owns RWin s R H eq_refl) as [Ha Hi].
  destruct (acq RWin s) as [w s1]; cbn [fst snd] in *. 
  destruct (lock_all_owns w s1 R Ha) as (s2 & E & H2).
  { intros I. apply (ow_lt _ _ H) in I. cbn in I. lia. }
  rewrite E. cbn [bind]. exists w, s2. auto.
Qed.
Lemma win_free_owns w s R : owns s ((w, RWin) :: R) -> ~ In (w, REpoch) R -> exists s', win_free w s = Ok s' /\ owns s' R.
Proof.
  intros H N. unfold win_free. rewrite (owns_nheld _ _ (w, REpoch) H).
  - apply rel_owns, H.
  - intros [E|I]; [discriminate E|contradiction].
Qed.
Lemma ictx_destroy_owns w s R : owns s (o_win w ++ R) -> exists s', ictx_destroy w s = Ok s' /\ owns s' R.
Proof.
  intros H. unfold ictx_destroy, unlock_all. cbn [o_win app] in H.
  destruct (rel_owns REpoch w s _ H) as (s1 & E & H1). rewrite E. cbn [bind].
  apply win_free_owns; [exact H1|].
  pose proof (ow_nd _ _ H) as N. inversion N as [|? ? N1 N2]; subst. intros I. apply N1. right. exact I.
Qed.

Definition o_opt (k : rkind) (o : option Z) : list res := match o with Some i => [(i, k)] | None => [] end.
Lemma cs_init_owns c s R : owns s R -> owns (snd (cs_init c s)) (o_opt RCs (fst (cs_init c s)) ++ R)
  /\ (match fst (cs_init c s) with Some _ => true | None => false end = rc_mult c).
Proof.
  intros H. unfold cs_init. destruct (rc_mult c); [|split; [exact H|reflexivity]].
  destruct (acq_owns RCs s R H eq_refl) as [Ha Hi]. destruct (acq RCs s). cbn in *. auto.
Qed.
Lemma cs_destroy_owns o s R : owns s (o_opt RCs o ++ R) -> exists s', cs_destroy o s = Ok s' /\ owns s' R.
Proof. destruct o as [i|]; cbn; intros H; [apply rel_owns, H | exists s; auto]. Qed.

Definition o_team (t : rteam) : list res := [(rt_grp t, RGroup); (rt_comm t, RComm); (rt_mem t, RMem)].
Ltac acq1 H s1 i :=
  match type of H with owns ?s ?R =>
    match goal with |- context [acq ?k s] =>
      let Ha := fresh "Ha" in let Hi := fresh "Hi" in
      destruct (acq_owns k s R H eq_refl) as [Ha Hi]; destruct (acq k s) as [i s1] eqn:?; cbn [fst snd] in Ha, Hi
    end
  end.
Lemma team_make_owns s R : owns s R -> exists t s', team_make s = (t, s') /\ owns s' (o_team t ++ R).
Proof.
  intros H. unfold team_make. acq1 H s1 c1. acq1 Ha s2 g1. acq1 Ha0 s3 m1.
  exists (mkRT m1 c1 g1), s3. split; [reflexivity|]. cbn.
  eapply owns_perm; [|exact Ha1].
  rewrite perm_swap. constructor. apply perm_swap.
Qed.
Ltac rel1 H s1 :=
  match type of H with owns ?s ((?i, ?k) :: ?R) =>
      let E := fresh "E" in let H1 := fresh "H" in
      destruct (rel_owns k i s R H) as (s1 & E & H1); rewrite E; cbn [bind]; clear E; clear H; rename H1 into H
  end.
Lemma team_destroy_owns t s R : owns s (o_team t ++ R) -> exists s', team_destroy_r t s = Ok s' /\ owns s' R.
Proof. intros H. unfold team_destroy_r. cbn [o_team app] in H. rel1 H s1. rel1 H s2. rel1 H s3. eauto. Qed.

(** Attribute of a symmetric object: offsets are held in dynamic builds when the symm bit is off. *)
Definition o_attr (a : bool * option Z) : list res := o_opt RMem (snd a).
Definition attr_ok (c : rcfg) (sym : bool) (a : bool * option Z) : Prop :=
  if rc_dyn c then fst a = sym /\ (snd a = None <-> sym = true) else a = (false, None).
Lemma symm_info_owns c sym s R : owns s R ->
  exists a s', symm_info c sym s = Ok (a, s') /\ owns s' (o_attr a ++ R) /\ attr_ok c sym a.
Proof.
  intros H. unfold symm_info, attr_ok, o_attr. destruct (rc_dyn c).
  - unfold check_symm. acq1 H s1 i. destruct sym.
    + rel1 Ha s2. exists (true, None), s2. cbn. split; [reflexivity|]. split; [assumption|]. split; [reflexivity|]. split; reflexivity.
    + cbn [bind fst snd]. exists (false, Some i), s1. cbn. split; [reflexivity|]. split; [assumption|]. split; [reflexivity|]. split; discriminate.
  - exists (false, None), s. cbn. auto.
Qed.
Lemma destroy_attr_owns c sym a s R : attr_ok c sym a -> owns s (o_attr a ++ R) -> exists s', destroy_attr c a s = Ok s' /\ owns s' R.
Proof.
  unfold attr_ok, destroy_attr, o_attr. destruct (rc_dyn c).
  - intros [E1 E2] H. destruct a as [b o]; cbn [fst snd] in *. subst b. destruct sym.
    + rewrite (proj2 E2 eq_refl) in H. cbn in H. eauto.
    + destruct o as [i|]; [|destruct E2 as [E2 _]; discriminate (E2 eq_refl)]. cbn [o_opt app] in H. rel1 H s1. eauto.
  - intros -> H. cbn in H. eauto.
Qed.

(** Permutations of concatenations. *)
Lemma front_ {A} (X P L R : list A) : Permutation L (X ++ R) -> Permutation (P ++ L) (X ++ P ++ R).
Proof. intros H. rewrite H. apply Permutation_app_swap_app. Qed.
Lemma pstep_ {A} (L X Y T : list A) : Permutation L (X ++ Y) -> Permutation Y T -> Permutation L (X ++ T).
Proof. intros -> ->. reflexivity. Qed.
Lemma pnil_ {A} (L T : list A) : Permutation (L ++ []) (T ++ []) -> Permutation L T.
Proof. rewrite !app_nil_r. exact (fun x => x). Qed.
Ltac front_search := first [ apply Permutation_refl | apply front_; front_search ].
Ltac papp :=
  repeat match goal with
  | |- context [?x :: ?l] => lazymatch l with nil => fail | _ => change (x :: l) with ([x] ++ l) end
  end;
  rewrite <- ?app_assoc.
Ltac perm :=
  apply pnil_; papp;
  repeat first [ apply Permutation_refl | eapply pstep_; [front_search|] ].

Ltac sig1 H s1 :=
  match type of H with owns ?s ?R =>
    match goal with |- context [symm_info ?c ?sym s] =>
      let a := fresh "a" in let E := fresh "E" in let Ha := fresh "Ha" in let Ho := fresh "Ho" in
      destruct (symm_info_owns c sym s R H) as (a & s1 & E & Ha & Ho); rewrite E; cbn [bind fst snd]; clear E
    end
  end.

(** Heap and data segment. *)
Definition heap_ok (c : rcfg) (o : rora) (h : rheap) : Prop :=
  attr_ok c (ro_ds o) (rh_data h) /\ attr_ok c (ro_hs o) (rh_heap h)
  /\ (match rh_cs h with Some _ => true | None => false end = rc_mult c)
  /\ if rc_dyn c then (exists w, rh_wins h = [w]) /\ (exists b, rh_base h = Some (b, ro_ag o))
     else (exists a b, rh_wins h = [a; b]) /\ rh_base h = None.
Definition o_heap (c : rcfg) (h : rheap) : list res :=
  match rh_wins h, rh_base h with
  | [w], Some (b, ag) =>
      (w, REpoch) :: (b, RAtt) :: (data_id, RAtt) :: (w, RWin) :: (b, if ag then RMap else RMem) ::
      o_attr (rh_data h) ++ o_attr (rh_heap h) ++ o_opt RCs (rh_cs h)
  | [wh; wd], _ => o_win wh ++ o_opt RCs (rh_cs h) ++ o_win wd
  | _, _ => []
  end.
Lemma lt_next s R x : owns s R -> In x R -> fst x < ld_next s.
Proof. intros H. apply (ow_lt _ _ H). Qed.
Lemma heap_init_owns c o s R : owns s R -> (forall b, ~ In (b, RAtt) R) ->
  exists h s', heap_init c o s = Ok (h, s') /\ owns s' (o_heap c h ++ R) /\ heap_ok c o h.
Proof.
  intros H NA. unfold heap_init. destruct (rc_dyn c) eqn:D.
  - acq1 H s1 i. acq1 Ha s2 w.
    destruct (lock_all_owns w s2 _ Ha0) as (s3 & E & H3).
    { intros [Q|I]; [discriminate Q|]. apply (ow_lt _ _ H) in I. cbn in I. destruct s; cbn in *. injection Heqp as <- <-. cbn in Hi0. lia. }
    rewrite E; cbn [bind]; clear E.
    assert (H4 : owns s3 ((i, RInfo) :: (w, REpoch) :: (w, RWin) :: R)) by (eapply owns_perm; [|exact H3]; perm).
    rel1 H4 s4. sig1 H4 s5.
    destruct (attach_owns data_id s5 _ Ha1) as (s6 & E & H6).
    { rewrite in_app_iff. intros [I|[I|[I|I]]]; try discriminate I; [|exact (NA _ I)].
      unfold o_attr, o_opt in I. destruct (snd a); [destruct I as [I|[]]; discriminate I|destruct I]. }
    { pose proof (ow_nx _ _ Ha1). unfold data_id. lia. }
    rewrite E; cbn [bind]; clear E.
    assert (Pk : prim (if ro_ag o then RMap else RMem) = true) by (destruct (ro_ag o); reflexivity).
    destruct (acq_owns (if ro_ag o then RMap else RMem) s6 _ H6 Pk) as [H7 Hb].
    destruct (acq (if ro_ag o then RMap else RMem) s6) as [b s7] eqn:Eb; cbn [fst snd] in H7, Hb.
    sig1 H7 s8.
    destruct (cs_init_owns c s8 _ Ha2) as [H9 Hc]. destruct (cs_init c s8) as [cs s9]; cbn [fst snd] in H9, Hc.
    destruct (attach_owns b s9 _ H9) as (s10 & E & H10).
    { rewrite !in_app_iff. intros [I|[I|[I|[I|I]]]].
      - destruct cs; [destruct I as [I|[]]; discriminate I|destruct I].
      - unfold o_attr, o_opt in I. destruct (snd a0); [destruct I as [I|[]]; discriminate I|destruct I].
      - injection I as Q; destruct (ro_ag o); discriminate Q.
      - injection I as Q. pose proof (ow_ge _ _ H7 (b, if ro_ag o then RMap else RMem) (or_introl eq_refl) Pk) as Q1. cbn in Q1. unfold data_id in Q. lia.
      - rewrite in_app_iff in I. destruct I as [I|[I|[I|I]]]; try discriminate I; [|exact (NA _ I)].
        unfold o_attr, o_opt in I. destruct (snd a); [destruct I as [I|[]]; discriminate I|destruct I]. }
    { apply (lt_next _ _ (b, if ro_ag o then RMap else RMem) H9). rewrite !in_app_iff. right; right. left. reflexivity. }
    rewrite E; cbn [bind]; clear E.
    eexists _, s10. split; [reflexivity|]. split.
    + cbn [o_heap rh_wins rh_base rh_data rh_heap rh_cs]. eapply owns_perm; [|exact H10]. perm.
    + unfold heap_ok. cbn [rh_wins rh_base rh_data rh_heap rh_cs]. rewrite D. repeat split; auto; eexists; reflexivity.
  - sig1 H s1. acq1 Ha s2 i. acq1 Ha0 s3 wd.
    destruct (lock_all_owns wd s3 _ Ha1) as (s4 & E & H4).
    { intros I. apply (ow_lt _ _ Ha0) in I. cbn in I. lia. }
    rewrite E; cbn [bind]; clear E.
    assert (H5 : owns s4 ((i, RInfo) :: o_win wd ++ o_attr a ++ R)) by (eapply owns_perm; [|exact H4]; unfold o_win; perm).
    rel1 H5 s5. acq1 H5 s6 i2. acq1 Ha2 s7 wh. sig1 Ha3 s8.
    destruct (cs_init_owns c s8 _ Ha4) as [H9 Hc]. destruct (cs_init c s8) as [cs s9]; cbn [fst snd] in H9, Hc.
    assert (H10 : owns s9 ((wh, RWin) :: o_opt RCs cs ++ o_attr a0 ++ (i2, RInfo) :: o_win wd ++ o_attr a ++ R)) by (eapply owns_perm; [|exact H9]; perm).
    destruct (lock_all_owns wh s9 _ H10) as (s10 & E & H11).
    { rewrite !in_app_iff. intros [I|[I|[I|I]]].
      - destruct cs; [destruct I as [I|[]]; discriminate I|destruct I].
      - unfold o_attr, o_opt in I. destruct (snd a0); [destruct I as [I|[]]; discriminate I|destruct I].
      - discriminate I.
      - assert (Q : In (wh, REpoch) ((i2, RInfo) :: o_win wd ++ o_attr a ++ R)) by (right; exact I).
        apply (ow_lt _ _ Ha2) in Q. cbn in Q. lia. }
    rewrite E; cbn [bind]; clear E.
    assert (H12 : owns s10 ((i2, RInfo) :: o_win wh ++ o_opt RCs cs ++ o_win wd ++ o_attr a ++ o_attr a0 ++ R)).
    { eapply owns_perm; [|exact H11]. change (o_win wh) with ([(wh, REpoch)] ++ [(wh, RWin)]). perm. }
    rel1 H12 s11. eexists _, s11. split; [reflexivity|].
    assert (Z1 : o_attr a = []) by (unfold attr_ok in Ho; rewrite D in Ho; rewrite Ho; reflexivity).
    assert (Z2 : o_attr a0 = []) by (unfold attr_ok in Ho0; rewrite D in Ho0; rewrite Ho0; reflexivity).
    rewrite Z1, Z2 in H12. cbn [app] in H12. split.
    + cbn [o_heap rh_wins rh_base rh_data rh_heap rh_cs]. rewrite <- ?app_assoc. exact H12.
    + unfold heap_ok. cbn [rh_wins rh_base rh_data rh_heap rh_cs]. rewrite D. repeat split; auto. eexists _, _; reflexivity.
Qed.

Definition no_att (l : list res) : list res := filter (fun x : res => negb (rkind_eqb (snd x) RAtt)) l.
Lemma no_att_In b l : ~ In (b, RAtt) (no_att l).
Proof. unfold no_att. intros I. apply filter_In in I as [_ I]. discriminate I. Qed.
Lemma owns_filter s R f : owns s R -> owns (mkLed (filter f (ld_live s)) (ld_next s)) (filter f R).
Proof.
  intros [H1 H2 H3 H4 H5 H6]. constructor; cbn [ld_live ld_next]; auto.
  - apply filter_perm, H1.
  - apply NoDup_filter, H2.
  - clear - H3. revert H3. induction R as [|x R IH]; simpl; [auto|]. unfold pids in *. simpl.
    destruct (prim (snd x)) eqn:P; cbn [map]; intros N.
    + inversion N as [|? ? N1 N2]; subst. destruct (f x); simpl; [rewrite P; simpl; constructor; [|auto]|auto].
      intros I. apply N1. apply in_map_iff in I as (y & E & I). apply in_map_iff. exists y. split; [exact E|].
      apply filter_In in I as [I P']. apply filter_In in I as [I _]. apply filter_In. auto.
    + destruct (f x); simpl; [rewrite P|]; auto.
  - intros x I. apply filter_In in I as [I _]. auto.
  - intros x I. apply filter_In in I as [I _]. auto.
Qed.
(** The heap was released the way it was obtained: not (from malloc, yet at one address on all PEs). *)
Definition heap_match (c : rcfg) (o : rora) : Prop := rc_dyn c = true -> ro_hs o = ro_ag o.
Definition heap_left (c : rcfg) (h : rheap) : list res := if rc_dyn c then o_opt RCs (rh_cs h) else [].
Lemma no_att_app a b : no_att (a ++ b) = no_att a ++ no_att b.
Proof. apply filter_app. Qed.
Lemma no_att_opt k o : k <> RAtt -> no_att (o_opt k o) = o_opt k o.
Proof. intros N. destruct o; [|reflexivity]. unfold no_att. simpl. destruct (rkind_eqb k RAtt) eqn:E; [apply rkind_eqb_eq in E; contradiction|reflexivity]. Qed.
Lemma heap_fini_owns c o h s R : heap_ok c o h -> heap_match c o -> owns s (o_heap c h ++ R) ->
  exists s', heap_fini c h s = Ok s' /\ owns s' (heap_left c h ++ if rc_dyn c then no_att R else R).
Proof.
  intros (A1 & A2 & A3 & A4) M H. unfold heap_fini, heap_left. destruct (rc_dyn c) eqn:D.
  - destruct A4 as [[w Ew] [b Eb]]. unfold o_heap in H. rewrite Ew, Eb in *. 
    rewrite <- !app_comm_cons in H.
    unfold unlock_all, win_detach.
    pose proof (ow_nd _ _ H) as ND.
    rel1 H s1. rel1 H s2. rel1 H s3.
    unfold dyn_win_free.
    match type of H with owns _ (_ :: ?X) => set (T := X) in * end.
    assert (NE : ~ In (w, REpoch) T).
    { inversion ND as [|? ? N1 N2]; subst. intros I. apply N1. right; right; right; exact I. }
    destruct (win_free_owns w s3 T H NE) as (s4 & E & H4). rewrite E. cbn [bind]. clear E.
    apply (owns_filter s4 T (fun x : res => negb (rkind_eqb (snd x) RAtt))) in H4.
    assert (ET : T = [(b, if ro_ag o then RMap else RMem)] ++ (o_attr (rh_data h) ++ o_attr (rh_heap h) ++ o_opt RCs (rh_cs h)) ++ R) by reflexivity.
    change (filter (fun x : res => negb (rkind_eqb (snd x) RAtt)) T) with (no_att T) in H4. rewrite ET in H4. clear ET NE H ND T.
    assert (Q : no_att [(b, if ro_ag o then RMap else RMem)] = [(b, if ro_ag o then RMap else RMem)]) by (destruct (ro_ag o); reflexivity).
    rewrite !no_att_app, Q in H4. unfold o_attr in H4. rewrite !no_att_opt in H4 by discriminate. cbn [app] in H4.
    assert (K : fst (rh_heap h) = ro_ag o).
    { unfold attr_ok in A2. rewrite D in A2. destruct A2 as [A2 _]. rewrite A2. apply M. exact D. }
    rewrite K.
    match type of H4 with owns ?s _ => destruct (mem_free_owns (if ro_ag o then RMap else RMem) b s _ H4) as (s5 & E & H5) end.
    { destruct (ro_ag o); reflexivity. }
    { rewrite !in_app_iff. intros [[I|[I|I]]|I]; [| | |exact (no_att_In _ _ I)];
        unfold o_opt in I; match type of I with In _ (match ?o with _ => _ end) => destruct o; [destruct I as [I|[]]; discriminate I|destruct I] end. }
    rewrite E. cbn [bind]. clear E. rewrite <- !app_assoc in H5.
    destruct (destroy_attr_owns c _ _ _ _ A1 H5) as (s6 & E & H6). rewrite E. cbn [bind]. clear E.
    exact (destroy_attr_owns c _ _ _ _ A2 H6).
  - destruct A4 as [[wh [wd Ew]] Eb]. unfold o_heap in H. rewrite Ew in *.
    rewrite <- !app_assoc in H.
    destruct (ictx_destroy_owns wh s _ H) as (s1 & E & H1). rewrite E. cbn [bind]. clear E.
    destruct (cs_destroy_owns (rh_cs h) s1 _ H1) as (s2 & E & H2). rewrite E. cbn [bind]. clear E.
    destruct (ictx_destroy_owns wd s2 _ H2) as (s3 & E & H3). rewrite E. cbn [bind]. clear E.
    unfold attr_ok in A1, A2. rewrite D in A1, A2. unfold destroy_attr. rewrite D. cbn [bind]. exists s3. auto.
Qed.

(** Active messages. *)
Definition o_am (a : option ram) : list res :=
  match a with
  | None => []
  | Some a => o_opt RCs (ra_cs a) ++ [(fst (ra_comms a), RComm); (snd (ra_comms a), RComm);
      (fst (fst (ra_mems a)), RMem); (snd (fst (ra_mems a)), RMem); (snd (ra_mems a), RMem)]
  end.
Definition am_ok (c : rcfg) (a : option ram) : Prop :=
  match a with None => rc_am c = false | Some a => rc_am c = true /\ (match ra_cs a with Some _ => true | None => false end = rc_mult c) end.
Lemma am_init_owns c s R : owns s R -> exists a s', am_init_r c s = (a, s') /\ owns s' (o_am a ++ R) /\ am_ok c a.
Proof.
  intros H. unfold am_init_r, am_ok. destruct (rc_am c).
  - acq1 H s1 c1. acq1 Ha s2 c2. acq1 Ha0 s3 m1. acq1 Ha1 s4 m2. acq1 Ha2 s5 m3.
    destruct (cs_init_owns c s5 _ Ha3) as [H6 Hc]. destruct (cs_init c s5) as [cs s6]; cbn [fst snd] in H6, Hc.
    eexists _, s6. split; [reflexivity|]. cbn [o_am ra_cs ra_comms ra_mems fst snd]. split; [|auto].
    eapply owns_perm; [|exact H6]. perm.
  - exists None, s. auto.
Qed.
Lemma am_fini_owns a s R : owns s (o_am a ++ R) -> exists s', am_fini_r a s = Ok s' /\ owns s' R.
Proof.
  destruct a as [a|]; cbn [o_am am_fini_r]; [|eauto]. intros H. rewrite <- app_assoc in H. cbn [app] in H.
  destruct (cs_destroy_owns (ra_cs a) s _ H) as (s1 & E & H1). rewrite E. cbn [bind].
  rel1 H1 s2. rel1 H1 s3. rel1 H1 s4. rel1 H1 s5. rel1 H1 s6. eauto.
Qed.

(** Caches. *)
Definition o_comms (l : list (akey * (Z * Z * Z))) : list res :=
  flat_map (fun e => let '(_, (m, c, g)) := e in [(g, RGroup); (c, RComm); (m, RMem)]) l.
Definition o_types (l : list (tkey * (Z * Z))) : list res :=
  flat_map (fun e => let '(_, (m, t)) := e in [(t, RType); (m, RMem)]) l.
Lemma coll_fini_owns l : forall s R, owns s (o_comms l ++ R) -> exists s', coll_fini_r l s = Ok s' /\ owns s' R.
Proof.
  induction l as [|[k [[m c] g]] l IH]; intros s R H; cbn [o_comms flat_map coll_fini_r] in *; [eauto|].
  rewrite <- app_assoc in H. cbn [app] in H. rel1 H s1. rel1 H s2. rel1 H s3. apply IH, H.
Qed.
Lemma strided_fini_owns l : forall s R, owns s (o_types l ++ R) -> exists s', strided_fini_r l s = Ok s' /\ owns s' R.
Proof.
  induction l as [|[k [m t]] l IH]; intros s R H; cbn [o_types flat_map strided_fini_r] in *; [eauto|].
  rewrite <- app_assoc in H. cbn [app] in H. rel1 H s1. rel1 H s2. apply IH, H.
Qed.

(** Spaces. *)
Definition o_wins (l : list Z) : list res := flat_map o_win l.
Lemma ictx_create_n_owns n : forall s R, owns s R ->
  exists l s', ictx_create_n n s = Ok (l, s') /\ owns s' (o_wins l ++ R) /\ length l = n.
Proof.
  induction n as [|n IH]; intros s R H; cbn [ictx_create_n].
  - exists [], s. auto.
  - destruct (ictx_create_owns s R H) as (w & s1 & E & H1 & _). rewrite E. cbn [bind fst snd].
    destruct (IH s1 _ H1) as (l & s2 & E2 & H2 & L). rewrite E2. cbn [bind fst snd].
    exists (w :: l), s2. split; [reflexivity|]. split; [|cbn; lia].
    eapply owns_perm; [|exact H2]. cbn [o_wins flat_map]. fold (o_wins l). perm.
Qed.
Lemma ictx_destroy_l_owns l : forall s R, owns s (o_wins l ++ R) -> exists s', ictx_destroy_l l s = Ok s' /\ owns s' R.
Proof.
  induction l as [|w l IH]; intros s R H; cbn [o_wins flat_map ictx_destroy_l] in *; [eauto|].
  rewrite <- app_assoc in H. destruct (ictx_destroy_owns w s _ H) as (s1 & E & H1). rewrite E. cbn [bind]. apply IH, H1.
Qed.
Definition o_att (c : rcfg) (b : Z) (a : ratt) : list res :=
  (if rc_dyn c then [(b, RAtt)] else match at_win a with Some w => o_win w | None => [] end)
  ++ o_wins (at_wins a) ++ o_opt RMem (at_arr a) ++ o_attr (at_attr a).
Definition att_ok (c : rcfg) (n : nat) (sym : bool) (a : ratt) : Prop :=
  (rc_dyn c = false -> at_win a <> None) /\ length (at_wins a) = n
  /\ (match at_arr a with Some _ => true | None => false end = (0 <? Z.of_nat n))
  /\ attr_ok c sym (at_attr a).
Definition o_space (c : rcfg) (p : rspace) : list res :=
  match rs_att p with Some a => o_att c (rs_base p) a | None => [] end
  ++ (rs_chunks p, RMem) :: o_opt RCs (rs_cs p) ++ [(rs_base p, rs_kind p); (rs_obj p, RMem)].
Definition space_ok (c : rcfg) (u : uspace) (p : rspace) : Prop :=
  rs_kind p = match us_dev u with None => RMem | Some z => RDev z end
  /\ (match rs_cs p with Some _ => true | None => false end = rc_mult c)
  /\ rs_nctx p = us_n u
  /\ match us_at u, rs_att p with None, None => True | Some sym, Some a => att_ok c (us_n u) sym a | _, _ => False end.
Lemma space_make_owns c d n s R : owns s R ->
  exists p s', space_make c d n s = (p, s') /\ owns s' (o_space c p ++ R) /\ space_ok c (mkUS d n None) p.
Proof.
  intros H. unfold space_make. acq1 H s1 o.
  assert (Pk : prim (match d with None => RMem | Some z => RDev z end) = true) by (destruct d; reflexivity).
  match goal with |- context [acq ?k s1] => set (kk := k) in *; destruct (acq_owns kk s1 _ Ha Pk) as [H2 Hb]; destruct (acq kk s1) as [b s2]; cbn [fst snd] in H2, Hb end.
  acq1 H2 s3 ch. destruct (cs_init_owns c s3 _ Ha0) as [H6 Hc]. destruct (cs_init c s3) as [cs s6]; cbn [fst snd] in H6, Hc.
  eexists _, s6. split; [reflexivity|]. unfold o_space, space_ok. cbn [rs_att rs_base rs_kind rs_chunks rs_cs rs_obj rs_nctx us_dev us_n us_at].
  split; [|auto]. eapply owns_perm; [|exact H6]. cbn [app]. perm.
Qed.

(** Attachments are backed by memory. *)
Definition backed (l : list res) : Prop :=
  forall b, In (b, RAtt) l -> b = data_id \/ exists k, prim k = true /\ In (b, k) l.
Lemma backed_app a b : backed a -> backed b -> backed (a ++ b).
Proof.
  intros A B x I. apply in_app_iff in I as [I|I]; [destruct (A x I) as [E|(k & P & J)]|destruct (B x I) as [E|(k & P & J)]]; auto;
  right; exists k; split; auto; apply in_app_iff; auto.
Qed.
Lemma backed_none l : (forall b, ~ In (b, RAtt) l) -> backed l.
Proof. intros N b I. destruct (N b I). Qed.
Lemma backed_flat {A} (f : A -> list res) l : (forall x, In x l -> backed (f x)) -> backed (flat_map f l).
Proof.
  induction l as [|x l IH]; intros H; cbn; [intros b []|]. apply backed_app; [apply H; left; reflexivity|].
  apply IH. intros y Hy. apply H. right; exact Hy.
Qed.
Lemma backed_fresh s b k R : owns s ((b, k) :: R) -> prim k = true -> backed R -> ~ In (b, RAtt) R.
Proof.
  intros H P B I. pose proof (ow_ge _ _ H (b, k) (or_introl eq_refl) P) as G. cbn in G.
  destruct (B b I) as [E|(k' & P' & J)]; [unfold data_id in E; lia|].
  pose proof (ow_pid _ _ H) as N. unfold pids in N. simpl in N. rewrite P in N. simpl in N.
  inversion N as [|? ? N1 N2]; subst. apply N1. exact (In_pids b k' R J P').
Qed.
Lemma opt_no_att k o b : k <> RAtt -> ~ In (b, RAtt) (o_opt k o).
Proof. intros N I. destruct o; [destruct I as [I|[]]; injection I as _ E; contradiction|destruct I]. Qed.
Lemma attr_no_att a b : ~ In (b, RAtt) (o_attr a).
Proof. apply opt_no_att. discriminate. Qed.
Lemma win_no_att w b : ~ In (b, RAtt) (o_win w).
Proof. intros [I|[I|[]]]; discriminate I. Qed.
Lemma wins_no_att l b : ~ In (b, RAtt) (o_wins l).
Proof. intros I. unfold o_wins in I. apply in_flat_map in I as (w & _ & I). exact (win_no_att _ _ I). Qed.
Lemma o_space_backed c u p : space_ok c u p -> backed (o_space c p).
Proof.
  intros (K & _ & _ & _) b I. unfold o_space in *. apply in_app_iff in I as [I|I].
  - destruct (rs_att p) as [a|]; [|destruct I]. unfold o_att in I. apply in_app_iff in I as [I|I].
    + destruct (rc_dyn c).
      * destruct I as [I|[]]. injection I as <-. right. exists (rs_kind p). split; [rewrite K; destruct (us_dev u); reflexivity|].
        apply in_app_iff. right. right. apply in_app_iff. right. left. reflexivity.
      * destruct (at_win a); [destruct (win_no_att _ _ I)|destruct I].
    + apply in_app_iff in I as [I|I]; [destruct (wins_no_att _ _ I)|].
      apply in_app_iff in I as [I|I]; [destruct (opt_no_att RMem _ b ltac:(discriminate) I)|destruct (attr_no_att _ _ I)].
  - destruct I as [I|I]; [discriminate I|]. apply in_app_iff in I as [I|I]; [destruct (opt_no_att RCs _ b ltac:(discriminate) I)|].
    destruct I as [I|[I|[]]]; [|discriminate I]. injection I as _ E. rewrite K in E. destruct (us_dev u); discriminate E.
Qed.
Lemma space_attach_owns c u p sym s R : space_ok c u p -> us_at u = None -> backed R -> owns s (o_space c p ++ R) ->
  exists p' s', space_attach_r c sym p s = Ok (p', s') /\ owns s' (o_space c p' ++ R) /\ space_ok c (mkUS (us_dev u) (us_n u) (Some sym)) p'.
Proof.
  intros (K & C & Nn & A) U B H. unfold space_attach_r. rewrite U in A. destruct (rs_att p) as [a|] eqn:EA; [destruct A|].
  set (O := o_space c p) in *.
  acq1 H s1 i. sig1 Ha s2.
  assert (Pb : prim (rs_kind p) = true) by (rewrite K; destruct (us_dev u); reflexivity).
  assert (Q : exists w s3, (if rc_dyn c then do s <- win_attach (rs_base p) s2; Ok (None, s) else do r <- ictx_create s2; Ok (Some (fst r), snd r)) = Ok (w, s3)
      /\ owns s3 ((if rc_dyn c then [(rs_base p, RAtt)] else match w with Some w => o_win w | None => [] end) ++ o_attr a ++ (i, RInfo) :: O ++ R)
      /\ (rc_dyn c = false -> w <> None)).
  { destruct (rc_dyn c) eqn:D.
    - destruct (attach_owns (rs_base p) s2 _ Ha0) as (s3 & E & H3).
      { assert (P : Permutation (o_attr a ++ (i, RInfo) :: O ++ R)
           ((rs_base p, rs_kind p) :: o_attr a ++ (i, RInfo) :: ((rs_chunks p, RMem) :: o_opt RCs (rs_cs p)) ++ (rs_obj p, RMem) :: R)).
        { unfold O, o_space. rewrite EA. cbn [app]. perm. }
        intros I. eapply Permutation_in in I; [|exact P]. destruct I as [I|I]; [injection I as E; rewrite E in Pb; discriminate Pb|].
        eapply backed_fresh; [eapply owns_perm; [exact P|exact Ha0] | exact Pb | | exact I].
        apply backed_app; [apply backed_none, attr_no_att|].
        change ((i, RInfo) :: ((rs_chunks p, RMem) :: o_opt RCs (rs_cs p)) ++ (rs_obj p, RMem) :: R) with ([(i, RInfo); (rs_chunks p, RMem)] ++ o_opt RCs (rs_cs p) ++ [(rs_obj p, RMem)] ++ R).
        apply backed_app; [apply backed_none; intros b [J|[J|[]]]; discriminate J|].
        apply backed_app; [apply backed_none; intros b; apply opt_no_att; discriminate|].
        apply backed_app; [apply backed_none; intros b [J|[]]; discriminate J|exact B]. }
      { apply (lt_next _ _ (rs_base p, rs_kind p) Ha0). apply in_app_iff. right. right. apply in_app_iff. left.
        unfold O, o_space. apply in_app_iff. right. right. apply in_app_iff. right. left. reflexivity. }
      rewrite E. cbn [bind]. exists None, s3. split; [reflexivity|]. split; [exact H3|discriminate].
    - destruct (ictx_create_owns s2 _ Ha0) as (w & s3 & E & H3 & _). rewrite E. cbn [bind fst snd].
      exists (Some w), s3. split; [reflexivity|]. split; [exact H3|discriminate]. }
  destruct Q as (w & s3 & E & H3 & W). rewrite E. cbn [bind fst snd]. clear E.
  set (WW := if rc_dyn c then [(rs_base p, RAtt)] else match w with Some w => o_win w | None => [] end) in *.
  assert (Q : exists arr s4, match rs_nctx p with O => (None, s3) | S _ => let '(m, s) := acq RMem s3 in (Some m, s) end = (arr, s4)
     /\ owns s4 (o_opt RMem arr ++ WW ++ o_attr a ++ (i, RInfo) :: O ++ R)
     /\ (match arr with Some _ => true | None => false end = (0 <? Z.of_nat (rs_nctx p)))).
  { destruct (rs_nctx p) as [|n].
    - exists None, s3. auto.
    - acq1 H3 s4 m. exists (Some m), s4. auto. }
  destruct Q as (arr & s4 & E & H4 & AR). rewrite E. clear E.
  destruct (ictx_create_n_owns (rs_nctx p) s4 _ H4) as (l & s5 & E & H5 & L). rewrite E. cbn [bind fst snd]. clear E.
  assert (H6 : owns s5 ((i, RInfo) :: WW ++ o_wins l ++ o_opt RMem arr ++ o_attr a ++ O ++ R)) by (eapply owns_perm; [|exact H5]; perm).
  rel1 H6 s6. eexists _, s6. split; [reflexivity|]. split.
  - unfold o_space at 1. cbn [rs_att rs_base rs_chunks rs_cs rs_kind rs_obj]. unfold o_att. cbn [at_win at_wins at_arr at_attr]. fold WW.
    eapply owns_perm; [|exact H6]. unfold O, o_space. rewrite EA. cbn [app]. perm.
  - unfold space_ok. cbn [rs_att rs_base rs_chunks rs_cs rs_kind rs_obj rs_nctx us_dev us_n us_at].
    split; [exact K|]. split; [exact C|]. split; [exact Nn|]. unfold att_ok. cbn [at_win at_wins at_arr at_attr].
    rewrite <- Nn. auto.
Qed.
Lemma space_detach_owns c u p s R : space_ok c u p -> us_at u <> None -> owns s (o_space c p ++ R) ->
  exists p' s', space_detach_r c p s = Ok (p', s') /\ owns s' (o_space c p' ++ R) /\ space_ok c (mkUS (us_dev u) (us_n u) None) p'.
Proof.
  intros (K & C & Nn & A) U H. unfold space_detach_r. destruct (us_at u) as [sym|] eqn:EU; [|contradiction].
  destruct (rs_att p) as [a|] eqn:EA; [|destruct A]. destruct A as (A1 & A2 & A3 & A4).
  unfold o_space in H. rewrite EA in H. unfold o_att in H. rewrite <- !app_assoc in H.
  match type of H with owns _ (_ ++ ?T) => set (T1 := T) in * end.
  assert (Q : exists s1, (if rc_dyn c then win_detach (rs_base p) s else match at_win a with Some w => ictx_destroy w s | None => Abort end) = Ok s1 /\ owns s1 T1).
  { destruct (rc_dyn c).
    - unfold win_detach. cbn [app] in H. apply rel_owns, H.
    - destruct (at_win a) as [w|]; [|destruct (A1 eq_refl eq_refl)]. apply ictx_destroy_owns, H. }
  destruct Q as (s1 & E & H1). rewrite E. cbn [bind]. clear E. subst T1.
  destruct (ictx_destroy_l_owns (at_wins a) s1 _ H1) as (s2 & E & H2). rewrite E. cbn [bind]. clear E.
  match type of H2 with owns _ (_ ++ ?T) => set (T1 := T) in * end.
  assert (Q : exists s3, match at_arr a with Some m => rel RMem m s2 | None => Ok s2 end = Ok s3 /\ owns s3 T1).
  { destruct (at_arr a) as [m|]; [apply rel_owns, H2 | exists s2; auto]. }
  destruct Q as (s3 & E & H3). rewrite E. cbn [bind]. clear E. subst T1.
  destruct (destroy_attr_owns c _ _ _ _ A4 H3) as (s4 & E & H4). rewrite E. cbn [bind]. clear E.
  eexists _, s4. split; [reflexivity|]. split.
  - unfold o_space. cbn [rs_att rs_base rs_chunks rs_cs rs_kind rs_obj app]. cbn [app] in H4. exact H4.
  - unfold space_ok. cbn [rs_att rs_base rs_chunks rs_cs rs_kind rs_obj rs_nctx us_dev us_n us_at]. auto.
Qed.
Lemma space_destroy_owns c u p s R : space_ok c u p -> us_at u = None -> backed R -> owns s (o_space c p ++ R) ->
  exists s', space_destroy_r p s = Ok s' /\ owns s' R.
Proof.
  intros (K & C & Nn & A) U B H. unfold space_destroy_r. rewrite U in A. destruct (rs_att p) as [a|] eqn:EA; [destruct A|].
  unfold o_space in H. rewrite EA in H. cbn [app] in H. rewrite <- app_assoc in H. cbn [app] in H.
  rel1 H s1. destruct (cs_destroy_owns (rs_cs p) s1 _ H) as (s2 & E & H2). rewrite E. cbn [bind]. clear E.
  assert (Pb : prim (rs_kind p) = true) by (rewrite K; destruct (us_dev u); reflexivity).
  destruct (mem_free_owns (rs_kind p) (rs_base p) s2 _ H2 Pb) as (s3 & E & H3).
  { eapply backed_fresh; [exact H2|exact Pb|]. change ((rs_obj p, RMem) :: R) with ([(rs_obj p, RMem)] ++ R).
    apply backed_app; [apply backed_none; intros b [J|[]]; discriminate J|exact B]. }
  rewrite E. cbn [bind]. rel1 H3 s4. eauto.
Qed.
