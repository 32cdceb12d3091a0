From Coq Require Import Permutation.
From Verif Require Import Base ResModel ResSpec ResProofs ResProofs2.

Lemma init_owns c o : exists l s, initialize_r c o led0 = Ok (l, s) /\ lib_ok c o l u0 /\ owns s (owned c l).
Proof.
  assert (H0 : owns led0 []) by (constructor; cbn; try constructor; try (intros x []); try lia; reflexivity).
  unfold initialize_r.
  destruct (team_make_owns led0 [] H0) as (tw & s1 & E1 & H1). rewrite E1.
  destruct (team_make_owns s1 _ H1) as (ts & s2 & E2 & H2). rewrite E2.
  destruct (heap_init_owns c o s2 _ H2) as (h & s3 & E3 & H3 & HO).
  { intros b I. rewrite app_nil_r in I. apply in_app_iff in I as [I|I]; exact (team_no_att _ _ I). }
  rewrite E3. cbn [bind fst snd].
  assert (Q : exists scs s4, (if rc_scache c then cs_init c s3 else (None, s3)) = (scs, s4)
     /\ owns s4 (o_opt RCs scs ++ o_heap c h ++ o_team ts ++ o_team tw ++ []) /\ some_b scs = rc_mult c && rc_scache c).
  { destruct (rc_scache c).
    - destruct (cs_init_owns c s3 _ H3) as [Ha Hb]. destruct (cs_init c s3) as [x y]. exists x, y. cbn [fst snd] in *. rewrite andb_true_r. auto.
    - exists None, s3. rewrite andb_false_r. auto. }
  destruct Q as (scs & s4 & E4 & H4 & HS). rewrite E4.
  destruct (cs_init_owns c s4 _ H4) as [H5 HC]. destruct (cs_init c s4) as [ccs s5]; cbn [fst snd] in *.
  destruct (am_init_owns c s5 _ H5) as (am & s6 & E6 & H6 & HA). rewrite E6.
  destruct (cs_init_owns c s6 _ H6) as [H7 HP]. destruct (cs_init c s6) as [pcs s7]; cbn [fst snd] in *.
  eexists _, s7. split; [reflexivity|]. split.
  - constructor; cbn; try assumption; try reflexivity; try constructor. destruct (rc_scache c); reflexivity.
  - eapply owns_perm; [|exact H7]. unfold owned, o_lib, o_user. cbn [lb_comms lb_ccs lb_am lb_types lb_scs lb_pcs lb_heap lb_shared lb_world lb_teams lb_spaces flat_map o_comms o_types app].
    perm.
Qed.

Lemma run_ok c o us : forall l u s, lib_ok c o l u -> owns s (owned c l) -> ulegal_all u us = true ->
  exists l' s', rrun c (l, s) us = Ok (l', s') /\ lib_ok c o l' (fold_left ustep us u) /\ owns s' (owned c l').
Proof.
  induction us as [|x us IH]; intros l u s LO H L; cbn [rrun fold_left ulegal_all] in *.
  - exists l, s. auto.
  - apply andb_true_iff in L as [L1 L2]. destruct (step_ok c o l u s x LO H L1) as (l1 & s1 & E & LO1 & H1).
    rewrite E. cbn [bind]. exact (IH l1 _ s1 LO1 H1 L2).
Qed.
Lemma start_ok c o us : ulegal_all u0 us = true ->
  exists l s, rstart c o us = Ok (l, s) /\ lib_ok c o l (ufinal us) /\ owns s (owned c l).
Proof.
  intros L. unfold rstart. destruct (init_owns c o) as (l0 & s0 & E & LO & H). rewrite E. cbn [bind].
  exact (run_ok c o us l0 u0 s0 LO H L).
Qed.

Definition left_over (c : rcfg) (l : lib) : list res :=
  heap_left c (lb_heap l) ++ if rc_dyn c then no_att (o_user c l) else o_user c l.
Lemma no_att_team t : no_att (o_team t) = o_team t.
Proof. reflexivity. Qed.
Lemma finalize_owns c o l u s : lib_ok c o l u -> heap_match c o -> owns s (owned c l) ->
  exists s', finalize_r c l s = Ok s' /\ owns s' (left_over c l).
Proof.
  intros LO M H. unfold finalize_r. unfold owned, o_lib in H. rewrite <- !app_assoc in H.
  destruct (coll_fini_owns _ _ _ H) as (s1 & E1 & H1). rewrite E1. cbn [bind].
  destruct (cs_destroy_owns _ _ _ H1) as (s2 & E2 & H2). rewrite E2. cbn [bind].
  destruct (am_fini_owns _ _ _ H2) as (s3 & E3 & H3). rewrite E3. cbn [bind].
  destruct (strided_fini_owns _ _ _ H3) as (s4 & E4 & H4). rewrite E4. cbn [bind].
  destruct (cs_destroy_owns _ _ _ H4) as (s5 & E5 & H5). rewrite E5. cbn [bind].
  destruct (cs_destroy_owns _ _ _ H5) as (s6 & E6 & H6). rewrite E6. cbn [bind].
  destruct (heap_fini_owns c o _ _ _ (lo_heap _ _ _ _ LO) M H6) as (s7 & E7 & H7). rewrite E7. cbn [bind].
  assert (H8 : owns s7 (o_team (lb_shared l) ++ o_team (lb_world l) ++ left_over c l)).
  { eapply owns_perm; [|exact H7]. unfold left_over. destruct (rc_dyn c); [rewrite !no_att_app, !no_att_team|]; perm. }
  destruct (team_destroy_owns _ _ _ H8) as (s8 & E8 & H9). rewrite E8. cbn [bind].
  exact (team_destroy_owns _ _ _ H9).
Qed.

(** Counting. *)
Lemma sumZ_app {A} (f : A -> Z) a b : sumZ f (a ++ b) = sumZ f a + sumZ f b.
Proof. unfold sumZ. induction a as [|x a IH]; cbn in *; [reflexivity|]. rewrite IH. lia. Qed.
Lemma count_app k a b : count_k k (a ++ b) = count_k k a + count_k k b.
Proof. apply sumZ_app. Qed.
Lemma count_perm k a b : Permutation a b -> count_k k a = count_k k b.
Proof. unfold count_k, sumZ. induction 1; cbn [fold_right] in *; lia. Qed.
Lemma owns_count k s R : owns s R -> count_k k (ld_live s) = count_k k R.
Proof. intros H. apply count_perm, (ow_perm _ _ H). Qed.
Lemma is_sym a b : is a b = is b a.
Proof. unfold is. f_equal. destruct (rkind_eqb a b) eqn:E; destruct (rkind_eqb b a) eqn:F; try reflexivity.
  - apply rkind_eqb_eq in E. subst. rewrite (proj2 (rkind_eqb_eq b b) eq_refl) in F. discriminate.
  - apply rkind_eqb_eq in F. subst. rewrite (proj2 (rkind_eqb_eq a a) eq_refl) in E. discriminate. Qed.
Lemma count_cons k x l : count_k k (x :: l) = is k (snd x) + count_k k l.
Proof. unfold count_k. cbn. rewrite is_sym. reflexivity. Qed.
Lemma count_nil k : count_k k [] = 0.
Proof. reflexivity. Qed.
Lemma count_opt k j o : count_k k (o_opt j o) = one (some_b o) * is k j.
Proof. destruct o; cbn [o_opt some_b one]; rewrite ?count_cons, ?count_nil; cbn [snd]; lia. Qed.
Ltac cnt := repeat (rewrite count_cons || rewrite count_app || rewrite count_nil || rewrite count_opt); cbn [fst snd].
Lemma count_team k t : count_k k (o_team t) = team_need k.
Proof. unfold o_team, team_need. cnt. lia. Qed.
Lemma count_win k w : count_k k (o_win w) = is k RWin + is k REpoch.
Proof. unfold o_win. cnt. lia. Qed.
Lemma count_wins k l : count_k k (o_wins l) = Z.of_nat (length l) * (is k RWin + is k REpoch).
Proof. induction l as [|w l IH]; [reflexivity|]. cbn [o_wins flat_map length]. fold (o_wins l). rewrite count_app, count_win, IH. lia. Qed.
Lemma count_attr c k sym a : attr_ok c sym a -> count_k k (o_attr a) = one (rc_dyn c && negb sym) * is k RMem.
Proof.
  unfold attr_ok, o_attr. rewrite count_opt. destruct (rc_dyn c).
  - intros [_ [E1 E2]]. destruct sym; [rewrite (E2 eq_refl); reflexivity|]. destruct (snd a); [reflexivity|discriminate (E1 eq_refl)].
  - intros ->. reflexivity.
Qed.
Lemma count_heap c o k h : heap_ok c o h ->
  count_k k (o_heap c h) = (if rc_dyn c
     then is k RWin + is k REpoch + 2 * is k RAtt + is k (if ro_ag o then RMap else RMem)
          + (one (negb (ro_ds o)) + one (negb (ro_hs o))) * is k RMem
     else 2 * (is k RWin + is k REpoch)) + one (rc_mult c) * is k RCs.
Proof.
  intros (A1 & A2 & A3 & A4). pose proof (count_attr c k _ _ A1) as C1. pose proof (count_attr c k _ _ A2) as C2.
  fold (some_b (rh_cs h)) in A3. unfold o_heap. destruct (rc_dyn c).
  - destruct A4 as [[w ->] [b ->]]. cnt. rewrite C1, C2, A3. cbn [andb]. lia.
  - destruct A4 as [[w [w2 ->]] _]. cnt. rewrite !count_win, A3. lia.
Qed.
Lemma count_am c k a : am_ok c a -> count_k k (o_am a) = one (rc_am c) * (2 * is k RComm + 3 * is k RMem + one (rc_mult c) * is k RCs).
Proof.
  destruct a as [a|]; cbn [am_ok o_am].
  - intros [-> E]. fold (some_b (ra_cs a)) in E. cnt. rewrite E. cbn [one]. lia.
  - intros ->. reflexivity.
Qed.
Lemma count_comms k l : count_k k (o_comms l) = Z.of_nat (length l) * set_need k.
Proof.
  induction l as [|[kk [[m c] g]] l IH]; [reflexivity|]. cbn [o_comms flat_map length]. fold (o_comms l).
  rewrite count_app, IH. unfold set_need. cnt. lia.
Qed.
Lemma count_types k l : count_k k (o_types l) = Z.of_nat (length l) * (is k RType + is k RMem).
Proof.
  induction l as [|[kk [m t]] l IH]; [reflexivity|]. cbn [o_types flat_map length]. fold (o_types l).
  rewrite count_app, IH. cnt. lia.
Qed.
Lemma count_space c k q p : space_ok c q p -> count_k k (o_space c p) = space_need c q k.
Proof.
  intros (K & C & Nn & A). unfold o_space, space_need. fold (some_b (rs_cs p)) in C. cnt. rewrite K, C.
  assert (Q : count_k k match rs_att p with Some a => o_att c (rs_base p) a | None => [] end = match us_at q with Some sym => att_need c (us_n q) sym k | None => 0 end).
  { destruct (us_at q) as [sym|], (rs_att p) as [a|]; try destruct A; [|reflexivity]. destruct H0 as (A2 & A3 & A4).
    unfold o_att, att_need. cnt. rewrite count_wins, (count_attr c k _ _ A4), A2. fold (some_b (at_arr a)) in A3. rewrite A3.
    destruct (rc_dyn c).
    - cnt. cbn [one negb andb]. lia.
    - destruct (at_win a); [|destruct (H eq_refl eq_refl)]. rewrite count_win. cbn [one negb andb]. lia. }
  rewrite Q. lia.
Qed.
Lemma count_user c o k l u : lib_ok c o l u -> count_k k (o_user c l) = user_need c u k.
Proof.
  intros LO. unfold o_user, user_need. rewrite count_app. f_equal.
  - generalize (lo_teams _ _ _ _ LO). generalize (lb_teams l) (u_teams u). intros lt ut F.
    induction F as [|b t ut lt B F IH]; [reflexivity|]. cbn [flat_map]. rewrite count_app, IH. unfold sumZ. cbn [fold_right].
    destruct t; cbn [some_b] in B; subst b; cbn [o_ut one]; [rewrite count_team|rewrite count_nil]; lia.
  - generalize (lo_spaces _ _ _ _ LO). generalize (lb_spaces l) (u_spaces u). intros lt ut F.
    induction F as [|q p ut lt B F IH]; [reflexivity|]. cbn [flat_map]. rewrite count_app, IH. unfold sumZ. cbn [fold_right].
    destruct q as [q|], p as [p|]; try destruct B; cbn [o_us]; [rewrite (count_space c k q p) by (split; assumption)|rewrite count_nil]; lia.
Qed.
Lemma count_lib c o k l u : lib_ok c o l u -> count_k k (o_lib c l) = lib_need c o k + cache_need c u k.
Proof.
  intros LO. unfold o_lib. cnt. rewrite (count_heap c o k _ (lo_heap _ _ _ _ LO)), (count_am c k _ (lo_am _ _ _ _ LO)), !count_team, count_comms, count_types.
  rewrite (lo_ccs _ _ _ _ LO), (lo_pcs _ _ _ _ LO), (lo_scs _ _ _ _ LO).
  rewrite <- (map_length fst (lb_comms l)), (lo_comms _ _ _ _ LO). unfold lib_need, cache_need, shape_need.
  pose proof (lo_types _ _ _ _ LO) as LT. destruct (rc_scache c).
  - rewrite <- (map_length fst (lb_types l)), LT. destruct (rc_mult c); cbn [andb one]; lia.
  - rewrite LT. cbn [length]. destruct (rc_mult c); cbn [andb one]; lia.
Qed.
Lemma count_no_att k l : count_k k (no_att l) = (1 - is k RAtt) * count_k k l.
Proof.
  induction l as [|[i j] l IH]; [unfold count_k; cbn; lia|]. unfold no_att in *. cbn [filter snd].
  rewrite count_cons. cbn [snd]. destruct (rkind_eqb j RAtt) eqn:E; cbn [negb].
  - apply rkind_eqb_eq in E. subst j. rewrite IH. destruct (is k RAtt) eqn:E1; unfold is in *; destruct (rkind_eqb k RAtt); cbn [one] in *; lia.
  - rewrite count_cons. cbn [snd]. rewrite IH. unfold is. destruct (rkind_eqb k RAtt) eqn:F; cbn [one].
    + apply rkind_eqb_eq in F. subst k. assert (Q : rkind_eqb RAtt j = false) by (destruct j; try reflexivity; discriminate E). rewrite Q. cbn. lia.
    + lia.
Qed.

Theorem held_exactly c o us : ulegal_all u0 us = true ->
  exists l s, rstart c o us = Ok (l, s) /\
    forall k, count_k k (ld_live s) = lib_need c o k + cache_need c (ufinal us) k + user_need c (ufinal us) k.
Proof.
  intros L. destruct (start_ok c o us L) as (l & s & E & LO & H). exists l, s. split; [exact E|].
  intros k. rewrite (owns_count k s _ H). unfold owned. rewrite count_app, (count_lib c o k l _ LO), (count_user c o k l _ LO). reflexivity.
Qed.
Theorem finalize_exactly c o us : ulegal_all u0 us = true -> heap_match c o ->
  exists s, rfull c o us = Ok s /\
    forall k, count_k k (ld_live s) = one (rc_dyn c && rc_mult c) * is k RCs + (1 - one (rc_dyn c) * is k RAtt) * user_need c (ufinal us) k.
Proof.
  intros L M. unfold rfull. destruct (start_ok c o us L) as (l & s & E & LO & H). rewrite E. cbn [bind fst snd].
  destruct (finalize_owns c o l _ s LO M H) as (s' & E' & H'). exists s'. split; [exact E'|].
  intros k. rewrite (owns_count k s' _ H'). unfold left_over, heap_left. rewrite count_app.
  pose proof (count_user c o k l _ LO) as CU. pose proof (lo_heap _ _ _ _ LO) as (_ & _ & A3 & _). fold (some_b (rh_cs (lb_heap l))) in A3.
  destruct (rc_dyn c).
  - rewrite count_opt, count_no_att, CU, A3. cbn [andb one]. lia.
  - rewrite count_nil, CU. cbn [andb one]. lia.
Qed.
Theorem finalize_fails c o us : ulegal_all u0 us = true -> rc_dyn c = true -> ro_ag o = false -> ro_hs o = true ->
  rfull c o us = UB.
Proof.
  intros L D A HS. unfold rfull. destruct (start_ok c o us L) as (l & s & E & LO & H). rewrite E. cbn [bind fst snd].
  unfold finalize_r. unfold owned, o_lib in H. rewrite <- !app_assoc in H.
  destruct (coll_fini_owns _ _ _ H) as (s1 & E1 & H1). rewrite E1. cbn [bind].
  destruct (cs_destroy_owns _ _ _ H1) as (s2 & E2 & H2). rewrite E2. cbn [bind].
  destruct (am_fini_owns _ _ _ H2) as (s3 & E3 & H3). rewrite E3. cbn [bind].
  destruct (strided_fini_owns _ _ _ H3) as (s4 & E4 & H4). rewrite E4. cbn [bind].
  destruct (cs_destroy_owns _ _ _ H4) as (s5 & E5 & H5). rewrite E5. cbn [bind].
  destruct (cs_destroy_owns _ _ _ H5) as (s6 & E6 & H6). rewrite E6. cbn [bind].
  pose proof (lo_heap _ _ _ _ LO) as (A1 & A2 & A3 & A4). rewrite D in A4. destruct A4 as [[w Ew] [b Eb]].
  unfold heap_fini, o_heap in *. rewrite D, Ew, Eb in *. rewrite <- !app_comm_cons in H6.
  unfold unlock_all, win_detach. pose proof (ow_nd _ _ H6) as ND. pose proof (ow_pid _ _ H6) as NP.
  rel1 H6 s7. rel1 H6 s8. rel1 H6 s9. unfold dyn_win_free.
  match type of H6 with owns _ (_ :: ?X) => set (T := X) in * end.
  assert (NE : ~ In (w, REpoch) T).
  { inversion ND as [|? ? N1 N2]; subst. intros I. apply N1. right; right; right; exact I. }
  destruct (win_free_owns w s9 T H6 NE) as (s10 & E10 & H10). rewrite E10. cbn [bind].
  unfold attr_ok in A2. rewrite D in A2. destruct A2 as [A2 _]. rewrite A2, HS. unfold mem_free.
  match goal with |- context [held_b (b, RAtt) ?x] => destruct (held_b (b, RAtt) x); [reflexivity|] end.
  unfold rel.
  match goal with |- context [held_b (b, RMap) ?x] => destruct (held_b (b, RMap) x) eqn:Q; [|reflexivity] end.
  apply held_In in Q. cbn [ld_live] in Q. apply filter_In in Q as [Q _].
  assert (Q' : In (b, RMap) T) by (eapply Permutation_in; [apply (ow_perm _ _ H10)|exact Q]).
  exfalso. unfold T in Q'. destruct Q' as [Q'|Q']; [rewrite A in Q'; discriminate Q'|].
  pose proof (ow_pid _ _ H10) as N. unfold T in N. rewrite A in N. unfold pids in N. simpl in N. inversion N as [|? ? N1 N2]; subst.
  apply N1. exact (In_pids b RMap _ Q' eq_refl).
Qed.
