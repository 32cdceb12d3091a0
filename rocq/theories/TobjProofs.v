From Verif Require Import Base ListLib TeamModel TeamProofs TobjModel TobjSpec.

(** ** Stores *)
Lemma look_del {A} (l : list (Z * A)) k j : look (del l k) j = if k =? j then None else look l j.
Proof.
  induction l as [|[i a] l IH]; simpl; [destruct (k =? j); reflexivity|].
  destruct (Z.eqb_spec i k) as [->|N]; simpl.
  - rewrite IH. destruct (Z.eqb_spec k j); [reflexivity|]. reflexivity.
  - rewrite IH. destruct (Z.eqb_spec i j) as [->|]; [|reflexivity].
    destruct (Z.eqb_spec k j); [congruence|reflexivity].
Qed.
Lemma look_put {A} (l : list (Z * A)) k a j : look (put l k a) j = if k =? j then Some a else look l j.
Proof. unfold put. simpl. rewrite look_del. destruct (k =? j); reflexivity. Qed.

Lemma number_index g p : number g p = index_of g p.
Proof.
  induction g as [|q r IH]; [reflexivity|]. simpl. rewrite IH.
  destruct (q =? p); [reflexivity|]. destruct (index_of r p); reflexivity.
Qed.
Lemma upto_zseq n : upto n = zseq 0 (Z.to_nat n).
Proof. unfold upto, zseq. apply map_ext. intros i. lia. Qed.
Lemma gnth_nth g i : 0 <= i -> nth (Z.to_nat i) g 0 = gnth g i.
Proof.
  intros H. unfold gnth, aget. destruct (Z.ltb_spec i 0); [lia|].
  destruct (nth_error g (Z.to_nat i)) eqn:E.
  - apply nth_error_nth. exact E.
  - apply nth_overflow. apply nth_error_None. exact E.
Qed.
Lemma pick_gnth g l : (forall i, In i l -> 0 <= i) -> pick g l = map (gnth g) l.
Proof. intros H. unfold pick. apply map_ext_in. intros i Hi. apply gnth_nth. auto. Qed.

(** ** The collective split as one PE sees it *)
Lemma upd_same {A} (l : list A) : forall k x, nth_error l k = Some x -> upd l k x = l.
Proof.
  induction l as [|a l IH]; intros [|k] x H; try discriminate; simpl in *; [congruence|].
  rewrite IH by exact H. reflexivity.
Qed.
Lemma nth_entries colors g : forall k i p, nth_error g k = Some p ->
  nth_error (entries colors i g) k = Some (colors (i + Z.of_nat k), (i + Z.of_nat k, p)).
Proof.
  induction g as [|q r IH]; intros [|k] i p H; try discriminate.
  - cbn [entries nth_error] in *. injection H as ->. rewrite Z.add_0_r. reflexivity.
  - cbn [entries nth_error] in *. rewrite (IH k (i + 1) p H).
    replace (i + 1 + Z.of_nat k) with (i + Z.of_nat (S k)) by lia. reflexivity.
Qed.
Lemma split_args_same g colors r p :
  aget g r = Some p -> split_args g colors r (colors r) r = entries colors 0 g.
Proof.
  intros H. pose proof (aget_some _ _ _ H) as Hr. unfold split_args. apply upd_same.
  unfold aget in H. destruct (Z.ltb_spec r 0); [lia|].
  rewrite (nth_entries _ _ _ _ _ H). rewrite (nth_error_nth _ _ 0 H).
  replace (0 + Z.of_nat (Z.to_nat r)) with r by lia. reflexivity.
Qed.
Definition sub (g : group) (colors : Z -> Z) (c : Z) : group :=
  map (gnth g) (filter (fun i => colors i =? c) (zseq 0 (length g))).
Lemma comm_split_ok g colors :
  (forall i, 0 <= i < Z.of_nat (length g) -> 0 <= colors i \/ colors i = MPI_UNDEFINED) ->
  comm_split (entries colors 0 g) =
    Ok (map (fun i => if colors i =? MPI_UNDEFINED then None else Some (sub g colors (colors i)))
            (zseq 0 (length g))).
Proof.
  intros H. unfold comm_split.
  assert (E : existsb (fun e => (fst e <? 0) && negb (fst e =? MPI_UNDEFINED)) (entries colors 0 g) = false).
  { apply not_true_is_false. rewrite existsb_exists. intros (e & He & Hb).
    assert (Hc : In (fst e) (map colors (zseq 0 (length g))))
      by (rewrite <- entries_fst; apply in_map; exact He).
    apply in_map_iff in Hc. destruct Hc as (i & Ei & Hi). apply in_zseq in Hi.
    destruct (H i ltac:(lia)); lia. }
  rewrite E. f_equal.
  rewrite <- (map_map fst (fun c => if c =? MPI_UNDEFINED then None else
      Some (color_group (entries colors 0 g) c))).
  rewrite entries_fst, map_map. apply zmap_ext. intros i Hi.
  destruct (colors i =? MPI_UNDEFINED); [reflexivity|]. rewrite color_group_spec. reflexivity.
Qed.
Lemma sub_in g colors r p : aget g r = Some p -> In p (sub g colors (colors r)).
Proof.
  intros H. pose proof (aget_some _ _ _ H) as Hr. unfold sub. apply in_map_iff. exists r.
  split; [unfold gnth; rewrite H; reflexivity|]. apply filter_In. rewrite in_zseq. lia.
Qed.
Lemma sub_length g colors c : (length (sub g colors c) <= length g)%nat.
Proof.
  unfold sub. rewrite map_length. transitivity (length (zseq 0 (length g))).
  - induction (zseq 0 (length g)) as [|x l IH]; simpl; [lia|]. destruct (colors x =? c); simpl; lia.
  - rewrite zseq_length. reflexivity.
Qed.

(** ** The objects stand for the teams *)
Definition addr (s : pe) (h : Z) : Z :=
  if h =? H_WORLD then p_world s else if h =? H_SHARED then p_shared s else h.
Definition backs (s : pe) (o : obj) (v : tval) : Prop :=
  index_of (v_group v) (p_me s) = Some (ob_my o) /\ ob_n o = Z.of_nat (length (v_group v)) /\
  look (p_comms s) (ob_comm o) = Some (v_group v) /\ look (p_groups s) (ob_group o) = Some (v_group v) /\
  ob_cfg o = v_cfg v /\ NoDup (v_group v) /\ Z.of_nat (length (v_group v)) <= INT_MAX.
Record rel (me : Z) (s : pe) (T : teams) : Prop := mkRel {
  r_me : p_me s = me;
  r_back : forall h v, team_of T h = Some v -> exists o, look (p_heap s) (addr s h) = Some o /\ backs s o v;
  r_inj : forall h h' v v', team_of T h = Some v -> team_of T h' = Some v' -> addr s h = addr s h' -> h = h';
  r_live : forall a o, look (p_heap s) a = Some o ->
     look (p_comms s) (ob_comm o) <> None /\ look (p_groups s) (ob_group o) <> None;
  r_sep : forall a b o o', look (p_heap s) a = Some o -> look (p_heap s) b = Some o' -> a <> b ->
     ob_comm o <> ob_comm o' /\ ob_group o <> ob_group o';
  r_world : exists o, look (p_heap s) (p_world s) = Some o /\ ob_my o = p_wmy s /\ ob_n o = p_wn s /\ ob_group o = p_wgroup s;
  r_shared : exists o, look (p_heap s) (p_shared s) = Some o /\ ob_my o = p_smy s /\ ob_n o = p_sn s /\ ob_group o = p_sgroup s }.

Lemma rel_ext me s T T' : rel me s T -> (forall h, team_of T' h = team_of T h) -> rel me s T'.
Proof.
  intros [A B C D E F G] H. constructor; auto.
  - intros h v. rewrite H. apply B.
  - intros h h' v v'. rewrite !H. apply C.
Qed.

Lemma team_of_invalid T : team_of T H_INVALID = None.
Proof. reflexivity. Qed.
Lemma parent_is_addr s t : parent_addr s t = addr s t.
Proof. reflexivity. Qed.

(** A user handle. *)
Definition user (h : Z) : Prop := ~ In h [H_INVALID; H_WORLD; H_SHARED].
Lemma user_eqb h : user h -> (h =? H_INVALID) = false /\ (h =? H_WORLD) = false /\ (h =? H_SHARED) = false.
Proof. unfold user. simpl. intros H. repeat split; apply Z.eqb_neq; intros ->; apply H; auto. Qed.
Lemma addr_user s h : user h -> addr s h = h.
Proof. intros H. destruct (user_eqb h H) as (_ & A & B). unfold addr. rewrite A, B. reflexivity. Qed.
Lemma team_user T h : user h -> team_of T h = look (t_user T) h.
Proof. intros H. destruct (user_eqb h H) as (A & B & C). unfold team_of. rewrite A, B, C. reflexivity. Qed.
Lemma handle_cases T h v : team_of T h = Some v -> h = H_WORLD \/ h = H_SHARED \/ user h.
Proof.
  unfold team_of, user. simpl. destruct (Z.eqb_spec h H_INVALID); [discriminate|].
  destruct (Z.eqb_spec h H_WORLD); [auto|]. destruct (Z.eqb_spec h H_SHARED); [auto|].
  intros _. right. right. intuition congruence.
Qed.

Lemma team_add T b g c h : user b ->
  team_of (add_team T b g c) h = if b =? h then Some (mkT g c) else team_of T h.
Proof.
  intros U. destruct (Z.eqb_spec b h) as [<-|N].
  - rewrite team_user by exact U. simpl. rewrite Z.eqb_refl. reflexivity.
  - unfold team_of. simpl.
    destruct (h =? H_INVALID), (h =? H_WORLD), (h =? H_SHARED); auto.
    destruct (Z.eqb_spec b h); [congruence|reflexivity].
Qed.

(** A handle in use names a live block. *)
Lemma fresh_handle me s T a h v : rel me s T -> look (p_heap s) a = None -> team_of T h = Some v -> addr s h <> a.
Proof. intros R L H E. destruct (r_back _ _ _ R h v H) as (o & Lo & _). congruence. Qed.

(** ** Adding an object *)
Lemma rel_add me s T b c q g cfg my :
  rel me s T -> user b -> look (p_heap s) b = None -> look (p_comms s) c = None -> look (p_groups s) q = None ->
  index_of g me = Some my -> NoDup g -> Z.of_nat (length g) <= INT_MAX ->
  forall s', p_me s' = p_me s -> p_world s' = p_world s -> p_shared s' = p_shared s ->
  p_wmy s' = p_wmy s -> p_wn s' = p_wn s -> p_wgroup s' = p_wgroup s ->
  p_smy s' = p_smy s -> p_sn s' = p_sn s -> p_sgroup s' = p_sgroup s ->
  (forall k, look (p_heap s') k = if b =? k then Some (mkObj my (Z.of_nat (length g)) c q cfg) else look (p_heap s) k) ->
  (forall k, look (p_comms s') k = if c =? k then Some g else look (p_comms s) k) ->
  (forall k, look (p_groups s') k = if q =? k then Some g else look (p_groups s) k) ->
  rel me s' (add_team T b g cfg).
Proof.
  intros R U Lb Lc Lq Ig ND NL s' Eme Ew Es E1 E2 E3 E4 E5 E6 Hh Hc Hq.
  assert (AD : forall h, addr s' h = addr s h) by (intros h; unfold addr; rewrite Ew, Es; reflexivity).
  assert (OLD : forall o v, backs s o v -> backs s' o v).
  { intros o v (A & B & C & D & E & F & G). unfold backs. rewrite Eme, Hc, Hq.
    destruct (Z.eqb_spec c (ob_comm o)) as [X|_]; [rewrite X in Lc; congruence|].
    destruct (Z.eqb_spec q (ob_group o)) as [X|_]; [rewrite X in Lq; congruence|]. tauto. }
  constructor.
  - rewrite Eme. apply (r_me _ _ _ R).
  - intros h v. rewrite team_add by exact U. destruct (Z.eqb_spec b h) as [<-|N]; intros H.
    + injection H as <-. rewrite AD, (addr_user s b U), Hh, Z.eqb_refl. eexists. split; [reflexivity|].
      unfold backs. simpl. rewrite Eme, (r_me _ _ _ R), Hc, Hq, !Z.eqb_refl. tauto.
    + rewrite AD, Hh. pose proof (fresh_handle _ _ _ b h v R Lb H) as Nb.
      destruct (Z.eqb_spec b (addr s h)); [congruence|].
      destruct (r_back _ _ _ R h v H) as (o & Lo & Bo). exists o. auto.
  - intros h h' v v'. rewrite !team_add by exact U. rewrite !AD.
    destruct (Z.eqb_spec b h) as [<-|N], (Z.eqb_spec b h') as [<-|N']; intros H H' E; auto.
    + rewrite (addr_user s b U) in E. exfalso. apply (fresh_handle _ _ _ b h' v' R Lb H'). auto.
    + rewrite (addr_user s b U) in E. exfalso. apply (fresh_handle _ _ _ b h v R Lb H). auto.
    + eapply (r_inj _ _ _ R); eauto.
  - intros a o. rewrite Hh, Hc, Hq. destruct (Z.eqb_spec b a); intros H.
    + injection H as <-. simpl. rewrite !Z.eqb_refl. split; discriminate.
    + destruct (r_live _ _ _ R a o H) as [X Y].
      destruct (c =? ob_comm o), (q =? ob_group o); split; auto; discriminate.
  - intros a a' o o'. rewrite !Hh. destruct (Z.eqb_spec b a), (Z.eqb_spec b a'); intros H H' N.
    + congruence.
    + injection H as <-. simpl. destruct (r_live _ _ _ R a' o' H') as [X Y]. split; intros Z; subst; congruence.
    + injection H' as <-. simpl. destruct (r_live _ _ _ R a o H) as [X Y]. split; intros Z; subst; congruence.
    + eapply (r_sep _ _ _ R); eauto.
  - destruct (r_world _ _ _ R) as (o & Lo & X). exists o. rewrite Ew, Hh, E1, E2, E3.
    destruct (Z.eqb_spec b (p_world s)); [congruence|]. tauto.
  - destruct (r_shared _ _ _ R) as (o & Lo & X). exists o. rewrite Es, Hh, E4, E5, E6.
    destruct (Z.eqb_spec b (p_shared s)); [congruence|]. tauto.
Qed.

Lemma obj_split_ok me s T t v r colors w :
  rel me s T -> team_of T t = Some v -> index_of (v_group v) me = Some r -> new_ok s w ->
  (forall i, 0 <= i < Z.of_nat (length (v_group v)) -> 0 <= colors i \/ colors i = MPI_UNDEFINED) ->
  if colors r =? MPI_UNDEFINED then obj_split s (parent_addr s t) colors (colors r) w = Ok (s, H_INVALID)
  else exists s', obj_split s (parent_addr s t) colors (colors r) w = Ok (s', name_of w) /\
         rel me s' (add_team T (name_of w) (sub (v_group v) colors (colors r)) 0) /\
         p_world s' = p_world s /\ p_shared s' = p_shared s /\
         forall u, new_ok s u -> apart w u -> new_ok s' u.
Proof.
  intros R Ht Hr ((b & Eb & Ub & Lb) & Lc & Lq) HC.
  destruct (r_back _ _ _ R t v Ht) as (o & Lo & (A & B & C & D & E & F & G)).
  rewrite (r_me _ _ _ R) in A. assert (Er : ob_my o = r) by congruence.
  pose proof (index_of_some _ _ _ Hr) as Ar. pose proof (aget_some _ _ _ Ar) as Br.
  destruct (Z.eqb_spec (colors r) MPI_UNDEFINED) as [EU|NU];
  unfold obj_split, deref; rewrite parent_is_addr, Lo; cbn [of_opt bind];
  unfold live at 1; rewrite C; cbn [bind]; rewrite (r_me _ _ _ R), Hr; cbn [of_opt bind];
  rewrite Er, (split_args_same _ _ _ _ Ar), comm_split_ok by exact HC; cbn [bind];
  rewrite aget_zmap by exact Br; cbn [of_opt bind].
  { rewrite EU, Z.eqb_refl. reflexivity. }
  destruct (Z.eqb_spec (colors r) MPI_UNDEFINED); [congruence|]. cbv iota.
  set (h := sub (v_group v) colors (colors r)).
  assert (NDh : NoDup h) by (apply sub_group_nodup; exact F).
  assert (Ih : exists my, index_of h me = Some my).
  { destruct (index_of h me) as [my|] eqn:X; [eauto|]. exfalso. apply index_of_none in X. apply X.
    apply (sub_in _ _ _ _ Ar). }
  destruct Ih as (my & Ih). unfold create. rewrite Eb. cbn [of_opt bind].
  unfold live. cbn [with_heap with_mpi p_comms p_heap p_groups p_me]. rewrite look_put, Z.eqb_refl. cbn [bind].
  rewrite (r_me _ _ _ R), Ih. cbn [of_opt bind].
  unfold deref. cbn [with_heap with_mpi p_heap]. rewrite look_put, Z.eqb_refl. cbn [of_opt bind ob_cfg].
  unfold name_of. rewrite Eb.
  eexists. split; [reflexivity|]. cbn [with_heap with_mpi].
  assert (LL : Z.of_nat (length h) <= INT_MAX).
  { pose proof (sub_length (v_group v) colors (colors r)) as X. fold h in X. lia. }
  split; [|split; [reflexivity|split; [reflexivity|]]].
  - eapply (rel_add me s T b (nw_comm w) (nw_group w) h 0 my); eauto;
      cbn [p_heap p_comms p_groups with_heap with_mpi].
    + intros k. rewrite !look_put. destruct (b =? k); reflexivity.
    + intros k. apply look_put.
    + intros k. apply look_put.
  - intros u ((b' & Eb' & Ub' & Lb') & Lc' & Lq') (N1 & N2 & N3).
    split; [|split]; cbn [p_heap p_comms p_groups with_heap with_mpi].
    + exists b'. split; [exact Eb'|]. split; [exact Ub'|]. rewrite !look_put.
      destruct (Z.eqb_spec b b'); [congruence|exact Lb'].
    + rewrite look_put. destruct (Z.eqb_spec (nw_comm w) (nw_comm u)); [congruence|exact Lc'].
    + rewrite look_put. destruct (Z.eqb_spec (nw_group w) (nw_group u)); [congruence|exact Lq'].
Qed.

(** ** Storing a configuration *)
Lemma set_config_ok me s T h g cfg mask :
  rel me s T -> user h -> team_of T h = Some (mkT g 0) ->
  exists s', set_config s h cfg mask = Ok s' /\ p_world s' = p_world s /\ p_shared s' = p_shared s /\
    forall T', team_of T' h = Some (mkT g (config_of cfg mask)) ->
      (forall k, k <> h -> team_of T' k = team_of T k) -> rel me s' T'.
Proof.
  intros R U H. destruct (user_eqb h U) as (E0 & _). unfold set_config, config_of. rewrite E0.
  assert (Same : forall T', team_of T' h = Some (mkT g 0) ->
      (forall k, k <> h -> team_of T' k = team_of T k) -> rel me s T').
  { intros T' H1 H2. apply (rel_ext me s T); [exact R|]. intros k. destruct (Z.eq_dec k h) as [->|N]; [congruence|auto]. }
  destruct cfg as [c|]; [|exists s; auto]. destruct (mask =? 0); [exists s; auto|].
  destruct (r_back _ _ _ R h _ H) as (o & Lo & Bo). rewrite (addr_user s h U) in Lo.
  unfold deref. rewrite Lo. cbn [of_opt bind]. eexists. split; [reflexivity|].
  split; [reflexivity|split; [reflexivity|]]. intros T' H1 H2.
  set (o' := mkObj (ob_my o) (ob_n o) (ob_comm o) (ob_group o) c).
  assert (LH : forall k, look (put (p_heap s) h o') k = if h =? k then Some o' else look (p_heap s) k)
    by (intros k; apply look_put).
  assert (ADR : forall k, addr (with_heap s (put (p_heap s) h o')) k = addr s k) by reflexivity.
  assert (K : forall k v', team_of T' k = Some v' -> exists v, team_of T k = Some v).
  { intros k v' Hk. destruct (Z.eq_dec k h) as [->|N]; [eauto|]. rewrite <- (H2 k N). eauto. }
  constructor; cbn [with_heap p_heap p_comms p_groups p_me p_world p_shared p_wmy p_wn p_wgroup p_smy p_sn p_sgroup].
  - apply (r_me _ _ _ R).
  - intros k v' Hk. rewrite ADR, LH. destruct (Z.eq_dec k h) as [->|N].
    + rewrite (addr_user s h U), Z.eqb_refl. exists o'. split; [reflexivity|].
      rewrite H1 in Hk. injection Hk as <-. unfold backs in *. simpl in *. tauto.
    + rewrite (H2 k N) in Hk. destruct (r_back _ _ _ R k v' Hk) as (q & Lq & Bq).
      destruct (Z.eqb_spec h (addr s k)) as [X|_].
      { exfalso. apply N. eapply (r_inj _ _ _ R); eauto. rewrite (addr_user s h U). auto. }
      exists q. auto.
  - intros k k' v v' Hk Hk'. rewrite !ADR. destruct (K k v Hk) as (x & Hx). destruct (K k' v' Hk') as (y & Hy).
    eapply (r_inj _ _ _ R); eauto.
  - intros a q. rewrite LH. destruct (Z.eqb_spec h a); intros X.
    + injection X as <-. simpl. apply (r_live _ _ _ R h o Lo).
    + apply (r_live _ _ _ R a q X).
  - intros a a' q q'. rewrite !LH. destruct (Z.eqb_spec h a), (Z.eqb_spec h a'); intros X Y N.
    + congruence.
    + injection X as <-. subst a. apply (r_sep _ _ _ R h a' o q' Lo Y N).
    + injection Y as <-. subst a'. apply (r_sep _ _ _ R a h q o X Lo N).
    + apply (r_sep _ _ _ R a a' q q' X Y N).
  - destruct (r_world _ _ _ R) as (q & Lq & X). rewrite LH. destruct (Z.eqb_spec h (p_world s)) as [Y|].
    + rewrite <- Y, Lo in Lq. injection Lq as <-. exists o'. split; [reflexivity|exact X].
    + exists q. auto.
  - destruct (r_shared _ _ _ R) as (q & Lq & X). rewrite LH. destruct (Z.eqb_spec h (p_shared s)) as [Y|].
    + rewrite <- Y, Lo in Lq. injection Lq as <-. exists o'. split; [reflexivity|exact X].
    + exists q. auto.
Qed.

(** ** Destroying *)
Lemma obj_destroy_ok me s T h v :
  rel me s T -> user h -> team_of T h = Some v -> h <> p_world s -> h <> p_shared s ->
  exists s', obj_destroy s h = Ok s' /\ p_world s' = p_world s /\ p_shared s' = p_shared s /\
    rel me s' (mkTeams (t_world T) (t_shared T) (del (t_user T) h)).
Proof.
  intros R U H Nw Ns. destruct (r_back _ _ _ R h v H) as (o & Lo & (A & B & C & D & _)).
  rewrite (addr_user s h U) in Lo. unfold obj_destroy, deref, live. rewrite Lo. cbn [of_opt bind].
  rewrite D, C. cbn [bind]. eexists. split; [reflexivity|].
  split; [reflexivity|split; [reflexivity|]].
  set (T' := mkTeams (t_world T) (t_shared T) (del (t_user T) h)).
  assert (TT : forall k v', team_of T' k = Some v' -> k <> h /\ team_of T k = Some v').
  { intros k v' Hk. destruct (Z.eq_dec k h) as [->|N].
    - rewrite team_user in Hk by exact U. unfold T' in Hk. simpl in Hk. rewrite look_del, Z.eqb_refl in Hk. discriminate.
    - split; [exact N|]. revert Hk. unfold team_of, T'. simpl. rewrite look_del.
      destruct (k =? H_INVALID), (k =? H_WORLD), (k =? H_SHARED); auto.
      destruct (Z.eqb_spec h k); [congruence|auto]. }
  constructor; cbn [with_heap with_mpi p_heap p_comms p_groups p_me p_world p_shared p_wmy p_wn p_wgroup p_smy p_sn p_sgroup].
  - apply (r_me _ _ _ R).
  - intros k v' Hk. destruct (TT k v' Hk) as [N Hk']. destruct (r_back _ _ _ R k v' Hk') as (q & Lq & Bq).
    assert (Na : h <> addr s k).
    { intros X. apply N. eapply (r_inj _ _ _ R); eauto. rewrite (addr_user s h U). auto. }
    exists q. change (addr _ k) with (addr s k). rewrite look_del.
    destruct (Z.eqb_spec h (addr s k)); [congruence|]. split; [exact Lq|].
    destruct (r_sep _ _ _ R h (addr s k) o q Lo Lq Na) as [S1 S2].
    unfold backs in *. cbn [p_me p_comms p_groups with_heap with_mpi]. rewrite !look_del.
    destruct (Z.eqb_spec (ob_comm o) (ob_comm q)); [congruence|].
    destruct (Z.eqb_spec (ob_group o) (ob_group q)); [congruence|]. exact Bq.
  - intros k k' v1 v2 Hk Hk' E. destruct (TT k v1 Hk) as [_ X]. destruct (TT k' v2 Hk') as [_ Y].
    eapply (r_inj _ _ _ R); eauto.
  - intros a q. rewrite !look_del. destruct (Z.eqb_spec h a); [discriminate|]. intros X.
    destruct (r_sep _ _ _ R h a o q Lo X n) as [S1 S2]. destruct (r_live _ _ _ R a q X) as [L1 L2].
    destruct (Z.eqb_spec (ob_comm o) (ob_comm q)); [congruence|].
    destruct (Z.eqb_spec (ob_group o) (ob_group q)); [congruence|]. auto.
  - intros a a' q q'. rewrite !look_del. destruct (Z.eqb_spec h a); [discriminate|].
    destruct (Z.eqb_spec h a'); [discriminate|]. apply (r_sep _ _ _ R).
  - destruct (r_world _ _ _ R) as (q & Lq & X). exists q. rewrite look_del.
    destruct (Z.eqb_spec h (p_world s)); [congruence|auto].
  - destruct (r_shared _ _ _ R) as (q & Lq & X). exists q. rewrite look_del.
    destruct (Z.eqb_spec h (p_shared s)); [congruence|auto].
Qed.

Lemma world_team T : team_of T H_WORLD = Some (mkT (t_world T) 0).
Proof. reflexivity. Qed.
Lemma shared_team T : team_of T H_SHARED = Some (mkT (t_shared T) 0).
Proof. reflexivity. Qed.
Lemma user_not_world me s T h v : rel me s T -> user h -> team_of T h = Some v -> h <> p_world s /\ h <> p_shared s.
Proof.
  intros R U H. destruct (user_eqb h U) as (_ & B & C). split; intros E.
  - assert (X : h = H_WORLD) by (eapply (r_inj _ _ _ R); [exact H|apply world_team|rewrite addr_user by exact U; exact E]).
    rewrite X in B. discriminate.
  - assert (X : h = H_SHARED) by (eapply (r_inj _ _ _ R); [exact H|apply shared_team|rewrite addr_user by exact U; exact E]).
    rewrite X in C. discriminate.
Qed.
