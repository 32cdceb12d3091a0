(** Detaching preserves the relation; invariants of the specification; initial states; the
    simulation theorem for whole histories. *)
From Verif Require Import Base BaseProofs SobjModel SobjSpec SobjProofs SobjRel SobjSim SobjAttach.

Lemma space_bases_ne s p x y :
  SInv s -> in_pes s p -> In x (s_sp s p) -> In y (s_sp s p) -> ss_name x <> ss_name y ->
  ss_base x <> ss_base y.
Proof.
  intros HI Hp Hx Hy Hn.
  pose proof (pos_of s p _ HI Hp (region_in s p x Hx)) as Px.
  pose proof (pos_of s p _ HI Hp (region_in s p y Hy)) as Py. simpl in Px, Py.
  pose proof (si_reg s HI p Hp) as FO. unfold regions in FO.
  inversion FO as [|? ? _ FO2]; subst. inversion FO2 as [|? ? _ FO3]; subst.
  clear - FO3 Hx Hy Hn Px Py.
  induction (s_sp s p) as [|a l IH]; [destruct Hx|].
  simpl in FO3. inversion FO3 as [|? ? F FO4]; subst. rewrite Forall_forall in F.
  destruct Hx as [->|Hx], Hy as [->|Hy]; auto; try congruence.
  - specialize (F (ss_base y, ss_size y)). unfold disj in F. simpl in F.
    destruct F as [F|F]; [apply in_map_iff; exists y; auto | lia | lia].
  - specialize (F (ss_base x, ss_size x)). unfold disj in F. simpl in F.
    destruct F as [F|F]; [apply in_map_iff; exists x; auto | lia | lia].
Qed.

Lemma space_base_ne_hd s p x :
  SInv s -> in_pes s p -> In x (s_sp s p) ->
  s_heap s p <> ss_base x /\ s_data s p <> ss_base x.
Proof.
  intros HI Hp Hx.
  pose proof (pos_of s p _ HI Hp (region_in s p x Hx)) as Px. simpl in Px.
  pose proof (pos_of s p (s_heap s p, s_htrue s) HI Hp ltac:(left; reflexivity)) as Ph.
  pose proof (pos_of s p (s_data s p, s_dsize s) HI Hp ltac:(right; left; reflexivity)) as Pd.
  simpl in Ph, Pd.
  split; intros E.
  - apply (heap_not_other s p (ss_base x, ss_size x) (ss_base x) HI Hp).
    + simpl. right. apply in_map_iff. exists x; auto.
    + simpl. lia.
    + pose proof (si_hs0 s HI). lia.
  - apply (data_not_space s p (ss_base x, ss_size x) (ss_base x) HI Hp).
    + simpl. apply in_map_iff. exists x; auto.
    + simpl. lia.
    + lia.
Qed.

Lemma in_filter_att s name nm k :
  In (nm, k) (filter (fun e => negb (fst e =? name)) (s_att s)) <-> In (nm, k) (s_att s) /\ nm <> name.
Proof. rewrite filter_In. simpl. split; intros [A B]; split; auto; lia. Qed.

Lemma att_num_filter att name nm :
  att_num (filter (fun e => negb (fst e =? name)) att) nm =
  if nm =? name then None else att_num att nm.
Proof.
  unfold att_num. induction att as [|e l IH]; simpl; [destruct (nm =? name); reflexivity|].
  destruct (Z.eqb_spec (fst e) name) as [E|E]; simpl.
  - rewrite IH. destruct (Z.eqb_spec nm name); [reflexivity|].
    destruct (Z.eqb_spec (fst e) nm); [congruence|reflexivity].
  - destruct (Z.eqb_spec (fst e) nm) as [E2|E2]; simpl.
    + destruct (Z.eqb_spec nm name); [congruence|reflexivity].
    + exact IH.
Qed.

Lemma detach_sim dyn checks s w name :
  SInv s -> Rel dyn s w -> In name (map fst (s_att s)) ->
  exists w', space_detach checks w name = Ok w' /\
    Rel dyn (set_att s (filter (fun e => negb (fst e =? name)) (s_att s)) (s_cnt s)) w'.
Proof.
  intros HI (Hw & Hlen & lo & hw & dw & HP & HM) Hna.
  destruct (in_att_names s name Hna) as (K & HK).
  set (size := sz s name) in *. set (nctx := nc s name) in *.
  assert (Hx : forall p, in_pes s p -> slookup s p name = Some (mkx s name size nctx p))
    by (intros p Hp; apply (si_att s HI name K p HK Hp)).
  assert (Hn0 : 0 <= nctx).
  { pose proof (Hx 0 (in_pes_0 s HI)) as E. apply slookup_in in E. destruct E as [E _].
    pose proof (si_nctx s HI 0 (in_pes_0 s HI)) as F. rewrite Forall_forall in F.
    apply F in E. exact E. }
  assert (Ek : att_num (s_att s) name = Some K) by (apply att_num_in; [apply (si_att_names s HI)|exact HK]).
  unfold space_detach.
  rewrite (spaces_outs dyn s w lo hw dw name _ Hlen HI HP Hx). cbn [bind].
  set (xs := fun i => xspace dyn s lo i (mkx s name size nctx i)).
  assert (Exs : forall i, xs i = xspace1 dyn (np s) (sb s name) (lo K) K i (mkx s name size nctx i))
    by (intros i; unfold xs, xspace; simpl; rewrite Ek; reflexivity).
  rewrite Hlen.
  rewrite (outs_ok _ (fun _ => tt)).
  2:{ intros i Hi. rewrite (aget_zmap xs) by lia. cbn [of_opt bind]. rewrite Exs, Hw. simpl.
      replace (dyn || _) with true by (destruct dyn; reflexivity). cbn [c_assert bind].
      destruct (Z.ltb_spec 0 nctx); [rewrite orb_true_r; reflexivity|].
      replace (nctx =? 0) with true by lia. reflexivity. }
  cbn [bind]. rewrite !map_map.
  rewrite (zmap_ext (fun i => a_base (sp_attr (xs i))) (sb s name)) by (intros; rewrite Exs; reflexivity).
  destruct (np_len s w Hlen HI) as (n' & En).
  assert (Hd : (match map xs (zseq 0 (np s)) with [] => (WinNull, []) | s0 :: _ =>
                 (ic_win (sp_default s0), ctx_list_wins s0) end)
     = (if dyn then Win DYN_WIN else Win (lo K),
        map (fun j => Win (lo K + off dyn + j)) (zseq 0 (Z.to_nat nctx)))).
  { rewrite En, zseq_S. cbn [map]. rewrite Exs. unfold ctx_list_wins. simpl.
    f_equal; [destruct dyn; reflexivity|].
    destruct (Z.ltb_spec 0 nctx).
    - rewrite map_map. reflexivity.
    - replace (Z.to_nat nctx) with 0%nat by lia. reflexivity. }
  rewrite Hd. clear Hd.
  set (m1 := if w_dyn w then dyn_detach (w_mpi w) (map (sb s name) (zseq 0 (np s)))
             else win_free (w_mpi w) (if dyn then Win DYN_WIN else Win (lo K))).
  set (cws := map (fun j => Win (lo K + off dyn + j)) (zseq 0 (Z.to_nat nctx))).
  destruct (free_list_spec cws m1) as (F1 & F2 & F3).
  assert (N1 : m_next m1 = m_next (w_mpi w)) by (unfold m1; rewrite Hw; destruct dyn; reflexivity).
  assert (Y1 : m_dyn m1 = if dyn then map (fun bl => filter (fun r => negb (fst r =? fst bl)) (snd bl))
       (combine (map (sb s name) (zseq 0 (np s))) (m_dyn (w_mpi w))) else m_dyn (w_mpi w))
    by (unfold m1; rewrite Hw; destruct dyn; reflexivity).
  assert (W1 : forall j, ~ (lo K <= j < lo K + off dyn + nctx) ->
     wfind (fold_left win_free cws m1) j = wfind (w_mpi w) j).
  { intros j Hj. rewrite F3.
    - unfold m1. rewrite Hw. unfold off in Hj. destruct dyn; [reflexivity|].
      rewrite wfind_free. destruct (Z.eqb_spec j (lo K)); [lia|reflexivity].
    - unfold cws. intros H. apply in_map_iff in H. destruct H as (i & E & Hi).
      injection E as E. apply in_zseq in Hi. unfold off in *. destruct dyn; lia. }
  set (s' := set_att s (filter (fun e => negb (fst e =? name)) (s_att s)) (s_cnt s)).
  assert (Hin' : forall nm k, In (nm, k) (s_att s') -> In (nm, k) (s_att s) /\ nm <> name)
    by (intros nm k H; apply in_filter_att; exact H).
  assert (Hsep : forall nm k, In (nm, k) (s_att s) -> nm <> name ->
     lo k + off dyn + nc s nm <= lo K \/ lo K + off dyn + nctx <= lo k).
  { intros nm k Hin Hne. assert (k <> K).
    { intros ->. apply Hne. pose proof (si_att_nums s HI) as ND. clear - ND Hin HK.
      induction (s_att s) as [|e l IH]; [destruct HK|]. simpl in ND.
      inversion ND as [|? ? Hn ND2]; subst.
      destruct Hin as [->|Hin], HK as [HK|HK]; auto.
      - congruence.
      - exfalso. apply Hn. simpl. change K with (snd (name, K)). apply in_map. exact HK.
      - subst. exfalso. apply Hn. simpl. change K with (snd (nm, K)). apply in_map. exact Hin. }
    destruct (Z.lt_ge_cases k K).
    - left. apply (rm_disj _ _ _ _ _ _ HM nm k name K Hin HK). lia.
    - right. apply (rm_disj _ _ _ _ _ _ HM name K nm k HK Hin). lia. }
  rewrite (outs_ok _ (fun i =>
     detach_pe dyn (match aget (w_pes w) i with Some q => q | None => xpe dyn s lo hw dw i (s_mem s i) end)
       (xs i))).
  2:{ intros i Hi. destruct (HP i (in_np s i ltac:(lia))) as (m & E & _).
      rewrite (get_pe_rel _ _ _ _ _ _ _ _ E). cbn [bind].
      rewrite (aget_zmap xs) by lia. cbn [of_opt bind]. rewrite Hw, E. reflexivity. }
  cbn [bind]. eexists; split; [reflexivity|].
  split; [exact Hw|]. split; [simpl; rewrite map_length, zseq_length; reflexivity|].
  exists lo, hw, dw. split.
  - intros p Hp. assert (Hp' : in_pes s p) by exact Hp. pose proof (np_pos s p HI Hp') as Hnp.
    destruct (HP p Hp') as (m & E & Hm). exists m. split; [|exact Hm].
    simpl w_pes. rewrite aget_zmap by exact Hnp. rewrite E. f_equal.
    unfold detach_pe, xpe. rewrite Exs. unfold set_spaces. simpl. f_equal.
    unfold replace_space. rewrite map_map. apply map_ext_in. intros x Hin.
    rewrite xspace_name. unfold xspace at 2. simpl s_att. rewrite att_num_filter.
    destruct (Z.eqb_spec (ss_name x) name) as [En2|].
    + assert (Ex : x = mkx s name size nctx p).
      { pose proof (slookup_unique s p x HI Hp' Hin) as E2. rewrite En2, (Hx p Hp') in E2. congruence. }
      rewrite Ex. unfold xspace0. simpl. destruct dyn; reflexivity.
    + reflexivity.
  - assert (Hoff : 0 <= off dyn <= 1) by (unfold off; destruct dyn; lia).
    simpl w_mpi. constructor.
    + rewrite F2, Y1. destruct dyn; [|apply (rm_len _ _ _ _ _ _ HM)].
      rewrite map_length, combine_length, map_length, zseq_length.
      rewrite (rm_len _ _ _ _ _ _ HM). apply Nat.min_id.
    + intros Hd. destruct (rm_heap _ _ _ _ _ _ HM Hd) as [E L].
      pose proof (rm_lo _ _ _ _ _ _ HM name K HK) as HL. rewrite Hd in HL.
      split; [|lia]. rewrite W1 by lia. exact E.
    + intros Hd. destruct (rm_data _ _ _ _ _ _ HM Hd) as [E L].
      pose proof (rm_lo _ _ _ _ _ _ HM name K HK) as HL. rewrite Hd in HL.
      split; [|lia]. rewrite W1 by lia. exact E.
    + intros nm k i Hin Hi. destruct (Hin' nm k Hin) as [Hin2 Hne].
      change (nc s' nm) with (nc s nm) in Hi.
      rewrite W1.
      * apply (rm_win _ _ _ _ _ _ HM nm k i Hin2 Hi).
      * destruct (Hsep nm k Hin2 Hne); lia.
    + intros nm k Hin. destruct (Hin' nm k Hin) as [Hin2 Hne]. rewrite F1, N1.
      apply (rm_hi _ _ _ _ _ _ HM nm k Hin2).
    + intros nm k Hin. destruct (Hin' nm k Hin) as [Hin2 Hne]. apply (rm_lo _ _ _ _ _ _ HM nm k Hin2).
    + intros Hd. rewrite F1, N1. apply (rm_next _ _ _ _ _ _ HM Hd).
    + intros n1 k1 n2 k2 I1 I2 Hlt. destruct (Hin' _ _ I1) as [J1 _]. destruct (Hin' _ _ I2) as [J2 _].
      apply (rm_disj _ _ _ _ _ _ HM n1 k1 n2 k2 J1 J2 Hlt).
    + intros Hd p Hp. assert (Hp' : in_pes s p) by exact Hp. rewrite Hd in Y1.
      destruct (rm_dyn _ _ _ _ _ _ HM Hd p Hp') as (rg & A & B & C & D).
      exists (filter (fun r => negb (fst r =? sb s name p)) rg). rewrite F2, Y1.
      pose proof (slookup_in _ _ _ _ (Hx p Hp')) as [Hxin _].
      destruct (space_base_ne_hd s p _ HI Hp' Hxin) as [G1 G2]. simpl in G1, G2.
      split.
      { rewrite aget_map.
        rewrite (map_combine_zseq _ _ _ (rm_len _ _ _ _ _ _ HM) p rg A). reflexivity. }
      split; [apply filter_In; split; [exact B|simpl; lia]|].
      split; [apply filter_In; split; [exact C|simpl; lia]|].
      intros nm k Hin. destruct (Hin' nm k Hin) as [Hin2 Hne].
      apply filter_In. split; [apply (D nm k Hin2)|]. simpl.
      pose proof (slookup_in _ _ _ _ (si_att s HI nm k p Hin2 Hp')) as [Hyin _].
      pose proof (space_bases_ne s p _ _ HI Hp' Hxin Hyin) as NE. simpl in NE.
      change (sb s' nm p) with (sb s nm p). specialize (NE ltac:(congruence)). lia.
Qed.

(** ** The specification's invariants *)

Lemma fop_app1 {A} (R : A -> A -> Prop) l x :
  ForallOrdPairs R l -> Forall (fun y => R y x) l -> ForallOrdPairs R (l ++ [x]).
Proof.
  induction l as [|a l IH]; intros H F; simpl; [constructor; [constructor|constructor]|].
  inversion H; subst. inversion F; subst. constructor.
  - apply Forall_app. split; [assumption|constructor; [assumption|constructor]].
  - apply IH; assumption.
Qed.

Lemma fop_filter {A} (R : A -> A -> Prop) f l : ForallOrdPairs R l -> ForallOrdPairs R (filter f l).
Proof.
  induction 1 as [|a l H F IH]; simpl; [constructor|].
  destruct (f a); [|exact IH]. constructor; [|exact IH].
  rewrite Forall_forall in *. intros y Hy. apply filter_In in Hy. apply H. tauto.
Qed.

Lemma disj_sym r q : disj r q -> disj q r.
Proof. unfold disj. lia. Qed.

Lemma sinv_set_smem s m : SInv s -> SInv (set_smem s m).
Proof. intros H. constructor; apply H. Qed.

Lemma sinv_set_sp s p l :
  SInv s -> in_pes s p ->
  (forall name k q, In (name, k) (s_att s) -> slookup (set_sp s p l) q name = slookup s q name) ->
  NoDup (map ss_name l) -> Forall (fun x => 0 <= ss_nctx x) l ->
  ForallOrdPairs disj ((s_heap s p, s_htrue s) :: (s_data s p, s_dsize s) ::
     map (fun x => (ss_base x, ss_size x)) l) ->
  Forall (fun r => 0 < fst r /\ 0 < snd r /\ fst r + snd r <= 2 ^ 62) (map (fun x => (ss_base x, ss_size x)) l) ->
  SInv (set_sp s p l).
Proof.
  intros HI Hp Hl ND HN HD HF.
  constructor; try (apply HI).
  - intros q Hq. unfold regions. simpl. destruct (Z.eqb_spec q p) as [->|].
    + exact HD.
    + apply (si_reg s HI q Hq).
  - intros q Hq. pose proof (si_pos s HI q Hq) as P. unfold regions in *. simpl.
    destruct (Z.eqb_spec q p) as [->|]; [|exact P].
    inversion P as [|? ? A P2]; subst. inversion P2 as [|? ? B P3]; subst.
    constructor; [exact A|]. constructor; [exact B|]. exact HF.
  - intros q Hq. simpl. destruct (Z.eqb_spec q p) as [->|]; [exact ND|apply (si_names s HI q Hq)].
  - intros q Hq. simpl. destruct (Z.eqb_spec q p) as [->|]; [exact HN|apply (si_nctx s HI q Hq)].
  - intros name k q Hin Hq. unfold sb, sz, nc. rewrite !(Hl name k _ Hin).
    apply (si_att s HI name k q Hin Hq).
Qed.

Lemma nodup_map_filter {A B} (f : A -> B) (g : A -> bool) l : NoDup (map f l) -> NoDup (map f (filter g l)).
Proof.
  induction l as [|a l IH]; simpl; intros H; [constructor|].
  inversion H; subst. destruct (g a); simpl; [|auto].
  constructor; [|auto]. intros Hin. apply H2. apply in_map_iff in Hin.
  destruct Hin as (y & <- & Hy). apply filter_In in Hy. apply in_map. tauto.
Qed.

Lemma nodup_app1 {A} (l : list A) x : NoDup l -> ~ In x l -> NoDup (l ++ [x]).
Proof.
  induction l as [|a l IH]; simpl; intros H Hn; [constructor; [tauto|constructor]|].
  inversion H; subst. constructor.
  - rewrite in_app_iff. simpl. intuition congruence.
  - apply IH; tauto.
Qed.

Lemma sinv_step s o s' : SInv s -> sstep s o s' -> SInv s'.
Proof.
  intros HI H. destruct H.
  - (* create *)
    assert (Hna : ~ In name (map fst (s_att s))).
    { intros Hin. destruct (in_att_names s name Hin) as (k & Hk).
      rewrite (si_att s HI name k p Hk H) in H0. discriminate. }
    apply sinv_set_sp; auto.
    + intros nm k q Hin. destruct (Z.eq_dec q p) as [->|Hne].
      * rewrite slookup_set_sp_eq, find_app. fold (slookup s p nm).
        rewrite (si_att s HI nm k p Hin H). reflexivity.
      * apply slookup_set_sp_ne. exact Hne.
    + rewrite map_app. simpl. apply nodup_app1; [apply (si_names s HI p H)|].
      intros Hin. apply in_map_iff in Hin. destruct Hin as (x & E & Hx).
      pose proof (find_none _ _ H0 x Hx) as F. simpl in F. lia.
    + apply Forall_app. split; [apply (si_nctx s HI p H)|]. constructor; [simpl; lia|constructor].
    + rewrite map_app. simpl map.
      change (ForallOrdPairs disj (regions s p ++ [(base, size)])).
      apply fop_app1; [apply (si_reg s HI p H)|].
      rewrite Forall_forall in *. intros y Hy. apply disj_sym. auto.
    + rewrite map_app. apply Forall_app. split.
      * pose proof (si_pos s HI p H) as P. unfold regions in P.
        inversion P as [|? ? _ P2]; subst. inversion P2; subst. assumption.
      * constructor; [simpl; lia|constructor].
  - (* destroy *)
    apply sinv_set_sp; auto.
    + intros nm k q Hin. destruct (Z.eq_dec q p) as [->|Hne].
      * rewrite slookup_set_sp_eq, find_filter_ne; [reflexivity|].
        intros ->. apply H0. change name with (fst (name, k)). apply in_map. exact Hin.
      * apply slookup_set_sp_ne. exact Hne.
    + apply nodup_map_filter. apply (si_names s HI p H).
    + pose proof (si_nctx s HI p H) as F. rewrite Forall_forall in *. intros x Hx.
      apply filter_In in Hx. apply F. tauto.
    + pose proof (si_reg s HI p H) as FO. unfold regions in FO.
      assert (Hsub : forall r, In r (map (fun x => (ss_base x, ss_size x))
                 (filter (fun x => negb (ss_name x =? name)) (s_sp s p))) ->
                 In r (map (fun x => (ss_base x, ss_size x)) (s_sp s p))).
      { intros r Hr. apply in_map_iff in Hr. destruct Hr as (x & <- & Hx). apply filter_In in Hx.
        apply in_map_iff. exists x. tauto. }
      inversion FO as [|? ? A FO2]; subst. inversion FO2 as [|? ? B FO3]; subst.
      constructor; [|constructor].
      * rewrite Forall_forall in *. intros y [<-|Hy]; [apply A; left; reflexivity|].
        apply A. right. apply Hsub. exact Hy.
      * rewrite Forall_forall in *. intros y Hy. apply B. apply Hsub. exact Hy.
      * clear - FO3. induction (s_sp s p) as [|a l IH]; simpl in *; [constructor|].
        inversion FO3 as [|? ? F FO4]; subst.
        destruct (negb (ss_name a =? name)); simpl; [|auto].
        constructor; [|auto]. rewrite Forall_forall in *. intros y Hy.
        apply in_map_iff in Hy. destruct Hy as (x & <- & Hx). apply filter_In in Hx.
        apply F. apply in_map_iff. exists x. tauto.
    + pose proof (si_pos s HI p H) as P. unfold regions in P.
      inversion P as [|? ? _ P2]; subst. inversion P2 as [|? ? _ P3]; subst.
      rewrite Forall_forall in *. intros r Hr. apply in_map_iff in Hr.
      destruct Hr as (x & <- & Hx). apply filter_In in Hx. apply P3. apply in_map_iff. exists x. tauto.
  - (* attach *)
    assert (HK : forall nm k, In (nm, k) (s_att s) -> k < s_cnt s)
      by (intros nm k Hin; apply (si_att_rng s HI nm k Hin)).
    pose proof (si_cnt s HI) as HC.
    constructor; try (apply HI); simpl.
    + constructor; [exact H|apply (si_att_names s HI)].
    + constructor; [|apply (si_att_nums s HI)].
      intros Hin. apply in_map_iff in Hin. destruct Hin as ([nm k] & E & Hin). simpl in E.
      specialize (HK nm k Hin). lia.
    + intros nm k [E|Hin].
      * injection E as <- <-. lia.
      * pose proof (si_att_rng s HI nm k Hin). lia.
    + lia.
    + intros nm k p [E|Hin] Hp.
      * injection E as <- <-. destruct (H1 p Hp) as (b & E).
        destruct (H1 0 (in_pes_0 s HI)) as (b0 & E0).
        change (slookup (set_att s ((name, s_cnt s) :: s_att s) (s_cnt s + 1)) p name) with (slookup s p name).
        unfold sb, sz, nc.
        change (slookup (set_att s ((name, s_cnt s) :: s_att s) (s_cnt s + 1)) p name) with (slookup s p name).
        change (slookup (set_att s ((name, s_cnt s) :: s_att s) (s_cnt s + 1)) 0 name) with (slookup s 0 name).
        rewrite E, E0. reflexivity.
      * apply (si_att s HI nm k p Hin Hp).
  - (* detach *)
    constructor; try (apply HI); simpl.
    + apply nodup_map_filter. apply (si_att_names s HI).
    + apply nodup_map_filter. apply (si_att_nums s HI).
    + intros nm k Hin. apply in_filter_att in Hin. apply (si_att_rng s HI nm k). tauto.
    + intros nm k p Hin Hp. apply in_filter_att in Hin. apply (si_att s HI nm k p); tauto.
  - apply sinv_set_smem. exact HI.
  - apply sinv_set_smem. exact HI.
Qed.

Lemma sim_step dyn checks s w o s' :
  SInv s -> Rel dyn s w -> sstep s o s' ->
  exists w', wstep checks w o = Ok w' /\ Rel dyn s' w' /\ SInv s'.
Proof.
  intros HI HR H. pose proof (sinv_step s o s' HI H) as HI'.
  destruct H; simpl.
  - destruct (create_sim dyn checks s w p name base size nctx) as (w' & E & R); auto. eauto.
  - destruct (destroy_sim dyn s w p name) as (w' & E & R); auto. eauto.
  - destruct (attach_sim dyn checks s w name size nctx) as (w' & E & R); auto. eauto.
  - destruct (detach_sim dyn checks s w name) as (w' & E & R); auto. eauto.
  - destruct (put_sim dyn checks s w p c direct esz origin addr nelems t o d b) as (w' & E & R); auto. eauto.
  - destruct (get_sim dyn checks s w p c direct esz origin addr nelems t o d b) as (w' & E & R); auto. eauto.
Qed.

Lemma sim_run dyn checks : forall ops s w s',
  SInv s -> Rel dyn s w -> srun s ops s' ->
  exists w', wrun checks w ops = Ok w' /\ Rel dyn s' w' /\ SInv s'.
Proof.
  induction ops as [|o r IH]; intros s w s' HI HR H; inversion H; subst.
  - exists w. auto.
  - destruct (sim_step dyn checks s w o s1 HI HR H3) as (w1 & E & R1 & I1).
    destruct (IH s1 w1 s' I1 R1 H5) as (w' & E2 & R2 & I2).
    exists w'. simpl. rewrite E. cbn [bind]. auto.
Qed.

(** ** Initial states *)

Lemma map_lay {A B} (f : A -> B) (l : list A) (d : A) :
  map f l = map (fun p => f (nth (Z.to_nat p) l d)) (zseq 0 (length l)).
Proof.
  unfold zseq. rewrite map_map.
  rewrite (map_ext (fun x => f (nth (Z.to_nat (0 + Z.of_nat x)) l d)) (fun x => f (nth x l d)))
    by (intros; do 2 f_equal; lia).
  induction l as [|a l IH]; [reflexivity|]. simpl. f_equal.
  rewrite <- seq_shift, map_map. exact IH.
Qed.

Lemma heap_sizes page env_size :
  (exists k, 0 <= k < 32 /\ page = 2 ^ k) -> 0 < env_size <= 2 ^ 60 ->
  env_size <= heap_size env_size page < env_size + page /\
  heap_size env_size page + 1024 <= heap_true_size env_size page < heap_size env_size page + 1024 + page /\
  heap_size env_size page mod page = 0 /\ heap_true_size env_size page mod page = 0.
Proof.
  intros (k & Hk & ->) He.
  assert (Hp : 0 < 2 ^ k < 2 ^ 32) by (split; [apply Z.pow_pos_nonneg; lia | apply Z.pow_lt_mono_r; lia]).
  unfold heap_true_size, heap_size.
  rewrite (c_align_pow2 env_size k) by lia.
  set (h := (env_size + 2 ^ k - 1) / 2 ^ k * 2 ^ k).
  assert (Hh : env_size <= h < env_size + 2 ^ k).
  { unfold h. pose proof (Z.div_mod (env_size + 2 ^ k - 1) (2 ^ k)).
    pose proof (Z.mod_pos_bound (env_size + 2 ^ k - 1) (2 ^ k)). lia. }
  unfold DLMALLOC_MIN_MSPACE_SIZE.
  rewrite wrap64_id by lia.
  rewrite (c_align_pow2 (h + 1024) k) by lia.
  pose proof (Z.div_mod (h + 1024 + 2 ^ k - 1) (2 ^ k)).
  pose proof (Z.mod_pos_bound (h + 1024 + 2 ^ k - 1) (2 ^ k)).
  split; [lia|]. split; [lia|]. unfold h. split; apply Z.mod_mul; lia.
Qed.

Lemma dyn_attach_aget m f n p l :
  length (m_dyn m) = n -> aget (m_dyn m) p = Some l ->
  aget (m_dyn (dyn_attach m (map f (zseq 0 n)))) p = Some (f p :: l).
Proof.
  intros Hl H. unfold dyn_attach. simpl. rewrite aget_map.
  rewrite (map_combine_zseq f (m_dyn m) n Hl p l H). reflexivity.
Qed.

Lemma dyn_attach_len m f n :
  length (m_dyn m) = n -> length (m_dyn (dyn_attach m (map f (zseq 0 n)))) = n.
Proof.
  intros H. unfold dyn_attach. simpl.
  rewrite map_length, combine_length, map_length, zseq_length, H. apply Nat.min_id.
Qed.

Lemma init_sinv page env_size dsize lay mem :
  config_ok page env_size dsize lay -> SInv (s_init page env_size dsize lay mem).
Proof.
  intros (Hne & Hpg & He & Hd & HF).
  destruct (heap_sizes page env_size Hpg He) as (A & B & _).
  assert (HL : forall p, in_pes (s_init page env_size dsize lay mem) p ->
     In (nth (Z.to_nat p) lay (0, 0)) lay).
  { intros p Hp. apply nth_In. unfold in_pes in Hp. simpl in Hp. lia. }
  rewrite Forall_forall in HF.
  constructor; simpl; try lia.
  - destruct lay; [contradiction|simpl; lia].
  - intros p Hp. destruct (HF _ (HL p Hp)) as (_ & _ & _ & _ & D). unfold regions. simpl.
    constructor; [constructor; [exact D|constructor]|]. constructor; [constructor|constructor].
  - intros p Hp. destruct (HF _ (HL p Hp)) as (H1 & H2 & H3 & H4 & _). unfold regions. simpl.
    constructor; [simpl; lia|]. constructor; [simpl; lia|constructor].
  - intros; constructor.
  - intros; constructor.
  - constructor.
  - constructor.
Qed.

Lemma init_sim dyn page env_size dsize lay mem :
  config_ok page env_size dsize lay ->
  exists w, w_init dyn env_size page dsize lay mem = Ok w /\
    Rel dyn (s_init page env_size dsize lay mem) w /\ SInv (s_init page env_size dsize lay mem).
Proof.
  intros HC. pose proof (init_sinv page env_size dsize lay mem HC) as HI.
  set (s := s_init page env_size dsize lay mem) in *.
  assert (En : np s = length lay) by (unfold np; simpl; lia).
  assert (Eh : map fst lay = map (s_heap s) (zseq 0 (np s)))
    by (rewrite En; apply (map_lay fst lay (0, 0))).
  assert (Ed : map snd lay = map (s_data s) (zseq 0 (np s)))
    by (rewrite En; apply (map_lay snd lay (0, 0))).
  unfold w_init. rewrite Eh, Ed, !map_map.
  set (m0 := mkMpi (if dyn then 1 else 0) [] (map (fun _ : Z * Z => []) lay)).
  assert (L0 : length (m_dyn m0) = np s) by (simpl; rewrite map_length; auto).
  assert (A0 : forall p, 0 <= p < Z.of_nat (np s) -> aget (m_dyn m0) p = Some []).
  { intros p Hp. simpl. rewrite aget_map. rewrite En in Hp.
    destruct (aget_ex lay p Hp) as (a & ->). reflexivity. }
  assert (Hpes : forall hi di (H1 : hi = if dyn then dynictx else mkIctx (Win 1) RelDisp)
       (H2 : di = if dyn then dynictx else mkIctx (Win 0) RelDisp),
     outs (fun i =>
      do ha <- make_attr dyn (map (s_heap s) (zseq 0 (np s))) i (heap_size env_size page) SYMM_HEAP 0;
      do da <- make_attr dyn (map (s_data s) (zseq 0 (np s))) i dsize SYMM_DATA 0;
      Ok (mkPe ha hi da di [] 0 (mem i))) 0 (length lay)
     = Ok (map (fun i => xpe dyn s (fun _ => 0) 1 0 i (mem i)) (zseq 0 (np s)))).
  { intros hi di -> ->. rewrite <- En. apply outs_ok. intros i Hi.
    rewrite !make_attr_ok by lia. reflexivity. }
  destruct dyn.
  - cbv zeta. rewrite Hpes by reflexivity. cbn [bind].
    eexists; split; [reflexivity|]. split; [|exact HI].
    split; [reflexivity|]. split; [simpl; rewrite map_length, zseq_length; reflexivity|].
    exists (fun _ => 0), 1, 0. split.
    + intros p Hp. exists (mem p). split; [|reflexivity].
      simpl w_pes. rewrite aget_zmap by (apply np_pos; assumption). reflexivity.
    + constructor; try discriminate; try solve [intros ? ? []]; try solve [intros ? ? ? []]; try solve [intros ? ? ? ? []].
      * apply dyn_attach_len. apply dyn_attach_len. exact L0.
      * intros _. unfold DYN_WIN. simpl. lia.
      * intros _ p Hp. simpl w_mpi.
        exists [(s_heap s p, s_htrue s); (s_data s p, s_dsize s)].
        split; [|split; [left; reflexivity|split; [right; left; reflexivity|intros ? ? []]]].
        apply (dyn_attach_aget _ (fun p => (s_heap s p, s_htrue s))); [apply dyn_attach_len; exact L0|].
        apply (dyn_attach_aget _ (fun p => (s_data s p, s_dsize s))); [exact L0|].
        apply A0. apply np_pos; assumption.
  - unfold win_create. cbn [fst snd m_next m_wins m_dyn m0]. rewrite Hpes by reflexivity. cbn [bind].
    eexists; split; [reflexivity|]. split; [|exact HI].
    split; [reflexivity|]. split; [simpl; rewrite map_length, zseq_length; reflexivity|].
    exists (fun _ => 0), 1, 0. split.
    + intros p Hp. exists (mem p). split; [|reflexivity].
      simpl w_pes. rewrite aget_zmap by (apply np_pos; assumption). reflexivity.
    + constructor; try discriminate; try solve [intros ? ? []]; try solve [intros ? ? ? []]; try solve [intros ? ? ? ? []].
      * simpl. rewrite map_length. auto.
      * intros _. split; [reflexivity|simpl; lia].
      * intros _. split; [reflexivity|simpl; lia].
Qed.

(** Any valid history from any initial layout runs and ends in related states. *)
Lemma sim_history dyn checks page env_size dsize lay mem ops s' :
  config_ok page env_size dsize lay ->
  srun (s_init page env_size dsize lay mem) ops s' ->
  exists w0 w', w_init dyn env_size page dsize lay mem = Ok w0 /\
    wrun checks w0 ops = Ok w' /\ Rel dyn s' w' /\ SInv s'.
Proof.
  intros HC HR. destruct (init_sim dyn page env_size dsize lay mem HC) as (w0 & E0 & R0 & I0).
  destruct (sim_run dyn checks ops _ w0 s' I0 R0 HR) as (w' & E & R & I).
  exists w0, w'. auto.
Qed.

Lemma rel_mem dyn s w : SInv s -> Rel dyn s w -> mem_agrees s w.
Proof.
  intros HI (Hw & Hlen & lo & hw & dw & HP & HM).
  pose proof (si_n s HI) as Hn.
  split; [rewrite Hlen; unfold np; lia|].
  intros p q x Hq. pose proof (aget_some _ _ _ Hq) as Hr. rewrite Hlen in Hr.
  destruct (HP p (in_np s p Hr)) as (m & E & Hm). rewrite Hq in E. injection E as ->. apply Hm.
Qed.
