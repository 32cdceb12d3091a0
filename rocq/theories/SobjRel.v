(** Simulation relation between the model of symmetric objects and the specification. *)
From Verif Require Import Base BaseProofs SobjModel SobjSpec SobjProofs.

Definition att_num (att : list (Z * Z)) (name : Z) : option Z :=
  option_map snd (find (fun e => fst e =? name) att).

Definition np (s : sst) : nat := Z.to_nat (s_n s).
Definition sb (s : sst) (name p : Z) : Z :=
  match slookup s p name with Some x => ss_base x | None => 0 end.
Definition sz (s : sst) (name : Z) : Z :=
  match slookup s 0 name with Some x => ss_size x | None => 0 end.
Definition nc (s : sst) (name : Z) : Z :=
  match slookup s 0 name with Some x => ss_nctx x | None => 0 end.

Definition dynictx : ictx := mkIctx (Win DYN_WIN) AbsDisp.
Definition off (dyn : bool) : Z := if dyn then 0 else 1.

Definition xspace0 (dyn : bool) (x : sspace) : space :=
  mkSpace (ss_name x) (mkAttr (set_handle SPACE_HEAP 0 0) (ss_base x) (ss_size x) None)
          (if dyn then dynictx else mkIctx WinNull RelDisp) (ss_nctx x) None.
Definition xspace1 (dyn : bool) (n : nat) (bf : Z -> Z) (lo k p : Z) (x : sspace) : space :=
  let a := xattr dyn n bf p (ss_size x) SPACE_ATTACHED_HEAP k in
  mkSpace (ss_name x) a (if dyn then dynictx else mkIctx (Win lo) RelDisp) (ss_nctx x)
    (if 0 <? ss_nctx x
     then Some (map (fun j => mkCtx (mkIctx (Win (lo + off dyn + j)) RelDisp) a)
                    (zseq 0 (Z.to_nat (ss_nctx x))))
     else None).
Definition xspace (dyn : bool) (s : sst) (lo : Z -> Z) (p : Z) (x : sspace) : space :=
  match att_num (s_att s) (ss_name x) with
  | None => xspace0 dyn x
  | Some k => xspace1 dyn (np s) (sb s (ss_name x)) (lo k) k p x
  end.

Definition xpe (dyn : bool) (s : sst) (lo : Z -> Z) (hw dw : Z) (p : Z) (m : Z -> Z) : pe :=
  mkPe (xattr dyn (np s) (s_heap s) p (s_hsize s) SYMM_HEAP 0)
       (if dyn then dynictx else mkIctx (Win hw) RelDisp)
       (xattr dyn (np s) (s_data s) p (s_dsize s) SYMM_DATA 0)
       (if dyn then dynictx else mkIctx (Win dw) RelDisp)
       (map (xspace dyn s lo p) (s_sp s p)) (s_cnt s) m.

Definition wfind (m : mpi) (k : Z) : option (list (Z * Z)) :=
  option_map snd (find (fun e => fst e =? k) (m_wins m)).

Record RelMpi (dyn : bool) (s : sst) (lo : Z -> Z) (hw dw : Z) (m : mpi) : Prop := {
  rm_len : length (m_dyn m) = np s;
  rm_heap : dyn = false ->
    wfind m hw = Some (map (fun p => (s_heap s p, s_htrue s)) (zseq 0 (np s))) /\ hw < m_next m;
  rm_data : dyn = false ->
    wfind m dw = Some (map (fun p => (s_data s p, s_dsize s)) (zseq 0 (np s))) /\ dw < m_next m;
  rm_win : forall name k i, In (name, k) (s_att s) -> 0 <= i < off dyn + nc s name ->
    wfind m (lo k + i) = Some (map (fun p => (sb s name p, sz s name)) (zseq 0 (np s)));
  rm_hi : forall name k, In (name, k) (s_att s) -> lo k + off dyn + nc s name <= m_next m;
  rm_lo : forall name k, In (name, k) (s_att s) ->
    if dyn then 0 < lo k else hw < lo k /\ dw < lo k;
  rm_next : dyn = true -> 0 < m_next m;
  rm_disj : forall n1 k1 n2 k2, In (n1, k1) (s_att s) -> In (n2, k2) (s_att s) -> k1 < k2 ->
    lo k1 + off dyn + nc s n1 <= lo k2;
  rm_dyn : dyn = true -> forall p, in_pes s p -> exists regs, aget (m_dyn m) p = Some regs /\
    In (s_heap s p, s_htrue s) regs /\ In (s_data s p, s_dsize s) regs /\
    (forall name k, In (name, k) (s_att s) -> In (sb s name p, sz s name) regs) }.

(** Facts about abstract states reached by valid histories. *)
Record SInv (s : sst) : Prop := {
  si_n : 0 < s_n s;
  si_hs : s_hsize s <= s_htrue s;
  si_hs0 : 0 < s_hsize s;
  si_reg : forall p, in_pes s p -> ForallOrdPairs disj (regions s p);
  si_pos : forall p, in_pes s p ->
    Forall (fun r => 0 < fst r /\ 0 < snd r /\ fst r + snd r <= 2 ^ 62) (regions s p);
  si_names : forall p, in_pes s p -> NoDup (map ss_name (s_sp s p));
  si_nctx : forall p, in_pes s p -> Forall (fun x => 0 <= ss_nctx x) (s_sp s p);
  si_att_names : NoDup (map fst (s_att s));
  si_att_nums : NoDup (map snd (s_att s));
  si_att_rng : forall name k, In (name, k) (s_att s) -> 0 <= k < s_cnt s;
  si_cnt : 0 <= s_cnt s <= 2 ^ 29;
  si_att : forall name k p, In (name, k) (s_att s) -> in_pes s p ->
    slookup s p name = Some (mkSS name (sb s name p) (sz s name) (nc s name)) }.

Definition Rel (dyn : bool) (s : sst) (w : world) : Prop :=
  w_dyn w = dyn /\ length (w_pes w) = np s /\
  exists lo hw dw,
    (forall p, in_pes s p -> exists m, aget (w_pes w) p = Some (xpe dyn s lo hw dw p m) /\
                                       forall a, m a = s_mem s p a) /\
    RelMpi dyn s lo hw dw (w_mpi w).

(** ** Small facts *)

Lemma np_pos s p : SInv s -> in_pes s p -> 0 <= p < Z.of_nat (np s).
Proof. intros H Hp. unfold np, in_pes in *. lia. Qed.

Lemma in_np s p : 0 <= p < Z.of_nat (np s) -> in_pes s p.
Proof. unfold np, in_pes. lia. Qed.

Lemma slookup_in s p name x : slookup s p name = Some x -> In x (s_sp s p) /\ ss_name x = name.
Proof. intros H. apply find_some in H. destruct H as [H1 H2]. apply Z.eqb_eq in H2. auto. Qed.

Lemma find_none_iff {A} (f : A -> bool) l : (forall x, In x l -> f x = false) -> find f l = None.
Proof.
  induction l as [|a l IH]; intros H; [reflexivity|]. simpl.
  rewrite (H a) by (left; reflexivity). apply IH. intros; apply H; right; assumption.
Qed.

Lemma find_ext' {A} (f g : A -> bool) l : (forall x, In x l -> f x = g x) -> find f l = find g l.
Proof.
  induction l as [|a l IH]; intros H; [reflexivity|]. simpl.
  rewrite (H a) by (left; reflexivity). destruct (g a); [reflexivity|].
  apply IH. intros; apply H; right; assumption.
Qed.

(** If exactly one element of the list satisfies [f], [find] returns it. *)
Lemma find_unique {A} (f : A -> bool) l x :
  In x l -> f x = true -> (forall y, In y l -> f y = true -> y = x) -> find f l = Some x.
Proof.
  intros Hin Hf Hu. destruct (find f l) eqn:E.
  - apply find_some in E. f_equal. apply Hu; tauto.
  - exfalso. pose proof (find_none f l E x Hin). congruence.
Qed.

Lemma find_map {A B} (f : B -> bool) (g : A -> B) l :
  find f (map g l) = option_map g (find (fun x => f (g x)) l).
Proof. induction l as [|a l IH]; [reflexivity|]. simpl. destruct (f (g a)); auto. Qed.

Lemma slookup_unique s p x :
  SInv s -> in_pes s p -> In x (s_sp s p) -> slookup s p (ss_name x) = Some x.
Proof.
  intros HI Hp Hx. apply find_unique; [exact Hx | lia |].
  intros y Hy E. apply Z.eqb_eq in E.
  pose proof (si_names s HI p Hp) as ND.
  clear - Hx Hy E ND. induction (s_sp s p) as [|a l IH]; [destruct Hx|].
  simpl in ND. inversion ND as [|? ? Hn ND2]; subst.
  destruct Hx as [->|Hx], Hy as [->|Hy]; auto.
  - exfalso. apply Hn. rewrite <- E. apply in_map. exact Hy.
  - exfalso. apply Hn. rewrite E. apply in_map. exact Hx.
Qed.

Lemma att_num_some att name k : att_num att name = Some k -> In (name, k) att.
Proof.
  unfold att_num. destruct (find _ att) as [[a b]|] eqn:E; [|discriminate].
  intros H. injection H as <-. apply find_some in E. destruct E as [E1 E2].
  simpl in E2. apply Z.eqb_eq in E2. subst. exact E1.
Qed.

Lemma att_num_none att name : att_num att name = None <-> ~ In name (map fst att).
Proof.
  unfold att_num. split.
  - destruct (find _ att) as [[a b]|] eqn:E; [discriminate|]. intros _ Hin.
    apply in_map_iff in Hin. destruct Hin as ([a b] & <- & Hin).
    pose proof (find_none _ _ E _ Hin) as H. simpl in H. lia.
  - intros H. rewrite find_none_iff; [reflexivity|].
    intros [a b] Hin. simpl. apply Z.eqb_neq. intros ->. apply H.
    change name with (fst (name, b)). apply in_map. exact Hin.
Qed.

Lemma att_num_in att name k : NoDup (map fst att) -> In (name, k) att -> att_num att name = Some k.
Proof.
  intros ND Hin. unfold att_num. rewrite (find_unique _ _ (name, k)); [reflexivity | exact Hin | simpl; lia|].
  intros [a b] Hy E. simpl in E. apply Z.eqb_eq in E. subst.
  clear - ND Hin Hy. induction att as [|e l IH]; [destruct Hin|].
  simpl in ND. inversion ND as [|? ? Hn ND2]; subst.
  destruct Hin as [->|Hx], Hy as [Hy|Hy]; auto.
  - exfalso. apply Hn. change (fst (name, k)) with (fst (name, b)). apply in_map. exact Hy.
  - subst. exfalso. apply Hn. simpl. change name with (fst (name, k)). apply in_map. exact Hx.
Qed.

Lemma fop_in {A} (R : A -> A -> Prop) l : ForallOrdPairs R l ->
  forall x y, In x l -> In y l -> x = y \/ R x y \/ R y x.
Proof.
  intros H x y Hx Hy. destruct (ForallOrdPairs_In H x y Hx Hy) as [|[|]]; auto.
Qed.

(** ** Resolving a symmetric address *)

Definition okind (o : obj) : Z :=
  match o with OHeap => SYMM_HEAP | OData => SYMM_DATA | OSpace _ => SPACE_ATTACHED_HEAP end.

(** The attribute and window an access uses belong to object [o]. *)
Definition resolves (dyn : bool) (s : sst) (m : mpi) (p : Z) (o : obj) (x : attr * ictx)
    (bf : Z -> Z) (size idx : Z) : Prop :=
  fst x = xattr dyn (np s) bf p size (okind o) idx /\ 0 <= idx < 2 ^ 29 /\
  (forall t, in_pes s t -> sbase s t o = Some (bf t) /\ 0 < bf t) /\ ssize s p o = Some size /\
  (match o with OSpace name => In (name, idx) (s_att s) | _ => idx = 0 end) /\
  ((dyn = true /\ snd x = dynictx /\
    forall t, in_pes s t -> exists regs z, aget (m_dyn m) t = Some regs /\ In (bf t, z) regs /\ size <= z)
   \/
   (exists k z, snd x = mkIctx (Win k) RelDisp /\ (dyn = true -> k <> DYN_WIN) /\ size <= z /\
      wfind m k = Some (map (fun t => (bf t, z)) (zseq 0 (np s))))).

Lemma region_in s p x : In x (s_sp s p) -> In (ss_base x, ss_size x) (regions s p).
Proof.
  intros H. unfold regions. right; right.
  change (ss_base x, ss_size x) with ((fun x => (ss_base x, ss_size x)) x). apply in_map. exact H.
Qed.

(** Two regions of a PE that share an address are the same region. *)
Lemma region_share s p r q a :
  SInv s -> in_pes s p -> In r (regions s p) -> In q (regions s p) ->
  fst r <= a < fst r + snd r -> fst q <= a < fst q + snd q -> r = q.
Proof.
  intros HI Hp Hr Hq H1 H2.
  destruct (fop_in _ _ (si_reg s HI p Hp) r q Hr Hq) as [E|[E|E]]; [exact E| |];
    unfold disj in E; lia.
Qed.

Lemma heap_not_other s p q a :
  SInv s -> in_pes s p -> In q (tl (regions s p)) ->
  fst q <= a < fst q + snd q -> ~ (s_heap s p <= a < s_heap s p + s_hsize s).
Proof.
  intros HI Hp Hq H2 H1. pose proof (si_reg s HI p Hp) as H. unfold regions in *.
  inversion H as [|? ? F]; subst. rewrite Forall_forall in F. simpl in Hq.
  specialize (F q Hq). unfold disj in F. simpl in F. pose proof (si_hs s HI). lia.
Qed.

Lemma data_not_space s p q a :
  SInv s -> in_pes s p -> In q (tl (tl (regions s p))) ->
  fst q <= a < fst q + snd q -> ~ (s_data s p <= a < s_data s p + s_dsize s).
Proof.
  intros HI Hp Hq H2 H1. pose proof (si_reg s HI p Hp) as H. unfold regions in *.
  inversion H as [|? ? _ H3]; subst. inversion H3 as [|? ? F]; subst.
  rewrite Forall_forall in F. simpl in Hq.
  specialize (F q Hq). unfold disj in F. simpl in F. lia.
Qed.

Lemma xspace_name dyn s lo p x : sp_name (xspace dyn s lo p x) = ss_name x.
Proof. unfold xspace. destruct (att_num _ _); reflexivity. Qed.
Lemma xspace_base dyn s lo p x :
  SInv s -> in_pes s p -> In x (s_sp s p) -> a_base (sp_attr (xspace dyn s lo p x)) = ss_base x.
Proof.
  intros HI Hp Hx. unfold xspace. destruct (att_num _ _) eqn:E; [|reflexivity].
  simpl. unfold sb. rewrite (slookup_unique s p x HI Hp Hx). reflexivity.
Qed.
Lemma xspace_size dyn s lo p x : a_size (sp_attr (xspace dyn s lo p x)) = ss_size x.
Proof. unfold xspace. destruct (att_num _ _); reflexivity. Qed.

Lemma check_range_iff a at_ :
  check_range a at_ = true <-> a_base at_ <= a < a_base at_ + a_size at_.
Proof. unfold check_range. lia. Qed.

Lemma in_att_names s name : In name (map fst (s_att s)) -> exists k, In (name, k) (s_att s).
Proof. intros H. apply in_map_iff in H. destruct H as ([a k] & <- & H). eauto. Qed.

Lemma pos_of s p r :
  SInv s -> in_pes s p -> In r (regions s p) -> 0 < fst r /\ 0 < snd r /\ fst r + snd r <= 2 ^ 62.
Proof. intros HI Hp Hr. pose proof (si_pos s HI p Hp) as H. rewrite Forall_forall in H. auto. Qed.

Lemma sspace_resolves dyn s lo hw dw m p name k (c : ictx) :
  SInv s -> RelMpi dyn s lo hw dw m -> in_pes s p -> In (name, k) (s_att s) ->
  (c = (if dyn then dynictx else mkIctx (Win (lo k)) RelDisp) \/
   exists j, 0 <= j < nc s name /\ c = mkIctx (Win (lo k + off dyn + j)) RelDisp) ->
  resolves dyn s m p (OSpace name)
    (xattr dyn (np s) (sb s name) p (sz s name) SPACE_ATTACHED_HEAP k, c) (sb s name) (sz s name) k.
Proof.
  intros HI HM Hp Hin Hc. unfold resolves. cbn [fst snd okind].
  split; [reflexivity|]. split; [pose proof (si_att_rng s HI _ _ Hin); pose proof (si_cnt s HI); lia|].
  split.
  { intros t Ht. unfold sbase. pose proof (si_att s HI name k t Hin Ht) as E. rewrite E.
    simpl. split; [reflexivity|].
    apply slookup_in in E. destruct E as [E _]. apply region_in in E.
    apply (pos_of s t _ HI Ht E). }
  split.
  { unfold ssize. rewrite (si_att s HI name k p Hin Hp). reflexivity. }
  split; [exact Hin|].
  destruct Hc as [->|(j & Hj & ->)].
  - destruct dyn.
    + left. split; [reflexivity|]. split; [reflexivity|].
      intros t Ht. destruct (rm_dyn _ _ _ _ _ _ HM eq_refl t Ht) as (regs & E & _ & _ & H).
      exists regs, (sz s name). split; [exact E|]. split; [apply (H name k Hin)|lia].
    + right. exists (lo k), (sz s name). split; [reflexivity|].
      split; [discriminate|]. split; [lia|].
      replace (lo k) with (lo k + 0) by lia. apply (rm_win _ _ _ _ _ _ HM name k 0 Hin).
      unfold off. pose proof (si_att s HI name k p Hin Hp) as E. apply slookup_in in E.
      destruct E as [E _]. pose proof (si_nctx s HI p Hp) as F. rewrite Forall_forall in F.
      specialize (F _ E). simpl in F. lia.
  - right. exists (lo k + off dyn + j), (sz s name). split; [reflexivity|].
    split.
    { intros ->. pose proof (rm_lo _ _ _ _ _ _ HM name k Hin) as H. simpl in H.
      unfold DYN_WIN, off. lia. }
    split; [lia|].
    replace (lo k + off dyn + j) with (lo k + (off dyn + j)) by lia.
    apply (rm_win _ _ _ _ _ _ HM name k _ Hin). unfold off. destruct dyn; lia.
Qed.

Lemma query_resolves dyn s lo hw dw m checks p c addr o d len mem :
  SInv s -> RelMpi dyn s lo hw dw m -> in_pes s p ->
  sym_addr s p c addr o d len -> 0 < len ->
  exists x bf size idx,
    query_checked checks (xpe dyn s lo hw dw p mem) c addr = Ok x /\
    resolves dyn s m p o x bf size idx /\ addr = bf p + d /\ 0 <= d /\ d + len <= size.
Proof.
  intros HI HM Hp (Hl & Hc & Hd & b & z & Hb & Hz & Ha & Hlen) Hpos.
  pose proof (np_pos s p HI Hp) as Hnp.
  destruct c as [|cn j].
  - (* default context *)
    unfold query_checked, query_attr_ictx.
    destruct o as [| |name]; simpl in Hb, Hz.
    + injection Hb as <-. injection Hz as <-.
      assert (E : check_range addr (pe_heap (xpe dyn s lo hw dw p mem)) = true)
        by (apply check_range_iff; simpl; lia).
      rewrite E. simpl.
      eexists _, (s_heap s), (s_hsize s), 0. split; [reflexivity|].
      split; [|split; [lia|lia]].
      split; [reflexivity|]. split; [lia|]. split.
      { intros t Ht. split; [reflexivity|].
        apply (pos_of s t (s_heap s t, s_htrue s) HI Ht). left; reflexivity. }
      split; [reflexivity|]. split; [reflexivity|]. simpl.
      destruct dyn.
      * left. split; [reflexivity|]. split; [reflexivity|]. intros t Ht.
        destruct (rm_dyn _ _ _ _ _ _ HM eq_refl t Ht) as (regs & E2 & Hin & _).
        exists regs, (s_htrue s). split; [exact E2|]. split; [exact Hin | apply (si_hs s HI)].
      * right. exists hw, (s_htrue s). split; [reflexivity|]. split; [discriminate|].
        split; [apply (si_hs s HI)|]. apply (rm_heap _ _ _ _ _ _ HM eq_refl).
    + injection Hb as <-. injection Hz as <-.
      assert (E : check_range addr (pe_heap (xpe dyn s lo hw dw p mem)) = false).
      { apply not_true_is_false. rewrite check_range_iff. simpl.
        apply (heap_not_other s p (s_data s p, s_dsize s) addr HI Hp); [left; reflexivity|].
        simpl. lia. }
      assert (E2 : check_range addr (pe_data (xpe dyn s lo hw dw p mem)) = true)
        by (apply check_range_iff; simpl; lia).
      rewrite E, E2. simpl.
      eexists _, (s_data s), (s_dsize s), 0. split; [reflexivity|].
      split; [|split; [lia|lia]].
      split; [reflexivity|]. split; [lia|]. split.
      { intros t Ht. split; [reflexivity|].
        apply (pos_of s t (s_data s t, s_dsize s) HI Ht). right; left; reflexivity. }
      split; [reflexivity|]. split; [reflexivity|]. simpl.
      destruct dyn.
      * left. split; [reflexivity|]. split; [reflexivity|]. intros t Ht.
        destruct (rm_dyn _ _ _ _ _ _ HM eq_refl t Ht) as (regs & E3 & _ & Hin & _).
        exists regs, (s_dsize s). split; [exact E3|]. split; [exact Hin | lia].
      * right. exists dw, (s_dsize s). split; [reflexivity|]. split; [discriminate|].
        split; [lia|]. apply (rm_data _ _ _ _ _ _ HM eq_refl).
    + destruct (slookup s p name) as [x|] eqn:Ex; [|discriminate]. simpl in Hb, Hz.
      injection Hb as <-. injection Hz as <-.
      destruct (slookup_in s p name x Ex) as [Hx Hn].
      pose proof (region_in s p x Hx) as Hr.
      assert (E : check_range addr (pe_heap (xpe dyn s lo hw dw p mem)) = false).
      { apply not_true_is_false. rewrite check_range_iff. simpl.
        apply (heap_not_other s p (ss_base x, ss_size x) addr HI Hp).
        - simpl. right. apply in_map_iff. exists x; auto.
        - simpl. lia. }
      assert (E2 : check_range addr (pe_data (xpe dyn s lo hw dw p mem)) = false).
      { apply not_true_is_false. rewrite check_range_iff. simpl.
        apply (data_not_space s p (ss_base x, ss_size x) addr HI Hp).
        - simpl. apply in_map_iff. exists x; auto.
        - simpl. lia. }
      rewrite E, E2. simpl pe_spaces. rewrite find_map.
      assert (F : find (fun y => check_range addr (sp_attr (xspace dyn s lo p y))) (s_sp s p) = Some x).
      { apply find_unique; [exact Hx| |].
        - apply check_range_iff. rewrite xspace_base, xspace_size by assumption. lia.
        - intros y Hy Ey. apply check_range_iff in Ey.
          rewrite xspace_base, xspace_size in Ey by assumption.
          assert (R : (ss_base y, ss_size y) = (ss_base x, ss_size x)).
          { apply (region_share s p _ _ addr HI Hp (region_in s p y Hy) Hr); simpl; lia. }
          pose proof (si_reg s HI p Hp) as FO. unfold regions in FO.
          inversion FO as [|? ? _ FO2]; subst. inversion FO2 as [|? ? _ FO3]; subst.
          injection R as R1 R2. clear - FO3 Hx Hy R1 R2 Hpos Hlen Hd.
          induction (s_sp s p) as [|a l IH]; [destruct Hx|].
          simpl in FO3. inversion FO3 as [|? ? F FO4]; subst. rewrite Forall_forall in F.
          destruct Hx as [->|Hx], Hy as [->|Hy]; auto.
          + exfalso. specialize (F (ss_base y, ss_size y)). unfold disj in F. simpl in F.
            destruct F as [F|F]; [apply in_map_iff; exists y; auto | lia | lia].
          + exfalso. specialize (F (ss_base x, ss_size x)). unfold disj in F. simpl in F.
            destruct F as [F|F]; [apply in_map_iff; exists x; auto | lia | lia]. }
      rewrite F. simpl.
      simpl in Hl. destruct (in_att_names s name Hl) as (k & Hk).
      pose proof (si_att s HI name k p Hk Hp) as Es. rewrite Ex in Es. injection Es as Es.
      assert (Ek : att_num (s_att s) name = Some k) by (apply att_num_in; [apply (si_att_names s HI)|exact Hk]).
      unfold xspace. rewrite Hn, Ek.
      eexists _, (sb s name), (sz s name), k.
      split; [reflexivity|]. split.
      { replace (sp_attr (xspace1 dyn (np s) (sb s name) (lo k) k p x))
          with (xattr dyn (np s) (sb s name) p (sz s name) SPACE_ATTACHED_HEAP k)
          by (simpl; rewrite Es; reflexivity).
        apply (sspace_resolves dyn s lo hw dw m p name k _ HI HM Hp Hk). left. reflexivity. }
      rewrite Es in *. simpl in *. split; [lia|lia].
  - (* explicit context *)
    destruct Hc as (-> & x & Ex & Hj). simpl in Hl, Hb, Hz. rewrite Ex in Hb, Hz. simpl in Hb, Hz.
    injection Hb as <-. injection Hz as <-.
    destruct (in_att_names s cn Hl) as (k & Hk).
    pose proof (si_att s HI cn k p Hk Hp) as Es. rewrite Ex in Es. injection Es as Es.
    assert (Ek : att_num (s_att s) cn = Some k) by (apply att_num_in; [apply (si_att_names s HI)|exact Hk]).
    destruct (slookup_in s p cn x Ex) as [Hx Hn].
    assert (Ef : find_space (xpe dyn s lo hw dw p mem) cn = Some (xspace dyn s lo p x)).
    { unfold find_space. simpl. rewrite find_map.
      erewrite find_ext'; [|intros y _; rewrite xspace_name; reflexivity].
      unfold slookup in Ex. rewrite Ex. reflexivity. }
    unfold query_checked, query_attr_ictx. rewrite Ef. simpl bind.
    unfold xspace. rewrite Hn, Ek.
    assert (Hnc : ss_nctx x = nc s cn) by (rewrite Es; reflexivity).
    unfold xspace1. simpl sp_ctxs.
    destruct (Z.ltb_spec 0 (ss_nctx x)); [|lia]. simpl bind.
    rewrite aget_zmap by lia. simpl.
    eexists _, (sb s cn), (sz s cn), k. split; [reflexivity|]. split.
    { replace (ss_size x) with (sz s cn) by (rewrite Es; reflexivity).
      apply (sspace_resolves dyn s lo hw dw m p cn k _ HI HM Hp Hk). right.
      exists j. split; [lia|reflexivity]. }
    rewrite Es in *. simpl in *. split; lia.
Qed.

Lemma okind_rng o : 0 <= okind o < 4.
Proof. destruct o; simpl; unfold SYMM_HEAP, SYMM_DATA, SPACE_ATTACHED_HEAP; lia. Qed.

Lemma existsb_reg regs b z d len :
  In (b, z) regs -> 0 <= d -> d + len <= z ->
  existsb (fun r => (fst r <=? b + d) && (b + d + len <=? fst r + snd r)) regs = true.
Proof. intros H Hd Hl. apply existsb_exists. exists (b, z). split; [exact H|]. simpl. lia. Qed.

Lemma direct_resolved dyn s w checks p t o x bf size idx d len :
  SInv s -> in_pes s p -> in_pes s t -> w_dyn w = dyn -> resolves dyn s (w_mpi w) p o x bf size idx ->
  0 <= d -> d + len <= size ->
  exists dd, direct_disp checks w x (bf p + d) t = Ok dd /\ mpi_target w x t dd len = Ok (bf t + d) /\
    forall d' len', 0 <= d + d' -> d + d' + len' <= size -> mpi_target w x t (dd + d') len' = Ok (bf t + d + d').
Proof.
  intros HI Hp Ht Hw (Ha & Hi & Hb & Hs & _ & HW) Hd Hlen.
  pose proof (np_pos s p HI Hp) as Hnp. pose proof (np_pos s t HI Ht) as Hnt.
  destruct x as [a c]. simpl in Ha. subst a. destruct (Hb t Ht) as [Hbt Hbp].
  destruct HW as [(Hdyn & Hc & HR)|(k & z & Hc & Hk & Hz & HW)]; simpl in Hc; subst c.
  - exists (bf t + d).
    assert (G : forall d' len', 0 <= d + d' -> d + d' + len' <= size ->
       mpi_target w (xattr dyn (np s) bf p size (okind o) idx, dynictx) t (bf t + d + d') len' = Ok (bf t + d + d')).
    { intros d' len' H1 H2. unfold mpi_target, win_target. simpl. rewrite Hw, Hdyn. simpl.
      destruct (HR t Ht) as (regs & z & E & Hin & Hz). rewrite E.
      replace (bf t + d + d') with (bf t + (d + d')) by lia.
      rewrite (existsb_reg regs (bf t) z (d + d') len' Hin) by lia. reflexivity. }
    split; [|split; [|exact G]].
    + unfold direct_disp, ictx_mode. rewrite Hw, Hdyn. simpl ic_mode. cbn [fst snd].
      rewrite abs_disp_ok by (try apply okind_rng; assumption). simpl.
      unfold c_assert. destruct (Z.leb_spec 0 (bf t + d)); [reflexivity|lia].
    + replace (bf t + d) with (bf t + d + 0) at 1 2 by lia. apply G; lia.
  - exists d.
    assert (G : forall d' len', 0 <= d + d' -> d + d' + len' <= size ->
       mpi_target w (xattr dyn (np s) bf p size (okind o) idx, mkIctx (Win k) RelDisp) t (d + d') len' = Ok (bf t + d + d')).
    { intros d' len' H1 H2. unfold mpi_target, win_target. simpl. rewrite Hw.
      replace (dyn && (k =? DYN_WIN)) with false
        by (destruct dyn; [specialize (Hk eq_refl); unfold DYN_WIN in *; simpl; lia | reflexivity]).
      unfold wfind in HW. destruct (find (fun e => fst e =? k) (m_wins (w_mpi w))) as [[k2 l]|]; [|discriminate].
      simpl in HW. injection HW as ->. rewrite aget_zmap by assumption.
      replace ((0 <=? d + d') && (d + d' + len' <=? z)) with true by lia. f_equal. lia. }
    split; [|split; [|exact G]].
    + unfold direct_disp, ictx_mode. rewrite Hw. cbn [fst snd ic_mode].
      rewrite rel_disp_ok by (destruct dyn; auto). simpl.
      unfold c_assert. destruct (Z.leb_spec 0 d); [reflexivity|lia].
    + replace d with (d + 0) at 1 by lia. rewrite G by lia. f_equal; lia.
Qed.

Lemma am_resolved dyn s lo hw dw w checks p t o x bf size idx d mem :
  SInv s -> in_pes s p -> in_pes s t -> w_dyn w = dyn -> resolves dyn s (w_mpi w) p o x bf size idx ->
  0 <= d ->
  am_disp checks w x (bf p + d) t = Ok d /\
  am_target checks (xpe dyn s lo hw dw t mem) (a_handle (fst x)) d = Ok (bf t + d).
Proof.
  intros HI Hp Ht Hw (Ha & Hi & Hb & Hs & Ho & _) Hd.
  pose proof (np_pos s p HI Hp) as Hnp. pose proof (np_pos s t HI Ht) as Hnt.
  destruct (Hb t Ht) as [Hbt Hbp].
  split.
  - unfold am_disp. rewrite Ha, Hw. rewrite rel_disp_ok by auto. simpl.
    unfold c_assert. destruct (Z.leb_spec 0 d); [reflexivity|lia].
  - unfold am_target.
    assert (E : disp_to_vaddr (xpe dyn s lo hw dw t mem) (a_handle (fst x)) d = Ok (bf t + d)).
    { unfold disp_to_vaddr.
      replace (handle_kind (a_handle (fst x))) with (okind o).
      2:{ rewrite Ha. unfold xattr. simpl.
          destruct (handle_decode (okind o) (if dyn && all_eq (np s) bf p then 1 else 0) idx) as (E & _ & _);
            [apply okind_rng | destruct (_ && _); lia | lia | rewrite E; reflexivity]. }
      destruct o as [| |name]; simpl okind in *; simpl.
      - simpl in Hbt. injection Hbt as <-. reflexivity.
      - simpl in Hbt. injection Hbt as <-. reflexivity.
      - rewrite find_map.
        pose proof (si_att s HI name idx t Ho Ht) as El.
        destruct (slookup_in _ _ _ _ El) as [Hin Hn].
        assert (Ek : att_num (s_att s) name = Some idx) by (apply att_num_in; [apply (si_att_names s HI)|exact Ho]).
        assert (Ebf : bf t = sb s name t) by (simpl in Hbt; rewrite El in Hbt; simpl in Hbt; congruence).
        assert (Hflag : all_eq (np s) bf p = all_eq (np s) (sb s name) t).
        { rewrite (all_eq_agree (np s) bf p t) by assumption.
          apply eq_true_iff_eq. rewrite !all_eq_spec.
          assert (Q : forall i, 0 <= i < Z.of_nat (np s) -> bf i = sb s name i).
          { intros i Hi2. destruct (Hb i (in_np s i Hi2)) as [Hbi _]. simpl in Hbi.
            rewrite (si_att s HI name idx i Ho (in_np s i Hi2)) in Hbi. simpl in Hbi. congruence. }
          rewrite <- Ebf. split; intros HH i Hi2; specialize (HH i Hi2); specialize (Q i Hi2); congruence. }
        rewrite (find_unique _ _ _ Hin).
        + simpl. f_equal. rewrite xspace_base by assumption. rewrite Ebf. reflexivity.
        + unfold xspace. simpl ss_name. rewrite Ek. simpl. apply Z.eqb_eq.
          rewrite Ha. simpl. rewrite Hflag. reflexivity.
        + intros y Hy Ey. apply Z.eqb_eq in Ey. rewrite Ha in Ey. simpl in Ey.
          unfold xspace in Ey. destruct (att_num (s_att s) (ss_name y)) as [k|] eqn:E.
          * simpl in Ey. apply att_num_some in E.
            pose proof (si_att_rng s HI _ _ E). pose proof (si_cnt s HI).
            assert (B2 : forall b : bool, 0 <= (if b then 1 else 0) < 2) by (intros []; lia).
            apply handle_inj in Ey; try apply B2; try (unfold SPACE_ATTACHED_HEAP; lia).
            destruct Ey as (_ & _ & ->).
            assert (ss_name y = name).
            { pose proof (si_att_nums s HI) as ND. clear - ND E Ho.
              induction (s_att s) as [|e l IH]; [destruct E|]. simpl in ND.
              inversion ND as [|? ? Hn ND2]; subst.
              destruct E as [->|E], Ho as [Ho|Ho]; try (injection Ho as -> ); auto.
              - exfalso. apply Hn. simpl. change idx with (snd (name, idx)). apply in_map. exact Ho.
              - subst. exfalso. apply Hn. simpl. change idx with (snd (ss_name y, idx)). apply in_map. exact E. }
            pose proof (slookup_unique s t y HI Ht Hy) as E2. rewrite H1, El in E2.
            injection E2 as <-. reflexivity.
          * exfalso. simpl in Ey.
            assert (B2 : forall b : bool, 0 <= (if b then 1 else 0) < 2) by (intros []; lia).
            apply (handle_inj SPACE_HEAP 0 0) in Ey; try apply B2;
              unfold SPACE_HEAP, SPACE_ATTACHED_HEAP in *; try lia. }
    rewrite E. simpl. destruct (Z.eqb_spec (bf t + d) 0); [lia|reflexivity].
Qed.
