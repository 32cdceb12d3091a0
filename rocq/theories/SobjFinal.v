(** Properties of reachable states of the symmetric-object model. *)
From Verif Require Import Base BaseProofs SobjModel SobjSpec SobjProofs SobjRel SobjSim SobjAttach SobjDetach.

Lemma reached_rel dyn checks page env_size dsize lay mem ops s w :
  reached dyn checks page env_size dsize lay mem ops s w -> Rel dyn s w /\ SInv s.
Proof.
  intros (HC & HR & w0 & E0 & E).
  destruct (sim_history dyn checks page env_size dsize lay mem ops s HC HR) as (v0 & v & F0 & F & R & I).
  rewrite E0 in F0. injection F0 as <-. rewrite E in F. injection F as <-. auto.
Qed.

Lemma history_refines dyn checks page env_size dsize lay mem ops s :
  config_ok page env_size dsize lay -> srun (s_init page env_size dsize lay mem) ops s ->
  exists w, reached dyn checks page env_size dsize lay mem ops s w /\ mem_agrees s w.
Proof.
  intros HC HR.
  destruct (sim_history dyn checks page env_size dsize lay mem ops s HC HR) as (w0 & w & F0 & F & R & I).
  exists w. split; [|eapply rel_mem; eauto].
  split; [exact HC|]. split; [exact HR|]. exists w0. auto.
Qed.

(** ** Classification *)

Lemma space_share s p x y a :
  SInv s -> in_pes s p -> In x (s_sp s p) -> In y (s_sp s p) ->
  ss_base x <= a < ss_base x + ss_size x -> ss_base y <= a < ss_base y + ss_size y -> x = y.
Proof.
  intros HI Hp Hx Hy H1 H2.
  assert (E : ss_base x = ss_base y).
  { pose proof (region_share s p _ _ a HI Hp (region_in s p x Hx) (region_in s p y Hy) H1 H2). congruence. }
  destruct (Z.eq_dec (ss_name x) (ss_name y)) as [En|En].
  - pose proof (slookup_unique s p x HI Hp Hx) as A. pose proof (slookup_unique s p y HI Hp Hy) as B.
    rewrite En in A. congruence.
  - pose proof (space_bases_ne s p x y HI Hp Hx Hy En). contradiction.
Qed.

Lemma contains_unique s p a o1 o2 :
  SInv s -> in_pes s p -> contains s p a o1 -> contains s p a o2 -> o1 = o2.
Proof.
  intros HI Hp (b1 & z1 & B1 & Z1 & R1) (b2 & z2 & B2 & Z2 & R2).
  assert (HS : forall name b z, sbase s p (OSpace name) = Some b -> ssize s p (OSpace name) = Some z ->
     exists x, In x (s_sp s p) /\ ss_name x = name /\ b = ss_base x /\ z = ss_size x).
  { intros name b z Hb Hz. simpl in Hb, Hz. destruct (slookup s p name) as [x|] eqn:E; [|discriminate].
    apply slookup_in in E. exists x. simpl in Hb, Hz. split; [tauto|]. split; [tauto|].
    split; congruence. }
  assert (HH : forall q, In q (tl (regions s p)) -> fst q <= a < fst q + snd q ->
     ~ (s_heap s p <= a < s_heap s p + s_hsize s)) by (intros; eapply heap_not_other; eauto).
  assert (HD : forall q, In q (tl (tl (regions s p))) -> fst q <= a < fst q + snd q ->
     ~ (s_data s p <= a < s_data s p + s_dsize s)) by (intros; eapply data_not_space; eauto).
  assert (HHD : ~ (s_heap s p <= a < s_heap s p + s_hsize s /\ s_data s p <= a < s_data s p + s_dsize s)).
  { intros [X Y]. apply (HH (s_data s p, s_dsize s)); [left; reflexivity|exact Y|exact X]. }
  assert (HS2 : forall x, In x (s_sp s p) -> In (ss_base x, ss_size x) (tl (tl (regions s p))))
    by (intros x Hx; simpl; apply in_map_iff; exists x; auto).
  destruct o1 as [| |n1], o2 as [| |n2]; try reflexivity.
  - exfalso. simpl in *. apply HHD. split; congruence.
  - exfalso. destruct (HS _ _ _ B2 Z2) as (x & Hx & _ & -> & ->).
    apply (HH _ (or_intror (HS2 x Hx)) R2). simpl in *. congruence.
  - exfalso. simpl in *. apply HHD. split; congruence.
  - exfalso. destruct (HS _ _ _ B2 Z2) as (x & Hx & _ & -> & ->).
    apply (HD _ (HS2 x Hx) R2). simpl in *. congruence.
  - exfalso. destruct (HS _ _ _ B1 Z1) as (x & Hx & _ & -> & ->).
    apply (HH _ (or_intror (HS2 x Hx)) R1). simpl in *. congruence.
  - exfalso. destruct (HS _ _ _ B1 Z1) as (x & Hx & _ & -> & ->).
    apply (HD _ (HS2 x Hx) R1). simpl in *. congruence.
  - destruct (HS _ _ _ B1 Z1) as (x & Hx & <- & -> & ->).
    destruct (HS _ _ _ B2 Z2) as (y & Hy & <- & -> & ->).
    rewrite (space_share s p x y a); auto.
Qed.

(** What the default-context query answers, as an object and its extent. *)
Lemma query_contains dyn s lo hw dw p mem a :
  SInv s -> in_pes s p ->
  (forall o, contains s p a o ->
     exists at_ ic, query_attr_ictx (xpe dyn s lo hw dw p mem) CtxDefault a = Ok (Some (at_, ic)) /\
       Some (a_base at_) = sbase s p o /\ Some (a_size at_) = ssize s p o) /\
  ((forall o, ~ contains s p a o) ->
     query_attr_ictx (xpe dyn s lo hw dw p mem) CtxDefault a = Ok None).
Proof.
  intros HI Hp.
  assert (CH : check_range a (pe_heap (xpe dyn s lo hw dw p mem)) = true <-> contains s p a OHeap).
  { rewrite check_range_iff. simpl. split.
    - intros H. exists (s_heap s p), (s_hsize s). auto.
    - intros (b & z & B & Z & R). simpl in B, Z. injection B as <-. injection Z as <-. exact R. }
  assert (CD : check_range a (pe_data (xpe dyn s lo hw dw p mem)) = true <-> contains s p a OData).
  { rewrite check_range_iff. simpl. split.
    - intros H. exists (s_data s p), (s_dsize s). auto.
    - intros (b & z & B & Z & R). simpl in B, Z. injection B as <-. injection Z as <-. exact R. }
  assert (CS : forall x, In x (s_sp s p) ->
     check_range a (sp_attr (xspace dyn s lo p x)) = true <-> contains s p a (OSpace (ss_name x))).
  { intros x Hx. rewrite check_range_iff, xspace_base, xspace_size by assumption.
    unfold contains. simpl. rewrite (slookup_unique s p x HI Hp Hx). simpl. split.
    - intros H. exists (ss_base x), (ss_size x). auto.
    - intros (b & z & B & Z & R). injection B as <-. injection Z as <-. exact R. }
  unfold query_attr_ictx. split.
  - intros o Ho.
    destruct (check_range a (pe_heap (xpe dyn s lo hw dw p mem))) eqn:E1.
    { rewrite (contains_unique s p a o OHeap HI Hp Ho) by (apply CH; reflexivity).
      eexists _, _. split; [reflexivity|]. split; reflexivity. }
    destruct (check_range a (pe_data (xpe dyn s lo hw dw p mem))) eqn:E2.
    { rewrite (contains_unique s p a o OData HI Hp Ho) by (apply CD; reflexivity).
      eexists _, _. split; [reflexivity|]. split; reflexivity. }
    destruct o as [| |name]; [apply CH in Ho; congruence|apply CD in Ho; congruence|].
    simpl pe_spaces. rewrite find_map.
    assert (HX : exists x, In x (s_sp s p) /\ ss_name x = name).
    { destruct Ho as (b & z & B & _). simpl in B.
      destruct (slookup s p name) as [x|] eqn:E; [|discriminate]. apply slookup_in in E. eauto. }
    destruct HX as (x & Hx & <-).
    rewrite (find_unique _ _ x); [|exact Hx|apply CS; assumption|].
    + simpl. eexists _, _. split; [reflexivity|].
      rewrite xspace_base, xspace_size by assumption. simpl.
      rewrite (slookup_unique s p x HI Hp Hx). split; reflexivity.
    + intros y Hy Ey. apply CS in Ey; [|exact Hy].
      pose proof (contains_unique s p a _ _ HI Hp Ho Ey) as E. injection E as E.
      pose proof (slookup_unique s p x HI Hp Hx) as A. pose proof (slookup_unique s p y HI Hp Hy) as B.
      rewrite E in A. congruence.
  - intros HN.
    destruct (check_range a (pe_heap (xpe dyn s lo hw dw p mem))) eqn:E1; [exfalso; apply (HN OHeap), CH; reflexivity|].
    destruct (check_range a (pe_data (xpe dyn s lo hw dw p mem))) eqn:E2; [exfalso; apply (HN OData), CD; reflexivity|].
    simpl pe_spaces. rewrite find_map. rewrite find_none_iff; [reflexivity|].
    intros x Hx. apply not_true_is_false. rewrite CS by exact Hx. apply HN.
Qed.

Lemma classification dyn checks page env_size dsize lay mem ops s w p q a :
  reached dyn checks page env_size dsize lay mem ops s w -> aget (w_pes w) p = Some q ->
  (forall o, contains s p a o ->
     (exists at_ ic, query_attr_ictx q CtxDefault a = Ok (Some (at_, ic)) /\
        Some (a_base at_) = sbase s p o /\ Some (a_size at_) = ssize s p o) /\
     forall o', contains s p a o' -> o' = o) /\
  ((forall o, ~ contains s p a o) ->
     forall direct esz typesz origin n t, n <> 0 ->
       ctx_put true w p CtxDefault direct esz typesz origin a n t = Abort /\
       ctx_get true w p CtxDefault direct esz typesz origin a n t = Abort).
Proof.
  intros HR Hq. destruct (reached_rel _ _ _ _ _ _ _ _ _ _ HR) as [(Hw & Hlen & lo & hw & dw & HP & HM) HI].
  pose proof (aget_some _ _ _ Hq) as Hr. rewrite Hlen in Hr. pose proof (in_np s p Hr) as Hp.
  destruct (HP p Hp) as (m & E & _). rewrite Hq in E. injection E as E.
  destruct (query_contains dyn s lo hw dw p m a HI Hp) as [Q1 Q2]. rewrite <- E in Q1, Q2.
  split.
  - intros o Ho. split; [apply Q1; exact Ho|]. intros o' Ho'. eapply contains_unique; eauto.
  - intros HN direct esz typesz origin n t Hn.
    unfold ctx_put, ctx_get, get_pe, query_checked. rewrite Hq.
    destruct (Z.eqb_spec n 0); [contradiction|]. cbn [of_opt bind]. rewrite (Q2 HN). split; reflexivity.
Qed.

(** ** Handles *)

Lemma find_space_att dyn s lo hw dw p mem name k :
  SInv s -> in_pes s p -> In (name, k) (s_att s) ->
  find_space (xpe dyn s lo hw dw p mem) name =
    Some (xspace1 dyn (np s) (sb s name) (lo k) k p (mkSS name (sb s name p) (sz s name) (nc s name))).
Proof.
  intros HI Hp Hk. unfold find_space. simpl. rewrite find_map.
  erewrite find_ext'; [|intros y _; rewrite xspace_name; reflexivity].
  fold (slookup s p name). rewrite (si_att s HI name k p Hk Hp). simpl.
  unfold xspace. simpl. rewrite (att_num_in _ _ _ (si_att_names s HI) Hk). reflexivity.
Qed.

Lemma handles_agree dyn checks page env_size dsize lay mem ops s w :
  reached dyn checks page env_size dsize lay mem ops s w ->
  exists h : Z -> Z,
    (forall name p q, In name (map fst (s_att s)) -> aget (w_pes w) p = Some q ->
       space_handle q name = Some (h name)) /\
    (forall n1 n2, In n1 (map fst (s_att s)) -> In n2 (map fst (s_att s)) -> h n1 = h n2 -> n1 = n2) /\
    (forall name q, In name (map fst (s_att s)) -> In q (w_pes w) ->
       h name <> a_handle (pe_heap q) /\ h name <> a_handle (pe_data q)).
Proof.
  intros HR. destruct (reached_rel _ _ _ _ _ _ _ _ _ _ HR) as [(Hw & Hlen & lo & hw & dw & HP & HM) HI].
  set (h := fun name => match att_num (s_att s) name with
     | Some k => a_handle (xattr dyn (np s) (sb s name) 0 (sz s name) SPACE_ATTACHED_HEAP k) | None => 0 end).
  assert (Eh : forall name k, In (name, k) (s_att s) ->
     h name = set_handle SPACE_ATTACHED_HEAP (if dyn && all_eq (np s) (sb s name) 0 then 1 else 0) k /\ 0 <= k < 2 ^ 29).
  { intros name k Hk. unfold h. rewrite (att_num_in _ _ _ (si_att_names s HI) Hk).
    pose proof (si_att_rng s HI _ _ Hk). pose proof (si_cnt s HI). split; [|lia].
    unfold xattr. destruct dyn; reflexivity. }
  assert (Hpe : forall p q, aget (w_pes w) p = Some q ->
     in_pes s p /\ exists m, q = xpe dyn s lo hw dw p m).
  { intros p q Hq. pose proof (aget_some _ _ _ Hq) as Hr. rewrite Hlen in Hr.
    split; [apply (in_np s p Hr)|].
    destruct (HP p (in_np s p Hr)) as (m & E & _). exists m. congruence. }
  assert (Hb : forall b : bool, 0 <= (if b then 1 else 0) < 2) by (intros []; lia).
  exists h. split; [|split].
  - intros name p q Hn Hq. destruct (in_att_names s name Hn) as (k & Hk).
    destruct (Hpe p q Hq) as (Hp & m & ->).
    unfold space_handle. rewrite (find_space_att dyn s lo hw dw p m name k HI Hp Hk).
    simpl. f_equal. unfold h. rewrite (att_num_in _ _ _ (si_att_names s HI) Hk).
    apply xattr_handle_agree; apply np_pos; auto. apply in_pes_0. exact HI.
  - intros n1 n2 H1 H2 E.
    destruct (in_att_names s n1 H1) as (k1 & K1). destruct (in_att_names s n2 H2) as (k2 & K2).
    destruct (Eh _ _ K1) as (E1 & R1). destruct (Eh _ _ K2) as (E2 & R2).
    rewrite E1, E2 in E. apply handle_inj in E; try apply Hb; try assumption; try (unfold SPACE_ATTACHED_HEAP; lia).
    destruct E as (_ & _ & E). subst k2.
    pose proof (si_att_nums s HI) as ND. clear - ND K1 K2.
    induction (s_att s) as [|e l IH]; [destruct K1|]. simpl in ND.
    inversion ND as [|? ? Hn ND2]; subst. destruct K1 as [->|K1], K2 as [K2|K2]; auto.
    + congruence.
    + exfalso. apply Hn. simpl. change k1 with (snd (n2, k1)). apply in_map. exact K2.
    + subst. exfalso. apply Hn. simpl. change k1 with (snd (n1, k1)). apply in_map. exact K1.
  - intros name q Hn Hq. destruct (in_att_names s name Hn) as (k & Hk).
    destruct (Eh _ _ Hk) as (E1 & R1). apply In_nth_error in Hq. destruct Hq as (i & Hi).
    assert (Hq : aget (w_pes w) (Z.of_nat i) = Some q)
      by (unfold aget; destruct (Z.ltb_spec (Z.of_nat i) 0); [lia|rewrite Nat2Z.id; exact Hi]).
    destruct (Hpe _ q Hq) as (Hp & m & ->). rewrite E1. simpl.
    split; intros E.
    + unfold xattr in E. destruct dyn; simpl in E; apply handle_inj in E;
        try apply Hb; try assumption; unfold SPACE_ATTACHED_HEAP, SYMM_HEAP in *; try lia.
    + unfold xattr in E. destruct dyn; simpl in E; apply handle_inj in E;
        try apply Hb; try assumption; unfold SPACE_ATTACHED_HEAP, SYMM_DATA in *; try lia.
Qed.

(** ** Unattached spaces *)

Lemma unattached_rejected dyn checks page env_size dsize lay mem ops s w
    p q name a direct esz typesz origin n t :
  reached dyn checks page env_size dsize lay mem ops s w -> in_pes s p -> in_pes s t ->
  ~ In name (map fst (s_att s)) -> contains s p a (OSpace name) -> n <> 0 ->
  dyn = false \/ direct = false ->
  aget (w_pes w) p = Some q ->
  ctx_put checks w p CtxDefault direct esz typesz origin a n t = Abort /\
  ctx_get checks w p CtxDefault direct esz typesz origin a n t = Abort.
Proof.
  intros HR Hp Ht Hna Hc Hn Hm Hq.
  destruct (reached_rel _ _ _ _ _ _ _ _ _ _ HR) as [(Hw & Hlen & lo & hw & dw & HP & HM) HI].
  destruct (HP p Hp) as (m & E & _). rewrite Hq in E. injection E as E.
  destruct (HP t Ht) as (mt & Et & _).
  destruct Hc as (b & z & Hb & Hz & Hr).
  simpl in Hb, Hz. destruct (slookup s p name) as [x|] eqn:Ex; [|discriminate].
  simpl in Hb, Hz. injection Hb as <-. injection Hz as <-.
  destruct (slookup_in _ _ _ _ Ex) as [Hx Hnm].
  pose proof (region_in s p x Hx) as Hreg.
  assert (E0 : query_checked checks q CtxDefault a =
     Ok (sp_attr (xspace0 dyn x), sp_default (xspace0 dyn x))).
  { rewrite E. unfold query_checked, query_attr_ictx.
    assert (E1 : check_range a (pe_heap (xpe dyn s lo hw dw p m)) = false).
    { apply not_true_is_false. rewrite check_range_iff. simpl.
      apply (heap_not_other s p (ss_base x, ss_size x) a HI Hp);
        [simpl; right; apply in_map_iff; exists x; auto|simpl; lia]. }
    assert (E2 : check_range a (pe_data (xpe dyn s lo hw dw p m)) = false).
    { apply not_true_is_false. rewrite check_range_iff. simpl.
      apply (data_not_space s p (ss_base x, ss_size x) a HI Hp);
        [simpl; apply in_map_iff; exists x; auto|simpl; lia]. }
    rewrite E1, E2. simpl pe_spaces. rewrite find_map.
    rewrite (find_unique _ _ x); [|exact Hx| |].
    - simpl. unfold xspace. rewrite Hnm.
      destruct (att_num (s_att s) name) as [k|] eqn:Ek; [|reflexivity].
      exfalso. apply Hna. apply att_num_some in Ek. change name with (fst (name, k)). apply in_map. exact Ek.
    - apply check_range_iff. rewrite xspace_base, xspace_size by assumption. lia.
    - intros y Hy Ey. apply check_range_iff in Ey. rewrite xspace_base, xspace_size in Ey by assumption.
      apply (space_share s p y x a HI Hp Hy Hx); lia. }
  assert (Hk : handle_kind (set_handle SPACE_HEAP 0 0) = SPACE_HEAP) by reflexivity.
  assert (Hab : forall A (f : Z -> outcome A), (forall v, f v = Abort) ->
     forall c, bind (mpi_count c) f = Abort).
  { intros A f Hf c. unfold mpi_count. cbv zeta. destruct (to_int c <? 0); [reflexivity|]. cbn [bind]. apply Hf. }
  assert (HAM : forall d, am_target checks (xpe dyn s lo hw dw t mt) (set_handle SPACE_HEAP 0 0) d = Abort).
  { intros d. unfold am_target, disp_to_vaddr. rewrite Hk. reflexivity. }
  assert (HA : c_assert checks (0 <=? a - ss_base x) = Ok tt)
    by (unfold c_assert; destruct (Z.leb_spec 0 (a - ss_base x)); [reflexivity|lia]).
  unfold ctx_put, ctx_get. destruct (Z.eqb_spec n 0); [contradiction|].
  unfold get_pe. rewrite Hq. cbn [of_opt bind]. rewrite E0. cbn [bind].
  destruct direct.
  - destruct Hm as [Hm|Hm]; [|discriminate].
    unfold direct_disp. rewrite Hw, Hm. simpl vaddr_to_disp.
    cbn [bind]. simpl a_base. rewrite HA. cbn [bind]. split; apply Hab; intros v; reflexivity.
  - unfold am_disp. cbn [fst snd].
    replace (vaddr_to_disp (w_dyn w) (sp_attr (xspace0 dyn x)) a t RelDisp) with (Ok (a - ss_base x))
      by (destruct (w_dyn w); reflexivity).
    cbn [bind].
    cbn [bind]. simpl a_base. rewrite HA. cbn [bind]. rewrite Et. simpl a_handle.
    split; apply Hab; intros v; cbn [of_opt bind]; rewrite HAM; reflexivity.
Qed.

(** ** Explicit contexts and addresses outside their space *)

Lemma ctx_out_of_space_rejected dyn checks page env_size dsize lay mem ops s w
    p t name j b z nc esz typesz origin a n :
  reached dyn checks page env_size dsize lay mem ops s w -> in_pes s p -> in_pes s t ->
  In name (map fst (s_att s)) -> slookup s p name = Some (mkSS name b z nc) -> 0 <= j < nc ->
  0 < esz -> 0 < n <= INT_MAX -> a < b \/ b + z < a + esz * n ->
  ctx_put checks w p (CtxSpace name j) true esz typesz origin a n t = Abort /\
  ctx_get checks w p (CtxSpace name j) true esz typesz origin a n t = Abort.
Proof.
  intros HR Hp Ht Hna Hs Hj He Hn Ha.
  destruct (reached_rel _ _ _ _ _ _ _ _ _ _ HR) as [(Hw & Hlen & lo & hw & dw & HP & HM) HI].
  destruct (HP p Hp) as (m & E & _). destruct (HP t Ht) as (mt & Et & _).
  destruct (in_att_names s name Hna) as (k & Hk).
  pose proof (find_space_att dyn s lo hw dw p m name k HI Hp Hk) as Ef.
  pose proof (si_att s HI name k p Hk Hp) as Es. rewrite Hs in Es. injection Es as Eb Ez En.
  assert (Hb1 : 0 < b /\ 0 < z /\ b + z <= 2 ^ 62).
  { apply slookup_in in Hs. destruct Hs as [Hs _]. apply (pos_of s p _ HI Hp (region_in s p _ Hs)). }
  unfold ctx_put, ctx_get. destruct (Z.eqb_spec n 0); [lia|].
  unfold get_pe. rewrite E. cbn [of_opt bind].
  unfold query_checked, query_attr_ictx. rewrite Ef. cbn [of_opt bind].
  unfold xspace1. cbv zeta. cbn [sp_ctxs ss_nctx]. rewrite <- En.
  destruct (Z.ltb_spec 0 nc); [|lia]. cbn [of_opt bind].
  rewrite aget_zmap by lia. cbn [of_opt bind cx_attr cx_ictx].
  unfold direct_disp. cbn [fst snd].
  replace (vaddr_to_disp (w_dyn w) (xattr dyn (np s) (sb s name) p (ss_size
              {| ss_name := name; ss_base := sb s name p; ss_size := sz s name; ss_nctx := nc |}) SPACE_ATTACHED_HEAP k) a t
     (ictx_mode (w_dyn w) {| ic_win := Win (lo k + off dyn + j); ic_mode := RelDisp |})) with (Ok (a - b)).
  2:{ unfold ictx_mode. simpl ic_mode. rewrite Eb. destruct (w_dyn w); reflexivity. }
  cbn [bind].
  assert (Hcnt : mpi_count n = Ok n).
  { unfold mpi_count. rewrite to_int_id by (unfold INT_MAX in *; lia).
    cbv zeta. destruct (Z.ltb_spec n 0); [lia|reflexivity]. }
  assert (Hmt : forall at_, mpi_target w (at_, {| ic_win := Win (lo k + off dyn + j); ic_mode := RelDisp |})
     t (a - b) (esz * n) = Abort).
  { intros at_. unfold mpi_target, win_target. cbn [snd ic_win].
    assert (Hoff : 0 <= off dyn <= 1) by (unfold off; destruct dyn; lia).
    pose proof (rm_lo _ _ _ _ _ _ HM name k Hk) as Hlo.
    replace (w_dyn w && (lo k + off dyn + j =? DYN_WIN)) with false
      by (rewrite Hw; destruct dyn; simpl in *; unfold DYN_WIN; [lia|reflexivity]).
    pose proof (rm_win _ _ _ _ _ _ HM name k (off dyn + j) Hk ltac:(rewrite <- En; lia)) as HW.
    replace (lo k + (off dyn + j)) with (lo k + off dyn + j) in HW by lia.
    unfold wfind in HW.
    destruct (find (fun e => fst e =? lo k + off dyn + j) (m_wins (w_mpi w))) as [[k2 l]|]; [|discriminate].
    simpl in HW. injection HW as ->. rewrite aget_zmap by (apply np_pos; assumption).
    rewrite <- Ez. replace ((0 <=? a - b) && (a - b + esz * n <=? z)) with false by lia. reflexivity. }
  unfold c_assert. destruct (0 <=? a - b); [|destruct checks; [split; reflexivity|]];
    cbn [bind]; rewrite Hcnt; cbn [bind]; rewrite Hmt; split; reflexivity.
Qed.

(** ** Address queries *)

Lemma pe_sound dyn checks page env_size dsize lay mem ops s w t :
  reached dyn checks page env_size dsize lay mem ops s w ->
  (pe_accessible w t = 1 <-> in_pes s t) /\ (pe_accessible w t = 0 \/ pe_accessible w t = 1).
Proof.
  intros HR. destruct (reached_rel _ _ _ _ _ _ _ _ _ _ HR) as [HRel HI]. pose proof HRel as (_ & Hlen & _).
  unfold pe_accessible. assert (CP : (0 <=? t) && (t <? Z.of_nat (length (w_pes w))) = true <-> in_pes s t).
  { rewrite Hlen. unfold in_pes, np. pose proof (si_n s HI). lia. }
  rewrite <- CP. destruct ((0 <=? t) && (t <? Z.of_nat (length (w_pes w)))); split; auto; split; congruence.
Qed.

Lemma accessible_sound dyn checks page env_size dsize lay mem ops s w p a t :
  reached dyn checks page env_size dsize lay mem ops s w -> in_pes s p ->
  exists r, addr_accessible w p a t = Ok r /\
    (r = 1 <-> in_pes s t /\ (contains s p a OHeap \/ contains s p a OData)) /\ (r = 0 \/ r = 1) /\
    (r = 1 -> forall direct origin, exists w',
       ctx_put checks w p CtxDefault direct 1 1 origin a 1 t = Ok w').
Proof.
  intros HR Hp. destruct (reached_rel _ _ _ _ _ _ _ _ _ _ HR) as [HRel HI].
  pose proof HRel as (Hw & Hlen & lo & hw & dw & HP & HM).
  destruct (HP p Hp) as (m & E & _).
  unfold addr_accessible, get_pe. rewrite E. cbn [of_opt bind].
  assert (CH : check_range a (pe_heap (xpe dyn s lo hw dw p m)) = true <-> contains s p a OHeap).
  { rewrite check_range_iff. simpl. split.
    - intros H. exists (s_heap s p), (s_hsize s). auto.
    - intros (b & z & B & Z & R). simpl in B, Z. injection B as <-. injection Z as <-. exact R. }
  assert (CD : check_range a (pe_data (xpe dyn s lo hw dw p m)) = true <-> contains s p a OData).
  { rewrite check_range_iff. simpl. split.
    - intros H. exists (s_data s p), (s_dsize s). auto.
    - intros (b & z & B & Z & R). simpl in B, Z. injection B as <-. injection Z as <-. exact R. }
  assert (CP : (0 <=? t) && (t <? Z.of_nat (length (w_pes w))) = true <-> in_pes s t).
  { rewrite Hlen. unfold in_pes, np. pose proof (si_n s HI). lia. }
  eexists. split; [reflexivity|]. split; [|split].
  - rewrite <- CH, <- CD, <- CP.
    destruct (check_range a (pe_heap (xpe dyn s lo hw dw p m))),
      (check_range a (pe_data (xpe dyn s lo hw dw p m))), ((0 <=? t) && (t <? Z.of_nat (length (w_pes w))));
      simpl; intuition (try discriminate; try congruence; auto).
  - match goal with |- context[if ?b then _ else _] => destruct b end; auto.
  - intros H1 direct origin.
    assert (Ht : in_pes s t /\ (contains s p a OHeap \/ contains s p a OData)).
    { rewrite <- CH, <- CD, <- CP.
      destruct (check_range a (pe_heap (xpe dyn s lo hw dw p m))),
        (check_range a (pe_data (xpe dyn s lo hw dw p m))), ((0 <=? t) && (t <? Z.of_nat (length (w_pes w))));
        simpl in H1; try discriminate; auto. }
    destruct Ht as [Ht Ho].
    assert (HO : exists o d b, sym_addr s p CtxDefault a o d (1 * 1) /\ sbase s t o = Some b).
    { destruct Ho as [(b & z & B & Z & R)|(b & z & B & Z & R)].
      - exists OHeap, (a - b), (s_heap s t). split; [|reflexivity].
        split; [exact I|]. split; [exact I|]. split; [lia|]. exists b, z.
        split; [exact B|]. split; [exact Z|]. lia.
      - exists OData, (a - b), (s_data s t). split; [|reflexivity].
        split; [exact I|]. split; [exact I|]. split; [lia|]. exists b, z.
        split; [exact B|]. split; [exact Z|]. lia. }
    destruct HO as (o & d & b & HS & HB).
    destruct (put_sim dyn checks s w p CtxDefault direct 1 origin a 1 t o d b) as (w' & Ew & _); auto.
    + unfold count_ok, INT_MAX. lia.
    + eauto.
Qed.

(** The pointer shmem_ptr returns designates the byte a get would read. *)
Lemma ptr_sound dyn checks page env_size dsize lay mem ops s w p c a o d t r :
  reached dyn checks page env_size dsize lay mem ops s w -> in_pes s p -> in_pes s t ->
  sym_addr s p c a o d 1 -> shmem_ptr p a t = Some r ->
  exists q, aget (w_pes w) p = Some q /\
  forall direct origin, exists w' q',
    ctx_get checks w p c direct 1 1 origin a 1 t = Ok w' /\ aget (w_pes w') p = Some q' /\
    pe_mem q' origin = pe_mem q r.
Proof.
  intros HR Hp Ht HS Hr. unfold shmem_ptr in Hr.
  destruct (Z.eqb_spec t p) as [->|]; [|discriminate]. injection Hr as <-.
  destruct (reached_rel _ _ _ _ _ _ _ _ _ _ HR) as [HRel HI].
  pose proof HRel as (Hw & Hlen & lo & hw & dw & HP & HM).
  destruct (HP p Hp) as (m & E & Em). eexists. split; [exact E|]. intros direct origin.
  destruct HS as (Hl & Hc & Hd & b & z & Hb & Hz & Ha & Hlz).
  destruct (get_sim dyn checks s w p c direct 1 origin a 1 p o d b) as (w' & Ew & RW); auto.
  - unfold count_ok, INT_MAX. lia.
  - split; [exact Hl|]. split; [exact Hc|]. split; [exact Hd|]. exists b, z. auto.
  - destruct RW as (_ & _ & lo' & hw' & dw' & HP' & _).
    destruct (HP' p Hp) as (m' & E' & Em'). exists w', (xpe dyn (set_smem s
       (smem_write (s_mem s) p origin (1 * 1) (fun k => s_mem s p (b + d + k)))) lo' hw' dw' p m').
    split; [exact Ew|]. split; [exact E'|]. simpl. rewrite Em', Em. simpl. unfold smem_write.
    replace ((p =? p) && (origin <=? origin) && (origin <? origin + 1 * 1)) with true by lia.
    f_equal. lia.
Qed.

(** ** Agreement of check_symm_mem on all PEs *)

Lemma symmetry_agreed addrs : exists flag : bool,
  (flag = true <-> forall i j a b, aget addrs i = Some a -> aget addrs j = Some b -> a = b) /\
  forall me mine, aget addrs me = Some mine ->
    exists offs, check_symm_mem addrs me = Ok (flag, offs) /\
      (flag = true -> offs = None) /\
      (flag = false -> exists l, offs = Some l /\ length l = length addrs /\
         forall t a, aget addrs t = Some a -> aget l t = Some (a - mine)).
Proof.
  set (bf := fun i => match aget addrs i with Some a => a | None => 0 end).
  set (n := length addrs).
  assert (Hbf : forall i a, aget addrs i = Some a -> bf i = a) by (intros i a H; unfold bf; rewrite H; reflexivity).
  exists (forallb (fun a => a =? bf 0) addrs). split.
  - rewrite forallb_forall. split.
    + intros H i j a b Hi Hj.
      assert (Ha : In a addrs) by (unfold aget in Hi; destruct (i <? 0); [discriminate|]; eapply nth_error_In; eauto).
      assert (Hb : In b addrs) by (unfold aget in Hj; destruct (j <? 0); [discriminate|]; eapply nth_error_In; eauto).
      pose proof (H a Ha). pose proof (H b Hb). lia.
    + intros H a Ha. apply In_nth_error in Ha. destruct Ha as (i & Hi).
      assert (Ei : aget addrs (Z.of_nat i) = Some a)
        by (unfold aget; destruct (Z.ltb_spec (Z.of_nat i) 0); [lia|rewrite Nat2Z.id; exact Hi]).
      pose proof (aget_some _ _ _ Ei) as Hr.
      destruct (aget_ex addrs 0 ltac:(lia)) as (b & Hb).
      rewrite (Hbf 0 b Hb). rewrite (H _ _ _ _ Ei Hb). lia.
  - intros me mine Hme. unfold check_symm_mem. rewrite Hme. cbn [of_opt bind].
    rewrite check_symm_loop_spec. cbn [andb].
    assert (EF : forallb (fun a => a =? mine) addrs = forallb (fun a => a =? bf 0) addrs).
    { assert (Hin : In mine addrs)
        by (unfold aget in Hme; destruct (me <? 0); [discriminate|]; eapply nth_error_In; eauto).
      assert (Hin0 : In (bf 0) addrs).
      { pose proof (aget_some _ _ _ Hme) as Hr. destruct (aget_ex addrs 0 ltac:(lia)) as (b & Hb).
        rewrite (Hbf 0 b Hb). eapply aget_In; eauto. }
      apply eq_true_iff_eq. rewrite !forallb_forall. split; intros H a Ha.
      - pose proof (H a Ha). pose proof (H _ Hin0). lia.
      - pose proof (H a Ha). pose proof (H _ Hin). lia. }
    rewrite EF. eexists. split; [reflexivity|].
    destruct (forallb (fun a => a =? bf 0) addrs).
    + split; [reflexivity|discriminate].
    + split; [discriminate|]. intros _. eexists. split; [reflexivity|].
      split; [apply map_length|]. intros t a Ht. rewrite aget_map, Ht. reflexivity.
Qed.

Lemma handle_roundtrip kind symm idx :
  0 <= kind < 4 -> 0 <= symm < 2 -> 0 <= idx < 2 ^ 29 ->
  handle_kind (set_handle kind symm idx) = kind /\
  handle_symm (set_handle kind symm idx) = symm /\
  handle_idx (set_handle kind symm idx) = idx /\
  0 <= set_handle kind symm idx < 2 ^ 32.
Proof.
  intros Hk Hs Hi. destruct (handle_decode kind symm idx Hk Hs Hi) as (A & B & C).
  repeat split; auto; rewrite set_handle_value by assumption; lia.
Qed.
