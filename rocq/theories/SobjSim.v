(** Every valid user call runs without error and preserves the simulation relation. *)
From Verif Require Import Base BaseProofs SobjModel SobjSpec SobjProofs SobjRel.

(** ** Extensionality of the translated state *)

Lemma xattr_ext dyn n bf bf' p size kind idx :
  0 <= p < Z.of_nat n -> (forall i, 0 <= i < Z.of_nat n -> bf i = bf' i) ->
  xattr dyn n bf p size kind idx = xattr dyn n bf' p size kind idx.
Proof.
  intros Hp H. unfold xattr, all_eq. rewrite (H p Hp).
  rewrite (zmap_ext bf bf') by assumption.
  rewrite (zmap_ext (fun i => bf i - bf' p) (fun i => bf' i - bf' p)); [reflexivity|].
  intros i Hi. rewrite (H i Hi). reflexivity.
Qed.

Lemma xspace_ext dyn s s' lo p x :
  np s' = np s -> s_att s' = s_att s -> 0 <= p < Z.of_nat (np s) ->
  (forall name k i, In (name, k) (s_att s) -> 0 <= i < Z.of_nat (np s) -> sb s' name i = sb s name i) ->
  xspace dyn s' lo p x = xspace dyn s lo p x.
Proof.
  intros Hn Ha Hp Hb. unfold xspace. rewrite Ha, Hn.
  destruct (att_num (s_att s) (ss_name x)) as [k|] eqn:E; [|reflexivity].
  apply att_num_some in E. unfold xspace1.
  rewrite (xattr_ext dyn (np s) (sb s' (ss_name x)) (sb s (ss_name x))); auto.
  intros i Hi. apply (Hb _ _ _ E Hi).
Qed.

Lemma get_pe_rel dyn s w lo hw dw p m :
  aget (w_pes w) p = Some (xpe dyn s lo hw dw p m) -> get_pe w p = Ok (xpe dyn s lo hw dw p m).
Proof. intros H. unfold get_pe. rewrite H. reflexivity. Qed.

Lemma relmpi_same dyn s s' lo hw dw m :
  s_n s' = s_n s -> s_heap s' = s_heap s -> s_htrue s' = s_htrue s -> s_data s' = s_data s ->
  s_dsize s' = s_dsize s -> s_att s' = s_att s ->
  (forall name k, In (name, k) (s_att s) ->
     nc s' name = nc s name /\ sz s' name = sz s name /\
     forall i, 0 <= i < Z.of_nat (np s) -> sb s' name i = sb s name i) ->
  RelMpi dyn s lo hw dw m -> RelMpi dyn s' lo hw dw m.
Proof.
  intros Hn H1 H2 H3 H4 H5 H6 HM.
  assert (En : np s' = np s) by (unfold np; rewrite Hn; reflexivity).
  constructor; rewrite ?En, ?H1, ?H2, ?H3, ?H4, ?H5.
  - apply HM.
  - apply HM.
  - apply HM.
  - intros name k i Hin Hi. destruct (H6 name k Hin) as (E1 & E2 & E3). rewrite E1 in Hi.
    rewrite (rm_win _ _ _ _ _ _ HM name k i Hin Hi). f_equal. apply zmap_ext.
    intros j Hj. rewrite (E3 j Hj), E2. reflexivity.
  - intros name k Hin. destruct (H6 name k Hin) as (E1 & _). rewrite E1. apply (rm_hi _ _ _ _ _ _ HM name k Hin).
  - apply (rm_lo _ _ _ _ _ _ HM).
  - apply HM.
  - intros n1 k1 n2 k2 I1 I2. destruct (H6 n1 k1 I1) as (E1 & _). rewrite E1.
    apply (rm_disj _ _ _ _ _ _ HM n1 k1 n2 k2 I1 I2).
  - intros Hd p Hp. unfold in_pes in Hp. rewrite Hn in Hp.
    destruct (rm_dyn _ _ _ _ _ _ HM Hd p Hp) as (regs & A & B & C & D).
    exists regs. split; [exact A|]. split; [exact B|]. split; [exact C|].
    intros name k Hin. destruct (H6 name k Hin) as (_ & E2 & E3). rewrite E2, E3.
    + apply (D name k Hin).
    + unfold np. lia.
Qed.

(** ** put and get *)

Lemma to_int_count n : 0 <= n <= INT_MAX -> mpi_count n = Ok n.
Proof.
  intros H. unfold mpi_count. unfold INT_MAX in H. rewrite to_int_id by lia.
  destruct (Z.ltb_spec n 0); [lia|reflexivity].
Qed.

Lemma rel_set_mem dyn s w lo hw dw t q m' sm' :
  SInv s -> w_dyn w = dyn -> length (w_pes w) = np s -> in_pes s t ->
  (forall p, in_pes s p -> exists m, aget (w_pes w) p = Some (xpe dyn s lo hw dw p m) /\
                                     forall a, m a = s_mem s p a) ->
  RelMpi dyn s lo hw dw (w_mpi w) ->
  aget (w_pes w) t = Some q ->
  (forall a, m' a = sm' t a) -> (forall p a, p <> t -> sm' p a = s_mem s p a) ->
  Rel dyn (set_smem s sm') (set_pe w t (set_mem q m')).
Proof.
  intros HI Hw Hlen Ht HP HM Hq Hm Hf.
  split; [exact Hw|]. split; [simpl; rewrite upd_length; exact Hlen|].
  exists lo, hw, dw. split.
  - intros p Hp. assert (Hp' : in_pes s p) by exact Hp.
    destruct (HP p Hp') as (m & E & Hmm). simpl.
    destruct (Z.eq_dec p t) as [->|Hne].
    + exists m'. split; [|exact Hm].
      rewrite aget_upd_eq by (rewrite Hlen; apply np_pos; assumption).
      rewrite Hq in E. injection E as ->. reflexivity.
    + exists m. split.
      * rewrite aget_upd_ne by (unfold in_pes in *; lia). exact E.
      * intros a. rewrite Hf by exact Hne. apply Hmm.
  - simpl. apply (relmpi_same dyn s); try reflexivity; auto.
Qed.

Lemma rel_ext_mem dyn s w sm' :
  SInv s -> Rel dyn s w -> (forall p a, in_pes s p -> sm' p a = s_mem s p a) -> Rel dyn (set_smem s sm') w.
Proof.
  intros HI (Hw & Hlen & lo & hw & dw & HP & HM) H.
  split; [exact Hw|]. split; [exact Hlen|]. exists lo, hw, dw. split.
  - intros p Hp. destruct (HP p Hp) as (m & E & Hm). exists m. split; [exact E|].
    intros a. simpl. rewrite H by exact Hp. apply Hm.
  - apply (relmpi_same dyn s); try reflexivity; auto.
Qed.

Lemma smem_write_zero m t a src p x : smem_write m t a 0 src p x = m p x.
Proof. unfold smem_write. replace ((p =? t) && (a <=? x) && (x <? a + 0)) with false by lia. reflexivity. Qed.

Lemma put_sim dyn checks s w p c direct esz origin addr nelems t o d b :
  SInv s -> Rel dyn s w ->
  in_pes s p -> in_pes s t -> count_ok direct esz nelems ->
  sym_addr s p c addr o d (esz * nelems) -> sbase s t o = Some b ->
  exists w', ctx_put checks w p c direct esz esz origin addr nelems t = Ok w' /\
    Rel dyn (set_smem s (smem_write (s_mem s) t (b + d) (esz * nelems)
                            (fun k => s_mem s p (origin + k)))) w'.
Proof.
  intros HI HR Hp Ht (He & Hn & Ham) HS Hb.
  unfold ctx_put. destruct (Z.eqb_spec nelems 0) as [->|Hnz].
  { exists w. split; [reflexivity|]. apply rel_ext_mem; [exact HI|exact HR|].
    intros q a _. rewrite Z.mul_0_r. apply smem_write_zero. }
  destruct HR as (Hw & Hlen & lo & hw & dw & HP & HM).
  destruct (HP p Hp) as (mp & Ep & Hmp). destruct (HP t Ht) as (mt & Et & Hmt).
  rewrite (get_pe_rel _ _ _ _ _ _ _ _ Ep). cbn [bind].
  assert (Hpos : 0 < esz * nelems) by nia.
  destruct (query_resolves dyn s lo hw dw (w_mpi w) checks p c addr o d _ mp HI HM Hp HS Hpos)
    as (x & bf & size & idx & Eq & Hres & Ha & Hd & Hl).
  rewrite Eq. cbn [bind]. subst addr.
  assert (Ebt : bf t = b).
  { destruct Hres as (_ & _ & Hbb & _). destruct (Hbb t Ht) as [E _]. congruence. }
  assert (Hcnt : mpi_count nelems = Ok nelems) by (apply to_int_count; lia).
  assert (Hst : forall a len src, exists w',
     store w t a len src = Ok w' /\
     w' = set_pe w t (set_mem (xpe dyn s lo hw dw t mt) (mem_write mt a len src))).
  { intros. unfold store. rewrite (get_pe_rel _ _ _ _ _ _ _ _ Et). cbn [bind]. eexists; split; reflexivity. }
  assert (Hfin : Rel dyn (set_smem s (smem_write (s_mem s) t (b + d) (esz * nelems)
                            (fun k => s_mem s p (origin + k))))
           (set_pe w t (set_mem (xpe dyn s lo hw dw t mt)
              (mem_write mt (bf t + d) (esz * nelems)
                 (fun k => pe_mem (xpe dyn s lo hw dw p mp) (origin + k)))))).
  { rewrite Ebt. apply (rel_set_mem dyn s w lo hw dw t); auto.
    - intros a. unfold mem_write, smem_write. rewrite Z.eqb_refl. simpl.
      destruct ((b + d <=? a) && (a <? b + d + esz * nelems)); [apply Hmp | apply Hmt].
    - intros q a Hq. unfold smem_write. destruct (Z.eqb_spec q t); [contradiction|reflexivity]. }
  destruct direct.
  - destruct (direct_resolved dyn s w checks p t o x bf size idx d (esz * nelems) HI Hp Ht Hw Hres Hd Hl)
      as (dd & E1 & E2 & _).
    rewrite E1. cbn [bind]. rewrite Hcnt. cbn [bind]. rewrite E2. cbn [bind].
    destruct (Hst (bf t + d) (esz * nelems) (fun k => pe_mem (xpe dyn s lo hw dw p mp) (origin + k)))
      as (w' & Es & ->).
    rewrite Es. eexists; split; [reflexivity|exact Hfin].
  - specialize (Ham eq_refl).
    destruct (am_resolved dyn s lo hw dw w checks p t o x bf size idx d mt HI Hp Ht Hw Hres Hd) as (E1 & E2).
    rewrite E1. cbn [bind]. rewrite Hcnt. cbn [bind].
    rewrite (get_pe_rel _ _ _ _ _ _ _ _ Et). cbn [bind]. rewrite E2. cbn [bind].
    rewrite wrap64_id by (unfold INT_MAX in *; lia). rewrite to_int_count by lia. cbn [bind].
    rewrite Z.ltb_irrefl.
    destruct (Hst (bf t + d) (esz * nelems) (fun k => pe_mem (xpe dyn s lo hw dw p mp) (origin + k)))
      as (w' & Es & ->).
    rewrite Es. eexists; split; [reflexivity|exact Hfin].
Qed.

Lemma get_sim dyn checks s w p c direct esz origin addr nelems t o d b :
  SInv s -> Rel dyn s w ->
  in_pes s p -> in_pes s t -> count_ok direct esz nelems ->
  sym_addr s p c addr o d (esz * nelems) -> sbase s t o = Some b ->
  exists w', ctx_get checks w p c direct esz esz origin addr nelems t = Ok w' /\
    Rel dyn (set_smem s (smem_write (s_mem s) p origin (esz * nelems)
                            (fun k => s_mem s t (b + d + k)))) w'.
Proof.
  intros HI HR Hp Ht (He & Hn & Ham) HS Hb.
  unfold ctx_get. destruct (Z.eqb_spec nelems 0) as [->|Hnz].
  { exists w. split; [reflexivity|]. apply rel_ext_mem; [exact HI|exact HR|].
    intros q a _. rewrite Z.mul_0_r. apply smem_write_zero. }
  destruct HR as (Hw & Hlen & lo & hw & dw & HP & HM).
  destruct (HP p Hp) as (mp & Ep & Hmp). destruct (HP t Ht) as (mt & Et & Hmt).
  rewrite (get_pe_rel _ _ _ _ _ _ _ _ Ep). cbn [bind].
  assert (Hpos : 0 < esz * nelems) by nia.
  destruct (query_resolves dyn s lo hw dw (w_mpi w) checks p c addr o d _ mp HI HM Hp HS Hpos)
    as (x & bf & size & idx & Eq & Hres & Ha & Hd & Hl).
  rewrite Eq. cbn [bind]. subst addr.
  assert (Ebt : bf t = b).
  { destruct Hres as (_ & _ & Hbb & _). destruct (Hbb t Ht) as [E _]. congruence. }
  assert (Hcnt : mpi_count nelems = Ok nelems) by (apply to_int_count; lia).
  assert (Hst : forall a len src, exists w',
     store w p a len src = Ok w' /\
     w' = set_pe w p (set_mem (xpe dyn s lo hw dw p mp) (mem_write mp a len src))).
  { intros. unfold store. rewrite (get_pe_rel _ _ _ _ _ _ _ _ Ep). cbn [bind]. eexists; split; reflexivity. }
  assert (Hfin : Rel dyn (set_smem s (smem_write (s_mem s) p origin (esz * nelems)
                            (fun k => s_mem s t (b + d + k))))
           (set_pe w p (set_mem (xpe dyn s lo hw dw p mp)
              (mem_write mp origin (esz * nelems)
                 (fun k => pe_mem (xpe dyn s lo hw dw t mt) (bf t + d + k)))))).
  { rewrite Ebt. apply (rel_set_mem dyn s w lo hw dw p); auto.
    - intros a. unfold mem_write, smem_write. rewrite Z.eqb_refl. simpl.
      destruct ((origin <=? a) && (a <? origin + esz * nelems)); [apply Hmt | apply Hmp].
    - intros q a Hq. unfold smem_write. destruct (Z.eqb_spec q p); [contradiction|reflexivity]. }
  destruct direct.
  - destruct (direct_resolved dyn s w checks p t o x bf size idx d (esz * nelems) HI Hp Ht Hw Hres Hd Hl)
      as (dd & E1 & E2 & _).
    rewrite E1. cbn [bind]. rewrite Hcnt. cbn [bind]. rewrite E2. cbn [bind].
    rewrite (get_pe_rel _ _ _ _ _ _ _ _ Et). cbn [bind].
    destruct (Hst origin (esz * nelems) (fun k => pe_mem (xpe dyn s lo hw dw t mt) (bf t + d + k)))
      as (w' & Es & ->).
    rewrite Es. eexists; split; [reflexivity|exact Hfin].
  - specialize (Ham eq_refl).
    destruct (am_resolved dyn s lo hw dw w checks p t o x bf size idx d mt HI Hp Ht Hw Hres Hd) as (E1 & E2).
    rewrite E1. cbn [bind]. rewrite Hcnt. cbn [bind].
    rewrite (get_pe_rel _ _ _ _ _ _ _ _ Et). cbn [bind]. rewrite E2. cbn [bind].
    rewrite wrap64_id by (unfold INT_MAX in *; lia). rewrite to_int_count by lia. cbn [bind].
    rewrite Z.ltb_irrefl.
    destruct (Hst origin (esz * nelems) (fun k => pe_mem (xpe dyn s lo hw dw t mt) (bf t + d + k)))
      as (w' & Es & ->).
    rewrite Es. eexists; split; [reflexivity|exact Hfin].
Qed.

(** ** Space creation and destruction *)

Lemma find_app {A} (f : A -> bool) l1 l2 :
  find f (l1 ++ l2) = match find f l1 with Some x => Some x | None => find f l2 end.
Proof. induction l1 as [|a l IH]; [reflexivity|]. simpl. destruct (f a); auto. Qed.

Lemma slookup_set_sp_ne s p l q name : q <> p -> slookup (set_sp s p l) q name = slookup s q name.
Proof. intros H. unfold slookup. simpl. destruct (Z.eqb_spec q p); [contradiction|reflexivity]. Qed.
Lemma slookup_set_sp_eq s p l name :
  slookup (set_sp s p l) p name = find (fun x => ss_name x =? name) l.
Proof. unfold slookup. simpl. rewrite Z.eqb_refl. reflexivity. Qed.

Lemma rel_set_sp dyn s w p l l' :
  SInv s -> Rel dyn s w -> in_pes s p ->
  (forall name k q, In (name, k) (s_att s) -> slookup (set_sp s p l) q name = slookup s q name) ->
  (forall lo hw dw q m, aget (w_pes w) p = Some q -> q = xpe dyn s lo hw dw p m ->
     l' q = map (xspace dyn s lo p) l) ->
  exists q, aget (w_pes w) p = Some q /\
    Rel dyn (set_sp s p l) (set_pe w p (set_spaces q (l' q))).
Proof.
  intros HI (Hw & Hlen & lo & hw & dw & HP & HM) Hp Hl Hl'.
  destruct (HP p Hp) as (mp & Ep & Hmp).
  eexists; split; [exact Ep|].
  split; [exact Hw|]. split; [simpl; rewrite upd_length; exact Hlen|].
  assert (Hsb : forall name k i, In (name, k) (s_att s) -> 0 <= i < Z.of_nat (np s) ->
                 sb (set_sp s p l) name i = sb s name i).
  { intros name k i Hin _. unfold sb. rewrite (Hl name k i Hin). reflexivity. }
  exists lo, hw, dw. split.
  - intros q Hq. assert (Hq' : in_pes s q) by exact Hq. pose proof (np_pos s q HI Hq') as Hnq.
    simpl. destruct (Z.eq_dec q p) as [->|Hne].
    + exists mp. split; [|exact Hmp].
      rewrite aget_upd_eq by (rewrite Hlen; apply np_pos; assumption).
      rewrite (Hl' lo hw dw _ mp Ep eq_refl). unfold set_spaces, xpe. simpl. rewrite Z.eqb_refl.
      f_equal. f_equal. apply map_ext. intros x. symmetry.
      apply xspace_ext; auto.
    + destruct (HP q Hq') as (m & E & Hm). exists m. split; [|exact Hm].
      rewrite aget_upd_ne by (unfold in_pes in *; lia). rewrite E. unfold xpe. simpl.
      destruct (Z.eqb_spec q p); [contradiction|].
      f_equal. f_equal. apply map_ext. intros x. symmetry.
      apply xspace_ext; auto.
  - simpl. apply (relmpi_same dyn s); try reflexivity; auto.
    intros name k Hin. unfold nc, sz, sb. rewrite !(Hl name k _ Hin).
    repeat split. intros i _. rewrite (Hl name k _ Hin). reflexivity.
Qed.

Lemma create_sim dyn checks s w p name base size nctx :
  SInv s -> Rel dyn s w -> in_pes s p -> slookup s p name = None ->
  0 < base -> 0 <= nctx ->
  exists w', space_create checks w p name base size nctx = Ok w' /\
    Rel dyn (set_sp s p (s_sp s p ++ [mkSS name base size nctx])) w'.
Proof.
  intros HI HR Hp Hnone Hb Hn.
  assert (Hwd : w_dyn w = dyn) by apply HR.
  assert (Hna : ~ In name (map fst (s_att s))).
  { intros H. destruct (in_att_names s name H) as (k & Hk).
    rewrite (si_att s HI name k p Hk Hp) in Hnone. discriminate. }
  destruct (rel_set_sp dyn s w p (s_sp s p ++ [mkSS name base size nctx])
              (fun q => pe_spaces q ++ [xspace0 dyn (mkSS name base size nctx)]) HI HR Hp) as (q & Eq & HR').
  - intros nm k q Hin. destruct (Z.eq_dec q p) as [->|Hne].
    + rewrite slookup_set_sp_eq, find_app. fold (slookup s p nm).
      rewrite (si_att s HI nm k p Hin Hp). reflexivity.
    + apply slookup_set_sp_ne. exact Hne.
  - intros lo hw dw q m _ ->. simpl. rewrite map_app. simpl. f_equal. f_equal.
    unfold xspace. simpl. apply att_num_none in Hna. rewrite Hna. reflexivity.
  - unfold space_create, get_pe. rewrite Eq. cbn [of_opt bind].
    unfold c_assert. replace (0 <=? nctx) with true by lia. cbn [bind].
    replace (negb (base =? 0)) with true by lia. cbn [bind].
    eexists. split; [reflexivity|].
    unfold xspace0 in HR'. simpl in HR'. unfold dynictx in HR'. rewrite Hwd. exact HR'.
Qed.

Lemma find_filter_ne {l : list sspace} name nm :
  nm <> name -> find (fun x => ss_name x =? nm) (filter (fun x => negb (ss_name x =? name)) l) =
  find (fun x => ss_name x =? nm) l.
Proof.
  intros H. induction l as [|a l IH]; [reflexivity|]. simpl.
  destruct (Z.eqb_spec (ss_name a) name) as [E|E]; simpl.
  - destruct (Z.eqb_spec (ss_name a) nm); [congruence|exact IH].
  - rewrite IH. reflexivity.
Qed.

Lemma filter_map {A B} (f : B -> bool) (g : A -> B) l :
  filter f (map g l) = map g (filter (fun x => f (g x)) l).
Proof. induction l as [|a l IH]; [reflexivity|]. simpl. destruct (f (g a)); simpl; rewrite IH; reflexivity. Qed.

Lemma destroy_sim dyn s w p name :
  SInv s -> Rel dyn s w -> in_pes s p -> ~ In name (map fst (s_att s)) ->
  exists w', space_destroy w p name = Ok w' /\
    Rel dyn (set_sp s p (filter (fun x => negb (ss_name x =? name)) (s_sp s p))) w'.
Proof.
  intros HI HR Hp Hna.
  destruct (rel_set_sp dyn s w p (filter (fun x => negb (ss_name x =? name)) (s_sp s p))
              (fun q => filter (fun s => negb (sp_name s =? name)) (pe_spaces q)) HI HR Hp) as (q & Eq & HR').
  - intros nm k q Hin. destruct (Z.eq_dec q p) as [->|Hne].
    + rewrite slookup_set_sp_eq, find_filter_ne; [reflexivity|].
      intros ->. apply Hna. change name with (fst (name, k)). apply in_map. exact Hin.
    + apply slookup_set_sp_ne. exact Hne.
  - intros lo hw dw q m _ ->. simpl. rewrite filter_map. f_equal.
    apply filter_ext. intros x. rewrite xspace_name. reflexivity.
  - unfold space_destroy, get_pe. rewrite Eq. cbn [of_opt bind]. eexists. split; [reflexivity|exact HR'].
Qed.
