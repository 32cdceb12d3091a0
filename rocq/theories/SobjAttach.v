(** Attaching and detaching spaces preserves the simulation relation. *)
From Verif Require Import Base BaseProofs SobjModel SobjSpec SobjProofs SobjRel SobjSim.

(** ** Windows *)

Lemma wfind_create m regs m' k' j :
  win_create m regs = (m', k') ->
  wfind m' j = (if j =? m_next m then Some regs else wfind m j).
Proof.
  intros H. injection H as <- _. unfold wfind. simpl.
  rewrite (Z.eqb_sym (m_next m) j). destruct (j =? m_next m); reflexivity.
Qed.

Lemma ctx_wins_spec regs : forall n m,
  m_next (fst (ctx_wins m regs n)) = m_next m + Z.of_nat n /\
  m_dyn (fst (ctx_wins m regs n)) = m_dyn m /\
  snd (ctx_wins m regs n) = map (fun j => Win (m_next m + j)) (zseq 0 n) /\
  forall j, wfind (fst (ctx_wins m regs n)) j =
    (if (m_next m <=? j) && (j <? m_next m + Z.of_nat n) then Some regs else wfind m j).
Proof.
  induction n as [|n IH]; intros m.
  - simpl. repeat split; try lia. intros j. destruct (_ && _) eqn:E; [lia|reflexivity].
  - cbn [ctx_wins].
    destruct (win_create m regs) as [m1 k] eqn:Ec.
    pose proof (wfind_create _ _ _ _ 0 Ec) as _.
    assert (Hk : k = Win (m_next m)) by (injection Ec; auto).
    assert (Hn : m_next m1 = m_next m + 1) by (injection Ec as <- _; reflexivity).
    assert (Hd : m_dyn m1 = m_dyn m) by (injection Ec as <- _; reflexivity).
    specialize (IH m1). destruct (ctx_wins m1 regs n) as [m2 l]. cbn [fst snd] in *.
    destruct IH as (I1 & I2 & I3 & I4).
    split; [lia|]. split; [congruence|]. split.
    + rewrite zseq_S. cbn [map]. rewrite Hk, I3. f_equal; [f_equal; lia|].
      unfold zseq. rewrite !map_map. apply map_ext. intros i. f_equal. lia.
    + intros j. rewrite I4, (wfind_create _ _ _ _ j Ec), Hn.
      destruct ((m_next m + 1 <=? j) && (j <? m_next m + 1 + Z.of_nat n)) eqn:E1;
      destruct ((m_next m <=? j) && (j <? m_next m + Z.of_nat (S n))) eqn:E2;
      destruct (Z.eqb_spec j (m_next m)); try reflexivity; try lia.
Qed.

Lemma wfind_free m w j :
  wfind (win_free m w) j =
  match w with
  | WinNull => wfind m j
  | Win k => if j =? k then None else wfind m j
  end.
Proof.
  destruct w as [|k]; [reflexivity|]. unfold wfind. simpl.
  induction (m_wins m) as [|e l IH]; simpl.
  - destruct (j =? k); reflexivity.
  - destruct (Z.eqb_spec (fst e) k) as [E|E]; simpl.
    + rewrite IH. destruct (Z.eqb_spec j k); [reflexivity|].
      destruct (Z.eqb_spec (fst e) j); [congruence|reflexivity].
    + destruct (Z.eqb_spec (fst e) j) as [E2|E2]; simpl.
      * destruct (Z.eqb_spec j k); [congruence|reflexivity].
      * exact IH.
Qed.

Lemma free_list_spec : forall l m,
  m_next (fold_left win_free l m) = m_next m /\ m_dyn (fold_left win_free l m) = m_dyn m /\
  forall j, ~ In (Win j) l -> wfind (fold_left win_free l m) j = wfind m j.
Proof.
  induction l as [|w l IH]; intros m; simpl; [auto|].
  destruct (IH (win_free m w)) as (A & B & C).
  split; [rewrite A; destruct w; reflexivity|]. split; [rewrite B; destruct w; reflexivity|].
  intros j Hj. rewrite C by (intros H; apply Hj; right; exact H).
  rewrite wfind_free. destruct w as [|k]; [reflexivity|].
  destruct (Z.eqb_spec j k) as [->|]; [exfalso; apply Hj; left; reflexivity|reflexivity].
Qed.

(** ** Attach *)

Lemma find_space_rel dyn s lo hw dw p m name x :
  slookup s p name = Some x ->
  find_space (xpe dyn s lo hw dw p m) name = Some (xspace dyn s lo p x).
Proof.
  intros Ex. unfold find_space. simpl. rewrite find_map.
  erewrite find_ext'; [|intros y _; rewrite xspace_name; reflexivity].
  unfold slookup in Ex. rewrite Ex. reflexivity.
Qed.

Lemma c_assert_true checks : c_assert checks true = Ok tt.
Proof. reflexivity. Qed.

Lemma np_len s w : length (w_pes w) = np s -> SInv s -> exists n, np s = S n.
Proof.
  intros _ HI. pose proof (si_n s HI). unfold np.
  exists (Nat.pred (Z.to_nat (s_n s))). lia.
Qed.

Lemma head_zmap {A} (g : Z -> A) n d : (match map g (zseq 0 (S n)) with [] => d | a :: _ => a end) = g 0.
Proof. rewrite zseq_S. reflexivity. Qed.

Lemma map_combine_zseq {A B} (f : Z -> A) (l : list B) n :
  length l = n -> forall p a, aget l p = Some a ->
  aget (combine (map f (zseq 0 n)) l) p = Some (f p, a).
Proof.
  intros Hl p a H. pose proof (aget_some _ _ _ H) as Hr.
  unfold aget in *. destruct (Z.ltb_spec p 0); [discriminate|].
  assert (E : nth_error (map f (zseq 0 n)) (Z.to_nat p) = Some (f p)).
  { pose proof (aget_zmap f n p) as G. unfold aget in G.
    destruct (Z.ltb_spec p 0); [lia|]. apply G. lia. }
  revert E H. clear. generalize (Z.to_nat p) as i. generalize (map f (zseq 0 n)) as l1.
  intros l1 i. revert l1 l. induction i as [|i IH]; intros [|a1 l1] [|b l]; simpl; try discriminate.
  - congruence.
  - apply IH.
Qed.

(** A space seen by every PE: the model's list of spaces in attach/detach. *)
Lemma spaces_outs dyn s w lo hw dw name (x : Z -> sspace) :
  length (w_pes w) = np s -> SInv s ->
  (forall p, in_pes s p -> exists m, aget (w_pes w) p = Some (xpe dyn s lo hw dw p m) /\
                                     forall a, m a = s_mem s p a) ->
  (forall p, in_pes s p -> slookup s p name = Some (x p)) ->
  outs (fun i => do q <- get_pe w i; of_opt (find_space q name)) 0 (length (w_pes w)) =
  Ok (map (fun i => xspace dyn s lo i (x i)) (zseq 0 (np s))).
Proof.
  intros Hlen HI HP Hx. rewrite Hlen. apply outs_ok. intros i Hi.
  assert (Hi' : in_pes s i) by (apply in_np; lia).
  destruct (HP i Hi') as (m & E & _). rewrite (get_pe_rel _ _ _ _ _ _ _ _ E). cbn [bind].
  rewrite (find_space_rel dyn s lo hw dw i m name (x i) (Hx i Hi')). reflexivity.
Qed.

Definition mkx (s : sst) (name : Z) (size nctx : Z) (p : Z) : sspace :=
  mkSS name (sb s name p) size nctx.

Lemma slookup_mkx s name size nctx p b :
  slookup s p name = Some (mkSS name b size nctx) -> slookup s p name = Some (mkx s name size nctx p).
Proof. intros H. unfold mkx, sb. rewrite H. reflexivity. Qed.

Lemma in_pes_0 s : SInv s -> in_pes s 0.
Proof. intros HI. pose proof (si_n s HI). unfold in_pes. lia. Qed.

Lemma attach_sim dyn checks s w name size nctx :
  SInv s -> Rel dyn s w ->
  ~ In name (map fst (s_att s)) -> s_cnt s < 2 ^ 29 ->
  (forall p, in_pes s p -> exists b, slookup s p name = Some (mkSS name b size nctx)) ->
  exists w', space_attach checks w name = Ok w' /\
    Rel dyn (set_att s ((name, s_cnt s) :: s_att s) (s_cnt s + 1)) w'.
Proof.
  intros HI (Hw & Hlen & lo & hw & dw & HP & HM) Hna Hcnt Hall.
  assert (Hx : forall p, in_pes s p -> slookup s p name = Some (mkx s name size nctx p)).
  { intros p Hp. destruct (Hall p Hp) as (b & E). apply (slookup_mkx _ _ _ _ _ b E). }
  assert (Hsz : sz s name = size) by (unfold sz; rewrite (Hx 0 (in_pes_0 s HI)); reflexivity).
  assert (Hnc : nc s name = nctx) by (unfold nc; rewrite (Hx 0 (in_pes_0 s HI)); reflexivity).
  assert (Hn0 : 0 <= nctx).
  { pose proof (Hx 0 (in_pes_0 s HI)) as E. apply slookup_in in E. destruct E as [E _].
    pose proof (si_nctx s HI 0 (in_pes_0 s HI)) as F. rewrite Forall_forall in F.
    apply F in E. exact E. }
  pose proof Hna as Hnn. apply att_num_none in Hnn.
  unfold space_attach.
  rewrite (spaces_outs dyn s w lo hw dw name _ Hlen HI HP Hx). cbn [bind].
  set (xs := fun i => xspace dyn s lo i (mkx s name size nctx i)).
  assert (Exs : forall i, xs i = xspace0 dyn (mkx s name size nctx i))
    by (intros i; unfold xs, xspace; simpl; rewrite Hnn; reflexivity).
  rewrite Hlen.
  rewrite (outs_ok _ (fun _ => tt)).
  2:{ intros i Hi. rewrite (aget_zmap xs) by lia. cbn [of_opt bind]. rewrite Exs. reflexivity. }
  cbn [bind].
  rewrite !map_map.
  rewrite (zmap_ext (fun i => a_base (sp_attr (xs i))) (sb s name)) by (intros; rewrite Exs; reflexivity).
  rewrite (zmap_ext (fun i => (a_base (sp_attr (xs i)), a_size (sp_attr (xs i))))
             (fun p => (sb s name p, sz s name))) by (intros; rewrite Exs, Hsz; reflexivity).
  set (regs := map (fun p => (sb s name p, sz s name)) (zseq 0 (np s))).
  destruct (np_len s w Hlen HI) as (n' & En).
  assert (Hn1 : (match map xs (zseq 0 (np s)) with [] => 0 | s0 :: _ => sp_nctx s0 end) = nctx)
    by (rewrite En, zseq_S; simpl; rewrite Exs; reflexivity).
  rewrite Hn1.
  set (m1d := if w_dyn w then (dyn_attach (w_mpi w) regs, Win DYN_WIN) else win_create (w_mpi w) regs).
  destruct m1d as [m1 dflt] eqn:Em1.
  pose proof (ctx_wins_spec regs (Z.to_nat nctx) m1) as (C1 & C2 & C3 & C4).
  destruct (ctx_wins m1 regs (Z.to_nat nctx)) as [m2 cws] eqn:Em2. cbn [fst snd] in C1, C2, C3, C4.
  assert (N1 : m_next m1 = m_next (w_mpi w) + off dyn).
  { unfold m1d in Em1. rewrite Hw in Em1. destruct dyn; injection Em1 as <- _; unfold off; simpl; lia. }
  assert (W1 : forall j, wfind m1 j = if (negb dyn) && (j =? m_next (w_mpi w)) then Some regs else wfind (w_mpi w) j).
  { intros j. unfold m1d in Em1. rewrite Hw in Em1. destruct dyn.
    - injection Em1 as <- _. reflexivity.
    - apply (wfind_create _ _ _ _ j Em1). }
  assert (D1 : dflt = if dyn then Win DYN_WIN else Win (m_next (w_mpi w))).
  { unfold m1d in Em1. rewrite Hw in Em1. destruct dyn; injection Em1 as _ <-; reflexivity. }
  assert (Y1 : m_dyn m1 = if dyn then map (fun rl => fst rl :: snd rl) (combine regs (m_dyn (w_mpi w)))
                          else m_dyn (w_mpi w)).
  { unfold m1d in Em1. rewrite Hw in Em1. destruct dyn; injection Em1 as <- _; reflexivity. }
  clear Em1 m1d.
  set (K := s_cnt s).
  set (lo' := fun k => if k =? K then m_next (w_mpi w) else lo k).
  set (s' := set_att s ((name, K) :: s_att s) (K + 1)).
  assert (Hold : forall nm k, In (nm, k) (s_att s) -> nm <> name /\ k <> K /\ lo' k = lo k /\ k < K).
  { intros nm k Hin. pose proof (si_att_rng s HI nm k Hin) as R.
    assert (k <> K) by (unfold K; lia).
    split; [|split; [assumption|split; [|unfold K; lia]]].
    - intros ->. apply Hna. change name with (fst (name, k)). apply in_map. exact Hin.
    - unfold lo'. destruct (Z.eqb_spec k K); [contradiction|reflexivity]. }
  assert (Hxs : forall p x, in_pes s p -> In x (s_sp s p) ->
    xspace dyn s' lo' p x =
    if ss_name x =? name then xspace1 dyn (np s) (sb s name) (m_next (w_mpi w)) K p x
    else xspace dyn s lo p x).
  { intros p x Hp Hin. unfold xspace at 1. unfold s' at 1. simpl s_att. unfold att_num. simpl find.
    destruct (Z.eqb_spec name (ss_name x)) as [<-|Hne]; simpl.
    - rewrite Z.eqb_refl. unfold lo'. rewrite Z.eqb_refl. reflexivity.
    - destruct (Z.eqb_spec (ss_name x) name); [congruence|].
      unfold xspace, att_num.
      destruct (find (fun e => fst e =? ss_name x) (s_att s)) as [[a k]|] eqn:E; simpl; [|reflexivity].
      apply find_some in E. destruct E as [E _]. destruct (Hold a k E) as (_ & _ & El & _).
      rewrite El. reflexivity. }
  rewrite (outs_ok _ (fun i =>
     attach_pe dyn (match aget (w_pes w) i with Some q => q | None => xpe dyn s lo hw dw i (s_mem s i) end)
       (xs i) (xattr dyn (np s) (sb s name) i (sz s name) SPACE_ATTACHED_HEAP K) dflt cws)).
  2:{ intros i Hi. destruct (HP i (in_np s i ltac:(lia))) as (m & E & _).
      rewrite (get_pe_rel _ _ _ _ _ _ _ _ E). cbn [bind].
      rewrite (aget_zmap xs) by lia. cbn [of_opt bind]. rewrite Hw.
      rewrite make_attr_ok by lia. cbn [bind]. rewrite E. rewrite Exs. simpl. rewrite Hsz. reflexivity. }
  cbn [bind]. eexists; split; [reflexivity|].
  split; [exact Hw|]. split; [simpl; rewrite map_length, zseq_length; reflexivity|].
  exists lo', hw, dw. split.
  - intros p Hp. assert (Hp' : in_pes s p) by exact Hp. pose proof (np_pos s p HI Hp') as Hnp.
    destruct (HP p Hp') as (m & E & Hm). exists m. split; [|exact Hm].
    simpl w_pes. rewrite aget_zmap by exact Hnp. rewrite E. f_equal.
    unfold attach_pe, xpe. simpl. f_equal.
    unfold replace_space. rewrite map_map. apply map_ext_in. intros x Hin.
    fold K. fold s'. rewrite (Hxs p x Hp' Hin), xspace_name.
    replace (sp_name (xs p)) with name by (rewrite Exs; reflexivity).
    destruct (Z.eqb_spec (ss_name x) name) as [En2|]; [|reflexivity].
    assert (Ex : x = mkx s name size nctx p).
    { pose proof (slookup_unique s p x HI Hp' Hin) as E2. rewrite En2, (Hx p Hp') in E2. congruence. }
    rewrite Exs, Ex. unfold xspace1. simpl. rewrite Hsz. rewrite D1.
    f_equal.
    + destruct dyn; reflexivity.
    + destruct (0 <? nctx); [|reflexivity]. f_equal. rewrite C3, N1, map_map. reflexivity.
  - assert (Hoff : 0 <= off dyn <= 1) by (unfold off; destruct dyn; lia).
    simpl w_mpi. constructor.
    + rewrite C2, Y1. destruct dyn; [|apply (rm_len _ _ _ _ _ _ HM)].
      rewrite map_length, combine_length. unfold regs. rewrite map_length, zseq_length.
      rewrite (rm_len _ _ _ _ _ _ HM). apply Nat.min_id.
    + intros Hd. destruct (rm_heap _ _ _ _ _ _ HM Hd) as [E L]. split.
      * rewrite C4, W1. replace ((m_next m1 <=? hw) && (hw <? m_next m1 + Z.of_nat (Z.to_nat nctx))) with false by lia.
        replace (negb dyn && (hw =? m_next (w_mpi w))) with false by lia. exact E.
      * lia.
    + intros Hd. destruct (rm_data _ _ _ _ _ _ HM Hd) as [E L]. split.
      * rewrite C4, W1. replace ((m_next m1 <=? dw) && (dw <? m_next m1 + Z.of_nat (Z.to_nat nctx))) with false by lia.
        replace (negb dyn && (dw =? m_next (w_mpi w))) with false by lia. exact E.
      * lia.
    + intros nm k i Hin Hi. simpl in Hin. change (nc s' nm) with (nc s nm) in Hi.
      change (np s') with (np s). change (sz s' nm) with (sz s nm).
      replace (map (fun p => (sb s' nm p, sz s nm)) (zseq 0 (np s)))
         with (map (fun p => (sb s nm p, sz s nm)) (zseq 0 (np s))) by reflexivity.
      destruct Hin as [E|Hin].
      * injection E as <- <-. unfold lo'. rewrite Z.eqb_refl. rewrite C4, W1. fold regs.
        rewrite Hnc in Hi. unfold off in *. destruct dyn; simpl.
        -- replace ((m_next m1 <=? m_next (w_mpi w) + i) && _) with true by lia. reflexivity.
        -- destruct ((m_next m1 <=? m_next (w_mpi w) + i) && _) eqn:E1; [reflexivity|].
           replace (m_next (w_mpi w) + i =? m_next (w_mpi w)) with true by lia. reflexivity.
      * destruct (Hold nm k Hin) as (_ & _ & El & _). rewrite El.
        pose proof (rm_hi _ _ _ _ _ _ HM nm k Hin) as Hh.
        rewrite C4, W1. replace ((m_next m1 <=? lo k + i) && _) with false by (unfold off in *; destruct dyn; lia).
        replace (negb dyn && (lo k + i =? m_next (w_mpi w))) with false by (unfold off in *; destruct dyn; simpl; lia).
        apply (rm_win _ _ _ _ _ _ HM nm k i Hin Hi).
    + intros nm k Hin. simpl in Hin. change (nc s' nm) with (nc s nm).
      rewrite C1, N1. destruct Hin as [E|Hin].
      * injection E as <- <-. unfold lo'. rewrite Z.eqb_refl. unfold off. destruct dyn; lia.
      * destruct (Hold nm k Hin) as (_ & _ & El & _). rewrite El.
        pose proof (rm_hi _ _ _ _ _ _ HM nm k Hin) as Hh. unfold off in *. destruct dyn; lia.
    + intros nm k Hin. simpl in Hin. destruct Hin as [E|Hin].
      * injection E as <- <-. unfold lo'. rewrite Z.eqb_refl. destruct dyn.
        -- apply (rm_next _ _ _ _ _ _ HM eq_refl).
        -- exact (conj (proj2 (rm_heap _ _ _ _ _ _ HM eq_refl)) (proj2 (rm_data _ _ _ _ _ _ HM eq_refl))).
      * destruct (Hold nm k Hin) as (_ & _ & El & _). rewrite El. apply (rm_lo _ _ _ _ _ _ HM nm k Hin).
    + intros Hd. pose proof (rm_next _ _ _ _ _ _ HM Hd). unfold off in N1. destruct dyn; lia.
    + intros n1 k1 n2 k2 I1 I2 Hlt. simpl in I1, I2. change (nc s' n1) with (nc s n1).
      destruct I1 as [E1|I1], I2 as [E2|I2].
      * injection E1 as <- <-. injection E2 as <- <-. lia.
      * injection E1 as <- <-. destruct (Hold n2 k2 I2) as (_ & _ & _ & L). lia.
      * injection E2 as <- <-. destruct (Hold n1 k1 I1) as (_ & _ & El & _). rewrite El.
        unfold lo' at 1. rewrite Z.eqb_refl. apply (rm_hi _ _ _ _ _ _ HM n1 k1 I1).
      * destruct (Hold n1 k1 I1) as (_ & _ & El & _). destruct (Hold n2 k2 I2) as (_ & _ & El2 & _).
        rewrite El, El2. apply (rm_disj _ _ _ _ _ _ HM n1 k1 n2 k2 I1 I2 Hlt).
    + intros Hd p Hp. assert (Hp' : in_pes s p) by exact Hp. rewrite Hd in Y1.
      destruct (rm_dyn _ _ _ _ _ _ HM Hd p Hp') as (rg & A & B & C & D).
      exists ((sb s name p, sz s name) :: rg). rewrite C2, Y1.
      split.
      { rewrite aget_map. unfold regs.
        rewrite (map_combine_zseq _ _ _ (rm_len _ _ _ _ _ _ HM) p rg A). reflexivity. }
      split; [right; exact B|]. split; [right; exact C|].
      intros nm k Hin. simpl in Hin. destruct Hin as [E|Hin].
      * injection E as <- <-. left. reflexivity.
      * right. apply (D nm k Hin).
Qed.
