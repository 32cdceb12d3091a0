From Verif Require Import Base BaseProofs ListLib TeamModel TeamSpec.

Lemma entries_map colors : forall g i,
  entries colors i g = map (fun e => (colors (fst e), e)) (combine (zseq i (length g)) g).
Proof.
  induction g as [|p r IH]; intros i; [reflexivity|].
  cbn [entries length]. rewrite zseq_S. cbn [combine map]. rewrite IH. reflexivity.
Qed.

Lemma entries_fst colors g : forall i, map fst (entries colors i g) = map colors (zseq i (length g)).
Proof.
  induction g as [|p r IH]; intros i; [reflexivity|].
  cbn [entries length]. rewrite zseq_S. cbn [map fst]. rewrite IH. reflexivity.
Qed.

(** Keys increasing: the sort changes nothing. *)
Inductive kinc : list (Z * Z) -> Prop :=
| kinc_nil : kinc []
| kinc_cons e l : (forall f, In f l -> fst e <= fst f) -> kinc l -> kinc (e :: l).

Lemma sort_kinc l : kinc l -> sort_keys l = l.
Proof.
  induction 1 as [|e l H1 H2 IH]; [reflexivity|].
  unfold sort_keys in *. simpl. rewrite IH. destruct l as [|f l]; [reflexivity|].
  simpl. destruct (Z.leb_spec (fst e) (fst f)); [reflexivity|].
  specialize (H1 f (or_introl eq_refl)). lia.
Qed.

Lemma kinc_entries g : forall i, kinc (combine (zseq i (length g)) g) /\
  forall f, In f (combine (zseq i (length g)) g) -> i <= fst f.
Proof.
  induction g as [|p r IH]; intros i; cbn [length]; [split; [constructor|intros ? []]|].
  rewrite zseq_S. cbn [combine]. destruct (IH (i + 1)) as [A B].
  split.
  - constructor; [|exact A]. intros f Hf. specialize (B f Hf). simpl. lia.
  - intros f [<-|Hf]; [simpl; lia|]. specialize (B f Hf). lia.
Qed.

Lemma kinc_filter f l : kinc l -> kinc (filter f l).
Proof.
  induction 1 as [|a l H1 H2 IH]; simpl; [constructor|].
  destruct (f a); [|exact IH]. constructor; [|exact IH].
  intros b Hb. apply filter_In in Hb. apply H1. tauto.
Qed.

Definition gnth (g : group) (i : Z) : Z := match aget g i with Some p => p | None => 0 end.

Lemma combine_gnth g : combine (zseq 0 (length g)) g = map (fun i => (i, gnth g i)) (zseq 0 (length g)).
Proof.
  assert (H : forall l k (pre : list Z), length pre = k ->
     combine (zseq (Z.of_nat k) (length l)) l = map (fun i => (i, gnth (pre ++ l) i)) (zseq (Z.of_nat k) (length l))).
  { induction l as [|p l IH]; intros k pre Hk; [reflexivity|].
    cbn [length]. rewrite zseq_S. cbn [combine map]. f_equal.
    - f_equal. unfold gnth, aget. destruct (Z.ltb_spec (Z.of_nat k) 0); [lia|].
      rewrite Nat2Z.id, nth_error_app2 by lia. rewrite Hk, Nat.sub_diag. reflexivity.
    - specialize (IH (S k) (pre ++ [p])). rewrite app_length in IH. simpl length in IH.
      rewrite <- app_assoc in IH. simpl in IH.
      replace (Z.of_nat (S k)) with (Z.of_nat k + 1) in IH by lia. apply IH. lia. }
  apply (H g 0%nat []). reflexivity.
Qed.

(** The group with a given colour lists the old ranks of that colour in increasing order. *)
Lemma color_group_spec g colors c :
  color_group (entries colors 0 g) c = map (gnth g) (filter (fun i => colors i =? c) (zseq 0 (length g))).
Proof.
  unfold color_group. rewrite entries_map, map_filter, map_map. cbn [fst snd].
  rewrite map_id.
  rewrite sort_kinc by (apply kinc_filter; apply kinc_entries).
  rewrite combine_gnth, map_filter, map_map. cbn [fst snd]. reflexivity.
Qed.

Lemma team_split_ok g colors :
  (forall i, 0 <= i < Z.of_nat (length g) -> 0 <= colors i \/ colors i = MPI_UNDEFINED) ->
  team_split g colors = Ok (map (fun i => if colors i =? MPI_UNDEFINED then TInvalid
     else TObj (map (gnth g) (filter (fun j => colors j =? colors i) (zseq 0 (length g))))) (zseq 0 (length g))).
Proof.
  intros H. unfold team_split, comm_split.
  assert (E : existsb (fun e => (fst e <? 0) && negb (fst e =? MPI_UNDEFINED)) (entries colors 0 g) = false).
  { apply not_true_is_false. rewrite existsb_exists. intros (e & He & Hb).
    assert (Hc : In (fst e) (map colors (zseq 0 (length g))))
      by (rewrite <- entries_fst; apply in_map; exact He).
    apply in_map_iff in Hc. destruct Hc as (i & Ei & Hi). apply in_zseq in Hi.
    destruct (H i ltac:(lia)); lia. }
  rewrite E. cbn [bind]. f_equal. rewrite map_map.
  rewrite <- (map_map fst (fun c => match (if c =? MPI_UNDEFINED then None else
      Some (color_group (entries colors 0 g) c)) with Some h => TObj h | None => TInvalid end)).
  rewrite entries_fst, map_map. apply zmap_ext. intros i Hi.
  destruct (colors i =? MPI_UNDEFINED); [reflexivity|]. rewrite color_group_spec. reflexivity.
Qed.

(** ** Groups as lists without repetition *)

Lemma index_of_some g p i : index_of g p = Some i -> aget g i = Some p.
Proof.
  revert i. induction g as [|q r IH]; intros i H; [discriminate|]. simpl in H.
  destruct (Z.eqb_spec q p) as [->|].
  - injection H as <-. reflexivity.
  - destruct (index_of r p) as [j|] eqn:E; [|discriminate]. injection H as <-.
    specialize (IH j eq_refl). pose proof (aget_some _ _ _ IH) as Hj. unfold aget in *.
    destruct (Z.ltb_spec j 0); [discriminate|]. destruct (Z.ltb_spec (j + 1) 0); [lia|].
    replace (Z.to_nat (j + 1)) with (S (Z.to_nat j)) by lia. exact IH.
Qed.

Lemma index_of_none g p : index_of g p = None <-> ~ In p g.
Proof.
  induction g as [|q r IH]; simpl; [tauto|].
  destruct (Z.eqb_spec q p) as [->|].
  - split; [discriminate|]. intros H. exfalso. apply H. auto.
  - destruct (index_of r p) eqn:E; simpl.
    + split; [discriminate|]. intros H. exfalso. apply H. right.
      apply index_of_some, aget_In in E. exact E.
    + split; [|reflexivity]. intros _ [H|H]; [congruence|]. apply IH in H; [exact H|reflexivity].
Qed.

Lemma aget_nodup (g : group) i j p : NoDup g -> aget g i = Some p -> aget g j = Some p -> i = j.
Proof.
  intros ND Hi Hj. pose proof (aget_some _ _ _ Hi). pose proof (aget_some _ _ _ Hj).
  unfold aget in *. destruct (Z.ltb_spec i 0); [discriminate|]. destruct (Z.ltb_spec j 0); [discriminate|].
  rewrite NoDup_nth_error in ND. specialize (ND (Z.to_nat i) (Z.to_nat j)).
  rewrite Hi, Hj in ND. specialize (ND ltac:(lia) eq_refl). lia.
Qed.

Lemma index_of_nodup g p i : NoDup g -> aget g i = Some p -> index_of g p = Some i.
Proof.
  intros ND H. destruct (index_of g p) as [j|] eqn:E.
  - f_equal. eapply aget_nodup; eauto. apply index_of_some. exact E.
  - apply index_of_none in E. exfalso. apply E. eapply aget_In; eauto.
Qed.

Lemma gnth_aget g i : 0 <= i < Z.of_nat (length g) -> aget g i = Some (gnth g i).
Proof. intros H. unfold gnth. destruct (aget_ex g i H) as (a & ->). reflexivity. Qed.

Lemma nodup_sub g l : NoDup g -> NoDup l -> (forall i, In i l -> 0 <= i < Z.of_nat (length g)) ->
  NoDup (map (gnth g) l).
Proof.
  intros ND NL HL. induction NL as [|i l Hi NL IH]; [constructor|]. cbn [map]. constructor.
  - intros Hin. apply in_map_iff in Hin. destruct Hin as (j & Ej & Hj).
    assert (i = j); [|subst; contradiction].
    apply (aget_nodup g i j (gnth g i) ND).
    + apply gnth_aget. apply HL. left; reflexivity.
    + rewrite <- Ej. apply gnth_aget. apply HL. right; exact Hj.
  - apply IH. intros j Hj. apply HL. right; exact Hj.
Qed.

Lemma zinc_nodup l : zinc l -> NoDup l.
Proof.
  induction 1 as [|a l H1 H2 IH]; constructor; auto. intros H. specialize (H1 a H). lia.
Qed.

Lemma sub_group_nodup g f : NoDup g -> NoDup (map (gnth g) (filter f (zseq 0 (length g)))).
Proof.
  intros ND. apply nodup_sub; [exact ND| |].
  - apply zinc_nodup, zinc_filter, zinc_zseq.
  - intros i Hi. apply filter_In in Hi. destruct Hi as [Hi _]. apply in_zseq in Hi. lia.
Qed.

(** ** Strided split *)

Definition fits (n start stride size : Z) : Prop :=
  0 <= start /\ 0 < stride /\ 0 < size /\ start + stride * (size - 1) < n.

Lemma int_op_ok z : - 2 ^ 31 <= z <= INT_MAX -> int_op z = Ok z.
Proof. intros H. unfold int_op. replace (_ && _) with true by lia. reflexivity. Qed.

Lemma strided_color_ok n my start stride size :
  n <= INT_MAX -> fits n start stride size -> 0 <= my < n ->
  strided_color n my start stride size =
    Ok (Some (if (start <=? my) && (my <=? start + stride * (size - 1)) && ((my - start) mod stride =? 0)
              then 1 else MPI_UNDEFINED)).
Proof.
  unfold INT_MAX. intros Hn (Hs & Hst & Hsz & Hf) Hm. unfold strided_color.
  replace ((start <? 0) || (n <=? start)) with false by nia.
  rewrite int_op_ok by (unfold INT_MAX; nia). cbn [bind].
  rewrite int_op_ok by (unfold INT_MAX; nia). cbn [bind].
  rewrite int_op_ok by (unfold INT_MAX; nia). cbn [bind].
  replace ((start + stride * (size - 1) <? 0) || (n <=? start + stride * (size - 1))) with false by nia.
  destruct (Z.leb_spec start my); cbn [andb].
  - destruct (Z.leb_spec my (start + stride * (size - 1))); cbn [andb].
    + replace (stride =? 0) with false by lia. cbn [bind].
      rewrite Z.rem_mod_nonneg by lia. reflexivity.
    + reflexivity.
  - reflexivity.
Qed.

Lemma strided_filter n start stride size :
  fits (Z.of_nat n) start stride size ->
  filter (fun i => (start <=? i) && (i <=? start + stride * (size - 1)) && ((i - start) mod stride =? 0))
         (zseq 0 n) = map (fun k => start + k * stride) (zseq 0 (Z.to_nat size)).
Proof.
  intros (Hs & Hst & Hsz & Hf).
  apply zinc_ext; [apply zinc_filter, zinc_zseq | apply zinc_map_lin; lia |].
  intros x. rewrite filter_In, in_zseq, in_map_iff. split.
  - intros [H1 H2]. exists ((x - start) / stride).
    assert (Hm : (x - start) mod stride = 0) by lia.
    pose proof (Z.div_mod (x - start) stride ltac:(lia)) as E. rewrite Hm in E.
    split; [nia|]. rewrite in_zseq. nia.
  - intros (k & <- & Hk). rewrite in_zseq in Hk.
    replace (start + k * stride - start) with (k * stride) by lia. rewrite Z.mod_mul by lia. nia.
Qed.

Lemma existsb_none_map {A} (f : A -> Z) l :
  existsb (fun c : option Z => match c with None => true | Some _ => false end) (map (fun i => Some (f i)) l) = false.
Proof. induction l; simpl; auto. Qed.

Lemma split_strided_valid G parent g start stride size :
  team_group G parent = Some g -> Z.of_nat (length g) <= INT_MAX ->
  fits (Z.of_nat (length g)) start stride size ->
  exists l, split_strided G parent start stride size = Ok l /\ length l = length g /\
    let g' := map (fun k => gnth g (start + k * stride)) (zseq 0 (Z.to_nat size)) in
    forall r, 0 <= r < Z.of_nat (length g) ->
      ((exists k, 0 <= k < size /\ r = start + k * stride) /\ aget l r = Some (SHMEM_SUCCESS, TObj g')) \/
      (~ (exists k, 0 <= k < size /\ r = start + k * stride) /\ aget l r = Some (SHMEM_SUCCESS, TInvalid)).
Proof.
  intros Hg Hn Hf. unfold split_strided. rewrite Hg.
  set (sel := fun i => (start <=? i) && (i <=? start + stride * (size - 1)) && ((i - start) mod stride =? 0)).
  rewrite (outs_ok _ (fun i => Some (if sel i then 1 else MPI_UNDEFINED))).
  2:{ intros i Hi. apply strided_color_ok; auto. }
  cbn [bind]. rewrite existsb_none_map.
  set (colors := fun i => match aget (map (fun i0 => Some (if sel i0 then 1 else MPI_UNDEFINED)) (zseq 0 (length g))) i with
                          | Some (Some c) => c | _ => MPI_UNDEFINED end).
  assert (Ec : forall i, 0 <= i < Z.of_nat (length g) -> colors i = if sel i then 1 else MPI_UNDEFINED).
  { intros i Hi. unfold colors. rewrite aget_zmap by exact Hi. reflexivity. }
  rewrite team_split_ok.
  2:{ intros i Hi. rewrite Ec by exact Hi. destruct (sel i); [left; lia|right; reflexivity]. }
  cbn [bind]. eexists. split; [reflexivity|]. split.
  { rewrite map_length, map_length, zseq_length. reflexivity. }
  set (g' := map (fun k => gnth g (start + k * stride)) (zseq 0 (Z.to_nat size))).
  intros r Hr. rewrite map_map, aget_zmap by exact Hr. rewrite Ec by exact Hr.
  assert (Hsel : sel r = true <-> exists k, 0 <= k < size /\ r = start + k * stride).
  { pose proof (strided_filter (length g) start stride size Hf) as E. fold sel in E.
    assert (HI : In r (filter sel (zseq 0 (length g))) <-> sel r = true)
      by (rewrite filter_In, in_zseq; split; [tauto|split; [lia|assumption]]).
    rewrite <- HI, E, in_map_iff. destruct Hf as (? & ? & ? & ?). split.
    - intros (k & <- & Hk). apply in_zseq in Hk. exists k. split; [lia|reflexivity].
    - intros (k & Hk & ->). exists k. split; [reflexivity|]. apply in_zseq. lia. }
  destruct (sel r) eqn:Es.
  - left. split; [apply Hsel; reflexivity|]. replace (1 =? MPI_UNDEFINED) with false by reflexivity.
    do 3 f_equal. unfold g'. rewrite <- (map_map (fun k => start + k * stride) (gnth g)).
    rewrite <- strided_filter with (n := length g) by exact Hf. fold sel.
    rewrite (filter_ext_in _ sel); [reflexivity|].
    intros j Hj. apply in_zseq in Hj. rewrite Ec by lia. destruct (sel j); reflexivity.
  - right. split; [rewrite <- Hsel; discriminate|reflexivity].
Qed.

(** ** Error reporting *)

Lemma split_strided_reject G parent g start stride size :
  team_group G parent = Some g -> Z.of_nat (length g) <= INT_MAX ->
  (start < 0 \/ Z.of_nat (length g) <= start \/
   (- 2 ^ 31 <= size - 1 /\ - 2 ^ 31 <= stride * (size - 1) <= INT_MAX /\
    start + stride * (size - 1) <= INT_MAX /\
    (start + stride * (size - 1) < 0 \/ Z.of_nat (length g) <= start + stride * (size - 1)))) ->
  - 2 ^ 31 <= start <= INT_MAX -> - 2 ^ 31 <= size <= INT_MAX ->
  split_strided G parent start stride size = Ok (map (fun _ => (SHMEM_OTHER_ERR, TInvalid)) g).
Proof.
  unfold INT_MAX. intros Hg Hn HB Hst Hsz. unfold split_strided. rewrite Hg.
  rewrite (outs_ok _ (fun _ => None)).
  - cbn [bind]. destruct g as [|p g]; [reflexivity|].
    cbn [length]. rewrite zseq_S. cbn [map existsb orb]. reflexivity.
  - intros i Hi. unfold strided_color.
    destruct (Z.ltb_spec start 0); [reflexivity|]. cbn [orb].
    destruct (Z.leb_spec (Z.of_nat (length g)) start); [reflexivity|].
    destruct HB as [HB|[HB|HB]]; [lia|lia|].
    rewrite int_op_ok by (unfold INT_MAX; lia). cbn [bind].
    rewrite int_op_ok by (unfold INT_MAX; lia). cbn [bind].
    rewrite int_op_ok by (unfold INT_MAX; lia). cbn [bind].
    replace ((start + stride * (size - 1) <? 0) || (Z.of_nat (length g) <=? start + stride * (size - 1))) with true by lia.
    reflexivity.
Qed.

(** ** 2-D split *)

Lemma row_filter n x y :
  0 < x -> 0 <= y ->
  filter (fun i => i / x =? y) (zseq 0 n) =
  map (fun k => y * x + k * 1) (zseq 0 (Z.to_nat (Z.min x (Z.of_nat n - y * x)))).
Proof.
  intros Hx Hy. apply zinc_ext; [apply zinc_filter, zinc_zseq | apply zinc_map_lin; lia |].
  intros i. rewrite filter_In, in_zseq, in_map_iff.
  pose proof (Z.div_mod i x ltac:(lia)) as E. pose proof (Z.mod_pos_bound i x Hx) as B.
  split.
  - intros [H1 H2]. exists (i mod x). assert (i / x = y) by lia. split; [nia|].
    rewrite in_zseq. nia.
  - intros (k & <- & Hk). rewrite in_zseq in Hk.
    replace (y * x + k * 1) with (k + y * x) by lia.
    rewrite Z.div_add by lia. rewrite Z.div_small by lia. nia.
Qed.

Lemma col_filter n x c :
  0 < x -> 0 <= c < x ->
  filter (fun i => i mod x =? c) (zseq 0 n) =
  map (fun k => c + k * x) (zseq 0 (Z.to_nat ((Z.of_nat n - c + x - 1) / x))).
Proof.
  intros Hx Hc. apply zinc_ext; [apply zinc_filter, zinc_zseq | apply zinc_map_lin; lia |].
  intros i. rewrite filter_In, in_zseq, in_map_iff.
  pose proof (Z.div_mod i x ltac:(lia)) as E. pose proof (Z.mod_pos_bound i x Hx) as B.
  set (N := Z.of_nat n) in *.
  pose proof (Z.div_mod (N - c + x - 1) x ltac:(lia)) as E2.
  pose proof (Z.mod_pos_bound (N - c + x - 1) x Hx) as B2.
  set (q := (N - c + x - 1) / x) in *. set (m := (N - c + x - 1) mod x) in *. clearbody q m.
  split.
  - intros [H1 H2]. exists (i / x). assert (i mod x = c) by lia.
    assert (0 <= i / x) by (apply Z.div_pos; lia). split; [nia|].
    rewrite in_zseq. split; [lia|]. assert (i / x < q) by nia. lia.
  - intros (k & <- & Hk). rewrite in_zseq in Hk.
    replace (c + k * x) with (c + k * x) by lia. rewrite Z.mod_add by lia.
    rewrite Z.mod_small by lia. split; [|lia]. assert (0 <= k < q) by lia. nia.
Qed.

Lemma aget_combine {A B} (l1 : list A) (l2 : list B) i a b :
  aget l1 i = Some a -> aget l2 i = Some b -> aget (combine l1 l2) i = Some (a, b).
Proof.
  unfold aget. destruct (i <? 0); [discriminate|]. generalize (Z.to_nat i) as k. clear i.
  revert l2. induction l1 as [|x l1 IH]; intros l2 [|k] Ha Hb; try discriminate;
    destruct l2 as [|y l2]; try discriminate; simpl in *.
  - congruence.
  - apply IH; assumption.
Qed.

Lemma split_2d_valid G parent g x :
  team_group G parent = Some g -> 0 < x ->
  exists l, split_2d G parent x = Ok l /\ length l = length g /\
    forall r, 0 <= r < Z.of_nat (length g) ->
      aget l r = Some (SHMEM_SUCCESS,
         TObj (map (fun k => gnth g (r / x * x + k)) (zseq 0 (Z.to_nat (Z.min x (Z.of_nat (length g) - r / x * x))))),
         TObj (map (fun k => gnth g (r mod x + k * x))
                   (zseq 0 (Z.to_nat ((Z.of_nat (length g) - r mod x + x - 1) / x))))).
Proof.
  intros Hg Hx. unfold split_2d. rewrite Hg. replace (x =? 0) with false by lia. cbn [andb].
  assert (HU : forall z, 0 <= z -> (z =? MPI_UNDEFINED) = false) by (unfold MPI_UNDEFINED; lia).
  assert (HQ : forall i, 0 <= i -> Z.quot i x = i / x /\ Z.rem i x = i mod x /\ 0 <= i / x /\ 0 <= i mod x < x).
  { intros i Hi. split; [apply Z.quot_div_nonneg; lia|]. split; [apply Z.rem_mod_nonneg; lia|].
    split; [apply Z.div_pos; lia|apply Z.mod_pos_bound; lia]. }
  rewrite team_split_ok by (intros i Hi; destruct (HQ i ltac:(lia)) as (E & _ & P & _); rewrite E; left; lia).
  cbn [bind].
  rewrite team_split_ok by (intros i Hi; destruct (HQ i ltac:(lia)) as (_ & E & _ & P); rewrite E; left; lia).
  cbn [bind]. eexists. split; [reflexivity|]. split.
  { rewrite map_length, combine_length, !map_length, !zseq_length, Nat.min_id. reflexivity. }
  intros r Hr. rewrite aget_map.
  erewrite aget_combine; [|apply aget_zmap; exact Hr|apply aget_zmap; exact Hr].
  cbn [option_map fst snd]. destruct (HQ r ltac:(lia)) as (E1 & E2 & P1 & P2). rewrite E1, E2.
  rewrite !HU by lia. f_equal. f_equal; [f_equal; f_equal|f_equal].
  - rewrite (filter_ext_in _ (fun i => i / x =? r / x)).
    + rewrite row_filter by lia. rewrite map_map. apply map_ext. intros k. f_equal. lia.
    + intros j Hj. apply in_zseq in Hj. destruct (HQ j ltac:(lia)) as (-> & _). reflexivity.
  - rewrite (filter_ext_in _ (fun i => i mod x =? r mod x)).
    + rewrite col_filter by lia. rewrite map_map. reflexivity.
    + intros j Hj. apply in_zseq in Hj. destruct (HQ j ltac:(lia)) as (_ & -> & _). reflexivity.
Qed.

(** ** Reachable teams have groups without repetition *)

Lemma world_group_zseq n : forall i, world_group i n = zseq i n.
Proof. induction n as [|n IH]; intros i; [reflexivity|]. rewrite zseq_S. simpl. rewrite IH. reflexivity. Qed.

Lemma team_init_ok cts n me :
  0 <= cts -> 0 <= me < Z.of_nat n ->
  team_init cts n me = Ok (mkTG (zseq 0 n) (zseq 0 n)).
Proof.
  intros Hc Hm. unfold team_init. rewrite world_group_zseq.
  unfold comm_split.
  assert (E : existsb (fun e => (fst e <? 0) && negb (fst e =? MPI_UNDEFINED)) (entries (fun _ => cts) 0 (zseq 0 n)) = false).
  { apply not_true_is_false. rewrite existsb_exists. intros (e & He & Hb).
    assert (Hd : In (fst e) (map (fun _ => cts) (zseq 0 (length (zseq 0 n)))))
      by (rewrite <- entries_fst; apply in_map; exact He).
    apply in_map_iff in Hd. destruct Hd as (i & Ei & Hi). lia. }
  rewrite E. cbn [bind].
  rewrite <- (map_map fst (fun c => if c =? MPI_UNDEFINED then None else
      Some (color_group (entries (fun _ => cts) 0 (zseq 0 n)) c))).
  rewrite entries_fst, map_map, zseq_length, aget_zmap by exact Hm. cbn [of_opt bind].
  replace (cts =? MPI_UNDEFINED) with false by (unfold MPI_UNDEFINED; lia). cbn [of_opt bind].
  f_equal. f_equal. rewrite color_group_spec, zseq_length.
  rewrite (filter_ext_in _ (fun _ => true)) by (intros; lia).
  assert (Ef : forall l : list Z, filter (fun _ => true) l = l) by (induction l; simpl; congruence).
  rewrite Ef. transitivity (map (fun i => i) (zseq 0 n)); [|apply map_id]. apply zmap_ext. intros i Hi.
  unfold gnth. rewrite aget_zseq by exact Hi. reflexivity.
Qed.

Lemma nodup_zseq n lo : NoDup (zseq lo n).
Proof. apply zinc_nodup, zinc_zseq. Qed.

Lemma team_split_nodup g colors l t h :
  NoDup g -> team_split g colors = Ok l -> In t l -> t = TObj h -> NoDup h /\ incl h g.
Proof.
  intros ND H Ht ->. unfold team_split, comm_split in H.
  destruct (existsb _ (entries colors 0 g)); [discriminate|]. cbn [bind] in H. injection H as <-.
  apply in_map_iff in Ht. destruct Ht as (o & Eo & Ho). apply in_map_iff in Ho.
  destruct Ho as (e & Ee & He). destruct (fst e =? MPI_UNDEFINED); [subst; discriminate|].
  subst o. injection Eo as <-. rewrite color_group_spec. split; [apply sub_group_nodup; exact ND|].
  intros p Hp. apply in_map_iff in Hp. destruct Hp as (i & <- & Hi). apply filter_In in Hi.
  destruct Hi as [Hi _]. apply in_zseq in Hi. eapply aget_In, gnth_aget. lia.
Qed.

Lemma reach_nodup G n t :
  tg_world G = zseq 0 n -> tg_shared G = zseq 0 n -> team_reach G t ->
  exists g, team_group G t = Some g /\ NoDup g /\ incl g (zseq 0 n).
Proof.
  intros HW HS H. induction H as [| |parent start stride size l rc t Hr IH E Hin Hne
     |parent xr l rc x y Hr IH E Hin Hne|parent xr l rc x y Hr IH E Hin Hne].
  - exists (zseq 0 n). simpl. rewrite HW. split; [reflexivity|]. split; [apply nodup_zseq|apply incl_refl].
  - exists (zseq 0 n). simpl. rewrite HS. split; [reflexivity|]. split; [apply nodup_zseq|apply incl_refl].
  - destruct IH as (g & Eg & ND & HI). unfold split_strided in E. rewrite Eg in E.
    destruct (outs _ 0 (length g)) as [cs| | |]; try discriminate. cbn [bind] in E.
    destruct (existsb _ cs).
    + injection E as <-. apply in_map_iff in Hin. destruct Hin as (? & Ex & _). congruence.
    + destruct (team_split g _) as [ts| | |] eqn:Es; try discriminate. cbn [bind] in E. injection E as <-.
      apply in_map_iff in Hin. destruct Hin as (t' & Ex & Ht). injection Ex as <- <-.
      assert (Hh : exists h, t' = TObj h).
      { unfold team_split in Es. destruct (comm_split _) as [l| | |]; try discriminate. cbn [bind] in Es.
        injection Es as <-. apply in_map_iff in Ht. destruct Ht as ([h|] & <- & _); [eauto|contradiction]. }
      destruct Hh as (h & ->). destruct (team_split_nodup _ _ _ _ h ND Es Ht eq_refl) as [A B].
      exists h. split; [reflexivity|]. split; [exact A|]. eapply incl_tran; eauto.
  - destruct IH as (g & Eg & ND & HI). unfold split_2d in E. rewrite Eg in E.
    destruct ((xr =? 0) && _); [discriminate|].
    destruct (team_split g _) as [xs| | |] eqn:Es; try discriminate. cbn [bind] in E.
    destruct (team_split g (fun i => Z.rem i xr)) as [ys| | |] eqn:Es2; try discriminate. cbn [bind] in E.
    injection E as <-. apply in_map_iff in Hin. destruct Hin as ((x' & y') & Ex & Ht). injection Ex as <- <- <-.
    apply in_combine_l in Ht. simpl in Hne.
    assert (Hh : exists h, x' = TObj h).
    { unfold team_split in Es. destruct (comm_split _) as [l| | |]; try discriminate. cbn [bind] in Es.
      injection Es as <-. apply in_map_iff in Ht. destruct Ht as ([h|] & <- & _); [eauto|contradiction]. }
    destruct Hh as (h & ->). destruct (team_split_nodup _ _ _ _ h ND Es Ht eq_refl) as [A B].
    exists h. split; [reflexivity|]. split; [exact A|]. eapply incl_tran; eauto.
  - destruct IH as (g & Eg & ND & HI). unfold split_2d in E. rewrite Eg in E.
    destruct ((xr =? 0) && _); [discriminate|].
    destruct (team_split g (fun i => Z.quot i xr)) as [xs| | |] eqn:Es; try discriminate. cbn [bind] in E.
    destruct (team_split g (fun i => Z.rem i xr)) as [ys| | |] eqn:Es2; try discriminate. cbn [bind] in E.
    injection E as <-. apply in_map_iff in Hin. destruct Hin as ((x' & y') & Ex & Ht). injection Ex as <- <- <-.
    apply in_combine_r in Ht. simpl in Hne.
    assert (Hh : exists h, y' = TObj h).
    { unfold team_split in Es2. destruct (comm_split _) as [l| | |]; try discriminate. cbn [bind] in Es2.
      injection Es2 as <-. apply in_map_iff in Ht. destruct Ht as ([h|] & <- & _); [eauto|contradiction]. }
    destruct Hh as (h & ->). destruct (team_split_nodup _ _ _ _ h ND Es2 Ht eq_refl) as [A B].
    exists h. split; [reflexivity|]. split; [exact A|]. eapply incl_tran; eauto.
Qed.

(** ** Translation *)

Lemma translate_spec pn cts n me G A B a p :
  pn < 0 -> 0 <= cts -> team_init cts n me = Ok G -> 0 <= me < Z.of_nat n ->
  team_reach G A -> team_reach G B -> member G A a = Some p ->
  exists b, team_translate_pe pn G A a B = Ok b /\
    ((member G B b = Some p /\ team_translate_pe pn G B b A = Ok a) \/
     (b = -1 /\ forall b', member G B b' <> Some p)).
Proof.
  intros Hpn Hc EG Hm HA HB Ha. rewrite (team_init_ok cts n me Hc Hm) in EG. injection EG as <-.
  set (G := mkTG (zseq 0 n) (zseq 0 n)) in *.
  destruct (reach_nodup G n A eq_refl eq_refl HA) as (ga & Ea & NA & _).
  destruct (reach_nodup G n B eq_refl eq_refl HB) as (gb & Eb & NB & _).
  unfold member in *. rewrite Ea in Ha. rewrite Eb.
  unfold team_translate_pe, translate_rank. rewrite Ea, Eb.
  pose proof (aget_some _ _ _ Ha) as Har. replace (a =? pn) with false by lia. rewrite Ha. cbn [bind].
  destruct (index_of gb p) as [b|] eqn:E.
  - pose proof (index_of_some _ _ _ E) as Hb. pose proof (aget_some _ _ _ Hb) as Hbr.
    exists b. replace (b =? MPI_UNDEFINED) with false by (unfold MPI_UNDEFINED; lia).
    split; [reflexivity|]. left. split; [exact Hb|].
    replace (b =? pn) with false by lia. rewrite Hb. cbn [bind].
    rewrite (index_of_nodup ga p a NA Ha).
    replace (a =? MPI_UNDEFINED) with false by (unfold MPI_UNDEFINED; lia). reflexivity.
  - exists (-1). rewrite Z.eqb_refl. split; [reflexivity|]. right. split; [reflexivity|].
    intros b' Hb'. apply index_of_none in E. apply E. eapply aget_In; eauto.
Qed.

(** ** team_sync *)

Lemma forallb_upd_entered st i x :
  sync_entered x = true -> forallb sync_entered st = true -> forallb sync_entered (upd st i x) = true.
Proof.
  intros Hx. revert i. induction st as [|a st IH]; intros i H; [reflexivity|].
  simpl in H. apply andb_prop in H. destruct H as [H1 H2].
  destruct i; simpl; rewrite ?Hx, ?H1, ?H2; simpl; auto.
Qed.

Lemma sync_world_safe sched : forall st,
  (forall i rc, aget st i = Some (SDone rc) -> rc = SHMEM_SUCCESS /\ forallb sync_entered st = true) ->
  forall i rc, aget (sync_run TWorld st sched) i = Some (SDone rc) ->
    rc = SHMEM_SUCCESS /\ forallb sync_entered (sync_run TWorld st sched) = true.
Proof.
  induction sched as [|j sched IH]; intros st H i rc; [apply H|].
  unfold sync_run in *. simpl. apply IH. clear i rc. intros i rc.
  unfold sync_step. destruct (aget st j) as [[| |rc']|] eqn:E; try apply H.
  - pose proof (aget_some _ _ _ E) as Hj.
    destruct (Z.eq_dec i j) as [->|Hne].
    + rewrite aget_upd_eq by exact Hj. discriminate.
    + rewrite aget_upd_ne by lia. intros Hi. destruct (H i rc Hi) as [A B]. split; [exact A|].
      apply forallb_upd_entered; [reflexivity|exact B].
  - pose proof (aget_some _ _ _ E) as Hj.
    destruct (forallb sync_entered st) eqn:EF; [|intros Hi; destruct (H i rc Hi); split; congruence].
    destruct (Z.eq_dec i j) as [->|Hne].
    + rewrite aget_upd_eq by exact Hj. intros Hi. injection Hi as <-. split; [reflexivity|].
      apply forallb_upd_entered; [reflexivity|exact EF].
    + rewrite aget_upd_ne by lia. intros Hi. destruct (H i rc Hi) as [A B]. split; [exact A|].
      apply forallb_upd_entered; [reflexivity|exact EF].
Qed.

Lemma sync_world_init n sched i rc :
  aget (sync_run TWorld (repeat SBefore n) sched) i = Some (SDone rc) ->
  rc = SHMEM_SUCCESS /\ forall j p, aget (sync_run TWorld (repeat SBefore n) sched) j = Some p -> p <> SBefore.
Proof.
  intros H. apply sync_world_safe in H.
  - destruct H as [A B]. split; [exact A|]. intros j p Hp ->. apply aget_In in Hp.
    rewrite forallb_forall in B. specialize (B _ Hp). discriminate.
  - intros k r Hk. apply aget_In, repeat_spec in Hk. discriminate.
Qed.

(** ** Forms used by the property theorems *)

Lemma n_pes_group G t g : team_group G t = Some g -> team_n_pes G t = Z.of_nat (length g).
Proof. intros H. unfold team_n_pes. rewrite H. reflexivity. Qed.

Lemma member_group G t g a : team_group G t = Some g -> member G t a = aget g a.
Proof. intros H. unfold member. rewrite H. reflexivity. Qed.

Lemma strided_members cts n me G parent start stride size :
  0 <= cts -> 0 <= me < Z.of_nat n -> team_init cts n me = Ok G -> team_reach G parent ->
  Z.of_nat n <= INT_MAX ->
  0 <= start -> 0 < stride -> 0 < size -> start + stride * (size - 1) < team_n_pes G parent ->
  exists l, split_strided G parent start stride size = Ok l /\
    Z.of_nat (length l) = team_n_pes G parent /\
    forall r p, member G parent r = Some p ->
      exists t, aget l r = Some (SHMEM_SUCCESS, t) /\
        ((exists k, 0 <= k < size /\ r = start + k * stride /\
            team_n_pes G t = size /\ team_my_pe G p t = Ok k /\
            forall k', 0 <= k' < size -> member G t k' = member G parent (start + k' * stride)) \/
         ((forall k, 0 <= k < size -> r <> start + k * stride) /\ t = TInvalid)).
Proof.
  intros Hc Hm EG HR Hn H1 H2 H3 H4.
  rewrite (team_init_ok cts n me Hc Hm) in EG. injection EG as <-.
  set (G := mkTG (zseq 0 n) (zseq 0 n)) in *.
  destruct (reach_nodup G n parent eq_refl eq_refl HR) as (g & Eg & ND & HI).
  pose proof (n_pes_group _ _ _ Eg) as En. rewrite En in *.
  assert (Hl : Z.of_nat (length g) <= INT_MAX).
  { pose proof (NoDup_incl_length ND HI) as L. rewrite zseq_length in L. lia. }
  assert (HF : fits (Z.of_nat (length g)) start stride size) by (repeat split; assumption).
  destruct (split_strided_valid G parent g start stride size Eg Hl HF) as (l & E & Ll & HS).
  exists l. split; [exact E|]. split; [lia|].
  intros r p Hp. rewrite (member_group _ _ _ _ Eg) in Hp.
  pose proof (aget_some _ _ _ Hp) as Hr. specialize (HS r ltac:(lia)). cbv zeta in HS.
  set (g' := map (fun k => gnth g (start + k * stride)) (zseq 0 (Z.to_nat size))) in *.
  assert (Hg' : forall k, 0 <= k < size -> aget g' k = aget g (start + k * stride)).
  { intros k Hk. unfold g'. rewrite aget_zmap by lia. rewrite gnth_aget; [reflexivity|nia]. }
  assert (Ng' : NoDup g').
  { unfold g'. rewrite <- (map_map (fun k => start + k * stride) (gnth g)). apply nodup_sub; [exact ND| |].
    - apply zinc_nodup, zinc_map_lin. lia.
    - intros i Hi. apply in_map_iff in Hi. destruct Hi as (k & <- & Hk). apply in_zseq in Hk. nia. }
  destruct HS as [[(k & Hk & ->) Ea]|[Hno Ea]].
  - exists (TObj g'). split; [exact Ea|]. left. exists k. split; [exact Hk|]. split; [reflexivity|].
    split.
    { unfold team_n_pes. cbn [team_group]. unfold g'. rewrite map_length, zseq_length. lia. }
    split.
    { unfold team_my_pe. cbn [team_group]. rewrite (index_of_nodup g' p k Ng'); [reflexivity|].
      rewrite Hg' by exact Hk. exact Hp. }
    intros k' Hk'. rewrite (member_group _ _ _ _ Eg). unfold member. cbn [team_group]. apply Hg'. exact Hk'.
  - exists TInvalid. split; [exact Ea|]. right. split; [|reflexivity].
    intros k Hk E'. apply Hno. exists k. split; assumption.
Qed.

Lemma grid_members cts n me G parent x :
  0 <= cts -> 0 <= me < Z.of_nat n -> team_init cts n me = Ok G -> team_reach G parent -> 0 < x ->
  exists l, split_2d G parent x = Ok l /\ Z.of_nat (length l) = team_n_pes G parent /\
    forall r p, member G parent r = Some p ->
      exists tx ty, aget l r = Some (SHMEM_SUCCESS, tx, ty) /\
        team_my_pe G p tx = Ok (r mod x) /\ team_my_pe G p ty = Ok (r / x) /\
        forall r2 p2, member G parent r2 = Some p2 ->
          ((exists k, member G tx k = Some p2) <-> r2 / x = r / x) /\
          ((exists k, member G ty k = Some p2) <-> r2 mod x = r mod x).
Proof.
  intros Hc Hm EG HR Hx.
  rewrite (team_init_ok cts n me Hc Hm) in EG. injection EG as <-.
  set (G := mkTG (zseq 0 n) (zseq 0 n)) in *.
  destruct (reach_nodup G n parent eq_refl eq_refl HR) as (g & Eg & ND & HI).
  pose proof (n_pes_group _ _ _ Eg) as En. rewrite En.
  destruct (split_2d_valid G parent g x Eg Hx) as (l & E & Ll & HS).
  exists l. split; [exact E|]. split; [lia|].
  intros r p Hp. rewrite (member_group _ _ _ _ Eg) in Hp.
  pose proof (aget_some _ _ _ Hp) as Hr. specialize (HS r ltac:(lia)).
  set (N := Z.of_nat (length g)) in *.
  pose proof (Z.div_mod r x ltac:(lia)) as Er. pose proof (Z.mod_pos_bound r x Hx) as Br.
  assert (0 <= r / x) by (apply Z.div_pos; lia).
  set (gx := map (fun k => gnth g (r / x * x + k)) (zseq 0 (Z.to_nat (Z.min x (N - r / x * x))))) in *.
  set (gy := map (fun k => gnth g (r mod x + k * x)) (zseq 0 (Z.to_nat ((N - r mod x + x - 1) / x)))) in *.
  pose proof (Z.div_mod (N - r mod x + x - 1) x ltac:(lia)) as E2.
  pose proof (Z.mod_pos_bound (N - r mod x + x - 1) x Hx) as B2.
  set (q := (N - r mod x + x - 1) / x) in *. set (m := (N - r mod x + x - 1) mod x) in *. clearbody q m.
  assert (HX : forall k, 0 <= k < Z.min x (N - r / x * x) -> aget gx k = aget g (r / x * x + k)).
  { intros k Hk. unfold gx. rewrite aget_zmap by lia. rewrite gnth_aget; [reflexivity|unfold N in *; nia]. }
  assert (HY : forall k, 0 <= k < q -> aget gy k = aget g (r mod x + k * x) /\ 0 <= r mod x + k * x < N).
  { intros k Hk. assert (0 <= r mod x + k * x < N) by nia. split; [|assumption].
    unfold gy. rewrite aget_zmap by lia. rewrite gnth_aget; [reflexivity|exact H0]. }
  assert (NX : NoDup gx).
  { unfold gx. rewrite <- (map_map (fun k => r / x * x + k) (gnth g)). apply nodup_sub; [exact ND| |].
    - rewrite (map_ext _ (fun k => r / x * x + k * 1)) by (intros; lia). apply zinc_nodup, zinc_map_lin. lia.
    - intros i Hi. apply in_map_iff in Hi. destruct Hi as (k & <- & Hk). apply in_zseq in Hk. unfold N in *. nia. }
  assert (NY : NoDup gy).
  { unfold gy. rewrite <- (map_map (fun k => r mod x + k * x) (gnth g)). apply nodup_sub; [exact ND| |].
    - apply zinc_nodup, zinc_map_lin. lia.
    - intros i Hi. apply in_map_iff in Hi. destruct Hi as (k & <- & Hk). apply in_zseq in Hk.
      apply HY. lia. }
  assert (Hq : r / x < q) by nia.
  exists (TObj gx), (TObj gy). split; [exact HS|].
  split.
  { unfold team_my_pe. cbn [team_group]. rewrite (index_of_nodup gx p (r mod x) NX); [reflexivity|].
    rewrite HX by nia. replace (r / x * x + r mod x) with r by lia. exact Hp. }
  split.
  { unfold team_my_pe. cbn [team_group]. rewrite (index_of_nodup gy p (r / x) NY); [reflexivity|].
    destruct (HY (r / x) ltac:(lia)) as [-> _]. replace (r mod x + r / x * x) with r by lia. exact Hp. }
  intros r2 p2 Hp2. rewrite (member_group _ _ _ _ Eg) in Hp2.
  pose proof (aget_some _ _ _ Hp2) as Hr2.
  pose proof (Z.div_mod r2 x ltac:(lia)) as Er2. pose proof (Z.mod_pos_bound r2 x Hx) as Br2.
  unfold member. cbn [team_group]. split; split.
  - intros (k & Hk). pose proof (aget_some _ _ _ Hk) as Hkr. unfold gx in Hkr.
    rewrite map_length, zseq_length in Hkr. rewrite HX in Hk by lia.
    pose proof (aget_nodup g _ _ p2 ND Hk Hp2) as Ek. subst r2.
    replace (r / x * x + k) with (k + r / x * x) by lia. rewrite Z.div_add, Z.div_small by lia. lia.
  - intros Eq. exists (r2 mod x). rewrite HX by (rewrite Eq in Er2; unfold N in *; nia).
    rewrite <- Eq. replace (r2 / x * x + r2 mod x) with r2 by lia. exact Hp2.
  - intros (k & Hk). pose proof (aget_some _ _ _ Hk) as Hkr. unfold gy in Hkr.
    rewrite map_length, zseq_length in Hkr. destruct (HY k ltac:(lia)) as [Ek _]. rewrite Ek in Hk.
    pose proof (aget_nodup g _ _ p2 ND Hk Hp2) as Ek'. subst r2.
    rewrite Z.mod_add, Z.mod_small by lia. reflexivity.
  - intros Eq. exists (r2 / x). assert (0 <= r2 / x) by (apply Z.div_pos; lia).
    rewrite Eq in Er2. destruct (HY (r2 / x)) as [Ek _]; [split; [lia|]; unfold N in *; nia|]. rewrite Ek.
    replace (r mod x + r2 / x * x) with r2 by lia. exact Hp2.
Qed.

Lemma strided_error_iff cts n me G parent start stride size :
  0 <= cts -> 0 <= me < Z.of_nat n -> team_init cts n me = Ok G -> team_reach G parent ->
  Z.of_nat n <= INT_MAX ->
  - 2 ^ 31 <= start <= INT_MAX -> 0 < stride <= INT_MAX -> 0 < size <= INT_MAX ->
  stride * (size - 1) + Z.max 0 start <= INT_MAX ->
  exists l, split_strided G parent start stride size = Ok l /\
    Z.of_nat (length l) = team_n_pes G parent /\
    ((0 <= start /\ start + stride * (size - 1) < team_n_pes G parent /\
      (forall rc t, In (rc, t) l -> rc = SHMEM_SUCCESS) /\ exists rc t, In (rc, t) l /\ t <> TInvalid) \/
     (~ (0 <= start /\ start + stride * (size - 1) < team_n_pes G parent) /\
      forall rc t, In (rc, t) l -> rc = SHMEM_OTHER_ERR /\ t = TInvalid)).
Proof.
  intros Hc Hm EG HR Hn Hst Hsd Hsz Hov.
  destruct (Z_le_gt_dec 0 start) as [H0|H0].
  - destruct (Z_lt_ge_dec (start + stride * (size - 1)) (team_n_pes G parent)) as [H1|H1].
    + destruct (strided_members cts n me G parent start stride size Hc Hm EG HR Hn H0 ltac:(lia) ltac:(lia) H1)
        as (l & E & Ll & HS).
      exists l. split; [exact E|]. split; [exact Ll|]. left. split; [exact H0|]. split; [exact H1|].
      rewrite (team_init_ok cts n me Hc Hm) in EG. injection EG as <-.
      set (G := mkTG (zseq 0 n) (zseq 0 n)) in *.
      destruct (reach_nodup G n parent eq_refl eq_refl HR) as (g & Eg & ND & HI).
      pose proof (n_pes_group _ _ _ Eg) as En.
      split.
      * intros rc t Hin. apply In_aget in Hin. destruct Hin as (i & Ei). pose proof (aget_some _ _ _ Ei) as Hi.
        destruct (aget_ex g i ltac:(lia)) as (p & Hp).
        destruct (HS i p) as (t' & Et & _); [rewrite (member_group _ _ _ _ Eg); exact Hp|]. congruence.
      * destruct (aget_ex g start ltac:(nia)) as (p & Hp).
        destruct (HS start p) as (t' & Et & D); [rewrite (member_group _ _ _ _ Eg); exact Hp|].
        exists SHMEM_SUCCESS, t'. split; [eapply aget_In; exact Et|].
        destruct D as [(k & _ & _ & D & _)|[D _]].
        -- intros ->. unfold team_n_pes in D. cbn [team_group] in D. lia.
        -- exfalso. apply (D 0); lia.
    + rewrite (team_init_ok cts n me Hc Hm) in EG. injection EG as <-.
      set (G := mkTG (zseq 0 n) (zseq 0 n)) in *.
      destruct (reach_nodup G n parent eq_refl eq_refl HR) as (g & Eg & ND & HI).
      pose proof (n_pes_group _ _ _ Eg) as En. rewrite En in *.
      assert (Hl : Z.of_nat (length g) <= INT_MAX).
      { pose proof (NoDup_incl_length ND HI) as L. rewrite zseq_length in L. lia. }
      unfold INT_MAX in *.
      rewrite (split_strided_reject G parent g) by (unfold INT_MAX; (assumption || nia)).
      eexists. split; [reflexivity|]. rewrite map_length. split; [reflexivity|]. right. split; [lia|].
      intros rc t Hin. apply in_map_iff in Hin. destruct Hin as (? & Ex & _). split; congruence.
  - rewrite (team_init_ok cts n me Hc Hm) in EG. injection EG as <-.
    set (G := mkTG (zseq 0 n) (zseq 0 n)) in *.
    destruct (reach_nodup G n parent eq_refl eq_refl HR) as (g & Eg & ND & HI).
    pose proof (n_pes_group _ _ _ Eg) as En. rewrite En in *.
    assert (Hl : Z.of_nat (length g) <= INT_MAX).
    { pose proof (NoDup_incl_length ND HI) as L. rewrite zseq_length in L. lia. }
    unfold INT_MAX in *.
    rewrite (split_strided_reject G parent g) by (unfold INT_MAX; (assumption || lia)).
    eexists. split; [reflexivity|]. rewrite map_length. split; [reflexivity|]. right. split; [lia|].
    intros rc t Hin. apply in_map_iff in Hin. destruct Hin as (? & Ex & _). split; congruence.
Qed.

Lemma my_pe_spec G t me k : t <> TInvalid -> team_my_pe G me t = Ok k -> member G t k = Some me /\ 0 <= k < team_n_pes G t.
Proof.
  intros Ht. unfold team_my_pe, member, team_n_pes. destruct (team_group G t) as [g|] eqn:E.
  - destruct (index_of g me) as [i|] eqn:Ei; [|discriminate]. cbn. intros H. injection H as <-.
    apply index_of_some in Ei. split; auto. apply aget_some in Ei. lia.
  - destruct t; try discriminate. congruence.
Qed.
Lemma my_pe_member G t n k me : tg_world G = zseq 0 n -> tg_shared G = zseq 0 n -> team_reach G t ->
  member G t k = Some me -> team_my_pe G me t = Ok k.
Proof.
  intros HW HS R M. destruct (reach_nodup G n t HW HS R) as (g & Eg & ND & _).
  unfold member in M. rewrite Eg in M. unfold team_my_pe. rewrite Eg, (index_of_nodup g me k ND M). reflexivity.
Qed.

Lemma team_query cts n me G t : 0 <= cts -> 0 <= me < Z.of_nat n -> team_init cts n me = Ok G ->
  team_n_pes G TInvalid = -1 /\ team_my_pe G me TInvalid = Ok (-1) /\
  (team_reach G t -> 0 <= team_n_pes G t /\
     (forall a, (exists p, member G t a = Some p) <-> 0 <= a < team_n_pes G t) /\
     (forall p k, team_my_pe G p t = Ok k <-> member G t k = Some p)).
Proof.
  intros Hc Hm EG. rewrite (team_init_ok cts n me Hc Hm) in EG. injection EG as <-.
  set (G := mkTG (zseq 0 n) (zseq 0 n)) in *. split; [reflexivity|]. split; [reflexivity|]. intros R.
  destruct (reach_nodup G n t eq_refl eq_refl R) as (g & Eg & ND & _).
  split; [unfold team_n_pes; rewrite Eg; lia|]. split.
  - intros a. unfold member, team_n_pes. rewrite Eg. split.
    + intros (p & H). eapply aget_some; eauto.
    + intros H. destruct (aget g a) as [p|] eqn:E; eauto. exfalso. unfold aget in E.
      destruct (Z.ltb_spec a 0); [lia|]. apply nth_error_None in E. lia.
  - intros p k. split.
    + intros H. eapply my_pe_spec; [|exact H]. intros ->. discriminate.
    + intros H. exact (my_pe_member G t n k p eq_refl eq_refl R H).
Qed.
