(** Proofs about datatypes, the cache and transfers. *)
From Verif Require Import Base BaseProofs ListLib RmaModel RmaSpec.

(** ** Stores *)
Lemma write_out l : forall m a, ~ In a (map fst l) -> write m l a = m a.
Proof.
  induction l as [|[x v] l IH]; intros m a H; cbn; auto. rewrite IH by (intros Q; apply H; right; auto).
  destruct (a =? x) eqn:E; auto. exfalso. apply H. left. cbn. lia.
Qed.
Lemma write_in l : forall m a v, NoDup (map fst l) -> In (a, v) l -> write m l a = v.
Proof.
  induction l as [|[x w] l IH]; intros m a v N H; [destruct H|]. cbn in N. inversion N; subst. cbn.
  destruct H as [E|H].
  - inversion E; subst. rewrite write_out by auto. rewrite Z.eqb_refl. auto.
  - apply IH; auto.
Qed.
Lemma write_ext l : forall m m', (forall a, m a = m' a) -> forall a, write m l a = write m' l a.
Proof.
  induction l as [|[x v] l IH]; intros m m' E a; cbn; auto. apply IH. intros y. destruct (y =? x); auto.
Qed.

Lemma map_fst_combine {A B} (l : list A) : forall (l' : list B), length l = length l' -> map fst (combine l l') = l.
Proof.
  induction l as [|a l IH]; intros [|b l'] E; cbn in *; try discriminate; auto. f_equal; auto.
Qed.
Lemma combine_app {A B} (a1 : list A) : forall (b1 : list B) a2 b2, length a1 = length b1 ->
  combine (a1 ++ a2) (b1 ++ b2) = combine a1 b1 ++ combine a2 b2.
Proof.
  induction a1 as [|x a1 IH]; intros [|y b1] a2 b2 E; cbn in *; try discriminate; auto. f_equal; auto.
Qed.
Lemma combine_flat {A B C} (f : A -> list B) (g : A -> list C) l :
  (forall x, In x l -> length (f x) = length (g x)) ->
  combine (flat_map f l) (flat_map g l) = flat_map (fun x => combine (f x) (g x)) l.
Proof.
  induction l as [|x l IH]; intros E; cbn; auto. rewrite combine_app by (apply E; left; auto).
  f_equal. apply IH. intros; apply E; right; auto.
Qed.
Lemma flat_map_length_const {A B} (f : A -> list B) k l : (forall x, In x l -> length (f x) = k) ->
  length (flat_map f l) = (length l * k)%nat.
Proof.
  induction l as [|x l IH]; intros E; cbn; auto. rewrite app_length, IH, (E x); cbn; auto.
  intros; apply E; right; auto.
Qed.
Lemma NoDup_flat {A B} (f : A -> list B) l : NoDup l -> (forall x, In x l -> NoDup (f x)) ->
  (forall x y z, In x l -> In y l -> In z (f x) -> In z (f y) -> x = y) -> NoDup (flat_map f l).
Proof.
  induction l as [|x l IH]; intros N D J; cbn; [constructor|]. inversion N; subst.
  assert (Q : forall a b : list B, NoDup a -> NoDup b -> (forall z, In z a -> ~ In z b) -> NoDup (a ++ b)).
  { clear. induction a as [|h a IHa]; intros b Na Nb H; cbn; auto. inversion Na; subst. constructor.
    - intros Hin. apply in_app_or in Hin. destruct Hin; [auto|]. apply (H h); [left; auto|auto].
    - apply IHa; auto. intros z Hz. apply H. right; auto. }
  apply Q.
  - apply D; left; auto.
  - apply IH; auto; intros; [apply D; right; auto|]. eapply (J x0 y z); auto; right; auto.
  - intros z Hz Hz2. apply in_flat_map in Hz2. destruct Hz2 as (y & Hy & Hzy).
    assert (x = y) by (eapply (J x y z); auto; [left; auto|right; auto]). subst. auto.
Qed.
Lemma NoDup_map_inj {A B} (f : A -> B) l : NoDup l -> (forall x y, f x = f y -> x = y) -> NoDup (map f l).
Proof.
  intros N J. induction N as [|x l H N IH]; cbn; constructor; auto.
  intros Q. apply in_map_iff in Q. destruct Q as (y & E & Hy). apply J in E. subst. auto.
Qed.
Lemma zseq_nodup lo n : NoDup (zseq lo n).
Proof. unfold zseq. apply NoDup_map_inj; [apply seq_NoDup|]. intros x y E. lia. Qed.
Lemma zseq_shift a lo n : zseq (a + lo) n = map (fun x => a + x) (zseq lo n).
Proof. unfold zseq. rewrite map_map. apply map_ext. intros; lia. Qed.
Lemma flat_map_ext_in {A B} (f g : A -> list B) l : (forall x, In x l -> f x = g x) -> flat_map f l = flat_map g l.
Proof. induction l as [|x l IH]; intros E; cbn; auto. rewrite E by (left; auto). f_equal. apply IH. intros; apply E; right; auto. Qed.
Lemma flat_map_single {A B} (f : A -> B) l : flat_map (fun x => [f x]) l = map f l.
Proof. induction l; cbn; [|f_equal]; auto. Qed.
Lemma map_flat {A B C} (f : B -> C) (g : A -> list B) l : map f (flat_map g l) = flat_map (fun x => map f (g x)) l.
Proof. induction l; cbn; auto. rewrite map_app. f_equal; auto. Qed.
Lemma flat_map_map {A B C} (f : A -> B) (g : B -> list C) l : flat_map g (map f l) = flat_map (fun x => g (f x)) l.
Proof. induction l; cbn; [|f_equal]; auto. Qed.

(** The bytes of elements number 0 .. n-1 at distance [st]. *)
Definition saddrs (sz n base st : Z) : list Z :=
  flat_map (fun i => zseq (base + i * st * sz) (Z.to_nat sz)) (zseq 0 (Z.to_nat n)).

Lemma saddrs_length sz n base st : length (saddrs sz n base st) = (Z.to_nat n * Z.to_nat sz)%nat.
Proof.
  unfold saddrs. rewrite (flat_map_length_const _ (Z.to_nat sz)) by (intros; apply zseq_length).
  rewrite zseq_length. auto.
Qed.
Lemma in_saddrs sz n base st a : 0 <= sz -> 0 <= n ->
  In a (saddrs sz n base st) <-> exists i b, 0 <= i < n /\ 0 <= b < sz /\ a = base + i * st * sz + b.
Proof.
  intros Hs Hn. unfold saddrs. rewrite in_flat_map. split.
  - intros (i & Hi & Ha). apply in_zseq in Hi. apply in_zseq in Ha. exists i, (a - (base + i * st * sz)). lia.
  - intros (i & b & Hi & Hb & ->). exists i. split; apply in_zseq; lia.
Qed.
Lemma saddrs_nodup sz n base st : 0 <= n -> st <> 0 \/ n <= 1 -> NoDup (saddrs sz n base st).
Proof.
  intros Hn Hst. unfold saddrs. apply NoDup_flat.
  - apply zseq_nodup.
  - intros. apply zseq_nodup.
  - intros x y z Hx Hy H1 H2. apply in_zseq in Hx, Hy, H1, H2.
    destruct Hst as [Hst|Hst]; [|lia].
    assert (E : (x - y) * st * sz < sz /\ - sz < (x - y) * st * sz) by lia.
    destruct (Z.eq_dec x y) as [|Ne]; auto. exfalso.
    assert (Z.abs ((x - y) * st) >= 1) by nia. destruct E. nia.
Qed.

Lemma write_strided sz n sm sa ss dm da ds : 0 <= sz -> 0 <= n -> ds <> 0 \/ n <= 1 ->
  strided_copy sz n sm sa ss dm da ds (write dm (combine (saddrs sz n da ds) (map sm (saddrs sz n sa ss)))).
Proof.
  intros Hs Hn Hd.
  assert (L : length (saddrs sz n da ds) = length (map sm (saddrs sz n sa ss)))
    by (rewrite map_length, !saddrs_length; auto).
  assert (MF := map_fst_combine _ _ L).
  assert (N := saddrs_nodup sz n da ds Hn Hd).
  split.
  - intros i b Hi Hb. apply write_in; [rewrite MF; auto|].
    assert (E : combine (saddrs sz n da ds) (map sm (saddrs sz n sa ss)) =
      flat_map (fun i => combine (zseq (da + i * ds * sz) (Z.to_nat sz)) (map sm (zseq (sa + i * ss * sz) (Z.to_nat sz))))
        (zseq 0 (Z.to_nat n))).
    { unfold saddrs. rewrite map_flat. rewrite combine_flat; auto.
      intros. rewrite map_length, !zseq_length. auto. }
    rewrite E. apply in_flat_map. exists i. split; [apply in_zseq; lia|].
    unfold zseq. rewrite map_map.
    assert (G : forall l : list nat, In (Z.to_nat b) l ->
      In (da + i * ds * sz + b, sm (sa + i * ss * sz + b))
        (combine (map (fun i0 => da + i * ds * sz + Z.of_nat i0) l) (map (fun x => sm (sa + i * ss * sz + Z.of_nat x)) l))).
    { induction l as [|x l IH]; intros H; [destruct H|]. cbn. destruct H as [->|H]; [left|right; auto].
      rewrite !Z2Nat.id by lia. auto. }
    apply G. apply in_seq. lia.
  - intros a Ha. apply write_out. rewrite MF. intros Hin. apply in_saddrs in Hin; auto.
    destruct Hin as (i & b & Hi & Hb & E). exact (Ha i b Hi Hb E).
Qed.

(** ** Type maps *)
Lemma elems_one d : elems 1 d = d_disps d.
Proof.
  unfold elems. replace (Z.to_nat 1) with 1%nat by lia. cbn. rewrite app_nil_r.
  erewrite map_ext; [apply map_id|]. intros; cbn. lia.
Qed.
Lemma addrs_vector n st b base : 0 <= n ->
  exists d, type_vector n st b = Ok d /\ addrs base 1 d = saddrs (bt_size b) n base st /\ d_esz d = bt_size b.
Proof.
  intros Hn. unfold type_vector. replace (n <? 0) with false by lia. eexists. split; [reflexivity|].
  split; [|reflexivity].
  unfold addrs. rewrite elems_one. cbn. rewrite flat_map_map. reflexivity.
Qed.
Lemma addrs_base n b base : addrs base n (base_dt b) = saddrs (bt_size b) n base 1.
Proof.
  unfold addrs, elems, saddrs. cbn. rewrite flat_map_single, flat_map_map.
  apply flat_map_ext_in. intros x _. f_equal. lia.
Qed.

(** ** The datatype layer *)

(** What a request means, whatever happened before. *)
Definition one_dt (n st : Z) (b : bt) (ext : Z) : outcome (Z * dt) :=
  if st =? 1 then Ok (n, base_dt b) else do d <- strided_dt n st b ext; Ok (1, d).

Definition cache_ok (t : dts) : Prop :=
  (forall e, In e (t_cache t) ->
     exists k d, ce_hdl e = HDer k /\ nth_error (t_objs t) k = Some (Some d) /\
       strided_dt (ce_n e) (ce_st e) (ce_bt e) (ce_ext e) = Ok d) /\
  NoDup (map ce_hdl (t_cache t)) /\
  (forall k d, nth_error (t_objs t) k = Some (Some d) -> exists e, In e (t_cache t) /\ ce_hdl e = HDer k).

Lemma strided_dt_cases n st b ext :
  strided_dt n st b ext = Abort \/ exists d, strided_dt n st b ext = Ok d.
Proof.
  unfold strided_dt, type_vector. destruct (to_int n <? 0); cbn; eauto.
Qed.

Lemma bt_eqb_eq a b : bt_eqb a b = true <-> a = b.
Proof.
  unfold bt_eqb. destruct a as [i s], b as [i' s']. cbn. split.
  - intros H. apply andb_prop in H. f_equal; lia.
  - intros E. inversion E. rewrite !Z.eqb_refl. auto.
Qed.
Lemma find_cache_some t n st b ext h : find_cache t n st b ext = Some h ->
  exists e, In e (t_cache t) /\ ce_hdl e = h /\ ce_n e = n /\ ce_st e = st /\ ce_bt e = b /\ ce_ext e = ext.
Proof.
  unfold find_cache. destruct (find _ (t_cache t)) as [e|] eqn:F; cbn; intros H; inversion H; subst.
  apply find_some in F. destruct F as [Hin Q]. apply andb_prop in Q. destruct Q as [Q Q4].
  apply andb_prop in Q. destruct Q as [Q Q3]. apply andb_prop in Q. destruct Q as [Q1 Q2].
  apply bt_eqb_eq in Q3. exists e. repeat split; auto; lia.
Qed.

Lemma nth_error_snoc {A} (l : list A) x : nth_error (l ++ [x]) (length l) = Some x.
Proof. rewrite nth_error_app2 by lia. rewrite Nat.sub_diag. auto. Qed.
Lemma nth_error_snoc_lt {A} (l : list A) x k y : nth_error l k = Some y -> nth_error (l ++ [x]) k = Some y.
Proof.
  intros H. assert (k < length l)%nat by (apply nth_error_Some; congruence). rewrite nth_error_app1; auto.
Qed.

(** With the cache. *)
Lemma create_cached t n st b ext : cache_ok t ->
  match one_dt n st b ext with
  | Ok (c, d) => exists t' h, create_strided true t n st b ext = Ok (t', (c, h)) /\ resolve t' h = Ok d /\
                   cache_ok t' /\ (forall h' d', resolve t h' = Ok d' -> resolve t' h' = Ok d')
  | _ => create_strided true t n st b ext = Abort
  end.
Proof.
  intros (A & B & C). unfold one_dt, create_strided. destruct (st =? 1) eqn:E1.
  { exists t, (HBase b). split; auto. split; auto. split; [split; auto|auto]. }
  destruct (find_cache t n st b ext) as [h|] eqn:F.
  - destruct (find_cache_some _ _ _ _ _ _ F) as (e & Hin & <- & <- & <- & <- & <-).
    destruct (A e Hin) as (k & d & Eh & En & Ed). rewrite Ed. cbn. exists t, (ce_hdl e).
    split; auto. split; [rewrite Eh; cbn; rewrite En; auto|]. split; [split; auto|auto].
  - unfold strided_dt. destruct (type_vector (to_int n) (to_int st) b) as [v| | |] eqn:V; cbn.
    2: reflexivity.
    2,3: unfold type_vector in V; destruct (to_int n <? 0); discriminate.
    destruct (0 <? ext) eqn:X.
    + cbn. rewrite nth_error_app1 by (rewrite app_length; cbn; lia). rewrite nth_error_snoc. cbn.
      set (d := type_resized v (to_long (wrap64 (ext * bt_size b)))).
      set (k := length (t_objs t ++ [Some v])).
      assert (OB : upd ((t_objs t ++ [Some v]) ++ [Some d]) (length (t_objs t)) None = (t_objs t ++ [None]) ++ [Some d]).
      { rewrite <- app_assoc. cbn. rewrite upd_app_at. rewrite <- app_assoc. auto. }
      rewrite OB.
      assert (KE : k = length (t_objs t ++ [@None dt])) by (unfold k; rewrite !app_length; auto).
      assert (KL : k = S (length (t_objs t))) by (unfold k; rewrite app_length; cbn; lia).
      assert (KEEP : forall j x, nth_error (t_objs t) j = Some x -> nth_error ((t_objs t ++ [None]) ++ [Some d]) j = Some x).
      { intros j x Hj. apply nth_error_snoc_lt, nth_error_snoc_lt. auto. }
      eexists _, (HDer k). split; [reflexivity|]. split; [cbn; rewrite KE, nth_error_snoc; auto|].
      split; [|intros [b'|j] d' H'; cbn in *; auto; destruct (nth_error (t_objs t) j) as [[x|]|] eqn:Ej; try discriminate;
               rewrite (KEEP _ _ Ej); auto].
      split; [|split].
      * cbn. intros e [<-|He]; cbn.
        -- exists k, d. split; auto. split; [rewrite KE, nth_error_snoc; auto|].
           unfold strided_dt. rewrite V. cbn. rewrite X. auto.
        -- destruct (A e He) as (j & d' & ? & ? & ?). exists j, d'. split; auto.
      * cbn. constructor; auto. intros Hin. apply in_map_iff in Hin. destruct Hin as (e & Eh & He).
        destruct (A e He) as (j & d' & Ej & Nj & _). rewrite Ej in Eh. inversion Eh; subst j.
        assert (k < length (t_objs t))%nat by (apply nth_error_Some; congruence). lia.
      * cbn. intros j d' Hj. destruct (Nat.lt_ge_cases j (length (t_objs t))) as [Lt|Ge].
        -- rewrite <- app_assoc in Hj. rewrite nth_error_app1 in Hj by auto. destruct (C j d' Hj) as (e & ? & ?).
           exists e. auto.
        -- rewrite <- app_assoc, nth_error_app2 in Hj by auto.
           destruct (j - length (t_objs t))%nat as [|[|q]] eqn:Ej; cbn in Hj; try discriminate.
           ++ eexists. split; [left; reflexivity|]. cbn. f_equal. lia.
           ++ destruct q; discriminate.
    + eexists _, (HDer (length (t_objs t))). split; [reflexivity|]. cbn. split; [rewrite nth_error_snoc; auto|].
      split; [|intros [b'|j] d' H'; cbn in *; auto; destruct (nth_error (t_objs t) j) as [[x|]|] eqn:Ej; try discriminate;
               rewrite (nth_error_snoc_lt _ _ _ _ Ej); auto].
      split; [|split].
      * cbn. intros e [<-|He]; cbn.
        -- exists (length (t_objs t)), v. split; auto. split; [rewrite nth_error_snoc; auto|].
           unfold strided_dt. rewrite V. cbn. rewrite X. auto.
        -- destruct (A e He) as (j & d' & ? & ? & ?). exists j, d'. split; auto. split; auto.
           apply nth_error_snoc_lt; auto.
      * cbn. constructor; auto. intros Hin. apply in_map_iff in Hin. destruct Hin as (e & Eh & He).
        destruct (A e He) as (j & d' & Ej & Nj & _). rewrite Ej in Eh. inversion Eh; subst j.
        assert (length (t_objs t) < length (t_objs t))%nat by (apply nth_error_Some; congruence). lia.
      * cbn. intros j d' Hj. destruct (Nat.lt_ge_cases j (length (t_objs t))) as [Lt|Ge].
        -- rewrite nth_error_app1 in Hj by auto. destruct (C j d' Hj) as (e & ? & ?). exists e. auto.
        -- rewrite nth_error_app2 in Hj by auto.
           destruct (j - length (t_objs t))%nat as [|q] eqn:Ej; cbn in Hj; try discriminate.
           ++ eexists. split; [left; reflexivity|]. cbn. f_equal. lia.
           ++ destruct q; discriminate.
Qed.

(** Without it. *)
Definition nones (k : nat) : list (option dt) := repeat None k.
Lemma create_plain t n st b ext :
  match one_dt n st b ext with
  | Ok (c, d) =>
      exists t' h, create_strided false t n st b ext = Ok (t', (c, h)) /\ resolve t' h = Ok d /\
        t_cache t' = t_cache t /\
        ((h = HBase b /\ t' = t) \/
         exists k, h = HDer (length (t_objs t) + k) /\ t_objs t' = t_objs t ++ nones k ++ [Some d])
  | _ => create_strided false t n st b ext = Abort
  end.
Proof.
  unfold one_dt, create_strided. destruct (st =? 1) eqn:E1.
  { exists t, (HBase b). split; [|split]; auto. }
  unfold strided_dt. destruct (type_vector (to_int n) (to_int st) b) as [v| | |] eqn:V; cbn.
  2: reflexivity.
  2,3: unfold type_vector in V; destruct (to_int n <? 0); discriminate.
  destruct (0 <? ext) eqn:X.
  - cbn. rewrite nth_error_app1 by (rewrite app_length; cbn; lia). rewrite nth_error_snoc. cbn.
    set (d := type_resized v (to_long (wrap64 (ext * bt_size b)))).
    assert (OB : upd ((t_objs t ++ [Some v]) ++ [Some d]) (length (t_objs t)) None = t_objs t ++ nones 1 ++ [Some d]).
    { rewrite <- app_assoc. cbn. rewrite upd_app_at. auto. }
    rewrite OB. eexists _, _. split; [reflexivity|]. cbn [resolve t_objs t_cache].
    replace (length (t_objs t ++ [Some v])) with (length (t_objs t) + 1)%nat by (rewrite app_length; auto).
    split; [|split; [auto|right; exists 1%nat; auto]].
    replace (length (t_objs t) + 1)%nat with (length (t_objs t ++ nones 1)) by (rewrite app_length; auto).
    rewrite app_assoc, nth_error_snoc. auto.
  - eexists _, _. split; [reflexivity|]. cbn. split; [rewrite nth_error_snoc; auto|]. split; auto.
    right. exists 0%nat. rewrite Nat.add_0_r. auto.
Qed.

Definition pair_dt (n s1 s2 : Z) (b : bt) (e1 e2 : Z) : outcome ((Z * dt) * (Z * dt)) :=
  do x <- one_dt n s1 b e1;
  do y <- (if s1 =? s2 then Ok x else one_dt n s2 b e2);
  Ok (x, y).

Lemma one_dt_cases n st b ext : one_dt n st b ext = Abort \/ exists x, one_dt n st b ext = Ok x.
Proof.
  unfold one_dt. destruct (st =? 1); eauto. destruct (strided_dt_cases n st b ext) as [->|[d ->]]; cbn; eauto.
Qed.

Lemma pair_cached t n s1 s2 b e1 e2 : cache_ok t ->
  match pair_dt n s1 s2 b e1 e2 with
  | Ok (x, y) => exists t', strided_pair true t n s1 s2 b e1 e2 = Ok (t', x, y) /\ cache_ok t'
  | _ => strided_pair true t n s1 s2 b e1 e2 = Abort
  end.
Proof.
  intros I. assert (Q := create_cached t n s1 b e1 I). unfold pair_dt, strided_pair.
  destruct (one_dt_cases n s1 b e1) as [E|[[c1 d1] E]]; rewrite E in *; cbn.
  { rewrite Q. reflexivity. }
  destruct Q as (t1 & h1 & -> & R1 & I1 & K1). cbn.
  destruct (s1 =? s2) eqn:ES.
  - cbn. rewrite R1. cbn. eauto.
  - assert (Q2 := create_cached t1 n s2 b e2 I1).
    destruct (one_dt_cases n s2 b e2) as [E2|[[c2 d2] E2]]; rewrite E2 in *; cbn.
    { rewrite Q2. reflexivity. }
    destruct Q2 as (t2 & h2 & -> & R2 & I2 & K2). cbn. rewrite (K2 _ _ R1), R2. cbn. eauto.
Qed.
Lemma one_cached t n st b : cache_ok t ->
  match one_dt n st b 0 with
  | Ok x => exists t', strided_one true t n st b = Ok (t', x) /\ cache_ok t'
  | _ => strided_one true t n st b = Abort
  end.
Proof.
  intros I. assert (Q := create_cached t n st b 0 I). unfold strided_one.
  destruct (one_dt_cases n st b 0) as [E|[[c1 d1] E]]; rewrite E in *; cbn.
  { rewrite Q. reflexivity. }
  destruct Q as (t1 & h1 & -> & R1 & I1 & K1). cbn. rewrite R1. cbn. eauto.
Qed.

Definition grown (t t' : dts) : Prop := t_cache t' = t_cache t /\ exists k, t_objs t' = t_objs t ++ nones k.
Lemma upd_snoc_none (l : list (option dt)) d : upd (l ++ [Some d]) (length l) None = l ++ [None].
Proof. apply upd_app_at. Qed.
Lemma nones_app i j : nones i ++ nones j = nones (i + j).
Proof. unfold nones. rewrite <- repeat_app. auto. Qed.
Lemma free_der t t' k d b : t_objs t' = t ++ nones k ++ [Some d] ->
  free_strided false t' b (HDer (length t + k)) = Ok (mkDts (t ++ nones (k + 1)) (t_cache t')).
Proof.
  intros E. cbn. rewrite E. replace (length t + k)%nat with (length (t ++ nones k)) by (rewrite app_length; unfold nones; rewrite repeat_length; auto).
  rewrite app_assoc, nth_error_snoc. rewrite upd_snoc_none, <- app_assoc.
  change [@None dt] with (nones 1). rewrite nones_app. auto.
Qed.
Lemma bt_eqb_refl b : bt_eqb b b = true.
Proof. apply bt_eqb_eq. auto. Qed.
Lemma free_base t b : free_strided false t b (HBase b) = Ok t.
Proof. cbn. rewrite bt_eqb_refl. auto. Qed.
Lemma grown_refl t : grown t t.
Proof. split; auto. exists 0%nat. cbn. rewrite app_nil_r. auto. Qed.

Lemma one_plain t n st b :
  match one_dt n st b 0 with
  | Ok x => exists t', strided_one false t n st b = Ok (t', x) /\ grown t t'
  | _ => strided_one false t n st b = Abort
  end.
Proof.
  assert (Q := create_plain t n st b 0). unfold strided_one.
  destruct (one_dt_cases n st b 0) as [E|[[c1 d1] E]]; rewrite E in *; cbn -[free_strided].
  { rewrite Q. reflexivity. }
  destruct Q as (t1 & h1 & -> & R1 & C1 & [[-> ->]|(k & -> & O1)]); cbn -[free_strided resolve]; rewrite R1; cbn -[free_strided].
  - cbn. rewrite bt_eqb_refl. cbn. eexists. split; [reflexivity|]. apply grown_refl.
  - rewrite (free_der (t_objs t) t1 k d1 b O1). cbn. eexists. split; [reflexivity|]. split; cbn; auto. eauto.
Qed.
Lemma pair_plain t n s1 s2 b e1 e2 :
  match pair_dt n s1 s2 b e1 e2 with
  | Ok (x, y) => exists t', strided_pair false t n s1 s2 b e1 e2 = Ok (t', x, y) /\ grown t t'
  | _ => strided_pair false t n s1 s2 b e1 e2 = Abort
  end.
Proof.
  assert (Q := create_plain t n s1 b e1). unfold pair_dt, strided_pair.
  destruct (one_dt_cases n s1 b e1) as [E|[[c1 d1] E]]; rewrite E in *; cbn -[free_strided].
  { rewrite Q. reflexivity. }
  destruct Q as (t1 & h1 & -> & R1 & C1 & D1). cbn -[free_strided resolve].
  destruct (s1 =? s2) eqn:ES.
  - cbn -[free_strided resolve]. rewrite R1. cbn -[free_strided].
    destruct D1 as [[-> ->]|(k & -> & O1)].
    + cbn. rewrite bt_eqb_refl. cbn. eexists. split; [reflexivity|]. apply grown_refl.
    + rewrite (free_der (t_objs t) t1 k d1 b O1). cbn. eexists. split; [reflexivity|]. split; cbn; auto. eauto.
  - assert (Q2 := create_plain t1 n s2 b e2).
    destruct (one_dt_cases n s2 b e2) as [E2|[[c2 d2] E2]]; rewrite E2 in *; cbn -[free_strided].
    { rewrite Q2. reflexivity. }
    destruct Q2 as (t2 & h2 & -> & R2 & C2 & D2). cbn -[free_strided resolve].
    assert (K1 : resolve t2 h1 = Ok d1).
    { destruct D2 as [[_ ->]|(k & _ & O2)]; auto. destruct h1 as [b1|j]; auto. cbn in *. rewrite O2.
      destruct (nth_error (t_objs t1) j) as [[x|]|] eqn:Ej; try discriminate.
      assert (j < length (t_objs t1))%nat by (apply nth_error_Some; congruence).
      rewrite nth_error_app1, Ej; auto. }
    rewrite K1, R2. cbn -[free_strided].
    destruct D1 as [[-> ->]|(k & -> & O1)].
    + rewrite free_base. cbn [bind].
      destruct D2 as [[-> ->]|(k2 & -> & O2)].
      * cbn. rewrite bt_eqb_refl. cbn. eexists. split; [reflexivity|]. apply grown_refl.
      * rewrite (free_der (t_objs t) t2 k2 d2 b O2). cbn. eexists. split; [reflexivity|]. split; cbn; auto. eauto.
    + destruct D2 as [[-> ->]|(k2 & -> & O2)].
      * rewrite (free_der (t_objs t) t1 k d1 b O1). cbn [bind]. cbn. rewrite bt_eqb_refl. cbn.
        eexists. split; [reflexivity|]. split; cbn; auto. eauto.
      * assert (F1 : free_strided false t2 b (HDer (length (t_objs t) + k)) =
                     Ok (mkDts ((t_objs t ++ nones (k + 1)) ++ nones k2 ++ [Some d2]) (t_cache t2))).
        { cbn. rewrite O2, O1.
          replace (length (t_objs t) + k)%nat with (length (t_objs t ++ nones k)) by (rewrite app_length; unfold nones; rewrite repeat_length; auto).
          assert (RA : (t_objs t ++ nones k ++ [Some d1]) ++ nones k2 ++ [Some d2] =
                       (t_objs t ++ nones k) ++ Some d1 :: nones k2 ++ [Some d2]).
          { rewrite <- !app_assoc. cbn. auto. }
          rewrite RA. rewrite nth_error_app2 by lia. rewrite Nat.sub_diag. cbn. rewrite upd_app_at.
          f_equal. f_equal. rewrite <- (nones_app k 1). rewrite <- !app_assoc. auto. }
        rewrite F1. cbn [bind].
        assert (F2 := free_der (t_objs t ++ nones (k + 1))
          (mkDts ((t_objs t ++ nones (k + 1)) ++ nones k2 ++ [Some d2]) (t_cache t2)) k2 d2 b eq_refl).
        assert (LE : (length (t_objs t1) + k2)%nat = (length (t_objs t ++ nones (k + 1)) + k2)%nat).
        { rewrite O1, !app_length. unfold nones. rewrite !repeat_length. cbn. lia. }
        rewrite LE, F2. cbn. eexists. split; [reflexivity|]. split; cbn; [congruence|].
        rewrite <- app_assoc, nones_app. eauto.
Qed.

Lemma cache_ok_init : cache_ok t_init.
Proof.
  split; [intros e []|]. split; [constructor|]. intros k d H. destruct k; discriminate.
Qed.

(** Histories. *)
Definition use_dt (u : tuse) : outcome (list (Z * dt)) :=
  match u with
  | UPair n s1 s2 b e1 e2 => do r <- pair_dt n s1 s2 b e1 e2; Ok [fst r; snd r]
  | UOne n s b => do x <- one_dt n s b 0; Ok [x]
  end.
Lemma pair_dt_cases n s1 s2 b e1 e2 : pair_dt n s1 s2 b e1 e2 = Abort \/ exists x y, pair_dt n s1 s2 b e1 e2 = Ok (x, y).
Proof.
  unfold pair_dt. destruct (one_dt_cases n s1 b e1) as [->|[x ->]]; cbn; auto.
  destruct (s1 =? s2); cbn; [eauto|]. destruct (one_dt_cases n s2 b e2) as [->|[y ->]]; cbn; eauto.
Qed.
Lemma use_cached t u : cache_ok t ->
  match use_dt u with
  | Ok l => exists t', use true t u = Ok (t', l) /\ cache_ok t'
  | _ => use true t u = Abort
  end.
Proof.
  intros I. destruct u as [n s1 s2 b e1 e2|n s b]; cbn.
  - assert (Q := pair_cached t n s1 s2 b e1 e2 I).
    destruct (pair_dt_cases n s1 s2 b e1 e2) as [E|(x & y & E)]; rewrite E in *; cbn.
    + rewrite Q. auto.
    + destruct Q as (t' & -> & I'). cbn. eauto.
  - assert (Q := one_cached t n s b I).
    destruct (one_dt_cases n s b 0) as [E|(x & E)]; rewrite E in *; cbn.
    + rewrite Q. auto.
    + destruct Q as (t' & -> & I'). cbn. eauto.
Qed.
Lemma use_plain t u :
  match use_dt u with
  | Ok l => exists t', use false t u = Ok (t', l) /\ grown t t'
  | _ => use false t u = Abort
  end.
Proof.
  destruct u as [n s1 s2 b e1 e2|n s b]; cbn.
  - assert (Q := pair_plain t n s1 s2 b e1 e2).
    destruct (pair_dt_cases n s1 s2 b e1 e2) as [E|(x & y & E)]; rewrite E in *; cbn.
    + rewrite Q. auto.
    + destruct Q as (t' & -> & I'). cbn. eauto.
  - assert (Q := one_plain t n s b).
    destruct (one_dt_cases n s b 0) as [E|(x & E)]; rewrite E in *; cbn.
    + rewrite Q. auto.
    + destruct Q as (t' & -> & I'). cbn. eauto.
Qed.
Lemma use_dt_cases u : use_dt u = Abort \/ exists l, use_dt u = Ok l.
Proof.
  destruct u as [n s1 s2 b e1 e2|n s b]; cbn.
  - destruct (pair_dt_cases n s1 s2 b e1 e2) as [->|(x & y & ->)]; cbn; eauto.
  - destruct (one_dt_cases n s b 0) as [->|(x & ->)]; cbn; eauto.
Qed.

Fixpoint uses_dt (us : list tuse) : outcome (list (list (Z * dt))) :=
  match us with
  | [] => Ok []
  | u :: r => do a <- use_dt u; do b <- uses_dt r; Ok (a :: b)
  end.
Lemma uses_cached us : forall t, cache_ok t ->
  match uses_dt us with
  | Ok l => exists t', uses true t us = Ok (t', l) /\ cache_ok t'
  | _ => uses true t us = Abort
  end.
Proof.
  induction us as [|u us IH]; intros t I; cbn; [eauto|].
  assert (Q := use_cached t u I). destruct (use_dt_cases u) as [E|[l E]]; rewrite E in *; cbn.
  - rewrite Q. auto.
  - destruct Q as (t1 & -> & I1). cbn. specialize (IH t1 I1).
    destruct (uses_dt us) as [ll| | |]; cbn; try (rewrite IH; reflexivity).
    destruct IH as (t2 & -> & I2). cbn. eauto.
Qed.
Lemma grown_trans a b d : grown a b -> grown b d -> grown a d.
Proof.
  intros (C1 & i & O1) (C2 & j & O2). split; [congruence|]. exists (i + j)%nat. rewrite O2, O1, <- app_assoc, nones_app. auto.
Qed.
Lemma uses_plain us : forall t,
  match uses_dt us with
  | Ok l => exists t', uses false t us = Ok (t', l) /\ grown t t'
  | _ => uses false t us = Abort
  end.
Proof.
  induction us as [|u us IH]; intros t; cbn; [exists t; split; auto; apply grown_refl|].
  assert (Q := use_plain t u). destruct (use_dt_cases u) as [E|[l E]]; rewrite E in *; cbn.
  - rewrite Q. auto.
  - destruct Q as (t1 & -> & I1). cbn. specialize (IH t1).
    destruct (uses_dt us) as [ll| | |]; cbn; try (rewrite IH; reflexivity).
    destruct IH as (t2 & -> & I2). cbn. exists t2. split; auto. eapply grown_trans; eauto.
Qed.

(** The cache is invisible: any history gives the same types with it and without it. *)
Lemma cache_invisible us :
  match uses true t_init us, uses false t_init us with
  | Ok (_, a), Ok (_, b) => a = b
  | Abort, Abort => True
  | _, _ => False
  end.
Proof.
  assert (A := uses_cached us t_init cache_ok_init). assert (B := uses_plain us t_init).
  destruct (uses_dt us); try (rewrite A, B; exact I).
  destruct A as (t1 & -> & _), B as (t2 & -> & _). auto.
Qed.

Lemma live_types_in t k : In k (live_types t) <-> exists d, nth_error (t_objs t) k = Some (Some d).
Proof.
  unfold live_types. rewrite filter_In, in_seq. split.
  - intros [_ H]. destruct (nth_error (t_objs t) k) as [[d|]|]; try discriminate. eauto.
  - intros [d E]. assert (k < length (t_objs t))%nat by (apply nth_error_Some; congruence).
    split; [lia|]. rewrite E. auto.
Qed.
Lemma no_live t : (forall k d, nth_error (t_objs t) k <> Some (Some d)) -> live_types t = [].
Proof.
  intros H. destruct (live_types t) as [|k l] eqn:E; auto. exfalso.
  assert (Q : In k (live_types t)) by (rewrite E; left; auto). apply live_types_in in Q. destruct Q as [d Q].
  exact (H k d Q).
Qed.

Lemma finalize_ok l : forall t,
  (forall e, In e l -> exists k d, ce_hdl e = HDer k /\ nth_error (t_objs t) k = Some (Some d)) ->
  NoDup (map ce_hdl l) ->
  exists t', finalize_cache t l = Ok t' /\
    forall k d, nth_error (t_objs t') k = Some (Some d) ->
      nth_error (t_objs t) k = Some (Some d) /\ forall e, In e l -> ce_hdl e <> HDer k.
Proof.
  induction l as [|e l IH]; intros t H N; cbn; [exists t; split; auto|].
  inversion N; subst. destruct (H e (or_introl eq_refl)) as (k & d & Eh & En).
  rewrite Eh. cbn. rewrite En. cbn.
  destruct (IH (mkDts (upd (t_objs t) k None) (t_cache t))) as (t' & -> & Q); auto.
  { intros e' He'. destruct (H e' (or_intror He')) as (k' & d' & Eh' & En'). exists k', d'. split; auto. cbn.
    rewrite nth_error_upd_ne; auto. intros ->. apply H2. rewrite Eh, <- Eh'. apply in_map. auto. }
  exists t'. split; auto. intros k' d' Hk. destruct (Q k' d' Hk) as [Q1 Q2]. cbn in Q1.
  assert (k <> k').
  { intros <-. assert (k < length (t_objs t))%nat by (apply nth_error_Some; congruence).
    rewrite nth_error_upd_eq in Q1 by auto. discriminate. }
  rewrite nth_error_upd_ne in Q1 by auto. split; auto. intros e' [<-|He']; [rewrite Eh; congruence|auto].
Qed.

Lemma no_leak cached us t l : uses cached t_init us = Ok (t, l) ->
  exists t', strided_finalize cached t = Ok t' /\ live_types t' = [] /\
    (cached = false -> live_types t = []).
Proof.
  intros H. destruct cached.
  - assert (A := uses_cached us t_init cache_ok_init). destruct (uses_dt us); try congruence.
    destruct A as (t1 & E & (I1 & I2 & I3)). rewrite H in E. inversion E; subst. cbn.
    destruct (finalize_ok (t_cache t1) t1) as (t' & -> & Q); auto.
    { intros e He. destruct (I1 e He) as (k & d & ? & ? & _). eauto. }
    cbn. eexists. split; [reflexivity|]. split; [|discriminate].
    apply no_live. cbn. intros k d Hk. destruct (Q k d Hk) as [Q1 Q2]. destruct (I3 k d Q1) as (e & He & Eh).
    exact (Q2 e He Eh).
  - assert (B := uses_plain us t_init). destruct (uses_dt us); try congruence.
    destruct B as (t2 & E & (C & k & O)). rewrite H in E. inversion E; subst. cbn.
    assert (L : live_types t2 = []).
    { apply no_live. rewrite O. cbn. intros j d Hj. apply nth_error_In in Hj. apply repeat_spec in Hj. discriminate. }
    exists t2. auto.
Qed.

(** ** Strided transfers *)
Lemma one_dt_addrs n st b base : 0 <= n < 2 ^ 31 -> int_ok st ->
  exists c d, one_dt n st b 0 = Ok (c, d) /\ to_int c = c /\ 0 <= c /\ addrs base c d = saddrs (bt_size b) n base st /\
    forall base', addrs base' c d = saddrs (bt_size b) n base' st.
Proof.
  intros Hn Hs. unfold one_dt. destruct (st =? 1) eqn:E.
  - exists n, (base_dt b). split; auto. split; [apply to_int_id; lia|]. split; [lia|].
    replace st with 1 by lia. split; [|intros]; apply addrs_base.
  - unfold strided_dt. rewrite (to_int_id n), (to_int_id st) by (unfold int_ok in *; lia).
    assert (Q := fun base => addrs_vector n st b base (proj1 Hn)).
    destruct (Q base) as (d & V & Ad & Ed). rewrite V. cbn. exists 1, d. split; auto. split; [reflexivity|].
    split; [lia|]. split; auto.
    intros base'. destruct (Q base') as (d' & V' & Ad' & _). rewrite V in V'. inversion V'. auto.
Qed.

Lemma move_strided n b sm sa ss dm da ds c1 d1 c2 d2 : 0 <= bt_size b -> 0 <= n -> ds <> 0 \/ n <= 1 ->
  0 <= c1 -> 0 <= c2 -> addrs sa c1 d1 = saddrs (bt_size b) n sa ss -> addrs da c2 d2 = saddrs (bt_size b) n da ds ->
  exists dm', mpi_move sm sa c1 d1 dm da c2 d2 = Ok dm' /\ strided_copy (bt_size b) n sm sa ss dm da ds dm'.
Proof.
  intros Hz Hn Hd H1 H2 A1 A2. unfold mpi_move, pack. rewrite A1, A2.
  replace ((c1 <? 0) || (c2 <? 0)) with false by lia. rewrite !saddrs_length, Z.eqb_refl.
  eexists. split; [reflexivity|]. apply write_strided; auto.
Qed.

Lemma pair_addrs n b s1 s2 : 0 <= n < 2 ^ 31 -> int_ok s1 -> int_ok s2 ->
  exists c1 d1 c2 d2, pair_dt n s1 s2 b 0 0 = Ok ((c1, d1), (c2, d2)) /\
    to_int c1 = c1 /\ to_int c2 = c2 /\ 0 <= c1 /\ 0 <= c2 /\
    (forall base, addrs base c1 d1 = saddrs (bt_size b) n base s1) /\
    (forall base, addrs base c2 d2 = saddrs (bt_size b) n base s2).
Proof.
  intros Hn H1 H2. destruct (one_dt_addrs n s1 b 0 Hn H1) as (c1 & d1 & E1 & I1 & P1 & _ & A1).
  unfold pair_dt. rewrite E1. cbn. destruct (s1 =? s2) eqn:E.
  - replace s2 with s1 by lia. exists c1, d1, c1, d1. cbn. repeat split; auto.
  - destruct (one_dt_addrs n s2 b 0 Hn H2) as (c2 & d2 & E2 & I2 & P2 & _ & A2). rewrite E2. cbn.
    exists c1, d1, c2, d2. repeat split; auto.
Qed.

Definition uinv (cached : bool) (t : dts) : Prop := if cached then cache_ok t else True.
Lemma pair_any cached t n s1 s2 b x y : uinv cached t -> pair_dt n s1 s2 b 0 0 = Ok (x, y) ->
  exists t', strided_pair cached t n s1 s2 b 0 0 = Ok (t', x, y).
Proof.
  intros I E. destruct cached; [assert (Q := pair_cached t n s1 s2 b 0 0 I)|assert (Q := pair_plain t n s1 s2 b 0 0)];
    rewrite E in Q; destruct Q as (t' & Q & _); eauto.
Qed.
Lemma one_any cached t n s b x : uinv cached t -> one_dt n s b 0 = Ok x ->
  exists t', strided_one cached t n s b = Ok (t', x).
Proof.
  intros I E. destruct cached; [assert (Q := one_cached t n s b I)|assert (Q := one_plain t n s b)];
    rewrite E in Q; destruct Q as (t' & Q & _); eauto.
Qed.
Lemma reach_uinv cached us t l : uses cached t_init us = Ok (t, l) -> uinv cached t.
Proof.
  intros H. destruct cached; cbn; auto.
  assert (A := uses_cached us t_init cache_ok_init). destruct (uses_dt us); try congruence.
  destruct A as (t1 & E & I). rewrite H in E. inversion E; subst. auto.
Qed.

Definition xfer_ok (x : xfer) : Prop := 0 <= x_n x < 2 ^ 31 /\ int_ok (x_ost x) /\ int_ok (x_tst x) /\ 0 <= bt_size (x_bt x).

Lemma strided_copy_0 sz sm sa ss dm da ds : strided_copy sz 0 sm sa ss dm da ds dm.
Proof. split; [intros; lia|auto]. Qed.

Lemma iput_direct_ok cached us t l x om tm : uses cached t_init us = Ok (t, l) -> xfer_ok x ->
  x_tst x <> 0 \/ x_n x <= 1 ->
  exists t' tm', iput_direct cached t x om tm = Ok (t', tm') /\
    strided_copy (bt_size (x_bt x)) (x_n x) om (x_oa x) (x_ost x) tm (x_ta x) (x_tst x) tm'.
Proof.
  intros U (Hn & H1 & H2 & Hz) Hd. unfold iput_direct. destruct (x_n x =? 0) eqn:E0.
  { exists t, tm. split; auto. replace (x_n x) with 0 by lia. apply strided_copy_0. }
  destruct (pair_addrs (x_n x) (x_bt x) (x_ost x) (x_tst x) Hn H1 H2) as (c1 & d1 & c2 & d2 & E & I1 & I2 & P1 & P2 & A1 & A2).
  destruct (pair_any cached t _ _ _ _ _ _ (reach_uinv _ _ _ _ U) E) as (t' & ->). cbn. rewrite I1, I2.
  destruct (move_strided (x_n x) (x_bt x) om (x_oa x) (x_ost x) tm (x_ta x) (x_tst x) c1 d1 c2 d2) as (tm' & -> & C);
    auto; try lia.
  cbn. eauto.
Qed.
Lemma iget_direct_ok cached us t l x om tm : uses cached t_init us = Ok (t, l) -> xfer_ok x ->
  x_ost x <> 0 \/ x_n x <= 1 ->
  exists t' om', iget_direct cached t x om tm = Ok (t', om') /\
    strided_copy (bt_size (x_bt x)) (x_n x) tm (x_ta x) (x_tst x) om (x_oa x) (x_ost x) om'.
Proof.
  intros U (Hn & H1 & H2 & Hz) Hd. unfold iget_direct. destruct (x_n x =? 0) eqn:E0.
  { exists t, om. split; auto. replace (x_n x) with 0 by lia. apply strided_copy_0. }
  destruct (pair_addrs (x_n x) (x_bt x) (x_ost x) (x_tst x) Hn H1 H2) as (c1 & d1 & c2 & d2 & E & I1 & I2 & P1 & P2 & A1 & A2).
  destruct (pair_any cached t _ _ _ _ _ _ (reach_uinv _ _ _ _ U) E) as (t' & ->). cbn. rewrite I1, I2.
  destruct (move_strided (x_n x) (x_bt x) tm (x_ta x) (x_tst x) om (x_oa x) (x_ost x) c2 d2 c1 d1) as (om' & -> & C);
    auto; try lia.
  cbn. eauto.
Qed.

Lemma send_recv n b sm sa ss dm da ds c1 d1 c2 d2 : 0 <= bt_size b -> 0 <= n -> ds <> 0 \/ n <= 1 ->
  0 <= c1 -> 0 <= c2 -> addrs sa c1 d1 = saddrs (bt_size b) n sa ss -> addrs da c2 d2 = saddrs (bt_size b) n da ds ->
  send sm sa c1 d1 = Ok (map sm (saddrs (bt_size b) n sa ss)) /\
  exists dm', recv dm da c2 d2 (map sm (saddrs (bt_size b) n sa ss)) = Ok dm' /\
    strided_copy (bt_size b) n sm sa ss dm da ds dm'.
Proof.
  intros Hz Hn Hd H1 H2 A1 A2. unfold send, recv, pack. rewrite A1, A2.
  replace (c1 <? 0) with false by lia. replace (c2 <? 0) with false by lia. split; auto.
  rewrite map_length, !saddrs_length, Z.ltb_irrefl.
  eexists. split; [reflexivity|]. apply write_strided; auto.
Qed.

Lemma iput_am_ok cached us us' t t2 l l' x om tm : uses cached t_init us = Ok (t, l) -> uses cached t_init us' = Ok (t2, l') ->
  xfer_ok x -> x_tst x <> 0 \/ x_n x <= 1 ->
  exists t' t2' tm', iput_am cached t t2 x om tm = Ok (t', t2', tm') /\
    strided_copy (bt_size (x_bt x)) (x_n x) om (x_oa x) (x_ost x) tm (x_ta x) (x_tst x) tm'.
Proof.
  intros U U2 (Hn & H1 & H2 & Hz) Hd. unfold iput_am. destruct (x_n x =? 0) eqn:E0.
  { exists t, t2, tm. split; auto. replace (x_n x) with 0 by lia. apply strided_copy_0. }
  destruct (one_dt_addrs (x_n x) (x_ost x) (x_bt x) 0 Hn H1) as (c1 & d1 & E1 & I1 & P1 & _ & A1).
  destruct (one_dt_addrs (x_n x) (x_tst x) (x_bt x) 0 Hn H2) as (c2 & d2 & E2 & I2 & P2 & _ & A2).
  destruct (one_any cached t _ _ _ _ (reach_uinv _ _ _ _ U) E1) as (t' & ->).
  destruct (one_any cached t2 _ _ _ _ (reach_uinv _ _ _ _ U2) E2) as (t2' & Q2). cbn. rewrite I1.
  destruct (send_recv (x_n x) (x_bt x) om (x_oa x) (x_ost x) tm (x_ta x) (x_tst x) c1 d1 c2 d2) as (S1 & tm' & R1 & C);
    auto; try lia.
  rewrite S1. cbn. rewrite Q2. cbn. rewrite I2, R1. cbn. eauto 6.
Qed.
Lemma iget_am_ok cached us us' t t2 l l' x om tm : uses cached t_init us = Ok (t, l) -> uses cached t_init us' = Ok (t2, l') ->
  xfer_ok x -> x_ost x <> 0 \/ x_n x <= 1 ->
  exists t' t2' om', iget_am cached t t2 x om tm = Ok (t', t2', om') /\
    strided_copy (bt_size (x_bt x)) (x_n x) tm (x_ta x) (x_tst x) om (x_oa x) (x_ost x) om'.
Proof.
  intros U U2 (Hn & H1 & H2 & Hz) Hd. unfold iget_am. destruct (x_n x =? 0) eqn:E0.
  { exists t, t2, om. split; auto. replace (x_n x) with 0 by lia. apply strided_copy_0. }
  destruct (one_dt_addrs (x_n x) (x_ost x) (x_bt x) 0 Hn H1) as (c1 & d1 & E1 & I1 & P1 & _ & A1).
  destruct (one_dt_addrs (x_n x) (x_tst x) (x_bt x) 0 Hn H2) as (c2 & d2 & E2 & I2 & P2 & _ & A2).
  destruct (one_any cached t _ _ _ _ (reach_uinv _ _ _ _ U) E1) as (t' & ->).
  destruct (one_any cached t2 _ _ _ _ (reach_uinv _ _ _ _ U2) E2) as (t2' & Q2). cbn. rewrite Q2. cbn. rewrite I2.
  destruct (send_recv (x_n x) (x_bt x) tm (x_ta x) (x_tst x) om (x_oa x) (x_ost x) c2 d2 c1 d1) as (S1 & om' & R1 & C);
    auto; try lia.
  rewrite S1. cbn. rewrite I1, R1. cbn. eauto 6.
Qed.

(** ** Contiguous transfers *)
Lemma strided_copy_bytes sz n sm sa dm da dm' : 0 <= n -> strided_copy sz n sm sa 1 dm da 1 dm' ->
  copy_bytes (n * sz) sm sa dm da dm'.
Proof.
  intros Hn [A B]. split.
  - intros k Hk. assert (0 < sz) by nia.
    assert (E := Z.div_mod k sz ltac:(lia)). assert (M := Z.mod_pos_bound k sz ltac:(lia)).
    assert (D : 0 <= k / sz < n).
    { split; [apply Z.div_pos; lia|]. apply Z.div_lt_upper_bound; lia. }
    specialize (A (k / sz) (k mod sz) D M).
    replace (da + k) with (da + k / sz * 1 * sz + k mod sz) by lia.
    replace (sa + k) with (sa + k / sz * 1 * sz + k mod sz) by lia. auto.
  - intros a Ha. apply B. intros i b Hi Hb ->. apply Ha. nia.
Qed.
Lemma bytes_strided bytes sm sa dm da dm' : strided_copy 1 bytes sm sa 1 dm da 1 dm' ->
  copy_bytes bytes sm sa dm da dm'.
Proof.
  intros [A B]. split.
  - intros k Hk. specialize (A k 0 Hk ltac:(lia)).
    replace (da + k) with (da + k * 1 * 1 + 0) by lia. replace (sa + k) with (sa + k * 1 * 1 + 0) by lia. auto.
  - intros a Ha. apply B. intros i b Hi Hb ->. apply Ha. lia.
Qed.

Lemma copy_bytes_0 sm sa dm da : copy_bytes 0 sm sa dm da dm.
Proof. split; [intros; lia|auto]. Qed.

Lemma base_move b n sm sa dm da : 0 <= bt_size b -> 0 <= n < 2 ^ 31 ->
  exists dm', mpi_move sm sa (to_int n) (base_dt b) dm da (to_int n) (base_dt b) = Ok dm' /\
    copy_bytes (n * bt_size b) sm sa dm da dm'.
Proof.
  intros Hz Hn. rewrite to_int_id by lia.
  destruct (move_strided n b sm sa 1 dm da 1 n (base_dt b) n (base_dt b)) as (dm' & E & C); auto; try lia;
    try apply addrs_base.
  exists dm'. split; auto. apply strided_copy_bytes; auto. lia.
Qed.
Lemma put_direct_ok b n oa ta om tm : 0 <= bt_size b -> 0 <= n < 2 ^ 31 ->
  exists tm', put_direct b n oa ta om tm = Ok tm' /\ copy_bytes (n * bt_size b) om oa tm ta tm'.
Proof.
  intros Hz Hn. unfold put_direct. destruct (n =? 0) eqn:E.
  - exists tm. split; auto. replace n with 0 by lia. apply copy_bytes_0.
  - apply base_move; auto.
Qed.
Lemma get_direct_ok b n oa ta om tm : 0 <= bt_size b -> 0 <= n < 2 ^ 31 ->
  exists om', get_direct b n oa ta om tm = Ok om' /\ copy_bytes (n * bt_size b) tm ta om oa om'.
Proof.
  intros Hz Hn. unfold get_direct. destruct (n =? 0) eqn:E.
  - exists om. split; auto. replace n with 0 by lia. apply copy_bytes_0.
  - apply base_move; auto.
Qed.

(** A message of [k] bytes received into a buffer of at least as many. *)
Lemma saddrs_bytes sz n base : 0 <= sz -> 0 <= n -> saddrs sz n base 1 = zseq base (Z.to_nat (n * sz)).
Proof.
  intros Hz Hn. rewrite <- (Z2Nat.id n Hn). remember (Z.to_nat n) as m. clear - Hz. revert base.
  induction m as [|m IH]; intros base.
  - replace (Z.of_nat 0 * sz) with 0 by lia. reflexivity.
  - unfold saddrs. rewrite Nat2Z.id, zseq_S. cbn [flat_map].
    replace (base + 0 * 1 * sz) with base by lia.
    replace (Z.to_nat (Z.of_nat (S m) * sz)) with (Z.to_nat sz + Z.to_nat (Z.of_nat m * sz))%nat by nia.
    assert (Z2 : forall lo a b, zseq lo (a + b) = zseq lo a ++ zseq (lo + Z.of_nat a) b).
    { clear. intros lo a. revert lo. induction a as [|a IH]; intros lo b.
      - cbn [Nat.add app Z.of_nat]. replace (zseq lo 0) with (@nil Z) by reflexivity. cbn [app]. f_equal; lia.
      - cbn [Nat.add]. rewrite !zseq_S. cbn. f_equal. rewrite IH. f_equal. f_equal. lia. }
    rewrite Z2. f_equal. rewrite <- IH. unfold saddrs. rewrite Nat2Z.id.
    replace (0 + 1) with (1 + 0) by lia. rewrite (zseq_shift 1 0), flat_map_map. apply flat_map_ext_in. intros x _. f_equal. lia.
Qed.
Lemma combine_zseq_long (sm : mem) sa da k : forall j,
  combine (zseq da (k + j)) (map sm (zseq sa k)) = combine (zseq da k) (map sm (zseq sa k)).
Proof.
  revert sa da. induction k as [|k IH]; intros sa da j.
  - cbn [Nat.add]. change (zseq sa 0) with (@nil Z). cbn [map]. rewrite !combine_nil. auto.
  - cbn [Nat.add]. rewrite !zseq_S. cbn. f_equal. apply IH.
Qed.

Lemma put_am_ok b typesz n oa ta om tm : 0 <= bt_size b <= typesz -> 0 <= n < 2 ^ 31 -> typesz * n < 2 ^ 31 ->
  exists tm', put_am b typesz n oa ta om tm = Ok tm' /\ copy_bytes (n * bt_size b) om oa tm ta tm'.
Proof.
  intros Hz Hn Ht. unfold put_am. destruct (n =? 0) eqn:E.
  { exists tm. split; auto. replace n with 0 by lia. apply copy_bytes_0. }
  assert (0 <= typesz * n) by nia. assert (n * bt_size b <= typesz * n) by nia.
  rewrite to_int_id by lia. rewrite wrap64_id by lia. rewrite to_int_id by lia.
  unfold send, recv, pack. replace (n <? 0) with false by lia. cbn [bind].
  replace (typesz * n <? 0) with false by lia.
  rewrite !addrs_base, map_length, !saddrs_length. cbn [bt_size bt_byte].
  replace (Z.of_nat (Z.to_nat (typesz * n) * Z.to_nat 1) <? Z.of_nat (Z.to_nat n * Z.to_nat (bt_size b))) with false by nia.
  eexists. split; [reflexivity|].
  rewrite !saddrs_bytes by lia.
  replace (Z.to_nat (typesz * n * 1)) with (Z.to_nat (n * bt_size b) + Z.to_nat (typesz * n - n * bt_size b))%nat by nia.
  rewrite combine_zseq_long. apply bytes_strided.
  replace (zseq ta (Z.to_nat (n * bt_size b))) with (saddrs 1 (n * bt_size b) ta 1)
    by (rewrite saddrs_bytes by lia; f_equal; lia).
  replace (zseq oa (Z.to_nat (n * bt_size b))) with (saddrs 1 (n * bt_size b) oa 1)
    by (rewrite saddrs_bytes by lia; f_equal; lia).
  apply write_strided; lia.
Qed.
Lemma get_am_ok b n oa ta om tm : 0 <= bt_size b -> 0 <= n < 2 ^ 31 -> bt_size b * n < 2 ^ 31 ->
  exists om', get_am b (bt_size b) n oa ta om tm = Ok om' /\ copy_bytes (n * bt_size b) tm ta om oa om'.
Proof.
  intros Hz Hn Ht. unfold get_am. destruct (n =? 0) eqn:E.
  { exists om. split; auto. replace n with 0 by lia. apply copy_bytes_0. }
  assert (0 <= bt_size b * n) by nia.
  rewrite wrap64_id by lia. rewrite !to_int_id by lia.
  unfold send, recv, pack. replace (n <? 0) with false by lia. replace (bt_size b * n <? 0) with false by lia. cbn [bind].
  rewrite !addrs_base, map_length, !saddrs_length. cbn [bt_size bt_byte].
  replace (Z.of_nat (Z.to_nat n * Z.to_nat (bt_size b)) <? Z.of_nat (Z.to_nat (bt_size b * n) * Z.to_nat 1)) with false by nia.
  eexists. split; [reflexivity|].
  rewrite !saddrs_bytes by lia. replace (bt_size b * n * 1) with (n * bt_size b) by lia.
  apply bytes_strided.
  replace (zseq ta (Z.to_nat (n * bt_size b))) with (saddrs 1 (n * bt_size b) ta 1)
    by (rewrite saddrs_bytes by lia; f_equal; lia).
  replace (zseq oa (Z.to_nat (n * bt_size b))) with (saddrs 1 (n * bt_size b) oa 1)
    by (rewrite saddrs_bytes by lia; f_equal; lia).
  apply write_strided; lia.
Qed.
(** A get that announces more bytes than it has room for. *)
Lemma get_am_truncates b typesz n oa ta om tm : 0 <= bt_size b < typesz -> 0 < n < 2 ^ 31 -> typesz * n < 2 ^ 31 ->
  get_am b typesz n oa ta om tm = Abort.
Proof.
  intros Hz Hn Ht. unfold get_am. replace (n =? 0) with false by lia.
  assert (0 <= typesz * n) by nia.
  rewrite wrap64_id by lia. rewrite !to_int_id by lia.
  unfold send, recv, pack. replace (n <? 0) with false by lia. replace (typesz * n <? 0) with false by lia. cbn [bind].
  rewrite !addrs_base, map_length, !saddrs_length. cbn [bt_size bt_byte].
  replace (Z.of_nat (Z.to_nat n * Z.to_nat (bt_size b)) <? Z.of_nat (Z.to_nat (typesz * n) * Z.to_nat 1)) with true by nia.
  auto.
Qed.

(** ** Entry points *)
Lemma shmem_iput_ok am cached us1 us2 t1 t2 l1 l2 b dest source dst sst n om tm :
  uses cached t_init us1 = Ok (t1, l1) -> uses cached t_init us2 = Ok (t2, l2) ->
  0 <= n < 2 ^ 31 -> int_ok dst -> int_ok sst -> 0 <= bt_size b -> dst <> 0 \/ n <= 1 ->
  exists t1' t2' tm', shmem_iput am cached t1 t2 b dest source dst sst n om tm = Ok (t1', t2', tm') /\
    strided_copy (bt_size b) n om source sst tm dest dst tm'.
Proof.
  intros U1 U2 Hn Hd Hs Hz H. unfold shmem_iput. destruct am.
  - apply (iput_am_ok cached us1 us2 t1 t2 l1 l2 (iput_args b dest source dst sst n)); auto. unfold xfer_ok, int_ok in *; cbn; lia.
  - destruct (iput_direct_ok cached us1 t1 l1 (iput_args b dest source dst sst n) om tm) as (t' & tm' & -> & C); auto.
    { unfold xfer_ok, int_ok in *; cbn; lia. }
    cbn. eauto 6.
Qed.
Lemma shmem_iget_ok am cached us1 us2 t1 t2 l1 l2 b dest source dst sst n om tm :
  uses cached t_init us1 = Ok (t1, l1) -> uses cached t_init us2 = Ok (t2, l2) ->
  0 <= n < 2 ^ 31 -> int_ok dst -> int_ok sst -> 0 <= bt_size b -> dst <> 0 \/ n <= 1 ->
  exists t1' t2' om', shmem_iget am cached t1 t2 b dest source dst sst n om tm = Ok (t1', t2', om') /\
    strided_copy (bt_size b) n tm source sst om dest dst om'.
Proof.
  intros U1 U2 Hn Hd Hs Hz H. unfold shmem_iget. destruct am.
  - apply (iget_am_ok cached us1 us2 t1 t2 l1 l2 (iget_args b dest source dst sst n)); auto. unfold xfer_ok, int_ok in *; cbn; lia.
  - destruct (iget_direct_ok cached us1 t1 l1 (iget_args b dest source dst sst n) om tm) as (t' & tm' & -> & C); auto.
    { unfold xfer_ok, int_ok in *; cbn; lia. }
    cbn. eauto 6.
Qed.
Lemma shmem_put_ok am b typesz dest source n om tm :
  0 <= bt_size b <= typesz -> 0 <= n -> typesz * n < 2 ^ 31 -> n < 2 ^ 31 ->
  exists tm', shmem_put am b typesz dest source n om tm = Ok tm' /\ copy_bytes (n * bt_size b) om source tm dest tm'.
Proof.
  intros. unfold shmem_put. destruct am; [apply put_am_ok|apply put_direct_ok]; auto; lia.
Qed.
Lemma shmem_get_typed_ok am b dest source n om tm :
  0 <= bt_size b -> 0 <= n -> bt_size b * n < 2 ^ 31 -> n < 2 ^ 31 ->
  exists om', shmem_get am b (bt_size b) dest source n om tm = Ok om' /\ copy_bytes (n * bt_size b) tm source om dest om'.
Proof.
  intros. unfold shmem_get. destruct am; [apply get_am_ok|apply get_direct_ok]; auto; lia.
Qed.
Lemma sized_rows bits sz : In (bits, sz) sized_table -> bits = 8 * sz /\ 1 <= sz <= 16.
Proof. intros H. repeat (destruct H as [H|H]; [inversion H; lia|]). destruct H. Qed.
Lemma sized_get_am bits sz id dest source n om tm : In (bits, sz) sized_table -> 0 < n -> bits * n < 2 ^ 31 ->
  shmem_get true (mkBt id sz) bits dest source n om tm = Abort.
Proof.
  intros H Hn Hb. apply sized_rows in H. unfold shmem_get. apply get_am_truncates; cbn; lia.
Qed.
Lemma sized_get_direct bits sz id dest source n om tm : In (bits, sz) sized_table -> 0 <= n < 2 ^ 31 ->
  exists om', shmem_get false (mkBt id sz) bits dest source n om tm = Ok om' /\ copy_bytes (n * bits / 8) tm source om dest om'.
Proof.
  intros H Hn. apply sized_rows in H. destruct H as [-> H]. unfold shmem_get.
  replace (n * (8 * sz) / 8) with (n * bt_size (mkBt id sz)).
  - apply get_direct_ok; cbn; lia.
  - cbn. replace (n * (8 * sz)) with (n * sz * 8) by lia. rewrite Z.div_mul by lia. auto.
Qed.
Lemma sized_put am bits sz id dest source n om tm : In (bits, sz) sized_table -> 0 <= n -> bits * n < 2 ^ 31 ->
  exists tm', shmem_put am (mkBt id sz) bits dest source n om tm = Ok tm' /\ copy_bytes (n * bits / 8) om source tm dest tm'.
Proof.
  intros H Hn Hb. apply sized_rows in H. destruct H as [-> H].
  replace (n * (8 * sz) / 8) with (n * bt_size (mkBt id sz)).
  - apply shmem_put_ok; cbn; lia.
  - cbn. replace (n * (8 * sz)) with (n * sz * 8) by lia. rewrite Z.div_mul by lia. auto.
Qed.
