(** Pointers realise lists. *)
From Verif Require Import Base UlModel UlSpec.

Fixpoint seg (h : lheap) (p : Z) (l : list Z) (q : Z) : Prop :=
  match l with
  | [] => p = q
  | x :: r => p = x /\ x <> 0 /\ exists n, h x = Some n /\ seg h n r q
  end.
Definition LI (s : lheap * Z) (a : ab) : Prop :=
  seg (fst s) (snd s) (snd a) 0 /\ NoDup (snd a) /\ (forall p, In p (snd a) -> In p (fst a)) /\
  (forall p, In p (fst a) -> p <> 0 /\ exists n, fst s p = Some n) /\ (forall p, ~ In p (fst a) -> fst s p = None).

Lemma hset_same h p v : hset h p v p = v.
Proof. unfold hset. rewrite Z.eqb_refl. reflexivity. Qed.
Lemma hset_other h p v q : q <> p -> hset h p v q = h q.
Proof. intros N. unfold hset. apply Z.eqb_neq in N. rewrite N. reflexivity. Qed.
Lemma seg_ext h h' l : forall p q, (forall x, In x l -> h' x = h x) -> seg h p l q -> seg h' p l q.
Proof.
  induction l as [|x l IH]; intros p q E; cbn [seg]; [auto|]. intros (A & B & n & C & D). split; [exact A|]. split; [exact B|].
  exists n. split; [rewrite E by (left; reflexivity); exact C|]. apply IH; [|exact D]. intros y Y. apply E. right. exact Y.
Qed.
Lemma seg_app h l m : forall p q, seg h p (l ++ m) q <-> exists r, seg h p l r /\ seg h r m q.
Proof.
  induction l as [|x l IH]; intros p q; cbn [seg app].
  - split; [intros H; exists p; auto|intros (r & <- & H); exact H].
  - split.
    + intros (A & B & n & C & D). apply IH in D as (r & D1 & D2). exists r. eauto 8.
    + intros (r & (A & B & n & C & D) & E). split; [exact A|]. split; [exact B|]. exists n. split; [exact C|]. apply IH. eauto.
Qed.
Lemma seg_nz h p x l q : seg h p (x :: l) q -> p <> 0.
Proof. intros (-> & N & _). exact N. Qed.
Lemma load_ok h p v : p <> 0 -> h p = Some v -> load h p = Ok v.
Proof. intros N E. unfold load. apply Z.eqb_neq in N. rewrite N, E. reflexivity. Qed.
Lemma store_ok h p v w : p <> 0 -> h p = Some v -> store h p w = Ok (hset h p (Some w)).
Proof. intros N E. unfold store. apply Z.eqb_neq in N. rewrite N, E. reflexivity. Qed.

Lemma nodup_snoc (l : list Z) p : NoDup l -> ~ In p l -> NoDup (l ++ [p]).
Proof.
  induction l as [|x l IH]; intros N P; cbn; [constructor; [intros []|constructor]|]. inversion N as [|? ? A B]; subst. constructor.
  - rewrite in_app_iff. intros [I|[->|[]]]; [tauto|]. apply P. left. reflexivity.
  - apply IH; [exact B|]. intros I. apply P. right. exact I.
Qed.
Lemma to_last_ok h l : forall x p fuel, (length l < fuel)%nat -> seg h p (l ++ [x]) 0 -> to_last fuel h p = Ok x.
Proof.
  induction l as [|y l IH]; intros x p fuel L S; (destruct fuel as [|fuel]; [cbn in L; lia|]); cbn [to_last].
  - destruct S as (-> & N & n & E & Z0). cbn in Z0. subst n. rewrite (load_ok _ _ _ N E). reflexivity.
  - destruct S as (-> & N & n & E & S). rewrite (load_ok _ _ _ N E). cbn [bind].
    assert (n <> 0) as NN by (destruct l as [|z l]; eapply seg_nz; exact S). apply Z.eqb_neq in NN. rewrite NN. apply IH; [cbn in L; lia|exact S].
Qed.
Lemma to_pred_ok h l d m : forall x p fuel, (length l < fuel)%nat -> ~ In d l -> x <> d -> seg h p (l ++ x :: d :: m) 0 -> to_pred fuel h p d = Ok x.
Proof.
  induction l as [|y l IH]; intros x p fuel L N XD S; (destruct fuel as [|fuel]; [cbn in L; lia|]); cbn [to_pred].
  - destruct S as (-> & N1 & n & E & (-> & N2 & _)). rewrite (load_ok _ _ _ N1 E). cbn [bind]. rewrite Z.eqb_refl, orb_true_r. reflexivity.
  - destruct S as (-> & N1 & n & E & S). rewrite (load_ok _ _ _ N1 E). cbn [bind].
    destruct ((n =? 0) || (n =? d)) eqn:B.
    + exfalso. apply orb_true_iff in B as [B|B]; apply Z.eqb_eq in B; subst n.
      * destruct l; apply seg_nz in S; congruence.
      * destruct l as [|z l]; destruct S as (S & _); [congruence|subst z; apply N; right; left; reflexivity].
    + apply IH; [cbn in L; lia|intros I; apply N; right; exact I|exact XD|exact S].
Qed.
Lemma without_app p l m : without p (l ++ m) = without p l ++ without p m.
Proof. apply filter_app. Qed.
Lemma without_out p l : ~ In p l -> without p l = l.
Proof.
  induction l as [|x l IH]; intros N; [reflexivity|]. cbn. destruct (Z.eqb_spec x p) as [->|D]; [exfalso; apply N; left; reflexivity|].
  cbn. f_equal. apply IH. intros I. apply N. right. exact I.
Qed.
Lemma without_in p l q : In q (without p l) <-> In q l /\ q <> p.
Proof. unfold without. rewrite filter_In. rewrite negb_true_iff, Z.eqb_neq. tauto. Qed.
Lemma without_mid p l m : ~ In p l -> ~ In p m -> without p (l ++ p :: m) = l ++ m.
Proof. intros A B. rewrite without_app. cbn. rewrite Z.eqb_refl. cbn. fold (without p m). rewrite !without_out by assumption. reflexivity. Qed.

(* LL_DELETE of an element. *)
Lemma delete_ok h head l p m fuel : (length l < fuel)%nat -> NoDup (l ++ p :: m) -> seg h head (l ++ p :: m) 0 ->
  exists h' head', ll_delete fuel h head p = Ok (h', head') /\ seg h' head' (l ++ m) 0 /\ (forall q, ~ In q l -> h' q = h q) /\
    (forall q, h q = None <-> h' q = None).
Proof.
  intros L ND S. unfold ll_delete. destruct l as [|y l].
  - destruct S as (-> & N & n & E & S). rewrite Z.eqb_refl, (load_ok _ _ _ N E). cbn. exists h, n. tauto.
  - assert (exists l0 x, y :: l = l0 ++ [x]) as (l0 & x & EL).
    { destruct (exists_last (l := y :: l)) as (l0 & x & EL); [discriminate|]. eauto. }
    assert (y <> p) as YP. { intros ->. cbn in ND. inversion ND as [|? ? A B]; subst. apply A. apply in_or_app. right. left. reflexivity. }
    assert (head = y) as HY by (destruct S as (-> & _); reflexivity).
    assert (head <> p) as HP by congruence. apply Z.eqb_neq in HP. rewrite HP. clear HY YP HP.
    rewrite EL in *. rewrite <- app_assoc in S, ND. cbn [app] in S, ND.
    assert (~ In p l0 /\ x <> p /\ ~ In x l0 /\ ~ In x m) as (A1 & A2 & A3 & A4).
    { pose proof (NoDup_remove_2 _ _ _ ND) as B1.
      replace (l0 ++ x :: p :: m) with ((l0 ++ [x]) ++ p :: m) in ND by (rewrite <- app_assoc; reflexivity).
      pose proof (NoDup_remove_2 _ _ _ ND) as B2.
      rewrite !in_app_iff in *. cbn in *. repeat split; intros C; try (subst; tauto); tauto. }
    rewrite (to_pred_ok h l0 p m x head fuel); [|rewrite app_length in L; cbn in L; lia|exact A1|exact A2|exact S]. cbn [bind].
    apply seg_app in S as (r & S1 & (-> & NX & n & EX & (-> & NP & n2 & EP & S2))).
    rewrite (load_ok _ _ _ NX EX). cbn [bind]. apply Z.eqb_neq in NP as NP'. rewrite NP'. rewrite (load_ok _ _ _ NP EP). cbn [bind].
    rewrite (store_ok _ _ _ _ NX EX). cbn [bind]. exists (hset h x (Some n2)), head. split; [reflexivity|]. split; [|split].
    + rewrite <- app_assoc. apply seg_app. exists x. split; [eapply seg_ext; [|exact S1]; intros z Z1; apply hset_other; intros ->; tauto|].
      cbn [app seg]. split; [reflexivity|]. split; [exact NX|]. exists n2. split; [apply hset_same|].
      eapply seg_ext; [|exact S2]. intros z Z1. apply hset_other. intros ->. tauto.
    + intros q Q. apply hset_other. intros ->. apply Q. apply in_or_app. right. left. reflexivity.
    + intros q. unfold hset. destruct (Z.eqb_spec q x) as [->|D]; [|tauto]. rewrite EX. split; discriminate.
Qed.

Lemma step_ok fuel s a o : (length (snd a) < fuel)%nat -> LI s a -> ab_legal a o ->
  exists s', lop_step fuel s o = Ok s' /\ LI s' (ab_step a o).
Proof.
  destruct s as [h head], a as [lv l]. intros L (S & ND & SUB & LIVE & DEAD) G. cbn [fst snd] in *.
  destruct o as [p g|p|p|p|p]; cbn [lop_step ab_step ab_legal fst snd] in *.
  - destruct G as (PN & PF). eexists. split; [reflexivity|]. repeat split; cbn [fst snd].
    + eapply seg_ext; [|exact S]. intros z Z1. apply hset_other. intros ->. apply PF, SUB, Z1.
    + exact ND.
    + intros q Q. right. apply SUB, Q.
    + destruct H as [->|I]; [exact PN|apply LIVE, I].
    + unfold hset. destruct (Z.eqb_spec p0 p) as [->|D]; [eauto|]. destruct H as [->|I]; [congruence|apply LIVE, I].
    + intros q Q. rewrite hset_other; [apply DEAD; intros I; apply Q; right; exact I|intros ->; apply Q; left; reflexivity].
  - destruct G as (PL & PF). destruct (LIVE _ PL) as (PN & v & EV). unfold ll_append.
    rewrite (store_ok _ _ _ _ PN EV). cbn [bind].
    assert (seg (hset h p (Some 0)) head l 0) as S1 by (eapply seg_ext; [|exact S]; intros z Z1; apply hset_other; intros ->; tauto).
    assert (NoDup (l ++ [p])) as ND' by (apply nodup_snoc; assumption).
    assert (forall q, In q (l ++ [p]) -> In q lv) as SUB' by (intros q Q; apply in_app_iff in Q as [Q|[->|[]]]; auto).
    assert (forall h' : lheap, (forall q, h' q = None <-> hset h p (Some 0) q = None) ->
      (forall q, In q lv -> q <> 0 /\ exists n, h' q = Some n) /\ (forall q, ~ In q lv -> h' q = None)) as HL.
    { intros h' E. split.
      - intros q Q. destruct (LIVE q Q) as (QN & w & EW). split; [exact QN|]. destruct (h' q) eqn:E'; [eauto|]. apply E in E'.
        unfold hset in E'. destruct (q =? p); congruence.
      - intros q Q. apply E. rewrite hset_other; [apply DEAD, Q|intros ->; tauto]. }
    destruct l as [|y l].
    + cbn in S. subst head. cbn [Z.eqb]. eexists. split; [reflexivity|]. split; [|split; [exact ND'|split; [exact SUB'|apply HL; cbn [fst]; tauto]]].
      cbn. split; [reflexivity|]. split; [exact PN|]. exists 0. split; [apply hset_same|reflexivity].
    + pose proof (seg_nz _ _ _ _ _ S) as HN. apply Z.eqb_neq in HN. rewrite HN.
      destruct (exists_last (l := y :: l)) as (l0 & x & EL); [discriminate|]. rewrite EL in *.
      rewrite (to_last_ok _ l0 x); [|rewrite app_length in L; cbn in L; lia|exact S1]. cbn [bind].
      apply seg_app in S1 as (r & S2 & (-> & NX & n & EX & EN)). cbn in EN. subst n.
      rewrite (store_ok _ _ _ _ NX EX). cbn [bind]. eexists. split; [reflexivity|].
      assert (~ In x l0) as XL by (apply NoDup_remove_2 in ND; rewrite app_nil_r in ND; exact ND).
      assert (x <> p) as XP by (intros ->; apply PF, in_or_app; right; left; reflexivity).
      split; [|split; [exact ND'|split; [exact SUB'|apply HL; cbn [fst]]]].
      * cbn [fst snd]. rewrite <- app_assoc. apply seg_app. exists x. split; [eapply seg_ext; [|exact S2]; intros z Z1; apply hset_other; intros ->; tauto|].
        cbn [app seg]. split; [reflexivity|]. split; [exact NX|]. exists p. split; [apply hset_same|]. split; [reflexivity|]. split; [exact PN|].
        exists 0. split; [|reflexivity]. rewrite hset_other by congruence. apply hset_same.
      * intros q. unfold hset at 1. destruct (Z.eqb_spec q x) as [->|D]; [rewrite EX; split; discriminate|tauto].
  - destruct G as (PL & PF). destruct (LIVE _ PL) as (PN & v & EV). unfold ll_prepend.
    rewrite (store_ok _ _ _ _ PN EV). cbn [bind]. eexists. split; [reflexivity|]. repeat split; cbn [fst snd].
    + exact PN.
    + exists head. split; [apply hset_same|]. eapply seg_ext; [|exact S]; intros z Z1; apply hset_other; intros ->; tauto.
    + constructor; assumption.
    + intros q [->|Q]; auto.
    + apply LIVE, H.
    + unfold hset. destruct (p0 =? p); [eauto|apply LIVE, H].
    + intros q Q. rewrite hset_other; [apply DEAD, Q|intros ->; tauto].
  - apply in_split in G as (l1 & l2 & ->).
    destruct (delete_ok h head l1 p l2 fuel) as (h' & head' & E & S' & _ & N'); [rewrite app_length in L; lia|exact ND|exact S|].
    rewrite E. eexists. split; [reflexivity|]. pose proof (NoDup_remove_2 _ _ _ ND) as NI. rewrite in_app_iff in NI.
    rewrite without_mid by tauto. split; [exact S'|]. cbn [fst snd]. split; [eapply NoDup_remove_1; exact ND|]. split; [|split].
    + intros q Q. apply SUB. rewrite in_app_iff in *. cbn. tauto.
    + intros q Q. destruct (LIVE q Q) as (QN & w & EW). split; [exact QN|]. destruct (h' q) eqn:E'; [eauto|]. apply N' in E'. congruence.
    + intros q Q. apply N', DEAD, Q.
  - destruct G as (PL & PF). destruct (LIVE _ PL) as (PN & v & EV). unfold l_free. rewrite EV. cbn [bind]. eexists. split; [reflexivity|].
    repeat split; cbn [fst snd].
    + eapply seg_ext; [|exact S]. intros z Z1. apply hset_other. intros ->. tauto.
    + exact ND.
    + intros q Q. apply without_in. split; [apply SUB, Q|]. intros ->. tauto.
    + apply without_in in H. apply LIVE, H.
    + apply without_in in H as [H1 H2]. rewrite hset_other by exact H2. apply LIVE, H1.
    + intros q Q. unfold hset. destruct (Z.eqb_spec q p) as [->|D]; [reflexivity|]. apply DEAD. intros I. apply Q, without_in. tauto.
Qed.
Lemma without_len p l : (length (without p l) <= length l)%nat.
Proof. unfold without. induction l as [|x l IH]; [cbn; lia|]. cbn. destruct (negb (x =? p)); cbn; lia. Qed.
Lemma step_len a o : (length (snd (ab_step a o)) <= S (length (snd a)))%nat.
Proof. destruct o; cbn; try lia; [rewrite app_length; cbn; lia|]. pose proof (without_len p (snd a)). lia. Qed.
Lemma run_ok os : forall fuel s a, (length (snd a) + length os < fuel)%nat -> LI s a -> ab_ok a os ->
  exists s', lop_run fuel s os = Ok s' /\ LI s' (ab_run a os).
Proof.
  induction os as [|o os IH]; intros fuel s a L I G; cbn [lop_run ab_run]; [eauto|]. destruct G as (G1 & G2). cbn in L.
  destruct (step_ok fuel s a o) as (s1 & E & I1); [lia|exact I|exact G1|]. rewrite E. cbn [bind].
  pose proof (step_len a o). apply IH; [lia|exact I1|exact G2].
Qed.
Lemma run_len os : forall a, (length (snd (ab_run a os)) <= length (snd a) + length os)%nat.
Proof. induction os as [|o os IH]; intros a; cbn; [lia|]. pose proof (IH (ab_step a o)). pose proof (step_len a o). lia. Qed.
Lemma foreach_ok h stop l : forall p fuel, (length l < fuel)%nat -> seg h p l 0 -> ll_foreach fuel h p stop = Ok (upto stop l).
Proof.
  induction l as [|x l IH]; intros p fuel L S; (destruct fuel as [|fuel]; [cbn in L; lia|]); cbn [ll_foreach upto].
  - cbn in S. subst p. reflexivity.
  - pose proof (seg_nz _ _ _ _ _ S) as N. apply Z.eqb_neq in N as N'. rewrite N'. destruct S as (-> & _ & n & E & S).
    destruct (stop x); [reflexivity|]. rewrite (load_ok _ _ _ N E). cbn [bind]. rewrite (IH n fuel); [reflexivity|cbn in L; lia|exact S].
Qed.
Lemma scan_ok h stop l : forall p fuel, (length l < fuel)%nat -> seg h p l 0 -> ll_scan_safe fuel h p stop = Ok (upto stop l).
Proof.
  induction l as [|x l IH]; intros p fuel L S; (destruct fuel as [|fuel]; [cbn in L; lia|]); cbn [ll_scan_safe upto].
  - cbn in S. subst p. reflexivity.
  - pose proof (seg_nz _ _ _ _ _ S) as N. apply Z.eqb_neq in N as N'. rewrite N'. destruct S as (-> & _ & n & E & S).
    rewrite (load_ok _ _ _ N E). cbn [bind]. destruct (stop x); [reflexivity|]. rewrite (IH n fuel); [reflexivity|cbn in L; lia|exact S].
Qed.
Lemma sweep_ok_gen l : forall fuel fd h c, (length l < fuel)%nat -> forall p, seg h p l 0 -> NoDup l ->
  exists h', ll_foreach_safe fuel (sweep_body fd) p (h, p, c)
    = Ok (l, (h', 0, c - Z.of_nat (length l))) /\ (forall q, h' q = if existsb (Z.eqb q) l then None else h q).
Proof.
  induction l as [|x l IH]; intros fuel fd h c L p S ND; (destruct fuel as [|fuel]; [cbn in L; lia|]); cbn [ll_foreach_safe].
  - cbn in S. subst p. exists h. cbn. rewrite Z.sub_0_r. split; reflexivity.
  - pose proof (seg_nz _ _ _ _ _ S) as N. apply Z.eqb_neq in N as N'. rewrite N'. destruct S as (-> & _ & n & E & S). cbn [fst snd].
    rewrite (load_ok _ _ _ N E). cbn [bind]. unfold sweep_body at 1. cbn [fst snd]. unfold ll_delete at 1. rewrite Z.eqb_refl, (load_ok _ _ _ N E). cbn [bind fst snd].
    unfold l_free at 1. rewrite E. cbn [bind]. inversion ND as [|? ? A B]; subst.
    destruct (IH fuel fd (hset h x None) (c - 1)) with (p := n) as (h' & E' & EQ); [cbn in L; lia| |exact B|].
    { eapply seg_ext; [|exact S]. intros z Z1. apply hset_other. intros ->. tauto. }
    rewrite E'. exists h'. split; [cbn [bind fst snd]; replace (c - Z.of_nat (length (x :: l))) with (c - 1 - Z.of_nat (length l)) by (cbn [length]; lia); reflexivity|]. intros q. rewrite EQ. cbn [existsb]. unfold hset.
    destruct (existsb (Z.eqb q) l); [rewrite orb_true_r; reflexivity|]. rewrite orb_false_r. reflexivity.
Qed.
Lemma LI0 : LI ll0 ([], []).
Proof. split; [reflexivity|]. split; [constructor|]. cbn. repeat split; intros; tauto. Qed.
Lemma main os fuel : ab_ok ([], []) os -> (length os < fuel)%nat -> exists s, lop_run fuel ll0 os = Ok s /\ LI s (ab_run ([], []) os).
Proof. intros G L. apply run_ok; [cbn; lia|apply LI0|exact G]. Qed.
Lemma objects os fuel s : ab_ok ([], []) os -> (length os < fuel)%nat -> lop_run fuel ll0 os = Ok s ->
  (forall p, In p (fst (ab_run ([], []) os)) <-> fst s p <> None) /\
  (forall stop, ll_foreach fuel (fst s) (snd s) stop = Ok (upto stop (snd (ab_run ([], []) os)))) /\
  (forall stop, ll_scan_safe fuel (fst s) (snd s) stop = Ok (upto stop (snd (ab_run ([], []) os)))) /\
  NoDup (snd (ab_run ([], []) os)).
Proof.
  intros G L E. destruct (main os fuel G L) as (s' & E' & I). rewrite E in E'. injection E' as <-.
  destruct I as (S & ND & SUB & LIVE & DEAD). pose proof (run_len os ([], [])) as RL. cbn in RL. split; [|split; [|split; [|exact ND]]].
  - intros p. split.
    + intros H. destruct (LIVE p H) as (_ & n & ->). discriminate.
    + intros H. destruct (in_dec Z.eq_dec p (fst (ab_run ([], []) os))) as [I|I]; [exact I|]. apply DEAD in I. contradiction.
  - intros stop. apply foreach_ok; [lia|exact S].
  - intros stop. apply scan_ok; [lia|exact S].
Qed.
Lemma upto_last stop l : (exists x, In x l /\ stop x = true) -> exists a x b, upto stop l = a ++ [x] /\ l = a ++ x :: b /\ stop x = true /\ forall y, In y a -> stop y = false.
Proof.
  induction l as [|y l IH]; intros (x & I & T); [destruct I|]. cbn. destruct (stop y) eqn:Y.
  - exists [], y, l. repeat split; [exact Y|intros z []].
  - destruct IH as (a & z & b & E1 & E2 & E3 & E4); [exists x; split; [destruct I as [->|I]; [congruence|exact I]|exact T]|].
    exists (y :: a), z, b. rewrite E1, E2. repeat split; [exact E3|]. intros w [->|W]; [exact Y|apply E4, W].
Qed.

(* The caches. *)
Lemma cache_legal ps : forall a, NoDup (map fst ps) -> (forall p, In p (map fst ps) -> p <> 0 /\ ~ In p (fst a)) -> (forall p, In p (snd a) -> In p (fst a)) ->
  ab_ok a (flat_map cache_put ps) /\ snd (ab_run a (flat_map cache_put ps)) = rev (map fst ps) ++ snd a.
Proof.
  induction ps as [|[p g] ps IH]; intros a ND F SUB; [cbn; auto|]. cbn [map fst] in *. inversion ND as [|? ? A B]; subst.
  destruct (F p) as (F1 & F2); [left; reflexivity|]. cbn [flat_map cache_put app ab_ok ab_run ab_legal ab_step fst snd].
  destruct (IH (p :: fst a, p :: snd a)) as (H1 & H2).
  - exact B.
  - intros q Q. destruct (F q) as (Q1 & Q2); [right; exact Q|]. split; [exact Q1|]. cbn. intros [->|Q3]; tauto.
  - cbn. intros q [->|Q]; [left; reflexivity|right; apply SUB, Q].
  - cbn [fst snd] in *. split; [repeat split; auto; cbn; auto|]. rewrite H2. cbn [rev]. rewrite <- app_assoc. reflexivity.
Qed.
Lemma put_len ps : length (flat_map cache_put ps) = (2 * length ps)%nat.
Proof. induction ps as [|[p g] ps IH]; [reflexivity|]. cbn [flat_map cache_put app length]. rewrite IH. lia. Qed.
Lemma cache_ok fuel ps : NoDup (map fst ps) -> ~ In 0 (map fst ps) -> (2 * length ps < fuel)%nat ->
  exists s h', lop_run fuel ll0 (flat_map cache_put ps) = Ok s /\
    cache_finalize fuel s (Z.of_nat (length ps)) = Ok (rev (map fst ps), (h', 0)) /\ forall q, h' q = None.
Proof.
  intros ND NZ L. destruct (cache_legal ps ([], [])) as (G & E2); [exact ND| |intros ? []|].
  { intros p P. split; [intros ->; tauto|intros []]. }
  destruct (main (flat_map cache_put ps) fuel G) as (s & E & I); [rewrite put_len; exact L|].
  destruct s as [h hd]. destruct I as (S & ND' & SUB & LIVE & DEAD). cbn [fst snd] in *. rewrite app_nil_r in E2. rewrite E2 in *.
  destruct (sweep_ok_gen (rev (map fst ps)) fuel fuel h (Z.of_nat (length ps))) with (p := hd) as (h' & E' & EQ); [rewrite rev_length, map_length; lia|exact S|exact ND'|].
  exists (h, hd), h'. split; [exact E|]. split.
  - unfold cache_finalize. cbn [fst snd]. rewrite E'. cbn [bind fst snd]. rewrite rev_length, map_length, Z.sub_diag. reflexivity.
  - intros q. rewrite EQ. destruct (existsb (Z.eqb q) (rev (map fst ps))) eqn:X; [reflexivity|]. apply DEAD. intros I.
    assert (forall os a, (forall o, In o os -> match o with LNew _ _ | LPrepend _ => True | _ => False end) ->
      forall p, In p (fst (ab_run a os)) -> In p (fst a) \/ exists g, In (LNew p g) os) as K.
    { clear. induction os as [|o os IH]; intros a OK p P; [left; exact P|]. cbn [ab_run] in P.
      destruct (IH (ab_step a o) (fun o' O => OK o' (or_intror O)) p P) as [H|(g & H)]; [|right; exists g; right; exact H].
      pose proof (OK o (or_introl eq_refl)) as OO. destruct o as [p' g|?|p'|?|?]; try destruct OO; cbn in H; [|left; exact H].
      destruct H as [->|H]; [right; exists g; left; reflexivity|left; exact H]. }
    apply K in I as [[]|(g & I)].
    + apply in_flat_map in I as ([p' g'] & I1 & I2). cbn in I2. destruct I2 as [I2|[I2|[]]]; [|discriminate]. injection I2 as -> ->.
      assert (existsb (Z.eqb q) (rev (map fst ps)) = true) as X'; [|congruence]. apply existsb_exists. exists q. split; [|apply Z.eqb_refl].
      apply -> in_rev. apply in_map_iff. exists (q, g). split; [reflexivity|exact I1].
    + intros o O. apply in_flat_map in O as ([p' g'] & _ & O). cbn in O. destruct O as [<-|[<-|[]]]; exact Logic.I.
Qed.
