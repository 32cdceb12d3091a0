(** Proofs about the options and the setup. *)
From Coq Require Import String.
From Verif Require Import Base BaseProofs ListLib AmCfgModel EnvModel EnvSpec.
Open Scope Z_scope.
Open Scope list_scope.

(** ** Fields of a string *)
Lemma comma_unique x y u v : ~ In 44 x -> ~ In 44 y ->
  x ++ 44 :: u = y ++ 44 :: v -> x = y /\ u = v.
Proof.
  revert y. induction x as [|a x IH]; intros [|b y] Hx Hy E; cbn in *.
  - now inversion E.
  - inversion E; subst. tauto.
  - inversion E; subst. tauto.
  - inversion E; subst. destruct (IH y) as (-> & ->); auto.
Qed.
Lemma comma_split p u a b : ~ In 44 a -> p ++ 44 :: u = a ++ 44 :: b ->
  (p = a /\ u = b) \/ exists p', p = a ++ 44 :: p' /\ b = p' ++ 44 :: u.
Proof.
  revert p. induction a as [|x a IH]; intros [|y p] Ha E; cbn in *.
  - inversion E. auto.
  - inversion E; subst. right. exists p. auto.
  - inversion E; subst. tauto.
  - inversion E; subst. destruct (IH p) as [(-> & ->) | (p' & -> & ->)]; auto.
    right. exists p'. auto.
Qed.
Lemma field_app a b t : ~ In 44 a -> field (a ++ 44 :: b) t <-> (t = a /\ a <> []) \/ field b t.
Proof.
  intros Ha. split.
  - intros (pre & post & E & Ht & Hn & Hpre & Hpost).
    destruct Hpre as [-> | (p & ->)].
    + cbn in E. destruct Hpost as [-> | (q & ->)].
      * rewrite app_nil_r in E. subst t. exfalso. apply Ht. apply in_or_app. right. now left.
      * destruct (comma_unique a t b q Ha Ht E) as (-> & ->). auto.
    + rewrite <- app_assoc in E. cbn in E. symmetry in E.
      destruct (comma_split _ _ _ _ Ha E) as [(-> & <-) | (p' & -> & ->)]; right.
      * exists [], post. cbn. auto 10.
      * exists (p' ++ [44]), post. rewrite <- app_assoc. cbn. eauto 8.
  - intros [(-> & Hn) | (pre & post & -> & Ht & Hn & Hpre & Hpost)].
    + exists [], (44 :: b). cbn. eauto 8.
    + exists (a ++ 44 :: pre), post. rewrite <- app_assoc. cbn. repeat split; auto.
      right. destruct Hpre as [-> | (p & ->)]; [exists a | exists (a ++ 44 :: p)]; auto.
      rewrite <- app_assoc. auto.
Qed.
Lemma field_end a t : ~ In 44 a -> field a t <-> t = a /\ a <> [].
Proof.
  intros Ha. split.
  - intros (pre & post & E & Ht & Hn & Hpre & Hpost).
    destruct Hpre as [-> | (p & ->)].
    + destruct Hpost as [-> | (q & ->)].
      * cbn in E. rewrite app_nil_r in E. subst. auto.
      * cbn in E. subst. exfalso. apply Ha, in_or_app. right. now left.
    + subst. exfalso. apply Ha, in_or_app. left. apply in_or_app. right. now left.
  - intros (-> & Hn). exists [], []. cbn. rewrite app_nil_r. auto 8.
Qed.
Lemma field_commas l t : (forall x, In x l -> x <> [] /\ ~ In 44 x) ->
  field (commas l) t <-> In t l.
Proof.
  induction l as [|x l IH]; intros H.
  - cbn. split; [|tauto]. intros (pre & post & E & _ & Hn & _). symmetry in E.
    apply app_eq_nil in E. destruct E as (_ & E). apply app_eq_nil in E. tauto.
  - destruct (H x (or_introl eq_refl)) as (Hx & Hc).
    destruct l as [|y l].
    + cbn. rewrite field_end; auto. intuition.
    + change (commas (x :: y :: l)) with (x ++ 44 :: commas (y :: l)).
      rewrite field_app, IH; auto.
      * cbn. intuition.
      * intros z Hz. apply H. now right.
Qed.

(** ** strtok_r *)
Lemma skip_delim_spec s : (forall t, field (skip_delim s) t <-> field s t) /\
  (length (skip_delim s) <= length s)%nat /\
  match skip_delim s with [] => True | c :: _ => c <> 44 end.
Proof.
  induction s as [|c s (IH1 & IH2 & IH3)].
  - cbn. split; [tauto|]. split; [lia|auto].
  - cbn. destruct (c =? comma) eqn:E; unfold comma in E.
    + assert (c = 44) by lia. subst c. split; [|split; [lia|auto]].
      intros t. rewrite IH1. change (44 :: s) with ([] ++ 44 :: s).
      rewrite field_app by (cbn; tauto). split; auto.
      intros [(_ & F) | ?]; [tauto|auto].
    + split; [tauto|]. split; [cbn; lia|lia].
Qed.
Lemma span_tok_spec s a b : span_tok s = (a, b) -> ~ In 44 a /\ (s = a /\ b = [] \/ s = a ++ 44 :: b).
Proof.
  revert a b. induction s as [|c s IH]; cbn; intros a b E.
  - inversion E; subst. auto.
  - destruct (c =? comma) eqn:Ec; unfold comma in Ec.
    + inversion E; subst. assert (c = 44) by lia. subst. auto.
    + destruct (span_tok s) as [a' b'] eqn:Es. inversion E; subst.
      destruct (IH a' b eq_refl) as (Ha & [(-> & ->) | ->]); cbn; split; auto;
        intros [F | F]; try lia; auto.
Qed.
Lemma strtok_none s : strtok s = None -> forall t, ~ field s t.
Proof.
  unfold strtok. destruct (skip_delim_spec s) as (H & _ & _).
  destruct (skip_delim s); [|discriminate]. intros _ t F. apply H in F.
  apply field_end in F; cbn; tauto.
Qed.
Lemma strtok_some s a b : strtok s = Some (a, b) ->
  (length b < length s)%nat /\ forall t, field s t <-> t = a \/ field b t.
Proof.
  unfold strtok. destruct (skip_delim_spec s) as (H & Hl & Hc).
  destruct (skip_delim s) as [|c s'] eqn:Es; [discriminate|].
  intros E0. assert (E : span_tok (c :: s') = (a, b)) by now inversion E0. clear E0.
  apply span_tok_spec in E. destruct E as (Ha & E).
  assert (Hn : a <> []).
  { destruct a; [|discriminate]. destruct E as [(E & _) | E]; [discriminate|].
    cbn in E. inversion E; subst. congruence. }
  split.
  - destruct E as [(E & ->) | E]; rewrite E in Hl.
    + destruct a; [congruence|]. cbn in *. lia.
    + rewrite app_length in Hl. cbn in Hl. lia.
  - intros t. rewrite <- H. destruct E as [(-> & ->) | ->].
    + rewrite field_end by auto. rewrite (field_end []) by (cbn; tauto). tauto.
    + rewrite field_app by auto. tauto.
Qed.
Lemma parse_loop_spec T fuel : forall s mask, (length s < fuel)%nat ->
  exists l, parse_loop fuel T s mask = Ok (fold_left (fun m t => add_token T t m) l mask) /\
            forall t, In t l <-> field s t.
Proof.
  induction fuel as [|fuel IH]; intros s mask Hf; [lia|]. cbn.
  destruct (strtok s) as [[a b]|] eqn:E.
  - destruct (strtok_some _ _ _ E) as (Hl & Ht).
    destruct (IH b (add_token T a mask)) as (l & -> & Hi); [lia|].
    exists (a :: l). split; auto. intros t. rewrite Ht. cbn. rewrite Hi. intuition.
  - exists []. split; auto. intros t. cbn. split; [tauto|]. now apply strtok_none.
Qed.

(** ** Tables *)
Lemma prefixb_spec p s : prefixb p s = true <-> starts p s.
Proof.
  revert s. induction p as [|a p IH]; intros s; cbn.
  - split; auto. intros _. exists s. auto.
  - destruct s as [|b s].
    + split; [discriminate|]. intros (r & E). discriminate.
    + rewrite andb_true_iff, IH. split.
      * intros (E & r & ->). assert (a = b) by lia. subst. exists r. auto.
      * intros (r & E). inversion E; subst. split; [lia|]. exists r. auto.
Qed.
Lemma prefixb_false p s : prefixb p s = false <-> ~ starts p s.
Proof. rewrite <- prefixb_spec. destruct (prefixb p s); intuition congruence. Qed.
Lemma prefix_both p q s : prefixb p s = true -> prefixb q s = true ->
  prefixb p q || prefixb q p = true.
Proof.
  revert q s. induction p as [|a p IH]; intros [|b q] [|c s]; cbn; auto; try discriminate.
  rewrite !andb_true_iff, orb_true_iff, !andb_true_iff. intros (E1 & H1) (E2 & H2).
  specialize (IH q s H1 H2). apply orb_true_iff in IH.
  assert (a = b) by lia. subst. rewrite Z.eqb_refl. tauto.
Qed.

Definition prefix_free (T : list (list Z * Z)) : bool :=
  forallb (fun '(n, b) => forallb (fun '(n', b') => negb (prefixb n n') || (b =? b')) T) T.
Definition bits_ok (N : Z) (T : list (list Z * Z)) : bool :=
  forallb (fun '(n, b) => (0 <=? b) && (b <? N)) T.

Lemma add_token_bits T t m i : prefix_free T = true -> (forall n b, In (n, b) T -> 0 <= b) ->
  0 <= i ->
  Z.testbit (add_token T t m) i =
  Z.testbit m i || existsb (fun '(n, b) => prefixb n t && (b =? i)) T.
Proof.
  intros PF Hb Hi.
  assert (U : forall n b n' b', In (n, b) T -> In (n', b') T -> prefixb n t = true ->
                prefixb n' t = true -> b = b').
  { intros n b n' b' H1 H2 P1 P2. unfold prefix_free in PF. rewrite forallb_forall in PF.
    pose proof (prefix_both _ _ _ P1 P2) as O. apply orb_true_iff in O.
    destruct O as [O | O].
    - specialize (PF _ H1). cbn in PF. rewrite forallb_forall in PF. specialize (PF _ H2).
      cbn in PF. rewrite O in PF. cbn in PF. lia.
    - specialize (PF _ H2). cbn in PF. rewrite forallb_forall in PF. specialize (PF _ H1).
      cbn in PF. rewrite O in PF. cbn in PF. lia. }
  clear PF. induction T as [|[n b] T IH]; cbn [add_token existsb].
  - now rewrite orb_false_r.
  - destruct (prefixb n t) eqn:P.
    + rewrite Z.lor_spec. f_equal. rewrite Z.pow2_bits_eqb by (apply (Hb n); now left).
      cbn. destruct (b =? i) eqn:E; cbn; auto.
      symmetry. apply not_true_iff_false. intros F. apply existsb_exists in F.
      destruct F as ([n' b'] & Hin & F). apply andb_true_iff in F. destruct F as (F & F').
      assert (b = b') by (apply (U n b n' b'); auto; [now left|now right]). lia.
    + cbn. apply IH.
      * intros n' b' H. apply (Hb n'). now right.
      * intros n1 b1 n2 b2 H1 H2. apply (U n1 b1 n2 b2); now right.
Qed.
Lemma fold_bits T l m i : prefix_free T = true -> (forall n b, In (n, b) T -> 0 <= b) -> 0 <= i ->
  Z.testbit (fold_left (fun m t => add_token T t m) l m) i =
  Z.testbit m i || existsb (fun t => existsb (fun '(n, b) => prefixb n t && (b =? i)) T) l.
Proof.
  intros PF Hb Hi. revert m. induction l as [|t l IH]; intros m; cbn [fold_left existsb].
  - now rewrite orb_false_r.
  - rewrite IH, add_token_bits; auto. now rewrite orb_assoc.
Qed.
Lemma add_token_nonneg T t m : 0 <= m -> 0 <= add_token T t m.
Proof.
  intros Hm. induction T as [|[n b] T IH]; cbn; auto. destruct (prefixb n t); auto.
  apply Z.lor_nonneg. split; auto. apply Z.pow_nonneg. lia.
Qed.
Lemma fold_nonneg T l m : 0 <= m -> 0 <= fold_left (fun m t => add_token T t m) l m.
Proof. revert m. induction l; cbn; auto. intros m Hm. apply IHl, add_token_nonneg, Hm. Qed.
Lemma mask_bound n m : 0 <= n -> 0 <= m -> (forall i, n <= i -> Z.testbit m i = false) ->
  is_mask n m.
Proof.
  intros Hn Hm H. unfold is_mask.
  assert (E : m mod 2 ^ n = m).
  { apply Z.bits_inj'. intros i Hi. destruct (Z.ltb_spec i n).
    - apply Z.mod_pow2_bits_low. lia.
    - rewrite Z.mod_pow2_bits_high by lia. symmetry. auto. }
  rewrite <- E. apply Z.mod_pos_bound. apply Z.pow_pos_nonneg; lia.
Qed.
Lemma mask_high n m i : is_mask n m -> n <= i -> Z.testbit m i = false.
Proof.
  intros (H0 & H1) Hi. destruct (Z.eq_dec m 0) as [->|]; [apply Z.bits_0|].
  apply Z.bits_above_log2; auto. apply Z.log2_lt_pow2 in H1; lia.
Qed.

(** ** The general parser *)
Section Parser.
Variables (all : list Z) (all_mask N : Z) (T : list (list Z * Z)).
Hypothesis PF : prefix_free T = true.
Hypothesis BO : bits_ok N T = true.
Hypothesis HN : 0 <= N.

Lemma bits_in n b : In (n, b) T -> 0 <= b < N.
Proof.
  intros H. unfold bits_ok in BO. rewrite forallb_forall in BO. specialize (BO _ H). cbn in BO. lia.
Qed.
Lemma set_env_spec s : ~ starts (bytes "none") s -> ~ starts all s ->
  exists m, set_env all all_mask T s 0 = Ok m /\ is_mask N m /\
    forall i, Z.testbit m i = true <->
      exists n, In (n, i) T /\ exists tok, field s tok /\ starts n tok.
Proof.
  intros H1 H2. apply prefixb_false in H1. apply prefixb_false in H2.
  unfold set_env. rewrite H1, H2.
  destruct (parse_loop_spec T (S (length s)) s 0) as (l & -> & Hl); [lia|].
  cbn [bind]. set (m := fold_left _ l 0).
  exists m. split; [destruct (m =? 0) eqn:E; f_equal; lia|].
  assert (Hb : forall n b, In (n, b) T -> 0 <= b) by (intros n b H; apply bits_in in H; lia).
  assert (K : forall i, Z.testbit m i = true <->
             exists n, In (n, i) T /\ exists tok, field s tok /\ starts n tok).
  { intros i. destruct (Z.ltb_spec i 0).
    - rewrite Z.testbit_neg_r by lia. split; [discriminate|].
      intros (n & Hin & _). apply Hb in Hin. lia.
    - unfold m. rewrite fold_bits by auto. rewrite Z.bits_0. cbn [orb].
      rewrite existsb_exists. split.
      + intros (t & Ht & E). apply existsb_exists in E. destruct E as ([n b] & Hin & E).
        apply andb_true_iff in E. destruct E as (E & Eb). assert (b = i) by lia. subst.
        exists n. split; auto. exists t. rewrite Hl in Ht. split; auto. now apply prefixb_spec.
      + intros (n & Hin & t & Ht & E). exists t. rewrite Hl. split; auto.
        apply existsb_exists. exists (n, i). split; auto. apply prefixb_spec in E. rewrite E. cbn.
        lia. }
  split; auto. apply mask_bound; auto.
  - apply fold_nonneg. lia.
  - intros i Hi. apply not_true_iff_false. rewrite K. intros (n & Hin & _).
    apply bits_in in Hin. lia.
Qed.
Lemma set_env_names l : (forall x, In x l -> exists b, In (x, b) T) ->
  (forall n b, In (n, b) T -> n <> [] /\ ~ In 44 n) ->
  ~ starts (bytes "none") (commas l) -> ~ starts all (commas l) ->
  exists m, set_env all all_mask T (commas l) 0 = Ok m /\ is_mask N m /\
    forall i, Z.testbit m i = true <-> exists n, In (n, i) T /\ In n l.
Proof.
  intros Hl Hc H1 H2. destruct (set_env_spec _ H1 H2) as (m & E & Hm & Hi).
  exists m. split; auto. split; auto. intros i. rewrite Hi.
  assert (Hf : forall t, field (commas l) t <-> In t l).
  { intros t. apply field_commas. intros x Hx. destruct (Hl x Hx) as (b & Hb). eauto. }
  split.
  - intros (n & Hin & tok & Ht & Hs). rewrite Hf in Ht. destruct (Hl tok Ht) as (b & Hb).
    assert (b = i).
    { unfold prefix_free in PF. rewrite forallb_forall in PF. specialize (PF _ Hin). cbn in PF.
      rewrite forallb_forall in PF. specialize (PF _ Hb). cbn in PF.
      apply prefixb_spec in Hs. rewrite Hs in PF. cbn in PF. lia. }
    subst. eauto.
  - intros (n & Hin & Hn). exists n. split; auto. exists n. rewrite Hf. split; auto.
    exists []. now rewrite app_nil_r.
Qed.
End Parser.

Lemma commas_starts x l : starts x (commas (x :: l)).
Proof.
  destruct l as [|y l]; [exists []; cbn; now rewrite app_nil_r | now exists (44 :: commas (y :: l))].
Qed.
Lemma not_special p x l : prefixb p x || prefixb x p = false -> ~ starts p (commas (x :: l)).
Proof.
  intros H F. apply prefixb_spec in F. pose proof (commas_starts x l) as G.
  apply prefixb_spec in G. pose proof (prefix_both _ _ _ F G). congruence.
Qed.
Lemma commas_snoc l x : commas (l ++ [x]) =
  commas l ++ (match l with [] => [] | _ => [44] end) ++ x.
Proof.
  induction l as [|y l IH]; auto. destruct l as [|z l].
  - cbn. auto.
  - change (commas ((y :: z :: l) ++ [x])) with (y ++ 44 :: commas ((z :: l) ++ [x])).
    rewrite IH. cbn [commas]. rewrite <- app_assoc. cbn. auto.
Qed.
Definition total (l : list (list Z)) : Z := fold_right (fun x s => Z.of_nat (length x) + 1 + s) 0 l.
Lemma total_app l k : total (l ++ k) = total l + total k.
Proof. unfold total. induction l as [|x l IH]; cbn; lia. Qed.
Lemma total_nonneg l : 0 <= total l.
Proof. unfold total. induction l as [|x l IH]; cbn; lia. Qed.
Lemma commas_length l : Z.of_nat (length (commas l)) <= total l.
Proof.
  induction l as [|x l IH]; [cbn; lia|]. destruct l as [|y l].
  - cbn. lia.
  - change (commas (x :: y :: l)) with (x ++ 44 :: commas (y :: l)).
    rewrite app_length. cbn [length]. change (total (x :: y :: l))
      with (Z.of_nat (length x) + 1 + total (y :: l)). lia.
Qed.
Lemma commas_nil l : (forall x, In x l -> x <> []) -> commas l = [] -> l = [].
Proof.
  destruct l as [|x l]; auto. intros H E. destruct l; cbn in E.
  - now destruct (H x (or_introl eq_refl)).
  - destruct x; discriminate.
Qed.
Definition sel (T : list (list Z * Z)) (val : Z) : list (list Z) :=
  map fst (filter (fun nb => Z.testbit val (snd nb)) T).
Lemma getstr_loop_spec maxlen val T l :
  (forall x, In x l -> x <> []) -> (forall n b, In (n, b) T -> n <> []) ->
  total l + total (map fst T) < maxlen ->
  getstr_loop maxlen T val (commas l) = Ok (commas (l ++ sel T val)).
Proof.
  revert l. induction T as [|[n b] T IH]; intros l Hl HT Hm; cbn [getstr_loop].
  - cbn. now rewrite app_nil_r.
  - unfold sel. cbn [filter snd map fst] in *.
    change (total (n :: map fst T)) with (Z.of_nat (length n) + 1 + total (map fst T)) in Hm.
    pose proof (total_nonneg (map fst T)).
    destruct (Z.testbit val b) eqn:E.
    + assert (EB : commas l ++ (if 0 <? Z.of_nat (length (commas l)) then [comma] else []) ++ n
                   = commas (l ++ [n])).
      { rewrite commas_snoc. f_equal. f_equal. destruct l as [|y l]; auto.
        destruct (commas (y :: l)) eqn:Ec; [|reflexivity].
        apply commas_nil in Ec; [discriminate|auto]. }
      rewrite EB. pose proof (commas_length (l ++ [n])) as HL. rewrite total_app in HL.
      change (total [n]) with (Z.of_nat (length n) + 1 + 0) in HL.
      assert (Z.of_nat (length (commas (l ++ [n]))) <? maxlen = true) as -> by lia.
      rewrite IH.
      * rewrite <- app_assoc. reflexivity.
      * intros x Hx. apply in_app_or in Hx. destruct Hx as [Hx | [<- | []]]; auto.
        apply (HT n b). now left.
      * intros n' b' H'. apply (HT n' b'). now right.
      * rewrite total_app. change (total [n]) with (Z.of_nat (length n) + 1 + 0). lia.
    + apply IH; auto; try lia. intros n' b' H'. apply (HT n' b'). now right.
Qed.

Section RoundTrip.
Variables (all : list Z) (all_mask N maxlen : Z) (T : list (list Z * Z)).
Hypothesis PF : prefix_free T = true.
Hypothesis BO : bits_ok N T = true.
Hypothesis HN : 0 <= N.
Hypothesis COV : forall i, 0 <= i < N -> exists n, In (n, i) T.
Hypothesis NM : forall n b, In (n, b) T -> n <> [] /\ ~ In 44 n.
Hypothesis SP1 : forall n b, In (n, b) T -> prefixb (bytes "none") n || prefixb n (bytes "none") = false.
Hypothesis SP2 : forall n b, In (n, b) T -> prefixb all n || prefixb n all = false.
Hypothesis LEN : 4 < maxlen /\ total (map fst T) < maxlen.

Hypothesis INJ : forall n n' b, In (n, b) T -> In (n', b) T -> n = n'.
Lemma set_env_list l : l <> [] -> (forall x, In x l -> exists b, In (x, b) T) ->
  exists m, set_env all all_mask T (commas l) 0 = Ok m /\ is_mask N m /\
    forall n i, In (n, i) T -> (Z.testbit m i = true <-> In n l).
Proof.
  intros Hn Hl. destruct l as [|x l]; [congruence|].
  destruct (Hl x (or_introl eq_refl)) as (bx & Hx).
  destruct (set_env_names all all_mask N T PF BO HN (x :: l) Hl NM) as (m & E & Hm & Hi).
  - eauto using not_special.
  - eauto using not_special.
  - exists m. split; auto. split; auto. intros n i Hin. rewrite Hi. split; eauto.
    intros (n' & H' & Hn'). now rewrite (INJ n n' i).
Qed.
Lemma getstr_round m : is_mask N m -> exists s, getstr maxlen T m = Ok s /\
  s <> [] /\ Z.of_nat (length s) < maxlen /\ set_env all all_mask T s 0 = Ok m.
Proof.
  intros Hm. unfold getstr. change (getstr_loop maxlen T m []) with (getstr_loop maxlen T m (commas [])).
  rewrite getstr_loop_spec; [|intros ? []|intros n b H; now apply (NM n b)|cbn; lia].
  cbn [bind app].
  assert (HS : forall n b, In (n, b) T -> (In n (sel T m) <-> Z.testbit m b = true)).
  { intros n b Hin. unfold sel. rewrite in_map_iff. split.
    - intros ([n' b'] & E & H). cbn in E. subst n'. apply filter_In in H. destruct H as (H & K).
      cbn in K. replace b with b'; auto.
      unfold prefix_free in PF. rewrite forallb_forall in PF. specialize (PF _ Hin). cbn in PF.
      rewrite forallb_forall in PF. specialize (PF _ H). cbn in PF.
      assert (prefixb n n = true) as R
        by (apply prefixb_spec; exists []; now rewrite app_nil_r).
      rewrite R in PF. cbn in PF. lia.
    - intros H. exists (n, b). split; auto. apply filter_In. auto. }
  destruct (sel T m) as [|x l] eqn:ES.
  - cbn. exists (bytes "none"). split; auto. split; [discriminate|]. split; [cbn; lia|].
    cbn. f_equal. apply Z.bits_inj'. intros i Hi. rewrite Z.bits_0. symmetry.
    destruct (Z.ltb_spec i N); [|now apply (mask_high N)].
    destruct (COV i) as (n & Hin); [lia|]. apply not_true_iff_false. rewrite <- (HS n i Hin). auto.
  - assert (Hsub : forall y, In y (x :: l) -> exists b, In (y, b) T).
    { intros y Hy. rewrite <- ES in Hy. unfold sel in Hy. apply in_map_iff in Hy.
      destruct Hy as ([y' b] & E & Hy). cbn in E. subst. apply filter_In in Hy. exists b. tauto. }
    destruct (set_env_list (x :: l)) as (m' & E & Hm' & Hi); [discriminate|auto|].
    assert (m' = m).
    { apply Z.bits_inj'. intros i Hp. destruct (Z.ltb_spec i N).
      - destruct (COV i) as (n & Hin); [lia|]. apply Bool.eq_true_iff_eq.
        rewrite (Hi n i Hin). apply HS; auto.
      - now rewrite !(mask_high N). }
    subst m'.
    assert (Hne : commas (x :: l) <> []).
    { intros F. apply commas_nil in F; [discriminate|]. intros y Hy.
      destruct (Hsub y Hy) as (b & Hb). now apply (NM y b). }
    exists (commas (x :: l)). destruct (commas (x :: l)) eqn:EC; [congruence|]. rewrite <- EC in *.
    split; auto. split; auto. split; auto.
    pose proof (commas_length (x :: l)). rewrite <- ES in *.
    assert (total (sel T m) <= total (map fst T)).
    { clear. unfold sel. induction T as [|[n b] U IH]; [cbn; lia|]. cbn [filter snd map fst].
      change (total (n :: map fst U)) with (Z.of_nat (length n) + 1 + total (map fst U)).
      destruct (Z.testbit m b); cbn [map fst].
      - match goal with |- total (n :: ?k) <= _ =>
          change (total (n :: k)) with (Z.of_nat (length n) + 1 + total k) end. lia.
      - lia. }
    lia.
Qed.
End RoundTrip.

Ltac on_table := 
  let H := fresh in intros ? ? H; cbn in H;
  repeat (destruct H as [H | H]; [inversion H; subst; clear H|]); try contradiction.
Lemma not_comma x : existsb (Z.eqb 44) x = false -> ~ In 44 x.
Proof.
  intros H F. apply not_true_iff_false in H. apply H, existsb_exists. exists 44. split; auto.
Qed.
Lemma amo_NM n b : In (n, b) amo_table -> n <> [] /\ ~ In 44 n.
Proof. revert n b. on_table; (split; [discriminate|apply not_comma; reflexivity]). Qed.
Lemma amo_SP1 n b : In (n, b) amo_table -> prefixb (bytes "none") n || prefixb n (bytes "none") = false.
Proof. revert n b. on_table; reflexivity. Qed.
Lemma amo_SP2 n b : In (n, b) amo_table -> prefixb (bytes "any_op") n || prefixb n (bytes "any_op") = false.
Proof. revert n b. on_table; reflexivity. Qed.
Lemma amo_in o : In (bytes (amo_name o), amo_bit o) amo_table.
Proof. destruct o; cbn; tauto. Qed.
Lemma amo_bits i : 0 <= i < 14 -> exists o, amo_bit o = i.
Proof.
  intros H. assert (i = 0 \/ i = 1 \/ i = 2 \/ i = 3 \/ i = 4 \/ i = 5 \/ i = 6 \/ i = 7 \/ i = 8 \/
    i = 9 \/ i = 10 \/ i = 11 \/ i = 12 \/ i = 13) as K by lia.
  repeat destruct K as [-> | K]; [exists Acswap|exists Afinc|exists Ainc|exists Afadd|exists Aadd|
   exists Afetch|exists Aset|exists Aswap|exists Afand|exists Aand|exists Afor|exists Aor|
   exists Afxor|subst; exists Axor]; reflexivity.
Qed.
Lemma amo_inv n b : In (n, b) amo_table -> exists o, n = bytes (amo_name o) /\ b = amo_bit o.
Proof.
  revert n b. on_table; [exists Acswap|exists Afinc|exists Ainc|exists Afadd|exists Aadd|
   exists Afetch|exists Aset|exists Aswap|exists Afand|exists Aand|exists Afor|exists Aor|
   exists Afxor|exists Axor]; auto.
Qed.
Lemma amo_bit_inj o o' : amo_bit o = amo_bit o' -> o = o'.
Proof. destruct o, o'; cbn; congruence. Qed.
Lemma amo_INJ n n' b : In (n, b) amo_table -> In (n', b) amo_table -> n = n'.
Proof.
  intros H H'. apply amo_inv in H. apply amo_inv in H'.
  destruct H as (o & -> & ->), H' as (o' & -> & E). apply amo_bit_inj in E. now subst.
Qed.
Lemma amo_name_inj o o' : bytes (amo_name o) = bytes (amo_name o') -> o = o'.
Proof. destruct o, o'; cbn; congruence. Qed.
Lemma amo_COV i : 0 <= i < 14 -> exists n, In (n, i) amo_table.
Proof. intros H. destruct (amo_bits i H) as (o & <-). eexists. apply amo_in. Qed.

Lemma gpu_NM n b : In (n, b) gpu_table -> n <> [] /\ ~ In 44 n.
Proof. revert n b. on_table; (split; [discriminate|apply not_comma; reflexivity]). Qed.
Lemma gpu_SP1 n b : In (n, b) gpu_table -> prefixb (bytes "none") n || prefixb n (bytes "none") = false.
Proof. revert n b. on_table; reflexivity. Qed.
Lemma gpu_SP2 n b : In (n, b) gpu_table -> prefixb (bytes "all") n || prefixb n (bytes "all") = false.
Proof. revert n b. on_table; reflexivity. Qed.
Lemma gpu_in o : In (bytes (gpu_name o), gpu_bit o) gpu_table.
Proof. destruct o; cbn; tauto. Qed.
Lemma gpu_inv n b : In (n, b) gpu_table -> exists o, n = bytes (gpu_name o) /\ b = gpu_bit o.
Proof. revert n b. on_table; [exists Gpt2pt|exists Gput|exists Gget|exists Gacc]; auto. Qed.
Lemma gpu_INJ n n' b : In (n, b) gpu_table -> In (n', b) gpu_table -> n = n'.
Proof.
  intros H H'. apply gpu_inv in H. apply gpu_inv in H'.
  destruct H as (o & -> & ->), H' as (o' & -> & E). destruct o, o'; cbn in *; congruence.
Qed.
Lemma gpu_name_inj o o' : bytes (gpu_name o) = bytes (gpu_name o') -> o = o'.
Proof. destruct o, o'; cbn; congruence. Qed.
Lemma gpu_COV i : 0 <= i < 4 -> exists n, In (n, i) gpu_table.
Proof.
  intros H. assert (i = 0 \/ i = 1 \/ i = 2 \/ i = 3) as K by lia.
  repeat destruct K as [-> | K]; [exists (bytes "pt2pt")|exists (bytes "put")|exists (bytes "get")|
    subst; exists (bytes "acc")]; cbn; tauto.
Qed.

Lemma init_env_nonempty all am T s : s <> [] -> init_env all am T (Some s) = set_env all am T s 0.
Proof. destruct s; [congruence|auto]. Qed.

Lemma amo_listed l : l <> [] ->
  exists m, init_amo_ops (Some (commas (map (fun o => bytes (amo_name o)) l))) = Ok m /\
    is_mask 14 m /\ forall o, Z.testbit m (amo_bit o) = true <-> In o l.
Proof.
  intros Hl. unfold init_amo_ops. set (L := map _ l).
  assert (HL : L <> []) by (destruct l; [congruence|discriminate]).
  assert (HI : forall x, In x L -> exists b, In (x, b) amo_table).
  { intros x Hx. apply in_map_iff in Hx. destruct Hx as (o & <- & _). eexists. apply amo_in. }
  destruct (set_env_list (bytes "any_op") (all_ops 14 0 0) 14 amo_table) with (l := L)
    as (m & E & Hm & Hi); auto; try lia.
  - exact amo_NM.
  - exact amo_SP1.
  - exact amo_SP2.
  - exact amo_INJ.
  - exists m. rewrite init_env_nonempty.
    + split; auto. split; auto. intros o. rewrite (Hi _ _ (amo_in o)). unfold L.
      rewrite in_map_iff. split; [|eauto]. intros (o' & E' & H'). apply amo_name_inj in E'.
      now subst.
    + intros F. apply commas_nil in F; [congruence|]. intros x Hx. destruct (HI x Hx) as (b & Hb).
      now apply (amo_NM x b).
Qed.
Lemma amo_every s : s <> [] -> ~ starts (bytes "none") s -> ~ starts (bytes "any_op") s ->
  exists m, init_amo_ops (Some s) = Ok m /\ is_mask 14 m /\
    forall o, Z.testbit m (amo_bit o) = true <->
      exists tok, field s tok /\ starts (bytes (amo_name o)) tok.
Proof.
  intros Hs H1 H2. unfold init_amo_ops. rewrite init_env_nonempty by auto.
  destruct (set_env_spec (bytes "any_op") (all_ops 14 0 0) 14 amo_table) with (s := s)
    as (m & E & Hm & Hi); auto; try lia.
  exists m. split; auto. split; auto. intros o. rewrite Hi. split.
  - intros (n & Hin & t & Ht). rewrite <- (amo_INJ _ _ _ Hin (amo_in o)). eauto.
  - intros (t & Ht). exists (bytes (amo_name o)). split; [apply amo_in|eauto].
Qed.
Lemma amo_round checks m : is_mask 14 m -> exists s, getstr_amo checks m = Ok s /\
  Z.of_nat (length s) < 256 /\ init_amo_ops (Some s) = Ok m.
Proof.
  intros Hm. unfold getstr_amo.
  assert (c_assert checks (Z.of_nat (length (bytes
    "cswap,finc,inc,fadd,add,fetch,set,swap,fadd,and,for,or,fxor,xor")) + 1 <=? 256) = Ok tt) as ->
    by reflexivity.
  cbn [bind].
  destruct (getstr_round (bytes "any_op") (all_ops 14 0 0) 14 256 amo_table) with (m := m)
    as (s & E & Hs & Hl & HE); auto; try lia.
  - exact amo_COV.
  - exact amo_NM.
  - exact amo_SP1.
  - exact amo_SP2.
  - split; [lia|reflexivity].
  - exact amo_INJ.
  - exists s. unfold init_amo_ops. rewrite init_env_nonempty; auto.
Qed.
Lemma gpu_listed l : l <> [] ->
  exists m, init_gpu_features (Some (commas (map (fun o => bytes (gpu_name o)) l))) = Ok m /\
    is_mask 4 m /\ forall o, Z.testbit m (gpu_bit o) = true <-> In o l.
Proof.
  intros Hl. unfold init_gpu_features. set (L := map _ l).
  assert (HL : L <> []) by (destruct l; [congruence|discriminate]).
  assert (HI : forall x, In x L -> exists b, In (x, b) gpu_table).
  { intros x Hx. apply in_map_iff in Hx. destruct Hx as (o & <- & _). eexists. apply gpu_in. }
  set (am := Z.lor _ _).
  destruct (set_env_list (bytes "all") am 4 gpu_table) with (l := L)
    as (m & E & Hm & Hi); auto; try lia.
  - exact gpu_NM.
  - exact gpu_SP1.
  - exact gpu_SP2.
  - exact gpu_INJ.
  - exists m. rewrite init_env_nonempty.
    + split; auto. split; auto. intros o. rewrite (Hi _ _ (gpu_in o)). unfold L.
      rewrite in_map_iff. split; [|eauto]. intros (o' & E' & H'). apply gpu_name_inj in E'.
      now subst.
    + intros F. apply commas_nil in F; [congruence|]. intros x Hx. destruct (HI x Hx) as (b & Hb).
      now apply (gpu_NM x b).
Qed.
Lemma gpu_round checks m : is_mask 4 m -> exists s, getstr_gpu checks m = Ok s /\
  Z.of_nat (length s) < 256 /\ init_gpu_features (Some s) = Ok m.
Proof.
  intros Hm. unfold getstr_gpu.
  assert (c_assert checks (Z.of_nat (length (bytes "pt2pt,put,get,acc")) + 1 <=? 256) = Ok tt) as ->
    by reflexivity.
  cbn [bind]. 
  destruct (getstr_round (bytes "all") (Z.lor (2 ^ 0) (Z.lor (2 ^ 1) (Z.lor (2 ^ 2) (2 ^ 3)))) 4 256
     gpu_table) with (m := m)
    as (s & E & Hs & Hl & HE); auto; try lia.
  - exact gpu_COV.
  - exact gpu_NM.
  - exact gpu_SP1.
  - exact gpu_SP2.
  - split; [lia|reflexivity].
  - exact gpu_INJ.
  - exists s. unfold init_gpu_features. rewrite init_env_nonempty; auto.
Qed.

(** ** Hints *)
Lemma direct_sound ops l : (forall o, In o l -> Z.testbit ops (amo_bit o) = true) ->
  h_direct (set_mpi_info_args ops) = true ->
  atomic_under (h_acc (set_mpi_info_args ops)) (map (fun o => direct_op (amo_bit o)) l).
Proof.
  intros Hl Hd. destruct (Z.eqb_spec ops 0) as [->|Hn].
  - exists OSum. intros o Ho. apply in_map_iff in Ho. destruct Ho as (a & _ & Ha).
    specialize (Hl a Ha). rewrite Z.bits_0 in Hl. discriminate.
  - exists OSum. intros o Ho. apply in_map_iff in Ho. destruct Ho as (a & <- & Ha).
    specialize (Hl a Ha). revert Hd Hl. unfold set_mpi_info_args.
    assert (ops =? 0 = false) as -> by lia. cbn [negb]. rewrite orb_true_r. cbn [orb].
    destruct (Z.testbit ops 0) eqn:E0, (Z.testbit ops 5) eqn:E5,
      (Z.testbit ops 6 || Z.testbit ops 7) eqn:E6, (Z.testbit ops 8 || Z.testbit ops 9) eqn:E8,
      (Z.testbit ops 10 || Z.testbit ops 11) eqn:E10,
      (Z.testbit ops 12 || Z.testbit ops 13) eqn:E12;
      (intros Hd Hl; vm_compute in Hd; try discriminate Hd);
      apply orb_false_iff in E6, E8, E10, E12; destruct E6, E8, E10, E12;
      destruct a; cbn [amo_bit direct_op] in Hl |- *; auto; try congruence; right; split; reflexivity.
Qed.
Lemma which_complete ops o : Z.testbit ops (amo_bit o) = true ->
  In (direct_op (amo_bit o)) (h_which (set_mpi_info_args ops)).
Proof.
  intros H. assert (ops <> 0) by (intros ->; rewrite Z.bits_0 in H; discriminate).
  assert (E : h_which (set_mpi_info_args ops) =
    (if Z.testbit ops 0 then [OCas] else []) ++ [OSum] ++
    (if Z.testbit ops 5 then [ONoOp] else []) ++
    (if Z.testbit ops 6 || Z.testbit ops 7 then [OReplace] else []) ++
    (if Z.testbit ops 8 || Z.testbit ops 9 then [OBand] else []) ++
    (if Z.testbit ops 10 || Z.testbit ops 11 then [OBor] else []) ++
    (if Z.testbit ops 12 || Z.testbit ops 13 then [OBxor] else [])).
  { unfold set_mpi_info_args. assert (ops =? 0 = false) as -> by lia. cbn [negb].
    rewrite orb_true_r. cbn [orb]. destruct (_ =? 1); auto. destruct (_ && _); auto. }
  rewrite E. destruct o; cbn [amo_bit direct_op] in H |- *; rewrite ?H, ?orb_true_r; cbn [orb];
    repeat rewrite in_app_iff; cbn; tauto.
Qed.

(** ** Sizes *)
Lemma digits_val_gen ds v : fold_left (fun v d => 10 * v + (d - 48)) ds v =
  v * 10 ^ Z.of_nat (length ds) + dec_val ds.
Proof.
  revert v. induction ds as [|d ds IH]; intros v; cbn [fold_left dec_val length].
  - rewrite Z.pow_0_r. lia.
  - rewrite IH. rewrite Nat2Z.inj_succ, Z.pow_succ_r by lia. ring.
Qed.
Lemma digits_val_spec ds : digits_val ds = dec_val ds.
Proof. unfold digits_val. rewrite digits_val_gen. lia. Qed.
Lemma dec_val_nonneg ds : Forall (fun c => 48 <= c <= 57) ds -> 0 <= dec_val ds.
Proof.
  induction 1 as [|d ds H F IH]; cbn; [lia|].
  assert (0 <= 10 ^ Z.of_nat (length ds)) by (apply Z.pow_nonneg; lia). nia.
Qed.
Lemma take_digits_app ds r : Forall (fun c => 48 <= c <= 57) ds ->
  match r with [] => True | c :: _ => is_digit c = false end ->
  take_digits (ds ++ r) = (ds, r).
Proof.
  intros H Hr. induction H as [|d ds Hd F IH]; cbn.
  - destruct r; cbn; auto. now rewrite Hr.
  - unfold is_digit at 1. assert ((48 <=? d) && (d <=? 57) = true) as -> by lia. now rewrite IH.
Qed.
Lemma suffix_facts suf k : size_suffix suf k ->
  match suf with [] => k = 0 | c :: t => is_digit c = false /\ suffix_exp c = 10 * k /\
     c <> 46 /\ c <> 69 /\ c <> 101 /\ c <> 88 /\ c <> 120 end.
Proof.
  destruct 1 as [|c t k [H|(H & D & ->)]]; auto.
  - cbn in H. decompose [or] H; try contradiction;
      match goal with E : _ = _ |- _ => injection E as <- <- end; vm_compute; intuition congruence.
  - cbn in H. unfold is_digit, suffix_exp.
    assert (forall x, [x] <> [c] -> (c =? x) = false /\ c <> x) as K
      by (intros x Hx; assert (c <> x) by congruence; split; [lia|auto]).
    pose proof (K 75) as A1. pose proof (K 107) as A2. pose proof (K 77) as A3. pose proof (K 109) as A4.
    pose proof (K 71) as A5. pose proof (K 103) as A6. pose proof (K 84) as A7. pose proof (K 116) as A8.
    pose proof (K 46) as A9. pose proof (K 101) as B1. pose proof (K 69) as B2. pose proof (K 120) as B3.
    pose proof (K 88) as B4. clear K.
    destruct A1 as [-> _]; [intros E; apply H; tauto|]. destruct A2 as [-> _]; [intros E; apply H; tauto|].
    destruct A3 as [-> _]; [intros E; apply H; tauto|]. destruct A4 as [-> _]; [intros E; apply H; tauto|].
    destruct A5 as [-> _]; [intros E; apply H; tauto|]. destruct A6 as [-> _]; [intros E; apply H; tauto|].
    destruct A7 as [-> _]; [intros E; apply H; tauto|]. destruct A8 as [-> _]; [intros E; apply H; tauto|].
    destruct A9 as [_ A9]; [intros E; apply H; tauto|]. destruct B1 as [_ B1]; [intros E; apply H; tauto|].
    destruct B2 as [_ B2]; [intros E; apply H; tauto|]. destruct B3 as [_ B3]; [intros E; apply H; tauto|].
    destruct B4 as [_ B4]; [intros E; apply H; tauto|].
    cbn. repeat split; auto. lia.
Qed.
Lemma strtof_int ds suf k : decimal ds -> size_suffix suf k ->
  strtof (ds ++ suf) = let '(m, e) := to_float (dec_val ds) 1 in Ok (m, e, suf).
Proof.
  intros (Hn & Hd) Hs. apply suffix_facts in Hs. unfold strtof.
  rewrite take_digits_app; auto.
  2:{ destruct suf; auto. tauto. }
  destruct ds as [|d ds]; [congruence|].
  assert (E : (match suf with 46 :: t => take_digits t | _ => ([], suf) end) = ([], suf)).
  { destruct suf as [|c t]; auto. destruct Hs as (_ & _ & H & _).
    destruct c as [|p|p]; auto. repeat (destruct p as [p|p|]; auto). congruence. }
  rewrite E. rewrite app_nil_r, digits_val_spec. cbn [length]. change (10 ^ Z.of_nat 0) with 1.
  destruct suf as [|c t]; auto.
  destruct Hs as (_ & _ & _ & H1 & H2 & H3 & H4).
  destruct c as [|p|p]; auto. repeat (destruct p as [p|p|]; auto); congruence.
Qed.
Lemma strtof_frac ip fp suf k : decimal ip -> Forall (fun c => 48 <= c <= 57) fp ->
  size_suffix suf k ->
  strtof (ip ++ 46 :: fp ++ suf) =
    let '(m, e) := to_float (dec_val (ip ++ fp)) (10 ^ Z.of_nat (length fp)) in Ok (m, e, suf).
Proof.
  intros (Hn & Hd) Hf Hs. apply suffix_facts in Hs. unfold strtof.
  rewrite (take_digits_app ip); auto.
  rewrite (take_digits_app fp); auto.
  2:{ destruct suf; auto. tauto. }
  destruct ip as [|d ip]; [congruence|].
  rewrite digits_val_spec.
  destruct suf as [|c t]; auto.
  destruct Hs as (_ & _ & _ & H1 & H2 & H3 & H4).
  destruct c as [|p|p]; auto. repeat (destruct p as [p|p|]; auto); congruence.
Qed.

Lemma round_ne_err n d : 0 < d -> 2 * Z.abs (round_ne n d * d - n) <= d.
Proof.
  intros Hd. unfold round_ne. pose proof (Z.div_mod n d ltac:(lia)) as E.
  pose proof (Z.mod_pos_bound n d Hd) as B.
  destruct (2 * (n mod d) <? d) eqn:?, (d <? 2 * (n mod d)) eqn:?, (Z.even (n / d)); nia.
Qed.
Lemma round_ne_exact q d : 0 < d -> round_ne (q * d) d = q.
Proof.
  intros Hd. unfold round_ne. rewrite Z.div_mul, Z.mod_mul by lia.
  assert (2 * 0 <? d = true) as -> by lia. auto.
Qed.
(** The float nearest to an integer. *)
Lemma to_float_int a : 0 < a ->
  to_float a 1 = (if Z.log2 a <? 23 then a * 2 ^ (23 - Z.log2 a)
                  else round_ne a (2 ^ (Z.log2 a - 23)), Z.log2 a - 23).
Proof.
  intros Ha. unfold to_float. assert (a =? 0 = false) as -> by lia.
  change (Z.log2 1) with 0. rewrite Z.sub_0_r.
  pose proof (Z.log2_nonneg a). pose proof (Z.log2_spec a Ha) as (L & _).
  assert (0 <=? Z.log2 a = true) as -> by lia. rewrite Z.mul_1_l.
  assert (2 ^ Z.log2 a <=? a = true) as -> by lia.
  assert (Z.max (Z.log2 a - 23) (-149) = Z.log2 a - 23) as -> by lia.
  destruct (Z.log2 a <? 23) eqn:E.
  - assert (0 <=? Z.log2 a - 23 = false) as -> by lia.
    replace (- (Z.log2 a - 23)) with (23 - Z.log2 a) by lia.
    set (x := a * _). replace x with (x * 1) at 1 by lia. now rewrite round_ne_exact by lia.
  - assert (0 <=? Z.log2 a - 23 = true) as -> by lia. now rewrite Z.mul_1_l.
Qed.
Lemma fceil_exact A s x : 0 <= s -> 0 <= s + x -> fceil (A * 2 ^ s) x = A * 2 ^ (s + x).
Proof.
  intros Hs Hx. unfold fceil. destruct (0 <=? x) eqn:E.
  - rewrite Z.pow_add_r by lia. ring.
  - replace s with (s + x + - x) at 1 by lia. rewrite Z.pow_add_r by lia.
    replace (- (A * (2 ^ (s + x) * 2 ^ (- x)))) with ((- (A * 2 ^ (s + x))) * 2 ^ (- x)) by ring.
    rewrite Z.div_mul by (apply Z.pow_nonzero; lia). ring.
Qed.
Lemma ftrunc_exact A s x : 0 <= s -> 0 <= s + x -> ftrunc (A * 2 ^ s) x = A * 2 ^ (s + x).
Proof.
  intros Hs Hx. unfold ftrunc. destruct (0 <=? x) eqn:E.
  - rewrite Z.pow_add_r by lia. ring.
  - replace s with (s + x + - x) at 1 by lia. rewrite Z.pow_add_r by lia.
    rewrite Z.mul_assoc, Z.div_mul by (apply Z.pow_nonzero; lia). ring.
Qed.
Lemma fceil_pos m x : 0 <= x -> fceil m x = m * 2 ^ x.
Proof. intros H. unfold fceil. now assert (0 <=? x = true) as -> by lia. Qed.
Lemma ftrunc_pos m x : 0 <= x -> ftrunc m x = m * 2 ^ x.
Proof. intros H. unfold ftrunc. now assert (0 <=? x = true) as -> by lia. Qed.

(** The number an integer numeral denotes for the library: [f * 2^e]. *)
Definition int_float (a : Z) : Z :=
  if Z.log2 a <? 23 then a else round_ne a (2 ^ (Z.log2 a - 23)) * 2 ^ (Z.log2 a - 23).
Lemma suffix_nonneg suf k : size_suffix suf k -> 0 <= k.
Proof.
  destruct 1 as [|c t k [H|(_ & _ & ->)]]; [lia| |lia]. cbn in H.
  decompose [or] H; try contradiction; match goal with E : _ = _ |- _ => injection E as <- <- end; lia.
Qed.
Lemma str_to_size_int ds suf k : decimal ds -> size_suffix suf k ->
  str_to_size (ds ++ suf) = to_u64 (int_float (dec_val ds) * 1024 ^ k).
Proof.
  intros Hd Hs. unfold str_to_size. rewrite (strtof_int ds suf k) by auto.
  pose proof (dec_val_nonneg ds (proj2 Hd)) as H0. pose proof (suffix_nonneg _ _ Hs) as Hk.
  set (a := dec_val ds) in *.
  assert (E1024 : 1024 ^ k = 2 ^ (10 * k)).
  { change 1024 with (2 ^ 10). rewrite <- Z.pow_mul_r by lia. auto. }
  destruct (Z.eq_dec a 0) as [E0|Hn].
  - rewrite E0. change (to_float 0 1) with (0, 0). cbn [bind].
    change (int_float 0) with 0. rewrite Z.mul_0_l.
    apply suffix_facts in Hs. destruct suf as [|c t].
    + reflexivity.
    + destruct Hs as (_ & -> & _). unfold fceil. destruct (0 <=? 0 + 10 * k) eqn:E.
      * now rewrite Z.mul_0_l.
      * lia.
  - rewrite to_float_int by lia. cbn [bind]. pose proof (Z.log2_nonneg a).
    apply suffix_facts in Hs. unfold int_float.
    destruct (Z.log2 a <? 23) eqn:EL.
    + destruct suf as [|c t].
      * subst k. rewrite ftrunc_exact by lia.
        replace (23 - Z.log2 a + (Z.log2 a - 23)) with 0 by lia.
        rewrite !Z.pow_0_r. auto.
      * destruct Hs as (_ & -> & _). rewrite fceil_exact by lia. rewrite E1024.
        now replace (23 - Z.log2 a + (Z.log2 a - 23 + 10 * k)) with (10 * k) by lia.
    + destruct suf as [|c t].
      * subst k. rewrite ftrunc_pos by lia. now rewrite Z.pow_0_r, Z.mul_1_r.
      * destruct Hs as (_ & -> & _). rewrite fceil_pos by lia. rewrite E1024.
        rewrite Z.pow_add_r by lia. now rewrite Z.mul_assoc.
Qed.
Lemma int_float_err a : 0 <= a -> 2 ^ 24 * Z.abs (int_float a - a) <= a.
Proof.
  intros Ha. unfold int_float. destruct (Z.log2 a <? 23) eqn:E.
  - rewrite Z.sub_diag. cbn. lia.
  - assert (0 < a).
    { destruct (Z.eq_dec a 0) as [->|]; [|lia]. change (Z.log2 0) with 0 in E. lia. }
    pose proof (Z.log2_spec a ltac:(lia)) as (L & _).
    set (e := Z.log2 a - 23) in *. assert (0 < 2 ^ e) by (apply Z.pow_pos_nonneg; lia).
    pose proof (round_ne_err a (2 ^ e) ltac:(lia)) as R.
    replace (Z.log2 a) with (23 + e) in L by lia. rewrite Z.pow_add_r in L by lia.
    change (2 ^ 24) with (2 ^ 23 * 2). nia.
Qed.
Lemma int_float_exact m j : 0 <= m < 2 ^ 24 -> 0 <= j -> int_float (m * 2 ^ j) = m * 2 ^ j.
Proof.
  intros Hm Hj. assert (0 < 2 ^ j) by (apply Z.pow_pos_nonneg; lia).
  unfold int_float. destruct (Z.log2 (m * 2 ^ j) <? 23) eqn:E; auto.
  destruct (Z.eq_dec m 0) as [->|Hn].
  { exfalso. rewrite Z.mul_0_l in E. change (Z.log2 0) with 0 in E. lia. }
  assert (L : Z.log2 (m * 2 ^ j) <= 23 + j).
  { rewrite Z.log2_mul_pow2 by lia. assert (Z.log2 m < 24) by (apply Z.log2_lt_pow2; lia). lia. }
  set (e := Z.log2 (m * 2 ^ j) - 23) in *.
  replace (m * 2 ^ j) with (m * 2 ^ (j - e) * 2 ^ e).
  - rewrite round_ne_exact by (apply Z.pow_pos_nonneg; lia). auto.
  - rewrite <- Z.mul_assoc, <- Z.pow_add_r by lia. f_equal. f_equal. lia.
Qed.
Lemma init_heap_int ds suf k : decimal ds -> size_suffix suf k ->
  0 <= int_float (dec_val ds) * 1024 ^ k < 2 ^ 63 ->
  init_heap_size (Some (ds ++ suf)) = Ok (int_float (dec_val ds) * 1024 ^ k).
Proof.
  intros Hd Hs Hb. unfold init_heap_size. destruct Hd as (Hn & Hd).
  destruct (ds ++ suf) as [|c s] eqn:E.
  { apply app_eq_nil in E. tauto. }
  rewrite <- E. rewrite (str_to_size_int ds suf k (conj Hn Hd) Hs).
  set (r := int_float (dec_val ds) * 1024 ^ k) in *. unfold to_u64.
  assert (r <? 2 ^ 64 = true) as -> by lia. cbn [bind].
  assert (to_long r = r) as ->.
  { unfold to_long. rewrite Z.mod_small; lia. }
  assert (r <? 0 = false) as -> by lia. auto.
Qed.
Lemma heap_exact ds suf k m j : decimal ds -> size_suffix suf k ->
  dec_val ds = m * 2 ^ j -> 0 <= m < 2 ^ 24 -> 0 <= j -> dec_val ds * 1024 ^ k < 2 ^ 63 ->
  init_heap_size (Some (ds ++ suf)) = Ok (dec_val ds * 1024 ^ k).
Proof.
  intros Hd Hs E Hm Hj Hb. pose proof (int_float_exact m j Hm Hj) as X. rewrite <- E in X.
  replace (dec_val ds * 1024 ^ k) with (int_float (dec_val ds) * 1024 ^ k) by now rewrite X.
  apply init_heap_int; auto. rewrite X. split; auto.
  apply Z.mul_nonneg_nonneg; [apply dec_val_nonneg, Hd|]. apply Z.pow_nonneg. lia.
Qed.
Lemma heap_error ds suf k : decimal ds -> size_suffix suf k -> dec_val ds * 1024 ^ k < 2 ^ 62 ->
  exists r, init_heap_size (Some (ds ++ suf)) = Ok r /\
    2 ^ 24 * Z.abs (r - dec_val ds * 1024 ^ k) <= dec_val ds * 1024 ^ k.
Proof.
  intros Hd Hs Hb. set (a := dec_val ds) in *. assert (0 <= a) by apply dec_val_nonneg, Hd.
  pose proof (int_float_err a ltac:(lia)) as R.
  assert (0 < 1024 ^ k) by (apply Z.pow_pos_nonneg; [lia|eapply suffix_nonneg; eauto]).
  assert (Q : 2 ^ 24 * Z.abs (int_float a * 1024 ^ k - a * 1024 ^ k) <= a * 1024 ^ k).
  { rewrite <- Z.mul_sub_distr_r, Z.abs_mul, (Z.abs_eq (1024 ^ k)) by lia. nia. }
  exists (int_float a * 1024 ^ k). split; auto.
  apply init_heap_int; auto. fold a. lia.
Qed.

(** Fractions. *)
Lemma to_float_err a b m e : 0 < b -> b <= a -> to_float a b = (m, e) ->
  (0 <= e /\ 2 ^ 24 * Z.abs (m * 2 ^ e * b - a) <= a) \/
  (e < 0 /\ 2 ^ 24 * Z.abs (m * b - a * 2 ^ (- e)) <= a * 2 ^ (- e)).
Proof.
  intros Hb Hab. unfold to_float. assert (a =? 0 = false) as -> by lia.
  pose proof (Z.log2_spec a ltac:(lia)) as (La & _).
  pose proof (Z.log2_spec b ltac:(lia)) as (_ & Lb).
  pose proof (Z.log2_le_mono b a Hab) as Lm. pose proof (Z.log2_nonneg b).
  set (e0 := Z.log2 a - Z.log2 b) in *.
  assert (0 <=? e0 = true) as -> by lia.
  intros E. injection E as Em Ee.
  assert (K : exists q, e = q - 23 /\ 0 <= q /\ b * 2 ^ q <= a).
  { destruct (b * 2 ^ e0 <=? a) eqn:G.
    - exists e0. lia.
    - exists (e0 - 1).
      assert (e0 <> 0) by (intros Z0; rewrite Z0, Z.pow_0_r in G; lia).
      split; [lia|]. split; [lia|].
      replace (Z.log2 a) with (Z.succ (Z.log2 b) + (e0 - 1)) in La by lia.
      rewrite Z.pow_add_r in La by lia.
      assert (0 < 2 ^ (e0 - 1)) by (apply Z.pow_pos_nonneg; lia). nia. }
  destruct K as (q & Eq & Hq & Hle). rewrite Ee in Em. clear Ee.
  destruct (0 <=? e) eqn:G.
  - left. split; [lia|]. assert (0 < 2 ^ e) by (apply Z.pow_pos_nonneg; lia).
    pose proof (round_ne_err a (b * 2 ^ e) ltac:(nia)) as R. rewrite Em in R.
    replace (m * (b * 2 ^ e)) with (m * 2 ^ e * b) in R by ring.
    replace q with (23 + e) in Hle by lia. rewrite Z.pow_add_r in Hle by lia.
    change (2 ^ 24) with (2 ^ 23 * 2). nia.
  - right. split; [lia|]. pose proof (round_ne_err (a * 2 ^ (- e)) b Hb) as R. rewrite Em in R.
    assert (0 < 2 ^ (- e)) by (apply Z.pow_pos_nonneg; lia).
    assert (b * 2 ^ 23 <= a * 2 ^ (- e)).
    { replace 23 with (q + - e) by lia. rewrite Z.pow_add_r by lia. nia. }
    change (2 ^ 24) with (2 ^ 23 * 2). nia.
Qed.
Lemma scale_bound a b K r m e x : 0 < b -> 0 < K -> e < 0 -> 2 ^ (- e) = 2 ^ (- x) * K -> x < 0 ->
  Z.abs (r * 2 ^ (- x) - m) <= 2 ^ (- x) ->
  2 ^ 24 * Z.abs (m * b - a * 2 ^ (- e)) <= a * 2 ^ (- e) ->
  2 ^ 24 * Z.abs (r * b - a * K) <= a * K + 2 ^ 24 * b.
Proof.
  intros Hb HK He Ex Hx Hr Hm. assert (0 < 2 ^ (- x)) as HX by (apply Z.pow_pos_nonneg; lia).
  rewrite Ex in Hm. set (X := 2 ^ (- x)) in *.
  apply (Zmult_le_reg_r _ _ X); [lia|].
  replace (2 ^ 24 * Z.abs (r * b - a * K) * X) with (2 ^ 24 * Z.abs ((r * b - a * K) * X))
    by (rewrite Z.abs_mul, (Z.abs_eq X) by lia; ring).
  replace ((r * b - a * K) * X) with ((r * X - m) * b + (m * b - a * (X * K))) by ring.
  assert (Z.abs ((r * X - m) * b) <= X * b) by (rewrite Z.abs_mul, (Z.abs_eq b) by lia; nia).
  pose proof (Z.abs_triangle ((r * X - m) * b) (m * b - a * (X * K))). nia.
Qed.
Lemma size_frac ip fp suf k a b : decimal ip -> Forall (fun c => 48 <= c <= 57) fp ->
  size_suffix suf k -> a = dec_val (ip ++ fp) -> b = 10 ^ Z.of_nat (length fp) -> b <= a ->
  a * 1024 ^ k < b * 2 ^ 62 ->
  exists r, init_heap_size (Some (ip ++ 46 :: fp ++ suf)) = Ok r /\
    2 ^ 24 * Z.abs (r * b - a * 1024 ^ k) <= a * 1024 ^ k + 2 ^ 24 * b.
Proof.
  intros Hi Hf Hs Ea Eb Hab Hlim.
  assert (Hb : 0 < b) by (subst b; apply Z.pow_pos_nonneg; lia).
  pose proof (suffix_nonneg _ _ Hs) as Hk.
  assert (E1024 : 1024 ^ k = 2 ^ (10 * k)).
  { change 1024 with (2 ^ 10). rewrite <- Z.pow_mul_r by lia. auto. }
  assert (HK : 0 < 1024 ^ k) by (apply Z.pow_pos_nonneg; lia).
  assert (G : exists r, str_to_size (ip ++ 46 :: fp ++ suf) = to_u64 r /\
    2 ^ 24 * Z.abs (r * b - a * 1024 ^ k) <= a * 1024 ^ k + 2 ^ 24 * b).
  { unfold str_to_size. rewrite (strtof_frac ip fp suf k) by auto. rewrite <- Ea, <- Eb.
    destruct (to_float a b) as [m e] eqn:EF. cbn [bind].
    pose proof (to_float_err a b m e Hb Hab EF) as EE.
    set (r := match suf with [] => ftrunc m e | c :: _ => fceil m (e + suffix_exp c) end).
    exists r. split; [unfold r; destruct suf; auto|].
    apply suffix_facts in Hs.
    destruct EE as [(He & EE) | (He & EE)].
    - assert (r = m * 2 ^ e * 1024 ^ k).
      { unfold r. destruct suf as [|c t].
        - subst k. rewrite ftrunc_pos by lia. now rewrite Z.pow_0_r, Z.mul_1_r.
        - destruct Hs as (_ & -> & _). rewrite fceil_pos, Z.pow_add_r, E1024 by lia. ring. }
      rewrite H. replace (m * 2 ^ e * 1024 ^ k * b - a * 1024 ^ k)
        with ((m * 2 ^ e * b - a) * 1024 ^ k) by ring.
      rewrite Z.abs_mul, (Z.abs_eq (1024 ^ k)) by lia. nia.
    - set (x := e + 10 * k).
      assert (R : (0 <= x /\ r = m * 2 ^ x) \/
                  (x < 0 /\ Z.abs (r * 2 ^ (- x) - m) <= 2 ^ (- x))).
      { unfold r, x. destruct suf as [|c t].
        - subst k. rewrite Z.mul_0_r, Z.add_0_r. right. split; auto. unfold ftrunc.
          assert (0 <=? e = false) as -> by lia.
          assert (0 < 2 ^ (- e)) as P by (apply Z.pow_pos_nonneg; lia).
          pose proof (Z.div_mod m (2 ^ (- e)) ltac:(lia)).
          pose proof (Z.mod_pos_bound m (2 ^ (- e)) P). nia.
        - destruct Hs as (_ & -> & _). unfold fceil. destruct (0 <=? e + 10 * k) eqn:G.
          + left. split; auto. lia.
          + right. split; [lia|]. set (y := - (e + 10 * k)).
            assert (0 < 2 ^ y) as P by (apply Z.pow_pos_nonneg; lia).
            pose proof (Z.div_mod (- m) (2 ^ y) ltac:(lia)).
            pose proof (Z.mod_pos_bound (- m) (2 ^ y) P). nia. }
      destruct R as [(Hx & ->) | (Hx & R)].
      + assert (P : 0 < 2 ^ (- e)) by (apply Z.pow_pos_nonneg; lia).
        apply (Zmult_le_reg_r _ _ (2 ^ (- e))); [lia|].
        replace (2 ^ 24 * Z.abs (m * 2 ^ x * b - a * 1024 ^ k) * 2 ^ (- e))
          with (2 ^ 24 * Z.abs ((m * 2 ^ x * b - a * 1024 ^ k) * 2 ^ (- e)))
          by (rewrite Z.abs_mul, (Z.abs_eq (2 ^ (- e))) by lia; ring).
        assert (EX : 2 ^ x * 2 ^ (- e) = 1024 ^ k).
        { rewrite <- Z.pow_add_r, E1024 by lia. f_equal. lia. }
        replace ((m * 2 ^ x * b - a * 1024 ^ k) * 2 ^ (- e))
          with (m * b * (2 ^ x * 2 ^ (- e)) - a * 2 ^ (- e) * 1024 ^ k) by ring.
        rewrite EX. replace (m * b * 1024 ^ k - a * 2 ^ (- e) * 1024 ^ k)
          with ((m * b - a * 2 ^ (- e)) * 1024 ^ k) by ring.
        rewrite Z.abs_mul, (Z.abs_eq (1024 ^ k)) by lia. nia.
      + apply (scale_bound a b (1024 ^ k) r m e x); auto.
        rewrite E1024, <- Z.pow_add_r by lia. f_equal. lia. }
  destruct G as (r & E & B). exists r. split; auto.
  assert (0 <= r < 2 ^ 63).
  { change (2 ^ 63) with (2 * 2 ^ 62). assert (H2 : 2 ^ 62 > 2 ^ 30) by reflexivity.
    set (W := 2 ^ 62) in *. set (A := a * 1024 ^ k) in *.
    change (2 ^ 24) with 16777216 in B.
    split; [|nia]. assert (0 <= A) by (unfold A; nia).
    assert (b <= A) by (unfold A; nia). nia. }
  unfold init_heap_size. destruct (ip ++ 46 :: fp ++ suf) as [|c s] eqn:EQ.
  { destruct ip; discriminate. }
  rewrite E. unfold to_u64. assert (r <? 2 ^ 64 = true) as -> by lia. cbn [bind].
  assert (to_long r = r) as -> by (unfold to_long; rewrite Z.mod_small; lia).
  assert (r <? 0 = false) as -> by lia. auto.
Qed.

(** ** Thread level *)
Lemma degrade_min b r : level r -> degrade b r = Z.min r (build_max b).
Proof.
  intros H. unfold level in H. destruct b; cbn [degrade build_max]; unfold t_single;
    try destruct (_ <? r) eqn:?; lia.
Qed.
Lemma init_thread_spec s w r l : initialize_thread s w r = Ok l ->
  exists asked, level r /\ asked = (if enable_async_thread s then Z.min 3 (build_max (s_build s))
                                    else Z.min r (build_max (s_build s))) /\
    l = Z.min asked (mpi_level w asked) /\
    (enable_async_thread s = true -> l = 3).
Proof.
  unfold initialize_thread.
  destruct (negb _) eqn:R; [discriminate|].
  assert (Hr : level r) by (unfold level; lia).
  set (rq := if enable_async_thread s then t_multiple else r).
  assert (Hrq : level rq).
  { unfold rq, t_multiple, level in *. destruct (enable_async_thread s); lia. }
  rewrite (degrade_min _ _ Hrq).
  set (asked := Z.min rq (build_max (s_build s))).
  fold (mpi_level w asked).
  destruct (enable_async_thread s && _) eqn:A; [discriminate|].
  intros E. injection E as E. exists asked. split; auto. split.
  - unfold asked, rq, t_multiple. destruct (enable_async_thread s); auto.
  - assert (asked <= 3) by (unfold asked, level in *; destruct (s_build s); cbn; lia).
    unfold t_multiple in A. destruct (mpi_level w asked <? asked) eqn:M;
      (split; [lia|]); intros EA; rewrite EA in A; cbn in A; lia.
Qed.
Lemma init_thread_total s w r : level r -> mpi_level w 3 = 3 -> s_build s = BMultiple ->
  enable_async_thread s = true -> initialize_thread s w r = Ok 3.
Proof.
  intros Hr Hm Hb Ha. unfold initialize_thread. unfold level in Hr.
  destruct (negb _) eqn:R; [lia|]. rewrite Ha, Hb. cbn [degrade]. fold (mpi_level w t_multiple).
  change t_multiple with 3. rewrite Hm. reflexivity.
Qed.
Lemma init_aborts s w r : (forall q, mpi_level w q <= 3) ->
  shmem_init_thread s w None r = Abort <->
  ~ level r \/ (enable_async_thread s = true /\
                (s_build s <> BMultiple \/ mpi_level w 3 < 3)).
Proof.
  intros Hw. unfold shmem_init_thread, initialize_thread.
  destruct (negb _) eqn:R.
  { cbn. split; auto. intros _. left. unfold level. lia. }
  assert (Hr : level r) by (unfold level; lia).
  destruct (enable_async_thread s) eqn:A; cbn [andb].
  - rewrite (degrade_min _ t_multiple) by (unfold level, t_multiple; lia).
    set (q := Z.min t_multiple (build_max (s_build s))). fold (mpi_level w q).
    specialize (Hw q). unfold t_multiple in *.
    assert (Q : s_build s = BMultiple /\ q = 3 \/ s_build s <> BMultiple /\ q < 3).
    { unfold q. destruct (s_build s); cbn; [right|right|right|left]; split; auto; try discriminate; lia. }
    destruct Q as [(Eb & Eq) | (Eb & Eq)].
    + rewrite Eq in *. destruct (mpi_level w 3 <? 3) eqn:M.
      * rewrite M. cbn. split; auto. intros _. right. split; auto. right. lia.
      * change (3 <? 3) with false. cbn. split; [discriminate|].
        intros [F | (_ & [F | F])]; [tauto|congruence|lia].
    + assert ((if mpi_level w q <? q then mpi_level w q else q) <? 3 = true) as ->
        by (destruct (mpi_level w q <? q) eqn:?; lia).
      cbn. split; auto.
  - cbn. split; [discriminate|]. intros [F | (F & _)]; [tauto|discriminate].
Qed.
Lemma configured_aborts s w r : configured s -> (forall q, mpi_level w q <= 3) ->
  shmem_init_thread s w None r = Abort <->
  ~ level r \/ (enable_async_thread s = true /\ mpi_level w 3 < 3).
Proof.
  intros Hc Hw. rewrite init_aborts by auto. split.
  - intros [H | (A & [H | H])]; auto. exfalso. apply H, Hc. intros E.
    unfold enable_async_thread in A. rewrite E in A. discriminate.
  - intros [H | (A & H)]; auto.
Qed.
Lemma progress_thread s ops :
  cf_async (s_cfg s) = ARuntime -> s_env_async s = None ->
  direct_amo (final_cfg s ops) = false \/ direct_rma_config (final_cfg s ops) = false ->
  enable_async_thread s = true.
Proof.
  intros Ha He. unfold enable_async_thread. rewrite Ha, He. cbv zeta.
  unfold direct_amo, direct_rma_config, final_cfg. cbn.
  destruct (cf_amo (s_cfg s)), (cf_rma (s_cfg s)), (cf_nodebug (s_cfg s)), (cf_dbg (s_cfg s));
    cbn; intuition congruence.
Qed.
Lemma gpu_features l : l <> [] ->
  exists m, init_gpu_features (Some (commas (map (fun o => bytes (gpu_name o)) l))) = Ok m /\
    is_mask 4 m /\ (forall o, Z.testbit m (gpu_bit o) = true <-> In o l) /\
    forall k, check_gpu_direct_rma m false k = Ok true /\
      (check_gpu_direct_rma m true k = Ok true <->
         In (match k with KPut => Gput | KGet => Gget end) l) /\
      (check_gpu_direct_rma m true k = Ok false <->
         ~ In (match k with KPut => Gput | KGet => Gget end) l /\ In Gpt2pt l).
Proof.
  intros Hl. destruct (gpu_listed l Hl) as (m & E & Hm & Hi). exists m.
  split; auto. split; auto. split; auto. intros k. split; auto.
  pose proof (Hi Gput) as P. pose proof (Hi Gget) as G. pose proof (Hi Gpt2pt) as Q.
  cbn [gpu_bit] in *. unfold check_gpu_direct_rma. cbn [negb].
  destruct k.
  - rewrite <- P, <- Q. destruct (Z.testbit m 1), (Z.testbit m 0); cbn; intuition congruence.
  - rewrite <- G, <- Q. destruct (Z.testbit m 2), (Z.testbit m 0); cbn; intuition congruence.
Qed.
Lemma span_fst s : ~ In 44 s -> fst (span_tok s) = s.
Proof.
  induction s as [|c s IH]; cbn; auto. intros H. unfold comma.
  assert (c =? 44 = false) as -> by lia. destruct (span_tok s) as [a b]. cbn in *. f_equal. tauto.
Qed.
Lemma env_same all s :
  starts (bytes "none") s \/ starts all s \/ ~ In 44 s -> env_after all s = s.
Proof.
  rewrite <- !prefixb_spec. unfold env_after.
  destruct (prefixb (bytes "none") s); auto. destruct (prefixb all s); auto.
  intros [? | [? | H]]; try discriminate. destruct s as [|c s]; auto. cbn in *. unfold comma.
  assert (c =? 44 = false) as -> by lia. f_equal. apply span_fst. tauto.
Qed.
