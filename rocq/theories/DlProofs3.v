(** What the bins hold, through insertion and removal, and the choice of a chunk. *)
From Coq Require Import Permutation.
From Verif Require Import Base BaseProofs SobjModel HeapModel DlModel DlSpec DlProofs DlProofs2.

Definition map32 (m : Z) : Prop := 0 <= m /\ forall n, 32 <= n -> Z.testbit m n = false.

Lemma map32_lt m : map32 m -> 0 <= m < 2 ^ 32.
Proof.
  intros [A B]. split; [exact A|]. destruct (Z.lt_ge_cases m (2 ^ 32)) as [L|L]; [exact L|].
  pose proof (Z.bit_log2 m ltac:(lia)) as T.
  assert (32 <= Z.log2 m) by (apply Z.log2_le_pow2; lia).
  rewrite B in T; easy.
Qed.

Lemma map32_lor m i : map32 m -> 0 <= i < 32 -> map32 (Z.lor m (2 ^ i)).
Proof.
  intros [A B] I. split; [apply Z.lor_nonneg; split; [easy|]; apply Z.pow_nonneg; lia|].
  intros n N. rewrite Z.lor_spec, B, Z.pow2_bits_false by lia. reflexivity.
Qed.

Lemma map32_ldiff m i : map32 m -> 0 <= i < 32 -> map32 (Z.ldiff m (2 ^ i)).
Proof.
  intros [A B] I. split; [apply Z.ldiff_nonneg; now left|].
  intros n N. rewrite Z.ldiff_spec, B by lia. reflexivity.
Qed.

Lemma lor_bit m i j : 0 <= i -> Z.testbit (Z.lor m (2 ^ i)) j = Z.testbit m j || (j =? i).
Proof. intros I. rewrite Z.lor_spec, Z.pow2_bits_eqb by lia. now rewrite (Z.eqb_sym j i). Qed.
Lemma ldiff_bit m i j : 0 <= i -> Z.testbit (Z.ldiff m (2 ^ i)) j = Z.testbit m j && negb (j =? i).
Proof. intros I. rewrite Z.ldiff_spec, Z.pow2_bits_eqb by lia. now rewrite (Z.eqb_sym j i). Qed.

(** ** Small bins *)
Definition pset := Z -> Z -> Prop.
Definition sl (f : Z -> list Z) (m i : Z) : list Z := if Z.testbit m i then f i else [].

Record SI (f : Z -> list Z) (m : Z) (P : pset) : Prop := {
  si_map : map32 m;
  si_nd : forall i, 0 <= i < 32 -> NoDup (sl f m i);
  si_in : forall i o, 0 <= i < 32 -> (In o (sl f m i) <-> P o (8 * i));
  si_ne : forall i, 0 <= i < 32 -> Z.testbit m i = true -> f i <> [] }.

(** ** Trees *)
Record TI (f : Z -> tree) (m : Z) (P : pset) : Prop := {
  ti_map : map32 m;
  ti_sh : forall i, 0 <= i < 32 -> shape (lev i) (pre_of i) (f i);
  ti_nd : forall i, 0 <= i < 32 -> NoDup (map fst (elems (f i)));
  ti_in : forall i o s, 0 <= i < 32 ->
    (In (o, s) (elems (f i)) <-> P o s /\ 256 <= s /\ tree_index s = i);
  ti_no : forall i, 0 <= i < 32 -> (f i = Leaf <-> Z.testbit m i = false) }.

Record BI (b : bins) (P : pset) : Prop := {
  bi_sz : forall o s, P o s -> okc s;
  bi_fun : forall o s s', P o s -> P o s' -> s = s';
  bi_s : SI (sb b) (smap b) P;
  bi_t : TI (tb b) (tmap b) P }.

Lemma BI_ext b P Q : (forall o s, P o s <-> Q o s) -> BI b P -> BI b Q.
Proof.
  intros E [B1 B2 [S1 S2 S3 S4] [T1 T2 T3 T4 T5]]. split; [| |split|split]; auto.
  - intros o s H. apply E in H. eauto.
  - intros o s s' H H'. apply E in H, H'. eauto.
  - intros i o I. rewrite <- E. auto.
  - intros i o s I. rewrite <- E. auto.
Qed.

Lemma BI_dv b P o s : BI (set_dv b o s) P <-> BI b P.
Proof. split; intros [B1 B2 B3 B4]; split; auto. Qed.

Lemma BI0 : BI bins0 (fun _ _ => False).
Proof.
  assert (map32 0). { split; [lia|]. intros n _. apply Z.bits_0. }
  split; [easy|easy|split|split]; auto; cbn; intros i *; unfold sl; rewrite ?Z.bits_0; cbn; try easy.
  - constructor.
  - constructor.
Qed.

Lemma okc_index s : okc s -> s < 256 -> 0 <= s / 8 < 32 /\ s = 8 * (s / 8).
Proof.
  intros [A [q D]] L. assert (E : s / 8 = 2 * q) by (symmetry; apply (Z.div_unique _ _ _ 0); lia).
  lia.
Qed.

Lemma is_small_lt s : is_small s = (s <? 256).
Proof.
  unfold is_small. destruct (Z.ltb_spec s 256) as [L|L].
  - apply Z.ltb_lt. apply Z.div_lt_upper_bound; lia.
  - apply Z.ltb_ge. apply Z.div_le_lower_bound; lia.
Qed.

(** Sizes of the other kind do not matter. *)
Lemma SI_large f m P Q : SI f m P -> (forall o s, s < 256 -> (P o s <-> Q o s)) -> SI f m Q.
Proof.
  intros [S1 S2 S3 S4] E. split; auto. intros i o I. rewrite <- E by lia. auto.
Qed.
Lemma TI_small f m P Q : TI f m P -> (forall o s, 256 <= s -> (P o s <-> Q o s)) -> TI f m Q.
Proof.
  intros [T1 T2 T3 T4 T5] E. split; auto. intros i o s I. rewrite T4 by exact I.
  split; intros (A & B & C); (split; [|split; [exact B|exact C]]); now apply E.
Qed.

Definition padd (P : pset) (o s : Z) : pset := fun x y => P x y \/ (x = o /\ y = s).
Definition pdel (P : pset) (o : Z) : pset := fun x y => P x y /\ x <> o.

(** ** Insertion *)
Lemma SI_insert b P o s : SI (sb b) (smap b) P -> okc s -> s < 256 -> (forall s', ~ P o s') ->
  SI (sb (insert_small b o s)) (smap (insert_small b o s)) (padd P o s).
Proof.
  intros [S1 S2 S3 S4] K L N. destruct (okc_index s K L) as [I E].
  unfold insert_small, small_index. set (i := s / 8) in *.
  destruct (Z.testbit (smap b) i) eqn:T; unfold set_sb, mark_small; cbn [sb smap].
  - split; auto.
    + intros j J. specialize (S2 j J). unfold sl in *. destruct (Z.testbit (smap b) j) eqn:Tj; [|constructor].
      destruct (Z.eqb_spec j i) as [->|]; [|exact S2].
      constructor; [|exact S2]. intros H. apply (N (8 * i)). apply S3; [exact I|]. unfold sl. now rewrite T.
    + intros j x J. specialize (S3 j x J). unfold padd. unfold sl in *.
      destruct (Z.eqb_spec j i) as [->|NE].
      * rewrite T in *. cbn [In]. rewrite S3. split; intros [H|H]; auto.
        left. symmetry. apply H.
      * rewrite S3. split; [auto|]. intros [H|H]; [exact H|lia].
    + intros j J Tj. destruct (Z.eqb_spec j i); [easy|auto].
  - split.
    + now apply map32_lor.
    + intros j J. specialize (S2 j J). unfold sl in *. rewrite lor_bit by lia.
      destruct (Z.eqb_spec j i) as [->|]; [rewrite orb_true_r; constructor; [easy|constructor]|].
      rewrite orb_false_r. exact S2.
    + intros j x J. specialize (S3 j x J). unfold padd. unfold sl in *. rewrite lor_bit by lia.
      destruct (Z.eqb_spec j i) as [->|NE].
      * rewrite T in S3. rewrite orb_true_r. cbn [In] in *. rewrite <- S3. split; [intros [H|[]]|intros [[]|H]].
        -- right. split; [now symmetry|lia].
        -- left. symmetry. apply H.
      * rewrite orb_false_r. rewrite S3. split; [auto|]. intros [H|H]; [exact H|lia].
    + intros j J Tj. rewrite lor_bit in Tj by lia. destruct (Z.eqb_spec j i); [easy|].
      rewrite orb_false_r in Tj. auto.
Qed.

Lemma shape_of i s : 256 <= s < 2 ^ 40 -> tree_index s = i -> s / 2 ^ Z.of_nat (lev i) = pre_of i.
Proof. intros H <-. now apply pre_ok. Qed.

Lemma TI_insert b P o s : TI (tb b) (tmap b) P -> okc s -> 256 <= s -> (forall s', ~ P o s') ->
  TI (tb (insert_large b o s)) (tmap (insert_large b o s)) (padd P o s).
Proof.
  intros [T1 T2 T3 T4 T5] [K D] L N. pose proof (tree_index_range s ltac:(lia)) as I.
  unfold insert_large. pose proof (shape_of (tree_index s) s ltac:(lia) eq_refl) as PR.
  remember (tree_index s) as i eqn:Ei.
  destruct (lev_ok i I) as [LV LS].
  destruct (Z.testbit (tmap b) i) eqn:T; unfold set_tb, mark_tree; cbn [tb tmap].
  - rewrite LS.
    destruct (t_insert_ok o s (tb b i) (lev i) (pre_of i)) as [SH PM]; [apply T2; lia|exact LV|lia|exact PR|].
    set (t' := t_insert _ _ _ _) in *.
    split; auto.
    + intros j J. destruct (Z.eqb_spec j i) as [->|]; [exact SH|auto].
    + intros j J. destruct (Z.eqb_spec j i) as [->|]; [|auto].
      apply (Permutation_NoDup (Permutation_map fst PM)). cbn. constructor; [|apply T3; lia].
      intros H. apply in_map_iff in H as ((x & y) & Q & H). cbn in Q. subst x.
      apply T4 in H as [H _]; [|lia]. now apply (N y).
    + intros j x y J. unfold padd. destruct (Z.eqb_spec j i) as [->|NE].
      * assert (Q : In (x, y) (elems t') <-> In (x, y) ((o, s) :: elems (tb b i))).
        { split; apply Permutation_in; [now symmetry|exact PM]. }
        rewrite Q. cbn [In]. rewrite T4 by lia. split.
        -- intros [H|H]; [injection H as <- <-|tauto]. split; [now right|]. split; [lia|now symmetry].
        -- intros [[H|[-> ->]] H']; [right|left]; tauto.
      * rewrite T4 by lia. split; [tauto|]. intros ([H|[-> ->]] & H1 & H2); [tauto|lia].
    + intros j J. destruct (Z.eqb_spec j i) as [->|]; [|auto].
      rewrite T. split; [|easy]. intros Q. rewrite Q in PM. cbn in PM.
      now apply Permutation_sym, Permutation_nil in PM.
  - assert (Q : tb b i = Leaf) by (apply T5; [lia|exact T]).
    split.
    + now apply map32_lor; [|lia].
    + intros j J. destruct (Z.eqb_spec j i) as [->|]; [|auto]. cbn. split; [exact PR|].
      destruct (lev i); now split.
    + intros j J. destruct (Z.eqb_spec j i) as [->|]; [|auto]. cbn. constructor; [easy|constructor].
    + intros j x y J. unfold padd. destruct (Z.eqb_spec j i) as [->|NE].
      * specialize (T4 i x y J). rewrite Q in T4. cbn in *. split.
        -- intros [H|[]]. injection H as <- <-. split; [now right|]. split; [lia|now symmetry].
        -- intros [[H|[-> ->]] H']; [|now left]. exfalso. tauto.
      * rewrite T4 by lia. split; [tauto|]. intros ([H|[-> ->]] & H1 & H2); [tauto|lia].
    + intros j J. rewrite lor_bit by lia. destruct (Z.eqb_spec j i) as [->|].
      * rewrite orb_true_r. easy.
      * rewrite orb_false_r. auto.
Qed.

Lemma insert_small_tree b o s : tb (insert_small b o s) = tb b /\ tmap (insert_small b o s) = tmap b.
Proof. unfold insert_small. destruct (Z.testbit _ _); auto. Qed.
Lemma insert_large_small b o s : sb (insert_large b o s) = sb b /\ smap (insert_large b o s) = smap b.
Proof. unfold insert_large. destruct (Z.testbit _ _); auto. Qed.
Lemma insert_chunk_dv b o s : dv (insert_chunk b o s) = dv b /\ dvs (insert_chunk b o s) = dvs b.
Proof.
  unfold insert_chunk, insert_small, insert_large.
  destruct (is_small s); destruct (Z.testbit _ _); auto.
Qed.

Lemma BI_insert b P o s : BI b P -> okc s -> (forall s', ~ P o s') ->
  BI (insert_chunk b o s) (padd P o s).
Proof.
  intros [B1 B2 B3 B4] K N. split.
  - intros x y [H|[-> ->]]; eauto.
  - intros x y y' [H|[-> ->]] [H'|[E ->]]; eauto; [subst|]; exfalso; eapply N; eauto.
  - unfold insert_chunk. rewrite is_small_lt. destruct (Z.ltb_spec s 256).
    + now apply SI_insert.
    + destruct (insert_large_small b o s) as [-> ->].
      apply (SI_large _ _ P); [exact B3|]. unfold padd. intros x y L. split; [auto|].
      intros [Q|Q]; [exact Q|lia].
  - unfold insert_chunk. rewrite is_small_lt. destruct (Z.ltb_spec s 256).
    + destruct (insert_small_tree b o s) as [-> ->].
      apply (TI_small _ _ P); [exact B4|]. unfold padd. intros x y L. split; [auto|].
      intros [Q|Q]; [exact Q|lia].
    + now apply TI_insert.
Qed.

(** ** Removal *)
Lemma SI_marked f m P i o : SI f m P -> 0 <= i < 32 -> P o (8 * i) -> Z.testbit m i = true /\ In o (f i).
Proof.
  intros [S1 S2 S3 S4] I H. apply S3 in H; [|exact I]. unfold sl in H.
  now destruct (Z.testbit m i).
Qed.

(** The list of bin [i] becomes [l'], one without [o]. *)
Lemma SI_set b P i o l' : SI (sb b) (smap b) P -> 0 <= i < 32 -> P o (8 * i) ->
  (forall s, P o s -> s = 8 * i) -> l' <> [] -> NoDup l' ->
  (forall x, In x l' <-> In x (sb b i) /\ x <> o) ->
  SI (sb (set_sb b i l')) (smap b) (pdel P o).
Proof.
  intros S I H F NE ND E. destruct (SI_marked _ _ _ _ _ S I H) as [M HI].
  destruct S as [S1 S2 S3 S4]. unfold set_sb. cbn [sb]. split; auto.
  - intros j J. specialize (S2 j J). unfold sl in *. destruct (Z.testbit (smap b) j); [|constructor].
    now destruct (Z.eqb_spec j i).
  - intros j x J. specialize (S3 j x J). unfold sl, pdel in *.
    destruct (Z.eqb_spec j i) as [->|NJ].
    + rewrite M in *. rewrite E, S3. tauto.
    + rewrite S3. split; [|tauto]. intros Q. split; [exact Q|]. intros ->. apply F in Q. lia.
  - intros j J Tj. destruct (Z.eqb_spec j i); auto.
Qed.

Lemma SI_clear b P i o : SI (sb b) (smap b) P -> 0 <= i < 32 -> P o (8 * i) ->
  (forall s, P o s -> s = 8 * i) -> sb b i = [o] ->
  SI (sb b) (smap (clear_small b i)) (pdel P o).
Proof.
  intros S I H F E. destruct (SI_marked _ _ _ _ _ S I H) as [M HI].
  destruct S as [S1 S2 S3 S4]. unfold clear_small. cbn [smap]. split.
  - now apply map32_ldiff.
  - intros j J. specialize (S2 j J). unfold sl in *. rewrite ldiff_bit by lia.
    destruct (Z.testbit (smap b) j), (j =? i); cbn; auto; constructor.
  - intros j x J. specialize (S3 j x J). unfold sl, pdel in *. rewrite ldiff_bit by lia.
    destruct (Z.eqb_spec j i) as [->|NJ]; cbn.
    + rewrite M in *. cbn. rewrite E in S3. cbn in S3. rewrite <- S3. split; [easy|].
      intros [[Q|[]] Q']. now apply Q'.
    + rewrite andb_true_r, S3. split; [|tauto]. intros Q. split; [exact Q|]. intros ->.
      apply F in Q. lia.
  - intros j J Tj. rewrite ldiff_bit in Tj by lia. apply andb_prop in Tj as [Tj _]. auto.
Qed.

Lemma in_without x l y : In y (without x l) <-> In y l /\ y <> x.
Proof.
  unfold without. rewrite filter_In. split; intros [A B]; (split; [exact A|]).
  - destruct (Z.eqb_spec y x); easy.
  - destruct (Z.eqb_spec y x); easy.
Qed.

Lemma SI_unlink b P o s : SI (sb b) (smap b) P -> okc s -> s < 256 -> P o s ->
  (forall s', P o s' -> s' = s) ->
  SI (sb (unlink_small b o s)) (smap (unlink_small b o s)) (pdel P o).
Proof.
  intros S K L H F. destruct (okc_index s K L) as [I E]. unfold unlink_small, small_index.
  set (i := s / 8) in *. rewrite E in H, F.
  destruct (SI_marked _ _ _ _ _ S I H) as [M HI].
  pose proof (si_nd _ _ _ S i I) as ND. unfold sl in ND. rewrite M in ND.
  destruct (sb b i) as [|x [|y l]] eqn:El; [easy| |].
  - destruct HI as [->|[]]. change (sb (clear_small b i)) with (sb b). now apply SI_clear.
  - change (smap (set_sb b i (without o (x :: y :: l)))) with (smap b).
    apply SI_set; auto.
    + intros Q. assert (A : ~ In x (without o (x :: y :: l))) by now rewrite Q.
      assert (B : ~ In y (without o (x :: y :: l))) by now rewrite Q.
      rewrite in_without in A, B. apply NoDup_cons_iff in ND as [N1 N2].
      cbn in A, B, N1. destruct (Z.eq_dec x o) as [E1|], (Z.eq_dec y o) as [E2|]; [|tauto|tauto|tauto].
      apply N1. left. congruence.
    + unfold without. now apply NoDup_filter.
    + intros z. rewrite El. apply in_without.
Qed.

Lemma TI_unlink b P o s : TI (tb b) (tmap b) P -> okc s -> 256 <= s -> P o s ->
  (forall s', P o s' -> s' = s) ->
  TI (tb (unlink_large b o s)) (tmap (unlink_large b o s)) (pdel P o).
Proof.
  intros [T1 T2 T3 T4 T5] [K D] L H F. pose proof (tree_index_range s ltac:(lia)) as I.
  unfold unlink_large. remember (tree_index s) as i eqn:Ei.
  assert (HI : In (o, s) (elems (tb b i))).
  { apply T4; [lia|]. split; [exact H|]. split; [exact L|now symmetry]. }
  destruct (t_unlink_perm o (tb b i)) as [s1 PM]; [apply T3; lia| |].
  { apply in_map_iff. now exists (o, s). }
  assert (s1 = s) as ->.
  { apply F. apply (T4 i); [lia|]. apply (Permutation_in _ (Permutation_sym PM)). now left. }
  pose proof (t_unlink_shape o (tb b i) (lev i) (pre_of i) (T2 i ltac:(lia))) as SH.
  set (t' := t_unlink o (tb b i)) in *.
  pose proof (T3 i ltac:(lia)) as ND. apply (Permutation_NoDup (Permutation_map fst PM)) in ND.
  cbn in ND. apply NoDup_cons_iff in ND as [N1 N2].
  assert (MI : Z.testbit (tmap b) i = true).
  { destruct (Z.testbit (tmap b) i) eqn:Q; [reflexivity|]. apply T5 in Q; [|lia].
    rewrite Q in HI. easy. }
  assert (G : forall j x y, 0 <= j < 32 ->
    (In (x, y) (elems (if j =? i then t' else tb b j)) <-> pdel P o x y /\ 256 <= y /\ tree_index y = j)).
  { intros j x y J. unfold pdel. destruct (Z.eqb_spec j i) as [->|NE].
    - assert (Q : In (x, y) (elems (tb b i)) <-> In (x, y) ((o, s) :: elems t')).
      { split; apply Permutation_in; [exact PM|now symmetry]. }
      rewrite T4 in Q by lia. cbn [In] in Q. split.
      + intros Hx. assert (x <> o).
        { intros ->. apply N1. apply in_map_iff. now exists (o, y). }
        tauto.
      + intros ((A & B) & C). destruct (proj1 Q) as [W|W]; [tauto| |exact W].
        injection W as <- <-. easy.
    - rewrite T4 by lia. split; [|tauto]. intros (A & B & C). split; [|tauto].
      split; [exact A|]. intros ->. apply F in A. subst y. lia. }
  destruct t' as [|o' s' g' l' r'] eqn:Et'; unfold clear_tree, set_tb; cbn [tb tmap].
  - split.
    + apply map32_ldiff; [exact T1|lia].
    + intros j J. destruct (Z.eqb_spec j i) as [->|]; [exact SH|auto].
    + intros j J. destruct (Z.eqb_spec j i) as [->|]; [exact N2|auto].
    + exact G.
    + intros j J. rewrite ldiff_bit by lia. destruct (Z.eqb_spec j i) as [->|].
      * now rewrite andb_false_r.
      * rewrite andb_true_r. auto.
  - split.
    + exact T1.
    + intros j J. destruct (Z.eqb_spec j i) as [->|]; [exact SH|auto].
    + intros j J. destruct (Z.eqb_spec j i) as [->|]; [exact N2|auto].
    + exact G.
    + intros j J. destruct (Z.eqb_spec j i) as [->|]; [|auto]. now rewrite MI.
Qed.

Lemma unlink_small_tree b o s : tb (unlink_small b o s) = tb b /\ tmap (unlink_small b o s) = tmap b.
Proof. unfold unlink_small. destruct (sb b _) as [|x [|y l]]; auto. Qed.
Lemma unlink_large_small b o s : sb (unlink_large b o s) = sb b /\ smap (unlink_large b o s) = smap b.
Proof. unfold unlink_large. destruct (t_unlink _ _); auto. Qed.
Lemma unlink_chunk_dv b o s : dv (unlink_chunk b o s) = dv b /\ dvs (unlink_chunk b o s) = dvs b.
Proof.
  unfold unlink_chunk, unlink_small, unlink_large.
  destruct (is_small s); [destruct (sb b _) as [|x [|y l]]|destruct (t_unlink _ _)]; auto.
Qed.

Lemma BI_unlink b P o s : BI b P -> P o s -> BI (unlink_chunk b o s) (pdel P o).
Proof.
  intros [B1 B2 B3 B4] H. pose proof (B1 _ _ H) as K.
  assert (F : forall s', P o s' -> s' = s) by (intros s' H'; eauto).
  split.
  - intros x y [Q _]. eauto.
  - intros x y y' [Q _] [Q' _]. eauto.
  - unfold unlink_chunk. rewrite is_small_lt. destruct (Z.ltb_spec s 256).
    + now apply SI_unlink.
    + destruct (unlink_large_small b o s) as [-> ->].
      apply (SI_large _ _ P); [exact B3|]. unfold pdel. intros x y L. split; [|tauto].
      intros Q. split; [exact Q|]. intros ->. apply F in Q. lia.
  - unfold unlink_chunk. rewrite is_small_lt. destruct (Z.ltb_spec s 256).
    + destruct (unlink_small_tree b o s) as [-> ->].
      apply (TI_small _ _ P); [exact B4|]. unfold pdel. intros x y L. split; [|tauto].
      intros Q. split; [exact Q|]. intros ->. apply F in Q. lia.
    + now apply TI_unlink.
Qed.

Lemma BI_unlink_large b P o s : BI b P -> P o s -> 256 <= s -> BI (unlink_large b o s) (pdel P o).
Proof.
  intros B H L. pose proof (BI_unlink b P o s B H) as R. unfold unlink_chunk in R.
  rewrite is_small_lt in R. destruct (Z.ltb_spec s 256); [lia|exact R].
Qed.

Lemma unlink_large_dv b o s : dv (unlink_large b o s) = dv b /\ dvs (unlink_large b o s) = dvs b.
Proof. unfold unlink_large. destruct (t_unlink _ _); auto. Qed.
Lemma unlink_first_dv b i : dv (unlink_first_small b i) = dv b /\ dvs (unlink_first_small b i) = dvs b.
Proof. unfold unlink_first_small. destruct (sb b i) as [|x [|y l]]; auto. Qed.

(** The first chunk of a marked bin. *)
Lemma BI_first b P i : BI b P -> 0 <= i < 32 -> Z.testbit (smap b) i = true ->
  exists o l, sb b i = o :: l /\ P o (8 * i) /\ BI (unlink_first_small b i) (pdel P o).
Proof.
  intros [B1 B2 B3 B4] I M. pose proof (si_ne _ _ _ B3 i I M) as NE.
  pose proof (si_nd _ _ _ B3 i I) as ND. unfold sl in ND. rewrite M in ND.
  destruct (sb b i) as [|o l] eqn:El; [easy|]. exists o, l. split; [reflexivity|].
  assert (H : P o (8 * i)).
  { apply (si_in _ _ _ B3 i); [exact I|]. unfold sl. rewrite M, El. now left. }
  split; [exact H|]. pose proof (B1 _ _ H) as K.
  assert (F : forall s', P o s' -> s' = 8 * i) by (intros s' H'; eauto).
  split.
  - intros x y [Q _]. eauto.
  - intros x y y' [Q _] [Q' _]. eauto.
  - unfold unlink_first_small. rewrite El. destruct l as [|y l].
    + change (sb (clear_small b i)) with (sb b). now apply SI_clear.
    + change (smap (set_sb b i (y :: l))) with (smap b). apply NoDup_cons_iff in ND as [N1 N2].
      apply SI_set; auto; [easy|]. intros z. rewrite El. cbn in *. split.
      * intros Q. split; [tauto|]. intros ->. tauto.
      * intros [[Q|Q] Q']; [now elim Q'|exact Q].
  - assert (E : tb (unlink_first_small b i) = tb b /\ tmap (unlink_first_small b i) = tmap b).
    { unfold unlink_first_small. destruct (sb b i) as [|? [|? ?]]; auto. }
    destruct E as [-> ->].
    apply (TI_small _ _ P); [exact B4|]. unfold pdel. intros x y L. split; [|tauto].
    intros Q. split; [exact Q|]. intros ->. apply F in Q. lia.
Qed.

(** ** The search *)
Lemma walk_none nb bits t : forall v rs rst, 0 < nb < 2 ^ 64 -> rs = 2 ^ 64 - nb ->
  (forall o s, In (o, s) (elems t) -> 0 <= s < nb) ->
  exists t', walk nb bits t v rs rst = (v, rs, t') /\ (incl (elems t') (elems t) \/ t' = rst).
Proof.
  revert bits. induction t as [|o s ring l IHl r IHr]; intros bits v rs rst N R A.
  - exists rst. split; [reflexivity|now right].
  - cbn [walk]. assert (S : 0 <= s < nb) by (apply (A o); now left).
    unfold better. rewrite wrap_sub by lia. destruct (s <? nb) eqn:E; [|lia].
    destruct (2 ^ 64 + s - nb <? rs) eqn:E2; [lia|]. cbn [andb].
    destruct (top_bit bits).
    + destruct (IHr (wrap64 (2 * bits)) v rs rst N R) as (t' & W & G).
      { intros o1 s1 K. apply (A o1). cbn. rewrite !in_app_iff. tauto. }
      exists t'. split; [exact W|]. destruct G as [G|G]; [left|now right].
      intros x K. apply G in K. cbn. rewrite !in_app_iff. tauto.
    + destruct (IHl (wrap64 (2 * bits)) v rs (match r with Leaf => rst | _ => r end) N R) as (t' & W & G).
      { intros o1 s1 K. apply (A o1). cbn. rewrite !in_app_iff. tauto. }
      exists t'. split; [exact W|]. destruct G as [G|G].
      * left. intros x K. apply G in K. cbn. rewrite !in_app_iff. tauto.
      * destruct r as [|o2 s2 g2 l2 r2]; [now right|]. left. subst t'.
        intros x K. cbn [elems]. right. rewrite !in_app_iff. tauto.
Qed.

Lemma smallest_none nb t : forall v rs, 0 < nb < 2 ^ 64 -> rs = 2 ^ 64 - nb ->
  (forall o s, In (o, s) (elems t) -> 0 <= s < nb) -> smallest nb t v rs = (v, rs).
Proof.
  induction t as [|o s ring l IHl r IHr]; intros v rs N R A; [reflexivity|].
  cbn [smallest]. assert (S : 0 <= s < nb) by (apply (A o); now left).
  unfold better. rewrite wrap_sub by lia. destruct (s <? nb) eqn:E; [|lia].
  destruct (2 ^ 64 + s - nb <? rs) eqn:E2; [lia|].
  destruct l.
  - apply IHr; auto. intros o1 s1 K. apply (A o1). cbn. rewrite in_app_iff. tauto.
  - apply IHl; auto. intros o1 s1 K. apply (A o1). cbn [elems]. right. rewrite !in_app_iff. tauto.
Qed.

(** The best chunk for [nb] among [P]. *)
Definition fits_best (P : pset) (nb o s : Z) : Prop :=
  P o s /\ nb <= s /\ forall o' s', P o' s' -> nb <= s' -> s <= s'.

Lemma tree_large b P nb : BI b P -> 256 <= nb < 2 ^ 64 ->
  let '(v, rs, t) := walk nb (wrap64 (nb * 2 ^ leftshift (tree_index nb)))
                       (tb b (tree_index nb)) None (wrap64 (- nb)) Leaf in
  let t := match t, v with
           | Leaf, None =>
               let lb := Z.land (left_bits (2 ^ tree_index nb)) (tmap b) in
               if lb =? 0 then Leaf else tb b (bit2idx (least_bit lb))
           | _, _ => t
           end in
  let '(v, rs) := smallest nb t v rs in
  match v with
  | Some (o, s) => fits_best P nb o s /\ 256 <= s /\ rs = s - nb
  | None => forall o s, P o s -> s < nb
  end.
Proof.
  intros [B1 B2 _ [T1 T2 T3 T4 T5]] N.
  assert (R0 : wrap64 (- nb) = 2 ^ 64 - nb).
  { unfold wrap64. symmetry. apply (Z.mod_unique _ _ (-1)); lia. }
  rewrite R0.
  destruct (Z.lt_ge_cases nb (2 ^ 40)) as [NL|NL].
  2:{ assert (LT : forall o s, P o s -> s < nb).
      { intros o s H. apply B1 in H as [H _]. lia. }
      destruct (Z.lt_ge_cases (tree_index nb) 32) as [IL|IL].
      2:{ unfold tree_index in IL. pose proof (Z.mod_pos_bound (nb / 256) (2 ^ 32) ltac:(lia)) as MB.
          fold (wrap32 (nb / 256)) in MB.
          destruct (_ =? 0) in IL; [lia|]. destruct (65535 <? wrap32 (nb / 256)) eqn:E in IL; [lia|].
          pose proof (Z.log2_le_mono (wrap32 (nb / 256)) 65535 ltac:(lia)) as LM.
          change (Z.log2 65535) with 15 in LM.
          pose proof (Z.mod_pos_bound (nb / 2 ^ (Z.log2 (wrap32 (nb / 256)) + 7)) 2 ltac:(lia)). lia. }
      assert (IG : 0 <= tree_index nb).
      { unfold tree_index. destruct (_ =? 0); [lia|]. destruct (65535 <? _); [lia|].
        pose proof (Z.log2_nonneg (wrap32 (nb / 256))).
        pose proof (Z.mod_pos_bound (nb / 2 ^ (Z.log2 (wrap32 (nb / 256)) + 7)) 2 ltac:(lia)). lia. }
      assert (AL : forall i o s, 0 <= i < 32 -> In (o, s) (elems (tb b i)) -> 0 <= s < nb).
      { intros i o s I H. apply T4 in H as (H & L & _); [|exact I]. apply LT in H. lia. }
      destruct (walk_none nb (wrap64 (nb * 2 ^ leftshift (tree_index nb))) (tb b (tree_index nb))
                  None (2 ^ 64 - nb) Leaf ltac:(lia) eq_refl) as (t' & W & G).
      { intros o s. apply AL. lia. }
      rewrite W.
      assert (A' : forall o s, In (o, s) (elems t') -> 0 <= s < nb).
      { intros o s K. destruct G as [G| ->]; [|easy]. apply G in K. eapply AL; [|exact K]. lia. }
      assert (A2 : forall lb, 0 <= lb < 2 ^ 32 -> forall o s,
        In (o, s) (elems (match t', @None (Z * Z) with
           | Leaf, None => if lb =? 0 then Leaf else tb b (bit2idx (least_bit lb))
           | _, _ => t' end)) -> 0 <= s < nb).
      { intros lb LB o s K. destruct t' as [|]; [|eauto]. destruct (Z.eqb_spec lb 0); [easy|].
        destruct (least_bit_ok lb) as (i & Q & I & _); [lia|]. rewrite Q in K. eapply AL; [|exact K]. lia. }
      set (lb := Z.land _ _) in *. cbn zeta in A2.
      assert (LB : 0 <= lb < 2 ^ 32).
      { apply land_range; [|apply map32_lt; exact T1]. unfold left_bits. apply Z.lor_nonneg.
        split; apply Z.mod_pos_bound; lia. }
      specialize (A2 lb LB). cbn zeta.
      rewrite smallest_none; [exact LT|lia|reflexivity|exact A2]. }
  pose proof (tree_index_range nb ltac:(lia)) as I.
  destruct (lev_ok _ I) as [LV LS]. rewrite LS.
  set (i := tree_index nb) in *.
  assert (AL : forall j o s, 0 <= j < 32 -> In (o, s) (elems (tb b j)) ->
    P o s /\ 256 <= s < 2 ^ 40 /\ tree_index s = j).
  { intros j o s J H. apply T4 in H as (H & L & X); [|exact J]. pose proof (B1 _ _ H) as [K _]. lia || (split; [exact H|]; split; [lia|exact X]). }
  destruct (walk nb _ (tb b i) None (2 ^ 64 - nb) Leaf) as [[v rs] t] eqn:W.
  apply (walk_ok nb (tb b i) (lev i) (pre_of i) []) in W;
    [|lia|exact LV|apply T2; lia|now apply shape_of; [lia|]| |split; [reflexivity|easy]|easy|].
  2:{ intros o s K. destruct (AL i o s ltac:(lia) K) as (_ & ? & _). lia. }
  2:{ now exists 0%nat, 0. }
  cbn [app] in W.
  (* every fitting chunk outside tree i is larger than all of tree i *)
  assert (OUT : forall o s, P o s -> nb <= s -> tree_index s = i \/
      (i < tree_index s <= 31 /\ forall o' s', In (o', s') (elems (tb b i)) -> s' < s)).
  { intros o s H L. pose proof (B1 _ _ H) as [K _].
    pose proof (tree_index_mono nb s ltac:(lia) L ltac:(lia)) as M. fold i in M.
    pose proof (tree_index_range s ltac:(lia)) as R.
    destruct (Z.eq_dec (tree_index s) i) as [E|E]; [now left|]. right. split; [lia|].
    intros o' s' H'. destruct (AL i o' s' ltac:(lia) H') as (_ & S' & X).
    apply tree_index_lt; lia. }
  assert (INI : forall o s, P o s -> nb <= s -> tree_index s = i -> In (o, s) (elems (tb b i))).
  { intros o s H L E. apply T4; [lia|]. split; [exact H|]. split; [lia|exact E]. }
  destruct W as [(-> & o & -> & HI)|(F & F1 & F2 & F3 & F4 & F5 & F6)].
  - assert (S : smallest nb t (Some (o, nb)) 0 = (Some (o, nb), 0)) by apply smallest_zero.
    destruct t; cbn zeta; rewrite S; (split; [|split; [lia|lia]]);
      (split; [apply (AL i o nb ltac:(lia) HI)|]); (split; [lia|]); intros; lia.
  - rewrite app_nil_r in F3, F4.
    destruct F6 as (j' & p' & SH).
    (* the best of tree i *)
    assert (BEST : forall v' rs', smallest nb t v rs = (v', rs') -> best nb (elems (tb b i)) v' rs').
    { intros v' rs' Q. apply (smallest_ok nb t j' p' F) in Q; [|lia|exact SH|exact F5|exact F1].
      apply (best_covers nb _ _ _ _ Q); [|exact F4].
      intros x K. apply in_app_or in K as [K|K]; [now apply F2|now apply F3]. }
    assert (DONE : forall v' rs', best nb (elems (tb b i)) (Some v') rs' ->
      let '(o, s) := v' in fits_best P nb o s /\ 256 <= s /\ rs' = s - nb).
    { intros [o s] rs' (H1 & H2 & H3 & H4). destruct (AL i o s ltac:(lia) H1) as (H5 & H6 & H7).
      split; [|split; [lia|exact H3]]. split; [exact H5|]. split; [lia|].
      intros o' s' P' L'. destruct (OUT o' s' P' L') as [E|[_ E]].
      - apply (H4 o'); [|exact L']. now apply INI.
      - specialize (E o s H1). lia. }
    assert (CASE : (t = Leaf /\ v = None) \/
      (match t, v with
       | Leaf, None => let lb := Z.land (left_bits (2 ^ i)) (tmap b) in
                       if lb =? 0 then Leaf else tb b (bit2idx (least_bit lb))
       | _, _ => t end = t /\ ~ (t = Leaf /\ v = None))).
    { destruct t; [destruct v as [[? ?]|]|]; [right|left|right]; (split; [reflexivity|]); try easy; now intros [? ?]. }
    destruct CASE as [[-> ->]|[Et NT]].
    + cbn zeta. specialize (BEST None rs eq_refl). cbn in BEST. destruct BEST as [-> NB].
      set (lb := Z.land _ _).
      assert (LR : 0 <= lb < 2 ^ 32).
      { apply land_range; [|apply map32_lt; exact T1]. unfold left_bits. apply Z.lor_nonneg.
        split; apply Z.mod_pos_bound; lia. }
      assert (LBIT : forall n, 0 <= n < 32 -> Z.testbit lb n = (i <? n) && Z.testbit (tmap b) n).
      { intros n Hn. unfold lb. rewrite Z.land_spec, left_bits_bit by lia. reflexivity. }
      assert (NOI : forall o s, P o s -> nb <= s -> i < tree_index s <= 31).
      { intros o s H L. destruct (OUT o s H L) as [E|[E _]]; [|exact E].
        specialize (NB o s (INI o s H L E)). lia. }
      assert (MK : forall o s, P o s -> nb <= s -> Z.testbit lb (tree_index s) = true).
      { intros o s H L. pose proof (NOI o s H L) as R. rewrite LBIT by lia.
        destruct (i <? tree_index s) eqn:E1; [|lia]. cbn.
        destruct (Z.testbit (tmap b) (tree_index s)) eqn:E2; [reflexivity|].
        apply T5 in E2; [|lia]. assert (Q : In (o, s) (elems (tb b (tree_index s)))).
        { apply T4; [lia|]. split; [exact H|]. split; [lia|reflexivity]. }
        rewrite E2 in Q. easy. }
      destruct (Z.eqb_spec lb 0) as [Z0|Z0].
      * cbn [smallest]. intros o s H. destruct (Z.lt_ge_cases s nb) as [L|L]; [exact L|].
        specialize (MK o s H L). rewrite Z0, Z.bits_0 in MK. easy.
      * destruct (least_bit_ok lb) as (j & Ej & J & Bj & Lj); [lia|]. rewrite Ej.
        rewrite LBIT in Bj by lia. apply andb_prop in Bj as [Bj1 Bj2].
        assert (GE : forall o s, In (o, s) (elems (tb b j)) -> nb <= s < 2 ^ 64).
        { intros o s K. destruct (AL j o s J K) as (_ & S1 & S2). split; [|lia].
          apply Z.lt_le_incl. apply tree_index_lt; lia. }
        destruct (smallest nb (tb b j) None (2 ^ 64 - nb)) as [v' rs'] eqn:Q.
        apply (smallest_ok nb (tb b j) (lev j) (pre_of j) []) in Q;
          [|lia|apply T2; lia|exact GE|split; [reflexivity|easy]].
        cbn [app] in Q. destruct v' as [[o s]|]; cbn in Q.
        -- destruct Q as (H1 & H2 & H3 & H4). destruct (AL j o s J H1) as (H5 & H6 & H7).
           split; [|split; [lia|exact H3]]. split; [exact H5|]. split; [lia|].
           intros o' s' P' L'. pose proof (NOI o' s' P' L') as R'.
           pose proof (B1 _ _ P') as [K' _].
           destruct (Z.lt_trichotomy (tree_index s') j) as [C|[C|C]].
           ++ pose proof (MK o' s' P' L') as X. rewrite Lj in X; [easy|lia].
           ++ apply (H4 o'); [|exact L']. apply T4; [exact J|]. split; [exact P'|]. split; [lia|exact C].
           ++ apply Z.lt_le_incl. apply tree_index_lt; lia.
        -- destruct Q as [_ Q]. exfalso.
           destruct (tb b j) as [|o s g l r] eqn:Et.
           ++ apply T5 in Et; [|exact J]. congruence.
           ++ specialize (Q o s ltac:(now left)). destruct (GE o s ltac:(now left)). lia.
    + cbn zeta in Et |- *. rewrite Et.
      destruct (smallest nb t v rs) as [v' rs'] eqn:Q. specialize (BEST v' rs' eq_refl).
      destruct v' as [[o s]|].
      * now apply (DONE (o, s)).
      * cbn in BEST. destruct BEST as [-> NB]. exfalso.
        (* the walk left something *)
        destruct v as [[o s]|].
        -- cbn in F1. destruct F1 as (H1 & H2 & _). specialize (NB o s).
           specialize (F2 _ H1). specialize (NB F2). lia.
        -- destruct t as [|o s g l r]; [now apply NT|].
           specialize (F5 o s ltac:(now left)). specialize (NB o s).
           specialize (F3 (o, s) ltac:(now left)). specialize (NB F3). lia.
Qed.

(** The choice for a large request: the best chunk, unless dv is as good. *)
Lemma tmalloc_large_ok b P nb : BI b P -> 256 <= nb < 2 ^ 64 -> 0 <= dvs b < 2 ^ 40 ->
  match tmalloc_large b nb with
  | Some (o, s) => fits_best P nb o s /\ 256 <= s /\ (dvs b < nb \/ s < dvs b)
  | None => forall o s, P o s -> nb <= s -> nb <= dvs b <= s
  end.
Proof.
  intros B N D. pose proof (tree_large b P nb B N) as G. unfold tmalloc_large.
  destruct (walk nb _ _ None _ Leaf) as [[v rs] t]. cbn zeta in *.
  set (t2 := match t with Leaf => _ | _ => _ end) in *.
  destruct (smallest nb t2 v rs) as [v' rs'].
  destruct v' as [[o s]|].
  - destruct G as (G1 & G2 & G3). pose proof (bi_sz _ _ B _ _ (proj1 G1)) as [K _].
    pose proof (proj1 (proj2 G1)) as L.
    rewrite wrap_sub by lia. destruct (dvs b <? nb) eqn:E.
    + destruct (rs' <? 2 ^ 64 + dvs b - nb) eqn:E2; [|lia].
      split; [exact G1|]. split; [exact G2|lia].
    + destruct (rs' <? dvs b - nb) eqn:E2.
      * split; [exact G1|]. split; [exact G2|lia].
      * intros o' s' P' L'. pose proof (proj2 (proj2 G1) o' s' P' L'). lia.
  - intros o s H L. specialize (G o s H). lia.
Qed.

Lemma tmalloc_small_ok b P nb : BI b P -> 0 < nb < 256 -> tmap b <> 0 ->
  exists o s, tmalloc_small b nb = Some (o, s) /\ P o s /\ 256 <= s /\
  forall o' s', P o' s' -> 256 <= s' -> s <= s'.
Proof.
  intros [B1 B2 _ [T1 T2 T3 T4 T5]] N NZ. pose proof (map32_lt _ T1) as R.
  destruct (least_bit_ok (tmap b)) as (j & Ej & J & Bj & Lj); [lia|].
  unfold tmalloc_small. rewrite Ej.
  assert (AL : forall i o s, 0 <= i < 32 -> In (o, s) (elems (tb b i)) ->
    P o s /\ 256 <= s < 2 ^ 40 /\ tree_index s = i).
  { intros i o s I H. apply T4 in H as (H & L & X); [|exact I]. pose proof (B1 _ _ H) as [K _].
    split; [exact H|]. split; [lia|exact X]. }
  destruct (tb b j) as [|o s g l r] eqn:Et.
  { apply T5 in Et; [|exact J]. congruence. }
  assert (GE : forall o s, In (o, s) (elems (tb b j)) -> nb <= s < 2 ^ 64).
  { intros o1 s1 K. destruct (AL j o1 s1 J K) as (_ & S1 & _). lia. }
  assert (Q : exists v' rs', smallest nb (tb b j) None (2 ^ 64 - nb) = (v', rs') /\
    fst (smallest nb (match l with Leaf => r | _ => l end) (Some (o, s)) (wrap64 (s - nb))) = v').
  { rewrite Et. cbn [smallest]. unfold better.
    assert (S : nb <= s < 2 ^ 64) by (apply (GE o); rewrite Et; now left).
    rewrite wrap_sub by lia. destruct (s <? nb) eqn:E; [lia|].
    destruct (s - nb <? 2 ^ 64 - nb) eqn:E2; [|lia].
    destruct l; destruct (smallest nb _ _ _) as [v' rs'] eqn:Q; exists v', rs'; (split; [reflexivity|]);
      reflexivity. }
  destruct Q as (v' & rs' & Q & ->).
  apply (smallest_ok nb (tb b j) (lev j) (pre_of j) []) in Q;
    [|lia|apply T2; lia|exact GE|split; [reflexivity|easy]].
  cbn [app] in Q. destruct v' as [[o' s']|]; cbn in Q.
  2:{ destruct Q as [_ Q]. specialize (Q o s). rewrite Et in Q. specialize (Q ltac:(now left)).
      destruct (GE o s); [rewrite Et; now left|lia]. }
  destruct Q as (H1 & H2 & H3 & H4). destruct (AL j o' s' J H1) as (H5 & H6 & H7).
  exists o', s'. split; [reflexivity|]. split; [exact H5|]. split; [lia|].
  intros o2 s2 P2 L2. pose proof (B1 _ _ P2) as [K2 _].
  pose proof (tree_index_range s2 ltac:(lia)) as R2.
  destruct (Z.lt_trichotomy (tree_index s2) j) as [C|[C|C]].
  - exfalso. specialize (Lj (tree_index s2) ltac:(lia)). apply T5 in Lj; [|lia].
    assert (X : In (o2, s2) (elems (tb b (tree_index s2)))).
    { apply T4; [lia|]. split; [exact P2|]. split; [exact L2|reflexivity]. }
    rewrite Lj in X. easy.
  - apply (H4 o2); [|lia]. apply T4; [exact J|]. split; [exact P2|]. split; [exact L2|exact C].
  - apply Z.lt_le_incl. apply tree_index_lt; lia.
Qed.

(** No tree is marked: no chunk of 256 bytes or more. *)
Lemma tmap_zero b P : BI b P -> tmap b = 0 -> forall o s, P o s -> s < 256.
Proof.
  intros [B1 B2 _ [T1 T2 T3 T4 T5]] Z0 o s H. destruct (Z.lt_ge_cases s 256) as [L|L]; [exact L|].
  pose proof (B1 _ _ H) as [K _]. pose proof (tree_index_range s ltac:(lia)) as R.
  assert (Q : tb b (tree_index s) = Leaf) by (apply T5; [lia|]; rewrite Z0; apply Z.bits_0).
  assert (X : In (o, s) (elems (tb b (tree_index s)))).
  { apply T4; [lia|]. split; [exact H|]. split; [exact L|reflexivity]. }
  rewrite Q in X. easy.
Qed.

(** Small bins by the map. *)
Lemma smap_bit b P i : BI b P -> 0 <= i < 32 ->
  (Z.testbit (smap b) i = true <-> exists o, P o (8 * i)).
Proof.
  intros [B1 B2 [S1 S2 S3 S4] _] I. split.
  - intros M. specialize (S4 i I M). destruct (sb b i) as [|o l] eqn:E; [easy|]. exists o.
    apply S3; [exact I|]. unfold sl. rewrite M, E. now left.
  - intros [o H]. apply S3 in H; [|exact I]. unfold sl in H. now destruct (Z.testbit (smap b) i).
Qed.
