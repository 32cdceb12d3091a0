(** Indices, bit maps and the search through the trees. *)
From Coq Require Import Permutation.
From Verif Require Import Base BaseProofs SobjModel HeapModel DlModel DlSpec DlProofs.

Definition okc (s : Z) : Prop := 32 <= s < 2 ^ 40 /\ (16 | s).

(** ** The index of a tree *)
Lemma tree_index_small s : 256 <= s < 2 ^ 24 ->
  let k := Z.log2 s - 8 in
  tree_index s = 2 * k + s / 2 ^ (k + 7) - 2 /\ 0 <= k <= 15 /\ 2 <= s / 2 ^ (k + 7) <= 3.
Proof.
  intros H k.
  assert (L : Z.log2 (s / 256) = k).
  { unfold k. change 256 with (2 ^ 8). rewrite <- Z.shiftr_div_pow2 by lia.
    rewrite Z.log2_shiftr by lia. rewrite Z.max_r; [reflexivity|].
    pose proof (Z.log2_le_mono 256 s). change (Z.log2 256) with 8 in H0. lia. }
  assert (X : 1 <= s / 256 <= 65535).
  { split; [apply Z.div_le_lower_bound; lia|].
    apply Z.lt_succ_r. apply Z.div_lt_upper_bound; lia. }
  assert (K : 0 <= k <= 15).
  { rewrite <- L. split; [apply Z.log2_nonneg|].
    pose proof (Z.log2_le_mono (s / 256) 65535). change (Z.log2 65535) with 15 in H0. lia. }
  assert (D : 2 <= s / 2 ^ (k + 7) <= 3).
  { pose proof (Z.log2_spec s ltac:(lia)) as [A B].
    replace (Z.log2 s) with (k + 7 + 1) in A by (unfold k; lia).
    replace (Z.succ (Z.log2 s)) with (k + 7 + 2) in B by (unfold k; lia).
    rewrite Z.pow_add_r in A by lia. rewrite Z.pow_add_r in B by lia.
    change (2 ^ 1) with 2 in A. change (2 ^ 2) with 4 in B.
    assert (0 < 2 ^ (k + 7)) by (apply Z.pow_pos_nonneg; lia).
    split; [apply Z.div_le_lower_bound; lia|].
    apply Z.lt_succ_r. apply Z.div_lt_upper_bound; lia. }
  split; [|split; assumption].
  unfold tree_index.
  replace (wrap32 (s / 256)) with (s / 256).
  2:{ symmetry. apply Z.mod_small. lia. }
  destruct (s / 256 =? 0) eqn:E0; [lia|].
  destruct (65535 <? s / 256) eqn:E1; [lia|].
  rewrite L.
  assert (M : (s / 2 ^ (k + 7)) mod 2 = s / 2 ^ (k + 7) - 2).
  { symmetry. apply (Z.mod_unique_pos _ _ 1); lia. }
  rewrite M. lia.
Qed.

Lemma tree_index_large s : 2 ^ 24 <= s < 2 ^ 40 -> tree_index s = 31.
Proof.
  intros H. unfold tree_index.
  assert (X : 65536 <= s / 256 < 2 ^ 32).
  { split; [apply Z.div_le_lower_bound; lia|apply Z.div_lt_upper_bound; lia]. }
  replace (wrap32 (s / 256)) with (s / 256).
  2:{ symmetry. apply Z.mod_small. lia. }
  destruct (s / 256 =? 0) eqn:E0; [lia|].
  destruct (65535 <? s / 256) eqn:E1; [reflexivity|lia].
Qed.

Lemma tree_index_range s : 256 <= s < 2 ^ 40 -> 0 <= tree_index s <= 31.
Proof.
  intros H. destruct (Z.lt_ge_cases s (2 ^ 24)) as [L|L].
  - destruct (tree_index_small s) as (E & K & D); [lia|]. rewrite E. lia.
  - rewrite tree_index_large by lia. lia.
Qed.

Lemma tree_index_mono s s' : 256 <= s -> s <= s' -> s' < 2 ^ 40 -> tree_index s <= tree_index s'.
Proof.
  intros H1 H2 H3. destruct (Z.lt_ge_cases s' (2 ^ 24)) as [L|L].
  - destruct (tree_index_small s) as (E & K & D); [lia|].
    destruct (tree_index_small s') as (E' & K' & D'); [lia|].
    rewrite E, E'.
    assert (LL : Z.log2 s <= Z.log2 s') by (apply Z.log2_le_mono; lia).
    destruct (Z.eq_dec (Z.log2 s) (Z.log2 s')) as [Q|Q]; [|lia].
    rewrite Q in *.
    assert (s / 2 ^ (Z.log2 s' - 8 + 7) <= s' / 2 ^ (Z.log2 s' - 8 + 7)).
    { apply Z.div_le_mono; [apply Z.pow_pos_nonneg; lia|lia]. }
    lia.
  - rewrite (tree_index_large s') by lia. apply tree_index_range. lia.
Qed.

Lemma tree_index_lt s s' : 256 <= s < 2 ^ 40 -> 256 <= s' < 2 ^ 40 ->
  tree_index s < tree_index s' -> s < s'.
Proof.
  intros H1 H2 L. destruct (Z.lt_ge_cases s s') as [Q|Q]; [exact Q|].
  pose proof (tree_index_mono s' s). lia.
Qed.

(** Number of bits below the common prefix of the sizes of tree [i], and the prefix. *)
Definition lev (i : Z) : nat := if i =? 31 then 64%nat else Z.to_nat (i / 2 + 7).
Definition pre_of (i : Z) : Z := if i =? 31 then 0 else 2 + i mod 2.

Lemma lev_ok i : 0 <= i <= 31 -> (lev i <= 64)%nat /\ leftshift i = 64 - Z.of_nat (lev i).
Proof.
  intros H. unfold lev, leftshift. destruct (i =? 31) eqn:E; [split; lia|].
  assert (0 <= i / 2 <= 15).
  { split; [apply Z.div_pos; lia|]. apply Z.lt_succ_r. apply Z.div_lt_upper_bound; lia. }
  split; lia.
Qed.

Lemma pre_ok s : 256 <= s < 2 ^ 40 -> s / 2 ^ Z.of_nat (lev (tree_index s)) = pre_of (tree_index s).
Proof.
  intros H. unfold lev, pre_of. destruct (tree_index s =? 31) eqn:E.
  - apply Z.div_small. change (Z.of_nat 64) with 64. lia.
  - destruct (Z.lt_ge_cases s (2 ^ 24)) as [L|L].
    + destruct (tree_index_small s) as (Q & K & D); [lia|].
      set (k := Z.log2 s - 8) in *. rewrite Q in *.
      assert (H2 : (2 * k + s / 2 ^ (k + 7) - 2) / 2 = k).
      { symmetry. apply (Z.div_unique _ _ _ (s / 2 ^ (k + 7) - 2)); lia. }
      assert (H3 : (2 * k + s / 2 ^ (k + 7) - 2) mod 2 = s / 2 ^ (k + 7) - 2).
      { symmetry. apply (Z.mod_unique _ _ k); lia. }
      rewrite H2, H3. rewrite Z2Nat.id by lia. lia.
    + rewrite tree_index_large in E by lia. easy.
Qed.

(** ** Bit maps *)
Definition bits32 : list Z := map Z.of_nat (seq 0 32).
Lemma in_bits32 i : 0 <= i < 32 -> In i bits32.
Proof.
  intros H. unfold bits32. apply in_map_iff. exists (Z.to_nat i). split; [lia|].
  apply in_seq. lia.
Qed.

Lemma left_bits_bit i n : 0 <= i < 32 -> 0 <= n < 32 ->
  Z.testbit (left_bits (2 ^ i)) n = (i <? n).
Proof.
  assert (F : forallb (fun i => forallb (fun n =>
    Bool.eqb (Z.testbit (left_bits (2 ^ i)) n) (i <? n)) bits32) bits32 = true)
    by (vm_compute; reflexivity).
  intros Hi Hn. rewrite forallb_forall in F. specialize (F i (in_bits32 i Hi)).
  rewrite forallb_forall in F. specialize (F n (in_bits32 n Hn)).
  now apply Bool.eqb_prop.
Qed.

Lemma low_bit_decomp x : 0 < x -> exists i y, 0 <= i /\ 0 <= y /\ x = 2 ^ i * (2 * y + 1).
Proof.
  intros H. destruct x as [|p|p]; try lia. clear H.
  induction p as [p IH|p IH|].
  - exists 0, (Z.pos p). lia.
  - destruct IH as (i & y & A & B & C). exists (i + 1), y.
    split; [lia|]. split; [lia|]. rewrite Z.pow_add_r by lia. lia.
  - exists 0, 0. lia.
Qed.

Lemma land_compl y m : 0 <= m -> 0 <= y < 2 ^ m -> Z.land y (2 ^ m - 1 - y) = 0.
Proof.
  intros M H. apply Z.bits_inj'. intros n N. rewrite Z.land_spec, Z.bits_0.
  destruct (Z.lt_ge_cases n m) as [L|L].
  - replace (2 ^ m - 1 - y) with (Z.lnot y + 2 ^ m) by (unfold Z.lnot; lia).
    replace (Z.testbit (Z.lnot y + 2 ^ m) n) with (Z.testbit (Z.lnot y) n).
    + rewrite Z.lnot_spec by lia. now destruct (Z.testbit y n).
    + rewrite <- (Z.mod_pow2_bits_low (Z.lnot y) m n) by lia.
      rewrite <- (Z.mod_pow2_bits_low (Z.lnot y + 2 ^ m) m n) by lia.
      f_equal. rewrite <- (Z.mul_1_l (2 ^ m)) at 2. now rewrite Z.mod_add by lia.
  - rewrite <- (Z.mod_small y (2 ^ m)) by lia.
    rewrite Z.mod_pow2_bits_high by lia. reflexivity.
Qed.

Lemma land_odd a b : Z.land (2 * a + 1) (2 * b + 1) = 2 * Z.land a b + 1.
Proof.
  apply Z.bits_inj'. intros n N. rewrite Z.land_spec.
  destruct (Z.eq_dec n 0) as [->|Q].
  - rewrite !Z.testbit_odd_0. reflexivity.
  - replace n with (Z.succ (n - 1)) by lia.
    rewrite !Z.testbit_odd_succ by lia. now rewrite Z.land_spec.
Qed.

Lemma least_bit_ok x : 0 < x < 2 ^ 32 ->
  exists i, bit2idx (least_bit x) = i /\ 0 <= i < 32 /\ Z.testbit x i = true /\
  forall n, 0 <= n < i -> Z.testbit x n = false.
Proof.
  intros H. destruct (low_bit_decomp x) as (i & y & A & B & C); [lia|].
  assert (I : i < 32).
  { destruct (Z.lt_ge_cases i 32) as [L|L]; [exact L|].
    pose proof (Z.pow_le_mono_r 2 32 i). nia. }
  assert (P : 2 ^ 32 = 2 ^ i * (2 * 2 ^ (31 - i))).
  { rewrite <- Z.pow_succ_r by lia. rewrite <- Z.pow_add_r by lia. f_equal. lia. }
  assert (PI : 0 < 2 ^ i) by (apply Z.pow_pos_nonneg; lia).
  assert (PJ : 0 < 2 ^ (31 - i)) by (apply Z.pow_pos_nonneg; lia).
  assert (Y : y < 2 ^ (31 - i)) by nia.
  exists i. split; [|split; [lia|]].
  - unfold least_bit, bit2idx, wrap32.
    replace (- x mod 2 ^ 32) with (2 ^ i * (2 * (2 ^ (31 - i) - 1 - y) + 1)).
    2:{ apply (Z.mod_unique _ _ (-1)); [left|]; nia. }
    rewrite C at 1.
    rewrite (Z.mul_comm (2 ^ i) (2 * y + 1)), (Z.mul_comm (2 ^ i) (2 * (_ - y) + 1)).
    rewrite <- !Z.shiftl_mul_pow2 by lia. rewrite <- Z.shiftl_land.
    rewrite land_odd, land_compl by lia.
    rewrite Z.shiftl_mul_pow2 by lia. change (2 * 0 + 1) with 1. rewrite Z.mul_1_l.
    apply Z.log2_pow2. lia.
  - rewrite C, (Z.mul_comm (2 ^ i)). split.
    + rewrite Z.mul_pow2_bits by lia. rewrite Z.sub_diag. apply Z.testbit_odd_0.
    + intros n N. now rewrite Z.mul_pow2_bits_low by lia.
Qed.

Lemma bits_nonzero x n : Z.testbit x n = true -> x <> 0.
Proof. intros H ->. now rewrite Z.bits_0 in H. Qed.

Lemma zero_bits x : 0 <= x < 2 ^ 32 -> (forall n, 0 <= n < 32 -> Z.testbit x n = false) -> x = 0.
Proof.
  intros H F. destruct (Z.eq_dec x 0) as [E|E]; [exact E|].
  destruct (least_bit_ok x) as (i & _ & I & T & _); [lia|].
  rewrite F in T; easy.
Qed.

Lemma land_range a b : 0 <= a -> 0 <= b < 2 ^ 32 -> 0 <= Z.land a b < 2 ^ 32.
Proof.
  intros A B.
  assert (0 <= Z.land a b) by (apply Z.land_nonneg; lia).
  split; [lia|].
  destruct (Z.lt_ge_cases (Z.land a b) (2 ^ 32)) as [L|L]; [exact L|].
  exfalso.
  pose proof (Z.bit_log2 (Z.land a b) ltac:(lia)) as T.
  assert (32 <= Z.log2 (Z.land a b)) by (apply Z.log2_le_pow2; lia).
  rewrite Z.land_spec in T. apply andb_prop in T as [_ T].
  set (n := Z.log2 (Z.land a b)) in *. clearbody n.
  rewrite <- (Z.mod_small b (2 ^ 32)) in T by lia.
  rewrite Z.mod_pow2_bits_high in T by lia. easy.
Qed.

(** ** The best of a set of chunks *)
Definition best (nb : Z) (E : list (Z * Z)) (v : option (Z * Z)) (rs : Z) : Prop :=
  match v with
  | None => rs = 2 ^ 64 - nb /\ forall o s, In (o, s) E -> s < nb
  | Some (o, s) => In (o, s) E /\ nb <= s < 2 ^ 64 /\ rs = s - nb /\
                   forall o' s', In (o', s') E -> nb <= s' -> s <= s'
  end.
Definition covers (nb : Z) (F E : list (Z * Z)) : Prop :=
  forall o s, In (o, s) E -> nb <= s -> exists o' s', In (o', s') F /\ nb <= s' <= s.

Lemma best_covers nb F E v rs : best nb F v rs -> incl F E -> covers nb F E -> best nb E v rs.
Proof.
  intros B I C. destruct v as [[o s]|]; cbn in *.
  - destruct B as (B1 & B2 & B3 & B4). split; [now apply I|]. do 2 (split; [easy|]).
    intros o' s' H L. destruct (C o' s' H L) as (o2 & s2 & C1 & C2).
    specialize (B4 o2 s2 C1). lia.
  - destruct B as [B1 B2]. split; [easy|]. intros o s H.
    destruct (Z.lt_ge_cases s nb) as [L|L]; [exact L|].
    destruct (C o s H L) as (o2 & s2 & C1 & C2). specialize (B2 o2 s2 C1). lia.
Qed.

Lemma best_rs nb E v rs : 0 < nb < 2 ^ 64 -> best nb E v rs -> 0 <= rs <= 2 ^ 64 - nb.
Proof. intros N B. destruct v as [[o s]|]; cbn in B; [|lia]. destruct B as (_ & B & -> & _). lia. Qed.

Lemma wrap_sub nb s : 0 < nb < 2 ^ 64 -> 0 <= s < 2 ^ 64 ->
  wrap64 (s - nb) = if s <? nb then 2 ^ 64 + s - nb else s - nb.
Proof.
  intros N S. unfold wrap64. destruct (s <? nb) eqn:E.
  - symmetry. apply (Z.mod_unique _ _ (-1)); lia.
  - apply Z.mod_small. lia.
Qed.

Lemma better_best nb E o s v rs v' rs' : 0 < nb < 2 ^ 64 -> 0 <= s < 2 ^ 64 ->
  best nb E v rs -> better nb o s v rs = (v', rs') -> best nb ((o, s) :: E) v' rs'.
Proof.
  intros N S B. unfold better. rewrite wrap_sub by assumption.
  pose proof (best_rs nb E v rs ltac:(lia) B) as R.
  destruct (s <? nb) eqn:E1.
  - destruct (2 ^ 64 + s - nb <? rs) eqn:E2; [lia|]. intros Q. injection Q as <- <-.
    destruct v as [[o1 s1]|]; cbn in *.
    + destruct B as (B1 & B2 & B3 & B4). split; [tauto|]. do 2 (split; [easy|]).
      intros o' s' [K|K] L; [injection K as <- <-; lia|eauto].
    + destruct B as [B1 B2]. split; [easy|]. intros o' s' [K|K]; [injection K as <- <-; lia|eauto].
  - destruct (s - nb <? rs) eqn:E2; intros Q; injection Q as <- <-.
    + cbn. split; [tauto|]. split; [lia|]. split; [reflexivity|].
      intros o' s' [K|K] L; [injection K as <- <-; lia|].
      destruct v as [[o1 s1]|]; cbn in B.
      * destruct B as (B1 & B2 & B3 & B4). specialize (B4 o' s' K L). lia.
      * destruct B as [B1 B2]. specialize (B2 o' s' K). lia.
    + destruct v as [[o1 s1]|]; cbn in *.
      * destruct B as (B1 & B2 & B3 & B4). split; [tauto|]. do 2 (split; [easy|]).
        intros o' s' [K|K] L; [injection K as <- <-; lia|eauto].
      * destruct B as [B1 B2]. lia.
Qed.

Definition small_sizes (t : tree) : Prop := forall o s, In (o, s) (elems t) -> 0 <= s < 2 ^ 64.

Lemma ring_in (ring : list Z) (s o1 s1 : Z) : In (o1, s1) (map (fun x => (x, s)) ring) -> s1 = s.
Proof. intros H. apply in_map_iff in H as (x & Q & _). now injection Q as <- <-. Qed.

Lemma smallest_ok nb t : forall j pfx E v rs v' rs', 0 < nb < 2 ^ 64 -> shape j pfx t ->
  (forall o s, In (o, s) (elems t) -> nb <= s < 2 ^ 64) ->
  best nb E v rs -> smallest nb t v rs = (v', rs') -> best nb (E ++ elems t) v' rs'.
Proof.
  induction t as [|o s ring l IHl r IHr]; intros j pfx E v rs v' rs' N H A B Q.
  - cbn in Q. injection Q as <- <-. cbn. now rewrite app_nil_r.
  - cbn [smallest] in Q. destruct (better nb o s v rs) as [v1 rs1] eqn:Eb.
    assert (S : nb <= s < 2 ^ 64) by (apply (A o); cbn; tauto).
    assert (B1 : best nb ((o, s) :: E) v1 rs1).
    { apply (better_best nb E o s v rs v1 rs1 N); [lia|exact B|exact Eb]. }
    destruct H as [H C]. destruct j as [|j].
    + destruct C as [-> ->]. cbn in Q. injection Q as <- <-.
      apply (best_covers nb ((o, s) :: E)); [exact B1| |].
      * intros [x y] [K|K]; rewrite in_app_iff; [right; left; exact K|tauto].
      * intros o1 s1 K L. rewrite in_app_iff in K. destruct K as [K|K].
        -- exists o1, s1. split; [now right|lia].
        -- cbn in K. rewrite app_nil_r in K. destruct K as [K|K].
           ++ injection K as <- <-. exists o, s. split; [now left|lia].
           ++ apply ring_in in K. subst s1. exists o, s. split; [now left|lia].
    + destruct C as [Cl Cr]. destruct l as [|ol sl gl ll lr].
      * apply IHr with (j := j) (pfx := 2 * pfx + 1) (E := (o, s) :: E) in Q; [|exact N|exact Cr| |exact B1].
        2:{ intros o1 s1 K. apply (A o1 s1). cbn. rewrite !in_app_iff. tauto. }
        apply (best_covers nb _ _ _ _ Q).
        -- intros [x y] K. rewrite in_app_iff in K. cbn. rewrite in_app_iff. cbn.
           rewrite in_app_iff. cbn in K. tauto.
        -- intros o1 s1 K L. rewrite in_app_iff in K. cbn in K. rewrite in_app_iff in K.
           destruct K as [K|[K|[K|K]]].
           ++ exists o1, s1. split; [|lia]. rewrite in_app_iff. cbn. tauto.
           ++ injection K as <- <-. exists o, s. split; [|lia]. now left.
           ++ apply ring_in in K. subst s1. exists o, s. split; [|lia]. now left.
           ++ exists o1, s1. split; [|lia]. rewrite in_app_iff. tauto.
      * assert (Ql : smallest nb (Node ol sl gl ll lr) v1 rs1 = (v', rs')) by exact Q.
        clear Q.
        apply IHl with (j := j) (pfx := 2 * pfx) (E := (o, s) :: E) in Ql; [|exact N|exact Cl| |exact B1].
        2:{ intros o1 s1 K. apply (A o1 s1). cbn [elems]. right. rewrite in_app_iff. right.
            rewrite in_app_iff. left. exact K. }
        apply (best_covers nb _ _ _ _ Ql).
        -- intros [x y] K. rewrite in_app_iff in K. rewrite in_app_iff. cbn [elems In] in *.
           rewrite in_app_iff. rewrite (in_app_iff (_ :: _)).
           cbn [In] in *. tauto.
        -- intros o1 s1 K L. rewrite in_app_iff in K.
           change (elems (Node o s ring (Node ol sl gl ll lr) r)) with
             ((o, s) :: map (fun x => (x, s)) ring ++ elems (Node ol sl gl ll lr) ++ elems r) in K.
           cbn [In] in K. rewrite !in_app_iff in K.
           destruct K as [K|[K|[K|[K|K]]]].
           ++ exists o1, s1. split; [|lia]. rewrite in_app_iff. cbn. tauto.
           ++ injection K as <- <-. exists o, s. split; [|lia]. now left.
           ++ apply ring_in in K. subst s1. exists o, s. split; [|lia]. now left.
           ++ exists o1, s1. split; [|lia]. rewrite in_app_iff. tauto.
           ++ exists ol, sl. split; [rewrite in_app_iff; right; now left|].
              split.
              ** apply (A ol sl). cbn [elems]. right. rewrite in_app_iff. right.
                 rewrite in_app_iff. left. now left.
              ** apply Z.lt_le_incl. apply (div_lt_lt _ _ (2 ^ Z.of_nat j)).
                 --- apply Z.pow_pos_nonneg; lia.
                 --- rewrite (shape_elems _ _ _ o1 s1 Cr K). cbn in Cl. destruct Cl as [-> _]. lia.
Qed.

Lemma smallest_zero nb t : forall v, smallest nb t v 0 = (v, 0).
Proof.
  induction t as [|o s ring l IHl r IHr]; intros v; cbn [smallest]; [reflexivity|].
  unfold better. destruct (wrap64 (s - nb) <? 0) eqn:E.
  - pose proof (Z.mod_pos_bound (s - nb) (2 ^ 64)). unfold wrap64 in E. lia.
  - destruct l; [apply IHr|apply IHl].
Qed.

(** ** The walk *)
Lemma walk_ok nb t : forall j pfx E v rs rst v' rs' t', 0 < nb < 2 ^ 64 -> (j <= 64)%nat ->
  shape j pfx t -> nb / 2 ^ Z.of_nat j = pfx -> small_sizes t ->
  best nb E v rs ->
  (forall o s, In (o, s) (elems rst) -> pfx < s / 2 ^ Z.of_nat j /\ s < 2 ^ 64) ->
  (exists j' p', shape j' p' rst) ->
  walk nb (wrap64 (nb * 2 ^ (64 - Z.of_nat j))) t v rs rst = (v', rs', t') ->
  (rs' = 0 /\ exists o, v' = Some (o, nb) /\ In (o, nb) (E ++ elems t)) \/
  (exists F, best nb F v' rs' /\ incl F (E ++ elems t) /\
     incl (elems t') (elems t ++ elems rst) /\
     covers nb (F ++ elems t') (E ++ elems t ++ elems rst) /\
     (forall o s, In (o, s) (elems t') -> nb <= s < 2 ^ 64) /\
     (exists j' p', shape j' p' t')).
Proof.
  induction t as [|o s ring l IHl r IHr];
    intros j pfx E v rs rst v' rs' t' N J H P SS B R RS Q.
  - cbn in Q. injection Q as <- <- <-. right. exists E. split; [exact B|].
    cbn [elems app]. rewrite app_nil_r. split; [apply incl_refl|]. split; [apply incl_refl|].
    split; [|split; [|exact RS]].
    + intros o1 s1 K L. exists o1, s1. split; [exact K|lia].
    + intros o1 s1 K. destruct (R _ _ K) as [R1 R2]. split; [|exact R2].
      apply Z.lt_le_incl. apply (div_lt_lt _ _ (2 ^ Z.of_nat j)).
      * apply Z.pow_pos_nonneg; lia.
      * lia.
  - cbn [walk] in Q.
    assert (S : 0 <= s < 2 ^ 64) by (apply (SS o); cbn; tauto).
    destruct (better nb o s v rs) as [v1 rs1] eqn:Eb.
    pose proof (better_best nb E o s v rs v1 rs1 N S B Eb) as B1.
    destruct ((wrap64 (s - nb) <? rs) && (wrap64 (s - nb) =? 0)) eqn:Ez.
    + injection Q as <- <- <-. left. apply andb_prop in Ez as [E1 E2].
      unfold better in Eb. rewrite E1 in Eb. injection Eb as <- <-.
      apply Z.eqb_eq in E2. rewrite E2. split; [reflexivity|].
      rewrite wrap_sub in E2 by assumption.
      destruct (s <? nb) eqn:E3; [lia|].
      assert (s = nb) as -> by lia. exists o. split; [reflexivity|].
      rewrite in_app_iff. right. now left.
    + clear Ez. destruct H as [H C]. destruct j as [|j].
      { (* no bits left: the node has the size sought *)
        destruct C as [-> ->]. cbn in H, P. rewrite Z.div_1_r in H, P.
        assert (Hs : s = nb) by lia. clear H. subst s.
        assert (T' : v' = v1 /\ rs' = rs1 /\ t' = rst).
        { destruct (top_bit _); cbn in Q; injection Q as <- <- <-; auto. }
        destruct T' as (-> & -> & ->). right. exists ((o, nb) :: E).
        subst pfx. split; [exact B1|]. cbn [elems app]. rewrite app_nil_r.
        split; [|split; [|split; [|split; [|exact RS]]]].
        - intros [x y] [K|K]; rewrite in_app_iff; [right; left; exact K|tauto].
        - intros x K. cbn. rewrite ?in_app_iff. tauto.
        - intros o1 s1 K L. rewrite !in_app_iff in K. cbn [In] in K. rewrite in_app_iff in K.
          destruct K as [K|[K|[K|K]]].
          + exists o1, s1. split; [right; rewrite in_app_iff; tauto|lia].
          + injection K as <- <-. exists o, nb. split; [now left|lia].
          + apply ring_in in K. subst s1. exists o, nb. split; [now left|lia].
          + exists o1, s1. split; [right; rewrite in_app_iff; tauto|lia].
        - intros o1 s1 K. destruct (R _ _ K) as [R1 R2]. cbn in R1. rewrite Z.div_1_r in R1. lia. }
      rewrite top_bit_shift, shift_next in Q by lia.
      destruct C as [Cl Cr].
      pose proof (div_bit nb j) as DB. rewrite P in DB.
      assert (SSl : small_sizes l).
      { intros o1 s1 K. apply (SS o1 s1). cbn. rewrite !in_app_iff. tauto. }
      assert (SSr : small_sizes r).
      { intros o1 s1 K. apply (SS o1 s1). cbn. rewrite !in_app_iff. tauto. }
      assert (PP : 0 < 2 ^ Z.of_nat j) by (apply Z.pow_pos_nonneg; lia).
      destruct (Z.testbit nb (Z.of_nat j)).
      * (* right *)
        apply (IHr j (2 * pfx + 1) ((o, s) :: E)) in Q; [|exact N|lia|exact Cr|lia|exact SSr|exact B1| |exact RS].
        2:{ intros o1 s1 K. destruct (R _ _ K) as [R1 R2]. split; [|exact R2].
            pose proof (div_bit s1 j). destruct (Z.testbit s1 _); lia. }
        assert (LL : forall o1 s1, In (o1, s1) (elems l) -> s1 < nb).
        { intros o1 s1 K. apply (div_lt_lt _ _ (2 ^ Z.of_nat j) PP).
          rewrite (shape_elems _ _ _ _ _ Cl K). lia. }
        destruct Q as [(Q1 & x & Q2 & Q3)|(F & F1 & F2 & F3 & F4 & F5 & F6)].
        -- left. split; [exact Q1|]. exists x. split; [exact Q2|].
           cbn in Q3. rewrite in_app_iff in *. cbn. rewrite !in_app_iff. tauto.
        -- right. exists F. split; [exact F1|].
           split; [|split; [|split; [|split; [exact F5|exact F6]]]].
           ++ intros y K. apply F2 in K. cbn in *. rewrite in_app_iff in *. cbn.
              rewrite !in_app_iff. tauto.
           ++ intros y K. apply F3 in K. cbn. rewrite !in_app_iff in *. tauto.
           ++ intros o1 s1 K L. cbn in K. rewrite !in_app_iff in K. cbn in K. rewrite !in_app_iff in K.
              destruct K as [K|[K|[K|K]]].
              ** apply (F4 o1 s1); [|exact L]. cbn. rewrite !in_app_iff. tauto.
              ** apply (F4 o1 s1); [|exact L]. cbn. tauto.
              ** destruct K as [K|[K|K]].
                 --- apply ring_in in K. subst s1. apply (F4 o s); [|exact L]. now left.
                 --- specialize (LL _ _ K). lia.
                 --- apply (F4 o1 s1); [|exact L]. cbn. rewrite !in_app_iff. tauto.
              ** apply (F4 o1 s1); [|exact L]. cbn. rewrite !in_app_iff. tauto.
      * (* left *)
        assert (GG : forall o1 s1, In (o1, s1) (elems r) -> 2 * pfx < s1 / 2 ^ Z.of_nat j /\ s1 < 2 ^ 64).
        { intros o1 s1 K. rewrite (shape_elems _ _ _ _ _ Cr K). split; [lia|].
          apply (SSr o1 s1 K). }
        assert (GN : forall o1 s1, In (o1, s1) (elems r) -> nb <= s1).
        { intros o1 s1 K. apply Z.lt_le_incl. apply (div_lt_lt _ _ (2 ^ Z.of_nat j) PP).
          rewrite (shape_elems _ _ _ _ _ Cr K). lia. }
        assert (RR : forall o1 s1, In (o1, s1) (elems rst) -> 2 * pfx + 1 < s1 / 2 ^ Z.of_nat j /\ s1 < 2 ^ 64).
        { intros o1 s1 K. destruct (R _ _ K) as [R1 R2]. split; [|exact R2].
          pose proof (div_bit s1 j). destruct (Z.testbit s1 _); lia. }
        set (rst' := match r with Leaf => rst | _ => r end) in Q.
        apply (IHl j (2 * pfx) ((o, s) :: E)) in Q; [|exact N|lia|exact Cl|lia|exact SSl|exact B1| |].
        2:{ unfold rst'. intros o1 s1 K. destruct r; [|now apply (GG o1)].
            destruct (RR _ _ K). split; [lia|easy]. }
        2:{ unfold rst'. destruct r; [exact RS|]. now exists j, (2 * pfx + 1). }
        (* the old rst is covered by the new one *)
        assert (RC : covers nb (elems rst') (elems r ++ elems rst)).
        { intros o1 s1 K L. rewrite in_app_iff in K. unfold rst'.
          destruct r as [|orr sr gr rl rr].
          - cbn in K. exists o1, s1. split; [tauto|lia].
          - destruct K as [K|K]; [exists o1, s1; split; [exact K|lia]|].
            exists orr, sr. split; [now left|]. split; [apply (GN orr); now left|].
            apply Z.lt_le_incl. apply (div_lt_lt _ _ (2 ^ Z.of_nat j) PP).
            destruct (RR _ _ K). cbn in Cr. destruct Cr as [-> _]. lia. }
        assert (RI : incl (elems rst') (elems r ++ elems rst)).
        { unfold rst'. destruct r; intros y K; rewrite in_app_iff; tauto. }
        destruct Q as [(Q1 & x & Q2 & Q3)|(F & F1 & F2 & F3 & F4 & F5 & F6)].
        -- left. split; [exact Q1|]. exists x. split; [exact Q2|].
           cbn in Q3. rewrite in_app_iff in *. cbn. rewrite !in_app_iff. tauto.
        -- right. exists F. split; [exact F1|].
           split; [|split; [|split; [|split; [exact F5|exact F6]]]].
           ++ intros y K. apply F2 in K. cbn in *. rewrite in_app_iff in *. cbn.
              rewrite !in_app_iff. tauto.
           ++ intros y K. apply F3 in K. cbn. rewrite !in_app_iff in *. cbn.
              destruct K as [K|K]; [tauto|]. apply RI in K. rewrite in_app_iff in K. tauto.
           ++ assert (UP : forall o1 s1, In (o1, s1) (elems r ++ elems rst) -> nb <= s1 ->
                exists o' s', In (o', s') (F ++ elems t') /\ nb <= s' <= s1).
              { intros o1 s1 K L. destruct (RC o1 s1 K L) as (o2 & s2 & C1 & C2).
                destruct (F4 o2 s2) as (o3 & s3 & D1 & D2); [cbn; rewrite !in_app_iff; tauto|lia|].
                exists o3, s3. split; [exact D1|lia]. }
              intros o1 s1 K L. cbn in K. rewrite !in_app_iff in K. cbn in K. rewrite !in_app_iff in K.
              destruct K as [K|[K|[K|K]]].
              ** apply (F4 o1 s1); [|exact L]. cbn. rewrite !in_app_iff. tauto.
              ** apply (F4 o1 s1); [|exact L]. cbn. tauto.
              ** destruct K as [K|[K|K]].
                 --- apply ring_in in K. subst s1. apply (F4 o s); [|exact L]. now left.
                 --- apply (F4 o1 s1); [|exact L]. cbn. rewrite !in_app_iff. tauto.
                 --- apply (UP o1 s1); [|exact L]. rewrite in_app_iff. tauto.
              ** apply (UP o1 s1); [|exact L]. rewrite in_app_iff. tauto.
Qed.
