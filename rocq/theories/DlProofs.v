(** Trees of large chunks: the order kept by insertion and removal, and the search. *)
From Coq Require Import Permutation.
From Verif Require Import Base BaseProofs SobjModel HeapModel DlModel DlSpec.

(** ** Bits *)
Lemma top_bit_shift s j : 0 <= s < 2 ^ 64 -> (S j <= 64)%nat ->
  top_bit (wrap64 (s * 2 ^ (64 - Z.of_nat (S j)))) = Z.testbit s (Z.of_nat j).
Proof.
  intros H J. unfold top_bit, wrap64.
  rewrite Z.mod_pow2_bits_low by lia.
  rewrite Z.mul_pow2_bits by lia. f_equal. lia.
Qed.

Lemma shift_next s j : (S j <= 64)%nat ->
  wrap64 (2 * wrap64 (s * 2 ^ (64 - Z.of_nat (S j)))) = wrap64 (s * 2 ^ (64 - Z.of_nat j)).
Proof.
  intros J. unfold wrap64.
  rewrite Z.mul_mod_idemp_r by lia. f_equal.
  replace (64 - Z.of_nat j) with (64 - Z.of_nat (S j) + 1) by lia.
  rewrite Z.pow_add_r by lia. ring.
Qed.

Lemma div_pow_S s j : s / 2 ^ Z.of_nat (S j) = s / 2 ^ Z.of_nat j / 2.
Proof.
  rewrite Nat2Z.inj_succ, Z.pow_succ_r by lia.
  rewrite (Z.mul_comm 2), Z.div_div by lia. reflexivity.
Qed.

Lemma div_bit s j : s / 2 ^ Z.of_nat j =
  2 * (s / 2 ^ Z.of_nat (S j)) + (if Z.testbit s (Z.of_nat j) then 1 else 0).
Proof.
  rewrite div_pow_S.
  rewrite (Z.div_mod (s / 2 ^ Z.of_nat j) 2) at 1 by lia. f_equal.
  rewrite Z.testbit_eqb by lia.
  pose proof (Z.mod_pos_bound (s / 2 ^ Z.of_nat j) 2).
  destruct (_ =? 1) eqn:E; lia.
Qed.

Lemma div_lt_lt a b d : 0 < d -> a / d < b / d -> a < b.
Proof.
  intros D H. destruct (Z.lt_ge_cases a b) as [L|L]; [exact L|].
  pose proof (Z.div_le_mono b a d D L). lia.
Qed.

Fixpoint elems (t : tree) : list (Z * Z) :=
  match t with
  | Leaf => []
  | Node o s ring l r => (o, s) :: map (fun x => (x, s)) ring ++ elems l ++ elems r
  end.

(** ** Permutations by counting *)
Definition pair_dec : forall a b : Z * Z, {a = b} + {a <> b}.
Proof. decide equality; apply Z.eq_dec. Defined.
Definition cnt (l : list (Z * Z)) (x : Z * Z) : nat := count_occ pair_dec l x.
Definition one (a x : Z * Z) : nat := if pair_dec a x then 1%nat else 0%nat.
Lemma cnt_cons a l x : cnt (a :: l) x = (one a x + cnt l x)%nat.
Proof. unfold cnt, one. cbn. now destruct (pair_dec a x). Qed.
Lemma cnt_app a b x : cnt (a ++ b) x = (cnt a x + cnt b x)%nat.
Proof. unfold cnt. apply count_occ_app. Qed.
Lemma cnt_nil x : cnt [] x = 0%nat. Proof. reflexivity. Qed.
Lemma perm_cnt a b : Permutation a b <-> forall x, cnt a x = cnt b x.
Proof. apply (Permutation_count_occ pair_dec). Qed.
Ltac pc := rewrite ?perm_cnt in *;
  let x := fresh "x" in intros x;
  repeat match goal with H : forall _ : Z * Z, cnt _ _ = cnt _ _ |- _ => specialize (H x) end;
  cbn [elems map app] in *;
  rewrite ?map_app in *; cbn [map] in *;
  repeat (rewrite ?cnt_cons, ?cnt_app, ?cnt_nil in *); lia.

(** ** Elements and order of a tree *)
Fixpoint shape (j : nat) (pfx : Z) (t : tree) {struct t} : Prop :=
  match t with
  | Leaf => True
  | Node _ s _ l r =>
      s / 2 ^ Z.of_nat j = pfx /\
      match j with
      | O => l = Leaf /\ r = Leaf
      | S j' => shape j' (2 * pfx) l /\ shape j' (2 * pfx + 1) r
      end
  end.

Lemma shape_up j pfx b s : (b = 0 \/ b = 1) -> s / 2 ^ Z.of_nat j = 2 * pfx + b ->
  s / 2 ^ Z.of_nat (S j) = pfx.
Proof.
  intros B H. rewrite div_pow_S, H. destruct B as [->| ->].
  - replace (2 * pfx + 0) with (pfx * 2) by ring. apply Z.div_mul. lia.
  - symmetry. apply (Z.div_unique _ _ _ 1); lia.
Qed.

Lemma shape_elems t : forall j pfx o s, shape j pfx t -> In (o, s) (elems t) ->
  s / 2 ^ Z.of_nat j = pfx.
Proof.
  induction t as [|o' s' ring l IHl r IHr]; intros j pfx o s H HI; cbn in *; [easy|].
  destruct H as [H C].
  destruct HI as [E|HI]; [now injection E as <- <-|].
  rewrite !in_app_iff in HI.
  destruct HI as [HI|HI].
  - apply in_map_iff in HI as (x & E & _). now injection E as <- <-.
  - destruct j as [|j].
    + destruct C as [-> ->]. cbn in HI. tauto.
    + destruct C as [Cl Cr]. destruct HI as [HI|HI].
      * apply (shape_up j pfx 0); [tauto|]. rewrite Z.add_0_r. eapply IHl; eauto.
      * apply (shape_up j pfx 1); [tauto|]. eapply IHr; eauto.
Qed.

Lemma t_insert_ok x s t : forall j pfx, shape j pfx t -> (j <= 64)%nat -> 0 <= s < 2 ^ 64 ->
  s / 2 ^ Z.of_nat j = pfx ->
  shape j pfx (t_insert x s (wrap64 (s * 2 ^ (64 - Z.of_nat j))) t) /\
  Permutation ((x, s) :: elems t) (elems (t_insert x s (wrap64 (s * 2 ^ (64 - Z.of_nat j))) t)).
Proof.
  induction t as [|o' s' ring l IHl r IHr]; intros j pfx H J S P; cbn [t_insert].
  - cbn. split; [|apply Permutation_refl]. split; [exact P|]. destruct j; cbn; tauto.
  - destruct H as [H C]. destruct (s' =? s) eqn:E; cbn [negb].
    + apply Z.eqb_eq in E. subst s'. split; [now split|].
      cbn. apply perm_swap.
    + apply Z.eqb_neq in E. destruct j as [|j].
      * cbn in H, P. rewrite Z.div_1_r in *. lia.
      * rewrite top_bit_shift, shift_next by lia.
        destruct C as [Cl Cr].
        pose proof (div_bit s j) as B. rewrite P in B.
        destruct (Z.testbit s (Z.of_nat j)).
        -- destruct (IHr j (2 * pfx + 1)) as [I1 I2]; [easy|lia|easy|easy|].
           split; [cbn [shape]; auto|]. clear IHl IHr. pc.
        -- destruct (IHl j (2 * pfx)) as [I1 I2]; [easy|lia|easy|lia|].
           split; [cbn [shape]; auto|]. clear IHl IHr. pc.
Qed.

Lemma pop_leaf_none t : pop_leaf t = None -> t = Leaf.
Proof.
  destruct t as [|o s ring l r]; cbn; [easy|].
  destruct (pop_leaf r) as [[? ?]|]; [easy|]. now destruct (pop_leaf l) as [[? ?]|].
Qed.

Lemma pop_leaf_ok t : forall x s ring t', pop_leaf t = Some (x, s, ring, t') ->
  Permutation (elems t) ((x, s) :: map (fun y => (y, s)) ring ++ elems t') /\
  forall j pfx, shape j pfx t -> s / 2 ^ Z.of_nat j = pfx /\ shape j pfx t'.
Proof.
  induction t as [|o' s' ring' l IHl r IHr]; intros x s ring t' H; cbn in H; [easy|].
  destruct (pop_leaf r) as [[[[x1 s1] g1] r1]|] eqn:Er.
  - injection H as <- <- <- <-. destruct (IHr _ _ _ _ eq_refl) as [I1 I2]. split; [clear I2; pc|].
    intros j pfx [H C]. destruct j as [|j]; [destruct C as [-> ->]; easy|].
    destruct C as [Cl Cr]. destruct (I2 _ _ Cr) as [A B]. split.
    * apply (shape_up j pfx 1); [tauto|easy].
    * cbn [shape]. auto.
  - apply pop_leaf_none in Er. subst r.
    destruct (pop_leaf l) as [[[[x1 s1] g1] l1]|] eqn:El.
    + injection H as <- <- <- <-. destruct (IHl _ _ _ _ eq_refl) as [I1 I2]. split; [clear I2; pc|].
      intros j pfx [H C]. destruct j as [|j]; [destruct C as [-> _]; easy|].
      destruct C as [Cl Cr]. destruct (I2 _ _ Cl) as [A B]. split.
      * apply (shape_up j pfx 0); [tauto|lia].
      * cbn [shape]. auto.
    + apply pop_leaf_none in El. subst l. injection H as <- <- <- <-. split.
      * pc.
      * intros j pfx [H C]. split; [exact H|exact I].
Qed.

Lemma remove_node_ok ring s l r :
  Permutation (elems (t_remove_node ring s l r)) (map (fun x => (x, s)) ring ++ elems l ++ elems r) /\
  forall j pfx o, shape j pfx (Node o s ring l r) -> shape j pfx (t_remove_node ring s l r).
Proof.
  unfold t_remove_node. pose proof (rev_involutive ring) as V. destruct (rev ring) as [|x rest] eqn:E.
  - assert (ring = []) as -> by (symmetry; exact V).
    destruct (pop_leaf r) as [[[[x1 s1] g1] r1]|] eqn:Er.
    + destruct (pop_leaf_ok _ _ _ _ _ Er) as [I1 I2]. split; [clear I2 E V; pc|].
      intros j pfx o [H C]. destruct j as [|j]; [destruct C as [-> ->]; easy|].
      destruct C as [Cl Cr]. destruct (I2 _ _ Cr) as [A B].
      split; [|split; easy]. apply (shape_up j pfx 1); [tauto|easy].
    + apply pop_leaf_none in Er. subst r.
      destruct (pop_leaf l) as [[[[x1 s1] g1] l1]|] eqn:El.
      * destruct (pop_leaf_ok _ _ _ _ _ El) as [I1 I2]. split; [clear I2 E V; pc|].
        intros j pfx o [H C]. destruct j as [|j]; [destruct C as [-> _]; easy|].
        destruct C as [Cl Cr]. destruct (I2 _ _ Cl) as [A B].
        split; [|split; easy]. apply (shape_up j pfx 0); [tauto|lia].
      * apply pop_leaf_none in El. subst l. split; [apply Permutation_refl|easy].
  - assert (R : ring = rev rest ++ [x]) by (symmetry; exact V).
    split.
    + clear E V. subst ring. pc.
    + intros j pfx o H. exact H.
Qed.

Lemma without_notin x l : ~ In x l -> without x l = l.
Proof.
  unfold without. induction l as [|y l IH]; cbn; intros H; [easy|].
  destruct (y =? x) eqn:E; cbn; [|rewrite IH; tauto].
  apply Z.eqb_eq in E. subst. tauto.
Qed.

Lemma without_perm x l : NoDup l -> In x l -> Permutation l (x :: without x l).
Proof.
  induction l as [|y l IH]; cbn; intros N H; [easy|].
  apply NoDup_cons_iff in N as [N1 N2]. fold (without x l).
  destruct (y =? x) eqn:E; cbn.
  - apply Z.eqb_eq in E. subst. rewrite without_notin; easy.
  - apply Z.eqb_neq in E. destruct H as [H|H]; [easy|].
    rewrite perm_swap. apply perm_skip. now apply IH.
Qed.

Lemma t_unlink_out x t : ~ In x (map fst (elems t)) -> t_unlink x t = t.
Proof.
  induction t as [|o s ring l IHl r IHr]; cbn; intros H; [easy|].
  rewrite !map_app, map_map in H. cbn in H. rewrite map_id in H.
  rewrite !in_app_iff in H.
  destruct (o =? x) eqn:E; [lia|].
  rewrite IHl, IHr, without_notin by tauto. reflexivity.
Qed.

Lemma nodup_app {A} (a b : list A) : NoDup (a ++ b) ->
  NoDup a /\ NoDup b /\ forall x, In x a -> ~ In x b.
Proof.
  induction a as [|x a IH]; cbn; intros H.
  - split; [constructor|]. split; [easy|]. easy.
  - apply NoDup_cons_iff in H as [H1 H2]. destruct (IH H2) as (A1 & A2 & A3).
    rewrite in_app_iff in H1. split; [constructor; tauto|]. split; [easy|].
    intros y [<-|Hy]; [tauto|now apply A3].
Qed.

Lemma t_unlink_shape x t : forall j pfx, shape j pfx t -> shape j pfx (t_unlink x t).
Proof.
  induction t as [|o s ring l IHl r IHr]; intros j pfx H; cbn; [easy|].
  destruct (o =? x); [now apply (proj2 (remove_node_ok ring s l r) j pfx o)|].
  destruct H as [H C]. split; [easy|]. destruct j as [|j].
  - destruct C as [-> ->]. easy.
  - destruct C. split; auto.
Qed.

Lemma t_unlink_perm x t : NoDup (map fst (elems t)) -> In x (map fst (elems t)) ->
  exists s, Permutation (elems t) ((x, s) :: elems (t_unlink x t)).
Proof.
  induction t as [|o s ring l IHl r IHr]; cbn; intros N H; [easy|].
  apply NoDup_cons_iff in N as [N1 N2].
  destruct (o =? x) eqn:E.
  - apply Z.eqb_eq in E. subst o. exists s. apply perm_skip.
    symmetry. apply (remove_node_ok ring s l r).
  - apply Z.eqb_neq in E. destruct H as [H|H]; [easy|].
    rewrite !map_app, map_map in *. cbn in *. rewrite map_id in *.
    apply nodup_app in N2 as (M1 & M2 & M3). apply nodup_app in M2 as (M4 & M5 & M6).
    rewrite !in_app_iff in H. destruct H as [H|[H|H]].
    + exists s. rewrite (t_unlink_out x l), (t_unlink_out x r).
      * rewrite perm_swap. apply perm_skip.
        change ((x, s) :: map (fun x0 => (x0, s)) (without x ring) ++ elems l ++ elems r) with
          (map (fun x0 => (x0, s)) (x :: without x ring) ++ elems l ++ elems r).
        apply Permutation_app_tail. apply Permutation_map. now apply without_perm.
      * intros K. apply (M3 x H). rewrite in_app_iff. tauto.
      * intros K. apply (M3 x H). rewrite in_app_iff. tauto.
    + destruct (IHl M4 H) as (s1 & I1). exists s1. rewrite (t_unlink_out x r).
      * rewrite without_notin.
        -- clear IHl IHr M3 M6. pc.
        -- intros K. apply (M3 x K). rewrite in_app_iff. tauto.
      * now apply M6.
    + destruct (IHr M5 H) as (s1 & I1). exists s1. rewrite (t_unlink_out x l).
      * rewrite without_notin.
        -- clear IHl IHr M3 M6. pc.
        -- intros K. apply (M3 x K). rewrite in_app_iff. tauto.
      * intros K. now apply (M6 x).
Qed.
