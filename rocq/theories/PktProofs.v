(** Proofs about packets: layout, stores and loads. *)
From Verif Require Import Base PktModel PktSpec.

Lemma fsize_pos t : 0 < fsize t.
Proof. destruct t; cbn; lia. Qed.
Lemma align_up_ge o a : 0 < a -> o <= align_up o a.
Proof. intros A. unfold align_up. pose proof (Z.div_mod (o + a - 1) a ltac:(lia)). pose proof (Z.mod_pos_bound (o + a - 1) a A). nia. Qed.
Lemma align_up_mod o a : 0 < a -> align_up o a mod a = 0.
Proof. intros A. unfold align_up. apply Z.mod_mul. lia. Qed.

Lemma end_of_ge s : forall o, o <= end_of o s.
Proof.
  induction s as [|[f t] s IH]; intros o; cbn [end_of]; [lia|].
  pose proof (align_up_ge o (fsize t) (fsize_pos t)). pose proof (fsize_pos t). specialize (IH (align_up o (fsize t) + fsize t)). lia.
Qed.
Lemma find_bounds s : forall o f o' t, find_field (place o s) f = Some (o', t) -> o <= o' /\ o' + fsize t <= end_of o s /\ aligned o' t.
Proof.
  induction s as [|[g u] s IH]; intros o f o' t E; cbn [place find_field end_of] in *; [discriminate|].
  pose proof (align_up_ge o (fsize u) (fsize_pos u)) as A. pose proof (fsize_pos u).
  destruct (fld_beq g f).
  - injection E as <- <-. split; [exact A|]. split; [apply end_of_ge|]. unfold aligned. apply align_up_mod, fsize_pos.
  - apply IH in E. destruct E as (E1 & E2 & E3). split; [lia|]. split; [lia|exact E3].
Qed.
Lemma find_apart s : forall o f g o1 t1 o2 t2, f <> g ->
  find_field (place o s) f = Some (o1, t1) -> find_field (place o s) g = Some (o2, t2) -> apart o1 (fsize t1) o2 (fsize t2).
Proof.
  induction s as [|[h u] s IH]; intros o f g o1 t1 o2 t2 N F G; cbn [place find_field] in *; [discriminate|].
  destruct (fld_beq h f) eqn:Hf; destruct (fld_beq h g) eqn:Hg.
  - exfalso. apply N. apply internal_fld_dec_bl in Hf, Hg. congruence.
  - injection F as <- <-. apply find_bounds in G. left. lia.
  - injection G as <- <-. apply find_bounds in F. right. lia.
  - eapply IH; eassumption.
Qed.
Lemma sizeof_ge s : end_of 0 s <= sizeof s.
Proof.
  apply align_up_ge. induction s as [|[f t] s IH]; cbn [align_of]; [lia|]. pose proof (fsize_pos t). lia.
Qed.

(** Stores and loads *)
Lemma store_in m o n v a : o <= a < o + n -> store_n m o n v a = Some ((v / 256 ^ (a - o)) mod 256).
Proof. intros H. unfold store_n. replace (o <=? a) with true by lia. replace (a <? o + n) with true by lia. reflexivity. Qed.
Lemma store_out m o n v a : a < o \/ o + n <= a -> store_n m o n v a = m a.
Proof. intros H. unfold store_n. destruct (o <=? a) eqn:E; [|reflexivity]. replace (a <? o + n) with false by lia. reflexivity. Qed.
Lemma load_ext m m' : forall k o, (forall a, o <= a < o + Z.of_nat k -> m a = m' a) -> load_n m o k = load_n m' o k.
Proof.
  induction k as [|k IH]; intros o H; cbn [load_n]; [reflexivity|].
  rewrite (H o) by lia. rewrite (IH (o + 1)); [reflexivity|]. intros a A. apply H. lia.
Qed.
Lemma load_other m o n v o' k : o + n <= o' \/ o' + Z.of_nat k <= o -> load_n (store_n m o n v) o' k = load_n m o' k.
Proof. intros H. apply load_ext. intros a A. apply store_out. lia. Qed.
Lemma load_part m o n v : forall k j, 0 <= j -> j + Z.of_nat k <= n ->
  load_n (store_n m o n v) (o + j) k = Some ((v / 256 ^ j) mod 256 ^ Z.of_nat k).
Proof.
  induction k as [|k IH]; intros j J K; cbn [load_n].
  - cbn. rewrite Z.mod_1_r. reflexivity.
  - rewrite store_in by lia. replace (o + j + 1) with (o + (j + 1)) by ring. rewrite IH by lia. replace (o + j - o) with j by ring.
    f_equal. rewrite Z.pow_add_r, Z.pow_1_r by lia.
    assert (P : 0 < 256 ^ j) by (apply Z.pow_pos_nonneg; lia). assert (Q : 0 < 256 ^ Z.of_nat k) by (apply Z.pow_pos_nonneg; lia).
    rewrite <- Z.div_div by lia. rewrite Nat2Z.inj_succ, Z.pow_succ_r by lia. rewrite Z.rem_mul_r by lia. reflexivity.
Qed.
Lemma load_same m o n v k : Z.of_nat k <= n -> load_n (store_n m o n v) o k = Some (v mod 256 ^ Z.of_nat k).
Proof. intros K. pose proof (load_part m o n v k 0 ltac:(lia) ltac:(lia)) as L. rewrite Z.add_0_r in L. rewrite L. cbn. rewrite Z.div_1_r. reflexivity. Qed.

(** Range of a member *)
Definition in_range (t : fty) (v : Z) : Prop :=
  if fsigned t then - 2 ^ (8 * fsize t - 1) <= v < 2 ^ (8 * fsize t - 1) else 0 <= v < 2 ^ (8 * fsize t).
Lemma signed_back n v : 0 < n -> - 2 ^ (8 * n - 1) <= v < 2 ^ (8 * n - 1) -> as_signed n (v mod 2 ^ (8 * n)) = v.
Proof.
  intros N R. assert (E : 2 ^ (8 * n) = 2 * 2 ^ (8 * n - 1)) by (rewrite <- Z.pow_succ_r by lia; f_equal; lia).
  unfold as_signed. rewrite E. set (p := 2 ^ (8 * n - 1)) in *. assert (0 < p) by (apply Z.pow_pos_nonneg; lia).
  destruct (Z.ltb_spec v 0).
  - rewrite <- (Z.mod_add v 1 (2 * p)) by lia. rewrite Z.mod_small by lia. replace (_ <? _) with false by lia. lia.
  - rewrite Z.mod_small by lia. replace (_ <? _) with true by lia. reflexivity.
Qed.
Lemma pow256 n : 0 <= n -> 256 ^ n = 2 ^ (8 * n).
Proof. intros N. rewrite Z.pow_mul_r by lia. reflexivity. Qed.

Lemma get_put s f v m o t : field_at s f = Some (o, t) -> in_range t v -> get s f (put s f v m) = Some v.
Proof.
  intros F R. unfold get, put. rewrite F. pose proof (fsize_pos t). rewrite load_same by lia.
  cbn [option_map]. rewrite Z2Nat.id, pow256 by lia. f_equal. unfold in_range in R.
  destruct (fsigned t); [apply signed_back; lia|apply Z.mod_small; lia].
Qed.
Lemma raw_put s f n k v m o t : field_at s f = Some (o, t) -> 0 <= k <= n -> get_raw s f k (put_raw s f n v m) = Some (v mod 256 ^ k).
Proof. intros F K. unfold get_raw, put_raw. rewrite F, load_same by lia. rewrite Z2Nat.id by lia. reflexivity. Qed.

Lemma get_put_other s f g v m : f <> g -> get s g (put s f v m) = get s g m.
Proof.
  intros N. unfold get, put. destruct (field_at s g) as [[o2 t2]|] eqn:G; [|reflexivity]. destruct (field_at s f) as [[o1 t1]|] eqn:F; [|reflexivity].
  pose proof (find_apart _ _ _ _ _ _ _ _ N F G) as A. pose proof (fsize_pos t2). rewrite load_other; [reflexivity|].
  destruct A; [left|right]; lia.
Qed.
Lemma get_raw_other s f g n v m o t : f <> g -> field_at s f = Some (o, t) -> n <= fsize t -> get s g (put_raw s f n v m) = get s g m.
Proof.
  intros N F L. unfold get, put_raw. rewrite F. destruct (field_at s g) as [[o2 t2]|] eqn:G; [|reflexivity].
  pose proof (find_apart _ _ _ _ _ _ _ _ N F G) as A. pose proof (fsize_pos t2). rewrite load_other; [reflexivity|].
  destruct A; [left|right]; lia.
Qed.
Lemma raw_put_other s f g k v m o t : f <> g -> field_at s g = Some (o, t) -> 0 <= k <= fsize t -> get_raw s g k (put s f v m) = get_raw s g k m.
Proof.
  intros N G L. unfold get_raw, put. rewrite G. destruct (field_at s f) as [[o2 t2]|] eqn:F; [|reflexivity].
  pose proof (find_apart _ _ _ _ _ _ _ _ N F G) as A. rewrite load_other; [reflexivity|]. destruct A; [left|right]; lia.
Qed.
Lemma raw_raw_other s f g k n v m o t o' t' : f <> g -> field_at s g = Some (o, t) -> field_at s f = Some (o', t') -> 0 <= k <= fsize t ->
  n <= fsize t' -> get_raw s g k (put_raw s f n v m) = get_raw s g k m.
Proof.
  intros N G F L L'. unfold get_raw, put_raw. rewrite G, F. pose proof (find_apart _ _ _ _ _ _ _ _ N F G) as A.
  rewrite load_other; [reflexivity|]. destruct A; [left|right]; lia.
Qed.
(** The type of the packet lies before the union. *)
Lemma field_lower s f o t : field_at s f = Some (o, t) -> 0 <= o.
Proof. intros F. apply find_bounds in F. lia. Qed.
Lemma union_off_8 : union_off = 8. Proof. reflexivity. Qed.
Lemma sizeof_pkt_56 : sizeof_pkt = 56. Proof. reflexivity. Qed.
Lemma type_put s f v m : get_type (put s f v m) = get_type m.
Proof.
  unfold get_type, put. destruct (field_at s f) as [[o t]|] eqn:F; [|reflexivity]. apply field_lower in F. rewrite load_other; [reflexivity|].
  right. rewrite union_off_8. lia.
Qed.
Lemma type_put_raw s f n v m : get_type (put_raw s f n v m) = get_type m.
Proof.
  unfold get_type, put_raw. destruct (field_at s f) as [[o t]|] eqn:F; [|reflexivity]. apply field_lower in F. rewrite load_other; [reflexivity|].
  right. rewrite union_off_8. lia.
Qed.
Lemma type_type v m : 0 <= v < 2 ^ 31 -> get_type (put_type v m) = Some v.
Proof.
  intros R. unfold get_type, put_type. rewrite load_same by lia. cbn [option_map]. f_equal.
  change (256 ^ Z.of_nat 4) with (2 ^ (8 * 4)). apply signed_back; lia.
Qed.

(** Receiving *)
Lemma fits s f o t : In s union_members -> field_at s f = Some (o, t) -> union_off + o + fsize t <= sizeof_pkt.
Proof.
  intros I F. apply find_bounds in F. assert (E : end_of 0 s <= 48).
  { cbn in I. decompose [or] I; try subst s; try contradiction; vm_compute; discriminate. }
  rewrite union_off_8, sizeof_pkt_56. lia.
Qed.
Lemma load_receive buf m o k : 0 <= o -> o + Z.of_nat k <= sizeof_pkt -> load_n (receive buf m) o k = load_n m o k.
Proof.
  intros O K. apply load_ext. intros a A. unfold receive. replace (0 <=? a) with true by lia. replace (a <? sizeof_pkt) with true by lia. reflexivity.
Qed.
Lemma get_receive s f buf m : In s union_members -> get s f (receive buf m) = get s f m.
Proof.
  intros I. unfold get. destruct (field_at s f) as [[o t]|] eqn:F; [|reflexivity]. pose proof (fits _ _ _ _ I F). apply field_lower in F.
  pose proof (fsize_pos t). rewrite load_receive; [reflexivity| |]; rewrite ?union_off_8 in *; lia.
Qed.
Lemma raw_receive s f k buf m o t : In s union_members -> field_at s f = Some (o, t) -> 0 <= k <= fsize t ->
  get_raw s f k (receive buf m) = get_raw s f k m.
Proof.
  intros I F K. unfold get_raw. rewrite F. pose proof (fits _ _ _ _ I F). apply field_lower in F.
  rewrite load_receive; [reflexivity| |]; rewrite ?union_off_8 in *; lia.
Qed.
Lemma type_receive buf m : get_type (receive buf m) = get_type m.
Proof. unfold get_type. rewrite load_receive; [reflexivity|lia|]. rewrite sizeof_pkt_56. cbn. lia. Qed.
