(** Lemmas about the common definitions. *)
From Verif Require Import Base.

Ltac Zify.zify_post_hook ::= Z.div_mod_to_equations.

Lemma bind_Ok {A B : Type} (x : outcome A) (f : A -> outcome B) (b : B) :
  bind x f = Ok b -> exists a, x = Ok a /\ f a = Ok b.
Proof. destruct x; simpl; intros H; try discriminate; eauto. Qed.

Lemma land_wrap64 (x m : Z) : 0 <= x < 2 ^ 64 -> Z.land x (m mod 2 ^ 64) = Z.land x m.
Proof.
  intros Hx.
  rewrite <- (Z.land_ones m 64) by lia.
  rewrite (Z.land_comm m), Z.land_assoc.
  rewrite (Z.land_ones x 64) by lia.
  rewrite (Z.mod_small x) by lia. reflexivity.
Qed.

Lemma c_align_pow2 (val k : Z) :
  0 <= k < 64 -> 0 <= val -> val + 2 ^ k - 1 < 2 ^ 64 ->
  c_align val (2 ^ k) = (val + 2 ^ k - 1) / 2 ^ k * 2 ^ k.
Proof.
  intros Hk Hv Hb. unfold c_align, wrap64.
  assert (Hp : 0 < 2 ^ k) by (apply Z.pow_pos_nonneg; lia).
  rewrite (Z.mod_small (val + _ - 1)) by lia.
  rewrite land_wrap64 by lia.
  replace (2 ^ k - 1) with (Z.ones k) by (rewrite Z.ones_equiv; lia).
  rewrite <- Z.ldiff_land, Z.ldiff_ones_r by lia.
  rewrite Z.shiftl_mul_pow2, Z.shiftr_div_pow2 by lia. reflexivity.
Qed.

Lemma to_int_id (z : Z) : - 2 ^ 31 <= z < 2 ^ 31 -> to_int z = z.
Proof. intros H. unfold to_int. rewrite Z.mod_small by lia. lia. Qed.

Lemma wrap32_id (z : Z) : 0 <= z < 2 ^ 32 -> wrap32 z = z.
Proof. intros H. unfold wrap32. apply Z.mod_small. lia. Qed.

Lemma wrap64_id (z : Z) : 0 <= z < 2 ^ 64 -> wrap64 z = z.
Proof. intros H. unfold wrap64. apply Z.mod_small. lia. Qed.

Lemma upd_length {A} (l : list A) n x : length (upd l n x) = length l.
Proof. revert n; induction l as [|a t IH]; intros [|n]; simpl; auto. Qed.

Lemma upd_app_at {A} (pre post : list A) (a x : A) :
  upd (pre ++ a :: post) (length pre) x = pre ++ x :: post.
Proof. induction pre as [|b pre IH]; simpl; [reflexivity | rewrite IH; reflexivity]. Qed.

Lemma nth_error_upd_eq {A} (l : list A) n x : (n < length l)%nat -> nth_error (upd l n x) n = Some x.
Proof. revert n; induction l as [|a t IH]; intros [|n]; simpl; intros; try lia; auto with arith. Qed.

Lemma nth_error_upd_ne {A} (l : list A) n m x : n <> m -> nth_error (upd l n x) m = nth_error l m.
Proof. revert n m; induction l as [|a t IH]; intros [|n] [|m]; simpl; intros; try congruence; auto. Qed.

Lemma aget_app_at {A} (pre post : list A) (a : A) (i : Z) :
  i = Z.of_nat (length pre) -> aget (pre ++ a :: post) i = Some a.
Proof.
  intros ->. unfold aget. destruct (Z.ltb_spec (Z.of_nat (length pre)) 0); [lia|].
  rewrite Nat2Z.id, nth_error_app2 by lia. rewrite Nat.sub_diag. reflexivity.
Qed.

Lemma aset_app_at {A} (pre post : list A) (a x : A) (i : Z) :
  i = Z.of_nat (length pre) -> aset (pre ++ a :: post) i x = Some (pre ++ x :: post).
Proof.
  intros ->. unfold aset.
  assert (H : (0 <=? Z.of_nat (length pre)) && (Z.of_nat (length pre) <? Z.of_nat (length (pre ++ a :: post))) = true).
  { rewrite app_length; simpl. lia. }
  rewrite H, Nat2Z.id, upd_app_at. reflexivity.
Qed.
