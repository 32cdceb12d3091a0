(** Lemmas about lists indexed by PE numbers. *)
From Verif Require Import Base BaseProofs.

(** ** Sequences of PE numbers *)

Definition zseq (lo : Z) (n : nat) : list Z := map (fun i => lo + Z.of_nat i) (seq 0 n).

Lemma zseq_S lo n : zseq lo (S n) = lo :: zseq (lo + 1) n.
Proof.
  unfold zseq. simpl. f_equal; [lia|].
  rewrite <- seq_shift, map_map. apply map_ext. intros; lia.
Qed.

Lemma zseq_length lo n : length (zseq lo n) = n.
Proof. unfold zseq. rewrite map_length, seq_length. reflexivity. Qed.

Lemma in_zseq lo n i : In i (zseq lo n) <-> lo <= i < lo + Z.of_nat n.
Proof.
  unfold zseq. rewrite in_map_iff. split.
  - intros (k & <- & Hk). apply in_seq in Hk. lia.
  - intros H. exists (Z.to_nat (i - lo)). split; [lia|]. apply in_seq. lia.
Qed.

Lemma aget_map {A B} (f : A -> B) (l : list A) i : aget (map f l) i = option_map f (aget l i).
Proof. unfold aget. destruct (i <? 0); [reflexivity|]. apply nth_error_map. Qed.

Lemma nth_error_seq0 n i : (i < n)%nat -> nth_error (seq 0 n) i = Some i.
Proof.
  intros H. rewrite (nth_error_nth' _ 0%nat) by (rewrite seq_length; lia).
  rewrite seq_nth by lia. reflexivity.
Qed.

Lemma aget_zseq n i : 0 <= i < Z.of_nat n -> aget (zseq 0 n) i = Some i.
Proof.
  intros H. unfold zseq. rewrite aget_map. unfold aget.
  destruct (Z.ltb_spec i 0); [lia|].
  rewrite nth_error_seq0 by lia. simpl. f_equal. lia.
Qed.

Lemma aget_zmap {B} (f : Z -> B) n i :
  0 <= i < Z.of_nat n -> aget (map f (zseq 0 n)) i = Some (f i).
Proof. intros H. rewrite aget_map, aget_zseq by assumption. reflexivity. Qed.

Lemma aget_some {A} (l : list A) i a : aget l i = Some a -> 0 <= i < Z.of_nat (length l).
Proof.
  unfold aget. destruct (Z.ltb_spec i 0); [discriminate|].
  intros H2. assert (nth_error l (Z.to_nat i) <> None) by congruence.
  apply nth_error_Some in H0. lia.
Qed.

Lemma aget_ex {A} (l : list A) i : 0 <= i < Z.of_nat (length l) -> exists a, aget l i = Some a.
Proof.
  intros H. unfold aget. destruct (Z.ltb_spec i 0); [lia|].
  destruct (nth_error l (Z.to_nat i)) eqn:E; [eauto|].
  apply nth_error_None in E. lia.
Qed.

Lemma aget_upd_eq {A} (l : list A) i x :
  0 <= i < Z.of_nat (length l) -> aget (upd l (Z.to_nat i) x) i = Some x.
Proof.
  intros H. unfold aget. destruct (Z.ltb_spec i 0); [lia|].
  apply nth_error_upd_eq. lia.
Qed.

Lemma aget_upd_ne {A} (l : list A) i j x :
  0 <= i -> i <> j -> aget (upd l (Z.to_nat i) x) j = aget l j.
Proof.
  intros H0 H. unfold aget. destruct (Z.ltb_spec j 0); [reflexivity|].
  apply nth_error_upd_ne. lia.
Qed.

Lemma outs_ok {A} (f : Z -> outcome A) (g : Z -> A) n : forall lo,
  (forall i, lo <= i < lo + Z.of_nat n -> f i = Ok (g i)) ->
  outs f lo n = Ok (map g (zseq lo n)).
Proof.
  induction n as [|n IH]; intros lo H; [reflexivity|].
  rewrite zseq_S. simpl. rewrite (H lo) by lia. simpl.
  rewrite (IH (lo + 1)) by (intros; apply H; lia). reflexivity.
Qed.

Lemma zmap_ext {B} (f g : Z -> B) n :
  (forall i, 0 <= i < Z.of_nat n -> f i = g i) -> map f (zseq 0 n) = map g (zseq 0 n).
Proof. intros H. apply map_ext_in. intros i Hi. apply in_zseq in Hi. apply H. lia. Qed.

Lemma aget_In {A} (l : list A) i a : aget l i = Some a -> In a l.
Proof. unfold aget. destruct (i <? 0); [discriminate|]. apply nth_error_In. Qed.

Lemma In_aget {A} (l : list A) a : In a l -> exists i, aget l i = Some a.
Proof.
  intros H. apply In_nth_error in H. destruct H as (i & Hi). exists (Z.of_nat i).
  unfold aget. destruct (Z.ltb_spec (Z.of_nat i) 0); [lia|]. rewrite Nat2Z.id. exact Hi.
Qed.

(** Strictly increasing lists with the same elements are equal. *)
Inductive zinc : list Z -> Prop :=
| zinc_nil : zinc []
| zinc_cons a l : (forall b, In b l -> a < b) -> zinc l -> zinc (a :: l).

Lemma zinc_ext l1 : forall l2, zinc l1 -> zinc l2 -> (forall x, In x l1 <-> In x l2) -> l1 = l2.
Proof.
  induction l1 as [|a l1 IH]; intros l2 H1 H2 HE.
  - destruct l2 as [|b l2]; [reflexivity|]. destruct (proj2 (HE b) (or_introl eq_refl)).
  - destruct l2 as [|b l2]; [destruct (proj1 (HE a) (or_introl eq_refl))|].
    inversion H1 as [|? ? A1 B1]; subst. inversion H2 as [|? ? A2 B2]; subst.
    assert (E : a = b).
    { destruct (proj1 (HE a) (or_introl eq_refl)) as [->|Ha]; [reflexivity|].
      destruct (proj2 (HE b) (or_introl eq_refl)) as [->|Hb]; [reflexivity|].
      specialize (A1 _ Hb). specialize (A2 _ Ha). lia. }
    subst b. f_equal. apply IH; auto. intros x. split; intros Hx.
    + destruct (proj1 (HE x) (or_intror Hx)) as [->|]; [|assumption]. specialize (A1 _ Hx). lia.
    + destruct (proj2 (HE x) (or_intror Hx)) as [->|]; [|assumption]. specialize (A2 _ Hx). lia.
Qed.

Lemma zinc_zseq n : forall lo, zinc (zseq lo n).
Proof.
  induction n as [|n IH]; intros lo; [constructor|].
  rewrite zseq_S. constructor; [|apply IH]. intros b Hb. apply in_zseq in Hb. lia.
Qed.

Lemma zinc_filter f l : zinc l -> zinc (filter f l).
Proof.
  induction 1 as [|a l H1 H2 IH]; simpl; [constructor|].
  destruct (f a); [|exact IH]. constructor; [|exact IH].
  intros b Hb. apply filter_In in Hb. apply H1. tauto.
Qed.

Lemma zinc_map_lin start stride n : forall lo, 0 < stride ->
  zinc (map (fun k => start + k * stride) (zseq lo n)).
Proof.
  induction n as [|n IH]; intros lo Hs; [constructor|].
  rewrite zseq_S. cbn [map]. constructor; [|apply IH; exact Hs].
  intros b Hb. apply in_map_iff in Hb. destruct Hb as (k & <- & Hk). apply in_zseq in Hk. nia.
Qed.

Lemma map_filter {A B} (f : A -> B) (p : B -> bool) l :
  filter p (map f l) = map f (filter (fun x => p (f x)) l).
Proof. induction l as [|a l IH]; [reflexivity|]. simpl. destruct (p (f a)); simpl; congruence. Qed.
