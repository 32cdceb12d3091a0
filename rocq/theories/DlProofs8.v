(** The bins lead to every free block, once. *)
From Coq Require Import Permutation.
From Verif Require Import Base BaseProofs SobjModel HeapModel HeapSpec HeapProofs HeapProofs2
  DlModel DlSpec DlProofs DlProofs2 DlProofs3 DlProofs4 DlProofs5 DlProofs6 DlProofs7.

Lemma in_tree_elems t : in_tree t = elems t.
Proof. induction t as [|o s ring l IHl r IHr]; cbn; [reflexivity|]. now rewrite IHl, IHr. Qed.

Lemma nodup_flat {A B} (f : A -> list B) l : NoDup l -> (forall i, In i l -> NoDup (f i)) ->
  (forall i j x, In i l -> In j l -> In x (f i) -> In x (f j) -> i = j) -> NoDup (flat_map f l).
Proof.
  induction l as [|a l IH]; intros N H D; cbn; [constructor|].
  apply NoDup_cons_iff in N as [N1 N2].
  assert (NI : NoDup (flat_map f l)).
  { apply IH; auto.
    - intros i I. apply H. now right.
    - intros i j x I J. apply D; now right. }
  assert (NA : NoDup (f a)) by (apply H; now left).
  assert (X : forall x, In x (f a) -> ~ In x (flat_map f l)).
  { intros x Ix Jx. apply in_flat_map in Jx as (j & J & Jx). apply N1.
    rewrite (D a j x); auto; [now left|now right]. }
  clear - NI NA X. induction (f a) as [|x q IHq]; cbn; [exact NI|].
  apply NoDup_cons_iff in NA as [N1 N2]. constructor.
  - rewrite in_app_iff. intros [Q|Q]; [easy|]. apply (X x); [now left|easy].
  - apply IHq; [easy|]. intros y Y. apply X. now right.
Qed.

Lemma rows_in i : In i rows <-> 0 <= i < 32.
Proof.
  unfold rows. rewrite in_map_iff. split.
  - intros (n & <- & H). apply in_seq in H. lia.
  - intros H. exists (Z.to_nat i). split; [lia|]. apply in_seq. lia.
Qed.
Lemma rows_nd : NoDup rows.
Proof.
  unfold rows. apply FinFun.Injective_map_NoDup; [|apply seq_NoDup]. intros x y. lia.
Qed.

Lemma nodup_fst {A B} (l : list (A * B)) : NoDup (map fst l) -> NoDup l.
Proof. apply NoDup_map_inv. Qed.

Lemma free_nd l : forall o, Forall wfc l -> NoDup (free_at o l).
Proof.
  induction l as [|c l IH]; intros o W; cbn; [constructor|].
  inversion W as [|? ? [D S] W']; subst. destruct (is_free c); cbn; [|now apply IH].
  constructor; [|now apply IH]. intros H. apply free_bounds in H; [|easy]. lia.
Qed.

Lemma binned_ok T d : DI T d -> Permutation (binned (d_b d)) (free_blocks (d_h d)).
Proof.
  intros [W L NT [B D]]. pose proof (fr_HF T _ W L NT) as [HF1 HF2].
  destruct B as [BS BF [S1 S2 S3 S4] [T1 T2 T3 T4 T5]].
  assert (FR : forall x y, fr (d_h d) x y <-> In (x, y) (free_blocks (d_h d))) by reflexivity.
  set (b := d_b d) in *.
  set (fs := fun i => if Z.testbit (smap b) i then map (fun o => (o, 8 * i)) (sb b i) else []).
  set (ft := fun i => if Z.testbit (tmap b) i then in_tree (tb b i) else []).
  assert (IS : forall i x y, 0 <= i < 32 -> In (x, y) (fs i) <-> fr (d_h d) x y /\ x <> dv b /\ y = 8 * i).
  { intros i x y I. specialize (S3 i x I). unfold sl in S3. unfold fs.
    destruct (Z.testbit (smap b) i).
    - rewrite in_map_iff. split.
      + intros (o & Q & H). injection Q as <- <-. apply S3 in H. tauto.
      + intros (H1 & H2 & ->). exists x. split; [reflexivity|]. apply S3. tauto.
    - cbn. cbn in S3. split; [easy|]. intros (H1 & H2 & ->). apply S3. tauto. }
  assert (IT : forall i x y, 0 <= i < 32 -> In (x, y) (ft i) <->
            fr (d_h d) x y /\ x <> dv b /\ 256 <= y /\ tree_index y = i).
  { intros i x y I. specialize (T4 i x y I). specialize (T5 i I). unfold ft.
    destruct (Z.testbit (tmap b) i) eqn:TB.
    - rewrite in_tree_elems, T4. tauto.
    - destruct T5 as [_ T5]. rewrite (T5 eq_refl) in T4. cbn in *. tauto. }
  assert (DV : dv b = 0 \/ fr (d_h d) (dv b) (dvs b)) by (destruct D as [[D _]|D]; auto).
  assert (NS : NoDup (flat_map fs rows)).
  { apply nodup_flat; [apply rows_nd| |].
    - intros i I. apply rows_in in I. specialize (S2 i I). unfold sl in S2. unfold fs.
      destruct (Z.testbit _ _); [|constructor].
      apply FinFun.Injective_map_NoDup; [|exact S2]. intros x y Q. congruence.
    - intros i j [x y] I J H1 H2. apply rows_in in I, J. apply IS in H1; [|easy]. apply IS in H2; [|easy]. lia. }
  assert (NTT : NoDup (flat_map ft rows)).
  { apply nodup_flat; [apply rows_nd| |].
    - intros i I. apply rows_in in I. unfold ft. destruct (Z.testbit _ _); [|constructor].
      rewrite in_tree_elems. apply nodup_fst. auto.
    - intros i j [x y] I J H1 H2. apply rows_in in I, J. apply IT in H1; [|easy]. apply IT in H2; [|easy].
      destruct H1 as (_ & _ & _ & <-), H2 as (_ & _ & _ & <-). reflexivity. }
  assert (INS : forall x y, In (x, y) (flat_map fs rows) <-> fr (d_h d) x y /\ x <> dv b /\ y < 256).
  { intros x y. rewrite in_flat_map. split.
    - intros (i & I & H). apply rows_in in I. apply IS in H; [|easy]. intuition lia.
    - intros (H1 & H2 & H3). pose proof (HF1 _ _ H1) as [_ [O2 O1]].
      exists (y / 8). assert (Y : y = 8 * (y / 8)).
      { destruct O1 as [q Q]. replace y with (q * 2 * 8) by lia. rewrite Z.div_mul; lia. }
      assert (0 <= y / 8 < 32) by lia. split; [now apply rows_in|]. apply IS; auto. }
  assert (INT : forall x y, In (x, y) (flat_map ft rows) <-> fr (d_h d) x y /\ x <> dv b /\ 256 <= y).
  { intros x y. rewrite in_flat_map. split.
    - intros (i & I & H). apply rows_in in I. apply IT in H; [|easy]. tauto.
    - intros (H1 & H2 & H3). pose proof (HF1 _ _ H1) as [_ O].
      exists (tree_index y). assert (0 <= tree_index y < 32) by (destruct O; pose proof (tree_index_range y); lia).
      split; [now apply rows_in|]. apply IT; auto. }
  apply NoDup_Permutation.
  - unfold binned. fold fs ft.
    assert (N2 : NoDup (flat_map fs rows ++ flat_map ft rows)).
    { clear - NS NTT INS INT. set (p := flat_map fs rows) in *. set (q := flat_map ft rows) in *.
      assert (X : forall x, In x p -> ~ In x q).
      { intros [x y] H1 H2. apply INS in H1. apply INT in H2. lia. }
      clear INS INT. clearbody p q. induction p as [|x p IH]; cbn; [exact NTT|].
      apply NoDup_cons_iff in NS as [N1 N2]. constructor.
      - rewrite in_app_iff. intros [Q|Q]; [easy|]. apply (X x); [now left|easy].
      - apply IH; auto. intros y Y. apply X. now right. }
    destruct (Z.eqb_spec (dv b) 0); [exact N2|]. cbn [app]. constructor; [|exact N2].
    rewrite in_app_iff, INS, INT. intuition.
  - apply free_nd. apply W.
  - intros [x y]. rewrite <- FR. unfold binned. fold fs ft. rewrite !in_app_iff, INS, INT.
    assert (C : y < 256 \/ 256 <= y) by lia.
    destruct (Z.eqb_spec (dv b) 0) as [E|E]; cbn [In].
    + split; [tauto|]. intros H. assert (x <> dv b) by (pose proof (HF1 _ _ H); lia). tauto.
    + destruct DV as [DV|DV]; [easy|]. split.
      * intros [[Q|[]]|Q]; [injection Q as <- <-; exact DV|tauto].
      * intros H. destruct (Z.eq_dec x (dv b)) as [->|]; [|tauto].
        left. left. f_equal. eapply HF2; eauto.
Qed.
