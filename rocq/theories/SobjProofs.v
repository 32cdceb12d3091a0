(** Lemmas about handles, address translation and windows. *)
From Verif Require Import Base BaseProofs SobjModel SobjSpec.
From Verif Require Export ListLib.
From Coq Require Import Permutation.

(** ** Handles *)

Lemma testbit_small (b n i : Z) : 0 <= b < 2 ^ n -> 0 <= n <= i -> Z.testbit b i = false.
Proof.
  intros Hb Hi. apply Z.testbit_false; [lia|].
  rewrite Z.div_small; [reflexivity|].
  split; [lia|]. apply Z.lt_le_trans with (2 ^ n); [lia|]. apply Z.pow_le_mono_r; lia.
Qed.

Lemma land_shiftl_small (a b n : Z) :
  0 <= n -> 0 <= b < 2 ^ n -> Z.land (Z.shiftl a n) b = 0.
Proof.
  intros Hn Hb. apply Z.bits_inj'. intros i Hi. rewrite Z.land_spec, Z.bits_0.
  destruct (Z.ltb_spec i n).
  - rewrite Z.shiftl_spec_low by lia. reflexivity.
  - rewrite (testbit_small b n i) by lia. apply andb_false_r.
Qed.

Lemma lor_shiftl_add (a b n : Z) :
  0 <= n -> 0 <= b < 2 ^ n -> Z.lor (Z.shiftl a n) b = a * 2 ^ n + b.
Proof.
  intros Hn Hb.
  rewrite <- Z.lxor_lor by (apply land_shiftl_small; assumption).
  rewrite <- Z.add_nocarry_lxor by (apply land_shiftl_small; assumption).
  rewrite Z.shiftl_mul_pow2 by lia. reflexivity.
Qed.

Lemma set_handle_value (kind symm idx : Z) :
  0 <= kind < 4 -> 0 <= symm < 2 -> 0 <= idx < 2 ^ 29 ->
  set_handle kind symm idx = kind * 2 ^ 30 + symm * 2 ^ 29 + idx.
Proof.
  intros Hk Hs Hi. unfold set_handle, KIND_SHIFT, SYMMBIT_SHIFT.
  replace (Z.lor (Z.lor (Z.shiftl kind 30) (Z.shiftl symm 29)) idx)
     with (Z.lor (Z.shiftl (2 * kind + symm) 29) idx).
  2:{ f_equal. rewrite Z.lor_comm.
      replace (Z.shiftl kind 30) with (Z.shiftl (Z.shiftl kind 1) 29)
        by (rewrite Z.shiftl_shiftl by lia; reflexivity).
      rewrite <- Z.shiftl_lor. f_equal.
      rewrite Z.lor_comm, lor_shiftl_add by lia. lia. }
  rewrite lor_shiftl_add by lia. unfold wrap32. rewrite Z.mod_small; lia.
Qed.

Ltac Zify.zify_post_hook ::= Z.div_mod_to_equations.

Lemma handle_decode (kind symm idx : Z) :
  0 <= kind < 4 -> 0 <= symm < 2 -> 0 <= idx < 2 ^ 29 ->
  handle_kind (set_handle kind symm idx) = kind /\
  handle_symm (set_handle kind symm idx) = symm /\
  handle_idx (set_handle kind symm idx) = idx.
Proof.
  intros Hk Hs Hi. rewrite set_handle_value by assumption.
  unfold handle_kind, handle_symm, handle_idx.
  rewrite !Z.shiftr_land.
  change (Z.shiftr KIND_MASK KIND_SHIFT) with (Z.ones 2).
  change (Z.shiftr SYMMBIT_MASK SYMMBIT_SHIFT) with (Z.ones 1).
  change IDX_MASK with (Z.ones 29).
  rewrite !Z.land_ones, !Z.shiftr_div_pow2 by (unfold KIND_SHIFT, SYMMBIT_SHIFT; lia).
  unfold KIND_SHIFT, SYMMBIT_SHIFT. repeat split; lia.
Qed.

Lemma handle_check_symm_set (kind idx : Z) (b : bool) :
  0 <= kind < 4 -> 0 <= idx < 2 ^ 29 ->
  handle_check_symm (set_handle kind (if b then 1 else 0) idx) = b.
Proof.
  intros Hk Hi.
  destruct (handle_decode kind (if b then 1 else 0) idx Hk) as (_ & H & _);
    [destruct b; lia | exact Hi |].
  unfold handle_check_symm. unfold handle_symm in H.
  destruct (Z.eqb_spec (Z.land (set_handle kind (if b then 1 else 0) idx) SYMMBIT_MASK) 0) as [E|E].
  - rewrite E in H. rewrite Z.shiftr_0_l in H. destruct b; [discriminate | reflexivity].
  - destruct b; [reflexivity|].
    exfalso. apply E. apply Z.bits_inj'. intros n Hn. rewrite Z.bits_0, Z.land_spec.
    rewrite Z.shiftr_land in H. change (Z.shiftr SYMMBIT_MASK SYMMBIT_SHIFT) with (Z.ones 1) in H.
    destruct (Z.eqb_spec n 29) as [->|Hne].
    + assert (H2 : Z.testbit (Z.land (Z.shiftr (set_handle kind 0 idx) SYMMBIT_SHIFT) (Z.ones 1)) 0 = false)
        by (rewrite H; reflexivity).
      rewrite Z.land_spec, Z.shiftr_spec in H2 by lia.
      change (0 + SYMMBIT_SHIFT) with 29 in H2.
      change (Z.testbit (Z.ones 1) 0) with true in H2. rewrite andb_true_r in H2. rewrite H2. reflexivity.
    + replace (Z.testbit SYMMBIT_MASK n) with false; [apply andb_false_r|].
      symmetry. change SYMMBIT_MASK with (2 ^ 29). apply Z.pow2_bits_false. lia.
Qed.

Lemma handle_inj (k1 s1 i1 k2 s2 i2 : Z) :
  0 <= k1 < 4 -> 0 <= s1 < 2 -> 0 <= i1 < 2 ^ 29 ->
  0 <= k2 < 4 -> 0 <= s2 < 2 -> 0 <= i2 < 2 ^ 29 ->
  set_handle k1 s1 i1 = set_handle k2 s2 i2 -> k1 = k2 /\ s1 = s2 /\ i1 = i2.
Proof. intros. rewrite !set_handle_value in H5 by assumption. lia. Qed.

(** ** Symmetry check *)

Lemma check_symm_loop_spec (mine : Z) : forall addrs flag,
  check_symm_loop addrs mine flag =
  (flag && forallb (fun a => a =? mine) addrs, map (fun a => a - mine) addrs).
Proof.
  induction addrs as [|a r IH]; intros flag; simpl.
  - rewrite andb_true_r. reflexivity.
  - rewrite IH. simpl. rewrite andb_assoc. reflexivity.
Qed.

(** The attribute each PE ends up with. *)
Definition all_eq (n : nat) (bf : Z -> Z) (p : Z) : bool :=
  forallb (fun a => a =? bf p) (map bf (zseq 0 n)).

Definition xattr (dyn : bool) (n : nat) (bf : Z -> Z) (p size kind idx : Z) : attr :=
  mkAttr (set_handle kind (if dyn && all_eq n bf p then 1 else 0) idx) (bf p) size
         (if dyn && negb (all_eq n bf p)
          then Some (map (fun i => bf i - bf p) (zseq 0 n)) else None).

Lemma make_attr_ok dyn n bf p size kind idx :
  0 <= p < Z.of_nat n ->
  make_attr dyn (map bf (zseq 0 n)) p size kind idx = Ok (xattr dyn n bf p size kind idx).
Proof.
  intros Hp. unfold make_attr, xattr, symm_info_allgather, check_symm_mem.
  rewrite aget_zmap by assumption. simpl.
  destruct dyn; simpl; [|reflexivity].
  rewrite check_symm_loop_spec. simpl. fold (all_eq n bf p).
  destruct (all_eq n bf p); simpl; [reflexivity|].
  rewrite map_map. reflexivity.
Qed.

Lemma all_eq_spec n bf p :
  all_eq n bf p = true <-> (forall i, 0 <= i < Z.of_nat n -> bf i = bf p).
Proof.
  unfold all_eq. rewrite forallb_forall. split.
  - intros H i Hi. apply Z.eqb_eq. apply H. apply in_map. apply in_zseq. lia.
  - intros H a Ha. apply in_map_iff in Ha. destruct Ha as (i & <- & Hi).
    apply in_zseq in Hi. apply Z.eqb_eq. apply H. lia.
Qed.

Lemma all_eq_agree n bf p q :
  0 <= p < Z.of_nat n -> 0 <= q < Z.of_nat n -> all_eq n bf p = all_eq n bf q.
Proof.
  intros Hp Hq. apply eq_true_iff_eq. rewrite !all_eq_spec.
  split; intros H i Hi.
  - rewrite (H i Hi), (H q Hq). reflexivity.
  - rewrite (H i Hi), (H p Hp). reflexivity.
Qed.

(** Displacement in absolute mode is the target's address. *)
Lemma abs_disp_ok n bf p t size kind idx d :
  0 <= kind < 4 -> 0 <= idx < 2 ^ 29 ->
  0 <= p < Z.of_nat n -> 0 <= t < Z.of_nat n ->
  vaddr_to_disp true (xattr true n bf p size kind idx) (bf p + d) t AbsDisp = Ok (bf t + d).
Proof.
  intros Hk Hi Hp Ht. unfold vaddr_to_disp, xattr. simpl.
  rewrite handle_check_symm_set by assumption.
  destruct (all_eq n bf p) eqn:E.
  - rewrite all_eq_spec in E. rewrite <- (E t Ht). reflexivity.
  - simpl. rewrite aget_zmap by assumption. simpl. f_equal. lia.
Qed.

Lemma rel_disp_ok dyn n bf p t size kind idx d mode :
  (dyn = false \/ mode = RelDisp) ->
  vaddr_to_disp dyn (xattr dyn n bf p size kind idx) (bf p + d) t mode = Ok d.
Proof.
  intros H. unfold vaddr_to_disp. destruct dyn, mode; simpl; destruct H; try discriminate;
    f_equal; lia.
Qed.

Lemma xattr_handle_agree dyn n bf p q size kind idx :
  0 <= p < Z.of_nat n -> 0 <= q < Z.of_nat n ->
  a_handle (xattr dyn n bf p size kind idx) = a_handle (xattr dyn n bf q size kind idx).
Proof. intros Hp Hq. unfold xattr. simpl. rewrite (all_eq_agree n bf p q) by assumption. reflexivity. Qed.
