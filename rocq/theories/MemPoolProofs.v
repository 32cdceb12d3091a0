(** Proofs about the memory pool. *)
From Coq Require Import Permutation.
From Verif Require Import Base BaseProofs MemPoolModel MemPoolSpec.

Ltac Zify.zify_post_hook ::= Z.div_mod_to_equations.

(** * The table as a list of segments *)

Inductive seg := F | U (n : nat).

Definition seg_ok (s : seg) : Prop := match s with F => True | U n => (0 < n)%nat end.

Definition enc1 (s : seg) : list Z :=
  match s with F => [0] | U n => Z.of_nat n :: repeat 0 (n - 1) end.

Fixpoint enc (l : list seg) : list Z :=
  match l with [] => [] | s :: t => enc1 s ++ enc t end.

Definition w1 (s : seg) : Z := match s with F => 1 | U n => Z.of_nat n end.

Fixpoint width (l : list seg) : Z :=
  match l with [] => 0 | s :: t => w1 s + width t end.

Fixpoint useds (l : list seg) (off : Z) : list (Z * Z) :=
  match l with
  | [] => []
  | F :: t => useds t (off + 1)
  | U n :: t => (off, Z.of_nat n) :: useds t (off + Z.of_nat n)
  end.

Lemma enc_app a b : enc (a ++ b) = enc a ++ enc b.
Proof. induction a as [|s a IH]; simpl; [reflexivity | rewrite IH, app_assoc; reflexivity]. Qed.

Lemma width_app a b : width (a ++ b) = width a + width b.
Proof. induction a as [|s a IH]; simpl; lia. Qed.

Lemma useds_app a b off : useds (a ++ b) off = useds a off ++ useds b (off + width a).
Proof.
  revert off; induction a as [|s a IH]; intros off; simpl.
  - rewrite Z.add_0_r. reflexivity.
  - destruct s as [|n]; rewrite IH; simpl; rewrite <- ?Z.add_assoc; reflexivity.
Qed.

Lemma useds_split l off u m :
  In (u, m) (useds l off) ->
  exists a k b, l = a ++ U k :: b /\ u = off + width a /\ m = Z.of_nat k.
Proof.
  revert off; induction l as [|s l IH]; intros off Hin; simpl in Hin; [tauto|].
  destruct s as [|k].
  - destruct (IH _ Hin) as (a & k & b & -> & -> & ->). exists (F :: a), k, b.
    repeat split. simpl. lia.
  - destruct Hin as [E|Hin].
    + injection E as <- <-. exists [], k, l. repeat split. simpl. lia.
    + destruct (IH _ Hin) as (a & k' & b & -> & -> & ->). exists (U k :: a), k', b.
      repeat split. simpl. lia.
Qed.

Lemma len_enc l : Forall seg_ok l -> Z.of_nat (length (enc l)) = width l.
Proof.
  induction 1 as [|s l Hs _ IH]; simpl; [reflexivity|].
  rewrite app_length, Nat2Z.inj_add, IH. destruct s as [|n]; simpl in *; [reflexivity|].
  rewrite repeat_length. lia.
Qed.

Lemma width_nonneg l : 0 <= width l.
Proof. induction l as [|[|n] l IH]; simpl; lia. Qed.

Lemma enc_repeat_F k : enc (repeat F k) = repeat 0 k.
Proof. induction k; simpl; congruence. Qed.
Lemma width_repeat_F k : width (repeat F k) = Z.of_nat k.
Proof. induction k; simpl; lia. Qed.
Lemma useds_repeat_F k off : useds (repeat F k) off = [].
Proof. revert off; induction k; simpl; auto. Qed.

Lemma useds_bounds l off u n :
  Forall seg_ok l -> In (u, n) (useds l off) -> off <= u /\ 0 < n /\ u + n <= off + width l.
Proof.
  intros H; revert off; induction H as [|s l Hs _ IH]; intros off Hin; simpl in *; [tauto|].
  pose proof (width_nonneg l).
  destruct s as [|k]; simpl in *.
  - specialize (IH _ Hin). lia.
  - destruct Hin as [E|Hin]; [injection E; intros; subst; lia|]. specialize (IH _ Hin). lia.
Qed.

(** * The scan loop *)

Fixpoint find (l : list seg) (nalloc off navail : Z) : Z * Z :=
  match l with
  | [] => (off, navail)
  | F :: t => if navail + 1 =? nalloc then (off + 1, navail + 1)
              else find t nalloc (off + 1) (navail + 1)
  | U n :: t => find t nalloc (off + Z.of_nat n) 0
  end.

Lemma scan_find l : Forall seg_ok l -> forall pre fuel nalloc off navail N,
  off = Z.of_nat (length pre) -> N = off + width l -> N < 2 ^ 31 ->
  (length (enc l) <= fuel)%nat ->
  scan fuel N (pre ++ enc l) nalloc off navail = Ok (find l nalloc off navail).
Proof.
  induction 1 as [|s l Hs Hl IH]; intros pre fuel nalloc off navail N Hoff HN HN31 Hfuel.
  - simpl in *. destruct fuel; simpl; destruct (Z.ltb_spec off N); try lia; reflexivity.
  - pose proof (width_nonneg l) as Hw.
    pose proof (len_enc l Hl) as Hlen.
    destruct s as [|n].
    + simpl in *. destruct fuel as [|fuel]; [lia|].
      cbn [scan]. destruct (Z.ltb_spec off N); [|lia].
      rewrite aget_app_at by assumption. cbn [of_opt bind].
      rewrite Z.eqb_refl. cbn [negb].
      destruct (navail + 1 =? nalloc) eqn:E; [reflexivity|].
      replace (pre ++ 0 :: enc l) with ((pre ++ [0]) ++ enc l) by (rewrite <- app_assoc; reflexivity).
      apply IH; try lia. rewrite app_length; simpl; lia.
    + simpl in Hs. cbn [enc enc1] in *. cbn [width w1] in HN.
      destruct fuel as [|fuel]; [simpl in Hfuel; lia|].
      cbn [scan]. destruct (Z.ltb_spec off N); [|lia].
      rewrite <- app_comm_cons.
      rewrite aget_app_at by assumption. cbn [of_opt bind].
      destruct (Z.eqb_spec (Z.of_nat n) 0); [lia|]. cbn [negb find].
      rewrite to_int_id by lia.
      replace (pre ++ Z.of_nat n :: repeat 0 (n - 1) ++ enc l)
        with ((pre ++ Z.of_nat n :: repeat 0 (n - 1)) ++ enc l)
        by (rewrite <- app_assoc; reflexivity).
      simpl in Hfuel. rewrite app_length, repeat_length in Hfuel.
      apply IH; try lia.
      rewrite app_length; simpl. rewrite repeat_length. lia.
Qed.

Definition hits (l : list (Z * Z)) (r k : Z) : Prop :=
  exists u n, In (u, n) l /\ u < r + k /\ r < u + n.

Lemma find_spec l nalloc : Forall seg_ok l -> forall off navail,
  0 <= navail < nalloc ->
  let r := find l nalloc off navail in
  (snd r = nalloc /\ off - navail <= fst r - nalloc /\ fst r <= off + width l /\
   ~ hits (useds l off) (fst r - nalloc) nalloc /\
   forall q, off - navail <= q < fst r - nalloc -> hits (useds l off) q nalloc)
  \/
  (snd r < nalloc /\ 0 <= snd r /\
   (forall q, off - navail <= q -> q + nalloc <= off + width l -> hits (useds l off) q nalloc)).
Proof.
  induction 1 as [|s l Hs Hl IH]; intros off navail Hn; simpl.
  - right. repeat split; try lia.
  - pose proof (width_nonneg l) as Hw. destruct s as [|n].
    + destruct (Z.eqb_spec (navail + 1) nalloc) as [E|E].
      * left. simpl. repeat split; try lia.
        intros (u & m & Hin & H1 & H2).
        apply useds_bounds in Hin; [|assumption]. lia.
      * destruct (IH (off + 1) (navail + 1) ltac:(lia)) as [(A & B & C & D & G)|(A & A' & B)].
        { left. repeat split; try assumption; simpl; try lia. intros q Hq. apply G. lia. }
        { right. repeat split; try assumption. intros q Hq1 Hq2. simpl in Hq2. apply B; lia. }
    + simpl in Hs.
      assert (Hfirst : forall q, off - navail <= q < off + Z.of_nat n ->
                hits ((off, Z.of_nat n) :: useds l (off + Z.of_nat n)) q nalloc).
      { intros q Hq. exists off, (Z.of_nat n). split; [left; reflexivity|]. lia. }
      assert (Hrest : forall q, hits (useds l (off + Z.of_nat n)) q nalloc ->
                hits ((off, Z.of_nat n) :: useds l (off + Z.of_nat n)) q nalloc).
      { intros q (u & m & Hin & H1). exists u, m. split; [right; exact Hin | exact H1]. }
      destruct (IH (off + Z.of_nat n) 0 ltac:(lia)) as [(A & B & C & D & G)|(A & A' & B)].
      * left. repeat split; try assumption; simpl; try lia.
        { intros (u & m & [E|Hin] & H1 & H2).
          - injection E; intros; subst. lia.
          - apply D. exists u, m. auto. }
        { intros q Hq. destruct (Z.lt_ge_cases q (off + Z.of_nat n)).
          - apply Hfirst. lia.
          - apply Hrest, G. lia. }
      * right. repeat split; try assumption. intros q Hq1 Hq2. simpl in Hq2.
        destruct (Z.lt_ge_cases q (off + Z.of_nat n)).
        { apply Hfirst; lia. }
        { apply Hrest, B; lia. }
Qed.

(** A run that hits no used region is made of free segments. *)
Lemma run_free_prefix k : forall l off, Forall seg_ok l ->
  Z.of_nat k <= width l -> ~ hits (useds l off) off (Z.of_nat k) ->
  exists b, l = repeat F k ++ b.
Proof.
  induction k as [|k IH]; intros l off Hl Hk Hh.
  - exists l. reflexivity.
  - destruct l as [|s l]; [simpl in Hk; lia|].
    inversion Hl as [|? ? Hs Hl']; subst.
    destruct s as [|n].
    + destruct (IH l (off + 1) Hl') as [b ->].
      * simpl in Hk. lia.
      * intros (u & m & Hin & H1 & H2). apply Hh. exists u, m. simpl. split; [exact Hin|]. lia.
      * exists b. reflexivity.
    + exfalso. simpl in Hs. apply Hh. exists off, (Z.of_nat n). split; [left; reflexivity|]. lia.
Qed.

Lemma run_split l : Forall seg_ok l -> forall off r k,
  off <= r -> r + Z.of_nat k <= off + width l -> (0 < k)%nat ->
  ~ hits (useds l off) r (Z.of_nat k) ->
  exists a b, l = a ++ repeat F k ++ b /\ r = off + width a.
Proof.
  induction 1 as [|s l Hs Hl IH]; intros off r k Hr Hw Hk Hh.
  - simpl in Hw. lia.
  - destruct (Z.eq_dec r off) as [->|Hne].
    + destruct (run_free_prefix k (s :: l) off) as [b Hb]; auto; [lia|].
      exists [], b. split; [exact Hb | simpl; lia].
    + destruct s as [|n].
      * destruct (IH (off + 1) r k) as (a & b & -> & ->); try lia.
        { simpl in Hw. lia. }
        { exact Hh. }
        exists (F :: a), b. split; [reflexivity | simpl; lia].
      * destruct (Z.lt_ge_cases r (off + Z.of_nat n)).
        { exfalso. apply Hh. exists off, (Z.of_nat n). split; [left; reflexivity | lia]. }
        destruct (IH (off + Z.of_nat n) r k) as (a & b & -> & ->); try lia.
        { simpl in Hw. lia. }
        { intros (u & m & Hin & H1). apply Hh. exists u, m. split; [right; exact Hin | exact H1]. }
        exists (U n :: a), b. split; [reflexivity | simpl; lia].
Qed.

(** A non-zero entry of the table is the head of a used segment. *)
Lemma enc_head l : Forall seg_ok l -> forall i n,
  0 <= i -> aget (enc l) i = Some n -> n <> 0 ->
  exists a b, l = a ++ U (Z.to_nat n) :: b /\ width a = i /\ 0 < n.
Proof.
  induction 1 as [|s l Hs Hl IH]; intros i n Hi Hg Hn.
  - unfold aget in Hg. simpl in Hg. destruct (i <? 0); [discriminate|].
    destruct (Z.to_nat i); discriminate.
  - assert (Hlen : Z.of_nat (length (enc1 s)) = w1 s).
    { destruct s as [|k]; simpl in *; [reflexivity|]. rewrite repeat_length. lia. }
    unfold aget in Hg. destruct (Z.ltb_spec i 0); [discriminate|]. simpl in Hg.
    destruct (Z.lt_ge_cases i (w1 s)) as [Hlt|Hge].
    + rewrite nth_error_app1 in Hg by lia.
      destruct s as [|k]; simpl in *.
      * replace (Z.to_nat i) with O in Hg by lia. simpl in Hg. congruence.
      * destruct (Z.to_nat i) as [|j] eqn:Ei.
        { simpl in Hg. injection Hg as <-. exists [], l.
          rewrite Nat2Z.id. repeat split; simpl; lia. }
        { simpl in Hg. apply nth_error_In, repeat_spec in Hg. congruence. }
    + rewrite nth_error_app2 in Hg by lia.
      destruct (IH (i - w1 s) n) as (a & b & -> & Hwa & Hpos); try lia; try assumption.
      { unfold aget. destruct (Z.ltb_spec (i - w1 s) 0); [lia|].
        rewrite <- Hg. f_equal. lia. }
      exists (s :: a), b. repeat split; simpl; try assumption; lia.
Qed.

(** * Invariant relating the pool to the live blocks *)

Definition pg (base page : Z) (b : block) : Z * Z := ((fst b - base) / page, pages page (snd b)).

Record PInv (base size page : Z) (p : pool) (live : list block) : Prop := {
  inv_base : pl_base p = base;
  inv_size : pl_size p = size;
  inv_chunk : pl_chunk p = page;
  inv_n : pl_nchunks p = size / page;
  inv_tbl : exists l, pl_nused p = enc l /\ Forall seg_ok l /\ width l = size / page /\
              Permutation (map (pg base page) live) (useds l 0);
  inv_live : Forall (fun b => (fst b - base) mod page = 0 /\ 0 < snd b) live
}.

Lemma mod0_addr a b p : 0 < p -> (a - b) mod p = 0 -> a = b + (a - b) / p * p.
Proof. intros Hp Hm. pose proof (Z.div_mod (a - b) p ltac:(lia)). lia. Qed.

Section Pool.
Variables base size page : Z.
Hypothesis HH : heap_ok base size page.

Lemma page_pos : 0 < page.
Proof. destruct HH as ((k & Hk & ->) & _). apply Z.pow_pos_nonneg; lia. Qed.

Lemma page_small : page < 2 ^ 32.
Proof. destruct HH as ((k & Hk & ->) & _). apply Z.pow_lt_mono_r; lia. Qed.

Lemma size_mul : size = page * (size / page).
Proof.
  destruct HH as (_ & _ & _ & Hm & _). pose proof page_pos.
  rewrite (Z.div_mod size page) at 1; lia.
Qed.

Lemma nch_pos : 0 < size / page <= INT_MAX.
Proof.
  destruct HH as (_ & _ & Hs & Hm & Hn & _). pose proof page_pos. pose proof size_mul.
  split; [|assumption]. apply Z.nle_gt. intro. nia.
Qed.

Lemma init_ok : exists p, mempool_init base size page = Ok p /\ PInv base size page p [].
Proof.
  pose proof page_pos. pose proof nch_pos as Hn. unfold INT_MAX in Hn.
  unfold mempool_init. destruct (Z.eqb_spec page 0); [lia|].
  rewrite to_int_id by lia. destruct (Z.ltb_spec (size / page) 0); [lia|].
  eexists; split; [reflexivity|].
  constructor; simpl; try reflexivity; try (constructor; fail).
  exists (repeat F (Z.to_nat (size / page))).
  rewrite enc_repeat_F, width_repeat_F, useds_repeat_F.
  repeat split; auto; [|lia].
  apply Forall_forall. intros x Hx. apply repeat_spec in Hx. subst. exact I.
Qed.

Lemma pages_eq s : 0 < s <= page * INT_MAX ->
  to_int (c_align s page / page) = pages page s /\ 0 < pages page s <= INT_MAX.
Proof.
  intros Hs. pose proof page_pos as Hp. pose proof page_small as Hq. unfold INT_MAX in *.
  assert (Hb : 0 < pages page s <= 2 ^ 31 - 1).
  { unfold pages. split.
    - apply Z.div_str_pos. lia.
    - apply Z.lt_succ_r. apply Z.div_lt_upper_bound; nia. }
  split; [|exact Hb].
  destruct HH as ((k & Hk & Hpk) & _).
  rewrite Hpk. rewrite c_align_pow2; [|lia|lia|].
  - rewrite Z.div_mul by (rewrite <- Hpk; lia).
    rewrite <- Hpk. apply to_int_id. fold (pages page s). lia.
  - rewrite <- Hpk. nia.
Qed.

Lemma pages_bounds s : 0 < s -> s <= page * pages page s < s + page.
Proof. intros Hs. pose proof page_pos. unfold pages. nia. Qed.

(** A page run is free for the specification iff it hits no used region. *)
Lemma free_run_hits p live l o k :
  PInv base size page p live -> pl_nused p = enc l -> Forall seg_ok l -> width l = size / page ->
  Permutation (map (pg base page) live) (useds l 0) -> 0 < k ->
  (free_run base page (size / page) live o k <->
   0 <= o /\ o + k <= size / page /\ ~ hits (useds l 0) o k).
Proof.
  intros HI Ht Hl Hwid HP Hk. pose proof page_pos as Hp.
  pose proof (inv_live _ _ _ _ _ HI) as HL. rewrite Forall_forall in HL.
  unfold free_run. split; intros (H0 & H1 & H2); (split; [exact H0|split; [exact H1|]]).
  - intros (u & n & Hin & Ha & Hb).
    apply (Permutation_in (l' := map (pg base page) live)) in Hin; [|symmetry; exact HP].
    apply in_map_iff in Hin. destruct Hin as ([a s] & E & Hin).
    unfold pg in E. simpl in E. injection E as E1 E2.
    destruct (HL _ Hin) as [Hm Hs]. simpl in Hm, Hs.
    pose proof (pages_bounds s Hs) as Hpb.
    assert (Hi : o <= Z.max o u < o + k) by lia.
    specialize (H2 _ Hi a s Hin). unfold disjoint in H2.
    assert (Haa : a = base + u * page) by (subst u; apply mod0_addr; assumption).
    destruct H2 as [H2|H2].
    + assert (Z.max o u < u + n) by lia. nia.
    + assert (u <= Z.max o u) by lia. nia.
  - intros i Hi a s Hin. destruct (HL _ Hin) as [Hm Hs]. simpl in Hm, Hs.
    pose proof (pages_bounds s Hs) as Hpb.
    assert (HinU : In (pg base page (a, s)) (useds l 0)).
    { eapply Permutation_in; [exact HP|]. apply in_map. exact Hin. }
    unfold pg in HinU. simpl in HinU.
    set (u := (a - base) / page) in *. set (n := pages page s) in *.
    assert (Haa : a = base + u * page) by (unfold u; apply mod0_addr; assumption).
    unfold disjoint.
    destruct (Z.lt_ge_cases i u); [right; nia|].
    destruct (Z.lt_ge_cases i (u + n)); [|left; nia].
    exfalso. apply H2. exists u, n. split; [exact HinU|lia].
Qed.

(** Allocation. *)
Lemma alloc_spec p live s :
  PInv base size page p live -> 0 < s <= page * INT_MAX ->
  exists p' r, mempool_alloc p s = Ok (p', r) /\
    match r with
    | Some ptr =>
        PInv base size page p' ((ptr, s) :: live) /\
        exists o, ptr = base + o * page /\
          free_run base page (size / page) live o (pages page s) /\
          forall o', o' < o -> ~ free_run base page (size / page) live o' (pages page s)
    | None => p' = p /\ forall o, ~ free_run base page (size / page) live o (pages page s)
    end.
Proof.
  intros HI Hs. pose proof page_pos as Hp.
  destruct (pages_eq s Hs) as [Hna Hpg]. unfold INT_MAX in Hpg.
  pose proof nch_pos as Hn. unfold INT_MAX in Hn.
  destruct (inv_tbl _ _ _ _ _ HI) as (l & Ht & Hl & Hw & HP).
  pose proof (fun o => free_run_hits p live l o (pages page s) HI Ht Hl Hw HP ltac:(lia)) as FR.
  unfold mempool_alloc. rewrite (inv_chunk _ _ _ _ _ HI), Hna, (inv_n _ _ _ _ _ HI), Ht.
  pose proof (scan_find l Hl [] (S (length (enc l))) (pages page s) 0 0 (size / page)
                eq_refl ltac:(lia) ltac:(lia) ltac:(lia)) as Hscan.
  simpl app in Hscan. rewrite Hscan. cbn [bind].
  pose proof (find_spec l (pages page s) Hl 0 0 ltac:(lia)) as HF. cbv zeta in HF.
  destruct (find l (pages page s) 0 0) as [off nav]. cbn [fst snd] in HF.
  destruct HF as [(E & Hlo & Hhi & Hno & Hmin)|(Hlt & Hge & Hall)].
  - subst nav. rewrite Z.eqb_refl.
    destruct (run_split l Hl 0 (off - pages page s) (Z.to_nat (pages page s))) as (a & b & El & Er);
      try lia.
    { rewrite Z2Nat.id by lia. exact Hno. }
    assert (Hka : exists k', Z.to_nat (pages page s) = S k').
    { exists (Z.to_nat (pages page s) - 1)%nat. lia. }
    destruct Hka as [k' Hk'].
    assert (Hla : Forall seg_ok a /\ Forall seg_ok b).
    { subst l. apply Forall_app in Hl. destruct Hl as [Ha Hb].
      apply Forall_app in Hb. tauto. }
    destruct Hla as [Hla Hlb].
    assert (Henc : enc l = enc a ++ 0 :: (repeat 0 k' ++ enc b)).
    { rewrite El, !enc_app, enc_repeat_F, Hk'. reflexivity. }
    rewrite Henc, (aset_app_at (enc a) _ 0) by (rewrite len_enc by assumption; lia).
    cbn [of_opt bind]. rewrite wrap32_id by lia.
    eexists; eexists; split; [reflexivity|]. rewrite (inv_base _ _ _ _ _ HI). split.
    + constructor; simpl; try solve [apply HI | reflexivity].
      * exists (a ++ U (S k') :: b). repeat split.
        { rewrite enc_app. simpl. f_equal.
          rewrite Nat.sub_0_r. f_equal. lia. }
        { apply Forall_app. split; [assumption|]. constructor; [simpl; lia|assumption]. }
        { rewrite <- Hw, El, !width_app, width_repeat_F, Hk'. simpl width. lia. }
        { rewrite useds_app. simpl useds. rewrite El in HP.
          rewrite !useds_app, useds_repeat_F, width_repeat_F, Hk' in HP. simpl app in HP.
          unfold pg at 1. simpl fst; simpl snd.
          replace ((base + (off - pages page s) * page - base) / page) with (0 + width a)
            by (replace (base + (off - pages page s) * page - base) with ((0 + width a) * page) by lia;
                rewrite Z.div_mul; lia).
          replace (pages page s) with (Z.of_nat (S k')) by lia.
          rewrite <- Permutation_middle. apply Permutation_cons; [reflexivity|].
          rewrite <- Z.add_assoc in HP |- *. exact HP. }
      * constructor; [|apply HI]. simpl. split; [|lia].
        replace (base + (off - pages page s) * page - base) with ((off - pages page s) * page) by lia.
        apply Z.mod_mul. lia.
    + exists (off - pages page s). split; [reflexivity|]. split.
      * apply FR. repeat split; try lia. exact Hno.
      * intros o' Ho' Hfr. apply FR in Hfr. destruct Hfr as (F0 & F1 & F2).
        apply F2, Hmin. lia.
  - destruct (Z.eqb_spec nav (pages page s)); [lia|].
    eexists; eexists; split; [reflexivity|]. split; [reflexivity|].
    intros o Hfr. apply FR in Hfr. destruct Hfr as (F0 & F1 & F2). apply F2, Hall; lia.
Qed.

(** Freeing. *)
Lemma filter_map_perm {A B} (f : A -> B) (g : A -> bool) (h : B -> bool) l l' :
  (forall x, In x l -> g x = h (f x)) ->
  Permutation (map f l) l' -> Permutation (map f (filter g l)) (filter h l').
Proof.
  intros Hgh HP.
  assert (E : map f (filter g l) = filter h (map f l)).
  { clear HP. induction l as [|x l IH]; simpl; [reflexivity|].
    rewrite <- Hgh by (left; reflexivity).
    assert (IH' : map f (filter g l) = filter h (map f l)).
    { apply IH. intros y Hy. apply Hgh. right; exact Hy. }
    destruct (g x); simpl; rewrite IH'; reflexivity. }
  rewrite E. clear E Hgh.
  induction HP; simpl; auto.
  - destruct (h x); auto.
  - destruct (h x), (h y); auto. constructor.
  - etransitivity; eauto.
Qed.

Lemma filter_all {A} (f : A -> bool) l : (forall x, In x l -> f x = true) -> filter f l = l.
Proof.
  induction l as [|x l IH]; simpl; intros H; [reflexivity|].
  rewrite H by auto. f_equal. apply IH. auto.
Qed.

Definition hit (ptr : Z) (b : block) : bool := (fst b <=? ptr) && (ptr <? fst b + page).

Lemma hit_pg ptr b :
  base <= ptr -> (fst b - base) mod page = 0 ->
  hit ptr b = (fst (pg base page b) =? (ptr - base) / page).
Proof.
  intros Hp Hm. pose proof page_pos. unfold hit, pg. simpl.
  set (u := (fst b - base) / page). set (v := (ptr - base) / page).
  assert (fst b = base + u * page) by (unfold u; apply mod0_addr; assumption).
  assert (v * page <= ptr - base < (v + 1) * page).
  { unfold v. pose proof (Z.div_mod (ptr - base) page ltac:(lia)).
    pose proof (Z.mod_pos_bound (ptr - base) page ltac:(lia)). lia. }
  destruct (Z.eqb_spec u v) as [->|Hne]; [lia|].
  assert (u < v \/ v < u) as [|] by lia; nia.
Qed.

Lemma useds_filter_at a n b :
  Forall seg_ok a -> Forall seg_ok b -> (0 < n)%nat ->
  filter (fun x => negb (fst x =? width a)) (useds (a ++ U n :: b) 0) =
  useds (a ++ repeat F n ++ b) 0.
Proof.
  intros Ha Hb Hn. rewrite !useds_app, useds_repeat_F. cbn [useds].
  rewrite filter_app. simpl. rewrite Z.eqb_refl. simpl. f_equal.
  - apply filter_all. intros [u m] Hin. apply useds_bounds in Hin; [|assumption]. simpl. lia.
  - rewrite filter_all.
    + rewrite width_repeat_F. reflexivity.
    + intros [u m] Hin. apply useds_bounds in Hin; [|assumption]. simpl. lia.
Qed.

Lemma free_off p live ptr :
  PInv base size page p live -> in_pool p ptr = true ->
  to_int (wrap64 (ptr - pl_base p) / pl_chunk p) = (ptr - base) / page /\
  0 <= (ptr - base) / page < size / page.
Proof.
  intros HI Hin. pose proof page_pos as Hp. pose proof nch_pos as Hn. unfold INT_MAX in Hn.
  pose proof size_mul as Hsm. destruct HH as (_ & H0 & H1 & _ & _ & Hb).
  unfold in_pool in Hin. rewrite (inv_base _ _ _ _ _ HI), (inv_size _ _ _ _ _ HI) in Hin.
  rewrite (inv_base _ _ _ _ _ HI), (inv_chunk _ _ _ _ _ HI).
  rewrite wrap64_id by lia.
  assert (Hr : 0 <= (ptr - base) / page < size / page).
  { split; [apply Z.div_pos; lia|]. apply Z.div_lt_upper_bound; lia. }
  split; [|exact Hr]. apply to_int_id. lia.
Qed.

Lemma tbl_get p live i :
  PInv base size page p live -> 0 <= i < size / page ->
  exists n, aget (pl_nused p) i = Some n.
Proof.
  intros HI Hi. destruct (inv_tbl _ _ _ _ _ HI) as (l & Ht & Hl & Hw & HP).
  unfold aget. destruct (Z.ltb_spec i 0); [lia|].
  destruct (nth_error (pl_nused p) (Z.to_nat i)) eqn:E; [eauto|].
  apply nth_error_None in E. rewrite Ht in E.
  pose proof (len_enc l Hl). lia.
Qed.

(** Freeing an address inside the space: two cases. *)
Lemma free_spec checks p live ptr :
  PInv base size page p live -> in_pool p ptr = true ->
  ((exists b, In b live /\ hit ptr b = true) /\
   exists p', mempool_free checks p ptr = Ok p' /\
     PInv base size page p' (filter (fun b => negb (hit ptr b)) live))
  \/
  ((forall b, In b live -> hit ptr b = false) /\
   mempool_free checks p ptr = if checks then Abort else Ok p).
Proof.
  intros HI Hin. pose proof page_pos as Hp.
  destruct (free_off p live ptr HI Hin) as [Hoff Hr].
  destruct (tbl_get p live _ HI Hr) as [n Hn].
  destruct (inv_tbl _ _ _ _ _ HI) as (l & Ht & Hl & Hw & HP).
  pose proof (inv_live _ _ _ _ _ HI) as HL. rewrite Forall_forall in HL.
  assert (Hge : base <= ptr).
  { unfold in_pool in Hin. rewrite (inv_base _ _ _ _ _ HI) in Hin. lia. }
  unfold mempool_free. rewrite Hoff, (inv_n _ _ _ _ _ HI), Hn.
  assert (Hb1 : (0 <=? (ptr - base) / page) && ((ptr - base) / page <? size / page) = true) by lia.
  rewrite Hb1. cbn [andb].
  destruct (Z.eqb_spec n 0) as [->|Hn0].
  - right. split.
    + intros b Hb. destruct (hit ptr b) eqn:E; [|reflexivity]. exfalso.
      rewrite hit_pg in E by (auto; apply HL; assumption).
      apply Z.eqb_eq in E.
      assert (HinU : In (pg base page b) (useds l 0)).
      { eapply Permutation_in; [exact HP|]. apply in_map. exact Hb. }
      destruct (pg base page b) as [u m] eqn:Epg. simpl in E.
      destruct (useds_split _ _ _ _ HinU) as (a & k & c & -> & -> & ->).
      apply Forall_app in Hl. destruct Hl as [Ha Hc].
      inversion Hc as [|? ? Hk Hc']; subst. simpl in Hk.
      rewrite Ht, <- E, enc_app in Hn. simpl in Hn.
      rewrite aget_app_at in Hn by (rewrite len_enc by assumption; lia).
      injection Hn as Hn. lia.
    + unfold c_assert. simpl. destruct checks; [reflexivity|]. cbn [bind].
      assert (Hset : aset (pl_nused p) ((ptr - base) / page) 0 = Some (pl_nused p)).
      { unfold aset.
        assert (Hlen : (ptr - base) / page < Z.of_nat (length (pl_nused p))).
        { rewrite Ht, len_enc by assumption. lia. }
        replace ((0 <=? (ptr - base) / page) && ((ptr - base) / page <? Z.of_nat (length (pl_nused p))))
          with true by lia.
        f_equal. unfold aget in Hn. destruct (Z.ltb_spec ((ptr - base) / page) 0); [lia|].
        revert Hn. generalize (Z.to_nat ((ptr - base) / page)) as j. generalize (pl_nused p) as t.
        induction t as [|x t IHt]; intros [|j] Hj; simpl in *; try congruence.
        f_equal. apply IHt. exact Hj. }
      rewrite Hset. cbn [of_opt bind]. rewrite <- (inv_n _ _ _ _ _ HI). destruct p; reflexivity.
  - left. destruct (enc_head l Hl ((ptr - base) / page) n) as (a & c & El & Hwa & Hpos); try lia.
    { rewrite <- Ht. exact Hn. }
    subst l. apply Forall_app in Hl. destruct Hl as [Ha Hc].
    inversion Hc as [|? ? Hk Hc']; subst. simpl in Hk.
    assert (HinU : In (width a, n) (useds (a ++ U (Z.to_nat n) :: c) 0)).
    { rewrite useds_app. apply in_or_app. right. simpl. left. f_equal. lia. }
    apply (Permutation_in (l' := map (pg base page) live)) in HinU; [|symmetry; exact HP].
    apply in_map_iff in HinU. destruct HinU as (b & Eb & Hb).
    split.
    { exists b. split; [exact Hb|]. rewrite hit_pg by (auto; apply HL; assumption).
      rewrite Eb. simpl. lia. }
    cbn [negb c_assert bind].
    rewrite Ht, enc_app. cbn [enc enc1]. rewrite <- app_comm_cons.
    rewrite aset_app_at by (rewrite len_enc by assumption; lia).
    cbn [of_opt bind]. eexists; split; [reflexivity|].
    constructor; simpl; try solve [apply HI | reflexivity].
    + exists (a ++ repeat F (Z.to_nat n) ++ c). repeat split.
      * rewrite !enc_app, enc_repeat_F. f_equal.
        destruct (Z.to_nat n) as [|k] eqn:Ek; [lia|]. simpl. rewrite Nat.sub_0_r. reflexivity.
      * apply Forall_app. split; [assumption|]. apply Forall_app. split; [|assumption].
        apply Forall_forall. intros x Hx. apply repeat_spec in Hx. subst. exact I.
      * rewrite <- Hw, !width_app, width_repeat_F. simpl. lia.
      * rewrite <- useds_filter_at by assumption.
        apply filter_map_perm; [|exact HP].
        intros x Hx. f_equal. rewrite hit_pg by (auto; apply HL; assumption).
        rewrite Hwa. reflexivity.
    + apply Forall_forall. intros x Hx. apply filter_In in Hx. apply HL. tauto.
Qed.

(** * Histories *)

Lemma live_step_free_out p live ptr r :
  PInv base size page p live -> in_pool p ptr = false ->
  live_step page (PFree ptr) r live = live.
Proof.
  intros HI Hout. simpl. apply filter_all. intros [a s] Hin. simpl.
  pose proof page_pos as Hp.
  pose proof (inv_live _ _ _ _ _ HI) as HL. rewrite Forall_forall in HL.
  destruct (HL _ Hin) as [Hm Hs]. simpl in Hm, Hs.
  destruct (inv_tbl _ _ _ _ _ HI) as (l & Ht & Hl & Hw & HP).
  assert (HinU : In (pg base page (a, s)) (useds l 0)).
  { eapply Permutation_in; [exact HP|]. apply in_map. exact Hin. }
  unfold pg in HinU. simpl in HinU. apply useds_bounds in HinU; [|assumption].
  rewrite Hw in HinU. pose proof size_mul as Hsm.
  unfold in_pool in Hout. rewrite (inv_base _ _ _ _ _ HI), (inv_size _ _ _ _ _ HI) in Hout.
  set (u := (a - base) / page) in *.
  assert (Haa : a = base + u * page) by (unfold u; apply mod0_addr; assumption).
  assert (u + 1 <= size / page) by lia.
  assert (Hup : (u + 1) * page <= size) by nia.
  assert (Hlow : 0 <= u * page) by nia.
  lia.
Qed.

Lemma pstep_inv checks p live o :
  PInv base size page p live -> ok_req page o ->
  match pstep checks p o with
  | Ok (p', r) => PInv base size page p' (live_step page o r live)
  | Abort => checks = true /\ exists ptr, o = PFree ptr /\ in_pool p ptr = true /\
             (forall b, In b live -> hit ptr b = false)
  | UB => False
  | NoFuel => False
  end.
Proof.
  intros HI Hreq. destruct o as [s|ptr]; simpl in *.
  - destruct (alloc_spec p live s HI ltac:(lia)) as (p' & r & E & Hr).
    unfold space_malloc. rewrite E. destruct r as [q|]; [tauto|]. destruct Hr as [-> _]. exact HI.
  - destruct (in_pool p ptr) eqn:Ein.
    + destruct (free_spec checks p live ptr HI Ein) as [(_ & p' & E & HI')|(Hno & E)]; rewrite E.
      * simpl. exact HI'.
      * destruct checks; simpl.
        { split; [reflexivity|]. exists ptr. auto. }
        { rewrite filter_all; [exact HI|]. intros b Hb. specialize (Hno b Hb).
          unfold hit in Hno. rewrite Hno. reflexivity. }
    + pose proof (live_step_free_out p live ptr None HI Ein) as E. simpl in E. rewrite E. exact HI.
Qed.

Lemma prun_inv checks ops : forall p live p' rs,
  PInv base size page p live -> Forall (ok_req page) ops ->
  prun checks p ops = Ok (p', rs) ->
  PInv base size page p' (live_after page ops rs live).
Proof.
  induction ops as [|o ops IH]; intros p live p' rs HI Hops Hrun; simpl in *.
  - injection Hrun as <- <-. exact HI.
  - inversion Hops as [|? ? Ho Hops']; subst.
    apply bind_Ok in Hrun. destruct Hrun as ([p1 r] & E1 & Hrun).
    apply bind_Ok in Hrun. destruct Hrun as ([p2 rs'] & E2 & Hrun).
    injection Hrun as <- <-.
    pose proof (pstep_inv checks p live o HI Ho) as HS. rewrite E1 in HS.
    simpl. eapply IH; eauto.
Qed.

Lemma prun_safe checks ops : forall p live,
  PInv base size page p live -> Forall (ok_req page) ops ->
  prun checks p ops <> UB /\ prun checks p ops <> NoFuel /\ (checks = false -> prun checks p ops <> Abort).
Proof.
  induction ops as [|o ops IH]; intros p live HI Hops; simpl.
  - repeat split; discriminate.
  - inversion Hops as [|? ? Ho Hops']; subst.
    pose proof (pstep_inv checks p live o HI Ho) as HS.
    destruct (pstep checks p o) as [[p1 r]| | |]; simpl; try tauto.
    + destruct (IH p1 _ HS Hops') as (A & B & C).
      destruct (prun checks p1 ops) as [[p2 rs]| | |]; simpl; repeat split; try discriminate; auto.
    + repeat split; try discriminate. destruct HS as [-> _]. discriminate.
Qed.

Lemma live_in_range p live a s :
  PInv base size page p live -> In (a, s) live ->
  base <= a /\ a + page * pages page s <= base + size /\ (a - base) mod page = 0 /\ 0 < s.
Proof.
  intros HI Hin. pose proof page_pos as Hp.
  pose proof (inv_live _ _ _ _ _ HI) as HL. rewrite Forall_forall in HL.
  destruct (HL _ Hin) as [Hm Hs]. simpl in Hm, Hs.
  destruct (inv_tbl _ _ _ _ _ HI) as (l & Ht & Hl & Hw & HP).
  assert (HinU : In (pg base page (a, s)) (useds l 0)).
  { eapply Permutation_in; [exact HP|]. apply in_map. exact Hin. }
  unfold pg in HinU. simpl in HinU. apply useds_bounds in HinU; [|assumption].
  rewrite Hw in HinU. pose proof size_mul as Hsm.
  set (u := (a - base) / page) in *. set (n := pages page s) in *.
  assert (Haa : a = base + u * page) by (unfold u; apply mod0_addr; assumption).
  repeat split; try lia; nia.
Qed.

Definition sep (x y : Z * Z) : Prop := fst x + snd x <= fst y \/ fst y + snd y <= fst x.

Lemma useds_sep l off : Forall seg_ok l -> ForallOrdPairs sep (useds l off).
Proof.
  intros H; revert off; induction H as [|s l Hs Hl IH]; intros off; simpl; [constructor|].
  destruct s as [|n]; [apply IH|]. constructor; [|apply IH].
  apply Forall_forall. intros [u m] Hin. apply useds_bounds in Hin; [|assumption].
  left. simpl. lia.
Qed.

Lemma FOP_perm {A} (R : A -> A -> Prop) l l' :
  (forall x y, R x y -> R y x) -> Permutation l l' -> ForallOrdPairs R l -> ForallOrdPairs R l'.
Proof.
  intros Hsym HP. induction HP as [|x l l' HP IH|x y l|l l' l'' HP1 IH1 HP2 IH2]; intros H; auto.
  - inversion H; subst. constructor; [|auto].
    apply Forall_forall. intros z Hz. rewrite Forall_forall in H2. apply H2.
    eapply Permutation_in; [symmetry; exact HP|exact Hz].
  - inversion H as [|? ? Hx Hl]; subst. inversion Hl as [|? ? Hy Hl']; subst.
    inversion Hx as [|? ? Hxy Hxl]; subst.
    constructor; [constructor; auto|]. constructor; auto.
Qed.

Lemma live_disjoint p live :
  PInv base size page p live ->
  ForallOrdPairs (fun b c => disjoint (fst b) (page * pages page (snd b))
                                      (fst c) (page * pages page (snd c))) live.
Proof.
  intros HI. pose proof page_pos as Hp.
  pose proof (inv_live _ _ _ _ _ HI) as HL.
  destruct (inv_tbl _ _ _ _ _ HI) as (l & Ht & Hl & Hw & HP).
  pose proof (useds_sep l 0 Hl) as HS.
  apply (FOP_perm sep _ (map (pg base page) live)) in HS; [| |symmetry; exact HP].
  2:{ unfold sep. intros x y [|]; auto. }
  clear - HS HL Hp. induction live as [|b live IH]; [constructor|].
  simpl in HS. inversion HS as [|? ? Hb Hrest]; subst.
  inversion HL as [|? ? HLb HLr]; subst.
  constructor; [|auto].
  apply Forall_forall. intros c Hc. rewrite Forall_forall in Hb, HLr.
  specialize (Hb (pg base page c) (in_map _ _ _ Hc)). specialize (HLr c Hc).
  destruct b as [a s], c as [a' s']. unfold sep, pg, disjoint in *. simpl in *.
  set (u := (a - base) / page) in *. set (v := (a' - base) / page) in *.
  assert (a = base + u * page) by (unfold u; apply mod0_addr; tauto).
  assert (a' = base + v * page) by (unfold v; apply mod0_addr; tauto).
  destruct Hb as [Hb|Hb]; [left|right]; nia.
Qed.

End Pool.
