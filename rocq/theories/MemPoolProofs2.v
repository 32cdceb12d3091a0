(** More proofs about the memory pool: symmetry, zero-size requests, align, calloc. *)
From Coq Require Import Permutation.
From Verif Require Import Base BaseProofs MemPoolModel MemPoolSpec MemPoolProofs.

Ltac Zify.zify_post_hook ::= Z.div_mod_to_equations.

(** * Symmetry *)

Definition prel (p q : pool) : Prop :=
  pl_size p = pl_size q /\ pl_chunk p = pl_chunk q /\ pl_nchunks p = pl_nchunks q /\
  pl_nused p = pl_nused q.

Definition same_res (b1 b2 : Z) (x y : outcome (pool * option Z)) : Prop :=
  match x, y with
  | Ok (p, r), Ok (q, s) =>
      prel p q /\ pl_base p = b1 /\ pl_base q = b2 /\
      option_map (fun a => a - b1) r = option_map (fun a => a - b2) s
  | Abort, Abort => True
  | UB, UB => True
  | NoFuel, NoFuel => True
  | _, _ => False
  end.

Lemma pstep_sym checks p q b1 b2 o :
  prel p q -> pl_base p = b1 -> pl_base q = b2 ->
  same_res b1 b2 (pstep checks p (at_base b1 o)) (pstep checks q (at_base b2 o)).
Proof.
  intros (E1 & E2 & E3 & E4) Hb1 Hb2. destruct o as [size|off]; simpl.
  - unfold space_malloc, mempool_alloc. rewrite E2, E3, E4, Hb1, Hb2, E1.
    destruct (scan _ _ _ _ _ _) as [[o n]| | |]; simpl; auto.
    destruct (n =? _).
    + destruct (aset _ _ _) as [t|]; simpl; auto.
      unfold prel; simpl. repeat split; auto. f_equal. lia.
    + simpl. unfold prel. auto.
  - unfold in_pool. rewrite Hb1, Hb2, E1.
    replace ((b1 <=? b1 + off) && (b1 + off <? b1 + pl_size q))
      with ((b2 <=? b2 + off) && (b2 + off <? b2 + pl_size q)) by lia.
    destruct (_ && _).
    + unfold mempool_free. rewrite Hb1, Hb2, E1, E2, E3, E4.
      replace (b1 + off - b1) with off by lia. replace (b2 + off - b2) with off by lia.
      destruct (c_assert _ _); simpl; auto.
      destruct (aset _ _ _) as [t|]; simpl; auto.
      unfold prel; simpl; repeat split; auto.
    + simpl. unfold prel. auto.
Qed.

Lemma prun_sym checks b1 b2 ops : forall p q,
  prel p q -> pl_base p = b1 -> pl_base q = b2 ->
  offsets b1 (prun checks p (map (at_base b1) ops)) =
  offsets b2 (prun checks q (map (at_base b2) ops)).
Proof.
  induction ops as [|o ops IH]; intros p q HR H1 H2; simpl; [reflexivity|].
  pose proof (pstep_sym checks p q b1 b2 o HR H1 H2) as HS.
  destruct (pstep checks p (at_base b1 o)) as [[p1 r]| | |],
           (pstep checks q (at_base b2 o)) as [[q1 s]| | |]; simpl in *; try tauto.
  destruct HS as (HR' & Hb1 & Hb2 & Er).
  specialize (IH p1 q1 HR' Hb1 Hb2).
  destruct (prun checks p1 _) as [[p2 rs]| | |], (prun checks q1 _) as [[q2 ss]| | |];
    simpl in *; try congruence.
Qed.

Lemma space_symmetric checks size page b1 b2 p1 p2 ops :
  mempool_init b1 size page = Ok p1 -> mempool_init b2 size page = Ok p2 ->
  offsets b1 (prun checks p1 (map (at_base b1) ops)) =
  offsets b2 (prun checks p2 (map (at_base b2) ops)).
Proof.
  unfold mempool_init. intros H1 H2.
  destruct (page =? 0); [discriminate|]. destruct (to_int (size / page) <? 0); [discriminate|].
  injection H1 as <-. injection H2 as <-.
  apply prun_sym; simpl; auto. unfold prel; simpl; auto.
Qed.

(** * Zero-size requests *)

Lemma find_zero l : Forall seg_ok l -> forall off navail, 0 <= navail ->
  let r := find l 0 off navail in
  fst r = off + width l /\ 0 <= snd r /\
  (snd r = 0 <-> (l = [] /\ navail = 0) \/
                 (exists u n, In (u, n) (useds l off) /\ u + n = off + width l)).
Proof.
  induction 1 as [|s l Hs Hl IH]; intros off navail Hn; simpl.
  - split; [lia|]. split; [lia|]. split; [auto|]. intros [[_ E]|(u & n & [] & _)]. exact E.
  - pose proof (width_nonneg l) as Hw. destruct s as [|k]; simpl.
    + destruct (Z.eqb_spec (navail + 1) 0) as [Ez|Ez]; [lia|].
      destruct (IH (off + 1) (navail + 1) ltac:(lia)) as (A & B & C).
      split; [lia|]. split; [exact B|]. rewrite C. split.
      * intros [[_ E]|(u & n & Hin & E)]; [lia|]. right. exists u, n. split; [exact Hin | lia].
      * intros [[E _]|(u & n' & Hin & E)]; [discriminate|]. right. exists u, n'. split; [exact Hin | lia].
    + simpl in Hs. destruct (IH (off + Z.of_nat k) 0 ltac:(lia)) as (A & B & C).
      split; [lia|]. split; [exact B|]. rewrite C. split.
      * intros [[-> _]|(u & n & Hin & E)].
        { right. exists off, (Z.of_nat k). simpl. split; [auto|lia]. }
        { right. exists u, n. split; [right; exact Hin | lia]. }
      * intros [[E _]|(u & n & [E|Hin] & E')]; [discriminate| |].
        { injection E as <- <-. destruct l as [|s' l]; [auto|exfalso].
          inversion Hl as [|? ? Hs' Hl']; subst.
          pose proof (width_nonneg l). destruct s' as [|k']; simpl in *; lia. }
        { right. exists u, n. split; [exact Hin | lia]. }
Qed.

Section Pool2.
Variables base size page : Z.
Hypothesis HH : heap_ok base size page.

Lemma page_free_hits p live l i :
  PInv base size page p live -> pl_nused p = enc l -> Forall seg_ok l -> width l = size / page ->
  Permutation (map (pg base page) live) (useds l 0) -> 0 <= i < size / page ->
  (page_free base page live i <-> ~ hits (useds l 0) i 1).
Proof.
  intros HI Ht Hl Hw HP Hi.
  pose proof (free_run_hits base size page HH p live l i 1 HI Ht Hl Hw HP ltac:(lia)) as FR.
  unfold free_run in FR. split; intros H.
  - apply FR. repeat split; try lia. intros j Hj. replace j with i by lia. exact H.
  - apply FR; try lia. repeat split; try lia. exact H.
Qed.

Lemma alloc_zero p live :
  PInv base size page p live ->
  (page_free base page live (size / page - 1) -> mempool_alloc p 0 = Ok (p, None)) /\
  (~ page_free base page live (size / page - 1) -> mempool_alloc p 0 = UB).
Proof.
  intros HI. pose proof (page_pos _ _ _ HH) as Hp. pose proof (nch_pos _ _ _ HH) as Hn.
  unfold INT_MAX in Hn.
  destruct (inv_tbl _ _ _ _ _ HI) as (l & Ht & Hl & Hw & HP).
  pose proof (page_free_hits p live l (size / page - 1) HI Ht Hl Hw HP ltac:(lia)) as PF.
  unfold mempool_alloc. rewrite (inv_chunk _ _ _ _ _ HI), (inv_n _ _ _ _ _ HI), Ht.
  assert (Hz : to_int (c_align 0 page / page) = 0).
  { destruct HH as ((k & Hk & Hpk) & _). rewrite Hpk, c_align_pow2; try lia.
    - rewrite Z.div_mul by (rewrite <- Hpk; lia). rewrite <- Hpk.
      rewrite Z.div_small by lia. reflexivity.
    - pose proof (page_small _ _ _ HH) as Hps. rewrite Hpk in Hps. lia. }
  rewrite Hz.
  pose proof (scan_find l Hl [] (S (length (enc l))) 0 0 0 (size / page)
                eq_refl ltac:(lia) ltac:(lia) ltac:(lia)) as Hscan.
  simpl app in Hscan. rewrite Hscan. cbn [bind].
  destruct (find_zero l Hl 0 0 ltac:(lia)) as (Hoff & Hge & Hiff).
  destruct (find l 0 0 0) as [off nav]. simpl fst in *; simpl snd in *.
  assert (Hl0 : l <> []) by (intros ->; simpl in Hw; lia).
  assert (Hhit : nav = 0 <-> hits (useds l 0) (size / page - 1) 1).
  { rewrite Hiff. split.
    - intros [[E _]|(u & n & Hin & E)]; [contradiction|].
      pose proof (useds_bounds l 0 u n Hl Hin). exists u, n. split; [exact Hin|lia].
    - intros (u & n & Hin & H1 & H2). right.
      pose proof (useds_bounds l 0 u n Hl Hin). exists u, n. split; [exact Hin|lia]. }
  split; intros H.
  - rewrite PF in H. destruct (Z.eqb_spec nav 0) as [E|E]; [tauto|]. reflexivity.
  - rewrite PF in H.
    assert (E : nav = 0).
    { destruct (Z.eq_dec nav 0) as [|E]; [assumption|]. exfalso. apply H. tauto. }
    subst nav. rewrite Z.eqb_refl.
    assert (Ha : aset (enc l) (off - 0) (wrap32 0) = None).
    { unfold aset. rewrite (len_enc l Hl).
      replace ((0 <=? off - 0) && (off - 0 <? width l)) with false by lia. reflexivity. }
    rewrite Ha. reflexivity.
Qed.

(** * Aligned allocation *)

Lemma align_spec p live j s :
  PInv base size page p live -> 0 <= j < 32 -> 0 < s -> c_align s (2 ^ j) <= page * INT_MAX ->
  s + 2 ^ j <= 2 ^ 64 ->
  exists p' r, space_align p (2 ^ j) s = Ok (p', r) /\
    match r with
    | Some ptr =>
        exists s', s <= s' /\ PInv base size page p' ((ptr, s') :: live) /\
                   (base mod page = 0 -> 2 ^ j <= page -> ptr mod 2 ^ j = 0)
    | None => p' = p
    end.
Proof.
  intros HI Hj Hs Hb Hov. pose proof (page_pos _ _ _ HH) as Hp.
  assert (Hjp : 0 < 2 ^ j) by (apply Z.pow_pos_nonneg; lia).
  unfold space_align, space_malloc.
  assert (Hge : s <= c_align s (2 ^ j)).
  { rewrite c_align_pow2 by lia. pose proof (Z.div_mod (s + 2 ^ j - 1) (2 ^ j) ltac:(lia)).
    pose proof (Z.mod_pos_bound (s + 2 ^ j - 1) (2 ^ j) ltac:(lia)). lia. }
  destruct (alloc_spec base size page HH p live (c_align s (2 ^ j)) HI ltac:(lia))
    as (p' & r & E & Hr).
  exists p', r. split; [exact E|]. destruct r as [ptr|]; [|tauto].
  destruct Hr as (HI' & o & Ho & _). exists (c_align s (2 ^ j)). split; [lia|]. split; [exact HI'|].
  intros Hbm Hjle. destruct HH as ((k & Hk & Hpk) & _).
  assert (Hkj : j <= k).
  { destruct (Z.le_gt_cases j k) as [|Hgt]; [assumption|].
    assert (2 ^ k < 2 ^ j) by (apply Z.pow_lt_mono_r; lia). lia. }
  assert (Hd : (2 ^ j | page)).
  { exists (2 ^ (k - j)). rewrite Hpk, <- Z.pow_add_r by lia. f_equal. lia. }
  apply Z.mod_divide; [lia|]. rewrite Ho. apply Z.divide_add_r.
  - apply Z.mod_divide in Hbm; [|lia]. eapply Z.divide_trans; eassumption.
  - apply Z.divide_mul_r. exact Hd.
Qed.

(** * calloc *)

Lemma calloc_one p live m s :
  PInv base size page p live -> 0 < s <= page * INT_MAX ->
  (exists o, free_run base page (size / page) live o (pages page s)) ->
  exists p' m' ptr, space_calloc p m 1 s = Ok (p', m', Some ptr) /\
    PInv base size page p' ((ptr, s) :: live) /\
    (forall a, ptr <= a < ptr + 1 * s -> m' a = 0) /\
    (forall a, ~ (ptr <= a < ptr + s) -> m' a = m a).
Proof.
  intros HI Hs [o Ho].
  destruct (alloc_spec base size page HH p live s HI Hs) as (p' & r & E & Hr).
  unfold space_calloc, space_malloc. rewrite E. cbn [bind].
  destruct r as [ptr|]; [|exfalso; destruct Hr as [_ Hno]; exact (Hno o Ho)].
  exists p', (memset0 m ptr s), ptr. split; [reflexivity|]. split; [tauto|].
  unfold memset0. split; intros a Ha.
  - replace ((ptr <=? a) && (a <? ptr + s)) with true by lia. reflexivity.
  - replace ((ptr <=? a) && (a <? ptr + s)) with false by lia. reflexivity.
Qed.

(** * destroy *)

Lemma destroy_spec p live :
  PInv base size page p live ->
  (live = [] -> mempool_destroy p = Ok tt) /\ (live <> [] -> mempool_destroy p = Abort).
Proof.
  intros HI. destruct (inv_tbl _ _ _ _ _ HI) as (l & Ht & Hl & Hw & HP).
  unfold mempool_destroy. rewrite Ht.
  assert (G : forall off, forallb (fun n => n =? 0) (enc l) = true <-> useds l off = []).
  { clear - Hl. induction Hl as [|s l Hs Hl IH]; intros off; simpl.
    - tauto.
    - destruct s as [|k]; simpl.
      + apply IH.
      + simpl in Hs. rewrite forallb_app. split; [|discriminate].
        destruct (Z.eqb_spec (Z.of_nat k) 0); [lia|]. simpl. discriminate. }
  split; intros E.
  - subst live. simpl in HP. apply Permutation_nil in HP. apply G in HP. rewrite HP. reflexivity.
  - destruct (forallb _ _) eqn:Ef; [|reflexivity]. exfalso. apply E.
    destruct (G 0) as [G0 _]. rewrite (G0 eq_refl) in HP. symmetry in HP. apply Permutation_nil in HP.
    destruct live; [reflexivity|discriminate].
Qed.

(** Freeing a live block makes its pages available. *)
Lemma free_then_malloc checks p live a s t :
  PInv base size page p live -> In (a, s) live -> 0 < t <= s -> s <= page * INT_MAX ->
  exists p', pstep checks p (PFree a) = Ok (p', None) /\
    exists p'' q, space_malloc p' t = Ok (p'', Some q).
Proof.
  intros HI Hin Ht Hs. pose proof (page_pos _ _ _ HH) as Hp.
  destruct (live_in_range base size page HH p live a s HI Hin) as (R1 & R2 & R3 & R4).
  assert (Hpool : in_pool p a = true).
  { unfold in_pool. rewrite (inv_base _ _ _ _ _ HI), (inv_size _ _ _ _ _ HI).
    pose proof (pages_bounds base size page HH s R4). lia. }
  assert (Hhit : hit page a (a, s) = true) by (unfold hit; simpl; lia).
  destruct (free_spec base size page HH checks p live a HI Hpool)
    as [(_ & p' & E & HI')|(Hno & _)]; [|rewrite (Hno _ Hin) in Hhit; discriminate].
  exists p'. split; [simpl; rewrite Hpool, E; reflexivity|].
  destruct (alloc_spec base size page HH p' _ t HI' ltac:(lia)) as (p'' & r & E' & Hr).
  unfold space_malloc. rewrite E'. destruct r as [q|]; [eauto|exfalso].
  destruct Hr as [_ Hno]. apply (Hno ((a - base) / page)). clear Hno E' p''.
  pose proof (mod0_addr a base page Hp R3) as Haa.
  set (u := (a - base) / page) in *.
  pose proof (pages_bounds base size page HH s R4) as Hpb.
  assert (Hpt : pages page t <= pages page s).
  { unfold pages. apply Z.div_le_mono; lia. }
  pose proof (size_mul _ _ _ HH) as Hsm.
  unfold free_run. split; [nia|]. split; [nia|].
  intros i Hi b c Hbc. apply filter_In in Hbc. destruct Hbc as [Hbc Hnh].
  pose proof (live_disjoint base size page HH p live HI) as HD.
  destruct (live_in_range base size page HH p live b c HI Hbc) as (Q1 & Q2 & Q3 & Q4).
  pose proof (pages_bounds base size page HH c Q4) as Hpc.
  assert (Hne : (b, c) <> (a, s)).
  { intros E2. injection E2 as -> ->. rewrite Hhit in Hnh. discriminate. }
  assert (Hdis : disjoint a (page * pages page s) b (page * pages page c)).
  { clear - HD Hin Hbc Hne. induction HD as [|x l Hx HD IH]; [contradiction|].
    rewrite Forall_forall in Hx. destruct Hin as [->|Hin], Hbc as [E|Hbc].
    - congruence.
    - apply (Hx _ Hbc).
    - subst x. specialize (Hx _ Hin). simpl in Hx. unfold disjoint in *. lia.
    - auto. }
  unfold disjoint in *. destruct Hdis as [Hd|Hd].
  - right. assert ((i + 1) * page <= (u + pages page s) * page) by nia. nia.
  - left. assert (u * page <= i * page) by nia. nia.
Qed.

End Pool2.
