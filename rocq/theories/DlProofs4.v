(** The bins and the chunks of the heap agree: mspace_malloc. *)
From Coq Require Import Permutation.
From Verif Require Import Base BaseProofs SobjModel HeapModel HeapSpec HeapProofs DlModel DlSpec
  DlProofs DlProofs2 DlProofs3.

(** ** Free chunks *)
Lemma free_app a : forall o b x, In x (free_at o (a ++ b)) <-> In x (free_at o a) \/ In x (free_at (o + total a) b).
Proof.
  induction a as [|c a IH]; intros o b x; cbn.
  - replace (o + 0) with o by lia. tauto.
  - rewrite !in_app_iff, IH. replace (o + (c_sz c + total a)) with (o + c_sz c + total a) by lia. tauto.
Qed.

Lemma free_in l : forall o x s, In (x, s) (free_at o l) ->
  exists pre post, l = pre ++ Ck s Free :: post /\ x = o + total pre.
Proof.
  induction l as [|c l IH]; intros o x s H; cbn in H; [easy|].
  apply in_app_or in H as [H|H].
  - destruct c as [s' []]; cbn in H; try easy. destruct H as [H|[]]. inversion H; subst.
    exists [], l. cbn. split; [reflexivity|lia].
  - apply IH in H as (pre & post & -> & ->). exists (c :: pre), post. cbn. split; [reflexivity|lia].
Qed.

Lemma free_bounds l o x s : Forall wfc l -> In (x, s) (free_at o l) ->
  o <= x /\ x + s <= o + total l /\ (16 | s) /\ 32 <= s.
Proof.
  intros W H. destruct (free_in _ _ _ _ H) as (pre & post & -> & ->).
  apply Forall_app in W as [W1 W2]. inversion W2 as [|? ? [D S] W3]; subst.
  rewrite total_app. cbn in *. pose proof (total_pos _ W1). pose proof (total_pos _ W3).
  repeat split; try lia; auto.
Qed.

Lemma free_mid pre s tg post x y : let o := MSIZE + total pre in
  In (x, y) (free_at MSIZE (pre ++ Ck s tg :: post)) <->
  In (x, y) (free_at MSIZE pre) \/ (tg = Free /\ x = o /\ y = s) \/ In (x, y) (free_at (o + s) post).
Proof.
  intros o. rewrite free_app. cbn [free_at c_sz]. rewrite in_app_iff. fold o.
  destruct tg; cbn; split; intros [H|[H|H]]; try tauto;
    try (destruct H as [H|[]]; injection H as <- <-; tauto); try (destruct H; easy).
  destruct H as (_ & -> & ->). right. left. now left.
Qed.

Lemma free_fun l : forall o x s s', Forall wfc l -> In (x, s) (free_at o l) -> In (x, s') (free_at o l) -> s = s'.
Proof.
  induction l as [|c l IH]; intros o x s s' W H H'; cbn in *; [easy|].
  inversion W as [|? ? [D S] W']; subst. rewrite in_app_iff in H, H'.
  destruct H as [H|H], H' as [H'|H'].
  - destruct (is_free c); [|easy]. cbn in *. destruct H as [H|[]], H' as [H'|[]]. congruence.
  - apply free_bounds in H'; [|exact W']. destruct (is_free c); [|easy]. destruct H as [H|[]].
    injection H as <- <-. lia.
  - apply free_bounds in H; [|exact W']. destruct (is_free c); [|easy]. destruct H' as [H'|[]].
    injection H' as <- <-. lia.
  - eauto.
Qed.

(** ** The bins agree with a set of free chunks *)
Record DB (b : bins) (F : pset) : Prop := {
  db_bi : BI b (fun x y => F x y /\ x <> dv b);
  db_dv : (dv b = 0 /\ dvs b = 0) \/ F (dv b) (dvs b) }.

Definition HF (F : pset) : Prop :=
  (forall x y, F x y -> 0 < x /\ okc y) /\ (forall x y y', F x y -> F x y' -> y = y').

Lemma DB_ext b F G : (forall x y, F x y <-> G x y) -> DB b F -> DB b G.
Proof.
  intros E [B D]. split.
  - apply (BI_ext b (fun x y => F x y /\ x <> dv b)); [|exact B]. intros o s. now rewrite E.
  - now rewrite <- E.
Qed.

(** A chunk in a bin is taken out. *)
Lemma DB_take b b1 F o s : DB b F -> F o s -> o <> dv b -> 0 < o ->
  BI b1 (pdel (fun x y => F x y /\ x <> dv b) o) -> dv b1 = dv b -> dvs b1 = dvs b ->
  DB b1 (pdel F o).
Proof.
  intros [B D] H N P B1 E1 E2. split.
  - apply (BI_ext _ _ _ (fun x y => conj (fun H : pdel _ o x y => H) (fun H => H))) in B1.
    refine (BI_ext _ _ _ _ B1). unfold pdel. intros x y. rewrite E1. tauto.
  - rewrite E1, E2. unfold pdel. destruct D as [D|D]; [now left|right]. split; [exact D|congruence].
Qed.

(** ... and the rest of it becomes dv; the old dv goes to a small bin. *)
Lemma DB_replace b1 F o s : DB b1 F -> okc s -> 0 < o -> (forall y, ~ F o y) ->
  dvs b1 < 256 -> HF F ->
  DB (replace_dv b1 o s) (padd F o s).
Proof.
  intros [B D] K P N L [HF1 HF2]. unfold replace_dv. split.
  - apply BI_dv. destruct (Z.eqb_spec (dvs b1) 0) as [E|E].
    + destruct D as [[D1 D2]|D]; [|apply HF1 in D as [_ [D _]]; lia].
      refine (BI_ext _ _ _ _ B). unfold padd. cbn [set_dv dv]. intros x y. rewrite D1. split.
      * intros [H H0]. split; [now left|]. intros ->. eapply N; eauto.
      * intros [[H|[H H']] H0]; [|congruence]. split; [exact H|]. apply HF1 in H. lia.
    + destruct D as [D|D]; [lia|]. destruct (HF1 _ _ D) as [D0 DK].
      assert (I : BI (insert_chunk b1 (dv b1) (dvs b1)) (padd (fun x y => F x y /\ x <> dv b1) (dv b1) (dvs b1))).
      { apply BI_insert; [exact B|exact DK|]. intros s' [_ H]. now apply H. }
      unfold insert_chunk in I. rewrite is_small_lt in I. destruct (Z.ltb_spec (dvs b1) 256) as [_|]; [|lia].
      refine (BI_ext _ _ _ _ I). unfold padd. cbn [set_dv dv]. intros x y. split.
      * intros [[H H0]|[-> ->]]; (split; [now left|]).
        -- intros ->. eapply N; eauto.
        -- intros Q. rewrite Q in D. eapply N; eauto.
      * intros [[H|[H H']] H0]; [|congruence]. destruct (Z.eq_dec x (dv b1)) as [->|Q]; [right|now left].
        split; [reflexivity|eauto].
  - right. unfold padd. cbn. right. auto.
Qed.

Lemma DB_insert b1 F o s : DB b1 F -> okc s -> 0 < o -> (forall y, ~ F o y) ->
  DB (insert_chunk b1 o s) (padd F o s).
Proof.
  intros [B D] K P N. destruct (insert_chunk_dv b1 o s) as [E1 E2].
  assert (NE : o <> dv b1). { intros ->. destruct D as [D|D]; [lia|eapply N; eauto]. }
  split.
  - assert (I : BI (insert_chunk b1 o s) (padd (fun x y => F x y /\ x <> dv b1) o s)).
    { apply BI_insert; [exact B|exact K|]. intros s' [H _]. eapply N; eauto. }
    refine (BI_ext _ _ _ _ I). unfold padd. rewrite E1. intros x y. split; [intros [H|[-> ->]]|]; tauto.
  - rewrite E1, E2. unfold padd. tauto.
Qed.

Lemma DB_unlink b F o s : DB b F -> F o s -> o <> dv b -> 0 < o -> DB (unlink_chunk b o s) (pdel F o).
Proof.
  intros D H N P. destruct (unlink_chunk_dv b o s) as [E1 E2].
  apply (DB_take b _ F o s); auto. apply BI_unlink; [apply D|auto].
Qed.

(** dv shrinks, moves, grows or goes. *)
Lemma DB_dv b F G o s : DB b F -> (o = 0 /\ s = 0 \/ G o s) ->
  (forall x y, (F x y /\ x <> dv b) <-> (G x y /\ x <> o)) -> DB (set_dv b o s) G.
Proof.
  intros [B D] H E. split.
  - apply BI_dv. refine (BI_ext _ _ _ _ B). intros x y. cbn. apply E.
  - cbn. exact H.
Qed.

(** ** Bits of the small map *)
Lemma land1 x : Z.land x 1 = if Z.testbit x 0 then 1 else 0.
Proof.
  change 1 with (Z.ones 1). rewrite Z.land_ones by lia. change (2 ^ 1) with 2.
  rewrite Zmod_odd, Z.bit0_odd. reflexivity.
Qed.

Lemma low_two m idx : 0 <= idx -> Z.land (Z.shiftr m idx) 3 <> 0 ->
  let i := idx + Z.land (Z.lnot (Z.shiftr m idx)) 1 in
  Z.testbit m i = true /\ (i = idx \/ i = idx + 1).
Proof.
  intros I H. cbn zeta. rewrite land1, Z.lnot_spec by lia.
  rewrite Z.shiftr_spec by lia. rewrite Z.add_0_l.
  destruct (Z.testbit m idx) eqn:E; cbn; [rewrite Z.add_0_r; auto|]. split; [|now right].
  destruct (Z.testbit m (idx + 1)) eqn:E1; [reflexivity|]. exfalso. apply H.
  apply Z.bits_inj'. intros n N. rewrite Z.land_spec, Z.bits_0, Z.shiftr_spec by lia.
  destruct (Z.eq_dec n 0) as [->|]; [rewrite Z.add_0_l, E; reflexivity|].
  destruct (Z.eq_dec n 1) as [->|]; [rewrite (Z.add_comm 1), E1; reflexivity|].
  change 3 with (Z.ones 2). rewrite Z.ones_spec_high by lia. apply andb_false_r.
Qed.

Lemma low_two_no m idx : 0 <= idx -> Z.land (Z.shiftr m idx) 3 = 0 -> Z.testbit m idx = false.
Proof.
  intros I H. destruct (Z.testbit m idx) eqn:E; [|reflexivity].
  assert (Q : Z.testbit (Z.land (Z.shiftr m idx) 3) 0 = true).
  { rewrite Z.land_spec, Z.shiftr_spec by lia. rewrite Z.add_0_l, E. reflexivity. }
  rewrite H, Z.bits_0 in Q. easy.
Qed.

Lemma next_bin m idx : map32 m -> 0 <= idx < 32 -> Z.shiftr m idx <> 0 -> Z.testbit m idx = false ->
  let lb := Z.land (wrap32 (Z.shiftl (Z.shiftr m idx) idx)) (left_bits (2 ^ idx)) in
  exists i, bit2idx (least_bit lb) = i /\ idx < i < 32 /\ Z.testbit m i = true /\
  forall n, idx <= n < i -> Z.testbit m n = false.
Proof.
  intros M I NZ B0 lb. destruct M as [M1 M2].
  assert (LB : forall n, 0 <= n < 32 -> Z.testbit lb n = (idx <? n) && Z.testbit m n).
  { intros n N. unfold lb, wrap32. rewrite Z.land_spec, left_bits_bit by lia.
    rewrite Z.mod_pow2_bits_low by lia. rewrite Z.shiftl_spec by lia.
    destruct (Z.ltb_spec idx n); [|now rewrite andb_false_r].
    rewrite Z.shiftr_spec by lia. rewrite andb_true_r. cbn [andb]. f_equal. lia. }
  assert (R : 0 <= lb < 2 ^ 32).
  { unfold lb. rewrite Z.land_comm. apply land_range; [|apply Z.mod_pos_bound; lia].
    unfold left_bits. apply Z.lor_nonneg. split; apply Z.mod_pos_bound; lia. }
  assert (NL : lb <> 0).
  { intros E. apply NZ. apply Z.bits_inj'. intros n N. rewrite Z.bits_0, Z.shiftr_spec by lia.
    destruct (Z.eq_dec n 0) as [->|]; [rewrite Z.add_0_l; exact B0|].
    destruct (Z.lt_ge_cases (n + idx) 32) as [L|L]; [|apply M2; lia].
    specialize (LB (n + idx) ltac:(lia)). rewrite E, Z.bits_0 in LB.
    destruct (Z.ltb_spec idx (n + idx)); [|lia]. cbn in LB. now symmetry. }
  destruct (least_bit_ok lb) as (i & Ei & Hi & Ti & Li); [lia|]. exists i. split; [exact Ei|].
  rewrite LB in Ti by lia. apply andb_prop in Ti as [T1 T2]. split; [lia|]. split; [exact T2|].
  intros n N. destruct (Z.eq_dec n idx) as [->|]; [exact B0|].
  specialize (Li n ltac:(lia)). rewrite LB in Li by lia. destruct (idx <? n) eqn:E; [exact Li|lia].
Qed.

Lemma no_small m idx n : 0 <= idx <= n -> Z.shiftr m idx = 0 -> Z.testbit m n = false.
Proof.
  intros I H. assert (Q : Z.testbit (Z.shiftr m idx) (n - idx) = false) by (rewrite H; apply Z.bits_0).
  rewrite Z.shiftr_spec in Q by lia. replace (n - idx + idx) with n in Q by lia. exact Q.
Qed.

(** ** The allocator *)
Definition fr (h : heap) : pset := fun x y => In (x, y) (free_blocks h).

Record DI (T : Z) (d : dl) : Prop := {
  di_wf : wf T (d_h d);
  di_T : T <= 2 ^ 40;
  di_top : h_top (d_h d) <> None;
  di_db : DB (d_b d) (fr (d_h d)) }.

Lemma fr_HF T h : wf T h -> T <= 2 ^ 40 -> h_top h <> None -> HF (fr h).
Proof.
  intros W L NT. destruct W as [W1 W2 W3 _ _ _ _]. split.
  - intros x y H. apply free_bounds in H; [|exact W1]. rewrite MSIZE_eq in *.
    destruct (h_top h) as [t|]; [|easy]. cbn in W2, W3. rewrite TOP_FOOT_eq in W3.
    split; [lia|]. split; [lia|tauto].
  - intros x y y' H H'. eapply free_fun; eauto.
Qed.

Lemma fr_split T h o s : wf T h -> fr h o s ->
  exists pre post, h_ch h = pre ++ Ck s Free :: post /\ o = MSIZE + total pre /\
    Forall wfc pre /\ Forall wfc post /\ wfc (Ck s Free).
Proof.
  intros W H. destruct (free_in _ _ _ _ H) as (pre & post & E & ->). exists pre, post.
  split; [exact E|]. split; [reflexivity|]. pose proof (wf_ch _ _ W) as A. rewrite E in A.
  apply Forall_app in A as [A1 A2]. inversion A2; subst. auto.
Qed.

Lemma split_at_app pre : forall c post, split_at (length pre) (pre ++ c :: post) = Some (pre, c, post).
Proof. induction pre as [|d pre IH]; intros c post; cbn; [reflexivity|]. now rewrite IH. Qed.

Lemma take_whole_ok T h o s nb os : wf T h -> fr h o s -> nb <= s -> s - nb < MIN_CHUNK ->
  exists h' i, take_whole h o s = Ok h' /\ m_alloc h nb (PChunk i) os = Ok (MHeap o s, h') /\
    h_top h' = h_top h /\ forall x y, fr h' x y <-> pdel (fr h) o x y.
Proof.
  intros W H L R. destruct (fr_split _ _ _ _ W H) as (pre & post & E & -> & W1 & W2 & [_ S]).
  cbn in S. unfold take_whole, m_alloc. exists (Hp (pre ++ Ck s Used :: post) (h_top h) (h_ext h)), (length pre).
  rewrite E, locate_app, split_at_app by exact W1. rewrite Z.eqb_refl.
  destruct (Z.leb_spec nb s); [|lia]. destruct (Z.leb_spec MIN_CHUNK (s - nb)); [lia|].
  split; [reflexivity|]. split; [reflexivity|]. split; [reflexivity|].
  intros x y. unfold fr, free_blocks, pdel. cbn [h_ch]. rewrite E, !free_mid.
  split; [intros [Q|[Q|Q]]|intros [[Q|[Q|Q]] N]].
  - split; [tauto|]. apply free_bounds in Q; [|exact W1]. lia.
  - destruct Q; easy.
  - split; [tauto|]. apply free_bounds in Q; [|exact W2]. lia.
  - tauto.
  - lia.
  - tauto.
Qed.

Lemma take_part_ok T h o s nb os : wf T h -> fr h o s -> 32 <= nb -> MIN_CHUNK <= s - nb ->
  exists h' i, take_part h o s nb = Ok h' /\ m_alloc h nb (PChunk i) os = Ok (MHeap o nb, h') /\
    h_top h' = h_top h /\ forall x y, fr h' x y <-> padd (pdel (fr h) o) (o + nb) (s - nb) x y.
Proof.
  intros W H L R. destruct (fr_split _ _ _ _ W H) as (pre & post & E & -> & W1 & W2 & [_ S]).
  cbn in S. unfold MIN_CHUNK in R. unfold take_part, m_alloc.
  exists (Hp (pre ++ Ck nb Used :: Ck (s - nb) Free :: post) (h_top h) (h_ext h)), (length pre).
  rewrite E, locate_app, split_at_app by exact W1. rewrite Z.eqb_refl.
  destruct (Z.leb_spec nb s); [|lia]. destruct (Z.leb_spec MIN_CHUNK (s - nb)); [|unfold MIN_CHUNK in *; lia].
  split; [reflexivity|]. split; [reflexivity|]. split; [reflexivity|].
  intros x y. unfold fr, free_blocks, pdel, padd. cbn [h_ch]. rewrite E, !free_mid.
  cbn [free_at c_sz is_free c_tag]. rewrite in_app_iff. cbn [In].
  replace (MSIZE + total pre + nb + (s - nb)) with (MSIZE + total pre + s) by lia.
  split.
  - intros [Q|[Q|[[Q|[]]|Q]]].
    + left. split; [tauto|]. apply free_bounds in Q; [|exact W1]. lia.
    + destruct Q; easy.
    + injection Q as <- <-. right. lia.
    + left. split; [tauto|]. apply free_bounds in Q; [|exact W2]. lia.
  - intros [[[Q|[Q|Q]] N]|[-> ->]]; [tauto|lia|tauto|].
    right. right. left. now left.
Qed.

Lemma nofit_full h nb : nofit h nb = true <-> full h nb.
Proof.
  unfold nofit, full. rewrite andb_true_iff, forallb_forall. split.
  - intros [A B]. split.
    + intros o s H. destruct (free_in _ _ _ _ H) as (pre & post & E & _).
      specialize (A (Ck s Free)). rewrite E in A. cbn in A.
      specialize (A ltac:(apply in_or_app; right; now left)). destruct (Z.leb_spec nb s); [easy|lia].
    + intros t E. rewrite E in B. lia.
  - intros [A B]. split.
    + intros c H. apply in_split in H as (pre & post & E). destruct c as [s []]; cbn; try reflexivity.
      specialize (A (MSIZE + total pre) s). unfold free_blocks in A. rewrite E, free_mid in A.
      specialize (A ltac:(tauto)). destruct (Z.leb_spec nb s); [lia|reflexivity].
    + destruct (h_top h) as [t|]; [|reflexivity]. specialize (B t eq_refl). lia.
Qed.

(** What a call of mspace_malloc gives. *)
Definition mok (T : Z) (d : dl) (bytes : Z) (sys : pick) (os : Z) (x : outcome (mres * dl)) : Prop :=
  match x with
  | Ok (r, d') =>
      exists pk, m_malloc (d_h d) bytes (fun _ => pk) os = Ok (r, d_h d') /\ DI T d' /\
        (pk = POut -> sys = POut) /\ placed d bytes r /\
        (r = MNull -> bytes < MAX_REQUEST -> sys = PNone)
  | NoFuel => bytes < MAX_REQUEST /\ full (d_h d) (request2size bytes) /\ sys <> PNone
  | _ => False
  end.

Lemma m_malloc_pk h bytes pk os : bytes < MAX_REQUEST ->
  m_malloc h bytes (fun _ => pk) os = m_alloc h (request2size bytes) pk os.
Proof. intros H. unfold m_malloc. destruct (Z.leb_spec MAX_REQUEST bytes); [lia|reflexivity]. Qed.

Lemma handed_whole nb s : s - nb < MIN_CHUNK -> handed nb s = s.
Proof. unfold handed. intros H. destruct (Z.leb_spec MIN_CHUNK (s - nb)); [lia|reflexivity]. Qed.
Lemma handed_part nb s : MIN_CHUNK <= s - nb -> handed nb s = nb.
Proof. unfold handed. intros H. destruct (Z.leb_spec MIN_CHUNK (s - nb)); [reflexivity|lia]. Qed.

Lemma DI_step T d h' b' bytes pk os r : DI T d -> 0 <= bytes < MAX_REQUEST ->
  m_alloc (d_h d) (request2size bytes) pk os = Ok (r, h') -> h_top h' <> None ->
  DB b' (fr h') -> DI T (Dl h' b').
Proof.
  intros [W L NT D] B E NT' D'. destruct (request2size_ok bytes B) as (A1 & A2 & _).
  destruct (m_alloc_ok _ _ _ _ _ _ _ W A1 A2 E) as (W' & _). split; auto.
Qed.

(** dv, top, the system. *)
Lemma malloc_rest_ok T d bytes sys os : DI T d -> 0 <= bytes < MAX_REQUEST ->
  (forall o s, fr (d_h d) o s -> o <> dv (d_b d) -> request2size bytes <= s ->
     if bytes <=? MAX_SMALL_REQUEST then request2size bytes <= dvs (d_b d) /\ s <> request2size bytes
     else request2size bytes <= dvs (d_b d) <= s) ->
  mok T d bytes sys os (malloc_rest d (request2size bytes) sys os).
Proof.
  intros I B C. pose proof I as [W L NT D]. destruct (request2size_ok bytes B) as (A1 & A2 & _).
  set (nb := request2size bytes) in *. pose proof (fr_HF T _ W L NT) as [HF1 HF2].
  unfold malloc_rest. destruct (Z.leb_spec nb (dvs (d_b d))) as [LE|LE].
  - destruct (db_dv _ _ D) as [[D1 D2]|D1]; [lia|]. destruct (HF1 _ _ D1) as [D2 [D3 D4]].
    assert (PL : forall s, s = handed nb (dvs (d_b d)) -> placed d bytes (MHeap (dv (d_b d)) s)).
    { intros s ->. left. exists (dvs (d_b d)). fold nb. split; [exact D1|]. split; [reflexivity|].
      destruct (Z.leb_spec bytes MAX_SMALL_REQUEST) as [SM|SM].
      - destruct (Z.eq_dec (dvs (d_b d)) nb) as [EQ|NE].
        + left. split; [exact D1|]. split; [lia|]. intros o' s' _ H. lia.
        + right. split; [exact SM|]. split; [reflexivity|]. split; [exact LE|].
          intros o' s' H' ->. destruct (Z.eq_dec o' (dv (d_b d))) as [->|N].
          * apply NE. eapply HF2; eauto.
          * destruct (C _ _ H' N ltac:(lia)). easy.
      - left. split; [exact D1|]. split; [lia|]. intros o' s' H' H2.
        destruct (Z.eq_dec o' (dv (d_b d))) as [->|N].
        + rewrite (HF2 _ _ _ H' D1). lia.
        + specialize (C _ _ H' N H2). lia. }
    destruct (Z.leb_spec MIN_CHUNK (dvs (d_b d) - nb)) as [RS|RS].
    + destruct (take_part_ok T _ _ _ nb os W D1 A2 RS) as (h' & i & E1 & E2 & E3 & E4).
      rewrite E1. cbn [bind mok]. exists (PChunk i). rewrite m_malloc_pk by lia. fold nb. cbn [d_h].
      split; [exact E2|]. split; [|split; [easy|split; [|easy]]].
      * eapply DI_step; [exact I|exact B|exact E2|congruence|].
        unfold MIN_CHUNK in RS.
        apply (DB_dv _ (fr (d_h d))); [exact D| |].
        -- right. apply E4. unfold padd. right. auto.
        -- intros x y. rewrite E4. unfold padd, pdel. split.
           ++ intros [Q N]. split; [now left|]. intros ->.
              (* disjoint from dv *)
              destruct (fr_split _ _ _ _ W D1) as (pre & post & Eh & Eo & W1 & W2 & _).
              unfold fr, free_blocks in Q. rewrite Eh, free_mid in Q. destruct Q as [Q|[Q|Q]].
              ** apply free_bounds in Q; [|exact W1]. lia.
              ** lia.
              ** apply free_bounds in Q; [|exact W2]. lia.
           ++ intros [[[Q N]|Q] N2]; [tauto|]. destruct Q; easy.
      * apply PL. now rewrite handed_part.
    + destruct (take_whole_ok T _ _ _ nb os W D1 LE RS) as (h' & i & E1 & E2 & E3 & E4).
      rewrite E1. cbn [bind mok]. exists (PChunk i). rewrite m_malloc_pk by lia. fold nb. cbn [d_h].
      split; [exact E2|]. split; [|split; [easy|split; [|easy]]].
      * eapply DI_step; [exact I|exact B|exact E2|congruence|].
        apply (DB_dv _ (fr (d_h d))); [exact D|now left|].
        intros x y. rewrite E4. unfold pdel. split; [|tauto]. intros [Q N]. split; [tauto|].
        apply HF1 in Q. lia.
      * apply PL. now rewrite handed_whole.
  - assert (NOF : forall o s, fr (d_h d) o s -> s < nb).
    { intros o s H. destruct (Z.lt_ge_cases s nb) as [Q|Q]; [exact Q|].
      destruct (Z.eq_dec o (dv (d_b d))) as [->|N].
      - destruct (db_dv _ _ D) as [[D1 D2]|D1]; [apply HF1 in H; lia|].
        rewrite (HF2 _ _ _ H D1) in Q. lia.
      - specialize (C _ _ H N Q). destruct (bytes <=? MAX_SMALL_REQUEST); lia. }
    destruct (h_top (d_h d)) as [t|] eqn:ET; [|easy].
    destruct (Z.ltb_spec nb t) as [LT|GT].
    + cbn [mok]. exists PTop. rewrite m_malloc_pk by lia. fold nb. cbn [d_h m_alloc]. rewrite ET.
      destruct (Z.ltb_spec nb t); [|lia]. split; [reflexivity|].
      split; [|split; [easy|split; [|easy]]].
      * eapply (DI_step T d _ _ bytes PTop os); [exact I|exact B| |discriminate|].
        -- fold nb. cbn [m_alloc]. rewrite ET. destruct (Z.ltb_spec nb t); [reflexivity|lia].
        -- refine (DB_ext _ _ _ _ D). intros x y. unfold fr, free_blocks. cbn [h_ch].
           rewrite free_app. cbn. tauto.
      * right. fold nb. split; [reflexivity|]. split; [reflexivity|]. exact NOF.
    + assert (FULL : full (d_h d) nb).
      { split; [exact NOF|]. intros t' E'. rewrite E' in ET. injection ET as ->. lia. }
      pose proof (proj2 (nofit_full _ _) FULL) as NFT.
      destruct sys; cbn [mok]; try (split; [lia|]; split; [exact FULL|easy]).
      * destruct (Z.leb_spec MMAP_THRESHOLD nb) as [TH|TH]; cbn [mok].
        -- exists POut. rewrite m_malloc_pk by lia. fold nb. cbn [m_alloc].
           rewrite NFT. destruct (Z.leb_spec MMAP_THRESHOLD nb); [|lia]. rewrite orb_true_r.
           split; [reflexivity|]. split; [exact I|]. split; [easy|]. split; [now right|easy].
        -- split; [lia|]. split; [exact FULL|easy].
      * exists PNone. rewrite m_malloc_pk by lia. fold nb. cbn [m_alloc]. rewrite NFT.
        split; [reflexivity|]. split; [exact I|]. split; [easy|]. split; [now right|easy].
Qed.

(** A binned chunk is taken whole. *)
Lemma whole_mok T d bytes sys os o s b1 : DI T d -> 0 <= bytes < MAX_REQUEST ->
  fr (d_h d) o s -> o <> dv (d_b d) -> request2size bytes <= s -> s - request2size bytes < MIN_CHUNK ->
  BI b1 (pdel (fun x y => fr (d_h d) x y /\ x <> dv (d_b d)) o) -> dv b1 = dv (d_b d) -> dvs b1 = dvs (d_b d) ->
  best_fit (d_h d) (request2size bytes) o s ->
  mok T d bytes sys os (do h' <- take_whole (d_h d) o s; Ok (MHeap o s, Dl h' b1)).
Proof.
  intros I B H N LE RS B1 V1 V2 BF. pose proof I as [W L NT D].
  pose proof (fr_HF T _ W L NT) as [HF1 HF2].
  destruct (take_whole_ok T _ _ _ _ os W H LE RS) as (h' & i & E1 & E2 & E3 & E4).
  rewrite E1. cbn [bind mok]. exists (PChunk i). rewrite m_malloc_pk by lia. cbn [d_h].
  split; [exact E2|]. split; [|split; [easy|split; [|easy]]].
  - eapply DI_step; [exact I|exact B|exact E2|congruence|].
    apply (DB_ext _ (pdel (fr (d_h d)) o)); [intros x y; now rewrite E4|].
    apply (DB_take (d_b d) _ _ o s); auto. now apply HF1 in H.
  - left. exists s. split; [exact H|]. split; [now rewrite handed_whole|now left].
Qed.

(** ... or in part; [b2] holds the rest. *)
Lemma part_mok T d bytes sys os o s b2 : DI T d -> 0 <= bytes < MAX_REQUEST ->
  fr (d_h d) o s -> MIN_CHUNK <= s - request2size bytes ->
  (HF (pdel (fr (d_h d)) o) -> (forall y, ~ pdel (fr (d_h d)) o (o + request2size bytes) y) ->
   okc (s - request2size bytes) ->
   DB b2 (padd (pdel (fr (d_h d)) o) (o + request2size bytes) (s - request2size bytes))) ->
  best_fit (d_h d) (request2size bytes) o s ->
  mok T d bytes sys os (do h' <- take_part (d_h d) o s (request2size bytes);
                        Ok (MHeap o (request2size bytes), Dl h' b2)).
Proof.
  intros I B H RS B2 BF. pose proof I as [W L NT D].
  pose proof (fr_HF T _ W L NT) as [HF1 HF2]. destruct (request2size_ok bytes B) as (A1 & A2 & _).
  destruct (take_part_ok T _ _ _ _ os W H A2 RS) as (h' & i & E1 & E2 & E3 & E4).
  rewrite E1. cbn [bind mok]. exists (PChunk i). rewrite m_malloc_pk by lia. cbn [d_h].
  split; [exact E2|]. split; [|split; [easy|split; [|easy]]].
  - eapply DI_step; [exact I|exact B|exact E2|congruence|].
    eapply DB_ext; [intros x y; symmetry; apply E4|]. apply B2.
    + split; [intros x y [Q _]; auto|intros x y y' [Q _] [Q' _]; eauto].
    + intros y [Q _]. unfold MIN_CHUNK in RS.
      destruct (fr_split _ _ _ _ W H) as (pre & post & Eh & Eo & W1 & W2 & _).
      unfold fr, free_blocks in Q. rewrite Eh, free_mid in Q. destruct Q as [Q|[Q|Q]].
      * apply free_bounds in Q; [|exact W1]. lia.
      * lia.
      * apply free_bounds in Q; [|exact W2]. lia.
    + apply HF1 in H as [_ [H1 H2]]. unfold MIN_CHUNK in RS. split; [lia|now apply divide_sub].
  - left. exists s. split; [exact H|]. split; [now rewrite handed_part|now left].
Qed.

Lemma d_malloc_ok T d bytes sys os : DI T d -> 0 <= bytes < 2 ^ 64 ->
  mok T d bytes sys os (d_malloc d bytes sys os).
Proof.
  intros I B0. pose proof I as [W L NT D]. pose proof (fr_HF T _ W L NT) as [HF1 HF2].
  pose proof D as [DBI DDV].
  unfold d_malloc. destruct (Z.leb_spec bytes MAX_SMALL_REQUEST) as [SM|SM].
  - assert (B : 0 <= bytes < MAX_REQUEST) by (unfold MAX_SMALL_REQUEST, MAX_REQUEST in *; lia).
    change (if bytes <? MIN_REQUEST then MIN_CHUNK else pad_request bytes) with (request2size bytes).
    destruct (request2size_ok bytes B) as (A1 & A2 & _ & A4).
    set (nb := request2size bytes) in *.
    assert (NB : 32 <= nb <= 240).
    { split; [exact A2|]. destruct A1 as [q A1]. unfold MAX_SMALL_REQUEST in SM. lia. }
    unfold small_index. set (idx := nb / 8).
    assert (IDX : 4 <= idx <= 30 /\ nb = 8 * idx).
    { destruct A1 as [q A1]. assert (E : idx = 2 * q) by (symmetry; apply (Z.div_unique _ _ _ 0); lia). lia. }
    (* a binned chunk of a small bin *)
    assert (SB : forall i, 0 <= i < 32 -> (Z.testbit (smap (d_b d)) i = true <->
       exists o, fr (d_h d) o (8 * i) /\ o <> dv (d_b d))).
    { intros i Hi. apply (smap_bit _ _ i DBI Hi). }
    assert (SZ : forall x y, fr (d_h d) x y -> 32 <= y < 2 ^ 40 /\ exists k, y = 16 * k).
    { intros x y H. apply HF1 in H as [_ [H [k Hk]]]. split; [lia|]. exists k. lia. }
    cbn zeta.
    destruct (Z.eqb_spec (Z.land (Z.shiftr (smap (d_b d)) idx) 3) 0) as [Z3|Z3]; cbn [negb].
    2:{ destruct (low_two (smap (d_b d)) idx ltac:(lia) Z3) as [T1 T2].
        set (i := idx + _) in *.
        destruct (BI_first _ _ i DBI ltac:(lia) T1) as (o & l & Es & [Ho No] & B1).
        rewrite Es. unfold small_size.
        assert (i = idx) as ->.
        { destruct (SZ _ _ Ho) as [_ [k K]]. destruct A1 as [q A1]. lia. }
        destruct (unlink_first_dv (d_b d) idx) as [V1 V2].
        apply whole_mok; auto; fold nb; try (unfold MIN_CHUNK; lia).
        split; [exact Ho|]. split; [lia|]. intros o' s' _ Q. lia. }
    pose proof (low_two_no (smap (d_b d)) idx ltac:(lia) Z3) as NOX.
    assert (NX : forall o, fr (d_h d) o nb -> o = dv (d_b d)).
    { intros o H. destruct (Z.eq_dec o (dv (d_b d))) as [E|E]; [exact E|].
      assert (Q : Z.testbit (smap (d_b d)) idx = true).
      { apply SB; [lia|]. exists o. rewrite <- (proj2 IDX). auto. }
      congruence. }
    destruct (Z.ltb_spec (dvs (d_b d)) nb) as [DL|DL].
    2:{ apply malloc_rest_ok; [exact I|exact B|]. fold nb.
        intros o s H N Q. destruct (Z.leb_spec bytes MAX_SMALL_REQUEST); [|lia]. split; [lia|].
        intros ->. apply N. now apply NX. }
    assert (DVN : forall s, fr (d_h d) (dv (d_b d)) s -> s < nb).
    { intros s H. destruct DDV as [[D1 D2]|D1]; [apply HF1 in H; lia|].
      rewrite (HF2 _ _ _ H D1). lia. }
    destruct (Z.eqb_spec (Z.shiftr (smap (d_b d)) idx) 0) as [ZS|ZS]; cbn [negb].
    + assert (NS : forall o s, fr (d_h d) o s -> nb <= s -> 256 <= s).
      { intros o s H Q. destruct (Z.lt_ge_cases s 256) as [C|C]; [|exact C]. exfalso.
        destruct (SZ _ _ H) as [_ [k K]].
        assert (X : Z.testbit (smap (d_b d)) (2 * k) = true).
        { apply SB; [lia|]. exists o. replace (8 * (2 * k)) with s by lia. split; [exact H|].
          intros ->. apply DVN in H. lia. }
        rewrite (no_small _ idx) in X; [easy|lia|exact ZS]. }
      destruct (Z.eqb_spec (tmap (d_b d)) 0) as [ZT|ZT]; cbn [negb].
      * apply malloc_rest_ok; [exact I|exact B|]. fold nb. intros o s H N Q. exfalso.
        pose proof (NS o s H Q). pose proof (tmap_zero _ _ DBI ZT o s (conj H N)). lia.
      * destruct (tmalloc_small_ok _ _ nb DBI ltac:(lia) ZT) as (o & s & Et & [Ho No] & Ls & Mn).
        rewrite Et. destruct (unlink_large_dv (d_b d) o s) as [V1 V2].
        assert (BF : best_fit (d_h d) nb o s).
        { split; [exact Ho|]. split; [lia|]. intros o' s' H Q.
          apply (Mn o'); [|eapply NS; eauto]. split; [exact H|]. intros ->. apply DVN in H. lia. }
        assert (BU : BI (unlink_large (d_b d) o s) (pdel (fun x y => fr (d_h d) x y /\ x <> dv (d_b d)) o)).
        { apply BI_unlink_large; auto. }
        destruct (Z.ltb_spec (s - nb) MIN_CHUNK) as [RS|RS].
        -- apply whole_mok; auto. fold nb. lia.
        -- apply part_mok; auto. fold nb. intros F1 F2 F3.
           apply DB_replace; auto.
           ++ apply (DB_take (d_b d) _ _ o s); auto. now apply HF1 in Ho.
           ++ apply HF1 in Ho. lia.
           ++ rewrite V2. lia.
    + destruct (next_bin (smap (d_b d)) idx (si_map _ _ _ (bi_s _ _ DBI)) ltac:(lia) ZS NOX)
        as (i & Ei & Hi & Ti & Li).
      rewrite Ei. destruct (BI_first _ _ i DBI ltac:(lia) Ti) as (o & l & Es & [Ho No] & B1).
      rewrite Es. unfold small_size. destruct (unlink_first_dv (d_b d) i) as [V1 V2].
      assert (BF : best_fit (d_h d) nb o (8 * i)).
      { split; [exact Ho|]. split; [lia|]. intros o' s' H Q.
        destruct (Z.lt_ge_cases s' (8 * i)) as [C|C]; [|exact C]. exfalso.
        destruct (SZ _ _ H) as [_ [k K]].
        assert (X : Z.testbit (smap (d_b d)) (2 * k) = true).
        { apply SB; [lia|]. exists o'. replace (8 * (2 * k)) with s' by lia. split; [exact H|].
          intros ->. apply DVN in H. lia. }
        rewrite Li in X; [easy|lia]. }
      destruct (Z.ltb_spec (8 * i - nb) MIN_CHUNK) as [RS|RS].
      * apply whole_mok; auto; fold nb; lia.
      * apply part_mok; auto. fold nb. intros F1 F2 F3.
        apply DB_replace; auto.
        -- apply (DB_take (d_b d) _ _ o (8 * i)); auto. now apply HF1 in Ho.
        -- apply HF1 in Ho. lia.
        -- rewrite V2. lia.
  - destruct (Z.leb_spec MAX_REQUEST bytes) as [MX|MX].
    { cbn [mok]. exists PNone. unfold m_malloc. destruct (Z.leb_spec MAX_REQUEST bytes); [|lia].
      split; [reflexivity|]. split; [exact I|]. split; [easy|]. split; [now left|lia]. }
    assert (B : 0 <= bytes < MAX_REQUEST) by lia.
    assert (EN : pad_request bytes = request2size bytes).
    { unfold request2size. destruct (Z.ltb_spec bytes MIN_REQUEST); [|reflexivity].
      unfold MIN_REQUEST, MAX_SMALL_REQUEST in *. lia. }
    cbn zeta. rewrite EN.
    destruct (request2size_ok bytes B) as (A1 & A2 & A3 & A4).
    assert (NB : 256 <= request2size bytes < 2 ^ 64).
    { unfold MAX_SMALL_REQUEST, MAX_REQUEST in *. destruct A1 as [q A1]. lia. }
    set (nb := request2size bytes) in *.
    assert (DVR : 0 <= dvs (d_b d) < 2 ^ 40).
    { destruct DDV as [[_ ->]|Q]; [lia|]. apply HF1 in Q as [_ [Q _]]. lia. }
    destruct (Z.eqb_spec (tmap (d_b d)) 0) as [ZT|ZT].
    + apply malloc_rest_ok; [exact I|exact B|]. fold nb. intros o s H N Q. exfalso.
      pose proof (tmap_zero _ _ DBI ZT o s (conj H N)). lia.
    + pose proof (tmalloc_large_ok _ _ nb DBI NB DVR) as G.
      destruct (tmalloc_large (d_b d) nb) as [[o s]|].
      * destruct G as (([Ho No] & LE & Mn) & Ls & DVL).
        destruct (unlink_large_dv (d_b d) o s) as [V1 V2].
        assert (BF : best_fit (d_h d) nb o s).
        { split; [exact Ho|]. split; [lia|]. intros o' s' H Q.
          destruct (Z.eq_dec o' (dv (d_b d))) as [->|N]; [|apply (Mn o'); auto].
          destruct DDV as [[D1 D2]|D1]; [apply HF1 in H; lia|].
          rewrite (HF2 _ _ _ H D1) in *. lia. }
        assert (BU : BI (unlink_large (d_b d) o s) (pdel (fun x y => fr (d_h d) x y /\ x <> dv (d_b d)) o)).
        { apply BI_unlink_large; auto. }
        destruct (Z.ltb_spec (s - nb) MIN_CHUNK) as [RS|RS].
        -- apply whole_mok; auto.
        -- apply part_mok; auto. fold nb. intros F1 F2 F3.
           apply DB_insert; auto.
           ++ apply (DB_take (d_b d) _ _ o s); auto. now apply HF1 in Ho.
           ++ apply HF1 in Ho. lia.
      * apply malloc_rest_ok; [exact I|exact B|]. fold nb. intros o s H N Q.
        destruct (Z.leb_spec bytes MAX_SMALL_REQUEST); [lia|]. apply (G o s); auto.
Qed.
