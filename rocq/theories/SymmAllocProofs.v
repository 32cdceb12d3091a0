From Verif Require Import Base BaseProofs SymmAllocModel.

(** Specification: what all PEs see after the call. *)
Definition alloc_failed (ms : list aspace) (res : list (aspace * (Z * option Z))) : Prop :=
  Forall2 (fun m r => (forall k, fst r k = m k) /\ snd r = (1, None)) ms res.
Definition alloc_succeeded (pg size a : Z) (ms : list aspace)
    (res : list (aspace * (Z * option Z))) : Prop :=
  a mod pg = 0 /\ 0 <= a /\
  Forall2 (fun m r => snd r = (0, Some a) /\
     forall k, let inside := a <= k * pg < a + size in
       (inside -> m k = false /\ fst r k = true) /\ (~ inside -> fst r k = m k)) ms res.

Lemma maprange_ok_spec m n : forall k,
  maprange_ok m k n = true <-> forall j, k <= j < k + Z.of_nat n -> m j = false.
Proof.
  induction n as [|n IH]; intros k; simpl.
  - split; [intros _ j Hj; lia | reflexivity].
  - destruct (m k) eqn:E.
    + split; [discriminate|]. intros H. rewrite (H k) in E by lia. discriminate.
    + rewrite IH. split.
      * intros H j Hj. destruct (Z.eq_dec j k) as [->|]; [exact E|]. apply H. lia.
      * intros H j Hj. apply H. lia.
Qed.

Lemma check_ok_spec pg m a size :
  0 < pg -> 0 <= size ->
  check_maprange_ok pg m a size = true <-> forall k, in_pages pg a size k = true -> m k = false.
Proof.
  intros Hp Hs. unfold check_maprange_ok. rewrite maprange_ok_spec.
  assert (0 <= size / pg) by (apply Z.div_pos; lia).
  unfold in_pages. split; intros H1 j Hj; apply H1; lia.
Qed.

Lemma map_pointer_aligned n r : 0 <= n <= 45 -> 0 <= r -> map_pointer (2 ^ n) r mod 2 ^ n = 0 /\ 0 <= map_pointer (2 ^ n) r.
Proof.
  intros Hn Hr. split; [|apply Z.land_nonneg; left; exact Hr].
  rewrite <- Z.land_ones by lia. apply Z.bits_inj'. intros i Hi.
  rewrite Z.bits_0. unfold map_pointer. rewrite !Z.land_spec, Z.lor_spec, Z.land_spec, Z.ldiff_spec.
  destruct (Z.lt_ge_cases i n) as [Hlt|Hge].
  - assert (E1 : Z.testbit 0x0000600000000000 i = false).
    { change 0x0000600000000000 with (Z.shiftl 3 45). rewrite Z.shiftl_spec by lia.
      apply Z.testbit_neg_r. lia. }
    assert (E2 : Z.testbit (2 ^ n - 1) i = true).
    { replace (2 ^ n - 1) with (Z.ones n) by (rewrite Z.ones_equiv; lia). apply Z.ones_spec_low. lia. }
    rewrite E1, E2. simpl. rewrite andb_false_r, andb_false_r. simpl. rewrite andb_false_r. reflexivity.
  - rewrite Z.ones_spec_high by lia. apply andb_false_r.
Qed.

Lemma gen_addr_spec pg m size rnd : forall iter k a,
  gen_addr pg m size rnd k iter = Some a -> exists j, a = map_pointer pg (rnd j).
Proof.
  induction iter as [|i IH]; simpl; intros k a H; [discriminate|].
  destruct (check_maprange_ok pg m _ size); [injection H as <-; eauto|eauto].
Qed.

Lemma try_all_spec pg a size ok : 0 < pg -> 0 <= size -> forall ms i,
  Forall2 (fun m r =>
    (snd r = None /\ fst r = m) \/
    (snd r = Some a /\ (forall k, in_pages pg a size k = true -> m k = false) /\
     fst r = mmap_fixed pg m a size)) ms (try_all pg a size ok i ms).
Proof.
  intros Hp Hs. induction ms as [|m ms IH]; intros i; simpl; constructor; [|apply IH].
  unfold try_map. destruct (check_maprange_ok pg m a size) eqn:E; [|left; auto].
  destruct (ok i); [|left; auto]. right. split; [reflexivity|]. split; [|reflexivity].
  apply check_ok_spec; auto.
Qed.

Lemma in_pages_iff pg a size k :
  0 < pg -> a mod pg = 0 -> size mod pg = 0 -> in_pages pg a size k = true <-> a <= k * pg < a + size.
Proof.
  intros Hp Ha Hs. unfold in_pages.
  pose proof (Z.div_mod a pg ltac:(lia)) as Ea. pose proof (Z.div_mod size pg ltac:(lia)) as Es.
  rewrite Ha in Ea. rewrite Hs in Es.
  set (qa := a / pg) in *. set (qs := size / pg) in *. clearbody qa qs. subst a size.
  split; intros H.
  - assert (qa <= k < qa + qs) by lia. nia.
  - assert (qa <= k < qa + qs); [|lia]. nia.
Qed.

Lemma alloc_loop_spec pg n size rnd ok :
  pg = 2 ^ n -> 0 <= n <= 45 -> 0 < size -> size mod pg = 0 -> (forall i j, 0 <= rnd i j) ->
  forall iter att ms0 ms,
  ms <> [] -> Forall2 (fun m0 m : aspace => forall k, m k = m0 k) ms0 ms ->
  alloc_failed ms0 (alloc_loop pg size rnd ok att iter ms) \/
  exists a, alloc_succeeded pg size a ms0 (alloc_loop pg size rnd ok att iter ms).
Proof.
  intros Epg Hn Hs Hsm Hrnd.
  assert (Hpg : 0 < pg) by (rewrite Epg; apply Z.pow_pos_nonneg; lia).
  assert (HF : forall ms0 ms : list aspace, Forall2 (fun m0 m : aspace => forall k, m k = m0 k) ms0 ms ->
     alloc_failed ms0 (map (fun m => (m, (1, None))) ms)).
  { intros ms0 ms H. induction H; simpl; constructor; auto. }
  induction iter as [|i IH]; intros att ms0 ms Hne HE; cbn [alloc_loop]; [left; apply HF; exact HE|].
  destruct ms as [|m0 r] eqn:Ems; [contradiction|]. rewrite <- Ems in *.
  destruct (gen_addr pg m0 size (rnd att) 0 RANDOM_ADDR_RETRY) as [a|] eqn:Eg; [|left; apply HF; exact HE].
  destruct (gen_addr_spec _ _ _ _ _ _ _ Eg) as (j & Ea).
  destruct (map_pointer_aligned n (rnd att j) Hn (Hrnd att j)) as [Ham Ha0].
  rewrite <- Epg, <- Ea in Ham, Ha0.
  pose proof (try_all_spec pg a size (ok att) Hpg ltac:(lia) ms 0) as HT.
  set (l := try_all pg a size (ok att) 0 ms) in *. clearbody l.
  destruct (any_fail l) eqn:EF.
  - apply IH.
    + intros E. destruct l; [|discriminate]. inversion HT. congruence.
    + clear - HT HE. revert ms0 HE. induction HT as [|m r ms l H HT IH]; intros ms0 HE; inversion HE; subst; simpl; constructor.
      * intros k. destruct r as [rm ra]. unfold cleanup. cbn [fst snd] in *.
        destruct H as [[-> ->]|(-> & Hfree & ->)]; [auto|].
        simpl. unfold munmap, mmap_fixed. destruct (in_pages pg a size k) eqn:E; [|auto].
        rewrite <- H3. symmetry. apply Hfree. exact E.
      * apply IH. assumption.
  - right. exists a. split; [exact Ham|]. split; [exact Ha0|].
    clear - HT HE EF Ham Hsm Hpg. revert ms0 HE.
    induction HT as [|m r ms l H HT IH]; intros ms0 HE; inversion HE; subst; simpl; constructor.
    + simpl in EF. apply orb_false_iff in EF. destruct EF as [EF _].
      destruct r as [rm ra]. cbn [fst snd] in *.
      destruct H as [[E _]|(E & Hfree & Er)]; [rewrite E in EF; discriminate|].
      rewrite E. split; [reflexivity|]. intros k. cbv zeta.
      rewrite <- (in_pages_iff pg a size k Hpg Ham Hsm).
      split.
      * intros Hk. rewrite Er. unfold mmap_fixed. rewrite Hk.
        split; [rewrite <- H3; apply Hfree; exact Hk|reflexivity].
      * intros Hk. rewrite Er. unfold mmap_fixed. apply not_true_is_false in Hk. rewrite Hk. apply H3.
    + apply IH; [|assumption]. simpl in EF. apply orb_false_iff in EF. tauto.
Qed.

Lemma forall2_refl {A} (R : A -> A -> Prop) l : (forall a, R a a) -> Forall2 R l l.
Proof. intros H. induction l; constructor; auto. Qed.

Lemma symm_alloc_agreed n size rnd ok ms :
  0 <= n <= 45 -> 0 < size -> size mod 2 ^ n = 0 -> (forall i j, 0 <= rnd i j) -> ms <> [] ->
  alloc_failed ms (allocate_symm_mem (2 ^ n) size rnd ok ms) \/
  exists a, alloc_succeeded (2 ^ n) size a ms (allocate_symm_mem (2 ^ n) size rnd ok ms).
Proof.
  intros Hn Hs Hm Hr Hne. unfold allocate_symm_mem.
  apply (alloc_loop_spec (2 ^ n) n); auto. apply forall2_refl. auto.
Qed.

(** The loop does not give up early: the first candidate that is free and can be mapped
    everywhere is taken. *)
Lemma try_all_ok pg a size ok : 0 < pg -> 0 <= size -> forall ms i,
  Forall (fun m => forall k, in_pages pg a size k = true -> m k = false) ms ->
  (forall j, ok j = true) -> any_fail (try_all pg a size ok i ms) = false.
Proof.
  intros Hp Hs ms. induction ms as [|m ms IH]; intros i HF Hok; [reflexivity|].
  inversion HF; subst. simpl. unfold any_fail in *. simpl. rewrite IH by assumption.
  unfold try_map. rewrite (proj2 (check_ok_spec pg m a size Hp Hs)) by assumption.
  rewrite Hok. reflexivity.
Qed.

Lemma gen_first pg m size rnd :
  check_maprange_ok pg m (map_pointer pg (rnd 0%nat)) size = true ->
  gen_addr pg m size rnd 0 RANDOM_ADDR_RETRY = Some (map_pointer pg (rnd 0%nat)).
Proof. intros H. change RANDOM_ADDR_RETRY with (S 99). cbn [gen_addr]. cbv zeta. rewrite H. reflexivity. Qed.

Lemma alloc_first pg size rnd ok i m0 r a :
  gen_addr pg m0 size (rnd 0%nat) 0 RANDOM_ADDR_RETRY = Some a ->
  any_fail (try_all pg a size (ok 0%nat) 0 (m0 :: r)) = false ->
  alloc_loop pg size rnd ok 0 (S i) (m0 :: r) =
  map (fun r => (fst r, (0, snd r))) (try_all pg a size (ok 0%nat) 0 (m0 :: r)).
Proof. intros E1 E2. cbn [alloc_loop]. rewrite E1, E2. reflexivity. Qed.

Lemma symm_alloc_progress n size rnd ok ms :
  0 <= n <= 45 -> 0 < size -> size mod 2 ^ n = 0 -> (forall i j, 0 <= rnd i j) -> ms <> [] ->
  (forall j, ok 0%nat j = true) ->
  Forall (fun m : aspace => forall k, map_pointer (2 ^ n) (rnd 0%nat 0%nat) <= k * 2 ^ n
                             < map_pointer (2 ^ n) (rnd 0%nat 0%nat) + size -> m k = false) ms ->
  alloc_succeeded (2 ^ n) size (map_pointer (2 ^ n) (rnd 0%nat 0%nat)) ms
    (allocate_symm_mem (2 ^ n) size rnd ok ms).
Proof.
  intros Hn Hs Hm Hr Hne Hok HF.
  set (b := map_pointer (2 ^ n) (rnd 0%nat 0%nat)) in *.
  destruct (map_pointer_aligned n (rnd 0%nat 0%nat) Hn (Hr _ _)) as [Ham _]. fold b in Ham.
  assert (Hpg : 0 < 2 ^ n) by (apply Z.pow_pos_nonneg; lia).
  assert (HF' : Forall (fun m => forall k, in_pages (2 ^ n) b size k = true -> m k = false) ms).
  { rewrite Forall_forall in *. intros m Him k Hk. apply HF; [exact Him|].
    apply in_pages_iff; assumption. }
  pose proof (symm_alloc_agreed n size rnd ok ms Hn Hs Hm Hr Hne) as HA.
  destruct ms as [|m0 r]; [contradiction|].
  inversion HF' as [|? ? Hm0 _]; subst.
  assert (Eg : gen_addr (2 ^ n) m0 size (rnd 0%nat) 0 RANDOM_ADDR_RETRY = Some b)
    by (apply gen_first; fold b; apply (check_ok_spec _ _ _ _ Hpg); [lia|exact Hm0]).
  assert (E : allocate_symm_mem (2 ^ n) size rnd ok (m0 :: r) =
     map (fun r => (fst r, (0, snd r))) (try_all (2 ^ n) b size (ok 0%nat) 0 (m0 :: r))).
  { unfold allocate_symm_mem. change ALLOC_SYMM_MEM_RETRY with (S 99).
    apply alloc_first; [exact Eg|]. apply try_all_ok; auto; lia. }
  rewrite E in *. clear E.
  cbn [try_all map] in HA |- *. set (rest := map _ (try_all _ _ _ _ (0 + 1) r)) in *.
  assert (E1 : try_map (2 ^ n) m0 b size (ok 0%nat 0) = (mmap_fixed (2 ^ n) m0 b size, Some b)).
  { unfold try_map. rewrite (proj2 (check_ok_spec (2 ^ n) m0 b size Hpg ltac:(lia)) Hm0), Hok. reflexivity. }
  rewrite E1 in *. cbn [fst snd] in *.
  destruct HA as [H|(a & H)].
  - inversion H as [|? ? ? ? [_ H1] _]; subst. discriminate.
  - assert (a = b) as <-; [|exact H].
    destruct H as (_ & _ & H). inversion H as [|? ? ? ? [H1 _] _]; subst. simpl in H1. congruence.
Qed.

(** Freeing restores the address space. *)
Lemma symm_free_restores n size a ms res :
  0 <= n <= 45 -> 0 < size -> size mod 2 ^ n = 0 ->
  alloc_succeeded (2 ^ n) size a ms res ->
  Forall2 (fun m r => forall k, free_symm_mem (2 ^ n) (fst r) a size k = m k) ms res.
Proof.
  intros Hn Hs Hm (Ha & _ & H).
  assert (Hpg : 0 < 2 ^ n) by (apply Z.pow_pos_nonneg; lia).
  induction H as [|m r ms res [_ H1] H IH]; constructor; auto.
  intros k. specialize (H1 k). cbv zeta in H1. rewrite <- (in_pages_iff (2 ^ n) a size k Hpg Ha Hm) in H1.
  unfold free_symm_mem, munmap. destruct (in_pages (2 ^ n) a size k).
  - symmetry. apply H1. reflexivity.
  - apply H1. discriminate.
Qed.
