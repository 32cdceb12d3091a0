(** Proofs about ZeModel. *)
From Verif Require Import Base ZeModel ZeSpec.

Definition wf (s : ze) : Prop :=
  NoDup (map fst (z_live s)) /\ (forall i o, In (i, o) (z_live s) -> i < z_next s).

Lemma find_in : forall l i o, NoDup (map fst l) -> In (i, o) l -> z_find i l = Some o.
Proof.
  induction l as [|[j q] l IH]; intros i o N H; [destruct H|].
  cbn in N. inversion N as [|x y N1 N2]; subst. cbn. destruct H as [E|H].
  - inversion E; subst. now rewrite Z.eqb_refl.
  - destruct (i =? j) eqn:E; [|auto]. apply Z.eqb_eq in E. subst.
    exfalso. apply N1. apply in_map_iff. exists (j, o). auto.
Qed.
Lemma find_some : forall l i o, z_find i l = Some o -> In (i, o) l.
Proof.
  induction l as [|[j q] l IH]; intros i o H; [discriminate|]. cbn in H.
  destruct (i =? j) eqn:E; [|right; auto]. apply Z.eqb_eq in E. inversion H; subst. now left.
Qed.
Lemma drop_in : forall l i j o, NoDup (map fst l) -> In (j, o) (z_drop i l) <-> In (j, o) l /\ j <> i.
Proof.
  induction l as [|[k q] l IH]; intros i j o N; cbn; [tauto|].
  cbn in N. inversion N as [|x y N1 N2]; subst.
  destruct (i =? k) eqn:E.
  - apply Z.eqb_eq in E. subst. split.
    + intros H. split; [now right|]. intros ->. apply N1. apply in_map_iff. exists (k, o). auto.
    + intros [[H|H] H1]; [inversion H; subst; congruence|assumption].
  - apply Z.eqb_neq in E. cbn. rewrite (IH i j o N2). split.
    + intros [H|[H H1]]; [inversion H; subst; split; [now left|congruence]|tauto].
    + intros [[H|H] H1]; tauto.
Qed.
Lemma drop_nodup : forall l i, NoDup (map fst l) -> NoDup (map fst (z_drop i l)).
Proof.
  induction l as [|[k q] l IH]; intros i N; cbn; [constructor|].
  cbn in N. inversion N as [|x y N1 N2]; subst.
  destruct (i =? k) eqn:E; [assumption|]. cbn. constructor; [|auto].
  intros H. apply in_map_iff in H. destruct H as [[a b] [E1 H]]. cbn in E1. subst.
  apply drop_in in H; [|assumption]. destruct H as [H _]. apply N1. apply in_map_iff. exists (k, b). auto.
Qed.
Lemma drop_filter : forall (f : zobj -> bool) l i o,
  z_find i l = Some o -> f o = false -> filter (fun x => f (snd x)) (z_drop i l) = filter (fun x => f (snd x)) l.
Proof.
  induction l as [|[k q] l IH]; intros i o H F; [discriminate|]. cbn in H |- *.
  destruct (i =? k) eqn:E.
  - inversion H; subst. cbn. now rewrite F.
  - cbn. destruct (f q); [f_equal|]; eapply IH; eauto.
Qed.
Lemma drop_filter1 : forall (f : zobj -> bool) l i o,
  z_find i l = Some o -> f o = true ->
  S (length (filter (fun x => f (snd x)) (z_drop i l))) = length (filter (fun x => f (snd x)) l).
Proof.
  induction l as [|[k q] l IH]; intros i o H F; [discriminate|]. cbn in H |- *.
  destruct (i =? k) eqn:E.
  - inversion H; subst. cbn. now rewrite F.
  - cbn. destruct (f q); cbn; [f_equal|]; eapply IH; eauto.
Qed.

Lemma wf_drop : forall s i d t c x, wf s -> wf (mkZe d t c x (z_drop i (z_live s)) (z_next s)).
Proof.
  intros s i d t c x [N B]. split; cbn; [now apply drop_nodup|].
  intros j o H. apply drop_in in H; [|assumption]. destruct H as [H _]. now apply B in H.
Qed.
Lemma wf_new : forall s o, wf s -> wf (snd (z_new o s)).
Proof.
  intros s o [N B]. split; cbn.
  - constructor; [|assumption]. intros H. apply in_map_iff in H. destruct H as [[a b] [E H]].
    cbn in E. apply B in H. lia.
  - intros i q [H|H]; [inversion H; lia|]. apply B in H. lia.
Qed.
Lemma wf_with : forall s d t c x, wf s -> wf (z_with s d t c x).
Proof. intros s d t c x H. exact H. Qed.

Lemma has_gpu_b : forall d, existsb snd d = true <-> has_gpu d.
Proof.
  intros d. rewrite existsb_exists. unfold has_gpu. split.
  - intros [[h b] [H E]]. cbn in E. subst. eauto.
  - intros [h H]. exists (h, true). auto.
Qed.
Lemma not_gpu_b : forall d, existsb snd d = false <-> ~ has_gpu d.
Proof. intros d. rewrite <- has_gpu_b. destruct (existsb snd d); split; congruence. Qed.

Definition allowed (checks m0 : bool) (ds : list driver) (k : nat) : Prop :=
  m0 = true \/ checks = false \/ none_empty ds k.

Lemma first_cons : forall d ds k, first_gpu (d :: ds) (S k) -> ~ has_gpu d /\ first_gpu ds k.
Proof.
  intros d ds k [H1 H2]. split; [exact (H2 0%nat d ltac:(lia) eq_refl)|]. split; [exact H1|].
  intros j e L E. exact (H2 (S j) e ltac:(lia) E).
Qed.
Lemma none_cons : forall d ds k, none_empty (d :: ds) (S k) -> d <> [] /\ none_empty ds k.
Proof.
  intros d ds k H. split.
  - intros ->. exact (H 0%nat ltac:(lia) eq_refl).
  - intros j L. exact (H (S j) ltac:(lia)).
Qed.

(** The scan stops at the first driver with a GPU; in front of its table are those of the drivers passed. *)
Lemma scan_ok : forall checks m0 ds k k0 s,
  wf s -> z_driver s = None -> first_gpu ds k -> allowed checks m0 ds k ->
  exists s' d t tabs, gpu_scan checks m0 k0 ds s = Ok s' /\ wf s' /\
    z_driver s' = Some (k0 + k)%nat /\ z_ctx s' = z_ctx s /\
    nth_error ds k = Some d /\ z_table s' = Some t /\ z_count s' = Z.of_nat (length d) /\
    z_live s' = (t, ZTable (map fst d)) :: tabs ++ z_live s /\
    Forall (fun x => is_table (snd x) = true) tabs /\
    (m0 = true \/ none_empty ds k -> length tabs = k).
Proof.
  intros checks m0 ds. induction ds as [|d ds IH]; intros k k0 s W D F A.
  { destruct F as [[d [H _]] _]. destruct k; discriminate. }
  destruct k as [|k].
  - destruct F as [[d' [H G]] _]. cbn in H. inversion H; subst d'.
    assert (N : (Z.of_nat (length d) =? 0) = false).
    { destruct d; [destruct G as [h []]|]. apply Z.eqb_neq. cbn [length]. lia. }
    apply has_gpu_b in G. cbn [gpu_scan]. unfold gpu_try. rewrite N. cbn. rewrite G. cbn.
    eexists. exists d, (z_next s), []. split; [reflexivity|].
    split. { apply wf_with. exact (wf_new s (ZTable (map fst d)) W). }
    cbn. rewrite Nat.add_0_r. repeat split; auto.
  - apply first_cons in F. destruct F as [G F].
    apply not_gpu_b in G.
    assert (A' : allowed checks m0 ds k).
    { destruct A as [A|[A|A]]; [now left|right; now left|right; right].
      now apply none_cons in A. }
    cbn [gpu_scan]. unfold gpu_try.
    destruct ((Z.of_nat (length d) =? 0) && negb m0) eqn:E.
    + apply andb_prop in E. destruct E as [E1 E2]. apply Z.eqb_eq in E1.
      assert (d = []) by (destruct d; [reflexivity|cbn [length] in E1; lia]). subst d.
      apply negb_true_iff in E2. subst m0.
      assert (checks = false).
      { destruct A as [A|[A|A]]; [discriminate|assumption|]. apply none_cons in A. destruct A as [A _]. congruence. }
      subst checks. cbn.
      destruct (IH k (S k0) (z_with s (z_driver s) None 0 (z_ctx s)))
        as (s' & d' & t & tabs & R & W' & D' & C & H & T & Q & L & FT & LEN); auto.
      cbn in R. rewrite D. cbn [z_driver z_with].
      exists s', d', t, tabs. rewrite D in R. rewrite <- R. cbn in L, C.
      split; [reflexivity|]. split; [exact W'|].
      split; [rewrite D'; f_equal; lia|]. split; [exact C|].
      split; [exact H|]. split; [exact T|]. split; [exact Q|]. split; [exact L|]. split; [exact FT|].
      intros [X|X]; [discriminate|]. apply none_cons in X. destruct X as [X _]. congruence.
    + cbn. rewrite G, D. cbn [z_driver z_with].
      destruct (IH k (S k0) (z_with (snd (z_new (ZTable (map fst d)) s)) None (Some (z_next s))
                               (Z.of_nat (length d)) (z_ctx s)))
        as (s' & d' & t & tabs & R & W' & D' & C & H & T & Q & L & FT & LEN); auto.
      { apply wf_with. exact (wf_new s _ W). }
      exists s', d', t, (tabs ++ [(z_next s, ZTable (map fst d))]).
      cbn in R, L, C. split; [exact R|]. split; [exact W'|].
      split; [rewrite D'; f_equal; lia|]. split; [exact C|].
      split; [exact H|]. split; [exact T|]. split; [exact Q|].
      split; [rewrite L, <- app_assoc; reflexivity|].
      split. { apply Forall_app. split; [exact FT|]. constructor; [reflexivity|constructor]. }
      intros X. rewrite app_length. cbn. rewrite LEN; [lia|].
      destruct X as [X|X]; [now left|right]. now apply none_cons in X.
Qed.

Lemma scan_none : forall checks m0 ds k0 s,
  wf s -> z_driver s = None -> no_gpu ds ->
  (exists s', gpu_scan checks m0 k0 ds s = Ok s' /\ wf s' /\ z_driver s' = None /\ z_ctx s' = z_ctx s /\
     forall x, In x (z_live s) -> In x (z_live s')) \/
  checks = true /\ gpu_scan checks m0 k0 ds s = Abort.
Proof.
  intros checks m0 ds. induction ds as [|d ds IH]; intros k0 s W D N.
  { left. exists s. auto. }
  assert (G : existsb snd d = false) by (apply not_gpu_b, N; now left).
  assert (N' : no_gpu ds) by (intros e H; apply N; now right).
  cbn [gpu_scan]. unfold gpu_try. rewrite G.
  destruct ((Z.of_nat (length d) =? 0) && negb m0).
  - destruct checks; [right; auto|]. cbn. rewrite D. cbn.
    exact (IH (S k0) (z_with s None None (Z.of_nat (length d)) (z_ctx s)) W eq_refl N').
  - cbn. rewrite D. cbn.
    destruct (IH (S k0) (z_with (snd (z_new (ZTable (map fst d)) s)) None (Some (z_next s))
                               (Z.of_nat (length d)) (z_ctx s)) (wf_new s _ W) eq_refl N')
      as [(s' & R & W' & D' & C & K)|X]; [left|right; exact X].
    exists s'. split; [exact R|]. split; [exact W'|]. split; [exact D'|]. split; [exact C|].
    intros x H. apply K. now right.
Qed.

Lemma filter_tables : forall (f : zobj -> bool) tabs,
  (forall o, is_table o = true -> f o = false) ->
  Forall (fun x => is_table (snd x) = true) tabs -> filter (fun x : Z * zobj => f (snd x)) tabs = [].
Proof.
  intros f tabs Hf. induction 1 as [|x l H F IH]; [reflexivity|]. cbn. now rewrite (Hf _ H).
Qed.
Lemma filter_all : forall tabs : list (Z * zobj),
  Forall (fun x => is_table (snd x) = true) tabs -> filter (fun x => is_table (snd x)) tabs = tabs.
Proof. induction 1 as [|x l H F IH]; [reflexivity|]. cbn. now rewrite H, IH. Qed.

(** After the start: the driver is used, and the tables of the drivers in front are left. *)
Lemma init_ok : forall checks mc k,
  mc_ok mc = true -> first_gpu (mc_drivers mc) k ->
  allowed checks (mc_malloc0 mc) (mc_drivers mc) k ->
  exists s, gpu_init checks mc ze0 = Ok s /\ wf s /\ uses mc s k /\
    count is_mem s = 0%nat /\ count is_ctx s = 1%nat /\ count is_list s = 0%nat /\
    (mc_malloc0 mc = true \/ none_empty (mc_drivers mc) k -> count is_table s = S k).
Proof.
  intros checks mc k O F A. unfold gpu_init. rewrite O. cbn [c_assert bind].
  set (s1 := snd (z_new ZDrivers ze0)).
  assert (W1 : wf s1) by (apply wf_new; split; [constructor|intros i o []]).
  destruct (scan_ok checks (mc_malloc0 mc) (mc_drivers mc) k 0 s1 W1 eq_refl F A)
    as (s2 & d & t & tabs & R & W2 & D & C & H & T & Q & L & FT & LEN).
  destruct (mc_drivers mc) as [|d0 ds] eqn:E.
  { destruct F as [[d' [X _]] _]. destruct k; discriminate. }
  assert (R' : gpu_scan checks (mc_malloc0 mc) 0 (d0 :: ds)
                 (mkZe None None 0 None [(1, ZDrivers)] 2) = Ok s2) by exact R.
  clear R. rename R' into R.
  change (z_new ZDrivers ze0) with (1, mkZe None None 0 None [(1, ZDrivers)] 2).
  cbv beta iota. rewrite R. cbn [bind]. rewrite D. cbn [Nat.add].
  unfold z_free, z_with, z_new. cbn [z_live z_driver z_table z_count z_ctx z_next bind].
  set (l3 := (z_next s2, ZCtx k) :: z_live s2).
  assert (W3 : wf (snd (z_new (ZCtx k) s2))) by now apply wf_new.
  assert (I1 : In (1, ZDrivers) l3).
  { right. rewrite L. right. apply in_or_app. right. now left. }
  assert (N3 : NoDup (map fst l3)) by exact (proj1 W3).
  pose proof (find_in l3 1 ZDrivers N3 I1) as F1. rewrite F1.
  eexists. split; [reflexivity|].
  split. { exact (wf_drop (snd (z_new (ZCtx k) s2)) 1 _ _ _ _ W3). }
  assert (CT : forall f : zobj -> bool, f ZDrivers = false ->
    filter (fun x => f (snd x)) (z_drop 1 l3) = filter (fun x => f (snd x)) l3).
  { intros f X. exact (drop_filter f l3 1 ZDrivers F1 X). }
  assert (B : z_next s2 <> 1 /\ t <> 1).
  { destruct W2 as [N2 B2]. split.
    - pose proof (B2 1 ZDrivers) as X. destruct I1 as [I1|I1]; [discriminate|]. apply X in I1. lia.
    - intros ->. rewrite L in N2. cbn in N2. inversion N2 as [|x y X Y]; subst. apply X.
      apply in_map_iff. exists (1, ZDrivers). split; [reflexivity|]. apply in_or_app. right. now left. }
  split.
  { split; [exact D|]. split.
    - exists (z_next s2). split; [reflexivity|]. cbn [z_live].
      apply find_in; [now apply drop_nodup|]. apply drop_in; [assumption|]. split; [now left|tauto].
    - exists t, d. rewrite E. split; [exact H|]. split; [exact T|]. split; [exact Q|]. cbn [z_live].
      apply find_in; [now apply drop_nodup|]. apply drop_in; [assumption|].
      split; [|tauto]. right. rewrite L. now left. }
  assert (CL : count is_list (mkZe (z_driver s2) (z_table s2) (z_count s2) (Some (z_next s2)) (z_drop 1 l3) (z_next s2 + 1)) = 0%nat).
  { unfold count. cbn [z_live]. pose proof (drop_filter1 is_list l3 1 ZDrivers F1 eq_refl) as X.
    unfold l3 in X at 2. rewrite L in X. cbn [filter snd is_list] in X. rewrite filter_app in X.
    rewrite (filter_tables is_list tabs) in X; [|intros []; cbn; congruence|exact FT].
    cbn [z_live s1 z_new snd filter is_list app length z_next ze0] in X. lia. }
  unfold count. cbn [z_live]. rewrite (CT is_mem eq_refl), (CT is_ctx eq_refl), (CT is_table eq_refl).
  unfold count in CL. cbn [z_live] in CL. rewrite CL. unfold l3. rewrite L. cbn [filter snd is_mem is_ctx is_table].
  rewrite !filter_app. cbn [z_live s1 z_new snd filter is_mem is_ctx is_table].
  split. { rewrite (filter_tables is_mem); auto. intros []; cbn; congruence. }
  split. { rewrite (filter_tables is_ctx); auto. intros []; cbn; congruence. }
  split; [reflexivity|].
  intros X. rewrite filter_all by assumption. cbn. rewrite app_nil_r, LEN; auto.
Qed.

Lemma wf1 : wf (mkZe None None 0 None [(1, ZDrivers)] 2).
Proof. exact (wf_new ze0 ZDrivers (conj (NoDup_nil _) (fun i o (H : In (i, o) []) => match H with end))). Qed.
Lemma no_start : forall mc, mc_ok mc = false \/ no_gpu (mc_drivers mc) -> gpu_init true mc ze0 = Abort.
Proof.
  intros mc H. unfold gpu_init. destruct (mc_ok mc) eqn:O; [|reflexivity].
  destruct H as [H|H]; [discriminate|]. cbn [c_assert bind].
  destruct (mc_drivers mc) as [|d ds] eqn:E; [reflexivity|].
  change (z_new ZDrivers ze0) with (1, mkZe None None 0 None [(1, ZDrivers)] 2). cbv beta iota.
  destruct (scan_none true (mc_malloc0 mc) (d :: ds) 0 _ wf1 eq_refl H)
    as [(s' & R & _ & D & _)|[_ R]]; rewrite R; cbn; [rewrite D|]; reflexivity.
Qed.
Lemma no_start_fast : forall mc, mc_ok mc = true -> mc_drivers mc <> [] -> no_gpu (mc_drivers mc) ->
  exists s, gpu_init false mc ze0 = Ok s /\ ze_query s = Abort.
Proof.
  intros mc O NE H. unfold gpu_init. rewrite O. cbn [c_assert bind].
  destruct (mc_drivers mc) as [|d ds] eqn:E; [congruence|].
  change (z_new ZDrivers ze0) with (1, mkZe None None 0 None [(1, ZDrivers)] 2). cbv beta iota.
  destruct (scan_none false (mc_malloc0 mc) (d :: ds) 0 _ wf1 eq_refl H)
    as [(s' & R & W & D & C & K)|[X _]]; [|discriminate]. rewrite R. cbn [bind]. rewrite D. cbn [bind c_assert].
  unfold z_free. rewrite (find_in (z_live s') 1 ZDrivers (proj1 W) (K _ (or_introl eq_refl))).
  eexists. split; [reflexivity|]. unfold ze_query, ctx_driver. cbn. cbn in C. now rewrite C.
Qed.

Definition mems (s : ze) : list Z := map fst (filter (fun x => is_mem (snd x)) (z_live s)).
Lemma mems_drop : forall l p dev, NoDup (map fst l) -> z_find p l = Some (ZMem dev) ->
  map fst (filter (fun x => is_mem (snd x)) (z_drop p l)) =
  remove Z.eq_dec p (map fst (filter (fun x => is_mem (snd x)) l)).
Proof.
  induction l as [|[k q] l IH]; intros p dev N H; [discriminate|].
  cbn in N. inversion N as [|x y N1 N2]; subst. cbn in H |- *.
  destruct (p =? k) eqn:E.
  - apply Z.eqb_eq in E. inversion H; subst. cbn. destruct (Z.eq_dec k k); [|congruence].
    symmetry. apply notin_remove. intros X. apply N1. apply in_map_iff in X. destruct X as [w [X1 X2]].
    apply filter_In in X2. apply in_map_iff. exists w. tauto.
  - apply Z.eqb_neq in E. cbn. destruct (is_mem q); cbn; [|eapply IH; eauto].
    destruct (Z.eq_dec p k); [congruence|]. f_equal. eapply IH; eauto.
Qed.

Lemma ctx_of_uses : forall mc s k, uses mc s k -> ctx_driver s = Some k.
Proof. intros mc s k (_ & (x & X & F) & _). unfold ctx_driver. now rewrite X, F. Qed.
Lemma uses_new : forall mc s k o, wf s -> uses mc s k -> uses mc (snd (z_new o s)) k.
Proof.
  intros mc s k o W (D & (x & X & F) & t & d & H & T & C & FT).
  pose proof (wf_new s o W) as [N _].
  split; [exact D|]. split.
  - exists x. split; [exact X|]. apply find_in; [exact N|]. right. now apply find_some.
  - exists t, d. repeat split; auto. apply find_in; [exact N|]. right. now apply find_some.
Qed.
Lemma uses_drop : forall mc s k p dev, wf s -> uses mc s k -> z_find p (z_live s) = Some (ZMem dev) ->
  uses mc (mkZe (z_driver s) (z_table s) (z_count s) (z_ctx s) (z_drop p (z_live s)) (z_next s)) k.
Proof.
  intros mc s k p dev W (D & (x & X & F) & t & d & H & T & C & FT) P.
  destruct W as [N B]. split; [exact D|]. split.
  - exists x. split; [exact X|]. cbn. apply find_in; [now apply drop_nodup|]. apply drop_in; [assumption|].
    split; [now apply find_some|]. intros ->. congruence.
  - exists t, d. repeat split; auto. cbn. apply find_in; [now apply drop_nodup|]. apply drop_in; [assumption|].
    split; [now apply find_some|]. intros ->. congruence.
Qed.

Lemma malloc_ok : forall checks mc k dev s, uses mc s k -> device_of mc k dev ->
  ze_malloc checks mc dev s = Ok (z_new (ZMem dev) s).
Proof.
  intros checks mc k dev s U (d & b & H & I). unfold ze_malloc. rewrite (ctx_of_uses mc s k U), H.
  assert (E : existsb (fun x => fst x =? dev) d = true).
  { apply existsb_exists. exists (dev, b). split; [exact I|]. apply Z.eqb_refl. }
  rewrite E. reflexivity.
Qed.
Lemma malloc_bad : forall mc k dev s, uses mc s k -> ~ device_of mc k dev -> ze_malloc true mc dev s = Abort.
Proof.
  intros mc k dev s U H. unfold ze_malloc. rewrite (ctx_of_uses mc s k U).
  destruct (nth_error (mc_drivers mc) k) as [d|] eqn:E; [|reflexivity].
  destruct (existsb (fun x => fst x =? dev) d) eqn:X; [|reflexivity].
  exfalso. apply H. apply existsb_exists in X. destruct X as [[h b] [I Y]]. apply Z.eqb_eq in Y. cbn in Y. subst.
  exists d, b. auto.
Qed.

Lemma run_ok : forall checks mc k os s, wf s -> uses mc s k -> good_ops mc k (z_next s) (mems s) os ->
  exists s', zrun checks mc s os = Ok s' /\ wf s' /\ uses mc s' k /\ mems s' = holds (z_next s) (mems s) os /\
    count is_table s' = count is_table s /\ count is_ctx s' = count is_ctx s /\ count is_list s' = count is_list s.
Proof.
  intros checks mc k os. induction os as [|o os IH]; intros s W U G.
  { exists s. auto 10. }
  destruct o as [dev|p]; cbn [good_ops] in G; destruct G as [G1 G2]; cbn [zrun zstep].
  - rewrite (malloc_ok checks mc k dev s U G1). cbn [bind].
    destruct (IH (snd (z_new (ZMem dev) s)) (wf_new s _ W) (uses_new mc s k _ W U) G2) as (s' & R & W' & U' & M & CT & CC & CL).
    exists s'. split; [exact R|]. split; [exact W'|]. split; [exact U'|]. split; [exact M|]. split; [exact CT|]. split; [exact CC|exact CL].
  - assert (X : exists dev, z_find p (z_live s) = Some (ZMem dev)).
    { unfold mems in G1. apply in_map_iff in G1. destruct G1 as [[a b] [E I]]. cbn in E. subst.
      apply filter_In in I. destruct I as [I Y]. cbn in Y. destruct b as [| | |dev]; try discriminate.
      exists dev. apply find_in; [exact (proj1 W)|exact I]. }
    destruct X as [dev X]. unfold ze_free. rewrite (ctx_of_uses mc s k U), X. cbn [bind].
    set (s1 := mkZe (z_driver s) (z_table s) (z_count s) (z_ctx s) (z_drop p (z_live s)) (z_next s)).
    assert (M1 : mems s1 = remove Z.eq_dec p (mems s)) by exact (mems_drop (z_live s) p dev (proj1 W) X).
    rewrite <- M1 in G2.
    destruct (IH s1 (wf_drop s p _ _ _ _ W) (uses_drop mc s k p dev W U X) G2) as (s' & R & W' & U' & M & CT & CC & CL).
    exists s'. split; [exact R|]. split; [exact W'|]. split; [exact U'|].
    split. { rewrite M, M1. reflexivity. }
    split; [rewrite CT|split; [rewrite CC|rewrite CL]]; unfold count; cbn [z_live s1]; f_equal;
      exact (drop_filter _ (z_live s) p (ZMem dev) X eq_refl).
Qed.

Lemma count_mems : forall s, count is_mem s = length (mems s).
Proof. intros s. unfold count, mems. now rewrite map_length. Qed.

Lemma whole_run : forall checks mc k os,
  mc_ok mc = true -> first_gpu (mc_drivers mc) k -> allowed checks (mc_malloc0 mc) (mc_drivers mc) k ->
  exists s, gpu_init checks mc ze0 = Ok s /\
    (good_ops mc k (z_next s) [] os ->
     exists s1 s2, zrun checks mc s os = Ok s1 /\ uses mc s1 k /\
       count is_mem s1 = length (holds (z_next s) [] os) /\
       gpu_finalize s1 = Ok s2 /\ count is_mem s2 = count is_mem s1 /\ count is_ctx s2 = 1%nat /\ count is_list s2 = 0%nat /\
       (mc_malloc0 mc = true \/ none_empty (mc_drivers mc) k -> count is_table s2 = k)).
Proof.
  intros checks mc k os O F A. destruct (init_ok checks mc k O F A) as (s & R & W & U & CM & CC & CL & CT).
  exists s. split; [exact R|]. intros G.
  assert (M : mems s = []). { rewrite count_mems in CM. now destruct (mems s). }
  rewrite <- M in G. destruct (run_ok checks mc k os s W U G) as (s1 & R1 & W1 & U1 & M1 & T1 & C1 & L1).
  pose proof U1 as (_ & _ & t & d & H & T & Q & FT).
  exists s1. unfold gpu_finalize, z_free. rewrite T, FT. eexists. split; [exact R1|]. split; [exact U1|].
  split. { rewrite count_mems, M1, M. reflexivity. }
  split; [reflexivity|]. unfold count. cbn [z_live].
  split. { f_equal. exact (drop_filter is_mem _ _ _ FT eq_refl). }
  split. { rewrite (drop_filter is_ctx _ _ _ FT eq_refl). unfold count in C1, CC. congruence. }
  split. { rewrite (drop_filter is_list _ _ _ FT eq_refl). unfold count in L1, CL. congruence. }
  intros X. apply CT in X. pose proof (drop_filter1 is_table _ _ _ FT eq_refl) as Y.
  unfold count in T1, X. rewrite T1, X in Y. lia.
Qed.
Lemma counts : forall s, length (z_live s) = (count is_mem s + count is_ctx s + count is_table s + count is_list s)%nat.
Proof.
  intros s. unfold count. induction (z_live s) as [|[i []] l IH]; cbn [filter snd is_mem is_ctx is_table is_list length]; lia.
Qed.
