(** Proofs about the symmetric heap: reallocation and histories of calls. *)
From Verif Require Import Base BaseProofs SobjModel HeapModel HeapSpec HeapProofs.

Definition moved (T : Z) (h h' : heap) (o s o' s' : Z) : Prop :=
  exists h1, wf T h1 /\ added h h1 o' s' /\ removed h1 h' o s.

Lemma try_realloc_ok T h pre s post nb s' h' : wf T h -> h_ch h = pre ++ Ck s Used :: post ->
  (16 | nb) -> 32 <= nb -> try_realloc h pre s post nb = Some (s', h') ->
  wf T h' /\ nb <= s' /\ h_ext h' = h_ext h /\
  replaced h h' (MSIZE + total pre) s (MSIZE + total pre) s'.
Proof.
  intros W El Dn Hn E.
  destruct (wf_split _ _ _ _ _ W El) as (P1 & P2 & D & S & N1 & N2).
  assert (RS : forall l t, usedl MSIZE l = usedl MSIZE pre ++ (MSIZE + total pre, t) :: usedl (MSIZE + total pre + s) post ->
            forall tp e, replaced h (Hp l tp e) (MSIZE + total pre) s (MSIZE + total pre) t).
  { intros l t X tp e. exists (usedl MSIZE pre), (usedl (MSIZE + total pre + s) post).
    unfold used. cbn. rewrite El, usedl_at. auto. }
  unfold try_realloc, MIN_CHUNK in E. destruct (Z.leb_spec nb s) as [L|L].
  - destruct (Z.leb_spec 32 (s - nb)).
    + pose proof (dispose_ok (pre ++ [Ck nb Used]) (s - nb) post (h_top h)) as G.
      specialize (G ltac:(apply Forall_app; split; [easy|]; constructor; [now split|constructor]) P2
        (wf_top _ _ W) ltac:(now apply divide_sub) ltac:(lia)
        ltac:(apply nf_app; cbn; repeat split; auto; easy) N2).
      destruct (dispose _ _ _ _) as [l t]. destruct G as [G1 G2 G3 G4 G5 G6 G8 G7].
      inversion E; subst. clear E.
      destruct W as [W1 W2 W3 W4 W5 W6 W7]. rewrite El in *.
      split; [|split; [lia|split; [reflexivity|]]].
      * split; cbn; auto.
        -- rewrite total_app in W3, G3. cbn in W3, G3. lia.
        -- rewrite <- W5. destruct t, (h_top h); cbn in G5; split; congruence.
        -- intros F. assert (F' : h_top h <> None). { destruct t, (h_top h); cbn in G5; congruence. }
           specialize (W6 F'). apply Forall_app in W6 as [F1 F2]. inversion F2; subst.
           apply G6; [|easy]. apply Forall_app. split; [easy|]. now constructor.
        -- intros ->. apply G8. eapply lf_inv; [apply W7|easy].
           destruct (h_top h); [discriminate|reflexivity].
      * apply RS. rewrite G7, usedl_app. cbn. rewrite total_app. cbn. rewrite <- app_assoc. cbn.
        do 3 f_equal. lia.
    + inversion E; subst. split; [easy|]. split; [lia|]. split; [reflexivity|].
      destruct h' as [l t e]. cbn in *. apply RS. now rewrite El, usedl_at.
  - destruct post as [|[s2 tg] post].
    + destruct (h_top h) as [t|] eqn:ET; [|discriminate].
      destruct (Z.ltb_spec nb (s + t)); inversion E; subst. clear E.
      destruct W as [W1 W2 W3 W4 W5 W6 W7]. rewrite El, ET in *. destruct W2 as [W2 W2'].
      split; [|split; [lia|split; [reflexivity|]]].
      * split; cbn; auto.
        -- apply Forall_app. split; [easy|]. constructor; [now split|constructor].
        -- split; [|lia]. apply divide_sub; [now apply Z.divide_add_r|easy].
        -- rewrite total_app in *. cbn in *. lia.
        -- apply nf_app. cbn. repeat split; auto; easy.
        -- split; [discriminate|]. intros X. apply W5 in X. discriminate.
        -- intros _. assert (F' : Some t <> None) by discriminate. specialize (W6 F').
           apply Forall_app in W6 as [F1 _]. apply Forall_app. split; [easy|]. now constructor.
        -- discriminate.
      * apply RS. rewrite usedl_app. reflexivity.
    + destruct tg; try discriminate.
      destruct (Z.leb_spec nb (s + s2)); [|discriminate].
      destruct N2 as [N2 N3]. cbn in N2. specialize (N2 eq_refl).
      inversion P2 as [|? ? [D2 S2] P3]; subst. cbn in D2, S2.
      destruct W as [W1 W2 W3 W4 W5 W6 W7]. rewrite El in *.
      rewrite total_app in W3. cbn in W3.
      destruct (Z.leb_spec 32 (s + s2 - nb)); inversion E; subst; clear E;
        (split; [split; cbn; auto|split; [lia|split; [reflexivity|]]]).
      * apply Forall_app. split; [easy|]. constructor; [now split|]. constructor; [|easy].
        split; cbn; [|lia]. apply divide_sub; [now apply Z.divide_add_r|easy].
      * rewrite total_app. cbn. lia.
      * apply nf_app. cbn. repeat split; auto; easy.
      * intros F. specialize (W6 F). apply Forall_app in W6 as [F1 F2]. inversion F2 as [|? ? _ F3]; subst.
        inversion F3; subst. apply Forall_app. split; [easy|]. constructor; [easy|]. now constructor.
      * intros F. specialize (W7 F). apply lf_inv in W7; [|easy]. apply (lf_inv []) in W7; [|easy].
        now apply lf_app, lf_cons, lf_cons.
      * apply RS. rewrite usedl_app. cbn. do 3 f_equal. lia.
      * apply Forall_app. split; [easy|]. constructor; [|easy]. split; cbn; [now apply Z.divide_add_r|lia].
      * rewrite total_app. cbn. lia.
      * apply nf_app. cbn. repeat split; auto; easy.
      * intros F. specialize (W6 F). apply Forall_app in W6 as [F1 F2]. inversion F2 as [|? ? _ F3]; subst.
        inversion F3; subst. apply Forall_app. split; [easy|]. now constructor.
      * intros F. specialize (W7 F). apply lf_inv in W7; [|easy]. apply (lf_inv []) in W7; [|easy].
        now apply lf_app, lf_cons.
      * apply RS. rewrite usedl_app. cbn. do 3 f_equal. lia.
Qed.

Definition rres_ok (T : Z) (h h' : heap) (o s bytes : Z) (r : mres) (cp : option (Z * Z * Z)) : Prop :=
  match r with
  | MNull => used h' = used h /\ cp = None
  | MOut _ => removed h h' (o - MEM_OFF) s /\ cp = None
  | MHeap o' s' =>
      bytes + 8 <= s' /\
      ((o' = o - MEM_OFF /\ cp = None /\ replaced h h' o' s o' s') \/
       (cp = Some (o' + MEM_OFF, o, Z.min (s - OVERHEAD) bytes) /\ moved T h h' (o - MEM_OFF) s o' s'))
  end.

Lemma added_keep h h' o s x : added h h' o s -> In x (used h) -> In x (used h').
Proof.
  intros (U1 & U2 & E1 & E2) H. rewrite E2. rewrite E1 in H.
  apply in_app_or in H as [H|H]; apply in_or_app; [now left|right; now right].
Qed.

Lemma m_realloc_ok T h o s bytes pk os r h' cp :
  wf T h -> In (o - MEM_OFF, s) (used h) -> 0 <= bytes ->
  m_realloc h o bytes pk os = Ok (r, h', cp) ->
  wf T h' /\ rres_ok T h h' o s bytes r cp /\ (h_ext h = true -> h_ext h' = true) /\
  (r <> MNull -> bytes < MAX_REQUEST).
Proof.
  intros W H Hb E. unfold m_realloc in E.
  destruct (Z.leb_spec MAX_REQUEST bytes) as [L|L].
  { inversion E; subst. split; [easy|]. split; [split; reflexivity|]. split; [auto|easy]. }
  destruct (usedl_in _ _ _ _ H) as (pre & post & El & Eo).
  destruct (wf_split _ _ _ _ _ W El) as (P1 & P2 & D & S & N1 & N2).
  rewrite Eo in E. rewrite El, locate_app in E by easy.
  destruct (request2size_ok bytes ltac:(lia)) as (D1 & D2 & D3 & _).
  destruct (try_realloc h pre s post (request2size bytes)) as [[s1 h1]|] eqn:ET.
  - destruct (try_realloc_ok _ _ _ _ _ _ _ _ W El D1 D2 ET) as (W' & B & X & R).
    inversion E; subst. split; [easy|]. split; [|split; [congruence|auto]].
    cbn. split; [lia|]. left. rewrite Eo. auto.
  - unfold bind in E at 1.
    destruct (m_malloc h bytes pk os) as [[r1 h1]| | |] eqn:EM; try discriminate.
    destruct (m_malloc_ok T _ _ _ _ _ _ W Hb EM) as (W1 & R1 & _ & X1).
    destruct r1 as [o1 s1|a|].
    + destruct R1 as [B1 R1].
      destruct (m_free_ok T h1 o s W1 (added_keep _ _ _ _ _ R1 H)) as (h2 & E2 & W2 & R2 & X2 & _).
      rewrite E2 in E. cbn [bind] in E. inversion E; subst.
      split; [easy|]. split; [|split; [intros X; rewrite X2; auto|auto]].
      split; [easy|]. right. split; [reflexivity|]. exists h1. auto.
    + cbn in R1. assert (H1 : In (o - MEM_OFF, s) (used h1)) by now rewrite R1.
      destruct (m_free_ok T h1 o s W1 H1) as (h2 & E2 & W2 & R2 & X2 & _).
      rewrite E2 in E. cbn [bind] in E. inversion E; subst.
      split; [easy|]. split; [|split; [intros X; rewrite X2; auto|auto]].
      split; [|reflexivity]. unfold removed in *. now rewrite R1 in R2.
    + inversion E; subst. split; [easy|]. split; [split; [exact R1|reflexivity]|]. split; [auto|easy].
Qed.

(** ** The invariant *)
Definition lv (t : list (option (hptr * Z))) (k : nat) (o n : Z) : Prop :=
  nth_error t k = Some (Some (PHeap o, n)).

Record inv (T : Z) (h : heap) (t : list (option (hptr * Z))) (lk : list Z) : Prop := {
  i_wf : wf T h;
  i_live : forall k o n, lv t k o n -> 0 <= n /\ exists s, In (o - MEM_OFF, s) (used h) /\ n + 8 <= s;
  i_inj : forall k1 k2 o n1 n2, lv t k1 o n1 -> lv t k2 o n2 -> k1 = k2;
  i_all : forall o s, In (o, s) (used h) -> (exists k n, lv t k (o + MEM_OFF) n) \/ In (o + MEM_OFF) lk }.

Lemma inv_same_used T h h' t lk : inv T h t lk -> wf T h' -> used h' = used h -> inv T h' t lk.
Proof.
  intros [I1 I2 I3 I4] W E. split; auto.
  - intros k o n H. rewrite E. eauto.
  - intros o s H. rewrite E in H. eauto.
Qed.

Lemma lv_snoc t x k o n : lv (t ++ [x]) k o n <->
  lv t k o n \/ (k = length t /\ x = Some (PHeap o, n)).
Proof.
  unfold lv. destruct (Nat.lt_ge_cases k (length t)) as [L|L].
  - rewrite nth_error_app1 by easy. split; [auto|]. intros [H|[H _]]; [easy|lia].
  - rewrite nth_error_app2 by easy. split.
    + intros H. right. destruct (k - length t)%nat eqn:E; cbn in H.
      * inversion H; subst. split; [lia|easy].
      * destruct n0; discriminate.
    + intros [H|[-> ->]].
      * apply nth_error_None in L. congruence.
      * now rewrite Nat.sub_diag.
Qed.

Lemma lv_upd t j k o n : lv (upd t j None) k o n <-> lv t k o n /\ k <> j.
Proof.
  unfold lv. destruct (Nat.eq_dec k j) as [->|N].
  - split; [|tauto]. intros H. exfalso. destruct (Nat.lt_ge_cases j (length t)) as [L|L].
    + rewrite nth_error_upd_eq in H by easy. discriminate.
    + assert (length (upd t j None) <= j)%nat by now rewrite upd_length.
      apply nth_error_None in H0. congruence.
  - rewrite nth_error_upd_ne by auto. tauto.
Qed.

Lemma inv_snoc_other T h t lk x : inv T h t lk -> (forall o n, x <> Some (PHeap o, n)) ->
  inv T h (t ++ [x]) lk.
Proof.
  intros [I1 I2 I3 I4] N. split; auto.
  - intros k o n H. apply lv_snoc in H as [H|[_ H]]; [eauto|now apply N in H].
  - intros k1 k2 o n1 n2 H1 H2. apply lv_snoc in H1 as [H1|[_ H1]]; [|now apply N in H1].
    apply lv_snoc in H2 as [H2|[_ H2]]; [eauto|now apply N in H2].
  - intros o s H. destruct (I4 o s H) as [(k & n & L)|L]; [|auto].
    left. exists k, n. apply lv_snoc. auto.
Qed.

Lemma added_fresh T h h' o s s' : wf T h' -> added h h' o s -> ~ In (o, s') (used h).
Proof.
  intros W (U1 & U2 & E1 & E2) H. rewrite E1 in H.
  pose proof (usedl_nodup _ MSIZE (wf_ch _ _ W)) as N. fold (used h') in N.
  rewrite E2, map_app in N. cbn in N. apply NoDup_remove_2 in N.
  apply N. rewrite <- map_app. now apply (in_map fst) in H.
Qed.

Lemma in_added h h' o s x : added h h' o s -> In x (used h') -> x = (o, s) \/ In x (used h).
Proof.
  intros (U1 & U2 & E1 & E2) H. rewrite E2 in H. rewrite E1.
  apply in_app_or in H as [H|[H|H]]; [right|auto|right]; apply in_or_app; auto.
Qed.

Lemma inv_snoc_heap T h h' t lk o s n : inv T h t lk -> wf T h' -> added h h' o s ->
  0 <= n -> n + 8 <= s -> inv T h' (t ++ [Some (PHeap (o + MEM_OFF), n)]) lk.
Proof.
  intros [I1 I2 I3 I4] W A Hn Hs.
  assert (NL : forall k m, lv t k (o + MEM_OFF) m -> False).
  { intros k m H. destruct (I2 _ _ _ H) as (_ & s' & I & _).
    replace (o + MEM_OFF - MEM_OFF) with o in I by lia. eapply added_fresh; eauto. }
  split; auto.
  - intros k o' m H. apply lv_snoc in H as [H|[_ H]].
    + destruct (I2 _ _ _ H) as (B & s' & I & C). split; [easy|]. exists s'.
      split; [|easy]. eapply added_keep; eauto.
    + inversion H; subst. split; [easy|]. exists s.
      replace (o + MEM_OFF - MEM_OFF) with o by lia. split; [|easy]. eapply added_in; eauto.
  - intros k1 k2 o' n1 n2 H1 H2.
    apply lv_snoc in H1 as [H1|[K1 H1]]; apply lv_snoc in H2 as [H2|[K2 H2]]; eauto.
    + inversion H2; subst. exfalso. eauto.
    + inversion H1; subst. exfalso. eauto.
    + congruence.
  - intros o' s' H. destruct (in_added _ _ _ _ _ A H) as [E|H'].
    + inversion E; subst. left. exists (length t), n. apply lv_snoc. auto.
    + destruct (I4 _ _ H') as [(k & m & L)|L]; [|auto]. left. exists k, m. apply lv_snoc. auto.
Qed.

Lemma removed_spec T h h' o s : wf T h -> removed h h' o s ->
  (forall x t, In (x, t) (used h') -> In (x, t) (used h) /\ x <> o) /\
  (forall x t, In (x, t) (used h) -> x <> o -> In (x, t) (used h')).
Proof.
  intros W (U1 & U2 & E1 & E2).
  pose proof (usedl_nodup _ MSIZE (wf_ch _ _ W)) as N. fold (used h) in N.
  rewrite E1, map_app in N. cbn in N. apply NoDup_remove_2 in N. rewrite E1, E2. split.
  - intros x t H. split.
    + apply in_app_or in H as [H|H]; apply in_or_app; [auto|right; now right].
    + intros ->. apply N. rewrite <- map_app. now apply (in_map fst) in H.
  - intros x t H D. apply in_app_or in H as [H|[H|H]]; apply in_or_app; auto.
    inversion H; congruence.
Qed.

Lemma inv_kill T h h' t lk k o n s : inv T h t lk -> lv t k o n -> wf T h' ->
  removed h h' (o - MEM_OFF) s -> inv T h' (upd t k None) lk.
Proof.
  intros [I1 I2 I3 I4] L W R. destruct (removed_spec _ _ _ _ _ I1 R) as [S1 S2]. split; auto.
  - intros j o' m H. apply lv_upd in H as [H N]. destruct (I2 _ _ _ H) as (B & s' & I & C).
    split; [easy|]. exists s'. split; [|easy]. apply S2; [easy|]. intros E. apply N.
    assert (o' = o) by lia. subst. eauto.
  - intros k1 k2 o' n1 n2 H1 H2. apply lv_upd in H1 as [H1 _]. apply lv_upd in H2 as [H2 _]. eauto.
  - intros o' s' H. apply S1 in H as [H N]. destruct (I4 _ _ H) as [(j & m & Lj)|Lj]; [|auto].
    left. exists j, m. apply lv_upd. split; [easy|]. intros ->.
    assert (E : o = o' + MEM_OFF) by (unfold lv in *; congruence). lia.
Qed.

Lemma inv_leak T h t lk k o n : inv T h t lk -> lv t k o n -> inv T h (upd t k None) (o :: lk).
Proof.
  intros [I1 I2 I3 I4] L. split; auto.
  - intros j o' m H. apply lv_upd in H as [H N]. eauto.
  - intros k1 k2 o' n1 n2 H1 H2. apply lv_upd in H1 as [H1 _]. apply lv_upd in H2 as [H2 _]. eauto.
  - intros o' s' H. destruct (I4 _ _ H) as [(j & m & Lj)|Lj]; [|right; now right].
    destruct (Nat.eq_dec j k) as [->|N].
    + right. left. unfold lv in *. congruence.
    + left. exists j, m. apply lv_upd. auto.
Qed.

Lemma inv_kill_other T h t lk k : inv T h t lk -> (forall o n, ~ lv t k o n) ->
  inv T h (upd t k None) lk.
Proof.
  intros [I1 I2 I3 I4] N. split; auto.
  - intros j o' m H. apply lv_upd in H as [H _]. eauto.
  - intros k1 k2 o' n1 n2 H1 H2. apply lv_upd in H1 as [H1 _]. apply lv_upd in H2 as [H2 _]. eauto.
  - intros o' s' H. destruct (I4 _ _ H) as [(j & m & Lj)|Lj]; [|auto].
    left. exists j, m. apply lv_upd. split; [easy|]. intros ->. eapply N; eauto.
Qed.

Lemma inv_resize T h h' t lk k o n s s' n' : inv T h t lk -> lv t k o n -> wf T h' ->
  replaced h h' (o - MEM_OFF) s (o - MEM_OFF) s' -> 0 <= n' -> n' + 8 <= s' ->
  inv T h' (upd t k None ++ [Some (PHeap o, n')]) lk.
Proof.
  intros [I1 I2 I3 I4] L W (U1 & U2 & E1 & E2) Hn Hs.
  assert (S1 : forall x y, In (x, y) (used h) -> x <> o - MEM_OFF -> In (x, y) (used h')).
  { intros x y H N. rewrite E1 in H. rewrite E2. apply in_app_or in H as [H|[H|H]]; apply in_or_app; auto.
    - inversion H; congruence.
    - right; now right. }
  assert (S2 : forall x y, In (x, y) (used h') -> (x = o - MEM_OFF) \/ (x <> o - MEM_OFF /\ In (x, y) (used h))).
  { intros x y H. destruct (Z.eq_dec x (o - MEM_OFF)); [auto|]. right. split; [easy|].
    rewrite E2 in H. rewrite E1. apply in_app_or in H as [H|[H|H]]; apply in_or_app; auto.
    - inversion H; congruence.
    - right; now right. }
  split; auto.
  - intros j o' m H. apply lv_snoc in H as [H|[_ H]].
    + apply lv_upd in H as [H N]. destruct (I2 _ _ _ H) as (B & x & I & C). split; [easy|].
      exists x. split; [|easy]. apply S1; [easy|]. intros E. apply N. assert (o' = o) by lia. subst. eauto.
    + inversion H; subst. split; [easy|]. exists s'. split; [|easy]. rewrite E2. apply in_or_app. right. now left.
  - intros k1 k2 o' n1 n2 H1 H2.
    assert (F : forall j m, lv (upd t k None) j o m -> False).
    { intros j m H. apply lv_upd in H as [H N]. apply N. eauto. }
    apply lv_snoc in H1 as [H1|[K1 H1]]; apply lv_snoc in H2 as [H2|[K2 H2]].
    + apply lv_upd in H1 as [H1 _]. apply lv_upd in H2 as [H2 _]. eauto.
    + inversion H2; subst. exfalso; eauto.
    + inversion H1; subst. exfalso; eauto.
    + congruence.
  - intros o' s0 H. apply S2 in H as [->|[N H]].
    + left. exists (length (upd t k None)), n'. apply lv_snoc. right. split; [easy|]. repeat f_equal. lia.
    + destruct (I4 _ _ H) as [(j & m & Lj)|Lj]; [|auto]. left. exists j, m. apply lv_snoc. left.
      apply lv_upd. split; [easy|]. intros ->. unfold lv in *. rewrite L in Lj. inversion Lj; subst. lia.
Qed.

Lemma upd_snoc {A} (t : list A) k x y : (k < length t)%nat -> upd (t ++ [x]) k y = upd t k y ++ [x].
Proof.
  revert k. induction t as [|a t IH]; intros [|k] H; cbn in *; try lia; auto.
  f_equal. apply IH. lia.
Qed.

Lemma lv_lt t k o n : lv t k o n -> (k < length t)%nat.
Proof. intros H. apply nth_error_Some. unfold lv in H. congruence. Qed.

Lemma inv_move T h h' t lk k o n s o' s' n' : inv T h t lk -> lv t k o n -> wf T h' ->
  moved T h h' (o - MEM_OFF) s o' s' -> 0 <= n' -> n' + 8 <= s' ->
  inv T h' (upd t k None ++ [Some (PHeap (o' + MEM_OFF), n')]) lk.
Proof.
  intros I L W (h1 & W1 & A & R) Hn Hs.
  rewrite <- upd_snoc by (eapply lv_lt; eauto).
  eapply inv_kill with (n := n); [| |exact W|exact R].
  - eapply inv_snoc_heap; eauto.
  - apply lv_snoc. auto.
Qed.

(** ** Calls *)
Definition iv (T : Z) (st : hst) : Prop := inv T (s_heap st) (s_tbl st) (s_leak st).

Lemma calloc_req_ok n s : sizet n -> sizet s -> 0 < s ->
  (calloc_req n s = n * s /\ n * s < 2 ^ 64) \/ calloc_req n s = MAX_SIZE_T.
Proof.
  unfold sizet, calloc_req. intros Hn Hs Hp.
  destruct (Z.eqb_spec n 0) as [->|N]; [left; lia|].
  destruct (Z.lt_ge_cases (n * s) (2 ^ 64)) as [L|L].
  - rewrite wrap64_id by nia. destruct (_ && _); auto.
  - right.
    assert (B : negb (Z.land (Z.lor n s) (Z.lnot 65535) =? 0) = true).
    { destruct (Z.eqb_spec (Z.land (Z.lor n s) (Z.lnot 65535)) 0) as [E|]; [|reflexivity]. exfalso.
      change 65535 with (Z.ones 16) in E. rewrite <- Z.ldiff_land, Z.ldiff_ones_r in E by lia.
      rewrite Z.shiftl_eq_0_iff in E by lia.
      assert (F : forall x y, 0 <= x -> 0 <= y -> Z.shiftr (Z.lor x y) 16 = 0 -> x < 2 ^ 16).
      { intros x y Hx Hy G. rewrite Z.shiftr_lor in G. apply Z.lor_eq_0_iff in G as [G _].
        rewrite Z.shiftr_div_pow2 in G by lia. apply Z.div_small_iff in G; lia. }
      assert (n < 2 ^ 16) by (eapply F; [| |exact E]; lia).
      rewrite Z.lor_comm in E. assert (s < 2 ^ 16) by (eapply F; [| |exact E]; lia).
      nia. }
    rewrite B. cbn [andb].
    destruct (Z.eqb_spec (wrap64 (n * s) / n) s) as [E|]; [|reflexivity]. exfalso.
    unfold wrap64 in E.
    pose proof (Z.div_mod (n * s) (2 ^ 64) ltac:(lia)).
    pose proof (Z.mod_pos_bound (n * s) (2 ^ 64) ltac:(lia)).
    pose proof (Z.div_mod ((n * s) mod 2 ^ 64) n ltac:(lia)) as DM.
    pose proof (Z.mod_pos_bound ((n * s) mod 2 ^ 64) n ltac:(lia)).
    rewrite E in DM. nia.
Qed.

(** Description of one call: what happens to the table, and where bytes are written. *)
Lemma hstep_iv T b size pol os past st op st' :
  iv T st -> (16 | b) -> sane op -> hstep b size pol os past st op = Ok st' -> iv T st'.
Proof.
  intros I Db Hs E. unfold iv in *. destruct st as [h m t lk]. cbn [s_heap s_tbl s_leak s_mem] in *.
  destruct op as [n|n s|al n|k|k n]; unfold hstep in E; cbn [s_heap s_tbl s_leak s_mem] in E.
  - cbn in Hs. unfold sizet in Hs. destruct (n =? 0).
    + inversion E; subst. cbn. now apply inv_snoc_other.
    + unfold bind in E. destruct (m_malloc _ _ _ _) as [[r h']| | |] eqn:EM; try discriminate.
      inversion E; subst. cbn.
      destruct (m_malloc_ok T _ _ _ _ _ _ (i_wf _ _ _ _ I) (proj1 Hs) EM) as (W & R & _).
      destruct r; cbn in *; try (apply inv_snoc_other; [eapply inv_same_used; eauto|easy]).
      destruct R as [B R]. eapply inv_snoc_heap; eauto; lia.
  - destruct Hs as [H1 H2]. destruct ((n =? 0) || (s =? 0)) eqn:N.
    + inversion E; subst. cbn. now apply inv_snoc_other.
    + apply orb_false_elim in N. cbv zeta in E. unfold bind in E. destruct (m_malloc _ _ _ _) as [[r h']| | |] eqn:EM; try discriminate.
      inversion E; subst. cbn.
      destruct (calloc_req_ok n s H1 H2) as [[C C']|C]; [unfold sizet in *; lia| |].
      * rewrite C in EM. unfold sizet in *. assert (NS : 0 <= n * s) by nia.
        destruct (m_malloc_ok T _ _ _ _ _ _ (i_wf _ _ _ _ I) NS EM) as (W & R & _).
        destruct r; cbn in *; try (apply inv_snoc_other; [eapply inv_same_used; eauto|easy]).
        destruct R as [B R]. eapply inv_snoc_heap; eauto; nia.
      * rewrite C in EM. unfold m_malloc in EM. change (MAX_REQUEST <=? MAX_SIZE_T) with true in EM.
        cbn in EM. inversion EM; subst. cbn. now apply inv_snoc_other.
  - destruct Hs as [H1 H2]. unfold sizet in *. unfold bind in E.
    destruct (m_memalign _ _ _ _ _ _) as [[r h']| | |] eqn:EM; try discriminate.
    inversion E; subst. cbn.
    destruct (m_memalign_ok T _ _ _ _ _ _ _ _ (i_wf _ _ _ _ I) Db H1 H2 EM) as (W & R & _).
    destruct r; cbn in *; try (apply inv_snoc_other; [eapply inv_same_used; eauto|easy]).
    destruct R as [B R]. eapply inv_snoc_heap; eauto; lia.
  - destruct (nth_error t k) as [[[p n]|]|] eqn:EK; try discriminate.
    destruct p as [|o|a].
    + inversion E; subst. cbn. apply inv_kill_other; [easy|]. intros o' n' H. unfold lv in H. congruence.
    + destruct (check_range _ _).
      * unfold bind in E. destruct (m_free h o) as [h'| | |] eqn:EF; try discriminate.
        inversion E; subst. cbn.
        destruct (i_live _ _ _ _ I k o n EK) as (_ & s & S & _).
        destruct (m_free_ok T h o s (i_wf _ _ _ _ I) S) as (h2 & E2 & W2 & R2 & _).
        rewrite E2 in EF. inversion EF; subst. eapply inv_kill; eauto.
      * inversion E; subst. cbn. eapply inv_leak; eauto.
    + inversion E; subst. cbn. apply inv_kill_other; [easy|]. intros o' n' H. unfold lv in H. congruence.
  - cbn in Hs. unfold sizet in Hs.
    destruct (nth_error t k) as [[[p n0]|]|] eqn:EK; try discriminate.
    destruct p as [|o|a].
    + destruct (n =? 0).
      * inversion E; subst. cbn. now apply inv_snoc_other.
      * unfold bind in E. destruct (m_malloc _ _ _ _) as [[r h']| | |] eqn:EM; try discriminate.
        inversion E; subst. cbn.
        destruct (m_malloc_ok T _ _ _ _ _ _ (i_wf _ _ _ _ I) (proj1 Hs) EM) as (W & R & _).
        destruct r; cbn in *; try (apply inv_snoc_other; [eapply inv_same_used; eauto|easy]).
        destruct R as [B R]. eapply inv_snoc_heap; eauto; lia.
    + unfold bind in E. destruct (m_realloc _ _ _ _ _) as [[[r h'] cp]| | |] eqn:EM; try discriminate.
      destruct (i_live _ _ _ _ I k o n0 EK) as (_ & s & S & _).
      destruct (m_realloc_ok T _ _ _ _ _ _ _ _ _ (i_wf _ _ _ _ I) S (proj1 Hs) EM) as (W & R & _).
      destruct r as [o' s'|a|]; cbn in R; inversion E; subst; clear E; cbn.
      * destruct R as [B [(-> & _ & R)|(_ & R)]].
        -- replace (o - MEM_OFF + MEM_OFF) with o by lia. eapply inv_resize; eauto; lia.
        -- eapply inv_move; eauto; lia.
      * destruct R as [R _]. apply inv_snoc_other; [|easy]. eapply inv_kill; eauto.
      * destruct R as [R _]. apply inv_snoc_other; [|easy]. eapply inv_same_used; eauto.
    + unfold bind in E.
      assert (KO : inv T h (upd t k None) lk).
      { apply inv_kill_other; [easy|]. intros o' n' H. unfold lv in H. congruence. }
      assert (G : forall r h', wf T h' -> mres_ok h h' n r ->
        match r with
        | MNull => Ok (push (Hst h m t lk) h' m PNull n)
        | _ => Ok (Hst h' m (upd t k None ++ [Some (ptr_of r, n)]) lk)
        end = Ok st' -> inv T (s_heap st') (s_tbl st') (s_leak st')).
      { intros r h' W R E'. destruct r; cbn in *; inversion E'; subst; cbn.
        - destruct R as [B R]. eapply inv_snoc_heap; eauto; lia.
        - apply inv_snoc_other; [|easy]. eapply inv_same_used; eauto.
        - apply inv_snoc_other; [|easy]. eapply inv_same_used; eauto. }
      destruct (pol past h (request2size n)) eqn:EP.
      3: { apply (G (if MAX_REQUEST <=? n then MNull else MOut (os (length t))) h);
             [apply I|destruct (MAX_REQUEST <=? n); reflexivity|exact E]. }
      all: destruct (m_malloc _ _ _ _) as [[r h']| | |] eqn:EM; try discriminate;
        destruct (m_malloc_ok T _ _ _ _ _ _ (i_wf _ _ _ _ I) (proj1 Hs) EM) as (W & R & _);
        apply (G r h' W R E).
Qed.

Lemma hrun_iv T b size pol os ops : forall past st st',
  iv T st -> (16 | b) -> Forall sane ops -> hrun b size pol os past st ops = Ok st' -> iv T st'.
Proof.
  induction ops as [|op ops IH]; intros past st st' I Db S E; cbn [hrun] in E.
  - now inversion E; subst.
  - inversion S; subst. unfold bind in E.
    destruct (hstep b size pol os past st op) as [st1| | |] eqn:E1; try discriminate.
    eapply IH; [|exact Db|eassumption|exact E]. eapply hstep_iv; eauto.
Qed.

(** ** Start *)
Lemma align_up_bounds v k : 0 <= k < 64 -> 0 <= v -> v + 2 ^ k - 1 < 2 ^ 64 ->
  v <= c_align v (2 ^ k) < v + 2 ^ k /\ (2 ^ k | c_align v (2 ^ k)).
Proof.
  intros Hk Hv Hb. rewrite c_align_pow2 by easy.
  assert (P : 0 < 2 ^ k) by (apply Z.pow_pos_nonneg; lia).
  pose proof (Z.div_mod (v + 2 ^ k - 1) (2 ^ k) ltac:(lia)).
  pose proof (Z.mod_pos_bound (v + 2 ^ k - 1) (2 ^ k) ltac:(lia)).
  split; [lia|]. now exists ((v + 2 ^ k - 1) / 2 ^ k).
Qed.

Lemma heap_sizes env k : 0 <= k < 63 -> 0 <= env -> env + MIN_MSPACE + 2 * 2 ^ k <= 2 ^ 64 ->
  let page := 2 ^ k in
  let size := heap_size env page in
  let tsize := heap_true_size env page in
  env <= size < env + page /\ (page | size) /\
  size + MIN_MSPACE <= tsize < size + MIN_MSPACE + page /\ (page | tsize).
Proof.
  intros Hk He Hb. cbv zeta. unfold heap_true_size, heap_size.
  assert (P : 0 < 2 ^ k) by (apply Z.pow_pos_nonneg; lia). unfold MIN_MSPACE in *.
  destruct (align_up_bounds env k) as [A1 A2]; try lia.
  rewrite wrap64_id by lia.
  destruct (align_up_bounds (c_align env (2 ^ k) + 1024) k) as [B1 B2]; try lia. auto.
Qed.

Lemma hstart_iv env page b mem st0 : setting env page b -> hstart env page mem = Ok st0 ->
  iv (heap_true_size env page) st0 /\ s_tbl st0 = [] /\ s_leak st0 = [] /\ s_mem st0 = mem.
Proof.
  intros ((k & K & ->) & He & Hb & Db) E. unfold hstart, init_heap, create_mspace in E.
  assert (P : 2 ^ k < 2 ^ 40) by (apply Z.pow_lt_mono_r; lia).
  assert (P4 : 2 ^ 4 <= 2 ^ k) by (apply Z.pow_le_mono_r; lia). change (2 ^ 4) with 16 in P4.
  destruct (heap_sizes env k) as (A1 & A2 & A3 & A4); try lia.
  { unfold MIN_MSPACE. lia. }
  set (T := heap_true_size env (2 ^ k)) in *. unfold bind in E.
  destruct ((MSIZE + TOP_FOOT <? T) && _) eqn:G; [|discriminate].
  apply andb_true_iff in G as [G _]. apply Z.ltb_lt in G.
  rewrite MSIZE_eq, TOP_FOOT_eq in G.
  inversion E; subst. split; [|auto].
  assert (D : (16 | T)).
  { apply Z.divide_trans with (2 ^ k); [|easy]. exists (2 ^ (k - 4)).
    change 16 with (2 ^ 4). rewrite <- Z.pow_add_r by lia. f_equal. lia. }
  unfold iv. cbn [s_heap s_tbl s_leak]. split.
  - split; cbn; auto.
    + rewrite MSIZE_eq, TOP_FOOT_eq. split; [|lia].
      apply divide_sub; [apply divide_sub; [easy|now exists 59]|now exists 5].
    + lia.
    + easy.
    + discriminate.
  - intros k' o n H. exfalso. unfold lv in H. destruct k'; discriminate.
  - intros k1 k2 o n1 n2 H. exfalso. unfold lv in H. destruct k1; discriminate.
  - intros o s H. easy.
Qed.

Lemma reaches_iv env page b ops st : reaches env page b ops st -> iv (heap_true_size env page) st.
Proof.
  intros (pol & os & mem & st0 & S & F & E0 & E).
  destruct (hstart_iv _ _ _ _ _ S E0) as (I & _). eapply hrun_iv; eauto. apply S.
Qed.
