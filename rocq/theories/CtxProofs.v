(** Proofs about contexts. *)
From Verif Require Import Base BaseProofs ListLib SchedProofs CtxModel CtxSpec.
Open Scope nat_scope.
Open Scope list_scope.

Lemma owned_nil i : ~ owned [] i.
Proof. intros (h1 & t & h2 & E & _). destruct h1; discriminate. Qed.
Lemma owned_got h t i j : owned (h ++ [EGot t i]) j <-> i = j \/ owned h j.
Proof.
  split.
  - intros (h1 & t' & h2 & E & N). destruct h2 as [|e h2] using rev_ind.
    + apply app_inj_tail in E. destruct E as [_ E]. inversion E. auto.
    + change (h1 ++ EGot t' j :: h2 ++ [e]) with (h1 ++ (EGot t' j :: h2) ++ [e]) in E.
      rewrite app_assoc in E. apply app_inj_tail in E. destruct E as [E _]. right.
      exists h1, t', h2. split; auto. intros t'' H. apply (N t''). apply in_app_iff. auto.
  - intros [<-|(h1 & t' & h2 & -> & N)].
    + exists h, t, []. split; auto.
    + exists h1, t', (h2 ++ [EGot t i]). split; [now rewrite <- app_assoc|].
      intros t'' H. apply in_app_iff in H. destruct H as [H|[H|[]]]; [now apply (N t'')|discriminate].
Qed.
Lemma owned_destroy h t i j : owned (h ++ [EDestroy t i]) j <-> i <> j /\ owned h j.
Proof.
  split.
  - intros (h1 & t' & h2 & E & N). destruct h2 as [|e h2] using rev_ind.
    + apply app_inj_tail in E. destruct E as [_ E]. discriminate.
    + change (h1 ++ EGot t' j :: h2 ++ [e]) with (h1 ++ (EGot t' j :: h2) ++ [e]) in E.
      rewrite app_assoc in E. apply app_inj_tail in E. destruct E as [E <-]. split.
      * intros ->. apply (N t). apply in_app_iff. right. now left.
      * exists h1, t', h2. split; auto. intros t'' H. apply (N t''). apply in_app_iff. auto.
  - intros (Hn & h1 & t' & h2 & -> & N).
    exists h1, t', (h2 ++ [EDestroy t i]). split; [now rewrite <- app_assoc|].
    intros t'' H. apply in_app_iff in H. destruct H as [H|[H|[]]]; [now apply (N t'')|congruence].
Qed.
Lemma owned_other h e j : (forall t i, e <> EGot t i) -> (forall t i, e <> EDestroy t i) ->
  owned (h ++ [e]) j <-> owned h j.
Proof.
  intros Hg Hd. split.
  - intros (h1 & t' & h2 & E & N). destruct h2 as [|x h2] using rev_ind.
    + apply app_inj_tail in E. destruct E as [_ E]. exfalso. eapply Hg; eauto.
    + change (h1 ++ EGot t' j :: h2 ++ [x]) with (h1 ++ (EGot t' j :: h2) ++ [x]) in E.
      rewrite app_assoc in E. apply app_inj_tail in E. destruct E as [E _].
      exists h1, t', h2. split; auto. intros t'' H. apply (N t''). apply in_app_iff. auto.
  - intros (h1 & t' & h2 & -> & N).
    exists h1, t', (h2 ++ [e]). split; [now rewrite <- app_assoc|].
    intros t'' H. apply in_app_iff in H. destruct H as [H|[H|[]]]; [now apply (N t'')|].
    eapply Hd; eauto.
Qed.

(** ** The invariant *)
Record cinv (n : nat) (s : cst) (h : list cev) : Prop := {
  ci_len : length (c_flags s) = n;
  ci_flag : forall i, i < n -> (nth_error (c_flags s) i = Some 1%Z /\ owned h i) \/
                               (nth_error (c_flags s) i = Some 0%Z /\ ~ owned h i);
  ci_range : forall i, owned h i -> i < n;
  ci_thr : forall t k, nth_error (c_thr s) t = Some (Some k) ->
    k <= n /\ exists h1 h2, h = h1 ++ ECall t :: h2 /\ silent t h2 /\
      forall i, i < k -> owned_during h1 t h2 i;
  ci_got : forall h1 t i h2, h = h1 ++ EGot t i :: h2 -> i < n /\ ~ owned h1 i /\
    exists ha hb, h1 = ha ++ ECall t :: hb /\ silent t hb /\
      forall j, j < i -> owned_during ha t hb j;
  ci_none : forall h1 t h2, h = h1 ++ ENone t :: h2 ->
    exists ha hb, h1 = ha ++ ECall t :: hb /\ silent t hb /\
      forall j, j < n -> owned_during ha t hb j
}.
Lemma silent_snoc t h e : silent t h -> actor e <> t -> silent t (h ++ [e]).
Proof. intros S N x H. apply in_app_iff in H. destruct H as [H|[<-|[]]]; auto. Qed.
Lemma during_snoc ha t hb e i : owned_during ha t hb i -> owned_during ha t (hb ++ [e]) i.
Proof. intros (a & b & -> & O). exists a, (b ++ [e]). rewrite <- app_assoc. auto. Qed.
Lemma thr_keep n s h t e : cinv n s h -> actor e <> t -> forall k,
  nth_error (c_thr s) t = Some (Some k) ->
  k <= n /\ exists h1 h2, h ++ [e] = h1 ++ ECall t :: h2 /\ silent t h2 /\
      forall i, i < k -> owned_during h1 t h2 i.
Proof.
  intros I N k E. destruct (ci_thr _ _ _ I _ _ E) as (Hk & h1 & h2 & -> & S & D). split; auto.
  exists h1, (h2 ++ [e]). rewrite <- app_assoc. split; auto. split; [now apply silent_snoc|].
  intros i Hi. now apply during_snoc, D.
Qed.
Lemma snoc_split {A} (h : list A) x h1 y h2 : h ++ [x] = h1 ++ y :: h2 ->
  (h1 = h /\ y = x /\ h2 = []) \/ exists h3, h2 = h3 ++ [x] /\ h = h1 ++ y :: h3.
Proof.
  intros E. destruct h2 as [|z h2] using rev_ind.
  - apply app_inj_tail in E. destruct E. subst. auto.
  - change (h1 ++ y :: h2 ++ [z]) with (h1 ++ (y :: h2) ++ [z]) in E. rewrite app_assoc in E.
    apply app_inj_tail in E. destruct E as [-> ->]. right. exists h2. auto.
Qed.
Lemma got_keep n s h e : cinv n s h -> (forall t i, e <> EGot t i) ->
  forall h1 t i h2, h ++ [e] = h1 ++ EGot t i :: h2 -> i < n /\ ~ owned h1 i /\
    exists ha hb, h1 = ha ++ ECall t :: hb /\ silent t hb /\
      forall j, j < i -> owned_during ha t hb j.
Proof.
  intros I N h1 t i h2 E. apply snoc_split in E. destruct E as [(_ & E & _)|(h3 & _ & E)].
  - exfalso. eapply N; eauto.
  - eapply ci_got; eauto.
Qed.
Lemma none_keep n s h e : cinv n s h -> (forall t, e <> ENone t) ->
  forall h1 t h2, h ++ [e] = h1 ++ ENone t :: h2 ->
    exists ha hb, h1 = ha ++ ECall t :: hb /\ silent t hb /\
      forall j, j < n -> owned_during ha t hb j.
Proof.
  intros I N h1 t h2 E. apply snoc_split in E. destruct E as [(_ & E & _)|(h3 & _ & E)].
  - exfalso. eapply N; eauto.
  - eapply ci_none; eauto.
Qed.
Lemma nth_upd_ne {B} (l : list B) i j x : i <> j -> nth_error (upd l i x) j = nth_error l j.
Proof. intros N. rewrite nth_upd. apply Nat.eqb_neq in N. now rewrite N. Qed.
Lemma nth_upd_eq {B} (l : list B) i x : i < length l -> nth_error (upd l i x) i = Some x.
Proof. intros N. rewrite nth_upd, Nat.eqb_refl. apply Nat.ltb_lt in N. now rewrite N. Qed.
Lemma cinv_step n s h a s' h' : cinv n s h -> cstep s a = Ok (s', h') -> cinv n s' (h ++ h').
Proof.
  intros I E. destruct a as [t|t|t i]; cbn [cstep] in E.
  - destruct (nth_error (c_thr s) t) as [[k|]|] eqn:Et; inversion E; subst;
      try (rewrite app_nil_r; exact I).
    assert (Ht : t < length (c_thr s)) by (apply nth_error_Some; congruence).
    assert (O : forall j, owned (h ++ [ECall t]) j <-> owned h j)
      by (intros; apply owned_other; discriminate).
    constructor; cbn [c_flags c_thr].
    + apply I.
    + intros i Hi. rewrite !O. now apply I.
    + intros i. rewrite O. apply I.
    + intros t' k E'. destruct (Nat.eq_dec t t') as [<-|N].
      * rewrite nth_upd_eq in E' by auto. inversion E'; subst. split; [lia|].
        exists h, []. split; auto. split; [intros e []|]. intros; lia.
      * rewrite nth_upd_ne in E' by auto. eapply thr_keep; eauto.
    + eapply got_keep; eauto. discriminate.
    + eapply none_keep; eauto. discriminate.
  - destruct (nth_error (c_thr s) t) as [[k|]|] eqn:Et; 
      try (inversion E; subst; rewrite app_nil_r; exact I).
    assert (Ht : t < length (c_thr s)) by (apply nth_error_Some; congruence).
    destruct (ci_thr _ _ _ I _ _ Et) as (Hk & h1 & h2 & Eh & S & D).
    pose proof (ci_len _ _ _ I) as Hl.
    destruct (Nat.ltb_spec k (length (c_flags s))) as [Hlt|Hge].
    + unfold flag_cas in E. destruct (ci_flag _ _ _ I k) as [(Ef & O)|(Ef & O)]; [lia| |];
        rewrite Ef in E; cbn [bind] in E;
        change (1 =? 0)%Z with false in E; change (0 =? 0)%Z with true in E; cbv iota in E;
        inversion E; subst s' h'; clear E.
      * rewrite app_nil_r. constructor; cbn [c_flags c_thr]; try apply I.
        intros t' k' E'. destruct (Nat.eq_dec t t') as [<-|N].
        -- rewrite nth_upd_eq in E' by auto. inversion E'; subst k'. split; [lia|].
           exists h1, h2. split; auto. split; auto. intros i Hi.
           destruct (Nat.eq_dec i k) as [->|Nk]; [|apply D; lia].
           exists h2, []. rewrite app_nil_r. split; auto. rewrite <- Eh. auto.
        -- rewrite nth_upd_ne in E' by auto. eapply ci_thr; eauto.
      * constructor; cbn [c_flags c_thr].
        -- now rewrite upd_length.
        -- intros i Hi. rewrite !owned_got. destruct (Nat.eq_dec k i) as [<-|N].
           ++ rewrite nth_upd_eq by auto. auto.
           ++ rewrite nth_upd_ne by auto. destruct (ci_flag _ _ _ I i Hi) as [(A & B)|(A & B)];
                [left|right]; split; auto; tauto.
        -- intros i. rewrite owned_got. intros [<-|Hi]; [lia|]. now apply I.
        -- intros t' k' E'. destruct (Nat.eq_dec t t') as [<-|N].
           ++ rewrite nth_upd_eq in E' by auto. discriminate.
           ++ rewrite nth_upd_ne in E' by auto. eapply thr_keep; eauto.
        -- intros g1 t' i g2 Eg. apply snoc_split in Eg.
           destruct Eg as [(-> & Eg & _)|(g3 & _ & Eg)]; [|eapply ci_got; eauto].
           inversion Eg; subst t' i. split; [lia|]. split; auto. exists h1, h2. auto.
        -- eapply none_keep; eauto. discriminate.
    + inversion E; subst s' h'; clear E.
      assert (O : forall j, owned (h ++ [ENone t]) j <-> owned h j)
        by (intros; apply owned_other; discriminate).
      constructor; cbn [c_flags c_thr]; auto.
      * intros i Hi. rewrite !O. now apply I.
      * intros i. rewrite O. apply I.
      * intros t' k' E'. destruct (Nat.eq_dec t t') as [<-|N].
        -- rewrite nth_upd_eq in E' by auto. discriminate.
        -- rewrite nth_upd_ne in E' by auto. eapply thr_keep; eauto.
      * eapply got_keep; eauto. discriminate.
      * intros g1 t' g2 Eg. apply snoc_split in Eg.
        destruct Eg as [(-> & Eg & _)|(g3 & _ & Eg)]; [|eapply ci_none; eauto].
        inversion Eg; subst t'. exists h1, h2. split; auto. split; auto.
        intros j Hj. apply D. lia.
  - destruct (nth_error (c_thr s) t) as [[k|]|] eqn:Et; 
      try (inversion E; subst; rewrite app_nil_r; exact I).
    pose proof (ci_len _ _ _ I) as Hl.
    destruct (Nat.ltb_spec i (length (c_flags s))) as [Hlt|Hge]; [|discriminate].
    inversion E; subst s' h'; clear E.
    constructor; cbn [c_flags c_thr].
    + now rewrite upd_length.
    + intros j Hj. rewrite !owned_destroy. destruct (Nat.eq_dec i j) as [<-|N].
      * rewrite nth_upd_eq by auto. right. split; auto. tauto.
      * rewrite nth_upd_ne by auto. destruct (ci_flag _ _ _ I j Hj) as [(A & B)|(A & B)];
          [left|right]; split; auto; tauto.
    + intros j. rewrite owned_destroy. intros (_ & Hj). now apply I.
    + intros t' k' E'. assert (t <> t') by (intros ->; congruence).
      eapply thr_keep; eauto.
    + eapply got_keep; eauto. discriminate.
    + eapply none_keep; eauto. discriminate.
Qed.
Lemma cinv_run n l : forall s h s' h', cinv n s h -> crun s l = Ok (s', h') -> cinv n s' (h ++ h').
Proof.
  induction l as [|a l IH]; intros s h s' h' I E; cbn in E.
  - inversion E; subst. now rewrite app_nil_r.
  - destruct (cstep s a) as [[s1 h1]| | |] eqn:E1; cbn in E; try discriminate.
    destruct (crun s1 l) as [[s2 h2]| | |] eqn:E2; cbn in E; try discriminate.
    inversion E; subst. rewrite app_assoc. eapply IH; eauto. eapply cinv_step; eauto.
Qed.
Lemma cinv_init n k : cinv n (cinit n k) [].
Proof.
  constructor; cbn.
  - apply repeat_length.
  - intros i Hi. right. split; [now apply nth_error_repeat|]. apply owned_nil.
  - intros i O. now apply owned_nil in O.
  - intros t j E. apply nth_error_In, repeat_spec in E. discriminate.
  - intros h1 t i h2 E. destruct h1; discriminate.
  - intros h1 t h2 E. destruct h1; discriminate.
Qed.
Lemma run_cinv n k l s h : crun (cinit n k) l = Ok (s, h) -> cinv n s h.
Proof. intros E. apply (cinv_run n l _ [] _ _ (cinv_init n k) E). Qed.

Lemma ctx_exclusive n k l s h h1 t i h2 : crun (cinit n k) l = Ok (s, h) ->
  h = h1 ++ EGot t i :: h2 -> i < n /\ ~ owned h1 i.
Proof. intros E Eh. destruct (ci_got _ _ _ (run_cinv _ _ _ _ _ E) _ _ _ _ Eh) as (A & B & _). auto. Qed.
Lemma ctx_none n k l s h h1 t h2 : crun (cinit n k) l = Ok (s, h) ->
  h = h1 ++ ENone t :: h2 ->
  exists ha hb, h1 = ha ++ ECall t :: hb /\ silent t hb /\
    forall j, j < n -> owned_during ha t hb j.
Proof. intros E Eh. exact (ci_none _ _ _ (run_cinv _ _ _ _ _ E) _ _ _ Eh). Qed.

(** ** Termination *)
Lemma step_other s a s' h t k : cstep s a = Ok (s', h) ->
  nth_error (c_thr s) t = Some (Some k) -> a <> AStep t ->
  nth_error (c_thr s') t = Some (Some k) /\ length (c_flags s') = length (c_flags s).
Proof.
  intros E Et N. destruct a as [t'|t'|t' i]; cbn [cstep] in E.
  - destruct (nth_error (c_thr s) t') as [[j|]|] eqn:Ej; inversion E; subst; auto.
    cbn. rewrite nth_upd_ne by (intros ->; congruence). auto.
  - assert (t' <> t) by congruence.
    destruct (nth_error (c_thr s) t') as [[j|]|] eqn:Ej; try (inversion E; subst; auto; fail).
    destruct (j <? length (c_flags s)).
    + unfold flag_cas in E. destruct (nth_error (c_flags s) j); [|discriminate]. cbn in E.
      destruct (z =? 0)%Z; inversion E; subst; cbn; rewrite nth_upd_ne by auto; rewrite ?upd_length; auto.
    + inversion E; subst; cbn; rewrite nth_upd_ne by auto; auto.
  - destruct (nth_error (c_thr s) t') as [[j|]|] eqn:Ej; try (inversion E; subst; auto; fail).
    destruct (i <? length (c_flags s)); inversion E; subst. cbn. rewrite upd_length. auto.
Qed.
Lemma wait_free t l : forall s s' h k, crun s l = Ok (s', h) ->
  nth_error (c_thr s) t = Some (Some k) -> length (c_flags s) < k + steps_of t l ->
  k <= length (c_flags s) ->
  exists e, In e h /\ ((exists i, e = EGot t i) \/ e = ENone t).
Proof.
  unfold steps_of. induction l as [|a l IH]; intros s s' h k E Et Hs Hk; cbn in E, Hs; [lia|].
  destruct (cstep s a) as [[s1 h1]| | |] eqn:E1; cbn in E; try discriminate.
  destruct (crun s1 l) as [[s2 h2]| | |] eqn:E2; cbn in E; try discriminate.
  inversion E; subst s2 h. clear E.
  assert (D : a = AStep t \/ a <> AStep t).
  { destruct a as [u|u|u i]; try (right; discriminate).
    destruct (Nat.eq_dec u t) as [->|N]; [left|right]; congruence. }
  destruct D as [->|N].
  - rewrite Nat.eqb_refl in Hs. cbn in Hs. cbn [cstep] in E1. rewrite Et in E1.
    assert (Ht : t < length (c_thr s)) by (apply nth_error_Some; congruence).
    destruct (Nat.ltb_spec k (length (c_flags s))) as [Hlt|Hge].
    + unfold flag_cas in E1. destruct (nth_error (c_flags s) k) as [z|] eqn:Ez; [|discriminate].
      cbn in E1. destruct (z =? 0)%Z; inversion E1; subst s1 h1.
      * exists (EGot t k). split; [now left|]. eauto.
      * destruct (IH _ _ _ (S k) E2) as (e & H1 & H2); cbn; auto.
        -- now rewrite nth_upd_eq.
        -- lia.
        -- exists e. auto.
    + inversion E1; subst s1 h1. exists (ENone t). split; [now left|]. auto.
  - destruct (step_other _ _ _ _ _ _ E1 Et N) as (Et' & Hl).
    destruct (IH _ _ _ k E2 Et') as (e & H1 & H2).
    + rewrite Hl. destruct a as [u|u|u i]; auto. destruct (Nat.eqb_spec u t); [congruence|auto].
    + now rewrite Hl.
    + exists e. split; auto. apply in_app_iff. auto.
Qed.

(** ** One thread alone *)
Lemma alone t : forall d s k, nth_error (c_thr s) t = Some (Some k) ->
  (forall i, i < length (c_flags s) -> nth_error (c_flags s) i = Some 1%Z \/ nth_error (c_flags s) i = Some 0%Z) ->
  k + d = length (c_flags s) ->
  (exists i s', k <= i < length (c_flags s) /\ nth_error (c_flags s) i = Some 0%Z /\
     (forall j, k <= j < i -> nth_error (c_flags s) j = Some 1%Z) /\
     crun s (repeat (AStep t) (S d)) = Ok (s', [EGot t i])) \/
  ((forall j, k <= j < length (c_flags s) -> nth_error (c_flags s) j = Some 1%Z) /\
   exists s', crun s (repeat (AStep t) (S d)) = Ok (s', [ENone t])).
Proof.
  assert (Idle : forall d s, nth_error (c_thr s) t = Some None ->
            crun s (repeat (AStep t) d) = Ok (s, [])).
  { induction d as [|d IH]; intros s E; cbn; auto. rewrite E. cbn. rewrite IH; auto. }
  induction d as [|d IH]; intros s k Et Hf Hd.
  - right. split; [intros; lia|]. cbn [repeat crun cstep]. rewrite Et.
    destruct (Nat.ltb_spec k (length (c_flags s))); [lia|]. cbn. eauto.
  - assert (Ht : t < length (c_thr s)) by (apply nth_error_Some; congruence).
    destruct (Hf k) as [E1|E0]; [lia| |].
    + set (s1 := {| c_flags := c_flags s; c_thr := upd (c_thr s) t (Some (S k)) |}).
      assert (R : forall m, crun s (AStep t :: m) = crun s1 m).
      { intros m. cbn [crun]. unfold cstep at 1. rewrite Et.
        destruct (Nat.ltb_spec k (length (c_flags s))); [|lia].
        unfold flag_cas. rewrite E1. cbn [bind]. change (1 =? 0)%Z with false. cbv iota. cbn [bind]. fold s1. destruct (crun s1 m) as [[? ?]| | |]; reflexivity. }
      destruct (IH s1 (S k)) as [(i & s' & Hi & Ei & Hj & E)|(Hj & s' & E)]; auto.
      * unfold s1. cbn. now rewrite nth_upd_eq.
      * cbn. lia.
      * left. exists i, s'. cbn [c_flags s1] in *. split; [lia|]. split; auto. split.
        -- intros j H. destruct (Nat.eq_dec j k) as [->|]; auto. apply Hj. lia.
        -- change (repeat (AStep t) (S (S d))) with (AStep t :: repeat (AStep t) (S d)).
           now rewrite R.
      * right. cbn [c_flags s1] in *. split.
        -- intros j H. destruct (Nat.eq_dec j k) as [->|]; auto. apply Hj. lia.
        -- exists s'. change (repeat (AStep t) (S (S d))) with (AStep t :: repeat (AStep t) (S d)).
           now rewrite R.
    + left. exists k. eexists. split; [lia|]. split; auto. split; [intros; lia|].
      change (repeat (AStep t) (S (S d))) with (AStep t :: repeat (AStep t) (S d)).
      cbn [crun]. unfold cstep at 1. rewrite Et.
      destruct (Nat.ltb_spec k (length (c_flags s))); [|lia].
      unfold flag_cas. rewrite E0. cbn [bind]. change (0 =? 0)%Z with true. cbv iota. cbn [bind]. rewrite Idle by (cbn; now apply nth_upd_eq).
      reflexivity.
Qed.
Lemma ctx_alone n k l s h t : crun (cinit n k) l = Ok (s, h) ->
  nth_error (c_thr s) t = Some None ->
  (exists i s', i < n /\ ~ owned h i /\ (forall j, j < i -> owned h j) /\
     crun s (ACall t :: repeat (AStep t) (S n)) = Ok (s', [ECall t; EGot t i])) \/
  ((forall j, j < n -> owned h j) /\
   exists s', crun s (ACall t :: repeat (AStep t) (S n)) = Ok (s', [ECall t; ENone t])).
Proof.
  intros E Et. pose proof (run_cinv _ _ _ _ _ E) as I. pose proof (ci_len _ _ _ I) as Hl.
  assert (Ht : t < length (c_thr s)) by (apply nth_error_Some; congruence).
  set (s1 := {| c_flags := c_flags s; c_thr := upd (c_thr s) t (Some 0) |}).
  assert (R : crun s (ACall t :: repeat (AStep t) (S n)) =
              do (s2, h2) <- crun s1 (repeat (AStep t) (S n)); Ok (s2, ECall t :: h2)).
  { change (crun s (ACall t :: repeat (AStep t) (S n))) with
      (do (s1, h1) <- cstep s (ACall t);
       do (s2, h2) <- crun s1 (repeat (AStep t) (S n)); Ok (s2, h1 ++ h2)).
    unfold cstep. rewrite Et. reflexivity. }
  destruct (alone t n s1 0) as [(i & s' & Hi & Ei & Hj & E')|(Hj & s' & E')].
  - cbn. now rewrite nth_upd_eq.
  - cbn. intros i Hi. destruct (ci_flag _ _ _ I i) as [(A & _)|(A & _)]; auto. lia.
  - cbn. lia.
  - left. exists i, s'. unfold s1 in Hi, Ei, Hj. cbn [c_flags] in Hi, Ei, Hj.
    split; [lia|]. split; [|split].
    + destruct (ci_flag _ _ _ I i) as [(A & _)|(_ & B)]; auto; [lia|congruence].
    + intros j H. destruct (ci_flag _ _ _ I j) as [(_ & B)|(A & _)]; auto; [lia|].
      rewrite Hj in A by lia. discriminate.
    + rewrite R, E'. reflexivity.
  - right. unfold s1 in Hj. cbn [c_flags] in Hj. split.
    + intros j H. destruct (ci_flag _ _ _ I j) as [(_ & B)|(A & _)]; auto.
      rewrite Hj in A by lia. discriminate.
    + exists s'. rewrite R, E'. reflexivity.
Qed.
Lemma ctx_detach n k l s h : crun (cinit n k) l = Ok (s, h) ->
  (detach_flags true (c_flags s) = Ok tt /\ forall i, ~ owned h i) \/
  (detach_flags true (c_flags s) = Abort /\ exists i, owned h i).
Proof.
  intros E. pose proof (run_cinv _ _ _ _ _ E) as I.
  assert (K : forall fl, (detach_flags true fl = Ok tt /\ forall v, In v fl -> v = 0%Z) \/
                         (detach_flags true fl = Abort /\ exists i v, nth_error fl i = Some v /\ v <> 0%Z)).
  { induction fl as [|v fl IH]; cbn.
    - left. split; auto. intros v [].
    - destruct (v =? 0)%Z eqn:Ev; cbn.
      + destruct IH as [(A & B)|(A & i & w & B)]; [left|right].
        * split; auto. intros w [<-|Hw]; auto. lia.
        * split; auto. exists (S i), w. auto.
      + right. split; auto. exists 0, v. split; auto. lia. }
  destruct (K (c_flags s)) as [(A & B)|(A & i & v & B & C)]; [left|right]; split; auto.
  - intros i O. pose proof (ci_range _ _ _ I _ O) as Hi.
    destruct (ci_flag _ _ _ I i Hi) as [(F & _)|(_ & F)]; auto.
    apply nth_error_In in F. apply B in F. discriminate.
  - exists i. assert (Hi : i < n).
    { rewrite <- (ci_len _ _ _ I). apply nth_error_Some. congruence. }
    destruct (ci_flag _ _ _ I i Hi) as [(_ & F)|(F & _)]; auto. congruence.
Qed.
