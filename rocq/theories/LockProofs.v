From Coq Require Import Permutation.
From Verif Require Import Base BaseProofs ListLib LockModel.

(** ** The word lock->next *)

Lemma NEXT_0 : NEXT 0 = 0. Proof. reflexivity. Qed.
Lemma SIGNAL_0 : SIGNAL 0 = 0. Proof. reflexivity. Qed.

Lemma NEXT_small a : 0 <= a <= INT_MAX -> NEXT a = a.
Proof.
  unfold INT_MAX, NEXT. intros H. change INT_MAX with (Z.ones 31). rewrite Z.land_ones by lia.
  apply Z.mod_small. lia.
Qed.
Lemma SIGNAL_small a : 0 <= a <= INT_MAX -> SIGNAL a = 0.
Proof.
  unfold INT_MAX, SIGNAL, SIGNAL_MASK. intros H. apply Z.bits_inj'. intros k Hk.
  rewrite Z.land_spec, Z.bits_0. destruct (Z.eq_dec k 31) as [->|Hne].
  - rewrite Z.bits_above_log2; [reflexivity|lia|]. destruct (Z.eq_dec a 0) as [->|]; [simpl; lia|].
    apply Z.log2_lt_pow2; lia.
  - rewrite Z.pow2_bits_false by lia. apply andb_false_r.
Qed.
Lemma NEXT_lor a b : NEXT (Z.lor a b) = Z.lor (NEXT a) (NEXT b).
Proof. apply Z.land_lor_distr_l. Qed.
Lemma SIGNAL_lor a b : SIGNAL (Z.lor a b) = Z.lor (SIGNAL a) (SIGNAL b).
Proof. apply Z.land_lor_distr_l. Qed.

Lemma NEXT_set a b : NEXT a = 0 -> 0 <= b <= INT_MAX -> NEXT (Z.lor a b) = b.
Proof. intros H Hb. rewrite NEXT_lor, H, (NEXT_small b Hb). apply Z.lor_0_l. Qed.
Lemma SIGNAL_keep a b : 0 <= b <= INT_MAX -> SIGNAL (Z.lor a b) = SIGNAL a.
Proof. intros Hb. rewrite SIGNAL_lor, (SIGNAL_small b Hb). apply Z.lor_0_r. Qed.
Lemma NEXT_keep a : NEXT (Z.lor a SIGNAL_MASK) = NEXT a.
Proof. rewrite NEXT_lor. change (NEXT SIGNAL_MASK) with 0. apply Z.lor_0_r. Qed.
Lemma SIGNAL_set a : SIGNAL (Z.lor a SIGNAL_MASK) <> 0.
Proof.
  rewrite SIGNAL_lor. change (SIGNAL SIGNAL_MASK) with SIGNAL_MASK. intros H.
  apply Z.lor_eq_0_iff in H. destruct H as [_ H]. discriminate.
Qed.
Global Opaque NEXT SIGNAL.

Lemma fset_eq {A} (f : Z -> A) p a : fset f p a p = a.
Proof. unfold fset. rewrite Z.eqb_refl. reflexivity. Qed.
Lemma fset_ne {A} (f : Z -> A) p a q : q <> p -> fset f p a q = f q.
Proof. intros H. unfold fset. destruct (Z.eqb_spec q p); [contradiction|reflexivity]. Qed.

(** ** Invariant: a queue of PEs, its head owning the lock or about to *)

Definition link (s : lstate) (a b : Z) : Prop :=
  (lk_pc s b = SNotify (a + 1) /\ NEXT (lk_next s a) = 0) \/
  (lk_pc s b = SWait /\
   (NEXT (lk_next s a) = b + 1 \/ (lk_pc s a = CSignal (b + 1) /\ NEXT (lk_next s a) = 0))).

Fixpoint chain (s : lstate) (a : Z) (l : list Z) : Prop :=
  match l with
  | [] => NEXT (lk_next s a) = 0
  | b :: r => link s a b /\ SIGNAL (lk_next s b) = 0 /\ chain s b r
  end.

Definition head_ok (s : lstate) (h : Z) (t : list Z) : Prop :=
  match lk_pc s h with
  | Held => True
  | SWait => SIGNAL (lk_next s h) <> 0
  | CWait => t <> []
  | CReset n => exists b r, t = b :: r /\ n = b + 1 /\ NEXT (lk_next s h) = b + 1
  | CSignal n => exists b r, t = b :: r /\ n = b + 1 /\ lk_pc s b = SWait /\ NEXT (lk_next s h) = 0
  | _ => False
  end.

Definition queue_ok (s : lstate) (q : list Z) : Prop :=
  match q with [] => lk_last s = 0 | h :: t => lk_last s = last q 0 + 1 /\ head_ok s h t /\ chain s h t end.

Record linv (n : Z) (s : lstate) (q : list Z) : Prop := mkInv {
  li_nodup : NoDup q;
  li_range : forall p, In p q -> 0 <= p < n;
  li_out : forall p, ~ In p q ->
    (lk_pc s p = Idle \/ (lk_pc s p = SFetch /\ lk_next s p = 0)) /\ NEXT (lk_next s p) = 0;
  li_queue : queue_ok s q }.

Lemma linv_init n : linv n l_init [].
Proof.
  constructor; [constructor|intros ? []| |reflexivity].
  intros p _. simpl. split; [left; reflexivity|apply NEXT_0].
Qed.

(** Chains only look at their own elements. *)
Lemma chain_frame s s' l : forall a,
  (forall x, In x (a :: l) -> lk_next s' x = lk_next s x) ->
  lk_pc s' a = lk_pc s a \/ (forall m, lk_pc s a <> CSignal m) ->
  (forall x, In x l -> lk_pc s' x = lk_pc s x) ->
  chain s a l -> chain s' a l.
Proof.
  induction l as [|b l IH]; intros a HN Ha HP H; simpl in *.
  - rewrite HN by auto. exact H.
  - destruct H as (L & S & C). split; [|split].
    + unfold link in *. rewrite HN by auto. rewrite HP by auto.
      destruct L as [L|[L1 [L2|[L2 L3]]]]; [auto|auto|]. right. split; [exact L1|]. right.
      split; [|exact L3]. destruct Ha as [->|Ha]; [exact L2|]. exfalso. eapply Ha; eauto.
    + rewrite HN by auto. exact S.
    + apply IH; auto.
Qed.

Lemma last_cons_app {A} (l : list A) a d : last (l ++ [a]) d = a.
Proof. induction l as [|x l IH]; [reflexivity|]. simpl. rewrite IH. destruct (l ++ [a]) eqn:E; [|reflexivity]. destruct l; discriminate. Qed.

Lemma last_In {A} (l : list A) a d : In (last (a :: l) d) (a :: l).
Proof.
  revert a. induction l as [|b l IH]; intros a; [left; reflexivity|]. right. apply IH.
Qed.

(** Enqueueing behind the tail. *)
Lemma chain_snoc s p l : forall a,
  ~ In p (a :: l) ->
  lk_pc s p = SNotify (last (a :: l) 0 + 1) -> SIGNAL (lk_next s p) = 0 -> NEXT (lk_next s p) = 0 ->
  chain s a l -> chain s a (l ++ [p]).
Proof.
  induction l as [|b l IH]; intros a Hn Hp HS HN H.
  - simpl in *. split; [left; split; assumption|]. split; assumption.
  - simpl in H. destruct H as (L & S & C). cbn [app chain]. split; [exact L|]. split; [exact S|].
    apply IH; auto. intros Hin. apply Hn. right. exact Hin.
Qed.

(** Every non-head waits, unsignalled. *)
Lemma chain_wait s l : forall a x, chain s a l -> In x l ->
  SIGNAL (lk_next s x) = 0 /\ (lk_pc s x = SWait \/ exists c, lk_pc s x = SNotify c).
Proof.
  induction l as [|b l IH]; intros a x H Hx; [destruct Hx|].
  simpl in H. destruct H as (L & S & C). destruct Hx as [->|Hx].
  - split; [exact S|]. destruct L as [[L _]|[L _]]; eauto.
  - eapply IH; eauto.
Qed.

(** The predecessor of a notifying PE. *)
Lemma chain_notify s x c l : forall a, chain s a l -> In x l -> lk_pc s x = SNotify c ->
  exists l1 l2, a :: l = l1 ++ (c - 1) :: x :: l2 /\ NEXT (lk_next s (c - 1)) = 0.
Proof.
  induction l as [|b l IH]; intros a H Hx Hc; [destruct Hx|].
  simpl in H. destruct H as (L & S & C). destruct (Z.eq_dec b x) as [->|Hne].
  - destruct L as [[L1 L2]|[L1 _]]; [|congruence].
    assert (c = a + 1) by congruence. subst c. replace (a + 1 - 1) with a by lia.
    exists [], l. split; [reflexivity|exact L2].
  - destruct Hx as [Hx|Hx]; [contradiction|].
    destruct (IH b C Hx Hc) as (l1 & l2 & E & N). exists (a :: l1), l2. split; [|exact N].
    simpl. rewrite E. reflexivity.
Qed.

(** Turning the link of a notifying PE into a waiting one. *)
Lemma chain_done_notify s s' x l : forall a l1 z l2,
  NoDup (a :: l) -> a :: l = l1 ++ z :: x :: l2 ->
  (forall y, y <> z -> lk_next s' y = lk_next s y) ->
  (forall y, y <> x -> lk_pc s' y = lk_pc s y) ->
  lk_pc s' x = SWait -> NEXT (lk_next s' z) = x + 1 -> SIGNAL (lk_next s' z) = SIGNAL (lk_next s z) ->
  chain s a l -> chain s' a l.
Proof.
  induction l as [|b l IH]; intros a l1 z l2 ND E HN HP Hx Hz HS H.
  - destruct l1 as [|? [|? ?]]; simpl in E; discriminate.
  - simpl in H. destruct H as (L & S & C). inversion ND as [|? ? N1 N2]; subst.
    destruct l1 as [|y l1].
    + injection E as -> -> ->. cbn [chain]. split; [|split].
      * right. split; [exact Hx|]. left. exact Hz.
      * rewrite HN; [exact S|]. intros ->. apply N1. left; reflexivity.
      * inversion N2 as [|? ? N3 N4]; subst. apply chain_frame with (s := s).
        -- intros y Hy. apply HN. intros ->. apply N1. exact Hy.
        -- right. intros m Hm. destruct L as [[L _]|[L _]]; congruence.
        -- intros y Hy. apply HP. intros ->. contradiction.
        -- exact C.
    + injection E as -> E. cbn [chain].
      assert (Hyz : y <> z).
      { intros ->. apply N1. rewrite E. apply in_or_app. right. left. reflexivity. }
      assert (Hbx : b <> x).
      { intros ->. destruct l1 as [|b' l1]; simpl in E.
        - injection E as -> E. inversion N2 as [|? ? N3 N4]; subst. apply N3. left; reflexivity.
        - injection E as -> E. inversion N2 as [|? ? N3 N4]; subst. apply N3. apply in_or_app.
          right. right. left. reflexivity. }
      split; [|split].
      * unfold link in *. rewrite HN by exact Hyz. rewrite HP by exact Hbx.
        destruct L as [L|[L1 [L2|[L2 L3]]]]; [auto|auto|]. right. split; [exact L1|]. right.
        split; [|exact L3]. destruct (Z.eq_dec y x) as [->|Hyx]; [|rewrite HP by exact Hyx; exact L2].
        exfalso. apply N1. rewrite E. apply in_or_app. right. right. left. reflexivity.
      * destruct (Z.eq_dec b z) as [->|Hbz]; [rewrite HS|rewrite HN by exact Hbz]; exact S.
      * eapply IH; eauto.
Qed.

(** ** Every step preserves the invariant; what each step does to the queue *)

Inductive lchange (s s' : lstate) (x : Z) (q q' : list Z) : list lev -> Prop :=
| ch_same ev : s' = s -> q' = q -> (ev = [] \/ ev = [ETestFail x]) -> lchange s s' x q q' ev
| ch_begin : ~ In x q -> q' = q -> lk_pc s x = Idle -> lk_pc s' x = SFetch ->
    (forall y, y <> x -> lk_pc s' y = lk_pc s y) -> lchange s s' x q q' []
| ch_enq0 : q = [] -> q' = [x] -> lk_pc s' x = Held ->
    (forall y, y <> x -> lk_pc s' y = lk_pc s y) -> lchange s s' x q q' [EEnq x; EAcq x]
| ch_enq : q <> [] -> ~ In x q -> q' = q ++ [x] -> (exists c, lk_pc s' x = SNotify c) ->
    (forall y, y <> x -> lk_pc s' y = lk_pc s y) -> lchange s s' x q q' [EEnq x]
| ch_notify h t : q = h :: t -> In x t -> q' = q -> (exists c, lk_pc s x = SNotify c) -> lk_pc s' x = SWait ->
    (forall y, y <> x -> lk_pc s' y = lk_pc s y) -> lchange s s' x q q' []
| ch_acq t : q = x :: t -> q' = q -> lk_pc s x = SWait -> lk_pc s' x = Held ->
    (forall y, y <> x -> lk_pc s' y = lk_pc s y) -> lchange s s' x q q' [EAcq x]
| ch_rel0 : q = [x] -> q' = [] -> lk_pc s x = Held -> lk_pc s' x = Idle ->
    (forall y, y <> x -> lk_pc s' y = lk_pc s y) -> lchange s s' x q q' [ERel x]
| ch_rel b t : q = x :: b :: t -> q' = q -> lk_pc s x = Held -> lk_pc s' x = CWait ->
    (forall y, y <> x -> lk_pc s' y = lk_pc s y) -> lchange s s' x q q' [ERel x]
| ch_next t n : q = x :: t -> q' = q -> lk_pc s x = CWait -> lk_pc s' x = CReset n ->
    (forall y, y <> x -> lk_pc s' y = lk_pc s y) -> lchange s s' x q q' []
| ch_reset t n : q = x :: t -> q' = q -> lk_pc s x = CReset n -> lk_pc s' x = CSignal n ->
    (forall y, y <> x -> lk_pc s' y = lk_pc s y) -> lchange s s' x q q' []
| ch_pass b t n : q = x :: b :: t -> q' = b :: t -> lk_pc s x = CSignal n -> lk_pc s' x = Idle ->
    lk_pc s b = SWait -> (forall y, y <> x -> lk_pc s' y = lk_pc s y) -> lchange s s' x q q' [].

Lemma not_in_pc n s q x : linv n s q -> ~ In x q -> lk_pc s x = Idle \/ lk_pc s x = SFetch.
Proof. intros I H. destruct (li_out _ _ _ I x H) as [[A|[A _]] _]; auto. Qed.

Lemma in_q n s q x : linv n s q -> lk_pc s x <> Idle -> lk_pc s x <> SFetch -> In x q.
Proof.
  intros I H1 H2. destruct (in_dec Z.eq_dec x q) as [Hi|Hi]; [exact Hi|].
  destruct (not_in_pc _ _ _ _ I Hi); contradiction.
Qed.

Lemma out_q n s q x : linv n s q -> lk_pc s x = Idle \/ lk_pc s x = SFetch -> ~ In x q.
Proof.
  intros I H Hin. destruct q as [|h t]; [destruct Hin|].
  destruct (li_queue _ _ _ I) as (_ & HH & HC). destruct Hin as [->|Hin].
  - unfold head_ok in HH. destruct H as [H|H]; rewrite H in HH; exact HH.
  - destruct (chain_wait _ _ _ _ HC Hin) as [_ [W|[c W]]]; destruct H; congruence.
Qed.

Lemma head_q n s q x : linv n s q -> lk_pc s x <> Idle -> lk_pc s x <> SFetch -> lk_pc s x <> SWait ->
  (forall c, lk_pc s x <> SNotify c) -> exists t, q = x :: t.
Proof.
  intros I H1 H2 H3 H4. pose proof (in_q _ _ _ _ I H1 H2) as Hin.
  destruct q as [|h t]; [destruct Hin|]. destruct Hin as [->|Hin]; [eauto|].
  destruct (li_queue _ _ _ I) as (_ & _ & HC).
  destruct (chain_wait _ _ _ _ HC Hin) as [_ [W|[c W]]]; [contradiction|]. exfalso. eapply H4; eauto.
Qed.

Lemma last_range n s q : linv n s q -> q <> [] -> 1 <= lk_last s <= n.
Proof.
  intros I H. destruct q as [|h t]; [contradiction|]. destruct (li_queue _ _ _ I) as (E & _).
  pose proof (li_range _ _ _ I (last (h :: t) 0) (last_In _ _ _)). lia.
Qed.

Lemma last0 n s q : linv n s q -> lk_last s = 0 <-> q = [].
Proof.
  intros I. split; [|intros ->; apply (li_queue _ _ _ I)].
  intros E. destruct q as [|h t]; [reflexivity|]. pose proof (last_range _ _ _ I ltac:(discriminate)). lia.
Qed.

(** Claiming a free lock: set_lock's fetch-and-replace or test_lock's CAS. *)
Lemma inv_claim n s x : linv n s [] -> 0 <= x < n -> NEXT (lk_next s x) = 0 ->
  linv n (set_pc (set_last s (x + 1)) x Held) [x].
Proof.
  intros I Hx HN. constructor.
  - constructor; [intros []|constructor].
  - intros p [<-|[]]. exact Hx.
  - intros p Hp. simpl in *. rewrite fset_ne by (intros ->; apply Hp; auto).
    apply (li_out _ _ _ I). intros [].
  - simpl. split; [reflexivity|]. split; [|exact HN]. unfold head_ok. simpl. rewrite fset_eq. exact Logic.I.
Qed.

Lemma step_inv n s q x o s' ev : linv n s q -> 0 <= x < n -> n <= INT_MAX -> lstep s x o = (s', ev) ->
  exists q', linv n s' q' /\ lchange s s' x q q' ev.
Proof.
  intros I Hx Hn E. unfold lstep in E.
  assert (SAME : (s, @nil lev) = (s', ev) -> exists q', linv n s' q' /\ lchange s s' x q q' ev).
  { intros E'. injection E' as <- <-. exists q. split; [exact I|]. apply ch_same; auto. }
  destruct (lk_pc s x) eqn:P; destruct o; try (apply SAME; exact E).
  - (* Idle, set *)
    injection E as <- <-. assert (Ho : ~ In x q) by (eapply out_q; eauto).
    exists q. split.
    + constructor.
      * apply I.
      * apply I.
      * intros p Hp. simpl. destruct (Z.eq_dec p x) as [->|Hne].
        -- rewrite !fset_eq. split; [right; auto|reflexivity].
        -- rewrite !fset_ne by exact Hne. apply (li_out _ _ _ I). exact Hp.
      * pose proof (li_queue _ _ _ I) as Q. destruct q as [|h t]; [exact Q|].
        destruct Q as (Q1 & Q2 & Q3). split; [exact Q1|].
        assert (Hh : forall y, In y (h :: t) -> y <> x) by (intros y Hy ->; contradiction).
        split.
        -- unfold head_ok in *. simpl. rewrite !fset_ne by (apply Hh; left; reflexivity).
           destruct (lk_pc s h); auto. destruct Q2 as (b & r & -> & -> & Q2). exists b, r.
           split; [reflexivity|]. split; [reflexivity|]. rewrite fset_ne; [exact Q2|].
           apply Hh. right. left. reflexivity.
        -- apply chain_frame with (s := s); [| | |exact Q3].
           ++ intros y Hy. simpl. apply fset_ne. apply Hh. exact Hy.
           ++ left. simpl. apply fset_ne. apply Hh. left; reflexivity.
           ++ intros y Hy. simpl. apply fset_ne. apply Hh. right; exact Hy.
    + apply ch_begin; auto; simpl; [apply fset_eq|intros; apply fset_ne; assumption].
  - (* Idle, test *)
    assert (Ho : ~ In x q) by (eapply out_q; eauto).
    destruct (Z.eqb_spec (lk_last s) 0) as [E0|E0].
    + injection E as <- <-. apply (last0 _ _ _ I) in E0. subst q. exists [x]. split.
      * apply inv_claim; auto. apply (li_out _ _ _ I x Ho).
      * apply ch_enq0; auto; simpl; [apply fset_eq|intros; apply fset_ne; assumption].
    + injection E as <- <-. exists q. split; [exact I|]. apply ch_same; auto.
  - (* SFetch *)
    assert (Ho : ~ In x q) by (eapply out_q; eauto).
    destruct (li_out _ _ _ I x Ho) as [[A|[_ A]] N0]; [congruence|].
    destruct (Z.eqb_spec (lk_last s) 0) as [E0|E0].
    + injection E as <- <-. apply (last0 _ _ _ I) in E0. subst q. exists [x]. split.
      * apply inv_claim; auto.
      * apply ch_enq0; auto; simpl; [apply fset_eq|intros; apply fset_ne; assumption].
    + injection E as <- <-. assert (Hq : q <> []) by (intros ->; apply E0; apply (li_queue _ _ _ I)).
      exists (q ++ [x]). split.
      * constructor.
        -- apply (Permutation.Permutation_NoDup (l := x :: q)).
           ++ apply Permutation.Permutation_cons_append.
           ++ constructor; [exact Ho|apply I].
        -- intros p Hp. apply in_app_or in Hp. destruct Hp as [Hp|[<-|[]]]; [apply (li_range _ _ _ I); exact Hp|exact Hx].
        -- intros p Hp. simpl. assert (p <> x) by (intros ->; apply Hp; apply in_or_app; right; left; reflexivity).
           rewrite fset_ne by assumption. apply (li_out _ _ _ I). intros Hin. apply Hp, in_or_app. left; exact Hin.
        -- pose proof (li_queue _ _ _ I) as Q. destruct q as [|h t]; [contradiction|].
           destruct Q as (Q1 & Q2 & Q3).
           assert (Hh : forall y, In y (h :: t) -> y <> x) by (intros y Hy ->; contradiction).
           cbn [app queue_ok]. split; [|split].
           ++ simpl lk_last. change (h :: t ++ [x]) with ((h :: t) ++ [x]). rewrite last_cons_app. reflexivity.
           ++ unfold head_ok in *. simpl. rewrite !fset_ne by (apply Hh; left; reflexivity).
              destruct (lk_pc s h); auto.
              ** intros F. destruct t; discriminate.
              ** destruct Q2 as (b & r & -> & -> & Q2). exists b, (r ++ [x]). auto.
              ** destruct Q2 as (b & r & -> & -> & Q2). exists b, (r ++ [x]).
                 split; [reflexivity|]. split; [reflexivity|]. rewrite fset_ne; [exact Q2|].
                 apply Hh. right. left. reflexivity.
           ++ apply chain_snoc; simpl.
              ** exact Ho.
              ** rewrite fset_eq. rewrite Q1. reflexivity.
              ** rewrite A. apply SIGNAL_0.
              ** exact N0.
              ** apply chain_frame with (s := s); [reflexivity| | |exact Q3].
                 --- left. simpl. apply fset_ne. apply Hh. left; reflexivity.
                 --- intros y Hy. simpl. apply fset_ne. apply Hh. right; exact Hy.
      * apply ch_enq; auto; simpl; [rewrite fset_eq; eauto|intros; apply fset_ne; assumption].
  - (* SNotify *)
    injection E as <- <-.
    assert (Hin : In x q) by (eapply in_q; eauto; congruence).
    pose proof (li_queue _ _ _ I) as Q. destruct q as [|h t]; [destruct Hin|].
    destruct Q as (Q1 & Q2 & Q3). assert (Ht : In x t).
    { destruct Hin as [->|Hin]; [|exact Hin]. unfold head_ok in Q2. rewrite P in Q2. destruct Q2. }
    destruct (chain_notify _ _ _ _ _ Q3 Ht P) as (l1 & l2 & El & Nz).
    set (z := prev - 1) in *.
    assert (Hz : In z (h :: t)) by (rewrite El; apply in_or_app; right; left; reflexivity).
    assert (Hzx : z <> x).
    { intros Ez. pose proof (li_nodup _ _ _ I) as ND. rewrite El, Ez in ND.
      apply NoDup_remove_2 in ND. apply ND. apply in_or_app. right. left. reflexivity. }
    assert (Hid : 0 <= x + 1 <= INT_MAX) by lia.
    exists (h :: t). split.
    + constructor.
      * apply I.
      * apply I.
      * intros p Hp. simpl. rewrite !fset_ne by (intros ->; apply Hp; simpl; tauto). apply (li_out _ _ _ I). exact Hp.
      * split; [exact Q1|]. assert (Hhx : h <> x).
        { intros ->. pose proof (li_nodup _ _ _ I) as ND. inversion ND; contradiction. }
        split.
        -- unfold head_ok in *. simpl. rewrite !(fset_ne (lk_pc s)) by exact Hhx.
           destruct (lk_pc s h) eqn:PH; auto.
           ++ destruct (Z.eq_dec h z) as [->|Hhz].
              ** rewrite fset_eq. rewrite SIGNAL_keep by exact Hid. exact Q2.
              ** rewrite fset_ne by exact Hhz. exact Q2.
           ++ destruct Q2 as (b & r & -> & -> & Q2). exists b, r. split; [reflexivity|]. split; [reflexivity|].
              destruct (Z.eq_dec h z) as [->|Hhz]; [|rewrite fset_ne by exact Hhz; exact Q2].
              rewrite Nz in Q2. pose proof (li_range _ _ _ I b ltac:(simpl; auto)). lia.
           ++ destruct Q2 as (b & r & -> & -> & Q2). exists b, r. split; [reflexivity|]. split; [reflexivity|].
              destruct Q2 as [Q2 Q4]. rewrite fset_ne by (intros ->; congruence). split; [exact Q2|].
              rewrite fset_ne; [exact Q4|]. intros ->. destruct l1 as [|y l1].
              ** injection El as Ex _. congruence.
              ** injection El as -> El. pose proof (li_nodup _ _ _ I) as ND. inversion ND as [|? ? N1 _]; subst.
                 apply N1. rewrite El. apply in_or_app. right. left. reflexivity.
        -- eapply (chain_done_notify s _ x t h l1 z l2); eauto.
           ++ apply I.
           ++ intros y Hy. simpl. apply fset_ne. exact Hy.
           ++ intros y Hy. simpl. apply fset_ne. exact Hy.
           ++ simpl. apply fset_eq.
           ++ simpl. rewrite fset_eq. apply NEXT_set; auto.
           ++ simpl. rewrite fset_eq. apply SIGNAL_keep; auto.
    + eapply ch_notify; eauto; simpl; [apply fset_eq|intros; apply fset_ne; assumption].
  - (* SWait *)
    destruct (Z.eqb_spec (SIGNAL (lk_next s x)) 0) as [E0|E0]; [apply SAME; exact E|].
    injection E as <- <-.
    assert (Hin : In x q) by (eapply in_q; eauto; congruence).
    pose proof (li_queue _ _ _ I) as Q. destruct q as [|h t]; [destruct Hin|].
    destruct Q as (Q1 & Q2 & Q3).
    assert (h = x). { destruct Hin as [->|Hin]; [reflexivity|]. destruct (chain_wait _ _ _ _ Q3 Hin). contradiction. }
    subst h. pose proof (li_nodup _ _ _ I) as ND. inversion ND as [|? ? N1 N2]; subst.
    exists (x :: t). split.
    + constructor.
      * exact ND.
      * apply I.
      * intros p Hp. simpl. rewrite !fset_ne by (intros ->; apply Hp; left; reflexivity). apply (li_out _ _ _ I). exact Hp.
      * split; [exact Q1|]. split; [unfold head_ok; simpl; rewrite fset_eq; exact Logic.I|].
        apply chain_frame with (s := s); [reflexivity| | |exact Q3].
        -- right. congruence.
        -- intros y Hy. simpl. apply fset_ne. intros ->. contradiction.
    + eapply ch_acq; eauto; simpl; [apply fset_eq|intros; apply fset_ne; assumption].
  - (* Held, test *)
    destruct (Z.eqb_spec (lk_last s) 0) as [E0|E0].
    + apply (last0 _ _ _ I) in E0. subst q. destruct (not_in_pc _ _ _ x I); [intros []|congruence|congruence].
    + injection E as <- <-. exists q. split; [exact I|]. apply ch_same; auto.
  - (* Held, clear *)
    destruct (head_q _ _ _ x I) as (t & ->); try congruence.
    pose proof (li_nodup _ _ _ I) as ND. inversion ND as [|? ? N1 N2]; subst.
    destruct (li_queue _ _ _ I) as (Q1 & Q2 & Q3).
    destruct (Z.eqb_spec (lk_last s) (x + 1)) as [E0|E0].
    + injection E as <- <-. assert (t = []).
      { destruct t as [|b t]; [reflexivity|]. exfalso. assert (El : last (x :: b :: t) 0 = x) by lia.
        apply N1. rewrite <- El at 1. change (last (x :: b :: t) 0) with (last (b :: t) 0). apply last_In. }
      subst t. exists []. split.
      * constructor; [constructor|intros ? []| |reflexivity].
        intros p _. simpl. destruct (Z.eq_dec p x) as [->|Hne].
        -- rewrite fset_eq. split; [left; reflexivity|exact Q3].
        -- rewrite fset_ne by exact Hne. apply (li_out _ _ _ I). intros [F|[]]; congruence.
      * eapply ch_rel0; eauto; simpl; [apply fset_eq|intros; apply fset_ne; assumption].
    + injection E as <- <-. destruct t as [|b t]; [simpl in Q1; lia|].
      exists (x :: b :: t). split.
      * constructor.
        -- exact ND.
        -- apply I.
        -- intros p Hp. simpl. rewrite !fset_ne by (intros ->; apply Hp; left; reflexivity). apply (li_out _ _ _ I). exact Hp.
        -- split; [exact Q1|]. split; [unfold head_ok; simpl; rewrite fset_eq; discriminate|].
           apply chain_frame with (s := s); [reflexivity| | |exact Q3].
           ++ right. congruence.
           ++ intros y Hy. simpl. apply fset_ne. intros ->. contradiction.
      * eapply ch_rel; eauto; simpl; [apply fset_eq|intros; apply fset_ne; assumption].
  - (* CWait *)
    destruct (Z.eqb_spec (NEXT (lk_next s x)) 0) as [E0|E0]; [apply SAME; exact E|].
    injection E as <- <-. destruct (head_q _ _ _ x I) as (t & ->); try congruence.
    pose proof (li_nodup _ _ _ I) as ND. inversion ND as [|? ? N1 N2]; subst.
    destruct (li_queue _ _ _ I) as (Q1 & Q2 & Q3).
    assert (Hb : exists b r, t = b :: r /\ NEXT (lk_next s x) = b + 1).
    { destruct t as [|b r]; [simpl in Q3; contradiction|]. exists b, r. split; [reflexivity|].
      destruct Q3 as ([[_ L]|[_ [L|[_ L]]]] & _); congruence. }
    exists (x :: t). split.
    + constructor.
      * exact ND.
      * apply I.
      * intros p Hp. simpl. rewrite !fset_ne by (intros ->; apply Hp; left; reflexivity). apply (li_out _ _ _ I). exact Hp.
      * split; [exact Q1|]. split.
        -- unfold head_ok; simpl; rewrite fset_eq. destruct Hb as (b & r & -> & Hb). exists b, r. auto.
        -- apply chain_frame with (s := s); [reflexivity| | |exact Q3].
           ++ right. congruence.
           ++ intros y Hy. simpl. apply fset_ne. intros ->. contradiction.
    + eapply ch_next; eauto; simpl; [apply fset_eq|intros; apply fset_ne; assumption].
  - (* CReset *)
    injection E as <- <-. destruct (head_q _ _ _ x I) as (t & ->); try congruence.
    pose proof (li_nodup _ _ _ I) as ND. inversion ND as [|? ? N1 N2]; subst.
    destruct (li_queue _ _ _ I) as (Q1 & Q2 & Q3).
    unfold head_ok in Q2. rewrite P in Q2. destruct Q2 as (b & r & -> & -> & Q2).
    pose proof (li_range _ _ _ I b ltac:(simpl; auto)) as Hb.
    cbn [chain] in Q3. destruct Q3 as (L & S & C).
    assert (Pb : lk_pc s b = SWait) by (destruct L as [[_ L]|[L _]]; [lia|exact L]).
    assert (Hbx : b <> x) by (intros ->; apply N1; left; reflexivity).
    exists (x :: b :: r). split.
    + constructor.
      * exact ND.
      * apply I.
      * intros p Hp. simpl. rewrite !fset_ne by (intros ->; apply Hp; left; reflexivity). apply (li_out _ _ _ I). exact Hp.
      * split; [exact Q1|]. split.
        -- unfold head_ok; simpl; rewrite fset_eq. exists b, r. split; [reflexivity|]. split; [reflexivity|].
           rewrite fset_ne by exact Hbx. rewrite fset_eq. split; [exact Pb|apply NEXT_0].
        -- cbn [chain]. split; [|split].
           ++ right. simpl. rewrite !fset_eq, fset_ne by exact Hbx. split; [exact Pb|]. right.
              split; [reflexivity|apply NEXT_0].
           ++ simpl. rewrite fset_ne by exact Hbx. exact S.
           ++ apply chain_frame with (s := s); [| | |exact C].
              ** intros y Hy. simpl. apply fset_ne. intros ->. contradiction.
              ** right. congruence.
              ** intros y Hy. simpl. apply fset_ne. intros ->. apply N1. right; exact Hy.
    + eapply ch_reset; eauto; simpl; [apply fset_eq|intros; apply fset_ne; assumption].
  - (* CSignal *)
    injection E as <- <-. destruct (head_q _ _ _ x I) as (t & ->); try congruence.
    pose proof (li_nodup _ _ _ I) as ND. inversion ND as [|? ? N1 N2]; subst.
    destruct (li_queue _ _ _ I) as (Q1 & Q2 & Q3).
    unfold head_ok in Q2. rewrite P in Q2. destruct Q2 as (b & r & -> & -> & Pb).
    replace (b + 1 - 1) with b by lia.
    destruct Pb as [Pb Nx].
    cbn [chain] in Q3. destruct Q3 as (L & S & C).
    assert (Hbx : b <> x) by (intros ->; apply N1; left; reflexivity).
    inversion N2 as [|? ? N3 N4]; subst.
    exists (b :: r). split.
    + constructor.
      * exact N2.
      * intros p Hp. apply (li_range _ _ _ I). right; exact Hp.
      * intros p Hp. simpl. assert (p <> b) by (intros ->; apply Hp; left; reflexivity).
        rewrite (fset_ne (lk_next s)) by assumption.
        destruct (Z.eq_dec p x) as [->|Hne].
        -- rewrite fset_eq. split; [left; reflexivity|exact Nx].
        -- rewrite fset_ne by exact Hne. apply (li_out _ _ _ I). intros [F|F]; [congruence|contradiction].
      * split; [exact Q1|]. split.
        -- unfold head_ok. simpl. rewrite fset_ne by exact Hbx. rewrite Pb, fset_eq. apply SIGNAL_set.
        -- clear L. destruct r as [|c r].
           ++ simpl in *. rewrite fset_eq, NEXT_keep. exact C.
           ++ cbn [chain] in *. destruct C as (L & S2 & C).
              assert (Hcb : c <> b) by (intros ->; apply N3; left; reflexivity).
              assert (Hcx : c <> x) by (intros ->; apply N1; right; left; reflexivity).
              split; [|split].
              ** unfold link in *. simpl. rewrite (fset_eq (lk_next s)), NEXT_keep.
                 rewrite !fset_ne by assumption. exact L.
              ** simpl. rewrite fset_ne by exact Hcb. exact S2.
              ** apply chain_frame with (s := s); [| | |exact C].
                 --- intros y Hy. simpl. apply fset_ne. intros ->. apply N3. exact Hy.
                 --- left. simpl. apply fset_ne. exact Hcx.
                 --- intros y Hy. simpl. apply fset_ne. intros ->. apply N1. right. right. exact Hy.
    + eapply ch_pass; eauto; simpl; [apply fset_eq|intros; apply fset_ne; assumption].
Qed.
