(** The invariant is kept by every step. *)
From Verif Require Import Base PubModel PubSpec PubProofs.

Section P.
Variables dyn track : bool.
Notation ph := (ph dyn).

(** Flags of live windows may change at any time. *)
Definition sim (x y : slot) : Prop :=
  y = x \/ (sl_win x = Some WLive /\ sl_win y = Some WLive /\ (exists b, sl_flag x = Some b) /\ exists b, sl_flag y = Some b).
Definition csim (c d : cx) : Prop :=
  d = c \/ exists l m, c = CArr l /\ d = CArr m /\ length m = length l /\
    forall j y, nth_error m j = Some y -> exists x, nth_error l j = Some x /\ sim x y.
Definition fsim (f g : sf) : Prop :=
  f_mem g = f_mem f /\ f_attr g = f_attr f /\ f_cfg g = f_cfg f /\ csim (f_ctx f) (f_ctx g) /\ sim (f_def f) (f_def g).
Lemma sim_live x y : sim x y -> live_slot x -> live_slot y.
Proof. intros [->|(A & B & _ & C)] L; [exact L|]. split; auto. Qed.
Lemma sim_win x y w : sim x y -> sl_win x = Some w -> sl_win y = Some w.
Proof. intros [->|(A & B & _ & C)] L; [exact L|]. congruence. Qed.
Lemma csim_null c d : csim c d -> c = CNull -> d = CNull.
Proof. intros [->|(l & m & -> & _)] E; [exact E|discriminate]. Qed.
Lemma csim_arr c d l : csim c d -> c = CArr l -> exists m, d = CArr m /\ length m = length l /\ forall j y, nth_error m j = Some y -> exists x, nth_error l j = Some x /\ sim x y.
Proof.
  intros [->|(l' & m & -> & -> & L & P)] E.
  - exists l. split; [exact E|]. split; [reflexivity|]. intros j y Y. exists y. split; [exact Y|left; reflexivity].
  - injection E as ->. exists m. auto.
Qed.
Lemma fresh_sim f g : fsim f g -> fresh_def dyn f -> fresh_def dyn g.
Proof.
  intros (_ & _ & _ & _ & S) [D|E]; [left; exact D|]. right. destruct S as [->|(A & _)]; [exact E|]. rewrite E in A. discriminate.
Qed.
Lemma livedef_sim f g : fsim f g -> live_def dyn f -> live_def dyn g.
Proof. intros (_ & _ & _ & _ & S) [D|E]; [left; exact D|]. right. eapply sim_live; eauto. Qed.
Lemma base_sim f g : fsim f g -> base f -> base g.
Proof. intros (A & B & _) [C D]. split; congruence. Qed.
Lemma ph_sim st t b f g : ph st t b f -> fsim f g -> ph st t b g.
Proof.
  intros H S. assert (S' := S). destruct S as (SM & SA & SC & SX & SD).
  assert (BS := base_sim f g S'). assert (FS := fresh_sim f g S'). assert (LS := livedef_sim f g S').
  assert (CN := csim_null (f_ctx f) (f_ctx g) SX).
  destruct H; try solve [constructor; first [exact (BS ltac:(assumption))|congruence|auto]].
  - apply ph_c8; auto; try congruence. eapply sim_win; eauto.
  - apply ph_a2; auto; try congruence. eapply sim_win; eauto.
  - destruct (csim_arr _ _ l SX ltac:(assumption)) as (m & M1 & M2 & M3). apply (ph_a4 dyn n g i m); auto; try congruence.
    intros j y L Y. destruct (M3 j y Y) as (x & X & SS). eapply sim_live; eauto.
  - destruct (csim_arr _ _ l SX ltac:(assumption)) as (m & M1 & M2 & M3). apply (ph_a5 dyn n g i m); auto; try congruence.
    intros j y L Y. destruct (M3 j y Y) as (x & X & SS). eapply sim_live; eauto.
  - destruct (csim_arr _ _ l SX ltac:(assumption)) as (m & M1 & M2 & M3). apply (ph_a6 dyn n g i m); auto; try congruence.
    + intros j y L Y. destruct (M3 j y Y) as (x & X & SS). eapply sim_live; eauto.
    + intros y Y. destruct (M3 i y Y) as (x & X & SS). eapply sim_win; eauto.
  - apply (ph_d dyn n g pre t); auto; congruence.
Qed.

(** The state of a space between calls. *)
Lemma ph_new n b f : ph (SNew n) [] b f -> b = true /\ base f /\ f_ctx f = CNull /\ f_cfg f = Some n /\ fresh_def dyn f.
Proof.
  intros H. remember (SNew n) as st eqn:Es. remember (@nil mop) as t eqn:Et. destruct H; try discriminate Es; try discriminate Et; injection Es as ->.
  - unfold def_prog in Et. destruct dyn eqn:D; [|discriminate]. repeat split; auto; try apply H. left. reflexivity.
  - repeat split; auto; apply H.
Qed.
Lemma ph_att n b f : ph (SAtt n) [] b f -> b = true /\ base f /\ f_cfg f = Some n /\ live_def dyn f /\
  ((n = 0%nat /\ f_ctx f = CNull) \/ exists l, f_ctx f = CArr l /\ length l = n /\ forall j x, nth_error l j = Some x -> live_slot x).
Proof.
  intros H. remember (SAtt n) as st eqn:Es. remember (@nil mop) as t eqn:Et. destruct H; try discriminate Es; try discriminate Et; injection Es as ->.
  - destruct n; [|discriminate]. repeat split; auto; apply H.
  - apply slots_nil in Et; [|assumption]. subst i. repeat split; auto; try apply H. right. exists l. split; [assumption|]. split; [assumption|].
    intros j x X. eapply H3; [|exact X]. apply nth_error_Some_lt in X || (assert (j < length l)%nat by (apply nth_error_Some; congruence); lia).
Qed.
Lemma ph_det n b f : ph (SDet n) [] b f -> b = true /\ base f /\ f_cfg f = Some n /\ f_ctx f = CNull.
Proof.
  intros H. remember (SDet n) as st eqn:Es. remember (@nil mop) as t eqn:Et. destruct H; try discriminate Es; try discriminate Et; injection Es as ->.
  repeat split; auto; try apply H.
Qed.
Lemma ph_gone n a b f t : ph (SGone n a) (MEnter :: t) b f -> b = true /\ base f /\ f_cfg f = Some n /\ (a = false -> fresh_def dyn f).
Proof.
  intros H. remember (SGone n a) as st eqn:Es. remember (MEnter :: t) as u eqn:Et. destruct H; try discriminate Es; try discriminate Et; injection Es as -> ->.
  repeat split; auto; apply H.
Qed.

Lemma def_incs l : incs (def_prog dyn l) = true -> dyn = false /\ incs l = true.
Proof. unfold def_prog. destruct dyn; [discriminate|auto]. Qed.
Lemma slots_incs i n : incs (slots_from i n) = false.
Proof. unfold slots_from. destruct (n - i)%nat; reflexivity. Qed.
Lemma ctxs_incs n : incs (attach_ctxs n) = false.
Proof. destruct n; reflexivity. Qed.
Lemma detach_incs n pre t : detach_prog dyn n = pre ++ t -> incs t = false.
Proof.
  intros E. destruct t as [|o t]; [reflexivity|].
  assert (I : In o (detach_prog dyn n)) by (rewrite E; apply in_app_iff; right; left; reflexivity).
  destruct (detach_plain dyn n o I) as [->|[P _]]; [reflexivity|]. destruct o; try discriminate P; reflexivity.
Qed.
Lemma ph_incs st o t b f : ph st (o :: t) b f -> plain o = true -> incs t = false.
Proof.
  intros H P. remember (o :: t) as ot eqn:E.
  destruct H; try discriminate E; try (injection E as <- <-; first [discriminate P|reflexivity|apply slots_incs|apply ctxs_incs]).
  - injection E as <- <-. unfold def_prog. destruct dyn; reflexivity.
  - unfold def_prog in E. destruct dyn; [discriminate|]. injection E as <- <-. reflexivity.
  - destruct n; [discriminate|]. injection E as <- <-. apply slots_incs.
  - destruct (Nat.eq_dec i n) as [->|N]; [rewrite slots_from_n in E; discriminate|]. rewrite slots_from_S in E by lia. injection E as <- <-. reflexivity.
  - subst t0. apply (detach_incs n (pre ++ [o])). rewrite H1, <- app_assoc. reflexivity.
Qed.
Lemma ph_cfg st o t b f : ph st (o :: t) b f -> plain o = true -> b = true -> f_cfg (wr f o) = f_cfg f \/ f_cfg f = None.
Proof.
  intros H P B. destruct o; try discriminate P; try (left; reflexivity).
  - inversion H; try discriminate; subst; try discriminate.
    all: try (unfold def_prog in *; destruct dyn; discriminate).
    all: try (destruct n; discriminate).
    all: try (exfalso; match goal with E : slots_from ?i ?n = _ |- _ => destruct (Nat.eq_dec i n) as [->|N]; [rewrite slots_from_n in E; discriminate|rewrite slots_from_S in E by lia; discriminate] end).
    exfalso. match goal with E : detach_prog dyn _ = _ ++ MAlloc :: _ |- _ =>
      assert (I : In MAlloc (detach_prog dyn n)) by (rewrite E; apply in_app_iff; right; left; reflexivity) end.
    unfold detach_prog in I. rewrite !in_app_iff, in_flat_map in I. destruct I as [I|[(j & _ & I)|I]].
    + destruct dyn; cbn in I; intuition discriminate.
    + cbn in I; intuition discriminate.
    + cbn in I; intuition discriminate.
  - inversion H; try discriminate; subst; auto.
    all: try (unfold def_prog in *; destruct dyn; discriminate).
    all: try (match goal with E : attach_ctxs ?n = _ |- _ => destruct n; discriminate E end).
    all: try (exfalso; match goal with E : slots_from ?i ?n = _ |- _ => destruct (Nat.eq_dec i n) as [->|N]; [rewrite slots_from_n in E; discriminate|rewrite slots_from_S in E by lia; discriminate] end).
    exfalso. match goal with E : detach_prog dyn ?m = _ ++ ?o :: _ |- _ =>
      assert (I : In o (detach_prog dyn m)) by (rewrite E; apply in_app_iff; right; left; reflexivity) end.
    unfold detach_prog in I. rewrite !in_app_iff, in_flat_map in I. destruct I as [I|[(j & _ & I)|I]].
    + destruct dyn; cbn in I; intuition discriminate.
    + cbn in I; intuition discriminate.
    + cbn in I; intuition discriminate.
  - left. cbn [wr]. destruct (f_ctx f); [| |destruct (nth_error l i)|]; reflexivity.
  - left. cbn [wr]. destruct (f_ctx f); [| |destruct (nth_error l i)|]; reflexivity.
Qed.
End P.
