(** Invariants of the spaces and their readers. *)
From Verif Require Import Base PubModel PubSpec.

Section P.
Variables dyn track : bool.

Definition base (f : sf) : Prop := f_mem f = true /\ f_attr f = true.
Definition live_slot (x : slot) : Prop := sl_win x = Some WLive /\ exists b, sl_flag x = Some b.
Definition def_prog (l : list mop) : list mop := if dyn then [] else l.
Definition fresh_def (f : sf) : Prop := dyn = true \/ f_def f = mkSlot (Some WNull) (Some false).
Definition live_def (f : sf) : Prop := dyn = true \/ live_slot (f_def f).

Inductive ph : stat -> list mop -> bool -> sf -> Prop :=
| ph_none f : ph SNone [] false f
| ph_c0 n f : ph (SNew n) (create_prog dyn n) false f
| ph_c1 n f : f_mem f = true -> f_cfg f = None -> ph (SNew n) ([MAttr; MEnter; MAppend; MExit; MCtxNull; MCfg n] ++ def_prog [MDefWin WNull; MDefFlag]) false f
| ph_c2 n f : base f -> f_cfg f = None -> ph (SNew n) ([MEnter; MAppend; MExit; MCtxNull; MCfg n] ++ def_prog [MDefWin WNull; MDefFlag]) false f
| ph_c3 n f : base f -> f_cfg f = None -> ph (SNew n) ([MAppend; MExit; MCtxNull; MCfg n] ++ def_prog [MDefWin WNull; MDefFlag]) false f
| ph_c4 n f : base f -> f_cfg f = None -> ph (SNew n) ([MExit; MCtxNull; MCfg n] ++ def_prog [MDefWin WNull; MDefFlag]) true f
| ph_c5 n f : base f -> f_cfg f = None -> ph (SNew n) ([MCtxNull; MCfg n] ++ def_prog [MDefWin WNull; MDefFlag]) true f
| ph_c6 n f : base f -> f_ctx f = CNull -> f_cfg f = None -> ph (SNew n) ([MCfg n] ++ def_prog [MDefWin WNull; MDefFlag]) true f
| ph_c7 n f : base f -> f_ctx f = CNull -> f_cfg f = Some n -> ph (SNew n) (def_prog [MDefWin WNull; MDefFlag]) true f
| ph_c8 n f : base f -> f_ctx f = CNull -> f_cfg f = Some n -> sl_win (f_def f) = Some WNull -> dyn = false -> ph (SNew n) [MDefFlag] true f
| ph_c9 n f : base f -> f_ctx f = CNull -> f_cfg f = Some n -> fresh_def f -> ph (SNew n) [] true f
| ph_a0 n f : base f -> f_ctx f = CNull -> f_cfg f = Some n -> dyn = false -> ph (SAtt n) ([MDefWin WNoEp; MDefWin WLive; MDefFlag] ++ attach_ctxs n) true f
| ph_a1 n f : base f -> f_ctx f = CNull -> f_cfg f = Some n -> dyn = false -> ph (SAtt n) ([MDefWin WLive; MDefFlag] ++ attach_ctxs n) true f
| ph_a2 n f : base f -> f_ctx f = CNull -> f_cfg f = Some n -> dyn = false -> sl_win (f_def f) = Some WLive ->
    ph (SAtt n) ([MDefFlag] ++ attach_ctxs n) true f
| ph_a3 n f : base f -> f_ctx f = CNull -> f_cfg f = Some n -> live_def f -> ph (SAtt n) (attach_ctxs n) true f
| ph_a4 n f i l : base f -> f_ctx f = CArr l -> length l = n -> (i <= n)%nat -> (forall j x, (j < i)%nat -> nth_error l j = Some x -> live_slot x) ->
    f_cfg f = Some n -> live_def f -> ph (SAtt n) (slots_from i n) true f
| ph_a5 n f i l : base f -> f_ctx f = CArr l -> length l = n -> (i < n)%nat -> (forall j x, (j < i)%nat -> nth_error l j = Some x -> live_slot x) ->
    f_cfg f = Some n -> live_def f -> ph (SAtt n) ([MSlotWin i WLive; MSlotFlag i] ++ slots_from (S i) n) true f
| ph_a6 n f i l : base f -> f_ctx f = CArr l -> length l = n -> (i < n)%nat -> (forall j x, (j < i)%nat -> nth_error l j = Some x -> live_slot x) ->
    (forall x, nth_error l i = Some x -> sl_win x = Some WLive) ->
    f_cfg f = Some n -> live_def f -> ph (SAtt n) ([MSlotFlag i] ++ slots_from (S i) n) true f
| ph_d n f pre t : base f -> f_cfg f = Some n -> detach_prog dyn n = pre ++ t -> (t = [] -> f_ctx f = CNull) -> ph (SDet n) t true f
| ph_x0 n att f : base f -> f_cfg f = Some n -> (att = false -> fresh_def f) -> ph (SGone n att) destroy_prog true f
| ph_x1 n att f : base f -> ph (SGone n att) [MDelete; MExit; MFree] true f
| ph_x2 n att f : base f -> ph (SGone n att) [MExit; MFree] false f
| ph_x3 n att f : base f -> ph (SGone n att) [MFree] false f
| ph_x4 n att f : ph (SGone n att) [] false f.

Definition incs (t : list mop) : bool := match t with MAppend :: _ | MDelete :: _ | MExit :: _ => true | _ => false end.
(** What a reader inside the section still has to look at. *)
Definition vis (s : pst) (o : wop) : Prop :=
  match o with
  | WCfg k | WAttr k => In k (p_list s)
  | WDef k => In k (p_list s) /\ dyn = false
  | WSlot k j => In k (p_list s) /\ exists n, f_cfg (p_f s k) = Some n /\ (j < n)%nat
  | WEnter _ | WExit => False
  end.
Record PI (s : pst) : Prop := {
  pi_ph : forall k, exists b, ph (p_stat s k) (p_todo s k) b (p_f s k) /\ (b = true <-> In k (p_list s));
  pi_cs : forall k, incs (p_todo s k) = true <-> p_cs s = Some (OSpace k);
  pi_rd : forall i, p_rd s i = [] \/ (exists q, p_rd s i = [WEnter q]) \/
            (p_cs s = Some (OReader i) /\ exists ops, p_rd s i = ops ++ [WExit] /\ Forall (vis s) ops)
}.

Lemma set1_same {A : Type} (f : Z -> A) k a : set1 f k a k = a.
Proof. unfold set1. rewrite Z.eqb_refl. reflexivity. Qed.
Lemma set1_other {A : Type} (f : Z -> A) k a j : j <> k -> set1 f k a j = f j.
Proof. intros N. unfold set1. apply Z.eqb_neq in N. rewrite N. reflexivity. Qed.

Lemma PI0 : PI pst0.
Proof.
  split; cbn.
  - intros k. exists false. split; [constructor|]. split; [discriminate|tauto].
  - intros k. split; discriminate.
  - intros i. left. reflexivity.
Qed.

Lemma slots_from_S i n : (i < n)%nat -> slots_from i n = [MSlotWin i WNoEp; MSlotWin i WLive; MSlotFlag i] ++ slots_from (S i) n.
Proof. intros L. unfold slots_from. replace (n - i)%nat with (S (n - S i)) by lia. reflexivity. Qed.
Lemma slots_from_n n : slots_from n n = [].
Proof. unfold slots_from. rewrite Nat.sub_diag. reflexivity. Qed.
Lemma slots_nil i n : (i <= n)%nat -> slots_from i n = [] -> i = n.
Proof. intros L E. destruct (Nat.eq_dec i n) as [->|N]; [reflexivity|]. rewrite slots_from_S in E by lia. discriminate. Qed.

(** The writes of a call go from one phase to the next. *)
Lemma nth_upd {A : Type} (l : list A) i a j : nth_error (upd l i a) j = if (j =? i)%nat then (if (i <? length l)%nat then Some a else None) else nth_error l j.
Proof.
  revert i j. induction l as [|y l IH]; intros i j; cbn [upd].
  - destruct (j =? i)%nat; destruct j; reflexivity.
  - destruct i as [|i], j as [|j]; cbn [upd nth_error Nat.eqb length]; try reflexivity. rewrite IH. destruct (j =? i)%nat; reflexivity.
Qed.
Lemma upd_len {A : Type} (l : list A) i a : length (upd l i a) = length l.
Proof. revert i. induction l as [|y l IH]; intros [|i]; cbn [upd length]; auto. Qed.

Definition plain (o : mop) : bool := match o with MEnter | MExit | MAppend | MDelete => false | _ => true end.
Lemma detach_plain n o : In o (detach_prog dyn n) -> o = MCtxNull \/ (plain o = true /\ forall f, base f -> base (wr f o) /\ f_cfg (wr f o) = f_cfg f).
Proof.
  unfold detach_prog. rewrite !in_app_iff, in_flat_map. intros [H|[(j & _ & H)|H]].
  - destruct dyn; [destruct H|]. destruct H as [<-|[<-|[]]]; right; (split; [reflexivity|]); intros f [A B]; split; auto; split; assumption.
  - right. destruct H as [<-|[<-|[]]]; (split; [reflexivity|]); intros f [A B]; cbn [wr];
      (destruct (f_ctx f) as [| |l|]; [| |destruct (nth_error l j)|]); (split; [split|]); cbn; auto.
  - destruct H as [<-|[<-|[]]]; [right|left; reflexivity]. split; [reflexivity|]. intros f [A B]. split; auto. split; assumption.
Qed.
Lemma detach_last n pre : detach_prog dyn n = pre ++ [] -> exists p, pre = p ++ [MCtxNull].
Proof.
  rewrite app_nil_r. intros <-. unfold detach_prog. eexists. rewrite (app_assoc _ _ [MArrFree; MCtxNull]).
  change [MArrFree; MCtxNull] with ([MArrFree] ++ [MCtxNull]). rewrite (app_assoc _ [MArrFree]). reflexivity.
Qed.

Lemma ph_wr st o t b f : ph st (o :: t) b f -> plain o = true -> ph st t b (wr f o).
Proof.
  intros H P.
  remember (o :: t) as ot eqn:E. destruct H; try discriminate E;
    try (injection E as <- <-; try discriminate P).
  - apply ph_c1; reflexivity.
  - apply ph_c2; [split; [exact H|reflexivity]|exact H0].
  - apply ph_c6; [exact H|reflexivity|exact H0].
  - apply ph_c7; [exact H|exact H0|reflexivity].
  - unfold def_prog in E. destruct dyn eqn:D; [discriminate|]. injection E as <- <-. apply ph_c8; auto.
  - apply ph_c9; auto. right. cbn. rewrite H2. reflexivity.
  - apply ph_a1; auto.
  - apply ph_a2; auto.
  - apply ph_a3; auto. right. split; cbn; eauto.
  - destruct n as [|n]; [discriminate|]. injection E as <- <-.
    apply (ph_a4 (S n) _ 0 (repeat slot_u (S n))); auto; [apply repeat_length|lia|intros j x L; lia].
  - destruct (Nat.eq_dec i n) as [->|N]; [rewrite slots_from_n in E; discriminate|]. rewrite slots_from_S in E by lia.
    injection E as <- <-. cbn [wr]. rewrite H0. destruct (nth_error l i) as [x|] eqn:X; [|apply nth_error_None in X; lia].
    apply (ph_a5 n _ i (upd l i (mkSlot (Some WNoEp) (sl_flag x)))); auto; cbn; try rewrite upd_len; auto; try lia.
    intros j y L Y. rewrite nth_upd in Y. replace (j =? i)%nat with false in Y by (symmetry; apply Nat.eqb_neq; lia). eauto.
  - cbn [wr]. rewrite H0. destruct (nth_error l i) as [x|] eqn:X; [|apply nth_error_None in X; lia].
    apply (ph_a6 n _ i (upd l i (mkSlot (Some WLive) (sl_flag x)))); auto; cbn; try rewrite upd_len; auto.
    + intros j y L Y. rewrite nth_upd in Y. replace (j =? i)%nat with false in Y by (symmetry; apply Nat.eqb_neq; lia). eauto.
    + intros y Y. rewrite nth_upd, Nat.eqb_refl in Y. destruct (i <? length l)%nat; [|discriminate]. injection Y as <-. reflexivity.
  - cbn [wr]. rewrite H0. destruct (nth_error l i) as [x|] eqn:X; [|apply nth_error_None in X; lia].
    apply (ph_a4 n _ (S i) (upd l i (mkSlot (sl_win x) (Some false)))); auto; cbn; try rewrite upd_len; auto; try lia.
    intros j y L Y. rewrite nth_upd in Y. destruct (j =? i)%nat eqn:J.
    + destruct (i <? length l)%nat; [|discriminate]. injection Y as <-. split; cbn; eauto.
    + apply Nat.eqb_neq in J. eapply H3; [|exact Y]. lia.
  - subst t0. assert (In o (detach_prog dyn n)) as I by (rewrite H1; apply in_app_iff; right; left; reflexivity).
    destruct (detach_plain n o I) as [->|[_ W]].
    + apply (ph_d n _ (pre ++ [MCtxNull]) t); auto. rewrite H1, <- app_assoc. reflexivity.
    + destruct (W f H) as [W1 W2]. apply (ph_d n _ (pre ++ [o]) t); auto.
      * rewrite W2. exact H0.
      * rewrite H1, <- app_assoc. reflexivity.
      * intros ->. destruct (detach_last n (pre ++ [o])) as (p & Q).
        { rewrite app_nil_r, H1. reflexivity. }
        apply app_inj_tail in Q as [_ ->]. reflexivity.
  - apply ph_x4.
Qed.
End P.
