(** Stopping the progress thread: invariant, progress, what is handled. *)
From Verif Require Import Base StopModel StopSpec.

Definition hw (h : shdr) : bool := match h with HWork _ => true | HTerm => false end.
Definition allowed (m : mpc) (t : tpc) : bool :=
  match t with
  | TNone => match m with MRun | MWait | MEnd => true | _ => false end
  | TPoll => match m with MRun | MLock | MTest | MSleep => true | _ => false end
  | TLock => match m with MLock | MTest | MSleep => true | _ => false end
  | TSet | TUnlock => match m with MLock | MSleep => true | _ => false end
  | TSignal | TGone => match m with MRun | MWait => false | _ => true end
  end.
Definition mx_of (m : mpc) (t : tpc) : option who :=
  match m with
  | MTest | MUnlock => Some WM
  | _ => match t with TSet | TUnlock => Some WT | _ => None end
  end.
Definition done_of (t : tpc) : bool := match t with TUnlock | TSignal | TGone => true | _ => false end.
Definition cd_of (m : mpc) (t : tpc) : bool := match t with TNone => false | _ => match m with MMutD | MEnd => true | _ => false end end.
Definition md_of (m : mpc) (t : tpc) : bool := match t with TNone => false | _ => match m with MEnd => true | _ => false end end.
Definition sleepy (m : mpc) (t : tpc) : bool := match m, t with MSleep, TGone => false | MSleep, _ => true | _, _ => false end.
Definition hasterm (m : mpc) (t : tpc) : bool :=
  match t with TNone => match m with MWait => true | _ => false end | TPoll => match m with MRun => false | _ => true end | _ => false end.
Definition nolost (m : mpc) (t : tpc) : bool := match m, t with MEnd, TNone => false | _, _ => true end.
Record SI (s : sst) : Prop := {
  si_ok : allowed (s_m s) (s_t s) = true;
  si_mx : s_mx s = mx_of (s_m s) (s_t s);
  si_done : s_done s = done_of (s_t s);
  si_cd : s_cd s = cd_of (s_m s) (s_t s);
  si_md : s_md s = md_of (s_m s) (s_t s);
  si_sleep : s_asleep s = true -> sleepy (s_m s) (s_t s) = true;
  si_run : s_m s = MRun -> forallb hw (s_q s) = true;
  si_term : hasterm (s_m s) (s_t s) = true -> In HTerm (s_q s);
  si_lost : nolost (s_m s) (s_t s) = true -> s_lost s = []
}.
Lemma SI0 async : SI (sst0 async).
Proof. split; destruct async; cbn; try reflexivity; discriminate. Qed.

Ltac cs := cbn [s_q s_handled s_lost s_mx s_done s_asleep s_cd s_md s_m s_t to_m to_t allowed mx_of done_of cd_of md_of sleepy hasterm nolost] in *.
Ltac ez := cs; try reflexivity; try discriminate; try assumption; auto; try congruence.
Lemma SI_step s x s' : SI s -> sstep s x = Some (Ok s') -> SI s'.
Proof.
  destruct s as [q hd lo mx dn sl cd md m t]. intros I E. destruct I as [A B C D F G H K L]. cs. subst mx dn cd md.
  destruct x; cbn [sstep] in E; cs.
  - assert (s' = mkS (q ++ [HWork n]) hd lo (mx_of m t) (done_of t) sl (cd_of m t) (md_of m t) m t) as -> by (destruct m; congruence). clear E.
    split; ez.
    + intros R. rewrite forallb_app, (H R). reflexivity.
    + intros R. apply in_app_iff. left. auto.
  - destruct t; try discriminate. destruct m; try discriminate. destruct q as [|[n|] q]; try discriminate.
    injection E as <-. split; ez.
  - destruct m; try discriminate E; destruct t; try discriminate A; cs;
      try (destruct sl; try discriminate E); try (destruct q as [|[n|] q]; try discriminate E);
      try discriminate E; try (injection E as <-; split; ez).
    all: intros _; first [left; reflexivity|right; apply in_app_iff; right; left; reflexivity].
  - destruct t; try discriminate E; destruct m; try discriminate A; cs; try discriminate E;
      try (destruct q as [|[n|] q]; try discriminate E); try (injection E as <-; split; ez).
    all: try (intros T; destruct (K T) as [Q|Q]; [discriminate|exact Q]).
    all: try (specialize (H eq_refl); discriminate H).
  - destruct sl; [|discriminate]. injection E as <-. split; ez.
Qed.
Lemma SI_run xs : forall s s', SI s -> srun s xs = Some (Ok s') -> SI s'.
Proof.
  induction xs as [|x xs IH]; intros s s' I E; cbn [srun] in E; [injection E as <-; exact I|].
  destruct (sstep s x) as [[s1| | |]|] eqn:S; try discriminate. eapply IH; [|exact E]. eapply SI_step; eauto.
Qed.

(** The only thing that can go wrong. *)
Lemma step_fault s x r : SI s -> sstep s x = Some r -> (exists s', r = Ok s') \/ (r = UB /\ x = GT /\ s_t s = TSignal /\ s_cd s = true).
Proof.
  destruct s as [q hd lo mx dn sl cd md m t]. intros I E. destruct I as [A B C D F G H K L]. cs. subst mx dn cd md.
  destruct x; cbn [sstep] in E; cs.
  - destruct m; try discriminate E; injection E as <-; left; eauto.
  - destruct t; try discriminate; destruct m; try discriminate; destruct q as [|[k|] q]; try discriminate; injection E as <-; left; eauto.
  - destruct m; try discriminate E; destruct t; try discriminate A; cs;
      try (destruct sl; try discriminate E; try discriminate (G eq_refl)); try (destruct q as [|[k|] q]; try discriminate E);
      try discriminate E; injection E as <-; left; eauto.
  - destruct t; try discriminate E; destruct m; try discriminate A; cs; try discriminate E;
      try (destruct q as [|[k|] q]; try discriminate E); injection E as <-; first [left; eexists; reflexivity|right; auto].
  - destruct sl; [|discriminate]. injection E as <-. left; eauto.
Qed.
Lemma run_fault xs : forall s r, SI s -> srun s xs = Some r -> (exists s', r = Ok s') \/
  (r = UB /\ exists ys s' zs, xs = ys ++ GT :: zs /\ srun s ys = Some (Ok s') /\ s_t s' = TSignal /\ s_cd s' = true).
Proof.
  induction xs as [|x xs IH]; intros s r I E; cbn [srun] in E; [injection E as <-; left; eauto|].
  destruct (sstep s x) as [o|] eqn:S; [|discriminate].
  destruct (step_fault s x o I S) as [(s1 & ->)|(-> & -> & T & C)].
  - assert (I1 := SI_step _ _ _ I S). destruct (IH s1 r I1 E) as [Q|(-> & ys & s' & zs & -> & Y & T & C)]; [left; exact Q|right].
    split; [reflexivity|]. exists (x :: ys), s', zs. split; [reflexivity|]. cbn [srun]. rewrite S. auto.
  - injection E as <-. right. split; [reflexivity|]. exists [], s, xs. auto.
Qed.
(** In the safe order nothing goes wrong. *)
Lemma waits_ok xs : forall s r, SI s -> (s_cd s = true -> s_t s = TGone) -> waits s xs -> srun s xs = Some r -> exists s', r = Ok s'.
Proof.
  induction xs as [|x xs IH]; intros s r I G W E; cbn [srun waits] in *; [injection E as <-; eauto|].
  destruct W as [W1 W2]. destruct (sstep s x) as [o|] eqn:S; [|discriminate].
  destruct (step_fault s x o I S) as [(s1 & ->)|(-> & -> & T & C)].
  - apply (IH s1 r); auto; [eapply SI_step; eauto|].
    intros C1. assert (s_t s = TGone) as TG.
    { destruct (s_cd s) eqn:C; [auto|]. destruct x; cbn [sstep] in S.
      - destruct (s_m s); try discriminate; injection S as <-; cbn in C1; congruence.
      - destruct (s_t s), (s_m s), (s_q s) as [|[]]; try discriminate; injection S as <-; cbn in C1; congruence.
      - destruct (s_m s) eqn:M.
        + injection S as <-. cbn in C1. congruence.
        + destruct (s_mx s); [discriminate|]. destruct (s_md s); [discriminate|]. injection S as <-. cbn in C1. congruence.
        + destruct (s_done s); [injection S as <-; cbn in C1; congruence|]. destruct (s_cd s || s_md s); [discriminate|]. injection S as <-. cbn in C1. congruence.
        + destruct (s_asleep s), (s_mx s), (s_md s); try discriminate; injection S as <-; cbn in C1; congruence.
        + destruct (s_md s); [discriminate|]. injection S as <-; cbn in C1; congruence.
        + apply W1; reflexivity.
        + destruct (s_mx s); [discriminate|]. injection S as <-; cbn in C1; congruence.
        + destruct (s_q s) as [|[]]; try discriminate; injection S as <-; cbn in C1; congruence.
        + discriminate.
      - destruct (s_t s); try discriminate.
        + destruct (s_m s), (s_q s) as [|[]]; try discriminate; injection S as <-; cbn in C1; congruence.
        + destruct (s_mx s), (s_md s); try discriminate; injection S as <-; cbn in C1; congruence.
        + injection S as <-; cbn in C1; congruence.
        + destruct (s_md s); [discriminate|]. injection S as <-; cbn in C1; congruence.
        + destruct (s_cd s); [discriminate|]. injection S as <-; cbn in C1; congruence.
      - destruct (s_asleep s); [|discriminate]. injection S as <-; cbn in C1; congruence. }
    assert (N : s_t s1 = s_t s); [|congruence].
    destruct x; cbn [sstep] in S.
    + destruct (s_m s); try discriminate; injection S as <-; reflexivity.
    + rewrite TG in S. discriminate.
    + destruct (s_m s); try discriminate.
      * injection S as <-. reflexivity.
      * destruct (s_mx s), (s_md s); try discriminate; injection S as <-; reflexivity.
      * destruct (s_done s); [injection S as <-; reflexivity|]. destruct (s_cd s || s_md s); [discriminate|]. injection S as <-. reflexivity.
      * destruct (s_asleep s), (s_mx s), (s_md s); try discriminate; injection S as <-; reflexivity.
      * destruct (s_md s); [discriminate|]. injection S as <-; reflexivity.
      * destruct (s_asleep s); [discriminate|]. injection S as <-; reflexivity.
      * destruct (s_mx s); [discriminate|]. injection S as <-; reflexivity.
      * destruct (s_q s) as [|[]]; try discriminate; injection S as <-; reflexivity.
    + rewrite TG in S. discriminate.
    + destruct (s_asleep s); [|discriminate]. injection S as <-. reflexivity.
  - rewrite (G C) in T. discriminate.
Qed.

(** The two threads come to an end. *)
Definition mrank (m : mpc) (sl : bool) : nat :=
  match m with
  | MRun => 30 | MLock => 8 | MTest => 7 | MSleep => if sl then 6 else 8
  | MUnlock => 5 | MCondD => 4 | MMutD => 3 | MWait => 1 | MEnd => 0
  end.
Definition trank (t : tpc) (q : list shdr) : nat :=
  match t with TNone => 0 | TPoll => 5 + length q | TLock => 4 | TSet => 3 | TUnlock => 2 | TSignal => 1 | TGone => 0 end.
Definition work (s : sst) : nat := 10 * trank (s_t s) (s_q s) + mrank (s_m s) (s_asleep s).
Lemma work_step s x s' : SI s -> own x -> sstep s x = Some (Ok s') -> (work s' < work s)%nat.
Proof.
  destruct s as [q hd lo mx dn sl cd md m t]. intros I O E. destruct I as [A B C D F G H K L]. cs. subst mx dn cd md.
  destruct O as [-> | ->]; cbn [sstep] in E; cs.
  - destruct m; try discriminate E; destruct t; try discriminate A; cs;
      try (destruct sl; try discriminate E); try (destruct q as [|[k|] q]; try discriminate E);
      try discriminate E; injection E as <-; unfold work; cbn; try rewrite app_length; cbn; lia.
  - destruct t; try discriminate E; destruct m; try discriminate A; cs; try discriminate E;
      try (destruct q as [|[k|] q]; try discriminate E); try discriminate E; injection E as <-; unfold work; cbn; try destruct sl; lia.
Qed.
Lemma work_run ys : forall s s', SI s -> Forall own ys -> srun s ys = Some (Ok s') -> (length ys + work s' <= work s)%nat.
Proof.
  induction ys as [|y ys IH]; intros s s' I O E; cbn [srun] in E; [injection E as <-; cbn; lia|].
  inversion O as [|? ? O1 O2]; subst. destruct (sstep s y) as [[s1| | |]|] eqn:S; try discriminate.
  assert (W := work_step _ _ _ I O1 S). assert (I1 := SI_step _ _ _ I S). specialize (IH _ _ I1 O2 E). cbn [length]. lia.
Qed.
Lemma stuck_end s : SI s -> sstep s GM = None -> sstep s GT = None -> s_m s = MEnd /\ (s_t s = TGone \/ s_t s = TNone).
Proof.
  destruct s as [q hd lo mx dn sl cd md m t]. intros I E1 E2. destruct I as [A B C D F G H K L]. cs. subst mx dn cd md.
  cbn [sstep] in E1, E2. cs.
  destruct m; try discriminate E1; destruct t; try discriminate A; cs; try discriminate E1; try discriminate E2; auto;
    try (destruct q as [|[k|] q]; try discriminate E1; try discriminate E2; destruct (K eq_refl));
    try (destruct sl; try discriminate E1; discriminate (G eq_refl)).
Qed.

(** What is handled. *)
Fixpoint until_term (q : list shdr) : list Z := match q with HWork n :: r => n :: until_term r | _ => [] end.
Definition pend (s : sst) : list Z := 
  match s_t s with
  | TPoll => until_term (s_q s)
  | TNone => match s_m s, s_lost s with MEnd, [] => [] | _, _ => until_term (s_q s) end
  | _ => []
  end.
Lemma until_app q n : forallb hw q = true -> until_term (q ++ [HWork n]) = until_term q ++ [n].
Proof. induction q as [|[k|] q IH]; cbn; intros H; [reflexivity|rewrite IH by exact H; reflexivity|discriminate]. Qed.
Lemma until_app2 q h : In HTerm q -> until_term (q ++ [h]) = until_term q.
Proof. induction q as [|[k|] q IH]; cbn; [tauto| |reflexivity]. intros [H|H]; [discriminate|]. rewrite IH by exact H. reflexivity. Qed.
Lemma until_term_app q : until_term (q ++ [HTerm]) = until_term q.
Proof. induction q as [|[k|] q IH]; cbn; [reflexivity|rewrite IH|]; reflexivity. Qed.
Definition seen (s : sst) : list Z := s_handled s ++ s_lost s ++ pend s.
Definition arr (s : sst) (x : slab) : list Z := match s_m s, x with MRun, GArrive n => [n] | _, _ => [] end.
(** Without progress thread nothing more is counted once TERMINATE was received or a header was dropped. *)
Lemma seen_step s x s' : SI s -> (s_t s = TNone -> s_m s <> MEnd) -> sstep s x = Some (Ok s') -> seen s' = seen s ++ arr s x.
Proof.
  destruct s as [q hd lo mx dn sl cd md m t]. intros I NE E. destruct I as [A B C D F G H K L]. cs. subst mx dn cd md.
  unfold seen, pend, arr. destruct x; cbn [sstep] in E; cs.
  - assert (s' = mkS (q ++ [HWork n]) hd lo (mx_of m t) (done_of t) sl (cd_of m t) (md_of m t) m t) as -> by (destruct m; congruence). clear E.
    cs. destruct m; cs.
    1: { destruct t; try discriminate A; rewrite until_app by (apply H; reflexivity); rewrite !app_assoc; reflexivity. }
    all: rewrite app_nil_r; destruct t; try discriminate A; try reflexivity; try (rewrite until_app2 by (apply K; reflexivity); reflexivity).
    exfalso. apply NE; reflexivity.
  - destruct t; try discriminate. destruct m; try discriminate. destruct q as [|[n|] q]; try discriminate.
    injection E as <-. cs. rewrite (L eq_refl), app_nil_r. cbn [until_term app]. rewrite <- app_assoc. reflexivity.
  - destruct m; rewrite app_nil_r || (destruct t; discriminate); destruct t; try discriminate A; cs; try discriminate E;
      try (rewrite (L eq_refl) in * ); try (destruct sl; try discriminate E);
      try (destruct q as [|[n|] q]; try discriminate E); try discriminate E; injection E as <-; cs;
      try (rewrite until_term_app); try (rewrite (L eq_refl)); cbn [until_term app]; rewrite ?until_term_app, ?app_nil_r; try reflexivity.
  - destruct m; rewrite app_nil_r; destruct t; try discriminate A; cs; try discriminate E;
      try (destruct q as [|[n|] q]; try discriminate E); try discriminate E; injection E as <-; cs;
      rewrite (L eq_refl); cbn [until_term app]; rewrite <- ?app_assoc; reflexivity.
  - destruct sl; [|discriminate]. injection E as <-. cs. destruct m; rewrite app_nil_r; reflexivity.
Qed.
Lemma mrun_step s x s' : s_m s = MRun -> sstep s x = Some (Ok s') -> (s_m s' = MRun <-> x <> GM).
Proof.
  intros M E. destruct x; cbn [sstep] in E; rewrite ?M in E.
  - injection E as <-. cbn. split; congruence.
  - destruct (s_t s); try discriminate. destruct (s_q s) as [|[]]; try discriminate. injection E as <-. cbn. split; congruence.
  - injection E as <-. cbn. destruct (s_t s); split; congruence.
  - destruct (s_t s); try discriminate.
    + destruct (s_q s) as [|[]]; try discriminate; injection E as <-; cbn; split; congruence.
    + destruct (s_mx s), (s_md s); try discriminate; injection E as <-; cbn; split; congruence.
    + injection E as <-; cbn; split; congruence.
    + destruct (s_md s); try discriminate; injection E as <-; cbn; split; congruence.
    + destruct (s_cd s); try discriminate; injection E as <-; cbn; split; congruence.
  - destruct (s_asleep s); try discriminate. injection E as <-. cbn. split; congruence.
Qed.
Lemma past_step s x s' : s_m s <> MRun -> sstep s x = Some (Ok s') -> s_m s' <> MRun.
Proof.
  intros M E. destruct x; cbn [sstep] in E.
  - destruct (s_m s); try discriminate; injection E as <-; cbn; congruence.
  - destruct (s_t s), (s_m s), (s_q s) as [|[]]; try discriminate; injection E as <-; cbn; congruence.
  - destruct (s_m s) eqn:MM.
    + congruence.
    + destruct (s_mx s), (s_md s); try discriminate; injection E as <-; cbn; congruence.
    + destruct (s_done s), (s_cd s || s_md s); try discriminate; injection E as <-; cbn; congruence.
    + destruct (s_asleep s), (s_mx s), (s_md s); try discriminate; injection E as <-; cbn; congruence.
    + destruct (s_md s); try discriminate; injection E as <-; cbn; congruence.
    + destruct (s_asleep s); try discriminate; injection E as <-; cbn; congruence.
    + destruct (s_mx s); try discriminate; injection E as <-; cbn; congruence.
    + destruct (s_q s) as [|[]]; try discriminate; injection E as <-; cbn; congruence.
    + discriminate.
  - destruct (s_t s); try discriminate.
    + destruct (s_m s), (s_q s) as [|[]]; try discriminate; injection E as <-; cbn; congruence.
    + destruct (s_mx s), (s_md s); try discriminate; injection E as <-; cbn; congruence.
    + injection E as <-; cbn; congruence.
    + destruct (s_md s); try discriminate; injection E as <-; cbn; congruence.
    + destruct (s_cd s); try discriminate; injection E as <-; cbn; congruence.
  - destruct (s_asleep s); try discriminate; injection E as <-; cbn; congruence.
Qed.
(** Once the thread without progress thread is through, nothing changes any more. *)
Lemma end_step s x s' : s_t s = TNone -> s_m s = MEnd -> SI s -> sstep s x = Some (Ok s') -> False.
Proof.
  intros T M I E. destruct x; cbn [sstep] in E; rewrite ?T, ?M in E; try discriminate.
  destruct (s_asleep s) eqn:A; [|discriminate]. generalize (si_sleep _ I A). rewrite M. discriminate.
Qed.
Lemma seen_run xs : forall s s', SI s -> srun s xs = Some (Ok s') ->
  seen s' = seen s ++ match s_m s with MRun => before_term xs | _ => [] end.
Proof.
  induction xs as [|x xs IH]; intros s s' I E; cbn [srun] in E.
  - injection E as <-. cbn. destruct (s_m s); rewrite app_nil_r; reflexivity.
  - destruct (sstep s x) as [[s1| | |]|] eqn:S; try discriminate.
    assert (I1 := SI_step _ _ _ I S). specialize (IH _ _ I1 E).
    assert (NE : s_t s = TNone -> s_m s <> MEnd) by (intros T M; eapply end_step; eauto).
    assert (Q := seen_step _ _ _ I NE S). rewrite IH, Q.
    destruct (s_m s) eqn:M.
    1: { assert (R := mrun_step s x s1 M S). unfold arr. rewrite M. destruct x.
         - rewrite (proj2 R) by discriminate. rewrite <- app_assoc. reflexivity.
         - rewrite (proj2 R) by discriminate. rewrite <- app_assoc. reflexivity.
         - assert (s_m s1 <> MRun) by (intros Q1; apply R in Q1; congruence). cbn [before_term].
           destruct (s_m s1); try congruence; rewrite !app_nil_r; reflexivity.
         - rewrite (proj2 R) by discriminate. rewrite <- app_assoc. reflexivity.
         - rewrite (proj2 R) by discriminate. rewrite <- app_assoc. reflexivity. }
    all: assert (s_m s1 <> MRun) by (eapply past_step; [|exact S]; congruence);
         unfold arr; rewrite M; destruct (s_m s1); try congruence; rewrite !app_nil_r; reflexivity.
Qed.
Lemma tnone_step s x s' : sstep s x = Some (Ok s') -> (s_t s' = TNone <-> s_t s = TNone).
Proof.
  intros E. destruct x; cbn [sstep] in E.
  - destruct (s_m s); try discriminate; injection E as <-; reflexivity.
  - destruct (s_t s), (s_m s), (s_q s) as [|[]]; try discriminate; injection E as <-; cbn; tauto.
  - destruct (s_m s); try discriminate;
      try (destruct (s_mx s), (s_md s); try discriminate; injection E as <-; reflexivity);
      try (destruct (s_asleep s), (s_mx s), (s_md s); try discriminate; injection E as <-; reflexivity);
      try (destruct (s_done s), (s_cd s || s_md s); try discriminate; injection E as <-; reflexivity);
      try (destruct (s_q s) as [|[]]; try discriminate; injection E as <-; reflexivity).
  - destruct (s_t s) eqn:T; try discriminate.
    + destruct (s_m s), (s_q s) as [|[]]; try discriminate; injection E as <-; cbn; split; discriminate.
    + destruct (s_mx s), (s_md s); try discriminate; injection E as <-; cbn; split; discriminate.
    + injection E as <-; cbn; split; discriminate.
    + destruct (s_md s); try discriminate; injection E as <-; cbn; split; discriminate.
    + destruct (s_cd s); try discriminate; injection E as <-; cbn; split; discriminate.
  - destruct (s_asleep s); try discriminate; injection E as <-; reflexivity.
Qed.
Lemma tnone_run xs : forall s s', srun s xs = Some (Ok s') -> (s_t s' = TNone <-> s_t s = TNone).
Proof.
  induction xs as [|x xs IH]; intros s s' E; cbn [srun] in E; [injection E as <-; reflexivity|].
  destruct (sstep s x) as [[s1| | |]|] eqn:S; try discriminate. rewrite (IH _ _ E). eapply tnone_step; eauto.
Qed.
