(** Proofs about barriers and collective allocation. *)
From Coq Require Import Sorting.Sorted.
From Verif Require Import Base BaseProofs ListLib SchedModel SchedSpec.
Open Scope nat_scope.
Open Scope list_scope.

(** ** Barriers *)
Section Machine.
Context {A : Type}.
Notation event := (nat * nat * A)%type.

Fixpoint acts (e : nat) (l : list (ins A)) : list (nat * A) :=
  match l with
  | [] => []
  | IBar :: l => acts (S e) l
  | IAct a :: l => (e, a) :: acts e l
  end.
Fixpoint bars (l : list (ins A)) : nat :=
  match l with [] => 0 | IBar :: l => S (bars l) | IAct _ :: l => bars l end.
Fixpoint proj (p : nat) (tr : list event) : list (nat * A) :=
  match tr with
  | [] => []
  | (q, e, a) :: tr => if q =? p then (e, a) :: proj p tr else proj p tr
  end.
Lemma proj_app p a b : proj p (a ++ b) = proj p a ++ proj p b.
Proof. induction a as [|((q & e) & x) a IH]; cbn; auto. destruct (q =? p); cbn; now rewrite IH. Qed.
Lemma proj_in p e a tr : In (e, a) (proj p tr) <-> In (p, e, a) tr.
Proof.
  induction tr as [|((q & f) & x) tr IH]; cbn; [tauto|].
  destruct (Nat.eqb_spec q p) as [->|Hn]; cbn [In]; rewrite IH.
  - split; intros [H|H]; auto; left; congruence.
  - split; auto. intros [H|H]; auto. congruence.
Qed.
Lemma acts_app e a b : acts e (a ++ b) = acts e a ++ acts (e + bars a) b.
Proof.
  revert e. induction a as [|[|x] a IH]; intros e; cbn; auto.
  - now rewrite Nat.add_0_r.
  - rewrite IH. now replace (S e + bars a) with (e + S (bars a)) by lia.
  - now rewrite IH.
Qed.
Lemma acts_ge l : forall e f a, In (f, a) (acts e l) -> e <= f.
Proof.
  induction l as [|[|x] l IH]; cbn; intros e f a H; [tauto| |].
  - apply IH in H. lia.
  - destruct H as [H|H]; [inversion H; lia|]. now apply IH in H.
Qed.
Lemma bars_app a b : bars (a ++ b) = bars a + bars b.
Proof. induction a as [|[|x] a IH]; cbn; lia. Qed.

Definition low (x : pe A) : nat := if waiting x then ent x - 1 else ent x.
Record inv (ps : list (list (ins A))) (st : list (pe A)) (tr : list event) : Prop := {
  i_len : length st = length ps;
  i_prog : forall p l x, nth_error ps p = Some l -> nth_error st p = Some x ->
    acts 0 l = proj p tr ++ acts (ent x) (prog x);
  i_low : forall x y, In x st -> In y st -> low x <= ent y;
  i_ev : forall p e a y, In (p, e, a) tr -> In y st -> e <= ent y;
  i_pe : forall p e a, In (p, e, a) tr -> p < length ps;
  i_sort : StronglySorted (fun x y : event => snd (fst x) <= snd (fst y)) tr;
  i_bars : forall p l x, nth_error ps p = Some l -> nth_error st p = Some x ->
    bars l = ent x + bars (prog x)
}.
Lemma inv_init ps : inv ps (sinit ps) [].
Proof.
  constructor; cbn; auto; try tauto; try constructor.
  - unfold sinit. now rewrite map_length.
  - intros p l x Hp Hx. unfold sinit in Hx. rewrite nth_error_map, Hp in Hx. cbn in Hx.
    inversion Hx. reflexivity.
  - intros x y Hx Hy. unfold sinit in *. rewrite in_map_iff in Hx, Hy.
    destruct Hx as (? & <- & _), Hy as (? & <- & _). cbn. lia.
  - intros p l x Hp Hx. unfold sinit in Hx. rewrite nth_error_map, Hp in Hx. cbn in Hx.
    inversion Hx. reflexivity.
Qed.
Lemma nth_upd {B} (l : list B) i x j :
  nth_error (upd l i x) j =
  if (i =? j) && (i <? length l) then Some x else nth_error l j.
Proof.
  revert i j. induction l as [|y l IH]; intros [|i] [|j]; cbn; auto.
  - now rewrite andb_false_r.
  - rewrite IH. reflexivity.
Qed.
Lemma in_upd {B} (l : list B) i x y : In y (upd l i x) -> y = x \/ In y l.
Proof.
  revert i. induction l as [|z l IH]; intros [|i]; cbn; auto.
  - intros [H|H]; auto.
  - intros [H|H]; auto. apply IH in H. tauto.
Qed.
Lemma nth_in_upd {B} (l : list B) i x y : nth_error l i = Some y -> In x (upd l i x).
Proof. intros H. apply nth_error_In with i. rewrite nth_upd, Nat.eqb_refl.
  assert (K : i < length l) by (apply nth_error_Some; congruence).
  apply Nat.ltb_lt in K. now rewrite K. Qed.
Lemma sorted_snoc {B} (R : B -> B -> Prop) l x :
  StronglySorted R l -> Forall (fun y => R y x) l -> StronglySorted R (l ++ [x]).
Proof.
  induction 1 as [|y l S IH F]; intros H; cbn.
  - constructor; constructor.
  - inversion H; subst. constructor; auto. apply Forall_app. auto.
Qed.
Lemma inv_step ps st tr p st' t : inv ps st tr -> sstep st p = (st', t) -> inv ps st' (tr ++ t).
Proof.
  intros I E. unfold sstep in E. destruct (nth_error st p) as [x|] eqn:Ex.
  2: { inversion E; subst. now rewrite app_nil_r. }
  assert (Hx : In x st) by (eapply nth_error_In; eauto).
  assert (Hlen : p < length st) by (apply nth_error_Some; congruence).
  assert (Hlt : (p <? length st) = true) by (now apply Nat.ltb_lt).
  destruct I as [I1 I2 I3 I4 I5 I6 I7].
  destruct (waiting x) eqn:Ew.
  - destruct (forallb (fun y => ent x <=? ent y) st) eqn:Ef; inversion E; subst; rewrite app_nil_r;
      [|constructor; auto].
    rewrite forallb_forall in Ef. constructor; auto.
    + now rewrite upd_length.
    + intros q l y Hq Hy. rewrite nth_upd, Hlt, andb_true_r in Hy.
      destruct (Nat.eqb_spec p q) as [<-|Hn]; [inversion Hy; subst; cbn|]; eauto.
    + intros y z Hy Hz. apply in_upd in Hy, Hz.
      destruct Hy as [->|Hy], Hz as [->|Hz]; cbn; auto.
      apply Ef in Hz. now apply Nat.leb_le in Hz.
    + intros q e a y Hq Hy. apply in_upd in Hy. destruct Hy as [->|Hy]; cbn; eauto.
    + intros q l y Hq Hy. rewrite nth_upd, Hlt, andb_true_r in Hy.
      destruct (Nat.eqb_spec p q) as [<-|Hn]; [inversion Hy; subst; cbn|]; eauto.
  - destruct (prog x) as [|[|a] r] eqn:Er; inversion E; subst.
    + rewrite app_nil_r. constructor; auto.
    + rewrite app_nil_r. constructor; auto.
      * now rewrite upd_length.
      * intros q l y Hq Hy. rewrite nth_upd, Hlt, andb_true_r in Hy.
        destruct (Nat.eqb_spec p q) as [<-|Hn]; [inversion Hy; subst; cbn|]; eauto.
        rewrite (I2 _ _ _ Hq Ex), Er. reflexivity.
      * intros y z Hy Hz. apply in_upd in Hy, Hz.
        assert (Lx : forall z, In z st -> ent x <= ent z).
        { intros z0 Hz0. specialize (I3 _ _ Hx Hz0). unfold low in I3. now rewrite Ew in I3. }
        destruct Hy as [->|Hy], Hz as [->|Hz]; cbn [low waiting ent].
        -- unfold low. cbn. lia.
        -- unfold low. cbn. specialize (Lx _ Hz). lia.
        -- specialize (I3 _ _ Hy Hx). lia.
        -- auto.
      * intros q e b y Hq Hy. apply in_upd in Hy. destruct Hy as [->|Hy]; cbn; eauto.
      * intros q l y Hq Hy. rewrite nth_upd, Hlt, andb_true_r in Hy.
        destruct (Nat.eqb_spec p q) as [<-|Hn]; [inversion Hy; subst; cbn|]; eauto.
        rewrite (I7 _ _ _ Hq Ex), Er. cbn. lia.
    + assert (Lx : forall z, In z st -> ent x <= ent z).
      { intros z0 Hz0. specialize (I3 _ _ Hx Hz0). unfold low in I3. now rewrite Ew in I3. }
      constructor.
      * now rewrite upd_length.
      * intros q l y Hq Hy. rewrite nth_upd, Hlt, andb_true_r in Hy. rewrite proj_app. cbn.
        destruct (Nat.eqb_spec p q) as [<-|Hn]; [inversion Hy; subst; cbn|].
        -- rewrite (I2 _ _ _ Hq Ex), Er, <- app_assoc. reflexivity.
        -- rewrite app_nil_r. eauto.
      * intros y z Hy Hz. apply in_upd in Hy, Hz.
        destruct Hy as [->|Hy], Hz as [->|Hz]; unfold low at 1; cbn [waiting ent]; auto.
        -- now apply (I3 y x).
        -- now apply I3.
      * intros q e b y Hq Hy. apply in_app_iff in Hq. apply in_upd in Hy. destruct Hq as [Hq|[Hq|[]]].
        -- destruct Hy as [->|Hy]; cbn; eauto.
        -- inversion Hq; subst. destruct Hy as [->|Hy]; cbn; auto.
      * intros q e b Hq. apply in_app_iff in Hq. destruct Hq as [Hq|[Hq|[]]]; eauto.
        inversion Hq; subst. lia.
      * apply sorted_snoc; auto. apply Forall_forall. intros ((q & e) & b) Hq. cbn. eauto.
      * intros q l y Hq Hy. rewrite nth_upd, Hlt, andb_true_r in Hy.
        destruct (Nat.eqb_spec p q) as [<-|Hn]; [inversion Hy; subst; cbn|]; eauto.
        rewrite (I7 _ _ _ Hq Ex), Er. reflexivity.
Qed.
Lemma inv_run ps sched : forall st tr st' t, inv ps st tr -> srun st sched = (st', t) ->
  inv ps st' (tr ++ t).
Proof.
  induction sched as [|p sched IH]; intros st tr st' t I E; cbn in E.
  - inversion E; subst. now rewrite app_nil_r.
  - destruct (sstep st p) as (s1 & t1) eqn:E1. destruct (srun s1 sched) as (s2 & t2) eqn:E2.
    inversion E; subst. rewrite app_assoc. eapply IH; eauto. eapply inv_step; eauto.
Qed.
Lemma run_inv ps sched st tr : srun (sinit ps) sched = (st, tr) -> inv ps st tr.
Proof. intros E. apply (inv_run ps sched _ [] _ _ (inv_init ps) E). Qed.

(** Every prefix of a trace is a trace. *)
Lemma run_prefix sched : forall (st st' : list (pe A)) t1 ev t2,
  srun st sched = (st', t1 ++ ev :: t2) ->
  exists sched1 st1 p st2, srun st sched1 = (st1, t1) /\ sstep st1 p = (st2, [ev]).
Proof.
  induction sched as [|p sched IH]; intros st st' t1 ev t2 E; cbn in E.
  - inversion E. destruct t1; discriminate.
  - destruct (sstep st p) as (s1 & u1) eqn:E1. destruct (srun s1 sched) as (s2 & u2) eqn:E2.
    inversion E; subst. clear E. rename H1 into E.
    assert (K : u1 = [] \/ exists e, u1 = [e]).
    { unfold sstep in E1. destruct (nth_error st p) as [x|]; [|inversion E1; auto].
      destruct (waiting x); [destruct (forallb _ _); inversion E1; auto|].
      destruct (prog x) as [|[|a] r]; inversion E1; eauto. }
    destruct K as [->|(e & ->)]; cbn in E.
    + subst u2. destruct (IH _ _ _ _ _ E2) as (sc & sa & q & sb & R & S).
      exists (p :: sc), sa, q, sb. cbn. rewrite E1, R. auto.
    + destruct t1 as [|e' t1]; cbn in E; inversion E; subst.
      * exists [], st, p, s1. auto.
      * destruct (IH _ _ _ _ _ E2) as (sc & sa & q & sb & R & S).
        exists (p :: sc), sa, q, sb. cbn. rewrite E1, R. auto.
Qed.
Lemma step_ev (st st' : list (pe A)) p q e a : sstep st p = (st', [(q, e, a)]) ->
  exists x, nth_error st q = Some x /\ ent x = e /\ waiting x = false.
Proof.
  unfold sstep. intros E. destruct (nth_error st p) as [x|] eqn:Ex; [|discriminate].
  destruct (waiting x) eqn:Ew; [destruct (forallb _ _); discriminate|].
  destruct (prog x) as [|[|b] r]; inversion E; subst. eauto.
Qed.
(** When an action of a later barrier epoch happens, all actions of earlier epochs of all PEs have
    happened. *)
Lemma sched_before ps sched st t1 q e' b t2 p l e a :
  srun (sinit ps) sched = (st, t1 ++ (q, e', b) :: t2) ->
  nth_error ps p = Some l -> In (e, a) (acts 0 l) -> e < e' -> In (p, e, a) t1.
Proof.
  intros E Hp Ha He. destruct (run_prefix _ _ _ _ _ _ E) as (sc & s1 & p1 & s2 & R & S).
  destruct (step_ev _ _ _ _ _ _ S) as (x & Hx & <- & Hw).
  pose proof (run_inv _ _ _ _ R) as I.
  assert (Hs : exists y, nth_error s1 p = Some y).
  { destruct (nth_error s1 p) eqn:F; eauto. apply nth_error_None in F.
    rewrite (i_len _ _ _ I) in F. assert (p < length ps) by (apply nth_error_Some; congruence). lia. }
  destruct Hs as (y & Hy). rewrite (i_prog _ _ _ I _ _ _ Hp Hy) in Ha.
  apply in_app_iff in Ha. destruct Ha as [Ha|Ha]; [now apply proj_in|].
  apply acts_ge in Ha.
  pose proof (i_low _ _ _ I x y (nth_error_In _ _ Hx) (nth_error_In _ _ Hy)) as L.
  unfold low in L. rewrite Hw in L. lia.
Qed.
(** Epochs never decrease along a trace. *)
Lemma sched_sorted ps sched st t1 (ev : event) t2 (ev' : event) :
  srun (sinit ps) sched = (st, t1 ++ ev :: t2) -> In ev' t2 -> snd (fst ev) <= snd (fst ev').
Proof.
  intros E H. pose proof (i_sort _ _ _ (run_inv _ _ _ _ E)) as S. clear E.
  induction t1 as [|x t1 IH]; cbn in S; inversion S as [|? ? S1 F]; subst; auto.
  rewrite Forall_forall in F. auto.
Qed.
Lemma trace_in ps sched st tr p e a :
  srun (sinit ps) sched = (st, tr) -> In (p, e, a) tr ->
  exists l, nth_error ps p = Some l /\ In (e, a) (acts 0 l).
Proof.
  intros E H. pose proof (run_inv _ _ _ _ E) as I. pose proof (i_pe _ _ _ I _ _ _ H) as Hp.
  destruct (nth_error ps p) as [l|] eqn:El; [|apply nth_error_None in El; lia].
  exists l. split; auto.
  destruct (nth_error st p) as [x|] eqn:Ex.
  2: { apply nth_error_None in Ex. rewrite (i_len _ _ _ I) in Ex. lia. }
  rewrite (i_prog _ _ _ I _ _ _ El Ex). apply in_app_iff. left. now apply proj_in.
Qed.

(** If all programs have the same number of barriers, a run never gets stuck. *)
Lemma min_ent (st : list (pe A)) : st <> [] -> exists p x, nth_error st p = Some x /\
  forall y, In y st -> ent x <= ent y.
Proof.
  induction st as [|x st IH]; [congruence|]. intros _.
  destruct st as [|y st]; [exists 0, x; split; auto; intros z [->|[]]; auto|].
  destruct IH as (p & z & Hz & Hm); [congruence|].
  destruct (le_lt_dec (ent x) (ent z)) as [H|H].
  - exists 0, x. split; auto. intros w [->|Hw]; auto. specialize (Hm _ Hw). lia.
  - exists (S p), z. split; auto. intros w [->|Hw]; auto. lia.
Qed.
Lemma upd_self {B} (l : list B) p x y : nth_error l p = Some x -> upd l p y = l -> y = x.
Proof.
  revert p. induction l as [|z l IH]; intros [|p]; cbn; intros H E; try discriminate.
  - inversion H; subst. now inversion E.
  - inversion E. eauto.
Qed.
Lemma not_stuck ps k sched st tr :
  (forall l, In l ps -> bars l = k) -> srun (sinit ps) sched = (st, tr) ->
  finished st \/ exists p st' t, sstep st p = (st', t) /\ st' <> st.
Proof.
  intros Hk E. pose proof (run_inv _ _ _ _ E) as I.
  destruct st as [|x0 st0] eqn:Est; [left; constructor|]. rewrite <- Est in *.
  assert (Hne : st <> []) by (rewrite Est; congruence). clear x0 st0 Est.
  destruct (min_ent st Hne) as (p & x & Hx & Hm).
  destruct (waiting x) eqn:Ew.
  - right. exists p. unfold sstep. rewrite Hx, Ew.
    assert (forallb (fun y => ent x <=? ent y) st = true) as ->.
    { apply forallb_forall. intros y Hy. apply Nat.leb_le. auto. }
    do 2 eexists. split; [reflexivity|]. intros F. apply (upd_self _ _ _ _ Hx) in F.
    rewrite <- F in Ew. discriminate.
  - destruct (prog x) as [|[|a] r] eqn:Er.
    + (* the least one has finished: all have entered all barriers, no one waits *)
      assert (Hall : forall q y, nth_error st q = Some y -> ent y = k /\ bars (prog y) = 0).
      { assert (Hkx : ent x = k).
        { destruct (nth_error ps p) as [l|] eqn:El.
          - pose proof (i_bars _ _ _ I _ _ _ El Hx) as B. rewrite Er in B. cbn in B.
            rewrite (Hk l (nth_error_In _ _ El)) in B. lia.
          - apply nth_error_None in El. rewrite <- (i_len _ _ _ I) in El.
            assert (p < length st) by (apply nth_error_Some; congruence). lia. }
        intros q y Hy. destruct (nth_error ps q) as [l|] eqn:El.
        - pose proof (i_bars _ _ _ I _ _ _ El Hy) as B.
          rewrite (Hk l (nth_error_In _ _ El)) in B.
          specialize (Hm y (nth_error_In _ _ Hy)). lia.
        - apply nth_error_None in El. rewrite <- (i_len _ _ _ I) in El.
          assert (q < length st) by (apply nth_error_Some; congruence). lia. }
      destruct (forallb (fun y => match prog y with [] => negb (waiting y) | _ => false end) st) eqn:F.
      * left. rewrite forallb_forall in F. apply Forall_forall. intros y Hy. specialize (F y Hy).
        destruct (prog y); [|discriminate]. split; auto. now destruct (waiting y).
      * right.
        assert (Hy : exists q y, nth_error st q = Some y /\
                  (match prog y with [] => negb (waiting y) | _ => false end) = false).
        { clear - F. induction st as [|z st IH]; cbn in F; [discriminate|].
          destruct (match prog z with [] => negb (waiting z) | _ => false end) eqn:G.
          - destruct (IH F) as (q & y & H1 & H2). exists (S q), y. auto.
          - exists 0, z. auto. }
        destruct Hy as (q & y & Hy & G). exists q. unfold sstep. rewrite Hy.
        destruct (waiting y) eqn:Ewy.
        -- assert (forallb (fun z => ent y <=? ent z) st = true) as ->.
           { apply forallb_forall. intros z Hz. apply Nat.leb_le.
             apply In_nth_error in Hz. destruct Hz as (i & Hz).
             destruct (Hall _ _ Hz), (Hall _ _ Hy). lia. }
           do 2 eexists. split; [reflexivity|]. intros U. apply (upd_self _ _ _ _ Hy) in U.
           rewrite <- U in Ewy. discriminate.
        -- destruct (Hall _ _ Hy) as (_ & B). destruct (prog y) as [|[|b] r'] eqn:Ey; cbn in B, G;
             [discriminate|lia|].
           do 2 eexists. split; [reflexivity|]. intros U. apply (upd_self _ _ _ _ Hy) in U.
           rewrite <- U in Ey. cbn in Ey. apply (f_equal (@length _)) in Ey. cbn in Ey. lia.
    + right. exists p. unfold sstep. rewrite Hx, Ew, Er. do 2 eexists. split; [reflexivity|].
      intros U. apply (upd_self _ _ _ _ Hx) in U. rewrite <- U in Ew. discriminate.
    + right. exists p. unfold sstep. rewrite Hx, Ew, Er. do 2 eexists. split; [reflexivity|].
      intros U. apply (upd_self _ _ _ _ Hx) in U. rewrite <- U in Er. cbn in Er.
      apply (f_equal (@length _)) in Er. cbn in Er. lia.
Qed.
End Machine.

(** ** Collective allocation *)
Definition cbars (c : mcall) : nat :=
  match c with
  | CMalloc size => if (size =? 0)%Z then 0 else 1
  | CCalloc count size => if (count =? 0)%Z || (size =? 0)%Z then 0 else 1
  | CUser _ => 0
  | _ => 1
  end.
Lemma bars_user (j : nat) l : bars (map (fun '(blk, q, v) => IAct (j, APut blk q v)) l) = 0.
Proof. induction l as [|((b & q) & v) l IH]; cbn; auto. Qed.
Lemma bars_expand j p c : bars (expand j p c) = cbars c.
Proof.
  destruct c; cbn; auto.
  - now destruct (size =? 0)%Z.
  - now destruct ((count =? 0)%Z || (size =? 0)%Z).
  - apply bars_user.
Qed.
Fixpoint tbars (cs : list mcall) : nat := match cs with [] => 0 | c :: cs => cbars c + tbars cs end.
Lemma bars_program cs : forall j p, bars (program j p cs) = tbars cs.
Proof.
  induction cs as [|c cs IH]; intros j p; cbn; auto. now rewrite bars_app, bars_expand, IH.
Qed.
(** Where the actions of a program come from. *)
Lemma acts_program cs : forall j p e f i a, In (f, (i, a)) (acts e (program j p cs)) <->
  exists c, j <= i /\ nth_error cs (i - j) = Some c /\
    In (f, (i, a)) (acts (e + tbars (firstn (i - j) cs)) (expand i p c)).
Proof.
  assert (Hidx : forall c j p e f i a, In (f, (i, a)) (acts e (expand j p c)) -> i = j).
  { intros c j p e f i a. destruct c; cbn.
    - destruct (size =? 0)%Z; cbn; intuition congruence.
    - intuition congruence.
    - destruct ((count =? 0)%Z || (size =? 0)%Z); cbn; intuition congruence.
    - intuition congruence.
    - intuition congruence.
    - intuition congruence.
    - intuition congruence.
    - induction (f0 p) as [|((b & q) & v) l IH]; cbn; [tauto|]. intros [H|H]; [congruence|auto]. }
  induction cs as [|c cs IH]; intros j p e f i a; cbn [program acts].
  - split; [intros []|]. intros (c & _ & H & _). destruct (i - j); discriminate.
  - rewrite acts_app, in_app_iff, bars_expand, IH. split.
    + intros [H|(c' & Hi & Hn & H)].
      * assert (i = j) by eauto. subst. exists c. rewrite Nat.sub_diag. cbn. rewrite Nat.add_0_r. auto.
      * exists c'. replace (i - j) with (S (i - S j)) by lia. cbn [nth_error firstn tbars].
        rewrite Nat.add_assoc. split; [lia|]. auto.
    + intros (c' & Hi & Hn & H). destruct (Nat.eq_dec i j) as [->|Hne].
      * left. rewrite Nat.sub_diag in *. cbn in *. rewrite Nat.add_0_r in H. inversion Hn; subst. auto.
      * right. exists c'. replace (i - j) with (S (i - S j)) in * by lia. cbn [nth_error firstn tbars] in *.
        rewrite Nat.add_assoc in H. split; [lia|]. auto.
Qed.
Lemma acts_expand_le c : forall e j p f i a, In (f, (i, a)) (acts e (expand j p c)) ->
  e <= f <= e + cbars c.
Proof.
  intros e j p f i a. destruct c; cbn.
  - destruct (size =? 0)%Z; cbn; intuition (try congruence);
      match goal with H : (_, _) = (_, _) |- _ => inversion H; lia end.
  - intuition (try congruence); match goal with H : (_, _) = (_, _) |- _ => inversion H; lia end.
  - destruct ((count =? 0)%Z || (size =? 0)%Z); cbn; intuition (try congruence);
      match goal with H : (_, _) = (_, _) |- _ => inversion H; lia end.
  - intuition (try congruence); match goal with H : (_, _) = (_, _) |- _ => inversion H; lia end.
  - intuition (try congruence); match goal with H : (_, _) = (_, _) |- _ => inversion H; lia end.
  - intuition (try congruence); match goal with H : (_, _) = (_, _) |- _ => inversion H; lia end.
  - intuition (try congruence); match goal with H : (_, _) = (_, _) |- _ => inversion H; lia end.
  - induction (f0 p) as [|((b & q) & v) l IH]; cbn; [tauto|].
    intros [H|H]; [inversion H; lia|auto].
Qed.
Lemma tbars_firstn_le cs i j : i <= j -> tbars (firstn i cs) <= tbars (firstn j cs).
Proof.
  revert i j. induction cs as [|c cs IH]; intros [|i] [|j] H; cbn; try lia.
  specialize (IH i j). lia.
Qed.
Lemma tbars_firstn_S cs i c : nth_error cs i = Some c ->
  tbars (firstn (S i) cs) = tbars (firstn i cs) + cbars c.
Proof.
  revert i. induction cs as [|d cs IH]; intros [|i] H; cbn in *; try discriminate.
  - inversion H; subst. lia.
  - rewrite (IH i H). lia.
Qed.
Lemma nth_programs n cs p : p < n -> nth_error (programs n cs) p = Some (program 0 p cs).
Proof.
  intros H. unfold programs. rewrite nth_error_map. rewrite nth_error_nth' with (d := 0).
  - cbn. now rewrite seq_nth.
  - now rewrite seq_length.
Qed.
Lemma nth_programs_inv n cs p l : nth_error (programs n cs) p = Some l ->
  p < n /\ l = program 0 p cs.
Proof.
  intros H. assert (p < n).
  { assert (p < length (programs n cs)) by (apply nth_error_Some; congruence).
    unfold programs in *. now rewrite map_length, seq_length in *. }
  split; auto. rewrite nth_programs in H by auto. congruence.
Qed.

(** A trace split at an event, with the epochs. *)
Lemma mtrace_split n cs sched t1 p j a t2 :
  mtrace n cs sched = t1 ++ (p, (j, a)) :: t2 ->
  exists st u1 e u2, srun (sinit (programs n cs)) sched = (st, u1 ++ (p, e, (j, a)) :: u2) /\
    t1 = map strip u1 /\ t2 = map strip u2 /\ p < n /\
    exists c, nth_error cs j = Some c /\
      In (e, (j, a)) (acts (tbars (firstn j cs)) (expand j p c)).
Proof.
  unfold mtrace. destruct (srun _ _) as (st & tr) eqn:E. cbn [snd]. intros H.
  apply map_eq_app in H. destruct H as (u1 & v & -> & <- & H).
  apply map_eq_cons in H. destruct H as (((p' & e) & a') & u2 & -> & Hs & <-).
  inversion Hs; subst. exists st, u1, e, u2. split; auto. split; auto. split; auto.
  destruct (trace_in _ _ _ _ p e (j, a) E) as (l & Hl & Ha).
  { apply in_app_iff. right. now left. }
  destruct (nth_programs_inv _ _ _ _ Hl) as (Hp & ->). split; auto.
  apply acts_program in Ha. destruct Ha as (c & _ & Hc & Ha). rewrite Nat.sub_0_r in *. eauto.
Qed.
Lemma strip_in {A} p (a : A) u : In (p, a) (map strip u) <-> exists e, In (p, e, a) u.
Proof.
  rewrite in_map_iff. split.
  - intros (((q & e) & b) & H & Hi). inversion H; subst. eauto.
  - intros (e & H). exists (p, e, a). auto.
Qed.
(** An action of call [i] of PE [q] in an earlier epoch than that of an event has happened. *)
Lemma earlier_done n cs sched st u1 p e b u2 q i c f a :
  srun (sinit (programs n cs)) sched = (st, u1 ++ (p, e, b) :: u2) -> q < n ->
  nth_error cs i = Some c -> In (f, (i, a)) (acts (tbars (firstn i cs)) (expand i q c)) -> f < e ->
  In (q, (i, a)) (map strip u1).
Proof.
  intros E Hq Hc Ha Hf. apply strip_in. exists f.
  apply (sched_before _ _ _ _ _ _ _ _ q _ f (i, a) E (nth_programs n cs q Hq)); auto.
  apply acts_program. exists c. rewrite Nat.sub_0_r. split; [lia|]. auto.
Qed.
Lemma later_ge n cs sched st u1 p e b u2 q i a :
  srun (sinit (programs n cs)) sched = (st, u1 ++ (p, e, b) :: u2) ->
  In (q, (i, a)) (map strip u2) ->
  exists c f, nth_error cs i = Some c /\ q < n /\ e <= f /\
    In (f, (i, a)) (acts (tbars (firstn i cs)) (expand i q c)).
Proof.
  intros E H. apply strip_in in H. destruct H as (f & H).
  pose proof (sched_sorted _ _ _ _ _ _ _ E H) as L. cbn in L.
  destruct (trace_in _ _ _ _ q f (i, a) E) as (l & Hl & Ha).
  { apply in_app_iff. right. now right. }
  destruct (nth_programs_inv _ _ _ _ Hl) as (Hq & ->).
  apply acts_program in Ha. destruct Ha as (c & _ & Hc & Ha). rewrite Nat.sub_0_r in *. eauto 10.
Qed.

Lemma free_safe n cs sched t1 p j t2 :
  mtrace n cs sched = t1 ++ (p, (j, ARelease)) :: t2 ->
  (forall q, q < n -> In (q, (j, AEnter)) t1) /\
  (forall q i a, i < j -> ~ In (q, (i, a)) t2).
Proof.
  intros E. destruct (mtrace_split _ _ _ _ _ _ _ _ E)
    as (st & u1 & e & u2 & R & -> & -> & Hp & c & Hc & Ha).
  assert (Hf : exists b, c = CFree b /\ e = S (tbars (firstn j cs))).
  { destruct c; cbn in Ha.
    - destruct (size =? 0)%Z; cbn in Ha; intuition congruence.
    - intuition congruence.
    - destruct ((count =? 0)%Z || (size =? 0)%Z); cbn in Ha; intuition congruence.
    - exists blk. split; auto. intuition congruence.
    - intuition congruence.
    - intuition congruence.
    - intuition congruence.
    - exfalso. induction (f p) as [|((b & q) & v) l IH]; cbn in Ha; [tauto|].
      destruct Ha as [Ha|Ha]; [congruence|auto]. }
  destruct Hf as (b & -> & ->). split.
  - intros q Hq. eapply earlier_done with (f := tbars (firstn j cs)); eauto.
    + cbn. auto.
  - intros q i a Hi H. destruct (later_ge _ _ _ _ _ _ _ _ _ _ _ _ R H) as (c & f & Hc' & Hq & Hle & Ha').
    apply acts_expand_le in Ha'. pose proof (tbars_firstn_S _ _ _ Hc') as T.
    assert (tbars (firstn (S i) cs) <= tbars (firstn j cs)) by (apply tbars_firstn_le; lia). lia.
Qed.
(** The epoch of the return of an allocating call, and of everything behind it, is later than that
    of the allocation. *)
Lemma alloc_epoch c : allocates c -> forall e j q,
  In (e, (j, AAlloc)) (acts e (expand j q c)) /\ cbars c = 1 /\
  forall f, In (f, (j, ARet)) (acts e (expand j q c)) -> f = S e.
Proof.
  intros Ha e j q. destruct c; cbn in Ha |- *; try tauto.
  - assert ((size =? 0)%Z = false) as -> by lia. cbn. intuition congruence.
  - intuition congruence.
  - assert ((count =? 0)%Z || (size =? 0)%Z = false) as -> by lia. cbn. intuition congruence.
  - intuition congruence.
  - intuition congruence.
Qed.
Lemma malloc_safe n cs sched t1 p j t2 c :
  mtrace n cs sched = t1 ++ (p, (j, ARet)) :: t2 -> nth_error cs j = Some c -> allocates c ->
  forall q, q < n -> In (q, (j, AAlloc)) t1.
Proof.
  intros E Hc Hal q Hq. destruct (mtrace_split _ _ _ _ _ _ _ _ E)
    as (st & u1 & e & u2 & R & -> & -> & Hp & c' & Hc' & Ha).
  assert (c' = c) by congruence. subst c'.
  destruct (alloc_epoch c Hal (tbars (firstn j cs)) j p) as (_ & _ & Hr). apply Hr in Ha. subst e.
  destruct (alloc_epoch c Hal (tbars (firstn j cs)) j q) as (Hin & _ & _).
  eapply earlier_done with (f := tbars (firstn j cs)); eauto.
Qed.
Lemma access_safe n cs sched t1 p i a t2 j c :
  mtrace n cs sched = t1 ++ (p, (i, a)) :: t2 -> j < i -> nth_error cs j = Some c -> allocates c ->
  forall q, q < n -> In (q, (j, AAlloc)) t1.
Proof.
  intros E Hji Hc Hal q Hq. destruct (mtrace_split _ _ _ _ _ _ _ _ E)
    as (st & u1 & e & u2 & R & -> & -> & Hp & c' & Hc' & Ha).
  destruct (alloc_epoch c Hal (tbars (firstn j cs)) j q) as (Hin & Hb & _).
  eapply earlier_done with (f := tbars (firstn j cs)); eauto.
  apply acts_expand_le in Ha. pose proof (tbars_firstn_S _ _ _ Hc) as T.
  assert (tbars (firstn (S j) cs) <= tbars (firstn i cs)) by (apply tbars_firstn_le; lia). lia.
Qed.
Lemma collective_live n cs sched st tr : srun (sinit (programs n cs)) sched = (st, tr) ->
  finished st \/ exists p st' t, sstep st p = (st', t) /\ st' <> st.
Proof.
  apply not_stuck with (k := tbars cs). intros l Hl. unfold programs in Hl.
  apply in_map_iff in Hl. destruct Hl as (p & <- & _). apply bars_program.
Qed.

(** Zeroing *)
Lemma zero_call n cs sched st u1 p e b u2 q j : 
  srun (sinit (programs n cs)) sched = (st, u1 ++ (p, e, b) :: u2) ->
  In (q, (j, AZero)) (map strip u2) ->
  (exists count size, nth_error cs j = Some (CCalloc count size) /\ e <= tbars (firstn j cs) /\
     count <> 0%Z /\ size <> 0%Z) \/
  nth_error cs j = Some CSpaceCalloc.
Proof.
  intros R H. destruct (later_ge _ _ _ _ _ _ _ _ _ _ _ _ R H) as (c & f & Hc & Hq & Hle & Ha).
  destruct c; cbn in Ha; auto.
  - destruct (size =? 0)%Z; cbn in Ha; intuition congruence.
  - intuition congruence.
  - destruct ((count =? 0)%Z || (size =? 0)%Z) eqn:Ez; cbn in Ha; [intuition congruence|].
    assert (f = tbars (firstn j cs)) by intuition congruence. subst.
    left. exists count, size. split; auto. split; auto. lia.
  - intuition congruence.
  - intuition congruence.
  - intuition congruence.
  - exfalso. induction (f0 q) as [|((b0 & q0) & v) l IH]; cbn in Ha; [tauto|].
    destruct Ha as [Ha|Ha]; [congruence|auto].
Qed.
Lemma word_keep q blk v tr :
  (forall p i v', ~ In (p, (i, APut blk q v')) tr) -> ~ In (q, (blk, AZero)) tr ->
  word q blk v tr = v.
Proof.
  revert v. induction tr as [|(p & (i & a)) tr IH]; intros v Hp Hz; cbn; auto.
  rewrite IH.
  - destruct a; auto.
    + destruct ((p =? q) && (i =? blk)) eqn:E; auto. exfalso. apply Hz.
      apply andb_true_iff in E. destruct E as [E1 E2]. apply Nat.eqb_eq in E1, E2. subst. now left.
    + destruct ((q0 =? q) && (blk0 =? blk)) eqn:E; auto. exfalso.
      apply andb_true_iff in E. destruct E as [E1 E2]. apply Nat.eqb_eq in E1, E2. subst.
      eapply Hp. now left.
  - intros p' i' v' H. eapply Hp. right. eauto.
  - intros H. apply Hz. now right.
Qed.
Lemma word_app q blk v a b : word q blk v (a ++ b) = word q blk (word q blk v a) b.
Proof. revert v. induction a as [|(p & (i & x)) a IH]; intros v; cbn; auto. Qed.
Lemma calloc_keeps n cs sched v0 t1 p i blk q v t2 count size :
  mtrace n cs sched = t1 ++ (p, (i, APut blk q v)) :: t2 -> blk < i ->
  nth_error cs blk = Some (CCalloc count size) ->
  (forall p' i' v', ~ In (p', (i', APut blk q v')) t2) ->
  word q blk v0 (mtrace n cs sched) = v.
Proof.
  intros E Hi Hc Hl. pose proof E as E0. destruct (mtrace_split _ _ _ _ _ _ _ _ E)
    as (st & u1 & e & u2 & R & -> & -> & Hp & c & Hci & Ha).
  rewrite E0, word_app. cbn [word]. rewrite !Nat.eqb_refl. cbn [andb].
  apply word_keep; auto. intros Hz.
  destruct (zero_call _ _ _ _ _ _ _ _ _ _ _ R Hz) as [(c' & s' & Hc' & Hle & Hz1 & Hz2)|Hc'];
    [|congruence].
  apply acts_expand_le in Ha. pose proof (tbars_firstn_S _ _ _ Hc') as T. cbn [cbars] in T.
  assert ((c' =? 0)%Z || (s' =? 0)%Z = false) as F by lia. rewrite F in T.
  assert (tbars (firstn (S blk) cs) <= tbars (firstn i cs)) by (apply tbars_firstn_le; lia). lia.
Qed.
(** The block is zero until somebody writes to it. *)
Lemma word_zero q blk v0 tr :
  (forall p i v', ~ In (p, (i, APut blk q v')) tr) -> In (q, (blk, AZero)) tr ->
  word q blk v0 tr = 0%Z.
Proof.
  revert v0. induction tr as [|(p & (i & a)) tr IH]; intros v0 Hp Hz; [destruct Hz|].
  assert (Hp' : forall p' i' v', ~ In (p', (i', APut blk q v')) tr)
    by (intros p' i' v' H; eapply Hp; right; eauto).
  assert (D : In (q, (blk, AZero)) tr \/ ~ In (q, (blk, AZero)) tr).
  { clear. induction tr as [|(p & (i & a)) tr IH]; [right; intros []|].
    destruct IH as [IH|IH]; [left; now right|].
    destruct (Nat.eq_dec p q) as [->|N1]; [|right; intros [H|H]; [congruence|auto]].
    destruct (Nat.eq_dec i blk) as [->|N2]; [|right; intros [H|H]; [congruence|auto]].
    destruct a; try (right; intros [H|H]; [congruence|auto]). left. now left. }
  destruct D as [D|D].
  - cbn [word]. apply IH; auto.
  - destruct Hz as [Hz|Hz]; [|tauto]. inversion Hz; subst. cbn [word]. rewrite !Nat.eqb_refl. cbn.
    apply word_keep; auto.
Qed.
Lemma calloc_zero n cs sched v0 t1 p j t2 count size q :
  mtrace n cs sched = t1 ++ (p, (j, ARet)) :: t2 ->
  nth_error cs j = Some (CCalloc count size) -> count <> 0%Z -> size <> 0%Z -> q < n ->
  (forall p' i' v', ~ In (p', (i', APut j q v')) t1) ->
  word q j v0 t1 = 0%Z.
Proof.
  intros E Hc Hn Hs Hq Hl. apply word_zero; auto.
  destruct (mtrace_split _ _ _ _ _ _ _ _ E) as (st & u1 & e & u2 & R & -> & -> & Hp & c & Hc' & Ha).
  assert (c = CCalloc count size) by congruence. subst c.
  assert (Hz : (count =? 0)%Z || (size =? 0)%Z = false) by lia.
  cbn [expand] in Ha. rewrite Hz in Ha. cbn in Ha.
  eapply earlier_done with (f := tbars (firstn j cs)); eauto.
  - cbn [expand]. rewrite Hz. cbn. auto.
  - intuition (try congruence).
    match goal with H : (_, _) = (_, _) |- _ => inversion H; lia end.
Qed.

Lemma realloc_ret n cs sched t1 p j t2 b :
  mtrace n cs sched = t1 ++ (p, (j, ARet)) :: t2 -> nth_error cs j = Some (CRealloc b) ->
  forall q, q < n -> In (q, (j, AMove)) t1.
Proof.
  intros E Hc q Hq. destruct (mtrace_split _ _ _ _ _ _ _ _ E)
    as (st & u1 & e & u2 & R & -> & -> & Hp & c & Hc' & Ha).
  assert (c = CRealloc b) by congruence. subst c. cbn in Ha.
  eapply earlier_done with (f := tbars (firstn j cs)); eauto.
  - cbn. auto.
  - intuition (try congruence).
    match goal with H : (_, _) = (_, _) |- _ => inversion H; lia end.
Qed.
