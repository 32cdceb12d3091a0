(** Mutexes live while they are used. *)
From Verif Require Import Base LkModel LkSpec LkProofs CsModel CsSpec.

(** What calls mention. *)
Lemma mentions_app l a c : mentions l (a ++ c) = mentions l a || mentions l c.
Proof. unfold mentions. apply existsb_app. Qed.
Lemma mentions_cons l x a : mentions l (x :: a) = names l x || mentions l a.
Proof. reflexivity. Qed.
Lemma mentions_section l k : mentions l (section k) = true -> l = k.
Proof. cbn. rewrite orb_false_r, orb_diag. intros E. apply lk_eqb_eq in E. congruence. Qed.
Lemma mentions_stride l v : mentions l (stride v) = true -> l = LStrided /\ no_lookup v = false.
Proof.
  destruct v; cbn [stride]; intros E; [discriminate| |]; (split; [|reflexivity]).
  - apply mentions_section in E. exact E.
  - rewrite !mentions_app in E. apply orb_true_iff in E as [E|E]; [apply mentions_section in E; exact E|].
    apply orb_true_iff in E as [E|E]; [discriminate|apply mentions_section in E; exact E].
Qed.
Lemma mentions_query l sp : mentions l (query sp) = true -> l = LSpaces.
Proof. destruct sp; [apply mentions_section|discriminate]. Qed.
Lemma mentions_trans l sp : mentions l (trans sp) = true -> l = LSpaces.
Proof. destruct sp; [apply mentions_section|discriminate]. Qed.
Lemma mentions_polls l async n : mentions l (polls async n) = true -> l = LCb /\ async = false.
Proof.
  induction n as [|n IH]; [discriminate|]. cbn [polls]. rewrite mentions_app. intros E. apply orb_true_iff in E as [E|E]; [|auto].
  destruct async; [discriminate|]. destruct l; try discriminate E. auto.
Qed.
Lemma mentions_flushes l ts : forall m, mentions l (flushes m ts) = false.
Proof. induction ts as [|t ts IH]; intros m; [reflexivity|]. cbn. apply IH. Qed.
Lemma mentions_am_flush l async m ts n : mentions l (am_flush async m ts n) = true -> l = LCb /\ async = false.
Proof. unfold am_flush. rewrite mentions_app, mentions_flushes. apply mentions_polls. Qed.
Lemma mentions_barrier_all l async m ts n n' : mentions l (barrier_all async m ts n n') = true -> l = LCb /\ async = false.
Proof.
  unfold barrier_all. rewrite !mentions_app. cbn [mentions existsb names orb]. intros E.
  apply orb_true_iff in E as [E|E]; [eapply mentions_am_flush; exact E|eapply mentions_polls; exact E].
Qed.
Lemma mentions_mpis l n : mentions l (repeat AMpi n) = false.
Proof. induction n as [|n IH]; [reflexivity|exact IH]. Qed.
Lemma mentions_comm l hit : mentions l (acquire_comm hit) = true -> l = LComm.
Proof.
  unfold acquire_comm. rewrite mentions_app. intros E. apply orb_true_iff in E as [E|E]; [apply mentions_section; exact E|].
  destruct hit; [discriminate|]. rewrite mentions_app in E. apply orb_true_iff in E as [E|E]; [discriminate|apply mentions_section; exact E].
Qed.
Lemma eqb_sym_lk a c : lk_eqb a c = true -> a = c.
Proof. apply lk_eqb_eq. Qed.

Definition may_mention (b : bld) (c : call) (l : lk) : Prop :=
  match l with
  | LCb => b_async b = false
  | LStrided => b_cache b = true
  | LPool k => uses c = Some k
  | _ => True
  end.
Ltac crush_names :=
  repeat match goal with
  | H : _ || _ = true |- _ => apply orb_true_iff in H as [H|H]
  | H : false = true |- _ => discriminate H
  | H : lk_eqb ?x ?y = true |- _ => apply eqb_sym_lk in H; subst
  end.
Lemma call_mentions b m c l : lookups_ok b c = true -> mentions l (call_acts (b_async b) m c) = true -> may_mention b c l.
Proof.
  intros K E. unfold lookups_ok in K.
  destruct c; cbn [call_acts] in E;
  try match type of E with context [match ?w with None => _ | Some _ => _ end] => destruct w as [[k|]|] end;
  rewrite ?mentions_app, ?mentions_mpis in E; cbn [mentions existsb names orb] in E;
  try (destruct (b_async b); discriminate E);
  crush_names;
  try match type of E with
  | mentions _ (query _) = true => apply mentions_query in E; subst l; exact I
  | mentions _ (polls _ _) = true => apply mentions_polls in E as [-> E]; exact E
  | mentions _ (am_flush _ _ _ _) = true => apply mentions_am_flush in E as [-> E]; exact E
  | mentions _ (barrier_all _ _ _ _ _) = true => apply mentions_barrier_all in E as [-> E]; exact E
  | mentions _ (acquire_comm _) = true => apply mentions_comm in E; subst l; exact I
  | mentions _ (stride _) = true => apply mentions_stride in E as [-> E]; cbn [may_mention]
  end; try exact I; try reflexivity.
  all: first [exact K|congruence|apply andb_true_iff in K as [K1 K2]; congruence].
Qed.
Lemma handler_mentions k m sp v l : mentions l (handler k m sp v) = true -> l = LSpaces \/ (l = LStrided /\ no_lookup v = false).
Proof.
  destruct k; cbn [handler]; rewrite ?mentions_app; cbn [mentions existsb names orb]; intros E; crush_names; try discriminate E;
  try (left; eapply mentions_trans; exact E); try (right; apply mentions_stride; exact E).
Qed.
Lemma open_handler k m sp v m' t k' : ~ In (AOpen m' t k') (handler k m sp v).
Proof.
  intros I. destruct k; cbn [handler] in I; rewrite ?in_app_iff in I;
  repeat match goal with H : _ \/ _ |- _ => destruct H as [H|H] end; try discriminate; try contradiction;
  try (destruct sp; cbn in I; intuition discriminate); try (destruct v; cbn in I; intuition discriminate); cbn in I; intuition discriminate.
Qed.
Lemma open_polls async n m t k : ~ In (AOpen m t k) (polls async n).
Proof.
  induction n as [|n IH]; [intros []|]. cbn [polls]. rewrite in_app_iff. intros [I|I]; [|exact (IH I)].
  destruct async; cbn in I; intuition discriminate.
Qed.
Lemma open_bar async m0 n m t k : ~ In (AOpen m t k) (call_acts async m0 (bar_call n)).
Proof. cbn. intros [E|I]; [discriminate|exact (open_polls _ _ _ _ _ I)]. Qed.

(** A held section has still to be left. *)
Lemma ok_exit a : forall H l, okseq H a = true -> In (RL l) H -> In (AExit l) a.
Proof.
  induction a as [|x a IH]; intros H l O I.
  - destruct H; [destruct I|discriminate].
  - destruct x; cbn [okseq] in O; try apply andb_true_iff in O as [O1 O].
    + right. eapply IH; [exact O|right; exact I].
    + destruct (lk_eqb l0 l) eqn:E; [apply lk_eqb_eq in E; subst; left; reflexivity|]. right. eapply IH; [exact O|].
      apply In_rem. split; [exact I|]. intros X. injection X as ->. rewrite (proj2 (lk_eqb_eq l0 l0) eq_refl) in E. discriminate.
    + right. eapply IH; [exact O|]. destruct (needs k); [right|]; exact I.
    + right. eapply IH; [exact O|]. apply In_rem. split; [exact I|discriminate].
    + right. eapply IH; [exact O|exact I].
    + right. eapply IH; [exact O|exact I].
    + right. eapply IH; [exact O|exact I].
Qed.
Lemma owner_mentions async xs s p l i : lrun async lst0 xs = Some s -> l_own s p l = Some i -> mentions l (l_th s p i) = true.
Proof.
  intros R O. destruct (LI_run _ _ _ _ _ LI0 R) as (h & I). apply (li_own _ _ I) in O.
  pose proof (ok_exit _ _ _ (li_ok _ _ I p i) O) as X. unfold mentions. apply existsb_exists. exists (AExit l). split; [exact X|].
  cbn. apply lk_eqb_eq. reflexivity.
Qed.

(** What a step does to the threads and the headers. *)
Lemma lrun_snoc async xs s s' x : lrun async lst0 xs = Some s -> lstep async s x = Some s' -> lrun async lst0 (xs ++ [x]) = Some s'.
Proof.
  generalize lst0. induction xs as [|y xs IH]; intros z E S; cbn [lrun app] in *.
  - injection E as ->. rewrite S. reflexivity.
  - destruct (lstep async z y); [|discriminate]. apply IH; assumption.
Qed.
Lemma step_call async s p i c s' : lstep async s (LCall p i c) = Some s' ->
  l_th s p i = [] /\ l_th s' = set_th (l_th s) p i (call_acts async (l_next s) c) /\ l_box s' = l_box s.
Proof. cbn [lstep]. destruct (l_th s p i) eqn:T; [|discriminate]. intros E. injection E as <-. auto. Qed.
Lemma step_go async s p i s' : lstep async s (LGo p i) = Some s' ->
  exists a r, l_th s p i = a :: r /\ l_th s' = set_th (l_th s) p i r /\
    forall q, l_box s' q <> [] -> l_box s q <> [] \/ exists m t k, a = AOpen m t k.
Proof.
  cbn [lstep]. destruct (l_th s p i) as [|a r] eqn:T; [discriminate|]. intros E. exists a, r. split; [reflexivity|].
  destruct a; repeat match type of E with context [match ?x with _ => _ end] => destruct x end; try discriminate E;
    injection E as <-; cbn [l_th l_box]; (split; [reflexivity|]); intros q B; auto.
  right. eauto.
Qed.
Lemma step_hdr async s p i n sp v s' : lstep async s (LHdr p i n sp v) = Some s' ->
  exists r m k, l_th s p i = ATest :: r /\ l_box s p <> [] /\ l_th s' = set_th (l_th s) p i (handler k m sp v ++ r) /\
    forall q, l_box s' q <> [] -> l_box s q <> [].
Proof.
  cbn [lstep]. destruct (l_th s p i) as [|a r] eqn:T; [discriminate|]. destruct a; try discriminate.
  destruct (nth_error (l_box s p) n) as [[m k]|] eqn:N; [|discriminate]. intros E. injection E as <-. exists r, m, k.
  split; [reflexivity|]. assert (B : l_box s p <> []) by (intros Z; rewrite Z in N; destruct n; discriminate).
  split; [exact B|]. cbn [l_th l_box]. split; [reflexivity|]. intros q. unfold set1. destruct (q =? p) eqn:Q; [|auto].
  apply Z.eqb_eq in Q. subst q. auto.
Qed.

(** The invariant. *)
Definition is_ev (e x : ev) : bool :=
  match e, x with
  | EInit a, EInit c | EDestroy a, EDestroy c => lk_eqb a c
  | EStart, EStart | EStop, EStop => true
  | _, _ => false
  end.
Definition has (e : ev) (r : list ev) : bool := existsb (is_ev e) r.
Definition should (b : bld) (f : phase) (l : lk) : bool :=
  has (EInit l) (init_events b) &&
  match f with
  | PInit r => negb (has (EInit l) r)
  | PEnd r => negb (has (EDestroy l) (final_events b)) || has (EDestroy l) r
  | PDone => negb (has (EDestroy l) (final_events b))
  | _ => true
  end.
Fixpoint suffixes {A : Type} (r : list A) : list (list A) := r :: match r with [] => [] | _ :: t => suffixes t end.
Definition on_track (b : bld) (f : phase) : Prop :=
  match f with PInit r => In r (suffixes (init_events b)) | PEnd r => In r (suffixes (final_events b)) | _ => True end.
Definition engine_on (b : bld) (f : phase) : bool :=
  b_am b && match f with PInit r => negb (has EStart r) | PEnd r => has EStop r | PDone => false | _ => true end.
Definition past (x : phase) : bool := match x with PInit _ | PReady => false | _ => true end.
Definition active (x : phase) : bool := match x with PReady | PUser | PBar => true | _ => false end.

Section Inv.
Variables (b : bld) (np nt : nat).
Hypothesis POLL : polled_mutex_exists b.
Definition someone_past (s : xst) : Prop := exists q, is_pe np q = true /\ past (x_ph s q) = true.
Record XI (s : xst) : Prop := {
  xi_run : exists ls, lrun (b_async b) lst0 ls = Some (x_l s);
  xi_th : forall p i, l_th (x_l s) p i <> [] -> is_pe np p = true /\ ((i = engine /\ x_eng s p = true) \/ (is_user nt i = true /\ active (x_ph s p) = true));
  xi_alive : forall p i l, mentions l (l_th (x_l s) p i) = true -> x_alive s p l = true;
  xi_static : forall p l, is_pool l = false -> x_alive s p l = should b (x_ph s p) l;
  xi_track : forall p, on_track b (x_ph s p);
  xi_eng : forall p, x_eng s p = true -> engine_on b (x_ph s p) = true;
  xi_englk : forall p l, mentions l (l_th (x_l s) p engine) = true -> l = LSpaces \/ (l = LStrided /\ b_cache b = true);
  xi_open : forall p i m t k, In (AOpen m t k) (l_th (x_l s) p i) -> someone_past s;
  xi_box : forall p, l_box (x_l s) p <> [] -> someone_past s;
  xi_past : someone_past s -> forall q, is_pe np q = true -> init_passed (x_ph s q) = true;
  xi_pe : forall p, x_ph s p <> PInit (init_events b) -> is_pe np p = true;
  xi_pend : forall p i k, x_pend s p i = Some k -> is_user nt i = true /\ x_alive s p (LPool k) = true /\
              (forall j, mentions (LPool k) (l_th (x_l s) p j) = false) /\ (forall j, x_pend s p j = Some k -> j = i)
}.

Lemma engine_no_user : is_user nt engine = false.
Proof.
  unfold is_user, upto. destruct (existsb (Z.eqb engine) (map Z.of_nat (seq 0 nt))) eqn:E; [|reflexivity].
  apply existsb_exists in E as (x & I & E). apply in_map_iff in I as (n & <- & _). apply Z.eqb_eq in E. unfold engine in E. lia.
Qed.
Lemma XI0 : XI (xst0 b).
Proof.
  constructor; cbn [xst0 x_l x_alive x_ph x_eng x_pend lst0 l_th l_box]; try discriminate; try contradiction.
  - exists []. reflexivity.
  - intros p l P. unfold should. destruct (has (EInit l) (init_events b)); reflexivity.
  - intros p. cbn [on_track suffixes]. destruct (init_events b); left; reflexivity.
  - intros (q & _ & Q). discriminate.
Qed.

Lemma should_active f l : active f = true -> should b f l = has (EInit l) (init_events b).
Proof. intros A. unfold should. destruct f; try discriminate; apply andb_true_r. Qed.
Lemma static_has l : is_pool l = false ->
  has (EInit l) (init_events b) = match l with LStrided => b_cache b | LCb => b_am b | _ => true end.
Proof.
  unfold init_events. destruct l; cbn [is_pool]; try discriminate; intros _; destruct (b_cache b), (b_am b); reflexivity.
Qed.
(** Where the progress thread runs, what handlers use is there. *)
Lemma engine_locks f l : engine_on b f = true -> init_passed f = true -> on_track b f ->
  l = LSpaces \/ (l = LStrided /\ b_cache b = true) -> should b f l = true.
Proof.
  intros E P T L. assert (NP : is_pool l = false) by (destruct L as [->|[-> _]]; reflexivity).
  unfold should. rewrite (static_has l NP).
  assert (H1 : match l with LStrided => b_cache b | LCb => b_am b | _ => true end = true) by (destruct L as [->|[-> C]]; auto).
  rewrite H1. cbn [andb]. destruct f as [r| | | |r|]; try discriminate; try reflexivity.
  - unfold engine_on in E. apply andb_true_iff in E as [A E]. cbn [on_track] in T. unfold final_events in *. rewrite A in *.
    destruct L as [->|[-> C]]; [|rewrite C in *].
    + destruct (b_cache b), (b_dyn b); cbn in T |- *; repeat (destruct T as [T|T]; [subst r; try discriminate E; reflexivity|]); destruct T.
    + destruct (b_dyn b); cbn in T |- *; repeat (destruct T as [T|T]; [subst r; try discriminate E; reflexivity|]); destruct T.
  - unfold engine_on in E. rewrite andb_false_r in E. discriminate.
Qed.

(** Another list of actions for one thread. *)
Lemma XI_th s p i l' a' :
  XI s -> (exists ls, lrun (b_async b) lst0 ls = Some l') ->
  l_th l' = set_th (l_th (x_l s)) p i a' ->
  (forall q, l_box l' q <> [] -> someone_past s) ->
  (a' <> [] -> is_pe np p = true /\ ((i = engine /\ x_eng s p = true) \/ (is_user nt i = true /\ active (x_ph s p) = true))) ->
  (forall l, mentions l a' = true -> x_alive s p l = true) ->
  (i = engine -> forall l, mentions l a' = true -> l = LSpaces \/ (l = LStrided /\ b_cache b = true)) ->
  (forall m t k, In (AOpen m t k) a' -> someone_past s) ->
  (forall j k, x_pend s p j = Some k -> mentions (LPool k) a' = false) ->
  XI (mkX l' (x_alive s) (x_ph s) (x_eng s) (x_pend s)).
Proof.
  intros I R T B H1 H2 H3 H4 H5.
  assert (TH : forall q j, l_th l' q j = if pair_dec (q, j) (p, i) then a' else l_th (x_l s) q j).
  { intros q j. rewrite T. destruct (pair_dec (q, j) (p, i)) as [E|N]; [injection E as -> ->; apply set_th_same|apply set_th_other; exact N]. }
  constructor; cbn [x_l x_alive x_ph x_eng x_pend].
  - exact R.
  - intros q j. rewrite TH. destruct (pair_dec (q, j) (p, i)) as [E|N]; [injection E as -> ->; exact H1|apply (xi_th s I)].
  - intros q j l. rewrite TH. destruct (pair_dec (q, j) (p, i)) as [E|N]; [injection E as -> ->; apply H2|apply (xi_alive s I)].
  - apply (xi_static s I).
  - apply (xi_track s I).
  - apply (xi_eng s I).
  - intros q l. rewrite TH. destruct (pair_dec (q, engine) (p, i)) as [E|N]; [injection E as -> <-; apply H3; reflexivity|apply (xi_englk s I)].
  - intros q j m t k. rewrite TH. destruct (pair_dec (q, j) (p, i)) as [E|N]; [apply H4|apply (xi_open s I)].
  - exact B.
  - apply (xi_past s I).
  - apply (xi_pe s I).
  - intros q j k P. destruct (xi_pend s I q j k P) as (U & A & M & V). split; [exact U|]. split; [exact A|]. split; [|exact V].
    intros j'. rewrite TH. destruct (pair_dec (q, j') (p, i)) as [E|N]; [injection E as -> ->; exact (H5 j k P)|apply M].
Qed.

Lemma XI_go s p i l' : XI s -> lstep (b_async b) (x_l s) (LGo p i) = Some l' -> XI (mkX l' (x_alive s) (x_ph s) (x_eng s) (x_pend s)).
Proof.
  intros I S. destruct (step_go _ _ _ _ _ S) as (a & r & T & T' & B). destruct (xi_run s I) as (ls & R).
  apply (XI_th s p i l' r I); auto.
  - exists (ls ++ [LGo p i]). eapply lrun_snoc; [exact R|exact S].
  - intros q N. destruct (B q N) as [X|(m & t & k & ->)]; [exact (xi_box s I q X)|].
    apply (xi_open s I p i m t k). rewrite T. left. reflexivity.
  - intros _. apply (xi_th s I). rewrite T. discriminate.
  - intros l M. apply (xi_alive s I p i l). rewrite T, mentions_cons, M. apply orb_true_r.
  - intros -> l M. apply (xi_englk s I p l). rewrite T, mentions_cons, M. apply orb_true_r.
  - intros m t k O. apply (xi_open s I p i m t k). rewrite T. right. exact O.
  - intros j k P. destruct (xi_pend s I p j k P) as (_ & _ & M & _). specialize (M i). rewrite T, mentions_cons in M.
    apply orb_false_iff in M. apply M.
Qed.

Lemma XI_call s p i c l' : XI s -> is_pe np p = true -> is_user nt i = true -> active (x_ph s p) = true -> lookups_ok b c = true ->
  (forall k, uses c = Some k -> x_alive s p (LPool k) = true /\ forall j, x_pend s p j = Some k -> False) ->
  ((exists n, c = bar_call n) \/ past (x_ph s p) = true) ->
  lstep (b_async b) (x_l s) (LCall p i c) = Some l' -> XI (mkX l' (x_alive s) (x_ph s) (x_eng s) (x_pend s)).
Proof.
  intros I P U A K Us Q S. destruct (step_call _ _ _ _ _ _ S) as (T & T' & B). destruct (xi_run s I) as (ls & R).
  apply (XI_th s p i l' (call_acts (b_async b) (l_next (x_l s)) c) I); auto.
  - exists (ls ++ [LCall p i c]). eapply lrun_snoc; [exact R|exact S].
  - intros q. rewrite B. apply (xi_box s I).
  - intros l M. pose proof (call_mentions b _ c l K M) as W.
    destruct l; cbn [may_mention] in W; try (rewrite (xi_static s I) by reflexivity; rewrite (should_active _ _ A), static_has by reflexivity; auto).
    + destruct POLL as [E|E]; [exact E|congruence].
    + apply Us. exact W.
  - intros ->. rewrite engine_no_user in U. discriminate.
  - intros m t k O. destruct Q as [(n & ->)|Q]; [exfalso; exact (open_bar _ _ _ _ _ _ O)|]. exists p. auto.
  - intros j k Pj. destruct (mentions (LPool k) (call_acts (b_async b) (l_next (x_l s)) c)) eqn:M; [|reflexivity]. exfalso.
    pose proof (call_mentions b _ c _ K M) as W. cbn in W. destruct (Us k W) as [_ V]. exact (V j Pj).
Qed.
Lemma in_upto n x : existsb (Z.eqb x) (upto n) = true -> In x (upto n).
Proof. intros E. apply existsb_exists in E as (y & I & E). apply Z.eqb_eq in E. subst. exact I. Qed.

(** A phase change that keeps a PE where its calls are. *)
Lemma XI_phase s p f : XI s -> is_pe np p = true ->
  (forall l, is_pool l = false -> should b f l = should b (x_ph s p) l) -> on_track b f ->
  (x_eng s p = true -> engine_on b f = true) ->
  (forall i, is_user nt i = true -> l_th (x_l s) p i <> [] -> active f = true) ->
  init_passed f = true ->
  (past f = true -> past (x_ph s p) = true \/ forall q, is_pe np q = true -> init_passed (x_ph s q) = true) ->
  (past (x_ph s p) = true -> past f = true) ->
  XI (with_ph s p f).
Proof.
  intros I P S T E A IP PA PB.
  assert (SP : someone_past (with_ph s p f) -> someone_past s \/ forall q, is_pe np q = true -> init_passed (x_ph s q) = true).
  { intros (q & Q & X). cbn [with_ph x_ph] in X. unfold set1 in X. destruct (q =? p) eqn:QP.
    - apply Z.eqb_eq in QP. subst q. destruct (PA X) as [Y|Y]; [left; exists p; auto|right; exact Y].
    - left. exists q. auto. }
  assert (SP' : someone_past s -> someone_past (with_ph s p f)).
  { intros (q & Q & X). exists q. split; [exact Q|]. cbn [with_ph x_ph]. unfold set1. destruct (q =? p) eqn:QP; [|exact X].
    apply Z.eqb_eq in QP. subst q. auto. }
  constructor; cbn [with_ph x_l x_alive x_ph x_eng x_pend].
  - apply (xi_run s I).
  - intros q i N. destruct (xi_th s I q i N) as [X Y]. split; [exact X|]. destruct Y as [Y|[U Y]]; [left; exact Y|right].
    split; [exact U|]. unfold set1. destruct (q =? p) eqn:QP; [|exact Y]. apply Z.eqb_eq in QP. subst q. eapply A; eauto.
  - apply (xi_alive s I).
  - intros q l NP. rewrite (xi_static s I q l NP). unfold set1. destruct (q =? p) eqn:QP; [|reflexivity].
    apply Z.eqb_eq in QP. subst q. symmetry. apply S. exact NP.
  - intros q. unfold set1. destruct (q =? p); [exact T|apply (xi_track s I)].
  - intros q X. unfold set1. destruct (q =? p) eqn:QP; [|apply (xi_eng s I q X)]. apply Z.eqb_eq in QP. subst q. apply E. exact X.
  - apply (xi_englk s I).
  - intros q i m t k O. apply SP'. exact (xi_open s I q i m t k O).
  - intros q N. apply SP'. exact (xi_box s I q N).
  - intros X q Q. unfold set1. destruct (q =? p); [exact IP|]. destruct (SP X) as [Y|Y]; [exact (xi_past s I Y q Q)|exact (Y q Q)].
  - intros q N. unfold set1 in N. destruct (q =? p) eqn:QP; [apply Z.eqb_eq in QP; subst q; exact P|apply (xi_pe s I q N)].
  - apply (xi_pend s I).
Qed.

End Inv.
