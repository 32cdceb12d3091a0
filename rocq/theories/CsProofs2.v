(** Initialisation, release and spaces; no step goes wrong. *)
From Verif Require Import Base LkModel LkSpec LkProofs CsModel CsSpec CsProofs.

Lemma init_facts b e r : on_track b (PInit (e :: r)) -> on_track b (PInit r) /\
  match e with
  | EInit l => is_pool l = false /\ should b (PInit (e :: r)) l = false /\
      (forall k, is_pool k = false -> should b (PInit r) k = if lk_eqb k l then true else should b (PInit (e :: r)) k) /\
      (engine_on b (PInit (e :: r)) = true -> engine_on b (PInit r) = true)
  | EStart => (forall k, is_pool k = false -> should b (PInit r) k = should b (PInit (e :: r)) k) /\ engine_on b (PInit r) = true
  | _ => False
  end.
Proof.
  destruct b as [[] [] [] []]; cbn [on_track init_events b_cache b_am app suffixes In]; intros T;
  repeat (destruct T as [T|T]; [first [discriminate T|injection T as <- <-; split; [tauto|]; cbn [is_pool];
    repeat match goal with |- _ /\ _ => split end; try reflexivity; try (intros k K; destruct k; try discriminate K; reflexivity); auto]|]); destruct T.
Qed.
Lemma end_facts b e r : on_track b (PEnd (e :: r)) -> on_track b (PEnd r) /\
  match e with
  | EDestroy l => is_pool l = false /\ should b (PEnd (e :: r)) l = true /\
      (forall k, is_pool k = false -> should b (PEnd r) k = if lk_eqb k l then false else should b (PEnd (e :: r)) k) /\
      (engine_on b (PEnd (e :: r)) = true -> engine_on b (PEnd r) = true /\ l <> LSpaces /\ l <> LStrided)
  | EStop => forall k, is_pool k = false -> should b (PEnd r) k = should b (PEnd (e :: r)) k
  | _ => False
  end.
Proof.
  destruct b as [[] [] [] []]; cbn [on_track final_events b_cache b_am b_dyn app suffixes In]; intros T;
  repeat (destruct T as [T|T]; [first [discriminate T|injection T as <- <-; split; [tauto|]; cbn [is_pool];
    repeat match goal with |- _ /\ _ => split end; try reflexivity; try (intros k K; destruct k; try discriminate K; reflexivity);
    try (intros E; first [discriminate E|split; [reflexivity|split; discriminate]])]|]); destruct T.
Qed.

Section Inv2.
Variables (b : bld) (np nt : nat).
Hypothesis POLL : polled_mutex_exists b.
Notation XI := (XI b np nt).

Lemma XI_ev s p f al eg : XI s -> is_pe np p = true -> active (x_ph s p) = false -> active f = false ->
  past f = past (x_ph s p) -> init_passed f = init_passed (x_ph s p) -> on_track b f ->
  (forall q l, q <> p \/ is_pool l = true -> al q l = x_alive s q l) ->
  (forall l, is_pool l = false -> al p l = should b f l) ->
  (forall l, mentions l (l_th (x_l s) p engine) = true -> al p l = true) ->
  (forall q, q <> p -> eg q = x_eng s q) -> (eg p = true -> engine_on b f = true) ->
  (l_th (x_l s) p engine <> [] -> eg p = true) ->
  XI (mkX (x_l s) al (set1 (x_ph s) p f) eg (x_pend s)).
Proof.
  intros I P A A' PA IP T AL ST ME EG EO EI.
  assert (PH : forall q, past (set1 (x_ph s) p f q) = past (x_ph s q) /\ init_passed (set1 (x_ph s) p f q) = init_passed (x_ph s q)).
  { intros q. unfold set1. destruct (q =? p) eqn:Q; [|auto]. apply Z.eqb_eq in Q. subst q. auto. }
  assert (SP : forall al' eg', someone_past np (mkX (x_l s) al' (set1 (x_ph s) p f) eg' (x_pend s)) <-> someone_past np s).
  { intros al' eg'. unfold someone_past. cbn [x_ph]. split; intros (q & Q & X); exists q; (split; [exact Q|]); destruct (PH q) as [E _]; congruence. }
  assert (US : forall i, l_th (x_l s) p i <> [] -> i = engine).
  { intros i N. destruct (xi_th _ _ _ s I p i N) as [_ [[E _]|[_ E]]]; [exact E|congruence]. }
  constructor; cbn [x_l x_alive x_ph x_eng x_pend].
  - apply (xi_run _ _ _ s I).
  - intros q i N. destruct (xi_th _ _ _ s I q i N) as [X Y]. split; [exact X|]. destruct (Z.eq_dec q p) as [->|D].
    + left. pose proof (US i N) as ->. split; [reflexivity|]. apply EI. exact N.
    + destruct Y as [[E Y]|[U Y]]; [left|right]; (split; [assumption|]); [rewrite EG by exact D; exact Y|].
      unfold set1. destruct (q =? p) eqn:Q; [apply Z.eqb_eq in Q; contradiction|exact Y].
  - intros q i l M. destruct (Z.eq_dec q p) as [->|D].
    + assert (N : l_th (x_l s) p i <> []) by (intros Z; rewrite Z in M; discriminate). rewrite (US i N) in M. apply ME. exact M.
    + rewrite AL by (left; exact D). exact (xi_alive _ _ _ s I q i l M).
  - intros q l NP. unfold set1. destruct (q =? p) eqn:Q.
    + apply Z.eqb_eq in Q. subst q. apply ST. exact NP.
    + apply Z.eqb_neq in Q. rewrite AL by (left; exact Q). apply (xi_static _ _ _ s I). exact NP.
  - intros q. unfold set1. destruct (q =? p); [exact T|apply (xi_track _ _ _ s I)].
  - intros q E. unfold set1. destruct (q =? p) eqn:Q.
    + apply Z.eqb_eq in Q. subst q. apply EO. exact E.
    + apply Z.eqb_neq in Q. rewrite EG in E by exact Q. apply (xi_eng _ _ _ s I). exact E.
  - apply (xi_englk _ _ _ s I).
  - intros q i m t k O. apply SP. exact (xi_open _ _ _ s I q i m t k O).
  - intros q N. apply SP. exact (xi_box _ _ _ s I q N).
  - intros X q Q. destruct (PH q) as [_ E]. rewrite E. apply (xi_past _ _ _ s I); [apply (SP al eg); exact X|exact Q].
  - intros q N. unfold set1 in N. destruct (q =? p) eqn:Q; [apply Z.eqb_eq in Q; subst q; exact P|apply (xi_pe _ _ _ s I q N)].
  - intros q i k X. destruct (xi_pend _ _ _ s I q i k X) as (U & L & M & V). split; [exact U|].
    split; [rewrite AL by (right; reflexivity); exact L|]. auto.
Qed.
Lemma set_alive_eq f p l v q k : set_alive f p l v q k = if (q =? p) && lk_eqb k l then v else f q k.
Proof. reflexivity. Qed.
Lemma set_alive_other f p l v q k : is_pool l = false -> q <> p \/ is_pool k = true -> set_alive f p l v q k = f q k.
Proof.
  intros NL [D|D]; unfold set_alive.
  - destruct (q =? p) eqn:Q; [apply Z.eqb_eq in Q; contradiction|reflexivity].
  - destruct (lk_eqb k l) eqn:E; [apply lk_eqb_eq in E; congruence|]. rewrite andb_false_r. reflexivity.
Qed.

Lemma XI_init s p e r o : XI s -> is_pe np p = true -> x_ph s p = PInit (e :: r) -> ev_step b (with_ph s p (PInit r)) p e = Some o ->
  exists s', o = Ok s' /\ XI s'.
Proof.
  intros I P F S. pose proof (xi_track _ _ _ s I p) as T. rewrite F in T. destruct (init_facts b e r T) as [T' K].
  destruct e; try contradiction; cbn [ev_step with_ph x_alive] in S.
  - destruct K as (NP & D & K & E). rewrite (xi_static _ _ _ s I p l NP), F, D in S. injection S as <-. eexists. split; [reflexivity|].
    cbn [with_ph x_l x_ph x_eng x_pend]. apply XI_ev; rewrite ?F; auto; try reflexivity.
    + intros q k X. apply set_alive_other; assumption.
    + intros k NK. rewrite set_alive_eq, Z.eqb_refl. cbn [andb]. rewrite (K k NK). destruct (lk_eqb k l); [reflexivity|].
      rewrite <- F. apply (xi_static _ _ _ s I). exact NK.
    + intros k M. rewrite set_alive_eq. destruct ((p =? p) && lk_eqb k l); [reflexivity|]. exact (xi_alive _ _ _ s I p engine k M).
    + intros X. apply E. rewrite <- F. apply (xi_eng _ _ _ s I). exact X.
    + intros N. destruct (xi_th _ _ _ s I p engine N) as [_ [[_ X]|[X _]]]; [exact X|]. rewrite engine_no_user in X. discriminate.
  - destruct K as [K E]. injection S as <-. eexists. split; [reflexivity|].
    cbn [with_ph x_l x_alive x_ph x_eng x_pend]. apply XI_ev; rewrite ?F; auto; try reflexivity.
    + intros k NK. rewrite (K k NK), <- F. apply (xi_static _ _ _ s I). exact NK.
    + intros k M. exact (xi_alive _ _ _ s I p engine k M).
    + intros q D. unfold set1. destruct (q =? p) eqn:Q; [apply Z.eqb_eq in Q; contradiction|reflexivity].
    + intros N. destruct (xi_th _ _ _ s I p engine N) as [_ [[_ X]|[X _]]]; [|rewrite engine_no_user in X; discriminate].
      exfalso. pose proof (xi_eng _ _ _ s I p X) as Y. rewrite F in Y. unfold engine_on in Y. cbn in Y. rewrite andb_false_r in Y. discriminate.
Qed.
Lemma XI_final s p e r o : XI s -> is_pe np p = true -> x_ph s p = PEnd (e :: r) -> ev_step b (with_ph s p (PEnd r)) p e = Some o ->
  exists s', o = Ok s' /\ XI s'.
Proof.
  intros I P F S. pose proof (xi_track _ _ _ s I p) as T. rewrite F in T. destruct (end_facts b e r T) as [T' K].
  assert (EN : forall i, l_th (x_l s) p i <> [] -> i = engine /\ x_eng s p = true).
  { intros i N. destruct (xi_th _ _ _ s I p i N) as [_ [X|[_ X]]]; [exact X|]. rewrite F in X. discriminate. }
  assert (EO : x_eng s p = true -> engine_on b (PEnd (e :: r)) = true) by (intros X; rewrite <- F; apply (xi_eng _ _ _ s I); exact X).
  destruct e; try contradiction; cbn [ev_step with_ph x_alive x_l] in S.
  - destruct K as (NP & D & K & E). rewrite (xi_static _ _ _ s I p l NP), F, D in S.
    assert (NM : forall k, mentions k (l_th (x_l s) p engine) = true -> k <> l).
    { intros k M ->. assert (N : l_th (x_l s) p engine <> []) by (intros Z; rewrite Z in M; discriminate).
      destruct (EN _ N) as [_ X]. destruct (E (EO X)) as (_ & N1 & N2).
      destruct (xi_englk _ _ _ s I p l M) as [Y|[Y _]]; contradiction. }
    destruct (l_own (x_l s) p l) as [i|] eqn:O.
    + exfalso. destruct (xi_run _ _ _ s I) as (ls & R). pose proof (owner_mentions _ _ _ _ _ _ R O) as M.
      assert (N : l_th (x_l s) p i <> []) by (intros Z; rewrite Z in M; discriminate). destruct (EN i N) as [-> _].
      exact (NM l M eq_refl).
    + injection S as <-. eexists. split; [reflexivity|]. cbn [with_ph x_l x_ph x_eng x_pend]. apply XI_ev; rewrite ?F; auto; try reflexivity.
      * intros q k X. apply set_alive_other; assumption.
      * intros k NK. rewrite set_alive_eq, Z.eqb_refl. cbn [andb]. rewrite (K k NK). destruct (lk_eqb k l); [reflexivity|].
        rewrite <- F. apply (xi_static _ _ _ s I). exact NK.
      * intros k M. rewrite set_alive_eq. destruct (lk_eqb k l) eqn:X; [apply lk_eqb_eq in X; exfalso; exact (NM k M X)|].
        rewrite andb_false_r. exact (xi_alive _ _ _ s I p engine k M).
      * intros N. apply (EN engine N).
  - destruct (idle (with_ph s p (PEnd r)) p engine) eqn:ID; [|discriminate]. injection S as <-. eexists. split; [reflexivity|].
    assert (Z : l_th (x_l s) p engine = []) by (unfold idle in ID; cbn [with_ph x_l] in ID; destruct (l_th (x_l s) p engine); [reflexivity|discriminate]).
    cbn [with_ph x_l x_alive x_ph x_eng x_pend]. apply XI_ev; rewrite ?F; auto; try reflexivity.
    + intros k NK. rewrite (K k NK), <- F. apply (xi_static _ _ _ s I). exact NK.
    + intros k M. exact (xi_alive _ _ _ s I p engine k M).
    + intros q D. unfold set1. destruct (q =? p) eqn:Q; [apply Z.eqb_eq in Q; contradiction|reflexivity].
    + unfold set1. rewrite Z.eqb_refl. discriminate.
Qed.

(** Spaces: their mutexes and who is destroying which. *)
Lemma XI_pools s al pd : XI s ->
  (forall q l, is_pool l = false -> al q l = x_alive s q l) ->
  (forall q i l, mentions l (l_th (x_l s) q i) = true -> al q l = true) ->
  (forall p i k, pd p i = Some k -> is_user nt i = true /\ al p (LPool k) = true /\
              (forall j, mentions (LPool k) (l_th (x_l s) p j) = false) /\ (forall j, pd p j = Some k -> j = i)) ->
  XI (mkX (x_l s) al (x_ph s) (x_eng s) pd).
Proof.
  intros I A M P. constructor; cbn [x_l x_alive x_ph x_eng x_pend]; try solve [apply I].
  - exact M.
  - intros q l N. rewrite A by exact N. apply (xi_static _ _ _ s I). exact N.
  - exact P.
Qed.
Lemma user_pe s p : XI s -> x_ph s p = PUser -> is_pe np p = true.
Proof. intros I F. apply (xi_pe _ _ _ s I). rewrite F. discriminate. Qed.
Lemma with_l_inv (s : xst) (x : option lst) o : with_l s x = Some o ->
  exists l, x = Some l /\ o = Ok (mkX l (x_alive s) (x_ph s) (x_eng s) (x_pend s)).
Proof. unfold with_l. destruct x as [l|]; [|discriminate]. intros E. injection E as <-. eauto. Qed.
Lemma set2_eq {A : Type} (f : Z -> Z -> A) p i v q j : set2 f p i v q j = if (q =? p) && (j =? i) then v else f q j.
Proof. reflexivity. Qed.

Lemma XI_step s x o : XI s -> xstep b np nt s x = Some o -> exists s', o = Ok s' /\ XI s'.
Proof.
  intros I S. destruct x as [p|p n|p|p i c|p i k|p i k|p i k|p|p i|p i n sp v|p n|p]; cbn [xstep] in S.
  - (* XEv *)
    destruct (is_pe np p) eqn:P; [|discriminate]. destruct (x_ph s p) as [[|e r]| | | |[|e r]|] eqn:F; try discriminate.
    + eapply XI_init; eauto.
    + injection S as <-. eexists. split; [reflexivity|]. apply XI_phase; auto; rewrite ?F.
      * intros l NP. unfold should. cbn. rewrite orb_false_r. reflexivity.
      * exact Logic.I.
      * intros X. exfalso. pose proof (xi_eng _ _ _ s I p X) as Y. rewrite F in Y. unfold engine_on in Y. cbn in Y. rewrite andb_false_r in Y. discriminate.
      * intros i U N. exfalso. destruct (xi_th _ _ _ s I p i N) as [_ [[-> _]|[_ X]]]; [rewrite engine_no_user in U; discriminate|].
        rewrite F in X. discriminate.
      * auto.
    + eapply XI_final; eauto.
  - (* XReady *)
    destruct (x_ph s p) as [[|e r]| | | |r|] eqn:F; try discriminate. destruct (is_pe np p && is_user nt 0) eqn:C; [|discriminate].
    apply andb_true_iff in C as [P U]. apply with_l_inv in S as (l & S & ->). eexists. split; [reflexivity|].
    assert (I' : XI (with_ph s p PReady)).
    { apply XI_phase; auto; rewrite ?F; try discriminate.
      - intros l0 NP. unfold should. cbn. reflexivity.
      - exact Logic.I.
      - intros X. pose proof (xi_eng _ _ _ s I p X) as Y. rewrite F in Y. exact Y. }
    apply (XI_call b np nt POLL (with_ph s p PReady) p 0 (bar_call n) l I' P U); auto.
    + cbn [with_ph x_ph]. unfold set1. rewrite Z.eqb_refl. reflexivity.
    + unfold lookups_ok, bar_call. cbn. apply orb_true_r.
    + discriminate.
    + left. exists n. reflexivity.
  - (* XUser *)
    destruct (x_ph s p) eqn:F; try discriminate. destruct (idle s p 0 && forallb (fun q => init_passed (x_ph s q)) (upto np)) eqn:C; [|discriminate].
    apply andb_true_iff in C as [_ C]. injection S as <-. eexists. split; [reflexivity|].
    assert (P : is_pe np p = true) by (apply (xi_pe _ _ _ s I); rewrite F; discriminate).
    apply XI_phase; auto; rewrite ?F; try discriminate; try reflexivity.
    + intros X. pose proof (xi_eng _ _ _ s I p X) as Y. rewrite F in Y. exact Y.
    + intros _. right. intros q Q. rewrite forallb_forall in C. apply C. apply in_upto. exact Q.
  - (* XCall *)
    destruct (x_ph s p) eqn:F; try discriminate.
    match type of S with (if ?g then _ else _) = _ => destruct g eqn:C; [|discriminate] end.
    repeat (apply andb_true_iff in C; let C' := fresh "C" in destruct C as [C C']).
    apply with_l_inv in S as (l & S & ->). eexists. split; [reflexivity|].
    apply (XI_call b np nt POLL s p i c l I); auto; try (eapply user_pe; eauto); rewrite ?F; auto.
    intros k U. rewrite U in C0. apply andb_true_iff in C0 as [A B]. split; [exact A|]. intros j X.
    destruct (xi_pend _ _ _ s I p j k X) as (Uj & _). rewrite forallb_forall in B. specialize (B j (in_upto _ _ Uj)). cbn in B. rewrite X, Z.eqb_refl in B. discriminate.
  - (* XCreate *)
    destruct (x_ph s p) eqn:F; try discriminate. destruct (is_user nt i && negb (x_alive s p (LPool k))) eqn:C; [|discriminate].
    apply andb_true_iff in C as [U C]. apply with_l_inv in S as (l & S & ->). eexists. split; [reflexivity|].
    assert (I' : XI (mkX (x_l s) (set_alive (x_alive s) p (LPool k) true) (x_ph s) (x_eng s) (x_pend s))).
    { apply XI_pools; auto.
      - intros q l0 N. rewrite set_alive_eq. destruct (lk_eqb l0 (LPool k)) eqn:E; [apply lk_eqb_eq in E; subst; discriminate|]. rewrite andb_false_r. reflexivity.
      - intros q j l0 M. rewrite set_alive_eq. destruct ((q =? p) && lk_eqb l0 (LPool k)); [reflexivity|]. exact (xi_alive _ _ _ s I q j l0 M).
      - intros q j k' X. destruct (xi_pend _ _ _ s I q j k' X) as (Uj & A & M & V). split; [exact Uj|]. split; [|auto].
        rewrite set_alive_eq. destruct ((q =? p) && lk_eqb (LPool k') (LPool k)); [reflexivity|exact A]. }
    apply (XI_call b np nt POLL _ p i CSpaceCreate l I'); auto; cbn [x_ph]; try (eapply user_pe; eauto); rewrite ?F; auto.
    + unfold lookups_ok. apply orb_true_r.
    + discriminate.
  - (* XDestroy *)
    destruct (x_ph s p) eqn:F; try discriminate.
    match type of S with (if ?g then _ else _) = _ => destruct g eqn:C; [|discriminate] end.
    apply andb_true_iff in C as [C B]. apply andb_true_iff in C as [U A]. rewrite forallb_forall in B.
    apply with_l_inv in S as (l & S & ->). eexists. split; [reflexivity|].
    assert (NM : forall j, mentions (LPool k) (l_th (x_l s) p j) = false).
    { intros j. destruct (mentions (LPool k) (l_th (x_l s) p j)) eqn:M; [|reflexivity]. exfalso.
      assert (N : l_th (x_l s) p j <> []) by (intros Z; rewrite Z in M; discriminate).
      destruct (xi_th _ _ _ s I p j N) as [_ [[-> _]|[Uj _]]].
      - destruct (xi_englk _ _ _ s I p _ M) as [X|[X _]]; discriminate.
      - specialize (B j (in_upto _ _ Uj)). cbn beta in B. rewrite M in B. discriminate. }
    assert (NPD : forall j, x_pend s p j <> Some k).
    { intros j X. destruct (xi_pend _ _ _ s I p j k X) as (Uj & _). specialize (B j (in_upto _ _ Uj)). cbn beta in B.
      apply andb_true_iff in B as [_ B]. rewrite X, Z.eqb_refl in B. discriminate. }
    assert (I' : XI (mkX (x_l s) (x_alive s) (x_ph s) (x_eng s) (set2 (x_pend s) p i (Some k)))).
    { apply XI_pools; auto; [apply (xi_alive _ _ _ s I)|]. intros q j k' X. rewrite set2_eq in X. destruct ((q =? p) && (j =? i)) eqn:D.
      - apply andb_true_iff in D as [D1 D2]. apply Z.eqb_eq in D1, D2. subst q j. injection X as <-. split; [exact U|]. split; [exact A|].
        split; [exact NM|]. intros j X. rewrite set2_eq, Z.eqb_refl in X. cbn [andb] in X. destruct (j =? i) eqn:D; [apply Z.eqb_eq in D; exact D|].
        exfalso. exact (NPD j X).
      - destruct (xi_pend _ _ _ s I q j k' X) as (Uj & Aj & M & V). split; [exact Uj|]. split; [exact Aj|]. split; [exact M|].
        intros j' Y. rewrite set2_eq in Y. destruct ((q =? p) && (j' =? i)) eqn:D'; [|exact (V j' Y)].
        apply andb_true_iff in D' as [D1 D2]. apply Z.eqb_eq in D1, D2. subst q j'. injection Y as <-. exfalso. exact (NPD j X). }
    apply (XI_call b np nt POLL _ p i CSpaceDestroy l I'); auto; cbn [x_ph]; try (eapply user_pe; eauto); rewrite ?F; auto.
    + unfold lookups_ok. apply orb_true_r.
    + discriminate.
  - (* XKill *)
    destruct (x_pend s p i) as [k'|] eqn:PD; [|discriminate]. destruct (l_th (x_l s) p i) as [|a [|a' r]] eqn:T; try (destruct a; discriminate); try discriminate.
    destruct a; try discriminate. destruct (k' =? k) eqn:KK; [|discriminate]. apply Z.eqb_eq in KK. subst k'. cbn [negb] in S. destruct (xi_pend _ _ _ s I p i k PD) as (U & A & M & V).
    rewrite A in S. destruct (l_own (x_l s) p (LPool k)) as [j|] eqn:O.
    + exfalso. destruct (xi_run _ _ _ s I) as (ls & R). pose proof (owner_mentions _ _ _ _ _ _ R O) as X. rewrite M in X. discriminate.
    + apply with_l_inv in S as (l & S & ->). eexists. split; [reflexivity|].
      assert (I' : XI (mkX (x_l s) (set_alive (x_alive s) p (LPool k) false) (x_ph s) (x_eng s) (set2 (x_pend s) p i None))).
      { apply XI_pools; auto.
        - intros q l0 N. rewrite set_alive_eq. destruct (lk_eqb l0 (LPool k)) eqn:E; [apply lk_eqb_eq in E; subst; discriminate|]. rewrite andb_false_r. reflexivity.
        - intros q j l0 X. rewrite set_alive_eq. destruct ((q =? p) && lk_eqb l0 (LPool k)) eqn:D; [|exact (xi_alive _ _ _ s I q j l0 X)].
          apply andb_true_iff in D as [D1 D2]. apply Z.eqb_eq in D1. apply lk_eqb_eq in D2. subst. rewrite M in X. discriminate.
        - intros q j k' X. rewrite set2_eq in X. destruct ((q =? p) && (j =? i)) eqn:D; [discriminate|].
          destruct (xi_pend _ _ _ s I q j k' X) as (Uj & Aj & Mj & Vj). split; [exact Uj|]. split.
          + rewrite set_alive_eq. destruct ((q =? p) && lk_eqb (LPool k') (LPool k)) eqn:D'; [|exact Aj]. exfalso.
            apply andb_true_iff in D' as [D1 D2]. apply Z.eqb_eq in D1. apply lk_eqb_eq in D2. injection D2 as ->. subst q.
            rewrite (V j X), !Z.eqb_refl in D. discriminate.
          + split; [exact Mj|]. intros j' Y. rewrite set2_eq in Y. destruct ((q =? p) && (j' =? i)); [discriminate|exact (Vj j' Y)]. }
      exact (XI_go b np nt _ p i l I' S).
  - (* XRound *)
    destruct (x_eng s p) eqn:E; [|discriminate]. apply with_l_inv in S as (l & S & ->). eexists. split; [reflexivity|].
    destruct (step_call _ _ _ _ _ _ S) as (T & T' & B). destruct (xi_run _ _ _ s I) as (ls & R).
    assert (NM : forall l0, mentions l0 (call_acts (b_async b) (l_next (x_l s)) CEngine) = false) by (intros l0; cbn; destruct (b_async b); reflexivity).
    assert (P : is_pe np p = true).
    { apply (xi_pe _ _ _ s I). intros X. pose proof (xi_eng _ _ _ s I p E) as Y. rewrite X in Y. unfold engine_on, init_events in Y.
      destruct (b_am b); [|discriminate]. destruct (b_cache b); discriminate. }
    apply (XI_th b np nt s p engine l (call_acts (b_async b) (l_next (x_l s)) CEngine) I); auto.
    + exists (ls ++ [LCall p engine CEngine]). eapply lrun_snoc; eauto.
    + intros q. rewrite B. apply (xi_box _ _ _ s I).
    + intros l0 M. rewrite NM in M. discriminate.
    + intros _ l0 M. rewrite NM in M. discriminate.
    + intros m t k O. exfalso. cbn in O. destruct (b_async b); cbn in O; intuition discriminate.
  - (* XGo *)
    assert (G : forall o, with_l s (lstep (b_async b) (x_l s) (LGo p i)) = Some o -> exists s', o = Ok s' /\ XI s').
    { intros o' G. apply with_l_inv in G as (l & G & ->). eexists. split; [reflexivity|]. exact (XI_go b np nt s p i l I G). }
    destruct (l_th (x_l s) p i) as [|a r] eqn:T; [exact (G o S)|].
    assert (AL : forall l, names l a = true -> x_alive s p l = true).
    { intros l N. apply (xi_alive _ _ _ s I p i l). rewrite T, mentions_cons, N. reflexivity. }
    destruct a; try (exact (G o S)).
    + rewrite (AL l) in S by (cbn; apply lk_eqb_eq; reflexivity). exact (G o S).
    + rewrite (AL l) in S by (cbn; apply lk_eqb_eq; reflexivity). exact (G o S).
    + destruct r; [|exact (G o S)]. destruct (x_pend s p i); [discriminate|exact (G o S)].
  - (* XHdr *)
    destruct (b_cache b || no_lookup v) eqn:C; [|discriminate]. apply with_l_inv in S as (l & S & ->). eexists. split; [reflexivity|].
    destruct (step_hdr _ _ _ _ _ _ _ _ S) as (r & m & k & T & BX & T' & B). destruct (xi_run _ _ _ s I) as (ls & R).
    assert (N : l_th (x_l s) p i <> []) by (rewrite T; discriminate). pose proof (xi_th _ _ _ s I p i N) as [P W].
    pose proof (xi_past _ _ _ s I (xi_box _ _ _ s I p BX) p P) as IP.
    assert (HL : forall l0, mentions l0 (handler k m sp v) = true -> l0 = LSpaces \/ (l0 = LStrided /\ b_cache b = true)).
    { intros l0 M. destruct (handler_mentions _ _ _ _ _ M) as [X|[X Y]]; [left; exact X|right]. split; [exact X|]. rewrite Y, orb_false_r in C. exact C. }
    assert (HA : forall l0, mentions l0 (handler k m sp v) = true -> x_alive s p l0 = true).
    { intros l0 M. pose proof (HL l0 M) as L. assert (NP : is_pool l0 = false) by (destruct L as [->|[-> _]]; reflexivity).
      rewrite (xi_static _ _ _ s I p l0 NP). destruct W as [[-> E]|[_ A]].
      - apply engine_locks; auto; [apply (xi_eng _ _ _ s I); exact E|apply (xi_track _ _ _ s I)].
      - rewrite (should_active b _ _ A), (static_has b l0 NP). destruct L as [->|[-> X]]; auto. }
    apply (XI_th b np nt s p i l (handler k m sp v ++ r) I); auto.
    + exists (ls ++ [LHdr p i n sp v]). eapply lrun_snoc; eauto.
    + intros q X. apply (xi_box _ _ _ s I q). apply B. exact X.
    + intros l0 M. rewrite mentions_app in M. apply orb_true_iff in M as [M|M]; [exact (HA l0 M)|].
      apply (xi_alive _ _ _ s I p i l0). rewrite T, mentions_cons, M. apply orb_true_r.
    + intros -> l0 M. rewrite mentions_app in M. apply orb_true_iff in M as [M|M]; [exact (HL l0 M)|].
      apply (xi_englk _ _ _ s I p l0). rewrite T, mentions_cons, M. apply orb_true_r.
    + intros m' t k' O. apply in_app_iff in O as [O|O]; [exfalso; exact (open_handler _ _ _ _ _ _ _ O)|].
      apply (xi_open _ _ _ s I p i m' t k'). rewrite T. right. exact O.
    + intros j k' X. rewrite mentions_app. destruct (mentions (LPool k') (handler k m sp v)) eqn:M.
      * destruct (HL _ M) as [Y|[Y _]]; discriminate.
      * destruct (xi_pend _ _ _ s I p j k' X) as (_ & _ & V & _). specialize (V i). rewrite T, mentions_cons in V. exact V.
  - (* XFin *)
    destruct (x_ph s p) eqn:F; try discriminate. destruct (is_user nt 0 && forallb (idle s p) (upto nt)) eqn:C; [|discriminate].
    apply andb_true_iff in C as [U _]. apply with_l_inv in S as (l & S & ->). eexists. split; [reflexivity|].
    pose proof (user_pe s p I F) as P.
    assert (I' : XI (with_ph s p PBar)).
    { apply XI_phase; auto; rewrite ?F; try reflexivity; auto.
      intros X. pose proof (xi_eng _ _ _ s I p X) as Y. rewrite F in Y. exact Y. }
    apply (XI_call b np nt POLL (with_ph s p PBar) p 0 (bar_call n) l I' P U); auto.
    + cbn [with_ph x_ph]. unfold set1. rewrite Z.eqb_refl. reflexivity.
    + unfold lookups_ok, bar_call. cbn. apply orb_true_r.
    + discriminate.
    + left. exists n. reflexivity.
  - (* XEnd *)
    destruct (x_ph s p) eqn:F; try discriminate. destruct (forallb (idle s p) (upto nt) && forallb (fun q => bar_reached (x_ph s q)) (upto np)) eqn:C; [|discriminate].
    apply andb_true_iff in C as [Z0 C]. injection S as <-. eexists. split; [reflexivity|].
    assert (P : is_pe np p = true) by (apply (xi_pe _ _ _ s I); rewrite F; discriminate).
    apply XI_phase; auto; rewrite ?F; try reflexivity; auto.
    + intros l NP. unfold should. f_equal. destruct (has (EDestroy l) (final_events b)); reflexivity.
    + cbn [on_track suffixes]. destruct (final_events b); left; reflexivity.
    + intros X. pose proof (xi_eng _ _ _ s I p X) as Y. rewrite F in Y. unfold engine_on in *. rewrite andb_true_r in Y.
      rewrite Y. unfold final_events. rewrite Y. reflexivity.
    + intros i U N. exfalso. rewrite forallb_forall in Z0. specialize (Z0 i (in_upto _ _ U)). unfold idle in Z0.
      destruct (l_th (x_l s) p i); [apply N; reflexivity|discriminate].
Qed.
Lemma XI_run xs : forall s o, XI s -> xrun b np nt s xs = Some o -> exists s', o = Ok s' /\ XI s'.
Proof.
  induction xs as [|x xs IH]; intros s o I R; cbn [xrun] in R.
  - injection R as <-. eauto.
  - destruct (xstep b np nt s x) as [o1|] eqn:S; [|discriminate]. destruct (XI_step s x o1 I S) as (s1 & -> & I1). exact (IH s1 o I1 R).
Qed.
Lemma ev_pool s p e o f : XI s -> (x_ph s p = PInit (e :: f) \/ x_ph s p = PEnd (e :: f)) -> forall g, ev_step b (with_ph s p g) p e = Some (Ok o) ->
  forall q k, x_alive o q (LPool k) = x_alive s q (LPool k).
Proof.
  intros I F g S q k. pose proof (xi_track _ _ _ s I p) as T.
  assert (NP : forall l, e = EInit l \/ e = EDestroy l -> is_pool l = false).
  { intros l L. destruct F as [F|F]; rewrite F in T.
    - destruct (init_facts _ _ _ T) as [_ K]. destruct L as [->| ->]; [apply K|contradiction].
    - destruct (end_facts _ _ _ T) as [_ K]. destruct L as [->| ->]; [contradiction|apply K]. }
  destruct e; cbn [ev_step with_ph x_alive x_l] in S.
  - destruct (x_alive s p l); [discriminate|]. injection S as <-. cbn [x_alive]. apply set_alive_other; auto.
  - destruct (x_alive s p l); [|injection S as <-; reflexivity]. destruct (l_own (x_l s) p l); [discriminate|].
    injection S as <-. cbn [x_alive]. apply set_alive_other; auto.
  - injection S as <-. reflexivity.
  - match type of S with (if ?g then _ else _) = _ => destruct g; [|discriminate] end. injection S as <-. reflexivity.
Qed.
Lemma with_l_alive (s : xst) (x : option lst) o : with_l s x = Some (Ok o) -> x_alive o = x_alive s.
Proof. intros E. apply with_l_inv in E as (l & _ & E). injection E as ->. reflexivity. Qed.
Lemma pool_step s x s' q k : XI s -> xstep b np nt s x = Some (Ok s') -> x_alive s' q (LPool k) = space_life1 q k (x_alive s q (LPool k)) x.
Proof.
  intros I S. destruct x as [p|p n|p|p i c|p i k'|p i k'|p i k'|p|p i|p i n sp v|p n|p]; cbn [xstep] in S; cbn [space_life1].
  - destruct (is_pe np p); [|discriminate]. destruct (x_ph s p) as [[|e r]| | | |[|e r]|] eqn:F; try discriminate.
    + eapply ev_pool; [exact I|left; exact F|exact S].
    + injection S as <-. reflexivity.
    + eapply ev_pool; [exact I|right; exact F|exact S].
  - destruct (x_ph s p) as [[|e r]| | | |r|]; try discriminate. destruct (is_pe np p && is_user nt 0); [|discriminate].
    rewrite (with_l_alive _ _ _ S). reflexivity.
  - destruct (x_ph s p); try discriminate.
    match type of S with (if ?g then _ else _) = _ => destruct g; [|discriminate] end. injection S as <-. reflexivity.
  - destruct (x_ph s p); try discriminate.
    match type of S with (if ?g then _ else _) = _ => destruct g; [|discriminate] end. rewrite (with_l_alive _ _ _ S). reflexivity.
  - destruct (x_ph s p); try discriminate.
    match type of S with (if ?g then _ else _) = _ => destruct g; [|discriminate] end. rewrite (with_l_alive _ _ _ S). cbn [x_alive]. reflexivity.
  - destruct (x_ph s p); try discriminate.
    match type of S with (if ?g then _ else _) = _ => destruct g; [|discriminate] end. rewrite (with_l_alive _ _ _ S). reflexivity.
  - destruct (x_pend s p i) as [k2|]; [|discriminate]. destruct (l_th (x_l s) p i) as [|a [|a' r]]; try (destruct a; discriminate); try discriminate.
    destruct a; try discriminate. destruct (k2 =? k'); [|discriminate]. cbn [negb] in S.
    destruct (l_own (x_l s) p (LPool k')); [discriminate|]. destruct (x_alive s p (LPool k')); [|discriminate].
    rewrite (with_l_alive _ _ _ S). cbn [x_alive]. reflexivity.
  - destruct (x_eng s p); [|discriminate]. rewrite (with_l_alive _ _ _ S). reflexivity.
  - destruct (l_th (x_l s) p i) as [|a r]; [rewrite (with_l_alive _ _ _ S); reflexivity|].
    destruct a; try (rewrite (with_l_alive _ _ _ S); reflexivity).
    + destruct (x_alive s p l); [|discriminate]. rewrite (with_l_alive _ _ _ S). reflexivity.
    + destruct (x_alive s p l); [|discriminate]. rewrite (with_l_alive _ _ _ S). reflexivity.
    + destruct r; [destruct (x_pend s p i); [discriminate|]|]; rewrite (with_l_alive _ _ _ S); reflexivity.
  - destruct (b_cache b || no_lookup v); [|discriminate]. rewrite (with_l_alive _ _ _ S). reflexivity.
  - destruct (x_ph s p); try discriminate.
    match type of S with (if ?g then _ else _) = _ => destruct g; [|discriminate] end. rewrite (with_l_alive _ _ _ S). reflexivity.
  - destruct (x_ph s p); try discriminate.
    match type of S with (if ?g then _ else _) = _ => destruct g; [|discriminate] end. injection S as <-. reflexivity.
Qed.
Lemma pool_run xs q k : forall s s', XI s -> xrun b np nt s xs = Some (Ok s') -> x_alive s' q (LPool k) = fold_left (space_life1 q k) xs (x_alive s q (LPool k)).
Proof.
  induction xs as [|x xs IH]; intros s s' I R; cbn [xrun] in R.
  - injection R as <-. reflexivity.
  - destruct (xstep b np nt s x) as [o1|] eqn:S; [|discriminate]. destruct (XI_step s x o1 I S) as (s1 & -> & I1).
    cbn [fold_left]. rewrite (IH s1 s' I1 R). rewrite (pool_step s x s1 q k I S). reflexivity.
Qed.
Lemma done_static l : is_pool l = false -> should b PDone l = true -> l = LHeap /\ b_dyn b = true.
Proof.
  intros NP. unfold should. rewrite (static_has b l NP). unfold final_events.
  destruct l; try discriminate; destruct (b_am b), (b_cache b), (b_dyn b); cbn; intros E; try discriminate; auto.
Qed.
End Inv2.
