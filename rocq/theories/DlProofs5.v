(** The bins and the chunks of the heap agree: release, alignment, change of size. *)
From Coq Require Import Permutation.
From Verif Require Import Base BaseProofs SobjModel HeapModel HeapSpec HeapProofs HeapProofs2 DlModel
  DlSpec DlProofs DlProofs2 DlProofs3 DlProofs4.

Lemma HF_ext F G : (forall x y, F x y <-> G x y) -> HF F -> HF G.
Proof.
  intros E [H1 H2]. split.
  - intros x y H. apply E in H. auto.
  - intros x y y' H H'. apply E in H, H'. eauto.
Qed.

Definition fa (o : Z) (l : list chunk) : pset := fun x y => In (x, y) (free_at o l).

Lemma fa_bounds o l x y : Forall wfc l -> fa o l x y -> o <= x /\ x + y <= o + total l /\ (16 | y) /\ 32 <= y.
Proof. apply free_bounds. Qed.

(** The part of dispose behind the merge with the chunk before. *)
Definition forward (pre : list chunk) (sz : Z) (post : list chunk) (t : Z) : list chunk * option Z :=
  match post with
  | [] => (pre, Some (t + sz))
  | Ck s Free :: post' => (pre ++ Ck (sz + s) Free :: post', Some t)
  | _ => (pre ++ Ck sz Free :: post, Some t)
  end.

Lemma forward_db b pre psize post t l t' (isdv : bool) :
  let p := MSIZE + total pre in
  Forall wfc pre -> Forall wfc post -> 32 <= psize -> (16 | psize) ->
  p + psize + total post < 2 ^ 40 -> (p =? dv b) = isdv ->
  (isdv = true -> match post with Ck _ Free :: _ | [] => True | _ => False end) ->
  HF (fun x y => fa MSIZE pre x y \/ fa (p + psize) post x y \/ (isdv = true /\ x = p /\ y = dvs b)) ->
  DB b (fun x y => fa MSIZE pre x y \/ fa (p + psize) post x y \/ (isdv = true /\ x = p /\ y = dvs b)) ->
  forward pre psize post t = (l, t') ->
  DB (dispose_forward b p psize post (p + psize)) (fa MSIZE l).
Proof.
  intros p W1 W2 S0 S1 TB IV PC HH D E.
  assert (P0 : 0 < p).
  { unfold p. pose proof (total_pos _ W1). rewrite MSIZE_eq. lia. }
  assert (NA : forall x y, fa MSIZE pre x y -> x + 32 <= p).
  { intros x y H. apply fa_bounds in H; [|exact W1]. unfold p. lia. }
  assert (NB : forall x y, fa (p + psize) post x y -> p + psize <= x).
  { intros x y H. apply fa_bounds in H; [|exact W2]. lia. }
  set (G := fun x y => _) in *. destruct HH as [HF1 HF2].
  unfold dispose_forward, forward in *.
  destruct post as [|[s tg] post].
  - injection E as <- <-. rewrite IV. destruct isdv.
    + apply (DB_dv b G); [exact D|now left|]. unfold G. intros x y. apply Z.eqb_eq in IV. rewrite <- IV.
      cbn [fa free_at In]. split.
      * intros [[Q|[Q|Q]] N]; [|destruct Q|]; [|lia]. split; [exact Q|].
        specialize (NA _ _ Q). pose proof (fa_bounds _ _ _ _ W1 Q). rewrite MSIZE_eq in *. lia.
      * intros [Q N]. split; [now left|]. specialize (NA _ _ Q). lia.
    + refine (DB_ext _ _ _ _ D). unfold G. cbn. intros x y. unfold fa. cbn. split; [|tauto].
      intros [Q|[Q|Q]]; [exact Q|easy|easy].
  - inversion W2 as [|? ? [Ds Ss] W3]; subst. cbn in Ds, Ss. cbn [total c_sz] in TB.
    pose proof (total_pos _ W3) as TP. pose proof (total_pos _ W1) as TP1.
    assert (NB' : forall x y, fa (p + psize + s) post x y -> p + psize + s <= x).
    { intros x y H. apply fa_bounds in H; [|exact W3]. lia. }
    destruct tg.
    + injection E as <- <-.
      assert (EG : forall x y, G x y <-> fa MSIZE pre x y \/ (x = p + psize /\ y = s) \/
          fa (p + psize + s) post x y \/ ((p =? dv b) = true /\ x = p /\ y = dvs b)).
      { intros x y. unfold G, fa. cbn [free_at is_free c_tag c_sz]. rewrite in_app_iff. cbn [In].
        split; intros [Q|[Q|Q]]; try tauto.
        - destruct Q as [[Q|[]]|Q]; [injection Q as <- <-|]; tauto.
        - destruct Q as [-> ->]. tauto. }
      assert (EL : forall x y, fa MSIZE (pre ++ Ck (psize + s) Free :: post) x y <->
          fa MSIZE pre x y \/ (x = p /\ y = psize + s) \/ fa (p + psize + s) post x y).
      { intros x y. unfold fa. rewrite free_mid. fold p.
        replace (p + (psize + s)) with (p + psize + s) by lia. tauto. }
      assert (KS : okc (psize + s)).
      { split; [rewrite MSIZE_eq in *; unfold p in *; lia|now apply Z.divide_add_r]. }
      destruct (Z.eqb_spec (p + psize) (dv b)) as [ND|ND].
      * assert (V : dvs b = s).
        { destruct (db_dv _ _ D) as [[Q _]|Q]; [lia|]. apply (HF2 (dv b)); [exact Q|].
          apply EG. rewrite <- ND. tauto. }
        apply (DB_dv b G); [exact D|right; apply EL; rewrite V; right; left; split; [reflexivity|lia]|].
        intros x y. rewrite EG, EL. rewrite <- ND. destruct (Z.eqb_spec p (p + psize)); [lia|]. split.
        -- intros [[Q|[Q|[Q|Q]]] N]; [split; [tauto|specialize (NA _ _ Q); lia]|lia|
             split; [tauto|specialize (NB' _ _ Q); lia]|easy].
        -- intros [[Q|[Q|Q]] N]; [split; [tauto|specialize (NA _ _ Q); lia]|lia|
             split; [tauto|specialize (NB' _ _ Q); lia]].
      * assert (U : DB (unlink_chunk b (p + psize) s) (pdel G (p + psize))).
        { apply DB_unlink; [exact D|apply EG; tauto|exact ND|lia]. }
        destruct (unlink_chunk_dv b (p + psize) s) as [U1 U2].
        destruct (Z.eqb_spec p (dv b)) as [PD|PD].
        -- apply (DB_dv _ (pdel G (p + psize))); [exact U|right; apply EL; rewrite <- PD; tauto|].
           intros x y. unfold pdel. rewrite EG, EL, U1, <- PD. split.
           ++ intros [[[Q|[Q|[Q|Q]]] N] N2]; [tauto|tauto|tauto|lia].
           ++ intros [[Q|[Q|Q]] N]; [split; [split; [tauto|specialize (NA _ _ Q); lia]|exact N]|lia|
                split; [split; [tauto|specialize (NB' _ _ Q); lia]|exact N]].
        -- assert (X : DB (insert_chunk (unlink_chunk b (p + psize) s) p (psize + s))
                          (padd (pdel G (p + psize)) p (psize + s))).
           { apply DB_insert; [exact U|exact KS|exact P0|].
             intros y [Q _]. apply EG in Q. destruct Q as [Q|[Q|[Q|Q]]].
             - specialize (NA _ _ Q). lia.
             - lia.
             - specialize (NB' _ _ Q). lia.
             - easy. }
           refine (DB_ext _ _ _ _ X). intros x y. unfold padd, pdel. rewrite EG, EL. split.
           ++ intros [[[Q|[Q|[Q|Q]]] N]|Q]; [tauto|tauto|tauto|easy|tauto].
           ++ intros [Q|[Q|Q]]; [left; split; [tauto|specialize (NA _ _ Q); lia]|tauto|
                left; split; [tauto|specialize (NB' _ _ Q); lia]].
    + assert (IV' : (p =? dv b) = false).
      { destruct (p =? dv b); [|reflexivity]. now specialize (PC eq_refl). }
      injection E as <- <-.
      assert (X : DB (insert_chunk b p psize) (padd G p psize)).
      { apply DB_insert; [exact D|split; [rewrite MSIZE_eq in *; unfold p in *; lia|exact S1]|exact P0|].
        unfold G. rewrite IV'. intros y [Q|[Q|Q]].
        - specialize (NA _ _ Q). lia.
        - specialize (NB _ _ Q). lia.
        - easy. }
      refine (DB_ext _ _ _ _ X). intros x y. unfold padd, G. rewrite IV'. unfold fa.
      rewrite free_mid. fold p. intuition congruence.
    + assert (IV' : (p =? dv b) = false).
      { destruct (p =? dv b); [|reflexivity]. now specialize (PC eq_refl). }
      injection E as <- <-.
      assert (X : DB (insert_chunk b p psize) (padd G p psize)).
      { apply DB_insert; [exact D|split; [rewrite MSIZE_eq in *; unfold p in *; lia|exact S1]|exact P0|].
        unfold G. rewrite IV'. intros y [Q|[Q|Q]].
        - specialize (NA _ _ Q). lia.
        - specialize (NB _ _ Q). lia.
        - easy. }
      refine (DB_ext _ _ _ _ X). intros x y. unfold padd, G. rewrite IV'. unfold fa.
      rewrite free_mid. fold p. intuition congruence.
Qed.

(** Free chunks on both sides of a place. *)
Definition beside (pre : list chunk) (sz : Z) (post : list chunk) : pset :=
  fun x y => fa MSIZE pre x y \/ fa (MSIZE + total pre + sz) post x y.

Lemma beside_HF pre sz post : Forall wfc pre -> Forall wfc post -> 0 < sz ->
  MSIZE + total pre + sz + total post < 2 ^ 40 -> HF (beside pre sz post).
Proof.
  intros W1 W2 S L. pose proof (total_pos _ W1). pose proof (total_pos _ W2). rewrite MSIZE_eq in *. split.
  - intros x y [H1|H1]; apply fa_bounds in H1; auto; rewrite ?MSIZE_eq in *; (split; [lia|]); (split; [lia|tauto]).
  - intros x y y' [H1|H1] [H2|H2].
    + eapply free_fun; [|exact H1|exact H2]. exact W1.
    + apply fa_bounds in H1, H2; auto. rewrite ?MSIZE_eq in *. lia.
    + apply fa_bounds in H1, H2; auto. rewrite ?MSIZE_eq in *. lia.
    + eapply free_fun; [|exact H1|exact H2]. exact W2.
Qed.

Lemma dispose_db b pre sz post t l t' :
  Forall wfc pre -> Forall wfc post -> 32 <= sz -> (16 | sz) ->
  MSIZE + total pre + sz + total post < 2 ^ 40 ->
  DB b (beside pre sz post) -> dispose pre sz post (Some t) = (l, t') ->
  DB (dispose_bins b (MSIZE + total pre) pre sz post) (fa MSIZE l).
Proof.
  intros W1 W2 S0 S1 TB D E.
  pose proof (beside_HF pre sz post W1 W2 ltac:(lia) TB) as HH.
  assert (NP : forall x y, beside pre sz post x y -> 0 < x) by (intros x y H; now apply HH in H).
  unfold dispose_bins. unfold dispose in E.
  assert (FW : forall q s', (let '(pre', sz') := (q, s') in
    match post with
    | [] => (pre', Some (t + sz'))
    | Ck s Free :: post' => (pre' ++ Ck (sz' + s) Free :: post', Some t)
    | _ => (pre' ++ Ck sz' Free :: post, Some t)
    end) = forward q s' post t) by reflexivity.
  (* nothing to merge with before *)
  assert (PLAIN : (forall s r, rev pre <> Ck s Free :: r) ->
    forward pre sz post t = (l, t') ->
    DB (dispose_forward b (MSIZE + total pre) sz post (MSIZE + total pre + sz)) (fa MSIZE l)).
  { intros NF E'.
    assert (IV : (MSIZE + total pre =? dv b) = false).
    { apply Z.eqb_neq. intros Q. destruct (db_dv _ _ D) as [[V _]|V].
      - pose proof (total_pos _ W1). rewrite MSIZE_eq in Q. lia.
      - rewrite <- Q in V. destruct V as [V|V]; apply fa_bounds in V; auto; lia. }
    apply (forward_db b pre sz post t l t' false); auto; try lia.
    - refine (HF_ext _ _ _ HH). unfold beside. intros x y. intuition congruence.
    - refine (DB_ext _ _ _ _ D). unfold beside. intros x y. intuition congruence. }
  destruct (rev pre) as [|[s tg] r] eqn:ER.
  - rewrite FW in E. apply PLAIN; [easy|exact E].
  - destruct tg.
    2,3: rewrite FW in E; apply PLAIN; [easy|exact E].
    rewrite FW in E. clear PLAIN FW.
    apply rev_cons_eq in ER. rewrite ER in *. set (q := rev r) in *.
    apply Forall_app in W1 as [W0 W1]. inversion W1 as [|? ? [Ds Ss] _]; subst. cbn in Ds, Ss.
    rewrite total_app in *. cbn [total c_sz] in *.
    replace (MSIZE + (total q + (s + 0)) - s) with (MSIZE + total q) by lia.
    replace (MSIZE + (total q + (s + 0)) + sz) with (MSIZE + total q + (s + sz)) by lia.
    assert (EB : forall x y, beside (q ++ [Ck s Free]) sz post x y <->
      fa MSIZE q x y \/ (x = MSIZE + total q /\ y = s) \/ fa (MSIZE + total q + (s + sz)) post x y).
    { intros x y. unfold beside. rewrite total_app. cbn [total c_sz].
      replace (MSIZE + (total q + (s + 0)) + sz) with (MSIZE + total q + (s + sz)) by lia.
      unfold fa. rewrite free_mid. cbn. tauto. }
    set (p := MSIZE + total q) in *.
    assert (P0 : 0 < p). { unfold p. pose proof (total_pos _ W0). rewrite MSIZE_eq. lia. }
    assert (NA : forall x y, fa MSIZE q x y -> x + 32 <= p).
    { intros x y H. apply fa_bounds in H; [|exact W0]. unfold p. lia. }
    assert (NB : forall x y, fa (p + (s + sz)) post x y -> p + (s + sz) <= x).
    { intros x y H. apply fa_bounds in H; [|exact W2]. lia. }
    assert (DS : (16 | s + sz)) by now apply Z.divide_add_r.
    destruct (Z.eqb_spec p (dv b)) as [PD|PD].
    + assert (V : dvs b = s).
      { destruct (db_dv _ _ D) as [[Q _]|Q]; [lia|]. apply (proj2 HH (dv b)); [exact Q|].
        apply EB. rewrite <- PD. tauto. }
      assert (FWD : match post with Ck _ Free :: _ | [] => True | _ => False end ->
        DB (dispose_forward b p (s + sz) post (p + (s + sz))) (fa MSIZE l)).
      { intros PC. apply (forward_db b q (s + sz) post t l t' true); auto; try lia.
        - refine (HF_ext _ _ _ HH). intros x y. rewrite EB. fold p. rewrite V. intuition.
        - refine (DB_ext _ _ _ _ D). intros x y. rewrite EB. fold p. rewrite V. intuition. }
      assert (GROW : match post with Ck _ Free :: _ | [] => False | _ => True end ->
        DB (set_dv b (dv b) (s + sz)) (fa MSIZE l)).
      { intros PC. assert (l = q ++ Ck (s + sz) Free :: post) as ->.
        { destruct post as [|[s2 tg2] post]; [easy|]. destruct tg2; [easy| |]; now injection E as <- <-. }
        assert (EL : forall x y, fa MSIZE (q ++ Ck (s + sz) Free :: post) x y <->
          fa MSIZE q x y \/ (x = p /\ y = s + sz) \/ fa (p + (s + sz)) post x y).
        { intros x y. unfold fa. rewrite free_mid. fold p. tauto. }
        apply (DB_dv b (beside (q ++ [Ck s Free]) sz post)); [exact D|right; apply EL; rewrite <- PD; tauto|].
        intros x y. rewrite EB, EL, <- PD. split; intros [[Q|[Q|Q]] N]; tauto. }
      destruct post as [|[s2 tg2] post]; [now apply FWD|].
      destruct tg2; [now apply FWD|now apply GROW|now apply GROW].
    + assert (U : DB (unlink_chunk b p s) (pdel (beside (q ++ [Ck s Free]) sz post) p)).
      { apply DB_unlink; [exact D|apply EB; tauto|exact PD|exact P0]. }
      assert (EU : forall x y, pdel (beside (q ++ [Ck s Free]) sz post) p x y <->
        (fa MSIZE q x y \/ fa (p + (s + sz)) post x y \/ false = true /\ x = p /\ y = dvs (unlink_chunk b p s))).
      { intros x y. unfold pdel. rewrite EB. split.
        - intros [[Q|[Q|Q]] N]; [tauto|tauto|tauto].
        - intros [Q|[Q|Q]]; [split; [tauto|specialize (NA _ _ Q); lia]|
            split; [tauto|specialize (NB _ _ Q); lia]|easy]. }
      destruct (unlink_chunk_dv b p s) as [U1 U2].
      apply (forward_db _ q (s + sz) post t l t' false); auto; try lia.
      * fold p. refine (HF_ext _ _ EU _). destruct HH as [HH1 HH2]. split.
        -- intros x y [Q _]. auto.
        -- intros x y y' [Q _] [Q' _]. eauto.
      * fold p. exact (DB_ext _ _ _ EU U).
Qed.

(** ** Release *)
Lemma fr_used h pre s post : h_ch h = pre ++ Ck s Used :: post ->
  forall x y, fr h x y <-> beside pre s post x y.
Proof.
  intros E x y. unfold fr, free_blocks, beside, fa. rewrite E, free_mid. intuition congruence.
Qed.

Lemma wf_room T h pre s tg post : wf T h -> T <= 2 ^ 40 -> h_top h <> None ->
  h_ch h = pre ++ Ck s tg :: post -> MSIZE + total pre + s + total post < 2 ^ 40.
Proof.
  intros W L NT E. destruct W as [_ W2 W3 _ _ _ _]. rewrite E, total_app in W3. cbn in W3.
  destruct (h_top h) as [t|]; [|easy]. cbn in W2, W3. rewrite TOP_FOOT_eq in W3. lia.
Qed.

Lemma d_free_ok T d o s : DI T d -> In (o - MEM_OFF, s) (used (d_h d)) ->
  exists d', d_free d o = Ok d' /\ m_free (d_h d) o = Ok (d_h d') /\ DI T d'.
Proof.
  intros [W L NT D] H. destruct (m_free_ok _ _ _ _ W H) as (h' & E & W' & R & X & TT).
  destruct (usedl_in _ _ _ _ H) as (pre & post & El & Eo).
  destruct (wf_split _ _ _ _ _ W El) as (P1 & P2 & Dv & S & N1 & N2).
  unfold m_free in E. unfold d_free. rewrite El, Eo in *. rewrite locate_app in * by exact P1.
  destruct (h_top (d_h d)) as [t|] eqn:ET; [|easy].
  destruct (dispose pre s post (Some t)) as [l t'] eqn:ED. injection E as <-.
  eexists. split; [reflexivity|]. split.
  { unfold m_free. rewrite El, Eo, locate_app by exact P1. rewrite ET, ED. reflexivity. }
  split; cbn [d_h d_b]; auto.
  - cbn in TT. now destruct t'.
  - unfold fr. cbn [free_blocks h_ch].
    apply (dispose_db _ pre s post t l t'); auto.
    + apply (wf_room T (d_h d) pre s Used post W L); [congruence|exact El].
    + refine (DB_ext _ _ _ _ D). now apply fr_used.
Qed.

(** ** Alignment *)
Lemma d_trim_ok T d o s nb : DI T d -> In (o, s) (used (d_h d)) -> (16 | nb) -> 32 <= nb -> nb <= s ->
  exists s' d', d_trim d o nb = Ok (s', d') /\ trim_chunk (d_h d) o nb = Ok (s', d_h d') /\ DI T d'.
Proof.
  intros [W L NT D] H Dn Hn Hs. destruct (trim_chunk_ok _ _ _ _ _ W H Dn Hn Hs) as (s' & h' & E & W' & _ & _ & X).
  destruct (usedl_in _ _ _ _ H) as (pre & post & El & Eo).
  destruct (wf_split _ _ _ _ _ W El) as (P1 & P2 & Dv & S & N1 & N2).
  unfold trim_chunk in *. unfold d_trim. rewrite El, Eo in *. rewrite locate_app in * by exact P1.
  destruct (Z.ltb_spec (nb + MIN_CHUNK) s) as [LT|GE].
  - destruct (h_top (d_h d)) as [t|] eqn:ET; [|easy].
    destruct (dispose (pre ++ [Ck nb Used]) (s - nb) post (Some t)) as [l t'] eqn:ED.
    injection E as <- <-. eexists _, _. split; [reflexivity|]. split; [reflexivity|].
    split; cbn [d_h d_b]; auto.
    + assert (XT : topb t' = true).
      { unfold dispose in ED. rewrite rev_app_distr in ED. cbn in ED.
        destruct post as [|[? []] ?]; now injection ED as <- <-. }
      now destruct t'.
    + unfold fr. cbn [free_blocks h_ch].
      replace (MSIZE + total pre + nb) with (MSIZE + total (pre ++ [Ck nb Used])) by (rewrite total_app; cbn; lia).
      unfold MIN_CHUNK in LT.
      pose proof (wf_room T _ pre s Used post W L ltac:(congruence) El) as RM.
      apply (dispose_db _ _ _ post t l t'); auto.
      * apply Forall_app. split; [exact P1|]. constructor; [now split|constructor].
      * lia.
      * now apply divide_sub.
      * rewrite total_app. cbn. lia.
      * refine (DB_ext _ _ _ _ D). intros x y. rewrite (fr_used _ _ _ _ El). unfold beside, fa.
        rewrite total_app, free_app. cbn.
        replace (MSIZE + (total pre + (nb + 0)) + (s - nb)) with (MSIZE + total pre + s) by lia. tauto.
  - injection E as <- <-. eexists _, _. split; [reflexivity|]. split; [reflexivity|]. now split.
Qed.

Lemma d_lead_ok T base d o s k : DI T d -> In (o, s) (used (d_h d)) -> (16 | base) -> 5 <= k ->
  2 ^ k + 48 <= s ->
  exists o2 d2, d_lead base d o (2 ^ k) = Ok (o2, d2) /\ lead_chunk base (d_h d) o (2 ^ k) = Ok (o2, d_h d2) /\
    DI T d2.
Proof.
  intros [W L NT D] H Db Hk Hs.
  destruct (lead_chunk_ok T base (d_h d) o s k W H Db Hk Hs) as (o2 & h2 & E & W2 & BD & AL & RP & X).
  destruct (usedl_in _ _ _ _ H) as (pre & post & El & Eo). subst o. set (o := MSIZE + total pre) in *.
  destruct (wf_split _ _ _ _ _ W El) as (P1 & P2 & Dv & S & N1 & N2).
  unfold lead_chunk in *. unfold d_lead.
  destruct (Z.eqb_spec (Z.land (base + o + MEM_OFF) (2 ^ k - 1)) 0) as [Z0|Z0].
  { injection E as <- <-. eexists _, _. split; [reflexivity|]. split; [reflexivity|]. now split. }
  assert (MM : (base + o + MEM_OFF) mod 2 ^ k <> 0) by (rewrite <- pow2_land_mod by lia; exact Z0).
  assert (DO : (16 | o)).
  { apply Z.divide_add_r; [now exists 59|now apply total_div]. }
  pose proof (lead_pos_ok base o k Db DO Hk MM) as LP. unfold lead_pos in LP. cbn zeta in *.
  set (pos := if _ <=? _ then _ else _) in *. destruct LP as (L1 & L2 & _).
  assert (LO : locate MSIZE (pre ++ Ck s Used :: post) o = Some (pre, Ck s Used, post)) by now apply locate_app.
  rewrite El, LO in *.
  destruct (h_top (d_h d)) as [t|] eqn:ET; [|easy].
  destruct (dispose pre (pos - o) (Ck (s - (pos - o)) Used :: post) (Some t)) as [l t'] eqn:ED.
  injection E as <- <-. eexists _, _. split; [reflexivity|]. split; [reflexivity|].
  split; cbn [d_h d_b]; auto.
  - assert (XT : topb t' = true).
    { unfold dispose in ED. destruct (rev pre) as [|[? []] ?]; now injection ED as <- <-. }
    now destruct t'.
  - unfold fr. cbn [free_blocks h_ch].
    pose proof (wf_room T _ pre s Used post W L ltac:(congruence) El) as RM.
    apply (dispose_db _ _ _ _ t l t'); auto.
    + constructor; [|exact P2]. split; cbn; [now apply divide_sub|lia].
    + lia.
    + cbn. unfold o in *. lia.
    + refine (DB_ext _ _ _ _ D). intros x y. rewrite (fr_used _ _ _ _ El). unfold beside, fa.
      cbn. replace (MSIZE + total pre + (pos - o) + (s - (pos - o))) with (MSIZE + total pre + s) by lia. tauto.
Qed.
