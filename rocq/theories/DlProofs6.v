(** Every run with the bins is a run of the heap model under some placement. *)
From Coq Require Import Permutation.
From Verif Require Import Base BaseProofs SobjModel HeapModel HeapSpec HeapProofs HeapProofs2 DlModel
  DlSpec DlProofs DlProofs2 DlProofs3 DlProofs4 DlProofs5.

Lemma dispose_top pre sz post t l t' : dispose pre sz post (Some t) = (l, t') -> t' <> None.
Proof.
  unfold dispose. destruct (rev pre) as [|[? []] ?]; destruct post as [|[? []] ?];
    intros E; injection E as <- <-; discriminate.
Qed.

(** The end of a used chunk is given back. *)
Lemma shrink_db T d pre s post nb t l t' : DI T d -> h_ch (d_h d) = pre ++ Ck s Used :: post ->
  (16 | nb) -> 32 <= nb -> 32 <= s - nb -> h_top (d_h d) = Some t ->
  dispose (pre ++ [Ck nb Used]) (s - nb) post (Some t) = (l, t') ->
  DB (dispose_bins (d_b d) (MSIZE + total pre + nb) (pre ++ [Ck nb Used]) (s - nb) post) (fa MSIZE l).
Proof.
  intros [W L NT D] El Dn Hn Hr ET ED.
  destruct (wf_split _ _ _ _ _ W El) as (P1 & P2 & Dv & S & N1 & N2).
  replace (MSIZE + total pre + nb) with (MSIZE + total (pre ++ [Ck nb Used])) by (rewrite total_app; cbn; lia).
  pose proof (wf_room T _ pre s Used post W L NT El) as RM.
  apply (dispose_db _ _ _ post t l t'); auto.
  - apply Forall_app. split; [exact P1|]. constructor; [now split|constructor].
  - now apply divide_sub.
  - rewrite total_app. cbn. lia.
  - refine (DB_ext _ _ _ _ D). intros x y. rewrite (fr_used _ _ _ _ El). unfold beside, fa.
    rewrite total_app, free_app. cbn.
    replace (MSIZE + (total pre + (nb + 0)) + (s - nb)) with (MSIZE + total pre + s) by lia. tauto.
Qed.

Lemma d_try_realloc_ok T d pre s post nb : DI T d -> h_ch (d_h d) = pre ++ Ck s Used :: post ->
  (16 | nb) -> 32 <= nb ->
  match d_try_realloc d (MSIZE + total pre) pre s post nb with
  | Some (s', d') => try_realloc (d_h d) pre s post nb = Some (s', d_h d') /\ DI T d'
  | None => try_realloc (d_h d) pre s post nb = None
  end.
Proof.
  intros I El Dn Hn. pose proof I as [W L NT D].
  destruct (wf_split _ _ _ _ _ W El) as (P1 & P2 & Dv & S & N1 & N2).
  pose proof (fr_HF T _ W L NT) as [HF1 HF2].
  assert (DONE : forall s' h' b', try_realloc (d_h d) pre s post nb = Some (s', h') -> h_top h' <> None ->
    DB b' (fr h') -> DI T (Dl h' b')).
  { intros s' h' b' E NT' D'. destruct (try_realloc_ok T _ _ _ _ _ _ _ W El Dn Hn E) as (W' & _).
    split; auto. }
  unfold d_try_realloc. unfold try_realloc in *.
  destruct (h_top (d_h d)) as [t|] eqn:ET; [|easy]. cbn [topb] in N2.
  destruct (Z.leb_spec nb s) as [LE|GT].
  - destruct (Z.leb_spec MIN_CHUNK (s - nb)) as [RS|RS].
    + destruct (dispose (pre ++ [Ck nb Used]) (s - nb) post (Some t)) as [l t'] eqn:ED.
      split; [reflexivity|]. eapply DONE; [reflexivity| |].
      * cbn. eapply dispose_top; eauto.
      * cbn [fr]. unfold fr. cbn [free_blocks h_ch]. eapply shrink_db; eauto.
    + split; [reflexivity|]. split; auto. congruence.
  - destruct post as [|[s2 tg] post].
    + destruct (Z.ltb_spec nb (s + t)); [|reflexivity].
      split; [reflexivity|]. eapply DONE; [reflexivity|discriminate|].
      refine (DB_ext _ _ _ _ D). intros x y. rewrite (fr_used _ _ _ _ El). unfold beside, fa, fr, free_blocks.
      cbn [h_ch]. rewrite free_app. cbn. tauto.
    + destruct tg; try reflexivity.
      inversion P2 as [|? ? [D2 S2] P3]; subst. cbn in D2, S2.
      pose proof (wf_room T _ pre s Used _ W L ltac:(congruence) El) as RM. cbn [total c_sz] in RM.
      pose proof (total_pos _ P1) as TP1. pose proof (total_pos _ P3) as TP3.
      set (o := MSIZE + total pre) in *.
      assert (OP : 944 <= o) by (unfold o; rewrite MSIZE_eq; lia).
      assert (EF : forall x y, fr (d_h d) x y <->
        fa MSIZE pre x y \/ (x = o + s /\ y = s2) \/ fa (o + s + s2) post x y).
      { intros x y. rewrite (fr_used _ _ _ _ El). unfold beside, fa. fold o.
        cbn [free_at is_free c_tag c_sz]. rewrite in_app_iff. cbn [In].
        split; [intros [Q|[[Q|[]]|Q]]|intros [Q|[[-> ->]|Q]]]; try tauto.
        injection Q as <- <-. tauto. }
      assert (NA : forall x y, fa MSIZE pre x y -> x + 32 <= o).
      { intros x y H. apply fa_bounds in H; [|exact P1]. unfold o. lia. }
      assert (NB : forall x y, fa (o + s + s2) post x y -> o + s + s2 <= x).
      { intros x y H. apply fa_bounds in H; [|exact P3]. lia. }
      assert (FM : fr (d_h d) (o + s) s2) by (apply EF; tauto).
      destruct N2 as [N2 N3]. cbn in N2. specialize (N2 eq_refl).
      (* frees of the two new shapes *)
      assert (EW : forall z, z = s + s2 -> forall x y,
        fr (Hp (pre ++ Ck z Used :: post) (Some t) (h_ext (d_h d))) x y <->
        fa MSIZE pre x y \/ fa (o + s + s2) post x y).
      { intros z -> x y. unfold fr, free_blocks. cbn [h_ch]. rewrite free_mid. fold o. unfold fa.
        replace (o + (s + s2)) with (o + s + s2) by lia. intuition congruence. }
      assert (EP : forall z, z = s + s2 - nb -> forall x y,
        fr (Hp (pre ++ Ck nb Used :: Ck z Free :: post) (Some t) (h_ext (d_h d))) x y <->
        fa MSIZE pre x y \/ (x = o + nb /\ y = z) \/ fa (o + s + s2) post x y).
      { intros z -> x y. unfold fr, free_blocks. cbn [h_ch]. rewrite free_mid. fold o. unfold fa.
        cbn [free_at is_free c_tag c_sz]. rewrite in_app_iff. cbn [In].
        replace (o + nb + (s + s2 - nb)) with (o + s + s2) by lia.
        split; [intros [Q|[Q|[[Q|[]]|Q]]]|intros [Q|[[-> ->]|Q]]]; try tauto.
        - destruct Q; easy.
        - injection Q as <- <-. tauto. }
      destruct (Z.eqb_spec (o + s) (dv (d_b d))) as [ND|ND].
      * assert (V : dvs (d_b d) = s2).
        { destruct (db_dv _ _ D) as [[Q _]|Q]; [lia|].
          apply (HF2 (dv (d_b d))); [exact Q|]. rewrite <- ND. exact FM. }
        rewrite V. destruct (Z.leb_spec nb (s + s2)); [|reflexivity].
        destruct (Z.leb_spec MIN_CHUNK (s + s2 - nb)) as [RS|RS].
        -- split; [reflexivity|]. eapply DONE; [reflexivity|discriminate|].
           unfold MIN_CHUNK in RS.
           apply (DB_dv _ (fr (d_h d))); [exact D|right; apply EP; [reflexivity|tauto]|].
           intros x y. rewrite EF, (EP _ eq_refl), <- ND. split.
           ++ intros [[Q|[Q|Q]] N]; [split; [tauto|specialize (NA _ _ Q); lia]|lia|
                split; [tauto|specialize (NB _ _ Q); lia]].
           ++ intros [[Q|[Q|Q]] N]; [split; [tauto|specialize (NA _ _ Q); lia]|lia|
                split; [tauto|specialize (NB _ _ Q); lia]].
        -- split; [reflexivity|]. eapply DONE; [reflexivity|discriminate|].
           apply (DB_dv _ (fr (d_h d))); [exact D|now left|].
           intros x y. rewrite EF, (EW _ eq_refl), <- ND. split.
           ++ intros [[Q|[Q|Q]] N]; [|lia|].
              ** split; [tauto|]. apply fa_bounds in Q; [|exact P1]. rewrite MSIZE_eq in Q. lia.
              ** split; [tauto|]. specialize (NB _ _ Q). lia.
           ++ intros [[Q|Q] N]; [split; [tauto|specialize (NA _ _ Q); lia]|
                split; [tauto|specialize (NB _ _ Q); lia]].
      * destruct (Z.leb_spec nb (s + s2)); [|reflexivity].
        assert (U : DB (unlink_chunk (d_b d) (o + s) s2) (pdel (fr (d_h d)) (o + s))).
        { apply DB_unlink; [exact D|exact FM|exact ND|]. lia. }
        assert (EU : forall x y, pdel (fr (d_h d)) (o + s) x y <->
           fa MSIZE pre x y \/ fa (o + s + s2) post x y).
        { intros x y. unfold pdel. rewrite EF. split.
          - intros [[Q|[Q|Q]] N]; tauto.
          - intros [Q|Q]; [split; [tauto|specialize (NA _ _ Q); lia]|
              split; [tauto|specialize (NB _ _ Q); lia]]. }
        destruct (Z.ltb_spec (s + s2 - nb) MIN_CHUNK) as [RS|RS].
        -- destruct (Z.leb_spec MIN_CHUNK (s + s2 - nb)); [lia|].
           split; [reflexivity|]. eapply DONE; [reflexivity|discriminate|].
           refine (DB_ext _ _ _ _ U). intros x y. rewrite EU, (EW _ eq_refl). tauto.
        -- destruct (Z.leb_spec MIN_CHUNK (s + s2 - nb)) as [_|]; [|lia]. unfold MIN_CHUNK in RS.
           destruct (dispose (pre ++ [Ck nb Used]) (s + s2 - nb) post (Some t)) as [l t'] eqn:ED.
           assert (EQ : l = pre ++ Ck nb Used :: Ck (s + s2 - nb) Free :: post /\ t' = Some t).
           { unfold dispose in ED. rewrite rev_app_distr in ED. cbn in ED.
             destruct post as [|[s3 tg3] post]; [easy|]. destruct tg3; [easy| |];
               injection ED as <- <-; rewrite <- app_assoc; auto. }
           assert (B' : DB (dispose_bins (unlink_chunk (d_b d) (o + s) s2) (o + nb) (pre ++ [Ck nb Used])
                              (s + s2 - nb) post) (fa MSIZE l)).
           { replace (o + nb) with (MSIZE + total (pre ++ [Ck nb Used])) by (unfold o; rewrite total_app; cbn; lia).
             apply (dispose_db _ _ _ post t l t'); auto.
             - apply Forall_app. split; [exact P1|]. constructor; [now split|constructor].
             - apply divide_sub; [now apply Z.divide_add_r|exact Dn].
             - rewrite total_app. cbn. unfold o in *. lia.
             - refine (DB_ext _ _ _ _ U). intros x y. rewrite EU. unfold beside, fa.
               rewrite total_app, free_app. cbn.
               replace (MSIZE + (total pre + (nb + 0)) + (s + s2 - nb)) with (o + s + s2) by (unfold o; lia). tauto. }
           destruct EQ as [-> ->].
           split; [reflexivity|]. eapply DONE; [reflexivity|discriminate|]. exact B'.
Qed.

(** ** The calls *)
Lemma d_memalign_ok T base d al bytes sys os : DI T d -> (16 | base) -> 0 <= al < 2 ^ 64 -> 0 <= bytes < 2 ^ 64 ->
  match d_memalign base d al bytes sys os with
  | Ok (r, d') => exists pk, m_memalign base (d_h d) al bytes (fun _ => pk) os = Ok (r, d_h d') /\ DI T d'
  | NoFuel => sys <> PNone \/ 2 ^ 63 < al
  | _ => False
  end.
Proof.
  intros I Db Ha Hb. unfold d_memalign, m_memalign. destruct (Z.leb_spec al 16) as [L|L].
  { pose proof (d_malloc_ok T d bytes sys os I Hb) as G.
    destruct (d_malloc d bytes sys os) as [[r d']| | |]; cbn [mok] in G; try easy.
    - destruct G as (pk & E & I' & _). now exists pk.
    - left. apply G. }
  destruct (memalign_alignment al) as [a| | |] eqn:EA; cbn [bind].
  2,3: unfold memalign_alignment in EA; destruct (_ =? 0) in EA; [discriminate|];
    exfalso; revert EA; generalize 32; generalize 64%nat; intros n; induction n as [|n IH]; intros a E; cbn in E;
    [discriminate|]; destruct (a <? _) in E; [eauto|discriminate].
  2:{ right. destruct (Z.lt_ge_cases (2 ^ 63) al) as [Q|Q]; [exact Q|]. exfalso.
      unfold memalign_alignment, MIN_CHUNK in EA. set (x := if al <? 32 then 32 else al) in *.
      assert (X : 32 <= x <= 2 ^ 63) by (unfold x; destruct (Z.ltb_spec al 32); lia).
      destruct (_ =? 0) in EA; [discriminate|].
      assert (G : forall n k, 5 <= k -> Z.of_nat n + k >= 64 -> k <= 63 ->
                    round_align n (2 ^ k) x <> NoFuel).
      { induction n as [|n IH]; intros k K1 K2 K3; [lia|]. cbn [round_align].
        destruct (Z.ltb_spec (2 ^ k) x); [|easy].
        assert (k < 63). { destruct (Z.eq_dec k 63) as [->|]; lia. }
        rewrite wrap64_id.
        - rewrite <- Z.pow_succ_r by lia. apply IH; lia.
        - rewrite <- Z.pow_succ_r by lia. split; [apply Z.pow_nonneg; lia|]. apply Z.pow_lt_mono_r; lia. }
      apply (G 64%nat 5); [lia|lia|lia|exact EA]. }
  apply memalign_alignment_ok in EA as (k & K & ->); [|lia].
  assert (A32 : 32 <= 2 ^ k) by (change 32 with (2 ^ 5); apply Z.pow_le_mono_r; lia).
  assert (A63 : 2 ^ k <= 2 ^ 63) by (apply Z.pow_le_mono_r; lia).
  assert (M63 : 2 ^ 63 + 2 ^ 63 = 2 ^ 64) by reflexivity.
  rewrite (wrap64_id (MAX_REQUEST - 2 ^ k)) by (unfold MAX_REQUEST; lia).
  destruct (Z.leb_spec (MAX_REQUEST - 2 ^ k) bytes) as [B|B].
  { exists PNone. split; [reflexivity|exact I]. }
  assert (HB : 0 <= bytes < MAX_REQUEST) by lia.
  destruct (request2size_ok bytes HB) as (D1 & D2 & D3 & D4).
  set (nb := request2size bytes) in *. unfold MIN_CHUNK, OVERHEAD.
  assert (WR : wrap64 (nb + 2 ^ k + 32 - 8) = nb + 2 ^ k + 24).
  { rewrite wrap64_id; [lia|]. unfold MAX_REQUEST in B. lia. }
  rewrite WR. assert (HR : 0 <= nb + 2 ^ k + 24 < 2 ^ 64) by (unfold MAX_REQUEST in B; lia).
  pose proof (d_malloc_ok T d _ sys os I HR) as G.
  destruct (d_malloc d (nb + 2 ^ k + 24) sys os) as [[r1 d1]| | |]; cbn [mok] in G; cbn [bind]; try easy.
  2:{ left. apply G. }
  destruct G as (pk & EM & I1 & _).
  destruct (m_malloc_ok T _ _ _ _ _ _ (di_wf _ _ I) (proj1 HR) EM) as (W1 & R1 & _ & X1).
  destruct r1 as [o s|a|].
  - destruct R1 as [S1 R1].
    destruct (d_lead_ok T base d1 o s k I1 (added_in _ _ _ _ R1) Db ltac:(lia) ltac:(lia))
      as (o2 & d2 & E2 & E2' & I2).
    destruct (lead_chunk_ok T base (d_h d1) o s k W1 (added_in _ _ _ _ R1) Db ltac:(lia) ltac:(lia))
      as (o2' & h2 & E2'' & _ & B2 & _ & R2 & _).
    rewrite E2' in E2''. injection E2'' as <- <-.
    rewrite E2. cbn [bind].
    destruct (d_trim_ok T d2 o2 (s - (o2 - o)) nb I2 (replaced_in _ _ _ _ _ _ R2) D1 D2 ltac:(lia))
      as (s3 & d3 & E3 & E3' & I3).
    rewrite E3. cbn [bind]. exists pk. rewrite EM. cbn [bind]. rewrite E2'. cbn [bind]. rewrite E3'. cbn [bind]. auto.
  - exists pk. rewrite EM. cbn [bind]. auto.
  - exists pk. rewrite EM. cbn [bind]. auto.
Qed.

Lemma d_realloc_ok T d o s bytes sys os : DI T d -> In (o - MEM_OFF, s) (used (d_h d)) -> 0 <= bytes < 2 ^ 64 ->
  match d_realloc d o bytes sys os with
  | Ok (r, d', cp) => exists pk, m_realloc (d_h d) o bytes (fun _ => pk) os = Ok (r, d_h d', cp) /\ DI T d'
  | NoFuel => sys <> PNone
  | _ => False
  end.
Proof.
  intros I H Hb. pose proof I as [W L NT D]. unfold d_realloc, m_realloc.
  destruct (Z.leb_spec MAX_REQUEST bytes) as [MX|MX]; [exists PNone; auto|].
  destruct (usedl_in _ _ _ _ H) as (pre & post & El & Eo).
  destruct (wf_split _ _ _ _ _ W El) as (P1 & P2 & Dv & S & N1 & N2).
  rewrite Eo, El, locate_app by easy.
  destruct (request2size_ok bytes ltac:(lia)) as (D1 & D2 & D3 & _).
  pose proof (d_try_realloc_ok T d pre s post (request2size bytes) I El D1 D2) as G.
  destruct (d_try_realloc d _ pre s post _) as [[s1 d1]|].
  - destruct G as [G I1]. exists PNone. rewrite G. auto.
  - rewrite G. pose proof (d_malloc_ok T d bytes sys os I Hb) as M.
    destruct (d_malloc d bytes sys os) as [[r1 d1]| | |]; cbn [mok] in M; cbn [bind]; try easy.
    destruct M as (pk & EM & I1 & _).
    destruct (m_malloc_ok T _ _ _ _ _ _ W (proj1 Hb) EM) as (W1 & R1 & _ & X1).
    destruct r1 as [o1 s1|a|].
    + destruct R1 as [B1 R1].
      destruct (d_free_ok T d1 o s I1 (added_keep _ _ _ _ _ R1 H)) as (d2 & E2 & E2' & I2).
      rewrite E2. cbn [bind]. exists pk. rewrite EM. cbn [bind]. rewrite E2'. cbn [bind]. auto.
    + cbn in R1. assert (H1 : In (o - MEM_OFF, s) (used (d_h d1))) by now rewrite R1.
      destruct (d_free_ok T d1 o s I1 H1) as (d2 & E2 & E2' & I2).
      rewrite E2. cbn [bind]. exists pk. rewrite EM. cbn [bind]. rewrite E2'. cbn [bind]. auto.
    + exists pk. rewrite EM. cbn [bind]. auto.
Qed.

(** ** One call *)
Definition dI (T : Z) (st : dst) : Prop := DI T (t_dl st) /\ iv T (plain st).

Definition known (st : dst) (op : hop) : Prop :=
  match op with
  | HFree k | HRealloc k _ => exists x, nth_error (t_tbl st) k = Some (Some x)
  | _ => True
  end.
Definition big_align (op : hop) : Prop := match op with HAlign al _ => 2 ^ 63 < al | _ => False end.

Lemma dstep_ok T base size sys os st op : dI T st -> (16 | base) -> sane op ->
  match dstep base size sys os st op with
  | Ok st' => dI T st' /\ exists pk, forall pol o past, pol past = (fun _ _ => pk) ->
      o (length (t_tbl st)) = os -> hstep base size pol o past (plain st) op = Ok (plain st')
  | NoFuel => sys <> PNone \/ big_align op
  | UB => ~ known st op
  | Abort => False
  end.
Proof.
  intros [I V] Db Hs.
  assert (WRAP : forall st', DI T (t_dl st') ->
    (exists pk, forall pol o past, pol past = (fun _ _ => pk) ->
      o (length (t_tbl st)) = os -> hstep base size pol o past (plain st) op = Ok (plain st')) ->
    dI T st' /\ exists pk, forall pol o past, pol past = (fun _ _ => pk) ->
      o (length (t_tbl st)) = os -> hstep base size pol o past (plain st) op = Ok (plain st')).
  { intros st' I' (pk & E). split; [|now exists pk]. split; [exact I'|].
    eapply (hstep_iv T base size (fun _ _ _ => pk) (fun _ => os) [] (plain st)); [exact V|exact Db|exact Hs|].
    apply E; reflexivity. }
  destruct st as [d m t lk]. unfold dstep. cbn [t_dl t_mem t_tbl t_leak] in *.
  destruct op as [n|n s|al n|k|k n].
  - cbn in Hs. unfold sizet in Hs. destruct (n =? 0) eqn:N0.
    + apply WRAP; [exact I|]. exists PNone. intros pol o past E1 E2. cbn. now rewrite N0.
    + pose proof (d_malloc_ok T d n sys os I Hs) as G.
      destruct (d_malloc d n sys os) as [[r d']| | |]; cbn [mok] in G; cbn [bind]; try easy; [|left; apply G].
      destruct G as (pk & E & I' & _). apply WRAP; [exact I'|]. exists pk. intros pol o past E1 E2.
      cbn in *. now rewrite N0, E1, E2, E.
  - destruct Hs as [H1 H2]. destruct ((n =? 0) || (s =? 0)) eqn:N0.
    + apply WRAP; [exact I|]. exists PNone. intros pol o past E1 E2. cbn. now rewrite N0.
    + cbn zeta. assert (HR : 0 <= calloc_req n s < 2 ^ 64).
      { unfold sizet in *. apply orb_false_elim in N0.
        destruct (calloc_req_ok n s H1 H2 ltac:(lia)) as [[-> Q]| ->]; [nia|unfold MAX_SIZE_T; lia]. }
      pose proof (d_malloc_ok T d _ sys os I HR) as G.
      destruct (d_malloc d (calloc_req n s) sys os) as [[r d']| | |]; cbn [mok] in G; cbn [bind]; try easy; [|left; apply G].
      destruct G as (pk & E & I' & _). apply WRAP; [exact I'|]. exists pk. intros pol o past E1 E2.
      cbn in *. now rewrite N0, E1, E2, E.
  - destruct Hs as [H1 H2]. unfold sizet in *.
    pose proof (d_memalign_ok T base d al n sys os I Db H1 H2) as G.
    destruct (d_memalign base d al n sys os) as [[r d']| | |]; cbn [bind]; try easy.
    destruct G as (pk & E & I'). apply WRAP; [exact I'|]. exists pk. intros pol o past E1 E2.
    cbn in *. now rewrite E1, E2, E.
  - destruct (nth_error t k) as [[[p n]|]|] eqn:EK.
    2,3: intros (x & X); cbn in X; congruence.
    destruct p as [|o|a].
    + apply WRAP; [exact I|]. exists PNone. intros pol o past E1 E2. cbn. now rewrite EK.
    + destruct (check_range _ _) eqn:CR.
      * destruct (i_live _ _ _ _ V k o n EK) as (_ & s & S & _).
        destruct (d_free_ok T d o s I S) as (d' & E & E' & I'). rewrite E. cbn [bind].
        apply WRAP; [exact I'|]. exists PNone. intros pol o' past E1 E2. cbn. now rewrite EK, CR, E'.
      * apply WRAP; [exact I|]. exists PNone. intros pol o' past E1 E2. cbn. now rewrite EK, CR.
    + apply WRAP; [exact I|]. exists PNone. intros pol o past E1 E2. cbn. now rewrite EK.
  - cbn in Hs. unfold sizet in Hs.
    destruct (nth_error t k) as [[[p n0]|]|] eqn:EK.
    2,3: intros (x & X); cbn in X; congruence.
    destruct p as [|o|a].
    + destruct (n =? 0) eqn:N0.
      * apply WRAP; [exact I|]. exists PNone. intros pol o past E1 E2. cbn. now rewrite EK, N0.
      * pose proof (d_malloc_ok T d n sys os I Hs) as G.
        destruct (d_malloc d n sys os) as [[r d']| | |]; cbn [mok] in G; cbn [bind]; try easy; [|left; apply G].
        destruct G as (pk & E & I' & _). apply WRAP; [exact I'|]. exists pk. intros pol o past E1 E2.
        cbn in *. now rewrite EK, N0, E1, E2, E.
    + destruct (i_live _ _ _ _ V k o n0 EK) as (_ & s & S & _).
      pose proof (d_realloc_ok T d o s n sys os I S Hs) as G.
      destruct (d_realloc d o n sys os) as [[[r d'] cp]| | |]; cbn [bind]; try easy; [|now left].
      destruct G as (pk & E & I').
      assert (X : forall pol o' past, pol past = (fun _ _ => pk) -> o' (length t) = os ->
        hstep base size pol o' past (plain (Dst d m t lk)) (HRealloc k n) =
        match r with
        | MNull => Ok (push (plain (Dst d m t lk)) (d_h d')
            (match cp with Some (d, s, n) => memcpy m d s n | None => m end) PNull n)
        | _ => Ok (Hst (d_h d') (match cp with Some (d, s, n) => memcpy m d s n | None => m end)
                     (upd t k None ++ [Some (ptr_of r, n)]) lk)
        end).
      { intros pol o' past E1 E2. cbn in *. now rewrite EK, E1, E2, E. }
      destruct r; (apply WRAP; [exact I'|]); exists pk; intros pol o' past E1 E2;
        rewrite (X pol o' past E1 E2); reflexivity.
    + assert (C : sys = POut \/ sys <> POut) by (destruct sys; ((left; reflexivity) || (right; discriminate))).
      destruct C as [-> |NP].
      * cbn [bind].
        assert (X : forall pol o' past, pol past = (fun _ _ => POut) -> o' (length t) = os ->
          hstep base size pol o' past (plain (Dst d m t lk)) (HRealloc k n) =
          match (if MAX_REQUEST <=? n then MNull else MOut os) with
          | MNull => Ok (push (plain (Dst d m t lk)) (d_h d) m PNull n)
          | _ => Ok (Hst (d_h d) m (upd t k None ++
                       [Some (ptr_of (if MAX_REQUEST <=? n then MNull else MOut os), n)]) lk)
          end).
        { intros pol o' past E1 E2. cbn in *. now rewrite EK, E1, E2. }
        destruct (MAX_REQUEST <=? n); (apply WRAP; [exact I|]); exists POut; intros pol o' past E1 E2;
          rewrite (X pol o' past E1 E2); reflexivity.
      * assert (EM : match sys with
                     | POut => Ok (if MAX_REQUEST <=? n then MNull else MOut os, d)
                     | _ => d_malloc d n sys os
                     end = d_malloc d n sys os) by (destruct sys; congruence).
        rewrite EM. clear EM.
        pose proof (d_malloc_ok T d n sys os I Hs) as G.
        destruct (d_malloc d n sys os) as [[r d']| | |]; cbn [mok] in G; cbn [bind]; try easy; [|left; apply G].
        destruct G as (pk & E & I' & PO & _).
        assert (X : forall pol o' past, pol past = (fun _ _ => pk) -> o' (length t) = os ->
           hstep base size pol o' past (plain (Dst d m t lk)) (HRealloc k n) =
           match r with
           | MNull => Ok (push (plain (Dst d m t lk)) (d_h d') m PNull n)
           | _ => Ok (Hst (d_h d') m (upd t k None ++ [Some (ptr_of r, n)]) lk)
           end).
        { intros pol o' past E1 E2. cbn in *. rewrite EK, E1, E2.
          destruct pk; try (rewrite E; reflexivity). specialize (PO eq_refl). congruence. }
        destruct r; (apply WRAP; [exact I'|]); exists pk; intros pol o' past E1 E2;
          rewrite (X pol o' past E1 E2); reflexivity.
Qed.
