From Verif Require Import Base ListLib TeamModel TeamProofs TobjModel TobjSpec TobjProofs.

Lemma handle_split me s T t v : rel me s T -> team_of T t = Some v ->
  exists o, look (p_heap s) (addr s t) = Some o /\ backs s o v /\
    m_my_pe s t = Ok (ob_my o) /\ m_n_pes s t = Ok (ob_n o) /\
    m_get_config s t = Ok (SHMEM_SUCCESS, Some (ob_cfg o)) /\ group_handle s t = Ok (ob_group o) /\
    (t =? H_INVALID) = false.
Proof.
  intros R H. destruct (r_back _ _ _ R t v H) as (o & Lo & Bo). exists o. split; [exact Lo|]. split; [exact Bo|].
  destruct (handle_cases T t v H) as [->|[->|U]].
  - destruct (r_world _ _ _ R) as (q & Lq & A & B & C). change (addr s H_WORLD) with (p_world s) in Lo.
    rewrite Lo in Lq. injection Lq as <-. unfold m_my_pe, m_n_pes, m_get_config, group_handle, deref.
    change (H_WORLD =? H_INVALID) with false. change (H_WORLD =? H_WORLD) with true. cbv iota. rewrite Lo, A, B, C. auto.
  - destruct (r_shared _ _ _ R) as (q & Lq & A & B & C). change (addr s H_SHARED) with (p_shared s) in Lo.
    rewrite Lo in Lq. injection Lq as <-. unfold m_my_pe, m_n_pes, m_get_config, group_handle, deref.
    change (H_SHARED =? H_INVALID) with false. change (H_SHARED =? H_WORLD) with false.
    change (H_SHARED =? H_SHARED) with true. cbv iota. rewrite Lo, A, B, C. auto.
  - rewrite (addr_user s t U) in Lo. destruct (user_eqb t U) as (A & B & C).
    unfold m_my_pe, m_n_pes, m_get_config, group_handle, deref. rewrite A, B, C, Lo. auto 10.
Qed.

Lemma sub_strided g start stride size colors :
  fits (Z.of_nat (length g)) start stride size ->
  (forall i, 0 <= i < Z.of_nat (length g) -> colors i =
     if (start <=? i) && (i <=? start + stride * (size - 1)) && ((i - start) mod stride =? 0) then 1 else MPI_UNDEFINED) ->
  sub g colors 1 = strided_of g start stride size.
Proof.
  intros F HC. pose proof F as (Hs & Hst & Hsz & Hf). unfold sub, strided_of.
  rewrite upto_zseq, pick_gnth.
  - rewrite <- (strided_filter (length g) start stride size F). f_equal. apply filter_ext_in.
    intros i Hi. apply in_zseq in Hi. rewrite HC by lia. destruct (_ && _ && _); reflexivity.
  - intros i Hi. apply in_map_iff in Hi. destruct Hi as (k & <- & Hk). apply in_zseq in Hk. nia.
Qed.

Lemma in_sub_iff g colors c me r : NoDup g -> aget g r = Some me ->
  (In me (sub g colors c) <-> colors r = c).
Proof.
  intros ND Ar. pose proof (aget_some _ _ _ Ar) as Br. unfold sub. rewrite in_map_iff. split.
  - intros (i & Ei & Hi). apply filter_In in Hi. destruct Hi as [Hi Hc]. apply in_zseq in Hi.
    assert (i = r); [|subst; lia].
    apply (aget_nodup g i r me ND); [|exact Ar]. rewrite gnth_aget by lia. congruence.
  - intros <-. exists r. split; [unfold gnth; rewrite Ar; reflexivity|]. apply filter_In. rewrite in_zseq. lia.
Qed.

Lemma color_reject n my start stride size :
  0 <= my < n -> n <= INT_MAX -> 1 <= stride -> 1 <= size -> size <= INT_MAX ->
  stride * (size - 1) + Z.max 0 start <= INT_MAX ->
  start < 0 \/ n <= start \/ n <= start + stride * (size - 1) ->
  strided_color n my start stride size = Ok None.
Proof.
  unfold INT_MAX. intros Hm Hn H1 H2 H3 H4 H5. unfold strided_color.
  destruct (Z.ltb_spec start 0); [reflexivity|]. destruct (Z.leb_spec n start); [reflexivity|]. cbn [orb].
  rewrite int_op_ok by (unfold INT_MAX; lia). cbn [bind].
  rewrite int_op_ok by (unfold INT_MAX; nia). cbn [bind].
  rewrite int_op_ok by (unfold INT_MAX; nia). cbn [bind].
  replace (_ || _) with true by lia. reflexivity.
Qed.

Lemma strided_ok me s T t v start stride size cfg mask w :
  rel me s T -> team_of T t = Some v -> new_ok s w ->
  1 <= stride -> 1 <= size -> stride * (size - 1) + Z.max 0 start <= INT_MAX -> size <= INT_MAX ->
  if (start <? 0) || (Z.of_nat (length (v_group v)) <=? start) || (Z.of_nat (length (v_group v)) <=? start + stride * (size - 1))
  then m_strided s t start stride size cfg mask w = Ok (s, (SHMEM_OTHER_ERR, H_INVALID))
  else match number (strided_of (v_group v) start stride size) me with
       | Some _ => exists s', m_strided s t start stride size cfg mask w = Ok (s', (SHMEM_SUCCESS, name_of w)) /\
            rel me s' (add_team T (name_of w) (strided_of (v_group v) start stride size) (config_of cfg mask))
       | None => m_strided s t start stride size cfg mask w = Ok (s, (SHMEM_SUCCESS, H_INVALID))
       end.
Proof.
  intros R Ht NW H1 H2 H3 H4.
  destruct (handle_split _ _ _ _ _ R Ht) as (o & Lo & (A & B & C & D & E & F & G) & _ & _ & _ & _ & NI).
  rewrite (r_me _ _ _ R) in A. set (r := ob_my o) in *.
  pose proof (index_of_some _ _ _ A) as Ar. pose proof (aget_some _ _ _ Ar) as Br.
  assert (M : m_strided s t start stride size cfg mask w =
     do c <- strided_color (Z.of_nat (length (v_group v))) r start stride size;
     match c with
     | None => Ok (s, (SHMEM_OTHER_ERR, H_INVALID))
     | Some color =>
        do x <- obj_split s (parent_addr s t) (fun i => match strided_color (Z.of_nat (length (v_group v))) i start stride size with
                                      | Ok (Some c) => c | _ => MPI_UNDEFINED end) color w;
        do s' <- set_config (fst x) (snd x) cfg mask;
        Ok (s', (SHMEM_SUCCESS, snd x))
     end).
  { unfold m_strided. rewrite NI. unfold deref. rewrite parent_is_addr, Lo. cbn [of_opt bind]. rewrite B. reflexivity. }
  destruct ((start <? 0) || _ || _) eqn:EE.
  - rewrite M, color_reject; auto; lia.
  - assert (FT : fits (Z.of_nat (length (v_group v))) start stride size) by (unfold fits; lia).
    set (colors := fun i => match strided_color (Z.of_nat (length (v_group v))) i start stride size with
                            | Ok (Some c) => c | _ => MPI_UNDEFINED end) in *.
    assert (HC : forall i, 0 <= i < Z.of_nat (length (v_group v)) -> colors i =
       if (start <=? i) && (i <=? start + stride * (size - 1)) && ((i - start) mod stride =? 0) then 1 else MPI_UNDEFINED).
    { intros i Hi. unfold colors. rewrite strided_color_ok by (assumption || lia). reflexivity. }
    assert (CR : strided_color (Z.of_nat (length (v_group v))) r start stride size = Ok (Some (colors r))).
    { rewrite (HC r Br). apply strided_color_ok; assumption. }
    rewrite M, CR. cbn [bind].
    rewrite <- (sub_strided _ _ _ _ colors FT HC). rewrite number_index.
    assert (HD : forall i, 0 <= i < Z.of_nat (length (v_group v)) -> 0 <= colors i \/ colors i = MPI_UNDEFINED).
    { intros i Hi. rewrite (HC i Hi). destruct (_ && _ && _); [left; lia|right; reflexivity]. }
    pose proof (obj_split_ok me s T t v r colors w R Ht A NW HD) as OS.
    destruct (Z.eqb_spec (colors r) MPI_UNDEFINED) as [EU|NU].
    + rewrite OS. cbn [bind fst snd]. unfold set_config. rewrite Z.eqb_refl. cbn [bind].
      destruct (index_of (sub (v_group v) colors 1) me) as [k|] eqn:X; [|reflexivity]. exfalso.
      apply index_of_some, aget_In in X. pose proof (proj1 (in_sub_iff _ colors 1 me r F Ar) X) as Y.
      unfold MPI_UNDEFINED in EU. lia.
    + assert (E1 : colors r = 1).
      { rewrite (HC r Br) in *. destruct (_ && _ && _); [reflexivity|congruence]. }
      destruct OS as (s' & OS & R' & _ & _ & _). rewrite OS. cbn [bind fst snd]. rewrite E1 in R'.
      destruct (index_of (sub (v_group v) colors 1) me) as [k|] eqn:X.
      * destruct NW as ((b & Eb & Ub & Lb) & _).
        assert (UN : user (name_of w)) by (unfold name_of; rewrite Eb; exact Ub).
        destruct (set_config_ok me s' _ (name_of w) (sub (v_group v) colors 1) cfg mask R' UN) as (s2 & SC & _ & _ & R2).
        { rewrite team_add, Z.eqb_refl by exact UN. reflexivity. }
        rewrite SC. cbn [bind]. exists s2. split; [reflexivity|]. apply R2.
        -- rewrite team_add, Z.eqb_refl by exact UN. reflexivity.
        -- intros j Hj. rewrite !team_add by exact UN. destruct (Z.eqb_spec (name_of w) j); [congruence|reflexivity].
      * exfalso. apply index_of_none in X. apply X. apply (in_sub_iff _ _ _ _ r F Ar). exact E1.
Qed.

Lemma sub_ext g c1 c2 k : (forall i, 0 <= i < Z.of_nat (length g) -> c1 i = c2 i) -> sub g c1 k = sub g c2 k.
Proof.
  intros H. unfold sub. f_equal. apply filter_ext_in. intros i Hi. apply in_zseq in Hi. rewrite H by lia. reflexivity.
Qed.
Lemma sub_pick g colors k : sub g colors k = pick g (filter (fun i => colors i =? k) (upto (Z.of_nat (length g)))).
Proof.
  rewrite upto_zseq, Nat2Z.id, pick_gnth; [reflexivity|].
  intros i Hi. apply filter_In in Hi. destruct Hi as [Hi _]. apply in_zseq in Hi. lia.
Qed.

Lemma grid_ok me s T t v r x xc xm yc ym wx wy :
  rel me s T -> team_of T t = Some v -> number (v_group v) me = Some r -> 1 <= x ->
  new_ok s wx -> new_ok s wy -> apart wx wy ->
  exists s', m_2d s t x xc xm yc ym wx wy = Ok (s', (SHMEM_SUCCESS, name_of wx, name_of wy)) /\
    rel me s' (add_team (add_team T (name_of wx) (row_of (v_group v) x r) (config_of xc xm))
                        (name_of wy) (col_of (v_group v) x r) (config_of yc ym)).
Proof.
  intros R Ht Hr Hx NX NY AP. rewrite number_index in Hr.
  destruct (handle_split _ _ _ _ _ R Ht) as (o & Lo & (A & B & C & D & E & F & G) & _ & _ & _ & _ & NI).
  rewrite (r_me _ _ _ R) in A. assert (Er : ob_my o = r) by congruence.
  pose proof (index_of_some _ _ _ A) as Ar. rewrite Er in Ar. pose proof (aget_some _ _ _ Ar) as Br.
  unfold m_2d. rewrite NI. unfold deref. rewrite parent_is_addr, Lo. cbn [of_opt bind]. rewrite Er.
  destruct (Z.eqb_spec x 0); [lia|].
  assert (HQ : forall i, 0 <= i -> Z.quot i x = i / x) by (intros; apply Z.quot_div_nonneg; lia).
  assert (HM : forall i, 0 <= i -> Z.rem i x = i mod x) by (intros; apply Z.rem_mod_nonneg; lia).
  assert (UX : user (name_of wx)) by (destruct NX as ((b & Eb & Ub & _) & _); unfold name_of; rewrite Eb; exact Ub).
  assert (UY : user (name_of wy)) by (destruct NY as ((b & Eb & Ub & _) & _); unfold name_of; rewrite Eb; exact Ub).
  assert (NXY : name_of wx <> name_of wy).
  { destruct NX as ((b & Eb & _) & _), NY as ((b' & Eb' & _) & _), AP as (AP & _).
    unfold name_of. rewrite Eb, Eb' in *. congruence. }
  assert (HX : forall i, 0 <= i < Z.of_nat (length (v_group v)) -> 0 <= (fun i => Z.quot i x) i \/ (fun i => Z.quot i x) i = MPI_UNDEFINED).
  { intros i Hi. left. cbv beta. rewrite HQ by lia. apply Z.div_pos; lia. }
  assert (HY : forall i, 0 <= i < Z.of_nat (length (v_group v)) -> 0 <= (fun i => Z.rem i x) i \/ (fun i => Z.rem i x) i = MPI_UNDEFINED).
  { intros i Hi. left. cbv beta. rewrite HM by lia. apply Z.mod_pos_bound; lia. }
  pose proof (obj_split_ok me s T t v r (fun i => Z.quot i x) wx R Ht Hr NX HX) as SX. cbv beta in SX.
  destruct (Z.eqb_spec (Z.quot r x) MPI_UNDEFINED) as [Z1|_].
  { rewrite HQ in Z1 by lia. pose proof (Z.div_pos r x). unfold MPI_UNDEFINED in Z1. lia. }
  destruct SX as (s1 & SX & R1 & W1 & W2 & N1).
  rewrite parent_is_addr in SX. rewrite SX. cbn [bind fst snd].
  assert (Nt : (name_of wx =? t) = false).
  { apply Z.eqb_neq. intros <-. destruct NX as ((b & Eb & Ub & Lb) & _). unfold name_of in *. rewrite Eb in *.
    destruct (r_back _ _ _ R b v Ht) as (q & Lq & _). rewrite (addr_user s b Ub) in Lq. congruence. }
  assert (Ht1 : team_of (add_team T (name_of wx) (sub (v_group v) (fun i => Z.quot i x) (Z.quot r x)) 0) t = Some v).
  { rewrite team_add, Nt by exact UX. exact Ht. }
  pose proof (obj_split_ok me s1 _ t v r (fun i => Z.rem i x) wy R1 Ht1 Hr (N1 wy NY AP) HY) as SY. cbv beta in SY.
  destruct (Z.eqb_spec (Z.rem r x) MPI_UNDEFINED) as [Z1|_].
  { rewrite HM in Z1 by lia. pose proof (Z.mod_pos_bound r x). unfold MPI_UNDEFINED in Z1. lia. }
  destruct SY as (s2 & SY & R2 & W3 & W4 & _).
  rewrite parent_is_addr in SY.
  assert (EA : addr s1 t = addr s t) by (unfold addr; rewrite W1, W2; reflexivity).
  rewrite EA in SY. rewrite SY. cbn [bind fst snd].
  set (gx := sub (v_group v) (fun i => Z.quot i x) (Z.quot r x)) in *.
  set (gy := sub (v_group v) (fun i => Z.rem i x) (Z.rem r x)) in *.
  assert (EX : row_of (v_group v) x r = gx).
  { unfold row_of, gx. rewrite HQ by lia.
    rewrite (sub_ext _ _ (fun i => i / x)) by (intros; apply HQ; lia). rewrite sub_pick. reflexivity. }
  assert (EY : col_of (v_group v) x r = gy).
  { unfold col_of, gy. rewrite HM by lia.
    rewrite (sub_ext _ _ (fun i => i mod x)) by (intros; apply HM; lia). rewrite sub_pick. reflexivity. }
  rewrite EX, EY.
  destruct (set_config_ok me s2 _ (name_of wx) gx xc xm R2 UX) as (s3 & C3 & _ & _ & R3).
  { rewrite !team_add by assumption. rewrite Z.eqb_refl.
    destruct (Z.eqb_spec (name_of wy) (name_of wx)); [congruence|reflexivity]. }
  rewrite C3. cbn [bind].
  assert (R3' : rel me s3 (add_team (add_team T (name_of wx) gx (config_of xc xm)) (name_of wy) gy 0)).
  { apply R3.
    - rewrite !team_add by assumption. rewrite Z.eqb_refl.
      destruct (Z.eqb_spec (name_of wy) (name_of wx)); [congruence|reflexivity].
    - intros j Hj. rewrite !team_add by assumption.
      destruct (Z.eqb_spec (name_of wx) j); [congruence|reflexivity]. }
  destruct (set_config_ok me s3 _ (name_of wy) gy yc ym R3' UY) as (s4 & C4 & _ & _ & R4).
  { rewrite team_add, Z.eqb_refl by assumption. reflexivity. }
  rewrite C4. cbn [bind]. exists s4. split; [reflexivity|]. apply R4.
  - rewrite team_add, Z.eqb_refl by assumption. reflexivity.
  - intros j Hj. rewrite !(team_add (add_team _ _ _ _)) by assumption.
    destruct (Z.eqb_spec (name_of wy) j); [congruence|reflexivity].
Qed.

Lemma call_step pn me s T c T' a : pn < 0 -> rel me s T -> call_ok s c -> answer me T c = Some (T', a) ->
  exists s', do_call pn s c = Ok (s', a) /\ rel me s' T'.
Proof.
  intros HP R OKC H. destruct c as [t|t|t|t i u|t start stride size cfg mask w|t x xc xm yc ym wx wy|t];
    cbn [answer do_call call_ok] in *.
  - destruct (t =? H_INVALID) eqn:EI.
    { injection H as <- <-. exists s. unfold m_my_pe. rewrite EI. auto. }
    destruct (team_of T t) as [v|] eqn:Et; [|discriminate].
    destruct (handle_split _ _ _ _ _ R Et) as (o & Lo & (A & _) & M & _). rewrite (r_me _ _ _ R) in A.
    rewrite number_index, A in H. injection H as <- <-. rewrite M. exists s. auto.
  - destruct (t =? H_INVALID) eqn:EI.
    { injection H as <- <-. exists s. unfold m_n_pes. rewrite EI. auto. }
    destruct (team_of T t) as [v|] eqn:Et; [|discriminate].
    destruct (handle_split _ _ _ _ _ R Et) as (o & Lo & (_ & A & _) & _ & M & _).
    injection H as <- <-. rewrite M, A. exists s. auto.
  - destruct (t =? H_INVALID) eqn:EI.
    { injection H as <- <-. exists s. unfold m_get_config. rewrite EI. auto. }
    destruct (team_of T t) as [v|] eqn:Et; [|discriminate].
    destruct (handle_split _ _ _ _ _ R Et) as (o & Lo & (_ & _ & _ & _ & A & _) & _ & _ & M & _).
    injection H as <- <-. rewrite M, A. exists s. auto.
  - unfold m_translate. destruct ((t =? H_INVALID) || (u =? H_INVALID)).
    { injection H as <- <-. exists s. auto. }
    destruct (team_of T t) as [v|] eqn:Et; [|discriminate].
    destruct (team_of T u) as [v'|] eqn:Eu; [|discriminate].
    destruct ((0 <=? i) && (i <? Z.of_nat (length (v_group v)))) eqn:Ei; [|discriminate].
    injection H as <- <-.
    destruct (handle_split _ _ _ _ _ R Et) as (o & _ & (_ & _ & _ & D & _) & _ & _ & _ & M & _).
    destruct (handle_split _ _ _ _ _ R Eu) as (o' & _ & (_ & _ & _ & D' & _) & _ & _ & _ & M' & _).
    rewrite M, M'. cbn [bind]. unfold live. rewrite D, D'. cbn [bind]. unfold translate_rank.
    destruct (Z.eqb_spec i pn); [lia|]. rewrite gnth_aget by lia. cbn [bind].
    exists s. split; [|exact R]. rewrite (gnth_nth (v_group v) i) by lia.
    change (number (v_group v') (gnth (v_group v) i)) with (index_of (v_group v') (gnth (v_group v) i)). f_equal. f_equal. f_equal.
    destruct (index_of (v_group v') (gnth (v_group v) i)) as [k|] eqn:Ek; [|reflexivity].
    apply index_of_some, aget_some in Ek. unfold MPI_UNDEFINED. destruct (Z.eqb_spec k (-32766)); [lia|reflexivity].
  - destruct (t =? H_INVALID) eqn:EI.
    { injection H as <- <-. exists s. unfold m_strided. rewrite EI. auto. }
    destruct (team_of T t) as [v|] eqn:Et; [|discriminate].
    destruct (_ && _ && _ && _) eqn:EE; [|discriminate].
    pose proof (strided_ok me s T t v start stride size cfg mask w R Et OKC ltac:(lia) ltac:(lia) ltac:(lia) ltac:(lia)) as X.
    destruct (_ || _ || _).
    + injection H as <- <-. rewrite X. exists s. auto.
    + destruct (number _ me).
      * destruct X as (s' & X & R'). injection H as <- <-. rewrite X. exists s'. auto.
      * injection H as <- <-. rewrite X. exists s. auto.
  - destruct (t =? H_INVALID) eqn:EI.
    { injection H as <- <-. exists s. unfold m_2d. rewrite EI. auto. }
    destruct (team_of T t) as [v|] eqn:Et; [|discriminate].
    destruct (number (v_group v) me) as [r|] eqn:Er; [|discriminate].
    destruct (Z.leb_spec 1 x); [|discriminate]. injection H as <- <-. destruct OKC as (N1 & N2 & N3).
    destruct (grid_ok me s T t v r x xc xm yc ym wx wy R Et Er) as (s' & X & R'); auto.
    rewrite X. exists s'. auto.
  - unfold m_destroy. destruct ((t =? H_INVALID) || (t =? H_WORLD) || (t =? H_SHARED)) eqn:EI.
    { injection H as <- <-. exists s. auto. }
    destruct (team_of T t) as [v|] eqn:Et; [|discriminate]. injection H as <- <-.
    assert (U : user t).
    { destruct (handle_cases T t v Et) as [->|[->|U]]; [discriminate|discriminate|exact U]. }
    destruct (user_not_world me s T t v R U Et) as [A B].
    destruct (obj_destroy_ok me s T t v R U Et A B) as (s' & X & _ & _ & R'). rewrite X. exists s'. auto.
Qed.

Lemma run_ok pn me cs : pn < 0 -> forall s T T' l, rel me s T -> calls_ok pn s cs ->
  answers me T cs = Some (T', l) -> exists s', run pn s cs = Ok (s', l) /\ rel me s' T'.
Proof.
  intros HP. induction cs as [|c cs IH]; intros s T T' l R K H; cbn [answers run calls_ok] in *.
  - injection H as <- <-. exists s. auto.
  - destruct (answer me T c) as [[T1 a]|] eqn:E; [|discriminate].
    destruct (answers me T1 cs) as [[T2 l2]|] eqn:E2; [|discriminate]. injection H as <- <-.
    destruct K as [K1 K2]. destruct (call_step pn me s T c T1 a HP R K1 E) as (s1 & D & R1).
    rewrite D in *. cbn [bind fst snd] in *. destruct (IH s1 T1 T2 l2 R1 K2 E2) as (s2 & D2 & R2).
    rewrite D2. cbn [bind fst snd]. exists s2. auto.
Qed.

(** ** Set-up *)
Lemma init_ok cts n me w v G :
  0 <= cts -> 0 <= me < Z.of_nat n -> Z.of_nat n <= INT_MAX -> start_ok w v -> team_init cts n me = Ok G ->
  exists s, init cts n me w v = Ok s /\ rel me s (mkTeams (upto (Z.of_nat n)) (tg_shared G) []).
Proof.
  intros Hc Hm Hn ((a & Ea & Na) & (b & Eb & Nb) & (N1 & N2 & N3)) HG. rewrite Ea, Eb in N1.
  rewrite team_init_ok in HG by assumption. injection HG as <-. cbn [tg_shared].
  rewrite upto_zseq, Nat2Z.id. unfold init. rewrite world_group_zseq.
  assert (Ix : index_of (zseq 0 n) me = Some me) by (apply index_of_nodup; [apply nodup_zseq|apply aget_zseq; exact Hm]).
  rewrite Ix. cbn [of_opt bind]. unfold create. rewrite Ea, Eb. cbn [of_opt bind].
  rewrite comm_split_ok by (intros; lia). cbn [bind]. rewrite zseq_length, aget_zmap by exact Hm. cbn [of_opt bind].
  replace (cts =? MPI_UNDEFINED) with false by (unfold MPI_UNDEFINED; lia). cbn [bind].
  assert (ES : sub (zseq 0 n) (fun _ => cts) cts = zseq 0 n).
  { unfold sub. rewrite zseq_length, (filter_ext_in _ (fun _ => true)) by (intros; lia).
    assert (Ef : forall l : list Z, filter (fun _ => true) l = l) by (induction l; simpl; congruence).
    rewrite Ef. transitivity (map (fun i => i) (zseq 0 n)); [|apply map_id]. apply zmap_ext. intros i Hi.
    unfold gnth. rewrite aget_zseq by exact Hi. reflexivity. }
  rewrite ES, Ix. cbn [of_opt bind]. eexists. split; [reflexivity|].
  cbn [with_heap with_mpi p_heap p_comms p_groups].
  assert (Nn : a <> b) by congruence.
  assert (Nab : (b =? a) = false) by lia. assert (Nba : (a =? b) = false) by lia.
  assert (NC : (nw_comm v =? nw_comm w) = false) by lia. assert (NG : (nw_group v =? nw_group w) = false) by lia.
  rewrite !zseq_length.
  set (ow := mkObj me (Z.of_nat n) (nw_comm w) (nw_group w) 0) in *.
  set (os := mkObj me (Z.of_nat n) (nw_comm v) (nw_group v) 0) in *.
  assert (LH : forall j z z' (k : Z), look (put (put (put (put j a z) a ow) b z') b os) k =
       if b =? k then Some os else if a =? k then Some ow else look j k).
  { intros j z z' k. rewrite !look_put. destruct (b =? k), (a =? k); reflexivity. }
  constructor; cbn [p_heap p_comms p_groups p_me p_world p_shared p_wmy p_wn p_wgroup p_smy p_sn p_sgroup].
  - reflexivity.
  - intros h x H. rewrite LH.
    assert (K : (h = H_WORLD \/ h = H_SHARED) /\ x = mkT (zseq 0 n) 0).
    { destruct (handle_cases _ _ _ H) as [->|[->|U]].
      - injection H as <-. auto.
      - injection H as <-. auto.
      - rewrite team_user in H by exact U. discriminate. }
    destruct K as [[->| ->] ->].
    + change (addr _ H_WORLD) with a. rewrite Nab, Z.eqb_refl. exists ow. split; [reflexivity|].
      unfold backs, ow. cbn [v_group v_cfg ob_my ob_n ob_comm ob_group ob_cfg p_comms p_groups p_me]. rewrite !look_put. cbn [look]. rewrite NC, NG, !Z.eqb_refl, zseq_length. repeat split; auto. apply nodup_zseq.
    + change (addr _ H_SHARED) with b. rewrite Z.eqb_refl. exists os. split; [reflexivity|].
      unfold backs, os. cbn [v_group v_cfg ob_my ob_n ob_comm ob_group ob_cfg p_comms p_groups p_me]. rewrite !look_put, !Z.eqb_refl, zseq_length. repeat split; auto. apply nodup_zseq.
  - intros h h' x x' H H' E.
    destruct (handle_cases _ _ _ H) as [->|[->|U]]; [| |rewrite team_user in H by exact U; discriminate];
    (destruct (handle_cases _ _ _ H') as [->|[->|U']]; [| |rewrite team_user in H' by exact U'; discriminate]);
    auto; cbn in E; congruence.
  - intros k o. rewrite LH. destruct (b =? k); [intros X; injection X as <-|].
    + unfold os. cbn [ob_comm ob_group]. rewrite !look_put, !Z.eqb_refl. split; discriminate.
    + destruct (a =? k); [intros X; injection X as <-|discriminate]. unfold ow. cbn [ob_comm ob_group].
      rewrite !look_put. cbn [look]. rewrite NC, NG, !Z.eqb_refl. split; discriminate.
  - intros k k' o o'. rewrite !LH.
    destruct (Z.eqb_spec b k), (Z.eqb_spec b k'); [congruence| | |];
    destruct (Z.eqb_spec a k), (Z.eqb_spec a k'); intros X Y N;
      try discriminate X; try discriminate Y; try congruence;
      injection X as <-; injection Y as <-; cbn; split; congruence.
  - exists ow. rewrite LH, Nab, Z.eqb_refl. auto.
  - exists os. rewrite LH, Z.eqb_refl. auto.
Qed.

Lemma all_calls pn cts n me w v G cs T l :
  pn < 0 -> 0 <= cts -> 0 <= me < Z.of_nat n -> Z.of_nat n <= INT_MAX -> start_ok w v ->
  team_init cts n me = Ok G ->
  exists s, init cts n me w v = Ok s /\
    (calls_ok pn s cs -> answers me (mkTeams (upto (Z.of_nat n)) (tg_shared G) []) cs = Some (T, l) ->
     exists s', run pn s cs = Ok (s', l)).
Proof.
  intros HP Hc Hm Hn SO HG. destruct (init_ok cts n me w v G Hc Hm Hn SO HG) as (s & I & R).
  exists s. split; [exact I|]. intros K H.
  destruct (run_ok pn me cs HP s _ _ _ R K H) as (s' & X & _). eauto.
Qed.

(** ** Other teams keep their members and configuration *)
Lemma new_not_in_use me s T w t v : rel me s T -> new_ok s w -> team_of T t = Some v -> (name_of w =? t) = false.
Proof.
  intros R ((b & Eb & Ub & Lb) & _) H. unfold name_of. rewrite Eb. apply Z.eqb_neq. intros ->.
  destruct (r_back _ _ _ R t v H) as (o & Lo & _). rewrite (addr_user s t Ub) in Lo. congruence.
Qed.
Lemma name_user s w : new_ok s w -> user (name_of w).
Proof. intros ((b & Eb & Ub & _) & _). unfold name_of. rewrite Eb. exact Ub. Qed.

Lemma answer_keeps me s T c T' a t v : rel me s T -> call_ok s c -> answer me T c = Some (T', a) ->
  c <> CDestroy t -> team_of T t = Some v -> team_of T' t = Some v.
Proof.
  intros R OKC H NC Ht. destruct c as [u|u|u|u i u'|u start stride size cfg mask w|u x xc xm yc ym wx wy|u];
    cbn [answer call_ok] in *.
  - destruct (u =? H_INVALID); [congruence|]. destruct (team_of T u); [|discriminate].
    destruct (number _ me); [congruence|discriminate].
  - destruct (u =? H_INVALID); [congruence|]. destruct (team_of T u); [congruence|discriminate].
  - destruct (u =? H_INVALID); [congruence|]. destruct (team_of T u); [congruence|discriminate].
  - destruct ((u =? H_INVALID) || (u' =? H_INVALID)); [congruence|].
    destruct (team_of T u); [|discriminate]. destruct (team_of T u'); [|discriminate].
    destruct (_ && _); [congruence|discriminate].
  - destruct (u =? H_INVALID); [congruence|]. destruct (team_of T u); [|discriminate].
    destruct (_ && _ && _ && _); [|discriminate]. destruct (_ || _ || _); [congruence|].
    destruct (number _ me); [|congruence]. injection H as <- <-.
    rewrite team_add, (new_not_in_use me s T w t v R OKC Ht) by (apply (name_user s); exact OKC). exact Ht.
  - destruct (u =? H_INVALID); [congruence|]. destruct (team_of T u); [|discriminate].
    destruct (number _ me); [|discriminate]. destruct (1 <=? x); [|discriminate]. injection H as <- <-.
    destruct OKC as (N1 & N2 & _). rewrite !team_add by (apply (name_user s); assumption).
    rewrite (new_not_in_use me s T wx t v R N1 Ht), (new_not_in_use me s T wy t v R N2 Ht). exact Ht.
  - destruct ((u =? H_INVALID) || (u =? H_WORLD) || (u =? H_SHARED)) eqn:E; [congruence|].
    destruct (team_of T u) eqn:Eu; [|discriminate]. injection H as <- <-.
    assert (N : u <> t) by (intros ->; apply NC; reflexivity).
    revert Ht. unfold team_of. simpl. rewrite look_del.
    destruct (t =? H_INVALID), (t =? H_WORLD), (t =? H_SHARED); auto. destruct (Z.eqb_spec u t); [congruence|auto].
Qed.

Lemma other_teams pn cts n me w v G s cs T l c T' a t x :
  pn < 0 -> 0 <= cts -> 0 <= me < Z.of_nat n -> Z.of_nat n <= INT_MAX -> start_ok w v ->
  team_init cts n me = Ok G -> init cts n me w v = Ok s -> calls_ok pn s (cs ++ [c]) ->
  answers me (mkTeams (upto (Z.of_nat n)) (tg_shared G) []) cs = Some (T, l) ->
  answer me T c = Some (T', a) -> team_of T t = Some x -> c <> CDestroy t ->
  exists s1 s2, run pn s cs = Ok (s1, l) /\ do_call pn s1 c = Ok (s2, a) /\
    m_my_pe s2 t = m_my_pe s1 t /\ m_n_pes s2 t = m_n_pes s1 t /\ m_get_config s2 t = m_get_config s1 t /\
    (exists r, m_my_pe s1 t = Ok r /\ aget (v_group x) r = Some me) /\
    m_n_pes s1 t = Ok (Z.of_nat (length (v_group x))) /\
    m_get_config s1 t = Ok (SHMEM_SUCCESS, Some (v_cfg x)) /\
    forall i p, aget (v_group x) i = Some p ->
      m_translate pn s1 t i H_WORLD = Ok p /\ m_translate pn s2 t i H_WORLD = Ok p.
Proof.
  intros HP Hc Hm Hn SO HG HI K H HA Ht NC.
  destruct (init_ok cts n me w v G Hc Hm Hn SO HG) as (s0 & I & R). rewrite HI in I. injection I as <-.
  assert (K1 : calls_ok pn s cs /\ forall s1 l1, run pn s cs = Ok (s1, l1) -> call_ok s1 c).
  { clear - K. revert s K. induction cs as [|d cs IH]; intros s K; cbn [app calls_ok run] in *.
    - split; [exact I|]. intros s1 l1 E. injection E as <- <-. tauto.
    - destruct K as [K1 K2]. destruct (do_call pn s d) as [[q e]| | |]; cbn [bind fst snd] in *;
        try (split; [auto|intros; discriminate]).
      destruct (IH q K2) as [A B]. split; [auto|]. intros s1 l1 E.
      destruct (run pn q cs) as [[y z]| | |] eqn:Q; cbn [bind fst snd] in E; try discriminate.
      injection E as <- <-. eapply B. reflexivity. }
  destruct K1 as [K1 K2]. destruct (run_ok pn me cs HP s _ _ _ R K1 H) as (s1 & X & R1).
  pose proof (K2 s1 l X) as KC. destruct (call_step pn me s1 T c T' a HP R1 KC HA) as (s2 & D & R2).
  pose proof (answer_keeps me s1 T c T' a t x R1 KC HA NC Ht) as Ht2.
  exists s1, s2. split; [exact X|]. split; [exact D|].
  destruct (handle_split _ _ _ _ _ R1 Ht) as (o & _ & (A1 & A2 & A3 & A4 & A5 & A6 & A7) & M1 & M2 & M3 & M4 & NI).
  destruct (handle_split _ _ _ _ _ R2 Ht2) as (o' & _ & (B1 & B2 & B3 & B4 & B5 & B6 & B7) & N1 & N2 & N3 & N4 & _).
  rewrite (r_me _ _ _ R1) in A1. rewrite (r_me _ _ _ R2) in B1.
  rewrite M1, M2, M3, N1, N2, N3.
  assert (E1 : ob_my o' = ob_my o) by congruence. assert (E2 : ob_n o' = ob_n o) by congruence.
  assert (E3 : ob_cfg o' = ob_cfg o) by congruence. rewrite E1, E2, E3, A2, A5.
  repeat (split; [reflexivity|]). split; [exists (ob_my o); split; [reflexivity|apply index_of_some; exact A1]|].
  split; [reflexivity|]. split; [reflexivity|]. intros i p Hi.
  assert (WO : forall q U, rel me q U -> t_world U = zseq 0 n -> team_of U t = Some x -> incl (v_group x) (zseq 0 n) ->
       m_translate pn q t i H_WORLD = Ok p).
  { intros q U RU EU HU IN.
    destruct (handle_split _ _ _ _ _ RU HU) as (oo & _ & (_ & _ & _ & C4 & _) & _ & _ & _ & C5 & _).
    destruct (handle_split _ _ _ _ _ RU (world_team U)) as (ow & _ & (_ & _ & _ & D4 & _) & _ & _ & _ & D5 & _).
    unfold m_translate. rewrite NI. change (H_WORLD =? H_INVALID) with false. cbn [orb].
    rewrite C5, D5. cbn [bind]. unfold live. rewrite C4, D4. cbn [bind v_group]. rewrite EU.
    unfold translate_rank. pose proof (aget_some _ _ _ Hi) as Bi. destruct (Z.eqb_spec i pn); [lia|].
    rewrite Hi. pose proof (IN p (aget_In _ _ _ Hi)) as Ip. apply in_zseq in Ip.
    rewrite (index_of_nodup (zseq 0 n) p p) by (try apply nodup_zseq; apply aget_zseq; lia). cbn [bind].
    unfold MPI_UNDEFINED. destruct (Z.eqb_spec p (-32766)); [lia|reflexivity]. }
  assert (TI : forall cs' U L, answers me (mkTeams (upto (Z.of_nat n)) (tg_shared G) []) cs' = Some (U, L) ->
     (t_world U = zseq 0 n /\ forall h y, team_of U h = Some y -> incl (v_group y) (zseq 0 n))).
  { assert (ES : tg_shared G = zseq 0 n).
    { rewrite team_init_ok in HG by assumption. injection HG as <-. reflexivity. }
    assert (START : t_world (mkTeams (upto (Z.of_nat n)) (tg_shared G) []) = zseq 0 n /\
       t_shared (mkTeams (upto (Z.of_nat n)) (tg_shared G) []) = zseq 0 n /\
       forall h y, look (t_user (mkTeams (upto (Z.of_nat n)) (tg_shared G) [])) h = Some y -> incl (v_group y) (zseq 0 n)).
    { cbn [t_world t_shared t_user look]. rewrite upto_zseq, Nat2Z.id, ES. repeat split; auto. discriminate. }
    assert (FIN : forall U, t_world U = zseq 0 n -> t_shared U = zseq 0 n ->
       (forall h y, look (t_user U) h = Some y -> incl (v_group y) (zseq 0 n)) ->
       forall h y, team_of U h = Some y -> incl (v_group y) (zseq 0 n)).
    { intros U W1 W2 W3 h y. unfold team_of. destruct (h =? H_INVALID); [discriminate|].
      destruct (h =? H_WORLD); [intros Q; injection Q as <-; cbn; rewrite W1; apply incl_refl|].
      destruct (h =? H_SHARED); [intros Q; injection Q as <-; cbn; rewrite W2; apply incl_refl|]. apply W3. }
    assert (PK : forall g L, incl g (zseq 0 n) -> (0 < n)%nat -> incl (pick g L) (zseq 0 n)).
    { intros g L IG Hn0 p' Hp. unfold pick in Hp. apply in_map_iff in Hp. destruct Hp as (k & <- & _).
      destruct (nth_in_or_default (Z.to_nat k) g 0) as [Q|Q]; [apply IG; exact Q|]. rewrite Q. apply in_zseq. lia. }
    generalize dependent (mkTeams (upto (Z.of_nat n)) (tg_shared G) []). intros U0 _ _ (W1 & W2 & W3).
    intros cs'. revert U0 W1 W2 W3. induction cs' as [|d cs' IH]; intros U0 W1 W2 W3 U L Q; cbn [answers] in Q.
    - injection Q as <- <-. split; [exact W1|]. apply FIN; assumption.
    - destruct (answer me U0 d) as [[U1 b]|] eqn:QA; [|discriminate].
      destruct (answers me U1 cs') as [[U2 L2]|] eqn:QB; [|discriminate]. injection Q as <- <-.
      assert (NX : t_world U1 = zseq 0 n /\ t_shared U1 = zseq 0 n /\
         forall h y, look (t_user U1) h = Some y -> incl (v_group y) (zseq 0 n)).
      { assert (SAME : U1 = U0 -> t_world U1 = zseq 0 n /\ t_shared U1 = zseq 0 n /\
           forall h y, look (t_user U1) h = Some y -> incl (v_group y) (zseq 0 n)) by (intros ->; auto).
        destruct d as [u|u|u|u i' u'|u start stride size cfg mask w'|u x' xc xm yc ym wx wy|u]; cbn [answer] in QA.
        - apply SAME. destruct (u =? H_INVALID); [congruence|]. destruct (team_of U0 u); [|discriminate].
          destruct (number _ me); [congruence|discriminate].
        - apply SAME. destruct (u =? H_INVALID); [congruence|]. destruct (team_of U0 u); [congruence|discriminate].
        - apply SAME. destruct (u =? H_INVALID); [congruence|]. destruct (team_of U0 u); [congruence|discriminate].
        - apply SAME. destruct ((u =? H_INVALID) || (u' =? H_INVALID)); [congruence|].
          destruct (team_of U0 u); [|discriminate]. destruct (team_of U0 u'); [|discriminate].
          destruct (_ && _); [congruence|discriminate].
        - destruct (u =? H_INVALID); [apply SAME; congruence|]. destruct (team_of U0 u) as [y|] eqn:Y; [|discriminate].
          destruct (_ && _ && _ && _); [|discriminate]. destruct (_ || _ || _); [apply SAME; congruence|].
          destruct (number _ me); [|apply SAME; congruence]. injection QA as <- <-. cbn [t_world t_shared t_user add_team look].
          split; [exact W1|]. split; [exact W2|]. intros h yy. destruct (name_of w' =? h); [|apply W3].
          intros Z1. injection Z1 as <-. cbn [v_group]. apply PK; [|lia]. apply (FIN U0 W1 W2 W3 u y Y).
        - destruct (u =? H_INVALID); [apply SAME; congruence|]. destruct (team_of U0 u) as [y|] eqn:Y; [|discriminate].
          destruct (number _ me); [|discriminate]. destruct (1 <=? x'); [|discriminate]. injection QA as <- <-.
          cbn [t_world t_shared t_user add_team look].
          split; [exact W1|]. split; [exact W2|]. intros h yy. destruct (name_of wy =? h).
          + intros Z1. injection Z1 as <-. cbn [v_group]. apply PK; [|lia]. apply (FIN U0 W1 W2 W3 u y Y).
          + destruct (name_of wx =? h); [|apply W3].
            intros Z1. injection Z1 as <-. cbn [v_group]. apply PK; [|lia]. apply (FIN U0 W1 W2 W3 u y Y).
        - destruct ((u =? H_INVALID) || (u =? H_WORLD) || (u =? H_SHARED)); [apply SAME; congruence|].
          destruct (team_of U0 u); [|discriminate]. injection QA as <- <-. cbn [t_world t_shared t_user].
          split; [exact W1|]. split; [exact W2|]. intros h yy. rewrite look_del. destruct (u =? h); [discriminate|apply W3]. }
      destruct NX as (V1 & V2 & V3). apply (IH U1 V1 V2 V3 U2 L2 QB). }
  destruct (TI cs T l H) as [W1 W2].
  assert (H2 : answers me (mkTeams (upto (Z.of_nat n)) (tg_shared G) []) (cs ++ [c]) = Some (T', l ++ [a])).
  { clear - H HA. revert H. generalize (mkTeams (upto (Z.of_nat n)) (tg_shared G) []) as U. revert l.
    induction cs as [|d cs IH]; intros l U H; cbn [app answers] in *.
    - injection H as <- <-. rewrite HA. reflexivity.
    - destruct (answer me U d) as [[U1 b]|]; [|discriminate].
      destruct (answers me U1 cs) as [[U2 L2]|] eqn:Q; [|discriminate]. injection H as <- <-.
      rewrite (IH L2 U1 Q). reflexivity. }
  destruct (TI (cs ++ [c]) T' (l ++ [a]) H2) as [W3 W4].
  split; [apply (WO s1 T); auto; apply (W2 t x Ht)|apply (WO s2 T'); auto; apply (W4 t x Ht2)].
Qed.
