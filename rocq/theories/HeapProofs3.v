(** Proofs about the symmetric heap: the properties. *)
From Verif Require Import Base BaseProofs SobjModel HeapModel HeapSpec HeapProofs HeapProofs2.

Lemma usedl_disj l : forall o x1 s1 x2 s2, Forall wfc l ->
  In (x1, s1) (usedl o l) -> In (x2, s2) (usedl o l) -> x1 <> x2 ->
  x1 + s1 <= x2 \/ x2 + s2 <= x1.
Proof.
  induction l as [|c l IH]; intros o x1 s1 x2 s2 W H1 H2 N; cbn in H1, H2; [easy|].
  inversion W as [|? ? [_ Hc] W']; subst.
  apply in_app_or in H1 as [H1|H1]; apply in_app_or in H2 as [H2|H2].
  - destruct (is_used c); cbn in *; [|easy]. destruct H1 as [H1|[]], H2 as [H2|[]].
    inversion H1; inversion H2; congruence.
  - destruct (is_used c); cbn in *; [|easy]. destruct H1 as [H1|[]]. inversion H1; subst.
    destruct (usedl_lt _ _ _ _ W' H2) as [B _]. lia.
  - destruct (is_used c); cbn in *; [|easy]. destruct H2 as [H2|[]]. inversion H2; subst.
    destruct (usedl_lt _ _ _ _ W' H1) as [B _]. lia.
  - eauto.
Qed.

Lemma iv_disjoint T st k1 o1 n1 k2 o2 n2 x : iv T st ->
  live st k1 o1 n1 -> live st k2 o2 n2 -> k1 <> k2 ->
  in_block x o1 n1 -> in_block x o2 n2 -> False.
Proof.
  intros I L1 L2 N B1 B2. unfold in_block in *.
  destruct (i_live _ _ _ _ I _ _ _ L1) as (_ & s1 & S1 & C1).
  destruct (i_live _ _ _ _ I _ _ _ L2) as (_ & s2 & S2 & C2).
  assert (O : o1 - MEM_OFF <> o2 - MEM_OFF).
  { intros E. apply N. assert (o1 = o2) by lia. subst. eapply (i_inj _ _ _ _ I); eauto. }
  pose proof (i_wf _ _ _ _ I) as W.
  destruct (usedl_disj _ _ _ _ _ _ (wf_ch _ _ W) S1 S2 O); unfold MEM_OFF in *; lia.
Qed.

Lemma iv_inside T st k o n : iv T st -> live st k o n ->
  MSIZE + MEM_OFF <= o /\ o + n <= T /\ (16 | o) /\ 0 <= n.
Proof.
  intros I L. destruct (i_live _ _ _ _ I _ _ _ L) as (B & s & S & C).
  pose proof (i_wf _ _ _ _ I) as W.
  destruct (usedl_lt _ _ _ _ (wf_ch _ _ W) S) as (B1 & B2 & B3 & B4 & B5).
  pose proof (wf_tot _ _ W) as E. pose proof (wf_top _ _ W) as E2.
  assert (G : o + n <= T).
  { destruct (h_top (s_heap st)) as [t|] eqn:ET.
    - cbn in E, E2. rewrite TOP_FOOT_eq in E. unfold MEM_OFF in *. lia.
    - cbn in E. destruct (wf_last _ _ W ET) as (p & z & El).
      pose proof (wf_ch _ _ W) as WC. unfold used in S. rewrite El in S, E, WC.
      apply Forall_app in WC as [WP WZ]. inversion WZ as [|? ? [_ HZ] _]; subst. cbn in HZ.
      rewrite usedl_app in S. cbn in S. rewrite app_nil_r in S.
      destruct (usedl_lt _ _ _ _ WP S) as (_ & B2' & _).
      rewrite total_app in E. cbn in E. unfold MEM_OFF in *. lia. }
  repeat split; auto; try lia.
  replace o with (o - MEM_OFF - MSIZE + (MSIZE + MEM_OFF)) by lia.
  apply Z.divide_add_r; [easy|]. now exists 60.
Qed.

(** ** Bytes of live blocks *)
Lemma live_lt st k o n : live st k o n -> (k < length (s_tbl st))%nat.
Proof. apply lv_lt. Qed.

Lemma nth_snoc {A} (t : list A) x : nth_error (t ++ [x]) (length t) = Some x.
Proof. rewrite nth_error_app2 by lia. now rewrite Nat.sub_diag. Qed.

Lemma nth_upd_snoc {A} (t : list A) k y x : nth_error (upd t k y ++ [x]) (length t) = Some x.
Proof. rewrite <- (upd_length t k y). apply nth_snoc. Qed.

(** A call either leaves memory alone, or writes only inside the block it returns. *)
Lemma hstep_mem T b size pol os past st op st' :
  iv T st -> sane op -> hstep b size pol os past st op = Ok st' ->
  s_mem st' = s_mem st \/
  exists o n, live st' (length (s_tbl st)) o n /\
    forall x, ~ in_block x o n -> s_mem st' x = s_mem st x.
Proof.
  intros I Hs E. destruct st as [h m t lk]. unfold iv in I. cbn [s_heap s_tbl s_leak s_mem] in *.
  destruct op as [n|n s|al n|k|k n]; unfold hstep in E; cbn [s_heap s_tbl s_leak s_mem] in E.
  - left. destruct (n =? 0); [now inversion E|]. unfold bind in E.
    destruct (m_malloc _ _ _ _) as [[r h']| | |]; try discriminate. now inversion E.
  - destruct Hs as [H1 H2]. destruct ((n =? 0) || (s =? 0)) eqn:Nz; [left; now inversion E|]. apply orb_false_elim in Nz.
    cbv zeta in E. unfold bind in E.
    destruct (m_malloc _ _ _ _) as [[r h']| | |] eqn:EM; try discriminate. inversion E; subst; clear E.
    destruct r as [o' s'|a|]; [|left; reflexivity|left; reflexivity]. right.
    exists (o' + MEM_OFF), (n * s). split; [unfold live; cbn; apply nth_snoc|].
    intros x N. cbn. unfold memset0.
    destruct (calloc_req_ok n s H1 H2) as [[C C']|C]; [unfold sizet in *; lia| |].
    + rewrite C. unfold in_block in N.
      destruct (Z.leb_spec (o' + MEM_OFF) x), (Z.ltb_spec x (o' + MEM_OFF + n * s)); cbn; auto; lia.
    + rewrite C in EM. unfold m_malloc in EM. change (MAX_REQUEST <=? MAX_SIZE_T) with true in EM.
      cbn in EM. discriminate.
  - left. unfold bind in E. destruct (m_memalign _ _ _ _ _ _) as [[r h']| | |]; try discriminate.
    now inversion E.
  - left. destruct (nth_error t k) as [[[[|o|a] n]|]|]; try discriminate; try (now inversion E).
    destruct (check_range _ _); [|now inversion E].
    unfold bind in E. destruct (m_free h o); try discriminate. now inversion E.
  - cbn in Hs. unfold sizet in Hs.
    destruct (nth_error t k) as [[[p n0]|]|] eqn:EK; try discriminate. destruct p as [|o|a].
    + left. destruct (n =? 0); [now inversion E|]. unfold bind in E.
      destruct (m_malloc _ _ _ _) as [[r h']| | |]; try discriminate. now inversion E.
    + unfold bind in E. destruct (m_realloc _ _ _ _ _) as [[[r h'] cp]| | |] eqn:EM; try discriminate.
      destruct (i_live _ _ _ _ I k o n0 EK) as (_ & s & S & _).
      destruct (m_realloc_ok T _ _ _ _ _ _ _ _ _ (i_wf _ _ _ _ I) S (proj1 Hs) EM) as (W & R & _).
      destruct r as [o' s'|a|]; cbn in R; inversion E; subst; clear E; cbn.
      * destruct R as [B [(-> & -> & R)|(-> & R)]]; [left; reflexivity|right].
        exists (o' + MEM_OFF), n. split; [unfold live; cbn; apply nth_upd_snoc|].
        intros x N. unfold memcpy, in_block in *.
        destruct (Z.leb_spec (o' + MEM_OFF) x), (Z.ltb_spec x (o' + MEM_OFF + Z.min (s - OVERHEAD) n));
          cbn; auto; lia.
      * destruct R as [_ ->]. left. reflexivity.
      * destruct R as [_ ->]. left. reflexivity.
    + left. unfold bind in E.
      destruct (match pol past h (request2size n) with POut => _ | _ => _ end) as [[r h']| | |]; try discriminate.
      destruct r; now inversion E.
Qed.

Lemma hstep_frame T b size pol os past st op st' k o n x :
  iv T st -> (16 | b) -> sane op -> hstep b size pol os past st op = Ok st' ->
  live st k o n -> live st' k o n -> in_block x o n -> s_mem st' x = s_mem st x.
Proof.
  intros I Db Hs E L L' B.
  destruct (hstep_mem _ _ _ _ _ _ _ _ _ I Hs E) as [->|(o2 & n2 & L2 & M)]; [reflexivity|].
  apply M. intros B2. pose proof (hstep_iv _ _ _ _ _ _ _ _ _ I Db Hs E) as I'.
  eapply (iv_disjoint T st' k o n (length (s_tbl st)) o2 n2 x); eauto.
  apply live_lt in L. lia.
Qed.

(** Blocks other than the one named by the call stay live. *)
Lemma hstep_keeps b size pol os past st op st' k o n :
  hstep b size pol os past st op = Ok st' -> live st k o n ->
  (forall m, op <> HRealloc k m) -> op <> HFree k -> live st' k o n.
Proof.
  intros E L N1 N2. pose proof (live_lt _ _ _ _ L) as LT.
  assert (P1 : forall h m p by0, live (push st h m p by0) k o n).
  { intros. unfold live, push. cbn. now rewrite nth_error_app1. }
  destruct st as [h m t lk]. unfold live in L. cbn [s_heap s_tbl s_leak s_mem] in *.
  destruct op as [n1|n1 s1|al n1|j|j n1]; unfold hstep in E; cbn [s_heap s_tbl s_leak s_mem] in E.
  - destruct (n1 =? 0); [inversion E; subst; apply P1|]. unfold bind in E.
    destruct (m_malloc _ _ _ _) as [[r h']| | |]; try discriminate. inversion E; subst. apply P1.
  - destruct ((n1 =? 0) || (s1 =? 0)); [inversion E; subst; apply P1|]. cbv zeta in E. unfold bind in E.
    destruct (m_malloc _ _ _ _) as [[r h']| | |]; try discriminate. inversion E; subst. apply P1.
  - unfold bind in E. destruct (m_memalign _ _ _ _ _ _) as [[r h']| | |]; try discriminate.
    inversion E; subst. apply P1.
  - assert (J : k <> j) by congruence.
    assert (P2 : nth_error (upd t j None) k = Some (Some (PHeap o, n))).
    { now rewrite nth_error_upd_ne by auto. }
    destruct (nth_error t j) as [[[[|o1|a] n1]|]|]; try discriminate; try (inversion E; subst; exact P2).
    destruct (check_range _ _); [|inversion E; subst; exact P2].
    unfold bind in E. destruct (m_free h o1); try discriminate. inversion E; subst. exact P2.
  - assert (J : k <> j) by congruence.
    assert (P2 : forall x, nth_error (upd t j None ++ [x]) k = Some (Some (PHeap o, n))).
    { intros x. rewrite nth_error_app1 by now rewrite upd_length. now rewrite nth_error_upd_ne by auto. }
    destruct (nth_error t j) as [[[[|o1|a] n0]|]|]; try discriminate.
    + destruct (n1 =? 0); [inversion E; subst; apply P1|]. unfold bind in E.
      destruct (m_malloc _ _ _ _) as [[r h']| | |]; try discriminate. inversion E; subst. apply P1.
    + unfold bind in E. destruct (m_realloc _ _ _ _ _) as [[[r h'] cp]| | |]; try discriminate.
      destruct r; inversion E; subst; try apply P1; apply P2.
    + unfold bind in E.
      destruct (match pol past h (request2size n1) with POut => _ | _ => _ end) as [[r h']| | |]; try discriminate.
      destruct r; inversion E; subst; try apply P1; apply P2.
Qed.

Lemma hstep_calloc T b size pol os past st n s st' o m :
  iv T st -> sane (HCalloc n s) -> hstep b size pol os past st (HCalloc n s) = Ok st' ->
  live st' (length (s_tbl st)) o m -> m = n * s /\ n * s < 2 ^ 64 /\
  forall x, in_block x o (n * s) -> s_mem st' x = 0.
Proof.
  intros I [H1 H2] E L. unfold hstep in E. destruct ((n =? 0) || (s =? 0)) eqn:N.
  { inversion E; subst. unfold live, push in L. cbn in L. rewrite nth_snoc in L. discriminate. }
  apply orb_false_elim in N.
  cbv zeta in E. unfold bind in E.
  destruct (m_malloc _ _ _ _) as [[r h']| | |] eqn:EM; try discriminate. inversion E; subst; clear E.
  unfold live, push in L. cbn in L. rewrite nth_snoc in L. inversion L; subst.
  destruct r as [o' s'|a|]; try discriminate. cbn in H0. inversion H0; subst.
  destruct (calloc_req_ok n s H1 H2) as [[C C']|C]; [unfold sizet in *; lia| |].
  - split; [reflexivity|]. split; [easy|]. intros x B. cbn. rewrite C. unfold memset0, in_block in *.
    destruct (Z.leb_spec (o' + MEM_OFF) x), (Z.ltb_spec x (o' + MEM_OFF + n * s)); cbn; auto; lia.
  - rewrite C in EM. unfold m_malloc in EM. change (MAX_REQUEST <=? MAX_SIZE_T) with true in EM.
    cbn in EM. discriminate.
Qed.

Lemma hstep_align T b size pol os past st al n st' o m :
  iv T st -> (16 | b) -> sane (HAlign al n) -> is_pow2 al ->
  hstep b size pol os past st (HAlign al n) = Ok st' ->
  live st' (length (s_tbl st)) o m -> m = n /\ (b + o) mod al = 0.
Proof.
  intros I Db [H1 H2] P E L. unfold hstep in E. unfold bind in E.
  destruct (m_memalign _ _ _ _ _ _) as [[r h']| | |] eqn:EM; try discriminate.
  inversion E; subst; clear E.
  unfold live, push in L. cbn in L. rewrite nth_snoc in L. inversion L; subst.
  destruct r as [o' s'|a|]; try discriminate. cbn in H0. inversion H0; subst.
  destruct (m_memalign_ok T _ _ _ _ _ _ _ _ (i_wf _ _ _ _ I) Db H1 H2 EM) as (_ & _ & A & _).
  split; [reflexivity|]. specialize (A o' s' eq_refl P).
  now replace (b + (o' + MEM_OFF)) with (b + o' + MEM_OFF) by lia.
Qed.

Lemma hstep_realloc T b size pol os past st k n bytes o st' :
  iv T st -> sane (HRealloc k bytes) -> live st k o n ->
  hstep b size pol os past st (HRealloc k bytes) = Ok st' ->
  (nth_error (s_tbl st') (length (s_tbl st)) = Some (Some (PNull, bytes)) /\
   live st' k o n /\ s_mem st' = s_mem st) \/
  (exists o', live st' (length (s_tbl st)) o' bytes /\
    forall i, 0 <= i < Z.min n bytes -> s_mem st' (o' + i) = s_mem st (o + i)) \/
  (exists a, live_outside st' (length (s_tbl st)) a bytes).
Proof.
  intros I Hs L E. destruct st as [h m t lk]. unfold live in L. unfold iv in I.
  cbn [s_heap s_tbl s_leak s_mem] in *. cbn in Hs. unfold sizet in Hs.
  unfold hstep in E. cbn [s_heap s_tbl s_leak s_mem] in E. rewrite L in E.
  unfold bind in E. destruct (m_realloc _ _ _ _ _) as [[[r h'] cp]| | |] eqn:EM; try discriminate.
  destruct (i_live _ _ _ _ I k o n L) as (_ & s & S & C).
  destruct (m_realloc_ok T _ _ _ _ _ _ _ _ _ (i_wf _ _ _ _ I) S (proj1 Hs) EM) as (W & R & _).
  destruct r as [o' s'|a|]; cbn in R; inversion E; subst; clear E; cbn.
  - right. left. exists (o' + MEM_OFF). split; [unfold live; cbn; apply nth_upd_snoc|].
    intros i Hi. destruct R as [B [(-> & -> & R)|(-> & R)]]; cbn.
    + f_equal. lia.
    + unfold memcpy, OVERHEAD.
      destruct (Z.leb_spec (o' + MEM_OFF) (o' + MEM_OFF + i)); [|lia].
      destruct (Z.ltb_spec (o' + MEM_OFF + i) (o' + MEM_OFF + Z.min (s - 8) bytes)); [|lia].
      cbn. f_equal. lia.
  - right. right. exists a. unfold live_outside. cbn. apply nth_upd_snoc.
  - destruct R as [_ ->]. left. repeat split; [apply nth_snoc|].
    unfold live. cbn. rewrite nth_error_app1; [easy|]. eapply lv_lt; eauto.
Qed.

(** ** Valid calls do not go wrong *)

Lemma m_alloc_cases h nb pk os :
  m_alloc h nb pk os = NoFuel \/ exists r h', m_alloc h nb pk os = Ok (r, h').
Proof.
  destruct pk; cbn [m_alloc].
  - destruct (split_at i (h_ch h)) as [[[pre [s []]] post]|]; auto.
    destruct (nb <=? s); auto. destruct (MIN_CHUNK <=? s - nb); eauto.
  - destruct (h_top h); auto. destruct (nb <? z); eauto.
  - destruct (_ || _); eauto.
  - destruct (nofit h nb); eauto.
  - destruct (nofit h nb); eauto.
Qed.

Lemma m_malloc_cases h n pk os :
  m_malloc h n pk os = NoFuel \/ exists r h', m_malloc h n pk os = Ok (r, h').
Proof.
  unfold m_malloc. destruct (MAX_REQUEST <=? n); [eauto|]. apply m_alloc_cases.
Qed.

Definition fine {A} (x : outcome A) : Prop := x <> UB /\ x <> Abort.

Lemma round_align_fine f : forall a al, fine (round_align f a al).
Proof.
  induction f as [|f IH]; intros a al; cbn [round_align]; [split; discriminate|].
  destruct (a <? al); [apply IH|split; discriminate].
Qed.

Lemma memalign_alignment_fine al : fine (memalign_alignment al).
Proof.
  unfold memalign_alignment. destruct (_ =? 0); [split; discriminate|apply round_align_fine].
Qed.

Lemma m_memalign_fine T b h al n pk os : wf T h -> (16 | b) -> sizet al -> sizet n ->
  fine (m_memalign b h al n pk os).
Proof.
  intros W Db H1 H2. unfold m_memalign, sizet in *. destruct (Z.leb_spec al 16).
  { destruct (m_malloc_cases h n pk os) as [->|(r & h' & ->)]; split; discriminate. }
  destruct (memalign_alignment al) as [a| | |] eqn:EA; cbn [bind].
  2,3: exfalso; destruct (memalign_alignment_fine al); congruence.
  2: split; discriminate.
  apply memalign_alignment_ok in EA as (k & K & ->); [|lia].
  assert (A32 : 32 <= 2 ^ k) by (change 32 with (2 ^ 5); apply Z.pow_le_mono_r; lia).
  assert (A63 : 2 ^ k <= 2 ^ 63) by (apply Z.pow_le_mono_r; lia).
  assert (M63 : 2 ^ 63 + 2 ^ 63 = 2 ^ 64) by reflexivity.
  rewrite (wrap64_id (MAX_REQUEST - 2 ^ k)) by (unfold MAX_REQUEST; lia).
  destruct (Z.leb_spec (MAX_REQUEST - 2 ^ k) n) as [B|B]; [split; discriminate|].
  destruct (request2size_ok n) as (D1 & D2 & D3 & D4); [lia|].
  set (nb := request2size n) in *. unfold MIN_CHUNK, OVERHEAD.
  assert (WR : wrap64 (nb + 2 ^ k + 32 - 8) = nb + 2 ^ k + 24).
  { rewrite wrap64_id; [lia|]. unfold MAX_REQUEST in B. lia. }
  rewrite WR. unfold bind at 1.
  destruct (m_malloc_cases h (nb + 2 ^ k + 24) pk os) as [->|(r & h' & EM)]; [split; discriminate|].
  rewrite EM.
  destruct (m_malloc_ok T h (nb + 2 ^ k + 24) pk os r h' W ltac:(lia) EM) as (W1 & R1 & _).
  destruct r as [o s|a|]; try (split; discriminate).
  destruct R1 as [S1 R1].
  destruct (lead_chunk_ok T b h' o s k W1 (added_in _ _ _ _ R1) Db ltac:(lia) ltac:(lia))
    as (o2 & h2 & E2 & W2 & B2 & M2 & R2 & X2).
  rewrite E2. cbn [bind].
  destruct (trim_chunk_ok T h2 o2 (s - (o2 - o)) nb W2 (replaced_in _ _ _ _ _ _ R2) D1 D2 ltac:(lia))
    as (s3 & h3 & E3 & W3 & B3 & R3 & X3).
  rewrite E3. cbn [bind]. split; discriminate.
Qed.

Lemma m_realloc_fine T h o s n pk os : wf T h -> In (o - MEM_OFF, s) (used h) -> sizet n ->
  fine (m_realloc h o n pk os).
Proof.
  intros W H Hn. unfold m_realloc. destruct (MAX_REQUEST <=? n); [split; discriminate|].
  destruct (usedl_in _ _ _ _ H) as (pre & post & El & Eo).
  destruct (wf_split _ _ _ _ _ W El) as (P1 & P2 & D & S & N1 & N2).
  rewrite Eo, El, locate_app by easy.
  destruct (try_realloc h pre s post (request2size n)) as [[s1 h1]|]; [split; discriminate|].
  unfold bind at 1. destruct (m_malloc_cases h n pk os) as [->|(r & h' & EM)]; [split; discriminate|].
  rewrite EM. destruct (m_malloc_ok T h n pk os r h' W (proj1 Hn) EM) as (W1 & R1 & _).
  destruct r as [o1 s1|a|]; [| |split; discriminate].
  - destruct R1 as [B1 R1].
    destruct (m_free_ok T h' o s W1 (added_keep _ _ _ _ _ R1 H)) as (h2 & E2 & _).
    rewrite E2. cbn [bind]. split; discriminate.
  - cbn in R1. assert (H1 : In (o - MEM_OFF, s) (used h')) by now rewrite R1.
    destruct (m_free_ok T h' o s W1 H1) as (h2 & E2 & _).
    rewrite E2. cbn [bind]. split; discriminate.
Qed.

Lemma hstep_fine T b size pol os past st op : iv T st -> (16 | b) -> sane op -> valid st op ->
  fine (hstep b size pol os past st op).
Proof.
  intros I Db Hs V. destruct st as [h m t lk]. unfold iv in I. cbn [s_heap s_tbl s_leak s_mem] in *.
  destruct op as [n|n s|al n|k|k n]; unfold hstep; cbn [s_heap s_tbl s_leak s_mem].
  - destruct (n =? 0); [split; discriminate|].
    destruct (m_malloc_cases h n (pol past h) (os (length t))) as [->|(r & h' & ->)]; split; discriminate.
  - destruct ((n =? 0) || (s =? 0)); [split; discriminate|]. cbv zeta.
    destruct (m_malloc_cases h (calloc_req n s) (pol past h) (os (length t))) as [->|(r & h' & ->)];
      split; discriminate.
  - destruct Hs as [H1 H2].
    pose proof (m_memalign_fine T b h al n (pol past h) (os (length t)) (i_wf _ _ _ _ I) Db H1 H2) as F.
    destruct (m_memalign _ _ _ _ _ _) as [[r h']| | |]; destruct F; try congruence; split; discriminate.
  - destruct V as (p & n & EK). cbn in EK. rewrite EK. destruct p as [|o|a]; try (split; discriminate).
    destruct (check_range _ _); [|split; discriminate].
    destruct (i_live _ _ _ _ I k o n EK) as (_ & s & S & _).
    destruct (m_free_ok T h o s (i_wf _ _ _ _ I) S) as (h2 & E2 & _). rewrite E2. split; discriminate.
  - destruct V as (p & n0 & EK). cbn in EK. rewrite EK. destruct p as [|o|a].
    + destruct (n =? 0); [split; discriminate|].
      destruct (m_malloc_cases h n (pol past h) (os (length t))) as [->|(r & h' & ->)]; split; discriminate.
    + destruct (i_live _ _ _ _ I k o n0 EK) as (_ & s & S & _).
      pose proof (m_realloc_fine T h o s n (pol past h) (os (length t)) (i_wf _ _ _ _ I) S Hs) as F.
      destruct (m_realloc _ _ _ _ _) as [[[r h'] cp]| | |]; destruct F; try congruence.
      * destruct r; split; discriminate.
      * split; discriminate.
    + destruct (pol past h (request2size n)).
      3: { cbn [bind]. destruct (MAX_REQUEST <=? n); split; discriminate. }
      all: destruct (m_malloc_cases h n (pol past h) (os (length t))) as [->|(r & h' & ->)];
        [split; discriminate|destruct r; split; discriminate].
Qed.

(** ** Everything released *)
Lemma usedl_nil_free l o : Forall (fun c => c_tag c <> Fixed) l -> usedl o l = [] ->
  Forall (fun c => is_free c = true) l.
Proof.
  revert o. induction l as [|[s tg] l IH]; intros o F E; [constructor|].
  inversion F; subst. cbn in E. destruct tg; cbn in *; try congruence.
  constructor; [reflexivity|]. eauto.
Qed.

Lemma nf_all_free l : Forall (fun c => is_free c = true) l -> nf l true -> l = [].
Proof.
  destruct l as [|c [|d l]]; intros F N; [reflexivity| |]; exfalso.
  - inversion F; subst. destruct N as [N _]. cbn in N. specialize (N H1). discriminate.
  - inversion F as [|? ? Fc F']; subst. inversion F'; subst. destruct N as [N _]. cbn in N.
    rewrite (N Fc) in H1. discriminate.
Qed.

Lemma iv_all_released T st : iv T st -> (forall k o n, ~ live st k o n) -> s_leak st = [] ->
  h_ext (s_heap st) = false -> s_heap st = Hp [] (Some (T - MSIZE - TOP_FOOT)) false.
Proof.
  intros I NL LK X. pose proof (i_wf _ _ _ _ I) as W.
  assert (U : used (s_heap st) = []).
  { destruct (used (s_heap st)) as [|[o s] l] eqn:E; [reflexivity|]. exfalso.
    destruct (i_all _ _ _ _ I o s) as [(k & n & L)|L].
    - rewrite E. now left.
    - eapply NL; eauto.
    - rewrite LK in L. easy. }
  destruct W as [W1 W2 W3 W4 W5 W6 W7]. destruct (s_heap st) as [l tp e]. cbn in *.
  destruct tp as [t|].
  2: { assert (e = true) by now apply W5. congruence. }
  assert (F : l = []).
  { apply nf_all_free; [|exact W4]. eapply usedl_nil_free; [apply W6; discriminate|exact U]. }
  subst. cbn in W3. f_equal. f_equal. lia.
Qed.

(** ** Released memory is available again *)
Lemma nofit_chunk l c t e nb : In c l -> is_free c = true -> nb <= c_sz c -> nofit (Hp l t e) nb = false.
Proof.
  intros H F L. unfold nofit. cbn. apply andb_false_iff. left.
  destruct (forallb _ l) eqn:E; [|reflexivity]. rewrite forallb_forall in E.
  specialize (E c H). rewrite F in E. cbn in E. destruct (Z.leb_spec nb (c_sz c)); [discriminate|lia].
Qed.

Lemma dispose_fit pre sz post top l t e nb : Forall wfc pre -> Forall wfc post -> topok top ->
  dispose pre sz post top = (l, t) -> 32 <= nb <= sz -> nofit (Hp l t e) nb = false.
Proof.
  intros W1 W2 W3 E Hn. unfold dispose in E.
  set (ps := match rev pre with Ck s Free :: r => (rev r, s + sz) | _ => (pre, sz) end) in *.
  assert (P : sz <= snd ps).
  { unfold ps. destruct (rev pre) as [|[s []] r] eqn:ER; cbn; try lia.
    apply rev_cons_eq in ER. subst pre. apply Forall_app in W1 as [_ W1].
    inversion W1 as [|? ? [_ B] _]; subst. cbn in B. lia. }
  destruct ps as [pre' sz']. cbn in P.
  destruct post as [|[s []] post].
  - destruct top as [t0|]; inversion E; subst.
    + unfold nofit. cbn. apply andb_false_iff. right. destruct W3. destruct (Z.leb_spec (t0 + sz') nb); [lia|reflexivity].
    + apply (nofit_chunk _ (Ck sz' Free)); cbn; [apply in_or_app; right; now left|easy|lia].
  - inversion W2 as [|? ? [_ B] _]; subst. cbn in B. inversion E; subst.
    apply (nofit_chunk _ (Ck (sz' + s) Free)); cbn; [apply in_or_app; right; now left|easy|lia].
  - inversion E; subst. apply (nofit_chunk _ (Ck sz' Free)); cbn; [apply in_or_app; right; now left|easy|lia].
  - inversion E; subst. apply (nofit_chunk _ (Ck sz' Free)); cbn; [apply in_or_app; right; now left|easy|lia].
Qed.

Lemma request2size_le n s : 0 <= n -> n + 8 <= s -> (16 | s) -> 32 <= s -> s < 2 ^ 64 - 128 ->
  request2size n <= s.
Proof.
  intros H1 H2 (q & Q) H3 H4. unfold request2size, MIN_REQUEST, MIN_CHUNK.
  destruct (Z.ltb_spec n 23); [lia|]. unfold pad_request. rewrite wrap64_id by lia.
  assert ((n + 8 + 15) / 16 < q + 1); [|lia]. apply Z.div_lt_upper_bound; lia.
Qed.

Lemma hstep_free T b size pol os past st k o n : iv T st -> T < 2 ^ 63 -> live st k o n ->
  0 <= o < size ->
  exists st', hstep b size pol os past st (HFree k) = Ok st' /\
    (forall o' n', ~ live st' k o' n') /\ s_leak st' = s_leak st /\ s_mem st' = s_mem st /\
    nofit (s_heap st') (request2size n) = false.
Proof.
  intros I HT L Ho. destruct st as [h m t lk]. unfold iv, live in *. cbn [s_heap s_tbl s_leak s_mem] in *.
  unfold hstep. cbn [s_heap s_tbl s_leak s_mem]. rewrite L.
  assert (C : check_range (b + o) (mkAttr 0 b size None) = true).
  { unfold check_range. cbn. lia. }
  rewrite C.
  destruct (i_live _ _ _ _ I k o n L) as (B & s & S & Cn).
  pose proof (i_wf _ _ _ _ I) as W.
  destruct (usedl_in _ _ _ _ S) as (pre & post & El & Eo).
  destruct (wf_split _ _ _ _ _ W El) as (P1 & P2 & D & Ss & N1 & N2).
  unfold m_free. rewrite Eo, El, locate_app by easy.
  destruct (dispose pre s post (h_top h)) as [l tp] eqn:ED. cbn [bind].
  eexists. split; [reflexivity|]. cbn. split; [|split; [reflexivity|split; [reflexivity|]]].
  - intros o' n' H. apply lv_upd in H. tauto.
  - pose proof (wf_tot _ _ W) as ET. rewrite El, total_app in ET. cbn in ET.
    pose proof (total_pos _ P1). pose proof (total_pos _ P2).
    assert (0 <= tv (h_top h)).
    { pose proof (wf_top _ _ W) as X. destruct (h_top h); cbn in *; [rewrite TOP_FOOT_eq; lia|lia]. }
    rewrite MSIZE_eq in ET.
    eapply dispose_fit; [exact P1|exact P2|apply W|exact ED|]. split.
    + destruct (Z.lt_ge_cases n MAX_REQUEST) as [G|G]; [apply request2size_ok; lia|].
      unfold MAX_REQUEST in G. lia.
    + apply request2size_le; auto; lia.
Qed.

(** ** Symmetry of the placements *)
Definition mrel (r1 r2 : mres) : Prop :=
  match r1, r2 with
  | MHeap o s, MHeap o' s' => o = o' /\ s = s'
  | MOut _, MOut _ => True
  | MNull, MNull => True
  | _, _ => False
  end.

Lemma m_alloc_os h nb pk os1 os2 r1 h1 : m_alloc h nb pk os1 = Ok (r1, h1) ->
  exists r2, m_alloc h nb pk os2 = Ok (r2, h1) /\ mrel r1 r2.
Proof.
  intros E. destruct pk; cbn [m_alloc] in *.
  - destruct (split_at i (h_ch h)) as [[[pre [s []]] post]|]; try discriminate.
    destruct (nb <=? s); try discriminate. destruct (MIN_CHUNK <=? s - nb); inversion E; subst; eexists; split; try reflexivity; split; reflexivity.
  - destruct (h_top h); try discriminate. destruct (nb <? z); inversion E; subst.
    eexists; split; [reflexivity|]; split; reflexivity.
  - destruct (_ || _); inversion E; subst. eexists; split; [reflexivity|exact Logic.I].
  - destruct (nofit h nb); inversion E; subst. eexists; split; [reflexivity|exact Logic.I].
  - destruct (nofit h nb); inversion E; subst. eexists; split; [reflexivity|exact Logic.I].
Qed.

Lemma m_malloc_os h n pk os1 os2 r1 h1 : m_malloc h n pk os1 = Ok (r1, h1) ->
  exists r2, m_malloc h n pk os2 = Ok (r2, h1) /\ mrel r1 r2.
Proof.
  unfold m_malloc. destruct (MAX_REQUEST <=? n).
  - intros E; inversion E; subst. exists MNull. split; [reflexivity|exact Logic.I].
  - apply m_alloc_os.
Qed.

Lemma lead_chunk_base b1 b2 h o k : 0 <= k -> (b1 - b2) mod 2 ^ k = 0 ->
  lead_chunk b1 h o (2 ^ k) = lead_chunk b2 h o (2 ^ k).
Proof.
  intros Hk M. assert (P : 0 < 2 ^ k) by (apply Z.pow_pos_nonneg; lia).
  apply Z.mod_divide in M as [q Q]; [|lia].
  assert (B : b1 = b2 + q * 2 ^ k) by lia. subst b1.
  unfold lead_chunk. rewrite !pow2_land_mod by easy. rewrite !pow2_align_up by easy.
  assert (E1 : (b2 + q * 2 ^ k + o + MEM_OFF) mod 2 ^ k = (b2 + o + MEM_OFF) mod 2 ^ k).
  { replace (b2 + q * 2 ^ k + o + MEM_OFF) with (b2 + o + MEM_OFF + q * 2 ^ k) by lia.
    apply Z.mod_add. lia. }
  rewrite E1. destruct (_ =? 0); [reflexivity|].
  assert (E2 : (b2 + q * 2 ^ k + o + MEM_OFF + 2 ^ k - 1) / 2 ^ k = (b2 + o + MEM_OFF + 2 ^ k - 1) / 2 ^ k + q).
  { replace (b2 + q * 2 ^ k + o + MEM_OFF + 2 ^ k - 1) with (b2 + o + MEM_OFF + 2 ^ k - 1 + q * 2 ^ k) by lia.
    apply Z.div_add. lia. }
  rewrite E2.
  replace (2 ^ k * ((b2 + o + MEM_OFF + 2 ^ k - 1) / 2 ^ k + q) - MEM_OFF - (b2 + q * 2 ^ k))
    with (2 ^ k * ((b2 + o + MEM_OFF + 2 ^ k - 1) / 2 ^ k) - MEM_OFF - b2) by lia.
  reflexivity.
Qed.

Lemma m_memalign_base b1 b2 h al n pk os1 os2 r1 h1 : sizet al -> is_pow2 al ->
  (b1 - b2) mod al = 0 -> m_memalign b1 h al n pk os1 = Ok (r1, h1) ->
  exists r2, m_memalign b2 h al n pk os2 = Ok (r2, h1) /\ mrel r1 r2.
Proof.
  intros Ha (j & J & ->) M E. unfold m_memalign in *. destruct (Z.leb_spec (2 ^ j) 16) as [L|L].
  - eapply m_malloc_os; eauto.
  - assert (J5 : 5 <= j).
    { change 16 with (2 ^ 4) in L. apply Z.pow_lt_mono_r_iff in L; lia. }
    unfold sizet in Ha. assert (J64 : j < 64) by (apply (Z.pow_lt_mono_r_iff 2); lia).
    rewrite memalign_alignment_pow2 in * by lia. cbn [bind] in *.
    destruct (_ <=? n); [inversion E; subst; exists MNull; split; [reflexivity|exact Logic.I]|].
    set (req := wrap64 _) in *. unfold bind at 1. unfold bind at 1 in E.
    destruct (m_malloc h req pk os1) as [[r h']| | |] eqn:EM; try discriminate.
    destruct (m_malloc_os _ _ _ _ os2 _ _ EM) as (r2 & EM2 & R). rewrite EM2.
    destruct r as [o s|a|], r2 as [o' s'|a'|]; try easy.
    + destruct R as [<- <-]. rewrite <- (lead_chunk_base b1 b2 h' o j) by (easy || lia).
      destruct (lead_chunk b1 h' o (2 ^ j)) as [[o2 h2]| | |]; try discriminate. cbn [bind] in *.
      destruct (trim_chunk h2 o2 _) as [[s3 h3]| | |]; try discriminate. cbn [bind] in *.
      inversion E; subst. eexists. split; [reflexivity|]. split; reflexivity.
    + inversion E; subst. eexists. split; [reflexivity|exact Logic.I].
    + inversion E; subst. eexists. split; [reflexivity|exact Logic.I].
Qed.

Lemma m_realloc_os h o n pk os1 os2 r1 h1 cp : m_realloc h o n pk os1 = Ok (r1, h1, cp) ->
  exists r2, m_realloc h o n pk os2 = Ok (r2, h1, cp) /\ mrel r1 r2.
Proof.
  intros E. unfold m_realloc in *. destruct (MAX_REQUEST <=? n).
  { inversion E; subst. exists MNull. split; [reflexivity|exact Logic.I]. }
  destruct (locate MSIZE (h_ch h) (o - MEM_OFF)) as [[[pre [s []]] post]|]; try discriminate.
  destruct (try_realloc h pre s post (request2size n)) as [[s1 h2]|].
  { inversion E; subst. eexists. split; [reflexivity|]. split; reflexivity. }
  unfold bind at 1. unfold bind at 1 in E.
  destruct (m_malloc h n pk os1) as [[r h']| | |] eqn:EM; try discriminate.
  destruct (m_malloc_os _ _ _ _ os2 _ _ EM) as (r2 & EM2 & R). rewrite EM2.
  destruct r as [o1 s1|a|], r2 as [o' s'|a'|]; try easy.
  - destruct R as [<- <-]. destruct (m_free h' o) as [h2| | |]; try discriminate. cbn [bind] in *.
    inversion E; subst. eexists. split; [reflexivity|]. split; reflexivity.
  - destruct (m_free h' o) as [h2| | |]; try discriminate. cbn [bind] in *.
    inversion E; subst. eexists. split; [reflexivity|exact Logic.I].
  - inversion E; subst. eexists. split; [reflexivity|exact Logic.I].
Qed.

Definition srel (s1 s2 : hst) : Prop :=
  s_heap s1 = s_heap s2 /\ s_leak s1 = s_leak s2 /\ same_blocks s1 s2.

Lemma same_snoc t1 t2 x1 x2 : Forall2 same_ptr t1 t2 -> same_ptr x1 x2 ->
  Forall2 same_ptr (t1 ++ [x1]) (t2 ++ [x2]).
Proof. intros H1 H2. apply Forall2_app; auto. Qed.

Lemma same_upd t1 t2 k : Forall2 same_ptr t1 t2 -> Forall2 same_ptr (upd t1 k None) (upd t2 k None).
Proof.
  intros H. revert k. induction H as [|x y t1 t2 Hx H IH]; intros [|k]; cbn; try constructor; auto.
  exact Logic.I.
Qed.

Lemma same_nth t1 t2 k : Forall2 same_ptr t1 t2 ->
  match nth_error t1 k, nth_error t2 k with
  | Some x, Some y => same_ptr x y
  | None, None => True
  | _, _ => False
  end.
Proof.
  intros H. revert k. induction H as [|x y t1 t2 Hx H IH]; intros [|k]; cbn; auto. apply IH.
Qed.

Lemma mrel_ptr r1 r2 n : mrel r1 r2 -> same_ptr (Some (ptr_of r1, n)) (Some (ptr_of r2, n)).
Proof. destruct r1, r2; cbn; try easy. intros [-> ->]. auto. Qed.

Definition base_ok (b1 b2 : Z) (op : hop) : Prop :=
  match op with HAlign al _ => is_pow2 al /\ (b1 - b2) mod al = 0 | _ => True end.

Lemma hstep_same b1 b2 size pol os1 os2 past s1 s2 op s1' :
  srel s1 s2 -> sane op -> base_ok b1 b2 op -> hstep b1 size pol os1 past s1 op = Ok s1' ->
  exists s2', hstep b2 size pol os2 past s2 op = Ok s2' /\ srel s1' s2'.
Proof.
  intros (Hh & Hl & Hb) Hs B E. unfold same_blocks in Hb.
  destruct s1 as [h m1 t1 lk], s2 as [h2 m2 t2 lk2]. cbn [s_heap s_tbl s_leak s_mem] in *. subst h2 lk2.
  destruct op as [n|n s|al n|k|k n]; unfold hstep in *; cbn [s_heap s_tbl s_leak s_mem] in *.
  - destruct (n =? 0).
    + inversion E; subst. eexists. split; [reflexivity|]. repeat split; auto. now apply same_snoc.
    + unfold bind in *. destruct (m_malloc _ _ _ (os1 _)) as [[r h']| | |] eqn:EM; try discriminate.
      destruct (m_malloc_os _ _ _ _ (os2 (length t2)) _ _ EM) as (r2 & EM2 & R). rewrite EM2.
      inversion E; subst. eexists. split; [reflexivity|]. repeat split; auto.
      apply same_snoc; [easy|now apply mrel_ptr].
  - destruct ((n =? 0) || (s =? 0)).
    + inversion E; subst. eexists. split; [reflexivity|]. repeat split; auto. now apply same_snoc.
    + cbv zeta in *. unfold bind in *.
      destruct (m_malloc _ _ _ (os1 _)) as [[r h']| | |] eqn:EM; try discriminate.
      destruct (m_malloc_os _ _ _ _ (os2 (length t2)) _ _ EM) as (r2 & EM2 & R). rewrite EM2.
      inversion E; subst. eexists. split; [reflexivity|]. repeat split; auto.
      apply same_snoc; [easy|now apply mrel_ptr].
  - destruct B as [B1 B2]. destruct Hs as [Hs _]. unfold bind in *.
    destruct (m_memalign b1 _ _ _ _ _) as [[r h']| | |] eqn:EM; try discriminate.
    destruct (m_memalign_base b1 b2 _ _ _ _ _ (os2 (length t2)) _ _ Hs B1 B2 EM) as (r2 & EM2 & R).
    rewrite EM2. inversion E; subst. eexists. split; [reflexivity|]. repeat split; auto.
    apply same_snoc; [easy|now apply mrel_ptr].
  - pose proof (same_nth t1 t2 k Hb) as N. pose proof (same_upd t1 t2 k Hb) as U.
    destruct (nth_error t1 k) as [[[p1 n1]|]|]; try discriminate.
    destruct (nth_error t2 k) as [[[p2 n2]|]|]; try easy.
    2: { destruct p1; easy. }
    destruct p1 as [|o1|a1], p2 as [|o2|a2]; try easy; cbn in N.
    + inversion E; subst. eexists. split; [reflexivity|]. repeat split; auto.
    + destruct N as [<- <-].
      assert (C : check_range (b1 + o1) (mkAttr 0 b1 size None) = check_range (b2 + o1) (mkAttr 0 b2 size None)).
      { unfold check_range. cbn. lia. }
      rewrite C in E. destruct (check_range (b2 + o1) _).
      * unfold bind in *. destruct (m_free h o1) as [h'| | |]; try discriminate.
        inversion E; subst. eexists. split; [reflexivity|]. repeat split; auto.
      * inversion E; subst. eexists. split; [reflexivity|]. repeat split; auto.
    + inversion E; subst. eexists. split; [reflexivity|]. repeat split; auto.
  - pose proof (same_nth t1 t2 k Hb) as N. pose proof (same_upd t1 t2 k Hb) as U.
    destruct (nth_error t1 k) as [[[p1 n1]|]|]; try discriminate.
    destruct (nth_error t2 k) as [[[p2 n2]|]|]; try easy.
    2: { destruct p1; easy. }
    destruct p1 as [|o1|a1], p2 as [|o2|a2]; try easy; cbn in N.
    + destruct (n =? 0).
      * inversion E; subst. eexists. split; [reflexivity|]. repeat split; auto. now apply same_snoc.
      * unfold bind in *. destruct (m_malloc _ _ _ (os1 _)) as [[r h']| | |] eqn:EM; try discriminate.
        destruct (m_malloc_os _ _ _ _ (os2 (length t2)) _ _ EM) as (r2 & EM2 & R). rewrite EM2.
        inversion E; subst. eexists. split; [reflexivity|]. repeat split; auto.
        apply same_snoc; [easy|now apply mrel_ptr].
    + destruct N as [<- <-]. unfold bind in *.
      destruct (m_realloc h o1 n (pol past h) (os1 _)) as [[[r h'] cp]| | |] eqn:EM; try discriminate.
      destruct (m_realloc_os _ _ _ _ _ (os2 (length t2)) _ _ _ EM) as (r2 & EM2 & R). rewrite EM2.
      destruct r, r2; try easy; inversion E; subst; clear E; eexists; (split; [reflexivity|]);
        (split; [reflexivity|split; [reflexivity|]]); apply same_snoc; auto;
        try (cbn in *; intuition congruence).
    + set (q := pol past h (request2size n)) in *. unfold bind in *.
      assert (G : forall r r2 h', mrel r r2 ->
        match r with
        | MNull => Ok (push (Hst h m1 t1 lk) h' m1 PNull n)
        | _ => Ok (Hst h' m1 (upd t1 k None ++ [Some (ptr_of r, n)]) lk)
        end = Ok s1' ->
        exists s2', match r2 with
        | MNull => Ok (push (Hst h m2 t2 lk) h' m2 PNull n)
        | _ => Ok (Hst h' m2 (upd t2 k None ++ [Some (ptr_of r2, n)]) lk)
        end = Ok s2' /\ srel s1' s2').
      { intros r r2 h' R E'. destruct r, r2; try easy; inversion E'; subst; clear E'; eexists;
          (split; [reflexivity|]); (split; [reflexivity|split; [reflexivity|]]); apply same_snoc; auto;
          try (cbn in *; intuition congruence). }
      destruct q.
      3: { eapply G; [|exact E]. destruct (MAX_REQUEST <=? n); exact Logic.I. }
      all: destruct (m_malloc _ _ _ (os1 _)) as [[r h']| | |] eqn:EM; try discriminate;
        destruct (m_malloc_os _ _ _ _ (os2 (length t2)) _ _ EM) as (r2 & EM2 & R); rewrite EM2;
        eapply G; eauto.
Qed.

Lemma hrun_same b1 b2 size pol os1 os2 ops : forall past s1 s2 s1',
  srel s1 s2 -> Forall sane ops -> Forall (base_ok b1 b2) ops ->
  hrun b1 size pol os1 past s1 ops = Ok s1' ->
  exists s2', hrun b2 size pol os2 past s2 ops = Ok s2' /\ srel s1' s2'.
Proof.
  induction ops as [|op ops IH]; intros past s1 s2 s1' R S B E; cbn [hrun] in *.
  - inversion E; subst. eauto.
  - inversion S; inversion B; subst. unfold bind in E.
    destruct (hstep b1 size pol os1 past s1 op) as [s1a| | |] eqn:E1; try discriminate.
    destruct (hstep_same b1 b2 size pol os1 os2 past s1 s2 op s1a R) as (s2a & E2 & R2); auto.
    rewrite E2. cbn [bind]. eapply IH; eauto.
Qed.
