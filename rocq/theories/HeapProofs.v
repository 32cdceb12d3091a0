(** Proofs about the symmetric heap. *)
From Verif Require Import Base BaseProofs SobjModel HeapModel HeapSpec.

Definition wfc (c : chunk) : Prop := (16 | c_sz c) /\ 32 <= c_sz c.

Fixpoint usedl (o : Z) (l : list chunk) : list (Z * Z) :=
  match l with
  | [] => []
  | c :: r => (if is_used c then [(o, c_sz c)] else []) ++ usedl (o + c_sz c) r
  end.
Definition used (h : heap) := usedl MSIZE (h_ch h).

Definition hdf (l : list chunk) (e : bool) : bool :=
  match l with [] => e | d :: _ => is_free d end.
Fixpoint nf (l : list chunk) (e : bool) : Prop :=
  match l with
  | [] => True
  | c :: r => (is_free c = true -> hdf r e = false) /\ nf r e
  end.
Definition topb (t : option Z) : bool := match t with Some _ => true | None => false end.
Definition tv (t : option Z) : Z := match t with Some t => t + TOP_FOOT | None => 0 end.
Definition topok (t : option Z) : Prop :=
  match t with Some t => (16 | t) /\ 0 < t | None => True end.

(** Once top has left, the segment record is the last chunk. *)
Definition lastfix (l : list chunk) : Prop := exists p z, l = p ++ [Ck z Fixed].

Lemma lf_app a b : lastfix b -> lastfix (a ++ b).
Proof. intros (p & z & ->). exists (a ++ p), z. now rewrite app_assoc. Qed.

Lemma lf_cons c b : lastfix b -> lastfix (c :: b).
Proof. intros (p & z & ->). exists (c :: p), z. reflexivity. Qed.

Lemma lf_inv a c b : lastfix (a ++ c :: b) -> c_tag c <> Fixed -> lastfix b.
Proof.
  intros (p & z & E) N. destruct b as [|x b _] using rev_ind.
  - apply app_inj_tail in E as [_ E]. subst c. now cbn in N.
  - change (a ++ c :: b ++ [x]) with (a ++ (c :: b) ++ [x]) in E. rewrite app_assoc in E.
    apply app_inj_tail in E as [_ E]. subst. now exists b, z.
Qed.

Record wf (T : Z) (h : heap) : Prop := {
  wf_ch : Forall wfc (h_ch h);
  wf_top : topok (h_top h);
  wf_tot : MSIZE + total (h_ch h) + tv (h_top h) - T = 0;
  wf_nf : nf (h_ch h) (topb (h_top h));
  wf_ext : h_top h = None <-> h_ext h = true;
  wf_fix : h_top h <> None -> Forall (fun c => c_tag c <> Fixed) (h_ch h);
  wf_last : h_top h = None -> lastfix (h_ch h) }.

(** ** Lists of chunks *)
Lemma total_app a b : total (a ++ b) = total a + total b.
Proof. induction a; cbn; lia. Qed.

Lemma usedl_app a : forall o b, usedl o (a ++ b) = usedl o a ++ usedl (o + total a) b.
Proof.
  induction a as [|c a IH]; intros o b; cbn.
  - f_equal. lia.
  - rewrite IH, app_assoc. do 2 f_equal. lia.
Qed.

Lemma nf_app a : forall b e, nf (a ++ b) e <-> nf a (hdf b e) /\ nf b e.
Proof.
  induction a as [|c a IH]; intros b e; cbn; [tauto|].
  rewrite IH. destruct a as [|d a]; cbn; tauto.
Qed.

Lemma total_pos l : Forall wfc l -> 0 <= total l.
Proof. induction 1 as [|c l [_ H] _ IH]; cbn; lia. Qed.

Lemma total_div l : Forall wfc l -> (16 | total l).
Proof.
  induction 1 as [|c l [H _] _ IH]; cbn; [exists 0; reflexivity|].
  now apply Z.divide_add_r.
Qed.

Lemma locate_app pre : forall o c post, Forall wfc pre ->
  locate o (pre ++ c :: post) (o + total pre) = Some (pre, c, post).
Proof.
  induction pre as [|d pre IH]; intros o c post H; cbn.
  - replace (o + 0) with o by lia. now rewrite Z.eqb_refl.
  - inversion H as [|? ? [_ Hd] Hp]; subst. pose proof (total_pos _ Hp).
    destruct (Z.eqb_spec o (o + (c_sz d + total pre))); [lia|].
    replace (o + (c_sz d + total pre)) with (o + c_sz d + total pre) by lia.
    now rewrite IH.
Qed.

Lemma locate_some l : forall o x p c q, locate o l x = Some (p, c, q) ->
  l = p ++ c :: q /\ x = o + total p.
Proof.
  induction l as [|d l IH]; intros o x p c q H; cbn in H; [discriminate|].
  destruct (Z.eqb_spec o x).
  - inversion H; subst. cbn. split; [reflexivity|lia].
  - destruct (locate (o + c_sz d) l x) as [[[p' c'] q']|] eqn:E; [|discriminate].
    inversion H; subst. destruct (IH _ _ _ _ _ E) as [-> ->]. cbn. split; [reflexivity|lia].
Qed.

Lemma split_at_some i : forall l p c q, split_at i l = Some (p, c, q) -> l = p ++ c :: q.
Proof.
  induction i as [|i IH]; intros [|d l] p c q H; cbn in H; try discriminate.
  - now inversion H.
  - destruct (split_at i l) as [[[p' c'] q']|] eqn:E; [|discriminate].
    inversion H; subst. cbn. f_equal. eauto.
Qed.

Lemma usedl_in l : forall o x s, In (x, s) (usedl o l) ->
  exists pre post, l = pre ++ Ck s Used :: post /\ x = o + total pre.
Proof.
  induction l as [|c l IH]; intros o x s H; cbn in H; [easy|].
  apply in_app_or in H as [H|H].
  - destruct c as [s' []]; cbn in H; try easy. destruct H as [H|[]]. inversion H; subst.
    exists [], l. cbn. split; [reflexivity|lia].
  - apply IH in H as (pre & post & -> & ->). exists (c :: pre), post. cbn.
    split; [reflexivity|lia].
Qed.

Lemma usedl_at pre s post o :
  usedl o (pre ++ Ck s Used :: post) =
  usedl o pre ++ (o + total pre, s) :: usedl (o + total pre + s) post.
Proof. now rewrite usedl_app. Qed.

Lemma usedl_lt l : forall o x s, Forall wfc l -> In (x, s) (usedl o l) ->
  o <= x /\ x + s <= o + total l /\ (16 | x - o) /\ (16 | s) /\ 32 <= s.
Proof.
  intros o x s W H. destruct (usedl_in _ _ _ _ H) as (pre & post & -> & ->).
  apply Forall_app in W as [W1 W2]. inversion W2 as [|? ? [D S] W3]; subst.
  rewrite total_app. cbn in *. pose proof (total_pos _ W1). pose proof (total_pos _ W3).
  repeat split; try lia; auto. replace (o + total pre - o) with (total pre) by lia.
  now apply total_div.
Qed.

(** ** Giving back *)
Lemma rev_cons_eq {A} (l : list A) a r : rev l = a :: r -> l = rev r ++ [a].
Proof. intros H. rewrite <- (rev_involutive l), H. reflexivity. Qed.

Lemma nf_last_nonfree pre e : nf pre false ->
  (forall s r, rev pre <> Ck s Free :: r) -> nf pre e.
Proof.
  destruct (rev pre) as [|c r] eqn:E.
  - intros _ _. apply (f_equal (@rev _)) in E. rewrite rev_involutive in E. now subst.
  - apply rev_cons_eq in E as ->. intros H1 H2. apply nf_app in H1 as [H1 _].
    apply nf_app. split; [exact H1|]. cbn. split; [|easy].
    intros F. destruct c as [s []]; try easy. now specialize (H2 s r).
Qed.

Record dok (pre : list chunk) (sz : Z) (post : list chunk) (top : option Z)
    (l : list chunk) (t : option Z) : Prop := {
  d_ch : Forall wfc l;
  d_top : topok t;
  d_tot : total l + tv t = total pre + sz + total post + tv top;
  d_nf : nf l (topb t);
  d_topb : topb t = topb top;
  d_fix : Forall (fun c => c_tag c <> Fixed) pre -> Forall (fun c => c_tag c <> Fixed) post ->
          Forall (fun c => c_tag c <> Fixed) l;
  d_last : lastfix post -> lastfix l;
  d_used : forall o, usedl o l = usedl o pre ++ usedl (o + total pre + sz) post }.

Lemma dispose_aux pre sz post top :
  Forall wfc pre -> Forall wfc post -> topok top -> (16 | sz) -> 32 <= sz ->
  nf pre true -> nf post (topb top) ->
  let '(l, t) := (match post with
    | [] => match top with
            | Some t => (pre, Some (t + sz))
            | None => (pre ++ [Ck sz Free], None)
            end
    | Ck s Free :: post' => (pre ++ Ck (sz + s) Free :: post', top)
    | _ => (pre ++ Ck sz Free :: post, top)
    end) in dok pre sz post top l t.
Proof.
  intros W1 W2 Ht Hd Hs N1 N2.
  destruct post as [|[s tg] post].
  - destruct top as [t|]; split; cbn [topok topb tv usedl total] in *; auto.
    + destruct Ht. split; [now apply Z.divide_add_r|lia].
    + lia.
    + intros (p & z & E). destruct p; discriminate.
    + intros o. now rewrite app_nil_r.
    + apply Forall_app. split; [easy|]. constructor; [|constructor]. now split.
    + rewrite total_app. cbn. lia.
    + apply nf_app. cbn. auto.
    + intros H _. apply Forall_app. split; [easy|]. constructor; [easy|constructor].
    + intros (p & z & E). destruct p; discriminate.
    + intros o. rewrite usedl_app. cbn. reflexivity.
  - inversion W2 as [|? ? [D2 S2] W3]; subst. cbn in D2, S2.
    destruct N2 as [N2 N3]. cbn in N2.
    destruct tg; split; auto.
    + apply Forall_app. split; [easy|]. constructor; [|easy]. split; cbn; [now apply Z.divide_add_r|lia].
    + rewrite total_app. cbn. lia.
    + apply nf_app. cbn. split; [easy|]. split; [intros _; now apply N2|easy].
    + intros F1 F2. inversion F2; subst. apply Forall_app. split; [easy|]. constructor; easy.
    + intros F. apply lf_app, lf_cons. eapply (lf_inv []); [exact F|easy].
    + intros o. rewrite usedl_app. cbn. do 2 f_equal. lia.
    + apply Forall_app. split; [easy|]. constructor; [|easy]. now split.
    + rewrite total_app. cbn. lia.
    + apply nf_app. cbn. auto.
    + intros F1 F2. apply Forall_app. split; [easy|]. constructor; easy.
    + intros F. now apply lf_app, lf_cons.
    + intros o. rewrite usedl_app. cbn. reflexivity.
    + apply Forall_app. split; [easy|]. constructor; [|easy]. now split.
    + rewrite total_app. cbn. lia.
    + apply nf_app. cbn. auto.
    + intros F1 F2. apply Forall_app. split; [easy|]. constructor; easy.
    + intros F. now apply lf_app, lf_cons.
    + intros o. rewrite usedl_app. cbn. reflexivity.
Qed.

Lemma dispose_ok pre sz post top :
  Forall wfc pre -> Forall wfc post -> topok top -> (16 | sz) -> 32 <= sz ->
  nf pre false -> nf post (topb top) ->
  let '(l, t) := dispose pre sz post top in dok pre sz post top l t.
Proof.
  intros W1 W2 Ht Hd Hs N1 N2. unfold dispose.
  destruct (rev pre) as [|[s tg] r] eqn:E.
  - apply dispose_aux; auto. apply nf_last_nonfree; [easy|]. now rewrite E.
  - destruct tg.
    2,3: apply dispose_aux; auto; apply nf_last_nonfree; [easy|]; now rewrite E.
    apply rev_cons_eq in E as ->. apply Forall_app in W1 as [W1 W1'].
    inversion W1' as [|? ? [D S] _]; subst. cbn in D, S.
    apply nf_app in N1 as [N1 _]. cbn in N1.
    assert (G := dispose_aux (rev r) (s + sz) post top W1 W2 Ht).
    specialize (G ltac:(now apply Z.divide_add_r) ltac:(lia) N1 N2).
    destruct (match post with
              | [] => _
              | _ => _ end) as [l t].
    destruct G as [G1 G2 G3 G4 G5 G6 G8 G7]. split; auto.
    + rewrite total_app. cbn. lia.
    + intros F1 F2. apply Forall_app in F1 as [F1 _]. auto.
    + intros o. rewrite G7, usedl_app. cbn. rewrite app_nil_r. f_equal.
      rewrite total_app. cbn. f_equal. lia.
Qed.

(** ** Requests *)
Lemma pad_request_ok req : 0 <= req < MAX_REQUEST ->
  (16 | pad_request req) /\ req + 8 <= pad_request req < req + 24.
Proof.
  unfold pad_request, MAX_REQUEST. intros H.
  rewrite wrap64_id by lia. split; [exists ((req + 8 + 15) / 16); lia|].
  pose proof (Z.div_mod (req + 8 + 15) 16 ltac:(lia)).
  pose proof (Z.mod_pos_bound (req + 8 + 15) 16 ltac:(lia)). lia.
Qed.

Lemma request2size_ok req : 0 <= req < MAX_REQUEST ->
  (16 | request2size req) /\ 32 <= request2size req /\ req + 8 <= request2size req /\
  request2size req <= Z.max 32 (req + 23).
Proof.
  intros H. unfold request2size, MIN_REQUEST, MIN_CHUNK.
  destruct (Z.ltb_spec req 23).
  - repeat split; try lia. now exists 2.
  - destruct (pad_request_ok req H) as [D B]. repeat split; auto; try lia.
    destruct D as [q D]. lia.
Qed.

Lemma MSIZE_eq : MSIZE = 944. Proof. reflexivity. Qed.
Lemma TOP_FOOT_eq : TOP_FOOT = 80. Proof. reflexivity. Qed.

(** What an allocation does to the used chunks. *)
Definition added (h h' : heap) (o s : Z) : Prop :=
  exists U1 U2, used h = U1 ++ U2 /\ used h' = U1 ++ (o, s) :: U2.
Definition mres_ok (h h' : heap) (bytes : Z) (r : mres) : Prop :=
  match r with
  | MHeap o s => bytes + 8 <= s /\ added h h' o s
  | _ => used h' = used h
  end.

Lemma divide_sub a b : (16 | a) -> (16 | b) -> (16 | a - b).
Proof. apply Z.divide_sub_r. Qed.

Lemma m_alloc_ok T h nb pk os r h' :
  wf T h -> (16 | nb) -> 32 <= nb -> m_alloc h nb pk os = Ok (r, h') ->
  wf T h' /\ mres_ok h h' (nb - 8) r /\ (h_ext h = true -> h_ext h' = true).
Proof.
  intros W D Hn E. destruct W as [W1 W2 W3 W4 W5 W6 W7].
  destruct pk; cbn [m_alloc] in E.
  - destruct (split_at i (h_ch h)) as [[[pre [s tg]] post]|] eqn:ES; [|discriminate].
    destruct tg; try discriminate. apply split_at_some in ES.
    destruct (Z.leb_spec nb s); [|discriminate].
    rewrite ES in *. apply Forall_app in W1 as [W1 W1']. inversion W1' as [|? ? [Ds Ss] W1'']; subst.
    cbn in Ds, Ss. apply nf_app in W4 as [N1 [N2 N3]]. cbn in N1, N2. specialize (N2 eq_refl).
    rewrite total_app in W3. cbn in W3. unfold MIN_CHUNK in E.
    assert (N1' : nf pre false).
    { clear - N1. induction pre as [|c pre IH]; [easy|]. destruct N1 as [A B]. split; [|auto].
      destruct pre; cbn in *; [easy|exact A]. }
    destruct (Z.leb_spec 32 (s - nb)); inversion E; subst; clear E; split.
    + split; cbn; auto.
      * apply Forall_app. split; [easy|]. constructor; [now split|]. constructor; [|easy].
        split; cbn; [now apply divide_sub|lia].
      * rewrite total_app. cbn. lia.
      * apply nf_app. cbn. repeat split; auto; easy.
      * intros F. specialize (W6 F). apply Forall_app in W6 as [F1 F2]. inversion F2; subst.
        apply Forall_app. split; [easy|]. constructor; [easy|]. now constructor.
      * intros F. specialize (W7 F). apply lf_inv in W7; [|easy]. now apply lf_app, lf_cons, lf_cons.
    + split; [|easy]. cbn. split; [lia|]. unfold added, used. cbn. rewrite ES.
      exists (usedl MSIZE pre), (usedl (MSIZE + total pre + s) post).
      rewrite !usedl_app. cbn. split; [reflexivity|]. do 3 f_equal. lia.
    + split; cbn; auto.
      * apply Forall_app. split; [easy|]. constructor; [now split|easy].
      * rewrite total_app. cbn. lia.
      * apply nf_app. cbn. repeat split; auto; easy.
      * intros F. specialize (W6 F). apply Forall_app in W6 as [F1 F2]. inversion F2; subst.
        apply Forall_app. split; [easy|]. now constructor.
      * intros F. specialize (W7 F). apply lf_inv in W7; [|easy]. now apply lf_app, lf_cons.
    + split; [|easy]. cbn. split; [lia|]. unfold added, used. cbn. rewrite ES.
      exists (usedl MSIZE pre), (usedl (MSIZE + total pre + s) post).
      rewrite !usedl_app. cbn. split; reflexivity.
  - destruct (h_top h) as [t|] eqn:ET; [|discriminate].
    destruct (Z.ltb_spec nb t); inversion E; subst; clear E. destruct W2 as [W2 W2'].
    split; [split; cbn; auto|split; [|easy]].
    + apply Forall_app. split; [easy|]. constructor; [now split|constructor].
    + split; [now apply divide_sub|lia].
    + rewrite total_app. cbn. unfold tv in W3. lia.
    + apply nf_app. cbn in *. repeat split; try easy.
      clear - W4. induction (h_ch h) as [|c l IH]; [easy|]. destruct W4 as [A B]. split; [|auto].
      destruct l; cbn in *; [|exact A]. easy.
    + split; [discriminate|]. intros X. apply W5 in X. discriminate.
    + intros _. apply Forall_app. split; [apply W6; discriminate|]. now constructor.
    + discriminate.
    + cbn. split; [lia|]. unfold added, used. cbn. rewrite usedl_app.
      exists (usedl MSIZE (h_ch h)), []. rewrite app_nil_r. split; reflexivity.
  - destruct (_ || _); inversion E; subst. split; [split; auto|]. split; [reflexivity|auto].
  - destruct (nofit h nb); inversion E; subst. unfold leave_top.
    destruct (h_top h) as [t|] eqn:ET.
    2: { split; [split; cbn; auto; tauto|]. split; [reflexivity|auto]. }
    destruct W2 as [W2 W2'].
    split; [split; cbn; auto|split; [|easy]].
    + apply Forall_app. split; [easy|]. unfold MIN_CHUNK. destruct (Z.leb_spec 32 t).
      * constructor; [now split|]. constructor; [|constructor]. split; cbn; rewrite TOP_FOOT_eq; [now exists 5|lia].
      * constructor; [|constructor]. split; cbn; rewrite TOP_FOOT_eq; [|lia].
        apply Z.divide_add_r; [easy|]. now exists 5.
    + rewrite total_app. cbn in W3. destruct (MIN_CHUNK <=? t); cbn; lia.
    + apply nf_app. cbn in W4. destruct (MIN_CHUNK <=? t); cbn; repeat split; auto; try easy.
      clear - W4. induction (h_ch h) as [|c l IH]; [easy|]. destruct W4 as [A B]. split; [|auto].
      destruct l; cbn in *; [|exact A]. easy.
    + tauto.
    + easy.
    + intros _. apply lf_app. destruct (MIN_CHUNK <=? t).
      * apply lf_cons. now exists [], TOP_FOOT.
      * now exists [], (t + TOP_FOOT).
    + cbn. unfold used. cbn. rewrite usedl_app. destruct (MIN_CHUNK <=? t); cbn; now rewrite app_nil_r.
  - destruct (nofit h nb); inversion E; subst. split; [split; auto|]. split; [reflexivity|auto].
Qed.

Lemma m_malloc_ok T h bytes pk os r h' :
  wf T h -> 0 <= bytes -> m_malloc h bytes pk os = Ok (r, h') ->
  wf T h' /\ mres_ok h h' bytes r /\ (r <> MNull -> bytes < MAX_REQUEST) /\
  (h_ext h = true -> h_ext h' = true).
Proof.
  intros W H E. unfold m_malloc in E. destruct (Z.leb_spec MAX_REQUEST bytes).
  - inversion E; subst. split; [easy|]. split; [reflexivity|]. split; [easy|auto].
  - destruct (request2size_ok bytes) as (D & A & B & _); [lia|].
    destruct (m_alloc_ok _ _ _ _ _ _ _ W D A E) as (W' & R & X).
    split; [easy|]. split; [|split; [intros _; easy|auto]]. destruct r; cbn in *; auto. split; [lia|tauto].
Qed.

(** ** Release *)
Definition removed (h h' : heap) (o s : Z) : Prop :=
  exists U1 U2, used h = U1 ++ (o, s) :: U2 /\ used h' = U1 ++ U2.

Lemma wf_split T h pre s post : wf T h -> h_ch h = pre ++ Ck s Used :: post ->
  Forall wfc pre /\ Forall wfc post /\ (16 | s) /\ 32 <= s /\
  nf pre false /\ nf post (topb (h_top h)).
Proof.
  intros [W1 W2 W3 W4 W5 W6 W7] E. rewrite E in *. apply Forall_app in W1 as [W1 W1'].
  inversion W1' as [|? ? [Ds Ss] W1'']; subst. apply nf_app in W4 as [N1 [_ N3]].
  cbn in *. repeat split; auto.
Qed.

Lemma m_free_ok T h o s : wf T h -> In (o - MEM_OFF, s) (used h) ->
  exists h', m_free h o = Ok h' /\ wf T h' /\ removed h h' (o - MEM_OFF) s /\
             h_ext h' = h_ext h /\ topb (h_top h') = topb (h_top h).
Proof.
  intros W H. destruct (usedl_in _ _ _ _ H) as (pre & post & El & Eo).
  destruct (wf_split _ _ _ _ _ W El) as (P1 & P2 & D & S & N1 & N2).
  unfold m_free. rewrite El, Eo, locate_app by easy.
  pose proof (dispose_ok pre s post (h_top h) P1 P2 (wf_top _ _ W) D S N1 N2) as G.
  destruct (dispose pre s post (h_top h)) as [l t]. destruct G as [G1 G2 G3 G4 G5 G6 G8 G7].
  destruct W as [W1 W2 W3 W4 W5 W6 W7]. rewrite El in *.
  eexists. split; [reflexivity|]. split; [|split; [|split; [reflexivity|exact G5]]].
  - split; cbn; auto.
    + rewrite total_app in W3. cbn in W3. lia.
    + rewrite <- W5. destruct t, (h_top h); cbn in G5; split; congruence.
    + intros F. assert (F' : h_top h <> None). { destruct t, (h_top h); cbn in G5; congruence. }
      specialize (W6 F'). apply Forall_app in W6 as [F1 F2]. inversion F2; subst. auto.
    + intros ->. apply G8. eapply lf_inv; [apply W7|easy]. destruct (h_top h); [discriminate|reflexivity].
  - unfold removed, used. cbn. rewrite El, G7, usedl_at. eauto.
Qed.

(** ** Alignment *)
Lemma pow2_land_mod k x : 0 <= k -> Z.land x (2 ^ k - 1) = x mod 2 ^ k.
Proof. intros H. rewrite <- Z.land_ones by easy. now rewrite Z.ones_equiv. Qed.

Lemma pow2_align_up k x : 0 <= k -> align_up x (2 ^ k) = 2 ^ k * ((x + 2 ^ k - 1) / 2 ^ k).
Proof.
  intros H. unfold align_up.
  replace (- 2 ^ k) with (Z.lnot (Z.ones k)) by (rewrite Z.ones_equiv; unfold Z.lnot; lia).
  rewrite <- Z.ldiff_land, Z.ldiff_ones_r by easy.
  rewrite Z.shiftr_div_pow2, Z.shiftl_mul_pow2 by easy. lia.
Qed.

Lemma land_pred_pow2 a : 0 < a -> Z.land a (a - 1) = 0 -> exists k, 0 <= k /\ a = 2 ^ k.
Proof.
  intros H E. exists (Z.log2 a). split; [apply Z.log2_nonneg|].
  destruct (Z.log2_spec a H) as [L1 L2].
  destruct (Z.eq_dec a (2 ^ Z.log2 a)) as [|N]; [easy|]. exfalso.
  assert (B1 : Z.testbit a (Z.log2 a) = true) by now apply Z.bit_log2.
  assert (L : Z.log2 (a - 1) = Z.log2 a).
  { apply Z.log2_unique; [apply Z.log2_nonneg|]. lia. }
  assert (P : 0 < 2 ^ Z.log2 a) by (apply Z.pow_pos_nonneg; [lia|apply Z.log2_nonneg]).
  assert (B2 : Z.testbit (a - 1) (Z.log2 a) = true) by (rewrite <- L; apply Z.bit_log2; lia).
  assert (B : Z.testbit (Z.land a (a - 1)) (Z.log2 a) = true) by now rewrite Z.land_spec, B1, B2.
  rewrite E, Z.bits_0 in B. discriminate.
Qed.

Lemma round_align_pow2 f : forall k al a, 0 <= k -> 2 ^ k < 2 ^ 64 -> round_align f (2 ^ k) al = Ok a ->
  (exists j, k <= j < 64 /\ a = 2 ^ j) \/ a = 0 /\ al <= 0.
Proof.
  induction f as [|f IH]; intros k al a Hk HB E; cbn [round_align] in E; [discriminate|].
  assert (K : k < 64) by (apply (Z.pow_lt_mono_r_iff 2); lia).
  destruct (Z.ltb_spec (2 ^ k) al).
  - replace (2 * 2 ^ k) with (2 ^ (k + 1)) in E by (rewrite Z.pow_add_r by lia; lia).
    destruct (Z.eq_dec k 63) as [->|].
    + change (wrap64 (2 ^ (63 + 1))) with 0 in E. right.
      assert (G : forall f, round_align f 0 al = Ok a -> a = 0 /\ al <= 0).
      { clear. induction f as [|f IH]; cbn [round_align]; [discriminate|].
        destruct (Z.ltb_spec 0 al); [change (wrap64 (2 * 0)) with 0; auto|].
        intros E; inversion E; subst. auto. }
      eauto.
    + rewrite wrap64_id in E.
      * destruct (IH (k + 1) al a) as [(j & J1 & J2)|G]; auto; try lia.
        -- apply Z.pow_lt_mono_r; lia.
        -- left. exists j. split; [lia|easy].
      * split; [apply Z.pow_nonneg; lia|]. apply Z.pow_lt_mono_r; lia.
  - inversion E; subst. left. exists k. split; [lia|reflexivity].
Qed.

Lemma memalign_alignment_ok al a : 16 < al < 2 ^ 64 -> memalign_alignment al = Ok a ->
  exists k, 5 <= k < 64 /\ a = 2 ^ k.
Proof.
  intros H E. unfold memalign_alignment, MIN_CHUNK in E.
  set (x := if al <? 32 then 32 else al) in *.
  assert (X : 32 <= x < 2 ^ 64) by (unfold x; destruct (Z.ltb_spec al 32); lia).
  destruct (Z.eqb_spec (Z.land x (x - 1)) 0) as [L|L].
  - assert (EX : x = a) by now inversion E. rewrite EX in X, L. clear EX E.
    destruct (land_pred_pow2 a ltac:(lia) L) as (k & K1 & K2).
    exists k. split; [|easy]. rewrite K2 in X. change 32 with (2 ^ 5) in X.
    destruct X as [X1 X2]. apply Z.pow_le_mono_r_iff in X1; [|lia|easy].
    apply Z.pow_lt_mono_r_iff in X2; lia.
  - change 32 with (2 ^ 5) in E. apply round_align_pow2 in E; [|lia|reflexivity].
    destruct E as [(j & J & ->)|[_ G]]; [|lia]. exists j. split; [lia|reflexivity].
Qed.

Lemma memalign_alignment_pow2 k : 5 <= k < 64 -> memalign_alignment (2 ^ k) = Ok (2 ^ k).
Proof.
  intros H. unfold memalign_alignment, MIN_CHUNK.
  assert (32 <= 2 ^ k) by (change 32 with (2 ^ 5); apply Z.pow_le_mono_r; lia).
  destruct (Z.ltb_spec (2 ^ k) 32); [lia|].
  rewrite pow2_land_mod by lia. rewrite Z.mod_same by lia. reflexivity.
Qed.

Definition replaced (h h' : heap) (o s o' s' : Z) : Prop :=
  exists U1 U2, used h = U1 ++ (o, s) :: U2 /\ used h' = U1 ++ (o', s') :: U2.

(** Place of the aligned chunk. *)
Definition lead_pos (b o a : Z) : Z :=
  let br := align_up (b + o + MEM_OFF) a - MEM_OFF - b in
  if MIN_CHUNK <=? br - o then br else br + a.

Lemma lead_pos_ok b o k : (16 | b) -> (16 | o) -> 5 <= k ->
  (b + o + MEM_OFF) mod 2 ^ k <> 0 ->
  let p := lead_pos b o (2 ^ k) in
  32 <= p - o <= 2 ^ k + 16 /\ (16 | p - o) /\ (b + p + MEM_OFF) mod 2 ^ k = 0.
Proof.
  intros Db Do Hk Hm. unfold lead_pos, MEM_OFF, MIN_CHUNK in *.
  rewrite pow2_align_up by lia.
  set (A := 2 ^ k) in *. assert (HA : 32 <= A) by (change 32 with (2 ^ 5); apply Z.pow_le_mono_r; lia).
  assert (DA : (16 | A)).
  { exists (2 ^ (k - 4)). unfold A. change 16 with (2 ^ 4). rewrite <- Z.pow_add_r by lia. f_equal. lia. }
  set (x := b + o + 16) in *.
  pose proof (Z.div_mod x A ltac:(lia)) as E1. pose proof (Z.mod_pos_bound x A ltac:(lia)) as B1.
  assert (Q : (x + A - 1) / A = x / A + 1).
  { symmetry. apply Z.div_unique with (x mod A - 1); lia. }
  rewrite Q.
  assert (Dr : (16 | A * (x / A + 1))) by now apply Z.divide_mul_l.
  assert (Dx : (16 | x)). { unfold x. apply Z.divide_add_r; [now apply Z.divide_add_r|now exists 1]. }
  set (br := A * (x / A + 1) - 16 - b) in *.
  assert (G : br - o = A - x mod A) by (unfold br, x in *; lia).
  assert (DG : (16 | br - o)).
  { replace (br - o) with (A * (x / A + 1) - x) by (unfold br, x; lia). now apply divide_sub. }
  destruct DG as [q Q1]. destruct DA as [qa Q2].
  destruct (Z.leb_spec 32 (br - o)); cbv zeta.
  - split; [lia|]. split; [now exists q|].
    replace (b + br + 16) with ((x / A + 1) * A) by (unfold br; lia). now apply Z.mod_mul; lia.
  - split; [lia|]. split; [exists (q + qa); lia|].
    replace (b + (br + A) + 16) with ((x / A + 2) * A) by (unfold br; lia). apply Z.mod_mul; lia.
Qed.

Lemma lead_chunk_ok T b h o s k : wf T h -> In (o, s) (used h) -> (16 | b) -> 5 <= k ->
  2 ^ k + 48 <= s ->
  exists o2 h2, lead_chunk b h o (2 ^ k) = Ok (o2, h2) /\ wf T h2 /\
    0 <= o2 - o <= 2 ^ k + 16 /\ (b + o2 + MEM_OFF) mod 2 ^ k = 0 /\
    replaced h h2 o s o2 (s - (o2 - o)) /\ h_ext h2 = h_ext h.
Proof.
  intros W H Db Hk Hs. assert (0 < 2 ^ k) by (apply Z.pow_pos_nonneg; lia).
  destruct (usedl_in _ _ _ _ H) as (pre & post & El & Eo).
  destruct (usedl_lt _ _ _ _ (wf_ch _ _ W) H) as (_ & _ & Dd & _ & _).
  assert (Do : (16 | o)).
  { replace o with (o - MSIZE + MSIZE) by lia. apply Z.divide_add_r; [easy|]. now exists 59. }
  unfold lead_chunk. rewrite pow2_land_mod by lia.
  destruct (Z.eqb_spec ((b + o + MEM_OFF) mod 2 ^ k) 0) as [M|M].
  - exists o, h. repeat split; auto; try apply W; try lia.
    exists (usedl MSIZE pre), (usedl (MSIZE + total pre + s) post).
    unfold used. rewrite El, usedl_at, <- Eo. replace (s - (o - o)) with s by lia. auto.
  - pose proof (lead_pos_ok b o k Db Do Hk M) as L. unfold lead_pos in L. cbv zeta in L.
    set (pos := if MIN_CHUNK <=? align_up (b + o + MEM_OFF) (2 ^ k) - MEM_OFF - b - o
                then align_up (b + o + MEM_OFF) (2 ^ k) - MEM_OFF - b
                else align_up (b + o + MEM_OFF) (2 ^ k) - MEM_OFF - b + 2 ^ k) in *.
    destruct L as (L1 & L2 & L3).
    destruct (wf_split _ _ _ _ _ W El) as (P1 & P2 & D & S & N1 & N2).
    rewrite El, Eo, locate_app by easy. rewrite <- Eo.
    pose proof (dispose_ok pre (pos - o) (Ck (s - (pos - o)) Used :: post) (h_top h) P1) as G.
    assert (Dx : (16 | s - (pos - o))) by now apply divide_sub.
    specialize (G ltac:(constructor; [split; cbn; [easy|lia]|easy]) (wf_top _ _ W) L2 ltac:(lia) N1).
    specialize (G ltac:(cbn; split; [easy|exact N2])).
    destruct (dispose pre (pos - o) _ _) as [l t]. destruct G as [G1 G2 G3 G4 G5 G6 G8 G7].
    destruct W as [W1 W2 W3 W4 W5 W6 W7]. rewrite El in *.
    exists pos. eexists. split; [reflexivity|]. split; [|split; [lia|split; [easy|split; [|reflexivity]]]].
    + split; cbn; auto.
      * rewrite total_app in W3. cbn in W3, G3. lia.
      * rewrite <- W5. destruct t, (h_top h); cbn in G5; split; congruence.
      * intros F. assert (F' : h_top h <> None). { destruct t, (h_top h); cbn in G5; congruence. }
        specialize (W6 F'). apply Forall_app in W6 as [F1 F2]. inversion F2; subst.
        apply G6; [easy|]. now constructor.
      * intros ->. apply G8, lf_cons. eapply lf_inv; [apply W7|easy].
        destruct (h_top h); [discriminate|reflexivity].
    + exists (usedl MSIZE pre), (usedl (MSIZE + total pre + s) post).
      unfold used. rewrite El, usedl_at, <- Eo. cbn [h_ch]. rewrite G7. split; [easy|]. cbn.
      rewrite <- Eo. replace (o + (pos - o)) with pos by lia.
      replace (pos + (s - (pos - o))) with (o + s) by lia. reflexivity.
Qed.

Lemma trim_chunk_ok T h o s nb : wf T h -> In (o, s) (used h) -> (16 | nb) -> 32 <= nb -> nb <= s ->
  exists s' h', trim_chunk h o nb = Ok (s', h') /\ wf T h' /\ nb <= s' /\
    replaced h h' o s o s' /\ h_ext h' = h_ext h.
Proof.
  intros W H Dn Hn Hs.
  destruct (usedl_in _ _ _ _ H) as (pre & post & El & Eo).
  destruct (wf_split _ _ _ _ _ W El) as (P1 & P2 & D & S & N1 & N2).
  unfold trim_chunk. rewrite El, Eo, locate_app by easy. rewrite <- Eo. unfold MIN_CHUNK.
  destruct (Z.ltb_spec (nb + 32) s).
  - pose proof (dispose_ok (pre ++ [Ck nb Used]) (s - nb) post (h_top h)) as G.
    specialize (G ltac:(apply Forall_app; split; [easy|]; constructor; [now split|constructor]) P2
      (wf_top _ _ W) ltac:(now apply divide_sub) ltac:(lia)
      ltac:(apply nf_app; cbn; repeat split; auto; easy) N2).
    destruct (dispose _ _ _ _) as [l t]. destruct G as [G1 G2 G3 G4 G5 G6 G8 G7].
    destruct W as [W1 W2 W3 W4 W5 W6 W7]. rewrite El in *.
    exists nb. eexists. split; [reflexivity|]. split; [|split; [lia|split; [|reflexivity]]].
    + split; cbn; auto.
      * rewrite total_app in W3, G3. cbn in W3, G3. lia.
      * rewrite <- W5. destruct t, (h_top h); cbn in G5; split; congruence.
      * intros F. assert (F' : h_top h <> None). { destruct t, (h_top h); cbn in G5; congruence. }
        specialize (W6 F'). apply Forall_app in W6 as [F1 F2]. inversion F2; subst.
        apply G6; [|easy]. apply Forall_app. split; [easy|]. now constructor.
      * intros ->. apply G8. eapply lf_inv; [apply W7|easy].
        destruct (h_top h); [discriminate|reflexivity].
    + exists (usedl MSIZE pre), (usedl (MSIZE + total pre + s) post).
      unfold used. rewrite El, usedl_at, <- Eo. cbn [h_ch]. rewrite G7. split; [easy|].
      rewrite usedl_app. cbn. rewrite total_app. cbn. rewrite <- app_assoc. cbn.
      rewrite <- Eo. do 3 f_equal. lia.
  - exists s, h. repeat split; auto; try apply W.
    exists (usedl MSIZE pre), (usedl (MSIZE + total pre + s) post).
    unfold used. rewrite El, usedl_at, <- Eo. auto.
Qed.

Lemma app_mid_inj {A} (P : A -> Prop) (U1 U2 V1 V2 : list A) x :
  NoDup (U1 ++ x :: U2) -> U1 ++ x :: U2 = V1 ++ x :: V2 -> U1 = V1 /\ U2 = V2.
Proof.
  revert V1. induction U1 as [|a U1 IH]; intros [|c V1] N E; cbn in *.
  - now inversion E.
  - inversion E; subst. inversion N; subst. exfalso. apply H1. apply in_or_app. right. now left.
  - inversion E; subst. inversion N; subst. exfalso. apply H1. apply in_or_app. right. now left.
  - inversion E; subst. inversion N; subst. destruct (IH V1 H3 H1) as [-> ->]. auto.
Qed.

Lemma usedl_nodup l : forall o, Forall wfc l -> NoDup (map fst (usedl o l)).
Proof.
  induction l as [|c l IH]; intros o W; cbn; [constructor|].
  inversion W as [|? ? [Hd Hs] W']; subst. rewrite map_app.
  destruct (is_used c); cbn; auto. constructor; [|auto].
  intros I. apply in_map_iff in I as ((x & s) & E & I). cbn in E. subst x.
  destruct (usedl_lt _ _ _ _ W' I) as [B _]. lia.
Qed.

Lemma used_nodup T h : wf T h -> NoDup (used h).
Proof.
  intros W. apply (NoDup_map_inv fst). apply usedl_nodup. apply W.
Qed.

Lemma used_key T h o s s' : wf T h -> In (o, s) (used h) -> In (o, s') (used h) -> s = s'.
Proof.
  intros W H1 H2. pose proof (usedl_nodup _ MSIZE (wf_ch _ _ W)) as N. fold (used h) in N.
  induction (used h) as [|[x y] l IH]; [easy|]. cbn in N. inversion N as [|? ? N1 N2]; subst.
  destruct H1 as [H1|H1], H2 as [H2|H2]; auto; try (inversion H1; subst); try (inversion H2; subst); auto.
  - exfalso. apply N1. now apply (in_map fst) in H2.
  - exfalso. apply N1. now apply (in_map fst) in H1.
Qed.

Lemma added_replaced T h h1 h2 o s o' s' : wf T h1 ->
  added h h1 o s -> replaced h1 h2 o s o' s' -> added h h2 o' s'.
Proof.
  intros W (U1 & U2 & E1 & E2) (V1 & V2 & F1 & F2).
  pose proof (used_nodup _ _ W) as N. rewrite E2 in F1, N.
  destruct (app_mid_inj (fun _ => True) _ _ _ _ _ N F1) as [<- <-].
  exists U1, U2. auto.
Qed.

Lemma added_in h h' o s : added h h' o s -> In (o, s) (used h').
Proof. intros (U1 & U2 & _ & ->). apply in_or_app. right. now left. Qed.
Lemma replaced_in h h' o s o' s' : replaced h h' o s o' s' -> In (o', s') (used h').
Proof. intros (U1 & U2 & _ & ->). apply in_or_app. right. now left. Qed.

Lemma m_memalign_ok T b h al bytes pk os r h' :
  wf T h -> (16 | b) -> 0 <= al < 2 ^ 64 -> 0 <= bytes < 2 ^ 64 ->
  m_memalign b h al bytes pk os = Ok (r, h') ->
  wf T h' /\ mres_ok h h' bytes r /\
  (forall o s, r = MHeap o s -> is_pow2 al -> (b + o + MEM_OFF) mod al = 0) /\
  (h_ext h = true -> h_ext h' = true).
Proof.
  intros W Db Ha Hb E. unfold m_memalign in E. destruct (Z.leb_spec al 16) as [L|L].
  - destruct (m_malloc_ok _ _ _ _ _ _ _ W (proj1 Hb) E) as (W' & R & _ & X).
    split; [easy|]. split; [easy|]. split; [|easy]. intros o s -> (k & K & ->).
    destruct R as [_ R]. apply added_in in R.
    destruct (usedl_lt _ _ _ _ (wf_ch _ _ W') R) as (_ & _ & Dd & _ & _).
    assert (K4 : k <= 4). { change 16 with (2 ^ 4) in L. apply Z.pow_le_mono_r_iff in L; lia. }
    apply Z.mod_divide; [apply Z.pow_nonzero; lia|].
    apply Z.divide_trans with 16.
    { exists (2 ^ (4 - k)). rewrite <- Z.pow_add_r by lia. replace (4 - k + k) with 4 by lia. reflexivity. }
    replace (b + o + MEM_OFF) with (b + ((o - MSIZE) + (MSIZE + MEM_OFF))) by lia.
    apply Z.divide_add_r; [easy|]. apply Z.divide_add_r; [easy|]. now exists 60.
  - destruct (memalign_alignment al) as [a| | |] eqn:EA; cbn [bind] in E; try discriminate.
    pose proof EA as EA0. apply memalign_alignment_ok in EA as (k & K & ->); [|lia].
    assert (A32 : 32 <= 2 ^ k) by (change 32 with (2 ^ 5); apply Z.pow_le_mono_r; lia).
    assert (A63 : 2 ^ k <= 2 ^ 63) by (apply Z.pow_le_mono_r; lia).
    assert (M63 : 2 ^ 63 + 2 ^ 63 = 2 ^ 64) by reflexivity.
    rewrite (wrap64_id (MAX_REQUEST - 2 ^ k)) in E by (unfold MAX_REQUEST; lia).
    destruct (Z.leb_spec (MAX_REQUEST - 2 ^ k) bytes) as [B|B].
    { inversion E; subst. split; [easy|]. split; [reflexivity|]. split; [easy|auto]. }
    assert (HB : 0 <= bytes < MAX_REQUEST) by lia.
    destruct (request2size_ok bytes HB) as (D1 & D2 & D3 & D4).
    set (nb := request2size bytes) in *. unfold MIN_CHUNK, OVERHEAD in E.
    assert (WR : wrap64 (nb + 2 ^ k + 32 - 8) = nb + 2 ^ k + 24).
    { rewrite wrap64_id; [lia|]. unfold MAX_REQUEST in B. lia. }
    rewrite WR in E. unfold bind in E at 1.
    destruct (m_malloc h (nb + 2 ^ k + 24) pk os) as [[r1 h1]| | |] eqn:EM; try discriminate.
    destruct (m_malloc_ok T h (nb + 2 ^ k + 24) pk os r1 h1 W ltac:(lia) EM) as (W1 & R1 & _ & X1).
    destruct r1 as [o s|a|].
    + destruct R1 as [S1 R1].
      destruct (lead_chunk_ok T b h1 o s k W1 (added_in _ _ _ _ R1) Db ltac:(lia) ltac:(lia))
        as (o2 & h2 & E2 & W2 & B2 & M2 & R2 & X2).
      rewrite E2 in E. cbn [bind] in E.
      destruct (trim_chunk_ok T h2 o2 (s - (o2 - o)) nb W2 (replaced_in _ _ _ _ _ _ R2) D1 D2 ltac:(lia))
        as (s3 & h3 & E3 & W3 & B3 & R3 & X3).
      rewrite E3 in E. cbn [bind] in E. inversion E; subst. clear E.
      split; [easy|]. split; [|split; [|intros Hx; rewrite X3, X2; auto]].
      * cbn. split; [lia|]. eapply added_replaced; [exact W2| |exact R3].
        eapply added_replaced; [exact W1|exact R1|exact R2].
      * intros o' s' E' (j & J & ->). inversion E'; subst.
        destruct (Z.lt_ge_cases j 5) as [J5|J5].
        { exfalso. assert (2 ^ j <= 2 ^ 4) by (apply Z.pow_le_mono_r; lia). change (2 ^ 4) with 16 in *. lia. }
        rewrite memalign_alignment_pow2 in EA0.
        2: { split; [easy|]. apply (Z.pow_lt_mono_r_iff 2); lia. }
        assert (EQ : 2 ^ j = 2 ^ k) by now inversion EA0. now rewrite EQ.
    + inversion E; subst. split; [easy|]. split; [exact R1|]. split; [easy|auto].
    + inversion E; subst. split; [easy|]. split; [exact R1|]. split; [easy|auto].
Qed.
