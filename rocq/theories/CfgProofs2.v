(** Proofs about --enable-fast and the printed configuration. *)
From Verif Require Import Base AmCfgModel EnvModel EnvSpec CfgModel CfgSpec CfgProofs.
From Coq Require Import String Ascii.
Open Scope string_scope.
Open Scope list_scope.

Definition nocomma (w : string) : Prop := ~ In ","%char (list_ascii_of_string w).
Lemma append_assoc : forall a b c,
  String.append (String.append a b) c = String.append a (String.append b c).
Proof. induction a; intros; simpl; [auto|rewrite IHa; auto]. Qed.
Lemma append_nil : forall a, String.append a "" = a.
Proof. induction a; simpl; [auto|rewrite IHa; auto]. Qed.
Lemma nocomma_app : forall a b, nocomma a -> nocomma b -> nocomma (String.append a b).
Proof.
  induction a as [|c a IH]; intros b A B; simpl; auto.
  intros [E|I]; [apply A; left; auto|]. apply (IH b); auto. intro J. apply A. right. exact J.
Qed.
Lemma fields_word : forall w acc rest, nocomma w ->
  fields acc (String.append w rest) = fields (String.append acc w) rest.
Proof.
  induction w as [|c w IH]; intros acc rest N; simpl.
  - rewrite append_nil. reflexivity.
  - destruct (Ascii.eqb c ","%char) eqn:E.
    + apply Ascii.eqb_eq in E. exfalso. apply N. left. auto.
    + rewrite IH; [|intro I; apply N; right; exact I]. rewrite append_assoc. reflexivity.
Qed.
Lemma fields_end : forall w, w <> "" -> fields w "" = [w].
Proof. intros w N. simpl. destruct w; [congruence|reflexivity]. Qed.
Lemma fields_one : forall w, word w -> fields "" w = [w].
Proof.
  intros w [N C]. rewrite <- (append_nil w) at 1. rewrite fields_word; auto. apply fields_end. exact N.
Qed.
Lemma fields_cons : forall w r, nocomma w ->
  fields "" (String.append w (String "," r)) = w :: fields "" r.
Proof. intros w r N. rewrite fields_word; auto. Qed.
Lemma fields_concat : forall ws, Forall word ws -> fields "" (String.concat "," ws) = ws.
Proof.
  induction ws as [|w ws IH]; intro F; [reflexivity|].
  inversion F as [|x y W F']. subst. destruct ws as [|w' ws].
  - apply fields_one. exact W.
  - change (String.concat "," (w :: w' :: ws))
      with (String.append w (String "," (String.concat "," (w' :: ws)))).
    rewrite fields_cons; [|apply W]. rewrite IH; auto.
Qed.
Lemma fields_nocomma : forall s acc, nocomma acc -> Forall nocomma (fields acc s).
Proof.
  induction s as [|c s IH]; intros acc N; simpl.
  - destruct acc; auto.
  - destruct (Ascii.eqb c ","%char) eqn:E.
    + constructor; auto. apply IH. intros [].
    + apply IH. apply nocomma_app; auto. intros [I|[]]. subst c. discriminate E.
Qed.

Lemma lw_snoc : forall P ws w x, last_with P (ws ++ [w]) x <->
  (P w /\ x = w) \/ (~ P w /\ last_with P ws x).
Proof.
  intros P ws w x. split.
  - intros [a [b [E [Px Nb]]]]. destruct b as [|y b'] using rev_ind.
    + apply app_inj_tail in E. destruct E as [_ E]. subst. left. auto.
    + rewrite app_comm_cons, app_assoc in E. apply app_inj_tail in E. destruct E as [E E2]. subst.
      right. split; [apply Nb; apply in_or_app; right; left; auto|].
      exists a, b'. split; auto. split; auto. intros z Z. apply Nb. apply in_or_app. left. exact Z.
  - intros [[Pw E]|[Nw [a [b [E [Px Nb]]]]]].
    + subst. exists ws, []. split; auto.
    + subst. exists a, (b ++ [w]). rewrite <- app_assoc. split; [reflexivity|]. split; auto.
      intros z Z. apply in_app_or in Z. destruct Z as [Z|[Z|[]]]; [auto|subst; auto].
Qed.
Lemma no_snoc : forall P ws w, no_one P (ws ++ [w]) <-> no_one P ws /\ ~ P w.
Proof.
  intros P ws w. unfold no_one. split.
  - intro H. split; [intros x I; apply H; apply in_or_app; auto|apply H; apply in_or_app; right; left; auto].
  - intros [H N] x I. apply in_app_or in I. destruct I as [I|[I|[]]]; [auto|subst; auto].
Qed.
Lemma prefix_o : forall w, String.prefix "O" w = true <-> o_word w.
Proof.
  intro w. unfold o_word. destruct w as [|c r]; cbn -[ascii_dec].
  - split; [discriminate|intros [x X]; discriminate].
  - destruct (ascii_dec "O" c) as [E|E].
    + subst. split; intros; [eauto|]. destruct r; reflexivity.
    + split; [discriminate|intros [x X]; inversion X; congruence].
Qed.

(** The effect of one more word, by what the word is. *)
Lemma snoc_o_keep : forall ws w v, ~ sets_o w ->
  ((no_one sets_o ws /\ v = "O2") \/ exists x, last_with sets_o ws x /\ o_text x v) ->
  ((no_one sets_o (ws ++ [w]) /\ v = "O2") \/ exists x, last_with sets_o (ws ++ [w]) x /\ o_text x v).
Proof.
  intros ws w v N [[A B]|[x [A B]]].
  - left. split; auto. apply no_snoc. auto.
  - right. exists x. split; auto. apply lw_snoc. auto.
Qed.
Lemma snoc_o_set : forall ws w v, sets_o w -> o_text w v ->
  ((no_one sets_o (ws ++ [w]) /\ v = "O2") \/ exists x, last_with sets_o (ws ++ [w]) x /\ o_text x v).
Proof. intros ws w v S T. right. exists w. split; auto. apply lw_snoc. auto. Qed.
Lemma snoc_n_keep : forall ws w b, ~ sets_n w ->
  (b = true <-> exists x, last_with sets_n ws x /\ ~ In x ["none"; "no"]) ->
  (b = true <-> exists x, last_with sets_n (ws ++ [w]) x /\ ~ In x ["none"; "no"]).
Proof.
  intros ws w b N H. rewrite H. split; intros [x [A B]]; exists x; split; auto.
  - apply lw_snoc. auto.
  - apply lw_snoc in A. destruct A as [[A _]|[_ A]]; [contradiction|exact A].
Qed.
Lemma snoc_n_on : forall ws w, sets_n w -> ~ In w ["none"; "no"] ->
  (true = true <-> exists x, last_with sets_n (ws ++ [w]) x /\ ~ In x ["none"; "no"]).
Proof. intros ws w S N. split; auto. intros _. exists w. split; auto. apply lw_snoc. auto. Qed.
Lemma snoc_n_off : forall ws w, In w ["none"; "no"] ->
  (false = true <-> exists x, last_with sets_n (ws ++ [w]) x /\ ~ In x ["none"; "no"]).
Proof.
  intros ws w I. split; [discriminate|]. intros [x [A B]]. apply lw_snoc in A.
  assert (S : sets_n w) by (unfold sets_n; simpl in *; tauto).
  destruct A as [[_ A]|[A _]]; [subst; contradiction|contradiction].
Qed.
Lemma snoc_i_keep : forall ws w b, ~ In w ["ipo"; "all"] ->
  (b = true <-> exists x, In x ws /\ In x ["ipo"; "all"]) ->
  (b = true <-> exists x, In x (ws ++ [w]) /\ In x ["ipo"; "all"]).
Proof.
  intros ws w b N H. rewrite H. split; intros [x [A B]]; exists x; split; auto.
  - apply in_or_app. auto.
  - apply in_app_or in A. destruct A as [A|[A|[]]]; auto. subst. contradiction.
Qed.
Lemma snoc_i_on : forall ws w, In w ["ipo"; "all"] ->
  (true = true <-> exists x, In x (ws ++ [w]) /\ In x ["ipo"; "all"]).
Proof. intros ws w I. split; auto. intros _. exists w. split; auto. apply in_or_app. right. left. auto. Qed.

Ltac nin := let X := fresh in intro X; simpl in X;
  repeat (destruct X as [X|X]; [first [discriminate X | subst; discriminate | congruence]|]); destruct X.
Lemma not_o : forall w, String.prefix "O" w = false -> ~ o_word w.
Proof. intros w E O. apply prefix_o in O. congruence. Qed.
Lemma nso : forall w, String.prefix "O" w = false -> ~ In w ["most"; "yes"; "all"; "none"; "no"] ->
  ~ sets_o w.
Proof. intros w E N [O|I]; [apply (not_o w E O)|contradiction]. Qed.

Lemma fast_words : forall ws, fast_flags ws (fold_left fast_step ws fast0).
Proof.
  induction ws as [|w ws IH] using rev_ind.
  - unfold fast_flags. simpl. split; [left; split; [intros x []|reflexivity]|]. split.
    + split; [discriminate|]. intros [x [[a [b [E _]]] _]]. destruct a; discriminate.
    + split; [discriminate|]. intros [x [[] _]].
  - rewrite fold_left_app. cbn [fold_left]. set (f := fold_left fast_step ws fast0) in *.
    destruct IH as (I1 & I2 & I3). unfold fast_step.
    destruct (String.prefix "O" w) eqn:P.
    { assert (O : o_word w) by (apply prefix_o; exact P).
      assert (NO : forall l, In w l -> (forall x, In x l -> String.prefix "O" x = false) -> False).
      { intros l I F. apply F in I. congruence. }
      split; [|split]; cbn [f_opts f_ndebug f_ipo].
      - apply snoc_o_set; [left; exact O|left; split; auto].
      - apply snoc_n_keep; auto. intro I. apply (NO _ I).
        intros x X. simpl in X. repeat (destruct X as [X|X]; [subst x; reflexivity|]). destruct X.
      - apply snoc_i_keep; auto. intro I. apply (NO _ I).
        intros x X. simpl in X. repeat (destruct X as [X|X]; [subst x; reflexivity|]). destruct X. }
    destruct (w =? "ndebug") eqn:E1.
    { apply String.eqb_eq in E1. subst w. split; [|split]; cbn [f_opts f_ndebug f_ipo].
      - apply snoc_o_keep; auto. apply nso; [reflexivity|nin].
      - apply snoc_n_on; [left; auto|nin].
      - apply snoc_i_keep; auto. nin. }
    destruct (w =? "ipo") eqn:E2.
    { apply String.eqb_eq in E2. subst w. split; [|split]; cbn [f_opts f_ndebug f_ipo].
      - apply snoc_o_keep; auto. apply nso; [reflexivity|nin].
      - apply snoc_n_keep; auto. nin.
      - apply snoc_i_on. left. auto. }
    destruct ((w =? "most") || (w =? "yes")) eqn:E3.
    { apply orb_true_iff in E3. rewrite !String.eqb_eq in E3.
      split; [|split]; cbn [f_opts f_ndebug f_ipo].
      - apply snoc_o_set; destruct E3 as [E3|E3]; subst w;
          first [right; simpl; auto 10; fail | right; left; simpl; auto 10].
      - apply snoc_n_on; destruct E3 as [E3|E3]; subst w; first [nin | unfold sets_n; simpl; auto 10].
      - apply snoc_i_keep; auto. destruct E3 as [E3|E3]; subst w; nin. }
    destruct (w =? "all") eqn:E4.
    { apply String.eqb_eq in E4. subst w. split; [|split]; cbn [f_opts f_ndebug f_ipo].
      - apply snoc_o_set; [right; simpl; auto 10|right; left; simpl; auto 10].
      - apply snoc_n_on; [unfold sets_n; simpl; auto 10|nin].
      - apply snoc_i_on. right. left. auto. }
    destruct ((w =? "none") || (w =? "no")) eqn:E5.
    { apply orb_true_iff in E5. rewrite !String.eqb_eq in E5.
      assert (I : In w ["none"; "no"]) by (simpl; destruct E5; auto).
      split; [|split]; cbn [f_opts f_ndebug f_ipo].
      - apply snoc_o_set; [right; simpl in *; tauto|right; right; split; auto].
      - apply snoc_n_off. exact I.
      - apply snoc_i_keep; auto. destruct E5 as [E5|E5]; subst w; nin. }
    apply String.eqb_neq in E1. apply String.eqb_neq in E2. apply String.eqb_neq in E4.
    apply orb_false_iff in E3. apply orb_false_iff in E5. rewrite !String.eqb_neq in E3, E5.
    destruct E3, E5.
    split; [|split].
    + apply snoc_o_keep; auto. apply nso; auto. nin.
    + apply snoc_n_keep; auto. nin.
    + apply snoc_i_keep; auto. nin.
Qed.
Lemma configure_fast : forall h o ms ws, configure h o = Some ms -> Forall word ws ->
  asked "O2" (o_fast o) = String.concat "," ws ->
  fast_flags ws {| f_opts := value "OSHMPI_FAST_OPTS" ms; f_ndebug := nodebug_of ms;
                   f_ipo := def "OSHMPI_ENABLE_IPO" ms |} /\
  def "-ipo" ms = def "OSHMPI_ENABLE_IPO" ms /\
  def "OSHMPI_DISABLE_ERROR_CHECKING" ms = nodebug_of ms.
Proof.
  intros h o ms ws H F E. pose proof (configure_answers _ _ _ H) as A.
  unfold nodebug_of. rewrite (an_val _ _ A), (an_nd _ _ A), (an_ipo _ _ A), (an_ipo2 _ _ A), (an_ne _ _ A).
  split; [|auto].
  assert (V : fast_of (v_fast o) = fold_left fast_step ws fast0).
  { unfold fast_of, v_fast. change (given "O2" (o_fast o)) with (asked "O2" (o_fast o)).
    rewrite E, fields_concat; auto. }
  rewrite V. pose proof (fast_words ws) as W. destruct (fold_left fast_step ws fast0). exact W.
Qed.

(** The printed texts. *)
Lemma configure_printed : forall h o ms, configure h o = Some ms ->
  print_threads ms = asked "multiple" (o_threads o) /\
  print_amo ms = asked "auto" (o_amo o) /\ print_rma ms = asked "auto" (o_rma o) /\
  print_async ms = asked "no" (o_async o) /\ print_win ms = asked "win_creates" (o_win o) /\
  (print_track ms = "yes" <-> asked "yes" (o_track o) = "yes") /\
  (print_cache ms = "yes" <-> asked "yes" (o_cache o) = "yes") /\
  (print_cuda ms = "yes" <-> asked "no" (o_cuda o) = "yes").
Proof.
  intros h o ms H. pose proof (configure_answers _ _ _ H) as A.
  assert (X : accepted o) by (apply (configure_accepts h); eauto).
  destruct X as (B1 & B2 & B3 & B4 & B5 & _ & _).
  unfold print_threads, print_amo, print_rma, print_async, print_win, print_track, print_cache, print_cuda, yes_no.
  rewrite (an_s _ _ A), (an_f _ _ A), (an_z _ _ A), (an_da _ _ A), (an_aa _ _ A), (an_dr _ _ A),
    (an_ar _ _ A), (an_ya _ _ A), (an_na _ _ A), (an_w _ _ A), (an_t _ _ A), (an_c _ _ A), (an_cu _ _ A).
  unfold v_threads. change given with asked.
  assert (Y : forall v, (if v =? "yes" then "yes" else "no") = "yes" <-> v = "yes").
  { intro v. destruct (v =? "yes") eqn:E; [apply String.eqb_eq in E|apply String.eqb_neq in E];
      split; auto; try discriminate; contradiction. }
  split; [destruct B1 as [a B1]; simpl in B1; repeat (destruct B1 as [B1|B1]; [inversion B1; reflexivity|]); destruct B1|].
  split; [destruct B2 as [a B2]; simpl in B2; repeat (destruct B2 as [B2|B2]; [inversion B2; reflexivity|]); destruct B2|].
  split; [destruct B3 as [a B3]; simpl in B3; repeat (destruct B3 as [B3|B3]; [inversion B3; reflexivity|]); destruct B3|].
  split; [destruct B4 as [a B4]; simpl in B4; repeat (destruct B4 as [B4|B4]; [inversion B4; reflexivity|]); destruct B4|].
  split; [destruct B5 as [a B5]; simpl in B5; repeat (destruct B5 as [B5|B5]; [inversion B5; reflexivity|]); destruct B5|].
  split; [apply Y|]. split; apply Y.
Qed.

(** Configuring again from the printed texts. *)
Lemma fast_opts_form : forall v, f_opts (fast_of v) = "" \/
  (o_word (f_opts (fast_of v)) /\ nocomma (f_opts (fast_of v))).
Proof.
  intro v. unfold fast_of. pose proof (fields_nocomma v "" (fun x => x)) as N.
  revert N. generalize (fields "" v) as l.
  assert (G : forall l f, Forall nocomma l -> (f_opts f = "" \/ (o_word (f_opts f) /\ nocomma (f_opts f))) ->
    f_opts (fold_left fast_step l f) = "" \/
    (o_word (f_opts (fold_left fast_step l f)) /\ nocomma (f_opts (fold_left fast_step l f)))).
  { induction l as [|w l IH]; intros f F Q; [exact Q|]. inversion F as [|x y W F']. subst.
    cbn [fold_left]. apply IH; auto. unfold fast_step.
    assert (K : o_word "O2" /\ nocomma "O2").
    { split; [exists "2"; reflexivity|]. intros [I|[I|[]]]; discriminate I. }
    destruct (String.prefix "O" w) eqn:P; [right; split; [apply prefix_o; exact P|exact W]|].
    repeat match goal with |- context [if ?c then _ else _] => destruct c end; auto. }
  intros l N. apply G; auto. right. split; [exists "2"; reflexivity|]. intros [I|[I|[]]]; discriminate I.
Qed.
Lemma fast_again : forall o ms, answers o ms ->
  (f_opts (fast_of (v_fast o)) <> "" \/
   (f_ndebug (fast_of (v_fast o)) = false /\ f_ipo (fast_of (v_fast o)) = false)) ->
  fast_of (print_fast ms) = fast_of (v_fast o).
Proof.
  intros o ms A C. unfold print_fast.
  rewrite (an_opts _ _ A), (an_val _ _ A), (an_nd _ _ A), (an_ipo _ _ A).
  pose proof (fast_opts_form (v_fast o)) as F. revert C F.
  destruct (fast_of (v_fast o)) as [w n i]. cbn [f_opts f_ndebug f_ipo]. intros C F.
  destruct (w =? "") eqn:E.
  - apply String.eqb_eq in E. subst w. destruct C as [C|[C1 C2]]; [congruence|]. subst. reflexivity.
  - apply String.eqb_neq in E. destruct F as [F|[[r O] N]]; [contradiction|].
    assert (G : forall t, fast_of (String.append (String.append w ",") t) =
      fold_left fast_step (fields "" t) {| f_opts := w; f_ndebug := false; f_ipo := false |}).
    { intro t. unfold fast_of. rewrite append_assoc. change (String.append "," t) with (String "," t).
      rewrite fields_cons; auto. cbn [fold_left]. unfold fast_step at 2.
      assert (P : String.prefix "O" w = true) by (apply prefix_o; exists r; exact O).
      rewrite P. reflexivity. }
    cbn [negb andb]. rewrite G. destruct n, i; reflexivity.
Qed.
Lemma track_again : forall v w, (w = "yes" <-> v = "yes") -> track_sec w = track_sec v.
Proof.
  intros v w H. unfold track_sec. destruct (w =? "yes") eqn:A, (v =? "yes") eqn:B; auto;
    rewrite ?String.eqb_eq, ?String.eqb_neq in *; tauto.
Qed.
Lemma cache_again : forall v w, (w = "yes" <-> v = "yes") -> cache_sec w = cache_sec v.
Proof.
  intros v w H. unfold cache_sec. destruct (w =? "yes") eqn:A, (v =? "yes") eqn:B; auto;
    rewrite ?String.eqb_eq, ?String.eqb_neq in *; tauto.
Qed.
Lemma cuda_again : forall h v w, (w = "yes" <-> v = "yes") -> cuda_sec h w = cuda_sec h v.
Proof.
  intros h v w H. unfold cuda_sec. destruct (w =? "yes") eqn:A, (v =? "yes") eqn:B; auto;
    rewrite ?String.eqb_eq, ?String.eqb_neq in *; tauto.
Qed.
Lemma configure_again : forall h o ms, configure h o = Some ms ->
  (def "OSHMPI_FAST_OPTS" ms = true \/
   (nodebug_of ms = false /\ def "OSHMPI_ENABLE_IPO" ms = false)) ->
  (asked "no" (o_g o) = "yes" -> asked "O2" (o_fast o) = "no") ->
  configure h (printed o ms) = Some ms.
Proof.
  intros h o ms H C G. rewrite <- H. pose proof (configure_answers _ _ _ H) as A.
  destruct (configure_printed _ _ _ H) as (P1 & P2 & P3 & P4 & P5 & P6 & P7 & P8).
  assert (F : fast_of (print_fast ms) = fast_of (v_fast o)).
  { apply fast_again; auto. unfold nodebug_of in C.
    rewrite (an_opts _ _ A), (an_nd _ _ A), (an_ipo _ _ A) in C.
    destruct C as [C|C]; [left|right; exact C].
    intro E. rewrite E in C. discriminate C. }
  assert (Fs : fast_sec (print_fast ms) = fast_sec (v_fast o)).
  { unfold fast_sec. rewrite F. reflexivity. }
  assert (Gs : g_sec (print_fast ms) (given "no" (o_g o)) = g_sec (v_fast o) (given "no" (o_g o))).
  { unfold g_sec. change (given "no" (o_g o)) with (asked "no" (o_g o)).
    destruct (asked "no" (o_g o) =? "yes") eqn:Y.
    - apply String.eqb_eq in Y. apply G in Y.
      change (v_fast o) with (asked "O2" (o_fast o)). rewrite Y.
      assert (Q : print_fast ms = "no").
      { unfold print_fast. rewrite (an_opts _ _ A), (an_nd _ _ A), (an_ipo _ _ A).
        change (v_fast o) with (asked "O2" (o_fast o)). rewrite Y. reflexivity. }
      rewrite Q. reflexivity.
    - destruct (print_fast ms =? "no"), (v_fast o =? "no"); reflexivity. }
  unfold configure, printed, v_fast, v_threads. cbn [o_fast o_g o_threads o_amo o_rma o_track o_cache
    o_async o_pkg o_win o_cuda o_ze given].
  rewrite P1, P2, P3, P4, P5. change asked with given in *. 
  change (given "O2" (o_fast o)) with (v_fast o).
  rewrite Fs, Gs, (track_again _ _ P6), (cache_again _ _ P7), (cuda_again h _ _ P8).
  reflexivity.
Qed.
