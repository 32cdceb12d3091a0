(** Proofs about waiting, information and the life cycle. *)
From Coq Require Import String.
From Verif Require Import Base BaseProofs ListLib EnvModel P2pModel P2pSpec.
Open Scope Z_scope.
Open Scope list_scope.

Lemma comp_valid checks a c b r : cmp_valid c ->
  exists ret, comp checks a c b r = Ok ret /\
    (ret = 1 /\ cmp_holds c a b \/ ret = 0 /\ ~ cmp_holds c a b).
Proof.
  unfold cmp_valid. intros H.
  assert (K : c = 0x100001 \/ c = 0x100002 \/ c = 0x100003 \/ c = 0x100004 \/ c = 0x100005 \/
              c = 0x100006) by lia.
  destruct K as [-> | [-> | [-> | [-> | [-> | ->]]]]]; unfold comp; cbn [Z.eqb CMP_EQ];
    (eexists; split; [reflexivity|]);
    match goal with |- context [if ?x then 1 else 0] => destruct x eqn:E end;
    [left|right|left|right|left|right|left|right|left|right|left|right]; split; auto;
    try (constructor; lia); intros F; inversion F; lia.
Qed.
Lemma comp_invalid checks a c b r : ~ cmp_valid c -> comp checks a c b r = Ok r.
Proof.
  unfold cmp_valid, comp, CMP_EQ, CMP_NE, CMP_GT, CMP_GE, CMP_LT, CMP_LE. intros H.
  repeat match goal with |- context [c =? ?x] => assert (c =? x = false) as -> by lia end.
  assert ((c <? 1048577) || (1048582 <? c) = true) as -> by lia. reflexivity.
Qed.

Lemma wait_first checks async arr cmp v : cmp_valid cmp -> forall fuel i s,
  (exists n, (n < fuel)%nat /\ cmp_holds cmp (p_mem (state_at async arr s i n)) v /\
     (forall k, (k < n)%nat -> ~ cmp_holds cmp (p_mem (state_at async arr s i k)) v) /\
     wait_loop fuel checks async arr i s cmp v =
       Ok (p_mem (state_at async arr s i n), (i + n)%nat, state_at async arr s i n)) \/
  ((forall n, (n < fuel)%nat -> ~ cmp_holds cmp (p_mem (state_at async arr s i n)) v) /\
   wait_loop fuel checks async arr i s cmp v = NoFuel).
Proof.
  intros Hv. induction fuel as [|fuel IH]; intros i s.
  { right. split; auto. intros n Hn. lia. }
  cbn [wait_loop]. set (s1 := fold_left pev (arr i) s).
  destruct (comp_valid checks (p_mem s1) cmp v 0 Hv) as (ret & -> & [(-> & Hc) | (-> & Hc)]);
    cbn [bind].
  - left. exists 0%nat. cbn. fold s1. split; [lia|]. split; auto. split; [intros; lia|].
    now rewrite Nat.add_0_r.
  - change (negb (0 =? 0)) with false. cbn [negb].
    destruct (IH (S i) (cb_progress async s1)) as [(n & Hn & Hh & Hk & E) | (Hn & E)].
    + left. exists (S n). split; [lia|]. cbn [state_at]. fold s1. split; auto. split.
      * intros [|k] Hk'; cbn [state_at]; fold s1; auto. apply Hk. lia.
      * rewrite E. do 3 f_equal. lia.
    + right. split; auto. intros [|n] Hn'; cbn [state_at]; fold s1; auto. apply Hn. lia.
Qed.
Lemma wait_sound fuel checks async sym arr s cmp v x n s' : cmp_valid cmp ->
  wait_until fuel checks async sym arr s cmp v = Ok (x, n, s') ->
  s' = state_at async arr s 0 n /\ x = p_mem s' /\ cmp_holds cmp x v /\
  forall k, (k < n)%nat -> ~ cmp_holds cmp (p_mem (state_at async arr s 0 k)) v.
Proof.
  intros Hv E. unfold wait_until, resolve in E. destruct sym; [|destruct checks; discriminate].
  cbn in E. destruct (wait_first checks async arr cmp v Hv fuel 0 s)
    as [(m & Hm & Hh & Hk & E') | (_ & E')]; rewrite E' in E; [|discriminate].
  inversion E; subst. cbn. auto.
Qed.
Lemma wait_returns fuel checks async arr s cmp v n : cmp_valid cmp ->
  cmp_holds cmp (p_mem (state_at async arr s 0 n)) v -> (n < fuel)%nat ->
  exists x k s', wait_until fuel checks async true arr s cmp v = Ok (x, k, s') /\ (k <= n)%nat.
Proof.
  intros Hv Hh Hf. unfold wait_until, resolve. cbn.
  destruct (wait_first checks async arr cmp v Hv fuel 0 s)
    as [(m & Hm & _ & Hk & ->) | (Hn & _)].
  - do 3 eexists. split; [reflexivity|]. destruct (le_lt_dec m n); [lia|]. exfalso. eapply Hk; eauto.
  - exfalso. eapply Hn; eauto.
Qed.

Lemma state_at_split async arr n : forall s i m,
  state_at async arr s i (n + S m) =
  state_at async arr (cb_progress async (state_at async arr s i n)) (S (i + n)) m.
Proof.
  induction n as [|n IH]; intros s i m; cbn [state_at plus].
  - now rewrite Nat.add_0_r.
  - rewrite IH. now replace (S i + n)%nat with (i + S n)%nat by lia.
Qed.
Lemma state_quiet arr i : (forall j, (i <= j)%nat -> arr j = []) -> forall q m,
  state_at false arr {| p_mem := m; p_queue := q |} i (length q) =
  {| p_mem := fold_left (fun m f => f m) q m; p_queue := [] |}.
Proof.
  intros H q. revert i H. induction q as [|f q IH]; intros i H m; cbn [length state_at fold_left].
  - rewrite H by lia. reflexivity.
  - rewrite H by lia. cbn. apply IH. intros j Hj. apply H. lia.
Qed.
Lemma wait_live fuel checks arr s cmp v N : cmp_valid cmp ->
  (forall j, (N < j)%nat -> arr j = []) ->
  cmp_holds cmp (drained (state_at false arr s 0 N)) v ->
  (N + length (p_queue (state_at false arr s 0 N)) < fuel)%nat ->
  exists x k s', wait_until fuel checks false true arr s cmp v = Ok (x, k, s') /\
    (k <= N + length (p_queue (state_at false arr s 0 N)))%nat.
Proof.
  intros Hv Ha Hh Hf. apply wait_returns; auto.
  set (S0 := state_at false arr s 0 N) in *. destruct S0 as [m q] eqn:ES. cbn [p_queue] in *.
  destruct q as [|f q].
  - cbn [length]. rewrite Nat.add_0_r. fold S0. rewrite ES. exact Hh.
  - cbn [length]. rewrite state_at_split. fold S0. rewrite ES. cbn.
    rewrite state_quiet; [exact Hh|]. intros j Hj. apply Ha. lia.
Qed.

Lemma test_spec checks async s cmp v : cmp_valid cmp ->
  (test checks async true s cmp v = Ok (1, s) /\ cmp_holds cmp (p_mem s) v) \/
  (test checks async true s cmp v = Ok (0, cb_progress async s) /\ ~ cmp_holds cmp (p_mem s) v).
Proof.
  intros Hv. unfold test, resolve. cbn.
  destruct (comp_valid checks (p_mem s) cmp v 0 Hv) as (ret & -> & [(-> & Hc) | (-> & Hc)]); cbn;
    auto.
Qed.
Lemma test_loop_eq checks async arr cmp v : cmp_valid cmp -> forall fuel i s,
  test_loop fuel checks async true arr i s cmp v =
  do (x, n, s) <- wait_loop fuel checks async arr i s cmp v; Ok (n, s).
Proof.
  intros Hv. induction fuel as [|fuel IH]; intros i s; auto. cbn [test_loop wait_loop].
  set (s1 := fold_left pev (arr i) s). unfold test, resolve. cbn.
  destruct (comp_valid checks (p_mem s1) cmp v 0 Hv) as (ret & -> & [(-> & Hc) | (-> & Hc)]);
    cbn; auto.
Qed.
Lemma test_live fuel checks arr s cmp v N : cmp_valid cmp ->
  (forall j, (N < j)%nat -> arr j = []) ->
  cmp_holds cmp (drained (state_at false arr s 0 N)) v ->
  (N + length (p_queue (state_at false arr s 0 N)) < fuel)%nat ->
  exists k s', test_loop fuel checks false true arr 0 s cmp v = Ok (k, s') /\
    cmp_holds cmp (p_mem s') v.
Proof.
  intros Hv Ha Hh Hf. destruct (wait_live fuel checks arr s cmp v N Hv Ha Hh Hf) as (x & k & s' & E & _).
  destruct (wait_sound _ _ _ _ _ _ _ _ _ _ _ Hv E) as (_ & -> & Hc & _).
  rewrite test_loop_eq by auto. unfold wait_until, resolve in E. cbn in E. rewrite E. cbn. eauto.
Qed.
Lemma wait_invalid checks async arr cmp v : ~ cmp_valid cmp -> forall fuel i s,
  wait_loop fuel checks async arr i s cmp v = NoFuel.
Proof.
  intros Hv. induction fuel as [|fuel IH]; intros i s; auto. cbn [wait_loop].
  rewrite comp_invalid by auto. cbn. apply IH.
Qed.

(** ** Information *)
Lemma upd_app_last {A} (l r : list A) x y : upd (l ++ x :: r) (length l) y = l ++ y :: r.
Proof. induction l; cbn; auto. now rewrite IHl. Qed.
Lemma info_name vendor name : ~ In 0 vendor -> (MAX_NAME_LEN <= length name)%nat ->
  exists b, info_get_name vendor name = Ok b /\ length b = length name /\
    c_string b (firstn (MAX_NAME_LEN - 1) vendor) /\
    skipn MAX_NAME_LEN b = skipn MAX_NAME_LEN name.
Proof.
  intros Hv Hn. unfold info_get_name, strncpy.
  remember MAX_NAME_LEN as N. assert (HN : (0 < N)%nat) by (subst; unfold MAX_NAME_LEN; lia).
  clear HeqN. assert ((N <=? length name)%nat = true) as -> by (apply Nat.leb_le; lia).
  cbn [bind]. set (b := firstn N vendor ++ repeat 0 (N - length vendor) ++ skipn N name).
  assert (LF : length (firstn N vendor ++ repeat 0 (N - length vendor)) = N).
  { rewrite app_length, firstn_length, repeat_length. lia. }
  assert (LB : length b = length name).
  { unfold b. rewrite app_assoc, app_length, LF, skipn_length. lia. }
  assert ((N - 1 <? length b)%nat = true) as -> by (apply Nat.ltb_lt; lia).
  exists (upd b (N - 1) 0). split; auto. split; [now rewrite upd_length|].
  assert (HP : exists p x, firstn N vendor ++ repeat 0 (N - length vendor) = p ++ [x] /\
                 length p = (N - 1)%nat).
  { set (l := firstn N vendor ++ repeat 0 (N - length vendor)) in *.
    destruct (@exists_last _ l) as (p & x & E).
    - intros E. rewrite E in LF. cbn in LF. lia.
    - exists p, x. split; auto. rewrite E in LF. rewrite app_length in LF. cbn in LF. lia. }
  destruct HP as (p & x & Ep & Lp).
  assert (EU : upd b (N - 1) 0 = p ++ 0 :: skipn N name).
  { unfold b. rewrite app_assoc, Ep, <- app_assoc. cbn [app]. rewrite <- Lp. apply upd_app_last. }
  rewrite EU. split.
  - split.
    + assert (Hp : p = firstn (N - 1) (firstn N vendor ++ repeat 0 (N - length vendor))).
      { rewrite Ep. rewrite firstn_app, Lp, Nat.sub_diag. cbn. rewrite app_nil_r.
        rewrite <- Lp. now rewrite firstn_all. }
      destruct (le_lt_dec N (length vendor)) as [Hl|Hl].
      * exists (skipn N name). f_equal. rewrite Hp.
        replace (N - length vendor)%nat with 0%nat by lia. cbn. rewrite app_nil_r, firstn_firstn.
        f_equal. lia.
      * rewrite (firstn_all2 (n := N - 1) vendor) by lia.
        rewrite (firstn_all2 (n := N) vendor) in Hp by lia.
        rewrite firstn_app in Hp. rewrite (firstn_all2 (n := N - 1) vendor) in Hp by lia.
        rewrite Hp, <- app_assoc.
        replace (N - length vendor)%nat with (S (N - 1 - length vendor)) by lia.
        set (k := (N - 1 - length vendor)%nat). cbn [repeat].
        destruct k as [|k]; cbn [firstn app].
        -- eexists. reflexivity.
        -- eexists. reflexivity.
    + intros F. apply Hv. rewrite <- (firstn_skipn (N - 1) vendor). apply in_or_app. auto.
  - replace N with (length (p ++ [0])) at 1 by (rewrite app_length; cbn; lia).
    change (p ++ 0 :: skipn N name) with (p ++ [0] ++ skipn N name). rewrite app_assoc.
    now rewrite skipn_app, skipn_all, Nat.sub_diag.
Qed.

(** ** Life cycle *)
Lemma inits_run cs : Forall is_init cs -> forall s, l_init s = true -> lrun s cs = Ok s.
Proof.
  induction 1 as [|c cs Hc F IH]; intros s Hs; cbn; auto.
  assert (lstep s c = Ok s) as ->.
  { destruct Hc as [-> | ->]; cbn; unfold initialize, start_pes; now rewrite Hs. }
  cbn. auto.
Qed.
Lemma finals_run k : forall s, l_init s = false -> lrun s (repeat LFinalize k) = Ok s.
Proof.
  induction k as [|k IH]; intros s Hs; cbn; auto. unfold finalize. rewrite Hs. cbn. auto.
Qed.
Lemma lrun_app a b s : lrun s (a ++ b) = do s <- lrun s a; lrun s b.
Proof.
  revert s. induction a as [|c a IH]; intros s; cbn; auto. destruct (lstep s c); cbn; auto.
Qed.
Lemma life_cycle c cs k : is_init c -> Forall is_init cs ->
  exists s, process (c :: cs ++ repeat LFinalize k) = Ok s /\ l_ninit s = 1%nat /\
    l_nfinal s = (if (0 <? k)%nat then 1%nat else match c with LStartPes => 1%nat | _ => 0%nat end) /\
    (l_init s = true <-> k = 0%nat /\ c = LInit).
Proof.
  intros Hc Hcs. unfold process. cbn [lrun].
  assert (E : exists s, lstep life0 c = Ok s /\ l_init s = true /\ l_mpi s = MUp /\
            l_ninit s = 1%nat /\ l_nfinal s = 0%nat /\
            match c with LStartPes => l_start s = true /\ l_atexit s = 1%nat
                       | _ => l_start s = false /\ l_atexit s = 0%nat end).
  { destruct Hc as [-> | ->]; eexists; (split; [reflexivity|]); cbn; auto 10. }
  destruct E as (s & -> & Hi & Hm & Hn & Hf & Hx). cbn [bind].
  rewrite lrun_app, inits_run by auto. cbn [bind].
  destruct k as [|k].
  - cbn [repeat lrun bind Nat.ltb Nat.leb].
    destruct Hc as [-> | ->]; destruct Hx as (Hst & ->).
    + exists s. cbn. split; auto. split; auto. split; auto. intuition.
    + cbn [run_atexit]. unfold implicit_finalize. rewrite Hst, Hi. cbn [andb].
      unfold finalize_impl. rewrite Hm. unfold mpi_finalize, set_init. cbn. rewrite Hm. cbn.
      eexists. split; [reflexivity|]. cbn. rewrite Hf. intuition congruence.
  - cbn [repeat lrun lstep]. unfold finalize. rewrite Hi. unfold finalize_impl. rewrite Hm.
    unfold mpi_finalize, set_init. cbn [l_mpi]. rewrite Hm. cbn [bind l_init l_start l_atexit l_ninit l_nfinal].
    rewrite finals_run by reflexivity. cbn [bind l_atexit].
    set (s2 := {| l_init := false; l_start := _; l_atexit := _; l_mpi := MDown; l_ninit := _;
                  l_nfinal := _ |}).
    assert (R : forall n, run_atexit n s2 = Ok s2).
    { induction n as [|n IH]; cbn; auto. unfold implicit_finalize. cbn. now rewrite andb_false_r. }
    rewrite R. exists s2. split; auto. cbn. rewrite Hn, Hf. intuition; discriminate.
Qed.
