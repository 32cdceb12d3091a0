(** Proofs about atomics mapped on MPI. *)
From Verif Require Import Base AmModel AmSpec AmProofs AmProofs2 AmProofs3 AmoModel AmoSpec AmoProofs DirModel DirSpec.
From Verif Require EnvModel.

(** ** One operation *)
Definition agree (x y : outcome (bytes * list Z)) : Prop :=
  match x, y with
  | Ok (m1, r1), Ok (m2, r2) => (forall b, m1 b = m2 b) /\ r1 = r2
  | UB, UB => True
  | _, _ => False
  end.

Lemma same_as_am fadd feq c a x m : In c (api_types x) ->
  agree (mpi_exec c a (dir_call c x) m) (exec_pkt fadd feq (rq_args (api_req c a x)) None m).
Proof.
  intros HT.
  assert (HFP : api_types x <> ext_types -> ct_fp c = false).
  { intros NE. destruct x; simpl in *; try contradiction; repeat (destruct HT as [<-|HT]; [reflexivity|]); destruct HT. }
  destruct x; cbn -[Z.pow val repr ld st]; unfold op_type; cbn -[Z.pow val repr ld st];
    try rewrite HFP by discriminate; cbn -[Z.pow val repr ld st];
    repeat match goal with
    | |- context [if ?b then UB else _] => destruct b; cbn -[Z.pow val repr ld st]
    end; try exact I; try (split; reflexivity);
    try (rewrite ?(Z.land_comm (val c (repr c v))), ?(Z.lor_comm (val c (repr c v))), ?(Z.lxor_comm (val c (repr c v))); split; reflexivity).
  all: destruct (ct_fp c); cbn -[Z.pow val repr ld st]; split; try reflexivity; intros b; symmetry; apply st_ld.
Qed.

Lemma step_ok_ext c a x m m1 m2 rep : (forall b, m1 b = m2 b) -> amo_step_ok c a x m m2 rep -> amo_step_ok c a x m m1 rep.
Proof.
  intros E (H1 & H2 & H3 & H4).
  assert (EL : forall w b, ld m1 b w = ld m2 b w).
  { induction w as [|w IH]; intros b; simpl; [reflexivity|]. rewrite E, IH. reflexivity. }
  unfold amo_step_ok, var in *. rewrite EL. split; [exact H1|]. split; [exact H2|]. split; [intros b Hb; rewrite E; auto|exact H4].
Qed.
Lemma exec_dir c a x m : byte_mem m -> In c (api_types x) -> amo_args_ok c x ->
  match mpi_exec c a (dir_call c x) m with
  | Ok (m', rep) => amo_step_ok c a x m m' rep /\ byte_mem m'
  | UB => ~ in_type c (amo_new c x (var c m a))
  | _ => False
  end.
Proof.
  intros HM HT HA. pose proof (exec_api (fun _ a _ => a) (fun _ _ _ => false) c a x m HM HT HA) as H.
  pose proof (same_as_am (fun _ a _ => a) (fun _ _ _ => false) c a x m HT) as E.
  destruct (mpi_exec c a (dir_call c x) m) as [[m1 r1]| | |]; destruct (exec_pkt _ _ _ _ _) as [[m2 r2]| | |]; simpl in E; try contradiction; auto.
  destruct E as [E ->]. destruct H as [H1 H2]. split; [eapply step_ok_ext; eauto|]. intros b. rewrite E. apply H2.
Qed.
Lemma fetches_waits c x : waits_result (dir_call c x) = amo_fetches x.
Proof. destruct x; reflexivity. Qed.

(** ** Runs *)
Lemma take_id_ok id l u x v : take_id id l = Some (u, x, v) -> l = u ++ (id, x) :: v.
Proof.
  revert u. induction l as [|[j y] l IH]; intros u E; simpl in E; [discriminate|].
  destruct (Z.eqb_spec j id) as [->|]; [injection E as <- <- <-; reflexivity|].
  destruct (take_id id l) as [[[u' y'] v']|]; [|discriminate]. injection E as <- <- <-. rewrite (IH u' eq_refl). reflexivity.
Qed.
Lemma fupd_eq {X} (f : Z -> X) k x : fupd f k x k = x.
Proof. unfold fupd. rewrite Z.eqb_refl. reflexivity. Qed.
Lemma fupd_ne {X} (f : Z -> X) k x j : j <> k -> fupd f k x j = f j.
Proof. intros H. unfold fupd. destruct (Z.eqb_spec j k); [contradiction|reflexivity]. Qed.
Lemma dset_cases f p i x q j : (q = p /\ j = i /\ dset f p i x q j = x) \/ ((q <> p \/ j <> i) /\ dset f p i x q j = f q j).
Proof.
  unfold dset. destruct (Z.eqb_spec q p) as [->|]; simpl; [|right; auto].
  destruct (Z.eqb_spec j i) as [->|]; [left|right]; auto.
Qed.

Record DI (m0 : Z -> bytes) (evs : list dev) (s : dst) : Prop := {
  di_zero : 0 <= d_next s;
  di_next : forall id x, In (DStart id x) evs -> 0 <= id < d_next s;
  di_one : forall id x y, In (DStart id x) evs -> In (DStart id y) evs -> x = y;
  di_pend : forall id x, In (id, x) (d_pend s) -> In (DStart id x) evs /\ d_res s id = None;
  di_pnd : NoDup (map fst (d_pend s));
  di_log : forall t id x v, In (id, x, v) (d_log s t) -> d_tgt x = t /\ In (DStart id x) evs /\ d_res s id = Some v;
  di_lnd : forall t, NoDup (map (fun e => fst (fst e)) (d_log s t));
  di_where : forall id x, In (DStart id x) evs -> In (id, x) (d_pend s) \/ exists v, In (id, x, v) (d_log s (d_tgt x));
  di_thr : forall p i id x, d_th s p i = DIn id x -> In (DStart id x) evs /\ d_org x = p /\ d_thr x = i;
  di_ret : forall id x v, In (DRet id x v) evs -> In (DStart id x) evs /\
     match v with Some r => amo_fetches (d_api x) = true /\ In (id, x, r) (d_log s (d_tgt x)) | None => amo_fetches (d_api x) = false end;
  di_res : forall id v, d_res s id = Some v -> exists x, In (id, x, v) (d_log s (d_tgt x));
  di_mem : forall t, byte_mem (d_mem s t) /\ ops_seq (m0 t) (map of_dop (d_log s t)) (d_mem s t)
}.

Lemma ops_seq_app m l1 l2 m' m'' : ops_seq m l1 m' -> ops_seq m' l2 m'' -> ops_seq m (l1 ++ l2) m''.
Proof.
  revert m. induction l1 as [|[[[c a] x] rep] l1 IH]; intros m H1 H2; simpl in *; [subst; exact H2|].
  destruct H1 as (m1 & H & H1). exists m1. split; [exact H|]. apply IH; assumption.
Qed.
Lemma NoDup_mid {X} (u v : list X) y : NoDup (u ++ y :: v) -> NoDup (u ++ v) /\ ~ In y (u ++ v).
Proof. intros H. split; [exact (NoDup_remove_1 _ _ _ H)|exact (NoDup_remove_2 _ _ _ H)]. Qed.
Lemma NoDup_snoc' {X} (l : list X) x : NoDup l -> ~ In x l -> NoDup (l ++ [x]).
Proof.
  intros H N. induction H as [|y l Hy H IH]; simpl; [constructor; [intros []|constructor]|].
  constructor; [|apply IH; intros F; apply N; right; exact F]. intros F. apply in_app_or in F. destruct F as [F|[F|[]]]; [contradiction|].
  apply N. left. auto.
Qed.

Lemma DI_init m0 : (forall t, byte_mem (m0 t)) -> DI m0 [] (d_init m0).
Proof.
  intros H. constructor; simpl; intros; try contradiction; try discriminate; try constructor; auto; try lia.
Qed.

Lemma DI_idle m0 evs s p i ev : DI m0 evs s ->
  (forall id x, ~ In (DStart id x) ev) ->
  (forall id x v, In (DRet id x v) ev -> In (DStart id x) evs /\
     match v with Some r => amo_fetches (d_api x) = true /\ In (id, x, r) (d_log s (d_tgt x)) | None => amo_fetches (d_api x) = false end) ->
  forall th, (forall id x, th <> DIn id x) ->
  DI m0 (evs ++ ev) (mkDst (d_mem s) (d_pend s) (d_next s) (d_res s) (dset (d_th s) p i th) (d_log s)).
Proof.
  intros [A0 A1 A2 A3 A4 A5 A6 A7 A8 A9 A11 A10] N R th HT.
  assert (HS : forall id x, In (DStart id x) (evs ++ ev) -> In (DStart id x) evs).
  { intros id x F. apply in_app_or in F. destruct F as [F|F]; [exact F|destruct (N _ _ F)]. }
  assert (HS' : forall id x, In (DStart id x) evs -> In (DStart id x) (evs ++ ev)) by (intros; apply in_or_app; left; assumption).
  constructor; simpl.
  - exact A0.
  - intros id x F. eauto.
  - intros id x y F1 F2. eauto.
  - intros id x F. destruct (A3 id x F). auto.
  - exact A4.
  - intros t id x v F. destruct (A5 t id x v F) as (F1 & F2 & F3). auto.
  - exact A6.
  - intros id x F. auto.
  - intros q j id x F. destruct (dset_cases (d_th s) p i th q j) as [(-> & -> & E)|[_ E]]; rewrite E in F; [destruct (HT _ _ F)|].
    destruct (A8 _ _ _ _ F) as (F1 & F2). auto.
  - intros id x v F. apply in_app_or in F. destruct F as [F|F]; [destruct (A9 _ _ _ F)|destruct (R _ _ _ F)]; auto.
  - exact A11.
  - exact A10.
Qed.

Lemma dstep_DI m0 evs s l s' ev : (forall x, l = DCall x -> In (d_ty x) (api_types (d_api x)) /\ amo_args_ok (d_ty x) (d_api x)) ->
  (forall id x, In (DStart id x) evs -> In (d_ty x) (api_types (d_api x)) /\ amo_args_ok (d_ty x) (d_api x)) ->
  dstep s l = Ok (s', ev) -> DI m0 evs s -> DI m0 (evs ++ ev) s'.
Proof.
  intros HC HS0 E H. destruct l as [x|id|p i|p i]; simpl in E.
  - destruct (d_th s (d_org x) (d_thr x)) eqn:ET; injection E as <- <-; try (rewrite app_nil_r; exact H).
    destruct H as [A0 A1 A2 A3 A4 A5 A6 A7 A8 A9 A11 A10].
    assert (HS : forall id y, In (DStart id y) (evs ++ [DStart (d_next s) x]) -> In (DStart id y) evs \/ (id = d_next s /\ y = x)).
    { intros id y F. apply in_app_or in F. destruct F as [F|[F|[]]]; [auto|injection F as <- <-; auto]. }
    assert (HS' : forall id y, In (DStart id y) evs -> In (DStart id y) (evs ++ [DStart (d_next s) x])) by (intros; apply in_or_app; auto).
    assert (HX : In (DStart (d_next s) x) (evs ++ [DStart (d_next s) x])) by (apply in_or_app; right; left; reflexivity).
    assert (HR : d_res s (d_next s) = None).
    { destruct (d_res s (d_next s)) as [v|] eqn:ER; [|reflexivity]. destruct (A11 _ _ ER) as (y & F). destruct (A5 _ _ _ _ F) as (_ & F2 & _).
      specialize (A1 _ _ F2). lia. }
    constructor; simpl.
    + lia.
    + intros id y F. destruct (HS _ _ F) as [F1|[-> ->]]; [specialize (A1 _ _ F1); lia|lia].
    + intros id y z F1 F2. destruct (HS _ _ F1) as [G1|[G1 G1']], (HS _ _ F2) as [G2|[G2 G2']]; subst; eauto.
      * specialize (A1 _ _ G1). lia.
      * specialize (A1 _ _ G2). lia.
    + intros id y F. apply in_app_or in F. destruct F as [F|[F|[]]]; [destruct (A3 _ _ F); auto|]. injection F as <- <-. auto.
    + rewrite map_app. simpl. apply NoDup_snoc'; [exact A4|]. intros F. apply in_map_iff in F. destruct F as ([j y] & F1 & F2). simpl in F1. subst j.
      destruct (A3 _ _ F2) as [F3 _]. specialize (A1 _ _ F3). lia.
    + intros t id y v F. destruct (A5 _ _ _ _ F) as (F1 & F2 & F3). auto.
    + exact A6.
    + intros id y F. destruct (HS _ _ F) as [F1|[-> ->]]; [destruct (A7 _ _ F1); [left; apply in_or_app|right]; auto|].
      left. apply in_or_app. right; left; reflexivity.
    + intros q j id y F. destruct (dset_cases (d_th s) (d_org x) (d_thr x) (DIn (d_next s) x) q j) as [(-> & -> & E)|[_ E]]; rewrite E in F.
      * injection F as <- <-. auto.
      * destruct (A8 _ _ _ _ F) as (F1 & F2). auto.
    + intros id y v F. apply in_app_or in F. destruct F as [F|[F|[]]]; [|discriminate]. destruct (A9 _ _ _ F) as [F1 F2]. auto.
    + exact A11.
    + exact A10.
  - destruct (take_id id (d_pend s)) as [[[u x] v]|] eqn:ET; [|injection E as <- <-; rewrite app_nil_r; exact H].
    destruct (mpi_exec (d_ty x) (d_adr x) (dir_call (d_ty x) (d_api x)) (d_mem s (d_tgt x))) as [[m1 rep]| | |] eqn:EX; simpl in E; try discriminate.
    injection E as <- <-. rewrite app_nil_r. apply take_id_ok in ET.
    destruct H as [A0 A1 A2 A3 A4 A5 A6 A7 A8 A9 A11 A10]. rewrite ET in *.
    assert (HX : In (id, x) (u ++ (id, x) :: v)) by (apply in_or_app; right; left; reflexivity).
    destruct (A3 id x HX) as [HS HR].
    rewrite map_app in A4. simpl in A4. destruct (NoDup_mid _ _ _ A4) as [A4' A4'']. rewrite <- map_app in A4', A4''.
    assert (PU : forall j y, In (j, y) (u ++ v) -> In (j, y) (u ++ (id, x) :: v) /\ j <> id).
    { intros j y F. split; [apply in_app_or in F; apply in_or_app; simpl; tauto|]. intros ->. apply A4''. apply (in_map fst) in F. exact F. }
    assert (LG : forall t e, In e (fupd (d_log s) (d_tgt x) (d_log s (d_tgt x) ++ [(id, x, rep)]) t) -> In e (d_log s t) \/ (e = (id, x, rep) /\ t = d_tgt x)).
    { intros t e F. destruct (Z.eq_dec t (d_tgt x)) as [->|]; [rewrite fupd_eq in F|rewrite fupd_ne in F by assumption; auto].
      apply in_app_or in F. destruct F as [F|[F|[]]]; auto. }
    assert (LG' : forall t e, In e (d_log s t) -> In e (fupd (d_log s) (d_tgt x) (d_log s (d_tgt x) ++ [(id, x, rep)]) t)).
    { intros t e F. destruct (Z.eq_dec t (d_tgt x)) as [->|]; [rewrite fupd_eq; apply in_or_app; auto|rewrite fupd_ne by assumption; exact F]. }
    assert (LX : In (id, x, rep) (fupd (d_log s) (d_tgt x) (d_log s (d_tgt x) ++ [(id, x, rep)]) (d_tgt x))).
    { rewrite fupd_eq. apply in_or_app. right; left; reflexivity. }
    constructor; simpl.
    + exact A0.
    + exact A1.
    + exact A2.
    + intros j y F. destruct (PU _ _ F) as [F1 F2]. destruct (A3 _ _ F1). rewrite fupd_ne by assumption. auto.
    + exact A4'.
    + intros t j y w F. destruct (LG _ _ F) as [F1|[F1 ->]].
      * destruct (A5 _ _ _ _ F1) as (G1 & G2 & G3). rewrite fupd_ne; [auto|]. intros ->. congruence.
      * injection F1 as -> -> ->. rewrite fupd_eq. auto.
    + intros t. destruct (Z.eq_dec t (d_tgt x)) as [->|]; [rewrite fupd_eq|rewrite fupd_ne by assumption; auto].
      rewrite map_app. simpl. apply NoDup_snoc'; [auto|]. intros F. apply in_map_iff in F. destruct F as ([[j y] w] & F1 & F2). simpl in F1. subst j.
      destruct (A5 _ _ _ _ F2) as (_ & _ & G3). congruence.
    + intros j y F. destruct (A7 _ _ F) as [F1|(w & F1)]; [|right; exists w; auto].
      apply in_app_or in F1. destruct F1 as [F1|[F1|F1]]; [left; apply in_or_app; auto| |left; apply in_or_app; auto].
      injection F1 as <- <-. right. exists rep. exact LX.
    + exact A8.
    + intros j y w F. destruct (A9 _ _ _ F) as [F1 F2]. split; [exact F1|]. destruct w as [r|]; [destruct F2; auto|exact F2].
    + intros j w F. destruct (Z.eq_dec j id) as [->|]; [rewrite fupd_eq in F; injection F as <-; exists x; exact LX|].
      rewrite fupd_ne in F by assumption. destruct (A11 _ _ F) as (y & G). exists y. auto.
    + intros t. destruct (HS0 _ _ HS) as [HT HA]. destruct (A10 t) as [B1 B2].
      destruct (Z.eq_dec t (d_tgt x)) as [->|]; [rewrite !fupd_eq|rewrite !fupd_ne by assumption; auto].
      pose proof (exec_dir (d_ty x) (d_adr x) (d_api x) _ B1 HT HA) as G. rewrite EX in G. destruct G as [G1 G2]. split; [exact G2|].
      rewrite map_app. eapply ops_seq_app; [exact B2|]. simpl. exists m1. split; [exact G1|reflexivity].
  - destruct (d_th s p i) as [|id x|] eqn:ET; [injection E as <- <-; rewrite app_nil_r; exact H| |].
    + destruct (di_thr _ _ _ H _ _ _ _ ET) as (F1 & F2 & F3). rewrite fetches_waits in E. destruct (amo_fetches (d_api x)) eqn:EF.
      * destruct (d_res s id) as [v|] eqn:ER; injection E as <- <-; [|rewrite app_nil_r; exact H].
        apply DI_idle; [exact H|intros ? ? [F|[]]; discriminate| |discriminate].
        intros j y w [F|[]]. injection F as <- <- <-. split; [exact F1|]. split; [exact EF|].
        destruct (di_where _ _ _ H _ _ F1) as [G|(w & G)].
        { destruct (di_pend _ _ _ H _ _ G). congruence. }
        destruct (di_log _ _ _ H _ _ _ _ G) as (_ & _ & G3). congruence.
      * injection E as <- <-. apply DI_idle; [exact H|intros ? ? [F|[]]; discriminate| |discriminate].
        intros j y w [F|[]]. injection F as <- <- <-. auto.
    + destruct (existsb _ _); injection E as <- <-; [rewrite app_nil_r; exact H|].
      apply DI_idle; [exact H|intros ? ? [F|[]]; discriminate|intros ? ? ? [F|[]]; discriminate|discriminate].
  - destruct (d_th s p i) eqn:ET; injection E as <- <-; try (rewrite app_nil_r; exact H).
    apply DI_idle; [exact H|intros ? ? [F|[]]; discriminate|intros ? ? ? [F|[]]; discriminate|discriminate].
Qed.

Lemma drun_starts ls : forall s s' evs, drun s ls = Ok (s', evs) -> forall id x, In (DStart id x) evs -> In (DCall x) ls.
Proof.
  induction ls as [|l ls IH]; intros s s' evs E id x H; simpl in E; [injection E as <- <-; destruct H|].
  destruct (dstep s l) as [[s1 e1]| | |] eqn:E1; simpl in E; try discriminate.
  destruct (drun s1 ls) as [[s2 e2]| | |] eqn:E2; simpl in E; try discriminate. injection E as <- <-.
  apply in_app_or in H. destruct H as [H|H]; [|right; eapply IH; eauto]. left.
  destruct l as [y|j|p i|p i]; simpl in E1.
  - destruct (d_th s (d_org y) (d_thr y)); injection E1 as <- <-; try destruct H as [H|[]]; [injection H as <- <-; reflexivity|destruct H|destruct H].
  - destruct (take_id j (d_pend s)) as [[[u y] v]|]; [|injection E1 as <- <-; destruct H].
    destruct (mpi_exec _ _ _ _) as [r| | |]; simpl in E1; try discriminate. injection E1 as <- <-. destruct H.
  - destruct (d_th s p i) as [|j y|].
    + injection E1 as <- <-. destruct H.
    + destruct (waits_result _); [destruct (d_res s j)|]; injection E1 as <- <-; try destruct H as [H|[]]; try discriminate; try destruct H.
    + destruct (existsb _ _); injection E1 as <- <-; try destruct H as [H|[]]; try discriminate; try destruct H.
  - destruct (d_th s p i); injection E1 as <- <-; try destruct H as [H|[]]; try discriminate; try destruct H.
Qed.
Lemma drun_DI m0 ls : forall s evs0 s' evs, dcalls ls ->
  (forall id x, In (DStart id x) evs0 -> In (d_ty x) (api_types (d_api x)) /\ amo_args_ok (d_ty x) (d_api x)) ->
  drun s ls = Ok (s', evs) -> DI m0 evs0 s -> DI m0 (evs0 ++ evs) s'.
Proof.
  induction ls as [|l ls IH]; intros s evs0 s' evs HC HS E H; simpl in E; [injection E as <- <-; rewrite app_nil_r; exact H|].
  destruct (dstep s l) as [[s1 e1]| | |] eqn:E1; simpl in E; try discriminate.
  destruct (drun s1 ls) as [[s2 e2]| | |] eqn:E2; simpl in E; try discriminate. injection E as <- <-.
  rewrite app_assoc. apply (IH s1); [intros x F; apply HC; right; exact F| |exact E2|].
  - intros id x F. apply in_app_or in F. destruct F as [F|F]; [eauto|]. apply HC.
    apply (drun_starts [l] s s1 e1) with (id := id) in F; [destruct F as [F|[]]; left; exact F|]. simpl. rewrite E1. simpl. rewrite app_nil_r. reflexivity.
  - eapply dstep_DI; eauto. intros x ->. apply HC. left; reflexivity.
Qed.
Lemma drun_init m0 ls s evs : (forall t, byte_mem (m0 t)) -> dcalls ls -> drun (d_init m0) ls = Ok (s, evs) -> DI m0 evs s.
Proof. intros HM HC E. apply (drun_DI m0 ls (d_init m0) [] s evs HC); [intros ? ? []|exact E|apply DI_init; exact HM]. Qed.

(** Logs only grow. *)
Lemma dstep_log s l s' ev t : dstep s l = Ok (s', ev) -> exists r, d_log s' t = d_log s t ++ r.
Proof.
  intros E. destruct l as [y|j|p i|p i]; simpl in E.
  - destruct (d_th s (d_org y) (d_thr y)); injection E as <- <-; exists []; symmetry; apply app_nil_r.
  - destruct (take_id j (d_pend s)) as [[[u y] v]|]; [|injection E as <- <-; exists []; symmetry; apply app_nil_r].
    destruct (mpi_exec _ _ _ _) as [r| | |]; simpl in E; try discriminate. injection E as <- <-. simpl. unfold fupd.
    destruct (t =? d_tgt y) eqn:ET; [|exists []; symmetry; apply app_nil_r]. replace t with (d_tgt y) by lia. eexists; reflexivity.
  - destruct (d_th s p i) as [|j y|].
    + injection E as <- <-; exists []; symmetry; apply app_nil_r.
    + destruct (waits_result _); [destruct (d_res s j)|]; injection E as <- <-; exists []; symmetry; apply app_nil_r.
    + destruct (existsb _ _); injection E as <- <-; exists []; symmetry; apply app_nil_r.
  - destruct (d_th s p i); injection E as <- <-; exists []; symmetry; apply app_nil_r.
Qed.
Lemma drun_log ls : forall s s' evs t, drun s ls = Ok (s', evs) -> exists r, d_log s' t = d_log s t ++ r.
Proof.
  induction ls as [|l ls IH]; intros s s' evs t E; simpl in E; [injection E as <- <-; exists []; symmetry; apply app_nil_r|].
  destruct (dstep s l) as [[s1 e1]| | |] eqn:E1; simpl in E; try discriminate.
  destruct (drun s1 ls) as [[s2 e2]| | |] eqn:E2; simpl in E; try discriminate. injection E as <- <-.
  destruct (dstep_log _ _ _ _ t E1) as (r1 & R1). destruct (IH _ _ _ t E2) as (r2 & R2). exists (r1 ++ r2). simpl. rewrite R2, R1, app_assoc. reflexivity.
Qed.

Lemma quiet_applied m0 ls s evs p i s' : (forall t, byte_mem (m0 t)) -> dcalls ls -> drun (d_init m0) ls = Ok (s, evs) ->
  dstep s (DGo p i) = Ok (s', [DQuietRet p i]) ->
  forall id x, In (DStart id x) evs -> d_org x = p -> exists v, In (id, x, v) (d_log s (d_tgt x)).
Proof.
  intros HM HC E EQ id x HI HP. pose proof (drun_init _ _ _ _ HM HC E) as H. simpl in EQ.
  destruct (d_th s p i) as [|j y|]; [discriminate| |].
  { destruct (waits_result _); [destruct (d_res s j)|]; discriminate. }
  destruct (existsb (fun y => d_org (snd y) =? p) (d_pend s)) eqn:EX; [discriminate|].
  destruct (di_where _ _ _ H _ _ HI) as [F|F]; [|exact F]. exfalso.
  assert (X : existsb (fun y => d_org (snd y) =? p) (d_pend s) = true) by (apply existsb_exists; exists (id, x); split; [exact F|simpl; lia]).
  congruence.
Qed.

(** ** Counters *)
Lemma total_app l1 l2 : total (l1 ++ l2) = total l1 + total l2.
Proof. induction l1 as [|x l1 IH]; simpl; [reflexivity|]. unfold total in *. simpl. lia. Qed.
Lemma ld_ext m m' w : forall a, (forall b, a <= b < a + Z.of_nat w -> m' b = m b) -> ld m' a w = ld m a w.
Proof.
  induction w as [|w IH]; intros a H; simpl; [reflexivity|]. rewrite H by lia. rewrite IH; [reflexivity|]. intros b Hb. apply H. lia.
Qed.
Lemma wrap_add c a b : wrap_to c (wrap_to c a + b) = wrap_to c (a + b).
Proof.
  unfold wrap_to. destruct (ct_signed c); [reflexivity|]. rewrite Z.add_mod_idemp_l; [reflexivity|]. pose proof (pow_half c). pose proof (pow_pos c). lia.
Qed.
Lemma wrap_in c v : in_type c v -> wrap_to c v = v.
Proof. unfold in_type, wrap_to. destruct (ct_signed c); [reflexivity|]. intros H. apply Z.mod_small. exact H. Qed.

Lemma step_counts c a c' a' x v m m1 rep : amo_step_ok c' a' x m m1 rep -> counts c a c' a' x v -> in_type c (var c m a) ->
  var c m1 a = wrap_to c (var c m a + v) /\ in_type c (var c m1 a) /\ (c' = c -> a' = a -> amo_fetches x = true -> val c rep = var c m a).
Proof.
  intros (H1 & H2 & H3 & H4) HC HI. destruct HC as [(-> & -> & HA)|[HA ->]].
  - split; [|split; [exact H2|intros _ _ F; exact (H4 F)]]. rewrite H1. destruct HA; simpl; unfold wrap_to; try reflexivity.
    rewrite Z.add_0_r. destruct (ct_signed c) eqn:ES; [reflexivity|]. symmetry. apply Z.mod_small. unfold in_type in HI. rewrite ES in HI. exact HI.
  - assert (E : var c m1 a = var c m a).
    { unfold var. f_equal. apply ld_ext. intros b Hb. apply H3. unfold apart in HA. lia. }
    rewrite E, Z.add_0_r, wrap_in by exact HI. split; [reflexivity|]. split; [exact HI|]. intros -> -> _. exfalso.
    unfold apart in HA. destruct c; simpl in HA; lia.
Qed.

Lemma seq_counts c a log : forall m m' vs, ops_seq m log m' -> in_type c (var c m a) ->
  Forall2 (fun e v => let '(c', a', x, _) := e in counts c a c' a' x v) log vs ->
  counter_ok c (var c m a) (var c m' a) vs (fetched_at c a log) /\ in_type c (var c m' a).
Proof.
  induction log as [|[[[c' a'] x] rep] log IH]; intros m m' vs H HI HF; simpl in H.
  - subst m'. inversion HF; subst. split; [|exact HI]. split; [simpl; rewrite Z.add_0_r, wrap_in by exact HI; reflexivity|].
    intros k r F. unfold fetched_at in F. destruct k; discriminate.
  - destruct H as (m1 & H1 & H2). inversion HF as [|e v l vs' HF1 HF2]; subst. destruct (step_counts c a c' a' x v m m1 rep H1 HF1 HI) as (V1 & V2 & V3).
    destruct (IH m1 m' vs' H2 V2 HF2) as [[C1 C2] V4]. split; [|exact V4]. split.
    + rewrite C1, V1, wrap_add. simpl. f_equal. unfold total. lia.
    + intros [|k] r F.
      * unfold fetched_at in F. simpl in F. destruct (ctype_eq_dec c' c) as [->|]; [|discriminate].
        destruct (Z.eqb_spec a' a) as [->|]; [|discriminate]. simpl in F. destruct (amo_fetches x) eqn:EF; [|discriminate].
        injection F as <-. split; [simpl; lia|]. simpl. rewrite Z.add_0_r, wrap_in by exact HI. auto.
      * destruct (C2 k r F) as [K1 K2]. split; [simpl; lia|]. rewrite K2, V1, wrap_add. simpl. f_equal. unfold total. simpl. lia.
Qed.

Lemma total_nonneg l : Forall (Z.le 0) l -> 0 <= total l.
Proof. induction 1; simpl; [lia|]. unfold total in *. simpl. lia. Qed.
Lemma Forall_firstn {X} (P : X -> Prop) k l : Forall P l -> Forall P (firstn k l).
Proof. intros H. revert k. induction H; intros [|k]; simpl; constructor; auto. Qed.
Lemma Forall_skipn {X} (P : X -> Prop) k l : Forall P l -> Forall P (skipn k l).
Proof. intros H. revert k. induction H; intros [|k]; simpl; auto. Qed.
Lemma total_mono l : Forall (Z.le 0) l -> forall k1 k2, (k1 < k2)%nat -> (k2 <= length l)%nat ->
  total (firstn k1 l) + nth k1 l 0 <= total (firstn k2 l) <= total l.
Proof.
  induction 1 as [|x l HX H IH]; intros k1 k2 H1 H2; simpl in H2; [lia|].
  destruct k2 as [|k2]; [lia|]. destruct k1 as [|k1]; simpl; unfold total in *; simpl.
  - pose proof (total_nonneg _ (Forall_firstn _ k2 _ H)). unfold total in *. split; [lia|].
    pose proof (total_app (firstn k2 l) (skipn k2 l)) as E. rewrite firstn_skipn in E. pose proof (total_nonneg _ (Forall_skipn _ k2 _ H)). unfold total in *. lia.
  - specialize (IH k1 k2 ltac:(lia) ltac:(lia)). lia.
Qed.

Lemma tickets c v0 now vs f k1 k2 r1 r2 : counter_ok c v0 now vs f -> Forall (Z.le 0) vs -> total vs < 2 ^ ct_bits c ->
  (k1 < k2)%nat -> f k1 = Some r1 -> f k2 = Some r2 -> 0 < nth k1 vs 0 -> r1 <> r2.
Proof.
  intros [_ H] HV HT HK F1 F2 HP. destruct (H _ _ F1) as [L1 ->]. destruct (H _ _ F2) as [L2 ->].
  destruct (total_mono vs HV k1 k2 HK ltac:(lia)) as [M1 M2].
  pose proof (total_nonneg _ (Forall_firstn _ k1 _ HV)) as M0.
  unfold wrap_to. destruct (ct_signed c); [lia|]. intros E.
  set (p := 2 ^ ct_bits c) in *. assert (P : 0 < p) by lia.
  pose proof (Z.div_mod (v0 + total (firstn k1 vs)) p ltac:(lia)) as D1.
  pose proof (Z.div_mod (v0 + total (firstn k2 vs)) p ltac:(lia)) as D2. rewrite E in D1.
  assert (D : total (firstn k2 vs) - total (firstn k1 vs) = p * ((v0 + total (firstn k2 vs)) / p - (v0 + total (firstn k1 vs)) / p)) by lia.
  assert (0 < total (firstn k2 vs) - total (firstn k1 vs) < p) by lia.
  set (q := (v0 + total (firstn k2 vs)) / p - (v0 + total (firstn k1 vs)) / p) in *.
  destruct (Z_le_gt_dec q 0); [assert (p * q <= 0) by (apply Z.mul_nonneg_nonpos; lia)|assert (p * 1 <= p * q) by (apply Z.mul_le_mono_nonneg_l; lia)]; lia.
Qed.

Lemma direct_counter m0 ls s evs c a t : (forall t, byte_mem (m0 t)) -> dcalls ls -> drun (d_init m0) ls = Ok (s, evs) ->
  forall amt : Z -> Z, (forall id x, In (DStart id x) evs -> d_tgt x = t -> counts c a (d_ty x) (d_adr x) (d_api x) (amt id)) ->
  counter_ok c (var c (m0 t) a) (var c (d_mem s t) a) (map (fun e => amt (fst (fst e))) (d_log s t)) (fetched_at c a (map of_dop (d_log s t))).
Proof.
  intros HM HC E amt HA. pose proof (drun_init _ _ _ _ HM HC E) as H. destruct (di_mem _ _ _ H t) as [_ HS].
  eapply seq_counts; [exact HS|apply val_in; [apply ld_byte; apply HM|apply ld_length]|].
  assert (HL : forall e, In e (d_log s t) -> let '(id, x, _) := e in counts c a (d_ty x) (d_adr x) (d_api x) (amt id)).
  { intros [[id x] v] F. destruct (di_log _ _ _ H _ _ _ _ F) as (F1 & F2 & _). auto. }
  revert HL. generalize (d_log s t). intros l HL. induction l as [|[[id x] v] l IH]; simpl; constructor.
  - exact (HL (id, x, v) (or_introl eq_refl)).
  - apply IH. intros e F. apply HL. right; exact F.
Qed.

Lemma nth_fetched c a l k id x v : nth_error l k = Some (id, x, v) -> d_ty x = c -> d_adr x = a -> amo_fetches (d_api x) = true ->
  fetched_at c a (map of_dop l) k = Some (val c v).
Proof.
  intros E H1 H2 H3. unfold fetched_at. rewrite nth_error_map, E. simpl. rewrite H1, H2, H3, Z.eqb_refl.
  destruct (ctype_eq_dec c c); [reflexivity|contradiction].
Qed.

Lemma direct_tickets m0 ls s evs c a t : (forall t, byte_mem (m0 t)) -> dcalls ls -> drun (d_init m0) ls = Ok (s, evs) ->
  (forall x, In (DCall x) ls -> d_tgt x = t -> apart c a (d_ty x) (d_adr x) \/ (d_ty x = c /\ d_adr x = a /\ (d_api x = AFinc \/ d_api x = AInc \/ d_api x = AFetch))) ->
  Z.of_nat (length (d_log s t)) < 2 ^ ct_bits c ->
  forall id1 id2 x1 x2 v1 v2, In (DRet id1 x1 (Some v1)) evs -> In (DRet id2 x2 (Some v2)) evs -> id1 <> id2 ->
  d_api x1 = AFinc -> d_api x2 = AFinc -> d_tgt x1 = t -> d_tgt x2 = t -> d_ty x1 = c -> d_ty x2 = c -> d_adr x1 = a -> d_adr x2 = a ->
  val c v1 <> val c v2.
Proof.
  intros HM HC E HK HB id1 id2 x1 x2 v1 v2 R1 R2 NE A1 A2 T1 T2 Y1 Y2 D1 D2.
  pose proof (drun_init _ _ _ _ HM HC E) as H.
  set (onvar := fun x : dop => (d_tgt x =? t) && (if ctype_eq_dec (d_ty x) c then true else false) && (d_adr x =? a) && match d_api x with AFinc | AInc => true | _ => false end).
  set (amt := fun id => if existsb (fun ev => match ev with DStart j x => (j =? id) && onvar x | _ => false end) evs then 1 else 0).
  assert (AM : forall id x, In (DStart id x) evs -> amt id = if onvar x then 1 else 0).
  { intros id x F. unfold amt. destruct (existsb _ evs) eqn:EX.
    - apply existsb_exists in EX. destruct EX as (ev & X1 & X2). destruct ev as [j y| | |]; try discriminate.
      assert (j = id) by lia. subst j. rewrite (di_one _ _ _ H _ _ _ F X1). destruct (onvar y); [reflexivity|rewrite andb_false_r in X2; discriminate].
    - destruct (onvar x) eqn:EO; [|reflexivity]. exfalso. rewrite <- not_true_iff_false in EX. apply EX. apply existsb_exists.
      exists (DStart id x). split; [exact F|]. rewrite Z.eqb_refl, EO. reflexivity. }
  assert (CN : forall id x, In (DStart id x) evs -> d_tgt x = t -> counts c a (d_ty x) (d_adr x) (d_api x) (amt id)).
  { intros id x F FT. rewrite (AM _ _ F). destruct (HK x (drun_starts _ _ _ _ E _ _ F) FT) as [G|(G1 & G2 & G3)].
    - right. split; [exact G|]. unfold onvar. destruct (ctype_eq_dec (d_ty x) c) as [e|]; [|rewrite andb_false_r; reflexivity].
      destruct (Z.eqb_spec (d_adr x) a) as [e'|]; [|rewrite andb_false_r; reflexivity]. exfalso.
      unfold apart in G. rewrite e, e' in G. destruct c; simpl in G; lia.
    - left. split; [exact G1|]. split; [exact G2|]. unfold onvar. rewrite FT, G1, G2, !Z.eqb_refl. destruct (ctype_eq_dec c c); [|contradiction].
      destruct G3 as [->|[->| ->]]; simpl; constructor. }
  pose proof (direct_counter m0 ls s evs c a t HM HC E amt CN) as CK.
  destruct (di_ret _ _ _ H _ _ _ R1) as (S1 & _ & L1). destruct (di_ret _ _ _ H _ _ _ R2) as (S2 & _ & L2). rewrite T1 in L1. rewrite T2 in L2.
  destruct (In_nth_error _ _ L1) as (k1 & K1). destruct (In_nth_error _ _ L2) as (k2 & K2).
  assert (F1 : fetched_at c a (map of_dop (d_log s t)) k1 = Some (val c v1)) by (eapply nth_fetched; eauto; rewrite A1; reflexivity).
  assert (F2 : fetched_at c a (map of_dop (d_log s t)) k2 = Some (val c v2)) by (eapply nth_fetched; eauto; rewrite A2; reflexivity).
  assert (B01 : forall id, amt id = 0 \/ amt id = 1) by (intros id; unfold amt; destruct (existsb _ evs); auto).
  assert (FA : Forall (Z.le 0) (map (fun e : Z * dop * list Z => amt (fst (fst e))) (d_log s t))).
  { apply Forall_forall. intros v HV. apply in_map_iff in HV. destruct HV as (e & <- & _). destruct (B01 (fst (fst e))); lia. }
  assert (TT : forall l : list (Z * dop * list Z), total (map (fun e => amt (fst (fst e))) l) <= Z.of_nat (length l)).
  { induction l as [|e l IH]; simpl; [unfold total; simpl; lia|]. unfold total in *. simpl. destruct (B01 (fst (fst e))); lia. }
  specialize (TT (d_log s t)).
  assert (ON : forall x, d_api x = AFinc -> d_tgt x = t -> d_ty x = c -> d_adr x = a -> onvar x = true).
  { intros x G1 G2 G3 G4. unfold onvar. rewrite G1, G2, G3, G4, !Z.eqb_refl. destruct (ctype_eq_dec c c); [reflexivity|contradiction]. }
  assert (N1 : forall k id x v, nth_error (d_log s t) k = Some (id, x, v) -> In (DStart id x) evs -> onvar x = true -> 0 < nth k (map (fun e => amt (fst (fst e))) (d_log s t)) 0).
  { intros k id x v G1 G2 G3. erewrite nth_error_nth; [|rewrite nth_error_map, G1; reflexivity]. simpl. rewrite (AM _ _ G2), G3. lia. }
  destruct (lt_eq_lt_dec k1 k2) as [[LT|EQ]|GT].
  - eapply tickets; [exact CK|exact FA|lia|exact LT|exact F1|exact F2|]. eapply N1; eauto.
  - subst k2. congruence.
  - apply not_eq_sym. eapply tickets; [exact CK|exact FA|lia|exact GT|exact F2|exact F1|]. eapply N1; eauto.
Qed.

(** The same for active messages. *)
Lemma seq_amo_counts fadd feq c a log : forall m m', byte_mem m ->
  (forall p r x, In (p, r, x) log -> exists c' a' x' v, In c' (api_types x') /\ amo_args_ok c' x' /\ r = api_req c' a' x' /\ counts c a c' a' x' v) ->
  seq_exec (exec_pkt fadd feq) m log m' ->
  exists log' vs, Forall2 (fun e e' => let '(_, r, rep) := e in let '(c', a', x, rep') := e' in r = api_req c' a' x /\ rep' = rep) log log' /\
    Forall2 (fun e v => let '(c', a', x, _) := e in counts c a c' a' x v) log' vs /\ ops_seq m log' m'.
Proof.
  induction log as [|[[p r] rep] log IH]; intros m m' HM HR H; cbn in H.
  - exists [], []. split; [constructor|]. split; [constructor|exact H].
  - destruct H as (m1 & E & H). destruct (HR p r rep (or_introl eq_refl)) as (c' & a' & x & v & HT & HA & -> & HV).
    pose proof (exec_api fadd feq c' a' x m HM HT HA) as EA.
    assert (ED : rq_data (api_req c' a' x) = None) by (destruct x; reflexivity). rewrite ED in E. rewrite E in EA.
    destruct EA as [EA HM1]. destruct (IH m1 m' HM1) as (log' & vs & F1 & F2 & F3); [|exact H|].
    { intros p' r' x' Hin. eapply HR. right. exact Hin. }
    exists ((c', a', x, rep) :: log'), (v :: vs). split; [constructor; auto|]. split; [constructor; auto|]. exists m1. auto.
Qed.
Lemma am_counter fadd feq ub n (m0 : Z -> bytes) ls c a t : ub <= INT_MAX -> (forall t, byte_mem (m0 t)) ->
  (forall l, In l ls -> match l with LOp _ _ _ r => exists c' a' x' v, In c' (api_types x') /\ amo_args_ok c' x' /\ r = api_req c' a' x' /\ counts c a c' a' x' v | _ => True end) ->
  let s := fst (run (exec_pkt fadd feq) ub n (a_init m0) ls) in
  exists log' vs, Forall2 (fun e e' => let '(_, r, rep) := e in let '(c', a', x, rep') := e' in r = api_req c' a' x /\ rep' = rep) (a_log s t) log' /\
    Forall2 (fun e v => let '(c', a', x, _) := e in counts c a c' a' x v) log' vs /\
    counter_ok c (var c (m0 t) a) (var c (a_mem s t) a) vs (fetched_at c a log').
Proof.
  cbn zeta. intros HU HM HC. pose proof (am_matching _ _ _ _ (exec_pkt fadd feq) ub n m0 HU ls) as H.
  pose proof (log_called _ _ _ _ (exec_pkt fadd feq) ub n m0 HU
    (fun r => exists c' a' x' v, In c' (api_types x') /\ amo_args_ok c' x' /\ r = api_req c' a' x' /\ counts c a c' a' x' v) ls) as HL.
  destruct (run (exec_pkt fadd feq) ub n (a_init m0) ls) as [s evs]. cbn [fst] in *. destruct H as (_ & H & _).
  destruct (seq_amo_counts fadd feq c a (a_log s t) (m0 t) (a_mem s t) (HM t)) as (log' & vs & F1 & F2 & F3).
  - intros p r x Hin. apply HL in Hin; [exact Hin|]. apply Forall_forall. intros l Hl. specialize (HC l Hl). destruct l; exact HC || exact I.
  - apply H.
  - exists log', vs. split; [exact F1|]. split; [exact F2|]. eapply seq_counts; [exact F3|apply val_in; [apply ld_byte; apply HM|apply ld_length]|exact F2].
Qed.

Lemma dstep_next s l s' ev : dstep s l = Ok (s', ev) -> d_next s <= d_next s' /\ forall id x, In (DStart id x) ev -> d_next s <= id.
Proof.
  intros E. destruct l as [y|j|p i|p i]; simpl in E.
  - destruct (d_th s (d_org y) (d_thr y)) as [|j1 y1|]; injection E as <- <-; simpl; (split; [lia|]); intros id x F; try contradiction.
    destruct F as [F|[]]. injection F as <- _. lia.
  - destruct (take_id j (d_pend s)) as [[[u y] v]|]; [|injection E as <- <-; split; [lia|intros ? ? []]].
    destruct (mpi_exec _ _ _ _) as [r| | |]; simpl in E; try discriminate. injection E as <- <-. simpl. split; [lia|intros ? ? []].
  - destruct (d_th s p i) as [|j y|].
    + injection E as <- <-. split; [lia|intros ? ? []].
    + destruct (waits_result _); [destruct (d_res s j)|]; injection E as <- <-; simpl; (split; [lia|]); intros ? ? F;
        try destruct F as [F|[]]; try discriminate; destruct F.
    + destruct (existsb _ _); injection E as <- <-; simpl; (split; [lia|]); intros ? ? F; try destruct F as [F|[]]; try discriminate; destruct F.
  - destruct (d_th s p i); injection E as <- <-; simpl; (split; [lia|]); intros ? ? F; try destruct F as [F|[]]; try discriminate; destruct F.
Qed.
Lemma starts_next ls : forall s s' evs, drun s ls = Ok (s', evs) -> forall id x, In (DStart id x) evs -> ~ (0 <= id < d_next s).
Proof.
  induction ls as [|l ls IH]; intros s s' evs E id x F; simpl in E; [injection E as <- <-; destruct F|].
  destruct (dstep s l) as [[s1 e1]| | |] eqn:E1; simpl in E; try discriminate.
  destruct (drun s1 ls) as [[s2 e2]| | |] eqn:E2; simpl in E; try discriminate. injection E as <- <-.
  destruct (dstep_next _ _ _ _ E1) as [N1 N2]. apply in_app_or in F. destruct F as [F|F]; [specialize (N2 _ _ F); lia|].
  specialize (IH _ _ _ E2 _ _ F). lia.
Qed.
