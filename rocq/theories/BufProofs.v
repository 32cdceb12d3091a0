(** Proofs about local buffers: the invariant of all executions. *)
From Verif Require Import Base BufModel BufSpec.

Lemma buf_eqb_eq : forall x y, buf_eqb x y = true <-> x = y.
Proof.
  intros [a|i j] [b|k l]; simpl; split; intros H; try discriminate H; try (injection H; intros; subst).
  - apply Z.eqb_eq in H. congruence.
  - apply Z.eqb_refl.
  - apply andb_true_iff in H. destruct H as [H1 H2]. apply Z.eqb_eq in H1, H2. congruence.
  - now rewrite !Z.eqb_refl.
Qed.

Lemma existsb_buf : forall b l, existsb (buf_eqb b) l = true -> In b l.
Proof.
  intros b l H. apply existsb_exists in H. destruct H as [x [H1 H2]]. apply buf_eqb_eq in H2. now subst.
Qed.

Definition all_user (l : list buf) : Prop := forall b, In b l -> exists a, b = BUser a.
Definition covered (n : Z) (r : list bstep) (k : key) : Prop := exists st, In st r /\ closes n st k = true.
Definition loose (W : list Z) (c : bcall) (o : op) : Prop :=
  nonblocking c = true /\ all_user (op_src o) /\ all_user (op_dst o) /\
  exists w t, op_key o = KWin w t /\ In w W.
Definition fits (i : Z) (c : bcall) (o : op) : Prop :=
  (forall b, In b (op_src o) -> reads i c b) /\ (forall b, In b (op_dst o) -> writes i c b).

Fixpoint wf (W : list Z) (n i : Z) (c : bcall) (r : list bstep) : Prop :=
  match r with
  | [] => True
  | st :: r' =>
      (forall o, In o (starts n st) -> op_call o = n /\ fits i c o /\
         (covered n r' (op_key o) \/ loose W c o)) /\ wf W n i c r'
  end.

(** Programs of the calls *)

Lemma wf_app : forall W n i c r1 r2, wf W n i c r1 -> wf W n i c r2 -> wf W n i c (r1 ++ r2).
Proof.
  induction r1 as [|st r1 IH]; intros r2 H1 H2; simpl; [exact H2|].
  simpl in H1. destruct H1 as [A B]. split; [|now apply IH].
  intros o Ho. destruct (A o Ho) as [Q1 [Q2 Q3]]. repeat split; try assumption; try apply Q2.
  destruct Q3 as [[x [X1 X2]]|Q3]; [left|now right].
  exists x. split; [apply in_or_app; now left|exact X2].
Qed.

Ltac cov := left; eexists; split; [simpl; eauto|simpl; rewrite ?Z.eqb_refl; reflexivity].
Ltac one_op :=
  let o := fresh in let Ho := fresh in
  intros o Ho; simpl in Ho; destruct Ho as [<-|[]];
  split; [reflexivity|split; [split; simpl|]].

Lemma wf_pair : forall W n i c w t src dst,
  (forall b, In b src -> reads i c b) -> (forall b, In b dst -> writes i c b) ->
  wf W n i c [SOp w t src dst; SFlush w t].
Proof.
  intros W n i c w t src dst H1 H2. simpl. split; [|split; [|exact I]].
  - one_op; [exact H1|exact H2|cov].
  - intros o [].
Qed.

Lemma wf_poll : forall W n i c k j w me, out_local j = true -> wf W n i c (poll k i j w me).
Proof.
  intros W n i c k j w me Hj. induction k as [|k IH]; [exact I|].
  change (poll (S k) i j w me) with ([SOp w me [] (lv i j); SFlush w me] ++ poll k i j w me).
  apply wf_app; [|exact IH].
  apply wf_pair; [intros b []|]. intros b [<-|[]]. simpl. auto.
Qed.

Lemma lv_reads : forall i c j b, out_local j = false -> In b (lv i j) -> reads i c b.
Proof. intros i c j b Hj [<-|[]]. simpl. auto. Qed.
Lemma lv_writes : forall i c j b, out_local j = true -> In b (lv i j) -> writes i c b.
Proof. intros i c j b Hj [<-|[]]. simpl. auto. Qed.
Lemma user_in : forall l b, In b (user l) -> exists a, b = BUser a /\ In a l.
Proof. intros l b H. apply in_map_iff in H. destruct H as [a [<- H]]. eauto. Qed.
Lemma user_all : forall l, all_user (user l).
Proof. intros l b H. apply user_in in H. destruct H as [a [-> _]]. eauto. Qed.
Lemma nil_all : all_user [].
Proof. intros b []. Qed.

Lemma wf_am_put : forall W n i c src, (forall b, In b src -> reads i c b) -> wf W n i c (am_put i src).
Proof.
  intros W n i c src H. simpl. split; [|split; [|split; [|exact I]]].
  - one_op; [intros b Hb; eapply lv_reads; [|exact Hb]; reflexivity|intros b []|cov].
  - one_op; [exact H|intros b []|cov].
  - intros o [].
Qed.
Lemma wf_am_get : forall W n i c dst, (forall b, In b dst -> writes i c b) -> wf W n i c (am_get i dst).
Proof.
  intros W n i c dst H. simpl. split; [|split; [|split; [|exact I]]].
  - one_op; [intros b Hb; eapply lv_reads; [|exact Hb]; reflexivity|intros b []|cov].
  - one_op; [intros b []|exact H|cov].
  - intros o [].
Qed.
Lemma wf_am_post : forall W n i c, wf W n i c (am_post i).
Proof.
  intros W n i c. simpl. split; [|split; [|exact I]].
  - one_op; [intros b Hb; eapply lv_reads; [|exact Hb]; reflexivity|intros b []|cov].
  - intros o [].
Qed.

Lemma wf_sends : forall W n i c ts all, (forall t, In t ts -> In t all) ->
  wf W n i c (map (fun t => SSend t (lv i 3)) ts ++ [SWait all]).
Proof.
  intros W n i c ts all. induction ts as [|t ts IH]; intros H.
  - simpl. split; [intros o []|exact I].
  - simpl map. simpl app. split; [|apply IH; intros x Hx; apply H; now right].
    one_op.
    + intros b Hb. eapply lv_reads; [|exact Hb]. reflexivity.
    + intros b [].
    + left. exists (SWait all). split; [apply in_or_app; right; now left|].
      simpl. rewrite Z.eqb_refl. simpl. apply existsb_exists. exists t. split; [apply H; now left|apply Z.eqb_refl].
Qed.

Lemma wf_flushes : forall W n i c ws, wf W n i c (map SFlushAll ws).
Proof. induction ws as [|w ws IH]; simpl; [exact I|]. split; [intros o []|exact IH]. Qed.

Lemma in_lv2 : forall i c j k b, out_local j = false -> out_local k = false ->
  In b (lv i j ++ lv i k) -> reads i c b.
Proof. intros i c j k b Hj Hk H. apply in_app_or in H. destruct H as [H|H]; eapply lv_reads; [|exact H| |exact H]; assumption. Qed.

Lemma wf_steps : forall W n i c, (forall w, In w (windows c) -> In w W) -> wf W n i c (steps W i c).
Proof.
  intros W n i c HW. destruct c as [am nbi w t src|am w t|am nbi w t dst|am w t|am k w t res|w me rounds
    |w root me prev queued rounds|w root me next waited rounds|w root|w root dst|ts]; cbn [steps].
  - assert (HR : forall b, In b (user src) -> reads i (CPut am nbi w t src) b).
    { intros b Hb. apply user_in in Hb. destruct Hb as [a [-> Ha]]. exact Ha. }
    destruct am; [now apply wf_am_put|]. destruct nbi; unfold direct_put.
    + simpl. split; [|exact I]. one_op; [exact HR|intros b []|]. right.
      repeat split; simpl; [apply user_all|apply nil_all|]. exists w, t. split; [reflexivity|apply HW; now left].
    + apply wf_pair; [exact HR|intros b []].
  - destruct am; [apply wf_am_put|unfold direct_put; apply wf_pair];
      try (intros b Hb; eapply lv_reads; [|exact Hb]; reflexivity); intros b [].
  - assert (HR : forall b, In b (user dst) -> writes i (CGet am nbi w t dst) b).
    { intros b Hb. apply user_in in Hb. destruct Hb as [a [-> Ha]]. exact Ha. }
    destruct am; [now apply wf_am_get|]. destruct nbi; unfold direct_get.
    + simpl. split; [|exact I]. one_op; [intros b []|exact HR|]. right.
      repeat split; simpl; [apply nil_all|apply user_all|]. exists w, t. split; [reflexivity|apply HW; now left].
    + apply wf_pair; [intros b []|exact HR].
  - destruct am; [apply wf_am_get|unfold direct_get; apply wf_pair];
      try (intros b Hb; eapply lv_writes; [|exact Hb]; reflexivity); intros b [].
  - assert (HR : forall b, In b (match res with Some d => user d | None => lv i 2 end) ->
                 writes i (CAmo am k w t res) b).
    { intros b Hb. destruct res as [d|].
      - apply user_in in Hb. destruct Hb as [a [-> Ha]]. exact Ha.
      - eapply lv_writes; [|exact Hb]. reflexivity. }
    destruct am.
    + destruct k; try (now apply wf_am_get). apply wf_am_post.
    + destruct k; unfold direct_amo; apply wf_pair; try exact HR; try (intros b []; fail).
      * intros b Hb. eapply lv_reads; [|exact Hb]. reflexivity.
      * intros b Hb. eapply lv_reads; [|exact Hb]. reflexivity.
      * intros b Hb. eapply (in_lv2 _ _ 0 1); [| |exact Hb]; reflexivity.
  - apply wf_poll. reflexivity.
  - apply wf_app; [apply wf_pair|].
    + intros b Hb. eapply lv_reads; [|exact Hb]. reflexivity.
    + intros b Hb. eapply lv_writes; [|exact Hb]. reflexivity.
    + destruct queued; [|exact I]. apply wf_app; [apply wf_pair; [|intros b []]|apply wf_poll; reflexivity].
      intros b Hb. eapply lv_reads; [|exact Hb]. reflexivity.
  - apply wf_app; [apply wf_pair|].
    + intros b Hb. eapply (in_lv2 _ _ 0 1); [| |exact Hb]; reflexivity.
    + intros b Hb. eapply lv_writes; [|exact Hb]. reflexivity.
    + destruct waited; [|exact I]. apply wf_app; [apply wf_poll; reflexivity|apply wf_pair; [|intros b []]].
      intros b Hb. eapply lv_reads; [|exact Hb]. reflexivity.
  - apply wf_pair.
    + intros b Hb. eapply (in_lv2 _ _ 0 1); [| |exact Hb]; reflexivity.
    + intros b Hb. eapply lv_writes; [|exact Hb]. reflexivity.
  - apply wf_pair; [intros b []|]. intros b Hb. apply user_in in Hb. destruct Hb as [a [-> Ha]]. exact Ha.
  - apply wf_app; [apply wf_flushes|]. apply wf_sends. auto.
Qed.

(** The invariant *)

Record inv (W : list Z) (log : list bev) (s : bst) : Prop := mkInv {
  i_next : forall n i c m, In (ECall n i c m) log -> n < b_next s;
  i_uniq : forall n i c m i' c' m', In (ECall n i c m) log -> In (ECall n i' c' m') log ->
             i' = i /\ c' = c /\ m' = m;
  i_retc : forall n, In (ERet n) log -> exists i c m, In (ECall n i c m) log;
  i_thr : forall i n c r, b_thr s i = Some (n, c, r) ->
            (exists m, In (ECall n i c m) log) /\ ~ In (ERet n) log /\ wf W n i c r;
  i_run : forall n i c m, In (ECall n i c m) log -> ~ In (ERet n) log -> exists r, b_thr s i = Some (n, c, r);
  i_op : forall o, In o (b_ops s) -> exists i c m, In (ECall (op_call o) i c m) log /\ fits i c o /\
           ((exists r, b_thr s i = Some (op_call o, c, r) /\ covered (op_call o) r (op_key o)) \/
            (loose W c o /\ ~ quieted log (op_call o)));
  i_quiet : forall i q ts r o w t l1 l2 i' ts' m', b_thr s i = Some (q, CQuiet ts, r) -> In o (b_ops s) ->
            op_key o = KWin w t -> log = l1 ++ ERet (op_call o) :: l2 -> In (ECall q i' (CQuiet ts') m') l2 ->
            In (SFlushAll w) r;
  i_mem : forall n i c m b, In (ECall n i c m) log -> lends log n i c b -> reads i c b -> b_mem s b = m b;
  i_excl : forall n i c n' i' c' a, lends log n i c (BUser a) -> lends log n' i' c' (BUser a) ->
             In a (dests c) -> In a (sources c') -> False
}.

Lemma quieted_app : forall log ev n, quieted log n -> quieted (log ++ ev) n.
Proof.
  intros log ev n (l1 & l2 & q & i & ts & m & -> & H1 & H2).
  exists l1, (l2 ++ ev), q, i, ts, m. repeat split; try (apply in_or_app; now left).
  now rewrite <- app_assoc.
Qed.

Lemma snoc_split : forall (A : Type) (log l1 l2 : list A) e x, log ++ [e] = l1 ++ x :: l2 ->
  (l2 = [] /\ e = x /\ log = l1) \/ exists l2', l2 = l2' ++ [e] /\ log = l1 ++ x :: l2'.
Proof.
  intros A log l1 l2 e x H. destruct l2 as [|y l2] using rev_ind.
  - apply app_inj_tail in H. left. tauto.
  - right. exists l2. clear IHl2. rewrite app_comm_cons, app_assoc in H. apply app_inj_tail in H.
    destruct H as [H1 H2]. subst. auto.
Qed.

Lemma quieted_snoc : forall log e n, (forall q, e <> ERet q) -> quieted (log ++ [e]) n ->
  (forall q i c m, e = ECall q i c m -> ~ In (ERet q) log) -> quieted log n.
Proof.
  intros log e n Hne (l1 & l2 & q & i & ts & m & H & H1 & H2) Hf.
  destruct (snoc_split _ _ _ _ _ _ H) as [[-> _]|[l2' [-> ->]]]; [destruct H1|].
  apply in_app_or in H2. destruct H2 as [H2|[H2|[]]]; [|now destruct (Hne q)].
  apply in_app_or in H1. destruct H1 as [H1|[H1|[]]].
  - exists l1, l2', q, i, ts, m. auto.
  - exfalso. eapply Hf; [exact H1|]. apply in_or_app. right. now right.
Qed.

Lemma quieted_ret : forall log q n, quieted (log ++ [ERet q]) n ->
  quieted log n \/ exists l1 l2 i ts m, log = l1 ++ ERet n :: l2 /\ In (ECall q i (CQuiet ts) m) l2.
Proof.
  intros log q n (l1 & l2 & q' & i & ts & m & H & H1 & H2).
  destruct (snoc_split _ _ _ _ _ _ H) as [[-> _]|[l2' [-> ->]]]; [destruct H1|].
  apply in_app_or in H1. destruct H1 as [H1|[H1|[]]]; [|discriminate H1].
  apply in_app_or in H2. destruct H2 as [H2|[H2|[]]].
  - left. exists l1, l2', q', i, ts, m. auto.
  - right. injection H2 as <-. exists l1, l2', i, ts, m. auto.
Qed.

Lemma lends_mono : forall log ev n i c b, (forall m, ~ In (ECall n i c m) ev) ->
  lends (log ++ ev) n i c b -> lends log n i c b.
Proof.
  intros log ev n i c b Hn [[m Hm] H]. apply in_app_or in Hm. destruct Hm as [Hm|Hm]; [|now destruct (Hn m)].
  split; [eauto|]. destruct H as [H|[H1 [H2 H3]]].
  - left. intros X. apply H. apply in_or_app. now left.
  - right. repeat split; try assumption. intros X. apply H3. now apply quieted_app.
Qed.

Lemma op_lends : forall W log s o, inv W log s -> In o (b_ops s) ->
  exists i c m, In (ECall (op_call o) i c m) log /\ fits i c o /\
    forall b, In b (op_src o) \/ In b (op_dst o) -> lends log (op_call o) i c b.
Proof.
  intros W log s o I Ho. destruct (i_op _ _ _ I o Ho) as (i & c & m & H1 & H2 & H3).
  exists i, c, m. repeat split; try assumption; try apply H2; [eauto|].
  destruct H3 as [[r [H3 _]]|[[H3 [H4 [H5 _]]] H6]].
  - left. now apply (i_thr _ _ _ I) in H3.
  - right. repeat split; try assumption. destruct H; [now apply H4|now apply H5].
Qed.

Lemma inv_init : forall W m, inv W [] (b_init m).
Proof.
  intros W m. constructor; simpl; try (intros; contradiction); try discriminate.
  - intros n i c n' i' c' a [[x []] _].
Qed.

(** Steps that add no event and keep threads, with fewer operations. *)
Lemma inv_fewer : forall W log s ops, inv W log s -> (forall o, In o ops -> In o (b_ops s)) ->
  inv W log (mkB (b_mem s) ops (b_thr s) (b_next s)).
Proof. intros W log s ops [] H. constructor; simpl; eauto. Qed.

Lemma inv_memory : forall W log s m, inv W log s ->
  (forall n i c b, lends log n i c b -> reads i c b -> m b = b_mem s b) ->
  inv W log (mkB m (b_ops s) (b_thr s) (b_next s)).
Proof.
  intros W log s m [] H. constructor; simpl; eauto.
  intros n i c m0 b H1 H2 H3. rewrite (H n i c b H2 H3). eauto.
Qed.

(** Accesses by MPI leave a mark in the log only. *)
Definition mark (e : bev) : Prop := match e with EGot _ _ _ | EWrote _ _ _ => True | _ => False end.
Lemma mark_call : forall log e n i c m, mark e -> In (ECall n i c m) (log ++ [e]) -> In (ECall n i c m) log.
Proof. intros log e n i c m He H. apply in_app_or in H. destruct H as [H|[->|[]]]; [exact H|destruct He]. Qed.
Lemma mark_ret : forall log e n, mark e -> In (ERet n) (log ++ [e]) -> In (ERet n) log.
Proof. intros log e n He H. apply in_app_or in H. destruct H as [H|[->|[]]]; [exact H|destruct He]. Qed.

Lemma inv_mark : forall W log s e, inv W log s -> mark e -> inv W (log ++ [e]) s.
Proof.
  intros W log s e I He.
  assert (HL : forall n i c b, lends (log ++ [e]) n i c b -> lends log n i c b).
  { intros n i c b. apply lends_mono. intros m [->|[]]. destruct He. }
  assert (HQ : forall n, quieted (log ++ [e]) n -> quieted log n).
  { intros n H. apply quieted_snoc in H; [exact H| |].
    - intros q ->. destruct He.
    - intros q i c m ->. destruct He. }
  constructor.
  - intros n i c m H. apply mark_call in H; [|exact He]. eapply i_next; eauto.
  - intros n i c m i' c' m' H1 H2. apply mark_call in H1; [|exact He]. apply mark_call in H2; [|exact He].
    eapply i_uniq; eauto.
  - intros n H. apply mark_ret in H; [|exact He]. destruct (i_retc _ _ _ I n H) as (i & c & m & X).
    exists i, c, m. apply in_or_app. now left.
  - intros i n c r H. destruct (i_thr _ _ _ I _ _ _ _ H) as [[m A] [B C]]. split; [|split; [|exact C]].
    + exists m. apply in_or_app. now left.
    + intros X. apply B. eapply mark_ret; eauto.
  - intros n i c m H1 H2. apply mark_call in H1; [|exact He]. eapply i_run; eauto.
    intros X. apply H2. apply in_or_app. now left.
  - intros o Ho. destruct (i_op _ _ _ I o Ho) as (i & c & m & A & B & C). exists i, c, m.
    split; [apply in_or_app; now left|]. split; [exact B|]. destruct C as [C|[C D]]; [now left|right].
    split; [exact C|]. intros X. apply D. now apply HQ.
  - intros i q ts r o w t l1 l2 i' ts' m' H1 H2 H3 H4 H5.
    destruct (snoc_split _ _ _ _ _ _ H4) as [[-> [-> _]]|[l2' [-> E]]]; [destruct He|].
    apply mark_call in H5; [|exact He]. exact (i_quiet _ _ _ I i q ts r o w t l1 l2' i' ts' m' H1 H2 H3 E H5).
  - intros n i c m b H1 H2 H3. apply mark_call in H1; [|exact He]. eapply i_mem; eauto.
  - intros n i c n' i' c' a H1 H2. eapply i_excl; eauto.
Qed.

Lemma set_mem_other : forall m b v x, x <> b -> set_mem m b v x = m x.
Proof.
  intros m b v x H. unfold set_mem. destruct (buf_eqb b x) eqn:E; [|reflexivity].
  apply buf_eqb_eq in E. congruence.
Qed.

Lemma in_drop : forall (A : Type) (l : list A) k x, In x (drop_nth k l) -> In x l.
Proof.
  induction l as [|y l IH]; intros k x H; [destruct k; exact H|].
  destruct k; simpl in H; [now right|]. destruct H as [H|H]; [now left|right; eauto].
Qed.

Lemma inv_call : forall W log s i c f, inv W log s -> allowed W log (LCall i c f) -> b_thr s i = None ->
  inv W (log ++ [ECall (b_next s) i c (set_locals (b_mem s) i f)])
    (mkB (set_locals (b_mem s) i f) (b_ops s) (set_thr s i (Some (b_next s, c, steps W i c))) (b_next s + 1)).
Proof.
  intros W log s i c f I [HW [HD HA]] Ht. set (N := b_next s). set (M := set_locals (b_mem s) i f).
  set (e := ECall N i c M).
  assert (Hret : forall n, In (ERet n) (log ++ [e]) -> In (ERet n) log).
  { intros n H. apply in_app_or in H. destruct H as [H|[H|[]]]; [exact H|discriminate H]. }
  assert (HNr : ~ In (ERet N) log).
  { intros H. destruct (i_retc _ _ _ I N H) as (i' & c' & m & X). apply (i_next _ _ _ I) in X. unfold N in X. lia. }
  assert (Hcall : forall n i' c' m', In (ECall n i' c' m') (log ++ [e]) ->
            (In (ECall n i' c' m') log /\ n < N) \/ (n = N /\ i' = i /\ c' = c /\ m' = M)).
  { intros n i' c' m' H. apply in_app_or in H. destruct H as [H|[H|[]]].
    - left. split; [exact H|]. eapply i_next; eauto.
    - right. unfold e in H. inversion H; subst. auto. }
  assert (HQ : forall n, quieted (log ++ [e]) n -> quieted log n).
  { intros n H. apply quieted_snoc in H; [exact H|discriminate|].
    intros q i' c' m H'. unfold e in H'. inversion H'; subst. exact HNr. }
  assert (HL : forall n i' c' b, lends (log ++ [e]) n i' c' b ->
            (lends log n i' c' b /\ n < N) \/ (n = N /\ i' = i /\ c' = c)).
  { intros n i' c' b H. destruct (proj1 H) as [m X]. destruct (Hcall _ _ _ _ X) as [[X1 X2]|X1]; [left|right; tauto].
    split; [|exact X2]. destruct H as [_ H]. split; [eauto|]. destruct H as [H|[H1 [H2 H3]]].
    - left. intros Y. apply H. apply in_or_app. now left.
    - right. repeat split; try assumption. intros Y. apply H3. now apply quieted_app. }
  constructor; cbn [b_mem b_ops b_thr b_next].
  - intros n i' c' m' H. destruct (Hcall _ _ _ _ H) as [[_ H1]|[-> _]]; unfold N in *; lia.
  - intros n i1 c1 m1 i2 c2 m2 H1 H2. destruct (Hcall _ _ _ _ H1) as [[A1 A2]|(A1 & A2 & A3 & A4)];
      destruct (Hcall _ _ _ _ H2) as [[B1 B2]|(B1 & B2 & B3 & B4)]; subst; try lia; try tauto.
    eapply i_uniq; eauto.
  - intros n H. apply Hret in H. destruct (i_retc _ _ _ I n H) as (i' & c' & m & X). exists i', c', m.
    apply in_or_app. now left.
  - intros i' n c' r H. unfold set_thr in H. destruct (i' =? i) eqn:E.
    + apply Z.eqb_eq in E. inversion H; subst. split; [exists M; apply in_or_app; right; now left|].
      split; [intros X; now apply Hret in X|now apply wf_steps].
    + destruct (i_thr _ _ _ I _ _ _ _ H) as [[m A] [B C]]. split; [exists m; apply in_or_app; now left|].
      split; [|exact C]. intros X. apply B. now apply Hret.
  - intros n i' c' m' H1 H2. unfold set_thr. destruct (Hcall _ _ _ _ H1) as [[A1 A2]|(A1 & A2 & A3 & A4)].
    + assert (X : ~ In (ERet n) log) by (intros X; apply H2; apply in_or_app; now left).
      destruct (i_run _ _ _ I _ _ _ _ A1 X) as [r Hr].
      destruct (i' =? i) eqn:E; [apply Z.eqb_eq in E; subst; congruence|eauto].
    + subst. rewrite Z.eqb_refl. eauto.
  - intros o Ho. destruct (i_op _ _ _ I o Ho) as (i' & c' & m & A & B & C). exists i', c', m.
    split; [apply in_or_app; now left|]. split; [exact B|]. destruct C as [[r [C1 C2]]|[C D]].
    + left. exists r. split; [|exact C2]. unfold set_thr.
      destruct (i' =? i) eqn:E; [apply Z.eqb_eq in E; subst; congruence|exact C1].
    + right. split; [exact C|]. intros X. apply D. now apply HQ.
  - intros i' q ts r o w t l1 l2 i2 ts2 m2 H1 H2 H3 H4 H5.
    destruct (snoc_split _ _ _ _ _ _ H4) as [[-> _]|[l2' [-> E]]]; [destruct H5|].
    assert (Hr : In (ERet (op_call o)) log) by (rewrite E; apply in_or_app; right; now left).
    unfold set_thr in H1. destruct (i' =? i) eqn:Ei.
    + inversion H1; subst. destruct (i_op _ _ _ I o H2) as (i3 & c3 & m3 & A & B & C).
      destruct C as [[r3 [C1 _]]|[(_ & _ & _ & w' & t' & C1 & C2) _]].
      * apply (i_thr _ _ _ I) in C1. tauto.
      * rewrite H3 in C1. injection C1 as <- <-. cbn [steps]. apply in_or_app. left. now apply in_map.
    + apply in_app_or in H5. destruct H5 as [H5|[H5|[]]].
      * exact (i_quiet _ _ _ I i' q ts r o w t l1 l2' i2 ts2 m2 H1 H2 H3 E H5).
      * unfold e in H5. inversion H5; subst q. destruct (i_thr _ _ _ I _ _ _ _ H1) as [[m A] _].
        apply (i_next _ _ _ I) in A. unfold N in A. lia.
  - intros n i' c' m' b H1 H2 H3. destruct (Hcall _ _ _ _ H1) as [[A1 A2]|(A1 & A2 & A3 & A4)]; [|now subst].
    destruct (HL _ _ _ _ H2) as [[B1 _]|[B1 _]]; [|lia].
    rewrite <- (i_mem _ _ _ I _ _ _ _ _ A1 B1 H3). unfold M, set_locals. destruct b as [a|k j]; [reflexivity|].
    destruct (k =? i) eqn:E; [|reflexivity]. apply Z.eqb_eq in E. destruct H3 as [H3 _]. subst.
    destruct B1 as [_ [B1|[_ [[a B1] _]]]]; [|discriminate B1].
    destruct (i_run _ _ _ I _ _ _ _ A1 B1) as [r Hr]. congruence.
  - intros n i1 c1 n' i2 c2 a H1 H2 H3 H4.
    destruct (HL _ _ _ _ H1) as [[A1 _]|(A1 & A2 & A3)]; destruct (HL _ _ _ _ H2) as [[B1 _]|(B1 & B2 & B3)]; subst.
    + exact (i_excl _ _ _ I _ _ _ _ _ _ _ A1 B1 H3 H4).
    + destruct (HA _ _ _ _ A1) as [X _]. now apply (X H4).
    + destruct (HA _ _ _ _ B1) as [_ X]. now apply (proj2 (X H3)).
    + exact (HD a H3 H4).
Qed.

Lemma inv_ret : forall W log s i n c, inv W log s -> b_thr s i = Some (n, c, []) ->
  inv W (log ++ [ERet n]) (mkB (b_mem s) (b_ops s) (set_thr s i None) (b_next s)).
Proof.
  intros W log s i n c I Ht. destruct (i_thr _ _ _ I _ _ _ _ Ht) as [[m Hm] [Hnr _]].
  assert (Hcall : forall k i' c' m', In (ECall k i' c' m') (log ++ [ERet n]) -> In (ECall k i' c' m') log).
  { intros k i' c' m' H. apply in_app_or in H. destruct H as [H|[H|[]]]; [exact H|discriminate H]. }
  assert (HL : forall k i' c' b, lends (log ++ [ERet n]) k i' c' b -> lends log k i' c' b).
  { intros k i' c' b. apply lends_mono. intros m' [X|[]]. discriminate X. }
  assert (HT : forall j k c' r, set_thr s i None j = Some (k, c', r) -> b_thr s j = Some (k, c', r) /\ j <> i).
  { intros j k c' r H. unfold set_thr in H. destruct (j =? i) eqn:E; [discriminate H|].
    apply Z.eqb_neq in E. auto. }
  constructor; cbn [b_mem b_ops b_thr b_next].
  - intros k i' c' m' H. apply Hcall in H. eapply i_next; eauto.
  - intros k i1 c1 m1 i2 c2 m2 H1 H2. apply Hcall in H1, H2. eapply i_uniq; eauto.
  - intros k H. apply in_app_or in H. destruct H as [H|[H|[]]].
    + destruct (i_retc _ _ _ I k H) as (i' & c' & m' & X). exists i', c', m'. apply in_or_app. now left.
    + injection H as <-. exists i, c, m. apply in_or_app. now left.
  - intros j k c' r H. destruct (HT _ _ _ _ H) as [H1 H2].
    destruct (i_thr _ _ _ I _ _ _ _ H1) as [[m' A] [B C]]. split; [exists m'; apply in_or_app; now left|].
    split; [|exact C]. intros X. apply in_app_or in X. destruct X as [X|[X|[]]]; [now apply B|].
    injection X as <-. destruct (i_uniq _ _ _ I _ _ _ _ _ _ _ Hm A) as [Y _]. congruence.
  - intros k i' c' m' H1 H2. apply Hcall in H1.
    assert (X : ~ In (ERet k) log) by (intros X; apply H2; apply in_or_app; now left).
    destruct (i_run _ _ _ I _ _ _ _ H1 X) as [r Hr]. unfold set_thr. destruct (i' =? i) eqn:E; [|eauto].
    apply Z.eqb_eq in E. subst. rewrite Ht in Hr. inversion Hr; subst. exfalso. apply H2.
    apply in_or_app. right. now left.
  - intros o Ho. destruct (i_op _ _ _ I o Ho) as (i' & c' & m' & A & B & C). exists i', c', m'.
    split; [apply in_or_app; now left|]. split; [exact B|]. destruct C as [[r [C1 C2]]|[C D]].
    + left. exists r. split; [|exact C2]. unfold set_thr. destruct (i' =? i) eqn:E; [|exact C1].
      apply Z.eqb_eq in E. subst. rewrite Ht in C1. inversion C1; subst. destruct C2 as [x [[] _]].
    + right. split; [exact C|]. intros X. apply quieted_ret in X. destruct X as [X|X]; [now apply D|].
      destruct X as (l1 & l2 & i2 & ts & m2 & E & X).
      assert (Y : In (ECall n i2 (CQuiet ts) m2) log) by (rewrite E; apply in_or_app; right; now right).
      destruct (i_uniq _ _ _ I _ _ _ _ _ _ _ Hm Y) as [_ [Y1 _]]. subst c.
      destruct C as (_ & _ & _ & w & t & C1 & _).
      destruct (i_quiet _ _ _ I i n ts [] o w t l1 l2 i2 ts m2 Ht Ho C1 E X).
  - intros j q ts r o w t l1 l2 i2 ts2 m2 H1 H2 H3 H4 H5. destruct (HT _ _ _ _ H1) as [H1' _].
    destruct (snoc_split _ _ _ _ _ _ H4) as [[-> _]|[l2' [-> E]]]; [destruct H5|].
    apply in_app_or in H5. destruct H5 as [H5|[H5|[]]]; [|discriminate H5].
    exact (i_quiet _ _ _ I j q ts r o w t l1 l2' i2 ts2 m2 H1' H2 H3 E H5).
  - intros k i' c' m' b H1 H2 H3. apply Hcall in H1. eapply i_mem; eauto.
  - intros k i1 c1 k' i2 c2 a H1 H2. eapply i_excl; eauto.
Qed.

Lemma inv_go : forall W log s i n c st r, inv W log s -> b_thr s i = Some (n, c, st :: r) ->
  inv W log (mkB (b_mem s) (filter (fun o => negb (closes n st (op_key o))) (b_ops s) ++ starts n st)
               (set_thr s i (Some (n, c, r))) (b_next s)).
Proof.
  intros W log s i n c st r I Ht. destruct (i_thr _ _ _ I _ _ _ _ Ht) as [[m Hm] [Hnr [Hst Hwf]]].
  constructor; cbn [b_mem b_ops b_thr b_next].
  - apply I.
  - apply I.
  - apply I.
  - intros j k c' r' H. unfold set_thr in H. destruct (j =? i) eqn:E; [|now apply I].
    apply Z.eqb_eq in E. inversion H; subst. eauto.
  - intros k i' c' m' H1 H2. destruct (i_run _ _ _ I _ _ _ _ H1 H2) as [r' Hr]. unfold set_thr.
    destruct (i' =? i) eqn:E; [|eauto]. apply Z.eqb_eq in E. subst. rewrite Ht in Hr. inversion Hr; subst. eauto.
  - intros o Ho. apply in_app_or in Ho. destruct Ho as [Ho|Ho].
    + apply filter_In in Ho. destruct Ho as [Ho Hc]. destruct (i_op _ _ _ I o Ho) as (i' & c' & m' & A & B & C).
      exists i', c', m'. split; [exact A|]. split; [exact B|]. destruct C as [[r' [C1 C2]]|C]; [left|now right].
      unfold set_thr. destruct (i' =? i) eqn:E; [|eauto]. apply Z.eqb_eq in E. subst. rewrite Ht in C1.
      inversion C1; subst. exists r. split; [reflexivity|]. destruct C2 as [x [[->|X1] X2]]; [|exists x; auto].
      rewrite X2 in Hc. discriminate Hc.
    + destruct (Hst o Ho) as [E [F G]]. exists i, c, m. rewrite E in *. split; [exact Hm|]. split; [exact F|].
      destruct G as [G|G]; [left; exists r; unfold set_thr; rewrite Z.eqb_refl; auto|right].
      split; [exact G|]. intros (l1 & l2 & q & i2 & ts & m2 & X & _). apply Hnr. rewrite X.
      apply in_or_app. right. now left.
  - intros j q ts r' o w t l1 l2 i2 ts2 m2 H1 H2 H3 H4 H5.
    assert (Hr : In (ERet (op_call o)) log) by (rewrite H4; apply in_or_app; right; now left).
    apply in_app_or in H2. destruct H2 as [H2|H2].
    2:{ destruct (Hst o H2) as [E _]. rewrite E in Hr. contradiction. }
    apply filter_In in H2. destruct H2 as [H2 Hc]. unfold set_thr in H1. destruct (j =? i) eqn:E.
    + apply Z.eqb_eq in E. inversion H1; subst.
      assert (X : In (SFlushAll w) (st :: r')) by (eapply (i_quiet _ _ _ I i q ts); eauto).
      destruct X as [->|X]; [|exact X]. rewrite H3 in Hc. simpl in Hc. rewrite Z.eqb_refl in Hc. discriminate Hc.
    + eapply i_quiet; eauto.
  - apply I.
  - apply I.
Qed.

Lemma inv_step : forall W log s lb s' ev, inv W log s -> allowed W log lb -> bgo W s lb = (s', ev) ->
  inv W (log ++ ev) s'.
Proof.
  intros W log s lb s' ev I HA H.
  assert (Hsame : (s, []) = (s', ev) -> inv W (log ++ ev) s').
  { intros X. injection X as <- <-. rewrite app_nil_r. exact I. }
  destruct lb as [i c f|i|k b|k b v|k|b v]; cbn [bgo] in H.
  - destruct (b_thr s i) eqn:Ht; [now apply Hsame|]. injection H as <- <-. now apply inv_call.
  - destruct (b_thr s i) as [[[n c] [|st r]]|] eqn:Ht; [| |now apply Hsame]; injection H as <- <-.
    + eapply inv_ret; eauto.
    + rewrite app_nil_r. now apply inv_go.
  - destruct (nth_error (b_ops s) k) as [o|] eqn:Ho; [|now apply Hsame].
    destruct (existsb (buf_eqb b) (op_src o)); [|now apply Hsame]. injection H as <- <-.
    apply inv_mark; [exact I|simpl; exact Logic.I].
  - destruct (nth_error (b_ops s) k) as [o|] eqn:Ho; [|now apply Hsame].
    destruct (existsb (buf_eqb b) (op_dst o)) eqn:Hb; [|now apply Hsame]. injection H as <- <-.
    apply inv_mark; [|simpl; exact Logic.I]. apply existsb_buf in Hb. apply nth_error_In in Ho.
    destruct (op_lends _ _ _ _ I Ho) as (i & c & m & A & [_ B] & C).
    apply inv_memory; [exact I|]. intros n i' c' b' HL HR. apply set_mem_other. intros ->.
    specialize (B b Hb). specialize (C b (or_intror Hb)). destruct b as [a|k' j]; simpl in B, HR.
    + exact (i_excl _ _ _ I _ _ _ _ _ _ _ C HL B HR).
    + destruct B as [_ B]. destruct HR as [_ HR]. congruence.
  - injection H as <- <-. rewrite app_nil_r. apply inv_fewer; [exact I|]. intros o. apply in_drop.
  - injection H as <- <-. rewrite app_nil_r. apply inv_memory; [exact I|].
    intros n i c b' HL HR. apply set_mem_other. intros ->.
    exact (proj1 (HA n i c HL) HR).
Qed.

Lemma inv_run : forall W m0 log s, brun W m0 log s -> inv W log s.
Proof. intros W m0 log s H. induction H; [apply inv_init|eapply inv_step; eauto]. Qed.

Lemma ev_one : forall W s lb s' ev, bgo W s lb = (s', ev) -> ev = [] \/ exists e, ev = [e].
Proof.
  intros W s lb s' ev H. destruct lb as [i c f|i|k b|k b v|k|b v]; cbn [bgo] in H;
    repeat match type of H with
    | context [match ?x with _ => _ end] => destruct x
    end; injection H as <- <-; eauto.
Qed.

Lemma run_split : forall W m0 log s l1 e l2, brun W m0 log s -> log = l1 ++ e :: l2 ->
  exists s0 lb s1, brun W m0 l1 s0 /\ bgo W s0 lb = (s1, [e]).
Proof.
  intros W m0 log s l1 e l2 H. revert l1 e l2. induction H as [|log s lb s' ev H IH HA Hg]; intros l1 e l2 E.
  - destruct l1; discriminate E.
  - destruct (ev_one _ _ _ _ _ Hg) as [->|[x ->]].
    + rewrite app_nil_r in E. eapply IH; exact E.
    + destruct (snoc_split _ _ _ _ _ _ E) as [[-> [-> ->]]|[l2' [-> E']]]; [eauto|].
      eapply IH; exact E'.
Qed.

Lemma got_call : forall W m0 log s l1 l2 n b v, brun W m0 log s -> log = l1 ++ EGot n b v :: l2 ->
  exists i c m, In (ECall n i c m) l1 /\ (forall i' c' m', In (ECall n i' c' m') log -> i' = i /\ c' = c /\ m' = m) /\
    reads i c b /\ lends l1 n i c b /\ v = m b.
Proof.
  intros W m0 log s l1 l2 n b v H E. destruct (run_split _ _ _ _ _ _ _ H E) as (s0 & lb & s1 & H0 & Hg).
  pose proof (inv_run _ _ _ _ H0) as I. pose proof (inv_run _ _ _ _ H) as J.
  destruct lb as [i c f|i|k b'|k b' v'|k|b' v']; cbn [bgo] in Hg;
    repeat match type of Hg with
    | context [match ?x with _ => _ end] => destruct x eqn:?
    end; try discriminate Hg.
  injection Hg as _ <- <- <-.
  match goal with H : existsb _ _ = true |- _ => apply existsb_buf in H; rename H into Hb end.
  match goal with H : nth_error _ _ = Some _ |- _ => apply nth_error_In in H; rename H into Ho end.
  destruct (op_lends _ _ _ _ I Ho) as (i & c & m & A & [B _] & C). exists i, c, m.
  split; [exact A|]. split.
  - intros i' c' m' X. eapply (i_uniq _ _ _ J); [|exact X]. rewrite E. apply in_or_app. now left.
  - split; [now apply B|]. split; [apply C; now left|]. eapply i_mem; eauto.
Qed.

Lemma wrote_call : forall W m0 log s l1 l2 n b v, brun W m0 log s -> log = l1 ++ EWrote n b v :: l2 ->
  exists i c m, In (ECall n i c m) l1 /\ (forall i' c' m', In (ECall n i' c' m') log -> i' = i /\ c' = c /\ m' = m) /\
    writes i c b /\ lends l1 n i c b.
Proof.
  intros W m0 log s l1 l2 n b v H E. destruct (run_split _ _ _ _ _ _ _ H E) as (s0 & lb & s1 & H0 & Hg).
  pose proof (inv_run _ _ _ _ H0) as I. pose proof (inv_run _ _ _ _ H) as J.
  destruct lb as [i c f|i|k b'|k b' v'|k|b' v']; cbn [bgo] in Hg;
    repeat match type of Hg with
    | context [match ?x with _ => _ end] => destruct x eqn:?
    end; try discriminate Hg.
  injection Hg as _ <- <- <-.
  match goal with H : existsb _ _ = true |- _ => apply existsb_buf in H; rename H into Hb end.
  match goal with H : nth_error _ _ = Some _ |- _ => apply nth_error_In in H; rename H into Ho end.
  destruct (op_lends _ _ _ _ I Ho) as (i & c & m & A & [_ B] & C). exists i, c, m.
  split; [exact A|]. split.
  - intros i' c' m' X. eapply (i_uniq _ _ _ J); [|exact X]. rewrite E. apply in_or_app. now left.
  - split; [now apply B|]. apply C. now right.
Qed.

(** What a cell lent as source holds does not change by what the library or MPI do either. *)
Lemma source_kept : forall W m0 log s n i c m b, brun W m0 log s -> In (ECall n i c m) log ->
  lends log n i c b -> reads i c b -> b_mem s b = m b.
Proof. intros. eapply i_mem; eauto. eapply inv_run; eauto. Qed.

Lemma cell_kept : forall W m0 log s lb s' ev b, brun W m0 log s -> bgo W s lb = (s', ev) ->
  (forall v, lb <> LSet b v) -> (forall c f i j, b = BStack i j -> lb <> LCall i c f) ->
  (forall n i c, lends log n i c b -> ~ writes i c b) -> b_mem s' b = b_mem s b.
Proof.
  intros W m0 log s lb s' ev b H Hg H1 H2 H3. pose proof (inv_run _ _ _ _ H) as I.
  destruct lb as [i c f|i|k b'|k b' v'|k|b' v']; cbn [bgo] in Hg;
    repeat match type of Hg with
    | context [match ?x with _ => _ end] => destruct x eqn:?
    end; injection Hg as <- <-; try reflexivity; cbn [b_mem].
  - unfold set_locals. destruct b as [a|k j]; [reflexivity|]. destruct (k =? i) eqn:E; [|reflexivity].
    apply Z.eqb_eq in E. subst. now destruct (H2 c f i j eq_refl).
  - apply set_mem_other. intros ->.
    match goal with H : existsb _ _ = true |- _ => apply existsb_buf in H; rename H into Hb end.
    match goal with H : nth_error _ _ = Some _ |- _ => apply nth_error_In in H; rename H into Ho end.
    destruct (op_lends _ _ _ _ I Ho) as (i & c & m & A & [_ B] & C).
    apply (H3 _ _ _ (C b' (or_intror Hb))). now apply B.
  - apply set_mem_other. intros ->. now destruct (H1 v').
Qed.
