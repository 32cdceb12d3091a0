(** Library calls: their actions are well formed, and guarded if blocking calls follow shmem_barrier_all. *)
From Coq Require Import Sorted.
From Verif Require Import Base BaseProofs ListLib LockModel LockProofs AmModel AmLiveProofs2 ProgModel ProgSpec ProgProofs.

Lemma kinds_filter cs : kinds cs = kinds (filter is_coll cs).
Proof. unfold kinds. induction cs as [|x cs IH]; [reflexivity|]. simpl. destruct x; simpl; rewrite IH; reflexivity. Qed.
Lemma kinds_app a b : kinds (a ++ b) = kinds a ++ kinds b.
Proof. apply flat_map_app. Qed.

Definition fl (out : list Z) (x : call) : list action := if flushes x then match out with [] => [] | _ => [AOp out] end else [].
Lemma expand_coll out k x r : is_coll x = true ->
  expand out k (x :: r) = fl out x ++ map AColl (seq k (length (phases x))) ++
    expand (if flushes x then [] else out) (k + length (phases x)) r.
Proof. destruct x; try discriminate; intros _; reflexivity. Qed.
Lemma colls_map l : colls (map AColl l) = l.
Proof. induction l as [|x l IH]; [reflexivity|]. simpl. rewrite IH. reflexivity. Qed.
Lemma colls_fl out x : colls (fl out x) = [].
Proof. unfold fl. destruct (flushes x), out; reflexivity. Qed.

Lemma expand_colls cs : forall out k, colls (expand out k cs) = seq k (length (kinds cs)).
Proof.
  induction cs as [|x cs IH]; intros out k; [reflexivity|].
  change (kinds (x :: cs)) with (phases x ++ kinds cs). rewrite app_length, seq_app.
  destruct (is_coll x) eqn:E; [|destruct x; try discriminate; simpl; rewrite IH; f_equal; lia].
  rewrite expand_coll by exact E. rewrite !colls_app, colls_fl, colls_map, IH. reflexivity.
Qed.

Lemma expand_op cs : forall out k a, In a (expand out k cs) ->
  match a with
  | AOp ts => forall t, In t ts -> In t out \/ In (CFetch t) cs \/ In (CPost t) cs
  | APost t => In (CPost t) cs
  | AColl _ => True
  end.
Proof.
  induction cs as [|x cs IH]; intros out k a H; [destruct H|].
  destruct (is_coll x) eqn:E.
  - rewrite expand_coll in H by exact E. apply in_app_or in H. destruct H as [H|H].
    + unfold fl in H. destruct (flushes x); [|destruct H]. destruct out as [|o out]; [destruct H|]. destruct H as [<-|[]]. auto.
    + apply in_app_or in H. destruct H as [H|H].
      * apply in_map_iff in H. destruct H as (j & <- & _). exact I.
      * specialize (IH _ _ _ H). destruct a; auto; [|right; exact IH]. intros t Ht. destruct (IH t Ht) as [F|[F|F]].
        -- destruct (flushes x); [destruct F|left; exact F].
        -- right; left; right; exact F.
        -- right; right; right; exact F.
  - destruct x; try discriminate; simpl in H; destruct H as [<-|H].
    + intros u [->|[]]. right; left; left; reflexivity.
    + specialize (IH _ _ _ H). destruct a; auto; [|right; exact IH]. intros u Hu. destruct (IH u Hu) as [F|[F|F]].
      * left. apply rm_in in F. tauto.
      * right; left; right; exact F.
      * right; right; right; exact F.
    + left; reflexivity.
    + specialize (IH _ _ _ H). destruct a; auto; [|right; exact IH]. intros u Hu. destruct (IH u Hu) as [[F|F]|[F|F]].
      * right; right; left; congruence.
      * left. apply rm_in in F. tauto.
      * right; left; right; exact F.
      * right; right; right; exact F.
Qed.

Lemma expand_app a : forall out k b, exists out', expand out k (a ++ b) = expand out k a ++ expand out' (k + length (kinds a)) b.
Proof.
  induction a as [|x a IH]; intros out k b; [exists out; simpl; rewrite Nat.add_0_r; reflexivity|].
  destruct (is_coll x) eqn:E.
  - destruct (IH (if flushes x then [] else out) (k + length (phases x))%nat b) as (o & H). exists o.
    change ((x :: a) ++ b) with (x :: (a ++ b)). rewrite (expand_coll out k x (a ++ b)), (expand_coll out k x a) by exact E. rewrite H.
    repeat rewrite <- app_assoc. change (kinds (x :: a)) with (phases x ++ kinds a).
    rewrite app_length, Nat.add_assoc. reflexivity.
  - destruct x; try discriminate; simpl; edestruct IH as (o & H); exists o; rewrite H; reflexivity.
Qed.

Section Calls.
Variable n : Z.
Variable cs : Z -> list call.
Hypothesis Hn : 0 < n.
Hypothesis SC : same_calls n cs.

Lemma kinds_eq p : 0 <= p < n -> kinds (cs p) = kinds (cs 0).
Proof. intros H. rewrite (kinds_filter (cs p)), (kinds_filter (cs 0)), (sc_eq _ _ SC p 0) by lia. reflexivity. Qed.

Lemma world_in k p : In p (world n k) <-> 0 <= p < n.
Proof. apply zrange_in. Qed.

Lemma calls_wf : well_formed n (length (kinds (cs 0))) (world n) (actions cs).
Proof.
  constructor.
  - intros p Hp. unfold actions. rewrite (sc_none _ _ SC p Hp). reflexivity.
  - intros k p H. apply world_in in H. exact H.
  - intros p. unfold actions. rewrite expand_colls.
    assert (E : forall k, existsb (Z.eqb p) (world n k) = (0 <=? p) && (p <? n)).
    { intros k. apply eq_true_iff_eq. rewrite existsb_exists, andb_true_iff, Z.leb_le, Z.ltb_lt. split.
      - intros (x & Hx & Ex). apply Z.eqb_eq in Ex. subst x. apply world_in in Hx. exact Hx.
      - intros H. exists p. split; [apply world_in; exact H|apply Z.eqb_refl]. }
    destruct ((0 <=? p) && (p <? n)) eqn:EP.
    + rewrite kinds_eq by (apply andb_true_iff in EP; lia). symmetry.
      induction (seq 0 (length (kinds (cs 0)))) as [|k l IH]; [reflexivity|]. simpl. rewrite E. try rewrite EP. rewrite IH. reflexivity.
    + rewrite (sc_none _ _ SC p) by (intros F; apply andb_false_iff in EP; lia). simpl. symmetry.
      induction (seq 0 (length (kinds (cs 0)))) as [|k l IH]; [reflexivity|]. simpl. rewrite E. try rewrite EP. exact IH.
  - intros p ts H t Ht. pose proof (expand_op _ _ _ _ H t Ht) as [[]|F]. apply (sc_tgt _ _ SC p). exact F.
  - intros p t H. pose proof (expand_op _ _ _ _ H) as F. apply (sc_tgt _ _ SC p). right. exact F.
Qed.

Lemma calls_end : ends_with_barrier n (length (kinds (cs 0))) (world n) (kind_of cs) (actions cs).
Proof.
  destruct (sc_end _ _ SC 0 ltac:(lia)) as (r0 & E0). exists (length (kinds r0)).
  rewrite E0, kinds_app, app_length. simpl. split; [lia|]. split.
  - unfold kind_of. rewrite E0, kinds_app, app_nth2 by lia. rewrite Nat.sub_diag. reflexivity.
  - intros p Hp. split; [apply world_in; exact Hp|]. destruct (sc_end _ _ SC p Hp) as (r & Er). unfold actions. rewrite Er.
    destruct (expand_app r [] 0 [CSyncAll]) as (o & H). rewrite H. exists (expand [] 0 r). simpl.
    assert (L : length (kinds r) = length (kinds r0)); [|rewrite L; reflexivity].
    pose proof (kinds_eq p Hp) as K. rewrite Er, E0, !kinds_app in K. apply (f_equal (@length ckind)) in K. rewrite !app_length in K. simpl in K. lia.
Qed.

(** [b]: the call before was shmem_barrier_all. *)
Definition is_ba (x : call) : bool := match x with CBarrierAll => true | _ => false end.
Fixpoint ab (b : bool) (l : list call) : bool :=
  match l with [] => true | x :: r => (polling_call x || b) && ab (is_ba x) r end.
Lemma ab_of l : forall b, (forall pre x post, l = pre ++ x :: post -> polling_call x = false ->
   (pre = [] /\ b = true) \/ exists pre', pre = pre' ++ [CBarrierAll]) -> ab b l = true.
Proof.
  induction l as [|x l IH]; intros b H; [reflexivity|]. simpl. apply andb_true_iff. split.
  - destruct (polling_call x) eqn:E; [reflexivity|]. destruct (H [] x l eq_refl E) as [[_ ->]|(pre' & F)]; [reflexivity|].
    destruct pre'; discriminate.
  - apply IH. intros pre y post -> Ey. destruct (H (x :: pre) y post eq_refl Ey) as [[F _]|(pre' & F)]; [discriminate|].
    destruct pre' as [|z pre']; injection F as -> F; [left; subst pre; split; reflexivity|right; eauto].
Qed.
Lemma ab_after l : after_barrier l -> ab false l = true.
Proof. intros H. apply ab_of. intros pre x post E Ex. right. exact (H _ _ _ E Ex). Qed.

Lemma of_ab l : forall b pre x post, ab b l = true -> l = pre ++ x :: post -> polling_call x = false ->
   (pre = [] /\ b = true) \/ exists pre', pre = pre' ++ [CBarrierAll].
Proof.
  induction l as [|y l IH]; intros b pre x post H E Hx; [destruct pre; discriminate|].
  simpl in H. apply andb_true_iff in H. destruct H as [H1 H2]. destruct pre as [|z pre]; injection E as <- E.
  - rewrite Hx in H1. left. auto.
  - right. destruct (IH _ _ _ _ H2 E Hx) as [[-> F]|(pre' & ->)]; [|exists (y :: pre'); reflexivity].
    destruct y; try discriminate. exists []. reflexivity.
Qed.
Lemma after_of_ab l : ab false l = true -> after_barrier l.
Proof. intros H pre x post E Hx. destruct (of_ab l false pre x post H E Hx) as [[_ F]|F]; [discriminate|exact F]. Qed.

Lemma phases_poll x i : polling_call x = true -> nth i (phases x) Poll = Poll.
Proof. destruct x as [t|t| | | |[]|[]| | |]; try discriminate; intros _; simpl; destruct i as [|[|i]]; reflexivity. Qed.

Lemma app_inj_mid {X} (A B pre post : list X) x : A ++ B = pre ++ x :: post ->
  (exists C, A = pre ++ x :: C /\ post = C ++ B) \/ (exists C, pre = A ++ C /\ B = C ++ x :: post).
Proof.
  revert pre. induction A as [|a A IH]; intros pre E; [right; exists pre; auto|].
  destruct pre as [|y pre]; simpl in E; injection E as -> E; [left; exists A; subst; auto|].
  destruct (IH pre E) as [(C & -> & ->)|(C & -> & ->)]; [left|right]; exists C; auto.
Qed.
Lemma map_seq_mid k m pre j post : map AColl (seq k m) = pre ++ AColl j :: post ->
  j = (k + length pre)%nat /\ (length pre < m)%nat /\ pre = map AColl (seq k (length pre)).
Proof.
  revert k m. induction pre as [|x pre IH]; intros k m E.
  - destruct m; [discriminate|]. simpl in E. injection E as E _. simpl. repeat split; lia.
  - destruct m; [discriminate|]. simpl in E. injection E as <- E. destruct (IH _ _ E) as (H1 & H2 & H3).
    simpl. repeat split; try lia. f_equal. exact H3.
Qed.
Lemma seq_snoc_map k m : map AColl (seq k (S m)) = map AColl (seq k m) ++ [AColl (k + m)].
Proof. rewrite seq_S, map_app. reflexivity. Qed.

Lemma expand_guarded l : forall b out k0 pre k post,
  ab b l = true -> (b = true -> out = []) -> expand out k0 l = pre ++ AColl k :: post -> nth (k - k0) (kinds l) Poll = Blk -> (k0 <= k)%nat ->
  (b = true /\ pre = [] /\ k = k0) \/ exists j pre', k = S j /\ pre = pre' ++ [AColl j].
Proof.
  induction l as [|x l IH]; intros b out k0 pre k post HA HO E HB Hk; [destruct pre; discriminate|].
  simpl in HA. apply andb_true_iff in HA. destruct HA as [HA1 HA2].
  destruct (is_coll x) eqn:EC.
  - rewrite expand_coll in E by exact EC. change (kinds (x :: l)) with (phases x ++ kinds l) in HB.
    destruct (app_inj_mid _ _ _ _ _ E) as [(C & F & _)|(C & -> & F)].
    { exfalso. assert (In k (colls (fl out x))) by (apply colls_in; rewrite F; apply in_or_app; right; left; reflexivity).
      rewrite colls_fl in H. destruct H. }
    destruct (app_inj_mid _ _ _ _ _ F) as [(D & G & _)|(D & -> & G)].
    + apply map_seq_mid in G. destruct G as (-> & G2 & G3).
      rewrite app_nth1 in HB by lia.
      destruct (polling_call x) eqn:EX; [rewrite phases_poll in HB by exact EX; discriminate|].
      simpl in HA1. subst b. specialize (HO eq_refl). subst out.
      destruct (length C) as [|m] eqn:LC.
      * destruct C; [|discriminate]. left. split; [reflexivity|]. split; [|lia].
        unfold fl. destruct (flushes x); reflexivity.
      * right. exists (k0 + m)%nat, (fl [] x ++ map AColl (seq k0 m)). split; [lia|].
        rewrite G3, seq_snoc_map, app_assoc. reflexivity.
    + assert (Hk2 : (k0 + length (phases x) <= k)%nat).
      { assert (HI : In k (colls (expand (if flushes x then [] else out) (k0 + length (phases x)) l)))
          by (apply colls_in; rewrite G; apply in_or_app; right; left; reflexivity).
        rewrite expand_colls in HI. apply in_seq in HI. lia. }
      rewrite app_nth2 in HB by lia. replace (k - k0 - length (phases x))%nat with (k - (k0 + length (phases x)))%nat in HB by lia.
      assert (HO2 : is_ba x = true -> (if flushes x then [] else out) = []) by (destruct x; try discriminate; reflexivity).
      destruct (IH (is_ba x) _ _ _ _ _ HA2 HO2 G HB Hk2) as [(H1 & H2 & H3)|(j & pre' & -> & ->)].
      * destruct x; try discriminate. right. exists k0, (fl out CBarrierAll). subst D. simpl in *. split; [lia|reflexivity].
      * right. exists j, (fl out x ++ map AColl (seq k0 (length (phases x))) ++ pre'). split; [reflexivity|]. rewrite <- !app_assoc. reflexivity.
  - right. destruct x; try discriminate; simpl in E;
      (destruct pre as [|y pre]; [discriminate|]; injection E as <- E;
       destruct (IH false _ _ _ _ _ HA2 ltac:(discriminate) E HB Hk) as [(H1 & _)|(j & pre' & -> & ->)];
       [discriminate|eexists j, (_ :: pre'); split; reflexivity]).
Qed.

Lemma calls_guarded : (forall p, 0 <= p < n -> after_barrier (cs p)) -> guarded n (world n) (kind_of cs) (actions cs).
Proof.
  intros HA p k pre post E HB.
  assert (Hp : 0 <= p < n).
  { destruct (Z_lt_dec p n), (Z_le_dec 0 p); try lia; unfold actions in E; rewrite (sc_none _ _ SC p) in E by lia; destruct pre; discriminate. }
  unfold kind_of in HB. rewrite <- (kinds_eq p Hp) in HB.
  destruct (expand_guarded (cs p) false [] 0 pre k post (ab_after _ (HA p Hp)) ltac:(discriminate) E) as [(F & _)|(j & pre' & -> & ->)];
    [rewrite Nat.sub_0_r; exact HB|lia|discriminate|].
  exists j, pre'. split; [reflexivity|]. split; [|reflexivity]. intros q Hq. apply world_in. exact Hq.
Qed.
End Calls.

(** ** From the start *)
Lemma prog_no_deadlock async n c mem kd prog ls : well_formed n c mem prog ->
  async = true \/ (guarded n mem kd prog /\ ends_with_barrier n c mem kd prog) ->
  stuck async mem kd (grun async mem kd (q_init prog) ls) -> finished (grun async mem kd (q_init prog) ls).
Proof.
  intros WF M H. eapply no_deadlock; [exact WF| |exact H|exact M]. eapply J_run; [exact WF|]. eapply J_init. exact WF.
Qed.
Lemma prog_bounded async n c mem kd prog : well_formed n c mem prog ->
  exists B, forall ls, all_change async mem kd (q_init prog) ls -> (length ls <= B)%nat.
Proof. intros WF. exists (nu n (q_init prog)). intros ls H. eapply bounded; [exact WF| |exact H]. eapply J_init. exact WF. Qed.
Lemma calls_no_deadlock async n cs ls : 0 < n -> same_calls n cs ->
  async = true \/ (forall p, 0 <= p < n -> after_barrier (cs p)) ->
  stuck async (world n) (kind_of cs) (grun async (world n) (kind_of cs) (q_init (actions cs)) ls) ->
  finished (grun async (world n) (kind_of cs) (q_init (actions cs)) ls).
Proof.
  intros Hn SC M H. eapply prog_no_deadlock; [apply calls_wf; assumption| |exact H].
  destruct M as [M|M]; [left; exact M|right]. split; [apply calls_guarded; assumption|apply calls_end; assumption].
Qed.
