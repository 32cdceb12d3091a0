From Verif Require Import Base BaseProofs ListLib LockModel LockProofs AmModel.
Require Import Permutation.

Lemma fset2_eq {X} (f : Z -> Z -> X) p q x : fset2 f p q x p q = x.
Proof. unfold fset2. rewrite !fset_eq. reflexivity. Qed.
Lemma fset2_ne {X} (f : Z -> Z -> X) p q x p' q' : p' <> p \/ q' <> q -> fset2 f p q x p' q' = f p' q'.
Proof.
  intros H. unfold fset2. destruct (Z.eq_dec p' p) as [->|Hp]; [|rewrite fset_ne by exact Hp; reflexivity].
  rewrite fset_eq. apply fset_ne. tauto.
Qed.
Lemma fset2_row {X} (f : Z -> Z -> X) p q x p' : p' <> p -> fset2 f p q x p' = f p'.
Proof. intros H. unfold fset2. apply fset_ne. exact H. Qed.
Lemma fset2_same {X} (f : Z -> Z -> X) p q x : fset2 f p q x p = fset (f p) q x.
Proof. unfold fset2. apply fset_eq. Qed.

Lemma NoDup_app_intro {X} (a b : list X) : NoDup a -> NoDup b -> (forall x, In x a -> ~ In x b) -> NoDup (a ++ b).
Proof.
  induction a as [|x a IH]; intros Ha Hb H; simpl; [exact Hb|]. inversion Ha; subst. constructor.
  - rewrite in_app_iff. intros [F|F]; [contradiction|]. apply (H x); [left; reflexivity|exact F].
  - apply IH; auto. intros y Hy. apply H. right. exact Hy.
Qed.
Lemma NoDup_app_remove_l {X} (a b : list X) : NoDup (a ++ b) -> NoDup b.
Proof. induction a as [|x a IH]; simpl; intros H; [exact H|]. inversion H; subst. auto. Qed.

Section AmProofs.
Variables A D M R : Type.
Variable exec : A -> option D -> M -> outcome (M * R).
Variable ub : Z.
Variable n : Z.
Variable m0 : Z -> M.
Notation req := (req A D).
Notation msg := (msg A D).
Notation amsg := (amsg A D R).
Notation tst := (tst A D R).
Notation ast := (ast A D M R).

(** ** Views *)

Definition htag (m : msg) : list Z :=
  match m with
  | MH (HReq g r) => match rq_kind r with KPost => [] | _ => [g] end
  | MH (HFlush g) => [g]
  | _ => []
  end.
Definition htags (c : list msg) : list Z := flat_map htag c.
Definition hreq (m : msg) : list req := match m with MH (HReq g r) => [r] | _ => [] end.
Definition hreqs (c : list msg) : list req := flat_map hreq c.

Inductive cbv : Type := CN | CR (g : Z) (r : req) | CA (r : req).
Definition cbp (x : cbst A D) (p : Z) : cbv :=
  match x with
  | CbRecv q g r => if q =? p then CR g r else CN
  | CbAbort q r => if q =? p then CA r else CN
  | _ => CN
  end.
Definition cbreqs (v : cbv) : list req := match v with CN => [] | CR _ r => [r] | CA r => [r] end.
Definition cbtag (v : cbv) : list Z := match v with CR g _ => [g] | _ => [] end.
Definition cbopen (v : cbv) : list (Z * D) :=
  match v with CR g r => match rq_data r with Some d => [(g, d)] | None => [] end | _ => [] end.
Definition flight (v : cbv) (c : list msg) (k : list amsg) : list Z := cbtag v ++ htags c ++ map fst k.

(** Headers and payloads of one channel: an open header is one whose payload has not been seen. *)
Inductive scan : list (Z * D) -> list msg -> list (Z * D) -> Prop :=
| sc_nil S : scan S [] S
| sc_put g r d S c S' : rq_kind r = KPut -> rq_data r = Some d -> scan ((g, d) :: S) c S' ->
    scan S (MH (HReq g r) :: c) S'
| sc_req g r S c S' : rq_kind r <> KPut -> scan S c S' -> scan S (MH (HReq g r) :: c) S'
| sc_flush g S c S' : scan S c S' -> scan S (MH (HFlush g) :: c) S'
| sc_term S c S' : scan S c S' -> scan S (MH HTerm :: c) S'
| sc_data g d S1 S2 c S' : scan (S1 ++ S2) c S' -> scan (S1 ++ (g, d) :: S2) (MD g d :: c) S'.

Lemma scan_snoc_data S c S1 g d S2 : scan S c (S1 ++ (g, d) :: S2) -> scan S (c ++ [MD g d]) (S1 ++ S2).
Proof.
  remember (S1 ++ (g, d) :: S2) as S' eqn:E. intros H. revert E.
  induction H; intros ->; simpl; [|eapply sc_put; eauto|apply sc_req; auto|apply sc_flush; auto|apply sc_term; auto|apply sc_data; auto].
  apply sc_data. constructor.
Qed.
Lemma scan_snoc_put S c S' g r d : rq_kind r = KPut -> rq_data r = Some d -> scan S c S' ->
  scan S (c ++ [MH (HReq g r)]) ((g, d) :: S').
Proof.
  intros K E H. induction H; simpl; [|eapply sc_put; eauto|apply sc_req; auto|apply sc_flush; auto|apply sc_term; auto|apply sc_data; auto].
  eapply sc_put; eauto. constructor.
Qed.
Lemma scan_snoc_req S c S' g r : rq_kind r <> KPut -> scan S c S' -> scan S (c ++ [MH (HReq g r)]) S'.
Proof.
  intros K H. induction H; simpl; [|eapply sc_put; eauto|apply sc_req; auto|apply sc_flush; auto|apply sc_term; auto|apply sc_data; auto].
  apply sc_req; auto. constructor.
Qed.
Lemma scan_snoc_flush S c S' g : scan S c S' -> scan S (c ++ [MH (HFlush g)]) S'.
Proof.
  intros H. induction H; simpl; [|eapply sc_put; eauto|apply sc_req; auto|apply sc_flush; auto|apply sc_term; auto|apply sc_data; auto].
  apply sc_flush. constructor.
Qed.
Lemma scan_snoc_term S c S' : scan S c S' -> scan S (c ++ [MH HTerm]) S'.
Proof.
  intros H. induction H; simpl; [|eapply sc_put; eauto|apply sc_req; auto|apply sc_flush; auto|apply sc_term; auto|apply sc_data; auto].
  apply sc_term. constructor.
Qed.

Lemma scan_head any c S' m c' : scan [] c S' -> take_hdr any c = Some (m, c') ->
  exists h, m = MH h /\ c = MH h :: c'.
Proof.
  intros H E. destruct c as [|[h|g d] c2]; [discriminate| |].
  - simpl in E. injection E as <- <-. eauto.
  - exfalso. inversion H as [| | | | |? ? S1 S2 ? ? HS E1]. destruct S1; discriminate.
Qed.

Lemma scan_take c : forall S1 g d S2 S' d' c',
  scan (S1 ++ (g, d) :: S2) c S' -> ~ In g (map fst (S1 ++ S2)) -> ~ In g (htags c) ->
  take_data g c = Some (d', c') -> d' = d /\ scan (S1 ++ S2) c' S'.
Proof.
  induction c as [|m c IH]; intros S1 g d S2 S' d' c' H F1 F2 E; [discriminate|].
  destruct m as [h|g2 d2].
  - simpl in E. destruct (take_data g c) as [[x r']|] eqn:E2; [|discriminate]. injection E as <- <-.
    unfold htags in F2. simpl in F2. rewrite in_app_iff in F2.
    inversion H as [|g3 r3 d3 ? ? ? K3 D3 HS|g3 r3 ? ? ? K3 HS|? ? ? ? HS|? ? ? HS|]; subst.
    + rewrite app_comm_cons in HS. destruct (fun a b => IH _ _ _ _ _ _ _ HS a b E2) as [-> HS'].
      * simpl. intros [->|F]; [|exact (F1 F)]. apply F2. left. simpl. rewrite K3. left. reflexivity.
      * intros F. apply F2. right. exact F.
      * split; [reflexivity|]. simpl in HS'. eapply sc_put; eauto.
    + destruct (fun b => IH _ _ _ _ _ _ _ HS F1 b E2) as [-> HS'].
      * intros F. apply F2. right. exact F.
      * split; [reflexivity|]. apply sc_req; auto.
    + destruct (fun b => IH _ _ _ _ _ _ _ HS F1 b E2) as [-> HS'].
      * intros F. apply F2. right. exact F.
      * split; [reflexivity|]. apply sc_flush; auto.
    + destruct (fun b => IH _ _ _ _ _ _ _ HS F1 b E2) as [-> HS'].
      * intros F. apply F2. right. exact F.
      * split; [reflexivity|]. apply sc_term; auto.
  - inversion H as [| | | | |g3 d3 T1 T2 ? ? HS E1]; subst.
    simpl in E. destruct (Z.eqb_spec g2 g) as [->|Hg].
    + injection E as <- <-.
      assert (In (g, d2) (S1 ++ (g, d) :: S2)) as HI by (rewrite <- E1; apply in_or_app; right; left; reflexivity).
      apply in_app_or in HI. destruct HI as [HI|[HI|HI]].
      * exfalso. apply F1. rewrite map_app, in_app_iff. left. apply (in_map fst) in HI. exact HI.
      * injection HI as ->. split; [reflexivity|].
        assert (T1 = S1 /\ T2 = S2) as [-> ->]; [|exact HS].
        clear - E1 F1. revert S1 E1 F1. induction T1 as [|[a b] T1 IH]; intros [|[a2 b2] S1] E1 F1; simpl in *.
        -- injection E1 as ->. auto.
        -- injection E1 as -> -> ->. exfalso. apply F1. left. reflexivity.
        -- injection E1 as -> -> <-. exfalso. apply F1.
           (* the pair occurs in S2 = T1 ++ (g,d2) :: T2 *) rewrite map_app, in_app_iff. right. left. reflexivity.
        -- injection E1 as -> -> E1. destruct (IH S1 E1) as [-> ->]; [tauto|auto].
      * exfalso. apply F1. rewrite map_app, in_app_iff. right. apply (in_map fst) in HI. exact HI.
    + destruct (take_data g c) as [[x r']|] eqn:E2; [|discriminate]. injection E as <- <-.
      unfold htags in F2. simpl in F2.
      (* split of S1 ++ (g,d) :: S2 at (g2,d2) *)
      assert (HX : exists U1 U2, T1 ++ T2 = U1 ++ (g, d) :: U2 /\
               exists V1 V2, U1 ++ U2 = V1 ++ V2 /\ S1 ++ S2 = V1 ++ (g2, d2) :: V2).
      { clear - E1 Hg. revert S1 E1. induction T1 as [|[a b] T1 IH]; intros [|[a2 b2] S1] E1; simpl in *.
        - injection E1 as -> -> _. contradiction.
        - injection E1 as -> -> ->. exists S1, S2. split; [reflexivity|]. exists [], (S1 ++ S2). split; reflexivity.
        - injection E1 as -> -> <-. exists [], (T1 ++ T2). split; [reflexivity|]. exists T1, T2. split; reflexivity.
        - injection E1 as -> -> E1. destruct (IH S1 E1) as (U1 & U2 & -> & V1 & V2 & EU & ->).
          exists ((a2, b2) :: U1), U2. split; [reflexivity|]. exists ((a2, b2) :: V1), V2. simpl. rewrite EU. split; reflexivity. }
      destruct HX as (U1 & U2 & EU & V1 & V2 & EV & EW).
      rewrite EU in HS. destruct (fun a b => IH _ _ _ _ _ _ _ HS a b E2) as [-> HS'].
      * intros F. apply F1. rewrite EV in F. rewrite EW. rewrite map_app, in_app_iff in *. simpl. tauto.
      * exact F2.
      * split; [reflexivity|]. rewrite EW. apply sc_data. rewrite <- EV. exact HS'.
Qed.

(** What a thread is doing with respect to target [t]. *)
Definition dat (x : tst) (t : Z) : option (Z * D) :=
  match x with
  | TData t' g r => if t' =? t then match rq_data r with Some d => Some (g, d) | None => None end else None
  | _ => None
  end.
Definition waiton (x : tst) (t : Z) : option (Z * option req) :=
  match x with
  | TAck t' g r => if t' =? t then Some (g, Some r) else None
  | TFSend _ g w _ => if mem_z t w then Some (g, None) else None
  | TFWait w g _ => if mem_z t w then Some (g, None) else None
  | _ => None
  end.
Definition fresh (x : tst) (t : Z) : option Z :=
  match x with
  | TTag _ g _ => Some g
  | TFSend _ g w _ => if mem_z t w then None else Some g
  | _ => None
  end.
Definition ttag (x : tst) : option Z :=
  match x with
  | TTag _ g _ | TData _ g _ | TAck _ g _ | TFSend _ g _ _ | TFWait _ g _ => Some g
  | _ => None
  end.
Definition thr_ok (x : tst) : Prop :=
  match x with
  | TTag _ _ r => req_ok r = true /\ rq_kind r <> KPost
  | TData _ _ r => req_ok r = true /\ rq_kind r = KPut
  | TAck _ _ r => req_ok r = true /\ rq_kind r = KFetch
  | TFSend todo _ w _ => NoDup (w ++ todo)
  | TFWait w _ _ => NoDup w
  | TFCount _ ps => NoDup ps
  | _ => True
  end.

Definition infl_m (m : msg) (x : Z * option req) : Prop :=
  match m with
  | MH (HReq g r) => rq_kind r = KFetch /\ x = (g, Some r)
  | MH (HFlush g) => x = (g, None)
  | _ => False
  end.
Definition infl_a (a : amsg) (x : Z * option req) : Prop :=
  match a with (g, Some (r, _)) => x = (g, Some r) | (g, None) => x = (g, None) end.
Definition infl (c : list msg) (k : list amsg) (x : Z * option req) : Prop :=
  (exists m, In m c /\ infl_m m x) \/ (exists a, In a k /\ infl_a a x).

(** Requests of [p] handled by a PE with history [lg]. *)
Definition hist (p : Z) (lg : list (Z * req * R)) : list req :=
  map (fun e => snd (fst e)) (filter (fun e => fst (fst e) =? p) lg).

Record PI (cnt : Z) (th : Z -> tst) (t : Z) (v : cbv) (c : list msg) (k : list amsg)
    (iss : list req) (lg : list (Z * req * R)) (p : Z) : Prop := mkPI {
  pi_fifo : iss = hist p lg ++ cbreqs v ++ hreqs c;
  pi_scan : exists S, scan (cbopen v) c S /\ NoDup (map fst S) /\
              forall g d, In (g, d) S <-> exists i, dat (th i) t = Some (g, d);
  pi_nodup : NoDup (flight v c k);
  pi_bound : forall g, In g (flight v c k) -> PTAG_START <= g < cnt + PTAG_START;
  pi_fresh : forall i g, fresh (th i) t = Some g -> ~ In g (flight v c k);
  pi_own : forall x, infl c k x -> exists i, waiton (th i) t = Some x;
  pi_cb : forall g r, v = CR g r -> rq_kind r = KPut /\ req_ok r = true;
  pi_ok : forall r, In r (hreqs c) -> req_ok r = true;
  pi_ack : forall g r x, In (g, Some (r, x)) k -> In (p, r, x) lg
}.

Record TI (cnt : Z) (th : Z -> tst) : Prop := mkTI {
  ti_cnt : 0 <= cnt /\ cnt + PTAG_START <= INT_MAX;
  ti_tag : forall i g, ttag (th i) = Some g -> PTAG_START <= g < cnt + PTAG_START;
  ti_uniq : forall i j g, ttag (th i) = Some g -> ttag (th j) = Some g -> i = j;
  ti_ok : forall i, thr_ok (th i)
}.

(** The history of a PE is a sequential execution of the requests as issued. *)
Inductive logok : M -> list (Z * req * R) -> M -> Prop :=
| lo_nil m : logok m [] m
| lo_snoc m l m1 p r x m2 : logok m l m1 -> exec (rq_args r) (rq_data r) m1 = Ok (m2, x) ->
    logok m (l ++ [(p, r, x)]) m2.

Record inv (s : ast) : Prop := mkInv {
  in_t : forall p, TI (a_cnt s p) (a_thr s p);
  in_p : forall p t, PI (a_cnt s p) (a_thr s p) t (cbp (a_cb s t) p) (a_comm s p t) (a_ack s t p)
           (a_issued s p t) (a_log s t) p;
  in_bad : forall t, a_cb s t <> CbBad;
  in_log : forall t, logok (m0 t) (a_log s t) (a_mem s t);
  in_ret : forall p i t v r x, a_thr s p i = TFlag t v r x ->
             match x with Some x => In (p, r, x) (a_log s t) | None => rq_kind r <> KFetch end
}.

(** ** Preservation lemmas for one pair *)

(** A thread changes what it does, but not with respect to this target. *)
Lemma PI_thr cnt cnt' th th' t v c k iss lg p :
  PI cnt th t v c k iss lg p -> cnt <= cnt' ->
  (forall i, dat (th' i) t = dat (th i) t) -> (forall i, waiton (th' i) t = waiton (th i) t) ->
  (forall i g, fresh (th' i) t = Some g -> fresh (th i) t = Some g \/ ~ In g (flight v c k)) ->
  PI cnt' th' t v c k iss lg p.
Proof.
  intros [] Hc HD HW HF. constructor; auto.
  - destruct pi_scan0 as (S & H1 & H2 & H3). exists S. split; [exact H1|]. split; [exact H2|].
    intros g d. rewrite H3. split; intros (i & Hi); exists i; congruence.
  - intros g Hg. specialize (pi_bound0 g Hg). lia.
  - intros i g Hi. destruct (HF i g Hi) as [H|H]; [eauto|exact H].
  - intros x Hx. destruct (pi_own0 x Hx) as (i & Hi). exists i. rewrite HW. exact Hi.
Qed.

Lemma htags_app a b : htags (a ++ b) = htags a ++ htags b.
Proof. apply flat_map_app. Qed.
Lemma hreqs_app a b : hreqs (a ++ b) = hreqs a ++ hreqs b.
Proof. apply flat_map_app. Qed.

Lemma flight_snoc v c k m : flight v (c ++ [m]) k = cbtag v ++ htags c ++ htag m ++ map fst k.
Proof. unfold flight. rewrite htags_app. simpl. rewrite !app_nil_r, <- app_assoc. reflexivity. Qed.

Lemma perm_mid (a b c d : list Z) : Permutation (a ++ b ++ c ++ d) (c ++ (a ++ b ++ d)).
Proof.
  rewrite app_assoc. rewrite (app_assoc a b d). rewrite Permutation_app_swap_app. reflexivity.
Qed.

Lemma flight_snoc_in v c k m g : In g (flight v (c ++ [m]) k) <-> In g (htag m) \/ In g (flight v c k).
Proof.
  rewrite flight_snoc. split.
  - intros H. apply (Permutation_in _ (perm_mid _ _ _ _)) in H. apply in_app_or in H. exact H.
  - intros H. apply (Permutation_in _ (Permutation_sym (perm_mid _ _ _ _))). apply in_or_app. exact H.
Qed.
Lemma flight_snoc_nodup v c k m : NoDup (flight v c k) -> (forall g, In g (htag m) -> ~ In g (flight v c k)) ->
  NoDup (htag m) -> NoDup (flight v (c ++ [m]) k).
Proof.
  intros H1 H2 H3. rewrite flight_snoc. apply (Permutation_NoDup (Permutation_sym (perm_mid _ _ _ _))).
  apply NoDup_app_intro; auto.
Qed.

Lemma infl_snoc c k m x : infl (c ++ [m]) k x <-> infl_m m x \/ infl c k x.
Proof.
  unfold infl. split.
  - intros [(m' & Hi & H)|H]; [|tauto]. apply in_app_or in Hi. destruct Hi as [Hi|[->|[]]]; [|tauto].
    right. left. eauto.
  - intros [H|[(m' & Hi & H)|H]].
    + left. exists m. split; [apply in_or_app; right; left; reflexivity|exact H].
    + left. exists m'. split; [apply in_or_app; left; exact Hi|exact H].
    + right. exact H.
Qed.

Lemma infl_tag c k x v : infl c k x -> In (fst x) (flight v c k).
Proof.
  intros [(m & Hi & H)|(a & Hi & H)]; unfold flight; rewrite !in_app_iff; right.
  - left. apply in_flat_map. exists m. split; [exact Hi|]. destruct m as [[g r|g|]|]; simpl in H; try contradiction.
    + destruct H as [K ->]. simpl. rewrite K. left. reflexivity.
    + subst x. simpl. left. reflexivity.
  - right. apply in_map_iff. exists a. split; [|exact Hi]. destruct a as [g [[r y]|]]; simpl in H; subst x; reflexivity.
Qed.

(** Sending a header whose tag (if any) is fresh. *)
Lemma PI_send_hdr cnt cnt' th th' t v c k iss iss' lg p h :
  PI cnt th t v c k iss lg p -> cnt <= cnt' ->
  iss' = iss ++ hreq (MH h) ->
  (forall g, In g (htag (MH h)) -> ~ In g (flight v c k) /\ PTAG_START <= g < cnt' + PTAG_START) ->
  (forall r, In r (hreq (MH h)) -> req_ok r = true) ->
  (exists S, scan (cbopen v) (c ++ [MH h]) S /\ NoDup (map fst S) /\
              forall g d, In (g, d) S <-> exists i, dat (th' i) t = Some (g, d)) ->
  (forall i x, waiton (th i) t = Some x -> waiton (th' i) t = Some x) ->
  (forall x, infl_m (MH h) x -> exists i, waiton (th' i) t = Some x) ->
  (forall i g, fresh (th' i) t = Some g -> fresh (th i) t = Some g /\ ~ In g (htag (MH h))) ->
  PI cnt' th' t v (c ++ [MH h]) k iss' lg p.
Proof.
  intros [] Hc HI HT HO HS HW HX HF. constructor; auto.
  - rewrite HI, pi_fifo0, hreqs_app, <- !app_assoc. simpl hreqs. rewrite app_nil_r. reflexivity.
  - apply flight_snoc_nodup; [exact pi_nodup0|intros g Hg; apply HT; exact Hg|].
    destruct h as [g r|g|]; simpl; [destruct (rq_kind r)| |]; repeat constructor; simpl; tauto.
  - intros g Hg. apply flight_snoc_in in Hg. destruct Hg as [Hg|Hg]; [apply HT; exact Hg|].
    specialize (pi_bound0 g Hg). lia.
  - intros i g Hi Hg. destruct (HF i g Hi) as [Hf Hn]. apply flight_snoc_in in Hg. destruct Hg as [Hg|Hg]; [tauto|].
    exact (pi_fresh0 i g Hf Hg).
  - intros x Hx. apply infl_snoc in Hx. destruct Hx as [Hx|Hx]; [auto|].
    destruct (pi_own0 x Hx) as (i & Hi). exists i. auto.
  - intros r Hr. rewrite hreqs_app in Hr. apply in_app_or in Hr. destruct Hr as [Hr|Hr]; [auto|].
    apply HO. simpl in Hr. rewrite app_nil_r in Hr. exact Hr.
Qed.

(** The payload of a put is sent. *)
Lemma PI_send_data cnt th th' t v c k iss lg p i g d :
  PI cnt th t v c k iss lg p -> dat (th i) t = Some (g, d) ->
  (forall j g' d', dat (th j) t = Some (g', d') -> g' = g -> j = i) ->
  (forall j, j <> i -> th' j = th j) -> dat (th' i) t = None -> waiton (th' i) t = waiton (th i) t ->
  fresh (th' i) t = None ->
  PI cnt th' t v (c ++ [MD g d]) k iss lg p.
Proof.
  intros [] HD HU HO HN HW HF. constructor; auto.
  - rewrite hreqs_app. simpl. rewrite app_nil_r. exact pi_fifo0.
  - destruct pi_scan0 as (S & H1 & H2 & H3).
    assert (HI : In (g, d) S) by (apply H3; eauto). apply in_split in HI. destruct HI as (S1 & S2 & ->).
    exists (S1 ++ S2). split; [apply scan_snoc_data; exact H1|].
    rewrite map_app in H2. simpl in H2. pose proof (NoDup_remove_1 _ _ _ H2) as H2a. pose proof (NoDup_remove_2 _ _ _ H2) as H2b.
    split; [rewrite map_app; exact H2a|]. intros g' d'. split.
    + intros HI. assert (HI' : In (g', d') (S1 ++ (g, d) :: S2)) by (rewrite in_app_iff in *; simpl; tauto).
      apply H3 in HI'. destruct HI' as (j & Hj). exists j. destruct (Z.eq_dec j i) as [->|Hne].
      * rewrite HD in Hj. injection Hj as <- <-. exfalso. apply H2b. rewrite <- map_app. apply (in_map fst) in HI. exact HI.
      * rewrite HO by exact Hne. exact Hj.
    + intros (j & Hj). destruct (Z.eq_dec j i) as [->|Hne]; [congruence|]. rewrite HO in Hj by exact Hne.
      assert (HI' : In (g', d') (S1 ++ (g, d) :: S2)) by (apply H3; eauto).
      apply in_app_or in HI'. apply in_or_app. destruct HI' as [HI'|[HI'|HI']]; auto.
      injection HI' as -> ->. exfalso. apply Hne. eapply HU; eauto.
  - unfold flight. rewrite htags_app. simpl. rewrite app_nil_r. exact pi_nodup0.
  - unfold flight. rewrite htags_app. simpl. rewrite app_nil_r. exact pi_bound0.
  - unfold flight. rewrite htags_app. simpl. rewrite app_nil_r. intros j g' Hj.
    destruct (Z.eq_dec j i) as [->|Hne]; [congruence|]. rewrite HO in Hj by exact Hne. eauto.
  - intros x Hx. apply infl_snoc in Hx. destruct Hx as [[]|Hx].
    destruct (pi_own0 x Hx) as (j & Hj). exists j. destruct (Z.eq_dec j i) as [->|Hne]; [congruence|].
    rewrite HO by exact Hne. exact Hj.
  - intros r Hr. rewrite hreqs_app in Hr. simpl in Hr. rewrite app_nil_r in Hr. auto.
Qed.

Lemma take_ack_split g (k : list amsg) y k' : take_ack g k = Some (y, k') ->
  exists k1 k2, k = k1 ++ (g, y) :: k2 /\ k' = k1 ++ k2.
Proof.
  revert k'. induction k as [|[g' x] k IH]; intros k' E; [discriminate|]. simpl in E.
  destruct (Z.eqb_spec g' g) as [->|Hg].
  - injection E as -> ->. exists [], k'. auto.
  - destruct (take_ack g k) as [[z r]|] eqn:E2; [|discriminate]. injection E as -> <-.
    destruct (IH r eq_refl) as (k1 & k2 & -> & ->). exists ((g', x) :: k1), k2. auto.
Qed.

(** A reply is received by the thread it is meant for. *)
Lemma PI_recv_ack cnt th th' t v c k k' iss lg p i g y o :
  PI cnt th t v c k iss lg p -> take_ack g k = Some (y, k') -> waiton (th i) t = Some (g, o) ->
  (forall j, j <> i -> th' j = th j) -> dat (th' i) t = dat (th i) t -> fresh (th' i) t = None ->
  (forall j x, waiton (th j) t = Some x -> fst x = g -> j = i) ->
  PI cnt th' t v c k' iss lg p /\
  match y with Some (r, x) => o = Some r /\ In (p, r, x) lg | None => o = None end.
Proof.
  intros [] E HW HO HD HF HU. apply take_ack_split in E. destruct E as (k1 & k2 & -> & ->).
  assert (EF : flight v c (k1 ++ (g, y) :: k2) = (cbtag v ++ htags c ++ map fst k1) ++ g :: map fst k2).
  { unfold flight. rewrite map_app. simpl. rewrite <- !app_assoc. reflexivity. }
  assert (EF' : flight v c (k1 ++ k2) = (cbtag v ++ htags c ++ map fst k1) ++ map fst k2).
  { unfold flight. rewrite map_app. rewrite <- !app_assoc. reflexivity. }
  assert (SUB : forall a, In a (flight v c (k1 ++ k2)) -> In a (flight v c (k1 ++ (g, y) :: k2))).
  { intros a. rewrite EF, EF', !in_app_iff. simpl. tauto. }
  pose proof pi_nodup0 as ND. rewrite EF in ND. pose proof (NoDup_remove_1 _ _ _ ND) as ND1.
  pose proof (NoDup_remove_2 _ _ _ ND) as ND2.
  split.
  - constructor; auto.
    + destruct pi_scan0 as (S & H1 & H2 & H3). exists S. split; [exact H1|]. split; [exact H2|]. intros g' d'. rewrite H3.
      split; intros (j & Hj); exists j; (destruct (Z.eq_dec j i) as [->|Hne]; [congruence|]); [rewrite HO by exact Hne|rewrite HO in Hj by exact Hne]; exact Hj.
    + rewrite EF'. exact ND1.
    + intros j g' Hj HI. destruct (Z.eq_dec j i) as [->|Hne]; [congruence|]. rewrite HO in Hj by exact Hne.
      apply (pi_fresh0 j g' Hj). auto.
    + intros x Hx. assert (Hx' : infl c (k1 ++ (g, y) :: k2) x).
      { destruct Hx as [H|(a & Ha & H)]; [left; exact H|]. right. exists a. split; [|exact H].
        apply in_app_or in Ha. apply in_or_app. simpl. tauto. }
      destruct (pi_own0 x Hx') as (j & Hj). exists j. destruct (Z.eq_dec j i) as [->|Hne].
      * exfalso. rewrite HW in Hj. injection Hj as <-. apply ND2. rewrite <- EF'. apply (infl_tag _ _ _ v Hx).
      * rewrite HO by exact Hne. exact Hj.
    + intros g' r x HI. apply (pi_ack0 g' r x). apply in_app_or in HI. apply in_or_app. simpl. tauto.
  - assert (Hx : infl c (k1 ++ (g, y) :: k2) (g, match y with Some (r, _) => Some r | None => None end)).
    { right. exists (g, y). split; [apply in_or_app; right; left; reflexivity|]. destruct y as [[r x]|]; reflexivity. }
    destruct (pi_own0 _ Hx) as (j & Hj). assert (j = i) by (eapply HU; eauto). subst j.
    rewrite HW in Hj. destruct y as [[r x]|]; injection Hj as ->; [|reflexivity]. split; [reflexivity|].
    apply (pi_ack0 g). apply in_or_app. right. left. reflexivity.
Qed.

Lemma hist_snoc p q r x lg : hist p (lg ++ [(q, r, x)]) = hist p lg ++ (if q =? p then [r] else []).
Proof.
  unfold hist. rewrite filter_app, map_app. simpl. destruct (q =? p); reflexivity.
Qed.

(** Another PE's message is handled. *)
Lemma PI_other cnt th t v c k iss lg p q r x : PI cnt th t v c k iss lg p -> q <> p ->
  PI cnt th t v c k iss (lg ++ [(q, r, x)]) p.
Proof.
  intros [] Hq. constructor; auto.
  - rewrite hist_snoc. destruct (Z.eqb_spec q p); [contradiction|]. rewrite app_nil_r. exact pi_fifo0.
  - intros g r' x' H. apply in_or_app. left. eauto.
Qed.

(** The header of a put is taken. *)
Lemma PI_cb_put cnt th t c k iss lg p g r : PI cnt th t CN (MH (HReq g r) :: c) k iss lg p -> rq_kind r = KPut ->
  PI cnt th t (CR g r) c k iss lg p.
Proof.
  intros [] HK.
  assert (HO : req_ok r = true) by (apply pi_ok0; left; reflexivity).
  assert (HF : flight CN (MH (HReq g r) :: c) k = flight (CR g r) c k).
  { unfold flight, htags. simpl. rewrite HK. reflexivity. }
  rewrite HF in *. constructor; auto.
  - destruct pi_scan0 as (S & H1 & H2 & H3). exists S. split; [|auto]. simpl in *.
    inversion H1 as [|g1 r1 d1 ? ? ? K1 D1 HS|g1 r1 ? ? ? K1 HS| | |]; subst; [rewrite D1; exact HS|congruence].
  - intros x [(m & Hm & H)|H]; apply pi_own0; [left; exists m; split; [right; exact Hm|exact H]|right; exact H].
  - intros g' r' [= <- <-]. auto.
  - intros r' Hr. apply pi_ok0. right. exact Hr.
Qed.

(** A request is handled ([ok]) or its handler stops the program. *)
Lemma PI_cb_req cnt th t c k iss lg p g r : PI cnt th t CN (MH (HReq g r) :: c) k iss lg p -> rq_kind r <> KPut ->
  (forall x, PI cnt th t CN c (match rq_kind r with KFetch => k ++ [(g, Some (r, x))] | _ => k end) iss (lg ++ [(p, r, x)]) p) /\
  PI cnt th t (CA r) c k iss lg p.
Proof.
  intros [] HK.
  assert (HSC : exists S, scan [] c S /\ NoDup (map fst S) /\ forall g d, In (g, d) S <-> exists i, dat (th i) t = Some (g, d)).
  { destruct pi_scan0 as (S & H1 & H2 & H3). exists S. split; [|auto]. simpl in H1. inversion H1; subst; [congruence|assumption]. }
  assert (HO : forall x, infl c k x -> exists i, waiton (th i) t = Some x).
  { intros x [(m & Hm & H)|H]; apply pi_own0; [left; exists m; split; [right; exact Hm|exact H]|right; exact H]. }
  assert (HOK : forall r', In r' (hreqs c) -> req_ok r' = true) by (intros r' Hr; apply pi_ok0; right; exact Hr).
  split.
  - intros x. destruct (rq_kind r) eqn:K; [|contradiction|].
    + assert (HF : flight CN (MH (HReq g r) :: c) k = flight CN c k).
      { unfold flight, htags. simpl. rewrite K. reflexivity. }
      rewrite HF in *. constructor; auto.
      * rewrite hist_snoc, Z.eqb_refl, pi_fifo0. simpl. rewrite <- app_assoc. reflexivity.
      * intros g' r' x' H. apply in_or_app. left. eauto.
    + assert (HF : Permutation (flight CN (MH (HReq g r) :: c) k) (flight CN c (k ++ [(g, Some (r, x))]))).
      { unfold flight, htags. simpl. rewrite K. simpl. rewrite map_app. simpl.
        rewrite app_assoc. apply Permutation_cons_append. }
      constructor; auto.
      * rewrite hist_snoc, Z.eqb_refl, pi_fifo0. simpl. rewrite <- app_assoc. reflexivity.
      * eapply Permutation_NoDup; eauto.
      * intros g' Hg. apply pi_bound0. eapply Permutation_in; [apply Permutation_sym; exact HF|exact Hg].
      * intros i g' Hi Hg. apply (pi_fresh0 i g' Hi). eapply Permutation_in; [apply Permutation_sym; exact HF|exact Hg].
      * intros y Hy. destruct Hy as [Hy|(a & Ha & H)]; [apply HO; left; exact Hy|].
        apply in_app_or in Ha. destruct Ha as [Ha|[<-|[]]]; [apply HO; right; eauto|].
        simpl in H. subst y. apply pi_own0. left. exists (MH (HReq g r)). split; [left; reflexivity|]. simpl. auto.
      * intros g' r' x' H. apply in_app_or in H. apply in_or_app. destruct H as [H|[H|[]]]; [left; eauto|].
        injection H as <- <- <-. right. left. reflexivity.
  - assert (SUB : forall a, In a (flight (CA r) c k) -> In a (flight CN (MH (HReq g r) :: c) k)).
    { intros a. unfold flight, htags. simpl. rewrite !in_app_iff. tauto. }
    assert (ND : NoDup (flight (CA r) c k)).
    { unfold flight, htags in pi_nodup0 |- *. simpl in *. rewrite <- app_assoc in pi_nodup0.
      apply NoDup_app_remove_l in pi_nodup0. exact pi_nodup0. }
    constructor; auto.
    + intros i g' Hi Hg. apply (pi_fresh0 i g' Hi). auto.
    + intros; discriminate.
Qed.

(** A flush header is taken and acknowledged. *)
Lemma PI_cb_flush cnt th t c k iss lg p g : PI cnt th t CN (MH (HFlush g) :: c) k iss lg p ->
  PI cnt th t CN c (k ++ [(g, None)]) iss lg p.
Proof.
  intros [].
  assert (HF : Permutation (flight CN (MH (HFlush g) :: c) k) (flight CN c (k ++ [(g, None)]))).
  { unfold flight, htags. simpl. rewrite map_app. simpl. rewrite app_assoc. apply Permutation_cons_append. }
  constructor; auto.
  - destruct pi_scan0 as (S & H1 & H2 & H3). exists S. split; [|auto]. simpl in H1. inversion H1; subst; assumption.
  - eapply Permutation_NoDup; eauto.
  - intros g' Hg. apply pi_bound0. eapply Permutation_in; [apply Permutation_sym; exact HF|exact Hg].
  - intros i g' Hi Hg. apply (pi_fresh0 i g' Hi). eapply Permutation_in; [apply Permutation_sym; exact HF|exact Hg].
  - intros y Hy. destruct Hy as [(m & Hm & H)|(a & Ha & H)]; [apply pi_own0; left; exists m; split; [right; exact Hm|exact H]|].
    apply in_app_or in Ha. destruct Ha as [Ha|[<-|[]]]; [apply pi_own0; right; eauto|].
    simpl in H. subst y. apply pi_own0. left. exists (MH (HFlush g)). split; [left; reflexivity|]. reflexivity.
  - intros g' r' x' H. apply in_app_or in H. destruct H as [H|[H|[]]]; [eauto|discriminate].
Qed.

Lemma PI_cb_term cnt th t c k iss lg p : PI cnt th t CN (MH HTerm :: c) k iss lg p -> PI cnt th t CN c k iss lg p.
Proof.
  intros []. constructor; auto.
  - destruct pi_scan0 as (S & H1 & H2 & H3). exists S. split; [|auto]. simpl in H1. inversion H1; subst; assumption.
  - intros y Hy. apply pi_own0. destruct Hy as [(m & Hm & H)|H]; [left; exists m; split; [right; exact Hm|exact H]|right; exact H].
Qed.

(** The payload of a put is received. *)
Lemma take_data_hdr g (c : list msg) d c' : take_data g c = Some (d, c') ->
  htags c' = htags c /\ hreqs c' = hreqs c /\ forall m, In m c' -> In m c.
Proof.
  revert c'. induction c as [|[h|g2 d2] c IH]; intros c' E; [discriminate| |]; simpl in E.
  - destruct (take_data g c) as [[x r]|] eqn:E2; [|discriminate]. injection E as -> <-.
    destruct (IH r eq_refl) as (H1 & H2 & H3). unfold htags, hreqs in *. simpl. rewrite H1, H2. split; [reflexivity|].
    split; [reflexivity|]. intros m [<-|Hm]; [left; reflexivity|right; auto].
  - destruct (g2 =? g); [injection E as -> ->|].
    + split; [reflexivity|]. split; [reflexivity|]. intros m Hm. right; exact Hm.
    + destruct (take_data g c) as [[x r]|] eqn:E2; [|discriminate]. injection E as -> <-.
      destruct (IH r eq_refl) as (H1 & H2 & H3). unfold htags, hreqs in *. simpl. rewrite H1, H2. split; [reflexivity|].
      split; [reflexivity|]. intros m [<-|Hm]; [left; reflexivity|right; auto].
Qed.

Lemma PI_cb_data cnt th t c c' k iss lg p g r d : PI cnt th t (CR g r) c k iss lg p -> take_data g c = Some (d, c') ->
  rq_data r = Some d /\ (forall x, PI cnt th t CN c' k iss (lg ++ [(p, r, x)]) p) /\ PI cnt th t (CA r) c' k iss lg p.
Proof.
  intros [] E. destruct (pi_cb0 g r eq_refl) as [HK HOK].
  destruct (rq_data r) as [d0|] eqn:ED; [|unfold req_ok in HOK; rewrite HK, ED in HOK; discriminate].
  destruct pi_scan0 as (S & H1 & H2 & H3). simpl in H1. rewrite ED in H1.
  unfold flight in pi_nodup0. simpl in pi_nodup0. inversion pi_nodup0 as [|? ? NI ND]; subst.
  destruct (scan_take c [] g d0 [] S d c' H1) as [-> HS]; [intros []| |exact E|].
  { intros HI. apply NI. rewrite in_app_iff. left. exact HI. }
  destruct (take_data_hdr _ _ _ _ E) as (E1 & E2 & E3). split; [reflexivity|].
  assert (SUB : forall a v, cbtag v = [] -> In a (flight v c' k) -> In a (flight (CR g r) c k)).
  { intros a v Hv. unfold flight. rewrite Hv, E1. simpl. tauto. }
  assert (HO : forall x, infl c' k x -> exists i, waiton (th i) t = Some x).
  { intros y [(m & Hm & H)|H]; apply pi_own0; [left; exists m; auto|right; exact H]. }
  assert (HOK' : forall r', In r' (hreqs c') -> req_ok r' = true) by (rewrite E2; exact pi_ok0).
  split; [intros x|]; constructor;
    [rewrite hist_snoc, Z.eqb_refl, E2; simpl; rewrite <- app_assoc; reflexivity
    |exists S; auto|unfold flight; simpl; rewrite E1; exact ND
    |intros g' Hg; apply pi_bound0; eapply SUB; [|exact Hg]; reflexivity
    |intros i g' Hi Hg; apply (pi_fresh0 i g' Hi); eapply SUB; [|exact Hg]; reflexivity
    |exact HO|intros; discriminate|exact HOK'|intros g' r' x' H; apply in_or_app; left; eauto
    |rewrite E2; reflexivity
    |exists S; auto|unfold flight; simpl; rewrite E1; exact ND
    |intros g' Hg; apply pi_bound0; eapply SUB; [|exact Hg]; reflexivity
    |intros i g' Hi Hg; apply (pi_fresh0 i g' Hi); eapply SUB; [|exact Hg]; reflexivity
    |exact HO|intros; discriminate|exact HOK'|exact pi_ack0].
Qed.

(** ** Preservation by the steps *)

Lemma TI_fset cnt cnt' th i x' : TI cnt th -> cnt <= cnt' -> cnt' + PTAG_START <= INT_MAX ->
  (forall g, ttag x' = Some g -> ttag (th i) = Some g \/ cnt + PTAG_START <= g < cnt' + PTAG_START) ->
  thr_ok x' -> TI cnt' (fset th i x').
Proof.
  intros [] H1 H2 H3 H4. constructor.
  - lia.
  - intros j g. destruct (Z.eq_dec j i) as [->|Hne].
    + rewrite fset_eq. intros E. destruct (H3 g E) as [Hi|Hi]; [specialize (ti_tag0 _ _ Hi)|]; lia.
    + rewrite fset_ne by exact Hne. intros E. specialize (ti_tag0 _ _ E). lia.
  - intros j k g. destruct (Z.eq_dec j i) as [->|Hj], (Z.eq_dec k i) as [->|Hk].
    + auto.
    + rewrite fset_eq, fset_ne by exact Hk. intros E1 E2. destruct (H3 g E1) as [Hi|Hi]; [eauto|].
      specialize (ti_tag0 _ _ E2). lia.
    + rewrite fset_eq, fset_ne by exact Hj. intros E1 E2. destruct (H3 g E2) as [Hi|Hi]; [eauto|].
      specialize (ti_tag0 _ _ E1). lia.
    + rewrite !fset_ne by assumption. eauto.
  - intros j. destruct (Z.eq_dec j i) as [->|Hne]; [rewrite fset_eq; exact H4|rewrite fset_ne by exact Hne; auto].
Qed.

Lemma PI_fset cnt cnt' th i x' t v c k iss lg p : PI cnt th t v c k iss lg p -> cnt <= cnt' ->
  dat x' t = dat (th i) t -> waiton x' t = waiton (th i) t ->
  (forall g, fresh x' t = Some g -> fresh (th i) t = Some g \/ ~ In g (flight v c k)) ->
  PI cnt' (fset th i x') t v c k iss lg p.
Proof.
  intros H Hc HD HW HF. eapply PI_thr; eauto; intros j; [| |intros g];
    (destruct (Z.eq_dec j i) as [->|Hne]; [rewrite ?fset_eq; auto|rewrite ?fset_ne by exact Hne; auto]).
Qed.

Lemma inv_upd s s' p i x' t0 : inv s ->
  a_thr s' = fset2 (a_thr s) p i x' -> a_cb s' = a_cb s -> a_mem s' = a_mem s -> a_log s' = a_log s ->
  (forall q, q <> p -> a_cnt s' q = a_cnt s q) -> a_cnt s p <= a_cnt s' p -> a_cnt s' p + PTAG_START <= INT_MAX ->
  (forall q t, q <> p \/ t <> t0 ->
     a_comm s' q t = a_comm s q t /\ a_ack s' t q = a_ack s t q /\ a_issued s' q t = a_issued s q t) ->
  (forall g, ttag x' = Some g -> ttag (a_thr s p i) = Some g \/ a_cnt s p + PTAG_START <= g < a_cnt s' p + PTAG_START) ->
  thr_ok x' ->
  (forall t, t <> t0 -> dat x' t = dat (a_thr s p i) t /\ waiton x' t = waiton (a_thr s p i) t /\
     forall g, fresh x' t = Some g -> fresh (a_thr s p i) t = Some g \/ a_cnt s p + PTAG_START <= g) ->
  PI (a_cnt s' p) (fset (a_thr s p) i x') t0 (cbp (a_cb s t0) p) (a_comm s' p t0) (a_ack s' t0 p) (a_issued s' p t0)
     (a_log s t0) p ->
  (forall t v r x, x' = TFlag t v r x ->
     match x with Some x => In (p, r, x) (a_log s t) | None => rq_kind r <> KFetch end) ->
  inv s'.
Proof.
  intros [] ET EC EM EL EN1 EN2 EN3 EO HT HK HF HP HR. constructor.
  - intros q. rewrite ET. destruct (Z.eq_dec q p) as [->|Hq].
    + rewrite fset2_same. eapply TI_fset; eauto.
    + rewrite fset2_row, EN1 by exact Hq. auto.
  - intros q t. rewrite ET, EC, EL. destruct (Z.eq_dec q p) as [->|Hq].
    + rewrite fset2_same. destruct (Z.eq_dec t t0) as [->|Ht]; [exact HP|].
      destruct (EO p t (or_intror Ht)) as (-> & -> & ->). destruct (HF t Ht) as (F1 & F2 & F3).
      eapply PI_fset; eauto. intros g Hg. destruct (F3 g Hg) as [F|F]; [left; exact F|].
      right. intros HI. apply (pi_bound _ _ _ _ _ _ _ _ _ (in_p0 p t)) in HI. lia.
    + rewrite fset2_row, EN1 by exact Hq. destruct (EO q t (or_introl Hq)) as (-> & -> & ->). auto.
  - rewrite EC. exact in_bad0.
  - rewrite EL, EM. exact in_log0.
  - intros q j t v r x. rewrite ET, EL. destruct (Z.eq_dec q p) as [->|Hq].
    + rewrite fset2_same. destruct (Z.eq_dec j i) as [->|Hj]; [rewrite fset_eq; apply HR|].
      rewrite fset_ne by exact Hj. apply in_ret0.
    + rewrite fset2_row by exact Hq. apply in_ret0.
Qed.

Lemma inv_cb s s' p t0 : inv s ->
  a_thr s' = a_thr s -> a_cnt s' = a_cnt s -> a_issued s' = a_issued s ->
  (forall q t, q <> p \/ t <> t0 -> a_comm s' q t = a_comm s q t /\ a_ack s' t q = a_ack s t q) ->
  (forall t, t <> t0 -> a_cb s' t = a_cb s t /\ a_log s' t = a_log s t /\ a_mem s' t = a_mem s t) ->
  (forall q, q <> p -> cbp (a_cb s' t0) q = cbp (a_cb s t0) q) ->
  a_cb s' t0 <> CbBad ->
  (a_log s' t0 = a_log s t0 \/ exists r x, a_log s' t0 = a_log s t0 ++ [(p, r, x)]) ->
  logok (m0 t0) (a_log s' t0) (a_mem s' t0) ->
  PI (a_cnt s p) (a_thr s p) t0 (cbp (a_cb s' t0) p) (a_comm s' p t0) (a_ack s' t0 p) (a_issued s p t0) (a_log s' t0) p ->
  inv s'.
Proof.
  intros [] ET EN EI EO EC EQ EB EL HL HP. constructor.
  - intros q. rewrite ET, EN. auto.
  - intros q t. rewrite ET, EN, EI. destruct (Z.eq_dec t t0) as [->|Ht].
    + destruct (Z.eq_dec q p) as [->|Hq]; [exact HP|]. destruct (EO q t0 (or_introl Hq)) as (-> & ->).
      rewrite (EQ q Hq). destruct EL as [->|(r & x & ->)]; [auto|]. apply PI_other; auto.
    + destruct (EO q t (or_intror Ht)) as (-> & ->). destruct (EC t Ht) as (-> & -> & _). auto.
  - intros t. destruct (Z.eq_dec t t0) as [->|Ht]; [exact EB|]. destruct (EC t Ht) as (-> & _). auto.
  - intros t. destruct (Z.eq_dec t t0) as [->|Ht]; [exact HL|]. destruct (EC t Ht) as (_ & -> & ->). auto.
  - intros q i t v r x. rewrite ET. intros E. specialize (in_ret0 _ _ _ _ _ _ E). destruct x as [x|]; [|exact in_ret0].
    destruct (Z.eq_dec t t0) as [->|Ht]; [|destruct (EC t Ht) as (_ & -> & _); exact in_ret0].
    destruct EL as [->|(r' & x' & ->)]; [exact in_ret0|apply in_or_app; left; exact in_ret0].
Qed.

Hypothesis ub_int : ub <= INT_MAX.

Lemma am_ptag_ok c g : 0 <= c -> c + PTAG_START <= INT_MAX -> am_ptag true ub c = Ok g ->
  g = c + PTAG_START /\ am_ptag_next c = c + 1 /\ c + 1 + PTAG_START <= INT_MAX.
Proof.
  unfold am_ptag, am_ptag_next, c_assert, PTAG_START. intros H0 H1. unfold INT_MAX in *.
  rewrite to_int_id by lia. destruct (c + 2003 <? ub) eqn:E; simpl; [|discriminate]. intros [= <-].
  rewrite to_int_id by lia. lia.
Qed.

Lemma mem_z_spec x l : mem_z x l = true <-> In x l.
Proof.
  unfold mem_z. rewrite existsb_exists. split.
  - intros (y & Hy & E). apply Z.eqb_eq in E. subst y. exact Hy.
  - intros H. exists x. split; [exact H|apply Z.eqb_refl].
Qed.
Lemma mem_z_false x l : mem_z x l = false <-> ~ In x l.
Proof. rewrite <- mem_z_spec. destruct (mem_z x l); split; congruence. Qed.
Lemma nodup_z_spec l : nodup_z l = true -> NoDup l.
Proof.
  induction l as [|x l IH]; simpl; intros H; constructor.
  - apply andb_true_iff in H. destruct H as [H _]. apply negb_true_iff in H. apply mem_z_false. exact H.
  - apply IH. apply andb_true_iff in H. tauto.
Qed.

Lemma mem_z_app x l y : x <> y -> mem_z x (l ++ [y]) = mem_z x l.
Proof.
  intros H. destruct (mem_z x l) eqn:E.
  - apply mem_z_spec. apply in_or_app. left. apply mem_z_spec. exact E.
  - apply mem_z_false. intros F. apply in_app_or in F. apply mem_z_false in E. simpl in F. destruct F as [F|[F|[]]]; [tauto|congruence].
Qed.
Lemma mem_z_cons x y l : x <> y -> mem_z x (y :: l) = mem_z x l.
Proof. intros H. unfold mem_z. simpl. destruct (Z.eqb_spec x y); [contradiction|reflexivity]. Qed.

Ltac fc j i := destruct (Z.eq_dec j i) as [->|?Hne]; [rewrite ?fset_eq in *|rewrite ?fset_ne in * by assumption].
Ltac f2 := repeat (rewrite fset2_eq in * || (rewrite fset2_ne in * by tauto)).

(** A step of thread i that touches no channel. *)
Lemma inv_silent s s' p i x' : inv s ->
  a_thr s' = fset2 (a_thr s) p i x' -> a_cb s' = a_cb s -> a_mem s' = a_mem s -> a_log s' = a_log s ->
  (forall q, q <> p -> a_cnt s' q = a_cnt s q) -> a_cnt s p <= a_cnt s' p -> a_cnt s' p + PTAG_START <= INT_MAX ->
  a_comm s' = a_comm s -> a_ack s' = a_ack s -> a_issued s' = a_issued s ->
  (forall g, ttag x' = Some g -> ttag (a_thr s p i) = Some g \/ a_cnt s p + PTAG_START <= g < a_cnt s' p + PTAG_START) ->
  thr_ok x' ->
  (forall t, dat x' t = dat (a_thr s p i) t /\ waiton x' t = waiton (a_thr s p i) t /\
     forall g, fresh x' t = Some g -> fresh (a_thr s p i) t = Some g \/ a_cnt s p + PTAG_START <= g) ->
  (forall t v r x, x' <> TFlag t v r x) ->
  inv s'.
Proof.
  intros I ET EC EM EL EN1 EN2 EN3 E1 E2 E3 HT HK HF HR.
  eapply (inv_upd s s' p i x' 0); eauto.
  - intros q t _. rewrite E1, E2, E3. auto.
  - rewrite E1, E2, E3. destruct (HF 0) as (F1 & F2 & F3). eapply PI_fset; [apply (in_p _ I)|exact EN2|exact F1|exact F2|].
    intros g Hg. destruct (F3 g Hg) as [F|F]; [left; exact F|]. right. intros HI.
    apply (pi_bound _ _ _ _ _ _ _ _ _ (in_p _ I p 0)) in HI. lia.
  - intros t v r x E. exfalso. exact (HR _ _ _ _ E).
Qed.

Lemma inv_send_req s p i t g r x' : inv s -> req_ok r = true ->
  (rq_kind r = KPost \/ exists t', a_thr s p i = TTag t' g r) ->
  (rq_kind r = KPost -> a_thr s p i = TIdle) ->
  x' = match rq_kind r with KPost => TFlag t true r None | KPut => TData t g r | KFetch => TAck t g r end ->
  forall cl, inv (set_thr (send_req (set_called s p t cl) p t g r) p i x').
Proof.
  intros I HO HT HI EX cl.
  pose proof (in_t _ I p) as T. pose proof (in_p _ I p) as P.
  assert (HD : forall t, dat (a_thr s p i) t = None /\ waiton (a_thr s p i) t = None).
  { intros t1. destruct (rq_kind r) eqn:K; [rewrite HI by reflexivity; split; reflexivity| |];
      (destruct HT as [HT|(t' & ->)]; [discriminate|split; reflexivity]). }
  assert (HG : rq_kind r <> KPost -> ttag (a_thr s p i) = Some g /\ forall t, fresh (a_thr s p i) t = Some g).
  { intros K. destruct HT as [HT|(t' & ->)]; [contradiction|]. split; reflexivity. }
  eapply (inv_upd s _ p i x' t); try reflexivity; auto.
  - cbn. destruct (ti_cnt _ _ T). lia.
  - intros q t1 H. cbn. rewrite !fset2_ne by exact H. auto.
  - intros g'. rewrite EX. destruct (rq_kind r) eqn:K; simpl; try discriminate; intros [= <-];
      left; apply HG; discriminate.
  - rewrite EX. destruct (rq_kind r) eqn:K; simpl; auto.
  - intros t1 Ht. destruct (HD t1) as [-> ->]. rewrite EX.
    destruct (rq_kind r) eqn:K; simpl; try (destruct (Z.eqb_spec t t1); [congruence|]); repeat split; intros; discriminate.
  - cbn. f2. 
    assert (HGF : rq_kind r <> KPost -> ~ In g (flight (cbp (a_cb s t) p) (a_comm s p t) (a_ack s t p)) /\
              PTAG_START <= g < a_cnt s p + PTAG_START).
    { intros K. destruct (HG K) as [G1 G2]. split; [apply (pi_fresh _ _ _ _ _ _ _ _ _ (P t) i); apply G2|].
      apply (ti_tag _ _ T i). exact G1. }
    destruct (HD t) as [HD1 HD2].
    eapply PI_send_hdr; [apply P|lia|reflexivity| | | | | |].
    + intros g'. simpl. destruct (rq_kind r) eqn:K; simpl; [intros []| |]; intros [<-|[]]; apply HGF; discriminate.
    + simpl. intros r' [<-|[]]. exact HO.
    + destruct (pi_scan _ _ _ _ _ _ _ _ _ (P t)) as (S & S1 & S2 & S3).
      destruct (rq_kind r) eqn:K.
      * exists S. split; [apply scan_snoc_req; [congruence|exact S1]|]. split; [exact S2|]. intros g' d. rewrite S3.
        split; intros (j & Hj); exists j; fc j i; subst x'; simpl in *; congruence.
      * destruct (rq_data r) as [d0|] eqn:ED; [|unfold req_ok in HO; rewrite K, ED in HO; discriminate].
        destruct HG as [HG1 _]; [discriminate|].
        exists ((g, d0) :: S). split; [apply scan_snoc_put; auto|]. split.
        -- simpl. constructor; [|exact S2]. intros HI2. apply in_map_iff in HI2. destruct HI2 as ([g1 d1] & E1 & HI2).
           simpl in E1. subst g1. apply S3 in HI2. destruct HI2 as (j & Hj).
           assert (ttag (a_thr s p j) = Some g).
           { destruct (a_thr s p j); simpl in *; try discriminate. destruct (t0 =? t); [|discriminate]. destruct (rq_data r0); congruence. }
           assert (j = i) by (eapply (ti_uniq _ _ T); eauto). subst j. congruence.
        -- intros g' d. simpl. rewrite S3. split.
           ++ intros [E|(j & Hj)]; [injection E as <- <-; exists i; rewrite fset_eq, EX; simpl; rewrite Z.eqb_refl, ED; reflexivity|].
              exists j. fc j i; [congruence|exact Hj].
           ++ intros (j & Hj). fc j i; [|right; eauto]. rewrite EX in Hj. simpl in Hj. rewrite Z.eqb_refl, ED in Hj. left. congruence.
      * exists S. split; [apply scan_snoc_req; [congruence|exact S1]|]. split; [exact S2|]. intros g' d. rewrite S3.
        split; intros (j & Hj); exists j; fc j i; subst x'; simpl in *; congruence.
    + intros j y Hj. fc j i; [congruence|exact Hj].
    + intros y. simpl. intros [K ->]. exists i. rewrite fset_eq, EX, K. simpl. rewrite Z.eqb_refl. reflexivity.
    + intros j g' Hj. fc j i; [rewrite EX in Hj; destruct (rq_kind r); discriminate|]. split; [exact Hj|].
      simpl. destruct (rq_kind r) eqn:K; simpl; [tauto| |]; intros [<-|[]];
        (destruct HG as [HG1 _]; [discriminate|]);
        (assert (ttag (a_thr s p j) = Some g) by
           (destruct (a_thr s p j); simpl in *; try discriminate; try congruence; destruct (mem_z t w); congruence));
        assert (j = i) by (eapply (ti_uniq _ _ T); eauto); congruence.
  - intros t1 v r1 x1. rewrite EX. destruct (rq_kind r) eqn:K; try discriminate. intros [= <- <- <- <-]. congruence.
Qed.

Lemma dat_tag x t g d : dat x t = Some (g, d) -> ttag x = Some g.
Proof.
  destruct x; simpl; try discriminate. destruct (t0 =? t); [|discriminate]. destruct (rq_data r); congruence.
Qed.
Lemma wait_tag x t g o : waiton x t = Some (g, o) -> ttag x = Some g.
Proof.
  destruct x; simpl; try discriminate; [destruct (t0 =? t)|destruct (mem_z t w)|destruct (mem_z t w)]; congruence.
Qed.
Lemma fresh_tag x t g : fresh x t = Some g -> ttag x = Some g.
Proof. destruct x; simpl; try discriminate; [congruence|destruct (mem_z t w); congruence]. Qed.

Lemma inv_send_data s p i t g r d : inv s -> a_thr s p i = TData t g r -> rq_data r = Some d ->
  inv (set_thr (send s p t (MD g d)) p i (TFlag t true r None)).
Proof.
  intros I EX ED. pose proof (in_t _ I p) as T. pose proof (in_p _ I p) as P.
  pose proof (ti_ok _ _ T i) as OK. rewrite EX in OK. simpl in OK. destruct OK as [OK1 OK2].
  eapply (inv_upd s _ p i _ t); try reflexivity; auto.
  - cbn. destruct (ti_cnt _ _ T). lia.
  - intros q t1 H. cbn. rewrite !fset2_ne by exact H. auto.
  - discriminate.
  - intros t1 Ht. rewrite EX. simpl. destruct (Z.eqb_spec t t1); [congruence|]. repeat split; discriminate.
  - cbn. f2. eapply (PI_send_data _ _ _ _ _ _ _ _ _ _ i); [apply P| | | | | |].
    + rewrite EX. simpl. rewrite Z.eqb_refl, ED. reflexivity.
    + intros j' g' d' Hd ->. eapply (ti_uniq _ _ T); [eapply dat_tag; eauto|rewrite EX; reflexivity].
    + intros j' Hj. apply fset_ne. exact Hj.
    + rewrite fset_eq. reflexivity.
    + rewrite fset_eq, EX. reflexivity.
    + rewrite fset_eq. reflexivity.
  - intros t1 v r1 x1 [= <- <- <- <-]. congruence.
Qed.

Lemma inv_ack s p i t g r y c : inv s -> a_thr s p i = TAck t g r -> take_ack g (a_ack s t p) = Some (y, c) ->
  exists x, y = Some (r, x) /\ inv (set_thr (set_ack s t p c) p i (TFlag t false r (Some x))).
Proof.
  intros I EX E. pose proof (in_t _ I p) as T. pose proof (in_p _ I p) as P.
  assert (HW : waiton (a_thr s p i) t = Some (g, Some r)) by (rewrite EX; simpl; rewrite Z.eqb_refl; reflexivity).
  pose proof (fun th' a b c => PI_recv_ack _ _ th' _ _ _ _ _ _ _ _ _ _ _ _ (P t) E HW a b c) as HP.
  assert (HU : forall j x, waiton (a_thr s p j) t = Some x -> fst x = g -> j = i).
  { intros j [g' o] Hj Hg. simpl in Hg. subst g'. eapply (ti_uniq _ _ T); [eapply wait_tag; eauto|rewrite EX; reflexivity]. }
  assert (HX : exists x, y = Some (r, x) /\ In (p, r, x) (a_log s t)).
  { destruct (HP (fset (a_thr s p) i TIdle)) as [_ H]; auto.
    - intros j Hj. apply fset_ne. exact Hj.
    - rewrite fset_eq, EX. reflexivity.
    - rewrite fset_eq. reflexivity.
    - destruct y as [[r' x]|]; [|discriminate]. destruct H as [[= <-] H]. eauto. }
  destruct HX as (x & -> & HX). exists x. split; [reflexivity|].
  eapply (inv_upd s _ p i _ t); try reflexivity; auto.
  - cbn. destruct (ti_cnt _ _ T). lia.
  - intros q t1 H. cbn. rewrite !fset2_ne by tauto. auto.
  - discriminate.
  - intros t1 Ht. rewrite EX. simpl. destruct (Z.eqb_spec t t1); [congruence|]. repeat split; discriminate.
  - cbn. f2. apply (HP (fset (a_thr s p) i (TFlag t false r (Some x)))); auto.
    + intros j Hj. apply fset_ne. exact Hj.
    + rewrite fset_eq, EX. reflexivity.
    + rewrite fset_eq. reflexivity.
  - intros t1 v r1 x1 [= <- <- <- <-]. exact HX.
Qed.

Lemma inv_flush_ack s p i t w g ps y c : inv s -> a_thr s p i = TFWait (t :: w) g ps ->
  take_ack g (a_ack s t p) = Some (y, c) -> inv (set_thr (set_ack s t p c) p i (TFWait w g ps)).
Proof.
  intros I EX E. pose proof (in_t _ I p) as T. pose proof (in_p _ I p) as P.
  pose proof (ti_ok _ _ T i) as OK. rewrite EX in OK. simpl in OK. inversion OK as [|? ? OK1 OK2]; subst.
  assert (HW : waiton (a_thr s p i) t = Some (g, None)) by (rewrite EX; simpl; rewrite Z.eqb_refl; reflexivity).
  pose proof (fun th' a b c => PI_recv_ack _ _ th' _ _ _ _ _ _ _ _ _ _ _ _ (P t) E HW a b c) as HP.
  assert (HU : forall j x, waiton (a_thr s p j) t = Some x -> fst x = g -> j = i).
  { intros j [g' o] Hj Hg. simpl in Hg. subst g'. eapply (ti_uniq _ _ T); [eapply wait_tag; eauto|rewrite EX; reflexivity]. }
  eapply (inv_upd s _ p i _ t); try reflexivity; auto.
  - cbn. destruct (ti_cnt _ _ T). lia.
  - intros q t1 H. cbn. rewrite !fset2_ne by tauto. auto.
  - rewrite EX. simpl. auto.
  - intros t1 Ht. rewrite EX. cbn [dat waiton fresh]. rewrite mem_z_cons by exact Ht. repeat split. discriminate.
  - cbn. f2. apply (HP (fset (a_thr s p) i (TFWait w g ps))); auto.
    + intros j Hj. apply fset_ne. exact Hj.
    + rewrite fset_eq, EX. reflexivity.
    + rewrite fset_eq. reflexivity.
  - intros; discriminate.
Qed.

Lemma inv_send_flush s p i t todo g w ps : inv s -> a_thr s p i = TFSend (t :: todo) g w ps ->
  inv (set_thr (send s p t (MH (HFlush g))) p i (TFSend todo g (w ++ [t]) ps)).
Proof.
  intros I EX. pose proof (in_t _ I p) as T. pose proof (in_p _ I p) as P.
  pose proof (ti_ok _ _ T i) as OK. rewrite EX in OK. simpl in OK.
  assert (HN : mem_z t w = false).
  { apply mem_z_false. intros H. apply NoDup_remove_2 in OK. apply OK. apply in_or_app. left. exact H. }
  eapply (inv_upd s _ p i _ t); try reflexivity; auto.
  - cbn. destruct (ti_cnt _ _ T). lia.
  - intros q t1 H. cbn. rewrite !fset2_ne by tauto. auto.
  - rewrite EX. simpl. auto.
  - simpl. rewrite <- app_assoc. exact OK.
  - intros t1 Ht. rewrite EX. cbn [dat waiton fresh]. rewrite mem_z_app by exact Ht. repeat split. auto.
  - cbn. f2. eapply PI_send_hdr; [apply P|lia|symmetry; apply app_nil_r| | | | | |].
    + simpl. intros g' [<-|[]]. split.
      * apply (pi_fresh _ _ _ _ _ _ _ _ _ (P t) i). rewrite EX. simpl. rewrite HN. reflexivity.
      * apply (ti_tag _ _ T i). rewrite EX. reflexivity.
    + simpl. intros r [].
    + destruct (pi_scan _ _ _ _ _ _ _ _ _ (P t)) as (S & S1 & S2 & S3).
      exists S. split; [apply scan_snoc_flush; exact S1|]. split; [exact S2|]. intros g' d. rewrite S3.
      split; intros (j & Hj); exists j; fc j i; try rewrite EX in *; simpl in *; congruence.
    + intros j y Hj. fc j i; [|exact Hj]. rewrite EX in Hj. simpl in Hj. rewrite HN in Hj. discriminate.
    + simpl. intros y ->. exists i. rewrite fset_eq. simpl.
      replace (mem_z t (w ++ [t])) with true; [reflexivity|]. symmetry. apply mem_z_spec. apply in_or_app. right; left; reflexivity.
    + intros j g' Hj. fc j i.
      * simpl in Hj. replace (mem_z t (w ++ [t])) with true in Hj; [discriminate|].
        symmetry. apply mem_z_spec. apply in_or_app. right; left; reflexivity.
      * split; [exact Hj|]. simpl. intros [<-|[]]. apply fresh_tag in Hj.
        assert (j = i) by (eapply (ti_uniq _ _ T); eauto; rewrite EX; reflexivity). congruence.
  - intros; discriminate.
Qed.

Lemma inv_send_term s p i : inv s -> a_thr s p i = TFin -> inv (set_thr (send s p p (MH HTerm)) p i TStop).
Proof.
  intros I EX. pose proof (in_t _ I p) as T. pose proof (in_p _ I p) as P.
  eapply (inv_upd s _ p i _ p); try reflexivity; auto.
  - cbn. destruct (ti_cnt _ _ T). lia.
  - intros q t1 H. cbn. rewrite !fset2_ne by tauto. auto.
  - discriminate.
  - intros t1 Ht. rewrite EX. repeat split. discriminate.
  - cbn. f2. eapply PI_send_hdr; [apply P|lia|symmetry; apply app_nil_r| | | | | |].
    + simpl. intros g' [].
    + simpl. intros r [].
    + destruct (pi_scan _ _ _ _ _ _ _ _ _ (P p)) as (S & S1 & S2 & S3).
      exists S. split; [apply scan_snoc_term; exact S1|]. split; [exact S2|]. intros g' d. rewrite S3.
      split; intros (j & Hj); exists j; fc j i; try rewrite EX in *; simpl in *; congruence.
    + intros j y Hj. fc j i; [|exact Hj]. rewrite EX in Hj. discriminate.
    + simpl. intros y [].
    + intros j g' Hj. fc j i; [discriminate|]. split; [exact Hj|]. simpl. tauto.
  - intros; discriminate.
Qed.

Lemma cbp_ne x q p g r : q <> p -> x = CbRecv q g r \/ x = CbAbort q r -> cbp x p = CN.
Proof. intros H [->| ->]; simpl; (destruct (Z.eqb_spec q p); [contradiction|reflexivity]). Qed.

(** The callback of a request whose message(s) have been taken from the channel. *)
Lemma inv_run_cb s t p g r od c : inv s -> od = rq_data r ->
  (forall q, q <> p -> cbp (a_cb s t) q = CN) ->
  (forall x, PI (a_cnt s p) (a_thr s p) t CN c (match rq_kind r with KFetch => a_ack s t p ++ [(g, Some (r, x))] | _ => a_ack s t p end)
     (a_issued s p t) (a_log s t ++ [(p, r, x)]) p) ->
  PI (a_cnt s p) (a_thr s p) t (CA r) c (a_ack s t p) (a_issued s p t) (a_log s t) p ->
  inv (run_cb exec (set_comm s p t c) t p g r od).
Proof.
  intros I -> HC H1 H2. unfold run_cb. cbn [a_mem set_comm].
  assert (HB : forall o, o = set_cb (set_comm s p t c) t (CbAbort p r) -> inv o).
  { intros o ->. apply (inv_cb s _ p t I); try reflexivity.
    - intros q t1 H. cbn. rewrite !fset2_ne by exact H. auto.
    - intros t1 Ht. cbn. rewrite fset_ne by exact Ht. auto.
    - intros q Hq. cbn. rewrite fset_eq, HC by exact Hq. simpl. destruct (Z.eqb_spec p q); [congruence|reflexivity].
    - cbn. rewrite fset_eq. discriminate.
    - left. reflexivity.
    - apply (in_log _ I).
    - cbn. f2. rewrite fset_eq. simpl. rewrite Z.eqb_refl. exact H2. }
  destruct (exec (rq_args r) (rq_data r) (a_mem s t)) as [[m x]| | |] eqn:E; try (apply HB; reflexivity).
  cbn zeta.
  assert (HL : logok (m0 t) (a_log s t ++ [(p, r, x)]) m) by (eapply lo_snoc; [apply (in_log _ I)|exact E]).
  specialize (H1 x).
  assert (HK : rq_kind r = KFetch \/ match rq_kind r with KFetch => False | _ => True end) by (destruct (rq_kind r); auto).
  destruct HK as [K|K].
  - rewrite K in *. apply (inv_cb s _ p t I); try reflexivity.
    + intros q t1 H. cbn. rewrite !fset2_ne by tauto. auto.
    + intros t1 Ht. cbn. rewrite !fset_ne by exact Ht. auto.
    + intros q Hq. cbn. rewrite fset_eq, HC by exact Hq. reflexivity.
    + cbn. rewrite fset_eq. discriminate.
    + right. exists r, x. cbn. rewrite fset_eq. reflexivity.
    + cbn. rewrite !fset_eq. exact HL.
    + cbn. f2. rewrite !fset_eq. exact H1.
  - replace (match rq_kind r with KFetch => _ | _ => set_cb (handled (set_comm s p t c) t m p r x) t CbIdle end)
      with (set_cb (handled (set_comm s p t c) t m p r x) t CbIdle) by (destruct (rq_kind r); [reflexivity|reflexivity|contradiction]).
    replace (match rq_kind r with KFetch => _ | _ => a_ack s t p end) with (a_ack s t p) in H1 by (destruct (rq_kind r); [reflexivity|reflexivity|contradiction]).
    apply (inv_cb s _ p t I); try reflexivity.
    + intros q t1 H. cbn. rewrite !fset2_ne by tauto. auto.
    + intros t1 Ht. cbn. rewrite !fset_ne by exact Ht. auto.
    + intros q Hq. cbn. rewrite fset_eq, HC by exact Hq. reflexivity.
    + cbn. rewrite fset_eq. discriminate.
    + right. exists r, x. cbn. rewrite fset_eq. reflexivity.
    + cbn. rewrite !fset_eq. exact HL.
    + cbn. f2. rewrite !fset_eq. exact H1.
Qed.

Lemma inv_cb_step s t p any : inv s -> inv (fst (step exec ub n s (LCb t p any))).
Proof.
  intros I. unfold step. destruct (is_pe n t && is_pe n p); [|exact I].
  destruct (a_cb s t) as [|q g r| |q r|] eqn:EC; try exact I.
  - destruct (take_hdr any (a_comm s p t)) as [[m c]|] eqn:E; [|exact I].
    pose proof (in_p _ I p t) as P. rewrite EC in P. cbn [cbp] in P.
    destruct (pi_scan _ _ _ _ _ _ _ _ _ P) as (S & S1 & _).
    destruct (scan_head any _ S m c S1 E) as (h & -> & Ec). rewrite Ec in P. cbn zeta.
    assert (HC : forall q, cbp (a_cb s t) q = CN) by (intros q; rewrite EC; reflexivity).
    destruct h as [g r|g|].
    + destruct (rq_kind r) eqn:K.
      * cbn [fst]. destruct (PI_cb_req _ _ _ _ _ _ _ _ _ _ P) as [P1 P2]; [congruence|].
        assert (ED : rq_data r = None).
        { pose proof (pi_ok _ _ _ _ _ _ _ _ _ P r (or_introl eq_refl)) as O. unfold req_ok in O. rewrite K in O.
          destruct (rq_data r); [discriminate|reflexivity]. }
        apply inv_run_cb; auto.
      * cbn [fst]. apply (inv_cb s _ p t I); try reflexivity.
        -- intros q t1 H. cbn. rewrite !fset2_ne by tauto. auto.
        -- intros t1 Ht. cbn. rewrite !fset_ne by exact Ht. auto.
        -- intros q Hq. cbn. rewrite fset_eq, HC. simpl. destruct (Z.eqb_spec p q); [congruence|reflexivity].
        -- cbn. rewrite fset_eq. discriminate.
        -- left. reflexivity.
        -- apply (in_log _ I).
        -- cbn. f2. rewrite fset_eq. simpl. rewrite Z.eqb_refl. apply PI_cb_put; assumption.
      * cbn [fst]. destruct (PI_cb_req _ _ _ _ _ _ _ _ _ _ P) as [P1 P2]; [congruence|].
        assert (ED : rq_data r = None).
        { pose proof (pi_ok _ _ _ _ _ _ _ _ _ P r (or_introl eq_refl)) as O. unfold req_ok in O. rewrite K in O.
          destruct (rq_data r); [discriminate|reflexivity]. }
        apply inv_run_cb; auto.
    + cbn [fst]. apply (inv_cb s _ p t I); try reflexivity.
      * intros q t1 H. cbn. rewrite !fset2_ne by tauto. auto.
      * intros t1 Ht. cbn. auto.
      * cbn. apply (in_bad _ I).
      * left. reflexivity.
      * apply (in_log _ I).
      * cbn. f2. rewrite HC. apply PI_cb_flush. exact P.
    + cbn [fst]. apply (inv_cb s _ p t I); try reflexivity.
      * intros q t1 H. cbn. rewrite !fset2_ne by tauto. auto.
      * intros t1 Ht. cbn. rewrite fset_ne by exact Ht. auto.
      * intros q Hq. cbn. rewrite fset_eq, HC. reflexivity.
      * cbn. rewrite fset_eq. discriminate.
      * left. reflexivity.
      * apply (in_log _ I).
      * cbn. f2. rewrite fset_eq. simpl. apply PI_cb_term. exact P.
  - destruct (take_data g (a_comm s q t)) as [[d c]|] eqn:E; [|exact I]. cbn [fst].
    pose proof (in_p _ I q t) as P. rewrite EC in P. cbn [cbp] in P. rewrite Z.eqb_refl in P.
    destruct (PI_cb_data _ _ _ _ _ _ _ _ _ _ _ _ P E) as (ED & P1 & P2).
    destruct (pi_cb _ _ _ _ _ _ _ _ _ P g r eq_refl) as [K _].
    apply inv_run_cb; auto.
    + intros q' Hq. rewrite EC. simpl. destruct (Z.eqb_spec q q'); [congruence|reflexivity].
    + rewrite K. exact P1.
Qed.

Lemma inv_init : inv (a_init m0).
Proof.
  constructor.
  - intros p. constructor; try (intros; discriminate). simpl. unfold PTAG_START, INT_MAX. lia. simpl. auto.
  - intros p t. constructor; simpl; try (intros; discriminate); try tauto.
    + exists []. split; [constructor|]. split; [constructor|]. intros g d. split; [intros []|intros (i & H); discriminate].
    + constructor.
    + intros x [(m & [] & _)|(a & [] & _)].
  - intros t. discriminate.
  - intros t. constructor.
  - intros; discriminate.
Qed.

Lemma inv_step s l : inv s -> inv (fst (step exec ub n s l)).
Proof.
  intros I. destruct l as [p i t r|p i ps|p i|p i|t p any]; [| | | |apply inv_cb_step; exact I].
  - unfold step. destruct (is_pe n p && is_pe n t && req_ok r) eqn:E; [|exact I].
    destruct (a_thr s p i) eqn:EX; try exact I. cbn zeta.
    apply andb_true_iff in E. destruct E as [_ HO]. pose proof (in_t _ I p) as T.
    assert (HA : forall st, st = set_thr (set_called s p t (a_called s p t ++ [r])) p i TAbort -> inv st).
    { intros st ->. apply (inv_silent s _ p i TAbort I); try reflexivity; auto.
      - cbn. destruct (ti_cnt _ _ T). lia.
      - discriminate.
      - intros t1. rewrite EX. repeat split. discriminate.
      - discriminate. }
    assert (HT : rq_kind r <> KPost -> inv (fst match am_ptag true ub (a_cnt (set_called s p t (a_called s p t ++ [r])) p) with
              | Ok g => (set_thr (set_cnt (set_called s p t (a_called s p t ++ [r])) p (am_ptag_next (a_cnt (set_called s p t (a_called s p t ++ [r])) p))) p i (TTag t g r), @nil (aev A D R))
              | _ => (set_thr (set_called s p t (a_called s p t ++ [r])) p i TAbort, [])
              end)).
    { intros K. cbn [a_cnt set_called]. destruct (am_ptag true ub (a_cnt s p)) as [g| | |] eqn:EG; try (apply HA; reflexivity).
      destruct (am_ptag_ok _ _ (proj1 (ti_cnt _ _ T)) (proj2 (ti_cnt _ _ T)) EG) as (-> & EN & HB).
      cbn [fst]. apply (inv_silent s _ p i (TTag t (a_cnt s p + PTAG_START) r) I); try reflexivity.
      - intros q Hq. cbn. apply fset_ne. exact Hq.
      - cbn. rewrite fset_eq, EN. lia.
      - cbn. rewrite fset_eq, EN. lia.
      - cbn. rewrite fset_eq, EN. intros g [= <-]. right. lia.
      - simpl. auto.
      - intros t1. rewrite EX. repeat split. cbn. intros g [= <-]. right. lia.
      - discriminate. }
    destruct (rq_kind r) eqn:K; [|apply HT; discriminate|apply HT; discriminate].
    cbn [fst]. apply (inv_send_req s p i t 0 r (TFlag t true r None)); auto. rewrite K. reflexivity.
  - unfold step. destruct (is_pe n p && forallb (is_pe n) ps && nodup_z ps) eqn:E; [|exact I].
    apply andb_true_iff in E. destruct E as [_ HO]. pose proof (in_t _ I p) as T.
    destruct (a_thr s p i) eqn:EX; try exact I. cbn [fst].
    apply (inv_silent s _ p i (TFCount ps ps) I); try reflexivity.
    + cbn. destruct (ti_cnt _ _ T). lia.
    + discriminate.
    + simpl. apply nodup_z_spec. exact HO.
    + intros t1. rewrite EX. repeat split. discriminate.
    + discriminate.
  - unfold step. destruct (is_pe n p && (i =? 0)); [|exact I]. pose proof (in_t _ I p) as T.
    destruct (a_thr s p i) eqn:EX; try exact I. cbn [fst].
    apply (inv_silent s _ p i TFin I); try reflexivity.
    + cbn. destruct (ti_cnt _ _ T). lia.
    + discriminate.
    + intros t1. rewrite EX. repeat split. discriminate.
    + discriminate.
  - unfold step. destruct (is_pe n p); [|exact I]. pose proof (in_t _ I p) as T.
    pose proof (ti_ok _ _ T i) as OK.
    assert (SIL : forall x', a_cnt s p + PTAG_START <= INT_MAX -> thr_ok x' ->
       (forall g, ttag x' = Some g -> ttag (a_thr s p i) = Some g) ->
       (forall t, dat x' t = dat (a_thr s p i) t /\ waiton x' t = waiton (a_thr s p i) t /\
          forall g, fresh x' t = Some g -> fresh (a_thr s p i) t = Some g) ->
       (forall t v r x, x' <> TFlag t v r x) -> inv (set_thr s p i x') /\ forall t v, inv (set_thr (set_flag s p t v) p i x')).
    { intros x' H1 H2 H3 H4 H5. split; [|intros t v]; (apply (inv_silent s _ p i x' I); try reflexivity; auto;
        intros t1; destruct (H4 t1) as (A1 & A2 & A3); auto). }
    assert (HB : a_cnt s p + PTAG_START <= INT_MAX) by (destruct (ti_cnt _ _ T); lia).
    destruct (a_thr s p i) as [|t g r|t g r|t g r|t v r x|todo ps|todo g w ps|w g ps|todo ps| | |] eqn:EX; try exact I.
    + cbn [fst]. simpl in OK. destruct OK as [OK1 OK2].
      assert (EQ : inv (set_thr (send_req (set_called s p t (a_called s p t)) p t g r) p i
                (match rq_kind r with KPut => TData t g r | _ => TAck t g r end))).
      { apply inv_send_req; auto; [right; eauto|intros K; contradiction|]. destruct (rq_kind r); [contradiction|reflexivity|reflexivity]. }
      destruct EQ. constructor; cbn in *; assumption.
    + destruct (rq_data r) as [d|] eqn:ED; [|exact I]. cbn [fst]. apply inv_send_data; assumption.
    + destruct (take_ack g (a_ack s t p)) as [[y c]|] eqn:E; [|exact I].
      destruct (inv_ack s p i t g r y c I EX E) as (x & -> & H). exact H.
    + cbn [fst]. apply SIL; auto; try discriminate; try exact Logic.I.
    + destruct todo as [|t rest]; [cbn [fst]; apply SIL; auto; try discriminate; try exact Logic.I|].
      destruct (a_flag s p t); [|cbn [fst]; apply SIL; auto; discriminate].
      destruct (am_ptag true ub (a_cnt s p)) as [g| | |] eqn:EG;
        try (cbn [fst]; apply SIL; auto; try discriminate; try exact Logic.I).
      destruct (am_ptag_ok _ _ (proj1 (ti_cnt _ _ T)) (proj2 (ti_cnt _ _ T)) EG) as (-> & EN & HB2).
      cbn [fst]. apply (inv_silent s _ p i (TFSend ps (a_cnt s p + PTAG_START) [] ps) I); try reflexivity.
      * intros q Hq. cbn. apply fset_ne. exact Hq.
      * cbn. rewrite fset_eq, EN. lia.
      * cbn. rewrite fset_eq, EN. lia.
      * cbn. rewrite fset_eq, EN. intros g [= <-]. right. lia.
      * simpl. exact OK.
      * intros t1. rewrite EX. repeat split. cbn. intros g [= <-]. right. lia.
      * discriminate.
    + destruct todo as [|t rest].
      * cbn [fst]. simpl in OK; rewrite app_nil_r in OK. apply SIL; auto; try discriminate. intros t1. cbn. repeat split. discriminate.
      * destruct (a_flag s p t); cbn [fst]; [apply inv_send_flush; assumption|].
        apply SIL; auto; try discriminate. simpl in *. apply NoDup_remove_1 in OK. exact OK.
    + destruct w as [|t rest]; [cbn [fst]; apply SIL; auto; try discriminate; try exact Logic.I|].
      destruct (take_ack g (a_ack s t p)) as [[y c]|] eqn:E; [|exact I]. cbn [fst].
      eapply inv_flush_ack; eauto.
    + destruct todo as [|t rest]; cbn [fst]; apply SIL; auto; try discriminate; try exact Logic.I.
    + destruct (forallb _ (zrange n)); [|exact I]. cbn [fst]. apply inv_send_term; assumption.
Qed.

Lemma inv_run ls : forall s, inv s -> inv (fst (run exec ub n s ls)).
Proof.
  induction ls as [|l ls IH]; intros s I; [exact I|]. simpl.
  pose proof (inv_step s l I) as I1. destruct (step exec ub n s l) as [s1 e1]. specialize (IH s1 I1).
  destruct (run exec ub n s1 ls) as [s2 e2]. exact IH.
Qed.
End AmProofs.
