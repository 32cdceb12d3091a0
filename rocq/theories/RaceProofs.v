(** Race-free accesses: what is read is what was written last. *)
From Verif Require Import Base BaseProofs AmCfgModel OrderModel OrderSpec OrderProofs OrderProofs2 OrderProofs3 DataModel DataSpec DataProofs RaceSpec.

Lemma writes_wval d t a v : writes d t a v <-> wval d t a = Some v.
Proof.
  split.
  - intros (b & bs & j & -> & -> & E). unfold wval. rewrite Z.eqb_refl. destruct (Z.leb_spec b (b + Z.of_nat j)); [|lia]. simpl.
    replace (b + Z.of_nat j - b) with (Z.of_nat j) by lia. rewrite Nat2Z.id. exact E.
  - destruct d as [t' b bs|]; [|discriminate]. simpl. destruct (Z.eqb_spec t' t) as [->|]; [|discriminate].
    destruct (Z.leb_spec b a); [|discriminate]. simpl. intros E. exists b, bs, (Z.to_nat (a - b)). repeat split; auto; lia.
Qed.

Section Race.
Variable c : oconf.
Variable W : Z -> Z -> opd.
Variable m0 : Z -> Z -> Z.
Variables t a : Z.
Notation mstep := (mstep c W).
Notation mrun := (mrun c W).
Notation land := (land W).
Notation lw := (lastw W t a (m0 t a)).
Notation ord := (fun log => ordered W log t a).

Definition st_of (e : Z * oev) : option (Z * Z) :=
  match e with (p, EStart _ (CRma _ _ _ id _ _)) => Some (p, id) | _ => None end.
Definition isw (e : Z * oev) : option Z := match st_of e with Some (p, id) => wval (W p id) t a | None => None end.
Lemma lastw_app l : forall v l', lastw W t a v (l ++ l') = lastw W t a (lastw W t a v l) l'.
Proof.
  induction l as [|[p e] l IH]; intros v l'; [reflexivity|]. destruct e as [i cl|i cl|id]; simpl; auto. destruct cl; simpl; auto.
Qed.
Lemma lastw_none l : forall v, (forall e, In e l -> isw e = None) -> lastw W t a v l = v.
Proof.
  induction l as [|[p e] l IH]; intros v H; [reflexivity|]. assert (H' : forall e, In e l -> isw e = None) by (intros; apply H; right; auto).
  specialize (H _ (or_introl eq_refl)). unfold isw in H. destruct e as [i cl|i cl|id]; simpl in *; auto. destruct cl; simpl in *; auto.
  rewrite H. auto.
Qed.
Lemma lastw_cons e l v : lastw W t a v (e :: l) = lastw W t a (match isw e with Some x => x | None => v end) l.
Proof. destruct e as [p [i cl|i cl|id]]; try reflexivity. destruct cl; reflexivity. Qed.

Lemma issued_st log p id : issued log p id <-> exists e, In e log /\ st_of e = Some (p, id).
Proof.
  split.
  - intros (i & x & o & k & t' & dev & H). exists (p, EStart i (CRma x o k id t' dev)). auto.
  - intros ([q [i cl|i cl|j]] & H & E); try discriminate. destruct cl; try discriminate. simpl in E. injection E as -> ->.
    exists i, x, o, k, t0, dev. exact H.
Qed.
Lemma st_inv e p id : st_of e = Some (p, id) -> exists i x o k t' dev, e = (p, EStart i (CRma x o k id t' dev)).
Proof. destruct e as [q [i cl|i cl|j]]; try discriminate. destruct cl; try discriminate. simpl. intros E. injection E as -> ->. eauto 10. Qed.

(** The byte of writer [(p, id)] has been transferred. *)
Definition hasl (s : mst) (p id : Z) : Prop := forall b bs j, W p id = Wr t b bs -> a = b + Z.of_nat j -> (j < length bs)%nat -> m_land s p id j = true.
Definition wr_of (p id : Z) : Prop := exists v, wval (W p id) t a = Some v.

Definition JM (log : list (Z * oev)) (s : mst) : Prop :=
  ((forall p id, issued log p id -> wr_of p id -> hasl s p id) /\ m_mem s t a = lw log) \/
  (exists u e v p id, log = u ++ e :: v /\ st_of e = Some (p, id) /\ wr_of p id /\ (forall e', In e' v -> isw e' = None) /\
     (forall p' id', issued log p' id' -> wr_of p' id' -> (p', id') <> (p, id) -> hasl s p' id') /\
     (exists b bs j, W p id = Wr t b bs /\ a = b + Z.of_nat j /\ (j < length bs)%nat /\ m_land s p id j = false) /\
     m_mem s t a = lw u).
Definition JR (log : list (Z * oev)) (s : mst) : Prop :=
  forall q g b n j, W q g = Rd t b n -> a = b + Z.of_nat j -> m_land s q g j = true ->
  exists u e v, log = u ++ e :: v /\ st_of e = Some (q, g) /\ ~ issued u q g /\ m_res s q g j = lw u.

Lemma hasl_mono s s' p id : mono s s' -> hasl s p id -> hasl s' p id.
Proof. intros M H b bs j E1 E2 E3. apply M. eapply H; eauto. Qed.
Lemma done_hasl log s p id : I W m0 log s -> In (p, EDone id) log -> hasl s p id.
Proof. intros [D _ _] H b bs j E1 E2 E3. apply D; [exact H|rewrite E1; exact E3]. Qed.

Lemma land_JM log s p id j : issued log p id -> JM log s -> JM log (land s p id j).
Proof.
  intros HS H. pose proof (land_mono W m0 s p id j) as MO. unfold DataModel.land in *.
  destruct (m_land s p id j) eqn:EL; [exact H|]. destruct (W p id) as [t1 b1 bs1|t1 b1 n1] eqn:EW.
  - destruct (nth_error bs1 j) as [v|] eqn:EN; [|exact H].
    assert (JL : (j < length bs1)%nat) by (apply nth_error_Some; congruence).
    destruct (Z.eq_dec t1 t) as [ET|NT]; [destruct (Z.eq_dec a (b1 + Z.of_nat j)) as [EA|NA]|].
    + subst t1. assert (WV : wval (W p id) t a = Some v) by (apply writes_wval; exists b1, bs1, j; auto).
      destruct H as [[H1 H2]|(u & e & w & q & i & H1 & H2 & H3 & H4 & H5 & H6 & H7)].
      { exfalso. specialize (H1 p id HS ltac:(exists v; exact WV) _ _ _ EW EA JL). congruence. }
      assert (EQ : (p, id) = (q, i)).
      { destruct (Z.eq_dec p q) as [E1|N1]; [destruct (Z.eq_dec id i) as [E2|N2]; [congruence|]|]; exfalso;
          specialize (H5 p id HS ltac:(exists v; exact WV) ltac:(congruence) _ _ _ EW EA JL); congruence. }
      injection EQ as <- <-. left. split.
      * intros p' id' F1 F2. destruct (Z.eq_dec p' p) as [->|N1]; [destruct (Z.eq_dec id' id) as [->|N1]|].
        -- intros b bs k E1 E2 E3. rewrite EW in E1. injection E1 as <- <-. assert (k = j) by lia. subst k. simpl. apply upd3_eq.
        -- eapply hasl_mono; [exact MO|]. apply H5; auto. congruence.
        -- eapply hasl_mono; [exact MO|]. apply H5; auto. congruence.
      * simpl. unfold wr. rewrite Z.eqb_refl, EA, Z.eqb_refl. simpl. rewrite <- EA. rewrite H1, lastw_app, lastw_cons. rewrite lastw_none by exact H4.
        unfold isw. rewrite H2, WV. reflexivity.
    + assert (EM : m_mem (mkMst (m_g s) (wr (m_mem s) t1 (b1 + Z.of_nat j) v) (upd3 (m_land s) p id j true) (m_res s)) t a = m_mem s t a).
      { simpl. unfold wr. destruct (Z.eqb_spec a (b1 + Z.of_nat j)); [contradiction|]. rewrite andb_false_r. reflexivity. }
      destruct H as [[H1 H2]|(u & e & w & q & i & H1 & H2 & H3 & H4 & H5 & (b & bs & k & K1 & K2 & K3 & K4) & H7)].
      * left. split; [intros; eapply hasl_mono; [exact MO|auto]|rewrite EM; exact H2].
      * right. exists u, e, w, q, i. repeat (split; [assumption|]). split; [intros; eapply hasl_mono; [exact MO|auto]|].
        split; [|rewrite EM; exact H7]. exists b, bs, k. repeat (split; [assumption|]). simpl.
        destruct (upd3_cases W m0 (m_land s) p id j true q i k) as [(-> & -> & -> & _)|[_ ->]]; [|exact K4].
        rewrite EW in K1. injection K1 as _ <- _. contradiction.
    + assert (EM : m_mem (mkMst (m_g s) (wr (m_mem s) t1 (b1 + Z.of_nat j) v) (upd3 (m_land s) p id j true) (m_res s)) t a = m_mem s t a).
      { simpl. unfold wr. destruct (Z.eqb_spec t t1); [congruence|]. reflexivity. }
      destruct H as [[H1 H2]|(u & e & w & q & i & H1 & H2 & H3 & H4 & H5 & (b & bs & k & K1 & K2 & K3 & K4) & H7)].
      * left. split; [intros; eapply hasl_mono; [exact MO|auto]|rewrite EM; exact H2].
      * right. exists u, e, w, q, i. repeat (split; [assumption|]). split; [intros; eapply hasl_mono; [exact MO|auto]|].
        split; [|rewrite EM; exact H7]. exists b, bs, k. repeat (split; [assumption|]). simpl.
        destruct (upd3_cases W m0 (m_land s) p id j true q i k) as [(-> & -> & -> & _)|[_ ->]]; [|exact K4].
        rewrite EW in K1. congruence.
  - destruct (Nat.ltb_spec j n1); [|exact H].
    destruct H as [[H1 H2]|(u & e & w & q & i & H1 & H2 & H3 & H4 & H5 & (b & bs & k & K1 & K2 & K3 & K4) & H7)].
    + left. split; [intros; eapply hasl_mono; [exact MO|auto]|exact H2].
    + right. exists u, e, w, q, i. repeat (split; [assumption|]). split; [intros; eapply hasl_mono; [exact MO|auto]|].
      split; [|exact H7]. exists b, bs, k. repeat (split; [assumption|]). simpl.
      destruct (upd3_cases W m0 (m_land s) p id j true q i k) as [(-> & -> & -> & _)|[_ ->]]; [|exact K4].
      rewrite EW in K1. congruence.
Qed.

(** Operations that read or write the byte have been started once. *)
Lemma split_first log q g : ord log -> issued log q g -> ((exists y, writes (W q g) t a y) \/ reads (W q g) t a) ->
  exists u e v, log = u ++ e :: v /\ st_of e = Some (q, g) /\ ~ issued u q g /\
    forall p' id', issued u p' id' -> conflict (W p' id') (W q g) t a -> In (p', EDone id') u.
Proof.
  intros O HS HT. apply issued_st in HS. destruct HS as (e & HI & E). apply in_split in HI. destruct HI as (u & v & EL).
  destruct (st_inv _ _ _ E) as (i & x & o & k & t' & dev & ->). exists u, (q, EStart i (CRma x o k g t' dev)), v.
  destruct (O _ _ _ _ _ _ _ _ _ _ EL HT) as [O1 O2]. auto.
Qed.

Lemma land_JR log s p id j : ord log -> I W m0 log s -> issued log p id -> JM log s -> JR log s -> JR log (land s p id j).
Proof.
  intros O HI HS HM HR q g b n k EW EA HL.
  assert (K : m_land s q g k = true -> (q <> p \/ g <> id \/ k <> j) \/ m_land s p id j = true).
  { intros F. destruct (Z.eq_dec q p) as [->|]; [|tauto]. destruct (Z.eq_dec g id) as [->|]; [|tauto]. destruct (Nat.eq_dec k j) as [->|]; tauto. }
  destruct (land_only _ m0 _ _ _ _ _ _ _ HL) as [F|(-> & -> & -> & F)].
  - destruct (HR q g b n k EW EA F) as (u & e & v & H1 & H2 & H3 & H4). exists u, e, v. repeat (split; [assumption|]).
    rewrite <- H4. unfold DataModel.land. destruct (m_land s p id j) eqn:EL; [reflexivity|].
    destruct (K F) as [F1|F1]; [|discriminate].
    destruct (W p id) as [t1 a1 bs1|t1 a1 n1]; [destruct (nth_error bs1 j); reflexivity|destruct (j <? n1)%nat; [|reflexivity]]. simpl.
    destruct (upd3_cases W m0 (m_res s) p id j (m_mem s t1 (a1 + Z.of_nat j)) q g k) as [(-> & -> & -> & _)|[_ ->]]; [|reflexivity].
    destruct F1 as [F1|[F1|F1]]; contradiction.
  - destruct (m_land s p id j) eqn:EL; [destruct (HR p id b n j EW EA EL) as (u & e & v & H1); exists u, e, v; unfold DataModel.land; rewrite EL; exact H1|].
    rewrite EW in F. simpl in F.
    assert (RD : reads (W p id) t a) by (exists b, n, j; auto).
    destruct (split_first log p id O HS (or_intror RD)) as (u & e & v & E1 & E2 & E3 & E4).
    assert (NW : forall e', In e' v -> isw e' = None).
    { intros e' Hv. destruct (isw e') as [y|] eqn:EY; [exfalso|reflexivity]. unfold isw in EY. destruct (st_of e') as [[p' id']|] eqn:ES; [|discriminate].
      apply in_split in Hv. destruct Hv as (v1 & v2 & ->). destruct (st_inv _ _ _ ES) as (i & x & o & kk & t' & dev & ->).
      assert (EL2 : log = (u ++ e :: v1) ++ (p', EStart i (CRma x o kk id' t' dev)) :: v2) by (rewrite E1, <- app_assoc; reflexivity).
      destruct (O _ _ _ _ _ _ _ _ _ _ EL2) as [_ O2]; [left; exists y; apply writes_wval; exact EY|].
      assert (D : In (p, EDone id) (u ++ e :: v1)).
      { apply O2; [apply issued_st; exists e; split; [apply in_or_app; right; left; reflexivity|exact E2]|].
        right. split; [exact RD|]. exists y. apply writes_wval. exact EY. }
      destruct HI as [D1 _ _]. specialize (D1 p id j). rewrite EL in D1. rewrite EW in D1.
      assert (X : false = true); [apply D1; [rewrite EL2; apply in_or_app; left; exact D|exact F]|discriminate]. }
    assert (ALL : forall p' id', issued log p' id' -> wr_of p' id' -> hasl s p' id').
    { intros p' id' F1 [y F2]. apply (done_hasl log s p' id' HI). rewrite E1. apply in_or_app. left.
      apply E4; [|left; split; [exists y; apply writes_wval; exact F2|right; exact RD]].
      apply issued_st in F1. destruct F1 as (e' & G1 & G2). apply issued_st. rewrite E1 in G1. apply in_app_or in G1.
      destruct G1 as [G1|[<-|G1]]; [exists e'; auto| |].
      - exfalso. rewrite E2 in G2. injection G2 as <- <-. rewrite EW in F2. discriminate.
      - exfalso. specialize (NW _ G1). unfold isw in NW. rewrite G2 in NW. congruence. }
    exists u, e, v. repeat (split; [assumption|]).
    assert (EM : m_mem s t a = lw log).
    { destruct HM as [[_ H2]|(u' & e' & w & q & i & H1 & H2 & H3 & _ & _ & (b' & bs & k' & K1 & K2 & K3 & K4) & _)]; [exact H2|exfalso].
      assert (X : m_land s q i k' = true); [|congruence]. eapply (ALL q i); eauto.
      apply issued_st. exists e'. split; [rewrite H1; apply in_or_app; right; left; reflexivity|exact H2]. }
    unfold DataModel.land. rewrite EL, EW. destruct (Nat.ltb_spec j n); [|lia]. simpl. rewrite upd3_eq, <- EA, EM, E1, lastw_app, lastw_cons, lastw_none by exact NW.
    unfold isw. rewrite E2, EW. reflexivity.
Qed.

Definition J (log : list (Z * oev)) (s : mst) : Prop := JM log s /\ JR log s.
Lemma land_J log s p id j : ord log -> I W m0 log s -> issued log p id -> J log s -> J log (land s p id j).
Proof. intros O HI HS [H1 H2]. split; [apply land_JM|apply land_JR]; assumption. Qed.
Lemma land_all_J log s p id : ord log -> I W m0 log s -> issued log p id -> J log s -> I W m0 log (land_all W s p id) /\ J log (land_all W s p id).
Proof.
  intros O HI HS. unfold land_all. generalize (seq 0 (o_len (W p id))). intros l. revert s HI.
  induction l as [|j l IH]; intros s HI HR; [auto|]. simpl. apply IH; [apply land_I|apply land_J]; assumption.
Qed.
Lemma evs_J log ev : ord log -> forall s, I W m0 log s -> J log s -> (forall p id, In (p, EDone id) ev -> issued log p id) ->
  I W m0 log (fold_left (land_ev W) ev s) /\ J log (fold_left (land_ev W) ev s).
Proof.
  intros O. induction ev as [|[p e] ev IH]; intros s HI HR HD; [auto|]. simpl.
  assert (X : I W m0 log (land_ev W s (p, e)) /\ J log (land_ev W s (p, e))).
  { destruct e; simpl; auto. apply land_all_J; auto. apply HD. left; reflexivity. }
  destruct X. apply IH; auto. intros q i F. apply HD. right; exact F.
Qed.

(** Events that start no access. *)
Lemma J_quiet log ev s : (forall e, In e ev -> isw e = None) -> J log s -> J (log ++ ev) s.
Proof.
  intros NW [HM HR].
  assert (IS : forall p id, issued (log ++ ev) p id -> wr_of p id -> issued log p id).
  { intros p id F [v G]. apply issued_st in F. destruct F as (e & F1 & F2). apply in_app_or in F1. apply issued_st.
    destruct F1 as [F1|F1]; [exists e; auto|]. exfalso. specialize (NW _ F1). unfold isw in NW. rewrite F2 in NW. congruence. }
  split.
  - destruct HM as [[H1 H2]|(u & e & w & q & i & H1 & H2 & H3 & H4 & H5 & H6 & H7)].
    + left. split; [intros p id F1 F2; apply H1; auto|]. rewrite lastw_app, lastw_none; auto.
    + right. exists u, e, (w ++ ev), q, i. split; [rewrite H1, <- app_assoc; reflexivity|]. split; [exact H2|]. split; [exact H3|].
      split; [intros e' F; apply in_app_or in F; destruct F; auto|]. split; [intros p' id' F1 F2; apply H5; auto|]. auto.
  - intros q g b n j E1 E2 E3. destruct (HR q g b n j E1 E2 E3) as (u & e & v & -> & F2). exists u, e, (v ++ ev). split; [rewrite <- app_assoc; reflexivity|exact F2].
Qed.
Lemma J_start log e s p id : st_of e = Some (p, id) -> ord (log ++ [e]) -> I W m0 log s -> J log s -> J (log ++ [e]) s.
Proof.
  intros ES O HI [HM HR]. destruct (isw e) as [y|] eqn:EY; [|apply J_quiet; [intros e' [<-|[]]; exact EY|split; assumption]].
  pose proof EY as WV. unfold isw in WV. rewrite ES in WV. destruct (st_inv _ _ _ ES) as (i & x & o & k & t' & dev & EE).
  assert (HW : writes (W p id) t a y) by (apply writes_wval; exact WV).
  destruct (O log p i x o k id t' dev [] ltac:(rewrite EE; reflexivity)) as [O1 O2]; [left; eauto|].
  assert (ALL : forall p' id', issued log p' id' -> wr_of p' id' -> hasl s p' id').
  { intros p' id' F1 [y' F2]. apply (done_hasl log s p' id' HI). apply O2; [exact F1|]. left. split; [exists y'; apply writes_wval; exact F2|left; eauto]. }
  assert (EM : m_mem s t a = lw log).
  { destruct HM as [[_ H2]|(u' & e' & w & q & i' & H1 & H2 & H3 & _ & _ & (b' & bs & k' & K1 & K2 & K3 & K4) & _)]; [exact H2|exfalso].
    assert (X : m_land s q i' k' = true); [|congruence]. eapply (ALL q i'); eauto.
    apply issued_st. exists e'. split; [rewrite H1; apply in_or_app; right; left; reflexivity|exact H2]. }
  split.
  - right. exists log, e, [], p, id. split; [reflexivity|]. split; [exact ES|]. split; [exists y; exact WV|]. split; [intros e' []|].
    split; [|split; [|exact EM]].
    + intros p' id' F1 F2 N. apply ALL; [|exact F2]. apply issued_st in F1. destruct F1 as (e' & G1 & G2). apply in_app_or in G1. apply issued_st.
      destruct G1 as [G1|[<-|[]]]; [exists e'; auto|]. rewrite ES in G2. injection G2 as <- <-. contradiction.
    + destruct HW as (b & bs & j & E1 & E2 & E3). exists b, bs, j. repeat (split; [assumption|]). split; [apply nth_error_Some; congruence|].
      destruct (m_land s p id j) eqn:EL; [|reflexivity]. destruct HI as [_ L _]. destruct (L _ _ _ EL). contradiction.
  - intros q g b n j E1 E2 E3. destruct (HR q g b n j E1 E2 E3) as (u & e' & v & -> & F2). exists u, e', (v ++ [e]). split; [rewrite <- app_assoc; reflexivity|exact F2].
Qed.

Lemma ord_prefix l l' : ord (l ++ l') -> ord l.
Proof. intros O u q i x o k id t' dev v E. apply (O u q i x o k id t' dev (v ++ l')). rewrite E, <- app_assoc. reflexivity. Qed.

Lemma mstep_J log s lb s' ev : single [lb] -> mstep s lb = Ok (s', ev) -> ginv c (m_g s) log -> I W m0 log s -> ord (log ++ ev) -> J log s -> J (log ++ ev) s'.
Proof.
  intros SG E G H O HJ. destruct lb as [l|p id j]; simpl in E.
  - destruct (call_ok W l); [|injection E as <- <-; rewrite app_nil_r; exact HJ].
    destruct (gstep c (m_g s) l) as [[g' e']| | |] eqn:EG; simpl in E; try discriminate. injection E as <- <-.
    set (s1 := mkMst g' (m_mem s) (m_land s) (m_res s)).
    assert (I1 : I W m0 log s1) by (destruct H; constructor; assumption).
    assert (J1 : J log s1) by exact HJ.
    destruct (gstep_inv _ _ _ _ _ EG) as (q & lb & s2 & e1 & ES & _ & EE & _). subst e'.
    destruct (step_ev c _ _ _ _ ES) as [(j & cl & -> & _)|[(j & cl & r & -> & _)|F]].
    + simpl. destruct (st_of (q, EStart j cl)) as [[p id]|] eqn:EST; [eapply J_start; eauto|].
      apply J_quiet; [|exact J1]. intros e [<-|[]]. unfold isw. rewrite EST. reflexivity.
    + simpl. apply J_quiet; [|exact J1]. intros e [<-|[]]. reflexivity.
    + apply J_quiet; [intros e Hin; apply in_map_iff in Hin; destruct Hin as (x & <- & Hx); destruct (F _ Hx) as [id ->]; reflexivity|].
      apply evs_J; [eapply ord_prefix; exact O|exact I1|exact J1|]. intros p id HI. eapply done_issued; eauto.
      eapply glabs_one; [exact SG|left; reflexivity].
  - injection E as <- <-. rewrite app_nil_r in *. destruct (existsb (fun x => pd_id x =? id) (o_pend (m_g s p))) eqn:EX; [|exact HJ].
    apply land_J; auto. apply (issued_of _ _ _ _ _ G). right. apply existsb_exists in EX. destruct EX as (x & X1 & X2). exists x. split; [exact X1|lia].
Qed.
Lemma mrun_J ls : forall log0 s s' log, single ls -> mrun s ls = Ok (s', log) -> ginv c (m_g s) log0 -> I W m0 log0 s -> ord (log0 ++ log) -> J log0 s -> J (log0 ++ log) s'.
Proof.
  induction ls as [|lb ls IH]; intros log0 s s' log SG E G H O HJ; simpl in E; [injection E as <- <-; rewrite app_nil_r; auto|].
  destruct (mstep s lb) as [[s1 e1]| | |] eqn:E1; simpl in E; try discriminate.
  destruct (mrun s1 ls) as [[s2 e2]| | |] eqn:E2; simpl in E; try discriminate. injection E as <- <-.
  assert (SG1 : single [lb]) by (intros x [<-|[]]; apply SG; left; reflexivity).
  rewrite app_assoc in O.
  destruct (mstep_I c W m0 _ _ _ _ _ SG1 E1 G H) as (G1 & H1 & _).
  pose proof (mstep_J _ _ _ _ _ SG1 E1 G H (ord_prefix _ _ O) HJ) as J1.
  rewrite app_assoc. eapply IH; eauto. intros x Hx. apply SG. right; exact Hx.
Qed.
Lemma J_init : J [] (m_init m0).
Proof.
  split; [left; split; [|reflexivity]|intros q g b n j _ _ F; discriminate]. intros p id F. apply issued_st in F. destruct F as (e & [] & _).
Qed.

Lemma race_free ls s log : single ls -> mrun (m_init m0) ls = Ok (s, log) -> ord log ->
  (forall L1 q i x o k g t' dev L2 b n j, log = L1 ++ (q, EStart i (CRma x o k g t' dev)) :: L2 ->
     W q g = Rd t b n -> a = b + Z.of_nat j -> (j < n)%nat -> In (q, EDone g) log -> m_res s q g j = lw L1) /\
  ((forall p id v, issued log p id -> writes (W p id) t a v -> In (p, EDone id) log) -> m_mem s t a = lw log).
Proof.
  intros SG E O. destruct (mrun_from_init c W m0 _ _ _ SG E) as [G H].
  destruct (mrun_J ls [] _ _ _ SG E (ginv_init c) (I_init W m0) O J_init) as [HM HR]. rewrite app_nil_l in *. split.
  - intros L1 q i x o k g t' dev L2 b n j EL EW EA HJ HD. pose proof H as [D _ _].
    assert (LJ : m_land s q g j = true) by (apply D; [exact HD|rewrite EW; exact HJ]).
    destruct (HR q g b n j EW EA LJ) as (u & e & v & E1 & E2 & E3 & ->).
    assert (RD : reads (W q g) t a) by (exists b, n, j; auto).
    destruct (O _ _ _ _ _ _ _ _ _ _ EL (or_intror RD)) as [O1 _].
    f_equal. revert EL. rewrite E1. revert L1 O1. clear - E2 E3. induction u as [|y u IH]; intros L1 O1 EL.
    + destruct L1 as [|z L1]; [reflexivity|]. simpl in EL. injection EL as -> EL. exfalso. apply O1. apply issued_st. exists z. split; [left; reflexivity|exact E2].
    + destruct L1 as [|z L1].
      * simpl in EL. injection EL as -> EL. exfalso. apply E3. apply issued_st. exists (q, EStart i (CRma x o k g t' dev)). split; [left; reflexivity|reflexivity].
      * simpl in EL. injection EL as -> EL. f_equal. apply IH; auto; intros F; [apply E3|apply O1]; apply issued_st; apply issued_st in F;
          destruct F as (e' & F1 & F2); exists e'; split; try right; auto.
  - intros AD. destruct HM as [[_ H2]|(u' & e' & w & q & i' & H1 & H2 & [y H3] & _ & _ & (b' & bs & k' & K1 & K2 & K3 & K4) & _)]; [exact H2|exfalso].
    assert (X : m_land s q i' k' = true); [|congruence].
    eapply (done_hasl log s q i' H); eauto. apply (AD q i' y); [|apply writes_wval; exact H3].
    apply issued_st. exists e'. split; [rewrite H1; apply in_or_app; right; left; reflexivity|exact H2].
Qed.
End Race.
