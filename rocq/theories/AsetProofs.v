(** Proofs about the communicators of active sets. *)
From Verif Require Import Base BaseProofs ListLib TeamModel AsetModel AsetSpec.

(** ** Keys and sets *)
Lemma key_eqb_eq a b : key_eqb a b = true <-> a = b.
Proof.
  unfold key_eqb. destruct a, b; cbn. split.
  - intros H. apply andb_prop in H. destruct H as [H H3]. apply andb_prop in H. f_equal; lia.
  - intros E. inversion E. rewrite !Z.eqb_refl. auto.
Qed.
Lemma key_eqb_refl a : key_eqb a a = true.
Proof. apply key_eqb_eq. auto. Qed.
Lemma key_eqb_neq a b : a <> b -> key_eqb a b = false.
Proof. intros H. destruct (key_eqb a b) eqn:E; auto. apply key_eqb_eq in E. contradiction. Qed.
Lemma list_eqb_eq a : forall b, list_eqb a b = true <-> a = b.
Proof.
  induction a as [|x a IH]; intros [|y b]; cbn; split; intros H; auto; try discriminate.
  - apply andb_prop in H. destruct H as [H1 H2]. apply IH in H2. f_equal; auto. lia.
  - inversion H; subst. rewrite Z.eqb_refl. apply IH. auto.
Qed.
Lemma comm_eqb_eq a b : comm_eqb a b = true <-> a = b.
Proof.
  destruct a as [|g t o], b as [|g' t' o']; cbn; split; intros H; auto; try discriminate.
  - apply andb_prop in H. destruct H as [H H3]. apply andb_prop in H. destruct H as [H1 H2].
    apply list_eqb_eq in H1. apply Nat.eqb_eq in H3. f_equal; auto. lia.
  - inversion H; subst. rewrite Z.eqb_refl, Nat.eqb_refl.
    replace (list_eqb g' g') with true; auto. symmetry. apply list_eqb_eq. auto.
Qed.
Lemma list_eqb_refl a : list_eqb a a = true.
Proof. apply list_eqb_eq. auto. Qed.
Lemma comm_eqb_refl a : comm_eqb a a = true.
Proof. apply comm_eqb_eq. auto. Qed.

Lemma in_set_pes k p : 1 <= k_size k -> In p (set_pes k) <-> in_set k p.
Proof.
  intros Hs. unfold set_pes, in_set. rewrite in_map_iff. split.
  - intros (i & <- & Hi). apply in_seq in Hi. exists (Z.of_nat i). lia.
  - intros (i & Hi & ->). exists (Z.to_nat i). split; [|apply in_seq; lia]. rewrite Z2Nat.id by lia. auto.
Qed.
Lemma outs_map {A} (f : Z -> outcome A) (g : Z -> A) n : forall i,
  (forall j, i <= j < i + Z.of_nat n -> f j = Ok (g j)) -> outs f i n = Ok (map g (zseq i n)).
Proof.
  induction n as [|n IH]; intros i H; auto. cbn [outs]. rewrite H by lia. cbn [bind].
  rewrite IH by (intros; apply H; lia). cbn [bind]. rewrite zseq_S. auto.
Qed.
Lemma int_op_ok z : - 2 ^ 31 <= z <= INT_MAX -> int_op z = Ok z.
Proof. intros H. unfold int_op. replace ((- 2 ^ 31 <=? z) && (z <=? INT_MAX)) with true by lia. auto. Qed.

Lemma valid_bound n k i : n <= INT_MAX -> valid_set n k -> 0 <= i < k_size k ->
  0 <= i * 2 ^ k_log k /\ k_start k + i * 2 ^ k_log k < n /\ 1 <= 2 ^ k_log k.
Proof.
  intros Hn (A & B & C & D) Hi. assert (1 <= 2 ^ k_log k) by (assert (0 < 2 ^ k_log k) by (apply Z.pow_pos_nonneg; lia); lia).
  nia.
Qed.
Lemma pe_list_ok n k : n <= INT_MAX -> valid_set n k -> pe_list k = Ok (set_pes k).
Proof.
  intros Hn V. assert (V' := V). destruct V' as (A & B & C & D). unfold pe_list, shl1.
  replace (k_size k <? 1) with false by lia. replace ((0 <=? k_log k) && (k_log k <=? 30)) with true by lia.
  cbn [bind].
  rewrite (outs_map _ (fun i => k_start k + i * 2 ^ k_log k)).
  - f_equal. unfold zseq, set_pes. rewrite map_map. apply map_ext. intros; f_equal; f_equal; lia.
  - intros j Hj. destruct (valid_bound n k j Hn V ltac:(lia)) as (P & Q & _).
    rewrite int_op_ok by (unfold INT_MAX in *; lia). cbn [bind]. apply int_op_ok. unfold INT_MAX in *; lia.
Qed.
Lemma set_pes_range n k p : n <= INT_MAX -> valid_set n k -> In p (set_pes k) -> 0 <= p < n.
Proof.
  intros Hn V H. assert (V' := V). destruct V' as (A & B & C & D). apply in_set_pes in H; auto. destruct H as (i & Hi & ->).
  destruct (valid_bound n k i Hn V Hi) as (P & Q & _). lia.
Qed.
Lemma group_incl_ok n k : n <= INT_MAX -> valid_set n k -> group_incl n (set_pes k) = Ok (set_pes k).
Proof.
  intros Hn V. unfold group_incl. replace (forallb _ (set_pes k)) with true; auto. symmetry. apply forallb_forall.
  intros p Hp. apply (set_pes_range n k p Hn V) in Hp. lia.
Qed.
Lemma set_pes_length k : length (set_pes k) = Z.to_nat (k_size k).
Proof. unfold set_pes. rewrite map_length, seq_length. auto. Qed.
Lemma set_pes_inj n k k' : valid_set n k -> valid_set n k' -> 2 <= k_size k -> set_pes k = set_pes k' -> k = k'.
Proof.
  intros (A & B & C & _) (A' & B' & C' & _) S E.
  assert (L : Z.to_nat (k_size k) = Z.to_nat (k_size k')) by (rewrite <- !set_pes_length; congruence).
  assert (SZ : k_size k = k_size k') by lia.
  destruct k as [s l z], k' as [s' l' z']. cbn in *. subst z'.
  unfold set_pes in E. cbn in E. destruct (Z.to_nat z) as [|[|m]] eqn:Ez; try lia. cbn in E. inversion E as [[E1 E2]].
  assert (s = s') by lia. subst s'. f_equal. assert (P : 2 ^ l = 2 ^ l') by lia.
  apply Z.pow_inj_r in P; lia.
Qed.

Definition wkey (n : Z) (k : key) : bool := (k_start k =? 0) && (k_log k =? 0) && (k_size k =? n).
Definition commk (n : Z) (k : key) : comm := if wkey n k then CWorld else CNew (set_pes k) (k_start k) 1.
Lemma wkey_eq n k : wkey n k = true -> k = mkKey 0 0 n.
Proof. unfold wkey. destruct k; cbn. intros H. apply andb_prop in H. destruct H as [H H3]. apply andb_prop in H. f_equal; lia. Qed.
Lemma wkey_set n k : wkey n k = true -> set_pes k = zseq 0 (Z.to_nat n).
Proof.
  intros H. apply wkey_eq in H. subst. unfold set_pes, zseq. cbn. apply map_ext. intros; lia.
Qed.
Definition tracked (n : Z) (k : key) : Prop := wkey n k = true \/ 2 <= k_size k.
Lemma commk_group n k : comm_group n (commk n k) = set_pes k.
Proof. unfold commk. destruct (wkey n k) eqn:W; cbn; auto. symmetry. apply wkey_set; auto. Qed.
Lemma commk_inj n k k' o : valid_set n k -> valid_set n k' -> tracked n k ->
  commk n k = (if wkey n k' then CWorld else CNew (set_pes k') (k_start k') o) -> k = k'.
Proof.
  intros V V' T. unfold commk. destruct (wkey n k) eqn:W, (wkey n k') eqn:W'; intros E; try discriminate.
  - apply wkey_eq in W, W'. congruence.
  - inversion E. apply (set_pes_inj n); auto. destruct T; [congruence|auto].
Qed.

(** ** Counting calls *)
Definition cnt (k : key) (l : list key) : nat := length (filter (fun k' => key_eqb k' k) l).
Lemma cnt_app k a b : cnt k (a ++ b) = (cnt k a + cnt k b)%nat.
Proof. unfold cnt. rewrite filter_app, app_length. auto. Qed.
Lemma cnt_one k k' : cnt k [k'] = if key_eqb k' k then 1%nat else 0%nat.
Proof. unfold cnt. cbn. destruct (key_eqb k' k); auto. Qed.

(** The keys in the cache of [p] after the calls [l], last created first. *)
Lemma member_in p k : member p k = true <-> In p (set_pes k).
Proof.
  unfold member. rewrite existsb_exists. split.
  - intros (q & H & E). replace p with q by lia. auto.
  - intros H. exists p. split; auto. apply Z.eqb_refl.
Qed.
Definition push (n p : Z) (acc : list key) (k : key) : list key :=
  if member p k && negb (wkey n k) && negb (existsb (fun k' => key_eqb k' k) acc) then k :: acc else acc.
Definition cachek (n p : Z) (l : list key) : list key := fold_left (push n p) l [].
Lemma cachek_snoc n p l k : cachek n p (l ++ [k]) = push n p (cachek n p l) k.
Proof. unfold cachek. rewrite fold_left_app. auto. Qed.
Lemma cachek_in n p l k : In k (cachek n p l) <-> In k l /\ member p k = true /\ wkey n k = false.
Proof.
  induction l as [|x l IH] using rev_ind; [cbn; tauto|]. rewrite cachek_snoc, in_app_iff. unfold push.
  destruct (member p x && negb (wkey n x)) eqn:M; cbn [andb].
  - destruct (existsb (fun k' => key_eqb k' x) (cachek n p l)) eqn:X; cbn [negb].
    + rewrite IH. split; [tauto|]. intros [[H|[<-|[]]] Q]; [tauto|]. apply existsb_exists in X. destruct X as (y & Hy & E).
      apply key_eqb_eq in E. subst. apply IH in Hy. tauto.
    + cbn. rewrite IH. split; [|tauto]. intros [<-|H]; [|tauto]. destruct (member p x), (wkey n x); try discriminate. tauto.
  - rewrite IH. split; [tauto|]. intros [[H|[<-|[]]] [Q1 Q2]]; [tauto|]. rewrite Q1, Q2 in M. discriminate.
Qed.

(** ** The invariant of one PE *)
Definition phase (c : pc) (k : key) : nat :=
  match c with
  | PIdle => 0
  | PCreate k' _ _ => if key_eqb k' k then 1 else 0
  | PColl k' _ _ => if key_eqb k' k then 2 else 0
  end.

Definition pe_inv (n : Z) (h : list key) (p : Z) (x : pe) (ent : group -> Z -> nat) (arr : comm -> nat) : Prop :=
  exists pre, h = pre ++ pe_rem x /\
  (forall k, valid_set n k -> member p k = true -> tracked n k ->
     arr (commk n k) = (cnt k pre + (if Nat.eqb (phase (pe_pc x) k) 2 then 1 else 0))%nat /\
     (wkey n k = false ->
       ent (set_pes k) (k_start k) = (if Nat.ltb 0 (cnt k pre) || Nat.ltb 0 (phase (pe_pc x) k) then 1 else 0)%nat /\
       find_comm x k = (if Nat.ltb 0 (cnt k pre) || Nat.eqb (phase (pe_pc x) k) 2 then Some (commk n k) else None))) /\
  (forall k c, In (k, c) (pe_cache x) -> exists o, c = CNew (set_pes k) (k_start k) o) /\
  map fst (pe_cache x) = cachek n p (pre ++ match pe_pc x with PColl k _ _ => [k] | _ => [] end) /\
  match pe_pc x with
  | PIdle => True
  | PCreate k g o =>
      (exists r, pe_rem x = k :: r) /\ member p k = true /\ g = set_pes k /\ wkey n k = false /\
      (o <= ent g (k_start k))%nat /\ (2 <= k_size k -> o = 1%nat /\ cnt k pre = 0%nat) /\ ~ In k (cachek n p pre)
  | PColl k c o =>
      (exists r, pe_rem x = k :: r) /\ member p k = true /\ comm_group n c = set_pes k /\
      (o <= arr c)%nat /\ (tracked n k -> c = commk n k /\ o = S (cnt k pre))
  end.

Definition ainv (n : Z) (h : list key) (s : ast) : Prop :=
  forall p, 0 <= p < n -> pe_inv n h p (a_pe s p) (a_ent s p) (a_arr s p).

Lemma ainv_init n h : ainv n h (a_init h).
Proof.
  intros p Hp. exists []. cbn. split; auto. split; [|split; [intros k c []|auto]]. intros. auto.
Qed.

Lemma find_none x k : find_comm x k = None -> ~ In k (map fst (pe_cache x)).
Proof.
  unfold find_comm. intros H Hin. apply in_map_iff in Hin. destruct Hin as (e & E & He).
  destruct (find _ (pe_cache x)) eqn:F; [discriminate|]. assert (Q := find_none _ _ F _ He). cbn in Q. rewrite E, key_eqb_refl in Q. discriminate.
Qed.
Lemma find_some' x k c : find_comm x k = Some c -> In (k, c) (pe_cache x).
Proof.
  unfold find_comm. intros H. destruct (find _ (pe_cache x)) as [[k' c']|] eqn:F; [|discriminate].
  apply find_some in F. destruct F as [F1 F2]. cbn in *. apply key_eqb_eq in F2. inversion H. subst. auto.
Qed.
Lemma not_in_push acc k : ~ In k acc -> existsb (fun k' => key_eqb k' k) acc = false.
Proof.
  intros H. destruct (existsb (fun k' => key_eqb k' k) acc) eqn:E; auto. exfalso. apply H. apply existsb_exists in E.
  destruct E as (y & Hy & E). apply key_eqb_eq in E. subst. auto.
Qed.

Lemma forallb_false {A} (f : A -> bool) l : forallb f l = false -> exists x, In x l /\ f x = false.
Proof.
  induction l as [|x l IH]; cbn; intros H; [discriminate|]. destruct (f x) eqn:E; [|eauto].
  destruct (IH H) as (y & ? & ?). eauto.
Qed.

Section Step.
  Variables (n : Z) (h : list key).
  Hypothesis Hh : valid_hist n h.

  Lemma pe_inv_ext p x ent arr ent' arr' : (forall g t, ent' g t = ent g t) -> (forall c, arr' c = arr c) ->
    pe_inv n h p x ent arr -> pe_inv n h p x ent' arr'.
  Proof.
    intros E A (pre & H1 & H2 & H3 & H4 & H5). exists pre. split; auto. split; [|split; [auto|split; auto]].
    - intros k V M T. rewrite A, E. auto.
    - destruct (pe_pc x); auto.
      + rewrite E. auto.
      + rewrite A. auto.
  Qed.

  (** From idle or from the creation into the collective, with communicator [c]. *)
  Lemma enter_inv p x ent arr arr' k c r pre od : od = arr' c ->
    h = pre ++ k :: r -> pe_rem x = k :: r -> valid_set n k -> member p k = true ->
    (forall c', arr' c' = if comm_eqb c' c then S (arr c') else arr c') ->
    comm_group n c = set_pes k ->
    (tracked n k -> c = commk n k) ->
    (exists o, c = if wkey n k then CWorld else CNew (set_pes k) (k_start k) o) ->
    (forall k', valid_set n k' -> member p k' = true -> tracked n k' ->
       arr (commk n k') = cnt k' pre /\
       (wkey n k' = false -> ent (set_pes k') (k_start k') = (if Nat.ltb 0 (cnt k' pre) || key_eqb k k' then 1 else 0)%nat /\
          find_comm x k' = (if Nat.ltb 0 (cnt k' pre) || key_eqb k k' then Some (commk n k') else None))) ->
    (forall k' c', In (k', c') (pe_cache x) -> exists o, c' = CNew (set_pes k') (k_start k') o) ->
    map fst (pe_cache x) = cachek n p (pre ++ [k]) ->
    pe_inv n h p (mkPe (pe_rem x) (pe_cache x) (PColl k c od)) ent arr'.
  Proof.
    intros -> Eh Er V M A G T (o & Eo) H2 H3 H4. exists pre. cbn [pe_rem pe_cache pe_pc]. rewrite Er. split; auto.
    split; [|split; [auto|split; auto]].
    - intros k' V' M' T'. destruct (H2 k' V' M' T') as [Q1 Q2]. rewrite A, Q1. cbn [phase]. split.
      + destruct (comm_eqb (commk n k') c) eqn:Ec.
        * apply comm_eqb_eq in Ec. subst c. assert (k' = k) by (apply (commk_inj n k' k o); congruence). subst k'.
          rewrite key_eqb_refl. cbn. lia.
        * destruct (key_eqb k k') eqn:Ek; cbn; [|lia]. apply key_eqb_eq in Ek. subst k'.
          rewrite (T T') in Ec. rewrite comm_eqb_refl in Ec. discriminate.
      + intros W. destruct (Q2 W) as [Q3 Q4]. rewrite Q3. unfold find_comm in *. cbn [pe_cache]. rewrite Q4.
        destruct (key_eqb k k'); cbn; auto.
    - split; [eauto|]. split; auto. split; auto. split; auto. intros Tk. split; auto.
      rewrite A, comm_eqb_refl. f_equal. rewrite (T Tk). apply H2; auto.
  Qed.

  Lemma step_own p s o : 0 <= p < n -> ainv n h s -> astep n p s = Ok o ->
    match o with
    | None => True
    | Some (s', e) =>
        pe_inv n h p (a_pe s' p) (a_ent s' p) (a_arr s' p) /\
        (forall q, q <> p -> a_pe s' q = a_pe s q /\ (forall g t, a_ent s' q g t = a_ent s q g t) /\ forall c, a_arr s' q c = a_arr s q c)
    end.
  Proof.
    intros Hp I H. destruct (I p Hp) as (pre & Eh & I2 & I3 & I4 & I5). unfold astep in H.
    destruct Hh as [Hn HV].
    assert (VH : forall k r, pe_rem (a_pe s p) = k :: r -> valid_set n k).
    { intros k r E. apply HV. rewrite Eh, E. apply in_or_app. right. left. auto. }
    remember (a_pe s p) as x eqn:Ex. destruct (pe_pc x) as [|k g od|k c od] eqn:Epc.
    - destruct (pe_rem x) as [|k r] eqn:Er; [inversion H; exact Logic.I|].
      assert (V := VH _ _ eq_refl). rewrite (pe_list_ok n k Hn V) in H. cbn [bind] in H.
      fold (member p k) in H. destruct (member p k) eqn:M; cbn [negb] in H.
      2:{ inversion H; subst o; clear H. split.
          - cbn [set_pe a_pe a_ent a_arr]. rewrite Z.eqb_refl. exists (pre ++ [k]). cbn [pe_rem pe_cache pe_pc]. split; [rewrite <- app_assoc; auto|].
            split; [|split; [auto|split; auto]].
            + intros k' V' M' T'. assert (k <> k') by congruence. rewrite cnt_app, cnt_one, key_eqb_neq by auto.
              rewrite (Nat.add_0_r (cnt k' pre)). apply (I2 k'); auto.
            + rewrite app_nil_r in *. rewrite cachek_snoc. unfold push. rewrite M. cbn. auto.
          - intros q Hq. cbn. replace (q =? p) with false by lia. auto. }
      cbn [phase] in I2.
      assert (I2' : forall k', valid_set n k' -> member p k' = true -> tracked n k' ->
        a_arr s p (commk n k') = cnt k' pre /\ (wkey n k' = false ->
          a_ent s p (set_pes k') (k_start k') = (if Nat.ltb 0 (cnt k' pre) then 1 else 0)%nat /\
          find_comm x k' = (if Nat.ltb 0 (cnt k' pre) then Some (commk n k') else None))).
      { intros k' V' M' T'. destruct (I2 k' V' M' T') as [Q1 Q2]. cbn in Q1. split; [lia|]. intros W. destruct (Q2 W) as [Q3 Q4].
        cbn in Q3, Q4. rewrite orb_false_r in Q3, Q4. auto. }
      rewrite app_nil_r in I4.
      fold (wkey n k) in H. destruct (wkey n k) eqn:W.
      + inversion H as [E]; clear H. destruct o as [[s' e]|]; [|discriminate]. inversion E; subst s' e. clear E.
        split; [|intros q Hq; cbn [enter_coll set_pe inc_arr a_pe a_ent a_arr]; replace (q =? p) with false by lia; auto].
        cbn [enter_coll set_pe inc_arr a_pe a_ent a_arr]. rewrite Z.eqb_refl. cbn [andb].
        eapply pe_inv_ext with (ent := a_ent s p) (arr := fun c' => if comm_eqb c' CWorld then S (a_arr s p c') else a_arr s p c');
          [auto|intros; auto|].
        apply (enter_inv p x _ (a_arr s p) _ k CWorld r pre); auto.
        * cbn. symmetry. apply wkey_set; auto.
        * intros _. unfold commk. rewrite W. auto.
        * exists 0%nat. rewrite W. auto.
        * intros k' V' M' T'. destruct (I2' k' V' M' T') as [Q1 Q2]. split; auto. intros W'. destruct (Q2 W') as [Q3 Q4].
          rewrite key_eqb_neq by congruence. rewrite orb_false_r. auto.
        * rewrite cachek_snoc. unfold push. rewrite W, andb_false_r. cbn. auto.
      + destruct (find_comm x k) as [c|] eqn:F.
        * inversion H as [E]; clear H. destruct o as [[s' e]|]; [|discriminate]. inversion E; subst s' e. clear E.
          split; [|intros q Hq; cbn [enter_coll set_pe inc_arr a_pe a_ent a_arr]; replace (q =? p) with false by lia; auto].
          cbn [enter_coll set_pe inc_arr a_pe a_ent a_arr]. rewrite Z.eqb_refl. cbn [andb].
          eapply pe_inv_ext with (ent := a_ent s p) (arr := fun c' => if comm_eqb c' c then S (a_arr s p c') else a_arr s p c');
            [auto|intros; auto|].
          assert (Hc := find_some' _ _ _ F).
          assert (Hk : In k (cachek n p pre)) by (rewrite <- I4; apply in_map_iff; exists (k, c); auto).
          assert (CB : tracked n k -> c = commk n k).
          { intros T. destruct (I2' k V M T) as [_ Q]. destruct (Q W) as [_ Q4]. rewrite F in Q4.
            destruct (0 <? cnt k pre)%nat; congruence. }
          assert (KC : (0 < cnt k pre)%nat).
          { apply cachek_in in Hk. destruct Hk as [Hk _]. unfold cnt. destruct (filter _ pre) eqn:Fi; cbn; [|lia].
            assert (In k (filter (fun k' => key_eqb k' k) pre)) by (apply filter_In; split; auto; apply key_eqb_refl).
            rewrite Fi in H. destruct H. }
          apply (enter_inv p x _ (a_arr s p) _ k c r pre); auto; try congruence.
          -- destruct (I3 k c Hc) as (o' & ->). auto.
          -- destruct (I3 k c Hc) as (o' & ->). exists o'. rewrite W. auto.
          -- intros k' V' M' T'. destruct (I2' k' V' M' T') as [Q1 Q2]. split; auto. intros W'. destruct (Q2 W') as [Q3 Q4].
             destruct (key_eqb k k') eqn:Ek; [|rewrite orb_false_r; auto]. apply key_eqb_eq in Ek. subst k'.
             replace (0 <? cnt k pre)%nat with true in * by (symmetry; apply Nat.ltb_lt; auto). auto.
          -- rewrite cachek_snoc. unfold push. replace (existsb (fun k' => key_eqb k' k) (cachek n p pre)) with true;
               [rewrite andb_false_r; auto|]. symmetry. apply existsb_exists. exists k. split; auto. apply key_eqb_refl.
        * rewrite (group_incl_ok n k Hn V) in H. cbn [bind] in H.
          inversion H as [E]; clear H. subst o. split.
          2:{ intros q Hq. cbn. replace (q =? p) with false by lia. auto. }
          cbn. rewrite Z.eqb_refl, list_eqb_refl. cbn [andb]. rewrite Z.eqb_refl. rewrite <- Er.
          assert (NI := find_none _ _ F). rewrite I4 in NI.
          exists pre. cbn [pe_rem pe_cache pe_pc phase]. rewrite Er. split; auto. split; [|split; [auto|split; [rewrite app_nil_r; auto|]]].
          -- intros k' V' M' T'. destruct (I2' k' V' M' T') as [Q1 Q2]. split.
             { destruct (key_eqb k k'); cbn; lia. }
             intros W'. destruct (Q2 W') as [Q3 Q4]. unfold find_comm in *. cbn [pe_cache].
             destruct (key_eqb k k') eqn:Ek.
             ++ apply key_eqb_eq in Ek. subst k'. rewrite list_eqb_refl, Z.eqb_refl. cbn [andb].
                rewrite F in Q4. destruct (0 <? cnt k pre)%nat; [discriminate|]. rewrite Q3, F. cbn. auto.
             ++ replace (list_eqb (set_pes k') (set_pes k)) with false.
                ** cbn. rewrite !orb_false_r. auto.
                ** symmetry. destruct (list_eqb (set_pes k') (set_pes k)) eqn:El; auto. apply list_eqb_eq in El.
                   assert (k' = k) by (apply (set_pes_inj n); auto; destruct T'; [congruence|auto]). subst.
                   rewrite key_eqb_refl in Ek. discriminate.
          -- split; [eauto|]. split; auto. split; auto. split; auto. split; [rewrite list_eqb_refl, Z.eqb_refl; auto|].
             split; [|auto]. intros S2. destruct (I2' k V M (or_intror S2)) as [_ Q]. destruct (Q W) as [Q3 Q4].
             rewrite F in Q4. destruct (0 <? cnt k pre)%nat eqn:Z0; [discriminate|]. rewrite Q3.
             apply Nat.ltb_ge in Z0. split; [auto|lia].
    - destruct I5 as ((r & Er) & M & Eg & W & Ho & H1 & NI). assert (V := VH _ _ Er). subst g.
      destruct (forallb _ (set_pes k)) eqn:Fa; [|inversion H; exact Logic.I].
      inversion H as [E]; clear H. subst o. split; [|intros q Hq; cbn [enter_coll set_pe inc_arr a_pe a_ent a_arr]; replace (q =? p) with false by lia; auto].
      cbn [enter_coll set_pe inc_arr a_pe a_ent a_arr]. rewrite Z.eqb_refl. cbn [andb]. rewrite app_nil_r in I4. cbn [phase] in I2.
      eapply pe_inv_ext with (ent := a_ent s p)
        (arr := fun c' => if comm_eqb c' (CNew (set_pes k) (k_start k) od) then S (a_arr s p c') else a_arr s p c'); [auto|intros; auto|].
      apply (enter_inv p (mkPe (pe_rem x) ((k, CNew (set_pes k) (k_start k) od) :: pe_cache x) (pe_pc x)) _ (a_arr s p) _ k _ r pre); auto; try congruence.
      + intros [T|T]; [congruence|]. destruct (H1 T) as [-> _]. unfold commk. rewrite W. auto.
      + exists od. rewrite W. auto.
      + intros k' V' M' T'. destruct (I2 k' V' M' T') as [Q1 Q2]. split.
        { destruct (key_eqb k k'); cbn in Q1; lia. }
        intros W'. destruct (Q2 W') as [Q3 Q4]. unfold find_comm in *. cbn [pe_cache find fst].
        destruct (key_eqb k k') eqn:Ek.
        * apply key_eqb_eq in Ek. subst k'. cbn in Q3. split; auto. rewrite orb_true_r. cbn. f_equal. f_equal.
          destruct T' as [T'|T']; [congruence|]. destruct (H1 T') as [-> _]. unfold commk. rewrite W. auto.
        * cbn in Q3, Q4. auto.
      + cbn. intros k' c' [E|Hin]; [inversion E; eauto|eauto].
      + cbn. rewrite I4, cachek_snoc. unfold push. rewrite M, W, not_in_push by auto. auto.
    - destruct I5 as ((r & Er) & M & Eg & Ho & H1). assert (V := VH _ _ Er).
      destruct (forallb _ (comm_group n c)) eqn:Fa; [|inversion H; exact Logic.I].
      inversion H as [E]; clear H. subst o. split.
      2:{ intros q Hq. cbn. replace (q =? p) with false by lia. auto. }
      cbn. rewrite Z.eqb_refl. exists (pre ++ [k]). cbn [pe_rem pe_cache pe_pc]. rewrite Er. cbn [tl].
      split; [rewrite <- app_assoc; cbn; congruence|]. split; [|split; [auto|split; [rewrite app_nil_r; auto|auto]]].
      intros k' V' M' T'. destruct (I2 k' V' M' T') as [Q1 Q2]. rewrite cnt_app, cnt_one. cbn [phase] in *.
      split.
      { rewrite Q1. destruct (key_eqb k k'); cbn; lia. }
      intros W'. destruct (Q2 W') as [Q3 Q4]. unfold find_comm in *. cbn [pe_cache]. rewrite Q3, Q4.
      destruct (key_eqb k k'); cbn.
      + rewrite Nat.add_1_r. cbn. rewrite orb_true_r. auto.
      + rewrite Nat.add_0_r, orb_false_r. auto.
  Qed.

  Lemma step_inv p s s' e : 0 <= p < n -> ainv n h s -> astep n p s = Ok (Some (s', e)) -> ainv n h s'.
  Proof.
    intros Hp I H. assert (Q := step_own p s _ Hp I H). cbn in Q. destruct Q as [Q1 Q2]. intros q Hq.
    destruct (Z.eq_dec q p) as [->|Ne]; auto. destruct (Q2 q Ne) as (E1 & E2 & E3). rewrite E1.
    eapply pe_inv_ext; [exact E2|exact E3|auto].
  Qed.

  Lemma astep_ok p s : 0 <= p < n -> ainv n h s -> exists o, astep n p s = Ok o.
  Proof.
    intros Hp I. destruct (I p Hp) as (pre & Eh & _). unfold astep. destruct Hh as [Hn HV].
    destruct (pe_pc (a_pe s p)) as [|k g od|k c od].
    - destruct (pe_rem (a_pe s p)) as [|k r] eqn:Er; [eauto|].
      assert (V : valid_set n k) by (apply HV; rewrite Eh; apply in_or_app; right; left; auto).
      rewrite (pe_list_ok n k Hn V). cbn [bind]. rewrite (group_incl_ok n k Hn V). cbn [bind].
      destruct (negb _); eauto. destruct (_ && _ && _); eauto. destruct (find_comm _ k); eauto.
    - destruct (forallb _ _); eauto.
    - destruct (forallb _ _); eauto.
  Qed.

  (** ** Runs *)
  Lemma run_inv sched : forall s s' log, ainv n h s -> arun n s sched = Ok (s', log) -> ainv n h s'.
  Proof.
    induction sched as [|p r IH]; intros s s' log I H; cbn [arun] in H; [inversion H; subst; auto|].
    destruct (negb _) eqn:Ep in H; [discriminate|]. assert (Hp : 0 <= p < n) by lia.
    destruct (astep n p s) as [[[s1 e1]|]| | |] eqn:E; cbn [bind] in H; try discriminate.
    - destruct (arun n s1 r) as [[s2 l2]| | |] eqn:E2; cbn [bind] in H; try discriminate. inversion H; subst.
      cbn [fst] in *. eapply IH; [|exact E2]. eapply step_inv; eauto.
    - eapply IH; eauto.
  Qed.
  Lemma run_ok sched : forall s, ainv n h s -> Forall (fun p => 0 <= p < n) sched -> exists s' log, arun n s sched = Ok (s', log).
  Proof.
    induction sched as [|p r IH]; intros s I F; cbn [arun]; [eauto|]. inversion F; subst.
    replace (negb ((0 <=? p) && (p <? n))) with false by lia.
    destruct (astep_ok p s H1 I) as (o & E). rewrite E. cbn [bind]. destruct o as [[s1 e1]|]; [|auto].
    destruct (IH s1 (step_inv p s s1 e1 H1 I E) H2) as (s2 & l2 & ->). cbn [bind]. eauto.
  Qed.

  (** What a step logs. *)
  Lemma step_log p s s' e : 0 <= p < n -> ainv n h s -> astep n p s = Ok (Some (s', e)) ->
    (e = [] /\ (forall q c, a_arr s' q c = a_arr s q c)) \/
    exists k c, e = [ACall p k c (S (a_arr s p c))] /\ valid_set n k /\ member p k = true /\ comm_group n c = set_pes k /\
      (tracked n k -> c = commk n k) /\ (exists o, c = if wkey n k then CWorld else CNew (set_pes k) (k_start k) o) /\
      a_arr s' p c = S (a_arr s p c) /\
      (forall q c', q <> p \/ c' <> c -> a_arr s' q c' = a_arr s q c').
  Proof.
    intros Hp I H. destruct (I p Hp) as (pre & Eh & I2 & I3 & I4 & I5). unfold astep in H.
    destruct Hh as [Hn HV].
    assert (VH : forall k r, pe_rem (a_pe s p) = k :: r -> valid_set n k).
    { intros k r E. apply HV. rewrite Eh, E. apply in_or_app. right. left. auto. }
    assert (AR : forall k x c, let s1 := fst (enter_coll s p x k c) in
      a_arr s1 p c = S (a_arr s p c) /\ (forall q c', q <> p \/ c' <> c -> a_arr s1 q c' = a_arr s q c') /\
      snd (enter_coll s p x k c) = [ACall p k c (S (a_arr s p c))]).
    { intros k x c. cbn [enter_coll fst snd set_pe inc_arr a_arr]. rewrite Z.eqb_refl, comm_eqb_refl. cbn [andb]. split; auto. split; auto.
      intros q c' D. destruct ((q =? p) && comm_eqb c' c) eqn:Q; auto. exfalso. apply andb_prop in Q. destruct Q as [Q1 Q2].
      apply comm_eqb_eq in Q2. destruct D; [lia|auto]. }
    remember (a_pe s p) as x eqn:Ex. destruct (pe_pc x) as [|k g od|k c od] eqn:Epc.
    - destruct (pe_rem x) as [|k r] eqn:Er; [discriminate|].
      assert (V := VH _ _ eq_refl). rewrite (pe_list_ok n k Hn V) in H. cbn [bind] in H.
      fold (member p k) in H. destruct (member p k) eqn:M; cbn [negb] in H.
      2:{ inversion H; subst. left. split; auto. }
      fold (wkey n k) in H. destruct (wkey n k) eqn:W.
      + right. destruct (AR k x CWorld) as (A1 & A2 & A3). inversion H; subst s' e. exists k, CWorld.
        cbn [enter_coll snd fst] in *. split; auto. split; auto. split; auto. split; [cbn; symmetry; apply wkey_set; auto|].
        split; [intros; unfold commk; rewrite W; auto|]. split; [exists 0%nat; rewrite W; auto|]. auto.
      + destruct (find_comm x k) as [c|] eqn:F.
        * right. destruct (AR k x c) as (A1 & A2 & A3). inversion H; subst s' e. exists k, c.
          assert (Hc := find_some' _ _ _ F). destruct (I3 k c Hc) as (o & Eo).
          cbn [enter_coll snd fst] in *. split; auto. split; auto. split; auto. split; [rewrite Eo; auto|].
          split. { intros T. destruct (I2 k V M T) as [_ Q]. destruct (Q W) as [_ Q4]. rewrite F in Q4.
                   destruct (_ || _); congruence. }
          split; [exists o; rewrite W; auto|]. auto.
        * rewrite (group_incl_ok n k Hn V) in H. cbn [bind] in H. inversion H; subst. left. auto.
    - destruct I5 as ((r & Er) & M & Eg & W & Ho & H1 & NI). assert (V := VH _ _ Er). subst g.
      destruct (forallb _ (set_pes k)) eqn:Fa; [|discriminate].
      right. set (c := CNew (set_pes k) (k_start k) od) in *. destruct (AR k (mkPe (pe_rem x) ((k, c) :: pe_cache x) (pe_pc x)) c) as (A1 & A2 & A3).
      inversion H; subst s' e. exists k, c. cbn [enter_coll snd fst pe_rem pe_cache] in *.
      split; auto. split; auto. split; auto. split; auto.
      split; [intros [T|T]; [congruence|]; destruct (H1 T) as [-> _]; unfold commk; rewrite W; auto|].
      split; [exists od; rewrite W; auto|auto].
    - destruct (forallb _ (comm_group n c)) eqn:Fa; [|discriminate]. inversion H; subst. left. auto.
  Qed.

  Lemma run_calls sched p k : 0 <= p < n -> valid_set n k -> member p k = true -> tracked n k ->
    forall s s' log, ainv n h s -> arun n s sched = Ok (s', log) ->
    exists m, a_arr s' p (commk n k) = (a_arr s p (commk n k) + m)%nat /\
      calls_of p k log = map (fun i => (commk n k, i)) (seq (S (a_arr s p (commk n k))) m).
  Proof.
    intros Hp V M T. induction sched as [|q r IH]; intros s s' log I H; cbn [arun] in H.
    { inversion H; subst. exists 0%nat. cbn. split; auto. }
    destruct (negb _) eqn:Eq in H; [discriminate|]. assert (Hq : 0 <= q < n) by lia.
    destruct (astep n q s) as [[[s1 e1]|]| | |] eqn:E; cbn [bind] in H; try discriminate; [|eapply IH; eauto].
    destruct (arun n s1 r) as [[s2 l2]| | |] eqn:E2; cbn [bind] in H; try discriminate. inversion H; subst. cbn [fst snd] in *.
    destruct (IH s1 s' l2 (step_inv q s s1 e1 Hq I E) E2) as (m & A1 & A2).
    unfold calls_of in *. rewrite flat_map_app, A2.
    destruct (step_log q s s1 e1 Hq I E) as [(-> & A)|(k' & c & -> & V' & M' & G & T' & (o & Fo) & A & A')].
    - exists m. rewrite A1, A. auto.
    - cbn [flat_map app]. rewrite app_nil_r. destruct ((q =? p) && key_eqb k' k) eqn:Q.
      + apply andb_prop in Q. destruct Q as [Q1 Q2]. apply key_eqb_eq in Q2. subst k'. assert (q = p) by lia. subst q.
        rewrite (T' T) in *. exists (S m). rewrite A1, A. split; [lia|]. cbn. auto.
      + assert (D : p <> q \/ commk n k <> c).
        { destruct (Z.eq_dec p q) as [->|]; auto. right. intros Ec. subst c. rewrite Z.eqb_refl in Q. cbn in Q.
          assert (k = k') by (eapply (commk_inj n k k' o); eauto). subst. rewrite key_eqb_refl in Q. discriminate. }
        exists m. rewrite A1, (A' p (commk n k) D). auto.
  Qed.

  (** Every call runs over the right PEs. *)
  Lemma run_groups sched : forall s s' log, ainv n h s -> arun n s sched = Ok (s', log) ->
    forall p k c o, In (ACall p k c o) log -> comm_group n c = set_pes k /\ In p (set_pes k).
  Proof.
    induction sched as [|q r IH]; intros s s' log I H p k c o Hin; cbn [arun] in H; [inversion H; subst; destruct Hin|].
    destruct (negb _) eqn:Eq in H; [discriminate|]. assert (Hq : 0 <= q < n) by lia.
    destruct (astep n q s) as [[[s1 e1]|]| | |] eqn:E; cbn [bind] in H; try discriminate; [|eapply IH; eauto].
    destruct (arun n s1 r) as [[s2 l2]| | |] eqn:E2; cbn [bind] in H; try discriminate. inversion H; subst. cbn [fst snd] in *.
    apply in_app_or in Hin. destruct Hin as [Hin|Hin].
    - destruct (step_log q s s1 e1 Hq I E) as [(-> & A)|(k' & c' & -> & V' & M' & G & _)]; [destruct Hin|].
      destruct Hin as [Hin|[]]. inversion Hin; subst. split; auto. apply member_in; auto.
    - eapply IH; [|exact E2|exact Hin]. eapply step_inv; eauto.
  Qed.

  (** On one communicator all members call the same things in the same order. *)
  Lemma run_agree sched s log p q k : arun n (a_init h) sched = Ok (s, log) -> valid_set n k -> in_set k p -> in_set k q ->
    prefix (calls_of p k log) (calls_of q k log) \/ prefix (calls_of q k log) (calls_of p k log).
  Proof.
    intros H V Ip Iq. destruct Hh as [Hn _]. assert (V' := V). destruct V' as (_ & _ & C & _).
    assert (P := proj2 (in_set_pes k p C) Ip). assert (Q := proj2 (in_set_pes k q C) Iq).
    destruct (Z.eq_dec (k_size k) 1) as [E1|N1].
    { assert (p = q). { destruct Ip as (i & Hi & ->), Iq as (j & Hj & ->). replace i with 0 by lia. replace j with 0 by lia. auto. }
      subst. left. exists []. rewrite app_nil_r. auto. }
    assert (T : tracked n k) by (right; lia).
    assert (Rp := set_pes_range n k p Hn V P). assert (Rq := set_pes_range n k q Hn V Q).
    destruct (run_calls sched p k Rp V (proj2 (member_in p k) P) T _ _ _ (ainv_init n h) H) as (m1 & _ & ->).
    destruct (run_calls sched q k Rq V (proj2 (member_in q k) Q) T _ _ _ (ainv_init n h) H) as (m2 & _ & ->).
    cbn [a_init a_arr].
    assert (PF : forall a b, (a <= b)%nat -> prefix (map (fun i => (commk n k, i)) (seq 1 a)) (map (fun i => (commk n k, i)) (seq 1 b))).
    { intros a b L. replace b with (a + (b - a))%nat by lia. rewrite seq_app, map_app. eexists. reflexivity. }
    destruct (Nat.le_ge_cases m1 m2); [left|right]; apply PF; auto.
  Qed.
  (** Different sets never share a communicator. *)
  Lemma run_distinct sched s log p q k k' c o o' : arun n (a_init h) sched = Ok (s, log) ->
    In (ACall p k c o) log -> In (ACall q k' c o') log -> set_pes k = set_pes k'.
  Proof.
    intros H H1 H2. destruct (run_groups sched _ _ _ (ainv_init n h) H _ _ _ _ H1) as [G1 _].
    destruct (run_groups sched _ _ _ (ainv_init n h) H _ _ _ _ H2) as [G2 _]. congruence.
  Qed.

  (** ** Progress *)
  Definition gpos (s : ast) (p : Z) : nat := (length h - length (pe_rem (a_pe s p)))%nat.

  Lemma pre_firstn s p pre : h = pre ++ pe_rem (a_pe s p) -> pre = firstn (gpos s p) h.
  Proof.
    intros E. unfold gpos. rewrite E at 2. rewrite firstn_app.
    assert (L : length h = (length pre + length (pe_rem (a_pe s p)))%nat) by (rewrite E at 1; apply app_length).
    replace (length h - length (pe_rem (a_pe s p)))%nat with (length pre) by lia.
    rewrite firstn_all, Nat.sub_diag. cbn. rewrite app_nil_r. auto.
  Qed.
  Lemma cnt_mono k a b : (a <= b)%nat -> (cnt k (firstn a h) <= cnt k (firstn b h))%nat.
  Proof.
    intros L. replace (firstn b h) with (firstn a h ++ skipn a (firstn b h)).
    - rewrite cnt_app. lia.
    - rewrite <- (firstn_skipn a (firstn b h)) at 2. f_equal. rewrite firstn_firstn. f_equal. lia.
  Qed.
  Lemma cnt_strict k a b : nth_error h a = Some k -> (a < b)%nat -> (cnt k (firstn a h) < cnt k (firstn b h))%nat.
  Proof.
    intros E L. apply Nat.lt_le_trans with (cnt k (firstn (S a) h)); [|apply cnt_mono; lia].
    assert (X : firstn (S a) h = firstn a h ++ [k]).
    { clear - E. revert a E. induction h as [|y l IH]; intros [|a] E; cbn in *; try discriminate; [inversion E; auto|].
      f_equal. apply IH; auto. }
    rewrite X, cnt_app, cnt_one, key_eqb_refl. lia.
  Qed.

  Lemma hd_nth s p pre k r : h = pre ++ pe_rem (a_pe s p) -> pe_rem (a_pe s p) = k :: r -> nth_error h (gpos s p) = Some k.
  Proof.
    intros E R. unfold gpos. assert (L : length h = (length pre + length (pe_rem (a_pe s p)))%nat) by (rewrite E at 1; apply app_length).
    replace (length h - length (pe_rem (a_pe s p)))%nat with (length pre) by lia. rewrite E, R, nth_error_app2, Nat.sub_diag; auto.
  Qed.

  Definition can_step (s : ast) (p : Z) : Prop := exists x, astep n p s = Ok (Some x).

  Lemma idle_steps s p k r : 0 <= p < n -> ainv n h s -> pe_pc (a_pe s p) = PIdle -> pe_rem (a_pe s p) = k :: r -> can_step s p.
  Proof.
    intros Hp I Epc Er. destruct (I p Hp) as (pre & Eh & _). destruct Hh as [Hn HV]. unfold can_step, astep. rewrite Epc, Er.
    assert (V : valid_set n k) by (apply HV; rewrite Eh, Er; apply in_or_app; right; left; auto).
    rewrite (pe_list_ok n k Hn V). cbn [bind]. rewrite (group_incl_ok n k Hn V). cbn [bind].
    destruct (negb _); eauto. destruct (_ && _ && _); eauto. destruct (find_comm _ k); eauto.
  Qed.

  (** A PE at the least position which waits in a creation. *)
  Lemma create_steps s p k g o : 0 <= p < n -> ainv n h s -> (forall q, 0 <= q < n -> (gpos s p <= gpos s q)%nat) ->
    pe_pc (a_pe s p) = PCreate k g o -> exists q, 0 <= q < n /\ can_step s q.
  Proof.
    intros Hp I Min Epc. destruct (I p Hp) as (pre & Eh & I2 & I3 & I4 & I5). rewrite Epc in I5.
    destruct I5 as ((r & Er) & M & -> & W & Ho & H1 & _).
    destruct Hh as [Hn HV].
    assert (V : valid_set n k) by (apply HV; rewrite Eh, Er; apply in_or_app; right; left; auto).
    destruct (forallb (fun q => Nat.leb o (a_ent s q (set_pes k) (k_start k))) (set_pes k)) eqn:Fa.
    { exists p. split; auto. unfold can_step, astep. rewrite Epc, Fa. eauto. }
    apply forallb_false in Fa. destruct Fa as (q & Hq & L). apply Nat.leb_gt in L.
    assert (Rq := set_pes_range n k q Hn V Hq). assert (Mq := proj2 (member_in q k) Hq).
    destruct (Z.eq_dec (k_size k) 1) as [E1|N1].
    { exfalso. apply member_in in M. assert (C := proj1 (proj2 (proj2 V))).
      assert (p = q). { apply (in_set_pes k p C) in M. apply (in_set_pes k q C) in Hq.
        destruct M as (i & Hi & ->), Hq as (j & Hj & ->). replace i with 0 by lia. replace j with 0 by lia. auto. }
      subst q. lia. }
    assert (S2 : 2 <= k_size k) by (assert (C := proj1 (proj2 (proj2 V))); lia).
    destruct (H1 S2) as [-> C0].
    destruct (I q Rq) as (preq & Ehq & Q2 & _ & _ & Q5). destruct (Q2 k V Mq (or_intror S2)) as [_ Q]. destruct (Q W) as [Q3 _].
    rewrite (pre_firstn s q preq Ehq) in Q3. assert (Pos := hd_nth s p pre k r Eh Er).
    assert (Gq : gpos s q = gpos s p).
    { destruct (Nat.eq_dec (gpos s q) (gpos s p)); auto. exfalso.
      assert (Lt : (gpos s p < gpos s q)%nat) by (assert (A := Min q Rq); lia).
      assert (Cs := cnt_strict k _ _ Pos Lt). replace (0 <? cnt k (firstn (gpos s q) h))%nat with true in Q3 by (symmetry; apply Nat.ltb_lt; lia).
      cbn in Q3. lia. }
    assert (Hd : exists r', pe_rem (a_pe s q) = k :: r').
    { destruct (pe_rem (a_pe s q)) as [|k' r'] eqn:Erq.
      - exfalso. assert (gpos s q = length h) by (unfold gpos; rewrite Erq; cbn; lia).
        assert (gpos s p < length h)%nat by (apply nth_error_Some; congruence). lia.
      - assert (Pq := hd_nth s q preq k' r'). rewrite Erq in Pq. specialize (Pq Ehq eq_refl). rewrite Gq, Pos in Pq.
        inversion Pq; subst. eauto. }
    destruct Hd as (r' & Erq). exists q. split; auto.
    destruct (pe_pc (a_pe s q)) as [|k' g' o'|k' c' o'] eqn:Epq.
    - eapply idle_steps; eauto.
    - exfalso. destruct Q5 as ((r2 & E2) & _). rewrite Erq in E2. inversion E2; subst. cbn [phase] in Q3.
      rewrite key_eqb_refl in Q3. cbn in Q3. rewrite orb_true_r in Q3. lia.
    - exfalso. destruct Q5 as ((r2 & E2) & _). rewrite Erq in E2. inversion E2; subst. cbn [phase] in Q3.
      rewrite key_eqb_refl in Q3. cbn in Q3. rewrite orb_true_r in Q3. lia.
  Qed.

  Lemma coll_steps s p k c o : 0 <= p < n -> ainv n h s -> (forall q, 0 <= q < n -> (gpos s p <= gpos s q)%nat) ->
    pe_pc (a_pe s p) = PColl k c o -> exists q, 0 <= q < n /\ can_step s q.
  Proof.
    intros Hp I Min Epc. destruct (I p Hp) as (pre & Eh & I2 & I3 & I4 & I5). rewrite Epc in I5.
    destruct I5 as ((r & Er) & M & Eg & Ho & H1).
    destruct Hh as [Hn HV].
    assert (V : valid_set n k) by (apply HV; rewrite Eh, Er; apply in_or_app; right; left; auto).
    destruct (forallb (fun q => Nat.leb o (a_arr s q c)) (comm_group n c)) eqn:Fa.
    { exists p. split; auto. unfold can_step, astep. rewrite Epc, Fa. eauto. }
    rewrite Eg in Fa.
    apply forallb_false in Fa. destruct Fa as (q & Hq & L). apply Nat.leb_gt in L.
    assert (Rq := set_pes_range n k q Hn V Hq). assert (Mq := proj2 (member_in q k) Hq).
    destruct (Z.eq_dec (k_size k) 1) as [E1|N1].
    { exfalso. apply member_in in M. assert (C := proj1 (proj2 (proj2 V))).
      assert (p = q). { apply (in_set_pes k p C) in M. apply (in_set_pes k q C) in Hq.
        destruct M as (i & Hi & ->), Hq as (j & Hj & ->). replace i with 0 by lia. replace j with 0 by lia. auto. }
      subst q. lia. }
    assert (T : tracked n k) by (right; assert (C := proj1 (proj2 (proj2 V))); lia).
    destruct (H1 T) as [-> ->].
    destruct (I q Rq) as (preq & Ehq & Q2 & _ & _ & Q5). destruct (Q2 k V Mq T) as [Q _].
    rewrite (pre_firstn s q preq Ehq) in Q. rewrite (pre_firstn s p pre Eh) in L. assert (Pos := hd_nth s p pre k r Eh Er).
    assert (Gq : gpos s q = gpos s p).
    { destruct (Nat.eq_dec (gpos s q) (gpos s p)); auto. exfalso.
      assert (Lt : (gpos s p < gpos s q)%nat) by (assert (A := Min q Rq); lia).
      assert (Cs := cnt_strict k _ _ Pos Lt). lia. }
    rewrite Gq in Q.
    assert (Hd : exists r', pe_rem (a_pe s q) = k :: r').
    { destruct (pe_rem (a_pe s q)) as [|k' r'] eqn:Erq.
      - exfalso. assert (gpos s q = length h) by (unfold gpos; rewrite Erq; cbn; lia).
        assert (gpos s p < length h)%nat by (apply nth_error_Some; congruence). lia.
      - assert (Pq := hd_nth s q preq k' r'). rewrite Erq in Pq. specialize (Pq Ehq eq_refl). rewrite Gq, Pos in Pq.
        inversion Pq; subst. eauto. }
    destruct Hd as (r' & Erq).
    destruct (pe_pc (a_pe s q)) as [|k' g' o'|k' c' o'] eqn:Epq.
    - exists q. split; auto. eapply idle_steps; eauto.
    - apply (create_steps s q k' g' o'); auto. intros q' Hq'. rewrite Gq. auto.
    - exfalso. destruct Q5 as ((r2 & E2) & _). rewrite Erq in E2. inversion E2; subst. cbn [phase] in Q.
      rewrite key_eqb_refl in Q. cbn in Q. lia.
  Qed.

  (** The PE at the least position. *)
  Lemma least (f : Z -> nat) m : (0 < m)%nat -> exists p, 0 <= p < Z.of_nat m /\ forall q, 0 <= q < Z.of_nat m -> (f p <= f q)%nat.
  Proof.
    induction m as [|m IH]; intros H; [lia|]. destruct (Nat.eq_dec m 0) as [->|N].
    - exists 0. split; [lia|]. intros q Hq. replace q with 0 by lia. auto.
    - destruct (IH ltac:(lia)) as (p & Hp & Q). destruct (Nat.le_gt_cases (f p) (f (Z.of_nat m))) as [Le|Gt].
      + exists p. split; [lia|]. intros q Hq. destruct (Z.eq_dec q (Z.of_nat m)) as [->|]; auto. apply Q. lia.
      + exists (Z.of_nat m). split; [lia|]. intros q Hq. destruct (Z.eq_dec q (Z.of_nat m)) as [->|]; auto.
        specialize (Q q ltac:(lia)). lia.
  Qed.

  Lemma progress s : 0 < n -> ainv n h s -> all_done n s \/ exists p, 0 <= p < n /\ can_step s p.
  Proof.
    intros Hn I. destruct (least (gpos s) (Z.to_nat n) ltac:(lia)) as (p & Hp & Q). rewrite Z2Nat.id in * by lia.
    destruct (pe_pc (a_pe s p)) as [|k g o|k c o] eqn:Epc.
    - destruct (pe_rem (a_pe s p)) as [|k r] eqn:Er.
      + assert (G : gpos s p = length h) by (unfold gpos; rewrite Er; cbn; lia).
        left. intros q Hq. specialize (Q q Hq). rewrite G in Q. unfold gpos in Q. destruct (I q Hq) as (pre & Eh & _ & _ & _ & P5).
        assert (L : length h = (length pre + length (pe_rem (a_pe s q)))%nat) by (rewrite Eh at 1; apply app_length).
        assert (R : pe_rem (a_pe s q) = []) by (destruct (pe_rem (a_pe s q)) as [|k' r']; auto; cbn in L, Q; lia).
        split; auto. destruct (pe_pc (a_pe s q)); auto; destruct P5 as ((r & E) & _); rewrite R in E; discriminate.
      + right. exists p. split; auto. eapply idle_steps; eauto.
    - right. eapply create_steps; eauto.
    - right. eapply coll_steps; eauto.
  Qed.

  (** ** Termination *)
  Definition pc_rank (c : pc) : nat := match c with PIdle => 2 | PCreate _ _ _ => 1 | PColl _ _ _ => 0 end.
  Definition meas1 (x : pe) : nat := (3 * length (pe_rem x) + pc_rank (pe_pc x))%nat.
  Fixpoint sum_to (f : Z -> nat) (m : nat) : nat := match m with O => O | S m' => (sum_to f m' + f (Z.of_nat m'))%nat end.
  Lemma sum_to_lt f g m p : 0 <= p < Z.of_nat m -> (forall q, q <> p -> f q = g q) -> (f p < g p)%nat ->
    (sum_to f m < sum_to g m)%nat.
  Proof.
    induction m as [|m IH]; intros Hp E L; [lia|]. cbn. destruct (Z.eq_dec p (Z.of_nat m)) as [->|Ne].
    - assert (X : sum_to f m = sum_to g m).
      { clear - E. assert (G : forall j, (j <= m)%nat -> sum_to f j = sum_to g j); [|apply G; lia].
        induction j as [|j IH]; intros H; auto. cbn. rewrite IH, E by lia. auto. }
      lia.
    - rewrite (E (Z.of_nat m)) by auto. assert (IHm := IH ltac:(lia) E L). lia.
  Qed.
  Definition meas (s : ast) : nat := sum_to (fun p => meas1 (a_pe s p)) (Z.to_nat n).

  Lemma step_meas p s s' e : 0 <= p < n -> ainv n h s -> astep n p s = Ok (Some (s', e)) -> (meas s' < meas s)%nat.
  Proof.
    intros Hp I H. assert (X := step_own p s _ Hp I H). cbn in X. destruct X as [_ X].
    apply (sum_to_lt _ _ (Z.to_nat n) p); [lia| |].
    - intros q Hq. destruct (X q Hq) as (-> & _). auto.
    - destruct (I p Hp) as (pre & Eh & _ & _ & _ & I5). unfold astep in H. destruct Hh as [Hn HV].
      destruct (pe_pc (a_pe s p)) as [|k g od|k c od] eqn:Epc.
      + destruct (pe_rem (a_pe s p)) as [|k r] eqn:Er; [discriminate|].
        assert (V : valid_set n k) by (apply HV; rewrite Eh; apply in_or_app; right; left; auto).
        rewrite (pe_list_ok n k Hn V) in H. cbn [bind] in H. rewrite (group_incl_ok n k Hn V) in H. cbn [bind] in H.
        destruct (negb _); [|destruct (_ && _ && _); [|destruct (find_comm _ k)]]; inversion H; subst s' e;
          cbn [set_pe a_pe inc_arr inc_ent]; rewrite Z.eqb_refl; unfold meas1; cbn [pe_rem pe_pc pc_rank];
          rewrite ?Epc, ?Er; cbn [length pc_rank]; lia.
      + destruct I5 as ((r & Er) & _). destruct (forallb _ _); [|discriminate]. inversion H; subst s' e.
        cbn [set_pe a_pe inc_arr]; rewrite Z.eqb_refl; unfold meas1; cbn [pe_rem pe_pc pc_rank]. rewrite Epc. cbn [pc_rank]. lia.
      + destruct I5 as ((r & Er) & _). destruct (forallb _ _); [|discriminate]. inversion H; subst s' e.
        cbn [set_pe a_pe]; rewrite Z.eqb_refl; unfold meas1; cbn [pe_rem pe_pc pc_rank]. rewrite Epc, Er. cbn [tl length pc_rank]. lia.
  Qed.

  Lemma completes m : forall s, 0 < n -> ainv n h s -> (meas s <= m)%nat ->
    exists sched s' log, arun n s sched = Ok (s', log) /\ all_done n s'.
  Proof.
    induction m as [|m IH]; intros s Hn I L.
    - destruct (progress s Hn I) as [D|(p & Hp & [s1 e1] & E)]; [exists [], s, []; auto|].
      assert (Q := step_meas p s s1 e1 Hp I E). lia.
    - destruct (progress s Hn I) as [D|(p & Hp & [s1 e1] & E)]; [exists [], s, []; auto|].
      assert (Q := step_meas p s s1 e1 Hp I E).
      destruct (IH s1 Hn (step_inv p s s1 e1 Hp I E) ltac:(lia)) as (sched & s' & log & R & D).
      exists (p :: sched), s', (e1 ++ log). split; auto. cbn [arun].
      replace (negb ((0 <=? p) && (p <? n))) with false by lia. rewrite E. cbn [bind]. rewrite R. auto.
  Qed.

  (** No schedule leads into a deadlock. *)
  Lemma no_deadlock sched s log : 0 < n -> arun n (a_init h) sched = Ok (s, log) ->
    exists sched' s' log', arun n s sched' = Ok (s', log') /\ all_done n s'.
  Proof.
    intros Hn H. apply (completes (meas s)); auto. eapply run_inv; eauto. apply ainv_init.
  Qed.

  (** ** Order of the caches *)
  Lemma push_common p q acc1 acc2 k :
    (forall k', member p k' = true -> member q k' = true -> In k' acc1 <-> In k' acc2) ->
    filter (fun k' => member p k' && member q k') acc1 = filter (fun k' => member p k' && member q k') acc2 ->
    filter (fun k' => member p k' && member q k') (push n p acc1 k) = filter (fun k' => member p k' && member q k') (push n q acc2 k).
  Proof.
    intros A F. unfold push.
    destruct (member p k) eqn:Mp, (member q k) eqn:Mq; cbn [andb].
    - destruct (wkey n k); cbn [negb andb]; auto.
      assert (X : existsb (fun k' => key_eqb k' k) acc1 = existsb (fun k' => key_eqb k' k) acc2).
      { assert (Y : forall l, existsb (fun k' => key_eqb k' k) l = true <-> In k l).
        { intros l. rewrite existsb_exists. split; [intros (y & Hy & Ey); apply key_eqb_eq in Ey; subst; auto|].
          intros Hk. exists k. split; auto. apply key_eqb_refl. }
        specialize (A k Mp Mq). rewrite <- !Y in A.
        destruct (existsb (fun k' => key_eqb k' k) acc1), (existsb (fun k' => key_eqb k' k) acc2); auto;
          [symmetry; apply A; auto|apply A; auto]. }
      rewrite X. destruct (existsb _ acc2); cbn [negb]; auto. cbn [filter]. rewrite Mp, Mq. cbn. rewrite F. auto.
    - destruct (negb (wkey n k) && _); auto. cbn [filter]. rewrite Mp, Mq. cbn. auto.
    - destruct (negb (wkey n k) && _); auto. cbn [filter]. rewrite Mp, Mq. cbn. auto.
    - auto.
  Qed.
  Lemma cachek_common p q l :
    filter (fun k' => member p k' && member q k') (cachek n p l) = filter (fun k' => member p k' && member q k') (cachek n q l).
  Proof.
    induction l as [|k l IH] using rev_ind; auto. rewrite !cachek_snoc. apply push_common; auto.
    intros k' Mp Mq. rewrite !cachek_in. tauto.
  Qed.
  Lemma cache_order sched s log p q : arun n (a_init h) sched = Ok (s, log) -> all_done n s -> 0 <= p < n -> 0 <= q < n ->
    filter (fun k => member p k && member q k) (map fst (pe_cache (a_pe s p))) =
    filter (fun k => member p k && member q k) (map fst (pe_cache (a_pe s q))).
  Proof.
    intros H D Hp Hq. assert (I := run_inv sched _ _ _ (ainv_init n h) H).
    destruct (I p Hp) as (pre & E1 & _ & _ & C1 & _), (I q Hq) as (pre' & E2 & _ & _ & C2 & _).
    destruct (D p Hp) as [P1 R1], (D q Hq) as [P2 R2]. rewrite P1 in C1. rewrite P2 in C2. rewrite R1, app_nil_r in E1. rewrite R2, app_nil_r in E2.
    rewrite app_nil_r in C1, C2. subst pre pre'. rewrite C1, C2. apply cachek_common.
  Qed.
  (** ** Every PE makes the calls of its program *)
  Definition todo (p : Z) (x : pe) : list key :=
    filter (member p) (match pe_pc x with PColl _ _ _ => tl (pe_rem x) | _ => pe_rem x end).

  Lemma step_todo p s s' e q : 0 <= p < n -> ainv n h s -> astep n p s = Ok (Some (s', e)) ->
    todo q (a_pe s q) = keys_of q e ++ todo q (a_pe s' q).
  Proof.
    intros Hp I H. destruct (I p Hp) as (pre & Eh & I2 & I3 & I4 & I5). unfold astep in H. destruct Hh as [Hn HV].
    assert (VH : forall k r, pe_rem (a_pe s p) = k :: r -> valid_set n k).
    { intros k r E. apply HV. rewrite Eh, E. apply in_or_app. right. left. auto. }
    assert (S1 : forall s0 x, a_pe (set_pe s0 p x) q = if q =? p then x else a_pe s0 q) by reflexivity.
    assert (Ent : forall k r x c, pe_rem x = k :: r -> member p k = true -> todo p (a_pe s p) = filter (member p) (k :: r) ->
      todo q (a_pe s q) = keys_of q (snd (enter_coll s p x k c)) ++ todo q (a_pe (fst (enter_coll s p x k c)) q)).
    { intros k r x c Er M T. cbn [enter_coll fst snd]. rewrite S1. cbn [inc_arr a_pe keys_of flat_map]. rewrite app_nil_r.
      rewrite (Z.eqb_sym q p). destruct (p =? q) eqn:Q; [|auto]. assert (p = q) by lia. subst q. rewrite T. unfold todo. cbn [pe_pc pe_rem].
      rewrite Er. cbn. rewrite M. auto. }
    remember (a_pe s p) as x eqn:Ex. destruct (pe_pc x) as [|k g od|k c od] eqn:Epc.
    - destruct (pe_rem x) as [|k r] eqn:Er; [discriminate|].
      assert (T : todo p x = filter (member p) (k :: r)) by (unfold todo; rewrite Epc, Er; auto).
      assert (V := VH _ _ eq_refl). rewrite (pe_list_ok n k Hn V) in H. cbn [bind] in H.
      fold (member p k) in H. destruct (member p k) eqn:M; cbn [negb] in H.
      2:{ inversion H; subst s' e. cbn [keys_of flat_map app]. rewrite S1. destruct (q =? p) eqn:Q; [|auto]. assert (q = p) by lia. subst q.
          rewrite <- Ex, T. unfold todo. cbn. rewrite M. auto. }
      fold (wkey n k) in H. destruct (wkey n k) eqn:W; [inversion H; subst s' e; apply (Ent k r x CWorld); auto|].
      destruct (find_comm x k) as [c|] eqn:F; [inversion H; subst s' e; apply (Ent k r x c); auto|].
      rewrite (group_incl_ok n k Hn V) in H. cbn [bind] in H. inversion H; subst s' e. cbn [keys_of flat_map app].
      rewrite S1. cbn [inc_ent a_pe]. destruct (q =? p) eqn:Q; [|auto]. assert (q = p) by lia. subst q.
      rewrite <- Ex, T. unfold todo. cbn. auto.
    - destruct I5 as ((r & Er) & M & _). destruct (forallb _ g) eqn:Fa; [|discriminate].
      inversion H; subst s' e. apply (Ent k r (mkPe (pe_rem x) ((k, CNew g (k_start k) od) :: pe_cache x) (PCreate k g od)) (CNew g (k_start k) od)); auto.
      unfold todo. rewrite Epc, Er. auto.
    - destruct (forallb _ (comm_group n c)) eqn:Fa; [|discriminate]. inversion H; subst s' e. cbn [keys_of flat_map app].
      rewrite S1. destruct (q =? p) eqn:Q; [|auto]. assert (q = p) by lia. subst q. rewrite <- Ex. unfold todo. rewrite Epc. cbn. auto.
  Qed.

  Lemma run_todo sched q : forall s s' log, ainv n h s -> arun n s sched = Ok (s', log) ->
    todo q (a_pe s q) = keys_of q log ++ todo q (a_pe s' q).
  Proof.
    induction sched as [|p r IH]; intros s s' log I H; cbn [arun] in H; [inversion H; subst; auto|].
    destruct (negb _) eqn:Ep in H; [discriminate|]. assert (Hp : 0 <= p < n) by lia.
    destruct (astep n p s) as [[[s1 e1]|]| | |] eqn:E; cbn [bind] in H; try discriminate; [|eapply IH; eauto].
    destruct (arun n s1 r) as [[s2 l2]| | |] eqn:E2; cbn [bind] in H; try discriminate. inversion H; subst. cbn [fst snd] in *.
    rewrite (step_todo p s s1 e1 q Hp I E), (IH s1 s' l2 (step_inv p s s1 e1 Hp I E) E2).
    unfold keys_of. rewrite flat_map_app, app_assoc. auto.
  Qed.
  Lemma run_program sched s log p : arun n (a_init h) sched = Ok (s, log) -> 0 <= p < n ->
    prefix (keys_of p log) (filter (member p) h) /\ (all_done n s -> keys_of p log = filter (member p) h).
  Proof.
    intros H Hp. assert (T := run_todo sched p _ _ _ (ainv_init n h) H). change (todo p (a_pe (a_init h) p)) with (filter (member p) h) in T.
    split; [eexists; exact T|]. intros D. destruct (D p Hp) as [D1 D2]. rewrite T. unfold todo. rewrite D1, D2. cbn. rewrite app_nil_r. auto.
  Qed.

End Step.

(** A set with a PE that does not exist. *)
Lemma outs_in {A} (f : Z -> outcome A) n : forall i l, outs f i n = Ok l ->
  forall j, i <= j < i + Z.of_nat n -> exists y, f j = Ok y /\ In y l.
Proof.
  induction n as [|n IH]; intros i l H j Hj; [lia|]. cbn [outs] in H.
  destruct (f i) as [y| | |] eqn:E; cbn [bind] in H; try discriminate.
  destruct (outs f (i + 1) n) as [t| | |] eqn:F; cbn [bind] in H; try discriminate.
  inversion H. subst. destruct (Z.eq_dec j i) as [->|N].
  - exists y. split; auto. left. auto.
  - destruct (IH _ _ F j ltac:(lia)) as (z & P & Q). exists z. split; auto. right. auto.
Qed.
Lemma pe_list_in k g q : pe_list k = Ok g -> in_set k q -> In q g.
Proof.
  intros H (i & Hi & ->). unfold pe_list in H. destruct (k_size k <? 1); [discriminate|].
  unfold shl1 in H. destruct ((0 <=? k_log k) && (k_log k <=? 30)); cbn [bind] in H; [|discriminate].
  destruct (outs_in _ _ _ _ H i ltac:(lia)) as (y & Y & I).
  unfold int_op in Y. destruct (_ && _) in Y; cbn [bind] in Y; [|discriminate].
  destruct (_ && _) in Y; [|discriminate]. inversion Y. subst. exact I.
Qed.
Lemma outside_rejected n p s k r q : pe_pc (a_pe s p) = PIdle -> pe_rem (a_pe s p) = k :: r ->
  find_comm (a_pe s p) k = None -> in_set k p -> in_set k q -> ~ (0 <= q < n) ->
  forall x, astep n p s <> Ok x.
Proof.
  intros A B C Dp Dq Q x H. unfold astep in H. rewrite A, B in H.
  destruct (pe_list k) as [g| | |] eqn:G; cbn [bind] in H; try discriminate.
  assert (Ip := pe_list_in k g p G Dp). assert (Iq := pe_list_in k g q G Dq).
  replace (existsb (Z.eqb p) g) with true in H
    by (symmetry; apply existsb_exists; exists p; split; [auto|apply Z.eqb_refl]).
  cbn [negb] in H.
  destruct ((k_start k =? 0) && (k_log k =? 0) && (k_size k =? n)) eqn:W.
  - destruct Dq as (i & Hi & E).
    assert (k_start k = 0 /\ k_log k = 0 /\ k_size k = n) as (W1 & W2 & W3) by lia.
    rewrite W1, W2 in E. change (2 ^ 0) with 1 in E. lia.
  - rewrite C in H. unfold group_incl in H.
    replace (forallb _ g) with false in H; [discriminate|]. symmetry.
    apply not_true_iff_false. intro F. rewrite forallb_forall in F. apply F in Iq. lia.
Qed.
