From Verif Require Import Base BaseProofs ListLib AmModel AmSpec AmProofs3 AmoModel AmoSpec.


Lemma ld_length m w : forall a, length (ld m a w) = w.
Proof. induction w as [|w IH]; intros a; simpl; [reflexivity|]. rewrite IH. reflexivity. Qed.
Lemma ld_byte m w : forall a, byte_mem m -> Forall byte (ld m a w).
Proof. induction w as [|w IH]; intros a H; simpl; constructor; auto. Qed.
Lemma enc_length w : forall v, length (enc w v) = w.
Proof. induction w as [|w IH]; intros v; simpl; [reflexivity|]. rewrite IH. reflexivity. Qed.
Lemma enc_byte w : forall v, Forall byte (enc w v).
Proof. induction w as [|w IH]; intros v; simpl; constructor; auto. unfold byte. apply Z.mod_pos_bound. lia. Qed.

Lemma st_out l : forall m a b, b < a \/ a + Z.of_nat (length l) <= b -> st m a l b = m b.
Proof.
  induction l as [|x l IH]; intros m a b H; simpl; [reflexivity|]. simpl in H. rewrite IH by lia.
  destruct (Z.eqb_spec b a); [lia|reflexivity].
Qed.
Lemma ld_st_same l : forall m a, ld (st m a l) a (length l) = l.
Proof.
  induction l as [|x l IH]; intros m a; simpl; [reflexivity|]. f_equal; [|apply IH].
  rewrite st_out by lia. rewrite Z.eqb_refl. reflexivity.
Qed.
Lemma st_byte l : forall m a, byte_mem m -> Forall byte l -> byte_mem (st m a l).
Proof.
  induction l as [|x l IH]; intros m a H1 H2; simpl; [exact H1|]. inversion H2; subst. apply IH; [|assumption].
  intros b. destruct (b =? a); [assumption|apply H1].
Qed.

Lemma dec_bound l : Forall byte l -> 0 <= dec l < 2 ^ (8 * Z.of_nat (length l)).
Proof.
  induction l as [|x l IH]; intros H; [simpl; lia|]. inversion H; subst. specialize (IH H3). cbn [dec length].
  replace (8 * Z.of_nat (S (length l))) with (8 + 8 * Z.of_nat (length l)) by lia.
  rewrite Z.pow_add_r by lia. change (2 ^ 8) with 256. unfold byte in *. lia.
Qed.
Lemma dec_enc w : forall v, dec (enc w v) = v mod 2 ^ (8 * Z.of_nat w).
Proof.
  induction w as [|w IH]; intros v; [simpl; symmetry; apply Z.mod_1_r|]. cbn [dec enc]. rewrite IH.
  replace (8 * Z.of_nat (S w)) with (8 + 8 * Z.of_nat w) by lia.
  rewrite Z.pow_add_r by lia. change (2 ^ 8) with 256.
  assert (0 < 2 ^ (8 * Z.of_nat w)) by (apply Z.pow_pos_nonneg; lia).
  rewrite Z.rem_mul_r by lia. lia.
Qed.

Lemma bits_pos c : 8 <= ct_bits c.
Proof. destruct c; cbv; discriminate. Qed.
Lemma pow_half c : 2 ^ ct_bits c = 2 * 2 ^ (ct_bits c - 1).
Proof. pose proof (bits_pos c). rewrite <- Z.pow_succ_r by lia. f_equal. lia. Qed.
Lemma pow_pos c : 0 < 2 ^ (ct_bits c - 1).
Proof. pose proof (bits_pos c). apply Z.pow_pos_nonneg; lia. Qed.

Lemma repr_length c v : length (repr c v) = ct_width c.
Proof. apply enc_length. Qed.
Lemma repr_byte c v : Forall byte (repr c v).
Proof. apply enc_byte. Qed.

Lemma val_in c l : Forall byte l -> length l = ct_width c -> in_type c (val c l).
Proof.
  intros H1 H2. pose proof (dec_bound l H1) as B. rewrite H2 in B. fold (ct_bits c) in B.
  pose proof (pow_half c). pose proof (pow_pos c). unfold val, in_type. destruct (ct_signed c); simpl; [|lia].
  destruct (2 ^ (ct_bits c - 1) <=? dec l) eqn:E; lia.
Qed.

Lemma val_repr c v : val c (repr c v) = if ct_signed c then (v + 2 ^ (ct_bits c - 1)) mod 2 ^ ct_bits c - 2 ^ (ct_bits c - 1) else v mod 2 ^ ct_bits c.
Proof.
  unfold val, repr. rewrite dec_enc. fold (ct_bits c). rewrite Z.mod_mod by (pose proof (pow_half c); pose proof (pow_pos c); lia).
  pose proof (pow_half c) as HH. pose proof (pow_pos c) as HP. set (B := 2 ^ ct_bits c) in *. set (H := 2 ^ (ct_bits c - 1)) in *.
  destruct (ct_signed c); simpl; [|reflexivity].
  pose proof (Z.mod_pos_bound v B ltac:(lia)) as M. destruct (H <=? v mod B) eqn:E.
  - replace ((v + H) mod B) with (v mod B - H); [lia|].
    apply (Z.mod_unique_pos _ _ (v / B + 1)); [lia|]. pose proof (Z.div_mod v B ltac:(lia)). lia.
  - replace ((v + H) mod B) with (v mod B + H); [lia|].
    apply (Z.mod_unique_pos _ _ (v / B)); [lia|]. pose proof (Z.div_mod v B ltac:(lia)). lia.
Qed.

Lemma val_repr_id c v : in_type c v -> val c (repr c v) = v.
Proof.
  intros H. rewrite val_repr. unfold in_type in H. pose proof (pow_half c). pose proof (pow_pos c).
  destruct (ct_signed c); rewrite Z.mod_small; lia.
Qed.

(** Bitwise operations stay in the type. *)
Lemma in_shiftr c v : in_type c v <->
  (if ct_signed c then Z.shiftr v (ct_bits c - 1) = 0 \/ Z.shiftr v (ct_bits c - 1) = -1 else Z.shiftr v (ct_bits c) = 0).
Proof.
  pose proof (bits_pos c). pose proof (pow_half c). pose proof (pow_pos c). unfold in_type. destruct (ct_signed c); rewrite Z.shiftr_div_pow2 by lia.
  - set (h := 2 ^ (ct_bits c - 1)) in *. split.
    + intros Hv. destruct (Z.le_gt_cases 0 v).
      * left. apply Z.div_small. lia.
      * right. symmetry. apply (Z.div_unique v h (-1) (v + h)); lia.
    + pose proof (Z.div_mod v h ltac:(lia)). pose proof (Z.mod_pos_bound v h ltac:(lia)). intros [E|E]; rewrite E in *; lia.
  - set (h := 2 ^ ct_bits c) in *. split.
    + intros Hv. apply Z.div_small. exact Hv.
    + pose proof (Z.div_mod v h ltac:(lia)). pose proof (Z.mod_pos_bound v h ltac:(lia)). intros E. rewrite E in *. lia.
Qed.
Lemma land_in c a b : in_type c a -> in_type c b -> in_type c (Z.land a b).
Proof.
  rewrite !in_shiftr. destruct (ct_signed c); rewrite Z.shiftr_land.
  - intros [->| ->] [->| ->]; auto.
  - intros -> ->. reflexivity.
Qed.
Lemma lor_in c a b : in_type c a -> in_type c b -> in_type c (Z.lor a b).
Proof.
  rewrite !in_shiftr. destruct (ct_signed c); rewrite Z.shiftr_lor.
  - intros [->| ->] [->| ->]; auto.
  - intros -> ->. reflexivity.
Qed.
Lemma lxor_in c a b : in_type c a -> in_type c b -> in_type c (Z.lxor a b).
Proof.
  rewrite !in_shiftr. destruct (ct_signed c); rewrite Z.shiftr_lxor.
  - intros [->| ->] [->| ->]; auto.
  - intros -> ->. reflexivity.
Qed.

Section ExecProofs.
Variable fadd : ctype -> list Z -> list Z -> list Z.
Variable feq : ctype -> list Z -> list Z -> bool.
Notation exec := (exec_pkt fadd feq).

Lemma var_st c m a l : length l = ct_width c -> var c (st m a l) a = val c l.
Proof. intros H. unfold var. rewrite <- H, ld_st_same. reflexivity. Qed.

Lemma store_ok c m a v (rep : list Z) x : byte_mem m -> in_type c v -> amo_new c x (var c m a) = v ->
  (amo_fetches x = true -> rep = ld m a (ct_width c)) ->
  amo_step_ok c a x m (st m a (repr c v)) rep /\ byte_mem (st m a (repr c v)).
Proof.
  intros HM HV HN HR. split; [|apply st_byte; [exact HM|apply repr_byte]].
  unfold amo_step_ok. rewrite var_st by apply repr_length. rewrite val_repr_id by exact HV.
  split; [congruence|]. split; [exact HV|]. split; [|intros F; rewrite HR by exact F; reflexivity].
  intros b Hb. apply st_out. rewrite repr_length. exact Hb.
Qed.

Lemma mod_in c v : ct_signed c = false -> in_type c (v mod 2 ^ ct_bits c).
Proof. intros E. unfold in_type. rewrite E. apply Z.mod_pos_bound. pose proof (pow_half c). pose proof (pow_pos c). lia. Qed.

Lemma repr_mod c v : repr c (v mod 2 ^ ct_bits c) = repr c v.
Proof. unfold repr. rewrite Z.mod_mod by (pose proof (pow_half c); pose proof (pow_pos c); lia). reflexivity. Qed.

Lemma exec_sum c a v m rep x : byte_mem m -> ct_fp c = false -> in_type c v ->
  amo_new c x (var c m a) = (if ct_signed c then var c m a + v else (var c m a + v) mod 2 ^ ct_bits c) ->
  (amo_fetches x = true -> rep = ld m a (ct_width c)) ->
  match op_type fadd OSum c (repr c v) (ld m a (ct_width c)) with
  | Ok b => amo_step_ok c a x m (st m a b) rep /\ byte_mem (st m a b)
  | UB => ~ in_type c (amo_new c x (var c m a))
  | _ => False
  end.
Proof.
  intros HM HF HV HN HR. unfold op_type, op_int. rewrite HF. rewrite val_repr_id by exact HV. cbn zeta.
  change (val c (ld m a (ct_width c))) with (var c m a) in *.
  destruct (ct_signed c) eqn:ES; simpl.
  - destruct ((- 2 ^ (ct_bits c - 1) <=? var c m a + v) && (var c m a + v <? 2 ^ (ct_bits c - 1))) eqn:E; simpl.
    + apply store_ok; auto. unfold in_type. rewrite ES. lia.
    + rewrite HN. unfold in_type. rewrite ES. lia.
  - rewrite <- repr_mod. apply store_ok; auto. apply mod_in. exact ES.
Qed.

Lemma one_in c : in_type c 1.
Proof. destruct c; cbv; split; congruence. Qed.

Lemma self_ok c m a x (rep : list Z) : byte_mem m -> amo_new c x (var c m a) = var c m a ->
  (amo_fetches x = true -> rep = ld m a (ct_width c)) ->
  forall m', (forall b, m' b = m b) -> amo_step_ok c a x m m' rep /\ byte_mem m'.
Proof.
  intros HM HN HR m' HE. assert (EL : forall w b, ld m' b w = ld m b w).
  { induction w as [|w IH]; intros b; simpl; [reflexivity|]. rewrite HE, IH. reflexivity. }
  split; [|intros b; rewrite HE; apply HM]. unfold amo_step_ok, var in *. rewrite EL. split; [congruence|].
  split; [apply val_in; [apply ld_byte; exact HM|apply ld_length]|]. split; [auto|]. intros F. rewrite HR by exact F. reflexivity.
Qed.

Lemma st_ld w m : forall a b, st m a (ld m a w) b = m b.
Proof.
  intros a b. enough (H : forall (m1 m2 : bytes) a, (forall b, m2 b = m1 b) -> forall b, st m2 a (ld m1 a w) b = m1 b) by (apply H; reflexivity).
  clear. induction w as [|w IH]; intros m1 m2 a H b; simpl; [apply H|]. apply IH. intros b'.
  destruct (Z.eqb_spec b' a); [congruence|apply H].
Qed.

Theorem exec_api c a x m : byte_mem m -> In c (api_types x) -> amo_args_ok c x ->
  match exec (rq_args (api_req c a x)) None m with
  | Ok (m', rep) => amo_step_ok c a x m m' rep /\ byte_mem m'
  | UB => ~ in_type c (amo_new c x (var c m a))
  | _ => False
  end.
Proof.
  intros HM HT HA.
  assert (HI : in_type c (var c m a)) by (apply val_in; [apply ld_byte; exact HM|apply ld_length]).
  assert (HFP : api_types x <> ext_types -> ct_fp c = false).
  { intros NE. destruct x; simpl in *; try contradiction; repeat (destruct HT as [<-|HT]; [reflexivity|]); destruct HT. }
  assert (HB : forall o v rep, ct_fp c = false -> in_type c v ->
     (o = OBand /\ amo_new c x (var c m a) = Z.land (var c m a) v \/ o = OBor /\ amo_new c x (var c m a) = Z.lor (var c m a) v \/
      o = OBxor /\ amo_new c x (var c m a) = Z.lxor (var c m a) v) ->
     (amo_fetches x = true -> rep = ld m a (ct_width c)) ->
     match op_type fadd o c (repr c v) (ld m a (ct_width c)) with
     | Ok b => amo_step_ok c a x m (st m a b) rep /\ byte_mem (st m a b)
     | UB => ~ in_type c (amo_new c x (var c m a))
     | _ => False
     end).
  { intros o v rep HF HV HO HR. unfold op_type, op_int. rewrite HF. rewrite val_repr_id by exact HV.
    change (val c (ld m a (ct_width c))) with (var c m a).
    destruct HO as [[-> HN]|[[-> HN]|[-> HN]]].
    - rewrite Z.land_comm. apply store_ok; auto. apply land_in; auto.
    - rewrite Z.lor_comm. apply store_ok; auto. apply lor_in; auto.
    - rewrite Z.lxor_comm. apply store_ok; auto. apply lxor_in; auto. }
  assert (HS : forall v rep, ct_fp c = false -> in_type c v ->
     amo_new c x (var c m a) = (if ct_signed c then var c m a + v else (var c m a + v) mod 2 ^ ct_bits c) ->
     (amo_fetches x = true -> rep = ld m a (ct_width c)) ->
     match op_type fadd OSum c (repr c v) (ld m a (ct_width c)) with
     | Ok b => amo_step_ok c a x m (st m a b) rep /\ byte_mem (st m a b)
     | UB => ~ in_type c (amo_new c x (var c m a))
     | _ => False
     end) by (intros; apply exec_sum; auto).
  destruct x; cbn [api_req rq_args exec_pkt]; simpl amo_args_ok in HA; cbn zeta;
    try (match goal with |- match bind (op_type _ OSum _ (repr _ ?v) _) (fun b => Ok (_, ?rep)) with _ => _ end =>
           specialize (HS v rep); destruct (op_type fadd OSum c (repr c v) (ld m a (ct_width c))); cbn [bind];
           (apply HS; [apply HFP; discriminate|try exact HA; apply one_in|reflexivity|]); simpl; congruence end);
    try (match goal with |- match bind (op_type _ ?o _ (repr _ ?v) _) (fun b => Ok (_, ?rep)) with _ => _ end =>
           specialize (HB o v rep); destruct (op_type fadd o c (repr c v) (ld m a (ct_width c))); cbn [bind];
           (apply HB; [apply HFP; discriminate|exact HA|auto|]); simpl; congruence end).
  - (* cswap *) destruct HA as [HA1 HA2]. rewrite HFP by discriminate. rewrite val_repr_id by exact HA1.
    change (val c (ld m a (ct_width c))) with (var c m a).
    destruct (var c m a =? cond) eqn:E.
    + apply store_ok; auto. simpl. rewrite E. reflexivity.
    + apply self_ok; auto. simpl. rewrite E. reflexivity.
  - (* fetch *) unfold op_type. destruct (ct_fp c); simpl; (apply self_ok; auto; intros b; apply st_ld).
  - (* set *) unfold op_type. destruct (ct_fp c); simpl; (apply store_ok; auto; discriminate).
  - (* swap *) unfold op_type. destruct (ct_fp c); simpl; (apply store_ok; auto).
Qed.
End ExecProofs.

(** A log of API requests is a sequence of atomic operations. *)
Lemma seq_amo fadd feq log : forall m m', byte_mem m ->
  (forall p r x, In (p, r, x) log -> amo_call r) -> seq_exec (exec_pkt fadd feq) m log m' -> amo_seq m log m'.
Proof.
  induction log as [|[[p r] rep] log IH]; intros m m' HM HR H; cbn in *; [exact H|].
  destruct H as (m1 & E & H). destruct (HR p r rep (or_introl eq_refl)) as (c & a & x & HT & HA & ->).
  pose proof (exec_api fadd feq c a x m HM HT HA) as EA.
  assert (ED : rq_data (api_req c a x) = None) by (destruct x; reflexivity). rewrite ED in E. rewrite E in EA.
  destruct EA as [EA HM1]. exists c, a, x, m1. split; [reflexivity|]. split; [exact EA|]. apply IH; [exact HM1| |exact H].
  intros p' r' x' Hin. eapply HR. right. exact Hin.
Qed.

Lemma amo_linear fadd feq ub n (m0 : Z -> bytes) ls : ub <= INT_MAX -> (forall t, byte_mem (m0 t)) -> amo_calls ls ->
  let s := fst (run (exec_pkt fadd feq) ub n (a_init m0) ls) in
  forall t, amo_seq (m0 t) (a_log s t) (a_mem s t).
Proof.
  cbn zeta. intros HU HM HC t. pose proof (am_matching _ _ _ _ (exec_pkt fadd feq) ub n m0 HU ls) as H.
  pose proof (log_called _ _ _ _ (exec_pkt fadd feq) ub n m0 HU amo_call ls) as HL.
  destruct (run (exec_pkt fadd feq) ub n (a_init m0) ls) as [s evs]. cbn [fst] in *. destruct H as (_ & H & _).
  apply (seq_amo fadd feq); [apply HM| |apply H]. intros p r x Hin. apply (HL) in Hin; [exact Hin|].
  apply Forall_forall. intros l Hl. specialize (HC l Hl). destruct l; exact HC || exact I.
Qed.

(** ** Data of puts and gets *)
Lemma st_in l : forall m a j, (j < length l)%nat -> st m a l (a + Z.of_nat j) = nth j l 0.
Proof.
  induction l as [|x l IH]; intros m a j H; cbn [length] in H; [lia|]. cbn [st]. destruct j as [|j].
  - rewrite st_out by lia. cbn. now rewrite Z.add_0_r, Z.eqb_refl.
  - replace (a + Z.of_nat (S j)) with (a + 1 + Z.of_nat j) by lia. cbn [nth]. apply IH. lia.
Qed.
Lemma ld_nth m w : forall a j, (j < w)%nat -> nth j (ld m a w) 0 = m (a + Z.of_nat j).
Proof.
  induction w as [|w IH]; intros a j H; [lia|]. cbn [ld]. destruct j as [|j].
  - cbn. now rewrite Z.add_0_r.
  - cbn [nth]. rewrite IH by lia. f_equal. lia.
Qed.
Lemma el_S a s esz i j : el a s esz (S i) j = el (a + s * Z.of_nat esz) s esz i j.
Proof. unfold el. rewrite Nat2Z.inj_succ. ring. Qed.
Lemma el_0 a s esz j : el a s esz 0 j = a + Z.of_nat j.
Proof. unfold el. lia. Qed.
Lemma nth_firstn_lt (l : list Z) k : forall j, (j < k)%nat -> nth j (firstn k l) 0 = nth j l 0.
Proof.
  revert l. induction k as [|k IH]; intros l j H; [lia|]. destruct l; [destruct j; reflexivity|]. destruct j; cbn; auto. apply IH. lia.
Qed.
Lemma nth_skipn_add (l : list Z) k j : nth j (skipn k l) 0 = nth (k + j) l 0.
Proof. revert l. induction k as [|k IH]; intros l; [reflexivity|]. destruct l; cbn; [destruct j; reflexivity|]. apply IH. Qed.
Lemma st_st_ok esz s n : 1 <= s -> forall m a d, length d = (esz * n)%nat ->
  scattered a s esz n d m (st_st m esz a s n d).
Proof.
  intros Hs. induction n as [|n IH]; intros m a d L.
  - split; [intros; lia|]. intros b _. reflexivity.
  - cbn [st_st]. assert (LF : length (firstn esz d) = esz) by (rewrite firstn_length; lia).
    destruct (IH (st m a (firstn esz d)) (a + s * Z.of_nat esz) (skipn esz d)) as [H1 H2].
    { rewrite skipn_length. lia. }
    split.
    + intros [|i] j Hi Hj.
      * rewrite el_0. rewrite H2.
        -- rewrite st_in by lia. cbn [Nat.mul Nat.add]. now apply nth_firstn_lt.
        -- intros i' j' A B. unfold el. assert (0 <= Z.of_nat i' * s * Z.of_nat esz) by nia. nia.
      * rewrite el_S, H1 by lia. rewrite nth_skipn_add. f_equal. cbn. lia.
    + intros b Hb. rewrite H2.
      * destruct (Z_lt_ge_dec b a); [apply st_out; lia|].
        destruct (Z_lt_ge_dec b (a + Z.of_nat esz)); [|apply st_out; lia].
        exfalso. apply (Hb 0%nat (Z.to_nat (b - a))); [lia|lia|]. rewrite el_0. lia.
      * intros i j A B. rewrite <- el_S. apply Hb; lia.
Qed.
Lemma ld_st_ok esz s n : forall m a, gathered a s esz n (ld_st m esz a s n) m.
Proof.
  induction n as [|n IH]; intros m a.
  - split; [reflexivity|intros; lia].
  - destruct (IH m (a + s * Z.of_nat esz)) as [H1 H2]. cbn [ld_st]. split.
    + rewrite app_length, ld_length, H1. lia.
    + intros [|i] j Hi Hj.
      * rewrite app_nth1 by (rewrite ld_length; lia). rewrite el_0. cbn [Nat.mul Nat.add]. now apply ld_nth.
      * rewrite app_nth2; rewrite ld_length; [|cbn; lia].
        replace (S i * esz + j - esz)%nat with (i * esz + j)%nat by (cbn; lia). rewrite H2 by lia.
        now rewrite el_S.
Qed.
Lemma exec_iput fadd feq a s esz n d m : 1 <= s -> length d = (esz * n)%nat ->
  exists m', exec_pkt fadd feq (PIput esz a s n) (Some d) m = Ok (m', []) /\ scattered a s esz n d m m'.
Proof.
  intros H L. cbn. rewrite L, Nat.leb_refl. eexists. split; [reflexivity|]. now apply st_st_ok.
Qed.
Lemma exec_put fadd feq a d m :
  exists m', exec_pkt fadd feq (PPut a (length d)) (Some d) m = Ok (m', []) /\ scattered a 1 1 (length d) d m m'.
Proof.
  cbn. rewrite Nat.leb_refl. eexists. split; [reflexivity|]. split.
  - intros i j A B. unfold el. replace (i * 1 + j)%nat with i by lia. rewrite <- st_in with (m := m) (a := a) by lia. f_equal. lia.
  - intros b H. destruct (Z_lt_ge_dec b a); [apply st_out; lia|].
    destruct (Z_lt_ge_dec b (a + Z.of_nat (length d))); [|apply st_out; lia].
    exfalso. apply (H (Z.to_nat (b - a)) 0%nat); [lia|lia|]. unfold el. lia.
Qed.
Lemma exec_iget fadd feq a s esz n m :
  exists d, exec_pkt fadd feq (PIget esz a s n) None m = Ok (m, d) /\ gathered a s esz n d m.
Proof. eexists. split; [reflexivity|]. apply ld_st_ok. Qed.
Lemma exec_get fadd feq a nb m :
  exists d, exec_pkt fadd feq (PGet a nb) None m = Ok (m, d) /\ gathered a 1 1 nb d m.
Proof.
  eexists. split; [reflexivity|]. split; [rewrite ld_length; lia|]. intros i j A B.
  rewrite ld_nth by lia. unfold el. f_equal. lia.
Qed.
