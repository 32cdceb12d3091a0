(** Proofs about the data movement of collectives. *)
From Verif Require Import Base BaseProofs ListLib TeamModel AsetModel AsetSpec AsetProofs RmaModel RmaSpec RmaProofs CollModel CollSpec.

(** ** Members *)
Lemma on_members_ok f (Q : nat -> Z -> mem -> Prop) : forall g i M, NoDup g ->
  (forall j p, nth_error g j = Some p -> exists m, f (i + Z.of_nat j) p = Ok m /\ Q j p m) ->
  exists M', on_members f i g M = Ok M' /\ (forall j p, nth_error g j = Some p -> Q j p (M' p)) /\
    (forall q, ~ In q g -> M' q = M q).
Proof.
  intros g. revert Q. induction g as [|p r IH]; intros Q i M N H; cbn [on_members].
  { exists M. split; auto. split; auto. intros [|j] p E; discriminate. }
  inversion N; subst. destruct (H 0%nat p eq_refl) as (m & E & Qm). replace (i + Z.of_nat 0) with i in E by lia. rewrite E. cbn [bind].
  destruct (IH (fun j => Q (S j)) (i + 1) M H3) as (M' & E' & Q' & F).
  { intros j q Hj. destruct (H (S j) q Hj) as (x & X & Y). exists x. split; auto. rewrite <- X. f_equal. lia. }
  rewrite E'. cbn [bind]. exists (fun q => if q =? p then m else M' q). split; auto. split.
  - intros [|j] q Hj; cbn in Hj; [inversion Hj; subst; rewrite Z.eqb_refl; auto|].
    destruct (q =? p) eqn:Eq; [|auto]. exfalso. apply H2. replace p with q by lia. eapply nth_error_In; eauto.
  - intros q Hq. cbn in Hq. destruct (q =? p) eqn:Eq; [exfalso; apply Hq; left; lia|]. apply F. tauto.
Qed.

(** ** Messages *)
Lemma write_app a : forall m b, write m (a ++ b) = write (write m a) b.
Proof. induction a as [|[x v] a IH]; intros; cbn; auto. Qed.
Lemma recv_exact_ok m a c d msg : 0 <= c -> length (addrs a c d) = length msg ->
  recv_exact m a c d msg = Ok (write m (combine (addrs a c d) msg)).
Proof.
  intros Hc E. unfold recv_exact. replace (c <? 0) with false by lia. rewrite E, Nat.eqb_refl. auto.
Qed.
Lemma deliver_ok d : forall bl m, (forall a c msg, In (a, c, msg) bl -> 0 <= c /\ length (addrs a c d) = length msg) ->
  deliver m d bl = Ok (write m (flat_map (fun x => combine (addrs (fst (fst x)) (snd (fst x)) d) (snd x)) bl)).
Proof.
  induction bl as [|[[a c] msg] bl IH]; intros m H; cbn [deliver flat_map fst snd]; auto.
  destruct (H a c msg (or_introl eq_refl)) as [H1 H2]. rewrite recv_exact_ok by auto. cbn [bind]. rewrite IH.
  - rewrite write_app. auto.
  - intros; apply H; right; auto.
Qed.
Lemma sends_ok M buf cnt d : forall g, (forall p, In p g -> 0 <= cnt p) ->
  sends M buf cnt d g = Ok (map (fun p => pack (M p) (buf p) (cnt p) d) g).
Proof.
  induction g as [|p r IH]; intros H; cbn [sends map]; auto. unfold send at 1.
  replace (cnt p <? 0) with false by (specialize (H p (or_introl eq_refl)); lia). cbn [bind].
  rewrite IH by (intros; apply H; right; auto). auto.
Qed.
Lemma place_map {A} base ext (ds cs : A -> Z) (ms : A -> list Z) l :
  place base ext (map ds l) (map cs l) (map ms l) = map (fun j => (base + ds j * ext, cs j, ms j)) l.
Proof. induction l; cbn; [|f_equal]; auto. Qed.

(** The member of rank [j]. *)
Definition at_ (g : list Z) (j : Z) : Z := nth (Z.to_nat j) g 0.
Lemma at_list g : g = map (at_ g) (zseq 0 (length g)).
Proof.
  unfold zseq. rewrite map_map. transitivity (map (fun i => nth i g 0) (seq 0 (length g))).
  - induction g as [|p r IH]; auto. cbn. f_equal. rewrite <- seq_shift, map_map. exact IH.
  - apply map_ext. intros i. unfold at_. f_equal. lia.
Qed.
Lemma map_at {A} (f : Z -> A) g : map f g = map (fun j => f (at_ g j)) (zseq 0 (length g)).
Proof. rewrite <- (map_map (at_ g) f), <- at_list. auto. Qed.
Lemma at_nth g j p : nth_error g j = Some p -> at_ g (Z.of_nat j) = p.
Proof. intros H. unfold at_. rewrite Nat2Z.id. apply nth_error_nth. auto. Qed.
Lemma at_in g j : 0 <= j < Z.of_nat (length g) -> In (at_ g j) g.
Proof. intros H. unfold at_. apply nth_In. lia. Qed.
Lemma at_nth_error g j : 0 <= j < Z.of_nat (length g) -> nth_error g (Z.to_nat j) = Some (at_ g j).
Proof. intros H. unfold at_. apply nth_error_nth'. lia. Qed.

(** Blocks written one after the other that do not overlap. *)
Lemma in_combine_strided sz n (sm : mem) sa ss da ds i b : 0 <= sz -> 0 <= n -> 0 <= i < n -> 0 <= b < sz ->
  In (da + i * ds * sz + b, sm (sa + i * ss * sz + b)) (combine (saddrs sz n da ds) (map sm (saddrs sz n sa ss))).
Proof.
  intros Hs Hn Hi Hb. unfold saddrs. rewrite map_flat. rewrite combine_flat by (intros; rewrite map_length, !zseq_length; auto).
  apply in_flat_map. exists i. split; [apply in_zseq; lia|].
  replace (zseq (da + i * ds * sz) (Z.to_nat sz)) with (map (fun x => da + i * ds * sz + x) (zseq 0 (Z.to_nat sz)))
    by (rewrite <- zseq_shift; f_equal; lia).
  replace (zseq (sa + i * ss * sz) (Z.to_nat sz)) with (map (fun x => sa + i * ss * sz + x) (zseq 0 (Z.to_nat sz)))
    by (rewrite <- zseq_shift; f_equal; lia).
  rewrite map_map. clear - Hb Hs. assert (X : In b (zseq 0 (Z.to_nat sz))) by (apply in_zseq; lia).
  induction (zseq 0 (Z.to_nat sz)) as [|x l IH]; [destruct X|]. cbn. destruct X as [->|X]; auto.
Qed.
Lemma write_blocks sz (nn : Z -> Z) (da : Z -> Z) ds (sm : Z -> mem) (sa : Z -> Z) ss idx dm :
  0 <= sz -> NoDup idx -> (forall j, In j idx -> 0 <= nn j) -> (ds <> 0 \/ forall j, In j idx -> nn j <= 1) ->
  (forall j j' i i' b b', In j idx -> In j' idx -> 0 <= i < nn j -> 0 <= i' < nn j' -> 0 <= b < sz -> 0 <= b' < sz ->
     da j + i * ds * sz + b = da j' + i' * ds * sz + b' -> j = j') ->
  let W := write dm (flat_map (fun j => combine (saddrs sz (nn j) (da j) ds) (map (sm j) (saddrs sz (nn j) (sa j) ss))) idx) in
  (forall j i b, In j idx -> 0 <= i < nn j -> 0 <= b < sz -> W (da j + i * ds * sz + b) = sm j (sa j + i * ss * sz + b)) /\
  (forall a, (forall j i b, In j idx -> 0 <= i < nn j -> 0 <= b < sz -> a <> da j + i * ds * sz + b) -> W a = dm a).
Proof.
  intros Hs N Hn Hd J W.
  assert (L : forall j, length (saddrs sz (nn j) (da j) ds) = length (map (sm j) (saddrs sz (nn j) (sa j) ss)))
    by (intros; rewrite map_length, !saddrs_length; auto).
  assert (F : map fst (flat_map (fun j => combine (saddrs sz (nn j) (da j) ds) (map (sm j) (saddrs sz (nn j) (sa j) ss))) idx)
     = flat_map (fun j => saddrs sz (nn j) (da j) ds) idx).
  { rewrite map_flat. apply flat_map_ext_in. intros j _. apply map_fst_combine. apply L. }
  split.
  - intros j i b Hj Hi Hb. unfold W. apply write_in.
    + rewrite F. apply NoDup_flat; auto.
      * intros x Hx. apply saddrs_nodup; auto. destruct Hd as [Hd|Hd]; auto.
      * intros x y z Hx Hy Hzx Hzy. apply in_saddrs in Hzx; auto. apply in_saddrs in Hzy; auto.
        destruct Hzx as (i1 & b1 & ? & ? & E1), Hzy as (i2 & b2 & ? & ? & E2). apply (J x y i1 i2 b1 b2); auto. lia.
    + apply in_flat_map. exists j. split; auto. apply in_combine_strided; auto.
  - intros a H. unfold W. apply write_out. rewrite F. intros Q. apply in_flat_map in Q. destruct Q as (j & Hj & Q).
    apply in_saddrs in Q; auto. destruct Q as (i & b & Hi & Hb & E). apply (H j i b); auto.
Qed.

(** ** Active sets *)
Lemma aset_group_ok n k : n <= INT_MAX -> valid_set n k -> aset_group n k = Ok (set_pes k).
Proof.
  intros Hn V. unfold aset_group. rewrite (pe_list_ok n k Hn V). cbn [bind]. apply group_incl_ok; auto.
Qed.
Lemma set_pes_nodup n k : valid_set n k -> NoDup (set_pes k).
Proof.
  intros (_ & B & _). unfold set_pes. apply NoDup_map_inj; [apply seq_NoDup|]. intros x y E.
  assert (0 < 2 ^ k_log k) by (apply Z.pow_pos_nonneg; lia). nia.
Qed.
Lemma set_pes_nth n k i : valid_set n k -> 0 <= i < k_size k -> nth_error (set_pes k) (Z.to_nat i) = Some (nth_pe k i).
Proof.
  intros V Hi. unfold set_pes, nth_pe. rewrite nth_error_map. rewrite (nth_error_nth' _ 0%nat) by (rewrite seq_length; lia).
  rewrite seq_nth by lia. cbn. f_equal. lia.
Qed.
Lemma nth_set_pes n k j p : valid_set n k -> nth_error (set_pes k) j = Some p -> p = nth_pe k (Z.of_nat j) /\ Z.of_nat j < k_size k.
Proof.
  intros V H. assert (L : (j < length (set_pes k))%nat) by (apply nth_error_Some; congruence). rewrite set_pes_length in L.
  assert (X := set_pes_nth n k (Z.of_nat j) V ltac:(lia)). rewrite Nat2Z.id, H in X. inversion X. split; auto. lia.
Qed.
Lemma nth_pe_inj n k i j : valid_set n k -> nth_pe k i = nth_pe k j -> i = j.
Proof. intros (_ & B & _) E. unfold nth_pe in E. assert (0 < 2 ^ k_log k) by (apply Z.pow_pos_nonneg; lia). nia. Qed.

Lemma to_int_ok z : int_ok z -> to_int z = z.
Proof. intros H. apply to_int_id. unfold int_ok in H. lia. Qed.

(** ** Broadcast *)
Lemma one_block sz n (sm : mem) sa dm da : 0 <= sz -> 0 <= n ->
  copy_bytes (n * sz) sm sa dm da (write dm (combine (saddrs sz n da 1) (map sm (saddrs sz n sa 1)))).
Proof.
  intros Hs Hn. destruct (write_strided sz n sm sa 1 dm da 1 Hs Hn ltac:(lia)) as [A B]. split.
  - intros k Hk. assert (0 < sz) by nia. specialize (A (k / sz) (k mod sz)).
    assert (E := Z.div_mod k sz ltac:(lia)). assert (B1 := Z.mod_pos_bound k sz ltac:(lia)).
    rewrite <- (Z.add_assoc da), <- (Z.add_assoc sa) in A.
    replace (k / sz * 1 * sz + k mod sz) with k in A by lia. apply A; auto.
    split; [apply Z.div_pos; lia|]. apply Z.div_lt_upper_bound; lia.
  - intros a Ha. apply B. intros i b Hi Hb E. apply Ha. nia.
Qed.
Lemma bcast_ok g root r cnt b buf M : NoDup g -> 0 <= cnt -> 0 <= bt_size b -> aget g root = Some r ->
  exists M', mpi_bcast g root cnt (base_dt b) buf M = Ok M' /\
    (forall p, In p g -> p <> r -> copy_bytes (cnt * bt_size b) (M r) (buf r) (M p) (buf p) (M' p)) /\
    (forall a, M' r a = M r a) /\ outside_unchanged g M M'.
Proof.
  intros N Hc Hs Hr. unfold mpi_bcast. rewrite Hr. unfold send. replace (cnt <? 0) with false by lia. cbn [bind].
  assert (R : exists jr, root = Z.of_nat jr /\ nth_error g jr = Some r).
  { unfold aget in Hr. destruct (root <? 0) eqn:E; [discriminate|]. exists (Z.to_nat root). split; [lia|auto]. }
  destruct R as (jr & Ej & Hjr).
  destruct (on_members_ok (fun i p => if i =? root then Ok (M p) else recv_exact (M p) (buf p) cnt (base_dt b) (pack (M r) (buf r) cnt (base_dt b)))
    (fun j p m => if Nat.eqb j jr then m = M p else copy_bytes (cnt * bt_size b) (M r) (buf r) (M p) (buf p) m) g 0 M N)
    as (M' & E & Q & F).
  { intros j p Hj. replace (0 + Z.of_nat j =? root) with (Nat.eqb j jr) by (destruct (Nat.eqb j jr) eqn:X; lia).
    destruct (Nat.eqb j jr) eqn:X; [eauto|]. unfold pack. rewrite !addrs_base.
    rewrite recv_exact_ok; [|auto|rewrite addrs_base, map_length, !saddrs_length; auto].
    eexists. split; [reflexivity|]. rewrite addrs_base. apply one_block; auto. }
  exists M'. split; auto. split; [|split].
  - intros p Hp Np. apply In_nth_error in Hp. destruct Hp as (j & Hj). specialize (Q j p Hj).
    destruct (Nat.eqb j jr) eqn:X; auto. assert (j = jr) by lia. subst. congruence.
  - intros a. specialize (Q jr r Hjr). rewrite Nat.eqb_refl in Q. rewrite Q. auto.
  - intros q Hq a. rewrite F; auto.
Qed.

Lemma check_root_in root g : check_root root g = true <-> In root g.
Proof.
  unfold check_root. rewrite existsb_exists. split; [intros (x & H & E); replace root with x by lia; auto|].
  intros H. exists root. split; auto. lia.
Qed.
Lemma aget_nth_pe n k i : valid_set n k -> 0 <= i < k_size k -> aget (set_pes k) i = Some (nth_pe k i).
Proof. intros V Hi. unfold aget. replace (i <? 0) with false by lia. apply (set_pes_nth n); auto. Qed.
Lemma nth_pe_in n k i : valid_set n k -> 0 <= i < k_size k -> In (nth_pe k i) (set_pes k).
Proof. intros V Hi. eapply nth_error_In. apply (set_pes_nth n); eauto. Qed.

Lemma aset_broadcast_ok n k b root nelems dst src M : n <= INT_MAX -> valid_set n k -> 0 <= root < k_size k ->
  nth_pe k root = root -> 0 <= nelems < 2 ^ 31 -> 0 <= bt_size b ->
  exists M', aset_broadcast n k b root nelems dst src M = Ok M' /\
    bcast_post false (nelems * bt_size b) (set_pes k) (nth_pe k root) src dst M M'.
Proof.
  intros Hn V Hr Er He Hb. unfold aset_broadcast. rewrite aset_group_ok by auto. cbn [bind].
  rewrite to_int_ok by (unfold int_ok; lia).
  assert (Hin := nth_pe_in n k root V Hr).
  replace (check_root root (set_pes k)) with true by (symmetry; apply check_root_in; rewrite <- Er; auto).
  destruct (bcast_ok (set_pes k) root (nth_pe k root) nelems b (fun p => if root =? p then src p else dst p) M)
    as (M' & E & Q1 & Q2 & Q3); try lia; [eapply set_pes_nodup; eauto|apply (aget_nth_pe n); auto|].
  exists M'. split; auto. split; [|split; auto]. intros p Hp Np. specialize (Q1 p Hp Np). cbv beta in Q1.
  rewrite Er, Z.eqb_refl in Q1. rewrite Er in *. replace (root =? p) with false in Q1 by lia. auto.
Qed.

(** Every member's source tells the member, everything else is 0. *)
Definition tag_mems (bytes : Z) (src : Z -> Z) : mems :=
  fun p a => if (src p <=? a) && (a <? src p + bytes) then p + 1 else 0.
Lemma aset_broadcast_wrong n k b root nelems dst src M' : n <= INT_MAX -> valid_set n k -> 2 <= k_size k -> 0 <= root < k_size k ->
  nth_pe k root <> root -> 0 < nelems < 2 ^ 31 -> 0 < bt_size b ->
  (forall p, In p (set_pes k) -> src p + nelems * bt_size b <= dst p \/ dst p + nelems * bt_size b <= src p) ->
  aset_broadcast n k b root nelems dst src (tag_mems (nelems * bt_size b) src) = Ok M' ->
  ~ bcast_post false (nelems * bt_size b) (set_pes k) (nth_pe k root) src dst (tag_mems (nelems * bt_size b) src) M'.
Proof.
  intros Hn V H2 Hr Nr He Hb D H (P1 & _ & _). set (bytes := nelems * bt_size b) in *. assert (Hby : 0 < bytes) by (unfold bytes; nia).
  set (r := nth_pe k root) in *. set (M := tag_mems bytes src) in *.
  unfold aset_broadcast in H. rewrite aset_group_ok in H by auto. cbn [bind] in H. rewrite to_int_ok in H by (unfold int_ok; lia).
  assert (Sr : forall q, M q (src q) = q + 1).
  { intros q. unfold M, tag_mems. replace (_ && _) with true by lia. auto. }
  assert (Hge : forall q, In q (set_pes k) -> 0 <= q) by (intros q Hq; assert (X := set_pes_range n k q Hn V Hq); lia).
  assert (Hrin : In r (set_pes k)) by (apply (nth_pe_in n); auto).
  destruct (check_root root (set_pes k)) eqn:C in H.
  - apply check_root_in in C.
    destruct (bcast_ok (set_pes k) root r nelems b (fun p => if root =? p then src p else dst p) M)
      as (M1 & E & Q1 & Q2 & Q3); try lia; [eapply set_pes_nodup; eauto|apply (aget_nth_pe n); auto|].
    rewrite E in H. inversion H; subst M1. clear H.
    (* the member PE number [root] keeps its destination *)
    destruct (P1 root C ltac:(auto)) as [A _]. specialize (A 0 ltac:(lia)). rewrite !Z.add_0_r, Sr in A.
    destruct (Q1 root C ltac:(auto)) as [_ B]. cbv beta in B. rewrite Z.eqb_refl in B.
    specialize (B (dst root)). fold bytes in B. rewrite B in A by (specialize (D root C); lia).
    unfold M, tag_mems in A. specialize (D root C). replace (_ && _) with false in A by lia. specialize (Hge r Hrin). lia.
  - unfold get_from in H. assert (Hrn : 0 <= root < n).
    { destruct V as (V1 & V2 & V3 & V4). assert (1 <= 2 ^ k_log k) by (assert (0 < 2 ^ k_log k) by (apply Z.pow_pos_nonneg; lia); lia). nia. }
    replace ((0 <=? root) && (root <? n)) with true in H by lia.
    assert (exists p, In p (set_pes k) /\ p <> r) as (p & Hp & Np).
    { destruct (Z.eq_dec root 0) as [->|].
      - exists (nth_pe k 1). split; [apply (nth_pe_in n); auto; lia|]. intros E. apply (nth_pe_inj n k 1 0 V) in E. lia.
      - exists (nth_pe k 0). split; [apply (nth_pe_in n); auto; lia|]. intros E. apply (nth_pe_inj n k 0 root V) in E. lia. }
    destruct (on_members_ok (fun (_ p : Z) => mpi_move (M root) (src root) nelems (base_dt b) (M p) (dst p) nelems (base_dt b))
      (fun _ p m => copy_bytes bytes (M root) (src root) (M p) (dst p) m) (set_pes k) 0 M) as (M1 & E & Q & F).
    { eapply set_pes_nodup; eauto. }
    { intros j q _. unfold mpi_move. replace ((nelems <? 0) || (nelems <? 0)) with false by lia. unfold pack. rewrite !addrs_base.
      rewrite !saddrs_length, Z.eqb_refl. eexists. split; [reflexivity|]. apply one_block; lia. }
    rewrite E in H. inversion H; subst M1.
    apply In_nth_error in Hp. destruct Hp as (j & Hj). destruct (Q j p Hj) as [A _]. specialize (A 0 ltac:(lia)).
    destruct (P1 p (nth_error_In _ _ Hj) Np) as [B _]. specialize (B 0 ltac:(lia)). rewrite !Z.add_0_r, Sr in *. lia.
Qed.

(** Team broadcast. *)
Lemma index_of_nth g : NoDup g -> forall j p, nth_error g j = Some p -> index_of g p = Some (Z.of_nat j).
Proof.
  induction g as [|q r IH]; intros N j p H; [destruct j; discriminate|]. inversion N; subst. cbn [index_of]. destruct j as [|j]; cbn in H.
  - inversion H; subst. rewrite Z.eqb_refl. auto.
  - destruct (q =? p) eqn:E; [exfalso; apply H2; replace q with p by lia; eapply nth_error_In; eauto|].
    rewrite (IH H3 j p H). cbn. f_equal. lia.
Qed.
Lemma memcpy_ok m d s n : 0 <= n -> copy_bytes n m s m d (memcpy m d s n).
Proof.
  intros Hn. unfold memcpy. assert (X := one_block 1 n m s m d ltac:(lia) Hn).
  rewrite Z.mul_1_r in X.
  assert (S : forall a, saddrs 1 n a 1 = zseq a (Z.to_nat n)).
  { intros a. unfold saddrs. change (Z.to_nat 1) with 1%nat.
    transitivity (map (fun x => a + x) (zseq 0 (Z.to_nat n))); [|rewrite <- zseq_shift; f_equal; lia].
    rewrite <- (flat_map_single (fun x => a + x)). apply flat_map_ext_in. intros x _. unfold zseq. cbn [seq map]. f_equal. lia. }
  rewrite !S in X. exact X.
Qed.
Lemma team_broadcast_ok g b root r nelems dst src M : NoDup g -> aget g root = Some r -> 0 <= nelems < 2 ^ 31 ->
  0 <= bt_size b -> nelems * bt_size b < 2 ^ 64 ->
  exists M', team_broadcast g b root nelems dst src M = Ok M' /\ bcast_post true (nelems * bt_size b) g r src dst M M'.
Proof.
  intros N Hr He Hb Hs.
  set (isr := fun p => match index_of g p with Some i => root =? i | None => false end).
  assert (U : team_broadcast g b root nelems dst src M =
    (do M1 <- mpi_bcast g root (to_int nelems) (base_dt b) (fun p => if isr p then src p else dst p) M;
     on_members (fun _ p => Ok (if isr p then memcpy (M1 p) (dst p) (src p) (wrap64 (nelems * bt_size b)) else M1 p)) 0 g M1))
    by reflexivity.
  rewrite U, to_int_ok by (unfold int_ok; lia). clear U.
  assert (R : exists jr, root = Z.of_nat jr /\ nth_error g jr = Some r).
  { unfold aget in Hr. destruct (root <? 0) eqn:E; [discriminate|]. exists (Z.to_nat root). split; [lia|auto]. }
  destruct R as (jr & Ej & Hjr).
  assert (Ir : isr r = true). { unfold isr. rewrite (index_of_nth g N jr r Hjr). lia. }
  assert (Ip : forall p, In p g -> p <> r -> isr p = false).
  { intros p Hp Np. apply In_nth_error in Hp. destruct Hp as (j & Hj). unfold isr. rewrite (index_of_nth g N j p Hj).
    destruct (root =? Z.of_nat j) eqn:E; auto. assert (j = jr) by lia. subst. congruence. }
  destruct (bcast_ok g root r nelems b (fun p => if isr p then src p else dst p) M) as (M1 & E & Q1 & Q2 & Q3); auto; try lia.
  rewrite E. cbn [bind].
  destruct (on_members_ok (fun (_ p : Z) => Ok (if isr p then memcpy (M1 p) (dst p) (src p) (wrap64 (nelems * bt_size b)) else M1 p))
    (fun _ p m => m = if isr p then memcpy (M1 p) (dst p) (src p) (wrap64 (nelems * bt_size b)) else M1 p) g 0 M1 N) as (M2 & E2 & Q & F).
  { intros j p _. eauto. }
  exists M2. split; auto. rewrite wrap64_id in Q by nia. split; [|split].
  - intros p Hp Np. specialize (Q1 p Hp Np). cbv beta in Q1. rewrite Ir, (Ip p Hp Np) in Q1.
    apply In_nth_error in Hp. destruct Hp as (j & Hj). rewrite (Q j p Hj), Ip; auto. eapply nth_error_In; eauto.
  - rewrite (Q jr r Hjr), Ir. destruct (memcpy_ok (M1 r) (dst r) (src r) (nelems * bt_size b) ltac:(nia)) as [A B].
    split; intros; [rewrite A|rewrite B]; auto.
  - intros q Hq a. rewrite F; auto.
Qed.

(** ** Gathering *)
Lemma allgatherv_ok g b sbuf cnt rbuf rcnts rdispls (c off : Z -> Z) M : NoDup g ->
  (forall j, In j (zseq 0 (length g)) -> 0 <= c j /\ cnt (at_ g j) = c j) ->
  (forall p, In p g -> rcnts p = map c (zseq 0 (length g)) /\ rdispls p = map off (zseq 0 (length g))) ->
  exists M', mpi_allgatherv g (base_dt b) sbuf cnt rbuf rcnts rdispls M = Ok M' /\
    (forall p, In p g -> M' p = write (M p) (flat_map (fun j =>
       combine (saddrs (bt_size b) (c j) (rbuf p + off j * bt_size b) 1)
               (map (M (at_ g j)) (saddrs (bt_size b) (c j) (sbuf (at_ g j)) 1))) (zseq 0 (length g)))) /\
    outside_unchanged g M M'.
Proof.
  intros N Hc Hr. set (idx := zseq 0 (length g)) in *. unfold mpi_allgatherv.
  rewrite sends_ok. 2:{ intros p Hp. rewrite (at_list g) in Hp. apply in_map_iff in Hp. destruct Hp as (j & <- & Hj).
                        destruct (Hc j Hj) as [? ->]. auto. }
  cbn [bind]. rewrite map_at. fold idx.
  replace (map (fun j => pack (M (at_ g j)) (sbuf (at_ g j)) (cnt (at_ g j)) (base_dt b)) idx)
    with (map (fun j => map (M (at_ g j)) (saddrs (bt_size b) (c j) (sbuf (at_ g j)) 1)) idx).
  2:{ apply map_ext_in. intros j Hj. destruct (Hc j Hj) as [_ ->]. unfold pack. rewrite addrs_base. auto. }
  edestruct (on_members_ok (fun (_ p : Z) => deliver (M p) (base_dt b) (place (rbuf p) (d_ext (base_dt b)) (rdispls p) (rcnts p)
     (map (fun j => map (M (at_ g j)) (saddrs (bt_size b) (c j) (sbuf (at_ g j)) 1)) idx)))
    (fun _ p m => m = write (M p) (flat_map (fun j =>
       combine (saddrs (bt_size b) (c j) (rbuf p + off j * bt_size b) 1)
               (map (M (at_ g j)) (saddrs (bt_size b) (c j) (sbuf (at_ g j)) 1))) idx)) g 0 M N) as (M' & E & Q & F).
  - intros j p Hj. destruct (Hr p (nth_error_In _ _ Hj)) as [-> ->]. rewrite place_map. cbn [base_dt d_ext]. fold (base_dt b).
    rewrite deliver_ok.
    + eexists. split; [reflexivity|]. rewrite flat_map_map. f_equal. apply flat_map_ext_in. intros x _. cbn [fst snd]. rewrite addrs_base. auto.
    + intros a x msg H. apply in_map_iff in H. destruct H as (y & E & Hy). inversion E; subst. destruct (Hc y Hy) as [? _].
      split; auto. rewrite addrs_base, map_length, !saddrs_length. auto.
  - rewrite E. exists M'. split; auto. split; [|intros q Hq a; rewrite F; auto].
    intros p Hp. apply In_nth_error in Hp. destruct Hp as (j & Hj). eauto.
Qed.

Lemma eb_S nel g j q : nth_error g j = Some q -> elems_before nel g (S j) = elems_before nel g j + nel q.
Proof.
  revert j. induction g as [|x r IH]; intros [|j] H; cbn in H; try discriminate.
  - inversion H; subst. unfold elems_before. cbn. lia.
  - specialize (IH j H). unfold elems_before in *. cbn [firstn map fold_right] in *. lia.
Qed.
Lemma eb_mono nel g : (forall p, In p g -> 0 <= nel p) -> forall j j', (j <= j')%nat -> elems_before nel g j <= elems_before nel g j'.
Proof.
  intros H j j' L. induction L as [|j' L IH]; [lia|]. destruct (nth_error g j') as [q|] eqn:E.
  - rewrite (eb_S nel g j' q E). specialize (H q (nth_error_In _ _ E)). lia.
  - apply nth_error_None in E. unfold elems_before in *.
    rewrite (firstn_all2 (n := S j') g) by lia. rewrite (firstn_all2 (n := j') g) in IH by lia. auto.
Qed.
Lemma eb_nonneg nel g j : (forall p, In p g -> 0 <= nel p) -> 0 <= elems_before nel g j.
Proof. intros H. assert (X := eb_mono nel g H 0 j ltac:(lia)). unfold elems_before in X at 1. cbn in X. lia. Qed.

(** Concatenation by MPI_Allgatherv, whatever way the arguments were computed. *)
Lemma gather_post g b sbuf cnt rbuf rcnts rdispls (nel : Z -> Z) M : NoDup g -> 0 <= bt_size b ->
  (forall p, In p g -> 0 <= nel p /\ cnt p = nel p) ->
  (forall p, In p g -> rcnts p = map (fun j => nel (at_ g j)) (zseq 0 (length g)) /\
                       rdispls p = map (fun j => elems_before nel g (Z.to_nat j)) (zseq 0 (length g))) ->
  exists M', mpi_allgatherv g (base_dt b) sbuf cnt rbuf rcnts rdispls M = Ok M' /\
    collect_post (bt_size b) nel g sbuf rbuf M M'.
Proof.
  intros N Hs Hc Hr.
  assert (Hat : forall j, In j (zseq 0 (length g)) -> In (at_ g j) g) by (intros j Hj; apply in_zseq in Hj; apply at_in; lia).
  destruct (allgatherv_ok g b sbuf cnt rbuf rcnts rdispls (fun j => nel (at_ g j)) (fun j => elems_before nel g (Z.to_nat j)) M N) as (M' & E & Q & F); auto.
  exists M'. split; auto. split; auto. intros p Hp. specialize (Q p Hp).
  assert (Pos : forall q, In q g -> 0 <= nel q) by (intros q Hq; apply Hc; auto).
  set (sz := bt_size b) in *.
  assert (St : forall j, In j (zseq 0 (length g)) -> elems_before nel g (S (Z.to_nat j)) = elems_before nel g (Z.to_nat j) + nel (at_ g j)).
  { intros j Hj. apply in_zseq in Hj. apply eb_S, at_nth_error. lia. }
  destruct (write_blocks sz (fun j => nel (at_ g j)) (fun j => rbuf p + elems_before nel g (Z.to_nat j) * sz) 1
    (fun j => M (at_ g j)) (fun j => sbuf (at_ g j)) 1 (zseq 0 (length g)) (M p)) as [A B]; auto.
  - apply zseq_nodup.
  - left; lia.
  - intros j j' i i' x x' Hj Hj' Hi Hi' Hx Hx' Eq. assert (S1 := St j Hj). assert (S2 := St j' Hj').
    apply in_zseq in Hj. apply in_zseq in Hj'.
    destruct (Z.lt_trichotomy j j') as [L|[L|L]]; auto; exfalso.
    + assert (X := eb_mono nel g Pos (S (Z.to_nat j)) (Z.to_nat j') ltac:(lia)). nia.
    + assert (X := eb_mono nel g Pos (S (Z.to_nat j')) (Z.to_nat j) ltac:(lia)). nia.
  - rewrite <- Q in A, B. split.
    + intros j q Hj x Hx. assert (Hin : In (Z.of_nat j) (zseq 0 (length g))).
      { apply in_zseq. assert (j < length g)%nat by (apply nth_error_Some; congruence). lia. }
      assert (0 < sz) by (assert (0 <= nel q) by (apply Pos; eapply nth_error_In; eauto); nia).
      specialize (A (Z.of_nat j) (x / sz) (x mod sz) Hin). rewrite (at_nth g j q Hj), Nat2Z.id in A.
      assert (E1 := Z.div_mod x sz ltac:(lia)). assert (B1 := Z.mod_pos_bound x sz ltac:(lia)).
      rewrite <- (Z.add_assoc (rbuf p + _)), <- (Z.add_assoc (sbuf q)) in A.
      replace (x / sz * 1 * sz + x mod sz) with x in A by lia. apply A; auto.
      split; [apply Z.div_pos; lia|]. apply Z.div_lt_upper_bound; lia.
    + intros a Ha. apply B. intros j i x Hj Hi Hx Eq. apply Ha. assert (S1 := St j Hj). apply in_zseq in Hj.
      assert (X := eb_mono nel g Pos (S (Z.to_nat j)) (length g) ltac:(lia)). assert (Y := eb_nonneg nel g (Z.to_nat j) Pos). nia.
Qed.

Lemma prefix_sums_ok nel : forall g acc, (forall p, In p g -> 0 <= nel p) -> 0 <= acc ->
  acc + elems_before nel g (length g) <= INT_MAX ->
  prefix_sums acc (map nel g) = Ok (map (fun j => acc + elems_before nel g (Z.to_nat j)) (zseq 0 (length g))).
Proof.
  induction g as [|p r IH]; intros acc Pos Ha H; auto.
  assert (E1 : elems_before nel (p :: r) (length (p :: r)) = nel p + elems_before nel r (length r)) by reflexivity.
  rewrite E1 in H. assert (Pr : forall q, In q r -> 0 <= nel q) by (intros; apply Pos; right; auto).
  assert (Pp := Pos p (or_introl eq_refl)). assert (Er := eb_nonneg nel r (length r) Pr).
  assert (Z0 : acc + elems_before nel (p :: r) 0 = acc) by (unfold elems_before; cbn; lia).
  destruct r as [|q r].
  - cbn [map prefix_sums]. f_equal. change (zseq 0 (length [p])) with [0]. cbn [map]. f_equal. change (Z.to_nat 0) with 0%nat. lia.
  - cbn [map prefix_sums] in *. unfold int_op at 1. unfold INT_MAX in *. replace (_ && _) with true by lia. cbn [bind].
    rewrite IH by (auto; lia). cbn [bind]. f_equal. change (length (p :: q :: r)) with (S (length (q :: r))). rewrite zseq_S.
    cbn [map]. change (Z.to_nat 0) with 0%nat. rewrite Z0. f_equal.
    replace (0 + 1) with (1 + 0) by lia. rewrite zseq_shift, map_map. apply map_ext_in. intros j Hj. apply in_zseq in Hj.
    replace (Z.to_nat (1 + j)) with (S (Z.to_nat j)) by lia. unfold elems_before. cbn [firstn map fold_right]. lia.
Qed.

Lemma eb_const nel g c : (forall p, In p g -> nel p = c) -> forall j, (j <= length g)%nat -> elems_before nel g j = Z.of_nat j * c.
Proof.
  intros H. induction j as [|j IH]; intros L; [unfold elems_before; cbn; lia|].
  assert (X := at_nth_error g (Z.of_nat j) ltac:(lia)). rewrite Nat2Z.id in X. rewrite (eb_S _ _ _ _ X), IH by lia.
  rewrite (H _ (nth_error_In _ _ X)). lia.
Qed.
Lemma eb_elem nel g p : (forall q, In q g -> 0 <= nel q) -> In p g -> nel p <= elems_before nel g (length g).
Proof.
  intros Pos H. apply In_nth_error in H. destruct H as (j & Hj). assert (j < length g)%nat by (apply nth_error_Some; congruence).
  assert (X := eb_mono nel g Pos (S j) (length g) ltac:(lia)). rewrite (eb_S _ _ _ _ Hj) in X.
  assert (Y := eb_nonneg nel g j Pos). lia.
Qed.
Lemma eb_ext f g' g j : (forall p, In p g -> f p = g' p) -> elems_before f g j = elems_before g' g j.
Proof.
  intros H. unfold elems_before. f_equal. apply map_ext_in. intros p Hp. apply H.
  rewrite <- (firstn_skipn j g). apply in_or_app. auto.
Qed.

(** MPI_Allgather with equal counts. *)
Lemma allgather_post g b sbuf scnt rbuf rcnt (nel : Z -> Z) c M : NoDup g -> 0 <= bt_size b -> 0 <= c ->
  (forall p, In p g -> nel p = c /\ scnt p = c /\ rcnt p = c) ->
  exists M', mpi_allgather g (base_dt b) sbuf scnt rbuf rcnt M = Ok M' /\ collect_post (bt_size b) nel g sbuf rbuf M M'.
Proof.
  intros N Hs Hc H. unfold mpi_allgather. apply gather_post; auto.
  - intros p Hp. destruct (H p Hp) as (-> & -> & _). auto.
  - intros p Hp. destruct (H p Hp) as (_ & _ & ->). split.
    + rewrite map_at. apply map_ext_in. intros j Hj. apply in_zseq in Hj. symmetry. apply H, at_in. lia.
    + apply map_ext_in. intros j Hj. apply in_zseq in Hj. rewrite (eb_const nel g c) by (try lia; intros; apply H; auto). rewrite Z2Nat.id by lia. auto.
Qed.

Lemma collect_ok g b nel dst src M : NoDup g -> 0 <= bt_size b -> (forall p, In p g -> 0 <= nel p) ->
  elems_before nel g (length g) <= INT_MAX ->
  exists M', collect_group g b nel dst src M = Ok M' /\ collect_post (bt_size b) nel g src dst M M'.
Proof.
  intros N Hs Pos T. unfold INT_MAX in T.
  assert (I : forall p, In p g -> to_int (nel p) = nel p).
  { intros p Hp. apply to_int_ok. assert (X := eb_elem nel g p Pos Hp). specialize (Pos p Hp). unfold int_ok. lia. }
  assert (W : forall p, In p g -> wrap64 (nel p) = nel p).
  { intros p Hp. apply wrap64_id. assert (X := eb_elem nel g p Pos Hp). specialize (Pos p Hp). lia. }
  unfold collect_group. cbv zeta.
  replace (map (fun p => to_int (nel p)) g) with (map nel g) by (apply map_ext_in; intros; symmetry; auto).
  rewrite prefix_sums_ok by (auto; unfold INT_MAX; lia). cbn [bind].
  set (same := fun p => forallb (fun c => nel p =? wrap64 c) (map nel g)).
  assert (Same : forall p, In p g -> same p = true <-> forall q, In q g -> nel q = nel p).
  { intros p Hp. unfold same. rewrite forallb_forall. split.
    - intros H q Hq. specialize (H (nel q) (in_map nel _ _ Hq)). rewrite (W q Hq) in H. lia.
    - intros H x Hx. apply in_map_iff in Hx. destruct Hx as (q & <- & Hq). rewrite (W q Hq), (H q Hq). lia. }
  destruct (forallb same g) eqn:S.
  - rewrite forallb_forall in S. destruct g as [|p0 r] eqn:Eg.
    + unfold mpi_allgather, mpi_allgatherv. cbn. exists M. split; auto. split; [intros p []|]. intros q _ a. auto.
    + rewrite <- Eg in *. assert (H0 : In p0 g) by (rewrite Eg; left; auto).
      assert (C := proj1 (Same p0 H0) (S p0 H0)). apply (allgather_post g b src _ dst _ nel (nel p0)); auto.
      intros p Hp. rewrite I, C by auto. auto.
  - assert (F : forallb (fun p => negb (same p)) g = true).
    { apply forallb_forall. intros p Hp. destruct (same p) eqn:Sp; auto. exfalso.
      assert (X : forallb same g = true); [|congruence]. apply forallb_forall. intros q Hq. apply Same; auto.
      intros q' Hq'. assert (Y := proj1 (Same p Hp) Sp). rewrite (Y q Hq), (Y q' Hq'). auto. }
    change (forallb (fun p => negb (forallb (fun c => nel p =? wrap64 c) (map nel g))) g = true) in F.
    rewrite F. apply gather_post; auto. intros p Hp. split; [apply map_at|].
    apply map_ext. intros; lia.
Qed.

Lemma fcollect_ok g b n dst src M : NoDup g -> 0 <= bt_size b -> 0 <= n < 2 ^ 31 ->
  exists M', fcollect_group g b n dst src M = Ok M' /\ collect_post (bt_size b) (fun _ => n) g src dst M M'.
Proof.
  intros N Hs Hn. unfold fcollect_group. rewrite to_int_ok by (unfold int_ok; lia). apply (allgather_post _ _ _ _ _ _ _ n); auto. lia.
Qed.

(** ** All-to-all *)
(** [cnt] items of [d] are [n] elements at distance [st], and so are the next ones. *)
Definition stype (sz n st cnt : Z) (d : dt) : Prop :=
  0 <= cnt /\ (forall base, addrs base cnt d = saddrs sz n base st) /\ cnt * d_ext d = n * st * sz.

Lemma alltoall_ok g b n ss ds sc rc sd rd dst src M : NoDup g -> 0 <= bt_size b -> 0 <= n -> 1 <= ds ->
  stype (bt_size b) n ss sc sd -> stype (bt_size b) n ds rc rd ->
  exists M', mpi_alltoall g sd rd sc rc src dst M = Ok M' /\ alltoalls_post (bt_size b) n ss ds g src dst M M'.
Proof.
  intros N Hs Hn Hds (Hsc & Asd & Esd) (Hrc & Ard & Erd). set (sz := bt_size b) in *. set (idx := zseq 0 (length g)).
  unfold mpi_alltoall.
  edestruct (on_members_ok (fun k p =>
    do msgs <- sends M (fun q => src q + k * sc * d_ext sd) (fun _ => sc) sd g;
    deliver (M p) rd (place (dst p) (d_ext rd) (map (fun j => j * rc) (zseq 0 (length g))) (map (fun _ => rc) g) msgs))
    (fun k p m => m = write (M p) (flat_map (fun j =>
       combine (saddrs sz n (dst p + j * n * ds * sz) ds)
               (map (M (at_ g j)) (saddrs sz n (src (at_ g j) + Z.of_nat k * n * ss * sz) ss))) idx)) g 0 M N) as (M' & E & Q & F).
  - intros k p Hk. rewrite sends_ok by auto. cbn [bind]. rewrite (map_at _ g), (map_at _ g). fold idx.
    rewrite place_map, deliver_ok.
    + eexists. split; [reflexivity|]. rewrite flat_map_map. f_equal. apply flat_map_ext_in. intros j _. cbn [fst snd].
      unfold pack. rewrite Ard, Asd. replace (j * rc * d_ext rd) with (j * n * ds * sz) by (rewrite <- (Z.mul_assoc j rc), Erd; ring).
      replace ((0 + Z.of_nat k) * sc * d_ext sd) with (Z.of_nat k * n * ss * sz) by (rewrite <- (Z.mul_assoc _ sc), Esd; ring). auto.
    + intros a c msg H. apply in_map_iff in H. destruct H as (y & E & Hy). inversion E; subst.
      split; auto. unfold pack. rewrite Ard, Asd, map_length, !saddrs_length. auto.
  - rewrite E. exists M'. split; auto. split; [|intros q Hq a; rewrite F; auto]. intros k p Hk. specialize (Q k p Hk).
    destruct (write_blocks sz (fun _ => n) (fun j => dst p + j * n * ds * sz) ds (fun j => M (at_ g j))
      (fun j => src (at_ g j) + Z.of_nat k * n * ss * sz) ss idx (M p)) as [A B]; auto.
    + apply zseq_nodup.
    + left; lia.
    + intros j j' i i' x x' Hj Hj' Hi Hi' Hx Hx' Eq.
      assert (X : (j * n + i) * ds * sz + x = (j' * n + i') * ds * sz + x') by lia.
      assert (Y : j * n + i = j' * n + i').
      { destruct (Z.lt_trichotomy (j * n + i) (j' * n + i')) as [L|[L|L]]; auto; exfalso.
        - assert ((j * n + i) * ds + ds <= (j' * n + i') * ds) by nia. nia.
        - assert ((j' * n + i') * ds + ds <= (j * n + i) * ds) by nia. nia. }
      destruct (Z.lt_trichotomy j j') as [L|[L|L]]; auto; exfalso; nia.
    + rewrite <- Q in A, B. split.
      * intros j q Hj i x Hi Hx. assert (Hin : In (Z.of_nat j) idx).
        { apply in_zseq. assert (j < length g)%nat by (apply nth_error_Some; congruence). lia. }
        specialize (A (Z.of_nat j) i x Hin Hi Hx). rewrite (at_nth g j q Hj) in A.
        replace (dst p + (Z.of_nat j * n + i) * ds * sz + x) with (dst p + Z.of_nat j * n * ds * sz + i * ds * sz + x) by lia.
        rewrite A. f_equal. lia.
      * intros a Ha. apply B. intros j i x Hj Hi Hx Eq. apply in_zseq in Hj. apply (Ha (j * n + i) x); auto; nia.
Qed.

Lemma base_stype b n : 0 <= n -> stype (bt_size b) n 1 n (base_dt b).
Proof. intros Hn. split; auto. split; [intros; apply addrs_base|]. cbn. lia. Qed.
Lemma alltoall_group_ok g b n dst src M : NoDup g -> 0 <= bt_size b -> 0 <= n < 2 ^ 31 ->
  exists M', alltoall_group g b n dst src M = Ok M' /\ alltoalls_post (bt_size b) n 1 1 g src dst M M'.
Proof.
  intros N Hs Hn. unfold alltoall_group. rewrite to_int_ok by (unfold int_ok; lia).
  apply alltoall_ok; auto; try lia; apply base_stype; lia.
Qed.

Lemma one_stype b n st : 1 <= bt_size b -> 0 <= n < 2 ^ 31 -> 1 <= st < 2 ^ 31 -> n * st * bt_size b < 2 ^ 63 ->
  exists c d, one_dt n st b (wrap64 (n * st)) = Ok (c, d) /\ stype (bt_size b) n st (to_int c) d.
Proof.
  intros Hs Hn Hst Hm. unfold one_dt. destruct (st =? 1) eqn:E1.
  - assert (st = 1) by lia. subst. exists n, (base_dt b). split; auto. rewrite to_int_ok by (unfold int_ok; lia). apply base_stype. lia.
  - unfold strided_dt. rewrite !to_int_ok by (unfold int_ok; lia). unfold type_vector.
    replace (n <? 0) with false by lia. cbn [bind]. rewrite wrap64_id by nia. do 2 eexists. split; [reflexivity|].
    change (to_int 1) with 1. split; [lia|].
    assert (AV : forall e base, addrs base 1 (mkDt (bt_size b) (map (fun i => i * st * bt_size b) (zseq 0 (Z.to_nat n))) e) = saddrs (bt_size b) n base st).
    { intros e base. unfold addrs. rewrite elems_one. cbn [d_disps d_esz]. rewrite flat_map_map. reflexivity. }
    destruct (0 <? n * st) eqn:Ep.
    + split; [intros; apply AV|]. cbn [type_resized d_ext]. rewrite wrap64_id by nia. unfold to_long.
      rewrite Z.mod_small by nia. lia.
    + assert (n = 0) by nia. subst n. split; [intros; apply AV|]. cbn. lia.
Qed.
Lemma pair_stype b n s1 s2 : 1 <= bt_size b -> 0 <= n < 2 ^ 31 -> 1 <= s1 < 2 ^ 31 -> 1 <= s2 < 2 ^ 31 ->
  n * s1 * bt_size b < 2 ^ 63 -> n * s2 * bt_size b < 2 ^ 63 ->
  exists c1 d1 c2 d2, pair_dt n s1 s2 b (wrap64 (n * s1)) (wrap64 (n * s2)) = Ok ((c1, d1), (c2, d2)) /\
    stype (bt_size b) n s1 (to_int c1) d1 /\ stype (bt_size b) n s2 (to_int c2) d2.
Proof.
  intros Hs Hn H1 H2 M1 M2. unfold pair_dt.
  destruct (one_stype b n s1) as (c1 & d1 & -> & S1); auto. cbn [bind]. destruct (s1 =? s2) eqn:E.
  - assert (s1 = s2) by lia. subst. cbn [bind]. exists c1, d1, c1, d1. auto.
  - destruct (one_stype b n s2) as (c2 & d2 & -> & S2); auto. cbn [bind]. exists c1, d1, c2, d2. auto.
Qed.
(** Whatever the process has used the datatype layer for before. *)
Lemma alltoalls_ok cached us t l g b n ss ds dst src M : uses cached t_init us = Ok (t, l) ->
  NoDup g -> 1 <= bt_size b -> 0 <= n < 2 ^ 31 -> 1 <= ss < 2 ^ 31 -> 1 <= ds < 2 ^ 31 ->
  n * ss * bt_size b < 2 ^ 63 -> n * ds * bt_size b < 2 ^ 63 ->
  exists t' M', alltoalls_group cached t g b ds ss n dst src M = Ok (t', M') /\
    alltoalls_post (bt_size b) n ss ds g src dst M M'.
Proof.
  intros U N Hs Hn H1 H2 M1 M2. destruct (pair_stype b n ss ds) as (c1 & d1 & c2 & d2 & P & S1 & S2); auto.
  unfold alltoalls_group.
  assert (X : exists t', strided_pair cached t n ss ds b (wrap64 (n * ss)) (wrap64 (n * ds)) = Ok (t', (c1, d1), (c2, d2))).
  { destruct cached.
    - assert (C := uses_cached us t_init cache_ok_init). destruct (uses_dt us) as [x| | |]; try (rewrite U in C; discriminate).
      destruct C as (t1 & E & C). rewrite U in E. inversion E; subst.
      assert (Q := pair_cached t1 n ss ds b (wrap64 (n * ss)) (wrap64 (n * ds)) C). rewrite P in Q. destruct Q as (t' & -> & _). eauto.
    - assert (Q := pair_plain t n ss ds b (wrap64 (n * ss)) (wrap64 (n * ds))). rewrite P in Q. destruct Q as (t' & -> & _). eauto. }
  destruct X as (t' & ->). cbn [bind].
  destruct (alltoall_ok g b n ss ds (to_int c1) (to_int c2) d1 d2 dst src M) as (M' & -> & Q); auto; try lia.
  cbn [bind]. eauto.
Qed.

(** ** Reductions *)
Section Reductions.
  Variable op : list Z -> list Z -> list Z.
  Variable b : bt.
  Hypothesis Hop : forall x y, length x = Z.to_nat (bt_size b) -> length y = Z.to_nat (bt_size b) -> length (op x y) = Z.to_nat (bt_size b).

  Lemma elem_bytes m buf i : 0 <= bt_size b -> elem m b buf i = bytes_at m buf (bt_size b) i.
  Proof.
    intros Hs. unfold elem, pack. rewrite addrs_base. unfold saddrs. change (Z.to_nat 1) with 1%nat. unfold zseq at 2. cbn [seq map flat_map].
    rewrite app_nil_r. unfold bytes_at, zseq. rewrite map_map. apply map_ext. intros x. f_equal. lia.
  Qed.
  Lemma bytes_at_length m a i : length (bytes_at m a (bt_size b) i) = Z.to_nat (bt_size b).
  Proof. unfold bytes_at. rewrite map_length, seq_length. auto. Qed.
  Lemma fold_map {A B C} (f : A -> B -> A) (h : C -> B) l : forall a, fold_left (fun acc q => f acc (h q)) l a = fold_left f (map h l) a.
  Proof. induction l as [|x l IH]; intros a; cbn; auto. Qed.
  Lemma reduce1_list g buf M i : 0 <= bt_size b ->
    reduce1 op g b buf M i = reduce_list op (map (fun q => bytes_at (M q) (buf q) (bt_size b) i) g).
  Proof.
    intros Hs. destruct g as [|p r]; auto. cbn [reduce1 map reduce_list]. rewrite <- fold_map. rewrite elem_bytes by auto.
    generalize (bytes_at (M p) (buf p) (bt_size b) i). induction r as [|q r IH]; intros a; cbn [fold_left]; auto.
    rewrite IH, elem_bytes by auto. auto.
  Qed.
  Lemma reduce_length l : l <> [] -> (forall x, In x l -> length x = Z.to_nat (bt_size b)) ->
    length (reduce_list op l) = Z.to_nat (bt_size b).
  Proof.
    destruct l as [|x r]; [congruence|]. intros _ H. cbn. assert (Hx := H x (or_introl eq_refl)).
    assert (Hr : forall y, In y r -> length y = Z.to_nat (bt_size b)) by (intros; apply H; right; auto). clear H. revert x Hx.
    induction r as [|y r IH]; intros x Hx; cbn; auto. apply IH; [intros; apply Hr; right; auto|]. apply Hop; auto. apply Hr. left; auto.
  Qed.

  Lemma allreduce_ok g n dst src M : NoDup g -> 0 <= bt_size b -> 0 <= n < 2 ^ 31 ->
    (forall p, In p g -> src p = dst p) \/ (forall p, In p g -> src p <> dst p) ->
    exists M', allreduce_group op g b n dst src M = Ok M' /\ allreduce_post op (bt_size b) n g src dst M M'.
  Proof.
    intros N Hs Hn Hio. unfold allreduce_group, mpi_allreduce. rewrite to_int_ok by (unfold int_ok; lia).
    replace (n <? 0) with false by lia.
    replace (_ || _) with true.
    2:{ symmetry. apply orb_true_iff. destruct Hio as [H|H]; [left|right]; apply forallb_forall; intros p Hp; specialize (H p Hp); lia. }
    cbv zeta. set (buf := fun p => if src p =? dst p then dst p else src p).
    assert (Eb : forall p, buf p = src p) by (intros p; unfold buf; destruct (src p =? dst p) eqn:E; lia).
    set (sz := bt_size b) in *.
    set (R := fun i => reduce_list op (map (fun q => bytes_at (M q) (src q) sz i) g)).
    replace (flat_map (reduce1 op g b buf M) (zseq 0 (Z.to_nat n))) with (flat_map R (zseq 0 (Z.to_nat n))).
    2:{ apply flat_map_ext_in. intros i _. rewrite reduce1_list by auto. unfold R. f_equal. apply map_ext. intros q. rewrite Eb. auto. }
    edestruct (on_members_ok (fun (_ p : Z) => recv_exact (M p) (dst p) n (base_dt b) (flat_map R (zseq 0 (Z.to_nat n))))
      (fun _ p m => (forall i, 0 <= i < n -> bytes_at m (dst p) sz i = R i) /\
                    (forall a, ~ (dst p <= a < dst p + n * sz) -> m a = M p a)) g 0 M N) as (M' & E & Q & F).
    - intros j p Hj. assert (Hg : g <> []) by (intros ->; destruct j; discriminate).
      assert (RL : forall i, length (R i) = Z.to_nat sz).
      { intros i. apply reduce_length; [destruct g; cbn; congruence|]. intros x Hx. apply in_map_iff in Hx. destruct Hx as (q & <- & _).
        apply bytes_at_length. }
      assert (LL : forall i, length (zseq (dst p + i * 1 * sz) (Z.to_nat sz)) = length (R i)) by (intros; rewrite zseq_length, RL; auto).
      rewrite recv_exact_ok; [|lia|].
      2:{ rewrite addrs_base, saddrs_length, (flat_map_length_const _ (Z.to_nat sz)) by (intros; apply RL). rewrite zseq_length. auto. }
      eexists. split; [reflexivity|]. rewrite addrs_base. unfold saddrs. fold sz. rewrite combine_flat by (intros; apply LL).
      assert (FM : map fst (flat_map (fun i => combine (zseq (dst p + i * 1 * sz) (Z.to_nat sz)) (R i)) (zseq 0 (Z.to_nat n)))
        = saddrs sz n (dst p) 1).
      { rewrite map_flat. apply flat_map_ext_in. intros i _. apply map_fst_combine, LL. }
      split.
      + intros i Hi. unfold bytes_at. apply nth_ext with (d := 0) (d' := 0); [rewrite map_length, seq_length, RL; auto|].
        rewrite map_length, seq_length. intros x Hx. rewrite (nth_indep _ 0 ((fun x => write (M p) (flat_map (fun i => combine (zseq (dst p + i * 1 * sz) (Z.to_nat sz)) (R i)) (zseq 0 (Z.to_nat n))) (dst p + i * sz + Z.of_nat x)) 0%nat)) by (rewrite map_length, seq_length; auto).
        rewrite (map_nth (fun x => write _ _ (dst p + i * sz + Z.of_nat x))). rewrite seq_nth by auto. cbn [Nat.add].
        apply write_in; [rewrite FM; apply saddrs_nodup; [lia|left; lia]|].
        apply in_flat_map. exists i. split; [apply in_zseq; lia|].
        replace (dst p + i * sz + Z.of_nat x, nth x (R i) 0) with (nth x (combine (zseq (dst p + i * 1 * sz) (Z.to_nat sz)) (R i)) (0, 0)).
        * apply nth_In. rewrite combine_length, zseq_length, RL. lia.
        * rewrite combine_nth by apply LL. f_equal. unfold zseq.
          rewrite (nth_indep _ 0 ((fun x => dst p + i * 1 * sz + Z.of_nat x) 0%nat)) by (rewrite map_length, seq_length; auto).
          rewrite (map_nth (fun x => dst p + i * 1 * sz + Z.of_nat x)), seq_nth by auto. cbn [Nat.add]. lia.
      + intros a Ha. apply write_out. rewrite FM. intros X. apply in_saddrs in X; auto; try lia. destruct X as (i & x & Hi & Hx & E). apply Ha. nia.
    - rewrite E. exists M'. split; auto. split; [|intros q Hq a; rewrite F; auto].
      intros p Hp. apply In_nth_error in Hp. destruct Hp as (j & Hj). exact (Q j p Hj).
  Qed.
End Reductions.
