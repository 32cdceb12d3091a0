(** Put and get over active messages, from the call to the effect. *)
From Verif Require Import Base AmModel AmoModel AmoSpec AmoProofs PktRmaModel PktRmaSpec.
From Verif Require PktModel PktSpec PktProofs PktProofs2.

Lemma dsize_pos d : 1 <= PktSpec.dsize d.
Proof. destruct d; cbn; lia. Qed.
Lemma through_ok buf r : PktSpec.well_formed r -> PktSpec.small r -> through buf r = PktSpec.meant r.
Proof. intros W S. exact (PktProofs2.deliver r buf W S). Qed.

(** Contiguous elements are elements one apart. *)
Lemma contig a esz i j : el a 1 esz i j = a + Z.of_nat (i * esz + j).
Proof. unfold el. lia. Qed.
Lemma ld_contig m a esz n i j : (i < n)%nat -> (j < esz)%nat -> nth (i * esz + j) (ld m a (esz * n)) 0 = m (el a 1 esz i j).
Proof. intros I J. rewrite ld_nth by nia. rewrite contig. reflexivity. Qed.
Lemma st_contig l m a esz n : length l = (esz * n)%nat -> forall i j, (i < n)%nat -> (j < esz)%nat ->
  st m a l (el a 1 esz i j) = nth (i * esz + j) l 0.
Proof. intros L i j I J. rewrite contig. apply st_in. nia. Qed.
Lemma out_contig l m a esz n x : (0 < esz)%nat -> length l = (esz * n)%nat ->
  (forall i j, (i < n)%nat -> (j < esz)%nat -> x <> el a 1 esz i j) -> st m a l x = m x.
Proof.
  intros E L H. apply st_out. destruct (Z_lt_ge_dec x a); [left; lia|]. right. destruct (Z_lt_ge_dec x (a + Z.of_nat (length l))); [|lia].
  exfalso. set (k := Z.to_nat (x - a)). assert (K : (k < esz * n)%nat) by lia.
  apply (H (k / esz)%nat (k mod esz)%nat).
  - apply Nat.div_lt_upper_bound; lia.
  - apply Nat.mod_upper_bound. lia.
  - rewrite contig. pose proof (Nat.div_mod k esz ltac:(lia)). lia.
Qed.

Section S.
Variable addr : Z -> Z -> Z.
Section R.
Variables (buf : PktModel.mem) (t : PktModel.tix) (n : nat) (h d g : Z) (mo mt : bytes).
Hypothesis P : PktSpec.ok_place h d.
Hypothesis G : PktSpec.ok_tag g.
Let sz := PktSpec.dsize (PktSpec.named t).

Lemma put_effect src : sz * Z.of_nat n < 2 ^ 31 ->
  exists mt', am_put addr buf t n src h d g mo mt = Ok mt' /\ copied (width t) n mo src 1 mt mt' (addr h d) 1.
Proof.
  intros B. pose proof (dsize_pos (PktSpec.named t)). unfold am_put. cbv zeta. fold sz.
  rewrite through_ok; [|cbn; split; [lia|split; assumption]|cbn; lia]. cbn [PktSpec.meant exec_rma].
  replace (sz * Z.of_nat n <? 0) with false by lia. set (dat := ld mo src (Z.to_nat sz * n)).
  assert (L : length dat = (Z.to_nat sz * n)%nat) by apply ld_length.
  cbn [exec_pkt]. replace (length dat <=? Z.to_nat (sz * Z.of_nat n))%nat with true by (symmetry; apply Nat.leb_le; nia).
  cbn. eexists. split; [reflexivity|]. split.
  - intros i j I J. rewrite (st_contig dat _ _ (width t) n L) by assumption. apply ld_contig; assumption.
  - intros x O. apply (out_contig dat _ _ (width t) n); [unfold width; lia|exact L|exact O].
Qed.
Lemma get_effect dst : sz * Z.of_nat n < 2 ^ 31 ->
  exists mo', am_get addr buf t n dst h d g mo mt = Ok mo' /\ copied (width t) n mt (addr h d) 1 mo mo' dst 1.
Proof.
  intros B. pose proof (dsize_pos (PktSpec.named t)). unfold am_get. cbv zeta. fold sz.
  rewrite through_ok; [|cbn; split; [lia|split; assumption]|cbn; lia]. cbn [PktSpec.meant exec_rma].
  replace (sz * Z.of_nat n <? 0) with false by lia. cbn [exec_pkt Base.bind snd].
  replace (Z.to_nat (sz * Z.of_nat n)) with (Z.to_nat sz * n)%nat by nia.
  rewrite ld_length, Nat.leb_refl. eexists. split; [reflexivity|]. set (dat := ld mt (addr h d) (Z.to_nat sz * n)).
  assert (L : length dat = (Z.to_nat sz * n)%nat) by apply ld_length. split.
  - intros i j I J. rewrite (st_contig dat _ _ (width t) n L) by assumption. apply ld_contig; assumption.
  - intros x O. apply (out_contig dat _ _ (width t) n); [unfold width; lia|exact L|exact O].
Qed.
Lemma iput_effect src ost tst : Z.of_nat n < 2 ^ 64 -> 1 <= tst < 2 ^ 63 ->
  exists mt', am_iput addr buf t n src ost tst h d g mo mt = Ok mt' /\ copied (width t) n mo src ost mt mt' (addr h d) tst.
Proof.
  intros N T. unfold am_iput. cbv zeta. rewrite through_ok; [|cbn; split; [split; lia|split; assumption]|exact I].
  cbn [PktSpec.meant exec_rma]. rewrite Nat2Z.id. fold (width t). destruct (ld_st_ok (width t) ost n mo src) as (L & E).
  destruct (exec_iput (fun _ a _ => a) (fun _ _ _ => false) (addr h d) tst (width t) n (ld_st mo (width t) src ost n) mt) as (m' & X & S1 & S2); [lia|lia|].
  rewrite X. cbn. eexists. split; [reflexivity|]. split; [|exact S2]. intros i j A B. rewrite S1 by assumption. apply E; assumption.
Qed.
Lemma iget_effect dst ost tst : Z.of_nat n < 2 ^ 64 -> - 2 ^ 63 <= tst < 2 ^ 63 -> 1 <= ost ->
  exists mo', am_iget addr buf t n dst ost tst h d g mo mt = Ok mo' /\ copied (width t) n mt (addr h d) tst mo mo' dst ost.
Proof.
  intros N T O. unfold am_iget. cbv zeta. rewrite through_ok; [|cbn; split; [split; lia|split; assumption]|exact I].
  cbn [PktSpec.meant exec_rma]. rewrite Nat2Z.id. fold (width t). destruct (ld_st_ok (width t) tst n mt (addr h d)) as (L & E).
  cbn [exec_pkt Base.bind snd]. rewrite L, Nat.mul_comm, Nat.leb_refl. eexists. split; [reflexivity|].
  destruct (st_st_ok (width t) ost n O mo dst (ld_st mt (width t) (addr h d) tst n)) as (S1 & S2); [lia|].
  split; [|exact S2]. intros i j A B. rewrite S1 by assumption. apply E; assumption.
Qed.
End R.
End S.
