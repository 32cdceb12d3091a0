(** Proofs about counts that do not fit in an int. *)
From Verif Require Import Base BaseProofs ListLib TeamModel AsetModel RmaModel RmaSpec RmaProofs CollModel CollSpec CollProofs.

Lemma to_int_big n : 2 ^ 31 <= n < 2 ^ 32 -> to_int n = n - 2 ^ 32.
Proof.
  intros H. unfold to_int. replace (n + 2 ^ 31) with (n - 2 ^ 31 + 1 * 2 ^ 32) by lia.
  rewrite Z.mod_add by lia. rewrite Z.mod_small by lia. lia.
Qed.
Lemma to_int_cases n : 0 <= n < 2 ^ 32 -> (n < 2 ^ 31 /\ to_int n = n) \/ (2 ^ 31 <= n /\ to_int n < 0).
Proof.
  intros H. destruct (Z_lt_le_dec n (2 ^ 31)); [left; split; [lia|apply to_int_id; lia]|].
  right. split; [lia|]. rewrite to_int_big by lia. lia.
Qed.
Lemma neg_test n : n < 0 -> (n <? 0) = true.
Proof. intros. now apply Z.ltb_lt. Qed.

Lemma put_direct_all b n oa ta om tm tm' : 0 <= bt_size b -> 0 <= n < 2 ^ 32 ->
  put_direct b n oa ta om tm = Ok tm' -> copy_bytes (n * bt_size b) om oa tm ta tm'.
Proof.
  intros Hb Hn H. destruct (to_int_cases n Hn) as [[L E]|[L E]].
  - destruct (put_direct_ok b n oa ta om tm) as (x & E1 & E2); try lia. rewrite E1 in H. now injection H as <-.
  - exfalso. unfold put_direct in H. replace (n =? 0) with false in H by lia. unfold mpi_move in H. rewrite (neg_test _ E) in H.
    discriminate H.
Qed.
Lemma get_direct_all b n oa ta om tm om' : 0 <= bt_size b -> 0 <= n < 2 ^ 32 ->
  get_direct b n oa ta om tm = Ok om' -> copy_bytes (n * bt_size b) tm ta om oa om'.
Proof.
  intros Hb Hn H. destruct (to_int_cases n Hn) as [[L E]|[L E]].
  - destruct (get_direct_ok b n oa ta om tm) as (x & E1 & E2); try lia. rewrite E1 in H. now injection H as <-.
  - exfalso. unfold get_direct in H. replace (n =? 0) with false in H by lia. unfold mpi_move in H. rewrite (neg_test _ E) in H.
    discriminate H.
Qed.

(** The receiver takes the whole message or reports an error, whatever room it announced. *)
Lemma put_am_all b typesz n oa ta om tm tm' : 0 <= bt_size b -> 0 <= n < 2 ^ 32 ->
  put_am b typesz n oa ta om tm = Ok tm' -> copy_bytes (n * bt_size b) om oa tm ta tm'.
Proof.
  intros Hb Hn H. unfold put_am in H. destruct (n =? 0) eqn:E0.
  { injection H as <-. replace n with 0 by lia. apply copy_bytes_0. }
  destruct (to_int_cases n Hn) as [[L E]|[L E]].
  2: { unfold send in H. rewrite (neg_test _ E) in H. discriminate H. }
  rewrite E in H. unfold send in H. replace (n <? 0) with false in H by lia. cbn [bind] in H. unfold recv, pack in H.
  set (c := to_int (wrap64 (typesz * n))) in *. destruct (c <? 0) eqn:Ec; [discriminate H|].
  rewrite !addrs_base, map_length, !saddrs_length in H. cbn [bt_size bt_byte] in H.
  match type of H with (if ?t then _ else _) = _ => destruct t eqn:Et end; [discriminate H|]. injection H as <-.
  assert (n * bt_size b <= c) by nia.
  rewrite !saddrs_bytes by lia.
  replace (Z.to_nat (c * 1)) with (Z.to_nat (n * bt_size b) + Z.to_nat (c - n * bt_size b))%nat by nia.
  rewrite combine_zseq_long. apply bytes_strided.
  replace (zseq ta (Z.to_nat (n * bt_size b))) with (saddrs 1 (n * bt_size b) ta 1)
    by (rewrite saddrs_bytes by lia; f_equal; lia).
  replace (zseq oa (Z.to_nat (n * bt_size b))) with (saddrs 1 (n * bt_size b) oa 1)
    by (rewrite saddrs_bytes by lia; f_equal; lia).
  apply write_strided; lia.
Qed.
Lemma get_am_all b n oa ta om tm om' : 0 <= bt_size b -> 0 <= n < 2 ^ 32 -> bt_size b * n < 2 ^ 32 ->
  get_am b (bt_size b) n oa ta om tm = Ok om' -> copy_bytes (n * bt_size b) tm ta om oa om'.
Proof.
  intros Hb Hn Hs H. assert (0 <= bt_size b * n) by nia.
  destruct (Z.eq_dec n 0) as [->|N0].
  { injection H as <-. apply copy_bytes_0. }
  destruct (to_int_cases (bt_size b * n)) as [[L1 E1]|[L1 E1]]; [lia| |].
  - destruct (to_int_cases n Hn) as [[L E]|[L E]].
    + destruct (get_am_ok b n oa ta om tm) as (x & X1 & X2); try lia. rewrite X1 in H. now injection H as <-.
    + unfold get_am in H. replace (n =? 0) with false in H by lia. exfalso.
      destruct (send tm ta (to_int (wrap64 (bt_size b * n))) (base_dt bt_byte)); try discriminate H. cbn [bind] in H.
      unfold recv in H. rewrite (neg_test _ E) in H. discriminate H.
  - exfalso. unfold get_am in H. replace (n =? 0) with false in H by lia. rewrite wrap64_id in H by lia.
    unfold send in H. rewrite (neg_test _ E1) in H. discriminate H.
Qed.

Lemma put_all am b typesz dest source n om tm tm' : 0 <= bt_size b -> 0 <= n < 2 ^ 32 ->
  shmem_put am b typesz dest source n om tm = Ok tm' -> copy_bytes (n * bt_size b) om source tm dest tm'.
Proof. intros Hb Hn. destruct am; [now apply put_am_all|now apply put_direct_all]. Qed.
Lemma get_all am b dest source n om tm om' : 0 <= bt_size b -> 0 <= n < 2 ^ 32 -> (am = true -> bt_size b * n < 2 ^ 32) ->
  shmem_get am b (bt_size b) dest source n om tm = Ok om' -> copy_bytes (n * bt_size b) tm source om dest om'.
Proof. intros Hb Hn Ha. destruct am; [apply get_am_all; auto|now apply get_direct_all]. Qed.

(** ** Collectives *)

Lemma on_members_abort f g : forall i M, g <> [] -> (forall j p, f j p = Abort) -> on_members f i g M = Abort.
Proof. destruct g as [|p g]; intros i M N H; [congruence|]. cbn [on_members]. now rewrite H. Qed.
Lemma sends_abort M buf cnt d g : g <> [] -> (forall p, cnt p < 0) -> sends M buf cnt d g = Abort.
Proof. destruct g as [|p g]; intros N H; [congruence|]. cbn [sends]. unfold send. now rewrite (neg_test _ (H p)). Qed.

Lemma fcollect_all g b n dst src M M' : NoDup g -> g <> [] -> 0 <= bt_size b -> 0 <= n < 2 ^ 32 ->
  fcollect_group g b n dst src M = Ok M' -> collect_post (bt_size b) (fun _ => n) g src dst M M'.
Proof.
  intros Hg N Hb Hn H. destruct (to_int_cases n Hn) as [[L E]|[L E]].
  - destruct (fcollect_ok g b n dst src M) as (x & X1 & X2); auto; try lia. rewrite X1 in H. now injection H as <-.
  - exfalso. unfold fcollect_group, mpi_allgather, mpi_allgatherv in H. rewrite sends_abort in H by auto. discriminate H.
Qed.
Lemma alltoall_all g b n dst src M M' : NoDup g -> g <> [] -> 0 <= bt_size b -> 0 <= n < 2 ^ 32 ->
  alltoall_group g b n dst src M = Ok M' -> alltoalls_post (bt_size b) n 1 1 g src dst M M'.
Proof.
  intros Hg N Hb Hn H. destruct (to_int_cases n Hn) as [[L E]|[L E]].
  - destruct (alltoall_group_ok g b n dst src M) as (x & X1 & X2); auto; try lia. rewrite X1 in H. now injection H as <-.
  - exfalso. unfold alltoall_group, mpi_alltoall in H. rewrite on_members_abort in H; [discriminate H|exact N|].
    intros j p. now rewrite sends_abort by auto.
Qed.
Lemma allreduce_all op b :
  (forall x y, length x = Z.to_nat (bt_size b) -> length y = Z.to_nat (bt_size b) -> length (op x y) = Z.to_nat (bt_size b)) ->
  forall g n dst src M M', NoDup g -> g <> [] -> 0 <= bt_size b -> 0 <= n < 2 ^ 32 ->
  (forall p, In p g -> src p = dst p) \/ (forall p, In p g -> src p <> dst p) ->
  allreduce_group op g b n dst src M = Ok M' -> allreduce_post op (bt_size b) n g src dst M M'.
Proof.
  intros Hop g n dst src M M' Hg N Hb Hn Hd H. destruct (to_int_cases n Hn) as [[L E]|[L E]].
  - destruct (allreduce_ok op b Hop g n dst src M) as (x & X1 & X2); auto; try lia. rewrite X1 in H. now injection H as <-.
  - exfalso. unfold allreduce_group, mpi_allreduce in H. rewrite (neg_test _ E) in H. discriminate H.
Qed.
Lemma team_broadcast_all g b root r n dst src M M' : NoDup g -> aget g root = Some r -> 0 <= n < 2 ^ 32 -> 0 <= bt_size b ->
  n * bt_size b < 2 ^ 64 -> team_broadcast g b root n dst src M = Ok M' -> bcast_post true (n * bt_size b) g r src dst M M'.
Proof.
  intros Hg Hr Hn Hb Hs H. destruct (to_int_cases n Hn) as [[L E]|[L E]].
  - destruct (team_broadcast_ok g b root r n dst src M) as (x & X1 & X2); auto; try lia. rewrite X1 in H. now injection H as <-.
  - exfalso. unfold team_broadcast, mpi_bcast in H. rewrite Hr in H. unfold send in H. rewrite (neg_test _ E) in H. discriminate H.
Qed.

(** A get by an active message whose number of bytes does not fit in an int. *)
Lemma get_am_short b n oa ta om tm c : 0 <= bt_size b -> 0 < n < 2 ^ 31 -> to_int (wrap64 (bt_size b * n)) = c ->
  0 <= c <= n * bt_size b ->
  exists om', get_am b (bt_size b) n oa ta om tm = Ok om' /\ copy_bytes c tm ta om oa om'.
Proof.
  intros Hz Hn Hc Hb. unfold get_am. replace (n =? 0) with false by lia. rewrite Hc. rewrite to_int_id by lia.
  unfold send, recv, pack. replace (n <? 0) with false by lia. replace (c <? 0) with false by lia. cbn [bind].
  rewrite !addrs_base, map_length, !saddrs_length. cbn [bt_size bt_byte].
  replace (Z.of_nat (Z.to_nat n * Z.to_nat (bt_size b)) <? Z.of_nat (Z.to_nat c * Z.to_nat 1)) with false by nia.
  eexists. split; [reflexivity|].
  rewrite !saddrs_bytes by lia. replace (c * 1) with c by lia.
  replace (Z.to_nat (n * bt_size b)) with (Z.to_nat c + Z.to_nat (n * bt_size b - c))%nat by nia.
  rewrite combine_zseq_long. apply bytes_strided.
  replace (zseq ta (Z.to_nat c)) with (saddrs 1 c ta 1) by (rewrite saddrs_bytes by lia; f_equal; lia).
  replace (zseq oa (Z.to_nat c)) with (saddrs 1 c oa 1) by (rewrite saddrs_bytes by lia; f_equal; lia).
  apply write_strided; lia.
Qed.
