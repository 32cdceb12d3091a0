From Verif Require Import PrwModel PrwSpec.

Lemma loop_ok f a flag : forall k i fuel, flag (i + k)%nat = true -> (forall j, (j < k)%nat -> flag (i + j)%nat = false) -> (k < fuel)%nat ->
  exists l, loop fuel flag i f a = Some l /\ tests l = Some (f, a, k) /\ same_args l a.
Proof.
  induction k as [|k IH]; intros i fuel T F L; (destruct fuel as [|n]; [lia|]); cbn [loop].
  - rewrite Nat.add_0_r in T. rewrite T. eexists. split; [reflexivity|]. cbn. auto.
  - rewrite <- (Nat.add_0_r i), (F O) by lia.
    destruct (IH (S i) n) as (l & E & G & A).
    + rewrite <- T. f_equal. lia.
    + intros j J. rewrite <- (F (S j)) by lia. f_equal. lia.
    + lia.
    + rewrite Nat.add_0_r, E. eexists. split; [reflexivity|]. cbn [tests same_args]. rewrite G, String.eqb_refl. auto.
Qed.

Ltac args vs := repeat (destruct vs as [|? vs]; [discriminate|]); destruct vs; [|discriminate].

Lemma wrapper_ok w vs flag k fuel (async : bool) : In w wrappers -> length vs = length (wr_params w) -> first_true flag k -> (k < fuel)%nat ->
  exists evs, run async fuel flag w vs = Some evs /\
    completes evs (wr_name w, norm (combine (roles (wr_name w)) vs)) (if async then 0 else k).
Proof.
  intros I L (T & F) B. unfold run. destruct async.
  - eexists. split; [reflexivity|]. cbn in I.
    repeat (destruct I as [<-|I]; [args vs; cbn;
      lazymatch goal with |- completes [Call ?f ?a] _ _ => exact (ByCall f _ a eq_refl eq_refl) end|]). contradiction.
  - destruct (loop_ok (fst (wr_test w)) (map (eval w vs) (snd (wr_test w))) flag k 0 fuel T F B) as (l & E & G & A). rewrite E.
    eexists. split; [reflexivity|]. cbn in I.
    repeat (destruct I as [<-|I]; [args vs; cbn in G, A |- *;
      lazymatch goal with
      | |- completes (Call ?f ?a :: _) _ _ =>
          let b := eval cbn in (removelast a) in
          match type of G with tests _ = Some (_, [_; _; ?st], _) => exact (ByTest f _ b l st k eq_refl eq_refl G A) end
      | |- _ => exact (ByTestall l _ _ _ k G A)
      end|]). contradiction.
Qed.
Lemma loop_first f a flag : forall fuel i l, loop fuel flag i f a = Some l ->
  exists k, flag (i + k)%nat = true /\ (forall j, (j < k)%nat -> flag (i + j)%nat = false) /\ (k < fuel)%nat.
Proof.
  induction fuel as [|n IH]; intros i l E; cbn [loop] in E; [discriminate|]. destruct (flag i) eqn:F.
  - exists O. rewrite Nat.add_0_r. repeat split; [exact F|lia|lia].
  - destruct (loop n flag (S i) f a) as [l'|] eqn:E'; [|discriminate]. destruct (IH _ _ E') as (k & T & H & B).
    exists (S k). split; [rewrite <- T; f_equal; lia|]. split; [|lia]. intros [|j] J; [rewrite Nat.add_0_r; exact F|].
    rewrite <- (H j) by lia. f_equal. lia.
Qed.
Lemma returns_late fuel flag w vs evs : run false fuel flag w vs = Some evs -> exists k, first_true flag k /\ (k < fuel)%nat.
Proof.
  unfold run. destruct (loop fuel flag 0 (fst (wr_test w)) (map (eval w vs) (snd (wr_test w)))) as [l|] eqn:E; [|discriminate].
  intros _. destruct (loop_first _ _ _ _ _ _ E) as (k & T & F & B). exists k. repeat split; assumption.
Qed.
Lemma stat_inj v v' : stat v = stat v' -> v = v'.
Proof. destruct v, v'; cbn; intros E; congruence. Qed.
Lemma arguments w w' vs vs' : In w wrappers -> In w' wrappers -> length vs = length (wr_params w) -> length vs' = length (wr_params w') ->
  wr_name w = wr_name w' -> norm (combine (roles (wr_name w)) vs) = norm (combine (roles (wr_name w')) vs') -> w = w' /\ vs = vs'.
Proof.
  intros I J L L' N E.
  assert (w = w').
  { cbn in I, J. repeat (destruct I as [<-|I]; [repeat (destruct J as [<-|J]; [first [reflexivity|discriminate N]|]); contradiction|]). contradiction. }
  subst w'. split; [reflexivity|]. clear J N. cbn in I.
  repeat (destruct I as [<-|I]; [args vs; args vs'; cbn [wr_name w_send w_recv w_waitall w_barrier w_bcast w_allgather w_allgatherv w_alltoall w_allreduce roles combine norm flat_map is_status fst snd app] in E;
    rewrite ?app_nil_r in E; injection E; intros; try (match goal with H : stat _ = stat _ |- _ => apply stat_inj in H end); subst; reflexivity|]). contradiction.
Qed.
