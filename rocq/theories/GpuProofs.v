From Verif Require Import Base BaseProofs AmCfgModel OrderModel OrderSpec OrderProofs OrderProofs2 OrderProofs3 GpuModel GpuSpec.

Section Gpu.
Variable c : oconf.

Lemma reach_nodup ls s log : orun c o_init ls = Ok (s, log) -> NoDup (map os_id (o_spaces s)).
Proof.
  intros H. assert (I : invF ([] ++ log) s).
  { eapply run_invF; eauto. split; [intros j cl m E; discriminate|]. split; [intros j cl m k E; discriminate|].
    split; [intros j cl m k E; discriminate|]. split; [intros ? []|]. split; [intros k E; discriminate|constructor]. }
  apply I.
Qed.

Lemma obj_dev_iff ls s log x o : orun c o_init ls = Ok (s, log) -> (obj_dev s x o = true <-> on_device s x o).
Proof.
  intros R. apply reach_nodup in R. unfold obj_dev, on_device.
  assert (F : forall k, match find_sp s k with Some sp => os_dev sp | None => false end = true <->
                exists sp, In sp (o_spaces s) /\ os_dev sp = true /\ os_id sp = k).
  { intros k. split.
    - unfold find_sp. destruct (find _ _) as [sp|] eqn:E; [|discriminate]. intros D.
      apply find_some in E. exists sp. repeat split; try tauto. lia.
    - intros (sp & Hin & D & <-). unfold find_sp. now rewrite (find_nodup _ _ R Hin). }
  destruct x as [|k i].
  - destruct o as [| |k].
    + split; [discriminate|]. intros (sp & _ & _ & E). discriminate.
    + split; [discriminate|]. intros (sp & _ & _ & E). discriminate.
    + rewrite F. split; intros (sp & A & B & E); exists sp; repeat split; auto; congruence.
  - apply F.
Qed.

Lemma obj_mem_iff ls s log x o : orun c o_init ls = Ok (s, log) -> (obj_mem s x o = Device <-> on_device s x o).
Proof.
  intros R. rewrite <- (obj_dev_iff ls s log x o R). unfold obj_mem. destruct (obj_dev s x o); split; congruence.
Qed.

Lemma safe_nil acc : device_safe c acc [].
Proof. intros t []. Qed.
Lemma safe_cons acc t m l : device_safe c acc ((t, m) :: l) <->
  (m = Device -> supported c acc t = true) /\ device_safe c acc l.
Proof.
  unfold device_safe. cbn. split.
  - intros H. split; [intros ->; auto|intros; auto].
  - intros [A B] t' [E|E]; [inversion E; subst; auto|auto].
Qed.

(** What a transfer does when the way is decided for the call. *)
Lemma rma_safe b acc ls s log x o k m : decides c -> is_rma k -> b <> BNone -> orun c o_init ls = Ok (s, log) ->
  match rma_touches b c s x o k m with
  | Ok l => device_safe c acc l /\ (m = Device \/ on_device s x o -> feature c k = true \/ oc_gpt2pt c = true)
  | Abort => (m = Device \/ on_device s x o) /\ feature c k = false /\ oc_gpt2pt c = false
  | _ => False
  end.
Proof.
  intros (D1 & D2) K B R. pose proof (obj_dev_iff _ _ _ x o R) as OD.
  unfold rma_touches, is_direct, direct_rma. rewrite D1, D2.
  assert (Q : use_gpu MkHost (query_pointer b m) = true <-> m = Device).
  { destruct b, m; cbn; intuition congruence. }
  assert (EA : is_amo k = false) by (destruct K as [-> | [-> | [-> | ->]]]; auto). rewrite EA.
  unfold check_gpu_direct. destruct (use_gpu MkHost (query_pointer b m)) eqn:U; cbn [orb negb].
  - assert (m = Device) by tauto. subst m.
    destruct K as [-> | [-> | [-> | ->]]]; cbn [is_put feature];
      destruct (oc_gput c) eqn:G1, (oc_gget c) eqn:G2, (oc_gpt2pt c) eqn:G3; cbn;
      try (split; [rewrite !safe_cons; cbn; rewrite ?G1, ?G2, ?G3; repeat split; auto using safe_nil|auto]; fail);
      split; auto.
  - assert (Hm : m <> Device) by (intros E; apply Q in E; discriminate).
    destruct (obj_dev s x o) eqn:O; cbn [negb].
    + assert (on_device s x o) by tauto.
      destruct K as [-> | [-> | [-> | ->]]]; cbn [is_put feature];
        destruct (oc_gput c) eqn:G1, (oc_gget c) eqn:G2, (oc_gpt2pt c) eqn:G3; cbn;
        try (split; [rewrite !safe_cons; cbn; rewrite ?G1, ?G2, ?G3; repeat split; auto using safe_nil|auto]; fail);
        split; auto.
    + assert (~ on_device s x o) by (rewrite <- OD; discriminate).
      assert (M : obj_mem s x o = Pageable) by (unfold obj_mem; now rewrite O).
      cbn [bind]. rewrite M.
      destruct K as [-> | [-> | [-> | ->]]]; (split; [rewrite !safe_cons; repeat split; try congruence; auto using safe_nil|tauto]).
Qed.

Lemma rma_host b ls s log x o k m : decides c -> is_rma k -> orun c o_init ls = Ok (s, log) ->
  m <> Device -> ~ on_device s x o ->
  rma_touches b c s x o k m = Ok (match k with KPut | KPutNbi => [(TPut, m); (TPut, Pageable)] | _ => [(TGet, m); (TGet, Pageable)] end).
Proof.
  intros (D1 & D2) K R Hm Ho. pose proof (obj_dev_iff _ _ _ x o R) as OD.
  assert (O : obj_dev s x o = false) by (destruct (obj_dev s x o); [tauto|auto]).
  unfold rma_touches, is_direct, direct_rma, obj_mem. rewrite D1, D2, O.
  assert (U : use_gpu MkHost (query_pointer b m) = false) by (destruct b, m; cbn; congruence).
  rewrite U. destruct K as [-> | [-> | [-> | ->]]]; reflexivity.
Qed.

Lemma am_safe b acc ls s log x o k m : by_am c -> is_rma k -> orun c o_init ls = Ok (s, log) ->
  exists l, rma_touches b c s x o k m = Ok l /\
    (device_safe c acc l <-> (m = Device \/ on_device s x o -> oc_gpt2pt c = true)).
Proof.
  intros D K R. pose proof (obj_mem_iff _ _ _ x o R) as OM.
  assert (E : is_direct c s x o k (use_gpu MkHost (query_pointer b m)) = Ok false).
  { unfold is_direct, direct_rma. replace (is_amo k) with false by (destruct K as [-> | [-> | [-> | ->]]]; auto).
    destruct D as [-> | [-> ->]]; auto. }
  unfold rma_touches. rewrite E. cbn [bind].
  eexists. split; [reflexivity|].
  destruct K as [-> | [-> | [-> | ->]]]; rewrite !safe_cons, OM; cbn; pose proof (safe_nil acc); intuition.
Qed.

Lemma direct_safe b acc ls s log x o k m : by_rma c -> is_rma k -> orun c o_init ls = Ok (s, log) ->
  exists l, rma_touches b c s x o k m = Ok l /\
    (device_safe c acc l <-> (m = Device \/ on_device s x o -> feature c k = true)).
Proof.
  intros D K R. pose proof (obj_mem_iff _ _ _ x o R) as OM.
  assert (E : is_direct c s x o k (use_gpu MkHost (query_pointer b m)) = Ok true).
  { unfold is_direct, direct_rma. replace (is_amo k) with false by (destruct K as [-> | [-> | [-> | ->]]]; auto).
    destruct D as [-> | [-> ->]]; auto. }
  unfold rma_touches. rewrite E. cbn [bind].
  eexists. split; [reflexivity|].
  destruct K as [-> | [-> | [-> | ->]]]; rewrite !safe_cons, OM; cbn; pose proof (safe_nil acc); intuition.
Qed.

Lemma amo_safe b acc ls s log x o k m : fetching k \/ k = KPost -> orun c o_init ls = Ok (s, log) ->
  exists l, rma_touches b c s x o k m = Ok l /\
    (device_safe c acc l <->
     (on_device s x o -> oc_amo_direct c = true /\ acc = true) /\
     (fetching k -> m = Device -> if oc_amo_direct c then acc = true else oc_gpt2pt c = true)).
Proof.
  intros K R. pose proof (obj_mem_iff _ _ _ x o R) as OM. pose proof (safe_nil acc) as N.
  assert (E : is_direct c s x o k (use_gpu MkHost (query_pointer b m)) = Ok (oc_amo_direct c)).
  { unfold is_direct. destruct K as [[-> | [-> | ->]] | ->]; auto. }
  unfold rma_touches. rewrite E. cbn [bind]. eexists. split; [reflexivity|].
  unfold fetching. destruct K as [[-> | [-> | ->]] | ->]; destruct (oc_amo_direct c);
    rewrite !safe_cons, OM; cbn; intuition congruence.
Qed.
End Gpu.

Lemma space_recorded b k k' m : space_mem b k = Ok (k', m) ->
  (m = Device <-> k = MkCuda \/ k = MkZe) /\ (use_gpu k' PUnreg = true <-> m = Device).
Proof.
  destruct b, k; cbn; intros H; inversion H; subst; split; cbn; intuition congruence.
Qed.

Lemma other_safe c acc x t : device_safe c acc (other_touches x t) <->
  match x with
  | XWait => t = Device -> acc = true
  | XLock | XCalloc => t <> Device
  | XBcast d => t = Device \/ d = Device -> oc_gget c = true
  end.
Proof.
  pose proof (safe_nil c acc) as N. destruct x; cbn [other_touches]; rewrite ?safe_cons; cbn; intuition congruence.
Qed.
