(** Proofs about the options. *)
From Coq Require Import String.
From Verif Require Import Base AmCfgModel EnvModel EnvSpec EnvProofs OptModel OptSpec.
Open Scope Z_scope.
Open Scope list_scope.

Lemma space_blank c : is_space c = true <-> blank c.
Proof. unfold is_space, blank. rewrite orb_true_iff, andb_true_iff, Z.eqb_eq, !Z.leb_le. lia. Qed.

Lemma skip_space_blanks bl r : Forall blank bl -> skip_space (bl ++ r) = skip_space r.
Proof.
  induction 1 as [|c bl Hc H IH]; [reflexivity|]. cbn [app skip_space]. apply space_blank in Hc. now rewrite Hc.
Qed.
Lemma skip_space_split s : exists bl, s = bl ++ skip_space s /\ Forall blank bl /\
  forall c t, skip_space s = c :: t -> ~ blank c.
Proof.
  induction s as [|c s (bl & E & F & N)]; [exists []; repeat split; [constructor|discriminate]|].
  cbn [skip_space]. destruct (is_space c) eqn:Hc.
  - exists (c :: bl). split; [cbn; congruence|]. split; [constructor; [now apply space_blank|exact F]|exact N].
  - exists []. split; [reflexivity|]. split; [constructor|]. intros c' t H. injection H as <- <-.
    intros B. apply space_blank in B. congruence.
Qed.

Lemma digit_spec c : is_digit c = true <-> 48 <= c <= 57.
Proof. unfold is_digit. rewrite andb_true_iff, !Z.leb_le. tauto. Qed.
Lemma take_digits_split s : s = fst (take_digits s) ++ snd (take_digits s) /\
  Forall (fun c => 48 <= c <= 57) (fst (take_digits s)) /\
  forall c t, snd (take_digits s) = c :: t -> c < 48 \/ 57 < c.
Proof.
  induction s as [|c s (E & F & N)]; [repeat split; [constructor|discriminate]|]. cbn [take_digits].
  destruct (is_digit c) eqn:Hc.
  - destruct (take_digits s) as [a b]. cbn [fst snd] in *. split; [cbn; congruence|].
    split; [constructor; [now apply digit_spec|exact F]|exact N].
  - cbn [fst snd]. split; [reflexivity|]. split; [constructor|]. intros c' t H. injection H as <- <-.
    assert (~ (48 <= c <= 57)) by (intros X; apply digit_spec in X; congruence). lia.
Qed.

(** The sign and digits that atoi finds. *)
Definition raw (s : list Z) : Z * list Z :=
  let '(sg, r) := sign_of (skip_space s) in (sg, fst (take_digits r)).
Lemma atoi_raw s : atoi s = let v := fst (raw s) * dec_val (snd (raw s)) in
  if (- 2 ^ 31 <=? v) && (v <? 2 ^ 31) then Ok v else UB.
Proof.
  unfold atoi, raw. destruct (sign_of (skip_space s)) as [sg r].
  cbv zeta. change (snd (sg, fst (take_digits r))) with (fst (take_digits r)). change (fst (sg, fst (take_digits r))) with sg.
  rewrite digits_val_spec. reflexivity.
Qed.

Lemma sign_cases (s : list Z) :
  (exists t, s = 43 :: t /\ sign_of s = (1, t)) \/
  (exists t, s = 45 :: t /\ sign_of s = (-1, t)) \/
  ((forall t, s <> 43 :: t) /\ (forall t, s <> 45 :: t) /\
   sign_of s = (1, s)).
Proof.
  destruct s as [|c s]; [right; right; repeat split; discriminate|].
  destruct (Z.eq_dec c 43) as [->|H1]; [left; eauto|].
  destruct (Z.eq_dec c 45) as [->|H2]; [right; left; eauto|]. right; right.
  split; [congruence|]. split; [congruence|].
  destruct c as [|p|p]; try reflexivity.
  do 6 (destruct p as [p|p|]; try reflexivity); exfalso; lia.
Qed.

Lemma raw_number s v : number s v -> snd (raw s) <> [] /\ v = fst (raw s) * dec_val (snd (raw s)).
Proof.
  intros H. destruct H as [bl sg ds rest v HB [HN HD] HR HS]. unfold raw. rewrite skip_space_blanks by exact HB.
  assert (HT : take_digits (ds ++ rest) = (ds, rest)).
  { apply take_digits_app; [exact HD|]. destruct rest as [|c t]; [exact I|]. specialize (HR c t eq_refl).
    destruct (is_digit c) eqn:E; [apply digit_spec in E; lia|]. reflexivity. }
  destruct ds as [|d ds]; [congruence|]. pose proof (Forall_inv HD) as Hd. cbn beta in Hd.
  assert (HS0 : skip_space ((d :: ds) ++ rest) = (d :: ds) ++ rest).
  { cbn [app skip_space]. destruct (is_space d) eqn:E; [|reflexivity]. apply space_blank in E. unfold blank in E. lia. }
  destruct HS as [[-> ->]|[[-> ->]|[-> ->]]].
  - cbn [app] in *. rewrite HS0. destruct (sign_cases (d :: ds ++ rest)) as [(t & E & _)|[(t & E & _)|(_ & _ & E)]].
    + injection E as -> _. lia.
    + injection E as -> _. lia.
    + rewrite E, HT. cbn [fst snd]. split; [discriminate|lia].
  - change (bytes "+") with [43]. change (skip_space ([43] ++ (d :: ds) ++ rest)) with (43 :: (d :: ds) ++ rest).
    cbn [sign_of]. rewrite HT. cbn [fst snd]. split; [discriminate|lia].
  - change (bytes "-") with [45]. change (skip_space ([45] ++ (d :: ds) ++ rest)) with (45 :: (d :: ds) ++ rest).
    cbn [sign_of]. rewrite HT. cbn [fst snd]. split; [discriminate|lia].
Qed.

Lemma number_raw s : snd (raw s) <> [] -> number s (fst (raw s) * dec_val (snd (raw s))).
Proof.
  intros H. destruct (skip_space_split s) as (bl & E & F & N). unfold raw in *.
  rewrite E at 1. remember (skip_space s) as u. clear Hequ E s.
  destruct (sign_cases u) as [(t & -> & X)|[(t & -> & X)|(_ & _ & X)]]; rewrite X in *; cbn [fst snd] in *.
  - destruct (take_digits_split t) as (A & B & C). rewrite A at 1.
    change (43 :: fst (take_digits t) ++ snd (take_digits t)) with (bytes "+" ++ fst (take_digits t) ++ snd (take_digits t)).
    apply Num; [exact F|split; assumption|exact C|]. right; left. split; [reflexivity|lia].
  - destruct (take_digits_split t) as (A & B & C). rewrite A at 1.
    change (45 :: fst (take_digits t) ++ snd (take_digits t)) with (bytes "-" ++ fst (take_digits t) ++ snd (take_digits t)).
    apply Num; [exact F|split; assumption|exact C|]. right; right. split; [reflexivity|lia].
  - destruct (take_digits_split u) as (A & B & C). rewrite A at 1.
    change (bl ++ fst (take_digits u) ++ snd (take_digits u)) with (bl ++ [] ++ fst (take_digits u) ++ snd (take_digits u)).
    apply Num; [exact F|split; assumption|exact C|]. left. split; [reflexivity|lia].
Qed.

Lemma no_number_raw s : no_number s <-> snd (raw s) = [].
Proof.
  split.
  - intros H. destruct (snd (raw s)) eqn:E; [reflexivity|]. exfalso. eapply H. apply number_raw. congruence.
  - intros H v X. apply raw_number in X. tauto.
Qed.

Lemma number_unique s v w : number s v -> number s w -> v = w.
Proof. intros H1 H2. apply raw_number in H1, H2. destruct H1 as [_ ->]. destruct H2 as [_ ->]. reflexivity. Qed.

Lemma atoi_cases s v : atoi s = Ok v -> number s v \/ no_number s /\ v = 0.
Proof.
  rewrite atoi_raw. cbn zeta. intros H. destruct (snd (raw s)) eqn:E.
  - right. split; [now apply no_number_raw|]. cbn [dec_val] in H. rewrite Z.mul_0_r in H. now injection H as <-.
  - left. rewrite <- E in H. match type of H with (if ?b then _ else _) = _ => destruct b end; [|discriminate H].
    injection H as <-. apply number_raw. congruence.
Qed.
Lemma atoi_ok s : (forall v, number s v -> - 2 ^ 31 <= v < 2 ^ 31) -> exists v, atoi s = Ok v.
Proof.
  intros H. rewrite atoi_raw. cbn zeta. destruct (snd (raw s)) eqn:E.
  - exists 0. cbn [dec_val]. now rewrite Z.mul_0_r.
  - rewrite <- E. assert (N : snd (raw s) <> []) by congruence. apply number_raw, H in N.
    exists (fst (raw s) * dec_val (snd (raw s))).
    rewrite (proj2 (Z.leb_le _ _) (proj1 N)), (proj2 (Z.ltb_lt _ _) (proj2 N)). reflexivity.
Qed.

Lemma nonempty_cases e n : (unset e n /\ getenv_nonempty e n = None) \/
  exists s, e n = Some s /\ s <> [] /\ getenv_nonempty e n = Some s.
Proof.
  unfold getenv_nonempty, unset. destruct (e n) as [[|c s]|]; [left; auto| |left; auto].
  right. exists (c :: s). repeat split. discriminate.
Qed.

Lemma numeric_switch (dflt : bool) e n on :
  match getenv_nonempty e n with
  | Some s => do v <- atoi s; Ok (negb (v =? 0))
  | None => Ok dflt
  end = Ok on -> switch dflt e n on.
Proof.
  intros H. destruct (nonempty_cases e n) as [[U E]|(s & E1 & E2 & E3)].
  - rewrite E in H. injection H as <-. now left.
  - rewrite E3 in H. right. destruct (atoi s) as [v| | |] eqn:A; try discriminate H. cbn [bind] in H. injection H as <-.
    apply atoi_cases in A. destruct A as [A|[A ->]].
    + left. exists s, v. repeat split; try assumption.
      * rewrite negb_true_iff, Z.eqb_neq. auto.
      * rewrite negb_true_iff, Z.eqb_neq. auto.
    + right. exists s. auto.
Qed.
Lemma flag_switch e n on : flag e n = Ok on -> switch false e n on.
Proof. exact (numeric_switch false e n on). Qed.
Lemma mpit_switch e on : mpit_option e = Ok on -> switch true e "OSHMPI_ENABLE_MPI_T" on.
Proof. exact (numeric_switch true e _ on). Qed.

Lemma init_parts b e o : initialize_env b e = Ok o ->
  init_heap_size (e "SHMEM_SYMMETRIC_SIZE"%string) = Ok (op_heap o) /\
  flag e "SHMEM_DEBUG" = Ok (op_debug o) /\ flag e "SHMEM_VERSION" = Ok (op_version o) /\
  flag e "SHMEM_INFO" = Ok (op_info o) /\ flag e "OSHMPI_VERBOSE" = Ok (op_verbose o) /\
  init_amo_ops (e "OSHMPI_AMO_OPS"%string) = Ok (op_amo_ops o) /\
  init_gpu_features (e "OSHMPI_MPI_GPU_FEATURES"%string) = Ok (op_gpu o) /\
  op_amo_dbg o = dbg_mode (bc_nodebug b) e "OSHMPI_AMO_DBG_MODE" /\
  op_rma_dbg o = dbg_mode (bc_nodebug b) e "OSHMPI_RMA_DBG_MODE" /\
  async_option b (op_amo_dbg o) e = Ok (op_async o) /\ mpit_option e = Ok (op_mpit o).
Proof.
  unfold initialize_env. intros H.
  repeat match type of H with
  | bind ?x _ = Ok _ => let E := fresh "E" in destruct x eqn:E; cbn [bind] in H; try discriminate H
  end.
  cbv zeta in H.
  repeat match type of H with
  | bind ?x _ = Ok _ => let E := fresh "E" in destruct x eqn:E; cbn [bind] in H; try discriminate H
  end.
  injection H as <-. cbn. repeat split; assumption.
Qed.

Lemma same_nonempty names e e' n : same_env names e e' -> In n names -> getenv_nonempty e n = getenv_nonempty e' n.
Proof.
  intros H Hn. destruct (H n Hn) as [E|[U U']]; unfold getenv_nonempty; [now rewrite E|].
  destruct U as [->| ->], U' as [->| ->]; reflexivity.
Qed.
Lemma nonempty_heap e n : init_heap_size (e n) = init_heap_size (getenv_nonempty e n).
Proof. unfold getenv_nonempty. destruct (e n) as [[|c s]|]; reflexivity. Qed.
Lemma nonempty_amo e n : init_amo_ops (e n) = init_amo_ops (getenv_nonempty e n).
Proof. unfold getenv_nonempty. destruct (e n) as [[|c s]|]; reflexivity. Qed.
Lemma nonempty_gpu e n : init_gpu_features (e n) = init_gpu_features (getenv_nonempty e n).
Proof. unfold getenv_nonempty. destruct (e n) as [[|c s]|]; reflexivity. Qed.

Lemma own b e e' o o' : initialize_env b e = Ok o -> initialize_env b e' = Ok o' ->
  (same_env ["SHMEM_SYMMETRIC_SIZE"%string] e e' -> op_heap o = op_heap o') /\
  (same_env ["SHMEM_DEBUG"%string] e e' -> op_debug o = op_debug o') /\
  (same_env ["SHMEM_VERSION"%string] e e' -> op_version o = op_version o') /\
  (same_env ["SHMEM_INFO"%string] e e' -> op_info o = op_info o') /\
  (same_env ["OSHMPI_VERBOSE"%string] e e' -> op_verbose o = op_verbose o') /\
  (same_env ["OSHMPI_AMO_OPS"%string] e e' -> op_amo_ops o = op_amo_ops o') /\
  (same_env ["OSHMPI_MPI_GPU_FEATURES"%string] e e' -> op_gpu o = op_gpu o') /\
  (same_env ["OSHMPI_AMO_DBG_MODE"%string] e e' -> op_amo_dbg o = op_amo_dbg o') /\
  (same_env ["OSHMPI_RMA_DBG_MODE"%string] e e' -> op_rma_dbg o = op_rma_dbg o') /\
  (same_env ["OSHMPI_ENABLE_ASYNC_THREAD"%string; "OSHMPI_AMO_DBG_MODE"%string] e e' -> op_async o = op_async o') /\
  (same_env ["OSHMPI_ENABLE_MPI_T"%string] e e' -> op_mpit o = op_mpit o').
Proof.
  intros H H'. apply init_parts in H, H'.
  destruct H as (A1 & A2 & A3 & A4 & A5 & A6 & A7 & A8 & A9 & A10 & A11).
  destruct H' as (B1 & B2 & B3 & B4 & B5 & B6 & B7 & B8 & B9 & B10 & B11).
  unfold flag in *. unfold mpit_option in *.
  repeat split; intros S.
  - rewrite nonempty_heap in A1, B1. rewrite (same_nonempty _ _ _ _ S (or_introl eq_refl)) in A1. congruence.
  - rewrite (same_nonempty _ _ _ _ S (or_introl eq_refl)) in A2. congruence.
  - rewrite (same_nonempty _ _ _ _ S (or_introl eq_refl)) in A3. congruence.
  - rewrite (same_nonempty _ _ _ _ S (or_introl eq_refl)) in A4. congruence.
  - rewrite (same_nonempty _ _ _ _ S (or_introl eq_refl)) in A5. congruence.
  - rewrite nonempty_amo in A6, B6. rewrite (same_nonempty _ _ _ _ S (or_introl eq_refl)) in A6. congruence.
  - rewrite nonempty_gpu in A7, B7. rewrite (same_nonempty _ _ _ _ S (or_introl eq_refl)) in A7. congruence.
  - unfold dbg_mode in *. rewrite (same_nonempty _ _ _ _ S (or_introl eq_refl)) in A8. congruence.
  - unfold dbg_mode in *. rewrite (same_nonempty _ _ _ _ S (or_introl eq_refl)) in A9. congruence.
  - unfold async_option, dbg_mode in *.
    rewrite (same_nonempty _ _ _ _ S (or_introl eq_refl)) in A10.
    rewrite (same_nonempty _ _ _ _ S (or_intror (or_introl eq_refl))) in A8. rewrite A8 in A10. rewrite B8 in B10.
    congruence.
  - rewrite (same_nonempty _ _ _ _ S (or_introl eq_refl)) in A11. congruence.
Qed.

Lemma switches b e o : initialize_env b e = Ok o ->
  switch false e "SHMEM_DEBUG" (op_debug o) /\ switch false e "SHMEM_VERSION" (op_version o) /\
  switch false e "SHMEM_INFO" (op_info o) /\ switch false e "OSHMPI_VERBOSE" (op_verbose o) /\
  switch true e "OSHMPI_ENABLE_MPI_T" (op_mpit o).
Proof.
  intros H. apply init_parts in H. destruct H as (_ & A2 & A3 & A4 & A5 & _ & _ & _ & _ & _ & A11).
  repeat split; (apply flag_switch || apply mpit_switch); assumption.
Qed.

Lemma prefixb_starts p s : prefixb p s = true <-> starts p s.
Proof.
  revert s. induction p as [|c p IH]; intros s; cbn [prefixb].
  - split; [exists s; reflexivity|reflexivity].
  - destruct s as [|d s]; [split; [discriminate|intros [r H]; discriminate H]|].
    rewrite andb_true_iff, Z.eqb_eq, IH. split.
    + intros [-> [r ->]]. now exists r.
    + intros [r H]. injection H as -> ->. split; [reflexivity|now exists r].
Qed.

Lemma dbg_mode_spec nd e n : 
  (dbg_mode nd e n = DbgAm <-> nd = false /\ exists s, e n = Some s /\ starts (bytes "am") s) /\
  (dbg_mode nd e n = DbgDirect <-> nd = false /\ exists s, e n = Some s /\ starts (bytes "direct") s).
Proof.
  unfold dbg_mode. destruct nd; [split; (split; [discriminate|intros [H _]; discriminate H])|].
  destruct (nonempty_cases e n) as [[U E]|(s & E1 & E2 & E3)].
  - rewrite E. split; (split; [discriminate|]); intros [_ (s & H1 & [r ->])]; destruct U as [U|U]; rewrite U in H1; discriminate H1.
  - rewrite E3. unfold set_dbg_mode. destruct (prefixb (bytes "am") s) eqn:P1; [|destruct (prefixb (bytes "direct") s) eqn:P2].
    + split; [split; [intros _; split; [reflexivity|]; exists s; split; [exact E1|now apply prefixb_starts]|reflexivity]|].
      split; [discriminate|]. intros [_ (s' & H1 & [r H2])]. rewrite E1 in H1. injection H1 as <-. subst s. discriminate P1.
    + split; [split; [discriminate|]|].
      * intros [_ (s' & H1 & H2)]. rewrite E1 in H1. injection H1 as <-. apply prefixb_starts in H2. congruence.
      * split; [intros _; split; [reflexivity|]; exists s; split; [exact E1|now apply prefixb_starts]|reflexivity].
    + split; (split; [discriminate|]); intros [_ (s' & H1 & H2)]; rewrite E1 in H1; injection H1 as <-;
        apply prefixb_starts in H2; congruence.
Qed.

Lemma dbg_modes b e o : initialize_env b e = Ok o ->
  (op_amo_dbg o = DbgAm <-> bc_nodebug b = false /\ exists s, e "OSHMPI_AMO_DBG_MODE"%string = Some s /\ starts (bytes "am") s) /\
  (op_amo_dbg o = DbgDirect <-> bc_nodebug b = false /\ exists s, e "OSHMPI_AMO_DBG_MODE"%string = Some s /\ starts (bytes "direct") s) /\
  (op_rma_dbg o = DbgAm <-> bc_nodebug b = false /\ exists s, e "OSHMPI_RMA_DBG_MODE"%string = Some s /\ starts (bytes "am") s) /\
  (op_rma_dbg o = DbgDirect <-> bc_nodebug b = false /\ exists s, e "OSHMPI_RMA_DBG_MODE"%string = Some s /\ starts (bytes "direct") s).
Proof.
  intros H. apply init_parts in H. destruct H as (_ & _ & _ & _ & _ & _ & _ & A8 & A9 & _).
  rewrite A8, A9. destruct (dbg_mode_spec (bc_nodebug b) e "OSHMPI_AMO_DBG_MODE").
  destruct (dbg_mode_spec (bc_nodebug b) e "OSHMPI_RMA_DBG_MODE"). auto.
Qed.

(** Every environment with readable numbers is accepted. *)
Lemma gpu_total v : exists m, init_gpu_features v = Ok m.
Proof.
  destruct v as [[|c s]|]; [eexists; reflexivity| |eexists; reflexivity].
  unfold init_gpu_features. cbn [init_env]. unfold set_env.
  destruct (prefixb (bytes "none") (c :: s)); [eauto|]. destruct (prefixb (bytes "all") (c :: s)); [eauto|].
  destruct (parse_loop_spec gpu_table (S (length (c :: s))) (c :: s) 0) as (l & -> & _); [lia|]. cbn [bind]. eauto.
Qed.
Lemma amo_total v : exists m, init_amo_ops v = Ok m.
Proof.
  destruct v as [[|c s]|]; [eexists; reflexivity| |eexists; reflexivity].
  destruct (prefixb (bytes "none") (c :: s)) eqn:P1.
  { unfold init_amo_ops, init_env, set_env. rewrite P1. eauto. }
  destruct (prefixb (bytes "any_op") (c :: s)) eqn:P2.
  { unfold init_amo_ops, init_env, set_env. rewrite P1, P2. eauto. }
  destruct (amo_every (c :: s)) as (m & E & _).
  - discriminate.
  - intros X. apply prefixb_starts in X. congruence.
  - intros X. apply prefixb_starts in X. congruence.
  - eauto.
Qed.

Lemma numeric_ok (dflt : bool) e n : (forall s v, e n = Some s -> number s v -> - 2 ^ 31 <= v < 2 ^ 31) ->
  exists on, match getenv_nonempty e n with
             | Some s => do v <- atoi s; Ok (negb (v =? 0))
             | None => Ok dflt
             end = Ok on.
Proof.
  intros H. destruct (nonempty_cases e n) as [[_ ->]|(s & E1 & _ & ->)]; [eauto|].
  destruct (atoi_ok s) as [v ->]; [intros v; now apply H|]. cbn [bind]. eauto.
Qed.

Lemma accepted b e h : int_sized e -> init_heap_size (e "SHMEM_SYMMETRIC_SIZE"%string) = Ok h ->
  exists o, initialize_env b e = Ok o /\ op_heap o = h.
Proof.
  intros H Hh. unfold initialize_env. rewrite Hh. cbn [bind]. unfold int_sized in H.
  destruct (numeric_ok false e "SHMEM_DEBUG") as [x1 E1]; [apply H; cbn; tauto|]. unfold flag. rewrite E1. cbn [bind].
  destruct (numeric_ok false e "SHMEM_VERSION") as [x2 E2]; [apply H; cbn; tauto|]. rewrite E2. cbn [bind].
  destruct (numeric_ok false e "SHMEM_INFO") as [x3 E3]; [apply H; cbn; tauto|]. rewrite E3. cbn [bind].
  destruct (numeric_ok false e "OSHMPI_VERBOSE") as [x4 E4]; [apply H; cbn; tauto|]. rewrite E4. cbn [bind].
  destruct (amo_total (e "OSHMPI_AMO_OPS"%string)) as [x5 E5]. rewrite E5. cbn [bind].
  destruct (gpu_total (e "OSHMPI_MPI_GPU_FEATURES"%string)) as [x6 E6]. rewrite E6. cbn [bind]. cbv zeta.
  assert (A : exists x7, async_option b (dbg_mode (bc_nodebug b) e "OSHMPI_AMO_DBG_MODE") e = Ok x7).
  { unfold async_option. destruct (nonempty_cases e "OSHMPI_ENABLE_ASYNC_THREAD") as [[_ E]|(s & X1 & _ & E)]; rewrite E.
    - eexists; reflexivity.
    - destruct (bc_async b); try (eexists; reflexivity).
      destruct (atoi_ok s) as [v Ev]; [intros v; apply (H "OSHMPI_ENABLE_ASYNC_THREAD"%string); [cbn; tauto|exact X1]|].
      rewrite Ev. eexists; reflexivity. }
  destruct A as [x7 E7]. rewrite E7. cbn [bind].
  destruct (numeric_ok true e "OSHMPI_ENABLE_MPI_T") as [x8 E8]; [apply H; cbn; tauto|].
  unfold mpit_option. rewrite E8. cbn [bind]. eexists. split; [reflexivity|reflexivity].
Qed.

Lemma unset_nonempty e n : unset e n -> getenv_nonempty e n = None.
Proof. unfold unset, getenv_nonempty. intros [->| ->]; reflexivity. Qed.

Lemma defaults b e : (forall n, In n variables -> unset e n) -> exists o, initialize_env b e = Ok o /\
  op_heap o = 2 ^ 27 /\ op_debug o = false /\ op_version o = false /\ op_info o = false /\ op_verbose o = false /\
  (forall op, Z.testbit (op_amo_ops o) (amo_bit op) = true) /\
  (forall f, Z.testbit (op_gpu o) (gpu_bit f) = true) /\
  op_amo_dbg o = DbgAuto /\ op_rma_dbg o = DbgAuto /\ op_mpit o = true.
Proof.
  intros H. unfold initialize_env, flag, mpit_option, async_option, dbg_mode.
  rewrite nonempty_heap, nonempty_amo, nonempty_gpu.
  rewrite !unset_nonempty by (apply H; cbn; tauto).
  cbn [bind init_heap_size].
  eexists. split; [reflexivity|]. cbn [op_heap op_debug op_version op_info op_verbose op_amo_ops op_gpu op_amo_dbg op_rma_dbg op_mpit].
  repeat split; try (destruct (bc_nodebug b); reflexivity).
  - intros []; reflexivity.
  - intros []; reflexivity.
Qed.

Lemma async_off b e o : initialize_env b e = Ok o ->
  (bc_async b = AYes -> op_async o = true) /\ (bc_async b = ANo -> op_async o = false) /\
  (bc_async b = ARuntime -> forall s v, e "OSHMPI_ENABLE_ASYNC_THREAD"%string = Some s -> number s v ->
     (op_async o = true <-> v <> 0)).
Proof.
  intros H. apply init_parts in H. destruct H as (_ & _ & _ & _ & _ & _ & _ & _ & _ & A & _).
  unfold async_option in A. split; [|split].
  - intros E. rewrite E in A.
    destruct (getenv_nonempty e "OSHMPI_ENABLE_ASYNC_THREAD"); cbn [bind] in A; injection A as <-; reflexivity.
  - intros E. rewrite E in A.
    destruct (getenv_nonempty e "OSHMPI_ENABLE_ASYNC_THREAD"); cbn [bind] in A; injection A as <-; reflexivity.
  - intros E s v Hs Hv. rewrite E in A.
    destruct (nonempty_cases e "OSHMPI_ENABLE_ASYNC_THREAD") as [[U _]|(s' & X1 & X2 & X3)].
    + exfalso. destruct U as [U|U]; rewrite U in Hs; [discriminate Hs|]. injection Hs as <-.
      apply raw_number in Hv. apply (proj1 Hv). reflexivity.
    + rewrite X3 in A. rewrite X1 in Hs. injection Hs as <-.
      destruct (atoi s') as [w| | |] eqn:Ew; try discriminate A. cbn [bind] in A.
      apply atoi_cases in Ew. destruct Ew as [Ew|[Ew _]]; [|exfalso; exact (Ew _ Hv)].
      rewrite (number_unique _ _ _ Hv Ew). injection A as <-. cbn.
      rewrite negb_true_iff, Z.eqb_neq. tauto.
Qed.

Lemma prints b e o me : initialize_env b e = Ok o -> exists i v, switch false e "SHMEM_INFO" i /\ switch false e "OSHMPI_VERBOSE" v /\
  (prints_standard o me = true <-> me = 0 /\ (i = true \/ v = true)) /\ (prints_all o me = true <-> me = 0 /\ v = true).
Proof.
  intros H. destruct (switches b e o H) as (_ & _ & I & V & _). exists (op_info o), (op_verbose o). split; [exact I|]. split; [exact V|].
  unfold prints_standard, prints_all. rewrite !andb_true_iff, orb_true_iff, Z.eqb_eq. tauto.
Qed.

Lemma shown_modes b b' e e' o o' : initialize_env b e = Ok o -> initialize_env b' e' = Ok o' -> bc_nodebug b' = false ->
  e' "OSHMPI_AMO_DBG_MODE"%string = Some (getstr_dbg_mode (op_amo_dbg o)) -> e' "OSHMPI_RMA_DBG_MODE"%string = Some (getstr_dbg_mode (op_rma_dbg o)) ->
  op_amo_dbg o' = op_amo_dbg o /\ op_rma_dbg o' = op_rma_dbg o.
Proof.
  intros H H' N A R. apply init_parts in H'. destruct H' as (_ & _ & _ & _ & _ & _ & _ & A' & R' & _).
  unfold dbg_mode, getenv_nonempty in A', R'. rewrite N, A in A'. rewrite N, R in R'.
  split; [destruct (op_amo_dbg o); rewrite <- A' || rewrite A'; reflexivity|destruct (op_rma_dbg o); rewrite <- R' || rewrite R'; reflexivity].
Qed.
