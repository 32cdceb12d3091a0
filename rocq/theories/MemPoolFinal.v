(** The pool lemmas specialised to reachable states. *)
From Verif Require Import Base BaseProofs MemPoolModel MemPoolSpec MemPoolProofs MemPoolProofs2.

Ltac Zify.zify_post_hook ::= Z.div_mod_to_equations.

Lemma reached_inv base size page checks ops p rs :
  heap_ok base size page -> Forall (ok_req page) ops -> reached base size page checks ops p rs ->
  PInv base size page p (held page ops rs).
Proof.
  intros HH Hops (p0 & Hi & Hr).
  destruct (init_ok base size page HH) as (p0' & Hi' & HI).
  rewrite Hi in Hi'. injection Hi' as <-.
  exact (prun_inv base size page HH checks ops p0 [] p rs HI Hops Hr).
Qed.

Lemma heap_of_config base sheap k :
  0 <= k < 32 -> 0 <= base -> 0 < sheap -> sheap <= 2 ^ k * INT_MAX ->
  base + sheap + 2 ^ k <= 2 ^ 63 ->
  heap_ok base (c_align sheap (2 ^ k)) (2 ^ k) /\
  sheap <= c_align sheap (2 ^ k) < sheap + 2 ^ k.
Proof.
  intros Hk Hb Hs Hm Hov. unfold INT_MAX in *.
  assert (Hp : 0 < 2 ^ k) by (apply Z.pow_pos_nonneg; lia).
  assert (Hp32 : 2 ^ k < 2 ^ 32) by (apply Z.pow_lt_mono_r; lia).
  rewrite c_align_pow2 by lia.
  pose proof (Z.div_mod (sheap + 2 ^ k - 1) (2 ^ k) ltac:(lia)) as Hd.
  pose proof (Z.mod_pos_bound (sheap + 2 ^ k - 1) (2 ^ k) ltac:(lia)) as Hmb.
  set (q := (sheap + 2 ^ k - 1) / 2 ^ k) in *.
  assert (Hq : q < 2 ^ 31).
  { unfold q. apply Z.div_lt_upper_bound; nia. }
  split; [|lia].
  unfold heap_ok. split; [exists k; auto|].
  rewrite Z.mod_mul, Z.div_mul by lia. unfold INT_MAX. repeat split; lia.
Qed.

Lemma final_disjoint base size page checks ops p rs :
  heap_ok base size page -> Forall (ok_req page) ops -> reached base size page checks ops p rs ->
  (forall a s, In (a, s) (held page ops rs) ->
     base <= a /\ a + s <= base + size /\ (a - base) mod page = 0) /\
  ForallOrdPairs (fun b c => disjoint (fst b) (snd b) (fst c) (snd c)) (held page ops rs).
Proof.
  intros HH Hops Hr. pose proof (reached_inv _ _ _ _ _ _ _ HH Hops Hr) as HI. split.
  - intros a s Hin. destruct (live_in_range base size page HH p _ a s HI Hin) as (A & B & C & D).
    pose proof (pages_bounds base size page HH s D). repeat split; try lia; assumption.
  - pose proof (live_disjoint base size page HH p _ HI) as HD.
    assert (HL : Forall (fun b => 0 < snd b) (held page ops rs)).
    { apply Forall_forall. intros [a s] Hin.
      destruct (live_in_range base size page HH p _ a s HI Hin) as (A & B & C & D). exact D. }
    clear - HD HL HH. induction HD as [|b l Hb HD IH]; [constructor|].
    inversion HL as [|? ? H1 H2]; subst. constructor; [|auto].
    rewrite Forall_forall in *. intros c Hc. specialize (Hb c Hc). specialize (H2 c Hc).
    pose proof (pages_bounds base size page HH (snd b) H1).
    pose proof (pages_bounds base size page HH (snd c) H2).
    unfold disjoint in *. lia.
Qed.

Lemma final_safe base size page checks ops :
  heap_ok base size page -> Forall (ok_req page) ops ->
  exists p0, mempool_init base size page = Ok p0 /\
    prun checks p0 ops <> UB /\ prun checks p0 ops <> NoFuel /\
    (checks = false -> exists r, prun checks p0 ops = Ok r).
Proof.
  intros HH Hops. destruct (init_ok base size page HH) as (p0 & Hi & HI).
  exists p0. split; [exact Hi|].
  destruct (prun_safe base size page HH checks ops p0 [] HI Hops) as (A & B & C).
  repeat split; auto. intros E. specialize (C E).
  destruct (prun checks p0 ops); try tauto. eauto.
Qed.

Lemma final_alloc base size page checks ops p rs s :
  heap_ok base size page -> Forall (ok_req page) ops -> reached base size page checks ops p rs ->
  0 < s <= page * INT_MAX ->
  let room o := free_run base page (size / page) (held page ops rs) o (pages page s) in
  exists p' r, space_malloc p s = Ok (p', r) /\
    match r with
    | Some ptr => exists o, ptr = base + o * page /\ room o /\ forall o', o' < o -> ~ room o'
    | None => p' = p /\ forall o, ~ room o
    end.
Proof.
  intros HH Hops Hr Hs room. pose proof (reached_inv _ _ _ _ _ _ _ HH Hops Hr) as HI.
  destruct (alloc_spec base size page HH p _ s HI Hs) as (p' & r & E & H).
  exists p', r. split; [exact E|]. destruct r as [ptr|]; [|exact H]. destruct H as [_ H]. exact H.
Qed.

Lemma final_free base size page checks ops p rs a s t :
  heap_ok base size page -> Forall (ok_req page) ops -> reached base size page checks ops p rs ->
  In (a, s) (held page ops rs) -> 0 < t <= s -> s <= page * INT_MAX ->
  exists p', pstep checks p (PFree a) = Ok (p', None) /\
    exists p'' q, space_malloc p' t = Ok (p'', Some q).
Proof.
  intros HH Hops Hr Hin Ht Hs. pose proof (reached_inv _ _ _ _ _ _ _ HH Hops Hr) as HI.
  exact (free_then_malloc base size page HH checks p _ a s t HI Hin Ht Hs).
Qed.

Lemma final_bad_free base size page checks ops p rs ptr :
  heap_ok base size page -> Forall (ok_req page) ops -> reached base size page checks ops p rs ->
  (forall a s, In (a, s) (held page ops rs) -> ~ (a <= ptr < a + page)) ->
  pstep checks p (PFree ptr) =
    if (base <=? ptr) && (ptr <? base + size) && checks then Abort else Ok (p, None).
Proof.
  intros HH Hops Hr Hno. pose proof (reached_inv _ _ _ _ _ _ _ HH Hops Hr) as HI.
  simpl. unfold in_pool. rewrite (inv_base _ _ _ _ _ HI), (inv_size _ _ _ _ _ HI).
  destruct ((base <=? ptr) && (ptr <? base + size)) eqn:Ein; [|reflexivity].
  assert (Hin : in_pool p ptr = true).
  { unfold in_pool. rewrite (inv_base _ _ _ _ _ HI), (inv_size _ _ _ _ _ HI). exact Ein. }
  destruct (free_spec base size page HH checks p _ ptr HI Hin)
    as [((b & Hb & Hh) & _)|(_ & E)].
  - exfalso. destruct b as [a s]. apply (Hno a s Hb). unfold hit in Hh. simpl in Hh. lia.
  - rewrite E. destruct checks; reflexivity.
Qed.

Lemma final_destroy base size page checks ops p rs :
  heap_ok base size page -> Forall (ok_req page) ops -> reached base size page checks ops p rs ->
  mempool_destroy p = match held page ops rs with [] => Ok tt | _ => Abort end.
Proof.
  intros HH Hops Hr. pose proof (reached_inv _ _ _ _ _ _ _ HH Hops Hr) as HI.
  destruct (destroy_spec base size page p _ HI) as [A B].
  destruct (held page ops rs); [apply A; reflexivity | apply B; discriminate].
Qed.

Lemma final_zero base size page checks ops p rs :
  heap_ok base size page -> Forall (ok_req page) ops -> reached base size page checks ops p rs ->
  (page_free base page (held page ops rs) (size / page - 1) -> space_malloc p 0 = Ok (p, None)) /\
  (~ page_free base page (held page ops rs) (size / page - 1) -> space_malloc p 0 = UB).
Proof.
  intros HH Hops Hr. pose proof (reached_inv _ _ _ _ _ _ _ HH Hops Hr) as HI.
  exact (alloc_zero base size page HH p _ HI).
Qed.

Lemma final_align base size page checks ops p rs j s :
  heap_ok base size page -> Forall (ok_req page) ops -> reached base size page checks ops p rs ->
  0 <= j < 32 -> 0 < s -> s + 2 ^ j <= page * INT_MAX ->
  exists p' r, space_align p (2 ^ j) s = Ok (p', r) /\
    match r with
    | Some ptr =>
        base <= ptr /\ ptr + s <= base + size /\
        (forall a n, In (a, n) (held page ops rs) -> disjoint ptr s a n) /\
        (base mod page = 0 -> 2 ^ j <= page -> ptr mod 2 ^ j = 0)
    | None => p' = p
    end.
Proof.
  intros HH Hops Hr Hj Hs Hov. pose proof (reached_inv _ _ _ _ _ _ _ HH Hops Hr) as HI.
  pose proof (page_pos _ _ _ HH) as Hp. pose proof (page_small _ _ _ HH) as Hps.
  assert (Hjp : 0 < 2 ^ j) by (apply Z.pow_pos_nonneg; lia).
  assert (Hov64 : s + 2 ^ j <= 2 ^ 64) by (unfold INT_MAX in Hov; nia).
  assert (Hc : c_align s (2 ^ j) <= page * INT_MAX).
  { rewrite c_align_pow2 by lia.
    pose proof (Z.div_mod (s + 2 ^ j - 1) (2 ^ j) ltac:(lia)).
    pose proof (Z.mod_pos_bound (s + 2 ^ j - 1) (2 ^ j) ltac:(lia)). lia. }
  destruct (align_spec base size page HH p _ j s HI Hj Hs Hc Hov64) as (p' & r & E & H).
  exists p', r. split; [exact E|]. destruct r as [ptr|]; [|exact H].
  destruct H as (s' & Hss & HI' & Hal).
  destruct (live_in_range base size page HH p' _ ptr s' HI' (or_introl eq_refl)) as (A & B & C & D).
  pose proof (pages_bounds base size page HH s' D) as Hpb.
  split; [lia|]. split; [lia|]. split; [|exact Hal].
  intros a n Hin.
  pose proof (live_disjoint base size page HH p' _ HI') as HD.
  inversion HD as [|? ? Hx _]; subst. rewrite Forall_forall in Hx. specialize (Hx _ Hin).
  simpl in Hx.
  destruct (live_in_range base size page HH p _ a n HI Hin) as (A' & B' & C' & D').
  pose proof (pages_bounds base size page HH n D'). unfold disjoint in *. lia.
Qed.

Lemma final_calloc base size page checks ops p rs m s o :
  heap_ok base size page -> Forall (ok_req page) ops -> reached base size page checks ops p rs ->
  0 < s <= page * INT_MAX ->
  free_run base page (size / page) (held page ops rs) o (pages page s) ->
  exists p' m' ptr, space_calloc p m 1 s = Ok (p', m', Some ptr) /\
    base <= ptr /\ ptr + s <= base + size /\
    (forall a n, In (a, n) (held page ops rs) -> disjoint ptr s a n) /\
    (forall a, ptr <= a < ptr + 1 * s -> m' a = 0) /\
    (forall a, ~ (ptr <= a < ptr + s) -> m' a = m a).
Proof.
  intros HH Hops Hr Hs Ho. pose proof (reached_inv _ _ _ _ _ _ _ HH Hops Hr) as HI.
  destruct (calloc_one base size page HH p _ m s HI Hs (ex_intro _ o Ho))
    as (p' & m' & ptr & E & HI' & H1 & H2).
  exists p', m', ptr. split; [exact E|].
  destruct (live_in_range base size page HH p' _ ptr s HI' (or_introl eq_refl)) as (A & B & C & D).
  pose proof (pages_bounds base size page HH s D) as Hpb.
  split; [lia|]. split; [lia|]. split; [|split; assumption].
  intros a n Hin.
  pose proof (live_disjoint base size page HH p' _ HI') as HD.
  inversion HD as [|? ? Hx _]; subst. rewrite Forall_forall in Hx. specialize (Hx _ Hin).
  simpl in Hx.
  destruct (live_in_range base size page HH p _ a n HI Hin) as (A' & B' & C' & D').
  pose proof (pages_bounds base size page HH n D'). unfold disjoint in *. lia.
Qed.

Lemma space_created base sheap k :
  0 <= k < 32 -> 0 <= base -> 0 < sheap -> sheap <= 2 ^ k * INT_MAX ->
  base + sheap + 2 ^ k <= 2 ^ 63 ->
  exists p size p', space_pool base sheap (2 ^ k) = Ok p /\
    sheap <= size < sheap + 2 ^ k /\ heap_ok base size (2 ^ k) /\
    reached base size (2 ^ k) true [] p [] /\ space_malloc p sheap = Ok (p', Some base).
Proof.
  intros Hk Hb Hs Hm Hov. destruct (heap_of_config base sheap k Hk Hb Hs Hm Hov) as (HH & Hsz).
  assert (Hp : 0 < 2 ^ k) by (apply Z.pow_pos_nonneg; lia).
  destruct (init_ok base _ _ HH) as (p & Hi & _). set (size := c_align sheap (2 ^ k)) in *.
  assert (HR : reached base size (2 ^ k) true [] p []) by (exists p; split; [exact Hi|reflexivity]).
  destruct (final_alloc base size (2 ^ k) true [] p [] sheap HH (Forall_nil _) HR (conj Hs Hm)) as (p' & r & Ha & Hr).
  assert (H0 : free_run base (2 ^ k) (size / 2 ^ k) (held (2 ^ k) [] []) 0 (pages (2 ^ k) sheap)).
  { split; [lia|]. split.
    - destruct HH as (_ & _ & _ & Hmod & _). unfold pages. apply Z.div_le_lower_bound; [lia|].
      pose proof (Z.div_mod size (2 ^ k) ltac:(lia)) as Hd. rewrite Hmod in Hd.
      assert ((sheap + 2 ^ k - 1) / 2 ^ k < size / 2 ^ k + 1) by (apply Z.div_lt_upper_bound; nia). nia.
    - intros i Hi'. unfold page_free. cbn. intros; contradiction. }
  exists p, size, p'. split; [exact Hi|]. split; [exact Hsz|]. split; [exact HH|]. split; [exact HR|].
  rewrite Ha. destruct r as [ptr|]; [|destruct Hr as (_ & Hr); destruct (Hr 0 H0)].
  destruct Hr as (o & -> & (Ho & _) & Hmin). destruct (Z.eq_dec o 0) as [->|N].
  - do 3 f_equal. lia.
  - destruct (Hmin 0 ltac:(lia) H0).
Qed.
