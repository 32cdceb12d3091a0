(** Histories of calls with the bins. *)
From Verif Require Import Base BaseProofs SobjModel HeapModel HeapSpec HeapProofs HeapProofs2 HeapProofs3
  DlModel DlSpec DlProofs3 DlProofs4 DlProofs5 DlProofs6.

Definition allocates (op : hop) : bool := match op with HFree _ => false | _ => true end.

Lemma hstep_length b size pol os past st op st' : hstep b size pol os past st op = Ok st' ->
  length (s_tbl st') = (length (s_tbl st) + (if allocates op then 1 else 0))%nat.
Proof.
  assert (U : forall (A : Type) (l : list A) k x, length (upd l k x) = length l).
  { intros A l. induction l as [|y l IH]; intros [|k] x; cbn; auto. }
  intros E. destruct st as [h m t lk]. destruct op as [n|n s|al n|k|k n]; cbn in *; unfold bind, push in E; cbn in E.
  - destruct (n =? 0); [|destruct (m_malloc _ _ _ _) as [[]| | |]; try discriminate]; inversion E; subst; cbn;
      now rewrite app_length.
  - destruct (_ || _); [|destruct (m_malloc _ _ _ _) as [[]| | |]; try discriminate]; inversion E; subst; cbn;
      now rewrite app_length.
  - destruct (m_memalign _ _ _ _ _ _) as [[]| | |]; try discriminate; inversion E; subst; cbn; now rewrite app_length.
  - destruct (nth_error t k) as [[[[] ?]|]|]; try discriminate;
      try (destruct (check_range _ _); [destruct (m_free _ _); try discriminate|]);
      inversion E; subst; cbn; rewrite U; lia.
  - destruct (nth_error t k) as [[[[] ?]|]|]; try discriminate.
    + destruct (n =? 0); [|destruct (m_malloc _ _ _ _) as [[]| | |]; try discriminate]; inversion E; subst; cbn;
        now rewrite app_length.
    + destruct (m_realloc _ _ _ _ _) as [[[[] ?] ?]| | |]; try discriminate; inversion E; subst; cbn;
        now rewrite app_length, ?U.
    + destruct (pol past h (request2size n)).
      3: destruct (MAX_REQUEST <=? n); inversion E; subst; cbn; now rewrite app_length, ?U.
      all: destruct (m_malloc _ _ _ _) as [[[] ?]| | |]; try discriminate; inversion E; subst; cbn;
        now rewrite app_length, ?U.
Qed.

Lemma hstep_ext b size pol pol' os os' past st op : pol past = pol' past ->
  (allocates op = true -> os (length (s_tbl st)) = os' (length (s_tbl st))) ->
  hstep b size pol os past st op = hstep b size pol' os' past st op.
Proof.
  intros E1 E2. destruct op; cbn in *; try (rewrite E2 by reflexivity); rewrite ?E1; reflexivity.
Qed.

Lemma hrun_ext b size pol pol' os os' ops : forall past st,
  (forall p, (length past <= length p)%nat -> pol p = pol' p) ->
  (forall k, (length (s_tbl st) <= k)%nat -> os k = os' k) ->
  hrun b size pol os past st ops = hrun b size pol' os' past st ops.
Proof.
  induction ops as [|op ops IH]; intros past st E1 E2; cbn [hrun]; [reflexivity|].
  rewrite (hstep_ext b size pol pol' os os' past st op) by auto.
  destruct (hstep b size pol' os' past st op) as [st1| | |] eqn:E; cbn [bind]; try reflexivity.
  apply hstep_length in E. apply IH.
  - intros p L. apply E1. rewrite app_length in L. lia.
  - intros k L. apply E2. lia.
Qed.

Lemma drun_ok T base size ops : forall past st, dI T st -> (16 | base) -> Forall (fun x => sane (fst x)) ops ->
  match drun base size st ops with
  | Ok st' => dI T st' /\ exists pol os, hrun base size pol os past (plain st) (map fst ops) = Ok (plain st')
  | Abort => False
  | _ => True
  end.
Proof.
  induction ops as [|[op [sys a]] ops IH]; intros past st I Db S; cbn [drun].
  - split; [exact I|]. exists (fun _ _ _ => PNone), (fun _ => 0). reflexivity.
  - apply Forall_cons_iff in S as [S1 S2]. cbn [fst] in S1.
    pose proof (dstep_ok T base size sys a st op I Db S1) as G.
    destruct (dstep base size sys a st op) as [st1| | |]; cbn [bind]; try easy.
    destruct G as [I1 (pk & E)].
    specialize (IH (past ++ [op]) st1 I1 Db S2). destruct (drun base size st1 ops) as [st2| | |]; try easy.
    destruct IH as [I2 (pol & os & R)]. split; [exact I2|].
    exists (fun p => if (length p =? length past)%nat then (fun _ _ => pk) else pol p).
    exists (fun k => if allocates op && (k =? length (t_tbl st))%nat then a else os k).
    cbn [map fst hrun].
    set (POL := fun p => if (length p =? length past)%nat then (fun _ _ => pk) else pol p).
    set (OS := fun k => if allocates op && (k =? length (t_tbl st))%nat then a else os k).
    assert (E1 : hstep base size POL OS past (plain st) op = Ok (plain st1)).
    { rewrite <- (E POL (fun _ => a) past); [|unfold POL; now rewrite Nat.eqb_refl|reflexivity].
      apply hstep_ext; [reflexivity|]. intros A. unfold OS. cbn [plain s_tbl]. now rewrite A, Nat.eqb_refl. }
    rewrite E1. cbn [bind]. rewrite <- R. apply hstep_length in E1. cbn [plain s_tbl] in E1.
    apply hrun_ext.
    + intros p L. unfold POL. rewrite app_length in L. cbn in L.
      destruct (Nat.eqb_spec (length p) (length past)); [lia|reflexivity].
    + intros k L. unfold OS. cbn [plain s_tbl] in L. destruct (allocates op); [|reflexivity]. cbn [andb].
      destruct (Nat.eqb_spec k (length (t_tbl st))); [lia|reflexivity].
Qed.

Lemma dstart_ok env page b mem st0 : setting env page b -> heap_true_size env page <= 2 ^ 40 ->
  dstart env page mem = Ok st0 ->
  dI (heap_true_size env page) st0 /\ hstart env page mem = Ok (plain st0).
Proof.
  intros S L E. unfold dstart in E. destruct (init_heap env page) as [h| | |] eqn:EH; try discriminate.
  cbn [bind] in E. injection E as <-.
  assert (HS : hstart env page mem = Ok (Hst h mem [] [])) by (unfold hstart; now rewrite EH).
  split; [|exact HS]. pose proof HS as HS'. apply (hstart_iv env page b) in HS' as [V _]; [|exact S].
  split; [|exact V]. assert (EQ : h_ch h = [] /\ h_top h <> None).
  { unfold init_heap, create_mspace in EH. destruct (_ && _); [|discriminate]. injection EH as <-. easy. }
  destruct EQ as [EQ ET]. split; auto.
  - exact (i_wf _ _ _ _ V).
  - cbn [t_dl d_h d_b]. apply (DB_ext _ (fun _ _ => False)).
    + intros x y. unfold fr, free_blocks. rewrite EQ. cbn. tauto.
    + split; [|now left]. refine (BI_ext _ _ _ _ BI0). intros x y. tauto.
Qed.

Lemma dreaches_ok env page b ops st : dreaches env page b ops st -> heap_true_size env page <= 2 ^ 40 ->
  dI (heap_true_size env page) st /\ reaches env page b (map fst ops) (plain st).
Proof.
  intros (mem & st0 & S & F & E0 & E) L.
  destruct (dstart_ok _ _ _ _ _ S L E0) as [I0 H0].
  pose proof (drun_ok _ b (heap_size env page) ops [] st0 I0 ltac:(apply S) F) as G. rewrite E in G.
  destruct G as [I (pol & os & R)]. split; [exact I|].
  exists pol, os, mem, (plain st0). split; [exact S|]. split; [|split; auto].
  rewrite Forall_map. exact F.
Qed.

(** ** Two PEs *)
Lemma malloc_rest_os d nb sys os1 os2 r1 d1 : malloc_rest d nb sys os1 = Ok (r1, d1) ->
  exists r2, malloc_rest d nb sys os2 = Ok (r2, d1) /\ mrel r1 r2.
Proof.
  unfold malloc_rest, bind. intros E.
  repeat match type of E with
  | context [match ?x with _ => _ end] => destruct x; try discriminate
  | context [if ?x then _ else _] => destruct x; try discriminate
  end; injection E as <- <-; eexists; (split; [reflexivity|]); cbn; auto.
Qed.

Lemma d_malloc_os d n sys os1 os2 r1 d1 : d_malloc d n sys os1 = Ok (r1, d1) ->
  exists r2, d_malloc d n sys os2 = Ok (r2, d1) /\ mrel r1 r2.
Proof.
  unfold d_malloc, bind. cbv zeta. intros E.
  repeat match type of E with
  | malloc_rest _ _ _ _ = _ => fail 1
  | context [match ?x with _ => _ end] => destruct x; try discriminate
  | context [if ?x then _ else _] => destruct x; try discriminate
  end; try (now apply malloc_rest_os with os1);
  injection E as <- <-; eexists; (split; [reflexivity|]); cbn; auto.
Qed.

Lemma d_lead_base b1 b2 d o k : 0 <= k -> (b1 - b2) mod 2 ^ k = 0 ->
  d_lead b1 d o (2 ^ k) = d_lead b2 d o (2 ^ k).
Proof.
  intros Hk M. assert (P : 0 < 2 ^ k) by (apply Z.pow_pos_nonneg; lia).
  apply Z.mod_divide in M as [q Q]; [|lia].
  assert (B : b1 = b2 + q * 2 ^ k) by lia. subst b1.
  unfold d_lead. cbv zeta. rewrite !pow2_land_mod by easy. rewrite !pow2_align_up by easy.
  assert (E1 : (b2 + q * 2 ^ k + o + MEM_OFF) mod 2 ^ k = (b2 + o + MEM_OFF) mod 2 ^ k).
  { replace (b2 + q * 2 ^ k + o + MEM_OFF) with (b2 + o + MEM_OFF + q * 2 ^ k) by lia.
    apply Z.mod_add. lia. }
  rewrite E1. destruct (_ =? 0); [reflexivity|].
  assert (E2 : (b2 + q * 2 ^ k + o + MEM_OFF + 2 ^ k - 1) / 2 ^ k = (b2 + o + MEM_OFF + 2 ^ k - 1) / 2 ^ k + q).
  { replace (b2 + q * 2 ^ k + o + MEM_OFF + 2 ^ k - 1) with (b2 + o + MEM_OFF + 2 ^ k - 1 + q * 2 ^ k) by lia.
    apply Z.div_add. lia. }
  rewrite E2.
  replace (2 ^ k * ((b2 + o + MEM_OFF + 2 ^ k - 1) / 2 ^ k + q) - MEM_OFF - (b2 + q * 2 ^ k))
    with (2 ^ k * ((b2 + o + MEM_OFF + 2 ^ k - 1) / 2 ^ k) - MEM_OFF - b2) by lia.
  reflexivity.
Qed.

Lemma d_memalign_base b1 b2 d al n sys os1 os2 r1 d1 : sizet al -> is_pow2 al ->
  (b1 - b2) mod al = 0 -> d_memalign b1 d al n sys os1 = Ok (r1, d1) ->
  exists r2, d_memalign b2 d al n sys os2 = Ok (r2, d1) /\ mrel r1 r2.
Proof.
  intros Ha (j & J & ->) M E. unfold d_memalign in *. destruct (Z.leb_spec (2 ^ j) 16) as [L|L].
  - eapply d_malloc_os; eauto.
  - assert (J5 : 5 <= j).
    { change 16 with (2 ^ 4) in L. apply Z.pow_lt_mono_r_iff in L; lia. }
    unfold sizet in Ha. assert (J64 : j < 64) by (apply (Z.pow_lt_mono_r_iff 2); lia).
    rewrite memalign_alignment_pow2 in * by lia. cbn [bind] in *.
    destruct (_ <=? n); [inversion E; subst; exists MNull; split; [reflexivity|exact Logic.I]|].
    cbv zeta in *. set (req := wrap64 _) in *. unfold bind at 1. unfold bind at 1 in E.
    destruct (d_malloc d req sys os1) as [[r d']| | |] eqn:EM; try discriminate.
    destruct (d_malloc_os _ _ _ _ os2 _ _ EM) as (r2 & EM2 & R). rewrite EM2.
    destruct r as [o s|a|], r2 as [o' s'|a'|]; try easy.
    + destruct R as [<- <-]. rewrite <- (d_lead_base b1 b2 d' o j) by (easy || lia).
      destruct (d_lead b1 d' o (2 ^ j)) as [[o2 h2]| | |]; try discriminate. cbn [bind] in *.
      destruct (d_trim h2 o2 _) as [[s3 h3]| | |]; try discriminate. cbn [bind] in *.
      inversion E; subst. eexists. split; [reflexivity|]. split; reflexivity.
    + inversion E; subst. eexists. split; [reflexivity|exact Logic.I].
    + inversion E; subst. eexists. split; [reflexivity|exact Logic.I].
Qed.

Lemma d_realloc_os d o n sys os1 os2 r1 d1 cp : d_realloc d o n sys os1 = Ok (r1, d1, cp) ->
  exists r2, d_realloc d o n sys os2 = Ok (r2, d1, cp) /\ mrel r1 r2.
Proof.
  intros E. unfold d_realloc in *. destruct (MAX_REQUEST <=? n).
  { inversion E; subst. exists MNull. split; [reflexivity|exact Logic.I]. }
  destruct (locate MSIZE (h_ch (d_h d)) (o - MEM_OFF)) as [[[pre [s []]] post]|]; try discriminate.
  destruct (d_try_realloc d _ pre s post (request2size n)) as [[s1 h2]|].
  { inversion E; subst. eexists. split; [reflexivity|]. split; reflexivity. }
  unfold bind at 1. unfold bind at 1 in E.
  destruct (d_malloc d n sys os1) as [[r d']| | |] eqn:EM; try discriminate.
  destruct (d_malloc_os _ _ _ _ os2 _ _ EM) as (r2 & EM2 & R). rewrite EM2.
  destruct r as [o1 s1|a|], r2 as [o' s'|a'|]; try easy.
  - destruct R as [<- <-]. destruct (d_free d' o) as [h2| | |]; try discriminate. cbn [bind] in *.
    inversion E; subst. eexists. split; [reflexivity|]. split; reflexivity.
  - destruct (d_free d' o) as [h2| | |]; try discriminate. cbn [bind] in *.
    inversion E; subst. eexists. split; [reflexivity|exact Logic.I].
  - inversion E; subst. eexists. split; [reflexivity|exact Logic.I].
Qed.

Definition drel (s1 s2 : dst) : Prop :=
  t_dl s1 = t_dl s2 /\ t_leak s1 = t_leak s2 /\ Forall2 same_ptr (t_tbl s1) (t_tbl s2).

Lemma dstep_same b1 b2 size sys os1 os2 s1 s2 op s1' :
  drel s1 s2 -> sane op -> base_ok b1 b2 op -> dstep b1 size sys os1 s1 op = Ok s1' ->
  exists s2', dstep b2 size sys os2 s2 op = Ok s2' /\ drel s1' s2'.
Proof.
  intros (Hh & Hl & Hb) Hs B E.
  destruct s1 as [d m1 t1 lk], s2 as [d2 m2 t2 lk2]. cbn [t_dl t_tbl t_leak t_mem] in *. subst d2 lk2.
  destruct op as [n|n s|al n|k|k n]; unfold dstep in *; cbn [t_dl t_tbl t_leak t_mem] in *.
  - destruct (n =? 0).
    + inversion E; subst. eexists. split; [reflexivity|]. repeat split; auto. now apply same_snoc.
    + unfold bind in *. destruct (d_malloc _ _ _ os1) as [[r d']| | |] eqn:EM; try discriminate.
      destruct (d_malloc_os _ _ _ _ os2 _ _ EM) as (r2 & EM2 & R). rewrite EM2.
      inversion E; subst. eexists. split; [reflexivity|]. repeat split; auto.
      apply same_snoc; [easy|now apply mrel_ptr].
  - destruct ((n =? 0) || (s =? 0)).
    + inversion E; subst. eexists. split; [reflexivity|]. repeat split; auto. now apply same_snoc.
    + cbv zeta in *. unfold bind in *.
      destruct (d_malloc _ _ _ os1) as [[r h']| | |] eqn:EM; try discriminate.
      destruct (d_malloc_os _ _ _ _ os2 _ _ EM) as (r2 & EM2 & R). rewrite EM2.
      inversion E; subst. eexists. split; [reflexivity|]. repeat split; auto.
      apply same_snoc; [easy|now apply mrel_ptr].
  - destruct B as [B1 B2]. destruct Hs as [Hs _]. unfold bind in *.
    destruct (d_memalign b1 _ _ _ _ _) as [[r h']| | |] eqn:EM; try discriminate.
    destruct (d_memalign_base b1 b2 _ _ _ _ _ os2 _ _ Hs B1 B2 EM) as (r2 & EM2 & R).
    rewrite EM2. inversion E; subst. eexists. split; [reflexivity|]. repeat split; auto.
    apply same_snoc; [easy|now apply mrel_ptr].
  - pose proof (same_nth t1 t2 k Hb) as N. pose proof (same_upd t1 t2 k Hb) as U.
    destruct (nth_error t1 k) as [[[p1 n1]|]|]; try discriminate.
    destruct (nth_error t2 k) as [[[p2 n2]|]|]; try easy.
    2: { destruct p1; easy. }
    destruct p1 as [|o1|a1], p2 as [|o2|a2]; try easy; cbn in N.
    + inversion E; subst. eexists. split; [reflexivity|]. repeat split; auto.
    + destruct N as [<- <-].
      assert (C : check_range (b1 + o1) (mkAttr 0 b1 size None) = check_range (b2 + o1) (mkAttr 0 b2 size None)).
      { unfold check_range. cbn. lia. }
      rewrite C in E. destruct (check_range (b2 + o1) _).
      * unfold bind in *. destruct (d_free d o1) as [h'| | |]; try discriminate.
        inversion E; subst. eexists. split; [reflexivity|]. repeat split; auto.
      * inversion E; subst. eexists. split; [reflexivity|]. repeat split; auto.
    + inversion E; subst. eexists. split; [reflexivity|]. repeat split; auto.
  - pose proof (same_nth t1 t2 k Hb) as N. pose proof (same_upd t1 t2 k Hb) as U.
    destruct (nth_error t1 k) as [[[p1 n1]|]|]; try discriminate.
    destruct (nth_error t2 k) as [[[p2 n2]|]|]; try easy.
    2: { destruct p1; easy. }
    destruct p1 as [|o1|a1], p2 as [|o2|a2]; try easy; cbn in N.
    + destruct (n =? 0).
      * inversion E; subst. eexists. split; [reflexivity|]. repeat split; auto. now apply same_snoc.
      * unfold bind in *. destruct (d_malloc _ _ _ os1) as [[r h']| | |] eqn:EM; try discriminate.
        destruct (d_malloc_os _ _ _ _ os2 _ _ EM) as (r2 & EM2 & R). rewrite EM2.
        inversion E; subst. eexists. split; [reflexivity|]. repeat split; auto.
        apply same_snoc; [easy|now apply mrel_ptr].
    + destruct N as [<- <-]. unfold bind in *. cbv zeta in *.
      destruct (d_realloc d o1 n sys os1) as [[[r h'] cp]| | |] eqn:EM; try discriminate.
      destruct (d_realloc_os _ _ _ _ _ os2 _ _ _ EM) as (r2 & EM2 & R). rewrite EM2.
      destruct r, r2; try easy; inversion E; subst; clear E; eexists; (split; [reflexivity|]);
        (split; [reflexivity|split; [reflexivity|]]); apply same_snoc; auto;
        try (cbn in *; intuition congruence).
    + unfold bind in *.
      assert (G : forall r r2 h', mrel r r2 ->
        match r with
        | MNull => Ok (dpush (Dst d m1 t1 lk) h' m1 PNull n)
        | _ => Ok (Dst h' m1 (upd t1 k None ++ [Some (ptr_of r, n)]) lk)
        end = Ok s1' ->
        exists s2', match r2 with
        | MNull => Ok (dpush (Dst d m2 t2 lk) h' m2 PNull n)
        | _ => Ok (Dst h' m2 (upd t2 k None ++ [Some (ptr_of r2, n)]) lk)
        end = Ok s2' /\ drel s1' s2').
      { intros r r2 h' R E'. destruct r, r2; try easy; inversion E'; subst; clear E'; eexists;
          (split; [reflexivity|]); (split; [reflexivity|split; [reflexivity|]]); apply same_snoc; auto;
          try (cbn in *; intuition congruence). }
      destruct sys.
      3: { eapply G; [|exact E]. destruct (MAX_REQUEST <=? n); exact Logic.I. }
      all: match type of E with context [d_malloc ?dd ?nn ?s ?oo] =>
             destruct (d_malloc dd nn s oo) as [[r h']| | |] eqn:EM end; try discriminate;
        destruct (d_malloc_os _ _ _ _ os2 _ _ EM) as (r2 & EM2 & R); rewrite EM2;
        eapply G; eauto.
Qed.

Lemma drun_same b1 b2 size ops1 : forall ops2 s1 s2 s1',
  drel s1 s2 -> Forall (fun x => sane (fst x)) ops1 -> Forall (fun x => base_ok b1 b2 (fst x)) ops1 ->
  alike ops1 ops2 -> drun b1 size s1 ops1 = Ok s1' ->
  exists s2', drun b2 size s2 ops2 = Ok s2' /\ drel s1' s2'.
Proof.
  induction ops1 as [|[op [sys a1]] ops1 IH]; intros [|[op2 [sys2 a2]] ops2] s1 s2 s1' R S B [A1 A2] E;
    try discriminate; cbn [drun] in *.
  - inversion E; subst. eauto.
  - cbn [map fst snd] in A1, A2. injection A1 as <- A1. injection A2 as <- A2.
    inversion S; inversion B; subst. cbn [fst] in *. unfold bind in E.
    destruct (dstep b1 size sys a1 s1 op) as [s1a| | |] eqn:E1; try discriminate.
    destruct (dstep_same b1 b2 size sys a1 a2 s1 s2 op s1a R) as (s2a & E2 & R2); auto.
    rewrite E2. cbn [bind]. eapply IH; eauto. now split.
Qed.
