From Coq Require Import String FinFun.
From Verif Require Import Base EnvModel InfoModel InfoSpec.
Open Scope string_scope.
Open Scope Z_scope.

Lemma op_list_mono m m' l : m <= m' -> forall buf r, op_list m l buf = Ok r -> op_list m' l buf = Ok r.
Proof.
  intros M. induction l as [|o l IH]; intros buf r; cbn [op_list]; [auto|]. cbv zeta.
  match goal with |- (if Z.of_nat ?x <? m then _ else _) = _ -> _ => destruct (Z.ltb_spec (Z.of_nat x) m) as [L|L]; [|discriminate];
    destruct (Z.ltb_spec (Z.of_nat x) m'); [|lia] end.
  apply IH.
Qed.
Lemma sum_bit ops : Z.testbit ops 1 || negb (ops =? 0) || Z.testbit ops 3 || Z.testbit ops 4 = negb (ops =? 0).
Proof. destruct (Z.eqb_spec ops 0) as [->|N]; [reflexivity|]. cbn [negb]. rewrite orb_true_r. reflexivity. Qed.
Lemma which_form ops : exists c0 c1 c2 c3 c4 c5 c6 : bool,
  let l := ((if c0 then [OCas] else []) ++ (if c1 then [OSum] else []) ++ (if c2 then [ONoOp] else []) ++ (if c3 then [OReplace] else []) ++
            (if c4 then [OBand] else []) ++ (if c5 then [OBor] else []) ++ (if c6 then [OBxor] else []))%list in
  h_which (set_mpi_info_args ops) = l /\
  h_acc (set_mpi_info_args ops) = (if Z.of_nat (List.length l) =? 1 then HSameOp else HSameOpNoOp) /\
  spelled ops = ((if c0 then ["cswap"] else []) ++ (if c1 then ["sum"] else []) ++ (if c2 then ["no_op"] else []) ++
    (if c3 then ["replace"] else []) ++ (if c4 then ["band"] else []) ++ (if c5 then ["bor"] else []) ++ (if c6 then ["bxor"] else []))%list.
Proof.
  exists (Z.testbit ops 0), (negb (ops =? 0)), (Z.testbit ops 5), (Z.testbit ops 6 || Z.testbit ops 7), (Z.testbit ops 8 || Z.testbit ops 9),
    (Z.testbit ops 10 || Z.testbit ops 11), (Z.testbit ops 12 || Z.testbit ops 13).
  cbv zeta. unfold set_mpi_info_args. cbv zeta. rewrite sum_bit.
  match goal with |- context [if ?x =? 1 then _ else _] => destruct (x =? 1) end;
    [|match goal with |- context [if (?x =? 2) && ?y then _ else _] => destruct ((x =? 2) && y) end];
    (split; [reflexivity|split; [reflexivity|unfold spelled; destruct (ops =? 0); reflexivity]]).
Qed.
Lemma text_ok maxlen ops : 38 <= maxlen ->
  (exists buf, op_list maxlen (h_which (set_mpi_info_args ops)) "" = Ok buf /\
    (if (String.length buf =? 0)%nat then "none" else buf) = ops_text ops) /\
  acc_text (h_acc (set_mpi_info_args ops)) = acc_wanted ops.
Proof.
  intros M. unfold ops_text, acc_wanted. destruct (which_form ops) as (c0 & c1 & c2 & c3 & c4 & c5 & c6 & E1 & E2 & E3).
  rewrite E1, E2, E3. clear E1 E2 E3.
  destruct c0, c1, c2, c3, c4, c5, c6; cbn [app];
    (split; [eexists; split; [apply (op_list_mono 38 maxlen _ M); vm_compute; reflexivity|vm_compute; reflexivity]|reflexivity]).
Qed.

Definition base_args (ops : Z) (i : info) : info :=
  info_set (info_set (info_set (info_set i "which_accumulate_ops" (ops_text ops)) "accumulate_ops" (acc_wanted ops))
    "disable_shm_accumulate" "true") "accumulate_ordering" "none".
Lemma set_args_ok checks maxlen ops i : 38 <= maxlen -> set_args checks maxlen ops i = Ok (base_args ops i).
Proof.
  intros M. unfold set_args. cbv zeta. replace (Z.of_nat (String.length "cswap,sum,band,bor,bxor,no_op,replace") + 1 <=? maxlen) with true
    by (change (String.length "cswap,sum,band,bor,bxor,no_op,replace") with 37%nat; lia).
  cbn [c_assert bind]. destruct (text_ok maxlen ops M) as ((buf & -> & E) & F). cbn [bind]. rewrite E, F. reflexivity.
Qed.
Ltac keys key :=
  repeat match goal with |- context [String.eqb key ?k] => destruct (String.eqb_spec key k); [subst key; cbn; try reflexivity|] end; cbn; try reflexivity.
Lemma info_data ops : info_ok ops [] WData (base_args ops info_create).
Proof. intros key. unfold base_args, info_set, info_create, wanted. keys key. Qed.
Lemma info_heap ops : info_ok ops [] WHeap (base_args ops (info_set info_create "alloc_shm" "true")).
Proof. intros key. unfold base_args, info_set, info_create, wanted. keys key. Qed.
Lemma info_symm ops : info_ok ops [] WSymm (info_set (base_args ops info_create) "coll_attach" "true").
Proof. intros key. unfold base_args, info_set, info_create, wanted. keys key. Qed.
Lemma has_bit h n : 0 <= n -> has h (2 ^ n) = Z.testbit h n.
Proof.
  intros N. unfold has. destruct (Z.testbit h n) eqn:T.
  - destruct (Z.eqb_spec (Z.land h (2 ^ n)) 0) as [E|]; [|reflexivity]. exfalso.
    assert (X : Z.testbit (Z.land h (2 ^ n)) n = true) by (rewrite Z.land_spec, T, Z.pow2_bits_true by lia; reflexivity).
    rewrite E, Z.bits_0 in X. discriminate.
  - replace (Z.land h (2 ^ n)) with 0; [reflexivity|]. symmetry. apply Z.bits_inj'. intros k K. rewrite Z.land_spec, Z.bits_0.
    destruct (Z.eq_dec k n) as [->|D]; [rewrite T; reflexivity|]. rewrite Z.pow2_bits_false by lia. apply andb_false_r.
Qed.
Lemma info_space ops h w : owner w <> None -> forall key, space_args h (base_args ops info_create) key = wanted ops w (preference h) key.
Proof.
  intros O key. unfold space_args, preference. change MR_PREFERRED with (2 ^ 1). change LAT_PREFERRED with (2 ^ 0). rewrite !has_bit by lia.
  destruct (Z.testbit h 1), (Z.testbit h 0); destruct w; try (cbn in O; congruence);
    unfold base_args, info_set, info_create, wanted; cbn [String.length Nat.ltb Nat.leb]; keys key.
Qed.

(** Relation between the program's spaces and the library's. *)
Definition conc (a : asp) : space :=
  let k := if a_kind a =? MEM_CUDA then a_kind a else if a_kind a =? MEM_ZE then a_kind a else MEM_HOST in
  mkSp k (a_nctx a) (a_hints a) k (a_base a) (if a_att a && (0 <? a_nctx a)%nat then Some (a_nctx a) else None).
Record Rel (b : build) (s : ast) (t : st) : Prop := {
  r_ids : NoDup (map fst s);
  r_bases : NoDup (map (fun e => a_base (snd e)) s);
  r_built : forall id a, In (id, a) s -> built b (from (a_kind a));
  r_spaces : s_spaces t = map (fun e => (fst e, conc (snd e))) s;
  r_live : memory_ok s (s_live t);
  r_wins : windows_ok b s (s_wins t) }.

Lemma from_alt k : from k = if k =? MEM_CUDA then ACuda else if k =? MEM_ZE then AZe else AMalloc.
Proof. unfold from, MEM_CUDA, MEM_ZE. destruct k as [|[p|[p|p|]|]|p]; reflexivity. Qed.
Lemma built_ok b a : built b a -> (match a with AMalloc => true | ACuda => b_cuda b | AZe => b_ze b end) = true.
Proof. destruct a; auto. Qed.

Lemma run_app b l o s : run b (l ++ [o])%list s = do s' <- run b l s; step b o s'.
Proof.
  revert s. induction l as [|x l IH]; intros s; cbn [run app].
  - cbn [bind]. destruct (step b o s); reflexivity.
  - destruct (step b x s); cbn [bind]; [apply IH|reflexivity..].
Qed.
Lemma started_app b l o : started b (l ++ [o])%list = do s' <- started b l; step b o s'.
Proof. unfold started. destruct (init b); cbn [bind]; [apply run_app|reflexivity..]. Qed.

Lemma empty_memory : memory_ok [] [].
Proof. split; [constructor|]. intros e. cbn. split; [contradiction|]. intros (id & a & [] & _). Qed.
Lemma init_rel b : room b -> exists t, init b = Ok t /\ Rel b [] t.
Proof.
  intros M. unfold init. destruct (b_dyn b) eqn:D; rewrite !set_args_ok by exact M; cbn [bind]; (eexists; split; [reflexivity|]);
    split; [constructor|constructor|intros ? ? []|reflexivity|exact empty_memory| |constructor|constructor|intros ? ? []|reflexivity|exact empty_memory| ];
    (split; [cbn; repeat constructor; cbn; intuition congruence|]); cbn [s_wins]; rewrite D; split.
  - intros w. destruct w; cbn; split; try (intros [|[]]; congruence); try (intros; congruence); try (intros; left; reflexivity).
    + intros (? & ?). discriminate.
    + intros (? & [] & _).
  - intros w i [E|[]]. injection E as <- <-. apply info_symm.
  - intros w. destruct w; cbn; split; try (intros [|[|[]]]; congruence); try (intros; congruence); try (intros; auto).
    + destruct H as (_ & a & [] & _).
    + destruct H as (a & [] & _).
  - intros w i [E|[E|[]]]; injection E as <- <-; [apply info_data|apply info_heap].
Qed.

Open Scope list_scope.
Lemma NoDup_app_single {A} (l : list A) x : NoDup l -> ~ In x l -> NoDup (l ++ [x]).
Proof.
  intros N F. apply (NoDup_Add (a := x) (l := l)); [|auto]. rewrite <- (app_nil_r l) at 1. apply Add_app.
Qed.
Lemma NoDup_app_two {A} (l m : list A) : NoDup l -> NoDup m -> (forall x, In x l -> In x m -> False) -> NoDup (l ++ m).
Proof.
  induction l as [|x l IH]; cbn; intros N M D; [exact M|]. inversion N; subst. constructor; [|apply IH; eauto].
  rewrite in_app_iff. intros [I|I]; [contradiction|eauto].
Qed.
Definition cs (s : ast) : list (Z * space) := map (fun e => (fst e, conc (snd e))) s.
Lemma split_ids (s1 s2 : ast) id a : NoDup (map fst (s1 ++ (id, a) :: s2)) ->
  (forall e, In e s1 -> fst e <> id) /\ (forall e, In e s2 -> fst e <> id).
Proof.
  rewrite map_app. cbn [map fst]. intros N. pose proof (NoDup_remove_2 _ _ _ N) as H. rewrite in_app_iff in H.
  split; intros e I E; apply H; [left|right]; rewrite <- E; apply in_map; exact I.
Qed.
Lemma find_cs s id : (forall e, In e s -> fst e <> id) -> find (fun e : Z * space => fst e =? id) (cs s) = None.
Proof.
  induction s as [|e s IH]; intros H; [reflexivity|]. cbn. destruct (Z.eqb_spec (fst e) id) as [E|]; [|apply IH; intros; apply H; right; assumption].
  exfalso. apply (H e); [left; reflexivity|exact E].
Qed.
Lemma lookup_cs s1 s2 id a : NoDup (map fst (s1 ++ (id, a) :: s2)) -> lookup (cs (s1 ++ (id, a) :: s2)) id = Some (conc a).
Proof.
  intros N. destruct (split_ids s1 s2 id a N) as (H & _). unfold lookup, cs. rewrite map_app. cbn [map fst snd].
  assert (F : forall l, find (fun e : Z * space => fst e =? id) (cs s1 ++ l) = find (fun e => fst e =? id) l).
  { intros l. clear N. induction s1 as [|e s1 IH]; [reflexivity|]. cbn. destruct (Z.eqb_spec (fst e) id) as [E|].
    - exfalso. apply (H e); [left; reflexivity|exact E].
    - apply IH. intros; apply H; right; assumption. }
  fold (cs s1). rewrite F. cbn. rewrite Z.eqb_refl. reflexivity.
Qed.
Lemma remove_id s id : (forall e, In e s -> fst e <> id) -> remove (cs s) id = cs s.
Proof.
  induction s as [|e s IH]; intros H; [reflexivity|]. cbn. destruct (Z.eqb_spec (fst e) id) as [E|].
  - exfalso. apply (H e); [left; reflexivity|exact E].
  - cbn. f_equal. apply IH. intros; apply H; right; assumption.
Qed.
Lemma remove_cs s1 s2 id a : NoDup (map fst (s1 ++ (id, a) :: s2)) -> remove (cs (s1 ++ (id, a) :: s2)) id = cs (s1 ++ s2).
Proof.
  intros N. destruct (split_ids s1 s2 id a N) as (H & H2). unfold cs. rewrite !map_app. cbn [map fst snd]. unfold remove. rewrite filter_app.
  cbn [filter fst]. rewrite Z.eqb_refl. cbn [negb]. f_equal; [exact (remove_id s1 id H)|exact (remove_id s2 id H2)].
Qed.
Lemma set_id s id x : (forall e, In e s -> fst e <> id) -> set_space id x (cs s) = cs s.
Proof.
  induction s as [|e s IH]; intros H; [reflexivity|]. cbn. destruct (Z.eqb_spec (fst e) id) as [E|].
  - exfalso. apply (H e); [left; reflexivity|exact E].
  - cbn. f_equal. apply IH. intros; apply H; right; assumption.
Qed.
Lemma set_cs s1 s2 id a a' : NoDup (map fst (s1 ++ (id, a) :: s2)) ->
  set_space id (conc a') (cs (s1 ++ (id, a) :: s2)) = cs (s1 ++ (id, a') :: s2).
Proof.
  intros N. destruct (split_ids s1 s2 id a N) as (H & H2). unfold cs. rewrite !map_app. cbn [map fst snd]. unfold set_space. rewrite map_app.
  cbn [map fst]. rewrite Z.eqb_refl. f_equal; [exact (set_id s1 id _ H)|]. f_equal. exact (set_id s2 id _ H2).
Qed.
(** Changing the attachment of a space. *)
Definition att (a : asp) (x : bool) : asp := mkA (a_kind a) (a_nctx a) (a_hints a) (a_base a) x.
Lemma ids_att (s1 s2 : ast) id a x : map fst (s1 ++ (id, att a x) :: s2) = map fst (s1 ++ (id, a) :: s2).
Proof. rewrite !map_app. reflexivity. Qed.
Lemma bases_att (s1 s2 : ast) id a x : map (fun e => a_base (snd e)) (s1 ++ (id, att a x) :: s2) = map (fun e => a_base (snd e)) (s1 ++ (id, a) :: s2).
Proof. rewrite !map_app. reflexivity. Qed.
Lemma in_att (s1 s2 : ast) id a x j c : In (j, c) (s1 ++ (id, att a x) :: s2) ->
  exists c', In (j, c') (s1 ++ (id, a) :: s2) /\ a_kind c = a_kind c' /\ a_nctx c = a_nctx c' /\ a_hints c = a_hints c' /\ a_base c = a_base c'.
Proof.
  rewrite in_app_iff. cbn. intros [H|[H|H]].
  - exists c. split; [rewrite in_app_iff; auto|auto].
  - injection H as <- <-. exists a. split; [rewrite in_app_iff; cbn; auto|auto].
  - exists c. split; [rewrite in_app_iff; cbn; auto|auto].
Qed.
Lemma att_att a x y : att (att a x) y = att a y.
Proof. reflexivity. Qed.
Lemma att_same a x : a_att a = x -> att a x = a.
Proof. intros <-. destruct a; reflexivity. Qed.
Lemma memory_att s1 s2 id a x l : memory_ok (s1 ++ (id, a) :: s2) l -> memory_ok (s1 ++ (id, att a x) :: s2) l.
Proof.
  intros (N & H). split; [exact N|]. intros e. rewrite H. split; intros (j & c & I & E).
  - destruct (in_att s1 s2 id (att a x) (a_att a) j c) as (c' & I' & K & _ & _ & B).
    { rewrite att_att, att_same by reflexivity. exact I. }
    exists j, c'. split; [exact I'|]. rewrite <- K, <- B. exact E.
  - destruct (in_att s1 s2 id a x j c I) as (c' & I' & K & _ & _ & B). exists j, c'. split; [exact I'|]. rewrite <- K, <- B. exact E.
Qed.
Lemma unique_id (s : ast) id a a' : NoDup (map fst s) -> In (id, a) s -> In (id, a') s -> a = a'.
Proof.
  induction s as [|e s IH]; cbn; intros N I J; [contradiction|]. inversion N as [|? ? H N']; subst.
  destruct I as [->|I], J as [E|J].
  - injection E as <-. reflexivity.
  - exfalso. apply H. exact (in_map fst _ _ J).
  - subst e. exfalso. apply H. exact (in_map fst _ _ I).
  - exact (IH N' I J).
Qed.
Lemma mid {A} (s1 s2 : list A) x : In x (s1 ++ x :: s2).
Proof. apply in_or_app. right. left. reflexivity. Qed.

Lemma step_create b s t id k n h base : room b -> Rel b s t -> ~ In id (map fst s) -> built b (from k) -> base <> 0 ->
  ~ In base (map (fun e => a_base (snd e)) s) ->
  exists t', create b id k n h base t = Ok t' /\ Rel b (s ++ [(id, mkA k n h base false)])%list t'.
Proof.
  intros M R F B Z0 FB. destruct R as [RI RB RU RS RL RW]. unfold create.
  assert (E : (if k =? MEM_CUDA then (ACuda, k) else if k =? MEM_ZE then (AZe, k) else (AMalloc, MEM_HOST)) =
    (from k, if k =? MEM_CUDA then k else if k =? MEM_ZE then k else MEM_HOST)).
  { rewrite from_alt. destruct (k =? MEM_CUDA), (k =? MEM_ZE); reflexivity. }
  rewrite E. unfold take. rewrite (built_ok b _ B). cbn [bind s_live s_spaces s_wins]. destruct (Z.eqb_spec base 0); [contradiction|].
  cbn [negb c_assert bind]. eexists. split; [reflexivity|].
  constructor; cbn [s_live s_spaces s_wins].
  - rewrite map_app. apply NoDup_app_single; assumption.
  - rewrite map_app. apply NoDup_app_single; assumption.
  - intros j c I. apply in_app_or in I. destruct I as [I|[I|[]]]; [exact (RU j c I)|]. injection I as <- <-. exact B.
  - rewrite RS, map_app. reflexivity.
  - destruct RL as (ND & H). split.
    + constructor; [|exact ND]. rewrite H. intros (j & c & I & X). apply FB. injection X as _ ->. apply (in_map (fun e => a_base (snd e)) s (j, c) I).
    + intros e. cbn. rewrite H. split.
      * intros [<-|(j & c & I & X)]; [|exists j, c; rewrite in_app_iff; auto].
        exists id, (mkA k n h base false). split; [rewrite in_app_iff; cbn; auto|reflexivity].
      * intros (j & c & I & X). apply in_app_or in I. destruct I as [I|[I|[]]]; [right; exists j, c; auto|].
        injection I as <- <-. left. rewrite X. reflexivity.
  - destruct RW as (ND & W & I). split; [exact ND|]. split.
    + intros w. rewrite W. destruct w; cbn; try tauto.
      * split; intros (D & c & J & A); (split; [exact D|]); [exists c; rewrite in_app_iff; auto|].
        apply in_app_or in J. destruct J as [J|[J|[]]]; [exists c; auto|]. injection J as <- <-. discriminate A.
      * split; intros (c & J & A); [exists c; rewrite in_app_iff; auto|].
        apply in_app_or in J. destruct J as [J|[J|[]]]; [exists c; auto|]. injection J as <- <-. destruct A. discriminate.
    + intros w i J. pose proof (I w i J) as K. unfold info_ok in *. destruct (owner w) as [j|] eqn:O; [|exact K].
      intros c L. apply in_app_or in L. destruct L as [L|[L|[]]]; [exact (K c L)|]. injection L as <- <-.
      assert (X : In w (map fst (s_wins t))) by exact (in_map fst _ _ J). rewrite W in X. exfalso. apply F.
      destruct w; cbn in O; try discriminate; injection O as ->; cbn in X.
      * destruct X as (_ & c & Y & _). exact (in_map fst _ _ Y).
      * destruct X as (c & Y & _). exact (in_map fst _ _ Y).
Qed.

Lemma alloc_eqb_eq a c : alloc_eqb a c = true <-> a = c.
Proof. destruct a, c; cbn; split; congruence. Qed.
Lemma is_block_eq a base e : is_block a base e = true <-> e = (a, base).
Proof.
  unfold is_block. rewrite andb_true_iff, alloc_eqb_eq, Z.eqb_eq. destruct e; cbn. split; [intros (-> & ->)|intros E; injection E as -> ->]; auto.
Qed.
Lemma conc_kind a : (if sp_kind (conc a) =? MEM_CUDA then ACuda else if sp_kind (conc a) =? MEM_ZE then AZe else AMalloc) = from (a_kind a).
Proof.
  rewrite from_alt. unfold conc. cbn [sp_kind]. destruct (a_kind a =? MEM_CUDA) eqn:E; [rewrite E; reflexivity|].
  destruct (a_kind a =? MEM_ZE) eqn:E'; [rewrite E, E'; reflexivity|]. reflexivity.
Qed.
Lemma in_mid {A} (s1 s2 : list A) x y : In y (s1 ++ x :: s2) <-> y = x \/ In y (s1 ++ s2).
Proof. rewrite !in_app_iff. cbn. intuition congruence. Qed.

Lemma step_destroy b s1 s2 t id a : Rel b (s1 ++ (id, a) :: s2) t -> a_att a = false ->
  exists t', destroy b id t = Ok t' /\ Rel b (s1 ++ s2) t'.
Proof.
  intros [RI RB RU RS RL RW] A. unfold destroy. rewrite RS. fold (cs (s1 ++ (id, a) :: s2)). rewrite lookup_cs by exact RI.
  rewrite remove_cs by exact RI. rewrite conc_kind. unfold give. rewrite (built_ok b _ (RU id a (mid s1 s2 (id, a)))). cbn [negb s_live].
  replace (existsb (is_block (from (a_kind a)) (sp_base (conc a))) (s_live t)) with true.
  2:{ symmetry. apply existsb_exists. exists (from (a_kind a), a_base a). split; [|apply is_block_eq; reflexivity].
      apply RL. exists id, a. split; [apply mid|reflexivity]. }
  eexists. split; [reflexivity|]. destruct (split_ids _ _ _ _ RI) as (D1 & D2).
  assert (RB' : ~ In (a_base a) (map (fun e => a_base (snd e)) (s1 ++ s2))).
  { rewrite !map_app in *. cbn [map] in RB. exact (NoDup_remove_2 _ _ _ RB). }
  constructor; cbn [s_live s_spaces s_wins].
  - rewrite !map_app in *. cbn [map] in RI. exact (NoDup_remove_1 _ _ _ RI).
  - rewrite !map_app in *. cbn [map] in RB. exact (NoDup_remove_1 _ _ _ RB).
  - intros j c I. apply (RU j c). apply in_mid. auto.
  - reflexivity.
  - destruct RL as (ND & H). split; [apply NoDup_filter; exact ND|]. intros e. rewrite filter_In, H. split.
    + intros ((j & c & I & E) & N). apply in_mid in I. destruct I as [I|I]; [|exists j, c; auto].
      injection I as -> ->. exfalso. rewrite E in N. replace (is_block _ _ _) with true in N by (symmetry; apply is_block_eq; reflexivity). discriminate.
    + intros (j & c & I & E). split; [exists j, c; split; [apply in_mid; auto|exact E]|].
      destruct (is_block (from (a_kind a)) (sp_base (conc a)) e) eqn:B; [|reflexivity]. apply is_block_eq in B. exfalso. apply RB'.
      rewrite E in B. injection B as _ B. cbn in B. rewrite <- B. exact (in_map (fun e => a_base (snd e)) _ _ I).
  - destruct RW as (ND & W & I). split; [exact ND|]. split.
    + intros w. rewrite W. destruct w; cbn; try tauto.
      * split; intros (D & c & J & X); (split; [exact D|]); exists c; (split; [|exact X]); [|apply in_mid; auto].
        apply in_mid in J. destruct J as [J|J]; [injection J as -> ->; congruence|exact J].
      * split; intros (c & J & X); exists c; (split; [|exact X]); [|apply in_mid; auto].
        apply in_mid in J. destruct J as [J|J]; [injection J as -> ->; destruct X; congruence|exact J].
    + intros w i J. pose proof (I w i J) as K. unfold info_ok in *. destruct (owner w) as [j|]; [|exact K].
      intros c L. apply K. apply in_mid. auto.
Qed.

Lemma ctx_wins_eq id i n : forall k s, ctx_wins id n k i s = mkSt (s_live s) (s_spaces s) (s_wins s ++ map (fun j => (WCtx id j, i)) (seq k n)).
Proof.
  induction n as [|n IH]; intros k s; cbn [ctx_wins seq map].
  - rewrite app_nil_r. destruct s; reflexivity.
  - rewrite IH. unfold ictx_create. cbn [s_live s_spaces s_wins]. rewrite <- app_assoc. reflexivity.
Qed.

Lemma step_attach b s1 s2 t id a : room b -> Rel b (s1 ++ (id, a) :: s2) t -> a_att a = false ->
  exists t', attach b id t = Ok t' /\ Rel b (s1 ++ (id, att a true) :: s2) t'.
Proof.
  intros M [RI RB RU RS RL RW] A. unfold attach. rewrite RS. fold (cs (s1 ++ (id, a) :: s2)). rewrite lookup_cs by exact RI.
  assert (EC : sp_ctx (conc a) = None) by (unfold conc; cbn; rewrite A; reflexivity). rewrite EC. cbn [c_assert bind].
  rewrite set_args_ok by exact M. cbn [bind]. cbv zeta. change (sp_hints (conc a)) with (a_hints a). change (sp_nctx (conc a)) with (a_nctx a).
  set (i := space_args (a_hints a) (base_args (b_ops b) info_create)). rewrite ctx_wins_eq.
  set (new := (if b_dyn b then [] else [(WDefault id, i)]) ++ map (fun j => (WCtx id j, i)) (seq 0 (a_nctx a))).
  set (t' := mkSt (s_live t) (cs (s1 ++ (id, att a true) :: s2)) (s_wins t ++ new)).
  assert (Q : (if (0 <? a_nctx a)%nat
      then mkSt (s_live t) (set_space id (with_ctx (conc a) (Some (a_nctx a))) (s_spaces t)) (s_wins t ++ new)
      else mkSt (s_live t) (s_spaces t) (s_wins t ++ new)) = t').
  { unfold t'. rewrite RS. fold (cs (s1 ++ (id, a) :: s2)). destruct (0 <? a_nctx a)%nat eqn:P.
    - replace (with_ctx (conc a) (Some (a_nctx a))) with (conc (att a true)) by (unfold conc, with_ctx, att; cbn [a_att a_nctx a_kind a_hints a_base sp_kind sp_nctx sp_hints sp_attr_kind sp_base]; rewrite P; reflexivity).
      rewrite set_cs by exact RI. reflexivity.
    - f_equal. rewrite <- (set_cs s1 s2 id a (att a true) RI). replace (conc (att a true)) with (conc a).
      + rewrite (set_cs s1 s2 id a a RI). reflexivity.
      + unfold conc, att. cbn [a_att a_nctx a_kind a_hints a_base]. rewrite P, !andb_false_r. reflexivity. }
  exists t'. split.
  - rewrite <- Q. f_equal. unfold new, ictx_create. destruct (b_dyn b); destruct (0 <? a_nctx a)%nat; cbn [s_live s_spaces s_wins app];
      rewrite <- ?app_assoc; reflexivity.
  - constructor; unfold t'; cbn [s_live s_spaces s_wins].
    + rewrite ids_att. exact RI.
    + rewrite bases_att. exact RB.
    + intros j c I. destruct (in_att s1 s2 id a true j c I) as (c' & I' & K & _). rewrite K. exact (RU j c' I').
    + reflexivity.
    + apply memory_att. exact RL.
    + destruct RW as (ND & W & I).
      assert (NW : forall w, In w (map fst new) -> owner w = Some id).
      { intros w J. unfold new in J. rewrite map_app, in_app_iff in J. destruct J as [J|J].
        - destruct (b_dyn b); cbn in J; [contradiction|]. destruct J as [<-|[]]. reflexivity.
        - rewrite map_map in J. apply in_map_iff in J. destruct J as (k & <- & _). reflexivity. }
      assert (OLD : forall w, In w (map fst (s_wins t)) -> owner w <> Some id).
      { intros w J O. apply W in J. destruct w; cbn in O; try discriminate; injection O as ->; cbn in J.
        - destruct J as (_ & c & J & X). rewrite (unique_id _ _ _ _ RI J (mid s1 s2 (id, a))) in X. congruence.
        - destruct J as (c & J & X & _). rewrite (unique_id _ _ _ _ RI J (mid s1 s2 (id, a))) in X. congruence. }
      assert (RI' : NoDup (map fst (s1 ++ (id, att a true) :: s2))) by (rewrite ids_att; exact RI).
      split; [|split].
      * rewrite map_app. apply NoDup_app_two; [exact ND| |].
        -- unfold new. rewrite map_app, map_map. cbn [fst]. apply NoDup_app_two.
           ++ destruct (b_dyn b); cbn; repeat constructor. intros [].
           ++ apply Injective_map_NoDup; [intros x y E; congruence|apply seq_NoDup].
           ++ intros w J K. apply in_map_iff in K. destruct K as (k & <- & _). destruct (b_dyn b); cbn in J; [contradiction|].
              destruct J as [J|[]]. discriminate.
        -- intros w J K. exact (OLD w J (NW w K)).
      * intros w. rewrite map_app, in_app_iff. split.
        -- intros [J|J].
           ++ pose proof (OLD w J) as O. apply W in J. destruct w; cbn in J, O |- *; auto.
              ** destruct J as (D & c & J & X). split; [exact D|]. exists c. split; [|exact X]. apply in_mid in J. apply in_mid.
                 destruct J as [J|J]; [injection J as -> ->; congruence|auto].
              ** destruct J as (c & J & X). exists c. split; [|exact X]. apply in_mid in J. apply in_mid.
                 destruct J as [J|J]; [injection J as -> ->; congruence|auto].
           ++ unfold new in J. rewrite map_app, in_app_iff in J. destruct J as [J|J].
              ** destruct (b_dyn b); cbn in J; [contradiction|]. destruct J as [<-|[]]. cbn. split; [reflexivity|].
                 exists (att a true). split; [apply mid|reflexivity].
              ** rewrite map_map in J. apply in_map_iff in J. destruct J as (k & <- & J). apply in_seq in J. cbn.
                 exists (att a true). split; [apply mid|]. split; [reflexivity|cbn; lia].
        -- intros J. destruct (owner w) as [j|] eqn:O.
           ++ destruct (Z.eq_dec j id) as [->|D].
              ** right. unfold new. rewrite map_app, in_app_iff. destruct w; cbn in O; try discriminate; injection O as ->; cbn in J.
                 --- left. destruct J as (-> & _). cbn. auto.
                 --- right. rewrite map_map. cbn [fst]. destruct J as (c & J & _ & L).
                     rewrite (unique_id _ _ _ _ RI' J (mid s1 s2 (id, att a true))) in L. apply in_map_iff. exists k. split; [reflexivity|].
                     apply in_seq. cbn in L. lia.
              ** left. apply W. destruct w; cbn in O; try discriminate; injection O as ->; cbn in J |- *.
                 --- destruct J as (X & c & J & Y). split; [exact X|]. exists c. split; [|exact Y]. apply in_mid in J. apply in_mid.
                     destruct J as [J|J]; [injection J as -> ->; congruence|auto].
                 --- destruct J as (c & J & Y). exists c. split; [|exact Y]. apply in_mid in J. apply in_mid.
                     destruct J as [J|J]; [injection J as -> ->; congruence|auto].
           ++ left. apply W. destruct w; cbn in O; try discriminate; exact J.
      * intros w j J. apply in_app_or in J. destruct J as [J|J].
        -- pose proof (OLD w (in_map fst _ _ J)) as O. pose proof (I w j J) as K. unfold info_ok in *. destruct (owner w) as [m|]; [|exact K].
           intros c L. apply in_mid in L. destruct L as [L|L]; [injection L as -> ->; congruence|]. apply K. apply in_mid. auto.
        -- pose proof (NW w (in_map fst _ _ J)) as O. unfold info_ok. rewrite O. intros c L.
           rewrite (unique_id _ _ _ _ RI' L (mid s1 s2 (id, att a true))). cbn [att a_hints].
           assert (j = i) as ->.
           { unfold new in J. apply in_app_or in J. destruct J as [J|J].
             - destruct (b_dyn b); cbn in J; [contradiction|]. destruct J as [J|[]]. congruence.
             - apply in_map_iff in J. destruct J as (k & J & _). congruence. }
           apply info_space. congruence.
Qed.

Lemma step_detach b s1 s2 t id a : Rel b (s1 ++ (id, a) :: s2) t -> a_att a = true ->
  exists t', detach b id t = Ok t' /\ Rel b (s1 ++ (id, att a false) :: s2) t'.
Proof.
  intros [RI RB RU RS RL RW] A. unfold detach. rewrite RS. fold (cs (s1 ++ (id, a) :: s2)). rewrite lookup_cs by exact RI.
  replace ((sp_nctx (conc a) =? 0)%nat || match sp_ctx (conc a) with None => false | Some _ => true end) with true.
  2:{ unfold conc. cbn [sp_nctx sp_ctx]. rewrite A. destruct (a_nctx a); reflexivity. }
  cbn [c_assert bind]. replace (with_ctx (conc a) None) with (conc (att a false)) by reflexivity. rewrite set_cs by exact RI.
  eexists. split; [reflexivity|].
  assert (RI' : NoDup (map fst (s1 ++ (id, att a false) :: s2))) by (rewrite ids_att; exact RI).
  constructor; cbn [s_live s_spaces s_wins].
  - exact RI'.
  - rewrite bases_att. exact RB.
  - intros j c I. destruct (in_att s1 s2 id a false j c I) as (c' & I' & K & _). rewrite K. exact (RU j c' I').
  - reflexivity.
  - apply memory_att. exact RL.
  - destruct RW as (ND & W & I).
    assert (OF : forall w, of_space id w = true <-> owner w = Some id).
    { intros w. destruct w; cbn; try (split; congruence); rewrite Z.eqb_eq; split; congruence. }
    assert (F : forall l, map fst (filter (fun e : win * info => negb (of_space id (fst e))) l) = filter (fun w => negb (of_space id w)) (map fst l)).
    { induction l as [|e l IH]; [reflexivity|]. cbn. destruct (negb (of_space id (fst e))); cbn; rewrite IH; reflexivity. }
    split; [|split].
    + rewrite F. apply NoDup_filter. exact ND.
    + intros w. rewrite F, filter_In, W. split.
      * intros (J & N). assert (O : owner w <> Some id) by (intros O; apply OF in O; rewrite O in N; discriminate).
        destruct w; cbn in J, O |- *; auto.
        -- destruct J as (D & c & J & X). split; [exact D|]. exists c. split; [|exact X]. apply in_mid in J. apply in_mid.
           destruct J as [J|J]; [injection J as -> ->; congruence|auto].
        -- destruct J as (c & J & X). exists c. split; [|exact X]. apply in_mid in J. apply in_mid.
           destruct J as [J|J]; [injection J as -> ->; congruence|auto].
      * intros J. assert (O : owner w <> Some id).
        { intros O. destruct w; cbn in O; try discriminate; injection O as ->; cbn in J.
          - destruct J as (_ & c & J & X). rewrite (unique_id _ _ _ _ RI' J (mid s1 s2 (id, att a false))) in X. discriminate.
          - destruct J as (c & J & X & _). rewrite (unique_id _ _ _ _ RI' J (mid s1 s2 (id, att a false))) in X. discriminate. }
        split.
        -- destruct w; cbn in J, O |- *; auto.
           ++ destruct J as (D & c & J & X). split; [exact D|]. exists c. split; [|exact X]. apply in_mid in J. apply in_mid.
              destruct J as [J|J]; [injection J as -> ->; congruence|auto].
           ++ destruct J as (c & J & X). exists c. split; [|exact X]. apply in_mid in J. apply in_mid.
              destruct J as [J|J]; [injection J as -> ->; congruence|auto].
        -- destruct (of_space id w) eqn:E; [|reflexivity]. apply OF in E. contradiction.
    + intros w i J. apply filter_In in J. destruct J as (J & _). pose proof (I w i J) as K. unfold info_ok in *.
      destruct (owner w) as [m|]; [|exact K]. intros c L. destruct (in_att s1 s2 id a false m c L) as (c' & L' & _ & _ & H & _).
      rewrite H. exact (K c' L').
Qed.

Lemma history b l s : room b -> arun b l s -> exists t, started b l = Ok t /\ Rel b s t.
Proof.
  intros M R. induction R.
  - destruct (init_rel b M) as (t & E & H). exists t. split; [|exact H]. unfold started. rewrite E. reflexivity.
  - destruct IHR as (t & E & H4). rewrite started_app, E. cbn [bind step]. apply step_create; assumption.
  - destruct IHR as (t & E & H4). rewrite started_app, E. cbn [bind step]. apply (step_destroy b s1 s2 t id a); assumption.
  - destruct IHR as (t & E & H4). rewrite started_app, E. cbn [bind step]. apply (step_attach b s1 s2 t id a); assumption.
  - destruct IHR as (t & E & H4). rewrite started_app, E. cbn [bind step]. apply (step_detach b s1 s2 t id a); assumption.
Qed.

Lemma rel_ok b l s : room b -> arun b l s -> exists t, started b l = Ok t /\ memory_ok s (s_live t) /\ windows_ok b s (s_wins t).
Proof. intros M R. destruct (history b l s M R) as (t & E & H). exists t. destruct H; auto. Qed.
Lemma win_info b l s t w id a : room b -> arun b l s -> started b l = Ok t -> In (id, a) s -> owner w = Some id -> wanted_win (b_dyn b) s w ->
  exists i, In (w, i) (s_wins t) /\ forall key, i key = wanted (b_ops b) w (preference (a_hints a)) key.
Proof.
  intros M R E I O W. destruct (rel_ok b l s M R) as (t' & E' & _ & _ & WW & II). rewrite E in E'. injection E' as <-.
  apply WW in W. apply in_map_iff in W. destruct W as ((w', i) & <- & J). exists i. split; [exact J|]. pose proof (II _ _ J) as K.
  cbn [fst] in *. unfold info_ok in K. rewrite O in K. exact (K a I).
Qed.
Lemma default_hint b l s t id a : room b -> b_dyn b = false -> arun b l s -> started b l = Ok t -> In (id, a) s -> a_att a = true ->
  exists i, In (default_win b id, i) (s_wins t) /\ i "perf_preference" = preference (a_hints a).
Proof.
  intros M D R E I A. unfold default_win. rewrite D. destruct (win_info b l s t (WDefault id) id a M R E I eq_refl) as (i & J & K).
  - cbn. split; [exact D|]. exists a. auto.
  - exists i. split; [exact J|]. rewrite K. reflexivity.
Qed.
Lemma context_hint b l s t id a k : room b -> arun b l s -> started b l = Ok t -> In (id, a) s -> a_att a = true -> (k < a_nctx a)%nat ->
  exists i, In (WCtx id k, i) (s_wins t) /\ i "perf_preference" = preference (a_hints a).
Proof.
  intros M R E I A L. destruct (win_info b l s t (WCtx id k) id a M R E I eq_refl) as (i & J & K).
  - cbn. exists a. auto.
  - exists i. split; [exact J|]. rewrite K. reflexivity.
Qed.
Lemma unbuilt b id k n h base t : ~ built b (from k) -> create b id k n h base t = Abort.
Proof.
  rewrite from_alt. unfold create, take. destruct (k =? MEM_CUDA); [|destruct (k =? MEM_ZE)]; cbn; intros N.
  - destruct (b_cuda b); [congruence|reflexivity].
  - destruct (b_ze b); [congruence|reflexivity].
  - destruct (N I).
Qed.
Lemma short_aborts b l : b_checks b = true -> b_maxlen b < 38 -> started b l = Abort.
Proof.
  intros C M. unfold started, init, set_args. rewrite C.
  replace (Z.of_nat (String.length "cswap,sum,band,bor,bxor,no_op,replace") + 1 <=? b_maxlen b) with false
    by (change (String.length "cswap,sum,band,bor,bxor,no_op,replace") with 37%nat; lia).
  destruct (b_dyn b); reflexivity.
Qed.

Lemma shown_hints checks h : hints_str checks 64 h = Ok (String.concat "," (hints_list h)).
Proof.
  unfold hints_str, hints_list. change MR_PREFERRED with (2 ^ 1). change LAT_PREFERRED with (2 ^ 0). rewrite !has_bit by lia.
  destruct (Z.testbit h 0), (Z.testbit h 1), checks; reflexivity.
Qed.
Lemma shown_same h h' : String.concat "," (hints_list h) = String.concat "," (hints_list h') -> preference h = preference h' /\ hints_list h = hints_list h'.
Proof.
  unfold hints_list, preference. destruct (Z.testbit h 0), (Z.testbit h 1), (Z.testbit h' 0), (Z.testbit h' 1); cbn; intros E; try discriminate E; auto.
Qed.
Lemma shown_kind k k' : memkind_str k = memkind_str k' <-> from k = from k'.
Proof.
  rewrite !from_alt. unfold memkind_str. destruct (k =? MEM_CUDA), (k =? MEM_ZE), (k' =? MEM_CUDA), (k' =? MEM_ZE); split; intros E; try discriminate E; reflexivity.
Qed.
