(** Symmetric objects: C11-C15, C54, C58, C62, C63. *)
From Verif Require Import Base BaseProofs SobjModel SobjSpec SobjProofs SobjRel SobjSim SobjAttach
  SobjDetach SobjFinal SymmAllocModel SymmAllocProofs.

(** ** C11 Handles *)

(** Kind, symmetry flag and index of a handle are those it was made from. *)
Theorem C11_handle_roundtrip : forall kind symm idx,
  0 <= kind < 4 -> 0 <= symm < 2 -> 0 <= idx < 2 ^ 29 ->
  handle_kind (set_handle kind symm idx) = kind /\
  handle_symm (set_handle kind symm idx) = symm /\
  handle_idx (set_handle kind symm idx) = idx /\
  0 <= set_handle kind symm idx < 2 ^ 32.
Proof. exact handle_roundtrip. Qed.
Print Assumptions C11_handle_roundtrip.

(** Handles of different objects differ. *)
Theorem C11_handle_injective : forall k1 s1 i1 k2 s2 i2,
  0 <= k1 < 4 -> 0 <= s1 < 2 -> 0 <= i1 < 2 ^ 29 -> 0 <= k2 < 4 -> 0 <= s2 < 2 -> 0 <= i2 < 2 ^ 29 ->
  set_handle k1 s1 i1 = set_handle k2 s2 i2 -> k1 = k2 /\ s1 = s2 /\ i1 = i2.
Proof. exact handle_inj. Qed.
Print Assumptions C11_handle_injective.

Example C11_ex : handle_idx (set_handle SPACE_ATTACHED_HEAP 1 12345) = 12345.
Proof. vmr. Qed.
(** The bound is needed: index 2^29 runs into the symmetry bit. *)
Example C11_bound_tight :
  set_handle SPACE_ATTACHED_HEAP 0 (2 ^ 29) = set_handle SPACE_ATTACHED_HEAP 1 0.
Proof. vmr. Qed.

(** ** C12 Remote accesses *)

(** Every history of valid calls (create, attach, detach, destroy, put, get, in any order, from
    any PE, through any context, on the direct or the active-message path) runs without error in
    both displacement modes and leaves in every byte of every PE exactly what the specification
    of puts and gets on "offset d of object o" prescribes. *)
Theorem C12_history_refines : forall dyn checks page env_size dsize lay mem ops s,
  config_ok page env_size dsize lay ->
  srun (s_init page env_size dsize lay mem) ops s ->
  exists w, reached dyn checks page env_size dsize lay mem ops s w /\ mem_agrees s w.
Proof. exact history_refines. Qed.
Print Assumptions C12_history_refines.

Definition ex_lay : list (Z * Z) := [(100000, 500000); (200000, 600000)].
Definition ex_mem : Z -> Z -> Z := fun p a => 1000000 * (p + 1) + a.
Definition ex_ops : list wop :=
  [WCreate 0 7 300000 4096 1; WCreate 1 7 900000 4096 1; WAttach 7;
   WPut 0 (CtxSpace 7 0) true 8 100000 300016 2 1; WGet 1 CtxDefault false 4 200000 600000 3 0].

Lemma ex_config : config_ok 4096 8192 64 ex_lay.
Proof.
  split; [discriminate|]. split; [exists 12; lia|]. split; [lia|]. split; [lia|].
  assert (E : heap_true_size 8192 4096 = 12288) by reflexivity. rewrite E.
  repeat constructor; simpl; unfold disj; simpl; lia.
Qed.

Ltac forall_disj := repeat constructor; unfold disj; simpl; lia.
Lemma ex_srun : exists s, srun (s_init 4096 8192 64 ex_lay ex_mem) ex_ops s /\
  s_mem s 1 900016 = 1100000 /\ s_mem s 1 200000 = 1500000 /\ s_mem s 1 900032 = 2900032 /\
  s_att s = [(7, 0)] /\ contains s 1 904095 (OSpace 7) /\
  (forall a o, 904096 <= a -> ~ contains s 1 a o) /\ s_mem s 1 905000 = 2905000.
Proof.
  eexists. split.
  - eapply SCons.
    { apply SCreate; try (unfold in_pes; simpl; lia); [reflexivity|].
      unfold regions. simpl. change (heap_true_size 8192 4096) with 12288. forall_disj. }
    eapply SCons.
    { apply SCreate; try (unfold in_pes; simpl; lia); [reflexivity|].
      unfold regions. simpl. change (heap_true_size 8192 4096) with 12288. forall_disj. }
    eapply SCons.
    { apply (SAttach _ 7 4096 1); [simpl; tauto|simpl; lia|].
      intros p Hp. unfold in_pes in Hp. simpl in Hp.
      assert (p = 0 \/ p = 1) as [->| ->] by lia; eexists; reflexivity. }
    eapply SCons.
    { apply (SPut _ _ _ _ _ _ _ _ _ (OSpace 7) 16 900000); try (unfold in_pes; simpl; lia);
        [unfold count_ok, INT_MAX; lia| |reflexivity].
      split; [left; reflexivity|]. split; [split; [reflexivity|]; eexists; split; [reflexivity|simpl; lia]|].
      split; [lia|]. exists 300000, 4096. split; [reflexivity|]. split; [reflexivity|]. lia. }
    eapply SCons.
    { apply (SGet _ _ _ _ _ _ _ _ _ OData 0 500000); try (unfold in_pes; simpl; lia);
        [unfold count_ok, INT_MAX; lia| |reflexivity].
      split; [exact I|]. split; [exact I|].
      split; [lia|]. exists 600000, 64. split; [reflexivity|]. split; [reflexivity|]. lia. }
    apply SNil.
  - split; [vmr|]. split; [vmr|]. split; [vmr|]. split; [vmr|]. split; [|split; [|vmr]].
    + exists 900000, 4096. split; [reflexivity|]. split; [reflexivity|]. lia.
    + intros a [| |name] Ha (b & z & Hb & Hz & Hr); simpl in Hb, Hz.
      * injection Hb as <-. injection Hz as <-. change (heap_size 8192 4096) with 8192 in Hr. lia.
      * injection Hb as <-. injection Hz as <-. lia.
      * match type of Hb with option_map _ ?x = _ =>
          change x with (if 7 =? name then Some (mkSS 7 900000 4096 1) else None) in Hb, Hz end.
        destruct (7 =? name); simpl in Hb, Hz; [|discriminate].
        injection Hb as <-. injection Hz as <-. lia.
Qed.

(** The concrete history of two PEs with different bases, in both modes. *)
Example C12_ex : forall dyn checks, exists s w,
  reached dyn checks 4096 8192 64 ex_lay ex_mem ex_ops s w /\ s_mem s 1 900016 = 1100000.
Proof.
  intros dyn checks. destruct ex_srun as (s & Hs & E & _).
  destruct (C12_history_refines dyn checks _ _ _ _ _ _ s ex_config Hs) as (w & Hw & _).
  exists s, w. auto.
Qed.

(** ** C13 Classification *)

(** An address in object [o] is attributed to [o], which is the only object containing it; an
    address in no object is rejected by puts and gets (with error checking on). *)
Theorem C13_classification : forall dyn checks page env_size dsize lay mem ops s w p q a,
  reached dyn checks page env_size dsize lay mem ops s w -> aget (w_pes w) p = Some q ->
  (forall o, contains s p a o ->
     (exists at_ ic, query_attr_ictx q CtxDefault a = Ok (Some (at_, ic)) /\
        Some (a_base at_) = sbase s p o /\ Some (a_size at_) = ssize s p o) /\
     forall o', contains s p a o' -> o' = o) /\
  ((forall o, ~ contains s p a o) ->
     forall direct esz typesz origin n t, n <> 0 ->
       ctx_put true w p CtxDefault direct esz typesz origin a n t = Abort /\
       ctx_get true w p CtxDefault direct esz typesz origin a n t = Abort).
Proof. exact classification. Qed.
Print Assumptions C13_classification.

(** Last byte of the space, and one past it, in the concrete history. *)
Example C13_ex : exists s, srun (s_init 4096 8192 64 ex_lay ex_mem) ex_ops s /\
  contains s 1 904095 (OSpace 7) /\ forall o, ~ contains s 1 904096 o.
Proof.
  destruct ex_srun as (s & Hs & _ & _ & _ & _ & H1 & H2 & _). exists s. split; [exact Hs|].
  split; [exact H1|]. intros o. apply H2. lia.
Qed.

(** ** C14 Agreement on symmetry *)

(** For every vector of base addresses all PEs compute the same flag; it is set iff all bases are
    equal; if not, each PE records the offset of every PE's base from its own. *)
Theorem C14_symmetry_agreed : forall addrs, exists flag : bool,
  (flag = true <-> forall i j a b, aget addrs i = Some a -> aget addrs j = Some b -> a = b) /\
  forall me mine, aget addrs me = Some mine ->
    exists offs, check_symm_mem addrs me = Ok (flag, offs) /\
      (flag = true -> offs = None) /\
      (flag = false -> exists l, offs = Some l /\ length l = length addrs /\
         forall t a, aget addrs t = Some a -> aget l t = Some (a - mine)).
Proof. exact symmetry_agreed. Qed.
Print Assumptions C14_symmetry_agreed.

Example C14_ex_sym : check_symm_mem [4096; 4096; 4096] 1 = Ok (true, None).
Proof. vmr. Qed.
Example C14_ex_asym : check_symm_mem [4096; 8192; 4096] 1 = Ok (false, Some [-4096; 0; -4096]).
Proof. vmr. Qed.

(** ** C15 Collective fixed-address allocation *)

(** All PEs fail leaving every address space as it was, or all PEs succeed at one page-aligned
    address whose pages were free on every PE and are now mapped, nothing else having changed. *)
Theorem C15_symm_alloc_agreed : forall n size rnd ok ms,
  0 <= n <= 45 -> 0 < size -> size mod 2 ^ n = 0 -> (forall i j, 0 <= rnd i j) -> ms <> [] ->
  alloc_failed ms (allocate_symm_mem (2 ^ n) size rnd ok ms) \/
  exists a, alloc_succeeded (2 ^ n) size a ms (allocate_symm_mem (2 ^ n) size rnd ok ms).
Proof. exact symm_alloc_agreed. Qed.
Print Assumptions C15_symm_alloc_agreed.

(** It does succeed when the first candidate range is free and mappable everywhere. *)
Theorem C15_symm_alloc_progress : forall n size rnd ok ms,
  0 <= n <= 45 -> 0 < size -> size mod 2 ^ n = 0 -> (forall i j, 0 <= rnd i j) -> ms <> [] ->
  (forall j, ok 0%nat j = true) ->
  Forall (fun m : aspace => forall k, map_pointer (2 ^ n) (rnd 0%nat 0%nat) <= k * 2 ^ n
                             < map_pointer (2 ^ n) (rnd 0%nat 0%nat) + size -> m k = false) ms ->
  alloc_succeeded (2 ^ n) size (map_pointer (2 ^ n) (rnd 0%nat 0%nat)) ms
    (allocate_symm_mem (2 ^ n) size rnd ok ms).
Proof. exact symm_alloc_progress. Qed.
Print Assumptions C15_symm_alloc_progress.

(** Freeing an allocation restores every address space. *)
Theorem C15_symm_free_restores : forall n size a ms res,
  0 <= n <= 45 -> 0 < size -> size mod 2 ^ n = 0 ->
  alloc_succeeded (2 ^ n) size a ms res ->
  Forall2 (fun m r => forall k, free_symm_mem (2 ^ n) (fst r) a size k = m k) ms res.
Proof. exact symm_free_restores. Qed.
Print Assumptions C15_symm_free_restores.

(** Two PEs; the range is taken on PE 1 at the first attempt, free at the second. *)
Definition ex_rnd : nat -> nat -> Z := fun att k => 0x5000000000 + Z.of_nat att * 0x100000 + Z.of_nat k.
Definition ex_ms : list aspace := [fun _ => false; fun k => k =? 0x5000001].
Example C15_ex :
  map snd (allocate_symm_mem 4096 8192 ex_rnd (fun _ _ => true) ex_ms)
    = [(0, Some 0x5000100000); (0, Some 0x5000100000)] /\
  map snd (allocate_symm_mem 4096 8192 ex_rnd (fun _ p => p =? 0) ex_ms) = [(1, None); (1, None)].
Proof. split; vmr. Qed.

Definition is_ok {A} (x : outcome A) : bool := match x with Ok _ => true | _ => false end.
Definition is_ub {A} (x : outcome A) : bool := match x with UB => true | _ => false end.
Definition ex_run (dyn : bool) (ops : list wop) : outcome world :=
  do w0 <- w_init dyn 8192 4096 64 ex_lay ex_mem; wrun true w0 ops.
Lemma run_eq {A} (f : outcome world -> A) dyn ops w w0 :
  w_init dyn 8192 4096 64 ex_lay ex_mem = Ok w0 -> wrun true w0 ops = Ok w ->
  f (ex_run dyn ops) = f (Ok w).
Proof. intros H1 H2. unfold ex_run. rewrite H1. cbn [bind]. rewrite H2. reflexivity. Qed.

(** ** C54 Identification of attached spaces *)

Theorem C54_handles_agree : forall dyn checks page env_size dsize lay mem ops s w,
  reached dyn checks page env_size dsize lay mem ops s w ->
  exists h : Z -> Z,
    (forall name p q, In name (map fst (s_att s)) -> aget (w_pes w) p = Some q ->
       space_handle q name = Some (h name)) /\
    (forall n1 n2, In n1 (map fst (s_att s)) -> In n2 (map fst (s_att s)) -> h n1 = h n2 -> n1 = n2) /\
    (forall name q, In name (map fst (s_att s)) -> In q (w_pes w) ->
       h name <> a_handle (pe_heap q) /\ h name <> a_handle (pe_data q)).
Proof. exact handles_agree. Qed.
Print Assumptions C54_handles_agree.

Example C54_ex : exists s w,
  reached true true 4096 8192 64 ex_lay ex_mem ex_ops s w /\ In 7 (map fst (s_att s)).
Proof.
  destruct ex_srun as (s & Hs & _ & _ & _ & Ea & _).
  destruct (C12_history_refines true true _ _ _ _ _ _ s ex_config Hs) as (w & Hw & _).
  exists s, w. split; [exact Hw|]. rewrite Ea. left. reflexivity.
Qed.

(** ** C58 shmem_addr_accessible, shmem_ptr *)

(** shmem_pe_accessible: 1 exactly for the PEs there are, after any history. *)
Theorem C58_pe_accessible : forall dyn checks page env_size dsize lay mem ops s w t,
  reached dyn checks page env_size dsize lay mem ops s w ->
  (pe_accessible w t = 1 <-> in_pes s t) /\ (pe_accessible w t = 0 \/ pe_accessible w t = 1).
Proof. exact pe_sound. Qed.
Print Assumptions C58_pe_accessible.

(** The answer is 1 exactly for valid PEs and heap or data addresses, and then a put is
    accepted. *)
Theorem C58_accessible_partial : forall dyn checks page env_size dsize lay mem ops s w p a t,
  reached dyn checks page env_size dsize lay mem ops s w -> in_pes s p ->
  exists r, addr_accessible w p a t = Ok r /\
    (r = 1 <-> in_pes s t /\ (contains s p a OHeap \/ contains s p a OData)) /\ (r = 0 \/ r = 1) /\
    (r = 1 -> forall direct origin, exists w',
       ctx_put checks w p CtxDefault direct 1 1 origin a 1 t = Ok w').
Proof. exact accessible_sound. Qed.
Print Assumptions C58_accessible_partial.

(** "1 if a put is accepted" is false: attached spaces are reported inaccessible. *)
Theorem C58_accessible_space_refuted : exists lay mem ops s w a,
  reached false true 4096 8192 64 lay mem ops s w /\
  (exists w', ctx_put true w 0 CtxDefault true 1 1 0 a 1 1 = Ok w') /\
  addr_accessible w 0 a 1 = Ok 0.
Proof.
  destruct ex_srun as (s & Hs & _).
  destruct (C12_history_refines false true _ _ _ _ _ _ s ex_config Hs) as (w & Hw & _).
  exists ex_lay, ex_mem, ex_ops, s, w, 300010. split; [exact Hw|].
  destruct Hw as (_ & _ & w0 & E0 & E).
  pose proof (run_eq (fun r => match r with Ok w => Some (is_ok (ctx_put true w 0 CtxDefault true 1 1 0 300010 1 1)) | _ => None end) _ _ _ _ E0 E) as P1. cbv beta iota in P1.
  pose proof (run_eq (fun r => match r with Ok w => Some (addr_accessible w 0 300010 1) | _ => None end) _ _ _ _ E0 E) as P2. cbv beta iota in P2.
  split.
  - destruct (ctx_put true w 0 CtxDefault true 1 1 0 300010 1 1) as [w'| | |]; [exists w'; reflexivity| | |];
      clear P2; vm_compute in P1; discriminate.
  - destruct (addr_accessible w 0 300010 1); vm_compute in P2; congruence.
Qed.
Print Assumptions C58_accessible_space_refuted.

(** A non-NULL shmem_ptr designates the byte a get of the same address would fetch. *)
Theorem C58_ptr : forall dyn checks page env_size dsize lay mem ops s w p c a o d t r,
  reached dyn checks page env_size dsize lay mem ops s w -> in_pes s p -> in_pes s t ->
  sym_addr s p c a o d 1 -> shmem_ptr p a t = Some r ->
  exists q, aget (w_pes w) p = Some q /\
  forall direct origin, exists w' q',
    ctx_get checks w p c direct 1 1 origin a 1 t = Ok w' /\ aget (w_pes w') p = Some q' /\
    pe_mem q' origin = pe_mem q r.
Proof. exact ptr_sound. Qed.
Print Assumptions C58_ptr.

Example C58_ex : shmem_ptr 1 900016 1 = Some 900016 /\ shmem_ptr 1 900016 0 = None.
Proof. split; reflexivity. Qed.

(** ** C62 Unattached spaces *)

(** With per-object windows, or on the active-message path, communication on a space that is
    not attached is rejected. *)
Theorem C62_unattached_rejected_partial : forall dyn checks page env_size dsize lay mem ops s w
    p q name a direct esz typesz origin n t,
  reached dyn checks page env_size dsize lay mem ops s w -> in_pes s p -> in_pes s t ->
  ~ In name (map fst (s_att s)) -> contains s p a (OSpace name) -> n <> 0 ->
  dyn = false \/ direct = false ->
  aget (w_pes w) p = Some q ->
  ctx_put checks w p CtxDefault direct esz typesz origin a n t = Abort /\
  ctx_get checks w p CtxDefault direct esz typesz origin a n t = Abort.
Proof. exact unattached_rejected. Qed.
Print Assumptions C62_unattached_rejected_partial.

Definition ex_ops1 : list wop := [WCreate 0 7 300000 4096 1].
Lemma ex_srun1 : exists s, srun (s_init 4096 8192 64 ex_lay ex_mem) ex_ops1 s /\
   s_att s = [] /\ contains s 0 300008 (OSpace 7).
Proof.
  eexists. split.
  - eapply SCons; [|apply SNil]. apply SCreate; try (unfold in_pes; simpl; lia); [reflexivity|].
    unfold regions. simpl. change (heap_true_size 8192 4096) with 12288. forall_disj.
  - split; [reflexivity|]. exists 300000, 4096. split; [reflexivity|]. split; [reflexivity|]. lia.
Qed.

(** With dynamic windows the direct path reads the missing offset table. *)
Theorem C62_unattached_dynamic_refuted : exists lay mem ops s w,
  reached true true 4096 8192 64 lay mem ops s w /\
  s_att s = [] /\ contains s 0 300008 (OSpace 7) /\
  ctx_put true w 0 CtxDefault true 1 1 0 300008 1 1 = UB.
Proof.
  destruct ex_srun1 as (s & Hs & Ha & Hc).
  destruct (C12_history_refines true true _ _ _ _ _ _ s ex_config Hs) as (w & Hw & _).
  exists ex_lay, ex_mem, ex_ops1, s, w. split; [exact Hw|].
  destruct Hw as (_ & _ & w0 & E0 & E). split; [exact Ha|]. split; [exact Hc|]. clear Hs Ha Hc.
  pose proof (run_eq (fun r => match r with Ok w => Some (is_ub (ctx_put true w 0 CtxDefault true 1 1 0 300008 1 1)) | _ => None end) _ _ _ _ E0 E) as P1. cbv beta iota in P1.
  destruct (ctx_put true w 0 CtxDefault true 1 1 0 300008 1 1); vm_compute in P1; try discriminate. reflexivity.
Qed.
Print Assumptions C62_unattached_dynamic_refuted.

(** ** C63 Explicit contexts only reach their space *)

(** On the direct path a transfer through a space context that is not inside the space is
    rejected. *)
Theorem C63_ctx_bounds_partial : forall dyn checks page env_size dsize lay mem ops s w
    p t name j b z nc esz typesz origin a n,
  reached dyn checks page env_size dsize lay mem ops s w -> in_pes s p -> in_pes s t ->
  In name (map fst (s_att s)) -> slookup s p name = Some (mkSS name b z nc) -> 0 <= j < nc ->
  0 < esz -> 0 < n <= INT_MAX -> a < b \/ b + z < a + esz * n ->
  ctx_put checks w p (CtxSpace name j) true esz typesz origin a n t = Abort /\
  ctx_get checks w p (CtxSpace name j) true esz typesz origin a n t = Abort.
Proof. exact ctx_out_of_space_rejected. Qed.
Print Assumptions C63_ctx_bounds_partial.

(** On the active-message path nothing checks the address: here a put through the context of
    space 7 overwrites a byte of PE 1 that belongs to no symmetric object. *)
Theorem C63_ctx_bounds_am_refuted : exists lay mem ops s w w' q,
  reached true true 4096 8192 64 lay mem ops s w /\
  (forall o, ~ contains s 1 905000 o) /\
  ctx_put true w 0 (CtxSpace 7 0) false 1 1 100000 305000 1 1 = Ok w' /\
  aget (w_pes w') 1 = Some q /\ pe_mem q 905000 <> s_mem s 1 905000.
Proof.
  destruct ex_srun as (s & Hs & _ & _ & _ & _ & _ & H2 & HM).
  destruct (C12_history_refines true true _ _ _ _ _ _ s ex_config Hs) as (w & Hw & _).
  pose proof Hw as (_ & _ & w0 & E0 & E).
  pose proof (run_eq (fun r => match r with Ok w => Some (match ctx_put true w 0 (CtxSpace 7 0) false 1 1 100000 305000 1 1 with
     | Ok w' => option_map (fun q => pe_mem q 905000) (aget (w_pes w') 1) | _ => None end) | _ => None end) _ _ _ _ E0 E) as P1. cbv beta iota in P1.
  assert (HN : forall o, ~ contains s 1 905000 o) by (intros o; apply H2; lia).
  destruct (ctx_put true w 0 (CtxSpace 7 0) false 1 1 100000 305000 1 1) as [w'| | |] eqn:EP;
    try (vm_compute in P1; discriminate).
  destruct (aget (w_pes w') 1) as [q|] eqn:EQ; [|vm_compute in P1; discriminate].
  exists ex_lay, ex_mem, ex_ops, s, w, w', q. split; [exact Hw|]. split; [exact HN|].
  split; [exact EP|]. split; [exact EQ|]. rewrite HM. 
  set (v := pe_mem q 905000) in *. cbn [option_map] in P1. fold v in P1. clearbody v.
  vm_compute in P1. injection P1 as P1. rewrite <- P1. discriminate.
Qed.
Print Assumptions C63_ctx_bounds_am_refuted.
