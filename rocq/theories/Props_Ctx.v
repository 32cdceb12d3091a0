(** Properties of collective allocation and of contexts. *)
From Verif Require Import Base SchedModel SchedSpec SchedProofs CtxModel CtxSpec CtxProofs.
Open Scope nat_scope.
Open Scope list_scope.

(** ** C09: blocks and other PEs *)
(** When a PE releases a block, every PE has called shmem_free, and nothing that any PE does before
    that call comes later. *)
Theorem C09_free : forall n cs sched t1 p j t2,
  mtrace n cs sched = t1 ++ (p, (j, ARelease)) :: t2 ->
  (forall q, q < n -> In (q, (j, AEnter)) t1) /\
  (forall q i a, i < j -> ~ In (q, (i, a)) t2).
Proof. exact free_safe. Qed.
(** When an allocating call returns on a PE, every PE has allocated the block; so it has whenever a
    PE does something in a later call. *)
Theorem C09_malloc : forall n cs sched t1 p j t2 c,
  mtrace n cs sched = t1 ++ (p, (j, ARet)) :: t2 -> nth_error cs j = Some c -> allocates c ->
  forall q, q < n -> In (q, (j, AAlloc)) t1.
Proof. exact malloc_safe. Qed.
Theorem C09_access : forall n cs sched t1 p i a t2 j c,
  mtrace n cs sched = t1 ++ (p, (i, a)) :: t2 -> j < i -> nth_error cs j = Some c -> allocates c ->
  forall q, q < n -> In (q, (j, AAlloc)) t1.
Proof. exact access_safe. Qed.
(** The calls never block each other for good. *)
Theorem C09_no_deadlock : forall n cs sched st tr,
  srun (sinit (programs n cs)) sched = (st, tr) ->
  finished st \/ exists p st' t, sstep st p = (st', t) /\ st' <> st.
Proof. exact collective_live. Qed.
Definition cs_ex : list mcall :=
  [CMalloc 8; CUser (fun p => if p =? 0 then [(0, 1, 7%Z)] else []); CFree 0].
Example C09_ex :
  mtrace 2 cs_ex [0; 0; 1; 1; 0; 1; 1; 1; 0; 0; 0; 0; 1; 1; 0; 0; 1; 0] =
  [(0, (0, AAlloc)); (1, (0, AAlloc)); (1, (0, ARet)); (1, (2, AEnter)); (0, (0, ARet));
   (0, (1, APut 0 1 7)); (0, (2, AEnter)); (0, (2, ARelease)); (1, (2, ARelease));
   (0, (2, ARet))] /\
  allocates (CMalloc 8).
Proof. split; [vm_compute; reflexivity | discriminate]. Qed.

(** ** C61: zeroed memory *)
(** A write to a block of shmem_calloc made after the call returned is not erased: it is what the
    block holds until the next write. *)
Theorem C61_calloc_partial : forall n cs sched v0 t1 p i blk q v t2 count size,
  mtrace n cs sched = t1 ++ (p, (i, APut blk q v)) :: t2 -> blk < i ->
  nth_error cs blk = Some (CCalloc count size) ->
  (forall p' i' v', ~ In (p', (i', APut blk q v')) t2) ->
  word q blk v0 (mtrace n cs sched) = v.
Proof. exact calloc_keeps. Qed.
(** When shmem_calloc returns on any PE, the block is zero on every PE. *)
Theorem C61_calloc_zero_partial : forall n cs sched v0 t1 p j t2 count size q,
  mtrace n cs sched = t1 ++ (p, (j, ARet)) :: t2 ->
  nth_error cs j = Some (CCalloc count size) -> count <> 0%Z -> size <> 0%Z -> q < n ->
  (forall p' i' v', ~ In (p', (i', APut j q v')) t1) ->
  word q j v0 t1 = 0%Z.
Proof. exact calloc_zero. Qed.
Definition cc_ex : list mcall :=
  [CCalloc 1 8; CUser (fun p => if p =? 0 then [(0, 1, 7%Z)] else [])].
Example C61_calloc_ex :
  mtrace 2 cc_ex [0; 0; 0; 1; 1; 1; 0; 0; 0; 0; 1; 1; 1; 1] =
  [(0, (0, AAlloc)); (0, (0, AZero)); (1, (0, AAlloc)); (1, (0, AZero)); (0, (0, ARet));
   (0, (1, APut 0 1 7)); (1, (0, ARet))] /\
  word 1 0 5 (mtrace 2 cc_ex [0; 0; 0; 1; 1; 1; 0; 0; 0; 0; 1; 1; 1; 1]) = 7%Z.
Proof. split; vm_compute; reflexivity. Qed.
(** Missing: shmemx_space_calloc. A PE that has returned from the call writes to the block of
    another PE, which then erases the value. *)
Theorem C61_space_calloc_refuted : exists n cs sched t1 p i blk q v t2,
  mtrace n cs sched = t1 ++ (p, (i, APut blk q v)) :: t2 /\ blk < i /\
  nth_error cs blk = Some CSpaceCalloc /\
  (forall p' i' v', ~ In (p', (i', APut blk q v')) t2) /\
  v <> 0%Z /\ word q blk 5 (mtrace n cs sched) = 0%Z.
Proof.
  exists 2, [CSpaceCalloc; CUser (fun p => if p =? 0 then [(0, 1, 7%Z)] else [])],
    [0; 0; 1; 1; 0; 0; 0; 0; 1; 1; 1; 1],
    [(0, (0, AAlloc)); (1, (0, AAlloc)); (0, (0, AZero)); (0, (0, ARet))], 0, 1, 0, 1, 7%Z,
    [(1, (0, AZero)); (1, (0, ARet))].
  split; [vm_compute; reflexivity|]. split; [lia|]. split; [reflexivity|]. split.
  - intros p' i' v' [H|[H|[]]]; discriminate.
  - split; [discriminate | vm_compute; reflexivity].
Qed.

(** ** C75: shmem_realloc and other PEs *)
(** The call returns nowhere before the block has moved everywhere. *)
Theorem C75_realloc_return_partial : forall n cs sched t1 p j t2 b,
  mtrace n cs sched = t1 ++ (p, (j, ARet)) :: t2 -> nth_error cs j = Some (CRealloc b) ->
  forall q, q < n -> In (q, (j, AMove)) t1.
Proof. exact realloc_ret. Qed.
(** But a PE moves its block before other PEs have made the call: an access by a PE that has not
    called shmem_realloc yet comes after the move, unlike for shmem_free (C09_free). *)
Theorem C75_realloc_entry_refuted : exists n cs sched t1 p j t2 q i v,
  mtrace n cs sched = t1 ++ (p, (j, AMove)) :: t2 /\
  nth_error cs j = Some (CRealloc 0) /\ i < j /\ In (q, (i, APut 0 p v)) t2.
Proof.
  exists 2, [CMalloc 8; CUser (fun p => if p =? 0 then [(0, 1, 7%Z)] else []); CRealloc 0],
    [0; 0; 1; 1; 0; 1; 1; 1; 0; 0; 0],
    [(0, (0, AAlloc)); (1, (0, AAlloc)); (1, (0, ARet))], 1, 2,
    [(0, (0, ARet)); (0, (1, APut 0 1 7)); (0, (2, AMove))], 0, 1, 7%Z.
  split; [vm_compute; reflexivity|]. split; [reflexivity|]. split; [lia|]. cbn. auto.
Qed.
Example C75_ex :
  In (0, (2, ARet)) (mtrace 2 [CMalloc 8; CUser (fun p => []); CRealloc 0]
    [0; 0; 1; 1; 0; 1; 1; 1; 0; 0; 0; 1; 0; 0; 1; 1]).
Proof. vm_compute. tauto. Qed.

(** ** C53: contexts of a space *)
(** [n] contexts, [k] threads, any interleaving: a returned context is one of the space and is not
    in use. *)
Theorem C53_exclusive : forall n k l s h h1 t i h2,
  crun (cinit n k) l = Ok (s, h) -> h = h1 ++ EGot t i :: h2 -> i < n /\ ~ owned h1 i.
Proof. exact ctx_exclusive. Qed.
(** SHMEM_NO_CTX: every context was in use at some moment of the call. *)
Theorem C53_no_ctx : forall n k l s h h1 t h2,
  crun (cinit n k) l = Ok (s, h) -> h = h1 ++ ENone t :: h2 ->
  exists ha hb, h1 = ha ++ ECall t :: hb /\ silent t hb /\
    forall j, j < n -> owned_during ha t hb j.
Proof. exact ctx_none. Qed.
(** A call returns within n+1 steps of its own, whatever the other threads do. *)
Theorem C53_wait_free : forall t l s s' h k,
  crun s l = Ok (s', h) -> nth_error (c_thr s) t = Some (Some k) ->
  length (c_flags s) < k + steps_of t l -> k <= length (c_flags s) ->
  exists e, In e h /\ ((exists i, e = EGot t i) \/ e = ENone t).
Proof. exact wait_free. Qed.
(** Undisturbed, a call returns the first context that is not in use, also if it was destroyed
    before, and fails only if all are in use. *)
Theorem C53_alone : forall n k l s h t,
  crun (cinit n k) l = Ok (s, h) -> nth_error (c_thr s) t = Some None ->
  (exists i s', i < n /\ ~ owned h i /\ (forall j, j < i -> owned h j) /\
     crun s (ACall t :: repeat (AStep t) (S n)) = Ok (s', [ECall t; EGot t i])) \/
  ((forall j, j < n -> owned h j) /\
   exists s', crun s (ACall t :: repeat (AStep t) (S n)) = Ok (s', [ECall t; ENone t])).
Proof. exact ctx_alone. Qed.
(** With error checking, detaching the space stops iff a context is still in use. *)
Theorem C53_detach : forall n k l s h, crun (cinit n k) l = Ok (s, h) ->
  (detach_flags true (c_flags s) = Ok tt /\ forall i, ~ owned h i) \/
  (detach_flags true (c_flags s) = Abort /\ exists i, owned h i).
Proof. exact ctx_detach. Qed.
Example C53_ex :
  exists s, crun (cinit 2 3)
    [ACall 0; ACall 1; AStep 1; AStep 0; ACall 2; AStep 2; AStep 0; ADestroy 1 0; AStep 2; AStep 2;
     ACall 1; AStep 1] =
  Ok (s, [ECall 0; ECall 1; EGot 1 0; ECall 2; EGot 0 1; EDestroy 1 0; ENone 2; ECall 1; EGot 1 0]) /\
  nth_error (c_thr s) 2 = Some None.
Proof. eexists. split; vm_compute; reflexivity. Qed.

(** ** C57: contexts that cannot be created *)
Open Scope Z_scope.
Theorem C57_create : forall s options t, exists r1 r2,
  acallf s (LCreate options) = Ok (s, RCtx r1 HInvalid) /\ r1 <> 0 /\
  acallf s (LTeamCreate t options) = Ok (s, RCtx r2 HInvalid) /\ r2 <> 0 /\
  (t <> TInvalid -> r2 = r1).
Proof.
  intros s options t. exists NO_CTX. destruct t; eexists; (split; [reflexivity|]);
    (split; [discriminate|]); (split; [reflexivity|]); (split; [discriminate|]); congruence.
Qed.
Theorem C57_invalid : forall s,
  acallf s (LDestroy HInvalid) = Ok (s, RNone) /\ acallf s (LDestroy HDefault) = Ok (s, RNone) /\
  (exists r, acallf s (LGetTeam HInvalid) = Ok (s, RTeam r TInvalid) /\ r <> 0) /\
  acallf s (LGetTeam HDefault) = Ok (s, RTeam 0 TWorld).
Proof.
  intros s. repeat split; try reflexivity. exists OTHER_ERR. split; [reflexivity | discriminate].
Qed.
(** Any sequence of failing creations and of the calls above changes no context. *)
Fixpoint apirun (s : api) (l : list acall) : outcome api :=
  match l with [] => Ok s | c :: l => do (s, _) <- acallf s c; apirun s l end.
Definition harmless (c : acall) : Prop :=
  match c with
  | LCreate _ | LTeamCreate _ _ | LGetTeam _ => True
  | LDestroy c => c = HInvalid \/ c = HDefault
  | _ => False
  end.
Theorem C57_unchanged : forall l s, Forall harmless l -> apirun s l = Ok s.
Proof.
  induction l as [|c l IH]; intros s F; inversion F as [|? ? H F']; subst; cbn; auto.
  destruct c as [o|t o|c|c|c|c]; cbn in H |- *; try tauto; auto.
  - destruct t; cbn; auto.
  - destruct H as [-> | ->]; cbn; auto.
  - destruct c; cbn; auto.
Qed.
Example C57_ex :
  Forall harmless [LCreate 3; LTeamCreate TWorld 0; LDestroy HInvalid; LGetTeam (HSpace 1)] /\
  acallf {| a_flags := [1; 1]; a_out := [] |} (LDestroy (HSpace 1)) =
    Ok ({| a_flags := [1; 0]; a_out := [] |}, RNone).
Proof. split; [repeat constructor; cbn; auto | reflexivity]. Qed.

(** ** C74: ordering calls on SHMEM_CTX_INVALID *)
(** The handle that a failed creation leaves is dereferenced. *)
Theorem C74_invalid_quiet_refuted : forall s options,
  exists r, acallf s (LCreate options) = Ok (s, RCtx r HInvalid) /\
    acallf s (LQuiet HInvalid) = UB /\ acallf s (LFence HInvalid) = UB.
Proof. intros s options. exists NO_CTX. split; [|split]; reflexivity. Qed.

Print Assumptions C09_free.
Print Assumptions C09_malloc.
Print Assumptions C09_access.
Print Assumptions C09_no_deadlock.
Print Assumptions C61_calloc_partial.
Print Assumptions C61_calloc_zero_partial.
Print Assumptions C61_space_calloc_refuted.
Print Assumptions C75_realloc_return_partial.
Print Assumptions C75_realloc_entry_refuted.
Print Assumptions C53_exclusive.
Print Assumptions C53_no_ctx.
Print Assumptions C53_wait_free.
Print Assumptions C53_alone.
Print Assumptions C53_detach.
Print Assumptions C57_create.
Print Assumptions C57_invalid.
Print Assumptions C57_unchanged.
Print Assumptions C74_invalid_quiet_refuted.
