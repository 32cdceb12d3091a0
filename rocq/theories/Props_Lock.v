(** Property theorems C31-C35 and C64 (the distributed lock). *)
From Verif Require Import Base BaseProofs ListLib SobjModel SobjSpec SobjFinal Props_Sobj
  LockModel LockProofs LockProofs2 LockProofs3.

(** ** C31 Mutual exclusion *)

(** In no reachable state do two PEs hold the lock. *)
Theorem C31_exclusion : forall n s p p', n <= INT_MAX -> lreach n s ->
  lk_pc s p = Held -> lk_pc s p' = Held -> p = p'.
Proof. exact held_unique. Qed.
Print Assumptions C31_exclusion.

(** On the trace of returned calls: the acquisitions and releases of every execution alternate,
    each release by the PE that acquired last, and the PE that acquired last is the one holding. *)
Theorem C31_trace : forall n ls, n <= INT_MAX ->
  exists h, evs_ok None (snd (lrun n l_init ls)) = Some h /\
    forall p, h = Some p <-> lk_pc (fst (lrun n l_init ls)) p = Held.
Proof. exact trace_exclusion. Qed.
Print Assumptions C31_trace.

(** Three PEs contend; 2 is handed the lock while 1 is still waiting. *)
Definition ex_sched : list label :=
  [(0, OpSet); (1, OpSet); (0, OpGo); (2, OpSet); (2, OpGo); (1, OpGo); (0, OpClear); (1, OpGo);
   (0, OpGo); (2, OpGo); (0, OpGo); (0, OpGo); (0, OpGo); (2, OpGo); (1, OpGo)].
Example C31_nonvacuous :
  lk_pc (fst (lrun 3 l_init ex_sched)) 2 = Held /\ lk_pc (fst (lrun 3 l_init ex_sched)) 1 = SWait /\
  snd (lrun 3 l_init ex_sched) = [EEnq 0; EAcq 0; EEnq 2; EEnq 1; ERel 0; EAcq 2].
Proof. split; [vmr|]. split; vmr. Qed.

(** ** C32 First come, first served *)

(** The sequence of PEs that reached the tail word is the sequence of PEs that acquired,
    followed by exactly the PEs that are waiting now. *)
Theorem C32_fifo : forall n ls, n <= INT_MAX ->
  exists waiting, enqs (snd (lrun n l_init ls)) = acqs (snd (lrun n l_init ls)) ++ waiting /\ NoDup waiting /\
    forall p, In p waiting <-> waits (fst (lrun n l_init ls)) p.
Proof. exact fifo_from_init. Qed.
Print Assumptions C32_fifo.

Example C32_nonvacuous :
  enqs (snd (lrun 3 l_init ex_sched)) = [0; 2; 1] /\ acqs (snd (lrun 3 l_init ex_sched)) = [0; 2].
Proof. split; vmr. Qed.

(** ** C33 No lost hand-over *)

(** From every reachable state, on every schedule in which each PE keeps taking steps and every
    holder releases, a waiting PE acquires within 7n rounds. *)
Theorem C33_bounded_wait : forall n s p rs, n <= INT_MAX -> lreach n s -> waits s p ->
  (forall r, In r rs -> fair_round n r) -> 7 * n <= Z.of_nat (length rs) ->
  In (EAcq p) (snd (lrun n s (concat rs))).
Proof. exact bounded_wait. Qed.
Print Assumptions C33_bounded_wait.

(** When every PE has released, the lock words are as at the start, up to a stale signal bit of
    next, which set_lock clears. *)
Theorem C33_free_again : forall n s, n <= INT_MAX -> lreach n s -> (forall p, lk_pc s p = Idle) ->
  lk_last s = 0 /\ forall p, NEXT (lk_next s p) = 0.
Proof. exact all_idle. Qed.
Print Assumptions C33_free_again.

Example C33_nonvacuous :
  lreach 3 (fst (lrun 3 l_init ex_sched)) /\ waits (fst (lrun 3 l_init ex_sched)) 1 /\
  fair_round 3 [(0, OpGo); (0, OpClear); (1, OpGo); (1, OpClear); (2, OpGo); (2, OpClear)].
Proof.
  split; [exists ex_sched; reflexivity|]. split; [left; vmr|].
  intros q Hq. assert (C : q = 0 \/ q = 1 \/ q = 2) by lia. destruct C as [->|[->| ->]]; simpl; tauto.
Qed.

(** ** C34 test_lock *)

(** The lock is free iff no PE is between reaching the tail word and the end of clear_lock. *)
Theorem C34_test_exact : forall n s p, n <= INT_MAX -> lreach n s -> 0 <= p < n -> lk_pc s p = Idle ->
  (lock_free s /\ snd (lstep s p OpTest) = [EEnq p; EAcq p] /\ lk_pc (fst (lstep s p OpTest)) p = Held /\
     forall q, q <> p -> lk_pc (fst (lstep s p OpTest)) q = lk_pc s q) \/
  (~ lock_free s /\ lstep s p OpTest = (s, [ETestFail p])).
Proof. exact test_exact. Qed.
Print Assumptions C34_test_exact.

Theorem C34_test_held : forall n s p, n <= INT_MAX -> lreach n s -> 0 <= p < n -> lk_pc s p = Held ->
  lstep s p OpTest = (s, [ETestFail p]).
Proof. exact test_held. Qed.
Print Assumptions C34_test_held.

Example C34_nonvacuous :
  lk_pc (fst (lrun 3 l_init ex_sched)) 0 = Idle /\ lk_pc (fst (lrun 3 l_init ex_sched)) 2 = Held.
Proof. split; vmr. Qed.

(** ** C35 Placement of the lock words *)

(** With per-object windows, or when the object has the same base on the PE concerned as on
    PE 0, every PE accesses the last word of PE 0 and the next word of each PE t. *)
Theorem C35_lock_words_partial : forall dyn checks page env_size dsize lay mem ops s w p t lockp o d b0 bt,
  reached dyn checks page env_size dsize lay mem ops s w -> in_pes s p -> in_pes s t -> in_pes s 0 ->
  sym_addr s p CtxDefault lockp o d 8 -> sbase s 0 o = Some b0 -> sbase s t o = Some bt ->
  dyn = false \/ bt = b0 ->
  lock_last_addr checks w p lockp = Ok (b0 + d) /\
  lock_next_addr checks w p lockp t = Ok (bt + d + 4).
Proof. exact lock_addrs. Qed.
Print Assumptions C35_lock_words_partial.

Lemma ex_srun0 : srun (s_init 4096 8192 64 ex_lay ex_mem) [] (s_init 4096 8192 64 ex_lay ex_mem).
Proof. apply SNil. Qed.
Lemma ex_lock_sym : sym_addr (s_init 4096 8192 64 ex_lay ex_mem) 1 CtxDefault 200016 OHeap 16 8.
Proof.
  split; [exact I|]. split; [exact I|]. split; [lia|]. exists 200000, 8192. repeat split. lia.
Qed.

Example C35_nonvacuous : exists s w,
  reached false true 4096 8192 64 ex_lay ex_mem [] s w /\ sym_addr s 1 CtxDefault 200016 OHeap 16 8 /\
  sbase s 0 OHeap = Some 100000 /\ sbase s 1 OHeap = Some 200000.
Proof.
  destruct (C12_history_refines false true _ _ _ _ _ _ _ ex_config ex_srun0) as (w & Hw & _).
  exists (s_init 4096 8192 64 ex_lay ex_mem), w. split; [exact Hw|]. split; [exact ex_lock_sym|]. split; reflexivity.
Qed.

(** With dynamic windows and different heap bases, the access of PE 1 to its own next word goes
    to the address that word has on PE 0. *)
Theorem C35_lock_words_refuted : exists lay mem ops s w,
  reached true true 4096 8192 64 lay mem ops s w /\
  sym_addr s 1 CtxDefault 200016 OHeap 16 8 /\ sbase s 1 OHeap = Some 200000 /\
  lock_next_addr true w 1 200016 1 <> Ok (200000 + 16 + 4).
Proof.
  destruct (C12_history_refines true true _ _ _ _ _ _ _ ex_config ex_srun0) as (w & Hw & _).
  exists ex_lay, ex_mem, [], (s_init 4096 8192 64 ex_lay ex_mem), w. split; [exact Hw|].
  split; [exact ex_lock_sym|]. split; [reflexivity|].
  destruct Hw as (_ & _ & w0 & E0 & E).
  pose proof (run_eq (fun r => match r with Ok w => lock_next_addr true w 1 200016 1 | _ => NoFuel end) _ _ _ _ E0 E) as P1.
  cbv beta iota in P1. rewrite <- P1. vm_compute. discriminate.
Qed.
Print Assumptions C35_lock_words_refuted.

(** ** C64 Updates of a critical section *)

(** A program that writes only while holding and calls shmem_quiet before each shmem_clear_lock:
    whoever acquires finds all earlier writes performed. *)
Theorem C64_quiet_visible_partial : forall n v0 os s ev p s',
  n <= INT_MAX -> disciplined n (lm_init v0) os -> lmrun n (lm_init v0) os = (s, ev) ->
  forall o ev', lmstep n s (MLock (p, o)) = (s', ev') -> In (EAcq p) ev' ->
  lm_mem s' = last_put v0 os /\ lm_pend s' = [].
Proof. exact quiet_visible. Qed.
Print Assumptions C64_quiet_visible_partial.

Definition ex_cs : list mop :=
  [MLock (0, OpSet); MLock (0, OpGo); MPut 5; MPut 6; MDeliver; MQuiet; MLock (0, OpClear); MLock (1, OpSet)].
Example C64_nonvacuous :
  disciplined 2 (lm_init 0) ex_cs /\ last_put 0 ex_cs = 6 /\
  snd (lmstep 2 (fst (lmrun 2 (lm_init 0) ex_cs)) (MLock (1, OpGo))) = [EEnq 1; EAcq 1].
Proof.
  split; [|split; [vmr|vmr]].
  repeat first
    [ apply di_nil
    | apply di_lock; [let H := fresh in intros H; first [discriminate H | vm_compute; reflexivity]|]
    | apply di_put; [exists 0; vm_compute; reflexivity|]
    | apply di_deliver | apply di_quiet ].
Qed.

(** Without the quiet (clear_lock itself performs none) the next holder reads the old value. *)
Definition ex_noquiet : list mop :=
  [MLock (0, OpSet); MLock (0, OpGo); MPut 5; MLock (0, OpClear); MLock (1, OpSet); MLock (1, OpGo)].
Theorem C64_release_refuted : exists os,
  snd (lmrun 2 (lm_init 0) os) = [EEnq 0; EAcq 0; ERel 0; EEnq 1; EAcq 1] /\
  lm_mem (fst (lmrun 2 (lm_init 0) os)) <> last_put 0 os.
Proof. exists ex_noquiet. split; [vmr|]. vm_compute. discriminate. Qed.
Print Assumptions C64_release_refuted.
