(** C106: critical sections are used only while their mutexes exist. *)
From Verif Require Import Base LkModel LkSpec LkProofs CsModel CsSpec CsProofs CsProofs2.

(** However many PEs and threads, whatever calls they make in whatever schedule, from the start of initialisation to the end of
    finalisation: no mutex is entered, left or destroyed that is not initialised, none is initialised twice or destroyed while
    taken. (Builds whose polls enter a mutex nobody initialises are refuted below.) *)
Theorem C106_never_wrong_partial b np nt xs o : polled_mutex_exists b -> xrun b np nt (xst0 b) xs = Some o -> exists s, o = Ok s.
Proof. intros P R. destruct (XI_run b np nt P xs _ _ (XI0 b np nt) R) as (s & E & _). eauto. Qed.
Print Assumptions C106_never_wrong_partial.

(** In every reachable state: what a thread is about to enter or leave, and what a thread is in, is initialised. *)
Theorem C106_alive_partial b np nt s p i l : polled_mutex_exists b -> reachable b np nt s ->
  about_to_use s p i l \/ l_own (x_l s) p l = Some i -> x_alive s p l = true.
Proof.
  intros P (xs & R) U. destruct (XI_run b np nt P xs _ _ (XI0 b np nt) R) as (s' & E & I). injection E as <-.
  apply (xi_alive _ _ _ _ I p i l). destruct U as [(r & [T|T])|O].
  - rewrite T. cbn. rewrite (proj2 (lk_eqb_eq l l) eq_refl). reflexivity.
  - rewrite T. cbn. rewrite (proj2 (lk_eqb_eq l l) eq_refl). reflexivity.
  - destruct (xi_run _ _ _ _ I) as (ls & L). eapply owner_mentions; eauto.
Qed.
Print Assumptions C106_alive_partial.

(** After shmem_finalize no mutex of the library is left, but that of the heap with a dynamic window. *)
Theorem C106_released_partial b np nt s p l : polled_mutex_exists b -> reachable b np nt s -> x_ph s p = PDone -> is_pool l = false ->
  x_alive s p l = true -> l = LHeap /\ b_dyn b = true.
Proof.
  intros P (xs & R) D NP A. destruct (XI_run b np nt P xs _ _ (XI0 b np nt) R) as (s' & E & I). injection E as <-.
  apply done_static; [exact NP|]. rewrite <- D, <- (xi_static _ _ _ _ I p l NP). exact A.
Qed.
Print Assumptions C106_released_partial.

(** The mutex of a space lives from the creation of the space until its destruction. *)
Theorem C106_spaces b np nt xs s p k : polled_mutex_exists b -> xrun b np nt (xst0 b) xs = Some (Ok s) ->
  x_alive s p (LPool k) = space_life p k xs.
Proof. intros P R. exact (pool_run b np nt P xs p k _ _ (XI0 b np nt) R). Qed.
Print Assumptions C106_spaces.

(** Direct atomics and direct RMA without a progress thread: OSHMPI_am_initialize returns at once (am_impl.c:192), but waiting for
    the barrier of shmem_init polls, and enters the progress mutex. *)
Theorem C106_direct_refuted : exists xs, xrun (mkB false false false true) 1 1 (xst0 (mkB false false false true)) xs = Some UB.
Proof. exists (repeat (XEv 0) 4 ++ [XReady 0 1] ++ repeat (XGo 0 0) 3). vm_compute. reflexivity. Qed.
Print Assumptions C106_direct_refuted.

(** With a dynamic window finalize_impl does not destroy the mutex of the heap (setup_impl.c:872-890). *)
Theorem C106_heap_refuted : exists xs s, let b := mkB true false true true in
  xrun b 1 1 (xst0 b) xs = Some (Ok s) /\ x_ph s 0 = PDone /\ x_alive s 0 LHeap = true.
Proof.
  exists (repeat (XEv 0) 6 ++ [XReady 0 0; XGo 0 0; XUser 0; XFin 0 0; XGo 0 0; XEnd 0] ++ repeat (XEv 0) 6).
  eexists. cbv zeta. split; [vm_compute; reflexivity|]. split; reflexivity.
Qed.
Print Assumptions C106_heap_refuted.

(** Two PEs with progress threads. PE 0 creates, uses and destroys space 7; PE 1 starts a strided put to PE 0; both finalise. PE 0
    has already released its communicators when its progress thread takes the header; it is in the section of the datatype cache
    there. Then PE 0 stops the thread and releases the rest. *)
Definition ex_b : bld := mkB true true false true.
Definition ex_start (p : Z) : list xlab := repeat (XEv p) 6 ++ [XReady p 1] ++ repeat (XGo p 0) 2.
Definition ex_one : list xlab :=
  ex_start 0 ++ ex_start 1 ++ [XUser 0; XUser 1; XCreate 0 0 7] ++ repeat (XGo 0 0) 5 ++
  [XCall 0 0 (CSpaceMalloc 7 [] 0 0)] ++ repeat (XGo 0 0) 7 ++ [XDestroy 0 0 7] ++ repeat (XGo 0 0) 3 ++ [XKill 0 0 7] ++
  [XCall 1 0 (CIput true SMiss 0 0)] ++ repeat (XGo 1 0) 9 ++ [XFin 0 0; XGo 0 0; XFin 1 0; XGo 1 0; XEnd 0; XEv 0] ++
  [XRound 0; XHdr 0 engine 0 true SHit] ++ repeat (XGo 0 engine) 3.
Definition ex_two : list xlab := ex_one ++ repeat (XGo 0 engine) 2 ++ repeat (XEv 0) 6.
Example C106_nonvacuous : polled_mutex_exists ex_b /\
  (exists s, xrun ex_b 2 1 (xst0 ex_b) ex_one = Some (Ok s) /\ x_alive s 0 LComm = false /\ l_own (x_l s) 0 LStrided = Some engine /\
     about_to_use s 0 engine LStrided /\ x_alive s 0 (LPool 7) = false) /\
  (exists s, xrun ex_b 2 1 (xst0 ex_b) ex_two = Some (Ok s) /\ x_ph s 0 = PDone /\ x_ph s 1 = PBar /\ x_alive s 1 LHeap = true).
Proof.
  split; [left; reflexivity|]. split.
  - eexists. split; [vm_compute; reflexivity|]. split; [reflexivity|]. split; [reflexivity|]. split; [|reflexivity].
    eexists. right. vm_compute. reflexivity.
  - eexists. split; [vm_compute; reflexivity|]. split; [reflexivity|]. split; reflexivity.
Qed.
