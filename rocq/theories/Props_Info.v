(** C109: the hints windows are created with, and the memory of spaces. *)
From Coq Require Import String.
From Verif Require Import Base EnvModel InfoModel InfoSpec InfoProofs.
Open Scope string_scope.
Open Scope Z_scope.

(** After any valid history of creating, destroying, attaching and detaching spaces, what is allocated is the memory of the spaces that
    exist, each block from the allocator of its kind; the windows that exist are those of the spaces that are attached, besides the ones of
    initialisation, each once; and each has the keys it is to have and no others. *)
Theorem C109_history b l s : room b -> arun b l s -> exists t, started b l = Ok t /\ memory_ok s (s_live t) /\ windows_ok b s (s_wins t).
Proof. exact (rel_ok b l s). Qed.
Print Assumptions C109_history.

(** Each window of a context of an attached space has the preference the space was created with. *)
Theorem C109_context_hint b l s t id a k : room b -> arun b l s -> started b l = Ok t -> In (id, a) s -> a_att a = true -> (k < a_nctx a)%nat ->
  exists i, In (WCtx id k, i) (s_wins t) /\ i "perf_preference" = preference (a_hints a).
Proof. exact (context_hint b l s t id a k). Qed.
Print Assumptions C109_context_hint.

(** So has the window that accesses to the space on the default context use, unless the build has one dynamic window. Missing: the
    dynamic build, for which this is false, see below. *)
Theorem C109_default_hint_partial b l s t id a : room b -> b_dyn b = false -> arun b l s -> started b l = Ok t -> In (id, a) s -> a_att a = true ->
  exists i, In (default_win b id, i) (s_wins t) /\ i "perf_preference" = preference (a_hints a).
Proof. exact (default_hint b l s t id a). Qed.
Print Assumptions C109_default_hint_partial.

(** Memory of a kind that the build does not have is refused, whatever has happened before. *)
Theorem C109_unbuilt b id k n h base t : ~ built b (from k) -> create b id k n h base t = Abort.
Proof. exact (unbuilt b id k n h base t). Qed.
Print Assumptions C109_unbuilt.

(** An MPI with too little room for the list of operations is refused at once when checks are on. *)
Theorem C109_short b l : b_checks b = true -> b_maxlen b < 38 -> started b l = Abort.
Proof. exact (short_aborts b l). Qed.
Print Assumptions C109_short.

(** What the debug message of a new space shows fits in its buffer and tells hints and allocators apart. *)
Theorem C109_shown checks k k' h h' : hints_str checks 64 h = Ok (String.concat "," (hints_list h)) /\
  (hints_str checks 64 h = hints_str checks 64 h' -> preference h = preference h' /\ hints_list h = hints_list h') /\
  (memkind_str k = memkind_str k' <-> from k = from k').
Proof.
  rewrite !shown_hints. split; [reflexivity|]. split; [|apply shown_kind]. intros E. apply shown_same. congruence.
Qed.
Print Assumptions C109_shown.

Definition c109_build (dyn : bool) : build := mkBuild dyn true false true 1024 33.
Definition c109_ops : list op := [Create 7 1 2 1 4096; Create 8 0 0 2 8192; Attach 7; Attach 8; Detach 8; Destroy 8].
Definition c109_space : ast := [(7, mkA 1 2 1 4096 true)].

Lemma c109_valid dyn : arun (c109_build dyn) c109_ops c109_space.
Proof.
  set (b := c109_build dyn).
  assert (R1 : arun b [Create 7 1 2 1 4096] [(7, mkA 1 2 1 4096 false)]).
  { apply (ACreate b [] []); [constructor| | | |]; cbn; try tauto; try reflexivity; discriminate. }
  assert (R2 : arun b [Create 7 1 2 1 4096; Create 8 0 0 2 8192] [(7, mkA 1 2 1 4096 false); (8, mkA 0 0 2 8192 false)]).
  { apply (ACreate b _ _ 8 0 0 2 8192 R1); cbn; try tauto; try (intros [X|[]]; discriminate). discriminate. }
  pose proof (AAttach b _ [] [(8, mkA 0 0 2 8192 false)] 7 (mkA 1 2 1 4096 false) R2 eq_refl) as R3.
  pose proof (AAttach b _ [(7, mkA 1 2 1 4096 true)] [] 8 (mkA 0 0 2 8192 false) R3 eq_refl) as R4.
  pose proof (ADetach b _ [(7, mkA 1 2 1 4096 true)] [] 8 (mkA 0 0 2 8192 true) R4 eq_refl) as R5.
  exact (ADestroy b _ [(7, mkA 1 2 1 4096 true)] [] 8 (mkA 0 0 2 8192 false) R5 eq_refl).
Qed.

(** In the dynamic build the window that accesses to an attached space on the default context use is the one of initialisation, without the
    preference the space was created with. *)
Theorem C109_default_hint_refuted : exists b l s t id a i,
  room b /\ arun b l s /\ started b l = Ok t /\ In (id, a) s /\ a_att a = true /\ preference (a_hints a) = Some "lat" /\
  In (default_win b id, i) (s_wins t) /\ i "perf_preference" = None.
Proof.
  destruct (C109_history (c109_build true) c109_ops c109_space ltac:(unfold room; cbn; lia) (c109_valid true)) as (t & E & _ & _ & W & I).
  pose proof (proj2 (W WSymm) eq_refl) as J. apply in_map_iff in J. destruct J as ((w & i) & X & J). cbn in X. subst w.
  exists (c109_build true), c109_ops, c109_space, t, 7, (mkA 1 2 1 4096 true), i.
  split; [unfold room; cbn; lia|]. split; [apply c109_valid|]. split; [exact E|]. split; [left; reflexivity|]. split; [reflexivity|].
  split; [reflexivity|]. split; [exact J|]. pose proof (I _ _ J) as K. exact (K "perf_preference").
Qed.
Print Assumptions C109_default_hint_refuted.

(** A CUDA space with two contexts that prefers latency; a host space with message rate has come and gone. *)
Example C109_nonvacuous :
  room (c109_build false) /\ arun (c109_build false) c109_ops c109_space /\
  match started (c109_build false) c109_ops with
  | Ok t => s_live t = [(ACuda, 4096)] /\ map fst (s_wins t) = [WData; WHeap; WDefault 7; WCtx 7 0; WCtx 7 1] /\
      map (fun e => snd e "perf_preference") (s_wins t) = [None; None; Some "lat"; Some "lat"; Some "lat"] /\
      map (fun e => snd e "which_accumulate_ops") (s_wins t) = repeat (Some "cswap,sum,no_op") 5 /\
      map (fun e => snd e "alloc_shm") (s_wins t) = [None; Some "true"; None; None; None]
  | _ => False
  end.
Proof. split; [unfold room; cbn; lia|]. split; [apply c109_valid|]. vm_compute. repeat split. Qed.
Example C109_unbuilt_nonvacuous : ~ built (c109_build false) (from 2).
Proof. cbn. discriminate. Qed.
