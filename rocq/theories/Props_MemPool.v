(** Property theorems for allocation from spaces (C01-C07). *)
From Verif Require Import Base MemPoolModel MemPoolSpec MemPoolProofs2 MemPoolFinal.

(** ** A concrete history used by the non-vacuity examples: a 4-page heap at 65536; allocate
    two pages and one byte, free the two pages, allocate 5000 bytes again. *)
Definition ex_ops : list pop := [PMalloc 8192; PMalloc 1; PFree 65536; PMalloc 5000].

Example ex_heap : heap_ok 65536 16384 4096 /\ Forall (ok_req 4096) ex_ops /\
  exists p rs, reached 65536 16384 4096 true ex_ops p rs /\
    held 4096 ex_ops rs = [(65536, 5000); (73728, 1)].
Proof.
  split.
  { unfold heap_ok. split; [exists 12; split; [lia|reflexivity]|]. vm_compute. intuition discriminate. }
  split.
  { unfold ex_ops, ok_req, INT_MAX. repeat constructor; lia. }
  eexists; eexists; split; [eexists; split; [vmr|vmr] | vmr].
Qed.

(** C01. The heap laid out by space creation is a valid heap no smaller than requested. *)
Theorem C01_space_heap_size :
  forall base sheap k,
    0 <= k < 32 -> 0 <= base -> 0 < sheap -> sheap <= 2 ^ k * INT_MAX ->
    base + sheap + 2 ^ k <= 2 ^ 63 ->
    heap_ok base (c_align sheap (2 ^ k)) (2 ^ k) /\
    sheap <= c_align sheap (2 ^ k) < sheap + 2 ^ k.
Proof. exact heap_of_config. Qed.
Print Assumptions C01_space_heap_size.
Example C01_heap_ex : 0 <= 12 < 32 /\ 0 < 10000 /\ 10000 <= 2 ^ 12 * INT_MAX /\
  c_align 10000 (2 ^ 12) = 12288.
Proof. vm_compute. intuition discriminate. Qed.

(** C01, C02. A space that has just been created is such a heap without blocks, less than a page larger than requested, and
    one block of the requested size fits. *)
Theorem C01_space_created :
  forall base sheap k,
    0 <= k < 32 -> 0 <= base -> 0 < sheap -> sheap <= 2 ^ k * INT_MAX ->
    base + sheap + 2 ^ k <= 2 ^ 63 ->
    exists p size p', space_pool base sheap (2 ^ k) = Ok p /\
      sheap <= size < sheap + 2 ^ k /\ heap_ok base size (2 ^ k) /\
      reached base size (2 ^ k) true [] p [] /\ space_malloc p sheap = Ok (p', Some base).
Proof. exact space_created. Qed.
Print Assumptions C01_space_created.

(** C01. Blocks held after any history are inside the heap, page aligned relative to its
    base, and pairwise disjoint over their requested sizes. *)
Theorem C01_space_blocks_disjoint :
  forall base size page checks ops p rs,
    heap_ok base size page -> Forall (ok_req page) ops ->
    reached base size page checks ops p rs ->
    (forall a s, In (a, s) (held page ops rs) ->
       base <= a /\ a + s <= base + size /\ (a - base) mod page = 0) /\
    ForallOrdPairs (fun b c => disjoint (fst b) (snd b) (fst c) (snd c)) (held page ops rs).
Proof. exact final_disjoint. Qed.
Print Assumptions C01_space_blocks_disjoint.

(** C01. No history of valid requests has undefined behaviour; without error checking every
    history runs to completion, with it the only other outcome is an abort. *)
Theorem C01_space_history_safe :
  forall base size page checks ops,
    heap_ok base size page -> Forall (ok_req page) ops ->
    exists p0, mempool_init base size page = Ok p0 /\
      prun checks p0 ops <> UB /\ prun checks p0 ops <> NoFuel /\
      (checks = false -> exists r, prun checks p0 ops = Ok r).
Proof. exact final_safe. Qed.
Print Assumptions C01_space_history_safe.

(** C02 (requests up to INT_MAX pages). First fit; NULL only when no run of free pages is
    long enough, and then nothing changes. Missing: larger requests, see the refutation. *)
Theorem C02_space_malloc_first_fit_partial :
  forall base size page checks ops p rs s,
    heap_ok base size page -> Forall (ok_req page) ops ->
    reached base size page checks ops p rs -> 0 < s <= page * INT_MAX ->
    let room o := free_run base page (size / page) (held page ops rs) o (pages page s) in
    exists p' r, space_malloc p s = Ok (p', r) /\
      match r with
      | Some ptr => exists o, ptr = base + o * page /\ room o /\ forall o', o' < o -> ~ room o'
      | None => p' = p /\ forall o, ~ room o
      end.
Proof. exact final_alloc. Qed.
Print Assumptions C02_space_malloc_first_fit_partial.

(** The example state has room for one page (at page 3) but not for two. *)
Example C02_ex : forall p rs, reached 65536 16384 4096 true ex_ops p rs ->
  (exists p', space_malloc p 4096 = Ok (p', Some (65536 + 3 * 4096))) /\
  space_malloc p 4097 = Ok (p, None).
Proof.
  intros p rs (p0 & H1 & H2). vm_compute in H1. injection H1 as <-.
  vm_compute in H2. injection H2 as <- <-. split; [eexists|]; vm_compute; reflexivity.
Qed.

(** C02 is false for huge requests: page counts are truncated to int, so a request larger
    than the whole heap is granted one page. *)
Theorem C02_space_malloc_huge_refuted :
  exists base size page p s p' ptr,
    heap_ok base size page /\ mempool_init base size page = Ok p /\
    0 < s < 2 ^ 64 /\ s > size /\ space_malloc p s = Ok (p', Some ptr).
Proof.
  exists 65536, 4096, 4096. eexists. exists (4096 * 2 ^ 32 + 1). eexists; eexists.
  split.
  { unfold heap_ok. split; [exists 12; split; [lia|reflexivity]|]. vm_compute. intuition discriminate. }
  split; [vm_compute; reflexivity|].
  split; [lia|]. split; [lia|]. vm_compute. reflexivity.
Qed.
Print Assumptions C02_space_malloc_huge_refuted.

(** C03. Freeing the start of a held block succeeds and its room can be allocated again. *)
Theorem C03_space_free_releases :
  forall base size page checks ops p rs a s t,
    heap_ok base size page -> Forall (ok_req page) ops ->
    reached base size page checks ops p rs ->
    In (a, s) (held page ops rs) -> 0 < t <= s -> s <= page * INT_MAX ->
    exists p', pstep checks p (PFree a) = Ok (p', None) /\
      exists p'' q, space_malloc p' t = Ok (p'', Some q).
Proof. exact final_free. Qed.
Print Assumptions C03_space_free_releases.
Example C03_ex : exists p rs, reached 65536 16384 4096 true ex_ops p rs /\
  In (65536, 5000) (held 4096 ex_ops rs).
Proof.
  eexists; eexists; split; [eexists; split; [vmr|vmr] | vm_compute; auto].
Qed.

(** C03. Freeing an address that is not in the first page of a held block: inside the space
    it aborts (with checks) and otherwise never changes the pool. *)
Theorem C03_space_bad_free_detected :
  forall base size page checks ops p rs ptr,
    heap_ok base size page -> Forall (ok_req page) ops ->
    reached base size page checks ops p rs ->
    (forall a s, In (a, s) (held page ops rs) -> ~ (a <= ptr < a + page)) ->
    pstep checks p (PFree ptr) =
      if (base <=? ptr) && (ptr <? base + size) && checks then Abort else Ok (p, None).
Proof. exact final_bad_free. Qed.
Print Assumptions C03_space_bad_free_detected.
Example C03_bad_ex : forall a s, In (a, s) [(65536, 5000); (73728, 1)] ->
  ~ (a <= 69632 < a + 4096).
Proof. simpl. intros a s [E|[E|[]]]; injection E as <- <-; lia. Qed.

(** C03. Destroying the space aborts exactly when blocks are still held. *)
Theorem C03_space_destroy_leak_check :
  forall base size page checks ops p rs,
    heap_ok base size page -> Forall (ok_req page) ops ->
    reached base size page checks ops p rs ->
    mempool_destroy p = match held page ops rs with [] => Ok tt | _ => Abort end.
Proof. exact final_destroy. Qed.
Print Assumptions C03_space_destroy_leak_check.
Example C03_destroy_ex : exists p rs, reached 65536 16384 4096 true [PMalloc 1; PFree 65536] p rs /\
  held 4096 [PMalloc 1; PFree 65536] rs = [].
Proof. eexists; eexists; split; [eexists; split; [vmr|vmr] | vmr]. Qed.

(** C04. The same collective history on two PEs gives the same offsets and outcome, for any
    two local base addresses. *)
Theorem C04_space_allocation_symmetric :
  forall checks size page b1 b2 p1 p2 ops,
    mempool_init b1 size page = Ok p1 -> mempool_init b2 size page = Ok p2 ->
    offsets b1 (prun checks p1 (map (at_base b1) ops)) =
    offsets b2 (prun checks p2 (map (at_base b2) ops)).
Proof. exact space_symmetric. Qed.
Print Assumptions C04_space_allocation_symmetric.
Example C04_ex : exists p1 p2,
  mempool_init 65536 16384 4096 = Ok p1 /\ mempool_init 1000016 16384 4096 = Ok p2 /\
  offsets 1000016 (prun true p2 (map (at_base 1000016) [SMalloc 8192; SMalloc 1; SFree 0; SMalloc 5000]))
    = Ok [Some 0; Some 8192; None; Some 0].
Proof. eexists; eexists; split; [vmr|split; [vmr|vmr]]. Qed.

(** C05 is false: with the last page in use, a zero-byte request writes past the pool's table. *)
Theorem C05_space_malloc_zero_refuted :
  exists base size page ops p rs,
    heap_ok base size page /\ Forall (ok_req page) ops /\
    reached base size page true ops p rs /\ space_malloc p 0 = UB.
Proof.
  exists 65536, 16384, 4096, [PMalloc 16384]. eexists; eexists. split.
  { unfold heap_ok. split; [exists 12; split; [lia|reflexivity]|]. vm_compute. intuition discriminate. }
  split; [repeat constructor; vm_compute; intuition discriminate|].
  split; [eexists; split; [vmr|vmr]|]. vm_compute. reflexivity.
Qed.
Print Assumptions C05_space_malloc_zero_refuted.

(** C05, exact condition: harmless (NULL, nothing changes) iff the last page is free. *)
Theorem C05_space_malloc_zero_partial :
  forall base size page checks ops p rs,
    heap_ok base size page -> Forall (ok_req page) ops ->
    reached base size page checks ops p rs ->
    (page_free base page (held page ops rs) (size / page - 1) ->
       space_malloc p 0 = Ok (p, None)) /\
    (~ page_free base page (held page ops rs) (size / page - 1) -> space_malloc p 0 = UB).
Proof. exact final_zero. Qed.
Print Assumptions C05_space_malloc_zero_partial.
Example C05_ex : page_free 65536 4096 [(65536, 5000); (73728, 1)] (16384 / 4096 - 1).
Proof.
  unfold page_free, disjoint. simpl. intros a s [E|[E|[]]]; injection E as <- <-;
  change (16384 / 4096 - 1) with 3; lia.
Qed.

(** C06 is false: the heap base comes from malloc and only the size is rounded. *)
Theorem C06_space_align_refuted :
  exists base size page p alignment s p' ptr,
    heap_ok base size page /\ mempool_init base size page = Ok p /\
    space_align p alignment s = Ok (p', Some ptr) /\
    alignment = 64 /\ ptr mod alignment <> 0.
Proof.
  exists 65552, 16384, 4096. eexists. exists 64, 100. eexists; eexists.
  split.
  { unfold heap_ok. split; [exists 12; split; [lia|reflexivity]|]. vm_compute. intuition discriminate. }
  split; [vm_compute; reflexivity|]. split; [vm_compute; reflexivity|].
  split; [reflexivity|]. vm_compute. discriminate.
Qed.
Print Assumptions C06_space_align_refuted.

(** C06, what holds: the block has the requested size, is in the heap and overlaps no held
    block; it is aligned when the heap base is page aligned and alignment <= page. *)
Theorem C06_space_align_partial :
  forall base size page checks ops p rs j s,
    heap_ok base size page -> Forall (ok_req page) ops ->
    reached base size page checks ops p rs ->
    0 <= j < 32 -> 0 < s -> s + 2 ^ j <= page * INT_MAX ->
    exists p' r, space_align p (2 ^ j) s = Ok (p', r) /\
      match r with
      | Some ptr =>
          base <= ptr /\ ptr + s <= base + size /\
          (forall a n, In (a, n) (held page ops rs) -> disjoint ptr s a n) /\
          (base mod page = 0 -> 2 ^ j <= page -> ptr mod 2 ^ j = 0)
      | None => p' = p
      end.
Proof. exact final_align. Qed.
Print Assumptions C06_space_align_partial.
Example C06_ex : forall p rs, reached 65536 16384 4096 true ex_ops p rs ->
  65536 mod 4096 = 0 /\ exists p', space_align p (2 ^ 10) 1000 = Ok (p', Some 77824).
Proof.
  intros p rs (p0 & H1 & H2). vm_compute in H1. injection H1 as <-.
  vm_compute in H2. injection H2 as <- <-. split; [|eexists]; vm_compute; reflexivity.
Qed.

(** C07 is false: [count] is ignored, so the next block handed out overlaps the array that
    shmemx_space_calloc was asked for. *)
Theorem C07_space_calloc_short_refuted :
  exists base size page p m count s p' m' ptr p'' ptr',
    heap_ok base size page /\ mempool_init base size page = Ok p /\
    space_calloc p m count s = Ok (p', m', Some ptr) /\
    space_malloc p' 1 = Ok (p'', Some ptr') /\
    ~ disjoint ptr (count * s) ptr' 1.
Proof.
  exists 65536, 16384, 4096. eexists. exists (fun _ => 7), 2, 4096.
  eexists; eexists; eexists; eexists; eexists. split.
  { unfold heap_ok. split; [exists 12; split; [lia|reflexivity]|]. vm_compute. intuition discriminate. }
  split; [vm_compute; reflexivity|]. split; [vm_compute; reflexivity|].
  split; [vm_compute; reflexivity|]. vm_compute. intuition discriminate.
Qed.
Print Assumptions C07_space_calloc_short_refuted.

(** C07 is also false on failure: a request that does not fit dereferences NULL. *)
Theorem C07_space_calloc_null_refuted :
  exists base size page p m s,
    heap_ok base size page /\ mempool_init base size page = Ok p /\
    0 < s <= page * INT_MAX /\ space_calloc p m 1 s = UB.
Proof.
  exists 65536, 16384, 4096. eexists. exists (fun _ => 7), 20000. split.
  { unfold heap_ok. split; [exists 12; split; [lia|reflexivity]|]. vm_compute. intuition discriminate. }
  split; [vm_compute; reflexivity|]. split; [unfold INT_MAX; lia|]. vm_compute. reflexivity.
Qed.
Print Assumptions C07_space_calloc_null_refuted.

(** C07, what holds: one element, when room exists: zeroed, in the heap, disjoint, and no
    other byte changes. *)
Theorem C07_space_calloc_one_partial :
  forall base size page checks ops p rs m s o,
    heap_ok base size page -> Forall (ok_req page) ops ->
    reached base size page checks ops p rs ->
    0 < s <= page * INT_MAX ->
    free_run base page (size / page) (held page ops rs) o (pages page s) ->
    exists p' m' ptr, space_calloc p m 1 s = Ok (p', m', Some ptr) /\
      base <= ptr /\ ptr + s <= base + size /\
      (forall a n, In (a, n) (held page ops rs) -> disjoint ptr s a n) /\
      (forall a, ptr <= a < ptr + 1 * s -> m' a = 0) /\
      (forall a, ~ (ptr <= a < ptr + s) -> m' a = m a).
Proof. exact final_calloc. Qed.
Print Assumptions C07_space_calloc_one_partial.
Example C07_ex : free_run 65536 4096 (16384 / 4096) [(65536, 5000); (73728, 1)] 3 (pages 4096 100).
Proof.
  change (16384 / 4096) with 4. change (pages 4096 100) with 1.
  unfold free_run, page_free, disjoint. repeat split; try lia.
  simpl. intros i Hi a s [E|[E|[]]]; injection E as <- <-; lia.
Qed.
