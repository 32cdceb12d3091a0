(** The symmetric heap: blocks, symmetry of placements, sizes (C08, C10, C50, C75-C77). *)
From Verif Require Import Base BaseProofs SobjModel HeapModel HeapSpec HeapProofs HeapProofs2 HeapProofs3.

(** ** C76: blocks of the heap do not overlap and keep their bytes *)

(** No byte belongs to two live blocks. *)
Theorem C76_disjoint : forall env page b ops st k1 o1 n1 k2 o2 n2 x,
  reaches env page b ops st ->
  live st k1 o1 n1 -> live st k2 o2 n2 -> k1 <> k2 ->
  ~ (in_block x o1 n1 /\ in_block x o2 n2).
Proof.
  intros env page b ops st k1 o1 n1 k2 o2 n2 x R L1 L2 N [B1 B2].
  exact (iv_disjoint _ _ _ _ _ _ _ _ _ (reaches_iv _ _ _ _ _ R) L1 L2 N B1 B2).
Qed.

(** Every live block lies inside the memory of the heap, behind the allocator's own record, and
    is aligned to 16 bytes. *)
Theorem C76_inside : forall env page b ops st k o n,
  reaches env page b ops st -> live st k o n ->
  MSIZE + MEM_OFF <= o /\ o + n <= heap_true_size env page /\ (b + o) mod 16 = 0.
Proof.
  intros env page b ops st k o n R L.
  destruct (iv_inside _ _ _ _ _ (reaches_iv _ _ _ _ _ R) L) as (A & B & C & _).
  split; [easy|]. split; [easy|]. destruct R as (pol & os & mem & st0 & (_ & _ & _ & Db) & _).
  apply Z.mod_divide; [lia|]. now apply Z.divide_add_r.
Qed.

(** A block returned by shmem_align has the alignment asked for. *)
Theorem C76_align : forall env page b ops st pol os past al n st' o m,
  reaches env page b ops st -> sane (HAlign al n) -> is_pow2 al ->
  hstep b (heap_size env page) pol os past st (HAlign al n) = Ok st' ->
  live st' (length (s_tbl st)) o m -> m = n /\ (b + o) mod al = 0.
Proof.
  intros env page b ops st pol os past al n st' o m R S P E L.
  assert (Db : (16 | b)) by (destruct R as (pol0 & os0 & mem & st0 & (_ & _ & _ & Db) & _); exact Db).
  exact (hstep_align _ _ _ _ _ _ _ _ _ _ _ _ (reaches_iv _ _ _ _ _ R) Db S P E L).
Qed.

(** A block returned by shmem_calloc has count * size bytes, without wrap-around, all zero. *)
Theorem C76_calloc : forall env page b ops st pol os past n s st' o m,
  reaches env page b ops st -> sane (HCalloc n s) ->
  hstep b (heap_size env page) pol os past st (HCalloc n s) = Ok st' ->
  live st' (length (s_tbl st)) o m ->
  m = n * s /\ n * s < 2 ^ 64 /\ forall x, in_block x o (n * s) -> s_mem st' x = 0.
Proof.
  intros env page b ops st pol os past n s st' o m R S E L.
  exact (hstep_calloc _ _ _ _ _ _ _ _ _ _ _ _ (reaches_iv _ _ _ _ _ R) S E L).
Qed.

(** A call that does not name a live block leaves it where it is, with all its bytes. *)
Theorem C76_frame : forall env page b ops st pol os past op st' k o n,
  reaches env page b ops st -> sane op ->
  hstep b (heap_size env page) pol os past st op = Ok st' ->
  live st k o n -> (forall m, op <> HRealloc k m) -> op <> HFree k ->
  live st' k o n /\ forall x, in_block x o n -> s_mem st' x = s_mem st x.
Proof.
  intros env page b ops st pol os past op st' k o n R S E L N1 N2.
  assert (Db : (16 | b)) by (destruct R as (pol0 & os0 & mem & st0 & (_ & _ & _ & Db) & _); exact Db).
  pose proof (hstep_keeps _ _ _ _ _ _ _ _ _ _ _ E L N1 N2) as L'. split; [exact L'|].
  intros x B. exact (hstep_frame _ _ _ _ _ _ _ _ _ _ _ _ _ (reaches_iv _ _ _ _ _ R) Db S E L L' B).
Qed.

(** A call with valid arguments never corrupts the allocator nor aborts. *)
Theorem C76_no_ub : forall env page b ops st pol os past op,
  reaches env page b ops st -> sane op -> valid st op ->
  hstep b (heap_size env page) pol os past st op <> UB /\
  hstep b (heap_size env page) pol os past st op <> Abort.
Proof.
  intros env page b ops st pol os past op R S V.
  assert (Db : (16 | b)) by (destruct R as (pol0 & os0 & mem & st0 & (_ & _ & _ & Db) & _); exact Db).
  exact (hstep_fine _ _ _ _ _ _ _ _ (reaches_iv _ _ _ _ _ R) Db S V).
Qed.

(** A history with splitting, merging, an aligned block, a moved block and exhaustion. *)
Definition busy : list hop :=
  [HMalloc 100; HMalloc 3000; HFree 0; HAlign 64 40; HRealloc 1 3100; HMalloc 2000; HFree 4;
   HCalloc 3 8; HMalloc 1000; HMalloc 1500; HMalloc 500; HMalloc 1500].

Lemma setting_4096 : setting 4096 4096 65536.
Proof. split; [exists 12; lia|]. split; [lia|]. split; [lia|]. now exists 4096. Qed.

Lemma reaches_run ops st0 st :
  Forall sane ops -> hstart 4096 4096 (fun _ => 7) = Ok st0 ->
  hrun 65536 4096 ff (fun _ => 2 ^ 40) [] st0 ops = Ok st -> reaches 4096 4096 65536 ops st.
Proof.
  intros S E0 E. exists ff, (fun _ => 2 ^ 40), (fun _ => 7), st0.
  split; [exact setting_4096|]. split; [exact S|]. split; [exact E0|exact E].
Qed.

Ltac run_heap := eapply reaches_run;
  [repeat constructor; cbn; unfold sizet; lia | vm_compute; reflexivity | vm_compute; reflexivity].

Example C76_nonvacuous : exists st, reaches 4096 4096 65536 busy st /\
  s_tbl st = [None; None; Some (PHeap 4160, 40); Some (PHeap 4224, 3100); None;
              Some (PHeap 960, 24); Some (PHeap 992, 1000); Some (PHeap 2000, 1500);
              Some (PHeap 3520, 500); Some (PAddr (2 ^ 40), 1500)].
Proof. eexists. split; [run_heap|reflexivity]. Qed.

Example C76_nonvacuous_align : exists st st',
  reaches 4096 4096 65536 [HMalloc 40] st /\
  hstep 65536 4096 ff (fun _ => 0) [HMalloc 40] st (HAlign 256 100) = Ok st' /\
  live st' 1 1280 100.
Proof. do 2 eexists. split; [run_heap|]. split; [vm_compute; reflexivity|reflexivity]. Qed.

Example C76_nonvacuous_calloc : exists st st',
  reaches 4096 4096 65536 [HMalloc 40] st /\
  hstep 65536 4096 ff (fun _ => 0) [HMalloc 40] st (HCalloc 5 8) = Ok st' /\
  live st' 1 1008 40 /\ s_mem st' 1047 = 0 /\ s_mem st' 1048 = 7.
Proof. do 2 eexists. split; [run_heap|]. split; [vm_compute; reflexivity|]. now vm_compute. Qed.

(** The overflow test of calloc: 2^32 * 2^32 wraps to 0, but the call returns NULL. *)
Example C76_calloc_overflow : exists st st',
  reaches 4096 4096 65536 [] st /\
  hstep 65536 4096 ff (fun _ => 0) [] st (HCalloc (2 ^ 32) (2 ^ 32)) = Ok st' /\
  s_tbl st' = [Some (PNull, 2 ^ 64)].
Proof. do 2 eexists. split; [run_heap|]. split; [vm_compute; reflexivity|reflexivity]. Qed.

(** ** C77: released memory can be used again *)

(** After all blocks have been released, the allocator is as at the start, whatever the order
    of the calls. Missing: blocks whose release was ignored, and a heap that was exhausted. *)
Theorem C77_released_partial : forall env page b ops st,
  reaches env page b ops st ->
  (forall k o n, ~ live st k o n) -> s_leak st = [] -> h_ext (s_heap st) = false ->
  init_heap env page = Ok (s_heap st).
Proof.
  intros env page b ops st R NL LK X.
  rewrite (iv_all_released _ _ (reaches_iv _ _ _ _ _ R) NL LK X).
  destruct R as (pol & os & mem & st0 & _ & _ & E0 & _).
  unfold hstart, init_heap, create_mspace in *. destruct (_ && _); [reflexivity|discriminate].
Qed.

(** A released block that starts below the registered size can be allocated again: the
    allocator has a place for the same request in the heap. *)
Theorem C77_reuse_partial : forall env page b ops st pol os past k o n,
  reaches env page b ops st -> live st k o n -> o < heap_size env page ->
  exists st', hstep b (heap_size env page) pol os past st (HFree k) = Ok st' /\
    (forall o' n', ~ live st' k o' n') /\ s_leak st' = s_leak st /\
    nofit (s_heap st') (request2size n) = false.
Proof.
  intros env page b ops st pol os past k o n R L Ho.
  pose proof (reaches_iv _ _ _ _ _ R) as I.
  destruct (iv_inside _ _ _ _ _ I L) as (A & _ & _ & _).
  assert (HT : heap_true_size env page < 2 ^ 63).
  { destruct R as (pol0 & os0 & mem & st0 & ((j & J & ->) & He & _) & _).
    assert (P : 2 ^ j < 2 ^ 40) by (apply Z.pow_lt_mono_r; lia).
    destruct (heap_sizes env j) as (A1 & A2 & A3 & A4); unfold MIN_MSPACE in *; lia. }
  destruct (hstep_free _ b (heap_size env page) pol os past st k o n I HT L) as (st' & E & N & K & _ & F).
  { rewrite MSIZE_eq in A. unfold MEM_OFF in A. lia. }
  exists st'. auto.
Qed.

(** False in general: a block that starts behind the registered size is not released. With a
    heap of one page, two blocks of 3500 and 1000 bytes, both released: 1008 bytes stay
    allocated for ever. *)
Theorem C77_tail_refuted : exists env page b ops st,
  reaches env page b ops st /\ (forall k p, nth_error (s_tbl st) k <> Some (Some p)) /\
  h_ext (s_heap st) = false /\ init_heap env page <> Ok (s_heap st).
Proof.
  exists 4096, 4096, 65536, [HMalloc 3500; HMalloc 1000; HFree 1; HFree 0].
  eexists. split; [run_heap|]. split; [|split; [reflexivity|vm_compute; discriminate]].
  intros [|[|[|k]]] p; discriminate.
Qed.

Example C77_nonvacuous : exists st,
  reaches 4096 4096 65536 [HMalloc 100; HAlign 128 500; HMalloc 30; HFree 0; HRealloc 1 900; HFree 2; HFree 3] st /\
  (forall k o n, ~ live st k o n) /\ s_leak st = [] /\ h_ext (s_heap st) = false.
Proof.
  eexists. split; [run_heap|]. split; [|split; reflexivity].
  intros [|[|[|[|k]]]] o n; discriminate || (cbn; destruct k; discriminate).
Qed.

Example C77_nonvacuous_reuse : exists st,
  reaches 4096 4096 65536 [HMalloc 100; HMalloc 200] st /\ live st 0 960 100 /\ 960 < heap_size 4096 4096.
Proof. eexists. split; [run_heap|]. split; [reflexivity|vm_compute; reflexivity]. Qed.

(** ** C08: blocks are symmetric addresses *)

(** Full statement: every address of every block returned is accepted for remote accesses and
    by shmem_free. Holds for blocks of the heap that end below the registered size; missing:
    blocks that end behind it, and memory outside the heap (both refuted below). *)
Theorem C08_symmetric_partial : forall env page b ops st pol os past k o n,
  reaches env page b ops st -> live st k o n -> 0 < n -> o + n <= heap_size env page ->
  (forall x, in_block x o n -> check_range (b + x) (mkAttr 0 b (heap_size env page) None) = true) /\
  exists st', hstep b (heap_size env page) pol os past st (HFree k) = Ok st' /\
    s_leak st' = s_leak st /\ forall o' n', ~ live st' k o' n'.
Proof.
  intros env page b ops st pol os past k o n R L Hn H.
  destruct (C76_inside _ _ _ _ _ _ _ _ R L) as (A & _ & _).
  rewrite MSIZE_eq in A. unfold MEM_OFF in A. split.
  - intros x B. unfold in_block in B. unfold check_range. cbn. lia.
  - destruct (C77_reuse_partial _ _ _ _ _ pol os past _ _ _ R L ltac:(lia)) as (st' & E & N & K & _).
    exists st'. auto.
Qed.

(** For every heap size, the first request for the whole configured heap succeeds, and the last
    bytes of the block it returns are not accepted as a remote address. *)
Theorem C08_full_size_refuted : forall env k b pol os mem st0 st,
  12 <= k < 40 -> 0 < env < 2 ^ 62 ->
  hstart env (2 ^ k) mem = Ok st0 ->
  hstep b (heap_size env (2 ^ k)) pol os [] st0 (HMalloc (heap_size env (2 ^ k))) = Ok st ->
  exists x, live st 0 960 (heap_size env (2 ^ k)) /\ in_block x 960 (heap_size env (2 ^ k)) /\
    check_range (b + x) (mkAttr 0 b (heap_size env (2 ^ k)) None) = false.
Proof.
  intros env k b pol os mem st0 st Hk He E0 E.
  assert (P : 2 ^ k < 2 ^ 40) by (apply Z.pow_lt_mono_r; lia).
  assert (P12 : 2 ^ 12 <= 2 ^ k) by (apply Z.pow_le_mono_r; lia). change (2 ^ 12) with 4096 in P12.
  destruct (heap_sizes env k) as (A1 & A2 & A3 & A4); try (unfold MIN_MSPACE; lia).
  set (size := heap_size env (2 ^ k)) in *. set (T := heap_true_size env (2 ^ k)) in *.
  assert (A5 : size + 4096 <= T).
  { destruct A2 as [q2 Q2], A4 as [q4 Q4]. unfold MIN_MSPACE in A3.
    assert (q2 < q4) by (apply Z.mul_lt_mono_pos_r with (2 ^ k); lia).
    assert (q2 * 2 ^ k + 2 ^ k <= q4 * 2 ^ k) by (replace (q2 * 2 ^ k + 2 ^ k) with ((q2 + 1) * 2 ^ k) by ring; apply Z.mul_le_mono_nonneg_r; lia).
    lia. }
  unfold hstart, init_heap, create_mspace in E0. fold T in E0.
  destruct (_ && _); [|discriminate]. cbn [bind] in E0. inversion E0; subst. clear E0.
  unfold hstep in E. cbn [s_heap s_tbl s_leak s_mem] in E.
  destruct (Z.eqb_spec size 0); [lia|]. unfold m_malloc in E. unfold MAX_REQUEST in E.
  destruct (Z.leb_spec (2 ^ 64 - 128) size); [lia|].
  destruct (request2size_ok size) as (D1 & D2 & D3 & D4); [unfold MAX_REQUEST; lia|].
  set (nb := request2size size) in *.
  assert (F : nb < T - MSIZE - TOP_FOOT) by (rewrite MSIZE_eq, TOP_FOOT_eq; lia).
  destruct (pol _ _ _) as [i| | | |]; cbn [m_alloc h_ch h_top h_ext] in E.
  - destruct i; discriminate.
  - destruct (Z.ltb_spec nb (T - MSIZE - TOP_FOOT)); [|lia]. cbn [bind] in E. inversion E; subst.
    exists (960 + size - 1). split; [reflexivity|]. split; [unfold in_block; lia|].
    unfold check_range. cbn. lia.
  - unfold nofit in E. cbn in E. destruct (Z.leb_spec (T - MSIZE - TOP_FOOT) nb); [lia|]. discriminate.
  - unfold nofit in E. cbn in E. destruct (Z.leb_spec (T - MSIZE - TOP_FOOT) nb); [lia|]. discriminate.
  - unfold nofit in E. cbn in E. destruct (Z.leb_spec (T - MSIZE - TOP_FOOT) nb); [lia|]. discriminate.
Qed.

(** A block may even start behind the registered size: then no remote access to it is accepted
    at all, and shmem_free ignores it. *)
Theorem C08_tail_refuted : exists env page b ops st k o n,
  reaches env page b ops st /\ live st k o n /\
  (forall x, in_block x o n -> check_range (b + x) (mkAttr 0 b (heap_size env page) None) = false) /\
  exists st', hstep b (heap_size env page) ff (fun _ => 0) ops st (HFree k) = Ok st' /\
    s_heap st' = s_heap st.
Proof.
  exists 4096, 4096, 65536, [HMalloc 3500; HMalloc 1000]. eexists. exists 1%nat, 4480, 1000.
  split; [run_heap|]. split; [reflexivity|]. split.
  - intros x B. unfold in_block in B. unfold check_range.
    change (heap_size 4096 4096) with 4096. cbn. lia.
  - eexists. split; [vm_compute; reflexivity|reflexivity].
Qed.

(** An exhausted heap: instead of NULL, shmem_malloc returns private memory of the process. *)
Theorem C08_outside_refuted : exists env page b ops st k a n,
  reaches env page b ops st /\ live_outside st k a n /\
  check_range a (mkAttr 0 b (heap_size env page) None) = false.
Proof.
  exists 4096, 4096, 65536, [HMalloc 100; HMalloc 8000]. eexists. exists 1%nat, (2 ^ 40), 8000.
  split; [run_heap|]. split; [reflexivity|vm_compute; reflexivity].
Qed.

Example C08_nonvacuous : exists st,
  reaches 4096 4096 65536 [HMalloc 100; HMalloc 200] st /\ live st 1 1072 200 /\
  1072 + 200 <= heap_size 4096 4096.
Proof. eexists. split; [run_heap|]. split; [reflexivity|vm_compute; discriminate]. Qed.

Example C08_full_size_nonvacuous : exists st0 st,
  hstart 4096 (2 ^ 12) (fun _ => 0) = Ok st0 /\
  hstep 65536 (heap_size 4096 (2 ^ 12)) ff (fun _ => 0) [] st0 (HMalloc (heap_size 4096 (2 ^ 12))) = Ok st.
Proof. do 2 eexists. split; [vm_compute; reflexivity|vm_compute; reflexivity]. Qed.

(** ** C10: the same history gives the same offsets *)

(** Full statement: for every set of bases. Holds when the bases agree modulo every alignment
    asked for; the allocator's choices are a function of the history and of its state, the
    same on both PEs, and the system call for more memory succeeds on both or on none. *)
Theorem C10_symmetric_partial : forall env page b1 b2 ops pol os1 os2 mem1 mem2 s01 s02 s1,
  setting env page b1 -> setting env page b2 -> Forall sane ops ->
  (forall al n, In (HAlign al n) ops -> is_pow2 al /\ (b1 - b2) mod al = 0) ->
  hstart env page mem1 = Ok s01 -> hstart env page mem2 = Ok s02 ->
  hrun b1 (heap_size env page) pol os1 [] s01 ops = Ok s1 ->
  exists s2, hrun b2 (heap_size env page) pol os2 [] s02 ops = Ok s2 /\ same_blocks s1 s2.
Proof.
  intros env page b1 b2 ops pol os1 os2 mem1 mem2 s01 s02 s1 S1 S2 F A E1 E2 E.
  assert (R : srel s01 s02).
  { unfold hstart in *. destruct (init_heap env page); try discriminate. cbn in *.
    inversion E1; inversion E2; subst. repeat split. constructor. }
  assert (B : Forall (base_ok b1 b2) ops).
  { apply Forall_forall. intros [n|n s|al n|k|k n] I; cbn; auto. now apply (A al n). }
  destruct (hrun_same b1 b2 (heap_size env page) pol os1 os2 ops [] s01 s02 s1 R F B E) as (s2 & E' & R').
  exists s2. split; [exact E'|apply R'].
Qed.

(** In particular for every history without shmem_align, whatever the bases. *)
Theorem C10_no_align_partial : forall env page b1 b2 ops pol os1 os2 mem1 mem2 s01 s02 s1,
  setting env page b1 -> setting env page b2 -> Forall sane ops ->
  (forall al n, ~ In (HAlign al n) ops) ->
  hstart env page mem1 = Ok s01 -> hstart env page mem2 = Ok s02 ->
  hrun b1 (heap_size env page) pol os1 [] s01 ops = Ok s1 ->
  exists s2, hrun b2 (heap_size env page) pol os2 [] s02 ops = Ok s2 /\ same_blocks s1 s2.
Proof.
  intros env page b1 b2 ops pol os1 os2 mem1 mem2 s01 s02 s1 S1 S2 F A E1 E2 E.
  exact (C10_symmetric_partial env page b1 b2 ops pol os1 os2 mem1 mem2 s01 s02 s1 S1 S2 F
           (fun al n I => False_ind _ (A al n I)) E1 E2 E).
Qed.

(** False in general: page-aligned bases that differ by one page, an alignment of two pages. *)
Theorem C10_align_refuted : exists env page b1 b2 ops s1 s2,
  reaches env page b1 ops s1 /\ reaches env page b2 ops s2 /\
  live s1 1 28208 64 /\ live s2 1 24112 64.
Proof.
  exists 65536, 4096, 65536, 69632, [HAlign 8192 20000; HMalloc 64].
  assert (S : forall b, 0 < b -> (16 | b) -> setting 65536 4096 b).
  { intros b H D. split; [exists 12; lia|]. split; [lia|]. split; [lia|exact D]. }
  do 2 eexists. split; [|split; [|split]].
  - exists (fun _ _ _ => PTop), (fun _ => 0), (fun _ => 7). eexists.
    split; [apply S; [lia|now exists 4096]|]. split; [repeat constructor; cbn; unfold sizet; lia|].
    split; [vm_compute; reflexivity|vm_compute; reflexivity].
  - exists (fun _ _ _ => PTop), (fun _ => 0), (fun _ => 7). eexists.
    split; [apply S; [lia|now exists 4352]|]. split; [repeat constructor; cbn; unfold sizet; lia|].
    split; [vm_compute; reflexivity|vm_compute; reflexivity].
  - reflexivity.
  - reflexivity.
Qed.

Example C10_nonvacuous : exists s01 s1,
  setting 4096 4096 65536 /\ setting 4096 4096 69632 /\
  (forall al n, In (HAlign al n) busy -> is_pow2 al /\ (65536 - 69632) mod al = 0) /\
  hstart 4096 4096 (fun _ => 0) = Ok s01 /\
  hrun 65536 (heap_size 4096 4096) ff (fun _ => 0) [] s01 busy = Ok s1.
Proof.
  do 2 eexists. split; [exact setting_4096|]. split.
  { split; [exists 12; lia|]. split; [lia|]. split; [lia|]. now exists 4352. }
  split; [|split; [vm_compute; reflexivity|vm_compute; reflexivity]].
  intros al n H. cbn in H.
  assert (A : al = 64) by (repeat (destruct H as [H|H]; [discriminate || now inversion H|]); easy).
  subst. split; [exists 6; lia|reflexivity].
Qed.

(** ** C50: sizes *)

(** The registered size and the size given to the allocator. *)
Theorem C50_sizes : forall env k, 0 <= k < 63 -> 0 <= env -> env + MIN_MSPACE + 2 * 2 ^ k <= 2 ^ 64 ->
  let page := 2 ^ k in
  env <= heap_size env page < env + page /\ (page | heap_size env page) /\
  heap_size env page + MIN_MSPACE <= heap_true_size env page < heap_size env page + MIN_MSPACE + page /\
  (page | heap_true_size env page).
Proof. exact heap_sizes. Qed.

(** The bookkeeping space is enough: start-up does not fail, and a fresh heap has room for one
    block of the configured size. *)
Theorem C50_capacity : forall env k, 12 <= k < 40 -> 0 <= env < 2 ^ 62 ->
  exists h, init_heap env (2 ^ k) = Ok h /\
    nofit h (request2size (heap_size env (2 ^ k))) = false.
Proof.
  intros env k Hk He.
  assert (P : 2 ^ k < 2 ^ 40) by (apply Z.pow_lt_mono_r; lia).
  assert (P12 : 2 ^ 12 <= 2 ^ k) by (apply Z.pow_le_mono_r; lia). change (2 ^ 12) with 4096 in P12.
  destruct (heap_sizes env k) as (A1 & A2 & A3 & A4); try (unfold MIN_MSPACE; lia).
  set (size := heap_size env (2 ^ k)) in *.
  unfold init_heap, create_mspace. set (T := heap_true_size env (2 ^ k)) in *.
  assert (A5 : size + 4096 <= T).
  { destruct A2 as [q2 Q2], A4 as [q4 Q4]. unfold MIN_MSPACE in A3.
    assert (q2 < q4) by (apply Z.mul_lt_mono_pos_r with (2 ^ k); lia).
    assert (q2 * 2 ^ k + 2 ^ k <= q4 * 2 ^ k) by (replace (q2 * 2 ^ k + 2 ^ k) with ((q2 + 1) * 2 ^ k) by ring; apply Z.mul_le_mono_nonneg_r; lia).
    lia. }
  rewrite MSIZE_eq, TOP_FOOT_eq. unfold wrap64. unfold MIN_MSPACE in A3.
  assert (W : (- (944 + 80 + 2 ^ k)) mod 2 ^ 64 = 2 ^ 64 - (944 + 80 + 2 ^ k)).
  { symmetry. apply Z.mod_unique with (-1); lia. }
  rewrite W.
  destruct (Z.ltb_spec (944 + 80) T); [|lia].
  destruct (Z.ltb_spec T (2 ^ 64 - (944 + 80 + 2 ^ k))); [|lia]. cbn [andb].
  eexists. split; [reflexivity|].
  destruct (request2size_ok size) as (D1 & D2 & D3 & D4); [unfold MAX_REQUEST; lia|].
  unfold nofit. cbn. destruct (Z.leb_spec (T - 944 - 80) (request2size size)); [lia|reflexivity].
Qed.

(** OSHMPI_get_mspace_sz, meant to compute such a size but not called anywhere, returns a size
    without the bookkeeping space. *)
Example C50_unused_helper : get_mspace_sz 4096 4096 = 4096.
Proof. vmr. Qed.

(** Sizes near 2^64 wrap around. *)
Example C50_wrap : heap_size (2 ^ 64 - 1) 4096 = 0.
Proof. vmr. Qed.

Example C50_nonvacuous : heap_size 5000 4096 = 8192 /\ heap_true_size 5000 4096 = 12288.
Proof. split; vmr. Qed.

(** ** C75: shmem_realloc *)

(** The block is kept and untouched if the call fails; otherwise the first min(old, new) bytes
    are the old ones. Missing: a result outside the heap (its bytes are not modelled), blocks
    of spaces (refuted below). *)
Theorem C75_contents_partial : forall env page b ops st pol os past k o n bytes st',
  reaches env page b ops st -> sane (HRealloc k bytes) -> live st k o n ->
  hstep b (heap_size env page) pol os past st (HRealloc k bytes) = Ok st' ->
  (nth_error (s_tbl st') (length (s_tbl st)) = Some (Some (PNull, bytes)) /\
   live st' k o n /\ s_mem st' = s_mem st) \/
  (exists o', live st' (length (s_tbl st)) o' bytes /\
    forall i, 0 <= i < Z.min n bytes -> s_mem st' (o' + i) = s_mem st (o + i)) \/
  (exists a, live_outside st' (length (s_tbl st)) a bytes).
Proof.
  intros env page b ops st pol os past k o n bytes st' R S L E.
  exact (hstep_realloc _ _ _ _ _ _ _ _ _ _ _ _ (reaches_iv _ _ _ _ _ R) S L E).
Qed.

(** shmem_free takes a block of a space; shmem_realloc hands it to the allocator of the heap,
    which reads the bytes in front of it as its own boundary tag. *)
Theorem C75_space_block_refuted : exists h b size sbase ssize p bytes,
  init_heap size 4096 = Ok h /\
  check_range p (mkAttr 0 b size None) = false /\
  check_range p (mkAttr 1 sbase ssize None) = true /\
  forall pk os, m_realloc h (p - b) bytes pk os = UB.
Proof.
  eexists. exists 65536, 4096, 1048576, 4096, 1048640, 200.
  split; [vm_compute; reflexivity|]. split; [vmr|]. split; [vmr|].
  intros pk os. vm_compute. reflexivity.
Qed.

(** A block that must move. *)
Example C75_contents_nonvacuous : exists st st',
  reaches 4096 4096 65536 [HMalloc 100; HMalloc 50] st /\ live st 0 960 100 /\
  hstep 65536 (heap_size 4096 4096) ff (fun _ => 0) [HMalloc 100; HMalloc 50] st (HRealloc 0 500) = Ok st' /\
  live st' 2 1136 500.
Proof. do 2 eexists. split; [run_heap|]. split; [reflexivity|]. split; [vm_compute; reflexivity|reflexivity]. Qed.

(** With size 0 the block is not released: a block of minimal size stays allocated. *)
Example C75_zero : exists st,
  reaches 4096 4096 65536 [HMalloc 100; HRealloc 0 0] st /\ live st 1 960 0 /\
  h_ch (s_heap st) = [Ck 32 Used].
Proof. eexists. split; [run_heap|]. split; reflexivity. Qed.

Print Assumptions C76_disjoint.
Print Assumptions C76_inside.
Print Assumptions C76_align.
Print Assumptions C76_calloc.
Print Assumptions C76_frame.
Print Assumptions C76_no_ub.
Print Assumptions C77_released_partial.
Print Assumptions C77_reuse_partial.
Print Assumptions C77_tail_refuted.
Print Assumptions C08_symmetric_partial.
Print Assumptions C08_full_size_refuted.
Print Assumptions C08_tail_refuted.
Print Assumptions C08_outside_refuted.
Print Assumptions C10_symmetric_partial.
Print Assumptions C10_no_align_partial.
Print Assumptions C10_align_refuted.
Print Assumptions C50_sizes.
Print Assumptions C50_capacity.
Print Assumptions C75_contents_partial.
Print Assumptions C75_space_block_refuted.
