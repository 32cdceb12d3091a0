(** Theorems on the bins of the allocator of the symmetric heap. *)
From Coq Require Import Permutation.
From Verif Require Import Base SobjModel HeapModel HeapSpec HeapProofs3 DlModel DlSpec DlProofs4 DlProofs6
  DlProofs7 DlProofs8.

(** Witnesses are computed by a test on the state reached. *)
Definition holds {A} (x : outcome A) (t : A -> bool) : bool :=
  match x with Ok a => t a | _ => false end.
Lemma holds_ok {A} (x : outcome A) t : holds x t = true -> exists a, x = Ok a /\ t a = true.
Proof. destruct x as [a| | |]; cbn; try discriminate. eauto. Qed.

Definition pair_eqb (x y : Z * Z) : bool := (fst x =? fst y) && (snd x =? snd y).
Lemma pair_in x l : existsb (pair_eqb x) l = true -> In x l.
Proof.
  intros H. apply existsb_exists in H as ([a c] & I & E). destruct x as [p q].
  unfold pair_eqb in E. cbn in E. assert (p = a /\ q = c) as [-> ->] by lia. exact I.
Qed.

Lemma reach env k b ops t : 4 <= k < 40 -> 0 <= env < 2 ^ 62 -> 0 < b -> (16 | b) ->
  Forall (fun x => sane (fst x)) ops ->
  holds (do s <- dstart env (2 ^ k) (fun _ => 7); drun b (heap_size env (2 ^ k)) s ops) t = true ->
  exists st, dreaches env (2 ^ k) b ops st /\ t st = true.
Proof.
  intros Hk He Hb Db F H. apply holds_ok in H as (st & E & T). exists st. split; [|exact T].
  destruct (dstart env (2 ^ k) (fun _ => 7)) as [st0| | |] eqn:E0; try discriminate. cbn [bind] in E.
  exists (fun _ => 7), st0. split; [|auto]. split; [now exists k|]. auto.
Qed.

(** ** C94: where a request is served *)

(** Full statement: for every size of the heap. Proved up to 2^40 bytes: the block comes from
    the free block that fits best (a small request may be cut from the block split last), from
    the end of the heap only if no free block fits, and from elsewhere only if the end does not
    have room either. *)
Theorem C94_placed_partial : forall env page b ops st bytes sys os r d',
  dreaches env page b ops st -> heap_true_size env page <= 2 ^ 40 -> 0 <= bytes < 2 ^ 64 ->
  d_malloc (t_dl st) bytes sys os = Ok (r, d') -> placed (t_dl st) bytes r.
Proof.
  intros env page b ops st bytes sys os r d' R L Hb E.
  pose proof (d_malloc_ok _ _ bytes sys os (proj1 (proj1 (dreaches_ok _ _ _ _ _ R L))) Hb) as G.
  rewrite E in G. destruct G as (pk & _ & _ & _ & P & _). exact P.
Qed.

(** NULL is returned only for an absurd size, or when nothing fits and the system has no more
    memory. *)
Theorem C94_null_partial : forall env page b ops st bytes sys os d',
  dreaches env page b ops st -> heap_true_size env page <= 2 ^ 40 -> 0 <= bytes < 2 ^ 64 ->
  d_malloc (t_dl st) bytes sys os = Ok (MNull, d') ->
  MAX_REQUEST <= bytes \/ full (d_h (t_dl st)) (request2size bytes) /\ sys = PNone.
Proof.
  intros env page b ops st bytes sys os d' R L Hb E.
  pose proof (d_malloc_ok _ _ bytes sys os (proj1 (proj1 (dreaches_ok _ _ _ _ _ R L))) Hb) as G.
  rewrite E in G. destruct G as (pk & _ & _ & _ & P & N). cbn in P.
  destruct (Z.lt_ge_cases bytes MAX_REQUEST) as [H|H]; [|now left].
  right. split; [destruct P; [lia|easy]|now apply N].
Qed.

(** Beyond that: a free block of 2^40 bytes is filed with the smallest trees, since the index is
    computed on 32 bits. A request for half of it does not find it and fails. *)
Theorem C94_huge_refuted : exists env page b ops st bytes d',
  dreaches env page b ops st /\ 0 <= bytes < 2 ^ 64 /\
  d_malloc (t_dl st) bytes PNone 0 = Ok (MNull, d') /\
  exists o s, In (o, s) (free_blocks (d_h (t_dl st))) /\ 2 * bytes - 32768 < s.
Proof.
  destruct (reach (2 ^ 40 + 2 ^ 39) 12 65536
    [(HMalloc (2 ^ 40 + 64), (PNone, 0)); (HMalloc 64, (PNone, 0)); (HFree 0, (PNone, 0))]
    (fun st => holds (d_malloc (t_dl st) (2 ^ 39 + 8192) PNone 0)
                 (fun x => match fst x with MNull => true | _ => false end) &&
               existsb (pair_eqb (944, 2 ^ 40 + 80)) (free_blocks (d_h (t_dl st)))))
    as (st & R & T); try lia.
  { now exists 4096. }
  { repeat constructor; cbn; unfold sizet; lia. }
  { vm_compute. reflexivity. }
  apply andb_true_iff in T as [T1 T2]. apply holds_ok in T1 as ([r d'] & E & N).
  destruct r; try discriminate.
  exists (2 ^ 40 + 2 ^ 39), (2 ^ 12), 65536. do 2 eexists. exists (2 ^ 39 + 8192), d'.
  split; [exact R|]. split; [lia|]. split; [exact E|].
  exists 944, (2 ^ 40 + 80). split; [now apply pair_in|lia].
Qed.

(** A history with blocks of all kinds: small and large, split, merged, aligned, moved. *)
Definition mixed : list (hop * (pick * Z)) :=
  [(HMalloc 100, (PNone, 0)); (HMalloc 5000, (PNone, 0)); (HMalloc 40, (PNone, 0));
   (HMalloc 700, (PNone, 0)); (HMalloc 24, (PNone, 0)); (HAlign 256 300, (PNone, 0));
   (HFree 1, (PNone, 0)); (HFree 3, (PNone, 0)); (HMalloc 900, (PNone, 0));
   (HFree 0, (PNone, 0)); (HCalloc 10 60, (PNone, 0)); (HRealloc 2 800, (PNone, 0));
   (HMalloc 300000, (POut, 1048576)); (HFree 5, (PNone, 0))].

Example C94_nonvacuous : exists st r d',
  dreaches 65536 (2 ^ 12) 65536 mixed st /\ heap_true_size 65536 (2 ^ 12) <= 2 ^ 40 /\
  d_malloc (t_dl st) 600 PNone 0 = Ok (r, d') /\ r = MHeap 2784 608 /\
  best_fit (d_h (t_dl st)) 608 2784 3328 /\ In (944, 112) (free_blocks (d_h (t_dl st))).
Proof.
  destruct (reach 65536 12 65536 mixed
    (fun st => holds (d_malloc (t_dl st) 600 PNone 0)
                 (fun x => match fst x with MHeap o s => pair_eqb (o, s) (2784, 608) | _ => false end) &&
               (existsb (pair_eqb (2784, 3328)) (free_blocks (d_h (t_dl st))) &&
                forallb (fun y => (snd y <? 608) || (3328 <=? snd y)) (free_blocks (d_h (t_dl st))) &&
                existsb (pair_eqb (944, 112)) (free_blocks (d_h (t_dl st))))))
    as (st & R & T); try lia.
  { now exists 4096. }
  { repeat constructor; cbn; unfold sizet; lia. }
  { vm_compute. reflexivity. }
  apply andb_true_iff in T as [T1 T2]. apply holds_ok in T1 as ([r d'] & E & N).
  apply andb_true_iff in T2 as [T2 T4]. apply andb_true_iff in T2 as [T2 T3].
  cbn in N. destruct r as [o s| |]; try discriminate. unfold pair_eqb in N. cbn in N.
  exists st, (MHeap o s), d'. split; [exact R|]. split; [vm_compute; discriminate|]. split; [exact E|].
  split; [f_equal; lia|]. split; [|now apply pair_in].
  split; [now apply pair_in|]. split; [lia|]. intros o' s' H1 H2.
  rewrite forallb_forall in T3. specialize (T3 _ H1). cbn in T3. lia.
Qed.

(** ** C95: the bins describe the heap *)

(** Each free block is found in exactly one place: as the block split last, in its small bin or
    in its tree; nothing else is. *)
Theorem C95_filed : forall env page b ops st,
  dreaches env page b ops st -> heap_true_size env page <= 2 ^ 40 ->
  Permutation (binned (d_b (t_dl st))) (free_blocks (d_h (t_dl st))).
Proof.
  intros env page b ops st R L.
  exact (binned_ok _ _ (proj1 (proj1 (dreaches_ok _ _ _ _ _ R L)))).
Qed.

(** So every history is one of the heap with some placement: what is proved of all of those
    (C75 to C77, C08, C50) holds of it. *)
Theorem C95_refines : forall env page b ops st,
  dreaches env page b ops st -> heap_true_size env page <= 2 ^ 40 ->
  reaches env page b (map fst ops) (plain st).
Proof. intros env page b ops st R L. exact (proj2 (dreaches_ok _ _ _ _ _ R L)). Qed.

(** No call on blocks that are held meets a bin that disagrees with the heap. The model stops
    only where the system gives more memory to a full heap, or for an alignment above 2^63. *)
Theorem C95_defined : forall env page b ops st sys os op,
  dreaches env page b ops st -> heap_true_size env page <= 2 ^ 40 -> sane op -> valid (plain st) op ->
  (exists st', dstep b (heap_size env page) sys os st op = Ok st') \/
  (dstep b (heap_size env page) sys os st op = NoFuel /\
   (sys <> PNone \/ exists al n, op = HAlign al n /\ 2 ^ 63 < al)).
Proof.
  intros env page b ops st sys os op R L S V.
  assert (Db : (16 | b)) by (destruct R as (mem & st0 & (_ & _ & _ & Db) & _); exact Db).
  pose proof (dstep_ok _ b (heap_size env page) sys os st op (proj1 (dreaches_ok _ _ _ _ _ R L)) Db S) as G.
  destruct (dstep b (heap_size env page) sys os st op) as [st'| | |].
  - left. now exists st'.
  - easy.
  - exfalso. apply G. destruct op; cbn in *; auto; destruct V as (p & n & V); eauto.
  - right. split; [reflexivity|]. destruct G as [G|G]; [now left|]. right. destruct op; try easy. cbn in G. eauto.
Qed.

Example C95_nonvacuous : exists st,
  dreaches 65536 (2 ^ 12) 65536 mixed st /\ heap_true_size 65536 (2 ^ 12) <= 2 ^ 40 /\
  In (944, 112) (free_blocks (d_h (t_dl st))) /\ In (2784, 3328) (binned (d_b (t_dl st))) /\
  valid (plain st) (HRealloc 6 4000).
Proof.
  destruct (reach 65536 12 65536 mixed
    (fun st => existsb (pair_eqb (944, 112)) (free_blocks (d_h (t_dl st))) &&
               existsb (pair_eqb (2784, 3328)) (binned (d_b (t_dl st))) &&
               match nth_error (t_tbl st) 6 with Some (Some _) => true | _ => false end))
    as (st & R & T); try lia.
  { now exists 4096. }
  { repeat constructor; cbn; unfold sizet; lia. }
  { vm_compute. reflexivity. }
  apply andb_true_iff in T as [T T3]. apply andb_true_iff in T as [T1 T2].
  exists st. split; [exact R|]. split; [vm_compute; discriminate|].
  split; [now apply pair_in|]. split; [now apply pair_in|].
  destruct (nth_error (t_tbl st) 6) as [[[p n]|]|] eqn:Q; try discriminate. exists p, n. exact Q.
Qed.

(** ** C10: the same blocks on every PE *)

(** As C10_symmetric_partial, with the placement of the code instead of an arbitrary one: what
    the allocator chooses depends on the calls, not on the PE. *)
Theorem C10_dlmalloc_partial : forall env page b1 b2 ops1 ops2 mem1 mem2 s01 s02 s1,
  Forall (fun x => sane (fst x)) ops1 -> alike ops1 ops2 ->
  (forall al n, In (HAlign al n) (map fst ops1) -> is_pow2 al /\ (b1 - b2) mod al = 0) ->
  dstart env page mem1 = Ok s01 -> dstart env page mem2 = Ok s02 ->
  drun b1 (heap_size env page) s01 ops1 = Ok s1 ->
  exists s2, drun b2 (heap_size env page) s02 ops2 = Ok s2 /\ same_blocks (plain s1) (plain s2).
Proof.
  intros env page b1 b2 ops1 ops2 mem1 mem2 s01 s02 s1 F A H E1 E2 E.
  assert (R : drel s01 s02).
  { unfold dstart in *. destruct (init_heap env page); try discriminate. cbn in *.
    inversion E1; inversion E2; subst. repeat split. constructor. }
  assert (B : Forall (fun x => base_ok b1 b2 (fst x)) ops1).
  { apply Forall_forall. intros [[n|n s|al n|k|k n] q] I; cbn; auto. apply (H al n).
    apply in_map_iff. now exists (HAlign al n, q). }
  destruct (drun_same b1 b2 (heap_size env page) ops1 ops2 s01 s02 s1 R F B A E) as (s2 & E' & R').
  exists s2. split; [exact E'|apply R'].
Qed.

Example C10_dlmalloc_nonvacuous : exists s01 s1,
  alike mixed (map (fun x => (fst x, (fst (snd x), 4096))) mixed) /\
  (forall al n, In (HAlign al n) (map fst mixed) -> is_pow2 al /\ (65536 - 69632) mod al = 0) /\
  dstart 65536 4096 (fun _ => 7) = Ok s01 /\ drun 65536 (heap_size 65536 4096) s01 mixed = Ok s1.
Proof.
  destruct (reach 65536 12 65536 mixed (fun _ => true)) as (st & R & _); try lia.
  { now exists 4096. }
  { repeat constructor; cbn; unfold sizet; lia. }
  { vm_compute. reflexivity. }
  destruct R as (mem & st0 & _ & _ & E0 & E).
  assert (X : holds (do s <- dstart 65536 4096 (fun _ => 7); drun 65536 (heap_size 65536 4096) s mixed)
                (fun _ => true) = true) by (vm_compute; reflexivity).
  apply holds_ok in X as (s1 & X & _).
  destruct (dstart 65536 4096 (fun _ => 7)) as [s01| | |] eqn:E1; try discriminate. cbn [bind] in X.
  exists s01, s1. split; [split; reflexivity|]. split; [|auto].
  intros al n H. cbn in H.
  assert (A : al = 256) by (repeat (destruct H as [H|H]; [discriminate || now inversion H|]); easy).
  subst. split; [exists 8; lia|reflexivity].
Qed.

Print Assumptions C94_placed_partial.
Print Assumptions C94_null_partial.
Print Assumptions C94_huge_refuted.
Print Assumptions C95_filed.
Print Assumptions C95_refines.
Print Assumptions C95_defined.
Print Assumptions C10_dlmalloc_partial.
