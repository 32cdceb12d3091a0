(** What a program may rely on for blocks of the symmetric heap, without reference to the
    allocator: blocks are places and lengths, named by the call that returned them. *)
From Verif Require Import Base SobjModel HeapModel.

(** Call [k] returned the block of [n] bytes at offset [o], and it was not released since. *)
Definition live (st : hst) (k : nat) (o n : Z) : Prop :=
  nth_error (s_tbl st) k = Some (Some (PHeap o, n)).

(** Call [k] returned memory outside the heap. *)
Definition live_outside (st : hst) (k : nat) (a n : Z) : Prop :=
  nth_error (s_tbl st) k = Some (Some (PAddr a, n)).

Definition in_block (x o n : Z) : Prop := o <= x < o + n.

(** Arguments are values of size_t. *)
Definition sizet (x : Z) : Prop := 0 <= x < 2 ^ 64.
Definition sane (op : hop) : Prop :=
  match op with
  | HMalloc n => sizet n
  | HCalloc n s => sizet n /\ sizet s
  | HAlign al n => sizet al /\ sizet n
  | HFree _ => True
  | HRealloc _ n => sizet n
  end.

(** The block that a call names was returned by an earlier call and is still held. *)
Definition valid (st : hst) (op : hop) : Prop :=
  match op with
  | HFree k | HRealloc k _ => exists p n, nth_error (s_tbl st) k = Some (Some (p, n))
  | _ => True
  end.

Definition is_pow2 (a : Z) : Prop := exists k, 0 <= k /\ a = 2 ^ k.

(** Start-up of one PE: a page size of at least 16, a base aligned to 16 bytes, a requested
    size for which nothing wraps. *)
Definition setting (env page b : Z) : Prop :=
  (exists k, 4 <= k < 40 /\ page = 2 ^ k) /\ 0 <= env < 2 ^ 62 /\ 0 < b /\ (16 | b).

(** The states a PE can be in: after any history of calls with any placement and any memory
    obtained from the system. *)
Definition reaches (env page b : Z) (ops : list hop) (st : hst) : Prop :=
  exists pol os mem st0,
    setting env page b /\ Forall sane ops /\ hstart env page mem = Ok st0 /\
    hrun b (heap_size env page) pol os [] st0 ops = Ok st.

(** A remote access at address [addr] is accepted: the registered range of the heap. *)
Definition symmetric_addr (env page b addr : Z) : Prop :=
  b <= addr < b + heap_size env page.

(** Two PEs hold the same blocks: the same offset on both, or outside on both. *)
Definition same_ptr (p q : option (hptr * Z)) : Prop :=
  match p, q with
  | None, None => True
  | Some (PNull, n), Some (PNull, m) => n = m
  | Some (PHeap o, n), Some (PHeap o', m) => o = o' /\ n = m
  | Some (PAddr _, n), Some (PAddr _, m) => n = m
  | _, _ => False
  end.
Definition same_blocks (s1 s2 : hst) : Prop := Forall2 same_ptr (s_tbl s1) (s_tbl s2).
