(** The symmetric heap: sizes chosen at start-up, the dlmalloc mspace that serves it, and the
    allocation calls of src/internal/mem_impl.c.

    dlmalloc (src/internal/util/dlmalloc.c, compiled with ONLY_MSPACES, FOOTERS 0, HAVE_MMAP 1,
    HAVE_MORECORE 0, LP64) is modelled by what its boundary tags say: the chunks of the heap in
    address order and the top chunk behind them. Which fitting free chunk is taken (small
    bins, trees, designated victim) is a parameter, the [pick]; it may be any function of the
    history, so the theorems hold for every placement policy. The consistency checks
    (RTCHECK) never fire in the model because a call with a bad pointer is [UB].
    Offsets are relative to the base of the heap. *)
From Verif Require Import Base SobjModel.

(** MALLOC_ALIGNMENT 16 (dlmalloc.c:619), CHUNK_OVERHEAD 8 (2201), MIN_CHUNK_SIZE 32 (2210). *)
Definition MIN_CHUNK : Z := 32.
Definition OVERHEAD : Z := 8.
(** chunk2mem (dlmalloc.c:2214): user memory starts two words behind the chunk. *)
Definition MEM_OFF : Z := 16.
(** MAX_REQUEST = (-MIN_CHUNK_SIZE) << 2 in size_t (dlmalloc.c:2220), MAX_SIZE_T (588). *)
Definition MAX_REQUEST : Z := 2 ^ 64 - 128.
Definition MAX_SIZE_T : Z := 2 ^ 64 - 1.
(** MIN_REQUEST = MIN_CHUNK_SIZE - CHUNK_OVERHEAD - 1 (dlmalloc.c:2221). *)
Definition MIN_REQUEST : Z := 23.
(** pad_request (dlmalloc.c:2224-2225): (req + 8 + 15) & ~15 in size_t. *)
Definition pad_request (req : Z) : Z := 16 * (wrap64 (req + 8 + 15) / 16).
(** request2size (dlmalloc.c:2228-2229). *)
Definition request2size (req : Z) : Z :=
  if req <? MIN_REQUEST then MIN_CHUNK else pad_request req.
(** msize = pad_request(sizeof(struct malloc_state)) (dlmalloc.c:5384); sizeof is 936 with the
    fields of dlmalloc.c:2575-2598 on LP64 without locks: 2*4 + 8*8 + 66*8 + 32*8 + 3*8 + 4
    (+4 padding) + 32 + 2*8. *)
Definition MSIZE : Z := pad_request 936.
(** TOP_FOOT_SIZE (dlmalloc.c:2728-2729); sizeof(struct malloc_segment) is 32 (2465-2470). *)
Definition TOP_FOOT : Z := pad_request 32 + MIN_CHUNK.
(** mparams.mmap_threshold: DEFAULT_MMAP_THRESHOLD 256K (dlmalloc.c:689). *)
Definition MMAP_THRESHOLD : Z := 2 ^ 18.

(** State of a chunk. [Fixed] is the segment record and the fence posts that add_segment
    leaves behind: in use for ever. *)
Inductive ctag : Type := Free | Used | Fixed.
Record chunk : Type := Ck { c_sz : Z; c_tag : ctag }.
Definition is_free (c : chunk) : bool := match c_tag c with Free => true | _ => false end.
Definition is_used (c : chunk) : bool := match c_tag c with Used => true | _ => false end.

(** struct malloc_state reduced to the heap's own segment: chunks in address order from offset
    MSIZE, the size of the top chunk behind them ([None] once top has moved to another
    segment), and whether memory of other segments exists. *)
Record heap : Type := Hp { h_ch : list chunk; h_top : option Z; h_ext : bool }.

Fixpoint total (l : list chunk) : Z :=
  match l with [] => 0 | c :: r => c_sz c + total r end.

(** create_mspace_with_base (dlmalloc.c:5425-5438) with init_user_mstate (5382-5404): the
    state record takes the first MSIZE bytes, top the rest without the foot. NULL (modelled as
    [None]) if the capacity is out of bounds. The base is 16-byte aligned. *)
Definition create_mspace (capacity page : Z) : option heap :=
  if (MSIZE + TOP_FOOT <? capacity) && (capacity <? wrap64 (- (MSIZE + TOP_FOOT + page)))
  then Some (Hp [] (Some (capacity - MSIZE - TOP_FOOT)) false)
  else None.

(** OSHMPI_DLMALLOC_MIN_MSPACE_SIZE: 128 * sizeof(size_t). *)
Definition MIN_MSPACE : Z := 1024.

(** Sizes of the heap (setup_impl.c:171-174, the same at 253-256): [size] is registered in
    symm_heap_attr (184, 270), [true_size] is allocated and given to the mspace. *)
Definition heap_size (env page : Z) : Z := c_align env page.
Definition heap_true_size (env page : Z) : Z :=
  c_align (wrap64 (heap_size env page + MIN_MSPACE)) page.

(** attach_symm_heap / allocate_symm_heap up to the creation of the mspace
    (setup_impl.c:164-192, 243-278): a NULL mspace fails OSHMPI_ASSERT. *)
Definition init_heap (env page : Z) : outcome heap :=
  match create_mspace (heap_true_size env page) page with
  | Some h => Ok h
  | None => Abort
  end.

(** OSHMPI_get_mspace_sz (oshmpi_impl.h:832-841): the first assignment is lost. *)
Definition get_mspace_sz (bufsz page : Z) : Z :=
  let _ := wrap64 (bufsz + MIN_MSPACE) in
  c_align bufsz page.

(** What the allocator decides: a free chunk of the heap by index, top, memory outside the
    heap that exists already or is mapped for this request, a new segment that becomes the
    home of top, or failure of the system call. *)
Inductive pick : Type := PChunk (i : nat) | PTop | POut | PSeg | PNone.

(** Result of mspace_malloc: offset and size of a chunk of the heap, an address outside the
    heap, NULL. *)
Inductive mres : Type := MHeap (o s : Z) | MOut (a : Z) | MNull.

Fixpoint split_at (i : nat) (l : list chunk) : option (list chunk * chunk * list chunk) :=
  match l, i with
  | [], _ => None
  | c :: r, O => Some ([], c, r)
  | c :: r, S i' =>
      match split_at i' r with Some (p, x, q) => Some (c :: p, x, q) | None => None end
  end.

(** The chunk at offset [tgt]; [o] is the offset of the list. *)
Fixpoint locate (o : Z) (l : list chunk) (tgt : Z) : option (list chunk * chunk * list chunk) :=
  match l with
  | [] => None
  | c :: r =>
      if o =? tgt then Some ([], c, r)
      else match locate (o + c_sz c) r tgt with
           | Some (p, x, q) => Some (c :: p, x, q)
           | None => None
           end
  end.

(** Nothing in the heap can serve [nb]: no free chunk of that size, and not [nb < topsize]. *)
Definition nofit (h : heap) (nb : Z) : bool :=
  forallb (fun c => negb (is_free c && (nb <=? c_sz c))) (h_ch h) &&
  match h_top h with Some t => t <=? nb | None => true end.

(** add_segment (dlmalloc.c:3995-4046): the old top becomes an ordinary free chunk if it is at
    least MIN_CHUNK_SIZE long; the segment record and the fence posts take the rest of the
    segment. csp is the end of top because base and capacity are multiples of 16. *)
Definition leave_top (h : heap) : heap :=
  match h_top h with
  | None => Hp (h_ch h) None true
  | Some t =>
      Hp (h_ch h ++ (if MIN_CHUNK <=? t then [Ck t Free; Ck TOP_FOOT Fixed]
                     else [Ck (t + TOP_FOOT) Fixed])) None true
  end.

(** mspace_malloc behind the computation of nb (dlmalloc.c:5485-5590, tmalloc_large 4433-4519,
    tmalloc_small 4522-4551, sys_alloc 4051-4186). A chunk is split if the remainder is at
    least MIN_CHUNK_SIZE. [os] is the address of memory outside the heap. [NoFuel]: not an
    answer that dlmalloc can give. *)
Definition m_alloc (h : heap) (nb : Z) (pk : pick) (os : Z) : outcome (mres * heap) :=
  match pk with
  | PChunk i =>
      match split_at i (h_ch h) with
      | Some (pre, Ck s Free, post) =>
          if nb <=? s then
            let o := MSIZE + total pre in
            if MIN_CHUNK <=? s - nb
            then Ok (MHeap o nb,
                     Hp (pre ++ Ck nb Used :: Ck (s - nb) Free :: post) (h_top h) (h_ext h))
            else Ok (MHeap o s, Hp (pre ++ Ck s Used :: post) (h_top h) (h_ext h))
          else NoFuel
      | _ => NoFuel
      end
  | PTop =>
      match h_top h with
      | Some t =>
          if nb <? t
          then Ok (MHeap (MSIZE + total (h_ch h)) nb,
                   Hp (h_ch h ++ [Ck nb Used]) (Some (t - nb)) (h_ext h))
          else NoFuel
      | None => NoFuel
      end
  | POut =>
      if h_ext h || (nofit h nb && (MMAP_THRESHOLD <=? nb)) then Ok (MOut os, h) else NoFuel
  | PSeg => if nofit h nb then Ok (MOut os, leave_top h) else NoFuel
  | PNone => if nofit h nb then Ok (MNull, h) else NoFuel
  end.

(** mspace_malloc (dlmalloc.c:5485-5590): a request of MAX_REQUEST or more becomes MAX_SIZE_T,
    for which sys_alloc and mmap_alloc fail by wrap-around (3837, 4072-4074). [pk]: the choice
    for a padded request. *)
Definition m_malloc (h : heap) (bytes : Z) (pk : Z -> pick) (os : Z) : outcome (mres * heap) :=
  if MAX_REQUEST <=? bytes then Ok (MNull, h)
  else m_alloc h (request2size bytes) (pk (request2size bytes)) os.

(** Give back [sz] bytes between [pre] and [post]: mspace_free (dlmalloc.c:5598-5690) and
    dispose_chunk (4364-4425): merged with a free chunk before, and with top or a free chunk
    behind. (sys_trim leaves an EXTERN segment alone, 4198-4245.) *)
Definition dispose (pre : list chunk) (sz : Z) (post : list chunk) (top : option Z)
  : list chunk * option Z :=
  let '(pre', sz') :=
    match rev pre with
    | Ck s Free :: r => (rev r, s + sz)
    | _ => (pre, sz)
    end in
  match post with
  | [] => match top with
          | Some t => (pre', Some (t + sz'))
          | None => (pre' ++ [Ck sz' Free], None)
          end
  | Ck s Free :: post' => (pre' ++ Ck (sz' + s) Free :: post', top)
  | _ => (pre' ++ Ck sz' Free :: post, top)
  end.

(** mspace_free (dlmalloc.c:5598-5690) of the user pointer at offset [o]. *)
Definition m_free (h : heap) (o : Z) : outcome heap :=
  match locate MSIZE (h_ch h) (o - MEM_OFF) with
  | Some (pre, Ck s Used, post) =>
      let '(l, t) := dispose pre s post (h_top h) in Ok (Hp l t (h_ext h))
  | _ => UB
  end.

(** mspace_calloc (dlmalloc.c:5690-5710): the request, with the overflow test. *)
Definition calloc_req (n s : Z) : Z :=
  if n =? 0 then 0
  else let req := wrap64 (n * s) in
       if negb (Z.land (Z.lor n s) (Z.lnot 65535) =? 0) && negb (req / n =? s)
       then MAX_SIZE_T else req.

(** The loop of internal_memalign that rounds the alignment up (dlmalloc.c:4878-4883). For
    more than 2^63 it does not end ([NoFuel]). *)
Fixpoint round_align (fuel : nat) (a alignment : Z) : outcome Z :=
  match fuel with
  | O => NoFuel
  | S f => if a <? alignment then round_align f (wrap64 (2 * a)) alignment else Ok a
  end.

Definition memalign_alignment (alignment : Z) : outcome Z :=
  let a := if alignment <? MIN_CHUNK then MIN_CHUNK else alignment in
  if Z.land a (a - 1) =? 0 then Ok a else round_align 64 32 a.

(** First aligned address (mem + alignment - 1) & -alignment (dlmalloc.c:4903-4904), for a
    power of two; no wrap-around because the chunk just allocated contains it. *)
Definition align_up (a alignment : Z) : Z := Z.land (a + alignment - 1) (- alignment).

(** The part of internal_memalign that gives back the spare room at the end
    (dlmalloc.c:4924-4933) of the chunk at offset [o]. *)
Definition trim_chunk (h : heap) (o nb : Z) : outcome (Z * heap) :=
  match locate MSIZE (h_ch h) o with
  | Some (pre, Ck s Used, post) =>
      if nb + MIN_CHUNK <? s
      then let '(l, t) := dispose (pre ++ [Ck nb Used]) (s - nb) post (h_top h) in
           Ok (nb, Hp l t (h_ext h))
      else Ok (s, h)
  | _ => UB
  end.

(** The part that gives back the leader (dlmalloc.c:4899-4921): new offset of the chunk. *)
Definition lead_chunk (b : Z) (h : heap) (o alignment : Z) : outcome (Z * heap) :=
  let mem := b + o + MEM_OFF in
  if Z.land mem (alignment - 1) =? 0 then Ok (o, h)
  else
    let br := align_up mem alignment - MEM_OFF - b in
    let pos := if MIN_CHUNK <=? br - o then br else br + alignment in
    match locate MSIZE (h_ch h) o with
    | Some (pre, Ck s Used, post) =>
        let '(l, t) := dispose pre (pos - o) (Ck (s - (pos - o)) Used :: post) (h_top h) in
        Ok (pos, Hp l t (h_ext h))
    | _ => UB
    end.

(** mspace_memalign (dlmalloc.c:5789-5799) and internal_memalign (4873-4943); [b] is the base
    address of the heap. *)
Definition m_memalign (b : Z) (h : heap) (alignment bytes : Z) (pk : Z -> pick) (os : Z)
  : outcome (mres * heap) :=
  if alignment <=? 16 then m_malloc h bytes pk os
  else
    do a <- memalign_alignment alignment;
    if wrap64 (MAX_REQUEST - a) <=? bytes then Ok (MNull, h)
    else
      let nb := request2size bytes in
      let req := wrap64 (nb + a + MIN_CHUNK - OVERHEAD) in
      do (r, h1) <- m_malloc h req pk os;
      match r with
      | MHeap o s =>
          do (o2, h2) <- lead_chunk b h1 o a;
          do (s3, h3) <- trim_chunk h2 o2 nb;
          Ok (MHeap o2 s3, h3)
      | MOut m => Ok (MOut (if Z.land m (a - 1) =? 0 then m else align_up m a), h1)
      | MNull => Ok (MNull, h1)
      end.

(** try_realloc_chunk (dlmalloc.c:4800-4868): [Some] new size and heap if done in place. The
    remainder of a free neighbour is not merged further: the chunk behind it is in use. *)
Definition try_realloc (h : heap) (pre : list chunk) (s : Z) (post : list chunk) (nb : Z)
  : option (Z * heap) :=
  if nb <=? s then
    if MIN_CHUNK <=? s - nb
    then let '(l, t) := dispose (pre ++ [Ck nb Used]) (s - nb) post (h_top h) in
         Some (nb, Hp l t (h_ext h))
    else Some (s, h)
  else
    match post with
    | [] =>
        match h_top h with
        | Some t => if nb <? s + t
                    then Some (nb, Hp (pre ++ [Ck nb Used]) (Some (s + t - nb)) (h_ext h))
                    else None
        | None => None
        end
    | Ck s2 Free :: post' =>
        if nb <=? s + s2 then
          if MIN_CHUNK <=? s + s2 - nb
          then Some (nb, Hp (pre ++ Ck nb Used :: Ck (s + s2 - nb) Free :: post') (h_top h) (h_ext h))
          else Some (s + s2, Hp (pre ++ Ck (s + s2) Used :: post') (h_top h) (h_ext h))
        else None
    | _ => None
    end.

(** mspace_realloc (dlmalloc.c:5710-5755) of a block of the heap. The third component is the
    memcpy, if any: destination, source, length. *)
Definition m_realloc (h : heap) (o bytes : Z) (pk : Z -> pick) (os : Z)
  : outcome (mres * heap * option (Z * Z * Z)) :=
  if MAX_REQUEST <=? bytes then Ok (MNull, h, None)
  else
    match locate MSIZE (h_ch h) (o - MEM_OFF) with
    | Some (pre, Ck s Used, post) =>
        match try_realloc h pre s post (request2size bytes) with
        | Some (s', h') => Ok (MHeap (o - MEM_OFF) s', h', None)
        | None =>
            do (r, h1) <- m_malloc h bytes pk os;
            match r with
            | MNull => Ok (MNull, h1, None)
            | MHeap o' s' =>
                do h2 <- m_free h1 o;
                Ok (MHeap o' s', h2, Some (o' + MEM_OFF, o, Z.min (s - OVERHEAD) bytes))
            | MOut a => do h2 <- m_free h1 o; Ok (MOut a, h2, None)
            end
        end
    | _ => UB
    end.

(** A pointer held by the program: NULL, a place in the heap of the PE, another address. *)
Inductive hptr : Type := PNull | PHeap (o : Z) | PAddr (a : Z).
Definition ptr_of (r : mres) : hptr :=
  match r with MHeap o _ => PHeap (o + MEM_OFF) | MOut a => PAddr a | MNull => PNull end.

(** One PE: its allocator, the bytes of its heap, for every allocating call so far the block
    it returned with the number of bytes asked for ([None] once released), and (ghost) the
    blocks whose release was ignored. *)
Record hst : Type := Hst {
  s_heap : heap; s_mem : Z -> Z; s_tbl : list (option (hptr * Z)); s_leak : list Z }.

(** The allocation calls of mem_impl.c; blocks are named by the call that returned them. *)
Inductive hop : Type :=
| HMalloc (bytes : Z)
| HCalloc (n s : Z)
| HAlign (alignment bytes : Z)
| HFree (k : nat)
| HRealloc (k : nat) (bytes : Z).

Definition memcpy (m : Z -> Z) (d s n : Z) : Z -> Z :=
  fun x => if (d <=? x) && (x <? d + n) then m (s + (x - d)) else m x.
Definition memset0 (m : Z -> Z) (d n : Z) : Z -> Z :=
  fun x => if (d <=? x) && (x <? d + n) then 0 else m x.

Definition push (st : hst) (h : heap) (m : Z -> Z) (p : hptr) (bytes : Z) : hst :=
  Hst h m (s_tbl st ++ [Some (p, bytes)]) (s_leak st).

(** One call. [b]: base address, [size]: the registered size of the heap, [pol]: the
    allocator's choice from the calls so far, its state and the (padded) request; [os]: the
    address of memory outside the heap obtained by the call.
    OSHMPI_malloc mem_impl.c:10-25; OSHMPI_free 27-49 (a pointer outside the registered range
    of the heap, and outside every space, is ignored); OSHMPI_realloc 51-65; OSHMPI_align
    67-78; OSHMPI_calloc 80-95 behind shmem_calloc, src/shmem/mem.c:53-68 (the memset of mspace_calloc is skipped for directly mapped
    blocks only, which are zero). Barriers are in SchedModel. The heap attribute has no
    role but its range here; the handle and offsets are dummies.
    A call with a block that was released already is [UB]. *)
Definition hstep (b size : Z) (pol : list hop -> heap -> Z -> pick) (os : nat -> Z)
    (past : list hop) (st : hst) (op : hop) : outcome hst :=
  let h := s_heap st in
  let a := os (length (s_tbl st)) in
  match op with
  | HMalloc bytes =>
      if bytes =? 0 then Ok (push st h (s_mem st) PNull bytes)
      else do (r, h') <- m_malloc h bytes (pol past h) a;
           Ok (push st h' (s_mem st) (ptr_of r) bytes)
  | HCalloc n s =>
      if (n =? 0) || (s =? 0) then Ok (push st h (s_mem st) PNull 0)
      else let req := calloc_req n s in
           do (r, h') <- m_malloc h req (pol past h) a;
           Ok (push st h'
                 (match r with MHeap o _ => memset0 (s_mem st) (o + MEM_OFF) req | _ => s_mem st end)
                 (ptr_of r) (n * s))
  | HAlign al bytes =>
      do (r, h') <- m_memalign b h al bytes (pol past h) a;
      Ok (push st h' (s_mem st) (ptr_of r) bytes)
  | HFree k =>
      match nth_error (s_tbl st) k with
      | Some (Some (p, _)) =>
          let t := upd (s_tbl st) k None in
          match p with
          | PHeap o =>
              if check_range (b + o) (mkAttr 0 b size None)
              then do h' <- m_free h o; Ok (Hst h' (s_mem st) t (s_leak st))
              else Ok (Hst h (s_mem st) t (o :: s_leak st))
          | _ => Ok (Hst h (s_mem st) t (s_leak st))
          end
      | _ => UB
      end
  | HRealloc k bytes =>
      match nth_error (s_tbl st) k with
      | Some (Some (PNull, _)) =>
          if bytes =? 0 then Ok (push st h (s_mem st) PNull bytes)
          else do (r, h') <- m_malloc h bytes (pol past h) a;
               Ok (push st h' (s_mem st) (ptr_of r) bytes)
      | Some (Some (PHeap o, _)) =>
          do (r, h', cp) <- m_realloc h o bytes (pol past h) a;
          let m' := match cp with Some (d, s, n) => memcpy (s_mem st) d s n | None => s_mem st end in
          match r with
          | MNull => Ok (push st h' m' PNull bytes)
          | _ => Ok (Hst h' m' (upd (s_tbl st) k None ++ [Some (ptr_of r, bytes)]) (s_leak st))
          end
      | Some (Some (PAddr _, _)) =>
          (* the block stays outside, in place or elsewhere, or moves into the heap; its
             bytes are not modelled *)
          do (r, h') <- (match pol past h (request2size bytes) with
                         | POut => Ok (if MAX_REQUEST <=? bytes then MNull else MOut a, h)
                         | _ => m_malloc h bytes (pol past h) a
                         end);
          match r with
          | MNull => Ok (push st h' (s_mem st) PNull bytes)
          | _ => Ok (Hst h' (s_mem st) (upd (s_tbl st) k None ++ [Some (ptr_of r, bytes)]) (s_leak st))
          end
      | _ => UB
      end
  end.

(** A history of calls, from [past] on. *)
Fixpoint hrun (b size : Z) (pol : list hop -> heap -> Z -> pick) (os : nat -> Z)
    (past : list hop) (st : hst) (ops : list hop) : outcome hst :=
  match ops with
  | [] => Ok st
  | op :: r => do st' <- hstep b size pol os past st op;
               hrun b size pol os (past ++ [op]) st' r
  end.

(** A PE just started: setup_impl.c:164-192, 243-278. *)
Definition hstart (env page : Z) (mem : Z -> Z) : outcome hst :=
  do h <- init_heap env page; Ok (Hst h mem [] []).

(** The placement used in examples: first fit, then top, then a new segment. *)
Fixpoint first_fit (i : nat) (l : list chunk) (nb : Z) : option nat :=
  match l with
  | [] => None
  | c :: r => if is_free c && (nb <=? c_sz c) then Some i else first_fit (S i) r nb
  end.
Definition ff (past : list hop) (h : heap) (nb : Z) : pick :=
  match first_fit 0 (h_ch h) nb with
  | Some i => PChunk i
  | None => match h_top h with
            | Some t => if nb <? t then PTop else PSeg
            | None => POut
            end
  end.
