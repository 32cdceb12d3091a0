(** The bins of dlmalloc: how the allocator of the symmetric heap finds a free chunk.

    HeapModel has the chunks of the heap and leaves the choice among the free ones open. Here
    is the choice (src/internal/util/dlmalloc.c, x86-64 and gcc): small bins, trees of large
    chunks, the designated victim, top.

    A chunk is named by its offset from the base of the heap; 0 is NULL. The links of a bin are
    modelled by what they lead to: a small bin is the list from its fd link on, a tree is a
    tree, and the chunks of one size in a tree are the list from the fd link of the tree node
    on. Parent links are the places in the tree. The size of a chunk in a tree is kept with it
    (in C it is in the head of the chunk), and the index of its tree is computed from it (in C
    it is kept with the chunk). The checks RTCHECK are not modelled; where a bin does
    not agree with the chunks the outcome is [UB].

    The model ends when a second segment is added to the heap ([NoFuel]); directly mapped
    chunks are in no bin. *)
From Verif Require Import Base SobjModel HeapModel.

Inductive tree : Type := Leaf | Node (o s : Z) (ring : list Z) (l r : tree).

(** struct malloc_state (dlmalloc.c:2575-2598): smallmap, treemap, dvsize, dv, smallbins,
    treebins. *)
Record bins : Type := Bn {
  sb : Z -> list Z; smap : Z; tb : Z -> tree; tmap : Z; dv : Z; dvs : Z }.

Definition set_sb (b : bins) (i : Z) (l : list Z) : bins :=
  Bn (fun j => if j =? i then l else sb b j) (smap b) (tb b) (tmap b) (dv b) (dvs b).
Definition set_tb (b : bins) (i : Z) (t : tree) : bins :=
  Bn (sb b) (smap b) (fun j => if j =? i then t else tb b j) (tmap b) (dv b) (dvs b).
Definition set_dv (b : bins) (o s : Z) : bins :=
  Bn (sb b) (smap b) (tb b) (tmap b) o s.

(** mark_smallmap, clear_smallmap, mark_treemap, clear_treemap (dlmalloc.c:2916-2921), on
    32 bits. *)
Definition mark_small (b : bins) (i : Z) : bins :=
  Bn (sb b) (Z.lor (smap b) (2 ^ i)) (tb b) (tmap b) (dv b) (dvs b).
Definition clear_small (b : bins) (i : Z) : bins :=
  Bn (sb b) (Z.ldiff (smap b) (2 ^ i)) (tb b) (tmap b) (dv b) (dvs b).
Definition mark_tree (b : bins) (i : Z) : bins :=
  Bn (sb b) (smap b) (tb b) (Z.lor (tmap b) (2 ^ i)) (dv b) (dvs b).
Definition clear_tree (b : bins) (i : Z) : bins :=
  Bn (sb b) (smap b) (tb b) (Z.ldiff (tmap b) (2 ^ i)) (dv b) (dvs b).

(** init_bins and the zeroed state (dlmalloc.c:3924-3932, 5387). *)
Definition bins0 : bins := Bn (fun _ => []) 0 (fun _ => Leaf) 0 0 0.

(** is_small, small_index, small_index2size (dlmalloc.c:2822-2824), NSMALLBINS and
    SMALLBIN_SHIFT (2566, 2568). *)
Definition is_small (s : Z) : bool := s / 8 <? 32.
Definition small_index (s : Z) : Z := s / 8.
Definition small_size (i : Z) : Z := 8 * i.
(** MAX_SMALL_REQUEST (dlmalloc.c:2570-2573): 255 - 15 - 8. *)
Definition MAX_SMALL_REQUEST : Z := 232.

(** compute_tree_index (dlmalloc.c:2832-2845): X is an unsigned int. *)
Definition tree_index (s : Z) : Z :=
  let x := wrap32 (s / 256) in
  if x =? 0 then 0
  else if 65535 <? x then 31
  else let k := Z.log2 x in 2 * k + (s / 2 ^ (k + 7)) mod 2.

(** leftshift_for_tree_index (dlmalloc.c:2900-2902). *)
Definition leftshift (i : Z) : Z := if i =? 31 then 0 else 63 - (i / 2 + 8 - 2).

(** idx2bit, least_bit, left_bits (dlmalloc.c:2911, 2925, 2928) on binmap_t (unsigned int), and
    compute_bit2idx (2935-2941) of a single bit. *)
Definition least_bit (x : Z) : Z := Z.land x (wrap32 (- x)).
Definition left_bits (x : Z) : Z := Z.lor (wrap32 (2 * x)) (wrap32 (- wrap32 (2 * x))).
Definition bit2idx (x : Z) : Z := Z.log2 x.

(** The bit of the shifted size that chooses the child: K >> (SIZE_T_BITSIZE - 1) & 1. *)
Definition top_bit (k : Z) : bool := Z.testbit k 63.

(** insert_small_chunk (dlmalloc.c:3581-3597): a bin that is not marked is taken as empty,
    whatever its links are. *)
Definition insert_small (b : bins) (p s : Z) : bins :=
  let i := small_index s in
  if Z.testbit (smap b) i then set_sb b i (p :: sb b i)
  else set_sb (mark_small b i) i [p].

Definition without (p : Z) (l : list Z) : list Z := filter (fun q => negb (q =? p)) l.

(** unlink_small_chunk (dlmalloc.c:3600-3623): the last chunk of a bin is not unlinked, only the
    mark is cleared. *)
Definition unlink_small (b : bins) (p s : Z) : bins :=
  let i := small_index s in
  match sb b i with
  | [_] => clear_small b i
  | l => set_sb b i (without p l)
  end.

(** unlink_first_small_chunk (dlmalloc.c:3626-3641). *)
Definition unlink_first_small (b : bins) (i : Z) : bins :=
  match sb b i with
  | [] | [_] => clear_small b i
  | _ :: l => set_sb b i l
  end.

(** The loop of insert_large_chunk (dlmalloc.c:3676-3708); [k] is the size shifted. *)
Fixpoint t_insert (x s k : Z) (t : tree) : tree :=
  match t with
  | Leaf => Node x s [] Leaf Leaf
  | Node o s' ring l r =>
      if negb (s' =? s)
      then if top_bit k then Node o s' ring l (t_insert x s (wrap64 (2 * k)) r)
           else Node o s' ring (t_insert x s (wrap64 (2 * k)) l) r
      else Node o s' (x :: ring) l r
  end.

(** insert_large_chunk (dlmalloc.c:3659-3709). *)
Definition insert_large (b : bins) (x s : Z) : bins :=
  let i := tree_index s in
  if Z.testbit (tmap b) i
  then set_tb b i (t_insert x s (wrap64 (s * 2 ^ leftshift i)) (tb b i))
  else set_tb (mark_tree b i) i (Node x s [] Leaf Leaf).

(** The leaf that replaces a node (dlmalloc.c:3741-3753): down by the right child, or by the
    left one if there is no right one. Returns the leaf and the tree without it. *)
Fixpoint pop_leaf (t : tree) : option (Z * Z * list Z * tree) :=
  match t with
  | Leaf => None
  | Node o s ring l r =>
      match pop_leaf r with
      | Some (x, r') => Some (x, Node o s ring l r')
      | None =>
          match pop_leaf l with
          | Some (x, l') => Some (x, Node o s ring l' r)
          | None => Some (o, s, ring, Leaf)
          end
      end
  end.

(** The node is taken out (dlmalloc.c:3727-3797): its bk neighbour of the same size takes its
    place, else a leaf below it, else nothing. *)
Definition t_remove_node (ring : list Z) (s : Z) (l r : tree) : tree :=
  match rev ring with
  | x :: rest => Node x s (rev rest) l r
  | [] =>
      match pop_leaf r with
      | Some (x, s', ring', r') => Node x s' ring' l r'
      | None =>
          match pop_leaf l with
          | Some (x, s', ring', l') => Node x s' ring' l' r
          | None => Leaf
          end
      end
  end.

(** unlink_large_chunk (dlmalloc.c:3727-3797) of the chunk [x], wherever it is in the tree. *)
Fixpoint t_unlink (x : Z) (t : tree) : tree :=
  match t with
  | Leaf => Leaf
  | Node o s ring l r =>
      if o =? x then t_remove_node ring s l r
      else Node o s (without x ring) (t_unlink x l) (t_unlink x r)
  end.

(** ... with the mark of the tree (dlmalloc.c:3759-3762). *)
Definition unlink_large (b : bins) (x s : Z) : bins :=
  let i := tree_index s in
  let t := t_unlink x (tb b i) in
  match t with
  | Leaf => clear_tree (set_tb b i t) i
  | _ => set_tb b i t
  end.

(** insert_chunk, unlink_chunk (dlmalloc.c:3800-3806). *)
Definition insert_chunk (b : bins) (p s : Z) : bins :=
  if is_small s then insert_small b p s else insert_large b p s.
Definition unlink_chunk (b : bins) (p s : Z) : bins :=
  if is_small s then unlink_small b p s else unlink_large b p s.

(** replace_dv (dlmalloc.c:3645-3654). *)
Definition replace_dv (b : bins) (p s : Z) : bins :=
  let b1 := if dvs b =? 0 then b else insert_small b (dv b) (dvs b) in
  set_dv b1 p s.

(** One comparison of tmalloc_large and tmalloc_small: [v] is the best chunk so far with its
    size, [rs] what it leaves. *)
Definition better (nb o s : Z) (v : option (Z * Z)) (rs : Z) : option (Z * Z) * Z :=
  let trem := wrap64 (s - nb) in
  if trem <? rs then (Some (o, s), trem) else (v, rs).

(** tmalloc_large, the walk for the size (dlmalloc.c:4440-4463): the best chunk on the way and
    the tree to look through next. *)
Fixpoint walk (nb bits : Z) (t : tree) (v : option (Z * Z)) (rs : Z) (rst : tree)
  : option (Z * Z) * Z * tree :=
  match t with
  | Leaf => (v, rs, rst)
  | Node o s _ l r =>
      let trem := wrap64 (s - nb) in
      let '(v', rs') := better nb o s v rs in
      if (trem <? rs) && (trem =? 0) then (v', rs', t)
      else if top_bit bits then walk nb (wrap64 (2 * bits)) r v' rs' rst
      else walk nb (wrap64 (2 * bits)) l v' rs' (match r with Leaf => rst | _ => r end)
  end.

(** The smallest of a tree (dlmalloc.c:4475-4482, 4512-4518), along leftmost_child (2406). *)
Fixpoint smallest (nb : Z) (t : tree) (v : option (Z * Z)) (rs : Z) : option (Z * Z) * Z :=
  match t with
  | Leaf => (v, rs)
  | Node o s _ l r =>
      let '(v', rs') := better nb o s v rs in
      match l with
      | Leaf => smallest nb r v' rs'
      | Node _ _ _ _ _ => smallest nb l v' rs'
      end
  end.

(** tmalloc_large up to the choice (dlmalloc.c:4430-4485): the chunk, or nothing if there is
    none or dv is as good. *)
Definition tmalloc_large (b : bins) (nb : Z) : option (Z * Z) :=
  let idx := tree_index nb in
  let '(v, rs, t) := walk nb (wrap64 (nb * 2 ^ leftshift idx)) (tb b idx) None (wrap64 (- nb)) Leaf in
  let t := match t, v with
           | Leaf, None =>
               let lb := Z.land (left_bits (2 ^ idx)) (tmap b) in
               if lb =? 0 then Leaf else tb b (bit2idx (least_bit lb))
           | _, _ => t
           end in
  let '(v, rs) := smallest nb t v rs in
  match v with
  | Some _ => if rs <? wrap64 (dvs b - nb) then v else None
  | None => None
  end.

(** tmalloc_small up to the choice (dlmalloc.c:4502-4518). *)
Definition tmalloc_small (b : bins) (nb : Z) : option (Z * Z) :=
  match tb b (bit2idx (least_bit (tmap b))) with
  | Leaf => None
  | Node o s _ l r =>
      fst (smallest nb (match l with Leaf => r | _ => l end) (Some (o, s)) (wrap64 (s - nb)))
  end.

(** An mspace: the chunks and the bins. *)
Record dl : Type := Dl { d_h : heap; d_b : bins }.

(** set_inuse_and_pinuse of the free chunk of [s] bytes at [o]; set_size_and_pinuse_of_inuse_chunk
    with set_size_and_pinuse_of_free_chunk behind it (dlmalloc.c:3054-3061, 2280-2281). *)
Definition take_whole (h : heap) (o s : Z) : outcome heap :=
  match locate MSIZE (h_ch h) o with
  | Some (pre, Ck s' Free, post) =>
      if s' =? s then Ok (Hp (pre ++ Ck s Used :: post) (h_top h) (h_ext h)) else UB
  | _ => UB
  end.
Definition take_part (h : heap) (o s nb : Z) : outcome heap :=
  match locate MSIZE (h_ch h) o with
  | Some (pre, Ck s' Free, post) =>
      if s' =? s
      then Ok (Hp (pre ++ Ck nb Used :: Ck (s - nb) Free :: post) (h_top h) (h_ext h)) else UB
  | _ => UB
  end.

(** The part of mspace_malloc behind the bins (dlmalloc.c:5547-5583): dv, top, the system.
    [sys] is the answer of sys_alloc (4051-4186): nothing, or a direct mapping at [os]. *)
Definition malloc_rest (d : dl) (nb : Z) (sys : pick) (os : Z) : outcome (mres * dl) :=
  let b := d_b d in
  let h := d_h d in
  if nb <=? dvs b then
    let rs := dvs b - nb in
    if MIN_CHUNK <=? rs
    then do h' <- take_part h (dv b) (dvs b) nb;
         Ok (MHeap (dv b) nb, Dl h' (set_dv b (dv b + nb) rs))
    else do h' <- take_whole h (dv b) (dvs b);
         Ok (MHeap (dv b) (dvs b), Dl h' (set_dv b 0 0))
  else
    match h_top h with
    | Some t =>
        if nb <? t
        then Ok (MHeap (MSIZE + total (h_ch h)) nb,
                 Dl (Hp (h_ch h ++ [Ck nb Used]) (Some (t - nb)) (h_ext h)) b)
        else match sys with
             | PNone => Ok (MNull, d)
             | POut => if MMAP_THRESHOLD <=? nb then Ok (MOut os, d) else NoFuel
             | _ => NoFuel
             end
    | None => NoFuel
    end.

(** mspace_malloc (dlmalloc.c:5485-5590) with the splitting in tmalloc_large (4486-4496) and
    tmalloc_small (4519-4533). *)
Definition d_malloc (d : dl) (bytes : Z) (sys : pick) (os : Z) : outcome (mres * dl) :=
  let b := d_b d in
  let h := d_h d in
  if bytes <=? MAX_SMALL_REQUEST then
    let nb := if bytes <? MIN_REQUEST then MIN_CHUNK else pad_request bytes in
    let idx := small_index nb in
    let sbits := Z.shiftr (smap b) idx in
    if negb (Z.land sbits 3 =? 0) then
      let i := idx + Z.land (Z.lnot sbits) 1 in
      match sb b i with
      | p :: _ =>
          do h' <- take_whole h p (small_size i);
          Ok (MHeap p (small_size i), Dl h' (unlink_first_small b i))
      | [] => UB
      end
    else if dvs b <? nb then
      if negb (sbits =? 0) then
        let lb := Z.land (wrap32 (Z.shiftl sbits idx)) (left_bits (2 ^ idx)) in
        let i := bit2idx (least_bit lb) in
        match sb b i with
        | p :: _ =>
            let rs := small_size i - nb in
            let b1 := unlink_first_small b i in
            if rs <? MIN_CHUNK
            then do h' <- take_whole h p (small_size i); Ok (MHeap p (small_size i), Dl h' b1)
            else do h' <- take_part h p (small_size i) nb;
                 Ok (MHeap p nb, Dl h' (replace_dv b1 (p + nb) rs))
        | [] => UB
        end
      else if negb (tmap b =? 0) then
        match tmalloc_small b nb with
        | Some (o, s) =>
            let rs := s - nb in
            let b1 := unlink_large b o s in
            if rs <? MIN_CHUNK
            then do h' <- take_whole h o s; Ok (MHeap o s, Dl h' b1)
            else do h' <- take_part h o s nb; Ok (MHeap o nb, Dl h' (replace_dv b1 (o + nb) rs))
        | None => UB
        end
      else malloc_rest d nb sys os
    else malloc_rest d nb sys os
  else if MAX_REQUEST <=? bytes then Ok (MNull, d)
  else
    let nb := pad_request bytes in
    match (if tmap b =? 0 then None else tmalloc_large b nb) with
    | Some (o, s) =>
        let rs := s - nb in
        let b1 := unlink_large b o s in
        if rs <? MIN_CHUNK
        then do h' <- take_whole h o s; Ok (MHeap o s, Dl h' b1)
        else do h' <- take_part h o s nb; Ok (MHeap o nb, Dl h' (insert_chunk b1 (o + nb) rs))
    | None => malloc_rest d nb sys os
    end.

(** The bins when the chunk of [sz] bytes at [o] between [pre] and [post] is given back:
    mspace_free (dlmalloc.c:5623-5677), dispose_chunk (4364-4425). The chunks are in
    HeapModel.dispose. *)
Definition dispose_forward (b : bins) (p psize : Z) (post : list chunk) (next : Z) : bins :=
  match post with
  | [] => if p =? dv b then set_dv b 0 0 else b
  | Ck s Free :: _ =>
      if next =? dv b then set_dv b p (dvs b + psize)
      else let b1 := unlink_chunk b next s in
           if p =? dv b then set_dv b1 (dv b) (psize + s)
           else insert_chunk b1 p (psize + s)
  | _ => insert_chunk b p psize
  end.
Definition dispose_bins (b : bins) (o : Z) (pre : list chunk) (sz : Z) (post : list chunk) : bins :=
  match rev pre with
  | Ck s Free :: _ =>
      let p := o - s in
      if p =? dv b
      then match post with
           | [] | Ck _ Free :: _ => dispose_forward b p (s + sz) post (o + sz)
           | _ => set_dv b (dv b) (s + sz)
           end
      else dispose_forward (unlink_chunk b p s) p (s + sz) post (o + sz)
  | _ => dispose_forward b o sz post (o + sz)
  end.

(** mspace_free (dlmalloc.c:5598-5690) of the user pointer at offset [o]. *)
Definition d_free (d : dl) (o : Z) : outcome dl :=
  match locate MSIZE (h_ch (d_h d)) (o - MEM_OFF) with
  | Some (pre, Ck s Used, post) =>
      let '(l, t) := dispose pre s post (h_top (d_h d)) in
      Ok (Dl (Hp l t (h_ext (d_h d))) (dispose_bins (d_b d) (o - MEM_OFF) pre s post))
  | _ => UB
  end.

(** internal_memalign: spare room at the end (dlmalloc.c:4924-4933), leader (4899-4921), the
    whole (4873-4943) behind mspace_memalign (5789-5799). *)
Definition d_trim (d : dl) (o nb : Z) : outcome (Z * dl) :=
  let h := d_h d in
  match locate MSIZE (h_ch h) o with
  | Some (pre, Ck s Used, post) =>
      if nb + MIN_CHUNK <? s
      then let '(l, t) := dispose (pre ++ [Ck nb Used]) (s - nb) post (h_top h) in
           Ok (nb, Dl (Hp l t (h_ext h))
                     (dispose_bins (d_b d) (o + nb) (pre ++ [Ck nb Used]) (s - nb) post))
      else Ok (s, d)
  | _ => UB
  end.
Definition d_lead (base : Z) (d : dl) (o alignment : Z) : outcome (Z * dl) :=
  let h := d_h d in
  let mem := base + o + MEM_OFF in
  if Z.land mem (alignment - 1) =? 0 then Ok (o, d)
  else
    let br := align_up mem alignment - MEM_OFF - base in
    let pos := if MIN_CHUNK <=? br - o then br else br + alignment in
    match locate MSIZE (h_ch h) o with
    | Some (pre, Ck s Used, post) =>
        let rest := Ck (s - (pos - o)) Used :: post in
        let '(l, t) := dispose pre (pos - o) rest (h_top h) in
        Ok (pos, Dl (Hp l t (h_ext h)) (dispose_bins (d_b d) o pre (pos - o) rest))
    | _ => UB
    end.
Definition d_memalign (base : Z) (d : dl) (alignment bytes : Z) (sys : pick) (os : Z)
  : outcome (mres * dl) :=
  if alignment <=? 16 then d_malloc d bytes sys os
  else
    do a <- memalign_alignment alignment;
    if wrap64 (MAX_REQUEST - a) <=? bytes then Ok (MNull, d)
    else
      let nb := request2size bytes in
      let req := wrap64 (nb + a + MIN_CHUNK - OVERHEAD) in
      do (r, d1) <- d_malloc d req sys os;
      match r with
      | MHeap o s =>
          do (o2, d2) <- d_lead base d1 o a;
          do (s3, d3) <- d_trim d2 o2 nb;
          Ok (MHeap o2 s3, d3)
      | MOut m => Ok (MOut (if Z.land m (a - 1) =? 0 then m else align_up m a), d1)
      | MNull => Ok (MNull, d1)
      end.

(** try_realloc_chunk (dlmalloc.c:4800-4868) of the chunk of [s] bytes at [o] between [pre] and
    [post]. *)
Definition d_try_realloc (d : dl) (o : Z) (pre : list chunk) (s : Z) (post : list chunk) (nb : Z)
  : option (Z * dl) :=
  let h := d_h d in
  let b := d_b d in
  if nb <=? s then
    if MIN_CHUNK <=? s - nb
    then let '(l, t) := dispose (pre ++ [Ck nb Used]) (s - nb) post (h_top h) in
         Some (nb, Dl (Hp l t (h_ext h)) (dispose_bins b (o + nb) (pre ++ [Ck nb Used]) (s - nb) post))
    else Some (s, d)
  else
    match post with
    | [] =>
        match h_top h with
        | Some t => if nb <? s + t
                    then Some (nb, Dl (Hp (pre ++ [Ck nb Used]) (Some (s + t - nb)) (h_ext h)) b)
                    else None
        | None => None
        end
    | Ck s2 Free :: post' =>
        if o + s =? dv b then
          if nb <=? s + dvs b then
            let ds := s + dvs b - nb in
            if MIN_CHUNK <=? ds
            then Some (nb, Dl (Hp (pre ++ Ck nb Used :: Ck ds Free :: post') (h_top h) (h_ext h))
                             (set_dv b (o + nb) ds))
            else Some (s + dvs b, Dl (Hp (pre ++ Ck (s + dvs b) Used :: post') (h_top h) (h_ext h))
                                    (set_dv b 0 0))
          else None
        else if nb <=? s + s2 then
          let rs := s + s2 - nb in
          let b1 := unlink_chunk b (o + s) s2 in
          if rs <? MIN_CHUNK
          then Some (s + s2, Dl (Hp (pre ++ Ck (s + s2) Used :: post') (h_top h) (h_ext h)) b1)
          else let '(l, t) := dispose (pre ++ [Ck nb Used]) rs post' (h_top h) in
               Some (nb, Dl (Hp l t (h_ext h)) (dispose_bins b1 (o + nb) (pre ++ [Ck nb Used]) rs post'))
        else None
    | _ => None
    end.

(** mspace_realloc (dlmalloc.c:5710-5755) of a block of the heap; the third component is the
    memcpy. *)
Definition d_realloc (d : dl) (o bytes : Z) (sys : pick) (os : Z)
  : outcome (mres * dl * option (Z * Z * Z)) :=
  if MAX_REQUEST <=? bytes then Ok (MNull, d, None)
  else
    match locate MSIZE (h_ch (d_h d)) (o - MEM_OFF) with
    | Some (pre, Ck s Used, post) =>
        match d_try_realloc d (o - MEM_OFF) pre s post (request2size bytes) with
        | Some (s', d') => Ok (MHeap (o - MEM_OFF) s', d', None)
        | None =>
            do (r, d1) <- d_malloc d bytes sys os;
            match r with
            | MNull => Ok (MNull, d1, None)
            | MHeap o' s' =>
                do d2 <- d_free d1 o;
                Ok (MHeap o' s', d2, Some (o' + MEM_OFF, o, Z.min (s - OVERHEAD) bytes))
            | MOut a => do d2 <- d_free d1 o; Ok (MOut a, d2, None)
            end
        end
    | _ => UB
    end.

(** One PE, as in HeapModel.hst, with the bins. *)
Record dst : Type := Dst {
  t_dl : dl; t_mem : Z -> Z; t_tbl : list (option (hptr * Z)); t_leak : list Z }.
Definition dpush (st : dst) (d : dl) (m : Z -> Z) (p : hptr) (bytes : Z) : dst :=
  Dst d m (t_tbl st ++ [Some (p, bytes)]) (t_leak st).

(** The allocation calls of src/internal/mem_impl.c:10-95 and src/shmem/mem.c:53-68, as in
    HeapModel.hstep. [sys]: what the system answers if this call needs more memory. A block
    outside the heap is directly mapped; mmap_resize (dlmalloc.c:3870-3902) keeps it outside, or
    it moves. *)
Definition dstep (base size : Z) (sys : pick) (os : Z) (st : dst) (op : hop) : outcome dst :=
  let d := t_dl st in
  match op with
  | HMalloc bytes =>
      if bytes =? 0 then Ok (dpush st d (t_mem st) PNull bytes)
      else do (r, d') <- d_malloc d bytes sys os;
           Ok (dpush st d' (t_mem st) (ptr_of r) bytes)
  | HCalloc n s =>
      if (n =? 0) || (s =? 0) then Ok (dpush st d (t_mem st) PNull 0)
      else let req := calloc_req n s in
           do (r, d') <- d_malloc d req sys os;
           Ok (dpush st d'
                 (match r with MHeap o _ => memset0 (t_mem st) (o + MEM_OFF) req | _ => t_mem st end)
                 (ptr_of r) (n * s))
  | HAlign al bytes =>
      do (r, d') <- d_memalign base d al bytes sys os;
      Ok (dpush st d' (t_mem st) (ptr_of r) bytes)
  | HFree k =>
      match nth_error (t_tbl st) k with
      | Some (Some (p, _)) =>
          let t := upd (t_tbl st) k None in
          match p with
          | PHeap o =>
              if check_range (base + o) (mkAttr 0 base size None)
              then do d' <- d_free d o; Ok (Dst d' (t_mem st) t (t_leak st))
              else Ok (Dst d (t_mem st) t (o :: t_leak st))
          | _ => Ok (Dst d (t_mem st) t (t_leak st))
          end
      | _ => UB
      end
  | HRealloc k bytes =>
      match nth_error (t_tbl st) k with
      | Some (Some (PNull, _)) =>
          if bytes =? 0 then Ok (dpush st d (t_mem st) PNull bytes)
          else do (r, d') <- d_malloc d bytes sys os;
               Ok (dpush st d' (t_mem st) (ptr_of r) bytes)
      | Some (Some (PHeap o, _)) =>
          do (r, d', cp) <- d_realloc d o bytes sys os;
          let m' := match cp with Some (t, s, n) => memcpy (t_mem st) t s n | None => t_mem st end in
          match r with
          | MNull => Ok (dpush st d' m' PNull bytes)
          | _ => Ok (Dst d' m' (upd (t_tbl st) k None ++ [Some (ptr_of r, bytes)]) (t_leak st))
          end
      | Some (Some (PAddr _, _)) =>
          do (r, d') <- (match sys with
                         | POut => Ok (if MAX_REQUEST <=? bytes then MNull else MOut os, d)
                         | _ => d_malloc d bytes sys os
                         end);
          match r with
          | MNull => Ok (dpush st d' (t_mem st) PNull bytes)
          | _ => Ok (Dst d' (t_mem st) (upd (t_tbl st) k None ++ [Some (ptr_of r, bytes)]) (t_leak st))
          end
      | _ => UB
      end
  end.

(** A history of calls, each with the answer of the system. *)
Fixpoint drun (base size : Z) (st : dst) (ops : list (hop * (pick * Z))) : outcome dst :=
  match ops with
  | [] => Ok st
  | (op, (sys, os)) :: r => do st' <- dstep base size sys os st op; drun base size st' r
  end.

(** A PE just started (setup_impl.c:164-192, 243-278; init_user_mstate, dlmalloc.c:5382-5404). *)
Definition dstart (env page : Z) (mem : Z -> Z) : outcome dst :=
  do h <- init_heap env page; Ok (Dst (Dl h bins0) mem [] []).
