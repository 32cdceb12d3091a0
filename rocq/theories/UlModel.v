(** The singly linked lists of util/utlist.h at the level of pointers: the list of spaces, the caches of communicators and
    datatypes. [h p] is the next field of the object at address [p] ([None]: no object there); 0 is NULL. Following NULL or a
    dangling pointer is UB. The loops take fuel; running out is [NoFuel]. *)
From Verif Require Import Base.

Definition lheap : Type := Z -> option Z.
Definition hset (h : lheap) (p : Z) (v : option Z) : lheap := fun q => if q =? p then v else h q.
Definition load (h : lheap) (p : Z) : outcome Z := if p =? 0 then UB else match h p with Some v => Ok v | None => UB end.
Definition store (h : lheap) (p v : Z) : outcome lheap :=
  if p =? 0 then UB else match h p with Some _ => Ok (hset h p (Some v)) | None => UB end.

(** LL_PREPEND2 (utlist.h:317-321). Result: heap and head. *)
Definition ll_prepend (h : lheap) (head add : Z) : outcome (lheap * Z) :=
  do h1 <- store h add head; Ok (h1, add).
(** while (_tmp->next) _tmp = _tmp->next. *)
Fixpoint to_last (fuel : nat) (h : lheap) (t : Z) : outcome Z :=
  match fuel with
  | O => NoFuel
  | S f => do n <- load h t; if n =? 0 then Ok t else to_last f h n
  end.
(** LL_APPEND2 (utlist.h:341-352). *)
Definition ll_append (fuel : nat) (h : lheap) (head add : Z) : outcome (lheap * Z) :=
  do h1 <- store h add 0;
  if head =? 0 then Ok (h1, add)
  else do t <- to_last fuel h1 head; do h2 <- store h1 t add; Ok (h2, head).
(** while (_tmp->next && _tmp->next != del) _tmp = _tmp->next. *)
Fixpoint to_pred (fuel : nat) (h : lheap) (t del : Z) : outcome Z :=
  match fuel with
  | O => NoFuel
  | S f => do n <- load h t; if (n =? 0) || (n =? del) then Ok t else to_pred f h n del
  end.
(** LL_DELETE2 (utlist.h:388-402). *)
Definition ll_delete (fuel : nat) (h : lheap) (head del : Z) : outcome (lheap * Z) :=
  if head =? del then do n <- load h head; Ok (h, n)
  else
    do t <- to_pred fuel h head del;
    do n <- load h t;
    if n =? 0 then Ok (h, head)
    else do d <- load h del; do h1 <- store h t d; Ok (h1, head).
(** LL_FOREACH2 (utlist.h:416-417) with a body that changes no list: the objects visited, until the body breaks out. *)
Fixpoint ll_foreach (fuel : nat) (h : lheap) (el : Z) (stop : Z -> bool) : outcome (list Z) :=
  match fuel with
  | O => NoFuel
  | S f => if el =? 0 then Ok []
           else if stop el then Ok [el]
           else do n <- load h el; do r <- ll_foreach f h n stop; Ok (el :: r)
  end.
(** LL_FOREACH_SAFE2 (utlist.h:422-423) with such a body (OSHMPI_free, mem_impl.c:41-46; OSHMPI_sobj_query_attr_ictx and its
    like, oshmpi_impl.h:705, 736): the next field is read before the body. *)
Fixpoint ll_scan_safe (fuel : nat) (h : lheap) (el : Z) (stop : Z -> bool) : outcome (list Z) :=
  match fuel with
  | O => NoFuel
  | S f => if el =? 0 then Ok []
           else do n <- load h el; if stop el then Ok [el] else do r <- ll_scan_safe f h n stop; Ok (el :: r)
  end.
(** LL_FOREACH_SAFE2 with a body that changes the list: [body] gets heap, head and the count of objects. *)
Definition lst : Type := (lheap * Z * Z)%type.
Fixpoint ll_foreach_safe (fuel : nat) (body : Z -> lst -> outcome lst) (el : Z) (s : lst) : outcome (list Z * lst) :=
  match fuel with
  | O => NoFuel
  | S f => if el =? 0 then Ok ([], s)
           else do tmp <- load (fst (fst s)) el;
                do s1 <- body el s;
                do r <- ll_foreach_safe f body tmp s1;
                Ok (el :: fst r, snd r)
  end.
(** malloc gives an object whose next field holds anything; free ends it. *)
Definition l_malloc (h : lheap) (p g : Z) : outcome lheap := Ok (hset h p (Some g)).
Definition l_free (h : lheap) (p : Z) : outcome lheap := match h p with Some _ => Ok (hset h p None) | None => UB end.
(** The body of the loops in OSHMPI_coll_finalize (coll_impl.c:25-31), OSHMPI_strided_finalize (strided_impl.c:28-33): LL_DELETE,
    release, free, nobjs--. *)
Definition sweep_body (fuel : nat) (el : Z) (s : lst) : outcome lst :=
  do r <- ll_delete fuel (fst (fst s)) (snd (fst s)) el; do h <- l_free (fst r) el; Ok (h, snd r, snd s - 1).
(** The finalize routines up to their assertion nobjs == 0 (coll_impl.c:25-32, strided_impl.c:28-34): objects released, heap and
    head. [n] is nobjs before. *)
Definition cache_finalize (fuel : nat) (s : lheap * Z) (n : Z) : outcome (list Z * (lheap * Z)) :=
  do r <- ll_foreach_safe fuel (sweep_body fuel) (snd s) (s, n);
  do _ <- c_assert true (snd (snd r) =? 0);
  Ok (fst r, fst (snd r)).
(** What the library does with one list: OSHMPI_space_create (space_impl.c:170, 201), OSHMPI_space_destroy (228, 249);
    coll_set_comm_cache (coll_activeset_impl.h:29-49), strided_set_dtype_cache (strided_impl.h:31-52). *)
Inductive lop : Type := LNew (p g : Z) | LAppend (p : Z) | LPrepend (p : Z) | LDelete (p : Z) | LFree (p : Z).
Definition lop_step (fuel : nat) (s : lheap * Z) (o : lop) : outcome (lheap * Z) :=
  match o with
  | LNew p g => do h <- l_malloc (fst s) p g; Ok (h, snd s)
  | LAppend p => ll_append fuel (fst s) (snd s) p
  | LPrepend p => ll_prepend (fst s) (snd s) p
  | LDelete p => ll_delete fuel (fst s) (snd s) p
  | LFree p => do h <- l_free (fst s) p; Ok (h, snd s)
  end.
Fixpoint lop_run (fuel : nat) (s : lheap * Z) (os : list lop) : outcome (lheap * Z) :=
  match os with [] => Ok s | o :: r => do s1 <- lop_step fuel s o; lop_run fuel s1 r end.
(** One object put in a cache: malloc, LL_PREPEND (nobjs++ is counted apart). *)
Definition cache_put (pg : Z * Z) : list lop := [LNew (fst pg) (snd pg); LPrepend (fst pg)].
(** Both caches and the list of spaces start with head NULL (coll_impl.c:13, strided_impl.c:15, setup_impl.c:37). *)
Definition ll0 : lheap * Z := (fun _ => None, 0).
