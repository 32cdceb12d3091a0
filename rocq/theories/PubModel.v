(** Spaces made, attached, detached and destroyed by some threads of a PE while others look through the list of spaces.

    One PE. The calls that change a space are broken up into the writes of single fields, in the order of the code; the
    readers into the reads of single fields. The program calls the routines that change one space one after the other
    (which thread calls them does not matter), so their progress is kept with the space; changes of different spaces, and
    any number of readers, run at the same time. *)
From Verif Require Import Base.

(** A window handle: MPI_WIN_NULL; a window without an open epoch; a window in its epoch. *)
Inductive wst : Type := WNull | WNoEp | WLive.
(** OSHMPI_ictx_t: win and outstanding_op; [None] is memory never written. *)
Record slot : Type := mkSlot { sl_win : option wst; sl_flag : option bool }.
Definition slot_u : slot := mkSlot None None.
(** space->ctx_list: never written, NULL, an array, or a pointer to a freed array. *)
Inductive cx : Type := CU | CNull | CArr (l : list slot) | CFreed.
(** OSHMPI_space_t: allocated; mem_pool and sobj_attr set up; config.num_contexts; ctx_list; default_ictx. *)
Record sf : Type := mkSf { f_mem : bool; f_attr : bool; f_cfg : option nat; f_ctx : cx; f_def : slot }.
Definition sf0 : sf := mkSf false false None CU slot_u.

(** What a call that changes a space does, one write at a time. *)
Inductive mop : Type :=
| MAlloc | MAttr | MEnter | MExit | MAppend | MDelete | MCtxNull | MCfg (n : nat)
| MDefWin (w : wst) | MDefFlag | MArr (n : nat) | MSlotWin (i : nat) (w : wst) | MSlotFlag (i : nat) | MArrFree | MFree.

(** OSHMPI_space_create (space_impl.c:166-221); [dyn]: OSHMPI_ENABLE_DYNAMIC_WIN. *)
Definition create_prog (dyn : bool) (n : nat) : list mop :=
  [MAlloc; MAttr; MEnter; MAppend; MExit; MCtxNull; MCfg n] ++ (if dyn then [] else [MDefWin WNull; MDefFlag]).
(** space_ictx_create (space_impl.c:17-24) for the contexts [i], ..., [n - 1]. *)
Definition slots_from (i n : nat) : list mop :=
  flat_map (fun j => [MSlotWin j WNoEp; MSlotWin j WLive; MSlotFlag j]) (seq i (n - i)).
(** OSHMPI_space_attach (space_impl.c:276-331). *)
Definition attach_ctxs (n : nat) : list mop := match n with O => [] | _ => MArr n :: slots_from 0 n end.
Definition attach_prog (dyn : bool) (n : nat) : list mop :=
  (if dyn then [] else [MDefWin WNoEp; MDefWin WLive; MDefFlag]) ++ attach_ctxs n.
(** OSHMPI_space_detach (space_impl.c:334-358) with space_ictx_destroy (space_impl.c:26-32). *)
Definition detach_prog (dyn : bool) (n : nat) : list mop :=
  (if dyn then [] else [MDefWin WNoEp; MDefWin WNull])
  ++ flat_map (fun j => [MSlotWin j WNoEp; MSlotWin j WNull]) (seq 0 n) ++ [MArrFree; MCtxNull].
(** OSHMPI_space_destroy (space_impl.c:224-250). *)
Definition destroy_prog : list mop := [MEnter; MDelete; MExit; MFree].

(** Readers: the walk of OSHMPI_ctx_quiet and OSHMPI_ctx_fence (order_impl.h:52-61, 83-92), and the searches of
    OSHMPI_sobj_query_attr_ictx (oshmpi_impl.h:704-716), OSHMPI_sobj_trans_disp_to_vaddr (oshmpi_impl.h:735-742) and OSHMPI_free
    (mem_impl.c:40-47). *)
Inductive wop : Type := WEnter (quiet : bool) | WCfg (k : Z) | WSlot (k : Z) (i : nat) | WDef (k : Z) | WAttr (k : Z) | WExit.

(** What the program did to a space last, with its number of contexts: nothing yet; create, attach, detach; destroy (and whether
    it had been attached before). *)
Inductive stat : Type := SNone | SNew (n : nat) | SAtt (n : nat) | SDet (n : nat) | SGone (n : nat) (att : bool).
Inductive owner : Type := OSpace (k : Z) | OReader (i : Z).
Record pst : Type := mkP {
  p_f : Z -> sf;            (* the objects *)
  p_todo : Z -> list mop;   (* what is left of the call that changes a space *)
  p_stat : Z -> stat;
  p_list : list Z;          (* OSHMPI_global.space_list *)
  p_cs : option owner;      (* OSHMPI_global.space_list.cs *)
  p_rd : Z -> list wop      (* what is left of the readers *)
}.
Definition pst0 : pst := mkP (fun _ => sf0) (fun _ => []) (fun _ => SNone) [] None (fun _ => []).
Definition set1 {A : Type} (f : Z -> A) (k : Z) (a : A) : Z -> A := fun j => if j =? k then a else f j.

Inductive plab : Type :=
| PCreate (k : Z) (n : nat) | PAttach (k : Z) | PDetach (k : Z) | PDestroy (k : Z)  (* the call begins *)
| PMut (k : Z)                       (* the call that changes k makes one step *)
| PPut (k : Z) (o : option nat)      (* an operation on the default context (not with the dynamic window, where it has its own
                                        window) or context o of an attached space *)
| PRead (i : Z) (quiet : bool)       (* reader i begins *)
| PGo (i : Z).                       (* reader i makes one step *)

Definition wr (f : sf) (o : mop) : sf :=
  match o with
  | MAlloc => mkSf true false None CU slot_u
  | MAttr => mkSf (f_mem f) true (f_cfg f) (f_ctx f) (f_def f)
  | MCtxNull => mkSf (f_mem f) (f_attr f) (f_cfg f) CNull (f_def f)
  | MCfg n => mkSf (f_mem f) (f_attr f) (Some n) (f_ctx f) (f_def f)
  | MDefWin w => mkSf (f_mem f) (f_attr f) (f_cfg f) (f_ctx f) (mkSlot (Some w) (sl_flag (f_def f)))
  | MDefFlag => mkSf (f_mem f) (f_attr f) (f_cfg f) (f_ctx f) (mkSlot (sl_win (f_def f)) (Some false))
  | MArr n => mkSf (f_mem f) (f_attr f) (f_cfg f) (CArr (repeat slot_u n)) (f_def f)
  | MSlotWin i w =>
      match f_ctx f with
      | CArr l => match nth_error l i with
                  | Some x => mkSf (f_mem f) (f_attr f) (f_cfg f) (CArr (upd l i (mkSlot (Some w) (sl_flag x)))) (f_def f)
                  | None => f
                  end
      | _ => f
      end
  | MSlotFlag i =>
      match f_ctx f with
      | CArr l => match nth_error l i with
                  | Some x => mkSf (f_mem f) (f_attr f) (f_cfg f) (CArr (upd l i (mkSlot (sl_win x) (Some false)))) (f_def f)
                  | None => f
                  end
      | _ => f
      end
  | MArrFree => mkSf (f_mem f) (f_attr f) (f_cfg f) CFreed (f_def f)
  | MFree => mkSf false (f_attr f) (f_cfg f) (f_ctx f) (f_def f)
  | MEnter | MExit | MAppend | MDelete => f
  end.

(** ctx_flush_impl (order_impl.h:23-34): the context afterwards. Reading what was never written and flushing a window outside
    an epoch are undefined; flushing MPI_WIN_NULL aborts. *)
Definition flush1 (track : bool) (x : slot) : outcome slot :=
  match sl_flag x with
  | None => if track then UB else
      match sl_win x with Some WLive => Ok x | Some WNull => Abort | _ => UB end
  | Some b =>
      if track && negb b then Ok x
      else match sl_win x with
           | Some WLive => Ok (if track then mkSlot (sl_win x) (Some false) else x)
           | Some WNull => Abort
           | _ => UB
           end
  end.

Section Pub.
Variables dyn track : bool.

(** One step; [None]: not possible (the critical section is taken, or nothing to do, or not a legal call). *)
Definition mk_f (s : pst) (k : Z) (f : sf) (todo : list mop) (l : list Z) (cs : option owner) : pst :=
  mkP (set1 (p_f s) k f) (set1 (p_todo s) k todo) (p_stat s) l cs (p_rd s).
Definition begin_ (s : pst) (k : Z) (st : stat) (m : list mop) : option (outcome pst) :=
  Some (Ok (mkP (p_f s) (set1 (p_todo s) k m) (set1 (p_stat s) k st) (p_list s) (p_cs s) (p_rd s))).
Definition set_rd (s : pst) (f : Z -> sf) (cs : option owner) (i : Z) (r : list wop) : outcome pst :=
  Ok (mkP f (p_todo s) (p_stat s) (p_list s) cs (set1 (p_rd s) i r)).

Definition pstep (s : pst) (x : plab) : option (outcome pst) :=
  match x with
  | PCreate k n =>
      match p_todo s k, p_stat s k with [], SNone => begin_ s k (SNew n) (create_prog dyn n) | _, _ => None end
  | PAttach k =>
      match p_todo s k, p_stat s k with
      | [], SNew n | [], SDet n => begin_ s k (SAtt n) (attach_prog dyn n)
      | _, _ => None
      end
  | PDetach k =>
      match p_todo s k, p_stat s k with [], SAtt n => begin_ s k (SDet n) (detach_prog dyn n) | _, _ => None end
  | PDestroy k =>
      match p_todo s k, p_stat s k with
      | [], SNew n => begin_ s k (SGone n false) destroy_prog
      | [], SDet n => begin_ s k (SGone n true) destroy_prog
      | _, _ => None
      end
  | PMut k =>
      match p_todo s k with
      | [] => None
      | MEnter :: r => match p_cs s with None => Some (Ok (mk_f s k (p_f s k) r (p_list s) (Some (OSpace k)))) | Some _ => None end
      | MExit :: r => Some (Ok (mk_f s k (p_f s k) r (p_list s) None))
      | MAppend :: r => Some (Ok (mk_f s k (p_f s k) r (p_list s ++ [k]) (p_cs s)))
      | MDelete :: r => Some (Ok (mk_f s k (p_f s k) r (filter (fun j => negb (j =? k)) (p_list s)) (p_cs s)))
      | o :: r => Some (Ok (mk_f s k (wr (p_f s k) o) r (p_list s) (p_cs s)))
      end
  | PPut k o =>
      match p_todo s k, p_stat s k, o with
      | [], SAtt _, None =>
          let f := p_f s k in
          if dyn then None else
          Some (Ok (mkP (set1 (p_f s) k (mkSf (f_mem f) (f_attr f) (f_cfg f) (f_ctx f) (mkSlot (sl_win (f_def f)) (Some true))))
                        (p_todo s) (p_stat s) (p_list s) (p_cs s) (p_rd s)))
      | [], SAtt n, Some i =>
          let f := p_f s k in
          match f_ctx f with
          | CArr l => match nth_error l i with
                      | Some x => Some (Ok (mkP (set1 (p_f s) k (mkSf (f_mem f) (f_attr f) (f_cfg f) (CArr (upd l i (mkSlot (sl_win x) (Some true)))) (f_def f)))
                                      (p_todo s) (p_stat s) (p_list s) (p_cs s) (p_rd s)))
                      | None => None
                      end
          | _ => None
          end
      | _, _, _ => None
      end
  | PRead i q => match p_rd s i with [] => Some (set_rd s (p_f s) (p_cs s) i [WEnter q]) | _ => None end
  | PGo i =>
      match p_rd s i with
      | [] => None
      | WEnter q :: _ =>
          match p_cs s with
          | None => Some (set_rd s (p_f s) (Some (OReader i)) i (map (if q then WCfg else WAttr) (p_list s) ++ [WExit]))
          | Some _ => None
          end
      | WExit :: r => Some (set_rd s (p_f s) None i r)
      | WAttr k :: r =>
          let f := p_f s k in
          Some (if f_mem f && f_attr f then set_rd s (p_f s) (p_cs s) i r else UB)
      | WCfg k :: r =>
          let f := p_f s k in
          Some (if f_mem f then
                  match f_cfg f with
                  | Some n => set_rd s (p_f s) (p_cs s) i (map (WSlot k) (seq 0 n) ++ (if dyn then [] else [WDef k]) ++ r)
                  | None => UB
                  end
                else UB)
      | WSlot k j :: r =>
          let f := p_f s k in
          Some (if f_mem f then
                  match f_ctx f with
                  | CArr l =>
                      match nth_error l j with
                      | Some x =>
                          do y <- flush1 track x;
                          set_rd s (set1 (p_f s) k (mkSf (f_mem f) (f_attr f) (f_cfg f) (CArr (upd l j y)) (f_def f))) (p_cs s) i r
                      | None => UB
                      end
                  | _ => UB
                  end
                else UB)
      | WDef k :: r =>
          let f := p_f s k in
          Some (if f_mem f then
                  do y <- flush1 track (f_def f);
                  set_rd s (set1 (p_f s) k (mkSf (f_mem f) (f_attr f) (f_cfg f) (f_ctx f) y)) (p_cs s) i r
                else UB)
      end
  end.
Fixpoint prun (s : pst) (xs : list plab) : option (outcome pst) :=
  match xs with
  | [] => Some (Ok s)
  | x :: r => match pstep s x with Some (Ok s') => prun s' r | other => other end
  end.
End Pub.
