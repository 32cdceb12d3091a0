(** Active messages (src/internal/am_impl.h, am_impl.c, rma_am_impl.*, amo_am_impl.*,
    setup_impl.c:finalize_impl): all PEs, any number of threads per PE, and the callback engine
    of each PE as one transition system over MPI point-to-point channels. *)
From Verif Require Import Base LockModel.

(** ** Tags (am_impl.h:11-20, am_pre.h:166-168, 178) *)

Definition PTAG_START : Z := 2003.

(** OSHMPI_am_get_pkt_ptag for counter value [c] (an int, incremented atomically): the tag. *)
Definition am_ptag (checks : bool) (ub c : Z) : outcome Z :=
  let tag := to_int (c + PTAG_START) in
  do _ <- c_assert checks (tag <? ub);
  Ok tag.
(** The counter after the fetch-and-increment. *)
Definition am_ptag_next (c : Z) : Z := to_int (c + 1).

Definition fset2 {X : Type} (f : Z -> Z -> X) (p q : Z) (x : X) : Z -> Z -> X :=
  fset f p (fset (f p) q x).

Section Am.
(** [A]: the arguments carried by a header packet; [D]: a separately sent payload; [M]: the
    memory of a PE; [R]: what a handler sends back. *)
Variables A D M R : Type.
(** What the callback of a packet does to the memory of its PE, and the value it returns
    (ignored for POST, PUT, IPUT). Anything but [Ok] stops the program. *)
Variable exec : A -> option D -> M -> outcome (M * R).
(** MPI_TAG_UB. *)
Variable ub : Z.
(** The number of PEs. *)
Variable n : Z.

(** Packet classes (am_pre.h:75-86): [KPost] POST; [KPut] PUT and IPUT (header followed by a
    payload); [KFetch] CSWAP, FETCH, GET, IGET (a reply is awaited). *)
Inductive kind : Type := KPost | KPut | KFetch.
Record req : Type := mkReq { rq_kind : kind; rq_args : A; rq_data : option D }.
Definition req_ok (r : req) : bool :=
  match rq_kind r, rq_data r with
  | KPut, Some _ => true | KPut, None => false
  | _, None => true | _, Some _ => false
  end.

(** Headers have tag OSHMPI_AM_PKT_TAG (2000), payloads the tag named in their header. The
    header packet holds the kind, the arguments and the tag; [rq_data] in a header is history
    only, no receiver reads it. *)
Inductive hdr : Type := HReq (g : Z) (r : req) | HFlush (g : Z) | HTerm.
Inductive msg : Type := MH (h : hdr) | MD (g : Z) (d : D).

(** A message on ack_comm: tag and value (None: the empty flush acknowledgement). The request is
    history only. *)
Definition amsg : Type := (Z * option (req * R))%type.

(** Threads of a PE, by program point:
    - [TTag t g r]: tag obtained, header not sent (rma_am_impl.h:26, amo_am_impl.h:29);
    - [TData t g r]: header of a put sent, payload not sent (rma_am_impl.h:32-34);
    - [TAck t g r]: header sent, reply awaited (rma_am_impl.h:69-71, amo_am_impl.h:35-39);
    - [TFlag t v r x]: about to store v into outstanding_op_flags[t] and return x;
    - [TFCount]: first loop of OSHMPI_am_flush (am_impl.h:36-44); [TFSend]: second loop (55-65),
      [w] the PEs a flush was sent to; [TFWait]: waitall (68); [TFReset]: last loop (75-78);
    - [TFin]: in the barrier of finalize_impl; [TStop]: TERMINATE sent; [TAbort]: assertion. *)
Inductive tst : Type :=
| TIdle
| TTag (t g : Z) (r : req)
| TData (t g : Z) (r : req)
| TAck (t g : Z) (r : req)
| TFlag (t : Z) (v : bool) (r : req) (x : option R)
| TFCount (todo ps : list Z)
| TFSend (todo : list Z) (g : Z) (w ps : list Z)
| TFWait (w : list Z) (g : Z) (ps : list Z)
| TFReset (todo ps : list Z)
| TFin | TStop | TAbort.

(** The callback engine: waiting in MPI_Test for a header, in the MPI_Recv of a put's payload
    (rma_am_impl.c:21, 56), terminated, or stopped by an error; [CbBad] if a payload was taken
    for a header. *)
Inductive cbst : Type := CbIdle | CbRecv (src g : Z) (r : req) | CbDone | CbAbort (src : Z) (r : req) | CbBad.

Record ast : Type := mkAst {
  a_comm : Z -> Z -> list msg;       (* OSHMPI_am.comm, from sender to receiver, oldest first *)
  a_ack : Z -> Z -> list amsg;       (* OSHMPI_am.ack_comm, from sender to receiver *)
  a_flag : Z -> Z -> bool;           (* outstanding_op_flags of a PE *)
  a_cnt : Z -> Z;                    (* pkt_ptag_off *)
  a_thr : Z -> Z -> tst;
  a_cb : Z -> cbst;
  a_mem : Z -> M;
  a_called : Z -> Z -> list req;     (* history: calls of a PE on a target, in call order *)
  a_issued : Z -> Z -> list req;     (* history: headers sent, in sending order *)
  a_log : Z -> list (Z * req * R)    (* history: handled by a PE: origin, request, reply *)
}.

Definition a_init (m : Z -> M) : ast :=
  mkAst (fun _ _ => []) (fun _ _ => []) (fun _ _ => false) (fun _ => 0) (fun _ _ => TIdle)
        (fun _ => CbIdle) m (fun _ _ => []) (fun _ _ => []) (fun _ => []).

Definition set_comm (s : ast) (p q : Z) (c : list msg) : ast :=
  mkAst (fset2 (a_comm s) p q c) (a_ack s) (a_flag s) (a_cnt s) (a_thr s) (a_cb s) (a_mem s)
        (a_called s) (a_issued s) (a_log s).
Definition set_ack (s : ast) (p q : Z) (c : list amsg) : ast :=
  mkAst (a_comm s) (fset2 (a_ack s) p q c) (a_flag s) (a_cnt s) (a_thr s) (a_cb s) (a_mem s)
        (a_called s) (a_issued s) (a_log s).
Definition set_flag (s : ast) (p q : Z) (b : bool) : ast :=
  mkAst (a_comm s) (a_ack s) (fset2 (a_flag s) p q b) (a_cnt s) (a_thr s) (a_cb s) (a_mem s)
        (a_called s) (a_issued s) (a_log s).
Definition set_cnt (s : ast) (p c : Z) : ast :=
  mkAst (a_comm s) (a_ack s) (a_flag s) (fset (a_cnt s) p c) (a_thr s) (a_cb s) (a_mem s)
        (a_called s) (a_issued s) (a_log s).
Definition set_thr (s : ast) (p i : Z) (x : tst) : ast :=
  mkAst (a_comm s) (a_ack s) (a_flag s) (a_cnt s) (fset2 (a_thr s) p i x) (a_cb s) (a_mem s)
        (a_called s) (a_issued s) (a_log s).
Definition set_cb (s : ast) (p : Z) (x : cbst) : ast :=
  mkAst (a_comm s) (a_ack s) (a_flag s) (a_cnt s) (a_thr s) (fset (a_cb s) p x) (a_mem s)
        (a_called s) (a_issued s) (a_log s).
Definition set_called (s : ast) (p q : Z) (l : list req) : ast :=
  mkAst (a_comm s) (a_ack s) (a_flag s) (a_cnt s) (a_thr s) (a_cb s) (a_mem s)
        (fset2 (a_called s) p q l) (a_issued s) (a_log s).
Definition set_issued (s : ast) (p q : Z) (l : list req) : ast :=
  mkAst (a_comm s) (a_ack s) (a_flag s) (a_cnt s) (a_thr s) (a_cb s) (a_mem s)
        (a_called s) (fset2 (a_issued s) p q l) (a_log s).
(** Memory and history of PE [t] after handling [r] from [p]. *)
Definition handled (s : ast) (t : Z) (m : M) (p : Z) (r : req) (x : R) : ast :=
  mkAst (a_comm s) (a_ack s) (a_flag s) (a_cnt s) (a_thr s) (a_cb s) (fset (a_mem s) t m)
        (a_called s) (a_issued s) (fset (a_log s) t (a_log s t ++ [(p, r, x)])).

Definition send (s : ast) (p t : Z) (m : msg) : ast := set_comm s p t (a_comm s p t ++ [m]).
Definition send_req (s : ast) (p t g : Z) (r : req) : ast :=
  set_issued (send s p t (MH (HReq g r))) p t (a_issued s p t ++ [r]).
Definition send_ack (s : ast) (t p : Z) (m : amsg) : ast := set_ack s t p (a_ack s t p ++ [m]).

(** MPI matching: messages of one sender on one communicator are matched in sending order. The
    receive posted for headers takes the first message when it was posted with MPI_ANY_TAG
    (am_impl.c:70-72), the first header when posted with OSHMPI_AM_PKT_TAG (114-116, 128-130). *)
Fixpoint take_hdr (any : bool) (c : list msg) : option (msg * list msg) :=
  match c with
  | [] => None
  | MH h :: r => Some (MH h, r)
  | MD g d :: r =>
      if any then Some (MD g d, r)
      else match take_hdr any r with Some (m, r') => Some (m, MD g d :: r') | None => None end
  end.
(** The receive of a payload with tag [g]. *)
Fixpoint take_data (g : Z) (c : list msg) : option (D * list msg) :=
  match c with
  | [] => None
  | MD g' d :: r =>
      if g' =? g then Some (d, r)
      else match take_data g r with Some (x, r') => Some (x, MD g' d :: r') | None => None end
  | MH h :: r => match take_data g r with Some (x, r') => Some (x, MH h :: r') | None => None end
  end.
Fixpoint take_ack (g : Z) (c : list amsg) : option (option (req * R) * list amsg) :=
  match c with
  | [] => None
  | (g', x) :: r =>
      if g' =? g then Some (x, r)
      else match take_ack g r with Some (y, r') => Some (y, (g', x) :: r') | None => None end
  end.

Inductive label : Type :=
| LOp (p i t : Z) (r : req)        (* thread i of PE p calls an operation on PE t *)
| LFlush (p i : Z) (ps : list Z)   (* OSHMPI_am_flush over the PEs ps *)
| LFin (p i : Z)                   (* shmem_finalize *)
| LGo (p i : Z)                    (* the thread continues *)
| LCb (t p : Z) (any : bool).      (* the callback engine of t takes a message of p, or receives
                                      the payload it waits for *)

Inductive aev : Type :=
| ERet (p i t : Z) (r : req) (x : option R)   (* an operation returned, with the fetched value *)
| EFlushed (p i : Z) (ps : list Z).           (* OSHMPI_am_flush returned *)

Definition mem_z (x : Z) (l : list Z) : bool := existsb (Z.eqb x) l.
Fixpoint nodup_z (l : list Z) : bool :=
  match l with [] => true | x :: r => negb (mem_z x r) && nodup_z r end.
Definition is_pe (p : Z) : bool := (0 <=? p) && (p <? n).
Definition fin_or_stop (x : tst) : bool := match x with TFin | TStop => true | _ => false end.
Definition zrange (k : Z) : list Z := map Z.of_nat (seq 0 (Z.to_nat k)).

(** The callback of request [r] (header arguments, and for a put the received payload [od]) from
    PE [p] with tag [g] on PE [t]. *)
Definition run_cb (s : ast) (t p g : Z) (r : req) (od : option D) : ast :=
  match exec (rq_args r) od (a_mem s t) with
  | Ok (m, x) =>
      let s1 := set_cb (handled s t m p r x) t CbIdle in
      match rq_kind r with
      | KFetch => send_ack s1 t p (g, Some (r, x))   (* amo_am_impl.c:119-121, 153-154; rma_am_impl.c:34, 78 *)
      | _ => s1
      end
  | _ => set_cb s t (CbAbort p r)
  end.

Definition step (s : ast) (l : label) : ast * list aev :=
  match l with
  | LOp p i t r =>
      if is_pe p && is_pe t && req_ok r then
        match a_thr s p i with
        | TIdle =>
            let s := set_called s p t (a_called s p t ++ [r]) in
            match rq_kind r with
            | KPost =>                                   (* amo_am_impl.h:103-124 *)
                (set_thr (send_req s p t 0 r) p i (TFlag t true r None), [])
            | _ =>
                match am_ptag true ub (a_cnt s p) with
                | Ok g => (set_thr (set_cnt s p (am_ptag_next (a_cnt s p))) p i (TTag t g r), [])
                | _ => (set_thr s p i TAbort, [])
                end
            end
        | _ => (s, [])
        end
      else (s, [])
  | LFlush p i ps =>
      if is_pe p && forallb is_pe ps && nodup_z ps then
        match a_thr s p i with TIdle => (set_thr s p i (TFCount ps ps), []) | _ => (s, []) end
      else (s, [])
  | LFin p i =>                                          (* setup_impl.c:865 *)
      if is_pe p && (i =? 0) then
        match a_thr s p i with TIdle => (set_thr s p i TFin, []) | _ => (s, []) end
      else (s, [])
  | LGo p i =>
      if is_pe p then
        match a_thr s p i with
        | TTag t g r =>
            (set_thr (send_req s p t g r) p i
               (match rq_kind r with KPut => TData t g r | _ => TAck t g r end), [])
        | TData t g r =>
            match rq_data r with
            | Some d => (set_thr (send s p t (MD g d)) p i (TFlag t true r None), [])
            | None => (s, [])
            end
        | TAck t g r =>
            match take_ack g (a_ack s t p) with
            | Some (Some (_, x), c) => (set_thr (set_ack s t p c) p i (TFlag t false r (Some x)), [])
            | Some (None, c) => (set_thr (set_ack s t p c) p i (TFlag t false r None), [])
            | None => (s, [])
            end
        | TFlag t v r x => (set_thr (set_flag s p t v) p i TIdle, [ERet p i t r x])
        | TFCount todo ps =>
            match todo with
            | [] => (set_thr s p i TIdle, [EFlushed p i ps])
            | t :: rest =>
                if a_flag s p t then
                  match am_ptag true ub (a_cnt s p) with
                  | Ok g => (set_thr (set_cnt s p (am_ptag_next (a_cnt s p))) p i (TFSend ps g [] ps), [])
                  | _ => (set_thr s p i TAbort, [])
                  end
                else (set_thr s p i (TFCount rest ps), [])
            end
        | TFSend todo g w ps =>
            match todo with
            | [] => (set_thr s p i (TFWait w g ps), [])
            | t :: rest =>
                if a_flag s p t then
                  (set_thr (send s p t (MH (HFlush g))) p i (TFSend rest g (w ++ [t]) ps), [])
                else (set_thr s p i (TFSend rest g w ps), [])
            end
        | TFWait w g ps =>
            match w with
            | [] => (set_thr s p i (TFReset ps ps), [])
            | t :: rest =>
                match take_ack g (a_ack s t p) with
                | Some (_, c) => (set_thr (set_ack s t p c) p i (TFWait rest g ps), [])
                | None => (s, [])
                end
            end
        | TFReset todo ps =>
            match todo with
            | [] => (set_thr s p i TIdle, [EFlushed p i ps])
            | t :: rest => (set_thr (set_flag s p t false) p i (TFReset rest ps), [])
            end
        | TFin =>                                        (* setup_impl.c:868, am_impl.c:158-159 *)
            if forallb (fun q => fin_or_stop (a_thr s q 0)) (zrange n)
            then (set_thr (send s p p (MH HTerm)) p i TStop, [])
            else (s, [])
        | TIdle | TStop | TAbort => (s, [])
        end
      else (s, [])
  | LCb t p any =>
      if is_pe t && is_pe p then
        match a_cb s t with
        | CbIdle =>
            match take_hdr any (a_comm s p t) with
            | Some (MH h, c) =>
                let s := set_comm s p t c in
                match h with
                | HReq g r =>
                    match rq_kind r with
                    | KPut => (set_cb s t (CbRecv p g r), [])
                    | _ => (run_cb s t p g r None, [])
                    end
                | HFlush g => (send_ack s t p (g, None), [])      (* am_impl.c:18-23 *)
                | HTerm => (set_cb s t CbDone, [])
                end
            | Some (MD _ _, c) => (set_cb (set_comm s p t c) t CbBad, [])
            | None => (s, [])
            end
        | CbRecv q g r =>
            match take_data g (a_comm s q t) with
            | Some (d, c) => (run_cb (set_comm s q t c) t q g r (Some d), [])
            | None => (s, [])
            end
        | _ => (s, [])
        end
      else (s, [])
  end.

Fixpoint run (s : ast) (ls : list label) : ast * list aev :=
  match ls with
  | [] => (s, [])
  | l :: r => let '(s1, e1) := step s l in let '(s2, e2) := run s1 r in (s2, e1 ++ e2)
  end.
End Am.

Arguments mkReq {A D} rq_kind rq_args rq_data.
Arguments rq_kind {A D} r.
Arguments rq_args {A D} r.
Arguments rq_data {A D} r.
Arguments req_ok {A D} r.
Arguments HReq {A D} g r.
Arguments HFlush {A D} g.
Arguments HTerm {A D}.
Arguments MH {A D} h.
Arguments MD {A D} g d.
Arguments TIdle {A D R}.
Arguments TTag {A D R} t g r.
Arguments TData {A D R} t g r.
Arguments TAck {A D R} t g r.
Arguments TFlag {A D R} t v r x.
Arguments TFCount {A D R} todo ps.
Arguments TFSend {A D R} todo g w ps.
Arguments TFWait {A D R} w g ps.
Arguments TFReset {A D R} todo ps.
Arguments TFin {A D R}.
Arguments TStop {A D R}.
Arguments TAbort {A D R}.
Arguments CbIdle {A D}.
Arguments CbRecv {A D} src g r.
Arguments CbDone {A D}.
Arguments CbAbort {A D} src r.
Arguments CbBad {A D}.
Arguments mkAst {A D M R}.
Arguments a_comm {A D M R}.
Arguments a_ack {A D M R}.
Arguments a_flag {A D M R}.
Arguments a_cnt {A D M R}.
Arguments a_thr {A D M R}.
Arguments a_cb {A D M R}.
Arguments a_mem {A D M R}.
Arguments a_called {A D M R}.
Arguments a_issued {A D M R}.
Arguments a_log {A D M R}.
Arguments a_init {A D M R}.
Arguments set_comm {A D M R}.
Arguments set_ack {A D M R}.
Arguments set_flag {A D M R}.
Arguments set_cnt {A D M R}.
Arguments set_thr {A D M R}.
Arguments set_cb {A D M R}.
Arguments set_called {A D M R}.
Arguments set_issued {A D M R}.
Arguments handled {A D M R}.
Arguments send {A D M R}.
Arguments send_req {A D M R}.
Arguments send_ack {A D M R}.
Arguments take_hdr {A D}.
Arguments take_data {A D}.
Arguments take_ack {A D R}.
Arguments LOp {A D}.
Arguments LFlush {A D}.
Arguments LFin {A D}.
Arguments LGo {A D}.
Arguments LCb {A D}.
Arguments ERet {A D R}.
Arguments EFlushed {A D R}.
Arguments run_cb {A D M R}.
Arguments step {A D M R}.
Arguments run {A D M R}.
