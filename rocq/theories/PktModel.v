(** Packets of active messages as bytes: how the origin lays out a request in an OSHMPI_am_pkt_t, and what the target's callbacks
    make of the bytes (am_pre.h, am_impl.c, am_impl.h, amo_am_impl.c, amo_am_impl.h, rma_am_impl.c, rma_am_impl.h).

    LP64, little endian, enumerations are unsigned ints (no negative constant), MPI_Aint is a long. A byte is undefined until it is
    written; a packet on the stack of the origin starts undefined. All PEs run the same build. *)
From Verif Require Import Base.

(** ** Layout of structures: C's rule, each member at the next multiple of its alignment *)
Inductive fty : Type := TInt | TU32 | TEnum | TAint | TSize | TPtrdiff | TVal.
(** TVal: the union OSHMPI_am_datatype_t (am_pre.h:53-68), whose largest members have eight bytes. *)
Definition fsize (t : fty) : Z := match t with TInt | TU32 | TEnum => 4 | _ => 8 end.
Definition fsigned (t : fty) : bool := match t with TInt | TAint | TPtrdiff => true | _ => false end.
Inductive fld : Type := FCond | FValue | FHandle | FType | FOp | FDisp | FBytes | FPtag | FSt | FNelems.
Scheme Equality for fld.
Definition struct : Type := list (fld * fty).

Definition align_up (o a : Z) : Z := (o + a - 1) / a * a.
Fixpoint place (o : Z) (s : struct) : list (fld * (Z * fty)) :=
  match s with
  | [] => []
  | (f, t) :: r => let o' := align_up o (fsize t) in (f, (o', t)) :: place (o' + fsize t) r
  end.
Fixpoint end_of (o : Z) (s : struct) : Z :=
  match s with [] => o | (_, t) :: r => end_of (align_up o (fsize t) + fsize t) r end.
Fixpoint align_of (s : struct) : Z := match s with [] => 1 | (_, t) :: r => Z.max (fsize t) (align_of r) end.
Definition sizeof (s : struct) : Z := align_up (end_of 0 s) (align_of s).

(** am_pre.h:87-95 *)
Definition cswap_s : struct :=
  [(FCond, TVal); (FValue, TVal); (FHandle, TU32); (FType, TEnum); (FDisp, TAint); (FBytes, TSize); (FPtag, TInt)].
(** am_pre.h:97-105; post packets are the same (107) *)
Definition fetch_s : struct :=
  [(FValue, TVal); (FHandle, TU32); (FType, TEnum); (FOp, TEnum); (FDisp, TAint); (FBytes, TSize); (FPtag, TInt)].
(** am_pre.h:109-114; put packets are the same (116) *)
Definition get_s : struct := [(FHandle, TU32); (FDisp, TAint); (FBytes, TSize); (FPtag, TInt)].
(** am_pre.h:118-125; iput packets are the same (127) *)
Definition iget_s : struct :=
  [(FType, TEnum); (FSt, TPtrdiff); (FNelems, TSize); (FHandle, TU32); (FDisp, TAint); (FPtag, TInt)].
(** am_pre.h:129-131 *)
Definition flush_s : struct := [(FPtag, TInt)].
(** OSHMPI_am_pkt_t (am_pre.h:133-145): an int, then a union of the packets. *)
Definition union_members : list struct := [cswap_s; fetch_s; fetch_s; get_s; get_s; iget_s; iget_s; flush_s].
Definition union_align : Z := fold_right Z.max 1 (map align_of union_members).
Definition union_off : Z := align_up 4 union_align.
Definition union_size : Z := align_up (fold_right Z.max 0 (map sizeof union_members)) union_align.
Definition sizeof_pkt : Z := align_up (union_off + union_size) (Z.max 4 union_align).

(** ** Memory *)
Definition mem : Type := Z -> option Z.
Definition undef : mem := fun _ => None.
(** Write the low [n] bytes of [v] at [o]. *)
Definition store_n (m : mem) (o n v : Z) : mem :=
  fun a => if (o <=? a) && (a <? o + n) then Some ((v / 256 ^ (a - o)) mod 256) else m a.
Fixpoint load_n (m : mem) (o : Z) (n : nat) : option Z :=
  match n with
  | O => Some 0
  | S k => match m o, load_n m (o + 1) k with Some b, Some r => Some (b + 256 * r) | _, _ => None end
  end.
Definition as_signed (n v : Z) : Z := if v <? 2 ^ (8 * n - 1) then v else v - 2 ^ (8 * n).

Fixpoint find_field (l : list (fld * (Z * fty))) (f : fld) : option (Z * fty) :=
  match l with [] => None | (g, x) :: r => if fld_beq g f then Some x else find_field r f end.
(** Member [f] of packet [s] within the union. *)
Definition field_at (s : struct) (f : fld) : option (Z * fty) := find_field (place 0 s) f.

(** memcpy of [n] bytes to a member; assignment writes all of it. *)
Definition put_raw (s : struct) (f : fld) (n v : Z) (m : mem) : mem :=
  match field_at s f with Some (o, _) => store_n m (union_off + o) n v | None => m end.
Definition put (s : struct) (f : fld) (v : Z) (m : mem) : mem :=
  match field_at s f with Some (o, t) => store_n m (union_off + o) (fsize t) v | None => m end.
Definition get_raw (s : struct) (f : fld) (n : Z) (m : mem) : option Z :=
  match field_at s f with Some (o, _) => load_n m (union_off + o) (Z.to_nat n) | None => None end.
Definition get (s : struct) (f : fld) (m : mem) : option Z :=
  match field_at s f with
  | Some (o, t) => option_map (fun v => if fsigned t then as_signed (fsize t) v else v) (load_n m (union_off + o) (Z.to_nat (fsize t)))
  | None => None
  end.
Definition put_type (v : Z) (m : mem) : mem := store_n m 0 4 v.
Definition get_type (m : mem) : option Z := option_map (as_signed 4) (load_n m 0 4).

(** ** Enumerations: numbers are positions *)
(** OSHMPI_am_pkt_type_t (am_pre.h:74-85) *)
Inductive pk : Type := PCswap | PFetch | PPost | PPut | PGet | PIput | PIget | PFlush | PTerminate.
Scheme Equality for pk.
Definition pk_enum : list pk := [PCswap; PFetch; PPost; PPut; PGet; PIput; PIget; PFlush; PTerminate].
(** OSHMPI_am_mpi_datatype_index_t (am_pre.h:12-38) *)
Inductive tix : Type :=
  | I_CHAR | I_SIGNED_CHAR | I_SHORT | I_INT | I_LONG | I_LONG_LONG | I_UNSIGNED_CHAR | I_UNSIGNED_SHORT | I_UNSIGNED
  | I_UNSIGNED_LONG | I_UNSIGNED_LONG_LONG | I_INT8_T | I_INT16_T | I_INT32_T | I_INT64_T | I_UINT8_T | I_UINT16_T | I_UINT32_T
  | I_UINT64_T | I_SIZE_T | I_PTRDIFF_T | I_FLOAT | I_DOUBLE | I_LONG_DOUBLE | I_C_DOUBLE_COMPLEX.
Scheme Equality for tix.
Definition tix_enum : list tix :=
  [I_CHAR; I_SIGNED_CHAR; I_SHORT; I_INT; I_LONG; I_LONG_LONG; I_UNSIGNED_CHAR; I_UNSIGNED_SHORT; I_UNSIGNED;
   I_UNSIGNED_LONG; I_UNSIGNED_LONG_LONG; I_INT8_T; I_INT16_T; I_INT32_T; I_INT64_T; I_UINT8_T; I_UINT16_T; I_UINT32_T;
   I_UINT64_T; I_SIZE_T; I_PTRDIFF_T; I_FLOAT; I_DOUBLE; I_LONG_DOUBLE; I_C_DOUBLE_COMPLEX].
(** OSHMPI_am_mpi_op_index_t (am_pre.h:41-49) *)
Inductive oix : Type := O_BAND | O_BOR | O_BXOR | O_NO_OP | O_REPLACE | O_SUM.
Scheme Equality for oix.
Definition oix_enum : list oix := [O_BAND; O_BOR; O_BXOR; O_NO_OP; O_REPLACE; O_SUM].
Fixpoint pos {X : Type} (eqb : X -> X -> bool) (l : list X) (x : X) : Z :=
  match l with [] => 0 | y :: r => if eqb y x then 0 else 1 + pos eqb r x end.
Definition pk_num (p : pk) : Z := pos pk_beq pk_enum p.
Definition PKT_MAX : Z := Z.of_nat (length pk_enum).
Definition tix_num (t : tix) : Z := pos tix_beq tix_enum t.
Definition oix_num (o : oix) : Z := pos oix_beq oix_enum o.
(** The last constants of the enumerations of types and operations: the sizes of the tables (am_impl.c:209, 238). *)
Definition DATATYPE_MAX : Z := Z.of_nat (length tix_enum).
Definition OP_MAX : Z := Z.of_nat (length oix_enum).

(** MPI datatypes; MPI_SIZE and MPI_PTRDIFF are what configure chose for size_t and ptrdiff_t. *)
Inductive dty : Type :=
  | MPI_CHAR | MPI_SIGNED_CHAR | MPI_SHORT | MPI_INT | MPI_LONG | MPI_LONG_LONG | MPI_UNSIGNED_CHAR | MPI_UNSIGNED_SHORT | MPI_UNSIGNED
  | MPI_UNSIGNED_LONG | MPI_UNSIGNED_LONG_LONG | MPI_INT8_T | MPI_INT16_T | MPI_INT32_T | MPI_INT64_T | MPI_UINT8_T | MPI_UINT16_T
  | MPI_UINT32_T | MPI_UINT64_T | MPI_SIZE | MPI_PTRDIFF | MPI_FLOAT | MPI_DOUBLE | MPI_LONG_DOUBLE | MPI_C_DOUBLE_COMPLEX.
(** C types of the callbacks *)
Inductive cty : Type :=
  | Cint | Clong | Clonglong | Cuint | Culong | Culonglong | Ci32 | Ci64 | Csize | Cu32 | Cu64 | Cptrdiff | Cfloat | Cdouble.
Definition csize (c : cty) : Z := match c with Cint | Cuint | Ci32 | Cu32 | Cfloat => 4 | _ => 8 end.

(** ** What initialisation sets up (am_impl.c:189-263) *)
Definition dt_table_writes : list (tix * dty) := (* am_impl.c:211-235 *)
  [(I_CHAR, MPI_CHAR); (I_SIGNED_CHAR, MPI_SIGNED_CHAR); (I_SHORT, MPI_SHORT); (I_INT, MPI_INT); (I_LONG, MPI_LONG);
   (I_LONG_LONG, MPI_LONG_LONG); (I_UNSIGNED_CHAR, MPI_UNSIGNED_CHAR); (I_UNSIGNED_SHORT, MPI_UNSIGNED_SHORT);
   (I_UNSIGNED, MPI_UNSIGNED); (I_UNSIGNED_LONG, MPI_UNSIGNED_LONG); (I_UNSIGNED_LONG_LONG, MPI_UNSIGNED_LONG_LONG);
   (I_INT8_T, MPI_INT8_T); (I_INT16_T, MPI_INT16_T); (I_INT32_T, MPI_INT32_T); (I_INT64_T, MPI_INT64_T); (I_UINT8_T, MPI_UINT8_T);
   (I_UINT16_T, MPI_UINT16_T); (I_UINT32_T, MPI_UINT32_T); (I_UINT64_T, MPI_UINT64_T); (I_SIZE_T, MPI_SIZE);
   (I_PTRDIFF_T, MPI_PTRDIFF); (I_FLOAT, MPI_FLOAT); (I_DOUBLE, MPI_DOUBLE); (I_LONG_DOUBLE, MPI_LONG_DOUBLE);
   (I_C_DOUBLE_COMPLEX, MPI_C_DOUBLE_COMPLEX)].
Definition upd {X : Type} (f : Z -> option X) (i : Z) (x : X) : Z -> option X := fun j => if j =? i then Some x else f j.
(** An entry outside the allocated table is undefined. *)
Definition dt_written : Z -> option dty :=
  fold_left (fun f w => upd f (tix_num (fst w)) (snd w)) dt_table_writes (fun _ => None).
Definition dt_table (i : Z) : option dty := if (0 <=? i) && (i <? DATATYPE_MAX) then dt_written i else None.

Inductive cb : Type := CbCswap | CbFetch | CbPost | CbPut | CbGet | CbIput | CbIget | CbFlush.
(** OSHMPI_am_cb_regist (am_impl.c:179-187), called from amo_am_impl.c:179-184, rma_am_impl.c:85-91 and am_impl.c:257 after the
    table was zeroed (253). *)
Definition regists : list (pk * cb) :=
  [(PCswap, CbCswap); (PFetch, CbFetch); (PPost, CbPost)] ++
  [(PPut, CbPut); (PGet, CbGet); (PIput, CbIput); (PIget, CbIget)] ++ [(PFlush, CbFlush)].
Definition cb_table : Z -> option cb := fold_left (fun f w => upd f (pk_num (fst w)) (snd w)) regists (fun _ => None).

(** ** The origin *)
(** A request: what the routine that issues it was given or has computed. Datatypes come as indexes (the generated routines pass
    the index and the datatype of their type); [bytes] is the size of that type; values are the bytes at the pointer. *)
Inductive req : Type :=
  | RCswap (t : tix) (bytes cond value h disp ptag : Z)
  | RFetch (t : tix) (bytes : Z) (op : oix) (value h disp ptag : Z)
  | RPost (t : tix) (bytes : Z) (op : oix) (value h disp : Z)
  | RPut (bytes h disp ptag : Z)
  | RGet (bytes h disp ptag : Z)
  | RIput (t : tix) (st nelems h disp ptag : Z)
  | RIget (t : tix) (st nelems h disp ptag : Z)
  | RFlush (ptag : Z)
  | RTerminate.

(** The packet as sent: the assignments in the order of the code, on an undefined packet. *)
Definition issue (r : req) : mem :=
  match r with
  | RCswap t bytes cond value h disp ptag => (* amo_am_impl.h:22-31 *)
      let m := put_type (pk_num PCswap) undef in
      let m := put_raw cswap_s FCond bytes cond m in
      let m := put_raw cswap_s FValue bytes value m in
      let m := put cswap_s FType (tix_num t) m in
      let m := put cswap_s FBytes bytes m in
      let m := put cswap_s FHandle h m in
      let m := put cswap_s FPtag ptag m in
      put cswap_s FDisp disp m
  | RFetch t bytes op value h disp ptag => (* amo_am_impl.h:64-76 *)
      let m := put_type (pk_num PFetch) undef in
      let m := put fetch_s FType (tix_num t) m in
      let m := put fetch_s FOp (oix_num op) m in
      let m := put fetch_s FBytes bytes m in
      let m := put fetch_s FHandle h m in
      let m := put fetch_s FPtag ptag m in
      let m := put fetch_s FDisp disp m in
      if oix_beq op O_NO_OP then m else put_raw fetch_s FValue bytes value m
  | RPost t bytes op value h disp => (* amo_am_impl.h:105-114; no ptag *)
      let m := put_type (pk_num PPost) undef in
      let m := put fetch_s FType (tix_num t) m in
      let m := put fetch_s FOp (oix_num op) m in
      let m := put fetch_s FBytes bytes m in
      let m := put fetch_s FHandle h m in
      let m := put_raw fetch_s FValue bytes value m in
      put fetch_s FDisp disp m
  | RPut bytes h disp ptag => (* rma_am_impl.h:22-28 *)
      let m := put_type (pk_num PPut) undef in
      let m := put get_s FBytes bytes m in
      let m := put get_s FHandle h m in
      let m := put get_s FPtag ptag m in
      put get_s FDisp disp m
  | RGet bytes h disp ptag => (* rma_am_impl.h:57-63 *)
      let m := put_type (pk_num PGet) undef in
      let m := put get_s FBytes bytes m in
      let m := put get_s FHandle h m in
      let m := put get_s FPtag ptag m in
      put get_s FDisp disp m
  | RIput t st nelems h disp ptag => (* rma_am_impl.h:95-103 *)
      let m := put_type (pk_num PIput) undef in
      let m := put iget_s FType (tix_num t) m in
      let m := put iget_s FSt st m in
      let m := put iget_s FNelems nelems m in
      let m := put iget_s FHandle h m in
      let m := put iget_s FPtag ptag m in
      put iget_s FDisp disp m
  | RIget t st nelems h disp ptag => (* rma_am_impl.h:142-150 *)
      let m := put_type (pk_num PIget) undef in
      let m := put iget_s FType (tix_num t) m in
      let m := put iget_s FSt st m in
      let m := put iget_s FNelems nelems m in
      let m := put iget_s FHandle h m in
      let m := put iget_s FPtag ptag m in
      put iget_s FDisp disp m
  | RFlush ptag => put flush_s FPtag ptag (put_type (pk_num PFlush) undef) (* am_impl.h:51-52 *)
  | RTerminate => put_type (pk_num PTerminate) undef (* am_impl.c:153-154 *)
  end.

(** Receiving sizeof(OSHMPI_am_pkt_t) bytes into cb_pkt: what was there is overwritten (am_impl.c:72-74, 115-117, 129-131). *)
Definition receive (buf msg : mem) : mem := fun a => if (0 <=? a) && (a <? sizeof_pkt) then msg a else buf a.

(** ** The target *)
(** What a callback does: the location by handle and displacement, the C type it computes in, the operation, the values, then the
    datatype and tag of the answer; counts of bytes as passed to MPI. ABad: it reads an undefined byte or table entry;
    ANone: no callback (assertion, am_impl.c:37). AAbort: OSHMPI_ERR_ABORT. *)
Inductive action : Type :=
  | ACswap (h disp : Z) (c : cty) (cond value : Z) (d : dty) (ptag : Z)
  | AFetch (h disp : Z) (c : cty) (op : oix) (value : option Z) (d : dty) (ptag : Z)
  | APost (h disp : Z) (c : cty) (op : oix) (value : option Z)
  | APut (h disp count ptag : Z)
  | AGet (h disp count ptag : Z)
  | AIput (h disp st nelems : Z) (d : dty) (ptag : Z)
  | AIget (h disp st nelems : Z) (d : dty) (ptag : Z)
  | AFlush (ptag : Z)
  | ATerminate | AAbort | ANone | ABad.

Definition bind {X : Type} (o : option X) (f : X -> action) : action := match o with Some x => f x | None => ABad end.
Notation "'rd' x <- o ; k" := (bind o (fun x => k)) (at level 100, x name, o at level 99, k at level 200, right associativity).

(** OSHMPI_AMO_OP_TYPE_IMPL (amo_am_impl.c:48-83): the case of a type index; the flag says which op macro it uses. *)
Definition type_cases : list (tix * (cty * bool)) :=
  [(I_INT, (Cint, false)); (I_LONG, (Clong, false)); (I_LONG_LONG, (Clonglong, false)); (I_UNSIGNED, (Cuint, false));
   (I_UNSIGNED_LONG, (Culong, false)); (I_UNSIGNED_LONG_LONG, (Culonglong, false)); (I_INT32_T, (Ci32, false));
   (I_INT64_T, (Ci64, false)); (I_SIZE_T, (Csize, false)); (I_UINT32_T, (Cu32, false)); (I_UINT64_T, (Cu64, false));
   (I_PTRDIFF_T, (Cptrdiff, false)); (I_FLOAT, (Cfloat, true)); (I_DOUBLE, (Cdouble, true))].
Fixpoint switch {X Y : Type} (num : X -> Z) (l : list (X * Y)) (i : Z) : option Y :=
  match l with [] => None | (x, y) :: r => if i =? num x then Some y else switch num r i end.
(** Cases of OSHMPI_AMO_OP_FP_IMPL (amo_am_impl.c:8-21) and OSHMPI_AMO_OP_INT_IMPL (23-46). *)
Definition fp_cases : list (oix * oix) := [(O_NO_OP, O_NO_OP); (O_REPLACE, O_REPLACE); (O_SUM, O_SUM)].
Definition int_cases : list (oix * oix) :=
  [(O_BAND, O_BAND); (O_BOR, O_BOR); (O_BXOR, O_BXOR); (O_NO_OP, O_NO_OP); (O_REPLACE, O_REPLACE); (O_SUM, O_SUM)].
(** The operand is read by every case but that of NO_OP. *)
Definition with_operand (s : struct) (m : mem) (c : cty) (op : oix) (k : option Z -> action) : action :=
  if oix_beq op O_NO_OP then k None else rd v <- get_raw s FValue (csize c) m; k (Some v).

(** amo_am_impl.c:86-117 *)
Definition cswap_cb (m : mem) : action :=
  rd h <- get cswap_s FHandle m; rd disp <- get cswap_s FDisp m; rd t <- get cswap_s FType m;
  match switch tix_num type_cases t with
  | None => AAbort
  | Some (c, _) =>
      rd cond <- get_raw cswap_s FCond (csize c) m; rd value <- get_raw cswap_s FValue (csize c) m;
      rd d <- dt_table t; rd g <- get cswap_s FPtag m; ACswap h disp c cond value d g
  end.
(** amo_am_impl.c:120-152 *)
Definition fetch_cb (m : mem) : action :=
  rd h <- get fetch_s FHandle m; rd disp <- get fetch_s FDisp m; rd t <- get fetch_s FType m;
  match switch tix_num type_cases t with
  | None => AAbort
  | Some (c, fp) =>
      rd o <- get fetch_s FOp m;
      match switch oix_num (if fp then fp_cases else int_cases) o with
      | None => AAbort
      | Some op => with_operand fetch_s m c op (fun v => rd d <- dt_table t; rd g <- get fetch_s FPtag m; AFetch h disp c op v d g)
      end
  end.
(** amo_am_impl.c:155-179 *)
Definition post_cb (m : mem) : action :=
  rd h <- get fetch_s FHandle m; rd disp <- get fetch_s FDisp m; rd t <- get fetch_s FType m;
  match switch tix_num type_cases t with
  | None => AAbort
  | Some (c, fp) =>
      rd o <- get fetch_s FOp m;
      match switch oix_num (if fp then fp_cases else int_cases) o with
      | None => AAbort
      | Some op => with_operand fetch_s m c op (fun v => APost h disp c op v)
      end
  end.
(** rma_am_impl.c:10-22 and 25-36: the size_t becomes MPI's int count. *)
Definition put_cb (m : mem) : action :=
  rd h <- get get_s FHandle m; rd disp <- get get_s FDisp m; rd b <- get get_s FBytes m; rd g <- get get_s FPtag m;
  APut h disp (to_int b) g.
Definition get_cb (m : mem) : action :=
  rd h <- get get_s FHandle m; rd disp <- get get_s FDisp m; rd b <- get get_s FBytes m; rd g <- get get_s FPtag m;
  AGet h disp (to_int b) g.
(** rma_am_impl.c:40-60 and 63-83; the strided datatype is built from count, stride and datatype. *)
Definition iput_cb (m : mem) : action :=
  rd h <- get iget_s FHandle m; rd disp <- get iget_s FDisp m; rd n <- get iget_s FNelems m; rd st <- get iget_s FSt m;
  rd t <- get iget_s FType m; rd d <- dt_table t; rd g <- get iget_s FPtag m; AIput h disp st n d g.
Definition iget_cb (m : mem) : action :=
  rd h <- get iget_s FHandle m; rd disp <- get iget_s FDisp m; rd n <- get iget_s FNelems m; rd st <- get iget_s FSt m;
  rd t <- get iget_s FType m; rd d <- dt_table t; rd g <- get iget_s FPtag m; AIget h disp st n d g.
(** am_impl.c:18-23 *)
Definition flush_cb (m : mem) : action := rd g <- get flush_s FPtag m; AFlush g.
Definition call_cb (c : cb) : mem -> action :=
  match c with
  | CbCswap => cswap_cb | CbFetch => fetch_cb | CbPost => post_cb | CbPut => put_cb
  | CbGet => get_cb | CbIput => iput_cb | CbIget => iget_cb | CbFlush => flush_cb
  end.
(** am_cb_handle_pkt (am_impl.c:25-45) *)
Definition handle_pkt (m : mem) : action :=
  rd t <- get_type m;
  if t =? pk_num PTerminate then ATerminate
  else if (0 <=? t) && (t <? PKT_MAX) then match cb_table t with Some c => call_cb c m | None => ANone end
  else ANone.

(** The packets of a run, in the order they are received, one after the other into the same cb_pkt. *)
Fixpoint serve (buf : mem) (rs : list req) : list action :=
  match rs with
  | [] => []
  | r :: q => let buf' := receive buf (issue r) in handle_pkt buf' :: serve buf' q
  end.
