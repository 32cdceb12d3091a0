(** Atomics over active messages from the call to the effect: the request each routine of the atomic API makes, and what the callback
    does to the memory of the target (the computation is that of AmoModel). *)
From Verif Require Import Base AmModel AmoModel.
From Verif Require PktModel.

(** OSHMPI_AM_MPI_TYPE in the generated routines (maint/amo_std_typedef.txt, maint/amo_ext_typedef.txt, maint/amo_bitws_typedef.txt). *)
Definition tix_of (c : ctype) : PktModel.tix :=
  match c with
  | CInt => PktModel.I_INT | CLong => PktModel.I_LONG | CLLong => PktModel.I_LONG_LONG | CUint => PktModel.I_UNSIGNED
  | CUlong => PktModel.I_UNSIGNED_LONG | CUllong => PktModel.I_UNSIGNED_LONG_LONG | CInt32 => PktModel.I_INT32_T
  | CInt64 => PktModel.I_INT64_T | CUint32 => PktModel.I_UINT32_T | CUint64 => PktModel.I_UINT64_T
  | CSize => PktModel.I_SIZE_T | CPtrdiff => PktModel.I_PTRDIFF_T | CFloat => PktModel.I_FLOAT | CDouble => PktModel.I_DOUBLE
  end.
(** The bytes of a variable at a pointer, as one number. *)
Definition bytes_of (c : ctype) (v : Z) : Z := dec (repr c v).

(** The calls of amo_std_typed.c.tpl:12-168, amo_ext_typed.c.tpl:12-107 and amo_bitws_typed.c.tpl:12-136: type index, sizeof(TYPE),
    operation index and a pointer to the operand; handle, displacement and tag are found on the way. *)
Definition wire (c : ctype) (x : api) (h disp g : Z) : PktModel.req :=
  let w := Z.of_nat (ct_width c) in
  let fetch o v := PktModel.RFetch (tix_of c) w o v h disp g in
  let post o v := PktModel.RPost (tix_of c) w o v h disp in
  match x with
  | ACswap cond v => PktModel.RCswap (tix_of c) w (bytes_of c cond) (bytes_of c v) h disp g
  | AFinc => fetch PktModel.O_SUM (bytes_of c 1)
  | AInc => post PktModel.O_SUM (bytes_of c 1)
  | AFadd v => fetch PktModel.O_SUM (bytes_of c v)
  | AAdd v => post PktModel.O_SUM (bytes_of c v)
  | AFetch => fetch PktModel.O_NO_OP 0
  | ASet v => post PktModel.O_REPLACE (bytes_of c v)
  | ASwap v => fetch PktModel.O_REPLACE (bytes_of c v)
  | AFand v => fetch PktModel.O_BAND (bytes_of c v)
  | AAnd v => post PktModel.O_BAND (bytes_of c v)
  | AFor v => fetch PktModel.O_BOR (bytes_of c v)
  | AOr v => post PktModel.O_BOR (bytes_of c v)
  | AFxor v => fetch PktModel.O_BXOR (bytes_of c v)
  | AXor v => post PktModel.O_BXOR (bytes_of c v)
  end.

(** The C types of the callbacks and of AmoModel *)
Definition ctype_of (c : PktModel.cty) : ctype :=
  match c with
  | PktModel.Cint => CInt | PktModel.Clong => CLong | PktModel.Clonglong => CLLong | PktModel.Cuint => CUint
  | PktModel.Culong => CUlong | PktModel.Culonglong => CUllong | PktModel.Ci32 => CInt32 | PktModel.Ci64 => CInt64
  | PktModel.Csize => CSize | PktModel.Cu32 => CUint32 | PktModel.Cu64 => CUint64 | PktModel.Cptrdiff => CPtrdiff
  | PktModel.Cfloat => CFloat | PktModel.Cdouble => CDouble
  end.
Definition mop_of (o : PktModel.oix) : mop :=
  match o with
  | PktModel.O_BAND => OBand | PktModel.O_BOR => OBor | PktModel.O_BXOR => OBxor
  | PktModel.O_NO_OP => ONoop | PktModel.O_REPLACE => OReplace | PktModel.O_SUM => OSum
  end.

Section S.
Variable fadd : ctype -> list Z -> list Z -> list Z.
Variable feq : ctype -> list Z -> list Z -> bool.
(** OSHMPI_sobj_trans_disp_to_vaddr (SobjModel) *)
Variable addr : Z -> Z -> Z.

(** The computation of a callback (amo_am_impl.c:86-179) on the memory of the target; the result is what it sends back. *)
Definition exec_action (a : PktModel.action) (m : bytes) : outcome (bytes * list Z) :=
  match a with
  | PktModel.ACswap h d c cond v _ _ =>
      let t := ctype_of c in exec_pkt fadd feq (PCswap t (addr h d) (enc (ct_width t) cond) (enc (ct_width t) v)) None m
  | PktModel.AFetch h d c o v _ _ =>
      let t := ctype_of c in
      exec_pkt fadd feq (PFetch t (mop_of o) (addr h d) (match v with Some y => enc (ct_width t) y | None => junk t end)) None m
  | PktModel.APost h d c o v =>
      let t := ctype_of c in
      exec_pkt fadd feq (PPost t (mop_of o) (addr h d) (match v with Some y => enc (ct_width t) y | None => junk t end)) None m
  | PktModel.AAbort | PktModel.ANone => Abort
  | _ => UB
  end.

(** Calls arriving one after the other, each (type, operation, handle, displacement, tag): their packets go through the same buffer.
    The log has what each call did and was sent back. *)
Definition acall : Type := (ctype * api * Z * Z * Z)%type.
Fixpoint serve_amos (buf : PktModel.mem) (m : bytes) (l : list acall) : outcome (bytes * list (ctype * Z * api * list Z)) :=
  match l with
  | [] => Ok (m, [])
  | (c, x, h, d, g) :: r =>
      let buf' := PktModel.receive buf (PktModel.issue (wire c x h d g)) in
      do p <- exec_action (PktModel.handle_pkt buf') m;
      do q <- serve_amos buf' (fst p) r;
      Ok (fst q, (c, addr h d, x, snd p) :: snd q)
  end.
End S.
