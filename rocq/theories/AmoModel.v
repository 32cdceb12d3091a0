(** The callbacks of the active-message packets (src/internal/amo_am_impl.c, rma_am_impl.c) on the
    byte memory of a PE, and the atomic API (src/shmem/amo_*_typed.c.tpl).
    Not modelled: the translation of (sobj_handle, target_disp) to an address, which is the subject
    of SobjModel; packets here carry the address. *)
From Verif Require Import Base AmModel.

(** Byte memory of one PE. *)
Definition bytes := Z -> Z.
Fixpoint ld (m : bytes) (a : Z) (w : nat) : list Z :=
  match w with O => [] | S k => m a :: ld m (a + 1) k end.
Fixpoint st (m : bytes) (a : Z) (l : list Z) : bytes :=
  match l with [] => m | x :: r => st (fun b => if b =? a then x else m b) (a + 1) r end.

(** Little-endian integers. *)
Fixpoint dec (l : list Z) : Z := match l with [] => 0 | x :: r => x + 256 * dec r end.
Fixpoint enc (w : nat) (v : Z) : list Z :=
  match w with O => [] | S k => v mod 256 :: enc k (v / 256) end.

(** The C types of the atomic API, sizes on an LP64 platform (maint/amo_*_typedef.txt). *)
Inductive ctype : Type :=
| CInt | CLong | CLLong | CUint | CUlong | CUllong | CInt32 | CInt64 | CUint32 | CUint64
| CSize | CPtrdiff | CFloat | CDouble.
Definition ct_width (c : ctype) : nat :=
  match c with CInt | CUint | CInt32 | CUint32 | CFloat => 4%nat | _ => 8%nat end.
Definition ct_fp (c : ctype) : bool := match c with CFloat | CDouble => true | _ => false end.
Definition ct_signed (c : ctype) : bool :=
  match c with CInt | CLong | CLLong | CInt32 | CInt64 | CPtrdiff => true | _ => false end.
Definition ct_bits (c : ctype) : Z := 8 * Z.of_nat (ct_width c).

(** The value of the [w] bytes of a variable of an integer type (two's complement). *)
Definition val (c : ctype) (l : list Z) : Z :=
  let u := dec l in
  if ct_signed c && (2 ^ (ct_bits c - 1) <=? u) then u - 2 ^ ct_bits c else u.
(** The bytes of a value. *)
Definition repr (c : ctype) (v : Z) : list Z := enc (ct_width c) (v mod 2 ^ ct_bits c).

(** OSHMPI_am_mpi_op_index_t (am_pre.h:41-49). *)
Inductive mop : Type := OBand | OBor | OBxor | ONoop | OReplace | OSum.

Section Exec.
(** Addition and comparison of floating-point variables, on their bytes. *)
Variable fadd : ctype -> list Z -> list Z -> list Z.
Variable feq : ctype -> list Z -> list Z -> bool.

(** OSHMPI_AMO_OP_INT_IMPL (amo_am_impl.c:24-46): [a] the operand, [b] the bytes at dest; signed
    overflow is undefined. *)
Definition op_int (o : mop) (c : ctype) (a b : list Z) : outcome (list Z) :=
  match o with
  | OBand => Ok (repr c (Z.land (val c a) (val c b)))
  | OBor => Ok (repr c (Z.lor (val c a) (val c b)))
  | OBxor => Ok (repr c (Z.lxor (val c a) (val c b)))
  | ONoop => Ok b
  | OReplace => Ok a
  | OSum =>
      let v := val c b + val c a in
      if ct_signed c && negb ((- 2 ^ (ct_bits c - 1) <=? v) && (v <? 2 ^ (ct_bits c - 1))) then UB
      else Ok (repr c v)
  end.
(** OSHMPI_AMO_OP_FP_IMPL (amo_am_impl.c:9-22). *)
Definition op_fp (o : mop) (c : ctype) (a b : list Z) : outcome (list Z) :=
  match o with
  | ONoop => Ok b
  | OReplace => Ok a
  | OSum => Ok (fadd c b a)
  | _ => Abort
  end.
(** OSHMPI_AMO_OP_TYPE_IMPL (amo_am_impl.c:48-81). *)
Definition op_type (o : mop) (c : ctype) (a b : list Z) : outcome (list Z) :=
  if ct_fp c then op_fp o c a b else op_int o c a b.

(** Packets (am_pre.h:88-160), with the target address in place of handle and displacement. *)
Inductive pkt : Type :=
| PCswap (c : ctype) (a : Z) (cond v : list Z)
| PFetch (c : ctype) (o : mop) (a : Z) (v : list Z)
| PPost (c : ctype) (o : mop) (a : Z) (v : list Z)
| PPut (a : Z) (nb : nat)
| PGet (a : Z) (nb : nat)
| PIput (esz : nat) (a st : Z) (nelems : nat)
| PIget (esz : nat) (a st : Z) (nelems : nat).

(** The elements of an MPI vector of [nelems] blocks of one element, [st] elements apart
    (strided_impl.h:112-179; stride 1 is the contiguous case). *)
Fixpoint ld_st (m : bytes) (esz : nat) (a s : Z) (nelems : nat) : list Z :=
  match nelems with O => [] | S k => ld m a esz ++ ld_st m esz (a + s * Z.of_nat esz) s k end.
Fixpoint st_st (m : bytes) (esz : nat) (a s : Z) (nelems : nat) (l : list Z) : bytes :=
  match nelems with
  | O => m
  | S k => st_st (st m a (firstn esz l)) esz (a + s * Z.of_nat esz) s k (skipn esz l)
  end.

(** The callbacks: amo_am_impl.c:84-121, 124-155, 158-185; rma_am_impl.c:11-83. Receiving a longer
    message than the posted count is an MPI error. *)
Definition exec_pkt (k : pkt) (od : option (list Z)) (m : bytes) : outcome (bytes * list Z) :=
  match k, od with
  | PCswap c a cond v, None =>
      let old := ld m a (ct_width c) in
      let eq := if ct_fp c then feq c old cond else val c old =? val c cond in
      Ok (if eq then st m a v else m, old)
  | PFetch c o a v, None =>
      let old := ld m a (ct_width c) in
      do b <- op_type o c v old;
      Ok (st m a b, old)
  | PPost c o a v, None =>
      do b <- op_type o c v (ld m a (ct_width c));
      Ok (st m a b, [])
  | PPut a nb, Some d => if (length d <=? nb)%nat then Ok (st m a d, []) else Abort
  | PGet a nb, None => Ok (m, ld m a nb)
  | PIput esz a s nelems, Some d =>
      if (length d <=? esz * nelems)%nat then Ok (st_st m esz a s nelems d, []) else Abort
  | PIget esz a s nelems, None => Ok (m, ld_st m esz a s nelems)
  | _, _ => UB
  end.
End Exec.

(** ** The API (src/shmem/amo_std_typed.c.tpl, amo_ext_typed.c.tpl, amo_bitws_typed.c.tpl); the
    _nbi, ctx and deprecated forms make the same calls. *)
Inductive api : Type :=
| ACswap (cond v : Z) | AFinc | AInc | AFadd (v : Z) | AAdd (v : Z)      (* std *)
| AFetch | ASet (v : Z) | ASwap (v : Z)                                   (* ext *)
| AFand (v : Z) | AAnd (v : Z) | AFor (v : Z) | AOr (v : Z) | AFxor (v : Z) | AXor (v : Z).

(** The value union when not written (amo_am_impl.h:75-76, atomic_fetch). *)
Definition junk (c : ctype) : list Z := repeat 0 (ct_width c).

Definition api_req (c : ctype) (a : Z) (x : api) : req pkt (list Z) :=
  let fetch o v := mkReq KFetch (PFetch c o a v) None in
  let post o v := mkReq KPost (PPost c o a v) None in
  match x with
  | ACswap cond v => mkReq KFetch (PCswap c a (repr c cond) (repr c v)) None
  | AFinc => fetch OSum (repr c 1)
  | AInc => post OSum (repr c 1)
  | AFadd v => fetch OSum (repr c v)
  | AAdd v => post OSum (repr c v)
  | AFetch => fetch ONoop (junk c)
  | ASet v => post OReplace (repr c v)
  | ASwap v => fetch OReplace (repr c v)
  | AFand v => fetch OBand (repr c v)
  | AAnd v => post OBand (repr c v)
  | AFor v => fetch OBor (repr c v)
  | AOr v => post OBor (repr c v)
  | AFxor v => fetch OBxor (repr c v)
  | AXor v => post OBxor (repr c v)
  end.

(** Which type each template is instantiated for (maint/amo_std_typedef.txt,
    amo_ext_typedef.txt, amo_bitws_typedef.txt). *)
Definition std_types : list ctype :=
  [CInt; CLong; CLLong; CUint; CUlong; CUllong; CInt32; CInt64; CUint32; CUint64; CSize; CPtrdiff].
Definition ext_types : list ctype := [CFloat; CDouble] ++ std_types.
Definition bitws_types : list ctype := [CUint; CUlong; CUllong; CInt32; CInt64; CUint32; CUint64].
Definition api_types (x : api) : list ctype :=
  match x with
  | ACswap _ _ | AFinc | AInc | AFadd _ | AAdd _ => std_types
  | AFetch | ASet _ | ASwap _ => ext_types
  | _ => bitws_types
  end.
