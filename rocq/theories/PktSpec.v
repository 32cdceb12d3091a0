(** What the target is to do for a request, in terms of the request alone. *)
From Verif Require Import Base PktModel.

(** The MPI datatype an index names, its size, and the C type of the atomics on it (none if there are no atomics on it). *)
Definition named (t : tix) : dty :=
  match t with
  | I_CHAR => MPI_CHAR | I_SIGNED_CHAR => MPI_SIGNED_CHAR | I_SHORT => MPI_SHORT | I_INT => MPI_INT | I_LONG => MPI_LONG
  | I_LONG_LONG => MPI_LONG_LONG | I_UNSIGNED_CHAR => MPI_UNSIGNED_CHAR | I_UNSIGNED_SHORT => MPI_UNSIGNED_SHORT
  | I_UNSIGNED => MPI_UNSIGNED | I_UNSIGNED_LONG => MPI_UNSIGNED_LONG | I_UNSIGNED_LONG_LONG => MPI_UNSIGNED_LONG_LONG
  | I_INT8_T => MPI_INT8_T | I_INT16_T => MPI_INT16_T | I_INT32_T => MPI_INT32_T | I_INT64_T => MPI_INT64_T
  | I_UINT8_T => MPI_UINT8_T | I_UINT16_T => MPI_UINT16_T | I_UINT32_T => MPI_UINT32_T | I_UINT64_T => MPI_UINT64_T
  | I_SIZE_T => MPI_SIZE | I_PTRDIFF_T => MPI_PTRDIFF | I_FLOAT => MPI_FLOAT | I_DOUBLE => MPI_DOUBLE
  | I_LONG_DOUBLE => MPI_LONG_DOUBLE | I_C_DOUBLE_COMPLEX => MPI_C_DOUBLE_COMPLEX
  end.
Definition dsize (d : dty) : Z :=
  match d with
  | MPI_CHAR | MPI_SIGNED_CHAR | MPI_UNSIGNED_CHAR | MPI_INT8_T | MPI_UINT8_T => 1
  | MPI_SHORT | MPI_UNSIGNED_SHORT | MPI_INT16_T | MPI_UINT16_T => 2
  | MPI_INT | MPI_UNSIGNED | MPI_INT32_T | MPI_UINT32_T | MPI_FLOAT => 4
  | MPI_LONG_DOUBLE | MPI_C_DOUBLE_COMPLEX => 16
  | _ => 8
  end.
Definition atomic_type (t : tix) : option cty :=
  match t with
  | I_INT => Some Cint | I_LONG => Some Clong | I_LONG_LONG => Some Clonglong | I_UNSIGNED => Some Cuint
  | I_UNSIGNED_LONG => Some Culong | I_UNSIGNED_LONG_LONG => Some Culonglong | I_INT32_T => Some Ci32 | I_INT64_T => Some Ci64
  | I_UINT32_T => Some Cu32 | I_UINT64_T => Some Cu64 | I_SIZE_T => Some Csize | I_PTRDIFF_T => Some Cptrdiff
  | I_FLOAT => Some Cfloat | I_DOUBLE => Some Cdouble | _ => None
  end.
Definition bitwise (o : oix) : bool := match o with O_BAND | O_BOR | O_BXOR => true | _ => false end.
Definition floating (t : tix) : bool := match t with I_FLOAT | I_DOUBLE => true | _ => false end.
Definition operand (o : oix) (v : Z) : option Z := match o with O_NO_OP => None | _ => Some v end.

(** The intended action: same place, same type, same operation, same values, answered with the same datatype and tag. *)
Definition meant (r : req) : action :=
  match r with
  | RCswap t _ cond value h disp g =>
      match atomic_type t with Some c => ACswap h disp c cond value (named t) g | None => AAbort end
  | RFetch t _ op value h disp g =>
      match atomic_type t with
      | Some c => if floating t && bitwise op then AAbort else AFetch h disp c op (operand op value) (named t) g
      | None => AAbort
      end
  | RPost t _ op value h disp =>
      match atomic_type t with
      | Some c => if floating t && bitwise op then AAbort else APost h disp c op (operand op value)
      | None => AAbort
      end
  | RPut bytes h disp g => APut h disp bytes g
  | RGet bytes h disp g => AGet h disp bytes g
  | RIput t st n h disp g => AIput h disp st n (named t) g
  | RIget t st n h disp g => AIget h disp st n (named t) g
  | RFlush g => AFlush g
  | RTerminate => ATerminate
  end.

(** Ranges of the C types; a value has the bytes of its type, at most eight. *)
Definition ok_place (h disp : Z) : Prop := 0 <= h < 2 ^ 32 /\ 0 <= disp < 2 ^ 63.
Definition ok_tag (g : Z) : Prop := 0 <= g < 2 ^ 31.
Definition ok_value (bytes v : Z) : Prop := 0 <= v < 256 ^ bytes.
Definition ok_type (t : tix) (bytes : Z) : Prop := bytes = dsize (named t) /\ bytes <= 8.
Definition ok_stride (st n : Z) : Prop := - 2 ^ 63 <= st < 2 ^ 63 /\ 0 <= n < 2 ^ 64.
Definition well_formed (r : req) : Prop :=
  match r with
  | RCswap t b cond value h disp g => ok_type t b /\ ok_value b cond /\ ok_value b value /\ ok_place h disp /\ ok_tag g
  | RFetch t b op value h disp g => ok_type t b /\ ok_value b value /\ ok_place h disp /\ ok_tag g
  | RPost t b op value h disp => ok_type t b /\ ok_value b value /\ ok_place h disp
  | RPut b h disp g | RGet b h disp g => 0 <= b < 2 ^ 64 /\ ok_place h disp /\ ok_tag g
  | RIput t st n h disp g | RIget t st n h disp g => ok_stride st n /\ ok_place h disp /\ ok_tag g
  | RFlush g => ok_tag g
  | RTerminate => True
  end.
(** Contiguous transfers of less than 2 GiB. *)
Definition small (r : req) : Prop := match r with RPut b _ _ _ | RGet b _ _ _ => b < 2 ^ 31 | _ => True end.

(** Layout: where C puts the members. *)
Definition aligned (o : Z) (t : fty) : Prop := o mod fsize t = 0.
Definition apart (o1 n1 o2 n2 : Z) : Prop := o1 + n1 <= o2 \/ o2 + n2 <= o1.
