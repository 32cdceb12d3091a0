(** Calls of the atomic API whose packets are to be served. *)
From Verif Require Import Base AmModel AmoModel AmoSpec PktAmoModel.
From Verif Require PktSpec.

(** A routine that exists for the type, arguments of the type, a location and a tag in range. *)
Definition call_ok (k : acall) : Prop :=
  let '(c, x, h, d, g) := k in In c (api_types x) /\ amo_args_ok c x /\ PktSpec.ok_place h d /\ PktSpec.ok_tag g.
(** What was asked: type, address and operation of each call. *)
Definition asked (addr : Z -> Z -> Z) (k : acall) : ctype * Z * api := let '(c, x, h, d, g) := k in (c, addr h d, x).
