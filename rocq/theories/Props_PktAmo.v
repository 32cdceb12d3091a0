(** C107, atomics: from the call on the origin through the bytes of the packet to the effect on the target. *)
From Verif Require Import Base AmModel AmoModel AmoSpec AmoProofs DirModel DirSpec PktAmoModel PktAmoSpec PktAmoProofs.
From Verif Require PktModel PktSpec.

(** One call: whatever was in the receive buffer, the target's variable gets the value the operation is to give it, nothing else in its
    memory changes, and the old value goes back. It is undefined only if a signed sum overflows. *)
Theorem C107_atomic fadd feq addr c x h d g buf m : byte_mem m -> call_ok (c, x, h, d, g) ->
  match exec_action fadd feq addr (PktModel.handle_pkt (PktModel.receive buf (PktModel.issue (wire c x h d g)))) m with
  | Ok (m', rep) => amo_step_ok c (addr h d) x m m' rep /\ byte_mem m'
  | UB => ~ in_type c (amo_new c x (var c m (addr h d)))
  | _ => False
  end.
Proof. intros M (T & A & P & G). rewrite call_exec by assumption. exact (exec_api fadd feq c (addr h d) x m M T A). Qed.
Print Assumptions C107_atomic.

(** Any sequence of calls, of any types and origins, through the same buffer: the effect is that of the operations one after the other,
    each on its own location with its own type, and no call aborts. *)
Theorem C107_atomics fadd feq addr l buf m : byte_mem m -> Forall call_ok l ->
  match serve_amos fadd feq addr buf m l with
  | Ok (m', log) => ops_seq m log m' /\ map fst log = map (asked addr) l
  | UB => True
  | _ => False
  end.
Proof.
  intros M C. pose proof (serve_seq fadd feq addr l buf m) as S. destruct (serve_no_abort fadd feq addr l buf m M C) as (N1 & N2).
  destruct (serve_amos fadd feq addr buf m l) as [[m' log]| | |]; try congruence; [|exact I]. apply S; auto.
Qed.
Print Assumptions C107_atomics.

(** A long at 16 is set to -2, compared with -2 and swapped for 2^40, a bitwise or on the unsigned int at its upper half follows, then a
    fetch. *)
Definition ex_calls : list acall :=
  [(CLong, ASet (-2), 0, 16, 0); (CLong, ACswap (-2) (2 ^ 40), 0, 16, 2003); (CUint, AOr 3, 0, 20, 0); (CLong, AFetch, 0, 16, 2004)].
Example C107_atomics_nonvacuous : Forall call_ok ex_calls /\
  match serve_amos (fun _ a _ => a) (fun _ _ _ => false) (fun h d => h + d) PktModel.undef (fun _ => 0) ex_calls with
  | Ok (m, log) => var CLong m 16 = 259 * 2 ^ 32 /\ map (fun e => val CLong (snd e)) log = [0; -2; 0; 259 * 2 ^ 32]
  | _ => False
  end.
Proof.
  split.
  - repeat constructor; try (vm_compute; congruence); vm_compute; tauto.
  - vm_compute. split; reflexivity.
Qed.
