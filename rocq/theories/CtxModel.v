(** Contexts: their creation from a space by concurrent threads, and the context API. *)
From Verif Require Import Base.
Open Scope nat_scope.
Open Scope list_scope.

(** ** Contexts of a space *)

(** The used_flag of each element of ctx_list, and per thread the loop index of the
    OSHMPI_space_create_ctx call it is in. *)
Record cst := { c_flags : list Z; c_thr : list (option nat) }.
(** Events visible to the user: a call, its result, a destroyed context. *)
Inductive cev := ECall (t : nat) | EGot (t i : nat) | ENone (t : nat) | EDestroy (t i : nat).
(** Threads call, run one step of the loop, or destroy. *)
Inductive cact := ACall (t : nat) | AStep (t : nat) | ADestroy (t i : nat).

(** OSHMPIU_ATOMIC_FLAG_CAS (src/include/oshmpi_util.h:219-226, 241, 253): atomic, returns the old
    value. *)
Definition flag_cas (l : list Z) (i : nat) (old new : Z) : outcome (Z * list Z) :=
  match nth_error l i with
  | None => UB
  | Some v => Ok (v, if (v =? old)%Z then upd l i new else l)
  end.

(** OSHMPI_space_create_ctx (src/internal/space_impl.c:253-271) of an attached space whose
    num_contexts is the length of ctx_list: one iteration of the loop per step, and the end of the
    function. OSHMPI_ctx_destroy (src/internal/ctx_impl.c:9-18). A thread inside a call does not
    start another one. *)
Definition cstep (s : cst) (a : cact) : outcome (cst * list cev) :=
  match a with
  | ACall t =>
      match nth_error (c_thr s) t with
      | Some None => Ok ({| c_flags := c_flags s; c_thr := upd (c_thr s) t (Some 0) |}, [ECall t])
      | _ => Ok (s, [])
      end
  | AStep t =>
      match nth_error (c_thr s) t with
      | Some (Some i) =>
          if i <? length (c_flags s) then
            do (v, fl) <- flag_cas (c_flags s) i 0%Z 1%Z;
            if (v =? 0)%Z
            then Ok ({| c_flags := fl; c_thr := upd (c_thr s) t None |}, [EGot t i])
            else Ok ({| c_flags := fl; c_thr := upd (c_thr s) t (Some (S i)) |}, [])
          else Ok ({| c_flags := c_flags s; c_thr := upd (c_thr s) t None |}, [ENone t])
      | _ => Ok (s, [])
      end
  | ADestroy t i =>
      match nth_error (c_thr s) t with
      | Some None =>
          if i <? length (c_flags s)
          then Ok ({| c_flags := upd (c_flags s) i 0%Z; c_thr := c_thr s |}, [EDestroy t i])
          else UB
      | _ => Ok (s, [])
      end
  end.
Fixpoint crun (s : cst) (l : list cact) : outcome (cst * list cev) :=
  match l with
  | [] => Ok (s, [])
  | a :: l =>
      do (s1, h1) <- cstep s a;
      do (s2, h2) <- crun s1 l;
      Ok (s2, h1 ++ h2)
  end.
(** After OSHMPI_space_attach (space_impl.c:310-327): [n] contexts, [k] threads. *)
Definition cinit (n k : nat) : cst := {| c_flags := repeat 0%Z n; c_thr := repeat None k |}.
(** The assertions of the loop of OSHMPI_space_detach (348-351). *)
Fixpoint detach_flags (checks : bool) (fl : list Z) : outcome unit :=
  match fl with
  | [] => Ok tt
  | v :: fl => do _ <- c_assert checks (v =? 0)%Z; detach_flags checks fl
  end.

(** ** The context API *)
Open Scope Z_scope.
Definition NO_CTX : Z := -1.
Definition OTHER_ERR : Z := -2.
(** shmem_ctx_t and shmem_team_t (include/shmem.h.in.tpl:91-93, 107-108). *)
Inductive hctx := HInvalid | HDefault | HSpace (i : nat).
Inductive hteam := TInvalid | TWorld | TShared | TUser (k : nat).
(** Calls (src/shmem/context.c:9-47, src/shmem/order.c:14-17, 24-27 with
    src/internal/order_impl.h:36-42, 67-73). The state is the flags of the contexts and, per
    context, whether operations are outstanding. Flushing the default context is left out (see
    OrderModel). *)
Record api := { a_flags : list Z; a_out : list bool }.
Inductive acall :=
| LCreate (options : Z)
| LTeamCreate (t : hteam) (options : Z)
| LDestroy (c : hctx)
| LGetTeam (c : hctx)
| LQuiet (c : hctx)
| LFence (c : hctx).
Inductive ares := RNone | RCtx (r : Z) (c : hctx) | RTeam (r : Z) (t : hteam).
Definition ctx_flush (s : api) (c : hctx) : outcome (api * ares) :=
  match c with
  | HDefault => Ok (s, RNone)
  | HInvalid => UB
  | HSpace i => Ok ({| a_flags := a_flags s; a_out := upd (a_out s) i false |}, RNone)
  end.
Definition acallf (s : api) (c : acall) : outcome (api * ares) :=
  match c with
  | LCreate _ => Ok (s, RCtx NO_CTX HInvalid)
  | LTeamCreate t _ =>
      match t with
      | TInvalid => Ok (s, RCtx OTHER_ERR HInvalid)
      | _ => Ok (s, RCtx NO_CTX HInvalid)
      end
  | LDestroy c =>
      match c with
      | HInvalid | HDefault => Ok (s, RNone)
      | HSpace i => Ok ({| a_flags := upd (a_flags s) i 0; a_out := a_out s |}, RNone)
      end
  | LGetTeam c =>
      match c with
      | HDefault => Ok (s, RTeam 0 TWorld)
      | _ => Ok (s, RTeam OTHER_ERR TInvalid)
      end
  | LQuiet c | LFence c => ctx_flush s c
  end.
