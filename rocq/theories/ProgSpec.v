(** What the deadlock properties talk about. *)
From Verif Require Import Base LockModel ProgModel.

Definition finished (s : gst) : Prop := forall p, q_pe s p = PRun [].
(** Nothing can happen any more. *)
Definition stuck (async : bool) (mem : nat -> list Z) (kd : nat -> ckind) (s : gst) : Prop :=
  forall l, gstep async mem kd s l = s.
Definition deadlock (async : bool) (mem : nat -> list Z) (kd : nat -> ckind) (s : gst) : Prop :=
  stuck async mem kd s /\ ~ finished s.

(** All steps of [ls] from [s] change the state. *)
Fixpoint all_change (async : bool) (mem : nat -> list Z) (kd : nat -> ckind) (s : gst) (ls : list glabel) : Prop :=
  match ls with [] => True | l :: r => gstep async mem kd s l <> s /\ all_change async mem kd (gstep async mem kd s l) r end.

(** The collectives of a program, in order. *)
Definition colls (r : list action) : list nat := flat_map (fun a => match a with AColl k => [k] | _ => [] end) r.

(** [n] PEs, [c] collectives. Each PE calls the collectives it is a member of, in the common order,
    and no others; requests go to PEs; the PEs beyond [n] have no program. *)
Record well_formed (n : Z) (c : nat) (mem : nat -> list Z) (prog : Z -> list action) : Prop := mkWf {
  wf_pe : forall p, ~ 0 <= p < n -> prog p = [];
  wf_mem : forall k p, In p (mem k) -> 0 <= p < n;
  wf_colls : forall p, colls (prog p) = filter (fun k => existsb (Z.eqb p) (mem k)) (seq 0 c);
  wf_op : forall p ts, In (AOp ts) (prog p) -> forall t, In t ts -> 0 <= t < n;
  wf_post : forall p t, In (APost t) (prog p) -> 0 <= t < n
}.

(** The last collective involves every PE, is the last action of every PE, and polls
    (shmem_finalize, setup_impl.c:865). *)
Definition ends_with_barrier (n : Z) (c : nat) (mem : nat -> list Z) (kd : nat -> ckind) (prog : Z -> list action) : Prop :=
  exists f, c = S f /\ kd f = Poll /\ forall p, 0 <= p < n -> In p (mem f) /\ exists r, prog p = r ++ [AColl f].

(** Every blocking collective directly follows another collective of all PEs, with nothing in between (so
    the first of a row of collectives is not a blocking one). *)
Definition guarded (n : Z) (mem : nat -> list Z) (kd : nat -> ckind) (prog : Z -> list action) : Prop :=
  forall p k pre post, prog p = pre ++ AColl k :: post -> kd k = Blk ->
  exists j pre', k = S j /\ (forall q, 0 <= q < n -> In q (mem j)) /\ pre = pre' ++ [AColl j].

(** Library calls without a blocking phase. *)
Definition polling_call (c : call) : bool :=
  match c with CBarrierSet true | CCollSet true | CSplit | CAttach | CDetach => false | _ => true end.
Definition is_coll (c : call) : bool := match c with CFetch _ | CPost _ => false | _ => true end.
(** All PEs make the same collective calls, and requests go to PEs; everybody ends with shmem_finalize, of which
    the barrier is modelled. *)
Record same_calls (n : Z) (cs : Z -> list call) : Prop := mkSc {
  sc_eq : forall p q, 0 <= p < n -> 0 <= q < n -> filter is_coll (cs p) = filter is_coll (cs q);
  sc_tgt : forall p t, In (CFetch t) (cs p) \/ In (CPost t) (cs p) -> 0 <= t < n;
  sc_none : forall p, ~ 0 <= p < n -> cs p = [];
  sc_end : forall p, 0 <= p < n -> exists r, cs p = r ++ [CSyncAll]
}.

(** Every call with a blocking phase directly follows shmem_barrier_all. *)
Definition after_barrier (cs : list call) : Prop :=
  forall pre c post, cs = pre ++ c :: post -> polling_call c = false -> exists pre', pre = pre' ++ [CBarrierAll].
(** The members, the kinds and the programs of library calls over [n] PEs. *)
Definition world (n : Z) (k : nat) : list Z := map Z.of_nat (seq 0 (Z.to_nat n)).
Definition kind_of (cs : Z -> list call) (k : nat) : ckind := nth k (kinds (cs 0)) Poll.
Definition actions (cs : Z -> list call) (p : Z) : list action := expand [] 0 (cs p).
