(** What C103 says, in terms of the drivers and devices of the machine. *)
From Verif Require Import Base ZeModel.

Definition has_gpu (d : driver) : Prop := exists h, In (h, true) d.
(** Driver [k] is the first one that has a GPU. *)
Definition first_gpu (ds : list driver) (k : nat) : Prop :=
  (exists d, nth_error ds k = Some d /\ has_gpu d) /\
  forall j d, (j < k)%nat -> nth_error ds j = Some d -> ~ has_gpu d.
Definition no_gpu (ds : list driver) : Prop := forall d, In d ds -> ~ has_gpu d.
(** No driver in front of number [k] is without devices. *)
Definition none_empty (ds : list driver) (k : nat) : Prop :=
  forall j, (j < k)%nat -> nth_error ds j <> Some [].

(** The library uses driver [k]: its context is one of that driver and its table lists the devices of it. *)
Definition uses (mc : machine) (s : ze) (k : nat) : Prop :=
  z_driver s = Some k /\
  (exists x, z_ctx s = Some x /\ z_find x (z_live s) = Some (ZCtx k)) /\
  exists t d, nth_error (mc_drivers mc) k = Some d /\ z_table s = Some t /\ z_count s = Z.of_nat (length d) /\
    z_find t (z_live s) = Some (ZTable (map fst d)).

(** Whether a device belongs to driver [k]. *)
Definition device_of (mc : machine) (k : nat) (dev : Z) : Prop :=
  exists d b, nth_error (mc_drivers mc) k = Some d /\ In (dev, b) d.

(** A program that only takes memory of devices of driver [k], and releases each piece once: [l] is what it holds,
    [n] the number of the next piece. *)
Fixpoint good_ops (mc : machine) (k : nat) (n : Z) (l : list Z) (os : list zop) : Prop :=
  match os with
  | [] => True
  | ZAlloc dev :: r => device_of mc k dev /\ good_ops mc k (n + 1) (n :: l) r
  | ZRelease p :: r => In p l /\ good_ops mc k n (remove Z.eq_dec p l) r
  end.
(** What it holds at the end. *)
Fixpoint holds (n : Z) (l : list Z) (os : list zop) : list Z :=
  match os with
  | [] => l
  | ZAlloc _ :: r => holds (n + 1) (n :: l) r
  | ZRelease p :: r => holds n (remove Z.eq_dec p l) r
  end.

Definition is_table (o : zobj) : bool := match o with ZTable _ => true | _ => false end.
Definition is_ctx (o : zobj) : bool := match o with ZCtx _ => true | _ => false end.
Definition is_mem (o : zobj) : bool := match o with ZMem _ => true | _ => false end.
Definition is_list (o : zobj) : bool := match o with ZDrivers => true | _ => false end.
Definition count (f : zobj -> bool) (s : ze) : nat := length (filter (fun x => f (snd x)) (z_live s)).
