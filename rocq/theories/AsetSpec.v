(** What a user expects of collectives over active sets. *)
From Verif Require Import Base AsetModel.

(** The PEs of an active set, in order, as the OpenSHMEM specification describes them. *)
Definition set_pes (k : key) : list Z := map (fun i => k_start k + Z.of_nat i * 2 ^ k_log k) (seq 0 (Z.to_nat (k_size k))).
Definition in_set (k : key) (p : Z) : Prop := exists i, 0 <= i < k_size k /\ p = k_start k + i * 2 ^ k_log k.

Definition member (p : Z) (k : key) : bool := existsb (Z.eqb p) (set_pes k).

(** An active set of a world of [n] PEs. *)
Definition valid_set (n : Z) (k : key) : Prop :=
  0 <= k_start k /\ 0 <= k_log k <= 30 /\ 1 <= k_size k /\ k_start k + (k_size k - 1) * 2 ^ k_log k < n.
Definition valid_hist (n : Z) (h : list key) : Prop := n <= INT_MAX /\ forall k, In k h -> valid_set n k.

(** The collectives that [p] has called on [k], in order: communicator, how many times used. *)
Definition calls_of (p : Z) (k : key) (log : list aev) : list (comm * nat) :=
  flat_map (fun e => match e with ACall q k' c o => if (q =? p) && key_eqb k' k then [(c, o)] else [] end) log.

(** The sets for which [p] has called a collective, in order. *)
Definition keys_of (p : Z) (log : list aev) : list key :=
  flat_map (fun e => match e with ACall q k _ _ => if q =? p then [k] else [] end) log.

Definition prefix {A} (a b : list A) : Prop := exists c, b = a ++ c.

(** Everything is done. *)
Definition all_done (n : Z) (s : ast) : Prop :=
  forall p, 0 <= p < n -> pe_pc (a_pe s p) = PIdle /\ pe_rem (a_pe s p) = [].
