(** C90. *)
From Verif Require Import Base UlModel UlSpec UlProofs.

(** Puts and removals of existing objects follow no NULL or dangling pointer and end, whatever stale next field a new object has. *)
Theorem C90_no_fault (os : list lop) (fuel : nat) : ab_ok ([], []) os -> (length os < fuel)%nat ->
  exists s, lop_run fuel ll0 os = Ok s.
Proof. intros G L. destruct (main os fuel G L) as (s & E & _). eauto. Qed.
(** Walks, stopped or not, see exactly what was put in and not removed, each once and in order; no other object is created or
    ended. *)
Theorem C90_walk (os : list lop) (fuel : nat) (s : lheap * Z) : ab_ok ([], []) os -> (length os < fuel)%nat -> lop_run fuel ll0 os = Ok s ->
  (forall p, In p (fst (ab_run ([], []) os)) <-> fst s p <> None) /\
  (forall stop, ll_foreach fuel (fst s) (snd s) stop = Ok (upto stop (snd (ab_run ([], []) os)))) /\
  (forall stop, ll_scan_safe fuel (fst s) (snd s) stop = Ok (upto stop (snd (ab_run ([], []) os)))) /\
  NoDup (snd (ab_run ([], []) os)).
Proof. exact (objects os fuel s). Qed.
(** A search ends at the first match. *)
Theorem C90_first_match (stop : Z -> bool) (l : list Z) : (exists x, In x l /\ stop x = true) ->
  exists a x b, upto stop l = a ++ [x] /\ l = a ++ x :: b /\ stop x = true /\ forall y, In y a -> stop y = false.
Proof. exact (upto_last stop l). Qed.
(** Finalizing a cache releases every object put in exactly once, latest first, and reads none after its release. *)
Theorem C90_finalize (fuel : nat) (ps : list (Z * Z)) : NoDup (map fst ps) -> ~ In 0 (map fst ps) -> (2 * length ps < fuel)%nat ->
  exists s h', lop_run fuel ll0 (flat_map cache_put ps) = Ok s /\
    cache_finalize fuel s (Z.of_nat (length ps)) = Ok (rev (map fst ps), (h', 0)) /\ forall q, h' q = None.
Proof. exact (cache_ok fuel ps). Qed.
Print Assumptions C90_no_fault.
Print Assumptions C90_walk.
Print Assumptions C90_first_match.
Print Assumptions C90_finalize.

(** Three spaces made, the middle one destroyed, its address used again. *)
Definition ex_ul : list lop :=
  [LNew 8 77; LAppend 8; LNew 16 8; LAppend 16; LNew 24 16; LAppend 24; LDelete 16; LFree 16; LNew 16 24; LAppend 16].
Example ex_ul_ok : ab_ok ([], []) ex_ul.
Proof. cbn. repeat split; try lia; intuition lia. Qed.
Example ex_ul_walk : (do s <- lop_run 11 ll0 ex_ul; ll_foreach 11 (fst s) (snd s) (fun _ => false)) = Ok [8; 24; 16].
Proof. vmr. Qed.
Example ex_ul_stop : (do s <- lop_run 11 ll0 ex_ul; ll_scan_safe 11 (fst s) (snd s) (Z.eqb 24)) = Ok [8; 24].
Proof. vmr. Qed.
Example ex_ul_fin : (do s <- lop_run 11 ll0 (flat_map cache_put [(8, 5); (16, 8); (24, 0)]); do r <- cache_finalize 11 s 3; Ok (fst r)) = Ok [24; 16; 8].
Proof. vmr. Qed.
(** The plain walk would read a freed object, an object destroyed twice follows NULL, one appended twice makes a walk endless: the
    conditions of [ab_ok] are needed. *)
Example ex_ul_twice : lop_run 11 ll0 [LNew 8 0; LAppend 8; LDelete 8; LDelete 8] = UB.
Proof. vmr. Qed.
Example ex_ul_loop : (do s <- lop_run 11 ll0 [LNew 8 0; LNew 16 0; LPrepend 8; LPrepend 16; LPrepend 8]; ll_foreach 1000 (fst s) (snd s) (fun _ => false)) = NoFuel.
Proof. vmr. Qed.
Example ex_ul_freed : (do s <- lop_run 11 ll0 [LNew 8 0; LAppend 8; LFree 8]; ll_foreach 11 (fst s) (snd s) (fun _ => false)) = UB.
Proof. vmr. Qed.
