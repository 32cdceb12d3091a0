From Coq Require Import String List Bool ZArith.
From Verif Require Import GenData GenModel GenSpec GenProofs2 GenSizedData GenSizedModel GenSizedSpec.
Import ListNotations.
Local Open Scope string_scope.

Definition sized_ok (x : list string * list string * list sspec) : bool :=
  let '(t, h, l) := x in
  all2 (sized_as true) (srts l) (functions t) && all2 declares (functions t) (functions h) &&
  all2 (fun r f => Bool.eqb (sized_as false r f) (negb (gives_size r))) (srts l) (functions t).
Lemma sized_all : forallb sized_ok sized_files = true.
Proof. vm_cast_no_check (eq_refl true). Qed.
Lemma sized_one t h l : In (t, h, l) sized_files ->
  Forall2 (fun r f => sized_as true r f = true) (srts l) (functions t) /\ Forall2 (fun f d => declares f d = true) (functions t) (functions h) /\
  Forall2 (fun r f => sized_as false r f = true <-> gives_size r = false) (srts l) (functions t).
Proof.
  intros I. pose proof sized_all as A. rewrite forallb_forall in A. specialize (A _ I). cbn [sized_ok] in A. rewrite !andb_true_iff in A.
  destruct A as ((A & B) & C). split; [apply all2_Forall2; exact A|]. split; [apply all2_Forall2; exact B|].
  apply all2_Forall2 in C. revert C. generalize (srts l) (functions t). induction 1; constructor; [|assumption].
  apply Bool.eqb_prop in H. rewrite H. destruct (gives_size x); cbn; split; congruence.
Qed.
Definition bad16 (x : list string * list string * list sspec) (p : srt * cfun) : bool :=
  String.eqb (name_of (fst (snd p))) "shmem_get16" && sized_as true (fst p) (snd p) && negb (sized_as false (fst p) (snd p)).
Lemma bad16_some : existsb (fun x => existsb (bad16 x) (combine (srts (snd x)) (functions (fst (fst x))))) sized_files = true.
Proof. vm_cast_no_check (eq_refl true). Qed.
Lemma size_bits : exists x r f, In x sized_files /\ In (r, f) (combine (srts (snd x)) (functions (fst (fst x)))) /\
  name_of (fst f) = "shmem_get16" /\ sized_as true r f = true /\ sized_as false r f = false.
Proof.
  pose proof bad16_some as B. apply existsb_exists in B. destruct B as (x & I & B). apply existsb_exists in B. destruct B as ((r & f) & J & B).
  exists x, r, f. split; [exact I|]. split; [exact J|]. unfold bad16 in B. cbn [fst snd] in B. rewrite !andb_true_iff, negb_true_iff in B.
  destruct B as ((N & S) & T). apply String.eqb_eq in N. auto.
Qed.
