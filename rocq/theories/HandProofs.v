(** Proofs about the routines written by hand: the texts are finite, so each claim is a computation. *)
From Coq Require Import String Ascii List Bool ZArith.
From Verif Require Import GenData GenModel GenSpec HandData HandModel HandSpec.
Import ListNotations.
Local Open Scope string_scope.

Lemma same_words_eq a b : same_words a b = true <-> a = b.
Proof.
  revert b. induction a as [|x a IH]; intros [|y b]; cbn; try easy.
  rewrite andb_true_iff, IH, String.eqb_eq. split; [intros [-> ->]; reflexivity|now inversion 1].
Qed.
Lemma mem_of_In x l : mem_of x l = true <-> In x l.
Proof.
  unfold mem_of. rewrite existsb_exists. split.
  - intros (y & I & E). apply String.eqb_eq in E. now subst.
  - intros I. exists x. split; [exact I|apply String.eqb_refl].
Qed.

Definition declared_ok (ds : list (list string)) (fs : list item) : bool :=
  forallb (fun d => existsb (fun f => same_words (proto d) (proto (fst f))) fs) ds &&
  forallb (fun f => existsb (fun d => same_words (proto d) (proto (fst f))) ds) fs.
Fixpoint distinct (l : list string) : bool := match l with [] => true | x :: r => negb (mem_of x r) && distinct r end.
Lemma distinct_NoDup l : distinct l = true -> NoDup l.
Proof.
  induction l as [|x l IH]; cbn; [constructor|]. rewrite andb_true_iff, negb_true_iff. intros [A B].
  constructor; [|auto]. intros I. apply mem_of_In in I. congruence.
Qed.
Lemma check_declared : forallb (fun c => declared_ok (declarations c) (definitions c)) [true; false] = true.
Proof. vm_cast_no_check (eq_refl true). Qed.
Lemma check_once : forallb (fun c => distinct (map (fun f => name_of (fst f)) (definitions c))) [true; false] = true.
Proof. vm_cast_no_check (eq_refl true). Qed.
Opaque declarations definitions callees table.
Lemma both (P : bool -> bool) : forallb P [true; false] = true -> forall c, P c = true.
Proof. cbn. rewrite !andb_true_iff. intros (A & B & _) []; assumption. Qed.

Lemma declared_defined c d : In d (declarations c) -> exists f, In f (definitions c) /\ proto (fst f) = proto d.
Proof.
  pose proof (both _ check_declared c) as H. unfold declared_ok in H. cbv beta in H. apply andb_true_iff in H. destruct H as [H _].
  rewrite forallb_forall in H. intros I. specialize (H d I). apply existsb_exists in H. destruct H as (f & F & E).
  apply same_words_eq in E. exists f. split; [assumption|now symmetry].
Qed.
Lemma defined_declared c f : In f (definitions c) -> exists d, In d (declarations c) /\ proto d = proto (fst f).
Proof.
  pose proof (both _ check_declared c) as H. unfold declared_ok in H. cbv beta in H. apply andb_true_iff in H. destruct H as [_ H].
  rewrite forallb_forall in H. intros I. specialize (H f I). apply existsb_exists in H. destruct H as (d & D & E).
  apply same_words_eq in E. exists d. split; assumption.
Qed.
Lemma defined_once c : NoDup (map (fun f => name_of (fst f)) (definitions c)).
Proof. apply distinct_NoDup. exact (both _ check_once c). Qed.

(** An older program with a library compiled as C11, and the other way round. *)
Definition missing (ds : list (list string)) (fs : list item) : list string :=
  map name_of (filter (fun d => negb (existsb (fun f => same_words (proto d) (proto (fst f))) fs)) ds).
Lemma missing_old : missing (declarations false) (definitions true) = ["shmem_wait_until"; "shmem_wait"].
Proof. vm_cast_no_check (eq_refl ["shmem_wait_until"; "shmem_wait"]). Qed.
Lemma missing_new : missing (declarations true) (definitions false) = [].
Proof. vm_cast_no_check (eq_refl ([] : list string)). Qed.
Lemma missing_In ds fs d : In d ds -> ~ In (name_of d) (missing ds fs) -> exists f, In f fs /\ proto (fst f) = proto d.
Proof.
  intros I N. destruct (existsb (fun f => same_words (proto d) (proto (fst f))) fs) eqn:E.
  - apply existsb_exists in E. destruct E as (f & F & E). apply same_words_eq in E. exists f. split; [assumption|now symmetry].
  - exfalso. apply N. apply in_map. apply filter_In. rewrite E. auto.
Qed.
Lemma mixed_new d : In d (declarations true) -> exists f, In f (definitions false) /\ proto (fst f) = proto d.
Proof. intros I. apply missing_In with (declarations true); [exact I|]. rewrite missing_new. exact (fun H => H). Qed.
Lemma mixed_old d : In d (declarations false) -> ~ In (name_of d) ["shmem_wait_until"; "shmem_wait"] ->
  exists f, In f (definitions true) /\ proto (fst f) = proto d.
Proof. intros I N. apply missing_In with (declarations false); [exact I|]. rewrite missing_old. exact N. Qed.
Lemma names_old : forallb (fun n => mem_of n (map name_of (declarations false))) ["shmem_wait_until"; "shmem_wait"] &&
  negb (existsb (fun n => mem_of n ["shmem_wait_until"; "shmem_wait"]) (map (fun f => name_of (fst f)) (definitions true))) = true.
Proof. vm_cast_no_check (eq_refl true). Qed.
Lemma old_missing n : In n ["shmem_wait_until"; "shmem_wait"] ->
  (exists d, In d (declarations false) /\ name_of d = n) /\ forall f, In f (definitions true) -> name_of (fst f) <> n.
Proof.
  pose proof names_old as H. apply andb_true_iff in H. destruct H as [A B]. intros I. split.
  - rewrite forallb_forall in A. specialize (A n I). pose proof (proj1 (in_map_iff _ _ _) (proj1 (mem_of_In _ _) A)) as A'. clear A. destruct A' as (d & E & D). exists d. split; assumption.
  - intros f F E. apply negb_true_iff in B. apply Bool.not_true_iff_false in B. apply B. apply existsb_exists.
    exists (name_of (fst f)). split; [exact (in_map (fun f => name_of (fst f)) _ _ F)|]. apply (proj2 (mem_of_In _ _)). rewrite E. exact I.
Qed.

(** Delegation. *)
Definition passing (fs : list item) (cs : list (list string)) (rs : list row) : bool :=
  forallb (fun r => existsb (fun f => existsb (fun d => passes r d f) (filter (is_name (r_calls r)) cs)) (filter (fun f => is_name (r_name r) (fst f)) fs)) rs.
Lemma check_passes : forallb (fun c => passing (definitions c) (callees c) (table c)) [true; false] = true.
Proof. vm_cast_no_check (eq_refl true). Qed.
Lemma all_pass c r : In r (table c) -> exists d f, In d (callees c) /\ In f (definitions c) /\ passes r d f = true.
Proof.
  pose proof (both _ check_passes c) as H. unfold passing in H. cbv beta in H. rewrite forallb_forall in H. intros I. specialize (H r I).
  apply existsb_exists in H. destruct H as (f & F & H). apply existsb_exists in H. destruct H as (d & D & H).
  destruct (proj1 (filter_In _ _ _) F) as [F' _]. destruct (proj1 (filter_In _ _ _) D) as [D' _]. exists d, f. split; [exact D'|]. split; [exact F'|exact H].
Qed.

Definition empty (f : item) : bool := match snd f with Some [] => true | _ => false end.
Definition kinds (fs : list item) (names : list string) : bool :=
  forallb (fun f => if empty f then mem_of (name_of (fst f)) no_effect else mem_of (name_of (fst f)) names) fs.
Lemma check_kinds : forallb (fun c => kinds (definitions c) (map r_name (table c) ++ own_body)) [true; false] = true.
Proof. vm_cast_no_check (eq_refl true). Qed.
Lemma all_kinds c f : In f (definitions c) ->
  (exists r, In r (table c) /\ r_name r = name_of (fst f)) \/ In (name_of (fst f)) own_body \/
  (In (name_of (fst f)) no_effect /\ snd f = Some []).
Proof.
  pose proof (both _ check_kinds c) as H. unfold kinds in H. cbv beta in H. rewrite forallb_forall in H. intros I. specialize (H f I).
  unfold empty in H. destruct (snd f) as [[|w b]|] eqn:B; cbv beta iota in H.
  - right; right. split; [exact (proj1 (mem_of_In _ _) H)|reflexivity].
  - pose proof (in_app_or _ _ _ (proj1 (mem_of_In _ _) H)) as H'. clear H. destruct H' as [H|H]; [left|right; left; exact H]. pose proof (proj1 (in_map_iff _ _ _) H) as H'. destruct H' as (r & E & R). exists r. split; assumption.
  - pose proof (in_app_or _ _ _ (proj1 (mem_of_In _ _) H)) as H'. clear H. destruct H' as [H|H]; [left|right; left; exact H]. pose proof (proj1 (in_map_iff _ _ _) H) as H'. destruct H' as (r & E & R). exists r. split; assumption.
Qed.
