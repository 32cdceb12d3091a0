From Coq Require Import String List Bool Ascii.
From Verif Require Import GenData GenModel GenSpec GenSizedData GenSizedModel GenSizedSpec HandData AsmModel AsmSpec.
Import ListNotations.
Local Open Scope string_scope.
Open Scope list_scope.

Lemma insert_nil k ls : insert k [] ls = ls.
Proof. induction ls as [|l r IH]; [reflexivity|]. cbn. destruct (has k l); cbn; rewrite IH; reflexivity. Qed.
Lemma insert_skip k f a b : (forall x, In x a -> has k x = false) -> insert k f (a ++ b) = a ++ insert k f b.
Proof.
  induction a as [|x a IH]; intros H; [reflexivity|]. cbn. rewrite (H x (or_introl eq_refl)). f_equal. apply IH. intros y I. apply H. right. exact I.
Qed.

(** The piece for a line. *)
Fixpoint piece (ps : list (string * list string)) (l : string) : list string :=
  match ps with [] => [] | (k, f) :: r => if has k l then f else piece r l end.
Definition spread (ps : list (string * list string)) (t : list string) : list string := flat_map (fun l => l :: piece ps l) t.
Lemma piece_none ps l : (forall k f, In (k, f) ps -> has k l = false) -> piece ps l = [].
Proof. induction ps as [|(k, f) r IH]; intros H; [reflexivity|]. cbn. rewrite (H k f (or_introl eq_refl)). apply IH. intros k' f' I. exact (H k' f' (or_intror I)). Qed.
Lemma piece_app ps k f l : piece (ps ++ [(k, f)]) l = match existsb (fun p : string * list string => has (fst p) l) ps with true => piece ps l | false => if has k l then f else [] end.
Proof. induction ps as [|(k', f') r IH]; cbn; [reflexivity|]. destruct (has k' l); [reflexivity|]. exact IH. Qed.
Lemma piece_in ps l x : In x (piece ps l) -> exists k f, In (k, f) ps /\ In x f.
Proof.
  induction ps as [|(k, f) r IH]; cbn; [intros []|]. destruct (has k l); intros I; [exists k, f; auto|]. destruct (IH I) as (k' & f' & A & B). exists k', f'. auto.
Qed.
Lemma none_of ps l : (forall k f, In (k, f) ps -> has k l = false) -> existsb (fun p : string * list string => has (fst p) l) ps = false.
Proof.
  intros H. destruct (existsb _ ps) eqn:E; [|reflexivity]. apply existsb_exists in E. destruct E as ((k & f) & I & J). cbn in J. rewrite (H k f I) in J. discriminate.
Qed.
Lemma spread_same ps k f t : (forall x, In x t -> has k x = false) -> spread (ps ++ [(k, f)]) t = spread ps t.
Proof.
  induction t as [|l t IH]; intros H; [reflexivity|]. unfold spread in *. cbn [flat_map].
  rewrite piece_app, (H l (or_introl eq_refl)), IH by (intros x I; apply H; right; exact I).
  f_equal. f_equal. destruct (existsb _ ps) eqn:E; [reflexivity|]. symmetry. apply piece_none. intros k' f' I.
  destruct (has k' l) eqn:F; [|reflexivity]. assert (X : existsb (fun p : string * list string => has (fst p) l) ps = true) by (apply existsb_exists; exists (k', f'); auto). congruence.
Qed.
Lemma spread_app ps a b : spread ps (a ++ b) = spread ps a ++ spread ps b.
Proof. apply flat_map_app. Qed.
Lemma spread_clear ps k a : (forall x, In x a -> has k x = false) -> (forall k' f' x, In (k', f') ps -> In x f' -> has k x = false) ->
  forall x, In x (spread ps a) -> has k x = false.
Proof.
  intros H G x I. apply in_flat_map in I. destruct I as (l & J & [<-|I]); [exact (H l J)|]. apply piece_in in I. destruct I as (k' & f' & A & B). exact (G k' f' x A B).
Qed.

Lemma clear_app ps k f tpl : clear (ps ++ [(k, f)]) tpl -> clear ps tpl.
Proof.
  intros (A & B & C). split; [|split].
  - intros k' f' I. apply (A k' f'). apply in_or_app. auto.
  - intros p q s k1 f1 k2 f2 l E. apply (B p q (s ++ [(k, f)]) k1 f1 k2 f2 l). rewrite E. rewrite <- !app_assoc. cbn. rewrite <- !app_assoc. reflexivity.
  - intros k1 f1 k2 f2 l I J. apply (C k1 f1 k2 f2 l); apply in_or_app; auto.
Qed.
Lemma assemble_spread ps : forall tpl, clear ps tpl -> assemble ps tpl = spread ps tpl.
Proof.
  induction ps as [|(k, f) ps IH] using rev_ind; intros tpl H.
  - cbn. induction tpl as [|l t IH]; [reflexivity|]. cbn. f_equal. apply IH. repeat split.
    + intros k f [].
    + intros p q s k f k' f' x E. destruct p; discriminate.
    + intros k f k' f' x [].
  - unfold assemble. rewrite fold_left_app. cbn [fold_left fst snd]. fold (assemble ps tpl). rewrite (IH tpl (clear_app _ _ _ _ H)).
    destruct H as (A & B & C). destruct (A k f) as (a & l & b & -> & K & U); [apply in_or_app; right; left; reflexivity|].
    assert (UA : forall x, In x a -> has k x = false) by (intros x I; apply U, in_or_app; auto).
    assert (UB : forall x, In x b -> has k x = false) by (intros x I; apply U, in_or_app; auto).
    assert (G : forall k' f' x, In (k', f') ps -> In x f' -> has k x = false).
    { intros k' f' x I J. apply (C k' f' k f x); [apply in_or_app; auto|apply in_or_app; right; left; reflexivity|exact J]. }
    assert (N : forall k' f', In (k', f') ps -> has k' l = false).
    { intros k' f' I. destruct (has k' l) eqn:E; [|reflexivity]. exfalso. apply in_split in I. destruct I as (p & q & ->).
      assert (X : has k l = false); [|congruence].
      apply (B p q [] k' f' k f l); [rewrite <- app_assoc; reflexivity|apply in_or_app; right; left; reflexivity|exact E]. }
    rewrite !spread_app, (spread_same ps k f a UA). cbn [spread flat_map]. fold (spread ps b). fold (spread (ps ++ [(k, f)]) b).
    rewrite (spread_same ps k f b UB), piece_app, (none_of ps l N), K, (piece_none ps l N).
    rewrite insert_skip by (apply spread_clear; assumption). cbn [app insert]. rewrite K, insert_nil. reflexivity.
Qed.
Lemma spread_placed ps t : placed ps t (spread ps t).
Proof.
  induction t as [|l t IH]; [constructor|]. cbn. destruct (existsb (fun p : string * list string => has (fst p) l) ps) eqn:E.
  - assert (X : exists k, In (k, piece ps l) ps /\ has k l = true).
    { clear IH. induction ps as [|(k, f) r IH]; [discriminate|]. cbn in *. destruct (has k l) eqn:F; [exists k; auto|].
      destruct (IH E) as (k' & I & J). exists k'. auto. }
    destruct X as (k & I & J). exact (PKey ps l k (piece ps l) t _ I J IH).
  - assert (X : forall k f, In (k, f) ps -> has k l = false).
    { intros k f I. destruct (has k l) eqn:F; [|reflexivity]. assert (Y : existsb (fun p : string * list string => has (fst p) l) ps = true) by (apply existsb_exists; exists (k, f); auto). congruence. }
    rewrite (piece_none ps l X). cbn. constructor; assumption.
Qed.
Lemma assembled ps tpl : clear ps tpl -> placed ps tpl (assemble ps tpl).
Proof. intros H. rewrite (assemble_spread ps tpl H). apply spread_placed. Qed.

Lemma pre_app a k : forall s, pre (a ++ k)%string s = true -> has k s = true.
Proof.
  induction a as [|c a IH]; intros s H.
  - cbn [append] in H. destruct s; cbn [has]; rewrite H; reflexivity.
  - destruct s as [|d s]; cbn in H; [discriminate|]. apply andb_true_iff in H. destruct H as (_ & H). cbn [has]. rewrite (IH s H). apply orb_true_r.
Qed.
Lemma has_app a k l : has (a ++ k)%string l = true -> has k l = true.
Proof.
  induction l as [|c l IH]; intros H.
  - cbn [has] in H. rewrite orb_false_r in H. exact (pre_app a k _ H).
  - cbn [has] in H. apply orb_true_iff in H. destruct H as [H|H]; [exact (pre_app a k _ H)|]. cbn [has]. rewrite (IH H). apply orb_true_r.
Qed.

Definition keyed (k : string) : bool := existsb (fun i => String.eqb (substring i 8 k) "_H start" && Nat.eqb (i + 8) (String.length k)) (seq 0 (String.length k)).
Lemma substring_split k : forall i, (i + 8 = String.length k)%nat -> k = (substring 0 i k ++ substring i 8 k)%string.
Proof.
  induction k as [|c k IH]; intros i E; [destruct i; discriminate|]. destruct i as [|i].
  - cbn [substring append]. cbn in E. injection E as E. clear IH. f_equal. do 7 (destruct k as [|? k]; [discriminate|]; cbn [substring] in *; f_equal).
    cbn in E. destruct k; [reflexivity|discriminate].
  - cbn [substring append]. f_equal. apply IH. cbn in E. congruence.
Qed.
Lemma keyed_has k l : keyed k = true -> has k l = true -> has "_H start" l = true.
Proof.
  unfold keyed. intros K H. apply existsb_exists in K. destruct K as (i & _ & K). apply andb_true_iff in K. destruct K as (K & L).
  apply String.eqb_eq in K. apply PeanoNat.Nat.eqb_eq in L. rewrite (substring_split k i L), K in H. exact (has_app _ _ _ H).
Qed.

Fixpoint once (k : string) (ls : list string) : bool :=
  match ls with [] => false | l :: r => if has k l then forallb (fun x => negb (has k x)) r else once k r end.
Lemma once_ok k ls : once k ls = true -> exists a l b, ls = a ++ l :: b /\ has k l = true /\ forall x, In x (a ++ b) -> has k x = false.
Proof.
  induction ls as [|l r IH]; [discriminate|]. cbn. destruct (has k l) eqn:E; intros H.
  - exists [], l, r. split; [reflexivity|]. split; [exact E|]. intros x I. rewrite forallb_forall in H. apply negb_true_iff. exact (H x I).
  - destruct (IH H) as (a & l' & b & -> & K & U). exists (l :: a), l', b. split; [reflexivity|]. split; [exact K|]. intros x [<-|I]; [exact E|exact (U x I)].
Qed.
Fixpoint apart (ps : list (string * list string)) (ls : list string) : bool :=
  match ps with [] => true | (k, _) :: r => forallb (fun q => forallb (fun l => negb (has k l && has (fst q) l)) ls) r && apart r ls end.
Lemma apart_ok ps ls : apart ps ls = true -> forall p q s k f k' f' l, ps = p ++ (k, f) :: q ++ (k', f') :: s -> In l ls -> has k l = true -> has k' l = false.
Proof.
  intros H p. revert ps H. induction p as [|(k0, f0) p IH]; intros ps H q s k f k' f' l -> I E; cbn [app apart] in H; apply andb_true_iff in H; destruct H as (H & T).
  - rewrite forallb_forall in H. specialize (H (k', f') ltac:(apply in_or_app; right; left; reflexivity)). rewrite forallb_forall in H. specialize (H l I).
    rewrite E in H. cbn in H. apply negb_true_iff. exact H.
  - exact (IH _ T q s k f k' f' l eq_refl I E).
Qed.
Lemma once_filter k ls : keyed k = true -> once k (filter (has "_H start") ls) = true -> once k ls = true.
Proof.
  intros K. induction ls as [|l r IH]; [discriminate|]. cbn [filter once]. destruct (has "_H start" l) eqn:E.
  - cbn [once]. destruct (has k l) eqn:F; [|exact IH]. intros H. rewrite forallb_forall in *. intros x I. destruct (has k x) eqn:G; [|reflexivity].
    assert (J : In x (filter (has "_H start") r)) by (apply filter_In; split; [exact I|exact (keyed_has k x K G)]). specialize (H x J). rewrite G in H. exact H.
  - destruct (has k l) eqn:F; [rewrite (keyed_has k l K F) in E; discriminate|exact IH].
Qed.
Definition check (ps : list (string * list string)) (tpl : list string) : bool :=
  (forallb (fun p => keyed (fst p) && once (fst p) (filter (has "_H start") tpl)) ps && apart ps (filter (has "_H start") tpl)) &&
  forallb (fun p => forallb (fun l => negb (has "_H start" l)) (snd p)) ps.
Lemma check_keyed ps tpl k f : check ps tpl = true -> In (k, f) ps -> keyed k = true /\ once k (filter (has "_H start") tpl) = true.
Proof.
  intros H I. unfold check in H. apply andb_true_iff in H. destruct H as (H & _). apply andb_true_iff in H. destruct H as (H & _).
  rewrite forallb_forall in H. specialize (H _ I). cbn [fst] in H. apply andb_true_iff in H. exact H.
Qed.
Lemma check_clear ps tpl : check ps tpl = true -> clear ps tpl.
Proof.
  intros C. split; [|split].
  - intros k f I. destruct (check_keyed ps tpl k f C I) as (K & O). exact (once_ok _ _ (once_filter _ _ K O)).
  - intros p q s k f k' f' l E I H. pose proof C as A. unfold check in A. apply andb_true_iff in A. destruct A as (A & _).
    apply andb_true_iff in A. destruct A as (_ & A).
    apply (apart_ok ps _ A p q s k f k' f' l E); [|exact H]. apply filter_In. split; [exact I|].
    apply (keyed_has k); [|exact H]. apply (check_keyed ps tpl k f C). rewrite E. apply in_or_app. right. left. reflexivity.
  - intros k f k' f' l I J L. destruct (has k' l) eqn:F; [|reflexivity]. pose proof C as A. unfold check in A. apply andb_true_iff in A. destruct A as (_ & A).
    rewrite forallb_forall in A. specialize (A _ I).
    cbn [snd] in A. rewrite forallb_forall in A. specialize (A l L). rewrite (keyed_has k' l (proj1 (check_keyed ps tpl k' f' C J)) F) in A. discriminate.
Qed.
Lemma steps_check : check steps hdr_shmem = true.
Proof. vm_cast_no_check (eq_refl true). Qed.
Lemma steps_clear : clear steps hdr_shmem.
Proof. exact (check_clear steps hdr_shmem steps_check). Qed.
Lemma piece_key ps tpl l k f : clear ps tpl -> In l tpl -> In (k, f) ps -> has k l = true -> piece ps l = f.
Proof.
  intros (_ & B & _) L I H. assert (G : forall p q k' f', ps = p ++ (k', f') :: q -> In (k, f) q -> has k' l = true -> False).
  { intros p q k' f' E J H'. apply in_split in J. destruct J as (q1 & s & ->). rewrite (B p q1 s k' f' k f l E L H') in H. discriminate. }
  clear B. revert G. cut (forall pre0 ps0, ps0 = pre0 ++ ps -> (forall p q k' f', ps0 = p ++ (k', f') :: q -> In (k, f) q -> has k' l = true -> False) -> piece ps l = f).
  { intros C G. exact (C [] ps eq_refl G). }
  induction ps as [|(k1, f1) r IH]; intros p0 ps0 E G; [destruct I|]. cbn [piece]. destruct I as [I|I].
  - injection I as -> ->. rewrite H. reflexivity.
  - destruct (has k1 l) eqn:F; [destruct (G p0 r k1 f1 E I F)|]. apply (IH I (p0 ++ [(k1, f1)]) ps0); [rewrite <- app_assoc; exact E|exact G].
Qed.

Definition start_line (m : string) : string := ("/* SHMEM_" ++ m ++ "_H start */")%string.
Definition end_line (m : string) : string := ("/* SHMEM_" ++ m ++ "_H end */")%string.
Fixpoint adj (x y : string) (ls : list string) : bool :=
  match ls with l :: (n :: _) as r => (String.eqb l x && String.eqb n y) || adj x y r | _ => false end.
Lemma adj_ok x y ls : adj x y ls = true -> exists a b, ls = a ++ x :: y :: b.
Proof.
  induction ls as [|l r IH]; [discriminate|]. destruct r as [|n r]; [discriminate|]. cbn [adj]. intros H. apply orb_true_iff in H. destruct H as [H|H].
  - apply andb_true_iff in H. destruct H as (A & B). apply String.eqb_eq in A. apply String.eqb_eq in B. subst. exists [], r. reflexivity.
  - destruct (IH H) as (a & b & E). exists (l :: a), b. rewrite E. reflexivity.
Qed.
Definition place_ok (tpl : list string) (m : string) : bool :=
  adj (start_line m) (end_line m) tpl && has ("SHMEM_" ++ m ++ "_H start")%string (start_line m) && negb (has "_H start" (end_line m)).
Lemma place_between ps tpl m f : check ps tpl = true -> place_ok tpl m = true -> In (("SHMEM_" ++ m ++ "_H start")%string, f) ps -> between m f (assemble ps tpl).
Proof.
  intros H P S. pose proof (check_clear _ _ H) as Cl.
  unfold place_ok in P. rewrite !andb_true_iff, negb_true_iff in P. destruct P as ((A & B) & C). apply adj_ok in A. destruct A as (a & b & E).
  rewrite (assemble_spread _ _ Cl). exists (spread ps a), (spread ps b).
  assert (L : In (start_line m) tpl) by (rewrite E; apply in_or_app; right; left; reflexivity).
  pose proof (piece_key _ _ _ _ _ Cl L S B) as K.
  assert (N : piece ps (end_line m) = []).
  { apply piece_none. intros k' f' J. destruct (has k' (end_line m)) eqn:F; [|reflexivity].
    rewrite (keyed_has k' _ (proj1 (check_keyed ps tpl k' f' H J)) F) in C. discriminate. }
  rewrite E, spread_app. f_equal. unfold spread. cbn [flat_map]. rewrite K, N. reflexivity.
Qed.
Lemma places_ok : forallb (fun p : string * list string => place_ok hdr_shmem (fst p)) places = true.
Proof. vm_cast_no_check (eq_refl true). Qed.
Lemma places_keys (g0 g1 g2 g3 g4 g5 g6 g7 g8 g9 g10 g11 g12 s0 s1 : list string) m f :
  In (m, f) [("RMA_TYPED", g0); ("AMO_STD_TYPED", g1); ("AMO_EXT_TYPED", g2); ("AMO_BITWS_TYPED", g3); ("COLL_TYPED", g4); ("REDUCE_MINMAX_ASET_TYPED", g5); ("REDUCE_SUMPROD_ASET_TYPED", g6); ("REDUCE_BITWS_ASET_TYPED", g7); ("REDUCE_MINMAX_TEAM_TYPED", g8); ("REDUCE_SUMPROD_TEAM_TYPED", g9); ("REDUCE_BITWS_TEAM_TYPED", g10); ("SIGNAL_TYPED", g11); ("P2P_TYPED", g12); ("RMA_SIZED", s0); ("SIGNAL_SIZED", s1)] ->
  In (("SHMEM_" ++ m ++ "_H start")%string, f)
     [("SHMEM_RMA_TYPED_H start", g0); ("SHMEM_RMA_SIZED_H start", s0); ("SHMEM_AMO_STD_TYPED_H start", g1); ("SHMEM_AMO_EXT_TYPED_H start", g2); ("SHMEM_AMO_BITWS_TYPED_H start", g3); ("SHMEM_COLL_TYPED_H start", g4); ("SHMEM_REDUCE_MINMAX_ASET_TYPED_H start", g5); ("SHMEM_REDUCE_SUMPROD_ASET_TYPED_H start", g6); ("SHMEM_REDUCE_BITWS_ASET_TYPED_H start", g7); ("SHMEM_REDUCE_MINMAX_TEAM_TYPED_H start", g8); ("SHMEM_REDUCE_SUMPROD_TEAM_TYPED_H start", g9); ("SHMEM_REDUCE_BITWS_TEAM_TYPED_H start", g10); ("SHMEM_SIGNAL_TYPED_H start", g11); ("SHMEM_SIGNAL_SIZED_H start", s1); ("SHMEM_P2P_TYPED_H start", g12)].
Proof.
  intros I. repeat (destruct I as [I|I]; [injection I as <- <-; cbn [append]; repeat (first [left; reflexivity|right]); fail|]). destruct I.
Qed.
Lemma places_steps m f : In (m, f) places -> In (("SHMEM_" ++ m ++ "_H start")%string, f) steps.
Proof. exact (places_keys _ _ _ _ _ _ _ _ _ _ _ _ _ _ _ m f). Qed.
Lemma all_between m f : In (m, f) places -> between m f shmem_h.
Proof.
  intros I. apply (place_between steps hdr_shmem m f steps_check); [|exact (places_steps m f I)].
  exact (proj1 (forallb_forall (fun p : string * list string => place_ok hdr_shmem (fst p)) places) places_ok (m, f) I).
Qed.
