(** Property theorems C84 and C85 (programs without races, critical sections). *)
From Verif Require Import Base AmCfgModel OrderModel OrderSpec OrderProofs3 DataModel DataSpec LockModel LockProofs2 RaceSpec RaceProofs
  CritModel CritSpec CritProofs CritProofs2.

(** ** C84 Programs without races *)

(** Any build, any number of PEs with one thread each. If conflicting accesses to a byte do not overlap, then each get returns
    the value last written in the order of the calls, and so does the memory when all puts to the byte are complete. *)
Theorem C84_race_free : forall c W m0 t a ls s log, single ls -> mrun c W (m_init m0) ls = Ok (s, log) -> ordered W log t a ->
  (forall L1 q i x o k g t' dev L2 b n j, log = L1 ++ (q, EStart i (CRma x o k g t' dev)) :: L2 ->
     W q g = Rd t b n -> a = b + Z.of_nat j -> (j < n)%nat -> In (q, EDone g) log -> m_res s q g j = lastw W t a (m0 t a) L1) /\
  ((forall p id v, issued log p id -> writes (W p id) t a v -> In (p, EDone id) log) -> m_mem s t a = lastw W t a (m0 t a) log).
Proof. exact race_free. Qed.
Print Assumptions C84_race_free.

(** Each PE gets the byte 100 of PE 1 by its operation 10 and puts to it by its operation 11: PE 0 writes 1, the others 2. *)
Definition cW (q i : Z) : opd :=
  if i =? 10 then Rd 1 100 1 else if i =? 11 then Wr 1 100 [if q =? 0 then 1 else 2] else Rd 0 0 0.
Definition c_cfg : oconf := mkOconf 3 false true true CDirect DbgAuto false false false.
Definition rzero (p a : Z) : Z := 0.
Definition cget : ocall := CRma XDefault OHeap KGet 10 1 false.
Definition cput : ocall := CRma XDefault OHeap KPut 11 1 false.
Definition rcall (p : Z) (cl : ocall) (n : nat) : list mlab := ML (GCall p 0 cl) :: repeat (ML (GGo p 0)) n.

Lemma split_nth {X} (l u v : list X) e : l = u ++ e :: v -> exists i, nth_error l i = Some e /\ u = firstn i l /\ (i < length l)%nat.
Proof.
  intros ->. exists (length u). rewrite nth_error_app2, Nat.sub_diag, firstn_app, Nat.sub_diag, firstn_all, app_nil_r by auto.
  rewrite app_length. simpl. repeat split; auto. lia.
Qed.
Lemma cW_writes q i t a v : writes (cW q i) t a v -> i = 11.
Proof.
  intros (b & bs & j & E & _). unfold cW in E. destruct (i =? 10); [discriminate|]. destruct (Z.eqb_spec i 11); [assumption|discriminate].
Qed.
Lemma cW_w q : writes (cW q 11) 1 100 (if q =? 0 then 1 else 2).
Proof. exists 100, [if q =? 0 then 1 else 2], 0%nat. auto. Qed.
Lemma cW_reads q i : reads (cW q i) 1 100 -> i = 10.
Proof.
  intros (b & n & j & E & _). unfold cW in E. destruct (Z.eqb_spec i 10); [assumption|]. destruct (i =? 11); [discriminate|]. congruence.
Qed.

(** PE 0 puts and waits by shmem_quiet, then PE 2 gets and puts. *)
Definition ex_race : list mlab := rcall 0 cput 3 ++ rcall 0 (CQuiet XDefault) 6 ++ rcall 2 cget 3 ++ rcall 2 cput 3 ++ [MLand 2 11 0].
Definition ex_race_log : list (Z * oev) :=
  [(0, EStart 0 cput); (0, ERet 0 cput); (0, EStart 0 (CQuiet XDefault)); (0, EDone 11); (0, ERet 0 (CQuiet XDefault));
   (2, EStart 0 cget); (2, EDone 10); (2, ERet 0 cget); (2, EStart 0 cput); (2, ERet 0 cput)].
Example C84_nonvacuous : single ex_race /\ ordered cW ex_race_log 1 100 /\
  match mrun c_cfg cW (m_init rzero) ex_race with
  | Ok (s, log) => log = ex_race_log /\ m_res s 2 10 0%nat = 1 /\ m_mem s 1 100 = 2
  | _ => False
  end.
Proof.
  split; [|split; [|vm_compute; repeat split; reflexivity]].
  - intros lb H. assert (F : forallb (fun lb => match lb with ML (GCall _ i _) | ML (GGo _ i) => i =? 0 | _ => true end) ex_race = true) by (vm_compute; reflexivity).
    rewrite forallb_forall in F. specialize (F lb H). destruct lb as [[]|]; auto; lia.
  - intros u q i x o k id t' dev v E _. destruct (split_nth _ _ _ _ E) as (m & E1 & -> & L). simpl in L.
    do 10 (try (destruct m as [|m]; [try (simpl in E1; discriminate)|])); try lia; simpl in E1; injection E1 as <- <- <- <- <- <- <- <-; simpl.
    + split; [intros (? & ? & ? & ? & ? & ? & [])|intros ? ? (? & ? & ? & ? & ? & ? & [])].
    + split; [intros (? & ? & ? & ? & ? & ? & F); simpl in F; repeat (destruct F as [F|F]; [discriminate|]); destruct F|].
      intros p' id' (? & ? & ? & ? & ? & ? & F) _. simpl in F. repeat (destruct F as [F|F]; [first [discriminate F|injection F as <- <- <- <- <- <- <-; tauto]|]). destruct F.
    + split; [intros (? & ? & ? & ? & ? & ? & F); simpl in F; repeat (destruct F as [F|F]; [discriminate|]); destruct F|].
      intros p' id' (? & ? & ? & ? & ? & ? & F) _. simpl in F.
      repeat (destruct F as [F|F]; [first [discriminate F|injection F as <- <- <- <- <- <- <-; tauto]|]). destruct F.
Qed.

(** ** C85 Critical sections *)

(** A byte that is accessed only by the holder of a lock, with shmem_quiet between a put and the next access or the release:
    each get returns the value that was put last, whoever put it; and so does the memory when nobody holds the lock. *)
Theorem C85_critical_section : forall c W m0 ls s log t a k, oc_n c <= INT_MAX -> xsingle ls -> xrun c W (x_init m0) ls = Ok (s, log) ->
  guarded (oc_n c) W log t a k ->
  (forall L1 q i x o kd g t' dev L2 b len j, log = L1 ++ (q, XD (EStart i (CRma x o kd g t' dev))) :: L2 ->
     W q g = Rd t b len -> a = b + Z.of_nat j -> (j < len)%nat -> In (q, XD (ERet i (CRma x o kd g t' dev))) log ->
     m_res (x_d s) q g j = lastw W t a (m0 t a) (xd L1)) /\
  ((forall q, ~ holds k q log) -> m_mem (x_d s) t a = lastw W t a (m0 t a) (xd log)).
Proof. exact critical. Qed.
Print Assumptions C85_critical_section.

(** Updates (get, compute, put) of a byte in critical sections are as if they were made one after the other: none is lost. *)
Theorem C85_no_lost_update : forall c W m0 F ls s log t a k, oc_n c <= INT_MAX -> xsingle ls -> xrun c W (x_init m0) ls = Ok (s, log) ->
  guarded (oc_n c) W log t a k -> updates F W (m_res (x_d s)) log t a k -> (forall q, ~ holds k q log) ->
  m_mem (x_d s) t a = serial F W t a (m0 t a) (xd log).
Proof.
  intros c W m0 F ls s log t a k HN SG E GD UP NH. destruct (critical c W m0 ls s log t a k HN SG E GD) as [_ ->]; [|exact NH].
  eapply serial_updates; eauto.
Qed.
Print Assumptions C85_no_lost_update.

(** PEs 0 and 2 contend for lock 7; each adds 1 to the byte. *)
Definition xcall (p : Z) (cl : ocall) (n : nat) : list xlab := map XData (rcall p cl n).
Definition cs (p : Z) : list xlab := xcall p cget 3 ++ xcall p cput 3 ++ xcall p (CQuiet XDefault) 6.
Definition hand : list xlab := [XLock 7 2 OpGo; XLock 7 0 OpClear; XLock 7 0 OpGo; XLock 7 0 OpGo; XLock 7 0 OpGo; XLock 7 2 OpGo].
Definition ex_crit : list xlab :=
  [XLock 7 0 OpSet; XLock 7 2 OpSet; XLock 7 0 OpGo; XLock 7 2 OpGo] ++ cs 0 ++ hand ++ cs 2 ++ [XLock 7 2 OpClear].
Definition cs_log (p : Z) : list (Z * xev) :=
  map (fun e => (p, XD e)) [EStart 0 cget; EDone 10; ERet 0 cget; EStart 0 cput; ERet 0 cput; EStart 0 (CQuiet XDefault); EDone 11; ERet 0 (CQuiet XDefault)].
Definition ex_crit_log : list (Z * xev) :=
  [(0, XL 7 (EEnq 0)); (0, XL 7 (EAcq 0)); (2, XL 7 (EEnq 2))] ++ cs_log 0 ++ [(0, XL 7 (ERel 0)); (2, XL 7 (EAcq 2))] ++ cs_log 2 ++ [(2, XL 7 (ERel 2))].
Definition plus1 (q id v : Z) : Z := v + 1.

Ltac gone F := repeat (destruct F as [F|F]; [first [discriminate F | injection F; intros; subst; discriminate]|]); destruct F.
Lemma ex_crit_guarded : guarded 3 cW ex_crit_log 1 100 7.
Proof.
  assert (S1 : synced 3 (map snd (xd (cs_log 0))) 11).
  { exists [EStart 0 cget; EDone 10; ERet 0 cget; EStart 0 cput; ERet 0 cput], [EDone 11], [], (CQuiet XDefault). split; [reflexivity|].
    split; [left; reflexivity|]. split; [intros c' [F|[]]; discriminate|]. exists 0, XDefault, OHeap, KPut, 1, false. split; [simpl; tauto|lia]. }
  split.
  - intros u q i x o k id t' dev v E _. destruct (split_nth _ _ _ _ E) as (m & E1 & EU & L). simpl in L. clear E.
    do 22 (try (destruct m as [|m]; [try (simpl in E1; discriminate)|])); try lia; simpl in E1; injection E1 as <- <- <- <- <- <- <- <-; simpl in EU; subst u.
    + split; [exists [(0, XL 7 (EEnq 0))], [(2, XL 7 (EEnq 2))]; split; [reflexivity|intros F; gone F]|].
      split; [intros (? & ? & ? & ? & ? & ? & F); gone F|]. split; [left; reflexivity|]. intros id' y (? & ? & ? & ? & ? & ? & F); gone F.
    + split; [exists [(0, XL 7 (EEnq 0))], ((2, XL 7 (EEnq 2)) :: firstn 3 (cs_log 0)); split; [reflexivity|intros F; gone F]|].
      split; [intros (? & ? & ? & ? & ? & ? & F); gone F|]. split; [intros F; apply cW_reads in F; discriminate|].
      intros id' y (? & ? & ? & ? & ? & ? & F) G. apply cW_writes in G. subst id'. gone F.
    + split; [exists ([(0, XL 7 (EEnq 0)); (0, XL 7 (EAcq 0)); (2, XL 7 (EEnq 2))] ++ cs_log 0 ++ [(0, XL 7 (ERel 0))]), []; split; [reflexivity|intros F; gone F]|].
      split; [intros (? & ? & ? & ? & ? & ? & F); gone F|]. split; [left; reflexivity|].
      intros id' y (? & ? & ? & ? & ? & ? & F) G. apply cW_writes in G. subst id'. gone F.
    + split; [exists ([(0, XL 7 (EEnq 0)); (0, XL 7 (EAcq 0)); (2, XL 7 (EEnq 2))] ++ cs_log 0 ++ [(0, XL 7 (ERel 0))]), (firstn 3 (cs_log 2)); split; [reflexivity|intros F; gone F]|].
      split; [intros (? & ? & ? & ? & ? & ? & F); gone F|]. split; [intros F; apply cW_reads in F; discriminate|].
      intros id' y (? & ? & ? & ? & ? & ? & F) G. apply cW_writes in G. subst id'. gone F.
  - intros u q v E id' y HI G. destruct (split_nth _ _ _ _ E) as (m & E1 & EU & L). simpl in L. clear E. apply cW_writes in G. subst id'.
    do 22 (try (destruct m as [|m]; [try (simpl in E1; discriminate)|])); try lia; simpl in E1; injection E1 as <-; simpl in EU; subst u; exact S1.
Qed.
Lemma ex_crit_updates res : res 0 10 0%nat = 0 -> res 2 10 0%nat = 1 -> updates plus1 cW res ex_crit_log 1 100 7.
Proof.
  intros R0 R2 u q i x o k id t' dev v y E HW. pose proof (cW_writes _ _ _ _ _ HW) as ->. destruct (split_nth _ _ _ _ E) as (m & E1 & EU & L). simpl in L. clear E.
  apply writes_wval in HW.
  do 22 (try (destruct m as [|m]; [try (simpl in E1; discriminate)|])); try lia; simpl in E1; injection E1 as <- <- <- <- <- <- <-; simpl in EU; subst u.
  - exists [(0, XL 7 (EEnq 0)); (0, XL 7 (EAcq 0)); (2, XL 7 (EEnq 2))], 0, XDefault, OHeap, KGet, 10, 1, false,
      [(0, XD (EDone 10)); (0, XD (ERet 0 cget))], 100, 1%nat, 0%nat.
    repeat (split; [reflexivity || lia|]). split; [intros F; gone F|]. split; [intros id' y' (? & ? & ? & ? & ? & ? & F); gone F|].
    rewrite R0. vm_compute in HW. injection HW as <-. reflexivity.
  - exists ([(0, XL 7 (EEnq 0)); (0, XL 7 (EAcq 0)); (2, XL 7 (EEnq 2))] ++ cs_log 0 ++ [(0, XL 7 (ERel 0)); (2, XL 7 (EAcq 2))]), 0, XDefault, OHeap, KGet, 10, 1, false,
      [(2, XD (EDone 10)); (2, XD (ERet 0 cget))], 100, 1%nat, 0%nat.
    repeat (split; [reflexivity || lia|]). split; [intros F; gone F|]. split; [intros id' y' (? & ? & ? & ? & ? & ? & F); gone F|].
    rewrite R2. vm_compute in HW. injection HW as <-. reflexivity.
Qed.
Example C85_nonvacuous : xsingle ex_crit /\
  (exists s, xrun c_cfg cW (x_init rzero) ex_crit = Ok (s, ex_crit_log) /\ guarded 3 cW ex_crit_log 1 100 7 /\
     updates plus1 cW (m_res (x_d s)) ex_crit_log 1 100 7 /\ m_mem (x_d s) 1 100 = 2 /\ serial plus1 cW 1 100 0 (xd ex_crit_log) = 2) /\
  forall q, ~ holds 7 q ex_crit_log.
Proof.
  split; [|split].
  - intros d H lb [<-|[]]. assert (F : forallb (fun lb => match lb with XData (ML (GCall _ i _)) | XData (ML (GGo _ i)) => i =? 0 | _ => true end) ex_crit = true) by (vm_compute; reflexivity).
    rewrite forallb_forall in F. specialize (F _ H). destruct d as [[]|]; auto; lia.
  - destruct (xrun c_cfg cW (x_init rzero) ex_crit) as [[s log]| | |] eqn:E; [|vm_compute in E; discriminate..].
    assert (K : match xrun c_cfg cW (x_init rzero) ex_crit with
      | Ok (s, log) => log = ex_crit_log /\ m_res (x_d s) 0 10 0%nat = 0 /\ m_res (x_d s) 2 10 0%nat = 1 /\ m_mem (x_d s) 1 100 = 2 | _ => False end)
      by (vm_compute; repeat split; reflexivity).
    rewrite E in K. destruct K as (-> & R0 & R2 & M). exists s. split; [reflexivity|]. split; [exact ex_crit_guarded|].
    split; [apply ex_crit_updates; assumption|]. split; [exact M|]. vm_compute. reflexivity.
  - intros q (a & b & E & N). destruct (split_nth _ _ _ _ E) as (m & E1 & EU & L). simpl in L.
    do 22 (try (destruct m as [|m]; [try (simpl in E1; discriminate)|])); try lia; simpl in E1; injection E1 as <-; simpl in EU; subst a; unfold ex_crit_log, cs_log in E; simpl in E;
      repeat match type of E with _ :: _ = _ :: _ => injection E as E end; apply N; rewrite <- E; simpl; tauto.
Qed.

(** Without shmem_quiet before shmem_clear_lock, PE 2 gets the old value, and an update is lost. *)
Definition cs_nq (p : Z) : list xlab := xcall p cget 3 ++ xcall p cput 3.
Definition ex_lost : list xlab :=
  [XLock 7 0 OpSet; XLock 7 2 OpSet; XLock 7 0 OpGo; XLock 7 2 OpGo] ++ cs_nq 0 ++ hand ++ xcall 2 cget 3.
Example C85_needs_quiet :
  match xrun c_cfg cW (x_init rzero) ex_lost with
  | Ok (s, log) => m_res (x_d s) 2 10 0%nat = 0 /\ In (2, XD (ERet 0 cget)) log /\ In (0, XL 7 (ERel 0)) log /\ In (0, XD (ERet 0 cput)) log /\
      lastw cW 1 100 0 (xd log) = 1
  | _ => False
  end.
Proof. vm_compute. repeat split; try reflexivity; tauto. Qed.
