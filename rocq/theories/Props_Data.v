(** Property theorems C80 and C81 (data with flags, barriers and gets). *)
From Verif Require Import Base AmCfgModel OrderModel OrderSpec OrderProofs OrderProofs3 DataModel DataSpec DataProofs DataProofs2.

(** ** C80 Data, then a flag *)

(** PEs with one thread each, any build. Operation [a] of PE [p] writes [v] to a byte, operation [f]
    writes a flag, nothing else writes either, and between them [p] calls shmem_quiet or shmem_fence.
    Then the data are there whenever the flag has changed, however the transfers are delayed or
    reordered, whatever the targets, objects, contexts and paths. *)
Theorem C80_message_partial : forall c W m0 ls s log p a f t A v u F, single ls -> mrun c W (m_init m0) ls = Ok (s, log) ->
  fenced (oc_n c) (plog p log) a f ->
  writes (W p a) t A v -> only_writer W log t A p a -> only_writer W log u F p f ->
  m_mem s u F <> m0 u F -> m_mem s t A = v.
Proof. intros. eapply message; eauto. Qed.
Print Assumptions C80_message_partial.

(** A blocking get, of any PE, that starts when that operation is complete returns [v]. *)
Theorem C80_get : forall c W m0 ls s log p a q g t b n j v L1 i x o k t' dev L2, single ls -> mrun c W (m_init m0) ls = Ok (s, log) ->
  log = L1 ++ (q, EStart i (CRma x o k g t' dev)) :: L2 -> In (p, EDone a) L1 -> ~ issued L1 q g -> blocking k ->
  (exists i', In (q, ERet i' (CRma x o k g t' dev)) log) ->
  W q g = Rd t b n -> (j < n)%nat -> writes (W p a) t (b + Z.of_nat j) v -> only_writer W log t (b + Z.of_nat j) p a ->
  m_res s q g j = v.
Proof. intros. eapply get_returned; eauto. Qed.
Print Assumptions C80_get.

(** PE 0 writes two bytes to PE 1, then the flag, then PE 2 reads the two bytes. *)
Definition dW (q i : Z) : opd :=
  if (q =? 0) && (i =? 1) then Wr 1 100 [7; 8] else if (q =? 0) && (i =? 2) then Wr 1 200 [1]
  else if (q =? 2) && (i =? 3) then Rd 1 100 2 else Rd 0 0 0.
Definition d_cfg (track : bool) : oconf := mkOconf 3 false track true CDirect DbgAuto false false false.
Definition zero2 (p a : Z) : Z := 0.
Definition mgo (p : Z) (n : nat) : list mlab := repeat (ML (GGo p 0)) n.
Definition put1 : list mlab := ML (GCall 0 0 (CRma XDefault OHeap KPut 1 1 false)) :: mgo 0 3.
Definition put2 : list mlab := ML (GCall 0 0 (CRma XDefault OHeap KPut 2 1 false)) :: mgo 0 3.
Definition ex_msg : list mlab := put1 ++ ML (GCall 0 0 (CFence XDefault)) :: mgo 0 10 ++ put2 ++ [MLand 0 2 0].
Definition ex_nofence : list mlab := put1 ++ put2 ++ [MLand 0 2 0].
Definition get3 : list mlab := ML (GCall 2 0 (CRma XDefault OHeap KGet 3 1 false)) :: mgo 2 3.
Definition mm (x : outcome (mst * list (Z * oev))) (p a : Z) : Z := match x with Ok (s, _) => m_mem s p a | _ => -1 end.
Definition mr (x : outcome (mst * list (Z * oev))) (p id : Z) (j : nat) : Z := match x with Ok (s, _) => m_res s p id j | _ => -1 end.
Definition ml (x : outcome (mst * list (Z * oev))) : list (Z * oev) := match x with Ok (_, l) => l | _ => [] end.

Lemma dW_only log : only_writer dW log 1 100 0 1 /\ only_writer dW log 1 101 0 1 /\ only_writer dW log 1 200 0 2.
Proof.
  assert (H : forall q i a v, writes (dW q i) 1 a v -> q = 0 /\ ((i = 1 /\ (a = 100 \/ a = 101)) \/ (i = 2 /\ a = 200))).
  { intros q i a v (b & bs & j & E & -> & EN). unfold dW in E.
    destruct ((q =? 0) && (i =? 1)) eqn:E1.
    { injection E as <- <-. split; [lia|]. left. split; [lia|]. destruct j as [|[|j]]; [lia|lia|destruct j; discriminate]. }
    destruct ((q =? 0) && (i =? 2)) eqn:E2.
    { injection E as <- <-. split; [lia|]. right. split; [lia|]. destruct j as [|[|j]]; [lia|discriminate|discriminate]. }
    destruct ((q =? 2) && (i =? 3)); discriminate. }
  repeat split; destruct (H _ _ _ _ H1) as [F1 F2]; try exact F1; lia.
Qed.
Lemma single_all ls : forallb (fun lb => match lb with ML (GCall _ i _) | ML (GGo _ i) => i =? 0 | _ => true end) ls = true -> single ls.
Proof.
  intros H lb HI. rewrite forallb_forall in H. specialize (H lb HI). destruct lb as [[]|]; auto; lia.
Qed.

(** With the fence the data are there with the flag, without it they need not be. *)
Example C80_nonvacuous : single ex_msg /\
  ml (mrun (d_cfg true) dW (m_init zero2) ex_msg) =
    [(0, EStart 0 (CRma XDefault OHeap KPut 1 1 false)); (0, ERet 0 (CRma XDefault OHeap KPut 1 1 false));
     (0, EStart 0 (CFence XDefault)); (0, EDone 1); (0, ERet 0 (CFence XDefault));
     (0, EStart 0 (CRma XDefault OHeap KPut 2 1 false)); (0, ERet 0 (CRma XDefault OHeap KPut 2 1 false))] /\
  fenced 3 (plog 0 (ml (mrun (d_cfg true) dW (m_init zero2) ex_msg))) 1 2 /\
  map (mm (mrun (d_cfg true) dW (m_init zero2) ex_msg) 1) [100; 101; 200] = [7; 8; 1] /\
  map (mm (mrun (d_cfg true) dW (m_init zero2) ex_nofence) 1) [100; 101; 200] = [0; 0; 1] /\
  map (mr (mrun (d_cfg true) dW (m_init zero2) (ex_msg ++ get3)) 2 3) [0; 1]%nat = [7; 8].
Proof.
  split; [apply single_all; vmr|].
  assert (L : ml (mrun (d_cfg true) dW (m_init zero2) ex_msg) =
    [(0, EStart 0 (CRma XDefault OHeap KPut 1 1 false)); (0, ERet 0 (CRma XDefault OHeap KPut 1 1 false));
     (0, EStart 0 (CFence XDefault)); (0, EDone 1); (0, ERet 0 (CFence XDefault));
     (0, EStart 0 (CRma XDefault OHeap KPut 2 1 false)); (0, ERet 0 (CRma XDefault OHeap KPut 2 1 false))]) by (vm_compute; reflexivity).
  split; [exact L|]. split; [|vm_compute; repeat split; reflexivity].
  rewrite L. simpl. intros u v i x o k t dev E.
  do 5 (destruct u as [|? u]; [discriminate|injection E as <- E]).
  exists [EStart 0 (CRma XDefault OHeap KPut 1 1 false); ERet 0 (CRma XDefault OHeap KPut 1 1 false)], [EDone 1], u, (CFence XDefault).
  split; [reflexivity|]. split; [right; reflexivity|]. split; [intros c' [F|[]]; discriminate|].
  exists 0, XDefault, OHeap, KPut, 1, false. split; [right; left; reflexivity|lia].
Qed.
Example C80_applies : forall A v, (A, v) = (100, 7) \/ (A, v) = (101, 8) ->
  writes (dW 0 1) 1 A v /\ only_writer dW (ml (mrun (d_cfg true) dW (m_init zero2) ex_msg)) 1 A 0 1.
Proof.
  intros A v [E|E]; injection E as -> ->; split; try apply dW_only;
    [exists 100, [7; 8], 0%nat|exists 100, [7; 8], 1%nat]; auto.
Qed.

(** With several threads and operation tracking it is false: the fence of thread 0 may see the flag that thread 1 has
    reset after flushing the window earlier, and flush nothing. *)
Definition tgo (i : Z) (n : nat) : list mlab := repeat (ML (GGo 0 i)) n.
Definition ex_threads : list mlab :=
  ML (GCall 0 0 (CRma XDefault OHeap KPut 5 1 false)) :: tgo 0 3 ++
  ML (GCall 0 1 (CQuiet XDefault)) :: tgo 1 2 ++
  put1 ++ tgo 1 3 ++ ML (GCall 0 0 (CFence XDefault)) :: tgo 0 3 ++ put2 ++ [MLand 0 2 0].
Definition dW5 (q i : Z) : opd := if (q =? 0) && (i =? 5) then Wr 1 300 [9] else dW q i.
Theorem C80_threads_refuted : exists c W m0 ls s log,
  mrun c W (m_init m0) ls = Ok (s, log) /\
  (exists u v, log = u ++ (0, EStart 0 (CRma XDefault OHeap KPut 2 1 false)) :: v /\
     exists l1 l2 l3, u = l1 ++ (0, EStart 0 (CFence XDefault)) :: l2 ++ (0, ERet 0 (CFence XDefault)) :: l3 /\
       In (0, ERet 0 (CRma XDefault OHeap KPut 1 1 false)) l1) /\
  writes (W 0 1) 1 100 7 /\ only_writer W log 1 100 0 1 /\ only_writer W log 1 200 0 2 /\
  m_mem s 1 200 <> m0 1 200 /\ m_mem s 1 100 <> 7.
Proof.
  exists (d_cfg true), dW5, zero2, ex_threads.
  destruct (mrun (d_cfg true) dW5 (m_init zero2) ex_threads) as [[s log]| | |] eqn:E; [|vm_compute in E; discriminate..].
  exists s, log. split; [reflexivity|].
  assert (L : ml (mrun (d_cfg true) dW5 (m_init zero2) ex_threads) = log) by (rewrite E; reflexivity).
  assert (M : mm (mrun (d_cfg true) dW5 (m_init zero2) ex_threads) = m_mem s) by (rewrite E; reflexivity).
  split.
  { rewrite <- L.
    exists [(0, EStart 0 (CRma XDefault OHeap KPut 5 1 false)); (0, ERet 0 (CRma XDefault OHeap KPut 5 1 false));
      (0, EStart 1 (CQuiet XDefault)); (0, EDone 5);
      (0, EStart 0 (CRma XDefault OHeap KPut 1 1 false)); (0, ERet 0 (CRma XDefault OHeap KPut 1 1 false));
      (0, ERet 1 (CQuiet XDefault)); (0, EStart 0 (CFence XDefault)); (0, ERet 0 (CFence XDefault))],
      [(0, ERet 0 (CRma XDefault OHeap KPut 2 1 false))].
    split; [vm_compute; reflexivity|].
    exists [(0, EStart 0 (CRma XDefault OHeap KPut 5 1 false)); (0, ERet 0 (CRma XDefault OHeap KPut 5 1 false));
      (0, EStart 1 (CQuiet XDefault)); (0, EDone 5);
      (0, EStart 0 (CRma XDefault OHeap KPut 1 1 false)); (0, ERet 0 (CRma XDefault OHeap KPut 1 1 false));
      (0, ERet 1 (CQuiet XDefault))], [], [].
    split; [reflexivity|]. simpl. tauto. }
  split; [exists 100, [7; 8], 0%nat; auto|].
  assert (O : forall a i, only_writer dW log 1 a 0 i -> a <> 300 -> only_writer dW5 log 1 a 0 i).
  { intros a i O N q j v HI (b & bs & k & EW & -> & EN). unfold dW5 in EW. destruct ((q =? 0) && (j =? 5)).
    - injection EW as <- <-. destruct k as [|[|k]]; [exfalso; apply N; reflexivity|discriminate|discriminate].
    - apply (O q j v HI). exists b, bs, k. auto. }
  split; [apply O; [apply dW_only|lia]|]. split; [apply O; [apply dW_only|lia]|].
  rewrite <- M. split; vm_compute; discriminate.
Qed.
Print Assumptions C80_threads_refuted.

(** ** C81 Data, then a barrier *)

(** When a barrier has returned on some PE, what its members wrote before the barrier is in memory from then on. *)
Theorem C81_barrier_data : forall c W m0 ls s log b p q l1 l2 x t A v, single ls -> mrun c W (m_init m0) ls = Ok (s, log) ->
  log = l1 ++ (p, ERet 0 (CBarrier b)) :: l2 -> before_barrier c b p l1 q x ->
  writes (W q x) t A v -> only_writer W log t A q x -> m_mem s t A = v.
Proof.
  intros c W m0 ls s log b p q l1 l2 x t A v SG E EL (HQ & a & r & E1 & ES & o & k & t' & dev & H1 & H2 & H3) HW OW.
  exact (barrier_data c W m0 ls s log b p q l1 a r t x o k t' dev v A l2 SG E EL HQ E1 ES H1 H2 H3 HW OW).
Qed.
Print Assumptions C81_barrier_data.

(** And a blocking get that starts after the barrier has returned, on this or any other PE, returns it. *)
Theorem C81_get_after_barrier : forall c W m0 ls s log b p q l1 l2 l3 x v p' i x' o' k' g t t' dev' B n j, single ls ->
  mrun c W (m_init m0) ls = Ok (s, log) ->
  log = l1 ++ (p, ERet 0 (CBarrier b)) :: l2 ++ (p', EStart i (CRma x' o' k' g t' dev')) :: l3 -> before_barrier c b p l1 q x ->
  ~ issued (l1 ++ (p, ERet 0 (CBarrier b)) :: l2) p' g -> blocking k' -> (exists i', In (p', ERet i' (CRma x' o' k' g t' dev')) log) ->
  W p' g = Rd t B n -> (j < n)%nat -> writes (W q x) t (B + Z.of_nat j) v -> only_writer W log t (B + Z.of_nat j) q x ->
  m_res s p' g j = v.
Proof.
  intros c W m0 ls s log b p q l1 l2 l3 x v p' i x' o' k' g t t' dev' B n j SG E EL
    (HQ & a & r & E1 & ES & o & k & t0 & dev & H1 & H2 & H3) HI Bk HR EW HJ HW OW.
  exact (barrier_get c W m0 ls s log b p q l1 a r j x o k t t0 dev v l2 p' i x' o' k' g t' dev' l3 B n
    SG E EL HQ E1 ES H1 H2 H3 HI Bk HR EW HJ HW OW).
Qed.
Print Assumptions C81_get_after_barrier.

Definition ex_w : bset := mkBset 0 0 3.
Definition bar (p : Z) : list mlab := ML (GCall p 0 (CBarrier ex_w)) :: mgo p 3.
Definition ex_data : list mlab := put1 ++ bar 1 ++ bar 2 ++ bar 0 ++ mgo 2 3 ++ get3.
Example C81_nonvacuous : single ex_data /\
  (let l1 := [(0, EStart 0 (CRma XDefault OHeap KPut 1 1 false)); (0, ERet 0 (CRma XDefault OHeap KPut 1 1 false));
              (1, EStart 0 (CBarrier ex_w)); (2, EStart 0 (CBarrier ex_w)); (0, EStart 0 (CBarrier ex_w)); (0, EDone 1)] in
   ml (mrun (d_cfg true) dW (m_init zero2) ex_data) =
     l1 ++ (2, ERet 0 (CBarrier ex_w)) :: [] ++ (2, EStart 0 (CRma XDefault OHeap KGet 3 1 false)) ::
     [(2, EDone 3); (2, ERet 0 (CRma XDefault OHeap KGet 3 1 false))] /\
   before_barrier (d_cfg true) ex_w 2 l1 0 1 /\ ~ issued (l1 ++ [(2, ERet 0 (CBarrier ex_w))]) 2 3) /\
  map (mm (mrun (d_cfg true) dW (m_init zero2) ex_data) 1) [100; 101] = [7; 8] /\
  map (mr (mrun (d_cfg true) dW (m_init zero2) ex_data) 2 3) [0; 1]%nat = [7; 8].
Proof.
  split; [apply single_all; vmr|]. cbv zeta. split; [|vm_compute; repeat split; reflexivity].
  split; [vm_compute; reflexivity|]. split.
  - split; [vm_compute; tauto|].
    exists [(0, EStart 0 (CRma XDefault OHeap KPut 1 1 false)); (0, ERet 0 (CRma XDefault OHeap KPut 1 1 false));
              (1, EStart 0 (CBarrier ex_w)); (2, EStart 0 (CBarrier ex_w))], [(0, EDone 1)].
    split; [reflexivity|]. split; [vmr|]. exists OHeap, KPut, 1, false. split; [simpl; tauto|]. split; [auto|right; reflexivity].
  - intros (i & x & o & k & t & dev & F). simpl in F. repeat (destruct F as [F|F]; [discriminate|]). destruct F.
Qed.
