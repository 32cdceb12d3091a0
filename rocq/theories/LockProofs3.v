From Verif Require Import Base BaseProofs ListLib SobjModel SobjSpec SobjProofs SobjRel SobjSim SobjFinal
  LockModel LockProofs LockProofs2.

(** ** Addresses of the lock words *)

Lemma lock_addrs dyn checks page env_size dsize lay mem ops s w p t lockp o d b0 bt :
  reached dyn checks page env_size dsize lay mem ops s w -> in_pes s p -> in_pes s t -> in_pes s 0 ->
  sym_addr s p CtxDefault lockp o d 8 -> sbase s 0 o = Some b0 -> sbase s t o = Some bt ->
  dyn = false \/ bt = b0 ->
  lock_last_addr checks w p lockp = Ok (b0 + d) /\
  lock_next_addr checks w p lockp t = Ok (bt + d + 4).
Proof.
  intros HR Hp Ht H0 HS Hb0 Hbt Hsym.
  destruct (reached_rel _ _ _ _ _ _ _ _ _ _ HR) as [R I].
  destruct R as (Hw & Hlen & lo & hw & dw & HP & HM).
  destruct (HP p Hp) as (mp & Ep & Hmp).
  unfold lock_last_addr, lock_next_addr. rewrite (get_pe_rel _ _ _ _ _ _ _ _ Ep). cbn [bind].
  destruct (query_resolves dyn s lo hw dw (w_mpi w) checks p CtxDefault lockp o d 8 mp I HM Hp HS ltac:(lia))
    as (x & bf & size & idx & Eq & Hres & Ha & Hd & Hl).
  rewrite Eq. cbn [bind]. subst lockp.
  assert (E0 : bf 0 = b0 /\ bf t = bt).
  { destruct Hres as (_ & _ & Hbb & _). destruct (Hbb 0 H0), (Hbb t Ht). split; congruence. }
  destruct E0 as [E0 Et].
  destruct (direct_resolved dyn s w checks p 0 o x bf size idx d 4 I Hp H0 Hw Hres Hd ltac:(lia)) as (d0 & D0 & M0 & _).
  destruct (direct_resolved dyn s w checks p t o x bf size idx d 4 I Hp Ht Hw Hres Hd ltac:(lia)) as (dt & Dt & _ & Mt).
  rewrite D0. cbn [bind]. split; [rewrite <- E0; exact M0|].
  assert (Ed : d0 = dt).
  { destruct Hsym as [Hsym|Hsym].
    - unfold direct_disp, vaddr_to_disp in D0, Dt. rewrite Hw, Hsym in D0, Dt. congruence.
    - destruct Hres as (Hx & Hi & _ & _ & _ & HW). destruct x as [a c]. cbn [fst] in Hx. subst a.
      pose proof (np_pos s p I Hp) as Np. pose proof (np_pos s 0 I H0) as N0. pose proof (np_pos s t I Ht) as Nt.
      destruct HW as [(Hdyn & Hc & _)|(k & z & Hc & _)]; cbn [snd] in Hc; subst c; unfold direct_disp, ictx_mode in *;
        rewrite Hw in D0, Dt; cbn [fst snd ic_mode] in D0, Dt.
      + rewrite Hdyn in D0, Dt. unfold dynictx in D0, Dt. cbn [ic_mode] in D0, Dt.
        rewrite abs_disp_ok in D0 by (try apply okind_rng; assumption).
        rewrite abs_disp_ok in Dt by (try apply okind_rng; assumption). cbn [bind] in D0, Dt.
        unfold c_assert in D0, Dt.
        replace (bf t + d) with (bf 0 + d) in Dt by lia. congruence.
      + rewrite rel_disp_ok in D0 by (destruct dyn; auto). rewrite rel_disp_ok in Dt by (destruct dyn; auto). congruence. }
  rewrite Ed, (Mt 4 4) by lia. rewrite Et. reflexivity.
Qed.

(** ** Updates inside a critical section *)

(** Histories of a program that writes the location only while holding the lock and calls
    shmem_quiet before releasing it. *)
Inductive disciplined (n : Z) : lmem -> list mop -> Prop :=
| di_nil s : disciplined n s []
| di_lock s l r :
    (snd l = OpClear -> lm_pend s = []) ->
    disciplined n (fst (lmstep n s (MLock l))) r -> disciplined n s (MLock l :: r)
| di_put s v r :
    (exists p, lk_pc (lm_lock s) p = Held) ->
    disciplined n (fst (lmstep n s (MPut v))) r -> disciplined n s (MPut v :: r)
| di_deliver s r : disciplined n (fst (lmstep n s MDeliver)) r -> disciplined n s (MDeliver :: r)
| di_quiet s r : disciplined n (fst (lmstep n s MQuiet)) r -> disciplined n s (MQuiet :: r).

(** The value last written by the program. *)
Fixpoint last_put (v : Z) (os : list mop) : Z :=
  match os with [] => v | MPut u :: r => last_put u r | _ :: r => last_put v r end.

Lemma last_last (l : list Z) v d : last (l ++ [v]) d = v.
Proof. apply last_cons_app. Qed.

Lemma held_stays n s q l s' ev p : linv n s q -> n <= INT_MAX -> lstep_n n s l = (s', ev) ->
  lk_pc s p = Held -> (snd l = OpClear -> False) -> lk_pc s' p = Held.
Proof.
  intros I Hn E P NC. unfold lstep_n in E. destruct (_ && _); [|injection E as <- <-; exact P].
  destruct l as [x o]. cbn [fst snd] in *. unfold lstep in E.
  destruct (Z.eq_dec x p) as [->|Hne].
  - rewrite P in E. destruct o; try (injection E as <- <-; exact P).
    + destruct (lk_last s =? 0); injection E as <- <-; exact P.
    + exfalso. apply NC. reflexivity.
  - destruct (lk_pc s x), o; try (injection E as <- <-; simpl; rewrite ?fset_ne by congruence; exact P);
      repeat match type of E with (if ?b then _ else _) = _ => destruct b end;
      injection E as <- <-; simpl; rewrite ?fset_ne by congruence; exact P.
Qed.

(** While puts are pending somebody holds the lock, and the last pending put (or the memory) is
    the last value written. *)
Lemma disciplined_inv n os : n <= INT_MAX -> forall s q v,
  linv n (lm_lock s) q -> disciplined n s os ->
  (lm_pend s <> [] -> exists p, lk_pc (lm_lock s) p = Held) -> last (lm_pend s) (lm_mem s) = v ->
  forall s' ev, lmrun n s os = (s', ev) ->
    (exists q', linv n (lm_lock s') q') /\
    (lm_pend s' <> [] -> exists p, lk_pc (lm_lock s') p = Held) /\
    last (lm_pend s') (lm_mem s') = last_put v os.
Proof.
  intros Hn. induction os as [|o r IH]; intros s q v I D HP HV s' ev E.
  - simpl in E. injection E as <- <-. simpl. split; [eauto|]. split; assumption.
  - cbn [lmrun] in E. destruct (lmstep n s o) as [s1 e1] eqn:E1. destruct (lmrun n s1 r) as [s2 e2] eqn:E2.
    injection E as <- <-.
    inversion D; subst.
    + cbn [last_put]. cbn [lmstep] in *. destruct (lstep_n n (lm_lock s) l) as [k e] eqn:El.
      injection E1 as <- <-. cbn [fst] in *.
      destruct (step_n_inv _ _ _ _ _ _ I Hn El) as (q1 & I1 & _).
      eapply (fun a b c d => IH _ q1 _ a b c d _ _ E2); [exact I1|eassumption| |reflexivity].
      cbn [lm_pend lm_lock]. intros Hne. destruct (HP Hne) as (p & P). exists p.
      apply (held_stays n (lm_lock s) q l k e p I Hn El P). intros C. apply Hne. auto.
    + cbn [last_put]. cbn [lmstep] in *. injection E1 as <- <-. cbn [fst] in *.
      eapply (fun a b c d => IH _ q _ a b c d _ _ E2); [exact I|eassumption| |].
      * cbn [lm_pend lm_lock]. intros _. assumption.
      * cbn [lm_pend lm_mem]. apply last_last.
    + cbn [last_put]. cbn [lmstep] in *. destruct (lm_pend s) as [|u l] eqn:EP.
      * injection E1 as <- <-. cbn [fst] in *. eapply (IH s q); [exact I|eassumption| | |exact E2].
        -- rewrite EP. contradiction.
        -- rewrite EP. reflexivity.
      * injection E1 as <- <-. cbn [fst] in *. eapply (fun a b c d => IH _ q _ a b c d _ _ E2); [exact I|eassumption| |].
        -- cbn [lm_pend lm_lock]. intros _. apply HP. discriminate.
        -- cbn [lm_pend lm_mem]. destruct l; [reflexivity|].
           clear. revert z. induction l as [|a l IH]; intros z; [reflexivity|]. apply IH.
    + cbn [last_put]. cbn [lmstep] in *. injection E1 as <- <-. cbn [fst] in *.
      eapply (fun a b c d => IH _ q _ a b c d _ _ E2); [exact I|eassumption| |].
      * cbn [lm_pend]. contradiction.
      * reflexivity.
Qed.

Lemma quiet_visible n v0 os s ev p s' :
  n <= INT_MAX -> disciplined n (lm_init v0) os -> lmrun n (lm_init v0) os = (s, ev) ->
  forall o ev', lmstep n s (MLock (p, o)) = (s', ev') -> In (EAcq p) ev' ->
  lm_mem s' = last_put v0 os /\ lm_pend s' = [].
Proof.
  intros Hn D E o ev' Es HA.
  destruct (disciplined_inv n os Hn (lm_init v0) [] v0 (linv_init n) D) with (s' := s) (ev := ev) as ((q & I) & HP & HV); auto.
  { simpl. intros []. reflexivity. }
  cbn [lmstep] in Es. destruct (lstep_n n (lm_lock s) (p, o)) as [k e] eqn:El. injection Es as <- <-.
  cbn [lm_pend lm_mem].
  assert (EP : lm_pend s = []).
  { destruct (lm_pend s) as [|u l] eqn:EP; [reflexivity|]. exfalso.
    destruct (HP ltac:(discriminate)) as (h & Ph).
    destruct (head_q _ _ _ h I) as (t & Eq); try congruence.
    destruct (step_evs _ _ _ _ _ _ I Hn El) as (q' & _ & V).
    subst q. unfold holder in V. rewrite Ph in V.
    revert HA V. unfold lstep_n in El. destruct (_ && _) in El; [|injection El as <- <-; intros []].
    cbn [fst snd] in El. unfold lstep in El.
    destruct (lk_pc (lm_lock s) p), o; try (injection El as <- <-; intros []);
      repeat match type of El with (if ?b then _ else _) = _ => destruct b end;
      injection El as <- <-; simpl; intros HA V; try discriminate;
      repeat match goal with H : _ \/ _ |- _ => destruct H end; try discriminate; contradiction. }
  split; [|exact EP]. rewrite EP in HV. simpl in HV. exact HV.
Qed.

(** ** The trace of calls *)

Lemma trace_exclusion n ls : n <= INT_MAX ->
  exists h, evs_ok None (snd (lrun n l_init ls)) = Some h /\
    forall p, h = Some p <-> lk_pc (fst (lrun n l_init ls)) p = Held.
Proof.
  intros Hn. destruct (run_evs n ls l_init [] Hn (linv_init n)) as (q & I & E).
  exists (holder (fst (lrun n l_init ls)) q). split; [exact E|]. intros p. split.
  - unfold holder. destruct q as [|h t]; [discriminate|].
    destruct (lk_pc (fst (lrun n l_init ls)) h) eqn:P; try discriminate. intros [= <-]. exact P.
  - intros P. destruct (head_q _ _ _ p I) as (t & ->); try congruence. unfold holder. rewrite P. reflexivity.
Qed.
