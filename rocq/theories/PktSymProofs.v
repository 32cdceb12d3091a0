From Verif Require Import Base BaseProofs AmModel AmoModel AmoSpec AmoProofs SobjModel SobjSpec SobjProofs SobjRel SobjSim SobjFinal
  DirModel DirSpec PktAmoModel PktAmoSpec PktAmoProofs PktRmaModel PktRmaSpec PktRmaProofs PktSymModel.
From Verif Require PktModel PktSpec PktProofs2.

Lemma size_bound s p o z : SInv s -> in_pes s p -> ssize s p o = Some z -> z <= 2 ^ 62.
Proof.
  intros HI Hp E. pose proof (si_pos s HI p Hp) as F. rewrite Forall_forall in F. pose proof (si_hs s HI) as H.
  destruct o as [| |name]; cbn in E.
  - injection E as <-. assert (I : In (s_heap s p, s_htrue s) (regions s p)) by (unfold regions; left; reflexivity).
    specialize (F _ I). cbn in F. lia.
  - injection E as <-. assert (I : In (s_data s p, s_dsize s) (regions s p)) by (unfold regions; right; left; reflexivity).
    specialize (F _ I). cbn in F. lia.
  - destruct (slookup s p name) as [x|] eqn:L; [|discriminate]. injection E as <-. apply slookup_in in L.
    specialize (F _ (region_in s p x (proj1 L))). cbn in F. lia.
Qed.

(** The origin's handle and displacement denote, on the target, the same place of the same object. *)
Lemma place_ok dyn checks page env_size dsize lay mem ops s w p c dest o d len t b :
  reached dyn checks page env_size dsize lay mem ops s w -> in_pes s p -> in_pes s t ->
  sym_addr s p c dest o d len -> 0 < len -> sbase s t o = Some b ->
  exists h pt, place checks w p c dest t = Ok (h, d) /\ PktSpec.ok_place h d /\ get_pe w t = Ok pt /\ am_target checks pt h d = Ok (b + d).
Proof.
  intros HR Hp Ht HS Hpos Hb. destruct (reached_rel _ _ _ _ _ _ _ _ _ _ HR) as [(Hw & Hlen & lo & hw & dw & HP & HM) HI].
  destruct (HP p Hp) as (mp & Ep & _). destruct (HP t Ht) as (mt & Et & _).
  destruct (query_resolves dyn s lo hw dw (w_mpi w) checks p c dest o d len mp HI HM Hp HS Hpos)
    as (x & bf & size & idx & Eq & Hres & Ha & Hd & Hl).
  destruct (am_resolved dyn s lo hw dw w checks p t o x bf size idx d mt HI Hp Ht Hw Hres Hd) as (E1 & E2).
  destruct Hres as (Hx & Hi & Hbb & Hsz & _). destruct (Hbb t Ht) as [Eb _].
  exists (a_handle (fst x)). eexists. split; [|split; [|split]].
  - unfold place. rewrite (get_pe_rel _ _ _ _ _ _ _ _ Ep). cbn [bind]. rewrite Eq. cbn [bind]. subst dest. rewrite E1. reflexivity.
  - split.
    + rewrite Hx. unfold xattr, set_handle, wrap32. cbn [a_handle]. apply Z.mod_pos_bound. lia.
    + pose proof (size_bound s p o size HI Hp Hsz). lia.
  - exact (get_pe_rel _ _ _ _ _ _ _ _ Et).
  - rewrite E2. f_equal. congruence.
Qed.
Lemma pe_of dyn checks page env_size dsize lay mem ops s w p :
  reached dyn checks page env_size dsize lay mem ops s w -> in_pes s p -> exists q, get_pe w p = Ok q.
Proof.
  intros HR Hp. destruct (reached_rel _ _ _ _ _ _ _ _ _ _ HR) as [(Hw & Hlen & lo & hw & dw & HP & HM) HI].
  destruct (HP p Hp) as (mp & Ep & _). eexists. exact (get_pe_rel _ _ _ _ _ _ _ _ Ep).
Qed.
Lemma read_wire c x h d g : place_read (PktSpec.meant (wire c x h d g)) = Some (h, d) \/ PktSpec.meant (wire c x h d g) = PktModel.AAbort.
Proof.
  destruct x; cbn [wire PktSpec.meant]; destruct (atomic_of c) as (k & -> & _);
    try (destruct (PktSpec.floating (tix_of c) && _)); cbn; auto.
Qed.

Section S.
Variables (dyn checks : bool) (page env_size dsize : Z) (lay : list (Z * Z)) (mem : Z -> Z -> Z) (ops : list wop) (s : sst) (w : world).
Hypothesis HR : reached dyn checks page env_size dsize lay mem ops s w.
Variables (p t : Z) (c : ctxarg) (dest : Z) (o : obj) (d b g : Z) (buf : PktModel.mem) (pp pt : pe).
Hypothesis Hp : in_pes s p.
Hypothesis Ht : in_pes s t.
Hypothesis Hb : sbase s t o = Some b.
Hypothesis Hg : PktSpec.ok_tag g.
Hypothesis Ep : get_pe w p = Ok pp.
Hypothesis Et : get_pe w t = Ok pt.

Lemma amo_effect fadd feq ty x : sym_addr s p c dest o d (Z.of_nat (ct_width ty)) -> byte_mem (pe_mem pt) -> In ty (api_types x) ->
  amo_args_ok ty x ->
  match sym_amo fadd feq checks w p c dest t g buf ty x with
  | Ok (m', rep) => amo_step_ok ty (b + d) x (pe_mem pt) m' rep /\ byte_mem m'
  | UB => ~ in_type ty (amo_new ty x (var ty (pe_mem pt) (b + d)))
  | _ => False
  end.
Proof.
  intros HS M T A. assert (L : 0 < Z.of_nat (ct_width ty)) by (destruct ty; cbn; lia).
  destruct (place_ok _ _ _ _ _ _ _ _ _ _ p c dest o d _ t b HR Hp Ht HS L Hb) as (h & q & E1 & P & E2 & E3).
  rewrite Et in E2. injection E2 as <-. unfold sym_amo. rewrite E1. cbn [bind fst snd]. rewrite Et. cbn [bind].
  destruct (wire_ok ty x h d g P Hg) as (W & Sm). rewrite (PktProofs2.deliver _ buf W Sm).
  pose proof (meant_exec fadd feq (fun _ _ => b + d) ty x h d g (pe_mem pt) T) as X.
  pose proof (exec_api fadd feq ty (b + d) x (pe_mem pt) M T A) as Y.
  unfold located. destruct (read_wire ty x h d g) as [R|R].
  - rewrite R, E3. cbn [bind]. rewrite X. exact Y.
  - rewrite R in X. cbn in X. rewrite <- X in Y. contradiction.
Qed.

Lemma put_sym ty n src : ((0 < n)%nat -> sym_addr s p c dest o d (Z.of_nat (width ty))) -> Z.of_nat (width ty) * Z.of_nat n < 2 ^ 31 ->
  exists m', sym_put checks w p c dest t g buf ty n src = Ok m' /\ copied (width ty) n (pe_mem pp) src 1 (pe_mem pt) m' (b + d) 1.
Proof.
  intros HS B. unfold sym_put. rewrite Ep, Et. cbn [bind]. destruct (Nat.eqb_spec n 0) as [->|N].
  - eexists. split; [reflexivity|]. split; [intros; lia|reflexivity].
  - assert (L : 0 < Z.of_nat (width ty)) by (destruct ty; reflexivity).
    destruct (place_ok _ _ _ _ _ _ _ _ _ _ p c dest o d _ t b HR Hp Ht (HS ltac:(lia)) L Hb) as (h & q & E1 & P & E2 & E3).
    rewrite Et in E2. injection E2 as <-. rewrite E1. cbn [bind fst snd].
    assert (B' : PktSpec.dsize (PktSpec.named ty) * Z.of_nat n < 2 ^ 31) by (unfold width in B; destruct ty; exact B).
    pose proof (dsize_pos (PktSpec.named ty)).
    rewrite through_ok; [|cbn; split; [lia|split; assumption]|cbn; lia]. unfold located. cbn [PktSpec.meant place_read].
    rewrite E3. cbn [bind]. exact (put_effect (fun _ _ => b + d) buf ty n h d g (pe_mem pp) (pe_mem pt) P Hg src B').
Qed.
Lemma get_sym ty n dst : ((0 < n)%nat -> sym_addr s p c dest o d (Z.of_nat (width ty))) -> Z.of_nat (width ty) * Z.of_nat n < 2 ^ 31 ->
  exists m', sym_get checks w p c dest t g buf ty n dst = Ok m' /\ copied (width ty) n (pe_mem pt) (b + d) 1 (pe_mem pp) m' dst 1.
Proof.
  intros HS B. unfold sym_get. rewrite Ep, Et. cbn [bind]. destruct (Nat.eqb_spec n 0) as [->|N].
  - eexists. split; [reflexivity|]. split; [intros; lia|reflexivity].
  - assert (L : 0 < Z.of_nat (width ty)) by (destruct ty; reflexivity).
    destruct (place_ok _ _ _ _ _ _ _ _ _ _ p c dest o d _ t b HR Hp Ht (HS ltac:(lia)) L Hb) as (h & q & E1 & P & E2 & E3).
    rewrite Et in E2. injection E2 as <-. rewrite E1. cbn [bind fst snd].
    assert (B' : PktSpec.dsize (PktSpec.named ty) * Z.of_nat n < 2 ^ 31) by (unfold width in B; destruct ty; exact B).
    pose proof (dsize_pos (PktSpec.named ty)).
    rewrite through_ok; [|cbn; split; [lia|split; assumption]|cbn; lia]. unfold located. cbn [PktSpec.meant place_read].
    rewrite E3. cbn [bind]. exact (get_effect (fun _ _ => b + d) buf ty n h d g (pe_mem pp) (pe_mem pt) P Hg dst B').
Qed.
Lemma iput_sym ty n src ost tst : ((0 < n)%nat -> sym_addr s p c dest o d (Z.of_nat (width ty))) -> Z.of_nat n < 2 ^ 64 -> 1 <= tst < 2 ^ 63 ->
  exists m', sym_iput checks w p c dest t g buf ty n src ost tst = Ok m' /\ copied (width ty) n (pe_mem pp) src ost (pe_mem pt) m' (b + d) tst.
Proof.
  intros HS B S. unfold sym_iput. rewrite Ep, Et. cbn [bind]. destruct (Nat.eqb_spec n 0) as [->|N].
  - eexists. split; [reflexivity|]. split; [intros; lia|reflexivity].
  - assert (L : 0 < Z.of_nat (width ty)) by (destruct ty; reflexivity).
    destruct (place_ok _ _ _ _ _ _ _ _ _ _ p c dest o d _ t b HR Hp Ht (HS ltac:(lia)) L Hb) as (h & q & E1 & P & E2 & E3).
    rewrite Et in E2. injection E2 as <-. rewrite E1. cbn [bind fst snd].
    rewrite through_ok; [|cbn; split; [split; lia|split; assumption]|exact I]. unfold located. cbn [PktSpec.meant place_read].
    rewrite E3. cbn [bind]. exact (iput_effect (fun _ _ => b + d) buf ty n h d g (pe_mem pp) (pe_mem pt) P Hg src ost tst B S).
Qed.
Lemma iget_sym ty n dst ost tst : ((0 < n)%nat -> sym_addr s p c dest o d (Z.of_nat (width ty))) -> Z.of_nat n < 2 ^ 64 ->
  - 2 ^ 63 <= tst < 2 ^ 63 -> 1 <= ost ->
  exists m', sym_iget checks w p c dest t g buf ty n dst ost tst = Ok m' /\ copied (width ty) n (pe_mem pt) (b + d) tst (pe_mem pp) m' dst ost.
Proof.
  intros HS B S O. unfold sym_iget. rewrite Ep, Et. cbn [bind]. destruct (Nat.eqb_spec n 0) as [->|N].
  - eexists. split; [reflexivity|]. split; [intros; lia|reflexivity].
  - assert (L : 0 < Z.of_nat (width ty)) by (destruct ty; reflexivity).
    destruct (place_ok _ _ _ _ _ _ _ _ _ _ p c dest o d _ t b HR Hp Ht (HS ltac:(lia)) L Hb) as (h & q & E1 & P & E2 & E3).
    rewrite Et in E2. injection E2 as <-. rewrite E1. cbn [bind fst snd].
    rewrite through_ok; [|cbn; split; [split; lia|split; assumption]|exact I]. unfold located. cbn [PktSpec.meant place_read].
    rewrite E3. cbn [bind]. exact (iget_effect (fun _ _ => b + d) buf ty n h d g (pe_mem pp) (pe_mem pt) P Hg dst ost tst B S O).
Qed.
End S.
