(** C107, from the symmetric address of the call to the memory of the target. *)
From Verif Require Import Base AmModel AmoModel AmoSpec SobjModel SobjSpec SobjFinal PktRmaSpec PktSymModel PktSymProofs.
From Verif Require PktModel PktSpec.

(** After any history of valid calls: an atomic over active messages on the address [dest], [d] bytes into a symmetric object, is done
    on PE [t] at [d] bytes into that PE's copy of the same object, whatever the receive buffer held; the rest of the memory of [t] does
    not change and the old value is the answer. *)
Theorem C107_symmetric_atomic dyn checks page env_size dsize lay mem ops s w p t c dest o d b g buf pt fadd feq ty x :
  reached dyn checks page env_size dsize lay mem ops s w -> in_pes s p -> in_pes s t -> sbase s t o = Some b -> PktSpec.ok_tag g ->
  get_pe w t = Ok pt -> sym_addr s p c dest o d (Z.of_nat (ct_width ty)) -> byte_mem (pe_mem pt) -> In ty (api_types x) -> amo_args_ok ty x ->
  match sym_amo fadd feq checks w p c dest t g buf ty x with
  | Ok (m', rep) => amo_step_ok ty (b + d) x (pe_mem pt) m' rep /\ byte_mem m'
  | UB => ~ in_type ty (amo_new ty x (var ty (pe_mem pt) (b + d)))
  | _ => False
  end.
Proof. intros HR Hp Ht Hb Hg Et. exact (amo_effect _ _ _ _ _ _ _ _ _ _ HR p t c dest o d b g buf pt Hp Ht Hb Hg Et fadd feq ty x). Qed.
Print Assumptions C107_symmetric_atomic.

(** Contiguous puts and gets, below 2 GiB (C107_large_refuted). *)
Theorem C107_symmetric_put_partial dyn checks page env_size dsize lay mem ops s w p t c dest o d b g buf pp pt ty n src :
  reached dyn checks page env_size dsize lay mem ops s w -> in_pes s p -> in_pes s t -> sbase s t o = Some b -> PktSpec.ok_tag g ->
  get_pe w p = Ok pp -> get_pe w t = Ok pt ->
  ((0 < n)%nat -> sym_addr s p c dest o d (Z.of_nat (width ty))) -> Z.of_nat (width ty) * Z.of_nat n < 2 ^ 31 ->
  exists m', sym_put checks w p c dest t g buf ty n src = Ok m' /\ copied (width ty) n (pe_mem pp) src 1 (pe_mem pt) m' (b + d) 1.
Proof. intros HR Hp Ht Hb Hg Ep Et. exact (put_sym _ _ _ _ _ _ _ _ _ _ HR p t c dest o d b g buf pp pt Hp Ht Hb Hg Ep Et ty n src). Qed.
Print Assumptions C107_symmetric_put_partial.

Theorem C107_symmetric_get_partial dyn checks page env_size dsize lay mem ops s w p t c dest o d b g buf pp pt ty n dst :
  reached dyn checks page env_size dsize lay mem ops s w -> in_pes s p -> in_pes s t -> sbase s t o = Some b -> PktSpec.ok_tag g ->
  get_pe w p = Ok pp -> get_pe w t = Ok pt ->
  ((0 < n)%nat -> sym_addr s p c dest o d (Z.of_nat (width ty))) -> Z.of_nat (width ty) * Z.of_nat n < 2 ^ 31 ->
  exists m', sym_get checks w p c dest t g buf ty n dst = Ok m' /\ copied (width ty) n (pe_mem pt) (b + d) 1 (pe_mem pp) m' dst 1.
Proof. intros HR Hp Ht Hb Hg Ep Et. exact (get_sym _ _ _ _ _ _ _ _ _ _ HR p t c dest o d b g buf pp pt Hp Ht Hb Hg Ep Et ty n dst). Qed.
Print Assumptions C107_symmetric_get_partial.

(** Strided ones of any number of elements. *)
Theorem C107_symmetric_iput dyn checks page env_size dsize lay mem ops s w p t c dest o d b g buf pp pt ty n src ost tst :
  reached dyn checks page env_size dsize lay mem ops s w -> in_pes s p -> in_pes s t -> sbase s t o = Some b -> PktSpec.ok_tag g ->
  get_pe w p = Ok pp -> get_pe w t = Ok pt ->
  ((0 < n)%nat -> sym_addr s p c dest o d (Z.of_nat (width ty))) -> Z.of_nat n < 2 ^ 64 -> 1 <= tst < 2 ^ 63 ->
  exists m', sym_iput checks w p c dest t g buf ty n src ost tst = Ok m' /\ copied (width ty) n (pe_mem pp) src ost (pe_mem pt) m' (b + d) tst.
Proof. intros HR Hp Ht Hb Hg Ep Et. exact (iput_sym _ _ _ _ _ _ _ _ _ _ HR p t c dest o d b g buf pp pt Hp Ht Hb Hg Ep Et ty n src ost tst). Qed.
Print Assumptions C107_symmetric_iput.

Theorem C107_symmetric_iget dyn checks page env_size dsize lay mem ops s w p t c dest o d b g buf pp pt ty n dst ost tst :
  reached dyn checks page env_size dsize lay mem ops s w -> in_pes s p -> in_pes s t -> sbase s t o = Some b -> PktSpec.ok_tag g ->
  get_pe w p = Ok pp -> get_pe w t = Ok pt ->
  ((0 < n)%nat -> sym_addr s p c dest o d (Z.of_nat (width ty))) -> Z.of_nat n < 2 ^ 64 -> - 2 ^ 63 <= tst < 2 ^ 63 -> 1 <= ost ->
  exists m', sym_iget checks w p c dest t g buf ty n dst ost tst = Ok m' /\ copied (width ty) n (pe_mem pt) (b + d) tst (pe_mem pp) m' dst ost.
Proof. intros HR Hp Ht Hb Hg Ep Et. exact (iget_sym _ _ _ _ _ _ _ _ _ _ HR p t c dest o d b g buf pp pt Hp Ht Hb Hg Ep Et ty n dst ost tst). Qed.
Print Assumptions C107_symmetric_iget.

(** Two PEs whose heaps, data and copies of space 7 have different addresses. PE 0 adds 6 to an int 16 bytes into its copy of the space,
    at PE 1, then puts two shorts there. *)
Definition sx_lay : list (Z * Z) := [(100000, 500000); (200000, 600000)].
Definition sx_mem : Z -> Z -> Z := fun p a => if p =? 0 then 3 else if a =? 900016 then 250 else 0.
Definition sx_ops : list wop := [WCreate 0 7 300000 4096 1; WCreate 1 7 900000 4096 1; WAttach 7].
Lemma sx_srun : exists s, srun (s_init 4096 8192 64 sx_lay sx_mem) sx_ops s /\ in_pes s 0 /\ in_pes s 1 /\
  sbase s 1 (OSpace 7) = Some 900000 /\ sym_addr s 0 CtxDefault 300016 (OSpace 7) 16 4 /\
  forall a, s_mem s 1 a = sx_mem 1 a.
Proof.
  eexists. split.
  - eapply SCons.
    { apply SCreate; try (unfold in_pes; simpl; lia); [reflexivity|].
      unfold regions. simpl. change (heap_true_size 8192 4096) with 12288. repeat constructor; unfold disj; simpl; lia. }
    eapply SCons.
    { apply SCreate; try (unfold in_pes; simpl; lia); [reflexivity|].
      unfold regions. simpl. change (heap_true_size 8192 4096) with 12288. repeat constructor; unfold disj; simpl; lia. }
    eapply SCons; [|apply SNil].
    apply (SAttach _ 7 4096 1); [simpl; tauto|simpl; lia|].
    intros p Hp. unfold in_pes in Hp. simpl in Hp. assert (p = 0 \/ p = 1) as [->| ->] by lia; eexists; reflexivity.
  - split; [unfold in_pes; simpl; lia|]. split; [unfold in_pes; simpl; lia|]. split; [reflexivity|].
    split; [|reflexivity].
    split; [left; reflexivity|]. split; [exact I|]. split; [lia|]. exists 300000, 4096. repeat split; try reflexivity; lia.
Qed.
Example C107_symmetric_nonvacuous : exists s w pp pt, get_pe w 0 = Ok pp /\ get_pe w 1 = Ok pt /\ byte_mem (pe_mem pt) /\
  reached true true 4096 8192 64 sx_lay sx_mem sx_ops s w /\ in_pes s 0 /\ in_pes s 1 /\ sbase s 1 (OSpace 7) = Some 900000 /\
  sym_addr s 0 CtxDefault 300016 (OSpace 7) 16 4.
Proof.
  destruct sx_srun as (s & R & H0 & H1 & Hb & Ha & Hm). assert (C : config_ok 4096 8192 64 sx_lay).
  { split; [discriminate|]. split; [exists 12; lia|]. split; [lia|]. split; [lia|].
    assert (E : heap_true_size 8192 4096 = 12288) by reflexivity. rewrite E. repeat constructor; simpl; unfold disj; simpl; lia. }
  destruct (history_refines true true _ _ _ _ _ _ s C R) as (w & Hw & _ & M).
  destruct (pe_of _ _ _ _ _ _ _ _ _ _ 0 Hw H0) as (pp & E0). destruct (pe_of _ _ _ _ _ _ _ _ _ _ 1 Hw H1) as (pt & E1).
  exists s, w, pp, pt. split; [exact E0|]. split; [exact E1|]. split; [|auto].
  intros a. unfold get_pe in E1. destruct (aget (w_pes w) 1) as [q|] eqn:Q; [|discriminate]. injection E1 as <-.
  rewrite (M 1 q a Q), Hm. unfold sx_mem, byte. cbn. destruct (a =? 900016); lia.
Qed.
Example C107_symmetric_run :
  match (do w0 <- w_init true 8192 4096 64 sx_lay sx_mem; wrun true w0 sx_ops) with
  | Ok w =>
      match sym_amo (fun _ a _ => a) (fun _ _ _ => false) true w 0 CtxDefault 300016 1 2003 (PktModel.issue PktModel.RTerminate) CInt (AFadd 6) with
      | Ok (m, rep) => map m [900015; 900016; 900017; 900018] = [0; 0; 1; 0] /\ rep = [250; 0; 0; 0]
      | _ => False
      end /\
      match sym_put true w 0 CtxDefault 300016 1 2003 PktModel.undef PktModel.I_SHORT 2 100000 with
      | Ok m => map m [900015; 900016; 900019; 900020; 300016] = [0; 3; 3; 0; 0]
      | _ => False
      end
  | _ => False
  end.
Proof. vm_compute. repeat split. Qed.
