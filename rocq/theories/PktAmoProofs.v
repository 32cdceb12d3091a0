(** Atomics over active messages, from the call to the effect. *)
From Verif Require Import Base AmModel AmoModel AmoSpec AmoProofs DirModel DirSpec PktAmoModel PktAmoSpec.
From Verif Require PktModel PktSpec PktProofs PktProofs2.

Lemma enc_dec l : Forall byte l -> enc (length l) (dec l) = l.
Proof.
  induction l as [|x l IH]; intros H; [reflexivity|]. inversion H as [|? ? B F]; subst. cbn [enc dec length]. unfold byte in B.
  rewrite (Z.mul_comm 256), Z.mod_add, Z.div_add by lia. rewrite Z.mod_small, Z.div_small by lia. rewrite Z.add_0_l, IH by exact F. reflexivity.
Qed.
Lemma enc_bytes c v : enc (ct_width c) (bytes_of c v) = repr c v.
Proof. unfold bytes_of. rewrite <- (repr_length c v) at 1. apply enc_dec, repr_byte. Qed.
Lemma bytes_range c v : PktSpec.ok_value (Z.of_nat (ct_width c)) (bytes_of c v).
Proof.
  unfold PktSpec.ok_value, bytes_of. rewrite PktProofs.pow256 by lia. pose proof (dec_bound (repr c v) (repr_byte c v)) as B.
  rewrite repr_length in B. exact B.
Qed.
Lemma atomic_of c : exists k, PktSpec.atomic_type (tix_of c) = Some k /\ ctype_of k = c.
Proof. destruct c; eexists; split; reflexivity. Qed.
Lemma width_ok c : PktSpec.ok_type (tix_of c) (Z.of_nat (ct_width c)).
Proof. destruct c; split; cbn; lia. Qed.
Lemma wire_ok c x h d g : PktSpec.ok_place h d -> PktSpec.ok_tag g -> PktSpec.well_formed (wire c x h d g) /\ PktSpec.small (wire c x h d g).
Proof.
  intros P G. pose proof (width_ok c) as W. assert (Z0 : PktSpec.ok_value (Z.of_nat (ct_width c)) 0).
  { unfold PktSpec.ok_value. split; [lia|]. apply Z.pow_pos_nonneg; lia. }
  split; [|destruct x; exact I]. destruct x; cbn [wire PktSpec.well_formed]; repeat (split; [first [exact W|apply bytes_range|exact Z0|exact P]|]);
    first [exact P|exact G].
Qed.
Lemma float_of c : PktSpec.floating (tix_of c) = ct_fp c.
Proof. destruct c; reflexivity. Qed.
Lemma bitws_int c : In c bitws_types -> ct_fp c = false.
Proof. cbn. intros H. decompose [or] H; subst; try reflexivity; contradiction. Qed.

Section S.
Variable fadd : ctype -> list Z -> list Z -> list Z.
Variable feq : ctype -> list Z -> list Z -> bool.
Variable addr : Z -> Z -> Z.

(** What the callback computes is the request of AmoModel. *)
Lemma meant_exec c x h d g m : In c (api_types x) ->
  exec_action fadd feq addr (PktSpec.meant (wire c x h d g)) m = exec_pkt fadd feq (rq_args (api_req c (addr h d) x)) None m.
Proof.
  intros T. destruct (atomic_of c) as (k & A & K).
  assert (F : PktSpec.floating (tix_of c) = true -> match x with AFand _ | AAnd _ | AFor _ | AOr _ | AFxor _ | AXor _ => False | _ => True end).
  { rewrite float_of. intros E. destruct x; try exact I; cbn [api_types] in T; apply bitws_int in T; congruence. }
  destruct x; cbn [wire PktSpec.meant]; rewrite A; destruct (PktSpec.floating (tix_of c)); try (specialize (F eq_refl); contradiction F);
    cbn [andb PktSpec.bitwise PktSpec.operand exec_action mop_of api_req rq_args]; rewrite K, ?enc_bytes; reflexivity.
Qed.
Lemma call_exec c x h d g buf m : In c (api_types x) -> PktSpec.ok_place h d -> PktSpec.ok_tag g ->
  exec_action fadd feq addr (PktModel.handle_pkt (PktModel.receive buf (PktModel.issue (wire c x h d g)))) m =
  exec_pkt fadd feq (rq_args (api_req c (addr h d) x)) None m.
Proof.
  intros T P G. destruct (wire_ok c x h d g P G) as (W & S). rewrite (PktProofs2.deliver _ buf W S). apply meant_exec, T.
Qed.
Lemma serve_seq l : forall buf m m' log, byte_mem m -> Forall call_ok l -> serve_amos fadd feq addr buf m l = Ok (m', log) ->
  ops_seq m log m' /\ map fst log = map (asked addr) l.
Proof.
  induction l as [|[[[[c x] h] d] g] l IH]; intros buf m m' log M C E; cbn [serve_amos] in E.
  - injection E as <- <-. split; reflexivity.
  - inversion C as [|? ? K C']; subst. cbn in K. destruct K as (T & A & P & G). rewrite call_exec in E by assumption.
    pose proof (exec_api fadd feq c (addr h d) x m M T A) as X. 
    destruct (exec_pkt fadd feq (rq_args (api_req c (addr h d) x)) None m) as [[m1 rep]| | |]; cbn in E; try discriminate.
    destruct X as (X & M1). cbn [fst snd] in E.
    destruct (serve_amos fadd feq addr _ m1 l) as [[m2 lg]| | |] eqn:R; cbn in E; try discriminate. injection E as <- <-.
    destruct (IH _ _ _ _ M1 C' R) as (Q & N). split; [exists m1; split; assumption|]. cbn [map fst snd]. rewrite N. reflexivity.
Qed.
Lemma serve_no_abort l : forall buf m, byte_mem m -> Forall call_ok l ->
  serve_amos fadd feq addr buf m l <> Abort /\ serve_amos fadd feq addr buf m l <> NoFuel.
Proof.
  induction l as [|[[[[c x] h] d] g] l IH]; intros buf m M C; cbn [serve_amos]; [split; discriminate|].
  inversion C as [|? ? K C']; subst. cbn in K. destruct K as (T & A & P & G). rewrite call_exec by assumption.
  pose proof (exec_api fadd feq c (addr h d) x m M T A) as X.
  destruct (exec_pkt fadd feq (rq_args (api_req c (addr h d) x)) None m) as [[m1 rep]| | |]; cbn; try contradiction; [|split; discriminate].
  destruct X as (_ & M1). specialize (IH (PktModel.receive buf (PktModel.issue (wire c x h d g))) m1 M1 C'). destruct IH as (I1 & I2).
  destruct (serve_amos _ _ _ _ m1 l) as [[m2 lg]| | |]; cbn; try congruence; split; discriminate.
Qed.
End S.
