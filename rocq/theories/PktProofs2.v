(** Every request is delivered as meant. *)
From Verif Require Import Base PktModel PktSpec PktProofs.

Lemma dt_named t : dt_table (tix_num t) = Some (named t).
Proof. destruct t; vm_compute; reflexivity. Qed.
Lemma type_switch t : switch tix_num type_cases (tix_num t) = option_map (fun c => (c, floating t)) (atomic_type t).
Proof. destruct t; vm_compute; reflexivity. Qed.
Lemma op_switch (b : bool) op : switch oix_num (if b then fp_cases else int_cases) (oix_num op) = if b && bitwise op then None else Some op.
Proof. destruct b, op; reflexivity. Qed.
Lemma handle_of p c m : In (p, c) regists -> get_type m = Some (pk_num p) -> handle_pkt m = call_cb c m.
Proof.
  intros I E. unfold handle_pkt. rewrite E. cbn [bind]. cbn in I.
  decompose [or] I; try contradiction; match goal with H : (_, _) = (p, c) |- _ => injection H as <- <- end; reflexivity.
Qed.
Lemma tix_range t : 0 <= tix_num t < 2 ^ 32.
Proof. destruct t; cbn; lia. Qed.
Lemma oix_range t : 0 <= oix_num t < 2 ^ 32.
Proof. destruct t; cbn; lia. Qed.
Lemma csize_bytes t c : atomic_type t = Some c -> csize c = dsize (named t).
Proof. destruct t; cbn; intros E; try discriminate; injection E as <-; reflexivity. Qed.
Lemma csize_range c : 0 <= csize c <= 8.
Proof. destruct c; cbn; lia. Qed.

Lemma numbers :
  (forall a b, tix_num a = tix_num b -> a = b) /\ (forall a, 0 <= tix_num a < DATATYPE_MAX) /\
  (forall a b, oix_num a = oix_num b -> a = b) /\ (forall a, 0 <= oix_num a < OP_MAX) /\
  (forall a b, pk_num a = pk_num b -> a = b) /\ (forall a, 0 <= pk_num a < PKT_MAX).
Proof.
  split; [intros a b; destruct a, b; intros H; try reflexivity; vm_compute in H; discriminate|].
  split; [intros a; destruct a; vm_compute; split; congruence|].
  split; [intros a b; destruct a, b; intros H; try reflexivity; vm_compute in H; discriminate|].
  split; [intros a; destruct a; vm_compute; split; congruence|].
  split; [intros a b; destruct a, b; intros H; try reflexivity; vm_compute in H; discriminate|].
  intros a; destruct a; vm_compute; split; congruence.
Qed.

Definition mem_in (s : struct) : Prop := In s union_members.
Lemma in_cswap : mem_in cswap_s. Proof. cbn. auto. Qed.
Lemma in_fetch : mem_in fetch_s. Proof. cbn. auto. Qed.
Lemma in_get : mem_in get_s. Proof. cbn. auto 6. Qed.
Lemma in_iget : mem_in iget_s. Proof. cbn. auto 8. Qed.
Lemma in_flush : mem_in flush_s. Proof. cbn. auto 10. Qed.
Opaque put put_raw get get_raw get_type put_type receive Z.pow.

Ltac rng := unfold in_range; cbn [fsigned fsize]; rewrite ?Z.mul_1_r; try apply tix_range; try apply oix_range;
  repeat match goal with |- context [2 ^ ?e] => let v := eval vm_compute in (2 ^ e) in change (2 ^ e) with v end;
  repeat match goal with H : context [2 ^ ?e] |- _ => let v := eval vm_compute in (2 ^ e) in change (2 ^ e) with v in H end; lia.
Ltac step1 :=
  match goal with
  | |- context [get ?s ?f (receive _ _)] => rewrite (get_receive s f) by (apply in_cswap || apply in_fetch || apply in_get || apply in_iget || apply in_flush)
  | |- context [get_raw ?s ?f ?k (receive _ _)] =>
      erewrite (raw_receive s f k); [|apply in_cswap || apply in_fetch|reflexivity|cbn [fsize]; apply csize_range]
  | |- context [get ?s ?f (put ?s ?f ?v ?m)] => erewrite (get_put s f v m); [|reflexivity|rng]
  | |- context [get ?s ?g (put ?s ?f ?v ?m)] => rewrite (get_put_other s f g v m) by discriminate
  | |- context [get ?s ?g (put_raw ?s ?f ?n ?v ?m)] => erewrite (get_raw_other s f g n v m); [|discriminate|reflexivity|cbn [fsize]; lia]
  | |- context [get_raw ?s ?g ?k (put ?s ?f ?v ?m)] =>
      erewrite (raw_put_other s f g k v m); [|discriminate|reflexivity|cbn [fsize]; apply csize_range]
  | |- context [get_raw ?s ?f ?k (put_raw ?s ?f ?n ?v ?m)] => erewrite (raw_put s f n k v m); [|reflexivity|lia]
  | |- context [get_raw ?s ?g ?k (put_raw ?s ?f ?n ?v ?m)] =>
      erewrite (raw_raw_other s f g k n v m); [|discriminate|reflexivity|reflexivity|cbn [fsize]; apply csize_range|cbn [fsize]; lia]
  end.
Ltac steps := repeat (step1; cbn [bind]).
Ltac typed := rewrite type_receive; repeat (rewrite type_put || rewrite type_put_raw); apply type_type; vm_compute; split; congruence.

(** Also for large transfers: the count is the number of bytes made an int. *)
Definition done_for (r : req) : action :=
  match r with RPut b h disp g => APut h disp (to_int b) g | RGet b h disp g => AGet h disp (to_int b) g | _ => meant r end.
Lemma deliver_any r buf : well_formed r -> handle_pkt (receive buf (issue r)) = done_for r.
Proof.
  intros W. destruct r as [t b cond value h disp g|t b op value h disp g|t b op value h disp|b h disp g|b h disp g
    |t st n h disp g|t st n h disp g|g|]; cbn [well_formed] in W; cbn [issue done_for meant]; cbv zeta.
  - destruct W as ((B & B8) & C & V & (H & D) & G). unfold ok_value, ok_tag in *.
    rewrite (handle_of PCswap CbCswap); [|cbn; auto|typed]. cbn [call_cb]. unfold cswap_cb. steps.
    rewrite type_switch. destruct (atomic_type t) as [c|] eqn:A; cbn [option_map]; [|reflexivity].
    pose proof (csize_bytes t c A). pose proof (csize_range c). steps.
    rewrite dt_named. cbn [bind]. steps. rewrite !Z.mod_small by (replace (csize c) with b by lia; assumption). reflexivity.
  - destruct W as ((B & B8) & V & (H & D) & G). unfold ok_value, ok_tag in *.
    rewrite (handle_of PFetch CbFetch); [|cbn; auto| destruct (oix_beq op O_NO_OP); typed]. cbn [call_cb]. unfold fetch_cb.
    destruct (oix_beq op O_NO_OP) eqn:O.
    + steps. rewrite type_switch. destruct (atomic_type t) as [c|] eqn:A; cbn [option_map]; [|reflexivity]. steps.
      rewrite op_switch. destruct (floating t && bitwise op); [reflexivity|]. unfold with_operand. rewrite O. rewrite dt_named. cbn [bind].
      steps. apply internal_oix_dec_bl in O. subst op. reflexivity.
    + steps. rewrite type_switch. destruct (atomic_type t) as [c|] eqn:A; cbn [option_map]; [|reflexivity].
      pose proof (csize_bytes t c A). pose proof (csize_range c). steps.
      rewrite op_switch. destruct (floating t && bitwise op); [reflexivity|]. unfold with_operand. rewrite O. steps. rewrite dt_named. cbn [bind].
      steps. rewrite !Z.mod_small by (replace (csize c) with b by lia; assumption). destruct op; try discriminate; reflexivity.
  - destruct W as ((B & B8) & V & (H & D)). unfold ok_value in *.
    rewrite (handle_of PPost CbPost); [|cbn; auto 6|typed]. cbn [call_cb]. unfold post_cb. steps.
    rewrite type_switch. destruct (atomic_type t) as [c|] eqn:A; cbn [option_map]; [|reflexivity].
    pose proof (csize_bytes t c A). pose proof (csize_range c). steps.
    rewrite op_switch. destruct (floating t && bitwise op); [reflexivity|]. unfold with_operand.
    destruct (oix_beq op O_NO_OP) eqn:O.
    + apply internal_oix_dec_bl in O. subst op. reflexivity.
    + steps. rewrite !Z.mod_small by (replace (csize c) with b by lia; assumption). destruct op; try discriminate; reflexivity.
  - destruct W as (B & (H & D) & G). unfold ok_tag in *.
    rewrite (handle_of PPut CbPut); [|cbn; auto 8|typed]. cbn [call_cb]. unfold put_cb. steps. reflexivity.
  - destruct W as (B & (H & D) & G). unfold ok_tag in *.
    rewrite (handle_of PGet CbGet); [|cbn; auto 8|typed]. cbn [call_cb]. unfold get_cb. steps. reflexivity.
  - destruct W as ((T & N) & (H & D) & G). unfold ok_tag in *.
    rewrite (handle_of PIput CbIput); [|cbn; auto 10|typed]. cbn [call_cb]. unfold iput_cb. steps.
    rewrite dt_named. cbn [bind]. steps. reflexivity.
  - destruct W as ((T & N) & (H & D) & G). unfold ok_tag in *.
    rewrite (handle_of PIget CbIget); [|cbn; auto 12|typed]. cbn [call_cb]. unfold iget_cb. steps.
    rewrite dt_named. cbn [bind]. steps. reflexivity.
  - unfold ok_tag in W. rewrite (handle_of PFlush CbFlush); [|cbn; auto 12|typed]. cbn [call_cb]. unfold flush_cb. steps. reflexivity.
  - unfold handle_pkt. rewrite type_receive, type_type by (vm_compute; split; congruence). reflexivity.
Qed.
Lemma to_int_small b : 0 <= b < 2 ^ 31 -> to_int b = b.
Proof. intros B. unfold to_int. rewrite Z.mod_small by rng. ring. Qed.
Lemma deliver r buf : well_formed r -> small r -> handle_pkt (receive buf (issue r)) = meant r.
Proof.
  intros W S. rewrite deliver_any by exact W. destruct r; cbn [done_for meant]; try reflexivity;
  cbn [well_formed small] in W, S; rewrite to_int_small by lia; reflexivity.
Qed.
Lemma deliver_all rs : forall buf, Forall well_formed rs -> Forall small rs -> serve buf rs = map meant rs.
Proof.
  induction rs as [|r rs IH]; intros buf W S; cbn [serve map]; [reflexivity|].
  inversion W; subst. inversion S; subst. rewrite deliver by assumption. f_equal. apply IH; assumption.
Qed.

Lemma defined r buf : well_formed r -> handle_pkt (receive buf (issue r)) <> ABad /\ handle_pkt (receive buf (issue r)) <> ANone.
Proof.
  intros W. rewrite deliver_any by exact W. destruct r; cbn [done_for meant]; try (split; discriminate);
  destruct (atomic_type t); try (split; discriminate); destruct (floating t && bitwise op); split; discriminate.
Qed.

(** Answers, whatever the packet *)
Lemma switch_in {X Y : Type} (num : X -> Z) (l : list (X * Y)) i y : switch num l i = Some y -> exists x, In (x, y) l /\ i = num x.
Proof.
  induction l as [|[x z] l IH]; cbn [switch]; [discriminate|]. destruct (Z.eqb_spec i (num x)) as [->|N].
  - intros E. injection E as <-. exists x. split; [left; reflexivity|reflexivity].
  - intros E. destruct (IH E) as (x' & I & J). exists x'. split; [right; exact I|exact J].
Qed.
Lemma case_size t c b : switch tix_num type_cases t = Some (c, b) -> exists d, dt_table t = Some d /\ dsize d = csize c /\ csize c <= 8.
Proof.
  intros E. apply switch_in in E. destruct E as (x & I & ->). exists (named x). split; [apply dt_named|]. cbn in I.
  decompose [or] I; try contradiction; match goal with H : (_, _) = _ |- _ => injection H as <- <- <- end; cbn; lia.
Qed.
Ltac inv_bind := match goal with H : bind ?o _ = _ |- _ => destruct o eqn:?; cbn [bind] in H; [|discriminate] end.
Lemma answer m a c d : handle_pkt m = a ->
  (exists h disp x v g, a = ACswap h disp c x v d g) \/ (exists h disp op v g, a = AFetch h disp c op v d g) ->
  dsize d = csize c /\ csize c <= 8.
Proof.
  intros H A. unfold handle_pkt in H. destruct (get_type m) as [t|]; cbn [bind] in H;
    [|subst; destruct A as [(?&?&?&?&?&A)|(?&?&?&?&?&A)]; discriminate].
  destruct (t =? pk_num PTerminate); [subst; destruct A as [(?&?&?&?&?&A)|(?&?&?&?&?&A)]; discriminate|].
  destruct ((0 <=? t) && (t <? PKT_MAX)); [|subst; destruct A as [(?&?&?&?&?&A)|(?&?&?&?&?&A)]; discriminate].
  destruct (cb_table t) as [k|]; [|subst; destruct A as [(?&?&?&?&?&A)|(?&?&?&?&?&A)]; discriminate].
  destruct k; cbn [call_cb] in H; unfold cswap_cb, fetch_cb, post_cb, put_cb, get_cb, iput_cb, iget_cb, flush_cb, with_operand in H;
    destruct A as [(h&disp&x&v&g&A)|(h&disp&op&v&g&A)]; subst a.
  all: repeat match goal with
    | H : bind ?o _ = _ |- _ => destruct o eqn:?; cbn [bind] in H
    | H : match switch tix_num type_cases ?t with _ => _ end = _ |- _ =>
        let E := fresh "SW" in destruct (switch tix_num type_cases t) as [[? ?]|] eqn:E
    | H : match switch oix_num ?l ?t with _ => _ end = _ |- _ => destruct (switch oix_num l t)
    | H : (if oix_beq ?a ?b then _ else _) = _ |- _ => destruct (oix_beq a b)
    end; try discriminate.
  all: match goal with SW : switch _ type_cases _ = _, DT : dt_table _ = Some ?d0 |- _ =>
         apply case_size in SW; destruct SW as (d' & DT' & S); rewrite DT in DT'; injection DT' as <-; injection A; intros; subst; exact S end.
Qed.
