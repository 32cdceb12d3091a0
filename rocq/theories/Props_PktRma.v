(** C107, put and get: from the call on the origin through the bytes of the packet to the effect. *)
From Verif Require Import Base AmModel AmoModel AmoSpec AmoProofs PktRmaModel PktRmaSpec PktRmaProofs.
From Verif Require PktModel PktSpec.

(** A put over active messages copies the elements of the source to the place the call names, whatever the receive buffer held, and
    changes nothing else on the target. (Below 2 GiB; see C107_large_refuted.) *)
Theorem C107_put_partial addr buf t n src h d g mo mt : PktSpec.ok_place h d -> PktSpec.ok_tag g -> Z.of_nat (width t) * Z.of_nat n < 2 ^ 31 ->
  exists mt', am_put addr buf t n src h d g mo mt = Ok mt' /\ copied (width t) n mo src 1 mt mt' (addr h d) 1.
Proof. intros P G B. apply put_effect; [exact P|exact G|]. unfold width in B. destruct t; exact B. Qed.
Print Assumptions C107_put_partial.

Theorem C107_get_partial addr buf t n dst h d g mo mt : PktSpec.ok_place h d -> PktSpec.ok_tag g -> Z.of_nat (width t) * Z.of_nat n < 2 ^ 31 ->
  exists mo', am_get addr buf t n dst h d g mo mt = Ok mo' /\ copied (width t) n mt (addr h d) 1 mo mo' dst 1.
Proof. intros P G B. apply get_effect; [exact P|exact G|]. unfold width in B. destruct t; exact B. Qed.
Print Assumptions C107_get_partial.

(** Strided transfers, of any size and any element type: element by element, with the strides of the call. *)
Theorem C107_iput addr buf t n src ost tst h d g mo mt : PktSpec.ok_place h d -> PktSpec.ok_tag g -> Z.of_nat n < 2 ^ 64 -> 1 <= tst < 2 ^ 63 ->
  exists mt', am_iput addr buf t n src ost tst h d g mo mt = Ok mt' /\ copied (width t) n mo src ost mt mt' (addr h d) tst.
Proof. intros P G. exact (iput_effect addr buf t n h d g mo mt P G src ost tst). Qed.
Print Assumptions C107_iput.

Theorem C107_iget addr buf t n dst ost tst h d g mo mt : PktSpec.ok_place h d -> PktSpec.ok_tag g -> Z.of_nat n < 2 ^ 64 ->
  - 2 ^ 63 <= tst < 2 ^ 63 -> 1 <= ost ->
  exists mo', am_iget addr buf t n dst ost tst h d g mo mt = Ok mo' /\ copied (width t) n mt (addr h d) tst mo mo' dst ost.
Proof. intros P G. exact (iget_effect addr buf t n h d g mo mt P G dst ost tst). Qed.
Print Assumptions C107_iget.

(** Three shorts, every second one at the source, go to every third place at displacement 100; then they are fetched into contiguous
    memory. The receive buffer holds an old packet. *)
Example C107_rma_nonvacuous :
  let old := PktModel.issue (PktModel.RFlush 2003) in
  let mo x := if (0 <=? x) && (x <? 20) then x + 1 else 0 in
  match am_iput (fun h d => h + d) old PktModel.I_SHORT 3 0 2 3 0 100 2004 mo (fun _ => 77) with
  | Ok m =>
      map m [99; 100; 101; 102; 106; 107; 112; 113; 114] = [77; 1; 2; 77; 5; 6; 9; 10; 77] /\
      match am_iget (fun h d => h + d) old PktModel.I_SHORT 3 500 1 3 0 100 2005 mo m with
      | Ok m' => map m' [499; 500; 501; 502; 503; 504; 505; 506] = [0; 1; 2; 5; 6; 9; 10; 0]
      | _ => False
      end
  | _ => False
  end.
Proof. vm_compute. split; reflexivity. Qed.
