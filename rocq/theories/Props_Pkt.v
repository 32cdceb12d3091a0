(** C107: a request arrives on the target as the origin issued it. *)
From Verif Require Import Base PktModel PktSpec PktProofs PktProofs2.

(** Whatever structure is declared: C's rule puts every member at a multiple of its alignment, inside the structure, and no two
    members share a byte. *)
Theorem C107_layout s f o t : field_at s f = Some (o, t) ->
  0 <= o /\ o + fsize t <= sizeof s /\ aligned o t /\
  forall g o' t', g <> f -> field_at s g = Some (o', t') -> apart o (fsize t) o' (fsize t').
Proof.
  intros F. pose proof (find_bounds _ _ _ _ _ F) as (A & B & C). pose proof (sizeof_ge s). split; [exact A|]. split; [lia|].
  split; [exact C|]. intros g o' t' N G. apply (find_apart s 0 f g o t o' t'); [congruence|exact F|exact G].
Qed.
Print Assumptions C107_layout.

(** Any sequence of requests, received one after the other into a buffer with any previous contents: for each the target does what
    was meant - same location, type, operation, values, stride and count, answered with the same datatype and tag. Missing:
    contiguous transfers of 2 GiB and more, refuted below. *)
Theorem C107_delivered_partial buf rs : Forall well_formed rs -> Forall small rs -> serve buf rs = map meant rs.
Proof. exact (deliver_all rs buf). Qed.
Print Assumptions C107_delivered_partial.

(** Of any size: no callback reads a byte the origin did not write or an unset table entry, and there always is a callback. *)
Theorem C107_defined r buf : well_formed r -> handle_pkt (receive buf (issue r)) <> ABad /\ handle_pkt (receive buf (issue r)) <> ANone.
Proof. exact (defined r buf). Qed.
Print Assumptions C107_defined.

(** Different types, operations and packets have different numbers, all within their tables. *)
Theorem C107_numbers :
  (forall a b, tix_num a = tix_num b -> a = b) /\ (forall a, 0 <= tix_num a < DATATYPE_MAX) /\
  (forall a b, oix_num a = oix_num b -> a = b) /\ (forall a, 0 <= oix_num a < OP_MAX) /\
  (forall a b, pk_num a = pk_num b -> a = b) /\ (forall a, 0 <= pk_num a < PKT_MAX).
Proof. exact numbers. Qed.
Print Assumptions C107_numbers.

(** Whatever bytes the packet has: an answer to an atomic has the size of what the callback stored in its eight-byte old value. *)
Theorem C107_answer m c d :
  (exists h disp x v g, handle_pkt m = ACswap h disp c x v d g) \/ (exists h disp op v g, handle_pkt m = AFetch h disp c op v d g) ->
  dsize d = csize c /\ csize c <= 8.
Proof. exact (answer m (handle_pkt m) c d eq_refl). Qed.
Print Assumptions C107_answer.

(** The packet carries the number of bytes as a size_t, the callback passes it to MPI as an int: a put of 4 GiB is received with count
    0, one of 2 GiB with a negative count. *)
Theorem C107_large_refuted : exists r, well_formed r /\ forall buf, handle_pkt (receive buf (issue r)) <> meant r.
Proof.
  exists (RPut (2 ^ 32) 0 64 2003). assert (W : well_formed (RPut (2 ^ 32) 0 64 2003)) by (vm_compute; intuition congruence).
  split; [exact W|]. intros buf. rewrite (deliver_any _ buf W). vm_compute. discriminate.
Qed.
Print Assumptions C107_large_refuted.

(** A fetch-and-or on an unsigned long, then an atomic fetch without operand, then a strided put with a negative stride and the end. *)
Definition ex_reqs : list req :=
  [RFetch I_UNSIGNED_LONG 8 O_BOR (2 ^ 63 + 5) 0xC0000001 4096 2003; RFetch I_FLOAT 4 O_NO_OP 0 0 8 2004;
   RIput I_C_DOUBLE_COMPLEX (-3) 10 7 16 2005; RPost I_DOUBLE 8 O_BAND 1 0 0; RTerminate].
Example C107_nonvacuous : Forall well_formed ex_reqs /\ Forall small ex_reqs /\ serve undef ex_reqs =
  [AFetch 0xC0000001 4096 Culong O_BOR (Some (2 ^ 63 + 5)) MPI_UNSIGNED_LONG 2003; AFetch 0 8 Cfloat O_NO_OP None MPI_FLOAT 2004;
   AIput 7 16 (-3) 10 MPI_C_DOUBLE_COMPLEX 2005; AAbort; ATerminate].
Proof.
  split; [|split; [|vm_compute; reflexivity]].
  - repeat constructor; vm_compute; congruence.
  - repeat constructor.
Qed.
(** The layout of a strided packet on LP64, and the size of a packet. *)
Example C107_layout_nonvacuous : map (fun x => (fst x, fst (snd x))) (place 0 iget_s) =
  [(FType, 0); (FSt, 8); (FNelems, 16); (FHandle, 24); (FDisp, 32); (FPtag, 40)] /\ sizeof_pkt = 56.
Proof. vm_compute. auto. Qed.
