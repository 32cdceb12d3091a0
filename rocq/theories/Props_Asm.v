(** C111: the public header, put together from its template and the generated declarations. *)
From Coq Require Import String List Bool.
From Verif Require Import GenModel GenSizedModel HandData AsmModel AsmSpec AsmProofs.
Import ListNotations.
Local Open Scope string_scope.

(** Putting in any pieces one after the other gives the template with each piece at its place and nothing else, in whatever order the places
    are, if each key is in one line, no line has two and the pieces have none. *)
Theorem C111_assembled pieces tpl : clear pieces tpl -> placed pieces tpl (assemble pieces tpl).
Proof. exact (assembled pieces tpl). Qed.
Print Assumptions C111_assembled.

(** That is so of the public header: it is its template, line by line, with every file of declarations at its place. *)
Theorem C111_header : clear steps hdr_shmem /\ placed steps hdr_shmem shmem_h.
Proof. exact (conj steps_clear (assembled steps hdr_shmem steps_clear)). Qed.
Print Assumptions C111_header.

(** The declarations of every family, as a whole, are between the two lines that mark its place. *)
Theorem C111_places m f : In (m, f) places -> between m f shmem_h.
Proof. exact (all_between m f). Qed.
Print Assumptions C111_places.

(** Two pieces, put in against the order of their places. *)
Example C111_nonvacuous :
  assemble [("B start", ["b"]); ("A start", ["a1"; "a2"])] ["x"; "/* A start */"; "/* A end */"; "y"; "/* B start */"; "/* B end */"]
  = ["x"; "/* A start */"; "a1"; "a2"; "/* A end */"; "y"; "/* B start */"; "b"; "/* B end */"].
Proof. reflexivity. Qed.
(** If a piece has the key of a later one, the later one goes into it and not to its place: the hypothesis is needed. *)
Example C111_clear_needed :
  assemble [("A start", ["B start"]); ("B start", ["b"])] ["A start"; "B start"] = ["A start"; "B start"; "b"; "B start"].
Proof. reflexivity. Qed.
Example C111_places_nonvacuous : length places = 15%nat /\ exists f, In ("RMA_SIZED", f) places.
Proof. split; [reflexivity|]. eexists. do 13 right. left. reflexivity. Qed.
