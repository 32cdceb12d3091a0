(** The typed routines: C91, C92, C93. *)
From Coq Require Import String Ascii List Bool ZArith.
From Verif Require Import GenData GenModel GenSpec GenProofs GenProofs2.
Import ListNotations.
Local Open Scope string_scope.

(** The generator replaces every placeholder of a block by the field of the row and changes nothing else, whatever the template and
    the table are, as long as lines and rows are of the given form. *)
Theorem C91_generator (rows : list (list string)) (segs : list seg) : forallb row_ok rows = true -> forallb seg_ok segs = true ->
  forallb (rows_ok rows) segs = true -> gen true rows Plain (flat_map seg_lines segs) = flat_map (seg_out rows) segs.
Proof. exact (gen_segs rows segs). Qed.
Print Assumptions C91_generator.
(** All templates and tables are of that form. *)
Example ex_gen_templates : forallb (fun p => let segs := cut [] None (snd p) in let rows := read_table (fst p) in
  words_eqb (flat_map seg_lines segs) (snd p) && forallb row_ok rows && forallb seg_ok segs && forallb (rows_ok rows) segs) (c_runs ++ h_runs) = true.
Proof. vm_cast_no_check (eq_refl true). Qed.
(** Without the conditions the substitutions would meet each other. *)
Example ex_gen_order : expand true ["int"; "int"; "MPI_INT"] "MPI_TYPENAME" = "MPI_int" /\
  expand true ["T"; "TYPE"; "M"] "x_TYPENAME" = "x_T".
Proof. vm_compute. split; reflexivity. Qed.
Example ex_gen_line : inst ["long long"; "longlong"; "MPI_LONG_LONG"] (read_line 0 "void shmem_TYPENAME_p(TYPE * dest, MPI_TYPE)") =
  "void shmem_longlong_p(long long * dest, MPI_LONG_LONG)".
Proof. vm_compute. reflexivity. Qed.

(** The generated files hold exactly the routines they must hold, each with the type of its name everywhere, and shmem.h declares
    exactly these. *)
Theorem C91_routines (t h : list string) (c : class) : In (t, h, c) generated ->
  Forall2 (fun r f => realises r f = true) (routines c) (functions t) /\ Forall2 (fun f d => declares f d = true) (functions t) (functions h).
Proof. exact (typed_routines t h c). Qed.
Print Assumptions C91_routines.
Example ex_gen_count : List.length generated = 13 /\ fold_right (fun c n => List.length (routines c) + n) 0 classes = 1542.
Proof. vm_compute. split; reflexivity. Qed.
(** A routine with the type of another one, an index of another type, a wrong operation, swapped arguments, does not pass. *)
Example ex_gen_strict :
  let ok op body := realises (false, "int", op, match find op (rma_ops ++ std_ops)%list with Some s => s | None => ([], [], []) end)
                      (match functions body with f :: _ => f | [] => ([], None) end) in
  let put ty dt a b := ["void shmem_int_put(int * dest, const int * source, size_t nelems, int pe) {";
                        "OSHMPI_ctx_put(SHMEM_CTX_DEFAULT, " ++ dt ++ ", sizeof(" ++ ty ++ "), " ++ a ++ ", " ++ b ++ ", nelems, pe); }"] in
  let add idx op opidx := ["void shmem_int_atomic_add(int * dest, int value, int pe) {";
     "OSHMPI_amo_post(SHMEM_CTX_DEFAULT, MPI_INT, " ++ idx ++ ", sizeof(int), " ++ op ++ ", " ++ opidx ++ ", dest, &value, pe); }"] in
  (ok "put" (put "int" "MPI_INT" "source" "dest"), ok "put" (put "long" "MPI_INT" "source" "dest"), ok "put" (put "int" "MPI_LONG" "source" "dest"),
   ok "put" (put "int" "MPI_INT" "dest" "source"), ok "atomic_add" (add "OSHMPI_AM_MPI_INT" "MPI_SUM" "OSHMPI_AM_MPI_SUM"),
   ok "atomic_add" (add "OSHMPI_AM_MPI_LONG" "MPI_SUM" "OSHMPI_AM_MPI_SUM"), ok "atomic_add" (add "OSHMPI_AM_MPI_INT" "MPI_SUM" "OSHMPI_AM_MPI_BOR"))
  = (true, false, false, false, true, false, false).
Proof. vm_compute. reflexivity. Qed.

(** Headers name types and operations by indices: every index has one entry in the table of the target, inside it, and no index is
    used twice. *)
Theorem C91_indices : forall names tab, In (names, tab) (combine (enums (tokens false am_enums)) [dt_table; op_table]) ->
  NoDup names /\ forall i, (In i (removelast names) <-> In i (map fst tab)) /\ (In i (map fst tab) -> exists m, entry tab i = Some m /\ i = "OSHMPI_AM_" ++ m).
Proof. exact indices_ok. Qed.
Print Assumptions C91_indices.

(** Every routine gives MPI only operations that MPI defines for its datatype, but for the four that reduce char. *)
Theorem C92_defined_partial (t h : list string) (c : class) (f : cfun) : In (t, h, c) generated -> In f (functions t) ->
  (defined f = true <-> ~ In (name_of (fst f)) char_reductions).
Proof. exact (routines_defined t h c f). Qed.
Print Assumptions C92_defined_partial.
Theorem C92_char_refuted : forall n, In n char_reductions ->
  exists t h c f, In (t, h, c) generated /\ In f (functions t) /\ name_of (fst f) = n /\ defined f = false.
Proof. exact char_undefined. Qed.
Print Assumptions C92_char_refuted.

(** A generic call whose context (team) and first pointer have the types of the routine, the pointer being to non-const, reaches the
    routine of that operation for the same C type. *)
Theorem C93_reaches_partial (t h : list string) (c : class) (r : bool * string * string * rspec) (args : list (list string)) :
  In (t, h, c) generated -> generic c = true -> In r (routines c) ->
  firstn (deciding r) args = firstn (deciding r) (map no_const (call_args r)) ->
  exists r', In r' (routines c) /\ serves r r' /\ reaches h (macro_of r) args = Some (rname r').
Proof. exact (generic_reaches t h c r args). Qed.
Print Assumptions C93_reaches_partial.
Example ex_gen_c11 : let h := generate true tab_p2p hdr_p2p in
  reaches h "shmem_test" [["uint64_t"; "*"]; ["int"]; ["uint64_t"]] = Some "shmem_ulong_test" /\
  reaches h "shmem_test" [["short"; "*"]; ["int"]; ["short"]] = Some "shmem_short_test" /\
  reaches h "shmem_test" [["double"; "*"]; ["int"]; ["double"]] = Some "shmem_c11_type_ignore".
Proof. vm_compute. repeat split; reflexivity. Qed.
(** With a pointer to const, which the routine takes, the call does not reach it. *)
Theorem C93_const (t h : list string) (c : class) (r : bool * string * string * rspec) (args : list (list string)) :
  In (t, h, c) generated -> generic c = true -> In r (routines c) -> const_first r = true ->
  firstn (deciding r) args = firstn (deciding r) (call_args r) -> reaches h (macro_of r) args = Some "shmem_c11_type_ignore".
Proof. exact (const_ignored t h c r args). Qed.
Print Assumptions C93_const.
Theorem C93_const_refuted : exists t h c r, In (t, h, c) generated /\ generic c = true /\ In r (routines c) /\
  hd [] (call_args r) = ["const"; "int"; "*"] /\ rname r = "shmem_int_g" /\ macro_of r = "shmem_g" /\
  reaches h (macro_of r) (call_args r) = Some "shmem_c11_type_ignore".
Proof. exact const_g. Qed.
Print Assumptions C93_const_refuted.
