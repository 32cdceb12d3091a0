(** What the typed routines must be. C text is read by a small lexer and parser of its own; types are those of OpenSHMEM 1.5
    (tables of type names) and of the MPI standard (predefined datatypes), sizes those of LP64. *)
From Coq Require Import String Ascii List Bool ZArith.
From Verif Require Import GenData GenModel.
Import ListNotations.
Local Open Scope string_scope.

(** * Types *)
Inductive kind : Type := Signed | Unsigned | Floating | Complex | Char.
Definition kind_eqb (a b : kind) : bool :=
  match a, b with Signed, Signed | Unsigned, Unsigned | Floating, Floating | Complex, Complex | Char, Char => true | _, _ => false end.
Definition vty : Type := (kind * Z)%type.  (* kind and size of the values *)
Definition vty_eqb (a b : vty) : bool := kind_eqb (fst a) (fst b) && (snd a =? snd b)%Z.
(** TYPENAME, C type, values. *)
Definition types : list (string * (list string * vty)) :=
  [("float", (["float"], (Floating, 4%Z))); ("double", (["double"], (Floating, 8%Z))); ("longdouble", (["long"; "double"], (Floating, 16%Z)));
   ("char", (["char"], (Char, 1%Z))); ("schar", (["signed"; "char"], (Signed, 1%Z))); ("short", (["short"], (Signed, 2%Z)));
   ("int", (["int"], (Signed, 4%Z))); ("long", (["long"], (Signed, 8%Z))); ("longlong", (["long"; "long"], (Signed, 8%Z)));
   ("uchar", (["unsigned"; "char"], (Unsigned, 1%Z))); ("ushort", (["unsigned"; "short"], (Unsigned, 2%Z)));
   ("uint", (["unsigned"; "int"], (Unsigned, 4%Z))); ("ulong", (["unsigned"; "long"], (Unsigned, 8%Z)));
   ("ulonglong", (["unsigned"; "long"; "long"], (Unsigned, 8%Z)));
   ("int8", (["int8_t"], (Signed, 1%Z))); ("int16", (["int16_t"], (Signed, 2%Z))); ("int32", (["int32_t"], (Signed, 4%Z)));
   ("int64", (["int64_t"], (Signed, 8%Z))); ("uint8", (["uint8_t"], (Unsigned, 1%Z))); ("uint16", (["uint16_t"], (Unsigned, 2%Z)));
   ("uint32", (["uint32_t"], (Unsigned, 4%Z))); ("uint64", (["uint64_t"], (Unsigned, 8%Z))); ("size", (["size_t"], (Unsigned, 8%Z)));
   ("ptrdiff", (["ptrdiff_t"], (Signed, 8%Z))); ("complexf", (["float"; "_Complex"], (Complex, 8%Z)));
   ("complexd", (["double"; "_Complex"], (Complex, 16%Z)))].
(** MPI datatypes; the last two are chosen by configure.ac:666-690 (LP64: MPI_UINT64_T, MPI_INT64_T). *)
Definition mpi_types : list (string * vty) :=
  [("MPI_CHAR", (Char, 1%Z)); ("MPI_SIGNED_CHAR", (Signed, 1%Z)); ("MPI_SHORT", (Signed, 2%Z)); ("MPI_INT", (Signed, 4%Z));
   ("MPI_LONG", (Signed, 8%Z)); ("MPI_LONG_LONG", (Signed, 8%Z)); ("MPI_UNSIGNED_CHAR", (Unsigned, 1%Z));
   ("MPI_UNSIGNED_SHORT", (Unsigned, 2%Z)); ("MPI_UNSIGNED", (Unsigned, 4%Z)); ("MPI_UNSIGNED_LONG", (Unsigned, 8%Z));
   ("MPI_UNSIGNED_LONG_LONG", (Unsigned, 8%Z)); ("MPI_INT8_T", (Signed, 1%Z)); ("MPI_INT16_T", (Signed, 2%Z));
   ("MPI_INT32_T", (Signed, 4%Z)); ("MPI_INT64_T", (Signed, 8%Z)); ("MPI_UINT8_T", (Unsigned, 1%Z)); ("MPI_UINT16_T", (Unsigned, 2%Z));
   ("MPI_UINT32_T", (Unsigned, 4%Z)); ("MPI_UINT64_T", (Unsigned, 8%Z)); ("MPI_FLOAT", (Floating, 4%Z)); ("MPI_DOUBLE", (Floating, 8%Z));
   ("MPI_LONG_DOUBLE", (Floating, 16%Z)); ("MPI_C_COMPLEX", (Complex, 8%Z)); ("MPI_C_FLOAT_COMPLEX", (Complex, 8%Z));
   ("MPI_C_DOUBLE_COMPLEX", (Complex, 16%Z)); ("OSHMPI_MPI_SIZE_T", (Unsigned, 8%Z)); ("OSHMPI_MPI_PTRDIFF_T", (Signed, 8%Z))].
Fixpoint find {A} (k : string) (l : list (string * A)) : option A :=
  match l with [] => None | (x, a) :: r => if String.eqb k x then Some a else find k r end.
Definition ctype (tn : string) : list string := match find tn types with Some p => fst p | None => [] end.
Definition denotes (mpi tn : string) : bool :=
  match find mpi mpi_types, find tn types with Some a, Some (_, b) => vty_eqb a b | _, _ => false end.

(** * Reading C *)
Definition is_word (c : ascii) : bool :=
  let n := N_of_ascii c in
  ((48 <=? n) && (n <=? 57) || (65 <=? n) && (n <=? 90) || (97 <=? n) && (n <=? 122) || (n =? 95))%N.
(** Words and single characters; comments and line continuations are dropped. [com]: inside a comment. *)
Fixpoint lex (com : bool) (s : string) : list string * bool :=
  match s with
  | EmptyString => ([], com)
  | String c r =>
      if com then
        match c, r with
        | "*"%char, String "/"%char r2 => lex false r2
        | _, _ => lex true r
        end
      else
        match c, r with
        | "/"%char, String "*"%char r2 => lex true r2
        | _, _ =>
            let p := lex false r in
            if is_word c then
              match r with
              | String d _ => if is_word d then (match fst p with w :: ws => String c w :: ws | [] => [String c EmptyString] end, snd p)
                              else (String c EmptyString :: fst p, snd p)
              | EmptyString => ([String c EmptyString], false)
              end
            else if is_space c || Ascii.eqb c "\"%char then p else (String c EmptyString :: fst p, snd p)
        end
  end.
Fixpoint tokens (com : bool) (ls : list string) : list string :=
  match ls with [] => [] | l :: r => let p := lex com l in (fst p ++ tokens (snd p) r)%list end.
Definition is_cpp (l : string) : bool := pre "#" l.
(** A function: words before its body; the statements of its body (None: a declaration). *)
Definition cfun : Type := (list string * option (list (list string)))%type.
(** [cur], [hdr], [body]: what was read of the piece at hand, last word first. *)
Fixpoint split_on (k : string) (cur l : list string) : list (list string) :=
  match l with [] => [rev cur] | x :: r => if String.eqb x k then rev cur :: split_on k [] r else split_on k (x :: cur) r end.
Fixpoint funs (hdr : list string) (body : option (list string)) (ts : list string) : list cfun :=
  match ts with
  | [] => []
  | t :: r =>
      match body with
      | None => if String.eqb t "{" then funs hdr (Some []) r
                else if String.eqb t ";" then (rev hdr, None) :: funs [] None r
                else funs (t :: hdr) None r
      | Some b => if String.eqb t "}" then (rev hdr, Some (split_on ";" [] (rev b))) :: funs [] None r else funs hdr (Some (t :: b)) r
      end
  end.
Definition functions (ls : list string) : list cfun := funs [] None (tokens false (filter (fun l => negb (is_cpp l)) ls)).
(** The word before the first parenthesis. *)
Fixpoint name_of (h : list string) : string :=
  match h with t :: (p :: _) as r => if String.eqb p "(" then t else name_of r | _ => EmptyString end.

(** * What a routine must be *)
(** A word; the C type in the routine's name; an MPI datatype with the values of that type; the index of such a datatype, of
    an operation, in active messages; the context. *)
Inductive pat : Type := W (s : string) | Ty | Dt | AmDt | AmOp (o : string) | Ctx.
Fixpoint strip (p l : list string) : option (list string) :=
  match p, l with [], _ => Some l | x :: p', y :: l' => if String.eqb x y then strip p' l' else None | _, _ => None end.
(** The tables that translate indices in headers at the target: OSHMPI_am.TABLE[INDEX] = VALUE. *)
Definition table_entries (t : string) : list (string * string) :=
  flat_map (fun st => match st with
                      | a :: b :: c :: d :: i :: e :: f :: v :: [] =>
                          if String.eqb a "OSHMPI_am" && String.eqb b "." && String.eqb c t && String.eqb d "[" && String.eqb e "]" && String.eqb f "="
                          then [(i, v)] else []
                      | _ => []
                      end) (split_on ";" [] (tokens false am_tables)).
Definition dt_table : list (string * string) := table_entries "datatypes_table".
Definition op_table : list (string * string) := table_entries "ops_table".
(** An index stands for a type (an operation) if the table has one entry for it and that is the type (the operation). *)
Definition entry (tab : list (string * string)) (i : string) : option string :=
  match filter (fun p => String.eqb (fst p) i) tab with [p] => Some (snd p) | _ => None end.
(** The two enumerations of indices; the last name of each is the length of its table. *)
Fixpoint commas (l : list string) : list string :=
  match l with x :: y :: r => if String.eqb y "," then x :: commas r else [] | _ => [] end.
Fixpoint enums (l : list string) : list (list string) :=
  match l with [] => [] | x :: r => if String.eqb x "{" then commas r :: enums r else enums r end.
Definition am_dt (tn t : string) : bool := match entry dt_table t with Some m => denotes m tn | None => false end.
Definition am_op (o t : string) : bool := match entry op_table t with Some m => String.eqb m o | None => false end.
Fixpoint meets (ctx : bool) (tn : string) (ps : list pat) (ts : list string) : bool :=
  match ps, ts with
  | [], [] => true
  | W s :: p, t :: r => String.eqb s t && meets ctx tn p r
  | Ty :: p, _ => match strip (ctype tn) ts with Some r => meets ctx tn p r | None => false end
  | Dt :: p, t :: r => denotes t tn && meets ctx tn p r
  | AmDt :: p, t :: r => am_dt tn t && meets ctx tn p r
  | AmOp o :: p, t :: r => am_op o t && meets ctx tn p r
  | Ctx :: p, t :: r => String.eqb t (if ctx then "ctx" else "SHMEM_CTX_DEFAULT") && meets ctx tn p r
  | _, _ => false
  end.
Fixpoint sep (l : list (list pat)) : list pat :=
  match l with [] => [] | [a] => a | a :: r => a ++ W "," :: sep r end%list.
Definition ws (s : string) : list pat := map W (tokens false [s]).
Definition call (f : string) (args : list (list pat)) : list pat := (W f :: W "(" :: sep args ++ [W ")"])%list.
Definition sz : list pat := [W "sizeof"; W "("; Ty; W ")"].
(** Result, parameters, statements. *)
Definition rspec : Type := (list pat * list (list pat) * list (list pat))%type.
Definition ptr (x : string) : list pat := [Ty; W "*"; W x].
Definition cptr (x : string) : list pat := W "const" :: ptr x.
Definition val (x : string) : list pat := [Ty; W x].
Definition conforms (ctx : bool) (tn op : string) (s : rspec) (f : cfun) : bool :=
  let '(ret, params, stmts) := s in
  let name := "shmem_" ++ (if ctx then "ctx_" else "") ++ tn ++ "_" ++ op in
  meets ctx tn (ret ++ call name ((if ctx then [ws "shmem_ctx_t ctx"] else []) ++ params)) (fst f) &&
  match snd f with
  | Some b => (List.length b =? S (List.length stmts))%nat && forallb (fun p => meets ctx tn (fst p) (snd p)) (combine (stmts ++ [[]]) b)
  | None => false
  end%list.

(** ** Put, get (OSHMPI_ctx_put, _get: context, datatype, size, origin address, target address, number, PE; rma_impl.h) *)
Definition pe : list pat := ws "int pe".
Definition n : list pat := ws "size_t nelems".
Definition strides : list (list pat) := [ws "ptrdiff_t dst"; ws "ptrdiff_t sst"].
Definition rma_ops : list (string * rspec) :=
  [("g", ([Ty], [cptr "source"; pe],
     [val "value"; call "OSHMPI_ctx_get" [[Ctx]; [Dt]; sz; ws "& value"; ws "source"; ws "1"; ws "pe"]; ws "return value"]));
   ("get", (ws "void", [ptr "dest"; cptr "source"; n; pe], [call "OSHMPI_ctx_get" [[Ctx]; [Dt]; sz; ws "dest"; ws "source"; ws "nelems"; ws "pe"]]));
   ("get_nbi", (ws "void", [ptr "dest"; cptr "source"; n; pe], [call "OSHMPI_ctx_get_nbi" [[Ctx]; [Dt]; sz; ws "dest"; ws "source"; ws "nelems"; ws "pe"]]));
   (* strides: OSHMPI_ctx_iget takes that of the origin first, OSHMPI_ctx_iput that of the target; both are the stride of dest. *)
   ("iget", (ws "void", [ptr "dest"; cptr "source"] ++ strides ++ [n; pe],
     [call "OSHMPI_ctx_iget" [[Ctx]; [Dt]; [AmDt]; ws "dest"; ws "source"; ws "dst"; ws "sst"; ws "nelems"; ws "pe"]]));
   ("p", (ws "void", [ptr "dest"; val "value"; pe], [call "OSHMPI_ctx_put" [[Ctx]; [Dt]; sz; ws "& value"; ws "dest"; ws "1"; ws "pe"]]));
   ("put", (ws "void", [ptr "dest"; cptr "source"; n; pe], [call "OSHMPI_ctx_put" [[Ctx]; [Dt]; sz; ws "source"; ws "dest"; ws "nelems"; ws "pe"]]));
   ("iput", (ws "void", [ptr "dest"; cptr "source"] ++ strides ++ [n; pe],
     [call "OSHMPI_ctx_iput" [[Ctx]; [Dt]; [AmDt]; ws "source"; ws "dest"; ws "dst"; ws "sst"; ws "nelems"; ws "pe"]]));
   ("put_nbi", (ws "void", [ptr "dest"; cptr "source"; n; pe], [call "OSHMPI_ctx_put_nbi" [[Ctx]; [Dt]; sz; ws "source"; ws "dest"; ws "nelems"; ws "pe"]]))]%list.
(** ** Atomics (amo_impl.h: context, datatype, index, size, operation, its index, target address, operand, PE, place for the old value) *)
Definition opn (o : string) : list (list pat) := [[W ("MPI_" ++ o)]; [AmOp ("MPI_" ++ o)]].
Definition fetch_call (o : string) (target operand result : list pat) : list pat :=
  call "OSHMPI_amo_fetch" ([[Ctx]; [Dt]; [AmDt]; sz] ++ opn o ++ [target; operand; ws "pe"; result])%list.
Definition post_call (o : string) (operand : list pat) : list pat :=
  call "OSHMPI_amo_post" ([[Ctx]; [Dt]; [AmDt]; sz] ++ opn o ++ [ws "dest"; operand; ws "pe"])%list.
Definition cas_call (result : list pat) : list pat :=
  call "OSHMPI_amo_cswap" [[Ctx]; [Dt]; [AmDt]; sz; ws "dest"; ws "& cond"; ws "& value"; ws "pe"; result].
Definition one : list pat := (Ty :: ws "one = 1")%list.
Definition ret_old : list pat := ws "return oldval".
Definition fetch_op (o : string) : rspec := ([Ty], [ptr "dest"; val "value"; pe], [val "oldval"; fetch_call o (ws "dest") (ws "& value") (ws "& oldval"); ret_old]).
Definition fetch_op_nbi (o : string) : rspec := (ws "void", [ptr "fetch"; ptr "dest"; val "value"; pe], [fetch_call o (ws "dest") (ws "& value") (ws "fetch")]).
Definition post_op (o : string) : rspec := (ws "void", [ptr "dest"; val "value"; pe], [post_call o (ws "& value")]).
Definition cas : rspec := ([Ty], [ptr "dest"; val "cond"; val "value"; pe], [val "oldval"; cas_call (ws "& oldval"); ret_old]).
Definition finc : rspec :=
  ([Ty], [ptr "dest"; pe], [one ++ ws ", oldval"; fetch_call "SUM" (ws "dest") (ws "& one") (ws "& oldval"); ret_old])%list.
Definition inc : rspec := (ws "void", [ptr "dest"; pe], [one; post_call "SUM" (ws "& one")]).
Definition std_ops : list (string * rspec) :=
  [("atomic_compare_swap", cas); ("atomic_fetch_inc", finc); ("atomic_inc", inc); ("atomic_fetch_add", fetch_op "SUM"); ("atomic_add", post_op "SUM");
   ("atomic_compare_swap_nbi", (ws "void", [ptr "fetch"; ptr "dest"; val "cond"; val "value"; pe], [cas_call (ws "fetch")]));
   ("atomic_fetch_inc_nbi", (ws "void", [ptr "fetch"; ptr "dest"; pe], [one; fetch_call "SUM" (ws "dest") (ws "& one") (ws "fetch")]));
   ("atomic_fetch_add_nbi", fetch_op_nbi "SUM")].
Definition std_old_ops : list (string * rspec) :=
  [("cswap", cas); ("finc", finc); ("inc", inc); ("fadd", fetch_op "SUM"); ("add", post_op "SUM")].
Definition src : list pat := ws "( void * ) source".
Definition fetch_only : rspec := ([Ty], [cptr "source"; pe], [val "oldval"; fetch_call "NO_OP" src (ws "NULL") (ws "& oldval"); ret_old]).
Definition ext_ops : list (string * rspec) :=
  [("atomic_fetch", fetch_only); ("atomic_set", post_op "REPLACE"); ("atomic_swap", fetch_op "REPLACE");
   ("atomic_fetch_nbi", (ws "void", [ptr "fetch"; cptr "source"; pe], [fetch_call "NO_OP" src (ws "NULL") (ws "fetch")]));
   ("atomic_swap_nbi", fetch_op_nbi "REPLACE")].
Definition ext_old_ops : list (string * rspec) := [("fetch", fetch_only); ("set", post_op "REPLACE"); ("swap", fetch_op "REPLACE")].
Definition bits : list (string * string) := [("and", "BAND"); ("or", "BOR"); ("xor", "BXOR")].
Definition bitws_ops : list (string * rspec) :=
  (flat_map (fun p => [(("atomic_fetch_" ++ fst p)%string, fetch_op (snd p)); (("atomic_" ++ fst p)%string, post_op (snd p))]) bits
  ++ map (fun p => (("atomic_fetch_" ++ fst p ++ "_nbi")%string, fetch_op_nbi (snd p))) bits)%list.
(** ** Collectives (coll_impl.h, coll_activeset_impl.h) *)
Definition team_op (params : list (list pat)) (f : string) (args : list (list pat)) : rspec :=
  (ws "int", [ws "shmem_team_t team"; ptr "dest"; cptr "source"] ++ params,
   [ws "OSHMPI_team_t * team_obj"; call "OSHMPI_TEAM_GET_OBJ" [ws "team"; ws "team_obj"];
    call f ([ws "team_obj"; ws "dest"; ws "source"] ++ args); ws "return SHMEM_SUCCESS"])%list.
Definition coll_ops : list (string * rspec) :=
  [("broadcast", team_op [n; ws "int PE_root"] "OSHMPI_broadcast_team" [ws "nelems"; [Dt]; ws "PE_root"]);
   ("collect", team_op [n] "OSHMPI_collect_team" [ws "nelems"; [Dt]]);
   ("fcollect", team_op [n] "OSHMPI_fcollect_team" [ws "nelems"; [Dt]]);
   ("alltoall", team_op [n] "OSHMPI_alltoall_team" [ws "nelems"; [Dt]]);
   ("alltoalls", team_op (strides ++ [n]) "OSHMPI_alltoalls_team" [ws "dst"; ws "sst"; ws "nelems"; [Dt]])]%list.
Definition reduce_team (p : string * string) : string * rspec :=
  (fst p ++ "_reduce", team_op [ws "size_t nreduce"] "OSHMPI_allreduce_team" [ws "nreduce"; [Dt]; [W ("MPI_" ++ snd p)]]).
Definition reduce_aset (p : string * string) : string * rspec :=
  (fst p ++ "_to_all",
   (ws "void", [ptr "dest"; cptr "source"; ws "int nreduce"; ws "int PE_start"; ws "int logPE_stride"; ws "int PE_size"; ptr "pWrk"; ws "long * pSync"],
    [call "OSHMPI_allreduce" [ws "dest"; ws "source"; ws "nreduce"; [Dt]; [W ("MPI_" ++ snd p)]; ws "PE_start"; ws "logPE_stride"; ws "PE_size"]])).
Definition minmax : list (string * string) := [("min", "MIN"); ("max", "MAX")].
Definition sumprod : list (string * string) := [("sum", "SUM"); ("prod", "PROD")].
(** ** Point-to-point synchronisation (p2p_impl.h) and signals: what is not implemented fails loudly *)
Definition fails : list pat := call "OSHMPI_ASSERT" [ws "0"].
Definition cmp : list (list pat) := [ws "int cmp"; val "cmp_value"].
Definition cmps : list (list pat) := [ws "int cmp"; ptr "cmp_values"].
Definition status : list pat := ws "const int * status".
Definition missing (r : string) (some : bool) (c : list (list pat)) : rspec :=
  (ws r, [ptr "ivars"; n] ++ (if some then [ws "size_t * indices"] else []) ++ [status] ++ c,
   fails :: (if String.eqb r "void" then [] else [ws "return SHMEM_OTHER_ERR"]))%list.
Definition p2p_ops : list (string * rspec) :=
  [("wait_until", (ws "void", ptr "ivar" :: cmp, [call "OSHMPI_WAIT_UNTIL" [ws "ivar"; ws "cmp"; ws "cmp_value"; [Ty]; [Dt]]]));
   ("wait_until_all", missing "void" false cmp); ("wait_until_any", missing "size_t" false cmp); ("wait_until_some", missing "size_t" true cmp);
   ("wait_until_all_vector", missing "void" false cmps); ("wait_until_any_vector", missing "size_t" false cmps); ("wait_until_some_vector", missing "size_t" true cmps);
   ("test", (ws "int", ptr "ivar" :: cmp,
     [ws "int test_ret = 0"; call "OSHMPI_TEST" [ws "ivar"; ws "cmp"; ws "cmp_value"; [Ty]; [Dt]; ws "test_ret"]; ws "return test_ret"]));
   ("test_all", missing "int" false cmp); ("test_any", missing "size_t" false cmp); ("test_some", missing "size_t" true cmp);
   ("test_all_vector", missing "int" false cmps); ("test_any_vector", missing "size_t" false cmps); ("test_some_vector", missing "size_t" true cmps)].
Definition signal : rspec :=
  (ws "void", [ptr "dest"; cptr "source"; n; ws "uint64_t * sig_addr"; ws "uint64_t signal"; ws "int sig_op"; pe], [fails]).
Definition signal_ops : list (string * rspec) := [("put_signal", signal); ("put_signal_nbi", signal)].

(** ** The routines there must be: types, routines with a form for contexts, routines without *)
Definition rma_tn : list string :=
  ["float"; "double"; "longdouble"; "char"; "schar"; "short"; "int"; "long"; "longlong"; "uchar"; "ushort"; "uint"; "ulong"; "ulonglong";
   "int8"; "int16"; "int32"; "int64"; "uint8"; "uint16"; "uint32"; "uint64"; "size"; "ptrdiff"].
Definition amo_tn : list string := ["int"; "long"; "longlong"; "uint"; "ulong"; "ulonglong"; "int32"; "int64"; "uint32"; "uint64"; "size"; "ptrdiff"].
Definition bitws_tn : list string := ["uint"; "ulong"; "ulonglong"; "int32"; "int64"; "uint32"; "uint64"].
Definition p2p_tn : list string := ["short"; "int"; "long"; "longlong"; "ushort"; "uint"; "ulong"; "ulonglong"; "int32"; "int64"; "uint32"; "uint64"; "size"; "ptrdiff"].
Definition bitws_team_tn : list string :=
  ["uchar"; "ushort"; "uint"; "ulong"; "ulonglong"; "int8"; "int16"; "int32"; "int64"; "uint8"; "uint16"; "uint32"; "uint64"; "size"].
Definition bitws_aset_tn : list string := ["short"; "int"; "long"; "longlong"].
Definition minmax_aset_tn : list string := ["short"; "int"; "double"; "float"; "long"; "longdouble"; "longlong"].
Definition class : Type := (list string * list (string * rspec) * list (string * rspec))%type.
Definition classes : list class :=
  [(rma_tn, rma_ops, []); (amo_tn, std_ops, std_old_ops); ("float" :: "double" :: amo_tn, ext_ops, ext_old_ops); (bitws_tn, bitws_ops, []);
   (rma_tn, [], coll_ops); (minmax_aset_tn, [], map reduce_aset minmax); ("complexd" :: "complexf" :: minmax_aset_tn, [], map reduce_aset sumprod);
   (bitws_aset_tn, [], map reduce_aset bits); (rma_tn, [], map reduce_team minmax);
   (firstn 14 rma_tn ++ ["complexf"; "complexd"] ++ skipn 14 rma_tn, [], map reduce_team sumprod); (bitws_team_tn, [], map reduce_team bits);
   (rma_tn, signal_ops, []); (p2p_tn, [], p2p_ops)]%list.
(** The routines of a class: with context or without, type, name of the operation, what it must be. *)
Definition routines (c : class) : list (bool * string * string * rspec) :=
  let '(tns, both, plain) := c in
  flat_map (fun tn => (flat_map (fun o => [(false, tn, fst o, snd o); (true, tn, fst o, snd o)]) both ++ map (fun o => (false, tn, fst o, snd o)) plain)%list) tns.
Definition rname (r : bool * string * string * rspec) : string :=
  let '(ctx, tn, op, _) := r in "shmem_" ++ (if ctx then "ctx_" else "") ++ tn ++ "_" ++ op.
Definition realises (r : bool * string * string * rspec) (f : cfun) : bool := let '(ctx, tn, op, s) := r in conforms ctx tn op s f.

(** The declaration of a routine: its definition up to the body. *)
Definition declares (f : cfun) (d : cfun) : bool :=
  match snd d with None => (List.length (fst f) =? List.length (fst d))%nat && forallb (fun p => String.eqb (fst p) (snd p)) (combine (fst f) (fst d)) | Some _ => false end.

(** * Operations MPI defines (MPI 3.1, 5.9.2: classes of predefined datatypes for MPI_MIN and so on; 11.3.4: MPI_REPLACE and
    MPI_NO_OP on every predefined datatype). MPI_CHAR and MPI_WCHAR are printable characters, in no class. *)
Definition allowed (op : string) (k : kind) : option bool :=
  let int := match k with Signed | Unsigned => true | _ => false end in
  let fp := match k with Floating => true | _ => false end in
  let cx := match k with Complex => true | _ => false end in
  if String.eqb op "MPI_MIN" || String.eqb op "MPI_MAX" then Some (int || fp)
  else if String.eqb op "MPI_SUM" || String.eqb op "MPI_PROD" then Some (int || fp || cx)
  else if String.eqb op "MPI_BAND" || String.eqb op "MPI_BOR" || String.eqb op "MPI_BXOR" then Some int
  else if String.eqb op "MPI_REPLACE" || String.eqb op "MPI_NO_OP" then Some true
  else None.
(** Compare-and-swap (11.3.4): integers. *)
Definition call_defined (st : list string) : bool :=
  let dts := flat_map (fun t => match find t mpi_types with Some v => [fst v] | None => [] end) st in
  forallb (fun t => forallb (fun k => match allowed t k with Some b => b | None => true end) dts) st &&
  (if existsb (String.eqb "OSHMPI_amo_cswap") st then forallb (fun k => match k with Signed | Unsigned => true | _ => false end) dts else true).
Definition defined (f : cfun) : bool := match snd f with Some b => forallb call_defined b | None => false end.

(** * The generic macros of C11 *)
(** Lines that end in a backslash go on with the next line. *)
Fixpoint ends_bs (s : string) : bool :=
  match s with EmptyString => false | String c EmptyString => Ascii.eqb c "\"%char | String _ r => ends_bs r end.
Fixpoint logical (cur : list string) (ls : list string) : list (list string) :=
  match ls with
  | [] => match cur with [] => [] | _ => [cur] end
  | l :: r => if ends_bs l then logical (cur ++ [l])%list r else (cur ++ [l])%list :: logical [] r
  end.
Inductive gexp : Type := GName (s : string) | GSel (ctrl : list string) (alts : list (list string * gexp)) | GBad.
(** Up to the first [k] outside parentheses; what follows it. *)
Fixpoint until (k : string) (depth : nat) (cur l : list string) : option (list string * list string) :=
  match l with
  | [] => None
  | x :: r =>
      if (depth =? 0)%nat && String.eqb x k then Some (cur, r)
      else until k (if String.eqb x "(" then S depth else if String.eqb x ")" then pred depth else depth) (cur ++ [x])%list r
  end.
(** An expression: a name or a generic selection; what follows it. *)
Fixpoint gparse (fuel : nat) (l : list string) : gexp * list string :=
  match fuel with
  | O => (GBad, l)
  | S f =>
      match l with
      | g :: p :: r =>
          if String.eqb g "_Generic" && String.eqb p "(" then
            match until "," 0 [] r with
            | Some (ctrl, r1) => let a := galts f r1 in (GSel ctrl (fst a), snd a)
            | None => (GBad, l)
            end
          else (GName g, p :: r)
      | _ => (GBad, l)
      end
  end
with galts (fuel : nat) (l : list string) : list (list string * gexp) * list string :=
  match fuel with
  | O => ([([], GBad)], l)
  | S f =>
      match until ":" 0 [] l with
      | Some (ty, r) =>
          let e := gparse f r in
          match snd e with
          | c :: r1 => if String.eqb c "," then let a := galts f r1 in ((ty, fst e) :: fst a, snd a)
                       else if String.eqb c ")" then ([(ty, fst e)], r1) else ([([], GBad)], r1)
          | [] => ([([], GBad)], [])
          end
      | None => ([([], GBad)], l)
      end
  end.
(** #define name(...) selection(__VA_ARGS__) *)
Definition gmacro (ls : list string) : list (string * gexp) :=
  match tokens false ls with
  | h :: d :: n :: a :: b :: c :: d' :: e :: r =>
      if String.eqb h "#" && String.eqb d "define" then
        let p := gparse (List.length r) r in
        if forallb (fun p => String.eqb (fst p) (snd p)) (combine [a; b; c; d'; e] ["("; "."; "."; "."; ")"])
           && match snd p with x :: y :: z :: [] => String.eqb x "(" && String.eqb y "__VA_ARGS__" && String.eqb z ")" | _ => false end
        then [(n, fst p)] else [(n, GBad)]
      else []
  | _ => []
  end.
Definition macros (h : list string) : list (string * gexp) := flat_map gmacro (logical [] h).
(** Types with a star or a const; typedefs are those of LP64 (glibc); both handles are void pointers (shmem.h.in.tpl:87, 106). *)
Definition typedefs : list (string * list string) :=
  [("int8_t", ["signed"; "char"]); ("int16_t", ["short"]); ("int32_t", ["int"]); ("int64_t", ["long"]); ("uint8_t", ["unsigned"; "char"]);
   ("uint16_t", ["unsigned"; "short"]); ("uint32_t", ["unsigned"; "int"]); ("uint64_t", ["unsigned"; "long"]); ("size_t", ["unsigned"; "long"]);
   ("ptrdiff_t", ["long"]); ("shmem_ctx_t", ["void"; "*"]); ("shmem_team_t", ["void"; "*"])].
Definition plain (ty : list string) : list string := flat_map (fun t => match find t typedefs with Some l => l | None => [t] end) ty.
Fixpoint words_eqb (a b : list string) : bool :=
  match a, b with [], [] => true | x :: a', y :: b' => String.eqb x y && words_eqb a' b' | _, _ => false end.
Definition ty_eqb (a b : list string) : bool := words_eqb (plain a) (plain b).
(** The argument a selection is controlled by (shmem.h.in.tpl:30-35). *)
Definition ctrl_arg (c : list string) : option nat :=
  let words := filter (fun t => is_word (match t with String c _ => c | EmptyString => " "%char end)) c in
  if existsb (fun w => String.eqb w "OSHMPI_C11_ARG0") words then Some 0
  else if existsb (fun w => String.eqb w "OSHMPI_C11_ARG1") words then Some 1 else None.
(** C11 6.5.1.1: no two types compatible, at most one default; this also of selections that are not chosen. *)
Fixpoint distinct (l : list (list string)) : bool :=
  match l with [] => true | x :: r => negb (existsb (ty_eqb x) r) && distinct r end.
Fixpoint gvalid (fuel : nat) (e : gexp) : bool :=
  match fuel with
  | O => false
  | S f => match e with
           | GName _ => true
           | GBad => false
           | GSel c alts => distinct (map fst alts) && forallb (fun a => gvalid f (snd a)) alts && match ctrl_arg c with Some _ => true | None => false end
           end
  end.
Fixpoint select (fuel : nat) (args : list (list string)) (e : gexp) : option string :=
  match fuel with
  | O => None
  | S f =>
      match e with
      | GName s => Some s
      | GBad => None
      | GSel c alts =>
          match ctrl_arg c with
          | None => None
          | Some n =>
              match nth_error args n with
              | None => None
              | Some ty =>
                  match filter (fun a => ty_eqb (fst a) ty) alts with
                  | a :: _ => select f args (snd a)
                  | [] => match filter (fun a => ty_eqb (fst a) ["default"]) alts with a :: _ => select f args (snd a) | [] => None end
                  end
              end
          end
      end
  end.
(** The routine a call of macro [m] reaches with arguments of the given types. *)
Definition reach (ms : list (string * gexp)) (m : string) (args : list (list string)) : option string :=
  match find m ms with Some e => if gvalid 3 e then select 3 args e else None | None => None end.
Definition reaches (h : list string) (m : string) (args : list (list string)) : option string := reach (macros h) m args.
(** The type of a parameter: pattern without its name; a program may have pointers to const. *)
Definition pat_words (tn : string) (p : pat) : list string := match p with W s => [s] | Ty => ctype tn | _ => [] end.
Definition param_type (tn : string) (p : list pat) : list string := removelast (flat_map (pat_words tn) p).
Definition no_const (ty : list string) : list string := filter (fun t => negb (String.eqb t "const")) ty.
(** The types of the arguments of a routine's generic form. *)
Definition call_args (r : bool * string * string * rspec) : list (list string) :=
  let '(ctx, tn, op, s) := r in ((if ctx then [["shmem_ctx_t"]] else []) ++ map (param_type tn) (snd (fst s)))%list.
(** Routines with another name for the same operation (deprecated ones). *)
Definition same_op : list (string * string) :=
  [("cswap", "atomic_compare_swap"); ("finc", "atomic_fetch_inc"); ("inc", "atomic_inc"); ("fadd", "atomic_fetch_add"); ("add", "atomic_add");
   ("fetch", "atomic_fetch"); ("set", "atomic_set"); ("swap", "atomic_swap")].
Definition op_of (op : string) : string := match find op same_op with Some o => o | None => op end.
(** [r'] serves calls meant for [r]: same operation, same kind of first argument, same C type. *)
Definition serves (r r' : bool * string * string * rspec) : Prop :=
  let '(ctx, tn, op, _) := r in let '(ctx', tn', op', _) := r' in
  ctx' = ctx /\ op' = op_of op /\ plain (ctype tn') = plain (ctype tn).
(** Classes with generic forms: all but the reductions over active sets. *)
Definition generic (c : class) : bool := let '(_, both, plain) := c in negb (existsb (fun o => has "_to_all" (fst o)) plain).
Definition macro_of (r : bool * string * string * rspec) : string := let '(_, _, op, _) := r in "shmem_" ++ op.
(** How many arguments decide: the context or team if there is one, and the first pointer. *)
Definition deciding (r : bool * string * string * rspec) : nat :=
  let '(ctx, _, _, s) := r in if ctx || match snd (fst s) with (W t :: _) :: _ => String.eqb t "shmem_team_t" | _ => false end then 2 else 1.
(** Operations whose first pointer is to const. *)
Definition const_first (r : bool * string * string * rspec) : bool :=
  let '(_, _, op, _) := r in existsb (String.eqb op) ["g"; "atomic_fetch"; "fetch"].
Definition generated : list (list string * list string * class) := combine (combine c_text h_text) classes.
(** The routines that reduce char. *)
Definition char_reductions : list string := map (fun o => "shmem_char_" ++ fst o ++ "_reduce") (minmax ++ sumprod)%list.

(** * Substitution: a template line as characters and placeholders *)
Inductive sym : Type := Ch (c : ascii) | KName | KMpi | KType.
Definition sym_text (s : sym) : string :=
  match s with Ch c => String c EmptyString | KName => "TYPENAME" | KMpi => "MPI_TYPE" | KType => "TYPE" end.
Fixpoint render (l : list sym) : string := match l with [] => EmptyString | s :: r => sym_text s ++ render r end.
(** What a line must become for a row of a table: every placeholder replaced by its field, nothing else changed. *)
Definition sym_inst (row : list string) (s : sym) : string :=
  match s with Ch c => String c EmptyString | KName => field row 1 | KMpi => field row 2 | KType => field row 0 end.
Fixpoint inst (row : list string) (l : list sym) : string := match l with [] => EmptyString | s :: r => sym_inst row s ++ inst row r end.
Definition not_N (l : list sym) : bool := match l with Ch c :: _ => negb (Ascii.eqb c "N"%char) | _ => true end.
(** No Y outside placeholders; a character or nothing after TYPENAME; no N after TYPE or MPI_TYPE; TYPE after a character that is no underscore, or first. *)
Fixpoint line_ok (prev : option sym) (l : list sym) : bool :=
  match l with
  | [] => true
  | s :: r =>
      match s with
      | Ch c => negb (Ascii.eqb c "Y"%char)
      | KName => match r with [] | Ch _ :: _ => true | _ => false end
      | KMpi => not_N r
      | KType => not_N r && match prev with None => true | Some (Ch c) => negb (Ascii.eqb c "_"%char) | Some _ => false end
      end && line_ok (Some s) r
  end.
Fixpoint no_Y (s : string) : bool := match s with EmptyString => true | String c r => negb (Ascii.eqb c "Y"%char) && no_Y r end.
Definition row_ok (row : list string) : bool := no_Y (field row 0) && no_Y (field row 1) && no_Y (field row 2).
(** Reading a line. [skip]: characters of a placeholder still to drop. *)
Fixpoint read_line (skip : nat) (s : string) : list sym :=
  match s with
  | EmptyString => []
  | String c r =>
      match skip with
      | S n => read_line n r
      | O => if pre "TYPENAME" s then KName :: read_line 7 r
             else if pre "MPI_TYPE" s then KMpi :: read_line 7 r
             else if pre "TYPE" s then KType :: read_line 3 r
             else Ch c :: read_line 0 r
      end
  end.
(** The lines of the blocks of a template. *)
Fixpoint block_lines (inside : bool) (ls : list string) : list string :=
  match ls with
  | [] => []
  | l :: r => if is_start true l then block_lines true r
              else if is_end true l then block_lines false r
              else if inside then l :: block_lines true r else block_lines false r
  end.
(** * A template as text and blocks *)
Inductive seg : Type := Text (ls : list string) | Block (start : string) (body : list string) (fin : string).
Definition seg_lines (s : seg) : list string := match s with Text ls => ls | Block a b z => (a :: b ++ [z])%list end.
Definition seg_ok (s : seg) : bool :=
  match s with
  | Text ls => forallb (fun l => negb (is_start true l)) ls
  | Block a b z => is_start true a && is_end true z && negb (is_start true z) &&
                   forallb (fun l => negb (is_start true l) && negb (is_end true l) && line_ok None (read_line 0 l)) b
  end.
(** The rows a block is made for: blocks of generic macros leave out those marked 0. *)
Definition seg_rows (rows : list (list string)) (a : string) : list (list string) :=
  filter (fun row => negb (has "TPL_C11_BLOCK_START" a && String.eqb (field row 3) "0")) rows.
Definition seg_out (rows : list (list string)) (s : seg) : list string :=
  match s with
  | Text ls => ls
  | Block a b z => flat_map (fun row => map (fun l => inst row (read_line 0 l)) b) (seg_rows rows a)
  end.
Definition rows_ok (rows : list (list string)) (s : seg) : bool :=
  match s with Text _ => true | Block a _ _ => match seg_rows rows a with [] => false | _ => true end end.
(** Cutting a template into text and blocks. *)
Fixpoint cut (cur : list string) (open : option string) (ls : list string) : list seg :=
  match ls with
  | [] => match open with None => [Text cur] | Some a => [Text (a :: cur)] end
  | l :: r =>
      match open with
      | None => if is_start true l then Text cur :: cut [] (Some l) r else cut (cur ++ [l])%list None r
      | Some a => if is_end true l then Block a cur l :: cut [] None r else cut (cur ++ [l])%list (Some a) r
      end
  end.
