(** What the routines written by hand must be: declared and defined alike, and made of one call that hands every argument to the
    parameter that is meant for it. C text is read with the lexer of GenSpec.v and a parser of its own. *)
From Coq Require Import String Ascii List Bool ZArith.
From Verif Require Import GenData GenModel GenSpec HandData HandModel.
Import ListNotations.
Local Open Scope string_scope.

(** * Reading C *)
Definition mem_of (x : string) (l : list string) : bool := existsb (String.eqb x) l.
Fixpoint same_words (a b : list string) : bool :=
  match a, b with [], [] => true | x :: p, y :: q => String.eqb x y && same_words p q | _, _ => false end.
(** Items at the outer level: a header and, for a function, its body. [body]: None outside of braces, Some (n, ws) inside [n] of
    them. Braces that do not follow a parameter list belong to a type and are dropped with what they hold. *)
Fixpoint items (hdr : list string) (body : option (nat * list string)) (ts : list string) : list (list string * option (list string)) :=
  match ts with
  | [] => []
  | t :: r =>
      match body with
      | None =>
          if String.eqb t "{" then items hdr (Some (1, [])) r
          else if String.eqb t ";" then (rev hdr, None) :: items [] None r
          else items (t :: hdr) None r
      | Some (n, b) =>
          if String.eqb t "{" then items hdr (Some (S n, t :: b)) r
          else if String.eqb t "}" then
            match n with
            | 1 => if mem_of ")" hdr then (rev hdr, Some (rev b)) :: items [] None r else items hdr None r
            | _ => items hdr (Some (Nat.pred n, t :: b)) r
            end
          else items hdr (Some (n, t :: b)) r
      end
  end.
Definition item : Type := (list string * option (list string))%type.
(** Function declarations and definitions; typedefs and variables are left out. *)
Definition functions_of (ls : list string) : list item :=
  filter (fun i => mem_of "(" (fst i) && negb (mem_of "typedef" (fst i))) (items [] None (tokens false ls)).
Definition declarations (c11 : bool) : list (list string) :=
  map fst (filter (fun i => match snd i with None => true | _ => false end) (flat_map functions_of (program_text c11))).
Definition definitions (c11 : bool) : list item :=
  filter (fun i => match snd i with Some _ => true | _ => false end) (flat_map functions_of (library_text c11)).
(** A prototype without the words that do not belong to the type of the function. *)
Definition proto (h : list string) : list string :=
  filter (fun w => negb (mem_of w ["_Noreturn"; "OSHMPI_STATIC_INLINE_PREFIX"])) h.

(** * Parts of a prototype and of a call *)
(** Pieces between commas, outside of parentheses. *)
Fixpoint pieces (d : nat) (cur ts : list string) : list (list string) :=
  match ts with
  | [] => [rev cur]
  | t :: r =>
      if String.eqb t "," && Nat.eqb d 0 then rev cur :: pieces d [] r
      else pieces (if String.eqb t "(" then S d else if String.eqb t ")" then Nat.pred d else d) (t :: cur) r
  end.
(** The words between the first parenthesis and the last word, which must be its counterpart. *)
Fixpoint after_paren (ts : list string) : list string := match ts with [] => [] | t :: r => if String.eqb t "(" then r else after_paren r end.
Definition inside (ts : list string) : option (list string) :=
  match rev (after_paren ts) with t :: r => if String.eqb t ")" then Some (rev r) else None | [] => None end.
Definition parts (ts : list string) : list (list string) :=
  match inside ts with Some [] => [] | Some l => pieces 0 [] l | None => [] end.
(** A parameter: the words of its type, its name. An attribute after the name is dropped. *)
Fixpoint before (k : string) (l : list string) : list string := match l with [] => [] | x :: r => if String.eqb x k then [] else x :: before k r end.
Definition param (p : list string) : list string * string :=
  let q := before "OSHMPI_ATTRIBUTE" p in (removelast q, last q EmptyString).
Definition params (h : list string) : list (list string * string) :=
  match parts h with [v] => if same_words v ["void"] then [] else [param v] | l => map param l end.
(** * What a routine must pass *)
(** What a parameter of the internal routine gets: given words; an MPI datatype of a given number of bytes; a parameter of the
    public routine, of the same type or cast to it. *)
Inductive arg : Type := Lit (ws : list string) | Bytes (n : Z) | Par (x : string).
(** How the call stands in the body: alone; its result returned; its result kept and returned; alone after the pragma; for a team:
    after the object of the team was looked up, before SHMEM_SUCCESS is returned. *)
Inductive shape : Type := Alone | Return | Keep (x : string) | Pragma | OfTeam | PragmaReturn.
Record row : Type := mkRow { r_name : string; r_calls : string; r_shape : shape; r_args : list (string * arg) }.

Definition pragma : list string := ["OSHMPI_NOINLINE_RECURSIVE"; "("; ")"].
Definition body_of (s : shape) (call : list string) : list string :=
  (match s with
  | Alone => call ++ [";"]
  | Return => "return" :: call ++ [";"]
  | Keep x => ["void"; "*"; x; "="; "NULL"; ";"] ++ pragma ++ x :: "=" :: call ++ [";"; "return"; x; ";"]
  | Pragma => pragma ++ call ++ [";"]
  | PragmaReturn => pragma ++ "return" :: call ++ [";"]
  | OfTeam => tokens false ["OSHMPI_team_t *team_obj; OSHMPI_TEAM_GET_OBJ(team, team_obj);"] ++ call ++ tokens false ["; return SHMEM_SUCCESS;"]
  end)%list.
(** The prototypes of the internal routines; the macro of the waits has parameters without types. *)
Definition internals : list (list string) :=
  map (fun ls => proto (tokens false ls)) (p_rma ++ p_coll ++ p_aset ++ p_order ++ p_lock ++ p_mem ++ p_space ++ p_setup ++ p_ctx).
Definition wait_macro : list string := tl (tl (removelast (removelast (tokens false p_wait)))).
(** Macros for datatypes: #define NAME VALUE. *)
Fixpoint defines (ts : list string) : list (string * string) :=
  match ts with
  | h :: d :: n :: v :: r => if String.eqb h "#" && String.eqb d "define" then (n, v) :: defines r else []
  | _ => []
  end.
Definition macro (w : string) : string := match find w (defines (tokens false p_colltypes)) with Some v => v | None => w end.
Definition width (w : string) : option Z :=
  if String.eqb w "MPI_BYTE" then Some 1%Z else option_map snd (find w mpi_types).
(** Types that C takes for each other without a cast: equal ones; shmemx_space_t is a pointer to void (shmemx.h.in:12). *)
Definition converts (t u : list string) : bool := same_words t u || same_words t ["shmemx_space_t"] && String.eqb (last u EmptyString) "*".
(** The parameter [q] of the internal routine gets the argument [a] in the public routine with parameters [ps]. *)
Definition right (r : row) (ps : list (list string * string)) (typed : bool) (q : list string * string) (a : list string) : bool :=
  match find (snd q) (r_args r) with
  | Some (Lit ws) => same_words a ws
  | Some (Bytes n) => match a with [w] => match width (macro w) with Some m => (m =? n)%Z | None => false end | _ => false end
  | w => let x := match w with Some (Par x) => x | _ => snd q end in
         match filter (fun p => String.eqb (snd p) x) ps with
         | [p] => same_words a [x] && (negb typed || converts (fst p) (fst q)) || same_words a (("(" :: fst q) ++ [")"; x])%list
         | _ => false
         end
  end.
Definition zip_all {A B} (f : A -> B -> bool) (l : list A) (m : list B) : bool :=
  Nat.eqb (List.length l) (List.length m) && forallb (fun p => f (fst p) (snd p)) (combine l m).
(** The statement of the body that holds the call, from the internal name to its last parenthesis. *)
Definition is_name (n : string) (h : list string) : bool := String.eqb (name_of h) n.
Fixpoint call_in (n : string) (ts : list string) : list string :=
  match ts with [] => [] | t :: r => if String.eqb t n then before ";" ts else call_in n r end.
(** The routine [f] is made of one call of the internal routine [d], each of whose parameters gets what it must get. *)
Definition passes (r : row) (d : list string) (f : item) : bool :=
  let typed := negb (same_words d wait_macro) in
  match snd f with
  | Some b =>
      let c := call_in (r_calls r) b in
      same_words b (body_of (r_shape r) c) &&
      is_name (r_calls r) d && is_name (r_name r) (fst f) &&
      zip_all (right r (params (proto (fst f))) typed) (if typed then params d else map (fun p => ([], last p EmptyString)) (parts d)) (parts c)
  | None => false
  end.

(** ** The table *)
Definition here : string * arg := ("ctx", Lit ["SHMEM_CTX_DEFAULT"]).
Definition put_like (n k : string) : list row :=
  [mkRow ("shmem_ctx_" ++ n) k Alone [("mpi_type", Bytes 1); ("typesz", Lit ["1"]); ("origin_addr", Par "source"); ("target_addr", Par "dest")];
   mkRow ("shmem_" ++ n) k Alone [here; ("mpi_type", Bytes 1); ("typesz", Lit ["1"]); ("origin_addr", Par "source"); ("target_addr", Par "dest")]].
Definition get_like (n k : string) : list row :=
  [mkRow ("shmem_ctx_" ++ n) k Alone [("mpi_type", Bytes 1); ("typesz", Lit ["1"]); ("origin_addr", Par "dest"); ("target_addr", Par "source")];
   mkRow ("shmem_" ++ n) k Alone [here; ("mpi_type", Bytes 1); ("typesz", Lit ["1"]); ("origin_addr", Par "dest"); ("target_addr", Par "source")]].
Definition of_team (op : string) : row :=
  mkRow ("shmem_" ++ op ++ "mem") ("OSHMPI_" ++ op ++ "_team") OfTeam [("team", Lit ["team_obj"]); ("mpi_type", Bytes 1)].
Definition of_set (op : string) : list row :=
  [mkRow ("shmem_" ++ op ++ "32") ("OSHMPI_" ++ op) Alone [("mpi_type", Bytes 4)];
   mkRow ("shmem_" ++ op ++ "64") ("OSHMPI_" ++ op) Alone [("mpi_type", Bytes 8)]].
Definition colls : list string := ["broadcast"; "collect"; "fcollect"; "alltoall"; "alltoalls"].
Definition wait_row (n cmp ty mpi : string) : row :=
  mkRow n "OSHMPI_WAIT_UNTIL" Alone
    [("ivar", Par "ivar"); ("comp_op", if String.eqb cmp "cmp" then Par "cmp" else Lit [cmp]); ("comp_value", Par "cmp_value");
     ("C_TYPE", Lit (tokens false [ty])); ("MPI_TYPE", Lit [mpi])].
Definition table (c11 : bool) : list row :=
  (put_like "putmem" "OSHMPI_ctx_put" ++ put_like "putmem_nbi" "OSHMPI_ctx_put_nbi" ++
   get_like "getmem" "OSHMPI_ctx_get" ++ get_like "getmem_nbi" "OSHMPI_ctx_get_nbi" ++
   map of_team colls ++ flat_map of_set colls ++
   [mkRow "shmem_barrier_all" "OSHMPI_barrier_all" Alone []; mkRow "shmem_sync_all" "OSHMPI_sync_all" Alone [];
    mkRow "shmem_barrier" "OSHMPI_barrier" Alone []; mkRow "shmem_sync_aset" "OSHMPI_sync" Alone [];
    mkRow "shmem_fence" "OSHMPI_ctx_fence" Alone [here]; mkRow "shmem_ctx_fence" "OSHMPI_ctx_fence" Alone [];
    mkRow "shmem_quiet" "OSHMPI_ctx_quiet" Alone [here]; mkRow "shmem_ctx_quiet" "OSHMPI_ctx_quiet" Alone [];
    mkRow "shmem_set_lock" "OSHMPI_set_lock" Alone [("lockp", Par "lock")]; mkRow "shmem_clear_lock" "OSHMPI_clear_lock" Alone [("lockp", Par "lock")];
    mkRow "shmem_test_lock" "OSHMPI_test_lock" Return [("lockp", Par "lock")];
    mkRow "shmem_malloc" "OSHMPI_malloc" (Keep "ptr") []; mkRow "shmem_malloc_with_hints" "OSHMPI_malloc" (Keep "ptr") [];
    mkRow "shmem_realloc" "OSHMPI_realloc" (Keep "ptrr") []; mkRow "shmem_align" "OSHMPI_align" (Keep "ptr") [];
    mkRow "shmem_free" "OSHMPI_free" Pragma []; mkRow "shmem_finalize" "OSHMPI_finalize" Pragma [];
    mkRow "shmalloc" "shmem_malloc" Return []; mkRow "shfree" "shmem_free" Return [];
    mkRow "shrealloc" "shmem_realloc" Return []; mkRow "shmemalign" "shmem_align" Return [];
    mkRow "_my_pe" "shmem_my_pe" Return []; mkRow "_num_pes" "shmem_n_pes" Return [];
    mkRow "shmemx_space_create" "OSHMPI_space_create" Pragma [("space_ptr", Par "space")]; mkRow "shmemx_space_destroy" "OSHMPI_space_destroy" Pragma [];
    mkRow "shmemx_space_create_ctx" "OSHMPI_space_create_ctx" PragmaReturn [("ctx_ptr", Par "ctx")];
    mkRow "shmemx_space_attach" "OSHMPI_space_attach" Pragma []; mkRow "shmemx_space_detach" "OSHMPI_space_detach" Pragma [];
    mkRow "shmemx_space_malloc" "OSHMPI_space_malloc" (Keep "ptr") []; mkRow "shmemx_space_align" "OSHMPI_space_align" (Keep "ptr") [];
    wait_row "shmem_short_wait" "SHMEM_CMP_NE" "short" "MPI_SHORT"; wait_row "shmem_int_wait" "SHMEM_CMP_NE" "int" "MPI_INT";
    wait_row "shmem_long_wait" "SHMEM_CMP_NE" "long" "MPI_LONG"; wait_row "shmem_longlong_wait" "SHMEM_CMP_NE" "long long" "MPI_LONG_LONG"] ++
   (if c11 then [] else [wait_row "shmem_wait_until" "cmp" "long" "MPI_LONG"; wait_row "shmem_wait" "SHMEM_CMP_NE" "long" "MPI_LONG"]))%list.
(** The internal routines, and public ones that others call. *)
Definition callees (c11 : bool) : list (list string) := (wait_macro :: internals ++ map (fun f => proto (fst f)) (definitions c11))%list.

(** Routines without any effect: they return at once. *)
Definition no_effect : list string :=
  ["shmem_clear_cache_inv"; "shmem_set_cache_inv"; "shmem_clear_cache_line_inv"; "shmem_set_cache_line_inv"; "shmem_udcflush";
   "shmem_udcflush_line"; "shmem_pcontrol"].
(** Routines with a body of their own; the properties that describe them are named in the other files. *)
Definition own_body : list string :=
  ["shmem_init"; "shmem_my_pe"; "shmem_n_pes"; "shmem_global_exit"; "shmem_init_thread"; "shmem_query_thread"; "shmem_pe_accessible";
   "shmem_addr_accessible"; "shmem_ptr"; "shmem_info_get_version"; "shmem_info_get_name"; "start_pes"; "shmem_calloc"; "shmem_ctx_create";
   "shmem_ctx_destroy"; "shmem_team_create_ctx"; "shmem_ctx_get_team"; "shmem_team_my_pe"; "shmem_team_n_pes"; "shmem_team_get_config";
   "shmem_team_translate_pe"; "shmem_team_split_strided"; "shmem_team_split_2d"; "shmem_team_destroy"; "shmem_team_sync"; "shmem_signal_wait_until";
   "shmem_putmem_signal"; "shmem_ctx_putmem_signal"; "shmem_putmem_signal_nbi"; "shmem_ctx_putmem_signal_nbi"; "shmem_signal_fetch";
   "shmemx_space_calloc"].
