(** What the size-suffixed routines must be (OpenSHMEM 1.5, 9.5, 9.9): the suffix is the size of an element in bits. *)
From Coq Require Import String List Bool ZArith.
From Verif Require Import GenData GenModel GenSpec GenSizedModel.
Import ListNotations.
Local Open Scope string_scope.

(** Suffix, size of an element in bytes, that size as C text. *)
Definition sizes : list (string * Z * string) := [("8", 1%Z, "1"); ("16", 2%Z, "2"); ("32", 4%Z, "4"); ("64", 8%Z, "8"); ("128", 16%Z, "16")].
(** A word; the context; an MPI datatype of the size; the index of such a datatype in active messages; the size of an element. *)
Inductive spat : Type := SW (s : string) | SCtx | SDt | SAm | SSize.
Definition of_size (b : Z) (t : string) : bool := match find t mpi_types with Some v => (snd v =? b)%Z | None => false end.
Definition am_of_size (b : Z) (t : string) : bool := match entry dt_table t with Some m => of_size b m | None => false end.
(** [size]: the text of the size. *)
Definition smeet (ctx : bool) (b : Z) (size : string) (p : spat) (t : string) : bool :=
  match p with
  | SW s => String.eqb s t
  | SCtx => String.eqb t (if ctx then "ctx" else "SHMEM_CTX_DEFAULT")
  | SDt => of_size b t
  | SAm => am_of_size b t
  | SSize => String.eqb t size
  end.
Fixpoint smeets (ctx : bool) (b : Z) (size : string) (ps : list spat) (ts : list string) : bool :=
  match ps, ts with [], [] => true | p :: ps', t :: ts' => smeet ctx b size p t && smeets ctx b size ps' ts' | _, _ => false end.
Definition sws (s : string) : list spat := map SW (tokens false [s]).
Fixpoint ssep (l : list (list spat)) : list spat := match l with [] => [] | [a] => a | a :: r => a ++ SW "," :: ssep r end%list.
Definition scall (f : string) (args : list (list spat)) : list spat := (SW f :: SW "(" :: ssep args ++ [SW ")"])%list.

(** Name before and after the suffix, parameters, the one statement. *)
Definition sspec : Type := (string * string * list (list spat) * list spat)%type.
Definition mem : list (list spat) := [sws "void * dest"; sws "const void * source"].
Definition num : list (list spat) := [sws "size_t nelems"; sws "int pe"].
Definition str : list (list spat) := [sws "ptrdiff_t dst"; sws "ptrdiff_t sst"].
Definition contig (f origin target : string) : list spat :=
  scall f [[SCtx]; [SDt]; [SSize]; sws origin; sws target; sws "nelems"; sws "pe"].
Definition strided (f origin target : string) : list spat :=
  scall f [[SCtx]; [SDt]; [SAm]; sws origin; sws target; sws "dst"; sws "sst"; sws "nelems"; sws "pe"].
Definition rma_sized : list sspec :=
  [("get", "", mem ++ num, contig "OSHMPI_ctx_get" "dest" "source"); ("get", "_nbi", mem ++ num, contig "OSHMPI_ctx_get_nbi" "dest" "source");
   ("iget", "", mem ++ str ++ num, strided "OSHMPI_ctx_iget" "dest" "source"); ("put", "", mem ++ num, contig "OSHMPI_ctx_put" "source" "dest");
   ("iput", "", mem ++ str ++ num, strided "OSHMPI_ctx_iput" "source" "dest"); ("put", "_nbi", mem ++ num, contig "OSHMPI_ctx_put_nbi" "source" "dest")]%list.
(** Signals are not implemented and fail loudly. *)
Definition sig_params : list (list spat) :=
  (mem ++ [sws "size_t nelems"; sws "uint64_t * sig_addr"; sws "uint64_t signal"; sws "int sig_op"; sws "int pe"])%list.
Definition signal_sized : list sspec :=
  [("put", "_signal", sig_params, scall "OSHMPI_ASSERT" [sws "0"]); ("put", "_signal_nbi", sig_params, scall "OSHMPI_ASSERT" [sws "0"])].

(** Context or not, size, routine. *)
Definition srt : Type := (bool * (string * Z * string) * sspec)%type.
Definition srts (l : list sspec) : list srt := flat_map (fun z => flat_map (fun s => [(false, z, s); (true, z, s)]) l) sizes.
(** [f] is the routine, with [size] of an element given as the suffix (true) or in bytes (false). *)
Definition sized_as (suffix : bool) (r : srt) (f : cfun) : bool :=
  let '(ctx, (name, b, bytes), (pre, post, params, stmt)) := r in
  let size := if suffix then name else bytes in
  let hdr := (SW "void" :: scall ("shmem_" ++ (if ctx then "ctx_" else "") ++ pre ++ name ++ post)
                                 ((if ctx then [sws "shmem_ctx_t ctx"] else []) ++ params))%list in
  smeets ctx b size hdr (fst f) &&
  match snd f with Some [s; []] => smeets ctx b size stmt s | _ => false end.
(** Does the routine give the size of an element? *)
Definition gives_size (r : srt) : bool := existsb (fun p => match p with SSize => true | _ => false end) (snd (snd r)).
Definition sized_files : list (list string * list string * list sspec) := combine (combine sized_c sized_h) [rma_sized; signal_sized].
