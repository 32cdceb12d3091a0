(** The generators of the typed and sized routines (maint/build_typed_api.pl, maint/build_sized_api.pl) as functions on lines, and
    the files they are run on (autogen.sh). A line is a string without its newline. Perl regular expressions used there are plain
    strings. maint/code-cleanup.sh (indentation only) is not modelled. *)
From Coq Require Import String Ascii List Bool.
From Verif Require Import GenData.
Import ListNotations.
Local Open Scope string_scope.

(** Does [s] start with [k]? *)
Fixpoint pre (k s : string) : bool :=
  match k, s with EmptyString, _ => true | String a k', String b s' => Ascii.eqb a b && pre k' s' | _, _ => false end.
(** /k/ : does [k] occur in [s]? *)
Fixpoint has (k s : string) : bool := pre k s || match s with EmptyString => false | String _ r => has k r end.
(** s/k/v/g : leftmost occurrences that do not overlap. [skip]: characters still to drop. *)
Fixpoint sub_from (k v s : string) (skip : nat) : string :=
  match s with
  | EmptyString => EmptyString
  | String c r =>
      match skip with
      | S n => sub_from k v r n
      | O => if pre k s then v ++ sub_from k v r (String.length k - 1) else String c (sub_from k v r 0)
      end
  end.
Definition sub (k v s : string) : string := sub_from k v s 0.

(** Reading a table (build_typed_api.pl:49-66, build_sized_api.pl:49-66): lines with # are skipped, fields are separated by commas,
    white space around them is dropped. Fields that are missing read as the empty string. *)
Definition is_space (c : ascii) : bool := existsb (Ascii.eqb c) [" "%char; "009"%char; "010"%char; "012"%char; "013"%char].
Fixpoint ltrim (s : string) : string := match s with String c r => if is_space c then ltrim r else s | EmptyString => s end.
Fixpoint rtrim (s : string) : string :=
  match s with
  | EmptyString => EmptyString
  | String c r => let t := rtrim r in if is_space c && match t with EmptyString => true | _ => false end then EmptyString else String c t
  end.
Fixpoint split_comma (cur s : string) : list string :=
  match s with
  | EmptyString => [cur]
  | String c r => if Ascii.eqb c ","%char then cur :: split_comma EmptyString r else split_comma (cur ++ String c EmptyString) r
  end.
Definition read_row (l : string) : list string := map (fun f => rtrim (ltrim f)) (split_comma EmptyString l).
Definition read_table (ls : list string) : list (list string) := map read_row (filter (fun l => negb (has "#" l)) ls).
Definition field (r : list string) (n : nat) : string := nth n r EmptyString.

(** The three substitutions, in their order (build_typed_api.pl:98-100; build_sized_api.pl:91-93). *)
Definition expand (typed : bool) (r : list string) (l : string) : string :=
  if typed
  then sub "TYPE" (field r 0) (sub "MPI_TYPE" (field r 2) (sub "TYPENAME" (field r 1) l))
  else sub "SIZE" (field r 0) (sub "MPI_TYPE" (field r 2) (sub "SIZENAME" (field r 1) l)).
Definition is_start (typed : bool) (l : string) : bool := has "TPL_BLOCK_START" l || (typed && has "TPL_C11_BLOCK_START" l).
Definition is_end (typed : bool) (l : string) : bool := has "TPL_BLOCK_END" l || (typed && has "TPL_C11_BLOCK_END" l).
Fixpoint block (typed : bool) (ls : list string) : list string :=
  match ls with [] => [] | l :: r => if is_end typed l then [] else l :: block typed r end.
(** The loop over the template (build_typed_api.pl:71-107; build_sized_api.pl:71-100). *)
Inductive gmode : Type := Plain | First (c11 : bool) | Skip.
Fixpoint gen (typed : bool) (rows : list (list string)) (m : gmode) (ls : list string) : list string :=
  match ls with
  | [] => []
  | l :: r =>
      match m with
      | Skip => gen typed rows (if is_end typed l then Plain else Skip) r
      | _ =>
          if is_start typed l then gen typed rows (First (typed && has "TPL_C11_BLOCK_START" l)) r
          else match m with
               | First c11 =>
                   match filter (fun row => negb (c11 && String.eqb (field row 3) "0")) rows with
                   | [] => gen typed rows Plain r
                   | rs => flat_map (fun row => map (expand typed row) (block typed ls)) rs
                             ++ gen typed rows (if is_end typed l then Plain else Skip) r
                   end
               | _ => l :: gen typed rows Plain r
               end
      end
  end%list.
Definition generate (typed : bool) (table template : list string) : list string := gen typed (read_table table) Plain template.

(** The runs of autogen.sh:207-307 that make the sources of the typed routines. *)
Definition c_runs : list (list string * list string) :=
  [(tab_rma, src_rma); (tab_amo_std, src_amo_std); (tab_amo_ext, src_amo_ext); (tab_amo_bitws, src_amo_bitws); (tab_coll, src_coll);
   (tab_reduce_minmax_aset, src_reduce_minmax_aset); (tab_reduce_sumprod_aset, src_reduce_sumprod_aset);
   (tab_reduce_bitws_aset, src_reduce_bitws_aset); (tab_reduce_minmax_team, src_reduce_minmax_team);
   (tab_reduce_sumprod_team, src_reduce_sumprod_team); (tab_reduce_bitws_team, src_reduce_bitws_team);
   (tab_signal, src_signal); (tab_p2p, src_p2p)].
(** The runs of autogen.sh:107-199 that make the declarations and generic macros of shmem.h. *)
Definition h_runs : list (list string * list string) :=
  [(tab_rma, hdr_rma); (tab_amo_std, hdr_amo_std); (tab_amo_ext, hdr_amo_ext); (tab_amo_bitws, hdr_amo_bitws); (tab_coll, hdr_coll);
   (tab_reduce_minmax_aset, hdr_reduce_minmax_aset); (tab_reduce_sumprod_aset, hdr_reduce_sumprod_aset);
   (tab_reduce_bitws_aset, hdr_reduce_bitws_aset); (tab_reduce_minmax_team, hdr_reduce_minmax_team);
   (tab_reduce_sumprod_team, hdr_reduce_sumprod_team); (tab_reduce_bitws_team, hdr_reduce_bitws_team);
   (tab_signal, hdr_signal); (tab_p2p, hdr_p2p)].
Definition c_text : list (list string) := map (fun p => generate true (fst p) (snd p)) c_runs.
Definition h_text : list (list string) := map (fun p => generate true (fst p) (snd p)) h_runs.
(** The sized routines of RMA (autogen.sh:214-218). *)
Definition sized_text : list string := generate false tab_rma_size src_rma_sized.
