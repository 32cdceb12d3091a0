(** What the help texts of configure say about its options (configure.ac:196-207, 322-334, 358-370,
    420-424, 435-439, 450-457, 513-518, 546-556, 581-585, 620-624). *)
From Verif Require Import Base AmCfgModel EnvModel CfgModel.
From Coq Require Import String Ascii.
Open Scope string_scope.
Open Scope list_scope.

(** The documented values and what each asks for. *)
Definition threads_doc : list (string * build_level) :=
  [("single", BSingle); ("funneled", BFunneled); ("serialized", BSerialized);
   ("multiple", BMultiple)].
Definition method_doc : list (string * choice) :=
  [("auto", CRuntime); ("direct", CDirect); ("am", CAm)].
Definition async_doc : list (string * async) := [("yes", AYes); ("no", ANo); ("auto", ARuntime)].
Definition win_doc : list (string * bool) := [("dynamic_win", true); ("win_creates", false)].
Definition yes_no_doc : list (string * bool) := [("yes", true); ("no", false)].

(** Value of an option, or the default its help text names. *)
Definition asked (dflt : string) (o : option string) : string :=
  match o with Some v => v | None => dflt end.

(** What a machine must have for these options. *)
Definition possible (h : host) (o : opts) : Prop :=
  (asked "multiple" (o_threads o) = "multiple" ->
     h_opa h = true /\ (h_lpthread h = true -> h_mutex h = true)) /\
  (asked "no" (o_cuda o) = "yes" -> h_cuda h = true) /\
  (asked "no" (o_ze o) = "yes" -> h_ze h = true).
Definition listed {A : Type} (v : string) (doc : list (string * A)) : Prop :=
  exists a, In (v, a) doc.
(** The option values configure takes. *)
Definition accepted (o : opts) : Prop :=
  listed (asked "multiple" (o_threads o)) threads_doc /\
  listed (asked "auto" (o_amo o)) method_doc /\
  listed (asked "auto" (o_rma o)) method_doc /\
  listed (asked "no" (o_async o)) async_doc /\
  listed (asked "win_creates" (o_win o)) win_doc /\
  (asked "no" (o_async o) <> "no" -> asked "multiple" (o_threads o) = "multiple") /\
  (asked "multiple" (o_threads o) = "multiple" ->
     In (asked "default" (o_pkg o)) ["default"; "posix"; "pthreads"]).

(** --enable-fast: a list of words. *)
Definition word (w : string) : Prop := w <> "" /\ ~ In ","%char (list_ascii_of_string w).
Definition o_word (w : string) : Prop := exists r, w = String "O" r.
(** The last word of the list with property [P], and the words after it without. *)
Definition last_with (P : string -> Prop) (ws : list string) (w : string) : Prop :=
  exists a b, ws = a ++ w :: b /\ P w /\ forall x, In x b -> ~ P x.
Definition no_one (P : string -> Prop) (ws : list string) : Prop := forall x, In x ws -> ~ P x.

(** Words that settle the optimisation flag, the removal of checks, and the interprocedural flag. *)
Definition sets_o (w : string) : Prop := o_word w \/ In w ["most"; "yes"; "all"; "none"; "no"].
Definition sets_n (w : string) : Prop := In w ["ndebug"; "most"; "yes"; "all"; "none"; "no"].
Definition o_text (w : string) (r : string) : Prop :=
  (o_word w /\ r = w) \/ (In w ["most"; "yes"; "all"] /\ r = "O2") \/
  (In w ["none"; "no"] /\ r = "").

(** The flags a list of words leads to. *)
Definition fast_flags (ws : list string) (f : fast) : Prop :=
  ((no_one sets_o ws /\ f_opts f = "O2") \/
   exists w, last_with sets_o ws w /\ o_text w (f_opts f)) /\
  (f_ndebug f = true <->
   exists w, last_with sets_n ws w /\ ~ In w ["none"; "no"]) /\
  (f_ipo f = true <-> exists w, In w ws /\ In w ["ipo"; "all"]).

(** The options a program prints with OSHMPI_VERBOSE, given to configure again. --enable-g,
    --enable-ze and the thread package are not printed, so they are passed on from before. *)
Definition printed (o : opts) (ms : list macro) : opts :=
  {| o_fast := Some (print_fast ms); o_g := o_g o; o_threads := Some (print_threads ms);
     o_amo := Some (print_amo ms); o_rma := Some (print_rma ms);
     o_track := Some (print_track ms); o_cache := Some (print_cache ms);
     o_async := Some (print_async ms); o_pkg := o_pkg o; o_win := Some (print_win ms);
     o_cuda := Some (print_cuda ms); o_ze := o_ze o |}.
(** The same without what is not printed. *)
Definition printed_only (ms : list macro) : opts :=
  {| o_fast := Some (print_fast ms); o_g := None; o_threads := Some (print_threads ms);
     o_amo := Some (print_amo ms); o_rma := Some (print_rma ms);
     o_track := Some (print_track ms); o_cache := Some (print_cache ms);
     o_async := Some (print_async ms); o_pkg := None; o_win := Some (print_win ms);
     o_cuda := Some (print_cuda ms); o_ze := None |}.
Definition plain : opts :=
  {| o_fast := None; o_g := None; o_threads := None; o_amo := None; o_rma := None;
     o_track := None; o_cache := None; o_async := None; o_pkg := None; o_win := None;
     o_cuda := None; o_ze := None |}.
Definition machine : host :=
  {| h_opa := true; h_lpthread := true; h_mutex := true; h_cuda := true; h_ze := true |}.
(** Several options at once. *)
Definition ex_opts : opts :=
  {| o_fast := Some "O3,ndebug,ipo"; o_g := None; o_threads := None; o_amo := Some "direct";
     o_rma := Some "am"; o_track := Some "no"; o_cache := None; o_async := Some "auto";
     o_pkg := Some "posix"; o_win := Some "dynamic_win"; o_cuda := None; o_ze := Some "yes" |}.
(** Options of one kind only, for the refutations. *)
Definition with_fast (v : string) (g : option string) : opts :=
  {| o_fast := Some v; o_g := g; o_threads := None; o_amo := None; o_rma := None; o_track := None;
     o_cache := None; o_async := None; o_pkg := None; o_win := None; o_cuda := None; o_ze := None |}.
