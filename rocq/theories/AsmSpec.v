(** What a header put together from a template and pieces is to be. *)
From Coq Require Import String List Bool.
From Verif Require Import GenModel GenSpec GenSizedModel GenSizedSpec.
Import ListNotations.
Local Open Scope string_scope.

(** The template with every piece after the line that has its key, and nothing else. *)
Inductive placed (pieces : list (string * list string)) : list string -> list string -> Prop :=
  | PNil : placed pieces [] []
  | PLine l t o : (forall k f, In (k, f) pieces -> has k l = false) -> placed pieces t o -> placed pieces (l :: t) (l :: o)
  | PKey l k f t o : In (k, f) pieces -> has k l = true -> placed pieces t o -> placed pieces (l :: t) (l :: f ++ o)%list.
(** Every key is in one line of the template, no line has two, no piece has any. *)
Definition clear (pieces : list (string * list string)) (tpl : list string) : Prop :=
  (forall k f, In (k, f) pieces -> exists a l b, tpl = (a ++ l :: b)%list /\ has k l = true /\ forall x, In x (a ++ b)%list -> has k x = false) /\
  (forall p q s k f k' f' l, pieces = (p ++ (k, f) :: q ++ (k', f') :: s)%list -> In l tpl -> has k l = true -> has k' l = false) /\
  (forall k f k' f' l, In (k, f) pieces -> In (k', f') pieces -> In l f -> has k' l = false).

(** The pieces of the public header and the names of the places where they belong. *)
Definition places : list (string * list string) :=
  (combine ["RMA_TYPED"; "AMO_STD_TYPED"; "AMO_EXT_TYPED"; "AMO_BITWS_TYPED"; "COLL_TYPED"; "REDUCE_MINMAX_ASET_TYPED"; "REDUCE_SUMPROD_ASET_TYPED";
            "REDUCE_BITWS_ASET_TYPED"; "REDUCE_MINMAX_TEAM_TYPED"; "REDUCE_SUMPROD_TEAM_TYPED"; "REDUCE_BITWS_TEAM_TYPED"; "SIGNAL_TYPED"; "P2P_TYPED"] h_text
   ++ combine ["RMA_SIZED"; "SIGNAL_SIZED"] sized_h)%list.
(** [f] is between the two lines that mark the place [m], with nothing else. *)
Definition between (m : string) (f o : list string) : Prop :=
  exists a b, o = (a ++ ("/* SHMEM_" ++ m ++ "_H start */")%string :: f ++ ("/* SHMEM_" ++ m ++ "_H end */")%string :: b)%list.
