(** Specification vocabulary for teams. *)
From Verif Require Import Base TeamModel.

(** Groups that teams can have: the world, the shared team, and anything a split of such a
    group hands out. *)
Inductive team_reach (G : tglobal) : team -> Prop :=
| TR_world : team_reach G TWorld
| TR_shared : team_reach G TShared
| TR_strided : forall parent start stride size l rc t,
    team_reach G parent -> split_strided G parent start stride size = Ok l ->
    In (rc, t) l -> t <> TInvalid -> team_reach G t
| TR_2d_x : forall parent xrange l rc x y,
    team_reach G parent -> split_2d G parent xrange = Ok l ->
    In (rc, x, y) l -> x <> TInvalid -> team_reach G x
| TR_2d_y : forall parent xrange l rc x y,
    team_reach G parent -> split_2d G parent xrange = Ok l ->
    In (rc, x, y) l -> y <> TInvalid -> team_reach G y.

(** World rank of member [a] of team [t]. *)
Definition member (G : tglobal) (t : team) (a : Z) : option Z :=
  match team_group G t with Some g => aget g a | None => None end.
