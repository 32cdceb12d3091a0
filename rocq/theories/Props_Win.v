(** Property theorems C98 (one window for one object). *)
From Verif Require Import Base AmCfgModel OrderModel WinModel WinSpec WinProofs.

(** Every window used for an object exposes it. *)
Theorem C98_exposed : forall c s o a ls l, in_reach (given_ctx a) o ->
  windows_of c s o a = Ok ls -> In l ls -> exposes s l o = true.
Proof. exact window_exposes. Qed.

(** Any two calls of any kinds, at any times, by any PEs: those that access an object by MPI RMA use
    the same window exactly if they are made in the same context. So there is no clash as long as an
    object is used in one context. Missing: see below. *)
Theorem C98_same_partial : forall c s1 s2 o a1 a2 ls1 ls2 l1 l2,
  in_reach (given_ctx a1) o -> in_reach (given_ctx a2) o ->
  windows_of c s1 o a1 = Ok ls1 -> windows_of c s2 o a2 = Ok ls2 -> In l1 ls1 -> In l2 ls2 ->
  (l1 = l2 <-> given_ctx a1 = given_ctx a2).
Proof. exact same_window. Qed.

(** A space with two contexts, attached; both kinds of windows. *)
Definition wcfg (dyn : bool) : oconf := mkOconf 2 dyn true true CDirect DbgAuto true true true.
Definition wspace : list olab :=
  [OCall 0 (CCreate 7 2 false); OGo 0 true; OGo 0 true; OCall 0 (CAttach 7); OGo 0 true; OGo 0 true].
Definition wst (dyn : bool) : ost := match orun (wcfg dyn) o_init wspace with Ok (s, _) => s | _ => o_init end.

Example C98_ex : windows_of (wcfg false) (wst false) (OSpace 7) (WRma XDefault KPutNbi false) = Ok [LDef 7] /\
  windows_of (wcfg false) (wst false) (OSpace 7) WWait = Ok [LDef 7] /\
  windows_of (wcfg true) (wst true) OHeap WLock = Ok [LSymm].
Proof. split; [|split]; reflexivity. Qed.

(** A flag in a space, set by an atomic in a context of that space and waited for: wait_until takes no context
    and uses the window of the default context. Two windows, with or without a dynamic window. *)
Theorem C98_wait_refuted : forall dyn, exists ls s log l1 l2, orun (wcfg dyn) o_init ls = Ok (s, log) /\
  windows_of (wcfg dyn) s (OSpace 7) (WRma (XSpace 7 0) KPost false) = Ok [l1] /\
  windows_of (wcfg dyn) s (OSpace 7) WWait = Ok [l2] /\ window_clash s (OSpace 7) l1 l2.
Proof.
  intros dyn. exists wspace, (wst dyn).
  destruct dyn; eexists; eexists; eexists; (split; [reflexivity|]); (split; [reflexivity|]); (split; [reflexivity|]);
    (split; [discriminate|split; reflexivity]).
Qed.

(** Two PEs increment a counter atomically in two contexts of the space: two windows, so MPI does
    not make the two accumulates atomic. *)
Theorem C98_atomic_refuted : forall dyn, exists ls s log l1 l2, orun (wcfg dyn) o_init ls = Ok (s, log) /\
  windows_of (wcfg dyn) s (OSpace 7) (WRma (XSpace 7 0) KPost false) = Ok [l1] /\
  windows_of (wcfg dyn) s (OSpace 7) (WRma (XSpace 7 1) KPost false) = Ok [l2] /\ window_clash s (OSpace 7) l1 l2.
Proof.
  intros dyn. exists wspace, (wst dyn).
  destruct dyn; eexists; eexists; eexists; (split; [reflexivity|]); (split; [reflexivity|]); (split; [reflexivity|]);
    (split; [discriminate|split; reflexivity]).
Qed.

Print Assumptions C98_exposed.
Print Assumptions C98_same_partial.
Print Assumptions C98_wait_refuted.
Print Assumptions C98_atomic_refuted.
