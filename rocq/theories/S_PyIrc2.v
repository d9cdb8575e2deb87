(** Sums of a token and who may call what. *)
From Coq Require Import ZArith List Bool.
From Verif Require Import Base GoStr M_JMap M_PyBmv M_PyBmc M_PyToken S_PyToken M_PyIrc2.
Import ListNotations.
Open Scope Z_scope.
Local Notation bytes := (list Z).

Fixpoint supply (tb : list (bytes * Z)) : Z := match tb with [] => 0 | (_, v) :: r => v + supply r end.
(** The balances are in order: one per owner, none below zero *)
Definition fair (tb : list (bytes * Z)) : Prop := NoDup (map fst tb) /\ forall u, 0 <= tbal tb u.
(** Calls of the service that come from outside: not those made by the token, and reclaim is told apart *)
Definition outside (tk : bytes) (c : tcall) : Prop := match c with KFallback t _ _ => t <> tk | KReclaim _ _ _ _ => False | _ => True end.
(** Nobody but the service calls in its name, at any depth; the other calls of the service are as [Q] says *)
Inductive proper (tk bs : bytes) (Q : tcall -> Prop) : act -> Prop :=
| P_send : forall f t v l ok, f <> bs -> Forall (proper tk bs Q) l -> proper tk bs Q (ASend f t v l ok)
| P_reclaim : forall u n v l ok, u <> bs -> Forall (proper tk bs Q) l -> proper tk bs Q (AReclaim u n v l ok)
| P_call : forall c, outside tk c -> Q c -> proper tk bs Q (ACall c).
(** Somewhere in what happens [u] sends tokens themselves *)
Inductive sends (u : bytes) : act -> Prop :=
| SD_here : forall t v l ok, sends u (ASend u t v l ok)
| SD_in_send : forall f t v l ok x, In x l -> sends u x -> sends u (ASend f t v l ok)
| SD_in_reclaim : forall c n v l ok x, In x l -> sends u x -> sends u (AReclaim c n v l ok).
