(** Specification vocabulary for fragments: a history of accepted calls and what it assembles. *)
From Coq Require Import ZArith List Bool.
From Verif Require Import Base M_Fragment.
Import ListNotations.
Open Scope Z_scope.

(** [hist] lists the accepted fragments, latest first, as (index, bytes).  The pieces collected so far are the
    bytes since the latest start (negative index), without those that completed a message (index 0). *)
Fixpoint collected (hist : list (Z * list Z)) : list (list Z) :=
  match hist with
  | [] => []
  | (i, b) :: h => if i <? 0 then [b] else if i =? 0 then collected h else collected h ++ [b]
  end.
(** How many pieces the latest start announced. *)
Fixpoint announced (hist : list (Z * list Z)) : Z :=
  match hist with [] => 0 | (i, b) :: h => if i <? 0 then - i else announced h end.

(** States reachable from the empty one by accepted fragments of a relay, with the history. *)
Inductive reached : option fstate -> list (Z * list Z) -> Prop :=
| R0 : reached None []
| RS : forall st h text idx b st' o, reached st h -> - (2 ^ 31 - 1) <= idx < 2 ^ 31 -> b64_decode text = Some b ->
    handleFragment st text idx = Some (st', o) -> reached st' ((idx, b) :: h).
