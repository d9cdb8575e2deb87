(** Specification: when two JSON values are the same for the purpose of signing. *)
From Coq Require Import ZArith List Bool Permutation.
From Verif Require Import Base M_Serialize.
Import ListNotations.
Open Scope Z_scope.

(** Objects have distinct keys and numbers are 64-bit, at every depth. *)
Fixpoint wf (v : jval) : Prop :=
  match v with
  | JList l => (fix go l := match l with [] => True | x :: r => wf x /\ go r end) l
  | JDict d => NoDup (map fst d) /\ (fix go d := match d with [] => True | x :: r => wf (snd x) /\ go r end) d
  | JNum z => - 2 ^ 63 <= z < 2 ^ 63
  | _ => True
  end.

(** Empty strings at the head of a list leave no trace. *)
Fixpoint drop_empty (l : list jval) : list jval := match l with JStr [] :: r => drop_empty r | _ => l end.

(** Equal up to the order of object entries, the type of numbers, and empty strings at the head of lists. *)
Inductive same : jval -> jval -> Prop :=
| same_null : same JNull JNull
| same_str : forall s, same (JStr s) (JStr s)
| same_num : forall z, same (JNum z) (JNum z)
| same_num_str : forall z, same (JNum z) (JStr (FormatDec z))
| same_str_num : forall z, same (JStr (FormatDec z)) (JNum z)
| same_bool : forall b, same (JBool b) (JBool b)
| same_list : forall l l', Forall2 same (drop_empty l) (drop_empty l') -> same (JList l) (JList l')
| same_dict : forall d d' d2, Permutation d2 d' -> Forall2 (fun a b => fst a = fst b /\ same (snd a) (snd b)) d d2 -> same (JDict d) (JDict d').

(** Equality up to the order of object entries only. *)
Inductive reordered : jval -> jval -> Prop :=
| ro_atom : forall v, match v with JList _ | JDict _ => False | _ => True end -> reordered v v
| ro_list : forall l l', Forall2 reordered l l' -> reordered (JList l) (JList l')
| ro_dict : forall d d' d2, Permutation d2 d' -> Forall2 (fun a b => fst a = fst b /\ reordered (snd a) (snd b)) d d2 -> reordered (JDict d) (JDict d').

(** Values on which nothing is lost: no numbers, no list starting with the empty string. *)
Fixpoint strict (v : jval) : Prop :=
  match v with
  | JNum _ => False
  | JList l => match l with JStr [] :: _ => False | _ => True end /\ (fix go l := match l with [] => True | x :: r => strict x /\ go r end) l
  | JDict d => (fix go d := match d with [] => True | x :: r => strict (snd x) /\ go r end) d
  | _ => True
  end.
