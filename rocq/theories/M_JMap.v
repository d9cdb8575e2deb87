(** Association lists standing for the contracts' dictionaries.  [aput]/[adel] are also the order in which
    EnumerableDictDB enumerates (proved in T_JDict.v): put keeps the place of a known key and appends a new one,
    remove moves the last entry into the gap. *)
From Coq Require Import String Ascii ZArith List Bool.
Import ListNotations.
Open Scope nat_scope.

Section MAP.
Context {K V : Type}.
Variable keqb : K -> K -> bool.
Fixpoint aget (k : K) (l : list (K * V)) : option V :=
  match l with
  | [] => None
  | (k', v) :: l' => if keqb k k' then Some v else aget k l'
  end.
Fixpoint aput (k : K) (v : V) (l : list (K * V)) : list (K * V) :=
  match l with
  | [] => [(k, v)]
  | (k', v') :: l' => if keqb k k' then (k, v) :: l' else (k', v') :: aput k v l'
  end.
Fixpoint adel (k : K) (l : list (K * V)) : list (K * V) :=
  match l with
  | [] => []
  | (k', v') :: l' =>
      if keqb k k' then match l' with [] => [] | x :: _ => last l' x :: removelast l' end
      else (k', v') :: adel k l'
  end.
Definition ahas (k : K) (l : list (K * V)) : bool := match aget k l with Some _ => true | None => false end.
End MAP.
