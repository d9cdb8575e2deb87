(** What a dictionary is, independent of the contract: a partial function updated by put and remove. *)
From Coq Require Import String Ascii ZArith List Bool.
Import ListNotations.

Inductive dop (K V : Type) := DPut (k : K) (v : V) | DRemove (k : K) | DClear.
Arguments DPut {K V}.
Arguments DRemove {K V}.
Arguments DClear {K V}.

(** [holds ops k v]: after the operations (the last one first) key [k] has value [v] *)
Inductive holds {K V : Type} : list (dop K V) -> K -> V -> Prop :=
| h_put : forall ops k v, holds (DPut k v :: ops) k v
| h_put_other : forall ops k v k' v', k' <> k -> holds ops k' v' -> holds (DPut k v :: ops) k' v'
| h_remove_other : forall ops k k' v', k' <> k -> holds ops k' v' -> holds (DRemove k :: ops) k' v'.
