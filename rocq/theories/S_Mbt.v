(** Independent specification of the Merkle binary tree. *)
From Coq Require Import ZArith List.
From Verif Require Import Base.
Import ListNotations.
Open Scope Z_scope.

(** [merkle H contents r]: [r] is the Merkle root of the contents.  The list is split at a power of two
    such that the second part is not empty and not longer than the first, i.e. at the largest power of
    two strictly below the length. *)
Inductive merkle (H : list Z -> list Z) : list (list Z) -> list Z -> Prop :=
| mk_one : forall c, merkle H [c] (H c)
| mk_split : forall a b k ra rb, 0 <= k -> zlen a = 2 ^ k -> 1 <= zlen b <= 2 ^ k ->
    merkle H a ra -> merkle H b rb -> merkle H (a ++ b) (H (ra ++ rb)).

(** Two different inputs with one hash. *)
Definition collision (H : list Z -> list Z) : Prop := exists x y, x <> y /\ H x = H y.

(** A hash function with digests of [n] bytes. *)
Definition digest_size (H : list Z -> list Z) (n : Z) : Prop := forall x, zlen (H x) = n.

(** [sublist l lo n]: the [n] elements of [l] from position [lo] (0-based) on. *)
Definition sublist_at {A} (l : list A) (lo : Z) (part : list A) : Prop :=
  exists a b, l = a ++ part ++ b /\ zlen a = lo.
