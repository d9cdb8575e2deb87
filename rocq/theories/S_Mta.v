(** Specification vocabulary for the Merkle tree accumulator, independent of the model. *)
From Coq Require Import ZArith List Bool.
From Verif Require Import Base.
Import ListNotations.
Open Scope Z_scope.

(** [perfect H leaves root]: [root] is the hash of the perfect binary tree over [leaves]. *)
Inductive perfect (H : list Z -> list Z) : list (list Z) -> list Z -> Prop :=
| pf_leaf : forall h, perfect H [h] h
| pf_node : forall a b ra rb, length a = length b -> perfect H a ra -> perfect H b rb -> perfect H (a ++ b) (H (ra ++ rb)).

(** [blk] is the part of [l] starting at [lo]. *)
Definition block_at {A} (l : list A) (lo : Z) (blk : list A) : Prop := exists a b, l = a ++ blk ++ b /\ zlen a = lo.

(** All hashes have 32 bytes. *)
Definition all32 (l : list (list Z)) : Prop := Forall (fun h => length h = 32%nat) l.
Definition digest32 (H : list Z -> list Z) : Prop := forall x, length (H x) = 32%nat.
Definition collides (H : list Z -> list Z) : Prop := exists x y, x <> y /\ H x = H y.

(** The position, counted in a perfect tree, that a path of turns leads to; turns are listed from the leaf
    upwards, [true] when the sibling is on the left. *)
Fixpoint path_position (turns : list bool) : Z :=
  match turns with
  | [] => 0
  | b :: r => (if b then 1 else 0) + 2 * path_position r
  end.

(** The first entry of the block held in slot [k] of an accumulator of [n] entries. *)
Definition slot_start (n : Z) (k : Z) : Z := 2 ^ (k + 1) * (n / 2 ^ (k + 1)).
