(** Specification vocabulary for Patricia proofs: what an encoded node refers to.  Stated over the raw items
    of the node, independently of the model's node type. *)
From Coq Require Import ZArith List Bool.
From Verif Require Import Base M_IntConv M_Rlp M_Codec.
Import ListNotations.
Open Scope Z_scope.

(** The byte strings in the list that [b] starts with. *)
Definition items (b : list Z) (l : list (list Z)) : Prop :=
  exists vs rest, UnmarshalFromBytes (TSlice TBytes) b = Ok (VSlice (Some vs), rest) /\
    map (fun v => match v with VBytes (Some x) => x | _ => [] end) vs = l.

(** [b] is a leaf with the given value: two items, bit 5 of the first byte set. *)
Definition is_leaf (b value : list Z) : Prop := exists p nib, items b [p :: nib; value] /\ Z.testbit p 5 = true.
(** Reference [i] of [b] is [h]: extension nodes have reference 0, branches have references 0..15. *)
Definition refers (b : list Z) (i : nat) (h : list Z) : Prop :=
  (i = 0%nat /\ exists p nib, items b [p :: nib; h] /\ Z.testbit p 5 = false) \/
  (exists l, items b l /\ length l = 17%nat /\ (i < 16)%nat /\ nth_error l i = Some h /\ h <> []).

Definition collision (H : list Z -> list Z) : Prop := exists x y, x <> y /\ H x = H y.
