(** The messages and records of the native coin service as trees of RLP items; null is the null item, integers are the shortest two's
    complement, texts their bytes. *)
From Coq Require Import ZArith List Bool.
From Verif Require Import Base M_IntConv M_Rlp S_Rlp M_JBmv S_JBmv.
Import ListNotations.
Open Scope Z_scope.

Definition num_item (o : option Z) : rlp := match o with Some z => int_item z | None => RNull end.
Definition list_or_null (o : option (list rlp)) : rlp := match o with Some l => RList l | None => RNull end.
(** name, amount and name, amount, fee *)
Definition asset_tree (name : option (list Z)) (amount : option Z) : rlp := RList [opt_item name; num_item amount].
Definition detail_tree (name : option (list Z)) (amount fee : option Z) : rlp := RList [opt_item name; num_item amount; num_item fee].
(** locked, refundable; number, fee ratio *)
Definition pair_tree (a b : option Z) : rlp := RList [num_item a; num_item b].
(** sender, receiver, coins *)
Definition moves_tree (from to : option (list Z)) (l : option (list rlp)) : rlp := RList [opt_item from; opt_item to; list_or_null l].
Definition response_tree (code : Z) (t : option (list Z)) : rlp := RList [int_item code; opt_item t].
Definition message_tree (type : Z) (data : option (list Z)) : rlp := RList [int_item type; opt_item data].
