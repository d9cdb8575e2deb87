(** The messages and records of the token service as trees of RLP items (integers are the shortest two's complement, texts their bytes),
    and the form of a BTP address. *)
From Coq Require Import ZArith List Bool.
From Verif Require Import Base M_IntConv M_Rlp S_Rlp M_JBmv S_JBmv.
Import ListNotations.
Open Scope Z_scope.

(** name, value, fee; sender, receiver, assets *)
Definition t_asset (name : list Z) (value fee : Z) : rlp := RList [RBytes name; int_item value; int_item fee].
Definition t_move (from to : list Z) (l : list rlp) : rlp := RList [RBytes from; RBytes to; RList l].
(** usable, locked, refundable; name, symbol, decimals, fee numerator; protocol, network, contract *)
Definition t_balance (u l r : Z) : rlp := RList [int_item u; int_item l; int_item r].
Definition t_token (name symbol : list Z) (dec num : Z) : rlp := RList [RBytes name; RBytes symbol; int_item dec; int_item num].
Definition t_address (p n c : list Z) : rlp := RList [RBytes p; RBytes n; RBytes c].
(** 0 is a request, 2 an answer, 3 says that a type is unknown *)
Definition t_request (data : list Z) : rlp := RList [int_item 0; RBytes data].
Definition t_answer (data : list Z) : rlp := RList [int_item 2; RBytes data].
Definition t_code (code : Z) (t : list Z) : rlp := RList [int_item code; RBytes t].
Definition t_unknown : rlp := RList [int_item 3].
(** protocol://network/contract; the last "/" ends the network, which has a "." *)
Definition t_uri (p n c : list Z) : list Z := p ++ [58; 47; 47] ++ n ++ [47] ++ c.
