(** Independent description of the messages between message centers, as trees of RLP items, and of the bytes a tree may
    be written as.  A BTP message is a list of sender, receiver, service, serial number, payload, network serial number
    and fee information; the fee information is the network to be paid and the amounts along the way, or null. *)
From Coq Require Import ZArith List Bool.
From Verif Require Import Base M_IntConv M_Rlp S_Rlp M_JBmv S_JBmv.
Import ListNotations.
Open Scope Z_scope.

Definition fee_item (net : list Z) (vals : list Z) : rlp := RList [RBytes net; RList (map int_item vals)].
Definition btp_item (src dst svc : list Z) (sn : Z) (body : list Z) (nsn : Z) (fee : rlp) : rlp :=
  RList [RBytes src; RBytes dst; RBytes svc; int_item sn; RBytes body; int_item nsn; fee].
(** type and payload of a message between message centers themselves *)
Definition bmc_item (type payload : list Z) : rlp := RList [RBytes type; RBytes payload].
Definition response_item (code : Z) (t : option (list Z)) : rlp := RList [int_item code; opt_item t].
Definition claim_item (amount : Z) (receiver : list Z) : rlp := RList [int_item amount; RBytes receiver].
Definition init_item (links : list (option (list Z))) : rlp := RList [RList (map opt_item links)].
Definition link_item (link : option (list Z)) : rlp := RList [opt_item link].

(** The bytes of a list with the given contents; a long length may be written with leading zeros. *)
Definition wraps (b body : list Z) : Prop :=
  (zlen body <= 55 /\ b = 192 + zlen body :: body) \/
  (55 < zlen body < 2 ^ 32 /\ exists sz, 1 <= zlen sz <= 5 /\ bytes_ok sz /\ be_val sz = zlen body /\ b = 247 + zlen sz :: sz ++ body).
(** [form t b]: the bytes [b] are the tree [t], perhaps with such zeros. *)
Inductive form : rlp -> list Z -> Prop :=
| FNull : form RNull [248; 0]
| FBytes : forall b, bytes_ok b -> zlen b < 2 ^ 32 -> form (RBytes b) (rlp_write (RBytes b))
| FList : forall ts body b, forms ts body -> wraps b body -> form (RList ts) b
with forms : list rlp -> list Z -> Prop :=
| FNil : forms [] []
| FCons : forall t ts b r, form t b -> forms ts r -> forms (t :: ts) (b ++ r).

(** Lengths which get a leading zero: 255, 65535, ... *)
Definition padded (n : Z) : Prop := exists k, 1 <= k /\ n = 256 ^ k - 1.
Fixpoint unpadded (t : rlp) : Prop :=
  match t with
  | RList l => ~ padded (zlen (concat (map rlp_write l))) /\ fold_right (fun t p => unpadded t /\ p) True l
  | _ => True
  end.
(** What the Solidity writer makes of a string: the single byte 0x80 is lost. *)
Definition squashed (b : list Z) : list Z := if list_eq_dec Z.eq_dec b [128] then [] else b.
Definition squashed_int (n : Z) : rlp := RBytes (squashed (BigIntToBytes n)).
