(** What a BTP address is, independently of the parsers. *)
From Coq Require Import String Ascii ZArith List.
From Verif Require Import Base S_IntConv S_Address.
Import ListNotations.
Open Scope Z_scope.

Definition address_text (protocol net account : list Z) : list Z := protocol ++ str "://" ++ net ++ str "/" ++ account.
Definition contains (s t : list Z) : Prop := exists x y, s = x ++ t ++ y.
(** An account of an Ethereum chain: 0x and forty hexadecimal digits of either case. *)
Definition account_text (s : list Z) (a : Z) : Prop := exists t bs, s = str "0x" ++ t /\ hex_pairs t bs /\ length bs = 20%nat /\ a = be_val bs.
