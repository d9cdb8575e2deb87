(** The bytes given to the bridge verifiers, as trees of RLP items.  [num] says how the numbers of messages are written. *)
From Coq Require Import ZArith List Bool.
From Verif Require Import Base M_IntConv M_Rlp S_Rlp S_JBmv S_Wire M_Bridge.
Import ListNotations.
Open Scope Z_scope.

Definition event_item (num : Z -> list Z) (e : bevent) : rlp := RList [RBytes (be_next e); RBytes (num (be_seq e)); RBytes (be_msg e)].
Definition receipt_item (num : Z -> list Z) (r : breceipt) : rlp :=
  RList [int_item (br_index r); RBytes (rlp_write (RList (map (event_item num) (br_events r)))); int_item (br_height r)].
Definition message_item (num : Z -> list Z) (rps : list breceipt) : rlp :=
  RList [RList (map (fun r => RBytes (rlp_write (receipt_item num r))) rps)].

(** Texts are bytes; the index fits a Java int and the height a Go int64. *)
Definition event_ok (e : bevent) : Prop := bytes_ok (be_next e) /\ bytes_ok (be_msg e).
Definition receipt_ok (r : breceipt) : Prop := Forall event_ok (br_events r) /\ fits_int (br_index r) /\ - 2 ^ 63 <= br_height r < 2 ^ 63.
Definition numbers_ok (p : Z -> Prop) (r : breceipt) : Prop := Forall (fun e => p (be_seq e)) (br_events r).
(** the same receipts with other numbers *)
Definition renumber (g : Z -> Z) (r : breceipt) : breceipt :=
  BReceipt (br_index r) (map (fun e => BEvent (be_next e) (g (be_seq e)) (be_msg e)) (br_events r)) (br_height r).
Definition has_events (r : breceipt) : bool := match br_events r with [] => false | _ => true end.

(** A positive number's bytes, taken for two's complement: right as long as the leading bit is clear. *)
Definition misread (n : Z) : Z := let k := Z.log2 n / 8 + 1 in if n <? 2 ^ (8 * k - 1) then n else n - 2 ^ (8 * k).
