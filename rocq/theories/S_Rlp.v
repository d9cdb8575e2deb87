(** Independent specification of RLP (Ethereum yellow paper, appendix B) with the additional two-byte
    nil marker F8 00. *)
From Coq Require Import ZArith List.
From Verif Require Import Base M_Rlp.
Import ListNotations.
Open Scope Z_scope.

(** [be_min n bs]: big-endian bytes of the positive number [n] without leading zero. *)
Definition be_min (n : Z) (bs : list Z) : Prop :=
  bytes_ok bs /\ be_val bs = n /\ exists b r, bs = b :: r /\ b <> 0.

(** [header off n hd]: header of a payload of [n] bytes for offset 128 (strings) or 192 (lists). *)
Inductive header (off n : Z) : list Z -> Prop :=
| h_short : 0 <= n <= 55 -> header off n [off + n]
| h_long : forall bs, 56 <= n -> be_min n bs -> header off n (off + 55 + zlen bs :: bs).

Inductive rlp_spec : rlp -> list Z -> Prop :=
| sp_null : rlp_spec RNull [248; 0]
| sp_byte : forall b, 0 <= b < 128 -> rlp_spec (RBytes [b]) [b]
| sp_bytes : forall b h, ~ (exists x, b = [x] /\ 0 <= x < 128) -> header 128 (zlen b) h ->
             rlp_spec (RBytes b) (h ++ b)
| sp_list : forall l body h, rlp_spec_all l body -> header 192 (zlen body) h ->
            rlp_spec (RList l) (h ++ body)
with rlp_spec_all : list rlp -> list Z -> Prop :=
| sp_nil : rlp_spec_all [] []
| sp_cons : forall t l a b, rlp_spec t a -> rlp_spec_all l b -> rlp_spec_all (t :: l) (a ++ b).

(** All strings in the tree are byte strings. *)
Fixpoint rlp_ok (t : rlp) : Prop :=
  match t with
  | RNull => True
  | RBytes b => bytes_ok b
  | RList l => fold_right (fun t p => rlp_ok t /\ p) True l
  end.

(** What kind of item stands where: [has_shape sh t] (a nil marker fits everywhere). *)
Fixpoint has_shape (sh : shape) (t : rlp) : Prop :=
  match sh, t with
  | _, RNull => True
  | ShBytes, RBytes _ => True
  | ShList shs, RList l =>
      (fix all shs l := match shs, l with
                        | [], [] => True
                        | s :: shs', x :: l' => has_shape s x /\ all shs' l'
                        | _, _ => False
                        end) shs l
  | _, _ => False
  end.
