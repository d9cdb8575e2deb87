(** What the Python contracts should read and write: RLP as in S_Rlp.v for Python's values, and base64 (RFC 4648, sections 4 and 5). *)
From Coq Require Import ZArith List Bool.
From Verif Require Import Base S_IntConv M_Rlp S_Rlp M_PyRlp.
Import ListNotations.
Open Scope Z_scope.

(** The RLP item for a value: numbers in the shortest two's complement, truth values as 0 and 1. *)
Inductive item : pyval -> rlp -> Prop :=
| i_none : item PNone RNull
| i_bytes : forall b, item (PBytes b) (RBytes b)
| i_str : forall s, item (PStr s) (RBytes s)
| i_int : forall n b, shortest_tc n b -> item (PInt n) (RBytes b)
| i_bool : forall b, item (PBool b) (RBytes [if b then 1 else 0])
| i_list : forall vs xs, items vs xs -> item (PList vs) (RList xs)
with items : list pyval -> list rlp -> Prop :=
| i_nil : items [] []
| i_cons : forall v x vs xs, item v x -> items vs xs -> items (v :: vs) (x :: xs).

(** Types that are read without popping dicts *)
Fixpoint dictless (t : ty) : Prop :=
  match t with TFields l => fold_right (fun t p => dictless t /\ p) True l | TOf _ => False | _ => True end.
(** Types with no dict inside a dict *)
Fixpoint plain_ty (t : ty) : Prop :=
  match t with TFields l => fold_right (fun t p => plain_ty t /\ p) True l | TOf (Some t) => dictless t | TOf None => False | _ => True end.
Definition simple (t : ty) : Prop := match t with TFields _ | TOf _ => False | _ => True end.
(** The value that an item is read as, as a type; the fields of an object may end early. *)
Inductive reads (utf8 : list Z -> bool) : ty -> rlp -> pyval -> Prop :=
| r_null : forall t, simple t -> reads utf8 t RNull PNone
| r_bytes : forall b, reads utf8 TBytes (RBytes b) (PBytes b)
| r_int : forall b, reads utf8 TInt (RBytes b) (PInt (tc_value b))
| r_str : forall b, utf8 b = true -> reads utf8 TStr (RBytes b) (PStr b)
| r_bool : forall b : bool, reads utf8 TBool (RBytes [if b then 1 else 0]) (PBool b)
| r_raw : forall l, reads utf8 TList (RList l) (PList (map (fun x => PBytes (rlp_write x)) l))
| r_fields : forall ts l vs, reads_fields utf8 ts l vs -> reads utf8 (TFields ts) (RList l) (PList vs)
| r_of : forall t l vs, reads_all utf8 t l vs -> reads utf8 (TOf (Some t)) (RList l) (PList vs)
with reads_fields (utf8 : list Z -> bool) : list ty -> list rlp -> list pyval -> Prop :=
| f_end : forall ts, reads_fields utf8 ts [] []
| f_next : forall t ts x l v vs, reads utf8 t x v -> reads_fields utf8 ts l vs -> reads_fields utf8 (t :: ts) (x :: l) (v :: vs)
with reads_all (utf8 : list Z -> bool) : ty -> list rlp -> list pyval -> Prop :=
| a_end : forall t, reads_all utf8 t [] []
| a_next : forall t x l v vs, reads utf8 t x v -> reads_all utf8 t l vs -> reads_all utf8 t (x :: l) (v :: vs).

(** The i-th letter: A-Z, a-z, 0-9, -, _ *)
Definition letter (i c : Z) : Prop :=
  0 <= i <= 25 /\ c = 65 + i \/ 26 <= i <= 51 /\ c = 97 + (i - 26) \/ 52 <= i <= 61 /\ c = 48 + (i - 52) \/ i = 62 /\ c = 45 \/ i = 63 /\ c = 95.
(** Three bytes are four letters of six bits; a group that is not full is filled with zero bits and '='. *)
Inductive base64 : list Z -> list Z -> Prop :=
| b_nil : base64 [] []
| b_one : forall a i j c d, letter i c -> letter j d -> 64 * i + j = 16 * a -> base64 [a] [c; d; 61; 61]
| b_two : forall a b i j k c d e, letter i c -> letter j d -> letter k e -> 64 * (64 * i + j) + k = 4 * (256 * a + b) -> base64 [a; b] [c; d; e; 61]
| b_three : forall a b x i j k l c d e f r s, letter i c -> letter j d -> letter k e -> letter l f ->
    64 * (64 * (64 * i + j) + k) + l = 256 * (256 * a + b) + x -> base64 r s -> base64 (a :: b :: x :: r) (c :: d :: e :: f :: s).
