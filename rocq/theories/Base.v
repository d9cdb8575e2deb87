(** Shared vocabulary of the model: bytes, Go strings, errors, big-endian numbers.
    No code of /repo is modelled here; this is the translation of Go's primitive notions. *)
From Coq Require Import String Ascii ZArith List Bool.
Import ListNotations.
Open Scope Z_scope.

(** A Go [byte] is a [Z]; a Go [[]byte] or [string] is a [list Z].  Lists that
    come from Go satisfy [bytes_ok]. *)
Definition is_byte (b : Z) : Prop := 0 <= b < 256.
Definition bytes_ok (bs : list Z) : Prop := Forall is_byte bs.

(** Characters and string literals. *)
Definition ch (a : ascii) : Z := Z.of_N (N_of_ascii a).
Fixpoint str (s : string) : list Z :=
  match s with
  | EmptyString => []
  | String a s' => ch a :: str s'
  end.

Arguments ch a%char.
Arguments str s%string.

(** Outcome of a Go call: a value, a returned error (the [Z] is only a label that
    distinguishes error kinds), or a run-time panic. *)
Inductive result (A : Type) : Type :=
| Ok (a : A)
| Err (e : Z)
| Panic.
Arguments Ok {A} _.
Arguments Err {A} _.
Arguments Panic {A}.

Definition rbind {A B} (r : result A) (f : A -> result B) : result B :=
  match r with Ok a => f a | Err e => Err e | Panic => Panic end.

(** Big-endian value of a byte list. *)
Definition be_val (bs : list Z) : Z := fold_left (fun a b => a * 256 + b) bs 0.

(** [n] big-endian bytes of [x] (least significant [n] bytes). *)
Fixpoint be_fixed (n : nat) (x : Z) : list Z :=
  match n with
  | O => []
  | S n' => be_fixed n' (x / 256) ++ [x mod 256]
  end.

(** math/big: BitLen of the absolute value. *)
Definition bit_len (x : Z) : Z := if x =? 0 then 0 else Z.log2 (Z.abs x) + 1.

(** math/big: Int.Bytes, the minimal big-endian bytes of the absolute value. *)
Definition big_bytes (x : Z) : list Z :=
  be_fixed (Z.to_nat ((bit_len x + 7) / 8)) (Z.abs x).

(** Fixed-width wrap-around. *)
Definition u64 (x : Z) : Z := x mod 2 ^ 64.
Definition i64 (x : Z) : Z :=
  let y := x mod 2 ^ 64 in if y <? 2 ^ 63 then y else y - 2 ^ 64.

(** Equality of byte strings (Go's [==] on strings, [bytes.Equal]). *)
Fixpoint bytes_eqb (a b : list Z) : bool :=
  match a, b with
  | [], [] => true
  | x :: a', y :: b' => (x =? y) && bytes_eqb a' b'
  | _, _ => false
  end.

(** Lexicographic order of byte strings (Go's [<] on strings). *)
Fixpoint bytes_ltb (a b : list Z) : bool :=
  match a, b with
  | [], [] => false
  | [], _ :: _ => true
  | _ :: _, [] => false
  | x :: a', y :: b' => if x <? y then true else if y <? x then false else bytes_ltb a' b'
  end.

(** strings.HasPrefix-style test. *)
Fixpoint has_prefix (p s : list Z) : bool :=
  match p, s with
  | [], _ => true
  | x :: p', y :: s' => (x =? y) && has_prefix p' s'
  | _, _ => false
  end.

(** Length as [Z]. *)
Definition zlen {A} (l : list A) : Z := Z.of_nat (List.length l).

(** encoding/hex: lower-case digits; both cases accepted when decoding. *)
Definition hex_digit (d : Z) : Z := if d <? 10 then d + 48 else d + 87.

Definition unhex (c : Z) : option Z :=
  if (48 <=? c) && (c <=? 57) then Some (c - 48)
  else if (97 <=? c) && (c <=? 102) then Some (c - 87)
  else if (65 <=? c) && (c <=? 70) then Some (c - 55)
  else None.

(** encoding/hex.EncodeToString *)
Fixpoint hex_encode (bs : list Z) : list Z :=
  match bs with
  | [] => []
  | b :: r => hex_digit (b / 16) :: hex_digit (b mod 16) :: hex_encode r
  end.

(** encoding/hex.DecodeString: error on a bad digit or odd length. *)
Fixpoint hex_decode (s : list Z) : option (list Z) :=
  match s with
  | [] => Some []
  | [_] => None
  | a :: b :: r =>
      match unhex a, unhex b, hex_decode r with
      | Some x, Some y, Some bs => Some (x * 16 + y :: bs)
      | _, _, _ => None
      end
  end.
