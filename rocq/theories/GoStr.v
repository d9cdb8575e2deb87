(** The parts of Go's strings and slice semantics used by several packages.
    Standard library behaviour, not code of /repo. *)
From Coq Require Import String Ascii ZArith List Bool.
From Verif Require Import Base.
Import ListNotations.
Open Scope Z_scope.

(** strings.Index: byte offset of the first occurrence, or none. *)
Fixpoint str_index (s sep : list Z) : option nat :=
  if has_prefix sep s then Some O
  else match s with
       | [] => None
       | _ :: s' => match str_index s' sep with Some n => Some (S n) | None => None end
       end.

(** strings.Split with a one-byte separator (never returns an empty slice). *)
Fixpoint str_split (s : list Z) (sep : Z) : list (list Z) :=
  match s with
  | [] => [[]]
  | c :: s' =>
      if c =? sep then [] :: str_split s' sep
      else match str_split s' sep with
           | [] => [[c]]
           | p :: ps => (c :: p) :: ps
           end
  end.

(** copy(dst[off:], src): overwrites as much as fits; the receiver keeps its length. *)
Definition go_copy (dst : list Z) (off : nat) (src : list Z) : list Z :=
  let n := Nat.min (length dst - off) (length src) in
  firstn off dst ++ firstn n src ++ skipn (off + n) dst.

(** encoding/hex.Decode(dst, src) where dst has [cap] bytes: bytes are written in order, a bad
    digit is reported when reached, writing past the destination panics, an odd tail is an error. *)
Fixpoint hex_decode_into (cap : nat) (s : list Z) {struct s} : result (list Z) :=
  match s with
  | [] => Ok []
  | [_] => Err 1
  | a :: b :: r =>
      match unhex a, unhex b with
      | Some x, Some y =>
          match cap with
          | O => Panic
          | S cap' => rbind (hex_decode_into cap' r) (fun bs => Ok (x * 16 + y :: bs))
          end
      | _, _ => Err 1
      end
  end.
