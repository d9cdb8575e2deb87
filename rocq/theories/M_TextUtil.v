(** Model of the text helpers of the contracts: solidity/bmc/contracts/libraries/Strings.sol (S; solidity/xcall has the same file), solidity/bmv-bridge/contracts/libraries/Strings.sol (V)
    and javascore/score-util/src/main/java/foundation/icon/score/util/StringUtil.java (J).
    - Texts are lists of bytes (S, V) or of characters (J).  Of the characters of J only those of ASCII are letters or digits here.
    - A panic or exception is [None]. *)
From Coq Require Import ZArith List Bool.
From Verif Require Import Base.
Import ListNotations.
Open Scope Z_scope.
Local Notation bytes := (list Z).

(** "0123456789abcdef"[i] *)
Definition hex_char (i : Z) : Z := if i <? 10 then 48 + i else 87 + i.
(** S 17-32 bytesToHex *)
Definition s_bytesToHex (b : bytes) : bytes := 48 :: 120 :: flat_map (fun x => [hex_char (x / 16); hex_char (x mod 16)]) b.
(** V 17-32 bytesToHex: shift and mask *)
Definition v_bytesToHex (b : bytes) : bytes := 48 :: 120 :: flat_map (fun x => [hex_char (Z.land (Z.shiftr x 4) 15); hex_char (Z.land x 15)]) b.
(** J 63-74 bytesToHex; v >>> 4 and v & 0x0F for v in 0..255 *)
Definition j_bytesToHex (b : bytes) : bytes := flat_map (fun x => let v := Z.land x 255 in [hex_char (Z.shiftr v 4); hex_char (Z.land v 15)]) b.
(** Character.digit(c, 16) *)
Definition digit16 (c : Z) : Z :=
  if (48 <=? c) && (c <=? 57) then c - 48 else if (97 <=? c) && (c <=? 102) then c - 87 else if (65 <=? c) && (c <=? 70) then c - 55 else -1.
(** J 76-91 hexToBytes *)
Fixpoint unhex (s : bytes) : bytes :=
  match s with
  | a :: b :: r => Z.lor (Z.shiftl (digit16 a) 4) (Z.land (digit16 b) 255) mod 256 :: unhex r
  | _ => []
  end.
Definition j_hexToBytes (s : bytes) : option bytes := if Nat.odd (length s) then None else Some (unhex s).

(** S 90-107 _indexOf, from an offset *)
Fixpoint idx (c : Z) (l : bytes) : option nat := match l with [] => None | x :: r => if x =? c then Some O else match idx c r with Some i => Some (S i) | None => None end end.
Definition indexOf (base : bytes) (c : Z) (off : nat) : option nat := match idx c (skipn off base) with Some i => Some (off + i)%nat | None => None end.
(** S 146-153: the pieces are counted *)
Fixpoint count (fuel : nat) (base : bytes) (c : Z) (off : nat) : nat :=
  match fuel with
  | O => O
  | S f => if (off <? length base - 1)%nat then match indexOf base c off with None => O | Some i => S (count f base c (S i)) end else O
  end.
(** S 159-174: and copied *)
Fixpoint fill (fuel : nat) (base : bytes) (c : Z) (off : nat) : list bytes :=
  match fuel with
  | O => []
  | S f => if (off <? length base - 1)%nat
           then let limit := match indexOf base c off with None => length base | Some i => i end in firstn (limit - off) (skipn off base) :: fill f base c (S limit)
           else []
  end.
(** S 137-176 split: 0 - 1 panics (146); the delimiter is asserted to be one byte when it is searched for (98); entries that are not written are empty;
    writing behind the end panics (173) *)
Definition split (base value : bytes) : option (list bytes) :=
  match base with
  | [] => None
  | [_] => Some [[]]
  | _ => match value with
         | [c] => let n := S (count (length base) base c 0) in
                  let ps := fill (length base) base c 0 in
                  if (n <? length ps)%nat then None else Some (ps ++ repeat [] (n - length ps))
         | _ => None
         end
  end.
(** S 213-244 lower *)
Definition lower1 (x : Z) : Z := if (65 <=? x) && (x <=? 90) then x + 32 else x.
Definition lower (b : bytes) : bytes := map lower1 b.
Definition upper1 (x : Z) : Z := if (97 <=? x) && (x <=? 122) then x - 32 else x.

(** J 52-59 tokenize with one delimiter: StringTokenizer gives the pieces that are not empty *)
Fixpoint tokens (d : Z) (s : bytes) (word : bytes) : list bytes :=
  match s with
  | [] => match word with [] => [] | _ => [rev word] end
  | x :: r => if x =? d then match word with [] => tokens d r [] | _ => rev word :: tokens d r [] end else tokens d r (x :: word)
  end.
(** J 37-50 toCamelCase *)
Definition camel_word (w : bytes) : bytes := match lower w with [] => [] | x :: r => upper1 x :: r end.
Definition toCamelCase (s : bytes) : bytes := flat_map camel_word (tokens 95 s []).
(** J 25-35 toLowerCamelCase: what is built is not returned *)
Definition toLowerCamelCase (s : bytes) : bytes :=
  let camelCase := toCamelCase s in
  let builder := match camelCase with [] => [] | x :: r => lower1 x :: r end in
  camelCase.
