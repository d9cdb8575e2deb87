(** BTP addresses and Ethereum account addresses as text in the contracts:
    javascore/lib BTPAddress.java, solidity/*/contracts/libraries/{BTPAddress,ParseAddress}.sol (the copies are equal).
    Text is a list of bytes; Java strings are taken to be ASCII. *)
From Coq Require Import String Ascii ZArith List Bool.
From Verif Require Import Base GoStr M_IntConv M_Address M_SolRlp.
Import ListNotations.
Open Scope Z_scope.

(** * BTPAddress.java *)
(** BTPAddress.java 28-40 *)
Record jaddr := JAddr { ja_protocol : list Z; ja_net : list Z; ja_account : list Z }.
(** BTPAddress.java 54-57 *)
Definition j_toString (a : jaddr) : list Z := ja_protocol a ++ str "://" ++ ja_net a ++ str "/" ++ ja_account a.
(** BTPAddress.java 59-66: equals compares the texts *)
Definition j_equals (a b : jaddr) : bool := bytes_eqb (j_toString a) (j_toString b).
(** BTPAddress.java 73-77; none of the parts is null *)
Definition j_isValid (a : jaddr) : bool := negb (is_empty (ja_protocol a)) && negb (is_empty (ja_net a)) && negb (is_empty (ja_account a)).
(** BTPAddress.java 79-99 *)
Definition j_parse (s : list Z) : jaddr :=
  let (protocol, s) := match str_index s (str "://") with
                       | Some i => (firstn i s, skipn (i + 3) s)
                       | None => ([], s)
                       end in
  match str_index s (str "/") with
  | Some i => JAddr protocol (firstn i s) (skipn (i + 1) s)
  | None => JAddr protocol [] s
  end.
(** BTPAddress.java 101-107 *)
Definition j_valueOf (s : list Z) : option jaddr := let a := j_parse s in if j_isValid a then Some a else None.

(** * BTPAddress.sol *)
Definition PREFIX : list Z := str "btp://".
(** BTPAddress.sol 50-54: [n] turns of the loop, from index [i] on *)
Fixpoint check_prefix (n i : nat) (b : list Z) : option unit :=
  match n with
  | O => Some tt
  | S n' => sbind (at_index b i) (fun x => sbind (at_index PREFIX i) (fun y => if x =? y then check_prefix n' (S i) b else None))
  end.
(** BTPAddress.sol 55-61 *)
Fixpoint find_delim (fuel i : nat) (b : list Z) : option nat :=
  match fuel with
  | O => None
  | S f => match nth_error b i with
           | None => None
           | Some x => if x =? ch "/" then (if (6 <? i)%nat && (i <? length b - 1)%nat then Some i else None) else find_delim f (S i) b
           end
  end.
(** BTPAddress.sol 42-62 *)
Definition s_validate (b : list Z) : option nat := sbind (check_prefix 6 0 b) (fun _ => find_delim (length b) 6 b).
(** BTPAddress.sol 64-80 *)
Fixpoint slice_loop (n j : nat) (b : list Z) : option (list Z) :=
  match n with O => Some [] | S n' => sbind (at_index b j) (fun x => sbind (slice_loop n' (S j) b) (fun r => Some (x :: r))) end.
Definition s_slice (b : list Z) (from to : nat) : option (list Z) := if (to <? from)%nat then None else slice_loop (to - from) from b.
(** BTPAddress.sol 18-27 *)
Definition parseBTPAddress (b : list Z) : option (list Z * list Z) :=
  sbind (s_validate b) (fun i => sbind (s_slice b 6 i) (fun n => sbind (s_slice b (i + 1) (length b)) (fun a => Some (n, a)))).
(** BTPAddress.sol 34-40 *)
Definition networkAddress (b : list Z) : option (list Z) := sbind (s_validate b) (fun i => s_slice b 6 i).
(** BTPAddress.sol 88-95 *)
Definition btpAddress (net a : list Z) : list Z := PREFIX ++ net ++ str "/" ++ a.

(** * ParseAddress.sol *)
(** ParseAddress.sol 289-311: the digit, None for what is no hexadecimal digit *)
Definition addr_digit (b : Z) : option Z :=
  if b <? 48 then None else if (57 <? b) && (b <? 65) then None else if (70 <? b) && (b <? 97) then None else if 102 <? b then None
  else Some (b - (if b <? 65 then 48 else if 70 <? b then 87 else 55)).
(** ParseAddress.sol 288-320: pairs of digits *)
Fixpoint addr_bytes (s : list Z) : option (list Z) :=
  match s with
  | a :: b :: r => sbind (addr_digit a) (fun x => sbind (addr_digit b) (fun y => sbind (addr_bytes r) (fun l => Some (16 * x + y :: l))))
  | [] => Some []
  | [_] => None
  end.
(** ParseAddress.sol 267-335.  The word is loaded 20 bytes behind the length word's beginning: the twelve bytes before
    the address are those of the length, which the compiler masks away. *)
Definition parseAddress (s : list Z) : option Z :=
  sbind (require (Nat.eqb (length s) 42 && (nth 0 s 0 =? ch "0") && (nth 1 s 0 =? ch "x"))) (fun _ =>
  sbind (addr_bytes (skipn 2 s)) (fun bs =>
  let a := be_val (skipn 20 (be_fixed 32 20 ++ bs)) mod 2 ^ 160 in
  if a =? 0 then sbind (require (forallb (fun c => c =? 48) (skipn 2 s))) (fun _ => Some a) else Some a)).
(** ParseAddress.sol 161-174 *)
Definition ascii_offset (n : Z) (caps : bool) : Z := if n <? 10 then 48 else if caps then 55 else 87.
(** ParseAddress.sol 235-265 *)
Definition toAsciiString (a : Z) : list Z :=
  concat (map (fun i => let b := (a / 2 ^ (8 * (19 - Z.of_nat i))) mod 256 in
                        [b / 16 + (if b / 16 <? 10 then 48 else 87); b mod 16 + (if b mod 16 <? 10 then 48 else 87)]) (seq 0 20)).
Section Keccak.
Variable H : list Z -> list Z.
(** ParseAddress.sol 102-132: for byte [i] of the address *)
Definition caps_flags (a : Z) (i : nat) : bool * bool :=
  let x := nth i (be_fixed 20 a) 0 in
  let h := nth i (H (toAsciiString a)) 0 in
  ((9 <? x / 16) && (7 <? h / 16), (9 <? x mod 16) && (7 <? h mod 16)).
(** ParseAddress.sol 53-100; also toString, 14-17 *)
Definition toChecksumString (a : Z) : list Z :=
  str "0x" ++ concat (map (fun i =>
    let b := (a / 2 ^ (8 * (19 - Z.of_nat i))) mod 256 in
    let (lc, rc) := caps_flags a i in
    [b / 16 + ascii_offset (b / 16) lc; b mod 16 + ascii_offset (b mod 16) rc]) (seq 0 20)).
End Keccak.
