(** Model of the RLP libraries of the Solidity contracts: solidity/bmv-bridge/contracts/libraries/{RLPDecode,RLPEncode}.sol;
    the copies in solidity/bmc, bmv and xcall differ in white space only.
    A revert, a failed require and a panic (array index, checked arithmetic) are [None]; gas is not modelled.
    EVM memory is seen from a pointer on: [m i] is the byte at pointer + i.  Pointers are far below 2^256.
    Copying byte by byte stands for the word-wise copying of [copy], [memcpy] and [concat] (RLPDecode.sol 331-357,
    RLPEncode.sol 310-330, 339-389). *)
From Coq Require Import String Ascii ZArith List Bool.
From Verif Require Import Base.
Import ListNotations.
Open Scope Z_scope.

Definition sbind {A B} (o : option A) (f : A -> option B) : option B := match o with Some a => f a | None => None end.
Definition require (b : bool) : option unit := if b then Some tt else None.
(** checked subtraction of unsigned numbers *)
Definition csub (a b : Z) : option Z := if a <? b then None else Some (a - b).
(** checked access to an array *)
Definition at_index {A} (l : list A) (i : nat) : option A := nth_error l i.

(** * RLPDecode.sol *)
Definition mem : Type := Z -> Z.
Definition bytes_of (m : mem) (p : Z) (n : Z) : list Z := map (fun i => m (p + Z.of_nat i)) (seq 0 (Z.to_nat n)).
(** the opcodes mload, div and exp *)
Definition mload (m : mem) (p : Z) : Z := be_val (bytes_of m p 32).
Definition evm_div (a b : Z) : Z := if b =? 0 then 0 else a / b.
Definition evm_exp (a b : Z) : Z := (a ^ b) mod 2 ^ 256.
(** a word's leading [n] bytes as a number *)
Definition shifted (m : mem) (p n : Z) : Z := evm_div (mload m p) (evm_exp 256 (32 - n)).

(** RLPDecode.sol 16-19 *)
Record sitem := mkItem { i_len : Z; i_mem : mem }.
(** RLPDecode.sol 274-306 *)
Definition itemLength (m : mem) (p : Z) : Z :=
  let byte0 := m p in
  if byte0 <? 128 then 1
  else if byte0 <? 184 then byte0 - 128 + 1
  else if byte0 <? 192 then let byteLen := byte0 - 183 in shifted m (p + 1) byteLen + (byteLen + 1)
  else if byte0 <? 248 then byte0 - 192 + 1
  else let byteLen := byte0 - 247 in shifted m (p + 1) byteLen + (byteLen + 1).
(** RLPDecode.sol 309-324 *)
Definition payloadOffset (m : mem) (p : Z) : Z :=
  let byte0 := m p in
  if byte0 <? 128 then 0
  else if (byte0 <? 184) || ((192 <=? byte0) && (byte0 <? 248)) then 1
  else if byte0 <? 192 then byte0 - 183 + 1
  else byte0 - 247 + 1.
(** RLPDecode.sol 54-65; [junk b] is what lies in memory behind the byte array *)
Definition toRlpItem (junk : list Z -> mem) (b : list Z) : sitem :=
  mkItem (zlen b) (fun i => if i <? zlen b then nth (Z.to_nat i) b 0 else junk b (i - zlen b)).
(** RLPDecode.sol 122-133 *)
Definition isList (it : sitem) : bool := if i_len it =? 0 then false else if i_mem it 0 <? 192 then false else true.
(** RLPDecode.sol 135-148 *)
Definition isNull (it : sitem) : bool := (i_len it =? 2) && (i_mem it 0 =? 248) && (i_mem it 1 =? 0).
(** RLPDecode.sol 93-95 *)
Definition payloadLen (it : sitem) : option Z := csub (i_len it) (payloadOffset (i_mem it) 0).
(** RLPDecode.sol 259-271: the pointers at which items start, while below the end *)
Fixpoint pointers (fuel : nat) (m : mem) (p e : Z) : list Z :=
  match fuel with
  | O => []
  | S f => if p <? e then p :: pointers f m (p + itemLength m p) e else []
  end.
(** RLPDecode.sol 100-119: the second loop visits the same pointers *)
Definition toList (it : sitem) : option (list sitem) :=
  sbind (require (isList it)) (fun _ =>
  Some (map (fun p => mkItem (itemLength (i_mem it) p) (fun i => i_mem it (p + i)))
            (pointers (Z.to_nat (i_len it)) (i_mem it) (payloadOffset (i_mem it) 0) (i_len it)))).
(** RLPDecode.sol 153-168 *)
Definition toRlpBytes (it : sitem) : list Z := bytes_of (i_mem it) 0 (i_len it).
(** RLPDecode.sol 238-252 *)
Definition toBytes (it : sitem) : option (list Z) :=
  sbind (require (0 <? i_len it)) (fun _ =>
  let offset := payloadOffset (i_mem it) 0 in
  sbind (csub (i_len it) offset) (fun len => Some (bytes_of (i_mem it) offset len))).
(** RLPDecode.sol 197-215 *)
Definition toUint (it : sitem) : option Z :=
  sbind (require ((0 <? i_len it) && (i_len it <=? 33))) (fun _ =>
  let offset := payloadOffset (i_mem it) 0 in
  sbind (csub (i_len it) offset) (fun len =>
  Some (if len <? 32 then shifted (i_mem it) offset len else mload (i_mem it) offset))).
(** RLPDecode.sol 217-222: conversion to int256, then checked subtraction of int256(2^(8n)) *)
Definition int256 (z : Z) : Z := let r := z mod 2 ^ 256 in if r <? 2 ^ 255 then r else r - 2 ^ 256.
Definition toInt (it : sitem) : option Z :=
  sbind (toBytes it) (fun b => sbind (at_index b 0) (fun b0 =>
  if Z.land b0 128 =? 128 then
    sbind (toUint it) (fun u =>
    let n := 8 * zlen b in
    sbind (require (n <? 256)) (fun _ =>
    let d := int256 u - int256 (2 ^ n) in
    sbind (require ((- 2 ^ 255 <=? d) && (d <? 2 ^ 255))) (fun _ => Some d)))
  else sbind (toUint it) (fun u => Some (int256 u)))).
(** RLPDecode.sol 190-195 *)
Definition toAddress (it : sitem) : option Z := sbind (require (i_len it =? 21)) (fun _ => sbind (toUint it) (fun u => Some (u mod 2 ^ 160))).

(** * RLPEncode.sol *)
(** RLPEncode.sol 223-226: [len / 256^k] for k = 0, 1, ... until it is 0 *)
Fixpoint lenLen (fuel : nat) (len i acc : Z) : Z :=
  match fuel with O => acc | S f => if len / i =? 0 then acc else lenLen f len (i * 256) (acc + 1) end.
(** RLPEncode.sol 211-235 *)
Definition encodeLength (len offset : Z) : list Z :=
  if len <? 56 then [(len + offset) mod 256]
  else
    let n := lenLen 32 len 1 0 in
    (n + offset + 55) mod 256 :: map (fun i => (len / 256 ^ (n - (Z.of_nat i + 1))) mod 256) (seq 0 (Z.to_nat n)).
(** RLPEncode.sol 57-69 *)
Definition encodeBytes (b : list Z) : list Z :=
  if (zlen b =? 1) && (hd 0 b <=? 128) then b else encodeLength (zlen b) 128 ++ b.
(** RLPEncode.sol 76-83 *)
Definition encodeList (l : list (list Z)) : list Z := let b := concat l in encodeLength (zlen b) 192 ++ b.
(** RLPEncode.sol 90-96 *)
Definition encodeString (s : list Z) : list Z := encodeBytes s.
(** RLPEncode.sol 103-115 *)
Definition encodeAddress (a : Z) : list Z := encodeBytes (be_fixed 20 a).
(** RLPEncode.sol 397-435: the width is the first k of 1, ..., 15 with n < 2^(8k) - 1, else 16 *)
Fixpoint uintWidth (fuel : nat) (n : Z) (k : nat) : nat :=
  match fuel with O => k | S f => if n <? 256 ^ Z.of_nat k - 1 then k else uintWidth f n (S k) end.
Definition encodeUintByLength (n : Z) : option (list Z) :=
  let k := uintWidth 15 n 1 in
  if Nat.eqb k 16 then sbind (require (n <? 2 ^ 128 - 1)) (fun _ => Some (be_fixed 16 n)) else Some (be_fixed k n).
(** RLPEncode.sol 437-444: shifting until zero, n < 2^256 *)
Fixpoint bitLength_loop (fuel : nat) (n count : Z) : Z :=
  match fuel with O => count | S f => if n =? 0 then count else bitLength_loop f (Z.shiftr n 1) (count + 1) end.
Definition bitLength (n : Z) : Z := bitLength_loop 256 n 0.
(** RLPEncode.sol 122-129 *)
Definition encodeUint (n : Z) : option (list Z) :=
  let nBytes := bitLength n / 8 + 1 in
  sbind (encodeUintByLength n) (fun b =>
  sbind (csub nBytes (zlen b)) (fun d => Some (encodeBytes (if 0 <? d then 0 :: b else b)))).
(** RLPEncode.sol 137-171: the first width k of 1, ..., 15 with -2^(8k-1) <= n < 2^(8k-1), else 16 *)
Fixpoint intWidth (fuel : nat) (n : Z) (k : nat) : nat :=
  match fuel with
  | O => k
  | S f => if (- 2 ^ (8 * Z.of_nat k - 1) <=? n) && (n <=? 2 ^ (8 * Z.of_nat k - 1) - 1) then k else intWidth f n (S k)
  end.
Definition intToStrictBytes (n : Z) : option (list Z) :=
  let k := intWidth 15 n 1 in
  if Nat.eqb k 16 then sbind (require ((- 2 ^ 127 <=? n) && (n <=? 2 ^ 127 - 1))) (fun _ => Some (be_fixed 16 n)) else Some (be_fixed k n).
(** RLPEncode.sol 178-180 *)
Definition encodeInt (n : Z) : option (list Z) := sbind (intToStrictBytes n) (fun b => Some (encodeBytes b)).
(** RLPEncode.sol 187-191 *)
Definition encodeBool (b : bool) : list Z := [if b then 1 else 0].
(** RLPEncode.sol 197-199 *)
Definition encodeNull : list Z := [248; 0].
