(** Model of the sample multi token javascore/fee-aggregation/SampleMultiToken: token/irc31_basic.py (B), token/irc31_mintburn.py (M), util/__init__.py, util/rlp.py (R).
    - revert and exceptions are [None]; then nothing is changed.  The data of a transfer and the URI event are left out.
    - A contract that receives tokens may call the token before it returns or raises ([MCalls]); of these calls those that raise are undone. *)
From Coq Require Import ZArith List Bool.
From Verif Require Import Base GoStr M_JMap.
Import ListNotations.
Open Scope Z_scope.
Local Notation bytes := (list Z).

(** util/__init__.py 17 ZERO_ADDRESS: "hx" and forty zeros *)
Definition ZERO_ADDRESS : bytes := 104 :: 120 :: repeat 48 40.

(** * Lists of numbers in events (R) *)
(** The double nearest to an integer, ties to even, as an integer *)
Definition round53 (x : Z) : Z :=
  let a := Z.abs x in
  let s := Z.log2 a - 52 in
  if s <=? 0 then x
  else let q := a / 2 ^ s in let r := a mod 2 ^ s in let half := 2 ^ (s - 1) in
       let up := (half <? r) || (half =? r) && Z.odd q in
       Z.sgn x * ((if up then q + 1 else q) * 2 ^ s).
(** int(x / 256) of R 45: "/" is the division of doubles *)
Definition div256 (x : Z) : Z := Z.quot (round53 x) 256.
(** R 41-45 int_to_bytes; the fuel is the number of bits *)
Fixpoint itb (fuel : nat) (x : Z) : bytes :=
  if x =? 0 then [] else match fuel with O => [] | S k => itb k (div256 x) ++ [x mod 256] end.
Definition int_to_bytes (x : Z) : bytes := itb (S (Z.to_nat (Z.log2 (Z.abs x)))) x.
(** x / 256 raises OverflowError when it does not fit in a double *)
Definition fits (x : Z) : bool := Z.abs (round53 x) <? 2 ^ 1032.
(** R 34-38 rlp_encode_length and R 27-31 rlp_encode_bytes *)
Definition enc_length (size off : Z) : bytes := if size <=? 55 then [size + off] else let b := int_to_bytes size in (zlen b + off + 55) :: b.
Definition enc_bytes (b : bytes) : bytes := match b with [x] => if x <? 128 then b else enc_length 1 128 ++ b | _ => enc_length (zlen b) 128 ++ b end.
(** R 18-24 rlp_encode_list *)
Definition rlp_list (l : list Z) : option bytes :=
  if forallb fits l then let bs := flat_map (fun e => enc_bytes (int_to_bytes e)) l in Some (enc_length (zlen bs) 192 ++ bs) else None.

(** * The contract *)
Inductive mevent :=
| ESingle (operator from to : bytes) (id value : Z)
| EBatch (operator from to : bytes) (ids values : bytes) (real : list (Z * Z))   (* [real]: the pairs themselves, not in the event *)
| EApproval (owner operator : bytes) (yes : bool).
Record mtoken := MToken {
  m_bal : list ((Z * bytes) * Z);               (* B 27 *)
  m_ops : list ((bytes * bytes) * bool);        (* B 29 *)
  m_uri : list (Z * bytes);                     (* B 31 *)
  m_creator : list (Z * bytes);                 (* M 26 *)
  m_ev : list mevent }.
Definition idkey_eqb (a b : Z * bytes) : bool := (fst a =? fst b) && bytes_eqb (snd a) (snd b).
Definition opkey_eqb (a b : bytes * bytes) : bool := bytes_eqb (fst a) (fst b) && bytes_eqb (snd a) (snd b).
Definition mt_installed : mtoken := MToken [] [] [] [] [].
Definition mbal (s : mtoken) (id : Z) (u : bytes) : Z := match aget idkey_eqb (id, u) (m_bal s) with Some v => v | None => 0 end.
Definition set_bal (s : mtoken) (id : Z) (u : bytes) (v : Z) : mtoken := MToken (aput idkey_eqb (id, u) v (m_bal s)) (m_ops s) (m_uri s) (m_creator s) (m_ev s).
Definition emit (s : mtoken) (e : mevent) : mtoken := MToken (m_bal s) (m_ops s) (m_uri s) (m_creator s) (m_ev s ++ [e]).
(** B 175-184 isApprovedForAll *)
Definition approved (s : mtoken) (owner operator : bytes) : bool := match aget opkey_eqb (owner, operator) (m_ops s) with Some b => b | None => false end.
(** B 101-105 and 148-152 *)
Definition shift (s : mtoken) (from to : bytes) (id v : Z) : option mtoken :=
  if (0 <=? v) && (v <=? mbal s id from)
  then let s1 := set_bal s id from (mbal s id from - v) in Some (set_bal s1 id to (mbal s1 id to + v))
  else None.
(** B 145-152 *)
Fixpoint shift_all (s : mtoken) (from to : bytes) (l : list (Z * Z)) : option mtoken :=
  match l with [] => Some s | (id, v) :: r => match shift s from to id v with Some s' => shift_all s' from to r | None => None end end.
Inductive mcall :=
| MTransfer (sender from to : bytes) (id v : Z)
| MBatch (sender from to : bytes) (ids vs : list Z)
| MApprove (sender operator : bytes) (yes : bool)
| MMint (sender : bytes) (id v : Z) (uri : bytes)
| MBurn (sender : bytes) (id v : Z)
| MSetUri (sender : bytes) (id : Z) (uri : bytes).
Definition nonempty (b : bytes) : bool := match b with [] => false | _ => true end.
Definition mdo (s : mtoken) (c : mcall) : option mtoken :=
  match c with
  (* B 76-108 *)
  | MTransfer x from to id v =>
      if bytes_eqb to ZERO_ADDRESS then None
      else if negb (bytes_eqb from x || approved s from x) then None
      else match shift s from to id v with Some s' => Some (emit s' (ESingle x from to id v)) | None => None end
  (* B 116-155 *)
  | MBatch x from to ids vs =>
      if bytes_eqb to ZERO_ADDRESS then None
      else if negb (Nat.eqb (length ids) (length vs)) then None
      else if negb (bytes_eqb from x || approved s from x) then None
      else match shift_all s from to (combine ids vs) with
           | Some s' => match rlp_list ids, rlp_list vs with Some a, Some b => Some (emit s' (EBatch x from to a b (combine ids vs))) | _, _ => None end
           | None => None
           end
  (* B 163-173 *)
  | MApprove x op yes => Some (emit (MToken (m_bal s) (aput opkey_eqb (x, op) yes (m_ops s)) (m_uri s) (m_creator s) (m_ev s)) (EApproval x op yes))
  (* M 28-38 with B 246-253 and 262-264 *)
  | MMint x id v uri =>
      match aget Z.eqb id (m_creator s) with
      | Some _ => None
      | None => if negb (0 <? v) then None else if negb (nonempty uri) then None
                else let s1 := emit (set_bal s id x v) (ESingle x ZERO_ADDRESS x id v) in
                     Some (MToken (m_bal s1) (m_ops s1) (aput Z.eqb id uri (m_uri s1)) (aput Z.eqb id x (m_creator s1)) (m_ev s1))
      end
  (* M 40-48 with B 255-260 *)
  | MBurn x id v =>
      match aget Z.eqb id (m_creator s) with
      | None => None
      | Some _ => if negb (0 <? v) then None
                  else if (0 <=? v) && (v <=? mbal s id x) then Some (emit (set_bal s id x (mbal s id x - v)) (ESingle x x ZERO_ADDRESS id v)) else None
      end
  (* M 50-58 *)
  | MSetUri x id uri =>
      match aget Z.eqb id (m_creator s) with
      | Some c => if bytes_eqb c x then if nonempty uri then Some (MToken (m_bal s) (m_ops s) (aput Z.eqb id uri (m_uri s)) (m_creator s) (m_ev s)) else None else None
      | None => None
      end
  end.
Definition mstep (s : mtoken) (c : mcall) : mtoken := match mdo s c with Some s' => s' | None => s end.
Definition mrun (s : mtoken) (l : list mcall) : mtoken := fold_left mstep l s.
(** B 110-114 and 157-161: who receives is called after the balances are changed *)
Inductive mtree := MCalls (c : mcall) (nested : list mtree) (ok : bool).
Section CONTRACTS.
Variable is_contract : bytes -> bool.
Definition told (c : mcall) : bool := match c with MTransfer _ _ to _ _ => is_contract to | MBatch _ _ to _ _ => is_contract to | _ => false end.
Fixpoint mexec (t : mtree) (s : mtoken) {struct t} : option mtoken :=
  let runs := fix runs (l : list mtree) (s : mtoken) : mtoken := match l with [] => s | x :: r => runs r (match mexec x s with Some s' => s' | None => s end) end in
  match t with
  | MCalls c nested ok => match mdo s c with
                          | None => None
                          | Some s1 => if told c then if ok then Some (runs nested s1) else None else Some s1
                          end
  end.
Definition mtrees (s : mtoken) (l : list mtree) : mtoken := fold_left (fun s t => match mexec t s with Some s' => s' | None => s end) l s.
End CONTRACTS.
