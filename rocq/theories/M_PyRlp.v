(** Model of pyscore/lib/icon/rlp.py and base64.py, the byte formats of the contracts written in Python.
    - Exceptions are [None].  A str is its UTF-8 bytes; [utf8] says which bytes are UTF-8.
    - Sizes stay below 2^53, so that divisions in floating point (base64.py 46, 62, 144, 164) are exact.
    - A bytearray that is filled from the left is the list of the bytes put into it. *)
From Coq Require Import String Ascii ZArith List Bool.
From Verif Require Import Base.
Import ListNotations.
Open Scope Z_scope.

(** * rlp.py *)
Inductive pyval := PNone | PBytes (b : list Z) | PInt (n : Z) | PStr (s : list Z) | PBool (b : bool) | PList (l : list pyval).

(** list.insert: behind the end it appends *)
Definition insert (i : nat) (x : Z) (l : list Z) : list Z := firstn i l ++ x :: skipn i l.
(** rlp.py 85-90 _rlp_length_size *)
Fixpoint size_loop (f : nat) (n : Z) : nat := match f with O => O | S f' => if 0 <? n then S (size_loop f' (n / 256)) else O end.
Definition length_size (n : Z) : nat := size_loop (S (Z.to_nat (Z.log2 n))) n.
(** rlp.py 50-54 and 74-77: while slen > 0 *)
Fixpoint put_length (slen : nat) (n : Z) (buf : list Z) : list Z :=
  match slen with O => buf | S s => put_length s (n / 256) (insert slen (n mod 256) buf) end.
(** rlp.py 46-54, 70-77: the header of a long payload, for 0xB7 or 0xF7 *)
Definition long_header (base n : Z) : list Z := let s := length_size n in put_length s n (insert 0 ((base + Z.of_nat s) mod 256) []).
(** rlp.py 38-55 rlp_encode_bytes *)
Definition encode_bytes (b : list Z) : list Z :=
  let n := zlen b in
  if (n =? 1) && (hd 0 b <? 128) then b
  else if n <=? 55 then [128 + n] ++ b
  else long_header 183 n ++ b.
(** rlp.py 58-82 rlp_encode_list_with_encoded *)
Definition encode_list (l : list (list Z)) : list Z :=
  let n := zlen (concat l) in
  if n <=? 55 then [192 + n] ++ concat l else long_header 247 n ++ concat l.
(** rlp.py 22-23: int.bit_length, int.to_bytes *)
Definition int_bytes (n : Z) : list Z :=
  let n_bytes := (bit_len (n + (if n <? 0 then 1 else 0)) + 8) / 8 in be_fixed (Z.to_nat n_bytes) n.
(** rlp.py 15-35 rlp_encode; bool is an int in Python, so its own branch is never reached *)
Fixpoint rlp_encode (v : pyval) : list Z :=
  match v with
  | PNone => [248; 0]
  | PBytes b => encode_bytes b
  | PInt n => encode_bytes (int_bytes n)
  | PBool b => encode_bytes (int_bytes (if b then 1 else 0))
  | PStr s => encode_bytes s
  | PList l => encode_list (map rlp_encode l)
  end.

(** What is to be read: a type, a list of types for the fields of an object, or a dict with one type for all elements.  The entry
    of a dict is taken out by popitem. *)
Inductive ty := TBytes | TInt | TStr | TBool | TList | TFields (l : list ty) | TOf (t : option ty).

(** rlp.py 152-181 rlp_decode_header: list or not, size of the header, size of the payload *)
Definition decode_header (bs : list Z) : option (bool * Z * Z) :=
  match bs with
  | [] => None
  | b :: r =>
      let x := if b <? 128 then (false, 0, 1)
               else if b <? 184 then (false, 1, b - 128)
               else if b <? 192 then let ts := b - 183 + 1 in (false, ts, be_val (firstn (Z.to_nat (ts - 1)) r))
               else if b <? 248 then (true, 1, b - 192)
               else let ts := b - 247 + 1 in (true, ts, be_val (firstn (Z.to_nat (ts - 1)) r)) in
      if zlen bs <? snd (fst x) + snd x then None else Some x
  end.
(** rlp.py 193-196: the encoded elements; every one has a byte at least *)
Fixpoint elements (f : nat) (c : list Z) : option (list (list Z)) :=
  match c, f with
  | [], _ => Some []
  | _, O => None
  | _, S f' =>
      match decode_header c with
      | None => None
      | Some (_, ts, size) =>
          let n := Z.to_nat (ts + size) in
          match elements f' (skipn n c) with Some l => Some (firstn n c :: l) | None => None end
      end
  end.
Inductive part := NullPart | BytesPart (b : list Z) | ListPart (l : list (list Z)).
(** rlp.py 184-199 rlp_decode_part *)
Definition decode_part (bs : list Z) : option (part * list Z) :=
  match decode_header bs with
  | None => None
  | Some (is_list, ts, size) =>
      let rest := skipn (Z.to_nat (ts + size)) bs in
      let body := firstn (Z.to_nat size) (skipn (Z.to_nat ts) bs) in
      if is_list then
        if (ts =? 2) && (size =? 0) then Some (NullPart, rest)
        else match elements (length body) body with Some l => Some (ListPart l, rest) | None => None end
      else Some (BytesPart body, rest)
  end.

Section DECODE.
Variable utf8 : list Z -> bool.
Definition tc_int (b : list Z) : Z := match b with [] => 0 | x :: _ => be_val b - (if x <? 128 then 0 else 256 ^ zlen b) end.
(** rlp.py 93-115 from_bytes; the list of encoded elements if a list is wanted *)
Definition from_bytes (p : part) (t : ty) : option pyval :=
  match p with
  | NullPart => Some PNone
  | BytesPart b =>
      match t with
      | TBytes => Some (PBytes b)
      | TInt => Some (PInt (tc_int b))
      | TStr => if utf8 b then Some (PStr b) else None
      | TBool => match b with [0] => Some (PBool false) | [1] => Some (PBool true) | _ => None end
      | _ => None
      end
  | ListPart l => match t with TList => Some (PList (map PBytes l)) | _ => None end
  end.
(** rlp.py 126-134: the fields of an object, with the type objects afterwards *)
Fixpoint fields (dec : list Z -> ty -> option (pyval * ty)) (l : list (list Z)) (ts : list ty) : option (list pyval * list ty) :=
  match l, ts with
  | [], _ => Some ([], ts)
  | e :: l', t :: ts' =>
      match dec e t with
      | Some (v, t') => match fields dec l' ts' with Some (vs, us) => Some (v :: vs, t' :: us) | None => None end
      | None => None
      end
  | _ :: _, [] => None
  end.
(** rlp.py 139-143: all elements with the same type object *)
Fixpoint alls (dec : list Z -> ty -> option (pyval * ty)) (l : list (list Z)) (t : ty) : option (list pyval) :=
  match l with
  | [] => Some []
  | e :: l' =>
      match dec e t with
      | Some (v, t') => match alls dec l' t' with Some vs => Some (v :: vs) | None => None end
      | None => None
      end
  end.
(** rlp.py 118-149 rlp_decode, with the type object afterwards.  [f]: how deep the type is nested. *)
Fixpoint decode (f : nat) (bs : list Z) (t : ty) : option (pyval * ty) :=
  match f with
  | O => None
  | S f' =>
      match decode_part bs with
      | Some (p, []) =>
          match t with
          | TFields ts =>
              match p with
              | ListPart l =>
                  if (length ts <? length l)%nat then None
                  else match fields (decode f') l ts with Some (vs, us) => Some (PList vs, TFields us) | None => None end
              | _ => None
              end
          | TOf o =>
              match p, o with
              | ListPart l, Some t1 => match alls (decode f') l t1 with Some vs => Some (PList vs, TOf None) | None => None end
              | _, _ => None
              end
          | _ => match from_bytes p t with Some v => Some (v, t) | None => None end
          end
      | _ => None
      end
  end.
Fixpoint depth (t : ty) : nat :=
  match t with
  | TFields l => S (fold_right (fun t n => Nat.max (depth t) n) O l)
  | TOf (Some t) => S (depth t)
  | _ => 1%nat
  end.
Definition rlp_decode (bs : list Z) (t : ty) : option pyval := match decode (depth t) bs t with Some (v, _) => Some v | None => None end.
End DECODE.

(** * base64.py *)
(** base64.py 18-24 _to_base64_url *)
Definition b64_url : list Z := str "ABCDEFGHIJKLMNOPQRSTUVWXYZabcdefghijklmnopqrstuvwxyz0123456789-_".
Definition PAD : Z := 61.
Definition chr64 (i : Z) : Z := nth (Z.to_nat i) b64_url 0.
(** base64.py 27-32 _from_base64: -1 for other characters, -2 for the padding *)
Fixpoint index64 (x : Z) (l : list Z) (i : Z) : Z := match l with [] => -1 | y :: l' => if y =? x then i else index64 x l' (i + 1) end.
Definition from64 (x : Z) : Z := if x =? PAD then -2 else index64 x b64_url 0.
(** base64.py 35-81 encode *)
Fixpoint b64_encode (src : list Z) : list Z :=
  match src with
  | [] => []
  | [b0] => [chr64 (Z.shiftr b0 2); chr64 (Z.land (Z.shiftl b0 4) 63); PAD; PAD]
  | [b0; b1] => [chr64 (Z.shiftr b0 2); chr64 (Z.lor (Z.land (Z.shiftl b0 4) 63) (Z.shiftr b1 4)); chr64 (Z.land (Z.shiftl b1 2) 63); PAD]
  | b0 :: b1 :: b2 :: r =>
      let bits := Z.lor (Z.lor (Z.shiftl b0 16) (Z.shiftl b1 8)) b2 in
      chr64 (Z.land (Z.shiftr bits 18) 63) :: chr64 (Z.land (Z.shiftr bits 12) 63) :: chr64 (Z.land (Z.shiftr bits 6) 63) :: chr64 (Z.land bits 63) :: b64_encode r
  end.
(** base64.py 147-164 _decode_length *)
Definition decode_length (s : list Z) : option Z :=
  let l := zlen s in
  if l =? 0 then Some 0
  else if l <? 2 then None
  else let p := (if nth (length s - 1) s 0 =? PAD then 1 else 0) + (if nth (length s - 2) s 0 =? PAD then 1 else 0) in
       let p := if (p =? 0) && negb (l mod 4 =? 0) then 4 - l mod 4 else p in
       Some (3 * ((l + 3) / 4) - p).
(** base64.py 97-120: the loop; bits, shift, bytes so far and the characters left *)
Fixpoint b64_loop (src : list Z) (bits shiftto : Z) (out : list Z) : option (Z * Z * list Z * list Z) :=
  match src with
  | [] => Some (bits, shiftto, out, [])
  | c :: r =>
      let b := from64 c in
      if b <? 0 then
        if b =? -2 then
          if ((shiftto =? 6) && (match r with [] => true | x :: _ => negb (x =? PAD) end)) || (shiftto =? 18) then None
          else Some (bits, shiftto, out, skipn 1 r)
        else None
      else
        let bits := Z.lor bits (Z.shiftl b shiftto) in
        let shiftto := shiftto - 6 in
        if shiftto <? 0 then b64_loop r 0 18 (out ++ [Z.land (Z.shiftr bits 16) 255; Z.land (Z.shiftr bits 8) 255; Z.land bits 255])
        else b64_loop r bits shiftto out
  end.
(** base64.py 84-132 decode: the bytearray has its size from the start, writing beyond it is an IndexError, the rest stays 0 *)
Definition b64_decode (src : list Z) : option (list Z) :=
  match decode_length src with
  | None => None
  | Some n =>
      match b64_loop src 0 18 [] with
      | None => None
      | Some (bits, shiftto, out, rest) =>
          if shiftto =? 12 then None else
          let out := out ++ (if shiftto =? 6 then [Z.land (Z.shiftr bits 16) 255]
                             else if shiftto =? 0 then [Z.land (Z.shiftr bits 16) 255; Z.land (Z.shiftr bits 8) 255] else []) in
          match rest with
          | _ :: _ => None
          | [] => if n <? zlen out then None else Some (out ++ repeat 0 (Z.to_nat (n - zlen out)))
          end
      end
  end.
(** base64.py 1-6 and 167-174; the text must be ASCII *)
Definition urlsafe_b64encode (b : list Z) : list Z := b64_encode b.
Definition urlsafe_b64decode (s : list Z) : option (list Z) :=
  if forallb (fun c => c <? 128) s then
    let rem := zlen s mod 4 in b64_decode (if 0 <? rem then s ++ repeat PAD (Z.to_nat (4 - rem)) else s)
  else None.
