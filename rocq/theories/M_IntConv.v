(** Model of common/intconv (bytes.go, string.go) and of the Go standard library
    parsers it calls.  [big.Int] is [Z]. *)
From Coq Require Import String Ascii ZArith List Bool.
From Verif Require Import Base.
Import ListNotations.
Open Scope Z_scope.

(** common/intconv/bytes.go:9-11 *)
Definition BytesForZero : list Z := [0].

(** common/intconv/bytes.go:13-32.  The nil receiver case (line 14) gives the same
    result as zero and is not represented separately. *)
Definition BigIntToBytes (i : Z) : list Z :=
  if i =? 0 then BytesForZero
  else if 0 <? i then
    let bl := bit_len i in
    if bl mod 8 =? 0 then 0 :: big_bytes i else big_bytes i
  else
    let ti := i + 1 in
    let bl := bit_len ti in
    let nb := 2 ^ ((bl + 8) / 8 * 8) in
    big_bytes (nb + i).

(** common/intconv/bytes.go:34-42 *)
Definition BigIntSetBytes (bs : list Z) : Z :=
  let i := be_val bs in
  match bs with
  | [] => i
  | b0 :: _ => if Z.land b0 128 =? 0 then i else i - 2 ^ (bit_len i)
  end.

(** Loop of common/intconv/bytes.go:49-56; [n] is idx+1, [acc] is bs[idx+1:]. *)
Fixpoint Uint64ToBytes_loop (n : nat) (v : Z) (acc : list Z) : list Z :=
  match n with
  | O => acc
  | S n' =>
      let tv := Z.land v 255 in
      let v' := Z.shiftr v 8 in
      if (v' =? 0) && (Z.land tv 128 =? 0) then tv :: acc
      else Uint64ToBytes_loop n' v' (tv :: acc)
  end.

(** common/intconv/bytes.go:44-58 *)
Definition Uint64ToBytes (v : Z) : list Z :=
  if v =? 0 then BytesForZero else Uint64ToBytes_loop 9 v [].

(** Loop of common/intconv/bytes.go:65-71. *)
Fixpoint SizeToBytes_loop (n : nat) (v : Z) (acc : list Z) : list Z :=
  match n with
  | O => acc
  | S n' =>
      let b := Z.land v 255 in
      let v' := Z.shiftr v 8 in
      if v' =? 0 then b :: acc else SizeToBytes_loop n' v' (b :: acc)
  end.

(** common/intconv/bytes.go:60-73 *)
Definition SizeToBytes (v : Z) : list Z :=
  if v =? 0 then BytesForZero else SizeToBytes_loop 8 v [].

(** common/intconv/bytes.go:75-87 *)
Definition BytesToUint64 (bs : list Z) : Z :=
  match bs with
  | [] => 0
  | b0 :: _ =>
      let v0 := if Z.land b0 128 =? 0 then 0 else 2 ^ 64 - 1 in
      fold_left (fun v b => Z.lor (u64 (Z.shiftl v 8)) b) bs v0
  end.

(** common/intconv/bytes.go:89-95 *)
Definition BytesToSize (bs : list Z) : Z :=
  fold_left (fun v b => Z.lor (u64 (Z.shiftl v 8)) b) bs 0.

(** common/intconv/bytes.go:97-113 *)
Definition BytesToInt64 (bs : list Z) : Z :=
  match bs with
  | [] => 0
  | b0 :: _ =>
      if Z.land b0 128 =? 0 then
        fold_left (fun v b => Z.lor (i64 (Z.shiftl v 8)) b) bs 0
      else
        i64 (i64 (- fold_left (fun v b => Z.lor (i64 (Z.shiftl v 8)) (Z.lxor b 255)) bs 0) - 1)
  end.

(** Loop of common/intconv/bytes.go:126-132. *)
Fixpoint Int64ToBytes_loop (n : nat) (target v : Z) (acc : list Z) : list Z :=
  match n with
  | O => acc
  | S n' =>
      let b := Z.land v 255 in
      if Z.land v (-128) =? target then b :: acc
      else Int64ToBytes_loop n' target (Z.shiftr v 8) (b :: acc)
  end.

(** common/intconv/bytes.go:115-134 *)
Definition Int64ToBytes (v : Z) : list Z :=
  if v =? 0 then BytesForZero
  else Int64ToBytes_loop 8 (if v <? 0 then -128 else 0) v [].

(** common/intconv/string.go:27-40 *)
Definition encodeHexNumber (neg : bool) (b : list Z) : list Z :=
  match hex_encode b with
  | [] => str "0x0"
  | c :: s' =>
      let s := if c =? ch "0" then s' else c :: s' in
      if neg then str "-0x" ++ s else str "0x" ++ s
  end.

(** common/intconv/string.go:42-56; [None] is the error of hex.DecodeString. *)
Definition decodeHexNumber (s : list Z) : bool * option (list Z) :=
  let '(negative, s) :=
    match s with
    | c :: s' => if c =? ch "-" then (true, s') else (false, s)
    | [] => (false, s)
    end in
  let s := if (2 <? zlen s) && has_prefix (str "0x") s then skipn 2 s else s in
  let s := if zlen s mod 2 =? 1 then ch "0" :: s else s in
  (negative, hex_decode s).

(** common/intconv/string.go:11-13 *)
Definition FormatBigInt (i : Z) : list Z := encodeHexNumber (i <? 0) (big_bytes i).

(** common/intconv/string.go:15-25 *)
Definition ParseBigInt (s : list Z) : option Z :=
  match decodeHexNumber s with
  | (_, None) => None
  | (neg, Some bs) => Some (if neg then - be_val bs else be_val bs)
  end.

(** ** Go standard library: strconv.ParseUint / strconv.ParseInt with base 0
    (go 1.13 and later).  Not part of /repo; modelled because ParseInt/ParseUint
    of string.go try it first. *)

Definition lower (c : Z) : Z := Z.lor c 32.

(** Digit value used by strconv: 0-9, a-z, A-Z; [None] is a syntax error. *)
Definition digit_of (c : Z) : option Z :=
  if (48 <=? c) && (c <=? 57) then Some (c - 48)
  else if (97 <=? lower c) && (lower c <=? 122) then Some (lower c - 87)
  else None.

(** strconv.underscoreOK, the main loop.  State [i]: 0 = '^', 1 = digit, 2 = '_', 3 = '!'. *)
Fixpoint underscore_loop (hex : bool) (i : Z) (s : list Z) : bool :=
  match s with
  | [] => negb (i =? 2)
  | c :: r =>
      if ((48 <=? c) && (c <=? 57)) || (hex && (97 <=? lower c) && (lower c <=? 102))
      then underscore_loop hex 1 r
      else if c =? ch "_" then
        if i =? 1 then underscore_loop hex 2 r else false
      else if i =? 2 then false
      else underscore_loop hex 3 r
  end.

Definition underscoreOK (s : list Z) : bool :=
  let s := match s with
           | c :: r => if (c =? ch "-") || (c =? ch "+") then r else s
           | [] => s end in
  match s with
  | a :: b :: r =>
      if (a =? ch "0") && ((lower b =? ch "b") || (lower b =? ch "o") || (lower b =? ch "x"))
      then underscore_loop (lower b =? ch "x") 1 r
      else underscore_loop false 0 s
  | _ => underscore_loop false 0 s
  end.

(** Result of strconv.ParseUint: value, syntax error, or range error (whose
    accompanying value is maxVal). *)
Inductive pu_res := PU_ok (n : Z) | PU_syntax | PU_range (maxVal : Z).

(** Main loop of strconv.ParseUint. *)
Fixpoint ParseUint_loop (base maxVal : Z) (us : bool) (n : Z) (s : list Z) : bool * pu_res :=
  match s with
  | [] => (us, PU_ok n)
  | c :: r =>
      if c =? ch "_" then ParseUint_loop base maxVal true n r
      else match digit_of c with
           | None => (us, PU_syntax)
           | Some d =>
               if base <=? d then (us, PU_syntax)
               else if (2 ^ 64 - 1) / base + 1 <=? n then (us, PU_range maxVal)
               else
                 let m := u64 (n * base) in
                 let n1 := u64 (m + d) in
                 if (n1 <? m) || (maxVal <? n1) then (us, PU_range maxVal)
                 else ParseUint_loop base maxVal us n1 r
           end
  end.

(** strconv.ParseUint(s, 0, bits), 1 <= bits <= 64. *)
Definition strconv_ParseUint0 (s : list Z) (bits : Z) : pu_res :=
  match s with
  | [] => PU_syntax
  | c0 :: s1 =>
      let '(base, body) :=
        if c0 =? ch "0" then
          match s1 with
          | c1 :: ((_ :: _) as s2) =>
              if lower c1 =? ch "b" then (2, s2)
              else if lower c1 =? ch "o" then (8, s2)
              else if lower c1 =? ch "x" then (16, s2)
              else (8, s1)
          | _ => (8, s1)
          end
        else (10, s) in
      let '(us, r) := ParseUint_loop base (2 ^ bits - 1) false 0 body in
      match r with
      | PU_ok n => if us && negb (underscoreOK s) then PU_syntax else PU_ok n
      | _ => r
      end
  end.

(** strconv.ParseInt(s, 0, bits): [None] stands for any error. *)
Definition strconv_ParseInt0 (s : list Z) (bits : Z) : option Z :=
  match s with
  | [] => None
  | c :: r =>
      let '(neg, body) :=
        if c =? ch "+" then (false, r) else if c =? ch "-" then (true, r) else (false, s) in
      let cutoff := 2 ^ (bits - 1) in
      let fin un :=
        if negb neg && (cutoff <=? un) then None
        else if neg && (cutoff <? un) then None
        else Some (i64 (if neg then - un else un)) in
      match strconv_ParseUint0 body bits with
      | PU_syntax => None
      | PU_ok un => fin un
      | PU_range un => fin un
      end
  end.

(** common/intconv/string.go:58-82; [None] is any error. *)
Definition ParseInt (s : list Z) (bits : Z) : option Z :=
  match strconv_ParseInt0 s bits with
  | Some v => Some v
  | None =>
      match decodeHexNumber s with
      | (_, None) => None
      | (negative, Some bs) =>
          if bits <? zlen bs * 8 then None
          else
            let v := BytesToSize bs in
            let edge := 2 ^ (bits - 1) in
            if negative then
              if edge <? v then None else Some (i64 (- i64 v))
            else
              if edge <=? v then None else Some (i64 v)
      end
  end.

(** common/intconv/string.go:84-96; [None] is any error. *)
Definition ParseUint (s : list Z) (bits : Z) : option Z :=
  match strconv_ParseUint0 s bits with
  | PU_ok v => Some v
  | _ =>
      match decodeHexNumber s with
      | (false, Some bs) => if bits <? zlen bs * 8 then None else Some (BytesToSize bs)
      | _ => None
      end
  end.

(** common/intconv/string.go:98-107 *)
Definition FormatInt (v : Z) : list Z :=
  if v <? 0 then encodeHexNumber true (SizeToBytes (u64 (i64 (- v))))
  else encodeHexNumber false (SizeToBytes (u64 v)).

(** common/intconv/string.go:109-111 *)
Definition FormatUint (v : Z) : list Z := encodeHexNumber false (SizeToBytes v).
