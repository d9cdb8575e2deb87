(** Model of common/codec/msgpack.go under the reflection-driven encoder and decoder of common/codec/codec.go (types and
    values as in M_Codec.v).  The library github.com/vmihailenco/msgpack is modelled by the MessagePack format and its
    documented choices: shortest integers (UseCompactEncoding), shortest headers, str for strings and bin for bytes.
    ReadRaw and WriteRaw (135-144, 197-207), used by custom codecs only, are left out. *)
From Coq Require Import String Ascii ZArith List Bool.
From Verif Require Import Base GoStr GoSort M_IntConv M_Rlp M_Codec.
Import ListNotations.
Open Scope Z_scope.

(** * Writing *)
Definition mp_nil : list Z := [192].
Definition mp_bool (b : bool) : list Z := [if b then 195 else 194].
Definition mp_uint (z : Z) : list Z :=
  if z <=? 127 then [z]
  else if z <=? 255 then 204 :: be_fixed 1 z
  else if z <=? 65535 then 205 :: be_fixed 2 z
  else if z <=? 4294967295 then 206 :: be_fixed 4 z
  else 207 :: be_fixed 8 z.
Definition mp_int (z : Z) : list Z :=
  if 0 <=? z then mp_uint z
  else if -32 <=? z then [z + 256]
  else if -128 <=? z then 208 :: be_fixed 1 z
  else if -32768 <=? z then 209 :: be_fixed 2 z
  else if -2147483648 <=? z then 210 :: be_fixed 4 z
  else 211 :: be_fixed 8 z.
Definition mp_string (s : list Z) : list Z :=
  let l := zlen s in
  (if l <? 32 then [160 + l] else if l <? 256 then 217 :: be_fixed 1 l else if l <? 65536 then 218 :: be_fixed 2 l else 219 :: be_fixed 4 l) ++ s.
Definition mp_bin (b : list Z) : list Z :=
  let l := zlen b in
  (if l <? 256 then 196 :: be_fixed 1 l else if l <? 65536 then 197 :: be_fixed 2 l else 198 :: be_fixed 4 l) ++ b.
Definition mp_arraylen (n : Z) : list Z := if n <? 16 then [144 + n] else if n <? 65536 then 220 :: be_fixed 2 n else 221 :: be_fixed 4 n.
Definition mp_maplen (n : Z) : list Z := if n <? 16 then [128 + n] else if n <? 65536 then 222 :: be_fixed 2 n else 223 :: be_fixed 4 n.
Definition mp_key (k : gkey) : list Z := match k with KeyS s => mp_string s | KeyI z => mp_int z | KeyU z => mp_uint z end.

(** msgpack.go 159-195, 209-239 with codec.go 183-314: a list or map is buffered and preceded by the count of what was
    written into it, for maps halved *)
Fixpoint mp_encode (v : val) : list Z :=
  match v with
  | VBool b => mp_bool b
  | VUint z => mp_uint z
  | VInt z => mp_int z
  | VString s => mp_string s
  | VBytes None => mp_nil
  | VBytes (Some b) => mp_bin b
  | VByteArr b => mp_bin b
  | VPtr None => mp_nil
  | VPtr (Some v') => mp_encode v'
  | VSlice None => mp_nil
  | VSlice (Some l) => mp_arraylen (zlen l) ++ concat (map mp_encode l)
  | VArray l => mp_arraylen (zlen l) ++ concat (map mp_encode l)
  | VStruct l => mp_arraylen (zlen l) ++ concat (map mp_encode l)
  | VMap None => mp_nil
  | VMap (Some m) =>
      let es := sort_by (fun a b => key_ltb (fst a) (fst b)) (map (fun kv => (fst kv, mp_encode (snd kv))) m) in
      mp_maplen (zlen m) ++ concat (map (fun ke => mp_key (fst ke) ++ snd ke) es)
  end.

(** * Reading *)
Definition take (n : Z) (s : list Z) : option (list Z * list Z) :=
  if (0 <=? n) && (n <=? zlen s) then Some (firstn (Z.to_nat n) s, skipn (Z.to_nat n) s) else None.
Definition read_be (k : Z) (s : list Z) : option (Z * list Z) := match take k s with Some (b, r) => Some (be_val b, r) | None => None end.
Definition signed (bits z : Z) : Z := if z <? 2 ^ (bits - 1) then z else z - 2 ^ bits.
(** the number behind a code; None: not a number, or cut off *)
Definition mp_number (c : Z) (s : list Z) : option (Z * list Z) :=
  let n k f := match read_be k s with Some (z, r) => Some (f z, r) | None => None end in
  if c <=? 127 then Some (c, s) else if 224 <=? c then Some (c - 256, s)
  else if c =? 204 then n 1 (fun z => z) else if c =? 205 then n 2 (fun z => z) else if c =? 206 then n 4 (fun z => z) else if c =? 207 then n 8 (fun z => z)
  else if c =? 208 then n 1 (signed 8) else if c =? 209 then n 2 (signed 16) else if c =? 210 then n 4 (signed 32) else if c =? 211 then n 8 (signed 64)
  else None.
(** lengths; -1 stands for nil *)
Definition mp_byteslen (c : Z) (s : list Z) : option (Z * list Z) :=
  if c =? 192 then Some (-1, s) else if (160 <=? c) && (c <=? 191) then Some (c - 160, s)
  else if (c =? 217) || (c =? 196) then read_be 1 s else if (c =? 218) || (c =? 197) then read_be 2 s else if (c =? 219) || (c =? 198) then read_be 4 s
  else None.
Definition mp_listlen (c : Z) (s : list Z) : option (Z * list Z) :=
  if c =? 192 then Some (-1, s) else if (144 <=? c) && (c <=? 159) then Some (c - 144, s) else if c =? 220 then read_be 2 s else if c =? 221 then read_be 4 s else None.
Definition mp_mapsize (c : Z) (s : list Z) : option (Z * list Z) :=
  if c =? 192 then Some (-1, s) else if (128 <=? c) && (c <=? 143) then Some (c - 128, s) else if c =? 222 then read_be 2 s else if c =? 223 then read_be 4 s else None.

(** Read, found nil, or failed.  (io.EOF at the end of a list is not a result here: the count is looked at first.) *)
Inductive mout (A : Type) := MOk (a : A) (s : list Z) | MNil (s : list Z) | MFail.
Arguments MOk {A} _ _.
Arguments MNil {A} _.
Arguments MFail {A}.
Definition mmap {A B} (f : A -> B) (r : mout A) : mout B := match r with MOk a s => MOk (f a) s | MNil s => MNil s | MFail => MFail end.
(** msgpack.go 114-126 ReadBytes *)
Definition mp_readBytes (s : list Z) : mout (list Z) :=
  match s with
  | [] => MFail
  | c :: s =>
      match mp_byteslen c s with
      | Some (n, r) => if n =? -1 then MNil r else match take n r with Some (b, r) => MOk b r | None => MFail end
      | None => MFail
      end
  end.
(** msgpack.go 94-105 ReadValue: nil is looked for first *)
Definition mp_readNumber (s : list Z) : mout Z :=
  match s with [] => MFail | c :: s => if c =? 192 then MNil s else match mp_number c s with Some (z, r) => MOk z r | None => MFail end end.
Definition mp_readBool (s : list Z) : mout bool :=
  match s with [] => MFail | c :: s => if c =? 192 then MNil s else if c =? 194 then MOk false s else if c =? 195 then MOk true s else MFail end.
Definition mp_readString (s : list Z) : mout (list Z) := mp_readBytes s.
(** uint64 or int64 first, then the width of the target *)
Definition mp_readUint (bits : Z) (s : list Z) : mout Z := mmap (fun z => wrap_uint bits (z mod 2 ^ 64)) (mp_readNumber s).
Definition mp_readInt (bits : Z) (s : list Z) : mout Z := mmap (fun z => wrap_int bits (wrap_int 64 z)) (mp_readNumber s).
Definition mp_readKey (k : keykind) (s : list Z) : mout gkey :=
  match k with KString => mmap KeyS (mp_readString s) | KInt bits => mmap KeyI (mp_readInt bits s) | KUint bits => mmap KeyU (mp_readUint bits s) end.
(** msgpack.go 60-92: the number of values in the list or map that begins here *)
Definition mp_readList (s : list Z) : mout nat :=
  match s with
  | [] => MFail
  | c :: s => match mp_listlen c s with Some (n, r) => if n =? -1 then MNil r else MOk (Z.to_nat n) r | None => MFail end
  end.
(** an extension header before a map is passed over by the library: type, then the bytes of the length *)
Definition ext_header (c : Z) : option Z :=
  if (212 <=? c) && (c <=? 216) then Some 1 else if c =? 199 then Some 2 else if c =? 200 then Some 3 else if c =? 201 then Some 5 else None.
Definition mp_readMap (s : list Z) : mout nat :=
  match s with
  | [] => MFail
  | c :: s =>
      match (match ext_header c with
             | None => Some (c, s)
             | Some k => match take k s with Some (_, c :: s) => Some (c, s) | _ => None end
             end) with
      | None => MFail
      | Some (c, s) => match mp_mapsize c s with Some (n, r) => if n =? -1 then MNil r else MOk (Z.to_nat n) r | None => MFail end
      end
  end.

(** Decoder.Skip: how many bytes follow a code, and how many values follow these *)
Definition skip_head (c : Z) (s : list Z) : option (Z * list Z) :=
  let over o := match o with Some (n, r) => match take n r with Some (_, r) => Some (0, r) | None => None end | None => None end in
  let fixed n := over (Some (n, s)) in
  if (c <=? 127) || (224 <=? c) || (c =? 192) || (c =? 194) || (c =? 195) then Some (0, s)
  else if (c =? 204) || (c =? 208) then fixed 1 else if (c =? 205) || (c =? 209) then fixed 2
  else if (c =? 206) || (c =? 210) || (c =? 202) then fixed 4 else if (c =? 207) || (c =? 211) || (c =? 203) then fixed 8
  else if (212 <=? c) && (c <=? 216) then fixed (1 + 2 ^ (c - 212))
  else if c =? 199 then over (match read_be 1 s with Some (n, r) => Some (n + 1, r) | None => None end)
  else if c =? 200 then over (match read_be 2 s with Some (n, r) => Some (n + 1, r) | None => None end)
  else if c =? 201 then over (match read_be 4 s with Some (n, r) => Some (n + 1, r) | None => None end)
  else if ((160 <=? c) && (c <=? 191)) || ((196 <=? c) && (c <=? 198)) || ((217 <=? c) && (c <=? 219)) then over (mp_byteslen c s)
  else if ((144 <=? c) && (c <=? 159)) || (c =? 220) || (c =? 221) then mp_listlen c s
  else match mp_mapsize c s with Some (n, r) => Some (2 * n, r) | None => None end.
(** [n] values are passed over; every one has at least one byte, so [fuel] above the length of [s] is enough *)
Fixpoint mp_skip (fuel : nat) (n : Z) (s : list Z) : option (list Z) :=
  if n <=? 0 then Some s
  else match fuel, s with
       | S f, c :: s => match skip_head c s with Some (k, r) => mp_skip f (n - 1 + k) r | None => None end
       | _, _ => None
       end.
(** msgpack.go 107-112 Close: what was not read is passed over *)
Definition mp_close {A B} (f : A -> B) (r : option (A * nat * list Z)) : mout B :=
  match r with
  | Some (a, k, s) => match mp_skip (S (length s)) (Z.of_nat k) s with Some r => MOk (f a) r | None => MFail end
  | None => MFail
  end.

(** codec.go 469-480 *)
Definition mnullable (z : val) (r : mout val) : mout val := match r with MNil s => MOk z s | r => r end.
(** the loops of codec.go 536-545, 566-583, 613-635, 482-503.  [n]: how many values are left in the list; with none left
    the reader says io.EOF (38-46).  The result has the number of values not read. *)
Fixpoint mp_slice (dec : list Z -> mout val) (n : nat) (s : list Z) : option (list val * nat * list Z) :=
  match n with
  | O => Some ([], O, s)
  | S n => match dec s with
           | MOk v s => match mp_slice dec n s with Some (l, k, r) => Some (v :: l, k, r) | None => None end
           | _ => None
           end
  end.
Fixpoint mp_fields (decs : list (val * (list Z -> mout val))) (n : nat) (s : list Z) : option (list val * nat * list Z) :=
  match decs, n with
  | [], _ => Some ([], n, s)
  | _, O => Some (map fst decs, O, s)
  | (_, dec) :: decs, S n =>
      match dec s with
      | MOk v s => match mp_fields decs n s with Some (l, k, r) => Some (v :: l, k, r) | None => None end
      | _ => None
      end
  end.
(** [n]: pairs left; the values of a map come in pairs *)
Fixpoint mp_entries (kdec : list Z -> mout gkey) (vdec : list Z -> mout val) (n : nat) (acc : list (gkey * val)) (s : list Z) : option (list (gkey * val) * nat * list Z) :=
  match n with
  | O => Some (acc, O, s)
  | S n => match kdec s with
           | MOk k s => match vdec s with MOk v s => mp_entries kdec vdec n (map_set k v acc) s | _ => None end
           | _ => None
           end
  end.
(** codec.go 505-640 decodeValue into a fresh variable *)
Fixpoint mp_decode (t : ty) (s : list Z) {struct t} : mout val :=
  match t with
  | TBool => mmap VBool (mp_readBool s)
  | TUint bits => mmap VUint (mp_readUint bits s)
  | TInt bits => mmap VInt (mp_readInt bits s)
  | TString => mmap VString (mp_readString s)
  | TByteArray n => mmap (fun b => VByteArr (go_copy (repeat 0 n) 0 b)) (mp_readBytes s)
  | TBytes => match mp_readBytes s with MNil r => MOk (VBytes None) r | r => mmap (fun b => VBytes (Some b)) r end
  | TPtr t' => mmap (fun v => VPtr (Some v)) (mp_decode t' s)
  | TArray n t' =>
      match mp_readList s with
      | MOk k s => mp_close VArray (mp_fields (repeat (zero t', fun s => mnullable (zero t') (mp_decode t' s)) n) k s)
      | MNil r => MNil r | MFail => MFail
      end
  | TSlice t' =>
      match mp_readList s with
      | MOk k s => mp_close (fun l => VSlice (Some l)) (mp_slice (fun s => mnullable (zero t') (mp_decode t' s)) k s)
      | MNil r => MOk (VSlice None) r | MFail => MFail
      end
  | TStruct fs =>
      match mp_readList s with
      | MOk k s => mp_close VStruct (mp_fields (map (fun t' => (zero t', fun s => mnullable (zero t') (mp_decode t' s))) fs) k s)
      | MNil r => MNil r | MFail => MFail
      end
  | TMap kk t' =>
      match mp_readMap s with
      | MOk k s => mp_close (fun m => VMap (Some m)) (mp_entries (mp_readKey kk) (fun s => mnullable (zero t') (mp_decode t' s)) k [] s)
      | MNil r => MOk (VMap None) r | MFail => MFail
      end
  end.
(** bytes.go 22-36 over codec.MP *)
Definition MP_MarshalToBytes (v : val) : list Z := mp_encode v.
Definition MP_UnmarshalFromBytes (t : ty) (b : list Z) : result (val * list Z) :=
  match mp_decode t b with MOk v r => Ok (v, r) | MNil _ => Err 2 | MFail => Err 3 end.
