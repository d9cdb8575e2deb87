(** Model of the reflection-driven encoder and decoder of common/codec/codec.go over RLP.
    Go types and values are deeply embedded.  Not modelled: types with custom RLPEncodeSelf /
    MarshalBinary / MarshalRLP methods (tryCustom, 152-181 and 442-467), interfaces, and maps whose key
    kind is unsupported (an error at 288).  A struct is the list of its settable fields in order
    (embedded unexported structs, 222-229 and 487-494, are flattened into it).  A map value is the list
    of its entries in the order the runtime enumerates them. *)
From Coq Require Import String Ascii ZArith List Bool.
From Verif Require Import Base GoStr GoSort M_IntConv M_Rlp.
Import ListNotations.
Open Scope Z_scope.

Inductive keykind := KString | KInt (bits : Z) | KUint (bits : Z).

Inductive ty : Type :=
| TBool
| TUint (bits : Z)
| TInt (bits : Z)
| TString
| TBytes                        (* []byte *)
| TByteArray (n : nat)          (* [n]byte *)
| TPtr (t : ty)
| TSlice (t : ty)               (* element kind not uint8 *)
| TArray (n : nat) (t : ty)     (* element kind not uint8 *)
| TStruct (fs : list ty)
| TMap (k : keykind) (t : ty).

Inductive gkey := KeyS (s : list Z) | KeyI (z : Z) | KeyU (z : Z).

Inductive val : Type :=
| VBool (b : bool)
| VUint (z : Z)
| VInt (z : Z)
| VString (s : list Z)
| VBytes (b : option (list Z))
| VByteArr (b : list Z)
| VPtr (v : option val)
| VSlice (l : option (list val))
| VArray (l : list val)
| VStruct (l : list val)
| VMap (m : option (list (gkey * val))).

(** reflect.Zero *)
Fixpoint zero (t : ty) : val :=
  match t with
  | TBool => VBool false
  | TUint _ => VUint 0
  | TInt _ => VInt 0
  | TString => VString []
  | TBytes => VBytes None
  | TByteArray n => VByteArr (repeat 0 n)
  | TPtr _ => VPtr None
  | TSlice _ => VSlice None
  | TArray n t => VArray (repeat (zero t) n)
  | TStruct fs => VStruct (map zero fs)
  | TMap _ _ => VMap None
  end.

(** Order used by sort.Slice on map keys, common/codec/codec.go:274-286.  Keys of one map have one kind;
    the order between kinds is arbitrary. *)
Definition key_ltb (a b : gkey) : bool :=
  match a, b with
  | KeyS x, KeyS y => bytes_ltb x y
  | KeyI x, KeyI y => x <? y
  | KeyU x, KeyU y => x <? y
  | KeyS _, _ => true
  | KeyI _, KeyU _ => true
  | _, _ => false
  end.

(** common/codec/rlp.go:390-414 WriteValue, on the scalar kinds *)
Definition write_bool (b : bool) : list Z := writeBytes (Some [if b then 1 else 0]).
Definition write_uint (z : Z) : list Z := writeBytes (Some (Uint64ToBytes z)).
Definition write_int (z : Z) : list Z := writeBytes (Some (Int64ToBytes z)).
Definition write_string (s : list Z) : list Z := writeBytes (Some s).

Definition write_key (k : gkey) : list Z :=
  match k with KeyS s => write_string s | KeyI z => write_int z | KeyU z => write_uint z end.

(** common/codec/codec.go:183-314 encodeValue, encodeArrayValue, encodeNullable, encodeRecursiveFields.
    Map entries: the code sorts the keys and then encodes key and value of each; here the values are
    encoded first, then the (key, encoding) pairs are sorted by key. *)
Fixpoint encodeValue (v : val) : list Z :=
  match v with
  | VBool b => write_bool b
  | VUint z => write_uint z
  | VInt z => write_int z
  | VString s => write_string s
  | VBytes ob => writeBytes ob
  | VByteArr b => writeBytes (Some b)
  | VPtr None => writeNull
  | VPtr (Some v') => encodeValue v'
  | VSlice None => writeNull
  | VSlice (Some l) => writeList (concat (map encodeValue l))
  | VArray l => writeList (concat (map encodeValue l))
  | VStruct l => writeList (concat (map encodeValue l))
  | VMap None => writeNull
  | VMap (Some m) =>
      let es := sort_by (fun a b => key_ltb (fst a) (fst b))
                        (map (fun kv => (fst kv, encodeValue (snd kv))) m) in
      writeList (concat (map (fun ke => write_key (fst ke) ++ snd ke) es))
  end.

(** common/codec/bytes.go:22-28 MarshalToBytes *)
Definition MarshalToBytes (v : val) : list Z := encodeValue v.

(** reflect SetUint/SetInt: conversion to the width of the target *)
Definition wrap_uint (bits z : Z) : Z := z mod 2 ^ bits.
Definition wrap_int (bits z : Z) : Z :=
  let m := z mod 2 ^ bits in if m <? 2 ^ (bits - 1) then m else m - 2 ^ bits.

Definition rmap {A B} (f : A -> B) (r : rout A) : rout B :=
  match r with
  | ROk a s => ROk (f a) s
  | RNil s => RNil s
  | REof => REof | RFail => RFail | RPanic => RPanic
  end.

(** common/codec/rlp.go:178-210 ReadValue *)
Definition read_bool (s : list Z) : rout bool := rmap (fun b => negb (BytesToUint64 b =? 0)) (readBytes s).
Definition read_uint (bits : Z) (s : list Z) : rout Z := rmap (fun b => wrap_uint bits (BytesToUint64 b)) (readBytes s).
Definition read_int (bits : Z) (s : list Z) : rout Z := rmap (fun b => wrap_int bits (BytesToInt64 b)) (readBytes s).
Definition read_string (s : list Z) : rout (list Z) := readBytes s.

Definition read_key (k : keykind) (s : list Z) : rout gkey :=
  match k with
  | KString => rmap KeyS (read_string s)
  | KInt bits => rmap KeyI (read_int bits s)
  | KUint bits => rmap KeyU (read_uint bits s)
  end.

(** common/codec/codec.go:469-480 decodeNullableValue: ErrNilValue stores the zero value *)
Definition nullable (z : val) (r : rout val) : rout val :=
  match r with RNil s => ROk z s | r => r end.

(** Result of decoding the elements of a list whose bytes are known *)
Inductive lout (A : Type) := LOk (a : A) | LFail | LPanic.
Arguments LOk {A} _.
Arguments LFail {A}.
Arguments LPanic {A}.

Definition lmap {A B} (f : A -> B) (r : lout A) : lout B :=
  match r with LOk a => LOk (f a) | LFail => LFail | LPanic => LPanic end.

(** back to the parent: the child is drained, the parent continues at [rest] *)
Definition lret {A B} (f : A -> B) (r : lout A) (rest : list Z) : rout B :=
  match r with LOk a => ROk (f a) rest | LFail => RFail | LPanic => RPanic end.

(** common/codec/codec.go:566-583: slice elements until end of list.  [fuel] bounds the number of
    elements; every successful element consumes at least one byte. *)
Fixpoint dec_slice (dec : list Z -> rout val) (fuel : nat) (s : list Z) : lout (list val) :=
  match fuel with
  | O => LFail
  | S f => match dec s with
           | ROk v s' => lmap (cons v) (dec_slice dec f s')
           | REof => LOk []
           | RPanic => LPanic
           | RNil _ | RFail => LFail
           end
  end.

(** common/codec/codec.go:536-545: array elements; a short list leaves the remaining ones zero *)
Fixpoint dec_array (dec : list Z -> rout val) (z : val) (n : nat) (s : list Z) : lout (list val) :=
  match n with
  | O => LOk []
  | S n' => match dec s with
            | ROk v s' => lmap (cons v) (dec_array dec z n' s')
            | REof => LOk (repeat z n)
            | RPanic => LPanic
            | RNil _ | RFail => LFail
            end
  end.

(** m.SetMapIndex on a map kept as a key-sorted entry list *)
Fixpoint map_set (k : gkey) (v : val) (m : list (gkey * val)) : list (gkey * val) :=
  match m with
  | [] => [(k, v)]
  | (k', v') :: m' =>
      if key_ltb k' k then (k', v') :: map_set k v m'
      else if key_ltb k k' then (k, v) :: m
      else (k, v) :: m'
  end.

(** common/codec/codec.go:613-635 *)
Fixpoint dec_map (kdec : list Z -> rout gkey) (vdec : list Z -> rout val) (fuel : nat)
         (acc : list (gkey * val)) (s : list Z) : lout (list (gkey * val)) :=
  match fuel with
  | O => LFail
  | S f =>
      match kdec s with
      | REof => LOk acc
      | RPanic => LPanic
      | RNil _ | RFail => LFail
      | ROk k s1 =>
          match vdec s1 with
          | ROk v s2 => dec_map kdec vdec f (map_set k v acc) s2
          | RPanic => LPanic
          | REof | RNil _ | RFail => LFail
          end
      end
  end.

(** common/codec/codec.go:482-503 decodeRecursiveFields on a fresh struct: at the end of the list the
    remaining fields keep their zero value *)
Definition dec_fields (decs : list (val * (list Z -> rout val))) : list Z -> lout (list val) :=
  (fix go (decs : list (val * (list Z -> rout val))) (s : list Z) : lout (list val) :=
     match decs with
     | [] => LOk []
     | (z, dec) :: decs' =>
         match dec s with
         | ROk v s' => lmap (cons v) (go decs' s')
         | REof => LOk (map fst decs)
         | RPanic => LPanic
         | RNil _ | RFail => LFail
         end
     end) decs.

(** common/codec/codec.go:505-640 decodeValue into a fresh (zero) variable of type [t] *)
Fixpoint decodeValue (t : ty) (s : list Z) {struct t} : rout val :=
  match t with
  | TBool => rmap VBool (read_bool s)
  | TUint bits => rmap VUint (read_uint bits s)
  | TInt bits => rmap VInt (read_int bits s)
  | TString => rmap VString (read_string s)
  | TByteArray n => rmap (fun b => VByteArr (go_copy (repeat 0 n) 0 b)) (readBytes s)
  | TBytes => match readBytes s with RNil r => ROk (VBytes None) r | r => rmap (fun b => VBytes (Some b)) r end
  | TPtr t' => rmap (fun v => VPtr (Some v)) (decodeValue t' s)
  | TArray n t' =>
      match readList s with
      | ROk body r => lret VArray (dec_array (fun s => nullable (zero t') (decodeValue t' s)) (zero t') n body) r
      | RNil r => RNil r | REof => REof | RFail => RFail | RPanic => RPanic
      end
  | TSlice t' =>
      match readList s with
      | ROk body r => lret (fun l => VSlice (Some l))
                           (dec_slice (fun s => nullable (zero t') (decodeValue t' s)) (S (length body)) body) r
      | RNil r => ROk (VSlice None) r
      | REof => REof | RFail => RFail | RPanic => RPanic
      end
  | TStruct fs =>
      match readList s with
      | ROk body r =>
          lret VStruct (dec_fields (map (fun t' => (zero t', fun s => nullable (zero t') (decodeValue t' s))) fs) body) r
      | RNil r => RNil r | REof => REof | RFail => RFail | RPanic => RPanic
      end
  | TMap k t' =>
      match readList s with
      | ROk body r => lret (fun m => VMap (Some m))
                           (dec_map (read_key k) (fun s => nullable (zero t') (decodeValue t' s)) (S (length body)) [] body) r
      | RNil r => ROk (VMap None) r
      | REof => REof | RFail => RFail | RPanic => RPanic
      end
  end.

(** common/codec/codec.go:469-480 *)
Definition decodeNullableValue (t : ty) (s : list Z) : rout val := nullable (zero t) (decodeValue t s).

(** common/codec/bytes.go:30-36 UnmarshalFromBytes: the value and the remaining bytes, or an error *)
Definition UnmarshalFromBytes (t : ty) (b : list Z) : result (val * list Z) :=
  match decodeValue t b with
  | ROk v r => Ok (v, r)
  | RNil _ => Err 2
  | REof => Err 1
  | RFail => Err 3
  | RPanic => Panic
  end.
