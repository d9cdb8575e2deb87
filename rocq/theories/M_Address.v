(** Model of the hex byte types, hex integer types, ICON addresses and BTP addresses.
    Simplification used throughout: JSON text is a [json_str]: JSON null, or a JSON string
    whose (already unquoted) content is given; quoting is done by encoding/json. *)
From Coq Require Import String Ascii ZArith List Bool.
From Verif Require Import Base GoStr M_IntConv.
Import ListNotations.
Open Scope Z_scope.

Inductive json_str := JNull | JStr (s : list Z).

(** ** common/hexbytes.go.  A Go []byte that may be nil is an [option (list Z)]. *)

(** common/hexbytes.go:11-17 RawHexBytes.MarshalJSON *)
Definition RawHexBytes_MarshalJSON (rh : option (list Z)) : json_str :=
  match rh with None => JNull | Some b => JStr (hex_encode b) end.

(** common/hexbytes.go:19-35 RawHexBytes.UnmarshalJSON (the stored value, or an error) *)
Definition RawHexBytes_UnmarshalJSON (j : json_str) : result (option (list Z)) :=
  match j with
  | JNull => Ok None
  | JStr s => match hex_decode s with Some b => Ok (Some b) | None => Err 1 end
  end.

(** common/hexbytes.go:44-49 RawHexBytes.String *)
Definition RawHexBytes_String (rh : option (list Z)) : list Z :=
  match rh with None => str "null" | Some b => hex_encode b end.

(** common/hexbytes.go:53-59 HexBytes.MarshalJSON *)
Definition HexBytes_MarshalJSON (hs : option (list Z)) : json_str :=
  match hs with None => JNull | Some b => JStr (str "0x" ++ hex_encode b) end.

(** common/hexbytes.go:71-73: strip a leading "0x" *)
Definition strip0x (s : list Z) : list Z :=
  if has_prefix (str "0x") s then skipn 2 s else s.

(** common/hexbytes.go:61-80 HexBytes.UnmarshalJSON *)
Definition HexBytes_UnmarshalJSON (j : json_str) : result (option (list Z)) :=
  match j with
  | JNull => Ok None
  | JStr s => match hex_decode (strip0x s) with Some b => Ok (Some b) | None => Err 1 end
  end.

(** common/hexbytes.go:89-94 HexBytes.String *)
Definition HexBytes_String (hs : option (list Z)) : list Z :=
  match hs with None => str "null" | Some b => str "0x" ++ hex_encode b end.

(** common/hexbytes.go:99-107 HexPre *)
Definition HexPre (bs : option (list Z)) : list Z :=
  match bs with
  | None => str "<nil>"
  | Some b => if zlen b >? 4 then hex_encode (firstn 4 b) ++ str ".." else hex_encode b
  end.

(** chain/icon/client/type.go:293-298 (and chain/ethbr/client/type.go:301-306) HexBytes.Value *)
Definition client_HexBytes_Value (hs : list Z) : result (option (list Z)) :=
  match hs with
  | [] => Ok None
  | [_] => Panic
  | _ :: _ :: r => match hex_decode r with Some b => Ok (Some b) | None => Err 1 end
  end.

(** chain/icon/client/type.go:299-301 NewHexBytes *)
Definition client_NewHexBytes (b : list Z) : list Z := str "0x" ++ hex_encode b.

(** ** common/hexint.go *)

(** common/hexint.go:15-21 HexInt.String / MarshalJSON (content of the JSON string) *)
Definition HexInt_text (i : Z) : list Z := FormatBigInt i.
(** common/hexint.go:31-33 HexInt.UnmarshalJSON, the case of a JSON string.  The fallback on
    unquoted text (24-30, big.Int.SetString) is not modelled. *)
Definition HexInt_parse (s : list Z) : option Z := ParseBigInt s.
(** common/hexint.go:36-57 HexInt.MarshalBinary/UnmarshalBinary, Bytes/SetBytes *)
Definition HexInt_Bytes (i : Z) : list Z := BigIntToBytes i.
Definition HexInt_SetBytes (bs : list Z) : Z := BigIntSetBytes bs.

(** common/hexint.go:65-270: the six fixed-width types, given by signedness and width.
    String uses FormatInt for HexInt16, HexUint16, HexInt32, HexInt64 (int64 conversion) and
    FormatUint for HexUint32, HexUint64. *)
Inductive hexkind := HI16 | HU16 | HI32 | HU32 | HI64 | HU64.

Definition hk_bits (k : hexkind) : Z :=
  match k with HI16 | HU16 => 16 | HI32 | HU32 => 32 | HI64 | HU64 => 64 end.
Definition hk_signed (k : hexkind) : bool :=
  match k with HI16 | HI32 | HI64 => true | _ => false end.

(** common/hexint.go:69-75, 106-112, 143-149, 176-182, 209-215, 242-248 *)
Definition HexFixed_text (k : hexkind) (v : Z) : list Z :=
  match k with
  | HI16 | HU16 | HI32 | HI64 => FormatInt v
  | HU32 | HU64 => FormatUint v
  end.

(** Go conversion int16(v64), uint32(v64), ... *)
Definition hk_convert (k : hexkind) (v : Z) : Z :=
  let m := v mod 2 ^ hk_bits k in
  if hk_signed k then (if m <? 2 ^ (hk_bits k - 1) then m else m - 2 ^ hk_bits k) else m.

(** common/hexint.go:77-88, 114-125, 151-162, 184-195, 217-228, 250-261 *)
Definition HexFixed_parse (k : hexkind) (s : list Z) : option Z :=
  match (if hk_signed k then ParseInt s (hk_bits k) else ParseUint s (hk_bits k)) with
  | Some v => Some (hk_convert k v)
  | None => None
  end.

(** chain/icon/client/type.go:306-323 client.HexInt Value / Int / BigInt / NewHexInt *)
Definition client_HexInt_Value (s : list Z) : option Z := ParseInt s 64.
Definition client_HexInt_Int (s : list Z) : option Z := ParseInt s 32.
Definition client_HexInt_BigInt (s : list Z) : option Z := ParseBigInt s.
Definition client_NewHexInt (v : Z) : list Z := FormatInt v.

(** ** common/address.go.  An Address is its 21 bytes. *)

Definition AddressIDBytes : nat := 20.
Definition AddressBytes : nat := 21.
Definition zeroAddress : list Z := repeat 0 AddressBytes.

(** common/address.go:22-24 *)
Definition Address_IsContract (a : list Z) : bool := nth 0 a 0 =? 1.

(** common/address.go:26-32 *)
Definition Address_String (a : list Z) : list Z :=
  if nth 0 a 0 =? 1 then str "cx" ++ hex_encode (skipn 1 a)
  else str "hx" ++ hex_encode (skipn 1 a).

(** common/address.go:95-111 SetTypeAndID: the receiver [a] is overwritten in place, so bytes
    not covered by a short id keep their old value. *)
Definition Address_SetTypeAndID (a : list Z) (ic : bool) (id : option (list Z)) : result (list Z) :=
  match id with
  | None => Err 1
  | Some b =>
      let a' := if (length b <? AddressIDBytes)%nat
                then go_copy a (AddressIDBytes - length b + 1) b
                else go_copy a 1 b in
      Ok (go_copy a' 0 [if ic then 1 else 0])
  end.

(** common/address.go:81-93 SetBytes: b[0] panics on an empty non-nil slice *)
Definition Address_SetBytes (a : list Z) (b : option (list Z)) : result (list Z) :=
  match b with
  | None => Err 1
  | Some [] => Panic
  | Some (t :: id) =>
      if t =? 0 then Address_SetTypeAndID a false (Some id)
      else if t =? 1 then Address_SetTypeAndID a true (Some id)
      else Err 1
  end.

(** common/address.go:46-70 SetString *)
Definition Address_SetString (a : list Z) (s : list Z) : result (list Z) :=
  let ic := has_prefix (str "cx") s in
  let s1 := if has_prefix (str "cx") s || has_prefix (str "hx") s || has_prefix (str "0x") s
            then skipn 2 s else s in
  let s2 := if zlen s1 mod 2 =? 1 then str "0" ++ s1 else s1 in
  match hex_decode s2 with
  | None => Err 1
  | Some b => Address_SetTypeAndID a ic (Some b)
  end.

(** common/address.go:72-74 Bytes, 77-79 ID *)
Definition Address_Bytes (a : list Z) : list Z := a.
Definition Address_ID (a : list Z) : list Z := skipn 1 a.

(** common/address.go:113-129 NewAccountAddress, NewAddress, NewContractAddress: the error is
    dropped and the zero address returned. *)
Definition or_zero (r : result (list Z)) : result (list Z) :=
  match r with Err _ => Ok zeroAddress | r => r end.
Definition NewAccountAddress (b : option (list Z)) : result (list Z) :=
  or_zero (Address_SetTypeAndID zeroAddress false b).
Definition NewContractAddress (b : option (list Z)) : result (list Z) :=
  or_zero (Address_SetTypeAndID zeroAddress true b).
Definition NewAddress (b : option (list Z)) : result (list Z) :=
  or_zero (Address_SetBytes zeroAddress b).

(** common/address.go:131-137 NewAddressFromString *)
Definition NewAddressFromString (s : list Z) : result (list Z) :=
  match Address_SetString zeroAddress s with Err _ => Panic | r => r end.

(** common/address.go:139-148 NewAccountAddressFromPublicKey; [sha3] is crypto.SHA3Sum256 and [pk]
    the uncompressed public key (nil = None). *)
Definition NewAccountAddressFromPublicKey (sha3 : list Z -> list Z) (pk : option (list Z)) : result (list Z) :=
  match pk with
  | None => Panic
  | Some k => let d := sha3 (skipn 1 k) in
              Address_SetTypeAndID zeroAddress false (Some (skipn (length d - 20) d))
  end.

(** common/address.go:150-159 Equal; nil pointers are [None] *)
Definition Address_Equal (a a2 : option (list Z)) : bool :=
  match a, a2 with
  | None, None => true
  | Some x, Some y => bytes_eqb x y
  | _, _ => false
  end.

(** chain/icon/client/type.go:328-345 (chain/ethbr/client/type.go:331-348) client.Address.Value *)
Definition client_Address_Value (a : list Z) : result (list Z) :=
  if (length a <? 2)%nat then Panic
  else
    let t := if bytes_eqb (firstn 2 a) (str "cx") then Some 1
             else if bytes_eqb (firstn 2 a) (str "hx") then Some 0 else None in
    match t with
    | None => Err 1
    | Some t =>
        rbind (hex_decode_into 20 (skipn 2 a)) (fun bs =>
          if (length bs =? 20)%nat then Ok (t :: bs) else Err 1)
    end.

(** chain/icon/client/type.go:347-359 NewAddress *)
Definition client_NewAddress (b : list Z) : list Z :=
  if negb (length b =? 21)%nat then []
  else match b with
       | 1 :: r => str "cx" ++ hex_encode r
       | 0 :: r => str "hx" ++ hex_encode r
       | _ => []
       end.

(** ** common/types/btpaddress.go *)

(** common/types/btpaddress.go:26-32 *)
Definition Btp_Protocol (a : list Z) : list Z :=
  match str_index a (str "://") with
  | Some i => if (0 <? i)%nat then firstn i a else []
  | None => []
  end.

Definition is_empty {A} (l : list A) : bool := match l with [] => true | _ => false end.

(** common/types/btpaddress.go:33-41 *)
Definition Btp_NetworkAddress (a : list Z) : list Z :=
  if negb (is_empty (Btp_Protocol a)) then nth 2 (str_split a (ch "/")) [] else [].

(** common/types/btpaddress.go:42-52: (network id, blockchain) *)
Definition Btp_network (a : list Z) : list Z * list Z :=
  let s := Btp_NetworkAddress a in
  if is_empty s then ([], [])
  else match str_split s (ch ".") with
       | x :: y :: _ => (x, y)
       | [x] => ([], x)
       | [] => ([], [])
       end.

(** common/types/btpaddress.go:53-60 *)
Definition Btp_BlockChain (a : list Z) : list Z := snd (Btp_network a).
Definition Btp_NetworkID (a : list Z) : list Z := fst (Btp_network a).

(** common/types/btpaddress.go:61-69 and 71-79 (identical bodies) *)
Definition Btp_Account (a : list Z) : list Z :=
  if negb (is_empty (Btp_Protocol a)) then nth 3 (str_split a (ch "/")) [] else [].
Definition Btp_ContractAddress (a : list Z) : list Z := Btp_Account a.

(** common/types/btpaddress.go:94-110; true = nil error *)
Definition ValidateBtpAddress (a : list Z) : bool :=
  bytes_eqb (Btp_Protocol a) (str "btp")
  && (bytes_eqb (Btp_BlockChain a) (str "icon") || bytes_eqb (Btp_BlockChain a) (str "iconee"))
  && negb (is_empty (Btp_Account a)).
