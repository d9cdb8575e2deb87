(** Model of chain/icon/client/serialize.go and of the bytes signed by client.go 60-72 (SignTransaction).
    A JSON object is the list of its entries in the order a map iteration gives them (keys are distinct).
    Numbers are given as the int64 that the float64 is converted to (the fraction is dropped before that).
    Texts of error messages are left out: None is an error. *)
From Coq Require Import String Ascii ZArith List Bool.
From Verif Require Import Base GoSort.
Import ListNotations.
Open Scope Z_scope.

Inductive jval := JNull | JStr (s : list Z) | JNum (z : Z) | JBool (b : bool) | JList (l : list jval) | JDict (d : list (list Z * jval)).

(** serialize.go 35-58 *)
Definition is_special (b : Z) : bool :=
  (b =? ch "\") || (b =? ch "{") || (b =? ch "}") || (b =? ch "[") || (b =? ch "]") || (b =? ch ".").
Fixpoint serializeString (s : list Z) : list Z :=
  match s with
  | [] => []
  | b :: s' => if is_special b then ch "\" :: b :: serializeString s' else b :: serializeString s'
  end.

(** strconv.FormatInt(v, 10) for 64-bit values *)
Fixpoint dec_loop (fuel : nat) (n : Z) (acc : list Z) : list Z :=
  match fuel with
  | O => acc
  | S f => let acc' := (ch "0" + n mod 10) :: acc in if n <? 10 then acc' else dec_loop f (n / 10) acc'
  end.
Definition FormatDec (z : Z) : list Z := if z <? 0 then ch "-" :: dec_loop 20 (- z) [] else dec_loop 20 z [].

(** serialize.go 60-74: the loop over the serialized elements; the separator depends on the buffer length *)
Fixpoint list_loop (buf : list Z) (fs : list (option (list Z))) : option (list Z) :=
  match fs with
  | [] => Some buf
  | None :: _ => None
  | Some f :: fs' => list_loop ((if (length buf =? 0)%nat then buf else buf ++ [ch "."]) ++ f) fs'
  end.

(** serialize.go 122-137: the loop over the sorted keys *)
Fixpoint dict_loop (skip : list Z -> bool) (buf : list Z) (es : list (list Z * option (list Z))) : option (list Z) :=
  match es with
  | [] => Some buf
  | (k, f) :: es' =>
      if skip k then dict_loop skip buf es'
      else match f with
           | None => None
           | Some f => dict_loop skip ((if (length buf =? 0)%nat then buf else buf ++ [ch "."]) ++ serializeString k ++ [ch "."] ++ f) es'
           end
  end.
Definition entry_ltb {T} (a b : list Z * T) : bool := bytes_ltb (fst a) (fst b).

(** serialize.go 76-113.  The code serializes each value when its key comes up; here all are serialized first. *)
Fixpoint serializeValue (v : jval) : option (list Z) :=
  match v with
  | JNull => Some [ch "\"; ch "0"]
  | JDict d =>
      match dict_loop (fun _ => false) [] (sort_by entry_ltb (map (fun e => (fst e, serializeValue (snd e))) d)) with
      | Some t => Some (ch "{" :: t ++ [ch "}"])
      | None => None
      end
  | JList l => match list_loop [] (map serializeValue l) with Some t => Some (ch "[" :: t ++ [ch "]"]) | None => None end
  | JStr s => Some (serializeString s)
  | JNum z => Some (FormatDec z)
  | JBool _ => None
  end.

(** serialize.go 115-147: in == nil is None; a key missing from the map reads as false *)
Definition skip_key (inc exc : option (list Z -> bool)) (k : list Z) : bool :=
  (match inc with Some f => negb (f k) | None => false end) || (match exc with Some f => f k | None => false end).
Definition SerializeMap (d : list (list Z * jval)) (inc exc : option (list Z -> bool)) : option (list Z) :=
  dict_loop (skip_key inc exc) [] (sort_by entry_ltb (map (fun e => (fst e, serializeValue (snd e))) d)).

(** client.go 58-72: what is hashed and signed *)
Definition signed_bytes (d : list (list Z * jval)) : option (list Z) :=
  match SerializeMap d None (Some (fun k => bytes_eqb k (str "signature"))) with
  | Some t => Some (str "icx_sendTransaction." ++ t)
  | None => None
  end.
