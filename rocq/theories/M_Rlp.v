(** Model of common/codec/rlp.go (reader and writer).
    A reader is the list of bytes it has not consumed yet.  io.LimitReader over a parent, closed by
    draining it, is "the first n bytes of the parent; afterwards the parent continues behind them"
    (codec.go always closes the child before the parent is used again, or aborts the whole decoding).
    Allocation of make([]byte, n) is taken to succeed for every n >= 0. *)
From Coq Require Import String Ascii ZArith List Bool.
From Verif Require Import Base M_IntConv.
Import ListNotations.
Open Scope Z_scope.

(** Outcome of a read: a value and the remaining bytes; ErrNilValue (decoding may continue behind it);
    io.EOF exactly at an item boundary; any other error; a panic. *)
Inductive rout (A : Type) : Type :=
| ROk (a : A) (rest : list Z)
| RNil (rest : list Z)
| REof
| RFail
| RPanic.
Arguments ROk {A} _ _.
Arguments RNil {A} _.
Arguments REof {A}.
Arguments RFail {A}.
Arguments RPanic {A}.

(** io.ReadFull into a buffer of [n >= 0] bytes *)
Definition read_full (n : Z) (s : list Z) : option (list Z * list Z) :=
  if n <=? zlen s then Some (firstn (Z.to_nat n) s, skipn (Z.to_nat n) s) else None.

(** common/codec/rlp.go:23-25 sizeToBytes *)
Definition sizeToBytes (s : Z) : list Z := SizeToBytes (u64 s).

(** common/codec/rlp.go:27-29 bytesToSize: the uint64 is converted to int *)
Definition bytesToSize (bs : list Z) : Z := i64 (BytesToSize bs).

(** common/codec/rlp.go:48-56 readAll *)
Definition readAll (n : Z) (s : list Z) : rout (list Z) :=
  match read_full n s with Some (b, r) => ROk b r | None => RFail end.

(** common/codec/rlp.go:41-46 readSize on a header slice of [n] bytes *)
Definition readSize (n : Z) (s : list Z) : option (Z * list Z) :=
  match read_full n s with Some (b, r) => Some (bytesToSize b, r) | None => None end.

(** common/codec/rlp.go:31-39 skipN; io.CopyN with a negative count copies nothing and succeeds *)
Definition skipN (sz : Z) (s : list Z) : rout unit :=
  if sz <? 0 then ROk tt s
  else match read_full sz s with Some (_, r) => ROk tt r | None => RFail end.

(** common/codec/rlp.go:58-88 skipOne *)
Definition skipOne (s : list Z) : rout unit :=
  match s with
  | [] => REof
  | tag :: s1 =>
      if tag <? 128 then ROk tt s1
      else if tag <=? 183 then skipN (tag - 128) s1
      else if tag <? 192 then
        match readSize (tag - 183) s1 with Some (sz, s2) => skipN sz s2 | None => RFail end
      else if tag <=? 247 then skipN (tag - 192) s1
      else match readSize (tag - 247) s1 with Some (sz, s2) => skipN sz s2 | None => RFail end
  end.

(** common/codec/rlp.go:90-97 Skip *)
Fixpoint rlp_Skip (cnt : nat) (s : list Z) : rout unit :=
  match cnt with
  | O => ROk tt s
  | S c => match skipOne s with ROk _ s' => rlp_Skip c s' | r => r end
  end.

(** io.LimitReader(parent, n) and the parent once the child has been drained *)
Definition limited (n : Z) (s : list Z) : rout (list Z) :=
  if zlen s <=? n then ROk s []
  else ROk (firstn (Z.to_nat n) s) (skipn (Z.to_nat n) s).

(** common/codec/rlp.go:99-126 readList: the child's bytes, and the parent's after it *)
Definition readList (s : list Z) : rout (list Z) :=
  match s with
  | [] => REof
  | tag :: s1 =>
      if tag <? 192 then RFail
      else if tag <=? 247 then limited (tag - 192) s1
      else match readSize (tag - 247) s1 with
           | None => RFail
           | Some (sz, s2) => if (tag - 247 =? 1) && (sz =? 0) then RNil s2 else limited sz s2
           end
  end.

(** common/codec/rlp.go:136-176 readBytes; make with a negative size panics *)
Definition readBytes (s : list Z) : rout (list Z) :=
  match s with
  | [] => REof
  | tag :: s1 =>
      if tag <? 128 then ROk [tag] s1
      else if tag <=? 183 then readAll (tag - 128) s1
      else if tag <? 192 then
        match readSize (tag - 183) s1 with
        | None => RFail
        | Some (sz, s2) => if sz <? 0 then RPanic else readAll sz s2
        end
      else if tag =? 248 then
        match readSize 1 s1 with
        | None => RFail
        | Some (sz, s2) => if sz =? 0 then RNil s2 else RFail
        end
      else RFail
  end.

(** common/codec/rlp.go:221-228 readMore; a negative size panics in make or in the slice expression *)
Definition readMore (org : list Z) (size : Z) (s : list Z) : rout (list Z) :=
  if size <? 0 then RPanic
  else match read_full size s with Some (b, r) => ROk (org ++ b) r | None => RFail end.

(** header bytes of a long item: the tag and its [n] size bytes *)
Definition readRaw_long (tag n : Z) (s1 : list Z) : rout (list Z) :=
  match read_full n s1 with
  | None => RFail
  | Some (szb, s2) => readMore (tag :: szb) (bytesToSize szb) s2
  end.

(** common/codec/rlp.go:230-260 ReadRaw *)
Definition readRaw (s : list Z) : rout (list Z) :=
  match s with
  | [] => REof
  | tag :: s1 =>
      if tag <? 128 then ROk [tag] s1
      else if tag <=? 183 then readMore [tag] (tag - 128) s1
      else if tag <? 192 then readRaw_long tag (tag - 183) s1
      else if tag <=? 247 then readMore [tag] (tag - 192) s1
      else readRaw_long tag (tag - 247) s1
  end.

(** common/codec/rlp.go:316-320 nullSequence, writeNull *)
Definition writeNull : list Z := [248; 0].

(** common/codec/rlp.go:322-353 writeBytes (bytes appended to the output); nil is [None] *)
Definition writeBytes (ob : option (list Z)) : list Z :=
  match ob with
  | None => writeNull
  | Some b =>
      let l := zlen b in
      if l =? 0 then [128]
      else if (l =? 1) && (hd 0 b <? 128) then b
      else if l <=? 55 then (128 + l) mod 256 :: b
      else let sz := sizeToBytes l in (128 + 55 + zlen sz) mod 256 :: sz ++ b
  end.

(** common/codec/rlp.go:355-378 writeList, called by Close (421-434) with the child's buffer *)
Definition writeList (b : list Z) : list Z :=
  let l := zlen b in
  if l =? 0 then [192]
  else if l <=? 55 then (192 + l) mod 256 :: b
  else let sz := sizeToBytes l in (192 + 55 + zlen sz) mod 256 :: sz ++ b.

(** Trees of items, written with the Writer interface: WriteNull, WriteBytes, and WriteList followed by
    the children and Close (common/codec/rlp.go:280-290, 380-383, 416-434). *)
Inductive rlp : Type :=
| RNull
| RBytes (b : list Z)
| RList (l : list rlp).

Fixpoint rlp_write (t : rlp) : list Z :=
  match t with
  | RNull => writeNull
  | RBytes b => writeBytes (Some b)
  | RList l => writeList (concat (map rlp_write l))
  end.

(** Reading a tree of known shape with the Reader interface: ReadBytes where bytes are expected, and
    ReadList, the children, then end of list, where a list is expected; the nil marker is accepted in
    both places (common/codec/codec.go:395-420 DecodeBytes/DecodeList/DecodeMulti use them this way). *)
Inductive shape : Type := ShBytes | ShList (l : list shape).

Fixpoint rlp_read (sh : shape) (s : list Z) {struct sh} : rout rlp :=
  match sh with
  | ShBytes =>
      match readBytes s with
      | ROk b r => ROk (RBytes b) r
      | RNil r => ROk RNull r
      | REof => REof | RFail => RFail | RPanic => RPanic
      end
  | ShList shs =>
      match readList s with
      | ROk body r =>
          (fix go (shs : list shape) (acc : list rlp) (body : list Z) {struct shs} : rout rlp :=
             match shs with
             | [] => match body with [] => ROk (RList (rev acc)) r | _ => RFail end
             | sh1 :: shs' =>
                 match rlp_read sh1 body with
                 | ROk t body' => go shs' (t :: acc) body'
                 | RPanic => RPanic
                 | _ => RFail
                 end
             end) shs [] body
      | RNil r => ROk RNull r
      | REof => REof | RFail => RFail | RPanic => RPanic
      end
  end.
