(** Model of message fragmentation: chain/icon/sender.go 102-128, 205-213 (the relay) and javascore/bmc
    BTPMessageCenter.java 907-963 (the BMC contract), with the base64 text between them.
    base64 is library code (Go encoding/base64 URLEncoding, java.util.Base64 URL decoder) and modelled as such.
    Sending is modelled as the list of transactions; [limit] stands for txSizeLimit. *)
From Coq Require Import String Ascii ZArith List Bool.
From Verif Require Import Base.
Import ListNotations.
Open Scope Z_scope.

(** The URL-safe alphabet. *)
Definition b64_char (n : Z) : Z :=
  if n <? 26 then 65 + n else if n <? 52 then 97 + (n - 26) else if n <? 62 then 48 + (n - 52) else if n =? 62 then 45 else 95.
Definition b64_val (c : Z) : option Z :=
  if (65 <=? c) && (c <=? 90) then Some (c - 65) else if (97 <=? c) && (c <=? 122) then Some (c - 97 + 26)
  else if (48 <=? c) && (c <=? 57) then Some (c - 48 + 52) else if c =? 45 then Some 62 else if c =? 95 then Some 63 else None.
Definition PAD : Z := 61.

(** base64.URLEncoding.EncodeToString *)
Fixpoint b64_encode (s : list Z) : list Z :=
  match s with
  | [] => []
  | [a] => [b64_char (a / 4); b64_char (a mod 4 * 16); PAD; PAD]
  | [a; b] => [b64_char (a / 4); b64_char (a mod 4 * 16 + b / 16); b64_char (b mod 16 * 4); PAD]
  | a :: b :: c :: r => b64_char (a / 4) :: b64_char (a mod 4 * 16 + b / 16) :: b64_char (b mod 16 * 4 + c / 64) :: b64_char (c mod 64) :: b64_encode r
  end.

(** Base64.getUrlDecoder().decode: padding may be missing, surplus bits are ignored, anything after padding is
    an error.  None = IllegalArgumentException, which reverts the transaction. *)
Definition b64_one (a b : Z) : option (list Z) :=
  match b64_val a, b64_val b with Some x, Some y => Some [x * 4 + y / 16] | _, _ => None end.
Definition b64_two (a b c : Z) : option (list Z) :=
  match b64_val a, b64_val b, b64_val c with Some x, Some y, Some z => Some [x * 4 + y / 16; y mod 16 * 16 + z / 4] | _, _, _ => None end.
Fixpoint b64_decode (s : list Z) : option (list Z) :=
  match s with
  | [] => Some []
  | [_] => None
  | [a; b] => b64_one a b
  | [a; b; c] => b64_two a b c
  | a :: b :: c :: d :: r =>
      if (d =? PAD) && (length r =? 0)%nat then (if c =? PAD then b64_one a b else b64_two a b c)
      else match b64_val a, b64_val b, b64_val c, b64_val d, b64_decode r with
           | Some x, Some y, Some z, Some w, Some t => Some ((x * 4 + y / 16) :: (y mod 16 * 16 + z / 4) :: (z mod 4 * 64 + w) :: t)
           | _, _, _, _, _ => None
           end
  end.

(** The transactions a relay message is sent in: handleRelayMessage with the whole, or handleFragment. *)
Inductive btx := TxRelay (text : list Z) | TxFragment (idx : Z) (text : list Z).

(** sender.go 117-124: the loop and the last fragment; [n] is idx at the start of the loop *)
Fixpoint send_rest (limit : nat) (n : nat) (msg : list Z) : list btx :=
  match n with
  | O => [TxFragment 0 (b64_encode msg)]
  | S n' => TxFragment (Z.of_nat n) (b64_encode (firstn limit msg)) :: send_rest limit n' (skipn limit msg)
  end.
(** sender.go 102-128; limit = 0 would be a division by zero *)
Definition relay (limit : nat) (msg : list Z) : result (list btx) :=
  match limit with
  | O => Panic
  | _ => let idx := (length msg / limit)%nat in
         match idx with
         | O => Ok [TxRelay (b64_encode msg)]
         | S n => Ok (TxFragment (- Z.of_nat idx) (b64_encode (firstn limit msg)) :: send_rest limit n (skipn limit msg))
         end
  end.

(** BTPMessageCenter.java 918: what is stored per link and relay.  None: the array is empty.  The two numbers
    are stored as decimal text and read back with parseInt, which gives the same int. *)
Record fstate := { f_last : Z; f_next : Z; f_pieces : list (list Z) }.
Definition i32 (v : Z) : Z := (v + 2 ^ 31) mod 2 ^ 32 - 2 ^ 31.

Fixpoint set_nth {T} (n : nat) (x : T) (l : list T) : list T :=
  match n, l with
  | _, [] => []
  | O, _ :: l' => x :: l'
  | S n', y :: l' => y :: set_nth n' x l'
  end.

(** 938-941: bytesArr[i] = fragments.get(i + INDEX_OFFSET); a missing entry throws *)
Fixpoint get_pieces (n : nat) (ps : list (list Z)) : option (list (list Z)) :=
  match n, ps with
  | O, _ => Some []
  | S n', p :: ps' => match get_pieces n' ps' with Some l => Some (p :: l) | None => None end
  | S _, [] => None
  end.

(** 907-963, for a registered relay.  None = revert (the state stays); otherwise the new state and the message
    handed to handleRelayMessage, if any. *)
Definition handleFragment (st : option fstate) (text : list Z) (idx : Z) : option (option fstate * option (list Z)) :=
  match b64_decode text with
  | None => None
  | Some bytes =>
      if idx <? 0 then
        let last := i32 (idx * -1) in
        match st with
        | None => Some (Some {| f_last := last; f_next := i32 (last - 1); f_pieces := [bytes] |}, None)
        | Some s => Some (Some {| f_last := last; f_next := i32 (last - 1); f_pieces := set_nth 0 bytes (f_pieces s) |}, None)
        end
      else
        match st with
        | None => None  (* fragments.get(INDEX_NEXT) on an empty array *)
        | Some s =>
            if negb (f_next s =? idx) then None
            else if idx =? 0 then
              if f_last s <? 0 then None  (* new byte[last + 1][] and bytesArr[last] *)
              else match get_pieces (Z.to_nat (f_last s)) (f_pieces s) with
                   | None => None
                   | Some ps => Some (Some s, Some (concat (ps ++ [bytes])))
                   end
            else
              let i := f_last s - idx in
              Some (Some {| f_last := f_last s; f_next := i32 (idx - 1);
                            f_pieces := if i <? Z.of_nat (length (f_pieces s)) then set_nth (Z.to_nat i) bytes (f_pieces s)
                                        else f_pieces s ++ [bytes] |}, None)
        end
  end.

(** Executing transactions one after the other; a reverted one leaves the state.  The outputs are the messages
    handed to the relay message handler (handleRelayMessage decodes the text itself, 509-512). *)
Fixpoint execute (st : option fstate) (txs : list btx) : option fstate * list (list Z) :=
  match txs with
  | [] => (st, [])
  | TxRelay text :: r =>
      let (st', out) := execute st r in
      (st', match b64_decode text with Some b => b :: out | None => out end)
  | TxFragment idx text :: r =>
      match handleFragment st text idx with
      | None => execute st r
      | Some (st1, o) => let (st', out) := execute st1 r in (st', match o with Some m => m :: out | None => out end)
      end
  end.
