(** The trust-based ("bridge") verifier contracts and the bytes they are given:
    javascore/bmv/bridge (foundation.icon.btp.bmv.bridge), solidity/bmv-bridge/contracts (BMV.sol, RLPDecodeStruct.sol),
    chain/icon/bridge/message.go, chain/ethbr/message.go.
    An exception or a revert is [None]: the contract's state stays as it was. *)
From Coq Require Import String Ascii ZArith List Bool.
From Verif Require Import Base M_IntConv M_Rlp M_Codec M_Wire M_SolRlp M_BtpAddr.
Import ListNotations.
Open Scope Z_scope.

(** EventDataBTPMessage.java 11-19, Types.sol MessageEvent; ReceiptProof.java 29-37, Types.sol ReceiptProof *)
Record bevent := BEvent { be_next : list Z; be_seq : Z; be_msg : list Z }.
Record breceipt := BReceipt { br_index : Z; br_events : list bevent; br_height : Z }.

(** * javascore/bmv/bridge *)
(** EventDataBTPMessage.java 26-33 *)
Definition readEvent : parser bevent :=
  inList (pbind readByteArray (fun n => pbind readBigInteger (fun q => pbind readByteArray (fun m => pret (BEvent n q m))))).
(** ReceiptProof.java 39-55; the outer list is not closed *)
Definition readReceipt : parser breceipt :=
  inList (pbind readInt (fun i => pbind readByteArray (fun eb s =>
          match fromBytes (listOf readEvent) eb with
          | Some evs => pbind readBigInteger (fun h => pret (BReceipt i evs h)) s
          | None => None
          end))).
(** RelayMessage.java 33-56 *)
Definition readBridgeMessage : parser (list breceipt) :=
  inList (listOf (pbind readByteArray (fun b s => match fromBytes readReceipt b with Some r => Some (r, s) | None => None end))).

(** BTPMessageVerifier.java 61-75: the events of one receipt; the messages taken and the next number *)
Fixpoint j_events (evs : list bevent) (next : Z) : option (list (list Z) * Z) :=
  match evs with
  | [] => Some ([], next)
  | e :: r => if be_seq e <? next then j_events r next
              else if next <? be_seq e then None
              else match j_events r (next + 1) with Some (ms, n) => Some (be_msg e :: ms, n) | None => None end
  end.
(** BTPMessageVerifier.java 53-77 *)
Fixpoint j_receipts (rps : list breceipt) (height next : Z) : option (list (list Z) * Z) :=
  match rps with
  | [] => Some ([], height)
  | rp :: r => if br_height rp <? height then j_receipts r height next
               else match j_events (br_events rp) next with
                    | None => None
                    | Some (ms, next') => match j_receipts r (br_height rp) next' with Some (ms', h) => Some (ms ++ ms', h) | None => None end
                    end
  end.
(** BTPMessageVerifier.java 78-83: [i] stays 0 *)
Definition j_array (msgs : list (list Z)) : list (option (list Z)) :=
  fold_left (fun ret m => match ret with [] => [] | _ :: t => Some m :: t end) msgs (map (fun _ => None) msgs).

(** BTPMessageVerifier.java 33-41 *)
Record jbridge := JBridge { jb_bmc : list Z; jb_net : list Z; jb_height : Z }.
Section Java.
Variable addr_of : list Z -> option (list Z). (* Address.fromString *)
(** BTPMessageVerifier.java 93-102 *)
Definition j_accessible (b : jbridge) (caller : list Z) (cur from : jaddr) : bool :=
  bytes_eqb (jb_net b) (ja_net from) && bytes_eqb caller (jb_bmc b) &&
  match addr_of (ja_account cur) with Some a => bytes_eqb a (jb_bmc b) | None => false end.
(** BTPMessageVerifier.java 43-84 *)
Definition j_bridge_handle (b : jbridge) (caller bmc prev : list Z) (seq : Z) (msg : list Z) : option (jbridge * list (option (list Z))) :=
  match j_valueOf bmc, j_valueOf prev with
  | Some cur, Some from =>
      if j_accessible b caller cur from then
        match fromBytes readBridgeMessage msg with
        | None => None
        | Some rps => match j_receipts rps (jb_height b) (seq + 1) with
                      | Some (ms, h) => Some (JBridge (jb_bmc b) (jb_net b) h, j_array ms)
                      | None => None
                      end
        end
      else None
  | _, _ => None
  end.
End Java.

(** * solidity/bmv-bridge *)
Definition cadd (a b : Z) : option Z := if a + b <? 2 ^ 256 then Some (a + b) else None.
Fixpoint map_opt {A B} (f : A -> option B) (l : list A) : option (list B) :=
  match l with [] => Some [] | x :: r => sbind (f x) (fun y => sbind (map_opt f r) (fun ys => Some (y :: ys))) end.
Section Solidity.
Variable H : list Z -> list Z.       (* keccak256 *)
Variable junk : list Z -> mem.       (* what lies behind a byte array in memory *)
Definition list_of (b : list Z) : option (list sitem) := toList (toRlpItem junk b).
(** RLPDecodeStruct.sol 73-85 *)
Definition toMessageEvent (b : list Z) : option bevent :=
  sbind (list_of b) (fun ls =>
  sbind (at_index ls 0) (fun l0 => sbind (toBytes l0) (fun n =>
  sbind (at_index ls 1) (fun l1 => sbind (toUint l1) (fun q =>
  sbind (at_index ls 2) (fun l2 => sbind (toBytes l2) (fun m => Some (BEvent n q m)))))))).
(** RLPDecodeStruct.sol 48-71 *)
Definition decodeReceiptProof (b : list Z) : option breceipt :=
  sbind (list_of b) (fun ls =>
  sbind (at_index ls 1) (fun l1 => sbind (toBytes l1) (fun eb => sbind (list_of eb) (fun es =>
  sbind (map_opt (fun e => toMessageEvent (toRlpBytes e)) es) (fun evs =>
  sbind (at_index ls 0) (fun l0 => sbind (toUint l0) (fun i =>
  sbind (at_index ls 2) (fun l2 => sbind (toUint l2) (fun h => Some (BReceipt i evs h)))))))))).
(** RLPDecodeStruct.sol 18-32 *)
Definition decodeRelayMessage (b : list Z) : option (list breceipt) :=
  sbind (list_of b) (fun ls =>
  sbind (at_index ls 0) (fun l0 => sbind (toBytes l0) (fun p =>
  if zlen p =? 0 then Some []
  else sbind (toList l0) (fun rs => map_opt (fun r => sbind (toBytes r) decodeReceiptProof) rs)))).

(** BMV.sol 21-23 *)
Record sbridge := SBridge { sb_bmc : Z; sb_net : list Z; sb_height : Z }.
Definition compareTo (a b : list Z) : bool := bytes_eqb (H a) (H b).
(** BMV.sol 53-65 *)
Definition s_accessible (b : sbridge) (sender : Z) (cur from : list Z) : option unit :=
  sbind (networkAddress from) (fun n => sbind (require (compareTo (sb_net b) n)) (fun _ =>
  sbind (require (sender =? sb_bmc b)) (fun _ =>
  sbind (parseBTPAddress cur) (fun x => sbind (parseAddress (snd x)) (fun a => require (a =? sb_bmc b)))))).
(** BMV.sol 88-101 *)
Fixpoint s_events (bmc : list Z) (evs : list bevent) (next : Z) : option (list (list Z) * Z) :=
  match evs with
  | [] => Some ([], next)
  | e :: r => if be_seq e <? next then s_events bmc r next
              else if next <? be_seq e then None
              else if negb (compareTo (be_next e) bmc) then s_events bmc r next
              else sbind (cadd next 1) (fun next' => sbind (s_events bmc r next') (fun x => Some (be_msg e :: fst x, snd x)))
  end.
(** BMV.sol 80-102 *)
Fixpoint s_receipts (bmc : list Z) (rps : list breceipt) (height next : Z) : option (list (list Z) * Z) :=
  match rps with
  | [] => Some ([], height)
  | rp :: r => if br_height rp <? height then s_receipts bmc r height next
               else sbind (s_events bmc (br_events rp) next) (fun x =>
                    sbind (s_receipts bmc r (br_height rp) (snd x)) (fun y => Some (fst x ++ fst y, snd y)))
  end.
(** BMV.sol 67-104 *)
Definition s_bridge_handle (b : sbridge) (sender : Z) (bmc prev : list Z) (seq : Z) (msg : list Z) : option (sbridge * list (list Z)) :=
  sbind (s_accessible b sender bmc prev) (fun _ =>
  sbind (decodeRelayMessage msg) (fun rps =>
  sbind (cadd seq 1) (fun next =>
  sbind (s_receipts bmc rps (sb_height b) next) (fun x => Some (SBridge (sb_bmc b) (sb_net b) (snd x), fst x))))).
End Solidity.

(** * The relay *)
(** chain/icon/bridge/message.go 15-29: events, receipts and messages as Go values; codec.RLP *)
Definition event_val (e : bevent) : val := VPtr (Some (VStruct [VString (be_next e); VInt (be_seq e); VBytes (Some (be_msg e))])).
Definition receipt_val (i : Z) (events : list Z) (h : Z) : val := VPtr (Some (VStruct [VInt i; VBytes (Some events); VInt h])).
Definition message_val (rs : list (list Z)) : val := VPtr (Some (VStruct [VSlice (Some (map (fun r => VBytes (Some r)) rs))])).
(** chain/icon/bridge/message.go 111-155: one receipt *)
Definition icon_payload (rp : breceipt) : list Z :=
  let b := MarshalToBytes (VSlice (Some (map event_val (br_events rp)))) in
  let r := MarshalToBytes (receipt_val (br_index rp) b (br_height rp)) in
  MarshalToBytes (message_val [r]).
(** go-ethereum's rlp.EncodeToBytes of []*client.Event (chain/ethbr/client/type.go 151-155), library code: a big.Int is
    written without leading zeros and without sign; a negative one is an error *)
Definition eth_events (evs : list bevent) : option (list Z) :=
  if forallb (fun e => 0 <=? be_seq e) evs
  then Some (rlp_write (RList (map (fun e => RList [RBytes (be_next e); RBytes (big_bytes (be_seq e)); RBytes (be_msg e)]) evs)))
  else None.
(** chain/ethbr/message.go 92-143 *)
Fixpoint eth_receipts (rps : list breceipt) : option (list (list Z)) :=
  match rps with
  | [] => Some []
  | rp :: r => match br_events rp with
               | [] => eth_receipts r
               | evs => match eth_events evs, eth_receipts r with
                        | Some b, Some l => Some (MarshalToBytes (receipt_val (br_index rp) b (br_height rp)) :: l)
                        | _, _ => None
                        end
               end
  end.
Definition eth_payload (rps : list breceipt) : option (list Z) :=
  match eth_receipts rps with Some l => Some (MarshalToBytes (message_val l)) | None => None end.
(** chain/icon/bridge/bridge.go 174-186, chain/ethbr/receiver.go 167-179: the bytes of the first message proof *)
Inductive bitem := BBlock | BProof (payload : list Z).
Fixpoint buildBridgeMessage (l : list bitem) : list Z :=
  match l with [] => [] | BProof p :: _ => p | BBlock :: r => buildBridgeMessage r end.
