(** Model of the bytes of the token service (javascore/bsh): createMessage, encodeToBytes and the reading of messages in
    ServiceHandler.java, readObject and writeObject of types/Asset, TransferAsset, Balance, Token and BTPAddress, and
    BTPAddress.fromString.  Reader and writer of the platform are those of M_Wire; end() after the outermost list has ended (line 328) is
    taken to do nothing.  Texts are their bytes; readString reads the bytes of a text. *)
From Coq Require Import ZArith List Bool.
From Verif Require Import Base M_IntConv M_Rlp M_JBmv M_Wire M_SBmc M_Tbsh.
Import ListNotations.
Open Scope Z_scope.

(** Asset.java 18-31 *)
Record xasset := XAsset { xa_name : text; xa_value : Z; xa_fee : Z }.
Definition wXAsset (a : xasset) : rlp := RList [RBytes (xa_name a); rint (xa_value a); rint (xa_fee a)].
Definition readXAsset : parser xasset :=
  inList (pbind readByteArray (fun n => pbind readBigInteger (fun v => pbind readBigInteger (fun f => pret (XAsset n v f))))).
(** TransferAsset.java 22-50 *)
Record xmove := XMove { xm_from : text; xm_to : text; xm_assets : list xasset }.
Definition wXMove (m : xmove) : rlp := RList [RBytes (xm_from m); RBytes (xm_to m); RList (map wXAsset (xm_assets m))].
Definition readXMove : parser xmove :=
  inList (pbind readByteArray (fun f => pbind readByteArray (fun t => pbind (listOf readXAsset) (fun l => pret (XMove f t l))))).
(** Balance.java 20-33 *)
Definition wBal (b : tbal) : rlp := RList [rint (l_usable b); rint (l_locked b); rint (l_refundable b)].
Definition readBal : parser tbal :=
  inList (pbind readBigInteger (fun u => pbind readBigInteger (fun l => pbind readBigInteger (fun r => pret (TBal u l r))))).
(** Token.java 22-36 *)
Record xtok := XTok { xt_name : text; xt_symbol : text; xt_decimals : Z; xt_num : Z }.
Definition wTok (t : xtok) : rlp := RList [RBytes (xt_name t); RBytes (xt_symbol t); rint (xt_decimals t); rint (xt_num t)].
Definition readTok : parser xtok :=
  inList (pbind readByteArray (fun n => pbind readByteArray (fun s => pbind readBigInteger (fun d => pbind readBigInteger (fun m => pret (XTok n s d m)))))).

(** ServiceHandler.java 34-37 *)
Definition REQUEST_TOKEN_TRANSFER : Z := 0.
Definition RESPONSE_HANDLE_SERVICE : Z := 2.
Definition RESPONSE_UNKNOWN_ : Z := 3.
(** 397-426 *)
Definition request_bytes (m : xmove) : list Z := rlp_write (RList [rint REQUEST_TOKEN_TRANSFER; RBytes (rlp_write (wXMove m))]).
Definition answer_bytes (code : Z) (t : text) : list Z :=
  rlp_write (RList [rint RESPONSE_HANDLE_SERVICE; RBytes (rlp_write (RList [rint code; RBytes t]))]).
Definition unknown_bytes : list Z := rlp_write (RList [rint RESPONSE_UNKNOWN_]).
(** 455-463 *)
Definition assets_bytes (l : list xasset) : list Z := rlp_write (RList (map wXAsset l)).

(** 208-214, 243-245: the type, then the data of the two types that have any (a null ends in an exception) *)
Definition readType : parser (Z * option (list Z)) :=
  inList (pbind readInt (fun t =>
    if (t =? REQUEST_TOKEN_TRANSFER) || (t =? RESPONSE_HANDLE_SERVICE) then pbind readNullable (fun d => pret (t, d)) else pret (t, None))).
Definition readAnswer : parser (Z * text) := inList (pbind readInt (fun c => pbind readByteArray (fun t => pret (c, t)))).
(** 251-256: the message of an open transfer when it is answered *)
Definition readPending : parser (list Z) := inList (fun s => match skipOne s with ROk _ r => readByteArray r | _ => None end).
Definition pending_answered (b : list Z) : option xmove := tbind (fromBytes readPending b) (fromBytes readXMove).
(** 315-323: and when an error is reported; other types are passed over *)
Definition readPendingErr : parser (option (list Z)) :=
  inList (pbind readInt (fun t => if t =? REQUEST_TOKEN_TRANSFER then pbind readByteArray (fun d => pret (Some d)) else pret None)).
Definition pending_failed (b : list Z) : option (option xmove) :=
  tbind (fromBytes readPendingErr b) (fun o => match o with Some d => option_map Some (fromBytes readXMove d) | None => Some None end).

Section BODY.
(** the number that stands for a name in M_Tbsh; Address.fromString (220) *)
Variable name_code : text -> Z.
Variable acct : text -> option Z.
Definition xasset_in (a : xasset) : tasset := TAsset (name_code (xa_name a)) (xa_value a) (xa_fee a).
(** 208-245: what the bytes of a message stand for; None if they cannot be read *)
Definition tbody_in (b : list Z) : option tbody :=
  tbind (fromBytes readType b) (fun m =>
  if fst m =? REQUEST_TOKEN_TRANSFER then
    tbind (snd m) (fun d => tbind (fromBytes readXMove d) (fun x => Some (TRequest (acct (xm_to x)) (map xasset_in (xm_assets x)))))
  else if fst m =? RESPONSE_HANDLE_SERVICE then tbind (snd m) (fun d => tbind (fromBytes readAnswer d) (fun r => Some (TAnswer (fst r))))
  else if fst m =? RESPONSE_UNKNOWN_ then Some TUnknown else Some TOther).
End BODY.

(** String.lastIndexOf of a text and String.substring *)
Fixpoint starts_with (p s : list Z) : bool :=
  match p, s with [], _ => true | x :: p', y :: s' => (x =? y) && starts_with p' s' | _, [] => false end.
Fixpoint last_index (p s : list Z) : option nat :=
  match s with
  | [] => if starts_with p [] then Some O else None
  | _ :: s' => match last_index p s' with Some i => Some (S i) | None => if starts_with p s then Some O else None end
  end.
Definition substring (s : list Z) (a b : nat) : option (list Z) :=
  if (a <=? b)%nat && (b <=? length s)%nat then Some (firstn (b - a) (skipn a s)) else None.
Definition SEP_ : list Z := [58; 47; 47].
Definition SLASH_ : list Z := [47].
Definition DOT_ : list Z := [46].
(** BTPAddress.java 12-19, 49-58: protocol, network, contract.  substring with the position -1 throws. *)
Definition new_address (p n c : text) : option (text * text * text) :=
  match last_index DOT_ n with Some _ => Some (p, n, c) | None => None end.
Definition addr_fromString (a : text) : option (text * text * text) :=
  tbind (last_index SEP_ a) (fun i => tbind (substring a 0 i) (fun p =>
  tbind (last_index SLASH_ a) (fun j => tbind (substring a (length p + 3) j) (fun n =>
  let offset := (length p + length n + 4)%nat in
  tbind (if (offset <? length a)%nat then substring a offset (length a) else Some []) (fun c => new_address p n c))))).
(** BTPAddress.java 22-35 *)
Definition wAddr (a : text * text * text) : rlp := let '(p, n, c) := a in RList [RBytes p; RBytes n; RBytes c].
Definition readAddr : parser (text * text * text) :=
  inList (pbind readByteArray (fun p => pbind readByteArray (fun n => pbind readByteArray (fun c s => match new_address p n c with Some a => Some (a, s) | None => None end)))).
