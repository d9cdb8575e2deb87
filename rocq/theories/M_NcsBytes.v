(** Model of the bytes of the native coin service (javascore/nativecoin): readObject, writeObject, fromBytes and toBytes of
    NCSMessage, TransferRequest, TransferResponse, Asset, AssetTransferDetail, TransferTransaction, Balance and NCSProperties, and
    the event data (NativeCoinService.java 286-294).  Reader and writer of the platform are those of M_Wire.  Texts are their bytes. *)
From Coq Require Import ZArith List Bool.
From Verif Require Import Base M_IntConv M_Rlp M_JBmv M_Wire M_BtpAddr M_XCall M_JCall M_SBmc M_JMsg M_Ncs.
Import ListNotations.
Open Scope Z_scope.

(** the platform's writer: writeNullable of an integer; beginNullableList or writeNull *)
Definition wnint (o : option Z) : rlp := writeNullableOf rint o.
Definition wntext (o : option text) : rlp := writeNullableOf RBytes o.
Definition wnlist {A} (w : A -> rlp) (o : option (list A)) : rlp := writeNullableOf (fun l => RList (map w l)) o.

(** Asset.java 80-85, 71-78 *)
Record basset := BAsset { ba_name : option text; ba_amount : option Z }.
Definition wAsset (a : basset) : rlp := RList [wntext (ba_name a); wnint (ba_amount a)].
Definition readAsset : parser basset := inList (pbind readNullable (fun n => pbind readNullableBig (fun v => pret (BAsset n v)))).
(** AssetTransferDetail.java 59-65, 49-57 *)
Record bdetail := BDetail { bd_name : option text; bd_amount : option Z; bd_fee : option Z }.
Definition wDetail (d : bdetail) : rlp := RList [wntext (bd_name d); wnint (bd_amount d); wnint (bd_fee d)].
Definition readDetail : parser bdetail :=
  inList (pbind readNullable (fun n => pbind readNullableBig (fun v => pbind readNullableBig (fun f => pret (BDetail n v f))))).
(** Balance.java 68-73, 59-66; NCSProperties.java 76-81, 67-74 *)
Definition wPair (b : option Z * option Z) : rlp := RList [wnint (fst b); wnint (snd b)].
Definition readPair : parser (option Z * option Z) := inList (pbind readNullableBig (fun a => pbind readNullableBig (fun b => pret (a, b)))).
(** TransferRequest.java 93-108, 71-91; TransferTransaction.java 93-108, 71-91: the elements may be null *)
Record bmoves (A : Type) := BMoves { bm_from : option text; bm_to : option text; bm_assets : option (list (option A)) }.
Arguments BMoves {A}. Arguments bm_from {A}. Arguments bm_to {A}. Arguments bm_assets {A}.
Definition wMoves {A} (w : A -> rlp) (m : bmoves A) : rlp := RList [wntext (bm_from m); wntext (bm_to m); wnlist (writeNullableOf w) (bm_assets m)].
Definition readMoves {A} (p : parser A) : parser (bmoves A) :=
  inList (pbind readNullable (fun f => pbind readNullable (fun t => pbind (readNullableOf (listOf (readNullableOf p))) (fun l => pret (BMoves f t l))))).
Definition wRequest : bmoves basset -> rlp := wMoves wAsset.
Definition readRequest : parser (bmoves basset) := readMoves readAsset.
Definition wTransaction : bmoves bdetail -> rlp := wMoves wDetail.
Definition readTransaction : parser (bmoves bdetail) := readMoves readDetail.
(** TransferResponse.java 74-79, 65-72 *)
Definition wResponse (code : Z) (t : option text) : rlp := RList [rint code; wntext t].
Definition readResponse : parser (Z * option text) := inList (pbind readBigInteger (fun c => pbind readNullable (fun t => pret (c, t)))).
(** NCSMessage.java 72-77, 63-70, 84-88, 25-28 *)
Definition REQUEST_COIN_TRANSFER : Z := 0.
Definition REPONSE_HANDLE_SERVICE : Z := 2.
Definition UNKNOWN_TYPE : Z := 3.
Definition wMessage (type : Z) (data : option (list Z)) : rlp := RList [rint type; wntext data].
Definition readNCSMessage : parser (Z * option (list Z)) := inList (pbind readInt (fun t => pbind readNullable (fun d => pret (t, d)))).
(** 296-303 with the toBytes of the message *)
Definition message_bytes (type : Z) (data : list Z) : list Z := rlp_write (wMessage type (Some data)).
(** 286-294 *)
Definition encodeDetails (l : list bdetail) : list Z := rlp_write (RList (map wDetail l)).

Section BODY.
(** the number that stands for a name in M_Ncs, also for a null name; Address.fromString (453), of the account *)
Variable code_of : option text -> Z.
Variable acct : option text -> option Z.
(** a null element of the list ends in an exception, as one without an amount does *)
Definition asset_in (a : option basset) : asset :=
  match a with Some a => Asset (code_of (ba_name a)) (ba_amount a) | None => Asset (code_of None) None end.
(** 324-343: what the bytes of a message stand for; None if they cannot be read *)
Definition body_in (b : list Z) : option body :=
  nbind (fromBytes readNCSMessage b) (fun m =>
  if fst m =? REQUEST_COIN_TRANSFER then
    nbind (snd m) (fun d => nbind (fromBytes readRequest d) (fun r => Some (BRequest (acct (bm_to r)) (option_map (map asset_in) (bm_assets r)))))
  else if fst m =? REPONSE_HANDLE_SERVICE then nbind (snd m) (fun d => nbind (fromBytes readResponse d) (fun r => Some (BResponse (fst r))))
  else if fst m =? UNKNOWN_TYPE then Some BUnknown else Some BOther).
(** 264-268, 281 and 307-312: the bytes sent for a request, with names and texts, and for an answer *)
Definition request_out (from to : text) (l : list (text * Z)) : list Z :=
  message_bytes REQUEST_COIN_TRANSFER (rlp_write (wRequest (BMoves (Some from) (Some to) (Some (map (fun a => Some (BAsset (Some (fst a)) (Some (snd a)))) l))))).
Definition answer_out (code : Z) (t : text) : list Z := message_bytes REPONSE_HANDLE_SERVICE (rlp_write (wResponse code (Some t))).
Definition unknown_out (t : text) : list Z := message_bytes UNKNOWN_TYPE (rlp_write (wResponse RC_ERR (Some t))).
End BODY.
