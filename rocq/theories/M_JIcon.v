(** Model of the data of the ICON block verifier contract as bytes, javascore/bmv/icon: readObject, writeObject, fromBytes
    and toBytes of its classes.  The platform's reader and writer are those of M_Wire and M_JMsg; the number of elements
    given to beginList does not matter to the writer.  A null object or array is None.  Addresses are their 21 bytes.
    Writing an element that may not be null but is null is an exception: writers give None then. *)
From Coq Require Import String Ascii ZArith List Bool.
From Verif Require Import Base M_IntConv M_Rlp M_JBmv M_Wire M_JMsg M_JMpt.
Import ListNotations.
Open Scope Z_scope.

Local Notation bytes := (list Z).
(** a list, or null for beginNullableList *)
Definition nullableList {A} (p : parser A) : parser (option (list A)) := readNullableOf (listOf p).
(** an object written as bytes: null, or what [p] reads from them *)
Definition nested {A} (p : parser A) : parser (option A) :=
  pbind readNullable (fun o s => match o with None => Some (None, s) | Some b => match fromBytes p b with Some a => Some (Some a, s) | None => None end end).
(** readNullable(Address.class) *)
Definition readNullableAddress : parser (option bytes) :=
  pbind readNullable (fun o s => match o with Some b => if (length b =? 21)%nat then Some (Some b, s) else None | None => Some (None, s) end).
(** a list of bytes that may be null, or null *)
Definition nullables_item (o : option (list (option bytes))) : rlp := match o with None => RNull | Some l => RList (map rnull l) end.
(** the elements, when none is null *)
Fixpoint all_some {A} (l : list (option A)) : option (list A) :=
  match l with [] => Some [] | Some a :: r => obind (all_some r) (fun r' => Some (a :: r')) | None :: _ => None end.

(** ExtensionData.java 29, 51-67, 69-80: its array *)
Definition extension := option (list (option bytes)).
Definition readExtension : parser extension := nullableList readNullable.
(** Result.java 26-29, 78-91, 93-105 *)
Record iresult := IResult { rs_state : option bytes; rs_patch : option bytes; rs_receipts : option bytes; rs_ext : option extension }.
Definition readResult : parser iresult :=
  inList (pbind readNullable (fun a => pbind readNullable (fun b => pbind readNullable (fun c s =>
    match s with
    | [] => Some (IResult a b c None, s)
    | _ => match nested readExtension s with Some (Some e, s') => Some (IResult a b c (Some e), s') | _ => None end
    end)))).
Definition result_item (r : iresult) : rlp :=
  RList ([rnull (rs_state r); rnull (rs_patch r); rnull (rs_receipts r)] ++
         match rs_ext r with Some e => [RBytes (rlp_write (nullables_item e))] | None => [] end).
(** BlockHeader.java 26-37, 145-165, 167-188 *)
Record iheader := IHeader { ih_version : Z; ih_height : Z; ih_time : Z; ih_proposer : option bytes; ih_prev : option bytes; ih_votes : option bytes;
  ih_nextVals : option bytes; ih_patchTx : option bytes; ih_tx : option bytes; ih_bloom : option bytes; ih_result : option iresult }.
Definition readIHeader : parser iheader :=
  inList (pbind readLong (fun v => pbind readLong (fun h => pbind readLong (fun t => pbind readNullableAddress (fun p =>
          pbind readNullable (fun a => pbind readNullable (fun b => pbind readNullable (fun c => pbind readNullable (fun d => pbind readNullable (fun e =>
          pbind readNullable (fun f => pbind (nested readResult) (fun r => pret (IHeader v h t p a b c d e f r))))))))))))).
Definition iheader_item (h : iheader) : rlp :=
  RList [rint (ih_version h); rint (ih_height h); rint (ih_time h); rnull (ih_proposer h); rnull (ih_prev h); rnull (ih_votes h);
         rnull (ih_nextVals h); rnull (ih_patchTx h); rnull (ih_tx h); rnull (ih_bloom h);
         match ih_result h with Some r => RBytes (rlp_write (result_item r)) | None => RNull end].
Definition header_bytes (h : iheader) : bytes := rlp_write (iheader_item h).

(** PartSetId.java 26-27, 58-65, 67-72 *)
Record partset := PartSet { ps_count : Z; ps_hash : option bytes }.
Definition readPartSet : parser partset := inList (pbind readLong (fun c => pbind readNullable (fun h => pret (PartSet c h)))).
Definition partset_item (p : partset) : rlp := RList [rint (ps_count p); rnull (ps_hash p)].
(** Vote.java 26-27, 58-65, 67-72 *)
Record ivote := IVote { iv_time : Z; iv_sig : option bytes }.
Definition readVote : parser ivote := inList (pbind readLong (fun t => pbind readNullable (fun s => pret (IVote t s)))).
Definition vote_item (v : ivote) : rlp := RList [rint (iv_time v); rnull (iv_sig v)].
(** Votes.java 29-31, 72-91, 93-105 *)
Record ivotes := IVotes { is_round : Z; is_part : option partset; is_items : list ivote }.
Definition readVotes : parser ivotes :=
  inList (pbind readLong (fun r => pbind (readNullableOf readPartSet) (fun p => pbind (listOf readVote) (fun l => pret (IVotes r p l))))).
Definition votes_item (v : ivotes) : rlp := RList [rint (is_round v); writeNullableOf partset_item (is_part v); RList (map vote_item (is_items v))].
(** VoteMessage.java 26-32, 112-122, 129-133 *)
Record votemsg := VoteMsg { vm_height : Z; vm_round : Z; vm_type : Z; vm_block : option bytes; vm_part : option partset; vm_time : Z }.
Definition vote_bytes (m : votemsg) : bytes :=
  rlp_write (RList [rint (vm_height m); rint (vm_round m); rint (vm_type m); rnull (vm_block m); writeNullableOf partset_item (vm_part m); rint (vm_time m)]).
(** Validators.java 29, 87-102, 104-111 *)
Definition readValidators : parser (list (option bytes)) := listOf readNullableAddress.
Definition validators_item (l : list bytes) : rlp := RList (map RBytes l).
Definition validators_bytes (l : list (option bytes)) : option bytes := obind (all_some l) (fun v => Some (rlp_write (validators_item v))).

(** BlockUpdate.java 26-28, 67-87, 89-116; nullable bytes around each of the three *)
Record iupdate := IUpdate_ { iu_header : option iheader; iu_votes : option ivotes; iu_next : option (list (option bytes)) }.
Definition readUpdate : parser iupdate :=
  inList (pbind (nested readIHeader) (fun h => pbind (nested readVotes) (fun v => pbind (nested readValidators) (fun n => pret (IUpdate_ h v n))))).
(** BlockWitness.java 29-30, 61-80 *)
Record iwitness := IWitness { iw_height : Z; iw_hashes : option (list (option bytes)) }.
Definition readWitness : parser iwitness := inList (pbind readLong (fun h => pbind (nullableList readNullable) (fun l => pret (IWitness h l)))).
(** BlockProof.java 25-26, 57-68 *)
Record iblockproof := IBlockProof { ib_header : option iheader; ib_witness : option iwitness }.
Definition readBlockProof : parser iblockproof :=
  inList (pbind (nested readIHeader) (fun h => pbind (readNullableOf readWitness) (fun w => pret (IBlockProof h w)))).
(** Proofs.java 29, 51-67: its array *)
Definition proofs := option (list (option bytes)).
Definition readProofList : parser proofs := nullableList readNullable.
(** MPTProof.java 25-26, 58-69 *)
Record mptproof := MptProof { mp_index : Z; mp_proofs : option proofs }.
Definition readMptProof : parser mptproof := inList (pbind readLong (fun i => pbind (nested readProofList) (fun p => pret (MptProof i p)))).
(** ReceiptProof.java 29, 52-76 *)
Record receiptproof := ReceiptProof_ { rp_main : mptproof; rp_events : option (list (option mptproof)) }.
Definition readReceiptProof : parser receiptproof :=
  inList (pbind readLong (fun i => pbind (nested readProofList) (fun p => pbind (nullableList (readNullableOf readMptProof)) (fun e =>
          pret (ReceiptProof_ (MptProof i p) e))))).
(** RelayMessage.java 29-31, 71-119 *)
Record irelay := IRelay { ir_updates : option (list (option iupdate)); ir_proof : option iblockproof; ir_receipts : option (list (option receiptproof)) }.
Definition readIRelay : parser irelay :=
  inList (pbind (nullableList (nested readUpdate)) (fun u => pbind (nested readBlockProof) (fun p => pbind (nullableList (nested readReceiptProof)) (fun r =>
          pret (IRelay u p r))))).

(** EventLog.java 27-29, 86-116, 118-134 *)
Record evlog := EvLog { el_addr : option bytes; el_indexed : list bytes; el_data : list bytes }.
Definition readEventLog : parser evlog :=
  inList (pbind readNullableAddress (fun a => pbind (listOf readByteArray) (fun i => pbind (listOf readByteArray) (fun d => pret (EvLog a i d))))).
Definition evlog_item (e : evlog) : rlp := RList [rnull (el_addr e); RList (map RBytes (el_indexed e)); RList (map RBytes (el_data e))].
(** Receipt.java 28-36, 131-160, 162-185: nulls in the list of event logs are passed over *)
Record ireceipt := IReceipt { rc_status : Z; rc_to : option bytes; rc_cumulative : option bytes; rc_used : option bytes; rc_price : option bytes;
  rc_bloom : option bytes; rc_logs : list evlog; rc_score : option bytes; rc_logsHash : option bytes }.
Fixpoint only_some {A} (l : list (option A)) : list A := match l with [] => [] | Some a :: r => a :: only_some r | None :: r => only_some r end.
Definition readReceipt : parser ireceipt :=
  inList (pbind readLong (fun s => pbind readNullable (fun a => pbind readNullable (fun b => pbind readNullable (fun c => pbind readNullable (fun d =>
          pbind readNullable (fun e => pbind (listOf (nested readEventLog)) (fun l => pbind readNullable (fun f => pbind readNullable (fun g =>
          pret (IReceipt s a b c d e (only_some l) f g))))))))))).
Definition receipt_item (r : ireceipt) : rlp :=
  RList [rint (rc_status r); rnull (rc_to r); rnull (rc_cumulative r); rnull (rc_used r); rnull (rc_price r); rnull (rc_bloom r);
         RList (map (fun e => RBytes (rlp_write (evlog_item e))) (rc_logs r)); rnull (rc_score r); rnull (rc_logsHash r)].
