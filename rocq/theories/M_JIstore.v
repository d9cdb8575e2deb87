(** More of the byte forms of javascore/bmv/icon: the writers of the relay message and its parts, and what the contract
    stores (BMVProperties.java and MerkleTreeAccumulator.java, readObject and writeObject).
    Where the code writes an element with write() and not writeNullable(), a null is an exception; the writers here are
    meant for values without such nulls. *)
From Coq Require Import String Ascii ZArith List Bool.
From Verif Require Import Base M_IntConv M_Rlp M_JBmv M_Wire M_JMsg M_XCall M_JCall M_JMta M_JMpt M_JIcon M_JIbmv.
Import ListNotations.
Open Scope Z_scope.

Local Notation bytes := (list Z).
(** an object written as bytes, or null *)
Definition nested_item {A} (w : A -> rlp) (o : option A) : rlp := match o with Some a => RBytes (rlp_write (w a)) | None => RNull end.
Definition list_item {A} (w : A -> rlp) (o : option (list A)) : rlp := match o with Some l => RList (map w l) | None => RNull end.
(** VoteMessage.java 99-110 *)
Definition readVoteMsg : parser votemsg :=
  inList (pbind readLong (fun h => pbind readLong (fun r => pbind readLong (fun t => pbind readNullable (fun b => pbind (readNullableOf readPartSet) (fun p =>
          pbind readLong (fun m => pret (VoteMsg h r t b p m)))))))).
(** BlockUpdate.java 89-116 *)
Definition update_item (u : iupdate) : rlp :=
  RList [nested_item iheader_item (iu_header u); nested_item votes_item (iu_votes u); nested_item (fun l => RList (map rnull l)) (iu_next u)].
(** BlockWitness.java 82-96 *)
Definition witness_item (w : iwitness) : rlp := RList [rint (iw_height w); list_item rnull (iw_hashes w)].
(** BlockProof.java 70-83 *)
Definition blockproof_item (p : iblockproof) : rlp := RList [nested_item iheader_item (ib_header p); writeNullableOf witness_item (ib_witness p)].
(** MPTProof.java 71-83, Proofs.java 69-80 *)
Definition mptproof_item (m : mptproof) : rlp := RList [rint (mp_index m); nested_item (list_item rnull) (mp_proofs m)].
(** ReceiptProof.java 78-100 *)
Definition receiptproof_item (p : receiptproof) : rlp :=
  RList [rint (mp_index (rp_main p)); nested_item (list_item rnull) (mp_proofs (rp_main p)); list_item (writeNullableOf mptproof_item) (rp_events p)].
(** RelayMessage.java 121-164 *)
Definition relay_item (m : irelay) : rlp :=
  RList [list_item (nested_item update_item) (ir_updates m); nested_item blockproof_item (ir_proof m); list_item (nested_item receiptproof_item) (ir_receipts m)].

(** readNullable(Integer.class) and readNullable(Boolean.class) *)
Definition readNullableInt : parser (option Z) :=
  pbind readNullableBig (fun o s => match o with
    | Some z => if (- 2 ^ 31 <=? z) && (z <? 2 ^ 31) then Some (Some z, s) else None
    | None => Some (None, s)
    end).
Definition readNullableBool : parser (option bool) :=
  pbind readNullable (fun o s => match o with Some [0] => Some (Some false, s) | Some [1] => Some (Some true, s) | None => Some (None, s) | _ => None end).
Definition int_or_null (o : option Z) : rlp := match o with Some z => rint z | None => RNull end.
Definition bool_or_null (o : option bool) : rlp := match o with Some b => RBytes [if b then 1 else 0] | None => RNull end.
(** MerkleTreeAccumulator.java 379-407; a null array of roots is the empty one in the model, and is read as such *)
Definition mta_item (m : jmta) : rlp :=
  RList [rint (j_height m); RList (map rnull (j_roots m)); rint (j_offset m); int_or_null (j_rootSize m); int_or_null (j_cacheSize m);
         list_item rnull (j_cache m); bool_or_null (j_allow m); int_or_null (j_cacheIdx m)].
(** MerkleTreeAccumulator.java 338-377 *)
Definition readMta : parser jmta :=
  inList (pbind readLong (fun h => pbind (nullableList readNullable) (fun r => pbind readLong (fun off => pbind readNullableInt (fun rs =>
          pbind readNullableInt (fun cs => pbind (nullableList readNullable) (fun c => pbind readNullableBool (fun a s =>
          let m i := JMta h (match r with Some l => l | None => [] end) off rs cs c a i in
          match s with [] => Some (m None, s) | _ => pbind readNullableInt (fun i => pret (m i)) s end)))))))).
(** BMVProperties.java 99-110; none of the objects is null after the deployment *)
Definition props_item (p : iprops) : rlp := RList [RBytes (ip_bmc p); RBytes (ip_net p); rint (ip_last p); validators_item (ip_vals p); mta_item (ip_mta p)].
Definition props_bytes (p : iprops) : bytes := rlp_write (props_item p).
(** BMVProperties.java 87-97 *)
Definition readProps : parser iprops :=
  inList (pbind readNullableAddress (fun b => pbind readNullable (fun n => pbind readLong (fun l => pbind (readNullableOf readValidators) (fun v => pbind (readNullableOf readMta) (fun m s =>
    match b, n, v, m with
    | Some b, Some n, Some v, Some m => match all_some v with Some v => Some (IProps b n l v m, s) | None => None end
    | _, _, _, _ => None
    end)))))).
