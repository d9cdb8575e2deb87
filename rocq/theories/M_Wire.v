(** The bytes between the relay and the BTP block verifier: chain/icon/btp2/message.go and btp2.go 224-243 on
    one side, the readObject methods of javascore/bmv/btpblock on the other.
    The Java contract API's "RLPn" reader is library code.  It is taken to accept items as common/codec/rlp.go does, with
    these differences: beginList takes the nil marker for an empty list, readByteArray refuses the nil marker, integers
    are two's complement of at least one byte, readInt refuses what does not fit an int, end() passes over what is left. *)
From Coq Require Import String Ascii ZArith List Bool.
From Verif Require Import Base M_IntConv M_Rlp M_Codec M_Mbt M_JBmv.
Import ListNotations.
Open Scope Z_scope.

(** * The relay *)
(** chain/icon/client/type.go 452-455: the two byte strings as the node gave them *)
Definition update_val (h p : list Z) : val := VStruct [VBytes (Some h); VBytes (Some p)].
(** common/mbt/proof.go 67-77, encoded as a struct: hashFunc is unexported and left out.  ProofOfAll (79-87) leaves both
    lists of nodes nil, Proof never does; [all] tells which made the proof. *)
Definition node_val (n : proof_node) : val := VStruct [VInt (p_num n); VBytes (Some (p_value n))].
Definition nodes_val (all : bool) (l : list proof_node) : val := VSlice (if all then None else Some (map node_val l)).
Definition proof_val (all : bool) (m : mbt_proof) : val :=
  VStruct [nodes_val all (p_left m); VSlice (Some (map (fun c => VBytes (Some c)) (p_contents m))); nodes_val all (p_right m)].
(** common/mbt/proof.go 98-100 *)
Definition is_all (t : mbt) (b e : Z) : bool := (b =? 1) && (e =? mbt_Len t).

(** message.go 15-19, 63-80, 97-112: items with their payload; other kinds of items (link.TypeBlockProof) *)
Inductive ritem := IUpdate (payload : list Z) | IProof (payload : list Z) | IOther.
Definition NewBlockUpdate (h p : list Z) : ritem := IUpdate (MarshalToBytes (update_val h p)).
Definition NewMessageProof (all : bool) (m : mbt_proof) : ritem := IProof (MarshalToBytes (proof_val all m)).
(** message.go 114-142 *)
Definition NewTypePrefixedMessage (i : ritem) : option (Z * list Z) :=
  match i with IUpdate p => Some (1, p) | IProof p => Some (2, p) | IOther => None end.
Fixpoint typed_all (l : list ritem) : option (list (Z * list Z)) :=
  match l with
  | [] => Some []
  | i :: l' => match NewTypePrefixedMessage i, typed_all l' with Some x, Some r => Some (x :: r) | _, _ => None end
  end.
Definition typed_val (x : Z * list Z) : val := VPtr (Some (VStruct [VInt (fst x); VBytes (Some (snd x))])).
(** btp2.go 224-243 *)
Definition BuildRelayMessage (l : list ritem) : option (list Z) :=
  match typed_all l with
  | Some ts => Some (MarshalToBytes (VPtr (Some (VStruct [VSlice (Some (map typed_val ts))]))))
  | None => None
  end.
(** chain/icon/client/type.go 457-468 *)
Definition header_ty : ty := TStruct [TInt 64; TInt 32; TBytes; TSlice TBytes; TInt 64; TInt 64; TBytes; TInt 64; TBytes; TBytes].
(** btp2.go 170-173 and 292-295: the only field the relay uses is the height *)
Definition relay_height (h : list Z) : option Z :=
  match UnmarshalFromBytes header_ty h with Ok (VStruct (VInt z :: _), _) => Some z | _ => None end.

(** * The RLPn reader *)
Definition parser (A : Type) : Type := list Z -> option (A * list Z).
Definition pbind {A B} (p : parser A) (f : A -> parser B) : parser B := fun s => match p s with Some (a, r) => f a r | None => None end.
Definition pret {A} (a : A) : parser A := fun s => Some (a, s).
Definition readByteArray : parser (list Z) := fun s => match readBytes s with ROk b r => Some (b, r) | _ => None end.
Definition readNullable : parser (option (list Z)) :=
  fun s => match readBytes s with ROk b r => Some (Some b, r) | RNil r => Some (None, r) | _ => None end.
Definition readBigInteger : parser Z :=
  pbind readByteArray (fun b s => match b with [] => None | _ => Some (BigIntSetBytes b, s) end).
Definition readInt : parser Z :=
  pbind readBigInteger (fun z s => if (- 2 ^ 31 <=? z) && (z <? 2 ^ 31) then Some (z, s) else None).
Definition readNullableBig : parser (option Z) :=
  pbind readNullable (fun o s => match o with None => Some (None, s) | Some [] => None | Some b => Some (Some (BigIntSetBytes b), s) end).
(** beginList; [p]; end *)
Definition inList {A} (p : parser A) : parser A :=
  fun s => match readList s with
           | ROk body r => match p body with Some (a, _) => Some (a, r) | None => None end
           | RNil r => match p [] with Some (a, _) => Some (a, r) | None => None end
           | _ => None
           end.
(** while (hasNext()) add(p) *)
Fixpoint many {A} (p : parser A) (fuel : nat) (s : list Z) : option (list A * list Z) :=
  match s with
  | [] => Some ([], [])
  | _ => match fuel with
         | O => None
         | S f => match p s with
                  | Some (a, r) => match many p f r with Some (l, r') => Some (a :: l, r') | None => None end
                  | None => None
                  end
         end
  end.
Definition listOf {A} (p : parser A) : parser (list A) := inList (fun s => many p (length s) s).

(** * The contract *)
(** RelayMessage.java 117-122 (TypePrefixedMessage), 42-59 *)
Definition readTyped : parser (Z * list Z) := inList (pbind readInt (fun t => pbind readByteArray (fun b => pret (t, b)))).
Definition readRelayMessage : parser (list (Z * list Z)) := inList (listOf readTyped).
(** ProofNode.java 41-46 *)
Definition readProofNode : parser proof_node := inList (pbind readInt (fun n => pbind readByteArray (fun v => pret {| p_num := n; p_value := v |}))).
(** MessageProof.java 50-88 *)
Definition readMessageProof : parser jproof :=
  inList (pbind (listOf readProofNode) (fun l => pbind (listOf readByteArray) (fun c => pbind (listOf readProofNode) (fun r =>
          pret {| p_left := l; p_contents := c; p_right := r |})))).
(** NetworkSectionToRoot.java 34-39 *)
Definition readPathElement : parser (Z * list Z) := inList (pbind readInt (fun d => pbind readByteArray (fun v => pret (d, v)))).
(** BlockHeader.java 109-144.  A null height or round leads to an exception when it is used. *)
Definition readHeader : parser header :=
  inList (pbind readNullableBig (fun height => pbind readNullableBig (fun round => pbind readNullable (fun ctxHash =>
          pbind (listOf readPathElement) (fun path => pbind readBigInteger (fun nid => pbind readBigInteger (fun upd =>
          pbind readNullable (fun prev => pbind readBigInteger (fun cnt => pbind readNullable (fun root => pbind readNullable (fun ctx =>
          fun s => match height, round with
                   | Some h, Some r => Some (mkHeader h r ctxHash path nid upd prev cnt root ctx, s)
                   | _, _ => None
                   end))))))))))).
Definition fromBytes {A} (p : parser A) (b : list Z) : option A := match p b with Some (a, _) => Some a | None => None end.
(** Proofs.java 36-54 *)
Definition readProofs : parser (list (list Z)) := inList (listOf readByteArray).
(** BlockUpdate.java 40-50; the proof is read in BTPMessageVerifier.java 168, where null is an exception as well *)
Definition readBlockUpdate : parser (header * option (list (list Z))) :=
  inList (pbind readByteArray (fun hb s => match fromBytes readHeader hb with
          | None => None
          | Some h => pbind readNullable (fun p => pret (h, match p with Some b => fromBytes readProofs b | None => None end)) s
          end)).
(** RelayMessage.java 104-115 *)
Definition getMessage (x : Z * list Z) : item :=
  if fst x =? 1 then match fromBytes readBlockUpdate (snd x) with Some (h, sigs) => BlockUpdate_ h sigs | None => Undecodable end
  else if fst x =? 2 then match fromBytes readMessageProof (snd x) with Some m => MessageProof_ m | None => Undecodable end
  else Undecodable.
(** BTPMessageVerifier.java 62-67 *)
Definition items_of_bytes (b : list Z) : option (list item) :=
  match fromBytes readRelayMessage b with Some l => Some (map getMessage l) | None => None end.
(** BTPMessageVerifier.java 53-86 from the bytes on *)
Definition handleRelayBytes (H : list Z -> list Z) (recover : list Z -> list Z -> option (list Z)) (p : props)
    (caller account net : list Z) (seq : Z) (b : list Z) : option (props * list (list Z)) :=
  match items_of_bytes b with Some its => handleRelayMessage H recover p (mkCall caller account net seq its) | None => None end.
