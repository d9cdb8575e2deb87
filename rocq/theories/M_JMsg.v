(** Model of the messages of the Java BMC as bytes (javascore/bmc, foundation.icon.btp.bmc): readObject, writeObject,
    fromBytes and toBytes of BTPMessage, FeeInfo, BMCMessage, ResponseMessage, ClaimMessage, InitMessage, LinkMessage and
    UnlinkMessage.  Reader and writer of the platform are those of M_Wire.  Texts are their bytes; a field which may not
    be null is never null. *)
From Coq Require Import String Ascii ZArith List Bool.
From Verif Require Import Base M_IntConv M_Rlp M_JBmv M_Wire M_BtpAddr M_XCall M_JCall M_SBmc.
Import ListNotations.
Open Scope Z_scope.

(** BTPMessage.java 28-34; FeeInfo.java 30-31 has the fields of the Solidity struct *)
Record jmsg := JMsg { j_src : text; j_dst : text; j_svc : text; j_sn : Z; j_body : list Z; j_nsn : Z; j_fee : option fee }.

(** the platform's reader: readLong, and readNullable for an object which [p] reads *)
Definition readLong : parser Z :=
  pbind readBigInteger (fun z s => if (- 2 ^ 63 <=? z) && (z <? 2 ^ 63) then Some (z, s) else None).
Definition readNullableOf {A} (p : parser A) : parser (option A) :=
  fun s => match readList s with
           | RNil r => Some (None, r)
           | _ => match p s with Some (a, r) => Some (Some a, r) | None => None end
           end.
Definition writeNullableOf {A} (w : A -> rlp) (o : option A) : rlp := match o with Some a => w a | None => RNull end.

(** FeeInfo.java 89-99 and 70-87 *)
Definition j_fee_write (f : fee) : rlp := RList [RBytes (f_net f); RList (map rint (f_vals f))].
Definition readFeeInfo : parser fee :=
  inList (pbind readByteArray (fun n => pbind (listOf readBigInteger) (fun vs => pret (Fee n vs)))).
(** BTPMessage.java 124-134, 141-145 and 110-122, 136-139 *)
Definition j_btp_bytes (m : jmsg) : list Z :=
  rlp_write (RList [RBytes (j_src m); RBytes (j_dst m); RBytes (j_svc m); rint (j_sn m); RBytes (j_body m); rint (j_nsn m);
                    writeNullableOf j_fee_write (j_fee m)]).
Definition readBTPMessage : parser jmsg :=
  inList (pbind readByteArray (fun src => pbind readByteArray (fun dst => pbind readByteArray (fun svc => pbind readBigInteger (fun sn =>
          pbind readByteArray (fun body => pbind readBigInteger (fun nsn => pbind (readNullableOf readFeeInfo) (fun f =>
          pret (JMsg src dst svc sn body nsn f))))))))).
(** BMCMessage.java 75-80, 87-91 and 66-73, 82-85 *)
Definition j_bmc_bytes (type : text) (payload : list Z) : list Z := rlp_write (RList [RBytes type; RBytes payload]).
Definition readBMCMessage : parser (option text * option (list Z)) :=
  inList (pbind readNullable (fun t => pbind readNullable (fun p => pret (t, p)))).
(** ResponseMessage.java 80-85, 92-96 and 71-78, 87-90 *)
Definition j_response_bytes (code : Z) (t : option text) : list Z := rlp_write (RList [rint code; rnull t]).
Definition readResponseMessage : parser (Z * option text) := inList (pbind readLong (fun c => pbind readNullable (fun t => pret (c, t)))).
(** ClaimMessage.java 76-81, 88-92 and 67-74, 83-86 *)
Definition j_claim_bytes (amount : Z) (receiver : text) : list Z := rlp_write (RList [rint amount; RBytes receiver]).
Definition readClaimMessage : parser (Z * text) := inList (pbind readBigInteger (fun a => pbind readByteArray (fun r => pret (a, r)))).
(** lib/BTPAddress.java 113-119 *)
Definition j_addr_write (a : jaddr) : rlp := RBytes (j_toString a).
Definition readAddress : parser jaddr := pbind readByteArray (fun t => pret (j_parse t)).
(** InitMessage.java 78-87, 94-98 and 59-76, 89-92 *)
Definition j_init_bytes (l : list (option jaddr)) : list Z := rlp_write (RList [RList (map (writeNullableOf j_addr_write) l)]).
Definition readInitMessage : parser (list (option jaddr)) := inList (listOf (readNullableOf readAddress)).
(** LinkMessage.java and UnlinkMessage.java 63-67, 74-78 and 55-61, 69-72 *)
Definition j_link_bytes (a : option jaddr) : list Z := rlp_write (RList [writeNullableOf j_addr_write a]).
Definition readLinkMessage : parser (option jaddr) := inList (readNullableOf readAddress).
