(** The bytes of call service messages, as trees of RLP items, and the two implementations' ways with addresses. *)
From Coq Require Import String Ascii ZArith List Bool.
From Verif Require Import Base M_IntConv M_Rlp S_Rlp S_JBmv S_BtpAddr M_Wire S_Wire M_SolRlp M_BtpAddr M_XCall S_XCall M_JCall M_SolCall.
Import ListNotations.
Open Scope Z_scope.

(** A message is a type and a payload; the payload of type 1 is a request, that of type 2 a response. *)
Definition bool_item (b : bool) : rlp := RBytes [if b then 1 else 0].
Definition message_item (type : Z) (payload : list Z) : rlp := RList [int_item type; RBytes payload].
Definition request_item (q : csreq) : rlp := RList [RBytes (q_from q); RBytes (q_to q); int_item (q_sn q); bool_item (q_rollback q); opt_item (q_data q)].
Definition response_item (r : csres) : rlp := RList [int_item (r_sn r); int_item (r_code r); opt_item (r_msg r)].
Definition request_wire (q : csreq) : list Z := rlp_write (message_item 1 (rlp_write (request_item q))).
Definition response_wire (r : csres) : list Z := rlp_write (message_item 2 (rlp_write (response_item r))).

Definition error_text (code msg : list Z) : list Z := str "BTPError{code=" ++ code ++ str ", msg=" ++ msg ++ str "}".
Definition payload_of (type : Z) {A} (read : list Z -> option A) (m : option (Z * option (list Z))) : option A :=
  match m with Some (t, Some d) => if t =? type then read d else None | _ => None end.
Section Java.
Variable addr_text : Z -> list Z.
Variable addr_of_text : list Z -> option Z.
Variable cfg : xcfg.
Definition j_lang : lang := mkLang
  (fun to => match j_valueOf to with Some a => Some (ja_net a, ja_account a) | None => None end)
  (fun rb => rb) addr_text addr_of_text (fun net f => address_text (str "btp") net f) (c_self cfg) Z.opp
  (fun q => Some (request_wire q)) (fun r => Some (response_wire r))
  (fun b => payload_of 1 (fromBytes readCSRequest) (fromBytes readCSMessage b))
  (fun b => payload_of 2 (fromBytes readCSResponse) (fromBytes readCSMessage b))
  (fun code msg => Some (error_text ((if code <? 0 then str "-" else []) ++ dec_text (Z.abs code)) msg)).
End Java.
Section Solidity.
Variable H : list Z -> list Z.
Variable junk : list Z -> mem.
Variable cfg : xcfg.
Definition typed (o : option (Z * list Z)) : option (Z * option (list Z)) := match o with Some (t, d) => Some (t, Some d) | None => None end.
Definition s_lang : lang := mkLang parseBTPAddress
  (fun rb => match rb with Some (x :: r) => Some (x :: r) | _ => None end) (toChecksumString H) parseAddress (fun net f => address_text (str "btp") net f) (c_self cfg)
  (fun n => - int256 n)
  (fun q => sbind (encodeCSMessageRequest q) (encodeCSMessage 1)) (fun r => sbind (encodeCSMessageResponse r) (encodeCSMessage 2))
  (fun b => payload_of 1 (decodeCSMessageRequest junk) (typed (decodeCSMessage junk b)))
  (fun b => payload_of 2 (decodeCSMessageResponse junk) (typed (decodeCSMessage junk b)))
  (fun code msg => sbind (i_toString code) (fun c => Some (error_text c msg))).
End Solidity.

(** * Conditions on messages *)
(** texts and data consist of bytes; a code fits a Java int *)
Definition request_ok (q : csreq) : Prop := bytes_ok (q_from q) /\ bytes_ok (q_to q) /\ opt_bytes (q_data q).
Definition response_ok (r : csres) : Prop := fits_int (r_code r) /\ opt_bytes (r_msg r).
(** a length whose digits in base 256 are all 255 *)
Definition spread (n : Z) : Prop := exists k, 1 <= k /\ n = 256 ^ k - 1.
(** what has no null: empty bytes instead *)
Definition filled (o : option (list Z)) : option (list Z) := Some (match o with Some d => d | None => [] end).
Definition filled_req (q : csreq) : csreq := mkCsReq (q_from q) (q_to q) (q_sn q) (q_rollback q) (filled (q_data q)).
Definition filled_res (r : csres) : csres := mkCsRes (r_sn r) (r_code r) (filled (r_msg r)).
(** not the single byte 0x80, which Solidity writes as the empty string *)
Definition plain (b : list Z) : Prop := b <> [128].
Definition plain_request (q : csreq) : Prop := plain (q_from q) /\ plain (q_to q) /\ exists d, q_data q = Some d /\ plain d.
Definition plain_response (r : csres) : Prop := r_code r <> -128 /\ exists t, r_msg r = Some t /\ plain t.
(** bytes, and not huge *)
Definition good (t : list Z) : Prop := bytes_ok t /\ zlen t < 2 ^ 30.
(** What a called contract may end with: numbers of a Java int, texts that are not huge. *)
Definition outcome_ok (out : outcome) : Prop := match out with RevUser code => fits_int code | RevText t => good t /\ t <> [128] | _ => True end.
(** for Solidity, empty rollback data is none *)
Definition some_data (rb : option (list Z)) : bool := match rb with Some (_ :: _) => true | _ => false end.
