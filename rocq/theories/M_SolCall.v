(** Model of solidity/xcall/contracts: CallService.sol and the libraries for its messages.
    A revert is [None].  [junk] is what lies in memory behind a byte array, [H] is keccak256. *)
From Coq Require Import String Ascii ZArith List Bool.
From Verif Require Import Base M_IntConv M_SolRlp M_BtpAddr M_Bridge M_XCall.
Import ListNotations.
Open Scope Z_scope.

(** * Messages *)
(** RLPEncodeStruct.sol 66-89 *)
Definition addLength (len : Z) : option (list Z) :=
  if 55 <? len then sbind (encodeUintByLength len) (fun p => Some ((247 + zlen p) mod 256 :: p)) else Some [192 + len].
Definition listed (body : list Z) : option (list Z) := sbind (addLength (zlen body)) (fun h => Some (h ++ body)).
(** RLPEncodeStruct.sol 23-34 *)
Definition encodeCSMessage (type : Z) (payload : list Z) : option (list Z) :=
  sbind (encodeInt type) (fun t => listed (t ++ encodeBytes payload)).
(** RLPEncodeStruct.sol 36-50 *)
Definition encodeCSMessageRequest (q : csreq) : option (list Z) :=
  sbind (encodeUint (q_sn q)) (fun n =>
  listed (encodeString (q_from q) ++ encodeString (q_to q) ++ n ++ encodeBool (q_rollback q) ++
          encodeBytes (match q_data q with Some d => d | None => [] end))).
(** RLPEncodeStruct.sol 52-64 *)
Definition encodeCSMessageResponse (r : csres) : option (list Z) :=
  sbind (encodeUint (r_sn r)) (fun n => sbind (encodeInt (r_code r)) (fun c =>
  listed (n ++ c ++ encodeString (match r_msg r with Some m => m | None => [] end)))).

(** RLPDecode.sol 171-188 *)
Definition toBoolean (it : sitem) : option bool :=
  sbind (require (i_len it =? 1)) (fun _ => Some (negb ((i_mem it 0 =? 0) || (i_mem it 0 =? 128)))).

(** Integers.sol 44-63: no room for more than 32 digits *)
Definition i_toString (n : Z) : option (list Z) := if n <? 10 ^ 32 then Some (dec_text n) else None.

Section Service.
Variable H : list Z -> list Z.
Variable junk : list Z -> mem.
Variable cfg : xcfg.

(** RLPDecodeStruct.sol 18-29 *)
Definition decodeCSMessage (b : list Z) : option (Z * list Z) :=
  sbind (list_of junk b) (fun ls => sbind (at_index ls 0) (fun a => sbind (toInt a) (fun t => sbind (at_index ls 1) (fun p =>
  sbind (toBytes p) (fun d => Some (t, d)))))).
(** RLPDecodeStruct.sol 31-45 *)
Definition decodeCSMessageRequest (b : list Z) : option csreq :=
  sbind (list_of junk b) (fun ls =>
  sbind (at_index ls 0) (fun i0 => sbind (toBytes i0) (fun f => sbind (at_index ls 1) (fun i1 => sbind (toBytes i1) (fun t =>
  sbind (at_index ls 2) (fun i2 => sbind (toUint i2) (fun n => sbind (at_index ls 3) (fun i3 => sbind (toBoolean i3) (fun r =>
  sbind (at_index ls 4) (fun i4 => sbind (toBytes i4) (fun d => Some (mkCsReq f t n r (Some d))))))))))))).
(** RLPDecodeStruct.sol 47-59 *)
Definition decodeCSMessageResponse (b : list Z) : option csres :=
  sbind (list_of junk b) (fun ls =>
  sbind (at_index ls 0) (fun i0 => sbind (toUint i0) (fun n => sbind (at_index ls 1) (fun i1 => sbind (toInt i1) (fun c =>
  sbind (at_index ls 2) (fun i2 => sbind (toBytes i2) (fun m => Some (mkCsRes n c (Some m))))))))).

(** CallService.sol 385-392 *)
Definition s_getFee (s : xstate) (quoted : option Z) : option Z := sbind quoted (fun q => cadd (x_fee s) q).
(** CallService.sol 263-281 *)
Definition s_sendBTPMessage (s : xstate) (value : Z) (net : list Z) (type sn : Z) (payload : list Z) (nsn : option Z) : option (xstate * Z) :=
  sbind (encodeCSMessage type payload) (fun b => bmc_send s value net sn b nsn).

(** the zero value of the mapping requests; CallService.sol 104-108, 199 and 306 ask for its sender *)
Definition zero_creq : creq := mkCReq 0 [] (Some []) false.
Definition request_at (s : xstate) (sn : Z) : creq := match get sn (x_requests s) with Some r => r | None => zero_creq end.
Definition zero_csreq : csreq := mkCsReq [] [] 0 false (Some []).
Definition proxy_at (s : xstate) (id : Z) : csreq := match get id (x_proxy s) with Some r => r | None => zero_csreq end.
Definition bytes_in (o : option (list Z)) : list Z := match o with Some b => b | None => [] end.

(** CallService.sol 110-148; a rollback that is not given is empty *)
Definition s_sendCallMessage (s : xstate) (sender : Z) (contract : bool) (value : Z) (to data : list Z) (rollback : option (list Z))
    (quoted : option Z) (taken : bool) (nsn : option Z) : option xstate :=
  let rb := bytes_in rollback in
  sbind (require (contract || (zlen rb =? 0))) (fun _ =>
  sbind (require (zlen data <=? MAX_DATA_SIZE)) (fun _ =>
  sbind (require (zlen rb <=? MAX_ROLLBACK_SIZE)) (fun _ =>
  let needResponse := 0 <? zlen rb in
  sbind (parseBTPAddress to) (fun dst =>
  let (netTo, dstAccount) := dst in
  sbind (s_getFee s quoted) (fun required =>
  sbind (require (required <=? value)) (fun _ =>
  let s := emit (with_bal s (x_bal s + value)) [InSend sender value to data rollback (match quoted with Some q => q | None => 0 end)] in
  sbind (match x_handler s with
         | Some h => if 0 <? x_fee s then transfer s h (x_fee s) taken else Some s
         | None => Some s
         end) (fun s =>
  sbind (cadd (x_sn s) 1) (fun sn =>
  let s := with_sn s sn in
  let s := if needResponse then with_requests s (put sn (mkCReq sender to (Some rb) false) (x_requests s)) else s in
  let msgSn := if needResponse then int256 sn else 0 in
  sbind (encodeCSMessageRequest (mkCsReq (toChecksumString H sender) dstAccount sn needResponse (Some data))) (fun payload =>
  sbind (csub value (x_fee s)) (fun relayFee =>
  sbind (s_sendBTPMessage s relayFee netTo CS_REQUEST msgSn payload nsn) (fun r =>
  Some (emit (fst r) [CallMessageSent sender to sn (snd r)])))))))))))).

(** CallService.sol 160-172, 205-217: the response for how the called contract ended *)
Definition s_result (sn : Z) (out : outcome) : csres :=
  match out with
  | Returned => mkCsRes sn CS_SUCCESS (Some [])
  | RevText t => mkCsRes sn CS_FAILURE (Some t)
  | _ => mkCsRes sn CS_FAILURE (Some (str "unknownError"))
  end.

(** CallService.sol 283-300 *)
Definition s_handleRequest (s : xstate) (net : list Z) (payload : list Z) : option xstate :=
  sbind (decodeCSMessageRequest payload) (fun m =>
  let from := btpAddress net (q_from m) in
  sbind (cadd (x_reqId s) 1) (fun reqId =>
  let s := with_reqId s reqId in
  let s := with_proxy s (put reqId (mkCsReq from (q_to m) (q_sn m) (q_rollback m) (q_data m)) (x_proxy s)) in
  Some (emit s [CallMessage from (q_to m) (q_sn m) reqId]))).
(** CallService.sol 302-318 *)
Definition s_handleResponse (s : xstate) (res : csres) : option xstate :=
  let req := request_at s (r_sn res) in
  if cr_from req =? 0 then Some s
  else
    let s := emit s [ResponseMessage (r_sn res) (r_code res) (bytes_in (r_msg res))] in
    if r_code res =? CS_SUCCESS then Some (with_requests s (del (r_sn res) (x_requests s)))
    else sbind (require (0 <? zlen (bytes_in (cr_rollback req)))) (fun _ =>
         Some (emit (with_requests s (put (r_sn res) (mkCReq (cr_from req) (cr_to req) (cr_rollback req) true) (x_requests s)))
                    [RollbackMessage (r_sn res)])).
(** CallService.sol 46-49, 80-84, 221-240 *)
Definition s_handleBTPMessage (s : xstate) (sender : Z) (net svc : list Z) (sn : Z) (msg : list Z) : option xstate :=
  sbind (require (sender =? c_bmc cfg)) (fun _ =>
  sbind (require (compareTo H NAME svc)) (fun _ =>
  sbind (decodeCSMessage msg) (fun m =>
  let s := emit s [InMessage net sn msg] in
  if fst m =? CS_REQUEST then s_handleRequest s net (snd m)
  else if fst m =? CS_RESPONSE then sbind (decodeCSMessageResponse (snd m)) (s_handleResponse s)
  else None))).
(** CallService.sol 242-260 *)
Definition s_handleBTPError (s : xstate) (sender : Z) (net svc : list Z) (sn code : Z) (msg : list Z) : option xstate :=
  sbind (require (sender =? c_bmc cfg)) (fun _ =>
  sbind (require (compareTo H NAME svc)) (fun _ =>
  sbind (i_toString code) (fun c =>
  s_handleResponse (emit s [InError net sn code msg])
    (mkCsRes sn CS_BTP_ERROR (Some (str "BTPError{code=" ++ c ++ str ", msg=" ++ msg ++ str "}")))))).

(** CallService.sol 320-327 *)
Definition s_admin (s : xstate) : Z := match x_admin s with Some a => a | None => c_owner cfg end.
(** CallService.sol 346-350; the zero address is None *)
Definition s_setAdmin (s : xstate) (sender : Z) (a : option Z) : option xstate :=
  sbind (require (sender =? c_owner cfg)) (fun _ => Some (with_admin s a)).
(** CallService.sol 352-362 *)
Definition s_setProtocolFeeHandler (s : xstate) (sender : Z) (a : option Z) (taken : bool) : option xstate :=
  sbind (require (sender =? s_admin s)) (fun _ =>
  let s := emit (with_handler s a) [InHandler a] in
  match a with
  | Some h => if 0 <? x_bal s then transfer s h (x_bal s) taken else Some s
  | None => Some s
  end).
(** CallService.sol 371-376 *)
Definition s_setProtocolFee (s : xstate) (sender v : Z) : option xstate :=
  sbind (require (sender =? s_admin s)) (fun _ => sbind (require (0 <=? v)) (fun _ => Some (emit (with_fee s v) [InFee v]))).

(** A call of the service.  [Execute]: CallService.sol 150-179; [Rollback]: 195-218; both call the contract through
    tryHandleCallMessage, 182-193, so that all of it is taken back if it reverts. *)
Fixpoint s_exec (t : tx) (s : xstate) {struct t} : option xstate :=
  let all := fix all (l : list tx) (s : xstate) {struct l} : xstate :=
               match l with [] => s | t :: r => all r (match s_exec t s with Some s' => s' | None => s end) end in
  match t with
  | Send sender contract value to data rollback quoted taken nsn => s_sendCallMessage s sender contract value to data rollback quoted taken nsn
  | Execute reqId inner out nsn =>
      let req := proxy_at s reqId in
      sbind (require (0 <? zlen (q_from req))) (fun _ =>
      let s := with_proxy s (del reqId (x_proxy s)) in
      sbind (networkAddress (q_from req)) (fun netFrom =>
      let (s, res) :=
        match parseAddress (q_to req) with
        | None => (s, mkCsRes (q_sn req) CS_FAILURE (Some (str "IllegalArgument")))
        | Some a =>
            (match out with
             | Returned => all inner (emit s [OutCall (ForCall reqId) a (q_from req) (q_data req) true])
             | _ => emit s [OutCall (ForCall reqId) a (q_from req) (q_data req) false]
             end, s_result (q_sn req) out)
        end in
      let s := emit s [CallExecuted reqId (r_code res) (bytes_in (r_msg res))] in
      if q_rollback req then
        let sn := int256 (q_sn req) in
        sbind (require (negb (sn =? - 2 ^ 255))) (fun _ =>
        sbind (encodeCSMessageResponse res) (fun payload =>
        sbind (s_sendBTPMessage s 0 netFrom CS_RESPONSE (sn * -1) payload nsn) (fun r => Some (fst r))))
      else Some s))
  | Rollback sn inner out =>
      let req := request_at s sn in
      sbind (require (negb (cr_from req =? 0))) (fun _ =>
      sbind (require (cr_enabled req)) (fun _ =>
      let s := with_requests s (del sn (x_requests s)) in
      let res := s_result sn out in
      let s := match out with
               | Returned => all inner (emit s [OutCall (ForRollback sn) (cr_from req) (c_self cfg) (cr_rollback req) true])
               | _ => emit s [OutCall (ForRollback sn) (cr_from req) (c_self cfg) (cr_rollback req) false]
               end in
      Some (emit s [RollbackExecuted sn (r_code res) (bytes_in (r_msg res))])))
  | Deliver sender net svc sn msg => s_handleBTPMessage s sender net svc sn msg
  | DeliverError sender net svc sn code msg => s_handleBTPError s sender net svc sn code msg
  | SetAdmin sender a => s_setAdmin s sender a
  | SetHandler sender a taken => s_setProtocolFeeHandler s sender a taken
  | SetFee sender v => s_setProtocolFee s sender v
  end.
Fixpoint s_run (l : list tx) (s : xstate) : xstate :=
  match l with [] => s | t :: r => s_run r (match s_exec t s with Some s' => s' | None => s end) end.
End Service.
