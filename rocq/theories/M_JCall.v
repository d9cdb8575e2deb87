(** Model of javascore/xcall (foundation.icon.btp.xcall): CallServiceImpl and its messages.
    An exception that leaves the method is [None]: the platform takes back all changes.
    Addresses are numbers; [addr_text] and [addr_of_text] are Address.toString and Address.fromString. *)
From Coq Require Import String Ascii ZArith List Bool.
From Verif Require Import Base GoStr M_IntConv M_Address M_Rlp M_JBmv M_Wire M_SolRlp M_BtpAddr M_XCall.
Import ListNotations.
Open Scope Z_scope.

(** * Messages *)
(** the platform's writer and reader for a truth value *)
Definition rbool (b : bool) : rlp := rint (if b then 1 else 0).
Definition readBoolean : parser bool :=
  pbind readByteArray (fun b s => match b with [0] => Some (false, s) | [1] => Some (true, s) | _ => None end).
(** CSMessage.java 44-49, 61-65 and 51-59, 67-70 *)
Definition j_msg_bytes (type : Z) (data : option (list Z)) : list Z := rlp_write (RList [rint type; rnull data]).
Definition readCSMessage : parser (Z * option (list Z)) := inList (pbind readInt (fun t => pbind readNullable (fun d => pret (t, d)))).
(** CSMessageRequest.java 61-69, 84-88 and 71-82, 90-93 *)
Definition j_req_bytes (q : csreq) : list Z :=
  rlp_write (RList [RBytes (q_from q); RBytes (q_to q); rint (q_sn q); rbool (q_rollback q); rnull (q_data q)]).
Definition readCSRequest : parser csreq :=
  inList (pbind readByteArray (fun f => pbind readByteArray (fun t => pbind readBigInteger (fun n => pbind readBoolean (fun r =>
          pbind readNullable (fun d => pret (mkCsReq f t n r d))))))).
(** CSMessageResponse.java 53-59, 72-76 and 61-70, 78-81 *)
Definition j_res_bytes (r : csres) : list Z := rlp_write (RList [rint (r_sn r); rint (r_code r); rnull (r_msg r)]).
Definition readCSResponse : parser csres :=
  inList (pbind readBigInteger (fun n => pbind readInt (fun c => pbind readNullable (fun m => pret (mkCsRes n c m))))).

Section Service.
Variable addr_text : Z -> list Z.
Variable addr_of_text : list Z -> option Z.
(** the text of the IllegalArgumentException thrown for what is no address *)
Variable bad_address : list Z -> list Z.
Variable cfg : xcfg.

(** CallServiceImpl.java 342-350; [quoted] is the answer of the BMC, for which the network has to be known *)
Definition j_getFee (s : xstate) (net : list Z) (quoted : option Z) : option Z :=
  obind (check (negb (is_empty net || (match str_index net (str "/") with Some _ => true | None => false end)
                                   || (match str_index net (str ":") with Some _ => true | None => false end)))) (fun _ =>
  obind quoted (fun q => Some (x_fee s + q))).
(** CallServiceImpl.java 258-262 *)
Definition j_sendBTPMessage (s : xstate) (value : Z) (net : list Z) (type sn : Z) (data : list Z) (nsn : option Z) : option (xstate * Z) :=
  bmc_send s value net sn (j_msg_bytes type (Some data)) nsn.

(** CallServiceImpl.java 102-140 *)
Definition j_sendCallMessage (s : xstate) (caller : Z) (contract : bool) (value : Z) (to data : list Z) (rollback : option (list Z))
    (quoted : option Z) (taken : bool) (nsn : option Z) : option xstate :=
  obind (check (contract || match rollback with None => true | Some _ => false end)) (fun _ =>
  obind (check (zlen data <=? MAX_DATA_SIZE)) (fun _ =>
  obind (check (match rollback with None => true | Some r => zlen r <=? MAX_ROLLBACK_SIZE end)) (fun _ =>
  let needResponse := match rollback with Some _ => true | None => false end in
  obind (j_valueOf to) (fun dst =>
  obind (j_getFee s (ja_net dst) quoted) (fun required =>
  obind (check (required <=? value)) (fun _ =>
  let s := emit (with_bal s (x_bal s + value)) [InSend caller value to data rollback (match quoted with Some q => q | None => 0 end)] in
  obind (match x_handler s with
         | Some h => if 0 <? x_fee s then transfer s h (x_fee s) taken else Some s
         | None => Some s
         end) (fun s =>
  let relayFee := value - x_fee s in
  let sn := x_sn s + 1 in
  let s := with_sn s sn in
  let s := if needResponse then with_requests s (put sn (mkCReq caller (j_toString dst) rollback false) (x_requests s)) else s in
  let msgReq := mkCsReq (addr_text caller) (ja_account dst) sn needResponse (Some data) in
  obind (j_sendBTPMessage s relayFee (ja_net dst) CS_REQUEST (if needResponse then sn else 0) (j_req_bytes msgReq) nsn) (fun r =>
  Some (emit (fst r) [CallMessageSent caller (j_toString dst) sn (snd r)]))))))))).

(** CallServiceImpl.java 153-164, 185-196: the response for how the called contract ended; None: another exception leaves the method *)
Definition j_result (sn : Z) (out : outcome) : option csres :=
  match out with
  | Returned => Some (mkCsRes sn CS_SUCCESS (Some []))
  | RevUser code => Some (mkCsRes sn (if code =? 0 then CS_FAILURE else code)
                           (Some (str "UserReverted(" ++ (if code <? 0 then str "-" else []) ++ dec_text (Z.abs code) ++ str ")")))
  | RevText t => Some (mkCsRes sn CS_FAILURE (Some t))
  | RevOther => None
  end.
Definition text_of (o : option (list Z)) : list Z := match o with Some t => t | None => [] end.

(** CallServiceImpl.java 264-275 *)
Definition j_handleRequest (s : xstate) (net : list Z) (data : list Z) : option xstate :=
  obind (fromBytes readCSRequest data) (fun m =>
  let from := j_toString (JAddr (str "btp") net (q_from m)) in
  let reqId := x_reqId s + 1 in
  let s := with_reqId s reqId in
  let s := with_proxy s (put reqId (mkCsReq from (q_to m) (q_sn m) (q_rollback m) (q_data m)) (x_proxy s)) in
  Some (emit s [CallMessage from (q_to m) (q_sn m) reqId])).
(** CallServiceImpl.java 277-300 *)
Definition j_handleResponse (s : xstate) (data : list Z) : option xstate :=
  obind (fromBytes readCSResponse data) (fun m =>
  match get (r_sn m) (x_requests s) with
  | None => Some s
  | Some req =>
      let s := emit s [ResponseMessage (r_sn m) (r_code m) (text_of (r_msg m))] in
      if r_code m =? CS_SUCCESS then Some (with_requests s (del (r_sn m) (x_requests s)))
      else obind (check (match cr_rollback req with Some _ => true | None => false end)) (fun _ =>
           Some (emit (with_requests s (put (r_sn m) (mkCReq (cr_from req) (cr_to req) (cr_rollback req) true) (x_requests s)))
                      [RollbackMessage (r_sn m)]))
  end).
(** CallServiceImpl.java 76-82, 227-244 *)
Definition j_handleBTPMessage (s : xstate) (caller : Z) (net svc : list Z) (sn : Z) (msg : list Z) : option xstate :=
  obind (check (caller =? c_bmc cfg)) (fun _ =>
  obind (check (bytes_eqb NAME svc)) (fun _ =>
  obind (fromBytes readCSMessage msg) (fun m =>
  obind (snd m) (fun data =>
  let s := emit s [InMessage net sn msg] in
  if fst m =? CS_REQUEST then j_handleRequest s net data
  else if fst m =? CS_RESPONSE then j_handleResponse s data
  else None)))).
(** CallServiceImpl.java 246-255 *)
Definition j_handleBTPError (s : xstate) (caller : Z) (net svc : list Z) (sn code : Z) (msg : list Z) : option xstate :=
  obind (check (caller =? c_bmc cfg)) (fun _ =>
  obind (check (bytes_eqb NAME svc)) (fun _ =>
  let errMsg := str "BTPError{code=" ++ (if code <? 0 then str "-" else []) ++ dec_text (Z.abs code) ++ str ", msg=" ++ msg ++ str "}" in
  let res := mkCsRes sn CS_BTP_ERROR (Some errMsg) in
  j_handleResponse (emit s [InError net sn code msg]) (j_res_bytes res))).

(** CallServiceImpl.java 302-305 *)
Definition j_admin (s : xstate) : Z := match x_admin s with Some a => a | None => c_owner cfg end.
(** CallServiceImpl.java 72-74, 307-311 *)
Definition j_setAdmin (s : xstate) (caller : Z) (a : option Z) : option xstate :=
  obind (check (caller =? c_owner cfg)) (fun _ => Some (with_admin s a)).
(** CallServiceImpl.java 313-323 *)
Definition j_setProtocolFeeHandler (s : xstate) (caller : Z) (a : option Z) (taken : bool) : option xstate :=
  obind (check (caller =? j_admin s)) (fun _ =>
  let s := emit (with_handler s a) [InHandler a] in
  match a with
  | Some h => if 0 <? x_bal s then transfer s h (x_bal s) taken else Some s
  | None => Some s
  end).
(** CallServiceImpl.java 330-335 *)
Definition j_setProtocolFee (s : xstate) (caller v : Z) : option xstate :=
  obind (check (caller =? j_admin s)) (fun _ => obind (check (0 <=? v)) (fun _ => Some (emit (with_fee s v) [InFee v]))).

(** A call of the service.  [Execute]: CallServiceImpl.java 142-173; [Rollback]: 175-200.  What the called contract does
    counts only if it ends normally; a call it makes which fails changes nothing. *)
Fixpoint j_exec (t : tx) (s : xstate) {struct t} : option xstate :=
  let all := fix all (l : list tx) (s : xstate) {struct l} : xstate :=
               match l with [] => s | t :: r => all r (match j_exec t s with Some s' => s' | None => s end) end in
  match t with
  | Send caller contract value to data rollback quoted taken nsn => j_sendCallMessage s caller contract value to data rollback quoted taken nsn
  | Execute reqId inner out nsn =>
      obind (get reqId (x_proxy s)) (fun req =>
      let s := with_proxy s (del reqId (x_proxy s)) in
      obind (j_valueOf (q_from req)) (fun from =>
      obind (match addr_of_text (q_to req) with
             | None => Some (s, mkCsRes (q_sn req) CS_FAILURE (Some (bad_address (q_to req))))
             | Some a =>
                 obind (j_result (q_sn req) out) (fun res =>
                 Some (match out with
                       | Returned => all inner (emit s [OutCall (ForCall reqId) a (q_from req) (q_data req) true])
                       | _ => emit s [OutCall (ForCall reqId) a (q_from req) (q_data req) false]
                       end, res))
             end) (fun sr =>
      let (s, res) := sr in
      let s := emit s [CallExecuted reqId (r_code res) (text_of (r_msg res))] in
      if q_rollback req then
        obind (j_sendBTPMessage s 0 (ja_net from) CS_RESPONSE (- q_sn req) (j_res_bytes res) nsn) (fun r => Some (fst r))
      else Some s)))
  | Rollback sn inner out =>
      obind (get sn (x_requests s)) (fun req =>
      obind (check (cr_enabled req)) (fun _ =>
      let s := with_requests s (del sn (x_requests s)) in
      obind (j_result sn out) (fun res =>
      let s := match out with
               | Returned => all inner (emit s [OutCall (ForRollback sn) (cr_from req) (c_self cfg) (cr_rollback req) true])
               | _ => emit s [OutCall (ForRollback sn) (cr_from req) (c_self cfg) (cr_rollback req) false]
               end in
      Some (emit s [RollbackExecuted sn (r_code res) (text_of (r_msg res))]))))
  | Deliver caller net svc sn msg => j_handleBTPMessage s caller net svc sn msg
  | DeliverError caller net svc sn code msg => j_handleBTPError s caller net svc sn code msg
  | SetAdmin caller a => j_setAdmin s caller a
  | SetHandler caller a taken => j_setProtocolFeeHandler s caller a taken
  | SetFee caller v => j_setProtocolFee s caller v
  end.
(** one transaction after the other; one that fails changes nothing *)
Fixpoint j_run (l : list tx) (s : xstate) : xstate :=
  match l with [] => s | t :: r => j_run r (match j_exec t s with Some s' => s' | None => s end) end.
End Service.
