(** Model of the result handling of the two senders: chain/icon/sender.go 130-145, 253-281, chain/icon/client/
    client.go 517-551 (MapError), chain/ethbr/sender.go 126-178 and chain/ethbr/client/client.go 332-355.
    What the node answers is given as a list of responses; the text of error messages is dropped except where
    the code looks into it. *)
From Coq Require Import String Ascii ZArith List Bool.
From Verif Require Import Base M_IntConv GoStr M_Address M_Errors.
Import ListNotations.
Open Scope Z_scope.

(** Errors of the RPC layer: *jsonrpc.Error, *common.HttpError, *url.Error (connection refused or not), others.
    None of them has an ErrorCode method. *)
Inductive rpc_err := JsonErr (code : Z) (msg : list Z) | HttpErr | UrlErr (refused : bool) | OtherErr.
(** What MapError and its callers return besides: error.go 25-32 and fmt.Errorf failures *)
Inductive mapped := SendFailByOverflow | SendFailByExpired | SendFailByFuture | GetResultFailByPending | ConnectFail
  | Raw (e : rpc_err) | FailureCode | Coded_ (e : gerr).

(** client/type.go 32-61 *)
Definition JsonrpcSystem : Z := -31000. Definition JsonrpcTxPoolOverflow : Z := -31001. Definition JsonrpcPending : Z := -31002. Definition JsonrpcExecuting : Z := -31003.
Definition TransactionPoolOverflowError : Z := 2001. Definition ExpiredTransactionError : Z := 2002. Definition FutureTransactionError : Z := 2003.
Definition ResultStatusSuccess : list Z := str "0x1".
Definition FailureCodeRevert : Z := 32. Definition FailureCodeEnd : Z := 99.

(** client.go 517-551 *)
Definition MapError (e : option rpc_err) : result (option mapped) :=
  match e with
  | None => Ok None
  | Some (JsonErr code msg) =>
      if code =? JsonrpcTxPoolOverflow then Ok (Some SendFailByOverflow)
      else if code =? JsonrpcSystem then
        if (length msg <? 5)%nat then Panic  (* re.Message[1:5] *)
        else match strconv_ParseInt0 (firstn 4 (skipn 1 msg)) 32 with
             | Some c => if c =? ExpiredTransactionError then Ok (Some SendFailByExpired)
                         else if c =? FutureTransactionError then Ok (Some SendFailByFuture)
                         else if c =? TransactionPoolOverflowError then Ok (Some SendFailByOverflow)
                         else Ok (Some (Raw (JsonErr code msg)))
             | None => Ok (Some (Raw (JsonErr code msg)))
             end
      else if (code =? JsonrpcPending) || (code =? JsonrpcExecuting) then Ok (Some GetResultFailByPending)
      else Ok (Some (Raw (JsonErr code msg)))
  | Some HttpErr => Ok (Some ConnectFail)
  | Some (UrlErr true) => Ok (Some ConnectFail)
  | Some e => Ok (Some (Raw e))
  end.

(** client/type.go 109-130, the fields used: status text, and code and message of the failure if present *)
Record txresult := { tr_status : list Z; tr_failure : option (list Z) }.

(** sender.go 269-281; [i] is the allocation of the revert error *)
Definition mapErrorWithTransactionResult (i : Z) (txr : option txresult) (err : option rpc_err) : result (option mapped) :=
  rbind (MapError err) (fun e =>
  match e, txr with
  | None, Some t =>
      if bytes_eqb (tr_status t) ResultStatusSuccess then Ok None
      else match tr_failure t with
           | None => Panic  (* txr.Failure is nil *)
           | Some codetext =>
               let fc := match client_HexInt_Value codetext with Some v => v | None => 0 end in
               if (fc <? FailureCodeRevert) || (FailureCodeEnd <? fc) then Ok (Some FailureCode)
               else match NewRevertError i (i64 (fc - FailureCodeRevert)) with Some (e, _) => Ok (Some (Coded_ e)) | None => Ok None end
           end
  | _, _ => Ok e
  end).

(** A response of icx_getTransactionResult: client.go 95-101 returns a result or an error, never both. *)
Inductive response := Result_ (t : txresult) | Failed_ (e : rpc_err).
Definition is_pending (e : rpc_err) : bool := match e with JsonErr c _ => (c =? JsonrpcPending) || (c =? JsonrpcExecuting) | _ => false end.

(** sender.go 253-267: polls until an answer that is not pending or executing; None = still polling *)
Fixpoint GetResult (i : Z) (rs : list response) : option (result (option mapped)) :=
  match rs with
  | [] => None
  | Result_ t :: _ => Some (mapErrorWithTransactionResult i (Some t) None)
  | Failed_ e :: rs' => if is_pending e then GetResult i rs' else Some (mapErrorWithTransactionResult i None (Some e))
  end.

(** What the sender puts on its channel. *)
Inductive sent := RelayResult (id code : Z) | LinkStatus.
(** errors.CoderOf of what GetResult returns *)
Definition coder (m : mapped) : option Z := match m with Coded_ e => (match AsCoder e with Ok (Some c) => error_code c | _ => None end) | _ => None end.
(** sender.go 130-145 (both senders); a panic of GetResult kills the program *)
Definition result_messages (id : Z) (r : result (option mapped)) : result (list sent) :=
  rbind r (fun e => match e with
                    | Some m => match coder m with Some c => Ok [RelayResult id c; LinkStatus] | None => Ok [LinkStatus] end
                    | None => Ok [LinkStatus]
                    end).

(** strings.TrimLeft(s, " ") *)
Fixpoint trim_left (s : list Z) : list Z := match s with c :: r => if c =? ch " " then trim_left r else s | [] => [] end.
(** strconv.Atoi on a 64-bit platform *)
Fixpoint dec_digits (n : Z) (s : list Z) : option Z :=
  match s with
  | [] => Some n
  | c :: r => if (ch "0" <=? c) && (c <=? ch "9") then dec_digits (n * 10 + (c - ch "0")) r else None
  end.
Definition Atoi (s : list Z) : option Z :=
  match s with
  | [] => None
  | c :: r =>
      let '(neg, body) := if c =? ch "+" then (false, r) else if c =? ch "-" then (true, r) else (false, s) in
      match body with
      | [] => None
      | _ => match dec_digits 0 body with
             | None => None
             | Some n => let v := if neg then - n else n in
                         if (- 2 ^ 63 <=? v) && (v <? 2 ^ 63) then Some v else None
             end
      end
  end.

(** One turn of chain/ethbr/sender.go 144-178: what the node says about the transaction, its receipt and the
    repeated call.  [ec_revert] = None when the repeated call succeeds (err.Error() on a nil error panics). *)
Record eth_answer := { ea_tx_error : bool; ea_pending : bool; ea_receipt : option Z (* status; None = error *);
                       ea_call_error : bool; ea_revert : option (list Z) }.
Fixpoint eth_GetResult (i : Z) (rs : list eth_answer) : option (result (option mapped)) :=
  match rs with
  | [] => None
  | a :: rs' =>
      if ea_tx_error a then Some (Ok (Some (Raw OtherErr)))
      else if ea_pending a then eth_GetResult i rs'
      else match ea_receipt a with
           | None => Some (Ok (Some (Raw OtherErr)))
           | Some status =>
               if status =? 0 then
                 if ea_call_error a then Some (Ok (Some (Raw OtherErr)))
                 else match ea_revert a with
                      | None => Some Panic
                      | Some text =>
                          let msgs := str_split text (ch ":") in
                          if (2 <? length msgs)%nat then
                            match Atoi (trim_left (nth 1 msgs [])) with
                            | None => Some (Ok (Some (Raw OtherErr)))
                            | Some code => Some (Ok (match NewRevertError i code with Some (e, _) => Some (Coded_ e) | None => None end))
                            end
                          else Some (Ok (match NewRevertError i 25 with Some (e, _) => Some (Coded_ e) | None => None end))
                      end
               else Some (Ok None)
           end
  end.
