(** Model of sending a transaction to an ICON node: common/jsonrpc/client.go 26-112 (_do, Do), chain/icon/client/
    client.go 60-86 (SignTransaction, SendTransaction) and 132-161 (first loop of SendTransactionAndGetResult),
    chain/icon/sender.go 91-128 (_relay, as a list of parameters, see M_Fragment for the cutting) and 215-251 (sendTransaction).
    The HTTP exchange is given as a list of outcomes, one per request.  Waiting times are dropped. *)
From Coq Require Import String Ascii ZArith List Bool.
From Verif Require Import Base M_IntConv GoStr M_Address M_Errors M_Sender.
Import ListNotations.
Open Scope Z_scope.

(** The "result" member when it is to be stored in a string: absent or null (json.Unmarshal of null changes nothing),
    a string, or something else (an error). *)
Inductive rmember := RAbsent | RString (s : list Z) | RWrong.
(** A response body read as JSON into a *Response: no JSON object, the literal null, or the two members used (type.go 18-23). *)
Inductive body := BadJson | NullJson | Members (err : option (Z * list Z)) (res : rmember).
(** What http.Client.Do gives: a *url.Error, or a response with status 200 or not, JSON content type or not, body empty or not. *)
Inductive exchange := NoResponse (refused : bool) | Response (status_ok is_json nonempty : bool) (b : body).

(** An error value; [NilJsonErr] is the interface holding a nil *jsonrpc.Error, which is not a nil error. *)
Inductive send_err := Rpc (e : rpc_err) | NilJsonErr.

(** client.go 45-112, with respPtr a string pointer whose content is [old]: the string afterwards, or the error.
    Line 78 stores a nil response for the body null, and line 82 or 96 then reads a field of it.
    Line 82 converts a *Error to error even when it is nil. *)
Definition Do (old : list Z) (x : exchange) : result (list Z + send_err) :=
  match x with
  | NoResponse refused => Ok (inr (Rpc (UrlErr refused)))
  | Response false is_json nonempty b =>
      if nonempty && is_json then
        match b with
        | BadJson => Ok (inr (Rpc OtherErr))
        | NullJson => Panic
        | Members None _ => Ok (inr NilJsonErr)
        | Members (Some (c, m)) _ => Ok (inr (Rpc (JsonErr c m)))
        end
      else Ok (inr (Rpc HttpErr))
  | Response true _ nonempty b =>
      if nonempty then
        match b with
        | BadJson => Ok (inr (Rpc OtherErr))
        | NullJson => Panic
        | Members (Some (c, m)) _ => Ok (inr (Rpc (JsonErr c m)))
        | Members None RAbsent => Ok (inl old)
        | Members None (RString s) => Ok (inl s)
        | Members None RWrong => Ok (inr (Rpc OtherErr))
        end
      else Ok (inr (Rpc OtherErr))
  end.
(** client/client.go 81-87: the hash the node answers; no hash with an error *)
Definition SendTransaction (x : exchange) : result (list Z + send_err) := Do [] x.

Definition DuplicateTransactionError : Z := 2000.
(** je.Message[1:5] read by strconv.ParseInt(_, 0, 32); Panic when the text is shorter *)
Definition sub_code (msg : list Z) : result (option Z) := if (length msg <? 5)%nat then Panic else Ok (strconv_ParseInt0 (firstn 4 (skipn 1 msg)) 32).

(** What sendTransaction returns. *)
Inductive outcome := Hash (h : list Z) | SignFailed | Failure (m : mapped).
Section SIGN.
Context {T : Type}.
(** sender.go 219, client.go 60-80: what the i-th signing makes of the parameters (the timestamp is taken anew each time) *)
Variable sign : nat -> option T.

(** sender.go 222-249: [cur] is the signed transaction, [i] the number of signings so far; the result is None while
    answers are missing, together with the transactions sent. *)
Fixpoint send_loop (i : nat) (cur : T) (xs : list exchange) : list T * option (result outcome) :=
  match xs with
  | [] => ([], None)
  | x :: r =>
      let go i c := let (ts, o) := send_loop i c r in (cur :: ts, o) in
      let stop o := ([cur], Some o) in
      match SendTransaction x with
      | Ok (inl h) => stop (Ok (Hash h))
      | Ok (inr NilJsonErr) => stop Panic
      | Ok (inr (Rpc e)) =>
          let mapped_err := stop (rbind (MapError (Some e)) (fun m => match m with Some m => Ok (Failure m) | None => Ok (Failure (Raw e)) end)) in
          match e with
          | JsonErr c msg =>
              if c =? JsonrpcTxPoolOverflow then go i cur
              else if c =? JsonrpcSystem then
                match sub_code msg with
                | Ok (Some s) =>
                    if s =? DuplicateTransactionError then stop (Ok (Hash []))  (* thp.Hash has not been set: txh is nil with an error *)
                    else if s =? ExpiredTransactionError then
                      match sign i with Some t => go (S i) t | None => stop (Ok SignFailed) end
                    else mapped_err
                | Ok None => mapped_err
                | _ => stop Panic
                end
              else mapped_err
          | _ => mapped_err
          end
      | _ => stop Panic
      end
  end.
(** sender.go 215-251 *)
Definition sendTransaction (xs : list exchange) : list T * option (result outcome) :=
  match sign 0%nat with None => ([], Some (Ok SignFailed)) | Some t => send_loop 1 t xs end.
End SIGN.

(** client/client.go 132-161, up to the hash; the error is compared with ErrSendFailByOverflow, which SendTransaction never
    returns; line 151 reads through txh, which is nil when there is an error. *)
Definition send_and_get_hash (x : exchange) : result (list Z + send_err) :=
  match SendTransaction x with
  | Ok (inl h) => Ok (inl h)
  | Ok (inr (Rpc (JsonErr c msg))) =>
      if c =? JsonrpcSystem then
        match sub_code msg with
        | Ok (Some s) => if s =? DuplicateTransactionError then Panic else Ok (inr (Rpc (JsonErr c msg)))
        | Ok None => Ok (inr (Rpc (JsonErr c msg)))
        | _ => Panic
        end
      else Ok (inr (Rpc (JsonErr c msg)))
  | Ok (inr NilJsonErr) => Panic
  | r => r
  end.

(** sender.go 91-128: the transactions of one relay message, one after the other, until one fails;
    the number of transactions that went through, and the last hash or the failure *)
Fixpoint relay_all {T} (txs : list (nat -> option T)) (answers : list (list exchange)) : nat * option (result outcome) :=
  match txs, answers with
  | [], _ => (O, Some (Ok (Hash [])))
  | s :: _, [] => (O, snd (sendTransaction s []))
  | s :: r, xs :: ys =>
      match snd (sendTransaction s xs) with
      | Some (Ok (Hash h)) => match r with [] => (1%nat, Some (Ok (Hash h))) | _ => let (k, o) := relay_all r ys in (S k, o) end
      | o => (O, o)
      end
  end.
