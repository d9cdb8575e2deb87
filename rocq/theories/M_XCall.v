(** What the two implementations of the call service (xcall) have in common: the stored records, what happens in a
    history, and the transactions.  javascore/xcall (foundation.icon.btp.xcall) and solidity/xcall/contracts. *)
From Coq Require Import String Ascii ZArith List Bool.
From Verif Require Import Base.
Import ListNotations.
Open Scope Z_scope.

(** CallRequest.java 23-34, Types.sol 14-19 CallRequest (whose rollback data is never null) *)
Record creq := mkCReq { cr_from : Z; cr_to : list Z; cr_rollback : option (list Z); cr_enabled : bool }.
(** CSMessageRequest.java 26-39, Types.sol 26-32 CSMessageRequest (whose data is never null) *)
Record csreq := mkCsReq { q_from : list Z; q_to : list Z; q_sn : Z; q_rollback : bool; q_data : option (list Z) }.
(** CSMessageResponse.java 31-39, Types.sol 38-42 CSMessageResponse (whose text is never null) *)
Record csres := mkCsRes { r_sn : Z; r_code : Z; r_msg : option (list Z) }.
(** CSMessage.java 25-26, Types.sol 11-12; CSMessageResponse.java 27-29, Types.sol 34-36 *)
Definition CS_REQUEST : Z := 1.
Definition CS_RESPONSE : Z := 2.
Definition CS_SUCCESS : Z := 0.
Definition CS_FAILURE : Z := -1.
Definition CS_BTP_ERROR : Z := -2.
(** CallService.java NAME, Types.sol 9; CallServiceImpl.java 36-37, CallService.sol 31-32 *)
Definition NAME : list Z := str "xcall".
Definition MAX_DATA_SIZE : Z := 2048.
Definition MAX_ROLLBACK_SIZE : Z := 1024.

(** What a call of a contract's handleCallMessage is made for. *)
Inductive purpose := ForCall (reqId : Z) | ForRollback (sn : Z).
(** What is seen of a history: accepted calls of the service, its calls of others, and its event logs. *)
Inductive event :=
| InSend (caller value : Z) (to data : list Z) (rollback : option (list Z)) (quoted : Z)  (* sendCallMessage; the fee the BMC quotes *)
| InMessage (net : list Z) (sn : Z) (msg : list Z)                                     (* handleBTPMessage *)
| InError (net : list Z) (sn code : Z) (msg : list Z)                                  (* handleBTPError *)
| InHandler (h : option Z) | InFee (v : Z)                                             (* setProtocolFeeHandler, setProtocolFee *)
| OutMessage (value : Z) (net : list Z) (sn : Z) (bytes : list Z)                      (* sendMessage of the BMC *)
| OutTransfer (to amount : Z)
| OutCall (p : purpose) (addr : Z) (from : list Z) (data : option (list Z)) (ok : bool) (* handleCallMessage of a contract *)
| CallMessageSent (caller : Z) (to : list Z) (sn nsn : Z)
| CallMessage (from to : list Z) (sn reqId : Z)
| CallExecuted (reqId code : Z) (msg : list Z)
| ResponseMessage (sn code : Z) (msg : list Z)
| RollbackMessage (sn : Z)
| RollbackExecuted (sn code : Z) (msg : list Z).

(** CallServiceImpl.java 39-50, CallService.sol 33-44.  A handler or admin that is null or the zero address is None. *)
Record xstate := mkX { x_sn : Z; x_reqId : Z; x_requests : list (Z * creq); x_proxy : list (Z * csreq);
                       x_fee : Z; x_handler : option Z; x_admin : option Z; x_bal : Z; x_log : list event }.
(** a service just deployed *)
Definition x_init : xstate := mkX 0 0 [] [] 0 None None 0 [].

(** DictDB and mapping *)
Fixpoint get {A} (k : Z) (l : list (Z * A)) : option A :=
  match l with [] => None | (k', a) :: r => if k =? k' then Some a else get k r end.
Fixpoint del {A} (k : Z) (l : list (Z * A)) : list (Z * A) :=
  match l with [] => [] | (k', a) :: r => if k =? k' then del k r else (k', a) :: del k r end.
Definition put {A} (k : Z) (a : A) (l : list (Z * A)) : list (Z * A) := (k, a) :: del k l.

Definition emit (s : xstate) (es : list event) : xstate :=
  mkX (x_sn s) (x_reqId s) (x_requests s) (x_proxy s) (x_fee s) (x_handler s) (x_admin s) (x_bal s) (x_log s ++ es).
Definition with_sn (s : xstate) (n : Z) : xstate :=
  mkX n (x_reqId s) (x_requests s) (x_proxy s) (x_fee s) (x_handler s) (x_admin s) (x_bal s) (x_log s).
Definition with_reqId (s : xstate) (n : Z) : xstate :=
  mkX (x_sn s) n (x_requests s) (x_proxy s) (x_fee s) (x_handler s) (x_admin s) (x_bal s) (x_log s).
Definition with_requests (s : xstate) (l : list (Z * creq)) : xstate :=
  mkX (x_sn s) (x_reqId s) l (x_proxy s) (x_fee s) (x_handler s) (x_admin s) (x_bal s) (x_log s).
Definition with_proxy (s : xstate) (l : list (Z * csreq)) : xstate :=
  mkX (x_sn s) (x_reqId s) (x_requests s) l (x_fee s) (x_handler s) (x_admin s) (x_bal s) (x_log s).
Definition with_fee (s : xstate) (v : Z) : xstate :=
  mkX (x_sn s) (x_reqId s) (x_requests s) (x_proxy s) v (x_handler s) (x_admin s) (x_bal s) (x_log s).
Definition with_handler (s : xstate) (h : option Z) : xstate :=
  mkX (x_sn s) (x_reqId s) (x_requests s) (x_proxy s) (x_fee s) h (x_admin s) (x_bal s) (x_log s).
Definition with_admin (s : xstate) (a : option Z) : xstate :=
  mkX (x_sn s) (x_reqId s) (x_requests s) (x_proxy s) (x_fee s) (x_handler s) a (x_bal s) (x_log s).
Definition with_bal (s : xstate) (b : Z) : xstate :=
  mkX (x_sn s) (x_reqId s) (x_requests s) (x_proxy s) (x_fee s) (x_handler s) (x_admin s) b (x_log s).

(** How a called contract ends: normally; reverting with a number (Java: UserRevertedException); reverting with a text
    (Java: RevertedException; Solidity: Error(string)); in another way. *)
Inductive outcome := Returned | RevUser (code : Z) | RevText (text : list Z) | RevOther.

(** The transactions and calls the service may receive, with what others answer in the course of it: the fee the BMC
    quotes, whether the receiver of a transfer takes it, and what the BMC's sendMessage returns (None: it reverts).
    [inner] are the calls which the called contract makes in turn, before it ends. *)
Inductive tx :=
| Send (caller : Z) (contract : bool) (value : Z) (to data : list Z) (rollback : option (list Z)) (quoted : option Z) (taken : bool) (nsn : option Z)
| Execute (reqId : Z) (inner : list tx) (out : outcome) (nsn : option Z)
| Rollback (sn : Z) (inner : list tx) (out : outcome)
| Deliver (caller : Z) (net svc : list Z) (sn : Z) (msg : list Z)
| DeliverError (caller : Z) (net svc : list Z) (sn code : Z) (msg : list Z)
| SetAdmin (caller : Z) (a : option Z)
| SetHandler (caller : Z) (a : option Z) (taken : bool)
| SetFee (caller : Z) (v : Z).

(** the constants of a deployed service: the BMC, the owner, the service's own BTP address *)
Record xcfg := mkCfg { c_bmc : Z; c_owner : Z; c_self : list Z }.

(** decimal digits of a number that is not negative *)
Fixpoint dec_loop (fuel : nat) (n : Z) (acc : list Z) : list Z :=
  match fuel with
  | O => acc
  | S f => let acc := 48 + n mod 10 :: acc in if n <? 10 then acc else dec_loop f (n / 10) acc
  end.
Definition dec_text (n : Z) : list Z := dec_loop (S (Z.to_nat (Z.log2 n))) n [].

(** A transfer of coins: the balance must suffice and the receiver must take it. *)
Definition transfer (s : xstate) (to amount : Z) (taken : bool) : option xstate :=
  if (amount <=? x_bal s) && taken then Some (emit (with_bal s (x_bal s - amount)) [OutTransfer to amount]) else None.
(** sendMessage of the BMC with some coins; what it returns *)
Definition bmc_send (s : xstate) (value : Z) (net : list Z) (sn : Z) (bytes : list Z) (nsn : option Z) : option (xstate * Z) :=
  if value <=? x_bal s then
    match nsn with
    | Some n => Some (emit (with_bal s (x_bal s - value)) [OutMessage value net sn bytes], n)
    | None => None
    end
  else None.
