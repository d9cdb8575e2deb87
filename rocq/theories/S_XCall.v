(** What a call service has to do, independently of the two implementations: three observers that read a history event
    by event and object to what must not happen. *)
From Coq Require Import String Ascii ZArith List Bool.
From Verif Require Import Base S_Address M_XCall.
Import ListNotations.
Open Scope Z_scope.

(** What differs between the implementations: how addresses and messages are written and read. *)
Record lang := mkLang {
  l_split : list Z -> option (list Z * list Z);        (* a BTP address: network and account *)
  l_wants : option (list Z) -> option (list Z);        (* the rollback data given with a call, if any *)
  l_text : Z -> list Z;                                (* an account as text *)
  l_addr : list Z -> option Z;                         (* an account from its text *)
  l_from : list Z -> list Z -> list Z;                 (* a BTP address from network and account *)
  l_self : list Z;                                     (* the service's own BTP address *)
  l_neg : Z -> Z;                                      (* the number a response is sent under *)
  l_request : csreq -> option (list Z);                (* the bytes of a request and of a response *)
  l_response : csres -> option (list Z);
  l_read_request : list Z -> option csreq;             (* what arriving bytes say *)
  l_read_response : list Z -> option csres;
  l_error : Z -> list Z -> option (list Z) }.          (* the text for a BTP error *)

(** An observer: a state and what it makes of an event; None is an objection. *)
Fixpoint follow {St} (m : St -> event -> option St) (st : St) (l : list event) : option St :=
  match l with [] => Some st | e :: r => match m st e with Some st' => follow m st' r | None => None end end.

Definition opt_bytes_eqb (a b : option (list Z)) : bool :=
  match a, b with Some x, Some y => bytes_eqb x y | None, None => true | _, _ => false end.
Definition pair_eqb (a : option (list Z * list Z)) (n : list Z) (f : list Z -> bool) : bool :=
  match a with Some (net, account) => bytes_eqb net n && f account | None => false end.
Definition is_some {A} (o : option A) : bool := match o with Some _ => true | None => false end.
Definition accept {A} (b : bool) (a : A) : option A := if b then Some a else None.

(** * The call sent as number [sn] *)
Inductive phase :=
| Fresh                                                               (* not sent yet *)
| Sending (caller : Z) (to data : list Z) (rollback : option (list Z)) (* accepted; the message has to be sent *)
| Sent (caller : Z) (to : list Z) (rollback : option (list Z))         (* the message is sent; the caller has to be told the number *)
| OneWay                                                              (* sent without rollback: nothing more happens *)
| Waiting (caller : Z) (data : list Z)                                (* sent with this rollback data *)
| Told (caller : Z) (data : list Z) (code : Z) (msg : list Z)         (* a response came; it has to be announced *)
| Answered (caller : Z) (data : list Z)                               (* a failure is announced; so has the rollback to be *)
| Failed (caller : Z) (data : list Z)                                 (* the rollback may be executed *)
| Rolling (ok : bool)                                                 (* the caller has been called *)
| Closed.

Definition names (sn : Z) (e : event) : bool :=
  match e with
  | ResponseMessage n _ _ | RollbackMessage n | RollbackExecuted n _ _ | CallMessageSent _ _ n _ | OutCall (ForRollback n) _ _ _ _ => n =? sn
  | _ => false
  end.
(** the response an event brings for number [sn] *)
Definition brings (L : lang) (sn : Z) (e : event) : option (Z * list Z) :=
  match e with
  | InMessage _ _ msg =>
      match l_read_response L msg with
      | Some r => if r_sn r =? sn then Some (r_code r, match r_msg r with Some t => t | None => [] end) else None
      | None => None
      end
  | InError _ n code msg => if n =? sn then match l_error L code msg with Some t => Some (-2, t) | None => None end else None
  | _ => None
  end.
Definition outgoing (L : lang) (sn : Z) (st : Z * phase) (e : event) : option (Z * phase) :=
  let (n, p) := st in
  let rest := match e with InSend _ _ _ _ _ _ => Some (n + 1, p) | _ => accept (negb (names sn e)) (n, p) end in
  match p with
  | Fresh => match e with InSend c _ to data rb _ => Some (n + 1, if n + 1 =? sn then Sending c to data rb else Fresh) | _ => rest end
  | Sending c to data rb =>
      match e with
      | OutTransfer _ _ => Some (n, p)
      | OutMessage _ net m b =>
          accept ((m =? (if is_some (l_wants L rb) then sn else 0)) &&
                  pair_eqb (l_split L to) net (fun account =>
                    opt_bytes_eqb (l_request L (mkCsReq (l_text L c) account sn (is_some (l_wants L rb)) (Some data))) (Some b)))
                 (n, Sent c to rb)
      | _ => None
      end
  | Sent c to rb =>
      match e with
      | CallMessageSent c' to' m _ => accept ((c' =? c) && bytes_eqb to' to && (m =? sn)) (n, match l_wants L rb with Some d => Waiting c d | None => OneWay end)
      | _ => None
      end
  | Waiting c d => match brings L sn e with Some (code, t) => Some (n, Told c d code t) | None => rest end
  | Told c d code t =>
      match e with
      | ResponseMessage m code' t' => accept ((m =? sn) && (code' =? code) && bytes_eqb t' t) (n, if code =? 0 then Closed else Answered c d)
      | _ => None
      end
  | Answered c d => match e with RollbackMessage m => accept (m =? sn) (n, Failed c d) | _ => None end
  | Failed c d =>
      match e with
      | OutCall (ForRollback m) a from data ok =>
          if m =? sn then accept ((a =? c) && bytes_eqb from (l_self L) && opt_bytes_eqb data (Some d)) (n, Rolling ok) else Some (n, p)
      | _ => match brings L sn e with Some (code, t) => Some (n, Told c d code t) | None => rest end
      end
  | Rolling ok =>
      match e with
      | RollbackExecuted m code _ => if m =? sn then accept (Bool.eqb (code =? 0) ok) (n, Closed) else Some (n, p)
      | _ => rest
      end
  | OneWay | Closed => rest
  end.
(** nothing is left undone *)
Definition at_rest (p : phase) : Prop :=
  match p with Fresh | OneWay | Waiting _ _ | Failed _ _ | Closed => True | _ => False end.

(** * The call that arrived as number [id] *)
Inductive iphase :=
| INew
| IArrived (net : list Z) (q : csreq)             (* accepted; it has to be announced *)
| IPending (net : list Z) (q : csreq)             (* may be executed *)
| IRunning (net : list Z) (q : csreq) (ok : bool) (* the contract has been called *)
| IOwes (net : list Z) (q : csreq) (code : Z) (msg : list Z)  (* the response has to be sent *)
| IDone.
Definition inames (id : Z) (e : event) : bool :=
  match e with CallMessage _ _ _ n | CallExecuted n _ _ | OutCall (ForCall n) _ _ _ _ => n =? id | _ => false end.
Definition incoming (L : lang) (id : Z) (st : Z * iphase) (e : event) : option (Z * iphase) :=
  let (n, p) := st in
  let arrives := match e with InMessage net _ msg => match l_read_request L msg with Some q => Some (net, q) | None => None end | _ => None end in
  let rest := match arrives with Some _ => Some (n + 1, p) | None => accept (negb (inames id e)) (n, p) end in
  match p with
  | INew => match arrives with Some (net, q) => Some (n + 1, if n + 1 =? id then IArrived net q else INew) | None => rest end
  | IArrived net q =>
      match e with
      | CallMessage from to sn m => accept ((m =? id) && bytes_eqb from (l_from L net (q_from q)) && bytes_eqb to (q_to q) && (sn =? q_sn q)) (n, IPending net q)
      | _ => None
      end
  | IPending net q =>
      match e with
      | OutCall (ForCall m) a from data ok =>
          if m =? id then accept (match l_addr L (q_to q) with Some a' => a =? a' | None => false end &&
                                  bytes_eqb from (l_from L net (q_from q)) && opt_bytes_eqb data (q_data q)) (n, IRunning net q ok) else Some (n, p)
      | CallExecuted m code t =>
          if m =? id then accept (negb (is_some (l_addr L (q_to q))) && negb (code =? 0)) (n, if q_rollback q then IOwes net q code t else IDone) else Some (n, p)
      | _ => rest
      end
  | IRunning net q ok =>
      match e with
      | CallExecuted m code t => if m =? id then accept (Bool.eqb (code =? 0) ok) (n, if q_rollback q then IOwes net q code t else IDone) else Some (n, p)
      | _ => rest
      end
  | IOwes net q code t =>
      match e with
      | OutMessage v net' m b =>
          accept ((v =? 0) && bytes_eqb net' net && (m =? l_neg L (q_sn q)) && opt_bytes_eqb (l_response L (mkCsRes (q_sn q) code (Some t))) (Some b)) (n, IDone)
      | _ => None
      end
  | IDone => rest
  end.
Definition i_at_rest (p : iphase) : Prop := match p with INew | IPending _ _ | IDone => True | _ => False end.

(** * The coins *)
(** the protocol fee, its receiver, the coins kept, and what has to be paid next *)
Inductive due := Nothing | Charge (to fee relays : Z) | Forward (relays : Z) | Sweep (to amount : Z).
Definition purse : Type := (Z * option Z * Z * due)%type.
Definition coins (st : purse) (e : event) : option purse :=
  let '(fee, handler, kept, d) := st in
  match d with
  | Nothing =>
      match e with
      | InSend _ v _ _ _ quoted =>
          accept (fee + quoted <=? v)
            (match handler with
             | Some h => if 0 <? fee then (fee, handler, kept, Charge h fee (v - fee)) else (fee, handler, kept + fee, Forward (v - fee))
             | None => (fee, handler, kept + fee, Forward (v - fee))
             end)
      | InFee v => accept (0 <=? v) (v, handler, kept, Nothing)
      | InHandler (Some h) => Some (fee, Some h, kept, if 0 <? kept then Sweep h kept else Nothing)
      | InHandler None => Some (fee, None, kept, Nothing)
      | OutMessage v _ _ _ => accept (v =? 0) st
      | OutTransfer _ _ => None
      | _ => Some st
      end
  | Charge h f r => match e with OutTransfer to v => accept ((to =? h) && (v =? f)) (fee, handler, kept, Forward r) | _ => None end
  | Forward r => match e with OutMessage v _ _ _ => accept (v =? r) (fee, handler, kept, Nothing) | _ => None end
  | Sweep h a => match e with OutTransfer to v => accept ((to =? h) && (v =? a)) (fee, handler, kept - a, Nothing) | _ => None end
  end.

(** * Transactions as a chain has them *)
(** Senders are no zero addresses, the networks from which the BMC delivers have names without a slash, and errors come
    with numbers of at most 32 bytes and texts of less than 2^31 bytes; so it is with the calls of called contracts. *)
Fixpoint tx_ok (t : tx) : Prop :=
  let all := fix all (l : list tx) : Prop := match l with [] => True | t :: r => tx_ok t /\ all r end in
  match t with
  | Send c _ _ _ _ _ _ _ _ => c <> 0
  | Deliver _ net _ _ _ => free_of (ch "/") net
  | DeliverError _ _ _ sn code msg => Z.abs sn < 2 ^ 256 /\ Z.abs code < 2 ^ 256 /\ bytes_ok msg /\ zlen msg < 2 ^ 31
  | Execute _ inner _ _ => all inner
  | Rollback _ inner _ => all inner
  | _ => True
  end.

(** * The same in plainer words, for a whole history *)
Fixpoint count (f : event -> bool) (l : list event) : Z := match l with [] => 0 | e :: r => (if f e then 1 else 0) + count f r end.
Definition is_send (e : event) : bool := match e with InSend _ _ _ _ _ _ => true | _ => false end.
Definition is_request (L : lang) (e : event) : bool := match e with InMessage _ _ msg => is_some (l_read_request L msg) | _ => false end.
Definition is_rollback_call (sn : Z) (e : event) : bool := match e with OutCall (ForRollback n) _ _ _ _ => n =? sn | _ => false end.
Definition is_call (id : Z) (e : event) : bool := match e with OutCall (ForCall n) _ _ _ _ => n =? id | _ => false end.
Definition is_executed (id : Z) (e : event) : bool := match e with CallExecuted n _ _ => n =? id | _ => false end.
Definition is_rolled_back (sn : Z) (e : event) : bool := match e with RollbackExecuted n _ _ => n =? sn | _ => false end.
(** A rollback for number [sn] is executed at most once.  When it is: the call was the [sn]-th one sent and came with this
    rollback data from this caller; since then a failure was reported for it, and no success. *)
Definition rollbacks_right (L : lang) (sn : Z) (log : list event) : Prop :=
  count (is_rollback_call sn) log <= 1 /\ count (is_rolled_back sn) log <= 1 /\
  forall before after a from data ok, log = before ++ OutCall (ForRollback sn) a from data ok :: after ->
    from = l_self L /\
    exists l1 l2 v to d rb q, before = l1 ++ InSend a v to d rb q :: l2 /\ count is_send l1 = sn - 1 /\ is_some data = true /\ l_wants L rb = data /\
      (exists e code t, In e l2 /\ brings L sn e = Some (code, t) /\ code <> 0) /\
      (forall e t, In e l2 -> brings L sn e = Some (0, t) -> False).
(** The call that arrived as number [id] is executed at most once; the contract called is the one the request names, with
    the request's data and the BTP address of its sender; and what came of it is sent back, if it was asked for, at once. *)
Definition calls_right (L : lang) (id : Z) (log : list event) : Prop :=
  count (is_call id) log <= 1 /\ count (is_executed id) log <= 1 /\
  (forall before after a from data ok, log = before ++ OutCall (ForCall id) a from data ok :: after ->
    exists l1 l2 net n msg q, before = l1 ++ InMessage net n msg :: l2 /\ count (is_request L) l1 = id - 1 /\ l_read_request L msg = Some q /\
      l_addr L (q_to q) = Some a /\ from = l_from L net (q_from q) /\ data = q_data q) /\
  (forall before after code t, log = before ++ CallExecuted id code t :: after ->
    exists l1 l2 net n msg q, before = l1 ++ InMessage net n msg :: l2 /\ count (is_request L) l1 = id - 1 /\ l_read_request L msg = Some q /\
      ((l_addr L (q_to q) = None /\ code <> 0 /\ count (is_call id) log = 0) \/
       exists l3 l4 a from data ok, l2 = l3 ++ OutCall (ForCall id) a from data ok :: l4 /\ (code =? 0) = ok) /\
      (q_rollback q = true -> exists b rest, after = OutMessage 0 net (l_neg L (q_sn q)) b :: rest /\ l_response L (mkCsRes (q_sn q) code (Some t)) = Some b)).
(** Coins that came in, and coins that went out. *)
Fixpoint received (l : list event) : Z := match l with [] => 0 | InSend _ v _ _ _ _ :: r => v + received r | _ :: r => received r end.
Fixpoint spent (l : list event) : Z := match l with [] => 0 | OutMessage v _ _ _ :: r => v + spent r | OutTransfer _ v :: r => v + spent r | _ :: r => spent r end.

(** * Who may change the settings *)
(** The owner does not set the admin in [t], nor the admin ([boss]) the fee or its receiver; nor do they while called. *)
Fixpoint hands_off (owner boss : Z) (t : tx) : Prop :=
  let all := fix all (l : list tx) : Prop := match l with [] => True | t :: r => hands_off owner boss t /\ all r end in
  match t with
  | SetAdmin c _ => c <> owner
  | SetHandler c _ _ | SetFee c _ => c <> boss
  | Execute _ inner _ _ | Rollback _ inner _ => all inner
  | _ => True
  end.
Definition settings (s : xstate) : option Z * Z * option Z := (x_admin s, x_fee s, x_handler s).
(** numbers of calls start with one *)
Definition from_one (e : event) : Prop :=
  match e with
  | OutCall (ForCall n) _ _ _ _ | OutCall (ForRollback n) _ _ _ _ | CallMessage _ _ _ n | CallExecuted n _ _ | CallMessageSent _ _ n _ | RollbackMessage n | RollbackExecuted n _ _ => 1 <= n
  | _ => True
  end.
