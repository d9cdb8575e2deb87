(** What the message center for the EVM should guarantee, in terms of what it puts out. *)
From Coq Require Import String Ascii ZArith List Bool.
From Verif Require Import Base M_SolRlp M_BtpAddr M_JMap M_SBmc.
From Verif Require S_JBmc.
Import ListNotations.
Open Scope Z_scope.

(** from, from+1, ... *)
Notation zseq := S_JBmc.zseq.
(** The three contracts do not call from outside. *)
Definition outside (self mgmt svcaddr : Z) (ops : list op) : Prop :=
  Forall (fun o => caller_of o <> self /\ caller_of o <> mgmt /\ caller_of o <> svcaddr) ops.

(** The sequence numbers of the messages sent to a neighbour, in order. *)
Fixpoint sent_to (k : text) (os : list out) : list Z :=
  match os with
  | [] => []
  | OSent b n _ :: r => if bytes_eqb k b then n :: sent_to k r else sent_to k r
  | _ :: r => sent_to k r
  end.
(** The network serial numbers of the messages this network started, in order. *)
Fixpoint started (os : list out) : list Z :=
  match os with
  | [] => []
  | OEvent _ n _ SEND :: r => n :: started r
  | _ :: r => started r
  end.
Definition removes (o : op) (k : text) : Prop := exists c, o = RemoveLink c k.

(** The events that end the handling of an incoming message. *)
Definition is_fate (o : out) : bool := match o with OEvent _ _ _ (RECEIVE | ROUTE | ERROR | DROP) => true | _ => false end.
(** How a message is named in events: a message under way by its source and number, one on its way back (negative
    number) by the network and number it answers. *)
Definition msg_id (m : msg) : text * Z := if m_nsn m <? 0 then (m_dst m, - m_nsn m) else (m_src m, m_nsn m).

(** A message as it travels on: the first entry of its fee list has been paid to the relay that delivered it. *)
Definition paid (m : msg) : msg := with_fee m (Fee (f_net (m_fee m)) (tl (f_vals (m_fee m)))).
(** A fee list in another order. *)
Definition reordered (f g : fee) : Prop := f_net f = f_net g /\ (forall v, count_occ Z.eq_dec (f_vals f) v = count_occ Z.eq_dec (f_vals g) v).
(** What is put out when a message is not handled: a request is answered with the error, anything else is dropped, its fee kept. *)
Inductive refused (own prev : text) (seq : Z) (m : msg) (code : Z) (reason : text) : list out -> Prop :=
| rf_answer : forall n b f, 0 < m_sn m -> encodeResponseMessage code reason = Some b -> reordered f (m_fee m) ->
    let a := Msg own (m_src m) (m_svc m) (- m_sn m) b (- m_nsn m) f in
    refused own prev seq m code reason [OSent prev n a; OEvent (fst (msg_id a)) (snd (msg_id a)) prev ERROR]
| rf_drop : m_sn m <= 0 -> refused own prev seq m code reason
    [OEvent (fst (msg_id m)) (snd (msg_id m)) [] DROP; ODropped prev seq (with_fee m (Fee (f_net (m_fee m)) [])) code reason].
(** What is put out for one incoming message. *)
Inductive segment (own prev : text) (seq : Z) (m : msg) : list out -> Prop :=
| sg_receive : forall new, own = m_dst m -> filter is_fate new = [] ->
    segment own prev seq m (new ++ [OEvent (fst (msg_id m)) (snd (msg_id m)) [] RECEIVE])
| sg_route : forall next n, own <> m_dst m ->
    segment own prev seq m [OSent next n m; OEvent (fst (msg_id m)) (snd (msg_id m)) next ROUTE]
| sg_refused : forall code reason new, 1 <= code <= 4 -> refused own prev seq m code reason new -> segment own prev seq m new.
(** What is put out for the messages of one relay message, in their order. *)
Fixpoint handled (own prev : text) (rx : Z) (ms : list msg) (new : list out) : Prop :=
  match ms with
  | [] => new = []
  | m :: ms' => exists seg rest, new = seg ++ rest /\ segment own prev (rx + 1) (paid m) seg /\ handled own prev (rx + 1) ms' rest
  end.

(** What a service is told about a message. *)
Definition told (junk : list Z -> mem) (m : msg) (c : bshcall) : Prop :=
  (0 <= m_sn m /\ c = BMessage (m_src m) (m_svc m) (m_sn m) (m_body m)) \/
  (m_sn m < 0 /\ exists code t, decodeResponseMessage junk (m_body m) = Some (code, t) /\ c = BError (m_src m) (m_svc m) (- m_sn m) code t).
(** The ways a message for a service of this network, or for another network, is handled. *)
Section Outcome.
Context (own : text) (self mgmt svcaddr : Z) (junk : list Z -> mem) (serve : nat -> Z -> bshcall -> action).
Inductive outcome (s : st) (prev : text) (seq : Z) (m : msg) : list out -> Prop :=
| oc_route : forall next n, own <> m_dst m -> r_type (route_of (s_m s) (m_dst m)) <> TNone -> next = r_next (route_of (s_m s) (m_dst m)) ->
    outcome s prev seq m [OSent next n m; OEvent (fst (msg_id m)) (snd (msg_id m)) next ROUTE]
| oc_unreachable : forall new, own <> m_dst m -> r_type (route_of (s_m s) (m_dst m)) = TNone -> refused own prev seq m 2 (str "21:Unreachable") new -> outcome s prev seq m new
| oc_no_service : forall new, own = m_dst m -> m_svc m <> str "bmc" -> h_of (s_m s) (m_svc m) = 0 -> refused own prev seq m 3 (str "16:NotExistsBSH") new -> outcome s prev seq m new
| oc_unparsable : forall new, own = m_dst m -> m_sn m < 0 -> decodeResponseMessage junk (m_body m) = None -> h_of (s_m s) (m_svc m) <> 0 -> refused own prev seq m 1 (str "10:ParseFailure") new -> outcome s prev seq m new
| oc_reverts : forall c reason new, own = m_dst m -> m_svc m <> str "bmc" -> h_of (s_m s) (m_svc m) <> 0 -> told junk m c -> serve (length (s_out s)) (h_of (s_m s) (m_svc m)) c = Reverts reason ->
    refused own prev seq m 4 reason new -> outcome s prev seq m new
| oc_fails : forall c cs reason new, own = m_dst m -> m_svc m <> str "bmc" -> h_of (s_m s) (m_svc m) <> 0 -> told junk m c -> serve (length (s_out s)) (h_of (s_m s) (m_svc m)) c = Calls cs reason ->
    run_calls own self svcaddr s (h_of (s_m s) (m_svc m)) cs = None -> refused own prev seq m 4 reason new -> outcome s prev seq m new
| oc_received : forall c cs reason s1 new, own = m_dst m -> m_svc m <> str "bmc" -> h_of (s_m s) (m_svc m) <> 0 -> told junk m c -> serve (length (s_out s)) (h_of (s_m s) (m_svc m)) c = Calls cs reason ->
    run_calls own self svcaddr s (h_of (s_m s) (m_svc m)) cs = Some s1 -> s_out s1 = s_out s ++ new ->
    outcome s prev seq m (new ++ [OEvent (fst (msg_id m)) (snd (msg_id m)) [] RECEIVE]).
End Outcome.

(** A message whose numbers, fees and sizes are nothing out of the ordinary. *)
Definition short (t : text) : Prop := zlen t < 2 ^ 28.
Definition ordinary (m : msg) : Prop :=
  short (m_src m) /\ short (m_dst m) /\ short (m_svc m) /\ short (m_body m) /\ short (f_net (m_fee m)) /\ zlen (f_vals (m_fee m)) < 2 ^ 20 /\
  - 2 ^ 127 < m_sn m < 2 ^ 127 /\ - 2 ^ 127 < m_nsn m < 2 ^ 127 /\ Forall (fun v => 0 <= v < 2 ^ 128 - 1) (f_vals (m_fee m)).
Definition total (vs : list Z) : Z := fold_right Z.add 0 vs.
(** Rewards leave room for the fees of the message, and of the request with the same number before it. *)
Definition room (x : ser) (a : Z) (m : msg) (old : fee) : Prop :=
  getReward x (f_net (m_fee m)) a + total (f_vals (m_fee m)) + total (f_vals old) < 2 ^ 256 /\ getReward x (f_net old) a + total (f_vals (m_fee m)) + total (f_vals old) < 2 ^ 256.

(** * Answers to requests *)
(** The answers, replies and errors, to the message with a network and serial number. *)
Definition answers (net : text) (n : Z) (os : list out) : nat :=
  length (filter (fun o => match o with OEvent a k _ (REPLY | ERROR) => bytes_eqb a net && (k =? n) | _ => false end) os).
(** Requests with the network and number that still wait for their service to answer. *)
Definition waiting (net : text) (n : Z) (x : ser) : nat :=
  length (filter (fun kv => bytes_eqb (fst (fst (fst kv))) net && (p_nsn (snd kv) =? n)) (responses x)).
(** A request: a message that wants an answer. *)
Definition asks (net : text) (n : Z) (m : msg) : bool := bytes_eqb (m_src m) net && (m_nsn m =? n) && (0 <? m_sn m).
(** The messages a transaction takes in: those a relay delivers, as the verifier has them, and the one an owner drops. *)
Section Taken.
Context (junk : list Z -> mem) (verify : nat -> Z -> text -> Z -> list Z -> option (list (list Z))).
Definition taken (s : st) (o : op) : list msg :=
  match o with
  | HandleRelay _ prev b =>
      match networkAddress prev with
      | Some net => match verify (length (s_out s)) (v_of (s_m s) net) prev (rx_of (s_p s) prev) b with
                    | Some bs => flat_map (fun b => match decodeBTPMessage junk b with Some m => [m] | None => [] end) bs
                    | None => [] end
      | None => []
      end
  | DropMessage _ src _ svc sn nsn fnet fvals => [Msg src [] svc sn [] nsn (Fee fnet fvals)]
  | _ => []
  end.
End Taken.

(** * Money *)
Definition sum {A} (f : A -> Z) (l : list A) : Z := fold_right (fun a t => f a + t) 0 l.
Definition only (b : bool) (v : Z) : Z := if b then v else 0.
(** What the message center owes in the coins of a network: rewards, fees kept for answers, and claims under way. *)
Definition owed (n : text) (x : ser) : Z :=
  sum (fun kv => only (bytes_eqb (snd (fst kv)) n) (snd kv)) (rewards x) +
  sum (fun kv => only (bytes_eqb (f_net (p_fee (snd kv))) n) (total (f_vals (p_fee (snd kv))))) (responses x) +
  sum (fun kv => only (bytes_eqb (q_dst (snd kv)) n) (q_amount (snd kv))) (requests x).
Definition fee_in (n : text) (m : msg) : Z := only (bytes_eqb (f_net (m_fee m)) n) (total (f_vals (m_fee m))).
(** Fees that come with messages, and leave with them. *)
Definition fees_in (n : text) (ms : list msg) : Z := sum (fee_in n) ms.
Definition fees_out (n : text) (os : list out) : Z := sum (fun o => match o with OSent _ _ m => fee_in n m | _ => 0 end) os.
(** Coins of this network that come with calls, and are paid out. *)
Definition coins_in (os : list out) : Z := sum (fun o => match o with OPaid v => v | _ => 0 end) os.
Definition coins_out (os : list out) : Z := sum (fun o => match o with OTransfer _ v => v | _ => 0 end) os.
(** Claims made in other networks: messages for this network that say so. *)
Definition claim_in (own : text) (junk : list Z -> mem) (m : msg) : Z :=
  if bytes_eqb (m_dst m) own && (0 <=? m_sn m) then
    match decodeBMCMessage junk (m_body m) with
    | Some (t, p) => if bytes_eqb t (str "Claim") then match decodeResponseMessage junk p with Some (amount, _) => amount | None => 0 end else 0
    | None => 0
    end
  else 0.
Definition claims_in (own : text) (junk : list Z -> mem) (ms : list msg) : Z := sum (claim_in own junk) ms.
(** A claim of coins of a network is done with: paid out there. *)
Definition settled (n : text) (os : list out) : bool := existsb (fun o => match o with OClaimResult _ net _ r => bytes_eqb net n && (r =? 0) | _ => false end) os.
(** Bytes in calls are bytes and numbers unsigned. *)
Definition unsigned (o : op) : Prop :=
  match o with
  | HandleRelay _ _ b => bytes_ok b
  | SendMessage _ v _ _ _ _ | ClaimReward _ v _ _ | Deposit _ v => 0 <= v
  | SetFeeTable _ l => Forall (fun e => Forall (fun v => 0 <= v) (snd e)) l
  | DropMessage _ _ _ _ _ _ _ vs => Forall (fun v => 0 <= v) vs
  | _ => True
  end.
(** Coins for nothing: deposits, and coins sent along with a claim of this network's own coins. *)
Definition given (own : text) (o : op) : Z := match o with Deposit _ v => v | ClaimReward _ v net _ => only (bytes_eqb own net) v | _ => 0 end.
