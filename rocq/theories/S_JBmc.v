(** What the message center should guarantee, in terms of what it puts out. *)
From Coq Require Import String Ascii ZArith List Bool.
From Verif Require Import Base M_JMap M_JBmc.
Import ListNotations.
Open Scope Z_scope.

(** from, from+1, ... *)
Fixpoint zseq (from : Z) (n : nat) : list Z := match n with O => [] | S n' => from :: zseq (from + 1) n' end.

(** The sequence numbers of the messages sent to a neighbour, in order. *)
Fixpoint sent_to (a : addr) (os : list out) : list Z :=
  match os with
  | [] => []
  | OSent b _ n _ :: r => if addr_eqb a b then n :: sent_to a r else sent_to a r
  | _ :: r => sent_to a r
  end.
(** The network serial numbers of the messages this network started, in order. *)
Fixpoint started (os : list out) : list Z :=
  match os with
  | [] => []
  | OEvent _ n _ SEND :: r => n :: started r
  | _ :: r => started r
  end.

(** The events that end the handling of an incoming message. *)
Definition is_fate (o : out) : bool := match o with OEvent _ _ _ (RECEIVE | ROUTE | ERROR | DROP) => true | _ => false end.
(** How a message is named in events: a message under way by its source and number, one on its way back (negative
    number) by the network and number it answers. *)
Definition msg_id (m : msg) : Z * Z := if m_nsn m <? 0 then (m_dst m, - m_nsn m) else (m_src m, m_nsn m).

(** A message as it travels on: the first entry of its fee list has been paid to the relay that delivered it. *)
Definition paid (m : msg) : msg := with_fee m (match m_fee m with Some (Fee n (_ :: vs)) => Some (Fee n vs) | f => f end).
(** What is put out for one incoming message. *)
Inductive segment (own : Z) (prev : addr) (seq : Z) (m : msg) : list out -> Prop :=
| sg_receive : forall new, own = m_dst m -> filter is_fate new = [] ->
    segment own prev seq m (new ++ [OEvent (fst (msg_id m)) (snd (msg_id m)) None RECEIVE])
| sg_route : forall next nid n, own <> m_dst m ->
    segment own prev seq m [OSent next nid n m; OEvent (fst (msg_id m)) (snd (msg_id m)) (Some next) ROUTE]
| sg_error : forall nid n code f, 0 < m_sn m ->
    segment own prev seq m [OSent prev nid n (Msg own (m_src m) (m_svc m) (- m_sn m) (PError code) (- m_nsn m) f); OEvent (fst (msg_id m)) (snd (msg_id m)) (Some prev) ERROR]
| sg_drop : forall code, segment own prev seq m [OEvent (fst (msg_id m)) (snd (msg_id m)) None DROP; ODropped prev seq m code].
(** What is put out for the messages of one relay message, in their order. *)
Fixpoint handled (own : Z) (prev : addr) (rx : Z) (ms : list msg) (new : list out) : Prop :=
  match ms with
  | [] => new = []
  | m :: ms' => exists seg rest, new = seg ++ rest /\ segment own prev (rx + 1) (paid m) seg /\ handled own prev (rx + 1) ms' rest
  end.

(** Which neighbour a message for a network is given to: the network itself if it is a neighbour, else the one an
    owner has set, else one that has announced it. *)
Definition neighbour (s : st) (n : Z) (a : addr) : Prop := exists l, aget Z.eqb n (s_links s) = Some l /\ l_addr l = a.
Inductive leads (s : st) (net : Z) : addr -> Prop :=
| ld_link : forall a, neighbour s net a -> leads s net a
| ld_route : forall via a, aget Z.eqb net (s_links s) = None -> aget Z.eqb net (s_routes s) = Some via -> neighbour s via a -> leads s net a
| ld_reach : forall n l b, aget Z.eqb net (s_links s) = None -> aget Z.eqb net (s_routes s) = None -> In (n, l) (s_links s) ->
    In b (l_reach l) -> a_net b = net -> leads s net (l_addr l).
(** What a service is told about a message. *)
Definition told (m : msg) : option bshcall :=
  if 0 <=? m_sn m then Some (BMessage (m_src m) (m_svc m) (m_sn m) (m_pay m))
  else match m_pay m with PError code => Some (BError (m_src m) (m_svc m) (- m_sn m) code) | _ => None end.
(** The last thing put out. *)
Definition ends_with (s : st) (o : out) : Prop := exists before, s_out s = before ++ [o].

(** Answers to requests: replies of services and error messages; requests are named by events. *)
Definition answer (id : Z * Z) (o : out) : Z := match o with OEvent x n _ (REPLY | ERROR) => if zz_eqb (x, n) id then 1 else 0 | _ => 0 end.
Fixpoint answers (id : Z * Z) (os : list out) : Z := match os with [] => 0 | o :: r => answer id o + answers id r end.
Definition is_request (id : Z * Z) (m : msg) : Z := if (0 <? m_sn m) && zz_eqb (msg_id m) id then 1 else 0.
Fixpoint requests (id : Z * Z) (ms : list msg) : Z := match ms with [] => 0 | m :: r => is_request id m + requests id r end.
(** The messages that come in with a call: those the verifier returns, or the one an owner drops. *)
Definition incoming (verify : nat -> Z -> addr -> Z -> list Z -> option (list (option msg))) (s : st) (o : op) : list msg :=
  match o with
  | HandleRelay _ prev b =>
      match getLink s prev, aget Z.eqb (a_net prev) (s_verifiers s) with
      | Some l, Some v => match verify (length (s_out s)) v prev (l_rx l) b with
                          | Some oms => flat_map (fun x => match x with Some m => [m] | None => [] end) oms
                          | None => []
                          end
      | _, _ => []
      end
  | DropMessage _ src _ svc sn nsn f => [Msg src NO_NET svc sn (PBytes []) nsn f]
  | _ => []
  end.

(** Fees and rewards in the coin of network [n]. *)
Definition fee_in (n : Z) (f : option fee) : Z := match f with Some (Fee k vs) => if k =? n then sum vs else 0 | None => 0 end.
Definition wtotal {A} (w : A -> Z) (l : list A) : Z := fold_right (fun x a => w x + a) 0 l.
(** What the message center owes: rewards that can be claimed, fees kept for answers, claims not settled. *)
Definition owed (n : Z) (s : st) : Z :=
  wtotal (fun x => if snd (fst x) =? n then snd x else 0) (s_rewards s) +
  wtotal (fun x => fee_in n (r_fee (snd x))) (s_resp s) +
  wtotal (fun x => if q_dst (snd x) =? n then q_amount (snd x) else 0) (s_requests s).
(** Fees that travel on with the messages put out; coins transferred to claimants; coins paid in. *)
Definition fees_out (n : Z) (os : list out) : Z := wtotal (fun o => match o with OSent _ _ _ m => fee_in n (m_fee m) | _ => 0 end) os.
Definition coins_out (os : list out) : Z := wtotal (fun o => match o with OTransfer _ a => a | _ => 0 end) os.
Definition coins_in (os : list out) : Z := wtotal (fun o => match o with OPaid a => a | _ => 0 end) os.
(** Messages for this network that are no requests and were dropped. *)
Definition dropped_here (own n : Z) (os : list out) : Z :=
  wtotal (fun o => match o with ODropped _ _ m _ => if (own =? m_dst m) && (m_sn m <=? 0) then fee_in n (m_fee m) else 0 | _ => 0 end) os.
(** Claims the other side has confirmed. *)
Definition settled (n : Z) (os : list out) : Z := wtotal (fun o => match o with OClaimResult _ k _ r => if (k =? n) && (r =? CODE_SUCCESS) then 1 else 0 | _ => 0 end) os.
(** What a message brings in: its fees, and for this network's coin the amount it claims here. *)
Definition claim_in (own n : Z) (m : msg) : Z :=
  if (own =? n) && (own =? m_dst m) && (m_svc m =? INTERNAL) && (0 <=? m_sn m) then match m_pay m with PClaim a (Some _) => a | _ => 0 end else 0.
Definition brings (own n : Z) (m : msg) : Z := fee_in n (m_fee m) + claim_in own n m.
(** A message as message centers make them: no negative fees; a claim is a request whose two numbers agree. *)
Definition nonneg_fee (f : option fee) : Prop := match f with Some (Fee _ vs) => Forall (fun v => 0 <= v) vs | None => True end.
Definition genuine (m : msg) : Prop :=
  nonneg_fee (m_fee m) /\ (m_svc m = INTERNAL -> match m_pay m with PClaim a _ => 0 <= a /\ 0 < m_sn m /\ m_sn m = m_nsn m /\ m_fee m <> None | _ => True end).
(** Calls that do not give money away: see the findings. *)
Definition op_ok (own : Z) (o : op) : Prop :=
  match o with
  | SendMessage _ _ _ _ _ v => 0 <= v
  | ClaimReward _ net _ v => 0 <= v /\ (net = own -> v = 0)
  | DropMessage _ _ _ _ sn _ f => sn <= 0 -> match f with Some (Fee _ (_ :: _ :: _)) => False | _ => True end
  | _ => True
  end.

(** Who called, who may administer, and what is administered. *)
Definition caller_of (o : op) : Z :=
  match o with
  | HandleRelay c _ _ | SendMessage c _ _ _ _ _ | ClaimReward c _ _ _ | AddVerifier c _ _ | RemoveVerifier c _ | AddService c _ _ | RemoveService c _ | AddLink c _ | RemoveLink c _
  | AddRoute c _ _ | RemoveRoute c _ | SetFeeTable c _ | SetFeeHandler c _ | AddRelay c _ _ | RemoveRelay c _ _ | AddOwner c _ | RemoveOwner c _ | AddBTPLink c _ _ | SetBTPLink c _ _
  | DropMessage c _ _ _ _ _ _ => c
  end.
Definition may_administer (deployer : Z) (s : st) (c : Z) : Prop := c = deployer \/ In c (s_owners s).
Definition same_administration (s s' : st) : Prop :=
  s_owners s' = s_owners s /\ s_verifiers s' = s_verifiers s /\ s_services s' = s_services s /\ s_routes s' = s_routes s /\ s_relays s' = s_relays s /\
  s_netids s' = s_netids s /\ s_offsets s' = s_offsets s /\ s_fees s' = s_fees s /\ s_handler s' = s_handler s /\
  forall n, option_map l_addr (aget Z.eqb n (s_links s')) = option_map l_addr (aget Z.eqb n (s_links s)).
(** Whose rewards a caller claims: the fee handler those of the message center, anyone else their own. *)
Definition claims_for (self : Z) (s : st) (c x : Z) : Prop := (s_handler s = Some c /\ x = self) \/ (s_handler s <> Some c /\ x = c).
Record in_order (own deployer : Z) (s : st) : Prop := InOrder {
  io_routes : forall dst via, In (dst, via) (s_routes s) -> exists l, aget Z.eqb via (s_links s) = Some l;
  io_links : aget Z.eqb own (s_links s) = None;
  io_verifiers : aget Z.eqb own (s_verifiers s) = None;
  io_services : aget Z.eqb INTERNAL (s_services s) = None;
  io_owners : NoDup (deployer :: s_owners s);
  io_relays : forall a, NoDup (s_relays s a) }.

(** What a message to [to] costs: the whole list of the network for a request, its first half for a message that needs
    no answer (rounded down), nothing if the network has no list. *)
Definition costs (table : list (Z * list Z)) (to sn : Z) (vals : list Z) : Prop :=
  (forall vs, aget Z.eqb to table = Some vs -> exists back, vs = vals ++ back /\
     (sn = 0 -> (length vals <= length back <= S (length vals))%nat) /\ (sn <> 0 -> back = [])) /\
  (aget Z.eqb to table = None -> vals = []).
