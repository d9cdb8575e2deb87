(** Model of the message center for the EVM: solidity/bmc/contracts BMCManagement.sol, BMCPeriphery.sol, BMCService.sol and
    the libraries for its messages.  A revert is [None]; a call to another contract that is tried and fails is undone.
    Texts are lists of bytes; texts are compared by their bytes, the contracts compare their keccak256.
    The three contracts are taken to be wired together, once and for all: setBMCPeriphery and setBMCService are left out.
    Counters that go up by one do not overflow.  Gas is not modelled.  Verifiers, services and receivers of coins are
    parameters that may answer differently each time (their first argument is the length of the output so far);
    a service may call sendMessage while it handles a message, nothing else. *)
From Coq Require Import String Ascii ZArith List Bool.
From Verif Require Import Base GoStr M_SolRlp M_BtpAddr M_Bridge M_JMap.
From Verif Require M_SolCall.
Import ListNotations.
Open Scope Z_scope.

Definition text := list Z.
(** checked negation of int256 *)
Definition cneg (z : Z) : option Z := if z =? - 2 ^ 255 then None else Some (- z).
Definition uint256 (z : Z) : Z := z mod 2 ^ 256.

(** * Messages (Types.sol 67-81) *)
Record fee := Fee { f_net : text; f_vals : list Z }.
Record msg := Msg { m_src : text; m_dst : text; m_svc : text; m_sn : Z; m_body : list Z; m_nsn : Z; m_fee : fee }.
Definition with_fee (m : msg) (f : fee) : msg := Msg (m_src m) (m_dst m) (m_svc m) (m_sn m) (m_body m) (m_nsn m) f.
(** RLPEncodeStruct.sol 18-33; addLength 119-135 is that of the call service *)
Definition listed := M_SolCall.listed.
Fixpoint encodeUints (l : list Z) : option (list Z) :=
  match l with [] => Some [] | v :: r => sbind (encodeUint v) (fun b => sbind (encodeUints r) (fun c => Some (b ++ c))) end.
Definition encodeFeeInfo (f : fee) : option (list Z) :=
  sbind (encodeUints (f_vals f)) (fun vs => sbind (listed vs) (fun l => listed (encodeString (f_net f) ++ l))).
(** RLPEncodeStruct.sol 35-45 *)
Definition encodeBMCMessage (type : text) (payload : list Z) : option (list Z) := listed (encodeString type ++ encodeBytes payload).
(** RLPEncodeStruct.sol 47-63 *)
Definition encodeBTPMessage (m : msg) : option (list Z) :=
  sbind (encodeInt (m_sn m)) (fun n => sbind (encodeInt (m_nsn m)) (fun k => sbind (encodeFeeInfo (m_fee m)) (fun f =>
  listed (encodeString (m_src m) ++ encodeString (m_dst m) ++ encodeString (m_svc m) ++ n ++ encodeBytes (m_body m) ++ k ++ f)))).
(** RLPEncodeStruct.sol 65-76 *)
Definition encodeResponseMessage (code : Z) (t : text) : option (list Z) := sbind (encodeUint code) (fun c => listed (c ++ encodeString t)).
(** RLPEncodeStruct.sol 78-89 *)
Definition encodeInitMessage (l : list text) : option (list Z) := sbind (listed (concat (map encodeString l))) listed.
(** RLPEncodeStruct.sol 91-98 *)
Definition encodePropagateMessage (t : text) : option (list Z) := listed (encodeString t).
(** RLPEncodeStruct.sol 100-110 *)
Definition encodeClaimMessage (amount : Z) (receiver : text) : option (list Z) := sbind (encodeUint amount) (fun a => listed (a ++ encodeString receiver)).

Section Read.
Variable junk : list Z -> mem.
Definition item_at {A} (ls : list sitem) (i : nat) (f : sitem -> option A) : option A := sbind (at_index ls i) f.
(** RLPDecodeStruct.sol 18-36 *)
Definition decodeFeeInfo (it : sitem) : option fee :=
  if isNull it then Some (Fee [] [])
  else sbind (toList it) (fun ls => sbind (item_at ls 1 toList) (fun vs => sbind (map_opt toUint vs) (fun vals =>
       sbind (item_at ls 0 toBytes) (fun n => Some (Fee n vals))))).
(** RLPDecodeStruct.sol 46-57 *)
Definition decodeBMCMessage (b : list Z) : option (text * list Z) :=
  sbind (list_of junk b) (fun ls => sbind (item_at ls 0 toBytes) (fun t => sbind (item_at ls 1 toBytes) (fun p => Some (t, p)))).
(** RLPDecodeStruct.sol 59-66 *)
Definition decodePropagateMessage (b : list Z) : option text := sbind (list_of junk b) (fun ls => item_at ls 0 toBytes).
(** RLPDecodeStruct.sol 68-78 *)
Definition decodeInitMessage (b : list Z) : option (list text) :=
  sbind (list_of junk b) (fun ls => sbind (item_at ls 0 toList) (fun ts => map_opt toBytes ts)).
(** RLPDecodeStruct.sol 80-96 *)
Definition decodeBTPMessage (b : list Z) : option msg :=
  sbind (list_of junk b) (fun ls =>
  sbind (item_at ls 0 toBytes) (fun src => sbind (item_at ls 1 toBytes) (fun dst => sbind (item_at ls 2 toBytes) (fun svc =>
  sbind (item_at ls 3 toInt) (fun sn => sbind (item_at ls 4 toBytes) (fun body => sbind (item_at ls 5 toInt) (fun nsn =>
  sbind (item_at ls 6 decodeFeeInfo) (fun f => Some (Msg src dst svc sn body nsn f))))))))).
(** RLPDecodeStruct.sol 98-114 *)
Definition decodeResponseMessage (b : list Z) : option (Z * text) :=
  sbind (list_of junk b) (fun ls => sbind (item_at ls 0 toUint) (fun c => sbind (item_at ls 1 toBytes) (fun t => Some (c, t)))).
Definition decodeClaimMessage (b : list Z) : option (Z * text) := decodeResponseMessage b.
End Read.

(** * Constants (Types.sol 7-31, Errors.sol) *)
Definition BMC_SERVICE : text := str "bmc".
Definition ECODE_NONE := 0.
Definition ECODE_UNKNOWN := 1.
Definition ECODE_NO_ROUTE := 2.
Definition ECODE_NO_BSH := 3.
Definition ECODE_BSH_REVERT := 4.
Inductive rtype := TNone | TLink | TReachable | TManual.
Definition rtype_eqb (a b : rtype) : bool :=
  match a, b with TNone, TNone | TLink, TLink | TReachable, TReachable | TManual, TManual => true | _, _ => false end.
Inductive ev := SEND | ROUTE | REPLY | ERROR | RECEIVE | DROP.
(** What the contracts put out, in order: the events Message (the bytes are [encodeBTPMessage m]), BTPEvent, MessageDropped,
    ClaimReward and ClaimRewardResult; transfers of coins; and the coins that come in with a call that succeeds. *)
Inductive out :=
| OSent (next : text) (seq : Z) (m : msg)
| OEvent (src : text) (nsn : Z) (next : text) (e : ev)
| ODropped (prev : text) (seq : Z) (m : msg) (code : Z) (reason : text)
| OTransfer (to amount : Z)
| OPaid (amount : Z)
| OClaim (sender : Z) (net receiver : text) (amount nsn : Z)
| OClaimResult (sender : Z) (net : text) (nsn result : Z).

(** * Storage *)
(** Types.sol 48-58 (the destination in RouteInfo is the key); a text of no bytes stands in a place that was never written *)
Record route := Route { r_next : text; r_reach : Z; r_type : rtype }.
Definition no_route : route := Route [] 0 TNone.
Record lnk := Lnk { l_addr : text; l_reach : list text }.
Definition no_link : lnk := Lnk [] [].
(** Types.sol 93-108 (the number in Request is the key) *)
Record resp := Resp { p_nsn : Z; p_fee : fee }.
Record request := Request { q_dst : text; q_caller : Z; q_amount : Z }.
(** BMCManagement.sol 31-44 *)
Record man := Man {
  o_is : Z -> bool; o_count : Z; v_of : text -> Z; v_keys : list text; h_of : text -> Z; h_keys : list text;
  link_of : text -> lnk; links : list text; relays_of : text -> list Z; route_of : text -> route; routes : list text; fees_of : text -> list Z;
  fee_handler : Z }.
(** BMCPeriphery.sol 36-38 *)
Record per := Per { tx_of : text -> Z; rx_of : text -> Z; nsn_of : Z }.
(** BMCService.sol 37-39 *)
Record ser := Ser { responses : list ((text * text * Z) * resp); requests : list (Z * request); rewards : list ((Z * text) * Z) }.
Record st := St { s_m : man; s_p : per; s_s : ser; s_out : list out }.
Definition with_m (s : st) (m : man) : st := St m (s_p s) (s_s s) (s_out s).
Definition with_p (s : st) (p : per) : st := St (s_m s) p (s_s s) (s_out s).
Definition with_s (s : st) (x : ser) : st := St (s_m s) (s_p s) x (s_out s).
Definition emit (s : st) (o : out) : st := St (s_m s) (s_p s) (s_s s) (s_out s ++ [o]).
Definition tset {A} (f : text -> A) (k : text) (v : A) : text -> A := fun x => if bytes_eqb x k then v else f x.
Definition set_links (m : man) (f : text -> lnk) (l : list text) : man :=
  Man (o_is m) (o_count m) (v_of m) (v_keys m) (h_of m) (h_keys m) f l (relays_of m) (route_of m) (routes m) (fees_of m) (fee_handler m).
Definition set_routes (m : man) (f : text -> route) (l : list text) : man :=
  Man (o_is m) (o_count m) (v_of m) (v_keys m) (h_of m) (h_keys m) (link_of m) (links m) (relays_of m) f l (fees_of m) (fee_handler m).
Definition set_relays (m : man) (f : text -> list Z) : man :=
  Man (o_is m) (o_count m) (v_of m) (v_keys m) (h_of m) (h_keys m) (link_of m) (links m) f (route_of m) (routes m) (fees_of m) (fee_handler m).
Definition set_fees (m : man) (f : text -> list Z) : man :=
  Man (o_is m) (o_count m) (v_of m) (v_keys m) (h_of m) (h_keys m) (link_of m) (links m) (relays_of m) (route_of m) (routes m) f (fee_handler m).
Definition set_owners (m : man) (f : Z -> bool) (n : Z) : man :=
  Man f n (v_of m) (v_keys m) (h_of m) (h_keys m) (link_of m) (links m) (relays_of m) (route_of m) (routes m) (fees_of m) (fee_handler m).
Definition set_verifiers (m : man) (f : text -> Z) (l : list text) : man :=
  Man (o_is m) (o_count m) f l (h_of m) (h_keys m) (link_of m) (links m) (relays_of m) (route_of m) (routes m) (fees_of m) (fee_handler m).
Definition set_services (m : man) (f : text -> Z) (l : list text) : man :=
  Man (o_is m) (o_count m) (v_of m) (v_keys m) f l (link_of m) (links m) (relays_of m) (route_of m) (routes m) (fees_of m) (fee_handler m).
Definition set_handler (m : man) (a : Z) : man :=
  Man (o_is m) (o_count m) (v_of m) (v_keys m) (h_of m) (h_keys m) (link_of m) (links m) (relays_of m) (route_of m) (routes m) (fees_of m) a.

(** Utils.sol 9-21, 32-43: the last entry takes the place of the first that equals; of nothing, [arr.length - 1] reverts *)
Fixpoint swap_out {A} (eqb : A -> A -> bool) (x : A) (l : list A) : list A :=
  match l with
  | [] => []
  | y :: r => if eqb y x then match r with [] => [] | z :: _ => last r z :: removelast r end else y :: swap_out eqb x r
  end.
Definition removeFrom {A} (eqb : A -> A -> bool) (l : list A) (x : A) : option (list A) := match l with [] => None | _ => Some (swap_out eqb x l) end.
(** Utils.sol 77-83 *)
Fixpoint sumFrom (acc : Z) (l : list Z) : option Z := match l with [] => Some acc | v :: r => sbind (cadd acc v) (fun a => sumFrom a r) end.
Definition sumFromUints := sumFrom 0.

(** * BMCManagement.sol: reading *)
(** 533-539, 556-562, 573-577, 579-583 *)
Definition existsService (m : man) (svc : text) : bool := negb (h_of m svc =? 0).
Definition existsVerifier (m : man) (net : text) : bool := negb (v_of m net =? 0).
Definition isLink (m : man) (link : text) : bool := match l_addr (link_of m link) with [] => false | _ => true end.
Definition existsLink (m : man) (net : text) : bool := rtype_eqb (r_type (route_of m net)) TLink.
(** 541-548, 564-571 *)
Definition getService (m : man) (svc : text) : option Z := sbind (require (existsService m svc)) (fun _ => Some (h_of m svc)).
Definition getVerifier (m : man) (net : text) : option Z := sbind (require (existsVerifier m net)) (fun _ => Some (v_of m net)).
(** 585-593 *)
Definition isLinkRelay (m : man) (link : text) (a : Z) : option bool :=
  sbind (require (isLink m link)) (fun _ => Some (existsb (fun x => x =? a) (relays_of m link))).
(** 595-612 *)
Definition resolveNext (m : man) (dst : text) : option text :=
  if rtype_eqb (r_type (route_of m dst)) TNone then None else Some (r_next (route_of m dst)).
(** 460-480 *)
Definition m_getFee (m : man) (to : text) (response : bool) : option (Z * list Z) :=
  let vs := if response then fees_of m to else firstn (Nat.div (length (fees_of m to)) 2) (fees_of m to) in
  sbind (sumFromUints vs) (fun t => Some (t, vs)).
(** 632-638 *)
Definition getHop (m : man) (dst : text) : nat := Nat.div (length (fees_of m dst)) 2.

(** * BMCManagement.sol: routes *)
Definition set_route (m : man) (dst : text) (r : route) : man := set_routes m (tset (route_of m) dst r) (routes m).
(** 325-340 *)
Definition addRouteInfo (m : man) (dst link : text) (t : rtype) : man :=
  let m := if rtype_eqb (r_type (route_of m dst)) TNone
           then set_routes m (tset (route_of m) dst (Route link 0 t)) (routes m ++ [dst]) else m in
  let r := route_of m dst in
  match t with
  | TReachable => set_route m dst (Route (r_next r) (r_reach r + 1) (r_type r))
  | TManual => set_route m dst (Route link (r_reach r) TManual)
  | _ => m
  end.
(** 356-369: the first link one of whose reachable addresses is of the network; an address that is none reverts *)
Fixpoint reaches (l : list text) (dst : text) : option bool :=
  match l with [] => Some false | a :: r => sbind (networkAddress a) (fun n => if bytes_eqb n dst then Some true else reaches r dst) end.
Fixpoint resolveIn (m : man) (l : list text) (dst : text) : option text :=
  match l with [] => None | k :: r => sbind (reaches (l_reach (link_of m k)) dst) (fun b => if b then Some k else resolveIn m r dst) end.
Definition resolveNextInReachable (m : man) (dst : text) : option text := resolveIn m (links m) dst.
(** 413-419 *)
Definition removeFee (m : man) (dst : text) : man := set_fees m (tset (fees_of m) dst []).
(** 371-391; [by_]: the link by which it is no longer reachable, None if [reachable] is false *)
Definition removeRouteInfo (m : man) (dst : text) (by_ : option text) : option man :=
  sbind (match by_ with
         | None => Some m
         | Some _ => let r := route_of m dst in sbind (csub (r_reach r) 1) (fun n => Some (set_route m dst (Route (r_next r) n (r_type r))))
         end) (fun m =>
  let r := route_of m dst in
  if 0 <? r_reach r then
    sbind (if match by_ with None => true | Some link => bytes_eqb (r_next r) link end
           then sbind (resolveNextInReachable m dst) (fun n => Some (set_route m dst (Route n (r_reach r) (r_type r)))) else Some m) (fun m =>
    Some (match by_ with None => let r := route_of m dst in set_route m dst (Route (r_next r) (r_reach r) TReachable) | Some _ => m end))
  else
    sbind (removeFrom bytes_eqb (routes m) dst) (fun l => Some (removeFee (set_routes m (tset (route_of m) dst no_route) l) dst))).
(** 614-621, after the check of the caller *)
Definition addReachable (m : man) (from a : text) : option man :=
  let k := r_next (route_of m from) in
  let m := set_links m (tset (link_of m) k (Lnk (l_addr (link_of m k)) (l_reach (link_of m k) ++ [a]))) (links m) in
  sbind (networkAddress a) (fun net => Some (addRouteInfo m net k TReachable)).
(** 623-630 *)
Definition removeReachable (m : man) (from a : text) : option man :=
  let k := r_next (route_of m from) in
  sbind (removeFrom bytes_eqb (l_reach (link_of m k)) a) (fun l =>
  let m := set_links m (tset (link_of m) k (Lnk (l_addr (link_of m k)) l)) (links m) in
  sbind (networkAddress a) (fun net => removeRouteInfo m net (Some k))).

Section BMC.
(** the network; the addresses of the periphery, of the management and of the service contract *)
Variable own : text.
Variables self mgmt svcaddr : Z.
Variable junk : list Z -> mem.
(** handleRelayMessage of the verifier at an address: None if it reverts *)
Variable verify : nat -> Z -> text -> Z -> list Z -> option (list (list Z)).
(** what a service does when called: there is no contract; it reverts; or it calls sendMessage, each time perhaps with
    value and perhaps with its failure caught, and reverts with the reason if a failure is not caught *)
Record scall := SCall { c_to : text; c_svc : text; c_sn : Z; c_body : list Z; c_value : Z; c_catch : bool }.
Inductive action := NoCode | Reverts (reason : text) | Calls (l : list scall) (reason : text).
Inductive bshcall := BMessage (src svc : text) (sn : Z) (b : list Z) | BError (src svc : text) (sn code : Z) (t : text).
Variable serve : nat -> Z -> bshcall -> action.
(** the reasons the message center's own contracts give when they revert *)
Variable blame : nat -> text.
(** whether a transfer of coins goes well *)
Variable accepts : nat -> Z -> Z -> bool.

(** * BMCService.sol: fees and rewards *)
Definition rkey_eqb (a b : Z * text) : bool := (fst a =? fst b) && bytes_eqb (snd a) (snd b).
(** 113-118 *)
Definition getReward (x : ser) (net : text) (a : Z) : Z := match aget rkey_eqb (a, net) (rewards x) with Some v => v | None => 0 end.
(** 93-101 *)
Definition addReward (x : ser) (net : text) (a amount : Z) : option ser :=
  if 0 <? amount then sbind (cadd (getReward x net a) amount) (fun v => Some (Ser (responses x) (requests x) (aput rkey_eqb (a, net) v (rewards x)))) else Some x.
(** 103-111 *)
Definition collectRemainFee (x : ser) (f : fee) : option (ser * fee) :=
  sbind (sumFromUints (f_vals f)) (fun t => sbind (addReward x (f_net f) self t) (fun x => Some (x, Fee (f_net f) []))).
(** 120-129, after the check of the caller *)
Definition clearReward (x : ser) (net : text) (a : Z) : option (ser * Z) :=
  let v := getReward x net a in
  sbind (require (0 <? v)) (fun _ => Some (Ser (responses x) (requests x) (aput rkey_eqb (a, net) 0 (rewards x)), v)).
(** 131-147 *)
Definition accumulateFee (x : ser) (a : Z) (f : fee) : option (ser * fee) :=
  match f_vals f with [] => Some (x, f) | v :: r => sbind (addReward x (f_net f) a v) (fun x => Some (x, Fee (f_net f) r)) end.
Definition pkey_eqb (a b : text * text * Z) : bool := bytes_eqb (fst (fst a)) (fst (fst b)) && bytes_eqb (snd (fst a)) (snd (fst b)) && (snd a =? snd b).
Definition no_resp : resp := Resp 0 (Fee [] []).
Definition response_at (x : ser) (k : text * text * Z) : resp := match aget pkey_eqb k (responses x) with Some r => r | None => no_resp end.
(** 149-169 *)
Definition handleFee (x : ser) (a : Z) (b : list Z) : option (ser * msg) :=
  sbind (decodeBTPMessage junk b) (fun m =>
  sbind (accumulateFee x a (m_fee m)) (fun y => let (x, f) := y in
  let m := with_fee m f in
  if bytes_eqb (m_dst m) own then
    if 0 <? m_sn m then
      let k := (m_src m, m_svc m, m_sn m) in
      sbind (collectRemainFee x (p_fee (response_at x k))) (fun y =>
      let x := fst y in
      Some (Ser (aput pkey_eqb k (Resp (m_nsn m) (m_fee m)) (responses x)) (requests x) (rewards x), m))
    else sbind (collectRemainFee x (m_fee m)) (fun y => Some (fst y, with_fee m (snd y)))
  else Some (x, m))).
(** 171-196: the way back has [hop] fees, which stand last *)
Definition handleErrorFee (g : man) (x : ser) (src : text) (sn : Z) (f : fee) : option (ser * fee) :=
  if 0 <? sn then
    let hop := getHop g src in
    if ((0 <? hop) && (hop <? length (f_vals f)))%nat
    then let remain := (length (f_vals f) - hop)%nat in Some (x, Fee (f_net f) (skipn remain (f_vals f) ++ firstn remain (f_vals f)))
    else Some (x, f)
  else collectRemainFee x f.
(** 217-239 *)
Definition addRequest (x : ser) (nsn : Z) (q : request) : ser := Ser (responses x) (aput Z.eqb nsn q (requests x)) (rewards x).
Definition removeResponse (x : ser) (to svc : text) (sn : Z) : option (ser * resp) :=
  let r := response_at x (to, svc, sn) in
  sbind (require (0 <? p_nsn r)) (fun _ => Some (Ser (adel pkey_eqb (to, svc, sn) (responses x)) (requests x) (rewards x), r)).

(** * BMCPeriphery.sol: sending *)
(** 338-348 *)
Definition event (s : st) (m : msg) (next : text) (e : ev) : option st :=
  if m_nsn m <? 0 then sbind (cneg (m_nsn m)) (fun n => Some (emit s (OEvent (m_dst m) n next e)))
  else Some (emit s (OEvent (m_src m) (m_nsn m) next e)).
(** 200-208 *)
Definition send (s : st) (next : text) (m : msg) (e : ev) : option st :=
  sbind (encodeBTPMessage m) (fun _ =>
  let p := s_p s in
  let seq := tx_of p next + 1 in
  event (emit (with_p s (Per (tset (tx_of p) next seq) (rx_of p) (nsn_of p))) (OSent next seq m)) m next e).
(** 210-238 *)
Definition sendError (s : st) (prev : text) (seq : Z) (m : msg) (code : Z) (reason : text) : option st :=
  sbind (handleErrorFee (s_m s) (s_s s) (m_src m) (m_sn m) (m_fee m)) (fun y =>
  let s := with_s s (fst y) in
  let m := with_fee m (snd y) in
  if 0 <? m_sn m then
    sbind (cneg (m_sn m)) (fun sn => sbind (cneg (m_nsn m)) (fun nsn => sbind (encodeResponseMessage code reason) (fun b =>
    send s prev (Msg own (m_src m) (m_svc m) sn b nsn (m_fee m)) ERROR)))
  else
    sbind (event s m [] DROP) (fun s => sbind (encodeBTPMessage m) (fun _ => Some (emit s (ODropped prev seq m code reason))))).
(** 260-267 *)
Definition collectOverFee (s : st) (amount : Z) : option st :=
  if 0 <? amount then sbind (addReward (s_s s) own self amount) (fun x => Some (with_s s x)) else Some s.
Definition next_nsn (s : st) : st := with_p s (Per (tx_of (s_p s)) (rx_of (s_p s)) (nsn_of (s_p s) + 1)).
(** 269-274 and 283-326; [internal]: the caller is the service contract; [fill]: fillSnByNsn *)
Definition sendWithFee (s : st) (internal : bool) (value : Z) (to svc : text) (sn : Z) (b : list Z) (response fill : bool) : option (st * Z) :=
  sbind (resolveNext (s_m s) to) (fun next =>
  if response then
    sbind (removeResponse (s_s s) to svc sn) (fun y =>
    sbind (collectOverFee (with_s s (fst y)) value) (fun s =>
    sbind (cneg (p_nsn (snd y))) (fun nsn =>
    sbind (send s next (Msg own to svc 0 b nsn (p_fee (snd y))) REPLY) (fun s => Some (s, nsn)))))
  else
    let s := next_nsn s in
    let nsn := nsn_of (s_p s) in
    let sn' := if fill then nsn else sn in
    if internal then sbind (send s next (Msg own to svc sn' b nsn (Fee own [])) SEND) (fun s => Some (s, nsn))
    else
      sbind (m_getFee (s_m s) to (0 <? sn)) (fun y =>
      sbind (require (fst y <=? value)) (fun _ =>
      sbind (collectOverFee s (value - fst y)) (fun s =>
      sbind (send s next (Msg own to svc sn' b nsn (Fee own (snd y))) SEND) (fun s => Some (s, nsn)))))).
(** 240-258 *)
Definition sendMessage (s : st) (caller value : Z) (to svc : text) (sn : Z) (b : list Z) : option (st * Z) :=
  let internal := caller =? svcaddr in
  sbind (if internal then Some tt else sbind (getService (s_m s) svc) (fun a => require (a =? caller))) (fun _ =>
  sbind (if sn <? 0 then sbind (cneg sn) (fun n => sendWithFee s internal value to svc n b true false)
         else sendWithFee s internal value to svc sn b false false) (fun y =>
  Some (emit (fst y) (OPaid value), snd y))).

(** * BMCService.sol: internal messages *)
(** 241-253: a request with the number 0 is none *)
Definition handleResponse (s : st) (nsn result : Z) : option st :=
  match aget Z.eqb nsn (requests (s_s s)) with
  | None => None
  | Some q =>
      sbind (require (0 <? nsn)) (fun _ =>
      let x := Ser (responses (s_s s)) (adel Z.eqb nsn (requests (s_s s))) (rewards (s_s s)) in
      sbind (if result =? ECODE_NONE then Some x else addReward x (q_dst q) (q_caller q) (q_amount q)) (fun x =>
      Some (emit (with_s s x) (OClaimResult (q_caller q) (q_dst q) nsn result))))
  end.
Fixpoint addReachables (m : man) (from : text) (l : list text) : option man :=
  match l with [] => Some m | a :: r => sbind (addReachable m from a) (fun m => addReachables m from r) end.
(** 255-294; [sn] is unsigned *)
Definition internalMessage (s : st) (from : text) (sn : Z) (b : list Z) : option st :=
  sbind (decodeBMCMessage junk b) (fun y => let (type, p) := y in
  if bytes_eqb type (str "Claim") then
    sbind (decodeClaimMessage junk p) (fun c =>
    sbind (parseAddress (snd c)) (fun r =>
    sbind (addReward (s_s s) own r (fst c)) (fun x =>
    sbind (cneg (int256 sn)) (fun n =>
    sbind (encodeResponseMessage 0 []) (fun e => sbind (encodeBMCMessage (str "Response") e) (fun e =>
    sbind (sendMessage (with_s s x) svcaddr 0 from BMC_SERVICE n e) (fun z => Some (fst z))))))))
  else if bytes_eqb type (str "Response") then sbind (decodeResponseMessage junk p) (fun c => handleResponse s (int256 sn) (fst c))
  else if bytes_eqb type (str "Link") then
    sbind (decodePropagateMessage junk p) (fun a => sbind (addReachable (s_m s) from a) (fun m => Some (with_m s m)))
  else if bytes_eqb type (str "Unlink") then
    sbind (decodePropagateMessage junk p) (fun a => sbind (removeReachable (s_m s) from a) (fun m => Some (with_m s m)))
  else if bytes_eqb type (str "Init") then
    sbind (decodeInitMessage junk p) (fun l => sbind (addReachables (s_m s) from l) (fun m => Some (with_m s m)))
  else None).
(** 296-305 *)
Definition internalError (s : st) (sn code : Z) : option st := handleResponse s (int256 sn) code.

(** * Calls of services *)
Fixpoint run_calls (s : st) (a : Z) (cs : list scall) : option st :=
  match cs with
  | [] => Some s
  | c :: cs' =>
      match sendMessage s a (c_value c) (c_to c) (c_svc c) (c_sn c) (c_body c) with
      | Some (s', _) => run_calls s' a cs'
      | None => if c_catch c then run_calls s a cs' else None
      end
  end.
(** None: no contract there, which the caller does not catch; inr: reverted, with a reason.  The management and the
    periphery have no such methods. *)
Definition call_service (s : st) (a : Z) (c : bshcall) : option (st + text) :=
  if a =? svcaddr then
    Some (match (match c with BMessage src _ sn b => internalMessage s src sn b | BError _ _ sn code _ => internalError s sn code end) with
          | Some s' => inl s' | None => inr (blame (length (s_out s))) end)
  else if (a =? self) || (a =? mgmt) then Some (inr [])
  else match serve (length (s_out s)) a c with
       | NoCode => None
       | Reverts reason => Some (inr reason)
       | Calls cs reason => Some (match run_calls s a cs with Some s' => inl s' | None => inr reason end)
       end.
(** Errors.sol 12, 17, 18, 26 *)
Definition NOT_EXISTS_BSH : text := str "16:NotExistsBSH".
Definition UNREACHABLE : text := str "21:Unreachable".
Definition PARSE_FAILURE : text := str "10:ParseFailure".
Definition DROPPED : text := str "22:Drop".
(** BMCPeriphery.sol 134-198: the state after, and the error code with a reason (code 0: none) *)
Definition handleMessage (s : st) (m : msg) : option (st * (Z * text)) :=
  let internal := bytes_eqb (m_svc m) BMC_SERVICE in
  let fault := if internal then ECODE_UNKNOWN else ECODE_BSH_REVERT in
  sbind (if internal then (if (0 <=? m_sn m) && (m_nsn m <? 0) then cneg (m_nsn m) else Some (m_nsn m)) else Some (m_sn m)) (fun sn =>
  match (if internal then Some svcaddr else getService (s_m s) (m_svc m)) with
  | None => Some (s, (ECODE_NO_BSH, NOT_EXISTS_BSH))
  | Some a =>
      let call c := sbind (call_service s a c) (fun r => Some (match r with inl s' => (s', (ECODE_NONE, [])) | inr reason => (s, (fault, reason)) end)) in
      if 0 <=? m_sn m then call (BMessage (m_src m) (m_svc m) (uint256 sn) (m_body m))
      else match decodeResponseMessage junk (m_body m) with
           | None => Some (s, (ECODE_UNKNOWN, PARSE_FAILURE))
           | Some (code, t) => sbind (cneg sn) (fun n => call (BError (m_src m) (m_svc m) (uint256 n) code t))
           end
  end).
(** BMCPeriphery.sol 109-129: one message whose fee has been handled *)
Definition dispatch (s : st) (prev : text) (seq : Z) (m : msg) : option st :=
  if bytes_eqb (m_dst m) own then
    sbind (handleMessage s m) (fun y => let (s, e) := y in
    if fst e =? ECODE_NONE then event s m [] RECEIVE
    else
      sbind (if 0 <? m_sn m then sbind (removeResponse (s_s s) (m_src m) (m_svc m) (m_sn m)) (fun y => Some (with_s s (fst y))) else Some s) (fun s =>
      sendError s prev seq m (fst e) (snd e)))
  else match resolveNext (s_m s) (m_dst m) with
       | Some next => send s next m ROUTE
       | None => sendError s prev seq m ECODE_NO_ROUTE UNREACHABLE
       end.
(** BMCPeriphery.sol 97-130 *)
Fixpoint dispatch_all (s : st) (caller : Z) (prev : text) (rx : Z) (bs : list (list Z)) : option st :=
  match bs with
  | [] => Some s
  | b :: bs' =>
      sbind (handleFee (s_s s) caller b) (fun y =>
      sbind (dispatch (with_s s (fst y)) prev (rx + 1) (snd y)) (fun s => dispatch_all s caller prev (rx + 1) bs'))
  end.
Definition set_rx (s : st) (k : text) (v : Z) : st := with_p s (Per (tx_of (s_p s)) (tset (rx_of (s_p s)) k v) (nsn_of (s_p s))).
(** BMCPeriphery.sol 76-132 *)
Definition handleRelay (s : st) (caller : Z) (prev : text) (bytes : list Z) : option st :=
  sbind (networkAddress prev) (fun net =>
  let rx := rx_of (s_p s) prev in
  sbind (getVerifier (s_m s) net) (fun v =>
  sbind (verify (length (s_out s)) v prev rx bytes) (fun bs =>
  sbind (isLinkRelay (s_m s) prev caller) (fun b => sbind (require b) (fun _ =>
  sbind (dispatch_all s caller prev rx bs) (fun s => Some (set_rx s prev (rx_of (s_p s) prev + zlen bs)))))))).

(** * BMCPeriphery.sol: claims, internal messages, drops *)
(** 365-381 *)
Definition sendInternal (s : st) (next : text) (b : list Z) : option st :=
  sbind (networkAddress next) (fun net =>
  let s := next_nsn s in send s next (Msg own net BMC_SERVICE 0 b (nsn_of (s_p s)) (Fee own [])) SEND).
(** 383-399 *)
Definition p_dropMessage (s : st) (prev : text) (seq : Z) (m : msg) : option st :=
  sbind (require (seq =? rx_of (s_p s) prev + 1)) (fun _ =>
  sendError (set_rx s prev (rx_of (s_p s) prev + 1)) prev seq m ECODE_UNKNOWN DROPPED).
(** 401-407 *)
Definition clearSeq (s : st) (link : text) : st := with_p s (Per (tset (tx_of (s_p s)) link 0) (tset (rx_of (s_p s)) link 0) (nsn_of (s_p s))).
(** 430-459 *)
Definition claimReward (s : st) (who value : Z) (net receiver : text) : option st :=
  let sender := if who =? fee_handler (s_m s) then self else who in
  sbind (clearReward (s_s s) net sender) (fun y =>
  let s := with_s s (fst y) in let reward := snd y in
  if bytes_eqb own net then
    sbind (parseAddress receiver) (fun r =>
    sbind (require (accepts (length (s_out s)) r reward)) (fun _ =>
    Some (emit (emit (emit s (OPaid value)) (OTransfer r reward)) (OClaim sender net receiver reward 0))))
  else
    sbind (encodeClaimMessage reward receiver) (fun c => sbind (encodeBMCMessage (str "Claim") c) (fun b =>
    sbind (sendWithFee s (who =? svcaddr) value net BMC_SERVICE 0 b false true) (fun z => let (s, nsn) := z in
    let s := with_s s (addRequest (s_s s) nsn (Request net sender reward)) in
    Some (emit (emit s (OPaid value)) (OClaim sender net receiver reward nsn)))))).

(** * BMCManagement.sol: administration *)
(** 277-290 *)
Fixpoint propagate (s : st) (l : list text) (b : list Z) : option st :=
  match l with [] => Some s | k :: r => sbind (sendInternal s k b) (fun s => propagate s r b) end.
(** 216-236 *)
Definition addLink (s : st) (link : text) : option st :=
  sbind (networkAddress link) (fun net =>
  sbind (require (negb (existsLink (s_m s) net))) (fun _ => sbind (require (existsVerifier (s_m s) net)) (fun _ =>
  sbind (encodePropagateMessage link) (fun p => sbind (encodeBMCMessage (str "Link") p) (fun b =>
  sbind (propagate s (links (s_m s)) b) (fun s =>
  sbind (encodeInitMessage (links (s_m s))) (fun i => sbind (encodeBMCMessage (str "Init") i) (fun b =>
  let m := set_links (s_m s) (tset (link_of (s_m s)) link (Lnk link [])) (links (s_m s) ++ [link]) in
  sendInternal (with_m s (addRouteInfo m net link TLink)) link b)))))))).
Fixpoint removeReached (m : man) (link : text) (l : list text) : option man :=
  match l with [] => Some m | a :: r => sbind (networkAddress a) (fun n => sbind (removeRouteInfo m n (Some link)) (fun m => removeReached m link r)) end.
(** 238-268 *)
Definition removeLink (s : st) (link : text) : option st :=
  let m := s_m s in
  sbind (require (isLink m link)) (fun _ =>
  sbind (require (negb (existsb (fun d => rtype_eqb (r_type (route_of m d)) TManual && bytes_eqb (r_next (route_of m d)) link) (routes m)))) (fun _ =>
  sbind (networkAddress link) (fun net =>
  sbind (removeRouteInfo m net None) (fun m =>
  sbind (removeFrom bytes_eqb (links m) link) (fun l =>
  let m := set_links m (link_of m) l in
  sbind (removeReached m link (l_reach (link_of m link))) (fun m =>
  let m := set_links m (tset (link_of m) link no_link) (links m) in
  let s := clearSeq (with_m s m) link in
  let m := set_relays (s_m s) (tset (relays_of (s_m s)) link []) in
  sbind (encodePropagateMessage link) (fun p => sbind (encodeBMCMessage (str "Unlink") p) (fun b =>
  propagate (with_m s m) (links m) b)))))))).
(** 421-443; a number of 256 bits is never negative *)
Fixpoint setFeeTable (m : man) (l : list (text * list Z)) : option man :=
  match l with
  | [] => Some m
  | (dst, vs) :: r =>
      match vs with
      | [] => setFeeTable (removeFee m dst) r
      | _ =>
          sbind (require (Nat.even (length vs))) (fun _ =>
          sbind (if (length vs =? 2)%nat then require (existsLink m dst) else sbind (resolveNext m dst) (fun _ => Some tt)) (fun _ =>
          setFeeTable (set_fees m (tset (fees_of m) dst vs)) r))
      end
  end.
(** 496-525 *)
Definition dropMessage (s : st) (src : text) (seq : Z) (svc : text) (sn nsn : Z) (fnet : text) (fvals : list Z) : option st :=
  sbind (resolveNext (s_m s) src) (fun next =>
  sbind (require (existsService (s_m s) svc)) (fun _ =>
  sbind (require (negb ((nsn =? 0) || ((0 <? nsn) && (sn <? 0)) || ((nsn <? 0) && (0 <? sn))))) (fun _ =>
  sbind (accumulateFee (s_s s) self (Fee fnet fvals)) (fun y =>
  p_dropMessage (with_s s (fst y)) next seq (Msg src [] svc sn [] nsn (snd y)))))).

(** The methods the three contracts have for each other. *)
Inductive inner :=
| PSendInternal (next : text) (b : list Z) | PDropMessage (prev : text) (seq : Z) (m : msg) | PClearSeq (link : text) | PClaimResult (a : Z) (net : text) (nsn r : Z)
| MAddReachable (from a : text) | MRemoveReachable (from a : text)
| SClearReward (net : text) (a : Z) | SHandleFee (a : Z) (b : list Z) | SHandleErrorFee (src : text) (sn : Z) (f : fee) | SHandleDropFee (net : text) (vs : list Z)
| SAddReward (net : text) (a amount : Z) | SAddRequest (nsn : Z) (q : request) | SRemoveResponse (to svc : text) (sn : Z)
| SMessage (from svc : text) (sn : Z) (b : list Z) | SError (src svc : text) (sn code : Z) (t : text).
(** BMCPeriphery.sol 369, 388, 404, 424; BMCManagement.sol 618, 627; BMCService.sol 124, 155, 178, 204, 213, 223, 234, 261, 303: who may call *)
Definition inner_caller (i : inner) : Z :=
  match i with
  | PSendInternal _ _ | PDropMessage _ _ _ | PClearSeq _ | SHandleDropFee _ _ => mgmt
  | PClaimResult _ _ _ _ | MAddReachable _ _ | MRemoveReachable _ _ => svcaddr
  | _ => self
  end.
Definition inner_exec (s : st) (i : inner) : option st :=
  match i with
  | PSendInternal next b => sendInternal s next b
  | PDropMessage prev seq m => p_dropMessage s prev seq m
  | PClearSeq link => Some (clearSeq s link)
  | PClaimResult a net nsn r => Some (emit s (OClaimResult a net nsn r))
  | MAddReachable from a => sbind (addReachable (s_m s) from a) (fun m => Some (with_m s m))
  | MRemoveReachable from a => sbind (removeReachable (s_m s) from a) (fun m => Some (with_m s m))
  | SClearReward net a => sbind (clearReward (s_s s) net a) (fun y => Some (with_s s (fst y)))
  | SHandleFee a b => sbind (handleFee (s_s s) a b) (fun y => Some (with_s s (fst y)))
  | SHandleErrorFee src sn f => sbind (handleErrorFee (s_m s) (s_s s) src sn f) (fun y => Some (with_s s (fst y)))
  | SHandleDropFee net vs => sbind (accumulateFee (s_s s) self (Fee net vs)) (fun y => Some (with_s s (fst y)))
  | SAddReward net a amount => sbind (addReward (s_s s) net a amount) (fun x => Some (with_s s x))
  | SAddRequest nsn q => Some (with_s s (addRequest (s_s s) nsn q))
  | SRemoveResponse to svc sn => sbind (removeResponse (s_s s) to svc sn) (fun y => Some (with_s s (fst y)))
  | SMessage from _ sn b => internalMessage s from sn b
  | SError _ _ sn code _ => internalError s sn code
  end.

(** The external methods with who calls them. *)
Inductive op :=
| HandleRelay (caller : Z) (prev : text) (bytes : list Z)
| SendMessage (caller value : Z) (to svc : text) (sn : Z) (b : list Z)
| ClaimReward (caller value : Z) (net receiver : text)
| Deposit (caller value : Z)
| AddOwner (caller a : Z) | RemoveOwner (caller a : Z)
| AddService (caller : Z) (svc : text) (a : Z) | RemoveService (caller : Z) (svc : text)
| AddVerifier (caller : Z) (net : text) (a : Z) | RemoveVerifier (caller : Z) (net : text)
| AddLink (caller : Z) (link : text) | RemoveLink (caller : Z) (link : text)
| AddRelay (caller : Z) (link : text) (a : Z) | RemoveRelay (caller : Z) (link : text) (a : Z)
| AddRoute (caller : Z) (dst net : text) | RemoveRoute (caller : Z) (dst : text)
| SetFeeTable (caller : Z) (l : list (text * list Z)) | SetFeeHandler (caller a : Z)
| DropMessage (caller : Z) (src : text) (seq : Z) (svc : text) (sn nsn : Z) (fnet : text) (fvals : list Z)
| Inner (caller : Z) (i : inner).
Definition caller_of (o : op) : Z :=
  match o with
  | HandleRelay c _ _ | SendMessage c _ _ _ _ _ | ClaimReward c _ _ _ | Deposit c _ | AddOwner c _ | RemoveOwner c _ | AddService c _ _ | RemoveService c _ | AddVerifier c _ _ | RemoveVerifier c _
  | AddLink c _ | RemoveLink c _ | AddRelay c _ _ | RemoveRelay c _ _ | AddRoute c _ _ | RemoveRoute c _ | SetFeeTable c _ | SetFeeHandler c _ | DropMessage c _ _ _ _ _ _ _ | Inner c _ => c
  end.
(** BMCManagement.sol 48-51 *)
Definition owner {A} (s : st) (c : Z) (r : option A) : option A := if o_is (s_m s) c then r else None.
Definition admin (s : st) (c : Z) (r : man -> option man) : option st := owner s c (sbind (r (s_m s)) (fun m => Some (with_m s m))).
Definition zset (f : Z -> bool) (k : Z) (v : bool) : Z -> bool := fun x => if x =? k then v else f x.
Definition exec (s : st) (o : op) : option st :=
  match o with
  | HandleRelay c prev b => handleRelay s c prev b
  | SendMessage c v to svc sn b => sbind (sendMessage s c v to svc sn b) (fun y => Some (fst y))
  | ClaimReward c v net r => claimReward s c v net r
  | Deposit c v => Some (emit s (OPaid v))  (* BMCPeriphery.sol 428 *)
  | AddOwner c a =>        (* BMCManagement.sol 120-128 *)
      admin s c (fun m => sbind (require (negb (a =? 0) && negb (o_is m a))) (fun _ => Some (set_owners m (zset (o_is m) a true) (o_count m + 1))))
  | RemoveOwner c a =>     (* 130-138 *)
      admin s c (fun m => sbind (require (o_is m a && (1 <? o_count m))) (fun _ => Some (set_owners m (zset (o_is m) a false) (o_count m - 1))))
  | AddService c svc a =>  (* 146-157 *)
      admin s c (fun m => sbind (require (negb (a =? 0) && negb (existsService m svc))) (fun _ => Some (set_services m (tset (h_of m) svc a) (h_keys m ++ [svc]))))
  | RemoveService c svc => (* 159-166 *)
      admin s c (fun m => sbind (require (existsService m svc)) (fun _ => sbind (removeFrom bytes_eqb (h_keys m) svc) (fun l => Some (set_services m (tset (h_of m) svc 0) l))))
  | AddVerifier c net a => (* 182-191 *)
      admin s c (fun m => sbind (require (negb (a =? 0) && negb (existsVerifier m net))) (fun _ => Some (set_verifiers m (tset (v_of m) net a) (v_keys m ++ [net]))))
  | RemoveVerifier c net => (* 193-200 *)
      admin s c (fun m => sbind (require (existsVerifier m net)) (fun _ => sbind (removeFrom bytes_eqb (v_keys m) net) (fun l => Some (set_verifiers m (tset (v_of m) net 0) l))))
  | AddLink c link => owner s c (addLink s link)
  | RemoveLink c link => owner s c (removeLink s link)
  | AddRelay c link a =>   (* 292-301 *)
      admin s c (fun m => sbind (require (negb (a =? 0) && isLink m link && negb (existsb (fun x => x =? a) (relays_of m link)))) (fun _ =>
                          Some (set_relays m (tset (relays_of m) link (relays_of m link ++ [a])))))
  | RemoveRelay c link a => (* 303-314 *)
      admin s c (fun m => sbind (require (isLink m link && existsb (fun x => x =? a) (relays_of m link))) (fun _ =>
                          sbind (removeFrom Z.eqb (relays_of m link) a) (fun l => Some (set_relays m (tset (relays_of m) link l)))))
  | AddRoute c dst net =>  (* 342-354 *)
      admin s c (fun m => sbind (require (negb (bytes_eqb dst net) && negb (rtype_eqb (r_type (route_of m dst)) TManual) && existsLink m net)) (fun _ =>
                          Some (addRouteInfo m dst (r_next (route_of m net)) TManual)))
  | RemoveRoute c dst =>   (* 393-399 *)
      admin s c (fun m => sbind (require (rtype_eqb (r_type (route_of m dst)) TManual)) (fun _ => removeRouteInfo m dst None))
  | SetFeeTable c l => admin s c (fun m => setFeeTable m l)
  | SetFeeHandler c a => admin s c (fun m => Some (set_handler m a)) (* 482-487 *)
  | DropMessage c src seq svc sn nsn fnet fvals => owner s c (dropMessage s src seq svc sn nsn fnet fvals)
  | Inner c i => if c =? inner_caller i then inner_exec s i else None
  end.
(** A transaction: undone if it reverts. *)
Definition step (s : st) (o : op) : st := match exec s o with Some s' => s' | None => s end.
(** BMCManagement.sol 59-63: who deploys is the first owner *)
Definition init (deployer : Z) : st :=
  St (Man (fun a => a =? deployer) 1 (fun _ => 0) [] (fun _ => 0) [] (fun _ => no_link) [] (fun _ => []) (fun _ => no_route) [] (fun _ => []) 0)
     (Per (fun _ => 0) (fun _ => 0) 0) (Ser [] [] []) [].
Definition run (deployer : Z) (ops : list op) : st := fold_left step ops (init deployer).
End BMC.
