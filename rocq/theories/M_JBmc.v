(** Model of the BTP message center contract: javascore/bmc/src/main/java/foundation/icon/btp/bmc/BTPMessageCenter.java.
    Simplifications: network names, service names, addresses and account parts of BTP addresses are numbers;
    payloads are decoded (a payload has exactly one meaning); event texts and error texts are left out; the
    dictionaries are the association lists of M_JMap.v (T_JDict.v proves EnumerableDictDB behaves so); BigInteger is Z.
    A private method that throws leaves the changes it made (there is no roll back inside a frame); an external
    call that throws is undone.  The verifier contracts, the services, the chain's sendBTPMessage are parameters
    that may answer differently each time (their first argument is the length of the output so far). *)
From Coq Require Import String Ascii ZArith List Bool.
From Verif Require Import Base M_JMap.
Import ListNotations.
Open Scope Z_scope.

(** BTPAddress: net and account; FeeInfo.java; BTPMessage.java *)
Record addr := Addr { a_net : Z; a_acc : Z }.
Definition addr_eqb (a b : addr) : bool := (a_net a =? a_net b) && (a_acc a =? a_acc b).
Record fee := Fee { f_net : Z; f_vals : list Z }.
(** Payloads: of services (opaque), ResponseMessage, and BMCMessage of each internal type (BTPMessageCenter.java 43-64).
    [None] as receiver of a claim: text Address.fromString refuses. *)
Inductive payload :=
| PBytes (b : list Z) | PError (code : Z)
| PClaim (amount : Z) (receiver : option Z) | PResponse (code : Z) | PLink (a : addr) | PUnlink (a : addr) | PInit (l : list addr).
Record msg := Msg { m_src : Z; m_dst : Z; m_svc : Z; m_sn : Z; m_pay : payload; m_nsn : Z; m_fee : option fee }.
Definition with_fee (m : msg) (f : option fee) : msg := Msg (m_src m) (m_dst m) (m_svc m) (m_sn m) (m_pay m) (m_nsn m) f.

(** Link.java; ResponseInfo.java; BMCRequest.java (the only requests are claims) *)
Record link := Link { l_addr : addr; l_rx : Z; l_tx : Z; l_reach : list addr }.
Record rinfo := RInfo { r_nsn : Z; r_fee : option fee }.
Record request := Request { q_dst : Z; q_amount : Z; q_caller : Z }.

(** 66-68 *)
Inductive ev := SEND | DROP | ROUTE | ERROR | RECEIVE | REPLY.
(** What the contract does to the outside, in order: Message events or sendBTPMessage calls (with the network id;
    [seq] is the link's txSeq then), BTPEvent, MessageDropped, transfers, the two claim events; and
    the coins that come in with a call that succeeds. *)
Inductive out :=
| OSent (next : addr) (nid : option Z) (seq : Z) (m : msg)
| OEvent (src nsn : Z) (next : option addr) (e : ev)
| ODropped (prev : addr) (seq : Z) (m : msg) (code : Z)
| OTransfer (to amount : Z)
| OPaid (amount : Z)
| OClaim (caller net amount nsn : Z)
| OClaimResult (caller net nsn result : Z).

(** 71-97: the contract's storage, and what it has put out *)
Record st := St {
  s_owners : list Z; s_verifiers : list (Z * Z); s_services : list (Z * Z); s_routes : list (Z * Z); s_links : list (Z * link);
  s_relays : addr -> list Z; s_netids : addr -> option Z; s_offsets : Z -> option Z; s_nsn : Z; s_fees : list (Z * list Z);
  s_resp : list ((Z * Z * Z) * rinfo); s_rewards : list ((Z * Z) * Z); s_handler : option Z; s_requests : list (Z * request);
  s_out : list out }.

Definition set_links (s : st) (x : list (Z * link)) : st :=
  St (s_owners s) (s_verifiers s) (s_services s) (s_routes s) x (s_relays s) (s_netids s) (s_offsets s) (s_nsn s) (s_fees s) (s_resp s) (s_rewards s) (s_handler s) (s_requests s) (s_out s).
Definition set_nsn (s : st) (x : Z) : st :=
  St (s_owners s) (s_verifiers s) (s_services s) (s_routes s) (s_links s) (s_relays s) (s_netids s) (s_offsets s) x (s_fees s) (s_resp s) (s_rewards s) (s_handler s) (s_requests s) (s_out s).
Definition set_resp (s : st) (x : list ((Z * Z * Z) * rinfo)) : st :=
  St (s_owners s) (s_verifiers s) (s_services s) (s_routes s) (s_links s) (s_relays s) (s_netids s) (s_offsets s) (s_nsn s) (s_fees s) x (s_rewards s) (s_handler s) (s_requests s) (s_out s).
Definition set_rewards (s : st) (x : list ((Z * Z) * Z)) : st :=
  St (s_owners s) (s_verifiers s) (s_services s) (s_routes s) (s_links s) (s_relays s) (s_netids s) (s_offsets s) (s_nsn s) (s_fees s) (s_resp s) x (s_handler s) (s_requests s) (s_out s).
Definition set_requests (s : st) (x : list (Z * request)) : st :=
  St (s_owners s) (s_verifiers s) (s_services s) (s_routes s) (s_links s) (s_relays s) (s_netids s) (s_offsets s) (s_nsn s) (s_fees s) (s_resp s) (s_rewards s) (s_handler s) x (s_out s).
Definition set_fees (s : st) (x : list (Z * list Z)) : st :=
  St (s_owners s) (s_verifiers s) (s_services s) (s_routes s) (s_links s) (s_relays s) (s_netids s) (s_offsets s) (s_nsn s) x (s_resp s) (s_rewards s) (s_handler s) (s_requests s) (s_out s).
Definition set_routes (s : st) (x : list (Z * Z)) : st :=
  St (s_owners s) (s_verifiers s) (s_services s) x (s_links s) (s_relays s) (s_netids s) (s_offsets s) (s_nsn s) (s_fees s) (s_resp s) (s_rewards s) (s_handler s) (s_requests s) (s_out s).
Definition set_services (s : st) (x : list (Z * Z)) : st :=
  St (s_owners s) (s_verifiers s) x (s_routes s) (s_links s) (s_relays s) (s_netids s) (s_offsets s) (s_nsn s) (s_fees s) (s_resp s) (s_rewards s) (s_handler s) (s_requests s) (s_out s).
Definition set_verifiers (s : st) (x : list (Z * Z)) : st :=
  St (s_owners s) x (s_services s) (s_routes s) (s_links s) (s_relays s) (s_netids s) (s_offsets s) (s_nsn s) (s_fees s) (s_resp s) (s_rewards s) (s_handler s) (s_requests s) (s_out s).
Definition set_owners (s : st) (x : list Z) : st :=
  St x (s_verifiers s) (s_services s) (s_routes s) (s_links s) (s_relays s) (s_netids s) (s_offsets s) (s_nsn s) (s_fees s) (s_resp s) (s_rewards s) (s_handler s) (s_requests s) (s_out s).
Definition set_handler (s : st) (x : option Z) : st :=
  St (s_owners s) (s_verifiers s) (s_services s) (s_routes s) (s_links s) (s_relays s) (s_netids s) (s_offsets s) (s_nsn s) (s_fees s) (s_resp s) (s_rewards s) x (s_requests s) (s_out s).
Definition set_relays (s : st) (a : addr) (x : list Z) : st :=
  St (s_owners s) (s_verifiers s) (s_services s) (s_routes s) (s_links s) (fun b => if addr_eqb a b then x else s_relays s b) (s_netids s) (s_offsets s) (s_nsn s) (s_fees s) (s_resp s) (s_rewards s) (s_handler s) (s_requests s) (s_out s).
Definition set_btp (s : st) (a : addr) (nid : option Z) (n : Z) (off : option Z) : st :=
  St (s_owners s) (s_verifiers s) (s_services s) (s_routes s) (s_links s) (s_relays s) (fun b => if addr_eqb a b then nid else s_netids s b) (fun k => if k =? n then off else s_offsets s k) (s_nsn s) (s_fees s) (s_resp s) (s_rewards s) (s_handler s) (s_requests s) (s_out s).
Definition emit (s : st) (o : out) : st :=
  St (s_owners s) (s_verifiers s) (s_services s) (s_routes s) (s_links s) (s_relays s) (s_netids s) (s_offsets s) (s_nsn s) (s_fees s) (s_resp s) (s_rewards s) (s_handler s) (s_requests s) (s_out s ++ [o]).

(** javascore/lib BTPException.java 23-132, BMCException.java: a BTPException with its type and code (offset
    included), a UserRevertedException of a called contract with its code, anything else *)
Inductive xtype := XBTP | XBMC | XBMV | XBSH.
Inductive exn := XExc (t : xtype) (code : Z) | XUser (code : Z) | XOther.
Definition offset (t : xtype) : Z := match t with XBTP => 0 | XBMC => 10 | XBMV => 25 | XBSH => 40 end.
Definition bmc_exn (code : Z) : exn := XExc XBMC (offset XBMC + code).
(** BMCException.java 75-88 *)
Definition UNKNOWN := bmc_exn 0.
Definition UNAUTHORIZED := bmc_exn 1.
Definition INVALID_SN := bmc_exn 2.
Definition EXISTS_BMV := bmc_exn 3.
Definition NO_BMV := bmc_exn 4.
Definition EXISTS_BSH := bmc_exn 5.
Definition NO_BSH := bmc_exn 6.
Definition EXISTS_LINK := bmc_exn 7.
Definition NO_LINK := bmc_exn 8.
Definition EXISTS_BMR := bmc_exn 9.
Definition NO_BMR := bmc_exn 10.
Definition UNREACHABLE := bmc_exn 11.
Definition DROPPED := bmc_exn 12.
(** BTPException.java 110-118: of(cause, BSH).  Revert codes of the platform are small, so adding the offset does
    not overflow. *)
Definition as_bsh (e : exn) : exn :=
  match e with XExc t c => XExc t c | XUser c => XExc XBSH (offset XBSH + c) | XOther => XExc XBSH (offset XBSH + 0) end.
(** BTPException.java 56-68: Type.valueOf *)
Definition type_of_code (code : Z) : option xtype :=
  if code <? 0 then None
  else if code <? offset XBTP then Some XBMC else if code <? offset XBMC then Some XBMV else if code <? offset XBMV then Some XBSH else Some XBSH.
(** BTPException.java 100-108: of(cause) *)
Definition as_any (e : exn) : exn :=
  match e with
  | XExc t c => XExc t c
  | XUser c => match type_of_code c with Some t => XExc t c | None => XOther end
  | XOther => match type_of_code 0 with Some t => XExc t 0 | None => XOther end
  end.
(** BTPMessageCenter.java 794-807: toResponseMessage; ResponseMessage.java 25-29 *)
Definition CODE_SUCCESS := 0.
Definition CODE_UNKNOWN := 1.
Definition CODE_NO_ROUTE := 2.
Definition CODE_NO_BSH := 3.
Definition CODE_BSH_REVERT := 4.
Definition response_code (e : exn) : Z :=
  match e with
  | XExc t c =>
      let code := c - offset t in
      if code =? 11 then CODE_NO_ROUTE else if code =? 6 then CODE_NO_BSH
      else match t with XBSH => CODE_BSH_REVERT | _ => CODE_UNKNOWN end
  | _ => CODE_UNKNOWN  (* never: only BTPExceptions get here *)
  end.

Inductive res (A : Type) := Val (a : A) (s : st) | Exn (e : exn) (s : st).
Arguments Val {A}.
Arguments Exn {A}.
Definition bind {A B} (r : res A) (f : A -> st -> res B) : res B := match r with Val a s => f a s | Exn e s => Exn e s end.

(** 50: the internal service "bmc" *)
Definition INTERNAL : Z := 0.
(** the empty network name (989) *)
Definition NO_NET : Z := -1.
Definition sum (l : list Z) : Z := fold_right Z.add 0 l.

(** How a service acts when called: revert, or calls to sendMessage of the BMC, each perhaps with value and
    perhaps with its failure caught. *)
Record scall := SCall { c_to : Z; c_svc : Z; c_sn : Z; c_pay : payload; c_value : Z; c_catch : bool }.
Inductive action := Revert (e : exn) | Calls (l : list scall).
Inductive bshcall := BMessage (src svc sn : Z) (p : payload) | BError (src svc sn code : Z).

Section BMC.
(** btpAddr.net(), Context.getAddress(), Context.getOwner() *)
Variables own self deployer : Z.
(** handleRelayMessage of the verifier at an address: None = it throws; a message it returns may be unparsable *)
Variable verify : nat -> Z -> addr -> Z -> list Z -> option (list (option msg)).
Variable serve : nat -> Z -> bshcall -> action.
Variable chain_ok : nat -> Z -> msg -> bool.

(** 193-208 *)
Definition getLink (s : st) (a : addr) : option link :=
  match aget Z.eqb (a_net a) (s_links s) with
  | Some l => if addr_eqb (l_addr l) a then Some l else None
  | None => None
  end.
Definition getLinkNet (s : st) (n : Z) : option link := aget Z.eqb n (s_links s).
(** 210-212 *)
Definition putLink (s : st) (l : link) : st := set_links s (aput Z.eqb (a_net (l_addr l)) l (s_links s)).

(** 478-489 *)
Fixpoint reach_search (net : Z) (l : list (Z * link)) : option addr :=
  match l with
  | [] => None
  | (_, k) :: l' => if existsb (fun a => a_net a =? net) (l_reach k) then Some (l_addr k) else reach_search net l'
  end.
(** 491-506 *)
Definition resolveNext (s : st) (net : Z) : addr + exn :=
  match aget Z.eqb net (s_links s) with
  | Some l => inl (l_addr l)
  | None =>
      match aget Z.eqb net (s_routes s) with
      | Some nn => match getLinkNet s nn with Some l => inl (l_addr l) | None => inr NO_LINK end
      | None => match reach_search net (s_links s) with Some a => inl a | None => inr UNREACHABLE end
      end
  end.

(** 361-368 *)
Definition getFeeList (s : st) (net : Z) (back : bool) : list Z :=
  match aget Z.eqb net (s_fees s) with
  | None => []
  | Some vs => if back then vs else firstn (Nat.div (length vs) 2) vs
  end.
(** 413-419, 463-465 *)
Definition zz_eqb (a b : Z * Z) : bool := (fst a =? fst b) && (snd a =? snd b).
Definition getReward (s : st) (net a : Z) : Z := match aget zz_eqb (a, net) (s_rewards s) with Some v => v | None => 0 end.
Definition addReward (s : st) (a net amount : Z) : st :=
  if 0 <? amount then set_rewards s (aput zz_eqb (a, net) (amount + getReward s net a) (s_rewards s)) else s.
(** 386-394: the fee list without its first entry, which is the caller's *)
Definition accumulateFee (s : st) (a : Z) (f : option fee) : st * option fee :=
  match f with
  | Some (Fee n (v :: vs)) => (addReward s a n v, Some (Fee n vs))
  | _ => (s, f)
  end.
(** 396-411 *)
Definition collectNet (s : st) (net amount : Z) : st := addReward s self net amount.
Definition collect (s : st) (f : option fee) : st :=
  match f with
  | Some (Fee n (v :: vs)) => collectNet s n (sum (v :: vs))
  | _ => s
  end.

(** 892-900 *)
Definition event (s : st) (m : msg) (next : option addr) (e : ev) : st :=
  if m_nsn m <? 0 then emit s (OEvent (m_dst m) (- m_nsn m) next e) else emit s (OEvent (m_src m) (m_nsn m) next e).
(** 840-856: sendMessage(next, bytes) *)
Definition sendTo (s : st) (next : addr) (m : msg) : res unit :=
  match getLink s next with
  | None => Exn NO_LINK s
  | Some l =>
      let s1 := putLink s (Link (l_addr l) (l_rx l) (l_tx l + 1) (l_reach l)) in
      match s_netids s1 next with
      | None => Val tt (emit s1 (OSent next None (l_tx l + 1) m))
      | Some nid => if chain_ok (length (s_out s1)) nid m then Val tt (emit s1 (OSent next (Some nid) (l_tx l + 1) m))
                    else Exn UNKNOWN (putLink s1 (Link (l_addr l) (l_rx l) (l_tx l + 1 - 1) (l_reach l)))
      end
  end.
(** 719-728 *)
Definition nextNetworkSn (s : st) : st := set_nsn s (s_nsn s + 1).
Definition zzz_eqb (a b : Z * Z * Z) : bool := (fst (fst a) =? fst (fst b)) && (snd (fst a) =? snd (fst b)) && (snd a =? snd b).
(** 748-792: sendMessageWithFee; [fill] = fillSnByNsn, [value] = Context.getValue() *)
Definition sendWithFee (s : st) (to svc sn : Z) (p : payload) (response fill : bool) (value : Z) : res Z :=
  match resolveNext s to with
  | inr e => Exn e s
  | inl next =>
      if response then
        match aget zzz_eqb (to, svc, sn) (s_resp s) with
        | None => Exn UNKNOWN s
        | Some i =>
            let s1 := collectNet (set_resp s (adel zzz_eqb (to, svc, sn) (s_resp s))) own value in
            let m := Msg own to svc 0 p (- r_nsn i) (r_fee i) in
            bind (sendTo s1 next m) (fun _ s2 => Val (m_nsn m) (event s2 m (Some next) REPLY))
        end
      else
        let s1 := nextNetworkSn s in
        let nsn := s_nsn s1 in
        let sn' := if fill then nsn else sn in
        let vals := getFeeList s1 to (0 <? sn') in
        let remain := value - sum vals in
        if remain <? 0 then Exn UNKNOWN s1
        else
          let s2 := collectNet s1 own remain in
          let m := Msg own to svc sn' p nsn (Some (Fee own vals)) in
          bind (sendTo s2 next m) (fun _ s3 => Val nsn (event s3 m (Some next) SEND))
  end.
(** 732-746: the external sendMessage *)
Definition sendMessage (s : st) (caller to svc sn : Z) (p : payload) (value : Z) : res Z :=
  match aget Z.eqb svc (s_services s) with
  | None => Exn NO_BSH s
  | Some a =>
      if negb (caller =? a) then Exn UNAUTHORIZED s
      else bind (if sn <? 0 then sendWithFee s to svc (- sn) p true false value
                 else sendWithFee s to svc sn p false false value) (fun nsn s' => Val nsn (emit s' (OPaid value)))
  end.
(** A call into a service: what it does to the BMC; undone if it fails. *)
Fixpoint run_calls (s : st) (a : Z) (cs : list scall) : res unit :=
  match cs with
  | [] => Val tt s
  | c :: cs' =>
      match sendMessage s a (c_to c) (c_svc c) (c_sn c) (c_pay c) (c_value c) with
      | Val _ s' => run_calls s' a cs'
      | Exn e _ => if c_catch c then run_calls s a cs' else Exn XOther s
      end
  end.
Definition call_service (s : st) (a : Z) (c : bshcall) : res unit :=
  match serve (length (s_out s)) a c with
  | Revert e => Exn (match e with XUser code => XUser code | _ => XOther end) s
  | Calls cs => match run_calls s a cs with Val u s' => Val u s' | Exn e _ => Exn e s end
  end.

(** 677-692 *)
Definition addReachable (s : st) (net : Z) (l : list addr) : res unit :=
  match getLinkNet s net with
  | None => Exn NO_LINK s
  | Some k => Val tt (putLink s (Link (l_addr k) (l_rx k) (l_tx k)
                (fold_left (fun acc a => if existsb (addr_eqb a) acc then acc else acc ++ [a]) l (l_reach k))))
  end.
Fixpoint remove_first (a : addr) (l : list addr) : list addr :=
  match l with [] => [] | b :: l' => if addr_eqb b a then l' else b :: remove_first a l' end.
Definition removeReachable (s : st) (net : Z) (a : addr) : res unit :=
  match getLinkNet s net with
  | None => Exn NO_LINK s
  | Some k => Val tt (putLink s (Link (l_addr k) (l_rx k) (l_tx k) (remove_first a (l_reach k))))
  end.
(** 694-710 *)
Definition handleResponse (s : st) (nsn result : Z) : res unit :=
  match aget Z.eqb nsn (s_requests s) with
  | None => Exn UNKNOWN s
  | Some q =>
      let s1 := set_requests s (adel Z.eqb nsn (s_requests s)) in
      let s2 := if result =? CODE_SUCCESS then s1 else addReward s1 (q_caller q) (q_dst q) (q_amount q) in
      Val tt (emit s2 (OClaimResult (q_caller q) (q_dst q) nsn result))
  end.
(** 639-675, 421-427, 858-863 *)
Definition internalMessage (s : st) (src nsn : Z) (p : payload) : res unit :=
  match p with
  | PClaim amount None => Exn UNKNOWN s
  | PClaim amount (Some receiver) =>
      match sendWithFee (addReward s receiver own amount) src INTERNAL nsn (PResponse CODE_SUCCESS) true false 0 with
      | Val _ s' => Val tt s'
      | Exn e s' => Exn e (addReward s' receiver own (- amount))
      end
  | PResponse code => handleResponse s (- nsn) code
  | PLink a => addReachable s src [a]
  | PUnlink a => removeReachable s src a
  | PInit l => addReachable s src l
  | PBytes _ | PError _ => Exn XOther s
  end.
(** 172-178 *)
Definition getService (s : st) (svc : Z) : option Z := aget Z.eqb svc (s_services s).

(** 585-637, 712-716: handleMessage *)
Definition handleMessage (s : st) (m : msg) : res unit :=
  if 0 <=? m_sn m then
    let key := (m_src m, m_svc m, m_sn m) in
    let stored := match m_fee m with Some _ => 0 <? m_sn m | None => false end in
    let s1 := match m_fee m with
              | None => s
              | Some f =>
                  if 0 <? m_sn m then
                    let s0 := match aget zzz_eqb key (s_resp s) with Some old => collect s (r_fee old) | None => s end in
                    set_resp s0 (aput zzz_eqb key (RInfo (m_nsn m) (Some f)) (s_resp s0))
                  else collect s (Some f)
              end in
    match (if m_svc m =? INTERNAL then internalMessage s1 (m_src m) (m_nsn m) (m_pay m)
           else match getService s1 (m_svc m) with
                | None => Exn NO_BSH s1
                | Some a => call_service s1 a (BMessage (m_src m) (m_svc m) (m_sn m) (m_pay m))
                end) with
    | Val u s2 => Val u s2
    | Exn e s2 => Exn (as_bsh e) (if stored then set_resp s2 (adel zzz_eqb key (s_resp s2)) else s2)
    end
  else
    let s1 := collect s (m_fee m) in
    match (match m_pay m with
           | PError code =>
               if m_svc m =? INTERNAL then handleResponse s1 (- m_nsn m) code
               else match getService s1 (m_svc m) with
                    | None => Exn NO_BSH s1
                    | Some a => call_service s1 a (BError (m_src m) (m_svc m) (- m_sn m) code)
                    end
           | _ => Exn XOther s1
           end) with
    | Val u s2 => Val u s2
    | Exn e s2 => Exn (as_bsh e) s2
    end.

(** 809-838: the fee list is turned round when the way back is known *)
Definition error_fee (s : st) (m : msg) : option fee :=
  match m_fee m with
  | Some (Fee n vs) =>
      let hop := length (getFeeList s (m_src m) false) in
      if ((0 <? hop) && (hop <? length vs))%nat
      then let remain := (length vs - hop)%nat in Some (Fee n (skipn remain vs ++ firstn remain vs))
      else Some (Fee n vs)
  | None => None
  end.
Definition sendError (s : st) (prev : addr) (m : msg) (e : exn) : res unit :=
  let em := Msg own (m_src m) (m_svc m) (- m_sn m) (PError (response_code e)) (- m_nsn m) (error_fee s m) in
  bind (sendTo s prev em) (fun _ s1 => Val tt (event s1 m (Some prev) ERROR)).
(** 1010-1017 *)
Definition exn_code (e : exn) : Z := match e with XExc _ c => c | XUser c => c | XOther => 0 end.
Definition dropped (s : st) (prev : addr) (seq : Z) (m : msg) (e : exn) : st :=
  emit (event s m None DROP) (ODropped prev seq m (exn_code e)).

(** 553-582: one message, its fee already reduced *)
Definition dispatch (s : st) (prev : addr) (seq : Z) (m : msg) : st :=
  match (if own =? m_dst m then bind (handleMessage s m) (fun _ s1 => Val tt (event s1 m None RECEIVE))
         else match resolveNext s (m_dst m) with
              | inr e => Exn e s
              | inl next => bind (sendTo s next m) (fun _ s1 => Val tt (event s1 m (Some next) ROUTE))
              end) with
  | Val _ s1 => s1
  | Exn e s1 =>
      if 0 <? m_sn m then
        match sendError s1 prev m e with
        | Val _ s2 => s2
        | Exn e2 s2 => dropped (collect s2 (m_fee m)) prev seq m e2
        end
      else dropped (collect s1 (m_fee m)) prev seq m e
  end.
(** 533-582; a message that cannot be parsed stops everything *)
Fixpoint dispatch_all (s : st) (caller : Z) (prev : addr) (rx : Z) (ms : list (option msg)) : res unit :=
  match ms with
  | [] => Val tt s
  | None :: _ => Exn UNKNOWN s
  | Some m :: ms' =>
      let (s1, f) := accumulateFee s caller (m_fee m) in
      dispatch_all (dispatch s1 prev (rx + 1) (with_fee m f)) caller prev (rx + 1) ms'
  end.
(** 1023-1031 *)
Definition isRelay (s : st) (a : addr) (r : Z) : bool := existsb (Z.eqb r) (s_relays s a).
(** 514-583 *)
Definition handleRelay (s : st) (caller : Z) (prev : addr) (bytes : list Z) : res unit :=
  match getLink s prev with
  | None => Exn NO_LINK s
  | Some l =>
      match aget Z.eqb (a_net (l_addr l)) (s_verifiers s) with
      | None => Exn NO_BMV s
      | Some v =>
          match verify (length (s_out s)) v prev (l_rx l) bytes with
          | None => Exn UNKNOWN s
          | Some ms =>
              if negb (isRelay s prev caller) then Exn UNAUTHORIZED s
              else dispatch_all (putLink s (Link (l_addr l) (l_rx l + zlen ms) (l_tx l) (l_reach l))) caller prev (l_rx l) ms
          end
      end
  end.

(** 1075-1079, OwnerManagerImpl.java *)
Definition isOwner (s : st) (a : Z) : bool := (deployer =? a) || existsb (Z.eqb a) (s_owners s).
(** 865-875: sendInternal; 877-886: propagateInternal *)
Definition sendInternal (s : st) (next : addr) (p : payload) : res unit :=
  let s1 := nextNetworkSn s in
  let m := Msg own (a_net next) INTERNAL 0 p (s_nsn s1) None in
  sendTo (event s1 m (Some next) SEND) next m.
Fixpoint propagate (s : st) (l : list (Z * link)) (p : payload) : res unit :=
  match l with
  | [] => Val tt s
  | (_, k) :: l' => bind (sendInternal s (l_addr k) p) (fun _ s1 => propagate s1 l' p)
  end.
(** 215-239 *)
Definition addLink (s : st) (a : addr) : res unit :=
  if negb (ahas Z.eqb (a_net a) (s_verifiers s)) then Exn NO_BMV s
  else if ahas Z.eqb (a_net a) (s_links s) then Exn EXISTS_LINK s
  else bind (propagate s (s_links s) (PLink a)) (fun _ s1 =>
       sendInternal (putLink s1 (Link a 0 0 [])) a (PInit (map (fun x => l_addr (snd x)) (s_links s)))).
(** 253-256: the loop that empties the relay list, [i] counting up while the list gets shorter *)
Fixpoint clear_relays (fuel i : nat) (l : list Z) : list Z :=
  match fuel with
  | O => l
  | S n => if (i <? length l)%nat then clear_relays n (S i) (removelast l) else l
  end.
(** 242-267 *)
Definition removeLink (s : st) (a : addr) : res unit :=
  match getLink s a with
  | None => Exn NO_LINK s
  | Some _ =>
      let s1 := set_links s (adel Z.eqb (a_net a) (s_links s)) in
      if existsb (fun r => snd r =? a_net a) (s_routes s) then Exn UNKNOWN s1
      else
        let s2 := set_relays s1 a (clear_relays (length (s_relays s1 a)) 0 (s_relays s1 a)) in
        let s3 := match s_netids s2 a with Some nid => set_btp s2 a None nid None | None => s2 end in
        let s4 := set_fees s3 (adel Z.eqb (a_net a) (s_fees s3)) in
        propagate s4 (s_links s4) (PUnlink a)
  end.
(** 331-359 *)
Fixpoint setFeeTable (s : st) (l : list (Z * list Z)) : res unit :=
  match l with
  | [] => Val tt s
  | (dst, vs) :: l' =>
      match vs with
      | [] => setFeeTable (set_fees s (adel Z.eqb dst (s_fees s))) l'
      | _ =>
          if negb (Nat.even (length vs)) then Exn UNKNOWN s
          else if existsb (fun v => v <? 0) vs then Exn UNKNOWN s
          else
            let s1 := set_fees s (aput Z.eqb dst vs (s_fees s)) in
            if (length vs =? 2)%nat then (if ahas Z.eqb dst (s_links s) then setFeeTable s1 l' else Exn NO_LINK s)
            else match resolveNext s dst with inl _ => setFeeTable s1 l' | inr e => Exn e s end
      end
  end.
(** 431-452: claimReward.  The transfer of coins is modelled as an output only. *)
Definition claimReward (s : st) (who net : Z) (receiver : option Z) (value : Z) : res unit :=
  let caller := match s_handler s with Some h => if h =? who then self else who | None => who end in
  let reward := getReward s net caller in
  if reward <=? 0 then Exn UNKNOWN s
  else
    let s1 := set_rewards s (aput zz_eqb (caller, net) 0 (s_rewards s)) in
    if net =? own then
      match receiver with
      | None => Exn UNKNOWN s1
      | Some r => Val tt (emit (emit (emit s1 (OPaid value)) (OTransfer r reward)) (OClaim caller net reward 0))
      end
    else
      bind (sendWithFee s1 net INTERNAL 0 (PClaim reward receiver) false true value) (fun nsn s2 =>
      Val tt (emit (emit (set_requests s2 (aput Z.eqb nsn (Request net reward caller) (s_requests s2))) (OPaid value)) (OClaim caller net reward nsn))).
(** 965-969 *)
Definition isInvalidSn (sn nsn : Z) : bool := (nsn =? 0) || ((0 <? nsn) && (sn <? 0)) || ((nsn <? 0) && (0 <? sn)).
(** 971-1008 *)
Definition dropMessage (s : st) (src seq svc sn nsn : Z) (f : option fee) : res unit :=
  match resolveNext s src with
  | inr e => Exn e s
  | inl prev =>
      match getLinkNet s (a_net prev) with
      | None => Exn XOther s
      | Some l =>
          if negb (l_rx l + 1 =? seq) then Exn UNKNOWN s
          else if negb (ahas Z.eqb svc (s_services s)) then Exn NO_BSH s
          else if isInvalidSn sn nsn then Exn INVALID_SN s
          else
            let s1 := putLink s (Link (l_addr l) seq (l_tx l) (l_reach l)) in
            let (s2, f') := accumulateFee s1 self f in
            let m := Msg src NO_NET svc sn (PBytes []) nsn f' in
            if 0 <? sn then sendError s2 prev m DROPPED else Val tt (dropped s2 prev seq m DROPPED)
      end
  end.
(** 1134-1144 *)
Definition setBTPLink (s : st) (a : addr) (nid off : Z) : res unit :=
  if nid <? 1 then Exn UNKNOWN s
  else match s_offsets s nid with Some _ => Exn UNKNOWN s | None => Val tt (set_btp s a (Some nid) nid (Some off)) end.
(** 1047-1060 *)
Definition remove_swap (r : Z) (l : list Z) : option (list Z) :=
  match l with
  | [] => None
  | x :: _ =>
      let lst := last l x in let rest := removelast l in
      if lst =? r then Some rest
      else (fix go (k : list Z) : option (list Z) :=
              match k with [] => None | y :: k' => if y =? r then Some (lst :: k') else match go k' with Some t => Some (y :: t) | None => None end end) rest
  end.

(** The external methods with who calls them. *)
Inductive op :=
| HandleRelay (caller : Z) (prev : addr) (bytes : list Z)
| SendMessage (caller to svc sn : Z) (p : payload) (value : Z)
| ClaimReward (caller net : Z) (receiver : option Z) (value : Z)
| AddVerifier (caller net a : Z) | RemoveVerifier (caller net : Z)
| AddService (caller svc a : Z) | RemoveService (caller svc : Z)
| AddLink (caller : Z) (a : addr) | RemoveLink (caller : Z) (a : addr)
| AddRoute (caller dst net : Z) | RemoveRoute (caller dst : Z)
| SetFeeTable (caller : Z) (l : list (Z * list Z)) | SetFeeHandler (caller : Z) (a : option Z)
| AddRelay (caller : Z) (a : addr) (r : Z) | RemoveRelay (caller : Z) (a : addr) (r : Z)
| AddOwner (caller a : Z) | RemoveOwner (caller a : Z)
| AddBTPLink (caller : Z) (a : addr) (nid : Z) | SetBTPLink (caller : Z) (a : addr) (nid : Z)
| DropMessage (caller src seq svc sn nsn : Z) (f : option fee).

Definition owner (s : st) (caller : Z) (r : res unit) : res unit := if isOwner s caller then r else Exn UNAUTHORIZED s.

Definition exec (s : st) (o : op) : res unit :=
  match o with
  | HandleRelay c prev b => handleRelay s c prev b
  | SendMessage c to svc sn p v => bind (sendMessage s c to svc sn p v) (fun _ s' => Val tt s')
  | ClaimReward c net r v => claimReward s c net r v
  | AddVerifier c net a =>   (* 113-122 *)
      owner s c (if own =? net then Exn UNKNOWN s else if ahas Z.eqb net (s_verifiers s) then Exn EXISTS_BMV s
                 else Val tt (set_verifiers s (aput Z.eqb net a (s_verifiers s))))
  | RemoveVerifier c net =>  (* 125-131 *)
      owner s c (if ahas Z.eqb net (s_verifiers s) then Val tt (set_verifiers s (adel Z.eqb net (s_verifiers s))) else Exn NO_BMV s)
  | AddService c svc a =>    (* 147-156 *)
      owner s c (if ahas Z.eqb svc (s_services s) || (svc =? INTERNAL) then Exn EXISTS_BSH s
                 else Val tt (set_services s (aput Z.eqb svc a (s_services s))))
  | RemoveService c svc =>   (* 159-165 *)
      owner s c (if ahas Z.eqb svc (s_services s) then Val tt (set_services s (adel Z.eqb svc (s_services s))) else Exn NO_BSH s)
  | AddLink c a => owner s c (addLink s a)
  | RemoveLink c a => owner s c (removeLink s a)
  | AddRoute c dst net =>    (* 294-305 *)
      owner s c (if dst =? net then Exn UNKNOWN s else if ahas Z.eqb dst (s_routes s) then Exn UNKNOWN s
                 else if ahas Z.eqb net (s_links s) then Val tt (set_routes s (aput Z.eqb dst net (s_routes s))) else Exn NO_LINK s)
  | RemoveRoute c dst =>     (* 308-314 *)
      owner s c (if ahas Z.eqb dst (s_routes s)
                 then Val tt (set_fees (set_routes s (adel Z.eqb dst (s_routes s))) (adel Z.eqb dst (s_fees s))) else Exn UNKNOWN s)
  | SetFeeTable c l => owner s c (setFeeTable s l)
  | SetFeeHandler c a => owner s c (Val tt (set_handler s a))   (* 468-471 *)
  | AddRelay c a r =>        (* 1034-1041 *)
      owner s c (match getLink s a with
                 | None => Exn NO_LINK s
                 | Some _ => if isRelay s a r then Exn EXISTS_BMR s else Val tt (set_relays s a (s_relays s a ++ [r])) end)
  | RemoveRelay c a r =>     (* 1044-1061 *)
      owner s c (match getLink s a with
                 | None => Exn NO_LINK s
                 | Some _ => match remove_swap r (s_relays s a) with Some l => Val tt (set_relays s a l) | None => Exn NO_BMR s end end)
  | AddOwner c a =>          (* OwnerManagerImpl.java 70-75 *)
      if negb (isOwner s c) then Exn UNAUTHORIZED s else if deployer =? a then Exn UNKNOWN s
      else if existsb (Z.eqb a) (s_owners s) then Exn UNKNOWN s else Val tt (set_owners s (s_owners s ++ [a]))
  | RemoveOwner c a =>       (* OwnerManagerImpl.java 77-82 *)
      if negb (isOwner s c) then Exn UNAUTHORIZED s else if deployer =? a then Exn UNKNOWN s
      else match remove_swap a (s_owners s) with Some l => Val tt (set_owners s l) | None => Exn UNKNOWN s end
  | AddBTPLink c a nid =>    (* 1119-1124 *)
      owner s c (bind (setBTPLink s a nid 0) (fun _ s1 => addLink s1 a))
  | SetBTPLink c a nid =>    (* 1127-1132 *)
      owner s c (match getLink s a with None => Exn NO_LINK s | Some l => setBTPLink s a nid (l_tx l) end)
  | DropMessage c src seq svc sn nsn f => owner s c (dropMessage s src seq svc sn nsn f)
  end.
(** A transaction: undone if it throws. *)
Definition step (s : st) (o : op) : st := match exec s o with Val _ s' => s' | Exn _ _ => s end.
Definition init : st := St [] [] [] [] [] (fun _ => []) (fun _ => None) (fun _ => None) 0 [] [] [] None [] [].
Definition run (ops : list op) : st := fold_left step ops init.
End BMC.
