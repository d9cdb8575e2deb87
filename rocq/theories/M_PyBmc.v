(** Model of the message center of the Python contracts: pyscore/bmc/bmc.py, message.py, route.py and the addresses of
    pyscore/lib/btp_address.py.
    - Texts are their bytes.  An address object is used through its text (str) and its network; [show_address] is its text.
    - The dictionaries are association lists in the order in which keys were added; M_PyDb.v has the dictionaries of db.py, C100 says
      when they are such lists.  Reading a link again gives the object read before, as there.
    - Exceptions are values: a BTPException with its code and text, or any other one.  A call that raises is undone.
    - The verifier's answer is an argument of the call, a function of its address, the previous center and rx_seq; None: it raises.
      Which relay may call is an argument too (link.py: C103), and so are the permissions.
    - The services are a parameter: they see what was put out before and what they are called with.  While handling a message they
      may call sendMessage; what they send is worked off on the same state, sends that fail are without effect.
    - sack_term is 0 from the start and set nowhere, so that lines 627-629 send nothing.
    - None cannot be put into the list of reachable addresses: that raises. *)
From Coq Require Import String Ascii ZArith List Bool.
From Verif Require Import Base GoStr M_JMap M_PyRlp M_PyBmv.
Import ListNotations.
Open Scope Z_scope.
Local Notation bytes := (list Z).

Inductive exn := XBtp (code : Z) (text : bytes) | XOther.
Inductive res (A : Type) := Val (a : A) | Raise (e : exn).
Arguments Val {A}.
Arguments Raise {A}.
Definition bind {A B} (r : res A) (f : A -> res B) : res B := match r with Val a => f a | Raise e => Raise e end.
Definition need {A} (o : option A) : res A := match o with Some a => Val a | None => Raise XOther end.

(** * btp_address.py *)
(** btp_address.py 61-66 __str__ *)
Definition show_address (a : paddr) : bytes := pa_proto a ++ str "://" ++ pa_net a ++ str "/" ++ pa_contract a.
(** btp_address.py 114-125 from_string, 23-43: a net that begins with its only dot is a BTPException, no "://" an IndexError *)
Definition read_address (s : bytes) : res paddr :=
  match behind (str "://") s with
  | None => Raise XOther
  | Some _ => match parse_address s with Some a => Val a | None => Raise (XBtp 0 (str "fail to parse, net_address")) end
  end.
(** btp_address.py 107-108 is_valid, 127-132 from_string_with_validation *)
Definition valid_address (s : bytes) : res paddr :=
  bind (read_address s) (fun a =>
  match pa_proto a, pa_net a, pa_contract a with
  | _ :: _, _ :: _, _ :: _ => Val a
  | _, _, _ => Raise (XBtp 0 (str "invalid BTPAddress"))
  end).

(** * message.py *)
(** message.py 19-39 BTPMessage; fields that are the nil marker are None *)
Record bmsg := BMsg { b_src : option paddr; b_dst : option paddr; b_svc : option bytes; b_sn : option Z; b_pay : option bytes }.
Definition none_text : bytes := str "None".
Definition shown (a : option paddr) : bytes := match a with Some a => show_address a | None => none_text end.
Definition py_text (s : option bytes) : pyval := match s with Some s => PStr s | None => PNone end.
Definition py_int (n : option Z) : pyval := match n with Some n => PInt n | None => PNone end.
Definition py_bytes (b : option bytes) : pyval := match b with Some b => PBytes b | None => PNone end.
(** message.py 27-29 to_bytes *)
Definition write_message (src dst : bytes) (svc : option bytes) (sn : Z) (pay : option bytes) : bytes :=
  rlp_encode (PList [PStr src; PStr dst; py_text svc; PInt sn; py_bytes pay]).

Section READ.
Variable utf8 : bytes -> bool.
(** from_string of None is None *)
Definition opt_address (v : pyval) : option (option paddr) :=
  match v with PNone => Some None | PStr s => match parse_address s with Some a => Some (Some a) | None => None end | _ => None end.
Definition opt_text (v : pyval) : option bytes := match v with PStr s => Some s | _ => None end.
Definition opt_int (v : pyval) : option Z := match v with PInt n => Some n | _ => None end.
(** message.py 31-39 from_bytes; every exception is caught where it is used (bmc.py 612-616) *)
Definition read_message (v : pyval) : option bmsg :=
  match v with
  | PBytes b =>
      match rlp_decode utf8 b (TFields [TStr; TStr; TStr; TInt; TBytes]) with
      | Some (PList [s; d; v; n; p]) =>
          match opt_address s, opt_address d with Some s, Some d => Some (BMsg s d (opt_text v) (opt_int n) (opt_bytes p)) | _, _ => None end
      | _ => None
      end
  | _ => None
  end.
(** message.py 42-56 ErrorMessage *)
Definition write_error (code : Z) (text : bytes) : bytes := rlp_encode (PList [PInt code; PStr text]).
Definition read_error (p : option bytes) : res (option Z * option bytes) :=
  match p with
  | Some b => match rlp_decode utf8 b (TFields [TInt; TStr]) with Some (PList [c; t]) => Val (opt_int c, opt_text t) | _ => Raise XOther end
  | None => Raise XOther
  end.
(** message.py 59-73 EventMessage *)
Definition write_event (evt : bytes) (values : list bytes) : bytes := rlp_encode (PList [PStr evt; PList (map PStr values)]).
Definition read_event (p : option bytes) : res (option bytes * list (option bytes)) :=
  match p with
  | Some b => match rlp_decode utf8 b (TFields [TStr; TOf (Some TStr)]) with Some (PList [e; PList l]) => Val (opt_text e, map opt_text l) | _ => Raise XOther end
  | None => Raise XOther
  end.
(** message.py 76-90 SACKMessage *)
Definition read_sack (p : option bytes) : res (option Z * option Z) :=
  match p with
  | Some b => match rlp_decode utf8 b (TFields [TInt; TInt]) with Some (PList [h; n]) => Val (opt_int h, opt_int n) | _ => Raise XOther end
  | None => Raise XOther
  end.
End READ.

(** * bmc.py *)
(** link.py 31-63: the properties used here *)
Record plink := PLink { k_rx : Z; k_tx : Z; k_reach : list bytes; k_sack : option Z * option Z }.
Definition new_link : plink := PLink 0 0 [] (Some 0, Some 0).
(** What the contract does to the outside: its two events, the calls of services; [OLinked] marks where a link is made. *)
Inductive out :=
| OMessage (next : bytes) (seq : Z) (msg : bytes)
| OHandle (to net : bytes) (svc : option bytes) (sn : Z) (pay : option bytes)
| OHandleError (to src : bytes) (svc : option bytes) (sn : Z) (code : option Z) (text : option bytes)
| OErrorOn (svc : option bytes) (sn : Z) (code : option Z) (text : option bytes) (e : exn)
| OLinked (key : bytes).
(** What a service does: send messages (network, service, number, bytes), or raise *)
Inductive outcome := Done (sends : list (bytes * bytes * Z * bytes)) | Fails (e : exn).
Record bmc := Bmc { c_me : bytes; c_net : bytes; c_services : list (bytes * bytes); c_verifiers : list (bytes * bytes);
  c_links : list (bytes * plink); c_routes : list (bytes * bytes); c_out : list out }.
Definition with_links (s : bmc) (l : list (bytes * plink)) : bmc := Bmc (c_me s) (c_net s) (c_services s) (c_verifiers s) l (c_routes s) (c_out s).
Definition emit (s : bmc) (o : out) : bmc := Bmc (c_me s) (c_net s) (c_services s) (c_verifiers s) (c_links s) (c_routes s) (c_out s ++ [o]).
Definition kget {V} (k : bytes) (l : list (bytes * V)) : option V := aget bytes_eqb k l.
Definition kput {V} (k : bytes) (v : V) (l : list (bytes * V)) : list (bytes * V) := aput bytes_eqb k v l.
(** db.py: the key is taken out of the list of keys *)
Fixpoint kdel {V} (k : bytes) (l : list (bytes * V)) : list (bytes * V) :=
  match l with [] => [] | (x, v) :: r => if bytes_eqb k x then r else (x, v) :: kdel k r end.
Definition set_link (s : bmc) (k : bytes) (l : plink) : bmc := with_links s (kput k l (c_links s)).
(** exception.py 18-28, 31-33, lib/btp_exception.py 23, 36-38: codes with the offset of the center *)
Definition X_BMC (code : Z) (text : string) : exn := XBtp (10 + code) (str text).
Definition NO_VERIFIER := X_BMC 4 "not exists verifier".
Definition NO_SERVICE := X_BMC 6 "not exists service".
Definition NO_LINK := X_BMC 8 "not exists link".
Definition UNREACHABLE (net : bytes) : exn := XBtp 19 (str "unreachable " ++ net).
Definition NO_RELAY := X_BMC 1 "invalid relay".

(** bmc.py 56-60 on_install *)
Definition install (net address : bytes) : res bmc :=
  if net_ok net then Val (Bmc (show_address (PAddr (str "btp") net address)) net [] [] [] [] []) else Raise (XBtp 0 (str "fail to parse, net_address")).

(** route.py 25-33 resolve: the loop over the keys *)
Fixpoint route_loop (net : bytes) (l : list (bytes * bytes)) : res (option bytes) :=
  match l with
  | [] => Val None
  | (k, v) :: r => bind (read_address k) (fun a => if bytes_eqb (pa_net a) net then Val (Some v) else route_loop net r)
  end.
Definition route_resolve (s : bmc) (net : bytes) : res (option bytes) :=
  match kget net (c_routes s) with Some v => Val (Some v) | None => route_loop net (c_routes s) end.
(** bmc.py 508-512: the links in order *)
Fixpoint direct_loop (net : bytes) (l : list (bytes * plink)) : res (option bytes) :=
  match l with
  | [] => Val None
  | (k, _) :: r => bind (read_address k) (fun a => if bytes_eqb (pa_net a) net then Val (Some k) else direct_loop net r)
  end.
(** bmc.py 515-518 *)
Fixpoint reach_loop (net : bytes) (l : list bytes) : res bool :=
  match l with
  | [] => Val false
  | r :: l' => bind (read_address r) (fun a => if bytes_eqb (pa_net a) net then Val true else reach_loop net l')
  end.
(** bmc.py 513-518 *)
Fixpoint links_loop (net : bytes) (l : list (bytes * plink)) : res (option bytes) :=
  match l with
  | [] => Val None
  | (k, x) :: r => bind (reach_loop net (k_reach x)) (fun b => if b then Val (Some k) else links_loop net r)
  end.
(** bmc.py 504-521 _resolve_route: the link, if there is one, and what it takes for the destination *)
Definition resolve (s : bmc) (net : bytes) : res (option bytes * bytes) :=
  bind (route_resolve s net) (fun r =>
  match r with
  | Some v => Val (match kget v (c_links s) with Some _ => Some v | None => None end, v)
  | None =>
      bind (direct_loop net (c_links s)) (fun d =>
      match d with
      | Some k => Val (Some k, k)
      | None => bind (links_loop net (c_links s)) (fun d => match d with Some k => Val (Some k, k) | None => Raise (UNREACHABLE net) end)
      end)
  end).

(** bmc.py 560-563 _send_message *)
Definition send_message (s : bmc) (to msg : bytes) : res bmc :=
  bind (need (kget to (c_links s))) (fun l =>
  Val (emit (set_link s to (PLink (k_rx l) (k_tx l + 1) (k_reach l) (k_sack l))) (OMessage to (k_tx l + 1) msg))).
(** bmc.py 565-570 _send_error; [m] has a number where it is called *)
Definition send_error (s : bmc) (prev : bytes) (m : bmsg) (sn code : Z) (text : bytes) : res bmc :=
  if sn =? 0 then Val s else send_message s prev (write_message (c_me s) (shown (b_src m)) (b_svc m) (- sn) (Some (write_error code text))).
(** bmc.py 631-647 sendMessage *)
Definition sendMessage (s : bmc) (to svc : bytes) (sn : Z) (msg : bytes) : res bmc :=
  if sn <? 0 then Raise (X_BMC 2 "invalid sn")
  else bind (resolve s to) (fun x => bind (need (fst x)) (fun k => send_message s k (write_message (c_me s) (snd x) (Some svc) sn (Some msg)))).
(** the sends of a service *)
Fixpoint sends (s : bmc) (l : list (bytes * bytes * Z * bytes)) : bmc :=
  match l with [] => s | (to, svc, sn, msg) :: r => sends (match sendMessage s to svc sn msg with Val s' => s' | Raise _ => s end) r end.

(** db.py 600-608 remove_from_array_db: the last entry moves into the gap *)
Fixpoint index_of (x : bytes) (l : list bytes) : option nat :=
  match l with [] => None | y :: r => if bytes_eqb y x then Some O else match index_of x r with Some i => Some (S i) | None => None end end.
Definition array_remove (l : list bytes) (x : bytes) : list bytes :=
  match index_of x l with
  | None => l
  | Some i => let l' := removelast l in if (i <? length l')%nat then firstn i l' ++ last l x :: skipn (S i) l' else l'
  end.
Definition set_reach (s : bmc) (k : bytes) (l : plink) (r : list bytes) : bmc := set_link s k (PLink (k_rx l) (k_tx l) r (k_sack l)).
(** bmc.py 437-444 _on_link *)
Definition on_link (s : bmc) (from target : option bytes) : res bmc :=
  match from with
  | None => Val s
  | Some f =>
      bind (read_address f) (fun a =>
      match kget (show_address a) (c_links s) with
      | None => Val s
      | Some l =>
          match target with
          | None => Raise XOther
          | Some t => if existsb (bytes_eqb t) (k_reach l) then Val s else Val (set_reach s (show_address a) l (k_reach l ++ [t]))
          end
      end)
  end.
(** bmc.py 446-452 _on_unlink *)
Definition on_unlink (s : bmc) (from target : option bytes) : res bmc :=
  match from with
  | None => Val s
  | Some f =>
      bind (read_address f) (fun a =>
      match kget (show_address a) (c_links s), target with
      | Some l, Some t => Val (set_reach s (show_address a) l (array_remove (k_reach l) t))
      | _, _ => Val s
      end)
  end.

Section CENTER.
Variable utf8 : bytes -> bool.
Variable serve : list out -> out -> outcome.
Definition is_text (s : option bytes) (x : string) : bool := match s with Some s => bytes_eqb s (str x) | None => false end.
(** bmc.py 528-537: events *)
Definition handle_event (s : bmc) (m : bmsg) : res bmc :=
  bind (read_event utf8 (b_pay m)) (fun e =>
  let pair := fun f : bmc -> option bytes -> option bytes -> res bmc => match snd e with a :: b :: _ => f s a b | _ => Raise XOther end in
  if is_text (fst e) "Link" then pair on_link
  else if is_text (fst e) "Unlink" then pair on_unlink
  else Raise (X_BMC 0 "not exists event handler")).
(** bmc.py 538-542 *)
Definition handle_sack (s : bmc) (prev : bytes) (m : bmsg) : res bmc :=
  bind (read_sack utf8 (b_pay m)) (fun x =>
  bind (need (kget prev (c_links s))) (fun l => Val (set_link s prev (PLink (k_rx l) (k_tx l) (k_reach l) x)))).
(** a key of the services; str(None) *)
Definition svc_key (svc : option bytes) : bytes := match svc with Some x => x | None => none_text end.
(** bmc.py 544-549: a message for a service *)
Definition handle_service (s : bmc) (prev : bytes) (m : bmsg) (sn : Z) : res bmc :=
  match kget (svc_key (b_svc m)) (c_services s) with
  | None => match NO_SERVICE with XBtp c t => send_error s prev m sn c t | XOther => Raise XOther end
  | Some a =>
      bind (need (b_src m)) (fun src =>
      let call := OHandle a (pa_net src) (b_svc m) sn (b_pay m) in
      match serve (c_out s) call with
      | Done l => Val (sends (emit s call) l)
      | Fails (XBtp c t) => send_error (emit s call) prev m sn c t
      | Fails XOther => Raise XOther
      end)
  end.
(** bmc.py 550-558: an error for a service *)
Definition handle_error (s : bmc) (m : bmsg) (sn : Z) : res bmc :=
  bind (read_error utf8 (b_pay m)) (fun e =>
  match kget (svc_key (b_svc m)) (c_services s) with
  | None => Val (emit s (OErrorOn (b_svc m) (- sn) (fst e) (snd e) NO_SERVICE))
  | Some a =>
      let call := OHandleError a (shown (b_src m)) (b_svc m) (- sn) (fst e) (snd e) in
      match serve (c_out s) call with
      | Done l => Val (sends (emit s call) l)
      | Fails x => Val (emit (emit s call) (OErrorOn (b_svc m) (- sn) (fst e) (snd e) x))
      end
  end).
(** bmc.py 526-558 _handle_msg *)
Definition handle_msg (s : bmc) (prev : bytes) (m : bmsg) : res bmc :=
  if is_text (b_svc m) "_event" then handle_event s m
  else if is_text (b_svc m) "_sack" then handle_sack s prev m
  else bind (need (b_sn m)) (fun sn => if 0 <=? sn then handle_service s prev m sn else handle_error s m sn).
(** bmc.py 620-625: a message for another center; a number is needed only where an error is sent *)
Definition pass_on (s : bmc) (prev : bytes) (m : bmsg) (raw : bytes) : res bmc :=
  bind (need (b_dst m)) (fun d =>
  match bind (resolve s (pa_net d)) (fun x => bind (need (fst x)) (fun k => send_message s k raw)) with
  | Val s' => Val s'
  | Raise (XBtp c t) => match b_sn m with Some sn => send_error s prev m sn c t | None => Raise XOther end
  | Raise XOther => Raise XOther
  end).
(** bmc.py 612-625: one message *)
Definition relay_one (s : bmc) (prev : bytes) (v : pyval) : res bmc :=
  match read_message utf8 v, v with
  | Some m, PBytes raw => if bytes_eqb (shown (b_dst m)) (c_me s) then handle_msg s prev m else pass_on s prev m raw
  | _, _ => Val s
  end.
Fixpoint relay_all (s : bmc) (prev : bytes) (l : list pyval) : res bmc :=
  match l with [] => Val s | v :: r => bind (relay_one s prev v) (fun s' => relay_all s' prev r) end.
(** bmc.py 577-629 handleRelayMessage *)
Definition handleRelay (s : bmc) (prev : bytes) (relay_ok : bool) (ask : bytes -> bytes -> Z -> option (list pyval)) : res bmc :=
  bind (read_address prev) (fun a =>
  let key := show_address a in
  match kget key (c_links s) with
  | None => Raise NO_LINK
  | Some l =>
      match kget (pa_net a) (c_verifiers s) with
      | None => Raise NO_VERIFIER
      | Some v =>
          bind (need (ask v key (k_rx l))) (fun msgs =>
          if negb relay_ok then Raise NO_RELAY
          else
            bind (relay_all s key msgs) (fun s' =>
            bind (need (kget key (c_links s'))) (fun l' => Val (set_link s' key (PLink (k_rx l' + zlen msgs) (k_tx l') (k_reach l') (k_sack l')))))) 
      end
  end).
End CENTER.

(** bmc.py 430-435 _propagate_event *)
Fixpoint propagate (s : bmc) (evt : bytes) (values : list bytes) (targets : list bytes) : res bmc :=
  match targets with
  | [] => Val s
  | t :: r =>
      bind (read_address t) (fun d =>
      bind (send_message s (show_address d) (write_message (c_me s) (show_address d) (Some (str "_event")) 0 (Some (write_event evt values)))) (fun s' => propagate s' evt values r))
  end.
(** bmc.py 258-267 _add_link, 290-303 addLink *)
Definition addLink (s : bmc) (link : bytes) : res bmc :=
  bind (valid_address link) (fun a =>
  let key := show_address a in
  match kget (pa_net a) (c_verifiers s), kget key (c_links s) with
  | None, _ => Raise NO_VERIFIER
  | _, Some _ => Raise (X_BMC 7 "already exists link")
  | _, None => if existsb (Z.eqb 44) key then Raise XOther
               else let s' := emit (set_link s key new_link) (OLinked key) in propagate s' (str "Link") [c_me s; key] (map fst (c_links s'))
  end).
(** bmc.py 269-274 _remove_link, 305-315 removeLink *)
Definition removeLink (s : bmc) (link : bytes) : res bmc :=
  bind (valid_address link) (fun a =>
  let key := show_address a in
  match kget key (c_links s) with
  | None => Raise NO_LINK
  | Some _ => bind (propagate s (str "Unlink") [c_me s; key] (map fst (c_links s))) (fun s' => Val (with_links s' (kdel key (c_links s'))))
  end).
(** bmc.py 282-288 _has_link *)
Fixpoint has_link (net : bytes) (l : list (bytes * plink)) : res bool :=
  match l with [] => Val false | (k, _) :: r => bind (read_address k) (fun a => if bytes_eqb (pa_net a) net then Val true else has_link net r) end.
Definition with_verifiers (s : bmc) (x : list (bytes * bytes)) : bmc := Bmc (c_me s) (c_net s) (c_services s) x (c_links s) (c_routes s) (c_out s).
Definition with_services (s : bmc) (x : list (bytes * bytes)) : bmc := Bmc (c_me s) (c_net s) x (c_verifiers s) (c_links s) (c_routes s) (c_out s).
Definition with_routes (s : bmc) (x : list (bytes * bytes)) : bmc := Bmc (c_me s) (c_net s) (c_services s) (c_verifiers s) (c_links s) x (c_out s).
(** a key with a comma is an exception (db.py 102-109) *)
Definition put_new (k v : bytes) (l : list (bytes * bytes)) : res (list (bytes * bytes)) := if existsb (Z.eqb 44) k then Raise XOther else Val (kput k v l).
(** bmc.py 204-219 addVerifier *)
Definition addVerifier (s : bmc) (net addr : bytes) : res bmc :=
  if bytes_eqb net (c_net s) then Raise (X_BMC 0 "invalid argument, net_addr")
  else match kget net (c_verifiers s) with
       | Some _ => Raise (X_BMC 3 "already exists verifier")
       | None => bind (put_new net addr (c_verifiers s)) (fun x => Val (with_verifiers s x))
       end.
(** bmc.py 221-235 removeVerifier *)
Definition removeVerifier (s : bmc) (net : bytes) : res bmc :=
  match kget net (c_verifiers s) with
  | None => Raise NO_VERIFIER
  | Some _ => bind (has_link net (c_links s)) (fun b => if b then Raise (X_BMC 0 "cannot remove verifier because exists link") else Val (with_verifiers s (kdel net (c_verifiers s))))
  end.
(** bmc.py 137-153 addService, 161-175 removeService; the permissions are left out.  [alnum] is str.isalnum. *)
Definition addService (alnum : bytes -> bool) (s : bmc) (svc addr : bytes) : res bmc :=
  if negb (alnum svc) then Raise (X_BMC 0 "invalid service name")
  else match kget svc (c_services s) with
       | Some _ => Raise (X_BMC 6 "already exists service")
       | None => bind (put_new svc addr (c_services s)) (fun x => Val (with_services s x))
       end.
Definition removeService (s : bmc) (svc : bytes) : res bmc :=
  match kget svc (c_services s) with None => Raise NO_SERVICE | Some _ => Val (with_services s (kdel svc (c_services s))) end.
(** bmc.py 457-471 addRoute, 473-484 removeRoute *)
Definition addRoute (s : bmc) (dst link : bytes) : res bmc :=
  match kget dst (c_routes s) with
  | Some _ => Raise (XBtp 0 (str "already exists route"))
  | None => bind (valid_address link) (fun a => bind (put_new dst (show_address a) (c_routes s)) (fun x => Val (with_routes s x)))
  end.
Definition removeRoute (s : bmc) (dst : bytes) : res bmc :=
  match kget dst (c_routes s) with None => Raise (XBtp 0 (str "not found route")) | Some _ => Val (with_routes s (kdel dst (c_routes s))) end.

(** The calls *)
Inductive call :=
| CRelay (prev : bytes) (relay_ok : bool) (ask : bytes -> bytes -> Z -> option (list pyval)) | CSend (to svc : bytes) (sn : Z) (msg : bytes)
| CAddLink (link : bytes) | CRemoveLink (link : bytes) | CAddVerifier (net addr : bytes) | CRemoveVerifier (net : bytes)
| CAddService (svc addr : bytes) | CRemoveService (svc : bytes) | CAddRoute (dst link : bytes) | CRemoveRoute (dst : bytes).
Definition call_result (utf8 alnum : bytes -> bool) (serve : list out -> out -> outcome) (s : bmc) (c : call) : res bmc :=
  match c with
  | CRelay prev ok ask => handleRelay utf8 serve s prev ok ask
  | CSend to svc sn msg => sendMessage s to svc sn msg
  | CAddLink l => addLink s l
  | CRemoveLink l => removeLink s l
  | CAddVerifier n a => addVerifier s n a
  | CRemoveVerifier n => removeVerifier s n
  | CAddService v a => addService alnum s v a
  | CRemoveService v => removeService s v
  | CAddRoute d l => addRoute s d l
  | CRemoveRoute d => removeRoute s d
  end.
(** A call that raises is undone. *)
Fixpoint run (utf8 alnum : bytes -> bool) (serve : list out -> out -> outcome) (s : bmc) (cs : list call) : bmc :=
  match cs with
  | [] => s
  | c :: r => run utf8 alnum serve (match call_result utf8 alnum serve s c with Val s' => s' | Raise _ => s end) r
  end.
