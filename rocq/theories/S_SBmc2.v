(** What the tables of the message center for the EVM should look like. *)
From Coq Require Import String Ascii ZArith List Bool.
From Verif Require Import Base M_SolRlp M_BtpAddr M_Bridge M_JMap M_SBmc.
Import ListNotations.
Open Scope Z_scope.

(** Every table agrees with the list of its keys, without repetition; there are fees for known destinations only, an even
    number; a route that is merely announced has been announced. *)
Record tidy (m : man) : Prop := Tidy {
  ty_routes : NoDup (routes m) /\ forall d, In d (routes m) <-> r_type (route_of m d) <> TNone;
  ty_none : forall d, r_type (route_of m d) = TNone -> route_of m d = no_route;
  ty_reach : forall d, 0 <= r_reach (route_of m d) /\ (r_type (route_of m d) = TReachable -> 0 < r_reach (route_of m d));
  ty_fees : forall d, fees_of m d <> [] -> r_type (route_of m d) <> TNone /\ Nat.even (length (fees_of m d)) = true;
  ty_services : NoDup (h_keys m) /\ forall k, In k (h_keys m) <-> h_of m k <> 0;
  ty_verifiers : NoDup (v_keys m) /\ forall k, In k (v_keys m) <-> v_of m k <> 0;
  ty_relays : forall k, NoDup (relays_of m k) /\ ~ In 0 (relays_of m k) /\ (l_addr (link_of m k) = [] -> relays_of m k = []) }.

(** * Routes that lead somewhere *)
(** how often a network is announced by a list of addresses, and by all links together *)
Definition nets (l : list text) (d : text) : nat := length (filter (fun a => match networkAddress a with Some n => bytes_eqb n d | None => false end) l).
Definition announced (m : man) (d : text) : nat := list_sum (map (fun k => nets (l_reach (link_of m k)) d) (links m)).
(** Every link is listed once and is the route to its network; another route leads to a link which announces the
    network, or was set by an owner to a link; every announcement is counted; links do not announce themselves. *)
Record leading (m : man) : Prop := Leading {
  ld_links : NoDup (links m);
  ld_real : forall k, In k (links m) -> l_addr (link_of m k) = k;
  ld_gone : forall k, ~ In k (links m) -> link_of m k = no_link;
  ld_addr : forall k a, In a (l_reach (link_of m k)) -> exists n, networkAddress a = Some n;
  ld_once : forall k d, (nets (l_reach (link_of m k)) d <= 1)%nat;
  ld_self : forall k d, networkAddress k = Some d -> nets (l_reach (link_of m k)) d = 0%nat;
  ld_count : forall d, r_reach (route_of m d) = Z.of_nat (announced m d);
  ld_direct : forall k, In k (links m) -> exists d, networkAddress k = Some d /\ r_type (route_of m d) = TLink /\ r_next (route_of m d) = k;
  ld_link : forall d, r_type (route_of m d) = TLink -> In (r_next (route_of m d)) (links m) /\ networkAddress (r_next (route_of m d)) = Some d;
  ld_reach : forall d, r_type (route_of m d) = TReachable -> In (r_next (route_of m d)) (links m) /\ nets (l_reach (link_of m (r_next (route_of m d)))) d = 1%nat;
  ld_manual : forall d, r_type (route_of m d) = TManual -> In (r_next (route_of m d)) (links m) }.

(** What happens to the tables. *)
Inductive tev := TAnnounce (from a : text) | TWithdraw (from a : text) | TAddLink (link : text) | TRemoveLink (link : text) | TAddRoute (dst net : text) | TRemoveRoute (dst : text).
Definition t_addLink (m : man) (link : text) : option man :=
  sbind (networkAddress link) (fun net => sbind (require (negb (existsLink m net))) (fun _ => sbind (require (existsVerifier m net)) (fun _ =>
  Some (addRouteInfo (set_links m (tset (link_of m) link (Lnk link [])) (links m ++ [link])) net link TLink)))).
Definition t_removeLink (m : man) (link : text) : option man :=
  sbind (require (isLink m link)) (fun _ =>
  sbind (require (negb (existsb (fun d => rtype_eqb (r_type (route_of m d)) TManual && bytes_eqb (r_next (route_of m d)) link) (routes m)))) (fun _ =>
  sbind (networkAddress link) (fun net =>
  sbind (removeRouteInfo m net None) (fun m =>
  sbind (removeFrom bytes_eqb (links m) link) (fun l =>
  let m := set_links m (link_of m) l in
  sbind (removeReached m link (l_reach (link_of m link))) (fun m =>
  Some (set_relays (set_links m (tset (link_of m) link no_link) (links m)) (tset (relays_of m) link []))))))) ).
Definition tstep (m : man) (e : tev) : option man :=
  match e with
  | TAnnounce from a => addReachable m from a
  | TWithdraw from a => removeReachable m from a
  | TAddLink link => t_addLink m link
  | TRemoveLink link => t_removeLink m link
  | TAddRoute dst net => sbind (require (negb (bytes_eqb dst net) && negb (rtype_eqb (r_type (route_of m dst)) TManual) && existsLink m net)) (fun _ => Some (addRouteInfo m dst (r_next (route_of m net)) TManual))
  | TRemoveRoute dst => sbind (require (rtype_eqb (r_type (route_of m dst)) TManual)) (fun _ => removeRouteInfo m dst None)
  end.
Fixpoint trun (m : man) (es : list tev) : option man := match es with [] => Some m | e :: r => sbind (tstep m e) (fun m => trun m r) end.
(** Routes that are not there for being announced alone. *)
Definition fixed (m : man) (d : text) : Prop := r_type (route_of m d) = TLink \/ r_type (route_of m d) = TManual.
(** What keeps the routes in order: networks with a route announce another network once and withdraw what they announced; a link is
    added to an unknown network, a route set by an owner does not replace a direct one; and no direct route and no route
    set by an owner loses its last announcement. *)
Definition orderly (m : man) (e : tev) : Prop :=
  match e with
  | TAnnounce from a => r_type (route_of m from) <> TNone /\ forall d, networkAddress a = Some d ->
      nets (l_reach (link_of m (r_next (route_of m from)))) d = 0%nat /\ networkAddress (r_next (route_of m from)) <> Some d
  | TWithdraw from a => In a (l_reach (link_of m (r_next (route_of m from)))) /\ forall d, networkAddress a = Some d -> fixed m d -> 1 < r_reach (route_of m d)
  | TAddLink link => forall d, networkAddress link = Some d -> r_type (route_of m d) = TNone
  | TRemoveLink link => forall a d, In a (l_reach (link_of m link)) -> networkAddress a = Some d -> fixed m d -> 1 < r_reach (route_of m d)
  | TAddRoute dst _ => r_type (route_of m dst) <> TLink
  | TRemoveRoute _ => True
  end.
(** What a message asks of the tables, and what a transaction that succeeds does to them: relayed messages for the message center
    itself announce and withdraw, owners do the rest. *)
Definition asks (junk : list Z -> mem) (m : msg) : list tev :=
  match decodeBMCMessage junk (m_body m) with
  | None => []
  | Some (type, p) =>
      if bytes_eqb type (str "Link") then match decodePropagateMessage junk p with Some a => [TAnnounce (m_src m) a] | None => [] end
      else if bytes_eqb type (str "Unlink") then match decodePropagateMessage junk p with Some a => [TWithdraw (m_src m) a] | None => [] end
      else if bytes_eqb type (str "Init") then match decodeInitMessage junk p with Some l => map (TAnnounce (m_src m)) l | None => [] end
      else []
  end.
(** of the messages in order, some are done *)
Inductive asked (own : text) (svcaddr : Z) (junk : list Z -> mem) (services : text -> Z) : list (list Z) -> list tev -> Prop :=
| asked_nil : asked own svcaddr junk services [] []
| asked_skip : forall b bs es, asked own svcaddr junk services bs es -> asked own svcaddr junk services (b :: bs) es
| asked_do : forall b bs es m, decodeBTPMessage junk b = Some m -> m_dst m = own -> m_svc m = BMC_SERVICE \/ services (m_svc m) = svcaddr -> 0 <= m_sn m ->
    asked own svcaddr junk services bs es -> asked own svcaddr junk services (b :: bs) (asks junk m ++ es).
Definition caused (own : text) (svcaddr : Z) (junk : list Z -> mem) (verify : nat -> Z -> text -> Z -> list Z -> option (list (list Z))) (s : st) (o : op) (es : list tev) : Prop :=
  match o with
  | HandleRelay c prev b => exists net bs, networkAddress prev = Some net /\ verify (length (s_out s)) (v_of (s_m s) net) prev (rx_of (s_p s) prev) b = Some bs /\ asked own svcaddr junk (h_of (s_m s)) bs es
  | AddLink _ link => es = [TAddLink link]
  | RemoveLink _ link => es = [TRemoveLink link]
  | AddRoute _ dst net => es = [TAddRoute dst net]
  | RemoveRoute _ dst => es = [TRemoveRoute dst]
  | _ => es = []
  end.
Definition same_tables (m m' : man) : Prop := links m' = links m /\ link_of m' = link_of m /\ routes m' = routes m /\ route_of m' = route_of m.
(** The routes lead somewhere as long as every event was in order. *)
Fixpoint orderly_run (m : man) (es : list tev) : Prop := match es with [] => True | e :: r => orderly m e /\ forall m', tstep m e = Some m' -> orderly_run m' r end.
