(** What the message center of the Python contracts should do, independently of how it does it. *)
From Coq Require Import String Ascii ZArith List Bool.
From Verif Require Import Base M_PyRlp M_PyBmv M_PyBmc.
Import ListNotations.
Open Scope Z_scope.
Local Notation bytes := (list Z).

(** The first entry with a property. *)
Definition first {A} (P : A -> Prop) (l : list A) (x : A) : Prop := exists l1 l2, l = l1 ++ x :: l2 /\ P x /\ Forall (fun y => ~ P y) l1.
(** A text is an address in the network. *)
Definition in_net (net k : bytes) : Prop := exists a, parse_address k = Some a /\ pa_net a = net.
Definition readable (k : bytes) : Prop := exists a, parse_address k = Some a.
Definition linked (s : bmc) (k : bytes) : Prop := In k (map fst (c_links s)).
(** The neighbour that messages for a network go to: the route named as the network, else the first route whose destination is in it,
    else the first link in it, else the first link that reports it as reachable. *)
Definition route_for (s : bmc) (net : bytes) (d : bytes) : Prop :=
  (exists v, first (fun e => fst e = net) (c_routes s) (net, v) /\ d = v) \/
  ((forall v, ~ In (net, v) (c_routes s)) /\ exists k, first (fun e => in_net net (fst e)) (c_routes s) (k, d)).
Definition direct_for (s : bmc) (net : bytes) (d : bytes) : Prop := exists l, first (fun e => in_net net (fst e)) (c_links s) (d, l).
Definition reach_for (s : bmc) (net : bytes) (d : bytes) : Prop := exists l, first (fun e => exists r, In r (k_reach (snd e)) /\ in_net net r) (c_links s) (d, l).
Inductive hop (s : bmc) (net d : bytes) : Prop :=
| h_route : route_for s net d -> hop s net d
| h_direct : (forall e, ~ route_for s net e) -> direct_for s net d -> hop s net d
| h_reach : (forall e, ~ route_for s net e) -> (forall e, ~ direct_for s net e) -> reach_for s net d -> hop s net d.
(** All the texts looked through are addresses. *)
Definition all_readable (s : bmc) : Prop :=
  Forall (fun e => readable (fst e)) (c_routes s) /\ Forall (fun e => readable (fst e) /\ Forall readable (k_reach (snd e))) (c_links s).

(** The numbers of the messages to a neighbour since it was linked last. *)
Definition count (k : bytes) (acc : list Z) (o : out) : list Z :=
  match o with OLinked k' => if bytes_eqb k' k then [] else acc | OMessage k' n _ => if bytes_eqb k' k then acc ++ [n] else acc | _ => acc end.
Definition sent (k : bytes) (t : list out) : list Z := fold_left (count k) t [].
Definition upto (n : Z) : list Z := map Z.of_nat (seq 1 (Z.to_nat n)).

(** Calls of services, and messages without their numbers *)
Definition is_handle (o : out) : bool := match o with OHandle _ _ _ _ _ | OHandleError _ _ _ _ _ _ => true | _ => false end.
Definition messages (t : list out) : list (bytes * bytes) := flat_map (fun o => match o with OMessage k _ m => [(k, m)] | _ => [] end) t.
Definition inner (m : bmsg) : Prop := b_svc m = Some (str "_event") \/ b_svc m = Some (str "_sack").
Definition registered (s : bmc) (svc : option bytes) (a : bytes) : Prop := first (fun e => fst e = svc_key svc) (c_services s) (svc_key svc, a).
Definition for_me (s : bmc) (m : bmsg) : Prop := shown (b_dst m) = c_me s.

(** The calls of services that a message leads to. *)
Inductive called (utf8 : bytes -> bool) (s : bmc) (v : pyval) : list out -> Prop :=
| w_unread : read_message utf8 v = None -> called utf8 s v []
| w_other : forall m, read_message utf8 v = Some m -> ~ for_me s m -> called utf8 s v []
| w_inner : forall m, read_message utf8 v = Some m -> for_me s m -> inner m -> called utf8 s v []
| w_unknown : forall m, read_message utf8 v = Some m -> for_me s m -> ~ inner m -> (forall a, ~ registered s (b_svc m) a) -> called utf8 s v []
| w_message : forall m a src sn, read_message utf8 v = Some m -> for_me s m -> ~ inner m -> registered s (b_svc m) a -> b_src m = Some src -> b_sn m = Some sn -> 0 <= sn ->
    called utf8 s v [OHandle a (pa_net src) (b_svc m) sn (b_pay m)]
| w_error : forall m a sn code text, read_message utf8 v = Some m -> for_me s m -> ~ inner m -> registered s (b_svc m) a -> b_sn m = Some sn -> sn < 0 ->
    read_error utf8 (b_pay m) = Val (code, text) -> called utf8 s v [OHandleError a (shown (b_src m)) (b_svc m) (- sn) code text].

(** The answer that tells the sender of [m] that it failed: nothing for number 0. *)
Definition failure (s : bmc) (prev : bytes) (m : bmsg) (sn code : Z) (text : bytes) : list (bytes * bytes) :=
  if sn =? 0 then [] else [(prev, write_message (c_me s) (shown (b_src m)) (b_svc m) (- sn) (Some (write_error code text)))].
(** The messages that a message leads to, where services send none themselves. *)
Inductive answers (utf8 : bytes -> bool) (serve : list out -> out -> outcome) (s : bmc) (prev : bytes) (v : pyval) : list (bytes * bytes) -> Prop :=
| a_unread : read_message utf8 v = None -> answers utf8 serve s prev v []
| a_inner : forall m, read_message utf8 v = Some m -> for_me s m -> inner m -> answers utf8 serve s prev v []
| a_unknown : forall m sn, read_message utf8 v = Some m -> for_me s m -> ~ inner m -> b_sn m = Some sn -> 0 <= sn -> (forall a, ~ registered s (b_svc m) a) ->
    answers utf8 serve s prev v (failure s prev m sn 16 (str "not exists service"))
| a_done : forall m sn a src, read_message utf8 v = Some m -> for_me s m -> ~ inner m -> b_sn m = Some sn -> 0 <= sn -> registered s (b_svc m) a -> b_src m = Some src ->
    serve (c_out s) (OHandle a (pa_net src) (b_svc m) sn (b_pay m)) = Done [] -> answers utf8 serve s prev v []
| a_refused : forall m sn a src code text, read_message utf8 v = Some m -> for_me s m -> ~ inner m -> b_sn m = Some sn -> 0 <= sn -> registered s (b_svc m) a -> b_src m = Some src ->
    serve (c_out s) (OHandle a (pa_net src) (b_svc m) sn (b_pay m)) = Fails (XBtp code text) -> answers utf8 serve s prev v (failure s prev m sn code text)
| a_error : forall m sn, read_message utf8 v = Some m -> for_me s m -> ~ inner m -> b_sn m = Some sn -> sn < 0 -> answers utf8 serve s prev v []
| a_pass : forall m raw dst d, v = PBytes raw -> read_message utf8 v = Some m -> ~ for_me s m -> b_dst m = Some dst -> hop s (pa_net dst) d -> linked s d -> answers utf8 serve s prev v [(d, raw)]
| a_unreachable : forall m sn dst, read_message utf8 v = Some m -> ~ for_me s m -> b_dst m = Some dst -> (forall d, ~ hop s (pa_net dst) d) -> b_sn m = Some sn ->
    answers utf8 serve s prev v (failure s prev m sn 19 (str "unreachable " ++ pa_net dst)).
Definition quiet (serve : list out -> out -> outcome) : Prop := forall t c l, serve t c = Done l -> l = [].

(** Messages no center can take: what fails in reading them is not caught. *)
Inductive stuck (utf8 : bytes -> bool) (me : bytes) (m : bmsg) : Prop :=
| s_nowhere : b_dst m = None -> me <> none_text -> stuck utf8 me m
| s_event : forall x, shown (b_dst m) = me -> b_svc m = Some (str "_event") -> read_event utf8 (b_pay m) = Raise x -> stuck utf8 me m
| s_event_name : forall n l, shown (b_dst m) = me -> b_svc m = Some (str "_event") -> read_event utf8 (b_pay m) = Val (n, l) -> n <> Some (str "Link") -> n <> Some (str "Unlink") -> stuck utf8 me m
| s_event_short : forall n l, shown (b_dst m) = me -> b_svc m = Some (str "_event") -> read_event utf8 (b_pay m) = Val (n, l) -> (length l < 2)%nat -> stuck utf8 me m
| s_event_text : forall n f l, shown (b_dst m) = me -> b_svc m = Some (str "_event") -> read_event utf8 (b_pay m) = Val (n, Some f :: l) -> ~ readable f -> stuck utf8 me m
| s_sack : forall x, shown (b_dst m) = me -> b_svc m = Some (str "_sack") -> read_sack utf8 (b_pay m) = Raise x -> stuck utf8 me m
| s_number : shown (b_dst m) = me -> ~ inner m -> b_sn m = None -> stuck utf8 me m
| s_error : forall sn x, shown (b_dst m) = me -> ~ inner m -> b_sn m = Some sn -> sn < 0 -> read_error utf8 (b_pay m) = Raise x -> stuck utf8 me m.
