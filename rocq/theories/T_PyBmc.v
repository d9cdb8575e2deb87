(** C102: the message center of the Python contracts. *)
From Coq Require Import String Ascii ZArith List Bool Lia.
From Coq Require Import ZifyBool Permutation.
From Verif Require Import Base L_Base GoStr S_Address M_JMap M_IntConv S_IntConv L_IntConv M_Rlp S_Rlp M_PyRlp S_PyRlp L_PyRlp T_PyRlp M_PyBmv M_PyBmc S_PyBmc L_PyBmc.
Import ListNotations.
Open Scope Z_scope.
Local Notation bytes := (list Z).

(** * Addresses and messages *)
(** The text of an address is read as that address. *)
Theorem C102_address_text : forall s a, parse_address s = Some a -> parse_address (show_address a) = Some a.
Proof. exact show_parse. Qed.
Print Assumptions C102_address_text.
Example C102_ex_address : parse_address (str "btp://0x2.iconee/cx02") = Some (PAddr (str "btp") (str "0x2.iconee") (str "cx02")).
Proof. vm_compute. reflexivity. Qed.

(** A message is read as it was written. *)
Theorem C102_message_bytes : forall utf8 src dst svc sn pay a b, parse_address src = Some a -> parse_address dst = Some b ->
  utf8 src = true -> utf8 dst = true -> utf8 svc = true -> bytes_ok src -> bytes_ok dst -> bytes_ok svc -> bytes_ok pay ->
  (forall n, shortest_tc sn n -> zlen (rlp_write (RList [RBytes src; RBytes dst; RBytes svc; RBytes n; RBytes pay])) <= 65538) ->
  read_message utf8 (PBytes (write_message src dst (Some svc) sn (Some pay))) = Some (BMsg (Some a) (Some b) (Some svc) (Some sn) (Some pay)).
Proof.
  intros utf8 src dst svc sn pay a b PA PB US UD UV OS OD OV OP L. pose proof (BigIntToBytes_shortest sn) as N. set (n := BigIntToBytes sn) in *. specialize (L n N).
  assert (T : tc_value n = sn) by apply N. assert (ON : bytes_ok n) by apply N. cbn [read_message]. unfold write_message. cbn [py_text py_bytes].
  rewrite (C97_read_back utf8 (TFields [TStr; TStr; TStr; TInt; TBytes]) _ (RList [RBytes src; RBytes dst; RBytes svc; RBytes n; RBytes pay])).
  - cbn [opt_address opt_text opt_int]. rewrite PA, PB. reflexivity.
  - constructor. do 3 (constructor; [constructor|]). constructor; [constructor; exact N|]. constructor; [constructor|constructor].
  - constructor. repeat (constructor; [constructor; assumption|]). constructor; [rewrite <- T at 1; constructor|]. constructor; [constructor|constructor].
  - cbn. tauto.
  - cbn. tauto.
  - exact L.
Qed.
Print Assumptions C102_message_bytes.

(** * Where messages go *)
(** When every text looked through is an address, a message goes to the neighbour that the routes, the links and what they report name;
    [hop] names at most one. *)
Theorem C102_next_hop : forall s net, all_readable s ->
  match resolve s net with
  | Val (o, d) => hop s net d /\ (o = Some d /\ linked s d \/ o = None /\ ~ linked s d)
  | Raise e => e = UNREACHABLE net /\ forall d, ~ hop s net d
  end.
Proof.
  intros s net A. destruct (resolve_total s net A) as [([o d] & E)|(E & N)]; rewrite E; [apply resolve_hop, E|]. split; [reflexivity|exact N].
Qed.
Print Assumptions C102_next_hop.
Theorem C102_one_hop : forall s net d e, hop s net d -> hop s net e -> d = e.
Proof. exact hop_unique. Qed.
Print Assumptions C102_one_hop.

(** sendMessage puts out one message for that neighbour and nothing else; what the neighbours were reached by stays. *)
Theorem C102_send : forall s to svc sn msg s', sendMessage s to svc sn msg = Val s' ->
  exists d n, 0 <= sn /\ hop s to d /\ linked s d /\ c_out s' = c_out s ++ [OMessage d n (write_message (c_me s) d (Some svc) sn (Some msg))] /\
  c_me s' = c_me s /\ c_services s' = c_services s /\ c_verifiers s' = c_verifiers s /\ c_routes s' = c_routes s /\ map fst (c_links s') = map fst (c_links s) /\
  (forall k l', kget k (c_links s') = Some l' -> exists l, kget k (c_links s) = Some l /\ k_rx l' = k_rx l).
Proof.
  intros s to svc sn msg s' E. apply sendMessage_same in E as (n & d & P & H & L & S). exists d, n. do 3 (split; [assumption|]). split; [apply (sm_out _ _ _ S)|].
  split; [apply S|]. split; [apply S|]. split; [apply S|]. split; [apply S|]. split; [apply S|]. apply (sm_rx _ _ _ S).
Qed.
Print Assumptions C102_send.

(** * After every history *)
Section HISTORY.
Variables (utf8 alnum : bytes -> bool) (serve : list out -> out -> outcome).
Lemma inv_call : forall s c s', inv s -> call_result utf8 alnum serve s c = Val s' -> inv s'.
Proof.
  intros s c s' I E. destruct c as [prev ok ask|to svc sn msg|link|link|net addr|net|svc addr|svc|dst link|dst]; cbn [call_result] in E.
  - apply handleRelay_inv in E as (_ & a & l & v & msgs & s1 & l1 & t & cs & _ & _ & _ & _ & S & _ & _ & G1 & _ & ->). pose proof (inv_same _ _ _ S I) as [N K V O]. constructor; try assumption.
    + apply (numbered_set _ _ l1); [exact G1|reflexivity|exact N].
    + intros k L. unfold linked in L. rewrite (set_link_keys _ _ _ _ G1) in L. exact (K k L).
  - apply sendMessage_same in E as (n & d & _ & _ & _ & S). exact (inv_same _ _ _ S I).
  - apply addLink_inv in E as (a & t & s1 & VA & IV & NL & -> & S & _). apply (inv_same _ _ _ S). destruct I as [N K V O]. constructor; try assumption.
    + apply numbered_new; assumption.
    + intros k L. change (In k (map fst (c_links (set_link s (show_address a) new_link)))) in L. rewrite keys_new in L by exact NL. apply in_app_iff in L as [L|[<-|[]]]; [exact (K k L)|].
      destruct (valid_good _ _ VA) as (P & A1 & A2 & A3). exists a. repeat split; assumption.
  - unfold removeLink in E. destruct (valid_address link) as [a|x]; [|discriminate E]. cbn [bind] in E. destruct (kget (show_address a) (c_links s)); [|discriminate E].
    destruct (propagate s (str "Unlink") [c_me s; show_address a] (map fst (c_links s))) as [s1|x] eqn:P; [|discriminate E]. cbn [bind] in E. injection E as <-. apply propagate_same in P as (t & S & _).
    pose proof (inv_same _ _ _ S I) as [N K V O]. constructor; try assumption; [apply numbered_del, N|]. intros k L. apply (K k). apply (kdel_keys (show_address a)), L.
  - unfold addVerifier in E. destruct (bytes_eqb_spec net (c_net s)) as [->|NE]; [discriminate E|]. destruct (kget net (c_verifiers s)) as [v|] eqn:G; [discriminate E|]. destruct (put_new net addr (c_verifiers s)) as [x|x] eqn:P; [|discriminate E].
    cbn [bind] in E. injection E as <-. apply put_new_inv in P as ->. destruct I as [[N1 N2 N3 N4] K V O]. apply kget_none in G. assert (M : map fst (kput net addr (c_verifiers s)) = map fst (c_verifiers s) ++ [net]) by (rewrite kput_new by exact G; rewrite map_app; reflexivity).
    constructor; [constructor; assumption| | |]; cbn [with_verifiers c_verifiers c_net].
    + intros k L. destruct (K k L) as (a & A1 & A2 & A3 & A4 & A5 & A6). exists a. cbn [with_verifiers c_verifiers]. rewrite M. repeat split; try assumption. apply in_app_iff. left. exact A6.
    + rewrite M. apply nodup_snoc; assumption.
    + rewrite M. intros X. apply in_app_iff in X as [X|[X|[]]]; [contradiction|]. congruence.
  - unfold removeVerifier in E. destruct (kget net (c_verifiers s)); [|discriminate E]. destruct (has_link net (c_links s)) as [[|]|x] eqn:H; try discriminate E. cbn [bind] in E. injection E as <-. apply has_link_iff in H.
    destruct I as [[N1 N2 N3 N4] K V O]. constructor; [constructor; assumption| | |]; cbn [with_verifiers c_verifiers c_net].
    + intros k L. destruct (K k L) as (a & A1 & A2 & A3 & A4 & A5 & A6). exists a. cbn [with_verifiers c_verifiers]. repeat split; try assumption. assert (NE : pa_net a <> net) by (intros X; apply (H k L); exists a; split; assumption).
      apply kget_some in A6 as (v & A6). apply kget_some. exists v. rewrite kdel_get by exact V. destruct (bytes_eqb_spec (pa_net a) net); [contradiction|exact A6].
    + apply kdel_nodup, V.
    + intros X. apply O, (kdel_keys net), X.
  - unfold addService in E. destruct (alnum svc); [|discriminate E]. cbn [negb] in E. destruct (kget svc (c_services s)); [discriminate E|]. destruct (put_new svc addr (c_services s)); [|discriminate E]. cbn [bind] in E. injection E as <-. destruct I as [[N1 N2 N3 N4] K V O]. constructor; [constructor; assumption|assumption|assumption|assumption].
  - unfold removeService in E. destruct (kget svc (c_services s)); [|discriminate E]. injection E as <-. destruct I as [[N1 N2 N3 N4] K V O]. constructor; [constructor; assumption|assumption|assumption|assumption].
  - unfold addRoute in E. destruct (kget dst (c_routes s)); [discriminate E|]. destruct (valid_address link) as [a|x]; [|discriminate E]. cbn [bind] in E. destruct (put_new dst (show_address a) (c_routes s)); [|discriminate E]. cbn [bind] in E. injection E as <-. destruct I as [[N1 N2 N3 N4] K V O]. constructor; [constructor; assumption|assumption|assumption|assumption].
  - unfold removeRoute in E. destruct (kget dst (c_routes s)); [|discriminate E]. injection E as <-. destruct I as [[N1 N2 N3 N4] K V O]. constructor; [constructor; assumption|assumption|assumption|assumption].
Qed.
Lemma inv_run : forall cs s, inv s -> inv (run utf8 alnum serve s cs).
Proof.
  induction cs as [|c cs IH]; intros s I; cbn [run]; [exact I|]. apply IH. destruct (call_result utf8 alnum serve s c) as [s'|e] eqn:E; [|exact I]. exact (inv_call _ _ _ I E).
Qed.

(** The messages for each neighbour are numbered 1, 2, ..., as many as its counter says, from the moment it is linked; nothing is sent
    to addresses never linked. *)
Theorem C102_numbers : forall net addr s0 cs, install net addr = Val s0 -> let s := run utf8 alnum serve s0 cs in
  (forall k l, kget k (c_links s) = Some l -> 0 <= k_tx l /\ sent k (c_out s) = upto (k_tx l)) /\
  (forall k, exists n, sent k (c_out s) = upto n) /\
  (forall k, ~ In (OLinked k) (c_out s) -> sent k (c_out s) = []).
Proof.
  intros net addr s0 cs E s. assert (N : numbered s) by apply (inv_run cs s0 (inv_install _ _ _ E)). split; [|split].
  - intros k l G. destruct (nb_sent _ N k) as (n & A & B & C). rewrite (C l G). split; assumption.
  - intros k. destruct (nb_sent _ N k) as (n & _ & B & _). exists n. exact B.
  - apply (nb_none _ N).
Qed.
(** Every link is the text of a complete address of another network with a verifier. *)
Theorem C102_links : forall net addr s0 cs, install net addr = Val s0 -> let s := run utf8 alnum serve s0 cs in
  NoDup (map fst (c_links s)) /\
  (forall k, linked s k -> exists a, parse_address k = Some a /\ show_address a = k /\ pa_proto a <> [] /\ pa_net a <> [] /\ pa_contract a <> [] /\
     pa_net a <> c_net s /\ exists v, kget (pa_net a) (c_verifiers s) = Some v).
Proof.
  intros net addr s0 cs E s. destruct (inv_run cs s0 (inv_install _ _ _ E)) as [N K V O]. fold s in N, K, V, O. split; [apply N|].
  intros k L. destruct (K k L) as (a & A1 & A2 & A3 & A4 & A5 & A6). exists a. repeat split; try assumption; [|apply kget_some, A6]. intros X. apply O. rewrite <- X. exact A6.
Qed.

(** * A relay message *)
(** It counts, whole or not at all, for its link only; the services are called for its messages in their order, each as it says. *)
Theorem C102_relayed : forall s prev ok ask s', handleRelay utf8 serve s prev ok ask = Val s' ->
  ok = true /\ exists a l v msgs l' t cs, parse_address prev = Some a /\ kget (show_address a) (c_links s) = Some l /\ kget (pa_net a) (c_verifiers s) = Some v /\
  ask v (show_address a) (k_rx l) = Some msgs /\
  kget (show_address a) (c_links s') = Some l' /\ k_rx l' = k_rx l + zlen msgs /\
  (forall k x', k <> show_address a -> kget k (c_links s') = Some x' -> exists x, kget k (c_links s) = Some x /\ k_rx x' = k_rx x) /\
  map fst (c_links s') = map fst (c_links s) /\ c_me s' = c_me s /\ c_services s' = c_services s /\ c_verifiers s' = c_verifiers s /\ c_routes s' = c_routes s /\
  c_out s' = c_out s ++ t /\ Forall2 (called utf8 s) msgs cs /\ filter is_handle t = concat cs.
Proof.
  intros s prev ok ask s' E. apply handleRelay_inv in E as (OK & a & l & v & msgs & s1 & l1 & t & cs & P & G & V & A & S & F & C & G1 & R & ->). split; [exact OK|].
  exists a, l, v, msgs. eexists. exists t, cs. do 4 (split; [assumption|]). cbn [set_link with_links c_links c_me c_services c_verifiers c_routes c_out]. split; [apply kput_same|]. split; [reflexivity|].
  split; [intros k x' NE X; rewrite kput_other in X by exact NE; apply (sm_rx _ _ _ S k x' X)|]. split; [rewrite kput_keys by (apply kget_some; exists l1; exact G1); apply S|].
  split; [apply S|]. split; [apply S|]. split; [apply S|]. split; [apply S|]. split; [apply S|]. split; assumption.
Qed.
(** Where the services send nothing themselves and every text looked through is an address, one message leads to the messages that
    [answers] names: to the next center, or back to the sender when it failed. *)
Theorem C102_answers : forall s prev v s', quiet serve -> all_readable s -> relay_one utf8 serve s prev v = Val s' -> exists t, c_out s' = c_out s ++ t /\ answers utf8 serve s prev v (messages t).
Proof. intros s prev v s' Q A E. apply relay_one_same in E as (t & S & _ & H). exists t. split; [apply S|]. apply H; assumption. Qed.

(** * What goes wrong *)
(** A message that cannot be taken stops its link for good: whatever is called, as long as the verifier gives it again at that number and the
    link is not removed. *)
Theorem C102_stuck_refuted : forall me key n cs s l, c_me s = me -> kget key (c_links s) = Some l -> k_rx l = n ->
  (forall prev ok ask a v, In (CRelay prev ok ask) cs -> parse_address prev = Some a -> show_address a = key ->
     match ask v key n with None => True | Some msgs => exists x m, In x msgs /\ read_message utf8 x = Some m /\ stuck utf8 me m end) ->
  (forall link a, In (CRemoveLink link) cs -> valid_address link = Val a -> show_address a <> key) ->
  exists l', kget key (c_links (run utf8 alnum serve s cs)) = Some l' /\ k_rx l' = n.
Proof.
  intros me key n cs. induction cs as [|c cs IH]; intros s l M G R A D; cbn [run]; [exists l; split; assumption|].
  assert (X : forall s', call_result utf8 alnum serve s c = Val s' -> c_me s' = me /\ exists l', kget key (c_links s') = Some l' /\ k_rx l' = n).
  { intros s' E. assert (SM : forall t s1, same s t s1 -> c_me s1 = me /\ exists l', kget key (c_links s1) = Some l' /\ k_rx l' = n).
    { intros t s1 S. split; [rewrite (sm_me _ _ _ S); exact M|]. assert (I : In key (map fst (c_links s1))) by (rewrite (sm_keys _ _ _ S); apply kget_some; exists l; exact G). apply kget_some in I as (l' & G').
      exists l'. split; [exact G'|]. destruct (sm_rx _ _ _ S _ _ G') as (l0 & G0 & R0). congruence. }
    destruct c as [prev ok ask|to svc sn msg|link|link|net addr|net|svc addr|svc|dst link|dst]; cbn [call_result] in E.
    - pose proof E as E0. apply handleRelay_inv in E as (_ & a & l0 & v & msgs & s1 & l1 & t & cs0 & P & G0 & V & AS & S & F & C & G1 & R1 & ->).
      destruct (bytes_eqb_spec (show_address a) key) as [K|K].
      + exfalso. subst key. rewrite G in G0. injection G0 as <-. specialize (A prev ok ask a v (or_introl eq_refl) P eq_refl). rewrite R in AS. rewrite AS in A. destruct A as (x & m & I & RM & ST).
        unfold handleRelay in E0. apply read_iff in P. rewrite P in E0. cbn [bind] in E0. rewrite G, V, R, AS in E0. cbn [need bind] in E0. destruct ok; [|discriminate E0]. cbn [negb] in E0.
        rewrite <- M in ST. destruct (stuck_batch utf8 serve msgs s (show_address a) x m I RM ST) as (e & Y). rewrite Y in E0. discriminate E0.
      + destruct (SM t s1 S) as (M1 & l' & G' & R'). split; [exact M1|]. exists l'. split; [|exact R']. cbn [set_link with_links c_links]. rewrite kput_other by congruence. exact G'.
    - apply sendMessage_same in E as (k & d & _ & _ & _ & S). exact (SM _ _ S).
    - apply addLink_inv in E as (a & t & s1 & VA & IV & NL & -> & S & _). assert (NE : show_address a <> key) by (intros Y; apply NL; unfold linked; rewrite Y; apply kget_some; exists l; exact G).
      assert (I : In key (map fst (c_links s'))) by (rewrite (sm_keys _ _ _ S); change (In key (map fst (c_links (set_link s (show_address a) new_link)))); rewrite keys_new by exact NL; apply in_app_iff; left; apply kget_some; exists l; exact G).
      split; [rewrite (sm_me _ _ _ S); exact M|]. apply kget_some in I as (l' & G'). exists l'. split; [exact G'|]. destruct (sm_rx _ _ _ S _ _ G') as (l0 & G0 & R0). cbn [emit set_link with_links c_links] in G0. rewrite kput_other in G0 by congruence. congruence.
    - unfold removeLink in E. destruct (valid_address link) as [a|x] eqn:VA; [|discriminate E]. cbn [bind] in E. destruct (kget (show_address a) (c_links s)); [|discriminate E].
      destruct (propagate s (str "Unlink") [c_me s; show_address a] (map fst (c_links s))) as [s1|x] eqn:P; [|discriminate E]. cbn [bind] in E. injection E as <-. apply propagate_same in P as (t & S & _).
      destruct (SM t s1 S) as (M1 & l' & G' & R'). split; [exact M1|]. exists l'. split; [|exact R']. cbn [with_links c_links]. specialize (D link a (or_introl eq_refl) VA).
      clear -D G'. revert G'. generalize (c_links s1) as ls. intros ls. unfold kget. induction ls as [|[k w] ls IHl]; cbn [kdel aget]; [discriminate|].
      destruct (bytes_eqb_spec (show_address a) k) as [<-|NE]; [destruct (bytes_eqb_spec key (show_address a)); [congruence|intros Y; exact Y]|]. cbn [aget]. destruct (bytes_eqb key k); [intros Y; exact Y|exact IHl].
    - unfold addVerifier in E. destruct (bytes_eqb net (c_net s)); [discriminate E|]. destruct (kget net (c_verifiers s)); [discriminate E|]. destruct (put_new net addr (c_verifiers s)); [|discriminate E]. cbn [bind] in E. injection E as <-. split; [exact M|]. exists l. split; assumption.
    - unfold removeVerifier in E. destruct (kget net (c_verifiers s)); [|discriminate E]. destruct (has_link net (c_links s)) as [[|]|]; try discriminate E. cbn [bind] in E. injection E as <-. split; [exact M|]. exists l. split; assumption.
    - unfold addService in E. destruct (negb (alnum svc)); [discriminate E|]. destruct (kget svc (c_services s)); [discriminate E|]. destruct (put_new svc addr (c_services s)); [|discriminate E]. cbn [bind] in E. injection E as <-. split; [exact M|]. exists l. split; assumption.
    - unfold removeService in E. destruct (kget svc (c_services s)); [|discriminate E]. injection E as <-. split; [exact M|]. exists l. split; assumption.
    - unfold addRoute in E. destruct (kget dst (c_routes s)); [discriminate E|]. destruct (valid_address link); [|discriminate E]. cbn [bind] in E. destruct (put_new dst (show_address a) (c_routes s)); [|discriminate E]. cbn [bind] in E. injection E as <-. split; [exact M|]. exists l. split; assumption.
    - unfold removeRoute in E. destruct (kget dst (c_routes s)); [|discriminate E]. injection E as <-. split; [exact M|]. exists l. split; assumption. }
  destruct (call_result utf8 alnum serve s c) as [s'|e].
  - destruct (X s' eq_refl) as (M' & l' & G' & R'). apply (IH s' l' M' G' R'); [intros; eapply A; [right; eassumption|eassumption|assumption]|intros; eapply D; [right; eassumption|assumption]].
  - apply (IH s l M G R); [intros; eapply A; [right; eassumption|eassumption|assumption]|intros; eapply D; [right; eassumption|assumption]].
Qed.
(** Sending with the service name "_event" and bytes that are no event makes such a message for the neighbour. *)
Theorem C102_poison_refuted : forall s to sn junk s' e, inv s -> sendMessage s to (str "_event") sn junk = Val s' -> read_event utf8 (Some junk) = Raise e ->
  readable (c_me s) -> (forall x, bytes_ok x -> utf8 x = true) -> bytes_ok (c_me s) -> (forall k, linked s k -> bytes_ok k) -> bytes_ok junk ->
  (forall d n, linked s d -> shortest_tc sn n -> zlen (rlp_write (RList [RBytes (c_me s); RBytes d; RBytes (str "_event"); RBytes n; RBytes junk])) <= 65538) ->
  exists d n raw m, c_out s' = c_out s ++ [OMessage d n raw] /\ read_message utf8 (PBytes raw) = Some m /\ stuck utf8 d m.
Proof.
  intros s to sn junk s' e I E RE (a & PA) U OM OK OJ SZ. apply sendMessage_same in E as (n & d & P & H & L & S). destruct (in_keys _ I d L) as (b & PB & SB & _).
  exists d, n. eexists. eexists. split; [apply (sm_out _ _ _ S)|]. assert (OE : bytes_ok (str "_event")) by (vm_compute; repeat (constructor; [split; [discriminate|reflexivity]|]); constructor).
  split; [apply (C102_message_bytes utf8 (c_me s) d (str "_event") sn junk a b); try assumption; try (apply U; assumption); [apply U, OK, L|apply OK, L|intros k K; apply SZ; assumption]|].
  apply (s_event utf8 d _ e); [exact SB|reflexivity|exact RE].
Qed.
(** A failed answer is answered with a message of a positive number, as if it had been sent by the service. *)
Theorem C102_answered_error_refuted : forall s prev raw m sn dst, all_readable s -> read_message utf8 (PBytes raw) = Some m -> ~ for_me s m -> b_dst m = Some dst -> b_sn m = Some sn -> sn < 0 ->
  (forall d, ~ hop s (pa_net dst) d) -> linked s prev ->
  exists s' n p, relay_one utf8 serve s prev (PBytes raw) = Val s' /\ c_out s' = c_out s ++ [OMessage prev n (write_message (c_me s) (shown (b_src m)) (b_svc m) (- sn) (Some p))] /\ 0 < - sn.
Proof.
  intros s prev raw m sn dst A R N D SN P NH L. unfold relay_one. rewrite R. destruct (bytes_eqb_spec (shown (b_dst m)) (c_me s)) as [X|_]; [contradiction|]. unfold pass_on. rewrite D. cbn [need bind].
  destruct (resolve_total s (pa_net dst) A) as [([o d] & E)|(E & _)]; [exfalso; apply resolve_hop in E as (H & _); exact (NH d H)|]. rewrite E. cbn [bind]. unfold UNREACHABLE at 1. rewrite SN. unfold send_error. replace (sn =? 0) with false by lia.
  apply kget_some in L as (l & G). unfold send_message. rewrite G. cbn [need bind]. eexists. eexists. eexists. split; [reflexivity|]. split; [reflexivity|lia].
Qed.
(** An exception of a service that is not a BTPException undoes the whole relay message. *)
Theorem C102_service_stops_refuted : forall s prev raw m a src sn, read_message utf8 (PBytes raw) = Some m -> for_me s m -> ~ inner m -> registered s (b_svc m) a -> b_src m = Some src -> b_sn m = Some sn -> 0 <= sn ->
  (forall t, serve t (OHandle a (pa_net src) (b_svc m) sn (b_pay m)) = Fails XOther) -> forall l1 l2, exists e, relay_all utf8 serve s prev (l1 ++ PBytes raw :: l2) = Raise e.
Proof.
  intros s prev raw m a src sn R M N G SR SN P F l1. revert s M G. induction l1 as [|v l1 IH]; intros s M G l2; cbn [app relay_all].
  - unfold relay_one. rewrite R. rewrite M. rewrite (proj2 (bytes_eqb_eq (c_me s) (c_me s)) eq_refl). unfold handle_msg. destruct (not_inner m N) as (X & Y). rewrite X, Y, SN. cbn [need bind]. replace (0 <=? sn) with true by lia.
    unfold handle_service. apply registered_get in G. rewrite G, SR. cbn [need bind]. rewrite F. eexists; reflexivity.
  - destruct (relay_one utf8 serve s prev v) as [s1|e] eqn:E; [|exists e; reflexivity]. cbn [bind]. apply relay_one_same in E as (t & S & _). apply IH; [unfold for_me in *; rewrite (sm_me _ _ _ S); exact M|]. unfold registered in *. rewrite (sm_services _ _ _ S). exact G.
Qed.
(** Messages that are not read are counted and lost. *)
Theorem C102_lost_refuted : forall l s prev, (forall v, In v l -> read_message utf8 v = None) -> relay_all utf8 serve s prev l = Val s.
Proof.
  induction l as [|v l IH]; intros s prev H; cbn [relay_all]; [reflexivity|]. unfold relay_one at 1. rewrite (H v (or_introl eq_refl)). cbn [bind]. apply IH. intros w I. apply H. right. exact I.
Qed.
(** A message for a network whose route names an address that is not linked undoes the whole relay message. *)
Theorem C102_route_nowhere_refuted : forall s prev raw m dst d, read_message utf8 (PBytes raw) = Some m -> ~ for_me s m -> b_dst m = Some dst -> route_resolve s (pa_net dst) = Val (Some d) -> ~ linked s d ->
  relay_one utf8 serve s prev (PBytes raw) = Raise XOther.
Proof.
  intros s prev raw m dst d R N D RR L. unfold relay_one. rewrite R. destruct (bytes_eqb_spec (shown (b_dst m)) (c_me s)) as [X|_]; [contradiction|]. unfold pass_on. rewrite D. cbn [need bind]. unfold resolve. rewrite RR. cbn [bind].
  apply kget_none in L. rewrite L. reflexivity.
Qed.
End HISTORY.
Print Assumptions C102_numbers.
Print Assumptions C102_links.
Print Assumptions C102_relayed.
Print Assumptions C102_answers.
Print Assumptions C102_stuck_refuted.
Print Assumptions C102_poison_refuted.
Print Assumptions C102_answered_error_refuted.
Print Assumptions C102_service_stops_refuted.
Print Assumptions C102_lost_refuted.
Print Assumptions C102_route_nowhere_refuted.

(** A route named by a plain network, as sendMessage names networks, stops the search for every other network. *)
Theorem C102_plain_route_refuted : forall s plain link s', c_routes s = [] -> addRoute s plain link = Val s' -> behind (str "://") plain = None -> forall net, net <> plain -> resolve s' net = Raise XOther.
Proof.
  intros s plain link s' R E B net N. unfold addRoute in E. rewrite R in E. cbn [kget aget] in E. destruct (valid_address link) as [a|x]; [|discriminate E]. cbn [bind] in E. unfold put_new in E. destruct (existsb (Z.eqb 44) plain); [discriminate E|]. cbn [bind] in E. injection E as <-.
  unfold resolve, route_resolve. cbn [with_routes c_routes kput kget aput aget]. destruct (bytes_eqb_spec net plain); [contradiction|]. cbn [route_loop]. unfold read_address. rewrite B. reflexivity.
Qed.
Print Assumptions C102_plain_route_refuted.
(** An entry that is no address, told by a neighbour, stops the search for networks not linked directly, and not with the error that is answered. *)
Theorem C102_told_text_refuted : forall s k l t s' a, c_routes s = [] -> c_links s = [(k, l)] -> k_reach l = [] -> parse_address k = Some a -> show_address a = k -> ~ readable t ->
  on_link s (Some k) (Some t) = Val s' -> forall net, ~ in_net net k -> exists e, resolve s' net = Raise e /\ e <> UNREACHABLE net.
Proof.
  intros s k l t s' a R L K P SA NR E net NN. unfold on_link in E. pose proof (proj2 (read_iff k a) P) as RD. rewrite RD in E. cbn [bind] in E. rewrite SA, L in E. cbn [kget aget] in E. rewrite (proj2 (bytes_eqb_eq k k) eq_refl) in E.
  rewrite K in E. cbn [existsb app] in E. injection E as <-. unfold resolve, route_resolve. cbn [set_reach set_link with_links c_routes c_links]. rewrite R, L. cbn [kget aget route_loop bind kput aput]. rewrite (proj2 (bytes_eqb_eq k k) eq_refl). cbn [direct_loop]. rewrite RD. cbn [bind].
  destruct (bytes_eqb_spec (pa_net a) net) as [X|_]; [exfalso; apply NN; exists a; split; assumption|]. cbn [links_loop k_reach reach_loop]. destruct (read_not t NR) as (e & RE). rewrite RE. cbn [bind]. exists e. split; [reflexivity|].
  destruct (loop_raise_read _ _ RE) as [-> | ->]; [discriminate|]. unfold UNREACHABLE. discriminate.
Qed.
Print Assumptions C102_told_text_refuted.

Lemma array_remove_perm : forall x l, (In x l -> Permutation l (x :: array_remove l x)) /\ (~ In x l -> array_remove l x = l).
Proof.
  intros x l. assert (I : match index_of x l with Some i => exists p q, l = p ++ x :: q /\ length p = i | None => ~ In x l end).
  { induction l as [|y l IH]; cbn [index_of]; [intros []|]. destruct (bytes_eqb_spec y x) as [->|N]; [exists [], l; split; reflexivity|].
    destruct (index_of x l) as [i|]; [destruct IH as (p & q & E1 & E2); exists (y :: p), q; subst; split; reflexivity|]. intros [X|X]; [exact (N X)|exact (IH X)]. }
  unfold array_remove. destruct (index_of x l) as [i|]; [|split; [intros X; contradiction|reflexivity]]. destruct I as (p & q & E1 & E2).
  split; [|intros X; exfalso; apply X; rewrite E1; apply in_app_iff; right; left; reflexivity]. intros _. cbv zeta. subst i.
  destruct q as [|z q _] using rev_ind.
  - rewrite E1, removelast_last. rewrite Nat.ltb_irrefl. symmetry. apply Permutation_cons_append.
  - assert (R : l = (p ++ x :: q) ++ [z]) by (rewrite E1, <- app_assoc; reflexivity). rewrite R, removelast_last, last_last.
    replace (length p <? length (p ++ x :: q))%nat with true by (symmetry; apply Nat.ltb_lt; rewrite app_length; cbn [length]; lia).
    rewrite firstn_app, firstn_all, Nat.sub_diag. cbn [firstn]. rewrite app_nil_r.
    replace (skipn (S (length p)) (p ++ x :: q)) with q by (clear; induction p as [|y p IH]; [reflexivity|exact IH]).
    rewrite <- app_assoc. cbn [app]. rewrite <- Permutation_middle. apply perm_skip. apply Permutation_app_head. symmetry. apply Permutation_cons_append.
Qed.
(** When a neighbour tells that it has lost a link, just that entry of this neighbour goes; its other entries, its counters and all other links stay. *)
Theorem C102_unlinked : forall s k l t s' a, parse_address k = Some a -> show_address a = k -> kget k (c_links s) = Some l -> on_unlink s (Some k) (Some t) = Val s' ->
  exists l', kget k (c_links s') = Some l' /\ (In t (k_reach l) -> Permutation (k_reach l) (t :: k_reach l')) /\ (~ In t (k_reach l) -> k_reach l' = k_reach l) /\
    k_rx l' = k_rx l /\ k_tx l' = k_tx l /\ (forall j, j <> k -> kget j (c_links s') = kget j (c_links s)) /\ c_routes s' = c_routes s.
Proof.
  intros s k l t s' a P SA L E. unfold on_unlink in E. rewrite (proj2 (read_iff k a) P) in E. cbn [bind] in E. rewrite SA, L in E. assert (Es : s' = set_reach s k l (array_remove (k_reach l) t)) by congruence. subst s'.
  exists (PLink (k_rx l) (k_tx l) (array_remove (k_reach l) t) (k_sack l)). unfold set_reach, set_link. cbn [with_links c_links c_routes k_reach k_rx k_tx].
  split; [apply kput_same|]. split; [apply (array_remove_perm t (k_reach l))|]. split; [apply (array_remove_perm t (k_reach l))|]. split; [reflexivity|]. split; [reflexivity|]. split; [|reflexivity].
  intros j J. apply kput_other. exact J.
Qed.
Print Assumptions C102_unlinked.

(** * A center with two neighbours *)
Local Definition any : bytes -> bool := fun _ => true.
Local Definition serve : list out -> out -> outcome := fun _ _ => Done [].
Local Definition me := str "btp://0x1.icon/cxme".
Local Definition a2 := str "btp://0x2.icon/cxa".
Local Definition b2 := str "btp://0x2.icon/cxb".
Local Definition c4 := str "btp://0x4.icon/cxc".
Local Definition event_from (k : bytes) (target : bytes) : pyval := PBytes (write_message a2 me (Some (str "_event")) 0 (Some (write_event (str "Link") [k; target]))).
Local Definition give (l : list pyval) : bytes -> bytes -> Z -> option (list pyval) := fun _ _ _ => Some l.
Local Definition start : bmc := match install (str "0x1.icon") (str "cxme") with Val s => s | Raise _ => Bmc [] [] [] [] [] [] [] end.
Local Definition cs : list call :=
  [CAddVerifier (str "0x2.icon") (str "cxv"); CAddVerifier (str "0x4.icon") (str "cxw"); CAddLink a2; CAddLink b2; CAddLink c4; CAddService (str "token") (str "cxt")].
Local Definition s : bmc := run any any serve start cs.
Example C102_ex_history : install (str "0x1.icon") (str "cxme") = Val start /\ map fst (c_links s) = [a2; b2; c4] /\ map (fun e => k_tx (snd e)) (c_links s) = [3; 2; 1] /\
  sent a2 (c_out s) = [1; 2; 3] /\ messages (skipn 8 (c_out s)) <> [].
Proof. vm_compute. repeat split. discriminate. Qed.
(** Two links of one network are allowed; messages go to the first only. *)
Theorem C102_two_links_refuted : exists s a b, (exists cs, s = run any any serve start cs) /\ a <> b /\ linked s a /\ linked s b /\ in_net (str "0x2.icon") a /\ in_net (str "0x2.icon") b /\ hop s (str "0x2.icon") a.
Proof.
  exists s, a2, b2. split; [exists cs; reflexivity|]. split; [intros X; vm_compute in X; discriminate X|].
  assert (H : resolve s (str "0x2.icon") = Val (Some a2, a2)) by (vm_compute; reflexivity).
  split; [apply resolve_hop in H as (_ & [(_ & L)|(X & _)]); [exact L|discriminate X]|].
  split; [vm_compute; right; left; reflexivity|]. split; [eexists; split; vm_compute; reflexivity|]. split; [eexists; split; vm_compute; reflexivity|]. apply resolve_hop in H as (X & _). exact X.
Qed.
Print Assumptions C102_two_links_refuted.
(** One neighbour changes what is reachable over another one; then a message for network 0x9 goes to that one, which takes it for its own:
    the address in the message is that of the neighbour, and its service is called. *)
Theorem C102_told_for_another_refuted : exists s' msgs, s' = run any any serve s [CRelay a2 true (give msgs)] /\ hop s' (str "0x9.icon") c4 /\ (forall d, ~ hop s (str "0x9.icon") d).
Proof.
  exists (run any any serve s [CRelay a2 true (give [event_from c4 (str "btp://0x9.icon/cx9")])]), [event_from c4 (str "btp://0x9.icon/cx9")]. split; [reflexivity|]. split.
  - assert (H : resolve (run any any serve s [CRelay a2 true (give [event_from c4 (str "btp://0x9.icon/cx9")])]) (str "0x9.icon") = Val (Some c4, c4)) by (vm_compute; reflexivity). apply resolve_hop in H as (X & _). exact X.
  - assert (A : all_readable s) by (vm_compute; split; repeat constructor; eexists; reflexivity). pose proof (C102_next_hop s (str "0x9.icon") A) as H.
    assert (R : resolve s (str "0x9.icon") = Raise (UNREACHABLE (str "0x9.icon"))) by (vm_compute; reflexivity). rewrite R in H. apply H.
Qed.
Print Assumptions C102_told_for_another_refuted.
Local Definition s1 : bmc := run any any serve s [CRelay a2 true (give [event_from a2 (str "btp://0x9.icon/cx9")])].
Theorem C102_wrong_center_refuted : exists s to s', inv s /\ sendMessage s to (str "token") 1 [7] = Val s' /\
  exists d n raw m, c_out s' = c_out s ++ [OMessage d n raw] /\ ~ in_net to d /\ read_message any (PBytes raw) = Some m /\ shown (b_dst m) = d /\
  forall there, c_me there = d -> c_services there = [(str "token", str "cxt")] -> called any there (PBytes raw) [OHandle (str "cxt") (str "0x1.icon") (Some (str "token")) 1 (Some [7])].
Proof.
  assert (I : inv s1) by (apply inv_run, inv_run, (inv_install (str "0x1.icon") (str "cxme")); vm_compute; reflexivity).
  assert (E : exists s', sendMessage s1 (str "0x9.icon") (str "token") 1 [7] = Val s') by (eexists; vm_compute; reflexivity). destruct E as (s' & E).
  exists s1, (str "0x9.icon"), s'. split; [exact I|]. split; [exact E|]. apply sendMessage_same in E as (n & d & _ & H & _ & S).
  assert (D : d = a2). { assert (R : resolve s1 (str "0x9.icon") = Val (Some a2, a2)) by (vm_compute; reflexivity). apply resolve_hop in R as (X & _). exact (hop_unique _ _ _ _ H X). }
  subst d. exists a2, n. eexists. eexists. split; [apply (sm_out _ _ _ S)|]. split; [intros (x & P & N); vm_compute in P; injection P as <-; vm_compute in N; discriminate N|].
  assert (R : read_message any (PBytes (write_message (c_me s1) a2 (Some (str "token")) 1 (Some [7]))) = Some (BMsg (Some (PAddr (str "btp") (str "0x1.icon") (str "cxme"))) (Some (PAddr (str "btp") (str "0x2.icon") (str "cxa"))) (Some (str "token")) (Some 1) (Some [7]))) by (vm_compute; reflexivity).
  split; [exact R|]. split; [vm_compute; reflexivity|]. intros there M SV.
  apply (w_message any there _ _ (str "cxt") (PAddr (str "btp") (str "0x1.icon") (str "cxme")) 1 R); try reflexivity; [unfold for_me; rewrite M; vm_compute; reflexivity| | |lia].
  - intros [X|X]; vm_compute in X; discriminate X.
  - unfold registered. rewrite SV. apply first_head. reflexivity.
Qed.
Print Assumptions C102_wrong_center_refuted.
(** Cases of the hypotheses above *)
Example C102_ex_stuck : exists m, read_message any (PBytes (write_message a2 me (Some (str "_event")) 0 (Some [1]))) = Some m /\ stuck any me m.
Proof. eexists. split; [vm_compute; reflexivity|]. eapply s_event; vm_compute; reflexivity. Qed.
Example C102_ex_plain_route : exists s', addRoute s (str "0x9.icon") a2 = Val s' /\ resolve s' (str "0x9.icon") = Val (Some a2, a2) /\ resolve s' (str "0x2.icon") = Raise XOther.
Proof. eexists. split; [vm_compute; reflexivity|]. split; vm_compute; reflexivity. Qed.
Example C102_ex_relay : exists s', handleRelay any serve s a2 true (give [PBytes (write_message a2 me (Some (str "token")) 5 (Some [1])); PBytes [0]; PBytes (write_message a2 me (Some (str "none")) 6 (Some [1]))]) = Val s' /\
  skipn 9 (c_out s') = [OHandle (str "cxt") (str "0x2.icon") (Some (str "token")) 5 (Some [1]); OMessage a2 4 (write_message me a2 (Some (str "none")) (-6) (Some (write_error 16 (str "not exists service"))))] /\
  map (fun e => k_rx (snd e)) (c_links s') = [3; 0; 0].
Proof. eexists. split; [vm_compute; reflexivity|]. split; vm_compute; reflexivity. Qed.
Local Definition su : bmc := with_links s [(b2, new_link); (a2, PLink 3 4 [c4; b2; me] (Some 0, Some 0))].
Example C102_ex_unlinked : (exists a, parse_address a2 = Some a /\ show_address a = a2) /\ exists s', on_unlink su (Some a2) (Some c4) = Val s' /\ c_links s' = [(b2, new_link); (a2, PLink 3 4 [me; b2] (Some 0, Some 0))].
Proof. split; [eexists; split; [vm_compute; reflexivity|vm_compute; reflexivity]|]. eexists. split; [vm_compute; reflexivity|]. vm_compute. reflexivity. Qed.
