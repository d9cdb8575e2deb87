(** Theorems about the message center: what the fates mean, C54, and the reported error codes, C55. *)
From Coq Require Import String Ascii ZArith List Bool Lia.
From Coq Require Import ZifyBool.
From Verif Require Import Base L_Base M_JMap L_JMap M_JBmc S_JBmc L_JBmc T_JBmc X_JBmc.
Import ListNotations.
Open Scope Z_scope.

Lemma ends_inj : forall s a b, ends_with s a -> ends_with s b -> a = b.
Proof. intros s a b [x X] [y Y]. rewrite X in Y. apply app_inj_tail in Y. apply Y. Qed.
Lemma ends_emit : forall s o, ends_with (emit s o) o.
Proof. intros s o. exists (s_out s). reflexivity. Qed.
Lemma ends_event : forall s m next e, ends_with (event s m next e) (ev_of m next e).
Proof. intros s m next e. rewrite event_eq. apply ends_emit. Qed.
Lemma ev_inj : forall m n1 e1 n2 e2, ev_of m n1 e1 = ev_of m n2 e2 -> n1 = n2 /\ e1 = e2.
Proof. intros m n1 e1 n2 e2 E. unfold ev_of in E. injection E as -> ->. auto. Qed.
Lemma collect_keeps : forall self s f, s_nsn (collect self s f) = s_nsn s /\ s_links (collect self s f) = s_links s /\ s_resp (collect self s f) = s_resp s /\
  s_requests (collect self s f) = s_requests s /\ s_out (collect self s f) = s_out s /\ s_fees (collect self s f) = s_fees s /\ s_services (collect self s f) = s_services s.
Proof. intros self s [[n [|v vs]]|]; cbn [collect]; try (repeat split; fail). unfold collectNet, addReward. destruct (0 <? _); repeat split. Qed.
Lemma stored_keeps : forall self s m, s_out (stored_state self s m) = s_out s /\ s_services (stored_state self s m) = s_services s /\ s_links (stored_state self s m) = s_links s.
Proof.
  intros self s m. unfold stored_state. destruct (m_fee m) as [f|]; [|repeat split]. destruct (0 <? m_sn m).
  - cbv zeta. destruct (aget zzz_eqb _ (s_resp s)) as [old|]; cbn [set_resp s_out s_services s_links]; [|repeat split]. destruct (collect_keeps self s (r_fee old)) as (_ & A & _ & _ & B & _ & C). auto.
  - destruct (collect_keeps self s (Some f)) as (_ & A & _ & _ & B & _ & C). auto.
Qed.

Section BMC.
Context (own self deployer : Z).
Context (verify : nat -> Z -> addr -> Z -> list Z -> option (list (option msg))) (serve : nat -> Z -> bshcall -> action) (chain_ok : nat -> Z -> msg -> bool).
Notation dispatch := (dispatch own self serve chain_ok).

Lemma dispatch_fail_end : forall s prev seq m e, let r := if 0 <? m_sn m then match sendError own chain_ok s prev m e with Val _ s2 => s2 | Exn e2 s2 => dropped (collect self s2 (m_fee m)) prev seq m e2 end
     else dropped (collect self s (m_fee m)) prev seq m e in ends_with r (ev_of m (Some prev) ERROR) \/ exists code, ends_with r (ODropped prev seq m code).
Proof.
  intros s prev seq m e r. unfold r. destruct (0 <? m_sn m).
  - destruct (sendError own chain_ok s prev m e) as [u s2|e2 s2] eqn:EE.
    + left. unfold sendError in EE. cbv zeta in EE. destruct (sendTo chain_ok s prev _) as [[] s1|]; cbn [bind] in EE; [|discriminate]. injection EE as _ <-. apply ends_event.
    + right. eexists. apply ends_emit.
  - right. eexists. apply ends_emit.
Qed.

(** RECEIVE is only reported when the registered contract of the service was called with the message and
    did not fail. *)
Theorem C54_received_by_service : forall s prev seq m, m_svc m <> INTERNAL -> ends_with (dispatch s prev seq m) (OEvent (fst (msg_id m)) (snd (msg_id m)) None RECEIVE) ->
  own = m_dst m /\ exists a call cs, aget Z.eqb (m_svc m) (s_services s) = Some a /\ told m = Some call /\ serve (length (s_out s)) a call = Calls cs.
Proof.
  intros s prev seq m NI HE. fold (ev_of m None RECEIVE) in HE. unfold M_JBmc.dispatch in HE.
  assert (HF : forall e s1, ends_with (if 0 <? m_sn m then match sendError own chain_ok s1 prev m e with Val _ s2 => s2 | Exn e2 s2 => dropped (collect self s2 (m_fee m)) prev seq m e2 end
     else dropped (collect self s1 (m_fee m)) prev seq m e) (ev_of m None RECEIVE) -> False).
  { intros e s1 HX. destruct (dispatch_fail_end s1 prev seq m e) as [HY|[code HY]]; pose proof (ends_inj _ _ _ HX HY) as EQ; [apply ev_inj in EQ as [_ EQ]; discriminate|discriminate]. }
  destruct (Z.eqb_spec own (m_dst m)) as [EO|NO].
  - split; [exact EO|]. destruct (handleMessage own self serve chain_ok s m) as [u s1|e s1] eqn:EH; cbn [bind] in HE; [|exfalso; eapply HF, HE].
    rewrite handle_eq in EH. unfold told. destruct (0 <=? m_sn m).
    + destruct (deliver own self serve chain_ok (stored_state self s m) m) as [v s2|] eqn:ED; [|discriminate]. unfold deliver in ED. destruct (Z.eqb_spec (m_svc m) INTERNAL); [contradiction|].
      destruct (stored_keeps self s m) as (K1 & K2 & _). unfold getService in ED. rewrite K2 in ED. destruct (aget Z.eqb (m_svc m) (s_services s)) as [a|]; [|discriminate].
      unfold call_service in ED. rewrite K1 in ED. destruct (serve (length (s_out s)) a (BMessage (m_src m) (m_svc m) (m_sn m) (m_pay m))) as [|cs] eqn:ES; [discriminate|]. eexists a, _, cs. repeat split. exact ES.
    + destruct (deliver_error own self serve chain_ok (collect self s (m_fee m)) m) as [v s2|] eqn:ED; [|discriminate]. unfold deliver_error in ED. destruct (m_pay m) as [|code|? ?|?|?|?|?]; try discriminate.
      destruct (Z.eqb_spec (m_svc m) INTERNAL); [contradiction|]. destruct (collect_keeps self s (m_fee m)) as (_ & _ & _ & _ & K1 & _ & K2).
      unfold getService in ED. rewrite K2 in ED. destruct (aget Z.eqb (m_svc m) (s_services s)) as [a|]; [|discriminate]. unfold call_service in ED. rewrite K1 in ED.
      destruct (serve (length (s_out s)) a (BError (m_src m) (m_svc m) (- m_sn m) code)) as [|cs] eqn:ES; [discriminate|]. eexists a, _, cs. repeat split. exact ES.
  - exfalso. destruct (resolveNext s (m_dst m)) as [next|e]; [|eapply HF, HE]. destruct (sendTo chain_ok s next m) as [u s1|e s1]; cbn [bind] in HE; [|eapply HF, HE].
    pose proof (ends_inj _ _ _ HE (ends_event _ _ _ _)) as EQ. apply ev_inj in EQ as [EQ _]. discriminate.
Qed.

(** A message for another network goes to a neighbour that leads there, with its content unchanged, or it fails. *)
Lemma resolve_leads : forall s net a, resolveNext s net = inl a -> leads s net a.
Proof.
  intros s net a E. unfold resolveNext in E. destruct (aget Z.eqb net (s_links s)) as [l|] eqn:EL; [injection E as <-; apply ld_link; exists l; auto|].
  destruct (aget Z.eqb net (s_routes s)) as [via|] eqn:ER.
  - unfold getLinkNet in E. destruct (aget Z.eqb via (s_links s)) as [l|] eqn:EV; [|discriminate]. injection E as <-. eapply ld_route; [exact EL|exact ER|exists l; auto].
  - destruct (reach_search net (s_links s)) as [b|] eqn:ES; [|discriminate]. injection E as <-.
    assert (HX : exists n k c, In (n, k) (s_links s) /\ In c (l_reach k) /\ a_net c = net /\ l_addr k = b).
    { clear - ES. induction (s_links s) as [|[n0 k0] r IH]; cbn [reach_search] in ES; [discriminate|]. destruct (existsb (fun a => a_net a =? net) (l_reach k0)) eqn:EX.
      - injection ES as <-. apply existsb_exists in EX as (c & HC & EC). exists n0, k0, c. repeat split; [left; reflexivity|exact HC|lia].
      - destruct (IH ES) as (n & k & c & HI & HC & HN & HA). exists n, k, c. repeat split; try assumption. right. exact HI. }
    destruct HX as (n & k & c & HI & HC & HN & <-). eapply ld_reach; eassumption.
Qed.
Lemma leads_resolve : forall s net a, leads s net a -> exists b, resolveNext s net = inl b.
Proof.
  intros s net a H. unfold resolveNext, getLinkNet. destruct H as [a (l & E & _)|via a E1 E2 (l & E & _)|nn l b E1 E2 HI HB EN].
  - rewrite E. eexists. reflexivity.
  - rewrite E1, E2, E. eexists. reflexivity.
  - rewrite E1, E2. destruct (reach_search net (s_links s)) as [c|] eqn:ES; [eexists; reflexivity|]. exfalso. clear E1 E2.
    induction (s_links s) as [|[n0 k0] r IH]; cbn [reach_search] in ES; [destruct HI|]. destruct (existsb (fun a => a_net a =? net) (l_reach k0)) eqn:EX; [discriminate|].
    destruct HI as [HI|HI]; [|apply (IH HI ES)]. injection HI as -> ->. assert (existsb (fun a => a_net a =? net) (l_reach l) = true); [|congruence]. apply existsb_exists. exists b. split; [exact HB|lia].
Qed.
Theorem C54_routed : forall s prev seq m next, ends_with (dispatch s prev seq m) (OEvent (fst (msg_id m)) (snd (msg_id m)) (Some next) ROUTE) ->
  own <> m_dst m /\ leads s (m_dst m) next /\ exists l nid, getLink s next = Some l /\ s_out (dispatch s prev seq m) = s_out s ++ [OSent next nid (l_tx l + 1) m; OEvent (fst (msg_id m)) (snd (msg_id m)) (Some next) ROUTE].
Proof.
  intros s prev seq m next HE. fold (ev_of m (Some next) ROUTE) in *. unfold M_JBmc.dispatch in *.
  assert (HF : forall e s1, ends_with (if 0 <? m_sn m then match sendError own chain_ok s1 prev m e with Val _ s2 => s2 | Exn e2 s2 => dropped (collect self s2 (m_fee m)) prev seq m e2 end
     else dropped (collect self s1 (m_fee m)) prev seq m e) (ev_of m (Some next) ROUTE) -> False).
  { intros e s1 HX. destruct (dispatch_fail_end s1 prev seq m e) as [HY|[code HY]]; pose proof (ends_inj _ _ _ HX HY) as EQ; [apply ev_inj in EQ as [_ EQ]; discriminate|discriminate]. }
  destruct (Z.eqb_spec own (m_dst m)) as [EO|NO].
  - exfalso. destruct (handleMessage own self serve chain_ok s m) as [u s1|e s1]; cbn [bind] in HE; [|eapply HF, HE].
    pose proof (ends_inj _ _ _ HE (ends_event _ _ _ _)) as EQ. apply ev_inj in EQ as [EQ _]. discriminate.
  - split; [exact NO|]. destruct (resolveNext s (m_dst m)) as [n2|e] eqn:ER; [|exfalso; eapply HF, HE]. destruct (sendTo chain_ok s n2 m) as [u s1|e s1] eqn:ES; cbn [bind] in *; [|exfalso; eapply HF, HE].
    pose proof (ends_inj _ _ _ HE (ends_event _ _ _ _)) as EQ. apply ev_inj in EQ as [EQ _]. assert (next = n2) by congruence. subst n2. split; [apply resolve_leads, ER|].
    destruct (sendTo_link _ _ _ _ _ _ ES) as (l & EL & _ & nid & EO). exists l, nid. split; [exact EL|]. rewrite event_eq. cbn [emit s_out]. rewrite EO, <- app_assoc. reflexivity.
Qed.
(** And it is passed on whenever some neighbour leads there and takes it. *)
Theorem C54_routed_if_possible : forall s prev seq m, wf s -> own <> m_dst m -> (exists a, leads s (m_dst m) a) -> (forall n nid m', chain_ok n nid m' = true) ->
  exists next, ends_with (dispatch s prev seq m) (OEvent (fst (msg_id m)) (snd (msg_id m)) (Some next) ROUTE).
Proof.
  intros s prev seq m W NO [a HL] HC. destruct (leads_resolve _ _ _ HL) as [next ER]. exists next. fold (ev_of m (Some next) ROUTE). unfold M_JBmc.dispatch.
  destruct (Z.eqb_spec own (m_dst m)); [contradiction|]. rewrite ER.
  assert (HG : exists l, getLink s next = Some l).
  { apply resolve_leads in ER. destruct W as (_ & W2 & W3 & _). unfold getLink. destruct ER as [b (l & E & <-)|via b E1 E2 (l & E & <-)|nn l b E1 E2 HI HB EN].
    - rewrite (W2 _ _ E), E, (proj2 (addr_key _ _) eq_refl). eauto.
    - rewrite (W2 _ _ E), E, (proj2 (addr_key _ _) eq_refl). eauto.
    - pose proof (aget_unique Z.eqb zkey _ _ _ W3 HI) as E. rewrite (W2 _ _ E), E, (proj2 (addr_key _ _) eq_refl). eauto. }
  destruct HG as [l EG]. unfold sendTo. rewrite EG. cbv zeta. destruct (s_netids _ next) as [nid|]; [rewrite HC|]; cbn [bind]; apply ends_event.
Qed.

(** A request that fails is answered with an error naming the reason. *)
Theorem C54_error_answer : forall s prev seq m, ends_with (dispatch s prev seq m) (OEvent (fst (msg_id m)) (snd (msg_id m)) (Some prev) ERROR) ->
  0 < m_sn m /\ exists nid n code f before, s_out (dispatch s prev seq m) = before ++ [OSent prev nid n (Msg own (m_src m) (m_svc m) (- m_sn m) (PError code) (- m_nsn m) f); OEvent (fst (msg_id m)) (snd (msg_id m)) (Some prev) ERROR] /\
    code <> CODE_SUCCESS.
Proof.
  intros s prev seq m HE. destruct (Z.ltb_spec 0 (m_sn m)) as [L|L].
  - split; [exact L|]. fold (ev_of m (Some prev) ERROR) in *.
    assert (HX : forall e s1, ends_with (if 0 <? m_sn m then match sendError own chain_ok s1 prev m e with Val _ s2 => s2 | Exn e2 s2 => dropped (collect self s2 (m_fee m)) prev seq m e2 end
        else dropped (collect self s1 (m_fee m)) prev seq m e) (ev_of m (Some prev) ERROR) ->
      exists nid n code f before, s_out (if 0 <? m_sn m then match sendError own chain_ok s1 prev m e with Val _ s2 => s2 | Exn e2 s2 => dropped (collect self s2 (m_fee m)) prev seq m e2 end
        else dropped (collect self s1 (m_fee m)) prev seq m e) = before ++ [OSent prev nid n (Msg own (m_src m) (m_svc m) (- m_sn m) (PError code) (- m_nsn m) f); ev_of m (Some prev) ERROR] /\ code <> CODE_SUCCESS).
    { intros e s1 HX. destruct (Z.ltb_spec 0 (m_sn m)) as [_|]; [|lia]. destruct (sendError own chain_ok s1 prev m e) as [u s2|e2 s2] eqn:EE.
      - unfold sendError in EE. cbv zeta in EE. destruct (sendTo chain_ok s1 prev _) as [[] s3|] eqn:ES; cbn [bind] in EE; [|discriminate]. injection EE as _ <-.
        destruct (sendTo_link _ _ _ _ _ _ ES) as (l & EL & _ & nid & EO). exists nid, (l_tx l + 1), (response_code e), (error_fee s1 m), (s_out s1).
        split; [rewrite event_eq; cbn [emit s_out]; rewrite EO, <- app_assoc; reflexivity|].
        unfold response_code. destruct e as [t c|c|]; try discriminate. destruct (c - offset t =? 11); [discriminate|]. destruct (c - offset t =? 6); [discriminate|]. destruct t; discriminate.
      - pose proof (ends_inj _ _ _ HX (ends_emit _ _)) as EQ. discriminate. }
    unfold M_JBmc.dispatch in *. destruct (own =? m_dst m).
    + destruct (handleMessage own self serve chain_ok s m) as [u s1|e s1]; cbn [bind] in *; [|apply HX, HE]. pose proof (ends_inj _ _ _ HE (ends_event _ _ _ _)) as EQ. apply ev_inj in EQ as [_ EQ]. discriminate.
    + destruct (resolveNext s (m_dst m)) as [n2|e]; [|apply HX, HE]. destruct (sendTo chain_ok s n2 m) as [u s1|e s1]; cbn [bind] in *; [|apply HX, HE].
      pose proof (ends_inj _ _ _ HE (ends_event _ _ _ _)) as EQ. apply ev_inj in EQ as [_ EQ]. discriminate.
  - exfalso. destruct (grow_dispatch own self serve chain_ok s prev seq m) as (new & _ & SG). fold (ev_of m (Some prev) ERROR) in HE. unfold M_JBmc.dispatch in HE.
    destruct (Z.ltb_spec 0 (m_sn m)); [lia|]. destruct (own =? m_dst m).
    + destruct (handleMessage own self serve chain_ok s m) as [u s1|e s1]; cbn [bind] in *; [pose proof (ends_inj _ _ _ HE (ends_event _ _ _ _)) as EQ; apply ev_inj in EQ as [_ EQ]; discriminate|].
      pose proof (ends_inj _ _ _ HE (ends_emit _ _)) as EQ. discriminate.
    + destruct (resolveNext s (m_dst m)) as [n2|e]; [|pose proof (ends_inj _ _ _ HE (ends_emit _ _)) as EQ; discriminate].
      destruct (sendTo chain_ok s n2 m) as [u s1|e s1]; cbn [bind] in *; [pose proof (ends_inj _ _ _ HE (ends_event _ _ _ _)) as EQ; apply ev_inj in EQ as [_ EQ]; discriminate|].
      pose proof (ends_inj _ _ _ HE (ends_emit _ _)) as EQ. discriminate.
Qed.

(** FINDING.  One message the contract cannot parse makes every relay message carrying it fail: nothing after it
    gets through until an owner drops it by hand. *)
Theorem C54_unparsable_blocks_refuted : forall s c prev b l v ms, getLink s prev = Some l -> aget Z.eqb (a_net prev) (s_verifiers s) = Some v ->
  verify (length (s_out s)) v prev (l_rx l) b = Some ms -> In None ms -> M_JBmc.step own self deployer verify serve chain_ok s (HandleRelay c prev b) = s.
Proof.
  intros s c prev b l v ms EL EV EM HI. unfold M_JBmc.step. cbn [exec]. unfold handleRelay. rewrite EL. apply getLink_some in EL as [_ EA]. rewrite EA, EV, EM.
  destruct (negb (isRelay s prev c)); [reflexivity|].
  assert (HD : forall ms, In None ms -> forall s rx, exists e s', dispatch_all own self serve chain_ok s c prev rx ms = Exn e s').
  { clear. induction ms as [|[m|] ms IH]; intros HI s rx; [destruct HI| |eexists _, _; reflexivity]. destruct HI as [X|HI]; [discriminate|]. cbn [dispatch_all].
    destruct (accumulateFee s c (m_fee m)) as [s1 f]. apply (IH HI). }
  destruct (HD ms HI (putLink s (Link prev (l_rx l + zlen ms) (l_tx l) (l_reach l))) (l_rx l)) as (e & s' & ->). reflexivity.
Qed.
End BMC.
Print Assumptions C54_received_by_service.
Print Assumptions C54_routed.
Print Assumptions C54_routed_if_possible.
Print Assumptions C54_error_answer.
Print Assumptions C54_unparsable_blocks_refuted.

(** Codes: what the sender of a failed request is told. *)
(** Faults of the message center itself are told apart: no route, no such service. *)
Theorem C55_own_faults : forall code, response_code (bmc_exn code) = CODE_NO_ROUTE <-> bmc_exn code = UNREACHABLE.
Proof.
  intros code. unfold bmc_exn, UNREACHABLE, response_code, bmc_exn. cbn [offset]. replace (10 + code - 10) with code by lia.
  destruct (Z.eqb_spec code 11) as [->|N]; [split; reflexivity|]. split; [destruct (code =? 6); discriminate|]. intros E. exfalso. apply N. assert (10 + code = 10 + 11) by congruence. lia.
Qed.
Print Assumptions C55_own_faults.
Theorem C55_no_service : forall code, response_code (bmc_exn code) = CODE_NO_BSH <-> bmc_exn code = NO_BSH.
Proof.
  intros code. unfold bmc_exn, NO_BSH, response_code, bmc_exn. cbn [offset]. replace (10 + code - 10) with code by lia.
  destruct (Z.eqb_spec code 11) as [->|N]; [split; [discriminate|]; intros E; assert (10 + 11 = 10 + 6) by congruence; lia|].
  destruct (Z.eqb_spec code 6) as [->|N2]; [split; reflexivity|]. split; [discriminate|]. intros E. exfalso. apply N2. assert (10 + code = 10 + 6) by congruence. lia.
Qed.
Print Assumptions C55_no_service.
(** A failing service is reported as such, except for the two revert codes that happen to be 6 and 11. *)
Theorem C55_service_faults : forall code, code <> 6 -> code <> 11 -> response_code (as_bsh (XUser code)) = CODE_BSH_REVERT.
Proof.
  intros code N1 N2. unfold as_bsh, response_code. cbn [offset]. replace (40 + code - 40) with code by lia.
  destruct (Z.eqb_spec code 11); [contradiction|]. destruct (Z.eqb_spec code 6); [contradiction|]. reflexivity.
Qed.
Print Assumptions C55_service_faults.
Theorem C55_other_faults : response_code (as_bsh XOther) = CODE_BSH_REVERT.
Proof. reflexivity. Qed.
Print Assumptions C55_other_faults.
(** FINDING: BTPMessageCenter.java 799-804 compare only the number within its type, not the type: a service that
    reverts with code 11 makes the sender believe there was no route, with code 6 that the service does not exist. *)
Theorem C55_service_code_misreported_refuted :
  response_code (as_bsh (XUser 11)) = CODE_NO_ROUTE /\ response_code (as_bsh (XUser 6)) = CODE_NO_BSH.
Proof. split; reflexivity. Qed.
Print Assumptions C55_service_code_misreported_refuted.
(** FINDING: BTPException.java 56-68, Type.valueOf compares with the offset of the type before, so every code but
    one band is given the wrong type: 0-9 (BTP) becomes BMV, 10-24 (BMC) and 25-39 (BMV) become BSH. *)
Definition type_of_code_spec (code : Z) : option xtype :=
  if code <? 0 then None else if code <? 10 then Some XBTP else if code <? 25 then Some XBMC else if code <? 40 then Some XBMV else Some XBSH.
Theorem C55_type_of_code_refuted : forall code, type_of_code code = type_of_code_spec code <-> code < 0 \/ 40 <= code.
Proof.
  intros code. unfold type_of_code, type_of_code_spec, offset. destruct (Z.ltb_spec code 0) as [L0|G0]; [split; [auto|reflexivity]|].
  destruct (Z.ltb_spec code 10); [split; [discriminate|lia]|]. destruct (Z.ltb_spec code 25); [split; [discriminate|lia]|]. destruct (Z.ltb_spec code 40); split; try discriminate; try lia; reflexivity.
Qed.
Print Assumptions C55_type_of_code_refuted.

Example C53_ex : let s := demo (setup ++ [HandleRelay 50 peer [1]; HandleRelay 50 peer [3]]) in
  sent_to peer (s_out s) = [1; 2; 3] /\ started (s_out s) = [1] /\ match getLink s peer with Some l => (l_rx l, l_tx l) = (3, 3) | None => False end.
Proof. vm_compute. auto. Qed.
Example C54_ex : let s := demo (setup ++ [HandleRelay 50 peer [1]; HandleRelay 50 peer [3]]) in
  filter is_fate (s_out s) = [OEvent 2 9 None RECEIVE; OEvent 2 11 (Some peer) ERROR; OEvent 2 12 None DROP].
Proof. vm_compute. reflexivity. Qed.
Example C54_ex_route : let s := demo (setup ++ [HandleRelay 50 peer [7]; HandleRelay 50 peer [8]]) in
  filter is_fate (s_out s) = [OEvent 2 1 None RECEIVE; OEvent 2 14 (Some peer) ROUTE].
Proof. vm_compute. reflexivity. Qed.
Example C54_ex_blocked : demo (setup ++ [HandleRelay 50 peer [2]]) = demo setup /\ demo_verify 0 21 peer 0 [2] = Some [Some (msg_in 0 10 1 7 (Some (Fee 2 [10; 20]))); None].
Proof. vm_compute. auto. Qed.
Example C55_ex : response_code (as_bsh (XUser 0)) = 4 /\ response_code (as_bsh UNREACHABLE) = 2 /\ response_code UNKNOWN = 1 /\
  match last (removelast (s_out (demo (setup ++ [HandleRelay 50 peer [4]])))) (OTransfer 0 0) with OSent _ _ _ m => m_pay m = PError 2 | _ => False end.
Proof. vm_compute. auto. Qed.
