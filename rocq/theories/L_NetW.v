(** Accounting for what a message center puts out: with any weights on outputs and on requests that wait for an
    answer, the total grows by no more than what comes in, if every single way to put out a message does. *)
From Coq Require Import String Ascii ZArith List Bool Lia Permutation.
From Coq Require Import ZifyBool.
From Verif Require Import Base L_Base M_JMap L_JMap L_JSum M_JBmc S_JBmc L_JBmc T_JBmc T_JBmc2 X_JBmc T_JBmc3.
Import ListNotations.
Open Scope Z_scope.

Section W.
Context (own self deployer : Z).
Context (verify : nat -> Z -> addr -> Z -> list Z -> option (list (option msg))) (serve : nat -> Z -> bshcall -> action) (chain_ok : nat -> Z -> msg -> bool).
Notation exec := (exec own self deployer verify serve chain_ok).
Notation dispatch := (dispatch own self serve chain_ok).
(** weights of outputs, of waiting requests, of messages that come in, of messages answered with an error *)
Context (wo : out -> Z) (wr : ((Z * Z * Z) * rinfo) -> Z) (wi we : msg -> Z) (Q : msg -> Prop) (N0 : Z).
Context (H_quiet : forall o, match o with OSent _ _ _ _ | OEvent _ _ _ SEND => True | _ => wo o = 0 end).
Context (H_send : forall a nid seq m nx, m_src m = own -> N0 < m_nsn m -> 0 <= m_sn m -> wo (OSent a nid seq m) + wo (ev_of m nx SEND) <= 0).
Context (H_reply : forall a nid seq to svc sn p i, wo (OSent a nid seq (Msg own to svc 0 p (- r_nsn i) (r_fee i))) <= wr ((to, svc, sn), i)).
Context (H_route : forall a nid seq m, own <> m_dst m -> wo (OSent a nid seq m) <= wi m).
Context (H_error : forall a nid seq m code f, 0 < m_sn m -> Q m -> wo (OSent a nid seq (Msg own (m_src m) (m_svc m) (- m_sn m) (PError code) (- m_nsn m) f)) <= we m).
Context (H_we : forall m, 0 < m_sn m -> Q m -> we m <= wi m).
Context (H_store : forall m f, own = m_dst m -> 0 < m_sn m -> Q m -> wr ((m_src m, m_svc m, m_sn m), RInfo (m_nsn m) f) <= wi m).
Context (H_fee : forall m f, wi (with_fee m f) = wi m).
Context (H_Q : forall m f, Q m -> Q (with_fee m f)).
Context (H_wi : forall m, 0 <= wi m) (H_wr : forall x, 0 <= wr x).

Definition wpot (s : st) : Z := wsum wo (s_out s) + wsum wr (s_resp s).
Notation pot := wpot.
Lemma wr_at : forall k l, 0 <= wat zzz_eqb wr k l.
Proof using H_wr. intros k l. unfold wat. destruct (aget zzz_eqb k l); [apply H_wr|lia]. Qed.
Lemma w_out : forall s s', s_out s' = s_out s -> s_resp s' = s_resp s -> pot s' = pot s.
Proof using. intros s s' E1 E2. unfold wpot. rewrite E1, E2. reflexivity. Qed.
Lemma w_emit : forall s o, pot (emit s o) = pot s + wo o.
Proof using. intros s o. unfold wpot. cbn [emit s_out s_resp]. rewrite wsum_app. cbn [wsum fold_right]. lia. Qed.
Lemma w_addReward : forall s a n v, pot (addReward s a n v) = pot s.
Proof using. intros s a n v. apply w_out; apply addReward_keeps. Qed.
Lemma w_collect : forall s f, pot (collect self s f) = pot s.
Proof using. intros s f. apply w_out; apply (collect_keeps self s f). Qed.
Lemma w_sendTo : forall s next m u s', sendTo chain_ok s next m = Val u s' -> exists nid seq, pot s' = pot s + wo (OSent next nid seq m).
Proof using.
  intros s next m u s' E. destruct (sendTo_val _ _ _ _ _ _ E) as (l & nid & _ & -> & _). exists nid, (l_tx l + 1). rewrite w_emit.
  rewrite (w_out s (putLink s _)) by reflexivity. reflexivity.
Qed.
Lemma w_event : forall s m next e, pot (event s m next e) = pot s + wo (ev_of m next e).
Proof using. intros s m next e. rewrite event_eq. apply w_emit. Qed.
Lemma w_quiet : forall m next e, e <> SEND -> wo (ev_of m next e) = 0.
Proof using H_quiet. intros m next e N. pose proof (H_quiet (ev_of m next e)) as H. unfold ev_of in *. destruct e; try exact H. congruence. Qed.
Lemma w_del : forall s k, pot (set_resp s (adel zzz_eqb k (s_resp s))) = pot s - wat zzz_eqb wr k (s_resp s).
Proof using. intros s k. unfold wpot. cbn [set_resp s_out s_resp]. rewrite (wsum_del zzz_eqb zzz_key). lia. Qed.
Lemma w_reply : forall s to svc sn p fill value v s', sendWithFee own self chain_ok s to svc sn p true fill value = Val v s' -> pot s' <= pot s.
Proof using H_quiet H_reply.
  intros s to svc sn p fill value v s' E. destruct (reply_val _ _ _ _ _ _ _ _ _ _ _ _ E) as (i & next & s1 & EI & _ & ES & -> & _).
  rewrite w_event, w_quiet by discriminate. destruct (w_sendTo _ _ _ _ _ ES) as (nid & seq & ->). unfold collectNet. rewrite w_addReward, w_del. unfold wat. rewrite EI.
  pose proof (H_reply next nid seq to svc sn p i). lia.
Qed.
Lemma w_send : forall s to svc sn p fill value v s', N0 <= s_nsn s -> 0 <= s_nsn s -> 0 <= sn -> sendWithFee own self chain_ok s to svc sn p false fill value = Val v s' -> pot s' <= pot s.
Proof using H_send.
  intros s to svc sn p fill value v s' HN H0 HS E. destruct (send_val _ _ _ _ _ _ _ _ _ _ _ _ E) as (next & s1 & _ & _ & ES & -> & _).
  rewrite w_event. destruct (w_sendTo _ _ _ _ _ ES) as (nid & seq & ->). unfold collectNet. rewrite w_addReward.
  rewrite (w_out s (nextNetworkSn s)) by reflexivity.
  match goal with |- context [wo (OSent next nid seq ?m)] => pose proof (H_send next nid seq m (Some next) eq_refl) as H end. cbn [m_nsn m_sn] in H.
  specialize (H ltac:(lia)). assert (0 <= (if fill then s_nsn s + 1 else sn)) as HF by (destruct fill; lia). specialize (H HF). lia.
Qed.
(** numbers only grow *)
Lemma grow_nsn : forall s new s', wf s -> grow s new s' -> wf s' /\ s_nsn s <= s_nsn s'.
Proof using. intros s new s' W G. destruct (G W) as (W' & _ & _ & _ & _ & E & _). split; [exact W'|]. unfold zlen in E. lia. Qed.
Lemma w_sendMessage : forall s c to svc sn p v r s', wf s -> N0 <= s_nsn s -> sendMessage own self chain_ok s c to svc sn p v = Val r s' -> pot s' <= pot s.
Proof using H_quiet H_reply H_send.
  intros s c to svc sn p v r s' W HN E. unfold sendMessage in E. destruct (aget Z.eqb svc (s_services s)); [|discriminate]. destruct (negb (c =? z)); [discriminate|].
  destruct (if sn <? 0 then _ else _) as [x s1|] eqn:E1; cbn [bind] in E; [|discriminate]. injection E as _ <-. rewrite w_emit. pose proof (H_quiet (OPaid v)) as HQ. cbn beta iota in HQ. rewrite HQ, Z.add_0_r.
  destruct (Z.ltb_spec sn 0); [eapply w_reply; exact E1|]. destruct W as (W0 & _). eapply w_send; [exact HN|exact W0|exact H|exact E1].
Qed.
Lemma w_calls : forall cs s a u s', wf s -> N0 <= s_nsn s -> run_calls own self chain_ok s a cs = Val u s' -> pot s' <= pot s.
Proof using H_quiet H_reply H_send.
  induction cs as [|c cs IH]; intros s a u s' W HN E; cbn [run_calls] in E; [injection E as _ <-; lia|].
  destruct (sendMessage own self chain_ok s a (c_to c) (c_svc c) (c_sn c) (c_pay c) (c_value c)) as [r s1|] eqn:E1.
  - destruct (grow_sendMessage _ _ _ _ _ _ _ _ _ _ _ _ E1) as (new & G & _). destruct (grow_nsn _ _ _ W G) as [W1 N1].
    pose proof (IH s1 a u s' W1 ltac:(lia) E). pose proof (w_sendMessage _ _ _ _ _ _ _ _ _ W HN E1). lia.
  - destruct (c_catch c); [apply (IH _ _ _ _ W HN E)|discriminate].
Qed.
Lemma w_service : forall s a c u s', wf s -> N0 <= s_nsn s -> call_service own self serve chain_ok s a c = Val u s' -> pot s' <= pot s.
Proof using H_quiet H_reply H_send.
  intros s a c u s' W HN E. unfold call_service in E. destruct (serve _ a c) as [|cs]; [discriminate|]. destruct (run_calls own self chain_ok s a cs) as [[] s1|] eqn:E1; [|discriminate].
  injection E as _ <-. eapply w_calls; [exact W|exact HN|exact E1].
Qed.
Lemma w_response : forall s nsn r u s', handleResponse s nsn r = Val u s' -> pot s' = pot s.
Proof using H_quiet.
  intros s nsn r u s' E. unfold handleResponse in E. destruct (aget Z.eqb nsn (s_requests s)) as [q|]; [|discriminate]. cbv zeta in E. injection E as _ <-. rewrite w_emit.
  pose proof (H_quiet (OClaimResult (q_caller q) (q_dst q) nsn r)) as HQ. cbn beta iota in HQ. rewrite HQ, Z.add_0_r.
  destruct (r =? CODE_SUCCESS); [|rewrite w_addReward]; apply w_out; reflexivity.
Qed.
Lemma w_internal : forall s src nsn p u s', internalMessage own self chain_ok s src nsn p = Val u s' -> pot s' <= pot s.
Proof using H_quiet H_reply.
  intros s src nsn p u s' E. unfold internalMessage in E. destruct p as [b|code|amount [r|]|code|a|a|l]; try discriminate.
  - destruct (sendWithFee own self chain_ok (addReward s r own amount) src INTERNAL nsn (PResponse CODE_SUCCESS) true false 0) as [v s1|] eqn:E1; [|discriminate].
    injection E as _ <-. pose proof (w_reply _ _ _ _ _ _ _ _ _ E1) as H. rewrite w_addReward in H. exact H.
  - rewrite (w_response _ _ _ _ _ E). lia.
  - unfold addReachable in E. destruct (getLinkNet s src); [|discriminate]. injection E as _ <-. rewrite (w_out s (putLink s _)) by reflexivity. lia.
  - unfold removeReachable in E. destruct (getLinkNet s src); [|discriminate]. injection E as _ <-. rewrite (w_out s (putLink s _)) by reflexivity. lia.
  - unfold addReachable in E. destruct (getLinkNet s src); [|discriminate]. injection E as _ <-. rewrite (w_out s (putLink s _)) by reflexivity. lia.
Qed.
Lemma w_stored : forall s m, own = m_dst m -> Q m -> pot (stored_state self s m) <= pot s + wi m.
Proof using H_wi H_wr H_store.
  intros s m EO HQ. pose proof (H_wi m) as HN. unfold stored_state. destruct (m_fee m) as [f|]; [|lia]. destruct (Z.ltb_spec 0 (m_sn m)) as [ES|ES]; [|rewrite w_collect; lia]. cbv zeta.
  set (s0 := match aget _ _ (s_resp s) with Some old => _ | None => s end). assert (E0 : pot s0 = pot s /\ s_resp s0 = s_resp s).
  { unfold s0. destruct (aget _ _ (s_resp s)); [|split; reflexivity]. split; [apply w_collect|apply (collect_keeps self)]. }
  destruct E0 as [E1 E2]. rewrite <- E1. unfold wpot. cbn [set_resp s_out s_resp]. rewrite (wsum_put zzz_eqb zzz_key).
  pose proof (wr_at (m_src m, m_svc m, m_sn m) (s_resp s0)) as HW. pose proof (H_store m (Some f) EO ES HQ). lia.
Qed.
Lemma w_two_dels : forall k k' (l : list ((Z * Z * Z) * rinfo)), NoDup (map fst l) -> wsum wr (adel zzz_eqb k (adel zzz_eqb k' l)) <= wsum wr (adel zzz_eqb k l).
Proof using H_wr.
  intros k k' l ND. rewrite !(wsum_del zzz_eqb zzz_key). pose proof (wr_at k' l) as H1. pose proof (wr_at k (adel zzz_eqb k' l)) as H2.
  destruct (zzz_eqb k k') eqn:EK.
  - apply zzz_key in EK. subst k'. lia.
  - assert (N : k <> k') by (intros ->; rewrite (proj2 (zzz_key k' k') eq_refl) in EK; discriminate). unfold wat at 2. rewrite (adel_other zzz_eqb zzz_key) by assumption. fold (wat zzz_eqb wr k l). lia.
Qed.
Lemma w_handle_exn : forall s m e s', wf s -> own = m_dst m -> handleMessage own self serve chain_ok s m = Exn e s' -> pot s' <= pot s.
Proof using H_wr.
  intros s m e s' W EO E. rewrite handle_eq in E. destruct (Z.leb_spec 0 (m_sn m)) as [L|L].
  - destruct (deliver own self serve chain_ok (stored_state self s m) m) as [v s2|e2 s2] eqn:ED; [discriminate|]. injection E as _ <-. apply deliver_exn_shape in ED as [DO DR].
    destruct (stored_keeps self s m) as (KO & _). rewrite KO in DO. unfold stored_state in DR. destruct (m_fee m) as [f|].
    + destruct (0 <? m_sn m).
      * cbv zeta in DR. cbn [set_resp s_resp] in DR. set (key := (m_src m, m_svc m, m_sn m)) in *.
        assert (ER : s_resp (match aget zzz_eqb key (s_resp s) with Some old => collect self s (r_fee old) | None => s end) = s_resp s) by (destruct (aget zzz_eqb key (s_resp s)); [apply (collect_keeps self)|reflexivity]).
        rewrite ER in DR. unfold wpot. cbn [set_resp s_out s_resp]. rewrite DO.
        assert (HB : wsum wr (adel zzz_eqb key (aput zzz_eqb key (RInfo (m_nsn m) (Some f)) (s_resp s))) <= wsum wr (s_resp s)).
        { rewrite (wsum_del zzz_eqb zzz_key), (wsum_put zzz_eqb zzz_key). pose proof (wr_at key (s_resp s)). unfold wat at 2. rewrite (aput_same zzz_eqb zzz_key). lia. }
        destruct W as (_ & _ & _ & ND & _). destruct DR as [->|[k ->]]; [lia|]. pose proof (w_two_dels key k (aput zzz_eqb key (RInfo (m_nsn m) (Some f)) (s_resp s)) (aput_nodup zzz_eqb zzz_key _ _ _ ND)). lia.
      * destruct (collect_keeps self s (Some f)) as (_ & _ & KR & _). rewrite KR in DR. unfold wpot. rewrite DO. destruct DR as [->|[k ->]]; [lia|].
        rewrite (wsum_del zzz_eqb zzz_key). pose proof (wr_at k (s_resp s)). lia.
    + unfold wpot. rewrite DO. destruct DR as [->|[k ->]]; [lia|]. rewrite (wsum_del zzz_eqb zzz_key). pose proof (wr_at k (s_resp s)). lia.
  - destruct (deliver_error own self serve chain_ok (collect self s (m_fee m)) m) as [v s2|e2 s2] eqn:ED; [discriminate|]. injection E as _ <-. apply deliver_error_exn in ED. subst s2. rewrite w_collect. lia.
Qed.
Lemma w_handle : forall s m u s', wf s -> N0 <= s_nsn s -> Q m -> own = m_dst m -> handleMessage own self serve chain_ok s m = Val u s' -> pot s' <= pot s + wi m.
Proof using H_quiet H_reply H_send H_store H_wi H_wr.
  intros s m u s' W HN HQ EO E. rewrite handle_eq in E. pose proof (H_wi m) as HI. destruct (0 <=? m_sn m).
  - destruct (deliver own self serve chain_ok (stored_state self s m) m) as [v s2|] eqn:ED; [|discriminate]. injection E as _ <-. apply Z.le_trans with (pot (stored_state self s m)); [|apply w_stored; assumption].
    destruct (grow_nsn _ _ _ W (grow_stored self s m)) as [W1 N1].
    unfold deliver in ED. destruct (m_svc m =? INTERNAL); [eapply w_internal, ED|]. destruct (getService _ (m_svc m)); [|discriminate]. eapply w_service; [exact W1|lia|exact ED].
  - destruct (deliver_error own self serve chain_ok (collect self s (m_fee m)) m) as [v s2|] eqn:ED; [|discriminate]. injection E as _ <-.
    destruct (grow_nsn _ _ _ W (grow_collect self s (m_fee m))) as [W1 N1].
    assert (EP : pot s2 <= pot s); [|lia]. rewrite <- (w_collect s (m_fee m)). unfold deliver_error in ED. destruct (m_pay m); try discriminate. destruct (m_svc m =? INTERNAL); [rewrite (w_response _ _ _ _ _ ED); lia|].
    destruct (getService _ (m_svc m)); [|discriminate]. eapply w_service; [exact W1|lia|exact ED].
Qed.
Lemma w_sendError : forall s prev m e u s', 0 < m_sn m -> Q m -> sendError own chain_ok s prev m e = Val u s' -> pot s' <= pot s + we m.
Proof using H_quiet H_error.
  intros s prev m e u s' HS HQ E. unfold sendError in E. cbv zeta in E. destruct (sendTo chain_ok s prev _) as [[] s1|] eqn:ES; cbn [bind] in E; [|discriminate]. injection E as _ <-.
  rewrite w_event, w_quiet by discriminate. destruct (w_sendTo _ _ _ _ _ ES) as (nid & seq & ->). pose proof (H_error prev nid seq m (response_code e) (error_fee s m) HS HQ). lia.
Qed.
Lemma w_dropped : forall s prev seq m e, pot (dropped s prev seq m e) = pot s.
Proof using H_quiet. intros s prev seq m e. unfold dropped. rewrite w_emit, w_event, w_quiet by discriminate. pose proof (H_quiet (ODropped prev seq m (exn_code e))) as HQ. cbn beta iota in HQ. lia. Qed.
Lemma w_dispatch : forall s prev seq m, wf s -> N0 <= s_nsn s -> Q m -> pot (dispatch s prev seq m) <= pot s + wi m.
Proof using H_quiet H_reply H_send H_store H_wi H_wr H_error H_we H_route.
  intros s prev seq m W HN HQ. pose proof (H_wi m) as HI. unfold M_JBmc.dispatch.
  assert (HX : forall e s1, pot s1 <= pot s ->
    pot (if 0 <? m_sn m then match sendError own chain_ok s1 prev m e with Val _ s2 => s2 | Exn e2 s2 => dropped (collect self s2 (m_fee m)) prev seq m e2 end
     else dropped (collect self s1 (m_fee m)) prev seq m e) <= pot s + wi m).
  { intros e s1 HP. destruct (Z.ltb_spec 0 (m_sn m)) as [L|L].
    - destruct (sendError own chain_ok s1 prev m e) as [u s2|e2 s2] eqn:EE; [pose proof (w_sendError _ _ _ _ _ _ L HQ EE); pose proof (H_we m L HQ); lia|].
      apply sendError_exn in EE. subst s2. rewrite w_dropped, w_collect. lia.
    - rewrite w_dropped, w_collect. lia. }
  destruct (Z.eqb_spec own (m_dst m)) as [EO|NO].
  - destruct (handleMessage own self serve chain_ok s m) as [u s1|e s1] eqn:EH; cbn [bind].
    + rewrite w_event, w_quiet by discriminate. pose proof (w_handle _ _ _ _ W HN HQ EO EH). lia.
    + apply HX. eapply w_handle_exn; eassumption.
  - destruct (resolveNext s (m_dst m)) as [next|e]; [|apply HX; lia]. destruct (sendTo chain_ok s next m) as [u s1|e s1] eqn:ES; cbn [bind].
    + rewrite w_event, w_quiet by discriminate. destruct (w_sendTo _ _ _ _ _ ES) as (nid & sq & ->). pose proof (H_route next nid sq m NO). lia.
    + apply sendTo_exn in ES. subst s1. apply HX. lia.
Qed.
Lemma w_accumulate : forall s a f, pot (fst (accumulateFee s a f)) = pot s.
Proof using. intros s a [[n [|v vs]]|]; cbn [accumulateFee fst]; try reflexivity. apply w_addReward. Qed.
Lemma w_dispatch_all : forall oms s c prev rx u s', wf s -> N0 <= s_nsn s -> (forall m, In (Some m) oms -> Q m) -> dispatch_all own self serve chain_ok s c prev rx oms = Val u s' ->
  exists ms, oms = map Some ms /\ pot s' <= pot s + wsum wi ms.
Proof using H_quiet H_reply H_send H_store H_wi H_wr H_error H_we H_route H_fee H_Q.
  induction oms as [|[m|] oms IH]; intros s c prev rx u s' W HN HM E; cbn [dispatch_all] in E; [injection E as _ <-; exists []; split; [reflexivity|cbn [wsum fold_right]; lia]| |discriminate].
  destruct (accumulateFee s c (m_fee m)) as [s1 f] eqn:EA. pose proof (accumulate_grow s c (m_fee m)) as GA. pose proof (w_accumulate s c (m_fee m)) as PA. rewrite EA in GA, PA. cbn [fst] in GA, PA.
  destruct (grow_nsn _ _ _ W GA) as [W1 N1]. destruct (grow_dispatch own self serve chain_ok s1 prev (rx + 1) (with_fee m f)) as (seg & G & _). destruct (grow_nsn _ _ _ W1 G) as [W2 N2].
  destruct (IH _ _ _ _ _ _ W2 ltac:(lia) (fun x hx => HM x (or_intror hx)) E) as (ms & -> & H1). exists (m :: ms). split; [reflexivity|].
  pose proof (w_dispatch s1 prev (rx + 1) (with_fee m f) W1 ltac:(lia) (H_Q m f (HM m (or_introl eq_refl)))) as H2. rewrite H_fee in H2. cbn [wsum fold_right]. unfold wsum in H1 |- *. unfold wsum in H1. lia.
Qed.
Lemma w_sendInternal : forall s next p u s', N0 <= s_nsn s -> 0 <= s_nsn s -> sendInternal own chain_ok s next p = Val u s' -> pot s' <= pot s.
Proof using H_send.
  intros s next p u s' HN H0 E. unfold sendInternal in E. cbv zeta in E. destruct (w_sendTo _ _ _ _ _ E) as (nid & seq & ->). rewrite w_event, (w_out s (nextNetworkSn s)) by reflexivity.
  match goal with |- context [wo (OSent next nid seq ?m)] => pose proof (H_send next nid seq m (Some next) eq_refl) as H end. cbn [m_nsn m_sn] in H.
  change (s_nsn (nextNetworkSn s)) with (s_nsn s + 1) in *. specialize (H ltac:(lia) ltac:(lia)). lia.
Qed.
Lemma w_propagate : forall l s p u s', wf s -> N0 <= s_nsn s -> propagate own chain_ok s l p = Val u s' -> pot s' <= pot s.
Proof using H_send.
  induction l as [|[n k] l IH]; intros s p u s' W HN E; cbn [propagate] in E; [injection E as _ <-; lia|].
  destruct (sendInternal own chain_ok s (l_addr k) p) as [v s1|] eqn:E1; cbn [bind] in E; [|discriminate].
  destruct (grow_sendInternal _ _ _ _ _ _ _ E1) as (new & G & _). destruct (grow_nsn _ _ _ W G) as [W1 N1]. destruct W as (W0 & _).
  pose proof (IH _ _ _ _ W1 ltac:(lia) E). pose proof (w_sendInternal _ _ _ _ _ HN W0 E1). lia.
Qed.
Lemma w_addLink : forall s a u s', wf s -> N0 <= s_nsn s -> addLink own chain_ok s a = Val u s' -> pot s' <= pot s.
Proof using H_send.
  intros s a u s' W HN E. unfold addLink in E. destruct (negb _); [discriminate|]. destruct (ahas _ _ _); [discriminate|].
  destruct (propagate own chain_ok s (s_links s) (PLink a)) as [v s1|] eqn:E1; cbn [bind] in E; [|discriminate].
  destruct (grow_propagate _ _ _ _ _ _ _ E1) as (new & G & _). destruct (grow_nsn _ _ _ W G) as [(W1 & _) N1]. pose proof W as (W0 & _).
  assert (HP : pot s' <= pot (putLink s1 (Link a 0 0 []))) by (eapply w_sendInternal; [| |exact E]; change (s_nsn (putLink s1 (Link a 0 0 []))) with (s_nsn s1); lia).
  rewrite (w_out s1 (putLink s1 _)) in HP by reflexivity. pose proof (w_propagate _ _ _ _ _ W HN E1). lia.
Qed.

(** what a call may add *)
Definition allowance (s : st) (o : op) : Z :=
  match o with
  | HandleRelay _ _ _ => wsum wi (incoming verify s o)
  | DropMessage _ src _ svc sn nsn f => if 0 <? sn then we (Msg src NO_NET svc sn (PBytes []) nsn f) else 0
  | _ => 0
  end.
Lemma we_fee_ok : forall src svc sn nsn f f', (forall m g, we (with_fee m g) = we m) -> we (Msg src NO_NET svc sn (PBytes []) nsn f) = we (Msg src NO_NET svc sn (PBytes []) nsn f').
Proof using. intros src svc sn nsn f f' H. rewrite <- (H (Msg src NO_NET svc sn (PBytes []) nsn f) f'). reflexivity. Qed.
Lemma flat_some : forall (ms : list msg), flat_map (fun x => match x with Some m => [m] | None => [] end) (map Some ms) = ms.
Proof using. induction ms as [|m ms IH]; [reflexivity|]. cbn [map flat_map app]. f_equal. exact IH. Qed.

Theorem exec_weight : forall s o u s', wf s -> N0 <= s_nsn s -> (forall m g, we (with_fee m g) = we m) -> (forall m, In m (incoming verify s o) -> Q m) -> exec s o = Val u s' ->
  pot s' <= pot s + allowance s o.
Proof using H_quiet H_reply H_send H_store H_wi H_wr H_error H_we H_route H_fee H_Q.
  intros s o u s' W HN HWE HM E. assert (HS : forall s1, s_out s1 = s_out s -> s_resp s1 = s_resp s -> pot s1 <= pot s + 0) by (intros s1 E1 E2; rewrite (w_out _ _ E1 E2); lia).
  pose proof W as (W0 & _).
  destruct o; cbn [M_JBmc.exec] in E; unfold owner in E; try (destruct (isOwner deployer s caller); [|discriminate]); cbn [allowance].
  - unfold handleRelay in E. cbn [incoming] in *. destruct (getLink s prev) as [l|] eqn:EL; [|discriminate]. pose proof EL as EG. apply getLink_some in EG as [EG EA]. rewrite EA in E. destruct (aget Z.eqb (a_net prev) (s_verifiers s)) as [v|]; [|discriminate].
    destruct (verify _ v prev (l_rx l) bytes) as [oms|]; [|discriminate]. destruct (negb (isRelay s prev caller)); [discriminate|].
    set (s0 := putLink s _) in E. assert (W0' : wf s0). { eapply wf_putLink; [exact W|]. cbn [l_addr]. exact EG. }
    destruct (w_dispatch_all oms s0 caller prev (l_rx l) u s' W0' HN) as (ms & -> & H); [|exact E|].
    + intros m HI. apply HM. apply in_flat_map. exists (Some m). split; [exact HI|left; reflexivity].
    + rewrite flat_some. rewrite (w_out s s0) in H by reflexivity. exact H.
  - destruct (sendMessage _ _ _ _ _ _ _ _ _ _) as [v s1|] eqn:E1; cbn [bind] in E; [|discriminate]. injection E as _ <-. pose proof (w_sendMessage _ _ _ _ _ _ _ _ _ W HN E1). lia.
  - unfold claimReward in E. cbv zeta in E. destruct (_ <=? 0); [discriminate|]. destruct (net =? own).
    + destruct receiver as [r|]; [|discriminate]. injection E as _ <-. rewrite !w_emit.
      pose proof (H_quiet (OPaid value)) as Q1. pose proof (H_quiet (OTransfer r (getReward s net (match s_handler s with Some h => if h =? caller then self else caller | None => caller end)))) as Q2.
      pose proof (H_quiet (OClaim (match s_handler s with Some h => if h =? caller then self else caller | None => caller end) net (getReward s net (match s_handler s with Some h => if h =? caller then self else caller | None => caller end)) 0)) as Q3.
      cbn beta iota in Q1, Q2, Q3. rewrite Q1, Q2, Q3, !Z.add_0_r. apply Z.eq_le_incl, w_out; reflexivity.
    + destruct (sendWithFee _ _ _ _ _ _ _ _ _ _ _) as [nsn s2|] eqn:ES; cbn [bind] in E; [|discriminate]. injection E as _ <-. rewrite !w_emit.
      pose proof (H_quiet (OPaid value)) as Q1. cbn beta iota in Q1. rewrite Q1, Z.add_0_r.
      match goal with |- context [wo (OClaim ?a ?b ?c ?d)] => pose proof (H_quiet (OClaim a b c d)) as Q2 end. cbn beta iota in Q2. rewrite Q2, !Z.add_0_r.
      match goal with |- pot (set_requests s2 ?x) <= _ => rewrite (w_out s2 (set_requests s2 x)) by reflexivity end.
      match type of ES with sendWithFee _ _ _ ?x _ _ _ _ _ _ _ = _ => assert (EP : pot s2 <= pot x) by (eapply w_send; [| | |exact ES]; [exact HN|exact W0|lia]) end.
      rewrite (w_out s (set_rewards s _)) in EP by reflexivity. exact EP.
  - destruct (own =? net); [discriminate|]. destruct (ahas _ _ _); [discriminate|]. injection E as _ <-. apply HS; reflexivity.
  - destruct (ahas _ _ _); [|discriminate]. injection E as _ <-. apply HS; reflexivity.
  - destruct (_ || _); [discriminate|]. injection E as _ <-. apply HS; reflexivity.
  - destruct (ahas _ _ _); [|discriminate]. injection E as _ <-. apply HS; reflexivity.
  - pose proof (w_addLink _ _ _ _ W HN E). lia.
  - unfold removeLink in E. destruct (getLink s a); [|discriminate]. cbv zeta in E. destruct (existsb _ (s_routes s)); [discriminate|].
    match type of E with propagate _ _ ?x _ _ = _ => assert (G0 : evolve (fun n => n <> a_net a) s [] x) end.
    { eapply evolve_pre; [apply evolve_delLink|]. apply evolve_same; cbn [set_fees set_relays]; destruct (s_netids _ a); reflexivity. }
    destruct (G0 W) as (W1 & _).
    match type of E with propagate _ _ ?x _ _ = _ => assert (EN : s_nsn x = s_nsn s) by (cbn [set_fees set_relays]; destruct (s_netids _ a); reflexivity); assert (EW : pot x = pot s) by (apply w_out; cbn [set_fees set_relays]; destruct (s_netids _ a); reflexivity) end.
    match type of E with propagate _ _ ?x ?l _ = _ => pose proof (w_propagate l x (PUnlink a) u s' W1 ltac:(rewrite EN; exact HN) E) as HP2 end. lia.
  - destruct (dst =? net); [discriminate|]. destruct (ahas _ _ _); [discriminate|]. destruct (ahas _ _ _); [|discriminate]. injection E as _ <-. apply HS; reflexivity.
  - destruct (ahas _ _ _); [|discriminate]. injection E as _ <-. apply HS; reflexivity.
  - apply setFeeTable_keeps in E as (E1 & E2 & E3 & E4 & E5 & _). apply HS; assumption.
  - injection E as _ <-. apply HS; reflexivity.
  - destruct (getLink s a); [|discriminate]. destruct (isRelay s a r); [discriminate|]. injection E as _ <-. apply HS; reflexivity.
  - destruct (getLink s a); [|discriminate]. destruct (remove_swap r (s_relays s a)); [|discriminate]. injection E as _ <-. apply HS; reflexivity.
  - destruct (negb _); [discriminate|]. destruct (deployer =? a); [discriminate|]. destruct (existsb _ _); [discriminate|]. injection E as _ <-. apply HS; reflexivity.
  - destruct (negb _); [discriminate|]. destruct (deployer =? a); [discriminate|]. destruct (remove_swap _ _); [|discriminate]. injection E as _ <-. apply HS; reflexivity.
  - unfold setBTPLink in E. destruct (nid <? 1); [discriminate|]. destruct (s_offsets s nid); [discriminate|]. cbn [bind] in E.
    match type of E with addLink _ _ ?x _ = _ => assert (EP : pot s' <= pot x) by (eapply w_addLink; [| |exact E]; [destruct W as (V1 & V2 & V3 & V4 & V5 & V6); repeat split; assumption|exact HN]) end.
    rewrite (w_out s (set_btp s _ _ _ _)) in EP by reflexivity. lia.
  - destruct (getLink s a); [|discriminate]. unfold setBTPLink in E. destruct (nid <? 1); [discriminate|]. destruct (s_offsets s nid); [discriminate|]. injection E as _ <-. apply HS; reflexivity.
  - unfold dropMessage in E. destruct (resolveNext s src) as [prev|]; [|discriminate]. destruct (getLinkNet s (a_net prev)) as [l|] eqn:EL; [|discriminate].
    destruct (negb (l_rx l + 1 =? seq)); [discriminate|]. destruct (negb (ahas _ _ _)); [discriminate|]. destruct (isInvalidSn sn nsn); [discriminate|]. cbv zeta in E.
    destruct (accumulateFee (putLink s (Link (l_addr l) seq (l_tx l) (l_reach l))) self f) as [s2 f'] eqn:EA.
    pose proof (w_accumulate (putLink s (Link (l_addr l) seq (l_tx l) (l_reach l))) self f) as PA. rewrite EA in PA. cbn [fst] in PA. rewrite (w_out s (putLink s (Link (l_addr l) seq (l_tx l) (l_reach l)))) in PA by reflexivity.
    destruct (Z.ltb_spec 0 sn) as [L|L].
    + pose proof (w_sendError s2 prev (Msg src NO_NET svc sn (PBytes []) nsn f') DROPPED u s' L (H_Q (Msg src NO_NET svc sn (PBytes []) nsn f) f' (HM _ (or_introl eq_refl))) E) as HP. rewrite (we_fee_ok _ _ _ _ f f' HWE). lia.
    + injection E as _ <-. rewrite w_dropped, PA. lia.
Qed.
End W.

(** The conditions on the weights together. *)
Record fair (own : Z) (wo : out -> Z) (wr : ((Z * Z * Z) * rinfo) -> Z) (wi we : msg -> Z) (Q : msg -> Prop) (N0 : Z) : Prop := Fair {
  fr_quiet : forall o, match o with OSent _ _ _ _ | OEvent _ _ _ SEND => True | _ => wo o = 0 end;
  fr_send : forall a nid seq m nx, m_src m = own -> N0 < m_nsn m -> 0 <= m_sn m -> wo (OSent a nid seq m) + wo (ev_of m nx SEND) <= 0;
  fr_reply : forall a nid seq to svc sn p i, wo (OSent a nid seq (Msg own to svc 0 p (- r_nsn i) (r_fee i))) <= wr ((to, svc, sn), i);
  fr_route : forall a nid seq m, own <> m_dst m -> wo (OSent a nid seq m) <= wi m;
  fr_error : forall a nid seq m code f, 0 < m_sn m -> Q m -> wo (OSent a nid seq (Msg own (m_src m) (m_svc m) (- m_sn m) (PError code) (- m_nsn m) f)) <= we m;
  fr_we : forall m m', m_src m' = m_src m -> m_svc m' = m_svc m -> m_sn m' = m_sn m -> m_nsn m' = m_nsn m -> 0 < m_sn m -> Q m -> we m' <= wi m;
  fr_store : forall m f, own = m_dst m -> 0 < m_sn m -> Q m -> wr ((m_src m, m_svc m, m_sn m), RInfo (m_nsn m) f) <= wi m;
  fr_fee : forall m f, wi (with_fee m f) = wi m;
  fr_fee2 : forall m f, we (with_fee m f) = we m;
  fr_Q : forall m m', m_src m' = m_src m -> m_svc m' = m_svc m -> m_sn m' = m_sn m -> m_nsn m' = m_nsn m -> Q m -> Q m';
  fr_wi : forall m, 0 <= wi m;
  fr_wr : forall x, 0 <= wr x }.
Theorem exec_fair : forall own self deployer verify serve chain_ok wo wr wi we Q N0 s o u s', fair own wo wr wi we Q N0 -> wf s -> N0 <= s_nsn s ->
  (forall m, In m (incoming verify s o) -> Q m) -> exec own self deployer verify serve chain_ok s o = Val u s' ->
  wpot wo wr s' <= wpot wo wr s + allowance verify wi we s o.
Proof.
  intros own self deployer verify serve chain_ok wo wr wi we Q N0 s o u s' [F1 F2 F3 F4 F5 F6 F7 F8 F9 F10 F11 F12] W HN HM E.
  eapply (exec_weight own self deployer verify serve chain_ok wo wr wi we Q N0); try eassumption.
  - intros m H1 H2. apply (F6 m m); auto.
  - intros m f. apply F10; reflexivity.
Qed.
