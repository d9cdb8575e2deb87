(** Theorems about the message center: answers, C56. *)
From Coq Require Import String Ascii ZArith List Bool Lia Permutation.
From Coq Require Import ZifyBool.
From Verif Require Import Base L_Base M_JMap L_JMap L_JSum M_JBmc S_JBmc L_JBmc T_JBmc T_JBmc2 X_JBmc.
Import ListNotations.
Open Scope Z_scope.

Lemma answers_app : forall id a b, answers id (a ++ b) = answers id a + answers id b.
Proof. intros id a b. induction a as [|x a IH]; cbn [app answers]; [reflexivity|lia]. Qed.
Lemma answer_nonneg : forall id o, 0 <= answer id o.
Proof. intros id o. unfold answer. destruct o; try lia. destruct e; try lia; destruct (zz_eqb _ _); lia. Qed.
Lemma requests_app : forall id a b, requests id (a ++ b) = requests id a + requests id b.
Proof. intros id a b. induction a as [|x a IH]; cbn [app requests]; [reflexivity|lia]. Qed.
Lemma request_nonneg : forall id m, 0 <= is_request id m.
Proof. intros id m. unfold is_request. destruct (_ && _); lia. Qed.

Section BMC.
Context (own self deployer : Z).
Context (verify : nat -> Z -> addr -> Z -> list Z -> option (list (option msg))) (serve : nat -> Z -> bshcall -> action) (chain_ok : nat -> Z -> msg -> bool).
Notation exec := (exec own self deployer verify serve chain_ok).
Notation step := (step own self deployer verify serve chain_ok).
Notation run := (run own self deployer verify serve chain_ok).
Notation dispatch := (dispatch own self serve chain_ok).

(** the number of requests with a name that can still be answered *)
Definition id_of (src nsn : Z) : Z * Z := if nsn <? 0 then (own, - nsn) else (src, nsn).
Definition wid (id : Z * Z) (x : (Z * Z * Z) * rinfo) : Z := if zz_eqb (id_of (fst (fst (fst x))) (r_nsn (snd x))) id then 1 else 0.
Definition waiting (id : Z * Z) (s : st) : Z := wsum (wid id) (s_resp s).
Definition potential (id : Z * Z) (s : st) : Z := answers id (s_out s) + waiting id s.
Lemma wid_nonneg : forall id x, 0 <= wid id x.
Proof. intros id x. unfold wid. destruct (zz_eqb _ _); lia. Qed.
Lemma wat_nonneg : forall id k l, 0 <= wat zzz_eqb (wid id) k l.
Proof. intros id k l. unfold wat. destruct (aget zzz_eqb k l); [apply wid_nonneg|lia]. Qed.
Lemma waiting_nonneg : forall id s, 0 <= waiting id s.
Proof. intros id s. apply wsum_nonneg. intros x _. apply wid_nonneg. Qed.

Section ID.
Context (id : Z * Z) (HID : 0 < snd id).
Notation pot := (potential id).

Lemma pot_out : forall s s', s_out s' = s_out s -> s_resp s' = s_resp s -> pot s' = pot s.
Proof. intros s s' E1 E2. unfold potential, waiting. rewrite E1, E2. reflexivity. Qed.
Lemma pot_emit : forall s o, pot (emit s o) = pot s + answer id o.
Proof. intros s o. unfold potential, waiting. cbn [emit s_out s_resp]. rewrite answers_app. cbn [answers]. lia. Qed.
Lemma pot_addReward : forall s a n v, pot (addReward s a n v) = pot s.
Proof. intros s a n v. apply pot_out; apply addReward_keeps. Qed.
Lemma pot_collect : forall s f, pot (collect self s f) = pot s.
Proof. intros s f. apply pot_out; apply (collect_keeps self s f). Qed.
Lemma pot_sendTo : forall s next m u s', sendTo chain_ok s next m = Val u s' -> pot s' = pot s.
Proof. intros s next m u s' E. destruct (sendTo_val _ _ _ _ _ _ E) as (l & nid & _ & -> & _). rewrite pot_emit. cbn [answer]. rewrite Z.add_0_r. apply pot_out; reflexivity. Qed.
Lemma pot_event : forall s m next e, pot (event s m next e) = pot s + answer id (ev_of m next e).
Proof. intros s m next e. rewrite event_eq. apply pot_emit. Qed.
Lemma answer_reply : forall to svc p i next, answer id (ev_of (Msg own to svc 0 p (- r_nsn i) (r_fee i)) next REPLY) = wid id ((to, svc, 0), i).
Proof.
  intros to svc p i next. unfold ev_of, answer, msg_id, wid, id_of. cbn [m_nsn m_dst m_src fst snd].
  destruct (Z.ltb_spec (- r_nsn i) 0), (Z.ltb_spec (r_nsn i) 0); cbn [fst snd]; try lia.
  - rewrite Z.opp_involutive. reflexivity.
  - assert (r_nsn i = 0) as -> by lia. destruct id as [x n]. cbn [snd] in HID. unfold zz_eqb. cbn [fst snd]. replace (0 =? n) with false by lia. replace (- (0) =? n) with false by lia. rewrite !andb_false_r. reflexivity.
Qed.
Lemma wid_key : forall to svc sn i, wid id ((to, svc, sn), i) = wid id ((to, svc, 0), i).
Proof. reflexivity. Qed.
Lemma pot_del : forall s k, pot (set_resp s (adel zzz_eqb k (s_resp s))) = pot s - wat zzz_eqb (wid id) k (s_resp s).
Proof. intros s k. unfold potential, waiting. cbn [set_resp s_out s_resp]. rewrite (wsum_del zzz_eqb zzz_key). lia. Qed.
Lemma pot_reply : forall s to svc sn p fill value v s', sendWithFee own self chain_ok s to svc sn p true fill value = Val v s' -> pot s' = pot s.
Proof.
  intros s to svc sn p fill value v s' E. destruct (reply_val _ _ _ _ _ _ _ _ _ _ _ _ E) as (i & next & s1 & EI & _ & ES & -> & _).
  rewrite pot_event, answer_reply, (pot_sendTo _ _ _ _ _ ES). unfold collectNet. rewrite pot_addReward, pot_del. unfold wat. rewrite EI, (wid_key to svc sn i). lia.
Qed.
Lemma pot_send : forall s to svc sn p fill value v s', sendWithFee own self chain_ok s to svc sn p false fill value = Val v s' -> pot s' = pot s.
Proof.
  intros s to svc sn p fill value v s' E. destruct (send_val _ _ _ _ _ _ _ _ _ _ _ _ E) as (next & s1 & _ & _ & ES & -> & _).
  rewrite pot_event. change (answer id (ev_of _ _ SEND)) with 0. rewrite (pot_sendTo _ _ _ _ _ ES). unfold collectNet. rewrite pot_addReward, Z.add_0_r. apply pot_out; reflexivity.
Qed.
Lemma pot_sendMessage : forall s c to svc sn p v r s', sendMessage own self chain_ok s c to svc sn p v = Val r s' -> pot s' = pot s.
Proof.
  intros s c to svc sn p v r s' E. unfold sendMessage in E. destruct (aget Z.eqb svc (s_services s)); [|discriminate]. destruct (negb (c =? z)); [discriminate|].
  destruct (if sn <? 0 then _ else _) as [x s1|] eqn:E1; cbn [bind] in E; [|discriminate]. injection E as _ <-. rewrite pot_emit. cbn [answer]. rewrite Z.add_0_r.
  destruct (sn <? 0); [eapply pot_reply|eapply pot_send]; exact E1.
Qed.
Lemma pot_calls : forall cs s a u s', run_calls own self chain_ok s a cs = Val u s' -> pot s' = pot s.
Proof.
  induction cs as [|c cs IH]; intros s a u s' E; cbn [run_calls] in E; [injection E as _ <-; reflexivity|].
  destruct (sendMessage own self chain_ok s a (c_to c) (c_svc c) (c_sn c) (c_pay c) (c_value c)) as [r s1|] eqn:E1.
  - rewrite (IH _ _ _ _ E). eapply pot_sendMessage, E1.
  - destruct (c_catch c); [apply (IH _ _ _ _ E)|discriminate].
Qed.
Lemma pot_service : forall s a c u s', call_service own self serve chain_ok s a c = Val u s' -> pot s' = pot s.
Proof.
  intros s a c u s' E. unfold call_service in E. destruct (serve _ a c) as [|cs]; [discriminate|]. destruct (run_calls own self chain_ok s a cs) as [[] s1|] eqn:E1; [|discriminate].
  injection E as _ <-. eapply pot_calls, E1.
Qed.
Lemma pot_response : forall s nsn r u s', handleResponse s nsn r = Val u s' -> pot s' = pot s.
Proof.
  intros s nsn r u s' E. unfold handleResponse in E. destruct (aget Z.eqb nsn (s_requests s)) as [q|]; [|discriminate]. cbv zeta in E. injection E as _ <-. rewrite pot_emit. cbn [answer]. rewrite Z.add_0_r.
  destruct (r =? CODE_SUCCESS); [|rewrite pot_addReward]; apply pot_out; reflexivity.
Qed.
Lemma pot_internal : forall s src nsn p u s', internalMessage own self chain_ok s src nsn p = Val u s' -> pot s' = pot s.
Proof.
  intros s src nsn p u s' E. unfold internalMessage in E. destruct p as [b|code|amount [r|]|code|a|a|l]; try discriminate.
  - destruct (sendWithFee own self chain_ok (addReward s r own amount) src INTERNAL nsn (PResponse CODE_SUCCESS) true false 0) as [v s1|] eqn:E1; [|discriminate].
    injection E as _ <-. rewrite (pot_reply _ _ _ _ _ _ _ _ _ E1). apply pot_addReward.
  - eapply pot_response, E.
  - unfold addReachable in E. destruct (getLinkNet s src); [|discriminate]. injection E as _ <-. apply pot_out; reflexivity.
  - unfold removeReachable in E. destruct (getLinkNet s src); [|discriminate]. injection E as _ <-. apply pot_out; reflexivity.
  - unfold addReachable in E. destruct (getLinkNet s src); [|discriminate]. injection E as _ <-. apply pot_out; reflexivity.
Qed.
(** a failed internal message has put out nothing, and has perhaps used up an entry *)
Lemma internal_exn_shape : forall s src nsn p e s', internalMessage own self chain_ok s src nsn p = Exn e s' ->
  s_out s' = s_out s /\ (s_resp s' = s_resp s \/ exists k, s_resp s' = adel zzz_eqb k (s_resp s)).
Proof.
  intros s src nsn p e s' E. unfold internalMessage in E. destruct p as [b|code|amount [r|]|code|a|a|l]; try (injection E as _ <-; split; [|left]; reflexivity).
  - destruct (sendWithFee own self chain_ok (addReward s r own amount) src INTERNAL nsn (PResponse CODE_SUCCESS) true false 0) as [v s1|e1 s1] eqn:E1; [discriminate|]. injection E as _ <-.
    destruct (addReward_keeps s1 r own (- amount)) as (_ & _ & -> & _ & -> & _). destruct (addReward_keeps s r own amount) as (_ & _ & K3 & _ & K5 & _).
    destruct (reply_exn _ _ _ _ _ _ _ _ _ _ _ _ E1) as [->|(i & _ & ->)]; [split; [exact K5|left; exact K3]|]. unfold collectNet.
    match goal with |- context [addReward ?x self own 0] => destruct (addReward_keeps x self own 0) as (_ & _ & -> & _ & -> & _) end.
    cbn [set_resp s_out s_resp]. rewrite K5, K3. split; [reflexivity|right; eexists; reflexivity].
  - apply response_exn in E. subst s'. split; [|left]; reflexivity.
  - unfold addReachable in E. destruct (getLinkNet s src); [discriminate|]. injection E as _ <-. split; [|left]; reflexivity.
  - unfold removeReachable in E. destruct (getLinkNet s src); [discriminate|]. injection E as _ <-. split; [|left]; reflexivity.
  - unfold addReachable in E. destruct (getLinkNet s src); [discriminate|]. injection E as _ <-. split; [|left]; reflexivity.
Qed.
Lemma deliver_exn_shape : forall s m e s', deliver own self serve chain_ok s m = Exn e s' -> s_out s' = s_out s /\ (s_resp s' = s_resp s \/ exists k, s_resp s' = adel zzz_eqb k (s_resp s)).
Proof.
  intros s m e s' E. unfold deliver in E. destruct (m_svc m =? INTERNAL); [eapply internal_exn_shape, E|].
  destruct (getService s (m_svc m)); [apply service_exn in E; subst s'|injection E as _ <-]; split; try (left; reflexivity); reflexivity.
Qed.
Lemma stored_pot : forall s m, own = m_dst m -> pot (stored_state self s m) <= pot s + is_request id m.
Proof.
  intros s m EO. pose proof (request_nonneg id m) as HN. unfold stored_state. destruct (m_fee m) as [f|]; [|lia]. destruct (0 <? m_sn m) eqn:ES; [|rewrite pot_collect; lia]. cbv zeta.
  set (s0 := match aget _ _ (s_resp s) with Some old => _ | None => s end). assert (E0 : pot s0 = pot s /\ s_resp s0 = s_resp s).
  { unfold s0. destruct (aget _ _ (s_resp s)); [|split; reflexivity]. split; [apply pot_collect|apply (collect_keeps self)]. }
  destruct E0 as [E1 E2]. rewrite <- E1. unfold potential, waiting. cbn [set_resp s_out s_resp]. rewrite (wsum_put zzz_eqb zzz_key).
  pose proof (wat_nonneg id (m_src m, m_svc m, m_sn m) (s_resp s0)) as HW.
  assert (EW : wid id (m_src m, m_svc m, m_sn m, {| r_nsn := m_nsn m; r_fee := Some f |}) = is_request id m).
  { unfold wid, is_request, id_of, msg_id. cbn [fst snd r_nsn]. rewrite ES, <- EO. reflexivity. }
  rewrite EW. lia.
Qed.
Lemma two_dels : forall k k' (l : list ((Z * Z * Z) * rinfo)), NoDup (map fst l) -> wsum (wid id) (adel zzz_eqb k (adel zzz_eqb k' l)) <= wsum (wid id) (adel zzz_eqb k l).
Proof.
  intros k k' l ND. rewrite !(wsum_del zzz_eqb zzz_key). pose proof (wat_nonneg id k' l) as H1. pose proof (wat_nonneg id k (adel zzz_eqb k' l)) as H2.
  destruct (zzz_eqb k k') eqn:EK.
  - apply zzz_key in EK. subst k'. lia.
  - assert (N : k <> k') by (intros ->; rewrite (proj2 (zzz_key k' k') eq_refl) in EK; discriminate). unfold wat at 2. rewrite (adel_other zzz_eqb zzz_key) by assumption. fold (wat zzz_eqb (wid id) k l). lia.
Qed.
Lemma handle_exn_pot : forall s m e s', wf s -> own = m_dst m -> handleMessage own self serve chain_ok s m = Exn e s' -> pot s' <= pot s.
Proof.
  intros s m e s' W EO E. rewrite handle_eq in E. destruct (Z.leb_spec 0 (m_sn m)) as [L|L].
  - destruct (deliver own self serve chain_ok (stored_state self s m) m) as [v s2|e2 s2] eqn:ED; [discriminate|]. injection E as _ <-. apply deliver_exn_shape in ED as [DO DR].
    destruct (stored_keeps self s m) as (KO & _). rewrite KO in DO. unfold stored_state in DR. destruct (m_fee m) as [f|].
    + destruct (0 <? m_sn m).
      * cbv zeta in DR. cbn [set_resp s_resp] in DR. set (key := (m_src m, m_svc m, m_sn m)) in *.
        assert (ER : s_resp (match aget zzz_eqb key (s_resp s) with Some old => collect self s (r_fee old) | None => s end) = s_resp s) by (destruct (aget zzz_eqb key (s_resp s)); [apply (collect_keeps self)|reflexivity]).
        rewrite ER in DR. unfold potential, waiting. cbn [set_resp s_out s_resp]. rewrite DO.
        assert (HB : wsum (wid id) (adel zzz_eqb key (aput zzz_eqb key (RInfo (m_nsn m) (Some f)) (s_resp s))) <= wsum (wid id) (s_resp s)).
        { rewrite (wsum_del zzz_eqb zzz_key), (wsum_put zzz_eqb zzz_key). pose proof (wat_nonneg id key (s_resp s)). unfold wat at 2. rewrite (aput_same zzz_eqb zzz_key). lia. }
        destruct W as (_ & _ & _ & ND & _). destruct DR as [->|[k ->]]; [lia|]. pose proof (two_dels key k (aput zzz_eqb key (RInfo (m_nsn m) (Some f)) (s_resp s)) (aput_nodup zzz_eqb zzz_key _ _ _ ND)). lia.
      * destruct (collect_keeps self s (Some f)) as (_ & _ & KR & _). rewrite KR in DR. unfold potential, waiting. rewrite DO. destruct DR as [->|[k ->]]; [lia|].
        rewrite (wsum_del zzz_eqb zzz_key). pose proof (wat_nonneg id k (s_resp s)). lia.
    + unfold potential, waiting. rewrite DO. destruct DR as [->|[k ->]]; [lia|]. rewrite (wsum_del zzz_eqb zzz_key). pose proof (wat_nonneg id k (s_resp s)). lia.
  - destruct (deliver_error own self serve chain_ok (collect self s (m_fee m)) m) as [v s2|e2 s2] eqn:ED; [discriminate|]. injection E as _ <-. apply deliver_error_exn in ED. subst s2. rewrite pot_collect. lia.
Qed.
Lemma handle_pot : forall s m u s', own = m_dst m -> handleMessage own self serve chain_ok s m = Val u s' -> pot s' <= pot s + is_request id m.
Proof.
  intros s m u s' EO E. rewrite handle_eq in E. pose proof (request_nonneg id m) as HN. destruct (0 <=? m_sn m).
  - destruct (deliver own self serve chain_ok (stored_state self s m) m) as [v s2|] eqn:ED; [|discriminate]. injection E as _ <-. apply Z.le_trans with (pot (stored_state self s m)); [|apply stored_pot, EO].
    apply Z.eq_le_incl. unfold deliver in ED. destruct (m_svc m =? INTERNAL); [eapply pot_internal, ED|]. destruct (getService _ (m_svc m)); [|discriminate]. eapply pot_service, ED.
  - destruct (deliver_error own self serve chain_ok (collect self s (m_fee m)) m) as [v s2|] eqn:ED; [|discriminate]. injection E as _ <-.
    assert (EP : pot s2 = pot s); [|lia]. rewrite <- (pot_collect s (m_fee m)). unfold deliver_error in ED. destruct (m_pay m); try discriminate. destruct (m_svc m =? INTERNAL); [eapply pot_response, ED|].
    destruct (getService _ (m_svc m)); [|discriminate]. eapply pot_service, ED.
Qed.
Lemma sendError_pot : forall s prev m e u s', 0 < m_sn m -> sendError own chain_ok s prev m e = Val u s' -> pot s' = pot s + is_request id m.
Proof.
  intros s prev m e u s' HS E. unfold sendError in E. cbv zeta in E. destruct (sendTo chain_ok s prev _) as [[] s1|] eqn:ES; cbn [bind] in E; [|discriminate]. injection E as _ <-.
  rewrite pot_event, (pot_sendTo _ _ _ _ _ ES). unfold ev_of, answer, is_request. replace (0 <? m_sn m) with true by lia. cbn [andb]. rewrite <- surjective_pairing. reflexivity.
Qed.
Lemma dropped_pot : forall s prev seq m e, pot (dropped s prev seq m e) = pot s.
Proof. intros s prev seq m e. unfold dropped. rewrite pot_emit, pot_event. cbn [answer ev_of]. lia. Qed.
Lemma dispatch_pot : forall s prev seq m, wf s -> pot (dispatch s prev seq m) <= pot s + is_request id m.
Proof.
  intros s prev seq m W. pose proof (request_nonneg id m) as HN. unfold M_JBmc.dispatch.
  assert (HX : forall e s1, pot s1 <= pot s ->
    pot (if 0 <? m_sn m then match sendError own chain_ok s1 prev m e with Val _ s2 => s2 | Exn e2 s2 => dropped (collect self s2 (m_fee m)) prev seq m e2 end
     else dropped (collect self s1 (m_fee m)) prev seq m e) <= pot s + is_request id m).
  { intros e s1 HP. destruct (Z.ltb_spec 0 (m_sn m)) as [L|L].
    - destruct (sendError own chain_ok s1 prev m e) as [u s2|e2 s2] eqn:EE; [rewrite (sendError_pot _ _ _ _ _ _ L EE); lia|].
      apply sendError_exn in EE. subst s2. rewrite dropped_pot, pot_collect. lia.
    - rewrite dropped_pot, pot_collect. lia. }
  destruct (Z.eqb_spec own (m_dst m)) as [EO|NO].
  - destruct (handleMessage own self serve chain_ok s m) as [u s1|e s1] eqn:EH; cbn [bind].
    + rewrite pot_event. change (answer id (ev_of m None RECEIVE)) with 0. pose proof (handle_pot _ _ _ _ EO EH). lia.
    + apply HX. eapply handle_exn_pot; eassumption.
  - destruct (resolveNext s (m_dst m)) as [next|e]; [|apply HX; lia]. destruct (sendTo chain_ok s next m) as [u s1|e s1] eqn:ES; cbn [bind].
    + rewrite pot_event. change (answer id (ev_of m (Some next) ROUTE)) with 0. rewrite (pot_sendTo _ _ _ _ _ ES). lia.
    + apply sendTo_exn in ES. subst s1. apply HX. lia.
Qed.
Lemma accumulate_pot : forall s a f, pot (fst (accumulateFee s a f)) = pot s.
Proof. intros s a [[n [|v vs]]|]; cbn [accumulateFee fst]; try reflexivity. apply pot_addReward. Qed.
Lemma dispatch_all_pot : forall oms s c prev rx u s', wf s -> dispatch_all own self serve chain_ok s c prev rx oms = Val u s' ->
  pot s' <= pot s + requests id (flat_map (fun x => match x with Some m => [m] | None => [] end) oms).
Proof.
  induction oms as [|[m|] oms IH]; intros s c prev rx u s' W E; cbn [dispatch_all flat_map app requests] in *; [injection E as _ <-; lia| |discriminate].
  destruct (accumulateFee s c (m_fee m)) as [s1 f] eqn:EA. pose proof (accumulate_grow s c (m_fee m)) as GA. pose proof (accumulate_pot s c (m_fee m)) as PA. rewrite EA in GA, PA. cbn [fst] in GA, PA.
  destruct (GA W) as (W1 & _). destruct (grow_dispatch own self serve chain_ok s1 prev (rx + 1) (with_fee m f)) as (seg & G & _). destruct (G W1) as (W2 & _).
  pose proof (IH _ _ _ _ _ _ W2 E) as H1. pose proof (dispatch_pot s1 prev (rx + 1) (with_fee m f) W1) as H2. change (is_request id (with_fee m f)) with (is_request id m) in H2. lia.
Qed.
Lemma propagate_pot : forall l s p u s', propagate own chain_ok s l p = Val u s' -> pot s' = pot s.
Proof.
  induction l as [|[n k] l IH]; intros s p u s' E; cbn [propagate] in E; [injection E as _ <-; reflexivity|].
  destruct (sendInternal own chain_ok s (l_addr k) p) as [v s1|] eqn:E1; cbn [bind] in E; [|discriminate]. rewrite (IH _ _ _ _ E). unfold sendInternal in E1. cbv zeta in E1.
  rewrite (pot_sendTo _ _ _ _ _ E1), pot_event. change (answer id (ev_of _ _ SEND)) with 0. rewrite Z.add_0_r. apply pot_out; reflexivity.
Qed.
Lemma addLink_pot : forall s a u s', addLink own chain_ok s a = Val u s' -> pot s' = pot s.
Proof.
  intros s a u s' E. unfold addLink in E. destruct (negb _); [discriminate|]. destruct (ahas _ _ _); [discriminate|].
  destruct (propagate own chain_ok s (s_links s) (PLink a)) as [v s1|] eqn:E1; cbn [bind] in E; [|discriminate]. unfold sendInternal in E. cbv zeta in E.
  rewrite (pot_sendTo _ _ _ _ _ E), pot_event. change (answer id (ev_of _ _ SEND)) with 0. rewrite Z.add_0_r, <- (propagate_pot _ _ _ _ _ E1). apply pot_out; reflexivity.
Qed.
Lemma exec_pot : forall s o u s', wf s -> exec s o = Val u s' -> pot s' <= pot s + requests id (incoming verify s o).
Proof.
  intros s o u s' W E. assert (HS : forall s1, s_out s1 = s_out s -> s_resp s1 = s_resp s -> pot s1 <= pot s + 0) by (intros s1 E1 E2; rewrite (pot_out _ _ E1 E2); lia).
  destruct o; cbn [M_JBmc.exec] in E; unfold owner in E; try (destruct (isOwner deployer s caller); [|discriminate]); cbn [incoming requests].
  - unfold handleRelay in E. destruct (getLink s prev) as [l|] eqn:EL; [|discriminate]. pose proof EL as EG. apply getLink_some in EG as [EG EA]. rewrite EA in E. destruct (aget Z.eqb (a_net prev) (s_verifiers s)) as [v|]; [|discriminate].
    destruct (verify _ v prev (l_rx l) bytes) as [oms|]; [|discriminate]. destruct (negb (isRelay s prev caller)); [discriminate|].
    set (s0 := putLink s _) in E. assert (W0 : wf s0). { eapply wf_putLink; [exact W|]. cbn [l_addr]. exact EG. }
    pose proof (dispatch_all_pot _ _ _ _ _ _ _ W0 E) as H. rewrite (pot_out s s0) in H by reflexivity. exact H.
  - destruct (sendMessage _ _ _ _ _ _ _ _ _ _) as [v s1|] eqn:E1; cbn [bind] in E; [|discriminate]. injection E as _ <-. rewrite (pot_sendMessage _ _ _ _ _ _ _ _ _ E1). lia.
  - unfold claimReward in E. cbv zeta in E. destruct (_ <=? 0); [discriminate|]. destruct (net =? own).
    + destruct receiver as [r|]; [|discriminate]. injection E as _ <-. rewrite !pot_emit. cbn [answer]. rewrite !Z.add_0_r. apply Z.eq_le_incl, pot_out; reflexivity.
    + destruct (sendWithFee _ _ _ _ _ _ _ _ _ _ _) as [nsn s2|] eqn:ES; cbn [bind] in E; [|discriminate]. injection E as _ <-. rewrite !pot_emit. cbn [answer]. rewrite !Z.add_0_r.
      match goal with |- pot (set_requests s2 ?x) <= _ => rewrite (pot_out s2 (set_requests s2 x)) by reflexivity end. rewrite (pot_send _ _ _ _ _ _ _ _ _ ES). apply Z.eq_le_incl, pot_out; reflexivity.
  - destruct (own =? net); [discriminate|]. destruct (ahas _ _ _); [discriminate|]. injection E as _ <-. apply HS; reflexivity.
  - destruct (ahas _ _ _); [|discriminate]. injection E as _ <-. apply HS; reflexivity.
  - destruct (_ || _); [discriminate|]. injection E as _ <-. apply HS; reflexivity.
  - destruct (ahas _ _ _); [|discriminate]. injection E as _ <-. apply HS; reflexivity.
  - rewrite (addLink_pot _ _ _ _ E). lia.
  - unfold removeLink in E. destruct (getLink s a); [|discriminate]. cbv zeta in E. destruct (existsb _ (s_routes s)); [discriminate|]. rewrite (propagate_pot _ _ _ _ _ E). apply HS; cbn [set_fees set_relays]; destruct (s_netids _ a); reflexivity.
  - destruct (dst =? net); [discriminate|]. destruct (ahas _ _ _); [discriminate|]. destruct (ahas _ _ _); [|discriminate]. injection E as _ <-. apply HS; reflexivity.
  - destruct (ahas _ _ _); [|discriminate]. injection E as _ <-. apply HS; reflexivity.
  - apply setFeeTable_keeps in E as (E1 & E2 & E3 & E4 & E5 & _). apply HS; assumption.
  - injection E as _ <-. apply HS; reflexivity.
  - destruct (getLink s a); [|discriminate]. destruct (isRelay s a r); [discriminate|]. injection E as _ <-. apply HS; reflexivity.
  - destruct (getLink s a); [|discriminate]. destruct (remove_swap r (s_relays s a)); [|discriminate]. injection E as _ <-. apply HS; reflexivity.
  - destruct (negb _); [discriminate|]. destruct (deployer =? a); [discriminate|]. destruct (existsb _ _); [discriminate|]. injection E as _ <-. apply HS; reflexivity.
  - destruct (negb _); [discriminate|]. destruct (deployer =? a); [discriminate|]. destruct (remove_swap _ _); [|discriminate]. injection E as _ <-. apply HS; reflexivity.
  - unfold setBTPLink in E. destruct (nid <? 1); [discriminate|]. destruct (s_offsets s nid); [discriminate|]. cbn [bind] in E. rewrite (addLink_pot _ _ _ _ E). apply HS; reflexivity.
  - destruct (getLink s a); [|discriminate]. unfold setBTPLink in E. destruct (nid <? 1); [discriminate|]. destruct (s_offsets s nid); [discriminate|]. injection E as _ <-. apply HS; reflexivity.
  - unfold dropMessage in E. destruct (resolveNext s src) as [prev|]; [|discriminate]. destruct (getLinkNet s (a_net prev)) as [l|] eqn:EL; [|discriminate].
    destruct (negb (l_rx l + 1 =? seq)); [discriminate|]. destruct (negb (ahas _ _ _)); [discriminate|]. destruct (isInvalidSn sn nsn); [discriminate|]. cbv zeta in E.
    destruct (accumulateFee (putLink s (Link (l_addr l) seq (l_tx l) (l_reach l))) self f) as [s2 f'] eqn:EA.
    pose proof (accumulate_pot (putLink s (Link (l_addr l) seq (l_tx l) (l_reach l))) self f) as PA. rewrite EA in PA. cbn [fst] in PA. rewrite (pot_out s (putLink s (Link (l_addr l) seq (l_tx l) (l_reach l)))) in PA by reflexivity.
    destruct (Z.ltb_spec 0 sn) as [L|L].
    + rewrite (sendError_pot s2 prev (Msg src NO_NET svc sn (PBytes []) nsn f') DROPPED u s' L E). unfold is_request, msg_id. cbn [m_sn m_nsn m_src m_dst]. lia.
    + injection E as _ <-. rewrite dropped_pot, PA. pose proof (request_nonneg id (Msg src NO_NET svc sn (PBytes []) nsn f)). lia.
Qed.
End ID.

(** the messages that came in over a run *)
Fixpoint arrivals (s : st) (ops : list op) : list msg :=
  match ops with
  | [] => []
  | o :: r => (match exec s o with Val _ _ => incoming verify s o | Exn _ _ => [] end) ++ arrivals (step s o) r
  end.

(** However often services try to answer, whatever fails and whatever the relays bring: replies and error answers
    to a request are no more than the times it came in. *)
Theorem C56_answered_at_most_once : forall ops id, 0 < snd id -> answers id (s_out (run ops)) <= requests id (arrivals init ops).
Proof.
  intros ops id HID. assert (HG : forall ops s, wf s -> potential id (fold_left step ops s) <= potential id s + requests id (arrivals s ops)).
  { clear ops. induction ops as [|o ops IH]; intros s W; cbn [fold_left arrivals requests]; [lia|]. rewrite requests_app.
    pose proof (IH (step s o) (wf_step own self deployer verify serve chain_ok s o W)) as H1.
    assert (H2 : potential id (step s o) <= potential id s + requests id (match exec s o with Val _ _ => incoming verify s o | Exn _ _ => [] end)); [|lia].
    unfold M_JBmc.step. destruct (exec s o) as [u s'|e s'] eqn:E; [exact (exec_pot id HID s o u s' W E)|cbn [requests]; lia]. }
  pose proof (HG ops init wf_init) as H. pose proof (waiting_nonneg id (run ops)) as HW. unfold potential at 1 2 in H. change (waiting id init) with 0 in H. cbn [init s_out answers] in H. unfold M_JBmc.run in *. lia.
Qed.

(** A reply: goes to the network of the request with the request's number negated and the fee that was kept for it,
    and can be sent only once. *)
Theorem C56_reply : forall s c to svc sn p v r s', wf s -> 0 < sn -> sendMessage own self chain_ok s c to svc (- sn) p v = Val r s' ->
  exists i next nid n, aget zzz_eqb (to, svc, sn) (s_resp s) = Some i /\ leads s to next /\
    let m := Msg own to svc 0 p (- r_nsn i) (r_fee i) in
    s_out s' = s_out s ++ [OSent next nid n m; OEvent (fst (msg_id m)) (snd (msg_id m)) (Some next) REPLY; OPaid v] /\ r = - r_nsn i /\
    aget zzz_eqb (to, svc, sn) (s_resp s') = None /\ sendMessage own self chain_ok s' c to svc (- sn) p v = Exn UNKNOWN s'.
Proof.
  intros s c to svc sn p v r s' W HS E. unfold sendMessage in E. destruct (aget Z.eqb svc (s_services s)) as [a|] eqn:EA; [|discriminate]. destruct (negb (c =? a)) eqn:EC; [discriminate|].
  destruct (Z.ltb_spec (- sn) 0) as [_|]; [|lia]. rewrite Z.opp_involutive in E. destruct (sendWithFee _ _ _ _ _ _ _ _ _ _ _) as [x s1|] eqn:ES; cbn [bind] in E; [|discriminate]. injection E as <- <-.
  pose proof ES as ER. destruct (grow_reply _ _ _ _ _ _ _ _ _ _ _ _ ER) as (gn & G & _). destruct (G W) as (W1 & _ & AD & NL & _).
  destruct (reply_val _ _ _ _ _ _ _ _ _ _ _ _ ES) as (i & next & s2 & EI & EN & EQ & EV & EX). destruct (sendTo_val _ _ _ _ _ _ EQ) as (l & nid & EG & EP & _).
  exists i, next, nid, (l_tx l + 1). split; [exact EI|]. split; [apply resolve_leads, EN|]. cbv zeta.
  assert (KA : forall x, s_out (collectNet self x own v) = s_out x /\ s_resp (collectNet self x own v) = s_resp x) by (intros x0; split; apply addReward_keeps).
  split.
  { cbn [emit s_out]. rewrite EV, event_eq. cbn [emit s_out]. rewrite EP. cbn [emit s_out putLink set_links]. rewrite (proj1 (KA _)). cbn [set_resp s_out]. rewrite <- !app_assoc. reflexivity. }
  split; [exact EX|]. assert (ED : aget zzz_eqb (to, svc, sn) (s_resp (emit s1 (OPaid v))) = None).
  { cbn [emit s_resp]. rewrite EV, event_eq. cbn [emit s_resp]. rewrite EP. cbn [emit s_resp putLink set_links]. rewrite (proj2 (KA _)). cbn [set_resp s_resp]. apply (adel_same zzz_eqb zzz_key). apply W. }
  split; [exact ED|]. unfold sendMessage. destruct AD as (_ & _ & A3 & A4 & _). cbn [emit s_services]. rewrite A3, EA, EC. destruct (Z.ltb_spec (- sn) 0) as [_|]; [|lia]. rewrite Z.opp_involutive.
  unfold sendWithFee. assert (HR : exists b, resolveNext (emit s1 (OPaid v)) to = inl b).
  { assert (EQL : s_links (emit s1 (OPaid v)) = s_links s1) by reflexivity. unfold resolveNext, getLinkNet in *. rewrite EQL. change (s_routes (emit s1 (OPaid v))) with (s_routes s1). rewrite A4.
    assert (EL1 : s_links s1 = aput Z.eqb (a_net (l_addr l)) (Link (l_addr l) (l_rx l) (l_tx l + 1) (l_reach l)) (s_links s)).
    { rewrite EV, event_eq. cbn [emit s_links]. rewrite EP. cbn [emit s_links putLink set_links l_addr]. unfold collectNet. rewrite (proj1 (proj2 (addReward_keeps _ _ _ _))). reflexivity. }
    apply getLink_some in EG as [EG1 EG2]. unfold collectNet in EG1. rewrite (proj1 (proj2 (addReward_keeps _ _ _ _))) in EG1. cbn [set_resp s_links] in EG1.
    rewrite EL1, EG2. clear EL1 EQL. destruct (aget Z.eqb to (s_links s)) as [k|] eqn:ET.
    - destruct (Z.eq_dec to (a_net next)) as [->|NT]; [rewrite (aput_same _ zkey)|rewrite (aput_other _ zkey) by exact NT; rewrite ET]; eexists; reflexivity.
    - rewrite (aput_other _ zkey) by (intros ->; congruence). rewrite ET. destruct (aget Z.eqb to (s_routes s)) as [via|].
      + destruct (aget Z.eqb via (s_links s)) as [k|] eqn:EV2; [|discriminate]. destruct (Z.eq_dec via (a_net next)) as [->|NT]; [rewrite (aput_same _ zkey)|rewrite (aput_other _ zkey) by exact NT; rewrite EV2]; eexists; reflexivity.
      + destruct (reach_search to (s_links s)) as [b|] eqn:ERS; [|discriminate]. injection EN as ->.
        assert (HRS : forall ls, aget Z.eqb (a_net next) ls = Some l -> reach_search to (aput Z.eqb (a_net next) (Link next (l_rx l) (l_tx l + 1) (l_reach l)) ls) = None -> reach_search to ls = None).
        { clear. induction ls as [|[n k] ls IH]; cbn [aget aput reach_search]; intros EG H; [discriminate|]. destruct (Z.eqb (a_net next) n) eqn:EZ.
          - injection EG as ->. cbn [reach_search l_reach l_addr] in H. destruct (existsb _ (l_reach l)); [discriminate|exact H].
          - cbn [reach_search] in H. destruct (existsb _ (l_reach k)); [discriminate|]. apply IH; assumption. }
        destruct (reach_search to (aput Z.eqb (a_net next) _ (s_links s))) as [b|] eqn:EB; [eexists; reflexivity|]. apply HRS in EB; [congruence|exact EG1]. }
  destruct HR as [b ->]. rewrite ED. reflexivity.
Qed.

(** A request that is received stays answerable: the number and the fee are kept. *)
Theorem C56_kept_for_reply : forall s prev seq m a f, own = m_dst m -> m_svc m <> INTERNAL -> 0 < m_sn m -> m_fee m = Some f -> aget Z.eqb (m_svc m) (s_services s) = Some a ->
  serve (length (s_out s)) a (BMessage (m_src m) (m_svc m) (m_sn m) (m_pay m)) = Calls [] ->
  aget zzz_eqb (m_src m, m_svc m, m_sn m) (s_resp (dispatch s prev seq m)) = Some (RInfo (m_nsn m) (Some f)).
Proof.
  intros s prev seq m a f EO NI HS EF EA ES. unfold M_JBmc.dispatch. rewrite (proj2 (Z.eqb_eq _ _) EO), handle_eq. destruct (Z.leb_spec 0 (m_sn m)) as [_|]; [|lia].
  unfold deliver. destruct (Z.eqb_spec (m_svc m) INTERNAL); [contradiction|]. destruct (stored_keeps self s m) as (K1 & K2 & _). unfold getService. rewrite K2, EA. unfold call_service. rewrite K1, ES. cbn [run_calls bind].
  rewrite event_eq. cbn [emit s_resp]. unfold stored_state. rewrite EF. replace (0 <? m_sn m) with true by lia. cbv zeta. cbn [set_resp s_resp]. apply (aput_same zzz_eqb zzz_key).
Qed.
(** FINDING.  A request that carries no fee record at all is delivered but can never be answered: the service's
    reply fails and with it, if the service lets it, the whole handling. *)
Theorem C56_no_fee_record_refuted : forall s prev seq m a p v, own = m_dst m -> m_svc m <> INTERNAL -> 0 < m_sn m -> m_fee m = None -> aget Z.eqb (m_svc m) (s_services s) = Some a ->
  aget zzz_eqb (m_src m, m_svc m, m_sn m) (s_resp s) = None -> serve (length (s_out s)) a (BMessage (m_src m) (m_svc m) (m_sn m) (m_pay m)) = Calls [] ->
  let s' := dispatch s prev seq m in ends_with s' (OEvent (fst (msg_id m)) (snd (msg_id m)) None RECEIVE) /\ exists e, sendMessage own self chain_ok s' a (m_src m) (m_svc m) (- m_sn m) p v = Exn e s'.
Proof.
  intros s prev seq m a p v EO NI HS EF EA EN ES. assert (ED : dispatch s prev seq m = event s m None RECEIVE).
  { unfold M_JBmc.dispatch. rewrite (proj2 (Z.eqb_eq _ _) EO), handle_eq. destruct (Z.leb_spec 0 (m_sn m)) as [_|]; [|lia]. unfold stored_state. rewrite EF.
    unfold deliver. destruct (Z.eqb_spec (m_svc m) INTERNAL); [contradiction|]. unfold getService. rewrite EA. unfold call_service. rewrite ES. reflexivity. }
  cbv zeta. rewrite ED. split; [apply ends_event|]. rewrite event_eq. unfold sendMessage. cbn [emit s_services]. rewrite EA, Z.eqb_refl. cbn [negb]. destruct (Z.ltb_spec (- m_sn m) 0) as [_|]; [|lia]. rewrite Z.opp_involutive.
  unfold sendWithFee. destruct (resolveNext _ (m_src m)); [|eexists; reflexivity]. cbn [emit s_resp]. rewrite EN. eexists. reflexivity.
Qed.
End BMC.
Print Assumptions C56_answered_at_most_once.
Print Assumptions C56_reply.
Print Assumptions C56_kept_for_reply.
Print Assumptions C56_no_fee_record_refuted.

Example C56_ex : let ops := setup ++ [HandleRelay 50 peer [1]; HandleRelay 50 peer [1]; HandleRelay 50 peer [3]] in
  answers (2, 9) (s_out (demo ops)) = 2 /\ requests (2, 9) (arrivals 1 100 200 demo_verify demo_serve demo_ok init ops) = 2 /\
  answers (2, 11) (s_out (demo ops)) = 1 /\ requests (2, 11) (arrivals 1 100 200 demo_verify demo_serve demo_ok init ops) = 1.
Proof. vm_compute. auto. Qed.
