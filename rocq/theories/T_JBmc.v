(** Theorems about the message center: numbering C53, the fate of messages C54. *)
From Coq Require Import String Ascii ZArith List Bool Lia.
From Coq Require Import ZifyBool.
From Verif Require Import Base L_Base M_JMap L_JMap M_JBmc S_JBmc L_JBmc.
Import ListNotations.
Open Scope Z_scope.

Section BMC.
Context (own self deployer : Z).
Context (verify : nat -> Z -> addr -> Z -> list Z -> option (list (option msg))) (serve : nat -> Z -> bshcall -> action) (chain_ok : nat -> Z -> msg -> bool).
Notation exec := (exec own self deployer verify serve chain_ok).
Notation step := (step own self deployer verify serve chain_ok).
Notation run := (run own self deployer verify serve chain_ok).

Lemma reachable_wf : forall ops, wf (run ops).
Proof. intros ops. apply wf_run, wf_init. Qed.

(** Along any history the outputs only grow. *)
Lemma run_evolve : forall ops (P : Z -> Prop) s, wf s -> (forall o n, In o ops -> P n -> ~ removes o n) -> exists new, evolve P s new (fold_left step ops s).
Proof.
  induction ops as [|o ops IH]; intros P s W HP.
  - exists []. apply evolve_same; reflexivity.
  - cbn [fold_left]. destruct (evolve_step own self deployer verify serve chain_ok s o) as (n1 & G1). destruct (IH P (step s o)) as (n2 & G2).
    + apply wf_step, W.
    + intros o' n HI. apply HP. right. exact HI.
    + exists (n1 ++ n2). eapply evolve_trans; [|exact G2]. intros W'. destruct (G1 W') as (X1 & X2 & X3 & X4). split; [exact X1|]. split; [exact X2|]. split; [|exact X4].
      intros n l HPn. apply X3. apply HP; [left; reflexivity|exact HPn].
Qed.

Lemma sendTo_link : forall s next m u s', sendTo chain_ok s next m = Val u s' -> exists l, getLink s next = Some l /\
  aget Z.eqb (a_net next) (s_links s') = Some (Link (l_addr l) (l_rx l) (l_tx l + 1) (l_reach l)) /\ exists nid, s_out s' = s_out s ++ [OSent next nid (l_tx l + 1) m].
Proof.
  intros s next m u s' E. destruct (sendTo_val _ _ _ _ _ _ E) as (l & nid & EL & -> & _). exists l. split; [exact EL|]. apply getLink_some in EL as [E1 E2].
  cbn [emit putLink set_links s_links l_addr s_out]. rewrite E2. split; [apply (aput_same _ zkey)|exists nid; reflexivity].
Qed.
Lemma addLink_new : forall s a u s', wf s -> addLink own chain_ok s a = Val u s' -> getLink s a = None /\ getLink s' a = Some (Link a 0 1 []) /\
  exists before nid m, s_out s' = before ++ [OSent a nid 1 m] /\ m_pay m = PInit (map (fun x => l_addr (snd x)) (s_links s)) /\ m_src m = own /\ m_dst m = a_net a.
Proof.
  intros s a u s' W E. unfold addLink in E. destruct (negb _); [discriminate|]. destruct (ahas Z.eqb (a_net a) (s_links s)) eqn:EH; [discriminate|]. apply ahas_none in EH.
  split; [unfold getLink; rewrite EH; reflexivity|].
  destruct (propagate own chain_ok s (s_links s) (PLink a)) as [v s1|] eqn:E1; cbn [bind] in E; [|discriminate].
  unfold sendInternal in E. cbv zeta in E. rewrite event_eq in E. destruct (sendTo_link _ _ _ _ _ E) as (l & EL & EA & nid & EO).
  apply getLink_some in EL as [E2 E3]. cbn [emit nextNetworkSn set_nsn putLink set_links s_links l_addr] in E2. rewrite (aput_same _ zkey) in E2. injection E2 as <-. cbn [l_rx l_tx l_reach l_addr] in *.
  split; [unfold getLink; rewrite EA; cbn [l_addr]; rewrite (proj2 (addr_key a a) eq_refl); reflexivity|].
  eexists _, nid, _. split; [exact EO|]. repeat split.
Qed.

(** Numbers on the wire: from the moment a link exists, whatever is called and whatever fails, the messages sent
    to it carry consecutive numbers, each once, until the link is removed. *)
Theorem C53_sent_consecutively : forall before after n l, let s := run before in let s' := run (before ++ after) in
  aget Z.eqb n (s_links s) = Some l -> (forall o, In o after -> ~ removes o n) ->
  exists new l', s_out s' = s_out s ++ new /\ aget Z.eqb n (s_links s') = Some l' /\ l_addr l' = l_addr l /\
    sent_to (l_addr l) new = zseq (l_tx l + 1) (length (sent_to (l_addr l) new)) /\ l_tx l' = l_tx l + zlen (sent_to (l_addr l) new).
Proof.
  intros before after n l s s' EL HR. unfold s', M_JBmc.run. rewrite fold_left_app. fold (run before).
  destruct (run_evolve after (fun k => k = n) (run before) (reachable_wf before)) as (new & G); [intros o k HI ->; apply HR, HI|].
  destruct (G (reachable_wf before)) as (_ & EO & HL & _). destruct (HL n l eq_refl EL) as (l' & X1 & X2 & X3 & X4). exists new, l'. repeat split; assumption.
Qed.

(** A new link starts with nothing received and its first message, the introduction, numbered 1. *)
Theorem C53_new_link : forall ops c a u s', let s := run ops in exec s (AddLink c a) = Val u s' ->
  getLink s a = None /\ getLink s' a = Some (Link a 0 1 []) /\
  exists before nid m, s_out s' = before ++ [OSent a nid 1 m] /\ m_pay m = PInit (map (fun x => l_addr (snd x)) (s_links s)) /\ m_src m = own /\ m_dst m = a_net a.
Proof.
  intros ops c a u s' s E. cbn [M_JBmc.exec] in E. unfold owner in E. destruct (isOwner deployer s c); [|discriminate]. apply (addLink_new _ _ _ _ (reachable_wf ops) E).
Qed.

(** Numbers of started messages: 1, 2, 3, ... over the whole life of the contract, none twice and none skipped. *)
Theorem C53_started_consecutively : forall ops, started (s_out (run ops)) = zseq 1 (length (started (s_out (run ops)))) /\ s_nsn (run ops) = zlen (started (s_out (run ops))).
Proof.
  intros ops. destruct (run_evolve ops (fun _ => False) init wf_init) as (new & G); [tauto|]. destruct (G wf_init) as (_ & EO & _ & E1 & E2).
  fold (run ops) in EO, E1. rewrite EO. cbn [init s_out app s_nsn] in *. split; [exact E2|lia].
Qed.

(** Received numbers: a transaction leaves the received number of a link alone, or is a relay message for that
    link and adds the number of messages the verifier returned for the old number, or drops exactly the next one. *)
Definition rx_step (s : st) (o : op) (l l' : link) : Prop :=
  l_rx l' = l_rx l \/
  (exists c prev b v ms, o = HandleRelay c prev b /\ l_addr l = prev /\ isRelay s prev c = true /\ verify (length (s_out s)) v prev (l_rx l) b = Some (map Some ms) /\ l_rx l' = l_rx l + zlen ms) \/
  (exists c src svc sn nsn f, o = DropMessage c src (l_rx l + 1) svc sn nsn f /\ isOwner deployer s c = true /\ resolveNext s src = inl (l_addr l) /\ l_rx l' = l_rx l + 1).
Definition rx_keeps (P : Z -> Prop) (s s' : st) : Prop := forall n l, P n -> aget Z.eqb n (s_links s) = Some l -> exists l', aget Z.eqb n (s_links s') = Some l' /\ l_rx l' = l_rx l /\ l_addr l' = l_addr l.
Lemma grow_rx : forall P s new s', wf s -> grow s new s' -> rx_keeps P s s'.
Proof. intros P s new s' W G n l _ E. destruct (G W) as (_ & _ & _ & _ & L & _). destruct (L n l E) as (l' & X1 & X2 & X3 & _). exists l'. repeat split; assumption. Qed.
Lemma rx_same : forall P s s', s_links s' = s_links s -> rx_keeps P s s'.
Proof. intros P s s' E n l _ EL. exists l. rewrite E. repeat split. exact EL. Qed.
Lemma rx_trans : forall P a b c, rx_keeps P a b -> rx_keeps P b c -> rx_keeps P a c.
Proof. intros P a b c H1 H2 n l HP E. destruct (H1 n l HP E) as (l1 & E1 & X1 & Y1). destruct (H2 n l1 HP E1) as (l2 & E2 & X2 & Y2). exists l2. repeat split; congruence. Qed.
Lemma rx_addLink : forall P s a u s', wf s -> addLink own chain_ok s a = Val u s' -> rx_keeps P s s'.
Proof.
  intros P s a u s' W E. unfold addLink in E. destruct (negb _); [discriminate|]. destruct (ahas Z.eqb (a_net a) (s_links s)) eqn:EH; [discriminate|]. apply ahas_none in EH.
  destruct (propagate own chain_ok s (s_links s) (PLink a)) as [v s1|] eqn:E1; cbn [bind] in E; [|discriminate].
  destruct (grow_propagate _ _ _ _ _ _ _ E1) as (n1 & G1 & _). destruct (grow_sendInternal _ _ _ _ _ _ _ E) as (n2 & G2 & _).
  pose proof (G1 W) as (W1 & _ & _ & N1 & _). specialize (N1 _ EH). pose proof (evolve_newLink (fun _ => True) s1 a N1 W1) as (W2 & _).
  eapply rx_trans; [apply (grow_rx P _ _ _ W G1)|]. eapply rx_trans; [|apply (grow_rx P _ _ _ W2 G2)].
  intros n l _ EL. exists l. cbn [putLink set_links s_links l_addr]. rewrite (aput_other _ zkey) by (intros ->; congruence). repeat split. exact EL.
Qed.
Lemma rx_removeLink : forall s a u s', wf s -> removeLink own chain_ok s a = Val u s' -> rx_keeps (fun n => n <> a_net a) s s'.
Proof.
  intros s a u s' W E. unfold removeLink in E. destruct (getLink s a); [|discriminate]. cbv zeta in E. destruct (existsb _ (s_routes s)); [discriminate|].
  destruct (grow_propagate _ _ _ _ _ _ _ E) as (new & G & _).
  set (s1 := set_links s (adel Z.eqb (a_net a) (s_links s))) in *.
  assert (HS : forall n l, n <> a_net a -> aget Z.eqb n (s_links s) = Some l -> aget Z.eqb n (s_links s1) = Some l).
  { intros n k N EL. unfold s1. cbn [set_links s_links]. rewrite (adel_other _ zkey); [exact EL|apply W|exact N]. }
  pose proof (evolve_delLink s (a_net a) W) as (W1 & _). fold s1 in W1.
  match type of G with grow ?x _ _ => assert (G0 : evolve (fun _ => True) s1 [] x) by (apply evolve_same; cbn [set_fees set_relays]; destruct (s_netids _ a); reflexivity); assert (EX : s_links x = s_links s1) by (cbn [set_fees set_relays]; destruct (s_netids _ a); reflexivity) end.
  destruct (G0 W1) as (W2 & _). eapply rx_trans; [|apply (grow_rx _ _ _ _ W2 G)]. intros n k N EL. exists k. rewrite EX. repeat split. apply HS; assumption.
Qed.

Lemma received_wf : forall s o u s', wf s -> exec s o = Val u s' ->
  forall n l, aget Z.eqb n (s_links s) = Some l -> ~ removes o n -> exists l', aget Z.eqb n (s_links s') = Some l' /\ l_addr l' = l_addr l /\ rx_step s o l l'.
Proof.
  intros s o u s' W E n l EL NR.
  assert (HK : forall P : Z -> Prop, P n -> rx_keeps P s s' -> exists l', aget Z.eqb n (s_links s') = Some l' /\ l_addr l' = l_addr l /\ rx_step s o l l').
  { intros P HP HR. destruct (HR n l HP EL) as (l' & X1 & X2 & X3). exists l'. split; [exact X1|]. split; [exact X3|]. left. exact X2. }
  destruct o; cbn [M_JBmc.exec] in E; unfold owner in E; try (destruct (isOwner deployer s caller) eqn:EOwn; [|discriminate]).
  - (* relay message *)
    unfold handleRelay in E. destruct (getLink s prev) as [k|] eqn:EK; [|discriminate]. apply getLink_some in EK as [EK1 EK2]. destruct (aget Z.eqb (a_net (l_addr k)) (s_verifiers s)) as [v|]; [|discriminate].
    destruct (verify (length (s_out s)) v prev (l_rx k) bytes) as [oms|] eqn:EV; [|discriminate]. destruct (isRelay s prev caller) eqn:ER; cbn [negb] in E; [|discriminate].
    destruct (grow_dispatch_all _ _ _ _ _ _ _ _ _ _ _ E) as (ms & new & EM & G & _).
    assert (E0 : aget Z.eqb (a_net (l_addr (Link (l_addr k) (l_rx k + zlen oms) (l_tx k) (l_reach k)))) (s_links s) = Some k) by (cbn [l_addr]; rewrite EK2; exact EK1).
    pose proof (wf_putLink _ _ _ W E0) as W1. destruct (G W1) as (_ & _ & _ & _ & L & _).
    destruct (Z.eq_dec n (a_net prev)) as [->|N].
    + assert (k = l) by congruence. subst k. destruct (L (a_net prev) (Link (l_addr l) (l_rx l + zlen oms) (l_tx l) (l_reach l))) as (l' & X1 & X2 & X3 & _).
      { cbn [putLink set_links s_links l_addr]. rewrite EK2. apply (aput_same _ zkey). }
      exists l'. split; [exact X1|]. cbn [l_addr l_rx] in X2, X3. split; [exact X2|]. right. left. exists caller, prev, bytes, v, ms. rewrite <- EM. repeat split; try assumption.
      rewrite X3, EM. unfold zlen. rewrite map_length. reflexivity.
    + destruct (L n l) as (l' & X1 & X2 & X3 & _). { cbn [putLink set_links s_links l_addr]. rewrite (aput_other _ zkey); [exact EL|]. rewrite EK2. exact N. }
      exists l'. split; [exact X1|]. split; [exact X2|]. left. exact X3.
  - destruct (sendMessage _ _ _ _ _ _ _ _ _ _) as [v s1|] eqn:E1; cbn [bind] in E; [|discriminate]. injection E as _ <-. destruct (grow_sendMessage _ _ _ _ _ _ _ _ _ _ _ _ E1) as (new & G & _). apply (HK (fun _ => True) I). eapply grow_rx; eassumption.
  - destruct (grow_claim _ _ _ _ _ _ _ _ _ _ E) as (new & G & _). apply (HK (fun _ => True) I). eapply grow_rx; eassumption.
  - destruct (own =? net); [discriminate|]. destruct (ahas _ _ _); [discriminate|]. injection E as _ <-. apply (HK (fun _ => True) I), rx_same. reflexivity.
  - destruct (ahas _ _ _); [|discriminate]. injection E as _ <-. apply (HK (fun _ => True) I), rx_same. reflexivity.
  - destruct (_ || _); [discriminate|]. injection E as _ <-. apply (HK (fun _ => True) I), rx_same. reflexivity.
  - destruct (ahas _ _ _); [|discriminate]. injection E as _ <-. apply (HK (fun _ => True) I), rx_same. reflexivity.
  - apply (HK (fun _ => True) I). eapply rx_addLink; eassumption.
  - apply (HK (fun k => k <> a_net a)); [intros ->; apply NR; reflexivity|]. eapply rx_removeLink; eassumption.
  - destruct (dst =? net); [discriminate|]. destruct (ahas _ _ _); [discriminate|]. destruct (ahas _ _ _); [|discriminate]. injection E as _ <-. apply (HK (fun _ => True) I), rx_same. reflexivity.
  - destruct (ahas _ _ _); [|discriminate]. injection E as _ <-. apply (HK (fun _ => True) I), rx_same. reflexivity.
  - apply setFeeTable_keeps in E as (_ & E2 & _). apply (HK (fun _ => True) I), rx_same. exact E2.
  - injection E as _ <-. apply (HK (fun _ => True) I), rx_same. reflexivity.
  - destruct (getLink s a); [|discriminate]. destruct (isRelay s a r); [discriminate|]. injection E as _ <-. apply (HK (fun _ => True) I), rx_same. reflexivity.
  - destruct (getLink s a); [|discriminate]. destruct (remove_swap r (s_relays s a)); [|discriminate]. injection E as _ <-. apply (HK (fun _ => True) I), rx_same. reflexivity.
  - destruct (negb _); [discriminate|]. destruct (deployer =? a); [discriminate|]. destruct (existsb _ _); [discriminate|]. injection E as _ <-. apply (HK (fun _ => True) I), rx_same. reflexivity.
  - destruct (negb _); [discriminate|]. destruct (deployer =? a); [discriminate|]. destruct (remove_swap _ _); [|discriminate]. injection E as _ <-. apply (HK (fun _ => True) I), rx_same. reflexivity.
  - unfold setBTPLink in E. destruct (nid <? 1); [discriminate|]. destruct (s_offsets s nid); [discriminate|]. cbn [bind] in E.
    assert (W1 : wf (set_btp s a (Some nid) nid (Some 0))) by (apply (evolve_same (fun _ => True) s); try reflexivity; exact W).
    apply (HK (fun _ => True) I). eapply rx_trans; [|eapply rx_addLink; [exact W1|exact E]]. apply rx_same. reflexivity.
  - destruct (getLink s a); [|discriminate]. unfold setBTPLink in E. destruct (nid <? 1); [discriminate|]. destruct (s_offsets s nid); [discriminate|]. injection E as _ <-. apply (HK (fun _ => True) I), rx_same. reflexivity.
  - (* drop *)
    unfold dropMessage in E. destruct (resolveNext s src) as [prev|] eqn:ERN; [|discriminate]. destruct (getLinkNet s (a_net prev)) as [k|] eqn:EK; [|discriminate].
    destruct (Z.eqb_spec (l_rx k + 1) seq) as [ES|]; cbn [negb] in E; [|discriminate]. destruct (negb (ahas _ _ _)); [discriminate|]. destruct (isInvalidSn sn nsn); [discriminate|]. cbv zeta in E.
    destruct (accumulateFee (putLink s (Link (l_addr k) seq (l_tx k) (l_reach k))) self f) as [s2 f'] eqn:EA.
    pose proof (accumulate_grow (putLink s (Link (l_addr k) seq (l_tx k) (l_reach k))) self f) as GA. rewrite EA in GA. cbn [fst] in GA.
    assert (EKA : a_net (l_addr k) = a_net prev) by (apply (proj1 (proj2 W) _ _ EK)).
    assert (EP : l_addr k = prev).
    { unfold resolveNext in ERN. destruct (aget Z.eqb src (s_links s)) as [k0|] eqn:EQ0.
      - injection ERN as <-. unfold getLinkNet in EK. rewrite (proj1 (proj2 W) _ _ EQ0) in EK. congruence.
      - destruct (aget Z.eqb src (s_routes s)) as [nn|].
        + destruct (getLinkNet s nn) as [k1|] eqn:EK1; [|discriminate]. injection ERN as <-. unfold getLinkNet in *. rewrite (proj1 (proj2 W) _ _ EK1) in EK. congruence.
        + destruct (reach_search src (s_links s)) as [a1|] eqn:ERS; [|discriminate]. injection ERN as <-.
          assert (HRS : exists n1 k1, In (n1, k1) (s_links s) /\ l_addr k1 = a1).
          { clear - ERS. induction (s_links s) as [|[n0 k0] r IH]; cbn [reach_search] in ERS; [discriminate|]. destruct (existsb _ (l_reach k0)); [injection ERS as <-; exists n0, k0; split; [left; reflexivity|reflexivity]|].
            destruct (IH ERS) as (n1 & k1 & HI & HA). exists n1, k1. split; [right; exact HI|exact HA]. }
          destruct HRS as (n1 & k1 & HI & HA). destruct W as (_ & W2 & W3 & _). pose proof (aget_unique Z.eqb zkey _ _ _ W3 HI) as EG. pose proof (W2 _ _ EG) as EN1. unfold getLinkNet in EK. congruence. }
    assert (E0 : aget Z.eqb (a_net (l_addr (Link (l_addr k) seq (l_tx k) (l_reach k)))) (s_links s) = Some k) by (cbn [l_addr]; rewrite EP; exact EK).
    pose proof (wf_putLink _ _ _ W E0) as W1.
    assert (HG : exists new, grow (putLink s (Link (l_addr k) seq (l_tx k) (l_reach k))) new s').
    { destruct (0 <? sn); [destruct (grow_sendError _ _ _ _ _ _ _ _ E) as (nid & n0 & G); eexists; eapply grow_pre; [exact GA|exact G]|injection E as _ <-; eexists; eapply grow_pre; [exact GA|apply grow_dropped]]. }
    destruct HG as (new & G). destruct (G W1) as (_ & _ & _ & _ & L & _). destruct (Z.eq_dec n (a_net prev)) as [->|N].
    + unfold getLinkNet in EK. assert (k = l) by congruence. subst k. destruct (L (a_net prev) (Link (l_addr l) seq (l_tx l) (l_reach l))) as (l' & X1 & X2 & X3 & _).
      { cbn [putLink set_links s_links l_addr]. rewrite EKA. apply (aput_same _ zkey). }
      exists l'. split; [exact X1|]. cbn [l_addr l_rx] in X2, X3. split; [exact X2|]. right. right. exists caller, src, svc, sn, nsn, f. rewrite EP, ES. repeat split; assumption.
    + destruct (L n l) as (l' & X1 & X2 & X3 & _). { cbn [putLink set_links s_links l_addr]. rewrite (aput_other _ zkey); [exact EL|]. rewrite EKA. exact N. }
      exists l'. split; [exact X1|]. split; [exact X2|]. left. exact X3.
Qed.
Theorem C53_received : forall ops o u s', let s := run ops in exec s o = Val u s' ->
  forall n l, aget Z.eqb n (s_links s) = Some l -> ~ removes o n -> exists l', aget Z.eqb n (s_links s') = Some l' /\ l_addr l' = l_addr l /\ rx_step s o l l'.
Proof. intros ops o u s' s E. apply (received_wf _ _ _ _ (reachable_wf ops) E). Qed.

(** A transaction that throws changes nothing. *)
Theorem C53_failure_undone : forall s o e s', exec s o = Exn e s' -> step s o = s.
Proof. intros s o e s' E. unfold M_JBmc.step. rewrite E. reflexivity. Qed.

(** The fate of messages.  A relay message that is accepted comes from a registered relay of a known link; every
    message the verifier returned could be parsed; each ends, in order, in exactly one way; and the received number
    grows by their number. *)
Theorem C54_fate : forall ops c prev b u s', let s := run ops in exec s (HandleRelay c prev b) = Val u s' ->
  exists l v ms new l', getLink s prev = Some l /\ isRelay s prev c = true /\ aget Z.eqb (a_net prev) (s_verifiers s) = Some v /\
    verify (length (s_out s)) v prev (l_rx l) b = Some (map Some ms) /\
    s_out s' = s_out s ++ new /\ handled own prev (l_rx l) ms new /\ getLink s' prev = Some l' /\ l_rx l' = l_rx l + zlen ms.
Proof.
  intros ops c prev b u s' s E. pose proof (reachable_wf ops) as W. fold s in W. cbn [M_JBmc.exec] in E. unfold handleRelay in E. destruct (getLink s prev) as [k|] eqn:EK; [|discriminate].
  apply getLink_some in EK as [EK1 EK2]. destruct (aget Z.eqb (a_net (l_addr k)) (s_verifiers s)) as [v|] eqn:EVer; [|discriminate].
  destruct (verify (length (s_out s)) v prev (l_rx k) b) as [oms|] eqn:EV; [|discriminate]. destruct (isRelay s prev c) eqn:ER; cbn [negb] in E; [|discriminate].
  destruct (grow_dispatch_all _ _ _ _ _ _ _ _ _ _ _ E) as (ms & new & EM & G & HH).
  assert (E0 : aget Z.eqb (a_net (l_addr (Link (l_addr k) (l_rx k + zlen oms) (l_tx k) (l_reach k)))) (s_links s) = Some k) by (cbn [l_addr]; rewrite EK2; exact EK1).
  pose proof (wf_putLink _ _ _ W E0) as W1. destruct (G W1) as (_ & EO & _ & _ & L & _).
  destruct (L (a_net prev) (Link (l_addr k) (l_rx k + zlen oms) (l_tx k) (l_reach k))) as (l' & X1 & X2 & X3 & _).
  { cbn [putLink set_links s_links l_addr]. rewrite EK2. apply (aput_same _ zkey). }
  cbn [l_addr l_rx] in X2, X3. exists k, v, ms, new, l'. split; [reflexivity|]. split; [reflexivity|]. split; [rewrite EK2 in EVer; exact EVer|].
  split; [rewrite <- EM; exact EV|]. split; [exact EO|]. split; [exact HH|]. split.
  - unfold getLink. rewrite X1, X2, EK2, (proj2 (addr_key prev prev) eq_refl). reflexivity.
  - rewrite X3, EM. unfold zlen. rewrite map_length. reflexivity.
Qed.

(** Said with events only: there are as many final events as messages, in the same order, each naming its message. *)
Lemma segment_fate : forall own0 prev seq m new, segment own0 prev seq m new -> exists next e, filter is_fate new = [OEvent (fst (msg_id m)) (snd (msg_id m)) next e].
Proof.
  intros own0 prev seq m new H. destruct H as [new _ Q|next nid n _|nid n code f _|code].
  - exists None, RECEIVE. rewrite filter_app, Q. reflexivity.
  - exists (Some next), ROUTE. reflexivity.
  - exists (Some prev), ERROR. reflexivity.
  - exists None, DROP. reflexivity.
Qed.
Theorem C54_one_event_each : forall own0 prev ms rx new, handled own0 prev rx ms new ->
  Forall2 (fun m o => exists next e, o = OEvent (fst (msg_id m)) (snd (msg_id m)) next e) ms (filter is_fate new).
Proof.
  intros own0 prev ms. induction ms as [|m ms IH]; intros rx new H; cbn [handled] in H; [subst new; constructor|]. destruct H as (seg & rest & -> & SG & HH).
  rewrite filter_app. destruct (segment_fate _ _ _ _ _ SG) as (next & e & EF). rewrite EF. cbn [app]. constructor; [|apply (IH _ _ HH)]. exists next, e. reflexivity.
Qed.
End BMC.
Print Assumptions C53_sent_consecutively.
Print Assumptions C53_new_link.
Print Assumptions C53_started_consecutively.
Print Assumptions C53_received.
Print Assumptions C53_failure_undone.
Print Assumptions C54_fate.
Print Assumptions C54_one_event_each.
