(** Theorems about the message center for the EVM: numbering C76. *)
From Coq Require Import String Ascii ZArith List Bool Lia.
From Coq Require Import ZifyBool.
From Verif Require Import Base L_Base M_SolRlp M_BtpAddr M_Bridge M_JMap L_JMap M_SBmc S_SBmc L_SBmc X_SBmc.
From Verif Require S_JBmc.
Import ListNotations.
Open Scope Z_scope.

Section BMC.
Context (own : text) (self mgmt svcaddr : Z) (junk : list Z -> mem).
Context (verify : nat -> Z -> text -> Z -> list Z -> option (list (list Z))) (serve : nat -> Z -> bshcall -> action) (blame : nat -> text) (accepts : nat -> Z -> Z -> bool).
Notation exec := (exec own self mgmt svcaddr junk verify serve blame accepts).
Notation step := (step own self mgmt svcaddr junk verify serve blame accepts).
Notation run := (run own self mgmt svcaddr junk verify serve blame accepts).
Notation outside := (outside self mgmt svcaddr).

(** Numbers at one neighbour and of started messages. *)
Definition at_k (k : text) (s : st) (new : list out) (s' : st) : Prop :=
  sent_to k new = zseq (tx_of (s_p s) k + 1) (length (sent_to k new)) /\ tx_of (s_p s') k = tx_of (s_p s) k + zlen (sent_to k new).
Lemma admin_some : forall s c r s', admin s c r = Some s' -> o_is (s_m s) c = true /\ exists m, r (s_m s) = Some m /\ s' = with_m s m.
Proof. intros s c r s' E. unfold admin, owner in E. destruct (o_is _ _); [|discriminate]. split; [reflexivity|]. bnd E m F. exists m. split; [exact F|congruence]. Qed.
Lemma owner_some : forall A s c (r : option A) a, owner s c r = Some a -> o_is (s_m s) c = true /\ r = Some a.
Proof. intros A s c r a E. unfold owner in E. destruct (o_is _ _); [auto|discriminate]. Qed.

(** A removed link: its counters start again, everything else goes on. *)
Definition cleared (s : st) (link : text) (s' : st) : Prop :=
  exists s1 new, evolve s1 new s' /\ no_fates new /\ s_out s1 = s_out s /\ s_s s1 = s_s s /\ s_p s1 = Per (tset (tx_of (s_p s)) link 0) (tset (rx_of (s_p s)) link 0) (nsn_of (s_p s)).
Lemma removeLink_cleared : forall s link s', removeLink own s link = Some s' -> cleared s link s'.
Proof.
  intros s link s' E. unfold removeLink in E. cbv zeta in E. chk E H1. chk E H2. bnd E net F1. bnd E m1 F2. bnd E l F3. bnd E m2 F4. bnd E p F5. bnd E b F6.
  apply evolve_propagate in E as (new & G & NF). eexists _, new. split; [exact G|]. split; [exact NF|]. repeat split.
Qed.
Lemma addLink_evolves : forall s link s', addLink own s link = Some s' -> exists s1 m n1 n2, evolve s n1 s1 /\ evolve (with_m s1 m) n2 s' /\ no_fates (n1 ++ n2).
Proof.
  intros s link s' E. unfold addLink in E. cbv zeta in E. bnd E net F1. chk E H1. chk E H2. bnd E p F2. bnd E b F3. bnd E s1 F4. bnd E i F5. bnd E b2 F6.
  apply evolve_propagate in F4 as (n1 & G1 & N1). apply evolve_sendInternal in E as (n2 & G2 & N2). eexists s1, _, n1, n2. split; [exact G1|]. split; [exact G2|]. apply no_fates_app; assumption.
Qed.
Lemma with_m_trans : forall s n1 s1 m n2 s', evolve s n1 s1 -> evolve (with_m s1 m) n2 s' ->
  s_out s' = s_out s ++ (n1 ++ n2) /\ numbered s (n1 ++ n2) s' /\ counted s (n1 ++ n2) s' /\ rx_of (s_p s') = rx_of (s_p s).
Proof.
  intros s n1 s1 m n2 s' [A1 A2 A3 A4 _] [B1 B2 B3 B4 _]. split; [|split; [|split]].
  - rewrite B1. cbn [with_m s_out]. rewrite A1, app_assoc. reflexivity.
  - eapply numbered_trans; [exact A2|exact B2].
  - eapply counted_trans; [exact A3|exact B3].
  - rewrite B4. exact A4.
Qed.
Lemma dropMessage_some : forall s src seq svc sn nsn fn fv s', dropMessage own self s src seq svc sn nsn fn fv = Some s' ->
  exists next x new, resolveNext (s_m s) src = Some next /\ seq = rx_of (s_p s) next + 1 /\ evolve (set_rx (with_s s x) next seq) new s'.
Proof.
  intros s src seq svc sn nsn fn fv s' E. unfold dropMessage in E. bnd E next F1. chk E H1. chk E H2. bnd E y F2. unfold p_dropMessage in E. chk E H3. cbn [with_s s_p] in H3, E.
  apply evolve_sendError in E as (new & G). exists next, (fst y), new. split; [exact F1|]. assert (X : seq = rx_of (s_p s) next + 1) by lia. split; [exact X|]. rewrite X. exact G.
Qed.
Lemma numbered_rx : forall s k v new s', numbered (set_rx s k v) new s' -> numbered s new s'.
Proof. intros s k v new s' N. exact N. Qed.

Lemma step_numbers : forall s o s', caller_of o <> self /\ caller_of o <> mgmt /\ caller_of o <> svcaddr -> exec s o = Some s' ->
  exists new, s_out s' = s_out s ++ new /\ (forall k, ~ removes o k -> at_k k s new s') /\ counted s new s'.
Proof.
  intros s o s' OUT E.
  assert (EV : forall new, evolve s new s' -> exists new, s_out s' = s_out s ++ new /\ (forall k, ~ removes o k -> at_k k s new s') /\ counted s new s').
  { intros new [A1 A2 A3 _ _]. exists new. split; [exact A1|]. split; [|exact A3]. intros k _. apply A2. }
  assert (AD : forall m, s' = with_m s m -> exists new, s_out s' = s_out s ++ new /\ (forall k, ~ removes o k -> at_k k s new s') /\ counted s new s').
  { intros m ->. exists []. split; [symmetry; apply app_nil_r|]. split; [intros k _; apply (numbered_refl s (with_m s m) eq_refl k)|apply counted_refl; reflexivity]. }
  destruct o; cbn [M_SBmc.exec] in E; try (apply admin_some in E as (_ & m & _ & E); apply (AD m E)).
  - unfold handleRelay in E. bnd E net F1. cbv zeta in E. bnd E v F2. bnd E bs F3. bnd E b F4. chk E H1. bnd E s1 F5. same E.
    apply evolve_dispatch_all in F5 as (new & [A1 A2 A3 _ _]). exists new. split; [exact A1|]. split; [intros k _; apply A2|exact A3].
  - bnd E y F. destruct y as [s1 n]. same E. apply evolve_sendMessage in F as (new & G & _). apply (EV new G).
  - apply evolve_claim in E as (new & G & _). apply (EV new G).
  - same E. apply (EV [OPaid value]). apply evolve_emit, quiet_paid.
  - apply owner_some in E as [_ E]. apply addLink_evolves in E as (s1 & m & n1 & n2 & G1 & G2 & _). destruct (with_m_trans _ _ _ _ _ _ G1 G2) as (A1 & A2 & A3 & _).
    exists (n1 ++ n2). split; [exact A1|]. split; [intros k _; apply A2|exact A3].
  - apply owner_some in E as [_ E]. apply removeLink_cleared in E as (s1 & new & [A1 A2 A3 _ _] & _ & B1 & _ & B2). exists new. split; [rewrite A1, B1; reflexivity|]. split.
    + intros k NR. assert (N : k <> link) by (intros ->; apply NR; exists caller; reflexivity). unfold at_k. destruct (A2 k) as [C1 C2]. rewrite B2 in C1, C2. cbn [tx_of] in C1, C2. rewrite tset_other in C1, C2 by exact N. split; assumption.
    + unfold counted in *. rewrite B2 in A3. exact A3.
  - apply owner_some in E as [_ E]. apply dropMessage_some in E as (next & x & new & _ & _ & [A1 A2 A3 _ _]). exists new. split; [exact A1|]. split; [intros k _; apply A2|exact A3].
  - cbn [caller_of] in OUT. destruct (Z.eqb_spec caller (inner_caller self mgmt svcaddr i)) as [X|X]; [|discriminate]. exfalso. subst caller. destruct i; cbn [inner_caller] in OUT; tauto.
Qed.
Lemma run_numbers : forall ops s k, outside ops -> (forall o, In o ops -> ~ removes o k) ->
  exists new, s_out (fold_left step ops s) = s_out s ++ new /\ at_k k s new (fold_left step ops s) /\ counted s new (fold_left step ops s).
Proof.
  induction ops as [|o ops IH]; intros s k OUT NR.
  - exists []. split; [symmetry; apply app_nil_r|]. split; [apply (numbered_refl s s eq_refl)|apply counted_refl; reflexivity].
  - cbn [fold_left]. apply Forall_cons_iff in OUT as [O1 O2].
    assert (X : exists n1, s_out (step s o) = s_out s ++ n1 /\ at_k k s n1 (step s o) /\ counted s n1 (step s o)).
    { unfold M_SBmc.step. destruct (exec s o) as [s1|] eqn:E.
      - destruct (step_numbers s o s1 O1 E) as (n1 & A1 & A2 & A3). exists n1. split; [exact A1|]. split; [apply A2, NR; left; reflexivity|exact A3].
      - exists []. split; [symmetry; apply app_nil_r|]. split; [apply (numbered_refl s s eq_refl)|apply counted_refl; reflexivity]. }
    destruct X as (n1 & A1 & [A2 A2'] & A3). destruct (IH (step s o) k O2 (fun o' h => NR o' (or_intror h))) as (n2 & B1 & [B2 B2'] & B3).
    exists (n1 ++ n2). split; [rewrite B1, A1, app_assoc; reflexivity|]. split; [|eapply counted_trans; eassumption].
    unfold at_k. rewrite sent_to_app. unfold zlen in *. rewrite app_length. split; [|lia]. rewrite zseq_app, <- A2. f_equal. rewrite B2 at 1. rewrite A2'. f_equal. lia.
Qed.

(** Numbers on the wire: whatever is called and whatever fails, the messages sent to a neighbour carry consecutive
    numbers, each once, until the neighbour's link is removed. *)
Theorem C76_sent_consecutively : forall deployer before after k, let s := run deployer before in let s' := run deployer (before ++ after) in
  outside (before ++ after) -> (forall o, In o after -> ~ removes o k) ->
  exists new, s_out s' = s_out s ++ new /\
    sent_to k new = zseq (tx_of (s_p s) k + 1) (length (sent_to k new)) /\ tx_of (s_p s') k = tx_of (s_p s) k + zlen (sent_to k new).
Proof.
  intros deployer before after k s s' OUT NR. unfold s', M_SBmc.run. rewrite fold_left_app. apply Forall_app in OUT as [_ OUT]. destruct (run_numbers after s k OUT NR) as (new & A1 & A2 & _).
  exists new. split; [exact A1|exact A2].
Qed.
(** ... and if it never is, they are numbered 1, 2, 3, ... *)
Theorem C76_sent_from_one : forall deployer ops k, outside ops -> (forall o, In o ops -> ~ removes o k) -> let os := s_out (run deployer ops) in
  sent_to k os = zseq 1 (length (sent_to k os)) /\ tx_of (s_p (run deployer ops)) k = zlen (sent_to k os).
Proof.
  intros deployer ops k OUT NR os. destruct (run_numbers ops (init deployer) k OUT NR) as (new & A1 & [A2 A3] & _). unfold os, M_SBmc.run. rewrite A1. cbn [init s_out app s_p tx_of] in *. split; [exact A2|].
  rewrite A3. lia.
Qed.

(** A removed link starts again: nothing received, and what it is sent from then on (even by its removal, if it was
    listed twice) is numbered 1, 2, 3, ... *)
Theorem C76_removed_link_starts_again : forall s c k s', exec s (RemoveLink c k) = Some s' ->
  rx_of (s_p s') k = 0 /\ exists new, s_out s' = s_out s ++ new /\ sent_to k new = zseq 1 (length (sent_to k new)) /\ tx_of (s_p s') k = zlen (sent_to k new).
Proof.
  intros s c k s' E. cbn [M_SBmc.exec] in E. apply owner_some in E as [_ E]. apply removeLink_cleared in E as (s1 & new & [A1 A2 _ A4 _] & _ & B1 & _ & B2). split.
  - rewrite A4, B2. cbn [rx_of]. apply tset_same.
  - exists new. split; [rewrite A1, B1; reflexivity|]. destruct (A2 k) as [C1 C2]. rewrite B2 in C1, C2. cbn [tx_of] in C1, C2. rewrite tset_same in C1, C2. split; [exact C1|rewrite C2; lia].
Qed.

(** Numbers of the messages this network starts: 1, 2, 3, ... *)
Theorem C76_started_consecutively : forall deployer ops, outside ops -> let os := s_out (run deployer ops) in
  started os = zseq 1 (length (started os)) /\ nsn_of (s_p (run deployer ops)) = zlen (started os).
Proof.
  intros deployer ops OUT os. unfold os, M_SBmc.run.
  assert (X : forall ops s, outside ops -> exists new, s_out (fold_left step ops s) = s_out s ++ new /\ counted s new (fold_left step ops s)).
  { clear. induction ops as [|o ops IH]; intros s OUT.
    - exists []. split; [symmetry; apply app_nil_r|apply counted_refl; reflexivity].
    - cbn [fold_left]. apply Forall_cons_iff in OUT as [O1 O2]. destruct (IH (step s o) O2) as (n2 & B1 & B3). unfold M_SBmc.step in *. destruct (exec s o) as [s1|] eqn:E.
      + destruct (step_numbers s o s1 O1 E) as (n1 & A1 & _ & A3). exists (n1 ++ n2). split; [rewrite B1, A1, app_assoc; reflexivity|eapply counted_trans; eassumption].
      + exists n2. split; assumption. }
  destruct (X ops (init deployer) OUT) as (new & A1 & A2). rewrite A1. cbn [init s_out app]. destruct A2 as [C1 C2]; [cbn [init s_p nsn_of]; lia|]. cbn [init s_p nsn_of] in C1, C2. split; [exact C1|rewrite C2; lia].
Qed.

(** Numbers of received messages: a relay message adds as many as the verifier found in it, given what was received
    before; dropping a message adds one, the one due; nothing else counts. *)
Inductive rx_step (s : st) (o : op) (k : text) (s' : st) : Prop :=
| rx_same : rx_of (s_p s') k = rx_of (s_p s) k -> rx_step s o k s'
| rx_relay : forall c b net v bs, o = HandleRelay c k b -> networkAddress k = Some net -> getVerifier (s_m s) net = Some v ->
    verify (length (s_out s)) v k (rx_of (s_p s) k) b = Some bs -> In c (relays_of (s_m s) k) -> isLink (s_m s) k = true ->
    rx_of (s_p s') k = rx_of (s_p s) k + zlen bs -> rx_step s o k s'
| rx_drop : forall c src svc sn nsn fn fv, o = DropMessage c src (rx_of (s_p s) k + 1) svc sn nsn fn fv -> o_is (s_m s) c = true -> resolveNext (s_m s) src = Some k ->
    rx_of (s_p s') k = rx_of (s_p s) k + 1 -> rx_step s o k s'.
Theorem C76_received : forall s o s' k, caller_of o <> self /\ caller_of o <> mgmt /\ caller_of o <> svcaddr -> exec s o = Some s' -> ~ removes o k -> rx_step s o k s'.
Proof.
  intros s o s' k OUT E NR. destruct o; cbn [M_SBmc.exec] in E; try (apply admin_some in E as (_ & m & _ & ->); apply rx_same; reflexivity).
  - unfold handleRelay in E. bnd E net F1. cbv zeta in E. bnd E v F2. bnd E bs F3. bnd E b F4. chk E H1. bnd E s1 F5. same E. apply evolve_dispatch_all in F5 as (new & [_ _ _ A4 _]).
    destruct (text_dec k prev) as [->|N]; [|apply rx_same; cbn [set_rx with_p s_p rx_of]; rewrite tset_other by exact N; rewrite A4; reflexivity].
    unfold isLinkRelay in F4. chk F4 H2. same F4. apply existsb_exists in H1 as (x & HI & HX). apply Z.eqb_eq in HX. subst x.
    eapply rx_relay; try eassumption; [reflexivity|]. cbn [set_rx with_p s_p rx_of]. rewrite tset_same, A4. reflexivity.
  - bnd E y F. destruct y as [s1 n]. same E. apply evolve_sendMessage in F as (new & [_ _ _ A4 _] & _). apply rx_same. cbn [fst]. rewrite A4. reflexivity.
  - apply evolve_claim in E as (new & [_ _ _ A4 _] & _). apply rx_same. rewrite A4. reflexivity.
  - same E. apply rx_same. reflexivity.
  - apply owner_some in E as [_ E]. apply addLink_evolves in E as (s1 & m & n1 & n2 & G1 & G2 & _). destruct (with_m_trans _ _ _ _ _ _ G1 G2) as (_ & _ & _ & A). apply rx_same. rewrite A. reflexivity.
  - apply owner_some in E as [_ E]. apply removeLink_cleared in E as (s1 & new & [_ _ _ A4 _] & _ & _ & _ & B2). apply rx_same. rewrite A4, B2. cbn [rx_of]. apply tset_other. intros ->. apply NR. exists caller. reflexivity.
  - apply owner_some in E as [EO E]. apply dropMessage_some in E as (next & x & new & F1 & ES & [_ _ _ A4 _]). destruct (text_dec k next) as [->|N].
    + rewrite ES. eapply rx_drop; [reflexivity|exact EO|exact F1|]. rewrite A4. cbn [set_rx with_p with_s s_p rx_of]. rewrite tset_same. exact ES.
    + apply rx_same. rewrite A4. cbn [set_rx with_p with_s s_p rx_of]. apply tset_other, N.
  - cbn [caller_of] in OUT. destruct (Z.eqb_spec caller (inner_caller self mgmt svcaddr i)) as [X|X]; [|discriminate]. exfalso. subst caller. destruct i; cbn [inner_caller] in OUT; tauto.
Qed.

(** A new link is introduced last: the first message for it tells which links there were before. *)
Theorem C76_new_link : forall s c k s', exec s (AddLink c k) = Some s' ->
  exists net mid n m i b, networkAddress k = Some net /\ s_out s' = s_out s ++ mid ++ [OSent k n m; OEvent (fst (msg_id m)) (snd (msg_id m)) k SEND] /\
    m_src m = own /\ m_dst m = net /\ m_svc m = str "bmc" /\ encodeInitMessage (links (s_m s)) = Some i /\ encodeBMCMessage (str "Init") i = Some b /\ m_body m = b /\ f_vals (m_fee m) = [] /\
    links (s_m s') = links (s_m s) ++ [k] /\ isLink (s_m s') k = true /\ l_reach (link_of (s_m s') k) = [].
Proof.
  intros s c k s' E. cbn [M_SBmc.exec] in E. apply owner_some in E as [_ E]. unfold addLink in E. cbv zeta in E. bnd E net F1. chk E H1. chk E H2. bnd E p F2. bnd E b F3. bnd E s1 F4. bnd E i F5. bnd E b2 F6.
  apply evolve_propagate in F4 as (n1 & [A1 _ _ _ A5] & _). unfold sendInternal in E. rewrite F1 in E. cbn [sbind] in E. cbv zeta in E. apply send_some in E as [_ ->].
  assert (EL : links (s_m s1) = links (s_m s)) by apply A5. rewrite EL in *.
  assert (R : forall m d l t, links (addRouteInfo m d l t) = links m /\ link_of (addRouteInfo m d l t) = link_of m).
  { intros m d l t. unfold addRouteInfo. destruct (rtype_eqb _ _); destruct t; split; reflexivity. }
  exists net, n1. do 2 eexists. exists i, b2. split; [exact F1|]. split; [cbn [emit sent with_p with_m next_nsn s_out]; rewrite A1, <- !app_assoc; cbn [app]; reflexivity|].
  cbn [m_src m_dst m_svc m_body m_fee f_vals]. do 7 (split; [assumption||reflexivity|]). cbn [emit sent with_p with_m next_nsn s_m].
  unfold isLink. rewrite !(proj1 (R _ _ _ _)), !(proj2 (R _ _ _ _)). cbn [set_links links link_of]. rewrite tset_same. cbn [l_addr l_reach]. split; [reflexivity|]. split; [|reflexivity].
  destruct k; [discriminate F1|reflexivity].
Qed.
End BMC.
Print Assumptions C76_sent_consecutively.
Print Assumptions C76_sent_from_one.
Print Assumptions C76_removed_link_starts_again.
Print Assumptions C76_started_consecutively.
Print Assumptions C76_received.
Print Assumptions C76_new_link.

(** The small message center: it starts three messages, two to the first neighbour, answers a request, and starts again on a link that is removed and added again. *)
Definition c76_ops : list op := x_setup ++ [HandleRelay 7 x_link (x_bytes (x_msg x_own (str "xcall") 3 9 [5; 6])); SendMessage 50 5 x_icon (str "xcall") 0 (str "hi")].
Example C76_ex_sent : outside 10 11 12 c76_ops /\ (forall o, In o c76_ops -> ~ removes o x_link) /\
  sent_to x_link (s_out (x_run 1 c76_ops)) = [1; 2; 3; 4] /\ started (s_out (x_run 1 c76_ops)) = [1; 2; 3; 4] /\ rx_of (s_p (x_run 1 c76_ops)) x_link = 1.
Proof.
  split; [repeat constructor; discriminate|]. split; [|vm_compute; auto]. intros o HI (c & ->). unfold c76_ops in HI. apply in_app_or in HI as [HI|HI]; cbn [x_setup In] in HI; repeat (destruct HI as [HI|HI]; [discriminate|]); exact HI.
Qed.
Example C76_ex_again : let s' := x_run 1 (c76_ops ++ [RemoveLink 1 x_link; AddLink 1 x_link]) in
  sent_to x_link (s_out s') = [1; 2; 3; 4; 1] /\ tx_of (s_p s') x_link = 1 /\ rx_of (s_p s') x_link = 0.
Proof. vm_compute. auto. Qed.
