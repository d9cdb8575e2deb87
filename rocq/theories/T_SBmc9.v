(** Who may do what at the message center for the EVM: cases and what does not hold, C81. *)
From Coq Require Import String Ascii ZArith List Bool Lia.
From Verif Require Import Base L_Base M_SolRlp M_BtpAddr M_Bridge M_JMap M_SBmc S_SBmc S_SBmc2 S_SBmc3 L_SBmc X_SBmc T_SBmc6 T_SBmc8.
Import ListNotations.
Open Scope Z_scope.

(** a message from the first network with the fees 5 and 6: relay 7 earns 5 of them, the message center the rest *)
Definition x_earn : op := HandleRelay 7 x_link (x_bytes (x_msg x_own (str "xcall") 0 3 [5; 6])).
Definition x_to : text := str "hx01".
Definition x_claimed : list op := x_setup ++ [x_earn; ClaimReward 7 9 x_icon x_to].
Example C81_ex_owners : let m := s_m (x_run 1 [AddOwner 1 2; RemoveOwner 2 1; AddOwner 1 3; RemoveOwner 2 2]) in (o_is m 1, o_is m 2, o_is m 3, o_count m) = (false, true, false, 1).
Proof. vm_compute. reflexivity. Qed.
Example C81_ex_not_owner : o_is (s_m x_base) 7 = false /\ x_exec x_base (AddService 7 (str "new") 60) = None /\ match x_exec x_base x_earn with Some s => h_of (s_m s) (str "xcall") | None => 0 end = 50.
Proof. vm_compute. repeat split; reflexivity. Qed.
Example C81_ex_latest : let ops := x_setup ++ [RemoveService 1 (str "bad"); AddService 7 (str "bad") 70; AddService 1 (str "bad") 53; RemoveRelay 1 x_link 7; AddRelay 1 x_link 8] in
  let l := done x_exec (init 1) ops in (latest (says_service (str "bad")) 0 l, latest (says_relay x_link 7) false l, latest (says_relay x_link 8) false l, length l) = (53, false, true, 14%nat) /\ relays_of (s_m (x_run 1 ops)) x_link = [8].
Proof. vm_compute. split; reflexivity. Qed.
Example C81_ex_claim : let s := x_run 1 (x_setup ++ [x_earn]) in let s' := x_run 1 x_claimed in
  getReward (s_s s) x_icon 7 = 5 /\ getReward (s_s s') x_icon 7 = 0 /\ aget Z.eqb (nsn_of (s_p s')) (requests (s_s s')) = Some (Request x_icon 7 5) /\ x_exec s' (ClaimReward 7 9 x_icon x_to) = None.
Proof. vm_compute. repeat split; reflexivity. Qed.
(** in the message center's own coins: what was paid beyond the fee goes to the fee handler at once *)
Example C81_ex_claim_own : let s := x_run 1 (x_setup ++ [SetFeeHandler 1 9; SendMessage 50 30 x_icon (str "xcall") 0 (str "hi")]) in
  getReward (s_s s) x_own 10 = 25 /\ option_map (fun s' => skipn (length (s_out s)) (s_out s')) (x_exec s (ClaimReward 9 0 x_own (str "0x0000000000000000000000000000000000000009"))) =
  Some [OPaid 0; OTransfer 9 25; OClaim 10 x_own (str "0x0000000000000000000000000000000000000009") 25 0].
Proof. vm_compute. split; reflexivity. Qed.

(** ** what does not hold *)
Definition x_settle (s : st) (code : Z) : msg :=
  Msg x_bsc3 x_own BMC_SERVICE 0 (match sbind (encodeResponseMessage code []) (encodeBMCMessage (str "Response")) with Some b => b | None => [] end) (- nsn_of (s_p s)) (Fee x_bsc3 []).
(** A claim sent to one network can be settled by a message from any other network with a link: nobody looks where the answer comes from. *)
Theorem C81_asked_network_settles_refuted : ~ (forall own self mgmt svcaddr junk verify serve blame accepts deployer ops c prev b m n q,
  outside self mgmt svcaddr (ops ++ [HandleRelay c prev b]) -> let run := run own self mgmt svcaddr junk verify serve blame accepts in let s := run deployer ops in let s' := run deployer (ops ++ [HandleRelay c prev b]) in
  (forall net, networkAddress prev = Some net -> verify (length (s_out s)) (v_of (s_m s) net) prev (rx_of (s_p s) prev) b = Some [b]) -> decodeBTPMessage junk b = Some m ->
  aget Z.eqb n (requests (s_s s)) = Some q -> aget Z.eqb n (requests (s_s s')) = None -> m_src m = q_dst q).
Proof.
  intros H. specialize (H x_own 10 11 12 x_junk x_verify x_serve x_blame x_accepts 1 x_claimed 7 x_link3 (x_bytes (x_settle (x_run 1 x_claimed) 0)) (x_settle (x_run 1 x_claimed) 0) (nsn_of (s_p (x_run 1 x_claimed))) (Request x_icon 7 5) ltac:(repeat constructor; discriminate)).
  cbv zeta in H. assert (X : m_src (x_settle (x_run 1 x_claimed) 0) = q_dst (Request x_icon 7 5)).
  { apply H; [intros net _; vm_compute; reflexivity|vm_compute; reflexivity|vm_compute; reflexivity|vm_compute; reflexivity]. }
  vm_compute in X. discriminate.
Qed.
(** ... and if it says that the claim failed, the reward is there again, to be claimed a second time, while the network that was asked may well have paid. *)
Theorem C81_reward_back_once_refused_refuted : ~ (forall own self mgmt svcaddr junk verify serve blame accepts deployer ops c prev b m net a,
  outside self mgmt svcaddr (ops ++ [HandleRelay c prev b]) -> let run := run own self mgmt svcaddr junk verify serve blame accepts in let s := run deployer ops in let s' := run deployer (ops ++ [HandleRelay c prev b]) in
  (forall net, networkAddress prev = Some net -> verify (length (s_out s)) (v_of (s_m s) net) prev (rx_of (s_p s) prev) b = Some [b]) -> decodeBTPMessage junk b = Some m ->
  f_vals (m_fee m) = [] -> getReward (s_s s) net a < getReward (s_s s') net a -> m_src m = net).
Proof.
  intros H. specialize (H x_own 10 11 12 x_junk x_verify x_serve x_blame x_accepts 1 x_claimed 7 x_link3 (x_bytes (x_settle (x_run 1 x_claimed) 1)) (x_settle (x_run 1 x_claimed) 1) x_icon 7 ltac:(repeat constructor; discriminate)).
  cbv zeta in H. assert (X : m_src (x_settle (x_run 1 x_claimed) 1) = x_icon).
  { apply H; [intros net _; vm_compute; reflexivity|vm_compute; reflexivity|vm_compute; reflexivity|vm_compute; reflexivity]. }
  vm_compute in X. discriminate.
Qed.
(** The name under which the message centers talk to each other is not reserved: a contract registered under it sends messages that the neighbours take for the message center's own. *)
Theorem C81_own_name_reserved_refuted : ~ (forall own self mgmt svcaddr junk verify serve blame accepts deployer ops c v to sn b s',
  outside self mgmt svcaddr (ops ++ [SendMessage c v to BMC_SERVICE sn b]) -> exec own self mgmt svcaddr junk verify serve blame accepts (run own self mgmt svcaddr junk verify serve blame accepts deployer ops) (SendMessage c v to BMC_SERVICE sn b) = Some s' -> False).
Proof.
  intros H. pose (ops := x_setup ++ [AddService 1 BMC_SERVICE 60]).
  assert (X : option_map (fun _ => tt) (M_SBmc.exec x_own 10 11 12 x_junk x_verify x_serve x_blame x_accepts (M_SBmc.run x_own 10 11 12 x_junk x_verify x_serve x_blame x_accepts 1 ops) (SendMessage 60 9 x_icon BMC_SERVICE 0 [])) = Some tt) by (vm_compute; reflexivity).
  destruct (M_SBmc.exec x_own 10 11 12 x_junk x_verify x_serve x_blame x_accepts (M_SBmc.run x_own 10 11 12 x_junk x_verify x_serve x_blame x_accepts 1 ops) (SendMessage 60 9 x_icon BMC_SERVICE 0 [])) as [s'|] eqn:E; [|discriminate].
  exact (H x_own 10 11 12 x_junk x_verify x_serve x_blame x_accepts 1 ops 60 9 x_icon 0 [] s' ltac:(repeat constructor; discriminate) E).
Qed.
(** Whoever is made the fee handler cannot claim what they earned themselves. *)
Theorem C81_handler_keeps_reward_refuted : ~ (forall own self mgmt svcaddr junk verify serve blame accepts deployer ops c h a v net r,
  outside self mgmt svcaddr (ops ++ [SetFeeHandler c h; ClaimReward a v net r]) -> let run := run own self mgmt svcaddr junk verify serve blame accepts in let ex := exec own self mgmt svcaddr junk verify serve blame accepts in
  (exists s', ex (run deployer ops) (ClaimReward a v net r) = Some s') -> exists s', ex (run deployer (ops ++ [SetFeeHandler c h])) (ClaimReward a v net r) = Some s').
Proof.
  intros H. pose (ops := x_setup ++ [HandleRelay 7 x_link (x_bytes (x_msg x_own (str "xcall") 0 3 [5]))]).
  specialize (H x_own 10 11 12 x_junk x_verify x_serve x_blame x_accepts 1 ops 1 7 7 9 x_icon x_to ltac:(repeat constructor; discriminate)). cbv zeta in H.
  assert (X : option_map (fun _ => tt) (M_SBmc.exec x_own 10 11 12 x_junk x_verify x_serve x_blame x_accepts (M_SBmc.run x_own 10 11 12 x_junk x_verify x_serve x_blame x_accepts 1 ops) (ClaimReward 7 9 x_icon x_to)) = Some tt) by (vm_compute; reflexivity).
  destruct (M_SBmc.exec x_own 10 11 12 x_junk x_verify x_serve x_blame x_accepts (M_SBmc.run x_own 10 11 12 x_junk x_verify x_serve x_blame x_accepts 1 ops) (ClaimReward 7 9 x_icon x_to)) as [s'|] eqn:E; [|discriminate].
  destruct H as (s2 & E2); [exists s'; reflexivity|].
  assert (Y : option_map (fun _ => tt) (M_SBmc.exec x_own 10 11 12 x_junk x_verify x_serve x_blame x_accepts (M_SBmc.run x_own 10 11 12 x_junk x_verify x_serve x_blame x_accepts 1 (ops ++ [SetFeeHandler 1 7])) (ClaimReward 7 9 x_icon x_to)) = None) by (vm_compute; reflexivity).
  rewrite E2 in Y. discriminate Y.
Qed.
Print Assumptions C81_asked_network_settles_refuted.
Print Assumptions C81_reward_back_once_refused_refuted.
Print Assumptions C81_own_name_reserved_refuted.
Print Assumptions C81_handler_keeps_reward_refuted.
