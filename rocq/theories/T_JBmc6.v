(** Theorems about the message center: what a message costs (C57) and which numbers an owner may drop (C54). *)
From Coq Require Import String Ascii ZArith List Bool Lia Permutation.
From Coq Require Import ZifyBool.
From Verif Require Import Base L_Base M_JMap L_JMap M_JBmc S_JBmc L_JBmc T_JBmc T_JBmc2 T_JBmc3 X_JBmc.
Import ListNotations.
Open Scope Z_scope.

Section BMC.
Context (own self deployer : Z).
Context (verify : nat -> Z -> addr -> Z -> list Z -> option (list (option msg))) (serve : nat -> Z -> bshcall -> action) (chain_ok : nat -> Z -> msg -> bool).
Notation exec := (exec own self deployer verify serve chain_ok).

Lemma costs_list : forall s to sn, 0 <= sn -> costs (s_fees s) to sn (getFeeList s to (0 <? sn)).
Proof.
  intros s to sn H. unfold costs, getFeeList. destruct (aget Z.eqb to (s_fees s)) as [vs|]; [|split; [discriminate|reflexivity]]. split; [|discriminate]. intros vs' E. assert (vs' = vs) by congruence. subst vs'.
  destruct (Z.ltb_spec 0 sn) as [L|L].
  - exists []. rewrite app_nil_r. repeat split; lia.
  - exists (skipn (Nat.div (length vs) 2) vs). rewrite firstn_skipn, firstn_length, skipn_length. split; [reflexivity|]. pose proof (Nat.div_mod_eq (length vs) 2). pose proof (Nat.mod_upper_bound (length vs) 2 ltac:(lia)). split; intros; lia.
Qed.
(** A message sent costs what the table says for its network, and this is what it carries for the relays on the way. *)
Theorem C57_message_costs : forall s c to svc sn p v u s', 0 <= sn -> exec s (SendMessage c to svc sn p v) = Val u s' ->
  exists vals next nid seq, costs (s_fees s) to sn vals /\ sum vals <= v /\ In (OSent next nid seq (Msg own to svc sn p (s_nsn s + 1) (Some (Fee own vals)))) (skipn (length (s_out s)) (s_out s')).
Proof.
  intros s c to svc sn p v u s' HS E. cbn [M_JBmc.exec] in E. unfold sendMessage in E. destruct (aget Z.eqb svc (s_services s)) as [a|]; [|discriminate]. destruct (negb (c =? a)); [discriminate|].
  destruct (Z.ltb_spec sn 0) as [L|_]; [lia|]. destruct (sendWithFee _ _ _ _ _ _ _ _ _ _ _) as [r s1|] eqn:E1; cbn [bind] in E; [|discriminate]. injection E as _ <-.
  destruct (send_val _ _ _ _ _ _ _ _ _ _ _ _ E1) as (next & s2 & _ & HV & ES & -> & _). destruct (sendTo_val _ _ _ _ _ _ ES) as (l & nid & _ & -> & _).
  exists (getFeeList s to (0 <? sn)), next, nid, (l_tx l + 1). split; [apply costs_list, HS|]. split; [lia|].
  rewrite event_eq. cbn [emit s_out putLink set_links]. unfold collectNet. rewrite (proj1 (proj2 (proj2 (proj2 (proj2 (addReward_keeps _ _ _ _)))))). cbn [nextNetworkSn set_nsn s_out]. rewrite <- !app_assoc, skipn_app, skipn_all, Nat.sub_diag. cbn [app skipn]. left. reflexivity.
Qed.
(** An owner can drop a message only under numbers that belong together: a request or one-way message under a positive
    network number, an answer or one-way message under a negative one. *)
Theorem C54_dropped_numbers : forall s c src seq svc sn nsn f u s', exec s (DropMessage c src seq svc sn nsn f) = Val u s' -> nsn <> 0 /\ (0 < nsn -> 0 <= sn) /\ (nsn < 0 -> sn <= 0).
Proof.
  intros s c src seq svc sn nsn f u s' E. cbn [M_JBmc.exec] in E. unfold owner in E. destruct (isOwner deployer s c); [|discriminate]. unfold dropMessage in E. destruct (resolveNext s src); [|discriminate]. destruct (getLinkNet s _); [|discriminate].
  destruct (negb _); [discriminate|]. destruct (negb _); [discriminate|]. destruct (isInvalidSn sn nsn) eqn:EI; [discriminate|]. unfold isInvalidSn in EI. lia.
Qed.
End BMC.
Print Assumptions C57_message_costs.
Print Assumptions C54_dropped_numbers.

(** With [5;6;7;8] for network 2, a request carries all four, a one-way message two of them. *)
Example C57_ex_costs : let s := demo (setup ++ [SetFeeTable 200 [(2, [5; 6; 7; 8])]]) in
  (match demo_exec s (SendMessage 70 2 7 3 (PBytes [1]) 26) with Val _ s' => In (OSent peer None 2 (Msg 1 2 7 3 (PBytes [1]) 2 (Some (Fee 1 [5; 6; 7; 8])))) (s_out s') | _ => False end) /\
  (match demo_exec s (SendMessage 70 2 7 0 (PBytes [1]) 11) with Val _ s' => In (OSent peer None 2 (Msg 1 2 7 0 (PBytes [1]) 2 (Some (Fee 1 [5; 6])))) (s_out s') | _ => False end) /\
  (match demo_exec s (SendMessage 70 2 7 3 (PBytes [1]) 25) with Val _ _ => False | _ => True end).
Proof. vm_compute. repeat split; auto 8. Qed.
