(** What does not hold of the routes of the message center for the EVM, C80. *)
From Coq Require Import String Ascii ZArith List Bool Lia.
From Verif Require Import Base L_Base M_SolRlp M_BtpAddr M_Bridge M_JMap M_SBmc S_SBmc S_SBmc2 L_SBmc X_SBmc T_SBmc6.
Import ListNotations.
Open Scope Z_scope.

(** ** what does not hold *)
Definition x_hmny : option (list Z) := encodePropagateMessage x_link3.
Definition x_far : option (list Z) := encodePropagateMessage x_eth.
(** A network with a link of its own loses its route when a neighbour, who announced it too, withdraws it: no owner acts, the link is still there, messages to it are refused. *)
Theorem C80_neighbour_unroutes_refuted : ~ (forall own self mgmt svcaddr junk verify serve blame accepts deployer ops c prev b k d, outside self mgmt svcaddr (ops ++ [HandleRelay c prev b]) ->
  let run := run own self mgmt svcaddr junk verify serve blame accepts in let m := s_m (run deployer ops) in let m' := s_m (run deployer (ops ++ [HandleRelay c prev b])) in
  In k (links m) -> networkAddress k = Some d -> resolveNext m d = Some k -> resolveNext m' d = Some k).
Proof.
  intros H. specialize (H x_own 10 11 12 x_junk x_verify x_serve x_blame x_accepts 1 (x_links ++ [x_say x_icon x_link "Link" x_hmny]) 7 x_link (match x_say x_icon x_link "Unlink" x_hmny with HandleRelay _ _ b => b | _ => [] end) x_link3 x_bsc3 ltac:(repeat constructor; discriminate)).
  cbv zeta in H. specialize (H ltac:(vm_compute; right; left; reflexivity) ltac:(vm_compute; reflexivity) ltac:(vm_compute; reflexivity)). vm_compute in H. discriminate.
Qed.
(** A new link to a network that a neighbour already announced is not used: the route stays with the neighbour, ... *)
Theorem C80_new_link_used_refuted : ~ (forall own self mgmt svcaddr junk verify serve blame accepts deployer ops c k d s', outside self mgmt svcaddr ops ->
  let s := run own self mgmt svcaddr junk verify serve blame accepts deployer ops in exec own self mgmt svcaddr junk verify serve blame accepts s (AddLink c k) = Some s' -> networkAddress k = Some d -> resolveNext (s_m s') d = Some k).
Proof.
  intros H. pose (ops := [AddVerifier 1 x_icon 20; AddVerifier 1 x_bsc3 21; AddLink 1 x_link; AddRelay 1 x_link 7; x_say x_icon x_link "Link" x_hmny]).
  assert (X : option_map (fun s => resolveNext (s_m s) x_bsc3) (M_SBmc.exec x_own 10 11 12 x_junk x_verify x_serve x_blame x_accepts (M_SBmc.run x_own 10 11 12 x_junk x_verify x_serve x_blame x_accepts 1 ops) (AddLink 1 x_link3)) = Some (Some x_link)) by (vm_compute; reflexivity).
  destruct (M_SBmc.exec x_own 10 11 12 x_junk x_verify x_serve x_blame x_accepts (M_SBmc.run x_own 10 11 12 x_junk x_verify x_serve x_blame x_accepts 1 ops) (AddLink 1 x_link3)) as [s'|] eqn:E; [|discriminate].
  specialize (H x_own 10 11 12 x_junk x_verify x_serve x_blame x_accepts 1 ops 1 x_link3 x_bsc3 s' ltac:(repeat constructor; discriminate)). cbv zeta in H. specialize (H E ltac:(vm_compute; reflexivity)). cbn [option_map] in X. rewrite H in X. discriminate X.
Qed.
(** ... and the link can be added again, so that it is listed twice; removing it once leaves it in the list, where it can no longer be removed. *)
Theorem C80_links_once_refuted : ~ (forall own self mgmt svcaddr junk verify serve blame accepts deployer ops, outside self mgmt svcaddr ops ->
  let m := s_m (run own self mgmt svcaddr junk verify serve blame accepts deployer ops) in NoDup (links m) /\ forall k, In k (links m) -> isLink m k = true).
Proof.
  intros H. specialize (H x_own 10 11 12 x_junk x_verify x_serve x_blame x_accepts 1 [AddVerifier 1 x_icon 20; AddVerifier 1 x_bsc3 21; AddLink 1 x_link; AddRelay 1 x_link 7; x_say x_icon x_link "Link" x_hmny; AddLink 1 x_link3; AddLink 1 x_link3] ltac:(repeat constructor; discriminate)).
  cbv zeta in H. destruct H as [H _]. vm_compute in H. apply NoDup_cons_iff in H as [_ H]. apply NoDup_cons_iff in H as [H _]. apply H. left. reflexivity.
Qed.
(** A route an owner set goes when a neighbour withdraws the network, and an owner who sets a route for a network with a link and takes it back loses the link's route. *)
Theorem C80_owner_route_kept_refuted : ~ (forall own self mgmt svcaddr junk verify serve blame accepts deployer ops c prev b d, outside self mgmt svcaddr (ops ++ [HandleRelay c prev b]) ->
  let run := run own self mgmt svcaddr junk verify serve blame accepts in let m := s_m (run deployer ops) in let m' := s_m (run deployer (ops ++ [HandleRelay c prev b])) in
  r_type (route_of m d) = TManual -> resolveNext m' d = resolveNext m d).
Proof.
  intros H. specialize (H x_own 10 11 12 x_junk x_verify x_serve x_blame x_accepts 1 (x_links ++ [AddRoute 1 (str "0x4.eth") x_bsc3; x_say x_icon x_link "Link" x_far]) 7 x_link (match x_say x_icon x_link "Unlink" x_far with HandleRelay _ _ b => b | _ => [] end) (str "0x4.eth") ltac:(repeat constructor; discriminate)).
  cbv zeta in H. specialize (H ltac:(vm_compute; reflexivity)). vm_compute in H. discriminate.
Qed.
Theorem C80_route_taken_back_refuted : ~ (forall own self mgmt svcaddr junk verify serve blame accepts deployer ops c d n, outside self mgmt svcaddr (ops ++ [AddRoute c d n; RemoveRoute c d]) ->
  let run := run own self mgmt svcaddr junk verify serve blame accepts in let m := s_m (run deployer ops) in let m' := s_m (run deployer (ops ++ [AddRoute c d n; RemoveRoute c d])) in
  forall k, In k (links m') -> networkAddress k = Some d -> resolveNext m d = Some k -> resolveNext m' d <> None).
Proof.
  intros H. specialize (H x_own 10 11 12 x_junk x_verify x_serve x_blame x_accepts 1 x_links 1 x_icon x_bsc3 ltac:(repeat constructor; discriminate)). cbv zeta in H.
  apply (H x_link); [vm_compute; left; reflexivity|vm_compute; reflexivity|vm_compute; reflexivity|vm_compute; reflexivity].
Qed.
(** An announcement is booked to the link of the network that the message names as its source, not to the link it came by; a source without a route makes a route to a link that does not exist. *)
Theorem C80_announced_by_its_link_refuted : ~ (forall own self mgmt svcaddr junk verify serve blame accepts deployer ops c prev b k, outside self mgmt svcaddr (ops ++ [HandleRelay c prev b]) ->
  let run := run own self mgmt svcaddr junk verify serve blame accepts in let m := s_m (run deployer ops) in let m' := s_m (run deployer (ops ++ [HandleRelay c prev b])) in
  k <> prev -> l_reach (link_of m' k) = l_reach (link_of m k)).
Proof.
  intros H. specialize (H x_own 10 11 12 x_junk x_verify x_serve x_blame x_accepts 1 x_links 7 x_link (match x_say x_bsc3 x_link "Link" x_far with HandleRelay _ _ b => b | _ => [] end) x_link3 ltac:(repeat constructor; discriminate)).
  cbv zeta in H. specialize (H ltac:(discriminate)). vm_compute in H. discriminate.
Qed.
Theorem C80_next_is_link_refuted : ~ (forall own self mgmt svcaddr junk verify serve blame accepts deployer ops d k, outside self mgmt svcaddr ops ->
  let m := s_m (run own self mgmt svcaddr junk verify serve blame accepts deployer ops) in resolveNext m d = Some k -> isLink m k = true).
Proof.
  intros H. specialize (H x_own 10 11 12 x_junk x_verify x_serve x_blame x_accepts 1 (x_links ++ [x_say (str "0x9.foo") x_link "Link" x_far]) (str "0x4.eth") [] ltac:(repeat constructor; discriminate)).
  cbv zeta in H. specialize (H ltac:(vm_compute; reflexivity)). vm_compute in H. discriminate.
Qed.
(** A neighbour that withdraws what it never announced, or announces a network twice, makes it impossible to remove a link (its own or another's); removing a link that announced another link's network removes that one's route. *)
Definition x_stuck : list op := x_links ++ [x_announce; x_say x_bsc3 x_link3 "Link" x_hmny; x_say x_bsc3 x_link3 "Unlink" x_far].
Theorem C80_can_remove_refuted : ~ (forall own self mgmt svcaddr junk verify serve blame accepts deployer ops c k, outside self mgmt svcaddr ops ->
  let s := run own self mgmt svcaddr junk verify serve blame accepts deployer ops in o_is (s_m s) c = true -> isLink (s_m s) k = true -> (forall d, In d (routes (s_m s)) -> r_type (route_of (s_m s) d) <> TManual) ->
  exec own self mgmt svcaddr junk verify serve blame accepts s (RemoveLink c k) <> None).
Proof.
  intros H. specialize (H x_own 10 11 12 x_junk x_verify x_serve x_blame x_accepts 1 x_stuck 1 x_link ltac:(repeat constructor; discriminate)). cbv zeta in H.
  apply H; [vm_compute; reflexivity|vm_compute; reflexivity| |].
  - intros d I. vm_compute in I. repeat (destruct I as [<-|I]; [vm_compute; discriminate|]). destruct I.
  - vm_compute. reflexivity.
Qed.
Theorem C80_removal_keeps_others_refuted : ~ (forall own self mgmt svcaddr junk verify serve blame accepts deployer ops c k k2 d, outside self mgmt svcaddr (ops ++ [RemoveLink c k]) ->
  let run := run own self mgmt svcaddr junk verify serve blame accepts in let m := s_m (run deployer ops) in let m' := s_m (run deployer (ops ++ [RemoveLink c k])) in
  k2 <> k -> In k2 (links m) -> networkAddress k2 = Some d -> resolveNext m d = Some k2 -> resolveNext m' d = Some k2).
Proof.
  intros H. specialize (H x_own 10 11 12 x_junk x_verify x_serve x_blame x_accepts 1 (x_links ++ [x_say x_icon x_link "Link" x_hmny]) 1 x_link x_link3 x_bsc3 ltac:(repeat constructor; discriminate)).
  cbv zeta in H. specialize (H ltac:(discriminate) ltac:(vm_compute; right; left; reflexivity) ltac:(vm_compute; reflexivity) ltac:(vm_compute; reflexivity)). vm_compute in H. discriminate.
Qed.
Print Assumptions C80_neighbour_unroutes_refuted.
Print Assumptions C80_new_link_used_refuted.
Print Assumptions C80_links_once_refuted.
Print Assumptions C80_owner_route_kept_refuted.
Print Assumptions C80_route_taken_back_refuted.
Print Assumptions C80_announced_by_its_link_refuted.
Print Assumptions C80_next_is_link_refuted.
Print Assumptions C80_can_remove_refuted.
Print Assumptions C80_removal_keeps_others_refuted.
