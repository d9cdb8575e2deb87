(** Theorems about the message center: who may do what, C58. *)
From Coq Require Import String Ascii ZArith List Bool Lia Permutation.
From Coq Require Import ZifyBool.
From Verif Require Import Base L_Base M_JMap L_JMap M_JBmc S_JBmc L_JBmc T_JBmc T_JBmc2 T_JBmc3 X_JBmc.
Import ListNotations.
Open Scope Z_scope.

Lemma remove_swap_perm : forall r l l', remove_swap r l = Some l' -> Permutation l (r :: l').
Proof.
  intros r l l' E. unfold remove_swap in E. destruct l as [|x k]; [discriminate|]. cbv zeta in E.
  assert (EL : x :: k = removelast (x :: k) ++ [last (x :: k) x]) by (apply app_removelast_last; discriminate). rewrite EL. clear EL.
  generalize dependent (removelast (x :: k)). generalize (last (x :: k) x). clear x k. intros b rest E. destruct (Z.eqb_spec b r) as [EB|N].
  - injection E as <-. rewrite EB. symmetry. apply Permutation_cons_append.
  - revert l' E. induction rest as [|y rest IH]; intros l' E; [discriminate|]. destruct (Z.eqb_spec y r) as [->|NY].
    + injection E as <-. cbn [app]. constructor. symmetry. apply Permutation_cons_append.
    + match type of E with match ?g with _ => _ end = _ => destruct g as [t|] eqn:EG end; [|discriminate]. injection E as <-. cbn [app]. rewrite (IH t eq_refl). apply perm_swap.
Qed.
Lemma removelast_firstn' : forall (l : list Z), removelast l = firstn (length l - 1) l.
Proof.
  intros l. induction l as [|x l IH]; [reflexivity|]. destruct l as [|y l]; [reflexivity|]. change (removelast (x :: y :: l)) with (x :: removelast (y :: l)). rewrite IH. cbn [length].
  replace (S (S (length l)) - 1)%nat with (S (S (length l) - 1)) by lia. reflexivity.
Qed.
Lemma clear_relays_half : forall fuel i l, (length l <= fuel)%nat -> clear_relays fuel i l = firstn (Nat.div2 (length l + i)) l.
Proof.
  induction fuel as [|fuel IH]; intros i l HF.
  - destruct l; [|cbn [length] in HF; lia]. cbn [clear_relays]. symmetry. apply firstn_nil.
  - cbn [clear_relays]. destruct (Nat.ltb_spec i (length l)) as [L|L].
    + rewrite IH; rewrite removelast_firstn'; [|rewrite firstn_length; lia]. rewrite firstn_length, firstn_firstn. replace (Nat.min (length l - 1) (length l) + S i)%nat with (length l + i)%nat by lia.
      f_equal. apply Nat.min_l. rewrite Nat.div2_div. apply Nat.le_trans with ((2 * (length l - 1) + 1) / 2)%nat; [apply Nat.div_le_mono; lia|]. rewrite (Nat.mul_comm 2), Nat.div_add_l by lia. cbn; lia.
    + symmetry. apply firstn_all2. rewrite Nat.div2_div. apply Nat.le_trans with ((length l * 2) / 2)%nat; [rewrite Nat.div_mul by lia; lia|apply Nat.div_le_mono; lia].
Qed.
Lemma firstn_nodup : forall (l : list Z) k, NoDup l -> NoDup (firstn k l).
Proof. intros l k H. rewrite <- (firstn_skipn k l) in H. induction (firstn k l) as [|x t IH]; [constructor|]. cbn [app] in H. apply NoDup_cons_iff in H as [H1 H2]. constructor; [intros X; apply H1, in_or_app; left; exact X|apply IH, H2]. Qed.

Section BMC.
Context (own self deployer : Z).
Context (verify : nat -> Z -> addr -> Z -> list Z -> option (list (option msg))) (serve : nat -> Z -> bshcall -> action) (chain_ok : nat -> Z -> msg -> bool).
Notation exec := (exec own self deployer verify serve chain_ok).
Notation step := (step own self deployer verify serve chain_ok).
Notation run := (run own self deployer verify serve chain_ok).
Notation dispatch := (dispatch own self serve chain_ok).

(** administration *)
Lemma adm_refl : forall s, same_administration s s.
Proof. intros s. unfold same_administration. repeat split. Qed.
Lemma adm_trans : forall s1 s2 s3, same_administration s1 s2 -> same_administration s2 s3 -> same_administration s1 s3.
Proof.
  intros s1 s2 s3 (A1 & A2 & A3 & A4 & A5 & A6 & A7 & A8 & A9 & A10) (B1 & B2 & B3 & B4 & B5 & B6 & B7 & B8 & B9 & B10). unfold same_administration.
  rewrite B1, B2, B3, B4, B5, B6, B7, B8, B9. repeat split; try assumption. intros n. rewrite B10. apply A10.
Qed.
Lemma adm_grow : forall s new s', wf s -> grow s new s' -> same_administration s s'.
Proof.
  intros s new s' W G. destruct (G W) as (_ & _ & (A1 & A2 & A3 & A4 & A5 & A6 & A7 & A8 & A9) & N & L & _). repeat split; try assumption. intros n.
  destruct (aget Z.eqb n (s_links s)) as [l|] eqn:E; [|rewrite (N n E); reflexivity]. destruct (L n l E) as (l' & -> & E2 & _). cbn [option_map]. congruence.
Qed.
Lemma adm_putLink : forall s l l0, aget Z.eqb (a_net (l_addr l)) (s_links s) = Some l0 -> l_addr l = l_addr l0 -> same_administration s (putLink s l).
Proof.
  intros s l l0 E EA. repeat split. intros n. cbn [putLink set_links s_links]. destruct (Z.eq_dec n (a_net (l_addr l))) as [->|N]; [rewrite (aput_same _ zkey), E; cbn [option_map]; congruence|rewrite (aput_other _ zkey) by exact N; reflexivity].
Qed.
Lemma not_owner : forall s c, ~ may_administer deployer s c -> isOwner deployer s c = false.
Proof.
  intros s c H. unfold isOwner. apply orb_false_iff. split; [apply Z.eqb_neq; intros ->; apply H; left; reflexivity|].
  destruct (existsb _ _) eqn:E; [|reflexivity]. exfalso. apply H. right. apply existsb_exists in E as (x & HX & E). apply Z.eqb_eq in E. subst x. exact HX.
Qed.
(** Whatever someone who is no owner does, the administration stays as it is. *)
Theorem C58_only_owners_administer : forall s o, wf s -> ~ may_administer deployer s (caller_of o) -> same_administration s (step s o).
Proof.
  intros s o W HN. pose proof (not_owner _ _ HN) as EO. unfold M_JBmc.step. destruct (exec s o) as [u s'|] eqn:E; [|apply adm_refl].
  destruct o; cbn [M_JBmc.exec caller_of] in *; unfold owner in E; try (rewrite EO in E; discriminate).
  - unfold handleRelay in E. destruct (getLink s prev) as [l|] eqn:EL; [|discriminate]. apply getLink_some in EL as [EL EA]. rewrite EA in *. destruct (aget Z.eqb (a_net prev) (s_verifiers s)); [|discriminate].
    destruct (verify _ _ _ _ _) as [oms|]; [|discriminate]. destruct (negb _); [discriminate|]. destruct (grow_dispatch_all _ _ _ _ _ _ _ _ _ _ _ E) as (ms & new & _ & G & _).
    eapply adm_trans; [|eapply adm_grow; [|exact G]]; [eapply adm_putLink; [exact EL|exact (eq_sym EA)]|eapply wf_putLink; [exact W|exact EL]].
  - destruct (sendMessage _ _ _ _ _ _ _ _ _ _) as [v s1|] eqn:E1; cbn [bind] in E; [|discriminate]. injection E as _ <-. destruct (grow_sendMessage _ _ _ _ _ _ _ _ _ _ _ _ E1) as (new & G & _). eapply adm_grow; eassumption.
  - destruct (grow_claim _ _ _ _ _ _ _ _ _ _ E) as (new & G & _). eapply adm_grow; eassumption.
Qed.
Theorem C58_owners_needed : forall before after, Forall (fun o => ~ may_administer deployer (run before) (caller_of o)) after -> same_administration (run before) (run (before ++ after)).
Proof.
  intros before after H. unfold M_JBmc.run. rewrite fold_left_app. fold (run before). pose proof (reachable_wf own self deployer verify serve chain_ok before) as W. fold (run before) in W. generalize dependent (run before). intros s H W.
  assert (HG : forall s1, same_administration s s1 -> wf s1 -> same_administration s (fold_left step after s1)).
  { induction after as [|o after IH]; intros s1 A W1; [exact A|]. apply Forall_cons_iff in H as [H1 H]. cbn [fold_left]. apply IH; [exact H| |apply wf_step, W1].
    eapply adm_trans; [exact A|]. apply C58_only_owners_administer; [exact W1|]. unfold may_administer in *. destruct A as (-> & _). exact H1. }
  apply HG; [apply adm_refl|exact W].
Qed.

(** what always holds of the administration *)
Lemma order_adm : forall s s', same_administration s s' -> in_order own deployer s -> in_order own deployer s'.
Proof.
  intros s s' (A1 & A2 & A3 & A4 & A5 & _ & _ & _ & _ & A10) [I1 I2 I3 I4 I5 I6]. constructor; rewrite ?A1, ?A2, ?A3, ?A4, ?A5; try assumption.
  - intros dst via HI. destruct (I1 _ _ HI) as [l EL]. pose proof (A10 via) as E. rewrite EL in E. cbn [option_map] in E. destruct (aget Z.eqb via (s_links s')) as [l'|]; [eauto|discriminate].
  - pose proof (A10 own) as E. rewrite I2 in E. cbn [option_map] in E. destruct (aget Z.eqb own (s_links s')); [discriminate|reflexivity].
Qed.
Lemma ahas_some : forall {V} k (l : list (Z * V)), ahas Z.eqb k l = true -> exists v, aget Z.eqb k l = Some v.
Proof. intros V k l H. unfold ahas in H. destruct (aget Z.eqb k l); [eauto|discriminate]. Qed.
Lemma order_addLink : forall s a u s', wf s -> in_order own deployer s -> addLink own chain_ok s a = Val u s' -> in_order own deployer s'.
Proof.
  intros s a u s' W O E. unfold addLink in E. destruct (ahas Z.eqb (a_net a) (s_verifiers s)) eqn:EV; cbn [negb] in E; [|discriminate]. destruct (ahas _ _ (s_links s)) eqn:EH; [discriminate|]. apply ahas_none in EH.
  destruct (propagate own chain_ok s (s_links s) (PLink a)) as [v s1|] eqn:E1; cbn [bind] in E; [|discriminate].
  destruct (grow_propagate _ _ _ _ _ _ _ E1) as (n1 & G1 & _). pose proof (adm_grow _ _ _ W G1) as A1. pose proof (order_adm _ _ A1 O) as O1. destruct (G1 W) as (W1 & _ & _ & NL & _). specialize (NL _ EH).
  destruct (grow_sendInternal _ _ _ _ _ _ _ E) as (n2 & G2 & _). eapply order_adm; [eapply adm_grow; [|exact G2]|].
  - apply (evolve_newLink (fun _ => True) s1 a NL W1).
  - destruct O1 as [I1 I2 I3 I4 I5 I6]. constructor; try assumption; cbn [putLink set_links s_links s_routes l_addr].
    + intros dst via HI. destruct (I1 _ _ HI) as [l EL]. destruct (Z.eq_dec via (a_net a)) as [->|N]; [rewrite (aput_same _ zkey)|rewrite (aput_other _ zkey) by exact N]; eauto.
    + rewrite (aput_other _ zkey); [exact I2|]. intros EO. apply ahas_some in EV as [v2 EV]. rewrite <- EO, (io_verifiers _ _ _ O) in EV. discriminate.
Qed.
Lemma perm_nodup : forall (l : list Z) x r, Permutation l (x :: r) -> NoDup l -> NoDup r.
Proof. intros l x r HP HN. apply (Permutation_NoDup HP) in HN. apply NoDup_cons_iff in HN. apply HN. Qed.
Lemma adel_none_z : forall {V} k j (l : list (Z * V)), aget Z.eqb k l = None -> aget Z.eqb k (adel Z.eqb j l) = None.
Proof. intros V k j l H. apply (aget_none Z.eqb zkey). intros HI. apply in_map_iff in HI as ([k' v] & EK & HI). cbn [fst] in EK. subst k'. apply (adel_in Z.eqb zkey) in HI. apply (proj1 (aget_none Z.eqb zkey _ _) H). apply (in_map fst) in HI. exact HI. Qed.
Lemma order_same : forall s s', s_owners s' = s_owners s -> s_verifiers s' = s_verifiers s -> s_services s' = s_services s -> s_routes s' = s_routes s -> s_links s' = s_links s -> s_relays s' = s_relays s ->
  in_order own deployer s -> in_order own deployer s'.
Proof. intros s s' E1 E2 E3 E4 E5 E6 [I1 I2 I3 I4 I5 I6]. constructor; rewrite ?E1, ?E2, ?E3, ?E4, ?E5, ?E6; assumption. Qed.
Lemma order_fees : forall l s u s', setFeeTable s l = Val u s' -> in_order own deployer s -> in_order own deployer s'.
Proof.
  induction l as [|[d vs] l IH]; intros s u s' E O; cbn [setFeeTable] in E; [injection E as _ <-; exact O|]. destruct vs as [|v vs].
  - eapply IH; [exact E|]. eapply order_same; [..|exact O]; reflexivity.
  - destruct (negb _); [discriminate|]. destruct (existsb _ _); [discriminate|]. cbv zeta in E.
    destruct (_ =? 2)%nat; [destruct (ahas _ _ _); [|discriminate]|destruct (resolveNext s d); [|discriminate]]; (eapply IH; [exact E|]; eapply order_same; [..|exact O]; reflexivity).
Qed.
Lemma order_exec : forall s o u s', wf s -> in_order own deployer s -> exec s o = Val u s' -> in_order own deployer s'.
Proof.
  intros s o u s' W O E. assert (HS : ~ may_administer deployer s (caller_of o) -> in_order own deployer s').
  { intros HN. pose proof (C58_only_owners_administer s o W HN) as A. unfold M_JBmc.step in A. rewrite E in A. eapply order_adm; eassumption. }
  destruct o; cbn [M_JBmc.exec] in E; unfold owner in E; try (destruct (isOwner deployer s caller) eqn:EOW; [|discriminate]).
  - unfold handleRelay in E. destruct (getLink s prev) as [l|] eqn:EL; [|discriminate]. apply getLink_some in EL as [EL EA]. rewrite EA in *. destruct (aget Z.eqb (a_net prev) (s_verifiers s)); [|discriminate].
    destruct (verify _ _ _ _ _) as [oms|]; [|discriminate]. destruct (negb _); [discriminate|]. destruct (grow_dispatch_all _ _ _ _ _ _ _ _ _ _ _ E) as (ms & new & _ & G & _).
    eapply order_adm; [eapply adm_trans; [|eapply adm_grow; [|exact G]]; [eapply adm_putLink; [exact EL|exact (eq_sym EA)]|eapply wf_putLink; [exact W|exact EL]]|exact O].
  - destruct (sendMessage _ _ _ _ _ _ _ _ _ _) as [v s1|] eqn:E1; cbn [bind] in E; [|discriminate]. injection E as _ <-. destruct (grow_sendMessage _ _ _ _ _ _ _ _ _ _ _ _ E1) as (new & G & _). eapply order_adm; [eapply adm_grow; eassumption|exact O].
  - destruct (grow_claim _ _ _ _ _ _ _ _ _ _ E) as (new & G & _). eapply order_adm; [eapply adm_grow; eassumption|exact O].
  - destruct (Z.eqb_spec own net) as [|N]; [discriminate|]. destruct (ahas _ _ _); [discriminate|]. injection E as _ <-. destruct O as [I1 I2 I3 I4 I5 I6]. constructor; try assumption. cbn [set_verifiers s_verifiers]. rewrite (aput_other _ zkey) by exact N. exact I3.
  - destruct (ahas _ _ _); [|discriminate]. injection E as _ <-. destruct O as [I1 I2 I3 I4 I5 I6]. constructor; try assumption. apply adel_none_z, I3.
  - destruct (ahas _ _ _ || _)%bool eqn:EX; [discriminate|]. injection E as _ <-. apply orb_false_iff in EX as [_ EX]. destruct O as [I1 I2 I3 I4 I5 I6]. constructor; try assumption. cbn [set_services s_services]. rewrite (aput_other _ zkey) by lia. exact I4.
  - destruct (ahas _ _ _); [|discriminate]. injection E as _ <-. destruct O as [I1 I2 I3 I4 I5 I6]. constructor; try assumption. apply adel_none_z, I4.
  - eapply order_addLink; eassumption.
  - unfold removeLink in E. destruct (getLink s a) as [l|]; [|discriminate]. cbv zeta in E. destruct (existsb _ (s_routes s)) eqn:ER; [discriminate|]. destruct (grow_propagate _ _ _ _ _ _ _ E) as (new & G & _).
    eapply order_adm; [eapply adm_grow; [|exact G]|].
    + pose proof (evolve_delLink s (a_net a) W) as (W1 & _). eapply (evolve_same (fun _ => True)); [..|exact W1]; cbn [set_fees set_relays]; destruct (s_netids _ a); reflexivity.
    + assert (HO : in_order own deployer (set_relays (set_links s (adel Z.eqb (a_net a) (s_links s))) a (clear_relays (length (s_relays s a)) 0 (s_relays s a)))).
      { destruct O as [I1 I2 I3 I4 I5 I6]. constructor; try assumption; cbn [set_relays set_links s_links s_routes s_relays].
        - intros dst via HI. destruct (I1 _ _ HI) as [k EK]. exists k. rewrite (adel_other _ zkey); [exact EK|apply W|]. intros ->.
          assert (X : existsb (fun r => snd r =? a_net a) (s_routes s) = true) by (apply existsb_exists; exists (dst, a_net a); split; [exact HI|apply Z.eqb_refl]). congruence.
        - apply adel_none_z, I2.
        - intros b. destruct (addr_eqb a b); [|apply I6]. rewrite clear_relays_half by lia. apply firstn_nodup, I6. }
      eapply order_same; [..|exact HO]; cbn [set_fees set_relays]; destruct (s_netids _ a); reflexivity.
  - destruct (dst =? net); [discriminate|]. destruct (ahas _ _ (s_routes s)); [discriminate|]. destruct (ahas _ _ _) eqn:EH; [|discriminate]. injection E as _ <-. apply ahas_some in EH as [l EH].
    destruct O as [I1 I2 I3 I4 I5 I6]. constructor; try assumption. cbn [set_routes s_routes s_links]. intros d via HI. apply (aput_in Z.eqb) in HI as [HI|HI]; [injection HI as _ ->; eauto|apply (I1 _ _ HI)].
  - destruct (ahas _ _ _); [|discriminate]. injection E as _ <-. destruct O as [I1 I2 I3 I4 I5 I6]. constructor; try assumption. cbn [set_fees set_routes s_routes s_links]. intros d via HI. apply (adel_in Z.eqb zkey) in HI. apply (I1 _ _ HI).
  - eapply order_fees; eassumption.
  - injection E as _ <-. eapply order_same; [..|exact O]; reflexivity.
  - destruct (getLink s a); [|discriminate]. destruct (isRelay s a r) eqn:ER; [discriminate|]. injection E as _ <-. destruct O as [I1 I2 I3 I4 I5 I6]. constructor; try assumption. cbn [set_relays s_relays]. intros b.
    destruct (addr_eqb a b); [|apply I6]. apply nodup_snoc; [apply I6|]. intros HI. unfold isRelay in ER. assert (X : existsb (Z.eqb r) (s_relays s a) = true) by (apply existsb_exists; exists r; split; [exact HI|apply Z.eqb_refl]). congruence.
  - destruct (getLink s a); [|discriminate]. destruct (remove_swap r (s_relays s a)) as [l'|] eqn:ER; [|discriminate]. injection E as _ <-. destruct O as [I1 I2 I3 I4 I5 I6]. constructor; try assumption. cbn [set_relays s_relays]. intros b.
    destruct (addr_eqb a b); [|apply I6]. eapply perm_nodup; [apply remove_swap_perm, ER|apply I6].
  - cbn [negb] in E. destruct (Z.eqb_spec deployer a) as [|N]; [discriminate|]. destruct (existsb _ _) eqn:EX; [discriminate|]. injection E as _ <-. destruct O as [I1 I2 I3 I4 I5 I6]. constructor; try assumption. cbn [set_owners s_owners].
    change (deployer :: s_owners s ++ [a]) with ((deployer :: s_owners s) ++ [a]). apply nodup_snoc; [exact I5|]. intros [HI|HI]; [contradiction|].
    assert (X : existsb (Z.eqb a) (s_owners s) = true) by (apply existsb_exists; exists a; split; [exact HI|apply Z.eqb_refl]). congruence.
  - cbn [negb] in E. destruct (deployer =? a); [discriminate|]. destruct (remove_swap a (s_owners s)) as [l'|] eqn:ER; [|discriminate]. injection E as _ <-. destruct O as [I1 I2 I3 I4 I5 I6]. constructor; try assumption. cbn [set_owners s_owners].
    apply remove_swap_perm in ER. eapply perm_nodup; [|exact I5]. rewrite ER. apply perm_swap.
  - unfold setBTPLink in E. destruct (nid <? 1); [discriminate|]. destruct (s_offsets s nid); [discriminate|]. cbn [bind] in E. eapply order_addLink; [|  |exact E]; [apply (evolve_same (fun _ => True) s); try reflexivity; exact W|eapply order_same; [..|exact O]; reflexivity].
  - destruct (getLink s a); [|discriminate]. unfold setBTPLink in E. destruct (nid <? 1); [discriminate|]. destruct (s_offsets s nid); [discriminate|]. injection E as _ <-. eapply order_same; [..|exact O]; reflexivity.
  - unfold dropMessage in E. destruct (resolveNext s src) as [prev|]; [|discriminate]. destruct (getLinkNet s (a_net prev)) as [l|] eqn:EL; [|discriminate]. unfold getLinkNet in EL.
    destruct (negb _); [discriminate|]. destruct (negb _); [discriminate|]. destruct (isInvalidSn sn nsn); [discriminate|]. cbv zeta in E.
    assert (EK : a_net (l_addr l) = a_net prev) by (apply (proj1 (proj2 W) _ _ EL)).
    pose proof (accumulate_grow (putLink s (Link (l_addr l) seq (l_tx l) (l_reach l))) self f) as GA. destruct (accumulateFee _ self f) as [s2 f'] eqn:EA. cbn [fst] in GA.
    assert (W1 : wf (putLink s (Link (l_addr l) seq (l_tx l) (l_reach l)))) by (eapply wf_putLink; [exact W|]; cbn [l_addr]; rewrite EK; exact EL).
    assert (HG : exists new, grow (putLink s (Link (l_addr l) seq (l_tx l) (l_reach l))) new s').
    { destruct (0 <? sn); [destruct (grow_sendError _ _ _ _ _ _ _ _ E) as (nid & n0 & G); eexists; eapply grow_pre; [exact GA|exact G]|injection E as _ <-; eexists; eapply grow_pre; [exact GA|apply grow_dropped]]. }
    destruct HG as (new & G). eapply order_adm; [|exact O]. eapply adm_trans; [|eapply adm_grow; [exact W1|exact G]]. eapply adm_putLink; cbn [l_addr]; [rewrite EK; exact EL|reflexivity].
Qed.
(** After any calls: routes lead over links, this network is neither a neighbour nor verified, no contract is registered
    as the message center's own service, there are no duplicates among owners and relays. *)
Theorem C58_in_order : forall ops, in_order own deployer (run ops).
Proof.
  intros ops. assert (HG : forall ops s, wf s -> in_order own deployer s -> in_order own deployer (fold_left step ops s)).
  { clear ops. induction ops as [|o ops IH]; intros s W O; [exact O|]. cbn [fold_left]. apply IH; [apply wf_step, W|]. unfold M_JBmc.step. destruct (exec s o) as [u s'|] eqn:E; [eapply order_exec; eassumption|exact O]. }
  apply HG; [apply wf_init|]. constructor; [intros ? ? []|reflexivity|reflexivity|reflexivity|constructor; [intros []|constructor]|intros a; constructor].
Qed.
(** Removing a relay or an owner removes that one and no other. *)
Theorem C58_removed_exactly : forall ops c a r s', let s := run ops in exec s (RemoveRelay c a r) = Val tt s' -> forall x, In x (s_relays s' a) <-> In x (s_relays s a) /\ x <> r.
Proof.
  intros ops c a r s' s E x. pose proof (io_relays _ _ _ (C58_in_order ops) a) as ND. fold s in ND. cbn [M_JBmc.exec] in E. unfold owner in E. destruct (isOwner deployer s c); [|discriminate]. destruct (getLink s a); [|discriminate].
  destruct (remove_swap r (s_relays s a)) as [l'|] eqn:ER; [|discriminate]. injection E as <-. cbn [set_relays s_relays]. rewrite (proj2 (addr_eq a a) eq_refl). apply remove_swap_perm in ER.
  pose proof (Permutation_NoDup ER ND) as ND2. apply NoDup_cons_iff in ND2 as [NI _]. split.
  - intros HX. split; [eapply Permutation_in; [symmetry; exact ER|right; exact HX]|intros ->; contradiction].
  - intros [HX HN]. apply (Permutation_in _ ER) in HX as [HX|HX]; [congruence|exact HX].
Qed.
Theorem C58_owner_removed_exactly : forall ops c a s', let s := run ops in exec s (RemoveOwner c a) = Val tt s' -> a <> deployer /\ forall x, In x (s_owners s') <-> In x (s_owners s) /\ x <> a.
Proof.
  intros ops c a s' s E. pose proof (io_owners _ _ _ (C58_in_order ops)) as ND. fold s in ND. apply NoDup_cons_iff in ND as [_ ND]. cbn [M_JBmc.exec] in E. destruct (negb _); [discriminate|]. destruct (Z.eqb_spec deployer a) as [|N]; [discriminate|].
  destruct (remove_swap a (s_owners s)) as [l'|] eqn:ER; [|discriminate]. injection E as <-. cbn [set_owners s_owners]. split; [congruence|]. intros x. apply remove_swap_perm in ER.
  pose proof (Permutation_NoDup ER ND) as ND2. apply NoDup_cons_iff in ND2 as [NI _]. split.
  - intros HX. split; [eapply Permutation_in; [symmetry; exact ER|right; exact HX]|intros ->; contradiction].
  - intros [HX HN]. apply (Permutation_in _ ER) in HX as [HX|HX]; [congruence|exact HX].
Qed.

(** rewards never get less, except the claimant's own *)
Definition up (s s' : st) : Prop := forall x n, getReward s n x <= getReward s' n x.
Lemma up_refl : forall s, up s s.
Proof. intros s x n. lia. Qed.
Lemma up_trans : forall s1 s2 s3, up s1 s2 -> up s2 s3 -> up s1 s3.
Proof. intros s1 s2 s3 H1 H2 x n. specialize (H1 x n). specialize (H2 x n). lia. Qed.
Lemma up_same : forall s s', s_rewards s' = s_rewards s -> up s s'.
Proof. intros s s' E x n. unfold getReward. rewrite E. lia. Qed.
Lemma up_addReward : forall s a k v, up s (addReward s a k v).
Proof.
  intros s a k v x n. unfold addReward. destruct (Z.ltb_spec 0 v); [|lia]. unfold getReward at 2. cbn [set_rewards s_rewards]. destruct (zz_eqb (x, n) (a, k)) eqn:EQ.
  - apply zz_key in EQ. injection EQ as -> ->. rewrite (aput_same _ zz_key). lia.
  - rewrite (aput_other _ zz_key); [unfold getReward; lia|]. intros EE. apply zz_key in EE. congruence.
Qed.
Lemma up_collect : forall s f, up s (collect self s f).
Proof. intros s [[k [|v vs]]|]; cbn [collect]; try apply up_refl. apply up_addReward. Qed.
Lemma up_event : forall s m next e, up s (event s m next e).
Proof. intros s m next e. rewrite event_eq. apply up_same. reflexivity. Qed.
Lemma up_sendTo : forall s next m u s', sendTo chain_ok s next m = Val u s' -> up s s'.
Proof. intros s next m u s' E. destruct (sendTo_val _ _ _ _ _ _ E) as (l & nid & _ & -> & _). apply up_same. reflexivity. Qed.
Lemma up_reply : forall s to svc sn p fill value v s', sendWithFee own self chain_ok s to svc sn p true fill value = Val v s' -> up s s'.
Proof.
  intros s to svc sn p fill value v s' E. destruct (reply_val _ _ _ _ _ _ _ _ _ _ _ _ E) as (i & next & s1 & _ & _ & ES & -> & _). eapply up_trans; [|apply up_event]. eapply up_trans; [|eapply up_sendTo, ES].
  eapply up_trans; [|apply up_addReward]. apply up_same. reflexivity.
Qed.
Lemma up_send : forall s to svc sn p fill value v s', sendWithFee own self chain_ok s to svc sn p false fill value = Val v s' -> up s s'.
Proof.
  intros s to svc sn p fill value v s' E. destruct (send_val _ _ _ _ _ _ _ _ _ _ _ _ E) as (next & s1 & _ & _ & ES & -> & _). eapply up_trans; [|apply up_event]. eapply up_trans; [|eapply up_sendTo, ES].
  eapply up_trans; [|apply up_addReward]. apply up_same. reflexivity.
Qed.
Lemma up_sendMessage : forall s c to svc sn p v r s', sendMessage own self chain_ok s c to svc sn p v = Val r s' -> up s s'.
Proof.
  intros s c to svc sn p v r s' E. unfold sendMessage in E. destruct (aget Z.eqb svc (s_services s)) as [a|]; [|discriminate]. destruct (negb (c =? a)); [discriminate|].
  destruct (if sn <? 0 then _ else _) as [x s1|] eqn:E1; cbn [bind] in E; [|discriminate]. injection E as _ <-. apply (up_trans s s1); [|apply up_same; reflexivity]. destruct (sn <? 0); [eapply up_reply|eapply up_send]; exact E1.
Qed.
Lemma up_calls : forall cs s a u s', run_calls own self chain_ok s a cs = Val u s' -> up s s'.
Proof.
  induction cs as [|c cs IH]; intros s a u s' E; cbn [run_calls] in E; [injection E as _ <-; apply up_refl|].
  destruct (sendMessage own self chain_ok s a (c_to c) (c_svc c) (c_sn c) (c_pay c) (c_value c)) as [r s1|] eqn:E1; [eapply up_trans; [eapply up_sendMessage, E1|eapply IH, E]|].
  destruct (c_catch c); [eapply IH, E|discriminate].
Qed.
Lemma up_service : forall s a c u s', call_service own self serve chain_ok s a c = Val u s' -> up s s'.
Proof.
  intros s a c u s' E. unfold call_service in E. destruct (serve _ a c) as [|cs]; [discriminate|]. destruct (run_calls own self chain_ok s a cs) as [[] s1|] eqn:E1; [|discriminate]. injection E as _ <-. eapply up_calls, E1.
Qed.
Lemma up_response : forall s nsn r u s', handleResponse s nsn r = Val u s' -> up s s'.
Proof.
  intros s nsn r u s' E. unfold handleResponse in E. destruct (aget Z.eqb nsn (s_requests s)) as [q|]; [|discriminate]. cbv zeta in E. injection E as _ <-.
  destruct (r =? CODE_SUCCESS); [apply up_same; reflexivity|]. eapply up_trans; [|apply up_same; reflexivity]. eapply up_trans; [|apply up_addReward]. apply up_same. reflexivity.
Qed.
Lemma up_internal : forall s src nsn p, match internalMessage own self chain_ok s src nsn p with Val _ s' | Exn _ s' => up s s' end.
Proof.
  intros s src nsn p. unfold internalMessage. destruct p as [b|code|amount [r|]|code|a|a|l]; try apply up_refl.
  - destruct (sendWithFee own self chain_ok _ src INTERNAL nsn _ true false 0) as [v s1|e s1] eqn:E1; [eapply up_trans; [apply up_addReward|eapply up_reply, E1]|].
    eapply up_trans; [|apply up_addReward]. eapply up_trans; [apply up_addReward|]. destruct (reply_exn _ _ _ _ _ _ _ _ _ _ _ _ E1) as [->|(i & _ & ->)]; [apply up_refl|]. eapply up_trans; [|apply up_addReward]. apply up_same. reflexivity.
  - destruct (handleResponse s (- nsn) code) as [u s1|e s1] eqn:E; [destruct u; eapply up_response, E|]. apply response_exn in E. subst s1. apply up_refl.
  - unfold addReachable. destruct (getLinkNet s src); [apply up_same; reflexivity|apply up_refl].
  - unfold removeReachable. destruct (getLinkNet s src); [apply up_same; reflexivity|apply up_refl].
  - unfold addReachable. destruct (getLinkNet s src); [apply up_same; reflexivity|apply up_refl].
Qed.
Lemma up_stored : forall s m, up s (stored_state self s m).
Proof.
  intros s m. unfold stored_state. destruct (m_fee m) as [f|]; [|apply up_refl]. destruct (0 <? m_sn m); [|apply up_collect]. cbv zeta.
  destruct (aget zzz_eqb _ (s_resp s)); [eapply up_trans; [apply up_collect|apply up_same; reflexivity]|apply up_same; reflexivity].
Qed.
Lemma up_handle : forall s m, match handleMessage own self serve chain_ok s m with Val _ s' | Exn _ s' => up s s' end.
Proof.
  intros s m. rewrite handle_eq. destruct (0 <=? m_sn m).
  - assert (HD : match deliver own self serve chain_ok (stored_state self s m) m with Val _ s' | Exn _ s' => up (stored_state self s m) s' end).
    { unfold deliver. destruct (m_svc m =? INTERNAL); [apply up_internal|]. destruct (getService _ (m_svc m)); [|apply up_refl]. destruct (call_service _ _ _ _ _ _ _) as [u s1|e s1] eqn:E; [eapply up_service, E|]. apply service_exn in E. subst s1. apply up_refl. }
    destruct (deliver _ _ _ _ _ _) as [u s1|e s1]; [eapply up_trans; [apply up_stored|exact HD]|]. eapply up_trans; [apply up_stored|]. eapply up_trans; [exact HD|]. destruct (match m_fee m with Some _ => _ | None => _ end); [apply up_same; reflexivity|apply up_refl].
  - destruct (deliver_error own self serve chain_ok (collect self s (m_fee m)) m) as [u s1|e s1] eqn:E.
    + eapply up_trans; [apply up_collect|]. unfold deliver_error in E. destruct (m_pay m); try discriminate. destruct (m_svc m =? INTERNAL); [eapply up_response, E|]. destruct (getService _ _); [eapply up_service, E|discriminate].
    + apply deliver_error_exn in E. subst s1. apply up_collect.
Qed.
Lemma up_sendError : forall s prev m e u s', sendError own chain_ok s prev m e = Val u s' -> up s s'.
Proof.
  intros s prev m e u s' E. unfold sendError in E. cbv zeta in E. destruct (sendTo chain_ok s prev _) as [[] s1|] eqn:ES; cbn [bind] in E; [|discriminate]. injection E as _ <-. eapply up_trans; [eapply up_sendTo, ES|apply up_event].
Qed.
Lemma up_dropped : forall s prev seq m e, up s (dropped s prev seq m e).
Proof. intros s prev seq m e. unfold dropped. rewrite event_eq. apply up_same. reflexivity. Qed.
Lemma up_dispatch : forall s prev seq m, up s (dispatch s prev seq m).
Proof.
  intros s prev seq m. unfold M_JBmc.dispatch.
  assert (HX : forall e s1, up s s1 -> up s (if 0 <? m_sn m then match sendError own chain_ok s1 prev m e with Val _ s2 => s2 | Exn e2 s2 => dropped (collect self s2 (m_fee m)) prev seq m e2 end
     else dropped (collect self s1 (m_fee m)) prev seq m e)).
  { intros e s1 H1. destruct (0 <? m_sn m).
    - destruct (sendError own chain_ok s1 prev m e) as [u s2|e2 s2] eqn:EE; [eapply up_trans; [exact H1|eapply up_sendError, EE]|]. apply sendError_exn in EE. subst s2. eapply up_trans; [exact H1|eapply up_trans; [apply up_collect|apply up_dropped]].
    - eapply up_trans; [exact H1|eapply up_trans; [apply up_collect|apply up_dropped]]. }
  destruct (own =? m_dst m).
  - pose proof (up_handle s m) as H. destruct (handleMessage own self serve chain_ok s m) as [u s1|e s1]; cbn [bind]; [eapply up_trans; [exact H|apply up_event]|apply HX, H].
  - destruct (resolveNext s (m_dst m)) as [next|e]; [|apply HX, up_refl]. destruct (sendTo chain_ok s next m) as [u s1|e s1] eqn:ES; cbn [bind]; [eapply up_trans; [eapply up_sendTo, ES|apply up_event]|].
    apply sendTo_exn in ES. subst s1. apply HX, up_refl.
Qed.
Lemma up_accumulate : forall s a f, up s (fst (accumulateFee s a f)).
Proof. intros s a [[k [|v vs]]|]; cbn [accumulateFee fst]; try apply up_refl. apply up_addReward. Qed.
Lemma up_dispatch_all : forall oms s c prev rx u s', dispatch_all own self serve chain_ok s c prev rx oms = Val u s' -> up s s'.
Proof.
  induction oms as [|[m|] oms IH]; intros s c prev rx u s' E; cbn [dispatch_all] in E; [injection E as _ <-; apply up_refl| |discriminate].
  pose proof (up_accumulate s c (m_fee m)) as H. destruct (accumulateFee s c (m_fee m)) as [s1 f]. cbn [fst] in H. eapply up_trans; [exact H|]. eapply up_trans; [apply up_dispatch|eapply IH, E].
Qed.
Lemma up_sendInternal : forall s next p u s', sendInternal own chain_ok s next p = Val u s' -> up s s'.
Proof. intros s next p u s' E. unfold sendInternal in E. cbv zeta in E. eapply up_trans; [|eapply up_sendTo, E]. eapply up_trans; [|apply up_event]. apply up_same. reflexivity. Qed.
Lemma up_propagate : forall l s p u s', propagate own chain_ok s l p = Val u s' -> up s s'.
Proof.
  induction l as [|[k x] l IH]; intros s p u s' E; cbn [propagate] in E; [injection E as _ <-; apply up_refl|].
  destruct (sendInternal own chain_ok s (l_addr x) p) as [v s1|] eqn:E1; cbn [bind] in E; [|discriminate]. eapply up_trans; [eapply up_sendInternal, E1|eapply IH, E].
Qed.
Lemma up_addLink : forall s a u s', addLink own chain_ok s a = Val u s' -> up s s'.
Proof.
  intros s a u s' E. unfold addLink in E. destruct (negb _); [discriminate|]. destruct (ahas _ _ _); [discriminate|]. destruct (propagate own chain_ok s (s_links s) (PLink a)) as [v s1|] eqn:E1; cbn [bind] in E; [|discriminate].
  eapply up_trans; [eapply up_propagate, E1|]. eapply up_trans; [|eapply up_sendInternal, E]. apply up_same. reflexivity.
Qed.
Lemma claimant : forall s c, exists x, claims_for self s c x /\ x = match s_handler s with Some h => if h =? c then self else c | None => c end.
Proof.
  intros s c. eexists. split; [|reflexivity]. unfold claims_for. destruct (s_handler s) as [h|]; [|right; split; [discriminate|reflexivity]]. destruct (Z.eqb_spec h c) as [->|N]; [left; auto|right; split; [congruence|reflexivity]].
Qed.
(** Whose reward gets less has claimed it, in the coin claimed. *)
Theorem C58_rewards_only_claimed : forall s o x n, getReward (step s o) n x < getReward s n x -> exists c r v, o = ClaimReward c n r v /\ claims_for self s c x.
Proof.
  intros s o x n H. unfold M_JBmc.step in H. destruct (exec s o) as [u s'|] eqn:E; [|lia]. assert (HU : up s s' -> exists c r v, o = ClaimReward c n r v /\ claims_for self s c x) by (intros U; specialize (U x n); lia).
  destruct o; cbn [M_JBmc.exec] in E; unfold owner in E; try (destruct (isOwner deployer s caller); [|discriminate]).
  - apply HU. unfold handleRelay in E. destruct (getLink s prev) as [l|]; [|discriminate]. destruct (aget Z.eqb _ (s_verifiers s)); [|discriminate].
    destruct (verify _ _ _ _ _) as [oms|]; [|discriminate]. destruct (negb _); [discriminate|]. eapply up_trans; [|eapply up_dispatch_all, E]. apply up_same. reflexivity.
  - apply HU. destruct (sendMessage _ _ _ _ _ _ _ _ _ _) as [v s1|] eqn:E1; cbn [bind] in E; [|discriminate]. injection E as _ <-. eapply up_sendMessage, E1.
  - destruct (claimant s caller) as (w & HW & EW). unfold claimReward in E. rewrite <- EW in E. cbv zeta in E. destruct (getReward s net w <=? 0); [discriminate|].
    assert (U : up (set_rewards s (aput zz_eqb (w, net) 0 (s_rewards s))) s').
    { destruct (net =? own); [destruct receiver as [r|]; [|discriminate]; injection E as _ <-; apply up_same; reflexivity|]. destruct (sendWithFee _ _ _ _ _ _ _ _ _ _ _) as [nsn s2|] eqn:ES; cbn [bind] in E; [|discriminate]. injection E as _ <-.
      eapply up_trans; [eapply up_send, ES|]. apply up_same. reflexivity. }
    specialize (U x n). unfold getReward at 1 in U. cbn [set_rewards s_rewards] in U. destruct (zz_eqb (x, n) (w, net)) eqn:EQ.
    + apply zz_key in EQ. injection EQ as -> ->. exists caller, receiver, value. auto.
    + rewrite (aput_other _ zz_key) in U; [unfold getReward in H; unfold getReward in U; lia|]. intros EE. apply zz_key in EE. congruence.
  - apply HU. destruct (own =? net); [discriminate|]. destruct (ahas _ _ _); [discriminate|]. injection E as _ <-. apply up_same; reflexivity.
  - apply HU. destruct (ahas _ _ _); [|discriminate]. injection E as _ <-. apply up_same; reflexivity.
  - apply HU. destruct (_ || _); [discriminate|]. injection E as _ <-. apply up_same; reflexivity.
  - apply HU. destruct (ahas _ _ _); [|discriminate]. injection E as _ <-. apply up_same; reflexivity.
  - apply HU. eapply up_addLink, E.
  - apply HU. unfold removeLink in E. destruct (getLink s a) as [l|]; [|discriminate]. cbv zeta in E. destruct (existsb _ _); [discriminate|]. eapply up_trans; [|eapply up_propagate, E]. apply up_same. cbn [set_fees]. destruct (s_netids _ a); reflexivity.
  - apply HU. destruct (dst =? net); [discriminate|]. destruct (ahas _ _ _); [discriminate|]. destruct (ahas _ _ _); [|discriminate]. injection E as _ <-. apply up_same; reflexivity.
  - apply HU. destruct (ahas _ _ _); [|discriminate]. injection E as _ <-. apply up_same; reflexivity.
  - apply HU. apply setFeeTable_keeps in E as (_ & _ & _ & _ & _ & E). apply up_same, E.
  - apply HU. injection E as _ <-. apply up_same; reflexivity.
  - apply HU. destruct (getLink s a); [|discriminate]. destruct (isRelay s a r); [discriminate|]. injection E as _ <-. apply up_same; reflexivity.
  - apply HU. destruct (getLink s a); [|discriminate]. destruct (remove_swap r (s_relays s a)); [|discriminate]. injection E as _ <-. apply up_same; reflexivity.
  - apply HU. cbn [negb] in E. destruct (deployer =? a); [discriminate|]. destruct (existsb _ _); [discriminate|]. injection E as _ <-. apply up_same; reflexivity.
  - apply HU. cbn [negb] in E. destruct (deployer =? a); [discriminate|]. destruct (remove_swap _ _); [|discriminate]. injection E as _ <-. apply up_same; reflexivity.
  - apply HU. unfold setBTPLink in E. destruct (nid <? 1); [discriminate|]. destruct (s_offsets s nid); [discriminate|]. cbn [bind] in E. eapply up_trans; [|eapply up_addLink, E]. apply up_same. reflexivity.
  - apply HU. destruct (getLink s a); [|discriminate]. unfold setBTPLink in E. destruct (nid <? 1); [discriminate|]. destruct (s_offsets s nid); [discriminate|]. injection E as _ <-. apply up_same. reflexivity.
  - apply HU. unfold dropMessage in E. destruct (resolveNext s src) as [prev|]; [|discriminate]. destruct (getLinkNet s (a_net prev)) as [l|]; [|discriminate].
    destruct (negb _); [discriminate|]. destruct (negb _); [discriminate|]. destruct (isInvalidSn sn nsn); [discriminate|]. cbv zeta in E.
    pose proof (up_accumulate (putLink s (Link (l_addr l) seq (l_tx l) (l_reach l))) self f) as HA. destruct (accumulateFee _ self f) as [s2 f']. cbn [fst] in HA.
    eapply up_trans; [|eapply up_trans; [exact HA|]]; [apply up_same; reflexivity|]. destruct (0 <? sn); [eapply up_sendError, E|injection E as _ <-; apply up_dropped].
Qed.
Lemma reward_other : forall s k v n x, n <> k -> getReward (collectNet self s k v) n x = getReward s n x.
Proof. intros s k v n x N. unfold collectNet, addReward. destruct (0 <? v); [|reflexivity]. unfold getReward. cbn [set_rewards s_rewards]. rewrite (aput_other _ zz_key) by congruence. reflexivity. Qed.
(** A claim pays out the whole reward once: to the receiver in this network, or with a claim message to the other one,
    remembered until that is answered. *)
Theorem C58_claim_pays : forall ops c n r v u s', let s := run ops in exec s (ClaimReward c n r v) = Val u s' -> exists x, claims_for self s c x /\ 0 < getReward s n x /\ getReward s' n x = 0 /\
  (if n =? own then exists to, r = Some to /\ s_out s' = s_out s ++ [OPaid v; OTransfer to (getReward s n x); OClaim x n (getReward s n x) 0]
   else exists next nid seq fee, let k := s_nsn s + 1 in aget Z.eqb k (s_requests s') = Some (Request n (getReward s n x) x) /\
     s_out s' = s_out s ++ [OSent next nid seq (Msg own n INTERNAL k (PClaim (getReward s n x) r) k fee); OEvent own k (Some next) SEND; OPaid v; OClaim x n (getReward s n x) k]).
Proof.
  intros ops c n r v u s' s E. pose proof (proj1 (reachable_wf own self deployer verify serve chain_ok ops)) as HN. fold s in HN. clearbody s. destruct (claimant s c) as (w & HW & EW). exists w. split; [exact HW|]. cbn [M_JBmc.exec] in E. unfold claimReward in E. rewrite <- EW in E. cbv zeta in E. destruct (Z.leb_spec (getReward s n w) 0) as [|HR]; [discriminate|].
  split; [exact HR|]. destruct (Z.eqb_spec n own) as [EN|NN].
  - destruct r as [to|]; [|discriminate]. injection E as _ <-. split; [unfold getReward; cbn [emit set_rewards s_rewards]; rewrite (aput_same _ zz_key); reflexivity|]. exists to. split; [reflexivity|]. cbn [emit set_rewards s_out]. rewrite <- !app_assoc. reflexivity.
  - destruct (sendWithFee _ _ _ _ _ _ _ _ _ _ _) as [nsn s2|] eqn:ES; cbn [bind] in E; [|discriminate]. injection E as _ <-.
    destruct (send_val _ _ _ _ _ _ _ _ _ _ _ _ ES) as (next & s1 & _ & _ & ES1 & -> & ->). destruct (sendTo_val _ _ _ _ _ _ ES1) as (l & nid & _ & -> & _). rewrite event_eq. cbn [set_rewards s_nsn] in *. split.
    + change (getReward (collectNet self (nextNetworkSn (set_rewards s (aput zz_eqb (w, n) 0 (s_rewards s)))) own (v - sum (getFeeList (set_rewards s (aput zz_eqb (w, n) 0 (s_rewards s))) n (0 <? s_nsn s + 1)))) n w = 0).
      rewrite reward_other by exact NN. unfold getReward. cbn [nextNetworkSn set_nsn set_rewards s_rewards]. rewrite (aput_same _ zz_key). reflexivity.
    + do 4 eexists. cbv zeta. split; [cbn [emit set_requests s_requests]; apply (aput_same _ zkey)|]. cbn [emit set_requests s_out putLink set_links]. unfold collectNet. rewrite (proj1 (proj2 (proj2 (proj2 (proj2 (addReward_keeps _ _ _ _)))))).
      cbn [nextNetworkSn set_nsn set_rewards s_out]. rewrite <- !app_assoc. cbn [app]. unfold ev_of, msg_id. cbn [m_src m_nsn]. destruct (Z.ltb_spec (s_nsn s + 1) 0); [lia|reflexivity].
Qed.
(** Only the contract registered for a service sends under its name. *)
Definition sent_as (svc : Z) (o : out) : Prop := match o with OSent _ _ _ m => m_svc m = svc /\ m_src m = own | _ => True end.
Lemma sends_as : forall s c to svc sn p v r s', sendMessage own self chain_ok s c to svc sn p v = Val r s' -> aget Z.eqb svc (s_services s) = Some c /\ s_services s' = s_services s /\ exists new, s_out s' = s_out s ++ new /\ Forall (sent_as svc) new.
Proof.
  intros s c to svc sn p v r s' E. unfold sendMessage in E. destruct (aget Z.eqb svc (s_services s)) as [a|] eqn:EA; [|discriminate]. destruct (Z.eqb_spec c a) as [->|]; cbn [negb] in E; [|discriminate]. split; [reflexivity|].
  destruct (if sn <? 0 then _ else _) as [x s1|] eqn:E1; cbn [bind] in E; [|discriminate]. injection E as _ <-. cbn [emit s_services s_out].
  assert (KS : forall x0 y z w, s_services (addReward x0 y z w) = s_services x0) by (intros; unfold addReward; destruct (0 <? _); reflexivity).
  assert (H1 : s_services s1 = s_services s /\ exists new, s_out s1 = s_out s ++ new /\ Forall (sent_as svc) new).
  { destruct (sn <? 0).
    - destruct (reply_val _ _ _ _ _ _ _ _ _ _ _ _ E1) as (i & next & s2 & _ & _ & ES & -> & _). destruct (sendTo_val _ _ _ _ _ _ ES) as (l & nid & _ & -> & _). rewrite event_eq. cbn [emit s_services s_out putLink set_links]. unfold collectNet.
      rewrite KS, (proj1 (proj2 (proj2 (proj2 (proj2 (addReward_keeps _ _ _ _)))))). split; [reflexivity|]. cbn [set_resp s_out]. eexists. rewrite <- !app_assoc. split; [reflexivity|]. repeat constructor.
    - destruct (send_val _ _ _ _ _ _ _ _ _ _ _ _ E1) as (next & s2 & _ & _ & ES & -> & _). destruct (sendTo_val _ _ _ _ _ _ ES) as (l & nid & _ & -> & _). rewrite event_eq. cbn [emit s_services s_out putLink set_links]. unfold collectNet.
      rewrite KS, (proj1 (proj2 (proj2 (proj2 (proj2 (addReward_keeps _ _ _ _)))))). split; [reflexivity|]. cbn [nextNetworkSn set_nsn s_out]. eexists. rewrite <- !app_assoc. split; [reflexivity|]. repeat constructor. }
  destruct H1 as (HS & new & HO & HF). split; [exact HS|]. exists (new ++ [OPaid v]). rewrite HO, app_assoc. split; [reflexivity|]. apply Forall_app. split; [exact HF|repeat constructor].
Qed.
Theorem C58_only_the_service_sends : forall s c to svc sn p v u s', exec s (SendMessage c to svc sn p v) = Val u s' ->
  aget Z.eqb svc (s_services s) = Some c /\ exists new, s_out s' = s_out s ++ new /\ Forall (sent_as svc) new.
Proof.
  intros s c to svc sn p v u s' E. cbn [M_JBmc.exec] in E. destruct (sendMessage _ _ _ _ _ _ _ _ _ _) as [x s1|] eqn:E1; cbn [bind] in E; [|discriminate]. injection E as _ <-.
  destruct (sends_as _ _ _ _ _ _ _ _ _ E1) as (H1 & _ & H2). auto.
Qed.
(** Also while a message is handled: the contract called sends only for services it is registered for. *)
Theorem C58_only_own_services_called : forall cs s a u s', run_calls own self chain_ok s a cs = Val u s' ->
  exists new, s_out s' = s_out s ++ new /\ Forall (fun o => match o with OSent _ _ _ m => m_src m = own /\ aget Z.eqb (m_svc m) (s_services s) = Some a | _ => True end) new.
Proof.
  assert (HG : forall cs s a u s', run_calls own self chain_ok s a cs = Val u s' -> s_services s' = s_services s /\
    exists new, s_out s' = s_out s ++ new /\ Forall (fun o => match o with OSent _ _ _ m => m_src m = own /\ aget Z.eqb (m_svc m) (s_services s) = Some a | _ => True end) new).
  { induction cs as [|c cs IH]; intros s a u s' E; cbn [run_calls] in E; [injection E as _ <-; split; [reflexivity|]; exists []; rewrite app_nil_r; split; [reflexivity|constructor]|].
    destruct (sendMessage own self chain_ok s a (c_to c) (c_svc c) (c_sn c) (c_pay c) (c_value c)) as [r s1|] eqn:E1; [|destruct (c_catch c); [eapply IH, E|discriminate]].
    destruct (sends_as _ _ _ _ _ _ _ _ _ E1) as (H1 & H2 & n1 & H3 & H4). destruct (IH _ _ _ _ E) as (H5 & n2 & H6 & H7). rewrite H2 in *. split; [exact H5|]. exists (n1 ++ n2). rewrite H6, H3, app_assoc. split; [reflexivity|].
    apply Forall_app. split; [|exact H7]. eapply Forall_impl; [|exact H4]. intros [] X; auto. destruct X as [-> X]. auto. }
  intros cs s a u s' E. apply (HG cs s a u s' E).
Qed.

(** FINDING.  Removing a link takes only half of its relays away, the later half.  If the link is added again, the
    others may deliver to it. *)
Theorem C58_removed_link_keeps_relays_refuted : forall s c a u s', exec s (RemoveLink c a) = Val u s' -> wf s -> s_relays s' a = firstn (Nat.div2 (length (s_relays s a))) (s_relays s a).
Proof.
  intros s c a u s' E W. cbn [M_JBmc.exec] in E. unfold owner in E. destruct (isOwner deployer s c); [|discriminate]. unfold removeLink in E. destruct (getLink s a) as [l|]; [|discriminate]. cbv zeta in E. destruct (existsb _ (s_routes s)); [discriminate|].
  destruct (grow_propagate _ _ _ _ _ _ _ E) as (new & G & _).
  match type of G with grow ?x _ _ => assert (W2 : wf x) end.
  { pose proof (evolve_delLink s (a_net a) W) as (W1 & _). eapply (evolve_same (fun _ => True)); [..|exact W1]; cbn [set_fees set_relays]; destruct (s_netids _ a); reflexivity. }
  destruct (G W2) as (_ & _ & (_ & _ & _ & _ & ER & _) & _). rewrite ER. cbn [set_fees set_relays s_relays]. replace (length (s_relays s a)) with (length (s_relays s a) + 0)%nat at 1 by lia. rewrite <- (clear_relays_half (length (s_relays s a))) by lia.
  destruct (s_netids _ a); cbn [set_btp set_relays s_relays set_links]; rewrite (proj2 (addr_eq a a) eq_refl); reflexivity.
Qed.
(** FINDING.  A response is not compared with the network the claim went to: a message of any network fails the claim,
    and the reward can be claimed again although the first claim may be paid. *)
Theorem C58_any_network_settles_refuted : forall s prev seq src k q code, aget Z.eqb k (s_requests s) = Some q -> code <> CODE_SUCCESS -> 0 < q_amount q ->
  let m := Msg src own INTERNAL 0 (PResponse code) (- k) None in let s' := dispatch s prev seq m in
  getReward s' (q_dst q) (q_caller q) = getReward s (q_dst q) (q_caller q) + q_amount q /\ s_requests s' = adel Z.eqb k (s_requests s).
Proof.
  intros s prev seq src k q code EQ NC HA m s'. unfold s', m, M_JBmc.dispatch. cbn [m_dst]. rewrite Z.eqb_refl. rewrite handle_eq. cbn [m_sn m_fee stored_state m_pay m_nsn m_src m_svc]. change (0 <=? 0) with true. cbv iota. unfold deliver. cbn [m_svc m_pay m_src m_nsn]. change (INTERNAL =? INTERNAL) with true. cbv iota.
  unfold internalMessage, handleResponse. rewrite Z.opp_involutive. unfold stored_state. cbn [m_fee]. rewrite EQ. cbv zeta. rewrite (proj2 (Z.eqb_neq _ _) NC). cbn [bind]. rewrite event_eq. unfold addReward. replace (0 <? q_amount q) with true by lia.
  split; [|reflexivity]. unfold getReward at 1. cbn [emit s_rewards set_rewards set_requests]. rewrite (aput_same _ zz_key). unfold getReward. cbn [set_requests s_rewards]. lia.
Qed.
(** FINDING.  A message for the message center itself cannot be dropped by an owner. *)
Theorem C58_own_messages_not_droppable_refuted : forall ops c src seq sn nsn f, exists e s', exec (run ops) (DropMessage c src seq INTERNAL sn nsn f) = Exn e s'.
Proof.
  intros ops c src seq sn nsn f. pose proof (io_services _ _ _ (C58_in_order ops)) as HS. generalize dependent (run ops). intros s HS. cbn [M_JBmc.exec]. unfold owner. destruct (isOwner deployer s c); [|eauto]. unfold dropMessage.
  destruct (resolveNext s src) as [prev|]; [|eauto]. destruct (getLinkNet s (a_net prev)) as [l|]; [|eauto]. destruct (negb _); [eauto|]. unfold ahas. rewrite HS. cbn [negb]. eauto.
Qed.
(** FINDING.  Giving a link another network id does not free the one it had: no link can get that again. *)
Theorem C58_old_network_id_kept_refuted : forall s c a nid u s' old off c2 b, exec s (SetBTPLink c a nid) = Val u s' -> s_netids s a = Some old -> s_offsets s old = Some off -> old <> nid ->
  s_netids s' a = Some nid /\ exists e s2, exec s' (AddBTPLink c2 b old) = Exn e s2.
Proof.
  intros s c a nid u s' old off c2 b E EN EO NE. cbn [M_JBmc.exec] in *. unfold owner in *. destruct (isOwner deployer s c); [|discriminate]. destruct (getLink s a) as [l|]; [|discriminate]. unfold setBTPLink in E. destruct (nid <? 1); [discriminate|]. destruct (s_offsets s nid) eqn:EX; [discriminate|].
  injection E as _ <-. split; [cbn [set_btp s_netids]; rewrite (proj2 (addr_eq a a) eq_refl); reflexivity|]. destruct (isOwner deployer _ c2); [|eauto]. unfold setBTPLink. destruct (old <? 1); [cbn [bind]; eauto|]. cbn [set_btp s_offsets]. rewrite (proj2 (Z.eqb_neq _ _) NE), EO. cbn [bind]. eauto.
Qed.
End BMC.
Print Assumptions C58_only_owners_administer.
Print Assumptions C58_owners_needed.
Print Assumptions C58_in_order.
Print Assumptions C58_removed_exactly.
Print Assumptions C58_owner_removed_exactly.
Print Assumptions C58_rewards_only_claimed.
Print Assumptions C58_claim_pays.
Print Assumptions C58_only_the_service_sends.
Print Assumptions C58_only_own_services_called.
Print Assumptions C58_removed_link_keeps_relays_refuted.
Print Assumptions C58_any_network_settles_refuted.
Print Assumptions C58_own_messages_not_droppable_refuted.
Print Assumptions C58_old_network_id_kept_refuted.

(** Someone who is no owner changes nothing; an owner's removed link still knows one of its two relays. *)
Example C58_ex : let s := demo (setup ++ [AddRelay 200 peer 51; AddOwner 200 201; AddOwner 77 78]) in
  s_owners s = [201] /\ ~ may_administer 200 s 77 /\ s_relays s peer = [50; 51] /\
  s_relays (demo (setup ++ [AddRelay 200 peer 51; RemoveLink 200 peer; AddLink 200 peer])) peer = [50] /\
  s_relays (demo (setup ++ [AddRelay 200 peer 51; RemoveRelay 200 peer 50])) peer = [51].
Proof. vm_compute. repeat split. intros [X|[X|[]]]; discriminate. Qed.
Example C58_ex_claim : let ops := setup ++ [HandleRelay 50 peer [1]] in
  getReward (demo ops) 2 50 = 10 /\ match demo_exec (demo ops) (ClaimReward 50 2 (Some 9) 0) with Val _ s' => getReward s' 2 50 = 0 /\ aget Z.eqb 2 (s_requests s') = Some (Request 2 10 50) | _ => False end.
Proof. vm_compute. auto. Qed.
