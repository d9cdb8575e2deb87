(** Theorems about many message centers: a message from its start to its last copy. *)
From Coq Require Import String Ascii ZArith List Bool Lia Permutation.
From Coq Require Import ZifyBool.
From Verif Require Import Base L_Base M_JMap L_JMap L_JSum M_JBmc S_JBmc L_JBmc T_JBmc T_JBmc2 X_JBmc T_JBmc3 L_NetW M_Net S_Net L_Net L_Net2 L_Net3 L_Net4 L_Net5 X_Net.
Import ListNotations.
Open Scope Z_scope.

Section WORLD.
Context (acc self deployer : Z -> Z) (nets : list Z).
Notation reach := (reach acc self deployer nets).
Notation channel := (channel acc).

(** What a network has taken in from another is what the other has put out for it, in order, from the first message on
    without gaps or repetitions, up to the number the link shows as received. *)
Theorem C87_in_order : forall w, reach w -> forall p n,
  channel w p n = got w p n ++ flying acc w p n /\
  (forall l, aget Z.eqb p (s_links (w_st w n)) = Some l -> l_rx l = zlen (got w p n)) /\
  (aget Z.eqb p (s_links (w_st w n)) = None -> got w p n = []).
Proof using.
  intros w H p n. pose proof (reach_good _ _ _ _ _ H) as G. split; [eapply channel_split, G|].
  destruct (g_hop _ _ _ G p n) as (r & E1 & E2 & E3). assert (EL : length (got w p n) = r) by (rewrite E1, firstn_length; lia).
  destruct (aget Z.eqb p (s_links (w_st w n))) as [l|]; split; try discriminate.
  - intros l' E. injection E as <-. unfold zlen. lia.
  - intros _. rewrite E1, E3. reflexivity.
Qed.

(** Every message any network takes in goes back to one the named network has put out itself, under this number; and all
    messages taken in under one name belong to this one: they are copies of it, or the answer of the service it was for,
    or an error that gives back its numbers. *)
Theorem C87_authentic : forall w, reach w -> forall n p m, In (p, m) (w_in w n) -> let id := msg_id m in
  was_started w id /\
  exists m0 next nid seq, In (OSent next nid seq m0) (s_out (w_st w (fst id))) /\ m_src m0 = fst id /\ m_nsn m0 = snd id /\
    forall n' p' m', In (p', m') (w_in w n') -> msg_id m' = id -> belongs m0 m'.
Proof using.
  intros w H n p m HI id. pose proof (reach_good _ _ _ _ _ H) as G. destruct (origin_in _ _ _ _ _ _ G HI) as [HC _]. pose proof (channel_signs _ _ _ _ _ _ G HC) as HS.
  assert (HID : 0 < snd id). { unfold id. destruct HS as [[X _]|[X _]]; [rewrite (id_fwd m X)|rewrite (id_back m X)]; cbn [snd]; lia. }
  assert (HT : tok id m = 1) by (unfold tok; rewrite (proj2 (carries_spec id m) eq_refl); reflexivity).
  apply sent_in in HC as (b & i & k & HC). destruct (reach_origin acc self deployer nets id HID w H) as [I1 I2].
  assert (NN : ~ none id w) by (intros NO; rewrite (none_out id _ NO _ _ _ _ _ HC) in HT; discriminate HT).
  destruct I2 as [I2|(c & a & i' & k' & X1 & X2 & X3 & X4)]; [contradiction|]. split.
  - assert (LE : snd id <= s_nsn (w_st w (fst id))) by (destruct (Z_le_gt_dec (snd id) (s_nsn (w_st w (fst id)))) as [L|L]; [exact L|exfalso; apply NN, I1; lia]).
    destruct (started_own acc nets id HID w G LE) as [next HN]. exists next. exact HN.
  - rewrite (id_fwd c X2) in X3. exists c, a, i', k'. split; [exact X1|]. split; [rewrite <- X3; reflexivity|]. split; [rewrite <- X3; reflexivity|].
    intros n' p' m' HI' E'. destruct (origin_in _ _ _ _ _ _ G HI') as [HC' _]. apply sent_in in HC' as (b' & i2 & k2 & HC'). pose proof (mean_out id _ _ X4 _ _ _ _ _ HC') as HM. unfold mis in HM.
    rewrite (proj2 (carries_spec id m') E') in HM. apply belongsb_ok. destruct (belongsb c m'); [reflexivity|discriminate HM].
Qed.

Context (ND : NoDup nets).
(** A message is handed at most once to the network it is for; while a copy is under way, not yet; and there is never more
    than one copy under way, however long the route.  Nothing is handed over that was not started. *)
Theorem C87_delivered_once : forall w, reach w -> forall id, 0 < snd id ->
  copies_flying acc nets w id + arrived nets w id <= 1 /\
  (0 < copies_flying acc nets w id + arrived nets w id -> was_started w id).
Proof using ND.
  intros w H id HID. pose proof (reach_good _ _ _ _ _ H) as G.
  assert (HB : copies_flying acc nets w id + arrived nets w id <= wsum (fun n => wsum (sendw id) (s_out (w_st w n))) nets).
  { pose proof (balance acc nets ND id w (ftok id) (fun n => wr_f n id) (fun n m => ftok id m - wi_f n id m) G (fun m => proj1 (b2z_range _))) as B.
    assert (HC : cum (fun _ o => on_sent (ftok id) o - sendw id o) (fun n => wr_f n id) (fun n m => ftok id m - (ftok id m - wi_f n id m)) w).
    { intros n. eapply Z.le_trans; [apply (cum_reach acc self deployer nets _ _ (fun n => wi_f n id) _ w (fun n => fair_fwd n id) H n)|]. apply wsum_le. intros; lia. }
    specialize (B HC). cbv beta in B. assert (W0 : 0 <= wsum (fun n => wsum (wr_f n id) (s_resp (w_st w n))) nets) by (apply wsum_nonneg; intros; apply wsum_nonneg; intros; apply b2z_range).
    assert (E1 : copies_flying acc nets w id = wsum (fun p => wsum (fun n => wsum (ftok id) (flying acc w p n)) nets) nets).
    { unfold copies_flying. rewrite total_wsum. apply wsum_ext. intros p _. rewrite total_wsum. apply wsum_ext. intros n _. apply count_wsum. }
    assert (E2 : arrived nets w id <= wsum (fun n => wsum (fun x => ftok id (snd x) - wi_f n id (snd x)) (w_in w n)) nets).
    { unfold arrived. rewrite total_wsum. apply wsum_le. intros n _. rewrite count_wsum. apply wsum_le. intros [p m] _. cbn [snd]. unfold wi_f, ftok. rewrite (Z.eqb_sym n). destruct (m_dst m =? n); [rewrite andb_true_r; lia|rewrite andb_false_r; cbn [b2z]; lia]. }
    lia. }
  pose proof (starts_total acc nets ND id HID w G). split; [lia|]. intros HP. destruct (started_spec acc nets ND id HID w G) as [L|S]; [lia|exact S].
Qed.

(** A request has at most one answer: among the copies of the request under way, the promise of a network to answer, the
    answer or error under way and the one handed to the network that asked, there is at most one at any time. *)
Theorem C87_answered_once : forall w, reach w -> forall id, 0 < snd id ->
  all_flying acc nets w id + owing nets w id + answered nets w id <= 1 /\
  (0 < all_flying acc nets w id + owing nets w id + answered nets w id -> was_started w id).
Proof using ND.
  intros w H id HID. pose proof (reach_good _ _ _ _ _ H) as G.
  assert (HB : all_flying acc nets w id + owing nets w id + answered nets w id <= wsum (fun n => wsum (sendw id) (s_out (w_st w n))) nets).
  { pose proof (balance acc nets ND id w (tok id) (fun n => wid n id) (fun n m => tok id m - wi_all n id m) G (tok_nonneg id)) as B.
    assert (HC : cum (fun _ o => on_sent (tok id) o - sendw id o) (fun n => wid n id) (fun n m => tok id m - (tok id m - wi_all n id m)) w).
    { intros n. eapply Z.le_trans; [apply (cum_reach acc self deployer nets _ _ (fun n => wi_all n id) _ w (fun n => fair_all n id HID) H n)|]. apply wsum_le. intros; lia. }
    specialize (B HC). cbv beta in B.
    assert (E1 : all_flying acc nets w id = wsum (fun p => wsum (fun n => wsum (tok id) (flying acc w p n)) nets) nets).
    { unfold all_flying. rewrite total_wsum. apply wsum_ext. intros p _. rewrite total_wsum. apply wsum_ext. intros n _. apply count_wsum. }
    assert (E2 : owing nets w id <= wsum (fun n => wsum (wid n id) (s_resp (w_st w n))) nets).
    { unfold owing. rewrite total_wsum. apply wsum_le. intros n _. rewrite count_wsum. apply wsum_le. intros [[[to svc] sn] i] _. unfold wid, id_of. cbn [fst snd].
      destruct (zz_eqb (to, r_nsn i) id) eqn:EZ; cbn [b2z]; [|match goal with |- 0 <= (if ?b then _ else _) => destruct b; lia end]. assert (0 < r_nsn i) by (rewrite zz_split in EZ; cbn [fst snd] in EZ; lia). replace (r_nsn i <? 0) with false by lia. rewrite ?EZ. lia. }
    assert (E3 : answered nets w id <= wsum (fun n => wsum (fun x => tok id (snd x) - wi_all n id (snd x)) (w_in w n)) nets).
    { unfold answered. rewrite total_wsum. apply wsum_le. intros n _. rewrite count_wsum. apply wsum_le. intros [p m] HX. cbn [snd]. unfold wi_all. rewrite (Z.eqb_sym n). destruct (m_dst m =? n); [|rewrite andb_false_r; cbn [b2z andb]; lia].
      rewrite andb_true_r. cbn [andb]. destruct (origin_in _ _ _ _ _ _ G HX) as [HCH _]. pose proof (channel_signs _ _ _ _ _ _ G HCH) as HS. unfold forward.
      destruct HS as [[X _]|[X _]]; [replace (0 <? m_nsn m) with true by lia; replace (m_nsn m <? 0) with false by lia; cbn [negb andb b2z]; apply Z.eq_le_incl; symmetry; apply Z.sub_diag|replace (0 <? m_nsn m) with false by lia; replace (m_nsn m <? 0) with true by lia; cbn [negb andb]; unfold tok; rewrite Z.sub_0_r; apply Z.le_refl]. }
    lia. }
  pose proof (starts_total acc nets ND id HID w G). split; [lia|]. intros HP. destruct (started_spec acc nets ND id HID w G) as [L|S]; [lia|exact S].
Qed.
End WORLD.
Print Assumptions C87_in_order.
Print Assumptions C87_authentic.
Print Assumptions C87_delivered_once.
Print Assumptions C87_answered_once.

(** The three networks of X_Net.v. *)
Lemma all_there_sound : forall w n, sound xacc w n (all_there w n).
Proof.
  intros w n i v prev rx b oms H. unfold all_there in H. destruct (addr_eqb prev _) eqn:E; [|discriminate]. injection H as <-. apply addr_key in E.
  exists (a_net prev), (length (skipn (Z.to_nat rx) (channel xacc w (a_net prev) n))). split; [exact E|]. rewrite firstn_all. reflexivity.
Qed.
Lemma xstep_reach : forall w x, reach xacc xacc xowner xnets w -> reach xacc xacc xowner xnets (xstep w x).
Proof.
  intros w [n o] H. unfold xstep. destruct (existsb (Z.eqb n) xnets && admin_only o) eqn:E; [|exact H]. apply andb_prop in E as [E1 E2]. apply existsb_exists in E1 as (k & K1 & K2). apply Z.eqb_eq in K2. subst k.
  destruct (exec n (xacc n) (xowner n) (all_there w n) xserve xok (w_st w n) o) as [u s'|] eqn:EX; [|exact H].
  eapply rc_step; [exact H|]. eapply ws; [exact K1|apply all_there_sound| |exact EX]. destruct o; cbn [admin_only] in E2; try discriminate; exact I.
Qed.
Lemma xrun_reach : forall l w, reach xacc xacc xowner xnets w -> reach xacc xacc xowner xnets (fold_left xstep l w).
Proof. induction l as [|x l IH]; intros w H; [exact H|]. cbn [fold_left]. apply IH, xstep_reach, H. Qed.
(** The request of network 1 passes network 2, reaches network 3, and the answer comes back; at each point there is
    exactly one of: request under way, answer owed, answer under way, answer there. *)
Example C87_ex : reach xacc xacc xowner xnets xback /\
  map (fun w => (copies_flying xacc xnets w (1, 2), arrived xnets w (1, 2), all_flying xacc xnets w (1, 2), owing xnets w (1, 2), answered xnets w (1, 2)))
    [xasked; xstep xasked (relay 2 1); xtwo; xstep xtwo (relay 2 3); xback]
  = [(1, 0, 1, 0, 0); (1, 0, 1, 0, 0); (0, 1, 1, 0, 0); (0, 1, 1, 0, 0); (0, 1, 0, 0, 1)].
Proof. split; [repeat apply xrun_reach; apply rc_new|vm_compute; reflexivity]. Qed.
(** With owners who may do anything this fails: a link that is removed and added again starts with number 0, and what
    was handed over is handed over again; an owner who gives other numbers for the message they drop makes a second
    answer to a request that has been answered. *)
Theorem C87_link_added_again_refuted : ~ (forall l id, 0 < snd id -> arrived xnets (yrun l) id <= 1).
Proof. intros H. specialize (H (yasked ++ yagain) (1, 2) eq_refl). revert H. replace (arrived xnets (yrun (yasked ++ yagain)) (1, 2)) with 2 by (vm_compute; reflexivity). lia. Qed.
Print Assumptions C87_link_added_again_refuted.
Theorem C87_wrong_drop_refuted : ~ (forall l id, 0 < snd id -> answered xnets (yrun l) id <= 1).
Proof. intros H. specialize (H (yasked ++ ydrop) (1, 2) eq_refl). revert H. replace (answered xnets (yrun (yasked ++ ydrop)) (1, 2)) with 2 by (vm_compute; reflexivity). lia. Qed.
Print Assumptions C87_wrong_drop_refuted.
