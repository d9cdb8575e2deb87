(** Lemmas about many message centers: the invariant of the whole. *)
From Coq Require Import String Ascii ZArith List Bool Lia Permutation.
From Coq Require Import ZifyBool.
From Verif Require Import Base L_Base M_JMap L_JMap L_JSum M_JBmc S_JBmc L_JBmc T_JBmc T_JBmc2 X_JBmc T_JBmc3 L_NetW M_Net S_Net L_Net L_Net2.
Import ListNotations.
Open Scope Z_scope.

Lemma put_same : forall {A} (f : Z -> A) n x, put f n x n = x.
Proof. intros A f n x. unfold put. rewrite Z.eqb_refl. reflexivity. Qed.
Lemma put_other : forall {A} (f : Z -> A) n x k, k <> n -> put f n x k = f k.
Proof. intros A f n x k N. unfold put. replace (k =? n) with false by lia. reflexivity. Qed.
Lemma firstn_step : forall {A} r k (l : list A), firstn r l ++ firstn k (skipn r l) = firstn (r + k) l.
Proof. induction r as [|r IH]; intros k l; [reflexivity|]. destruct l as [|x l]; [cbn; apply firstn_nil|]. cbn [firstn skipn Nat.add app]. f_equal. apply IH. Qed.
Lemma firstn_own : forall {A} k (l : list A), firstn k l = firstn (length (firstn k l)) l.
Proof. intros A k l. rewrite firstn_length. destruct (Nat.le_ge_cases k (length l)); [rewrite Nat.min_l by assumption; reflexivity|]. rewrite Nat.min_r by assumption. rewrite firstn_all, firstn_all2 by assumption. reflexivity. Qed.
Lemma firstn_last : forall {A} r (l : list A) x, nth_error l r = Some x -> firstn r l ++ [x] = firstn (S r) l.
Proof. induction r as [|r IH]; intros [|y l] x E; try discriminate; cbn [nth_error] in E; [injection E as ->; reflexivity|]. cbn [firstn app]. f_equal. apply IH, E. Qed.
Lemma nonneg_each : forall {A} (w : A -> Z) l, (forall x, 0 <= w x) -> wsum w l <= 0 -> forall x, In x l -> w x = 0.
Proof.
  intros A w l HW. induction l as [|y l IH]; intros HS x HI; [destruct HI|]. cbn [wsum fold_right] in HS. assert (H0 : 0 <= wsum w l) by (apply wsum_nonneg; intros z _; apply HW). unfold wsum in H0. pose proof (HW y).
  destruct HI as [->|HI]; [lia|]. apply IH; [unfold wsum; lia|exact HI].
Qed.

Section WORLD.
Context (acc self deployer : Z -> Z) (nets : list Z).
Notation reach := (reach acc self deployer nets).
Notation me := (me acc).
Notation channel := (channel acc).

Definition signw (s : st) : Z := wpot (on_sent (fun m => b2z (negb (signb m)))) (fun x => b2z (r_nsn (snd x) =? 0)) s.
Definition hop (w : world) (p n : Z) : Prop := exists r, got w p n = firstn r (channel w p n) /\ (r <= length (channel w p n))%nat /\
  match aget Z.eqb p (s_links (w_st w n)) with None => r = 0%nat | Some l => l_rx l = Z.of_nat r /\ (l_addr l = me p \/ r = 0%nat) end.
Record good (w : world) : Prop := Good {
  g_wf : forall n, wf (w_st w n);
  g_idle : forall n, ~ In n nets -> w_st w n = init /\ w_in w n = [];
  g_signs : forall n, signw (w_st w n) <= 0;
  g_alien : forall n, wsum (alien n) (s_out (w_st w n)) <= 0;
  g_started : forall n, started (s_out (w_st w n)) = zseq 1 (length (started (s_out (w_st w n)))) /\ s_nsn (w_st w n) = zlen (started (s_out (w_st w n)));
  g_hop : forall p n, hop w p n }.

Lemma signs_sent : forall s a nid seq m, signw s <= 0 -> In (OSent a nid seq m) (s_out s) -> signs m.
Proof using.
  intros s a nid seq m H HI. unfold signw, wpot in H. assert (H2 : 0 <= wsum (fun x : (Z * Z * Z) * rinfo => b2z (r_nsn (snd x) =? 0)) (s_resp s)) by (apply wsum_nonneg; intros; apply b2z_range).
  assert (HN : forall o, 0 <= on_sent (fun m => b2z (negb (signb m))) o) by (intros []; cbn [on_sent]; try lia; apply b2z_range).
  assert (H4 : wsum (on_sent (fun m => b2z (negb (signb m)))) (s_out s) <= 0) by lia. pose proof (nonneg_each _ _ HN H4 _ HI) as H3. cbn [on_sent] in H3. apply signb_ok. destruct (signb m); [reflexivity|discriminate H3].
Qed.
Lemma channel_signs : forall w p n m, good w -> In m (channel w p n) -> signs m.
Proof using. intros w p n m G HI. apply sent_msgs_in in HI as (nid & seq & HI). eapply signs_sent; [apply (g_signs _ G p)|exact HI]. Qed.

Lemma taken_sent : forall w n o verify serve chain_ok u s' p m, wf (w_st w n) -> sound acc w n verify -> exec n (self n) (deployer n) verify serve chain_ok (w_st w n) o = Val u s' ->
  In (p, m) (taken acc verify w n o) -> In m (channel w p n).
Proof using.
  intros w n o verify serve chain_ok u s' p m W HV E HI. destruct o; cbn [taken] in HI; try destruct HI.
  - destruct (links_relay _ _ _ _ _ _ _ _ _ _ _ _ W E) as (l & v & ms & EL & EV & EI & _). rewrite EI in HI. apply in_map_iff in HI as (m' & EQ & HI). injection EQ as <- <-.
    destruct (HV _ _ _ _ _ _ EV) as (q & k & -> & EM). cbn [M_Net.me a_net]. assert (ms = firstn k (skipn (Z.to_nat (l_rx l)) (channel w q n))).
    { apply (f_equal (flat_map (fun x => match x with Some m => [m] | None => [] end))) in EM. rewrite !flat_some in EM. exact EM. }
    subst ms. rewrite H in HI. rewrite <- (firstn_skipn (Z.to_nat (l_rx l)) (channel w q n)). apply in_or_app. right. rewrite <- (firstn_skipn k). apply in_or_app. left. exact HI.
  - destruct (resolveNext (w_st w n) src) as [prev|]; [|destruct HI]. destruct (nth_error _ _) as [m'|] eqn:EN; [|destruct HI]. destruct HI as [HI|[]]. injection HI as <- <-. eapply nth_error_In, EN.
Qed.
Lemma incoming_Q : forall w n o verify serve chain_ok u s' (Q : msg -> Prop), wf (w_st w n) -> sound acc w n verify -> rightly acc w n o -> exec n (self n) (deployer n) verify serve chain_ok (w_st w n) o = Val u s' ->
  (forall m m', m_src m' = m_src m -> m_svc m' = m_svc m -> m_sn m' = m_sn m -> m_nsn m' = m_nsn m -> Q m -> Q m') -> (forall p m, In m (channel w p n) -> Q m) ->
  forall m, In m (incoming verify (w_st w n) o) -> Q m.
Proof using.
  intros w n o verify serve chain_ok u s' Q W HV HR E HQ HC m HI. destruct o; try (destruct HI).
  - apply (HC (a_net prev)). eapply taken_sent; [exact W|exact HV|exact E|]. cbn [taken]. apply in_map_iff. exists m. split; [reflexivity|exact HI].
  - subst m. destruct (links_drop _ _ _ _ _ _ _ _ _ _ _ _ _ _ _ _ W E) as (prev & l & ER & EL & EA & ES & _). cbn [rightly] in HR. destruct (HR prev ER) as (p & m & -> & EN & X1 & X2 & X3 & X4).
    apply (HQ m); cbn [m_src m_svc m_sn m_nsn]; try congruence. apply (HC p). eapply nth_error_In, EN.
  - destruct H.
Qed.
(** one call somewhere, counted *)
Lemma step_fair : forall w n o verify serve chain_ok u s' wo wr wi we Q N0, wf (w_st w n) -> sound acc w n verify -> rightly acc w n o -> exec n (self n) (deployer n) verify serve chain_ok (w_st w n) o = Val u s' ->
  fair n wo wr wi we Q N0 -> N0 <= s_nsn (w_st w n) -> (forall p m, In m (channel w p n) -> Q m) ->
  wpot wo wr s' <= wpot wo wr (w_st w n) + wsum (fun x => wi (snd x)) (taken acc verify w n o).
Proof using.
  intros w n o verify serve chain_ok u s' wo wr wi we Q N0 W HV HR E F HN HC.
  pose proof (exec_fair _ _ _ _ _ _ _ _ _ _ _ _ _ _ _ _ F W HN (incoming_Q _ _ _ _ _ _ _ _ Q W HV HR E (fr_Q _ _ _ _ _ _ _ F) HC) E) as HX.
  eapply Z.le_trans; [exact HX|]. apply Z.add_le_mono_l. destruct o; cbn [allowance taken]; try (cbn [wsum fold_right]; lia).
  - generalize (incoming verify (w_st w n) (HandleRelay caller prev bytes)). intros l. induction l as [|x l IH]; cbn [map wsum fold_right snd]; [lia|]. unfold wsum in IH. lia.
  - destruct (links_drop _ _ _ _ _ _ _ _ _ _ _ _ _ _ _ _ W E) as (prev & l & ER & EL & EA & ES & _). cbn [rightly] in HR. destruct (HR prev ER) as (p & m & -> & EN & X1 & X2 & X3 & X4).
    rewrite ER. cbn [M_Net.me a_net]. rewrite EN. cbn [wsum fold_right snd]. destruct (Z.ltb_spec 0 sn); [|pose proof (fr_wi _ _ _ _ _ _ _ F m); lia].
    pose proof (fr_we _ _ _ _ _ _ _ F m (Msg src NO_NET svc sn (PBytes []) nsn f)) as H1. cbn [m_src m_svc m_sn m_nsn] in H1. specialize (H1 (eq_sym X1) (eq_sym X2) (eq_sym X3) (eq_sym X4) ltac:(lia) (HC p m (nth_error_In _ _ EN))). lia.
Qed.

Lemma wsum_nonpos : forall {A} (w : A -> Z) l, (forall x, In x l -> w x <= 0) -> wsum w l <= 0.
Proof using. intros A w l H. induction l as [|x l IH]; [cbn [wsum fold_right]; lia|]. cbn [wsum fold_right]. specialize (IH (fun y hy => H y (or_intror hy))). specialize (H x (or_introl eq_refl)). unfold wsum in IH. lia. Qed.
Lemma got_app : forall w n p l, map snd (filter (fun x => fst x =? p) (w_in w n ++ l)) = got w p n ++ map snd (filter (fun x : Z * msg => fst x =? p) l).
Proof using. intros w n p l. unfold got. rewrite filter_app, map_app. reflexivity. Qed.
Lemma filter_from : forall q p (ms : list msg), map snd (filter (fun x => fst x =? p) (map (fun m => (q, m)) ms)) = if q =? p then ms else [].
Proof using.
  intros q p ms. induction ms as [|m ms IH]; cbn [map filter fst]; [destruct (q =? p); reflexivity|]. destruct (q =? p); [cbn [map snd]; f_equal|]; exact IH.
Qed.
Lemma hop_step : forall w n o verify serve chain_ok u s' p, good w -> sound acc w n verify -> rightly acc w n o -> exec n (self n) (deployer n) verify serve chain_ok (w_st w n) o = Val u s' ->
  exists r, got w p n ++ map snd (filter (fun x => fst x =? p) (taken acc verify w n o)) = firstn r (channel w p n) /\ (r <= length (channel w p n))%nat /\
  match aget Z.eqb p (s_links s') with None => r = 0%nat | Some l => l_rx l = Z.of_nat r /\ (l_addr l = me p \/ r = 0%nat) end.
Proof using.
  intros w n o verify serve chain_ok u s' p G HV HR E. pose proof (g_wf _ G n) as W. destruct (g_hop _ G p n) as (r & E1 & E2 & E3).
  assert (HK : forall l', linkrel (w_st w n) s' (fun _ => 0) -> l' = [] -> exists r0, got w p n ++ l' = firstn r0 (channel w p n) /\ (r0 <= length (channel w p n))%nat /\
    match aget Z.eqb p (s_links s') with None => r0 = 0%nat | Some l => l_rx l = Z.of_nat r0 /\ (l_addr l = me p \/ r0 = 0%nat) end).
  { intros l' HL ->. exists r. rewrite app_nil_r. split; [exact E1|]. split; [exact E2|]. specialize (HL p). cbv beta in HL. destruct (aget Z.eqb p (s_links (w_st w n))) as [l|].
    - destruct HL as (l1 & -> & X1 & X2). destruct E3 as [E3 E4]. rewrite X1. split; [lia|exact E4].
    - destruct (aget Z.eqb p (s_links s')) as [l1|]; [|exact E3]. split; [lia|right; exact E3]. }
  pose proof (links_other _ _ _ _ _ _ _ _ _ _ W E) as HO. destruct o; try (apply HK; [exact HO|reflexivity]).
  - (* relay *)
    clear HO. destruct (links_relay _ _ _ _ _ _ _ _ _ _ _ _ W E) as (l & v & ms & EL & EV & EI & HL). cbn [taken]. rewrite EI, filter_from. destruct (HV _ _ _ _ _ _ EV) as (q & k & EP & EM).
    assert (EMS : ms = firstn k (skipn (Z.to_nat (l_rx l)) (channel w q n))).
    { apply (f_equal (flat_map (fun x => match x with Some m => [m] | None => [] end))) in EM. rewrite !flat_some in EM. exact EM. }
    apply getLink_some in EL as [EL EA]. specialize (HL p). cbv beta in HL. destruct (Z.eqb_spec (a_net prev) p) as [EQ|NQ].
    + rewrite EP in EA, EL, EQ, HL. cbn [M_Net.me a_net] in EA, EL, EQ, HL. subst q. rewrite EL in HL, E3. destruct E3 as [E3 E4]. rewrite Z.eqb_refl in HL. cbv beta iota in HL. destruct HL as (l1 & -> & X1 & X2). rewrite E3, Nat2Z.id in EMS.
      exists (r + length ms)%nat. split; [rewrite E1, <- (firstn_step r (length ms)); f_equal; rewrite EMS; apply firstn_own|]. split.
      * rewrite EMS, firstn_length, skipn_length. lia.
      * split; [unfold zlen in X2; lia|]. left. rewrite X1. exact EA.
    + replace (p =? a_net prev) with false in HL by lia. cbv beta iota in HL. exists r. rewrite app_nil_r. split; [exact E1|]. split; [exact E2|]. destruct (aget Z.eqb p (s_links (w_st w n))) as [l0|].
      * destruct HL as (l1 & -> & X1 & X2). destruct E3 as [E3 E4]. rewrite X1. split; [lia|exact E4].
      * destruct (aget Z.eqb p (s_links s')) as [l1|]; [|exact E3]. split; [lia|right; exact E3].
  - destruct HR.
  - (* drop *)
    clear HO. destruct (links_drop _ _ _ _ _ _ _ _ _ _ _ _ _ _ _ _ W E) as (prev & l & ER & EL & EA & ES & HL). cbn [rightly] in HR. destruct (HR prev ER) as (q & m & -> & EN & X1 & X2 & X3 & X4).
    cbn [taken]. rewrite ER. cbn [M_Net.me a_net] in *. rewrite EN. cbn [filter fst]. specialize (HL p). cbv beta in HL. destruct (Z.eqb_spec q p) as [->|NQ].
    + rewrite EL in HL, E3. rewrite Z.eqb_refl in HL. cbv beta iota in HL. destruct HL as (l1 & -> & Y1 & Y2). destruct E3 as [E3 E4]. subst seq. replace (Z.to_nat (l_rx l + 1 - 1)) with r in EN by lia. cbn [map snd].
      exists (S r). split; [rewrite E1; apply firstn_last, EN|]. split; [apply nth_error_Some; congruence|]. split; [lia|]. left. congruence.
    + replace (p =? q) with false in HL by lia. cbv beta iota in HL. cbn [map]. exists r. rewrite app_nil_r. split; [exact E1|]. split; [exact E2|]. destruct (aget Z.eqb p (s_links (w_st w n))) as [l0|].
      * destruct HL as (l1 & -> & Y1 & Y2). destruct E3 as [E3 E4]. rewrite Y1. split; [lia|exact E4].
      * destruct (aget Z.eqb p (s_links s')) as [l1|]; [|exact E3]. split; [lia|right; exact E3].
Qed.
Lemma chan_grow : forall w n s' inn new p k, s_out s' = s_out (w_st w n) ++ new -> exists more, channel (World (put (w_st w) n s') inn) p k = channel w p k ++ more.
Proof using.
  intros w n s' inn new p k E. unfold M_Net.channel. cbn [w_st]. destruct (Z.eq_dec p n) as [->|N]; [rewrite put_same, E, sent_msgs_app; eexists; reflexivity|]. rewrite put_other by exact N. exists []. rewrite app_nil_r. reflexivity.
Qed.
Lemma good_new : good new_world.
Proof using.
  split; intros; cbn [new_world w_st w_in].
  - apply wf_init.
  - split; reflexivity.
  - apply Z.le_refl.
  - apply Z.le_refl.
  - split; reflexivity.
  - exists 0%nat. split; [reflexivity|]. split; [lia|]. reflexivity.
Qed.
Lemma good_step : forall w w', good w -> wstep acc self deployer nets w w' -> good w'.
Proof using.
  intros w w' G HS. destruct HS as [n o verify serve chain_ok u s' HI HV HR E]. pose proof (g_wf _ G n) as W.
  destruct (evolve_exec _ _ _ _ _ _ _ _ _ _ E) as (new & EV). destruct (EV W) as (W' & EO & _ & EN & ES).
  assert (HSG : forall p m, In m (channel w p n) -> signs m) by (intros p m; apply channel_signs, G).
  split; cbn [w_st w_in].
  - intros k. destruct (Z.eq_dec k n) as [->|N]; [rewrite put_same; exact W'|rewrite put_other by exact N; apply (g_wf _ G)].
  - intros k NI. assert (N : k <> n) by congruence. rewrite !put_other by exact N. apply (g_idle _ G), NI.
  - intros k. destruct (Z.eq_dec k n) as [->|N]; [rewrite put_same|rewrite put_other by exact N; apply (g_signs _ G)].
    pose proof (step_fair _ _ _ _ _ _ _ _ _ _ _ _ _ _ W HV HR E (fair_signs n) (proj1 W) (fun _ _ _ => I)) as H. fold (signw s') in H. fold (signw (w_st w n)) in H. cbv beta in H.
    pose proof (g_signs _ G n). assert (wsum (fun x : Z * msg => b2z (negb (signb (snd x)))) (taken acc verify w n o) <= 0); [|lia].
    apply wsum_nonpos. intros [p m] HX. cbn [snd]. pose proof (HSG p m (taken_sent _ _ _ _ _ _ _ _ _ _ W HV E HX)) as HY. apply signb_ok in HY. rewrite HY. cbn [negb b2z]. lia.
  - intros k. destruct (Z.eq_dec k n) as [->|N]; [rewrite put_same|rewrite put_other by exact N; apply (g_alien _ G)].
    pose proof (step_fair _ _ _ _ _ _ _ _ _ _ _ _ _ _ W HV HR E (fair_alien n) (proj1 W) (fun _ _ _ => I)) as H. unfold wpot in H. pose proof (g_alien _ G n) as HA.
    rewrite !(wsum_zero (fun _ => 0)) in H by reflexivity. lia.
  - intros k. destruct (Z.eq_dec k n) as [->|N]; [rewrite put_same|rewrite put_other by exact N; apply (g_started _ G)].
    destruct (g_started _ G n) as [S1 S2]. rewrite EO, started_app, app_length. unfold zlen in *. rewrite app_length. split; [|lia].
    rewrite zseq_app, <- S1. f_equal. rewrite ES at 1. f_equal. lia.
  - intros p k. unfold hop. destruct (chan_grow w n s' (put (w_in w) n (w_in w n ++ taken acc verify w n o)) new p k EO) as (more & EC). rewrite EC.
    assert (HF : forall r, (r <= length (channel w p k))%nat -> firstn r (channel w p k ++ more) = firstn r (channel w p k)) by (intros r Hr; rewrite firstn_app; replace (r - length (channel w p k))%nat with 0%nat by lia; cbn [firstn]; apply app_nil_r).
    destruct (Z.eq_dec k n) as [->|N].
    + destruct (hop_step _ _ _ _ _ _ _ _ p G HV HR E) as (r & X1 & X2 & X3). exists r. split; [|split].
      * unfold got. cbn [w_in]. rewrite put_same, got_app, X1. symmetry. apply HF, X2.
      * rewrite app_length. lia.
      * cbn [w_st]. rewrite put_same. exact X3.
    + destruct (g_hop _ G p k) as (r & X1 & X2 & X3). exists r. split; [|split].
      * unfold got in *. cbn [w_in]. rewrite put_other by exact N. rewrite X1. symmetry. apply HF, X2.
      * rewrite app_length. lia.
      * cbn [w_st]. rewrite put_other by exact N. exact X3.
Qed.
Lemma reach_good : forall w, reach w -> good w.
Proof using. intros w H. induction H as [|w w' H IH HS]; [apply good_new|eapply good_step; eassumption]. Qed.
End WORLD.
