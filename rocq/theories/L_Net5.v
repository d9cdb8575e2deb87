(** Lemmas about many message centers: what a message with a given name says. *)
From Coq Require Import String Ascii ZArith List Bool Lia Permutation.
From Coq Require Import ZifyBool.
From Verif Require Import Base L_Base M_JMap L_JMap L_JSum M_JBmc S_JBmc L_JBmc T_JBmc T_JBmc2 X_JBmc T_JBmc3 L_NetW M_Net S_Net L_Net L_Net2 L_Net3 L_Net4.
Import ListNotations.
Open Scope Z_scope.

Lemma wsum_neg : forall {A} (f : A -> Z) l, (forall x, 0 <= f x) -> wsum f l <= 0 -> forall x, In x l -> f x = 0.
Proof. intros A f l H1 H2 x HI. apply (nonneg_each f l); assumption. Qed.
Lemma belongsb_self : forall m, 0 < m_nsn m -> belongsb m m = true.
Proof. intros m H. apply belongsb_ok. left. repeat split. exact H. Qed.
Lemma sent_in : forall a os m, In m (sent_msgs a os) -> exists b i k, In (OSent b i k m) os.
Proof.
  intros a os m. induction os as [|o os IH]; [intros []|]. intros H. assert (HR : In m (sent_msgs a os) -> exists b i k, In (OSent b i k m) (o :: os)) by (intros H'; destruct (IH H') as (b & i & k & HB); exists b, i, k; right; exact HB).
  destruct o; cbn [sent_msgs] in H; try (apply HR, H). destruct (addr_eqb a next); [|apply HR, H]. destruct H as [->|H]; [|apply HR, H]. eexists _, _, _. left. reflexivity.
Qed.

Section WORLD.
Context (acc self deployer : Z -> Z) (nets : list Z).
Notation reach := (reach acc self deployer nets).
Notation channel := (channel acc).
Notation good := (good acc nets).
Context (id : Z * Z) (HID : 0 < snd id).

Definition pres (w : world) (n : Z) : Z := wpot (on_sent (tok id)) (wid n id) (w_st w n).
Definition none (w : world) : Prop := forall n, pres w n <= 0.
Definition mean (c : msg) (w : world) : Prop := forall n, wpot (on_sent (mis id c)) (wr_mis n id c) (w_st w n) <= 0.
Definition origin (w : world) : Prop :=
  (s_nsn (w_st w (fst id)) < snd id -> none w) /\
  (none w \/ exists c a i k, In (OSent a i k c) (s_out (w_st w (fst id))) /\ 0 < m_nsn c /\ msg_id c = id /\ mean c w).

Lemma on_nonneg : forall f, (forall m, 0 <= f m) -> forall o, 0 <= on_sent f o.
Proof using. intros f H [| | | | | |]; cbn [on_sent]; try lia. apply H. Qed.
Lemma wid_nonneg : forall n x, 0 <= wid n id x.
Proof using. intros. unfold wid. destruct (zz_eqb _ _); lia. Qed.
Lemma mis_nonneg : forall c m, 0 <= mis id c m.
Proof using. intros. apply b2z_range. Qed.
Lemma wr_mis_nonneg : forall n c x, 0 <= wr_mis n id c x.
Proof using. intros. unfold wr_mis. apply b2z_range. Qed.
Lemma mis_tok : forall c m, mis id c m <= tok id m.
Proof using. intros. apply mis_le. intros H. apply andb_prop in H. apply H. Qed.
Lemma pot_parts : forall (n : Z) f (wr : Z -> (Z * Z * Z) * rinfo -> Z) s, (forall m, 0 <= f m) -> (forall x, 0 <= wr n x) -> wpot (on_sent f) (wr n) s <= 0 -> wsum (on_sent f) (s_out s) = 0 /\ wsum (wr n) (s_resp s) = 0.
Proof using.
  intros n f wr s H1 H2 H. unfold wpot in H. assert (0 <= wsum (on_sent f) (s_out s)) by (apply wsum_nonneg; intros; apply on_nonneg, H1). assert (0 <= wsum (wr n) (s_resp s)) by (apply wsum_nonneg; intros; apply H2). lia.
Qed.
Lemma none_out : forall w, none w -> forall n a i k m, In (OSent a i k m) (s_out (w_st w n)) -> tok id m = 0.
Proof using.
  intros w H n a i k m HI. destruct (pot_parts n (tok id) (fun n => wid n id) _ (tok_nonneg id) (wid_nonneg n) (H n)) as [E _].
  apply (wsum_neg (on_sent (tok id)) _ (on_nonneg _ (tok_nonneg id))) with (x := OSent a i k m) in HI; [exact HI|lia].
Qed.
Lemma mean_out : forall c w, mean c w -> forall n a i k m, In (OSent a i k m) (s_out (w_st w n)) -> mis id c m = 0.
Proof using.
  intros c w H n a i k m HI. destruct (pot_parts n (mis id c) (fun n => wr_mis n id c) _ (mis_nonneg c) (wr_mis_nonneg n c) (H n)) as [E _].
  apply (wsum_neg (on_sent (mis id c)) _ (on_nonneg _ (mis_nonneg c))) with (x := OSent a i k m) in HI; [exact HI|lia].
Qed.

Lemma origin_new : origin new_world.
Proof using. assert (H : none new_world) by (intros n; apply Z.le_refl). split; [intros _; exact H|left; exact H]. Qed.
Lemma wr_mis_wid : forall n c x, wr_mis n id c x <= wid n id x.
Proof using. intros n c x. unfold wr_mis, wid. destruct (zz_eqb _ _); cbn [andb]; [apply b2z_range|cbn [b2z]; lia]. Qed.
(** where nothing of the name is, nothing contradicts *)
Lemma mean_of_none : forall c w n, pres w n <= 0 -> wpot (on_sent (mis id c)) (wr_mis n id c) (w_st w n) <= 0.
Proof using.
  intros c w n H. eapply Z.le_trans; [|exact H]. unfold pres, wpot. apply Z.add_le_mono; apply wsum_le; intros x _; [|apply wr_mis_wid]. destruct x; cbn [on_sent]; try lia. apply mis_tok.
Qed.
(** the only message of the name says what it says *)
Lemma mean_of_one : forall c a i k s n, In (OSent a i k c) (s_out s) -> 0 < m_nsn c -> msg_id c = id -> wsum (on_sent (tok id)) (s_out s) <= 1 -> wsum (wid n id) (s_resp s) <= 0 ->
  wpot (on_sent (mis id c)) (wr_mis n id c) s <= 0.
Proof using.
  intros c a i k s n HI HP HC H1 H2. unfold wpot. assert (HW : wsum (wr_mis n id c) (s_resp s) <= 0) by (eapply Z.le_trans; [apply wsum_le; intros x _; apply wr_mis_wid|exact H2]).
  assert (HT : tok id c = 1) by (unfold tok; replace (carries id c) with true; [reflexivity|symmetry; apply carries_spec, HC]).
  assert (HM : mis id c c = 0) by (unfold mis; rewrite (belongsb_self c HP), andb_false_r; reflexivity).
  apply in_split in HI as (l1 & l2 & E). rewrite E in H1 |- *. rewrite wsum_app, wsum_cons in H1. rewrite wsum_app, wsum_cons. cbn [on_sent] in H1 |- *.
  assert (HL : forall l, wsum (on_sent (mis id c)) l <= wsum (on_sent (tok id)) l) by (intros l; apply wsum_le; intros x _; destruct x; cbn [on_sent]; try lia; apply mis_tok).
  assert (HN : forall l, 0 <= wsum (on_sent (tok id)) l) by (intros l; apply wsum_nonneg; intros; apply on_nonneg, tok_nonneg).
  pose proof (HL l1). pose proof (HL l2). pose proof (HN l1). pose proof (HN l2). lia.
Qed.
Lemma origin_step : forall w w', good w -> good w' -> origin w -> wstep acc self deployer nets w w' -> origin w'.
Proof using HID.
  intros w w' G G' [I1 I2] HS. destruct HS as [n o verify serve chain_ok u s' HI HV HR E].
  assert (STEP : forall wo wr wi we N0, fair n wo wr wi we signs N0 -> N0 <= s_nsn (w_st w n) -> (forall p m, In m (channel w p n) -> wi m <= 0) -> wpot wo wr s' <= wpot wo wr (w_st w n)).
  { intros wo wr wi we N0 F HN HW. pose proof (step_fair _ _ _ _ _ _ _ _ _ _ _ _ _ _ _ _ _ (g_wf _ _ _ G n) HV HR E F HN (fun p m => channel_signs _ _ _ _ _ _ G)) as H.
    assert (wsum (fun x => wi (snd x)) (taken acc verify w n o) <= 0); [|lia]. apply wsum_nonpos. intros [p m] HX. apply (HW p). eapply taken_sent; [apply (g_wf _ _ _ G n)|exact HV|exact E|exact HX]. }
  destruct (evolve_exec _ _ _ _ _ _ _ _ _ _ E) as (new & EV). destruct (EV (g_wf _ _ _ G n)) as (_ & EO & _ & EN0 & _).
  assert (NS : s_nsn (w_st w n) <= s_nsn s') by (unfold zlen in EN0; lia).
  assert (NX : s_nsn (w_st w (fst id)) <= s_nsn (put (w_st w) n s' (fst id))) by (destruct (Z.eq_dec (fst id) n) as [->|N]; [rewrite put_same; exact NS|rewrite put_other by exact N; lia]).
  destruct I2 as [I2|(c & a & i & k & HC & HP & HM & HME)].
  - assert (HT : forall p m, In m (channel w p n) -> tok id m <= 0). { intros p m HX. apply sent_in in HX as (b & i & k & HX). rewrite (none_out _ I2 _ _ _ _ _ HX). lia. }
    destruct (Z.eq_dec (fst id) n) as [EN|N].
    + pose proof (starts_own acc nets id HID _ G') as [S1 S2]. cbn [w_st] in S1, S2. rewrite EN, put_same in S1, S2.
      assert (W1 : wpot (on_sent (tok id)) (wid n id) s' <= wsum (sendw id) (s_out s')).
      { pose proof (STEP _ _ _ _ _ (fair_all n id HID) (proj1 (g_wf _ _ _ G n))) as H. unfold wpot in H |- *. rewrite !wsum_sub in H.
        destruct (pot_parts n (tok id) (fun n => wid n id) _ (tok_nonneg id) (wid_nonneg n) (I2 n)) as [P1 P2].
        assert (0 <= wsum (sendw id) (s_out (w_st w n))) by (apply wsum_nonneg; intros; apply sendw_nonneg).
        assert (forall p m, In m (channel w p n) -> wi_all n id m <= 0) as HW by (intros p m HX; unfold wi_all; destruct (_ && _); [lia|apply (HT p m HX)]). specialize (H HW). lia. }
      assert (NO : wsum (sendw id) (s_out s') <= 0 -> none (World (put (w_st w) n s') (put (w_in w) n (w_in w n ++ taken acc verify w n o)))).
      { intros H j. unfold pres. cbn [w_st]. destruct (Z.eq_dec j n) as [->|NJ]; [rewrite put_same; lia|rewrite put_other by exact NJ; apply I2]. }
      split; [cbn [w_st]; rewrite EN, put_same; intros H; apply NO; rewrite (S2 H); lia|].
      destruct (Z_le_gt_dec (wpot (on_sent (tok id)) (wid n id) s') 0) as [L|L].
      { left. intros j. unfold pres. cbn [w_st]. destruct (Z.eq_dec j n) as [->|NJ]; [rewrite put_same; lia|rewrite put_other by exact NJ; apply I2]. }
      right. pose proof (STEP _ _ _ _ _ (fair_back n id HID) (proj1 (g_wf _ _ _ G n)) HT) as HB.
      assert (B0 : wpot (on_sent (btok id)) (wid n id) s' <= 0).
      { eapply Z.le_trans; [exact HB|]. eapply Z.le_trans; [|exact (I2 n)]. unfold pres, wpot. apply Z.add_le_mono_r, wsum_le. intros x _. destruct x; cbn [on_sent]; try lia. unfold btok, tok. apply mis_le. intros H. apply andb_prop in H. apply H. }
      assert (BN : forall m, 0 <= btok id m) by (intros; apply b2z_range).
      destruct (pot_parts n (btok id) (fun n => wid n id) _ BN (wid_nonneg n) B0) as [B1 B2]. unfold wpot in L, W1. rewrite B2 in L, W1.
      assert (EX : exists x, In x (s_out s') /\ 0 < on_sent (tok id) x).
      { clear - L. induction (s_out s') as [|x l IH]; [cbn in L; lia|]. rewrite wsum_cons in L. destruct (Z_lt_le_dec 0 (on_sent (tok id) x)) as [P|P]; [exists x; split; [left; reflexivity|exact P]|]. destruct IH as (y & Y1 & Y2); [lia|]. exists y. split; [right; exact Y1|exact Y2]. }
      destruct EX as (x & X1 & X2). destruct x as [b i k c | | | | | |]; cbn [on_sent] in X2; try lia.
      assert (XC : msg_id c = id) by (apply carries_spec; unfold tok in X2; destruct (carries id c); [reflexivity|cbn [b2z] in X2; lia]).
      assert (XF : 0 < m_nsn c).
      { pose proof (wsum_neg (on_sent (btok id)) (s_out s') (on_nonneg _ BN) ltac:(lia) _ X1) as HZ. cbn [on_sent] in HZ. unfold btok in HZ. rewrite (proj2 (carries_spec id c) XC), andb_true_r in HZ.
        destruct (m_nsn c <? 0) eqn:ES; [discriminate HZ|]. destruct (Z.eq_dec (m_nsn c) 0) as [E0|]; [|lia]. exfalso. clear - XC E0 HID. unfold msg_id in XC. rewrite E0 in XC. cbn in XC. rewrite <- XC in HID. cbn in HID. lia. }
      exists c, b, i, k. cbn [w_st]. rewrite EN, put_same. repeat split; try assumption. intros j. destruct (Z.eq_dec j n) as [->|NJ].
      * cbn [w_st]. rewrite put_same. eapply mean_of_one; [exact X1|exact XF|exact XC|lia|lia].
      * cbn [w_st]. rewrite put_other by exact NJ. apply mean_of_none, I2.
    + assert (NO : none (World (put (w_st w) n s') (put (w_in w) n (w_in w n ++ taken acc verify w n o)))).
      { intros j. unfold pres. cbn [w_st]. destruct (Z.eq_dec j n) as [->|NJ]; [rewrite put_same|rewrite put_other by exact NJ; apply I2].
        eapply Z.le_trans; [apply (STEP _ _ _ _ _ (fair_other n id HID N) (proj1 (g_wf _ _ _ G n)) HT)|apply I2]. }
      split; [intros _; exact NO|left; exact NO].
  - assert (LE : snd id <= s_nsn (w_st w (fst id))).
    { destruct (Z_le_gt_dec (snd id) (s_nsn (w_st w (fst id)))) as [L|L]; [exact L|]. pose proof (none_out _ (I1 ltac:(lia)) _ _ _ _ _ HC) as HZ. unfold tok in HZ. rewrite (proj2 (carries_spec id c) HM) in HZ. discriminate HZ. }
    split; [cbn [w_st]; intros H; exfalso; lia|]. right. pose proof HM as HM2. rewrite (id_fwd c HP) in HM2.
    exists c, a, i, k. cbn [w_st]. repeat split; try assumption.
    + destruct (Z.eq_dec (fst id) n) as [EN|N]; [|rewrite put_other by exact N; exact HC]. rewrite EN, put_same. rewrite EN in HC. rewrite EO. apply in_or_app. left. exact HC.
    + intros j. cbn [w_st]. destruct (Z.eq_dec j n) as [->|NJ]; [rewrite put_same|rewrite put_other by exact NJ; apply HME]. eapply Z.le_trans; [|apply (HME n)].
      eapply STEP; [apply (fair_mis n id HID c); [rewrite <- HM2; reflexivity|rewrite <- HM2; reflexivity]| |].
      * destruct (Z.eqb_spec n (fst id)) as [->|]; [exact LE|apply (g_wf _ _ _ G n)].
      * intros p m HX. apply sent_in in HX as (b & i' & k' & HX). rewrite (mean_out _ _ HME _ _ _ _ _ HX). lia.
Qed.
Lemma reach_origin : forall w, reach w -> origin w.
Proof using HID.
  intros w H. induction H as [|w w' H IH HS]; [exact origin_new|]. eapply origin_step; [apply (reach_good _ _ _ _ _ H)|apply (reach_good acc self deployer nets w'); eapply rc_step; eassumption|exact IH|exact HS].
Qed.
End WORLD.
