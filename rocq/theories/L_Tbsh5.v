(** The token service: signs, and runs. *)
From Coq Require Import ZArith List Bool Lia Permutation.
From Coq Require Import ZifyBool.
From Verif Require Import Base L_Base M_JMap L_JMap M_JBmc L_JBmc L_JSum M_Ncs S_Ncs L_Ncs M_Tbsh S_Tbsh L_Tbsh L_Tbsh2 L_Tbsh3 L_Tbsh4.
Import ListNotations.
Open Scope Z_scope.

Section TBSH.
Variables self bmc deployer : Z.
Variable isContract : Z -> bool.
Local Notation teff := (teff self bmc deployer).
Local Notation texec := (texec self bmc deployer isContract).
Local Notation trun := (trun self bmc deployer isContract).
Variable led0 : list ((Z * Z) * Z).

Ltac fields := cbn [b_addr b_names b_toks b_bal b_owners b_count b_fees b_pend b_pfees b_sn b_led b_out setAddr setNames setToks setBal setOwners setFees setPend setPfees setSn setLed emitT t_setFee] in *.

Definition posa (x : tasset) : Prop := 0 <= a_value x /\ 0 <= a_fee x.
Record sinv (s : tb) : Prop := SInv {
  g_num : forall tok n num, aget Z.eqb tok (b_toks s) = Some (n, num) -> 0 <= num <= 10000;
  g_pend : forall sn m, aget Z.eqb sn (b_pend s) = Some m -> Forall posa (m_assets m);
  g_pfees : forall sn m, aget Z.eqb sn (b_pfees s) = Some m -> Forall posa (m_assets m);
  g_usable : forall u n, 0 <= l_usable (balOf (b_bal s) u n);
  g_fees : forall n, 0 <= t_getFee s n;
  g_undone : forall o k l, In (TUndone o k l) (b_out s) -> Forall posa l }.
Lemma posa_net : forall n l, Forall posa l -> 0 <= tnet n l.
Proof. intros n l F. apply sum_nonneg. intros x hx. rewrite Forall_forall in F. destruct (F x hx). destruct (a_name x =? n); lia. Qed.
Lemma posa_fee : forall n l, Forall posa l -> 0 <= tfee n l.
Proof. intros n l F. apply sum_nonneg. intros x hx. rewrite Forall_forall in F. destruct (F x hx). destruct (a_name x =? n); lia. Qed.
Lemma share_range : forall v num, 0 < v -> 0 <= num <= 10000 -> Z.quot (v * num) 10000 = v * num / 10000 /\ 0 <= v * num / 10000 <= v.
Proof. intros v num H1 H2. split; [apply Z.quot_div_nonneg; nia|]. split; [apply Z.div_pos; nia|]. apply Z.div_le_upper_bound; nia. Qed.
Lemma moved_usable : forall u du dl b b', moved u du dl b b' -> (forall n, 0 <= l_usable (balOf b u n) + du n) -> (forall w n, 0 <= l_usable (balOf b w n)) -> forall w n, 0 <= l_usable (balOf b' w n).
Proof. intros u du dl b b' [M1 M2 _] H1 H2 w n. destruct (Z.eq_dec w u) as [->|N]; [rewrite M1; cbn [l_usable]; apply H1|rewrite M2 by exact N; apply H2]. Qed.
Lemma gather_pos : forall caller fa names s acc s' l, t_gather s caller fa names acc = (s', l) -> (forall n, 0 <= t_getFee s n) -> Forall posa acc ->
  Forall posa l /\ (forall n, 0 <= t_getFee s' n).
Proof.
  intros caller fa names. induction names as [|n names IH]; intros s acc s' l E HF HA; cbn [t_gather] in E.
  - injection E as <- <-. split; assumption.
  - cbv zeta in E. destruct (Z.eqb_spec (t_getFee s n) 0) as [Z0|NZ]; [eapply IH; eassumption|]. eapply IH; [exact E| |].
    + intros k. rewrite getFee_set. destruct (n =? k); [lia|]. exact (HF k).
    + apply Forall_app. split; [exact HA|]. constructor; [|constructor]. split; cbn [a_value a_fee]; [apply HF|lia].
Qed.
Definition sane_op (o : top) : Prop := match o with TTransfer _ _ v _ => 0 < v | TRegister _ _ num _ => 0 <= num <= 10000 | TSetBalance _ _ _ _ _ _ => False | _ => True end.
Lemma sinv_step : forall s o s', pinv bmc s -> sinv s -> teff s o s' -> sane_op o -> sinv s'.
Proof.
  intros s o s' PI [A B C D E F] EF HO. destruct EF; cbn [sane_op] in HO; try contradiction.
  - split; fields; assumption.
  - split; fields; try assumption. intros t k q X. destruct (Z.eq_dec t tok) as [->|N]; [rewrite (aput_same Z.eqb z_key) in X; injection X as <- <-; exact HO|]. rewrite (aput_other Z.eqb z_key) in X by exact N. apply (A _ _ _ X).
  - split; try assumption.
  - split; fields; try assumption.
    + eapply moved_usable; [exact (moved_set (moveLed s tok from self v) from n v 0)| |exact D]. intros k. change (b_bal (moveLed s tok from self v)) with (b_bal s). specialize (D from k). cbv beta. destruct (n =? k); lia.
    + intros o k l X. rewrite in_app_iff in X. cbn [In] in X. destruct X as [X|[X|[]]]; [apply (F _ _ _ X)|discriminate].
  - pose proof (A _ _ _ H2) as RN. destruct (share_range v num HO RN) as [QE QR]. split; fields; try assumption.
    + intros k q X. destruct (Z.eq_dec k (b_sn s + 1)) as [->|N]; [|rewrite (aput_other Z.eqb z_key) in X by exact N; apply (B _ _ X)]. rewrite (aput_same Z.eqb z_key) in X. injection X as <-. cbn [m_assets]. constructor; [|constructor]. split; cbn [a_value a_fee]; lia.
    + eapply moved_usable; [exact (moved_set s c n (- v) v)| |exact D]. intros k. change (t_getBalance s c n) with (balOf (b_bal s) c n) in H1. specialize (D c k). cbv beta. destruct (Z.eqb_spec n k) as [<-|]; lia.
    + intros o k l X. rewrite !in_app_iff in X. cbn [In] in X. destruct X as [[X|[X|[]]]|[X|[]]]; try discriminate. apply (F _ _ _ X).
  - split; fields; try assumption. intros o k q X. rewrite !in_app_iff in X. cbn [In] in X. destruct X as [[X|[X|[]]]|[X|[]]]; try discriminate. apply (F _ _ _ X).
  - split; fields; try assumption.
    + eapply moved_usable; [exact (moved_set (moveLed s tok self self (a_value x)) self n (a_value x) 0)| |exact D]. intros k. change (b_bal (moveLed s tok self self (a_value x))) with (b_bal s). specialize (D self k). cbv beta. destruct (n =? k); lia.
    + intros o k q X. rewrite !in_app_iff in X. cbn [In] in X. destruct X as [[[X|[X|[]]]|[X|[]]]|[X|[]]]; try discriminate. apply (F _ _ _ X).
  - destruct (feesBack_spec (m_assets m) s) as [FB R]. pose proof (C _ _ H0) as PM.
    assert (K : b_toks (if code =? T_ERR then t_feesBack s (m_assets m) else s) = b_toks s /\ b_pend (if code =? T_ERR then t_feesBack s (m_assets m) else s) = b_pend s /\ b_bal (if code =? T_ERR then t_feesBack s (m_assets m) else s) = b_bal s /\ b_out (if code =? T_ERR then t_feesBack s (m_assets m) else s) = b_out s) by (destruct (code =? T_ERR); [rewrite R|]; repeat split; reflexivity).
    destruct K as (K1 & K2 & K3 & K4). split; fields; rewrite ?K1, ?K2, ?K3; try assumption.
    + intros k q X. pose proof (p_ndf _ _ PI) as ND. destruct (Z.eq_dec k sn) as [->|N]; [rewrite (adel_same Z.eqb z_key) in X by exact ND; discriminate|]. rewrite (adel_other Z.eqb z_key) in X by assumption. apply (C _ _ X).
    + intros n. erewrite (fee_same (if code =? T_ERR then t_feesBack s (m_assets m) else s)) by reflexivity. specialize (E n). destruct (code =? T_ERR); [rewrite FB; pose proof (posa_net n _ PM); lia|exact E].
    + intros o k q X. rewrite K4, !in_app_iff in X. cbn [In] in X. destruct X as [[X|[X|[]]]|[X|[]]]; try discriminate. apply (F _ _ _ X).
  - destruct (settle_spec (m_assets m) s (m_from m) code) as (MV & FE & R). red in R. pose proof (B _ _ H1) as PM.
    pose proof (f_equal b_toks R) as R1. pose proof (f_equal b_pfees R) as R2. pose proof (f_equal b_out R) as R3. split; fields; rewrite ?R1, ?R2; try assumption.
    + intros k q X. pose proof (p_nd _ _ PI) as ND. destruct (Z.eq_dec k sn) as [->|N]; [rewrite (adel_same Z.eqb z_key) in X by exact ND; discriminate|]. rewrite (adel_other Z.eqb z_key) in X by assumption. apply (B _ _ X).
    + eapply moved_usable; [exact MV| |exact D]. intros n. cbv beta. specialize (D (m_from m) n). pose proof (posa_net n _ PM). pose proof (posa_fee n _ PM). unfold ttotal. destruct (code =? T_OK); lia.
    + intros n. erewrite (fee_same (t_settle s (m_from m) code (m_assets m))) by reflexivity. rewrite FE. specialize (E n). pose proof (posa_fee n _ PM). destruct (code =? T_OK); lia.
    + intros o k q X. rewrite R3, !in_app_iff in X. cbn [In] in X. destruct X as [[X|[X|[]]]|[X|[]]]; try discriminate. apply (F _ _ _ X).
  - split; assumption.
  - split; fields; try assumption. intros o k q X. rewrite in_app_iff in X. cbn [In] in X. destruct X as [X|[X|[]]]; [apply (F _ _ _ X)|discriminate].
  - pose proof (B _ _ H0) as PM. split; fields; try assumption.
    + intros k q X. pose proof (p_nd _ _ PI) as ND. destruct (Z.eq_dec k sn) as [->|N]; [rewrite (adel_same Z.eqb z_key) in X by exact ND; discriminate|]. rewrite (adel_other Z.eqb z_key) in X by assumption. apply (B _ _ X).
    + eapply moved_usable; [exact (moved_set s (m_from m) (a_name x) (a_value x) (- a_value x))| |exact D]. intros n. cbv beta. specialize (D (m_from m) n). rewrite H2 in PM. apply Forall_cons_iff in PM as [[PV _] _]. destruct (a_name x =? n); lia.
    + intros o k q X. rewrite in_app_iff in X. cbn [In] in X. destruct X as [X|[X|[]]]; [apply (F _ _ _ X)|]. injection X as <- <- <-. exact PM.
  - pose proof (gather_pos _ _ _ _ _ _ _ H0 E (Forall_nil _)) as [GP GF]. apply gather_spec in H0 as (add & EL & _ & _ & _ & _ & P1 & _ & _ & _ & R). cbn [app] in EL. subst add.
    pose proof (f_equal b_toks R) as R1. pose proof (f_equal b_pend R) as R2. pose proof (f_equal b_out R) as R3. pose proof (f_equal b_bal R) as R4. fields.
    assert (G3 : forall sn m, aget Z.eqb sn (b_pfees s1) = Some m -> Forall posa (m_assets m)).
    { intros sn m X. apply P1 in X as [X|(_ & _ & _ & j & X)]; [apply (C _ _ X)|]. rewrite X. cbn [app]. clear - GP. revert l GP. induction j as [|j IH]; intros l GP; [constructor|]. destruct l as [|x l]; [constructor|]. apply Forall_cons_iff in GP as [G1 G2]. cbn [firstn]. constructor; [exact G1|apply IH, G2]. }
    destruct l; split; fields; rewrite ?R1, ?R2, ?R4; try assumption; intros o k q X; rewrite R3 in X; [apply (F _ _ _ X)|]. rewrite !in_app_iff in X. cbn [In] in X. destruct X as [[X|[X|[]]]|[X|[]]]; try discriminate. apply (F _ _ _ X).
Qed.
Lemma sinv_init : sinv (tinit deployer led0).
Proof. split; cbn [tinit b_toks b_pend b_pfees b_out aget In]; intros; try discriminate; try contradiction; apply Z.le_refl. Qed.

(** * Runs *)
Lemma trun_snoc : forall l yo, trun led0 (l ++ [yo]) = tstep self bmc deployer isContract (trun led0 l) yo.
Proof. intros. unfold M_Tbsh.trun. rewrite fold_left_app. reflexivity. Qed.
Lemma tstep_eff : forall s yo, tstep self bmc deployer isContract s yo = s \/ teff s (snd yo) (tstep self bmc deployer isContract s yo).
Proof. intros s [y o]. unfold tstep. cbn [fst snd]. destruct (texec s y o) as [s'|] eqn:E; [right; eapply texec_eff, E|left; reflexivity]. Qed.
Lemma run_rp : forall l, rinv self led0 (trun led0 l) /\ pinv bmc (trun led0 l).
Proof.
  intros l. induction l as [|yo l IH] using rev_ind; [split; [apply rinv_init|apply pinv_init]|]. rewrite trun_snoc. destruct IH as [IR IP]. destruct (tstep_eff (trun led0 l) yo) as [->|E]; [split; assumption|]. split; [eapply rinv_step; eassumption|eapply pinv_step; eassumption].
Qed.
Lemma run_b : forall l, no_hand l -> binv (trun led0 l).
Proof.
  intros l. induction l as [|yo l IH] using rev_ind; intros NH; [apply binv_init|]. rewrite trun_snoc. apply Forall_app in NH as [NH N1]. apply Forall_cons_iff in N1 as [N1 _]. destruct (tstep_eff (trun led0 l) yo) as [->|E]; [apply IH, NH|]. eapply binv_step; [apply run_rp|apply IH, NH|exact E|exact N1].
Qed.
Lemma run_s : forall l, no_hand l -> sane l -> sinv (trun led0 l).
Proof.
  intros l. induction l as [|yo l IH] using rev_ind; intros NH SA; [apply sinv_init|]. rewrite trun_snoc. apply Forall_app in NH as [NH N1]. apply Forall_cons_iff in N1 as [N1 _]. apply Forall_app in SA as [SA S1]. apply Forall_cons_iff in S1 as [S1 _]. destruct (tstep_eff (trun led0 l) yo) as [->|E]; [apply IH; assumption|].
  eapply sinv_step; [apply run_rp|apply IH; assumption|exact E|]. unfold sane_op. destruct (snd yo); assumption.
Qed.
End TBSH.
