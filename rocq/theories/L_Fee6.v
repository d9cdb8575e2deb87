(** What the fee aggregation owes in tokens is there. *)
From Coq Require Import String Ascii ZArith List Bool Lia.
From Coq Require Import ZifyBool.
From Verif Require Import Base L_Base M_JMap L_JMap L_JSum M_JBmc M_Ncs S_Ncs L_Ncs L_NcsNet2 M_Tbsh S_Tbsh L_Tbsh M_Fee S_Fee L_Fee L_Fee2 L_Fee3 L_Fee4 L_Fee5.
Import ListNotations.
Open Scope Z_scope.

Record cov (s : fa) : Prop := {
  c_cov : forall k t, aget Z.eqb k (f_toks s) = Some t -> getf (f_lock s) k + openTokens s k <= f_held s t;
  c_none : forall k, aget Z.eqb k (f_toks s) = None -> getf (f_lock s) k = 0 /\ aget Z.eqb k (f_syn s) = None;
  c_have : forall a i, 0 <= gett (f_have s) a i;
  c_bal : forall n u, 0 <= gett (f_bal s) n u;
  c_ref : forall u, 0 <= getf (f_ref s) u;
  c_nd : NoDup (map fst (f_bal s)) }.
Lemma given_pos : forall id n ps u k, Forall (fun a => 0 <= p_share a) ps -> 0 <= given (parts_out id n ps) u k.
Proof. intros id n ps u k F. rewrite Forall_forall in F. apply sum_nonneg. intros e HE. unfold parts_out in HE. apply in_map_iff in HE as (a & <- & HA). specialize (F a HA). destruct (_ && _); lia. Qed.
Lemma refunds_pos : forall id n ps u, Forall (fun a => 0 <= p_rem a) ps -> 0 <= refunds (parts_out id n ps) u.
Proof. intros id n ps u F. rewrite Forall_forall in F. apply sum_nonneg. intros e HE. unfold parts_out in HE. apply in_map_iff in HE as (a & <- & HA). specialize (F a HA). destruct (_ =? _); lia. Qed.
(** nothing that matters changed *)
Lemma cov_same : forall s s', cov s -> f_toks s' = f_toks s -> f_syn s' = f_syn s -> f_lock s' = f_lock s -> f_have s' = f_have s -> f_bal s' = f_bal s -> (forall u, 0 <= getf (f_ref s') u) -> cov s'.
Proof.
  intros s s' [C1 C2 C3 C4 C5 C6] T Y L H B R. constructor; rewrite ?T, ?Y, ?L, ?H, ?B; try assumption. intros k t. unfold openTokens, f_held. rewrite Y, H. apply C1.
Qed.
Lemma cov_open : forall s s' k, f_syn s' = f_syn s -> openTokens s' k = openTokens s k.
Proof. intros s s' k E. unfold openTokens. rewrite E. reflexivity. Qed.
Lemma cov_register : forall s n t, cov s -> aget Z.eqb n (f_toks s) = None -> cov (setToks s (aput Z.eqb n t (f_toks s)) (f_names s ++ [n])).
Proof.
  intros s n t [C1 C2 C3 C4 C5 C6] N. constructor; cbn [setToks f_toks f_lock f_syn f_have f_bal f_ref]; try assumption.
  - intros k tk HK. change (openTokens (setToks _ _ _) k) with (openTokens s k). change (f_held (setToks _ _ _) tk) with (f_held s tk). destruct (Z.eq_dec k n) as [->|NE].
    + destruct (C2 n N) as [E1 E2]. unfold openTokens. rewrite E1, E2, fheld_get. apply C3.
    + rewrite (aput_other Z.eqb z_key) in HK by exact NE. apply C1. exact HK.
  - intros k HK. destruct (Z.eq_dec k n) as [->|NE]; [rewrite (aput_same Z.eqb z_key) in HK; discriminate|]. rewrite (aput_other Z.eqb z_key) in HK by exact NE. apply C2. exact HK.
Qed.
Lemma parts_ok : forall unit price y ps (d : Z -> Z), Forall (fun a => fair_share unit price (y_total y) (y_amount y) (d (p_who a)) (p_share a) (p_rem a) /\ 0 <= p_share a /\ 0 <= p_rem a <= d (p_who a)) ps -> Forall (fun a => 0 <= p_share a) ps /\ Forall (fun a => 0 <= p_rem a) ps.
Proof. intros unit price y ps d F. split; eapply Forall_impl; try exact F; cbv beta; intros a (_ & A & B); lia. Qed.
Lemma cov_step : forall ow ic icx0 s x o s', finv icx0 s -> good s -> cov s -> sound x o -> distinct (f_toks s) -> fexec ow ic s x o = Some s' -> cov s'.
Proof.
  intros ow ic icx0 s x o s' I G C [PO PX] DI H. pose proof (exec_nd _ _ _ _ _ _ H (c_nd _ C)) as ND'.
  assert (AM : forall id u, f_amount s id u = dep (f_out s) id u) by (intros id u; rewrite famt_get; apply (i_amt _ _ I)).
  assert (REG : forall c m tk, f_register ow ic s c m tk = Some s' -> cov s').
  { intros c m tk R. unfold f_register, fneed in R. destruct ((c =? ow) && negb (ahas Z.eqb m (f_toks s)) && ic (k_addr tk)) eqn:E; [|discriminate]. injection R as <-. apply cov_register; [exact C|]. unfold ahas in E. destruct (aget Z.eqb m (f_toks s)); [|reflexivity]. cbn [negb] in E. rewrite andb_false_r in E. discriminate. }
  destruct o as [c n a|c n a i d|c d|c n v|c|c n|c v|a i v].
  - apply (REG _ _ _ H).
  - cbn [fexec] in H. unfold fneed in H. destruct (0 <? i); [|discriminate]. apply (REG _ _ _ H).
  - cbn [fexec] in H. unfold fneed in H. destruct (_ && _); [|discriminate]. injection H as <-. apply (cov_same _ _ C); try reflexivity. apply (c_ref _ C).
  - destruct (step_spec _ _ _ _ _ _ H) as (q & L & K). destruct C as [C1 C2 C3 C4 C5 C6]. remember (FDeposit c n v) as o eqn:OE.
    destruct K as [o Y1 Y2 Y3 Y4 Y5 Y6 Y7 Y8 Y8' Y9|c' n' v' t y T YN EY AY SY SC ST SH SL SQ SD|c' n' v' t y y0 s1 unit p price inIcx ps T YO EX EY AY ED EO EL EH ET EA SY SC ST SH SQ SLi SD|c' n' v' t y0 y T YO EX EY SY SC ST SH SL SQ SD|c' n' t y0 s1 unit p price inIcx ps q1 T YO EX ED EO EA EL ES ET SY SC SLi SQ Q1]; [subst o; destruct Y9| | | |discriminate]; injection OE as -> -> ->; cbn [paying] in PO.
    + assert (BS : forall m u, gett (f_bal s') m u = gett (f_bal s) m u). { intros m u. rewrite (l_bal _ _ _ _ _ L), SQ. unfold given, claims. cbn [sumOf fold_right]. lia. }
      assert (RS : forall u, getf (f_ref s') u = getf (f_ref s) u). { intros u. rewrite (l_ref _ _ _ _ _ L), SQ. unfold refunds, withdrawn. cbn [sumOf fold_right]. lia. }
      constructor; try assumption; rewrite ?ST, ?SH, ?SL; try assumption; try (intros; rewrite ?BS, ?RS; auto; fail).
      * intros k tk HK. unfold openTokens, f_held. rewrite SY, SH. fold (f_held s tk). destruct (Z.eq_dec k n) as [->|NE].
        { rewrite (aput_same Z.eqb z_key). replace tk with t by congruence. rewrite EY. cbn [y_amount]. rewrite flock_get. lia. }
        { rewrite (aput_other Z.eqb z_key) by exact NE. apply C1. exact HK. }
      * intros k HK. destruct (C2 k HK) as [E1 E2]. split; [exact E1|]. rewrite SY, (aput_other Z.eqb z_key); [exact E2|]. intros ->. congruence.
    + assert (YI : y_id y = f_count s + 1) by (rewrite EY; reflexivity). destruct (i_syn _ _ I _ _ YO) as (O1 & O2 & O3 & O4 & _).
      assert (A1 : f_depositors s1 (y_id y0) = f_depositors s (y_id y0)). { pose proof (SD (y_id y0)) as X. replace (y_id y0 =? y_id y) with false in X by lia. rewrite <- X. unfold f_depositors. rewrite SLi. reflexivity. }
      assert (A2 : forall u, f_amount s1 (y_id y0) u = dep (f_out s) (y_id y0) u). { intros u. rewrite <- AM. unfold f_amount. rewrite EA. rewrite (aput_other zz_eqb zz_key); [reflexivity|]. intros X. injection X as X _. lia. }
      destruct (ended_fair _ _ _ _ _ _ _ _ _ _ _ _ _ I G PX YO ED A1 A2) as (U1 & U2 & U3 & U4 & U5 & U6). destruct (parts_ok _ _ _ _ _ U4) as [P1 P2].
      assert (GQ : (forall u k, given q u k = given (parts_out (y_id y0) n ps) u k /\ claims q u k = 0) /\ (forall u, refunds q u = refunds (parts_out (y_id y0) n ps) u /\ withdrawn q u = 0)).
      { destruct (fund_sums (y_total y0)) as (B1 & B2 & B3 & B4 & _). destruct (parts_sums (y_id y0) n ps) as (E1 & E2 & E3 & E4 & _). rewrite SQ. unfold end_out. split; intros; logs; rewrite ?B1, ?B2, ?B3, ?B4, ?E1, ?E2; unfold given, claims, refunds, withdrawn; cbn [sumOf fold_right]; lia. }
      destruct GQ as [GQ1 GQ2].
      constructor; try assumption; rewrite ?ST, ?SH; try assumption.
      * intros k tk HK. pose proof (e_lock _ _ _ _ _ _ _ _ _ _ _ ED k) as LK. cbn [f_lock] in LK. rewrite LK, EL. unfold openTokens, f_held. rewrite SY, SH. fold (f_held s tk). destruct (Z.eq_dec k n) as [->|NE].
        { rewrite (aput_same Z.eqb z_key), Z.eqb_refl. replace tk with t by congruence. rewrite EY. cbn [y_amount]. rewrite flock_get. lia. }
        { rewrite (aput_other Z.eqb z_key) by exact NE. replace (k =? n) with false by lia. rewrite Z.add_0_r. apply C1. exact HK. }
      * intros k HK. destruct (C2 k HK) as [E1 E2]. assert (NE : k <> n) by (intros ->; congruence). pose proof (e_lock _ _ _ _ _ _ _ _ _ _ _ ED k) as LK. cbn [f_lock] in LK. rewrite LK, EL. replace (k =? n) with false by lia. split; [lia|]. rewrite SY, (aput_other Z.eqb z_key) by exact NE. exact E2.
      * intros m u. rewrite (l_bal _ _ _ _ _ L). destruct (GQ1 u m) as [-> ->]. pose proof (C4 m u). pose proof (given_pos (y_id y0) n ps u m P1). lia.
      * intros u. rewrite (l_ref _ _ _ _ _ L). destruct (GQ2 u) as [-> ->]. pose proof (C5 u). pose proof (refunds_pos (y_id y0) n ps u P2). lia.
    + assert (BS : forall m u, gett (f_bal s') m u = gett (f_bal s) m u). { intros m u. rewrite (l_bal _ _ _ _ _ L), SQ. unfold given, claims. cbn [sumOf fold_right]. lia. }
      assert (RS : forall u, getf (f_ref s') u = getf (f_ref s) u). { intros u. rewrite (l_ref _ _ _ _ _ L), SQ. unfold refunds, withdrawn. cbn [sumOf fold_right]. lia. }
      constructor; try assumption; rewrite ?ST, ?SH, ?SL; try assumption; try (intros; rewrite ?BS, ?RS; auto; fail).
      * intros k tk HK. specialize (C1 k tk HK). unfold openTokens, f_held in *. rewrite SY, SH. destruct (Z.eq_dec k n) as [->|NE].
        { rewrite (aput_same Z.eqb z_key). rewrite YO in C1. rewrite EY. cbn [y_amount]. exact C1. }
        { rewrite (aput_other Z.eqb z_key) by exact NE. exact C1. }
      * intros k HK. destruct (C2 k HK) as [E1 E2]. split; [exact E1|]. rewrite SY, (aput_other Z.eqb z_key); [exact E2|]. intros ->. congruence.
  - cbn [fexec] in H. unfold f_withdrawal in H. destruct (Z.leb_spec (f_refund s c) 0) as [|P]; [discriminate|]. destruct (_ && _); injection H as <-; apply (cov_same _ _ C); try reflexivity; intros u.
    + cbn [emitF setIcx setRef f_ref]. rewrite getf_put. pose proof (c_ref _ C u). destruct (_ =? _); lia.
    + cbn [setRef f_ref]. rewrite !getf_put. unfold f_refund at 1. cbn [setRef f_ref]. rewrite (aput_same Z.eqb z_key). pose proof (c_ref _ C u). destruct (_ =? _); lia.
  - cbn [fexec] in H. unfold f_claim in H. destruct (aget Z.eqb n (f_toks s)) as [t|] eqn:T; [|discriminate]. destruct (Z.leb_spec (f_balance s c n) 0) as [|P]; [discriminate|].
    pose proof (claim_first s x c n t T P) as CF. cbv zeta in CF. match type of H with match aget _ _ (f_syn ?z) with _ => _ end = _ => set (s3 := z) in * end. destruct CF as (L & G1 & G2 & G3 & G4 & G5 & G6 & G7 & G8 & G9 & G10). rewrite G1 in H.
    set (ok := (f_balance s c n <=? f_held s t) && x_tok x) in *. clearbody s3. destruct C as [C1 C2 C3 C4 C5 C6].
    assert (B3 : forall m u, 0 <= gett (f_bal s3) m u). { intros m u. rewrite (l_bal _ _ _ _ _ (L 0)). pose proof (C4 m u). destruct ok; unfold given, claims; cbn [sumOf fold_right]; [|lia]. destruct (Z.eqb_spec c u) as [<-|]; cbn [andb]; [|lia]. destruct (Z.eqb_spec n m) as [<-|]; [rewrite fbal_get; lia|lia]. }
    assert (R3 : forall u, 0 <= getf (f_ref s3) u). { intros u. rewrite (l_ref _ _ _ _ _ (L 0)). pose proof (C5 u). destruct ok; unfold refunds, withdrawn; cbn [sumOf fold_right]; lia. }
    assert (H3 : forall a i, 0 <= gett (f_have s3) a i). { intros a i. rewrite G10. pose proof (C3 a i). destruct ((a =? k_addr t) && (i =? k_id t) && ok) eqn:E; [|lia]. apply andb_prop in E as [E OK]. apply andb_prop in E as [E1 E2]. unfold ok in OK. apply andb_prop in OK as [OK _]. rewrite fheld_get in OK. replace a with (k_addr t) by lia. replace i with (k_id t) by lia. lia. }
    assert (V3 : forall k tk, aget Z.eqb k (f_toks s) = Some tk -> getf (f_lock s3) k + openTokens s k <= f_held s3 tk).
    { intros k tk HK. specialize (C1 k tk HK). rewrite fheld_get in *. rewrite G9, G10. destruct ok; [|rewrite !andb_false_r; lia]. rewrite !andb_true_r. destruct (Z.eqb_spec k n) as [->|NE].
      - replace tk with t by congruence. rewrite !Z.eqb_refl. cbn [andb]. replace tk with t in C1 by congruence. lia.
      - destruct (Z.eqb_spec (k_addr tk) (k_addr t)) as [X1|]; [|cbn [andb]; lia]. destruct (Z.eqb_spec (k_id tk) (k_id t)) as [X2|]; [|cbn [andb]; lia]. exfalso. apply NE. apply (DI _ _ _ _ HK T X1 X2). }
    assert (N3 : forall k, aget Z.eqb k (f_toks s) = None -> getf (f_lock s3) k = 0). { intros k HK. rewrite G9. destruct (C2 k HK) as [E _]. rewrite E. destruct (Z.eqb_spec k n) as [->|]; [congruence|]. reflexivity. }
    assert (SAME : Some s3 = Some s' -> cov s'). { intros E. injection E as E. rewrite <- E in *. constructor; try assumption; rewrite ?G6; intros k; [intros tk HK; rewrite (cov_open s s3 k G1); apply V3; exact HK|intros HK; split; [apply N3; exact HK|rewrite G1; apply C2; exact HK]]. }
    destruct (aget Z.eqb n (f_syn s)) as [y0|] eqn:YO; [|apply (SAME H)]. destruct (Z.leb_spec (y_end y0) (x_now x)) as [EX|EX]; [|apply (SAME H)]. clear SAME.
    destruct (end_spec _ _ _ _ _ _ H) as (unit & p & price & inIcx & ps & ED). set (s4 := setSyn s3 (adel Z.eqb n (f_syn s))) in *. destruct (e_rest _ _ _ _ _ _ _ _ _ _ _ ED) as (E1 & E2 & E3 & E4 & E5 & E6 & E7 & E8).
    assert (A1 : f_depositors s4 (y_id y0) = f_depositors s (y_id y0)) by (unfold f_depositors; cbn [s4 setSyn f_list]; rewrite G4; reflexivity).
    assert (A2 : forall u, f_amount s4 (y_id y0) u = dep (f_out s) (y_id y0) u) by (intros u; rewrite <- AM; unfold f_amount; cbn [s4 setSyn f_amt]; rewrite G5; reflexivity).
    destruct (ended_fair _ _ _ _ _ _ _ _ _ _ _ _ _ I G PX YO ED A1 A2) as (U1 & U2 & U3 & U4 & U5 & U6). destruct (parts_ok _ _ _ _ _ U4) as [P1 P2].
    assert (TK : f_toks s' = f_toks s) by (rewrite E1; exact G6). assert (HV : f_have s' = f_have s3) by (rewrite E8; reflexivity). assert (SY : f_syn s' = adel Z.eqb n (f_syn s)) by (rewrite E3; reflexivity).
    assert (LK : forall k, getf (f_lock s') k = getf (f_lock s3) k + (if k =? n then sumOf p_share ps else 0)) by (intros k; apply (e_lock _ _ _ _ _ _ _ _ _ _ _ ED)).
    constructor; try assumption; rewrite ?TK, ?HV; try assumption.
    + intros k tk HK. specialize (V3 k tk HK). rewrite LK. unfold f_held in *. rewrite HV. unfold openTokens in *. rewrite SY. destruct (Z.eq_dec k n) as [->|NE].
      * rewrite (adel_same Z.eqb z_key) by apply (i_nd _ _ I). rewrite YO in V3. rewrite Z.eqb_refl. lia.
      * rewrite (adel_other Z.eqb z_key) by first [exact NE|apply (i_nd _ _ I)]. replace (k =? n) with false by lia. lia.
    + intros k HK. assert (NE : k <> n) by (intros ->; congruence). rewrite LK, (N3 k HK). replace (k =? n) with false by lia. split; [reflexivity|]. rewrite SY, (adel_other Z.eqb z_key) by first [exact NE|apply (i_nd _ _ I)]. apply C2. exact HK.
    + intros m u. rewrite (e_bal _ _ _ _ _ _ _ _ _ _ _ ED). pose proof (B3 m u) as X. pose proof (given_pos (y_id y0) n ps u m P1). change (gett (f_bal s4) m u) with (gett (f_bal s3) m u). lia.
    + intros u. rewrite (e_ref _ _ _ _ _ _ _ _ _ _ _ ED). pose proof (R3 u) as X. pose proof (refunds_pos (y_id y0) n ps u P2). change (getf (f_ref s4) u) with (getf (f_ref s3) u). lia.
  - cbn [fexec] in H. unfold fneed in H. destruct (0 <? v); [|discriminate]. unfold to_fund, fneed in H. destruct (_ && _); [|discriminate]. injection H as <-. apply (cov_same _ _ C); try reflexivity. apply (c_ref _ C).
  - cbn [fexec] in H. unfold fneed in H. destruct (Z.leb_spec 0 v) as [V|]; [|discriminate]. injection H as <-. destruct C as [C1 C2 C3 C4 C5 C6].
    assert (HV : forall b j, gett (f_have s) b j <= gett (aput zz_eqb (a, i) (f_held s (FTok a i None) + v) (f_have s)) b j). { intros b j. rewrite gett_put, fheld_get. cbn [k_addr k_id]. destruct (zz_eqb (a, i) (b, j)) eqn:E; [|lia]. apply zz_key in E. injection E as -> ->. lia. }
    constructor; cbn [emitF setHave f_toks f_lock f_syn f_have f_bal f_ref]; try assumption.
    + intros k tk HK. change (openTokens (emitF _ _) k) with (openTokens s k). specialize (C1 k tk HK). rewrite fheld_get in C1. rewrite (fheld_get (emitF _ _)). cbn [emitF setHave f_have]. pose proof (HV (k_addr tk) (k_id tk)). lia.
    + intros b j. pose proof (C3 b j). pose proof (HV b j). lia.
Qed.
Section RUN.
Variable ow : Z.
Variable ic : Z -> bool.
Variable icx0 : Z.
Variable have0 : list ((Z * Z) * Z).
Notation frun := (frun ow ic icx0 have0).
Lemma fair_snoc : forall l xo, fair (l ++ [xo]) -> fair l /\ sound (fst xo) (snd xo).
Proof. intros l xo F. unfold fair in F. apply Forall_app in F as [F1 F2]. split; [exact F1|]. inversion F2 as [|? ? X _]. destruct X as [X1 X2]. split; [|exact X2]. destruct (snd xo); try exact I. exact X1. Qed.
Lemma good_run : forall l, fair l -> good (frun l).
Proof.
  intros l. induction l as [|xo l IH] using rev_ind; intros F.
  - constructor; cbn; intros; try discriminate; try reflexivity; try lia; try constructor; try (unfold dep; cbn; lia).
  - apply fair_snoc in F as [F [S1 S2]]. rewrite frun_snoc. unfold fstep. destruct (fexec _ _ _ _ _) as [s'|] eqn:E; [|apply IH, F]. apply (good_step _ _ _ _ _ _ _ (finv_run ow ic icx0 have0 l) (IH F) S1 E).
Qed.
Lemma ledger_run : forall l, fair l -> ledger l (frun l).
Proof.
  intros l. induction l as [|xo l IH] using rev_ind; intros F.
  - constructor; cbn; intros; try contradiction. split; reflexivity.
  - apply fair_snoc in F as [F S1]. specialize (IH F). rewrite frun_snoc. unfold fstep. destruct xo as [x o]. cbn [fst snd] in *. destruct (M_Fee.fexec _ _ _ _ _) as [s'|] eqn:E.
    + apply (ledger_step _ _ _ _ _ _ _ _ (finv_run ow ic icx0 have0 l) (good_run l F) IH S1 E).
    + destruct IH as [D1 D2 D3]. constructor; try assumption. intros. apply deal_mono, D3. assumption.
Qed.
Lemma distinct_back : forall l xo, distinct (f_toks (frun (l ++ [xo]))) -> distinct (f_toks (frun l)).
Proof.
  intros l xo D. rewrite frun_snoc in D. unfold fstep in D. destruct (M_Fee.fexec _ _ _ _ _) as [s'|] eqn:E; [|exact D]. intros n m t t' H1 H2. apply D; apply (toks_grow _ _ _ _ _ _ _ _ E); assumption.
Qed.
Lemma cov_run : forall l, (forall a i, 0 <= gett have0 a i) -> fair l -> distinct (f_toks (frun l)) -> cov (frun l).
Proof.
  intros l H0. induction l as [|xo l IH] using rev_ind; intros F D.
  - constructor; cbn; intros; try discriminate; try (split; reflexivity); try apply H0; try (cbv; discriminate). constructor.
  - pose proof (distinct_back _ _ D) as D'. apply fair_snoc in F as [F S1]. specialize (IH F D'). rewrite frun_snoc. unfold fstep. destruct (M_Fee.fexec _ _ _ _ _) as [s'|] eqn:E; [|exact IH].
    apply (cov_step _ _ _ _ _ _ _ (finv_run ow ic icx0 have0 l) (good_run l F) IH S1 D' E).
Qed.
End RUN.
