(** The token service: the books. *)
From Coq Require Import ZArith List Bool Lia Permutation.
From Coq Require Import ZifyBool.
From Verif Require Import Base L_Base M_JMap L_JMap M_JBmc L_JBmc L_JSum M_Ncs S_Ncs L_Ncs M_Tbsh S_Tbsh L_Tbsh L_Tbsh2 L_Tbsh3.
Import ListNotations.
Open Scope Z_scope.

Section TBSH.
Variables self bmc deployer : Z.
Local Notation teff := (teff self bmc deployer).
Variable led0 : list ((Z * Z) * Z).

Record binv (s : tb) : Prop := BInv {
  v_usable : forall u n, l_usable (balOf (b_bal s) u n) = deposited (b_out s) u n - taken (b_out s) u n + refused (b_out s) u n + undone (b_out s) u n;
  v_locked : forall u n, l_locked (balOf (b_bal s) u n) = taken (b_out s) u n - arrived (b_out s) u n - refused (b_out s) u n - undone (b_out s) u n;
  v_refund : forall u n, l_refundable (balOf (b_bal s) u n) = 0;
  v_transit : forall u n, in_transit s u n = taken (b_out s) u n - arrived (b_out s) u n - refused (b_out s) u n - undone (b_out s) u n - stuck (b_out s) u n;
  v_books : forall n, bksum (b_bal s) n + t_getFee s n = allDeposited (b_out s) n - sentOff (b_out s) n - feesGathered (b_out s) n + feesReturned (b_out s) n;
  v_fees : forall n, t_getFee s n = feesTaken (b_out s) n - feesGathered (b_out s) n + feesReturned (b_out s) n }.

Ltac fields := cbn [b_addr b_names b_toks b_bal b_owners b_count b_fees b_pend b_pfees b_sn b_led b_out setAddr setNames setToks setBal setOwners setFees setPend setPfees setSn setLed emitT t_setFee] in *.
Ltac logs := unfold deposited, taken, arrived, refused, undone, stuck, allDeposited, allPaid, sentOff, feesTaken, feesGathered, feesReturned in *; fields; rewrite ?sum_snoc in *; cbv beta iota in *.

(** calls that leave balances, fees and pending transfers *)
Lemma binv_same : forall s s' add, binv s -> b_bal s' = b_bal s -> b_fees s' = b_fees s -> b_pend s' = b_pend s -> b_out s' = b_out s ++ add ->
  Forall (fun e => match e with TSend _ _ _ | TPaid _ _ _ _ | TEnd _ _ _ => True | _ => False end) add -> binv s'.
Proof.
  intros s s' add [A B C D E F] H1 H2 H3 H4 H5. rewrite Forall_forall in H5.
  assert (Z0 : forall f : tout -> Z, (forall e, match e with TSend _ _ _ | TPaid _ _ _ _ | TEnd _ _ _ => f e = 0 | _ => True end) -> sumOf f (b_out s ++ add) = sumOf f (b_out s)).
  { intros f Hf. rewrite sum_app, (sum_zero f add); [lia|]. intros e he. specialize (H5 e he). specialize (Hf e). destruct e; try contradiction; exact Hf. }
  assert (FF : forall n, t_getFee s' n = t_getFee s n) by (intros n; unfold t_getFee; rewrite H2; reflexivity).
  split; intros; rewrite ?FF; unfold in_transit; rewrite ?H1, ?H3, ?H4;
    unfold deposited, taken, arrived, refused, undone, stuck, allDeposited, sentOff, feesTaken, feesGathered, feesReturned; rewrite ?Z0 by (intros e; destruct e; cbv beta iota; trivial); first [apply A|apply B|apply C|apply D|apply E|apply F].
Qed.
(** pending transfers *)
Definition trw (u n : Z) (x : Z * tmove) : Z := if m_from (snd x) =? u then ttotal n (m_assets (snd x)) else 0.
Lemma transit_put : forall p k m u n, aget Z.eqb k p = None -> sumOf (trw u n) (aput Z.eqb k m p) = sumOf (trw u n) p + if m_from m =? u then ttotal n (m_assets m) else 0.
Proof. intros. change (wsum (trw u n) (aput Z.eqb k m p) = wsum (trw u n) p + if m_from m =? u then ttotal n (m_assets m) else 0). rewrite (wsum_put Z.eqb z_key). unfold wat. rewrite H. unfold trw at 2. cbn [snd]. lia. Qed.
Lemma transit_del : forall p k m u n, aget Z.eqb k p = Some m -> sumOf (trw u n) (adel Z.eqb k p) = sumOf (trw u n) p - if m_from m =? u then ttotal n (m_assets m) else 0.
Proof. intros. change (wsum (trw u n) (adel Z.eqb k p) = wsum (trw u n) p - if m_from m =? u then ttotal n (m_assets m) else 0). rewrite (wsum_del Z.eqb z_key). unfold wat. rewrite H. unfold trw at 2. cbn [snd]. lia. Qed.
Lemma transit_is : forall s u n, in_transit s u n = sumOf (trw u n) (b_pend s).
Proof. reflexivity. Qed.
Lemma fee_same : forall s s' n, b_fees s' = b_fees s -> t_getFee s' n = t_getFee s n.
Proof. intros s s' n E. unfold t_getFee. rewrite E. reflexivity. Qed.
Lemma one_net : forall n k v f, tnet n [TAsset k v f] = if k =? n then v else 0.
Proof. intros. rewrite tnet_cons. cbn [a_name a_value]. unfold tnet, sumOf. cbn [fold_right]. lia. Qed.
Lemma one_fee : forall n k v f, tfee n [TAsset k v f] = if k =? n then f else 0.
Proof. intros. rewrite tfee_cons. cbn [a_name a_fee]. unfold tfee, sumOf. cbn [fold_right]. lia. Qed.

(** a change of one user's balances, of the fees and of what is under way, told by what is added to the history *)
Lemma binv_change : forall s s' add u du dl df dt, binv s -> moved u du dl (b_bal s) (b_bal s') -> (forall n, t_getFee s' n = t_getFee s n + df n) ->
  (forall w n, in_transit s' w n = in_transit s w n + if u =? w then dt n else 0) -> b_out s' = b_out s ++ add ->
  (forall w n, w <> u -> deposited add w n = 0 /\ taken add w n = 0 /\ arrived add w n = 0 /\ refused add w n = 0 /\ undone add w n = 0 /\ stuck add w n = 0) ->
  (forall n, du n = deposited add u n - taken add u n + refused add u n + undone add u n) ->
  (forall n, dl n = taken add u n - arrived add u n - refused add u n - undone add u n) ->
  (forall n, dt n = dl n - stuck add u n) ->
  (forall n, du n + dl n + df n = allDeposited add n - sentOff add n - feesGathered add n + feesReturned add n) ->
  (forall n, df n = feesTaken add n - feesGathered add n + feesReturned add n) -> binv s'.
Proof.
  intros s s' add u du dl df dt [A B C D E F] [M1 M2 M3] HF HT HO HW HU HL HD HB HE.
  assert (X : forall (f : tout -> Z), sumOf f (b_out s') = sumOf f (b_out s) + sumOf f add) by (intros f; rewrite HO; apply sum_app).
  split.
  - intros w n. unfold deposited, taken, refused, undone in *. rewrite !X. destruct (Z.eq_dec w u) as [->|N].
    + rewrite M1. cbn [l_usable]. rewrite A, HU. lia.
    + rewrite M2 by exact N. rewrite A. destruct (HW w n N) as (W1 & W2 & W3 & W4 & W5 & W6). rewrite W1, W2, W4, W5. lia.
  - intros w n. unfold taken, arrived, refused, undone in *. rewrite !X. destruct (Z.eq_dec w u) as [->|N].
    + rewrite M1. cbn [l_locked]. rewrite B, HL. lia.
    + rewrite M2 by exact N. rewrite B. destruct (HW w n N) as (W1 & W2 & W3 & W4 & W5 & W6). rewrite W2, W3, W4, W5. lia.
  - intros w n. destruct (Z.eq_dec w u) as [->|N]; [rewrite M1; cbn [l_refundable]|rewrite M2 by exact N]; apply C.
  - intros w n. rewrite HT, D. unfold taken, arrived, refused, undone, stuck in *. rewrite !X. destruct (Z.eqb_spec u w) as [->|N].
    + rewrite HD, HL. lia.
    + destruct (HW w n) as (W1 & W2 & W3 & W4 & W5 & W6); [congruence|]. rewrite W2, W3, W4, W5, W6. lia.
  - intros n. rewrite M3, HF. unfold allDeposited, sentOff, feesGathered, feesReturned in *. rewrite !X. specialize (E n). specialize (HB n). lia.
  - intros n. rewrite HF. unfold feesTaken, feesGathered, feesReturned in *. rewrite !X. specialize (F n). specialize (HE n). lia.
Qed.
Ltac addlogs := unfold deposited, taken, arrived, refused, undone, stuck, allDeposited, sentOff, feesTaken, feesGathered, feesReturned, sumOf; cbn [fold_right]; rewrite ?Z.eqb_refl; cbn [andb].

Lemma binv_step : forall s o s', pinv bmc s -> binv s -> teff s o s' -> (match o with TSetBalance _ _ _ _ _ _ => False | _ => True end) -> binv s'.
Proof.
  intros s o s' P I E HO. destruct E; try contradiction.
  - eapply (binv_same s _ []); try eassumption; try reflexivity; [symmetry; apply app_nil_r|constructor].
  - eapply (binv_same s _ []); try eassumption; try reflexivity; [symmetry; apply app_nil_r|constructor].
  - eapply (binv_same s _ []); try eassumption; try reflexivity; [symmetry; apply app_nil_r|constructor].
  - eapply (binv_change s _ [TDeposit tok n from v] from _ _ (fun _ => 0) (fun _ => 0) I); [exact (moved_set (moveLed s tok from self v) from n v 0)|..]; try reflexivity.
    + intros k. rewrite Z.add_0_r. reflexivity.
    + intros w k. rewrite !transit_is. change (sumOf (trw w k) (b_pend s) = sumOf (trw w k) (b_pend s) + (if from =? w then 0 else 0)). destruct (from =? w); lia.
    + intros w k N. addlogs. replace (from =? w) with false by lia. cbn [andb]. lia.
    + intros k. addlogs. destruct (n =? k); lia.
    + intros k. addlogs. destruct (n =? k); lia.
    + intros k. addlogs. destruct (n =? k); lia.
    + intros k. addlogs. destruct (n =? k); lia.
  - assert (NP : aget Z.eqb (b_sn s + 1) (b_pend s) = None). { destruct (aget Z.eqb (b_sn s + 1) (b_pend s)) as [q|] eqn:Q; [|reflexivity]. apply (p_pend _ _ P) in Q as (Q & _). lia. }
    eapply (binv_change s _ [_; _] c _ _ (fun _ => 0) (fun k => if n =? k then v else 0) I); [exact (moved_set s c n (- v) v)|..]; try (fields; rewrite <- app_assoc; reflexivity).
    + intros k. rewrite Z.add_0_r. reflexivity.
    + intros w k. rewrite !transit_is. fields. rewrite transit_put by exact NP. cbn [m_from m_assets]. unfold ttotal. rewrite one_net, one_fee. destruct (c =? w), (n =? k); lia.
    + intros w k N. addlogs. replace (c =? w) with false by lia. lia.
    + intros k. addlogs. unfold ttotal. rewrite one_net, one_fee. destruct (n =? k); lia.
    + intros k. addlogs. unfold ttotal. rewrite one_net, one_fee. destruct (n =? k); lia.
    + intros k. addlogs. destruct (n =? k); lia.
    + intros k. addlogs. destruct (n =? k); lia.
    + intros k. addlogs. lia.
  - eapply (binv_same s _ [_; _]); try eassumption; try reflexivity; [fields; rewrite <- app_assoc; reflexivity|repeat constructor].
  - eapply (binv_change s _ [_; _; _] self _ _ (fun _ => 0) (fun _ => 0) I); [exact (moved_set (moveLed s tok self self (a_value x)) self n (a_value x) 0)|..]; try (unfold t_setBalance; fields; rewrite <- !app_assoc; reflexivity).
    + intros k. rewrite Z.add_0_r. reflexivity.
    + intros w k. rewrite !transit_is. change (sumOf (trw w k) (b_pend s) = sumOf (trw w k) (b_pend s) + (if self =? w then 0 else 0)). destruct (self =? w); lia.
    + intros w k N. addlogs. replace (self =? w) with false by lia. cbn [andb]. lia.
    + intros k. addlogs. destruct (n =? k); lia.
    + intros k. addlogs. destruct (n =? k); lia.
    + intros k. addlogs. destruct (n =? k); lia.
    + intros k. addlogs. destruct (n =? k); lia.
    + intros k. addlogs. lia.
  - destruct (feesBack_spec (m_assets m) s) as [FB R].
    eapply (binv_change s _ [_; _] (m_from m) (fun _ => 0) (fun _ => 0) (fun n => if code =? T_ERR then tnet n (m_assets m) else 0) (fun _ => 0) I).
    + fields. replace (b_bal (if code =? T_ERR then t_feesBack s (m_assets m) else s)) with (b_bal s); [apply moved_refl|]. destruct (code =? T_ERR); [rewrite R|]; reflexivity.
    + intros n. erewrite (fee_same (if code =? T_ERR then t_feesBack s (m_assets m) else s)) by reflexivity. destruct (code =? T_ERR); [apply FB|lia].
    + intros w n. rewrite !transit_is. fields. replace (b_pend (if code =? T_ERR then t_feesBack s (m_assets m) else s)) with (b_pend s); [destruct (m_from m =? w); lia|]. destruct (code =? T_ERR); [rewrite R|]; reflexivity.
    + fields. replace (b_out (if code =? T_ERR then t_feesBack s (m_assets m) else s)) with (b_out s); [rewrite <- app_assoc; reflexivity|]. destruct (code =? T_ERR); [rewrite R|]; reflexivity.
    + intros w n N. addlogs. lia.
    + intros n. addlogs. lia.
    + intros n. addlogs. lia.
    + intros n. addlogs. lia.
    + intros n. addlogs. destruct (code =? T_ERR); lia.
    + intros n. addlogs. destruct (code =? T_ERR); lia.
  - destruct (settle_spec (m_assets m) s (m_from m) code) as (MV & FE & R). red in R.
    eapply (binv_change s _ [_; _] (m_from m) _ _ _ (fun n => - ttotal n (m_assets m)) I); [exact MV|..].
    + intros n. erewrite (fee_same (t_settle s (m_from m) code (m_assets m))) by reflexivity. apply FE.
    + intros w n. rewrite !transit_is. fields. rewrite (transit_del _ _ m) by assumption. destruct (m_from m =? w); lia.
    + fields. rewrite (f_equal b_out R). fields. rewrite <- app_assoc. reflexivity.
    + intros w n N. addlogs. replace (m_from m =? w) with false by lia. cbn [andb]. lia.
    + intros n. addlogs. destruct (code =? T_OK); cbn [negb]; lia.
    + intros n. addlogs. destruct (code =? T_OK); cbn [negb]; lia.
    + intros n. addlogs. lia.
    + intros n. addlogs. unfold ttotal. destruct (code =? T_OK); cbn [negb]; lia.
    + intros n. addlogs. destruct (code =? T_OK); lia.
  - exact I.
  - eapply (binv_same s _ [_]); try eassumption; try reflexivity. repeat constructor.
  - destruct (p_pend _ _ P _ _ H0) as (_ & _ & x' & HX & _). assert (l = []) as -> by congruence. rewrite H2 in *.
    assert (TN : forall n, tnet n [x] = if a_name x =? n then a_value x else 0) by (intros n; destruct x; apply one_net).
    assert (TF : forall n, tfee n [x] = if a_name x =? n then a_fee x else 0) by (intros n; destruct x; apply one_fee).
    eapply (binv_change s _ [_] (m_from m) _ _ (fun _ => 0) (fun n => - ttotal n [x]) I); [exact (moved_set s (m_from m) (a_name x) (a_value x) (- a_value x))|..]; try reflexivity.
    + intros n. rewrite Z.add_0_r. reflexivity.
    + intros w n. rewrite !transit_is. fields. rewrite (transit_del _ _ m) by assumption. rewrite H2. destruct (m_from m =? w); lia.
    + intros w n N. addlogs. replace (m_from m =? w) with false by lia. cbn [andb]. lia.
    + intros n. addlogs. rewrite TN. destruct (a_name x =? n); lia.
    + intros n. addlogs. rewrite TN. destruct (a_name x =? n); lia.
    + intros n. addlogs. unfold ttotal. rewrite TN, TF. destruct (a_name x =? n); lia.
    + intros n. addlogs. destruct (a_name x =? n); lia.
  - apply gather_spec in H0 as (add & -> & GF & _ & _ & _ & _ & _ & _ & _ & R). cbn [app].
    pose proof (f_equal b_bal R) as RB. pose proof (f_equal b_pend R) as RP. pose proof (f_equal b_out R) as RO. fields. destruct add as [|x add].
    + eapply (binv_change s _ [] 0 (fun _ => 0) (fun _ => 0) (fun _ => 0) (fun _ => 0) I).
      * rewrite RB. apply moved_refl.
      * intros n. rewrite <- (GF n). unfold tnet, sumOf. cbn [fold_right]. lia.
      * intros w n. rewrite !transit_is, RP. destruct (0 =? w); lia.
      * rewrite RO. symmetry. apply app_nil_r.
      * intros; repeat split; reflexivity.
      * reflexivity.
      * reflexivity.
      * reflexivity.
      * reflexivity.
      * reflexivity.
    + eapply (binv_change s _ [_; _] 0 (fun _ => 0) (fun _ => 0) (fun n => - tnet n (x :: add)) (fun _ => 0) I).
      * fields. rewrite RB. apply moved_refl.
      * intros n. rewrite <- (GF n). erewrite (fee_same s1) by reflexivity. lia.
      * intros w n. rewrite !transit_is. fields. rewrite RP. destruct (0 =? w); lia.
      * fields. rewrite RO. rewrite <- app_assoc. reflexivity.
      * intros w n N. addlogs. lia.
      * reflexivity.
      * reflexivity.
      * reflexivity.
      * intros n. addlogs. lia.
      * intros n. addlogs. lia.
Qed.
Lemma binv_init : binv (tinit deployer led0).
Proof. split; intros; reflexivity. Qed.
End TBSH.
