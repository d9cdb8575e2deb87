(** C88: the native coin service keeps its books. *)
From Coq Require Import ZArith List Bool Lia.
From Coq Require Import ZifyBool.
From Verif Require Import Base L_Base M_JMap L_JMap M_JBmc L_JBmc L_JSum M_Ncs S_Ncs L_Ncs L_Ncs2 L_Ncs3.
Import ListNotations.
Open Scope Z_scope.

Section C88.
Variables self name bmc deployer : Z.
Variable tid : Z -> Z.
Local Notation nexec := (nexec self name bmc deployer tid).
Local Notation nrun := (nrun self name bmc deployer tid).
(** No two coins share a token id, and the service does not call itself. *)
Definition distinct_ids : Prop := forall a b, tid a = tid b -> a = b.
Definition from_outside (l : list (ext * nop)) : Prop := Forall (fun xo => ncaller (snd xo) <> self) l.

Lemma run_inv : distinct_ids -> forall l, from_outside l -> ninv self name tid (nrun l).
Proof using.
  intros TI l. unfold M_Ncs.nrun. assert (G : forall s, ninv self name tid s -> from_outside l -> ninv self name tid (fold_left (nstep self name bmc deployer tid) l s)); [|intros H; apply G; [apply ninv_init|exact H]].
  induction l as [|[x o] l IH]; intros s I F; [exact I|]. apply Forall_cons_iff in F as [FO F]. cbn [fold_left]. apply IH; [|exact F]. unfold nstep. cbn [fst snd] in *. destruct (nexec s x o) as [s'|] eqn:E; [|exact I].
  eapply (ninv_step self name bmc tid); [exact I|exact FO|]. eapply nexec_effect; [exact TI| |exact FO|exact E]. intros sn t H. apply (i_tx _ _ _ s I sn t H).
Qed.
Lemma run_effect : distinct_ids -> forall l x o s', from_outside l -> ncaller o <> self -> nexec (nrun l) x o = Some s' -> effect self name bmc tid (nrun l) o s'.
Proof using.
  intros TI l x o s' F FO E. eapply nexec_effect; [exact TI| |exact FO|exact E]. intros sn t H. apply (i_tx _ _ _ _ (run_inv TI l F) sn t H).
Qed.

(** After any calls the books agree with the history: what is locked of an owner is what their pending transfers took; what was started
    is locked, settled or given back; what was given back is refundable or reclaimed; the fees are those of the settled transfers; and the
    native coins are those taken less those paid and reclaimed. *)
Theorem C88_books : distinct_ids -> forall l, from_outside l -> let s := nrun l in
  (forall c o, fst (getBalance s c o) = pending s c o /\ 0 <= pending s c o /\ 0 <= snd (getBalance s c o))
  /\ (forall c, lockedSum s c = started_sum (value_of c) (n_out s) - settled_sum (value_of c) (n_out s) - returned_sum (value_of c) (n_out s))
  /\ (forall c, refundSum s c = returned_sum (value_of c) (n_out s) - reclaimed_sum c (n_out s))
  /\ (forall c, getFee s c = settled_sum (fee_of c) (n_out s) /\ 0 <= getFee s c)
  /\ n_coins s = started_sum (value_of name) (n_out s) - paid_sum (n_out s) - reclaimed_sum name (n_out s).
Proof using.
  intros TI l F s. pose proof (run_inv TI l F) as I. fold s in I. repeat split.
  - apply (i_locked _ _ _ s I).
  - change (0 <= pend (n_tx s) c o). rewrite <- (i_locked _ _ _ s I). apply (bal_nonneg _ _ _ s I).
  - apply (i_refund _ _ _ s I).
  - apply (i_acc_l _ _ _ s I).
  - apply (i_acc_r _ _ _ s I).
  - apply (i_acc_f _ _ _ s I).
  - apply (i_fee _ _ _ s I).
  - apply (i_acc_c _ _ _ s I).
Qed.

(** The tokens of the service cover what it owes of every coin that is not native: locked, refundable and fees; the supply of a token is
    what the accounts hold, and no account holds less than nothing. *)
Theorem C88_tokens_kept : distinct_ids -> forall l, from_outside l -> let s := nrun l in
  (forall c, c <> name -> lockedSum s c + refundSum s c + getFee s c <= tokOf s (tid c) self)
  /\ (forall i, supOf s i = tokens s i) /\ (forall i a, 0 <= tokOf s i a <= supOf s i).
Proof using.
  intros TI l F s. pose proof (run_inv TI l F) as I. fold s in I. pose proof (i_tok _ _ _ s I) as [P S H ND]. split; [|split].
  - apply (i_cover _ _ _ s I).
  - intros i. symmetry. apply S.
  - intros i a. split; [apply P|]. change (gett (n_tok s) i a <= getf (n_sup s) i). rewrite <- S. unfold gett. destruct (aget zz_eqb (i, a) (n_tok s)) as [v|] eqn:E.
    + apply (aget_in zz_eqb zz_key) in E. pose proof (sum_ge (fun x : Z * Z * Z => if fst (fst x) =? i then snd x else 0) (n_tok s) _ ltac:(intros [[j b] w] hy; cbv beta; cbn [fst snd]; pose proof (P j b) as X; unfold gett in X; rewrite (aget_unique zz_eqb zz_key _ _ _ ND hy) in X; destruct (j =? i); lia) E) as X. cbn [fst snd] in X. rewrite Z.eqb_refl in X. exact X.
    + apply sum_nonneg. intros [[j b] w] hy. cbn [fst snd]. pose proof (P j b) as X. unfold gett in X. rewrite (aget_unique zz_eqb zz_key _ _ _ ND hy) in X. destruct (j =? i); lia.
Qed.

(** Transfers are numbered 1, 2, ... as they start; each ends at most once; those that have not ended are the stored ones, as started. *)
Theorem C88_transfers : distinct_ids -> forall l, from_outside l -> let s := nrun l in
  start_numbers (n_out s) = map Z.of_nat (seq 1 (Z.to_nat (n_sn s)))
  /\ (forall sn, 0 <= ends sn (n_out s) <= 1)
  /\ (forall sn o to ds, aget Z.eqb sn (n_tx s) = Some (NTx o to ds) <-> started_as sn (n_out s) = Some (o, to, ds) /\ ends sn (n_out s) = 0)
  /\ (forall o sn code, In (NEnd o sn code) (n_out s) -> exists to ds, started_as sn (n_out s) = Some (o, to, ds)).
Proof using.
  intros TI l F s. pose proof (run_inv TI l F) as I. fold s in I. split; [apply (i_starts _ _ _ s I)|]. split; [|split].
  - intros sn. rewrite (i_ends _ _ _ s I). destruct ((1 <=? sn) && (sn <=? n_sn s) && negb (ahas Z.eqb sn (n_tx s))); lia.
  - intros sn o to ds. split.
    + intros E. destruct (i_tx _ _ _ s I _ _ E) as (_ & _ & _ & X). split; [exact X|]. rewrite (i_ends _ _ _ s I). unfold ahas. rewrite E. cbn [negb]. rewrite andb_false_r. reflexivity.
    + intros [E1 E2]. rewrite (i_ends _ _ _ s I) in E2. assert (R : 1 <= sn <= n_sn s) by (apply (i_started _ _ _ s I); congruence). unfold ahas in E2. destruct (aget Z.eqb sn (n_tx s)) as [t|] eqn:E.
      * destruct (i_tx _ _ _ s I _ _ E) as (_ & _ & _ & X). rewrite E1 in X. injection X as -> -> ->. destruct t. reflexivity.
      * replace (1 <=? sn) with true in E2 by lia. replace (sn <=? n_sn s) with true in E2 by lia. discriminate.
  - intros o sn code HI. apply (i_end _ _ _ s I _ _ _ HI).
Qed.

(** A transfer takes the values named from the caller and asks the other side for them less the fee: of each value the fee is the ratio's
    share rounded down, but at least 1; at least 1 is sent. *)
Definition moves (o : nop) : option (Z * btpaddr * list (Z * Z)) :=
  match o with
  | TransferNative c v to => Some (c, to, [(name, v)])
  | Transfer c n v to => Some (c, to, [(n, v)])
  | TransferBatch c cs vs v to => Some (c, to, combine cs vs ++ (if 0 <? v then [(name, v)] else []))
  | _ => None
  end.
Theorem C88_charged : distinct_ids -> forall l x o c to vs s', from_outside l -> moves o = Some (c, to, vs) -> c <> self -> let s := nrun l in nexec s x o = Some s' ->
  exists ds, n_out s' = n_out s ++ [NSend (b_net to) (n_sn s + 1) (BRequest (b_acc to) (Some (map (fun d => Asset (d_coin d) (Some (d_amount d))) ds))); NStart c to (n_sn s + 1) ds]
  /\ Forall2 (fun p d => d_coin d = fst p /\ d_amount d + d_fee d = snd p /\ 1 <= d_amount d /\ d_fee d = Z.max 1 (snd p * n_ratio s / 10000)) vs ds
  /\ n_coins s' = n_coins s + value_of name ds
  /\ (forall k, k <> name -> tokOf s' (tid k) c = tokOf s (tid k) c - value_of k ds /\ tokOf s' (tid k) self = tokOf s (tid k) self + value_of k ds)
  /\ (forall k, getBalance s' k c = (fst (getBalance s k c) + value_of k ds, snd (getBalance s k c))).
Proof using.
  intros TI l x o c to vs s' F EM NC s E. pose proof (run_inv TI l F) as I. fold s in I. assert (FO : ncaller o <> self) by (destruct o; try discriminate; cbn [moves] in EM; cbn [ncaller]; congruence).
  pose proof (run_effect TI l x o s' F FO E) as EF. fold s in EF. pose proof (i_ratio _ _ _ s I) as RR.
  assert (EQ : exists ds, eff_start self name tid s c to vs ds s').
  { destruct EF as [o s' HO Q|o owner to' l' ds s' HO Q|o sn t code s' HO Q|? ? ? ? ? ? ? Q|? ? ? ? Q]; try discriminate; destruct o; try discriminate; try contradiction; cbn [moves] in EM; injection EM as <- <- <-; destruct HO as (-> & -> & ->); exists ds; exact Q. }
  destruct EQ as [ds Q]. exists ds. destruct Q. split; [exact es_out|]. split; [|split; [exact es_coins|split]].
  - clear - es_l es_ok RR. clearbody s. induction es_l as [|p d vs ds (A & B & C & D) F2 IH]; [constructor|]. apply Forall_cons_iff in es_ok as [[_ HP] es_ok]. constructor; [|apply IH, es_ok]. repeat split; try assumption. destruct D as [_ D]; [lia|exact HP|]. unfold fee_rule in D. replace (0 <? n_ratio s) with true in D by lia. exact D.
  - intros k N. split; [apply es_own, N|apply es_tok, N].
  - intros k. destruct es_bal as [B1 _ _ _ _]. change (getb (n_bal s') k c = (fst (getb (n_bal s) k c) + value_of k ds, snd (getb (n_bal s) k c))). rewrite B1. f_equal. lia.
Qed.

(** An answer from the message center to a pending transfer is always carried out (if the token contract works): OK settles it, anything
    else makes all of it refundable, including the fee. *)
Theorem C88_answered : distinct_ids -> forall l x o sn code t, from_outside l -> let s := nrun l in
  (exists from, o = HandleMessage bmc from sn (Some (BResponse code))) \/ (o = HandleError bmc sn /\ code = RC_ERR) -> bmc <> self -> aget Z.eqb sn (n_tx s) = Some t -> x_token x = true ->
  exists s', nexec s x o = Some s' /\ n_out s' = n_out s ++ [NEnd (t_from t) sn code] /\ aget Z.eqb sn (n_tx s') = None
  /\ (forall c, getBalance s' c (t_from t) = (fst (getBalance s c (t_from t)) - value_of c (t_assets t), snd (getBalance s c (t_from t)) + if code =? RC_OK then 0 else value_of c (t_assets t)))
  /\ (forall c, getFee s' c = getFee s c + if code =? RC_OK then fee_of c (t_assets t) else 0)
  /\ (forall c, c <> name -> supOf s' (tid c) = supOf s (tid c) - if code =? RC_OK then net_of c (t_assets t) else 0)
  /\ n_coins s' = n_coins s.
Proof using.
  intros TI l x o sn code t F s HO NB ET EX. pose proof (run_inv TI l F) as I. fold s in I. destruct (i_tx _ _ _ s I _ _ ET) as (T1 & T2 & T3 & T4).
  assert (EQ : nexec s x o = handleResponse self name tid s x sn code). { destruct HO as [(from & ->)|(-> & ->)]; cbn [M_Ncs.nexec]; unfold need; rewrite Z.eqb_refl; reflexivity. }
  pose proof (handleResponse_works self name tid TI s x sn code t I ET EX) as HW.
  destruct HW as [s' HW]. exists s'. rewrite EQ. split; [exact HW|]. apply (handleResponse_spec self name tid TI) in HW as [[_ X]|(t' & Q)]; [congruence| |intros t' E'; congruence].
  destruct Q. assert (t' = t) by congruence. subst t'. split; [exact ee_out|]. split; [rewrite ee_tx; apply (adel_same Z.eqb z_key), (i_nd _ _ _ s I)|]. split; [|split; [exact ee_fee|split; [exact ee_sup|exact ee_coins]]].
  intros c. destruct ee_bal as [B1 _ _ _ _]. change (getb (n_bal s') c (t_from t) = (fst (getb (n_bal s) c (t_from t)) - value_of c (t_assets t), snd (getb (n_bal s) c (t_from t)) + (if code =? RC_OK then 0 else value_of c (t_assets t)))). rewrite B1. f_equal.
Qed.

(** A refund can be reclaimed: of a token always (if the token contract and the receiver work), of the native coin if the coins are there. *)
Theorem C88_reclaimed : distinct_ids -> forall l x c n v, from_outside l -> c <> self -> let s := nrun l in
  0 < v <= snd (getBalance s n c) -> x_token x = true -> x_receiver x = true -> (n = name -> v <= n_coins s) ->
  exists s', nexec s x (Reclaim c n v) = Some s' /\ getBalance s' n c = (fst (getBalance s n c), snd (getBalance s n c) - v)
  /\ (n <> name -> tokOf s' (tid n) c = tokOf s (tid n) c + v) /\ (n = name -> n_coins s' = n_coins s - v).
Proof using.
  intros TI l x c n v F NC s HV EX1 EX2 HN. pose proof (run_inv TI l F) as I. fold s in I.
  pose proof (reclaim_works self name bmc deployer tid s x c n v I HV EX1 EX2 HN) as HW.
  destruct HW as [s' HW]. exists s'. split; [exact HW|]. pose proof (run_effect TI l x (Reclaim c n v) s' F NC HW) as EF. fold s in EF. inversion EF as [? ? HO Q|? ? ? ? ? ? HO Q|? ? ? ? ? HO Q| |? ? ? ? Q]; subst; try contradiction. destruct Q.
  split; [|split].
  - destruct ec_bal as [B1 _ _ _ _]. change (getb (n_bal s') n c = (fst (getb (n_bal s) n c), snd (getb (n_bal s) n c) - v)). rewrite B1, Z.eqb_refl. f_equal; lia.
  - intros N. change (gett (n_tok s') (tid n) c = gett (n_tok s) (tid n) c + v). rewrite ec_own, Z.eqb_refl by exact N. reflexivity.
  - intros ->. rewrite Z.eqb_refl in ec_coins. exact ec_coins.
Qed.

(** Who can make what grow or shrink: locked amounts shrink only by the message center; refundable ones only by their owner's reclaim; fees
    never shrink; tokens of others only by their own calls; native coins only by a request from the message center or a reclaim. *)
Theorem C88_who : distinct_ids -> forall l x o s', from_outside l -> ncaller o <> self -> let s := nrun l in nexec s x o = Some s' ->
  (forall c a, fst (getBalance s' c a) < fst (getBalance s c a) -> ncaller o = bmc)
  /\ (forall c a, snd (getBalance s' c a) < snd (getBalance s c a) -> exists v, o = Reclaim a c v)
  /\ (forall c, getFee s c <= getFee s' c)
  /\ (forall i a, a <> self -> tokOf s' i a < tokOf s i a -> ncaller o = a)
  /\ (n_coins s' < n_coins s -> ncaller o = bmc \/ exists a v, o = Reclaim a name v)
  /\ (forall i, supOf s i < supOf s' i -> ncaller o = bmc).
Proof using.
  intros TI l x o s' F FO s E. pose proof (run_inv TI l F) as I. fold s in I. pose proof (run_effect TI l x o s' F FO E) as EF. fold s in EF.
  change (forall c a, fst (getBalance s' c a) < fst (getBalance s c a) -> ncaller o = bmc) with (forall c a, fst (getb (n_bal s') c a) < fst (getb (n_bal s) c a) -> ncaller o = bmc).
  change (forall c a, snd (getBalance s' c a) < snd (getBalance s c a) -> exists v, o = Reclaim a c v) with (forall c a, snd (getb (n_bal s') c a) < snd (getb (n_bal s) c a) -> exists v, o = Reclaim a c v).
  change (forall c, getFee s c <= getFee s' c) with (forall c, getf (n_fee s) c <= getf (n_fee s') c).
  change (forall i a, a <> self -> tokOf s' i a < tokOf s i a -> ncaller o = a) with (forall i a, a <> self -> gett (n_tok s') i a < gett (n_tok s) i a -> ncaller o = a).
  change (forall i, supOf s i < supOf s' i -> ncaller o = bmc) with (forall i, getf (n_sup s) i < getf (n_sup s') i -> ncaller o = bmc).
  destruct EF as [o s' HO Q|o owner to l' ds s' HO Q|o sn t code s' HO Q|from sn a l' nv ms s' Q|c n v s' Q].
  - assert (TK : forall i a, a <> self -> gett (n_tok s') i a < gett (n_tok s) i a -> ncaller o = a).
    { intros i a NA HL. destruct o; cbn [M_Ncs.nexec] in E; try contradiction; unfold need in E.
      - destruct (nisOwner deployer s caller); [|discriminate]. destruct (negb (c =? name) && negb (mem c (n_reg s))); [|discriminate]. injection E as <-. cbn [set_reg n_tok] in HL. lia.
      - destruct (nisOwner deployer s caller); [|discriminate]. destruct ((1 <=? r) && (r <? FEE_DENOMINATOR)); [|discriminate]. injection E as <-. cbn [set_ratio n_tok] in HL. lia.
      - destruct (nisOwner deployer s caller); [|discriminate]. destruct (negb (a0 =? deployer) && negb (mem a0 (n_owners s))); [|discriminate]. injection E as <-. cbn [set_nowners n_tok] in HL. lia.
      - destruct (nisOwner deployer s caller); [|discriminate]. destruct (negb (a0 =? deployer) && mem a0 (n_owners s)); [|discriminate]. injection E as <-. cbn [set_nowners n_tok] in HL. lia.
      - destruct (caller =? bmc); [|discriminate]. destruct b as [b|]; [|discriminate]. cbn [nbind] in E. destruct b.
        + apply (handleRequest_spec name tid TI) in E as (a1 & l0 & nv & ms & _ & _ & R). pose proof (er_up _ _ _ _ _ _ _ _ _ _ R i a). lia.
        + apply (handleResponse_spec self name tid TI) in E as [[-> _]|(t & R)]; [lia|rewrite (ee_other _ _ _ _ _ _ _ _ R) in HL by exact NA; lia|intros t ET; apply (i_tx _ _ _ s I _ _ ET)].
        + injection E as <-. cbn [emitn n_tok] in HL. lia.
        + unfold sendBmc in E. destruct (x_bmc x); [|discriminate]. injection E as <-. cbn [emitn n_tok] in HL. lia.
      - destruct (caller =? bmc); [|discriminate]. apply (handleResponse_spec self name tid TI) in E as [[-> _]|(t & R)]; [lia|rewrite (ee_other _ _ _ _ _ _ _ _ R) in HL by exact NA; lia|intros t ET; apply (i_tx _ _ _ s I _ _ ET)].
      - cbn [ncaller]. destruct (negb (from =? self) && x_token x && x_receiver x); [|discriminate]. destruct (Z.eq_dec from a) as [X|NX]; [exact X|]. exfalso. destruct (Z.eq_dec from to) as [<-|N2].
        + unfold move in E. destruct ((v <? 0) || (tokOf s i0 from <? v)); [discriminate|]. injection E as <-. cbn [putTok set_tok n_tok] in HL. rewrite !gett_put in HL. unfold zz_eqb in HL. cbn [fst snd] in HL. replace (from =? a) with false in HL by lia. rewrite andb_false_r in HL. lia.
        + apply move_moved in E as [M PV]; [|exact N2]. destruct (Z.eq_dec a to) as [->|N3]; [rewrite (mv_to _ _ _ _ _ M) in HL; destruct (i0 =? i); lia|]. rewrite (mv_other _ _ _ _ _ M) in HL by congruence. lia. }
    destruct Q. rewrite eq_bal, eq_fee, eq_coins, eq_sup. repeat split; intros; try lia. eapply TK; eassumption.
  - assert (OC : ncaller o = owner) by (destruct o; try contradiction; destruct HO as [-> _]; reflexivity). rewrite OC. destruct Q. destruct es_bal as [B1 B2 _ _ _]. rewrite es_fee, es_sup.
    assert (DN : forall c, 0 <= value_of c ds).
    { intros c. rewrite <- (charged_value _ _ _ es_l c). apply sum_nonneg. intros p HI. rewrite Forall_forall in es_ok. destruct (es_ok p HI) as [_ X]. destruct (fst p =? c); lia. }
    repeat split; intros; try lia.
    + destruct (Z.eq_dec a owner) as [->|N]; [rewrite B1 in H; cbn [fst] in H; specialize (DN c); lia|rewrite B2 in H by exact N; lia].
    + destruct (Z.eq_dec a owner) as [->|N]; [rewrite B1 in H; cbn [snd] in H; lia|rewrite B2 in H by exact N; lia].
    + destruct (Z.eq_dec a owner) as [->|N]; [reflexivity|]. rewrite es_other in H0 by assumption. lia.
    + specialize (DN name). lia.
  - assert (OC : ncaller o = bmc) by (destruct o; try contradiction; cbn [ncaller]; try (destruct b as [[]|]; try contradiction); tauto). rewrite OC. destruct Q. destruct ee_bal as [B1 B2 _ _ _]. destruct (i_tx _ _ _ s I _ _ ee_get) as (T1 & T2 & _).
    pose proof (details_nonneg name s _ T2) as DN. rewrite ee_coins. repeat split; intros; try lia; try reflexivity.
    + exfalso. destruct (Z.eq_dec a (t_from t)) as [->|N]; [rewrite B1 in H; cbn [snd] in H; specialize (DN c); rewrite value_split in H; destruct (code =? RC_OK); lia|rewrite B2 in H by exact N; lia].
    + rewrite ee_fee. specialize (DN c). destruct (code =? RC_OK); lia.
    + rewrite ee_other in H0 by assumption. lia.
  - cbn [ncaller]. destruct Q. rewrite er_bal, er_fee. repeat split; intros; try lia; try reflexivity. specialize (er_up i a0). lia.
  - cbn [ncaller] in *. destruct Q. destruct ec_bal as [B1 B2 _ _ _]. rewrite ec_fee, ec_sup. repeat split; intros; try lia.
    + destruct (Z.eq_dec a c) as [->|N]; [rewrite B1 in H; cbn [fst] in H; lia|rewrite B2 in H by exact N; lia].
    + destruct (Z.eq_dec a c) as [->|N]; [|rewrite B2 in H by exact N; lia]. rewrite B1 in H. cbn [snd] in H. destruct (Z.eq_dec n c0) as [EN|N]; [subst; exists v; reflexivity|replace (n =? c0) with false in H by lia; lia].
    + specialize (ec_up i a H). lia.
    + destruct (Z.eq_dec n name) as [EN|N]; [subst; right; exists c, v; reflexivity|replace (n =? name) with false in ec_coins by lia; lia].
Qed.
End C88.

(** A service at 1 with native coin 2, message center 3, owner 4; accounts 5 and 6. *)
Definition all_ok : ext := Ext true true true.
Definition demo_to : btpaddr := BtpAddr 50 (Some 7).
Definition demo : list (ext * nop) := map (pair all_ok)
  [ Register 4 20; TransferNative 5 30000 demo_to; HandleMessage 3 50 1 (Some (BRequest (Some 5) (Some [Asset 20 (Some 500)])));
    Transfer 5 20 100 demo_to; TransferBatch 5 [20; 20] [10; 20] 7 demo_to; HandleMessage 3 50 1 (Some (BResponse 0)); HandleError 3 2; Reclaim 5 20 60 ].
Local Notation drun := (nrun 1 2 3 4 (fun c => c)).
Example C88_ex : distinct_ids (fun c => c) /\ from_outside 1 demo /\ let s := drun demo in
  start_numbers (n_out s) = [1; 2; 3] /\ n_coins s = 30007 /\ lockedSum s 2 = 7 /\ getFee s 2 = 30 /\ lockedSum s 20 = 30 /\ refundSum s 20 = 40
  /\ pending s 20 5 = 30 /\ tokOf s 20 1 = 70 /\ tokOf s 20 5 = 430 /\ supOf s 20 = 500 /\ ends 2 (n_out s) = 1 /\ ends 3 (n_out s) = 0.
Proof. split; [intros a b H; exact H|]. split; [repeat constructor; cbn; discriminate|]. vm_compute. repeat split; reflexivity. Qed.

(** Not so: the native coins of the service need not cover what it owes.  A request from any network the message center serves is paid from
    the coins others have locked; their refund then cannot be paid. *)
Theorem C88_native_kept_refuted : exists l, from_outside 1 l /\ let s := drun l in n_coins s < lockedSum s 2 + refundSum s 2 + getFee s 2
  /\ snd (getBalance s 2 5) = 1000 /\ nexec 1 2 3 4 (fun c => c) s all_ok (Reclaim 5 2 1000) = None.
Proof.
  exists (map (pair all_ok) [TransferNative 5 1000 demo_to; HandleMessage 3 99 7 (Some (BRequest (Some 6) (Some [Asset 2 (Some 900)]))); HandleError 3 1]).
  split; [repeat constructor; cbn; discriminate|]. vm_compute. repeat split; reflexivity.
Qed.

(** Not so: a request is carried out in full.  If it names the native coin more than once only the last amount is paid, and the answer is OK. *)
Theorem C88_request_in_full_refuted : exists l, from_outside 1 l /\ let s := drun l in
  exists s', nexec 1 2 3 4 (fun c => c) s all_ok (HandleMessage 3 50 9 (Some (BRequest (Some 6) (Some [Asset 2 (Some 500); Asset 2 (Some 30)])))) = Some s'
  /\ n_out s' = n_out s ++ [NPay 6 30; NSend 50 9 (BResponse RC_OK)].
Proof.
  exists (map (pair all_ok) [TransferNative 5 1000 demo_to]). split; [repeat constructor; cbn; discriminate|]. eexists. split; [vm_compute; reflexivity|]. vm_compute. reflexivity.
Qed.

(** Not so: only the network asked answers.  An OK from any other network settles the transfer. *)
Theorem C88_asked_network_answers_refuted : exists l t, from_outside 1 l /\ let s := drun l in aget Z.eqb 1 (n_tx s) = Some t /\ b_net (t_to t) = 50
  /\ exists s', nexec 1 2 3 4 (fun c => c) s all_ok (HandleMessage 3 60 1 (Some (BResponse 0))) = Some s' /\ n_out s' = n_out s ++ [NEnd 5 1 0] /\ getFee s' 2 = 1 /\ snd (getBalance s' 2 5) = 0.
Proof.
  exists (map (pair all_ok) [TransferNative 5 1000 demo_to]), (NTx 5 demo_to [Detail 2 999 1]). split; [repeat constructor; cbn; discriminate|]. cbv zeta. split; [vm_compute; reflexivity|]. split; [reflexivity|]. eexists. split; [vm_compute; reflexivity|]. vm_compute. repeat split; reflexivity.
Qed.

Print Assumptions C88_books.
Print Assumptions C88_tokens_kept.
Print Assumptions C88_transfers.
Print Assumptions C88_charged.
Print Assumptions C88_answered.
Print Assumptions C88_reclaimed.
Print Assumptions C88_who.
Print Assumptions C88_native_kept_refuted.
Print Assumptions C88_request_in_full_refuted.
Print Assumptions C88_asked_network_answers_refuted.
