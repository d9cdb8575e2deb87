(** The token service: what a call does, and what stays true. *)
From Coq Require Import ZArith List Bool Lia Permutation.
From Coq Require Import ZifyBool.
From Verif Require Import Base L_Base M_JMap L_JMap M_JBmc L_JBmc L_JSum M_Ncs S_Ncs L_Ncs M_Tbsh S_Tbsh L_Tbsh.
Import ListNotations.
Open Scope Z_scope.

Section TBSH.
Variables self bmc deployer : Z.
Variable isContract : Z -> bool.
Local Notation texec := (texec self bmc deployer isContract).

Definition moveLed (s : tb) (tok from to v : Z) : tb :=
  let s1 := putLed s tok from (ledOf s tok from - v) in putLed s1 tok to (ledOf s1 tok to + v).
(** the effects of calls *)
Inductive teff (s : tb) : top -> tb -> Prop :=
| FOwners : forall o os k, (exists c a, (o = TAddOwner c a /\ k = b_count s + 1 \/ o = TRemoveOwner c a /\ k = b_count s - 1 /\ 1 < b_count s) /\ t_isOwner deployer s c = true) -> teff s o (setOwners s os k)
| FRegister : forall c n num tok, t_isOwner deployer s c = true -> aget Z.eqb n (b_addr s) = None ->
    teff s (TRegister c n num tok) (setToks (setNames (setAddr s (aput Z.eqb n tok (b_addr s))) (b_names s ++ [n])) (aput Z.eqb tok (n, num) (b_toks s)))
| FMove : forall tok from to v, from <> self -> to <> self -> 0 <= v <= ledOf s tok from -> teff s (TTokens tok from to v) (moveLed s tok from to v)
| FDeposit : forall tok from v n num, from <> self -> 0 < v <= ledOf s tok from -> aget Z.eqb tok (b_toks s) = Some (n, num) -> n <> EMPTY_NAME ->
    teff s (TTokens tok from self v) (emitT (t_setBalance (moveLed s tok from self v) from n v 0 0) (TDeposit tok n from v))
| FStart : forall c n v t tok nn num fee, aget Z.eqb n (b_addr s) = Some tok -> v <> 0 -> v <= l_usable (t_getBalance s c n) -> aget Z.eqb tok (b_toks s) = Some (nn, num) -> fee = Z.quot (v * num) 10000 ->
    teff s (TTransfer c n v (Some t)) (emitT (emitT (setPend (setSn (t_setBalance s c n (- v) v 0) (b_sn s + 1)) (aput Z.eqb (b_sn s + 1) (TMove c t [TAsset n (v - fee) fee]) (b_pend s)))
        (TSend (ta_net t) (b_sn s + 1) (TRequest (ta_acc t) [TAsset n (v - fee) fee]))) (TStart c t (b_sn s + 1) [TAsset n (v - fee) fee]))
| FPay : forall c from svc sn a x l tok, c = bmc -> aget Z.eqb (a_name x) (b_addr s) = Some tok -> a <> self -> 0 <= a_value x <= ledOf s tok self ->
    teff s (TMessage c from svc sn (Some (TRequest (Some a) (x :: l)))) (emitT (emitT (moveLed s tok self a (a_value x)) (TPaid tok (a_name x) a (a_value x))) (TSend from sn (TAnswer T_OK)))
| FPaySelf : forall c from svc sn x l tok n num, c = bmc -> aget Z.eqb (a_name x) (b_addr s) = Some tok -> 0 < a_value x <= ledOf s tok self -> aget Z.eqb tok (b_toks s) = Some (n, num) -> n <> EMPTY_NAME ->
    teff s (TMessage c from svc sn (Some (TRequest (Some self) (x :: l)))) (emitT (emitT (emitT (t_setBalance (moveLed s tok self self (a_value x)) self n (a_value x) 0 0) (TDeposit tok n self (a_value x))) (TPaid tok (a_name x) self (a_value x))) (TSend from sn (TAnswer T_OK)))
| FFees : forall c from svc sn code m, c = bmc -> aget Z.eqb sn (b_pfees s) = Some m ->
    teff s (TMessage c from svc sn (Some (TAnswer code))) (emitT (emitT (setPfees (if code =? T_ERR then t_feesBack s (m_assets m) else s) (adel Z.eqb sn (b_pfees s))) (TFeesEnd sn code (m_assets m))) (TEnd (m_from m) sn code))
| FDone : forall c from svc sn code m, c = bmc -> aget Z.eqb sn (b_pfees s) = None -> aget Z.eqb sn (b_pend s) = Some m ->
    teff s (TMessage c from svc sn (Some (TAnswer code))) (emitT (emitT (setPend (t_settle s (m_from m) code (m_assets m)) (adel Z.eqb sn (b_pend s))) (TDone (m_from m) sn code (m_assets m))) (TEnd (m_from m) sn code))
| FUnknown : forall c from svc sn, c = bmc -> teff s (TMessage c from svc sn (Some TUnknown)) s
| FOther : forall c from svc sn, c = bmc -> teff s (TMessage c from svc sn (Some TOther)) (emitT s (TSend from (b_sn s) TUnknown))
| FUndone : forall c svc sn m a x l, c = bmc -> aget Z.eqb sn (b_pend s) = Some m -> ta_acc (m_to m) = Some a -> m_assets m = x :: l ->
    teff s (TError c svc sn) (emitT (setPend (t_setBalance s (m_from m) (a_name x) (a_value x) (- a_value x) 0) (adel Z.eqb sn (b_pend s))) (TUndone (m_from m) sn (m_assets m)))
| FGather : forall c t s1 l, c = bmc -> t_gather s c t (b_names s) [] = (s1, l) ->
    teff s (TGatherFees c (Some t)) (match l with [] => s1 | _ => emitT (emitT s1 (TGather (b_sn s1) l)) (TSend (ta_net t) (b_sn s1) (TRequest (ta_acc t) l)) end)
| FHand : forall c u n us lk rf, teff s (TSetBalance c u n us lk rf) (t_setBalance s u n us lk rf).

Lemma settle_pend : forall l s o c, b_pend (t_settle s o c l) = b_pend s.
Proof. intros. destruct (settle_spec l s o c) as (_ & _ & R). rewrite R. reflexivity. Qed.
Lemma back_pfees : forall l s, b_pfees (t_feesBack s l) = b_pfees s.
Proof. intros. destruct (feesBack_spec l s) as (_ & R). rewrite R. reflexivity. Qed.
Lemma texec_eff : forall s y o s', texec s y o = Some s' -> teff s o s'.
Proof.
  intros s y o s' E. destruct o; cbn [M_Tbsh.texec] in E; unfold tneed in E.
  - destruct (t_isOwner deployer s caller) eqn:EO; [|discriminate]. injection E as <-. apply FOwners. exists caller, a. auto.
  - destruct (t_isOwner deployer s caller) eqn:EO; [|discriminate]. destruct (1 <? b_count s) eqn:EC; [|discriminate]. injection E as <-. apply FOwners. exists caller, a. split; [right; repeat split; lia|exact EO].
  - destruct (t_isOwner deployer s caller) eqn:EO; [|discriminate]. destruct (aget Z.eqb n (b_addr s)) eqn:EA; [discriminate|]. injection E as <-. apply (FRegister s caller n num tok EO EA).
  - destruct (from =? self) eqn:EF; [discriminate|]. cbn [negb] in E. unfold irc2 in E. destruct ((v <? 0) || (ledOf s tok from <? v)) eqn:EV; [discriminate|]. cbv zeta in E. fold (moveLed s tok from to v) in E.
    change (putLed (putLed s tok from (ledOf s tok from - v)) tok to (ledOf (putLed s tok from (ledOf s tok from - v)) tok to + v)) with (moveLed s tok from to v) in E.
    destruct (Z.eqb_spec to self) as [->|NS].
    + unfold tokenFallback in E. destruct (Z.eqb_spec v 0) as [|NV]; [discriminate|]. change (b_toks (moveLed s tok from self v)) with (b_toks s) in E. destruct (aget Z.eqb tok (b_toks s)) as [[n num]|] eqn:ET; [|discriminate]. destruct (Z.eqb_spec n EMPTY_NAME) as [|NE]; [discriminate|]. injection E as <-. eapply FDeposit; try eassumption; lia.
    + assert (s' = moveLed s tok from to v) as ->. { destruct (isContract to); [unfold tneed in E; destruct (y_receiver y); [|discriminate]|]; congruence. } apply FMove; lia.
  - unfold t_transfer in E. destruct (aget Z.eqb n (b_addr s)) as [tok|] eqn:EA; [|discriminate]. destruct (Z.eqb_spec v 0) as [|NV]; [discriminate|]. destruct (Z.ltb_spec (l_usable (t_getBalance s caller n)) v) as [|LV]; [discriminate|]. destruct to as [t|]; [|discriminate]. cbn [tbind] in E. destruct (aget Z.eqb tok (b_toks s)) as [[nn num]|] eqn:ET; [|discriminate].
    cbv zeta in E. unfold t_send, tneed in E. destruct (y_bmc y); [|discriminate]. cbn [tbind] in E. injection E as <-. apply (FStart s caller n v t tok nn num); auto.
  - destruct (Z.eqb_spec caller bmc) as [->|]; [|discriminate]. destruct svc; [|discriminate]. destruct b as [b|]; [|discriminate]. cbn [tbind] in E. destruct b as [to l|code| |].
    + unfold t_request in E. destruct to as [a|]; [|discriminate]. cbn [tbind] in E. destruct l as [|x l]; [discriminate|]. destruct (aget Z.eqb (a_name x) (b_addr s)) as [tok|] eqn:EA; [|discriminate].
      unfold irc2 in E. destruct ((a_value x <? 0) || (ledOf s tok self <? a_value x)) eqn:EV; [discriminate|]. cbv zeta in E.
      change (putLed (putLed s tok self (ledOf s tok self - a_value x)) tok a (ledOf (putLed s tok self (ledOf s tok self - a_value x)) tok a + a_value x)) with (moveLed s tok self a (a_value x)) in E.
      destruct (Z.eqb_spec a self) as [->|NS].
      * unfold tokenFallback in E. destruct (Z.eqb_spec (a_value x) 0) as [|NV]; [discriminate|]. change (b_toks (moveLed s tok self self (a_value x))) with (b_toks s) in E. destruct (aget Z.eqb tok (b_toks s)) as [[n num]|] eqn:ET; [|discriminate]. destruct (Z.eqb_spec n EMPTY_NAME) as [|NE]; [discriminate|]. cbn [tbind] in E. unfold t_send, tneed in E. destruct (y_bmc y); [|discriminate]. injection E as <-. eapply FPaySelf; try eassumption; try reflexivity; lia.
      * assert (X : (if isContract a then tneed (y_receiver y) (Some (moveLed s tok self a (a_value x))) else Some (moveLed s tok self a (a_value x))) = None \/ (if isContract a then tneed (y_receiver y) (Some (moveLed s tok self a (a_value x))) else Some (moveLed s tok self a (a_value x))) = Some (moveLed s tok self a (a_value x))).
        { destruct (isContract a); [unfold tneed; destruct (y_receiver y)|]; auto. }
        destruct X as [X|X]; rewrite X in E; cbn [tbind] in E; [discriminate|]. unfold t_send, tneed in E. destruct (y_bmc y); [|discriminate]. injection E as <-. eapply FPay; try eassumption; try reflexivity; lia.
    + unfold t_answer in E. destruct (aget Z.eqb sn (b_pfees s)) as [m|] eqn:EP.
      * injection E as <-. replace (b_pfees (if code =? T_ERR then t_feesBack s (m_assets m) else s)) with (b_pfees s) by (destruct (code =? T_ERR); [rewrite back_pfees|]; reflexivity). apply FFees; [reflexivity|exact EP].
      * destruct (aget Z.eqb sn (b_pend s)) as [m|] eqn:EQ; [|discriminate]. injection E as <-. rewrite settle_pend. apply FDone; [reflexivity|exact EP|exact EQ].
    + injection E as <-. apply FUnknown; reflexivity.
    + unfold t_send, tneed in E. destruct (y_bmc y); [|discriminate]. injection E as <-. apply FOther; reflexivity.
  - destruct (Z.eqb_spec caller bmc) as [->|]; [|discriminate]. destruct svc; [|discriminate]. unfold t_error in E. destruct (aget Z.eqb sn (b_pend s)) as [m|] eqn:EQ; [|discriminate]. destruct (ta_acc (m_to m)) as [a|] eqn:EA; [|discriminate]. cbn [tbind] in E. destruct (m_assets m) as [|x l] eqn:EX; [discriminate|]. injection E as <-. rewrite <- EX. eapply FUndone; try eassumption; reflexivity.
  - destruct (Z.eqb_spec caller bmc) as [->|]; [|discriminate]. destruct fa as [t|]; [|discriminate]. cbn [tbind] in E. destruct (t_gather s bmc t (b_names s) []) as [s1 l] eqn:EG.
    pose proof (FGather s bmc t s1 l eq_refl EG) as X. destruct l; [injection E as <-; exact X|]. unfold t_send, tneed in E. destruct (y_bmc y); [|discriminate]. injection E as <-. exact X.
  - injection E as <-. apply FHand.
Qed.

(** * The tokens held *)
Lemma led_move : forall s tok from to v k a, ledOf (moveLed s tok from to v) k a = ledOf s k a + (if k =? tok then (if a =? to then v else 0) - (if a =? from then v else 0) else 0).
Proof.
  intros. unfold moveLed. cbv zeta. change (ledOf s tok from) with (gett (b_led s) tok from). cbn [putLed setLed b_led].
  change (ledOf (setLed s (aput zz_eqb (tok, from) (gett (b_led s) tok from - v) (b_led s))) tok to) with (gett (aput zz_eqb (tok, from) (gett (b_led s) tok from - v) (b_led s)) tok to).
  unfold ledOf. cbn [b_led putLed setLed]. change (gett (aput zz_eqb (tok, to) (gett (aput zz_eqb (tok, from) (gett (b_led s) tok from - v) (b_led s)) tok to + v) (aput zz_eqb (tok, from) (gett (b_led s) tok from - v) (b_led s))) k a = gett (b_led s) k a + (if k =? tok then (if a =? to then v else 0) - (if a =? from then v else 0) else 0)).
  rewrite !gett_put. unfold zz_eqb. cbn [fst snd]. rewrite Z.eqb_refl. cbn [andb].
  destruct (Z.eqb_spec k tok) as [->|N].
  - rewrite Z.eqb_refl. cbn [andb]. rewrite (Z.eqb_sym a to), (Z.eqb_sym a from). destruct (Z.eqb_spec to a) as [->|N1], (Z.eqb_spec from a) as [->|N2]; try lia.
  - replace (tok =? k) with false by lia. cbn [andb]. lia.
Qed.
End TBSH.
