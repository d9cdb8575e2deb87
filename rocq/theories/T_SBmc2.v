(** Theorems about the message center for the EVM: the fate of messages C77. *)
From Coq Require Import String Ascii ZArith List Bool Lia Permutation.
From Coq Require Import ZifyBool.
From Verif Require Import Base L_Base M_SolRlp M_BtpAddr M_Bridge M_JMap L_JMap M_SBmc S_SBmc L_SBmc X_SBmc.
From Verif Require S_JBmc M_SolCall.
Import ListNotations.
Open Scope Z_scope.

Section BMC.
Context (own : text) (self mgmt svcaddr : Z) (junk : list Z -> mem).
Context (verify : nat -> Z -> text -> Z -> list Z -> option (list (list Z))) (serve : nat -> Z -> bshcall -> action) (blame : nat -> text) (accepts : nat -> Z -> Z -> bool).
Notation exec := (exec own self mgmt svcaddr junk verify serve blame accepts).
Notation dispatch := (dispatch own self mgmt svcaddr junk serve blame).
Notation dispatch_all := (dispatch_all own self mgmt svcaddr junk serve blame).
Notation handleMessage := (handleMessage own self mgmt svcaddr junk serve blame).
Notation sendError := (sendError own self).
Notation refused := (refused own).
Notation segment := (segment own).
Notation handled := (handled own).
Notation outcome := (outcome own self svcaddr junk serve).

Lemma handleErrorFee_some : forall g x src sn f x' f', handleErrorFee self g x src sn f = Some (x', f') ->
  f_net f' = f_net f /\ (0 < sn -> reordered f' f /\ x' = x) /\ (sn <= 0 -> f_vals f' = []).
Proof.
  intros g x src sn f x' f' E. unfold handleErrorFee in E. destruct (0 <? sn) eqn:S.
  - cbv zeta in E. split; [destruct (_ && _)%nat in E; injection E as _ <-; reflexivity|]. split; [|lia]. intros _. destruct (_ && _)%nat.
    + split; [|congruence]. assert (f' = Fee (f_net f) (skipn (length (f_vals f) - getHop g src) (f_vals f) ++ firstn (length (f_vals f) - getHop g src) (f_vals f))) by congruence. subst f'. split; [reflexivity|].
      cbn [f_vals]. apply Permutation_count_occ. etransitivity; [apply Permutation_app_comm|]. rewrite firstn_skipn. reflexivity.
    + assert (f' = f) by congruence. subst. split; [|congruence]. split; reflexivity.
  - unfold collectRemainFee in E. bnd E t F. bnd E y F2. assert (f' = Fee (f_net f) []) by congruence. subst f'. split; [reflexivity|]. split; [lia|reflexivity].
Qed.
Lemma sendError_out : forall s prev seq m code reason s', sendError s prev seq m code reason = Some s' -> exists new, s_out s' = s_out s ++ new /\ refused prev seq m code reason new.
Proof.
  intros s prev seq m code reason s' E. unfold M_SBmc.sendError in E. bnd E y F1. destruct y as [x f]. cbv zeta in E. cbn [with_fee m_sn m_nsn m_src m_svc m_fee fst snd] in E.
  apply handleErrorFee_some in F1 as (FN & FR & FD). destruct (0 <? m_sn m) eqn:S.
  - bnd E a F2. bnd E b F3. bnd E c F4. apply send_some in E as [_ ->]. unfold cneg in F2, F3. destruct (m_sn m =? _); [discriminate|]. destruct (m_nsn m =? _); [discriminate|].
    same F2. same F3. eexists. split; [cbn [emit sent with_p with_s s_out]; rewrite <- app_assoc; reflexivity|]. apply rf_answer; [lia|exact F4|]. apply FR. lia.
  - bnd E s1 F2. apply event_some in F2. bnd E b F3. same E. subst s1. eexists. split; [cbn [emit with_s s_out]; rewrite <- app_assoc; reflexivity|].
    assert (X : f = Fee (f_net (m_fee m)) []) by (destruct f as [k vs]; cbn [f_net f_vals] in *; rewrite (FD ltac:(lia)), FN; reflexivity). rewrite X. apply rf_drop. lia.
Qed.

Lemma handleMessage_code : forall s m s' e, handleMessage s m = Some (s', e) -> 0 <= fst e <= 4.
Proof.
  intros s m s' e E. unfold M_SBmc.handleMessage in E. cbv zeta in E. bnd E sn F1. unfold ECODE_NO_BSH, ECODE_UNKNOWN, ECODE_BSH_REVERT, ECODE_NONE in E.
  destruct (if bytes_eqb (m_svc m) BMC_SERVICE then Some svcaddr else _) as [a|]; [|apply some_inj in E; injection E as _ ->; cbn [fst]; lia].
  destruct (0 <=? m_sn m).
  - bnd E r F2. destruct r; injection E as _ <-; cbn [fst]; [lia|]. destruct (bytes_eqb _ _); lia.
  - destruct (decodeResponseMessage junk (m_body m)) as [[code t]|]; [|injection E as _ <-; cbn [fst]; lia]. bnd E k F2. bnd E r F3. destruct r; injection E as _ <-; cbn [fst]; [lia|]. destruct (bytes_eqb _ _); lia.
Qed.
Lemma resolveNext_some : forall m d n, resolveNext m d = Some n -> r_type (route_of m d) <> TNone /\ n = r_next (route_of m d).
Proof. intros m d n E. unfold resolveNext in E. destruct (r_type (route_of m d)); cbn [rtype_eqb] in E; try discriminate; split; try congruence; discriminate. Qed.
Lemma resolveNext_none : forall m d, resolveNext m d = None -> r_type (route_of m d) = TNone.
Proof. intros m d E. unfold resolveNext in E. destruct (r_type (route_of m d)); cbn [rtype_eqb] in E; try discriminate; reflexivity. Qed.

Lemma dispatch_segment : forall s prev seq m s', dispatch s prev seq m = Some s' -> exists new, s_out s' = s_out s ++ new /\ segment prev seq m new.
Proof.
  intros s prev seq m s' E. unfold M_SBmc.dispatch in E. destruct (bytes_eqb (m_dst m) own) eqn:ED.
  - apply bytes_eqb_spec in ED. bnd E y F1. destruct y as [s1 e]. pose proof (handleMessage_code _ _ _ _ F1) as C. apply evolve_handleMessage in F1 as (n1 & [A1 _ _ _ _] & NF & SAME). unfold ECODE_NONE in *. destruct (fst e =? 0) eqn:EC.
    + apply event_some in E. subst s'. exists (n1 ++ [OEvent (fst (msg_id m)) (snd (msg_id m)) [] RECEIVE]). split; [cbn [emit s_out]; rewrite A1, app_assoc; reflexivity|]. apply sg_receive; [congruence|exact NF].
    + bnd E s2 F2. rewrite (SAME ltac:(lia)) in F2. assert (O2 : s_out s2 = s_out s) by (destruct (0 <? m_sn m); [bnd F2 y F3; same F2; reflexivity|congruence]).
      apply sendError_out in E as (new & X1 & X2). exists new. split; [rewrite X1, O2; reflexivity|]. eapply sg_refused; [|exact X2]. lia.
  - assert (N : own <> m_dst m) by (intros X; rewrite X, bytes_eqb_refl in ED; discriminate). destruct (resolveNext _ _) as [next|] eqn:ER.
    + apply send_some in E as [_ ->]. eexists. split; [cbn [emit sent with_p s_out]; rewrite <- app_assoc; reflexivity|]. apply sg_route, N.
    + apply sendError_out in E as (new & X1 & X2). exists new. split; [exact X1|]. eapply sg_refused; [|exact X2]. unfold ECODE_NO_ROUTE. lia.
Qed.
(** the fee of an incoming message *)
Lemma handleFee_some : forall x a b x' m', handleFee own self junk x a b = Some (x', m') -> exists m, decodeBTPMessage junk b = Some m /\
  ((own = m_dst m /\ m_sn m <= 0 /\ m' = with_fee m (Fee (f_net (m_fee m)) [])) \/ (~ (own = m_dst m /\ m_sn m <= 0) /\ m' = paid m)).
Proof.
  intros x a b x' m' E. unfold handleFee in E. bnd E m F1. exists m. split; [exact F1|]. bnd E y F2. destruct y as [x1 f].
  assert (X : f = Fee (f_net (m_fee m)) (tl (f_vals (m_fee m)))).
  { unfold accumulateFee in F2. destruct (f_vals (m_fee m)) as [|v r] eqn:EV; [assert (f = m_fee m) by congruence; subst f; destruct (m_fee m) as [fn fv]; cbn [f_vals] in EV; subst; reflexivity|]. bnd F2 x2 F3. cbn [tl]. congruence. }
  cbv zeta in E. cbn [with_fee m_dst m_sn m_src m_svc m_nsn m_fee] in E. rewrite X in E. destruct (bytes_eqb (m_dst m) own) eqn:ED.
  - apply bytes_eqb_spec in ED. destruct (0 <? m_sn m) eqn:S.
    + right. split; [intros [_ L]; lia|]. bnd E z F3. injection E as _ <-. reflexivity.
    + left. split; [congruence|]. split; [lia|]. bnd E z F3. injection E as _ <-. unfold collectRemainFee in F3. bnd F3 t F4. bnd F3 x2 F5. same F3. reflexivity.
  - right. split; [intros [X1 _]; rewrite X1, bytes_eqb_refl in ED; discriminate|]. injection E as _ <-. reflexivity.
Qed.
Lemma segment_fee : forall prev seq m new, own = m_dst m -> m_sn m <= 0 -> segment prev seq (with_fee m (Fee (f_net (m_fee m)) [])) new -> segment prev seq (paid m) new.
Proof.
  intros prev seq m new ED S G. inversion G as [n H1 H2|next n H1|code reason new' H1 H2]; try subst new.
  - apply (sg_receive own prev seq (paid m)); [exact ED|exact H2].
  - exfalso. apply H1. exact ED.
  - eapply sg_refused; [exact H1|]. inversion H2 as [n b f S1 S2 S3|S1]; try subst new; cbn [with_fee m_sn m_src m_svc m_nsn] in *; [exfalso; lia|]. apply (rf_drop own prev seq (paid m)). exact S1.
Qed.
Lemma dispatch_all_handled : forall bs s c prev rx s', dispatch_all s c prev rx bs = Some s' ->
  exists ms new, Forall2 (fun b m => decodeBTPMessage junk b = Some m) bs ms /\ s_out s' = s_out s ++ new /\ handled prev rx ms new.
Proof.
  induction bs as [|b bs IH]; intros s c prev rx s' E; cbn [M_SBmc.dispatch_all] in E.
  - exists [], []. split; [constructor|]. split; [rewrite app_nil_r; congruence|reflexivity].
  - bnd E y F1. bnd E s1 F2. destruct y as [x m']. apply handleFee_some in F1 as (m & D & FM). apply dispatch_segment in F2 as (seg & A1 & A2). apply IH in E as (ms & rest & B1 & B2 & B3).
    exists (m :: ms), (seg ++ rest). split; [constructor; assumption|]. split; [rewrite B2, A1; cbn [with_s s_out]; rewrite app_assoc; reflexivity|]. exists seg, rest. split; [reflexivity|]. split; [|exact B3].
    destruct FM as [(X1 & X2 & X3)|(_ & X3)]; cbn [snd] in A2; rewrite X3 in A2; [apply segment_fee; assumption|exact A2].
Qed.

(** Every message in an accepted relay message, in its order, is delivered, sent on, answered with an error or
    dropped, and nothing else is put out.  They are exactly those the verifier returned for the number of messages
    received so far. *)
Theorem C77_fate : forall s c prev b s', exec s (HandleRelay c prev b) = Some s' -> let rx := rx_of (s_p s) prev in
  exists net v bs ms new, networkAddress prev = Some net /\ getVerifier (s_m s) net = Some v /\ verify (length (s_out s)) v prev rx b = Some bs /\
    Forall2 (fun b m => decodeBTPMessage junk b = Some m) bs ms /\ s_out s' = s_out s ++ new /\ handled prev rx ms new.
Proof.
  intros s c prev b s' E rx. cbn [M_SBmc.exec] in E. unfold handleRelay in E. bnd E net F1. cbv zeta in E. bnd E v F2. bnd E bs F3. bnd E r F4. chk E H1. bnd E s1 F5. same E.
  apply dispatch_all_handled in F5 as (ms & new & D & O & HD). exists net, v, bs, ms, new. repeat split; assumption.
Qed.
(** One ending each. *)
Theorem C77_one_event_each : forall prev ms rx new, handled prev rx ms new -> length (filter is_fate new) = length ms.
Proof.
  intros prev. induction ms as [|m ms IH]; intros rx new H; cbn [S_SBmc.handled] in H; [subst; reflexivity|]. destruct H as (seg & rest & -> & G & R). rewrite filter_app, app_length, (IH _ _ R). cbn [length]. change (S (length ms)) with (1 + length ms)%nat. f_equal.
  inversion G as [n H1 H2|next n H1|code reason new' H1 H2]; subst.
  - rewrite filter_app, H2. reflexivity.
  - reflexivity.
  - inversion H2; subst; reflexivity.
Qed.

(** Which ending: a message for another network goes to the neighbour the routes name, or is refused as unreachable;
    one for this network goes to the service it names, which is told its source, number and bytes, or, for an error,
    code and text; it is refused if there is no such service, if the service fails, or if an error cannot be read. *)
Theorem C77_outcome : forall s prev seq m s', dispatch s prev seq m = Some s' -> - 2 ^ 255 <= m_sn m < 2 ^ 255 ->
  (own = m_dst m -> m_svc m <> str "bmc" /\ ~ In (h_of (s_m s) (m_svc m)) [self; mgmt; svcaddr]) ->
  exists new, s_out s' = s_out s ++ new /\ outcome s prev seq m new.
Proof.
  intros s prev seq m s' E R HO. pose proof E as E0. unfold M_SBmc.dispatch in E. destruct (bytes_eqb (m_dst m) own) eqn:ED.
  - apply bytes_eqb_spec in ED. symmetry in ED. specialize (HO ED). destruct HO as [NS NA]. cbn [In] in NA. bnd E y F1. destruct y as [s1 e].
    unfold M_SBmc.handleMessage in F1. cbv zeta in F1. change BMC_SERVICE with (str "bmc") in F1. rewrite (bytes_eqb_false _ _ NS) in F1. cbn [sbind] in F1.
    unfold getService, existsService in F1. destruct (Z.eqb_spec (h_of (s_m s) (m_svc m)) 0) as [H0|H0]; cbn [negb require sbind] in F1.
    + (* no service *)
      injection F1 as <- <-. cbn [fst snd] in E. change (ECODE_NO_BSH =? ECODE_NONE) with false in E. cbv iota in E. bnd E s2 F2.
      assert (O2 : s_out s2 = s_out s) by (destruct (0 <? m_sn m); [bnd F2 y F3; same F2; reflexivity|congruence]). apply sendError_out in E as (new & X1 & X2). exists new. split; [congruence|]. apply oc_no_service; assumption.
    + assert (HC : forall c, told junk m c -> sbind (call_service own self mgmt svcaddr junk serve blame s (h_of (s_m s) (m_svc m)) c)
        (fun r => Some (match r with inl s' => (s', (ECODE_NONE, [])) | inr reason => (s, (ECODE_BSH_REVERT, reason)) end)) = Some (s1, e) ->
        exists new, s_out s' = s_out s ++ new /\ outcome s prev seq m new).
      { intros c T E2. bnd E2 r F2. unfold call_service in F2. replace (h_of (s_m s) (m_svc m) =? svcaddr) with false in F2 by lia. replace (h_of (s_m s) (m_svc m) =? self) with false in F2 by lia.
        replace (h_of (s_m s) (m_svc m) =? mgmt) with false in F2 by lia. cbn [orb] in F2. destruct (serve _ _ _) as [|reason|cs reason] eqn:SV; [discriminate| |].
        - same F2. injection E2 as <- <-. cbn [fst snd] in E. change (ECODE_BSH_REVERT =? ECODE_NONE) with false in E. cbv iota in E. bnd E s2 F2.
          assert (O2 : s_out s2 = s_out s) by (destruct (0 <? m_sn m); [bnd F2 y F3; same F2; reflexivity|congruence]). apply sendError_out in E as (new & X1 & X2). exists new. split; [congruence|]. eapply oc_reverts; eassumption.
        - destruct (run_calls _ _ _ _ _ _) as [s3|] eqn:RC; same F2; injection E2 as <- <-; cbn [fst snd] in E.
          + change (ECODE_NONE =? ECODE_NONE) with true in E. cbv iota in E. apply event_some in E. subst s'. pose proof RC as RC0. apply evolve_calls in RC as (new & [A1 _ _ _ _] & _).
            exists (new ++ [OEvent (fst (msg_id m)) (snd (msg_id m)) [] RECEIVE]). split; [cbn [emit s_out]; rewrite A1, app_assoc; reflexivity|]. eapply oc_received; eassumption.
          + change (ECODE_BSH_REVERT =? ECODE_NONE) with false in E. cbv iota in E. bnd E s2 F2.
            assert (O2 : s_out s2 = s_out s) by (destruct (0 <? m_sn m); [bnd F2 y F3; same F2; reflexivity|congruence]). apply sendError_out in E as (new & X1 & X2). exists new. split; [congruence|]. eapply oc_fails; eassumption. }
      destruct (0 <=? m_sn m) eqn:S.
      * unfold uint256 in F1. rewrite Z.mod_small in F1 by lia. apply (HC _ (or_introl (conj (proj1 (Z.leb_le _ _) S) eq_refl)) F1).
      * destruct (decodeResponseMessage junk (m_body m)) as [[code t]|] eqn:DR.
        -- bnd F1 k F2. unfold cneg in F2. destruct (_ =? _) eqn:EM in F2; [discriminate|]. same F2. unfold uint256 in F1. rewrite Z.mod_small in F1 by lia.
           apply (HC (BError (m_src m) (m_svc m) (- m_sn m) code t)); [|exact F1]. right. split; [lia|]. exists code, t. split; [exact DR|reflexivity].
        -- injection F1 as <- <-. cbn [fst snd] in E. change (ECODE_UNKNOWN =? ECODE_NONE) with false in E. cbv iota in E. bnd E s2 F2.
           assert (O2 : s_out s2 = s_out s) by (destruct (0 <? m_sn m); [bnd F2 y F3; same F2; reflexivity|congruence]). apply sendError_out in E as (new & X1 & X2). exists new. split; [congruence|]. apply oc_unparsable; try assumption. lia.
  - assert (N : own <> m_dst m) by (intros X; rewrite X, bytes_eqb_refl in ED; discriminate). destruct (resolveNext _ _) as [next|] eqn:ER.
    + apply resolveNext_some in ER as [T1 T2]. apply send_some in E as [_ ->]. eexists. split; [cbn [emit sent with_p s_out]; rewrite <- app_assoc; reflexivity|]. apply oc_route; assumption.
    + apply resolveNext_none in ER. apply sendError_out in E as (new & X1 & X2). exists new. split; [exact X1|]. apply oc_unreachable; assumption.
Qed.
End BMC.
Print Assumptions C77_fate.
Print Assumptions C77_one_event_each.
Print Assumptions C77_outcome.

(** What becomes of a request for a service that works, one that reverts, none; of one for another network; and of an answer for a missing service. *)
Definition x_fate (m : msg) : list (text * Z * text * ev) :=
  match x_exec x_base (HandleRelay 7 x_link (x_bytes m)) with
  | Some s => flat_map (fun o => match o with OEvent a n b e => [(a, n, b, e)] | _ => [] end) (skipn (length (s_out x_base)) (s_out s))
  | None => []
  end.
Example C77_ex_fates :
  x_fate (x_msg x_own (str "xcall") 3 9 [5; 6]) = [(x_icon, 9, x_link, REPLY); (x_icon, 9, [], RECEIVE)] /\
  x_fate (x_msg x_own (str "bad") 3 9 [5; 6]) = [(x_icon, 9, x_link, ERROR)] /\
  x_fate (x_msg x_own (str "none") 3 9 [5; 6]) = [(x_icon, 9, x_link, ERROR)] /\
  x_fate (x_msg x_own (str "none") 0 9 [5; 6]) = [(x_icon, 9, [], DROP)] /\
  x_fate (x_msg x_bsc3 (str "any") 3 9 [5; 6]) = [(x_icon, 9, x_link3, ROUTE)] /\
  x_fate (x_msg (str "0x9") (str "any") 3 9 [5; 6]) = [(x_icon, 9, x_link, ERROR)].
Proof. vm_compute. repeat split; reflexivity. Qed.
