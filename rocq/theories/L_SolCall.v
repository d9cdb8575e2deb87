(** The Solidity call service satisfies the relation [step]. *)
From Coq Require Import String Ascii ZArith List Bool Lia.
From Coq Require Import ZifyBool.
From Verif Require Import Base L_Base M_IntConv S_IntConv L_IntConv M_Rlp S_Rlp L_Rlp S_Address S_BtpAddr M_JBmv S_JBmv M_Wire S_Wire L_Wire M_SolRlp S_SolRlp L_SolRlp T_SolRlp M_BtpAddr L_BtpAddr T_BtpAddr
  M_Bridge M_XCall S_XCall L_XCall M_JCall M_SolCall S_JCall L_JCall.
Import ListNotations.
Open Scope Z_scope.

Section Solidity.
Variable H : list Z -> list Z.
Variable junk : list Z -> mem.
Variable cfg : xcfg.
Notation SL := (s_lang H junk cfg).
Notation sexec := (s_exec H junk cfg).

Lemma require_true : forall b A (f : unit -> option A) r, sbind (require b) f = Some r -> b = true /\ f tt = Some r.
Proof. intros [] A f r E; [auto|discriminate]. Qed.
Lemma sbind_some : forall A B (o : option A) (f : A -> option B) r, sbind o f = Some r -> exists a, o = Some a /\ f a = Some r.
Proof. intros A B [a|] f r E; [eauto|discriminate]. Qed.
Ltac chk E H := let E' := fresh in apply require_true in E as [H E']; rename E' into E.
Ltac bnd E a H := let E' := fresh in apply sbind_some in E as (a & H & E'); rename E' into E.

(** what the code relies on: a request in store has a sender *)
Definition stored (s : xstate) : Prop := 0 <= x_sn s /\ forall k r, get k (x_requests s) = Some r -> cr_from r <> 0.
Lemma stored_same : forall s s', x_sn s' = x_sn s -> x_requests s' = x_requests s -> stored s -> stored s'.
Proof. intros s s' E1 E2 [A B]. split; [lia|]. rewrite E2. exact B. Qed.
Lemma stored_del : forall s s' k, x_sn s' = x_sn s -> x_requests s' = del k (x_requests s) -> stored s -> stored s'.
Proof.
  intros s s' k E1 E2 [A B]. split; [lia|]. rewrite E2. intros k' r G. destruct (Z.eq_dec k' k) as [->|]; [rewrite get_del_same in G; discriminate|].
  rewrite get_del_other in G by assumption. exact (B _ _ G).
Qed.
Lemma stored_put : forall s s' k q, x_sn s <= x_sn s' -> x_requests s' = put k q (x_requests s) -> cr_from q <> 0 -> stored s -> stored s'.
Proof.
  intros s s' k q E1 E2 N [A B]. split; [lia|]. rewrite E2. intros k' r G. destruct (Z.eq_dec k' k) as [->|]; [rewrite get_put_same in G; congruence|].
  rewrite get_put_other in G by assumption. exact (B _ _ G).
Qed.

Lemma cadd_some : forall a b c, cadd a b = Some c -> c = a + b.
Proof. intros a b c E. unfold cadd in E. destruct (_ <? _) in E; congruence. Qed.
Lemma csub_some : forall a b c, csub a b = Some c -> c = a - b.
Proof. intros a b c E. unfold csub in E. destruct (_ <? _) in E; congruence. Qed.
Lemma encodeUint_range : forall n b, encodeUint n = Some b -> n < 2 ^ 128 - 1.
Proof. intros n b E. destruct (Z_lt_dec n (2 ^ 128 - 1)) as [|N]; [assumption|]. rewrite encodeUint_reverts in E by lia. discriminate. Qed.

Lemma s_send_step : forall s c k v to data rb quoted taken nsn s', stored s -> c <> 0 ->
  s_sendCallMessage H s c k v to data rb quoted taken nsn = Some s' -> step SL s s' /\ stored s'.
Proof.
  intros s c k v to data rb quoted taken nsn s' INV NZ E. unfold s_sendCallMessage in E. chk E K1. chk E K2. chk E K3. bnd E dst D. destruct dst as [net account].
  bnd E req RQ. chk E K4. unfold s_getFee in RQ. bnd RQ q Q. subst quoted. apply cadd_some in RQ. subst req.
  bnd E s1 P. apply pay_ok in P as P1. clear P. bnd E n1 N1. apply cadd_some in N1. subst n1. bnd E pl PL. bnd E fee FE. apply csub_some in FE. subst fee.
  unfold s_sendBTPMessage in E. bnd E r R. bnd R b B. apply bmc_send_some in R as [n R]. subst r.
  assert (SN : x_sn s1 = x_sn s) by (subst s1; reflexivity).
  assert (RG : int256 (x_sn s1 + 1) = x_sn s1 + 1).
  { unfold encodeCSMessageRequest in PL. bnd PL nb NB. apply encodeUint_range in NB. cbn [q_sn] in NB. apply int256_small. destruct INV as [I1 _]. lia. }
  rewrite RG in E. clear RG.
  assert (W : 0 <? zlen (bytes_in rb) = is_some (l_wants SL rb)).
  { cbn [l_wants s_lang]. destruct rb as [[|x d]|]; [reflexivity| |reflexivity]. cbn [bytes_in is_some]. unfold zlen. cbn [length]. lia. }
  rewrite W in *.
  assert (ES : s' = _) by (symmetry; injection E as E; exact E). clear E.
  pose proof (st_send SL s c v to data rb q net account b n D) as ST. cbn [l_request l_text s_lang sbind] in ST.
  cbn [l_wants s_lang] in PL. rewrite SN in PL. cbn [s_lang l_wants] in ST. rewrite PL in ST. specialize (ST B ltac:(lia)).
  assert (EQ : s' = mkX (x_sn s + 1) (x_reqId s) (added_request SL s c to rb) (x_proxy s) (x_fee s) (x_handler s) (x_admin s) (x_bal s + kept s)
                (x_log s ++ InSend c v to data rb q :: paid s ++
                 [OutMessage (v - x_fee s) net (if is_some (l_wants SL rb) then x_sn s + 1 else 0) b; CallMessageSent c to (x_sn s + 1) n])).
  { rewrite ES. subst s1. unfold added_request. cbn [l_wants s_lang].
    replace (x_bal s + kept s) with (x_bal s + v - (x_fee s - kept s) - (v - x_fee s)) by lia.
    destruct rb as [[|x d]|]; cbn [is_some bytes_in]; unfold emit, with_bal, with_requests, with_sn; cbn [x_sn x_reqId x_requests x_proxy x_fee x_handler x_admin x_bal x_log fst snd];
      rewrite <- !app_assoc; cbn [app]; rewrite <- ?app_assoc; reflexivity. }
  rewrite EQ. split; [exact ST|].
  unfold added_request. cbn [l_wants s_lang]. destruct rb as [[|x d]|]; [split; [cbn [x_sn]; destruct INV; lia|exact (proj2 INV)]| |split; [cbn [x_sn]; destruct INV; lia|exact (proj2 INV)]].
  eapply stored_put; [ |reflexivity|exact NZ|exact INV]. cbn [x_sn]. lia.
Qed.

Lemma s_response_step : forall s e r s', stored s -> tells SL e r -> (forall net n msg, e = InMessage net n msg -> l_read_request SL msg = None) ->
  s_handleResponse (emit s [e]) r = Some s' -> step SL s s' /\ stored s'.
Proof.
  intros s e r s' INV T NR E. unfold s_handleResponse, request_at in E. cbn [x_requests emit] in E.
  destruct (get (r_sn r) (x_requests s)) as [q|] eqn:G.
  - pose proof (proj2 INV _ _ G) as NZ. destruct (cr_from q =? 0) eqn:Z0; [apply Z.eqb_eq in Z0; contradiction|]. destruct (r_code r =? CS_SUCCESS) eqn:C.
    + assert (C' : r_code r = 0) by (unfold CS_SUCCESS in C; lia).
      assert (EQ : s' = emit (with_requests s (del (r_sn r) (x_requests s))) [e; ResponseMessage (r_sn r) 0 (text r)]).
      { assert (EQ : s' = _) by (symmetry; injection E as E; exact E). rewrite EQ. rewrite C'. unfold emit, with_requests. cbn [x_sn x_reqId x_requests x_proxy x_fee x_handler x_admin x_bal x_log]. rewrite <- app_assoc. reflexivity. }
      rewrite EQ. split; [eapply st_success; eassumption|]. eapply stored_del; [| |exact INV]; reflexivity.
    + chk E K. assert (C' : r_code r <> 0) by (unfold CS_SUCCESS in C; lia).
      assert (EQ : s' = emit (with_requests s (put (r_sn r) (mkCReq (cr_from q) (cr_to q) (cr_rollback q) true) (x_requests s)))
                 [e; ResponseMessage (r_sn r) (r_code r) (text r); RollbackMessage (r_sn r)]).
      { assert (EQ : s' = _) by (symmetry; injection E as E; exact E). rewrite EQ. unfold emit, with_requests. cbn [x_sn x_reqId x_requests x_proxy x_fee x_handler x_admin x_bal x_log]. rewrite <- !app_assoc. reflexivity. }
      rewrite EQ. split; [eapply st_failure; eassumption|]. eapply stored_put; [|reflexivity|exact NZ|exact INV]. cbn [x_sn emit with_requests]. lia.
  - cbn [cr_from zero_creq] in E. change (0 =? 0) with true in E. assert (s' = emit s [e]) by congruence. subst s'. split; [eapply st_ignored; eassumption|].
    eapply stored_same; [| |exact INV]; reflexivity.
Qed.

Lemma s_result_code : forall sn out, (r_code (s_result sn out) =? 0) = match out with Returned => true | _ => false end /\ r_sn (s_result sn out) = sn /\ exists t, r_msg (s_result sn out) = Some t.
Proof. intros sn [ | code | t | ]; cbn [s_result r_code r_sn r_msg]; (split; [reflexivity|split; [reflexivity|eexists; reflexivity]]). Qed.

Lemma s_inner_steps : forall (L : lang) (ex : tx -> xstate -> option xstate) (ok : tx -> Prop) (inner : list tx) s, stored s ->
  (forall t, In t inner -> ok t -> forall s s', stored s -> ex t s = Some s' -> step L s s' /\ stored s') -> Forall ok inner ->
  let s' := (fix all (l : list tx) (s : xstate) {struct l} : xstate :=
               match l with [] => s | t :: r => all r (match ex t s with Some s' => s' | None => s end) end) inner s in
  steps L s s' /\ stored s'.
Proof.
  intros L ex ok inner. induction inner as [|t r IH]; intros s INV I O; [split; [constructor|exact INV]|].
  assert (S : steps L s (match ex t s with Some s' => s' | None => s end) /\ stored (match ex t s with Some s' => s' | None => s end)).
  { destruct (ex t s) as [s'|] eqn:E; [|split; [constructor|exact INV]].
    destruct (I t (or_introl eq_refl) (Forall_inv O) s s' INV E) as [A B]. split; [|exact B]. econstructor; [exact A|constructor]. }
  destruct S as [S1 S2]. destruct (IH _ S2 (fun t' T' => I t' (or_intror T')) (Forall_inv_tail O)) as [A B].
  split; [|exact B]. eapply steps_trans; [exact S1|exact A].
Qed.

Lemma s_step : forall t, tx_ok t -> forall s s', stored s -> sexec t s = Some s' -> step SL s s' /\ stored s'.
Proof.
  induction t as [c k v to d rb q tk n | id inner out n IH | sn inner out IH | c net svc sn m | c net svc sn code m | c a | c a tk | c v] using tx_ind2; intros OK s s' INV E.
  - cbn [s_exec tx_ok] in *. exact (s_send_step _ _ _ _ _ _ _ _ _ _ _ INV OK E).
  - cbn [s_exec] in E. cbn [tx_ok] in OK. apply inner_ok in OK. chk E K1. bnd E fr F.
    set (run := (fix all (l : list tx) (s : xstate) {struct l} : xstate := _)) in E. unfold proxy_at in *.
    destruct (get id (x_proxy s)) as [q|] eqn:G; [|discriminate K1].
    match type of E with (let (_, _) := ?x in _) = _ => destruct x as [s1 res] eqn:R end.
    assert (RAN : (ran SL s id q s1 (r_code res) /\ stored s1) /\ r_sn res = q_sn q /\ exists t, r_msg res = Some t).
    { destruct (parseAddress (q_to q)) as [a|] eqn:A.
      - assert (s1 = _ /\ s_result (q_sn q) out = res) as [E1 E2] by (split; [symmetry; injection R as R _; exact R|injection R as _ R; exact R]). clear R. subst res s1.
        destruct (s_result_code (q_sn q) out) as (C1 & C2 & C3). split; [|split; assumption].
        assert (INV' : forall ok, stored (emit (with_proxy s (del id (x_proxy s))) [OutCall (ForCall id) a (q_from q) (q_data q) ok]))
          by (intros ok; eapply stored_same; [| |exact INV]; reflexivity).
        assert (ST : steps SL (emit (with_proxy s (del id (x_proxy s))) [OutCall (ForCall id) a (q_from q) (q_data q) (match out with Returned => true | _ => false end)])
                        (match out with
                         | Returned => run inner (emit (with_proxy s (del id (x_proxy s))) [OutCall (ForCall id) a (q_from q) (q_data q) true])
                         | _ => emit (with_proxy s (del id (x_proxy s))) [OutCall (ForCall id) a (q_from q) (q_data q) false]
                         end) /\ stored (match out with
                         | Returned => run inner (emit (with_proxy s (del id (x_proxy s))) [OutCall (ForCall id) a (q_from q) (q_data q) true])
                         | _ => emit (with_proxy s (del id (x_proxy s))) [OutCall (ForCall id) a (q_from q) (q_data q) false]
                         end)).
        { destruct out; try (split; [apply ss_nil|apply INV']). apply s_inner_steps with (ok := tx_ok); [apply INV'| |exact OK].
          intros t T O. rewrite Forall_forall in IH. exact (IH t T O). }
        destruct ST as [ST1 ST2]. split; [|exact ST2]. eapply ran_ok; [exact A|exact C1|exact ST1].
      - assert (s1 = with_proxy s (del id (x_proxy s)) /\ res = mkCsRes (q_sn q) CS_FAILURE (Some (str "IllegalArgument"))) as [-> ->] by (split; congruence).
        split; [|split; [reflexivity|eexists; reflexivity]]. split; [apply ran_not; [exact A|discriminate]|]. eapply stored_same; [| |exact INV]; reflexivity. }
    destruct RAN as ((RAN & INV1) & RS & t & RM).
    assert (NET : forall n f, free_of (ch "/") n -> q_from q = l_from SL n f -> fr = n).
    { intros n' f' FN EQ. cbn [l_from s_lang] in EQ. apply C61_network_of_same_addresses in F as [a' F]. apply C61_solidity_accepts_exactly in F as (F1 & _ & _ & F2).
      assert (JAddr (str "btp") fr a' = JAddr (str "btp") n' f') by (rewrite <- !j_parse_text by (exact btp_plain || assumption); congruence). congruence. }
    destruct (q_rollback q) eqn:RB.
    + chk E K2. bnd E pl PL. unfold s_sendBTPMessage in E. bnd E r RR. bnd RR b B. apply bmc_send_some in RR as [nn ->]. cbn [fst] in E.
      assert (EQ : s' = emit s1 (CallExecuted id (r_code res) t :: [OutMessage 0 fr (- int256 (q_sn q)) b])).
      { assert (s' = _) by (symmetry; injection E as E; exact E). subst s'. rewrite RM.
        unfold emit, with_bal. cbn [x_sn x_reqId x_requests x_proxy x_fee x_handler x_admin x_bal x_log bytes_in]. rewrite Z.sub_0_r, <- app_assoc.
        replace (int256 (q_sn q) * -1) with (- int256 (q_sn q)) by lia. reflexivity. }
      rewrite EQ. split; [|eapply stored_same; [| |exact INV1]; reflexivity].
      eapply st_call; [exact G|exact NET|exact RAN|]. right. exists b. split; [exact RB|]. split; [|reflexivity].
      destruct res as [n1 c1 m1]. cbn [r_sn r_msg r_code] in *. subst n1 m1. cbn [l_response s_lang]. rewrite PL. exact B.
    + assert (EQ : s' = emit s1 (CallExecuted id (r_code res) t :: [])) by (rewrite RM in E; cbn [bytes_in] in E; congruence).
      rewrite EQ. split; [|eapply stored_same; [| |exact INV1]; reflexivity]. eapply st_call; [exact G|exact NET|exact RAN|]. left. split; [exact RB|reflexivity].
  - cbn [s_exec] in E. cbn [tx_ok] in OK. apply inner_ok in OK. chk E K1. chk E EN.
    set (run := (fix all (l : list tx) (s : xstate) {struct l} : xstate := _)) in E. unfold request_at in *.
    destruct (get sn (x_requests s)) as [q|] eqn:G; [|discriminate EN].
    destruct (s_result_code sn out) as (C1 & C2 & C3 & RM). rewrite RM in E. cbn [bytes_in] in E.
    assert (EQ : s' = _) by (symmetry; injection E as E; exact E). rewrite EQ.
    assert (INV' : forall ok, stored (emit (with_requests s (del sn (x_requests s))) [OutCall (ForRollback sn) (cr_from q) (c_self cfg) (cr_rollback q) ok]))
      by (intros ok; eapply stored_del; [| |exact INV]; reflexivity).
    set (s2 := match out with Returned => _ | _ => _ end) in *.
    assert (ST : steps SL (emit (with_requests s (del sn (x_requests s))) [OutCall (ForRollback sn) (cr_from q) (c_self cfg) (cr_rollback q) (match out with Returned => true | _ => false end)]) s2 /\ stored s2).
    { unfold s2. destruct out; try (split; [apply ss_nil|apply INV']). apply s_inner_steps with (ok := tx_ok); [apply INV'| |exact OK].
      intros t T O. rewrite Forall_forall in IH. exact (IH t T O). }
    destruct ST as [ST1 ST2]. split; [|eapply stored_same; [| |exact ST2]; reflexivity].
    eapply st_rollback; [exact G|exact EN|exact ST1|exact C1].
  - cbn [s_exec tx_ok] in *. unfold s_handleBTPMessage in E. chk E K1. chk E K2. bnd E md M. destruct md as [t data]. cbn [fst snd] in *.
    destruct (t =? CS_REQUEST) eqn:T1.
    + unfold s_handleRequest in E. bnd E q Q. bnd E rid RI. apply cadd_some in RI. cbn [x_reqId emit] in RI. subst rid. apply Z.eqb_eq in T1. subst t.
      assert (EQ : s' = _) by (symmetry; injection E as E; exact E). clear E.
      pose proof (st_request SL s net sn m q OK) as ST. cbn [l_read_request l_read_response s_lang] in ST. rewrite M in ST. cbn [payload_of typed] in ST.
      specialize (ST Q eq_refl). rewrite EQ. split; [|eapply stored_same; [| |exact INV]; reflexivity].
      unfold emit, with_reqId, with_proxy. cbn [x_sn x_reqId x_requests x_proxy x_fee x_handler x_admin x_bal x_log].
      rewrite <- app_assoc. exact ST.
    + destruct (t =? CS_RESPONSE) eqn:T2; [|discriminate]. apply Z.eqb_eq in T2. subst t. bnd E r R.
      eapply s_response_step; [exact INV| | |exact E].
      * left. exists net, sn, m. split; [reflexivity|]. cbn [l_read_response s_lang]. rewrite M. exact R.
      * intros net' n' msg' EQ. assert (msg' = m) by congruence. subst msg'. cbn [l_read_request s_lang]. rewrite M. reflexivity.
  - cbn [s_exec tx_ok] in *. unfold s_handleBTPError in E. chk E K1. chk E K2. bnd E c1 T.
    eapply s_response_step; [exact INV| | |exact E].
    + right. do 4 eexists. split; [reflexivity|]. cbn [l_error s_lang]. rewrite T. split; reflexivity.
    + intros; discriminate.
  - cbn [s_exec] in E. unfold s_setAdmin in E. chk E K. assert (s' = with_admin s a) by congruence. subst s'. split; [apply st_admin|eapply stored_same; [| |exact INV]; reflexivity].
  - cbn [s_exec] in E. unfold s_setProtocolFeeHandler in E. chk E K. apply sweep_ok in E. rewrite E. split; [apply st_handler|eapply stored_same; [| |exact INV]; reflexivity].
  - cbn [s_exec] in E. unfold s_setProtocolFee in E. chk E K1. chk E K2. assert (s' = emit (with_fee s v) [InFee v]) by congruence. subst s'.
    split; [apply st_fee; lia|eapply stored_same; [| |exact INV]; reflexivity].
Qed.
Lemma s_steps : forall l, Forall tx_ok l -> forall s, stored s -> steps SL s (s_run H junk cfg l s) /\ stored (s_run H junk cfg l s).
Proof.
  induction l as [|t r IH]; intros O s INV; [split; [constructor|exact INV]|]. cbn [s_run].
  destruct (sexec t s) as [s'|] eqn:E; [|exact (IH (Forall_inv_tail O) _ INV)].
  destruct (s_step _ (Forall_inv O) _ _ INV E) as [A B]. destruct (IH (Forall_inv_tail O) _ B) as [C D]. split; [|exact D]. econstructor; [exact A|exact C].
Qed.
Lemma stored_init : stored x_init.
Proof. split; [cbn [x_init x_sn]; lia|]. intros k r E. discriminate. Qed.
End Solidity.
