(** Lemmas for a call that goes from one call service to another and for its response. *)
From Coq Require Import String Ascii ZArith List Bool Lia.
From Coq Require Import ZifyBool.
From Verif Require Import Base L_Base M_IntConv S_IntConv L_IntConv M_Rlp S_Rlp L_Rlp S_Address S_BtpAddr M_JBmv S_JBmv M_Wire S_Wire L_Wire M_SolRlp S_SolRlp L_SolRlp T_SolRlp M_BtpAddr L_BtpAddr T_BtpAddr
  M_Bridge M_XCall S_XCall L_XCall M_JCall M_SolCall S_JCall L_JCall L_SolCall L_CallWire.
Import ListNotations.
Open Scope Z_scope.

(** what becomes of a request when a response for it arrives *)
Definition settled (code : Z) (r : creq) : option creq := if code =? 0 then None else Some (mkCReq (cr_from r) (cr_to r) (cr_rollback r) true).
Definition arrived (t : xstate) (net : list Z) (n : Z) (b : list Z) (q : csreq) : xstate :=
  emit (with_proxy (with_reqId (emit t [InMessage net n b]) (x_reqId t + 1))
         (put (x_reqId t + 1) (mkCsReq (address_text (str "btp") net (q_from q)) (q_to q) (q_sn q) (q_rollback q) (q_data q)) (x_proxy t)))
       [CallMessage (address_text (str "btp") net (q_from q)) (q_to q) (q_sn q) (x_reqId t + 1)].

Section Java.
Variable addr_text : Z -> list Z.
Variable addr_of_text : list Z -> option Z.
Variable bad_address : list Z -> list Z.
Variable cfg : xcfg.
Notation jexec := (j_exec addr_text addr_of_text bad_address cfg).
Ltac chk E H := let E' := fresh in apply check_true in E as [H E']; rename E' into E.
Ltac bnd E a H := let E' := fresh in apply obind_some in E as (a & H & E'); rename E' into E.

Lemma j_send_out : forall c k v to d rb quoted tk n s s', jexec (Send c k v to d rb quoted tk n) s = Some s' ->
  exists p net account fee m pre, j_valueOf to = Some (JAddr p net account) /\ x_sn s' = x_sn s + 1 /\
    x_log s' = pre ++ [OutMessage fee net (if is_some rb then x_sn s + 1 else 0) (request_wire (mkCsReq (addr_text c) account (x_sn s + 1) (is_some rb) (Some d))); CallMessageSent c to (x_sn s + 1) m] /\
    (rb <> None -> get (x_sn s + 1) (x_requests s') = Some (mkCReq c to rb false)) /\ zlen d <= 2048.
Proof.
  intros c k v to data rb quoted taken nsn s s' E. cbn [j_exec] in E. unfold j_sendCallMessage in E. chk E K1. chk E K2. chk E K3. bnd E dst D. bnd E req RQ. chk E K4.
  unfold j_getFee in RQ. chk RQ K5. bnd RQ q Q. subst quoted. clear RQ. bnd E s1 P. unfold j_sendBTPMessage in E. bnd E r R. apply pay_ok in P as P1.
  clear P. apply bmc_send_some in R as [n R]. subst r.
  assert (ET : j_toString dst = to) by (symmetry; exact (proj1 (j_valueOf_text _ _ D))).
  assert (ES : s' = _) by (symmetry; injection E as E; exact E). clear E. subst s1. destruct dst as [p net account].
  cbn [x_sn x_fee x_requests fst snd with_sn with_requests emit x_bal x_log ja_net ja_account] in ES. rewrite j_req_wire, ET in ES.
  exists p, net, account. do 3 eexists. split; [exact D|]. split; [rewrite ES; destruct rb; reflexivity|]. split.
  - rewrite ES. destruct rb as [x|]; cbn [is_some emit x_log with_bal with_requests with_sn]; rewrite <- app_assoc; cbn [app]; reflexivity.
  - split; [|unfold MAX_DATA_SIZE in K2; lia]. intros NR. rewrite ES. destruct rb as [x|]; [|congruence]. cbn [emit x_requests with_bal with_requests with_sn]. apply get_put_same.
Qed.
Lemma j_deliver_request : forall t net n b q, payload_of 1 (fromBytes readCSRequest) (fromBytes readCSMessage b) = Some q ->
  jexec (Deliver (c_bmc cfg) net NAME n b) t = Some (arrived t net n b q).
Proof.
  intros t net n b q P. cbn [j_exec]. unfold j_handleBTPMessage. rewrite Z.eqb_refl. change (bytes_eqb NAME NAME) with true. cbn [check obind].
  destruct (fromBytes readCSMessage b) as [[ty [d|]]|]; [|discriminate P|discriminate P]. cbn [obind fst snd]. cbn [payload_of] in P. destruct (ty =? 1) eqn:T; [|discriminate]. change CS_REQUEST with 1. rewrite T.
  unfold j_handleRequest. rewrite P. cbn [obind]. reflexivity.
Qed.
Lemma j_deliver_response : forall t net n b r q d, payload_of 2 (fromBytes readCSResponse) (fromBytes readCSMessage b) = Some r ->
  get (r_sn r) (x_requests t) = Some q -> cr_rollback q = Some d ->
  exists t', jexec (Deliver (c_bmc cfg) net NAME n b) t = Some t' /\ get (r_sn r) (x_requests t') = settled (r_code r) q.
Proof.
  intros t net n b r q d P G RB. cbn [j_exec]. unfold j_handleBTPMessage. rewrite Z.eqb_refl. change (bytes_eqb NAME NAME) with true. cbn [check obind].
  destruct (fromBytes readCSMessage b) as [[ty [x|]]|]; [|discriminate P|discriminate P]. cbn [obind fst snd]. cbn [payload_of] in P. destruct (ty =? 2) eqn:T; [|discriminate]. change CS_REQUEST with 1. replace (ty =? 1) with false by lia.
  change CS_RESPONSE with 2. rewrite T. unfold j_handleResponse. rewrite P. cbn [obind x_requests emit]. rewrite G. change CS_SUCCESS with 0. unfold settled. destruct (r_code r =? 0).
  - eexists. split; [reflexivity|]. cbn [x_requests with_requests emit]. apply get_del_same.
  - rewrite RB. cbn [check obind]. eexists. split; [reflexivity|]. cbn [x_requests with_requests emit]. apply get_put_same.
Qed.
Lemma good_app : forall a b, bytes_ok a -> zlen a <= 1000 -> bytes_ok b -> zlen b <= 1000 -> bytes_ok (a ++ b) /\ zlen (a ++ b) <= zlen a + zlen b.
Proof. intros a b A1 A2 B1 B2. split; [apply Forall_app; auto|rewrite zlen_app; lia]. Qed.
Lemma result_good : forall sn out r, outcome_ok out -> j_result sn out = Some r -> fits_int (r_code r) /\ good (text_of (r_msg r)).
Proof.
  intros sn out r OO RS. destruct out as [|code|x|]; cbn [j_result] in RS; [| | |discriminate].
  - assert (r = mkCsRes sn CS_SUCCESS (Some [])) by congruence. subst r. cbn [r_code r_msg text_of]. split; [red; unfold CS_SUCCESS; lia|]. split; [constructor|reflexivity].
  - assert (r = mkCsRes sn (if code =? 0 then CS_FAILURE else code) (Some (str "UserReverted(" ++ (if code <? 0 then str "-" else []) ++ dec_text (Z.abs code) ++ str ")"))) by congruence. subst r.
    cbn [outcome_ok] in OO. cbn [r_code r_msg text_of]. split; [destruct (code =? 0); [red; unfold CS_FAILURE; lia|exact OO]|]. red in OO.
    destruct (dec_text_ok (Z.abs code)) as [D1 D2]; [lia|]. split.
    + apply Forall_app; split; [apply str_bytes|]. apply Forall_app; split; [destruct (code <? 0); [apply str_bytes|constructor]|]. apply Forall_app; split; [exact D1|apply str_bytes].
    + rewrite !zlen_app. change (zlen (str "UserReverted(")) with 13. change (zlen (str ")")) with 1. assert (zlen (if code <? 0 then str "-" else []) <= 1) by (destruct (code <? 0); vm_compute; congruence). lia.
  - assert (r = mkCsRes sn CS_FAILURE (Some x)) by congruence. subst r. cbn [r_code r_msg text_of]. destruct OO as [OO _]. split; [red; unfold CS_FAILURE; lia|exact OO].
Qed.
Lemma j_execute_out : forall id inner out n q net f t t', get id (x_proxy t) = Some q -> q_from q = address_text (str "btp") net f -> free_of (ch "/") net -> q_rollback q = true ->
  outcome_ok out -> good (bad_address (q_to q)) -> jexec (Execute id inner out n) t = Some t' ->
  exists code txt pre, x_log t' = pre ++ [CallExecuted id code txt; OutMessage 0 net (- q_sn q) (response_wire (mkCsRes (q_sn q) code (Some txt)))] /\
    (code = 0 <-> out = Returned /\ addr_of_text (q_to q) <> None) /\ fits_int code /\ good txt.
Proof.
  intros id inner out n q net f s s' G FR FN RB OO BA E. cbn [j_exec] in E. rewrite G in E. cbn [obind] in E. bnd E fr F. bnd E sr R. destruct sr as [s1 res].
  set (run := (fix all (l : list tx) (s : xstate) {struct l} : xstate := _)) in R.
  assert (NET : ja_net fr = net).
  { unfold j_valueOf in F. rewrite FR in F. rewrite j_parse_text in F by (exact btp_plain || exact FN). cbv zeta in F.
    destruct (j_isValid _) in F; [|discriminate]. assert (fr = JAddr (str "btp") net f) by congruence. subst fr. reflexivity. }
  rewrite RB in E. unfold j_sendBTPMessage in E. bnd E r RR. apply bmc_send_some in RR as [nn ->]. cbn [fst] in E. rewrite j_res_wire in E.
  assert (EQ : s' = _) by (symmetry; injection E as E; exact E). clear E. rewrite NET in EQ.
  destruct (addr_of_text (q_to q)) as [a|] eqn:A.
  - bnd R res' RS. assert (res' = res) by congruence. subst res'. clear R. destruct (result_code _ _ _ RS) as (C1 & C2 & txt & C3).
    exists (r_code res), txt. eexists. split.
    { rewrite EQ. destruct res as [n1 c1 m1]. cbn [r_sn r_msg r_code] in *. subst n1 m1. cbn [emit x_log with_bal text_of]. rewrite <- app_assoc. reflexivity. }
    split; [|].
    { destruct out; split; intros X; try (split; congruence); try lia; destruct X; congruence. }
    destruct (result_good _ _ _ OO RS) as [X1 X2]. rewrite C3 in X2. split; assumption.
  - assert (res = mkCsRes (q_sn q) CS_FAILURE (Some (bad_address (q_to q)))) by congruence. subst res.
    exists CS_FAILURE, (bad_address (q_to q)). eexists. split; [rewrite EQ; cbn [emit x_log with_bal text_of r_code r_msg]; rewrite <- app_assoc; reflexivity|].
    split; [unfold CS_FAILURE; split; [lia|intros [_ X]; congruence]|]. split; [red; unfold CS_FAILURE; lia|exact BA].
Qed.
End Java.

Section Solidity.
Variable H : list Z -> list Z.
Variable junk : list Z -> mem.
Variable cfg : xcfg.
Notation sexec := (s_exec H junk cfg).
Ltac chk E H := let E' := fresh in apply require_true in E as [H E']; rename E' into E.
Ltac bnd E a H := let E' := fresh in apply sbind_some in E as (a & H & E'); rename E' into E.
Lemma s_send_out : forall c k v to d rb quoted tk n s s', 0 <= x_sn s -> sexec (Send c k v to d rb quoted tk n) s = Some s' ->
  exists net account b fee m pre, parseBTPAddress to = Some (net, account) /\ x_sn s' = x_sn s + 1 /\ x_sn s + 1 < 2 ^ 128 - 1 /\
    sbind (encodeCSMessageRequest (mkCsReq (toChecksumString H c) account (x_sn s + 1) (some_data rb) (Some d))) (encodeCSMessage 1) = Some b /\
    x_log s' = pre ++ [OutMessage fee net (if some_data rb then x_sn s + 1 else 0) b; CallMessageSent c to (x_sn s + 1) m] /\
    (some_data rb = true -> get (x_sn s + 1) (x_requests s') = Some (mkCReq c to rb false)) /\ zlen d <= 2048.
Proof.
  intros c k v to data rb quoted taken nsn s s' INV E. cbn [s_exec] in E. unfold s_sendCallMessage in E. chk E K1. chk E K2. chk E K3. bnd E dst D. destruct dst as [net account].
  bnd E req RQ. chk E K4. unfold s_getFee in RQ. bnd RQ q Q. subst quoted. clear RQ.
  bnd E s1 P. apply pay_ok in P as P1. clear P. bnd E n1 N1. apply cadd_some in N1. subst n1. bnd E pl PL. bnd E fee FE.
  unfold s_sendBTPMessage in E. bnd E r R. bnd R b B. apply bmc_send_some in R as [n R]. subst r.
  assert (SN : x_sn s1 = x_sn s) by (subst s1; reflexivity). rewrite SN in *.
  assert (RG : x_sn s + 1 < 2 ^ 128 - 1).
  { unfold encodeCSMessageRequest in PL. bnd PL nb NB. apply encodeUint_range in NB. cbn [q_sn] in NB. lia. }
  rewrite int256_small in E by lia.
  assert (W : 0 <? zlen (bytes_in rb) = some_data rb) by (destruct rb as [[|x d]|]; [reflexivity| |reflexivity]; cbn [bytes_in some_data]; unfold zlen; cbn [length]; lia).
  rewrite W in *. assert (ES : s' = _) by (symmetry; injection E as E; exact E). clear E. cbn [fst snd] in ES.
  exists net, account, b, fee, n. eexists. split; [exact D|]. split; [rewrite ES; destruct (some_data rb); reflexivity|]. split; [exact RG|]. split; [rewrite PL; exact B|]. split.
  - rewrite ES. cbn [emit x_log with_bal]. rewrite <- app_assoc. reflexivity.
  - split; [|unfold MAX_DATA_SIZE in K2; lia]. intros SD. rewrite ES, SD. cbn [emit x_requests with_bal with_requests with_sn]. rewrite get_put_same. destruct rb as [[|x y]|]; try discriminate SD. reflexivity.
Qed.
Lemma same_hash : compareTo H NAME NAME = true.
Proof. unfold compareTo. apply beq_refl. Qed.
Lemma s_deliver_request : forall t net n b q, payload_of 1 (decodeCSMessageRequest junk) (typed (decodeCSMessage junk b)) = Some q -> x_reqId t + 1 < 2 ^ 256 ->
  sexec (Deliver (c_bmc cfg) net NAME n b) t = Some (arrived t net n b q).
Proof.
  intros t net n b q P R. cbn [s_exec]. unfold s_handleBTPMessage. rewrite Z.eqb_refl, same_hash. cbn [require sbind].
  destruct (decodeCSMessage junk b) as [[ty d]|]; [|discriminate P]. cbn [sbind fst snd]. cbn [payload_of typed] in P. destruct (ty =? 1) eqn:T; [|discriminate]. change CS_REQUEST with 1. rewrite T.
  unfold s_handleRequest. rewrite P. cbn [sbind x_reqId emit]. unfold cadd. replace (x_reqId t + 1 <? 2 ^ 256) with true by lia. cbn [sbind]. reflexivity.
Qed.
Lemma s_deliver_response : forall t net n b r q d0 d, payload_of 2 (decodeCSMessageResponse junk) (typed (decodeCSMessage junk b)) = Some r ->
  get (r_sn r) (x_requests t) = Some q -> cr_from q <> 0 -> cr_rollback q = Some (d0 :: d) ->
  exists t', sexec (Deliver (c_bmc cfg) net NAME n b) t = Some t' /\ get (r_sn r) (x_requests t') = settled (r_code r) q.
Proof.
  intros t net n b r q d0 d P G NZ RB. cbn [s_exec]. unfold s_handleBTPMessage. rewrite Z.eqb_refl, same_hash. cbn [require sbind].
  destruct (decodeCSMessage junk b) as [[ty x]|]; [|discriminate P]. cbn [sbind fst snd]. cbn [payload_of typed] in P. destruct (ty =? 2) eqn:T; [|discriminate]. change CS_REQUEST with 1. replace (ty =? 1) with false by lia.
  change CS_RESPONSE with 2. rewrite T. rewrite P. cbn [sbind]. unfold s_handleResponse, request_at. cbn [x_requests emit]. rewrite G. replace (cr_from q =? 0) with false by lia. change CS_SUCCESS with 0. unfold settled. destruct (r_code r =? 0).
  - eexists. split; [reflexivity|]. cbn [x_requests with_requests emit]. apply get_del_same.
  - rewrite RB. cbn [bytes_in]. replace (0 <? zlen (d0 :: d)) with true by (rewrite zlen_cons; pose proof (zlen_nonneg _ d); lia). cbn [require sbind].
    eexists. split; [reflexivity|]. cbn [x_requests with_requests emit]. apply get_put_same.
Qed.
Lemma s_execute_out : forall id inner out n q net f t t', get id (x_proxy t) = Some q -> q_from q = address_text (str "btp") net f -> free_of (ch "/") net -> q_rollback q = true ->
  outcome_ok out -> 0 <= q_sn q < 2 ^ 128 - 1 -> sexec (Execute id inner out n) t = Some t' ->
  exists code txt pre b, x_log t' = pre ++ [CallExecuted id code txt; OutMessage 0 net (- q_sn q) b] /\
    sbind (encodeCSMessageResponse (mkCsRes (q_sn q) code (Some txt))) (encodeCSMessage 2) = Some b /\
    (code = 0 <-> out = Returned /\ parseAddress (q_to q) <> None) /\ (code = 0 \/ code = -1) /\ good txt /\ txt <> [128].
Proof.
  intros id inner out n q net f s s' G FR FN RB OO SNR E. cbn [s_exec] in E. chk E K1. bnd E fr F.
  set (run := (fix all (l : list tx) (s : xstate) {struct l} : xstate := _)) in E. unfold proxy_at in *. rewrite G in *.
  match type of E with (let (_, _) := ?x in _) = _ => destruct x as [s1 res] eqn:R end.
  assert (NET : fr = net).
  { apply C61_network_of_same_addresses in F as [a' F]. apply C61_solidity_accepts_exactly in F as (F1 & _ & _ & F2).
    assert (JAddr (str "btp") fr a' = JAddr (str "btp") net f) by (rewrite <- !j_parse_text by (exact btp_plain || assumption); congruence). congruence. }
  rewrite RB in E. chk E K2. bnd E pl PL. unfold s_sendBTPMessage in E. bnd E r RR. bnd RR b B. apply bmc_send_some in RR as [nn ->]. cbn [fst] in E.
  assert (EQ : s' = _) by (symmetry; injection E as E; exact E). clear E. rewrite NET in EQ.
  rewrite int256_small in EQ by lia. replace (q_sn q * -1) with (- q_sn q) in EQ by lia.
  destruct (parseAddress (q_to q)) as [a|] eqn:A.
  - assert (s_result (q_sn q) out = res) by congruence. clear R. subst res.
    destruct (s_result_code (q_sn q) out) as (C1 & C2 & txt & C3). exists (r_code (s_result (q_sn q) out)), txt. eexists. exists b. split.
    { rewrite EQ. cbn [emit x_log with_bal]. rewrite C3. cbn [bytes_in]. rewrite <- app_assoc. reflexivity. }
    split. { assert (X : mkCsRes (q_sn q) (r_code (s_result (q_sn q) out)) (Some txt) = s_result (q_sn q) out) by (destruct (s_result (q_sn q) out); cbn in *; congruence). rewrite X, PL. exact B. }
    split. { destruct out; split; intros X; try (split; congruence); try lia; destruct X; congruence. }
    clear - OO C3. destruct out as [|code|x|]; cbn [s_result r_code r_msg] in C3 |- *.
    + assert (txt = []) by congruence. subst txt. split; [left; reflexivity|]. split; [split; [constructor|reflexivity]|discriminate].
    + assert (txt = str "unknownError") by congruence. subst txt. split; [right; reflexivity|]. split; [split; [apply str_bytes|reflexivity]|discriminate].
    + assert (txt = x) by congruence. subst txt. split; [right; reflexivity|exact OO].
    + assert (txt = str "unknownError") by congruence. subst txt. split; [right; reflexivity|]. split; [split; [apply str_bytes|reflexivity]|discriminate].
  - assert (res = mkCsRes (q_sn q) CS_FAILURE (Some (str "IllegalArgument"))) by congruence. subst res.
    exists CS_FAILURE, (str "IllegalArgument"). eexists. exists b. split; [rewrite EQ; cbn [emit x_log with_bal r_code r_msg bytes_in]; rewrite <- app_assoc; reflexivity|].
    split; [rewrite PL; exact B|]. split; [unfold CS_FAILURE; split; [lia|intros [_ X]; congruence]|]. split; [right; reflexivity|]. split; [split; [apply str_bytes|reflexivity]|discriminate].
Qed.
End Solidity.

(** * Sizes *)
Lemma body_request_le : forall q, bytes_ok (q_from q) -> bytes_ok (q_to q) -> opt_bytes (q_data q) -> zlen (q_from q) < 2 ^ 31 -> zlen (q_to q) < 2 ^ 31 -> zlen (bytes_in (q_data q)) < 2 ^ 31 -> Z.abs (q_sn q) < 2 ^ 256 ->
  zlen (concat (map rlp_write (request_items q))) <= zlen (q_from q) + zlen (q_to q) + zlen (bytes_in (q_data q)) + 80.
Proof.
  intros q B1 B2 B3 L1 L2 L3 N. unfold request_items. cbn [map concat]. rewrite !zlen_app. change (zlen (@nil Z)) with 0.
  pose proof (write_len (q_from q) B1 ltac:(lia)). pose proof (write_len (q_to q) B2 ltac:(lia)). pose proof (num_len (q_sn q) N).
  assert (zlen (rlp_write (bool_item (q_rollback q))) <= 1) by (destruct (q_rollback q); vm_compute; congruence).
  assert (zlen (rlp_write (opt_item (q_data q))) <= zlen (bytes_in (q_data q)) + 9); [|lia].
  destruct (q_data q) as [d|]; cbn [opt_item bytes_in] in *; [apply write_len; [exact B3|lia]|vm_compute; congruence].
Qed.
Lemma body_response_le : forall r, opt_bytes (r_msg r) -> zlen (bytes_in (r_msg r)) < 2 ^ 31 -> Z.abs (r_sn r) < 2 ^ 256 -> Z.abs (r_code r) < 2 ^ 256 ->
  zlen (concat (map rlp_write (response_items r))) <= zlen (bytes_in (r_msg r)) + 100.
Proof.
  intros r B3 L3 N C. unfold response_items. cbn [map concat]. rewrite !zlen_app. change (zlen (@nil Z)) with 0. pose proof (num_len (r_sn r) N). pose proof (num_len (r_code r) C).
  assert (zlen (rlp_write (opt_item (r_msg r))) <= zlen (bytes_in (r_msg r)) + 9); [|lia].
  destruct (r_msg r) as [d|]; cbn [opt_item bytes_in] in *; [apply write_len; [exact B3|lia]|vm_compute; congruence].
Qed.
Lemma wire_le : forall type items, Forall rlp_ok items -> Z.abs type < 2 ^ 256 -> zlen (concat (map rlp_write items)) < 2 ^ 31 + 2 ^ 30 ->
  zlen (rlp_write (message_item type (rlp_write (RList items)))) <= zlen (concat (map rlp_write items)) + 80.
Proof.
  intros type items O T L. set (inner := rlp_write (RList items)).
  assert (I1 : zlen inner <= zlen (concat (map rlp_write items)) + 9) by (unfold inner; cbn [rlp_write]; apply writeList_le; lia).
  assert (BI : bytes_ok inner) by (apply rlp_write_ok; [apply rlp_ok_list; exact O|fold inner; lia]).
  pose proof (write_len inner BI ltac:(lia)) as W. pose proof (num_len type T) as NT.
  change (rlp_write (message_item type inner)) with (writeList (rlp_write (int_item type) ++ rlp_write (RBytes inner) ++ [])).
  assert (I2 : zlen (rlp_write (int_item type) ++ rlp_write (RBytes inner) ++ []) <= zlen (concat (map rlp_write items)) + 62) by (rewrite !zlen_app; change (zlen (@nil Z)) with 0; lia).
  eapply Z.le_trans; [apply writeList_le; lia|]. lia.
Qed.
Lemma request_carried : forall q, request_ok q -> zlen (q_from q) < 2 ^ 30 -> zlen (q_to q) < 2 ^ 30 -> zlen (bytes_in (q_data q)) < 2 ^ 29 -> Z.abs (q_sn q) < 2 ^ 256 -> carried 1 (request_items q) (request_wire q).
Proof.
  intros q (B1 & B2 & B3) L1 L2 L3 N. change (request_wire q) with (rlp_write (message_item 1 (rlp_write (RList (request_items q))))). apply carried_write.
  pose proof (body_request_le q B1 B2 B3 ltac:(lia) ltac:(lia) ltac:(lia) N). pose proof (wire_le 1 (request_items q) (request_items_ok q (conj B1 (conj B2 B3))) ltac:(lia) ltac:(lia)). lia.
Qed.
Lemma response_carried : forall r, response_ok r -> zlen (bytes_in (r_msg r)) < 2 ^ 31 -> Z.abs (r_sn r) < 2 ^ 256 -> carried 2 (response_items r) (response_wire r).
Proof.
  intros r (B1 & B2) L N. change (response_wire r) with (rlp_write (message_item 2 (rlp_write (RList (response_items r))))). apply carried_write. red in B1.
  pose proof (body_response_le r B2 L N ltac:(lia)). pose proof (wire_le 2 (response_items r) (response_items_ok r (conj B1 B2)) ltac:(lia) ltac:(lia)). lia.
Qed.
Lemma address_parts : forall p net account, bytes_ok (address_text p net account) -> bytes_ok account /\ zlen account <= zlen (address_text p net account).
Proof.
  intros p net account B. unfold address_text in *. apply Forall_app in B as [_ B]. apply Forall_app in B as [_ B]. apply Forall_app in B as [_ B]. apply Forall_app in B as [_ B]. split; [exact B|]. rewrite !zlen_app. pose proof (zlen_nonneg _ p). pose proof (zlen_nonneg _ net). pose proof (zlen_nonneg _ account).
  change (zlen (str "://")) with 3. change (zlen (str "/")) with 1. lia.
Qed.
Lemma checksum_ok : forall H c, bytes_ok (toChecksumString H c) /\ zlen (toChecksumString H c) = 42.
Proof.
  intros H c. unfold toChecksumString. set (f := fun i : nat => _). assert (F : forall l, bytes_ok (concat (map f l)) /\ zlen (concat (map f l)) = 2 * zlen l).
  { induction l as [|i l [IH1 IH2]]; [split; [constructor|reflexivity]|]. cbn [map concat]. unfold f at 1 3. destruct (caps_flags H c i) as [lc rc]. set (b := (c / _) mod 256).
    assert (0 <= b < 256) by (apply Z.mod_pos_bound; lia). pose proof (Z.mod_pos_bound b 16 ltac:(lia)). assert (0 <= b / 16 < 16) by (split; [apply Z.div_pos; lia|apply Z.div_lt_upper_bound; lia]).
    assert (A : forall n u, 0 <= n < 16 -> is_byte (n + ascii_offset n u)) by (intros n u N; red; unfold ascii_offset; destruct (n <? 10); [lia|destruct u; lia]).
    split; [constructor; [apply A; lia|]; constructor; [apply A; lia|exact IH1]|]. cbn [app]. rewrite !zlen_cons, IH2. lia. }
  destruct (F (seq 0 20)) as [F1 F2]. split; [apply Forall_app; split; [apply str_bytes|exact F1]|]. rewrite zlen_app, F2. vm_compute. reflexivity.
Qed.
