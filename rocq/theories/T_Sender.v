(** Theorems about how the senders report transaction results: C31. *)
From Coq Require Import String Ascii ZArith List Bool Lia.
From Coq Require Import ZifyBool.
From Verif Require Import Base L_Base M_IntConv L_IntConv GoStr M_Address M_Errors S_Errors M_Sender.
Import ListNotations.
Open Scope Z_scope.

(** Specification vocabulary. *)
Definition waiting (r : response) : Prop := exists c msg, r = Failed_ (JsonErr c msg) /\ (c = -31002 \/ c = -31003).
(** The first answer of the node that is not "pending" or "executing". *)
Definition final (rs : list response) (r : response) : Prop :=
  exists pre post, rs = pre ++ r :: post /\ Forall waiting pre /\ ~ waiting r.

Lemma is_pending_spec : forall e, is_pending e = true <-> waiting (Failed_ e).
Proof.
  intros e. split.
  - destruct e as [c msg| | |]; cbn [is_pending]; try discriminate. intros E. exists c, msg. split; [reflexivity|].
    apply orb_true_iff in E. unfold JsonrpcPending, JsonrpcExecuting in E. lia.
  - intros (c & msg & E & Hc). injection E as ->. cbn [is_pending]. unfold JsonrpcPending, JsonrpcExecuting. destruct Hc; subst; reflexivity.
Qed.

Lemma GetResult_final : forall i rs r, GetResult i rs = Some r ->
  exists a, final rs a /\ r = mapErrorWithTransactionResult i (match a with Result_ t => Some t | _ => None end) (match a with Failed_ e => Some e | _ => None end).
Proof.
  intros i rs r. induction rs as [|[t|e] rs IH]; cbn [GetResult]; intros E; [discriminate| |].
  - injection E as <-. exists (Result_ t). split; [|reflexivity]. exists [], rs. split; [reflexivity|]. split; [constructor|]. intros (c & m & X & _). discriminate.
  - destruct (is_pending e) eqn:EP.
    + destruct (IH E) as (a & (pre & post & -> & F & N) & ->). exists a. split; [|reflexivity]. exists (Failed_ e :: pre), post. split; [reflexivity|]. split; [|assumption].
      constructor; [|assumption]. apply is_pending_spec. assumption.
    + injection E as <-. exists (Failed_ e). split; [|reflexivity]. exists [], rs. split; [reflexivity|]. split; [constructor|].
      intros HW. apply is_pending_spec in HW. congruence.
Qed.
Lemma final_GetResult : forall i rs a, final rs a ->
  GetResult i rs = Some (mapErrorWithTransactionResult i (match a with Result_ t => Some t | _ => None end) (match a with Failed_ e => Some e | _ => None end)).
Proof.
  intros i rs a (pre & post & -> & F & N). induction F as [|x pre HW F IH]; cbn [app GetResult].
  - destruct a as [t|e]; [reflexivity|]. destruct (is_pending e) eqn:EP; [exfalso; apply N; apply is_pending_spec; assumption|reflexivity].
  - destruct HW as (c & m & -> & Hc). assert (E : is_pending (JsonErr c m) = true) by (apply is_pending_spec; exists c, m; auto). rewrite E. exact IH.
Qed.

Lemma MapError_some : forall e r, MapError (Some e) = Ok r -> r <> None.
Proof.
  intros e r. unfold MapError. destruct e as [c msg| |b|]; [|congruence|destruct b; congruence|congruence].
  destruct (c =? JsonrpcTxPoolOverflow); [congruence|]. destruct (c =? JsonrpcSystem).
  - destruct (length msg <? 5)%nat; [discriminate|]. destruct (strconv_ParseInt0 (firstn 4 (skipn 1 msg)) 32) as [z|]; [|congruence].
    destruct (z =? ExpiredTransactionError); [congruence|]. destruct (z =? FutureTransactionError); [congruence|]. destruct (z =? TransactionPoolOverflowError); congruence.
  - destruct ((c =? JsonrpcPending) || (c =? JsonrpcExecuting)); congruence.
Qed.

(** ICON: GetResult returns no error exactly when the node's final answer is a result with status 0x1. *)
Theorem C31_icon_success_iff : forall i rs, GetResult i rs = Some (Ok None) <-> exists t, final rs (Result_ t) /\ tr_status t = str "0x1".
Proof.
  intros i rs. split.
  - intros E. destruct (GetResult_final i rs _ E) as ([t|e] & HF & E2).
    + exists t. split; [assumption|]. unfold mapErrorWithTransactionResult in E2. cbn [MapError rbind] in E2.
      destruct (bytes_eqb_spec (tr_status t) ResultStatusSuccess) as [EQ|N]; [assumption|]. exfalso.
      destruct (tr_failure t) as [ct|]; [|discriminate]. destruct (client_HexInt_Value ct) as [v|]; [|discriminate E2]. cbv zeta in E2.
      unfold FailureCodeRevert, FailureCodeEnd in E2. destruct ((v <? 32) || (99 <? v)) eqn:ER; [discriminate|].
      apply orb_false_iff in ER. unfold NewRevertError in E2. rewrite i64_small in E2 by lia.
      unfold CodeBTP in E2. destruct (Z.leb_spec 0 (v - 32)); [discriminate|lia].
    + exfalso. unfold mapErrorWithTransactionResult in E2. destruct (MapError (Some e)) as [r| |] eqn:EM; cbn [rbind] in E2; try discriminate.
      apply MapError_some in EM. destruct r; [|congruence]. discriminate.
  - intros (t & HF & ES). rewrite (final_GetResult i rs _ HF). unfold mapErrorWithTransactionResult. cbn [MapError rbind]. rewrite ES. reflexivity.
Qed.
Print Assumptions C31_icon_success_iff.

(** ICON: a result with a failure code in the revert range is reported with exactly that code, less 32, and
    the link is told, then given a status. *)
Theorem C31_icon_revert_code : forall i id rs t text fc, final rs (Result_ t) -> tr_status t <> str "0x1" -> tr_failure t = Some text ->
  ParseInt text 64 = Some fc -> 32 <= fc <= 99 ->
  exists r e, GetResult i rs = Some r /\ r = Ok (Some (Coded_ e)) /\ CodeOf (Some e) = Ok (fc - 32) /\
    result_messages id r = Ok [RelayResult id (fc - 32); LinkStatus].
Proof.
  intros i id rs t text fc HF HS HT HP HR. exists (Ok (Some (Coded_ (Base_ i (fc - 32))))), (Base_ i (fc - 32)).
  split; [|split; [reflexivity|split; reflexivity]].
  rewrite (final_GetResult i rs _ HF). unfold mapErrorWithTransactionResult. cbn [MapError rbind].
  destruct (bytes_eqb_spec (tr_status t) ResultStatusSuccess) as [EQ|N]; [contradiction|]. rewrite HT. unfold client_HexInt_Value. rewrite HP.
  unfold FailureCodeRevert, FailureCodeEnd. cbv zeta. destruct (Z.ltb_spec fc 32); [lia|]. destruct (Z.ltb_spec 99 fc); [lia|]. cbn [orb].
  rewrite i64_small by lia. unfold NewRevertError, CodeBTP. destruct (Z.leb_spec 0 (fc - 32)); [reflexivity|lia].
Qed.
Print Assumptions C31_icon_revert_code.

(** Anything the link is told about a relay message stems from a failed transaction: no code is made up. *)
Theorem C31_icon_codes_are_genuine : forall i id rs r id' c ms, GetResult i rs = Some r -> result_messages id r = Ok ms -> In (RelayResult id' c) ms ->
  id' = id /\ exists t text fc, final rs (Result_ t) /\ tr_status t <> str "0x1" /\ tr_failure t = Some text /\ ParseInt text 64 = Some fc /\ c = fc - 32 /\ 0 <= c <= 67.
Proof.
  intros i id rs r id' c ms E EM HI. destruct (GetResult_final i rs _ E) as ([t|e] & HF & E2); subst r.
  - unfold mapErrorWithTransactionResult in EM. cbn [MapError rbind] in EM.
    destruct (bytes_eqb_spec (tr_status t) ResultStatusSuccess) as [EQ|N]; [cbn in EM; injection EM as <-; destruct HI as [X|[]]; discriminate|].
    destruct (tr_failure t) as [ct|] eqn:ET; [|discriminate]. unfold FailureCodeRevert, FailureCodeEnd in EM. cbv zeta in EM. unfold client_HexInt_Value in EM.
    destruct (ParseInt ct 64) as [v|] eqn:EP.
    + destruct ((v <? 32) || (99 <? v)) eqn:ER; [cbn in EM; injection EM as <-; destruct HI as [X|[]]; discriminate|].
      apply orb_false_iff in ER. rewrite i64_small in EM by lia. unfold NewRevertError, CodeBTP in EM. destruct (Z.leb_spec 0 (v - 32)); [|lia].
      cbn [rbind result_messages coder AsCoder error_code] in EM. injection EM as <-. destruct HI as [X|[X|[]]]; [|discriminate].
      injection X as <- <-. split; [reflexivity|]. exists t, ct, v. repeat split; auto; lia.
    + cbn in EM. injection EM as <-. destruct HI as [X|[]]; discriminate.
  - exfalso. unfold mapErrorWithTransactionResult in EM. unfold MapError in EM.
    assert (NC : forall m, (match m with Coded_ _ => False | _ => True end) -> result_messages id (Ok (Some m)) = Ok [LinkStatus]) by (intros [] Hm; try contradiction; reflexivity).
    assert (DONE : forall m, (match m with Coded_ _ => False | _ => True end) -> result_messages id (Ok (Some m)) = Ok ms -> False).
    { intros m Hm Em. rewrite NC in Em by assumption. injection Em as <-. destruct HI as [X|[]]. discriminate. }
    destruct e as [k msg| |b|]; [|apply (DONE ConnectFail I EM)|destruct b; [apply (DONE ConnectFail I EM)|apply (DONE (Raw (UrlErr false)) I EM)]|apply (DONE (Raw OtherErr) I EM)].
    destruct (k =? JsonrpcTxPoolOverflow); [apply (DONE SendFailByOverflow I EM)|]. destruct (k =? JsonrpcSystem).
    + destruct (length msg <? 5)%nat; [discriminate|]. destruct (strconv_ParseInt0 (firstn 4 (skipn 1 msg)) 32) as [z|]; [|apply (DONE (Raw (JsonErr k msg)) I EM)].
      destruct (z =? ExpiredTransactionError); [apply (DONE SendFailByExpired I EM)|]. destruct (z =? FutureTransactionError); [apply (DONE SendFailByFuture I EM)|].
      destruct (z =? TransactionPoolOverflowError); [apply (DONE SendFailByOverflow I EM)|apply (DONE (Raw (JsonErr k msg)) I EM)].
    + destruct ((k =? JsonrpcPending) || (k =? JsonrpcExecuting)); [apply (DONE GetResultFailByPending I EM)|apply (DONE (Raw (JsonErr k msg)) I EM)].
Qed.
Print Assumptions C31_icon_codes_are_genuine.

(** But the link is not told about a failure without revert code (out of steps, unknown failure) or an RPC
    error: it only gets a status, as after a success. *)
Theorem C31_uncoded_failure_silent_refuted : forall i id rs t text, final rs (Result_ t) -> tr_status t <> str "0x1" -> tr_failure t = Some text ->
  (forall fc, ParseInt text 64 = Some fc -> fc < 32 \/ 99 < fc) ->
  exists r, GetResult i rs = Some r /\ r <> Ok None /\ result_messages id r = Ok [LinkStatus].
Proof.
  intros i id rs t text HF HS HT HP. exists (Ok (Some FailureCode)). split; [|split; [discriminate|reflexivity]].
  rewrite (final_GetResult i rs _ HF). unfold mapErrorWithTransactionResult. cbn [MapError rbind].
  destruct (bytes_eqb_spec (tr_status t) ResultStatusSuccess) as [EQ|N]; [contradiction|]. rewrite HT. unfold client_HexInt_Value, FailureCodeRevert, FailureCodeEnd. cbv zeta.
  destruct (ParseInt text 64) as [fc|]; [|reflexivity]. destruct (HP fc eq_refl); destruct (Z.ltb_spec fc 32), (Z.ltb_spec 99 fc); try lia; reflexivity.
Qed.
Print Assumptions C31_uncoded_failure_silent_refuted.

(** The node can crash the relay: a failed result without a failure object, or a system error with a message
    of fewer than five bytes. *)
Theorem C31_hostile_answer_panics_refuted :
  (forall i t, tr_status t <> str "0x1" -> tr_failure t = None -> GetResult i [Result_ t] = Some Panic) /\
  (forall i msg, (length msg < 5)%nat -> GetResult i [Failed_ (JsonErr (-31000) msg)] = Some Panic).
Proof.
  split.
  - intros i t HS HT. cbn [GetResult]. unfold mapErrorWithTransactionResult. cbn [MapError rbind].
    destruct (bytes_eqb_spec (tr_status t) ResultStatusSuccess) as [EQ|N]; [contradiction|]. rewrite HT. reflexivity.
  - intros i msg HL. cbn [GetResult is_pending]. unfold mapErrorWithTransactionResult, MapError.
    change (-31000 =? JsonrpcPending) with false. change (-31000 =? JsonrpcExecuting) with false. cbn [orb].
    change (-31000 =? JsonrpcTxPoolOverflow) with false. change (-31000 =? JsonrpcSystem) with true. cbv iota.
    destruct (Nat.ltb_spec (length msg) 5); [reflexivity|lia].
Qed.
Print Assumptions C31_hostile_answer_panics_refuted.

(** EVM: the first answer that is not pending. *)
Definition eth_final (rs : list eth_answer) (a : eth_answer) : Prop :=
  exists pre post, rs = pre ++ a :: post /\ Forall (fun x => ea_tx_error x = false /\ ea_pending x = true) pre /\ (ea_tx_error a = true \/ ea_pending a = false).
Definition eth_code (text : list Z) (c : Z) : Prop := exists a b rest, str_split text (ch ":") = a :: b :: rest /\ rest <> [] /\ Atoi (trim_left b) = Some c.

Lemma eth_skip : forall i rs a, eth_final rs a -> eth_GetResult i rs = eth_GetResult i [a].
Proof.
  intros i rs a (pre & post & -> & F & HA). induction F as [|x pre [H1 H2] F IH]; cbn [app eth_GetResult].
  - destruct (ea_tx_error a); [reflexivity|]. destruct (ea_pending a); [destruct HA; discriminate|]. reflexivity.
  - rewrite H1, H2. exact IH.
Qed.
Lemma eth_has_final : forall i rs r, eth_GetResult i rs = Some r -> exists a, eth_final rs a.
Proof.
  intros i rs r. induction rs as [|a rs IH]; cbn [eth_GetResult]; [discriminate|].
  destruct (ea_tx_error a) eqn:E1; [intros _; exists a, [], rs; split; [reflexivity|]; split; [constructor|auto]|].
  destruct (ea_pending a) eqn:E2; [|intros _; exists a, [], rs; split; [reflexivity|]; split; [constructor|auto]].
  intros E. destruct (IH E) as (b & pre & post & -> & F & HB). exists b, (a :: pre), post. split; [reflexivity|]. split; [constructor; auto|assumption].
Qed.

(** EVM: no error exactly when the receipt's status is not 0 -- or when the revert text carries a negative
    code, in which case a failed transaction passes for a successful one. *)
Theorem C31_eth_success_iff : forall i rs, eth_GetResult i rs = Some (Ok None) <->
  exists a s, eth_final rs a /\ ea_tx_error a = false /\ ea_receipt a = Some s /\
    (s <> 0 \/ (s = 0 /\ ea_call_error a = false /\ exists text c, ea_revert a = Some text /\ eth_code text c /\ c < 0)).
Proof.
  intros i rs. split.
  - intros E. destruct (eth_has_final _ _ _ E) as [a HF]. rewrite (eth_skip i rs a HF) in E. exists a. cbn [eth_GetResult] in E.
    destruct (ea_tx_error a) eqn:E1; [discriminate|]. destruct (ea_pending a) eqn:E2; [discriminate|]. destruct (ea_receipt a) as [s|]; [|discriminate].
    exists s. split; [assumption|]. split; [reflexivity|]. split; [reflexivity|]. destruct (Z.eqb_spec s 0) as [E0|]; [right; split; [assumption|]|left; assumption].
    destruct (ea_call_error a); [discriminate|]. split; [reflexivity|]. destruct (ea_revert a) as [text|]; [|discriminate].
    cbv zeta in E. destruct (Nat.ltb_spec 2 (length (str_split text (ch ":")))); [|discriminate].
    destruct (Atoi (trim_left (nth 1 (str_split text (ch ":")) []))) as [c|] eqn:EA; [|discriminate].
    unfold NewRevertError, CodeBTP in E. destruct (Z.leb_spec 0 c); [discriminate|]. exists text, c. split; [reflexivity|]. split; [|assumption].
    destruct (str_split text (ch ":")) as [|x [|y rest]] eqn:ES; [cbn in H; lia|cbn in H; lia|]. exists x, y, rest. split; [assumption|]. split; [destruct rest; [cbn in H; lia|discriminate]|exact EA].
  - intros (a & s & HF & E1 & E3 & HS). rewrite (eth_skip i rs a HF). cbn [eth_GetResult]. rewrite E1.
    assert (E2 : ea_pending a = false) by (destruct HF as (pre & post & _ & _ & [X|X]); [congruence|assumption]). rewrite E2, E3.
    destruct HS as [HS|(-> & E4 & text & c & E5 & (x & y & rest & E6 & E7 & E8) & HC)].
    + destruct (Z.eqb_spec s 0); [contradiction|reflexivity].
    + cbn [Z.eqb]. rewrite E4, E5. cbv zeta. rewrite E6. destruct rest as [|z rest]; [congruence|]. cbn [length Nat.ltb Nat.leb nth].
      rewrite E8. unfold NewRevertError, CodeBTP. destruct (Z.leb_spec 0 c); [lia|reflexivity].
Qed.
Print Assumptions C31_eth_success_iff.

Theorem C31_eth_negative_code_refuted : eth_GetResult 1 [{| ea_tx_error := false; ea_pending := false; ea_receipt := Some 0; ea_call_error := false;
  ea_revert := Some (str "execution reverted: -1:fail") |}] = Some (Ok None).
Proof. vm_compute. reflexivity. Qed.
Print Assumptions C31_eth_negative_code_refuted.

(** EVM: a non-negative code in the revert text is the one reported. *)
Theorem C31_eth_revert_code : forall i id rs a text c, eth_final rs a -> ea_tx_error a = false -> ea_receipt a = Some 0 -> ea_call_error a = false ->
  ea_revert a = Some text -> eth_code text c -> 0 <= c ->
  exists r e, eth_GetResult i rs = Some r /\ r = Ok (Some (Coded_ e)) /\ CodeOf (Some e) = Ok c /\ result_messages id r = Ok [RelayResult id c; LinkStatus].
Proof.
  intros i id rs a text c HF E1 E3 E4 E5 (x & y & rest & E6 & E7 & E8) HC. exists (Ok (Some (Coded_ (Base_ i c)))), (Base_ i c).
  split; [|split; [reflexivity|split; reflexivity]]. rewrite (eth_skip i rs a HF). cbn [eth_GetResult]. rewrite E1.
  assert (E2 : ea_pending a = false) by (destruct HF as (pre & post & _ & _ & [X|X]); [congruence|assumption]). rewrite E2, E3. cbn [Z.eqb]. rewrite E4, E5.
  cbv zeta. rewrite E6. destruct rest as [|z rest]; [congruence|]. cbn [length Nat.ltb Nat.leb nth]. rewrite E8. unfold NewRevertError, CodeBTP.
  destruct (Z.leb_spec 0 c); [reflexivity|lia].
Qed.
Print Assumptions C31_eth_revert_code.

(** Revert errors keep their code, and their message names the right family except for the first code of each
    family but the lowest, which is named after the family before. *)
Theorem C31_revert_error : forall i c, 0 <= c -> exists e f, NewRevertError i c = Some (e, f) /\ CodeOf (Some e) = Ok c /\
  (c <> 10 -> c <> 25 -> c <> 40 -> c <> 55 -> f = family_of c).
Proof.
  intros i c Hc. unfold NewRevertError, CodeBTP, CodeBMC, CodeBMV, CodeBSH, CodeReserved. destruct (Z.leb_spec 0 c); [|lia].
  eexists _, _. split; [reflexivity|]. split; [reflexivity|]. intros. unfold family_of.
  destruct (Z.leb_spec c 10), (Z.ltb_spec c 10); try lia; [reflexivity|]. destruct (Z.leb_spec c 25), (Z.ltb_spec c 25); try lia; [reflexivity|].
  destruct (Z.leb_spec c 40), (Z.ltb_spec c 40); try lia; [reflexivity|]. destruct (Z.leb_spec c 55), (Z.ltb_spec c 55); try lia; reflexivity.
Qed.
Print Assumptions C31_revert_error.
Theorem C31_family_names_refuted : forall i c, In c [10; 25; 40; 55] -> exists e f, NewRevertError i c = Some (e, f) /\ f <> family_of c.
Proof. intros i c Hc. cbn [In] in Hc. destruct Hc as [<-|[<-|[<-|[<-|[]]]]]; do 2 eexists; (split; [reflexivity|]); discriminate. Qed.
Print Assumptions C31_family_names_refuted.

Example C31_ex : let t := {| tr_status := str "0x0"; tr_failure := Some (str "0x3a") |} in
  let rs := [Failed_ (JsonErr (-31002) (str "Pending")); Result_ t] in
  final rs (Result_ t) /\ ParseInt (str "0x3a") 64 = Some 58 /\ GetResult 7 rs = Some (Ok (Some (Coded_ (Base_ 7 26)))) /\
  result_messages 3 (Ok (Some (Coded_ (Base_ 7 26)))) = Ok [RelayResult 3 26; LinkStatus].
Proof.
  cbn zeta. split; [|vm_compute; auto]. eexists [_], []. split; [reflexivity|]. split.
  - constructor; [|constructor]. exists (-31002), (str "Pending"). auto.
  - intros (c & m & X & _). discriminate.
Qed.
Example C31_ex_eth : eth_code (str "execution reverted: 27: already") 27 /\
  eth_GetResult 1 [{| ea_tx_error := false; ea_pending := true; ea_receipt := None; ea_call_error := false; ea_revert := None |};
    {| ea_tx_error := false; ea_pending := false; ea_receipt := Some 0; ea_call_error := false; ea_revert := Some (str "execution reverted: 27: already") |}] = Some (Ok (Some (Coded_ (Base_ 1 27)))).
Proof. split; [|vm_compute; reflexivity]. do 3 eexists. split; [vm_compute; reflexivity|]. split; [discriminate|vm_compute; reflexivity]. Qed.
