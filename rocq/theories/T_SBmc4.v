(** Theorems about the message center for the EVM: answers to requests, C78. *)
From Coq Require Import String Ascii ZArith List Bool Lia Permutation.
From Coq Require Import ZifyBool.
From Verif Require Import Base L_Base M_SolRlp M_BtpAddr M_Bridge M_JMap L_JMap M_SBmc S_SBmc L_SBmc X_SBmc T_SBmc T_SBmc2 T_SBmc3.
From Verif Require S_JBmc M_SolCall.
Import ListNotations.
Open Scope Z_scope.

Lemma answers_app : forall net n a b, answers net n (a ++ b) = (answers net n a + answers net n b)%nat.
Proof. intros. unfold answers. rewrite filter_app, app_length. reflexivity. Qed.
Lemma filter_perm : forall A (f : A -> bool) a b, Permutation a b -> length (filter f a) = length (filter f b).
Proof.
  intros A f a b P. induction P as [|x a b P IH|x y a|a b c P1 I1 P2 I2]; cbn [filter]; [reflexivity| | |congruence].
  - destruct (f x); cbn [length]; rewrite IH; reflexivity.
  - destruct (f x), (f y); reflexivity.
Qed.
Definition hit (net : text) (n : Z) (k : text * text * Z) (r : resp) : nat := if bytes_eqb (fst (fst k)) net && (p_nsn r =? n) then 1 else 0.
Lemma waiting_del : forall net n k r x qs ws, aget pkey_eqb k (responses x) = Some r ->
  (waiting net n (Ser (adel pkey_eqb k (responses x)) qs ws) + hit net n k r = waiting net n x)%nat.
Proof.
  intros net n k r x qs ws E. unfold waiting, hit. cbn [responses]. rewrite (filter_perm _ _ _ _ (adel_perm _ pkey_spec _ _ _ E)). cbn [filter fst snd]. unfold text in *. destruct (bytes_eqb (fst (fst k)) net && (p_nsn r =? n)); cbn [length]; lia.
Qed.
Lemma waiting_put : forall net n k r x qs ws, (waiting net n (Ser (aput pkey_eqb k r (responses x)) qs ws) <= waiting net n x + hit net n k r)%nat.
Proof.
  intros net n k r x qs ws. unfold waiting. cbn [responses]. induction (responses x) as [|[k2 r2] l IH]; cbn [aput].
  - unfold hit. cbn [filter fst snd]. destruct (_ && _); cbn [length]; lia.
  - destruct (pkey_eqb k k2) eqn:E.
    + apply pkey_spec in E. subst k2. unfold hit. cbn [filter fst snd]. unfold text in *. destruct (bytes_eqb (fst (fst k)) net && (p_nsn r =? n)), (bytes_eqb (fst (fst k)) net && (p_nsn r2 =? n)); cbn [length]; lia.
    + cbn [filter fst snd]. destruct (_ && _); cbn [length]; lia.
Qed.

Section BMC.
Context (own : text) (self mgmt svcaddr : Z) (junk : list Z -> mem).
Context (verify : nat -> Z -> text -> Z -> list Z -> option (list (list Z))) (serve : nat -> Z -> bshcall -> action) (blame : nat -> text) (accepts : nat -> Z -> Z -> bool).
Notation exec := (exec own self mgmt svcaddr junk verify serve blame accepts).
Notation step := (step own self mgmt svcaddr junk verify serve blame accepts).
Notation run := (run own self mgmt svcaddr junk verify serve blame accepts).
Notation outside := (outside self mgmt svcaddr).
Notation dispatch := (dispatch own self mgmt svcaddr junk serve blame).
Notation dispatch_all := (dispatch_all own self mgmt svcaddr junk serve blame).
Notation handleMessage := (handleMessage own self mgmt svcaddr junk serve blame).
Notation sendError := (sendError own self).
Notation taken := (taken junk verify).

(** How requests that wait change while [ms] are taken in. *)
Definition keys_once (x : ser) : Prop := NoDup (map fst (responses x)).
Definition answered (new : list out) (net : text) (n : Z) : Prop := exists next e, (e = REPLY \/ e = ERROR) /\ In (OEvent net n next e) new.
Record settles (ms : list msg) (s : st) (new : list out) (s' : st) : Prop := Settles {
  se_out : s_out s' = s_out s ++ new;
  se_once : keys_once (s_s s) -> keys_once (s_s s');
  se_count : forall net n, net <> own -> 0 < n -> (answers net n new + waiting net n (s_s s') <= waiting net n (s_s s) + length (filter (asks net n) ms))%nat;
  se_keep : keys_once (s_s s) -> forall k, 0 < p_nsn (response_at (s_s s) k) ->
    response_at (s_s s') k = response_at (s_s s) k \/ answered new (fst (fst k)) (p_nsn (response_at (s_s s) k)) \/
    exists m, In m ms /\ k = (m_src m, m_svc m, m_sn m) /\ own = m_dst m /\ 0 < m_sn m }.

Lemma settles_trans : forall m1 m2 a n1 b n2 c, settles m1 a n1 b -> settles m2 b n2 c -> settles (m1 ++ m2) a (n1 ++ n2) c.
Proof.
  intros m1 m2 a n1 b n2 c [A1 A2 A3 A4] [B1 B2 B3 B4]. constructor.
  - rewrite B1, A1, app_assoc. reflexivity.
  - auto.
  - intros net n N P. specialize (A3 net n N P). specialize (B3 net n N P). rewrite answers_app, filter_app, app_length. lia.
  - intros K k P. destruct (A4 K k P) as [X|[(next & e & X1 & X2)|(m & X1 & X2)]].
    + destruct (B4 (A2 K) k ltac:(rewrite X; exact P)) as [Y|[(next & e & Y1 & Y2)|(m & Y1 & Y2)]].
      * left. congruence.
      * right. left. exists next, e. split; [exact Y1|]. rewrite X in Y2. apply in_or_app. right. exact Y2.
      * right. right. exists m. split; [apply in_or_app; right; exact Y1|exact Y2].
    + right. left. exists next, e. split; [exact X1|]. apply in_or_app. left. exact X2.
    + right. right. exists m. split; [apply in_or_app; left; exact X1|exact X2].
Qed.
(** nothing happens to requests *)
Lemma settles_kept : forall ms s s' new, s_out s' = s_out s ++ new -> (forall net n, net <> own -> 0 < n -> (answers net n new <= length (filter (asks net n) ms))%nat) -> responses (s_s s') = responses (s_s s) -> settles ms s new s'.
Proof.
  intros ms s s' new O U R. constructor; [exact O| | |].
  - unfold keys_once. rewrite R. auto.
  - intros net n N P. specialize (U net n N P). unfold waiting. rewrite R. lia.
  - intros _ k _. left. unfold response_at. rewrite R. reflexivity.
Qed.
Definition unheard (new : list out) : Prop := forall net n, answers net n new = 0%nat.
Lemma settles_same : forall s s' new, s_out s' = s_out s ++ new -> unheard new -> responses (s_s s') = responses (s_s s) -> settles [] s new s'.
Proof. intros s s' new O U R. apply settles_kept; [exact O| |exact R]. intros net n _ _. rewrite U. lia. Qed.
Lemma settles_refl : forall s, settles [] s [] s.
Proof. intros s. apply settles_same; [symmetry; apply app_nil_r|intros ? ?; reflexivity|reflexivity]. Qed.
Lemma settles_nil : forall a b c n1 n2, settles [] a n1 b -> settles [] b n2 c -> settles [] a (n1 ++ n2) c.
Proof. intros a b c n1 n2 A B. apply (settles_trans [] [] a n1 b n2 c A B). Qed.

Lemma addReward_resp : forall x net a v x', addReward x net a v = Some x' -> responses x' = responses x /\ requests x' = requests x.
Proof. intros x net a v x' E. unfold addReward in E. destruct (0 <? v); [bnd E y F; same E; auto|same E; auto]. Qed.
Lemma collectOverFee_resp : forall s v s', collectOverFee own self s v = Some s' -> exists x, s' = with_s s x /\ responses x = responses (s_s s) /\ requests x = requests (s_s s).
Proof.
  intros s v s' E. unfold collectOverFee in E. destruct (0 <? v); [bnd E x F; same E; apply addReward_resp in F; exists x; auto|]. same E. exists (s_s s). destruct s; auto.
Qed.
Lemma collectRemainFee_resp : forall x f x' f', collectRemainFee self x f = Some (x', f') -> responses x' = responses x /\ requests x' = requests x.
Proof. intros x f x' f' E. unfold collectRemainFee in E. bnd E t F1. bnd E y F2. apply addReward_resp in F2. injection E as <- _. exact F2. Qed.
Lemma accumulateFee_resp : forall x a f x' f', accumulateFee x a f = Some (x', f') -> responses x' = responses x /\ requests x' = requests x.
Proof. intros x a f x' f' E. unfold accumulateFee in E. destruct (f_vals f); [injection E as <- _; auto|]. bnd E y F. apply addReward_resp in F. injection E as <- _. exact F. Qed.

(** The one way a request stops waiting: its entry goes, an answer with its number is put out. *)
Lemma settles_answer : forall s k r s' new qs ws, aget pkey_eqb k (responses (s_s s)) = Some r -> s_s s' = Ser (adel pkey_eqb k (responses (s_s s))) qs ws -> s_out s' = s_out s ++ new ->
  (forall net n, net <> own -> 0 < n -> (answers net n new <= hit net n k r)%nat) -> (0 < p_nsn r -> answered new (fst (fst k)) (p_nsn r)) -> settles [] s new s'.
Proof.
  intros s k r s' new qs ws G X O A B. constructor; [exact O| | |].
  - intros K. unfold keys_once in *. rewrite X. cbn [responses]. apply (adel_nodup _ pkey_spec k _ K).
  - intros net n N P. pose proof (waiting_del net n k r (s_s s) qs ws G). specialize (A net n N P). rewrite X. cbn [filter length]. lia.
  - intros K k' P. destruct (keqb_case _ pkey_spec k' k) as [->|[N _]].
    + right. left. unfold response_at in *. rewrite G in *. apply B, P.
    + left. unfold response_at. rewrite X. cbn [responses]. rewrite (adel_other _ pkey_spec k k' _ K N). reflexivity.
Qed.
Lemma unheard_start : forall next n m o, (forall net k, answers net k [o] = 0%nat) -> unheard [OSent next n m; o].
Proof. intros next n m o H net k. change [OSent next n m; o] with ([OSent next n m] ++ [o]). rewrite answers_app, H. reflexivity. Qed.

Lemma settles_sendWithFee : forall s internal v to svc sn b r f s' n, sendWithFee own self s internal v to svc sn b r f = Some (s', n) -> exists new, settles [] s new s'.
Proof.
  intros s internal v to svc sn b r f s' n E. unfold sendWithFee in E. bnd E next F1. destruct r.
  - bnd E y F2. bnd E s1 F3. bnd E k F4. bnd E s2 F5. assert (s2 = s') by congruence. subst s2. apply collectOverFee_resp in F3 as (x & -> & R1 & R2).
    unfold removeResponse in F2. chk F2 H1. destruct y as [y1 y2]. injection F2 as <- <-. cbn [fst snd] in *. cbn [with_s s_s responses requests] in R1, R2.
    apply send_some in F5 as [_ ->]. unfold cneg in F4. destruct (_ =? _) in F4; [discriminate|]. same F4.
    unfold response_at in *. destruct (aget pkey_eqb (to, svc, sn) (responses (s_s s))) as [q|] eqn:EG; [|cbn [no_resp p_nsn] in H1; discriminate].
    eexists. eapply (settles_answer s (to, svc, sn) q _ _ (requests x) (rewards x)); [exact EG| | | |].
    + cbn [emit sent with_p with_s s_s]. destruct x as [xr xq xw]. cbn [responses requests rewards] in *. rewrite R1. reflexivity.
    + cbn [emit sent with_p with_s s_out]. rewrite <- app_assoc. reflexivity.
    + intros net n' N P. unfold msg_id. cbn [m_nsn m_dst m_src]. replace (- p_nsn q <? 0) with true by lia. cbn [fst snd]. rewrite Z.opp_involutive. unfold answers, hit. cbn [filter fst snd app]. destruct (bytes_eqb to net && (p_nsn q =? n')); cbn [length]; lia.
    + intros _. exists next, REPLY. split; [left; reflexivity|]. unfold msg_id. cbn [m_nsn m_dst m_src]. replace (- p_nsn q <? 0) with true by lia. cbn [fst snd]. rewrite Z.opp_involutive. right. left. reflexivity.
  - cbv zeta in E. destruct internal.
    + bnd E s2 F5. assert (s2 = s') by congruence. subst s2. apply send_some in F5 as [_ ->]. eexists. apply settles_same; [cbn [emit sent with_p next_nsn s_out]; rewrite <- app_assoc; reflexivity|apply unheard_start; reflexivity|reflexivity].
    + bnd E y F2. chk E F3. bnd E s1 F4. bnd E s2 F5. assert (s2 = s') by congruence. subst s2. apply collectOverFee_resp in F4 as (x & -> & R1 & R2). apply send_some in F5 as [_ ->].
      eexists. apply settles_same; [cbn [emit sent with_p with_s next_nsn s_out]; rewrite <- app_assoc; reflexivity|apply unheard_start; reflexivity|exact R1].
Qed.
Lemma settles_emit : forall s o, (forall net k, answers net k [o] = 0%nat) -> settles [] s [o] (emit s o).
Proof. intros s o H. apply settles_same; [reflexivity|exact H|reflexivity]. Qed.
Lemma settles_sendMessage : forall s c v to svc sn b s' n, sendMessage own self svcaddr s c v to svc sn b = Some (s', n) -> exists new, settles [] s new s'.
Proof.
  intros s c v to svc sn b s' n E. unfold sendMessage in E. cbv zeta in E. bnd E u F1. bnd E y F2. destruct y as [s1 n1]. injection E as <- _.
  assert (X : exists new, settles [] s new s1) by (destruct (sn <? 0); [bnd F2 k F3|]; eapply settles_sendWithFee; eassumption).
  destruct X as (new & G). eexists. eapply settles_nil; [exact G|]. apply settles_emit. reflexivity.
Qed.
Lemma settles_calls : forall cs s a s', run_calls own self svcaddr s a cs = Some s' -> exists new, settles [] s new s'.
Proof.
  induction cs as [|c cs IH]; intros s a s' E; cbn [run_calls] in E.
  - assert (s' = s) by congruence. subst. exists []. apply settles_refl.
  - destruct (sendMessage _ _ _ _ _ _ _ _ _ _) as [[s1 n]|] eqn:E1.
    + apply settles_sendMessage in E1 as (n1 & G1). apply IH in E as (n2 & G2). eexists. eapply settles_nil; eassumption.
    + destruct (c_catch c); [|discriminate]. apply IH in E. exact E.
Qed.
Lemma settles_handleResponse : forall s n r s', handleResponse s n r = Some s' -> exists new, settles [] s new s'.
Proof.
  intros s n r s' E. unfold handleResponse in E. destruct (aget _ _ _) as [q|]; [|discriminate]. chk E P. cbv zeta in E. bnd E x F. same E. eexists. apply settles_same; [reflexivity|intros ? ?; reflexivity|].
  cbn [emit with_s s_s]. destruct (r =? ECODE_NONE); [same F; reflexivity|]. apply addReward_resp in F as [F _]. exact F.
Qed.
Lemma settles_m : forall s m, settles [] s [] (with_m s m).
Proof. intros s m. apply settles_same; [symmetry; apply app_nil_r|intros ? ?; reflexivity|reflexivity]. Qed.
Lemma settles_internal : forall s f n b s', internalMessage own self svcaddr junk s f n b = Some s' -> exists new, settles [] s new s'.
Proof.
  intros s f n b s' E. unfold internalMessage in E. bnd E y F. destruct y as [type p].
  destruct (bytes_eqb type (str "Claim")).
  - bnd E c F1. bnd E r F2. bnd E x F3. bnd E k F4. bnd E e F5. bnd E e2 F6. bnd E z F7. destruct z as [s1 n1]. same E. apply settles_sendMessage in F7 as (new & G).
    exists ([] ++ new). eapply settles_nil; [|exact G]. apply settles_same; [symmetry; apply app_nil_r|intros ? ?; reflexivity|]. apply addReward_resp in F3 as [F3 _]. exact F3.
  - destruct (bytes_eqb type (str "Response")); [bnd E c F1; eapply settles_handleResponse, E|].
    destruct (bytes_eqb type (str "Link")); [bnd E a F1; bnd E m F2; same E; eexists; apply settles_m|].
    destruct (bytes_eqb type (str "Unlink")); [bnd E a F1; bnd E m F2; same E; eexists; apply settles_m|].
    destruct (bytes_eqb type (str "Init")); [bnd E a F1; bnd E m F2; same E; eexists; apply settles_m|discriminate].
Qed.
Lemma settles_service : forall s a c s', call_service own self mgmt svcaddr junk serve blame s a c = Some (inl s') -> exists new, settles [] s new s'.
Proof.
  intros s a c s' E. unfold call_service in E. destruct (a =? svcaddr).
  - destruct c.
    + destruct (internalMessage _ _ _ _ _ _ _ _) eqn:F; [|discriminate]. injection E as ->. eapply settles_internal, F.
    + destruct (internalError _ _ _) eqn:F; [|discriminate]. injection E as ->. eapply settles_handleResponse, F.
  - destruct (_ || _); [discriminate|]. destruct (serve _ _ _); try discriminate. destruct (run_calls _ _ _ _ _ _) eqn:F; [|discriminate]. injection E as ->. eapply settles_calls, F.
Qed.
Lemma settles_handleMessage : forall s m s' e, handleMessage s m = Some (s', e) -> exists new, settles [] s new s' /\ (fst e <> ECODE_NONE -> s' = s).
Proof.
  intros s m s' e E. unfold M_SBmc.handleMessage in E. cbv zeta in E. bnd E sn F1.
  assert (R : s' = s -> exists new, settles [] s new s' /\ (fst e <> ECODE_NONE -> s' = s)) by (intros ->; exists []; split; [apply settles_refl|auto]).
  destruct (if bytes_eqb (m_svc m) BMC_SERVICE then Some svcaddr else _) as [a|]; [|apply R; congruence].
  assert (HC : forall c, sbind (call_service own self mgmt svcaddr junk serve blame s a c) (fun r => Some (match r with inl s' => (s', (ECODE_NONE, [])) | inr reason => (s, (if bytes_eqb (m_svc m) BMC_SERVICE then ECODE_UNKNOWN else ECODE_BSH_REVERT, reason)) end)) = Some (s', e) ->
    exists new, settles [] s new s' /\ (fst e <> ECODE_NONE -> s' = s)).
  { intros c E2. bnd E2 r F2. destruct r as [s1|t]; [|apply R; congruence]. injection E2 as -> <-. apply settles_service in F2 as (new & G). exists new. split; [exact G|]. intros X. exfalso. apply X. reflexivity. }
  destruct (0 <=? m_sn m); [apply (HC _ E)|]. destruct (decodeResponseMessage junk (m_body m)) as [[code t]|]; [|apply R; congruence]. bnd E k F2. apply (HC _ E).
Qed.

(** What reporting an error puts out. *)
Lemma sendError_answers : forall s prev seq m code reason s', sendError s prev seq m code reason = Some s' -> exists new, s_out s' = s_out s ++ new /\ responses (s_s s') = responses (s_s s) /\
  (forall net n, net <> own -> 0 < n -> answers net n new = if asks net n m then 1%nat else 0%nat) /\ (0 < m_sn m -> 0 < m_nsn m -> answered new (m_src m) (m_nsn m)).
Proof.
  intros s prev seq m code reason s' E. unfold M_SBmc.sendError in E. bnd E y F1. destruct y as [x f]. cbv zeta in E. cbn [with_fee m_sn m_nsn m_src m_svc m_fee fst snd] in E.
  assert (XR : responses x = responses (s_s s)).
  { unfold handleErrorFee in F1. destruct (0 <? m_sn m) in F1; [|apply collectRemainFee_resp in F1; tauto]. cbv zeta in F1. destruct (_ && _)%nat in F1; injection F1 as <- _; reflexivity. }
  destruct (0 <? m_sn m) eqn:S.
  - bnd E a F2. bnd E b F3. bnd E c F4. apply send_some in E as [_ ->]. unfold cneg in F2, F3. destruct (m_sn m =? _); [discriminate|]. destruct (m_nsn m =? _); [discriminate|]. same F2. same F3.
    eexists. split; [cbn [emit sent with_p with_s s_out]; rewrite <- app_assoc; reflexivity|]. split; [exact XR|]. unfold msg_id. cbn [m_nsn m_dst m_src]. split.
    + intros net n N P. unfold answers, asks. cbn [filter app]. rewrite S, andb_true_r. destruct (- m_nsn m <? 0) eqn:Q; cbn [fst snd].
      * rewrite Z.opp_involutive. destruct (bytes_eqb (m_src m) net && (m_nsn m =? n)); reflexivity.
      * rewrite (bytes_eqb_false own net) by congruence. cbn [andb]. replace (m_nsn m =? n) with false by lia. rewrite andb_false_r. reflexivity.
    + intros _ P. exists prev, ERROR. split; [right; reflexivity|]. replace (- m_nsn m <? 0) with true by lia. cbn [fst snd]. rewrite Z.opp_involutive. right. left. reflexivity.
  - bnd E s1 F2. apply event_some in F2. bnd E b F3. same E. subst s1. eexists. split; [cbn [emit with_s s_out]; rewrite <- app_assoc; reflexivity|]. split; [exact XR|]. split; [|lia].
    intros net n N P. unfold asks. rewrite S, andb_false_r. reflexivity.
Qed.
(** One message. *)
Lemma settles_one : forall s c prev seq b x m' s', handleFee own self junk (s_s s) c b = Some (x, m') -> dispatch (with_s s x) prev seq m' = Some s' ->
  exists m new, decodeBTPMessage junk b = Some m /\ settles [m] s new s'.
Proof.
  intros s c prev seq b x m' s' E1 E. unfold handleFee in E1. bnd E1 m D. bnd E1 y F. destruct y as [x1 f]. cbv zeta in E1. cbn [with_fee m_dst m_sn m_src m_svc m_nsn m_fee m_body] in E1. apply accumulateFee_resp in F as [XR _].
  exists m. destruct (bytes_eqb (m_dst m) own) eqn:ED; [destruct (0 <? m_sn m) eqn:S|].
  - (* a request for this network *)
    bnd E1 z F2. destruct z as [x2 f2]. cbn [fst] in E1. apply collectRemainFee_resp in F2 as [XR2 _]. injection E1 as <- <-. set (k := (m_src m, m_svc m, m_sn m)) in *. set (r := Resp (m_nsn m) f) in *.
    set (s1 := with_s s _) in E. unfold M_SBmc.dispatch in E. cbn [with_fee m_dst] in E. rewrite ED in E. bnd E y F3. destruct y as [s2 e]. apply settles_handleMessage in F3 as (n1 & G & SAME).
    assert (RS : responses (s_s s1) = aput pkey_eqb k r (responses (s_s s))) by (cbn [s1 with_s s_s responses]; rewrite XR2, XR; reflexivity).
    assert (G0 : settles [m] s [] s1).
    { constructor; [symmetry; apply app_nil_r| | |].
      - intros K. unfold keys_once. rewrite RS. apply (aput_nodup _ pkey_spec). exact K.
      - intros net n N P. cbn [answers filter length]. unfold waiting at 1. rewrite RS. pose proof (waiting_put net n k r (s_s s) [] []) as W. unfold waiting at 1 in W. cbn [responses] in W. unfold asks. rewrite S, andb_true_r. unfold hit in W. cbn [fst k p_nsn r] in W. destruct (bytes_eqb (m_src m) net && (m_nsn m =? n)); cbn [length]; lia.
      - intros K k' P. destruct (keqb_case _ pkey_spec k' k) as [->|[N _]].
        + right. right. exists m. split; [left; reflexivity|]. split; [reflexivity|]. split; [apply bytes_eqb_spec in ED; congruence|lia].
        + left. unfold response_at. rewrite RS, (aput_other _ pkey_spec); [reflexivity|exact N]. }
    destruct (fst e =? ECODE_NONE) eqn:EC.
    + apply event_some in E. subst s'. eexists. split; [exact D|]. eapply (settles_trans [m] []); [exact G0|]. eapply settles_nil; [exact G|]. apply settles_emit. reflexivity.
    + clear G. rewrite (SAME ltac:(lia)) in E. bnd E s3 F4. cbn [with_fee m_sn m_src m_svc] in F4. rewrite S in F4. bnd F4 y F5. same F4. fold k in F5. unfold removeResponse, response_at in F5. rewrite RS, (aput_same _ pkey_spec) in F5. chk F5 PN. same F5. cbn [fst] in E.
      apply sendError_answers in E as (new & O & RR & AN & AW). cbn [with_s s_s s_out responses] in *.
      exists ([] ++ new). split; [exact D|]. apply (settles_trans [m] [] s [] s1 new s' G0). eapply (settles_answer s1 k r s' new (requests (s_s s')) (rewards (s_s s'))).
      * rewrite RS. apply (aput_same _ pkey_spec).
      * destruct (s_s s') as [a1 a2 a3]. cbn [responses requests rewards] in *. rewrite RR, RS. reflexivity.
      * exact O.
      * intros net n N P. rewrite AN by assumption. unfold asks, hit. cbn [with_fee m_src m_nsn m_sn fst k p_nsn r]. rewrite S, andb_true_r. destruct (bytes_eqb (m_src m) net && (m_nsn m =? n)); lia.
      * intros P. apply AW; cbn [with_fee m_sn m_nsn]; [lia|exact P].
  - (* an answer or a message that wants none *)
    bnd E1 z F2. destruct z as [x2 f2]. apply collectRemainFee_resp in F2 as [XR2 _]. injection E1 as <- <-. cbn [fst snd] in E.
    set (s1 := with_s s _) in E. assert (RS : responses (s_s s1) = responses (s_s s)) by (cbn [s1 with_s s_s]; congruence). unfold M_SBmc.dispatch in E. cbn [with_fee m_dst] in E. rewrite ED in E. bnd E y F3. destruct y as [s2 e]. apply settles_handleMessage in F3 as (n1 & G & SAME).
    destruct (fst e =? ECODE_NONE) eqn:EC.
    + assert (G0 : settles [m] s [] s1) by (apply settles_kept; [symmetry; apply app_nil_r|intros; cbn [answers filter length]; lia|exact RS]).
      apply event_some in E. subst s'. eexists. split; [exact D|]. eapply (settles_trans [m] []); [exact G0|]. eapply settles_nil; [exact G|]. apply settles_emit. reflexivity.
    + clear G. rewrite (SAME ltac:(lia)) in E. bnd E s3 F4. cbn [with_fee m_sn m_src m_svc] in F4. rewrite S in F4. same F4.
      apply sendError_answers in E as (new & O & RR & AN & AW). exists new. split; [exact D|]. apply settles_kept; [exact O| |congruence].
      intros net n N P. rewrite AN by assumption. unfold asks. cbn [with_fee m_sn]. rewrite S, !andb_false_r. lia.
  - injection E1 as <- <-. set (s1 := with_s s x1) in E. unfold M_SBmc.dispatch in E. cbn [with_fee m_dst] in E. rewrite ED in E. destruct (resolveNext _ _) as [next|].
    + apply send_some in E as [_ ->]. eexists. split; [exact D|]. apply settles_kept; [cbn [emit sent with_p s_out]; rewrite <- app_assoc; reflexivity|intros; cbn [answers app filter length]; lia|exact XR].
    + apply sendError_answers in E as (new & O & RR & AN & AW). exists new. split; [exact D|]. apply settles_kept; [exact O| |rewrite RR; exact XR].
      intros net n N P. rewrite AN by assumption. cbn [filter]. change (asks net n (with_fee m f)) with (asks net n m). destruct (asks net n m); cbn [length]; lia.
Qed.
Lemma settles_all : forall bs s c prev rx s', dispatch_all s c prev rx bs = Some s' -> exists ms new, Forall2 (fun b m => decodeBTPMessage junk b = Some m) bs ms /\ settles ms s new s'.
Proof.
  induction bs as [|b bs IH]; intros s c prev rx s' E; cbn [M_SBmc.dispatch_all] in E.
  - assert (s' = s) by congruence. subst. exists [], []. split; [constructor|apply settles_refl].
  - bnd E y F1. bnd E s1 F2. destruct y as [x m']. cbn [fst snd] in F2. destruct (settles_one _ _ _ _ _ _ _ _ F1 F2) as (m & n1 & D & G). apply IH in E as (ms & n2 & FD & G2).
    exists (m :: ms), (n1 ++ n2). split; [constructor; assumption|]. apply (settles_trans [m] ms _ _ _ _ _ G G2).
Qed.
Lemma settles_claim : forall s c v net r s', claimReward own self svcaddr accepts s c v net r = Some s' -> exists new, settles [] s new s'.
Proof.
  intros s c v net r s' E. unfold claimReward in E. cbv zeta in E. bnd E y F1. assert (R : settles [] s [] (with_s s (fst y))).
  { apply settles_same; [symmetry; apply app_nil_r|intros ? ?; reflexivity|]. unfold clearReward in F1. cbv zeta in F1. chk F1 P. same F1. reflexivity. }
  destruct (bytes_eqb own net).
  - bnd E a F2. chk E F3. same E. eexists. eapply settles_nil; [exact R|]. apply (settles_same _ _ [OPaid v; OTransfer a (snd y); OClaim (if c =? fee_handler (s_m s) then self else c) net r (snd y) 0]); [cbn [emit s_out]; rewrite <- !app_assoc; reflexivity|intros ? ?; reflexivity|reflexivity].
  - bnd E b F2. bnd E b2 F3. bnd E z F4. destruct z as [s1 n]. same E. apply settles_sendWithFee in F4 as (new & G).
    eexists. eapply settles_nil; [exact R|]. eapply settles_nil; [exact G|]. apply (settles_same _ _ [OPaid v; OClaim (if c =? fee_handler (s_m s) then self else c) net r (snd y) n]); [cbn [emit with_s s_out]; rewrite <- !app_assoc; reflexivity|intros ? ?; reflexivity|reflexivity].
Qed.
Lemma settles_sendInternal : forall s k b s', sendInternal own s k b = Some s' -> exists new, settles [] s new s'.
Proof.
  intros s k b s' E. unfold sendInternal in E. bnd E net F. cbv zeta in E. apply send_some in E as [_ ->]. eexists. apply settles_same; [cbn [emit sent with_p next_nsn s_out]; rewrite <- app_assoc; reflexivity|apply unheard_start; reflexivity|reflexivity].
Qed.
Lemma settles_propagate : forall l s b s', propagate own s l b = Some s' -> exists new, settles [] s new s'.
Proof.
  induction l as [|k l IH]; intros s b s' E; cbn [propagate] in E; [assert (s' = s) by congruence; subst; exists []; apply settles_refl|].
  bnd E s1 F. apply settles_sendInternal in F as (n1 & G1). apply IH in E as (n2 & G2). eexists. eapply settles_nil; eassumption.
Qed.

Lemma settles_step : forall s o s', caller_of o <> self /\ caller_of o <> mgmt /\ caller_of o <> svcaddr -> exec s o = Some s' -> exists new, settles (taken s o) s new s'.
Proof.
  intros s o s' OUT E. destruct o; cbn [M_SBmc.exec] in E; cbn [S_SBmc.taken]; try (apply admin_some in E as (_ & m & _ & ->); eexists; apply settles_m).
  - unfold handleRelay in E. bnd E net F1. cbv zeta in E. bnd E v F2. bnd E bs F3. bnd E b F4. chk E H1. bnd E s1 F5. same E.
    apply settles_all in F5 as (ms & new & FD & [A1 A2 A3 A4]). unfold getVerifier in F2. chk F2 HV. same F2. rewrite F1, F3.
    replace (flat_map _ bs) with ms; [exists new; constructor; assumption|]. clear -FD. induction FD as [|b m bs ms D FD IH]; [reflexivity|]. cbn [flat_map]. rewrite D, <- IH. reflexivity.
  - bnd E y F. destruct y as [s1 n]. same E. eapply settles_sendMessage, F.
  - eapply settles_claim, E.
  - same E. eexists. apply settles_emit. reflexivity.
  - apply owner_some in E as [_ E]. unfold addLink in E. cbv zeta in E. bnd E net F1. chk E H1. chk E H2. bnd E p F2. bnd E b F3. bnd E s1 F4. bnd E i F5. bnd E b2 F6.
    apply settles_propagate in F4 as (n1 & G1). apply settles_sendInternal in E as (n2 & G2). eexists. eapply settles_nil; [exact G1|]. eapply settles_nil; [apply settles_m|exact G2].
  - apply owner_some in E as [_ E]. unfold removeLink in E. cbv zeta in E. chk E H1. chk E H2. bnd E net F1. bnd E m1 F2. bnd E l F3. bnd E m2 F4. bnd E p F5. bnd E b F6. apply settles_propagate in E as (new & G).
    exists ([] ++ new). eapply settles_nil; [|exact G]. apply settles_same; [symmetry; apply app_nil_r|intros ? ?; reflexivity|reflexivity].
  - apply owner_some in E as [_ E]. unfold dropMessage in E. bnd E next F1. chk E H1. chk E H2. bnd E y F2. destruct y as [x f]. unfold p_dropMessage in E. chk E H3. apply accumulateFee_resp in F2 as [XR _].
    apply sendError_answers in E as (new & O & RR & AN & AW). exists new. apply settles_kept; [exact O| |rewrite RR; exact XR].
    intros net n N P. rewrite AN by assumption. cbn [filter]. unfold asks. cbn [m_src m_nsn m_sn snd]. destruct (bytes_eqb src net && (nsn =? n) && (0 <? sn)); cbn [length]; lia.
  - cbn [caller_of] in OUT. destruct (Z.eqb_spec caller (inner_caller self mgmt svcaddr i)) as [X|X]; [|discriminate]. exfalso. subst caller. destruct i; cbn [inner_caller] in OUT; tauto.
Qed.

(** The messages a history takes in. *)
Fixpoint arrivals (s : st) (ops : list op) : list msg :=
  match ops with [] => [] | o :: r => (match exec s o with Some _ => taken s o | None => [] end) ++ arrivals (step s o) r end.
Lemma settles_run : forall ops s, outside ops -> exists new, settles (arrivals s ops) s new (fold_left step ops s).
Proof.
  induction ops as [|o ops IH]; intros s OUT; cbn [arrivals fold_left]; [exists []; apply settles_refl|]. apply Forall_cons_iff in OUT as [O1 O2].
  destruct (IH (step s o) O2) as (n2 & G2).
  assert (X : exists n1, settles (match exec s o with Some _ => taken s o | None => [] end) s n1 (step s o)).
  { unfold M_SBmc.step. destruct (exec s o) as [s1|] eqn:E; [apply (settles_step s o s1 O1 E)|]. exists []. apply settles_refl. }
  destruct X as (n1 & G1). exists (n1 ++ n2). eapply settles_trans; eassumption.
Qed.

(** No request is answered twice: over any history there are, for every other network and serial number, at most as many
    answers as requests with them taken in, less those that still wait for an answer. *)
Theorem C78_answered_at_most_once : forall deployer ops net n, outside ops -> net <> own -> 0 < n -> let s := run deployer ops in
  (answers net n (s_out s) + waiting net n (s_s s) <= length (filter (asks net n) (arrivals (init deployer) ops)))%nat.
Proof.
  intros deployer ops net n OUT N P s. destruct (settles_run ops (init deployer) OUT) as (new & [A1 A2 A3 A4]). specialize (A3 net n N P). unfold s, M_SBmc.run. rewrite A1. change (s_out (init deployer)) with (@nil out). cbn [app]. change (waiting net n (s_s (init deployer))) with 0%nat in A3. lia.
Qed.
(** No request is forgotten: one that waits goes on waiting until an answer with its network and number is put out,
    or a request with the same source, service and number is delivered. *)
Theorem C78_not_forgotten : forall deployer before after k, outside (before ++ after) -> let s := run deployer before in let s' := run deployer (before ++ after) in
  0 < p_nsn (response_at (s_s s) k) -> exists new, s_out s' = s_out s ++ new /\
  (response_at (s_s s') k = response_at (s_s s) k \/ answered new (fst (fst k)) (p_nsn (response_at (s_s s) k)) \/
   exists m, In m (arrivals s after) /\ k = (m_src m, m_svc m, m_sn m) /\ own = m_dst m).
Proof.
  intros deployer before after k OUT s s' P. apply Forall_app in OUT as [O1 O2]. destruct (settles_run before (init deployer) O1) as (n1 & [A1 A2 _ _]). destruct (settles_run after s O2) as (n2 & [B1 B2 B3 B4]).
  unfold s', M_SBmc.run. rewrite fold_left_app. fold (run deployer before). fold s. exists n2. split; [exact B1|]. destruct (B4 (A2 (NoDup_nil _)) k P) as [X|[X|(m & X1 & X2 & X3 & _)]]; [left; exact X|right; left; exact X|right; right; exists m; auto].
Qed.
(** A reply is sent by the service the request was for, back along the routes, with the request's number and the fee that
    was kept for it; then the request no longer waits, so that there is no second reply. *)
Theorem C78_reply : forall deployer ops, outside ops -> forall c v to svc sn b s', let s := run deployer ops in exec s (SendMessage c v to svc sn b) = Some s' -> sn < 0 -> c <> svcaddr ->
  let r := response_at (s_s s) (to, svc, - sn) in let next := r_next (route_of (s_m s) to) in
  c = h_of (s_m s) svc /\ 0 < p_nsn r /\ r_type (route_of (s_m s) to) <> TNone /\
  s_out s' = s_out s ++ [OSent next (tx_of (s_p s) next + 1) (Msg own to svc 0 b (- p_nsn r) (p_fee r)); OEvent to (p_nsn r) next REPLY; OPaid v] /\
  (forall c2 v2 b2, exec s' (SendMessage c2 v2 to svc sn b2) = None).
Proof.
  intros deployer ops OUT c v to svc sn b s' s E SN NC r next. destruct (settles_run ops (init deployer) OUT) as (n1 & [_ K _ _]). specialize (K (NoDup_nil _)). fold (run deployer ops) in K. fold s in K.
  cbn [M_SBmc.exec] in E. bnd E y F. destruct y as [s1 n]. same E. cbn [fst]. unfold sendMessage in F. cbv zeta in F. bnd F u F1. destruct (Z.eqb_spec c svcaddr) as [X|_]; [congruence|]. bnd F1 a F2. unfold getService in F2. chk F2 H1. same F2.
  bnd F y F3. destruct y as [s2 n2]. injection F as <- <-. replace (sn <? 0) with true in F3 by lia. bnd F3 k F4. unfold cneg in F4. destruct (_ =? _) in F4; [discriminate|]. same F4. unfold sendWithFee in F3. bnd F3 nx F5. apply resolveNext_some in F5 as [T1 ->].
  bnd F3 y F6. bnd F3 s3 F7. bnd F3 z F8. bnd F3 s4 F9. injection F3 as <- <-. unfold removeResponse in F6. chk F6 PN. destruct y as [y1 y2]. injection F6 as <- <-. cbn [fst snd] in *. fold r in PN, F8, F9. apply collectOverFee_resp in F7 as (x & -> & R1 & _).
  unfold cneg in F8. destruct (_ =? _) in F8; [discriminate|]. same F8. apply send_some in F9 as [_ ->]. split; [destruct (h_of (s_m s) svc =? c) eqn:EH in F1; [lia|discriminate]|]. split; [lia|]. split; [exact T1|]. split.
  - cbn [emit sent with_p with_s s_out s_p]. unfold msg_id. cbn [m_nsn m_dst m_src]. replace (- p_nsn r <? 0) with true by lia. cbn [fst snd]. rewrite Z.opp_involutive, <- !app_assoc. reflexivity.
  - intros c2 v2 b2. match goal with |- M_SBmc.exec _ _ _ _ _ _ _ _ _ ?S _ = _ => set (s5 := S) end. assert (RN : responses (s_s s5) = adel pkey_eqb (to, svc, - sn) (responses (s_s s))) by (cbn [s5 emit sent with_p with_s s_s]; exact R1).
    cbn [M_SBmc.exec]. destruct (sendMessage own self svcaddr s5 c2 v2 to svc sn b2) as [[s6 n6]|] eqn:E6; [|reflexivity]. exfalso. unfold sendMessage in E6. cbv zeta in E6. bnd E6 u2 G1. bnd E6 y2 G2. replace (sn <? 0) with true in G2 by lia. bnd G2 k2 G3. unfold cneg in G3. destruct (_ =? _) in G3; [discriminate|]. same G3.
    unfold sendWithFee in G2. bnd G2 nx2 G4. bnd G2 y3 G5. unfold removeResponse, response_at in G5. rewrite RN, (adel_same _ pkey_spec _ _ K) in G5. discriminate.
Qed.
End BMC.
Print Assumptions C78_answered_at_most_once.
Print Assumptions C78_not_forgotten.
Print Assumptions C78_reply.

(** The same request comes twice in one history, for a service that answers and for one that fails; and one that waits is replaced by a later one. *)
Definition x_req (svc : string) (sn nsn : Z) : op := HandleRelay 7 x_link (x_bytes (x_msg x_own (str svc) sn nsn [5; 6])).
Definition x_arrivals := arrivals x_own 10 11 12 x_junk x_verify x_serve x_blame x_accepts (init 1).
Example C78_ex_counts : map (fun ops => let s := x_run 1 (x_setup ++ ops) in (answers x_icon 9 (s_out s), waiting x_icon 9 (s_s s), length (filter (asks x_icon 9) (x_arrivals (x_setup ++ ops)))))
  [[x_req "xcall" 3 9; x_req "xcall" 3 9]; [x_req "bad" 3 9]; [AddService 1 (str "slow") 53; x_req "slow" 3 9; x_req "slow" 4 9; x_req "slow" 4 9];
   [AddService 1 (str "slow") 53; x_req "slow" 3 9; SendMessage 53 0 x_icon (str "slow") (-3) []; SendMessage 53 0 x_icon (str "slow") (-3) []]]
  = [(2, 0, 2); (1, 0, 1); (0, 2, 3); (1, 0, 1)]%nat.
Proof. vm_compute. reflexivity. Qed.
