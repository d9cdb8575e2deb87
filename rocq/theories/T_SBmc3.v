(** Theorems about the message center for the EVM: which messages can stop a link, C77 continued. *)
From Coq Require Import String Ascii ZArith List Bool Lia Permutation.
From Coq Require Import ZifyBool.
From Verif Require Import Base L_Base M_SolRlp L_SolRlp M_BtpAddr M_Bridge M_JMap L_JMap M_SBmc S_SBmc L_SBmc X_SBmc T_SBmc2 L_CallWire T_SolRlp.
From Verif Require Import M_IntConv.
From Verif Require S_JBmc M_SolCall.
Import ListNotations.
Open Scope Z_scope.

(** * Which messages can be written *)
Lemma lenLen_le : forall f len i acc, acc <= lenLen f len i acc <= acc + Z.of_nat f.
Proof. induction f as [|f IH]; intros len i acc; cbn [lenLen]; [lia|]. destruct (_ =? 0); [lia|]. specialize (IH len (i * 256) (acc + 1)). lia. Qed.
Lemma encodeBytes_len : forall b, zlen (encodeBytes b) <= zlen b + 33.
Proof.
  intros b. unfold encodeBytes. destruct (_ && _); [lia|]. unfold encodeLength. destruct (zlen b <? 56).
  - unfold zlen. rewrite app_length. cbn [length]. lia.
  - cbv zeta. pose proof (lenLen_le 32 (zlen b) 1 0). unfold zlen in *. rewrite app_length. cbn [length]. rewrite map_length, seq_length. lia.
Qed.
Lemma encodeInt_fits : forall n, - 2 ^ 127 <= n < 2 ^ 127 -> exists b, encodeInt n = Some b /\ zlen b <= 65.
Proof.
  intros n R. unfold encodeInt. rewrite intToStrictBytes_bytes by exact R. cbn [sbind]. eexists. split; [reflexivity|]. pose proof (encodeBytes_len (BigIntToBytes n)). pose proof (tc_small n ltac:(lia)). lia.
Qed.
Lemma encodeUint_fits : forall n, 0 <= n < 2 ^ 128 - 1 -> exists b, encodeUint n = Some b /\ zlen b <= 65.
Proof.
  intros n R. rewrite encodeUint_bytes by exact R. eexists. split; [reflexivity|]. pose proof (encodeBytes_len (BigIntToBytes n)). pose proof (tc_small n ltac:(lia)). lia.
Qed.
Lemma zlen_cat : forall A (a b : list A), zlen (a ++ b) = zlen a + zlen b.
Proof. intros. unfold zlen. rewrite app_length. lia. Qed.
Lemma encodeUints_fits : forall vs, Forall (fun v => 0 <= v < 2 ^ 128 - 1) vs -> exists b, encodeUints vs = Some b /\ zlen b <= 65 * zlen vs.
Proof.
  induction vs as [|v vs IH]; intros H; cbn [encodeUints]; [exists []; split; [reflexivity|unfold zlen; cbn [length]; lia]|].
  inversion H as [|? ? H1 H2]; subst. destruct (encodeUint_fits v H1) as (b & -> & L1). destruct (IH H2) as (c & -> & L2). cbn [sbind]. exists (b ++ c). split; [reflexivity|].
  rewrite zlen_cat. change (v :: vs) with ([v] ++ vs). rewrite zlen_cat. change (zlen [v]) with 1. lia.
Qed.
Lemma listed_fits : forall body, zlen body < 2 ^ 32 -> exists b, listed body = Some b /\ zlen b <= zlen body + 6.
Proof. intros body L. destruct (listed_bytes body L) as (b & E & LB). exists b. split; [exact E|]. apply list_bytes_len in LB. lia. Qed.
Definition long (t : text) : Prop := zlen t < 2 ^ 29.
Lemma encodeFee_fits : forall f, long (f_net f) -> zlen (f_vals f) < 2 ^ 20 -> Forall (fun v => 0 <= v < 2 ^ 128 - 1) (f_vals f) -> exists b, encodeFeeInfo f = Some b /\ zlen b < 2 ^ 29 + 2 ^ 28.
Proof.
  intros f L1 L2 L3. unfold encodeFeeInfo. destruct (encodeUints_fits _ L3) as (vs & -> & B1). cbn [sbind]. destruct (listed_fits vs ltac:(lia)) as (l & -> & B2). cbn [sbind].
  pose proof (encodeBytes_len (f_net f)). unfold long, encodeString in *. destruct (listed_fits (encodeBytes (f_net f) ++ l) ltac:(rewrite zlen_cat; lia)) as (b & -> & B3). exists b. split; [reflexivity|]. rewrite zlen_cat in B3. lia.
Qed.
Lemma encode_fits : forall m, long (m_src m) -> long (m_dst m) -> long (m_svc m) -> long (m_body m) -> long (f_net (m_fee m)) -> zlen (f_vals (m_fee m)) < 2 ^ 20 ->
  Forall (fun v => 0 <= v < 2 ^ 128 - 1) (f_vals (m_fee m)) -> - 2 ^ 127 <= m_sn m < 2 ^ 127 -> - 2 ^ 127 <= m_nsn m < 2 ^ 127 -> exists b, encodeBTPMessage m = Some b.
Proof.
  intros m L1 L2 L3 L4 L5 L6 L7 R1 R2. unfold encodeBTPMessage. destruct (encodeInt_fits _ R1) as (n & -> & B1). destruct (encodeInt_fits _ R2) as (k & -> & B2). destruct (encodeFee_fits _ L5 L6 L7) as (f & -> & B3). cbn [sbind].
  pose proof (encodeBytes_len (m_src m)). pose proof (encodeBytes_len (m_dst m)). pose proof (encodeBytes_len (m_svc m)). pose proof (encodeBytes_len (m_body m)). unfold long, encodeString in *.
  edestruct listed_fits as (b & -> & _); [|eauto]. rewrite !zlen_cat. lia.
Qed.
Lemma encodeResponse_fits : forall code t, 0 <= code <= 4 -> short t -> exists b, encodeResponseMessage code t = Some b /\ long b.
Proof.
  intros code t C L. unfold encodeResponseMessage. destruct (encodeUint_fits code ltac:(lia)) as (c & -> & B). cbn [sbind]. pose proof (encodeBytes_len t). unfold short, long, encodeString in *.
  destruct (listed_fits (c ++ encodeBytes t) ltac:(rewrite zlen_cat; lia)) as (b & -> & B2). exists b. split; [reflexivity|]. rewrite zlen_cat in B2. lia.
Qed.

(** * Rewards *)
Lemma rkey_spec : key_spec rkey_eqb.
Proof.
  intros [a x] [b y]. unfold rkey_eqb. cbn [fst snd]. rewrite andb_true_iff, Z.eqb_eq, bytes_eqb_spec. split; [intros [-> ->]; reflexivity|intros E; injection E as -> ->; auto].
Qed.
Lemma pkey_spec : key_spec pkey_eqb.
Proof.
  intros [[a x] n] [[b y] k]. unfold pkey_eqb. cbn [fst snd]. rewrite !andb_true_iff, Z.eqb_eq, !bytes_eqb_spec. split; [intros [[-> ->] ->]; reflexivity|intros E; injection E as -> -> ->; auto].
Qed.
Lemma getReward_put : forall rs qs ws a n v n' a', getReward (Ser rs qs (aput rkey_eqb (a, n) v ws)) n' a' = if (a =? a') && bytes_eqb n n' then v else getReward (Ser rs qs ws) n' a'.
Proof.
  intros rs qs ws a n v n' a'. unfold getReward. cbn [rewards]. destruct (_ && _) eqn:E.
  - apply andb_true_iff in E as [E1 E2]. apply Z.eqb_eq in E1. apply bytes_eqb_spec in E2. subst. rewrite (aput_same _ rkey_spec). reflexivity.
  - rewrite (aput_other _ rkey_spec); [reflexivity|]. intros X. injection X as -> ->. rewrite Z.eqb_refl, bytes_eqb_refl in E. discriminate.
Qed.
Lemma addReward_room : forall x net a v, getReward x net a + v < 2 ^ 256 -> exists x', addReward x net a v = Some x' /\ responses x' = responses x /\ requests x' = requests x /\
  (forall n b, getReward x' n b <= getReward x n b + Z.max 0 v) /\ (forall n b, getReward x n b <= getReward x' n b).
Proof.
  intros x net a v R. unfold addReward. destruct (0 <? v) eqn:P.
  - unfold cadd. replace (getReward x net a + v <? 2 ^ 256) with true by lia. cbn [sbind]. eexists. split; [reflexivity|]. cbn [responses requests]. repeat split.
    + intros n b. rewrite getReward_put. destruct x as [rs qs ws]. cbn [responses requests rewards]. destruct (_ && _) eqn:E; [|lia]. apply andb_true_iff in E as [E1 E2]. apply Z.eqb_eq in E1. apply bytes_eqb_spec in E2. subst. lia.
    + intros n b. rewrite getReward_put. destruct x as [rs qs ws]. cbn [responses requests rewards]. destruct (_ && _) eqn:E; [|lia]. apply andb_true_iff in E as [E1 E2]. apply Z.eqb_eq in E1. apply bytes_eqb_spec in E2. subst. lia.
  - exists x. repeat split; intros; lia.
Qed.
Lemma total_nonneg : forall vs, Forall (fun v => 0 <= v) vs -> 0 <= total vs.
Proof. intros vs H. induction H as [|v vs H1 H2 IH]; cbn [total fold_right]; [lia|]. unfold total in *. lia. Qed.
Lemma sumFrom_room : forall vs acc, Forall (fun v => 0 <= v) vs -> acc + total vs < 2 ^ 256 -> sumFrom acc vs = Some (acc + total vs).
Proof.
  induction vs as [|v vs IH]; intros acc H R; cbn [sumFrom total fold_right] in *; [f_equal; lia|]. inversion H as [|? ? H1 H2]; subst. pose proof (total_nonneg vs H2). unfold total in *. unfold cadd.
  replace (acc + v <? 2 ^ 256) with true by lia. cbn [sbind]. rewrite IH; [f_equal; lia|exact H2|lia].
Qed.
Lemma collect_room : forall self x f, Forall (fun v => 0 <= v) (f_vals f) -> total (f_vals f) < 2 ^ 256 -> getReward x (f_net f) self + total (f_vals f) < 2 ^ 256 ->
  exists x', collectRemainFee self x f = Some (x', Fee (f_net f) []) /\ responses x' = responses x /\ requests x' = requests x.
Proof.
  intros self x f P T R. unfold collectRemainFee, sumFromUints. rewrite sumFrom_room by (try exact P; lia). cbn [sbind]. rewrite Z.add_0_l.
  destruct (addReward_room x (f_net f) self (total (f_vals f)) R) as (x' & -> & A1 & A2 & _). cbn [sbind]. exists x'. auto.
Qed.

Section BMC.
Context (own : text) (self mgmt svcaddr : Z) (junk : list Z -> mem).
Context (verify : nat -> Z -> text -> Z -> list Z -> option (list (list Z))) (serve : nat -> Z -> bshcall -> action) (blame : nat -> text) (accepts : nat -> Z -> Z -> bool).
Notation exec := (exec own self mgmt svcaddr junk verify serve blame accepts).
Notation dispatch := (dispatch own self mgmt svcaddr junk serve blame).
Notation dispatch_all := (dispatch_all own self mgmt svcaddr junk serve blame).
Notation handleMessage := (handleMessage own self mgmt svcaddr junk serve blame).
Notation sendError := (sendError own self).

Lemma event_works : forall s m next e, - 2 ^ 127 < m_nsn m < 2 ^ 127 -> exists s', event s m next e = Some s'.
Proof. intros s m next e R. unfold event. destruct (m_nsn m <? 0); [unfold cneg; replace (m_nsn m =? - 2 ^ 255) with false by lia; cbn [sbind]|]; eauto. Qed.
Lemma send_works : forall s next m e b, encodeBTPMessage m = Some b -> - 2 ^ 127 < m_nsn m < 2 ^ 127 -> exists s', send s next m e = Some s'.
Proof. intros s next m e b E R. unfold send. rewrite E. cbn [sbind]. cbv zeta. apply event_works, R. Qed.
Lemma short_long : forall t, short t -> long t.
Proof. unfold short, long. lia. Qed.
Lemma firstn_In' : forall A (x : A) n l, In x (firstn n l) -> In x l.
Proof. intros A x n l H. rewrite <- (firstn_skipn n l). apply in_or_app. left. exact H. Qed.
Lemma skipn_In' : forall A (x : A) n l, In x (skipn n l) -> In x l.
Proof. intros A x n l H. rewrite <- (firstn_skipn n l). apply in_or_app. right. exact H. Qed.
(** an error can be reported *)
Lemma sendError_works : forall s prev seq m code reason, ordinary m -> short own -> 0 <= code <= 4 -> short reason ->
  (m_sn m <= 0 -> getReward (s_s s) (f_net (m_fee m)) self + total (f_vals (m_fee m)) < 2 ^ 256 /\ total (f_vals (m_fee m)) < 2 ^ 256) ->
  exists s', sendError s prev seq m code reason = Some s'.
Proof.
  intros s prev seq m code reason (L1 & L2 & L3 & L4 & L5 & L6 & R1 & R2 & FV) LO C LR RM. unfold M_SBmc.sendError, handleErrorFee. cbn [with_fee m_sn m_nsn m_src m_svc m_fee]. destruct (0 <? m_sn m) eqn:P; cbv zeta.
  - match goal with |- exists s', sbind ?X _ = _ => set (o := X) end. assert (X : exists f, o = Some (s_s s, f) /\ f_net f = f_net (m_fee m) /\ length (f_vals f) = length (f_vals (m_fee m)) /\ Forall (fun v => 0 <= v < 2 ^ 128 - 1) (f_vals f)).
    { unfold o. destruct (_ && _)%nat; [|eexists; split; [reflexivity|]; repeat split; exact FV]. eexists. split; [reflexivity|]. cbn [f_net f_vals]. split; [reflexivity|]. split.
      - rewrite app_length, firstn_length, skipn_length. lia.
      - rewrite Forall_forall in *. intros v HI. apply FV. apply in_app_or in HI as [HI|HI]; [eapply skipn_In', HI|eapply firstn_In', HI]. }
    destruct X as (f & -> & F1 & F2 & F3). cbn [sbind fst snd]. unfold cneg. replace (m_sn m =? - 2 ^ 255) with false by lia. replace (m_nsn m =? - 2 ^ 255) with false by lia. cbn [sbind].
    destruct (encodeResponse_fits code reason C LR) as (b & -> & LB). cbn [sbind].
    destruct (encode_fits (Msg own (m_src m) (m_svc m) (- m_sn m) b (- m_nsn m) f)) as (bb & EB); cbn [m_src m_dst m_svc m_body m_fee m_sn m_nsn]; try (apply short_long; assumption); try assumption; try lia.
    + rewrite F1. apply short_long, L5.
    + unfold zlen in *. rewrite F2. exact L6.
    + eapply send_works; [exact EB|]. cbn [m_nsn]. lia.
  - destruct (RM ltac:(lia)) as [RM1 RM2]. destruct (collect_room self (s_s s) (m_fee m)) as (x & -> & _); [eapply Forall_impl; [|exact FV]; cbv beta; lia|exact RM2|exact RM1|]. cbn [sbind fst snd].
    destruct (event_works (with_s s x) (with_fee m (Fee (f_net (m_fee m)) [])) [] DROP R2) as (s1 & ->). cbn [sbind].
    destruct (encode_fits (with_fee m (Fee (f_net (m_fee m)) []))) as (bb & ->); cbn [with_fee m_src m_dst m_svc m_body m_fee m_sn m_nsn f_net f_vals]; try (apply short_long; assumption); try lia; [unfold zlen; cbn [length]; lia|constructor|].
    cbn [sbind]. eauto.
Qed.

Lemma handleMessage_works : forall s m, ordinary m -> (m_svc m <> str "bmc" -> forall n c, serve n (h_of (s_m s) (m_svc m)) c <> NoCode) ->
  exists s' e, handleMessage s m = Some (s', e).
Proof.
  intros s m (_ & _ & _ & _ & _ & _ & R1 & R2 & _) NC. unfold M_SBmc.handleMessage. cbv zeta.
  assert (HS : exists k, (if bytes_eqb (m_svc m) BMC_SERVICE then if (0 <=? m_sn m) && (m_nsn m <? 0) then cneg (m_nsn m) else Some (m_nsn m) else Some (m_sn m)) = Some k /\ - 2 ^ 127 < k < 2 ^ 127).
  { destruct (bytes_eqb _ _); [|eexists; split; [reflexivity|lia]]. destruct (_ && _); [unfold cneg; replace (m_nsn m =? - 2 ^ 255) with false by lia|]; eexists; (split; [reflexivity|lia]). }
  destruct HS as (k & -> & RK). cbn [sbind]. destruct (if bytes_eqb (m_svc m) BMC_SERVICE then Some svcaddr else getService (s_m s) (m_svc m)) as [a|] eqn:EA; [|eauto].
  assert (HC : forall c, exists r, call_service own self mgmt svcaddr junk serve blame s a c = Some r).
  { intros c. unfold call_service. destruct (a =? svcaddr) eqn:ES; [eauto|]. destruct (_ || _); [eauto|]. destruct (bytes_eqb (m_svc m) BMC_SERVICE) eqn:EB; [exfalso; injection EA as <-; lia|].
    assert (N : m_svc m <> str "bmc") by (intros X; rewrite X in EB; vm_compute in EB; discriminate). unfold getService in EA. chk EA F. same EA. destruct (serve _ _ _) eqn:SV; [exfalso; eapply (NC N), SV|eauto|eauto]. }
  destruct (0 <=? m_sn m).
  - destruct (HC (BMessage (m_src m) (m_svc m) (uint256 k) (m_body m))) as (r & ->). cbn [sbind]. destruct r; eauto.
  - destruct (decodeResponseMessage junk (m_body m)) as [[code t]|]; [|eauto]. unfold cneg. replace (k =? - 2 ^ 255) with false by lia. cbn [sbind].
    destruct (HC (BError (m_src m) (m_svc m) (uint256 (- k)) code t)) as (r & ->). cbn [sbind]. destruct r; eauto.
Qed.
Lemma handleMessage_reason : forall s m s' e, handleMessage s m = Some (s', e) -> (forall n, short (blame n)) ->
  (forall n c r, serve n (h_of (s_m s) (m_svc m)) c = Reverts r \/ (exists cs, serve n (h_of (s_m s) (m_svc m)) c = Calls cs r) -> short r) -> short (snd e).
Proof.
  intros s m s' e E SB SR. unfold M_SBmc.handleMessage in E. cbv zeta in E. bnd E sn F1.
  assert (S0 : short []) by (unfold short, zlen; cbn [length]; lia).
  destruct (if bytes_eqb (m_svc m) BMC_SERVICE then Some svcaddr else _) as [a|] eqn:EA; [|apply some_inj in E; injection E as _ ->; vm_compute; reflexivity].
  assert (HC : forall c, sbind (call_service own self mgmt svcaddr junk serve blame s a c) (fun r => Some (match r with inl s' => (s', (ECODE_NONE, [])) | inr reason => (s, (if bytes_eqb (m_svc m) BMC_SERVICE then ECODE_UNKNOWN else ECODE_BSH_REVERT, reason)) end)) = Some (s', e) -> short (snd e)).
  { intros c E2. bnd E2 r F2. destruct r as [s1|t]; injection E2 as _ <-; cbn [snd]; [exact S0|]. unfold call_service in F2. destruct (a =? svcaddr) eqn:ES.
    - destruct (match c with BMessage _ _ _ _ => _ | BError _ _ _ _ _ => _ end); [discriminate|]. injection F2 as <-. apply SB.
    - destruct (_ || _); [injection F2 as <-; exact S0|]. destruct (bytes_eqb (m_svc m) BMC_SERVICE) eqn:EB; [exfalso; injection EA as <-; lia|]. unfold getService in EA. chk EA F. same EA.
      destruct (serve _ _ _) as [|q|cs q] eqn:SV; [discriminate| |].
      + injection F2 as <-. eapply SR. left. exact SV.
      + destruct (run_calls _ _ _ _ _ _); [discriminate|]. injection F2 as <-. eapply SR. right. exists cs. exact SV. }
  destruct (0 <=? m_sn m); [apply (HC _ E)|]. destruct (decodeResponseMessage junk (m_body m)) as [[code t]|]; [|apply some_inj in E; injection E as _ ->; vm_compute; reflexivity]. bnd E k F2. apply (HC _ E).
Qed.

(** A message whose fee list was shortened or emptied is still ordinary. *)
Lemma ordinary_fee : forall m vs, ordinary m -> zlen vs <= zlen (f_vals (m_fee m)) -> Forall (fun v => 0 <= v < 2 ^ 128 - 1) vs -> ordinary (with_fee m (Fee (f_net (m_fee m)) vs)).
Proof. intros m vs (L1 & L2 & L3 & L4 & L5 & L6 & R1 & R2 & FV) L F. unfold ordinary. cbn [with_fee m_src m_dst m_svc m_body m_sn m_nsn m_fee f_net f_vals]. repeat split; try assumption; lia. Qed.

(** Whatever a message of ordinary size says - no route, no such service, a service that reverts, an error that cannot
    be read - it does not stop the link: handling it succeeds, so that the messages after it can be delivered. *)
Theorem C77_not_blocked : forall s c prev rx b m, decodeBTPMessage junk b = Some m -> ordinary m -> short own ->
  (own = m_dst m -> m_svc m <> str "bmc" -> forall n k, serve n (h_of (s_m s) (m_svc m)) k <> NoCode) ->
  (forall n k r, serve n (h_of (s_m s) (m_svc m)) k = Reverts r \/ (exists cs, serve n (h_of (s_m s) (m_svc m)) k = Calls cs r) -> short r) -> (forall n, short (blame n)) ->
  (own = m_dst m -> 0 < m_sn m -> 0 < m_nsn m) ->
  let old := p_fee (response_at (s_s s) (m_src m, m_svc m, m_sn m)) in
  Forall (fun v => 0 <= v) (f_vals old) -> total (f_vals old) < 2 ^ 256 -> (forall n a, 0 <= getReward (s_s s) n a) -> room (s_s s) c m old -> room (s_s s) self m old ->
  exists s', dispatch_all s c prev rx [b] = Some s'.
Proof.
  intros s c prev rx b m D OM LO NC SR SB NN old OP OT RP [R1 R2] [R3 R4]. pose proof OM as (L1 & L2 & L3 & L4 & L5 & L6 & RA & RB & FV).
  assert (FP : Forall (fun v => 0 <= v) (f_vals (m_fee m))) by (eapply Forall_impl; [|exact FV]; cbv beta; lia). assert (TO := total_nonneg _ OP).
  cbn [M_SBmc.dispatch_all]. unfold handleFee. rewrite D. cbn [sbind].
  (* the relay's share *)
  assert (X : exists x, accumulateFee (s_s s) c (m_fee m) = Some (x, Fee (f_net (m_fee m)) (tl (f_vals (m_fee m)))) /\ responses x = responses (s_s s) /\
    (forall n a, getReward x n a + total (tl (f_vals (m_fee m))) <= getReward (s_s s) n a + total (f_vals (m_fee m)))).
  { unfold accumulateFee. destruct (f_vals (m_fee m)) as [|v r] eqn:EV.
    - exists (s_s s). split; [destruct (m_fee m) as [fn fv]; cbn [f_vals f_net tl] in *; subst; reflexivity|]. split; [reflexivity|]. intros. cbn [tl]. lia.
    - inversion FP as [|? ? P1 P2]; subst. assert (T := total_nonneg _ P2). unfold total in *. cbn [fold_right] in *. destruct (addReward_room (s_s s) (f_net (m_fee m)) c v) as (x & -> & A1 & A2 & A3 & A4); [lia|]. cbn [sbind tl]. exists x. split; [reflexivity|]. split; [exact A1|]. intros n a. specialize (A3 n a). lia. }
  destruct X as (x & -> & XR & XB). cbn [sbind]. cbv zeta. cbn [with_fee m_dst m_sn m_src m_svc m_nsn m_fee].
  assert (FT : Forall (fun v => 0 <= v < 2 ^ 128 - 1) (tl (f_vals (m_fee m)))) by (destruct (f_vals (m_fee m)); [constructor|inversion FV; subst; assumption]).
  assert (LT : zlen (tl (f_vals (m_fee m))) <= zlen (f_vals (m_fee m))) by (destruct (f_vals (m_fee m)); unfold zlen; cbn [length tl]; lia).
  assert (FTP : Forall (fun v => 0 <= v) (tl (f_vals (m_fee m)))) by (eapply Forall_impl; [|exact FT]; cbv beta; lia). assert (TT := total_nonneg _ FTP).
  assert (OPM : ordinary (paid m)) by (apply ordinary_fee; assumption).
  assert (RX : forall n, (n = f_net (m_fee m) \/ n = f_net old) -> getReward x n self + total (tl (f_vals (m_fee m))) + total (f_vals old) < 2 ^ 256).
  { intros n HN. specialize (XB n self). destruct HN; subst n; lia. }
  assert (TLB : total (tl (f_vals (m_fee m))) < 2 ^ 256) by (specialize (XB (f_net (m_fee m)) self); pose proof (RP (f_net (m_fee m)) self); assert (total (tl (f_vals (m_fee m))) <= total (f_vals (m_fee m))) by (destruct (f_vals (m_fee m)); unfold total; cbn [fold_right tl]; inversion FV; lia); lia).
  destruct (bytes_eqb (m_dst m) own) eqn:ED.
  - assert (EO : own = m_dst m) by (apply bytes_eqb_spec in ED; congruence). destruct (0 <? m_sn m) eqn:S.
    + (* a request *)
      unfold response_at. rewrite XR. fold (response_at (s_s s) (m_src m, m_svc m, m_sn m)). fold old.
      destruct (collect_room self x old OP OT) as (x2 & -> & Y1 & Y2); [specialize (RX (f_net old) (or_intror eq_refl)); lia|]. cbn [sbind fst snd]. fold (paid m).
      set (s1 := with_s s _). assert (W : exists s2, dispatch s1 prev (rx + 1) (paid m) = Some s2).
      { unfold M_SBmc.dispatch. cbn [paid with_fee m_dst]. rewrite ED. destruct (handleMessage_works s1 (paid m) OPM) as (s2 & e & EH); [intros N n k; apply NC; assumption|].
        fold (paid m). rewrite EH. cbn [sbind]. pose proof (handleMessage_code _ _ _ _ _ _ _ _ _ _ _ EH) as CD. pose proof (handleMessage_reason _ _ _ _ EH SB SR) as SE. apply evolve_handleMessage in EH as (n1 & _ & _ & SAME). unfold ECODE_NONE in *. destruct (fst e =? 0) eqn:EC.
        - apply event_works. exact RB.
        - rewrite (SAME ltac:(lia)). cbn [paid with_fee m_sn m_src m_svc]. rewrite S. unfold removeResponse, response_at. cbn [s1 with_s s_s responses]. rewrite (aput_same _ pkey_spec). cbn [p_nsn]. replace (0 <? m_nsn m) with true by (specialize (NN EO); lia).
          cbn [require sbind fst]. apply sendError_works; try assumption; try lia. cbn [paid with_fee m_sn]. lia. }
      destruct W as (s2 & EW). fold (paid m) in EW. change (with_fee m (Fee (f_net (m_fee m)) (tl (f_vals (m_fee m))))) with (paid m). rewrite EW. cbn [sbind M_SBmc.dispatch_all]. eauto.
    + destruct (collect_room self x (Fee (f_net (m_fee m)) (tl (f_vals (m_fee m)))) FTP) as (x2 & EC & Y1 & Y2); cbn [f_vals f_net] in *; [exact TLB|specialize (RX (f_net (m_fee m)) (or_introl eq_refl)); lia|]. rewrite EC. cbn [sbind fst snd].
      set (s1 := with_s s _). pose (m1 := with_fee m (Fee (f_net (m_fee m)) [])). assert (W : exists s2, dispatch s1 prev (rx + 1) m1 = Some s2).
      { assert (OM1 : ordinary m1) by (apply (ordinary_fee m []); [exact OM|unfold zlen; cbn [length]; lia|constructor]).
        unfold M_SBmc.dispatch. change (m_dst m1) with (m_dst m). rewrite ED. destruct (handleMessage_works s1 m1 OM1) as (s2 & e & EH); [intros N n k; apply NC; assumption|].
        rewrite EH. cbn [sbind]. pose proof (handleMessage_code _ _ _ _ _ _ _ _ _ _ _ EH) as CD. pose proof (handleMessage_reason _ _ _ _ EH SB SR) as SE. apply evolve_handleMessage in EH as (n1 & _ & _ & SAME). unfold ECODE_NONE in *. destruct (fst e =? 0) eqn:EC1.
        - apply event_works. exact RB.
        - rewrite (SAME ltac:(lia)). change (m_sn m1) with (m_sn m). rewrite S. cbn [sbind]. apply sendError_works; try assumption; try lia. intros _. cbn [m1 with_fee m_fee f_net f_vals total fold_right]. specialize (RX (f_net (m_fee m)) (or_introl eq_refl)).
          cbn [s1 with_s s_s]. assert (G : getReward x2 (f_net (m_fee m)) self < 2 ^ 256).
          { unfold collectRemainFee in EC. bnd EC t F1. bnd EC y F2. injection EC as <-. cbn [f_net f_vals] in *. unfold sumFromUints in F1. rewrite sumFrom_room in F1 by (try exact FTP; lia). same F1. 
            destruct (addReward_room x (f_net (m_fee m)) self (0 + total (tl (f_vals (m_fee m))))) as (y' & EY & _ & _ & B1 & _); [lia|]. rewrite F2 in EY. same EY. specialize (B1 (f_net (m_fee m)) self). lia. }
          lia. }
      destruct W as (s2 & EW). match goal with |- exists s', sbind ?X _ = _ => replace X with (Some s2) by (symmetry; exact EW) end. cbn [sbind M_SBmc.dispatch_all]. eauto.
  - cbn [sbind fst snd]. fold (paid m). set (s1 := with_s s x). assert (W : exists s2, dispatch s1 prev (rx + 1) (paid m) = Some s2).
    { unfold M_SBmc.dispatch. cbn [paid with_fee m_dst]. rewrite ED. fold (paid m). destruct (resolveNext (s_m s1) (m_dst m)) as [next|].
      - destruct (encode_fits (paid m)) as (bb & EB); cbn [paid with_fee m_src m_dst m_svc m_body m_fee m_sn m_nsn f_net f_vals]; try (apply short_long; assumption); try assumption; try lia. eapply send_works; [exact EB|exact RB].
      - apply sendError_works; try assumption; try (unfold ECODE_NO_ROUTE; lia); [vm_compute; reflexivity|]. intros _. cbn [paid with_fee m_fee f_net f_vals s1 with_s s_s]. specialize (RX (f_net (m_fee m)) (or_introl eq_refl)). lia. }
    destruct W as (s2 & EW). rewrite EW. cbn [sbind M_SBmc.dispatch_all]. eauto.
Qed.

(** What does stop a link, until an administrator drops the message: *)
(** bytes that are no message, *)
Theorem C77_unreadable_message_blocks_refuted : forall s c prev bytes net v bs b, networkAddress prev = Some net -> getVerifier (s_m s) net = Some v -> verify (length (s_out s)) v prev (rx_of (s_p s) prev) bytes = Some bs ->
  In b bs -> decodeBTPMessage junk b = None -> exec s (HandleRelay c prev bytes) = None.
Proof.
  intros s c prev bytes net v bs b E1 E2 E3 HI D. cbn [M_SBmc.exec]. unfold handleRelay. rewrite E1. cbn [sbind]. cbv zeta. rewrite E2. cbn [sbind]. rewrite E3. cbn [sbind].
  destruct (isLinkRelay _ _ _) as [[]|]; cbn [sbind require]; try reflexivity. destruct (dispatch_all s c prev (rx_of (s_p s) prev) bs) as [s1|] eqn:E; [|reflexivity].
  exfalso. apply dispatch_all_handled in E as (ms & new & F & _). apply in_split in HI as (l1 & l2 & ->). apply Forall2_app_inv_l in F as (m1 & m2 & _ & F & _). inversion F as [|? ? ? ? X _]; subst. congruence.
Qed.
(** a request with a network serial number that is not positive whose service is missing or fails, *)
Theorem C77_unnumbered_request_blocks_refuted : forall s c prev rx b m, decodeBTPMessage junk b = Some m -> own = m_dst m -> m_svc m <> str "bmc" -> h_of (s_m s) (m_svc m) = 0 -> 0 < m_sn m -> m_nsn m <= 0 ->
  dispatch_all s c prev rx [b] = None.
Proof.
  intros s c prev rx b m D ED NS H0 S N. cbn [M_SBmc.dispatch_all]. unfold handleFee. rewrite D. cbn [sbind]. destruct (accumulateFee _ _ _) as [[x f]|]; [|reflexivity]. cbn [sbind]. cbv zeta. cbn [with_fee m_dst m_sn m_src m_svc m_nsn m_fee].
  replace (bytes_eqb (m_dst m) own) with true by (symmetry; apply bytes_eqb_spec; congruence). replace (0 <? m_sn m) with true by lia. destruct (collectRemainFee _ _ _) as [[x2 f2]|]; [|reflexivity]. cbn [sbind fst snd].
  unfold M_SBmc.dispatch. cbn [with_fee m_dst]. replace (bytes_eqb (m_dst m) own) with true by (symmetry; apply bytes_eqb_spec; congruence).
  unfold M_SBmc.handleMessage. cbn [with_fee m_svc m_sn m_nsn m_src m_body m_fee]. cbv zeta. change BMC_SERVICE with (str "bmc"). rewrite (bytes_eqb_false _ _ NS). cbn [sbind with_s s_m]. unfold getService, existsService. rewrite H0. change (negb (0 =? 0)) with false. cbn [require sbind fst snd].
  change (ECODE_NO_BSH =? ECODE_NONE) with false. cbv iota. replace (0 <? m_sn m) with true by lia. unfold removeResponse, response_at. cbn [with_s s_s responses]. rewrite (aput_same _ pkey_spec). cbn [p_nsn]. replace (0 <? m_nsn m) with false by lia. reflexivity.
Qed.
(** a service whose contract is gone, *)
Theorem C77_service_without_code_blocks_refuted : forall s prev seq m, own = m_dst m -> m_svc m <> str "bmc" -> h_of (s_m s) (m_svc m) <> 0 -> ~ In (h_of (s_m s) (m_svc m)) [self; mgmt; svcaddr] -> 0 <= m_sn m ->
  (forall k, serve (length (s_out s)) (h_of (s_m s) (m_svc m)) k = NoCode) -> dispatch s prev seq m = None.
Proof.
  intros s prev seq m ED NS H0 NA S SV. cbn [In] in NA. unfold M_SBmc.dispatch. replace (bytes_eqb (m_dst m) own) with true by (symmetry; apply bytes_eqb_spec; congruence).
  unfold M_SBmc.handleMessage. cbv zeta. change BMC_SERVICE with (str "bmc"). rewrite (bytes_eqb_false _ _ NS). cbn [sbind]. unfold getService, existsService. replace (h_of (s_m s) (m_svc m) =? 0) with false by lia. cbn [negb require sbind].
  replace (0 <=? m_sn m) with true by lia. unfold call_service. replace (h_of (s_m s) (m_svc m) =? svcaddr) with false by lia. replace (h_of (s_m s) (m_svc m) =? self) with false by lia. replace (h_of (s_m s) (m_svc m) =? mgmt) with false by lia. cbn [orb]. rewrite SV. reflexivity.
Qed.
(** and a message for another network whose numbers do not fit in 128 bits: other message centers send such numbers. *)
Theorem C77_large_number_blocks_refuted : forall s prev seq m, own <> m_dst m -> r_type (route_of (s_m s) (m_dst m)) <> TNone -> ~ (- 2 ^ 127 <= m_sn m < 2 ^ 127) \/ ~ (- 2 ^ 127 <= m_nsn m < 2 ^ 127) ->
  dispatch s prev seq m = None.
Proof.
  intros s prev seq m ED RT R. unfold M_SBmc.dispatch. rewrite (bytes_eqb_false (m_dst m) own) by congruence. unfold resolveNext. destruct (r_type (route_of (s_m s) (m_dst m))); cbn [rtype_eqb]; [congruence| | |];
  (unfold send, encodeBTPMessage, encodeInt; destruct R as [R|R]; [rewrite (intToStrictBytes_reverts _ R)|rewrite (intToStrictBytes_reverts _ R); destruct (intToStrictBytes (m_sn m))]; reflexivity).
Qed.
End BMC.
Print Assumptions C77_not_blocked.
Print Assumptions C77_unreadable_message_blocks_refuted.
Print Assumptions C77_unnumbered_request_blocks_refuted.
Print Assumptions C77_service_without_code_blocks_refuted.
Print Assumptions C77_large_number_blocks_refuted.

(** A request with a fee for a service that reverts meets the hypotheses. *)
Definition c77_msg : msg := x_msg x_own (str "bad") 3 9 [5; 6].
Example C77_ex_ordinary : decodeBTPMessage x_junk (x_bytes c77_msg) = Some c77_msg /\ ordinary c77_msg /\ short x_own /\ (forall n k, x_serve n (h_of (s_m x_base) (m_svc c77_msg)) k = Reverts (str "no")) /\
  room (s_s x_base) 7 c77_msg (Fee [] []) /\ room (s_s x_base) 10 c77_msg (Fee [] []) /\ p_fee (response_at (s_s x_base) (m_src c77_msg, m_svc c77_msg, m_sn c77_msg)) = Fee [] [].
Proof.
  split; [vm_compute; reflexivity|]. split; [|split; [vm_compute; reflexivity|split; [intros n k; vm_compute; reflexivity|]]].
  - unfold ordinary, short. do 6 (split; [vm_compute; reflexivity|]). cbn [c77_msg x_msg m_sn m_nsn m_fee f_vals]. split; [lia|]. split; [lia|]. repeat (constructor; [lia|]). constructor.
  - split; [split; vm_compute; reflexivity|]. split; [split; vm_compute; reflexivity|]. vm_compute. reflexivity.
Qed.
(** The ways to stop a link. *)
Definition accepted (o : option st) : bool := match o with Some _ => true | None => false end.
Example C77_ex_blocked : map (fun b => accepted (x_exec x_base (HandleRelay 7 x_link b)))
  [[1; 2; 3]; x_bytes (x_msg x_own (str "none") 3 (-9) [5; 6]); x_bytes (x_msg x_own (str "gone") 3 9 [5; 6]); x_bytes (x_msg x_own (str "bad") 3 9 [5; 6])] = [false; false; false; true].
Proof. vm_compute. reflexivity. Qed.
