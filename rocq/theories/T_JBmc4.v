(** Theorems about the message center: fees and rewards, C57. *)
From Coq Require Import String Ascii ZArith List Bool Lia Permutation.
From Coq Require Import ZifyBool.
From Verif Require Import Base L_Base M_JMap L_JMap L_JSum M_JBmc S_JBmc L_JBmc T_JBmc T_JBmc2 T_JBmc3 X_JBmc.
Import ListNotations.
Open Scope Z_scope.

Lemma sum_app : forall a b, sum (a ++ b) = sum a + sum b.
Proof. induction a as [|x a IH]; intros b; cbn [app sum fold_right]; [reflexivity|]. unfold sum in *. rewrite IH. lia. Qed.
Lemma sum_nonneg : forall l, Forall (fun v => 0 <= v) l -> 0 <= sum l.
Proof. intros l H. induction H as [|v l HV _ IH]; cbn [sum fold_right]; [lia|]. unfold sum in *. lia. Qed.
Lemma fee_nonneg : forall n f, nonneg_fee f -> 0 <= fee_in n f.
Proof. intros n [[k vs]|] H; cbn [fee_in nonneg_fee] in *; [|lia]. destruct (k =? n); [apply sum_nonneg, H|lia]. Qed.
Lemma firstn_forall : forall {A} (P : A -> Prop) k l, Forall P l -> Forall P (firstn k l).
Proof. intros A P k l H. revert k. induction H as [|x l HX _ IH]; intros [|k]; cbn [firstn]; constructor; auto. Qed.
Lemma skipn_forall : forall {A} (P : A -> Prop) k l, Forall P l -> Forall P (skipn k l).
Proof. intros A P k l H. revert k. induction H as [|x l HX HL IH]; intros [|k]; cbn [skipn]; auto. Qed.

Section BMC.
Context (own self deployer : Z).
Context (verify : nat -> Z -> addr -> Z -> list Z -> option (list (option msg))) (serve : nat -> Z -> bshcall -> action) (chain_ok : nat -> Z -> msg -> bool).
Context (HSERVE : forall k a c cs, serve k a c = Calls cs -> Forall (fun x => 0 <= c_value x) cs).
Context (HOWN : own <> NO_NET).
Notation exec := (exec own self deployer verify serve chain_ok).
Notation step := (step own self deployer verify serve chain_ok).
Notation run := (run own self deployer verify serve chain_ok).
Notation dispatch := (dispatch own self serve chain_ok).

Definition sent_genuine (o : out) : Prop := match o with OSent _ _ _ m => genuine m | _ => True end.
Record solid (s : st) : Prop := Solid {
  so_resp : forall k i, In (k, i) (s_resp s) -> nonneg_fee (r_fee i);
  so_fees : forall d vs, In (d, vs) (s_fees s) -> Forall (fun v => 0 <= v) vs;
  so_req : forall k q, In (k, q) (s_requests s) -> 0 <= q_amount q;
  so_out : Forall sent_genuine (s_out s);
  so_svc : aget Z.eqb INTERNAL (s_services s) = None;
  so_nsn : 0 <= s_nsn s;
  so_nodup : NoDup (map fst (s_resp s)) }.

Section NET.
Context (n : Z).
Definition b2 (b : bool) (v : Z) : Z := if b then v else 0.
Definition flow (o : out) : Z :=
  match o with
  | OSent _ _ _ m => fee_in n (m_fee m)
  | OTransfer _ a => b2 (own =? n) a
  | OPaid a => - b2 (own =? n) a
  | ODropped _ _ m _ => - (if (own =? m_dst m) && (m_sn m <=? 0) then fee_in n (m_fee m) else 0)
  | _ => 0
  end.
Definition settle (o : out) : Z := match o with OClaimResult _ k _ r => if (k =? n) && (r =? CODE_SUCCESS) then 1 else 0 | _ => 0 end.
Definition rew_w (x : (Z * Z) * Z) : Z := if snd (fst x) =? n then snd x else 0.
Definition resp_w (x : (Z * Z * Z) * rinfo) : Z := fee_in n (r_fee (snd x)).
Definition req_w (x : Z * request) : Z := if q_dst (snd x) =? n then q_amount (snd x) else 0.
Definition ledger (s : st) : Z := wsum rew_w (s_rewards s) + wsum resp_w (s_resp s) + wsum req_w (s_requests s) + wsum flow (s_out s).
Definition nset (s : st) : Z := wsum settle (s_out s).
Lemma settle_nonneg : forall o, 0 <= settle o.
Proof. intros o. unfold settle. destruct o; try lia. destruct (_ && _); lia. Qed.

(** [mv s s' g]: the money goes from s to s' with [g] brought in from outside *)
Definition mv (s s' : st) (g : Z) : Prop :=
  solid s -> solid s' /\ exists rel, 0 <= rel /\ (nset s' = nset s -> rel = 0) /\ nset s <= nset s' /\ ledger s' + rel = ledger s + g.
Lemma mv_refl : forall s, mv s s 0.
Proof. intros s S. split; [exact S|]. exists 0. lia. Qed.
Lemma mv_trans : forall s1 s2 s3 a b c, mv s1 s2 a -> mv s2 s3 b -> c = a + b -> mv s1 s3 c.
Proof.
  intros s1 s2 s3 a b c H1 H2 -> S1. destruct (H1 S1) as (S2 & r1 & A1 & A2 & A3 & A4). destruct (H2 S2) as (S3 & r2 & B1 & B2 & B3 & B4).
  split; [exact S3|]. exists (r1 + r2). split; [lia|]. split; [|split; lia]. intros E. rewrite A2, B2 by lia. reflexivity.
Qed.
Lemma mv_then0 : forall s1 s2 s3 a, mv s1 s2 a -> mv s2 s3 0 -> mv s1 s3 a.
Proof. intros s1 s2 s3 a H1 H2. eapply mv_trans; [exact H1|exact H2|lia]. Qed.
Lemma mv_eq : forall s s' a b, mv s s' a -> a = b -> mv s s' b.
Proof. intros s s' a b H <-. exact H. Qed.
Lemma mv_same : forall s s', s_resp s' = s_resp s -> s_requests s' = s_requests s -> s_rewards s' = s_rewards s -> s_out s' = s_out s -> s_fees s' = s_fees s -> s_services s' = s_services s -> s_nsn s' = s_nsn s -> mv s s' 0.
Proof.
  intros s s' E1 E2 E3 E4 E5 E6 E7 S. split; [destruct S; constructor; rewrite ?E1, ?E2, ?E3, ?E4, ?E5, ?E6, ?E7; assumption|].
  exists 0. unfold ledger, nset. rewrite E1, E2, E3, E4. lia.
Qed.
Lemma mv_emit : forall s o, sent_genuine o -> (settle o = 0) -> mv s (emit s o) (flow o).
Proof.
  intros s o HG HS S. split.
  - destruct S. constructor; try assumption. cbn [emit s_out]. apply Forall_app. split; [assumption|constructor; [exact HG|constructor]].
  - exists 0. unfold ledger, nset. cbn [emit s_out s_rewards s_resp s_requests]. rewrite !wsum_app. cbn [wsum fold_right]. lia.
Qed.
Lemma mv_flow : forall s s1 o g, mv s s1 g -> sent_genuine o -> settle o = 0 -> mv s (emit s1 o) (g + flow o).
Proof. intros s s1 o g H HG HS. eapply mv_trans; [exact H|apply mv_emit; assumption|reflexivity]. Qed.
Lemma mv_event : forall s m next e, mv s (event s m next e) 0.
Proof. intros s m next e. rewrite event_eq. apply (mv_emit s (ev_of m next e)); [exact I|reflexivity]. Qed.
Lemma solid_rewards : forall s x, solid s -> solid (set_rewards s x).
Proof. intros s x S. destruct S. constructor; assumption. Qed.
Lemma getReward_wat : forall s k a, rew_w ((a, k), getReward s k a) = wat zz_eqb rew_w (a, k) (s_rewards s).
Proof. intros s k a. unfold getReward, wat. destruct (aget zz_eqb (a, k) (s_rewards s)); [reflexivity|]. unfold rew_w. cbn [fst snd]. destruct (k =? n); reflexivity. Qed.
Lemma mv_addReward : forall s a k v, 0 <= v -> mv s (addReward s a k v) (b2 (k =? n) v).
Proof.
  intros s a k v HV. unfold addReward. destruct (Z.ltb_spec 0 v) as [L|L].
  - intros S. split; [apply solid_rewards, S|]. exists 0. unfold ledger, nset. cbn [set_rewards s_out s_rewards s_resp s_requests]. rewrite (wsum_put zz_eqb zz_key).
    pose proof (getReward_wat s k a) as E. unfold rew_w in E at 1. cbn [fst snd] in E. unfold rew_w at 2. cbn [fst snd]. unfold b2. destruct (k =? n); lia.
  - eapply mv_eq; [apply mv_refl|]. unfold b2. destruct (k =? n); lia.
Qed.
Lemma addReward_neg : forall s a k v, 0 <= v -> addReward s a k (- v) = s.
Proof. intros s a k v HV. unfold addReward. destruct (Z.ltb_spec 0 (- v)); [lia|reflexivity]. Qed.
Lemma mv_collect : forall s f, nonneg_fee f -> mv s (collect self s f) (fee_in n f).
Proof.
  intros s [[k [|v vs]]|] H; cbn [collect fee_in nonneg_fee] in *; try (eapply mv_eq; [apply mv_refl|]; try destruct (k =? n); reflexivity).
  unfold collectNet. eapply mv_eq; [apply mv_addReward, sum_nonneg, H|reflexivity].
Qed.
Lemma mv_sendTo : forall s next m u s', genuine m -> sendTo chain_ok s next m = Val u s' -> mv s s' (fee_in n (m_fee m)).
Proof.
  intros s next m u s' HG E. destruct (sendTo_val _ _ _ _ _ _ E) as (l & nid & _ & -> & _). eapply mv_trans; [|apply mv_emit; [exact HG|reflexivity]|]; [apply mv_same; reflexivity|reflexivity].
Qed.
Lemma mv_resp_del : forall s k, mv s (set_resp s (adel zzz_eqb k (s_resp s))) (- wat zzz_eqb resp_w k (s_resp s)).
Proof.
  intros s k S. split.
  - destruct S as [S1 S2 S3 S4 S5 S6 S7]. constructor; try assumption; cbn [set_resp s_resp].
    + intros k' i HI. apply (adel_in zzz_eqb zzz_key) in HI. apply (S1 _ _ HI).
    + apply (adel_nodup zzz_eqb zzz_key), S7.
  - exists 0. unfold ledger, nset. cbn [set_resp s_out s_rewards s_resp s_requests]. rewrite (wsum_del zzz_eqb zzz_key). lia.
Qed.
Lemma mv_resp_put : forall s k i, nonneg_fee (r_fee i) -> mv s (set_resp s (aput zzz_eqb k i (s_resp s))) (fee_in n (r_fee i) - wat zzz_eqb resp_w k (s_resp s)).
Proof.
  intros s k i HN S. split.
  - destruct S as [S1 S2 S3 S4 S5 S6 S7]. constructor; try assumption; cbn [set_resp s_resp].
    + intros k' i' HI. apply (aput_in zzz_eqb) in HI as [HI|HI]; [injection HI as -> ->; exact HN|apply (S1 _ _ HI)].
    + apply (aput_nodup zzz_eqb zzz_key), S7.
  - exists 0. unfold ledger, nset. cbn [set_resp s_out s_rewards s_resp s_requests]. rewrite (wsum_put zzz_eqb zzz_key). unfold resp_w at 2. cbn [snd]. lia.
Qed.
Lemma mv_nsn : forall s, mv s (nextNetworkSn s) 0.
Proof.
  intros s S. split; [|exists 0; unfold ledger, nset; cbn [nextNetworkSn set_nsn s_out s_rewards s_resp s_requests]; lia].
  destruct S as [S1 S2 S3 S4 S5 S6 S7]. constructor; try assumption. change (0 <= s_nsn s + 1). lia.
Qed.
(** use what is known of the start *)
Lemma mv_with : forall s s' g, (solid s -> mv s s' g) -> mv s s' g.
Proof. intros s s' g H S. exact (H S S). Qed.

Lemma genuine_other : forall a b svc sn p k f, nonneg_fee f -> (svc = INTERNAL -> match p with PClaim _ _ => False | _ => True end) -> genuine (Msg a b svc sn p k f).
Proof. intros a b svc sn p k f HF HP. split; [exact HF|]. cbn [m_svc m_pay]. intros E. specialize (HP E). destruct p; auto. destruct HP. Qed.

Lemma mv_reply : forall s to svc sn p fill value v s', 0 <= value -> (svc = INTERNAL -> match p with PClaim _ _ => False | _ => True end) ->
  sendWithFee own self chain_ok s to svc sn p true fill value = Val v s' -> mv s s' (b2 (own =? n) value).
Proof.
  intros s to svc sn p fill value v s' HV HP E. apply mv_with. intros S. destruct (reply_val _ _ _ _ _ _ _ _ _ _ _ _ E) as (i & next & s1 & EI & _ & ES & -> & _).
  pose proof (so_resp _ S _ _ (aget_in zzz_eqb zzz_key _ _ _ EI)) as HF. unfold collectNet in ES.
  eapply mv_then0; [|apply mv_event]. eapply mv_trans; [|eapply mv_sendTo; [|exact ES]; apply genuine_other; [exact HF|exact HP]|].
  { eapply mv_trans; [apply mv_resp_del|apply mv_addReward, HV|reflexivity]. }
  cbn [m_fee]. unfold wat. rewrite EI. unfold resp_w. cbn [snd]. lia.
Qed.
Lemma getFee_nonneg : forall s to b, solid s -> Forall (fun v => 0 <= v) (getFeeList s to b).
Proof.
  intros s to b S. unfold getFeeList. destruct (aget Z.eqb to (s_fees s)) as [vs|] eqn:E; [|constructor]. pose proof (so_fees _ S _ _ (aget_in Z.eqb zkey _ _ _ E)) as H.
  destruct b; [exact H|apply firstn_forall, H].
Qed.
Lemma mv_send : forall s to svc sn p fill value v s', 0 <= value -> (svc = INTERNAL -> match p with PClaim a _ => 0 <= a /\ fill = true | _ => True end) ->
  sendWithFee own self chain_ok s to svc sn p false fill value = Val v s' -> mv s s' (b2 (own =? n) value).
Proof.
  intros s to svc sn p fill value v s' HV HP E. apply mv_with. intros S. destruct (send_val _ _ _ _ _ _ _ _ _ _ _ _ E) as (next & s1 & _ & HR & ES & -> & _). unfold collectNet in ES.
  pose proof (getFee_nonneg s to (0 <? (if fill then s_nsn s + 1 else sn)) S) as HF. pose proof (so_nsn _ S) as HN.
  eapply mv_then0; [|apply mv_event]. eapply mv_trans; [|eapply mv_sendTo; [|exact ES]|].
  - eapply mv_trans; [apply mv_nsn|apply mv_addReward, HR|reflexivity].
  - split; [exact HF|]. cbn [m_svc m_pay m_sn m_nsn m_fee]. intros E0. specialize (HP E0). destruct p; auto. destruct HP as [H1 ->]. repeat split; [exact H1|lia|discriminate].
  - cbn [m_fee fee_in]. unfold b2. destruct (own =? n); lia.
Qed.
Lemma mv_sendMessage : forall s c to svc sn p v r s', 0 <= v -> sendMessage own self chain_ok s c to svc sn p v = Val r s' -> mv s s' 0.
Proof.
  intros s c to svc sn p v r s' HV E. apply mv_with. intros S. unfold sendMessage in E. destruct (aget Z.eqb svc (s_services s)) as [a|] eqn:EA; [|discriminate]. destruct (negb (c =? a)); [discriminate|].
  assert (NI : svc <> INTERNAL) by (intros ->; rewrite (so_svc _ S) in EA; discriminate).
  destruct (if sn <? 0 then _ else _) as [x s1|] eqn:E1; cbn [bind] in E; [|discriminate]. injection E as _ <-.
  eapply mv_trans with (a := b2 (own =? n) v); [|apply mv_emit; [exact I|reflexivity]|cbn [flow]; lia].
  destruct (sn <? 0); [eapply mv_reply|eapply mv_send]; try exact E1; try exact HV; intros X; contradiction.
Qed.
Lemma mv_calls : forall cs s a u s', Forall (fun x => 0 <= c_value x) cs -> run_calls own self chain_ok s a cs = Val u s' -> mv s s' 0.
Proof.
  induction cs as [|c cs IH]; intros s a u s' HC E; cbn [run_calls] in E; [injection E as _ <-; apply mv_refl|]. apply Forall_cons_iff in HC as [HC1 HC].
  destruct (sendMessage own self chain_ok s a (c_to c) (c_svc c) (c_sn c) (c_pay c) (c_value c)) as [r s1|] eqn:E1.
  - eapply mv_trans; [eapply mv_sendMessage; [|exact E1]; exact HC1|eapply IH; [exact HC|exact E]|reflexivity].
  - destruct (c_catch c); [eapply IH; [exact HC|exact E]|discriminate].
Qed.
Lemma mv_service : forall s a c u s', call_service own self serve chain_ok s a c = Val u s' -> mv s s' 0.
Proof.
  intros s a c u s' E. unfold call_service in E. destruct (serve _ a c) as [|cs] eqn:ES; [discriminate|]. destruct (run_calls own self chain_ok s a cs) as [[] s1|] eqn:E1; [|discriminate].
  injection E as _ <-. eapply mv_calls; [eapply HSERVE, ES|exact E1].
Qed.
Lemma mv_response : forall s nsn r u s', handleResponse s nsn r = Val u s' -> mv s s' 0.
Proof.
  intros s nsn r u s' E. unfold handleResponse in E. destruct (aget Z.eqb nsn (s_requests s)) as [q|] eqn:EQ; [|discriminate]. cbv zeta in E. injection E as _ <-.
  intros S. pose proof (so_req _ S _ _ (aget_in Z.eqb zkey _ _ _ EQ)) as HA.
  set (s1 := set_requests s (adel Z.eqb nsn (s_requests s))). assert (S1 : solid s1).
  { destruct S as [S1 S2 S3 S4 S5 S6 S7]. constructor; try assumption. cbn [s1 set_requests s_requests]. intros k q' HI. apply (adel_in Z.eqb zkey) in HI. apply (S3 _ _ HI). }
  assert (L1 : ledger s1 = ledger s - req_w (nsn, q) /\ nset s1 = nset s).
  { unfold ledger, nset. cbn [s1 set_requests s_out s_rewards s_resp s_requests]. rewrite (wsum_del Z.eqb zkey). unfold wat. rewrite EQ. split; [lia|reflexivity]. }
  destruct L1 as [L1 N1]. unfold req_w in L1. cbn [snd] in L1.
  assert (HE : forall s2, solid s2 -> solid (emit s2 (OClaimResult (q_caller q) (q_dst q) nsn r)) /\ ledger (emit s2 (OClaimResult (q_caller q) (q_dst q) nsn r)) = ledger s2 /\
     nset (emit s2 (OClaimResult (q_caller q) (q_dst q) nsn r)) = nset s2 + settle (OClaimResult (q_caller q) (q_dst q) nsn r)).
  { intros s2 S2. split; [destruct S2; constructor; try assumption; cbn [emit s_out]; apply Forall_app; split; [assumption|constructor; [exact I|constructor]]|].
    unfold ledger, nset. cbn [emit s_out s_rewards s_resp s_requests]. rewrite !wsum_app. cbn [wsum fold_right flow]. lia. }
  destruct (Z.eqb_spec r CODE_SUCCESS) as [ER|NR].
  - destruct (HE s1 S1) as (H1 & H2 & H3). split; [exact H1|]. exists (if q_dst q =? n then q_amount q else 0). cbn [settle] in H3. rewrite (proj2 (Z.eqb_eq _ _) ER) in H3. rewrite H2, H3, L1, N1.
    destruct (q_dst q =? n); cbn [andb]; lia.
  - destruct (mv_addReward s1 (q_caller q) (q_dst q) (q_amount q) HA S1) as (S2 & r2 & B1 & B2 & B3 & B4). destruct (HE _ S2) as (H1 & H2 & H3). split; [exact H1|]. exists r2.
    cbn [settle] in H3. rewrite (proj2 (Z.eqb_neq _ _) NR), andb_false_r in H3. rewrite H2, H3. unfold b2 in B4. split; [exact B1|]. split; [intros X; apply B2; lia|]. split; [lia|]. lia.
Qed.
Definition credit (p : payload) : Z := if own =? n then match p with PClaim a (Some _) => a | _ => 0 end else 0.
Definition claim_ok (p : payload) : Prop := match p with PClaim a _ => 0 <= a | _ => True end.
Lemma mv_internal : forall s src nsn p u s', claim_ok p -> internalMessage own self chain_ok s src nsn p = Val u s' -> mv s s' (credit p).
Proof.
  intros s src nsn p u s' HC E. unfold internalMessage, credit in *. assert (E0 : forall x, (if own =? n then x - x else 0) = 0) by (intros x; destruct (own =? n); lia).
  destruct p as [b|code|amount [r|]|code|a|a|l]; try discriminate.
  - destruct (sendWithFee own self chain_ok (addReward s r own amount) src INTERNAL nsn (PResponse CODE_SUCCESS) true false 0) as [v s1|] eqn:E1; [|discriminate].
    injection E as _ <-. eapply mv_trans; [apply mv_addReward, HC|eapply mv_reply; [..|exact E1]; [lia|intros _; exact I]|]. unfold b2. destruct (own =? n); lia.
  - eapply mv_eq; [eapply mv_response, E|]. destruct (own =? n); reflexivity.
  - unfold addReachable in E. destruct (getLinkNet s src); [|discriminate]. injection E as _ <-. eapply mv_eq; [apply mv_same; reflexivity|]. destruct (own =? n); reflexivity.
  - unfold removeReachable in E. destruct (getLinkNet s src); [|discriminate]. injection E as _ <-. eapply mv_eq; [apply mv_same; reflexivity|]. destruct (own =? n); reflexivity.
  - unfold addReachable in E. destruct (getLinkNet s src); [|discriminate]. injection E as _ <-. eapply mv_eq; [apply mv_same; reflexivity|]. destruct (own =? n); reflexivity.
Qed.
Lemma mv_stored : forall s m, nonneg_fee (m_fee m) -> mv s (stored_state self s m) (fee_in n (m_fee m)).
Proof.
  intros s m HF. unfold stored_state. destruct (m_fee m) as [f|]; [|apply mv_refl]. destruct (0 <? m_sn m); [|apply mv_collect, HF]. cbv zeta. apply mv_with. intros S.
  destruct (aget zzz_eqb (m_src m, m_svc m, m_sn m) (s_resp s)) as [old|] eqn:EO.
  - eapply mv_trans; [apply mv_collect, (so_resp _ S _ _ (aget_in zzz_eqb zzz_key _ _ _ EO))|apply mv_resp_put; exact HF|].
    cbn [r_fee]. destruct (collect_keeps self s (r_fee old)) as (_ & _ & -> & _). unfold wat. rewrite EO. unfold resp_w. cbn [snd]. lia.
  - eapply mv_eq; [apply mv_resp_put; exact HF|]. cbn [r_fee]. unfold wat. rewrite EO. lia.
Qed.
Definition here (m : msg) : Z := if (m_svc m =? INTERNAL) && (0 <=? m_sn m) then credit (m_pay m) else 0.
Lemma genuine_claim : forall m, genuine m -> m_svc m = INTERNAL -> claim_ok (m_pay m).
Proof. intros m [_ H] E. specialize (H E). unfold claim_ok. destruct (m_pay m); auto. apply H. Qed.
Lemma mv_handle : forall s m u s', genuine m -> handleMessage own self serve chain_ok s m = Val u s' -> mv s s' (fee_in n (m_fee m) + here m).
Proof.
  intros s m u s' HG E. rewrite handle_eq in E. unfold here. destruct (0 <=? m_sn m).
  - destruct (deliver own self serve chain_ok (stored_state self s m) m) as [v s2|] eqn:ED; [|discriminate]. injection E as _ <-. rewrite andb_true_r.
    eapply mv_trans; [apply mv_stored, HG| |reflexivity]. unfold deliver in ED. destruct (Z.eqb_spec (m_svc m) INTERNAL) as [EI|NI].
    + eapply mv_internal; [apply genuine_claim; assumption|exact ED].
    + destruct (getService _ (m_svc m)); [|discriminate]. eapply mv_service, ED.
  - destruct (deliver_error own self serve chain_ok (collect self s (m_fee m)) m) as [v s2|] eqn:ED; [|discriminate]. injection E as _ <-. rewrite andb_false_r.
    eapply mv_trans; [apply mv_collect, HG| |reflexivity]. unfold deliver_error in ED. destruct (m_pay m); try discriminate. destruct (m_svc m =? INTERNAL); [eapply mv_response, ED|].
    destruct (getService _ (m_svc m)); [|discriminate]. eapply mv_service, ED.
Qed.
(** what a failed delivery leaves: the message's own fee is free again if it was a request, else it is collected *)
Lemma mv_internal_exn : forall s src nsn p e s', claim_ok p -> internalMessage own self chain_ok s src nsn p = Exn e s' ->
  (mv s s' (credit p) /\ s_resp s' = s_resp s) \/ (exists a r, p = PClaim a r) /\ mv s s' (credit p - wat zzz_eqb resp_w (src, INTERNAL, nsn) (s_resp s)) /\ s_resp s' = adel zzz_eqb (src, INTERNAL, nsn) (s_resp s).
Proof.
  intros s src nsn p e s' HC E. unfold internalMessage, credit in *. assert (EZ : (if own =? n then 0 else 0) = 0) by (destruct (own =? n); reflexivity).
  destruct p as [b|code|amount [r|]|code|a|a|l]; try (left; injection E as _ <-; rewrite EZ; split; [apply mv_refl|reflexivity]).
  - destruct (sendWithFee own self chain_ok (addReward s r own amount) src INTERNAL nsn (PResponse CODE_SUCCESS) true false 0) as [v s1|e1 s1] eqn:E1; [discriminate|]. injection E as _ <-.
    cbn [claim_ok] in HC. rewrite addReward_neg by exact HC. pose proof (proj1 (proj2 (proj2 (addReward_keeps s r own amount)))) as KR.
    destruct (reply_exn _ _ _ _ _ _ _ _ _ _ _ _ E1) as [->|(i & EI & ->)].
    + left. split; [apply mv_addReward, HC|exact KR].
    + right. split; [eauto|]. unfold collectNet. split.
      * eapply mv_trans; [apply mv_addReward, HC|eapply mv_trans; [apply mv_resp_del|apply mv_addReward; lia|reflexivity]|]. rewrite KR. unfold b2. destruct (own =? n); lia.
      * rewrite (proj1 (proj2 (proj2 (addReward_keeps _ self own 0)))). cbn [set_resp s_resp]. rewrite KR. reflexivity.
  - left. apply response_exn in E. subst s'. rewrite EZ. split; [apply mv_refl|reflexivity].
  - left. unfold addReachable in E. destruct (getLinkNet s src); [discriminate|]. injection E as _ <-. rewrite EZ. split; [apply mv_refl|reflexivity].
  - left. unfold removeReachable in E. destruct (getLinkNet s src); [discriminate|]. injection E as _ <-. rewrite EZ. split; [apply mv_refl|reflexivity].
  - left. unfold addReachable in E. destruct (getLinkNet s src); [discriminate|]. injection E as _ <-. rewrite EZ. split; [apply mv_refl|reflexivity].
Qed.
Lemma mv_handle_exn : forall s m e s', genuine m -> handleMessage own self serve chain_ok s m = Exn e s' -> mv s s' ((if 0 <? m_sn m then 0 else fee_in n (m_fee m)) + here m).
Proof.
  intros s m e s' HG E. rewrite handle_eq in E. unfold here. destruct (Z.leb_spec 0 (m_sn m)) as [L|L].
  - destruct (deliver own self serve chain_ok (stored_state self s m) m) as [v s2|e2 s2] eqn:ED; [discriminate|]. injection E as _ <-. rewrite andb_true_r.
    assert (HD : (mv (stored_state self s m) s2 (if m_svc m =? INTERNAL then credit (m_pay m) else 0) /\ s_resp s2 = s_resp (stored_state self s m)) \/
      (0 < m_sn m /\ m_fee m <> None) /\ mv (stored_state self s m) s2 ((if m_svc m =? INTERNAL then credit (m_pay m) else 0) - wat zzz_eqb resp_w (m_src m, m_svc m, m_sn m) (s_resp (stored_state self s m))) /\
        s_resp s2 = adel zzz_eqb (m_src m, m_svc m, m_sn m) (s_resp (stored_state self s m))).
    { unfold deliver in ED. destruct (Z.eqb_spec (m_svc m) INTERNAL) as [EI|NI].
      - destruct (mv_internal_exn _ _ _ _ _ _ (genuine_claim m HG EI) ED) as [H|((a & r & EP) & H1 & H2)]; [left; exact H|right].
        destruct HG as [_ HG]. specialize (HG EI). rewrite EP in HG. destruct HG as (_ & HS & HN & HF). split; [auto|]. rewrite EI, HN. split; assumption.
      - left. destruct (getService _ (m_svc m)); [apply service_exn in ED; subst s2|injection ED as _ <-]; split; try reflexivity; apply mv_refl. }
    destruct (Z.ltb_spec 0 (m_sn m)) as [LS|LS].
    + destruct (m_fee m) as [f|] eqn:EF.
      * assert (HS : mv s (stored_state self s m) (fee_in n (Some f))) by (rewrite <- EF; apply mv_stored, HG).
        assert (EW : wat zzz_eqb resp_w (m_src m, m_svc m, m_sn m) (s_resp (stored_state self s m)) = fee_in n (Some f)).
        { unfold stored_state. rewrite EF. replace (0 <? m_sn m) with true by lia. cbv zeta. cbn [set_resp s_resp]. unfold wat. rewrite (aput_same zzz_eqb zzz_key). reflexivity. }
        destruct HD as [[H1 H2]|(_ & H1 & H2)].
        -- eapply mv_trans; [exact HS|eapply mv_trans; [exact H1|apply mv_resp_del|reflexivity]|]. rewrite H2, EW. lia.
        -- intros S. pose proof (HS S) as (S1 & _). revert S. eapply mv_trans; [exact HS|eapply mv_trans; [exact H1|apply mv_resp_del|reflexivity]|]. rewrite H2, EW. unfold wat.
           rewrite (adel_same zzz_eqb zzz_key) by (apply so_nodup, S1). lia.
      * assert (ES : stored_state self s m = s) by (unfold stored_state; rewrite EF; reflexivity). rewrite ES in HD. destruct HD as [[H1 _]|((_ & X) & _)]; [|congruence]. eapply mv_eq; [exact H1|lia].
    + assert (HZ : m_sn m = 0) by lia. destruct HD as [[H1 _]|((X & _) & _)]; [|lia].
      eapply mv_trans; [apply mv_stored, HG| |reflexivity]. destruct (m_fee m); exact H1.
  - destruct (deliver_error own self serve chain_ok (collect self s (m_fee m)) m) as [v s2|e2 s2] eqn:ED; [discriminate|]. injection E as _ <-. apply deliver_error_exn in ED. subst s2. rewrite andb_false_r.
    destruct (Z.ltb_spec 0 (m_sn m)); [lia|]. eapply mv_eq; [apply mv_collect, HG|lia].
Qed.
Lemma error_fee_sum : forall s m, fee_in n (error_fee s m) = fee_in n (m_fee m).
Proof.
  intros s m. unfold error_fee. destruct (m_fee m) as [[k vs]|]; [|reflexivity]. cbv zeta. destruct (_ && _)%bool; [|reflexivity]. cbn [fee_in]. destruct (k =? n); [|reflexivity].
  set (r := (length vs - _)%nat). rewrite sum_app, Z.add_comm, <- sum_app, firstn_skipn. reflexivity.
Qed.
Lemma error_fee_nonneg : forall s m, nonneg_fee (m_fee m) -> nonneg_fee (error_fee s m).
Proof.
  intros s m H. unfold error_fee. destruct (m_fee m) as [[k vs]|]; [|exact I]. cbv zeta. destruct (_ && _)%bool; [|exact H]. cbn [nonneg_fee] in *. apply Forall_app. split; [apply skipn_forall|apply firstn_forall]; exact H.
Qed.
Lemma mv_sendError : forall s prev m e u s', nonneg_fee (m_fee m) -> sendError own chain_ok s prev m e = Val u s' -> mv s s' (fee_in n (m_fee m)).
Proof.
  intros s prev m e u s' HF E. unfold sendError in E. cbv zeta in E. destruct (sendTo chain_ok s prev _) as [[] s1|] eqn:ES; cbn [bind] in E; [|discriminate]. injection E as _ <-.
  eapply mv_trans; [eapply mv_sendTo; [|exact ES]; apply genuine_other; [apply error_fee_nonneg, HF|intros _; exact I]|apply mv_event|]. cbn [m_fee]. rewrite error_fee_sum. lia.
Qed.
Lemma mv_dropped : forall s prev seq m e, mv s (dropped s prev seq m e) (flow (ODropped prev seq m (exn_code e))).
Proof. intros s prev seq m e. unfold dropped. eapply mv_trans; [apply mv_event|apply mv_emit; [exact I|reflexivity]|lia]. Qed.

Lemma mv_dispatch : forall s prev seq m, genuine m -> mv s (dispatch s prev seq m) (brings own n m).
Proof.
  intros s prev seq m HG. unfold M_JBmc.dispatch, brings.
  assert (EC : claim_in own n m = if own =? m_dst m then here m else 0).
  { unfold claim_in, here, credit. destruct (own =? n), (own =? m_dst m), (m_svc m =? INTERNAL), (0 <=? m_sn m); reflexivity. }
  assert (HX : forall e s1 g, mv s s1 g -> (if 0 <? m_sn m then g = claim_in own n m else g = (if own =? m_dst m then fee_in n (m_fee m) else 0) + claim_in own n m) ->
    mv s (if 0 <? m_sn m then match sendError own chain_ok s1 prev m e with Val _ s2 => s2 | Exn e2 s2 => dropped (collect self s2 (m_fee m)) prev seq m e2 end
     else dropped (collect self s1 (m_fee m)) prev seq m e) (fee_in n (m_fee m) + claim_in own n m)).
  { intros e s1 g H1 HGN. destruct (Z.ltb_spec 0 (m_sn m)) as [L|L].
    - destruct (sendError own chain_ok s1 prev m e) as [u s2|e2 s2] eqn:EE; [eapply mv_trans; [exact H1|eapply mv_sendError; [apply HG|exact EE]|lia]|].
      apply sendError_exn in EE. subst s2. eapply mv_trans; [exact H1|eapply mv_trans; [apply mv_collect, HG|apply mv_dropped|reflexivity]|]. cbn [flow]. replace (m_sn m <=? 0) with false by lia. rewrite andb_false_r. lia.
    - eapply mv_trans; [exact H1|eapply mv_trans; [apply mv_collect, HG|apply mv_dropped|reflexivity]|]. cbn [flow]. replace (m_sn m <=? 0) with true by lia. rewrite andb_true_r. destruct (own =? m_dst m); lia. }
  destruct (Z.eqb_spec own (m_dst m)) as [EO|NO].
  - destruct (handleMessage own self serve chain_ok s m) as [u s1|e s1] eqn:EH; cbn [bind].
    + eapply mv_trans; [eapply mv_handle; [exact HG|exact EH]|apply mv_event|]. lia.
    + eapply HX; [eapply mv_handle_exn; [exact HG|exact EH]|]. destruct (0 <? m_sn m); lia.
  - destruct (resolveNext s (m_dst m)) as [next|e]; [|eapply HX; [apply mv_refl|destruct (0 <? m_sn m); lia]].
    destruct (sendTo chain_ok s next m) as [u s1|e s1] eqn:ES; cbn [bind].
    + eapply mv_trans; [eapply mv_sendTo; [exact HG|exact ES]|apply mv_event|]. lia.
    + apply sendTo_exn in ES. subst s1. eapply HX; [apply mv_refl|destruct (0 <? m_sn m); lia].
Qed.
Lemma mv_accumulate : forall s a f s' f', nonneg_fee f -> accumulateFee s a f = (s', f') -> mv s s' (fee_in n f - fee_in n f') /\ nonneg_fee f'.
Proof.
  intros s a [[k [|v vs]]|] s' f' HF E; cbn [accumulateFee] in E; injection E as <- <-; try (split; [eapply mv_eq; [apply mv_refl|lia]|exact HF]).
  cbn [nonneg_fee] in HF. apply Forall_cons_iff in HF as [HV HF]. split; [|exact HF]. eapply mv_eq; [apply mv_addReward, HV|]. cbn [fee_in sum fold_right]. unfold b2, sum. destruct (k =? n); lia.
Qed.
Definition all_bring (ms : list msg) : Z := fold_right (fun m a => brings own n m + a) 0 ms.
Lemma genuine_fee : forall m f, genuine m -> nonneg_fee f -> (m_fee m <> None -> f <> None) -> genuine (with_fee m f).
Proof.
  intros m f [_ H] HF HN. split; [exact HF|]. cbn [with_fee m_svc m_pay m_sn m_nsn m_fee]. intros E. specialize (H E). destruct (m_pay m); auto. destruct H as (H1 & H2 & H3 & H4). auto.
Qed.
Lemma mv_dispatch_all : forall oms s c prev rx u s', Forall genuine (flat_map (fun x => match x with Some m => [m] | None => [] end) oms) ->
  dispatch_all own self serve chain_ok s c prev rx oms = Val u s' -> mv s s' (all_bring (flat_map (fun x => match x with Some m => [m] | None => [] end) oms)).
Proof.
  induction oms as [|[m|] oms IH]; intros s c prev rx u s' HG E; cbn [dispatch_all flat_map app] in *; [injection E as _ <-; apply mv_refl| |discriminate].
  apply Forall_cons_iff in HG as [H1 HG]. destruct (accumulateFee s c (m_fee m)) as [s1 f] eqn:EA. destruct (mv_accumulate _ _ _ _ _ (proj1 H1) EA) as [M1 F1].
  assert (G1 : genuine (with_fee m f)). { apply genuine_fee; [exact H1|exact F1|]. destruct (m_fee m) as [[k [|v vs]]|]; cbn [accumulateFee] in EA; injection EA as _ <-; congruence. }
  eapply mv_trans; [exact M1|eapply mv_trans; [apply mv_dispatch, G1|eapply IH; [exact HG|exact E]|reflexivity]|]. unfold all_bring, brings. cbn [fold_right with_fee m_fee]. change (claim_in own n (with_fee m f)) with (claim_in own n m). lia.
Qed.
Lemma mv_sendInternal : forall s next p u s', match p with PClaim _ _ => False | _ => True end -> sendInternal own chain_ok s next p = Val u s' -> mv s s' 0.
Proof.
  intros s next p u s' HP E. unfold sendInternal in E. cbv zeta in E. eapply mv_trans; [apply mv_nsn|eapply mv_trans; [apply mv_event|eapply mv_sendTo; [|exact E]; apply genuine_other; [exact I|intros _; exact HP]|reflexivity]|reflexivity].
Qed.
Lemma mv_propagate : forall l s p u s', match p with PClaim _ _ => False | _ => True end -> propagate own chain_ok s l p = Val u s' -> mv s s' 0.
Proof.
  induction l as [|[k x] l IH]; intros s p u s' HP E; cbn [propagate] in E; [injection E as _ <-; apply mv_refl|].
  destruct (sendInternal own chain_ok s (l_addr x) p) as [v s1|] eqn:E1; cbn [bind] in E; [|discriminate]. eapply mv_trans; [eapply mv_sendInternal; [exact HP|exact E1]|eapply IH; [exact HP|exact E]|reflexivity].
Qed.
Lemma mv_addLink : forall s a u s', addLink own chain_ok s a = Val u s' -> mv s s' 0.
Proof.
  intros s a u s' E. unfold addLink in E. destruct (negb _); [discriminate|]. destruct (ahas _ _ _); [discriminate|].
  destruct (propagate own chain_ok s (s_links s) (PLink a)) as [v s1|] eqn:E1; cbn [bind] in E; [|discriminate].
  eapply mv_then0; [|eapply mv_sendInternal; [|exact E]; exact I]. eapply mv_then0; [eapply mv_propagate; [|exact E1]; exact I|]. apply mv_same; reflexivity.
Qed.
Lemma mv_fees : forall s x, (solid s -> forall d vs, In (d, vs) x -> Forall (fun v => 0 <= v) vs) -> mv s (set_fees s x) 0.
Proof.
  intros s x H S. specialize (H S). split; [destruct S; constructor; assumption|]. exists 0. unfold ledger, nset. cbn [set_fees s_out s_rewards s_resp s_requests]. lia.
Qed.
Lemma mv_fees_del : forall s k, mv s (set_fees s (adel Z.eqb k (s_fees s))) 0.
Proof. intros s k. apply mv_fees. intros S d vs HI. apply (adel_in Z.eqb zkey) in HI. apply (so_fees _ S _ _ HI). Qed.
Lemma mv_feeTable : forall l s u s', setFeeTable s l = Val u s' -> mv s s' 0.
Proof.
  induction l as [|[d vs] l IH]; intros s u s' E; cbn [setFeeTable] in E; [injection E as _ <-; apply mv_refl|]. destruct vs as [|v vs].
  - eapply mv_trans; [apply mv_fees_del|eapply IH, E|reflexivity].
  - destruct (negb _); [discriminate|]. destruct (existsb (fun x => x <? 0) (v :: vs)) eqn:EX; [discriminate|]. cbv zeta in E.
    assert (HP : mv s (set_fees s (aput Z.eqb d (v :: vs) (s_fees s))) 0).
    { apply mv_fees. intros S d' vs' HI. apply (aput_in Z.eqb) in HI as [HI|HI]; [|apply (so_fees _ S _ _ HI)]. injection HI as -> ->. apply Forall_forall. intros x HX.
      destruct (Z.ltb_spec x 0); [|lia]. assert (HT : existsb (fun x => x <? 0) (v :: vs) = true) by (apply existsb_exists; exists x; split; [exact HX|lia]). congruence. }
    destruct (_ =? 2)%nat; [destruct (ahas _ _ _); [|discriminate]|destruct (resolveNext s d); [|discriminate]]; (eapply mv_trans; [exact HP|eapply IH, E|reflexivity]).
Qed.
Lemma mv_services : forall s x, aget Z.eqb INTERNAL x = None -> mv s (set_services s x) 0.
Proof. intros s x H S. split; [destruct S; constructor; assumption|]. exists 0. unfold ledger, nset. cbn [set_services s_out s_rewards s_resp s_requests]. lia. Qed.

Lemma mv_btp : forall s a nid off u s', setBTPLink s a nid off = Val u s' -> mv s s' 0.
Proof. intros s a nid off u s' E. unfold setBTPLink in E. destruct (nid <? 1); [discriminate|]. destruct (s_offsets s nid); [discriminate|]. injection E as _ <-. apply mv_same; reflexivity. Qed.
Lemma mv_exec : forall s o u s', wf s -> op_ok own o -> Forall genuine (incoming verify s o) -> exec s o = Val u s' -> mv s s' (all_bring (incoming verify s o)).
Proof.
  intros s o u s' W HO HG E. destruct o; cbn [M_JBmc.exec] in E; unfold owner in E; try (destruct (isOwner deployer s caller); [|discriminate]); cbn [incoming all_bring fold_right op_ok] in *.
  - unfold handleRelay in E. destruct (getLink s prev) as [l|] eqn:EL; [|discriminate]. apply getLink_some in EL as [_ EA]. rewrite EA in E. destruct (aget Z.eqb (a_net prev) (s_verifiers s)) as [v|]; [|discriminate].
    destruct (verify _ v prev (l_rx l) bytes) as [oms|]; [|discriminate]. destruct (negb (isRelay s prev caller)); [discriminate|].
    eapply mv_trans; [|eapply mv_dispatch_all; [exact HG|exact E]|]; [apply mv_same; reflexivity|reflexivity].
  - destruct (sendMessage _ _ _ _ _ _ _ _ _ _) as [v s1|] eqn:E1; cbn [bind] in E; [|discriminate]. injection E as _ <-. eapply mv_sendMessage; [exact HO|exact E1].
  - destruct HO as [HV HL]. unfold claimReward in E. cbv zeta in E. set (who := match s_handler s with Some h => if h =? caller then self else caller | None => caller end) in *.
    destruct (Z.leb_spec (getReward s net who) 0) as [|HR]; [discriminate|].
    assert (HM : mv s (set_rewards s (aput zz_eqb (who, net) 0 (s_rewards s))) (- b2 (net =? n) (getReward s net who))).
    { intros S. split; [apply solid_rewards, S|]. exists 0. unfold ledger, nset. cbn [set_rewards s_out s_rewards s_resp s_requests]. rewrite (wsum_put zz_eqb zz_key), <- getReward_wat.
      unfold rew_w at 2 3. cbn [fst snd]. unfold b2. destruct (net =? n); lia. }
    destruct (Z.eqb_spec net own) as [EN|NN].
    + destruct receiver as [r|]; [|discriminate]. injection E as _ <-. rewrite (HL EN) in *. subst net.
      eapply mv_eq; [apply mv_flow; [apply mv_flow; [apply mv_flow; [exact HM|exact I|reflexivity]|exact I|reflexivity]|exact I|reflexivity]|]. cbn [flow]. unfold b2. destruct (own =? n); lia.
    + destruct (sendWithFee _ _ _ _ _ _ _ _ _ _ _) as [nsn s2|] eqn:ES; cbn [bind] in E; [|discriminate]. injection E as _ <-.
      assert (HQ : mv s2 (set_requests s2 (aput Z.eqb nsn (Request net (getReward s net who) who) (s_requests s2))) (b2 (net =? n) (getReward s net who) - wat Z.eqb req_w nsn (s_requests s2))).
      { intros S. split.
        - destruct S as [S1 S2 S3 S4 S5 S6 S7]. constructor; try assumption. cbn [set_requests s_requests]. intros k q HI. apply (aput_in Z.eqb) in HI as [HI|HI]; [injection HI as -> ->; cbn [q_amount]; lia|apply (S3 _ _ HI)].
        - exists 0. unfold ledger, nset. cbn [set_requests s_out s_rewards s_resp s_requests]. rewrite (wsum_put Z.eqb zkey). unfold req_w at 2. cbn [snd q_dst q_amount]. unfold b2. lia. }
      assert (HW : wat Z.eqb req_w nsn (s_requests s2) = 0).
      { destruct W as (_ & _ & _ & _ & _ & W6). unfold wat. destruct (send_val _ _ _ _ _ _ _ _ _ _ _ _ ES) as (next & s1 & _ & _ & ES1 & EV & EX).
        destruct (grow_sendTo _ _ _ _ _ _ ES1) as (_ & _ & _ & _ & _ & _ & EQ1). destruct (aget Z.eqb nsn (s_requests s2)) as [q|] eqn:EQ; [|reflexivity]. exfalso.
        rewrite EV, event_eq in EQ. cbn [emit s_requests] in EQ. rewrite EQ1 in EQ. unfold collectNet in EQ. rewrite (proj1 (proj2 (proj2 (proj2 (addReward_keeps _ _ _ _))))) in EQ. cbn [nextNetworkSn set_nsn s_requests set_rewards] in EQ.
        apply W6 in EQ. cbn [set_rewards s_nsn] in EX. lia. }
      rewrite HW in HQ. eapply mv_eq; [apply mv_flow; [apply mv_flow; [eapply mv_trans; [exact HM|eapply mv_trans; [eapply mv_send; [exact HV| |exact ES]|exact HQ|reflexivity]|reflexivity]|exact I|reflexivity]|exact I|reflexivity]|].
      * intros _. split; [lia|reflexivity].
      * cbn [flow]. unfold b2. destruct (own =? n), (net =? n); lia.
  - destruct (own =? net); [discriminate|]. destruct (ahas _ _ _); [discriminate|]. injection E as _ <-. apply mv_same; reflexivity.
  - destruct (ahas _ _ _); [|discriminate]. injection E as _ <-. apply mv_same; reflexivity.
  - destruct (ahas Z.eqb svc (s_services s) || (svc =? INTERNAL))%bool eqn:EX; [discriminate|]. injection E as _ <-. apply mv_with. intros S. apply mv_services.
    apply orb_false_iff in EX as [_ EX]. rewrite (aput_other Z.eqb zkey) by lia. apply so_svc, S.
  - destruct (ahas _ _ _); [|discriminate]. injection E as _ <-. apply mv_with. intros S. apply mv_services. destruct (aget Z.eqb INTERNAL (adel Z.eqb svc (s_services s))) as [x|] eqn:EG; [|reflexivity].
    exfalso. apply (aget_in Z.eqb zkey), (adel_in Z.eqb zkey) in EG. apply (proj1 (aget_none Z.eqb zkey _ _) (so_svc _ S)). apply (in_map fst) in EG. exact EG.
  - eapply mv_addLink, E.
  - unfold removeLink in E. destruct (getLink s a) as [l|]; [|discriminate]. cbv zeta in E. destruct (existsb _ _); [discriminate|].
    eapply mv_then0; [|eapply mv_propagate; [|exact E]; exact I]. eapply mv_then0; [|apply mv_fees_del]. destruct (s_netids _ a); apply mv_same; reflexivity.
  - destruct (dst =? net); [discriminate|]. destruct (ahas _ _ _); [discriminate|]. destruct (ahas _ _ _); [|discriminate]. injection E as _ <-. apply mv_same; reflexivity.
  - destruct (ahas _ _ _); [|discriminate]. injection E as _ <-. eapply mv_then0; [|eapply (mv_fees_del (set_routes s (adel Z.eqb dst (s_routes s))))]. apply mv_same; reflexivity.
  - eapply mv_feeTable, E.
  - injection E as _ <-. apply mv_same; reflexivity.
  - destruct (getLink s a); [|discriminate]. destruct (isRelay s a r); [discriminate|]. injection E as _ <-. apply mv_same; reflexivity.
  - destruct (getLink s a); [|discriminate]. destruct (remove_swap r (s_relays s a)); [|discriminate]. injection E as _ <-. apply mv_same; reflexivity.
  - cbn [negb] in E. destruct (deployer =? a); [discriminate|]. destruct (existsb _ _); [discriminate|]. injection E as _ <-. apply mv_same; reflexivity.
  - cbn [negb] in E. destruct (deployer =? a); [discriminate|]. destruct (remove_swap a (s_owners s)); [|discriminate]. injection E as _ <-. apply mv_same; reflexivity.
  - destruct (setBTPLink s a nid 0) as [v s1|] eqn:E1; cbn [bind] in E; [|discriminate]. eapply mv_then0; [eapply mv_btp, E1|eapply mv_addLink, E].
  - destruct (getLink s a); [|discriminate]. eapply mv_btp, E.
  - apply Forall_cons_iff in HG as [HG _]. unfold dropMessage in E. destruct (resolveNext s src) as [prev|]; [|discriminate]. destruct (getLinkNet s (a_net prev)) as [l|]; [|discriminate].
    destruct (negb _); [discriminate|]. destruct (negb _); [discriminate|]. destruct (isInvalidSn sn nsn); [discriminate|].
    destruct (accumulateFee _ self f) as [s2 f'] eqn:EA. destruct (mv_accumulate _ _ _ _ _ (proj1 HG) EA) as [M1 F1].
    assert (M0 : mv s s2 (fee_in n f - fee_in n f')) by (eapply mv_trans; [|exact M1|]; [apply mv_same; reflexivity|reflexivity]).
    assert (EB : brings own n (Msg src NO_NET svc sn (PBytes []) nsn f) + 0 = fee_in n f).
    { unfold brings, claim_in. cbn [m_fee m_dst]. rewrite (proj2 (Z.eqb_neq _ _) HOWN), andb_false_r. cbn [andb]. lia. }
    rewrite EB. destruct (Z.ltb_spec 0 sn) as [L|L].
    + eapply mv_trans; [exact M0|eapply mv_sendError; [|exact E]; exact F1|]. cbn [m_fee]. lia.
    + injection E as _ <-. eapply mv_trans; [exact M0|apply mv_dropped|]. cbn [flow m_dst m_fee]. rewrite (proj2 (Z.eqb_neq _ _) HOWN). cbn [andb]. specialize (HO L).
      assert (EF : fee_in n f' = 0). { destruct f as [[k [|v [|w vs]]]|]; cbn [accumulateFee] in EA; injection EA as _ <-; try contradiction; cbn [fee_in sum fold_right]; try destruct (k =? n); reflexivity. }
      lia.
Qed.
Lemma mv_step : forall s o, wf s -> op_ok own o -> let ms := match exec s o with Val _ _ => incoming verify s o | Exn _ _ => [] end in Forall genuine ms -> mv s (step s o) (all_bring ms).
Proof.
  intros s o W HO ms HG. unfold ms in *. unfold M_JBmc.step. destruct (exec s o) as [u s1|e s1] eqn:E; [|apply mv_refl]. destruct u. eapply mv_exec; eassumption.
Qed.
Lemma all_bring_app : forall a b, all_bring (a ++ b) = all_bring a + all_bring b.
Proof. induction a as [|x a IH]; intros b; cbn [app]; unfold all_bring in *; cbn [fold_right]; [reflexivity|]. rewrite IH. lia. Qed.
Lemma mv_run : forall ops s, wf s -> Forall (op_ok own) ops -> Forall genuine (arrivals own self deployer verify serve chain_ok s ops) ->
  mv s (fold_left step ops s) (all_bring (arrivals own self deployer verify serve chain_ok s ops)).
Proof.
  induction ops as [|o ops IH]; intros s W HO HG; cbn [fold_left arrivals] in *; [apply mv_refl|]. apply Forall_cons_iff in HO as [HO1 HO]. apply Forall_app in HG as [HG1 HG].
  eapply mv_trans; [apply mv_step; [exact W|exact HO1|exact HG1]|apply IH; [apply wf_step, W|exact HO|exact HG]|apply all_bring_app].
Qed.
Lemma flow_parts : forall os, wsum flow os = fees_out n os + (if own =? n then coins_out os - coins_in os else 0) - dropped_here own n os.
Proof.
  induction os as [|o os IH]; [cbn; destruct (own =? n); reflexivity|]. cbn [wsum fold_right]. unfold wsum in IH. rewrite IH. unfold fees_out, coins_out, coins_in, dropped_here, wtotal. cbn [fold_right].
  destruct o; cbn [flow]; unfold b2; destruct (own =? n); lia.
Qed.
End NET.
Lemma solid_init : solid init.
Proof. constructor; cbn; try (intros; contradiction); try constructor; lia. Qed.

(** For every sequence of calls and every coin: what is owed, travels on or was paid out, plus what claims settled
    elsewhere released, is what was paid in and what the messages that came in brought - except that the fees of
    messages for this network that are no requests and failed count twice. *)
Theorem C57_conservation : forall ops n, Forall (op_ok own) ops -> Forall genuine (arrivals own self deployer verify serve chain_ok init ops) -> let s := run ops in
  exists released, 0 <= released /\ (settled n (s_out s) = 0 -> released = 0) /\
    owed n s + fees_out n (s_out s) + (if own =? n then coins_out (s_out s) else 0) + released =
    (if own =? n then coins_in (s_out s) else 0) + wtotal (brings own n) (arrivals own self deployer verify serve chain_ok init ops) + dropped_here own n (s_out s).
Proof.
  intros ops n HO HG s. destruct (mv_run n ops init (wf_init) HO HG solid_init) as (_ & rel & R1 & R2 & R3 & R4). change (fold_left step ops init) with s in *.
  exists rel. split; [exact R1|]. split; [exact R2|]. unfold ledger in R4. rewrite !flow_parts in R4. change (owed n s) with (wsum (rew_w n) (s_rewards s) + wsum (resp_w n) (s_resp s) + wsum (req_w n) (s_requests s)).
  change (wtotal (brings own n) (arrivals own self deployer verify serve chain_ok init ops)) with (all_bring n (arrivals own self deployer verify serve chain_ok init ops)).
  change (s_out init) with (@nil out) in R4. change (s_rewards init) with (@nil ((Z * Z) * Z)) in R4. change (s_resp init) with (@nil ((Z * Z * Z) * rinfo)) in R4. change (s_requests init) with (@nil (Z * request)) in R4.
  change (wsum (rew_w n) []) with 0 in R4. change (wsum (resp_w n) []) with 0 in R4. change (wsum (req_w n) []) with 0 in R4. change (fees_out n []) with 0 in R4. change (coins_out []) with 0 in R4. change (coins_in []) with 0 in R4. change (dropped_here own n []) with 0 in R4.
  destruct (own =? n); lia.
Qed.
(** Message centers only make genuine messages if they are given genuine messages: so the hypothesis of the theorem holds of
    a network of such message centers. *)
Theorem C57_sends_genuine : forall ops, Forall (op_ok own) ops -> Forall genuine (arrivals own self deployer verify serve chain_ok init ops) ->
  forall to nid k m, In (OSent to nid k m) (s_out (run ops)) -> genuine m.
Proof.
  intros ops HO HG to nid k m HI. destruct (mv_run 0 ops init (wf_init) HO HG solid_init) as (S & _). exact (proj1 (Forall_forall _ _) (so_out _ S) _ HI).
Qed.
(** FINDING.  A message for this network that is no request, whose service is missing, has its remaining fee collected
    twice: once when it is handled, once when the failure is dealt with. *)
Theorem C57_collected_twice_refuted : forall s prev seq m k v vs, own = m_dst m -> m_sn m = 0 -> m_svc m <> INTERNAL -> aget Z.eqb (m_svc m) (s_services s) = None ->
  m_fee m = Some (Fee k (v :: vs)) -> 0 < sum (v :: vs) -> getReward (dispatch s prev seq m) k self = getReward s k self + 2 * sum (v :: vs).
Proof.
  intros s prev seq m k v vs EO EZ NI EA EF HS. unfold M_JBmc.dispatch. rewrite (proj2 (Z.eqb_eq _ _) EO), handle_eq, EZ. cbn [Z.leb]. change (0 <=? 0) with true. change (0 <? 0) with false. cbv iota.
  unfold stored_state. rewrite EF, EZ. change (0 <? 0) with false. cbv iota. unfold deliver. destruct (Z.eqb_spec (m_svc m) INTERNAL); [contradiction|]. unfold getService.
  destruct (collect_keeps self s (Some (Fee k (v :: vs)))) as (_ & _ & _ & _ & _ & _ & ->). rewrite EA. cbn [bind]. unfold dropped. rewrite event_eq. unfold getReward. cbn [emit s_rewards].
  cbn [collect]. unfold collectNet, addReward. set (S := sum (v :: vs)) in *. replace (0 <? S) with true by lia. unfold getReward. cbn [set_rewards s_rewards]. rewrite !(aput_same zz_eqb zz_key). lia.
Qed.
(** FINDING.  When an owner drops a message that is no request, only the first of its fees is kept: the others are
    owed to nobody afterwards. *)
Theorem C57_dropped_fees_lost_refuted : forall s c src seq svc sn nsn k v vs u s', sn <= 0 -> exec s (DropMessage c src seq svc sn nsn (Some (Fee k (v :: vs)))) = Val u s' ->
  s_rewards s' = s_rewards (addReward s self k v) /\ s_resp s' = s_resp s /\ s_requests s' = s_requests s /\ forall n, fees_out n (s_out s') = fees_out n (s_out s).
Proof.
  intros s c src seq svc sn nsn k v vs u s' HS E. cbn [M_JBmc.exec] in E. unfold owner in E. destruct (isOwner deployer s c); [|discriminate]. unfold dropMessage in E.
  destruct (resolveNext s src) as [prev|]; [|discriminate]. destruct (getLinkNet s (a_net prev)) as [l|]; [|discriminate].
  destruct (negb _); [discriminate|]. destruct (negb _); [discriminate|]. destruct (isInvalidSn sn nsn); [discriminate|]. cbn [accumulateFee] in E. destruct (Z.ltb_spec 0 sn); [lia|]. injection E as _ <-.
  unfold dropped. rewrite event_eq. cbn [emit s_rewards s_resp s_requests s_out].
  split; [unfold addReward; destruct (0 <? v); reflexivity|]. split; [unfold addReward; destruct (0 <? v); reflexivity|]. split; [unfold addReward; destruct (0 <? v); reflexivity|].
  intros n. change (fees_out n) with (wsum (fun o => match o with OSent _ _ _ m => fee_in n (m_fee m) | _ => 0 end)). rewrite !wsum_app. cbn [wsum fold_right ev_of]. unfold addReward. destruct (0 <? v); cbn [set_rewards putLink set_links s_out]; lia.
Qed.
(** FINDING.  A claim whose confirmation cannot be routed back is credited here, and the error answer that goes back
    credits it there again: the correction the code makes is a reward of a negative amount, which is ignored. *)
Theorem C57_claim_credited_twice_refuted : forall s prev seq m a r f e, own = m_dst m -> m_svc m = INTERNAL -> m_pay m = PClaim a (Some r) -> 0 < m_sn m -> m_fee m = Some f -> 0 < a -> r <> self ->
  resolveNext s (m_src m) = inr e -> ends_with (dispatch s prev seq m) (OEvent (fst (msg_id m)) (snd (msg_id m)) (Some prev) ERROR) ->
  getReward (dispatch s prev seq m) own r = getReward s own r + a.
Proof.
  intros s prev seq m a r f e EO EI EP HS EF HA NR ER HE. unfold M_JBmc.dispatch in *. rewrite (proj2 (Z.eqb_eq _ _) EO), handle_eq in *. revert HE. destruct (Z.leb_spec 0 (m_sn m)) as [_|]; [|lia]. replace (0 <? m_sn m) with true by lia.
  unfold deliver. rewrite EI, EP. change (INTERNAL =? INTERNAL) with true. cbv iota. unfold internalMessage, sendWithFee.
  assert (KR : forall k x, getReward (collect self s k) x r = getReward s x r).
  { intros [[k [|v vs]]|] x; cbn [collect]; try reflexivity. unfold collectNet, addReward. destruct (0 <? _); [|reflexivity]. unfold getReward. cbn [set_rewards s_rewards]. rewrite (aput_other zz_eqb zz_key) by congruence. reflexivity. }
  assert (EX : getReward (stored_state self s m) own r = getReward s own r).
  { unfold stored_state. rewrite EF. replace (0 <? m_sn m) with true by lia. cbv zeta. destruct (aget zzz_eqb _ (s_resp s)); unfold getReward; cbn [set_resp s_rewards]; [apply KR|reflexivity]. }
  assert (ERR : resolveNext (addReward (stored_state self s m) r own a) (m_src m) = inr e).
  { destruct (addReward_keeps (stored_state self s m) r own a) as (_ & K2 & _). unfold resolveNext, getLinkNet in *. rewrite K2, (proj2 (proj2 (stored_keeps self s m))).
    replace (s_routes (addReward (stored_state self s m) r own a)) with (s_routes s); [exact ER|]. unfold addReward. destruct (0 <? a); cbn [set_rewards s_routes];
    (unfold stored_state; rewrite EF; replace (0 <? m_sn m) with true by lia; cbv zeta; destruct (aget zzz_eqb _ (s_resp s)) as [[x [[k [|v vs]]|]]|]; cbn [collect r_fee]; try reflexivity; unfold collectNet, addReward; destruct (0 <? _); reflexivity). }
  rewrite ERR. cbn [bind]. rewrite addReward_neg by lia. rewrite EF.
  set (s2 := set_resp (addReward (stored_state self s m) r own a) _).
  assert (E2 : getReward s2 own r = getReward s own r + a).
  { unfold s2. unfold getReward at 1. cbn [set_resp s_rewards]. unfold addReward. replace (0 <? a) with true by lia. cbn [set_rewards s_rewards]. rewrite (aput_same zz_eqb zz_key). fold (getReward (stored_state self s m) own r). rewrite EX. lia. }
  destruct (sendError own chain_ok s2 prev m (as_bsh e)) as [u s3|e3 s3] eqn:ES; intros HE.
  - unfold sendError in ES. cbv zeta in ES. destruct (sendTo chain_ok s2 prev _) as [[] s4|] eqn:ET; cbn [bind] in ES; [|discriminate]. injection ES as _ <-. destruct (sendTo_val _ _ _ _ _ _ ET) as (l & nid & _ & -> & _). rewrite event_eq. exact E2.
  - exfalso. destruct HE as [before HE]. unfold dropped in HE. rewrite event_eq in HE. cbn [emit s_out] in HE. apply app_inj_tail in HE as [_ HE]. discriminate.
Qed.
End BMC.
Print Assumptions C57_conservation.
Print Assumptions C57_sends_genuine.
Print Assumptions C57_collected_twice_refuted.
Print Assumptions C57_dropped_fees_lost_refuted.
Print Assumptions C57_claim_credited_twice_refuted.

Example C57_ex : let ops := setup ++ [SetFeeTable 200 [(2, [5; 6])]; HandleRelay 50 peer [1]; SendMessage 70 2 7 3 (PBytes [1]) 15; HandleRelay 50 peer [5]; HandleRelay 50 peer [3]] in
  Forall (op_ok 1) ops /\ Forall genuine (arrivals 1 100 200 demo_verify demo_serve demo_ok init ops) /\
  owed 1 (demo ops) = 504 /\ fees_out 1 (s_out (demo ops)) = 11 /\ coins_in (s_out (demo ops)) = 15 /\ wtotal (brings 1 1) (arrivals 1 100 200 demo_verify demo_serve demo_ok init ops) = 500 /\
  owed 2 (demo ops) = 21 /\ fees_out 2 (s_out (demo ops)) = 182 /\ wtotal (brings 1 2) (arrivals 1 100 200 demo_verify demo_serve demo_ok init ops) = 203.
Proof. vm_compute. repeat split; repeat constructor; try discriminate; auto. Qed.
