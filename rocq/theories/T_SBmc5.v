(** Theorems about the message center for the EVM: money, C79. *)
From Coq Require Import String Ascii ZArith List Bool Lia Permutation.
From Coq Require Import ZifyBool.
From Verif Require Import Base L_Base M_SolRlp S_SolRlp M_BtpAddr M_Bridge L_SolBmv3 M_JMap L_JMap M_SBmc S_SBmc L_SBmc X_SBmc T_SBmc T_SBmc2 T_SBmc3 T_SBmc4.
From Verif Require S_JBmc M_SolCall.
Import ListNotations.
Open Scope Z_scope.

Notation nn := (Forall (fun v => 0 <= v)).
(** ** sums *)
Lemma sum_app : forall A (f : A -> Z) a b, sum f (a ++ b) = sum f a + sum f b.
Proof. intros A f a b. induction a as [|x a IH]; cbn [app sum fold_right]; unfold sum in *; [lia|]. cbn [app fold_right]. lia. Qed.
Lemma sum_perm : forall A (f : A -> Z) a b, Permutation a b -> sum f a = sum f b.
Proof. intros A f a b P. induction P; unfold sum in *; cbn [fold_right]; lia. Qed.
Lemma sum_cons : forall A (f : A -> Z) x a, sum f (x :: a) = f x + sum f a.
Proof. reflexivity. Qed.
Lemma sum_nonneg : forall A (f : A -> Z) a, Forall (fun x => 0 <= f x) a -> 0 <= sum f a.
Proof. intros A f a H. induction H; unfold sum in *; cbn [fold_right]; lia. Qed.
Lemma only_nonneg : forall b v, 0 <= v -> 0 <= only b v.
Proof. intros [] v H; unfold only; lia. Qed.
Lemma only_add : forall b v w, only b (v + w) = only b v + only b w.
Proof. intros [] v w; reflexivity. Qed.
Section Maps.
Context {K V : Type} (keqb : K -> K -> bool) (spec : forall a b, keqb a b = true <-> a = b).
Lemma sum_aput : forall (w : K * V -> Z) k v l, sum w (aput keqb k v l) = sum w l - (match aget keqb k l with Some o => w (k, o) | None => 0 end) + w (k, v).
Proof.
  intros w k v l. induction l as [|[k2 o] l IH]; cbn [aput aget]; unfold sum in *; [cbn [fold_right]; lia|]. destruct (keqb k k2) eqn:E.
  - apply spec in E. subst k2. cbn [fold_right]. lia.
  - cbn [fold_right]. rewrite IH. lia.
Qed.
Lemma sum_adel : forall (w : K * V -> Z) k v l, aget keqb k l = Some v -> sum w (adel keqb k l) = sum w l - w (k, v).
Proof. intros w k v l E. rewrite (sum_perm _ w _ _ (adel_perm keqb spec k v l E)). unfold sum. cbn [fold_right]. lia. Qed.
Lemma all_aput : forall (P : K * V -> Prop) k v l, Forall P l -> P (k, v) -> Forall P (aput keqb k v l).
Proof. intros P k v l F H. apply Forall_forall. intros [k2 v2] I. apply (aput_in keqb) in I as [E|I]; [rewrite E; exact H|]. rewrite Forall_forall in F. auto. Qed.
Lemma all_adel : forall (P : K * V -> Prop) k l, Forall P l -> Forall P (adel keqb k l).
Proof. intros P k l F. apply Forall_forall. intros x I. apply (adel_in keqb spec) in I. rewrite Forall_forall in F. auto. Qed.
End Maps.

Lemma sumFrom_total : forall vs acc t, sumFrom acc vs = Some t -> t = acc + total vs.
Proof.
  induction vs as [|v vs IH]; intros acc t E; cbn [sumFrom] in E; [injection E as <-; unfold total; cbn [fold_right]; lia|]. bnd E a F. unfold cadd in F. destruct (_ <? _) in F; [|discriminate]. same F. apply IH in E. unfold total in *. cbn [fold_right]. lia.
Qed.
Lemma nn_firstn : forall n vs, nn vs -> nn (firstn n vs).
Proof. intros n vs H. rewrite Forall_forall in *. intros x I. apply H. rewrite <- (firstn_skipn n vs). apply in_or_app. left. exact I. Qed.
Lemma nn_skipn : forall n vs, nn vs -> nn (skipn n vs).
Proof. intros n vs H. rewrite Forall_forall in *. intros x I. apply H. rewrite <- (firstn_skipn n vs). apply in_or_app. right. exact I. Qed.
Lemma total_app : forall a b, total (a ++ b) = total a + total b.
Proof. intros a b. induction a as [|x a IH]; unfold total in *; cbn [app fold_right]; lia. Qed.
Definition worth (n : text) (f : fee) : Z := only (bytes_eqb (f_net f) n) (total (f_vals f)).

(** ** what is read from bytes is not negative *)
Section Read.
Context (junk : list Z -> mem).
Hypothesis J : forall b, mem_ok (junk b).
Lemma list_iok : forall b its, bytes_ok b -> list_of junk b = Some its -> Forall iok its.
Proof. intros b its B E. unfold list_of in E. eapply toList_iok; [|exact E]. apply iok_item; assumption. Qed.
Lemma at_bytes : forall its i b, Forall iok its -> M_SBmc.item_at its i toBytes = Some b -> bytes_ok b.
Proof. intros its i b F E. unfold M_SBmc.item_at in E. bnd E it G. eapply toBytes_iok; [eapply at_iok; eassumption|exact E]. Qed.
Lemma fee_nn : forall it f, iok it -> decodeFeeInfo it = Some f -> nn (f_vals f).
Proof.
  intros it f I E. unfold decodeFeeInfo in E. destruct (isNull it); [same E; constructor|]. bnd E ls F1. bnd E vs F2. bnd E vals F3. bnd E n F4. same E. cbn [f_vals].
  unfold M_SBmc.item_at in F2. bnd F2 i2 F5. assert (I2 : Forall iok vs) by (eapply toList_iok; [|exact F2]; eapply at_iok; [eapply toList_iok; [exact I|exact F1]|exact F5]).
  eapply map_opt_all; [exact F3|exact I2|]. intros a x A X. apply toUint_iok in X; [|exact A]. lia.
Qed.
Lemma decodeBTP_ok : forall b m, bytes_ok b -> decodeBTPMessage junk b = Some m -> bytes_ok (m_body m) /\ nn (f_vals (m_fee m)).
Proof.
  intros b m B E. unfold decodeBTPMessage in E. bnd E ls F1. bnd E a1 F2. bnd E a2 F3. bnd E a3 F4. bnd E a4 F5. bnd E a5 F6. bnd E a6 F7. bnd E f F8. same E. cbn [m_body m_fee].
  pose proof (list_iok _ _ B F1) as I. split; [eapply at_bytes; eassumption|]. unfold M_SBmc.item_at in F8. bnd F8 it F9. eapply fee_nn; [eapply at_iok; eassumption|exact F8].
Qed.
Lemma decodeBMC_ok : forall b t p, bytes_ok b -> decodeBMCMessage junk b = Some (t, p) -> bytes_ok p.
Proof. intros b t p B E. unfold decodeBMCMessage in E. bnd E ls F1. bnd E a1 F2. bnd E a2 F3. injection E as <- <-. eapply at_bytes; [eapply list_iok; eassumption|exact F3]. Qed.
Lemma decodeResponse_ok : forall b c t, bytes_ok b -> decodeResponseMessage junk b = Some (c, t) -> 0 <= c.
Proof.
  intros b c t B E. unfold decodeResponseMessage in E. bnd E ls F1. bnd E a1 F2. bnd E a2 F3. injection E as <- <-. unfold M_SBmc.item_at in F2. bnd F2 it F4. apply toUint_iok in F2; [lia|]. eapply at_iok; [eapply list_iok; eassumption|exact F4].
Qed.
End Read.
Lemma claim_in_nonneg : forall own junk m, (forall b, mem_ok (junk b)) -> bytes_ok (m_body m) -> 0 <= claim_in own junk m.
Proof.
  intros own junk m J B. unfold claim_in. destruct (_ && _); [|lia]. destruct (decodeBMCMessage junk (m_body m)) as [[t p]|] eqn:E; [|lia]. destruct (bytes_eqb t (str "Claim")); [|lia].
  destruct (decodeResponseMessage junk p) as [[c u]|] eqn:F; [|lia]. eapply decodeResponse_ok; [exact J| |exact F]. eapply decodeBMC_ok; eassumption.
Qed.

(** ** the books of the service contract *)
Section Ser.
Context (own : text) (self : Z).
Record sser (x : ser) (k : Z) : Prop := SSer {
  ss_resp : Forall (fun kv => nn (f_vals (p_fee (snd kv)))) (responses x);
  ss_req : Forall (fun kv => fst kv <= k /\ q_dst (snd kv) <> own /\ 0 <= q_amount (snd kv)) (requests x);
  ss_rew : Forall (fun kv => 0 <= snd kv) (rewards x) }.
Lemma owed_nonneg : forall n x k, sser x k -> 0 <= owed n x.
Proof.
  intros n x k [A B C]. unfold owed. apply Z.add_nonneg_nonneg; [apply Z.add_nonneg_nonneg|]; apply sum_nonneg.
  - eapply Forall_impl; [|exact C]. intros kv H. apply only_nonneg, H.
  - eapply Forall_impl; [|exact A]. intros kv H. apply only_nonneg, total_nonneg, H.
  - eapply Forall_impl; [|exact B]. intros kv (_ & _ & H). apply only_nonneg, H.
Qed.
Lemma getReward_sum : forall x net a n, only (bytes_eqb net n) (getReward x net a) = match aget rkey_eqb (a, net) (rewards x) with Some o => only (bytes_eqb (snd (fst ((a, net), o))) n) (snd ((a, net), o)) | None => 0 end.
Proof. intros x net a n. unfold getReward. destruct (aget _ _ _); cbn [fst snd]; [reflexivity|]. destruct (bytes_eqb net n); reflexivity. Qed.
Lemma getReward_nn : forall x k net a, sser x k -> 0 <= getReward x net a.
Proof. intros x k net a [_ _ C]. unfold getReward. destruct (aget _ _ _) as [v|] eqn:E; [|lia]. apply (aget_in _ rkey_spec) in E. rewrite Forall_forall in C. apply C in E. exact E. Qed.
Lemma owed_rewards : forall n x net a v, owed n (Ser (responses x) (requests x) (aput rkey_eqb (a, net) v (rewards x))) = owed n x + only (bytes_eqb net n) (v - getReward x net a).
Proof.
  intros n x net a v. unfold owed. cbn [responses requests rewards]. rewrite (sum_aput _ rkey_spec). pose proof (getReward_sum x net a n) as G. unfold text in *. rewrite <- G. cbn [fst snd]. unfold Z.sub. rewrite only_add. destruct (bytes_eqb net n); unfold only; lia.
Qed.
Lemma sser_rewards : forall x k net a v, sser x k -> 0 <= v -> sser (Ser (responses x) (requests x) (aput rkey_eqb (a, net) v (rewards x))) k.
Proof. intros x k net a v [A B C] V. constructor; [exact A|exact B|]. cbn [rewards]. apply (all_aput rkey_eqb); [exact C|exact V]. Qed.
Lemma addReward_owed : forall x net a v x' k, 0 <= v -> addReward x net a v = Some x' -> sser x k -> sser x' k /\ forall n, owed n x' = owed n x + only (bytes_eqb net n) v.
Proof.
  intros x net a v x' k V E S. unfold addReward in E. destruct (0 <? v) eqn:P.
  - bnd E y F. same E. unfold cadd in F. destruct (_ <? _) in F; [|discriminate]. same F. split; [apply sser_rewards; [exact S|]; pose proof (getReward_nn x k net a S); lia|]. intros n. rewrite owed_rewards. f_equal. f_equal. lia.
  - same E. split; [exact S|]. intros n. replace v with 0 by lia. destruct (bytes_eqb net n); unfold only; lia.
Qed.
Lemma clearReward_owed : forall x net a x' v k, clearReward x net a = Some (x', v) -> sser x k -> 0 <= v /\ sser x' k /\ forall n, owed n x' = owed n x - only (bytes_eqb net n) v.
Proof.
  intros x net a x' v k E S. unfold clearReward in E. cbv zeta in E. chk E P. injection E as <- <-. split; [lia|]. split; [apply sser_rewards; [exact S|lia]|]. intros n. rewrite owed_rewards. destruct (bytes_eqb net n); unfold only; lia.
Qed.
Lemma collectRemain_owed : forall x f x' f' k, nn (f_vals f) -> collectRemainFee self x f = Some (x', f') -> sser x k -> sser x' k /\ f' = Fee (f_net f) [] /\ forall n, owed n x' = owed n x + worth n f.
Proof.
  intros x f x' f' k N E S. unfold collectRemainFee in E. bnd E t F1. bnd E y F2. injection E as <- <-. apply sumFrom_total in F1. apply (addReward_owed _ _ _ _ _ k) in F2 as [A B]; [|pose proof (total_nonneg _ N); lia|exact S].
  split; [exact A|]. split; [reflexivity|]. intros n. rewrite B. unfold worth. rewrite F1. reflexivity.
Qed.
Lemma accumulate_owed : forall x a f x' f' k, nn (f_vals f) -> accumulateFee x a f = Some (x', f') -> sser x k -> sser x' k /\ nn (f_vals f') /\ forall n, owed n x' + worth n f' = owed n x + worth n f.
Proof.
  intros x a f x' f' k N E S. unfold accumulateFee in E. destruct (f_vals f) as [|v r] eqn:EV.
  - injection E as <- <-. split; [exact S|]. split; [rewrite EV; constructor|reflexivity].
  - bnd E y F. injection E as <- <-. inversion N as [|? ? N1 N2]; subst. apply (addReward_owed _ _ _ _ _ k) in F as [A B]; [|exact N1|exact S]. split; [exact A|]. split; [exact N2|]. intros n. rewrite B. unfold worth. cbn [f_net f_vals]. rewrite EV. unfold total. cbn [fold_right]. rewrite only_add. lia.
Qed.
(** an entry of a request comes and goes *)
Definition wresp (n : text) (kv : (text * text * Z) * resp) : Z := worth n (p_fee (snd kv)).
Lemma owed_resp : forall n x, owed n x = sum (fun kv => only (bytes_eqb (snd (fst kv)) n) (snd kv)) (rewards x) + sum (wresp n) (responses x) + sum (fun kv => only (bytes_eqb (q_dst (snd kv)) n) (q_amount (snd kv))) (requests x).
Proof. reflexivity. Qed.
Lemma response_worth : forall n x k, worth n (p_fee (response_at x k)) = match aget pkey_eqb k (responses x) with Some o => wresp n (k, o) | None => 0 end.
Proof. intros n x k. unfold response_at, wresp. destruct (aget _ _ _); [reflexivity|]. unfold worth. cbn [no_resp p_fee f_net f_vals]. unfold total. cbn [fold_right]. destruct (bytes_eqb [] n); reflexivity. Qed.
Lemma response_nn : forall x k key, sser x k -> nn (f_vals (p_fee (response_at x key))).
Proof. intros x k key [A _ _]. unfold response_at. destruct (aget _ _ _) as [r|] eqn:E; [|constructor]. apply (aget_in _ pkey_spec) in E. rewrite Forall_forall in A. apply A in E. exact E. Qed.
Lemma putResponse_owed : forall x k r b, nn (f_vals (p_fee r)) -> sser x b -> let x' := Ser (aput pkey_eqb k r (responses x)) (requests x) (rewards x) in
  sser x' b /\ forall n, owed n x' = owed n x - worth n (p_fee (response_at x k)) + worth n (p_fee r).
Proof.
  intros x k r b N [A B C] x'. split; [constructor; [|exact B|exact C]; apply (all_aput pkey_eqb); [exact A|exact N]|]. intros n. rewrite !owed_resp. unfold x'. cbn [responses requests rewards]. rewrite (sum_aput _ pkey_spec). pose proof (response_worth n x k) as W. unfold text in *. rewrite W. unfold wresp at 3. cbn [snd]. lia.
Qed.
Lemma removeResponse_owed : forall x to svc sn x' r b, removeResponse x to svc sn = Some (x', r) -> sser x b -> nn (f_vals (p_fee r)) /\ r = response_at x (to, svc, sn) /\ sser x' b /\ forall n, owed n x' = owed n x - worth n (p_fee r).
Proof.
  intros x to svc sn x' r b E S. pose proof (response_nn x b (to, svc, sn) S) as N. destruct S as [A B C]. unfold removeResponse in E. cbv zeta in E. chk E P. injection E as <- <-. split; [exact N|]. split; [reflexivity|]. split; [constructor; [|exact B|exact C]; cbn [responses]; apply (all_adel _ pkey_spec), A|].
  intros n. rewrite !owed_resp. cbn [responses requests rewards]. rewrite response_worth. destruct (aget pkey_eqb (to, svc, sn) (responses x)) as [q|] eqn:G; [|unfold response_at in P; rewrite G in P; discriminate].
  rewrite (sum_adel _ pkey_spec (wresp n) _ _ _ G). lia.
Qed.
Lemma addRequest_owed : forall x k q, Forall (fun kv => fst kv < k) (requests x) -> q_dst q <> own -> 0 <= q_amount q -> sser x k -> sser (addRequest x k q) k /\ forall n, owed n (addRequest x k q) = owed n x + only (bytes_eqb (q_dst q) n) (q_amount q).
Proof.
  intros x k q L D M [A B C]. split.
  - constructor; [exact A| |exact C]. cbn [addRequest requests]. apply (all_aput Z.eqb); [exact B|cbn [fst snd]; split; [lia|split; assumption]].
  - intros n. unfold owed, addRequest. cbn [responses requests rewards]. rewrite (sum_aput _ Z.eqb_eq). destruct (aget Z.eqb k (requests x)) as [o|] eqn:G; [|cbn [snd]; lia].
    apply (aget_in _ Z.eqb_eq) in G. rewrite Forall_forall in L. apply L in G. cbn [fst] in G. lia.
Qed.
Lemma removeRequest_owed : forall x k q b, aget Z.eqb k (requests x) = Some q -> sser x b -> let x' := Ser (responses x) (adel Z.eqb k (requests x)) (rewards x) in
  q_dst q <> own /\ 0 <= q_amount q /\ sser x' b /\ forall n, owed n x' = owed n x - only (bytes_eqb (q_dst q) n) (q_amount q).
Proof.
  intros x k q b G [A B C] x'. pose proof G as I. apply (aget_in _ Z.eqb_eq) in I. pose proof B as B2. rewrite Forall_forall in B2. apply B2 in I. cbn [fst snd] in I. split; [tauto|]. split; [tauto|]. split; [constructor; [exact A| |exact C]; apply (all_adel _ Z.eqb_eq), B|].
  intros n. unfold owed, x'. cbn [responses requests rewards]. rewrite (sum_adel _ Z.eqb_eq _ _ _ _ G). cbn [snd]. lia.
Qed.
Lemma sser_more : forall x a b, a <= b -> sser x a -> sser x b.
Proof. intros x a b L [A B C]. constructor; [exact A| |exact C]. eapply Forall_impl; [|exact B]. cbv beta. intros kv (H1 & H2 & H3). repeat split; try assumption; lia. Qed.
End Ser.

(** ** fees to be paid are numbers *)
Definition fnn (m : man) : Prop := forall d, nn (fees_of m d).
Definition fewer (m m' : man) : Prop := forall d, fees_of m' d = fees_of m d \/ fees_of m' d = [].
Lemma fewer_refl : forall m, fewer m m.
Proof. intros m d. left. reflexivity. Qed.
Lemma fewer_same : forall m m', fees_of m' = fees_of m -> fewer m m'.
Proof. intros m m' E d. left. rewrite E. reflexivity. Qed.
Lemma fewer_trans : forall a b c, fewer a b -> fewer b c -> fewer a c.
Proof. intros a b c A B d. destruct (B d) as [E|E]; [rewrite E; apply A|right; exact E]. Qed.
Lemma fewer_fnn : forall m m', fewer m m' -> fnn m -> fnn m'.
Proof. intros m m' F N d. destruct (F d) as [E|E]; rewrite E; [apply N|constructor]. Qed.
Lemma fewer_removeFee : forall m d, fewer m (removeFee m d).
Proof. intros m d x. cbn [removeFee set_fees fees_of]. unfold tset. destruct (bytes_eqb x d); auto. Qed.
Lemma fees_addRouteInfo : forall m d k t, fees_of (addRouteInfo m d k t) = fees_of m.
Proof. intros m d k t. unfold addRouteInfo. destruct (rtype_eqb (r_type (route_of m d)) TNone); destruct t; reflexivity. Qed.
Lemma fewer_removeRouteInfo : forall m d by_ m', removeRouteInfo m d by_ = Some m' -> fewer m m'.
Proof.
  intros m d by_ m' E. unfold removeRouteInfo in E. bnd E m1 F1. assert (A : fees_of m1 = fees_of m).
  { destruct by_; [|same F1; reflexivity]. cbv zeta in F1. bnd F1 n F2. same F1. reflexivity. }
  cbv zeta in E. eapply fewer_trans; [apply fewer_same, A|]. clear A. destruct (0 <? r_reach (route_of m1 d)).
  - bnd E m2 F2. assert (A : fees_of m2 = fees_of m1).
    { destruct (match by_ with None => true | Some link => _ end); [bnd F2 n F3; same F2; reflexivity|same F2; reflexivity]. }
    apply fewer_same. destruct by_; same E; exact A.
  - bnd E l F2. same E. eapply fewer_trans; [|apply fewer_removeFee]. apply fewer_same. reflexivity.
Qed.
Lemma fewer_addReachable : forall m f a m', addReachable m f a = Some m' -> fewer m m'.
Proof. intros m f a m' E. unfold addReachable in E. cbv zeta in E. bnd E n F. same E. apply fewer_same. rewrite fees_addRouteInfo. reflexivity. Qed.
Lemma fewer_removeReachable : forall m f a m', removeReachable m f a = Some m' -> fewer m m'.
Proof. intros m f a m' E. unfold removeReachable in E. cbv zeta in E. bnd E l F. bnd E n F2. apply fewer_removeRouteInfo in E. exact E. Qed.
Lemma fewer_addReachables : forall l m f m', addReachables m f l = Some m' -> fewer m m'.
Proof. induction l as [|a l IH]; intros m f m' E; cbn [addReachables] in E; [same E; apply fewer_refl|]. bnd E m1 F. apply fewer_addReachable in F. apply IH in E. eapply fewer_trans; eassumption. Qed.
Lemma fewer_removeReached : forall l m k m', removeReached m k l = Some m' -> fewer m m'.
Proof. induction l as [|a l IH]; intros m k m' E; cbn [removeReached] in E; [same E; apply fewer_refl|]. bnd E n F. bnd E m1 F2. apply fewer_removeRouteInfo in F2. apply IH in E. eapply fewer_trans; eassumption. Qed.
Lemma fnn_setFeeTable : forall l m m', Forall (fun e => nn (snd e)) l -> fnn m -> setFeeTable m l = Some m' -> fnn m'.
Proof.
  induction l as [|[d vs] l IH]; intros m m' N F E; cbn [setFeeTable] in E; [same E; exact F|]. inversion N as [|? ? N1 N2]; subst. cbn [snd] in N1. destruct vs as [|v vs].
  - eapply IH; [exact N2| |exact E]. eapply fewer_fnn; [apply fewer_removeFee|exact F].
  - chk E H1. bnd E u F2. eapply IH; [exact N2| |exact E]. intros x. cbn [set_fees fees_of]. unfold tset. destruct (bytes_eqb x d); [exact N1|apply F].
Qed.

Section BMC.
Context (own : text) (self mgmt svcaddr : Z) (junk : list Z -> mem).
Context (verify : nat -> Z -> text -> Z -> list Z -> option (list (list Z))) (serve : nat -> Z -> bshcall -> action) (blame : nat -> text) (accepts : nat -> Z -> Z -> bool).
Notation exec := (exec own self mgmt svcaddr junk verify serve blame accepts).
Notation step := (step own self mgmt svcaddr junk verify serve blame accepts).
Notation run := (run own self mgmt svcaddr junk verify serve blame accepts).
Notation outside := (outside self mgmt svcaddr).
Notation dispatch := (dispatch own self mgmt svcaddr junk serve blame).
Notation dispatch_all := (dispatch_all own self mgmt svcaddr junk serve blame).
Notation handleMessage := (handleMessage own self mgmt svcaddr junk serve blame).
Notation sendError := (sendError own self).
Notation taken := (taken junk verify).
Notation arrivals := (arrivals own self mgmt svcaddr junk verify serve blame accepts).
Notation sser := (sser own).
Hypothesis J : forall b, mem_ok (junk b).
Hypothesis SV : forall k a c cs reason, serve k a c = Calls cs reason -> Forall (fun c => 0 <= c_value c) cs.

Record sound (s : st) : Prop := Sound { so_fees : fnn (s_m s); so_ser : sser (s_s s) (nsn_of (s_p s)); so_nsn : 0 <= nsn_of (s_p s) }.
(** The books before and after: [h] is what has been taken out of the books and is not yet put out (or less than nothing: put
    out before it was in the books), [t] claims that are done with, [c] claims from other networks, at most [cb]. *)
Definition balance (cb : Z) (h : text -> Z) (s : st) (new : list out) (s' : st) : Prop :=
  exists c t, 0 <= c <= cb /\ t own = 0 /\ (forall n, 0 <= t n /\ (settled n new = false -> t n = 0)) /\
  forall n, owed n (s_s s') + fees_out n new + only (bytes_eqb own n) (coins_out new) + h n + t n = owed n (s_s s) + only (bytes_eqb own n) (coins_in new + c).
Record books (cb : Z) (h : text -> Z) (s : st) (new : list out) (s' : st) : Prop := Books {
  bk_out : s_out s' = s_out s ++ new; bk_sound : sound s -> sound s' /\ balance cb h s new s' }.
Definition plain (o : out) : Prop := match o with OSent _ _ _ | OTransfer _ _ | OPaid _ | OClaimResult _ _ _ _ => False | _ => True end.

Lemma settled_app : forall n a b, settled n (a ++ b) = settled n a || settled n b.
Proof. intros. unfold settled. apply existsb_app. Qed.
Lemma books_trans : forall c1 c2 h1 h2 a n1 b n2 c, books c1 h1 a n1 b -> books c2 h2 b n2 c -> books (c1 + c2) (fun n => h1 n + h2 n) a (n1 ++ n2) c.
Proof.
  intros c1 c2 h1 h2 a n1 b n2 c [A1 A2] [B1 B2]. constructor; [rewrite B1, A1, app_assoc; reflexivity|]. intros S. destruct (A2 S) as (S2 & x1 & t1 & X1 & X2 & X3 & X4). destruct (B2 S2) as (S3 & x2 & t2 & Y1 & Y2 & Y3 & Y4).
  split; [exact S3|]. exists (x1 + x2), (fun n => t1 n + t2 n). split; [lia|]. split; [lia|]. split.
  - intros n. specialize (X3 n). specialize (Y3 n). split; [lia|]. rewrite settled_app. intros E. apply orb_false_iff in E as [E1 E2]. destruct X3 as [_ X3]. destruct Y3 as [_ Y3]. rewrite X3, Y3 by assumption. reflexivity.
  - intros n. specialize (X4 n). specialize (Y4 n). unfold fees_out, coins_out, coins_in in *. rewrite !sum_app, !only_add in *. lia.
Qed.
Lemma books_conv : forall c c' h h' s new s', books c h s new s' -> c <= c' -> (forall n, h n = h' n) -> books c' h' s new s'.
Proof.
  intros c c' h h' s new s' [A B] L E. constructor; [exact A|]. intros S. destruct (B S) as (S2 & x & t & X1 & X2 & X3 & X4). split; [exact S2|]. exists x, t. split; [lia|]. split; [exact X2|]. split; [exact X3|]. intros n. rewrite <- E. apply X4.
Qed.
(** only the service contract's books change *)
Lemma books_ser : forall h s x, (sound s -> sser x (nsn_of (s_p s)) /\ forall n, owed n x + h n = owed n (s_s s)) -> books 0 h s [] (with_s s x).
Proof.
  intros h s x H. constructor; [symmetry; apply app_nil_r|]. intros S. destruct (H S) as [H1 H2]. split; [destruct S as [A B C]; constructor; assumption|]. exists 0, (fun _ => 0). split; [lia|]. split; [reflexivity|]. split; [intros n; split; [lia|reflexivity]|].
  intros n. specialize (H2 n). cbn [with_s s_s]. unfold fees_out, coins_out, coins_in, sum. cbn [fold_right]. destruct (bytes_eqb own n); unfold only; lia.
Qed.
Lemma books_emit : forall h s o, (forall n, settled n [o] = false) -> (forall n, h n = only (bytes_eqb own n) (coins_in [o] - coins_out [o]) - fees_out n [o]) -> books 0 h s [o] (emit s o).
Proof.
  intros h s o Q H. constructor; [reflexivity|]. intros S. split; [destruct S as [A B C]; constructor; assumption|]. exists 0, (fun _ => 0). split; [lia|]. split; [reflexivity|]. split; [intros n; split; [lia|reflexivity]|].
  intros n. rewrite H. cbn [emit s_s]. destruct (bytes_eqb own n); unfold only; lia.
Qed.
Lemma books_plain : forall s o, plain o -> books 0 (fun _ => 0) s [o] (emit s o).
Proof. intros s o P. apply books_emit; [destruct o; try reflexivity; destruct P|]. intros n. destruct o; try destruct P; unfold fees_out, coins_out, coins_in, sum; cbn [fold_right]; destruct (bytes_eqb own n); reflexivity. Qed.
Lemma books_p : forall s p, nsn_of (s_p s) <= nsn_of p -> books 0 (fun _ => 0) s [] (with_p s p).
Proof.
  intros s p L. constructor; [symmetry; apply app_nil_r|]. intros [A B C]. split; [constructor; cbn [with_p s_m s_s s_p]; [exact A| |lia]; eapply sser_more; [|exact B]; exact L|]. exists 0, (fun _ => 0). split; [lia|]. split; [reflexivity|]. split; [intros n; split; [lia|reflexivity]|].
  intros n. cbn [with_p s_s]. unfold fees_out, coins_out, coins_in, sum. cbn [fold_right]. destruct (bytes_eqb own n); unfold only; lia.
Qed.
Lemma books_m : forall s m, (fnn (s_m s) -> fnn m) -> books 0 (fun _ => 0) s [] (with_m s m).
Proof.
  intros s m L. constructor; [symmetry; apply app_nil_r|]. intros [A B C]. split; [constructor; cbn [with_m s_m s_s s_p]; [apply L, A|exact B|exact C]|]. exists 0, (fun _ => 0). split; [lia|]. split; [reflexivity|]. split; [intros n; split; [lia|reflexivity]|].
  intros n. cbn [with_m s_s]. unfold fees_out, coins_out, coins_in, sum. cbn [fold_right]. destruct (bytes_eqb own n); unfold only; lia.
Qed.
Lemma books_refl : forall s, books 0 (fun _ => 0) s [] s.
Proof. intros s. replace s with (with_s s (s_s s)) at 2 by (destruct s; reflexivity). apply books_ser. intros [A B C]. split; [exact B|]. intros n. lia. Qed.
Lemma books_send : forall s next m e s', send s next m e = Some s' -> exists new, books 0 (fun n => - worth n (m_fee m)) s new s'.
Proof.
  intros s next m e s' E. apply send_some in E as [_ ->]. eexists. eapply books_conv.
  - eapply books_trans; [|apply books_plain; exact I]. unfold sent. eapply books_trans; [|apply books_emit; [reflexivity|intros n; reflexivity]]. apply books_p. cbn [nsn_of]. apply Z.le_refl.
  - lia.
  - intros n. unfold coins_in, coins_out, fees_out, sum, fee_in, worth. cbn [fold_right]. destruct (bytes_eqb own n); unfold only; lia.
Qed.
Lemma books_over : forall s v s', 0 <= v -> collectOverFee own self s v = Some s' -> books 0 (fun n => - only (bytes_eqb own n) v) s [] s'.
Proof.
  intros s v s' V E. unfold collectOverFee in E. destruct (0 <? v) eqn:P.
  - bnd E x F. same E. apply books_ser. intros [_ B _]. apply (addReward_owed own _ _ _ _ _ _ V F) in B as [B1 B2]. split; [exact B1|]. intros n. rewrite B2. lia.
  - same E. eapply books_conv; [apply books_refl|apply Z.le_refl|]. intros n. replace v with 0 by lia. destruct (bytes_eqb own n); reflexivity.
Qed.
Lemma books_sendWithFee : forall s internal v to svc sn b r f s' n, 0 <= v -> (internal = true -> v = 0) -> sound s -> sendWithFee own self s internal v to svc sn b r f = Some (s', n) ->
  exists new, books 0 (fun n => - only (bytes_eqb own n) v) s new s'.
Proof.
  intros s internal v to svc sn b r f s' n V IV SO E. unfold sendWithFee in E. bnd E next F1. destruct r.
  - bnd E y F2. bnd E s1 F3. bnd E k F4. bnd E s2 F5. assert (s2 = s') by congruence. subst s2. destruct y as [x r]. cbn [fst snd] in *. apply books_over in F3; [|exact V]. apply books_send in F5 as (new & G). eexists. eapply books_conv.
    + eapply books_trans; [apply (books_ser (fun n => worth n (p_fee r)))|eapply books_trans; [exact F3|exact G]]. intros [_ B _]. apply (removeResponse_owed own _ _ _ _ _ _ _ F2) in B as (_ & _ & B1 & B2). split; [exact B1|]. intros n0. rewrite B2. lia.
    + lia.
    + intros n0. cbn [m_fee]. lia.
  - cbv zeta in E. destruct internal.
    + bnd E s2 F5. assert (s2 = s') by congruence. subst s2. apply books_send in F5 as (new & G). eexists. eapply books_conv; [eapply books_trans; [|exact G]; apply books_p; cbn [nsn_of]; lia|lia|].
      intros n0. cbn [m_fee]. unfold worth. cbn [f_vals f_net]. unfold total. cbn [fold_right]. rewrite (IV eq_refl). destruct (bytes_eqb own n0); reflexivity.
    + bnd E y F2. chk E F3. bnd E s1 F4. bnd E s2 F5. assert (s2 = s') by congruence. subst s2. destruct y as [t vs]. cbn [fst snd] in *. apply books_send in F5 as (new & G). apply books_over in F4; [|lia].
      assert (T : t = total vs). { unfold m_getFee in F2. cbv zeta in F2. bnd F2 t2 F6. injection F2 as <- <-. apply sumFrom_total in F6. exact F6. }
      eexists. eapply books_conv; [eapply books_trans; [|eapply books_trans; [exact F4|exact G]]; apply books_p; cbn [nsn_of]; lia|lia|].
      intros n0. cbn [m_fee]. unfold worth. cbn [f_vals f_net]. rewrite T. destruct (bytes_eqb own n0); unfold only; lia.
Qed.
Lemma books_sendMessage : forall s c v to svc sn b s' n, 0 <= v -> (c = svcaddr -> v = 0) -> sound s -> sendMessage own self svcaddr s c v to svc sn b = Some (s', n) -> exists new, books 0 (fun _ => 0) s new s'.
Proof.
  intros s c v to svc sn b s' n V IV SO E. unfold sendMessage in E. cbv zeta in E. bnd E u F1. bnd E y F2. destruct y as [s1 n1]. injection E as <- _.
  assert (X : exists new, books 0 (fun n => - only (bytes_eqb own n) v) s new s1) by (destruct (sn <? 0); [bnd F2 k F3|]; (eapply books_sendWithFee; [exact V| |exact SO|eassumption]; intros X; apply Z.eqb_eq in X; auto)).
  destruct X as (new & G). eexists. eapply books_conv; [eapply books_trans; [exact G|apply (books_emit (fun n => only (bytes_eqb own n) v)); [reflexivity|]]|lia|].
  - intros n0. unfold coins_in, coins_out, fees_out, sum. cbn [fold_right]. destruct (bytes_eqb own n0); unfold only; lia.
  - intros n0. cbv beta. lia.
Qed.
Lemma books_calls : forall cs s a s', a <> svcaddr -> Forall (fun c => 0 <= c_value c) cs -> sound s -> run_calls own self svcaddr s a cs = Some s' -> exists new, books 0 (fun _ => 0) s new s'.
Proof.
  induction cs as [|c cs IH]; intros s a s' NA N SO E; cbn [run_calls] in E.
  - assert (s' = s) by congruence. subst. exists []. apply books_refl.
  - inversion N as [|? ? N1 N2]; subst. destruct (sendMessage _ _ _ _ _ _ _ _ _ _) as [[s1 n]|] eqn:E1.
    + apply books_sendMessage in E1 as (n1 & G1); [|exact N1|congruence|exact SO]. apply IH in E as (n2 & G2); [|exact NA|exact N2|apply (bk_sound _ _ _ _ _ G1), SO]. eexists. eapply books_conv; [eapply books_trans; eassumption|lia|reflexivity].
    + destruct (c_catch c); [|discriminate]. apply IH in E; assumption.
Qed.
Lemma books_handleResponse : forall s n r s', handleResponse s n r = Some s' -> exists new, books 0 (fun _ => 0) s new s'.
Proof.
  intros s n r s' E. unfold handleResponse in E. destruct (aget _ _ _) as [q|] eqn:G; [|discriminate]. chk E P. cbv zeta in E. bnd E x F. same E. exists [OClaimResult (q_caller q) (q_dst q) n r]. constructor; [reflexivity|]. intros [A B C].
  destruct (removeRequest_owed own _ _ _ _ G B) as (D1 & D2 & D3 & D4). destruct (r =? ECODE_NONE) eqn:R.
  - same F. split; [constructor; assumption|]. exists 0, (fun n => only (bytes_eqb (q_dst q) n) (q_amount q)). split; [lia|]. split; [rewrite (bytes_eqb_false _ _ D1); reflexivity|]. split.
    + intros n0. split; [apply only_nonneg, D2|]. unfold settled. cbn [existsb]. unfold ECODE_NONE in R. rewrite R, andb_true_r, orb_false_r. intros ->. reflexivity.
    + intros n0. cbn [emit with_s s_s]. rewrite D4. unfold fees_out, coins_out, coins_in, sum. cbn [fold_right]. destruct (bytes_eqb own n0); unfold only; lia.
  - apply (addReward_owed own _ _ _ _ _ _ D2 F) in D3 as [D5 D6]. split; [constructor; assumption|]. exists 0, (fun _ => 0). split; [lia|]. split; [reflexivity|]. split; [intros n0; split; [lia|reflexivity]|].
    intros n0. cbn [emit with_s s_s]. rewrite D6, D4. unfold fees_out, coins_out, coins_in, sum. cbn [fold_right]. destruct (bytes_eqb own n0); unfold only; lia.
Qed.
Definition bclaim (b : list Z) : Z :=
  match decodeBMCMessage junk b with
  | Some (t, p) => if bytes_eqb t (str "Claim") then match decodeResponseMessage junk p with Some (amount, _) => amount | None => 0 end else 0
  | None => 0
  end.
Lemma books_internal : forall s f n b s', sound s -> bytes_ok b -> internalMessage own self svcaddr junk s f n b = Some s' -> exists new, books (bclaim b) (fun _ => 0) s new s'.
Proof.
  intros s f n b s' SO B E. unfold bclaim. unfold internalMessage in E. bnd E y F. rewrite F. destruct y as [type p].
  destruct (bytes_eqb type (str "Claim")).
  - bnd E c F1. bnd E r F2. bnd E x F3. bnd E k F4. bnd E e F5. bnd E e2 F6. bnd E z F7. destruct z as [s1 n1]. same E. destruct c as [v t]. unfold decodeClaimMessage in F1. rewrite F1. cbn [fst snd] in *.
    assert (V : 0 <= v) by (eapply decodeResponse_ok; [exact J| |exact F1]; eapply decodeBMC_ok; [exact J|exact B|exact F]).
    assert (G1 : books v (fun _ => 0) s [] (with_s s x)).
    { constructor; [symmetry; apply app_nil_r|]. intros [A1 A2 A3]. apply (addReward_owed own _ _ _ _ _ _ V F3) in A2 as [A4 A5]. split; [constructor; assumption|]. exists v, (fun _ => 0). split; [lia|]. split; [reflexivity|]. split; [intros n0; split; [lia|reflexivity]|].
      intros n0. cbn [with_s s_s]. rewrite A5. unfold fees_out, coins_out, coins_in, sum. cbn [fold_right]. destruct (bytes_eqb own n0); unfold only; lia. }
    apply books_sendMessage in F7 as (new & G); [|lia|reflexivity|apply (bk_sound _ _ _ _ _ G1), SO].
    eexists. eapply books_conv; [eapply books_trans; [exact G1|exact G]|lia|reflexivity].
  - destruct (bytes_eqb type (str "Response")); [bnd E c F1; eapply books_handleResponse, E|].
    destruct (bytes_eqb type (str "Link")); [bnd E a F1; bnd E m F2; same E; eexists; apply books_m, fewer_fnn; eapply fewer_addReachable, F2|].
    destruct (bytes_eqb type (str "Unlink")); [bnd E a F1; bnd E m F2; same E; eexists; apply books_m, fewer_fnn; eapply fewer_removeReachable, F2|].
    destruct (bytes_eqb type (str "Init")); [bnd E a F1; bnd E m F2; same E; eexists; apply books_m, fewer_fnn; eapply fewer_addReachables, F2|discriminate].
Qed.
Definition cclaim (c : bshcall) : Z := match c with BMessage _ _ _ b => bclaim b | _ => 0 end.
Definition cbytes (c : bshcall) : Prop := match c with BMessage _ _ _ b => bytes_ok b | _ => True end.
Lemma bclaim_nonneg : forall b, bytes_ok b -> 0 <= bclaim b.
Proof.
  intros b B. unfold bclaim. destruct (decodeBMCMessage junk b) as [[t p]|] eqn:E; [|lia]. destruct (bytes_eqb t (str "Claim")); [|lia].
  destruct (decodeResponseMessage junk p) as [[c u]|] eqn:F; [|lia]. eapply decodeResponse_ok; [exact J| |exact F]. eapply decodeBMC_ok; eassumption.
Qed.
Lemma cclaim_nonneg : forall c, cbytes c -> 0 <= cclaim c.
Proof. intros [] B; cbn [cclaim cbytes] in *; [apply bclaim_nonneg, B|lia]. Qed.
Lemma books_service : forall s a c s', sound s -> cbytes c -> call_service own self mgmt svcaddr junk serve blame s a c = Some (inl s') -> exists new, books (cclaim c) (fun _ => 0) s new s'.
Proof.
  intros s a c s' SO B E. unfold call_service in E. destruct (a =? svcaddr) eqn:EA.
  - destruct c.
    + destruct (internalMessage _ _ _ _ _ _ _ _) eqn:F; [|discriminate]. injection E as ->. eapply books_internal; eassumption.
    + destruct (internalError _ _ _) eqn:F; [|discriminate]. injection E as ->. eapply books_handleResponse, F.
  - destruct (_ || _); [discriminate|]. destruct (serve _ _ _) eqn:ES; try discriminate. destruct (run_calls _ _ _ _ _ _) eqn:F; [|discriminate]. injection E as ->.
    apply books_calls in F as (new & G); [|lia|eapply SV, ES|exact SO]. exists new. eapply books_conv; [exact G|apply cclaim_nonneg, B|reflexivity].
Qed.
Lemma books_handleMessage : forall s m s' e, sound s -> bytes_ok (m_body m) -> bytes_eqb (m_dst m) own = true -> handleMessage s m = Some (s', e) ->
  exists new, books (claim_in own junk m) (fun _ => 0) s new s' /\ (fst e <> ECODE_NONE -> s' = s).
Proof.
  intros s m s' e SO B D E. unfold M_SBmc.handleMessage in E. cbv zeta in E. bnd E sn F1.
  assert (R : s' = s -> exists new, books (claim_in own junk m) (fun _ => 0) s new s' /\ (fst e <> ECODE_NONE -> s' = s)).
  { intros ->. exists []. split; [|auto]. eapply books_conv; [apply books_refl|apply claim_in_nonneg; assumption|reflexivity]. }
  destruct (if bytes_eqb (m_svc m) BMC_SERVICE then Some svcaddr else _) as [a|]; [|apply R; congruence].
  assert (HC : forall c, cbytes c -> cclaim c <= claim_in own junk m -> sbind (call_service own self mgmt svcaddr junk serve blame s a c) (fun r => Some (match r with inl s' => (s', (ECODE_NONE, [])) | inr reason => (s, (if bytes_eqb (m_svc m) BMC_SERVICE then ECODE_UNKNOWN else ECODE_BSH_REVERT, reason)) end)) = Some (s', e) ->
    exists new, books (claim_in own junk m) (fun _ => 0) s new s' /\ (fst e <> ECODE_NONE -> s' = s)).
  { intros c CB CC E2. bnd E2 r F2. destruct r as [s1|t]; [|apply R; congruence]. injection E2 as -> <-. apply books_service in F2 as (new & G); [|exact SO|exact CB]. exists new. split; [eapply books_conv; [exact G|exact CC|reflexivity]|]. intros X. exfalso. apply X. reflexivity. }
  destruct (0 <=? m_sn m) eqn:SN; [refine (HC _ _ _ E); [exact B|cbn [cclaim]; unfold claim_in; rewrite D, SN; cbn [andb]; apply Z.le_refl]|]. destruct (decodeResponseMessage junk (m_body m)) as [[code t]|]; [|apply R; congruence]. bnd E k F2. refine (HC _ _ _ E); [exact I|]. apply claim_in_nonneg; assumption.
Qed.
Lemma books_sendError : forall s prev seq m code reason s', nn (f_vals (m_fee m)) -> sendError s prev seq m code reason = Some s' -> exists new, books 0 (fun n => - worth n (m_fee m)) s new s'.
Proof.
  intros s prev seq m code reason s' N E. unfold M_SBmc.sendError in E. bnd E y F1. destruct y as [x f]. cbv zeta in E. cbn [with_fee m_sn m_nsn m_src m_svc m_fee fst snd] in E. unfold handleErrorFee in F1. destruct (0 <? m_sn m) eqn:S.
  - assert (W : x = s_s s /\ forall n, worth n f = worth n (m_fee m)).
    { cbv zeta in F1. destruct (_ && _)%nat in F1; injection F1 as <- <-; [|auto]. split; [reflexivity|]. intros n. unfold worth. cbn [f_net f_vals]. f_equal. rewrite total_app, Z.add_comm, <- total_app, firstn_skipn. reflexivity. }
    destruct W as [-> W]. bnd E a F2. bnd E b F3. bnd E c F4. apply books_send in E as (new & G). exists new. replace (with_s s (s_s s)) with s in G by (destruct s; reflexivity). eapply books_conv; [exact G|lia|]. intros n. cbn [m_fee]. rewrite W. reflexivity.
  - bnd E s1 F2. apply event_some in F2. bnd E b F3. same E. subst s1. eexists. eapply books_conv.
    + eapply books_trans; [|apply books_plain; exact I]. eapply books_trans; [|apply books_plain; exact I]. apply (books_ser (fun n => - worth n (m_fee m))). intros [A B C]. apply (collectRemain_owed own _ _ _ _ _ _ N F1) in B as (B1 & _ & B2). split; [exact B1|]. intros n. rewrite B2. lia.
    + lia.
    + intros n. cbv beta. lia.
Qed.
(** One message. *)
Lemma books_one : forall s c prev seq b x m' s', sound s -> bytes_ok b -> handleFee own self junk (s_s s) c b = Some (x, m') -> dispatch (with_s s x) prev seq m' = Some s' ->
  exists m new, decodeBTPMessage junk b = Some m /\ books (claim_in own junk m) (fun n => - fee_in n m) s new s'.
Proof.
  intros s c prev seq b x m' s' SO B F E. unfold handleFee in F. bnd F m D. exists m. destruct (decodeBTP_ok junk J b m B D) as [MB MN]. bnd F y F1. destruct y as [x1 f1]. cbv zeta in F. cbn [with_fee m_dst m_sn m_src m_svc m_nsn m_fee] in F.
  destruct SO as [SO1 SO2 SO3]. destruct (accumulate_owed own _ _ _ _ _ _ MN F1 SO2) as (S1 & N1 & W1).
  assert (CI : forall m2, m_dst m2 = m_dst m -> m_sn m2 = m_sn m -> m_body m2 = m_body m -> claim_in own junk m2 = claim_in own junk m) by (intros m2 H1 H2 H3; unfold claim_in; rewrite H1, H2, H3; reflexivity).
  pose proof (claim_in_nonneg own junk m J MB) as CN. destruct (bytes_eqb (m_dst m) own) eqn:DO.
  - destruct (0 <? m_sn m) eqn:S.
    + bnd F y F2. destruct y as [x2 f2]. cbn [fst] in F. injection F as <- <-. pose proof (response_nn own _ _ (m_src m, m_svc m, m_sn m) S1) as RN.
      pose proof (collectRemainFee_resp _ _ _ _ _ F2) as [R1 R2]. destruct (collectRemain_owed own _ _ _ _ _ _ RN F2 S1) as (S2 & _ & W2). destruct (putResponse_owed own x2 (m_src m, m_svc m, m_sn m) (Resp (m_nsn m) f1) _ N1 S2) as [S3 W3].
      assert (RA : response_at x2 (m_src m, m_svc m, m_sn m) = response_at x1 (m_src m, m_svc m, m_sn m)) by (unfold response_at; rewrite R1; reflexivity). rewrite RA in W3. cbn [p_fee] in W3.
      match type of E with M_SBmc.dispatch _ _ _ _ _ _ _ ?S0 _ _ _ = _ => set (s0 := S0) in * end.
      assert (G0 : books 0 (fun n => - fee_in n m) s [] s0). { apply books_ser. intros _. split; [exact S3|]. intros n. rewrite W3, W2. specialize (W1 n). unfold fee_in. unfold worth in *. lia. }
      assert (SO0 : sound s0) by (apply (bk_sound _ _ _ _ _ G0); constructor; assumption).
      unfold M_SBmc.dispatch in E. cbn [m_dst with_fee] in E. rewrite DO in E. bnd E y F3. destruct y as [s1 e]. apply books_handleMessage in F3 as (n1 & G1 & KE); [|exact SO0|exact MB|exact DO]. rewrite (CI (with_fee m f1) eq_refl eq_refl eq_refl) in G1.
      destruct (fst e =? ECODE_NONE) eqn:EC.
      * apply event_some in E. subst s'. eexists. split; [exact D|]. eapply books_conv; [eapply books_trans; [exact G0|eapply books_trans; [exact G1|apply books_plain; exact I]]|lia|]. intros n. cbv beta. lia.
      * rewrite (KE ltac:(lia)) in *. clear G1. bnd E s2 F4. cbn [m_sn m_src m_svc with_fee] in F4. rewrite S in F4. bnd F4 y F5. destruct y as [x5 r5]. same F4. cbn [fst] in E.
        apply books_sendError in E as (n2 & G2); [|exact N1]. eexists. split; [exact D|]. eapply books_conv.
        -- eapply books_trans; [exact G0|]. eapply books_trans; [|exact G2]. apply (books_ser (fun n => worth n f1)). intros [A1 A2 A3]. destruct (removeResponse_owed own _ _ _ _ _ _ _ F5 A2) as (_ & RE & A4 & A5). split; [exact A4|]. intros n. rewrite A5, RE.
           replace (response_at (s_s s0) (m_src m, m_svc m, m_sn m)) with (Resp (m_nsn m) f1); [cbn [p_fee]; lia|]. unfold response_at. cbn [s0 with_s s_s responses]. rewrite (aput_same _ pkey_spec). reflexivity.
        -- lia.
        -- intros n. cbn [m_fee with_fee]. lia.
    + bnd F y F2. destruct y as [x2 f2]. cbn [fst snd] in F. injection F as <- <-. destruct (collectRemain_owed own _ _ _ _ _ _ N1 F2 S1) as (S2 & E2 & W2).
      match type of E with M_SBmc.dispatch _ _ _ _ _ _ _ ?S0 _ _ _ = _ => set (s0 := S0) in * end.
      assert (G0 : books 0 (fun n => - fee_in n m) s [] s0). { apply books_ser. intros _. split; [exact S2|]. intros n. rewrite W2. specialize (W1 n). unfold fee_in. unfold worth in *. lia. }
      assert (SO0 : sound s0) by (apply (bk_sound _ _ _ _ _ G0); constructor; assumption).
      unfold M_SBmc.dispatch in E. cbn [m_dst with_fee] in E. rewrite DO in E. bnd E y F3. destruct y as [s1 e]. apply books_handleMessage in F3 as (n1 & G1 & KE); [|exact SO0|exact MB|exact DO]. rewrite (CI (with_fee (with_fee m f1) f2) eq_refl eq_refl eq_refl) in G1.
      destruct (fst e =? ECODE_NONE) eqn:EC.
      * apply event_some in E. subst s'. eexists. split; [exact D|]. eapply books_conv; [eapply books_trans; [exact G0|eapply books_trans; [exact G1|apply books_plain; exact I]]|lia|]. intros n. cbv beta. lia.
      * rewrite (KE ltac:(lia)) in *. clear G1. bnd E s2 F4. cbn [m_sn with_fee] in F4. rewrite S in F4. same F4. apply books_sendError in E as (n2 & G2); [|cbn [m_fee with_fee]; rewrite E2; constructor]. eexists. split; [exact D|]. eapply books_conv.
        -- eapply books_trans; [exact G0|exact G2].
        -- lia.
        -- intros n. cbn [m_fee with_fee]. rewrite E2. unfold worth. cbn [f_vals f_net]. unfold total. cbn [fold_right]. destruct (bytes_eqb (f_net f1) n); unfold only; lia.
  - injection F as <- <-. match type of E with M_SBmc.dispatch _ _ _ _ _ _ _ ?S0 _ _ _ = _ => set (s0 := S0) in * end.
    assert (G0 : books 0 (fun n => worth n f1 - fee_in n m) s [] s0). { apply books_ser. intros _. split; [exact S1|]. intros n. specialize (W1 n). unfold fee_in. unfold worth in *. lia. }
    assert (X : exists new, books 0 (fun n => - worth n f1) s0 new s').
    { unfold M_SBmc.dispatch in E. cbn [m_dst with_fee] in E. rewrite DO in E. destruct (resolveNext _ _) as [next|]; [apply books_send in E; exact E|]. apply books_sendError in E; [exact E|exact N1]. }
    destruct X as (new & G). eexists. split; [exact D|]. eapply books_conv; [eapply books_trans; [exact G0|exact G]|lia|]. intros n. cbv beta. lia.
Qed.
Lemma books_sound : forall cb h s new s', books cb h s new s' -> sound s -> sound s'.
Proof. intros cb h s new s' [_ B] S. apply B, S. Qed.
Lemma books_all : forall bs s c prev rx s', sound s -> Forall bytes_ok bs -> dispatch_all s c prev rx bs = Some s' ->
  exists ms new, Forall2 (fun b m => decodeBTPMessage junk b = Some m) bs ms /\ books (claims_in own junk ms) (fun n => - fees_in n ms) s new s'.
Proof.
  induction bs as [|b bs IH]; intros s c prev rx s' SO B E; cbn [M_SBmc.dispatch_all] in E.
  - assert (s' = s) by congruence. subst. exists [], []. split; [constructor|apply books_refl].
  - inversion B as [|? ? B1 B2]; subst. bnd E y F1. bnd E s1 F2. destruct y as [x m']. cbn [fst snd] in F2. destruct (books_one _ _ _ _ _ _ _ _ SO B1 F1 F2) as (m & n1 & D & G). apply IH in E as (ms & n2 & FD & G2); [|eapply books_sound; eassumption|exact B2].
    exists (m :: ms), (n1 ++ n2). split; [constructor; assumption|]. eapply books_conv; [eapply books_trans; [exact G|exact G2]|apply Z.le_refl|]. intros n. unfold fees_in. rewrite sum_cons. lia.
Qed.
Lemma sendWithFee_req : forall s internal v to svc sn b f s' n, sendWithFee own self s internal v to svc sn b false f = Some (s', n) ->
  requests (s_s s') = requests (s_s s) /\ n = nsn_of (s_p s) + 1 /\ nsn_of (s_p s') = n.
Proof.
  intros s internal v to svc sn b f s' n E. unfold sendWithFee in E. bnd E next F1. cbv zeta in E. destruct internal.
  - bnd E s2 F5. injection E as <- <-. apply send_some in F5 as [_ ->]. auto.
  - bnd E y F2. chk E F3. bnd E s1 F4. bnd E s2 F5. injection E as <- <-. apply collectOverFee_resp in F4 as (x & -> & R1 & R2). apply send_some in F5 as [_ ->]. split; [exact R2|]. auto.
Qed.
Lemma books_claim : forall s c v net r s', sound s -> 0 <= v -> c <> svcaddr -> claimReward own self svcaddr accepts s c v net r = Some s' -> exists new, books 0 (fun n => only (bytes_eqb own n) (only (bytes_eqb own net) v)) s new s'.
Proof.
  intros s c v net r s' SO V NC E. unfold claimReward in E. cbv zeta in E. bnd E y F1. destruct y as [x w]. cbn [fst snd] in E. destruct (clearReward_owed own _ _ _ _ _ _ F1 (so_ser _ SO)) as (WN & S1 & W1).
  assert (G0 : books 0 (fun n => only (bytes_eqb net n) w) s [] (with_s s x)) by (apply books_ser; intros _; split; [exact S1|]; intros n; rewrite W1; lia).
  destruct (bytes_eqb own net) eqn:ON.
  - apply bytes_eqb_spec in ON. bnd E a F2. chk E F3. same E. eexists. eapply books_conv.
    + eapply books_trans; [exact G0|]. eapply books_trans; [|apply books_plain; exact I]. eapply books_trans; [|apply (books_emit (fun n => - only (bytes_eqb own n) w)); [reflexivity|]]; [apply (books_emit (fun n => only (bytes_eqb own n) v)); [reflexivity|]|];
        intros n; unfold coins_in, coins_out, fees_out, sum; cbn [fold_right]; destruct (bytes_eqb own n); unfold only; lia.
    + lia.
    + intros n. cbv beta. replace (bytes_eqb net n) with (bytes_eqb own n) by (f_equal; exact ON). destruct (bytes_eqb own n); unfold only; lia.
  - bnd E b F2. bnd E b2 F3. bnd E z F4. destruct z as [s1 n]. same E. pose proof (sendWithFee_req _ _ _ _ _ _ _ _ _ _ F4) as (R1 & R2 & R3). apply books_sendWithFee in F4 as (new & G); [|exact V|intros X; lia|eapply books_sound; [exact G0|exact SO]].
    eexists. eapply books_conv.
    + eapply books_trans; [exact G0|]. eapply books_trans; [exact G|]. eapply books_trans; [|apply books_plain; exact I]. eapply books_trans; [|apply (books_emit (fun n => only (bytes_eqb own n) v)); [reflexivity|]].
      * apply (books_ser (fun n => - only (bytes_eqb net n) w)). intros [A1 A2 A3]. set (who := if c =? fee_handler (s_m s) then self else c).
        assert (D : q_dst (Request net who w) <> own) by (cbn [q_dst]; intros X; rewrite X, bytes_eqb_refl in ON; discriminate).
        assert (L : Forall (fun kv => fst kv < n) (requests (s_s s1))).
        { rewrite R1. cbn [with_s s_s]. cbn [with_s s_p] in R2. eapply Forall_impl; [|exact (ss_req _ _ _ S1)]. cbv beta. intros kv (X & _). lia. }
        rewrite R3 in *. pose proof (addRequest_owed own (s_s s1) n (Request net who w) L D WN A2) as H.
        destruct H as [H1 H2]. split; [exact H1|]. intros n0. rewrite H2. cbn [q_dst q_amount]. lia.
      * intros n0. unfold coins_in, coins_out, fees_out, sum. cbn [fold_right]. destruct (bytes_eqb own n0); unfold only; lia.
    + lia.
    + intros n0. cbv beta. destruct (bytes_eqb own n0); unfold only; lia.
Qed.
Lemma books_sendInternal : forall s k b s', sendInternal own s k b = Some s' -> exists new, books 0 (fun _ => 0) s new s'.
Proof.
  intros s k b s' E. unfold sendInternal in E. bnd E net F. cbv zeta in E. apply books_send in E as (new & G). eexists. eapply books_conv; [eapply books_trans; [|exact G]; apply books_p; cbn [nsn_of]; lia|lia|].
  intros n. cbn [m_fee]. unfold worth. cbn [f_vals f_net]. unfold total. cbn [fold_right]. destruct (bytes_eqb own n); reflexivity.
Qed.
Lemma books_propagate : forall l s b s', propagate own s l b = Some s' -> exists new, books 0 (fun _ => 0) s new s'.
Proof.
  induction l as [|k l IH]; intros s b s' E; cbn [propagate] in E; [assert (s' = s) by congruence; subst; exists []; apply books_refl|].
  bnd E s1 F. apply books_sendInternal in F as (n1 & G1). apply IH in E as (n2 & G2). eexists. eapply books_conv; [eapply books_trans; eassumption|lia|reflexivity].
Qed.
Hypothesis VB : forall k v p n b bs, bytes_ok b -> verify k v p n b = Some bs -> Forall bytes_ok bs.
Lemma books_step : forall s o s', sound s -> unsigned o -> caller_of o <> self /\ caller_of o <> mgmt /\ caller_of o <> svcaddr -> exec s o = Some s' ->
  exists new, books (claims_in own junk (taken s o)) (fun n => only (bytes_eqb own n) (given own o) - fees_in n (taken s o)) s new s'.
Proof.
  intros s o s' SO U OUT E.
  assert (Z0 : forall n, 0 = only (bytes_eqb own n) 0 - fees_in n []) by (intros n; unfold fees_in, sum; cbn [fold_right]; destruct (bytes_eqb own n); reflexivity).
  assert (K : forall m, (fnn (s_m s) -> fnn m) -> exists new, books 0 (fun n => only (bytes_eqb own n) 0 - fees_in n []) s new (with_m s m)) by (intros m L; exists []; eapply books_conv; [apply books_m, L|lia|exact Z0]).
  destruct o; cbn [M_SBmc.exec] in E; cbn [S_SBmc.taken given unsigned caller_of] in *; change (claims_in own junk []) with 0.
  - unfold handleRelay in E. bnd E net F1. cbv zeta in E. bnd E v F2. bnd E bs F3. bnd E b F4. chk E H1. bnd E s1 F5. same E.
    apply books_all in F5 as (ms & new & FD & G); [|exact SO|eapply VB; eassumption]. unfold getVerifier in F2. chk F2 HV. same F2. rewrite F1, F3.
    replace (flat_map _ bs) with ms; [|clear -FD; induction FD as [|b m bs ms D FD IH]; [reflexivity|]; cbn [flat_map]; rewrite D, <- IH; reflexivity].
    eexists. eapply books_conv; [eapply books_trans; [exact G|apply books_p; cbn [nsn_of]; lia]|lia|]. intros n. destruct (bytes_eqb own n); unfold only; lia.
  - bnd E y F. destruct y as [s1 n]. same E. apply books_sendMessage in F as (new & G); [|exact U|tauto|exact SO]. exists new. eapply books_conv; [exact G|lia|exact Z0].
  - apply books_claim in E as (new & G); [|exact SO|exact U|tauto]. exists new. eapply books_conv; [exact G|lia|]. intros n. change (fees_in n []) with 0. cbv beta. apply eq_sym, Z.sub_0_r.
  - same E. eexists. eapply books_conv; [apply (books_emit (fun n => only (bytes_eqb own n) value)); [reflexivity|]|lia|]; intros n; unfold fees_in, coins_in, coins_out, fees_out, sum; cbn [fold_right]; destruct (bytes_eqb own n); unfold only; lia.
  - apply admin_some in E as (_ & m & E & ->). chk E H. same E. apply K. auto.
  - apply admin_some in E as (_ & m & E & ->). chk E H. same E. apply K. auto.
  - apply admin_some in E as (_ & m & E & ->). chk E H. same E. apply K. auto.
  - apply admin_some in E as (_ & m & E & ->). chk E H. bnd E l F. same E. apply K. auto.
  - apply admin_some in E as (_ & m & E & ->). chk E H. same E. apply K. auto.
  - apply admin_some in E as (_ & m & E & ->). chk E H. bnd E l F. same E. apply K. auto.
  - apply owner_some in E as [_ E]. unfold addLink in E. cbv zeta in E. bnd E net F1. chk E H1. chk E H2. bnd E p F2. bnd E b F3. bnd E s1 F4. bnd E i F5. bnd E b2 F6.
    apply books_propagate in F4 as (n1 & G1). apply books_sendInternal in E as (n2 & G2). eexists. eapply books_conv; [eapply books_trans; [exact G1|]; eapply books_trans; [|exact G2]; apply books_m|lia|exact Z0].
    apply fewer_fnn, fewer_same. rewrite fees_addRouteInfo. reflexivity.
  - apply owner_some in E as [_ E]. unfold removeLink in E. cbv zeta in E. chk E H1. chk E H2. bnd E net F1. bnd E m1 F2. bnd E l F3. bnd E m2 F4. bnd E p F5. bnd E b F6. apply books_propagate in E as (new & G).
    set (m3 := set_relays _ _) in G. exists ([] ++ [] ++ new). eapply books_conv; [apply (books_trans 0 0 (fun _ => 0) (fun _ => 0) s [] (with_m s m3) ([] ++ new) s'); [apply books_m|]|lia|exact Z0].
    + apply fewer_fnn. apply fewer_removeRouteInfo in F2. apply fewer_removeReached in F4. eapply fewer_trans; [exact F2|]. eapply fewer_trans; [exact F4|]. apply fewer_same. reflexivity.
    + eapply books_conv; [apply (books_trans 0 0 (fun _ => 0) (fun _ => 0) (with_m s m3) [] (with_p (with_m s m3) (Per (tset (tx_of (s_p s)) link 0) (tset (rx_of (s_p s)) link 0) (nsn_of (s_p s)))) new s')|lia|reflexivity].
      * apply books_p. cbn [with_m s_p nsn_of]. apply Z.le_refl.
      * exact G.
  - apply admin_some in E as (_ & m & E & ->). chk E H. same E. apply K. auto.
  - apply admin_some in E as (_ & m & E & ->). chk E H. bnd E l F. same E. apply K. auto.
  - apply admin_some in E as (_ & m & E & ->). chk E H. same E. apply K. apply fewer_fnn, fewer_same, fees_addRouteInfo.
  - apply admin_some in E as (_ & m & E & ->). chk E H. apply fewer_removeRouteInfo in E. apply K, fewer_fnn, E.
  - apply admin_some in E as (_ & m & E & ->). apply K. intros N. eapply fnn_setFeeTable; eassumption.
  - apply admin_some in E as (_ & m & E & ->). same E. apply K. auto.
  - apply owner_some in E as [_ E]. unfold dropMessage in E. bnd E next F1. chk E H1. chk E H2. bnd E y F2. destruct y as [x f]. unfold p_dropMessage in E. chk E H3. destruct (accumulate_owed own _ _ (Fee fnet fvals) _ _ _ U F2 (so_ser _ SO)) as (S1 & N1 & W1).
    apply books_sendError in E as (new & G); [|exact N1]. eexists. eapply books_conv.
    + eapply books_trans; [|exact G]. eapply books_trans; [apply (books_ser (fun n => worth n f - worth n (Fee fnet fvals)))|apply books_p; cbn [nsn_of]; apply Z.le_refl]. intros _. split; [exact S1|]. intros n. specialize (W1 n). cbn [fst]. lia.
    + unfold claims_in, sum. cbn [fold_right]. match goal with |- _ <= claim_in _ _ ?M + 0 => assert (CN := claim_in_nonneg own junk M J (Forall_nil _)) end. lia.
    + intros n. cbn [m_fee snd]. unfold fees_in, sum, fee_in. cbn [fold_right m_fee]. unfold worth. destruct (bytes_eqb own n); unfold only; lia.
  - destruct (Z.eqb_spec caller (inner_caller self mgmt svcaddr i)) as [X|X]; [|discriminate]. exfalso. subst caller. destruct i; cbn [inner_caller] in OUT; tauto.
Qed.

(** Coins given for nothing over a history. *)
Fixpoint gifts (s : st) (ops : list op) : Z :=
  match ops with [] => 0 | o :: r => (match exec s o with Some _ => given own o | None => 0 end) + gifts (step s o) r end.
Lemma books_run : forall ops s, sound s -> outside ops -> Forall unsigned ops ->
  exists new, books (claims_in own junk (arrivals s ops)) (fun n => only (bytes_eqb own n) (gifts s ops) - fees_in n (arrivals s ops)) s new (fold_left step ops s).
Proof.
  induction ops as [|o ops IH]; intros s SO OUT U; cbn [T_SBmc4.arrivals gifts fold_left].
  - exists []. eapply books_conv; [apply books_refl|apply Z.le_refl|]. intros n. unfold fees_in, sum. cbn [fold_right]. destruct (bytes_eqb own n); reflexivity.
  - apply Forall_cons_iff in OUT as [O1 O2]. apply Forall_cons_iff in U as [U1 U2].
    assert (X : exists n1, books (claims_in own junk (match exec s o with Some _ => taken s o | None => [] end)) (fun n => only (bytes_eqb own n) (match exec s o with Some _ => given own o | None => 0 end) - fees_in n (match exec s o with Some _ => taken s o | None => [] end)) s n1 (step s o)).
    { unfold M_SBmc.step. destruct (exec s o) as [s1|] eqn:E; [apply (books_step s o s1 SO U1 O1 E)|]. exists []. eapply books_conv; [apply books_refl|apply Z.le_refl|]. intros n. unfold fees_in, sum. cbn [fold_right]. destruct (bytes_eqb own n); reflexivity. }
    destruct X as (n1 & G1). destruct (IH (step s o)) as (n2 & G2); [eapply books_sound; [exact G1|exact SO]|exact O2|exact U2|]. eexists. eapply books_conv; [eapply books_trans; [exact G1|exact G2]| |].
    + unfold claims_in. rewrite sum_app. apply Z.le_refl.
    + intros n. cbv beta. unfold fees_in. rewrite sum_app, only_add. lia.
Qed.
Lemma sound_init : forall d, sound (init d).
Proof. intros d. constructor; [intros x; constructor|constructor; constructor|cbn; lia]. Qed.

(** The message center never owes more than came in: what it owes in the coins of a network - rewards, fees kept for
    answers, claims under way - is never negative and, with the fees it sent on and the coins it paid out, at most the
    fees that came with messages and, in its own coins, the coins that came with calls and the claims from other networks. *)
Theorem C79_never_owes_more : forall deployer ops n, outside ops -> Forall unsigned ops -> let s := run deployer ops in let ms := arrivals (init deployer) ops in
  0 <= owed n (s_s s) /\
  owed n (s_s s) + fees_out n (s_out s) + only (bytes_eqb own n) (coins_out (s_out s)) <= fees_in n ms + only (bytes_eqb own n) (coins_in (s_out s) + claims_in own junk ms).
Proof.
  intros deployer ops n OUT U s ms. destruct (books_run ops (init deployer) (sound_init _) OUT U) as (new & [A B]). destruct (B (sound_init _)) as (S1 & c & t & C1 & C2 & C3 & C4). fold (run deployer ops) in *. fold s in A, S1, C4. fold ms in C1, C4.
  split; [eapply owed_nonneg; apply (so_ser _ S1)|]. change (s_out (init deployer)) with (@nil out) in A. cbn [app] in A. rewrite A. specialize (C4 n). specialize (C3 n). change (owed n (s_s (init deployer))) with 0 in C4.
  assert (0 <= gifts (init deployer) ops). { clear -U. generalize (init deployer). induction U as [|o ops U1 U2 IH]; intros s; cbn [gifts]; [lia|]. specialize (IH (step s o)). assert (0 <= given own o) by (destruct o; cbn [given unsigned] in *; try lia; apply only_nonneg, U1). destruct (exec s o); lia. }
  cbv beta in C4. destruct (bytes_eqb own n); unfold only in *; lia.
Qed.
(** Nothing is lost: what came in is owed, was sent on or was paid out.  Exceptions are coins given for nothing, and for
    the coins of another network claims that were paid out there. *)
Theorem C79_nothing_lost : forall deployer ops n, outside ops -> Forall unsigned ops -> let s := run deployer ops in let ms := arrivals (init deployer) ops in
  n = own \/ settled n (s_out s) = false ->
  fees_in n ms + only (bytes_eqb own n) (coins_in (s_out s)) <= owed n (s_s s) + fees_out n (s_out s) + only (bytes_eqb own n) (coins_out (s_out s) + gifts (init deployer) ops).
Proof.
  intros deployer ops n OUT U s ms D. destruct (books_run ops (init deployer) (sound_init _) OUT U) as (new & [A B]). destruct (B (sound_init _)) as (S1 & c & t & C1 & C2 & C3 & C4). fold (run deployer ops) in *. fold s in A, S1, C4. fold ms in C1, C4.
  change (s_out (init deployer)) with (@nil out) in A. cbn [app] in A. rewrite A in *. specialize (C4 n). specialize (C3 n). change (owed n (s_s (init deployer))) with 0 in C4.
  assert (T : t n = 0) by (destruct D as [->|D]; [exact C2|apply C3, D]). cbv beta in C4. destruct (bytes_eqb own n); unfold only in *; lia.
Qed.
(** So it never pays out coins, nor sends on fees, it did not get. *)
Corollary C79_pays_what_it_got : forall deployer ops n, outside ops -> Forall unsigned ops -> let s := run deployer ops in let ms := arrivals (init deployer) ops in
  fees_out n (s_out s) + only (bytes_eqb own n) (coins_out (s_out s)) <= fees_in n ms + only (bytes_eqb own n) (coins_in (s_out s) + claims_in own junk ms).
Proof. intros deployer ops n OUT U s ms. destruct (C79_never_owes_more deployer ops n OUT U) as [A B]. fold s in A, B. fold ms in B. lia. Qed.
End BMC.
Print Assumptions C79_never_owes_more.
Print Assumptions C79_nothing_lost.
Print Assumptions C79_pays_what_it_got.

(** A history with fees of two networks, a claim from another network paid out, and a claim there that is done with. *)
Definition x_arr := T_SBmc4.arrivals x_own 10 11 12 x_junk x_verify x_serve x_blame x_accepts.
Definition x_gifts := gifts x_own 10 11 12 x_junk x_verify x_serve x_blame x_accepts.
Definition x_claim (amount : Z) (receiver : text) : list Z := match encodeClaimMessage amount receiver with Some c => match encodeBMCMessage (str "Claim") c with Some b => b | None => [] end | None => [] end.
Definition x_done (code : Z) : list Z := match encodeResponseMessage code [] with Some c => match encodeBMCMessage (str "Response") c with Some b => b | None => [] end | None => [] end.
Definition x_hex : text := str "0x0000000000000000000000000000000000000042".
Definition x_money : list op :=
  [SendMessage 50 20 x_icon (str "xcall") 3 (str "hello");
   HandleRelay 7 x_link (x_bytes (Msg x_icon x_own (str "xcall") 1 (str "ping") 5 (Fee x_icon [4; 3])));
   HandleRelay 7 x_link (x_bytes (Msg x_icon x_bsc3 (str "xcall") 1 (str "ping") 6 (Fee x_icon [4; 3; 2])));
   HandleRelay 7 x_link (x_bytes (Msg x_icon x_own (str "bmc") 7 (x_claim 30 x_hex) 7 (Fee x_own [])));
   ClaimReward 66 0 x_own x_hex;
   ClaimReward 7 9 x_icon (str "hx01");
   HandleRelay 7 x_link (x_bytes (Msg x_icon x_own (str "bmc") 0 (x_done 0) (- 5) (Fee x_own [])))].
Definition x_view (ops : list op) (n : text) : list Z :=
  let s := x_run 1 (x_setup ++ ops) in
  [owed n (s_s s); fees_out n (s_out s); coins_out (s_out s); fees_in n (x_arr (init 1) (x_setup ++ ops)); coins_in (s_out s); claims_in x_own x_junk (x_arr (init 1) (x_setup ++ ops)); x_gifts (init 1) (x_setup ++ ops)].
Example C79_ex_books : map (fun k => x_view (firstn k x_money) x_own) [1; 4; 5; 6; 7]%nat = [[9; 11; 0; 0; 20; 0; 0]; [39; 11; 0; 0; 20; 30; 0]; [9; 11; 30; 0; 20; 30; 0]; [13; 16; 30; 0; 29; 30; 0]; [13; 16; 30; 0; 29; 30; 0]] /\
  map (fun k => x_view (firstn k x_money) x_icon) [2; 3; 6; 7]%nat = [[4; 3; 0; 7; 20; 0; 0]; [8; 8; 0; 16; 20; 0; 0]; [8; 8; 30; 16; 29; 30; 0]; [0; 8; 30; 16; 29; 30; 0]].
Proof. split; vm_compute; reflexivity. Qed.
Lemma x_serve_values : forall k a c cs reason, x_serve k a c = Calls cs reason -> Forall (fun c => 0 <= c_value c) cs.
Proof.
  intros k a c cs reason E. unfold x_serve in E. destruct (a =? 50); [|destruct (a =? 51); [discriminate|]; destruct (a =? 52); [discriminate|]; injection E as <- _; constructor].
  destruct c as [src svc sn b|src svc sn code t]; [destruct (0 <? sn)|]; injection E as <- _; repeat constructor. cbn [c_value]. lia.
Qed.
Lemma x_verify_bytes : forall k v p n b bs, bytes_ok b -> x_verify k v p n b = Some bs -> Forall bytes_ok bs.
Proof.
  intros k v p n b bs B E. unfold x_verify in E. assert (H : bs = [] \/ bs = [b]) by (destruct b as [|x [|y b]]; [|destruct x|destruct x]; injection E as <-; auto). destruct H as [-> | ->]; [constructor|]. constructor; [exact B|constructor].
Qed.
(** The hypotheses of the theorems hold of it. *)
Example C79_ex_hyps : (forall b, mem_ok (x_junk b)) /\ outside 10 11 12 (x_setup ++ x_money) /\ forallb (fun o => match o with HandleRelay _ _ b => forallb (fun x => (0 <=? x) && (x <? 256)) b | _ => true end) (x_setup ++ x_money) = true.
Proof. split; [intros b i; unfold x_junk, is_byte; lia|]. split; [repeat constructor; discriminate|]. vm_compute. reflexivity. Qed.

(** Coins given for nothing stay for ever: those of a deposit, and those sent along with a claim of own coins, are owed to
    nobody, and every coin paid out is one that was owed. *)
Theorem C79_coins_stuck_refuted : ~ (forall own self mgmt svcaddr junk verify serve blame accepts deployer ops, (forall b, mem_ok (junk b)) -> (forall k a c cs reason, serve k a c = Calls cs reason -> Forall (fun c => 0 <= c_value c) cs) ->
  (forall k v p n b bs, bytes_ok b -> verify k v p n b = Some bs -> Forall bytes_ok bs) -> outside self mgmt svcaddr ops -> Forall unsigned ops ->
  let s := run own self mgmt svcaddr junk verify serve blame accepts deployer ops in
  fees_in own (T_SBmc4.arrivals own self mgmt svcaddr junk verify serve blame accepts (init deployer) ops) + coins_in (s_out s) <= owed own (s_s s) + fees_out own (s_out s) + coins_out (s_out s)).
Proof.
  intros H. specialize (H x_own 10 11 12 x_junk x_verify x_serve x_blame x_accepts 1 [Deposit 66 5] ltac:(intros b i; unfold x_junk, is_byte; lia) x_serve_values x_verify_bytes ltac:(repeat constructor; discriminate) ltac:(repeat constructor; cbn [unsigned]; lia)).
  cbv zeta in H. vm_compute in H. apply H. reflexivity.
Qed.
Print Assumptions C79_coins_stuck_refuted.
Example C79_ex_stuck : x_view [SendMessage 50 20 x_icon (str "xcall") 3 (str "hello"); SetFeeHandler 1 66; ClaimReward 66 7 x_own x_hex] x_own = [0; 11; 9; 0; 27; 0; 7].
Proof. vm_compute. reflexivity. Qed.
