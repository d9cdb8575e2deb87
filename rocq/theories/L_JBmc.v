(** Lemmas about the message center: how each method changes links, numbers and output. *)
From Coq Require Import String Ascii ZArith List Bool Lia.
From Coq Require Import ZifyBool.
From Verif Require Import Base L_Base M_JMap L_JMap M_JBmc S_JBmc.
Import ListNotations.
Open Scope Z_scope.

Lemma zkey : key_spec Z.eqb.
Proof. intros a b. apply Z.eqb_eq. Qed.
Lemma addr_key : key_spec addr_eqb.
Proof. intros [a1 a2] [b1 b2]. unfold addr_eqb. cbn [a_net a_acc]. rewrite andb_true_iff, !Z.eqb_eq. split; [intros [-> ->]; reflexivity|]. intros E. injection E as -> ->. auto. Qed.
Lemma zz_key : key_spec zz_eqb.
Proof. intros [a1 a2] [b1 b2]. unfold zz_eqb. cbn [fst snd]. rewrite andb_true_iff, !Z.eqb_eq. split; [intros [-> ->]; reflexivity|]. intros E. injection E as -> ->. auto. Qed.
Lemma zzz_key : key_spec zzz_eqb.
Proof. intros [[a1 a2] a3] [[b1 b2] b3]. unfold zzz_eqb. cbn [fst snd]. rewrite !andb_true_iff, !Z.eqb_eq. split; [intros [[-> ->] ->]; reflexivity|]. intros E. injection E as -> -> ->. auto. Qed.
Lemma addr_eq : forall a b, addr_eqb a b = true <-> a = b.
Proof. exact addr_key. Qed.

(** [zseq] and the observations *)
Lemma zseq_app : forall n m from, zseq from (n + m) = zseq from n ++ zseq (from + Z.of_nat n) m.
Proof.
  induction n as [|n IH]; intros m from; cbn [zseq app Nat.add]; [rewrite Z.add_0_r; reflexivity|].
  rewrite IH. f_equal. f_equal. f_equal. lia.
Qed.
Lemma sent_app : forall a x y, sent_to a (x ++ y) = sent_to a x ++ sent_to a y.
Proof. intros a x y. induction x as [|o x IH]; [reflexivity|]. cbn [app sent_to]. destruct o; try exact IH. destruct (addr_eqb a next); [cbn [app]; f_equal|]; exact IH. Qed.
Lemma started_app : forall x y, started (x ++ y) = started x ++ started y.
Proof. intros x y. induction x as [|o x IH]; [reflexivity|]. cbn [app started]. destruct o; try exact IH. destruct e; try exact IH. cbn [app]. f_equal. exact IH. Qed.

(** the invariant of the storage *)
Definition wf (s : st) : Prop :=
  0 <= s_nsn s /\
  (forall n l, aget Z.eqb n (s_links s) = Some l -> a_net (l_addr l) = n) /\
  NoDup (map fst (s_links s)) /\ NoDup (map fst (s_resp s)) /\ NoDup (map fst (s_requests s)) /\
  (forall n q, aget Z.eqb n (s_requests s) = Some q -> n <= s_nsn s).

(** The same administration. *)
Definition same_admin (s s' : st) : Prop :=
  s_owners s' = s_owners s /\ s_verifiers s' = s_verifiers s /\ s_services s' = s_services s /\ s_routes s' = s_routes s /\ s_relays s' = s_relays s /\
  s_netids s' = s_netids s /\ s_offsets s' = s_offsets s /\ s_fees s' = s_fees s /\ s_handler s' = s_handler s.

(** [grow s new s']: from s to s' the contract put out [new]; links keep their peer and what was received, and
    number what is sent to them consecutively; new numbers are consecutive. *)
Definition link_grow (s : st) (new : list out) (s' : st) (n : Z) (l : link) : Prop :=
  exists l', aget Z.eqb n (s_links s') = Some l' /\ l_addr l' = l_addr l /\ l_rx l' = l_rx l /\
    l_tx l' = l_tx l + zlen (sent_to (l_addr l) new) /\ sent_to (l_addr l) new = zseq (l_tx l + 1) (length (sent_to (l_addr l) new)).
Definition grow (s : st) (new : list out) (s' : st) : Prop :=
  wf s -> wf s' /\ s_out s' = s_out s ++ new /\ same_admin s s' /\
  (forall n, aget Z.eqb n (s_links s) = None -> aget Z.eqb n (s_links s') = None) /\
  (forall n l, aget Z.eqb n (s_links s) = Some l -> link_grow s new s' n l) /\
  s_nsn s' = s_nsn s + zlen (started new) /\ started new = zseq (s_nsn s + 1) (length (started new)).

Lemma admin_refl : forall s, same_admin s s.
Proof. intros s. repeat split. Qed.
Lemma admin_trans : forall a b c, same_admin a b -> same_admin b c -> same_admin a c.
Proof. intros a b c (A1 & A2 & A3 & A4 & A5 & A6 & A7 & A8 & A9) (B1 & B2 & B3 & B4 & B5 & B6 & B7 & B8 & B9). repeat split; congruence. Qed.

Lemma grow_refl : forall s, grow s [] s.
Proof.
  intros s W. split; [exact W|]. rewrite app_nil_r. split; [reflexivity|]. split; [apply admin_refl|]. split; [auto|]. split.
  - intros n l E. exists l. cbn [sent_to]. unfold zlen. cbn [length zseq]. rewrite Z.add_0_r. repeat split. exact E.
  - cbn [started]. unfold zlen. cbn [length zseq]. split; [lia|reflexivity].
Qed.
Lemma grow_trans : forall s1 n1 s2 n2 s3, grow s1 n1 s2 -> grow s2 n2 s3 -> grow s1 (n1 ++ n2) s3.
Proof.
  intros s1 n1 s2 n2 s3 H1 H2 W1. destruct (H1 W1) as (W2 & O1 & A1 & N1 & L1 & S1 & Q1). destruct (H2 W2) as (W3 & O2 & A2 & N2 & L2 & S2 & Q2).
  split; [exact W3|]. split; [rewrite O2, O1, app_assoc; reflexivity|]. split; [eapply admin_trans; eassumption|]. split; [intros n E; apply N2, N1, E|]. split.
  - intros n l E. destruct (L1 n l E) as (l2 & E2 & X1 & X2 & X3 & X4). destruct (L2 n l2 E2) as (l3 & E3 & Y1 & Y2 & Y3 & Y4).
    exists l3. rewrite X1 in *. rewrite sent_app. unfold zlen in *. rewrite app_length. split; [exact E3|]. split; [congruence|]. split; [congruence|]. split; [lia|].
    rewrite zseq_app, <- X4. f_equal. rewrite Y4 at 1. f_equal. lia.
  - rewrite started_app. unfold zlen in *. rewrite app_length. split; [lia|]. rewrite zseq_app, <- Q1. f_equal. rewrite Q2 at 1. f_equal. lia.
Qed.

Lemma grow_pre : forall s1 s2 n s3, grow s1 [] s2 -> grow s2 n s3 -> grow s1 n s3.
Proof. intros s1 s2 n s3 H1 H2. exact (grow_trans s1 [] s2 n s3 H1 H2). Qed.
(** a change of rewards *)
Lemma grow_rewards : forall s x, grow s [] (set_rewards s x).
Proof. intros s x W. exact (grow_refl s W). Qed.
Lemma grow_addReward : forall s a n v, grow s [] (addReward s a n v).
Proof. intros s a n v. unfold addReward. destruct (0 <? v); [apply grow_rewards|apply grow_refl]. Qed.
Lemma addReward_keeps : forall s a n v, s_nsn (addReward s a n v) = s_nsn s /\ s_links (addReward s a n v) = s_links s /\ s_resp (addReward s a n v) = s_resp s /\
  s_requests (addReward s a n v) = s_requests s /\ s_out (addReward s a n v) = s_out s /\ s_fees (addReward s a n v) = s_fees s.
Proof. intros s a n v. unfold addReward. destruct (0 <? v); repeat split. Qed.
Lemma grow_collect : forall self s f, grow s [] (collect self s f).
Proof. intros self s [[n [|v vs]]|]; cbn [collect]; try apply grow_refl. unfold collectNet. apply grow_addReward. Qed.
Lemma wf_resp : forall s x, wf s -> NoDup (map fst x) -> wf (set_resp s x).
Proof. intros s x (W1 & W2 & W3 & W4 & W5 & W6) ND. repeat split; assumption. Qed.
Lemma grow_resp : forall s x, (wf s -> NoDup (map fst x)) -> grow s [] (set_resp s x).
Proof. intros s x HX W. pose proof (grow_refl s W) as (_ & G). split; [apply wf_resp; auto|]. exact G. Qed.
Lemma grow_resp_del : forall s k, grow s [] (set_resp s (adel zzz_eqb k (s_resp s))).
Proof. intros s k. apply grow_resp. intros (W1 & W2 & W3 & W4 & W5 & W6). apply adel_nodup; [apply zzz_key|exact W4]. Qed.
Lemma grow_resp_put : forall s k v, grow s [] (set_resp s (aput zzz_eqb k v (s_resp s))).
Proof. intros s k v. apply grow_resp. intros (W1 & W2 & W3 & W4 & W5 & W6). apply aput_nodup; [apply zzz_key|exact W4]. Qed.
Lemma grow_requests_del : forall s k, grow s [] (set_requests s (adel Z.eqb k (s_requests s))).
Proof.
  intros s k W. pose proof (grow_refl s W) as (_ & G). split; [|exact G]. destruct W as (W1 & W2 & W3 & W4 & W5 & W6).
  repeat split; try assumption; [apply adel_nodup; [apply zkey|exact W5]|]. intros n q E. change (s_nsn (set_requests s (adel Z.eqb k (s_requests s)))) with (s_nsn s).
  cbn [set_requests s_requests] in E. destruct (Z.eq_dec n k) as [->|N]; [rewrite (adel_same _ zkey) in E by exact W5; discriminate|].
  rewrite (adel_other _ zkey) in E by assumption. apply (W6 n q E).
Qed.
(** an output that is neither a message nor the start of one *)
Lemma grow_emit : forall s o, (forall a, sent_to a [o] = []) -> started [o] = [] -> grow s [o] (emit s o).
Proof.
  intros s o HS HT W. split; [destruct W as (W1 & W2 & W3 & W4 & W5 & W6); repeat split; assumption|]. split; [reflexivity|]. split; [repeat split|]. split; [auto|]. split.
  - intros n l E. exists l. rewrite HS. unfold zlen. cbn [length zseq]. rewrite Z.add_0_r. repeat split. exact E.
  - rewrite HT. unfold zlen. cbn [length zseq]. rewrite Z.add_0_r. split; reflexivity.
Qed.
Definition ev_of (m : msg) (next : option addr) (e : ev) : out := OEvent (fst (msg_id m)) (snd (msg_id m)) next e.
Lemma event_eq : forall s m next e, event s m next e = emit s (ev_of m next e).
Proof. intros s m next e. unfold event, ev_of, msg_id. destruct (m_nsn m <? 0); reflexivity. Qed.
Lemma grow_event : forall s m next e, e <> SEND -> grow s [ev_of m next e] (event s m next e).
Proof. intros s m next e NE. rewrite event_eq. apply grow_emit; [reflexivity|]. unfold ev_of. cbn [started]. destruct e; congruence. Qed.

(** links *)
Lemma getLink_some : forall s a l, getLink s a = Some l -> aget Z.eqb (a_net a) (s_links s) = Some l /\ l_addr l = a.
Proof.
  intros s a l E. unfold getLink in E. destruct (aget Z.eqb (a_net a) (s_links s)) as [k|]; [|discriminate].
  destruct (addr_eqb (l_addr k) a) eqn:EA; [|discriminate]. injection E as <-. split; [reflexivity|]. apply addr_key, EA.
Qed.
Lemma aput_back : forall (l : list (Z * link)) n k1 k2, aget Z.eqb n l = Some k1 -> aput Z.eqb n k1 (aput Z.eqb n k2 l) = l.
Proof.
  intros l n k1 k2. induction l as [|[m k] l IH]; cbn [aget aput]; intros E; [discriminate|]. destruct (Z.eqb n m) eqn:EM.
  - apply Z.eqb_eq in EM. subst m. injection E as ->. cbn [aput]. rewrite Z.eqb_refl. reflexivity.
  - cbn [aput]. rewrite EM, (IH E). reflexivity.
Qed.
Lemma wf_putLink : forall s l l0, wf s -> aget Z.eqb (a_net (l_addr l)) (s_links s) = Some l0 -> wf (putLink s l).
Proof.
  intros s l l0 (W1 & W2 & W3 & W4 & W5 & W6) E. repeat split; try assumption.
  - intros n k EK. cbn [putLink set_links s_links] in EK. destruct (Z.eq_dec n (a_net (l_addr l))) as [->|N].
    + rewrite (aput_same _ zkey) in EK. congruence.
    + rewrite (aput_other _ zkey) in EK by exact N. apply (W2 _ _ EK).
  - apply aput_nodup; [apply zkey|exact W3].
Qed.
Lemma grow_putLink : forall s n l l', aget Z.eqb n (s_links s) = Some l -> l_addr l' = l_addr l -> l_rx l' = l_rx l -> l_tx l' = l_tx l -> grow s [] (putLink s l').
Proof.
  intros s n l l' E EA ER ET W. pose proof W as (W1 & W2 & W3 & W4 & W5 & W6). pose proof (W2 _ _ E) as EN.
  assert (E0 : aget Z.eqb (a_net (l_addr l')) (s_links s) = Some l) by (rewrite EA, EN; exact E).
  split; [apply (wf_putLink _ _ _ W E0)|]. split; [cbn [putLink set_links s_out]; rewrite app_nil_r; reflexivity|]. split; [repeat split|]. split.
  - intros k Ek. cbn [putLink set_links s_links]. rewrite (aput_other _ zkey); [exact Ek|]. intros ->. congruence.
  - split; [|cbn [started]; unfold zlen; cbn [length zseq]; rewrite Z.add_0_r; split; reflexivity].
    intros k lk Ek. unfold link_grow. cbn [sent_to]. unfold zlen. cbn [length zseq putLink set_links s_links]. rewrite Z.add_0_r. destruct (Z.eq_dec k (a_net (l_addr l'))) as [->|N].
    + exists l'. rewrite (aput_same _ zkey). assert (lk = l) by congruence. subst lk. repeat split; assumption.
    + exists lk. rewrite (aput_other _ zkey) by exact N. repeat split. exact Ek.
Qed.
Lemma link_eta : forall l n, Link (l_addr l) (l_rx l) (l_tx l + n - n) (l_reach l) = l.
Proof. intros [a r t c] n. cbn. f_equal. lia. Qed.
Lemma set_links_eta : forall s, set_links s (s_links s) = s.
Proof. intros []. reflexivity. Qed.

Section BMC.
Context (own self deployer : Z).
Context (verify : nat -> Z -> addr -> Z -> list Z -> option (list (option msg))) (serve : nat -> Z -> bshcall -> action) (chain_ok : nat -> Z -> msg -> bool).

(** sendTo: the message goes out with the link's next number, or nothing changes *)
Lemma sendTo_val : forall s next m u s', sendTo chain_ok s next m = Val u s' ->
  exists l nid, getLink s next = Some l /\ s' = emit (putLink s (Link (l_addr l) (l_rx l) (l_tx l + 1) (l_reach l))) (OSent next nid (l_tx l + 1) m) /\ nid = s_netids s next.
Proof.
  intros s next m u s' E. unfold sendTo in E. destruct (getLink s next) as [l|]; [|discriminate]. exists l, (s_netids s next). cbv zeta in E.
  change (s_netids (putLink s _) next) with (s_netids s next) in E.
  destruct (s_netids s next) as [nid|]; [destruct (chain_ok _ nid m); [|discriminate]|]; injection E as _ <-; repeat split; reflexivity.
Qed.
Lemma sendTo_exn : forall s next m e s', sendTo chain_ok s next m = Exn e s' -> s' = s.
Proof.
  intros s next m e s' E. unfold sendTo in E. destruct (getLink s next) as [l|] eqn:EL; [|injection E as _ <-; reflexivity]. cbv zeta in E.
  change (s_netids (putLink s _) next) with (s_netids s next) in E.
  destruct (s_netids s next) as [nid|]; [destruct (chain_ok _ nid m); [discriminate|]|discriminate]. injection E as _ <-.
  rewrite link_eta. apply getLink_some in EL as [E1 E2]. rewrite <- E2 in E1. unfold putLink. cbn [l_addr set_links s_links].
  rewrite (aput_back _ _ _ _ E1). transitivity (set_links s (s_links s)); [reflexivity|apply set_links_eta].
Qed.
Lemma grow_sendTo : forall s next m u s', sendTo chain_ok s next m = Val u s' -> exists nid seq, grow s [OSent next nid seq m] s' /\ s_nsn s' = s_nsn s /\ s_resp s' = s_resp s /\ s_rewards s' = s_rewards s /\ s_requests s' = s_requests s.
Proof.
  intros s next m u s' E. destruct (sendTo_val _ _ _ _ _ E) as (l & nid & EL & -> & _). exists nid, (l_tx l + 1). split; [|repeat split].
  apply getLink_some in EL as [E1 E2]. intros W. pose proof W as (W1 & W2 & W3 & W4 & W5 & W6).
  set (l1 := Link (l_addr l) (l_rx l) (l_tx l + 1) (l_reach l)). assert (E0 : aget Z.eqb (a_net (l_addr l1)) (s_links s) = Some l) by (unfold l1; cbn [l_addr]; rewrite E2; exact E1).
  pose proof (wf_putLink _ l1 l W E0) as W'. split; [exact W'|]. split; [reflexivity|]. split; [repeat split|]. split.
  - intros k Ek. cbn [emit putLink set_links s_links]. rewrite (aput_other _ zkey); [exact Ek|]. intros ->. congruence.
  - split; [|cbn [started]; unfold zlen; cbn [length zseq]; rewrite Z.add_0_r; split; reflexivity].
    intros k lk Ek. unfold link_grow. cbn [sent_to emit putLink set_links s_links]. destruct (Z.eq_dec k (a_net (l_addr l1))) as [->|N].
    + exists l1. rewrite (aput_same _ zkey). assert (lk = l) by congruence. subst lk. rewrite E2. rewrite (proj2 (addr_key next next) eq_refl). unfold zlen. cbn [length zseq].
      repeat split. unfold l1. cbn [l_addr]. congruence.
    + exists lk. rewrite (aput_other _ zkey) by exact N. assert (NA : addr_eqb (l_addr lk) next = false).
      { destruct (addr_eqb (l_addr lk) next) eqn:EA; [|reflexivity]. apply addr_key in EA. exfalso. apply N. rewrite <- (W2 _ _ Ek). unfold l1. cbn [l_addr]. congruence. }
      rewrite NA. unfold zlen. cbn [length zseq]. rewrite Z.add_0_r. repeat split. exact Ek.
Qed.

(** No method called while a message is handled ends the handling of another one. *)
Definition quiet (new : list out) : Prop := filter is_fate new = [].
Lemma quiet_app : forall a b, quiet a -> quiet b -> quiet (a ++ b).
Proof. unfold quiet. intros a b HA HB. rewrite filter_app, HA, HB. reflexivity. Qed.

Lemma reply_val : forall s to svc sn p fill value v s', sendWithFee own self chain_ok s to svc sn p true fill value = Val v s' ->
  exists i next s1, aget zzz_eqb (to, svc, sn) (s_resp s) = Some i /\ resolveNext s to = inl next /\
    let m := Msg own to svc 0 p (- r_nsn i) (r_fee i) in
    sendTo chain_ok (collectNet self (set_resp s (adel zzz_eqb (to, svc, sn) (s_resp s))) own value) next m = Val tt s1 /\
    s' = event s1 m (Some next) REPLY /\ v = - r_nsn i.
Proof.
  intros s to svc sn p fill value v s' E. unfold sendWithFee in E. destruct (resolveNext s to) as [next|]; [|discriminate].
  destruct (aget zzz_eqb (to, svc, sn) (s_resp s)) as [i|]; [|discriminate]. cbv zeta in E.
  destruct (sendTo chain_ok _ next _) as [[] s1|] eqn:ES; cbn [bind] in E; [|discriminate]. injection E as <- <-.
  exists i, next, s1. repeat split. exact ES.
Qed.
Lemma reply_exn : forall s to svc sn p fill value e s', sendWithFee own self chain_ok s to svc sn p true fill value = Exn e s' ->
  s' = s \/ exists i, aget zzz_eqb (to, svc, sn) (s_resp s) = Some i /\ s' = collectNet self (set_resp s (adel zzz_eqb (to, svc, sn) (s_resp s))) own value.
Proof.
  intros s to svc sn p fill value e s' E. unfold sendWithFee in E. destruct (resolveNext s to) as [next|]; [|injection E as _ <-; left; reflexivity].
  destruct (aget zzz_eqb (to, svc, sn) (s_resp s)) as [i|]; [|injection E as _ <-; left; reflexivity]. cbv zeta in E.
  destruct (sendTo chain_ok _ next _) as [[] s1|e1 s1] eqn:ES; cbn [bind] in E; [discriminate|]. injection E as _ <-. apply sendTo_exn in ES. right. exists i. split; [reflexivity|exact ES].
Qed.
Lemma send_val : forall s to svc sn p fill value v s', sendWithFee own self chain_ok s to svc sn p false fill value = Val v s' ->
  exists next s1, resolveNext s to = inl next /\ let sn' := if fill then s_nsn s + 1 else sn in let vals := getFeeList s to (0 <? sn') in
    let m := Msg own to svc sn' p (s_nsn s + 1) (Some (Fee own vals)) in
    0 <= value - sum vals /\ sendTo chain_ok (collectNet self (nextNetworkSn s) own (value - sum vals)) next m = Val tt s1 /\
    s' = event s1 m (Some next) SEND /\ v = s_nsn s + 1.
Proof.
  intros s to svc sn p fill value v s' E. unfold sendWithFee in E. destruct (resolveNext s to) as [next|]; [|discriminate]. cbv zeta in E.
  change (s_nsn (nextNetworkSn s)) with (s_nsn s + 1) in E. change (getFeeList (nextNetworkSn s)) with (getFeeList s) in E.
  destruct (Z.ltb_spec (value - sum (getFeeList s to (0 <? (if fill then s_nsn s + 1 else sn)))) 0) as [L|G]; [discriminate|].
  destruct (sendTo chain_ok _ next _) as [[] s1|] eqn:ES; cbn [bind] in E; [|discriminate]. injection E as <- <-.
  exists next, s1. repeat split; [lia|exact ES].
Qed.
Lemma grow_reply : forall s to svc sn p fill value v s', sendWithFee own self chain_ok s to svc sn p true fill value = Val v s' -> exists new, grow s new s' /\ quiet new.
Proof.
  intros s to svc sn p fill value v s' E. destruct (reply_val _ _ _ _ _ _ _ _ _ E) as (i & next & s1 & _ & _ & ES & -> & _).
  destruct (grow_sendTo _ _ _ _ _ ES) as (nid & seq & G & _). eexists. split.
  - eapply grow_trans; [apply grow_resp_del|]. eapply grow_trans; [apply grow_addReward|]. eapply grow_trans; [exact G|]. apply grow_event. discriminate.
  - reflexivity.
Qed.
Lemma grow_reply_exn : forall s to svc sn p fill value e s', sendWithFee own self chain_ok s to svc sn p true fill value = Exn e s' -> grow s [] s'.
Proof.
  intros s to svc sn p fill value e s' E. destruct (reply_exn _ _ _ _ _ _ _ _ _ E) as [->|(i & _ & ->)]; [apply grow_refl|].
  eapply grow_pre; [apply grow_resp_del|]. apply grow_addReward.
Qed.
(** a message started here: the number and the message belong together *)
Lemma grow_started : forall s s1 m next nid seq, m_nsn m = s_nsn s + 1 -> m_src m = own ->
  forall s0, s0 = nextNetworkSn s -> grow s0 [OSent next nid seq m] s1 -> s_nsn s1 = s_nsn s0 ->
  grow s [OSent next nid seq m; ev_of m (Some next) SEND] (event s1 m (Some next) SEND).
Proof.
  intros s s1 m next nid seq EN ES s0 -> G EN1 W. pose proof W as (W1 & W2 & W3 & W4 & W5 & W6).
  assert (W0 : wf (nextNetworkSn s)). { repeat split; try assumption; [change (s_nsn (nextNetworkSn s)) with (s_nsn s + 1); lia|]. intros n q E. change (s_nsn (nextNetworkSn s)) with (s_nsn s + 1). pose proof (W6 n q E). lia. }
  destruct (G W0) as (V & O1 & A1 & N1 & L1 & S1 & Q1). rewrite event_eq.
  split; [destruct V as (V1 & V2 & V3 & V4 & V5 & V6); repeat split; assumption|].
  split; [cbn [emit s_out]; rewrite O1; rewrite <- app_assoc; reflexivity|]. split; [exact A1|]. split; [exact N1|]. split.
  - intros n l E. exact (L1 n l E).
  - unfold ev_of, msg_id. rewrite EN. destruct (Z.ltb_spec (s_nsn s + 1) 0); [lia|]. cbn [started fst snd]. unfold zlen. cbn [length zseq emit s_nsn]. rewrite EN1. split; [change (s_nsn (nextNetworkSn s)) with (s_nsn s + 1); lia|reflexivity].
Qed.
Lemma grow_send : forall s to svc sn p fill value v s', sendWithFee own self chain_ok s to svc sn p false fill value = Val v s' -> exists new, grow s new s' /\ quiet new.
Proof.
  intros s to svc sn p fill value v s' E. destruct (send_val _ _ _ _ _ _ _ _ _ E) as (next & s1 & _ & HV & ES & -> & _).
  destruct (grow_sendTo _ _ _ _ _ ES) as (nid & seq & G & EN & _). eexists. split; [|shelve].
  eapply grow_started; [reflexivity|reflexivity|reflexivity|eapply grow_pre; [|exact G]; apply grow_addReward|].
  rewrite EN. apply addReward_keeps.
  Unshelve. reflexivity.
Qed.

Lemma grow_sendMessage : forall s c to svc sn p v r s', sendMessage own self chain_ok s c to svc sn p v = Val r s' -> exists new, grow s new s' /\ quiet new.
Proof.
  intros s c to svc sn p v r s' E. unfold sendMessage in E. destruct (aget Z.eqb svc (s_services s)); [|discriminate]. destruct (negb (c =? z)); [discriminate|].
  destruct (if sn <? 0 then _ else _) as [x s1|] eqn:E1; cbn [bind] in E; [|discriminate]. injection E as _ <-.
  assert (HG : exists new, grow s new s1 /\ quiet new) by (destruct (sn <? 0); [eapply grow_reply|eapply grow_send]; exact E1).
  destruct HG as (new & G & Q). exists (new ++ [OPaid v]). split; [eapply grow_trans; [exact G|apply grow_emit; reflexivity]|apply quiet_app; [exact Q|reflexivity]].
Qed.
Lemma grow_calls : forall cs s a u s', run_calls own self chain_ok s a cs = Val u s' -> exists new, grow s new s' /\ quiet new.
Proof.
  induction cs as [|c cs IH]; intros s a u s' E; cbn [run_calls] in E.
  - injection E as _ <-. exists []. split; [apply grow_refl|reflexivity].
  - destruct (sendMessage own self chain_ok s a (c_to c) (c_svc c) (c_sn c) (c_pay c) (c_value c)) as [r s1|] eqn:E1.
    + destruct (grow_sendMessage _ _ _ _ _ _ _ _ _ E1) as (n1 & G1 & Q1). destruct (IH _ _ _ _ E) as (n2 & G2 & Q2). exists (n1 ++ n2). split; [eapply grow_trans; eassumption|apply quiet_app; assumption].
    + destruct (c_catch c); [|discriminate]. apply (IH _ _ _ _ E).
Qed.
Lemma grow_service : forall s a c u s', call_service own self serve chain_ok s a c = Val u s' -> exists new, grow s new s' /\ quiet new.
Proof.
  intros s a c u s' E. unfold call_service in E. destruct (serve _ a c) as [|cs]; [discriminate|]. destruct (run_calls own self chain_ok s a cs) as [[] s1|] eqn:E1; [|discriminate].
  injection E as _ <-. eapply grow_calls, E1.
Qed.
Lemma service_exn : forall s a c e s', call_service own self serve chain_ok s a c = Exn e s' -> s' = s.
Proof.
  intros s a c e s' E. unfold call_service in E. destruct (serve _ a c) as [|cs]; [injection E as _ <-; reflexivity|].
  destruct (run_calls own self chain_ok s a cs) as [[] s1|]; [discriminate|injection E as _ <-; reflexivity].
Qed.
Lemma grow_response : forall s nsn r u s', handleResponse s nsn r = Val u s' -> exists new, grow s new s' /\ quiet new.
Proof.
  intros s nsn r u s' E. unfold handleResponse in E. destruct (aget Z.eqb nsn (s_requests s)) as [q|]; [|discriminate]. cbv zeta in E. injection E as _ <-.
  eexists. split; [|shelve]. eapply grow_trans; [apply grow_requests_del|]. eapply grow_trans; [|apply grow_emit; reflexivity].
  destruct (r =? CODE_SUCCESS); [apply grow_refl|apply grow_addReward].
  Unshelve. reflexivity.
Qed.
Lemma response_exn : forall s nsn r e s', handleResponse s nsn r = Exn e s' -> s' = s.
Proof. intros s nsn r e s' E. unfold handleResponse in E. destruct (aget Z.eqb nsn (s_requests s)) as [q|]; [discriminate|injection E as _ <-; reflexivity]. Qed.
Lemma grow_internal : forall s src nsn p, match internalMessage own self chain_ok s src nsn p with Val _ s' | Exn _ s' => exists new, grow s new s' /\ quiet new end.
Proof.
  intros s src nsn p. assert (HS : exists new, grow s new s /\ quiet new) by (exists []; split; [apply grow_refl|reflexivity]).
  unfold internalMessage. destruct p as [b|code|amount [r|]|code|a|a|l]; try exact HS.
  - destruct (sendWithFee own self chain_ok (addReward s r own amount) src INTERNAL nsn (PResponse CODE_SUCCESS) true false 0) as [v s1|e s1] eqn:E.
    + destruct (grow_reply _ _ _ _ _ _ _ _ _ E) as (new & G & Q). exists new. split; [|exact Q]. eapply grow_pre; [apply grow_addReward|exact G].
    + apply grow_reply_exn in E. exists []. split; [|reflexivity]. eapply grow_pre; [apply grow_addReward|]. eapply grow_pre; [exact E|apply grow_addReward].
  - destruct (handleResponse s (- nsn) code) as [u s1|e s1] eqn:E; [eapply grow_response, E|]. apply response_exn in E. subst s1. exact HS.
  - unfold addReachable. destruct (getLinkNet s src) as [k|] eqn:E; [|exact HS]. exists []. split; [|reflexivity]. eapply grow_putLink; [exact E|reflexivity|reflexivity|reflexivity].
  - unfold removeReachable. destruct (getLinkNet s src) as [k|] eqn:E; [|exact HS]. exists []. split; [|reflexivity]. eapply grow_putLink; [exact E|reflexivity|reflexivity|reflexivity].
  - unfold addReachable. destruct (getLinkNet s src) as [k|] eqn:E; [|exact HS]. exists []. split; [|reflexivity]. eapply grow_putLink; [exact E|reflexivity|reflexivity|reflexivity].
Qed.
(** handleMessage *)
Lemma internal_exn : forall s src nsn p e s', internalMessage own self chain_ok s src nsn p = Exn e s' -> grow s [] s'.
Proof.
  intros s src nsn p e s' E. unfold internalMessage in E. destruct p as [b|code|amount [r|]|code|a|a|l]; try (injection E as _ <-; apply grow_refl).
  - destruct (sendWithFee own self chain_ok (addReward s r own amount) src INTERNAL nsn (PResponse CODE_SUCCESS) true false 0) as [v s1|e1 s1] eqn:E1; [discriminate|].
    injection E as _ <-. apply grow_reply_exn in E1. eapply grow_pre; [apply grow_addReward|]. eapply grow_pre; [exact E1|apply grow_addReward].
  - apply response_exn in E. subst s'. apply grow_refl.
  - unfold addReachable in E. destruct (getLinkNet s src) as [k|]; [discriminate|injection E as _ <-; apply grow_refl].
  - unfold removeReachable in E. destruct (getLinkNet s src) as [k|]; [discriminate|injection E as _ <-; apply grow_refl].
  - unfold addReachable in E. destruct (getLinkNet s src) as [k|]; [discriminate|injection E as _ <-; apply grow_refl].
Qed.
(** the state in which the receiver of a message is called *)
Definition stored_state (s : st) (m : msg) : st :=
  match m_fee m with
  | None => s
  | Some f =>
      if 0 <? m_sn m then
        let s0 := match aget zzz_eqb (m_src m, m_svc m, m_sn m) (s_resp s) with Some old => collect self s (r_fee old) | None => s end in
        set_resp s0 (aput zzz_eqb (m_src m, m_svc m, m_sn m) (RInfo (m_nsn m) (Some f)) (s_resp s0))
      else collect self s (Some f)
  end.
Definition deliver (s : st) (m : msg) : res unit :=
  if m_svc m =? INTERNAL then internalMessage own self chain_ok s (m_src m) (m_nsn m) (m_pay m)
  else match getService s (m_svc m) with
       | None => Exn NO_BSH s
       | Some a => call_service own self serve chain_ok s a (BMessage (m_src m) (m_svc m) (m_sn m) (m_pay m))
       end.
Definition deliver_error (s : st) (m : msg) : res unit :=
  match m_pay m with
  | PError code =>
      if m_svc m =? INTERNAL then handleResponse s (- m_nsn m) code
      else match getService s (m_svc m) with
           | None => Exn NO_BSH s
           | Some a => call_service own self serve chain_ok s a (BError (m_src m) (m_svc m) (- m_sn m) code)
           end
  | _ => Exn XOther s
  end.
Lemma handle_eq : forall s m, handleMessage own self serve chain_ok s m =
  if 0 <=? m_sn m then
    match deliver (stored_state s m) m with
    | Val u s2 => Val u s2
    | Exn e s2 => Exn (as_bsh e) (if match m_fee m with Some _ => 0 <? m_sn m | None => false end then set_resp s2 (adel zzz_eqb (m_src m, m_svc m, m_sn m) (s_resp s2)) else s2)
    end
  else match deliver_error (collect self s (m_fee m)) m with Val u s2 => Val u s2 | Exn e s2 => Exn (as_bsh e) s2 end.
Proof. reflexivity. Qed.
Lemma grow_stored : forall s m, grow s [] (stored_state s m).
Proof.
  intros s m. unfold stored_state. destruct (m_fee m) as [f|]; [|apply grow_refl]. destruct (0 <? m_sn m); [|apply grow_collect]. cbv zeta.
  eapply grow_pre; [|apply grow_resp_put]. destruct (aget zzz_eqb _ (s_resp s)); [apply grow_collect|apply grow_refl].
Qed.
Lemma grow_deliver : forall s m u s', deliver s m = Val u s' -> exists new, grow s new s' /\ quiet new.
Proof.
  intros s m u s' E. unfold deliver in E. destruct (m_svc m =? INTERNAL).
  - pose proof (grow_internal s (m_src m) (m_nsn m) (m_pay m)) as X. rewrite E in X. exact X.
  - destruct (getService s (m_svc m)); [|discriminate]. eapply grow_service, E.
Qed.
Lemma deliver_exn : forall s m e s', deliver s m = Exn e s' -> grow s [] s'.
Proof.
  intros s m e s' E. unfold deliver in E. destruct (m_svc m =? INTERNAL); [eapply internal_exn, E|].
  destruct (getService s (m_svc m)); [|injection E as _ <-; apply grow_refl]. apply service_exn in E. subst s'. apply grow_refl.
Qed.
Lemma grow_deliver_error : forall s m u s', deliver_error s m = Val u s' -> exists new, grow s new s' /\ quiet new.
Proof.
  intros s m u s' E. unfold deliver_error in E. destruct (m_pay m); try discriminate. destruct (m_svc m =? INTERNAL); [eapply grow_response, E|].
  destruct (getService s (m_svc m)); [|discriminate]. eapply grow_service, E.
Qed.
Lemma deliver_error_exn : forall s m e s', deliver_error s m = Exn e s' -> s' = s.
Proof.
  intros s m e s' E. unfold deliver_error in E. destruct (m_pay m); try (injection E as _ <-; reflexivity). destruct (m_svc m =? INTERNAL); [eapply response_exn, E|].
  destruct (getService s (m_svc m)); [|injection E as _ <-; reflexivity]. eapply service_exn, E.
Qed.
Lemma grow_handle : forall s m u s', handleMessage own self serve chain_ok s m = Val u s' -> exists new, grow s new s' /\ quiet new.
Proof.
  intros s m u s' E. rewrite handle_eq in E. destruct (0 <=? m_sn m).
  - destruct (deliver (stored_state s m) m) as [v s2|] eqn:ED; [|discriminate]. injection E as _ <-. destruct (grow_deliver _ _ _ _ ED) as (new & G & Q).
    exists new. split; [|exact Q]. eapply grow_pre; [apply grow_stored|exact G].
  - destruct (deliver_error (collect self s (m_fee m)) m) as [v s2|] eqn:ED; [|discriminate]. injection E as _ <-. destruct (grow_deliver_error _ _ _ _ ED) as (new & G & Q).
    exists new. split; [|exact Q]. eapply grow_pre; [apply grow_collect|exact G].
Qed.
Lemma handle_exn : forall s m e s', handleMessage own self serve chain_ok s m = Exn e s' -> grow s [] s'.
Proof.
  intros s m e s' E. rewrite handle_eq in E. destruct (0 <=? m_sn m).
  - destruct (deliver (stored_state s m) m) as [v s2|e2 s2] eqn:ED; [discriminate|]. apply deliver_exn in ED. injection E as _ <-. eapply grow_pre; [apply grow_stored|]. eapply grow_pre; [exact ED|].
    destruct (match m_fee m with Some _ => 0 <? m_sn m | None => false end); [apply grow_resp_del|apply grow_refl].
  - destruct (deliver_error (collect self s (m_fee m)) m) as [v s2|e2 s2] eqn:ED; [discriminate|]. apply deliver_error_exn in ED. injection E as _ <-. subst s2. apply grow_collect.
Qed.
Lemma grow_sendError : forall s prev m e u s', sendError own chain_ok s prev m e = Val u s' ->
  exists nid n, grow s [OSent prev nid n (Msg own (m_src m) (m_svc m) (- m_sn m) (PError (response_code e)) (- m_nsn m) (error_fee s m)); ev_of m (Some prev) ERROR] s'.
Proof.
  intros s prev m e u s' E. unfold sendError in E. cbv zeta in E. destruct (sendTo chain_ok s prev _) as [[] s1|] eqn:ES; cbn [bind] in E; [|discriminate]. injection E as _ <-.
  destruct (grow_sendTo _ _ _ _ _ ES) as (nid & n & G & _). exists nid, n. eapply (grow_trans _ [_] _ [_]); [exact G|]. apply grow_event. discriminate.
Qed.
Lemma sendError_exn : forall s prev m e e' s', sendError own chain_ok s prev m e = Exn e' s' -> s' = s.
Proof.
  intros s prev m e e' s' E. unfold sendError in E. cbv zeta in E. destruct (sendTo chain_ok s prev _) as [[] s1|] eqn:ES; cbn [bind] in E; [discriminate|]. injection E as _ <-. eapply sendTo_exn, ES.
Qed.
Lemma grow_dropped : forall s prev seq m e, grow s [ev_of m None DROP; ODropped prev seq m (exn_code e)] (dropped s prev seq m e).
Proof. intros s prev seq m e. unfold dropped. eapply (grow_trans _ [_] _ [_]); [apply grow_event; discriminate|apply grow_emit; reflexivity]. Qed.

Lemma grow_dispatch : forall s prev seq m, exists new, grow s new (dispatch own self serve chain_ok s prev seq m) /\ segment own prev seq m new.
Proof.
  intros s prev seq m. unfold dispatch.
  assert (HX : forall e s1, grow s [] s1 -> exists new, grow s new
    (if 0 <? m_sn m then match sendError own chain_ok s1 prev m e with Val _ s2 => s2 | Exn e2 s2 => dropped (collect self s2 (m_fee m)) prev seq m e2 end
     else dropped (collect self s1 (m_fee m)) prev seq m e) /\ segment own prev seq m new).
  { intros e s1 G. destruct (Z.ltb_spec 0 (m_sn m)) as [L|L].
    - destruct (sendError own chain_ok s1 prev m e) as [u s2|e2 s2] eqn:EE.
      + destruct (grow_sendError _ _ _ _ _ _ EE) as (nid & n & G2). eexists. split; [eapply grow_pre; [exact G|exact G2]|]. apply sg_error. exact L.
      + apply sendError_exn in EE. subst s2. eexists. split; [eapply grow_pre; [exact G|]; eapply grow_pre; [apply grow_collect|apply grow_dropped]|]. apply sg_drop.
    - eexists. split; [eapply grow_pre; [exact G|]; eapply grow_pre; [apply grow_collect|apply grow_dropped]|]. apply sg_drop. }
  destruct (Z.eqb_spec own (m_dst m)) as [EO|NO].
  - destruct (handleMessage own self serve chain_ok s m) as [u s1|e s1] eqn:EH; cbn [bind].
    + destruct (grow_handle _ _ _ _ EH) as (new & G & Q). eexists. split; [eapply grow_trans; [exact G|apply grow_event; discriminate]|]. apply sg_receive; assumption.
    + apply HX. eapply handle_exn, EH.
  - destruct (resolveNext s (m_dst m)) as [next|e]; [|apply HX, grow_refl].
    destruct (sendTo chain_ok s next m) as [u s1|e s1] eqn:ES; cbn [bind].
    + destruct (grow_sendTo _ _ _ _ _ ES) as (nid & n & G & _). eexists. split; [eapply (grow_trans _ [_] _ [_]); [exact G|apply grow_event; discriminate]|]. apply sg_route. exact NO.
    + apply sendTo_exn in ES. subst s1. apply HX, grow_refl.
Qed.
Lemma accumulate_grow : forall s a f, grow s [] (fst (accumulateFee s a f)).
Proof. intros s a [[n [|v vs]]|]; cbn [accumulateFee fst]; try apply grow_refl. apply grow_addReward. Qed.
Lemma accumulate_fee : forall s a f, snd (accumulateFee s a f) = match f with Some (Fee n (_ :: vs)) => Some (Fee n vs) | f => f end.
Proof. intros s a [[n [|v vs]]|]; reflexivity. Qed.
Lemma grow_dispatch_all : forall oms s caller prev rx u s', dispatch_all own self serve chain_ok s caller prev rx oms = Val u s' ->
  exists ms new, oms = map Some ms /\ grow s new s' /\ handled own prev rx ms new.
Proof.
  induction oms as [|[m|] oms IH]; intros s caller prev rx u s' E; cbn [dispatch_all] in E; [|  |discriminate].
  - injection E as _ <-. exists [], []. split; [reflexivity|]. split; [apply grow_refl|reflexivity].
  - destruct (accumulateFee s caller (m_fee m)) as [s1 f] eqn:EA. pose proof (accumulate_grow s caller (m_fee m)) as GA. pose proof (accumulate_fee s caller (m_fee m)) as FA.
    rewrite EA in GA, FA. cbn [fst snd] in GA, FA. destruct (grow_dispatch s1 prev (rx + 1) (with_fee m f)) as (seg & G & SG).
    destruct (IH _ _ _ _ _ _ E) as (ms & new & EM & G2 & HH). exists (m :: ms), (seg ++ new). split; [cbn [map]; f_equal; exact EM|]. split.
    + eapply grow_pre; [exact GA|]. eapply grow_trans; [exact G|exact G2].
    + cbn [handled]. exists seg, new. split; [reflexivity|]. split; [|exact HH]. replace (paid m) with (with_fee m f) by (unfold paid; rewrite FA; destruct (m_fee m) as [[n [|]]|]; reflexivity). exact SG.
Qed.
(** internal messages *)
Lemma grow_start : forall s m next, m_nsn m = s_nsn s + 1 -> grow s [ev_of m next SEND] (event (nextNetworkSn s) m next SEND).
Proof.
  intros s m next EN W. pose proof W as (W1 & W2 & W3 & W4 & W5 & W6). rewrite event_eq.
  split. { repeat split; try assumption; [change (0 <= s_nsn s + 1); lia|]. intros n q E. change (n <= s_nsn s + 1). pose proof (W6 n q E). lia. }
  split; [reflexivity|]. split; [repeat split|]. split; [auto|]. split.
  - intros n l E. exists l. unfold ev_of. cbn [sent_to]. unfold zlen. cbn [length zseq]. rewrite Z.add_0_r. repeat split. exact E.
  - unfold ev_of, msg_id. rewrite EN. destruct (Z.ltb_spec (s_nsn s + 1) 0); [lia|]. cbn [started fst snd]. unfold zlen. cbn [length zseq]. split; reflexivity.
Qed.
Lemma grow_sendInternal : forall s next p u s', sendInternal own chain_ok s next p = Val u s' -> exists new, grow s new s' /\ quiet new.
Proof.
  intros s next p u s' E. unfold sendInternal in E. cbv zeta in E. destruct (grow_sendTo _ _ _ _ _ E) as (nid & n & G & _).
  eexists. split; [eapply (grow_trans _ [_] _ [_]); [|exact G]; apply grow_start; reflexivity|reflexivity].
Qed.
Lemma grow_propagate : forall l s p u s', propagate own chain_ok s l p = Val u s' -> exists new, grow s new s' /\ quiet new.
Proof.
  induction l as [|[n k] l IH]; intros s p u s' E; cbn [propagate] in E.
  - injection E as _ <-. exists []. split; [apply grow_refl|reflexivity].
  - destruct (sendInternal own chain_ok s (l_addr k) p) as [v s1|] eqn:E1; cbn [bind] in E; [|discriminate].
    destruct (grow_sendInternal _ _ _ _ _ E1) as (n1 & G1 & Q1). destruct (IH _ _ _ _ E) as (n2 & G2 & Q2).
    exists (n1 ++ n2). split; [eapply grow_trans; eassumption|apply quiet_app; assumption].
Qed.

(** The weaker relation for whole transactions: [P] are the links that stay. *)
Definition evolve (P : Z -> Prop) (s : st) (new : list out) (s' : st) : Prop :=
  wf s -> wf s' /\ s_out s' = s_out s ++ new /\
  (forall n l, P n -> aget Z.eqb n (s_links s) = Some l -> exists l', aget Z.eqb n (s_links s') = Some l' /\ l_addr l' = l_addr l /\
    l_tx l' = l_tx l + zlen (sent_to (l_addr l) new) /\ sent_to (l_addr l) new = zseq (l_tx l + 1) (length (sent_to (l_addr l) new))) /\
  s_nsn s' = s_nsn s + zlen (started new) /\ started new = zseq (s_nsn s + 1) (length (started new)).
Lemma grow_evolve : forall P s new s', grow s new s' -> evolve P s new s'.
Proof.
  intros P s new s' G W. destruct (G W) as (W' & O & A & N & L & S1 & S2). split; [exact W'|]. split; [exact O|]. split; [|split; assumption].
  intros n l _ E. destruct (L n l E) as (l' & X1 & X2 & X3 & X4 & X5). exists l'. repeat split; assumption.
Qed.
Lemma evolve_trans : forall P s1 n1 s2 n2 s3, evolve P s1 n1 s2 -> evolve P s2 n2 s3 -> evolve P s1 (n1 ++ n2) s3.
Proof.
  intros P s1 n1 s2 n2 s3 H1 H2 W1. destruct (H1 W1) as (W2 & O1 & L1 & S1 & Q1). destruct (H2 W2) as (W3 & O2 & L2 & S2 & Q2).
  split; [exact W3|]. split; [rewrite O2, O1, app_assoc; reflexivity|]. split.
  - intros n l HP E. destruct (L1 n l HP E) as (l2 & E2 & X1 & X3 & X4). destruct (L2 n l2 HP E2) as (l3 & E3 & Y1 & Y3 & Y4).
    exists l3. rewrite X1 in *. rewrite sent_app. unfold zlen in *. rewrite app_length. split; [exact E3|]. split; [congruence|]. split; [lia|].
    rewrite zseq_app, <- X4. f_equal. rewrite Y4 at 1. f_equal. lia.
  - rewrite started_app. unfold zlen in *. rewrite app_length. split; [lia|]. rewrite zseq_app, <- Q1. f_equal. rewrite Q2 at 1. f_equal. lia.
Qed.
Lemma evolve_pre : forall P s1 s2 n s3, evolve P s1 [] s2 -> evolve P s2 n s3 -> evolve P s1 n s3.
Proof. intros P s1 s2 n s3 H1 H2. exact (evolve_trans P s1 [] s2 n s3 H1 H2). Qed.
(** a change that concerns neither links nor the bookkeeping *)
Lemma evolve_same : forall P s s', s_nsn s' = s_nsn s -> s_links s' = s_links s -> s_resp s' = s_resp s -> s_requests s' = s_requests s -> s_out s' = s_out s -> evolve P s [] s'.
Proof.
  intros P s s' E1 E2 E3 E4 E5 (W1 & W2 & W3 & W4 & W5 & W6). unfold wf. rewrite E1, E2, E3, E4, E5, app_nil_r. split; [repeat split; assumption|]. split; [reflexivity|]. split.
  - intros n l _ E. exists l. cbn [sent_to]. unfold zlen. cbn [length zseq]. rewrite Z.add_0_r. repeat split. exact E.
  - cbn [started]. unfold zlen. cbn [length zseq]. rewrite Z.add_0_r. split; reflexivity.
Qed.
(** a link put with the same peer and the same number of sent messages *)
Lemma evolve_putLink : forall P s n l l', aget Z.eqb n (s_links s) = Some l -> l_addr l' = l_addr l -> l_tx l' = l_tx l -> evolve P s [] (putLink s l').
Proof.
  intros P s n l l' E EA ET W. pose proof W as (W1 & W2 & W3 & W4 & W5 & W6). pose proof (W2 _ _ E) as EN.
  assert (E0 : aget Z.eqb (a_net (l_addr l')) (s_links s) = Some l) by (rewrite EA, EN; exact E).
  split; [apply (wf_putLink _ _ _ W E0)|]. split; [cbn [putLink set_links s_out]; rewrite app_nil_r; reflexivity|].
  split; [|cbn [started]; unfold zlen; cbn [length zseq]; rewrite Z.add_0_r; split; reflexivity].
  intros k lk _ Ek. cbn [sent_to]. unfold zlen. cbn [length zseq putLink set_links s_links]. rewrite Z.add_0_r. destruct (Z.eq_dec k (a_net (l_addr l'))) as [->|N].
  - exists l'. rewrite (aput_same _ zkey). assert (lk = l) by congruence. subst lk. repeat split; assumption.
  - exists lk. rewrite (aput_other _ zkey) by exact N. repeat split. exact Ek.
Qed.
(** a new link *)
Lemma evolve_newLink : forall P s a, aget Z.eqb (a_net a) (s_links s) = None -> evolve P s [] (putLink s (Link a 0 0 [])).
Proof.
  intros P s a EN W. pose proof W as (W1 & W2 & W3 & W4 & W5 & W6). split.
  { repeat split; try assumption.
    - intros n k EK. cbn [putLink set_links s_links l_addr] in EK. destruct (Z.eq_dec n (a_net a)) as [->|N].
      + rewrite (aput_same _ zkey) in EK. injection EK as <-. reflexivity.
      + rewrite (aput_other _ zkey) in EK by exact N. apply (W2 _ _ EK).
    - apply aput_nodup; [apply zkey|exact W3]. }
  split; [cbn [putLink set_links s_out]; rewrite app_nil_r; reflexivity|].
  split; [|cbn [started]; unfold zlen; cbn [length zseq]; rewrite Z.add_0_r; split; reflexivity].
  intros k lk _ Ek. cbn [sent_to]. unfold zlen. cbn [length zseq putLink set_links s_links l_addr]. rewrite Z.add_0_r.
  exists lk. rewrite (aput_other _ zkey) by (intros ->; congruence). repeat split. exact Ek.
Qed.
(** a link removed *)
Lemma evolve_delLink : forall s a, evolve (fun n => n <> a) s [] (set_links s (adel Z.eqb a (s_links s))).
Proof.
  intros s a W. pose proof W as (W1 & W2 & W3 & W4 & W5 & W6). split.
  { repeat split; try assumption.
    - intros n k EK. cbn [set_links s_links] in EK. destruct (Z.eq_dec n a) as [->|N].
      + rewrite (adel_same _ zkey) in EK by exact W3. discriminate.
      + rewrite (adel_other _ zkey) in EK by assumption. apply (W2 _ _ EK).
    - apply adel_nodup; [apply zkey|exact W3]. }
  split; [cbn [set_links s_out]; rewrite app_nil_r; reflexivity|].
  split; [|cbn [started]; unfold zlen; cbn [length zseq]; rewrite Z.add_0_r; split; reflexivity].
  intros k lk N Ek. cbn [sent_to]. unfold zlen. cbn [length zseq set_links s_links]. rewrite Z.add_0_r.
  exists lk. rewrite (adel_other _ zkey) by assumption. repeat split. exact Ek.
Qed.

Lemma ahas_none : forall {V} n (l : list (Z * V)), ahas Z.eqb n l = false -> aget Z.eqb n l = None.
Proof. intros V n l E. unfold ahas in E. destruct (aget Z.eqb n l); [discriminate|reflexivity]. Qed.
Lemma evolve_addLink : forall P s a u s', addLink own chain_ok s a = Val u s' -> exists new, evolve P s new s' /\ quiet new.
Proof.
  intros P s a u s' E. unfold addLink in E. destruct (negb _); [discriminate|]. destruct (ahas Z.eqb (a_net a) (s_links s)) eqn:EH; [discriminate|]. apply ahas_none in EH.
  destruct (propagate own chain_ok s (s_links s) (PLink a)) as [v s1|] eqn:E1; cbn [bind] in E; [|discriminate].
  destruct (grow_propagate _ _ _ _ _ E1) as (n1 & G1 & Q1). destruct (grow_sendInternal _ _ _ _ _ E) as (n2 & G2 & Q2).
  exists (n1 ++ n2). split; [|apply quiet_app; assumption]. intros W. destruct (G1 W) as (_ & _ & _ & N1 & _).
  revert W. eapply evolve_trans; [apply grow_evolve, G1|]. eapply evolve_pre; [apply evolve_newLink, N1, EH|]. apply grow_evolve, G2.
Qed.
Lemma evolve_removeLink : forall s a u s', removeLink own chain_ok s a = Val u s' -> exists new, evolve (fun n => n <> a_net a) s new s' /\ quiet new.
Proof.
  intros s a u s' E. unfold removeLink in E. destruct (getLink s a); [|discriminate]. cbv zeta in E. destruct (existsb _ (s_routes s)); [discriminate|].
  destruct (grow_propagate _ _ _ _ _ E) as (new & G & Q). exists new. split; [|exact Q].
  eapply evolve_pre; [apply evolve_delLink|]. eapply evolve_pre; [|apply grow_evolve, G].
  apply evolve_same; cbn [set_fees set_relays]; destruct (s_netids _ a); reflexivity.
Qed.
Lemma setFeeTable_keeps : forall l s u s', setFeeTable s l = Val u s' -> s_nsn s' = s_nsn s /\ s_links s' = s_links s /\ s_resp s' = s_resp s /\ s_requests s' = s_requests s /\ s_out s' = s_out s /\ s_rewards s' = s_rewards s.
Proof.
  induction l as [|[d vs] l IH]; intros s u s' E; cbn [setFeeTable] in E; [injection E as _ <-; repeat split|].
  destruct vs as [|v vs]; [apply IH in E; exact E|]. destruct (negb _); [discriminate|]. destruct (existsb _ (v :: vs)); [discriminate|]. cbv zeta in E.
  destruct (_ =? 2)%nat; [destruct (ahas Z.eqb d (s_links s)); [|discriminate]|destruct (resolveNext s d); [|discriminate]]; apply IH in E; exact E.
Qed.
Lemma grow_claim : forall s who net r v u s', claimReward own self chain_ok s who net r v = Val u s' -> exists new, grow s new s' /\ quiet new.
Proof.
  intros s who net r v u s' E. unfold claimReward in E. cbv zeta in E. set (c := match s_handler s with Some h => if h =? who then self else who | None => who end) in *.
  destruct (getReward s net c <=? 0); [discriminate|]. destruct (net =? own).
  - destruct r as [r|]; [|discriminate]. injection E as _ <-. eexists. split; [eapply grow_pre; [apply grow_rewards|]; eapply (grow_trans _ [_; _] _ [_]); [eapply (grow_trans _ [_] _ [_])|]; apply grow_emit; reflexivity|reflexivity].
  - destruct (sendWithFee _ _ _ _ _ _ _ _ _ _ _) as [nsn s2|] eqn:ES; cbn [bind] in E; [|discriminate]. injection E as _ <-.
    destruct (grow_send _ _ _ _ _ _ _ _ _ ES) as (new & G & Q). destruct (send_val _ _ _ _ _ _ _ _ _ ES) as (next & s1 & _ & _ & ES1 & EV & EN).
    exists (new ++ [OPaid v; OClaim c net (getReward s net c) nsn]). split; [|apply quiet_app; [exact Q|reflexivity]]. eapply grow_pre; [apply grow_rewards|]. eapply grow_trans; [exact G|].
    eapply grow_pre; [|eapply (grow_trans _ [_] _ [_]); apply grow_emit; reflexivity]. intros W. pose proof (grow_refl s2 W) as (_ & G0). split; [|exact G0]. destruct W as (W1 & W2 & W3 & W4 & W5 & W6).
    repeat split; try assumption; [apply aput_nodup; [apply zkey|exact W5]|]. intros n q EQ. cbn [set_requests s_requests] in EQ. change (n <= s_nsn s2).
    destruct (Z.eq_dec n nsn) as [->|N].
    + destruct (grow_sendTo _ _ _ _ _ ES1) as (_ & _ & _ & EN1 & _). rewrite EV, event_eq. change (nsn <= s_nsn s1). rewrite EN1. unfold collectNet. rewrite (proj1 (addReward_keeps _ _ _ _)).
      change (nsn <= s_nsn s + 1). rewrite EN. apply Z.le_refl.
    + rewrite (aput_other _ zkey) in EQ by exact N. apply (W6 n q EQ).
Qed.
Lemma evolve_drop : forall P s src seq svc sn nsn f u s', dropMessage own self chain_ok s src seq svc sn nsn f = Val u s' -> exists new, evolve P s new s'.
Proof.
  intros P s src seq svc sn nsn f u s' E. unfold dropMessage in E. destruct (resolveNext s src) as [prev|]; [|discriminate]. destruct (getLinkNet s (a_net prev)) as [l|] eqn:EL; [|discriminate].
  destruct (negb (l_rx l + 1 =? seq)); [discriminate|]. destruct (negb (ahas _ _ _)); [discriminate|]. destruct (isInvalidSn sn nsn); [discriminate|]. cbv zeta in E.
  destruct (accumulateFee (putLink s (Link (l_addr l) seq (l_tx l) (l_reach l))) self f) as [s2 f'] eqn:EA.
  pose proof (accumulate_grow (putLink s (Link (l_addr l) seq (l_tx l) (l_reach l))) self f) as GA. rewrite EA in GA. cbn [fst] in GA.
  destruct (0 <? sn).
  - destruct (grow_sendError _ _ _ _ _ _ E) as (nid & n & G). eexists. eapply evolve_pre; [|apply grow_evolve; eapply grow_pre; [exact GA|exact G]]. eapply evolve_putLink; [exact EL|reflexivity|reflexivity].
  - injection E as _ <-. eexists. eapply evolve_pre; [|apply grow_evolve; eapply grow_pre; [exact GA|apply grow_dropped]]. eapply evolve_putLink; [exact EL|reflexivity|reflexivity].
Qed.
Lemma evolve_handleRelay : forall P s c prev b u s', handleRelay own self verify serve chain_ok s c prev b = Val u s' -> exists new, evolve P s new s'.
Proof.
  intros P s c prev b u s' E. unfold handleRelay in E. destruct (getLink s prev) as [l|] eqn:EL; [|discriminate]. destruct (aget Z.eqb (a_net (l_addr l)) (s_verifiers s)); [|discriminate].
  destruct (verify _ _ prev (l_rx l) b) as [oms|]; [|discriminate]. destruct (negb (isRelay s prev c)); [discriminate|].
  destruct (grow_dispatch_all _ _ _ _ _ _ _ E) as (ms & new & _ & G & _). exists new. apply getLink_some in EL as [EL _].
  eapply evolve_pre; [|apply grow_evolve, G]. eapply evolve_putLink; [exact EL|reflexivity|reflexivity].
Qed.

Definition removes (o : op) (n : Z) : Prop := match o with RemoveLink _ a => a_net a = n | _ => False end.
Lemma evolve_exec : forall s o u s', exec own self deployer verify serve chain_ok s o = Val u s' -> exists new, evolve (fun n => ~ removes o n) s new s'.
Proof.
  intros s o u s' E. destruct o; cbn [exec] in E; unfold owner in E; try (destruct (isOwner deployer s caller); [|discriminate]).
  - eapply evolve_handleRelay, E.
  - destruct (sendMessage _ _ _ _ _ _ _ _ _ _) as [v s1|] eqn:E1; cbn [bind] in E; [|discriminate]. injection E as _ <-. destruct (grow_sendMessage _ _ _ _ _ _ _ _ _ E1) as (new & G & _). exists new. apply grow_evolve, G.
  - destruct (grow_claim _ _ _ _ _ _ _ E) as (new & G & _). exists new. apply grow_evolve, G.
  - destruct (own =? net); [discriminate|]. destruct (ahas _ _ _); [discriminate|]. injection E as _ <-. exists []. apply evolve_same; reflexivity.
  - destruct (ahas _ _ _); [|discriminate]. injection E as _ <-. exists []. apply evolve_same; reflexivity.
  - destruct (_ || _); [discriminate|]. injection E as _ <-. exists []. apply evolve_same; reflexivity.
  - destruct (ahas _ _ _); [|discriminate]. injection E as _ <-. exists []. apply evolve_same; reflexivity.
  - destruct (evolve_addLink (fun n => ~ removes (AddLink caller a) n) _ _ _ _ E) as (new & G & _). exists new. exact G.
  - destruct (evolve_removeLink _ _ _ _ E) as (new & G & _). exists new. intros W. destruct (G W) as (X1 & X2 & X3 & X4). split; [exact X1|]. split; [exact X2|]. split; [|exact X4].
    intros n l N. apply X3. intros EN. apply N. cbn [removes]. congruence.
  - destruct (dst =? net); [discriminate|]. destruct (ahas _ _ _); [discriminate|]. destruct (ahas _ _ _); [|discriminate]. injection E as _ <-. exists []. apply evolve_same; reflexivity.
  - destruct (ahas _ _ _); [|discriminate]. injection E as _ <-. exists []. apply evolve_same; reflexivity.
  - apply setFeeTable_keeps in E as (E1 & E2 & E3 & E4 & E5 & _). exists []. apply evolve_same; assumption.
  - injection E as _ <-. exists []. apply evolve_same; reflexivity.
  - destruct (getLink s a); [|discriminate]. destruct (isRelay s a r); [discriminate|]. injection E as _ <-. exists []. apply evolve_same; reflexivity.
  - destruct (getLink s a); [|discriminate]. destruct (remove_swap r (s_relays s a)); [|discriminate]. injection E as _ <-. exists []. apply evolve_same; reflexivity.
  - destruct (negb _); [discriminate|]. destruct (deployer =? a); [discriminate|]. destruct (existsb _ _); [discriminate|]. injection E as _ <-. exists []. apply evolve_same; reflexivity.
  - destruct (negb _); [discriminate|]. destruct (deployer =? a); [discriminate|]. destruct (remove_swap _ _); [|discriminate]. injection E as _ <-. exists []. apply evolve_same; reflexivity.
  - unfold setBTPLink in E. destruct (nid <? 1); [discriminate|]. destruct (s_offsets s nid); [discriminate|]. cbn [bind] in E.
    destruct (evolve_addLink (fun n => ~ removes (AddBTPLink caller a nid) n) _ _ _ _ E) as (new & G & _). exists new. eapply evolve_pre; [|exact G]. apply evolve_same; reflexivity.
  - destruct (getLink s a); [|discriminate]. unfold setBTPLink in E. destruct (nid <? 1); [discriminate|]. destruct (s_offsets s nid); [discriminate|]. injection E as _ <-. exists []. apply evolve_same; reflexivity.
  - eapply evolve_drop, E.
Qed.
Lemma wf_init : wf init.
Proof. repeat split; cbn; try constructor; try discriminate. Qed.
Lemma evolve_step : forall s o, exists new, evolve (fun n => ~ removes o n) s new (step own self deployer verify serve chain_ok s o).
Proof.
  intros s o. unfold step. destruct (exec own self deployer verify serve chain_ok s o) as [u s'|e s'] eqn:E; [eapply evolve_exec, E|].
  exists []. apply evolve_same; reflexivity.
Qed.
Lemma wf_step : forall s o, wf s -> wf (step own self deployer verify serve chain_ok s o).
Proof. intros s o W. destruct (evolve_step s o) as (new & G). apply (G W). Qed.
Lemma wf_run : forall ops s, wf s -> wf (fold_left (step own self deployer verify serve chain_ok) ops s).
Proof. induction ops as [|o ops IH]; intros s W; [exact W|]. cbn [fold_left]. apply IH, wf_step, W. Qed.
End BMC.
