(** What the functions of the message center for the EVM leave alone and what they count. *)
From Coq Require Import String Ascii ZArith List Bool Lia Permutation.
From Coq Require Import ZifyBool.
From Verif Require Import Base L_Base M_SolRlp M_BtpAddr M_Bridge M_JMap L_JMap M_SBmc S_SBmc.
From Verif Require S_JBmc.
Import ListNotations.
Open Scope Z_scope.

Lemma require_true : forall b A (f : unit -> option A) r, sbind (require b) f = Some r -> b = true /\ f tt = Some r.
Proof. intros [] A f r E; [auto|discriminate]. Qed.
Lemma sbind_some : forall A B (o : option A) (f : A -> option B) r, sbind o f = Some r -> exists a, o = Some a /\ f a = Some r.
Proof. intros A B [a|] f r E; [eauto|discriminate]. Qed.
Ltac chk E H := let E' := fresh in apply require_true in E as [H E']; rename E' into E.
Ltac bnd E a H := let E' := fresh in apply sbind_some in E as (a & H & E'); rename E' into E; cbv beta in E.

Lemma some_inj : forall A (a b : A), Some a = Some b -> b = a.
Proof. intros A a b E. congruence. Qed.
Ltac same E := apply some_inj in E; match type of E with ?x = _ => subst x end.

Lemma bytes_eqb_spec : forall a b, bytes_eqb a b = true <-> a = b.
Proof. exact bytes_eqb_eq. Qed.
Lemma bytes_eqb_refl : forall a, bytes_eqb a a = true.
Proof. intros a. apply bytes_eqb_spec. reflexivity. Qed.
Lemma bytes_eqb_false : forall a b, a <> b -> bytes_eqb a b = false.
Proof. intros a b N. destruct (bytes_eqb a b) eqn:E; [apply bytes_eqb_spec in E; congruence|reflexivity]. Qed.
Lemma bytes_eqb_sym : forall a b, bytes_eqb a b = bytes_eqb b a.
Proof. intros a b. destruct (bytes_eqb a b) eqn:E; destruct (bytes_eqb b a) eqn:F; try reflexivity; [apply bytes_eqb_spec in E|apply bytes_eqb_spec in F]; subst; rewrite bytes_eqb_refl in *; congruence. Qed.
Lemma text_dec : forall a b : text, {a = b} + {a <> b}.
Proof. intros a b. destruct (bytes_eqb a b) eqn:E; [left; apply bytes_eqb_spec, E|right; intros ->; rewrite bytes_eqb_refl in E; discriminate]. Qed.
Lemma tset_same : forall A (f : text -> A) k v, tset f k v k = v.
Proof. intros. unfold tset. rewrite bytes_eqb_refl. reflexivity. Qed.
Lemma tset_other : forall A (f : text -> A) k v x, x <> k -> tset f k v x = f x.
Proof. intros. unfold tset. rewrite bytes_eqb_false by assumption. reflexivity. Qed.

Lemma zseq_app : forall a b n, S_JBmc.zseq n (a + b) = S_JBmc.zseq n a ++ S_JBmc.zseq (n + Z.of_nat a) b.
Proof.
  induction a as [|a IH]; intros b n; cbn [Nat.add S_JBmc.zseq app]; [rewrite Z.add_0_r; reflexivity|]. rewrite IH. f_equal. f_equal. f_equal. lia.
Qed.
Lemma sent_to_app : forall k a b, sent_to k (a ++ b) = sent_to k a ++ sent_to k b.
Proof. intros k a b. induction a as [|o a IH]; cbn [app sent_to]; [reflexivity|]. destruct o; try exact IH. destruct (bytes_eqb k next); cbn [app]; rewrite IH; reflexivity. Qed.
Lemma started_app : forall a b, started (a ++ b) = started a ++ started b.
Proof. intros a b. induction a as [|o a IH]; cbn [app started]; [reflexivity|]. destruct o; try exact IH. destruct e; cbn [app]; rewrite ?IH; reflexivity. Qed.

(** What handling messages never changes in the administration. *)
Record same_adm (m m' : man) : Prop := SameAdm {
  sa_is : o_is m' = o_is m; sa_count : o_count m' = o_count m; sa_v : v_of m' = v_of m; sa_vk : v_keys m' = v_keys m; sa_h : h_of m' = h_of m; sa_hk : h_keys m' = h_keys m;
  sa_links : links m' = links m; sa_relays : relays_of m' = relays_of m; sa_handler : fee_handler m' = fee_handler m;
  sa_addr : forall k, l_addr (link_of m' k) = l_addr (link_of m k) }.
Lemma same_adm_refl : forall m, same_adm m m.
Proof. intros m. constructor; reflexivity. Qed.
Lemma same_adm_trans : forall a b c, same_adm a b -> same_adm b c -> same_adm a c.
Proof. intros a b c [] []. constructor; congruence. Qed.

(** The numbers: consecutive along the output. *)
Definition numbered (s : st) (new : list out) (s' : st) : Prop :=
  forall k, sent_to k new = zseq (tx_of (s_p s) k + 1) (length (sent_to k new)) /\ tx_of (s_p s') k = tx_of (s_p s) k + zlen (sent_to k new).
Definition counted (s : st) (new : list out) (s' : st) : Prop :=
  0 <= nsn_of (s_p s) -> started new = zseq (nsn_of (s_p s) + 1) (length (started new)) /\ nsn_of (s_p s') = nsn_of (s_p s) + zlen (started new).
Record evolve (s : st) (new : list out) (s' : st) : Prop := Evolve {
  ev_out : s_out s' = s_out s ++ new; ev_tx : numbered s new s'; ev_nsn : counted s new s'; ev_rx : rx_of (s_p s') = rx_of (s_p s); ev_adm : same_adm (s_m s) (s_m s') }.

Lemma numbered_trans : forall a n1 b n2 c, numbered a n1 b -> numbered b n2 c -> numbered a (n1 ++ n2) c.
Proof.
  intros a n1 b n2 c H1 H2 k. destruct (H1 k) as [A1 A2]. destruct (H2 k) as [B1 B2]. rewrite sent_to_app. unfold zlen in *. rewrite app_length. split.
  - rewrite zseq_app, <- A1. f_equal. rewrite B1 at 1. rewrite A2. f_equal. lia.
  - lia.
Qed.
Lemma counted_trans : forall a n1 b n2 c, counted a n1 b -> counted b n2 c -> counted a (n1 ++ n2) c.
Proof.
  intros a n1 b n2 c H1 H2 P. destruct (H1 P) as [A1 A2]. destruct H2 as [B1 B2]; [unfold zlen in A2; lia|]. rewrite started_app. unfold zlen in *. rewrite app_length. split.
  - rewrite zseq_app, <- A1. f_equal. rewrite B1 at 1. rewrite A2. f_equal. lia.
  - lia.
Qed.
Lemma evolve_trans : forall a n1 b n2 c, evolve a n1 b -> evolve b n2 c -> evolve a (n1 ++ n2) c.
Proof.
  intros a n1 b n2 c [A1 A2 A3 A4 A5] [B1 B2 B3 B4 B5]. constructor.
  - rewrite B1, A1, app_assoc. reflexivity.
  - eapply numbered_trans; eassumption.
  - eapply counted_trans; eassumption.
  - congruence.
  - eapply same_adm_trans; eassumption.
Qed.
Lemma numbered_refl : forall s s', s_p s' = s_p s -> numbered s [] s'.
Proof. intros s s' E k. rewrite E. cbn [sent_to length S_JBmc.zseq]. change (zlen (@nil Z)) with 0. split; [reflexivity|lia]. Qed.
Lemma counted_refl : forall s s', s_p s' = s_p s -> counted s [] s'.
Proof. intros s s' E P. rewrite E. cbn [started length S_JBmc.zseq]. change (zlen (@nil Z)) with 0. split; [reflexivity|lia]. Qed.
Lemma evolve_same : forall s s', s_p s' = s_p s -> same_adm (s_m s) (s_m s') -> s_out s' = s_out s -> evolve s [] s'.
Proof. intros s s' E A O. constructor; [rewrite app_nil_r; exact O|apply numbered_refl, E|apply counted_refl, E|rewrite E; reflexivity|exact A]. Qed.
Lemma evolve_s : forall s x, evolve s [] (with_s s x).
Proof. intros s x. apply evolve_same; try reflexivity. apply same_adm_refl. Qed.
(** an output that is neither a message nor the start of one *)
Definition quiet (o : out) : Prop := sent_to [] [o] = [] /\ (forall k, sent_to k [o] = []) /\ started [o] = [].
Lemma evolve_emit : forall s o, quiet o -> evolve s [o] (emit s o).
Proof.
  intros s o (_ & Q1 & Q2). constructor; try reflexivity.
  - intros k. rewrite Q1. cbn [length S_JBmc.zseq]. change (zlen (@nil Z)) with 0. split; [reflexivity|]. cbn [emit s_p]. lia.
  - intros P. rewrite Q2. cbn [length S_JBmc.zseq]. change (zlen (@nil Z)) with 0. split; [reflexivity|]. cbn [emit s_p]. lia.
  - apply same_adm_refl.
Qed.
Lemma evolve_eq : forall s new s' s2, evolve s new s' -> s_out s2 = s_out s' -> s_p s2 = s_p s' -> s_m s2 = s_m s' -> evolve s new s2.
Proof. intros s new s' s2 [A1 A2 A3 A4 A5] E1 E2 E3. constructor; unfold numbered, counted in *; rewrite ?E1, ?E2, ?E3; assumption. Qed.

Lemma event_some : forall s m next e s', event s m next e = Some s' -> s' = emit s (OEvent (fst (msg_id m)) (snd (msg_id m)) next e).
Proof.
  intros s m next e s' E. unfold event, msg_id in *. destruct (m_nsn m <? 0); cbn [fst snd].
  - bnd E n F. unfold cneg in F. destruct (_ =? _); [discriminate|]. congruence.
  - congruence.
Qed.
(** the state after [_sendMessage] *)
Definition sent (s : st) (next : text) (m : msg) : st :=
  emit (with_p s (Per (tset (tx_of (s_p s)) next (tx_of (s_p s) next + 1)) (rx_of (s_p s)) (nsn_of (s_p s)))) (OSent next (tx_of (s_p s) next + 1) m).
Lemma send_some : forall s next m e s', send s next m e = Some s' ->
  (exists b, encodeBTPMessage m = Some b) /\ s' = emit (sent s next m) (OEvent (fst (msg_id m)) (snd (msg_id m)) next e).
Proof. intros s next m e s' E. unfold send in E. bnd E b F. apply event_some in E. split; [eauto|exact E]. Qed.
Lemma numbered_sent : forall s next m, numbered s [OSent next (tx_of (s_p s) next + 1) m] (sent s next m).
Proof.
  intros s next m k. cbn [sent_to]. unfold sent. cbn [emit with_p s_p tx_of]. destruct (text_dec k next) as [->|N].
  - rewrite bytes_eqb_refl, tset_same. cbn [length S_JBmc.zseq]. unfold zlen. cbn [length]. split; [reflexivity|lia].
  - rewrite (bytes_eqb_false _ _ N), tset_other by exact N. cbn [length S_JBmc.zseq]. unfold zlen. cbn [length]. split; [reflexivity|lia].
Qed.
Lemma evolve_sent : forall s next m, evolve s [OSent next (tx_of (s_p s) next + 1) m] (sent s next m).
Proof.
  intros s next m. constructor; try reflexivity; [apply numbered_sent| |apply same_adm_refl]. intros P. cbn [started length S_JBmc.zseq]. unfold zlen. cbn [length]. split; [reflexivity|]. cbn [sent emit with_p s_p nsn_of]. lia.
Qed.
Lemma quiet_event : forall src n next e, e <> SEND -> quiet (OEvent src n next e).
Proof. intros src n next e N. split; [reflexivity|]. split; [reflexivity|]. destruct e; try reflexivity. congruence. Qed.
Lemma evolve_send : forall s next m e s', e <> SEND -> send s next m e = Some s' ->
  evolve s [OSent next (tx_of (s_p s) next + 1) m; OEvent (fst (msg_id m)) (snd (msg_id m)) next e] s'.
Proof.
  intros s next m e s' N E. apply send_some in E as [_ ->]. eapply (evolve_trans s [_]); [apply evolve_sent|]. apply evolve_emit, quiet_event, N.
Qed.
(** a message this network starts *)
Lemma evolve_start : forall s next m s', m_nsn m = nsn_of (s_p s) + 1 -> send (next_nsn s) next m SEND = Some s' ->
  exists o, evolve s [OSent next (tx_of (s_p s) next + 1) m; o] s' /\ is_fate o = false /\ (0 <= nsn_of (s_p s) -> o = OEvent (m_src m) (m_nsn m) next SEND).
Proof.
  intros s next m s' E1 E. apply send_some in E as [_ ->]. exists (OEvent (fst (msg_id m)) (snd (msg_id m)) next SEND). split; [|split; [reflexivity|]].
  - constructor; try reflexivity.
    + cbn [emit s_out sent with_p next_nsn s_p tx_of]. rewrite <- app_assoc. reflexivity.
    + intros k. destruct (numbered_sent s next m k) as [A1 A2]. cbn [sent_to] in *. destruct (bytes_eqb k next); split; assumption.
    + intros P. unfold msg_id. replace (m_nsn m <? 0) with false by lia. cbn [fst snd started length S_JBmc.zseq]. rewrite E1. unfold zlen. cbn [length emit s_p sent with_p nsn_of next_nsn]. split; [reflexivity|lia].
    + apply same_adm_refl.
  - intros P. unfold msg_id. replace (m_nsn m <? 0) with false by lia. reflexivity.
Qed.
Lemma quiet_dropped : forall a b c d e, quiet (ODropped a b c d e).
Proof. repeat split. Qed.
Lemma quiet_paid : forall a, quiet (OPaid a).
Proof. repeat split. Qed.

Lemma evolve_emit2 : forall s o1 o2, quiet o1 -> quiet o2 -> evolve s [o1; o2] (emit (emit s o1) o2).
Proof. intros s o1 o2 Q1 Q2. apply (evolve_trans s [o1] (emit s o1) [o2]); apply evolve_emit; assumption. Qed.
Lemma evolve_emit3 : forall s o1 o2 o3, quiet o1 -> quiet o2 -> quiet o3 -> evolve s [o1; o2; o3] (emit (emit (emit s o1) o2) o3).
Proof. intros s o1 o2 o3 Q1 Q2 Q3. apply (evolve_trans s [o1; o2] (emit (emit s o1) o2) [o3]); [apply evolve_emit2|apply evolve_emit]; assumption. Qed.
Lemma quiet_transfer : forall a b, quiet (OTransfer a b).
Proof. repeat split. Qed.
Lemma quiet_claim : forall a b c d e, quiet (OClaim a b c d e).
Proof. repeat split. Qed.

Section BMC.
Context (own : text) (self mgmt svcaddr : Z) (junk : list Z -> mem).
Context (verify : nat -> Z -> text -> Z -> list Z -> option (list (list Z))) (serve : nat -> Z -> bshcall -> action) (blame : nat -> text) (accepts : nat -> Z -> Z -> bool).

Lemma collectOverFee_some : forall s v s', collectOverFee own self s v = Some s' -> exists x, s' = with_s s x.
Proof.
  intros s v s' E. unfold collectOverFee in E. destruct (0 <? v).
  - bnd E x F. exists x. congruence.
  - exists (s_s s). assert (s' = s) by congruence. subst. destruct s; reflexivity.
Qed.
Definition no_fates (os : list out) : Prop := filter is_fate os = [].
Lemma no_fates_app : forall a b, no_fates a -> no_fates b -> no_fates (a ++ b).
Proof. intros a b A B. unfold no_fates in *. rewrite filter_app, A, B. reflexivity. Qed.

Lemma evolve_sendWithFee : forall s internal v to svc sn b r f s' n, sendWithFee own self s internal v to svc sn b r f = Some (s', n) ->
  exists new, evolve s new s' /\ no_fates new.
Proof.
  intros s internal v to svc sn b r f s' n E. unfold sendWithFee in E. bnd E next F1. destruct r.
  - bnd E y F2. bnd E s1 F3. bnd E k F4. bnd E s2 F5. assert (s2 = s') by congruence. subst s2. apply collectOverFee_some in F3 as (x & ->).
    apply evolve_send in F5; [|discriminate]. eexists. split; [eapply (evolve_trans _ []); [|exact F5]; apply evolve_same; try reflexivity; apply same_adm_refl|reflexivity].
  - cbv zeta in E. destruct internal.
    + bnd E s2 F5. assert (s2 = s') by congruence. subst s2. apply evolve_start in F5 as (o & G & NF & _); [|reflexivity]. eexists. split; [exact G|]. unfold no_fates. cbn [filter is_fate]. rewrite NF. reflexivity.
    + bnd E y F2. chk E F3. bnd E s1 F4. bnd E s2 F5. assert (s2 = s') by congruence. subst s2. apply collectOverFee_some in F4 as (x & ->).
      change (with_s (next_nsn s) x) with (next_nsn (with_s s x)) in F5. apply evolve_start in F5 as (o & G & NF & _); [|reflexivity].
      eexists. split; [eapply (evolve_trans _ []); [apply evolve_s|exact G]|]. unfold no_fates. cbn [filter is_fate app]. rewrite NF. reflexivity.
Qed.
Lemma evolve_sendMessage : forall s c v to svc sn b s' n, sendMessage own self svcaddr s c v to svc sn b = Some (s', n) -> exists new, evolve s new s' /\ no_fates new.
Proof.
  intros s c v to svc sn b s' n E. unfold sendMessage in E. cbv zeta in E. bnd E u F1. bnd E y F2. destruct y as [s1 n1]. injection E as <- _.
  assert (X : exists new, evolve s new s1 /\ no_fates new).
  { destruct (sn <? 0); [bnd F2 k F3|]; eapply evolve_sendWithFee; eassumption. }
  destruct X as (new & G & NF). exists (new ++ [OPaid v]). split; [|apply no_fates_app; [exact NF|reflexivity]]. eapply evolve_trans; [exact G|]. apply evolve_emit, quiet_paid.
Qed.
Lemma evolve_calls : forall cs s a s', run_calls own self svcaddr s a cs = Some s' -> exists new, evolve s new s' /\ no_fates new.
Proof.
  induction cs as [|c cs IH]; intros s a s' E; cbn [run_calls] in E.
  - exists []. split; [|reflexivity]. apply evolve_same; [congruence| |congruence]. assert (s' = s) by congruence. subst. apply same_adm_refl.
  - destruct (sendMessage _ _ _ _ _ _ _ _ _ _) as [[s1 n]|] eqn:E1.
    + apply evolve_sendMessage in E1 as (n1 & G1 & N1). apply IH in E as (n2 & G2 & N2). exists (n1 ++ n2). split; [eapply evolve_trans; eassumption|apply no_fates_app; assumption].
    + destruct (c_catch c); [|discriminate]. apply IH in E. exact E.
Qed.

(** reachability *)
Definition same_adm_m (m m' : man) := same_adm m m'.
Lemma adm_set_routes : forall m f l, same_adm m (set_routes m f l).
Proof. intros. constructor; reflexivity. Qed.
Lemma adm_removeFee : forall m d, same_adm m (removeFee m d).
Proof. intros. constructor; reflexivity. Qed.
Lemma adm_set_reach : forall m k l, same_adm m (set_links m (tset (link_of m) k (Lnk (l_addr (link_of m k)) l)) (links m)).
Proof.
  intros m k l. constructor; try reflexivity. intros x. cbn [set_links link_of]. destruct (text_dec x k) as [->|N]; [rewrite tset_same; reflexivity|rewrite tset_other by exact N; reflexivity].
Qed.
Lemma adm_addRouteInfo : forall m d k t, same_adm m (addRouteInfo m d k t).
Proof.
  intros m d k t. unfold addRouteInfo. set (m1 := if rtype_eqb _ _ then _ else m). assert (A : same_adm m m1) by (unfold m1; destruct (rtype_eqb _ _); [apply adm_set_routes|apply same_adm_refl]).
  destruct t; try exact A; (eapply same_adm_trans; [exact A|apply adm_set_routes]).
Qed.
Lemma adm_removeRouteInfo : forall m d by_ m', removeRouteInfo m d by_ = Some m' -> same_adm m m'.
Proof.
  intros m d by_ m' E. unfold removeRouteInfo in E. bnd E m1 F1. assert (A : same_adm m m1).
  { destruct by_; [|same F1; apply same_adm_refl]. cbv zeta in F1. bnd F1 n F2. same F1. apply adm_set_routes. }
  cbv zeta in E. eapply same_adm_trans; [exact A|]. clear A. destruct (0 <? r_reach (route_of m1 d)).
  - bnd E m2 F2. assert (A : same_adm m1 m2).
    { destruct (match by_ with None => true | Some link => _ end); [bnd F2 n F3; same F2; apply adm_set_routes|same F2; apply same_adm_refl]. }
    eapply same_adm_trans; [exact A|]. destruct by_; same E; [apply same_adm_refl|apply adm_set_routes].
  - bnd E l F2. same E. eapply same_adm_trans; [apply adm_set_routes|apply adm_removeFee].
Qed.
Lemma adm_addReachable : forall m f a m', addReachable m f a = Some m' -> same_adm m m'.
Proof.
  intros m f a m' E. unfold addReachable in E. cbv zeta in E. bnd E n F. same E. eapply same_adm_trans; [apply adm_set_reach|apply adm_addRouteInfo].
Qed.
Lemma adm_removeReachable : forall m f a m', removeReachable m f a = Some m' -> same_adm m m'.
Proof.
  intros m f a m' E. unfold removeReachable in E. cbv zeta in E. bnd E l F. bnd E n F2. apply adm_removeRouteInfo in E. eapply same_adm_trans; [apply adm_set_reach|exact E].
Qed.
Lemma adm_addReachables : forall l m f m', addReachables m f l = Some m' -> same_adm m m'.
Proof.
  induction l as [|a l IH]; intros m f m' E; cbn [addReachables] in E; [same E; apply same_adm_refl|]. bnd E m1 F. apply adm_addReachable in F. apply IH in E. eapply same_adm_trans; eassumption.
Qed.

Lemma evolve_handleResponse : forall s n r s', handleResponse s n r = Some s' -> exists new, evolve s new s' /\ no_fates new.
Proof.
  intros s n r s' E. unfold handleResponse in E. destruct (aget _ _ _) as [q|]; [|discriminate]. chk E P. cbv zeta in E. bnd E x F. same E.
  eexists. split; [eapply (evolve_trans _ []); [apply evolve_s|]; apply evolve_emit; repeat split|reflexivity].
Qed.
Lemma evolve_m : forall s m, same_adm (s_m s) m -> exists new, evolve s new (with_m s m) /\ no_fates new.
Proof. intros s m A. exists []. split; [|reflexivity]. apply evolve_same; try reflexivity. exact A. Qed.
Lemma evolve_internal : forall s f n b s', internalMessage own self svcaddr junk s f n b = Some s' -> exists new, evolve s new s' /\ no_fates new.
Proof.
  intros s f n b s' E. unfold internalMessage in E. bnd E y F. destruct y as [type p].
  destruct (bytes_eqb type (str "Claim")).
  - bnd E c F1. bnd E r F2. bnd E x F3. bnd E k F4. bnd E e F5. bnd E e2 F6. bnd E z F7. destruct z as [s1 n1]. same E. apply evolve_sendMessage in F7 as (new & G & NF).
    exists new. split; [|exact NF]. eapply (evolve_trans _ []); [apply evolve_s|exact G].
  - destruct (bytes_eqb type (str "Response")); [bnd E c F1; eapply evolve_handleResponse, E|].
    destruct (bytes_eqb type (str "Link")); [bnd E a F1; bnd E m F2; same E; apply evolve_m; eapply adm_addReachable, F2|].
    destruct (bytes_eqb type (str "Unlink")); [bnd E a F1; bnd E m F2; same E; apply evolve_m; eapply adm_removeReachable, F2|].
    destruct (bytes_eqb type (str "Init")); [bnd E a F1; bnd E m F2; same E; apply evolve_m; eapply adm_addReachables, F2|discriminate].
Qed.
Lemma evolve_service : forall s a c s', call_service own self mgmt svcaddr junk serve blame s a c = Some (inl s') -> exists new, evolve s new s' /\ no_fates new.
Proof.
  intros s a c s' E. unfold call_service in E. destruct (a =? svcaddr).
  - destruct c.
    + destruct (internalMessage _ _ _ _ _ _ _ _) eqn:F; [|discriminate]. injection E as ->. eapply evolve_internal, F.
    + destruct (internalError _ _ _) eqn:F; [|discriminate]. injection E as ->. eapply evolve_handleResponse, F.
  - destruct (_ || _); [discriminate|]. destruct (serve _ _ _); try discriminate. destruct (run_calls _ _ _ _ _ _) eqn:F; [|discriminate]. injection E as ->. eapply evolve_calls, F.
Qed.
Lemma evolve_handleMessage : forall s m s' e, handleMessage own self mgmt svcaddr junk serve blame s m = Some (s', e) -> exists new, evolve s new s' /\ no_fates new /\ (fst e <> ECODE_NONE -> s' = s).
Proof.
  intros s m s' e E. unfold handleMessage in E. cbv zeta in E. bnd E sn F1.
  assert (R : s' = s -> exists new, evolve s new s' /\ no_fates new /\ (fst e <> ECODE_NONE -> s' = s)).
  { intros ->. exists []. split; [apply evolve_same; try reflexivity; apply same_adm_refl|]. split; [reflexivity|]. intros _. reflexivity. }
  destruct (if bytes_eqb (m_svc m) BMC_SERVICE then Some svcaddr else _) as [a|]; [|apply R; congruence].
  assert (HC : forall c, sbind (call_service own self mgmt svcaddr junk serve blame s a c) (fun r => Some (match r with inl s' => (s', (ECODE_NONE, [])) | inr reason => (s, (if bytes_eqb (m_svc m) BMC_SERVICE then ECODE_UNKNOWN else ECODE_BSH_REVERT, reason)) end)) = Some (s', e) ->
    exists new, evolve s new s' /\ no_fates new /\ (fst e <> ECODE_NONE -> s' = s)).
  { intros c E2. bnd E2 r F2. destruct r as [s1|t]; [|apply R; congruence]. injection E2 as -> <-. apply evolve_service in F2 as (new & G & NF). exists new. split; [exact G|]. split; [exact NF|]. intros X. exfalso. apply X. reflexivity. }
  destruct (0 <=? m_sn m); [apply (HC _ E)|]. destruct (decodeResponseMessage junk (m_body m)) as [[code t]|]; [|apply R; congruence]. bnd E k F2. apply (HC _ E).
Qed.
Lemma evolve_sendError : forall s prev seq m code reason s', sendError own self s prev seq m code reason = Some s' -> exists new, evolve s new s'.
Proof.
  intros s prev seq m code reason s' E. unfold sendError in E. bnd E y F1. cbv zeta in E. cbn [with_fee m_sn m_nsn m_src m_svc m_fee] in E. destruct (0 <? m_sn m).
  - bnd E a F2. bnd E b F3. bnd E c F4. apply evolve_send in E; [|discriminate]. eexists. eapply (evolve_trans _ []); [apply evolve_s|exact E].
  - bnd E s1 F2. apply event_some in F2. bnd E b F3. same E. subst s1. eexists.
    eapply (evolve_trans _ []); [apply evolve_s|]. apply evolve_emit2; [apply quiet_event; discriminate|apply quiet_dropped].
Qed.
Lemma evolve_dispatch : forall s prev seq m s', dispatch own self mgmt svcaddr junk serve blame s prev seq m = Some s' -> exists new, evolve s new s'.
Proof.
  intros s prev seq m s' E. unfold dispatch in E. destruct (bytes_eqb (m_dst m) own).
  - bnd E y F1. destruct y as [s1 e]. apply evolve_handleMessage in F1 as (n1 & G1 & _). destruct (fst e =? ECODE_NONE).
    + apply event_some in E. subst s'. eexists. eapply evolve_trans; [exact G1|]. apply evolve_emit, quiet_event. discriminate.
    + bnd E s2 F2. apply evolve_sendError in E as (n2 & G2). exists (n1 ++ [] ++ n2). eapply evolve_trans; [exact G1|]. eapply evolve_trans; [|exact G2].
      destruct (0 <? m_sn m); [bnd F2 y F3; same F2; apply evolve_s|]. assert (s2 = s1) by congruence. subst. apply evolve_same; try reflexivity. apply same_adm_refl.
  - destruct (resolveNext _ _); [|eapply evolve_sendError, E]. apply evolve_send in E; [|discriminate]. eexists. exact E.
Qed.
Lemma evolve_dispatch_all : forall bs s c prev rx s', dispatch_all own self mgmt svcaddr junk serve blame s c prev rx bs = Some s' -> exists new, evolve s new s'.
Proof.
  induction bs as [|b bs IH]; intros s c prev rx s' E; cbn [dispatch_all] in E.
  - exists []. assert (s' = s) by congruence. subst. apply evolve_same; try reflexivity. apply same_adm_refl.
  - bnd E y F1. bnd E s1 F2. apply evolve_dispatch in F2 as (n1 & G1). apply IH in E as (n2 & G2). exists ([] ++ n1 ++ n2). eapply evolve_trans; [apply evolve_s|]. eapply evolve_trans; eassumption.
Qed.
Lemma evolve_sendInternal : forall s k b s', sendInternal own s k b = Some s' -> exists new, evolve s new s' /\ no_fates new.
Proof.
  intros s k b s' E. unfold sendInternal in E. bnd E net F. cbv zeta in E. apply evolve_start in E as (o & G & NF & _); [|reflexivity]. eexists. split; [exact G|]. unfold no_fates. cbn [filter is_fate]. rewrite NF. reflexivity.
Qed.
Lemma evolve_propagate : forall l s b s', propagate own s l b = Some s' -> exists new, evolve s new s' /\ no_fates new.
Proof.
  induction l as [|k l IH]; intros s b s' E; cbn [propagate] in E.
  - exists []. assert (s' = s) by congruence. subst. split; [|reflexivity]. apply evolve_same; try reflexivity. apply same_adm_refl.
  - bnd E s1 F. apply evolve_sendInternal in F as (n1 & G1 & N1). apply IH in E as (n2 & G2 & N2). exists (n1 ++ n2). split; [eapply evolve_trans; eassumption|apply no_fates_app; assumption].
Qed.
Lemma evolve_claim : forall s c v net r s', claimReward own self svcaddr accepts s c v net r = Some s' -> exists new, evolve s new s' /\ no_fates new.
Proof.
  intros s c v net r s' E. unfold claimReward in E. cbv zeta in E. bnd E y F1. destruct (bytes_eqb own net).
  - bnd E a F2. chk E F3. same E. eexists. split; [eapply (evolve_trans _ []); [apply evolve_s|]; apply evolve_emit3; [apply quiet_paid|apply quiet_transfer|apply quiet_claim]|reflexivity].
  - bnd E b F2. bnd E b2 F3. bnd E z F4. destruct z as [s1 n]. same E. apply evolve_sendWithFee in F4 as (new & G & NF).
    exists (new ++ [OPaid v; OClaim (if c =? fee_handler (s_m s) then self else c) net r (snd y) n]). split; [|apply no_fates_app; [exact NF|reflexivity]].
    eapply (evolve_trans _ []); [apply evolve_s|]. eapply evolve_trans; [exact G|]. eapply (evolve_trans _ []); [apply evolve_s|].
    apply evolve_emit2; [apply quiet_paid|apply quiet_claim].
Qed.
End BMC.
