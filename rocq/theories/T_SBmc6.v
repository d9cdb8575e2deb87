(** Theorems about the message center for the EVM: tables and routes, C80. *)
From Coq Require Import String Ascii ZArith List Bool Lia Permutation.
From Coq Require Import ZifyBool.
From Verif Require Import Base L_Base M_SolRlp S_SolRlp M_BtpAddr M_Bridge M_JMap L_JMap M_SBmc S_SBmc S_SBmc2 L_SBmc L_SBmc2 L_SBmc3 X_SBmc T_SBmc.
From Verif Require S_JBmc M_SolCall.
Import ListNotations.
Open Scope Z_scope.

Section BMC.
Variable own : text.
Variables self mgmt svcaddr : Z.
Variable junk : list Z -> mem.
Variable verify : nat -> Z -> text -> Z -> list Z -> option (list (list Z)).
Variable serve : nat -> Z -> bshcall -> action.
Variable blame : nat -> text.
Variable accepts : nat -> Z -> Z -> bool.
Notation exec := (M_SBmc.exec own self mgmt svcaddr junk verify serve blame accepts).
Notation step := (M_SBmc.step own self mgmt svcaddr junk verify serve blame accepts).
Notation run := (M_SBmc.run own self mgmt svcaddr junk verify serve blame accepts).
Notation outside := (S_SBmc.outside self mgmt svcaddr).
Notation asked := (S_SBmc2.asked own svcaddr junk).
Notation asks := (S_SBmc2.asks junk).

(** ** what leaves the tables alone *)
Lemma man_event : forall s m next e s', event s m next e = Some s' -> s_m s' = s_m s.
Proof. intros s m next e s' E. unfold event in E. destruct (_ <? _); [bnd E n F|]; same E; reflexivity. Qed.
Lemma man_send : forall s next m e s', send s next m e = Some s' -> s_m s' = s_m s.
Proof. intros s next m e s' E. unfold send in E. bnd E b F. cbv zeta in E. apply man_event in E. exact E. Qed.
Lemma man_over : forall s v s', collectOverFee own self s v = Some s' -> s_m s' = s_m s.
Proof. intros s v s' E. unfold collectOverFee in E. destruct (_ <? _); [bnd E x F|]; same E; reflexivity. Qed.
Lemma man_sendWithFee : forall s internal v to svc sn b r f y, sendWithFee own self s internal v to svc sn b r f = Some y -> s_m (fst y) = s_m s.
Proof.
  intros s internal v to svc sn b r f y E. unfold sendWithFee in E. bnd E next F. destruct r.
  - bnd E z F2. bnd E s1 F3. bnd E n F4. bnd E s2 F5. same E. apply man_send in F5. apply man_over in F3. cbn [fst]. rewrite F5, F3. reflexivity.
  - cbv zeta in E. destruct internal.
    + bnd E s1 F2. same E. apply man_send in F2. exact F2.
    + bnd E z F2. chk E H. bnd E s1 F3. bnd E s2 F4. same E. apply man_send in F4. apply man_over in F3. cbn [fst]. rewrite F4, F3. reflexivity.
Qed.
Lemma man_sendMessage : forall s c v to svc sn b y, sendMessage own self svcaddr s c v to svc sn b = Some y -> s_m (fst y) = s_m s.
Proof.
  intros s c v to svc sn b y E. unfold sendMessage in E. bnd E u F1. bnd E z F2. same E. change (s_m (fst z) = s_m s). destruct (sn <? 0); [bnd F2 n F3|]; eapply man_sendWithFee; eassumption.
Qed.
Lemma man_calls : forall cs s a s', run_calls own self svcaddr s a cs = Some s' -> s_m s' = s_m s.
Proof.
  induction cs as [|c cs IH]; intros s a s' E; cbn [run_calls] in E; [same E; reflexivity|]. destruct (sendMessage _ _ _ _ _ _ _ _ _ _) as [[s1 n]|] eqn:F; [apply man_sendMessage in F; apply IH in E; cbn [fst] in F; congruence|].
  destruct (c_catch c); [|discriminate]. eapply IH, E.
Qed.
Lemma man_handleResponse : forall s n r s', handleResponse s n r = Some s' -> s_m s' = s_m s.
Proof. intros s n r s' E. unfold handleResponse in E. destruct (aget _ _ _); [|discriminate]. chk E H. cbv zeta in E. bnd E x F. same E. reflexivity. Qed.
Lemma man_sendError : forall s prev seq m code reason s', sendError own self s prev seq m code reason = Some s' -> s_m s' = s_m s.
Proof.
  intros s prev seq m code reason s' E. unfold sendError in E. bnd E y F. cbv zeta in E. destruct (0 <? _).
  - bnd E a F2. bnd E b F3. bnd E c F4. apply man_send in E. exact E.
  - bnd E s1 F2. bnd E b F3. same E. apply man_event in F2. exact F2.
Qed.
Lemma man_sendInternal : forall s k b s', sendInternal own s k b = Some s' -> s_m s' = s_m s.
Proof. intros s k b s' E. unfold sendInternal in E. bnd E n F. cbv zeta in E. apply man_send in E. exact E. Qed.
Lemma man_propagate : forall l s b s', propagate own s l b = Some s' -> s_m s' = s_m s.
Proof. induction l as [|k l IH]; intros s b s' E; cbn [propagate] in E; [same E; reflexivity|]. bnd E s1 F. apply man_sendInternal in F. apply IH in E. congruence. Qed.
Lemma man_claim : forall s c v net r s', claimReward own self svcaddr accepts s c v net r = Some s' -> s_m s' = s_m s.
Proof.
  intros s c v net r s' E. unfold claimReward in E. cbv zeta in E. bnd E y F. destruct (bytes_eqb own net).
  - bnd E a F2. chk E H. same E. reflexivity.
  - bnd E a F2. bnd E b F3. bnd E z F4. destruct z as [s1 n]. same E. apply man_sendWithFee in F4. exact F4.
Qed.
Lemma man_drop : forall s src seq svc sn nsn fn fv s', dropMessage own self s src seq svc sn nsn fn fv = Some s' -> s_m s' = s_m s.
Proof.
  intros s src seq svc sn nsn fn fv s' E. unfold dropMessage in E. bnd E k F1. chk E H1. chk E H2. bnd E y F2. unfold p_dropMessage in E. chk E H3. apply man_sendError in E. exact E.
Qed.

(** ** relayed messages *)
Lemma announces : forall l m f m', addReachables m f l = Some m' -> trun m (map (TAnnounce f) l) = Some m'.
Proof.
  induction l as [|a l IH]; intros m f m' E; cbn [addReachables] in E; cbn [map trun]; [exact E|]. bnd E m1 F. cbn [tstep]. rewrite F. cbn [sbind]. apply IH, E.
Qed.
Lemma ask_internal : forall s m n s', internalMessage own self svcaddr junk s (m_src m) n (m_body m) = Some s' -> trun (s_m s) (asks m) = Some (s_m s').
Proof.
  intros s m n s' E. unfold internalMessage in E. unfold S_SBmc2.asks. bnd E y F. rewrite F. destruct y as [type p].
  destruct (bytes_eqb type (str "Claim")) eqn:T1.
  { apply bytes_eqb_spec in T1. subst type. bnd E c F1. bnd E r F2. bnd E x F3. bnd E k F4. bnd E e F5. bnd E e2 F6. bnd E z F7. destruct z as [s1 n1]. same E. apply man_sendMessage in F7. cbn [fst] in F7 |- *. rewrite F7. reflexivity. }
  destruct (bytes_eqb type (str "Response")) eqn:T2.
  { apply bytes_eqb_spec in T2. subst type. bnd E c F1. apply man_handleResponse in E. rewrite E. reflexivity. }
  destruct (bytes_eqb type (str "Link")); [bnd E a F1; bnd E m1 F2; same E; rewrite F1; cbn [trun tstep]; rewrite F2; reflexivity|].
  destruct (bytes_eqb type (str "Unlink")); [bnd E a F1; bnd E m1 F2; same E; rewrite F1; cbn [trun tstep]; rewrite F2; reflexivity|].
  destruct (bytes_eqb type (str "Init")); [|discriminate]. bnd E a F1. bnd E m1 F2. same E. rewrite F1. cbn [with_m s_m]. apply announces, F2.
Qed.
Lemma ask_service : forall s a c s', call_service own self mgmt svcaddr junk serve blame s a c = Some (inl s') ->
  s_m s' = s_m s \/ match c with BMessage src _ _ b => a = svcaddr /\ forall m, m_src m = src -> m_body m = b -> trun (s_m s) (asks m) = Some (s_m s') | _ => False end.
Proof.
  intros s a c s' E. unfold call_service in E. destruct (a =? svcaddr) eqn:A.
  - destruct c as [src svc n b|src svc n code t].
    + destruct (internalMessage _ _ _ _ _ _ _ _) as [s1|] eqn:F; [|discriminate]. assert (s1 = s') by congruence. subst s1. right. split; [lia|]. intros m <- <-. eapply ask_internal, F.
    + destruct (internalError _ _ _) as [s1|] eqn:F; [|discriminate]. assert (s1 = s') by congruence. subst s1. left. eapply man_handleResponse, F.
  - destruct ((a =? self) || (a =? mgmt)); [discriminate|]. destruct (serve _ _ _); try discriminate. destruct (run_calls _ _ _ _ _ _) as [s1|] eqn:F; [|discriminate]. assert (s1 = s') by congruence. subst s1. left. eapply man_calls, F.
Qed.

Lemma man_fee : forall s x, s_m (with_s s x) = s_m s.
Proof. reflexivity. Qed.
Lemma handleFee_some : forall x c b x' m, handleFee own self junk x c b = Some (x', m) -> exists f, decodeBTPMessage junk b = Some (with_fee m f).
Proof.
  intros x c b x' m E. unfold handleFee in E. bnd E m0 F1. bnd E y F2. destruct y as [x1 f1]. cbv zeta in E. exists (m_fee m0). rewrite F1. f_equal.
  destruct (bytes_eqb _ _); [destruct (0 <? _); bnd E z F3|]; (apply some_inj in E; injection E as -> ->); destruct m0; reflexivity.
Qed.
Lemma ask_message : forall s m s' e, handleMessage own self mgmt svcaddr junk serve blame s m = Some (s', e) ->
  s_m s' = s_m s \/ (trun (s_m s) (asks m) = Some (s_m s') /\ 0 <= m_sn m /\ (m_svc m = BMC_SERVICE \/ h_of (s_m s) (m_svc m) = svcaddr)).
Proof.
  intros s m s' e E. unfold handleMessage in E. cbv zeta in E. bnd E sn F1. destruct (if bytes_eqb (m_svc m) BMC_SERVICE then Some svcaddr else getService (s_m s) (m_svc m)) as [a|] eqn:A; [|left; congruence].
  destruct (0 <=? m_sn m) eqn:P.
  - bnd E r F2. destruct r as [s1|t]; [|left; congruence]. assert (s1 = s') by congruence. subst s1. apply ask_service in F2 as [F2|[X1 X2]]; [left; exact F2|]. right. split; [apply X2; reflexivity|split; [lia|]].
    destruct (bytes_eqb (m_svc m) BMC_SERVICE) eqn:B; [left; apply bytes_eqb_spec, B|]. right. unfold getService in A. chk A H. congruence.
  - destruct (decodeResponseMessage _ _) as [[code t]|]; [|left; congruence]. bnd E k F2. bnd E r F3. destruct r as [s1|t1]; [|left; congruence]. assert (s1 = s') by congruence. subst s1. apply ask_service in F3 as [F3|[]]. left. exact F3.
Qed.
Lemma ask_dispatch : forall s prev seq m s', dispatch own self mgmt svcaddr junk serve blame s prev seq m = Some s' ->
  s_m s' = s_m s \/ (trun (s_m s) (asks m) = Some (s_m s') /\ m_dst m = own /\ 0 <= m_sn m /\ (m_svc m = BMC_SERVICE \/ h_of (s_m s) (m_svc m) = svcaddr)).
Proof.
  intros s prev seq m s' E. unfold dispatch in E. destruct (bytes_eqb (m_dst m) own) eqn:D.
  - apply bytes_eqb_spec in D. bnd E y F1. destruct y as [s1 e]. apply ask_message in F1. assert (X : s_m s' = s_m s1).
    { destruct (fst e =? ECODE_NONE); [apply man_event in E; exact E|]. bnd E s2 F2. apply man_sendError in E. destruct (0 <? m_sn m); [bnd F2 y F3|]; same F2; exact E. }
    rewrite X. destruct F1 as [F1|(A & B & C)]; [left; exact F1|right]. split; [exact A|]. split; [exact D|]. split; [exact B|exact C].
  - left. destruct (resolveNext _ _); [eapply man_send, E|eapply man_sendError, E].
Qed.
Lemma ask_all : forall bs s c prev rx s', dispatch_all own self mgmt svcaddr junk serve blame s c prev rx bs = Some s' -> exists es, trun (s_m s) es = Some (s_m s') /\ asked (h_of (s_m s)) bs es.
Proof.
  induction bs as [|b bs IH]; intros s c prev rx s' E; cbn [dispatch_all] in E; [same E; exists []; split; [reflexivity|constructor]|]. bnd E y F1. bnd E s1 F2. destruct y as [x m]. cbn [fst snd] in F2. apply IH in E as (e2 & T2 & A2).
  assert (H : h_of (s_m s1) = h_of (s_m s)). { pose proof (evolve_dispatch _ _ _ _ _ _ _ _ _ _ _ _ F2) as (n & G). destruct G as [_ _ _ _ [_ _ _ _ G _ _ _ _ _]]. exact G. } rewrite H in A2.
  apply handleFee_some in F1 as (f & F1). apply ask_dispatch in F2 as [X|(X1 & X2 & X3 & X4)].
  - cbn [with_s s_m] in X. exists e2. rewrite X in T2. split; [exact T2|]. apply asked_skip, A2.
  - exists (asks m ++ e2). rewrite trun_app. cbn [with_s s_m] in X1. rewrite X1. cbn [sbind]. split; [exact T2|].
    change (asks m) with (asks (with_fee m f)). apply asked_do; [exact F1|exact X2|exact X4|exact X3|exact A2].
Qed.
Lemma ask_relay : forall s c prev bytes s', handleRelay own self mgmt svcaddr junk verify serve blame s c prev bytes = Some s' ->
  exists es net bs, networkAddress prev = Some net /\ verify (length (s_out s)) (v_of (s_m s) net) prev (rx_of (s_p s) prev) bytes = Some bs /\ asked (h_of (s_m s)) bs es /\ trun (s_m s) es = Some (s_m s').
Proof.
  intros s c prev bytes s' E. unfold handleRelay in E. bnd E net F1. cbv zeta in E. bnd E v F2. bnd E bs F3. bnd E b F4. chk E H. bnd E s1 F5. same E. apply ask_all in F5 as (es & T & A). exists es, net, bs. split; [exact F1|].
  unfold getVerifier in F2. chk F2 H2. same F2. split; [exact F3|]. split; [exact A|exact T].
Qed.

(** ** administration *)
Lemma ask_addLink : forall s link s', addLink own s link = Some s' -> t_addLink (s_m s) link = Some (s_m s').
Proof.
  intros s link s' E. unfold addLink in E. unfold t_addLink. bnd E n F1. rewrite F1. cbn [sbind]. chk E H1. rewrite H1. chk E H2. rewrite H2. cbn [require sbind]. bnd E p F2. bnd E b F3. bnd E s1 F4. bnd E i F5. bnd E b2 F6.
  apply man_propagate in F4. cbv zeta in E. apply man_sendInternal in E. rewrite E, F4. reflexivity.
Qed.
Lemma ask_removeLink : forall s link s', removeLink own s link = Some s' -> t_removeLink (s_m s) link = Some (s_m s').
Proof.
  intros s link s' E. unfold removeLink in E. unfold t_removeLink. cbv zeta in E. chk E H1. rewrite H1. chk E H2. rewrite H2. cbn [require sbind]. bnd E n F1. rewrite F1. cbn [sbind]. bnd E m1 F2. rewrite F2. cbn [sbind].
  bnd E l F3. rewrite F3. cbn [sbind]. cbv zeta. bnd E m2 F4. rewrite F4. cbn [sbind]. bnd E p F5. bnd E b F6. apply man_propagate in E. rewrite E. reflexivity.
Qed.
Lemma fees_only : forall l m m', setFeeTable m l = Some m' -> same_tables m m'.
Proof.
  induction l as [|[d vs] l IH]; intros m m' E; cbn [setFeeTable] in E; [same E; split; [|split; [|split]]; reflexivity|]. destruct vs as [|v vs]; [|chk E H; bnd E u F]; apply IH in E as (A & B & C & D); (split; [exact A|split; [exact B|split; [exact C|exact D]]]).
Qed.
Lemma same_tables_refl : forall m, same_tables m m.
Proof. intros m. split; [|split; [|split]]; reflexivity. Qed.

(** The tables of links and routes change only by relayed messages for the message center that announce and withdraw, and by owners. *)
Theorem C80_who_routes : forall s o s', caller_of o <> self /\ caller_of o <> mgmt /\ caller_of o <> svcaddr -> exec s o = Some s' ->
  exists es m, caused own svcaddr junk verify s o es /\ trun (s_m s) es = Some m /\ same_tables m (s_m s') /\
    (es <> [] -> match o with HandleRelay c prev _ => isLinkRelay (s_m s) prev c = Some true | _ => o_is (s_m s) (caller_of o) = true end).
Proof.
  intros s o s' OUT E.
  assert (Q : forall m, s_m s' = m -> same_tables (s_m s) m -> caused own svcaddr junk verify s o [] -> exists es m, caused own svcaddr junk verify s o es /\ trun (s_m s) es = Some m /\ same_tables m (s_m s') /\
    (es <> [] -> match o with HandleRelay c prev _ => isLinkRelay (s_m s) prev c = Some true | _ => o_is (s_m s) (caller_of o) = true end)).
  { intros m <- ST CA. exists [], (s_m s). split; [exact CA|]. split; [reflexivity|]. split; [exact ST|]. congruence. }
  destruct o; cbn [M_SBmc.exec] in E; cbn [caller_of] in *.
  - pose proof E as E2. unfold handleRelay in E2. bnd E2 n F1. cbv zeta in E2. bnd E2 v F2. bnd E2 bs F3. bnd E2 b F4. chk E2 H. subst b. apply ask_relay in E as (es & net & bs2 & A & B & C & D). exists es, (s_m s').
    split; [exists net, bs2; split; [exact A|split; [exact B|exact C]]|]. split; [exact D|]. split; [apply same_tables_refl|]. intros _. exact F4.
  - bnd E y F. same E. apply man_sendMessage in F. eapply Q; [exact F|apply same_tables_refl|reflexivity].
  - apply man_claim in E. eapply Q; [exact E|apply same_tables_refl|reflexivity].
  - same E. eapply Q; [reflexivity|apply same_tables_refl|reflexivity].
  - apply admin_some in E as (_ & m & E & ->). chk E H. same E. eapply Q; [reflexivity|split; [|split; [|split]]; reflexivity|reflexivity].
  - apply admin_some in E as (_ & m & E & ->). chk E H. same E. eapply Q; [reflexivity|split; [|split; [|split]]; reflexivity|reflexivity].
  - apply admin_some in E as (_ & m & E & ->). chk E H. same E. eapply Q; [reflexivity|split; [|split; [|split]]; reflexivity|reflexivity].
  - apply admin_some in E as (_ & m & E & ->). chk E H. bnd E l F. same E. eapply Q; [reflexivity|split; [|split; [|split]]; reflexivity|reflexivity].
  - apply admin_some in E as (_ & m & E & ->). chk E H. same E. eapply Q; [reflexivity|split; [|split; [|split]]; reflexivity|reflexivity].
  - apply admin_some in E as (_ & m & E & ->). chk E H. bnd E l F. same E. eapply Q; [reflexivity|split; [|split; [|split]]; reflexivity|reflexivity].
  - apply owner_some in E as (O & E). apply ask_addLink in E. eexists _, _. split; [reflexivity|]. cbn [trun tstep]. rewrite E. split; [reflexivity|]. split; [apply same_tables_refl|]. intros _. exact O.
  - apply owner_some in E as (O & E). apply ask_removeLink in E. eexists _, _. split; [reflexivity|]. cbn [trun tstep]. rewrite E. split; [reflexivity|]. split; [apply same_tables_refl|]. intros _. exact O.
  - apply admin_some in E as (_ & m & E & ->). chk E H. same E. eapply Q; [reflexivity|split; [|split; [|split]]; reflexivity|reflexivity].
  - apply admin_some in E as (_ & m & E & ->). chk E H. bnd E l F. same E. eapply Q; [reflexivity|split; [|split; [|split]]; reflexivity|reflexivity].
  - apply admin_some in E as (O & m & E & ->). chk E H. same E. eexists _, _. split; [reflexivity|]. cbn [trun tstep]. rewrite H. cbn [require sbind]. split; [reflexivity|]. split; [apply same_tables_refl|]. intros _. exact O.
  - apply admin_some in E as (O & m & E & ->). chk E H. eexists _, _. split; [reflexivity|]. cbn [trun tstep]. rewrite H. cbn [require sbind]. rewrite E. split; [reflexivity|]. split; [apply same_tables_refl|]. intros _. exact O.
  - apply admin_some in E as (_ & m & E & ->). apply fees_only in E. eapply Q; [reflexivity|exact E|reflexivity].
  - apply admin_some in E as (_ & m & E & ->). same E. eapply Q; [reflexivity|split; [|split; [|split]]; reflexivity|reflexivity].
  - apply owner_some in E as (_ & E). apply man_drop in E. eapply Q; [exact E|apply same_tables_refl|reflexivity].
  - exfalso. destruct OUT as (O1 & O2 & O3). destruct (caller =? inner_caller self mgmt svcaddr i) eqn:C; [|discriminate]. apply Z.eqb_eq in C. destruct i; cbn [inner_caller] in C; contradiction.
Qed.

(** ** tables and lists *)
Lemma tidy_R : forall m, tidy m -> tidyR m.
Proof. intros m [[A B] C D E _ _ _]. constructor; assumption. Qed.
(** services and verifiers *)
Definition listed_keys (f : text -> Z) (l : list text) : Prop := NoDup l /\ forall k, In k l <-> f k <> 0.
Lemma listed_add : forall f l k a, listed_keys f l -> a <> 0 -> f k = 0 -> listed_keys (tset f k a) (l ++ [k]).
Proof.
  intros f l k a [N I] A K. split.
  - apply nodup_more; [exact N|]. rewrite I. congruence.
  - intros x. rewrite in_app_iff, I. cbn [In]. destruct (text_dec x k) as [->|X]; [rewrite tset_same; tauto|rewrite tset_other by exact X]. split; [intros [H|[H|[]]]; [exact H|congruence]|auto].
Qed.
Lemma listed_remove : forall f l k l', listed_keys f l -> removeFrom bytes_eqb l k = Some l' -> listed_keys (tset f k 0) l'.
Proof.
  intros f l k l' [N I] E. apply removeFrom_some in E as [_ ->]. pose proof (swap_out_nodup bytes_eqb bytes_eqb_spec k l N) as [S1 S2]. split; [exact S1|]. intros x. rewrite S2. destruct (text_dec x k) as [->|X]; [rewrite tset_same; tauto|rewrite tset_other by exact X; rewrite I; tauto].
Qed.
Definition relays_ok (m : man) : Prop := forall k, NoDup (relays_of m k) /\ ~ In 0 (relays_of m k) /\ (l_addr (link_of m k) = [] -> relays_of m k = []).
Lemma tidy_intro : forall m, tidyR m -> listed_keys (h_of m) (h_keys m) -> listed_keys (v_of m) (v_keys m) -> relays_ok m -> tidy m.
Proof. intros m [A B C D E] H V R. constructor; try assumption. split; assumption. Qed.
Lemma tidy_adm : forall m m', tidy m -> same_adm m m' -> tidyR m' -> tidy m'.
Proof.
  intros m m' T S R. destruct S. apply tidy_intro; [exact R| | |].
  - rewrite sa_h, sa_hk. apply (ty_services _ T).
  - rewrite sa_v, sa_vk. apply (ty_verifiers _ T).
  - intros k. rewrite sa_relays, sa_addr. apply (ty_relays _ T).
Qed.
Lemma tidy_addLink : forall m k m', tidy m -> t_addLink m k = Some m' -> tidy m'.
Proof.
  intros m k m' T E. assert (R : tidyR m') by (apply (tidyR_step m (TAddLink k)); [apply tidy_R, T|exact E]). unfold t_addLink in E. bnd E d F. chk E H1. chk E H2. same E.
  pose proof (addRouteInfo_is (set_links m (tset (link_of m) k (Lnk k [])) (links m ++ [k])) d k TLink) as (Q & _). cbv zeta in Q. destruct Q. cbn [set_links v_of v_keys h_of h_keys link_of relays_of links] in *.
  apply tidy_intro; [exact R| | |].
  - rewrite sr_h, sr_hk. apply (ty_services _ T).
  - rewrite sr_v, sr_vk. apply (ty_verifiers _ T).
  - intros x. rewrite sr_relays, sr_link. destruct (ty_relays _ T x) as (A & B & C). split; [exact A|]. split; [exact B|]. destruct (text_dec x k) as [->|X]; [|rewrite tset_other by exact X; exact C]. rewrite tset_same. cbn [l_addr]. intros ->. discriminate.
Qed.
Lemma same_removeReached : forall l m k m', removeReached m k l = Some m' -> same_rest m m'.
Proof.
  induction l as [|a l IH]; intros m k m' E; cbn [removeReached] in E; [same E; apply same_rest_refl|]. bnd E n F1. bnd E m1 F2. pose proof (removeRouteInfo_is _ _ _ _ F2) as X. cbv zeta in X. destruct X as (Q1 & _). apply IH in E. eapply same_rest_trans; eassumption.
Qed.
Lemma tidy_removeLink : forall m k m', tidy m -> t_removeLink m k = Some m' -> tidy m'.
Proof.
  intros m k m' T E. assert (R : tidyR m') by (apply (tidyR_step m (TRemoveLink k)); [apply tidy_R, T|exact E]). unfold t_removeLink in E. chk E H1. chk E H2. bnd E d F1. bnd E m1 F2. bnd E l F3. cbv zeta in E. bnd E m2 F4. same E.
  pose proof (removeRouteInfo_is _ _ _ _ F2) as X. cbv zeta in X. destruct X as (Q1 & _). apply same_removeReached in F4. destruct Q1. destruct F4. cbn [set_links set_relays v_of v_keys h_of h_keys link_of relays_of links] in *.
  apply tidy_intro; [exact R| | |]; cbn [set_links set_relays v_of v_keys h_of h_keys].
  - rewrite sr_h0, sr_hk0, sr_h, sr_hk. apply (ty_services _ T).
  - rewrite sr_v0, sr_vk0, sr_v, sr_vk. apply (ty_verifiers _ T).
  - intros x. cbn [set_links set_relays relays_of link_of]. rewrite sr_relays0, sr_link0, sr_relays, sr_link. destruct (text_dec x k) as [->|X]; [rewrite !tset_same; split; [constructor|split; [intros []|reflexivity]]|rewrite !tset_other by exact X; apply (ty_relays _ T)].
Qed.
Lemma tidy_fees : forall l m m', tidy m -> setFeeTable m l = Some m' -> tidy m'.
Proof.
  induction l as [|[d vs] l IH]; intros m m' T E; cbn [setFeeTable] in E; [same E; exact T|].
  assert (X : forall v, (v <> [] -> r_type (route_of m d) <> TNone /\ Nat.even (length v) = true) -> tidy (set_fees m (tset (fees_of m) d v))).
  { intros v V. destruct T. constructor; cbn [set_fees routes route_of fees_of h_of h_keys v_of v_keys relays_of link_of]; try assumption. intros x. destruct (text_dec x d) as [->|N]; [rewrite tset_same; exact V|rewrite tset_other by exact N; apply ty_fees]. }
  destruct vs as [|v vs].
  - eapply IH; [|exact E]. apply X. congruence.
  - chk E H1. bnd E u F. eapply IH; [|exact E]. apply X. intros _. split; [|exact H1]. destruct (_ =? 2)%nat.
    + destruct (existsLink m d) eqn:L; [|discriminate]. unfold existsLink in L. apply rtype_eqb_spec in L. congruence.
    + bnd F y F2. unfold resolveNext in F2. destruct (rtype_eqb _ _) eqn:L; [discriminate|]. apply rtype_none, L.
Qed.
Lemma nodup_swapz : forall l a, NoDup l -> ~ In 0 l -> NoDup (swap_out Z.eqb a l) /\ ~ In 0 (swap_out Z.eqb a l).
Proof. intros l a N Z. destruct (swap_out_nodup Z.eqb Z.eqb_eq a l N) as [S1 S2]. split; [exact S1|]. rewrite S2. tauto. Qed.
Lemma tidy_relays : forall m k l, tidy m -> NoDup l -> ~ In 0 l -> (l_addr (link_of m k) = [] -> l = []) -> tidy (set_relays m (tset (relays_of m) k l)).
Proof.
  intros m k l T A B C. destruct T. constructor; cbn [set_relays routes route_of fees_of h_of h_keys v_of v_keys relays_of link_of]; try assumption. intros x. destruct (text_dec x k) as [->|N]; [rewrite tset_same; split; [exact A|split; [exact B|exact C]]|rewrite tset_other by exact N; apply ty_relays].
Qed.
Lemma tidy_step : forall s o s', caller_of o <> self /\ caller_of o <> mgmt /\ caller_of o <> svcaddr -> exec s o = Some s' -> tidy (s_m s) -> tidy (s_m s').
Proof.
  intros s o s' OUT E T. assert (Q : s_m s' = s_m s -> tidy (s_m s')) by (intros ->; exact T).
  destruct o; cbn [M_SBmc.exec] in E; cbn [caller_of] in *.
  - pose proof E as E2. apply ask_relay in E as (es & net & bs & _ & _ & _ & D). apply (tidy_adm _ _ T); [|eapply tidyR_run; [apply tidy_R, T|exact D]].
    unfold handleRelay in E2. bnd E2 n F1. cbv zeta in E2. bnd E2 v F2. bnd E2 bs2 F3. bnd E2 b F4. chk E2 H. bnd E2 s1 F5. same E2. apply evolve_dispatch_all in F5 as (new & G). apply G.
  - bnd E y F. same E. apply man_sendMessage in F. apply Q, F.
  - apply man_claim in E. apply Q, E.
  - same E. exact T.
  - apply admin_some in E as (_ & m & E & ->). chk E H. same E. destruct T. constructor; assumption.
  - apply admin_some in E as (_ & m & E & ->). chk E H. same E. destruct T. constructor; assumption.
  - apply admin_some in E as (_ & m & E & ->). chk E H. same E. apply andb_prop in H as [H1 H2]. apply tidy_intro; [eapply tidyR_same; [apply tidy_R, T|reflexivity..]| |exact (ty_verifiers _ T)|exact (ty_relays _ T)].
    apply listed_add; [apply (ty_services _ T)|lia|]. unfold existsService in H2. lia.
  - apply admin_some in E as (_ & m & E & ->). chk E H. bnd E l F. same E. apply tidy_intro; [eapply tidyR_same; [apply tidy_R, T|reflexivity..]| |exact (ty_verifiers _ T)|exact (ty_relays _ T)].
    eapply listed_remove; [apply (ty_services _ T)|exact F].
  - apply admin_some in E as (_ & m & E & ->). chk E H. same E. apply andb_prop in H as [H1 H2]. apply tidy_intro; [eapply tidyR_same; [apply tidy_R, T|reflexivity..]|exact (ty_services _ T)| |exact (ty_relays _ T)].
    apply listed_add; [apply (ty_verifiers _ T)|lia|]. unfold existsVerifier in H2. lia.
  - apply admin_some in E as (_ & m & E & ->). chk E H. bnd E l F. same E. apply tidy_intro; [eapply tidyR_same; [apply tidy_R, T|reflexivity..]|exact (ty_services _ T)| |exact (ty_relays _ T)].
    eapply listed_remove; [apply (ty_verifiers _ T)|exact F].
  - apply owner_some in E as (_ & E). apply ask_addLink in E. eapply tidy_addLink; eassumption.
  - apply owner_some in E as (_ & E). apply ask_removeLink in E. eapply tidy_removeLink; eassumption.
  - apply admin_some in E as (_ & m & E & ->). chk E H. same E. apply andb_prop in H as [H H3]. apply andb_prop in H as [H1 H2]. destruct (ty_relays _ T link) as (A & B & C). apply tidy_relays; [exact T| | |].
    + apply nodup_more; [exact A|]. intros I. enough (existsb (fun x => x =? a) (relays_of (s_m s) link) = true) by lia. apply existsb_exists. exists a. split; [exact I|lia].
    + rewrite in_app_iff. cbn [In]. intros [I|[I|[]]]; [contradiction|lia].
    + unfold isLink in H2. intros Y. rewrite Y in H2. discriminate.
  - apply admin_some in E as (_ & m & E & ->). chk E H. bnd E l F. same E. apply removeFrom_some in F as [_ ->]. destruct (ty_relays _ T link) as (A & B & C). pose proof (nodup_swapz _ a A B) as [S1 S2]. apply andb_prop in H as [H1 H2].
    apply tidy_relays; [exact T|exact S1|exact S2|]. unfold isLink in H1. intros Y. rewrite Y in H1. discriminate.
  - apply admin_some in E as (_ & m & E & ->). chk E H. same E. apply (tidy_adm _ _ T); [apply adm_addRouteInfo|]. apply tidyR_add; [apply tidy_R, T|discriminate].
  - apply admin_some in E as (_ & m & E & ->). chk E H. apply (tidy_adm _ _ T); [eapply adm_removeRouteInfo, E|]. eapply tidyR_remove; [apply tidy_R, T|exact E].
  - apply admin_some in E as (_ & m & E & ->). eapply tidy_fees; eassumption.
  - apply admin_some in E as (_ & m & E & ->). same E. destruct T. constructor; assumption.
  - apply owner_some in E as (_ & E). apply man_drop in E. apply Q, E.
  - exfalso. destruct OUT as (O1 & O2 & O3). destruct (caller =? inner_caller self mgmt svcaddr i) eqn:C; [|discriminate]. apply Z.eqb_eq in C. destruct i; cbn [inner_caller] in C; contradiction.
Qed.
Lemma tidy_init : forall d, tidy (s_m (init d)).
Proof.
  intros d. constructor; cbn [init s_m routes route_of fees_of h_of h_keys v_of v_keys relays_of link_of no_route r_type r_reach].
  - split; [constructor|]. intros x. cbn [In]. split; [tauto|congruence].
  - reflexivity.
  - intros x. split; [lia|discriminate].
  - congruence.
  - split; [constructor|]. intros x. cbn [In]. split; [tauto|congruence].
  - split; [constructor|]. intros x. cbn [In]. split; [tauto|congruence].
  - intros x. split; [constructor|]. split; [intros []|reflexivity].
Qed.
(** Whatever happens, the tables agree with the lists of their keys. *)
Theorem C80_tables_agree : forall deployer ops, outside ops -> tidy (s_m (run deployer ops)).
Proof.
  intros deployer ops O. unfold M_SBmc.run. assert (G : forall s, tidy (s_m s) -> tidy (s_m (fold_left step ops s))).
  { induction O as [|o ops O1 O2 IH]; intros s T; cbn [fold_left]; [exact T|]. apply IH. unfold M_SBmc.step. destruct (M_SBmc.exec _ _ _ _ _ _ _ _ _ s o) as [s'|] eqn:E; [|exact T]. eapply tidy_step; eassumption. }
  apply G, tidy_init.
Qed.

(** ** routes that lead somewhere *)
Lemma leading_same : forall m m', leading m -> same_tables m m' -> leading m'.
Proof. intros m m' [] (A & B & C & D). constructor; unfold announced in *; rewrite ?A, ?B, ?C, ?D; assumption. Qed.
Lemma leading_run : forall es m m', tidyR m -> leading m -> orderly_run m es -> trun m es = Some m' -> leading m'.
Proof.
  induction es as [|e es IH]; intros m m' T L O E; cbn [trun] in E; [same E; exact L|]. bnd E m1 F. destruct O as [O1 O2]. eapply IH; [| |apply O2, F|exact E]; [eapply tidyR_step|eapply leading_step]; eassumption.
Qed.
Lemma leading_init : forall d, leading (s_m (init d)).
Proof.
  intros d. constructor; cbn [init s_m links link_of route_of no_route no_link r_type r_reach l_reach]; try discriminate; try (intros; contradiction).
  - constructor.
  - reflexivity.
  - intros k x. change (nets [] x) with 0%nat. lia.
  - reflexivity.
  - reflexivity.
Qed.
(** As long as the events are in order, every link is the route to its network and every other route leads to a link that announces the network or that an owner chose. *)
Definition in_order (deployer : Z) (ops : list op) : Prop :=
  forall before o after s', ops = before ++ o :: after -> let s := run deployer before in exec s o = Some s' ->
    exists es m, caused own svcaddr junk verify s o es /\ trun (s_m s) es = Some m /\ same_tables m (s_m s') /\ orderly_run (s_m s) es.
Theorem C80_routes_lead : forall deployer ops, outside ops -> in_order deployer ops -> leading (s_m (run deployer ops)).
Proof.
  intros deployer ops. induction ops as [|o ops IH] using rev_ind; intros O I; [apply leading_init|]. apply Forall_app in O as [O1 O2]. inversion O2 as [|? ? O3 _]; subst.
  assert (L : leading (s_m (run deployer ops))). { apply IH; [exact O1|]. intros b x a s' E s X. subst ops. apply (I b x (a ++ [o]) s'); [rewrite <- app_assoc; reflexivity|exact X]. }
  unfold M_SBmc.run in *. rewrite fold_left_app. cbn [fold_left]. set (s := fold_left step ops (init deployer)) in *. unfold M_SBmc.step. destruct (M_SBmc.exec _ _ _ _ _ _ _ _ _ s o) as [s'|] eqn:E; [|exact L].
  destruct (I ops o [] s' eq_refl E) as (es & m & CA & TR & ST & OR). eapply leading_same; [|exact ST]. eapply leading_run; [|exact L|exact OR|exact TR]. apply tidy_R, (C80_tables_agree deployer ops O1).
Qed.
(** Then a message for a network goes to a link, and a network is unreachable only if no link leads there, none announces it and no owner set a route. *)
Theorem C80_resolves : forall deployer ops, outside ops -> in_order deployer ops -> let m := s_m (run deployer ops) in forall d,
  (forall k, resolveNext m d = Some k -> In k (links m) /\ isLink m k = true) /\
  (forall k, In k (links m) -> networkAddress k = Some d -> resolveNext m d = Some k) /\
  (resolveNext m d = None <-> ~ In d (routes m)) /\
  (resolveNext m d = None -> forall k a, In k (links m) -> In a (l_reach (link_of m k)) -> networkAddress a <> Some d).
Proof.
  intros deployer ops O I m d. pose proof (C80_routes_lead deployer ops O I) as L. pose proof (C80_tables_agree deployer ops O) as T. fold m in L, T. apply tidy_R in T.
  assert (N : resolveNext m d = None <-> r_type (route_of m d) = TNone). { unfold resolveNext. destruct (rtype_eqb _ _) eqn:Y; [apply rtype_eqb_spec in Y; tauto|apply rtype_none in Y; split; [discriminate|congruence]]. }
  split; [|split; [|split]].
  - intros k E. unfold resolveNext in E. destruct (rtype_eqb _ _) eqn:Y; [discriminate|]. apply rtype_none in Y. same E. pose proof (next_in m d L Y) as K. split; [exact K|]. unfold isLink. rewrite (ld_real _ L _ K).
    destruct (ld_direct _ L _ K) as (x & X & _). destruct (r_next (route_of m d)); [discriminate X|reflexivity].
  - intros k K X. destruct (ld_direct _ L k K) as (y & Y1 & Y2 & Y3). assert (y = d) by congruence. subst y. unfold resolveNext. rewrite Y2. cbn [rtype_eqb]. rewrite Y3. reflexivity.
  - rewrite N, (tr_in _ T). split; [intros Y Z; apply Z, Y|]. intros Z. destruct (r_type (route_of m d)); [reflexivity|exfalso; apply Z; discriminate..].
  - intros E k a K A X. apply N, (none_reach _ _ T) in E. rewrite (ld_count _ L) in E. pose proof (in_nets _ _ _ A X) as P. pose proof (sum_le (fun k => nets (l_reach (link_of m k)) d) (links m) k K) as Q. unfold announced in E. cbv beta in Q. lia.
Qed.
(** Then too an owner can remove any link no route of theirs refers to, if no other direct route or route set by an owner loses its last announcement. *)
Theorem C80_link_removable : forall deployer ops, outside ops -> in_order deployer ops -> let m := s_m (run deployer ops) in forall k,
  In k (links m) -> (forall d, r_type (route_of m d) = TManual -> r_next (route_of m d) <> k) -> orderly m (TRemoveLink k) ->
  exists m', tstep m (TRemoveLink k) = Some m' /\ leading m' /\ ~ In k (links m') /\ forall d, resolveNext m' d <> Some k.
Proof.
  intros deployer ops O I m k K NM OR. pose proof (C80_routes_lead deployer ops O I) as L. pose proof (C80_tables_agree deployer ops O) as T. fold m in L, T. apply tidy_R in T.
  destruct (removeLink_ok m k T L OR K NM) as [m' E]. exists m'. split; [exact E|]. pose proof (leading_removeLink m k m' T L OR E) as L2. split; [exact L2|].
  assert (K2 : ~ In k (links m')).
  { intros J. pose proof (ld_real _ L2 k J) as R. unfold t_removeLink in E. chk E H1. chk E H2. bnd E d F1. bnd E m1 F2. bnd E l F3. cbv zeta in E. bnd E m2 F4. same E. cbn [set_relays set_links link_of] in R. rewrite tset_same in R. cbn [no_link l_addr] in R. subst k. discriminate. }
  split; [exact K2|]. intros d E2. unfold resolveNext in E2. destruct (rtype_eqb _ _) eqn:Y; [discriminate|]. apply rtype_none in Y. same E2. apply K2. apply (next_in m' d L2 Y).
Qed.
(** The first to announce a network becomes the route to it; those after it are only counted. *)
Theorem C80_first_announcer : forall m from a m' d, tstep m (TAnnounce from a) = Some m' -> networkAddress a = Some d ->
  resolveNext m' d = (if rtype_eqb (r_type (route_of m d)) TNone then Some (r_next (route_of m from)) else resolveNext m d) /\
  (r_type (route_of m d) <> TNone -> r_reach (route_of m' d) = r_reach (route_of m d) + 1) /\ forall x, x <> d -> route_of m' x = route_of m x.
Proof.
  intros m from a m' d E A. cbn [tstep] in E. unfold addReachable in E. cbv zeta in E. rewrite A in E. cbn [sbind] in E. same E. set (k := r_next (route_of m from)). set (m1 := set_links m _ _).
  pose proof (addRouteInfo_is m1 d k TReachable) as (_ & _ & _ & Q4 & Q5). change (route_of m1) with (route_of m) in *. unfold resolveNext. rewrite Q4. unfold newroute.
  destruct (rtype_eqb (r_type (route_of m d)) TNone) eqn:Y; cbn [r_type r_next r_reach].
  - cbn [rtype_eqb]. split; [reflexivity|]. split; [apply rtype_eqb_spec in Y; congruence|exact Q5].
  - rewrite Y. split; [reflexivity|]. split; [intros _; reflexivity|exact Q5].
Qed.
End BMC.
Print Assumptions C80_who_routes.
Print Assumptions C80_tables_agree.
Print Assumptions C80_routes_lead.
Print Assumptions C80_resolves.
Print Assumptions C80_link_removable.
Print Assumptions C80_first_announcer.

(** ** examples *)
Notation xc := (caused x_own 12 x_junk x_verify).
Notation x_order := (in_order x_own 10 11 12 x_junk x_verify x_serve x_blame x_accepts).
Lemma in_order_snoc : forall d ops o, x_order d ops -> (caller_of o <> 10 /\ caller_of o <> 11 /\ caller_of o <> 12) -> (forall es, xc (x_run d ops) o es -> orderly_run (s_m (x_run d ops)) es) -> x_order d (ops ++ [o]).
Proof.
  intros d ops o I OUT H before o2 after s' E s X. destruct (exists_last (l := o2 :: after)) as (y & z & Y); [discriminate|]. rewrite Y, app_assoc in E. apply app_inj_tail in E as [E1 E2]. subst z.
  destruct y as [|o3 y].
  - injection Y as -> ->. rewrite app_nil_r in E1. subst before. destruct (C80_who_routes _ _ _ _ _ _ _ _ _ _ _ _ OUT X) as (es & m & A & B & C & _). exists es, m. split; [exact A|]. split; [exact B|]. split; [exact C|]. apply H, A.
  - injection Y as -> ->. eapply (I before o3 y s' E1). exact X.
Qed.
Definition x_say (from link : text) (type : string) (p : option (list Z)) : op :=
  HandleRelay 7 link (x_bytes (Msg from x_own BMC_SERVICE 0 (match sbind p (encodeBMCMessage (str type)) with Some b => b | None => [] end) 1 (Fee x_icon []))).
Definition x_eth : text := str "btp://0x4.eth/0xbb".
Definition x_links : list op := [AddVerifier 1 x_icon 20; AddVerifier 1 x_bsc3 21; AddLink 1 x_link; AddLink 1 x_link3; AddRelay 1 x_link 7; AddRelay 1 x_link3 7].
Definition x_announce : op := x_say x_icon x_link "Link" (encodePropagateMessage x_eth).
Definition x_hist : list op := (((((([] ++ [AddVerifier 1 x_icon 20]) ++ [AddVerifier 1 x_bsc3 21]) ++ [AddLink 1 x_link]) ++ [AddLink 1 x_link3]) ++ [AddRelay 1 x_link 7]) ++ [x_announce]) ++ [AddRoute 1 (str "0x5.foo") x_bsc3].
Ltac quiet_op := apply in_order_snoc; [|repeat split; discriminate|intros es ->; exact I].
Ltac link_op := apply in_order_snoc; [|repeat split; discriminate|intros es ->; split; [intros d E; vm_compute in E; injection E as <-; vm_compute; reflexivity|intros m' _; exact I]].
Example C80_ex_in_order : x_order 1 x_hist.
Proof.
  unfold x_hist. apply in_order_snoc; [|repeat split; discriminate|intros es ->; split; [vm_compute; discriminate|intros m' _; exact I]].
  apply in_order_snoc.
  - quiet_op. link_op. link_op. quiet_op. quiet_op. intros [|? ?] ? ? ? E; discriminate E.
  - repeat split; discriminate.
  - intros es (net & bs & A & B & C). assert (bs = [x_bytes (Msg x_icon x_own BMC_SERVICE 0 (match sbind (encodePropagateMessage x_eth) (encodeBMCMessage (str "Link")) with Some b => b | None => [] end) 1 (Fee x_icon []))]) as ->. { vm_compute in B. injection B as <-. vm_compute. reflexivity. }
    inversion C as [|? ? ? C1|? ? ? m D1 D2 D3 D4 C1]; subst; inversion C1; subst; [exact I|]. vm_compute in D1. injection D1 as <-.
    match goal with |- orderly_run _ ?l => let v := eval vm_compute in l in change l with v end. split; [|intros m' _; exact I]. split; [vm_compute; discriminate|]. intros d E. vm_compute in E. injection E as <-. split; [vm_compute; reflexivity|vm_compute; discriminate].
Qed.
(** the announced network goes by the link that announced it, the network with a route by the link an owner chose, the links' own by themselves *)
Example C80_ex_routes : let m := s_m (x_run 1 x_hist) in
  (resolveNext m (str "0x4.eth"), resolveNext m (str "0x5.foo"), resolveNext m x_icon, resolveNext m x_bsc3, resolveNext m (str "0x9.foo")) = (Some x_link, Some x_link3, Some x_link, Some x_link3, None) /\
  routes m = [x_icon; x_bsc3; str "0x4.eth"; str "0x5.foo"].
Proof. vm_compute. split; reflexivity. Qed.
(** the first link can be removed: what it announced goes *)
Example C80_ex_removed : let m := s_m (x_run 1 (x_hist ++ [RemoveLink 1 x_link])) in
  (resolveNext m (str "0x4.eth"), resolveNext m (str "0x5.foo"), resolveNext m x_icon, links m) = (None, Some x_link3, None, [x_link3]).
Proof. vm_compute. reflexivity. Qed.
