(** Lemmas for the call service: what one accepted call does, as a relation that both implementations satisfy, and that
    the three observers never object to it. *)
From Coq Require Import String Ascii ZArith List Bool Lia.
From Coq Require Import ZifyBool.
From Verif Require Import Base L_Base S_Address M_XCall S_XCall.
Import ListNotations.
Open Scope Z_scope.

Lemma follow_app : forall St (m : St -> event -> option St) l1 l2 st, follow m st (l1 ++ l2) = match follow m st l1 with Some st' => follow m st' l2 | None => None end.
Proof. induction l1; intros; cbn; [reflexivity|]. destruct (m st a); [apply IHl1|reflexivity]. Qed.

Lemma get_del_same : forall A k (l : list (Z * A)), get k (del k l) = None.
Proof. induction l as [|[k' a] r IH]; cbn; [reflexivity|]. destruct (k =? k') eqn:E; [exact IH|]. cbn. rewrite E. exact IH. Qed.
Lemma get_del_other : forall A k k' (l : list (Z * A)), k <> k' -> get k (del k' l) = get k l.
Proof. induction l as [|[k2 a] r IH]; intros; cbn; [reflexivity|]. destruct (k' =? k2) eqn:E; cbn.
  - rewrite IH by assumption. destruct (Z.eqb_spec k k2); [lia|reflexivity].
  - destruct (k =? k2); [reflexivity|auto].
Qed.
Lemma get_put_same : forall A k (a : A) l, get k (put k a l) = Some a.
Proof. intros. cbn. rewrite Z.eqb_refl. reflexivity. Qed.
Lemma get_put_other : forall A k k' (a : A) l, k <> k' -> get k (put k' a l) = get k l.
Proof. intros. cbn. destruct (Z.eqb_spec k k'); [lia|]. now apply get_del_other. Qed.

Section Step.
Variable L : lang.

Definition paid (s : xstate) : list event := match x_handler s with Some h => if 0 <? x_fee s then [OutTransfer h (x_fee s)] else [] | None => [] end.
Definition kept (s : xstate) : Z := match x_handler s with Some _ => if 0 <? x_fee s then 0 else x_fee s | None => x_fee s end.
Definition added_request (s : xstate) (c : Z) (to : list Z) (rb : option (list Z)) : list (Z * creq) :=
  match l_wants L rb with Some d => put (x_sn s + 1) (mkCReq c to (Some d) false) (x_requests s) | None => x_requests s end.
Definition swept (s : xstate) (a : option Z) : list event := match a with Some h => if 0 <? x_bal s then [OutTransfer h (x_bal s)] else [] | None => [] end.
Definition left (s : xstate) (a : option Z) : Z := match a with Some _ => if 0 <? x_bal s then 0 else x_bal s | None => x_bal s end.
(** the event that brings a response, for any number *)
Definition tells (e : event) (r : csres) : Prop :=
  (exists net n msg, e = InMessage net n msg /\ l_read_response L msg = Some r) \/
  (exists net code msg t, e = InError net (r_sn r) code msg /\ l_error L code msg = Some t /\ r = mkCsRes (r_sn r) (-2) (Some t)).
Definition text (r : csres) : list Z := match r_msg r with Some t => t | None => [] end.

Inductive step : xstate -> xstate -> Prop :=
| st_send : forall s c v to data rb quoted net account b nsn, l_split L to = Some (net, account) ->
    l_request L (mkCsReq (l_text L c) account (x_sn s + 1) (is_some (l_wants L rb)) (Some data)) = Some b -> x_fee s + quoted <= v ->
    step s (mkX (x_sn s + 1) (x_reqId s) (added_request s c to rb) (x_proxy s) (x_fee s) (x_handler s) (x_admin s) (x_bal s + kept s)
                (x_log s ++ InSend c v to data rb quoted :: paid s ++
                 [OutMessage (v - x_fee s) net (if is_some (l_wants L rb) then x_sn s + 1 else 0) b; CallMessageSent c to (x_sn s + 1) nsn]))
| st_call : forall s s1 id q net code t tail, get id (x_proxy s) = Some q ->
    (forall n f, free_of (ch "/") n -> q_from q = l_from L n f -> net = n) ->
    ran s id q s1 code ->
    (q_rollback q = false /\ tail = [] \/
     exists b, q_rollback q = true /\ l_response L (mkCsRes (q_sn q) code (Some t)) = Some b /\ tail = [OutMessage 0 net (l_neg L (q_sn q)) b]) ->
    step s (emit s1 (CallExecuted id code t :: tail))
| st_rollback : forall s s1 sn r code t ok, get sn (x_requests s) = Some r -> cr_enabled r = true ->
    steps (emit (with_requests s (del sn (x_requests s))) [OutCall (ForRollback sn) (cr_from r) (l_self L) (cr_rollback r) ok]) s1 ->
    (code =? 0) = ok ->
    step s (emit s1 [RollbackExecuted sn code t])
| st_request : forall s net n msg q, free_of (ch "/") net -> l_read_request L msg = Some q -> l_read_response L msg = None ->
    step s (mkX (x_sn s) (x_reqId s + 1) (x_requests s)
                (put (x_reqId s + 1) (mkCsReq (l_from L net (q_from q)) (q_to q) (q_sn q) (q_rollback q) (q_data q)) (x_proxy s))
                (x_fee s) (x_handler s) (x_admin s) (x_bal s)
                (x_log s ++ [InMessage net n msg; CallMessage (l_from L net (q_from q)) (q_to q) (q_sn q) (x_reqId s + 1)]))
| st_ignored : forall s e r, tells e r -> (forall net n msg, e = InMessage net n msg -> l_read_request L msg = None) ->
    get (r_sn r) (x_requests s) = None -> step s (emit s [e])
| st_success : forall s e r q, tells e r -> (forall net n msg, e = InMessage net n msg -> l_read_request L msg = None) ->
    get (r_sn r) (x_requests s) = Some q -> r_code r = 0 ->
    step s (emit (with_requests s (del (r_sn r) (x_requests s))) [e; ResponseMessage (r_sn r) 0 (text r)])
| st_failure : forall s e r q, tells e r -> (forall net n msg, e = InMessage net n msg -> l_read_request L msg = None) ->
    get (r_sn r) (x_requests s) = Some q -> r_code r <> 0 ->
    step s (emit (with_requests s (put (r_sn r) (mkCReq (cr_from q) (cr_to q) (cr_rollback q) true) (x_requests s)))
                 [e; ResponseMessage (r_sn r) (r_code r) (text r); RollbackMessage (r_sn r)])
| st_admin : forall s a, step s (with_admin s a)
| st_handler : forall s a, step s (emit (with_bal (with_handler s a) (left s a)) (InHandler a :: swept s a))
| st_fee : forall s v, 0 <= v -> step s (emit (with_fee s v) [InFee v])
with steps : xstate -> xstate -> Prop :=
| ss_nil : forall s, steps s s
| ss_cons : forall s s1 s2, step s s1 -> steps s1 s2 -> steps s s2
with ran : xstate -> Z -> csreq -> xstate -> Z -> Prop :=
| ran_not : forall s id q code, l_addr L (q_to q) = None -> code <> 0 -> ran s id q (with_proxy s (del id (x_proxy s))) code
| ran_ok : forall s id q a s1 ok code, l_addr L (q_to q) = Some a -> (code =? 0) = ok ->
    steps (emit (with_proxy s (del id (x_proxy s))) [OutCall (ForCall id) a (q_from q) (q_data q) ok]) s1 -> ran s id q s1 code.
Scheme step_mind := Induction for step Sort Prop
with steps_mind := Induction for steps Sort Prop
with ran_mind := Induction for ran Sort Prop.
Combined Scheme step_mutind from step_mind, steps_mind, ran_mind.

Lemma steps_trans : forall a b c, steps a b -> steps b c -> steps a c.
Proof. intros a b c H. induction H; intros; [assumption|]. econstructor; eauto. Qed.

Lemma beq_refl : forall a, bytes_eqb a a = true.
Proof. intros. apply bytes_eqb_eq. reflexivity. Qed.
Lemma obeq_refl : forall a, opt_bytes_eqb a a = true.
Proof. destruct a; cbn; [apply beq_refl|reflexivity]. Qed.

(** * The observer of one outgoing call *)
Section Outgoing.
Variable sn : Z.
Hypothesis SN : 1 <= sn.
Definition requested (s : xstate) (p : phase) : Prop :=
  match get sn (x_requests s) with
  | Some r => sn <= x_sn s /\ exists d, cr_rollback r = Some d /\ p = (if cr_enabled r then Failed (cr_from r) d else Waiting (cr_from r) d)
  | None => (p = Fresh /\ x_sn s < sn) \/ (sn <= x_sn s /\ (p = OneWay \/ p = Closed \/ exists ok, p = Rolling ok))
  end.
Definition inv (s : xstate) (p : phase) : Prop := 0 <= x_sn s /\ follow (outgoing L sn) (0, Fresh) (x_log s) = Some (x_sn s, p) /\ requested s p.
(** calls within calls: one that is being rolled back stays so *)
Definition goes (s s' : xstate) : Prop := forall p, inv s p -> exists p', inv s' p' /\ (forall ok, p = Rolling ok <-> p' = Rolling ok).

Lemma inv_emit : forall s s' p p' es, inv s p -> x_log s' = x_log s ++ es -> follow (outgoing L sn) (x_sn s, p) es = Some (x_sn s', p') -> 0 <= x_sn s' -> requested s' p' -> inv s' p'.
Proof. intros s s' p p' es (A & B & C) E F G I. split; [exact G|]. split; [|exact I]. rewrite E, follow_app, B. exact F. Qed.

(** an event that neither sends, nor names the call, nor brings a response for it *)
Definition quiet (e : event) : Prop := (forall c v to d rb q, e <> InSend c v to d rb q) /\ names sn e = false /\ brings L sn e = None.
Definition calm (p : phase) : Prop := at_rest p \/ exists ok, p = Rolling ok.
Lemma quiet_step : forall n p e, calm p -> quiet e -> outgoing L sn (n, p) e = Some (n, p).
Proof.
  intros n p e C (Q1 & Q2 & Q3). unfold outgoing. rewrite Q2, Q3. cbn [negb accept].
  assert (R : (match e with InSend _ _ _ _ _ _ => Some (n + 1, p) | _ => Some (n, p) end) = Some (n, p))
    by (destruct e; try reflexivity; exfalso; eapply Q1; reflexivity).
  destruct C as [C | [ok ->]]; [destruct p; try contradiction|]; try exact R;
    destruct e; try exact R; try (exfalso; eapply Q1; reflexivity); try reflexivity.
  - destruct p; cbn in Q2; [exact R|]. rewrite Q2. reflexivity.
  - cbn in Q2. rewrite Q2. reflexivity.
Qed.
Lemma quiet_follow : forall es n p, calm p -> Forall quiet es -> follow (outgoing L sn) (n, p) es = Some (n, p).
Proof. induction es as [|e r IH]; intros n p C Q; [reflexivity|]. cbn [follow]. rewrite quiet_step by (assumption || exact (Forall_inv Q)). apply IH; [assumption|exact (Forall_inv_tail Q)]. Qed.
Lemma requested_calm : forall s p, requested s p -> calm p.
Proof.
  intros s p R. unfold requested in R. destruct (get sn (x_requests s)).
  - destruct R as (_ & d & _ & ->). left. now destruct (cr_enabled c).
  - destruct R as [[-> _] | [_ [-> | [-> | [ok ->]]]]]; [left; exact I ..|right; eauto].
Qed.
(** a call that leaves the request alone and brings nothing for it *)
Lemma goes_quiet : forall s s' es, x_sn s' = x_sn s -> get sn (x_requests s') = get sn (x_requests s) -> x_log s' = x_log s ++ es -> Forall quiet es -> goes s s'.
Proof.
  intros s s' es E1 E2 E3 Q p I. pose proof I as (I1 & I2 & I3). exists p. split; [|tauto].
  eapply inv_emit; [exact I|exact E3| |lia|].
  - rewrite E1. apply quiet_follow; [exact (requested_calm _ _ I3)|exact Q].
  - unfold requested in *. rewrite E1, E2. exact I3.
Qed.

Lemma goes_send : forall s c v to data rb quoted net account b nsn s', l_split L to = Some (net, account) ->
  l_request L (mkCsReq (l_text L c) account (x_sn s + 1) (is_some (l_wants L rb)) (Some data)) = Some b ->
  s' = mkX (x_sn s + 1) (x_reqId s) (added_request s c to rb) (x_proxy s) (x_fee s) (x_handler s) (x_admin s) (x_bal s + kept s)
                (x_log s ++ InSend c v to data rb quoted :: paid s ++
                 [OutMessage (v - x_fee s) net (if is_some (l_wants L rb) then x_sn s + 1 else 0) b; CallMessageSent c to (x_sn s + 1) nsn]) -> goes s s'.
Proof.
  intros s c v to data rb quoted net account b nsn s' ES EB -> p I. pose proof I as (I1 & I2 & I3). pose proof (requested_calm _ _ I3) as C.
  destruct (Z.eq_dec (x_sn s + 1) sn) as [E|E].
  - (* this is the call *)
    assert (P : p = Fresh).
    { unfold requested in I3. destruct (get sn (x_requests s)); [destruct I3; lia|]. destruct I3 as [[-> _] | [? _]]; [reflexivity|lia]. }
    subst p. exists (match l_wants L rb with Some d => Waiting c d | None => OneWay end). split; [|intros ok; destruct (l_wants L rb); split; discriminate].
    eapply inv_emit; [exact I|reflexivity| |cbn [x_sn]; lia|].
    + cbn [follow outgoing x_sn]. rewrite (proj2 (Z.eqb_eq _ _) E). cbn [app].
      assert (HP : forall rest, follow (outgoing L sn) (x_sn s + 1, Sending c to data rb) (paid s ++ rest) = follow (outgoing L sn) (x_sn s + 1, Sending c to data rb) rest).
      { intros rest. unfold paid. destruct (x_handler s); [|reflexivity]. destruct (0 <? x_fee s); reflexivity. }
      rewrite HP. cbn [follow outgoing]. unfold pair_eqb. rewrite ES, beq_refl, <- E, EB, obeq_refl, Z.eqb_refl. cbn [andb accept follow outgoing].
      rewrite !Z.eqb_refl, beq_refl. reflexivity.
    + unfold requested. cbn [x_requests x_sn]. unfold added_request. destruct (l_wants L rb) as [d|] eqn:EW.
      * rewrite <- E, get_put_same. split; [lia|]. exists d. split; reflexivity.
      * unfold requested in I3. destruct (get sn (x_requests s)); [destruct I3; lia|]. right. split; [lia|auto].
  - exists p. split; [|tauto]. eapply inv_emit; [exact I|reflexivity| |cbn [x_sn]; lia|].
    + assert (F : forall es n, Forall quiet es -> follow (outgoing L sn) (n, p) es = Some (n, p)) by (intros; now apply quiet_follow).
      assert (S1 : outgoing L sn (x_sn s, p) (InSend c v to data rb quoted) = Some (x_sn s + 1, p)).
      { unfold requested in I3. destruct (get sn (x_requests s)) as [r|].
        - destruct I3 as (_ & d & _ & ->). destruct (cr_enabled r); reflexivity.
        - destruct I3 as [[-> _] | [_ [-> | [-> | [ok ->]]]]]; try reflexivity. cbn [outgoing]. destruct (Z.eqb_spec (x_sn s + 1) sn); [contradiction|reflexivity]. }
      cbn [follow]. rewrite S1. cbn [x_sn]. apply F. apply Forall_app. split.
      * unfold paid. destruct (x_handler s); [|constructor]. destruct (0 <? x_fee s); constructor; [|constructor].
        split; [discriminate|split; reflexivity].
      * constructor; [split; [discriminate|split; reflexivity]|]. constructor; [|constructor].
        split; [discriminate|]. cbn. split; [lia|reflexivity].
    + unfold requested in *. cbn [x_requests x_sn]. unfold added_request. destruct (l_wants L rb).
      * rewrite get_put_other by lia. destruct (get sn (x_requests s)).
        -- destruct I3. split; [lia|assumption].
        -- destruct I3 as [[-> ?] | [? ?]]; [left; split; [reflexivity|lia]|right; split; [lia|assumption]].
      * destruct (get sn (x_requests s)).
        -- destruct I3. split; [lia|assumption].
        -- destruct I3 as [[-> ?] | [? ?]]; [left; split; [reflexivity|lia]|right; split; [lia|assumption]].
Qed.

Lemma tells_brings : forall e r, tells e r -> brings L sn e = if r_sn r =? sn then Some (r_code r, text r) else None.
Proof.
  intros e r [(net & n & msg & -> & E) | (net & code & msg & t & -> & E & R)]; cbn [brings].
  - rewrite E. unfold text. destruct (r_sn r =? sn); reflexivity.
  - rewrite E, R. cbn [r_sn r_code text]. unfold text. cbn [r_msg]. destruct (r_sn r =? sn); reflexivity.
Qed.
Lemma tells_quiet : forall e r, tells e r -> r_sn r <> sn -> quiet e.
Proof.
  intros e r T N. pose proof (tells_brings e r T) as B. rewrite (proj2 (Z.eqb_neq _ _) N) in B.
  destruct T as [(net & n & msg & -> & E) | (net & code & msg & t & -> & E & R)]; (split; [discriminate|split; [reflexivity|exact B]]).
Qed.
(** what is not waited for changes nothing *)
Lemma tells_ignored : forall e r n p, tells e r -> (p = Fresh \/ p = OneWay \/ p = Closed \/ exists ok, p = Rolling ok) -> outgoing L sn (n, p) e = Some (n, p).
Proof.
  intros e r n p T P. destruct T as [(net & m & msg & -> & E) | (net & code & msg & t & -> & E & R)];
    destruct P as [-> | [-> | [-> | [ok ->]]]]; reflexivity.
Qed.

Lemma goes_response : forall s e r s', tells e r ->
  (get (r_sn r) (x_requests s) = None /\ s' = emit s [e] \/
   (exists q, get (r_sn r) (x_requests s) = Some q /\
     (r_code r = 0 /\ s' = emit (with_requests s (del (r_sn r) (x_requests s))) [e; ResponseMessage (r_sn r) 0 (text r)] \/
      r_code r <> 0 /\ s' = emit (with_requests s (put (r_sn r) (mkCReq (cr_from q) (cr_to q) (cr_rollback q) true) (x_requests s)))
                 [e; ResponseMessage (r_sn r) (r_code r) (text r); RollbackMessage (r_sn r)]))) -> goes s s'.
Proof.
  intros s e r s' T H. destruct (Z.eq_dec (r_sn r) sn) as [E|E].
  - pose proof (tells_brings e r T) as B. rewrite (proj2 (Z.eqb_eq _ _) E) in B. rewrite E in H.
    intros p I. pose proof I as (I1 & I2 & I3). unfold requested in I3.
    destruct H as [(G & ->) | (q & G & H)]; rewrite G in I3.
    + exists p. split; [|tauto]. eapply inv_emit; [exact I|reflexivity| |exact I1|].
      * cbn [follow]. rewrite (tells_ignored e r) by (try assumption; destruct I3 as [[-> _] | [_ I3]]; auto). reflexivity.
      * unfold requested. cbn [x_requests emit x_sn]. rewrite G. exact I3.
    + destruct I3 as (IS & d & ED & ->).
      assert (S1 : outgoing L sn (x_sn s, if cr_enabled q then Failed (cr_from q) d else Waiting (cr_from q) d) e = Some (x_sn s, Told (cr_from q) d (r_code r) (text r))).
      { destruct T as [(net & m & msg & -> & _) | (net & code & msg & t & -> & _)]; destruct (cr_enabled q); cbn [outgoing]; rewrite B; reflexivity. }
      destruct H as [(C & ->) | (C & ->)].
      * exists Closed. split; [|intros ok; destruct (cr_enabled q); split; discriminate]. eapply inv_emit; [exact I|reflexivity| |exact I1|].
        -- cbn [follow]. rewrite S1, C. cbn [outgoing]. rewrite Z.eqb_refl, beq_refl. reflexivity.
        -- unfold requested. cbn [x_requests emit with_requests x_sn]. rewrite get_del_same. right. auto.
      * exists (Failed (cr_from q) d). split; [|intros ok; destruct (cr_enabled q); split; discriminate]. eapply inv_emit; [exact I|reflexivity| |exact I1|].
        -- cbn [follow]. rewrite S1. cbn [outgoing]. rewrite !Z.eqb_refl, beq_refl. cbn [andb accept]. rewrite (proj2 (Z.eqb_neq _ _) C). cbn [outgoing]. rewrite Z.eqb_refl. reflexivity.
        -- unfold requested. cbn [x_requests emit with_requests x_sn]. rewrite get_put_same. split; [exact IS|]. exists d. split; [exact ED|reflexivity].
  - pose proof (tells_quiet e r T E) as Q.
    assert (NQ : forall m t, quiet (ResponseMessage (r_sn r) m t)) by (intros; split; [discriminate|split; [cbn; lia|reflexivity]]).
    assert (NR : quiet (RollbackMessage (r_sn r))) by (split; [discriminate|split; [cbn; lia|reflexivity]]).
    destruct H as [(G & ->) | (q & G & [(C & ->) | (C & ->)])].
    + eapply goes_quiet; [reflexivity|reflexivity|reflexivity|]. constructor; [exact Q|constructor].
    + eapply goes_quiet; [reflexivity| |reflexivity|]; [cbn [x_requests emit with_requests]; apply get_del_other; lia|]. constructor; [exact Q|]. constructor; [apply NQ|constructor].
    + eapply goes_quiet; [reflexivity| |reflexivity|]; [cbn [x_requests emit with_requests]; apply get_put_other; lia|]. constructor; [exact Q|]. constructor; [apply NQ|]. constructor; [exact NR|constructor].
Qed.

Lemma goes_trans : forall a b c, goes a b -> goes b c -> goes a c.
Proof. intros a b c H1 H2 p I. destruct (H1 p I) as (p1 & I1 & R1). destruct (H2 p1 I1) as (p2 & I2 & R2). exists p2. split; [exact I2|]. intros ok. rewrite R1. apply R2. Qed.

Lemma goes_rollback : forall s s1 m r code t ok, get m (x_requests s) = Some r -> cr_enabled r = true -> (code =? 0) = ok ->
  goes (emit (with_requests s (del m (x_requests s))) [OutCall (ForRollback m) (cr_from r) (l_self L) (cr_rollback r) ok]) s1 ->
  goes s (emit s1 [RollbackExecuted m code t]).
Proof.
  intros s s1 m r code t ok G EN CO H1. destruct (Z.eq_dec m sn) as [E|E].
  - subst m. intros p I. pose proof I as (I1 & I2 & I3). unfold requested in I3. rewrite G in I3. destruct I3 as (IS & d & ED & EP). rewrite EN in EP. subst p.
    destruct (H1 (Rolling ok)) as (p' & IP & R).
    { eapply inv_emit; [exact I|reflexivity| |exact I1|].
      - cbn [follow outgoing]. rewrite !Z.eqb_refl, beq_refl, ED, obeq_refl. reflexivity.
      - unfold requested. cbn [x_requests emit with_requests x_sn]. rewrite get_del_same. right. split; [exact IS|]. right. right. eauto. }
    pose proof (proj1 (R ok) eq_refl). subst p'. exists Closed. split; [|intros; split; discriminate]. pose proof IP as (J1 & J2 & J3).
    eapply inv_emit; [exact IP|reflexivity| |exact J1|].
    + cbn [follow outgoing]. rewrite Z.eqb_refl, CO, eqb_reflx. reflexivity.
    + unfold requested in *. cbn [x_requests emit x_sn]. destruct (get sn (x_requests s1)) as [r'|].
      * destruct J3 as (_ & d' & _ & C). destruct (cr_enabled r'); discriminate.
      * destruct J3 as [[C _] | [J3 _]]; [discriminate|]. right. auto.
  - eapply goes_trans; [|eapply goes_trans; [exact H1|]].
    + eapply goes_quiet; [reflexivity| |reflexivity|]; [cbn [x_requests emit with_requests]; apply get_del_other; lia|].
      constructor; [|constructor]. split; [discriminate|split; [cbn; lia|reflexivity]].
    + eapply goes_quiet; [reflexivity|reflexivity|reflexivity|]. constructor; [|constructor]. split; [discriminate|split; [cbn; lia|reflexivity]].
Qed.

Lemma goes_all : (forall s s', step s s' -> goes s s') /\ (forall s s', steps s s' -> goes s s') /\ (forall s id q s' code, ran s id q s' code -> goes s s').
Proof.
  apply step_mutind; intros.
  - eapply goes_send; eauto.
  - eapply goes_trans; [eassumption|]. eapply goes_quiet; [reflexivity|reflexivity|reflexivity|].
    constructor; [split; [discriminate|split; reflexivity]|]. destruct o as [(_ & ->) | (b & _ & _ & ->)]; repeat constructor; discriminate.
  - eapply goes_rollback; eassumption.
  - eapply goes_quiet; [reflexivity|reflexivity|reflexivity|]. constructor; [|constructor; [|constructor]].
    + split; [discriminate|]. split; [reflexivity|]. cbn [brings]. rewrite e0. reflexivity.
    + split; [discriminate|]. split; reflexivity.
  - eapply (goes_response s e r); [eassumption|]. left. auto.
  - eapply (goes_response s e r); [eassumption|]. right. exists q. split; [assumption|]. left. auto.
  - eapply (goes_response s e r); [eassumption|]. right. exists q. split; [assumption|]. right. auto.
  - eapply (goes_quiet _ _ []); [reflexivity|reflexivity| |constructor]. cbn. now rewrite app_nil_r.
  - eapply goes_quiet; [reflexivity|reflexivity|reflexivity|]. constructor; [split; [discriminate|split; reflexivity]|].
    unfold swept. destruct a; [|constructor]. destruct (0 <? x_bal s); repeat constructor; discriminate.
  - eapply goes_quiet; [reflexivity|reflexivity|reflexivity|]. repeat constructor; discriminate.
  - intros p I. exists p. tauto.
  - eapply goes_trans; eassumption.
  - eapply (goes_quiet _ _ []); [reflexivity|reflexivity| |constructor]. cbn. now rewrite app_nil_r.
  - eapply goes_trans; [|eassumption]. eapply goes_quiet; [reflexivity|reflexivity|reflexivity|]. repeat constructor; discriminate.
Qed.
Lemma inv_init : inv x_init Fresh.
Proof. split; [cbn; lia|]. split; [reflexivity|]. left. cbn. split; [reflexivity|lia]. Qed.
End Outgoing.

(** * The observer of one incoming call *)
Section Incoming.
Variable id : Z.
Hypothesis ID : 1 <= id.
Definition stored (net : list Z) (m : csreq) : csreq := mkCsReq (l_from L net (q_from m)) (q_to m) (q_sn m) (q_rollback m) (q_data m).
Definition pending (s : xstate) (p : iphase) : Prop :=
  match get id (x_proxy s) with
  | Some q => id <= x_reqId s /\ exists net m, free_of (ch "/") net /\ p = IPending net m /\ q = stored net m
  | None => (p = INew /\ x_reqId s < id) \/ (id <= x_reqId s /\ (p = IDone \/ exists net m ok, p = IRunning net m ok))
  end.
Definition iinv (s : xstate) (p : iphase) : Prop := 0 <= x_reqId s /\ follow (incoming L id) (0, INew) (x_log s) = Some (x_reqId s, p) /\ pending s p.
Definition igoes (s s' : xstate) : Prop := forall p, iinv s p -> exists p', iinv s' p' /\ (forall net m ok, p = IRunning net m ok <-> p' = IRunning net m ok).

Lemma iinv_emit : forall s s' p p' es, iinv s p -> x_log s' = x_log s ++ es -> follow (incoming L id) (x_reqId s, p) es = Some (x_reqId s', p') -> 0 <= x_reqId s' -> pending s' p' -> iinv s' p'.
Proof. intros s s' p p' es (A & B & C) E F G I. split; [exact G|]. split; [|exact I]. rewrite E, follow_app, B. exact F. Qed.

Definition iquiet (e : event) : Prop := inames id e = false /\ (forall net n msg, e = InMessage net n msg -> l_read_request L msg = None).
Definition icalm (p : iphase) : Prop := i_at_rest p \/ exists net m ok, p = IRunning net m ok.
Lemma iquiet_step : forall n p e, icalm p -> iquiet e -> incoming L id (n, p) e = Some (n, p).
Proof.
  intros n p e C (Q2 & Q3). unfold incoming. rewrite Q2. cbn [negb accept].
  assert (A : (match e with InMessage net _ msg => match l_read_request L msg with Some q => Some (net, q) | None => None end | _ => None end) = @None (list Z * csreq))
    by (destruct e; try reflexivity; rewrite (Q3 _ _ _ eq_refl); reflexivity).
  rewrite A. destruct C as [C | (net & m & ok & ->)]; [destruct p; try contradiction|]; try reflexivity; destruct e; try reflexivity; cbn in Q2.
  - destruct p; [|reflexivity]. rewrite Q2. reflexivity.
  - rewrite Q2. reflexivity.
  - rewrite Q2. reflexivity.
Qed.
Lemma iquiet_follow : forall es n p, icalm p -> Forall iquiet es -> follow (incoming L id) (n, p) es = Some (n, p).
Proof. induction es as [|e r IH]; intros n p C Q; [reflexivity|]. cbn [follow]. rewrite iquiet_step by (assumption || exact (Forall_inv Q)). apply IH; [assumption|exact (Forall_inv_tail Q)]. Qed.
Lemma pending_calm : forall s p, pending s p -> icalm p.
Proof.
  intros s p R. unfold pending in R. destruct (get id (x_proxy s)).
  - destruct R as (_ & net & m & _ & -> & _). left. exact I.
  - destruct R as [[-> _] | [_ [-> | (net & m & ok & ->)]]]; [left; exact I ..|right; eauto].
Qed.
Lemma igoes_quiet : forall s s' es, x_reqId s' = x_reqId s -> get id (x_proxy s') = get id (x_proxy s) -> x_log s' = x_log s ++ es -> Forall iquiet es -> igoes s s'.
Proof.
  intros s s' es E1 E2 E3 Q p I. pose proof I as (I1 & I2 & I3). exists p. split; [|tauto].
  eapply iinv_emit; [exact I|exact E3| |lia|].
  - rewrite E1. apply iquiet_follow; [exact (pending_calm _ _ I3)|exact Q].
  - unfold pending in *. rewrite E1, E2. exact I3.
Qed.
Lemma igoes_trans : forall a b c, igoes a b -> igoes b c -> igoes a c.
Proof. intros a b c H1 H2 p I. destruct (H1 p I) as (p1 & I1 & R1). destruct (H2 p1 I1) as (p2 & I2 & R2). exists p2. split; [exact I2|]. intros. rewrite R1. apply R2. Qed.

Lemma igoes_request : forall s net n msg q s', free_of (ch "/") net -> l_read_request L msg = Some q ->
  s' = mkX (x_sn s) (x_reqId s + 1) (x_requests s) (put (x_reqId s + 1) (mkCsReq (l_from L net (q_from q)) (q_to q) (q_sn q) (q_rollback q) (q_data q)) (x_proxy s))
           (x_fee s) (x_handler s) (x_admin s) (x_bal s)
           (x_log s ++ [InMessage net n msg; CallMessage (l_from L net (q_from q)) (q_to q) (q_sn q) (x_reqId s + 1)]) -> igoes s s'.
Proof.
  intros s net n msg q s' F R -> p I. pose proof I as (I1 & I2 & I3). destruct (Z.eq_dec (x_reqId s + 1) id) as [E|E].
  - assert (P : p = INew).
    { unfold pending in I3. destruct (get id (x_proxy s)); [destruct I3; lia|]. destruct I3 as [[-> _] | [? _]]; [reflexivity|lia]. }
    subst p. exists (IPending net q). split; [|intros; split; discriminate]. eapply iinv_emit; [exact I|reflexivity| |cbn [x_reqId]; lia|].
    + cbn [follow incoming x_reqId]. rewrite R, (proj2 (Z.eqb_eq _ _) E). cbn [follow incoming]. rewrite (proj2 (Z.eqb_eq _ _) E), !beq_refl, Z.eqb_refl. reflexivity.
    + unfold pending. cbn [x_proxy x_reqId]. rewrite <- E, get_put_same. split; [lia|]. exists net, q. auto.
  - exists p. split; [|tauto]. eapply iinv_emit; [exact I|reflexivity| |cbn [x_reqId]; lia|].
    + assert (S1 : incoming L id (x_reqId s, p) (InMessage net n msg) = Some (x_reqId s + 1, p)).
      { unfold pending in I3. cbn [incoming]. rewrite R. destruct (get id (x_proxy s)) as [r|].
        - destruct I3 as (_ & net' & m & _ & -> & _). reflexivity.
        - destruct I3 as [[-> _] | [_ [-> | (net' & m & ok & ->)]]]; try reflexivity. destruct (Z.eqb_spec (x_reqId s + 1) id); [contradiction|reflexivity]. }
      cbn [follow]. rewrite S1. cbn [x_reqId]. rewrite iquiet_step; [reflexivity|exact (pending_calm _ _ I3)|]. split; [cbn; lia|discriminate].
    + unfold pending in *. cbn [x_proxy x_reqId]. rewrite get_put_other by lia. destruct (get id (x_proxy s)).
      * destruct I3. split; [lia|assumption].
      * destruct I3 as [[-> ?] | [? ?]]; [left; split; [reflexivity|lia]|right; split; [lia|assumption]].
Qed.

(** after the contract was called, or could not be *)
Definition called (s1 : xstate) (net : list Z) (m : csreq) (code : Z) : Prop :=
  0 <= x_reqId s1 /\ id <= x_reqId s1 /\ get id (x_proxy s1) = None /\
  exists p, follow (incoming L id) (0, INew) (x_log s1) = Some (x_reqId s1, p) /\
    ((p = IPending net m /\ l_addr L (q_to m) = None /\ code <> 0) \/ p = IRunning net m (code =? 0)).
Definition ranI (s : xstate) (i : Z) (q : csreq) (s1 : xstate) (code : Z) : Prop :=
  (i <> id -> igoes s s1) /\
  (i = id -> get id (x_proxy s) = Some q -> forall p, iinv s p -> exists net m, free_of (ch "/") net /\ p = IPending net m /\ q = stored net m /\ called s1 net m code).

Lemma igoes_call : forall s s1 i q net code t tail, get i (x_proxy s) = Some q -> (forall n f, free_of (ch "/") n -> q_from q = l_from L n f -> net = n) ->
  ranI s i q s1 code ->
  (q_rollback q = false /\ tail = [] \/
   exists b, q_rollback q = true /\ l_response L (mkCsRes (q_sn q) code (Some t)) = Some b /\ tail = [OutMessage 0 net (l_neg L (q_sn q)) b]) ->
  igoes s (emit s1 (CallExecuted i code t :: tail)).
Proof.
  intros s s1 i q net code t tail G N (R1 & R2) T. destruct (Z.eq_dec i id) as [E|E].
  - subst i. intros p I. destruct (R2 eq_refl G p I) as (n & m & FN & -> & -> & C1 & C2 & C3 & p1 & C4 & C5).
    specialize (N n (q_from m) FN eq_refl). subst n.
    exists IDone. split; [|intros; split; discriminate]. split; [exact C1|]. split.
    + cbn [x_log emit x_reqId]. rewrite follow_app, C4. cbn [stored q_rollback q_sn] in T.
      assert (S1 : incoming L id (x_reqId s1, p1) (CallExecuted id code t) = Some (x_reqId s1, if q_rollback m then IOwes net m code t else IDone)).
      { cbn [incoming]. destruct C5 as [(-> & A & NZ) | ->]; rewrite Z.eqb_refl.
        - rewrite A. rewrite (proj2 (Z.eqb_neq _ _) NZ). reflexivity.
        - rewrite eqb_reflx. reflexivity. }
      cbn [follow]. rewrite S1. destruct T as [(T1 & ->) | (b & T1 & T2 & ->)]; rewrite T1; [reflexivity|].
      cbn [follow incoming]. rewrite T2, !Z.eqb_refl, beq_refl, obeq_refl. reflexivity.
    + unfold pending. cbn [x_proxy emit x_reqId]. rewrite C3. right. auto.
  - eapply igoes_trans; [apply R1; exact E|]. eapply igoes_quiet; [reflexivity|reflexivity|reflexivity|].
    constructor; [split; [cbn; lia|discriminate]|]. destruct T as [(_ & ->) | (b & _ & _ & ->)]; repeat constructor; discriminate.
Qed.
Lemma ranI_not : forall s i q code, l_addr L (q_to q) = None -> code <> 0 -> ranI s i q (with_proxy s (del i (x_proxy s))) code.
Proof.
  intros s i q code A NZ. split.
  - intros E. eapply (igoes_quiet _ _ []); [reflexivity| | |constructor]; cbn [x_proxy with_proxy x_log]; [apply get_del_other; lia|now rewrite app_nil_r].
  - intros -> G p (I1 & I2 & I3). unfold pending in I3. rewrite G in I3. destruct I3 as (I3 & net & m & F & -> & ->).
    exists net, m. split; [exact F|]. split; [reflexivity|]. split; [reflexivity|]. split; [exact I1|]. split; [exact I3|]. split; [cbn; apply get_del_same|].
    exists (IPending net m). split; [exact I2|]. left. auto.
Qed.
Lemma ranI_ok : forall s i q a s1 ok code, l_addr L (q_to q) = Some a -> (code =? 0) = ok ->
  igoes (emit (with_proxy s (del i (x_proxy s))) [OutCall (ForCall i) a (q_from q) (q_data q) ok]) s1 -> ranI s i q s1 code.
Proof.
  intros s i q a s1 ok code A CO H1. split.
  - intros E. eapply igoes_trans; [|exact H1]. eapply igoes_quiet; [reflexivity| |reflexivity|]; [cbn [x_proxy emit with_proxy]; apply get_del_other; lia|].
    constructor; [|constructor]. split; [cbn; lia|discriminate].
  - intros -> G p I. pose proof I as (I1 & I2 & I3). unfold pending in I3. rewrite G in I3. destruct I3 as (I3 & net & m & F & -> & ->).
    exists net, m. split; [exact F|]. split; [reflexivity|]. split; [reflexivity|].
    destruct (H1 (IRunning net m ok)) as (p1 & (J1 & J2 & J3) & R).
    { eapply iinv_emit; [exact I|reflexivity| |exact I1|].
      - cbn [follow incoming]. cbn [stored q_to q_from q_data] in *. rewrite Z.eqb_refl, A, Z.eqb_refl, beq_refl, obeq_refl. reflexivity.
      - unfold pending. cbn [x_proxy emit with_proxy x_reqId]. rewrite get_del_same. right. split; [exact I3|]. right. eauto. }
    pose proof (proj1 (R net m ok) eq_refl). subst p1. split; [exact J1|]. unfold pending in J3. destruct (get id (x_proxy s1)) as [q1|] eqn:G1.
    { destruct J3 as (_ & n' & m' & _ & C & _). discriminate. }
    destruct J3 as [[C _] | [J3 _]]; [discriminate|]. split; [exact J3|]. split; [reflexivity|].
    exists (IRunning net m ok). split; [exact J2|]. right. now rewrite CO.
Qed.

Lemma igoes_all : (forall s s', step s s' -> igoes s s') /\ (forall s s', steps s s' -> igoes s s') /\ (forall s i q s' code, ran s i q s' code -> ranI s i q s' code).
Proof.
  apply step_mutind; intros.
  - eapply igoes_quiet; [reflexivity|reflexivity|reflexivity|]. constructor; [split; [reflexivity|discriminate]|]. apply Forall_app. split.
    + unfold paid. destruct (x_handler s); [|constructor]. destruct (0 <? x_fee s); repeat constructor; discriminate.
    + repeat constructor; discriminate.
  - eapply igoes_call; eassumption.
  - eapply igoes_trans; [eapply igoes_trans; [|eassumption]|].
    + eapply igoes_quiet; [reflexivity|reflexivity|reflexivity|]. repeat constructor; discriminate.
    + eapply igoes_quiet; [reflexivity|reflexivity|reflexivity|]. repeat constructor; discriminate.
  - eapply igoes_request; [eassumption ..|reflexivity].
  - eapply igoes_quiet; [reflexivity|reflexivity|reflexivity|]. constructor; [|constructor]. split; [|assumption].
    destruct t as [(net & m & msg & -> & _) | (net & code & msg & t & -> & _)]; reflexivity.
  - eapply igoes_quiet; [reflexivity|reflexivity|reflexivity|]. constructor; [split; [|assumption]|repeat constructor; discriminate].
    destruct t as [(net & m & msg & -> & _) | (net & code & msg & t & -> & _)]; reflexivity.
  - eapply igoes_quiet; [reflexivity|reflexivity|reflexivity|]. constructor; [split; [|assumption]|repeat constructor; discriminate].
    destruct t as [(net & m & msg & -> & _) | (net & code & msg & t & -> & _)]; reflexivity.
  - eapply (igoes_quiet _ _ []); [reflexivity|reflexivity| |constructor]. cbn. now rewrite app_nil_r.
  - eapply igoes_quiet; [reflexivity|reflexivity|reflexivity|]. constructor; [split; [reflexivity|discriminate]|].
    unfold swept. destruct a; [|constructor]. destruct (0 <? x_bal s); repeat constructor; discriminate.
  - eapply igoes_quiet; [reflexivity|reflexivity|reflexivity|]. repeat constructor; discriminate.
  - intros p I. exists p. tauto.
  - eapply igoes_trans; eassumption.
  - now apply ranI_not.
  - eapply ranI_ok; eassumption.
Qed.
Lemma iinv_init : iinv x_init INew.
Proof. split; [cbn; lia|]. split; [reflexivity|]. left. cbn. split; [reflexivity|lia]. Qed.
End Incoming.

(** * The coins *)
Definition cinv (s : xstate) : Prop := follow coins (0, None, 0, Nothing) (x_log s) = Some (x_fee s, x_handler s, x_bal s, Nothing).
Definition idle (e : event) : Prop := forall st, snd st = Nothing -> coins st e = Some st.
Lemma idle_follow : forall es a b c, Forall idle es -> follow coins (a, b, c, Nothing) es = Some (a, b, c, Nothing).
Proof. induction es as [|e r IH]; intros a b c Q; [reflexivity|]. cbn [follow]. rewrite (Forall_inv Q) by reflexivity. apply IH. exact (Forall_inv_tail Q). Qed.
Lemma cinv_idle : forall s s' es, cinv s -> x_fee s' = x_fee s -> x_handler s' = x_handler s -> x_bal s' = x_bal s -> x_log s' = x_log s ++ es -> Forall idle es -> cinv s'.
Proof. intros s s' es I E1 E2 E3 E4 Q. unfold cinv in *. rewrite E4, follow_app, I, E1, E2, E3. now apply idle_follow. Qed.
Lemma idle_tells : forall e r, tells e r -> idle e.
Proof. intros e r [(net & m & msg & -> & _) | (net & code & msg & t & -> & _)]; intros [[[a b] c] d] E; cbn in E; subst d; reflexivity. Qed.
Ltac idles := repeat (apply Forall_cons; [intros [[[? ?] ?] ?] E; cbn in E; subst; reflexivity|]); try apply Forall_nil.
Lemma coins_all : (forall s s', step s s' -> cinv s -> cinv s') /\ (forall s s', steps s s' -> cinv s -> cinv s') /\ (forall s i q s' code, ran s i q s' code -> cinv s -> cinv s').
Proof.
  apply step_mutind; intros.
  - unfold cinv in *. cbn [x_log x_fee x_handler x_bal]. rewrite follow_app, H. cbn [follow coins]. rewrite (proj2 (Z.leb_le _ _) l). cbn [accept].
    unfold paid, kept. destruct (x_handler s) as [h|]; [destruct (0 <? x_fee s)|]; cbn [app follow coins]; rewrite ?Z.eqb_refl; cbn [andb accept follow coins]; rewrite ?Z.eqb_refl; cbn [accept]; rewrite ?Z.add_0_r; reflexivity.
  - eapply cinv_idle; [apply H; assumption|reflexivity|reflexivity|reflexivity|reflexivity|]. destruct o as [(_ & ->) | (b & _ & _ & ->)]; idles.
  - eapply cinv_idle; [apply H|reflexivity|reflexivity|reflexivity|reflexivity|]; [|idles]. eapply cinv_idle; [exact H0|reflexivity|reflexivity|reflexivity|reflexivity|]. idles.
  - eapply cinv_idle; [exact H|reflexivity|reflexivity|reflexivity|reflexivity|]. idles.
  - eapply cinv_idle; [exact H|reflexivity|reflexivity|reflexivity|reflexivity|]. constructor; [eapply idle_tells; eassumption|constructor].
  - eapply cinv_idle; [exact H|reflexivity|reflexivity|reflexivity|reflexivity|]. constructor; [eapply idle_tells; eassumption|idles].
  - eapply cinv_idle; [exact H|reflexivity|reflexivity|reflexivity|reflexivity|]. constructor; [eapply idle_tells; eassumption|idles].
  - exact H.
  - unfold cinv in *. cbn [x_log emit x_fee x_handler x_bal with_bal with_handler]. rewrite follow_app, H. unfold swept, left. destruct a as [h|]; [|reflexivity].
    cbn [follow coins]. destruct (0 <? x_bal s) eqn:E; [|reflexivity]. cbn [follow coins]. rewrite !Z.eqb_refl. cbn [andb accept]. rewrite Z.sub_diag. reflexivity.
  - unfold cinv in *. cbn [x_log emit x_fee x_handler x_bal with_fee]. rewrite follow_app, H. cbn [follow coins]. rewrite (proj2 (Z.leb_le _ _) l). reflexivity.
  - assumption.
  - auto.
  - exact H.
  - apply H. eapply cinv_idle; [exact H0|reflexivity|reflexivity|reflexivity|reflexivity|]. idles.
Qed.
End Step.
