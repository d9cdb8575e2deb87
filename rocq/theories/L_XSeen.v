(** What it means for a history that the observers do not object. *)
From Coq Require Import String Ascii ZArith List Bool Lia.
From Coq Require Import ZifyBool.
From Verif Require Import Base L_Base S_Address M_XCall S_XCall L_XCall.
Import ListNotations.
Open Scope Z_scope.

Lemma count_app : forall f l1 l2, count f (l1 ++ l2) = count f l1 + count f l2.
Proof. induction l1; intros; cbn [app count]; [lia|]. rewrite IHl1. lia. Qed.
Lemma count_nonneg : forall f l, 0 <= count f l.
Proof. induction l; cbn [count]; [lia|]. destruct (f a); lia. Qed.
Lemma follow_snoc : forall St (m : St -> event -> option St) l e st st', follow m st (l ++ [e]) = Some st' -> exists st1, follow m st l = Some st1 /\ m st1 e = Some st'.
Proof. intros St m l e st st' E. rewrite follow_app in E. destruct (follow m st l) as [st1|]; [|discriminate]. exists st1. split; [reflexivity|]. cbn [follow] in E. destruct (m st1 e); congruence. Qed.
Lemma accept_some : forall A b (a x : A), accept b a = Some x -> b = true /\ a = x.
Proof. intros A [] a x E; cbn [accept] in E; [split; congruence|discriminate]. Qed.

Section Seen.
Variable L : lang.

(** * Outgoing *)
Section Out.
Variable sn : Z.
(** the part of the history since the call was sent: [rb] given by [c] *)
Definition since (log : list event) (c : Z) (to d : list Z) (rb : option (list Z)) (l2 : list event) : Prop :=
  exists l1 v q, log = l1 ++ InSend c v to d rb q :: l2 /\ count is_send l1 = sn - 1.
Definition no_news (l : list event) : Prop := forall e x, In e l -> brings L sn e = Some x -> False.
Definition bad_news (l : list event) : Prop := (exists e code t, In e l /\ brings L sn e = Some (code, t) /\ code <> 0) /\ (forall e t, In e l -> brings L sn e = Some (0, t) -> False).
Definition never (log : list event) : Prop := count (is_rollback_call sn) log = 0 /\ count (is_rolled_back sn) log = 0.
Definition story (log : list event) (p : phase) : Prop :=
  match p with
  | Fresh => count is_send log < sn /\ never log
  | Sending c to d rb => never log /\ exists l2, since log c to d rb l2 /\ no_news l2
  | Sent c to rb => never log /\ exists d l2, since log c to d rb l2 /\ no_news l2
  | OneWay => never log
  | Waiting c d => never log /\ exists to x rb l2, since log c to x rb l2 /\ l_wants L rb = Some d /\ no_news l2
  | Told c d code t => never log /\ exists to x rb l2, since log c to x rb l2 /\ l_wants L rb = Some d /\ (code <> 0 -> bad_news l2)
  | Answered c d | Failed c d => never log /\ exists to x rb l2, since log c to x rb l2 /\ l_wants L rb = Some d /\ bad_news l2
  | Rolling _ => count (is_rollback_call sn) log <= 1 /\ count (is_rolled_back sn) log = 0
  | Closed => count (is_rollback_call sn) log <= 1 /\ count (is_rolled_back sn) log <= 1
  end.
(** the call of a rollback in a history that ends with it *)
Definition right_now (before : list event) (a : Z) (from : list Z) (data : option (list Z)) : Prop :=
  from = l_self L /\ exists l1 l2 v to d rb q, before = l1 ++ InSend a v to d rb q :: l2 /\ count is_send l1 = sn - 1 /\ is_some data = true /\ l_wants L rb = data /\ bad_news l2.

Lemma since_snoc : forall log c to d rb l2 e, since log c to d rb l2 -> since (log ++ [e]) c to d rb (l2 ++ [e]).
Proof. intros log c to d rb l2 e (l1 & v & q & -> & C). exists l1, v, q. split; [|exact C]. rewrite <- app_assoc. reflexivity. Qed.
Lemma no_news_snoc : forall l e, no_news l -> brings L sn e = None -> no_news (l ++ [e]).
Proof. intros l e N B e' x I E. apply in_app_or in I as [I|[<-|[]]]; [exact (N _ _ I E)|congruence]. Qed.
Lemma bad_news_snoc : forall l e, bad_news l -> (forall t, brings L sn e <> Some (0, t)) -> bad_news (l ++ [e]).
Proof.
  intros l e [(e1 & code & t & I & B & C) N] NB. split; [exists e1, code, t; split; [apply in_or_app; left; exact I|split; assumption]|].
  intros e' t' I' E'. apply in_app_or in I' as [I'|[<-|[]]]; [exact (N _ _ I' E')|exact (NB _ E')].
Qed.
Lemma bad_news_first : forall l e code t, (no_news l \/ bad_news l) -> brings L sn e = Some (code, t) -> code <> 0 -> bad_news (l ++ [e]).
Proof.
  intros l e code t N B C. split; [exists e, code, t; split; [apply in_or_app; right; left; reflexivity|split; assumption]|].
  intros e' t' I E. apply in_app_or in I as [I|[<-|[]]]; [destruct N as [N|[_ N]]; [exact (N _ _ I E)|exact (N _ _ I E)]|congruence].
Qed.
Lemma quiet_never : forall log e, never log -> is_rollback_call sn e = false -> is_rolled_back sn e = false -> never (log ++ [e]).
Proof. intros log e [A B] E1 E2. split; rewrite count_app; cbn [count]; rewrite ?E1, ?E2; lia. Qed.
Lemma unnamed : forall e, names sn e = false -> is_rollback_call sn e = false /\ is_rolled_back sn e = false.
Proof. intros [] E; try (split; reflexivity); cbn in *; [destruct p; [split; reflexivity|split; [exact E|reflexivity]]|split; [reflexivity|exact E]]. Qed.
Lemma rest_cases : forall n (p : phase) e n' p', match e with InSend _ _ _ _ _ _ => Some (n + 1, p) | _ => accept (negb (names sn e)) (n, p) end = Some (n', p') ->
  p' = p /\ n' = n + count is_send [e] /\ is_rollback_call sn e = false /\ is_rolled_back sn e = false.
Proof.
  intros n p e n' p' E. destruct (is_send e) eqn:S.
  - destruct e; try discriminate S. injection E as <- <-. cbn [count is_send]. repeat split; lia.
  - assert (E' : accept (negb (names sn e)) (n, p) = Some (n', p')) by (destruct e; try discriminate S; exact E). apply accept_some in E' as [N E'].
    destruct (unnamed e ltac:(destruct (names sn e); [discriminate N|reflexivity])) as [U1 U2]. cbn [count]. rewrite S. injection E' as -> ->. repeat split; try assumption; lia.
Qed.

Definition follows (log : list event) (n : Z) (p : phase) : Prop := n = count is_send log /\ story log p.
Lemma told_snoc : forall log c d e code t, never log -> (exists to x rb l2, since log c to x rb l2 /\ l_wants L rb = Some d /\ (no_news l2 \/ bad_news l2)) ->
  is_rollback_call sn e = false -> is_rolled_back sn e = false -> brings L sn e = Some (code, t) -> story (log ++ [e]) (Told c d code t).
Proof.
  intros log c d e code t NV (to & x & rb & l2 & S & W & NB) E1 E2 B. split; [apply quiet_never; assumption|].
  exists to, x, rb, (l2 ++ [e]). split; [apply since_snoc; exact S|]. split; [exact W|]. intros C. eapply bad_news_first; eassumption.
Qed.
Lemma brings_in : forall e x, brings L sn e = Some x -> is_send e = false /\ is_rollback_call sn e = false /\ is_rolled_back sn e = false.
Proof. intros [] x E; try discriminate E; repeat split. Qed.
Lemma bytes_eq : forall a b, bytes_eqb a b = true -> a = b.
Proof. intros a b E. apply bytes_eqb_eq in E. exact E. Qed.
Lemma opt_eq : forall a b, opt_bytes_eqb a b = true -> a = b.
Proof. intros [a|] [b|] E; try discriminate E; [f_equal; apply bytes_eq; exact E|reflexivity]. Qed.

Lemma story_step : forall log n p e n' p', follows log n p -> outgoing L sn (n, p) e = Some (n', p') ->
  follows (log ++ [e]) n' p' /\ (forall a from data ok, e = OutCall (ForRollback sn) a from data ok -> right_now log a from data).
Proof.
  intros log n p e n' p' [N ST] E. unfold outgoing in E.
  assert (REST : forall q, p = q -> match e with InSend _ _ _ _ _ _ => Some (n + 1, p) | _ => accept (negb (names sn e)) (n, p) end = Some (n', p') ->
    (n' = count is_send (log ++ [e]) /\ p' = q /\ is_rollback_call sn e = false /\ is_rolled_back sn e = false /\ (forall a from data ok, e = OutCall (ForRollback sn) a from data ok -> right_now log a from data))).
  { intros q EQ R. apply rest_cases in R as (R1 & R2 & R3 & R4). subst p. rewrite count_app. split; [lia|]. split; [exact R1|]. split; [exact R3|]. split; [exact R4|].
    intros a from data ok ->. cbn in R3. rewrite Z.eqb_refl in R3. discriminate. }
  assert (QUIET : forall k, count (is_rollback_call sn) log <= k -> is_rollback_call sn e = false -> count (is_rollback_call sn) (log ++ [e]) <= k).
  { intros k A B. rewrite count_app. cbn [count]. rewrite B. lia. }
  assert (QUIET2 : forall k, count (is_rolled_back sn) log <= k -> is_rolled_back sn e = false -> count (is_rolled_back sn) (log ++ [e]) <= k).
  { intros k A B. rewrite count_app. cbn [count]. rewrite B. lia. }
  destruct p as [ | c to d rb | c to rb | | c d | c d code t | c d | c d | ok | ].
  - (* Fresh *) destruct (is_send e) eqn:S.
    + destruct e; try discriminate S. cbn [story] in ST. destruct ST as [ST1 ST2].
      assert (NV : never (log ++ [InSend caller value to data rollback quoted])) by (apply quiet_never; [exact ST2|reflexivity|reflexivity]).
      injection E as <- <-. split; [|intros; discriminate]. split; [rewrite count_app; cbn [count is_send]; lia|].
      destruct (n + 1 =? sn) eqn:Q.
      * split; [exact NV|]. exists []. split; [exists log, value, quoted; split; [reflexivity|lia]|]. intros e x [].
      * split; [|exact NV]. rewrite count_app. cbn [count is_send]. lia.
    + assert (E' : match e with InSend _ _ _ _ _ _ => Some (n + 1, Fresh) | _ => accept (negb (names sn e)) (n, Fresh) end = Some (n', p')) by (destruct e; try discriminate S; exact E).
      apply (REST Fresh eq_refl) in E' as (R1 & -> & R3 & R4 & R5). split; [|exact R5]. split; [exact R1|]. destruct ST as [ST1 ST2]. split; [rewrite count_app; cbn [count]; rewrite S; lia|].
      apply quiet_never; assumption.
  - (* Sending *) destruct ST as (NV & l2 & S & NN). destruct e; try discriminate E.
    + apply accept_some in E as [_ E]. injection E as <- <-. split; [|intros; discriminate]. split; [rewrite count_app; cbn [count is_send]; lia|].
      split; [apply quiet_never; [exact NV|reflexivity|reflexivity]|]. exists d, (l2 ++ [OutMessage value net sn0 bytes]). split; [apply since_snoc; exact S|]. apply no_news_snoc; [exact NN|reflexivity].
    + injection E as <- <-. split; [|intros; discriminate]. split; [rewrite count_app; cbn [count is_send]; lia|].
      split; [apply quiet_never; [exact NV|reflexivity|reflexivity]|]. exists (l2 ++ [OutTransfer to0 amount]). split; [apply since_snoc; exact S|]. apply no_news_snoc; [exact NN|reflexivity].
  - (* Sent *) destruct ST as (NV & d & l2 & S & NN). destruct e; try discriminate E. apply accept_some in E as [_ E]. injection E as <- <-. split; [|intros; discriminate].
    split; [rewrite count_app; cbn [count is_send]; lia|].
    assert (NV' : never (log ++ [CallMessageSent caller to0 sn0 nsn])) by (apply quiet_never; [exact NV|reflexivity|reflexivity]).
    destruct (l_wants L rb) as [w|] eqn:W; [|exact NV']. split; [exact NV'|]. exists to, d, rb, (l2 ++ [CallMessageSent caller to0 sn0 nsn]).
    split; [apply since_snoc; exact S|]. split; [exact W|]. apply no_news_snoc; [exact NN|reflexivity].
  - (* OneWay *) apply (REST OneWay eq_refl) in E as (R1 & -> & R3 & R4 & R5). split; [|exact R5]. split; [exact R1|]. apply quiet_never; assumption.
  - (* Waiting *) destruct ST as (NV & to & x & rb & l2 & S & W & NN). destruct (brings L sn e) as [[code t]|] eqn:B.
    + injection E as <- <-. destruct (brings_in _ _ B) as (I1 & I2 & I3). split.
      * split; [rewrite count_app; cbn [count]; rewrite I1; lia|]. apply told_snoc; try assumption. exists to, x, rb, l2. split; [exact S|]. split; [exact W|]. left. exact NN.
      * intros a from data ok ->. cbn in I2. rewrite Z.eqb_refl in I2. discriminate.
    + apply (REST (Waiting c d) eq_refl) in E as (R1 & -> & R3 & R4 & R5). split; [|exact R5]. split; [exact R1|]. split; [apply quiet_never; assumption|].
      exists to, x, rb, (l2 ++ [e]). split; [apply since_snoc; exact S|]. split; [exact W|]. apply no_news_snoc; assumption.
  - (* Told *) destruct ST as (NV & to & x & rb & l2 & S & W & NN). destruct e; try discriminate E. apply accept_some in E as [_ E]. injection E as <- <-. split; [|intros; discriminate].
    split; [rewrite count_app; cbn [count is_send]; lia|].
    assert (NV' : never (log ++ [ResponseMessage sn0 code0 msg])) by (apply quiet_never; [exact NV|reflexivity|reflexivity]).
    destruct (code =? 0) eqn:C; [destruct NV' as [A1 A2]; split; lia|]. split; [exact NV'|]. exists to, x, rb, (l2 ++ [ResponseMessage sn0 code0 msg]).
    split; [apply since_snoc; exact S|]. split; [exact W|]. apply bad_news_snoc; [apply NN; lia|]. intros t'; discriminate.
  - (* Answered *) destruct ST as (NV & to & x & rb & l2 & S & W & NN). destruct e; try discriminate E. apply accept_some in E as [_ E]. injection E as <- <-. split; [|intros; discriminate].
    split; [rewrite count_app; cbn [count is_send]; lia|]. split; [apply quiet_never; [exact NV|reflexivity|reflexivity]|]. exists to, x, rb, (l2 ++ [RollbackMessage sn0]).
    split; [apply since_snoc; exact S|]. split; [exact W|]. apply bad_news_snoc; [exact NN|]. intros t'; discriminate.
  - (* Failed *) destruct ST as (NV & to & x & rb & l2 & S & W & NN).
    assert (CALL : (exists a from data ok, e = OutCall (ForRollback sn) a from data ok) \/ is_rollback_call sn e = false).
    { destruct e; try (right; reflexivity). destruct p as [|m]; [right; reflexivity|]. cbn. destruct (Z.eqb_spec m sn) as [->|]; [left; do 4 eexists; reflexivity|right; reflexivity]. }
    destruct CALL as [(a & from & data & ok & ->) | NC].
    + rewrite Z.eqb_refl in E. apply accept_some in E as [K E]. injection E as <- <-. split.
      * split; [rewrite count_app; cbn [count is_send]; lia|]. destruct NV as [A1 A2]. split; rewrite count_app; cbn [count is_rollback_call is_rolled_back]; rewrite ?Z.eqb_refl; lia.
      * intros a' from' data' ok' EQ. injection EQ as <- <- <- <-. apply andb_prop in K as [K K3]. apply andb_prop in K as [K1 K2].
        apply bytes_eq in K2. apply opt_eq in K3. apply Z.eqb_eq in K1. subst a data from. split; [reflexivity|]. destruct S as (l1 & v & q & -> & C1).
        exists l1, l2, v, to, x, rb, q. split; [reflexivity|]. split; [exact C1|]. split; [reflexivity|]. split; [exact W|exact NN].
    + assert (FAIL : forall l2', since (log ++ [e]) c to x rb l2' -> bad_news l2' -> is_rolled_back sn e = false -> story (log ++ [e]) (Failed c d)).
      { intros l2' S' B' R4. split; [apply quiet_never; assumption|]. exists to, x, rb, l2'. split; [exact S'|]. split; [exact W|exact B']. }
      assert (NOCALL : forall a from data ok, e = OutCall (ForRollback sn) a from data ok -> right_now log a from data).
      { intros a from data ok ->. cbn in NC. rewrite Z.eqb_refl in NC. discriminate. }
      destruct (brings L sn e) as [[code t]|] eqn:B.
      * destruct (brings_in _ _ B) as (I1 & I2 & I3). assert (E' : Some (n, Told c d code t) = Some (n', p')) by (destruct e; try discriminate B; exact E). injection E' as <- <-. split; [|exact NOCALL].
        split; [rewrite count_app; cbn [count]; rewrite I1; lia|]. apply told_snoc; try assumption. exists to, x, rb, l2. split; [exact S|]. split; [exact W|]. right. exact NN.
      * assert (R : n' = count is_send (log ++ [e]) /\ p' = Failed c d /\ is_rolled_back sn e = false).
        { assert (O : (exists p a from data ok, e = OutCall p a from data ok) \/ (forall p a from data ok, e <> OutCall p a from data ok)).
          { destruct e; try (right; discriminate). left. do 5 eexists. reflexivity. }
          destruct O as [(p & a & from & data & ok & ->) | O].
          - destruct p as [m|m]; [|cbn in NC; rewrite NC in E; injection E as <- <-; rewrite count_app; cbn [count is_send]; split; [lia|split; reflexivity]].
            cbn in E. injection E as <- <-. rewrite count_app. cbn [count is_send]. split; [lia|]. split; reflexivity.
          - assert (E' : match e with InSend _ _ _ _ _ _ => Some (n + 1, Failed c d) | _ => accept (negb (names sn e)) (n, Failed c d) end = Some (n', p')).
            { destruct e; try exact E. exfalso. eapply O. reflexivity. }
            apply (REST (Failed c d) eq_refl) in E' as (R1 & R2 & _ & R4 & _). auto. }
        destruct R as (R1 & -> & R4). split; [|exact NOCALL]. split; [exact R1|]. apply (FAIL (l2 ++ [e])); [apply since_snoc; exact S| |exact R4]. apply bad_news_snoc; [exact NN|].
        intros t. rewrite B. discriminate.
  - (* Rolling *) destruct ST as [A1 A2].
    assert (O : (exists m code t, e = RollbackExecuted m code t) \/ (forall m code t, e <> RollbackExecuted m code t)).
    { destruct e; try (right; discriminate). left. do 3 eexists. reflexivity. }
    destruct O as [(m & code & t & ->) | O].
    + destruct (m =? sn) eqn:M.
      * apply accept_some in E as [_ E]. injection E as <- <-. split; [|intros; discriminate]. split; [rewrite count_app; cbn [count is_send]; lia|].
        split; [apply QUIET; [lia|reflexivity]|]. rewrite count_app. cbn [count is_rolled_back]. rewrite M. lia.
      * injection E as <- <-. split; [|intros; discriminate]. split; [rewrite count_app; cbn [count is_send]; lia|].
        split; [apply QUIET; [lia|reflexivity]|]. rewrite count_app. cbn [count is_rolled_back]. rewrite M. lia.
    + assert (E' : match e with InSend _ _ _ _ _ _ => Some (n + 1, Rolling ok) | _ => accept (negb (names sn e)) (n, Rolling ok) end = Some (n', p')).
      { destruct e; try exact E. exfalso. eapply O. reflexivity. }
      apply (REST (Rolling ok) eq_refl) in E' as (R1 & -> & R3 & R4 & R5). split; [|exact R5]. split; [exact R1|]. split; [apply QUIET; assumption|].
      pose proof (QUIET2 0 ltac:(lia) R4). pose proof (count_nonneg (is_rolled_back sn) (log ++ [e])). lia.
  - (* Closed *) destruct ST as [A1 A2]. apply (REST Closed eq_refl) in E as (R1 & -> & R3 & R4 & R5). split; [|exact R5]. split; [exact R1|]. split; [apply QUIET; assumption|apply QUIET2; assumption].
Qed.
Hypothesis SN : 1 <= sn.
Lemma story_all : forall log n p, follow (outgoing L sn) (0, Fresh) log = Some (n, p) -> follows log n p.
Proof.
  induction log as [|e log IH] using rev_ind; intros n p E.
  - injection E as <- <-. split; [reflexivity|]. cbn [story count]. split; [lia|split; reflexivity].
  - apply follow_snoc in E as ([n1 p1] & E1 & E2). exact (proj1 (story_step _ _ _ _ _ _ (IH _ _ E1) E2)).
Qed.
Lemma rollbacks_seen : forall log st, follow (outgoing L sn) (0, Fresh) log = Some st -> rollbacks_right L sn log.
Proof.
  intros log [n p] E. pose proof (story_all _ _ _ E) as [N ST]. unfold rollbacks_right.
  assert (C : count (is_rollback_call sn) log <= 1 /\ count (is_rolled_back sn) log <= 1).
  { destruct p; cbn [story] in ST; unfold never in ST; split; try lia; try (destruct ST as [? [? ?]]; lia); destruct ST as ([? ?] & ?); lia. }
  destruct C as [C1 C2]. split; [exact C1|]. split; [exact C2|].
  intros before after a from data ok EQ. rewrite EQ in E. rewrite follow_app in E. destruct (follow (outgoing L sn) (0, Fresh) before) as [[n1 p1]|] eqn:E1; [|discriminate].
  cbn [follow] in E. destruct (outgoing L sn (n1, p1) (OutCall (ForRollback sn) a from data ok)) as [[n2 p2]|] eqn:E2; [|discriminate].
  exact (proj2 (story_step _ _ _ _ _ _ (story_all _ _ _ E1) E2) _ _ _ _ eq_refl).
Qed.
End Out.

(** * Incoming *)
Section In.
Variable id : Z.
Hypothesis ID : 1 <= id.
Definition inever (log : list event) : Prop := count (is_call id) log = 0 /\ count (is_executed id) log = 0.
Definition isince (log : list event) (net : list Z) (q : csreq) (l2 : list event) : Prop :=
  exists l1 n msg, log = l1 ++ InMessage net n msg :: l2 /\ count (is_request L) l1 = id - 1 /\ l_read_request L msg = Some q.
Definition istory (log : list event) (p : iphase) : Prop :=
  match p with
  | INew => count (is_request L) log < id /\ inever log
  | IArrived net q | IPending net q => inever log /\ exists l2, isince log net q l2
  | IRunning net q ok => count (is_call id) log <= 1 /\ count (is_executed id) log = 0 /\
      exists l2 l3 l4 a from data, isince log net q l2 /\ l2 = l3 ++ OutCall (ForCall id) a from data ok :: l4
  | IOwes _ _ _ _ | IDone => count (is_call id) log <= 1 /\ count (is_executed id) log <= 1
  end.
Lemma isince_snoc : forall log net q l2 e, isince log net q l2 -> isince (log ++ [e]) net q (l2 ++ [e]).
Proof. intros log net q l2 e (l1 & n & msg & -> & C). exists l1, n, msg. split; [|exact C]. rewrite <- app_assoc. reflexivity. Qed.
Lemma inever_snoc : forall log e, inever log -> is_call id e = false -> is_executed id e = false -> inever (log ++ [e]).
Proof. intros log e [A B] E1 E2. split; rewrite count_app; cbn [count]; rewrite ?E1, ?E2; lia. Qed.
Lemma iunnamed : forall e, inames id e = false -> is_call id e = false /\ is_executed id e = false.
Proof. intros [] E; try (split; reflexivity); cbn in *; [destruct p; [split; [exact E|reflexivity]|split; reflexivity]|split; [reflexivity|exact E]]. Qed.
Definition arrives (e : event) : option (list Z * csreq) :=
  match e with InMessage net _ msg => match l_read_request L msg with Some q => Some (net, q) | None => None end | _ => None end.
Lemma arrives_request : forall e, is_request L e = is_some (arrives e).
Proof. intros []; try reflexivity. cbn. destruct (l_read_request L msg); reflexivity. Qed.
Lemma irest_cases : forall n (p : iphase) e n' p', match arrives e with Some _ => Some (n + 1, p) | None => accept (negb (inames id e)) (n, p) end = Some (n', p') ->
  p' = p /\ n' = n + count (is_request L) [e] /\ is_call id e = false /\ is_executed id e = false.
Proof.
  intros n p e n' p' E. cbn [count]. rewrite arrives_request. destruct (arrives e) as [x|] eqn:A; cbn [is_some].
  - injection E as <- <-. destruct e; try discriminate A. repeat split; lia.
  - apply accept_some in E as [N E]. injection E as <- <-. destruct (iunnamed e ltac:(destruct (inames id e); [discriminate N|reflexivity])). repeat split; try assumption; lia.
Qed.
Definition ifollows (log : list event) (n : Z) (p : iphase) : Prop := n = count (is_request L) log /\ istory log p.
Definition call_now (before : list event) (a : Z) (from : list Z) (data : option (list Z)) : Prop :=
  exists l1 l2 net n msg q, before = l1 ++ InMessage net n msg :: l2 /\ count (is_request L) l1 = id - 1 /\ l_read_request L msg = Some q /\
      l_addr L (q_to q) = Some a /\ from = l_from L net (q_from q) /\ data = q_data q.
Definition done_now (before : list event) (code : Z) (t : list Z) (p' : iphase) : Prop :=
  exists l1 l2 net n msg q, before = l1 ++ InMessage net n msg :: l2 /\ count (is_request L) l1 = id - 1 /\ l_read_request L msg = Some q /\
      ((l_addr L (q_to q) = None /\ code <> 0 /\ count (is_call id) before = 0) \/
       exists l3 l4 a from data ok, l2 = l3 ++ OutCall (ForCall id) a from data ok :: l4 /\ (code =? 0) = ok) /\
      p' = (if q_rollback q then IOwes net q code t else IDone).

Lemma istory_step : forall log n p e n' p', ifollows log n p -> incoming L id (n, p) e = Some (n', p') ->
  ifollows (log ++ [e]) n' p' /\ (forall a from data ok, e = OutCall (ForCall id) a from data ok -> call_now log a from data) /\
  (forall code t, e = CallExecuted id code t -> done_now log code t p').
Proof.
  intros log n p e n' p' [N ST] E. unfold incoming in E. fold (arrives e) in E.
  assert (REST : forall q, p = q -> match arrives e with Some _ => Some (n + 1, p) | None => accept (negb (inames id e)) (n, p) end = Some (n', p') ->
    (n' = count (is_request L) (log ++ [e]) /\ p' = q /\ is_call id e = false /\ is_executed id e = false /\
     (forall a from data ok, e = OutCall (ForCall id) a from data ok -> call_now log a from data) /\ (forall code t, e = CallExecuted id code t -> done_now log code t p'))).
  { intros q EQ R. apply irest_cases in R as (R1 & R2 & R3 & R4). subst p. rewrite count_app. split; [lia|]. split; [exact R1|]. split; [exact R3|]. split; [exact R4|]. split.
    - intros a from data ok ->. cbn in R3. rewrite Z.eqb_refl in R3. discriminate.
    - intros code t ->. cbn in R4. rewrite Z.eqb_refl in R4. discriminate. }
  assert (QUIET : forall f k, count f log <= k -> f e = false -> count f (log ++ [e]) <= k).
  { intros f k A B. rewrite count_app. cbn [count]. rewrite B. lia. }
  destruct p as [ | net q | net q | net q ok | net q code t | ].
  - (* INew *) destruct (arrives e) as [[net q]|] eqn:A.
    + destruct e; try discriminate A. destruct ST as [ST1 ST2]. injection E as <- <-. split; [|split; intros; discriminate].
      split; [rewrite count_app; cbn [count]; rewrite arrives_request, A; cbn [is_some]; lia|].
      assert (NV : inever (log ++ [InMessage net0 sn msg])) by (apply inever_snoc; [exact ST2|reflexivity|reflexivity]).
      destruct (n + 1 =? id) eqn:Q.
      * split; [exact NV|]. exists []. exists log, sn, msg. cbn in A. destruct (l_read_request L msg); [|discriminate]. injection A as <- <-. split; [reflexivity|]. split; [lia|reflexivity].
      * split; [|exact NV]. rewrite count_app. cbn [count]. rewrite arrives_request, A. cbn [is_some]. lia.
    + apply (REST INew eq_refl) in E as (R1 & -> & R3 & R4 & R5). split; [|exact R5]. split; [exact R1|]. destruct ST as [ST1 ST2].
      split; [|apply inever_snoc; assumption]. rewrite count_app. cbn [count]. rewrite arrives_request, A. cbn [is_some]. lia.
  - (* IArrived *) destruct e; try discriminate E. apply accept_some in E as [_ E]. injection E as <- <-. split; [|split; intros; discriminate].
    split; [rewrite count_app; cbn [count is_request]; lia|]. destruct ST as (NV & l2 & S). split; [apply inever_snoc; [exact NV|reflexivity|reflexivity]|]. eexists. apply isince_snoc. exact S.
  - (* IPending *) destruct ST as (NV & l2 & S).
    assert (O : (exists m a from data ok, e = OutCall (ForCall m) a from data ok) \/ (exists m code t, e = CallExecuted m code t) \/
                ((forall m a from data ok, e <> OutCall (ForCall m) a from data ok) /\ (forall m code t, e <> CallExecuted m code t))).
    { destruct e; try (right; right; split; discriminate); [|right; left; do 3 eexists; reflexivity]. destruct p; [left; do 5 eexists; reflexivity|right; right; split; discriminate]. }
    destruct O as [(m & a & from & data & ok & ->) | [(m & code & t & ->) | [O1 O2]]].
    + destruct (Z.eqb_spec m id) as [->|M].
      * apply accept_some in E as [K E]. injection E as <- <-. apply andb_prop in K as [K K3]. apply andb_prop in K as [K1 K2].
        apply bytes_eq in K2. apply opt_eq in K3. destruct (l_addr L (q_to q)) as [a'|] eqn:A'; [|discriminate]. apply Z.eqb_eq in K1. subst a' from data. split; [|split].
        -- split; [rewrite count_app; cbn [count is_request]; lia|]. destruct NV as [V1 V2]. split; [rewrite count_app; cbn [count is_call]; destruct (id =? id); lia|].
           split; [rewrite count_app; cbn [count is_executed]; lia|]. exists (l2 ++ [OutCall (ForCall id) a (l_from L net (q_from q)) (q_data q) ok]). exists l2, []. do 3 eexists.
           split; [apply isince_snoc; exact S|reflexivity].
        -- intros a' from' data' ok' EQ. injection EQ as <- <- <- <-. destruct S as (l1 & n1 & msg & S1 & S2 & S3). exists l1, l2, net, n1, msg, q. repeat (split; [assumption|]). split; reflexivity.
        -- intros; discriminate.
      * injection E as <- <-. split; [|split; [intros a' from' data' ok' EQ; congruence|intros; discriminate]]. split; [rewrite count_app; cbn [count is_request]; lia|].
        split; [apply inever_snoc; [exact NV|cbn; lia|reflexivity]|]. eexists. apply isince_snoc. exact S.
    + destruct (Z.eqb_spec m id) as [->|M].
      * apply accept_some in E as [K E]. injection E as <- <-. apply andb_prop in K as [K1 K2]. destruct (l_addr L (q_to q)) as [a'|] eqn:A'; [discriminate|]. split; [|split].
        -- split; [rewrite count_app; cbn [count is_request]; lia|]. destruct NV as [V1 V2].
           assert (count (is_call id) (log ++ [CallExecuted id code t]) <= 1 /\ count (is_executed id) (log ++ [CallExecuted id code t]) <= 1).
           { rewrite !count_app. cbn [count is_call is_executed]. destruct (id =? id); split; lia. }
           destruct (q_rollback q); assumption.
        -- intros; discriminate.
        -- intros code' t' EQ. injection EQ as <- <-. destruct S as (l1 & n1 & msg & S1 & S2 & S3). exists l1, l2, net, n1, msg, q. split; [exact S1|]. split; [exact S2|]. split; [exact S3|]. split; [|reflexivity].
           left. split; [exact A'|]. split; [lia|exact (proj1 NV)].
      * injection E as <- <-. split; [|split; [intros; discriminate|intros code' t' EQ; congruence]]. split; [rewrite count_app; cbn [count is_request]; lia|].
        split; [apply inever_snoc; [exact NV|reflexivity|cbn; lia]|]. eexists. apply isince_snoc. exact S.
    + assert (E' : match arrives e with Some _ => Some (n + 1, IPending net q) | None => accept (negb (inames id e)) (n, IPending net q) end = Some (n', p')).
      { destruct e; try exact E; [|exfalso; eapply O2; reflexivity]. destruct p; [exfalso; eapply O1; reflexivity|exact E]. }
      apply (REST (IPending net q) eq_refl) in E' as (R1 & -> & R3 & R4 & R5). split; [|exact R5]. split; [exact R1|]. split; [apply inever_snoc; assumption|]. eexists. apply isince_snoc. exact S.
  - (* IRunning *) destruct ST as (V1 & V2 & l2 & l3 & l4 & a & from & data & S & S').
    assert (O : (exists m code t, e = CallExecuted m code t) \/ (forall m code t, e <> CallExecuted m code t)).
    { destruct e; try (right; discriminate). left. do 3 eexists. reflexivity. }
    destruct O as [(m & code & t & ->) | O].
    + destruct (Z.eqb_spec m id) as [->|M].
      * apply accept_some in E as [K E]. injection E as <- <-. split; [|split].
        -- split; [rewrite count_app; cbn [count is_request]; lia|].
           assert (count (is_call id) (log ++ [CallExecuted id code t]) <= 1 /\ count (is_executed id) (log ++ [CallExecuted id code t]) <= 1).
           { rewrite !count_app. cbn [count is_call is_executed]. destruct (id =? id); split; lia. }
           destruct (q_rollback q); assumption.
        -- intros; discriminate.
        -- intros code' t' EQ. injection EQ as <- <-. destruct S as (l1 & n1 & msg & S1 & S2 & S3). exists l1, l2, net, n1, msg, q. split; [exact S1|]. split; [exact S2|]. split; [exact S3|]. split; [|reflexivity].
           right. exists l3, l4, a, from, data, ok. split; [exact S'|]. apply Bool.eqb_prop in K. exact K.
      * injection E as <- <-. split; [|split; [intros; discriminate|intros code' t' EQ; congruence]]. split; [rewrite count_app; cbn [count is_request]; lia|].
        split; [apply QUIET; [exact V1|reflexivity]|]. split; [rewrite count_app; cbn [count is_executed]; destruct (Z.eqb_spec m id); lia|].
        exists (l2 ++ [CallExecuted m code t]), l3, (l4 ++ [CallExecuted m code t]), a, from, data. split; [apply isince_snoc; exact S|]. rewrite S', <- app_assoc. reflexivity.
    + assert (E' : match arrives e with Some _ => Some (n + 1, IRunning net q ok) | None => accept (negb (inames id e)) (n, IRunning net q ok) end = Some (n', p')).
      { destruct e; try exact E. exfalso. eapply O. reflexivity. }
      apply (REST (IRunning net q ok) eq_refl) in E' as (R1 & -> & R3 & R4 & R5). split; [|exact R5]. split; [exact R1|]. split; [apply QUIET; assumption|].
      split; [rewrite count_app; cbn [count]; rewrite R4; lia|]. exists (l2 ++ [e]), l3, (l4 ++ [e]), a, from, data. split; [apply isince_snoc; exact S|]. rewrite S', <- app_assoc. reflexivity.
  - (* IOwes *) destruct ST as [V1 V2]. destruct e; try discriminate E. apply accept_some in E as [_ E]. injection E as <- <-. split; [|split; intros; discriminate].
    split; [rewrite count_app; cbn [count is_request]; lia|]. split; apply QUIET; try assumption; reflexivity.
  - (* IDone *) destruct ST as [V1 V2]. apply (REST IDone eq_refl) in E as (R1 & -> & R3 & R4 & R5). split; [|exact R5]. split; [exact R1|]. split; apply QUIET; assumption.
Qed.
Lemma istory_all : forall log n p, follow (incoming L id) (0, INew) log = Some (n, p) -> ifollows log n p.
Proof.
  induction log as [|e log IH] using rev_ind; intros n p E.
  - injection E as <- <-. split; [reflexivity|]. cbn [istory count]. split; [lia|split; reflexivity].
  - apply follow_snoc in E as ([n1 p1] & E1 & E2). exact (proj1 (istory_step _ _ _ _ _ _ (IH _ _ E1) E2)).
Qed.
(** once executed, no call is made any more *)
Lemma over : forall log n p n' p', p = IDone \/ (exists net q code t, p = IOwes net q code t) -> follow (incoming L id) (n, p) log = Some (n', p') -> count (is_call id) log = 0.
Proof.
  induction log as [|e log IH]; intros n p n' p' P E; [reflexivity|]. cbn [follow] in E. destruct (incoming L id (n, p) e) as [[n1 p1]|] eqn:E1; [|discriminate].
  cbn [count]. unfold incoming in E1. fold (arrives e) in E1. destruct P as [-> | (net & q & code & t & ->)].
  - apply irest_cases in E1 as (R1 & _ & R3 & _). rewrite R3, (IH n1 p1 n' p'); [reflexivity|left; exact R1|exact E].
  - destruct e; try discriminate E1. apply accept_some in E1 as [_ E1]. injection E1 as <- <-. cbn [is_call]. rewrite (IH n IDone n' p'); [reflexivity|left; reflexivity|exact E].
Qed.
Lemma calls_seen : forall log n p, follow (incoming L id) (0, INew) log = Some (n, p) -> i_at_rest p -> calls_right L id log.
Proof.
  intros log n p E REST. pose proof (istory_all _ _ _ E) as [N ST].
  assert (C : count (is_call id) log <= 1 /\ count (is_executed id) log <= 1).
  { destruct p; try contradiction REST; cbn [istory] in ST; unfold inever in ST; [lia|destruct ST as ([? ?] & _); lia|lia]. }
  destruct C as [C1 C2]. split; [exact C1|]. split; [exact C2|]. split.
  - intros before after a from data ok EQ. rewrite EQ in E. rewrite follow_app in E. destruct (follow (incoming L id) (0, INew) before) as [[n1 p1]|] eqn:E1; [|discriminate].
    cbn [follow] in E. destruct (incoming L id (n1, p1) (OutCall (ForCall id) a from data ok)) as [[n2 p2]|] eqn:E2; [|discriminate].
    exact (proj1 (proj2 (istory_step _ _ _ _ _ _ (istory_all _ _ _ E1) E2)) _ _ _ _ eq_refl).
  - intros before after code t EQ. rewrite EQ in E. rewrite follow_app in E. destruct (follow (incoming L id) (0, INew) before) as [[n1 p1]|] eqn:E1; [|discriminate].
    cbn [follow] in E. destruct (incoming L id (n1, p1) (CallExecuted id code t)) as [[n2 p2]|] eqn:E2; [|discriminate].
    destruct (proj2 (proj2 (istory_step _ _ _ _ _ _ (istory_all _ _ _ E1) E2)) _ _ eq_refl) as (l1 & l2 & net & m & msg & q & D1 & D2 & D3 & D4 & D5).
    exists l1, l2, net, m, msg, q. split; [exact D1|]. split; [exact D2|]. split; [exact D3|]. split.
    + destruct D4 as [(A1 & A2 & A3) | D4]; [left|right; exact D4]. split; [exact A1|]. split; [exact A2|]. rewrite EQ, count_app. cbn [count is_call]. rewrite A3.
      rewrite (over after n2 p2 n p); [reflexivity| |exact E]. destruct (q_rollback q); [right; do 4 eexists; exact D5|left; exact D5].
    + intros RB. rewrite RB in D5. subst p2. destruct after as [|e rest]; [injection E as <- <-; contradiction REST|].
      cbn [follow] in E. destruct (incoming L id (n2, IOwes net q code t) e) as [[n3 p3]|] eqn:E3; [|discriminate].
      cbn [incoming] in E3. destruct e; try discriminate E3. apply accept_some in E3 as [K _]. apply andb_prop in K as [K K4]. apply andb_prop in K as [K K3]. apply andb_prop in K as [K1 K2].
      apply bytes_eq in K2. apply opt_eq in K4. apply Z.eqb_eq in K1. apply Z.eqb_eq in K3. subst. eexists _, rest. split; [reflexivity|exact K4].
Qed.
End In.
End Seen.

(** * Coins *)
Lemma received_app : forall a b, received (a ++ b) = received a + received b.
Proof. induction a as [|e a IH]; intros b; [reflexivity|]. cbn [app received]. rewrite IH. destruct e; lia. Qed.
Lemma spent_app : forall a b, spent (a ++ b) = spent a + spent b.
Proof. induction a as [|e a IH]; intros b; [reflexivity|]. cbn [app spent]. rewrite IH. destruct e; lia. Qed.
(** what is due to be paid out of what came in *)
Definition owed (d : due) : Z := match d with Nothing => 0 | Charge _ f r => f + r | Forward r => r | Sweep _ _ => 0 end.
Lemma coins_step : forall fee h k d e fee' h' k' d', coins (fee, h, k, d) e = Some (fee', h', k', d') -> k' + owed d' = k + owed d + received [e] - spent [e].
Proof.
  intros fee h k d e fee' h' k' d' E. unfold coins in E. destruct d as [ | h1 f r | r | h1 a]; destruct e as [caller value to data rb quoted | net sn msg | net sn code msg | hd | v | value net sn bytes | to amount | pp addr from data ok | c to sn nsn | from to sn rid | rid code msg | sn code msg | sn | sn code msg]; cbn [received spent]; try discriminate E; try (injection E as <- <- <- <-; lia).
  - apply accept_some in E as [_ E]. destruct h as [hh|]; [destruct (0 <? fee)|]; injection E as <- <- <- <-; cbn [owed]; lia.
  - destruct hd as [x|]; [destruct (0 <? k)|]; injection E as <- <- <- <-; cbn [owed]; lia.
  - apply accept_some in E as [_ E]. injection E as <- <- <- <-. lia.
  - apply accept_some in E as [K E]. injection E as <- <- <- <-. lia.
  - apply accept_some in E as [K E]. injection E as <- <- <- <-. cbn [owed]. lia.
  - apply accept_some in E as [K E]. injection E as <- <- <- <-. cbn [owed]. lia.
  - apply accept_some in E as [K E]. injection E as <- <- <- <-. cbn [owed]. lia.
Qed.
Lemma coins_sum : forall log fee h k d, follow coins (0, None, 0, Nothing) log = Some (fee, h, k, d) -> k + owed d = received log - spent log.
Proof.
  induction log as [|e log IH] using rev_ind; intros fee h k d E.
  - injection E as <- <- <- <-. reflexivity.
  - apply follow_snoc in E as ([[[fee1 h1] k1] d1] & E1 & E2). apply IH in E1. apply coins_step in E2. rewrite received_app, spent_app. lia.
Qed.
