(** Lemmas about many message centers. *)
From Coq Require Import String Ascii ZArith List Bool Lia Permutation.
From Coq Require Import ZifyBool.
From Verif Require Import Base L_Base M_JMap L_JMap L_JSum M_JBmc S_JBmc L_JBmc T_JBmc T_JBmc2 X_JBmc T_JBmc3 L_NetW M_Net S_Net.
Import ListNotations.
Open Scope Z_scope.

(** messages as message centers make them *)
Definition signs (m : msg) : Prop := (0 < m_nsn m /\ 0 <= m_sn m) \/ (m_nsn m < 0 /\ m_sn m <= 0).
Definition signb (m : msg) : bool := ((0 <? m_nsn m) && (0 <=? m_sn m)) || ((m_nsn m <? 0) && (m_sn m <=? 0)).
Lemma signb_ok : forall m, signb m = true <-> signs m.
Proof. intros m. unfold signb, signs. lia. Qed.
Definition b2z (b : bool) : Z := if b then 1 else 0.
Definition tok (id : Z * Z) (m : msg) : Z := b2z (carries id m).
Definition on_sent (f : msg -> Z) (o : out) : Z := match o with OSent _ _ _ m => f m | _ => 0 end.
Definition sendw (id : Z * Z) (o : out) : Z := match o with OEvent x k _ SEND => b2z (zz_eqb (x, k) id) | _ => 0 end.
Lemma b2z_range : forall b, 0 <= b2z b <= 1.
Proof. intros []; cbn [b2z]; lia. Qed.
Lemma carries_spec : forall id m, carries id m = true <-> msg_id m = id.
Proof. intros id m. unfold carries. apply zz_key. Qed.
Lemma carries_eq : forall id m m', msg_id m' = msg_id m -> carries id m' = carries id m.
Proof. intros id m m' E. unfold carries. rewrite E. reflexivity. Qed.
Lemma id_fwd : forall m, 0 < m_nsn m -> msg_id m = (m_src m, m_nsn m).
Proof. intros m H. unfold msg_id. replace (m_nsn m <? 0) with false by lia. reflexivity. Qed.
Lemma id_back : forall m, m_nsn m < 0 -> msg_id m = (m_dst m, - m_nsn m).
Proof. intros m H. unfold msg_id. replace (m_nsn m <? 0) with true by lia. reflexivity. Qed.
Lemma carries_err : forall id own m code f, 0 < m_nsn m -> carries id (Msg own (m_src m) (m_svc m) (- m_sn m) (PError code) (- m_nsn m) f) = carries id m.
Proof. intros id own m code f H. apply carries_eq. rewrite (id_fwd m H), id_back; cbn [m_nsn m_dst]; [|lia]. rewrite Z.opp_involutive. reflexivity. Qed.

(** one message center, one call: four ways to count *)
Section ONE.
Context (own : Z) (id : Z * Z) (HID : 0 < snd id).
Lemma tok_reply : forall to svc p i f sn, tok id (Msg own to svc 0 p (- r_nsn i) f) = wid own id ((to, svc, sn), i).
Proof.
  intros to svc p i f sn. unfold tok, wid, id_of, carries, msg_id, b2z. cbn [m_nsn m_dst m_src fst snd].
  destruct (Z.ltb_spec (- r_nsn i) 0), (Z.ltb_spec (r_nsn i) 0); try lia; try reflexivity.
  - rewrite Z.opp_involutive. reflexivity.
  - assert (r_nsn i = 0) as -> by lia. destruct id as [x n]. cbn [snd] in HID. unfold zz_eqb. cbn [fst snd]. replace (0 =? n) with false by lia. replace (- (0) =? n) with false by lia. rewrite !andb_false_r. reflexivity.
Qed.
Lemma send_tok : forall m nx, sendw id (ev_of m nx SEND) = tok id m.
Proof. intros m nx. unfold ev_of, sendw, tok, carries. rewrite <- surjective_pairing. reflexivity. Qed.
Lemma wid_store : forall m f, 0 < m_nsn m -> wid own id ((m_src m, m_svc m, m_sn m), RInfo (m_nsn m) f) = tok id m.
Proof.
  intros m f H. unfold wid, tok, carries, id_of. cbn [fst snd r_nsn]. rewrite (id_fwd m H). replace (m_nsn m <? 0) with false by lia. reflexivity.
Qed.
(** copies of the message and of answers, requests waiting for an answer; an answer that has arrived is gone *)
Definition wi_all (m : msg) : Z := if (own =? m_dst m) && (m_nsn m <? 0) then 0 else tok id m.
Lemma fair_all : fair own (fun o => on_sent (tok id) o - sendw id o) (wid own id) wi_all (tok id) signs 0.
Proof.
  split.
  - intros o. destruct o as [| ? ? ? e | | | | |]; try reflexivity; try exact I. destruct e; try reflexivity; exact I.
  - intros a nid seq m nx _ _ _. rewrite send_tok. cbn [on_sent sendw]. unfold ev_of. cbn [on_sent]. lia.
  - intros a nid seq to svc sn p i. cbn [on_sent sendw]. rewrite (tok_reply to svc p i (r_fee i) sn). lia.
  - intros a nid seq m N. cbn [on_sent sendw]. unfold wi_all. replace (own =? m_dst m) with false by lia. cbn [andb]. lia.
  - intros a nid seq m code f HS [[H1 H2]|[H1 H2]]; [|lia]. cbn [on_sent sendw]. unfold tok. rewrite carries_err by exact H1. lia.
  - intros m m' E1 E2 E3 E4 HS [[H1 H2]|[H1 H2]]; [|lia]. unfold wi_all. replace (m_nsn m <? 0) with false by lia. rewrite andb_false_r. unfold tok. rewrite (carries_eq id m m'); [lia|]. rewrite !id_fwd by lia. congruence.
  - intros m f EO HS [[H1 H2]|[H1 H2]]; [|lia]. rewrite wid_store by exact H1. unfold wi_all. replace (m_nsn m <? 0) with false by lia. rewrite andb_false_r. lia.
  - reflexivity.
  - reflexivity.
  - intros m m' E1 E2 E3 E4. unfold signs. rewrite E3, E4. tauto.
  - intros m. unfold wi_all, tok. pose proof (b2z_range (carries id m)). destruct (_ && _); lia.
  - intros x. apply wid_nonneg.
Qed.
(** copies of the message; where it is for, it stays *)
Definition ftok (m : msg) : Z := b2z (forward m && carries id m).
Definition wr_f (x : (Z * Z * Z) * rinfo) : Z := b2z ((r_nsn (snd x) <? 0) && zz_eqb (own, - r_nsn (snd x)) id).
Definition wi_f (m : msg) : Z := if own =? m_dst m then 0 else ftok m.
Lemma fair_fwd : fair own (fun o => on_sent ftok o - sendw id o) wr_f wi_f (fun _ => 0) signs 0.
Proof.
  split.
  - intros o. destruct o as [| ? ? ? e | | | | |]; try reflexivity; try exact I. destruct e; try reflexivity; exact I.
  - intros a nid seq m nx _ HN _. rewrite send_tok. cbn [on_sent sendw]. unfold ev_of. cbn [on_sent]. unfold ftok, tok, forward. replace (0 <? m_nsn m) with true by lia. cbn [andb]. lia.
  - intros a nid seq to svc sn p i. cbn [on_sent sendw]. unfold ftok, forward, wr_f, carries, msg_id. cbn [m_nsn m_src m_dst snd].
    destruct (Z.ltb_spec 0 (- r_nsn i)); cbn [andb]; [|pose proof (b2z_range ((r_nsn i <? 0) && zz_eqb (own, - r_nsn i) id)); cbn [b2z]; lia].
    replace (- r_nsn i <? 0) with false by lia. replace (r_nsn i <? 0) with true by lia. cbn [andb]. lia.
  - intros a nid seq m N. cbn [on_sent sendw]. unfold wi_f. replace (own =? m_dst m) with false by lia. lia.
  - intros a nid seq m code f HS [[H1 H2]|[H1 H2]]; [|lia]. cbn [on_sent sendw]. unfold ftok, forward. cbn [m_nsn]. replace (0 <? - m_nsn m) with false by lia. cbn [andb b2z]. lia.
  - intros m m' E1 E2 E3 E4 HS HQ. unfold wi_f, ftok. pose proof (b2z_range (forward m && carries id m)). destruct (own =? m_dst m); lia.
  - intros m f EO HS [[H1 H2]|[H1 H2]]; [|lia]. unfold wr_f. cbn [snd r_nsn]. replace (m_nsn m <? 0) with false by lia. cbn [andb b2z]. unfold wi_f, ftok. pose proof (b2z_range (forward m && carries id m)). destruct (own =? m_dst m); lia.
  - reflexivity.
  - reflexivity.
  - intros m m' E1 E2 E3 E4. unfold signs. rewrite E3, E4. tauto.
  - intros m. unfold wi_f, ftok. pose proof (b2z_range (forward m && carries id m)). destruct (own =? m_dst m); lia.
  - intros x. apply b2z_range.
Qed.
(** answers and requests waiting for one *)
Definition btok (m : msg) : Z := b2z ((m_nsn m <? 0) && carries id m).
Lemma fair_back : fair own (on_sent btok) (wid own id) (tok id) (tok id) signs 0.
Proof.
  assert (HB : forall m, btok m <= tok id m) by (intros m; unfold btok, tok; destruct (m_nsn m <? 0), (carries id m); cbn [andb b2z]; lia).
  split.
  - intros o. destruct o as [| ? ? ? e | | | | |]; try reflexivity; try exact I. destruct e; try reflexivity; exact I.
  - intros a nid seq m nx _ HN _. cbn [on_sent]. unfold ev_of. cbn [on_sent]. unfold btok. replace (m_nsn m <? 0) with false by lia. cbn [andb b2z]. lia.
  - intros a nid seq to svc sn p i. cbn [on_sent]. rewrite <- (tok_reply to svc p i (r_fee i) sn). apply HB.
  - intros a nid seq m N. cbn [on_sent]. apply HB.
  - intros a nid seq m code f HS [[H1 H2]|[H1 H2]]; [|lia]. cbn [on_sent]. eapply Z.le_trans; [apply HB|]. unfold tok. rewrite carries_err by exact H1. lia.
  - intros m m' E1 E2 E3 E4 HS [[H1 H2]|[H1 H2]]; [|lia]. unfold tok. rewrite (carries_eq id m m'); [lia|]. rewrite !id_fwd by lia. congruence.
  - intros m f EO HS [[H1 H2]|[H1 H2]]; [|lia]. rewrite wid_store by exact H1. lia.
  - reflexivity.
  - reflexivity.
  - intros m m' E1 E2 E3 E4. unfold signs. rewrite E3, E4. tauto.
  - intros m. apply b2z_range.
  - intros x. apply wid_nonneg.
Qed.
(** nothing of another network's name is started here *)
Lemma fair_other : fst id <> own -> fair own (on_sent (tok id)) (wid own id) (tok id) (tok id) signs 0.
Proof.
  intros NX. split.
  - intros o. destruct o as [| ? ? ? e | | | | |]; try reflexivity; try exact I. destruct e; try reflexivity; exact I.
  - intros a nid seq m nx ES HN _. cbn [on_sent]. unfold ev_of. cbn [on_sent]. assert (E : carries id m = false). { destruct (carries id m) eqn:E; [|reflexivity]. apply carries_spec in E. rewrite id_fwd in E by lia. exfalso. apply NX. rewrite <- E. exact ES. }
    unfold tok. rewrite E. cbn [b2z]. lia.
  - intros a nid seq to svc sn p i. cbn [on_sent]. rewrite <- (tok_reply to svc p i (r_fee i) sn). lia.
  - intros a nid seq m N. cbn [on_sent]. lia.
  - intros a nid seq m code f HS [[H1 H2]|[H1 H2]]; [|lia]. cbn [on_sent]. unfold tok. rewrite carries_err by exact H1. lia.
  - intros m m' E1 E2 E3 E4 HS [[H1 H2]|[H1 H2]]; [|lia]. unfold tok. rewrite (carries_eq id m m'); [lia|]. rewrite !id_fwd by lia. congruence.
  - intros m f EO HS [[H1 H2]|[H1 H2]]; [|lia]. rewrite wid_store by exact H1. lia.
  - reflexivity.
  - reflexivity.
  - intros m m' E1 E2 E3 E4. unfold signs. rewrite E3, E4. tauto.
  - intros m. apply b2z_range.
  - intros x. apply wid_nonneg.
Qed.
End ONE.
Lemma fair_signs : forall own, fair own (on_sent (fun m => b2z (negb (signb m)))) (fun x => b2z (r_nsn (snd x) =? 0)) (fun m => b2z (negb (signb m))) (fun m => b2z (negb (signb m))) (fun _ => True) 0.
Proof.
  intros own. assert (HR : forall x, 0 <= b2z x) by (intros []; cbn [b2z]; lia). assert (HL : forall x y : bool, (x = true -> y = true) -> b2z x <= b2z y) by (intros [] []; cbn [b2z]; intros H; try lia; specialize (H eq_refl); discriminate).
  split.
  - intros o. destruct o as [| ? ? ? e | | | | |]; try reflexivity; try exact I. destruct e; try reflexivity; exact I.
  - intros a nid seq m nx ES HN HS. cbn [on_sent]. unfold ev_of. cbn [on_sent]. replace (signb m) with true by (unfold signb; lia). cbn [negb b2z]. lia.
  - intros a nid seq to svc sn p i. cbn [on_sent]. apply HL. unfold signb. cbn [m_nsn m_sn snd]. lia.
  - intros a nid seq m N. cbn [on_sent]. lia.
  - intros a nid seq m code f HS _. cbn [on_sent]. apply HL. unfold signb. cbn [m_nsn m_sn]. lia.
  - intros m m' E1 E2 E3 E4 HS _. unfold signb. rewrite E3, E4. lia.
  - intros m f EO HS _. apply HL. unfold signb. cbn [snd r_nsn]. lia.
  - reflexivity.
  - reflexivity.
  - tauto.
  - intros m. apply HR.
  - intros x. apply HR.
Qed.
(** the network of a started message is the own *)
Definition alien (own : Z) (o : out) : Z := match o with OEvent x _ _ SEND => b2z (negb (x =? own)) | _ => 0 end.
Lemma fair_alien : forall own, fair own (alien own) (fun _ => 0) (fun _ => 0) (fun _ => 0) (fun _ => True) 0.
Proof.
  intros own. split; try reflexivity; try tauto; intros; cbn [alien]; try lia.
  - destruct o as [| ? ? ? e | | | | |]; try reflexivity; try exact I. destruct e; try reflexivity; exact I.
  - unfold ev_of. rewrite id_fwd by lia. cbn [alien fst]. replace (m_src m =? own) with true by lia. cbn [negb b2z]. lia.
Qed.
(** messages with a name that do not belong to one beginning *)
Definition addr_dec : forall a b : addr, {a = b} + {a <> b}.
Proof. decide equality; apply Z.eq_dec. Defined.
Definition payload_dec : forall p q : payload, {p = q} + {p <> q}.
Proof. decide equality; try apply Z.eq_dec; try (apply list_eq_dec; first [apply Z.eq_dec|apply addr_dec]); try apply addr_dec. decide equality. apply Z.eq_dec. Defined.
Definition is_error (p : payload) : bool := match p with PError _ => true | _ => false end.
Definition belongsb (c m : msg) : bool :=
  ((0 <? m_nsn m) && (m_src m =? m_src c) && (m_dst m =? m_dst c) && (m_svc m =? m_svc c) && (m_sn m =? m_sn c) && (if payload_dec (m_pay m) (m_pay c) then true else false) && (m_nsn m =? m_nsn c)) ||
  ((m_nsn m =? - m_nsn c) && (m_nsn m <? 0) && (m_dst m =? m_src c) && (m_svc m =? m_svc c) && (0 <? m_sn c) &&
    (((m_sn m =? 0) && (m_src m =? m_dst c)) || ((m_sn m =? - m_sn c) && is_error (m_pay m)))).
Lemma belongsb_ok : forall c m, belongsb c m = true <-> belongs c m.
Proof.
  intros c m. unfold belongsb, belongs, same_content.
  assert (HE : is_error (m_pay m) = true <-> exists code, m_pay m = PError code) by (destruct (m_pay m); cbn [is_error]; split; try discriminate; try (intros [x X]; discriminate); eauto).
  assert (HP : (if payload_dec (m_pay m) (m_pay c) then true else false) = true <-> m_pay m = m_pay c) by (destruct (payload_dec (m_pay m) (m_pay c)); split; congruence).
  rewrite <- HE, <- HP. lia.
Qed.
Section MIS.
Context (own : Z) (id : Z * Z) (HID : 0 < snd id) (c : msg) (HC1 : m_src c = fst id) (HC2 : m_nsn c = snd id).
Definition mis (m : msg) : Z := b2z (carries id m && negb (belongsb c m)).
Definition wr_mis (x : (Z * Z * Z) * rinfo) : Z :=
  b2z (zz_eqb (id_of own (fst (fst (fst x))) (r_nsn (snd x))) id && negb ((0 <? r_nsn (snd x)) && (snd (fst (fst x)) =? m_svc c) && (own =? m_dst c) && (0 <? m_sn c))).
Definition we_mis (m : msg) : Z := b2z ((0 <? m_nsn m) && zz_eqb (m_src m, m_nsn m) id && negb ((m_svc m =? m_svc c) && (m_sn m =? m_sn c))).
Lemma mis_le : forall x y : bool, (x = true -> y = true) -> b2z x <= b2z y.
Proof. intros [] []; cbn [b2z]; intros H; try lia. Qed.
Lemma zz_split : forall a b, zz_eqb a b = (fst a =? fst b) && (snd a =? snd b).
Proof. reflexivity. Qed.
Lemma fair_mis : fair own (on_sent mis) wr_mis mis we_mis signs (if own =? fst id then snd id else 0).
Proof using HID HC1 HC2.
  split.
  - intros o. destruct o as [| ? ? ? e | | | | |]; try reflexivity; try exact I. destruct e; try reflexivity; exact I.
  - intros a nid seq m nx ES HN _. cbn [on_sent]. unfold ev_of. cbn [on_sent]. assert (E : carries id m = false).
    { destruct (carries id m) eqn:E; [|reflexivity]. apply carries_spec in E. rewrite id_fwd in E by (destruct (own =? fst id); lia). destruct id as [x k]. cbn [fst snd] in *. injection E as E1 E2. destruct (Z.eqb_spec own x); lia. }
    unfold mis. rewrite E. cbn [andb b2z]. lia.
  - intros a nid seq to svc sn p i. cbn [on_sent]. apply mis_le. unfold carries, msg_id, belongsb, id_of. cbn [m_nsn m_src m_dst m_svc m_sn fst snd].
    destruct id as [x k]. cbn [fst snd] in *. rewrite !zz_split. destruct (Z.ltb_spec (- r_nsn i) 0), (Z.ltb_spec (r_nsn i) 0); cbn [fst snd]; try lia.
  - intros a nid seq m N. cbn [on_sent]. lia.
  - intros a nid seq m code f HS [[H1 H2]|[H1 H2]]; [|lia]. cbn [on_sent]. apply mis_le. rewrite carries_err by exact H1. unfold carries. rewrite (id_fwd m H1), !zz_split. destruct id as [x k]. cbn [fst snd] in *.
    unfold belongsb. cbn [m_nsn m_src m_dst m_svc m_sn m_pay is_error]. destruct (payload_dec _ _); lia.
  - intros m m' E1 E2 E3 E4 HS [[H1 H2]|[H1 H2]]; [|lia]. apply mis_le. unfold carries. rewrite (id_fwd m H1), !zz_split, E1, E2, E3, E4. destruct id as [x k]. cbn [fst snd] in *.
    unfold belongsb. destruct (payload_dec _ _); lia.
  - intros m f EO HS [[H1 H2]|[H1 H2]]; [|lia]. apply mis_le. unfold carries, id_of. cbn [fst snd r_nsn]. rewrite (id_fwd m H1). replace (m_nsn m <? 0) with false by lia. rewrite !zz_split. destruct id as [x k]. cbn [fst snd] in *.
    unfold belongsb. destruct (payload_dec _ _); lia.
  - reflexivity.
  - reflexivity.
  - intros m m' E1 E2 E3 E4. unfold signs. rewrite E3, E4. tauto.
  - intros m. apply b2z_range.
  - intros x. apply b2z_range.
Qed.
End MIS.
