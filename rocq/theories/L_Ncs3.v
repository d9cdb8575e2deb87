(** What holds of the native coin service after any calls. *)
From Coq Require Import ZArith List Bool Lia Permutation.
From Coq Require Import ZifyBool.
From Verif Require Import Base L_Base M_JMap L_JMap M_JBmc L_JBmc L_JSum M_Ncs S_Ncs L_Ncs L_Ncs2.
Import ListNotations.
Open Scope Z_scope.

(** * Transactions *)
Definition pend (tx : list (Z * ntx)) (c o : Z) : Z := sumOf (fun x => if t_from (snd x) =? o then value_of c (t_assets (snd x)) else 0) tx.
Definition txsum (tx : list (Z * ntx)) (c : Z) : Z := sumOf (fun x => value_of c (t_assets (snd x))) tx.
Lemma pend_put : forall tx sn t c o, aget Z.eqb sn tx = None -> pend (aput Z.eqb sn t tx) c o = pend tx c o + (if t_from t =? o then value_of c (t_assets t) else 0).
Proof. intros tx sn t c o E. unfold pend. change (@sumOf (Z * ntx)) with (@wsum (Z * ntx)). rewrite (wsum_put Z.eqb z_key). unfold wat. rewrite E. cbn [snd]. lia. Qed.
Lemma txsum_put : forall tx sn t c, aget Z.eqb sn tx = None -> txsum (aput Z.eqb sn t tx) c = txsum tx c + value_of c (t_assets t).
Proof. intros tx sn t c E. unfold txsum. change (@sumOf (Z * ntx)) with (@wsum (Z * ntx)). rewrite (wsum_put Z.eqb z_key). unfold wat. rewrite E. cbn [snd]. lia. Qed.
Lemma pend_del : forall tx sn t c o, aget Z.eqb sn tx = Some t -> pend (adel Z.eqb sn tx) c o = pend tx c o - (if t_from t =? o then value_of c (t_assets t) else 0).
Proof. intros tx sn t c o E. unfold pend. change (@sumOf (Z * ntx)) with (@wsum (Z * ntx)). rewrite (wsum_del Z.eqb z_key). unfold wat. rewrite E. cbn [snd]. lia. Qed.
Lemma txsum_del : forall tx sn t c, aget Z.eqb sn tx = Some t -> txsum (adel Z.eqb sn tx) c = txsum tx c - value_of c (t_assets t).
Proof. intros tx sn t c E. unfold txsum. change (@sumOf (Z * ntx)) with (@wsum (Z * ntx)). rewrite (wsum_del Z.eqb z_key). unfold wat. rewrite E. cbn [snd]. lia. Qed.

(** * The log *)
Lemma started_app : forall sn a b, started_as sn (a ++ b) = match started_as sn a with Some r => Some r | None => started_as sn b end.
Proof. intros sn a b. induction a as [|e a IH]; [reflexivity|]. cbn [app started_as]. destruct e; try exact IH. destruct (sn0 =? sn); [reflexivity|exact IH]. Qed.
Definition no_start (q : list nout) : Prop := forall e, In e q -> match e with NStart _ _ _ _ => False | _ => True end.
Lemma no_start_started : forall q, no_start q -> forall sn, started_as sn q = None.
Proof. intros q H sn. induction q as [|e q IH]; [reflexivity|]. cbn [started_as]. pose proof (H e (or_introl eq_refl)) as HE. destruct e; try destruct HE; apply IH; intros x hx; apply H; right; exact hx. Qed.
Definition ended_started (log : list nout) : Prop := forall o sn code, In (NEnd o sn code) log -> started_as sn log <> None.
Lemma details_app : forall sn a b, started_as sn a <> None -> details_of (a ++ b) sn = details_of a sn.
Proof. intros sn a b H. unfold details_of. rewrite started_app. destruct (started_as sn a); [reflexivity|congruence]. Qed.
Lemma settled_app : forall f a q, ended_started a -> settled_sum f (a ++ q) = settled_sum f a + sumOf (fun e => match e with NEnd _ sn code => if code =? RC_OK then f (details_of (a ++ q) sn) else 0 | _ => 0 end) q.
Proof. intros f a q H. unfold settled_sum. rewrite sum_app. f_equal. apply sum_ext. intros e HI. destruct e; try reflexivity. rewrite details_app; [reflexivity|]. eapply H. exact HI. Qed.
Lemma returned_app : forall f a q, ended_started a -> returned_sum f (a ++ q) = returned_sum f a + sumOf (fun e => match e with NEnd _ sn code => if code =? RC_OK then 0 else f (details_of (a ++ q) sn) | _ => 0 end) q.
Proof. intros f a q H. unfold returned_sum. rewrite sum_app. f_equal. apply sum_ext. intros e HI. destruct e; try reflexivity. rewrite details_app; [reflexivity|]. eapply H. exact HI. Qed.
Lemma seq_snoc : forall n, map Z.of_nat (seq 1 (S n)) = map Z.of_nat (seq 1 n) ++ [Z.of_nat (S n)].
Proof. intros n. rewrite seq_S, map_app. reflexivity. Qed.

Section INV.
Variables self name bmc deployer : Z.
Variable tid : Z -> Z.
Hypothesis TI : forall a b, tid a = tid b -> a = b.
Local Notation effect := (effect self name bmc tid).

Record ninv (s : ncs) : Prop := NInv {
  i_tx : forall sn t, aget Z.eqb sn (n_tx s) = Some t -> t_from t <> self /\ Forall (detail_ok name s) (t_assets t) /\ 1 <= sn <= n_sn s /\ started_as sn (n_out s) = Some (t_from t, t_to t, t_assets t);
  i_nd : NoDup (map fst (n_tx s));
  i_bnd : NoDup (map fst (n_bal s));
  i_sn : 0 <= n_sn s;
  i_locked : forall c o, fst (getb (n_bal s) c o) = pend (n_tx s) c o;
  i_lsum : forall c, lsum (n_bal s) c = txsum (n_tx s) c;
  i_refund : forall c o, 0 <= snd (getb (n_bal s) c o);
  i_fee : forall c, 0 <= getf (n_fee s) c;
  i_name : mem name (n_reg s) = false;
  i_tok : tokinv s;
  i_cover : forall c, c <> name -> lsum (n_bal s) c + rsum (n_bal s) c + getf (n_fee s) c <= gett (n_tok s) (tid c) self;
  i_ratio : 1 <= n_ratio s < FEE_DENOMINATOR;
  i_starts : start_numbers (n_out s) = map Z.of_nat (seq 1 (Z.to_nat (n_sn s)));
  i_started : forall sn, started_as sn (n_out s) <> None <-> 1 <= sn <= n_sn s;
  i_end : forall o sn code, In (NEnd o sn code) (n_out s) -> aget Z.eqb sn (n_tx s) = None /\ exists to ds, started_as sn (n_out s) = Some (o, to, ds);
  i_ends : forall sn, ends sn (n_out s) = if (1 <=? sn) && (sn <=? n_sn s) && negb (ahas Z.eqb sn (n_tx s)) then 1 else 0;
  i_acc_l : forall c, lsum (n_bal s) c = started_sum (value_of c) (n_out s) - settled_sum (value_of c) (n_out s) - returned_sum (value_of c) (n_out s);
  i_acc_r : forall c, rsum (n_bal s) c = returned_sum (value_of c) (n_out s) - reclaimed_sum c (n_out s);
  i_acc_f : forall c, getf (n_fee s) c = settled_sum (fee_of c) (n_out s);
  i_acc_c : n_coins s = started_sum (value_of name) (n_out s) - paid_sum (n_out s) - reclaimed_sum name (n_out s) }.

Lemma ninv_init : ninv ninit.
Proof.
  split; cbn [ninit n_tx n_bal n_sn n_fee n_tok n_sup n_ratio n_out n_coins]; try (constructor; fail); try reflexivity; try (intros; reflexivity); try (intros; cbn; lia); try (intros; cbn in *; tauto); try (intros; discriminate).
  - split; cbn [ninit n_tok n_sup]; [intros; cbn; lia|reflexivity|intros i a H; cbn in H; lia|constructor].
  - unfold FEE_DENOMINATOR. lia.
  - intros sn. cbn [started_as]. split; [congruence|lia].
  - intros sn. cbn [aget]. unfold ahas. cbn. destruct (1 <=? sn) eqn:E1; cbn [andb]; [|reflexivity]. replace (sn <=? 0) with false by lia. reflexivity.
Qed.
Lemma ninv_es : forall s, ninv s -> ended_started (n_out s).
Proof. intros s I o sn code H. destruct (i_end s I o sn code H) as (_ & to & ds & ->). discriminate. Qed.
Lemma detail_ok_mono : forall s s' ds, (forall c, mem c (n_reg s) = true -> mem c (n_reg s') = true) -> Forall (detail_ok name s) ds -> Forall (detail_ok name s') ds.
Proof. intros s s' ds H F. eapply Forall_impl; [|exact F]. intros d ([X|X] & B). - split; [left; exact X|exact B]. - split; [right; apply H, X|exact B]. Qed.
Lemma bal_nonneg : forall s, ninv s -> forall c o, 0 <= fst (getb (n_bal s) c o) /\ 0 <= snd (getb (n_bal s) c o) <= rsum (n_bal s) c /\ fst (getb (n_bal s) c o) <= lsum (n_bal s) c.
Proof.
  intros s I c o. assert (HP : forall k o', 0 <= fst (getb (n_bal s) k o')).
  { intros k o'. rewrite (i_locked s I). apply sum_nonneg. intros [sn t] HI. cbn [snd]. destruct (t_from t =? o'); [|lia]. apply (aget_unique Z.eqb z_key _ _ _ (i_nd s I)) in HI. destruct (i_tx s I _ _ HI) as (_ & F & _). rewrite value_split. pose proof (details_nonneg name s _ F k). lia. }
  assert (HE : forall x, In x (n_bal s) -> snd x = getb (n_bal s) (fst (fst x)) (snd (fst x))). { intros [[k o'] v] HI. cbn [fst snd]. unfold getb. rewrite (aget_unique zz_eqb zz_key _ _ _ (i_bnd s I) HI). reflexivity. }
  assert (H0 : forall x, In x (n_bal s) -> 0 <= fst (snd x) /\ 0 <= snd (snd x)). { intros x HI. rewrite (HE x HI). split; [apply HP|apply (i_refund s I)]. }
  split; [apply HP|]. split; [split; [apply (i_refund s I)|]|].
  - unfold getb. destruct (aget zz_eqb (c, o) (n_bal s)) as [v|] eqn:E.
    + apply (aget_in zz_eqb zz_key) in E. pose proof (sum_ge (fun x : Z * Z * (Z * Z) => if fst (fst x) =? c then snd (snd x) else 0) (n_bal s) _ ltac:(intros y hy; cbv beta; specialize (H0 y hy); destruct (fst (fst y) =? c); lia) E) as X. cbn [fst snd] in X. rewrite Z.eqb_refl in X. exact X.
    + cbn [snd]. apply sum_nonneg. intros y hy. specialize (H0 y hy); destruct (fst (fst y) =? c); lia.
  - unfold getb. destruct (aget zz_eqb (c, o) (n_bal s)) as [v|] eqn:E.
    + apply (aget_in zz_eqb zz_key) in E. pose proof (sum_ge (fun x : Z * Z * (Z * Z) => if fst (fst x) =? c then fst (snd x) else 0) (n_bal s) _ ltac:(intros y hy; cbv beta; specialize (H0 y hy); destruct (fst (fst y) =? c); lia) E) as X. cbn [fst snd] in X. rewrite Z.eqb_refl in X. exact X.
    + cbn [fst]. apply sum_nonneg. intros y hy. specialize (H0 y hy); destruct (fst (fst y) =? c); lia.
Qed.

(** logs that grow by neither starts nor ends *)
Definition plain (q : list nout) : Prop := forall e, In e q -> match e with NStart _ _ _ _ | NEnd _ _ _ => False | _ => True end.
Lemma plain_no_start : forall q, plain q -> no_start q.
Proof. intros q H e HI. specialize (H e HI). destruct e; tauto. Qed.
Lemma plain_sums : forall q, plain q -> (forall f, started_sum f q = 0) /\ start_numbers q = [] /\ (forall sn, ends sn q = 0).
Proof.
  intros q H. split; [|split].
  - intros f. apply sum_zero. intros e HI. specialize (H e HI). destruct e; tauto.
  - induction q as [|e q IH]; [reflexivity|]. unfold start_numbers. cbn [flat_map]. fold (start_numbers q). rewrite IH by (intros x hx; apply H; right; exact hx). specialize (H e (or_introl eq_refl)). destruct e; tauto.
  - intros sn. apply sum_zero. intros e HI. specialize (H e HI). destruct e; tauto.
Qed.
Lemma numbers_app : forall a b, start_numbers (a ++ b) = start_numbers a ++ start_numbers b.
Proof. intros. apply flat_map_app. Qed.
Lemma plain_app : forall a q, ended_started a -> plain q ->
  (forall sn, started_as sn (a ++ q) = started_as sn a) /\ (forall f, started_sum f (a ++ q) = started_sum f a) /\ (forall f, settled_sum f (a ++ q) = settled_sum f a) /\ (forall f, returned_sum f (a ++ q) = returned_sum f a)
  /\ start_numbers (a ++ q) = start_numbers a /\ (forall sn, ends sn (a ++ q) = ends sn a) /\ (forall o sn code, In (NEnd o sn code) (a ++ q) -> In (NEnd o sn code) a).
Proof.
  intros a q H P. destruct (plain_sums q P) as (P1 & P2 & P3). repeat split.
  - intros sn. rewrite started_app, (no_start_started q (plain_no_start q P)). destruct (started_as sn a); reflexivity.
  - intros f. unfold started_sum in *. rewrite sum_app, P1. lia.
  - intros f. rewrite settled_app by exact H. rewrite sum_zero; [lia|]. intros e HI. specialize (P e HI). destruct e; tauto.
  - intros f. rewrite returned_app by exact H. rewrite sum_zero; [lia|]. intros e HI. specialize (P e HI). destruct e; tauto.
  - rewrite numbers_app, P2, app_nil_r. reflexivity.
  - intros sn. unfold ends in *. rewrite sum_app, P3. lia.
  - intros o sn code HI. apply in_app_or in HI as [HI|HI]; [exact HI|]. destruct (P _ HI).
Qed.
Lemma paid_app : forall a b, paid_sum (a ++ b) = paid_sum a + paid_sum b.
Proof. intros. apply sum_app. Qed.
Lemma reclaimed_app : forall c a b, reclaimed_sum c (a ++ b) = reclaimed_sum c a + reclaimed_sum c b.
Proof. intros. apply sum_app. Qed.

Lemma ninv_step : forall s o s', ninv s -> ncaller o <> self -> effect s o s' -> ninv s'.
Proof.
  intros s op s' I HC EF. pose proof (ninv_es s I) as ES. destruct EF as [op s' _ Q|op owner to l ds s' HO Q|op sn t code s' HO Q|from sn a l nv ms s' Q|c n v s' Q].
  - (* quiet *)
    destruct Q as [Q1 QN (q & Q2 & QP) Q3 Q4 Q5 Q6 Q7 Q8 Q9 Q10 Q11]. assert (PL : plain q) by (intros e HI; specialize (QP e HI); destruct e; tauto).
    assert (PP : paid_sum q = 0) by (apply sum_zero; intros e HI; specialize (QP e HI); destruct e; tauto). assert (PR : forall c, reclaimed_sum c q = 0) by (intros c; apply sum_zero; intros e HI; specialize (QP e HI); destruct e; tauto).
    destruct (plain_app _ q ES PL) as (A1 & A2 & A3 & A4 & A5 & A6 & A7). destruct I. split; rewrite ?Q6, ?Q7, ?Q8, ?Q9, ?Q10, ?Q2; intros; rewrite ?A1, ?A2, ?A3, ?A4, ?A5, ?A6, ?paid_app, ?reclaimed_app, ?PP, ?PR, ?Z.add_0_r; auto.
    + destruct (i_tx0 _ _ H) as (B1 & B2 & B3 & B4). repeat split; try tauto. eapply detail_ok_mono; [exact Q1|exact B2].
    + specialize (i_cover0 _ H). specialize (Q3 (tid c)). lia.
    + apply A7 in H. apply (i_end0 _ _ _ H).
  - (* start *)
    assert (OW : owner <> self) by (destruct op; cbn [ncaller] in HC; try contradiction; destruct HO as [X _]; congruence). clear HO. destruct Q.
    assert (FR : aget Z.eqb (n_sn s + 1) (n_tx s) = None). { destruct (aget Z.eqb (n_sn s + 1) (n_tx s)) as [t|] eqn:E; [|reflexivity]. destruct (i_tx s I _ _ E) as (_ & _ & X & _). lia. }
    assert (DO : Forall (detail_ok name s) ds).
    { pose proof (i_ratio s I) as RR. clear - es_l es_ok RR. induction es_l as [|[k v] d l ds H F IH]; [constructor|]. apply Forall_cons_iff in es_ok as [HK es_ok]. specialize (IH es_ok). constructor; [|exact IH]. destruct H as (E1 & E2 & E3 & E4). cbn [fst snd] in *. unfold detail_ok, coin_ok. rewrite E1. split; [apply HK|]. split; [exact E3|]. destruct E4; lia. }
    destruct es_bal as [B1 B2 B3 B4 B5].
    assert (GL : forall c o, getb (n_bal s') c o = (fst (getb (n_bal s) c o) + (if owner =? o then value_of c ds else 0), snd (getb (n_bal s) c o))).
    { intros c o. destruct (Z.eqb_spec owner o) as [<-|N]; [rewrite B1; f_equal; lia|]. rewrite B2 by congruence. rewrite Z.add_0_r. apply surjective_pairing. }
    set (q := [NSend (b_net to) (n_sn s + 1) (BRequest (b_acc to) (Some (map (fun d : detail => Asset (d_coin d) (Some (d_amount d))) ds))); NStart owner to (n_sn s + 1) ds]) in *.
    assert (QS : forall k, started_as k q = if n_sn s + 1 =? k then Some (owner, to, ds) else None) by reflexivity.
    assert (QE : forall o k code, ~ In (NEnd o k code) q) by (intros o k code [X|[X|[]]]; discriminate).
    assert (LE : forall f, settled_sum f (n_out s ++ q) = settled_sum f (n_out s)) by (intros f; rewrite settled_app by exact ES; cbn [sumOf q fold_right]; lia).
    assert (LR : forall f, returned_sum f (n_out s ++ q) = returned_sum f (n_out s)) by (intros f; rewrite returned_app by exact ES; cbn [sumOf q fold_right]; lia).
    assert (LS : forall f, started_sum f (n_out s ++ q) = started_sum f (n_out s) + f ds) by (intros f; unfold started_sum; rewrite sum_app; cbn [sumOf q fold_right]; lia).
    assert (LP : paid_sum (n_out s ++ q) = paid_sum (n_out s)) by (rewrite paid_app; cbn [paid_sum sumOf q fold_right]; lia).
    assert (LC : forall c, reclaimed_sum c (n_out s ++ q) = reclaimed_sum c (n_out s)) by (intros c; rewrite reclaimed_app; cbn [reclaimed_sum sumOf q fold_right]; lia).
    assert (LN : forall k, ends k (n_out s ++ q) = ends k (n_out s)) by (intros k; unfold ends; rewrite sum_app; cbn [sumOf q fold_right]; lia).
    assert (QN : start_numbers q = [n_sn s + 1]) by reflexivity. clearbody q. split; rewrite ?es_sn, ?es_out, ?es_fee, ?es_ratio.
    + intros sn t E. rewrite es_tx in E. destruct (Z.eq_dec sn (n_sn s + 1)) as [->|N].
      * rewrite (aput_same Z.eqb z_key) in E. injection E as <-. cbn [t_from t_to t_assets]. split; [exact OW|]. split; [eapply detail_ok_mono; [|exact DO]; rewrite es_reg; tauto|]. split; [pose proof (i_sn s I); lia|].
        rewrite started_app, QS, Z.eqb_refl. destruct (started_as (n_sn s + 1) (n_out s)) eqn:EX; [|reflexivity]. assert (X : 1 <= n_sn s + 1 <= n_sn s) by (apply (i_started s I); congruence). lia.
      * rewrite (aput_other Z.eqb z_key) in E by exact N. destruct (i_tx s I _ _ E) as (C1 & C2 & C3 & C4). split; [exact C1|]. split; [eapply detail_ok_mono; [|exact C2]; rewrite es_reg; tauto|]. split; [lia|]. rewrite started_app, C4. reflexivity.
    + rewrite es_tx. apply (aput_nodup Z.eqb z_key), (i_nd s I).
    + apply B5, (i_bnd s I).
    + pose proof (i_sn s I). lia.
    + intros c o. rewrite GL, es_tx, pend_put by exact FR. cbn [fst t_from t_assets]. rewrite (i_locked s I). reflexivity.
    + intros c. rewrite B3, es_tx, txsum_put by exact FR. rewrite (i_lsum s I). reflexivity.
    + intros c o. rewrite GL. cbn [snd]. apply (i_refund s I).
    + apply (i_fee s I).
    + rewrite es_reg. apply (i_name s I).
    + apply es_tinv, (i_tok s I).
    + intros c N. rewrite B3, B4, es_tok by exact N. pose proof (i_cover s I c N). lia.
    + apply (i_ratio s I).
    + rewrite numbers_app, (i_starts s I). rewrite QN. pose proof (i_sn s I). replace (Z.to_nat (n_sn s + 1)) with (S (Z.to_nat (n_sn s))) by lia. rewrite seq_snoc. f_equal. f_equal. lia.
    + intros k. rewrite started_app, QS. pose proof (i_started s I k) as X. pose proof (i_sn s I). destruct (started_as k (n_out s)) eqn:EK.
      * split; [intros _; assert (1 <= k <= n_sn s) by (apply X; discriminate); lia|discriminate].
      * destruct (Z.eqb_spec (n_sn s + 1) k) as [<-|N]; [split; [lia|discriminate]|]. split; [congruence|]. intros Y. assert (Z1 : 1 <= k <= n_sn s) by lia. apply X in Z1. congruence.
    + intros o k code HI. apply in_app_or in HI as [HI|HI]; [|destruct (QE _ _ _ HI)]. destruct (i_end s I _ _ _ HI) as (X1 & to1 & ds1 & X2). assert (1 <= k <= n_sn s) by (apply (i_started s I); congruence). split; [rewrite es_tx, (aput_other Z.eqb z_key) by lia; exact X1|]. exists to1, ds1. rewrite started_app, X2. reflexivity.
    + intros k. rewrite LN, (i_ends s I), es_tx. unfold ahas. destruct (Z.eq_dec k (n_sn s + 1)) as [->|N]; [rewrite (aput_same Z.eqb z_key); replace (n_sn s + 1 <=? n_sn s) with false by lia; rewrite !andb_false_r; reflexivity|]. rewrite (aput_other Z.eqb z_key) by exact N. replace (k <=? n_sn s + 1) with (k <=? n_sn s) by lia. reflexivity.
    + intros c. rewrite B3, LS, LE, LR, (i_acc_l s I). lia.
    + intros c. rewrite B4, LR, LC, (i_acc_r s I). lia.
    + intros c. rewrite LE. apply (i_acc_f s I).
    + rewrite es_coins, LS, LP, LC, (i_acc_c s I). lia.
  - (* end *)
    clear HO. destruct Q. destruct (i_tx s I _ _ ee_get) as (T1 & T2 & T3 & T4). destruct ee_bal as [B1 B2 B3 B4 B5].
    assert (GL : forall c o, getb (n_bal s') c o = (fst (getb (n_bal s) c o) - (if t_from t =? o then value_of c (t_assets t) else 0), snd (getb (n_bal s) c o) + (if t_from t =? o then if code =? RC_OK then 0 else value_of c (t_assets t) else 0))).
    { intros c o. destruct (Z.eqb_spec (t_from t) o) as [<-|N]; [rewrite B1; f_equal; lia|]. rewrite B2 by congruence. rewrite Z.add_0_r, Z.sub_0_r. apply surjective_pairing. }
    assert (VN : forall c, 0 <= net_of c (t_assets t) /\ 0 <= fee_of c (t_assets t)) by (apply (details_nonneg name s), T2).
    set (q := [NEnd (t_from t) sn code]) in *.
    assert (DD : details_of (n_out s ++ q) sn = t_assets t) by (rewrite details_app by (rewrite T4; discriminate); unfold details_of; rewrite T4; reflexivity).
    assert (QS : forall k, started_as k (n_out s ++ q) = started_as k (n_out s)) by (intros k; rewrite started_app; destruct (started_as k (n_out s)); reflexivity).
    assert (LE : forall f, settled_sum f (n_out s ++ q) = settled_sum f (n_out s) + (if code =? RC_OK then f (t_assets t) else 0)) by (intros f; rewrite settled_app by exact ES; subst q; rewrite sum_cons, DD; cbn [sumOf fold_right]; lia).
    assert (LR : forall f, returned_sum f (n_out s ++ q) = returned_sum f (n_out s) + (if code =? RC_OK then 0 else f (t_assets t))) by (intros f; rewrite returned_app by exact ES; subst q; rewrite sum_cons, DD; cbn [sumOf fold_right]; lia).
    assert (LS : forall f, started_sum f (n_out s ++ q) = started_sum f (n_out s)) by (intros f; unfold started_sum; rewrite sum_app; cbn [sumOf q fold_right]; lia).
    assert (LP : paid_sum (n_out s ++ q) = paid_sum (n_out s)) by (rewrite paid_app; cbn [paid_sum sumOf q fold_right]; lia).
    assert (LC : forall c, reclaimed_sum c (n_out s ++ q) = reclaimed_sum c (n_out s)) by (intros c; rewrite reclaimed_app; cbn [reclaimed_sum sumOf q fold_right]; lia).
    assert (LN : forall k, ends k (n_out s ++ q) = ends k (n_out s) + (if sn =? k then 1 else 0)) by (intros k; unfold ends; rewrite sum_app; cbn [sumOf q fold_right]; lia).
    assert (LM : start_numbers (n_out s ++ q) = start_numbers (n_out s)) by (rewrite numbers_app; cbn [start_numbers q flat_map app]; apply app_nil_r).
    assert (QE : forall o k c, In (NEnd o k c) (n_out s ++ q) -> In (NEnd o k c) (n_out s) \/ (o = t_from t /\ k = sn)) by (intros o k c HI; apply in_app_or in HI as [HI|[X|[]]]; [left; exact HI|right; split; congruence]).
    clearbody q. split; rewrite ?ee_sn, ?ee_out, ?ee_ratio, ?ee_coins.
    + intros k t' E. rewrite ee_tx in E. destruct (Z.eq_dec k sn) as [->|N]; [rewrite (adel_same Z.eqb z_key) in E by apply (i_nd s I); discriminate|]. rewrite (adel_other Z.eqb z_key) in E by (try exact N; apply (i_nd s I)). destruct (i_tx s I _ _ E) as (C1 & C2 & C3 & C4). rewrite QS. repeat split; try tauto. eapply detail_ok_mono; [|exact C2]. rewrite ee_reg. tauto.
    + rewrite ee_tx. apply (adel_nodup Z.eqb z_key), (i_nd s I).
    + apply B5, (i_bnd s I).
    + apply (i_sn s I).
    + intros c o. rewrite GL, ee_tx, (pend_del _ _ _ _ _ ee_get). cbn [fst]. rewrite (i_locked s I). reflexivity.
    + intros c. rewrite B3, ee_tx, (txsum_del _ _ _ _ ee_get), (i_lsum s I). lia.
    + intros c o. rewrite GL. cbn [snd]. pose proof (i_refund s I c o). pose proof (VN c). rewrite value_split. destruct (t_from t =? o), (code =? RC_OK); lia.
    + intros c. rewrite ee_fee. pose proof (i_fee s I c). pose proof (VN c). destruct (code =? RC_OK); lia.
    + rewrite ee_reg. apply (i_name s I).
    + apply ee_tinv, (i_tok s I).
    + intros c N. rewrite B3, B4, ee_fee, ee_tok by exact N. pose proof (i_cover s I c N). rewrite value_split. destruct (code =? RC_OK); lia.
    + apply (i_ratio s I).
    + rewrite LM. apply (i_starts s I).
    + intros k. rewrite QS. apply (i_started s I).
    + intros o k c HI. rewrite QS. apply QE in HI as [HI|[-> ->]].
      * destruct (i_end s I _ _ _ HI) as (X1 & X2). split; [|exact X2]. rewrite ee_tx, (adel_other Z.eqb z_key); [exact X1|apply (i_nd s I)|congruence].
      * split; [rewrite ee_tx; apply (adel_same Z.eqb z_key), (i_nd s I)|]. exists (t_to t), (t_assets t). exact T4.
    + intros k. rewrite LN, (i_ends s I), ee_tx. unfold ahas. destruct (Z.eqb_spec sn k) as [<-|N].
      * rewrite (adel_same Z.eqb z_key) by apply (i_nd s I). rewrite ee_get. cbn [negb]. replace (1 <=? sn) with true by lia. replace (sn <=? n_sn s) with true by lia. reflexivity.
      * rewrite (adel_other Z.eqb z_key) by (try congruence; apply (i_nd s I)). lia.
    + intros c. rewrite B3, LS, LE, LR, (i_acc_l s I). destruct (code =? RC_OK); lia.
    + intros c. rewrite B4, LR, LC, (i_acc_r s I). lia.
    + intros c. rewrite ee_fee, LE, (i_acc_f s I). reflexivity.
    + rewrite LS, LP, LC. apply (i_acc_c s I).
  - (* request *)
    destruct Q. set (q := match nv with Some v => [NPay a v] | None => [] end ++ [NSend from sn (BResponse RC_OK)]) in *.
    assert (PL : plain q) by (intros e HI; subst q; destruct nv; cbn [app In] in HI; intuition (subst; exact Logic.I)).
    assert (PP : paid_sum q = match nv with Some v => v | None => 0 end) by (subst q; destruct nv; cbn [paid_sum sumOf app fold_right]; lia).
    assert (PR : forall c, reclaimed_sum c q = 0) by (intros c; subst q; destruct nv; reflexivity). clearbody q.
    destruct (plain_app _ q ES PL) as (A1 & A2 & A3 & A4 & A5 & A6 & A7). destruct I. split; rewrite ?er_bal, ?er_fee, ?er_tx, ?er_sn, ?er_out, ?er_ratio, ?er_reg; intros; rewrite ?A1, ?A2, ?A3, ?A4, ?A5, ?A6, ?paid_app, ?reclaimed_app, ?PP, ?PR, ?Z.add_0_r; auto.
    + destruct (i_tx0 _ _ H) as (B1 & B2 & B3 & B4). repeat split; try tauto. eapply detail_ok_mono; [|exact B2]. rewrite er_reg. tauto.
    + specialize (i_cover0 _ H). destruct (Z.eq_dec self a) as [<-|N]; [|rewrite er_other by exact N; exact i_cover0]. rewrite er_own. assert (0 <= vsum c ms); [|lia].
      apply sum_nonneg. intros p HI. apply sort_pos in er_sort as [F _]. rewrite Forall_forall in F. specialize (F _ HI). destruct (fst p =? c); lia.
    + apply A7 in H. apply (i_end0 _ _ _ H).
    + rewrite er_coins, i_acc_c0. lia.
  - (* reclaim *)
    destruct Q. destruct ec_bal as [B1 B2 B3 B4 B5]. set (q := [NReclaim c n v]) in *.
    assert (PL : plain q) by (intros e HI; subst q; destruct HI as [<-|[]]; exact Logic.I).
    assert (PP : paid_sum q = 0) by reflexivity. assert (PR : forall k, reclaimed_sum k q = if n =? k then v else 0) by (intros k; subst q; cbn [reclaimed_sum sumOf fold_right]; lia). clearbody q.
    assert (GL : forall k o, getb (n_bal s') k o = (fst (getb (n_bal s) k o), snd (getb (n_bal s) k o) + (if c =? o then if n =? k then - v else 0 else 0))).
    { intros k o. destruct (Z.eqb_spec c o) as [<-|N]; [rewrite B1; f_equal; lia|]. rewrite B2 by congruence. rewrite Z.add_0_r. apply surjective_pairing. }
    destruct (plain_app _ q ES PL) as (A1 & A2 & A3 & A4 & A5 & A6 & A7). destruct I. split; rewrite ?ec_fee, ?ec_tx, ?ec_sn, ?ec_out, ?ec_ratio, ?ec_reg; intros; rewrite ?A1, ?A2, ?A3, ?A4, ?A5, ?A6, ?paid_app, ?reclaimed_app, ?PP, ?PR, ?GL, ?B3, ?B4, ?Z.add_0_r; cbn [fst snd]; auto.
    + destruct (i_tx0 _ _ H) as (C1 & C2 & C3 & C4). repeat split; try tauto. eapply detail_ok_mono; [|exact C2]. rewrite ec_reg. tauto.
    + specialize (i_refund0 c0 o). destruct (Z.eqb_spec c o) as [<-|N]; [|lia]. destruct (Z.eqb_spec n c0) as [<-|N]; lia.
    + rewrite ec_tok by assumption. specialize (i_cover0 _ H). destruct (n =? c0); lia.
    + apply A7 in H. apply (i_end0 _ _ _ H).
    + rewrite i_acc_r0. destruct (n =? c0); lia.
    + rewrite ec_coins, i_acc_c0. destruct (n =? name); lia.
Qed.
End INV.

(** * What always works *)
Section WORKS.
Variables self name bmc deployer : Z.
Variable tid : Z -> Z.
Hypothesis TI : forall a b, tid a = tid b -> a = b.
Lemma handleResponse_works : forall s x sn code t, ninv self name tid s -> aget Z.eqb sn (n_tx s) = Some t -> x_token x = true -> exists s', handleResponse self name tid s x sn code = Some s'.
Proof using TI.
  intros s x sn code t I ET EX. destruct (i_tx _ _ _ s I _ _ ET) as (T1 & T2 & T3 & T4).
  assert (FC : Forall (coin_ok name s) (t_assets t)) by (eapply Forall_impl; [|exact T2]; intros d (X & _); exact X).
  unfold handleResponse. rewrite ET. destruct (code =? RC_OK).
    - destruct (settle_works name (t_assets t) s (t_from t) FC) as [s1 E1]. rewrite E1. cbn [nbind]. apply settle_spec in E1 as (b' & f' & -> & _).
      destruct (filter (fun d => negb (d_coin d =? name)) (t_assets t)) as [|d0 ds0] eqn:EF; [cbn [nbind]; eexists; reflexivity|]. rewrite <- EF. rewrite EX.
      destruct (burnAll_works (map (fun d => (tid (d_coin d), d_amount d)) (filter (fun d => negb (d_coin d =? name)) (t_assets t))) (set_nfee (set_bal s b') f') self) as [s2 E2].
      + apply Forall_forall. intros p HI. apply in_map_iff in HI as (d & <- & HI). apply filter_In in HI as [HI _]. rewrite Forall_forall in T2. destruct (T2 d HI) as (_ & X & _). cbn [snd]. lia.
      + cbn [set_nfee set_bal n_tok]. intros i. destruct (vsum_hit i (map (fun d => (tid (d_coin d), d_amount d)) (filter (fun d => negb (d_coin d =? name)) (t_assets t)))) as [X|(p & HI & X)]; [rewrite X; apply (ti_pos _ (i_tok _ _ _ s I))|].
        apply in_map_iff in HI as (d & <- & HI). apply filter_In in HI as [HI HN]. cbn [fst] in X. subst i. rewrite (burn_list name tid TI) by lia.
        assert (NN : d_coin d <> name) by lia. pose proof (i_cover _ _ _ s I (d_coin d) NN) as CV. pose proof (bal_nonneg _ _ _ s I (d_coin d) (t_from t)) as BN. pose proof (i_fee _ _ _ s I (d_coin d)). rewrite (i_lsum _ _ _ s I) in CV.
        assert (value_of (d_coin d) (t_assets t) <= txsum (n_tx s) (d_coin d)).
        { apply (aget_in Z.eqb z_key) in ET. apply (sum_ge (fun x : Z * ntx => value_of (d_coin d) (t_assets (snd x))) (n_tx s) (sn, t)); [|exact ET]. intros [k t'] HI'. cbn [snd]. apply (aget_unique Z.eqb z_key _ _ _ (i_nd _ _ _ s I)) in HI'. destruct (i_tx _ _ _ s I _ _ HI') as (_ & T2' & _). rewrite value_split. pose proof (details_nonneg name s _ T2' (d_coin d)). lia. }
        pose proof (details_nonneg name s _ T2 (d_coin d)). rewrite value_split in *. lia.
      + cbn [set_nfee set_bal n_tok n_sup]. intros i. apply (ti_has _ (i_tok _ _ _ s I)).
      + rewrite E2. cbn [nbind]. eexists. reflexivity.
    - cbn [nbind]. destruct (giveBack_works self name (t_assets t) s (t_from t) FC) as [s1 E1]. rewrite E1. cbn [nbind]. eexists. reflexivity.
Qed.
Lemma reclaim_works : forall s x c n v, ninv self name tid s -> 0 < v <= snd (getBalance s n c) -> x_token x = true -> x_receiver x = true -> (n = name -> v <= n_coins s) ->
  exists s', nexec self name bmc deployer tid s x (Reclaim c n v) = Some s'.
Proof using.
  intros s x c n v I HV EX1 EX2 HN. cbn [M_Ncs.nexec]. cbv zeta. unfold need. replace ((0 <? v) && (v <=? snd (getBalance s n c))) with true by lia. destruct (Z.eqb_spec n name) as [E|N].
    - cbn [setBalance set_bal n_coins]. specialize (HN E). rewrite EX2. replace (v <=? n_coins s) with true by lia. cbn [andb]. eexists. reflexivity.
    - rewrite EX1, EX2. cbn [andb]. unfold move. change (tokOf (setBalance s n c (fst (getBalance s n c), snd (getBalance s n c) - v)) (tid n) self) with (gett (n_tok s) (tid n) self).
      pose proof (i_cover _ _ _ s I n N) as CV. pose proof (bal_nonneg _ _ _ s I n c) as BN. pose proof (i_fee _ _ _ s I n). change (getBalance s n c) with (getb (n_bal s) n c) in HV. replace ((v <? 0) || (gett (n_tok s) (tid n) self <? v)) with false by lia. cbn [nbind]. eexists. reflexivity.
Qed.
End WORKS.
