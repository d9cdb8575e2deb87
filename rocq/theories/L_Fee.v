(** Lemmas about the fee aggregation. *)
From Coq Require Import String Ascii ZArith List Bool Lia.
From Coq Require Import ZifyBool.
From Verif Require Import Base L_Base M_JMap L_JMap L_JSum M_JBmc M_Ncs S_Ncs L_Ncs L_NcsNet2 M_Tbsh S_Tbsh L_Tbsh M_Fee S_Fee.
Import ListNotations.
Open Scope Z_scope.

Lemma fbal_get : forall s u n, f_balance s u n = gett (f_bal s) n u.
Proof. reflexivity. Qed.
Lemma fref_get : forall s u, f_refund s u = getf (f_ref s) u.
Proof. reflexivity. Qed.
Lemma famt_get : forall s id u, f_amount s id u = gett (f_amt s) id u.
Proof. reflexivity. Qed.
Lemma flock_get : forall s n, f_locked s n = getf (f_lock s) n.
Proof. reflexivity. Qed.
Lemma fheld_get : forall s t, f_held s t = gett (f_have s) (k_addr t) (k_id t).
Proof. reflexivity. Qed.

(** * The log *)
Ltac logsum := intros; unfold dep, depAll, allDeps, gifts, funded, withdrawn, allWithdrawn, given, refunds, claims, came, begun, over; first [apply sum_app | apply flat_map_app].
Lemma dep_app : forall a b id u, dep (a ++ b) id u = dep a id u + dep b id u. Proof. logsum. Qed.
Lemma depAll_app : forall a b id, depAll (a ++ b) id = depAll a id + depAll b id. Proof. logsum. Qed.
Lemma allDeps_app : forall a b, allDeps (a ++ b) = allDeps a + allDeps b. Proof. logsum. Qed.
Lemma gifts_app : forall a b, gifts (a ++ b) = gifts a + gifts b. Proof. logsum. Qed.
Lemma funded_app : forall a b, funded (a ++ b) = funded a + funded b. Proof. logsum. Qed.
Lemma withdrawn_app : forall a b u, withdrawn (a ++ b) u = withdrawn a u + withdrawn b u. Proof. logsum. Qed.
Lemma allWithdrawn_app : forall a b, allWithdrawn (a ++ b) = allWithdrawn a + allWithdrawn b. Proof. logsum. Qed.
Lemma given_app : forall a b u n, given (a ++ b) u n = given a u n + given b u n. Proof. logsum. Qed.
Lemma refunds_app : forall a b u, refunds (a ++ b) u = refunds a u + refunds b u. Proof. logsum. Qed.
Lemma claims_app : forall a b u n, claims (a ++ b) u n = claims a u n + claims b u n. Proof. logsum. Qed.
Lemma came_app : forall a b u n, came (a ++ b) u n = came a u n + came b u n. Proof. logsum. Qed.
Lemma begun_app : forall a b, begun (a ++ b) = begun a ++ begun b. Proof. logsum. Qed.
Lemma over_app : forall a b, over (a ++ b) = over a ++ over b. Proof. logsum. Qed.
Ltac logs := rewrite ?dep_app, ?depAll_app, ?allDeps_app, ?gifts_app, ?funded_app, ?withdrawn_app, ?allWithdrawn_app, ?given_app, ?refunds_app, ?claims_app, ?came_app, ?begun_app, ?over_app in *.

(** * Settling *)
Record part := Part { p_who : Z; p_share : Z; p_rem : Z }.
Definition parts_out (id n : Z) (ps : list part) : list fout := map (fun p => FShare id (p_who p) n (p_share p) (p_rem p)) ps.
Definition same_rest (s s' : fa) : Prop :=
  f_toks s' = f_toks s /\ f_names s' = f_names s /\ f_syn s' = f_syn s /\ f_count s' = f_count s /\ f_dur s' = f_dur s /\ f_amt s' = f_amt s /\ f_list s' = f_list s /\ f_have s' = f_have s.
Lemma dist_spec : forall unit price inIcx total amount id n l s acc s' acc', dist_loop unit price inIcx total amount id n l s acc = Some (s', acc') ->
  exists ps, map p_who ps = l /\ f_out s' = f_out s ++ parts_out id n ps
  /\ Forall (fun p => exists r, share_of unit price inIcx total amount (f_amount s id (p_who p)) = Some (p_share p, r) /\ p_rem p = Z.max 0 r) ps
  /\ acc' = acc + sumOf p_share ps /\ (forall u k, gett (f_bal s') k u = gett (f_bal s) k u + given (parts_out id n ps) u k)
  /\ (forall k, tsum (f_bal s') k = tsum (f_bal s) k + if k =? n then sumOf p_share ps else 0)
  /\ (forall u, getf (f_ref s') u = getf (f_ref s) u + refunds (parts_out id n ps) u)
  /\ same_rest s s' /\ f_lock s' = f_lock s /\ f_icx s' = f_icx s.
Proof.
  intros unit price inIcx total amount id n l. induction l as [|a l IH]; intros s acc s' acc' H; cbn [dist_loop] in H.
  - injection H as <- <-. exists []. cbn [map parts_out sumOf fold_right]. rewrite app_nil_r. repeat split; intros; cbn [given refunds parts_out map sumOf fold_right]; try (unfold given, refunds; cbn [sumOf fold_right map parts_out]; lia); try lia; try constructor. destruct (k =? n); lia.
  - destruct (share_of unit price inIcx total amount (f_amount s id a)) as [[t r]|] eqn:SH; [|discriminate]. cbn [fbind fst snd] in H.
    set (s1 := setBalF s (aput zz_eqb (n, a) (f_balance s a n + t) (f_bal s))) in H. set (s2 := if 0 <? r then setRef s1 (aput Z.eqb a (f_refund s1 a + r) (f_ref s1)) else s1) in H. set (s3 := emitF s2 (FShare id a n t (if 0 <? r then r else 0))) in H.
    assert (A3 : f_amt s3 = f_amt s) by (unfold s3, s2; destruct (0 <? r); reflexivity). assert (B3 : f_bal s3 = f_bal s1) by (unfold s3, s2; destruct (0 <? r); reflexivity).
    assert (RM : (if 0 <? r then r else 0) = Z.max 0 r) by (destruct (Z.ltb_spec 0 r); lia).
    destruct (IH _ _ _ _ H) as (ps & P1 & P2 & P3 & P4 & P5 & P6 & P7 & P8 & P9 & P10). exists (Part a t (Z.max 0 r) :: ps).
    cbn [map p_who]. split; [rewrite P1; reflexivity|]. split; [rewrite P2; unfold s3; rewrite RM; cbn [emitF f_out parts_out map p_who p_share p_rem]; rewrite <- app_assoc; f_equal; unfold s2; destruct (0 <? r); reflexivity|].
    split; [constructor; [exists r; split; [exact SH|reflexivity]|]|].
    { eapply Forall_impl; [|exact P3]. cbv beta. intros p (q & Q1 & Q2). exists q. split; [|exact Q2]. rewrite famt_get in *. rewrite A3 in Q1. exact Q1. }
    split; [rewrite sum_cons; cbn [p_share]; lia|]. split; [|split; [|split; [|split; [|split]]]].
    + intros u k. rewrite P5, B3. cbn [s1 setBalF f_bal]. rewrite gett_put. unfold parts_out. cbn [map p_who p_share p_rem]. unfold given at 2. rewrite sum_cons. cbv beta iota. fold (parts_out id n ps). fold (given (parts_out id n ps) u k). unfold zz_eqb. cbn [fst snd]. rewrite fbal_get. rewrite (andb_comm (a =? u)). destruct (Z.eqb_spec n k) as [<-|]; cbn [andb]; [|lia]. destruct (Z.eqb_spec a u) as [<-|]; lia.
    + intros k. rewrite P6, B3. cbn [s1 setBalF f_bal]. rewrite tsum_put, sum_cons. cbn [p_share]. rewrite fbal_get. rewrite (Z.eqb_sym n k). destruct (k =? n); lia.
    + intros u. rewrite P7. unfold parts_out. cbn [map p_who p_share p_rem]. unfold refunds at 2. rewrite sum_cons. cbv beta iota. fold (parts_out id n ps). fold (refunds (parts_out id n ps) u).
      assert (X : getf (f_ref s3) u = getf (f_ref s) u + if a =? u then Z.max 0 r else 0). { unfold s3, s2. rewrite <- RM. destruct (0 <? r); cbn [emitF setRef f_ref]; change (f_ref s1) with (f_ref s); [rewrite getf_put, fref_get; change (f_ref s1) with (f_ref s); destruct (Z.eqb_spec a u) as [<-|]; lia|destruct (a =? u); lia]. }
      lia.
    + destruct P8 as (X1 & X2 & X3 & X4 & X5 & X6 & X7 & X8). unfold same_rest. rewrite X1, X2, X3, X4, X5, X6, X7, X8. unfold s3, s2. destruct (0 <? r); repeat split.
    + rewrite P9. unfold s3, s2. destruct (0 <? r); reflexivity.
    + rewrite P10. unfold s3, s2. destruct (0 <? r); reflexivity.
Qed.
Record ended (s s' : fa) (x : fext) (n : Z) (t : ftok) (y : syn) (unit p price inIcx : Z) (ps : list part) : Prop := {
  e_held : y_amount y <= f_held s t; e_fund : y_total y = 0 \/ (y_total y <= f_icx s /\ x_fund x = true);
  e_unit : unit_of t x = Some unit; e_p : x_price x = Some p; e_price : price = Z.quot (p * 90) 100; e_in : unit <> 0 /\ inIcx = Z.quot (y_amount y * price) unit;
  e_who : map p_who ps = f_depositors s (y_id y);
  e_out : f_out s' = f_out s ++ ((if y_total y =? 0 then [] else [FFund (y_total y)]) ++ parts_out (y_id y) n ps ++ [FEnded (y_id y) n (y_amount y) (x_now x)]);
  e_share : Forall (fun q => exists r, share_of unit price inIcx (y_total y) (y_amount y) (f_amount s (y_id y) (p_who q)) = Some (p_share q, r) /\ p_rem q = Z.max 0 r) ps;
  e_bal : forall u k, gett (f_bal s') k u = gett (f_bal s) k u + given (parts_out (y_id y) n ps) u k;
  e_sum : forall k, tsum (f_bal s') k = tsum (f_bal s) k + (if k =? n then sumOf p_share ps else 0);
  e_lock : forall k, getf (f_lock s') k = getf (f_lock s) k + (if k =? n then sumOf p_share ps else 0);
  e_ref : forall u, getf (f_ref s') u = getf (f_ref s) u + refunds (parts_out (y_id y) n ps) u;
  e_rest : same_rest s s'; e_icx : f_icx s' = f_icx s - y_total y }.
Lemma end_spec : forall s x n t y s', endAuction s x n t y = Some s' -> exists unit p price inIcx ps, ended s s' x n t y unit p price inIcx ps.
Proof.
  intros s x n t y s' H. unfold endAuction in H. destruct (Z.ltb_spec (f_held s t) (y_amount y)) as [|HH]; [discriminate|].
  destruct (if y_total y =? 0 then Some s else to_fund s x (y_total y)) as [s1|] eqn:TF; [|discriminate]. cbn [fbind] in H.
  assert (F1 : f_out s1 = f_out s ++ (if y_total y =? 0 then [] else [FFund (y_total y)]) /\ f_icx s1 = f_icx s - y_total y /\ same_rest s s1 /\ f_bal s1 = f_bal s /\ f_ref s1 = f_ref s /\ f_lock s1 = f_lock s /\ (y_total y = 0 \/ (y_total y <= f_icx s /\ x_fund x = true))).
  { destruct (Z.eqb_spec (y_total y) 0) as [Z0|Z0].
    - injection TF as <-. rewrite app_nil_r. repeat split; lia.
    - unfold to_fund, fneed in TF. destruct ((y_total y <=? f_icx s) && x_fund x) eqn:C; [|discriminate]. injection TF as <-. apply andb_prop in C as [C1 C2]. repeat split. right. split; [lia|exact C2]. }
  destruct F1 as (F1 & F2 & F3 & F4 & F5 & F6 & F7).
  unfold distribute in H. destruct (unit_of t x) as [unit|] eqn:U; [|discriminate]. cbn [fbind] in H. destruct (x_price x) as [p|] eqn:P; [|discriminate]. cbn [fbind] in H.
  change (jdiv (p * (100 - DISCOUNT)) 100) with (Some (Z.quot (p * 90) 100)) in H. cbn [fbind] in H. set (price := Z.quot (p * 90) 100) in *.
  unfold jdiv in H. destruct (Z.eqb_spec unit 0) as [|UZ]; [discriminate|]. cbn [fbind] in H. set (inIcx := Z.quot (y_amount y * price) unit) in *.
  destruct (dist_loop _ _ _ _ _ _ _ _ _ _) as [[s2 acc]|] eqn:D; [|discriminate]. cbn [fbind fst snd] in H. injection H as <-.
  destruct (dist_spec _ _ _ _ _ _ _ _ _ _ _ _ D) as (ps & P1 & P2 & P3 & P4 & P5 & P6 & P7 & P8 & P9 & P10). exists unit, p, price, inIcx, ps.
  destruct F3 as (X1 & X2 & X3 & X4 & X5 & X6 & X7 & X8). destruct P8 as (Y1 & Y2 & Y3 & Y4 & Y5 & Y6 & Y7 & Y8).
  constructor; try assumption; try reflexivity.
  - split; [exact UZ|reflexivity].
  - rewrite P1. unfold f_depositors. rewrite X7. reflexivity.
  - cbn [emitF setLock f_out]. rewrite P2, F1, <- !app_assoc. reflexivity.
  - eapply Forall_impl; [|exact P3]. cbv beta. intros q (r & Q1 & Q2). exists r. split; [|exact Q2]. rewrite famt_get in *. rewrite X6 in Q1. exact Q1.
  - intros u k. cbn [emitF setLock f_bal]. rewrite P5, F4. reflexivity.
  - intros k. cbn [emitF setLock f_bal]. rewrite P6, F4. reflexivity.
  - intros k. cbn [emitF setLock f_lock]. rewrite getf_put, flock_get. rewrite P9, F6. rewrite (Z.eqb_sym k n). destruct (Z.eqb_spec n k) as [<-|]; lia.
  - intros u. cbn [emitF setLock f_ref]. rewrite P7, F5. reflexivity.
  - unfold same_rest. cbn [emitF setLock f_toks f_names f_syn f_count f_dur f_amt f_list f_have]. rewrite Y1, Y2, Y3, Y4, Y5, Y6, Y7, Y8. repeat split; assumption.
  - cbn [emitF setLock f_icx]. rewrite P10. exact F2.
Qed.
