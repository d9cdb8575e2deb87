(** The books of the fee aggregation under every call. *)
From Coq Require Import String Ascii ZArith List Bool Lia.
From Coq Require Import ZifyBool.
From Verif Require Import Base L_Base M_JMap L_JMap L_JSum M_JBmc M_Ncs S_Ncs L_Ncs L_NcsNet2 M_Tbsh S_Tbsh L_Tbsh M_Fee S_Fee L_Fee.
Import ListNotations.
Open Scope Z_scope.

(** [lin s o s' o' q]: from [s] to [s'] with the events [q], where [o] and [o'] are the ICX of open syndications *)
Record lin (s : fa) (o : Z) (s' : fa) (o' : Z) (q : list fout) : Prop := {
  l_out : f_out s' = f_out s ++ q;
  l_bal : forall u n, gett (f_bal s') n u = gett (f_bal s) n u + given q u n - claims q u n;
  l_ref : forall u, getf (f_ref s') u = getf (f_ref s) u + refunds q u - withdrawn q u;
  l_lock : forall n, getf (f_lock s') n - tsum (f_bal s') n = getf (f_lock s) n - tsum (f_bal s) n;
  l_amt : forall id u, gett (f_amt s') id u = gett (f_amt s) id u + dep q id u;
  l_icx : f_icx s' - o' = f_icx s - o - allWithdrawn q;
  l_flow : allDeps q + gifts q = funded q + o' - o }.
Lemma lin_refl : forall s o, lin s o s o [].
Proof. intros s o. constructor; intros; try (unfold given, claims, refunds, withdrawn, dep, allWithdrawn, allDeps, gifts, funded; cbn [sumOf fold_right]; lia). rewrite app_nil_r. reflexivity. Qed.
Lemma lin_trans : forall s o s1 o1 q1 s2 o2 q2, lin s o s1 o1 q1 -> lin s1 o1 s2 o2 q2 -> lin s o s2 o2 (q1 ++ q2).
Proof.
  intros s o s1 o1 q1 s2 o2 q2 [A1 A2 A3 A4 A5 A6 A7] [B1 B2 B3 B4 B5 B6 B7]. constructor; intros; logs; try lia.
  - rewrite B1, A1, app_assoc. reflexivity.
  - rewrite B2, A2. lia.
  - rewrite B3, A3. lia.
  - rewrite B4, A4. lia.
  - rewrite B5, A5. lia.
Qed.
Lemma openIcx_w : forall s, openIcx s = wsum (fun x => y_total (snd x)) (f_syn s).
Proof. reflexivity. Qed.
Ltac lz := unfold given, claims, refunds, withdrawn, dep, allWithdrawn, allDeps, gifts, funded, depAll; cbn [sumOf fold_right andb]; try lia.
(** a step that only says something in the log that is no amount *)
Definition quiet (e : fout) : Prop := match e with FStart _ _ _ _ _ _ | FInfo _ _ _ _ | FEnded _ _ _ _ | FCame _ _ _ => True | _ => False end.
Lemma lin_quiet : forall s o s' e, quiet e -> f_out s' = f_out s ++ [e] -> f_bal s' = f_bal s -> f_ref s' = f_ref s -> f_lock s' = f_lock s -> f_amt s' = f_amt s -> f_icx s' = f_icx s -> lin s o s' o [e].
Proof.
  intros s o s' e Q H1 H2 H3 H4 H5 H6. constructor; intros; rewrite ?H2, ?H3, ?H4, ?H5, ?H6; try (destruct e; destruct Q; lz; fail). exact H1.
Qed.
(** a deposit into [y] *)
Lemma lin_deposit : forall s y c v s1 y1 o, y_deposit s y c v = (s1, y1) ->
  lin s o (setIcx s1 (f_icx s1 + v)) (o + v) [FDep (y_id y) c v] /\ y1 = Syn (y_id y) (y_amount y) (y_total y + v) (y_start y) (y_end y)
  /\ (forall k, f_depositors s1 k = if k =? y_id y then (if f_amount s (y_id y) c =? 0 then f_depositors s (y_id y) ++ [c] else f_depositors s (y_id y)) else f_depositors s k)
  /\ f_toks s1 = f_toks s /\ f_names s1 = f_names s /\ f_syn s1 = f_syn s /\ f_count s1 = f_count s /\ f_dur s1 = f_dur s /\ f_have s1 = f_have s /\ f_lock s1 = f_lock s /\ f_icx s1 = f_icx s /\ f_bal s1 = f_bal s /\ f_ref s1 = f_ref s /\ f_out s1 = f_out s ++ [FDep (y_id y) c v].
Proof.
  intros s y c v s1 y1 o H. unfold y_deposit in H. injection H as <- <-. split; [|repeat split].
  - constructor; intros; cbn [emitF setAmt setIcx f_out f_bal f_ref f_lock f_amt f_icx]; try (lz; fail); [reflexivity|]. rewrite gett_put, famt_get. unfold dep. cbn [sumOf fold_right]. unfold zz_eqb. cbn [fst snd]. destruct (Z.eqb_spec (y_id y) id) as [<-|]; cbn [andb]; [|lia]. destruct (Z.eqb_spec c u) as [<-|]; lia.
  - intros k. unfold f_depositors at 1. cbn [emitF setAmt f_list]. destruct (Z.eqb_spec k (y_id y)) as [->|N]; [rewrite (aput_same Z.eqb z_key); reflexivity|rewrite (aput_other Z.eqb z_key) by exact N; reflexivity].
Qed.
Lemma parts_sums : forall id n ps, (forall u k, claims (parts_out id n ps) u k = 0) /\ (forall u, withdrawn (parts_out id n ps) u = 0) /\ (forall k u, dep (parts_out id n ps) k u = 0) /\ (forall k, depAll (parts_out id n ps) k = 0) /\ allWithdrawn (parts_out id n ps) = 0 /\ allDeps (parts_out id n ps) = 0 /\ gifts (parts_out id n ps) = 0 /\ funded (parts_out id n ps) = 0 /\ begun (parts_out id n ps) = [] /\ over (parts_out id n ps) = [].
Proof.
  intros id n ps. unfold claims, withdrawn, dep, depAll, allWithdrawn, allDeps, gifts, funded, parts_out. repeat split; intros; try (apply sum_zero; intros e he; apply in_map_iff in he as (p & <- & _); reflexivity).
  - induction ps as [|p ps IH]; [reflexivity|exact IH].
  - induction ps as [|p ps IH]; [reflexivity|exact IH].
Qed.
Definition end_out (n : Z) (y : syn) (ps : list part) (now : Z) : list fout :=
  (if y_total y =? 0 then [] else [FFund (y_total y)]) ++ parts_out (y_id y) n ps ++ [FEnded (y_id y) n (y_amount y) now].
Lemma fund_sums : forall v, let q := if v =? 0 then [] else [FFund v] in (forall u k, given q u k = 0) /\ (forall u, refunds q u = 0) /\ (forall u k, claims q u k = 0) /\ (forall u, withdrawn q u = 0) /\ (forall k u, dep q k u = 0) /\ (forall k, depAll q k = 0) /\ allWithdrawn q = 0 /\ allDeps q = 0 /\ gifts q = 0 /\ funded q = v /\ begun q = [] /\ over q = [].
Proof. intros v. cbv zeta. destruct (Z.eqb_spec v 0) as [->|]; repeat split; intros; lz. Qed.
Lemma lin_end : forall s s' x n t y unit p price inIcx ps o, ended s s' x n t y unit p price inIcx ps -> lin s o s' (o - y_total y) (end_out n y ps (x_now x)).
Proof.
  intros s s' x n t y unit p price inIcx ps o E. destruct (fund_sums (y_total y)) as (A1 & A2 & A3 & A4 & A5 & A6 & A7 & A8 & A9 & A10 & A11 & A12). destruct (parts_sums (y_id y) n ps) as (B1 & B2 & B3 & B4 & B5 & B6 & B7 & B8 & B9 & B10).
  pose proof (e_rest _ _ _ _ _ _ _ _ _ _ _ E) as (R1 & R2 & R3 & R4 & R5 & R6 & R7 & R8).
  constructor; unfold end_out; intros; logs; rewrite ?A1, ?A2, ?A3, ?A4, ?A5, ?A6, ?A7, ?A8, ?A9, ?A10, ?B1, ?B2, ?B3, ?B4, ?B5, ?B6, ?B7, ?B8.
  - apply (e_out _ _ _ _ _ _ _ _ _ _ _ E).
  - rewrite (e_bal _ _ _ _ _ _ _ _ _ _ _ E). lz.
  - rewrite (e_ref _ _ _ _ _ _ _ _ _ _ _ E). lz.
  - rewrite (e_lock _ _ _ _ _ _ _ _ _ _ _ E), (e_sum _ _ _ _ _ _ _ _ _ _ _ E). lia.
  - rewrite R6. lz.
  - rewrite (e_icx _ _ _ _ _ _ _ _ _ _ _ E). lz.
  - lz.
Qed.

(** What a call does to the syndications: nothing; a new one, which may end the one before; a deposit; the end of one. *)
Record news (s s' : fa) (q : list fout) : Prop := { w_toks : f_toks s' = f_toks s; w_have : f_have s' = f_have s }.
(** the shares given *)
Definition shares (h : list fout) : list fout := flat_map (fun e => match e with FShare _ _ _ _ _ => [e] | _ => [] end) h.
Inductive kind (s s' : fa) (x : fext) (q : list fout) : fop -> Prop :=
| KNone : forall o, f_syn s' = f_syn s -> f_count s' = f_count s -> f_list s' = f_list s -> (forall id u, dep q id u = 0) -> (forall id, depAll q id = 0) -> begun q = [] -> over q = [] ->
    (forall u n, given q u n = 0) -> shares q = [] -> (match o with FDeposit _ _ _ => False | _ => True end) -> kind s s' x q o
| KStart : forall c n v t y, aget Z.eqb n (f_toks s) = Some t -> aget Z.eqb n (f_syn s) = None -> y = Syn (f_count s + 1) (f_held s t - f_locked s n) v (x_now x) (wrap64 (x_now x + f_dur s)) -> 0 < y_amount y ->
    f_syn s' = aput Z.eqb n y (f_syn s) -> f_count s' = f_count s + 1 -> f_toks s' = f_toks s -> f_have s' = f_have s -> f_lock s' = f_lock s ->
    q = [FDep (y_id y) c v; FStart (y_id y) n (y_amount y) c v (y_end y)] ->
    (forall k, f_depositors s' k = if k =? y_id y then (if f_amount s (y_id y) c =? 0 then f_depositors s (y_id y) ++ [c] else f_depositors s (y_id y)) else f_depositors s k) -> kind s s' x q (FDeposit c n v)
| KRenew : forall c n v t y y0 s1 unit p price inIcx ps, aget Z.eqb n (f_toks s) = Some t -> aget Z.eqb n (f_syn s) = Some y0 -> y_end y0 <= x_now x ->
    y = Syn (f_count s + 1) (f_held s t - f_locked s n - y_amount y0) v (x_now x) (wrap64 (x_now x + f_dur s)) -> 0 < y_amount y ->
    ended s1 (Fa (f_toks s') (f_names s') (f_syn s') (f_lock s') (f_bal s') (f_ref s') (f_count s') (f_dur s') (f_amt s') (f_list s') (f_icx s') (f_have s') (f_out s ++ [FDep (y_id y) c v] ++ end_out n y0 ps (x_now x))) x n t y0 unit p price inIcx ps ->
    f_out s1 = f_out s ++ [FDep (y_id y) c v] -> f_lock s1 = f_lock s -> f_have s1 = f_have s -> f_toks s1 = f_toks s -> f_amt s1 = aput zz_eqb (y_id y, c) (f_amount s (y_id y) c + v) (f_amt s) ->
    f_syn s' = aput Z.eqb n y (f_syn s) -> f_count s' = f_count s + 1 -> f_toks s' = f_toks s -> f_have s' = f_have s ->
    q = [FDep (y_id y) c v] ++ end_out n y0 ps (x_now x) ++ [FStart (y_id y) n (y_amount y) c v (y_end y)] ->
    f_list s' = f_list s1 ->
    (forall k, f_depositors s' k = if k =? y_id y then (if f_amount s (y_id y) c =? 0 then f_depositors s (y_id y) ++ [c] else f_depositors s (y_id y)) else f_depositors s k) -> kind s s' x q (FDeposit c n v)
| KMore : forall c n v t y0 y, aget Z.eqb n (f_toks s) = Some t -> aget Z.eqb n (f_syn s) = Some y0 -> x_now x < y_end y0 -> y = Syn (y_id y0) (y_amount y0) (y_total y0 + v) (y_start y0) (y_end y0) ->
    f_syn s' = aput Z.eqb n y (f_syn s) -> f_count s' = f_count s -> f_toks s' = f_toks s -> f_have s' = f_have s -> f_lock s' = f_lock s ->
    q = [FDep (y_id y) c v; FInfo (y_id y) n c v] ->
    (forall k, f_depositors s' k = if k =? y_id y then (if f_amount s (y_id y) c =? 0 then f_depositors s (y_id y) ++ [c] else f_depositors s (y_id y)) else f_depositors s k) -> kind s s' x q (FDeposit c n v)
| KEnd : forall c n t y0 s1 unit p price inIcx ps q1, aget Z.eqb n (f_toks s) = Some t -> aget Z.eqb n (f_syn s) = Some y0 -> y_end y0 <= x_now x ->
    ended s1 s' x n t y0 unit p price inIcx ps -> f_out s1 = f_out s ++ q1 -> f_amt s1 = f_amt s -> f_list s1 = f_list s -> f_syn s1 = adel Z.eqb n (f_syn s) -> f_toks s1 = f_toks s ->
    f_syn s' = adel Z.eqb n (f_syn s) -> f_count s' = f_count s -> f_list s' = f_list s -> q = q1 ++ end_out n y0 ps (x_now x) -> (q1 = [] \/ q1 = [FClaimed c n (f_balance s c n)]) -> kind s s' x q (FClaim c n).

Lemma claim_first : forall s x c n t, aget Z.eqb n (f_toks s) = Some t -> 0 < f_balance s c n -> let amount := f_balance s c n in
  let s1 := setLock s (aput Z.eqb n (f_locked s n - amount) (f_lock s)) in
  let s2 := setBalF s1 (aput zz_eqb (n, c) 0 (f_bal s1)) in
  let s3 := if (amount <=? f_held s2 t) && x_tok x
            then emitF (setHave s2 (aput zz_eqb (k_addr t, k_id t) (f_held s2 t - amount) (f_have s2))) (FClaimed c n amount)
            else setBalF (setLock s2 (aput Z.eqb n (f_locked s2 n + amount) (f_lock s2))) (aput zz_eqb (n, c) amount (f_bal s2)) in
  let ok := (amount <=? f_held s t) && x_tok x in let q := if ok then [FClaimed c n amount] else [] in
  (forall o, lin s o s3 o q) /\ f_syn s3 = f_syn s /\ f_count s3 = f_count s /\ f_dur s3 = f_dur s /\ f_list s3 = f_list s /\ f_amt s3 = f_amt s /\ f_toks s3 = f_toks s /\ f_names s3 = f_names s /\ f_icx s3 = f_icx s
  /\ (forall k, getf (f_lock s3) k = getf (f_lock s) k - if (k =? n) && ok then amount else 0)
  /\ (forall a i, gett (f_have s3) a i = gett (f_have s) a i - if (a =? k_addr t) && (i =? k_id t) && ok then amount else 0).
Proof.
  intros s x c n t T A amount s1 s2 s3 ok q. assert (OK : (amount <=? f_held s2 t) && x_tok x = ok) by reflexivity. subst s3. rewrite OK. subst q. destruct ok eqn:OKE.
  - split; [|repeat split].
    + intros o. constructor; cbn [emitF setHave s2 setBalF s1 setLock f_out f_bal f_ref f_lock f_amt f_icx]; intros; try (lz; fail); [reflexivity| |].
      * rewrite gett_put. unfold given, claims. cbn [sumOf fold_right]. unfold zz_eqb. cbn [fst snd]. rewrite (andb_comm (c =? u)). destruct (Z.eqb_spec n n0) as [<-|]; cbn [andb]; [|lia]. destruct (Z.eqb_spec c u) as [<-|]; [unfold amount; rewrite fbal_get|]; lia.
      * rewrite getf_put, tsum_put, flock_get. unfold amount. rewrite fbal_get. destruct (Z.eqb_spec n n0) as [<-|]; lia.
    + intros k. cbn [emitF setHave s2 setBalF s1 setLock f_lock]. rewrite getf_put, flock_get, andb_true_r, (Z.eqb_sym k n). destruct (Z.eqb_spec n k) as [<-|]; lia.
    + intros a i. cbn [emitF setHave f_have]. rewrite gett_put, fheld_get. change (f_have s2) with (f_have s). rewrite andb_true_r. unfold zz_eqb. cbn [fst snd]. rewrite (Z.eqb_sym a), (Z.eqb_sym i). destruct (Z.eqb_spec (k_addr t) a) as [<-|]; cbn [andb]; [|lia]. destruct (Z.eqb_spec (k_id t) i) as [<-|]; lia.
  - split; [|repeat split].
    + intros o. constructor; cbn [s2 s1 setBalF setLock f_out f_bal f_ref f_lock f_amt f_icx]; intros; try (lz; fail); [rewrite app_nil_r; reflexivity| |].
      * cbn [s2 setBalF s1 setLock f_bal]. rewrite !gett_put. unfold given, claims. cbn [sumOf fold_right]. unfold zz_eqb. cbn [fst snd]. destruct (Z.eqb_spec n n0) as [<-|]; cbn [andb]; [|lia]. destruct (Z.eqb_spec c u) as [<-|]; [unfold amount; rewrite fbal_get|]; lia.
      * cbn [s2 setBalF s1 setLock f_bal f_lock]. rewrite !getf_put, !tsum_put, gett_put. unfold f_locked. cbn [s2 setBalF s1 setLock f_lock]. rewrite (aput_same Z.eqb z_key). rewrite (keqb_refl zz_eqb zz_key). fold (f_locked s n). rewrite flock_get. unfold amount. rewrite fbal_get. destruct (Z.eqb_spec n n0) as [<-|]; lia.
    + intros k. cbn [setBalF setLock f_lock s2 s1]. rewrite !getf_put. unfold f_locked. cbn [s2 setBalF s1 setLock f_lock]. rewrite (aput_same Z.eqb z_key). fold (f_locked s n). rewrite flock_get, andb_false_r. destruct (Z.eqb_spec n k) as [<-|]; lia.
    + intros a i. cbn [setBalF setLock f_have s2 s1]. rewrite andb_false_r. lia.
Qed.

Section FEE.
Variable owner : Z.
Variable isContract : Z -> bool.
Notation fexec := (fexec owner isContract).

(** no two entries for a name *)
Definition syn_nd (s : fa) : Prop := NoDup (map fst (f_syn s)).
Lemma openIcx_put : forall s n y s', f_syn s' = aput Z.eqb n y (f_syn s) -> openIcx s' = openIcx s + y_total y - match aget Z.eqb n (f_syn s) with Some y0 => y_total y0 | None => 0 end.
Proof. intros s n y s' H. rewrite !openIcx_w, H, (wsum_put Z.eqb z_key). reflexivity. Qed.
Lemma openIcx_del : forall s n s', f_syn s' = adel Z.eqb n (f_syn s) -> openIcx s' = openIcx s - match aget Z.eqb n (f_syn s) with Some y0 => y_total y0 | None => 0 end.
Proof. intros s n s' H. rewrite !openIcx_w, H, (wsum_del Z.eqb z_key). reflexivity. Qed.

Lemma step_spec : forall s x o s', fexec s x o = Some s' -> exists q, lin s (openIcx s) s' (openIcx s') q /\ kind s s' x q o.
Proof.
  intros s x o s' H. destruct o as [c n a|c n a i d|c d|c n v|c|c n|c v|a i v]; cbn [M_Fee.fexec] in H; unfold f_register, fneed in H.
  - destruct (_ && _) in H; [|discriminate]. injection H as <-. exists []. split; [|apply KNone; try reflexivity; try exact I; intros; lz]. change (openIcx (setToks _ _ _)) with (openIcx s). constructor; cbn [setToks f_out f_bal f_ref f_lock f_amt f_icx]; intros; try (lz; fail). rewrite app_nil_r. reflexivity.
  - destruct (0 <? i); [|discriminate]. destruct (_ && _) in H; [|discriminate]. injection H as <-. exists []. split; [|apply KNone; try reflexivity; try exact I; intros; lz]. change (openIcx (setToks _ _ _)) with (openIcx s). constructor; cbn [setToks f_out f_bal f_ref f_lock f_amt f_icx]; intros; try (lz; fail). rewrite app_nil_r. reflexivity.
  - destruct (_ && _) in H; [|discriminate]. injection H as <-. exists []. split; [|apply KNone; try reflexivity; try exact I; intros; lz]. change (openIcx (setDur _ _)) with (openIcx s). constructor; cbn [setDur f_out f_bal f_ref f_lock f_amt f_icx]; intros; try (lz; fail). rewrite app_nil_r. reflexivity.
  - destruct (0 <=? v) eqn:V; [|discriminate]. unfold f_deposit in H. set (si := setIcx s (f_icx s + v)) in H. change (f_toks si) with (f_toks s) in H. destruct (aget Z.eqb n (f_toks s)) as [t|] eqn:T; [|discriminate]. change (f_held si t) with (f_held s t) in H. change (f_locked si n) with (f_locked s n) in H. change (f_syn si) with (f_syn s) in H.
    destruct (f_held s t =? 0); [discriminate|]. destruct (aget Z.eqb n (f_syn s)) as [y0|] eqn:Y.
    + destruct (Z.leb_spec (y_end y0) (x_now x)) as [EX|EX].
      * destruct (Z.leb_spec (f_held s t - f_locked s n - y_amount y0) 0) as [|AV]; [discriminate|]. destruct (y_new si (f_held s t - f_locked s n - y_amount y0) c v (x_now x)) as [s1 y] eqn:NW. unfold y_new in NW. change (f_count si) with (f_count s) in NW.
        destruct (lin_deposit _ _ _ _ _ _ (openIcx s) NW) as (LD & EY & DL & G1 & G2 & G3 & G4 & G5 & G6 & G7 & G8 & G9 & G10 & G11). cbn [y_id y_amount y_total y_start y_end] in *. 
        set (s2 := setSyn s1 (aput Z.eqb n y (f_syn s1))) in H. destruct (endAuction s2 x n t y0) as [s3|] eqn:EA; [|discriminate]. cbn [fbind] in H. injection H as <-.
        destruct (end_spec _ _ _ _ _ _ EA) as (unit & p & price & inIcx & ps & ED). pose proof (e_rest _ _ _ _ _ _ _ _ _ _ _ ED) as (R1 & R2 & R3 & R4 & R5 & R6 & R7 & R8).
        set (sf := emitF s3 _). exists ([FDep (f_count s + 1) c v] ++ end_out n y0 ps (x_now x) ++ [FStart (y_id y) n (f_held s t - f_locked s n - y_amount y0) c v (y_end y)]).
        assert (SY : f_syn sf = aput Z.eqb n y (f_syn s)). { cbn [sf emitF f_syn]. rewrite R3. cbn [s2 setSyn f_syn]. rewrite G3. reflexivity. }
        split.
        { rewrite (openIcx_put s n y sf SY), Y, EY. cbn [y_total]. replace (openIcx s + (0 + v) - y_total y0) with ((openIcx s + v) - y_total y0) by lia.
          eapply lin_trans; [|eapply lin_trans; [apply (lin_end s2 s3 x n t y0 unit p price inIcx ps _ ED)|]].
          - destruct LD as [D1 D2 D3 D4 D5 D6 D7]. constructor; [exact G11|exact D2|exact D3|exact D4|exact D5| |exact D7]. change (f_icx s1 - (openIcx s + v) = f_icx s - openIcx s - allWithdrawn [FDep (f_count s + 1) c v]). rewrite G8. cbn [setCount si setIcx f_icx]. lz.
          - apply lin_quiet; try reflexivity; try exact I. cbn [sf emitF f_out]. rewrite EY. reflexivity. }
        { assert (Ey : y = Syn (f_count s + 1) (f_held s t - f_locked s n - y_amount y0) v (x_now x) (wrap64 (x_now x + f_dur s))) by exact EY.
          assert (YI : y_id y = f_count s + 1) by (rewrite Ey; reflexivity). assert (YA : y_amount y = f_held s t - f_locked s n - y_amount y0) by (rewrite Ey; reflexivity).
          rewrite <- YI, <- YA. eapply (KRenew s sf x _ c n v t y y0 s2 unit p price inIcx ps T Y EX Ey).
          - rewrite YA. exact AV.
          - destruct ED as [E1 E2 E3 E4 E5 E6 E7 E8 E9 E10 E11 E12 E13 E14 E15]. constructor; try assumption. cbn [f_out s2 setSyn]. rewrite G11, YI, <- app_assoc. reflexivity.
          - rewrite YI. exact G11.
          - exact G7.
          - exact G6.
          - exact G1.
          - rewrite YI. injection NW as <- _. reflexivity.
          - exact SY.
          - cbn [sf emitF f_count]. rewrite R4. exact G4.
          - cbn [sf emitF f_toks]. rewrite R1. exact G1.
          - cbn [sf emitF f_have]. rewrite R8. exact G6.
          - reflexivity.
          - cbn [sf emitF f_list]. exact R7.
          - intros k. rewrite YI. transitivity (f_depositors s1 k); [|apply DL]. unfold f_depositors. cbn [sf emitF f_list]. rewrite R7. reflexivity. }
      * destruct (y_deposit si y0 c v) as [s1 y] eqn:NW. destruct (lin_deposit _ _ _ _ _ _ (openIcx s) NW) as (LD & EY & DL & G1 & G2 & G3 & G4 & G5 & G6 & G7 & G8 & G9 & G10 & G11). injection H as <-. set (sf := emitF _ _). exists ([FDep (y_id y0) c v] ++ [FInfo (y_id y) n c v]).
        assert (SY : f_syn sf = aput Z.eqb n y (f_syn s)). { cbn [sf emitF setSyn f_syn]. rewrite G3. reflexivity. }
        split.
        { rewrite (openIcx_put s n y sf SY), Y, EY. cbn [y_total]. replace (openIcx s + (y_total y0 + v) - y_total y0) with (openIcx s + v) by lia.
          eapply lin_trans; [|apply (lin_quiet (setSyn s1 (aput Z.eqb n y (f_syn s1)))); try reflexivity; try exact I; cbn [sf emitF setSyn f_out]; rewrite EY; reflexivity].
          destruct LD as [D1 D2 D3 D4 D5 D6 D7]. constructor; [exact G11|exact D2|exact D3|exact D4|exact D5| |exact D7]. change (f_icx s1 - (openIcx s + v) = f_icx s - openIcx s - allWithdrawn [FDep (y_id y0) c v]). rewrite G8. cbn [setCount si setIcx f_icx]. lz. }
        { assert (YI : y_id y = y_id y0) by (rewrite EY; reflexivity). rewrite <- YI. eapply (KMore s sf x _ c n v t y0 y T Y EX EY SY).
          - exact G4.
          - exact G1.
          - exact G6.
          - exact G7.
          - reflexivity.
          - intros k. rewrite YI. apply DL. }
    + destruct (Z.leb_spec (f_held s t - f_locked s n) 0) as [|AV]; [discriminate|]. destruct (y_new si (f_held s t - f_locked s n) c v (x_now x)) as [s1 y] eqn:NW. unfold y_new in NW. change (f_count si) with (f_count s) in NW.
      destruct (lin_deposit _ _ _ _ _ _ (openIcx s) NW) as (LD & EY & DL & G1 & G2 & G3 & G4 & G5 & G6 & G7 & G8 & G9 & G10 & G11). cbn [y_id y_amount y_total y_start y_end] in *. injection H as <-. set (sf := emitF _ _). exists ([FDep (f_count s + 1) c v] ++ [FStart (y_id y) n (f_held s t - f_locked s n) c v (y_end y)]).
      assert (SY : f_syn sf = aput Z.eqb n y (f_syn s)). { cbn [sf emitF setSyn f_syn]. rewrite G3. reflexivity. }
      split.
      { rewrite (openIcx_put s n y sf SY), Y, EY. cbn [y_total]. replace (openIcx s + (0 + v) - 0) with (openIcx s + v) by lia.
        eapply lin_trans; [|apply (lin_quiet (setSyn s1 (aput Z.eqb n y (f_syn s1)))); try reflexivity; try exact I].
        2: { cbn [sf emitF setSyn f_out]. rewrite EY. reflexivity. }
        destruct LD as [D1 D2 D3 D4 D5 D6 D7]. constructor; [exact G11|exact D2|exact D3|exact D4|exact D5| |exact D7]. change (f_icx s1 - (openIcx s + v) = f_icx s - openIcx s - allWithdrawn [FDep (f_count s + 1) c v]). rewrite G8. cbn [setCount si setIcx f_icx]. lz. }
      { assert (Ey : y = Syn (f_count s + 1) (f_held s t - f_locked s n) v (x_now x) (wrap64 (x_now x + f_dur s))) by exact EY.
        assert (YI : y_id y = f_count s + 1) by (rewrite Ey; reflexivity). assert (YA : y_amount y = f_held s t - f_locked s n) by (rewrite Ey; reflexivity). rewrite <- YI, <- YA.
        eapply (KStart s sf x _ c n v t y T Y Ey).
        - rewrite YA. exact AV.
        - exact SY.
        - exact G4.
        - exact G1.
        - exact G6.
        - exact G7.
        - reflexivity.
        - intros k. rewrite YI. apply DL. }
  - unfold f_withdrawal in H. destruct (Z.leb_spec (f_refund s c) 0) as [|P]; [discriminate|]. set (s1 := setRef s (aput Z.eqb c 0 (f_ref s))) in H. destruct ((f_refund s c <=? f_icx s1) && x_pay x) eqn:C.
    + injection H as <-. exists [FPaid c (f_refund s c)]. split; [|apply KNone; try reflexivity; try exact I; intros; lz]. change (openIcx (emitF _ _)) with (openIcx s). constructor; cbn [emitF setIcx s1 setRef f_out f_bal f_ref f_lock f_amt f_icx]; intros; try (lz; fail); [reflexivity|]. rewrite getf_put. unfold refunds, withdrawn. cbn [sumOf fold_right]. rewrite fref_get. destruct (Z.eqb_spec c u) as [<-|]; lia.
    + injection H as <-. exists []. split; [|apply KNone; try reflexivity; try exact I; intros; lz]. change (openIcx (setRef _ _)) with (openIcx s). constructor; cbn [setRef s1 f_out f_bal f_ref f_lock f_amt f_icx]; intros; try (lz; fail); [rewrite app_nil_r; reflexivity|]. rewrite !getf_put. unfold f_refund at 1. cbn [s1 setRef f_ref]. rewrite (aput_same Z.eqb z_key), fref_get. unfold refunds, withdrawn. cbn [sumOf fold_right]. destruct (Z.eqb_spec c u) as [<-|]; lia.
  - unfold f_claim in H. destruct (aget Z.eqb n (f_toks s)) as [t|] eqn:T; [|discriminate]. destruct (Z.leb_spec (f_balance s c n) 0) as [|P]; [discriminate|].
    pose proof (claim_first s x c n t T P) as CF. cbv zeta in CF. match type of H with match aget _ _ (f_syn ?z) with _ => _ end = _ => set (s3 := z) in * end. destruct CF as (L & G1 & G2 & G3 & G4 & G5 & G6 & G7 & G8 & G9 & G10). rewrite G1 in H. set (q1 := if (f_balance s c n <=? f_held s t) && x_tok x then [FClaimed c n (f_balance s c n)] else []) in *.
    clearbody s3. assert (Q1 : q1 = [] \/ q1 = [FClaimed c n (f_balance s c n)]) by (unfold q1; destruct (_ && _); auto).
    assert (KN : (forall id u, dep q1 id u = 0) /\ (forall id, depAll q1 id = 0) /\ begun q1 = [] /\ over q1 = [] /\ forall u m, given q1 u m = 0) by (destruct Q1 as [-> | ->]; repeat split; intros; lz). destruct KN as (K1 & K2 & K3 & K4 & K5).
    assert (SAME : f_syn s3 = f_syn s -> Some s3 = Some s' -> exists q, lin s (openIcx s) s' (openIcx s') q /\ kind s s' x q (FClaim c n)).
    { intros _ E. assert (OS : openIcx s3 = openIcx s) by (unfold openIcx; rewrite G1; reflexivity). assert (ES : s3 = s') by congruence. rewrite <- ES. exists q1. split; [rewrite OS; apply L|]. apply KNone; try assumption; [destruct Q1 as [-> | ->]; reflexivity|exact I]. }
    destruct (aget Z.eqb n (f_syn s)) as [y0|] eqn:Y; [|apply (SAME G1 H)]. destruct (Z.leb_spec (y_end y0) (x_now x)) as [EX|EX]; [|apply (SAME G1 H)].
    destruct (end_spec _ _ _ _ _ _ H) as (unit & p & price & inIcx & ps & ED). pose proof (e_rest _ _ _ _ _ _ _ _ _ _ _ ED) as (R1 & R2 & R3 & R4 & R5 & R6 & R7 & R8). cbn [setSyn f_toks f_names f_syn f_count f_dur f_amt f_list f_have] in *.
    exists (q1 ++ end_out n y0 ps (x_now x)). assert (SY : f_syn s' = adel Z.eqb n (f_syn s)) by exact R3. split.
    + rewrite (openIcx_del s n s' SY), Y. eapply lin_trans; [apply (L (openIcx s))|]. pose proof (lin_end _ _ _ _ _ _ _ _ _ _ _ (openIcx s) ED) as [D1 D2 D3 D4 D5 D6 D7]. constructor; assumption.
    + apply (KEnd s s' x _ c n t y0 _ unit p price inIcx ps q1 T Y EX ED).
      * apply (l_out _ _ _ _ _ (L 0)).
      * exact G5.
      * exact G4.
      * reflexivity.
      * exact G6.
      * exact R3.
      * rewrite R4. exact G2.
      * rewrite R7. exact G4.
      * reflexivity.
      * exact Q1.
  - destruct (0 <? v); [|discriminate]. unfold to_fund, fneed in H. destruct (_ && _) in H; [|discriminate]. injection H as <-. exists [FGiven c v; FFund v]. split; [|apply KNone; try reflexivity; try exact I; intros; lz]. change (openIcx (emitF _ _)) with (openIcx s). constructor; cbn [emitF setIcx f_out f_bal f_ref f_lock f_amt f_icx]; intros; try (lz; fail). rewrite <- app_assoc. reflexivity.
  - destruct (0 <=? v); [|discriminate]. injection H as <-. exists [FCame a i v]. split; [|apply KNone; try reflexivity; try exact I; intros; lz]. change (openIcx (emitF _ _)) with (openIcx s). apply lin_quiet; try reflexivity; exact I.
Qed.
End FEE.
