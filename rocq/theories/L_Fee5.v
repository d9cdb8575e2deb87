(** The fee aggregation after fair calls: who is owed what, and what covers it. *)
From Coq Require Import String Ascii ZArith List Bool Lia.
From Coq Require Import ZifyBool.
From Verif Require Import Base L_Base M_JMap L_JMap L_JSum M_JBmc M_Ncs S_Ncs L_Ncs L_NcsNet2 M_Tbsh S_Tbsh L_Tbsh M_Fee S_Fee L_Fee L_Fee2 L_Fee3 L_Fee4.
Import ListNotations.
Open Scope Z_scope.

(** * Keys of the balances *)
Lemma dist_nd : forall unit price inIcx total amount id n l s acc r, dist_loop unit price inIcx total amount id n l s acc = Some r -> NoDup (map fst (f_bal s)) -> NoDup (map fst (f_bal (fst r))).
Proof.
  intros unit price inIcx total amount id n l. induction l as [|a l IH]; intros s acc r H N; cbn [dist_loop] in H; [injection H as <-; exact N|].
  destruct (share_of _ _ _ _ _ _) as [[t q]|]; [|discriminate]. cbn [fbind fst snd] in H. apply (IH _ _ _ H). destruct (0 <? q); cbn [emitF setRef setBalF f_bal]; apply (aput_nodup zz_eqb zz_key), N.
Qed.
Lemma end_nd : forall s x n t y s', endAuction s x n t y = Some s' -> NoDup (map fst (f_bal s)) -> NoDup (map fst (f_bal s')).
Proof.
  intros s x n t y s' H N. unfold endAuction in H. destruct (_ <? _); [discriminate|]. destruct (if y_total y =? 0 then Some s else to_fund s x (y_total y)) as [s1|] eqn:TF; [|discriminate]. cbn [fbind] in H.
  assert (B : f_bal s1 = f_bal s). { destruct (y_total y =? 0); [injection TF as <-; reflexivity|]. unfold to_fund, fneed in TF. destruct (_ && _); [|discriminate]. injection TF as <-. reflexivity. }
  destruct (distribute s1 x n t y) as [s2|] eqn:D; [|discriminate]. cbn [fbind] in H. injection H as <-. cbn [emitF f_bal]. unfold distribute in D.
  destruct (unit_of t x) as [u|]; [|discriminate]. cbn [fbind] in D. destruct (x_price x) as [p|]; [|discriminate]. cbn [fbind] in D. destruct (jdiv (p * (100 - DISCOUNT)) 100) as [pr|]; [|discriminate]. cbn [fbind] in D. destruct (jdiv (y_amount y * pr) u) as [i|]; [|discriminate]. cbn [fbind] in D.
  destruct (dist_loop _ _ _ _ _ _ _ _ _ _) as [r|] eqn:L; [|discriminate]. cbn [fbind] in D. injection D as <-. cbn [setLock f_bal]. apply (dist_nd _ _ _ _ _ _ _ _ _ _ _ L). rewrite B. exact N.
Qed.
Lemma exec_nd : forall ow ic s x o s', fexec ow ic s x o = Some s' -> NoDup (map fst (f_bal s)) -> NoDup (map fst (f_bal s')).
Proof.
  intros ow ic s x o s' H N. destruct o as [c n a|c n a i d|c d|c n v|c|c n|c v|a i v]; cbn [fexec] in H.
  - unfold f_register, fneed in H. destruct (_ && _); [|discriminate]. injection H as <-. exact N.
  - unfold f_register, fneed in H. destruct (_ <? _); [|discriminate]. destruct (_ && _); [|discriminate]. injection H as <-. exact N.
  - unfold fneed in H. destruct (_ && _); [|discriminate]. injection H as <-. exact N.
  - unfold fneed in H. destruct (0 <=? v); [|discriminate]. unfold f_deposit in H. destruct (aget _ n _) as [t|]; [|discriminate]. destruct (_ =? 0); [discriminate|]. destruct (aget _ n (f_syn _)) as [y0|].
    + destruct (y_end y0 <=? x_now x).
      * destruct (_ <=? 0); [discriminate|]. unfold y_new, y_deposit in H. cbn beta iota zeta in H. destruct (endAuction _ _ _ _ _) as [s3|] eqn:E; [|discriminate]. cbn [fbind] in H. injection H as <-. cbn [emitF f_bal]. apply (end_nd _ _ _ _ _ _ E). exact N.
      * unfold y_deposit in H. cbn beta iota zeta in H. injection H as <-. exact N.
    + destruct (_ <=? 0); [discriminate|]. unfold y_new, y_deposit in H. cbn beta iota zeta in H. injection H as <-. exact N.
  - unfold f_withdrawal in H. destruct (_ <=? 0); [discriminate|]. destruct (_ && _); injection H as <-; exact N.
  - unfold f_claim in H. destruct (aget _ n _) as [t|]; [|discriminate]. destruct (_ <=? 0); [discriminate|]. cbv zeta in H.
    set (s3 := if _ && x_tok x then _ else _) in H. assert (N3 : NoDup (map fst (f_bal s3))). { unfold s3. destruct (_ && _); cbn [emitF setHave setBalF setLock f_bal]; repeat apply (aput_nodup zz_eqb zz_key); exact N. }
    clearbody s3. destruct (aget _ n (f_syn s3)) as [y|]; [|injection H as <-; exact N3]. destruct (_ <=? _); [|injection H as <-; exact N3]. apply (end_nd _ _ _ _ _ _ H). exact N3.
  - unfold fneed in H. destruct (0 <? v); [|discriminate]. unfold to_fund, fneed in H. destruct (_ && _); [|discriminate]. injection H as <-. exact N.
  - unfold fneed in H. destruct (0 <=? v); [|discriminate]. injection H as <-. exact N.
Qed.
Lemma gett_le : forall t n u, NoDup (map fst t) -> (forall m w, 0 <= gett t m w) -> gett t n u <= tsum t n.
Proof.
  intros t n u N P. assert (E : forall k v, In (k, v) t -> 0 <= v). { intros [m w] v H. specialize (P m w). unfold gett in P. rewrite (aget_unique zz_eqb zz_key _ _ _ N H) in P. exact P. }
  unfold gett. destruct (aget zz_eqb (n, u) t) as [v|] eqn:G.
  - apply (aget_in zz_eqb zz_key) in G. pose proof (sum_ge (fun x : Z * Z * Z => if fst (fst x) =? n then snd x else 0) t ((n, u), v)) as S. cbn [fst snd] in S. rewrite Z.eqb_refl in S. apply S; [|exact G]. intros [k z] HI. cbn [fst snd]. specialize (E _ _ HI). destruct (_ =? _); lia.
  - apply sum_nonneg. intros [k z] HI. cbn [fst snd]. specialize (E _ _ HI). destruct (_ =? _); lia.
Qed.

(** * The depositors, step by step *)
Lemma quiet_dep : forall h q id u, (forall k w, dep q k w = 0) -> dep (h ++ q) id u = dep h id u.
Proof. intros. rewrite dep_app, H. lia. Qed.
Lemma good_same : forall s s' q, good s -> f_out s' = f_out s ++ q -> (forall k w, dep q k w = 0) -> (forall k, depAll q k = 0) -> f_list s' = f_list s -> (forall n y, aget Z.eqb n (f_syn s') = Some y -> 0 < y_total y) -> good s'.
Proof.
  intros s s' q [G1 G2 G3 G4 G5] E D A L Y. assert (DL : forall id, f_depositors s' id = f_depositors s id) by (intros id; unfold f_depositors; rewrite L; reflexivity). constructor; try exact Y; intros; rewrite ?DL, ?E, ?(quiet_dep _ _ _ _ D), ?depAll_app, ?A; auto.
  rewrite Z.add_0_r, <- G4. apply sum_ext. intros u _. apply quiet_dep, D.
Qed.
Lemma dep_one : forall id c v r, (forall k w, dep r k w = 0) -> (forall k, depAll r k = 0) -> (forall k u, dep (FDep id c v :: r) k u = if (id =? k) && (c =? u) then v else 0) /\ (forall k, depAll (FDep id c v :: r) k = if id =? k then v else 0).
Proof.
  intros id c v r D A. split; intros.
  - change (FDep id c v :: r) with ([FDep id c v] ++ r). rewrite dep_app, D. unfold dep. cbn [sumOf fold_right]. lia.
  - change (FDep id c v :: r) with ([FDep id c v] ++ r). rewrite depAll_app, A. unfold depAll. cbn [sumOf fold_right]. lia.
Qed.
Definition paying (o : fop) : Prop := match o with FDeposit _ _ v => 0 < v | _ => True end.
Lemma good_step : forall ow ic icx0 s x o s', finv icx0 s -> good s -> paying o -> fexec ow ic s x o = Some s' -> good s'.
Proof.
  intros ow ic icx0 s x o s' I G PO H. destruct (step_spec _ _ _ _ _ _ H) as (q & L & K). pose proof (l_out _ _ _ _ _ L) as OUT.
  assert (AM : forall id u, f_amount s id u = dep (f_out s) id u) by (intros id u; rewrite famt_get; apply (i_amt _ _ I)).
  destruct K as [o Y1 Y2 Y3 Y4 Y5 Y6 Y7 Y8 Y8' Y9|c n v t y T YN EY AY SY SC ST SH SL SQ SD|c n v t y y0 s1 unit p price inIcx ps T YO EX EY AY ED EO EL EH ET EA SY SC ST SH SQ SLi SD|c n v t y0 y T YO EX EY SY SC ST SH SL SQ SD|c n t y0 s1 unit p price inIcx ps q1 T YO EX ED EO EA EL ES ET SY SC SLi SQ Q1]; cbn [paying] in PO.
  - apply (good_same _ _ _ G OUT Y4 Y5 Y3). rewrite Y1. apply (g_pos _ G).
  - destruct (dep_one (y_id y) c v [FStart (y_id y) n (y_amount y) c v (y_end y)] ltac:(reflexivity) ltac:(reflexivity)) as [D1 D2]. rewrite <- SQ in D1, D2.
    apply (good_deposit s s' (y_id y) c v PO G); [intros k; rewrite SD, AM; reflexivity|intros; rewrite OUT, dep_app, D1; reflexivity|intros; rewrite OUT, depAll_app, D2; reflexivity|].
    intros m z HZ. rewrite SY in HZ. destruct (Z.eq_dec m n) as [->|N]; [rewrite (aput_same Z.eqb z_key) in HZ; injection HZ as X; rewrite <- X, EY; exact PO|]. rewrite (aput_other Z.eqb z_key) in HZ by exact N. apply (g_pos _ G _ _ HZ).
  - destruct (end_out_sums n y0 ps (x_now x)) as (Z1 & Z2 & Z3 & Z4). destruct (dep_one (y_id y) c v (end_out n y0 ps (x_now x) ++ [FStart (y_id y) n (y_amount y) c v (y_end y)])) as [D1 D2]; [intros; rewrite dep_app, Z1; reflexivity|intros; rewrite depAll_app, Z2; reflexivity|]. cbn [app] in SQ. rewrite <- SQ in D1, D2.
    apply (good_deposit s s' (y_id y) c v PO G); [intros k; rewrite SD, AM; reflexivity|intros; rewrite OUT, dep_app, D1; reflexivity|intros; rewrite OUT, depAll_app, D2; reflexivity|].
    intros m z HZ. rewrite SY in HZ. destruct (Z.eq_dec m n) as [->|N]; [rewrite (aput_same Z.eqb z_key) in HZ; injection HZ as X; rewrite <- X, EY; exact PO|]. rewrite (aput_other Z.eqb z_key) in HZ by exact N. apply (g_pos _ G _ _ HZ).
  - destruct (dep_one (y_id y) c v [FInfo (y_id y) n c v] ltac:(reflexivity) ltac:(reflexivity)) as [D1 D2]. rewrite <- SQ in D1, D2.
    apply (good_deposit s s' (y_id y) c v PO G); [intros k; rewrite SD, AM; reflexivity|intros; rewrite OUT, dep_app, D1; reflexivity|intros; rewrite OUT, depAll_app, D2; reflexivity|].
    intros m z HZ. rewrite SY in HZ. destruct (Z.eq_dec m n) as [->|N]; [rewrite (aput_same Z.eqb z_key) in HZ; injection HZ as X; rewrite <- X, EY; cbn [y_total]; pose proof (g_pos _ G _ _ YO); lia|]. rewrite (aput_other Z.eqb z_key) in HZ by exact N. apply (g_pos _ G _ _ HZ).
  - destruct (end_out_sums n y0 ps (x_now x)) as (Z1 & Z2 & Z3 & Z4). apply (good_same _ _ _ G OUT); [| |exact SLi|].
    + intros k w. rewrite SQ, dep_app, Z1. destruct Q1 as [-> | ->]; reflexivity.
    + intros k. rewrite SQ, depAll_app, Z2. destruct Q1 as [-> | ->]; reflexivity.
    + intros m z HZ. rewrite SY in HZ. destruct (Z.eq_dec m n) as [->|N]; [rewrite (adel_same Z.eqb z_key) in HZ by apply (i_nd _ _ I); discriminate|]. rewrite (adel_other Z.eqb z_key) in HZ by first [exact N | apply (i_nd _ _ I)]. apply (g_pos _ G _ _ HZ).
Qed.
(** What an ending settles. *)
Lemma shares_app : forall a b, shares (a ++ b) = shares a ++ shares b.
Proof. intros. apply flat_map_app. Qed.
Lemma shares_in : forall h id u m t r, In (FShare id u m t r) h <-> In (FShare id u m t r) (shares h).
Proof.
  intros h id u m t r. unfold shares. rewrite in_flat_map. split.
  - intros H. eexists. split; [exact H|left; reflexivity].
  - intros (e & E & X). destruct e; try contradiction. destruct X as [X|[]]. rewrite X in E. exact E.
Qed.
Lemma shares_settled : forall h id u, settled h id u = settled (shares h) id u.
Proof. intros h id u. induction h as [|e h IH]; [reflexivity|]. unfold settled, shares in *. cbn [flat_map]. rewrite IH. destruct e; reflexivity. Qed.
Lemma shares_sold : forall h id, soldIn h id = soldIn (shares h) id.
Proof. intros h id. induction h as [|e h IH]; [reflexivity|]. unfold soldIn in *. rewrite sum_cons, IH. unfold shares. destruct e; cbn [flat_map app]; rewrite ?sum_cons; cbv beta iota; lia. Qed.
Lemma sold_app : forall a b id, soldIn (a ++ b) id = soldIn a id + soldIn b id.
Proof. intros. unfold soldIn. apply sum_app. Qed.
Lemma shares_parts : forall id n ps, shares (parts_out id n ps) = parts_out id n ps.
Proof. intros id n ps. induction ps as [|p ps IH]; [reflexivity|]. cbn [parts_out map shares flat_map app]. f_equal. exact IH. Qed.
Lemma shares_end : forall n y ps now, shares (end_out n y ps now) = parts_out (y_id y) n ps.
Proof. intros n y ps now. unfold end_out. rewrite !shares_app, shares_parts. destruct (y_total y =? 0); cbn [shares flat_map app]; apply app_nil_r. Qed.
Lemma sold_parts : forall id n ps k, soldIn (parts_out id n ps) k = if id =? k then sumOf p_share ps else 0.
Proof. intros id n ps k. induction ps as [|p ps IH]; [unfold soldIn; cbn [parts_out map sumOf fold_right]; destruct (id =? k); reflexivity|]. cbn [parts_out map]. unfold soldIn in *. rewrite sum_cons. unfold parts_out in IH. rewrite IH, sum_cons. destruct (id =? k); lia. Qed.
Lemma over_in : forall h id, In id (over h) <-> exists n a t, In (FEnded id n a t) h.
Proof.
  intros h id. unfold over. rewrite in_flat_map. split.
  - intros (e & HE & HI). destruct e; try destruct HI as []; subst; try contradiction. eexists _, _, _. exact HE.
  - intros (n & a & t & H). eexists. split; [exact H|left; reflexivity].
Qed.
Definition sound (x : fext) (o : fop) : Prop := paying o /\ forall p, x_price x = Some p -> 0 <= p.
Lemma ending : forall ow ic icx0 s x o s', finv icx0 s -> good s -> sound x o -> fexec ow ic s x o = Some s' ->
  exists q, f_out s' = f_out s ++ q /\ (forall id, In id (over (f_out s)) -> (forall u, dep q id u = 0) /\ depAll q id = 0) /\
  ((over q = [] /\ shares q = [])
   \/ (exists n y t unit p price ps, aget Z.eqb n (f_syn s) = Some y /\ aget Z.eqb n (f_toks s) = Some t /\ y_end y <= x_now x /\ x_price x = Some p /\ unit_of t x = Some unit /\ 0 < unit /\ 0 <= price /\ price = p * 90 / 100
        /\ shares q = parts_out (y_id y) n ps /\ over q = [y_id y] /\ (forall id m a k, In (FEnded id m a k) q -> id = y_id y /\ m = n /\ a = y_amount y /\ k = x_now x) /\ In (FEnded (y_id y) n (y_amount y) (x_now x)) q
        /\ map p_who ps = f_depositors s (y_id y) /\ (forall u, dep q (y_id y) u = 0) /\ depAll q (y_id y) = 0
        /\ Forall (fun a => fair_share unit price (y_total y) (y_amount y) (dep (f_out s) (y_id y) (p_who a)) (p_share a) (p_rem a) /\ 0 <= p_share a /\ 0 <= p_rem a <= dep (f_out s) (y_id y) (p_who a)) ps
        /\ sumOf p_share ps <= y_amount y)).
Proof.
  intros ow ic icx0 s x o s' I G [PO PX] H. destruct (step_spec _ _ _ _ _ _ H) as (q & L & K). pose proof (l_out _ _ _ _ _ L) as OUT. exists q. split; [exact OUT|].
  assert (AM : forall id u, f_amount s id u = dep (f_out s) id u) by (intros id u; rewrite famt_get; apply (i_amt _ _ I)).
  assert (OB : forall id, In id (over (f_out s)) -> id <= f_count s). { intros id HI. apply (i_over _ _ I) in HI. destruct (Z.le_gt_cases id (f_count s)) as [|X]; [assumption|]. exfalso. apply (i_new _ _ I id); [lia|exact HI]. }
  assert (EI : forall n y ps now, In (FEnded (y_id y) n (y_amount y) now) (end_out n y ps now)). { intros. unfold end_out. rewrite !in_app_iff. right. right. left. reflexivity. }
  destruct K as [o Y1 Y2 Y3 Y4 Y5 Y6 Y7 Y8 Y8' Y9|c n v t y T YN EY AY SY SC ST SH SL SQ SD|c n v t y y0 s1 unit p price inIcx ps T YO EX EY AY ED EO EL EH ET EA SY SC ST SH SQ SLi SD|c n v t y0 y T YO EX EY SY SC ST SH SL SQ SD|c n t y0 s1 unit p price inIcx ps q1 T YO EX ED EO EA EL ES ET SY SC SLi SQ Q1]; cbn [paying] in PO.
  - split; [intros id _; split; [intros u; apply Y4|apply Y5]|]. left. split; assumption.
  - assert (YI : y_id y = f_count s + 1) by (rewrite EY; reflexivity). destruct (dep_one (y_id y) c v [FStart (y_id y) n (y_amount y) c v (y_end y)] ltac:(reflexivity) ltac:(reflexivity)) as [D1 D2]. rewrite <- SQ in D1, D2.
    split; [|left; rewrite SQ; split; reflexivity]. intros id HI. apply OB in HI. split; [intros u; rewrite D1|rewrite D2]; replace (y_id y =? id) with false by lia; reflexivity.
  - assert (YI : y_id y = f_count s + 1) by (rewrite EY; reflexivity). destruct (i_syn _ _ I _ _ YO) as (O1 & O2 & O3 & O4 & _). destruct (end_out_sums n y0 ps (x_now x)) as (Z1 & Z2 & Z3 & Z4). destruct (dep_one (y_id y) c v (end_out n y0 ps (x_now x) ++ [FStart (y_id y) n (y_amount y) c v (y_end y)])) as [D1 D2]; [intros; rewrite dep_app, Z1; reflexivity|intros; rewrite depAll_app, Z2; reflexivity|].
    assert (SQ' := SQ). cbn [app] in SQ. rewrite <- SQ in D1, D2. split; [intros id HI; apply OB in HI; split; [intros u; rewrite D1|rewrite D2]; replace (y_id y =? id) with false by lia; reflexivity|]. right.
    assert (A1 : f_depositors s1 (y_id y0) = f_depositors s (y_id y0)). { pose proof (SD (y_id y0)) as X. replace (y_id y0 =? y_id y) with false in X by lia. rewrite <- X. unfold f_depositors. rewrite SLi. reflexivity. }
    assert (A2 : forall u, f_amount s1 (y_id y0) u = dep (f_out s) (y_id y0) u). { intros u. rewrite <- AM. unfold f_amount. rewrite EA. rewrite (aput_other zz_eqb zz_key); [reflexivity|]. intros X. injection X as X _. lia. }
    destruct (ended_fair _ _ _ _ _ _ _ _ _ _ _ _ _ I G PX YO ED A1 A2) as (U1 & U2 & U3 & U4 & U5 & U6). exists n, y0, t, unit, p, price, ps.
    split; [exact YO|]. split; [exact T|]. split; [exact EX|]. split; [apply (e_p _ _ _ _ _ _ _ _ _ _ _ ED)|]. split; [apply (e_unit _ _ _ _ _ _ _ _ _ _ _ ED)|]. split; [exact U1|]. split; [exact U2|]. split; [exact U3|].
    split; [rewrite SQ', !shares_app, shares_end; cbn [shares flat_map app]; apply app_nil_r|]. split; [rewrite SQ', !over_app, Z4; reflexivity|].
    split. { intros id m a k HI. rewrite SQ', !in_app_iff in HI. destruct HI as [[X|[]]|[HI|[X|[]]]]; try discriminate. apply in_end_out in HI. exact HI. }
    split; [rewrite SQ', !in_app_iff; right; left; apply EI|]. split; [rewrite <- A1; apply (e_who _ _ _ _ _ _ _ _ _ _ _ ED)|]. split; [intros u; rewrite D1; replace (y_id y =? y_id y0) with false by lia; reflexivity|]. split; [rewrite D2; replace (y_id y =? y_id y0) with false by lia; reflexivity|]. split; [exact U4|exact U5].
  - assert (YI : y_id y = y_id y0) by (rewrite EY; reflexivity). destruct (i_syn _ _ I _ _ YO) as (O1 & O2 & O3 & O4 & _). destruct (dep_one (y_id y) c v [FInfo (y_id y) n c v] ltac:(reflexivity) ltac:(reflexivity)) as [D1 D2]. rewrite <- SQ in D1, D2.
    split; [|left; rewrite SQ; split; reflexivity]. intros id HI. assert (NE : y_id y <> id) by (intros X; apply O4; rewrite <- YI, X; exact HI). split; [intros u; rewrite D1|rewrite D2]; replace (y_id y =? id) with false by lia; reflexivity.
  - destruct (end_out_sums n y0 ps (x_now x)) as (Z1 & Z2 & Z3 & Z4).
    assert (D1 : forall k u, dep q k u = 0) by (intros k u; rewrite SQ, dep_app, Z1; destruct Q1 as [-> | ->]; reflexivity). assert (D2 : forall k, depAll q k = 0) by (intros k; rewrite SQ, depAll_app, Z2; destruct Q1 as [-> | ->]; reflexivity).
    split; [intros id _; split; [intros u; apply D1|apply D2]|]. right.
    assert (A1 : f_depositors s1 (y_id y0) = f_depositors s (y_id y0)) by (unfold f_depositors; rewrite EL; reflexivity).
    assert (A2 : forall u, f_amount s1 (y_id y0) u = dep (f_out s) (y_id y0) u) by (intros u; rewrite <- AM; unfold f_amount; rewrite EA; reflexivity).
    destruct (ended_fair _ _ _ _ _ _ _ _ _ _ _ _ _ I G PX YO ED A1 A2) as (U1 & U2 & U3 & U4 & U5 & U6). exists n, y0, t, unit, p, price, ps.
    split; [exact YO|]. split; [exact T|]. split; [exact EX|]. split; [apply (e_p _ _ _ _ _ _ _ _ _ _ _ ED)|]. split; [apply (e_unit _ _ _ _ _ _ _ _ _ _ _ ED)|]. split; [exact U1|]. split; [exact U2|]. split; [exact U3|].
    split; [rewrite SQ, shares_app, shares_end; destruct Q1 as [-> | ->]; reflexivity|]. split; [rewrite SQ, over_app, Z4; destruct Q1 as [-> | ->]; reflexivity|].
    split. { intros id m a k HI. rewrite SQ, in_app_iff in HI. destruct HI as [HI|HI]; [destruct Q1 as [-> | ->]; [destruct HI|destruct HI as [X|[]]; discriminate]|]. apply in_end_out in HI. exact HI. }
    split; [rewrite SQ, in_app_iff; right; apply EI|]. split; [rewrite <- A1; apply (e_who _ _ _ _ _ _ _ _ _ _ _ ED)|]. split; [intros u; apply D1|]. split; [apply D2|]. split; [exact U4|exact U5].
Qed.

(** * The settlements, kept *)
Lemma toks_grow : forall ow ic s x o s' n t, fexec ow ic s x o = Some s' -> aget Z.eqb n (f_toks s) = Some t -> aget Z.eqb n (f_toks s') = Some t.
Proof.
  intros ow ic s x o s' n t H T.
  assert (REG : forall c m tk, f_register ow ic s c m tk = Some s' -> aget Z.eqb n (f_toks s') = Some t).
  { intros c m tk R. unfold f_register, fneed in R. destruct ((c =? ow) && negb (ahas Z.eqb m (f_toks s)) && ic (k_addr tk)) eqn:C; [|discriminate]. injection R as <-. cbn [setToks f_toks]. rewrite (aput_other Z.eqb z_key); [exact T|]. intros <-. unfold ahas in C. rewrite T in C. cbn [negb] in C. rewrite andb_false_r in C. discriminate. }
  destruct (step_spec _ _ _ _ _ _ H) as (q & L & K). destruct K as [o Y1 Y2 Y3 Y4 Y5 Y6 Y7 Y8 Y8' Y9|c m v tk y TT YN EY AY SY SC ST|c m v tk y y0 s1 unit p price inIcx ps TT YO EX EY AY ED EO EL EH ET EA SY SC ST|c m v tk y0 y TT YO EX EY SY SC ST|c m tk y0 s1 unit p price inIcx ps q1 TT YO EX ED EO EA EL ES ET].
  - destruct o as [c m a|c m a i d|c d|c m v|c|c m|c v|a i v]; cbn [fexec] in H; unfold fneed in H.
    + apply (REG _ _ _ H).
    + destruct (0 <? i); [|discriminate]. apply (REG _ _ _ H).
    + destruct (_ && _); [|discriminate]. injection H as <-. exact T.
    + destruct Y9.
    + unfold f_withdrawal in H. destruct (_ <=? 0); [discriminate|]. destruct (_ && _); injection H as <-; exact T.
    + unfold f_claim in H. destruct (aget Z.eqb m (f_toks s)) as [tk|] eqn:TT; [|discriminate]. destruct (Z.leb_spec (f_balance s c m) 0) as [|P]; [discriminate|]. pose proof (claim_first s x c m tk TT P) as CF. cbv zeta in CF.
      match type of H with match aget _ _ (f_syn ?z) with _ => _ end = _ => set (s3 := z) in * end. destruct CF as (_ & G1 & _ & _ & _ & _ & G6 & _). clearbody s3. destruct (aget Z.eqb m (f_syn s3)) as [y|]; [|injection H as <-; rewrite G6; exact T]. destruct (_ <=? _); [|injection H as <-; rewrite G6; exact T].
      destruct (end_spec _ _ _ _ _ _ H) as (u & p & pr & ii & ps & ED). destruct (e_rest _ _ _ _ _ _ _ _ _ _ _ ED) as (R1 & _). rewrite R1. cbn [setSyn f_toks]. rewrite G6. exact T.
    + destruct (0 <? v); [|discriminate]. unfold to_fund, fneed in H. destruct (_ && _); [|discriminate]. injection H as <-. exact T.
    + destruct (0 <=? v); [|discriminate]. injection H as <-. exact T.
  - rewrite ST. exact T.
  - rewrite ST. exact T.
  - rewrite ST. exact T.
  - destruct (e_rest _ _ _ _ _ _ _ _ _ _ _ ED) as (R1 & _). rewrite R1, ET. exact T.
Qed.
Definition deal (l : list (fext * fop)) (s : fa) (id n a k : Z) : Prop :=
  exists x o p tk unit price, In (x, o) l /\ x_now x = k /\ x_price x = Some p /\ price = p * 90 / 100 /\ 0 <= price /\ aget Z.eqb n (f_toks s) = Some tk /\ unit_of tk x = Some unit /\ 0 < unit /\
  (forall u, 0 < dep (f_out s) id u -> exists t r, settled (f_out s) id u = [(t, r)] /\ fair_share unit price (depAll (f_out s) id) a (dep (f_out s) id u) t r /\ 0 <= t /\ 0 <= r <= dep (f_out s) id u) /\
  (forall u, dep (f_out s) id u = 0 -> settled (f_out s) id u = []) /\ soldIn (f_out s) id <= a.
Record ledger (l : list (fext * fop)) (s : fa) : Prop := {
  d_none : forall id, ~ In id (over (f_out s)) -> (forall u, settled (f_out s) id u = []) /\ soldIn (f_out s) id = 0;
  d_share : forall id u m t r, In (FShare id u m t r) (f_out s) -> 0 <= t /\ 0 <= r /\ exists a k, In (FEnded id m a k) (f_out s);
  d_deal : forall id n a k, In (FEnded id n a k) (f_out s) -> deal l s id n a k }.
Lemma deal_mono : forall l xo s id n a k, deal l s id n a k -> deal (l ++ [xo]) s id n a k.
Proof. intros l xo s id n a k (x & o & p & tk & unit & price & A & B). exists x, o, p, tk, unit, price. split; [apply in_or_app; left; exact A|exact B]. Qed.
Lemma ledger_step : forall ow ic icx0 l s x o s', finv icx0 s -> good s -> ledger l s -> sound x o -> fexec ow ic s x o = Some s' -> ledger (l ++ [(x, o)]) s'.
Proof.
  intros ow ic icx0 l s x o s' I G D SO H. destruct (ending _ _ _ _ _ _ _ I G SO H) as (q & OUT & DO & CASES). destruct D as [D1 D2 D3].
  assert (KEEP : forall id n a k, In (FEnded id n a k) (f_out s) -> (forall u, settled q id u = []) -> soldIn q id = 0 -> deal (l ++ [(x, o)]) s' id n a k).
  { intros id n a k HI SQ SS. destruct (D3 _ _ _ _ HI) as (x1 & o1 & p1 & tk & u1 & pr & B1 & B2 & B3 & B4 & B5 & B6 & B7 & B8 & B9 & B10 & B11). destruct (DO id) as [Q1 Q2]; [apply over_in; eauto|].
    exists x1, o1, p1, tk, u1, pr. split; [apply in_or_app; left; exact B1|]. split; [exact B2|]. split; [exact B3|]. split; [exact B4|]. split; [exact B5|]. split; [apply (toks_grow _ _ _ _ _ _ _ _ H B6)|]. split; [exact B7|]. split; [exact B8|].
    rewrite OUT. split; [|split].
    - intros u. rewrite dep_app, Q1, Z.add_0_r, depAll_app, Q2, Z.add_0_r, settled_app, SQ, app_nil_r. apply B9.
    - intros u. rewrite dep_app, Q1, Z.add_0_r, settled_app, SQ, app_nil_r. apply B10.
    - rewrite sold_app, SS. lia. }
  destruct CASES as [[C1 C2]|(n & y & t & unit & p & price & ps & YO & T & EX & PX & UN & UP & PP & PE & SH & OV & EN & EI & WH & DQ & DA & FA & SM)].
  - assert (SQ : forall id u, settled q id u = []) by (intros id u; rewrite shares_settled, C2; reflexivity). assert (SS : forall id, soldIn q id = 0) by (intros id; rewrite shares_sold, C2; reflexivity).
    constructor; rewrite OUT.
    + intros id HN. rewrite over_app, C1, app_nil_r in HN. destruct (D1 id HN) as [E1 E2]. split; [intros u; rewrite settled_app, SQ, E1; reflexivity|rewrite sold_app, SS, E2; reflexivity].
    + intros id u m t r HI. apply in_app_or in HI as [HI|HI]; [|apply shares_in in HI; rewrite C2 in HI; destruct HI]. destruct (D2 _ _ _ _ _ HI) as (E1 & E2 & a & k & E3). repeat split; try assumption. exists a, k. apply in_or_app. left. exact E3.
    + intros id n a k HI. apply in_app_or in HI as [HI|HI]; [|destruct (none_over _ _ C1 HI)]. apply (KEEP _ _ _ _ HI (SQ id) (SS id)).
  - destruct (i_syn _ _ I _ _ YO) as (O1 & O2 & O3 & O4 & _). destruct (D1 _ O4) as [N1 N2].
    assert (SQ : forall id, id <> y_id y -> (forall u, settled q id u = []) /\ soldIn q id = 0). { intros id NE. split; [intros u; rewrite shares_settled, SH, parts_settled; replace (y_id y =? id) with false by lia; cbn [andb]; clear; induction ps as [|a ps IH]; [reflexivity|exact IH]|]. rewrite shares_sold, SH, sold_parts. replace (y_id y =? id) with false by lia. reflexivity. }
    constructor; rewrite OUT.
    + intros id HN. rewrite over_app, OV, in_app_iff in HN. assert (NE : id <> y_id y) by (intros ->; apply HN; right; left; reflexivity). destruct (D1 id) as [E1 E2]; [intros X; apply HN; left; exact X|]. destruct (SQ id NE) as [F1 F2]. split; [intros u; rewrite settled_app, F1, E1; reflexivity|rewrite sold_app, F2, E2; reflexivity].
    + intros id u m t' r HI. apply in_app_or in HI as [HI|HI].
      * destruct (D2 _ _ _ _ _ HI) as (E1 & E2 & a & k & E3). repeat split; try assumption. exists a, k. apply in_or_app. left. exact E3.
      * apply shares_in in HI. rewrite SH in HI. unfold parts_out in HI. apply in_map_iff in HI as (a & HA & HB). injection HA as <- <- <- <- <-. rewrite Forall_forall in FA. destruct (FA a HB) as (_ & E1 & E2). repeat split; try lia. exists (y_amount y), (x_now x). apply in_or_app. right. exact EI.
    + intros id m a k HI. apply in_app_or in HI as [HI|HI].
      * destruct (Z.eq_dec id (y_id y)) as [->|NE]; [exfalso; apply O4, over_in; eauto|]. destruct (SQ id NE) as [F1 F2]. apply (KEEP _ _ _ _ HI F1 F2).
      * destruct (EN _ _ _ _ HI) as (-> & -> & -> & ->). exists x, o, p, t, unit, price. split; [apply in_or_app; right; left; reflexivity|]. split; [reflexivity|]. split; [exact PX|]. split; [exact PE|]. split; [exact PP|]. split; [apply (toks_grow _ _ _ _ _ _ _ _ H T)|]. split; [exact UN|]. split; [exact UP|].
        assert (ND : NoDup (map p_who ps)) by (rewrite WH; apply (g_nd _ G)). rewrite Forall_forall in FA. rewrite OUT.
        split; [|split].
        { intros u. rewrite dep_app, DQ, Z.add_0_r, depAll_app, DA, Z.add_0_r, settled_app, N1, <- O2. cbn [app]. rewrite shares_settled, SH, parts_settled, (one_part _ _ _ ND). intros HU. apply (g_in _ G) in HU. rewrite <- WH in HU.
          destruct (find (fun p0 => p_who p0 =? u) ps) as [a|] eqn:F.
          - apply find_some in F as [F1 F2]. destruct (FA a F1) as (X1 & X2 & X3). replace u with (p_who a) by lia. exists (p_share a), (p_rem a). repeat split; try assumption; lia.
          - exfalso. apply in_map_iff in HU as (a & A1 & A2). pose proof (find_none _ _ F a A2) as X. cbv beta in X. lia. }
        { intros u. rewrite dep_app, DQ, Z.add_0_r, settled_app, N1. cbn [app]. rewrite shares_settled, SH, parts_settled, (one_part _ _ _ ND). intros HU. destruct (find (fun p0 => p_who p0 =? u) ps) as [a|] eqn:F; [|reflexivity].
          exfalso. apply find_some in F as [F1 F2]. assert (X : In u (f_depositors s (y_id y))) by (rewrite <- WH; replace u with (p_who a) by lia; apply in_map; exact F1). apply (g_in _ G) in X. lia. }
        { rewrite sold_app, N2, shares_sold, SH, sold_parts, Z.eqb_refl. lia. }
Qed.
