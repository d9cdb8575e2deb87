(** Invariants of the fee aggregation. *)
From Coq Require Import String Ascii ZArith List Bool Lia.
From Coq Require Import ZifyBool.
From Verif Require Import Base L_Base M_JMap L_JMap L_JSum M_JBmc M_Ncs S_Ncs L_Ncs L_NcsNet2 M_Tbsh S_Tbsh L_Tbsh M_Fee S_Fee L_Fee L_Fee2.
Import ListNotations.
Open Scope Z_scope.

Section FEE.
Variable owner : Z.
Variable isContract : Z -> bool.
Variable icx0 : Z.
Variable have0 : list ((Z * Z) * Z).
Notation fexec := (fexec owner isContract).
Notation frun := (frun owner isContract icx0 have0).
Lemma frun_snoc : forall l xo, frun (l ++ [xo]) = fstep owner isContract (frun l) xo.
Proof. intros l xo. unfold M_Fee.frun. rewrite fold_left_app. reflexivity. Qed.

(** * The books, after any calls *)
Record finv (s : fa) : Prop := {
  i_bal : forall u n, gett (f_bal s) n u = given (f_out s) u n - claims (f_out s) u n;
  i_ref : forall u, getf (f_ref s) u = refunds (f_out s) u - withdrawn (f_out s) u;
  i_lock : forall n, getf (f_lock s) n = tsum (f_bal s) n;
  i_amt : forall id u, gett (f_amt s) id u = dep (f_out s) id u;
  i_icx : f_icx s = icx0 + openIcx s - allWithdrawn (f_out s);
  i_flow : allDeps (f_out s) + gifts (f_out s) = funded (f_out s) + openIcx s;
  i_nd : NoDup (map fst (f_syn s));
  i_count : 0 <= f_count s;
  i_syn : forall n y, aget Z.eqb n (f_syn s) = Some y -> 1 <= y_id y <= f_count s /\ y_total y = depAll (f_out s) (y_id y) /\ 0 < y_amount y /\ ~ In (y_id y) (over (f_out s)) /\ exists c v, In (FStart (y_id y) n (y_amount y) c v (y_end y)) (f_out s);
  i_ids : forall n m y z, aget Z.eqb n (f_syn s) = Some y -> aget Z.eqb m (f_syn s) = Some z -> y_id y = y_id z -> n = m;
  i_new : forall id, f_count s < id -> (forall u, dep (f_out s) id u = 0) /\ depAll (f_out s) id = 0 /\ f_depositors s id = [] /\ ~ In id (begun (f_out s));
  i_begun : NoDup (begun (f_out s));
  i_over : NoDup (over (f_out s)) /\ incl (over (f_out s)) (begun (f_out s));
  i_open : forall id, In id (begun (f_out s)) -> In id (over (f_out s)) \/ exists n y, aget Z.eqb n (f_syn s) = Some y /\ y_id y = id;
  i_time : forall id n a t, In (FEnded id n a t) (f_out s) -> exists c v dl, In (FStart id n a c v dl) (f_out s) /\ dl <= t }.
Lemma finv_init : finv (finit icx0 have0).
Proof.
  constructor; cbn [finit f_bal f_ref f_lock f_amt f_icx f_syn f_count f_out]; intros; try (unfold given, claims, refunds, withdrawn, tsum, dep, allWithdrawn, openIcx, gifts, allDeps, funded, gett, getf; cbn [aget sumOf fold_right finit f_syn]; lia); try discriminate; try (cbn in *; contradiction).
  - constructor.
  - repeat split. intros [].
  - constructor.
  - split; [constructor|intros ? []].
Qed.
Lemma end_out_sums : forall n y ps now, (forall id u, dep (end_out n y ps now) id u = 0) /\ (forall id, depAll (end_out n y ps now) id = 0) /\ begun (end_out n y ps now) = [] /\ over (end_out n y ps now) = [y_id y].
Proof.
  intros n y ps now. destruct (fund_sums (y_total y)) as (A1 & A2 & A3 & A4 & A5 & A6 & A7 & A8 & A9 & A10 & A11 & A12). destruct (parts_sums (y_id y) n ps) as (B1 & B2 & B3 & B4 & B5 & B6 & B7 & B8 & B9 & B10). unfold end_out. repeat split; intros; logs; rewrite ?A5, ?A6, ?A11, ?A12, ?B3, ?B4, ?B9, ?B10; reflexivity.
Qed.
Lemma in_end_out : forall n y ps now id m a t, In (FEnded id m a t) (end_out n y ps now) -> id = y_id y /\ m = n /\ a = y_amount y /\ t = now.
Proof.
  intros n y ps now id m a t H. unfold end_out in H. rewrite !in_app_iff in H. destruct H as [H|[H|[H|[]]]].
  - destruct (y_total y =? 0); [destruct H|destruct H as [H|[]]; discriminate].
  - apply in_map_iff in H as (p & H & _). discriminate.
  - injection H as <- <- <- <-. auto.
Qed.
Lemma begun_in : forall h id, In id (begun h) <-> exists n a c v dl, In (FStart id n a c v dl) h.
Proof.
  intros h id. unfold begun. rewrite in_flat_map. split.
  - intros (e & HE & HI). destruct e; try destruct HI as []; subst; try contradiction. eexists _, _, _, _, _. exact HE.
  - intros (n & a & c & v & dl & H). eexists. split; [exact H|left; reflexivity].
Qed.
Lemma nodup_app_one : forall (l : list Z) x, NoDup l -> ~ In x l -> NoDup (l ++ [x]).
Proof. intros. apply nodup_snoc; assumption. Qed.

Lemma none_over : forall (h : list fout) e, over h = [] -> In e h -> match e with FEnded _ _ _ _ => False | _ => True end.
Proof. intros h e H HI. destruct e; try exact I. assert (X : In id (over h)) by (apply in_flat_map; eexists; split; [exact HI|left; reflexivity]). rewrite H in X. destruct X. Qed.
Ltac dz := unfold dep, depAll, begun, over; cbn [sumOf fold_right flat_map app].
Lemma finv_step : forall s x o s', finv s -> fexec s x o = Some s' -> finv s'.
Proof.
  intros s x o s' I H. destruct (step_spec _ _ _ _ _ _ H) as (q & L & K). destruct I as [J1 J2 J3 J4 J5 J6 J7 J8 J9 J10 J11 J12 J13 J14 J15]. destruct L as [L1 L2 L3 L4 L5 L6 L7].
  assert (LIN : (forall u n, gett (f_bal s') n u = given (f_out s') u n - claims (f_out s') u n) /\ (forall u, getf (f_ref s') u = refunds (f_out s') u - withdrawn (f_out s') u) /\ (forall n, getf (f_lock s') n = tsum (f_bal s') n) /\ (forall id u, gett (f_amt s') id u = dep (f_out s') id u)
     /\ f_icx s' = icx0 + openIcx s' - allWithdrawn (f_out s') /\ allDeps (f_out s') + gifts (f_out s') = funded (f_out s') + openIcx s').
  { rewrite L1. repeat split; intros; logs.
    - rewrite L2, J1. lia.
    - rewrite L3, J2. lia.
    - specialize (L4 n). rewrite J3 in L4. lia.
    - rewrite L5, J4. lia.
    - lia.
    - lia. }
  destruct LIN as (M1 & M2 & M3 & M4 & M5 & M6). clear L2 L3 L4 L5 L6 L7 J1 J2 J3 J5 J6.
  destruct K as [o Y1 Y2 Y3 Y4 Y5 Y6 Y7 Y8 Y8' Y9|c n v t y T YN EY AY SY SC ST SH SL SQ SD|c n v t y y0 s1 unit p price inIcx ps T YO EX EY AY ED EO EL EH ET EA SY SC ST SH SQ SLi SD|c n v t y0 y T YO EX EY SY SC ST SH SL SQ SD|c n t y0 s1 unit p price inIcx ps q1 T YO EX ED EO EA EL ES ET SY SC SLi SQ Q1].
  - constructor; try assumption; rewrite ?Y1, ?Y2; try assumption; rewrite ?L1; logs; rewrite ?Y6, ?Y7, ?app_nil_r; try assumption.
    + intros n y HY. destruct (J9 n y HY) as (A1 & A2 & A3 & A4 & c & v & A5). logs. rewrite Y5, ?Y7, ?app_nil_r. repeat split; try assumption; try lia. exists c, v. apply in_or_app. left. exact A5.
    + intros id HI. destruct (J11 id HI) as (A1 & A2 & A3 & A4). logs. rewrite Y5, ?Y6, ?app_nil_r. unfold f_depositors. rewrite Y3. repeat split; try assumption; try lia. intros u. logs. rewrite Y4, A1. lia.
    + intros id n a t HI. apply in_app_or in HI as [HI|HI]; [|destruct (none_over _ _ Y7 HI)]. destruct (J15 _ _ _ _ HI) as (c & v & dl & A1 & A2). exists c, v, dl. split; [apply in_or_app; left; exact A1|exact A2].
  - assert (YI : y_id y = f_count s + 1) by (rewrite EY; reflexivity). assert (YT : y_total y = v) by (rewrite EY; reflexivity). destruct (J11 (y_id y) ltac:(lia)) as (N1 & N2 & N3 & N4).
    assert (DQ : (forall id, depAll q id = if y_id y =? id then v else 0) /\ begun q = [y_id y] /\ over q = [] /\ forall id u, id <> y_id y -> dep q id u = 0). { rewrite SQ. repeat split; intros; dz; try reflexivity; [destruct (y_id y =? id); lia|]. destruct (Z.eqb_spec (y_id y) id); [congruence|cbn [andb]; lia]. }
    destruct DQ as (D1 & D2 & D3 & D4). assert (NO : forall m z, aget Z.eqb m (f_syn s) = Some z -> y_id z <> y_id y) by (intros m z HZ; destruct (J9 m z HZ) as (A1 & _); lia).
    constructor; try assumption; rewrite ?SY, ?SC; try (rewrite L1; logs; rewrite ?D2, ?D3, ?app_nil_r).
    + apply (aput_nodup Z.eqb z_key), J7.
    + lia.
    + intros m z HZ. rewrite ?L1. logs. rewrite ?D1, ?D3, ?app_nil_r. destruct (Z.eq_dec m n) as [->|N].
      * rewrite (aput_same Z.eqb z_key) in HZ. injection HZ as <-. rewrite Z.eqb_refl, N2. repeat split; try lia; try assumption; [intros X; apply J13 in X; contradiction|]. exists c, v. apply in_or_app. right. rewrite SQ. right. left. reflexivity.
      * rewrite (aput_other Z.eqb z_key) in HZ by exact N. destruct (J9 m z HZ) as (A1 & A2 & A3 & A4 & c' & v' & A5). destruct (Z.eqb_spec (y_id y) (y_id z)) as [E|_]; [exfalso; apply (NO m z HZ); congruence|]. repeat split; try lia; try assumption. exists c', v'. apply in_or_app. left. exact A5.
    + intros m1 m2 z1 z2 H1 H2 E. destruct (Z.eq_dec m1 n) as [->|N1']; destruct (Z.eq_dec m2 n) as [->|N2']; try reflexivity.
      * rewrite (aput_same Z.eqb z_key) in H1. rewrite (aput_other Z.eqb z_key) in H2 by exact N2'. injection H1 as X. exfalso. apply (NO m2 z2 H2). congruence.
      * rewrite (aput_same Z.eqb z_key) in H2. rewrite (aput_other Z.eqb z_key) in H1 by exact N1'. injection H2 as X. exfalso. apply (NO m1 z1 H1). congruence.
      * rewrite (aput_other Z.eqb z_key) in H1 by exact N1'. rewrite (aput_other Z.eqb z_key) in H2 by exact N2'. apply (J10 _ _ _ _ H1 H2 E).
    + intros id HI. destruct (J11 id ltac:(lia)) as (A1 & A2 & A3 & A4). rewrite ?L1. logs. rewrite ?D1, ?D2, ?SD. destruct (Z.eqb_spec (y_id y) id) as [E|NE]; [lia|]. replace (id =? y_id y) with false by lia. repeat split; try lia; try assumption; [intros u; logs; rewrite D4, A1 by lia; lia|]. rewrite in_app_iff. intros [X|[X|[]]]; [contradiction|lia].
    + apply nodup_app_one; assumption.
    + split; [apply J13|]. intros k HK. apply in_or_app. left. apply J13. exact HK.
    + intros id HI. rewrite ?L1 in HI |- *. logs. rewrite ?D2 in HI. rewrite ?D3, ?app_nil_r. apply in_app_or in HI as [HI|[<-|[]]].
      * destruct (J14 id HI) as [A|(m & z & A1 & A2)]; [left; exact A|]. right. exists m, z. split; [|exact A2]. rewrite (aput_other Z.eqb z_key); [exact A1|]. intros ->. congruence.
      * right. exists n, y. split; [apply (aput_same Z.eqb z_key)|reflexivity].
    + intros id m a t' HI. rewrite ?L1 in HI. apply in_app_or in HI as [HI|HI]; [|destruct (none_over _ _ D3 HI)]. destruct (J15 _ _ _ _ HI) as (c' & v' & dl & A1 & A2). exists c', v', dl. split; [rewrite ?L1; apply in_or_app; left; exact A1|exact A2].
  - assert (YI : y_id y = f_count s + 1) by (rewrite EY; reflexivity). assert (YT : y_total y = v) by (rewrite EY; reflexivity). destruct (J11 (y_id y) ltac:(lia)) as (N1 & N2 & N3 & N4). destruct (end_out_sums n y0 ps (x_now x)) as (Z1 & Z2 & Z3 & Z4).
    assert (DQ : (forall id, depAll q id = if y_id y =? id then v else 0) /\ begun q = [y_id y] /\ over q = [y_id y0] /\ forall id u, id <> y_id y -> dep q id u = 0). { rewrite SQ. repeat split; intros; logs; rewrite ?Z1, ?Z2, ?Z3, ?Z4; dz; try reflexivity; [destruct (y_id y =? id); lia|]. destruct (Z.eqb_spec (y_id y) id); [congruence|cbn [andb]; lia]. }
    destruct DQ as (D1 & D2 & D3 & D4). assert (NO : forall m z, aget Z.eqb m (f_syn s) = Some z -> y_id z <> y_id y) by (intros m z HZ; destruct (J9 m z HZ) as (A1 & _); lia). destruct (J9 n y0 YO) as (O1 & O2 & O3 & O4 & oc & ov & O5).
    constructor; try assumption; rewrite ?SY, ?SC; try (rewrite L1; logs; rewrite ?D2, ?D3, ?app_nil_r).
    + apply (aput_nodup Z.eqb z_key), J7.
    + lia.
    + intros m z HZ. rewrite ?L1. logs. rewrite ?D1, ?D3. destruct (Z.eq_dec m n) as [->|N].
      * rewrite (aput_same Z.eqb z_key) in HZ. injection HZ as <-. rewrite Z.eqb_refl, N2. repeat split; try lia; try assumption; [rewrite in_app_iff; intros [X|[X|[]]]; [apply J13 in X; contradiction|apply (NO n y0 YO); congruence]|]. exists c, v. apply in_or_app. right. rewrite SQ. rewrite !in_app_iff. right. right. left. reflexivity.
      * rewrite (aput_other Z.eqb z_key) in HZ by exact N. destruct (J9 m z HZ) as (A1 & A2 & A3 & A4 & c' & v' & A5). destruct (Z.eqb_spec (y_id y) (y_id z)) as [E|_]; [exfalso; apply (NO m z HZ); congruence|]. repeat split; try lia; try assumption; [rewrite in_app_iff; intros [X|[X|[]]]; [contradiction|apply N; symmetry; apply (J10 _ _ _ _ YO HZ X)]|]. exists c', v'. apply in_or_app. left. exact A5.
    + intros m1 m2 z1 z2 H1 H2 E. destruct (Z.eq_dec m1 n) as [->|N1']; destruct (Z.eq_dec m2 n) as [->|N2']; try reflexivity.
      * rewrite (aput_same Z.eqb z_key) in H1. rewrite (aput_other Z.eqb z_key) in H2 by exact N2'. injection H1 as X. exfalso. apply (NO m2 z2 H2). congruence.
      * rewrite (aput_same Z.eqb z_key) in H2. rewrite (aput_other Z.eqb z_key) in H1 by exact N1'. injection H2 as X. exfalso. apply (NO m1 z1 H1). congruence.
      * rewrite (aput_other Z.eqb z_key) in H1 by exact N1'. rewrite (aput_other Z.eqb z_key) in H2 by exact N2'. apply (J10 _ _ _ _ H1 H2 E).
    + intros id HI. destruct (J11 id ltac:(lia)) as (A1 & A2 & A3 & A4). rewrite ?L1. logs. rewrite ?D1, ?D2, ?SD. destruct (Z.eqb_spec (y_id y) id) as [E|NE]; [lia|]. replace (id =? y_id y) with false by lia. repeat split; try lia; try assumption; [intros u; logs; rewrite D4, A1 by lia; lia|]. rewrite in_app_iff. intros [X|[X|[]]]; [contradiction|lia].
    + apply nodup_app_one; assumption.
    + split; [apply nodup_app_one; [apply J13|exact O4]|]. intros k HK. apply in_app_or in HK as [HK|[<-|[]]]; apply in_or_app; left; [apply J13; exact HK|]. apply begun_in. eexists _, _, _, _, _. exact O5.
    + intros id HI. rewrite ?L1 in HI |- *. logs. rewrite ?D2 in HI. rewrite ?D3. apply in_app_or in HI as [HI|[<-|[]]].
      * destruct (J14 id HI) as [A|(m & z & A1 & A2)]; [left; apply in_or_app; left; exact A|]. destruct (Z.eq_dec m n) as [->|N]; [left; apply in_or_app; right; left; congruence|]. right. exists m, z. split; [|exact A2]. rewrite (aput_other Z.eqb z_key); [exact A1|exact N].
      * right. exists n, y. split; [apply (aput_same Z.eqb z_key)|reflexivity].
    + intros id m a t' HI. rewrite ?L1 in HI. apply in_app_or in HI as [HI|HI].
      * destruct (J15 _ _ _ _ HI) as (c' & v' & dl & A1 & A2). exists c', v', dl. split; [rewrite ?L1; apply in_or_app; left; exact A1|exact A2].
      * rewrite SQ in HI. rewrite !in_app_iff in HI. destruct HI as [[X|[]]|[HI|[X|[]]]]; try discriminate. apply in_end_out in HI as (-> & -> & -> & ->). exists oc, ov, (y_end y0). split; [rewrite ?L1; apply in_or_app; left; exact O5|exact EX].
  - assert (YI : y_id y = y_id y0) by (rewrite EY; reflexivity). assert (YT : y_total y = y_total y0 + v) by (rewrite EY; reflexivity). assert (YA : y_amount y = y_amount y0 /\ y_end y = y_end y0) by (rewrite EY; split; reflexivity). destruct YA as [YA YE]. destruct (J9 n y0 YO) as (O1 & O2 & O3 & O4 & oc & ov & O5).
    assert (DQ : (forall id, depAll q id = if y_id y =? id then v else 0) /\ begun q = [] /\ over q = [] /\ forall id u, id <> y_id y -> dep q id u = 0). { rewrite SQ. repeat split; intros; dz; try reflexivity; [destruct (y_id y =? id); lia|]. destruct (Z.eqb_spec (y_id y) id); [congruence|cbn [andb]; lia]. }
    destruct DQ as (D1 & D2 & D3 & D4).
    constructor; try assumption; rewrite ?SY, ?SC; try (rewrite L1; logs; rewrite ?D2, ?D3, ?app_nil_r); try assumption.
    + apply (aput_nodup Z.eqb z_key), J7.
    + intros m z HZ. rewrite ?L1. logs. rewrite ?D1, ?D3, ?app_nil_r. destruct (Z.eq_dec m n) as [->|N].
      * rewrite (aput_same Z.eqb z_key) in HZ. injection HZ as <-. rewrite Z.eqb_refl. rewrite YI, YT, YA, YE. repeat split; try lia; try assumption. exists oc, ov. apply in_or_app. left. exact O5.
      * rewrite (aput_other Z.eqb z_key) in HZ by exact N. destruct (J9 m z HZ) as (A1 & A2 & A3 & A4 & c' & v' & A5). destruct (Z.eqb_spec (y_id y) (y_id z)) as [E|_]; [exfalso; apply N; symmetry; apply (J10 _ _ _ _ YO HZ); congruence|]. repeat split; try lia; try assumption. exists c', v'. apply in_or_app. left. exact A5.
    + intros m1 m2 z1 z2 H1 H2 E. destruct (Z.eq_dec m1 n) as [->|N1']; destruct (Z.eq_dec m2 n) as [->|N2']; try reflexivity.
      * rewrite (aput_same Z.eqb z_key) in H1. rewrite (aput_other Z.eqb z_key) in H2 by exact N2'. injection H1 as X. apply (J10 _ _ _ _ YO H2). congruence.
      * rewrite (aput_same Z.eqb z_key) in H2. rewrite (aput_other Z.eqb z_key) in H1 by exact N1'. injection H2 as X. apply (J10 _ _ _ _ H1 YO). congruence.
      * rewrite (aput_other Z.eqb z_key) in H1 by exact N1'. rewrite (aput_other Z.eqb z_key) in H2 by exact N2'. apply (J10 _ _ _ _ H1 H2 E).
    + intros id HI. destruct (J11 id ltac:(lia)) as (A1 & A2 & A3 & A4). rewrite ?L1. logs. rewrite ?D1, ?D2, ?app_nil_r, ?SD. destruct (Z.eqb_spec (y_id y) id) as [E|NE]; [lia|]. replace (id =? y_id y) with false by lia. repeat split; try lia; try assumption. intros u. logs. rewrite D4, A1 by lia. lia.
    + intros id HI. rewrite ?L1 in HI |- *. logs. rewrite ?D2, ?app_nil_r in HI. rewrite ?D3, ?app_nil_r. destruct (J14 id HI) as [A|(m & z & A1 & A2)]; [left; exact A|]. right. destruct (Z.eq_dec m n) as [->|N]; [exists n, y; split; [apply (aput_same Z.eqb z_key)|congruence]|]. exists m, z. split; [|exact A2]. rewrite (aput_other Z.eqb z_key); [exact A1|exact N].
    + intros id m a t' HI. rewrite ?L1 in HI. apply in_app_or in HI as [HI|HI]; [|destruct (none_over _ _ D3 HI)]. destruct (J15 _ _ _ _ HI) as (c' & v' & dl & A1 & A2). exists c', v', dl. split; [rewrite ?L1; apply in_or_app; left; exact A1|exact A2].
  - destruct (end_out_sums n y0 ps (x_now x)) as (Z1 & Z2 & Z3 & Z4). destruct (J9 n y0 YO) as (O1 & O2 & O3 & O4 & oc & ov & O5).
    assert (DQ : (forall id, depAll q id = 0) /\ begun q = [] /\ over q = [y_id y0] /\ forall id u, dep q id u = 0). { rewrite SQ. repeat split; intros; logs; rewrite ?Z1, ?Z2, ?Z3, ?Z4; destruct Q1 as [-> | ->]; reflexivity. }
    destruct DQ as (D1 & D2 & D3 & D4). destruct (adel_nodup Z.eqb z_key n (f_syn s) J7) as [ND1 ND2].
    assert (DE : forall m z, aget Z.eqb m (adel Z.eqb n (f_syn s)) = Some z -> m <> n /\ aget Z.eqb m (f_syn s) = Some z). { intros m z HZ. destruct (Z.eq_dec m n) as [->|N]; [rewrite (adel_same Z.eqb z_key) in HZ by exact J7; discriminate|]. rewrite (adel_other Z.eqb z_key) in HZ by assumption. auto. }
    constructor; try assumption; rewrite ?SY, ?SC; try (rewrite L1; logs; rewrite ?D2, ?D3, ?app_nil_r); try assumption.
    + intros m z HZ. destruct (DE m z HZ) as [N HZ']. rewrite ?L1. logs. rewrite ?D1, ?D3. destruct (J9 m z HZ') as (A1 & A2 & A3 & A4 & c' & v' & A5). repeat split; try lia; try assumption; [rewrite in_app_iff; intros [X|[X|[]]]; [contradiction|apply N; symmetry; apply (J10 _ _ _ _ YO HZ' X)]|]. exists c', v'. apply in_or_app. left. exact A5.
    + intros m1 m2 z1 z2 H1 H2 E. destruct (DE _ _ H1) as [_ H1']. destruct (DE _ _ H2) as [_ H2']. apply (J10 _ _ _ _ H1' H2' E).
    + intros id HI. destruct (J11 id HI) as (A1 & A2 & A3 & A4). rewrite ?L1. logs. rewrite ?D1, ?D2, ?app_nil_r. unfold f_depositors. rewrite SLi. repeat split; try lia; try assumption. intros u. logs. rewrite D4, A1. lia.
    + split; [apply nodup_app_one; [apply J13|exact O4]|]. intros k HK. apply in_app_or in HK as [HK|[<-|[]]]; [apply J13; exact HK|]. apply begun_in. eexists _, _, _, _, _. exact O5.
    + intros id HI. rewrite ?L1 in HI |- *. logs. rewrite ?D2, ?app_nil_r in HI. rewrite ?D3. destruct (J14 id HI) as [A|(m & z & A1 & A2)]; [left; apply in_or_app; left; exact A|]. destruct (Z.eq_dec m n) as [->|N]; [left; apply in_or_app; right; left; congruence|]. right. exists m, z. split; [|exact A2]. rewrite (adel_other Z.eqb z_key); assumption.
    + intros id m a t' HI. rewrite ?L1 in HI. apply in_app_or in HI as [HI|HI].
      * destruct (J15 _ _ _ _ HI) as (c' & v' & dl & A1 & A2). exists c', v', dl. split; [rewrite ?L1; apply in_or_app; left; exact A1|exact A2].
      * rewrite SQ in HI. rewrite in_app_iff in HI. destruct HI as [HI|HI]; [destruct Q1 as [-> | ->]; [destruct HI|destruct HI as [X|[]]; discriminate]|]. apply in_end_out in HI as (-> & -> & -> & ->). exists oc, ov, (y_end y0). split; [rewrite ?L1; apply in_or_app; left; exact O5|exact EX].
Qed.
Lemma finv_run : forall l, finv (frun l).
Proof.
  intros l. induction l as [|xo l IH] using rev_ind; [apply finv_init|]. rewrite frun_snoc. unfold fstep. destruct (fexec (frun l) (fst xo) (snd xo)) as [s'|] eqn:E; [|exact IH]. apply (finv_step _ _ _ _ IH E).
Qed.
End FEE.
