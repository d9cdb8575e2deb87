(** What each call of the native coin service changes. *)
From Coq Require Import ZArith List Bool Lia Permutation.
From Coq Require Import ZifyBool.
From Verif Require Import Base L_Base M_JMap L_JMap M_JBmc L_JBmc L_JSum M_Ncs S_Ncs L_Ncs.
Import ListNotations.
Open Scope Z_scope.

(** * The token contract keeps its books *)
Record tokinv (s : ncs) : Prop := TokInv {
  ti_pos : forall i a, 0 <= gett (n_tok s) i a;
  ti_sum : forall i, tsum (n_tok s) i = getf (n_sup s) i;
  ti_has : forall i a, 0 < gett (n_tok s) i a -> aget Z.eqb i (n_sup s) <> None;
  ti_nd : NoDup (map fst (n_tok s)) }.
Lemma move_tokinv : forall s from to i v s', move s from to i v = Some s' -> tokinv s -> tokinv s'.
Proof.
  intros s from to i v s' E [P S H ND]. unfold move in E. destruct ((v <? 0) || (tokOf s i from <? v)) eqn:EV; [discriminate|]. injection E as <-.
  assert (HV : 0 <= v) by lia. assert (HF : v <= gett (n_tok s) i from) by (change (gett (n_tok s) i from) with (tokOf s i from); lia). clear EV.
  split; [intros j|intros j|intros j|cbn [putTok set_tok set_sup n_tok]; repeat apply (aput_nodup zz_eqb zz_key); exact ND]; cbn [putTok set_tok n_tok n_sup].
  - intros a. rewrite gett_put. change (tokOf (putTok s i from (tokOf s i from - v)) i to) with (gett (aput zz_eqb (i, from) (gett (n_tok s) i from - v) (n_tok s)) i to). rewrite !gett_put. change (tokOf s i from) with (gett (n_tok s) i from).
    pose proof (P i to). pose proof (P j a). destruct (zz_eqb (i, to) (j, a)), (zz_eqb (i, from) (i, to)), (zz_eqb (i, from) (j, a)); lia.
  - rewrite !tsum_put. change (tokOf (putTok s i from (tokOf s i from - v)) i to) with (gett (aput zz_eqb (i, from) (gett (n_tok s) i from - v) (n_tok s)) i to). change (tokOf s i from) with (gett (n_tok s) i from). rewrite <- S. destruct (i =? j); lia.
  - intros a. rewrite gett_put. change (tokOf (putTok s i from (tokOf s i from - v)) i to) with (gett (aput zz_eqb (i, from) (gett (n_tok s) i from - v) (n_tok s)) i to). change (tokOf s i from) with (gett (n_tok s) i from). rewrite !gett_put.
    destruct (zz_eqb (i, to) (j, a)) eqn:E1.
    + apply zz_key in E1. injection E1 as <- <-. intros HP. destruct (zz_eqb (i, from) (i, to)) eqn:E2; [apply zz_key in E2; injection E2 as <-; apply (H i from); lia|].
      destruct (Z.eq_dec v 0) as [->|NZ]; [apply (H i to); lia|apply (H i from); lia].
    + destruct (zz_eqb (i, from) (j, a)) eqn:E2; [apply zz_key in E2; injection E2 as <- <-; intros HP; apply (H i from); lia|apply H].
Qed.
Lemma moveAll_tokinv : forall l s from to s', moveAll s from to l = Some s' -> tokinv s -> tokinv s'.
Proof.
  induction l as [|[i v] l IH]; intros s from to s' E T; cbn [moveAll] in E; [congruence|]. destruct (move s from to i v) as [s1|] eqn:E1; [|discriminate]. cbn [nbind] in E.
  eapply IH; [exact E|]. eapply move_tokinv; eauto.
Qed.
Lemma mintAll_tokinv : forall l s to s', mintAll s to l = Some s' -> tokinv s -> tokinv s'.
Proof.
  induction l as [|[i v] l IH]; intros s to s' E T; cbn [mintAll] in E; [congruence|]. unfold mintOne in E. destruct (v <=? 0) eqn:EV; [discriminate|]. cbn [nbind] in E. eapply IH; [exact E|]. clear E. destruct T as [P S H ND].
  split; [intros j|intros j|intros j|cbn [putTok set_tok set_sup n_tok]; repeat apply (aput_nodup zz_eqb zz_key); exact ND]; cbn [putTok set_tok set_sup n_tok n_sup]; change (tokOf (set_sup s (aput Z.eqb i (supOf s i + v) (n_sup s))) i to) with (gett (n_tok s) i to); change (supOf s i) with (getf (n_sup s) i).
  - intros a. rewrite gett_put. pose proof (P i to). pose proof (P j a). destruct (zz_eqb (i, to) (j, a)); lia.
  - rewrite tsum_put, getf_put, S. destruct (Z.eqb_spec i j) as [<-|N]; lia.
  - intros a. rewrite gett_put. destruct (Z.eq_dec i j) as [<-|N]; [intros _; rewrite (aput_same Z.eqb z_key); discriminate|]. rewrite (aput_other Z.eqb z_key) by congruence. unfold zz_eqb. cbn [fst snd]. replace (i =? j) with false by lia. cbn [andb]. apply H.
Qed.
Lemma burnAll_tokinv : forall l s from s', burnAll s from l = Some s' -> tokinv s -> tokinv s'.
Proof.
  induction l as [|[i v] l IH]; intros s from s' E T; cbn [burnAll] in E; [congruence|]. unfold burnOne in E. destruct (v <=? 0) eqn:EV; [discriminate|]. destruct (aget Z.eqb i (n_sup s)) as [w|] eqn:EW; [|discriminate].
  change (tokOf (set_sup s (aput Z.eqb i (supOf s i - v) (n_sup s))) i from) with (gett (n_tok s) i from) in E. destruct (gett (n_tok s) i from <? v) eqn:ET; [discriminate|]. cbn [nbind] in E. eapply IH; [exact E|]. clear E. destruct T as [P S H ND].
  split; [intros j|intros j|intros j|cbn [putTok set_tok set_sup n_tok]; repeat apply (aput_nodup zz_eqb zz_key); exact ND]; cbn [putTok set_tok set_sup n_tok n_sup]; change (supOf s i) with (getf (n_sup s) i).
  - intros a. rewrite gett_put. pose proof (P i from). pose proof (P j a). destruct (zz_eqb (i, from) (j, a)); lia.
  - rewrite tsum_put, getf_put, S. destruct (Z.eqb_spec i j) as [<-|N]; lia.
  - intros a. rewrite gett_put. destruct (Z.eq_dec i j) as [<-|N]; [intros _; rewrite (aput_same Z.eqb z_key); discriminate|]. rewrite (aput_other Z.eqb z_key) by congruence. unfold zz_eqb. cbn [fst snd]. replace (i =? j) with false by lia. cbn [andb]. apply H.
Qed.

(** * Locking, settling, giving back *)
Definition fee_rule (ratio v fee : Z) : Prop := fee = (if 0 <? ratio then Z.max 1 (v * ratio / FEE_DENOMINATOR) else v * ratio / FEE_DENOMINATOR).
Definition charged (ratio : Z) (p : Z * Z) (d : detail) : Prop := d_coin d = fst p /\ d_amount d + d_fee d = snd p /\ 1 <= d_amount d /\ (0 <= ratio -> 0 <= snd p -> 0 <= d_fee d /\ fee_rule ratio (snd p) (d_fee d)).
Lemma newDetail_spec : forall c v r d, newDetail c v r = Some d -> charged r (c, v) d.
Proof.
  intros c v r d E. unfold newDetail in E. cbv zeta in E. match type of E with (if ?x then _ else _) = _ => destruct x eqn:EX; [discriminate|] end. injection E as <-. unfold charged. cbn [d_coin d_amount d_fee fst snd].
  repeat split; try lia. { intros. assert (0 <= Z.quot (v * r) FEE_DENOMINATOR) by (apply Z.quot_pos; [nia|reflexivity]). destruct ((0 <? r) && (Z.quot (v * r) FEE_DENOMINATOR =? 0)); lia. }
  unfold fee_rule. assert (HN : 0 <= v * r) by nia. rewrite <- (Z.quot_div_nonneg (v * r) FEE_DENOMINATOR) by (try exact HN; reflexivity). assert (0 <= Z.quot (v * r) FEE_DENOMINATOR) by (apply Z.quot_pos; [nia|reflexivity]).
  destruct (0 <? r), (Z.quot (v * r) FEE_DENOMINATOR =? 0) eqn:EQ; cbn [andb]; lia.
Qed.
Lemma lockAll_spec : forall l s o r s' ds, lockAll s o r l = Some (s', ds) -> exists b', s' = set_bal s b' /\ booked o (fun c => vsum c l) (fun _ => 0) (n_bal s) b' /\ Forall2 (charged r) l ds.
Proof.
  induction l as [|[c v] l IH]; intros s o r s' ds E; cbn [lockAll] in E.
  - injection E as <- <-. exists (n_bal s). split; [destruct s; reflexivity|]. split; [|constructor]. eapply booked_ext; [| |apply booked_refl]; intros; reflexivity.
  - destruct (newDetail c v r) as [d|] eqn:ED; [|discriminate]. cbn [nbind] in E. destruct (lockAll (lock s c o v) o r l) as [[s1 ds1]|] eqn:EL; [|discriminate]. cbn [nbind fst snd] in E. injection E as <- <-.
    apply IH in EL as (b' & -> & BK & F2). exists b'. split; [reflexivity|]. split; [|constructor; [apply newDetail_spec, ED|exact F2]].
    unfold lock, setBalance in BK. cbn [set_bal n_bal] in BK. pose proof (booked_put (n_bal s) c o (fst (getBalance s c o) + v, snd (getBalance s c o))) as B0. eapply booked_ext; [| |exact (booked_trans _ _ _ _ _ _ _ _ B0 BK)]; intros k; cbn [fst snd]; change (getBalance s c o) with (getb (n_bal s) c o); rewrite ?vsum_cons; destruct (c =? k); lia.
Qed.
Lemma charged_value : forall r l ds, Forall2 (charged r) l ds -> forall c, vsum c l = value_of c ds.
Proof.
  intros r l ds F c. induction F as [|[k v] d l ds H F IH]; [reflexivity|]. rewrite vsum_cons, IH. unfold value_of. rewrite sum_cons. destruct H as (E1 & E2 & _). cbn [fst snd] in *. rewrite E1. destruct (k =? c); lia.
Qed.
Definition coin_ok (name : Z) (s : ncs) (d : detail) : Prop := d_coin d = name \/ mem (d_coin d) (n_reg s) = true.
Definition detail_ok (name : Z) (s : ncs) (d : detail) : Prop := coin_ok name s d /\ 1 <= d_amount d /\ 0 <= d_fee d.
Lemma value_cons : forall c d ds, value_of c (d :: ds) = (if d_coin d =? c then d_amount d + d_fee d else 0) + value_of c ds.
Proof. reflexivity. Qed.
Lemma fee_cons : forall c d ds, fee_of c (d :: ds) = (if d_coin d =? c then d_fee d else 0) + fee_of c ds.
Proof. reflexivity. Qed.
Lemma net_cons : forall c d ds, net_of c (d :: ds) = (if d_coin d =? c then d_amount d else 0) + net_of c ds.
Proof. reflexivity. Qed.
Lemma value_split : forall c ds, value_of c ds = net_of c ds + fee_of c ds.
Proof. intros c ds. induction ds as [|d ds IH]; [reflexivity|]. rewrite value_cons, net_cons, fee_cons, IH. destruct (d_coin d =? c); lia. Qed.
Lemma details_nonneg : forall name s ds, Forall (detail_ok name s) ds -> forall c, 0 <= net_of c ds /\ 0 <= fee_of c ds.
Proof. intros name s ds F c. induction F as [|d ds (A & B & C) F IH]; [cbn; lia|]. rewrite net_cons, fee_cons. destruct (d_coin d =? c); lia. Qed.

Lemma settle_spec : forall name ds s o s', settle name s o ds = Some s' ->
  exists b' f', s' = set_nfee (set_bal s b') f' /\ booked o (fun c => - value_of c ds) (fun _ => 0) (n_bal s) b' /\ (forall c, getf f' c = getf (n_fee s) c + fee_of c ds) /\ Forall (coin_ok name s) ds.
Proof.
  intros name. induction ds as [|d ds IH]; intros s o s' E; cbn [settle] in E.
  - injection E as <-. exists (n_bal s), (n_fee s). split; [destruct s; reflexivity|]. split; [eapply booked_ext; [| |apply booked_refl]; intros; reflexivity|]. split; [intros; cbn; lia|constructor].
  - destruct ((d_coin d =? name) || mem (d_coin d) (n_reg s)) eqn:EC; [|discriminate]. apply IH in E as (b' & f' & -> & BK & FF & FC). exists b', f'. split; [reflexivity|]. cbn [addFee unlock setBalance set_nfee set_bal n_bal n_fee n_reg] in *. split; [|split].
    + pose proof (booked_put (n_bal s) (d_coin d) o (fst (getBalance s (d_coin d) o) - (d_amount d + d_fee d), snd (getBalance s (d_coin d) o))) as B0. eapply booked_ext; [| |exact (booked_trans _ _ _ _ _ _ _ _ B0 BK)]; intros k; cbn [fst snd]; change (getBalance s (d_coin d) o) with (getb (n_bal s) (d_coin d) o); rewrite ?value_cons; destruct (d_coin d =? k); lia.
    + intros c. rewrite FF, getf_put, fee_cons. change (getFee (unlock s (d_coin d) o (d_amount d + d_fee d)) (d_coin d)) with (getf (n_fee s) (d_coin d)). destruct (Z.eqb_spec (d_coin d) c) as [<-|N]; lia.
    + constructor; [unfold coin_ok; destruct (mem (d_coin d) (n_reg s)); [right; reflexivity|left; lia]|exact FC].
Qed.
Lemma settle_works : forall name ds s o, Forall (coin_ok name s) ds -> exists s', settle name s o ds = Some s'.
Proof.
  intros name. induction ds as [|d ds IH]; intros s o F; [exists s; reflexivity|]. apply Forall_cons_iff in F as [HD F]. cbn [settle]. replace ((d_coin d =? name) || mem (d_coin d) (n_reg s)) with true by (destruct HD as [HD|HD]; rewrite HD; [rewrite Z.eqb_refl; reflexivity|rewrite orb_true_r; reflexivity]).
  apply IH. exact F.
Qed.
Lemma giveBack_spec : forall self name ds s o s', o <> self -> giveBack self name s o ds = Some s' ->
  exists b', s' = set_bal s b' /\ booked o (fun c => - value_of c ds) (fun c => value_of c ds) (n_bal s) b'.
Proof.
  intros self name. induction ds as [|d ds IH]; intros s o s' NE E; cbn [giveBack] in E.
  - injection E as <-. exists (n_bal s). split; [destruct s; reflexivity|]. eapply booked_ext; [| |apply booked_refl]; intros; reflexivity.
  - destruct ((d_coin d =? name) || mem (d_coin d) (n_reg s)) eqn:EC; [|discriminate]. apply IH in E as (b' & -> & BK); [|exact NE]. exists b'. split; [reflexivity|]. unfold refund, setBalance in BK. cbn [set_bal n_bal] in BK. replace (o =? self) with false in BK by lia.
    pose proof (booked_put (n_bal s) (d_coin d) o (fst (getBalance s (d_coin d) o) - (d_amount d + d_fee d), snd (getBalance s (d_coin d) o) + (d_amount d + d_fee d))) as B0. eapply booked_ext; [| |exact (booked_trans _ _ _ _ _ _ _ _ B0 BK)]; intros k; cbn [fst snd]; change (getBalance s (d_coin d) o) with (getb (n_bal s) (d_coin d) o); rewrite ?value_cons; destruct (d_coin d =? k); lia.
Qed.
Lemma giveBack_works : forall self name ds s o, Forall (coin_ok name s) ds -> exists s', giveBack self name s o ds = Some s'.
Proof.
  intros self name. induction ds as [|d ds IH]; intros s o F; [exists s; reflexivity|]. apply Forall_cons_iff in F as [HD F]. cbn [giveBack]. replace ((d_coin d =? name) || mem (d_coin d) (n_reg s)) with true by (destruct HD as [HD|HD]; rewrite HD; [rewrite Z.eqb_refl; reflexivity|rewrite orb_true_r; reflexivity]).
  apply IH. exact F.
Qed.

(** * Effects *)
Section EFF.
Variables self name bmc deployer : Z.
Variable tid : Z -> Z.
Hypothesis TI : forall a b, tid a = tid b -> a = b.

Lemma vsum_tid : forall l c, vsum (tid c) (map (fun p => (tid (fst p), snd p)) l) = vsum c l.
Proof. induction l as [|[k v] l IH]; intros c; [reflexivity|]. cbn [map fst snd]. rewrite !vsum_cons, IH. destruct (Z.eqb_spec k c) as [<-|N]; [rewrite Z.eqb_refl; reflexivity|]. destruct (Z.eqb_spec (tid k) (tid c)) as [X|X]; [apply TI in X; congruence|reflexivity]. Qed.
Lemma vsum_hit : forall i l, vsum i l = 0 \/ exists p, In p l /\ fst p = i.
Proof. intros i l. induction l as [|[k v] l IH]; [left; reflexivity|]. rewrite vsum_cons. destruct (Z.eqb_spec k i) as [<-|N]; [right; exists (k, v); split; [left; reflexivity|reflexivity]|]. destruct IH as [IH|(p & HI & X)]; [left; lia|right; exists p; split; [right; exact HI|exact X]]. Qed.
Lemma burn_list : forall ds c, c <> name -> vsum (tid c) (map (fun d => (tid (d_coin d), d_amount d)) (filter (fun d => negb (d_coin d =? name)) ds)) = net_of c ds.
Proof.
  induction ds as [|d ds IH]; intros c N; [reflexivity|]. cbn [filter]. rewrite net_cons. destruct (Z.eqb_spec (d_coin d) name) as [E|NE]; cbn [negb].
  - rewrite IH by exact N. replace (d_coin d =? c) with false by lia. reflexivity.
  - cbn [map]. rewrite vsum_cons, IH by exact N. destruct (Z.eqb_spec (d_coin d) c) as [->|N2]; [rewrite Z.eqb_refl; reflexivity|]. destruct (Z.eqb_spec (tid (d_coin d)) (tid c)) as [X|X]; [apply TI in X; congruence|reflexivity].
Qed.

(** a transfer of the values [l] is started *)
Record eff_start (s : ncs) (o : Z) (to : btpaddr) (l : list (Z * Z)) (ds : list detail) (s' : ncs) : Prop := EffStart {
  es_l : Forall2 (charged (n_ratio s)) l ds;
  es_ok : Forall (fun p => (fst p = name \/ mem (fst p) (n_reg s) = true) /\ 0 <= snd p) l;
  es_bal : booked o (fun c => value_of c ds) (fun _ => 0) (n_bal s) (n_bal s');
  es_sn : n_sn s' = n_sn s + 1;
  es_tx : n_tx s' = aput Z.eqb (n_sn s + 1) (NTx o to ds) (n_tx s);
  es_out : n_out s' = n_out s ++ [NSend (b_net to) (n_sn s + 1) (BRequest (b_acc to) (Some (map (fun d => Asset (d_coin d) (Some (d_amount d))) ds))); NStart o to (n_sn s + 1) ds];
  es_coins : n_coins s' = n_coins s + value_of name ds;
  es_tok : forall c, c <> name -> gett (n_tok s') (tid c) self = gett (n_tok s) (tid c) self + value_of c ds;
  es_own : forall c, c <> name -> gett (n_tok s') (tid c) o = gett (n_tok s) (tid c) o - value_of c ds;
  es_other : forall i a, a <> self -> a <> o -> gett (n_tok s') i a = gett (n_tok s) i a;
  es_tinv : tokinv s -> tokinv s';
  es_fee : n_fee s' = n_fee s; es_reg : n_reg s' = n_reg s; es_ratio : n_ratio s' = n_ratio s; es_owners : n_owners s' = n_owners s; es_sup : n_sup s' = n_sup s }.
(** a transaction ends *)
Record eff_end (s : ncs) (sn : Z) (t : ntx) (code : Z) (s' : ncs) : Prop := EffEnd {
  ee_get : aget Z.eqb sn (n_tx s) = Some t;
  ee_bal : booked (t_from t) (fun c => - value_of c (t_assets t)) (fun c => if code =? RC_OK then 0 else value_of c (t_assets t)) (n_bal s) (n_bal s');
  ee_tx : n_tx s' = adel Z.eqb sn (n_tx s);
  ee_out : n_out s' = n_out s ++ [NEnd (t_from t) sn code];
  ee_fee : forall c, getf (n_fee s') c = getf (n_fee s) c + (if code =? RC_OK then fee_of c (t_assets t) else 0);
  ee_tok : forall c, c <> name -> gett (n_tok s') (tid c) self = gett (n_tok s) (tid c) self - (if code =? RC_OK then net_of c (t_assets t) else 0);
  ee_other : forall i a, a <> self -> gett (n_tok s') i a = gett (n_tok s) i a;
  ee_sup : forall c, c <> name -> getf (n_sup s') (tid c) = getf (n_sup s) (tid c) - (if code =? RC_OK then net_of c (t_assets t) else 0);
  ee_tinv : tokinv s -> tokinv s';
  ee_coins : n_coins s' = n_coins s; ee_sn : n_sn s' = n_sn s; ee_reg : n_reg s' = n_reg s; ee_ratio : n_ratio s' = n_ratio s; ee_owners : n_owners s' = n_owners s }.
(** a request is carried out: [v] native coins (0: none) and minted coins [ms] *)
Record eff_request (s : ncs) (from sn a : Z) (l : list asset) (nv : option Z) (ms : list (Z * Z)) (s' : ncs) : Prop := EffRequest {
  er_sort : sortAssets name (n_reg s) l = Some (ms, nv);
  er_enough : match nv with Some v => v <= n_coins s | None => True end;
  er_coins : n_coins s' = n_coins s - match nv with Some v => v | None => 0 end;
  er_out : n_out s' = n_out s ++ (match nv with Some v => [NPay a v] | None => [] end) ++ [NSend from sn (BResponse RC_OK)];
  er_own : forall c, gett (n_tok s') (tid c) a = gett (n_tok s) (tid c) a + vsum c ms;
  er_other : forall i a', a' <> a -> gett (n_tok s') i a' = gett (n_tok s) i a';
  er_sup : forall c, getf (n_sup s') (tid c) = getf (n_sup s) (tid c) + vsum c ms;
  er_up : forall i a', gett (n_tok s) i a' <= gett (n_tok s') i a';
  er_tinv : tokinv s -> tokinv s';
  er_bal : n_bal s' = n_bal s; er_fee : n_fee s' = n_fee s; er_tx : n_tx s' = n_tx s; er_sn : n_sn s' = n_sn s; er_reg : n_reg s' = n_reg s; er_ratio : n_ratio s' = n_ratio s; er_owners : n_owners s' = n_owners s }.
(** an owner takes back a refund *)
Record eff_reclaim (s : ncs) (o c v : Z) (s' : ncs) : Prop := EffReclaim {
  ec_v : 0 < v <= snd (getb (n_bal s) c o);
  ec_bal : booked o (fun _ => 0) (fun k => if c =? k then - v else 0) (n_bal s) (n_bal s');
  ec_coins : n_coins s' = n_coins s - (if c =? name then v else 0);
  ec_enough : c = name -> v <= n_coins s;
  ec_out : n_out s' = n_out s ++ [NReclaim o c v];
  ec_tok : forall k, k <> name -> gett (n_tok s') (tid k) self = gett (n_tok s) (tid k) self - (if c =? k then v else 0);
  ec_own : forall k, k <> name -> gett (n_tok s') (tid k) o = gett (n_tok s) (tid k) o + (if c =? k then v else 0);
  ec_up : forall i a', a' <> self -> gett (n_tok s) i a' <= gett (n_tok s') i a';
  ec_tinv : tokinv s -> tokinv s';
  ec_fee : n_fee s' = n_fee s; ec_tx : n_tx s' = n_tx s; ec_sn : n_sn s' = n_sn s; ec_reg : n_reg s' = n_reg s; ec_ratio : n_ratio s' = n_ratio s; ec_owners : n_owners s' = n_owners s; ec_sup : n_sup s' = n_sup s }.
(** nothing about money, except that others move tokens among themselves or to the service *)
Record eff_quiet (s : ncs) (s' : ncs) : Prop := EffQuiet {
  eq_reg : forall c, mem c (n_reg s) = true -> mem c (n_reg s') = true;
  eq_name : mem name (n_reg s) = false -> mem name (n_reg s') = false;
  eq_out : exists q, n_out s' = n_out s ++ q /\ forall e, In e q -> match e with NSend _ _ BUnknown | NUnknownResponse _ _ => True | _ => False end;
  eq_tok : forall i, gett (n_tok s) i self <= gett (n_tok s') i self;
  eq_tinv : tokinv s -> tokinv s';
  eq_ratio : 1 <= n_ratio s < FEE_DENOMINATOR -> 1 <= n_ratio s' < FEE_DENOMINATOR;
  eq_bal : n_bal s' = n_bal s; eq_fee : n_fee s' = n_fee s; eq_tx : n_tx s' = n_tx s; eq_sn : n_sn s' = n_sn s; eq_coins : n_coins s' = n_coins s; eq_sup : n_sup s' = n_sup s }.
Inductive effect (s : ncs) : nop -> ncs -> Prop :=
| Ef_quiet : forall o s', match o with Register _ _ | SetFeeRatio _ _ | NAddOwner _ _ | NRemoveOwner _ _ | MoveTokens _ _ _ _ => True | HandleMessage c _ _ _ | HandleError c _ => c = bmc | _ => False end -> eff_quiet s s' -> effect s o s'
| Ef_start : forall o owner to l ds s',
    match o with
    | TransferNative c v t => owner = c /\ to = t /\ l = [(name, v)]
    | Transfer c n v t => owner = c /\ to = t /\ l = [(n, v)]
    | TransferBatch c cs vs v t => owner = c /\ to = t /\ l = combine cs vs ++ (if 0 <? v then [(name, v)] else [])
    | _ => False
    end -> eff_start s owner to l ds s' -> effect s o s'
| Ef_end : forall o sn t code s', match o with HandleMessage c _ k (Some (BResponse code')) => c = bmc /\ k = sn /\ code' = code | HandleError c k => c = bmc /\ k = sn /\ code = RC_ERR | _ => False end -> eff_end s sn t code s' -> effect s o s'
| Ef_request : forall from sn a l nv ms s', eff_request s from sn a l nv ms s' -> effect s (HandleMessage bmc from sn (Some (BRequest (Some a) (Some l)))) s'
| Ef_reclaim : forall c n v s', eff_reclaim s c n v s' -> effect s (Reclaim c n v) s'.

Lemma sendRequest_spec : forall s0 s x o to l s', o <> self -> sendRequest self s x o to l = Some s' ->
  n_ratio s0 = n_ratio s -> n_bal s = n_bal s0 -> n_sn s = n_sn s0 -> n_tx s = n_tx s0 -> n_out s = n_out s0 -> n_fee s = n_fee s0 -> n_reg s = n_reg s0 -> n_owners s = n_owners s0 -> n_sup s = n_sup s0 ->
  n_coins s = n_coins s0 + vsum name l ->
  (forall c, c <> name -> gett (n_tok s) (tid c) self = gett (n_tok s0) (tid c) self + vsum c l) ->
  (forall c, c <> name -> gett (n_tok s) (tid c) o = gett (n_tok s0) (tid c) o - vsum c l) ->
  (forall i a, a <> self -> a <> o -> gett (n_tok s) i a = gett (n_tok s0) i a) -> (tokinv s0 -> tokinv s) -> Forall (fun p => (fst p = name \/ mem (fst p) (n_reg s0) = true) /\ 0 <= snd p) l ->
  exists ds, eff_start s0 o to l ds s'.
Proof.
  intros s0 s x o to l s' NE E HR HB HS HT HO HF HG HW HP HC HK1 HK2 HK3 HI HL. unfold sendRequest in E. replace (o =? self) with false in E by lia. destruct (lockAll s o (n_ratio s) l) as [[s1 ds]|] eqn:EL; [|discriminate]. cbn [nbind] in E. cbv zeta in E.
  apply lockAll_spec in EL as (b' & -> & BK & F2). unfold sendBmc in E. destruct (x_bmc x); [|discriminate]. cbn [nbind] in E. injection E as <-. exists ds. pose proof (charged_value _ _ _ F2) as CV. cbn [set_bal set_nsn set_tx emitn n_sn n_tx n_out]. split; cbn [n_bal n_sn n_tx n_out n_coins n_tok n_fee n_reg n_ratio n_owners n_sup emitn set_tx set_nsn set_bal]; auto.
  - rewrite HR. exact F2.
  - rewrite <- HB. eapply booked_ext; [| |exact BK]; intros; [apply CV|reflexivity].
  - rewrite HS. reflexivity.
  - rewrite HS, HT. reflexivity.
  - rewrite HO, HS, <- app_assoc. reflexivity.
  - rewrite HC, CV. reflexivity.
  - intros c N. rewrite HK1, CV by exact N. reflexivity.
  - intros c N. rewrite HK2, CV by exact N. reflexivity.
  - intros T. destruct (HI T) as [A B C N]. split; cbn [n_tok n_sup]; assumption.
Qed.
Lemma tokinv_coins : forall s v, tokinv s -> tokinv (set_coins s v).
Proof. intros s v [A B C N]. split; assumption. Qed.
Lemma tokinv_bal : forall s v, tokinv s -> tokinv (set_bal s v).
Proof. intros s v [A B C N]. split; assumption. Qed.
Lemma tokinv_fields : forall s s', n_tok s' = n_tok s -> n_sup s' = n_sup s -> tokinv s -> tokinv s'.
Proof. intros s s' E1 E2 [A B C N]. split; rewrite ?E1, ?E2; assumption. Qed.
Lemma moved_fields : forall from to d s s', moved from to d s s' -> s' = set_tok s (n_tok s').
Proof. intros. apply H. Qed.
Lemma move_moved : forall s from to i v s', from <> to -> move s from to i v = Some s' -> moved from to (fun j => if i =? j then v else 0) s s' /\ 0 <= v.
Proof.
  intros s from to i v s' NE E. assert (E1 : moveAll s from to [(i, v)] = Some s') by (cbn [moveAll]; rewrite E; reflexivity). apply moveAll_spec in E1 as [[A B C D P Q F] PL]; [|exact NE]. apply Forall_cons_iff in PL as [PV _]. cbn [snd] in PV. split; [|exact PV].
  assert (VV : forall j, vsum j [(i, v)] = if i =? j then v else 0) by (intros j; rewrite vsum_cons; change (vsum j []) with 0; lia).
  split; intros; rewrite <- ?VV; auto.
Qed.

Lemma in_combine_fst : forall (cs vs : list Z) p, In p (combine cs vs) -> In (fst p) cs /\ In (snd p) vs.
Proof. intros cs vs [a b] H. split; [eapply in_combine_l|eapply in_combine_r]; exact H. Qed.

Lemma handleResponse_spec : forall s x sn code s', (forall t, aget Z.eqb sn (n_tx s) = Some t -> t_from t <> self) -> handleResponse self name tid s x sn code = Some s' ->
  (s' = s /\ aget Z.eqb sn (n_tx s) = None) \/ exists t, eff_end s sn t code s'.
Proof.
  intros s x sn code s' HN E. unfold handleResponse in E. destruct (aget Z.eqb sn (n_tx s)) as [t|] eqn:ET; [|left; split; congruence]. right. exists t. specialize (HN t eq_refl).
  destruct (code =? RC_OK) eqn:EC.
  - destruct (settle name s (t_from t) (t_assets t)) as [s1|] eqn:ES; [|discriminate]. cbn [nbind] in E. apply settle_spec in ES as (b' & f' & -> & BK & FF & FC).
    assert (HB : exists s2, burnAll (set_nfee (set_bal s b') f') self (map (fun d => (tid (d_coin d), d_amount d)) (filter (fun d => negb (d_coin d =? name)) (t_assets t))) = Some s2 /\ s' = emitn (set_tx s2 (adel Z.eqb sn (n_tx s2))) (NEnd (t_from t) sn code)).
    { destruct (filter (fun d => negb (d_coin d =? name)) (t_assets t)) as [|d ds] eqn:EF; [cbn [nbind] in E; injection E as <-; eexists; split; reflexivity|]. destruct (x_token x); [|discriminate]. destruct (burnAll (set_nfee (set_bal s b') f') self (map (fun d0 => (tid (d_coin d0), d_amount d0)) (d :: ds))) as [s2|]; [|discriminate]. cbn [nbind] in E. injection E as <-. eexists; split; reflexivity. }
    destruct HB as (s2 & EB & ->). pose proof (burnAll_tokinv _ _ _ _ EB) as TV. apply burnAll_spec in EB as [A B C D F]. cbn [set_nfee set_bal n_tok n_sup] in A, B, C, D. rewrite F. split; cbn [emitn set_tx set_sup set_tok set_nfee set_bal n_bal n_tx n_out n_fee n_tok n_sup n_coins n_sn n_reg n_ratio n_owners]; rewrite ?EC; auto.
    + intros c N. rewrite A, burn_list by exact N. lia.
    + intros c N. rewrite D, burn_list by exact N. lia.
    + intros T. apply (tokinv_fields s2); [reflexivity|reflexivity|]. apply TV. apply (tokinv_fields s); [reflexivity|reflexivity|exact T].
  - cbn [nbind] in E. destruct (giveBack self name s (t_from t) (t_assets t)) as [s1|] eqn:ES; [|discriminate]. cbn [nbind] in E. injection E as <-. apply giveBack_spec in ES as (b' & -> & BK); [|exact HN].
    split; cbn [emitn set_tx set_bal n_bal n_tx n_out n_fee n_tok n_sup n_coins n_sn n_reg n_ratio n_owners]; rewrite ?EC; auto; intros; try lia.
    apply (tokinv_fields s); [reflexivity|reflexivity|assumption].
Qed.
Lemma sort_pos : forall reg l ms nv, sortAssets name reg l = Some (ms, nv) -> Forall (fun p => mem (fst p) reg = true /\ 1 <= snd p) ms /\ match nv with Some v => 1 <= v | None => True end.
Proof.
  intros reg. induction l as [|a l IH]; intros ms nv E; cbn [sortAssets] in E; [injection E as <- <-; split; [constructor|exact I]|]. destruct (as_amount a) as [v|]; [|discriminate]. destruct (v <? 1) eqn:EV; [discriminate|].
  destruct (mem (as_coin a) reg) eqn:EM.
  - destruct (sortAssets name reg l) as [[ms1 nv1]|] eqn:E1; [|discriminate]. cbn [nbind fst snd] in E. injection E as <- <-. destruct (IH _ _ eq_refl) as [F P]. split; [constructor; [cbn [fst snd]; split; [exact EM|lia]|exact F]|exact P].
  - destruct (as_coin a =? name); [|discriminate]. destruct (sortAssets name reg l) as [[ms1 nv1]|] eqn:E1; [|discriminate]. cbn [nbind fst snd] in E. injection E as <- <-. destruct (IH _ _ eq_refl) as [F P]. split; [exact F|]. destruct nv1; [exact P|lia].
Qed.
Lemma handleRequest_spec : forall s x from sn to l s', handleRequest name tid s x from sn to l = Some s' -> exists a l0 nv ms, to = Some a /\ l = Some l0 /\ eff_request s from sn a l0 nv ms s'.
Proof.
  intros s x from sn to l s' E. unfold handleRequest in E. destruct to as [a|]; [|discriminate]. destruct l as [l|]; [|discriminate]. cbn [nbind] in E. destruct (sortAssets name (n_reg s) l) as [[ms nv]|] eqn:ES; [|discriminate]. cbn [nbind fst snd] in E. exists a, l, nv, ms. split; [reflexivity|]. split; [reflexivity|].
  set (s1 := match nv with Some v => emitn (set_coins s (n_coins s - v)) (NPay a v) | None => s end).
  assert (E1 : match nv with Some v => v <= n_coins s | None => True end /\ nbind (match ms with [] => Some s1 | _ => if x_token x then mintAll s1 a (map (fun m => (tid (fst m), snd m)) ms) else None end) (fun s2 => sendBmc s2 x from sn (BResponse RC_OK)) = Some s').
  { destruct nv as [v|]; subst s1; [|split; [exact I|destruct ms; exact E]]. destruct ((n_coins s <? v) || negb (x_receiver x)) eqn:EN; [discriminate|]. cbn [nbind] in E. split; [lia|destruct ms; exact E]. }
  destruct E1 as [EV E1].
  assert (E2 : exists s2, mintAll s1 a (map (fun m => (tid (fst m), snd m)) ms) = Some s2 /\ s' = emitn s2 (NSend from sn (BResponse RC_OK))).
  { destruct ms as [|m ms]; [exists s1|destruct (x_token x); [|discriminate]; destruct (mintAll s1 a (map (fun m0 => (tid (fst m0), snd m0)) (m :: ms))) as [s2|]; [exists s2|discriminate]]; (split; [reflexivity|]); cbn [nbind] in E1; unfold sendBmc in E1; destruct (x_bmc x); congruence. }
  destruct E2 as (s2 & EM & ->). pose proof (mintAll_tokinv _ _ _ _ EM) as TV. apply mintAll_spec in EM as [[A B C D F] P].
  assert (HT : n_tok s1 = n_tok s /\ n_sup s1 = n_sup s) by (subst s1; destruct nv; split; reflexivity). destruct HT as [HT1 HT2]. rewrite HT1 in A, B, C. rewrite HT2 in D.
  assert (TV2 : tokinv s -> tokinv (emitn s2 (NSend from sn (BResponse RC_OK)))).
  { intros T. apply (tokinv_fields s2); [reflexivity|reflexivity|]. apply TV. apply (tokinv_fields s); assumption. }
  split; auto; try (cbn [emitn n_coins n_out n_bal n_fee n_tx n_sn n_reg n_ratio n_owners]; rewrite F; subst s1; destruct nv; cbn [emitn set_sup set_tok set_coins n_coins n_out n_bal n_fee n_tx n_sn n_reg n_ratio n_owners]; try reflexivity; try lia; rewrite <- ?app_assoc; reflexivity); cbn [emitn n_tok n_sup].
  - intros c. rewrite A, vsum_tid. reflexivity.
  - intros c. rewrite D, vsum_tid. reflexivity.
  - intros i a'. destruct (Z.eq_dec a' a) as [->|N]; [rewrite A|rewrite B by exact N; lia]. assert (0 <= vsum i (map (fun m => (tid (fst m), snd m)) ms)); [|lia]. apply sum_nonneg. intros p HI. rewrite Forall_forall in P. specialize (P p HI). destruct (fst p =? i); lia.
Qed.

Lemma nexec_effect : forall s x o s', (forall sn t, aget Z.eqb sn (n_tx s) = Some t -> t_from t <> self) -> ncaller o <> self -> nexec self name bmc deployer tid s x o = Some s' -> effect s o s'.
Proof.
  intros s x o s' HN HC E. destruct o as [c n|c r|c a|c a|c n v|c v to|c n v to|c cs vs v to|c from sn b|c sn|a b i v]; cbn [nexec ncaller] in E, HC.
  - (* Register *)
    unfold need in E. destruct (nisOwner deployer s c); [|discriminate]. destruct (negb (n =? name) && negb (mem n (n_reg s))) eqn:EN; [|discriminate]. injection E as <-. apply Ef_quiet; [exact I|]. split; cbn [set_reg n_reg n_out n_tok n_ratio n_bal n_fee n_tx n_sn n_coins n_sup]; auto; try reflexivity.
    + intros k Hk. unfold mem in *. rewrite existsb_app, Hk. reflexivity.
    + intros Hk. unfold mem in *. rewrite existsb_app, Hk. cbn [existsb orb]. lia.
    + exists []. rewrite app_nil_r. split; [reflexivity|intros e []].
    + intros T. apply (tokinv_fields s); [reflexivity|reflexivity|exact T].
  - unfold need in E. destruct (nisOwner deployer s c); [|discriminate]. destruct ((1 <=? r) && (r <? FEE_DENOMINATOR)) eqn:ER; [|discriminate]. injection E as <-. apply Ef_quiet; [exact I|]. split; cbn [set_ratio n_reg n_out n_tok n_ratio n_bal n_fee n_tx n_sn n_coins n_sup]; auto; try reflexivity.
    + exists []. rewrite app_nil_r. split; [reflexivity|intros e []].
    + intros T. apply (tokinv_fields s); [reflexivity|reflexivity|exact T].
    + intros _. lia.
  - unfold need in E. destruct (nisOwner deployer s c); [|discriminate]. destruct (negb (a =? deployer) && negb (mem a (n_owners s))) eqn:ER; [|discriminate]. injection E as <-. apply Ef_quiet; [exact I|]. split; cbn [set_nowners n_reg n_out n_tok n_ratio n_bal n_fee n_tx n_sn n_coins n_sup]; auto; try reflexivity.
    + exists []. rewrite app_nil_r. split; [reflexivity|intros e []].
    + intros T. apply (tokinv_fields s); [reflexivity|reflexivity|exact T].
  - unfold need in E. destruct (nisOwner deployer s c); [|discriminate]. destruct (negb (a =? deployer) && mem a (n_owners s)) eqn:ER; [|discriminate]. injection E as <-. apply Ef_quiet; [exact I|]. split; cbn [set_nowners n_reg n_out n_tok n_ratio n_bal n_fee n_tx n_sn n_coins n_sup]; auto; try reflexivity.
    + exists []. rewrite app_nil_r. split; [reflexivity|intros e []].
    + intros T. apply (tokinv_fields s); [reflexivity|reflexivity|exact T].
  - (* Reclaim *)
    unfold need in E. cbv zeta in E. change (getBalance s n c) with (getb (n_bal s) n c) in E. destruct ((0 <? v) && (v <=? snd (getb (n_bal s) n c))) eqn:EV; [|discriminate]. apply Ef_reclaim.
    pose proof (booked_put (n_bal s) n c (fst (getb (n_bal s) n c), snd (getb (n_bal s) n c) - v)) as B0. cbn [fst snd] in B0.
    assert (B1 : booked c (fun _ => 0) (fun k => if n =? k then - v else 0) (n_bal s) (aput zz_eqb (n, c) (fst (getb (n_bal s) n c), snd (getb (n_bal s) n c) - v) (n_bal s))).
    { eapply booked_ext; [| |exact B0]; intros k; cbv beta; destruct (n =? k); lia. }
    destruct (Z.eqb_spec n name) as [->|NN].
    + cbn [setBalance set_bal n_coins] in E. destruct ((v <=? n_coins s) && x_receiver x) eqn:EX; [|discriminate]. injection E as <-.
      split; cbn [emitn setBalance set_coins set_bal n_reg n_out n_tok n_ratio n_bal n_fee n_tx n_sn n_coins n_sup n_owners]; rewrite ?Z.eqb_refl; auto; try lia.
      * intros k N. replace (name =? k) with false by lia. lia.
      * intros k N. replace (name =? k) with false by lia. lia.
      * intros T. apply (tokinv_fields s); [reflexivity|reflexivity|exact T].
    + destruct (x_token x && x_receiver x); [|discriminate]. destruct (move (setBalance s n c (fst (getb (n_bal s) n c), snd (getb (n_bal s) n c) - v)) self c (tid n) v) as [s2|] eqn:EM; [|discriminate]. cbn [nbind] in E. injection E as <-.
      pose proof (move_tokinv _ _ _ _ _ _ EM) as TV. apply move_moved in EM as [[A B C D P Q F] PV]; [|congruence]. cbn [setBalance set_bal n_tok] in A, B, C.
      assert (TE : forall k, (tid n =? tid k) = (n =? k)) by (intros k; destruct (Z.eqb_spec n k) as [<-|NE]; [apply Z.eqb_refl|destruct (Z.eqb_spec (tid n) (tid k)) as [X|X]; [apply TI in X; congruence|reflexivity]]).
      assert (NEQ : (n =? name) = false) by lia. split; try (rewrite F; cbn [emitn setBalance set_tok set_bal n_reg n_out n_tok n_ratio n_bal n_fee n_tx n_sn n_coins n_sup n_owners]; rewrite ?NEQ; solve [auto|lia]); auto; try lia.
      * intros k N. cbn [emitn n_tok]. rewrite A, TE. lia.
      * intros k N. cbn [emitn n_tok]. rewrite B, TE. lia.
      * intros i a' N. cbn [emitn n_tok]. destruct (Z.eq_dec a' c) as [->|N2]; [rewrite B; destruct (tid n =? i); lia|rewrite C by assumption; lia].
      * intros T. apply (tokinv_fields s2); [reflexivity|reflexivity|]. apply TV. apply (tokinv_fields s); [reflexivity|reflexivity|exact T].
  - (* TransferNative *)
    unfold need in E. destruct (0 <? v) eqn:EV; [|discriminate].
    destruct (sendRequest_spec s (set_coins s (n_coins s + v)) x c to [(name, v)] s' HC E) as [ds ES]; try reflexivity; cbn [set_coins n_coins n_tok].
    + rewrite vsum_cons, Z.eqb_refl. change (vsum name []) with 0. lia.
    + intros k N. rewrite vsum_cons. replace (name =? k) with false by lia. change (vsum k []) with 0. lia.
    + intros k N. rewrite vsum_cons. replace (name =? k) with false by lia. change (vsum k []) with 0. lia.
    + apply tokinv_coins.
    + constructor; [|constructor]. cbn [fst snd]. split; [left; reflexivity|lia].
    + eapply Ef_start; [|exact ES]. repeat split; reflexivity.
  - (* Transfer *)
    unfold need in E. destruct ((0 <? v) && negb (n =? name) && mem n (n_reg s) && x_token x) eqn:EV; [|discriminate]. destruct (move s c self (tid n) v) as [s1|] eqn:EM; [|discriminate]. cbn [nbind] in E.
    pose proof (move_tokinv _ _ _ _ _ _ EM) as TV. apply move_moved in EM as [[A B C D P Q F] PV]; [|exact HC].
    assert (TE : forall k, (tid n =? tid k) = (n =? k)) by (intros k; destruct (Z.eqb_spec n k) as [<-|NE]; [apply Z.eqb_refl|destruct (Z.eqb_spec (tid n) (tid k)) as [X|X]; [apply TI in X; congruence|reflexivity]]).
    assert (NN : n <> name) by lia. assert (NM : mem n (n_reg s) = true) by (destruct (mem n (n_reg s)); [reflexivity|rewrite !andb_false_r in EV; discriminate]).
    destruct (sendRequest_spec s s1 x c to [(n, v)] s' HC E) as [ds ES]; try (rewrite F; reflexivity).
    + rewrite F, vsum_cons. replace (n =? name) with false by lia. change (vsum name []) with 0. cbn [set_tok n_coins]. lia.
    + intros k N. rewrite vsum_cons, B, TE. change (vsum k []) with 0. lia.
    + intros k N. rewrite vsum_cons, A, TE. change (vsum k []) with 0. lia.
    + intros i a N1 N2. apply C; assumption.
    + exact TV.
    + constructor; [|constructor]. cbn [fst snd]. split; [right; exact NM|lia].
    + eapply Ef_start; [|exact ES]. repeat split; reflexivity.
  - (* TransferBatch *)
    unfold need in E. match type of E with (if ?x then _ else _) = _ => destruct x eqn:EV; [|discriminate] end. rewrite !andb_true_iff in EV. destruct EV as [[[EL EN] EF] EX]. rewrite forallb_forall in EF.
    destruct (moveAll (set_coins s (n_coins s + v)) c self (map (fun p => (tid (fst p), snd p)) (combine cs vs))) as [s1|] eqn:EM; [|discriminate]. cbn [nbind] in E.
    pose proof (moveAll_tokinv _ _ _ _ _ EM) as TV. apply moveAll_spec in EM as [[A B C D P Q F] PL]; [|exact HC]. cbn [set_coins n_tok] in A, B.
    set (tl := if 0 <? v then [(name, v)] else []) in *.
    assert (V0 : forall k, k <> name -> vsum k tl = 0). { intros k N. subst tl. destruct (0 <? v); [|reflexivity]. rewrite vsum_cons. replace (name =? k) with false by lia. reflexivity. }
    assert (V1 : vsum name (combine cs vs) = 0). { apply sum_zero. intros p HI. apply in_combine_fst in HI as [HI _]. specialize (EF _ HI). replace (fst p =? name) with false by lia. reflexivity. }
    assert (V2 : vsum name tl = v). { subst tl. destruct (0 <? v) eqn:E0; [rewrite vsum_cons, Z.eqb_refl; change (vsum name []) with 0; lia|]. change (vsum name []) with 0. lia. }
    destruct (sendRequest_spec s s1 x c to (combine cs vs ++ tl) s' HC E) as [ds ES]; try (rewrite F; reflexivity).
    + rewrite F, vsum_app, V1, V2. cbn [set_tok set_coins n_coins]. lia.
    + intros k N. rewrite vsum_app, (V0 k N), B, vsum_tid. lia.
    + intros k N. rewrite vsum_app, (V0 k N), A, vsum_tid. lia.
    + intros i a N1 N2. apply C; assumption.
    + intros T. apply TV, tokinv_coins, T.
    + apply Forall_app. split.
      * apply Forall_forall. intros p HI. pose proof (in_combine_fst _ _ _ HI) as [H1 H2]. specialize (EF _ H1). rewrite andb_true_iff in EF. split; [right; tauto|]. rewrite Forall_forall in PL. apply (in_map (fun p => (tid (fst p), snd p))) in HI. apply (PL _ HI).
      * subst tl. destruct (0 <? v) eqn:E0; constructor; [|constructor]. cbn [fst snd]. split; [left; reflexivity|lia].
    + eapply Ef_start; [|exact ES]. repeat split; reflexivity.
  - (* HandleMessage *)
    unfold need in E. destruct (Z.eqb_spec c bmc) as [->|NC]; [|discriminate]. destruct b as [[to l|code| |]|]; cbn [nbind] in E; [| | | |discriminate].
    + apply handleRequest_spec in E as (a & l0 & nv & ms & -> & -> & ER). eapply Ef_request. exact ER.
    + apply handleResponse_spec in E as [[-> EN]|(t & EE)]; [| |intros t ET; eapply HN; exact ET].
      * apply Ef_quiet; [reflexivity|]. split; auto; try reflexivity. exists []. rewrite app_nil_r. split; [reflexivity|intros e []].
      * eapply Ef_end; [|exact EE]. repeat split; reflexivity.
    + injection E as <-. apply Ef_quiet; [reflexivity|]. split; cbn [emitn n_reg n_out n_tok n_ratio n_bal n_fee n_tx n_sn n_coins n_sup]; auto; try reflexivity.
      * eexists. split; [reflexivity|]. intros e [<-|[]]. exact I.
      * intros T. apply (tokinv_fields s); [reflexivity|reflexivity|exact T].
    + unfold sendBmc in E. destruct (x_bmc x); [|discriminate]. injection E as <-. apply Ef_quiet; [reflexivity|]. split; cbn [emitn n_reg n_out n_tok n_ratio n_bal n_fee n_tx n_sn n_coins n_sup]; auto; try reflexivity.
      * eexists. split; [reflexivity|]. intros e [<-|[]]. exact I.
      * intros T. apply (tokinv_fields s); [reflexivity|reflexivity|exact T].
  - (* HandleError *)
    unfold need in E. destruct (Z.eqb_spec c bmc) as [->|NC]; [|discriminate]. apply handleResponse_spec in E as [[-> EN]|(t & EE)]; [| |intros t ET; eapply HN; exact ET].
    + apply Ef_quiet; [reflexivity|]. split; auto; try reflexivity. exists []. rewrite app_nil_r. split; [reflexivity|intros e []].
    + eapply Ef_end; [|exact EE]. repeat split; reflexivity.
  - (* MoveTokens *)
    unfold need in E. destruct (negb (a =? self) && x_token x && x_receiver x); [|discriminate]. pose proof (move_tokinv _ _ _ _ _ _ E) as TV. apply Ef_quiet; [exact I|].
    assert (HF : s' = set_tok s (n_tok s')). { unfold move in E. destruct ((v <? 0) || (tokOf s i a <? v)); [discriminate|]. injection E as <-. reflexivity. }
    assert (HT : forall j, gett (n_tok s) j self <= gett (n_tok s') j self).
    { intros j. destruct (Z.eq_dec a b) as [<-|NE].
      - unfold move in E. destruct ((v <? 0) || (tokOf s i a <? v)); [discriminate|]. injection E as <-. cbn [putTok set_tok n_tok]. rewrite !gett_put. unfold zz_eqb. cbn [fst snd]. replace (a =? self) with false by lia. rewrite andb_false_r. lia.
      - apply move_moved in E as [[A B C D P Q F] PV]; [|exact NE]. destruct (Z.eq_dec self b) as [<-|N2]; [rewrite B; destruct (i =? j); lia|]. rewrite C by congruence. lia. }
    split; try exact TV; try exact HT; rewrite HF; cbn [set_tok n_reg n_out n_ratio n_bal n_fee n_tx n_sn n_coins n_sup]; auto.
    exists []. rewrite app_nil_r. split; [reflexivity|intros e []].
Qed.
End EFF.
