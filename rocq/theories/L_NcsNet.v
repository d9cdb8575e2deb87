(** Native coin services on several networks: the invariant. *)
From Coq Require Import ZArith List Bool Lia Permutation.
From Coq Require Import ZifyBool.
From Verif Require Import Base L_Base M_JMap L_JMap M_JBmc L_JBmc L_JSum M_Ncs S_Ncs L_Ncs L_Ncs2 L_Ncs3 M_NcsNet S_NcsNet.
Import ListNotations.
Open Scope Z_scope.

Lemma mem_in : forall n l, mem n l = true <-> In n l.
Proof. intros n l. unfold mem. rewrite existsb_exists. split; [intros (x & HI & E); assert (n = x) by lia; subst; exact HI|intros HI; exists n; split; [exact HI|lia]]. Qed.
Lemma without_perm : forall {A} k (l : list A) x, nth_error l k = Some x -> Permutation l (x :: without k l).
Proof.
  intros A. induction k as [|k IH]; intros l x E; destruct l as [|y l]; try discriminate; unfold without; cbn [nth_error] in E.
  - injection E as ->. apply Permutation_refl.
  - cbn [firstn skipn app]. etransitivity; [apply perm_skip, (IH l x E)|]. apply perm_swap.
Qed.
Lemma sum_perm : forall {A} (f : A -> Z) a b, Permutation a b -> sumOf f a = sumOf f b.
Proof. intros A f a b P. exact (wsum_perm f a b P). Qed.
Lemma sum_upd : forall (F : Z -> ncs -> Z) st n s nets, NoDup nets -> In n nets -> sumOf (fun k => F k (upd st n s k)) nets = sumOf (fun k => F k (st k)) nets + F n s - F n (st n).
Proof.
  intros F st n s nets. induction nets as [|m nets IH]; intros ND HI; [destruct HI|]. apply NoDup_cons_iff in ND as [NI ND]. rewrite !sum_cons. destruct (Z.eq_dec m n) as [->|N].
  - unfold upd at 1. rewrite Z.eqb_refl. assert (E : sumOf (fun k => F k (upd st n s k)) nets = sumOf (fun k => F k (st k)) nets); [|lia]. apply sum_ext. intros k HK. unfold upd. replace (k =? n) with false; [reflexivity|]. symmetry. apply Z.eqb_neq. intros ->. contradiction.
  - destruct HI as [X|HI]; [congruence|]. rewrite (IH ND HI). unfold upd at 1. replace (m =? n) with false by lia. lia.
Qed.
Lemma sent_app : forall n a q, sent n a (a ++ q) = sent n [] q.
Proof. intros n a q. unfold sent. f_equal. rewrite skipn_app, skipn_all, Nat.sub_diag. reflexivity. Qed.

(** * What a request pays *)
Definition asset_of (d : detail) : asset := Asset (d_coin d) (Some (d_amount d)).
Lemma sort_paid : forall nm reg ds ms nv, mem nm reg = false -> Forall (fun d => 1 <= d_amount d) ds -> sortAssets nm reg (map asset_of ds) = Some (ms, nv) ->
  (forall c, c <> nm -> vsum c ms = net_of c ds) /\ vsum nm ms = 0 /\ match nv with Some v => v | None => 0 end <= net_of nm ds /\ (NoDup (map d_coin ds) -> match nv with Some v => v | None => 0 end = net_of nm ds) /\ (nv = None -> net_of nm ds = 0).
Proof.
  intros nm reg. induction ds as [|d ds IH]; intros ms nv NM FA E; cbn [map sortAssets asset_of as_amount as_coin] in E.
  - injection E as <- <-. repeat split; intros; cbn; lia.
  - apply Forall_cons_iff in FA as [FD FA]. destruct (d_amount d <? 1) eqn:EA; [lia|].
    assert (NN : 0 <= net_of nm ds). { apply sum_nonneg. intros y HI. rewrite Forall_forall in FA. specialize (FA y HI). destruct (d_coin y =? nm); lia. }
    destruct (mem (d_coin d) reg) eqn:EM.
    + destruct (sortAssets nm reg (map asset_of ds)) as [[ms1 nv1]|] eqn:ES; [|discriminate]. cbn [nbind fst snd] in E. injection E as <- <-. destruct (IH _ _ NM FA eq_refl) as (A & B & C & D & G). assert (NE : d_coin d <> nm) by (intros X; rewrite X in EM; congruence).
      rewrite net_cons. replace (d_coin d =? nm) with false by lia. repeat split.
      * intros c N. rewrite vsum_cons, net_cons, A by exact N. reflexivity.
      * rewrite vsum_cons, B. replace (d_coin d =? nm) with false by lia. reflexivity.
      * exact C.
      * intros ND. apply NoDup_cons_iff in ND as [_ ND]. apply D, ND.
      * intros X. rewrite (G X). reflexivity.
    + destruct (d_coin d =? nm) eqn:EN; [|discriminate]. destruct (sortAssets nm reg (map asset_of ds)) as [[ms1 nv1]|] eqn:ES; [|discriminate]. cbn [nbind fst snd] in E. injection E as <- <-. destruct (IH _ _ NM FA eq_refl) as (A & B & C & D & G).
      rewrite net_cons, EN. repeat split.
      * intros c N. rewrite net_cons, A by exact N. replace (d_coin d =? c) with false by lia. reflexivity.
      * exact B.
      * destruct nv1; lia.
      * intros ND. apply NoDup_cons_iff in ND as [NI ND]. destruct nv1 as [w|]; [|rewrite (G eq_refl); lia]. exfalso. specialize (D ND).
        assert (Z0 : net_of nm ds = 0). { apply sum_zero. intros y HI. destruct (Z.eqb_spec (d_coin y) nm) as [X|X]; [|reflexivity]. exfalso. apply NI. replace (d_coin d) with (d_coin y) by lia. apply in_map, HI. }
        apply sort_pos in ES as [_ PW]. lia.
      * destruct nv1; discriminate.
Qed.

Section NET.
Variable nets : list Z.
Variables selfs names bmcs deployers : Z -> Z.
Variable tid : Z -> Z.
Hypothesis ND : NoDup nets.
Hypothesis TI : forall a b, tid a = tid b -> a = b.
Hypothesis BS : forall n, bmcs n <> selfs n.
Variable once : bool.
Local Notation nx := (nx selfs names bmcs deployers tid).

(** what a network adds to the debt in a coin *)
Definition V (n : Z) (s : ncs) (c : Z) : Z := if names n =? c then lsum (n_bal s) c + rsum (n_bal s) c + getf (n_fee s) c - n_coins s else getf (n_sup s) (tid c).
Definition vtotal (w : world) (c : Z) : Z := sumOf (fun n => V n (w_st w n) c) nets.
Definition good (i : item) (t : ntx) : Prop :=
  match i with
  | IMsg _ _ dst (BRequest a l) => dst = b_net (t_to t) /\ a = b_acc (t_to t) /\ l = Some (map asset_of (t_assets t))
  | IMsg _ _ _ (BResponse c) => c = RC_OK
  | IErr _ _ => True
  | _ => False
  end.
Record winv (w : world) : Prop := WInv {
  wi_n : forall n, In n nets -> ninv (selfs n) (names n) tid (w_st w n);
  wi_it : forall i, In i (w_fly w) -> In (fst (transfer_of i)) nets /\ exists t, aget Z.eqb (snd (transfer_of i)) (n_tx (w_st w (fst (transfer_of i)))) = Some t /\ good i t;
  wi_nd : NoDup (map transfer_of (w_fly w));
  wi_all : forall n sn t, In n nets -> aget Z.eqb sn (n_tx (w_st w n)) = Some t -> In (n, sn) (map transfer_of (w_fly w));
  wi_le : forall c, vtotal w c <= answered_under_way w c;
  wi_eq : once = true -> (forall c, vtotal w c = answered_under_way w c) /\ forall n sn t, In n nets -> aget Z.eqb sn (n_tx (w_st w n)) = Some t -> NoDup (map d_coin (t_assets t)) }.

Lemma V_start : forall n s o to l ds s', eff_start (selfs n) (names n) tid s o to l ds s' -> forall c, V n s' c = V n s c.
Proof using. intros n s o to l ds s' Q c. destruct Q. destruct es_bal as [_ _ B3 B4 _]. unfold V. rewrite B3, B4, es_fee, es_coins, es_sup. destruct (Z.eqb_spec (names n) c) as [<-|N]; lia. Qed.
Lemma V_end : forall n s sn t code s', eff_end (selfs n) (names n) tid s sn t code s' -> forall c, V n s' c = V n s c - (if code =? RC_OK then net_of c (t_assets t) else 0).
Proof using.
  intros n s sn t code s' Q c. destruct Q. destruct ee_bal as [_ _ B3 B4 _]. unfold V. destruct (Z.eqb_spec (names n) c) as [<-|N].
  - rewrite B3, B4, ee_fee, ee_coins, value_split. destruct (code =? RC_OK); lia.
  - apply ee_sup. congruence.
Qed.
Lemma V_request : forall n s from sn a l nv ms s', mem (names n) (n_reg s) = false -> eff_request (names n) tid s from sn a l nv ms s' -> forall c, V n s' c = V n s c + (if names n =? c then match nv with Some v => v | None => 0 end else vsum c ms).
Proof using.
  intros n s from sn a l nv ms s' NM Q c. destruct Q. unfold V. rewrite er_bal, er_fee, er_coins. destruct (Z.eqb_spec (names n) c) as [<-|N]; [lia|]. apply er_sup.
Qed.
Lemma V_reclaim : forall n s o k v s', eff_reclaim (selfs n) (names n) tid s o k v s' -> forall c, V n s' c = V n s c.
Proof using. intros n s o k v s' Q c. destruct Q. destruct ec_bal as [_ _ B3 B4 _]. unfold V. rewrite B3, B4, ec_fee, ec_coins, ec_sup. destruct (Z.eqb_spec (names n) c) as [<-|N]; [|reflexivity]. destruct (k =? names n); lia. Qed.
Lemma V_quiet : forall n s s', eff_quiet (selfs n) (names n) s s' -> forall c, V n s' c = V n s c.
Proof using. intros n s s' Q c. destruct Q. unfold V. rewrite eq_bal, eq_fee, eq_coins, eq_sup. reflexivity. Qed.
Lemma vtotal_upd : forall w n s fly c, In n nets -> vtotal (World (upd (w_st w) n s) fly) c = vtotal w c + V n s c - V n (w_st w n) c.
Proof using ND. intros w n s fly c HI. unfold vtotal. cbn [w_st]. apply (sum_upd (fun k x => V k x c)); assumption. Qed.

Lemma upd_same : forall st n s, upd st n s n = s.
Proof using. intros. unfold upd. rewrite Z.eqb_refl. reflexivity. Qed.
Lemma upd_other : forall st n s k, k <> n -> upd st n s k = st k.
Proof using. intros. unfold upd. replace (k =? n) with false by lia. reflexivity. Qed.

(** the state of one network changes, not its transfers, and nothing is sent *)
Lemma winv_same : forall w n s' fly, winv w -> In n nets -> ninv (selfs n) (names n) tid s' -> n_tx s' = n_tx (w_st w n) -> (forall c, V n s' c = V n (w_st w n) c) -> fly = w_fly w -> winv (World (upd (w_st w) n s') fly).
Proof using ND.
  intros w n s' fly [A B C D E F] HI I' ET EV ->.
  assert (TX : forall k, n_tx (upd (w_st w) n s' k) = n_tx (w_st w k)) by (intros k; unfold upd; destruct (Z.eqb_spec k n) as [->|N]; [exact ET|reflexivity]).
  assert (AU : forall c, answered_under_way (World (upd (w_st w) n s') (w_fly w)) c = answered_under_way w c). { intros c. unfold answered_under_way. cbn [w_fly]. apply sum_ext. intros i _. unfold pending_details. cbn [w_st]. rewrite TX. reflexivity. }
  assert (VT : forall c, vtotal (World (upd (w_st w) n s') (w_fly w)) c = vtotal w c) by (intros c; rewrite vtotal_upd, EV by exact HI; lia).
  split; cbn [w_st w_fly]; auto.
  - intros k HK. destruct (Z.eq_dec k n) as [->|N]; [rewrite upd_same; exact I'|rewrite upd_other by exact N; apply A, HK].
  - intros i Hi. rewrite TX. apply B, Hi.
  - intros k sn t HK. rewrite TX. apply D, HK.
  - intros c. rewrite AU, VT. apply E.
  - intros O. destruct (F O) as [F1 F2]. split; [intros c; rewrite AU, VT; apply F1|]. intros k sn t HK. rewrite TX. apply F2, HK.
Qed.
(** a transfer starts *)
Lemma winv_start : forall w n s' o to l ds, winv w -> In n nets -> ninv (selfs n) (names n) tid s' -> eff_start (selfs n) (names n) tid (w_st w n) o to l ds s' -> (once = true -> NoDup (map d_coin ds)) ->
  winv (wput w n s' (w_fly w)).
Proof using ND.
  intros w n s' o to l ds W HI I' Q HO. pose proof (wi_n w W n HI) as I. pose proof (V_start _ _ _ _ _ _ _ Q) as EV. destruct Q. destruct W as [A B C D E F].
  assert (FR : aget Z.eqb (n_sn (w_st w n) + 1) (n_tx (w_st w n)) = None). { destruct (aget Z.eqb (n_sn (w_st w n) + 1) (n_tx (w_st w n))) as [t|] eqn:X; [|reflexivity]. destruct (i_tx _ _ _ _ I _ _ X) as (_ & _ & Y & _). lia. }
  unfold wput. rewrite es_out, sent_app. cbn [sent skipn length flat_map app]. set (sn := n_sn (w_st w n) + 1) in *. fold asset_of. set (it := IMsg n sn (b_net to) (BRequest (b_acc to) (Some (map (fun d : detail => Asset (d_coin d) (Some (d_amount d))) ds)))).
  assert (NI : ~ In (n, sn) (map transfer_of (w_fly w))). { intros HI2. apply in_map_iff in HI2 as (i & EI & HI2). destruct (B i HI2) as (_ & t & X & _). rewrite EI in X. cbn [fst snd] in X. congruence. }
  assert (TX : forall k sn', (k, sn') <> (n, sn) -> aget Z.eqb sn' (n_tx (upd (w_st w) n s' k)) = aget Z.eqb sn' (n_tx (w_st w k))).
  { intros k sn' NE. destruct (Z.eq_dec k n) as [->|N]; [rewrite upd_same, es_tx; apply (aput_other Z.eqb z_key); congruence|rewrite upd_other by exact N; reflexivity]. }
  assert (TO : aget Z.eqb sn (n_tx (upd (w_st w) n s' n)) = Some (NTx o to ds)) by (rewrite upd_same, es_tx; apply (aput_same Z.eqb z_key)).
  assert (NO : forall i, In i (w_fly w) -> transfer_of i <> (n, sn)) by (intros i Hi X; apply NI; rewrite <- X; apply in_map, Hi).
  assert (AU : forall c, answered_under_way (World (upd (w_st w) n s') (w_fly w ++ [it])) c = answered_under_way w c).
  { intros c. unfold answered_under_way. cbn [w_fly]. rewrite sum_app. change (sumOf ?f [it]) with 0. rewrite Z.add_0_r. apply sum_ext. intros i Hi. unfold pending_details. cbn [w_st]. rewrite TX by (rewrite <- surjective_pairing; apply NO, Hi). reflexivity. }
  assert (VT : forall c, vtotal (World (upd (w_st w) n s') (w_fly w ++ [it])) c = vtotal w c) by (intros c; rewrite vtotal_upd, EV by exact HI; lia).
  split; cbn [w_st w_fly].
  - intros k HK. destruct (Z.eq_dec k n) as [->|N]; [rewrite upd_same; exact I'|rewrite upd_other by exact N; apply A, HK].
  - intros i Hi. apply in_app_or in Hi as [Hi|[<-|[]]].
    + destruct (B i Hi) as (B1 & t & B2 & B3). split; [exact B1|]. exists t. rewrite TX by (rewrite <- surjective_pairing; apply NO, Hi). split; assumption.
    + cbn [transfer_of it fst snd]. split; [exact HI|]. exists (NTx o to ds). split; [exact TO|]. repeat split; reflexivity.
  - rewrite map_app. apply nodup_snoc; [exact C|exact NI].
  - intros k sn' t HK X. rewrite map_app. apply in_or_app. destruct (zz_dec (k, sn') (n, sn)) as [EQ|NE]; [right; left; symmetry; exact EQ|left]. rewrite TX in X by exact NE. eapply D; eassumption.
  - intros c. rewrite AU, VT. apply E.
  - intros O. destruct (F O) as [F1 F2]. split; [intros c; rewrite AU, VT; apply F1|]. intros k sn' t HK X. destruct (zz_dec (k, sn') (n, sn)) as [EQ|NE]; [injection EQ as -> ->; rewrite TO in X; injection X as <-; apply HO, O|]. rewrite TX in X by exact NE. eapply F2; eassumption.
Qed.
(** a transfer ends: an answer or an error arrives *)
Lemma winv_end : forall w k i n s' sn t code, winv w -> nth_error (w_fly w) k = Some i -> transfer_of i = (n, sn) -> (is_ok i = true <-> code = RC_OK) -> ninv (selfs n) (names n) tid s' -> eff_end (selfs n) (names n) tid (w_st w n) sn t code s' ->
  winv (wput w n s' (without k (w_fly w))).
Proof using ND.
  intros w k i n s' sn t code W EK ET EC I' Q. pose proof (wi_it w W i (nth_error_In _ _ EK)) as (HI & _). rewrite ET in HI. cbn [fst] in HI. pose proof (wi_n w W n HI) as I. pose proof (V_end _ _ _ _ _ _ Q) as EV. destruct Q. pose proof (without_perm k _ _ EK) as P. destruct W as [A B C D E F].
  unfold wput. rewrite ee_out, sent_app. cbn [sent skipn length flat_map]. rewrite app_nil_r.
  pose proof (Permutation_map transfer_of P) as PM. cbn [map] in PM. rewrite ET in PM. pose proof (Permutation_NoDup PM C) as C'. apply NoDup_cons_iff in C' as [NI C'].
  assert (IN : forall j, In j (without k (w_fly w)) -> In j (w_fly w)) by (intros j Hj; apply (Permutation_in _ (Permutation_sym P)); right; exact Hj).
  assert (NO : forall j, In j (without k (w_fly w)) -> transfer_of j <> (n, sn)) by (intros j Hj X; apply NI; rewrite <- X; apply in_map, Hj).
  assert (TX : forall m sn', (m, sn') <> (n, sn) -> aget Z.eqb sn' (n_tx (upd (w_st w) n s' m)) = aget Z.eqb sn' (n_tx (w_st w m))).
  { intros m sn' NE. destruct (Z.eq_dec m n) as [->|N]; [rewrite upd_same, ee_tx; apply (adel_other Z.eqb z_key); [apply (i_nd _ _ _ _ I)|congruence]|rewrite upd_other by exact N; reflexivity]. }
  assert (TO : aget Z.eqb sn (n_tx (upd (w_st w) n s' n)) = None) by (rewrite upd_same, ee_tx; apply (adel_same Z.eqb z_key), (i_nd _ _ _ _ I)).
  assert (AU : forall c, answered_under_way (World (upd (w_st w) n s') (without k (w_fly w))) c = answered_under_way w c - (if code =? RC_OK then net_of c (t_assets t) else 0)).
  { intros c. unfold answered_under_way at 2. rewrite (sum_perm _ _ _ P), sum_cons, ET. unfold pending_details at 1. cbn [fst snd]. rewrite ee_get.
    replace (if is_ok i then net_of c (t_assets t) else 0) with (if code =? RC_OK then net_of c (t_assets t) else 0) by (destruct (is_ok i); destruct (code =? RC_OK) eqn:X; try reflexivity; [destruct EC as [EC _]; specialize (EC eq_refl); lia|destruct EC as [_ EC]; assert (code = RC_OK) by lia; specialize (EC H); discriminate]).
    rewrite Z.add_simpl_l. unfold answered_under_way. cbn [w_fly]. apply sum_ext. intros j Hj. unfold pending_details. cbn [w_st]. rewrite TX by (rewrite <- surjective_pairing; apply NO, Hj). reflexivity. }
  assert (VT : forall c, vtotal (World (upd (w_st w) n s') (without k (w_fly w))) c = vtotal w c - (if code =? RC_OK then net_of c (t_assets t) else 0)) by (intros c; rewrite vtotal_upd, EV by exact HI; lia).
  split; cbn [w_st w_fly].
  - intros m HK. destruct (Z.eq_dec m n) as [->|N]; [rewrite upd_same; exact I'|rewrite upd_other by exact N; apply A, HK].
  - intros j Hj. destruct (B j (IN j Hj)) as (B1 & t' & B2 & B3). split; [exact B1|]. exists t'. rewrite TX by (rewrite <- surjective_pairing; apply NO, Hj). split; assumption.
  - exact C'.
  - intros m sn' t' HK X. destruct (zz_dec (m, sn') (n, sn)) as [EQ|NE]; [injection EQ as -> ->; congruence|]. rewrite TX in X by exact NE. pose proof (D _ _ _ HK X) as Y. apply (Permutation_in _ PM) in Y. destruct Y as [Y|Y]; [congruence|exact Y].
  - intros c. rewrite AU, VT. specialize (E c). lia.
  - intros O. destruct (F O) as [F1 F2]. split; [intros c; rewrite AU, VT, F1; reflexivity|]. intros m sn' t' HK X. destruct (zz_dec (m, sn') (n, sn)) as [EQ|NE]; [injection EQ as -> ->; congruence|]. rewrite TX in X by exact NE. eapply F2; eassumption.
Qed.
(** an item is replaced by another of the same transfer, while another network may change *)
Lemma winv_replace : forall w k i j n s', winv w -> nth_error (w_fly w) k = Some i -> transfer_of j = transfer_of i -> (forall t, aget Z.eqb (snd (transfer_of i)) (n_tx (w_st w (fst (transfer_of i)))) = Some t -> good i t -> good j t) ->
  In n nets -> ninv (selfs n) (names n) tid s' -> n_tx s' = n_tx (w_st w n) -> is_ok i = false ->
  (forall c, V n s' c <= V n (w_st w n) c + (if is_ok j then net_of c (pending_details w (transfer_of i)) else 0)) ->
  (once = true -> forall c, V n s' c = V n (w_st w n) c + (if is_ok j then net_of c (pending_details w (transfer_of i)) else 0)) ->
  winv (World (upd (w_st w) n s') (without k (w_fly w) ++ [j])).
Proof using ND.
  intros w k i j n s' [A B C D E F] EK ET HG HI I' EX NOK VL VE. pose proof (without_perm k _ _ EK) as P. pose proof (B i (nth_error_In _ _ EK)) as (BI & t0 & BT & BG).
  assert (TX : forall m, n_tx (upd (w_st w) n s' m) = n_tx (w_st w m)) by (intros m; unfold upd; destruct (Z.eqb_spec m n) as [->|N]; [exact EX|reflexivity]).
  assert (PM : Permutation (map transfer_of (w_fly w)) (map transfer_of (without k (w_fly w) ++ [j]))).
  { rewrite map_app. cbn [map]. rewrite ET. pose proof (Permutation_map transfer_of P) as PM. cbn [map] in PM. rewrite PM. apply Permutation_cons_append. }
  assert (IN : forall x, In x (without k (w_fly w)) -> In x (w_fly w)) by (intros x Hx; apply (Permutation_in _ (Permutation_sym P)); right; exact Hx).
  assert (AU : forall c, answered_under_way (World (upd (w_st w) n s') (without k (w_fly w) ++ [j])) c = answered_under_way w c + (if is_ok j then net_of c (pending_details w (transfer_of i)) else 0)).
  { intros c. unfold answered_under_way at 2. rewrite (sum_perm _ _ _ P), sum_cons, NOK. unfold answered_under_way. cbn [w_fly]. rewrite sum_app, sum_cons, ET. cbn [sumOf fold_right].
    assert (Y : forall p, pending_details (World (upd (w_st w) n s') (without k (w_fly w) ++ [j])) p = pending_details w p) by (intros p; unfold pending_details; cbn [w_st]; rewrite TX; reflexivity). rewrite Y.
    rewrite (sum_ext _ (fun x => if is_ok x then net_of c (pending_details w (transfer_of x)) else 0)) by (intros x _; rewrite Y; reflexivity). lia. }
  assert (VT : forall c, vtotal (World (upd (w_st w) n s') (without k (w_fly w) ++ [j])) c = vtotal w c + V n s' c - V n (w_st w n) c) by (intros c; apply vtotal_upd, HI).
  split; cbn [w_st w_fly].
  - intros m HK. destruct (Z.eq_dec m n) as [->|N]; [rewrite upd_same; exact I'|rewrite upd_other by exact N; apply A, HK].
  - intros x Hx. rewrite TX. apply in_app_or in Hx as [Hx|[<-|[]]]; [apply B, IN, Hx|]. rewrite ET. split; [exact BI|]. exists t0. split; [exact BT|]. apply HG; assumption.
  - apply (Permutation_NoDup PM C).
  - intros m sn t HK X. rewrite TX in X. apply (Permutation_in _ PM). eapply D; eassumption.
  - intros c. rewrite AU, VT. specialize (E c). specialize (VL c). lia.
  - intros O. destruct (F O) as [F1 F2]. split; [intros c; rewrite AU, VT, F1, (VE O c); lia|]. intros m sn t HK X. rewrite TX in X. eapply F2; eassumption.
Qed.

Lemma winv_ext : forall st st' fly, (forall n, st n = st' n) -> winv (World st fly) -> winv (World st' fly).
Proof using.
  intros st st' fly H [A B C D E F]. cbn [w_st w_fly] in *.
  assert (VT : forall c, vtotal (World st' fly) c = vtotal (World st fly) c) by (intros c; apply sum_ext; intros n _; cbn [w_st]; rewrite H; reflexivity).
  assert (AU : forall c, answered_under_way (World st' fly) c = answered_under_way (World st fly) c) by (intros c; apply sum_ext; intros i _; unfold pending_details; cbn [w_st]; rewrite H; reflexivity).
  split; cbn [w_st w_fly]; intros; rewrite <- ?H in *; rewrite ?VT, ?AU; auto.
  - eapply D; eassumption.
  - destruct (F H0) as [F1 F2]. split; [intros c; rewrite VT, AU; apply F1|]. intros n sn t HN. rewrite <- H. apply F2, HN.
Qed.
Lemma sent_quiet : forall n q, (forall e, In e q -> match e with NSend _ _ BUnknown | NUnknownResponse _ _ => True | _ => False end) -> sent n [] q = [].
Proof using. intros n q. unfold sent. cbn [length skipn]. induction q as [|e q IH]; intros H; [reflexivity|]. cbn [flat_map]. rewrite IH by (intros y Hy; apply H; right; exact Hy). specialize (H e (or_introl eq_refl)). destruct e; try contradiction; [destruct b; try contradiction|]; reflexivity. Qed.
Lemma batch_coins : forall n s x c cs vs v to s', nx n s x (TransferBatch c cs vs v to) = Some s' -> forall k, In k cs -> k <> names n.
Proof using.
  intros n s x c cs vs v to s' E k HI. unfold M_NcsNet.nx in E. cbn [nexec] in E. unfold need in E. match type of E with (if ?b then _ else _) = _ => destruct b eqn:EB; [|discriminate] end. rewrite !andb_true_iff in EB. destruct EB as [[_ EB] _]. rewrite forallb_forall in EB. specialize (EB k HI). lia.
Qed.
Lemma nodup_combine : forall (cs vs : list Z), NoDup cs -> NoDup (map fst (combine cs vs)).
Proof using.
  induction cs as [|c cs IH]; intros vs HN; [constructor|]. destruct vs as [|v vs]; [constructor|]. apply NoDup_cons_iff in HN as [NI HN]. cbn [combine map fst]. constructor; [|apply IH, HN]. intros X. apply NI. apply in_map_iff in X as ([a b] & <- & X). eapply in_combine_l. exact X.
Qed.
Lemma charged_coins : forall r l ds, Forall2 (charged r) l ds -> map d_coin ds = map fst l.
Proof using. intros r l ds F. induction F as [|p d l ds (E & _) F IH]; [reflexivity|]. cbn [map]. rewrite E, IH. reflexivity. Qed.

Theorem winv_step : forall w o w', winv w -> answers_arrive o -> (once = true -> names_once o) -> wexec nets selfs names bmcs deployers tid w o = Some w' -> winv w'.
Proof using ND TI BS.
  intros w o w' W HA HO E. destruct o as [n x o|k x|k|k]; cbn [wexec] in E; [| | |contradiction].
  - (* local *)
    unfold need in E. destruct (mem n nets && negb (ncaller o =? bmcs n) && negb (ncaller o =? selfs n)) eqn:EM; [|discriminate]. rewrite !andb_true_iff in EM. destruct EM as [[EM1 EM2] EM3]. apply mem_in in EM1. assert (NB : ncaller o <> bmcs n) by lia. assert (NS : ncaller o <> selfs n) by lia.
    destruct (nx n (w_st w n) x o) as [s'|] eqn:EX; [|discriminate]. cbn [nbind] in E. injection E as <-. pose proof (wi_n w W n EM1) as I.
    assert (EF : effect (selfs n) (names n) (bmcs n) tid (w_st w n) o s') by (eapply nexec_effect; [exact TI|intros sn t X; apply (i_tx _ _ _ _ I sn t X)|exact NS|exact EX]).
    pose proof (ninv_step _ _ _ _ _ _ _ I NS EF) as I'. destruct EF as [o s' _ Q|o owner to l ds s' HM Q|o sn t code s' HM Q|from sn a l nv ms s' Q|c c0 v s' Q].
    + pose proof (V_quiet _ _ _ Q) as EV. destruct Q as [_ _ (q & Q2 & QP) _ _ _ _ _ Q8 _ _ _]. apply winv_same; try assumption. rewrite Q2, sent_app, (sent_quiet n q QP). apply app_nil_r.
    + eapply winv_start; try eassumption. intros O. specialize (HO O). destruct Q. rewrite (charged_coins _ _ _ es_l).
      destruct o; try contradiction; destruct HM as (_ & _ & ->); try (repeat constructor; intros []; fail). rewrite map_app. cbn [names_once] in HO. pose proof (nodup_combine cs vs HO) as NC. destruct (0 <? v); [|rewrite app_nil_r; exact NC]. apply nodup_snoc; [exact NC|]. cbn [fst]. intros X. apply in_map_iff in X as ([a b] & EQ & X). apply in_combine_l in X. cbn [fst] in EQ. subst a. eapply (batch_coins _ _ _ _ _ _ _ _ _ EX); [exact X|reflexivity].
    + exfalso. apply NB. destruct o; try contradiction; cbn [ncaller]; try (destruct b as [[]|]; try contradiction); tauto.
    + exfalso. apply NB. reflexivity.
    + pose proof (V_reclaim _ _ _ _ _ _ Q) as EV. destruct Q. apply winv_same; try assumption. rewrite ec_out, sent_app. apply app_nil_r.
  - (* deliver *)
    destruct (nth_error (w_fly w) k) as [i|] eqn:EK; [|discriminate]. pose proof (wi_it w W i (nth_error_In _ _ EK)) as (BI & t0 & BT & BG). destruct i as [src sn dst b|dst sn].
    + unfold need in E. destruct (mem dst nets) eqn:EM; [|discriminate]. apply mem_in in EM. destruct (nx dst (w_st w dst) x (HandleMessage (bmcs dst) src sn (Some b))) as [s'|] eqn:EX; [|discriminate]. cbn [nbind] in E. injection E as <-. pose proof (wi_n w W dst EM) as I.
      assert (EF : effect (selfs dst) (names dst) (bmcs dst) tid (w_st w dst) (HandleMessage (bmcs dst) src sn (Some b)) s') by (apply (nexec_effect _ _ _ (deployers dst) _ TI (w_st w dst) x); [intros sn' t X; apply (i_tx _ _ _ _ I sn' t X)|apply BS|exact EX]).
      pose proof (ninv_step _ _ _ _ _ (HandleMessage (bmcs dst) src sn (Some b)) _ I (BS dst) EF) as I'. destruct b as [a l|code| |]; try (destruct BG; fail).
      * (* a request *)
        cbn [transfer_of fst snd] in BI, BT. destruct BG as (BG1 & BG2 & BG3).
        unfold M_NcsNet.nx in EX. cbn [nexec] in EX. unfold need in EX. rewrite Z.eqb_refl in EX. cbn [nbind] in EX. apply (handleRequest_spec _ _ TI) in EX as (a0 & l0 & nv & ms & -> & -> & Q). injection BG3 as ->.
        pose proof (i_name _ _ _ _ I) as NM. pose proof (V_request _ _ _ _ _ _ _ _ _ NM Q) as EV. destruct Q. destruct (i_tx _ _ _ _ (wi_n w W src BI) _ _ BT) as (_ & TD & _).
        assert (AM : Forall (fun d => 1 <= d_amount d) (t_assets t0)) by (eapply Forall_impl; [|exact TD]; intros d (_ & X & _); exact X).
        destruct (sort_paid _ _ _ _ _ NM AM er_sort) as (P1 & P2 & P3 & P4 & _).
        unfold wput. rewrite er_out, sent_app. replace (sent dst [] ((match nv with Some v => [NPay a0 v] | None => [] end) ++ [NSend src sn (BResponse RC_OK)])) with [IMsg dst sn src (BResponse RC_OK)] by (destruct nv; reflexivity).
        apply (winv_replace w k (IMsg src sn dst (BRequest (Some a0) (Some (map asset_of (t_assets t0)))))); try assumption; try reflexivity; cbn [is_ok transfer_of fst snd]; unfold pending_details; cbn [fst snd]; rewrite ?BT; try (intros; reflexivity); try exact er_tx.
        -- intros c. rewrite EV. destruct (Z.eqb_spec (names dst) c) as [<-|N]; [lia|]. rewrite P1 by congruence. lia.
        -- intros O c. destruct (wi_eq w W O) as [_ O2]. specialize (P4 (O2 _ _ _ BI BT)). rewrite EV. destruct (Z.eqb_spec (names dst) c) as [<-|N]; [lia|]. rewrite P1 by congruence. lia.
      * (* an answer *)
        cbn [transfer_of fst snd] in BI, BT. unfold good in BG. subst code.
        unfold M_NcsNet.nx in EX. cbn [nexec] in EX. unfold need in EX. rewrite Z.eqb_refl in EX. cbn [nbind] in EX. apply (handleResponse_spec _ _ _ TI) in EX as [[_ X]|(t & Q)]; [congruence| |intros t X; apply (i_tx _ _ _ _ I _ _ X)].
        apply (winv_end w k _ dst s' sn t RC_OK W EK); try assumption; [reflexivity|]. cbn [is_ok]. tauto.
    + unfold need in E. destruct (mem dst nets) eqn:EM; [|discriminate]. apply mem_in in EM. destruct (nx dst (w_st w dst) x (HandleError (bmcs dst) sn)) as [s'|] eqn:EX; [|discriminate]. cbn [nbind] in E. injection E as <-. pose proof (wi_n w W dst EM) as I.
      assert (EF : effect (selfs dst) (names dst) (bmcs dst) tid (w_st w dst) (HandleError (bmcs dst) sn) s') by (apply (nexec_effect _ _ _ (deployers dst) _ TI (w_st w dst) x); [intros sn' t X; apply (i_tx _ _ _ _ I sn' t X)|apply BS|exact EX]).
      pose proof (ninv_step _ _ _ _ _ (HandleError (bmcs dst) sn) _ I (BS dst) EF) as I'. cbn [transfer_of fst snd] in BI, BT.
      unfold M_NcsNet.nx in EX. cbn [nexec] in EX. unfold need in EX. rewrite Z.eqb_refl in EX. apply (handleResponse_spec _ _ _ TI) in EX as [[_ X]|(t & Q)]; [congruence| |intros t X; apply (i_tx _ _ _ _ I _ _ X)].
      apply (winv_end w k _ dst s' sn t RC_ERR W EK); try assumption; [reflexivity|]. cbn [is_ok]. split; [discriminate|]. unfold RC_ERR, RC_OK. discriminate.
  - (* fail *)
    destruct (nth_error (w_fly w) k) as [i|] eqn:EK; [|discriminate]. destruct i as [src sn dst b|dst sn]; [|discriminate]. destruct b as [a l| | |]; try discriminate. injection E as <-.
    pose proof (wi_it w W _ (nth_error_In _ _ EK)) as (BI & t0 & BT & BG). cbn [transfer_of fst snd] in BI, BT.
    assert (WW : winv (World (upd (w_st w) src (w_st w src)) (without k (w_fly w) ++ [IErr src sn]))).
    { apply (winv_replace w k (IMsg src sn dst (BRequest a l))); try assumption; try reflexivity; cbn [is_ok]; intros; try lia; try exact Logic.I; try (apply (wi_n w W), BI). }
    refine (winv_ext (upd (w_st w) src (w_st w src)) _ _ _ WW). intros n. cbn [w_st]. unfold upd. destruct (Z.eqb_spec n src) as [->|N]; reflexivity.
Qed.
End NET.
