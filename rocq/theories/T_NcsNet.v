(** C89: native coin services on several networks keep the coins together. *)
From Coq Require Import ZArith List Bool Lia Permutation.
From Coq Require Import ZifyBool.
From Verif Require Import Base L_Base M_JMap L_JMap M_JBmc L_JBmc L_JSum M_Ncs S_Ncs L_Ncs L_Ncs2 L_Ncs3 M_NcsNet S_NcsNet L_NcsNet L_NcsNet2 T_Ncs.
Import ListNotations.
Open Scope Z_scope.

Lemma sort_works : forall nm reg ds, Forall (fun d => 1 <= d_amount d /\ (d_coin d = nm \/ mem (d_coin d) reg = true)) ds -> exists r, sortAssets nm reg (map asset_of ds) = Some r.
Proof.
  intros nm reg. induction ds as [|d ds IH]; intros F; [eexists; reflexivity|]. apply Forall_cons_iff in F as [[FA FC] F]. destruct (IH F) as [r E]. cbn [map sortAssets asset_of as_amount as_coin]. replace (d_amount d <? 1) with false by lia. rewrite E. cbn [nbind].
  destruct (mem (d_coin d) reg) eqn:EM; [eexists; reflexivity|]. destruct FC as [FC|FC]; [|discriminate]. replace (d_coin d =? nm) with true by lia. eexists. reflexivity.
Qed.
Lemma mint_works : forall l s a, Forall (fun p => 0 < snd p) l -> exists s', mintAll s a l = Some s'.
Proof.
  induction l as [|[i v] l IH]; intros s a F; [eexists; reflexivity|]. apply Forall_cons_iff in F as [FV F]. cbn [snd] in FV. cbn [mintAll]. unfold mintOne. replace (v <=? 0) with false by lia. cbn [nbind]. apply IH, F.
Qed.

Section C89.
Variable nets : list Z.
Variables selfs names bmcs deployers : Z -> Z.
Variable tid : Z -> Z.
Local Notation run := (wrun nets selfs names bmcs deployers tid).
Local Notation wexec := (wexec nets selfs names bmcs deployers tid).
(** The networks differ and so do their native coins, no two coins share a token id, and no message center is the service. *)
Definition set_up : Prop :=
  NoDup nets /\ (forall a b, In a nets -> In b nets -> names a = names b -> a = b) /\ distinct_ids tid /\ (forall n, bmcs n <> selfs n).

(** Whatever is called and whenever messages arrive, if answers get through: the native coins a service keeps cover what it owes and all
    tokens of its coin on the other networks, less what was already paid there but not yet answered.  If no batch names a coin twice
    they are exactly that: no coin is made and none is lost. *)
Theorem C89_conserved : set_up -> forall l h, answered_run l -> In h nets -> let w := run l in let c := names h in
  owes w h c + abroad nets tid w h c - answered_under_way w c <= n_coins (w_st w h)
  /\ (Forall names_once l -> n_coins (w_st w h) = owes w h c + abroad nets tid w h c - answered_under_way w c).
Proof using.
  intros (ND & NI & TI & BS) l h HA HH w c.
  assert (U : forall n, In n nets -> names n = names h -> n = h) by (intros n HN; apply NI; assumption). split.
  - pose proof (winv_run nets selfs names bmcs deployers tid ND TI BS false l HA ltac:(discriminate)) as W. pose proof (vtotal_home nets selfs names tid ND false _ h W HH U) as VH. pose proof (wi_le _ _ _ _ _ _ W c) as LE. fold w in VH, LE. fold c in VH. lia.
  - intros HO. pose proof (winv_run nets selfs names bmcs deployers tid ND TI BS true l HA (fun _ => HO)) as W. pose proof (vtotal_home nets selfs names tid ND true _ h W HH U) as VH. destruct (wi_eq _ _ _ _ _ _ W eq_refl) as [EQ _]. specialize (EQ c). fold w in VH, EQ. fold c in VH. lia.
Qed.

(** Every transfer started has ended once, or exactly one message or error belonging to it is under way; a request under way asks the
    network and account named at the start, for what is to be sent on. *)
Theorem C89_under_way : set_up -> forall l, answered_run l -> let w := run l in
  (forall n sn, In n nets -> ends sn (n_out (w_st w n)) + under_way w n sn = if (1 <=? sn) && (sn <=? n_sn (w_st w n)) then 1 else 0)
  /\ (forall i, In i (w_fly w) -> In (fst (transfer_of i)) nets)
  /\ (forall src sn dst a r, In (IMsg src sn dst (BRequest a r)) (w_fly w) -> exists o to ds, started_as sn (n_out (w_st w src)) = Some (o, to, ds)
       /\ dst = b_net to /\ a = b_acc to /\ r = Some (map (fun d => Asset (d_coin d) (Some (d_amount d))) ds)).
Proof using.
  intros (ND & NI & TI & BS) l HA w. pose proof (winv_run nets selfs names bmcs deployers tid ND TI BS false l HA ltac:(discriminate)) as W. fold w in W. split; [|split].
  - intros n sn HN. pose proof (wi_n _ _ _ _ _ _ W n HN) as I. rewrite (i_ends _ _ _ _ I).
    assert (UW : under_way w n sn = if ahas Z.eqb sn (n_tx (w_st w n)) then 1 else 0).
    { unfold under_way, ahas. destruct (aget Z.eqb sn (n_tx (w_st w n))) as [t|] eqn:E.
      - pose proof (wi_all _ _ _ _ _ _ W n sn t HN E) as HI. pose proof (wi_nd _ _ _ _ _ _ W) as N1. rewrite <- (sum_map (fun p => if zz_eqb p (n, sn) then 1 else 0) transfer_of). revert HI N1. generalize (map transfer_of (w_fly w)). clear. induction l as [|p l IH]; intros HI N1; [destruct HI|]. apply NoDup_cons_iff in N1 as [NI N1]. rewrite sum_cons. destruct (zz_dec p (n, sn)) as [->|N].
        + rewrite sum_zero; [unfold zz_eqb; cbn [fst snd]; rewrite !Z.eqb_refl; reflexivity|]. intros q HQ. destruct (zz_eqb q (n, sn)) eqn:EQ; [|reflexivity]. apply zz_key in EQ. subst q. contradiction.
        + destruct HI as [X|HI]; [congruence|]. rewrite (IH HI N1). destruct (zz_eqb p (n, sn)) eqn:EQ; [apply zz_key in EQ; contradiction|reflexivity].
      - apply sum_zero. intros i Hi. destruct (zz_eqb (transfer_of i) (n, sn)) eqn:EQ; [|reflexivity]. apply zz_key in EQ. destruct (wi_it _ _ _ _ _ _ W i Hi) as (_ & t & G & _). rewrite EQ in G. cbn [fst snd] in G. congruence. }
    rewrite UW. unfold ahas in *. destruct (aget Z.eqb sn (n_tx (w_st w n))) as [t|] eqn:E.
    + destruct (i_tx _ _ _ _ I _ _ E) as (_ & _ & R & _). replace ((1 <=? sn) && (sn <=? n_sn (w_st w n))) with true by lia. reflexivity.
    + cbn [negb]. rewrite andb_true_r. lia.
  - intros i Hi. apply (wi_it _ _ _ _ _ _ W i Hi).
  - intros src sn dst a r HI. destruct (wi_it _ _ _ _ _ _ W _ HI) as (HN & t & G & GD). cbn [transfer_of fst snd] in HN, G. destruct GD as (G1 & G2 & G3). destruct (i_tx _ _ _ _ (wi_n _ _ _ _ _ _ W src HN) _ _ G) as (_ & _ & _ & SD). exists (t_from t), (t_to t), (t_assets t). repeat split; assumption.
Qed.

(** A transfer that ended well was carried out, once, by the network asked; one that was given back was carried out nowhere; and one that
    has not ended was carried out at most once. *)
Theorem C89_both_or_neither : set_up -> forall l, answered_run l -> let w := run l in
  (forall n o sn code, In n nets -> In (NEnd o sn code) (n_out (w_st w n)) -> carried nets w n sn = if code =? RC_OK then 1 else 0)
  /\ (forall n sn, In n nets -> 0 <= carried nets w n sn <= 1)
  /\ (forall n sn d, In n nets -> In d nets -> 0 < carried_at w d n sn -> exists o to ds, started_as sn (n_out (w_st w n)) = Some (o, to, ds) /\ b_net to = d).
Proof using.
  intros (ND & NI & TI & BS) l HA w. pose proof (winv_run nets selfs names bmcs deployers tid ND TI BS false l HA ltac:(discriminate)) as W. pose proof (wcar_run nets selfs names bmcs deployers tid ND TI BS false l HA ltac:(discriminate)) as [C1 C2]. fold w in W, C1, C2.
  assert (NF : forall n sn, aget Z.eqb sn (n_tx (w_st w n)) = None -> okfly w n sn = 0).
  { intros n sn E. apply sum_zero. intros i Hi. destruct (is_ok i); cbn [andb]; [|reflexivity]. destruct (zz_eqb (transfer_of i) (n, sn)) eqn:EQ; [|reflexivity]. apply zz_key in EQ. destruct (wi_it _ _ _ _ _ _ W i Hi) as (_ & t & G & _). rewrite EQ in G. cbn [fst snd] in G. congruence. }
  assert (P1 : forall n o sn code, In n nets -> In (NEnd o sn code) (n_out (w_st w n)) -> carried nets w n sn = if code =? RC_OK then 1 else 0).
  { intros n o sn code HN HE. pose proof (wi_n _ _ _ _ _ _ W n HN) as I. destruct (i_end _ _ _ _ I _ _ _ HE) as (E & to & ds & SD). rewrite (C1 n sn HN), (NF n sn E). apply okends_one with (o := o); [|exact HE].
    rewrite (i_ends _ _ _ _ I). unfold ahas. rewrite E. assert (R : 1 <= sn <= n_sn (w_st w n)) by (apply (i_started _ _ _ _ I); congruence). replace (1 <=? sn) with true by lia. replace (sn <=? n_sn (w_st w n)) with true by lia. reflexivity. }
  split; [exact P1|]. split.
  - intros n sn HN. pose proof (wi_n _ _ _ _ _ _ W n HN) as I. destruct (aget Z.eqb sn (n_tx (w_st w n))) as [t|] eqn:E.
    + rewrite (C1 n sn HN).
      assert (OE : okends (n_out (w_st w n)) sn = 0). { apply sum_zero. intros e He. destruct e; try reflexivity. destruct (Z.eqb_spec sn0 sn) as [->|N]; [|reflexivity]. destruct (i_end _ _ _ _ I _ _ _ He) as [X _]. congruence. }
      rewrite OE. unfold okfly. pose proof (wi_nd _ _ _ _ _ _ W) as N1. revert N1. clear. induction (w_fly w) as [|i fl IH]; intros N1; [cbn [sumOf fold_right]; lia|]. cbn [map] in N1. apply NoDup_cons_iff in N1 as [NI N1]. rewrite sum_cons. specialize (IH N1). destruct (is_ok i && zz_eqb (transfer_of i) (n, sn)) eqn:EQ; [|lia]. apply andb_true_iff in EQ as [_ EQ]. apply zz_key in EQ. rewrite EQ in NI.
      rewrite sum_zero; [lia|]. intros j Hj. destruct (is_ok j && zz_eqb (transfer_of j) (n, sn)) eqn:EJ; [|reflexivity]. apply andb_true_iff in EJ as [_ EJ]. apply zz_key in EJ. exfalso. apply NI. rewrite <- EJ. apply in_map, Hj.
    + rewrite (C1 n sn HN), (NF n sn E). assert (OE : 0 <= okends (n_out (w_st w n)) sn <= ends sn (n_out (w_st w n))).
      { unfold okends, ends. split; [apply sum_nonneg; intros e _; destruct e; try lia; destruct ((sn0 =? sn) && (code =? RC_OK)); lia|]. apply sum_le. intros e _. destruct e; try lia. destruct (sn0 =? sn); cbn [andb]; [destruct (code =? RC_OK)|]; lia. }
      pose proof (i_ends _ _ _ _ I sn) as X. destruct ((1 <=? sn) && (sn <=? n_sn (w_st w n)) && negb (ahas Z.eqb sn (n_tx (w_st w n)))); lia.
  - intros n sn d HN HD P. assert (EX : exists c, In (NSend n sn (BResponse c)) (n_out (w_st w d))).
    { unfold carried_at in P. revert P. generalize (n_out (w_st w d)). clear. induction l as [|e l IH]; intros P; [cbn [sumOf fold_right] in P; lia|]. rewrite sum_cons in P.
      assert (R : 0 < sumOf (fun e => match e with NSend to k (BResponse code) => if (to =? n) && (k =? sn) && (code =? RC_OK) then 1 else 0 | _ => 0 end) l -> exists c, In (NSend n sn (BResponse c)) (e :: l)) by (intros X; destruct (IH X) as [c HI]; exists c; right; exact HI).
      destruct e; try (apply R; lia). destruct b; try (apply R; lia). destruct ((to =? n) && (sn0 =? sn) && (code =? RC_OK)) eqn:EB; [|apply R; lia]. rewrite !andb_true_iff in EB. exists code. left. f_equal; lia. }
    destruct EX as [c HI]. eapply C2; eassumption.
Qed.

(** A refund can always be reclaimed, also of the native coin: the coins are there.  So are the fees. *)
Theorem C89_refunds_covered : set_up -> forall l h, answered_run l -> In h nets -> let w := run l in
  refundSum (w_st w h) (names h) + getFee (w_st w h) (names h) <= n_coins (w_st w h)
  /\ forall x o c v, o <> bmcs h -> o <> selfs h -> 0 < v <= snd (getBalance (w_st w h) c o) -> x_token x = true -> x_receiver x = true -> exists w', wexec w (WLocal h x (Reclaim o c v)) = Some w'.
Proof using.
  intros (ND & NI & TI & BS) l h HA HH w. pose proof (winv_run nets selfs names bmcs deployers tid ND TI BS false l HA ltac:(discriminate)) as W. fold w in W.
  assert (U : forall n, In n nets -> names n = names h -> n = h) by (intros n HN; apply NI; assumption).
  destruct (covered nets selfs names tid ND false w h (IErr 0 0) W HH U) as [CV _]. split; [exact CV|].
  intros x o c v N1 N2 HV X1 X2. pose proof (wi_n _ _ _ _ _ _ W h HH) as I.
  destruct (reclaim_works (selfs h) (names h) (bmcs h) (deployers h) tid (w_st w h) x o c v I HV X1 X2) as [s' E].
  { intros ->. pose proof (bal_nonneg _ _ _ _ I (names h) o) as BN. change (getb (n_bal (w_st w h)) (names h) o) with (getBalance (w_st w h) (names h) o) in BN. change (rsum (n_bal (w_st w h)) (names h)) with (refundSum (w_st w h) (names h)) in BN. pose proof (i_fee _ _ _ _ I (names h)) as FN. change (getf (n_fee (w_st w h)) (names h)) with (getFee (w_st w h) (names h)) in FN. lia. }
  exists (wput w h s' (w_fly w)). cbn [M_NcsNet.wexec ncaller]. unfold need. assert (HM : mem h nets = true) by (apply mem_in, HH). rewrite HM. replace (o =? bmcs h) with false by lia. replace (o =? selfs h) with false by lia. cbn [negb andb]. unfold nx. rewrite E. reflexivity.
Qed.

(** Nothing under way gets stuck: an answer or error can always be handed over (if the token contract works), and a request whenever the
    account is good and the coins asked for are known there; a service always has the native coins asked for. *)
Theorem C89_goes_through : set_up -> forall l k i x, answered_run l -> let w := run l in nth_error (w_fly w) k = Some i ->
  x_token x = true -> x_receiver x = true -> x_bmc x = true ->
  match i with
  | IMsg src sn dst (BRequest a _) => In dst nets -> a <> None -> (forall d, In d (pending_details w (src, sn)) -> d_coin d = names dst \/ In (d_coin d) (n_reg (w_st w dst))) ->
      exists w', wexec w (WDeliver k x) = Some w'
  | _ => exists w', wexec w (WDeliver k x) = Some w'
  end.
Proof using.
  intros (ND & NI & TI & BS) l k i x HA w EK X1 X2 X3. pose proof (winv_run nets selfs names bmcs deployers tid ND TI BS false l HA ltac:(discriminate)) as W. fold w in W.
  destruct (wi_it _ _ _ _ _ _ W i (nth_error_In _ _ EK)) as (HN & t & G & GD).
  destruct i as [src sn dst b|dst sn]; [destruct b as [a r|code| |]; try (destruct GD; fail)|]; cbn [transfer_of fst snd] in HN, G.
  - intros HD HAc HC. destruct GD as (G1 & G2 & G3). cbn [M_NcsNet.wexec]. rewrite EK. unfold need, nx. assert (HM : mem dst nets = true) by (apply mem_in, HD). rewrite HM. cbn [nexec]. unfold need. rewrite Z.eqb_refl. cbn [nbind].
    destruct a as [a|]; [|congruence]. subst r. pose proof (wi_n _ _ _ _ _ _ W dst HD) as I. destruct (i_tx _ _ _ _ (wi_n _ _ _ _ _ _ W src HN) _ _ G) as (_ & TD & _). unfold pending_details in HC. cbn [fst snd] in HC. rewrite G in HC. rewrite Forall_forall in TD.
    assert (AM : Forall (fun d => 1 <= d_amount d) (t_assets t)) by (apply Forall_forall; intros d Hd; apply (TD d Hd)).
    destruct (sort_works (names dst) (n_reg (w_st w dst)) (t_assets t)) as [[ms nv] ES]. { apply Forall_forall. intros d Hd. split; [apply (TD d Hd)|]. destruct (HC d Hd) as [C|C]; [left; exact C|right; apply mem_in, C]. }
    unfold handleRequest. cbn [nbind]. rewrite ES. cbn [nbind fst snd].
    destruct (sort_paid _ _ _ _ _ (i_name _ _ _ _ I) AM ES) as (_ & _ & P3 & _). destruct (sort_pos _ _ _ _ _ ES) as (P5 & P6).
    assert (U : forall n, In n nets -> names n = names dst -> n = dst) by (intros n Hn; apply NI; assumption).
    destruct (covered nets selfs names tid ND false w dst (IMsg src sn dst (BRequest (Some a) (Some (map asset_of (t_assets t))))) W HD U) as [_ CV]. specialize (CV (nth_error_In _ _ EK) eq_refl). unfold pending_details in CV. cbn [transfer_of fst snd] in CV. rewrite G in CV.
    assert (RN : 0 <= refundSum (w_st w dst) (names dst)). { pose proof (bal_nonneg _ _ _ _ I (names dst) 0) as BN. change (refundSum (w_st w dst) (names dst)) with (rsum (n_bal (w_st w dst)) (names dst)). lia. }
    pose proof (i_fee _ _ _ _ I (names dst)) as FN. change (getf (n_fee (w_st w dst)) (names dst)) with (getFee (w_st w dst) (names dst)) in FN.
    assert (S1 : exists s1, (match nv with None => Some (w_st w dst) | Some v => if (n_coins (w_st w dst) <? v) || negb (x_receiver x) then None else Some (emitn (set_coins (w_st w dst) (n_coins (w_st w dst) - v)) (NPay a v)) end) = Some s1).
    { destruct nv as [v|]; [|eexists; reflexivity]. rewrite X2. replace (n_coins (w_st w dst) <? v) with false by lia. cbn [orb negb]. eexists. reflexivity. }
    destruct S1 as [s1 S1]. rewrite S1. cbn [nbind].
    unfold sendBmc. rewrite X3. destruct ms as [|m0 ms0]; [cbn [nbind]; eexists; reflexivity|]. rewrite X1.
    destruct (mint_works (map (fun m => (tid (fst m), snd m)) (m0 :: ms0)) s1 a) as [s2 S2].
    { apply Forall_forall. intros p HP. apply in_map_iff in HP as (q & <- & HQ). rewrite Forall_forall in P5. destruct (P5 q HQ) as [_ X]. cbn [snd]. lia. }
    rewrite S2. cbn [nbind]. eexists. reflexivity.
  - pose proof (wi_n _ _ _ _ _ _ W dst HN) as I. cbn [M_NcsNet.wexec]. rewrite EK. unfold need, nx. assert (HM : mem dst nets = true) by (apply mem_in, HN). rewrite HM. cbn [nexec]. unfold need. rewrite Z.eqb_refl. cbn [nbind].
    destruct (handleResponse_works (selfs dst) (names dst) tid TI (w_st w dst) x sn code t I G X1) as [s' E]. rewrite E. cbn [nbind]. eexists. reflexivity.
  - pose proof (wi_n _ _ _ _ _ _ W dst HN) as I. cbn [M_NcsNet.wexec]. rewrite EK. unfold need, nx. assert (HM : mem dst nets = true) by (apply mem_in, HN). rewrite HM. cbn [nexec]. unfold need. rewrite Z.eqb_refl.
    destruct (handleResponse_works (selfs dst) (names dst) tid TI (w_st w dst) x sn RC_ERR t I G X1) as [s' E]. rewrite E. cbn [nbind]. eexists. reflexivity.
Qed.

(** When nothing is under way, nothing is locked and no transfer is open, and the native coins are the refunds, the fees and the tokens of
    the coin on the other networks (at least that, if a batch named a coin twice). *)
Theorem C89_settled : set_up -> forall l h, answered_run l -> In h nets -> let w := run l in let c := names h in w_fly w = [] ->
  n_tx (w_st w h) = [] /\ (forall k, lockedSum (w_st w h) k = 0)
  /\ refundSum (w_st w h) c + getFee (w_st w h) c + abroad nets tid w h c <= n_coins (w_st w h)
  /\ (Forall names_once l -> n_coins (w_st w h) = refundSum (w_st w h) c + getFee (w_st w h) c + abroad nets tid w h c).
Proof using.
  intros SU l h HA HH w c EF. pose proof (C89_conserved SU l h HA HH) as [P1 P2]. fold w in P1, P2. fold c in P1, P2. destruct SU as (ND & NI & TI & BS). pose proof (winv_run nets selfs names bmcs deployers tid ND TI BS false l HA ltac:(discriminate)) as W. fold w in W.
  assert (TX : n_tx (w_st w h) = []). { destruct (n_tx (w_st w h)) as [|[sn t] r] eqn:E; [reflexivity|]. exfalso. assert (G : aget Z.eqb sn (n_tx (w_st w h)) = Some t) by (rewrite E; cbn [aget]; rewrite Z.eqb_refl; reflexivity). pose proof (wi_all _ _ _ _ _ _ W h sn t HH G) as HI. rewrite EF in HI. destruct HI. }
  assert (LS : forall k, lockedSum (w_st w h) k = 0). { intros k. change (lockedSum (w_st w h) k) with (lsum (n_bal (w_st w h)) k). rewrite (i_lsum _ _ _ _ (wi_n _ _ _ _ _ _ W h HH)), TX. reflexivity. }
  assert (AU : answered_under_way w c = 0) by (unfold answered_under_way; rewrite EF; reflexivity).
  unfold owes in P1, P2. rewrite (LS c), AU in P1, P2. split; [exact TX|]. split; [exact LS|]. split; [lia|]. intros HO. specialize (P2 HO). lia.
Qed.
End C89.

(** Networks 1 and 2 with native coins 11 and 12, services 21 and 22, message centers 31 and 32, owners 41 and 42; accounts 5 and 6. *)
Definition net_demo (l : list wop) : world := wrun [1; 2] (fun n => 20 + n) (fun n => 10 + n) (fun n => 30 + n) (fun n => 40 + n) (fun c => c) l.
Definition to2 : btpaddr := BtpAddr 2 (Some 6).
Definition to1 : btpaddr := BtpAddr 1 (Some 5).
(** 5 sends 20000 of coin 11 to 6; 6 sends 100 of the tokens back, then 50; the last request fails; 5 sends 500 more, paid but not yet answered. *)
Definition demo_net : list wop :=
  [ WLocal 1 all_ok (Register 41 12); WLocal 2 all_ok (Register 42 11); WLocal 1 all_ok (TransferNative 5 20000 to2); WDeliver 0 all_ok; WDeliver 0 all_ok;
    WLocal 2 all_ok (Transfer 6 11 100 to1); WDeliver 0 all_ok; WDeliver 0 all_ok; WLocal 2 all_ok (TransferBatch 6 [11] [50] 3000 to1); WFail 0; WDeliver 0 all_ok;
    WLocal 1 all_ok (TransferNative 5 500 to2); WDeliver 0 all_ok ].
Example C89_ex : set_up [1; 2] (fun n => 20 + n) (fun n => 10 + n) (fun n => 30 + n) (fun c => c) /\ answered_run demo_net /\ Forall names_once demo_net
  /\ let w := net_demo demo_net in
  w_fly w = [IMsg 2 2 1 (BResponse 0)] /\ n_coins (w_st w 1) = 20401 /\ owes w 1 11 = 520 /\ abroad [1; 2] (fun c => c) w 1 11 = 20380 /\ answered_under_way w 11 = 499
  /\ n_coins (w_st w 2) = 3000 /\ refundSum (w_st w 2) 12 = 3000 /\ carried [1; 2] w 1 1 = 1 /\ carried [1; 2] w 2 2 = 0 /\ ends 2 (n_out (w_st w 2)) = 1 /\ under_way w 1 2 = 1.
Proof.
  split; [|split; [|split]].
  - split; [repeat constructor; cbn [In]; intros [X|[]] || intros []; discriminate|]. split; [intros a b _ _ H; lia|]. split; [intros a b H; exact H|]. intros n H. lia.
  - repeat constructor.
  - repeat constructor. intros [].
  - vm_compute. repeat split; reflexivity.
Qed.

(** Not so if an answer can be turned back: the error for it ends the transfer with the same number at the network that gave the answer.
    That one is given back although its request is still carried out, and a coin is paid for twice. *)
Theorem C89_answer_turned_back_refuted : exists l, Forall names_once l /\ let w := net_demo l in
  n_coins (w_st w 2) < owes w 2 12 + abroad [1; 2] (fun c => c) w 2 12 - answered_under_way w 12
  /\ snd (getBalance (w_st w 2) 12 6) = 3000 /\ tokOf (w_st w 1) 12 5 = 2997 /\ n_coins (w_st w 2) = 3000.
Proof.
  exists [ WLocal 1 all_ok (Register 41 12); WLocal 2 all_ok (Register 42 11); WLocal 1 all_ok (TransferNative 5 20000 to2); WLocal 2 all_ok (TransferNative 6 3000 to1);
    WDeliver 0 all_ok; WDropAnswer 1; WDeliver 1 all_ok; WDeliver 0 all_ok; WDeliver 0 all_ok ].
  split; [repeat constructor|]. vm_compute. repeat split; reflexivity.
Qed.

(** Not so if a batch names a coin twice: with everything settled, coins are left that nobody has a claim to. *)
Theorem C89_named_twice_refuted : exists l, answered_run l /\ let w := net_demo l in
  w_fly w = [] /\ refundSum (w_st w 1) 11 + getFee (w_st w 1) 11 + abroad [1; 2] (fun c => c) w 1 11 + 99 = n_coins (w_st w 1).
Proof.
  exists [ WLocal 2 all_ok (Register 42 11); WLocal 1 all_ok (TransferNative 5 20000 to2); WDeliver 0 all_ok; WDeliver 0 all_ok;
    WLocal 2 all_ok (TransferBatch 6 [11; 11] [100; 500] 0 to1); WDeliver 0 all_ok; WDeliver 0 all_ok ].
  split; [repeat constructor|]. vm_compute. repeat split; reflexivity.
Qed.

Print Assumptions C89_conserved.
Print Assumptions C89_under_way.
Print Assumptions C89_both_or_neither.
Print Assumptions C89_refunds_covered.
Print Assumptions C89_goes_through.
Print Assumptions C89_settled.
Print Assumptions C89_answer_turned_back_refuted.
Print Assumptions C89_named_twice_refuted.
