(** The token service: invariants. *)
From Coq Require Import ZArith List Bool Lia Permutation.
From Coq Require Import ZifyBool.
From Verif Require Import Base L_Base M_JMap L_JMap M_JBmc L_JBmc L_JSum M_Ncs S_Ncs L_Ncs M_Tbsh S_Tbsh L_Tbsh L_Tbsh2.
Import ListNotations.
Open Scope Z_scope.

Section TBSH.
Variables self bmc deployer : Z.
Local Notation teff := (teff self bmc deployer).
Variable led0 : list ((Z * Z) * Z).

(** * Registered names and tokens held *)
Record rinv (s : tb) : Prop := RInv {
  r_names : NoDup (b_names s);
  r_known : forall n, In n (b_names s) <-> aget Z.eqb n (b_addr s) <> None;
  r_tok : forall tok n num, aget Z.eqb tok (b_toks s) = Some (n, num) -> aget Z.eqb n (b_addr s) = Some tok;
  r_addr : forall n tok, aget Z.eqb n (b_addr s) = Some tok -> aget Z.eqb tok (b_toks s) <> None;
  r_in : forall tok n u v, In (TDeposit tok n u v) (b_out s) -> aget Z.eqb n (b_addr s) = Some tok;
  r_out : forall tok n a v, In (TPaid tok n a v) (b_out s) -> aget Z.eqb n (b_addr s) = Some tok;
  r_led : forall tok, ledOf s tok self = gett led0 tok self + cameIn (b_out s) tok - wentOut (b_out s) tok }.

Ltac fields := cbn [b_addr b_names b_toks b_bal b_owners b_count b_fees b_pend b_pfees b_sn b_led b_out setAddr setNames setToks setBal setOwners setFees setPend setPfees setSn setLed emitT t_setBalance t_setFee] in *.
Ltac logs := unfold deposited, taken, arrived, refused, undone, stuck, allDeposited, allPaid, sentOff, feesTaken, feesGathered, feesReturned, cameIn, wentOut, tstarts, tends in *; fields; rewrite ?sum_snoc, ?flat_snoc in *; cbv beta iota in *; rewrite ?app_nil_r in *.
Ltac snoc H := rewrite ?in_app_iff in H; cbn [In] in H; repeat match type of H with _ \/ _ => destruct H as [H|H] end; try contradiction; try discriminate.

Lemma same_led : forall s s', b_led s' = b_led s -> forall tok a, ledOf s' tok a = ledOf s tok a.
Proof. intros s s' E tok a. unfold ledOf. rewrite E. reflexivity. Qed.
Lemma rinv_same : forall s s' add, rinv s -> b_names s' = b_names s -> b_addr s' = b_addr s -> b_toks s' = b_toks s -> b_led s' = b_led s -> b_out s' = b_out s ++ add ->
  Forall (fun e => match e with TDeposit _ _ _ _ | TPaid _ _ _ _ => False | _ => True end) add -> rinv s'.
Proof.
  intros s s' add [A B C D E F G] H1 H2 H3 H4 H5 H6. split; rewrite ?H1, ?H2, ?H3; try assumption.
  - intros tok n u v HI. rewrite H5, in_app_iff in HI. destruct HI as [HI|HI]; [apply (E _ _ _ _ HI)|]. rewrite Forall_forall in H6. destruct (H6 _ HI).
  - intros tok n u v HI. rewrite H5, in_app_iff in HI. destruct HI as [HI|HI]; [apply (F _ _ _ _ HI)|]. rewrite Forall_forall in H6. destruct (H6 _ HI).
  - intros tok. rewrite (same_led s s' H4), G, H5. unfold cameIn, wentOut. rewrite !sum_app, (sum_zero _ add), (sum_zero _ add); [lia| |]; intros x hx; rewrite Forall_forall in H6; specialize (H6 x hx); destruct x; try contradiction; reflexivity.
Qed.
Lemma rinv_step : forall s o s', rinv s -> teff s o s' -> rinv s'.
Proof.
  intros s o s' I E. destruct E.
  - eapply (rinv_same _ _ []); try eassumption; try reflexivity; [rewrite app_nil_r; reflexivity|constructor].
  - destruct I. split; fields.
    + apply nodup_snoc; [exact r_names0|]. rewrite r_known0. tauto.
    + intros k. rewrite in_app_iff. cbn [In]. destruct (Z.eq_dec k n) as [->|N]; [rewrite (aput_same Z.eqb z_key); split; [discriminate|intros _; right; left; reflexivity]|]. rewrite (aput_other Z.eqb z_key) by exact N. rewrite r_known0. split; [intros [X|[X|[]]]; [exact X|congruence]|tauto].
    + intros t k q X. destruct (Z.eq_dec t tok) as [->|N].
      * rewrite (aput_same Z.eqb z_key) in X. injection X as <- <-. apply (aput_same Z.eqb z_key).
      * rewrite (aput_other Z.eqb z_key) in X by exact N. apply r_tok0 in X. rewrite (aput_other Z.eqb z_key); [exact X|]. intros ->. congruence.
    + intros k t X. destruct (Z.eq_dec t tok) as [->|N]; [rewrite (aput_same Z.eqb z_key); discriminate|]. rewrite (aput_other Z.eqb z_key) by exact N. destruct (Z.eq_dec k n) as [->|NK]; [rewrite (aput_same Z.eqb z_key) in X; congruence|]. rewrite (aput_other Z.eqb z_key) in X by exact NK. apply (r_addr0 _ _ X).
    + intros t k u v X. apply r_in0 in X. rewrite (aput_other Z.eqb z_key); [exact X|]. intros ->. congruence.
    + intros t k u v X. apply r_out0 in X. rewrite (aput_other Z.eqb z_key); [exact X|]. intros ->. congruence.
    + exact r_led0.
  - destruct I. split; try assumption. intros k. rewrite led_move, r_led0. change (b_out (moveLed s tok from to v)) with (b_out s). destruct (k =? tok); [|lia]. replace (self =? to) with false by lia. replace (self =? from) with false by lia. lia.
  - destruct I. split; fields; try assumption.
    + intros t k u w X. snoc X; [apply (r_in0 _ _ _ _ X)|]. injection X as <- <- <- <-. apply (r_tok0 _ _ _ H1).
    + intros t k u w X. snoc X. apply (r_out0 _ _ _ _ X).
    + intros k. erewrite (same_led (moveLed s tok from self v)) by reflexivity. rewrite led_move, r_led0. change (b_out (moveLed s tok from self v)) with (b_out s). logs. rewrite Z.eqb_refl. rewrite (Z.eqb_sym tok k). destruct (k =? tok); [|lia]. replace (self =? from) with false by lia. lia.
  - eapply (rinv_same s _ [_; _]); try eassumption; try reflexivity; [fields; rewrite <- app_assoc; reflexivity|repeat constructor].
  - destruct I. split; fields; try assumption.
    + intros t k u w X. snoc X. apply (r_in0 _ _ _ _ X).
    + intros t k u w X. snoc X; [apply (r_out0 _ _ _ _ X)|]. injection X as <- <- <- <-. exact H0.
    + intros k. erewrite (same_led (moveLed s tok self a (a_value x))) by reflexivity. rewrite led_move, r_led0. change (b_out (moveLed s tok self a (a_value x))) with (b_out s). logs. rewrite Z.eqb_refl. rewrite (Z.eqb_sym tok k). destruct (k =? tok); [|lia]. replace (self =? a) with false by lia. lia.
  - destruct I. split; fields; try assumption.
    + intros t k u w X. snoc X; [apply (r_in0 _ _ _ _ X)|]. injection X as <- <- <- <-. apply (r_tok0 _ _ _ H2).
    + intros t k u w X. snoc X; [apply (r_out0 _ _ _ _ X)|]. injection X as <- <- <- <-. exact H0.
    + intros k. erewrite (same_led (moveLed s tok self self (a_value x))) by reflexivity. rewrite led_move, r_led0. change (b_out (moveLed s tok self self (a_value x))) with (b_out s). logs. rewrite Z.eqb_refl. rewrite (Z.eqb_sym tok k). destruct (k =? tok); lia.
  - destruct (feesBack_spec (m_assets m) s) as [_ R]. eapply (rinv_same s _ [_; _]); try eassumption; fields; try (destruct (code =? T_ERR); [rewrite R|]; reflexivity); [destruct (code =? T_ERR); [rewrite R|]; fields; rewrite <- app_assoc; reflexivity|repeat constructor].
  - destruct (settle_spec (m_assets m) s (m_from m) code) as (_ & _ & R). red in R. eapply (rinv_same s _ [_; _]); try eassumption; fields; try (rewrite R; reflexivity); [rewrite R; fields; rewrite <- app_assoc; reflexivity|repeat constructor].
  - exact I.
  - eapply (rinv_same s _ [_]); try eassumption; try reflexivity. repeat constructor.
  - eapply (rinv_same s _ [_]); try eassumption; try reflexivity. repeat constructor.
  - apply gather_spec in H0 as (add & -> & _ & _ & _ & _ & _ & _ & _ & _ & R). cbn [app]. destruct add as [|x add].
    + eapply (rinv_same s _ []); try eassumption; try (rewrite R; reflexivity); [rewrite R; fields; rewrite app_nil_r; reflexivity|constructor].
    + eapply (rinv_same s _ [_; _]); try eassumption; try (fields; rewrite R; reflexivity); [fields; rewrite (f_equal b_out R); fields; rewrite <- app_assoc; reflexivity|repeat constructor].
  - eapply (rinv_same s _ []); try eassumption; try reflexivity; [rewrite app_nil_r; reflexivity|constructor].
Qed.
Lemma rinv_init : rinv (tinit deployer led0).
Proof.
  split; cbn [tinit b_names b_addr b_toks b_out aget In]; try (intros; contradiction); try (intros; discriminate).
  - constructor.
  - intros n. split; [intros []|congruence].
  - intros tok. unfold cameIn, wentOut, sumOf. cbn [fold_right]. change (gett led0 tok self = gett led0 tok self + 0 - 0). lia.
Qed.

(** * Numbers and pending transfers *)
Record pinv (s : tb) : Prop := PInv {
  p_sn : 0 <= b_sn s;
  p_nd : NoDup (map fst (b_pend s));
  p_ndf : NoDup (map fst (b_pfees s));
  p_pend : forall sn m, aget Z.eqb sn (b_pend s) = Some m -> 1 <= sn <= b_sn s /\ In (TStart (m_from m) (m_to m) sn (m_assets m)) (b_out s) /\ exists x, m_assets m = [x] /\ In (a_name x) (b_names s);
  p_fees : forall sn m, aget Z.eqb sn (b_pfees s) = Some m -> 1 <= sn <= b_sn s /\ ~ In sn (tstarts (b_out s)) /\ m_from m = bmc;
  p_range : forall k, In k (tstarts (b_out s)) -> 1 <= k <= b_sn s;
  p_uniq : NoDup (tstarts (b_out s));
  p_ends : forall k, tends (b_out s) k = if in_dec Z.eq_dec k (tstarts (b_out s)) then (if ahas Z.eqb k (b_pend s) then 0 else 1) else 0;
  p_done : forall o k c l, In (TDone o k c l) (b_out s) -> exists to, In (TStart o to k l) (b_out s);
  p_undone : forall o k l, In (TUndone o k l) (b_out s) -> exists to, In (TStart o to k l) (b_out s) }.
Lemma in_starts : forall o to k l log, In (TStart o to k l) log -> In k (tstarts log).
Proof. intros. unfold tstarts. apply in_flat_map. exists (TStart o to k l). split; [assumption|left; reflexivity]. Qed.
Lemma starts_app : forall a b, tstarts (a ++ b) = tstarts a ++ tstarts b.
Proof. intros. apply flat_map_app. Qed.
(** calls that neither start nor end a transfer *)
Lemma pinv_same : forall s s' add, pinv s -> b_pend s' = b_pend s -> (exists rest, b_names s' = b_names s ++ rest) -> b_out s' = b_out s ++ add ->
  Forall (fun e => match e with TStart _ _ _ _ | TDone _ _ _ _ | TUndone _ _ _ => False | _ => True end) add ->
  b_sn s <= b_sn s' -> NoDup (map fst (b_pfees s')) ->
  (forall sn m, aget Z.eqb sn (b_pfees s') = Some m -> aget Z.eqb sn (b_pfees s) = Some m \/ b_sn s < sn <= b_sn s' /\ m_from m = bmc) -> pinv s'.
Proof.
  intros s s' add [A B C D E F G H J K] H1 [rest H2] H3 H4 H5 H6 H7. rewrite Forall_forall in H4.
  assert (ST : tstarts (b_out s') = tstarts (b_out s)). { rewrite H3, starts_app. unfold tstarts at 2. replace (flat_map (fun e => match e with TStart _ _ k _ => [k] | _ => [] end) add) with (@nil Z); [apply app_nil_r|]. symmetry. clear - H4. induction add as [|e add IH]; [reflexivity|]. cbn [flat_map]. rewrite IH by (intros y hy; apply H4; right; exact hy). specialize (H4 e (or_introl eq_refl)). destruct e; try contradiction; reflexivity. }
  assert (TE : forall k, tends (b_out s') k = tends (b_out s) k). { intros k. rewrite H3. unfold tends. rewrite sum_app, (sum_zero _ add); [lia|]. intros e he. specialize (H4 e he). destruct e; try contradiction; reflexivity. }
  split; rewrite ?ST; try assumption; try (rewrite H1; assumption).
  - lia.
  - intros sn m X. rewrite H1 in X. destruct (D sn m X) as (D1 & D2 & x & D3 & D4). split; [lia|]. split; [rewrite H3; apply in_app_iff; left; exact D2|]. exists x. split; [exact D3|]. rewrite H2. apply in_app_iff. left. exact D4.
  - intros sn m X. destruct (H7 sn m X) as [Y|[Y1 Y2]]; [destruct (E sn m Y) as (E1 & E2 & E3); repeat split; try assumption; lia|]. repeat split; try lia; try assumption. intros Z0. apply F in Z0. lia.
  - intros k X. apply F in X. lia.
  - intros k. rewrite TE, H, H1. reflexivity.
  - intros o k c l X. rewrite H3, in_app_iff in X. destruct X as [X|X]; [|destruct (H4 _ X)]. destruct (J _ _ _ _ X) as [to Y]. exists to. rewrite H3, in_app_iff. left. exact Y.
  - intros o k l X. rewrite H3, in_app_iff in X. destruct X as [X|X]; [|destruct (H4 _ X)]. destruct (K _ _ _ X) as [to Y]. exists to. rewrite H3, in_app_iff. left. exact Y.
Qed.
(** a transfer that ends *)
Lemma pinv_end : forall s s' add sn m, pinv s -> aget Z.eqb sn (b_pend s) = Some m -> b_pend s' = adel Z.eqb sn (b_pend s) -> b_pfees s' = b_pfees s -> b_sn s' = b_sn s -> b_names s' = b_names s ->
  b_out s' = b_out s ++ add -> (exists e rest, add = e :: rest /\ ((exists c, e = TDone (m_from m) sn c (m_assets m)) \/ e = TUndone (m_from m) sn (m_assets m)) /\
  Forall (fun e => match e with TStart _ _ _ _ | TDone _ _ _ _ | TUndone _ _ _ => False | _ => True end) rest) -> pinv s'.
Proof.
  intros s s' add sn m [A B C D E F G H J K] HM H1 H2 H3 H4 H5 (e & rest & -> & HE & HR). rewrite Forall_forall in HR.
  destruct (D sn m HM) as (D1 & D2 & D3).
  assert (ST : tstarts (b_out s') = tstarts (b_out s)). { rewrite H5, starts_app. replace (tstarts (e :: rest)) with (@nil Z); [apply app_nil_r|]. symmetry. unfold tstarts. cbn [flat_map]. replace (flat_map (fun e => match e with TStart _ _ k _ => [k] | _ => [] end) rest) with (@nil Z); [destruct HE as [[c ->]| ->]; reflexivity|]. clear - HR. induction rest as [|x rest IH]; [reflexivity|]. cbn [flat_map]. rewrite <- IH by (intros y hy; apply HR; right; exact hy). specialize (HR x (or_introl eq_refl)). destruct x; try contradiction; reflexivity. }
  assert (TE : forall k, tends (b_out s') k = tends (b_out s) k + if sn =? k then 1 else 0). { intros k. rewrite H5. unfold tends. rewrite sum_app, sum_cons, (sum_zero _ rest); [destruct HE as [[c ->]| ->]; lia|]. intros y hy. specialize (HR y hy). destruct y; try contradiction; reflexivity. }
  split; rewrite ?ST, ?H2, ?H3, ?H4; try assumption.
  - rewrite H1. apply (adel_nodup Z.eqb z_key), B.
  - intros k q X. rewrite H1 in X. assert (N : k <> sn). { intros ->. rewrite (adel_same Z.eqb z_key) in X by exact B. discriminate. } rewrite (adel_other Z.eqb z_key) in X by assumption. destruct (D k q X) as (Q1 & Q2 & Q3). split; [exact Q1|]. split; [rewrite H5; apply in_app_iff; left; exact Q2|exact Q3].
  - intros k. rewrite TE, H, H1. unfold ahas. destruct (Z.eq_dec k sn) as [->|N].
    + rewrite (adel_same Z.eqb z_key) by exact B. rewrite HM, Z.eqb_refl. destruct (in_dec Z.eq_dec sn (tstarts (b_out s))) as [|NI]; [lia|]. exfalso. apply NI. eapply in_starts, D2.
    + rewrite (adel_other Z.eqb z_key) by assumption. replace (sn =? k) with false by lia. lia.
  - intros o k c l X. rewrite H5, in_app_iff in X. cbn [In] in X. destruct X as [X|[X|X]].
    + destruct (J _ _ _ _ X) as [to Y]. exists to. rewrite H5, in_app_iff. left. exact Y.
    + destruct HE as [[c' ->]| ->]; [|discriminate]. injection X as <- <- <- <-. exists (m_to m). rewrite H5, in_app_iff. left. exact D2.
    + destruct (HR _ X).
  - intros o k l X. rewrite H5, in_app_iff in X. cbn [In] in X. destruct X as [X|[X|X]].
    + destruct (K _ _ _ X) as [to Y]. exists to. rewrite H5, in_app_iff. left. exact Y.
    + destruct HE as [[c' ->]| ->]; [discriminate|]. injection X as <- <- <-. exists (m_to m). rewrite H5, in_app_iff. left. exact D2.
    + destruct (HR _ X).
Qed.
Lemma pinv_step : forall s o s', rinv s -> pinv s -> teff s o s' -> pinv s'.
Proof.
  intros s o s' R0 I E. destruct E.
  - eapply (pinv_same s _ []); try eassumption; fields; try reflexivity; try (exists []; symmetry; apply app_nil_r); try (symmetry; apply app_nil_r); try lia; [constructor|apply (p_ndf _ I)|auto].
  - eapply (pinv_same s _ []); try eassumption; fields; try reflexivity; try (eexists; reflexivity); try (symmetry; apply app_nil_r); try lia; [constructor|apply (p_ndf _ I)|auto].
  - eapply (pinv_same s _ []); try eassumption; fields; try reflexivity; try (exists []; symmetry; apply app_nil_r); try (symmetry; apply app_nil_r); try (cbn; lia); [constructor|apply (p_ndf _ I)|auto].
  - eapply (pinv_same s _ [_]); try eassumption; fields; try reflexivity; try (exists []; symmetry; apply app_nil_r); try (cbn; lia); [repeat constructor|apply (p_ndf _ I)|auto].
  - destruct I. assert (NB : forall k, In k (tstarts (b_out s)) -> k <> b_sn s + 1) by (intros k X ->; apply p_range0 in X; lia). assert (NP : aget Z.eqb (b_sn s + 1) (b_pend s) = None). { destruct (aget Z.eqb (b_sn s + 1) (b_pend s)) as [q|] eqn:Q; [|reflexivity]. apply p_pend0 in Q as (Q & _). lia. }
    assert (ST : forall e, tstarts ((b_out s ++ [TSend (ta_net t) (b_sn s + 1) e]) ++ [TStart c t (b_sn s + 1) [TAsset n (v - fee) fee]]) = tstarts (b_out s) ++ [b_sn s + 1]) by (intros e; rewrite !starts_app; unfold tstarts at 2 3; cbn [flat_map app]; rewrite app_nil_r; reflexivity).
    split; fields; rewrite ?ST.
    + lia.
    + apply (aput_nodup Z.eqb z_key), p_nd0.
    + exact p_ndf0.
    + intros k q X. rewrite !in_app_iff. cbn [In]. destruct (Z.eq_dec k (b_sn s + 1)) as [->|N].
      * rewrite (aput_same Z.eqb z_key) in X. injection X as <-. cbn [m_from m_to m_assets]. split; [lia|]. split; [right; left; reflexivity|]. eexists. split; [reflexivity|]. cbn [a_name]. apply (r_known _ R0). congruence.
      * rewrite (aput_other Z.eqb z_key) in X by exact N. apply p_pend0 in X as (X1 & X2 & X3). split; [lia|]. split; [left; left; exact X2|exact X3].
    + intros k q X. apply p_fees0 in X as (X1 & X2 & X3). repeat split; try assumption; try lia. rewrite in_app_iff. cbn [In]. intros [Y|[Y|[]]]; [tauto|lia].
    + intros k X. rewrite in_app_iff in X. cbn [In] in X. destruct X as [X|[X|[]]]; [apply p_range0 in X; lia|lia].
    + apply nodup_snoc; [exact p_uniq0|]. intros X. apply (NB _ X). reflexivity.
    + intros k. unfold tends. rewrite !sum_snoc. cbv beta iota. fold (tends (b_out s) k). rewrite p_ends0. unfold ahas. destruct (Z.eq_dec k (b_sn s + 1)) as [->|N].
      * rewrite (aput_same Z.eqb z_key). destruct (in_dec Z.eq_dec (b_sn s + 1) (tstarts (b_out s))) as [Y|_]; [destruct (NB _ Y); reflexivity|]. destruct (in_dec Z.eq_dec (b_sn s + 1) (tstarts (b_out s) ++ [b_sn s + 1])); reflexivity.
      * rewrite (aput_other Z.eqb z_key) by exact N. destruct (in_dec Z.eq_dec k (tstarts (b_out s))) as [Y|Y]; destruct (in_dec Z.eq_dec k (tstarts (b_out s) ++ [b_sn s + 1])) as [W|W]; try lia; exfalso; rewrite in_app_iff in W; cbn [In] in W; [tauto|]. destruct W as [W|[W|[]]]; [tauto|lia].
    + intros o k q l X. rewrite !in_app_iff in X. cbn [In] in X. destruct X as [[X|[X|[]]]|[X|[]]]; try discriminate. destruct (p_done0 _ _ _ _ X) as [to Y]. exists to. rewrite !in_app_iff. tauto.
    + intros o k l X. rewrite !in_app_iff in X. cbn [In] in X. destruct X as [[X|[X|[]]]|[X|[]]]; try discriminate. destruct (p_undone0 _ _ _ X) as [to Y]. exists to. rewrite !in_app_iff. tauto.
  - eapply (pinv_same s _ [_; _]); try eassumption; fields; try reflexivity; try (exists []; symmetry; apply app_nil_r); try (rewrite <- app_assoc; reflexivity); try (cbn; lia); [repeat constructor|apply (p_ndf _ I)|auto].
  - eapply (pinv_same s _ [_; _; _]); try eassumption; fields; try reflexivity; try (exists []; symmetry; apply app_nil_r); try (rewrite <- !app_assoc; reflexivity); try (cbn; lia); [repeat constructor|apply (p_ndf _ I)|auto].
  - destruct (feesBack_spec (m_assets m) s) as [_ R]. pose proof (p_ndf _ I) as ND. eapply (pinv_same s _ [_; _]); try eassumption; fields.
    + destruct (code =? T_ERR); [rewrite R|]; reflexivity.
    + exists []. rewrite app_nil_r. destruct (code =? T_ERR); [rewrite R|]; reflexivity.
    + destruct (code =? T_ERR); [rewrite R|]; fields; rewrite <- app_assoc; reflexivity.
    + repeat constructor.
    + destruct (code =? T_ERR); [rewrite R|]; fields; lia.
    + apply (adel_nodup Z.eqb z_key), ND.
    + intros k q X. left. destruct (Z.eq_dec k sn) as [->|N]; [rewrite (adel_same Z.eqb z_key) in X by exact ND; discriminate|]. rewrite (adel_other Z.eqb z_key) in X by assumption. exact X.
  - destruct (settle_spec (m_assets m) s (m_from m) code) as (_ & _ & R). red in R. eapply (pinv_end s _ [_; _] sn m); try eassumption; fields; try (rewrite R; reflexivity); try reflexivity.
    + rewrite R. fields. rewrite <- app_assoc. reflexivity.
    + eexists _, _. split; [reflexivity|]. split; [left; eexists; reflexivity|repeat constructor].
  - exact I.
  - eapply (pinv_same s _ [_]); try eassumption; fields; try reflexivity; try (exists []; symmetry; apply app_nil_r); try lia; [repeat constructor|apply (p_ndf _ I)|auto].
  - eapply (pinv_end s _ [_] sn m); try eassumption; fields; try reflexivity. eexists _, _. split; [reflexivity|]. split; [right; reflexivity|constructor].
  - apply gather_spec in H0 as (add & -> & _ & _ & _ & SN & P1 & _ & _ & ND & R). cbn [app]. assert (HP : forall sn m, aget Z.eqb sn (b_pfees s1) = Some m -> aget Z.eqb sn (b_pfees s) = Some m \/ b_sn s < sn <= b_sn s1 /\ m_from m = bmc). { intros sn m X. apply P1 in X as [X|(X1 & X2 & _)]; [left; exact X|right; split; [exact X1|congruence]]. }
    specialize (ND (p_ndf _ I)). destruct add as [|x add].
    + eapply (pinv_same s _ []); try eassumption; try (rewrite R; reflexivity); [exists []; rewrite R; fields; rewrite app_nil_r; reflexivity|rewrite R; fields; rewrite app_nil_r; reflexivity|constructor|lia].
    + eapply (pinv_same s _ [_; _]); try eassumption; try (fields; rewrite R; reflexivity); [exists []; fields; rewrite (f_equal b_names R); fields; rewrite app_nil_r; reflexivity|fields; rewrite (f_equal b_out R); fields; rewrite <- app_assoc; reflexivity|repeat constructor|fields; lia].
  - eapply (pinv_same s _ []); try eassumption; fields; try reflexivity; try (exists []; symmetry; apply app_nil_r); try (symmetry; apply app_nil_r); try lia; [constructor|apply (p_ndf _ I)|auto].
Qed.
Lemma pinv_init : pinv (tinit deployer led0).
Proof.
  split; cbn [tinit b_sn b_pend b_pfees b_out b_names map aget]; try (intros; discriminate); try (intros; contradiction); try constructor; try lia.
Qed.
End TBSH.
