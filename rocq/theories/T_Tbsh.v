(** C91: the token service keeps its books, as long as nobody writes into them. *)
From Coq Require Import ZArith List Bool Lia.
From Coq Require Import ZifyBool.
From Verif Require Import Base L_Base M_JMap L_JMap M_JBmc L_JBmc L_JSum M_Ncs S_Ncs L_Ncs M_Tbsh S_Tbsh L_Tbsh L_Tbsh2 L_Tbsh3 L_Tbsh4 L_Tbsh5.
Import ListNotations.
Open Scope Z_scope.

Section C91.
Variables self bmc deployer : Z.
Variable isContract : Z -> bool.
Variable led0 : list ((Z * Z) * Z).
Local Notation texec := (texec self bmc deployer isContract).
Local Notation trun := (trun self bmc deployer isContract led0).

(** After any calls but setBalance, what is usable and locked of a user is what the history says: usable is what was deposited less what
    transfers took, with what was refused or undone; locked is what is under way and the fees of undone transfers; nothing is refundable; the
    fees are those of answered transfers less those gathered, with those returned. *)
Theorem C91_accounts : forall l, no_hand l -> let s := trun l in let h := b_out s in
  (forall u n, l_usable (t_getBalance s u n) = deposited h u n - taken h u n + refused h u n + undone h u n
     /\ l_locked (t_getBalance s u n) = in_transit s u n + stuck h u n
     /\ in_transit s u n = taken h u n - arrived h u n - refused h u n - undone h u n - stuck h u n
     /\ l_refundable (t_getBalance s u n) = 0)
  /\ (forall n, t_getFee s n = feesTaken h n - feesGathered h n + feesReturned h n).
Proof using.
  intros l NH s h. pose proof (run_b self bmc deployer isContract led0 l NH) as [A B C D E F]. fold s in A, B, C, D, E, F. fold h in A, B, C, D, E, F. split; [|exact F].
  intros u n. change (t_getBalance s u n) with (balOf (b_bal s) u n). rewrite A, B, C, D. repeat split; lia.
Qed.

(** The tokens the service holds are those it had, with those that came in, less those that went out.  If a token has one name only, they are
    what it had, with what everybody is owed of it and the fees, with what left the books, less what was paid for requests. *)
Theorem C91_covered : forall l, let s := trun l in let h := b_out s in
  (forall tok, ledOf s tok self = gett led0 tok self + cameIn h tok - wentOut h tok)
  /\ (no_hand l -> forall n tok, aget Z.eqb n (b_addr s) = Some tok -> (forall k, aget Z.eqb k (b_addr s) = Some tok -> k = n) ->
      ledOf s tok self = gett led0 tok self + booksOf s n + t_getFee s n + (sentOff h n + feesGathered h n - feesReturned h n - allPaid h n)).
Proof using.
  intros l s h. destruct (run_rp self bmc deployer isContract led0 l) as [R _]. fold s in R. split; [apply (r_led _ _ _ R)|].
  intros NH n tok EN U. pose proof (run_b self bmc deployer isContract led0 l NH) as B. fold s in B. rewrite (r_led _ _ _ R). pose proof (v_books _ B n) as VB. change (bksum (b_bal s) n) with (booksOf s n) in VB. fold h in VB |- *.
  assert (E1 : cameIn h tok = allDeposited h n). { unfold cameIn, allDeposited. apply sum_ext. intros e he. destruct e; try reflexivity. pose proof (r_in _ _ _ R _ _ _ _ he) as X. destruct (Z.eqb_spec tok0 tok) as [->|N1]; [rewrite (U _ X), Z.eqb_refl; reflexivity|]. destruct (Z.eqb_spec n0 n) as [->|]; [congruence|reflexivity]. }
  assert (E2 : wentOut h tok = allPaid h n). { unfold wentOut, allPaid. apply sum_ext. intros e he. destruct e; try reflexivity. pose proof (r_out _ _ _ R _ _ _ _ he) as X. destruct (Z.eqb_spec tok0 tok) as [->|N1]; [rewrite (U _ X), Z.eqb_refl; reflexivity|]. destruct (Z.eqb_spec n0 n) as [->|]; [congruence|reflexivity]. }
  rewrite E1, E2. lia.
Qed.

(** With amounts and fee shares as they should be, nothing on the books is below 0. *)
Theorem C91_signs : forall l, no_hand l -> sane l -> let s := trun l in
  (forall u n, 0 <= l_usable (t_getBalance s u n) /\ 0 <= in_transit s u n <= l_locked (t_getBalance s u n)) /\ (forall n, 0 <= t_getFee s n).
Proof using.
  intros l NH SA s. pose proof (run_s self bmc deployer isContract led0 l NH SA) as S. fold s in S. pose proof (run_b self bmc deployer isContract led0 l NH) as B. fold s in B. destruct (run_rp self bmc deployer isContract led0 l) as [_ P]. fold s in P. split; [|apply (g_fees _ S)].
  intros u n. change (t_getBalance s u n) with (balOf (b_bal s) u n). split; [apply (g_usable _ S)|]. rewrite (v_locked _ B), (v_transit _ B).
  assert (T : 0 <= in_transit s u n). { apply sum_nonneg. intros [k m] hx. cbn [snd]. pose proof (aget_unique Z.eqb z_key _ _ _ (p_nd _ _ P) hx) as G. pose proof (g_pend _ S _ _ G) as PM. destruct (m_from m =? u); [|lia]. unfold ttotal. pose proof (posa_net n _ PM). pose proof (posa_fee n _ PM). lia. }
  rewrite (v_transit _ B) in T. split; [exact T|]. assert (K : 0 <= stuck (b_out s) u n). { apply sum_nonneg. intros e he. destruct e; try lia. destruct (owner =? u); [|lia]. apply posa_fee, (g_undone _ S _ _ _ he). } lia.
Qed.

(** Every number stands for one transfer; a transfer ends at most once, as it was started; those that have not ended are the stored ones. *)
Theorem C91_transfers : forall l, let s := trun l in let h := b_out s in
  NoDup (tstarts h)
  /\ (forall o to sn ds, In (TStart o to sn ds) h -> 1 <= sn <= b_sn s /\ 0 <= tends h sn <= 1 /\ (tends h sn = 0 <-> exists m, aget Z.eqb sn (b_pend s) = Some m))
  /\ (forall sn m, aget Z.eqb sn (b_pend s) = Some m -> In (TStart (m_from m) (m_to m) sn (m_assets m)) h /\ aget Z.eqb sn (b_pfees s) = None)
  /\ (forall o sn c ds, In (TDone o sn c ds) h \/ In (TUndone o sn ds) h -> exists to, In (TStart o to sn ds) h).
Proof using.
  intros l s h. destruct (run_rp self bmc deployer isContract led0 l) as [_ P]. fold s in P. destruct P. split; [exact p_uniq|]. split; [|split].
  - intros o to sn ds HI. pose proof (in_starts _ _ _ _ _ HI) as HS. split; [apply p_range, HS|]. rewrite p_ends. fold h. destruct (in_dec Z.eq_dec sn (tstarts h)) as [|N]; [|contradiction]. unfold ahas. destruct (aget Z.eqb sn (b_pend s)) as [m|]; split; try lia; split; intros X; try lia; [exists m; reflexivity|destruct X; discriminate].
  - intros sn m X. destruct (p_pend _ _ X) as (X1 & X2 & _). split; [exact X2|]. destruct (aget Z.eqb sn (b_pfees s)) as [q|] eqn:Q; [|reflexivity]. destruct (p_fees _ _ Q) as (_ & Q2 & _). exfalso. apply Q2. eapply in_starts, X2.
  - intros o sn c ds [X|X]; [apply (p_done _ _ _ _ X)|apply (p_undone _ _ _ X)].
Qed.

(** A transfer takes the amount from what the caller can use and asks the other side for it less the fee, the share rounded down; it is
    refused if the caller has less. *)
Theorem C91_charged : forall l y c n v to s', no_hand l -> sane l -> 0 < v -> let s := trun l in texec s y (TTransfer c n v to) = Some s' ->
  exists t tok nn num fee, to = Some t /\ aget Z.eqb n (b_addr s) = Some tok /\ aget Z.eqb tok (b_toks s) = Some (nn, num) /\ fee = v * num / 10000 /\ 0 <= fee <= v
  /\ v <= l_usable (t_getBalance s c n)
  /\ b_out s' = b_out s ++ [TSend (ta_net t) (b_sn s') (TRequest (ta_acc t) [TAsset n (v - fee) fee]); TStart c t (b_sn s') [TAsset n (v - fee) fee]] /\ b_sn s' = b_sn s + 1
  /\ (forall u k, t_getBalance s' u k = if (u =? c) && (k =? n) then TBal (l_usable (t_getBalance s c n) - v) (l_locked (t_getBalance s c n) + v) (l_refundable (t_getBalance s c n)) else t_getBalance s u k).
Proof using.
  intros l y c n v to s' NH SA HV s E. pose proof (run_s self bmc deployer isContract led0 l NH SA) as S. fold s in S. apply texec_eff in E. inversion E as [? ? ? HO| | | |? ? ? t tok nn num fee H1 H2 H3 H4 H5| | | | | | | | |]; subst; [destruct HO as (? & ? & [[X _]|[X _]] & _); discriminate|].
  destruct (share_range v num HV (g_num _ S _ _ _ H4)) as [QE QR]. rewrite QE. exists t, tok, nn, num, (v * num / 10000). split; [reflexivity|]. split; [exact H1|]. split; [exact H4|]. split; [reflexivity|]. split; [exact QR|]. split; [exact H3|]. split; [|split; [reflexivity|]].
  - cbn [emitT setPend setSn t_setBalance setBal b_out b_sn]. rewrite <- app_assoc. reflexivity.
  - intros u k. change (balOf (b_bal (t_setBalance s c n (- v) v 0)) u k = if (u =? c) && (k =? n) then TBal (l_usable (t_getBalance s c n) - v) (l_locked (t_getBalance s c n) + v) (l_refundable (t_getBalance s c n)) else balOf (b_bal s) u k).
    cbn [t_setBalance setBal b_bal]. rewrite balOf_put. rewrite (Z.eqb_sym u c), (Z.eqb_sym k n). destruct ((c =? u) && (n =? k)); [|reflexivity]. f_equal; lia.
Qed.

(** An answer from the message center to a transfer under way is always carried out: OK takes the amount from what is locked and keeps the
    fee, anything else gives all of it back, the fee included. *)
Theorem C91_answered : forall l y from sn code m, let s := trun l in aget Z.eqb sn (b_pend s) = Some m ->
  exists s', texec s y (TMessage bmc from true sn (Some (TAnswer code))) = Some s'
  /\ aget Z.eqb sn (b_pend s') = None /\ b_out s' = b_out s ++ [TDone (m_from m) sn code (m_assets m); TEnd (m_from m) sn code]
  /\ (forall n, t_getBalance s' (m_from m) n = TBal (l_usable (t_getBalance s (m_from m) n) + (if code =? T_OK then 0 else ttotal n (m_assets m))) (l_locked (t_getBalance s (m_from m) n) - ttotal n (m_assets m)) (l_refundable (t_getBalance s (m_from m) n)))
  /\ (forall u n, u <> m_from m -> t_getBalance s' u n = t_getBalance s u n)
  /\ (forall n, t_getFee s' n = t_getFee s n + if code =? T_OK then tfee n (m_assets m) else 0).
Proof using.
  intros l y from sn code m s EM. destruct (run_rp self bmc deployer isContract led0 l) as [_ P]. fold s in P.
  assert (NF : aget Z.eqb sn (b_pfees s) = None). { destruct (aget Z.eqb sn (b_pfees s)) as [q|] eqn:Q; [|reflexivity]. destruct (p_fees _ _ P _ _ Q) as (_ & Q2 & _). exfalso. apply Q2. destruct (p_pend _ _ P _ _ EM) as (_ & X & _). eapply in_starts, X. }
  eexists. split; [cbn [M_Tbsh.texec]; unfold tneed; rewrite Z.eqb_refl; cbn [tbind]; unfold t_answer; rewrite NF, EM; reflexivity|].
  destruct (settle_spec (m_assets m) s (m_from m) code) as ([M1 M2 _] & FE & R). red in R. cbn [emitT setPend b_pend b_out]. rewrite settle_pend. split; [apply (adel_same Z.eqb z_key), (p_nd _ _ P)|]. split; [rewrite (f_equal b_out R); cbn [setFees setBal b_out]; rewrite <- app_assoc; reflexivity|]. split; [|split].
  - intros n. exact (M1 n).
  - intros u n N. exact (M2 u n N).
  - intros n. exact (FE n).
Qed.

(** A request is answered with OK only when its first asset has been paid, in full, to the receiver from the tokens of the service. *)
Theorem C91_paid : forall l y from sn to ds s', let s := trun l in texec s y (TMessage bmc from true sn (Some (TRequest to ds))) = Some s' ->
  exists a x rest tok, to = Some a /\ ds = x :: rest /\ aget Z.eqb (a_name x) (b_addr s) = Some tok /\ 0 <= a_value x <= ledOf s tok self
  /\ (exists h, b_out s' = h ++ [TSend from sn (TAnswer T_OK)])
  /\ (forall k u, ledOf s' k u = ledOf s k u + if k =? tok then (if u =? a then a_value x else 0) - (if u =? self then a_value x else 0) else 0)
  /\ (a <> self -> b_bal s' = b_bal s /\ b_fees s' = b_fees s).
Proof using.
  intros l y from sn to ds s' s E. apply texec_eff in E. inversion E as [? ? ? HO| | | | |? ? ? ? a x rest tok H1 H2 H3 H4|? ? ? ? x rest tok n num H1 H2 H3 H4 H5| | | | | | |]; subst; [destruct HO as (? & ? & [[X _]|[X _]] & _); discriminate|..].
  - exists a, x, rest, tok. split; [reflexivity|]. split; [reflexivity|]. split; [exact H2|]. split; [lia|]. split; [eexists; reflexivity|]. split; [|intros _; split; reflexivity]. intros k u. erewrite (same_led (moveLed s tok self a (a_value x))) by reflexivity. apply led_move.
  - exists self, x, rest, tok. split; [reflexivity|]. split; [reflexivity|]. split; [exact H2|]. split; [lia|]. split; [eexists; reflexivity|]. split; [|intros X; destruct (X eq_refl)]. intros k u. erewrite (same_led (moveLed s tok self self (a_value x))) by reflexivity. apply led_move.
Qed.

(** Gathering sends all the fees of the registered tokens off in one message, under the last number given out, and leaves none; if the answer to
    that number is an error, they are back. *)
Theorem C91_gathered : forall l y t, no_hand l -> y_bmc y = true -> let s := trun l in
  exists s' ds, texec s y (TGatherFees bmc (Some t)) = Some s' /\ (forall n, In n (b_names s) -> t_getFee s' n = 0 /\ tnet n ds = t_getFee s n)
  /\ (ds <> [] -> b_out s' = b_out s ++ [TGather (b_sn s') ds; TSend (ta_net t) (b_sn s') (TRequest (ta_acc t) ds)]
      /\ forall y2 from, exists s2, texec s' y2 (TMessage bmc from true (b_sn s') (Some (TAnswer T_ERR))) = Some s2 /\ forall n, In n (b_names s) -> t_getFee s2 n = t_getFee s n).
Proof using.
  intros l y t NH EY s. destruct (run_rp self bmc deployer isContract led0 l) as [R0 P]. fold s in R0, P.
  destruct (t_gather s bmc t (b_names s) []) as [s1 ds] eqn:EG. pose proof (gather_spec _ _ _ _ _ _ _ EG) as (add & EA & GF & _ & _ & SN & _ & _ & GL & _ & R). cbn [app] in EA. subst add.
  assert (G0 : forall n, In n (b_names s) -> t_getFee s1 n = 0).
  { assert (G : forall names s acc s1 ds, t_gather s bmc t names acc = (s1, ds) -> (forall n, In n names -> t_getFee s1 n = 0) /\ (forall n, t_getFee s n = 0 -> t_getFee s1 n = 0)).
    { clear. induction names as [|n names IH]; intros s acc s1 ds E; cbn [t_gather] in E; [injection E as <- <-; split; [intros n []|auto]|]. cbv zeta in E. destruct (Z.eqb_spec (t_getFee s n) 0) as [Z0|NZ].
      - apply IH in E as [E1 E2]. split; [|exact E2]. intros k [<-|K]; [apply E2, Z0|apply E1, K].
      - apply IH in E as [E1 E2]. split.
        + intros k [<-|K]; [|apply E1, K]. apply E2. rewrite getFee_set, Z.eqb_refl. reflexivity.
        + intros k K. apply E2. rewrite getFee_set. destruct (n =? k); [reflexivity|exact K]. }
    apply (G _ _ _ _ _ EG). }
  exists (match ds with [] => s1 | _ => emitT (emitT s1 (TGather (b_sn s1) ds)) (TSend (ta_net t) (b_sn s1) (TRequest (ta_acc t) ds)) end), ds. split; [|split].
  - cbn [M_Tbsh.texec]. unfold tneed. rewrite Z.eqb_refl. cbn [tbind]. rewrite EG. destruct ds; [reflexivity|]. unfold t_send, tneed. rewrite EY. reflexivity.
  - intros n HN. specialize (GF n). pose proof (G0 n HN) as GN. destruct ds; split; try exact GN; lia.
  - intros ND. destruct ds as [|d ds]; [congruence|]. cbn [emitT b_sn b_out]. split; [rewrite (f_equal b_out R); cbn [setPfees setFees setSn b_out]; rewrite <- app_assoc; reflexivity|]. intros y2 from.
    eexists. split; [cbn [M_Tbsh.texec]; unfold tneed; rewrite Z.eqb_refl; cbn [tbind]; unfold t_answer; cbn [emitT b_pfees]; rewrite (GL ND); cbn [m_assets m_from]; reflexivity|].
    intros n HN. cbv zeta. change (T_ERR =? T_ERR) with true. cbn [andb]. cbv iota.
    set (s3 := emitT (emitT s1 (TGather (b_sn s1) (d :: ds))) (TSend (ta_net t) (b_sn s1) (TRequest (ta_acc t) (d :: ds)))).
    destruct (feesBack_spec (d :: ds) s3) as [FB _]. erewrite (fee_same (t_feesBack s3 (d :: ds))) by reflexivity. rewrite FB. erewrite (fee_same s1 s3) by reflexivity. apply GF.
Qed.

(** Who can do what, setBalance apart: what a user can use shrinks only by their own transfers; what is locked and the fees change only by the message
    center, or by the user's own transfer; the tokens of the service shrink only by the message center; tokens are registered only by owners, and
    the tokens of others are moved only by themselves. *)
Definition tcaller (o : top) : Z :=
  match o with TAddOwner c _ | TRemoveOwner c _ | TRegister c _ _ _ | TTransfer c _ _ _ | TMessage c _ _ _ _ | TError c _ _ | TGatherFees c _ | TSetBalance c _ _ _ _ _ => c | TTokens _ from _ _ => from end.
Definition byHand (o : top) : Prop := match o with TSetBalance _ _ _ _ _ _ => True | _ => False end.
Theorem C91_who : forall l y o s', no_hand l -> sane l -> ~ byHand o -> let s := trun l in texec s y o = Some s' ->
  (forall u n, l_usable (t_getBalance s' u n) < l_usable (t_getBalance s u n) -> tcaller o = u /\ exists v to, o = TTransfer u n v to)
  /\ (forall u n, l_locked (t_getBalance s' u n) <> l_locked (t_getBalance s u n) -> tcaller o = bmc \/ exists v to, o = TTransfer u n v to)
  /\ (forall n, t_getFee s' n <> t_getFee s n -> tcaller o = bmc)
  /\ (forall tok, ledOf s' tok self < ledOf s tok self -> tcaller o = bmc)
  /\ (forall tok u, u <> self -> ledOf s' tok u < ledOf s tok u -> tcaller o = u)
  /\ (b_addr s' <> b_addr s \/ b_names s' <> b_names s \/ b_owners s' <> b_owners s -> t_isOwner deployer s (tcaller o) = true).
Proof using.
  intros l y o s' NH SA HO s E. pose proof (run_s self bmc deployer isContract led0 l NH SA) as S. fold s in S. destruct (run_rp self bmc deployer isContract led0 l) as [R0 P]. fold s in R0, P. apply texec_eff in E.
  change (t_getBalance s) with (fun u n => balOf (b_bal s) u n). change (t_getBalance s') with (fun u n => balOf (b_bal s') u n). cbv beta.
  assert (SAME : b_bal s' = b_bal s -> b_fees s' = b_fees s -> b_led s' = b_led s -> (b_addr s' = b_addr s /\ b_names s' = b_names s /\ b_owners s' = b_owners s) -> (forall u n, l_usable (balOf (b_bal s') u n) < l_usable (balOf (b_bal s) u n) -> tcaller o = u /\ (exists v to, o = TTransfer u n v to)) /\ (forall u n, l_locked (balOf (b_bal s') u n) <> l_locked (balOf (b_bal s) u n) -> tcaller o = bmc \/ (exists v to, o = TTransfer u n v to)) /\ (forall n, t_getFee s' n <> t_getFee s n -> tcaller o = bmc) /\ (forall tok, ledOf s' tok self < ledOf s tok self -> tcaller o = bmc) /\ (forall tok u, u <> self -> ledOf s' tok u < ledOf s tok u -> tcaller o = u) /\ (b_addr s' <> b_addr s \/ b_names s' <> b_names s \/ b_owners s' <> b_owners s -> t_isOwner deployer s (tcaller o) = true)).
  { intros E1 E2 E3 (E4 & E5 & E6). rewrite E1, E4, E5, E6. assert (X : forall n, t_getFee s' n = t_getFee s n) by (intros n; apply fee_same, E2). assert (Y : forall k a, ledOf s' k a = ledOf s k a) by (apply same_led, E3). repeat split; intros; try lia; try (rewrite ?X, ?Y in *; lia); tauto. }
  destruct E.
  - destruct H as (c & a & Q & QO). assert (tcaller o = c) by (destruct Q as [[-> _]|[-> _]]; reflexivity). cbn [setOwners b_bal b_fees b_led b_addr b_names b_owners]. repeat split; intros; try lia; try (exfalso; match goal with X : t_getFee _ _ <> _ |- _ => apply X; reflexivity end); try (exfalso; match goal with X : ledOf _ _ _ < _ |- _ => unfold ledOf in X; cbn [setOwners b_led] in X; lia end); congruence.
  - cbn [setToks setNames setAddr b_bal b_fees b_led b_addr b_names b_owners tcaller]. repeat split; intros; try lia; try (exfalso; match goal with X : t_getFee _ _ <> _ |- _ => apply X; reflexivity end); try (exfalso; match goal with X : ledOf _ _ _ < _ |- _ => unfold ledOf in X; cbn [setToks setNames setAddr b_led] in X; lia end); assumption.
  - cbn [tcaller]. repeat split; intros; try (change (b_bal (moveLed s tok from to v)) with (b_bal s) in *; lia); try (exfalso; match goal with X : t_getFee _ _ <> _ |- _ => apply X; reflexivity end).
    + rewrite led_move in *. destruct (tok0 =? tok); [|lia]. replace (self =? from) with false in * by lia. destruct (self =? to); lia.
    + rewrite led_move in *. destruct (tok0 =? tok); [|lia]. destruct (Z.eqb_spec u from) as [->|]; [reflexivity|]. destruct (u =? to); lia.
    + exfalso. destruct H2 as [X|[X|X]]; apply X; reflexivity.
  - cbn [tcaller]. pose proof (moved_set (moveLed s tok from self v) from n v 0) as [M1 M2 _]. change (b_bal (moveLed s tok from self v)) with (b_bal s) in *.
    cbn [emitT b_bal]. repeat split; intros.
    + exfalso. destruct (Z.eq_dec u from) as [->|N]; [rewrite M1 in *; cbn [l_usable] in *; destruct (n =? n0); lia|rewrite M2 in * by exact N; lia].
    + exfalso. destruct (Z.eq_dec u from) as [->|N]; [rewrite M1 in *; cbn [l_usable] in *; destruct (n =? n0); lia|rewrite M2 in * by exact N; lia].
    + exfalso. destruct (Z.eq_dec u from) as [->|N]; [rewrite M1 in *; cbn [l_locked] in *; destruct (n =? n0); lia|rewrite M2 in * by exact N; lia].
    + exfalso. match goal with X : t_getFee _ _ <> _ |- _ => apply X; reflexivity end.
    + exfalso. erewrite (same_led (moveLed s tok from self v)) in * by reflexivity. rewrite led_move, Z.eqb_refl in *. destruct (tok0 =? tok); [|lia]. replace (self =? from) with false in * by lia. lia.
    + erewrite (same_led (moveLed s tok from self v)) in * by reflexivity. rewrite led_move in *. destruct (tok0 =? tok); [|lia]. destruct (Z.eqb_spec u from) as [->|]; [reflexivity|]. destruct (u =? self); lia.
    + exfalso. match goal with X : _ \/ _ |- _ => destruct X as [X|[X|X]]; apply X; reflexivity end.
  - cbn [tcaller]. pose proof (moved_set s c n (- v) v) as [M1 M2 _]. cbn [emitT setPend setSn b_bal]. repeat split; intros.
    + destruct (Z.eq_dec u c) as [->|N]; [reflexivity|rewrite M2 in * by exact N; lia].
    + destruct (Z.eq_dec u c) as [->|N]; [|rewrite M2 in * by exact N; lia]. rewrite M1 in *. cbn [l_usable] in *. destruct (Z.eq_dec n n0) as [EQ|]; [subst n0; exists v, (Some t); reflexivity|]. replace (n =? n0) with false in * by lia. lia.
    + right. destruct (Z.eq_dec u c) as [->|N]; [|rewrite M2 in * by exact N; lia]. rewrite M1 in *. cbn [l_locked] in *. destruct (Z.eq_dec n n0) as [EQ|]; [subst n0; exists v, (Some t); reflexivity|]. replace (n =? n0) with false in * by lia. lia.
    + exfalso. match goal with X : t_getFee _ _ <> _ |- _ => apply X; reflexivity end.
    + exfalso. erewrite (same_led s) in * by reflexivity. lia.
    + exfalso. erewrite (same_led s) in * by reflexivity. lia.
    + exfalso. match goal with X : _ \/ _ |- _ => destruct X as [X|[X|X]]; apply X; reflexivity end.
  - subst c. cbn [tcaller]. repeat split; intros; try (left; reflexivity); try reflexivity; try (change (b_bal (moveLed s tok self a (a_value x))) with (b_bal s) in *; cbn [emitT b_bal] in *; change (b_bal (moveLed s tok self a (a_value x))) with (b_bal s) in *; lia).
    + exfalso. erewrite (same_led (moveLed s tok self a (a_value x))) in * by reflexivity. rewrite led_move in *. destruct (tok0 =? tok); [|lia]. replace (u =? self) with false in * by lia. destruct (u =? a); lia.
    + exfalso. match goal with X : _ \/ _ |- _ => destruct X as [X|[X|X]]; apply X; reflexivity end.
  - subst c. cbn [tcaller]. pose proof (moved_set (moveLed s tok self self (a_value x)) self n (a_value x) 0) as [M1 M2 _]. change (b_bal (moveLed s tok self self (a_value x))) with (b_bal s) in *. cbn [emitT b_bal]. repeat split; intros; try (left; reflexivity); try reflexivity.
    + exfalso. destruct (Z.eq_dec u self) as [->|N]; [rewrite M1 in *; cbn [l_usable] in *; destruct (n =? n0); lia|rewrite M2 in * by exact N; lia].
    + exfalso. destruct (Z.eq_dec u self) as [->|N]; [rewrite M1 in *; cbn [l_usable] in *; destruct (n =? n0); lia|rewrite M2 in * by exact N; lia].
    + exfalso. erewrite (same_led (moveLed s tok self self (a_value x))) in * by reflexivity. rewrite led_move in *. destruct (tok0 =? tok); lia.
    + exfalso. match goal with X : _ \/ _ |- _ => destruct X as [X|[X|X]]; apply X; reflexivity end.
  - subst c. cbn [tcaller]. destruct (feesBack_spec (m_assets m) s) as [_ R]. assert (K : b_bal (if code =? T_ERR then t_feesBack s (m_assets m) else s) = b_bal s /\ b_led (if code =? T_ERR then t_feesBack s (m_assets m) else s) = b_led s /\ b_addr (if code =? T_ERR then t_feesBack s (m_assets m) else s) = b_addr s /\ b_names (if code =? T_ERR then t_feesBack s (m_assets m) else s) = b_names s /\ b_owners (if code =? T_ERR then t_feesBack s (m_assets m) else s) = b_owners s) by (destruct (code =? T_ERR); [rewrite R|]; repeat split; reflexivity). destruct K as (K1 & K2 & K3 & K4 & K5).
    cbn [emitT setPfees b_bal b_addr b_names b_owners]. rewrite K1, K3, K4, K5. repeat split; intros; try (left; reflexivity); try reflexivity; try lia; try tauto. exfalso. erewrite (same_led s) in * by (exact K2 || reflexivity). lia.
  - subst c. cbn [tcaller]. destruct (settle_spec (m_assets m) s (m_from m) code) as ([M1 M2 _] & _ & R). red in R. pose proof (f_equal b_led R) as R1. pose proof (f_equal b_addr R) as R2. pose proof (f_equal b_names R) as R3. pose proof (f_equal b_owners R) as R4. pose proof (g_pend _ S _ _ H1) as PM.
    cbn [emitT setPend b_bal b_addr b_names b_owners]. rewrite R2, R3, R4. repeat split; intros; try (left; reflexivity); try reflexivity; try tauto.
    + exfalso. destruct (Z.eq_dec u (m_from m)) as [->|N]; [|rewrite M2 in * by exact N; lia]. rewrite M1 in *. cbn [l_usable] in *. pose proof (posa_net n _ PM). pose proof (posa_fee n _ PM). unfold ttotal in *. destruct (code =? T_OK); lia.
    + exfalso. destruct (Z.eq_dec u (m_from m)) as [->|N]; [|rewrite M2 in * by exact N; lia]. rewrite M1 in *. cbn [l_usable] in *. pose proof (posa_net n _ PM). pose proof (posa_fee n _ PM). unfold ttotal in *. destruct (code =? T_OK); lia.
    + exfalso. erewrite (same_led s) in * by (exact R1 || reflexivity). lia.
  - apply SAME; try reflexivity. repeat split.
  - apply SAME; try reflexivity. repeat split.
  - subst c. cbn [tcaller]. pose proof (moved_set s (m_from m) (a_name x) (a_value x) (- a_value x)) as [M1 M2 _]. pose proof (g_pend _ S _ _ H0) as PM. rewrite H2 in PM. apply Forall_cons_iff in PM as [[PV _] _]. cbn [emitT setPend b_bal]. repeat split; intros; try (left; reflexivity); try reflexivity.
    + exfalso. destruct (Z.eq_dec u (m_from m)) as [->|N]; [|rewrite M2 in * by exact N; lia]. rewrite M1 in *. cbn [l_usable] in *. destruct (a_name x =? n); lia.
    + exfalso. destruct (Z.eq_dec u (m_from m)) as [->|N]; [|rewrite M2 in * by exact N; lia]. rewrite M1 in *. cbn [l_usable] in *. destruct (a_name x =? n); lia.
    + exfalso. erewrite (same_led s) in * by reflexivity. lia.
    + exfalso. match goal with X : _ \/ _ |- _ => destruct X as [X|[X|X]]; apply X; reflexivity end.
  - subst c. cbn [tcaller]. apply gather_spec in H0 as (add & _ & _ & _ & _ & _ & _ & _ & _ & _ & R). pose proof (f_equal b_led R) as R1. pose proof (f_equal b_addr R) as R2. pose proof (f_equal b_names R) as R3. pose proof (f_equal b_owners R) as R4. pose proof (f_equal b_bal R) as R5. cbn [setPfees setFees setSn b_led b_addr b_names b_owners b_bal] in *.
    destruct l0; cbn [emitT b_bal b_addr b_names b_owners]; rewrite ?R2, ?R3, ?R4, ?R5; repeat split; intros; try (left; reflexivity); try reflexivity; try lia; try tauto; exfalso; erewrite (same_led s) in * by (exact R1 || reflexivity); lia.
  - destruct HO. exact I.
Qed.

(** An error from the message center for a transfer under way is carried out if the receiver is an address of this chain, and never otherwise; it gives
    back the amount less the fee, which stays locked. *)
Theorem C91_undone : forall l y sn m, let s := trun l in aget Z.eqb sn (b_pend s) = Some m ->
  (ta_acc (m_to m) = None -> texec s y (TError bmc true sn) = None)
  /\ (ta_acc (m_to m) <> None -> exists s', texec s y (TError bmc true sn) = Some s' /\ aget Z.eqb sn (b_pend s') = None
      /\ (forall n, t_getBalance s' (m_from m) n = TBal (l_usable (t_getBalance s (m_from m) n) + tnet n (m_assets m)) (l_locked (t_getBalance s (m_from m) n) - tnet n (m_assets m)) (l_refundable (t_getBalance s (m_from m) n)))
      /\ (forall u n, u <> m_from m -> t_getBalance s' u n = t_getBalance s u n) /\ b_fees s' = b_fees s).
Proof using.
  intros l y sn m s EM. destruct (run_rp self bmc deployer isContract led0 l) as [_ P]. fold s in P. destruct (p_pend _ _ P _ _ EM) as (_ & _ & x & EX & _).
  cbn [M_Tbsh.texec]. unfold tneed. rewrite Z.eqb_refl. unfold t_error. rewrite EM. split; [intros ->; reflexivity|]. intros NA. destruct (ta_acc (m_to m)) as [a|]; [|congruence]. cbn [tbind]. rewrite EX. eexists. split; [reflexivity|].
  pose proof (moved_set s (m_from m) (a_name x) (a_value x) (- a_value x)) as [M1 M2 _]. split; [|split; [|split; [|reflexivity]]].
  - cbn [emitT setPend b_pend t_setBalance setBal]. apply (adel_same Z.eqb z_key), (p_nd _ _ P).
  - intros n. assert (TN : tnet n [x] = if a_name x =? n then a_value x else 0) by (rewrite tnet_cons; unfold tnet, sumOf; cbn [fold_right]; lia). rewrite TN. etransitivity; [exact (M1 n)|]. change (t_getBalance s (m_from m) n) with (balOf (b_bal s) (m_from m) n). f_equal. destruct (a_name x =? n); lia.
  - intros u n N. exact (M2 u n N).
Qed.

(** The deployer is always an owner, and the count of owners stays at least 1. *)
Theorem C91_owners : forall l, t_isOwner deployer (trun l) deployer = true /\ 1 <= b_count (trun l).
Proof using.
  intros l. split; [unfold t_isOwner; rewrite Z.eqb_refl; reflexivity|]. induction l as [|yo l IH] using rev_ind; [cbn; lia|]. rewrite trun_snoc. destruct (tstep_eff self bmc deployer isContract (trun l) yo) as [->|E]; [exact IH|]. revert E. generalize (tstep self bmc deployer isContract (trun l) yo). intros s' E. destruct E; try exact IH.
  - destruct H as (c & a & [[_ ->]|(_ & -> & X)] & _); cbn [setOwners b_count]; lia.
  - destruct (feesBack_spec (m_assets m) (trun l)) as [_ R]. cbn [emitT setPfees b_count]. destruct (code =? T_ERR); [rewrite R|]; exact IH.
  - destruct (settle_spec (m_assets m) (trun l) (m_from m) code) as (_ & _ & R). red in R. cbn [emitT setPend b_count]. rewrite R. exact IH.
  - apply gather_spec in H0 as (add & _ & _ & _ & _ & _ & _ & _ & _ & _ & R). pose proof (f_equal b_count R) as RC. cbn [setPfees setFees setSn b_count] in RC. destruct l0; cbn [emitT b_count]; rewrite RC; exact IH.
Qed.
End C91.
Print Assumptions C91_accounts.
Print Assumptions C91_covered.
Print Assumptions C91_signs.
Print Assumptions C91_transfers.
Print Assumptions C91_charged.
Print Assumptions C91_answered.
Print Assumptions C91_paid.
Print Assumptions C91_gathered.
Print Assumptions C91_who.
Print Assumptions C91_undone.
Print Assumptions C91_owners.

(** A concrete service: 100, its message center 200, its deployer 1; accounts from 100 on are contracts.  Token 50 is held by user 7. *)
Definition xrun := trun 100 200 1 (fun a => 100 <=? a) [((50, 7), 1000); ((51, 7), 1000)].
Definition xexec := texec 100 200 1 (fun a => 100 <=? a).
Definition xok : text_ := Text_ true true.
Definition xgo (l : list top) : list (text_ * top) := map (fun o => (xok, o)) l.
Definition xbase : list top := [TRegister 1 5 100 50; TTokens 50 7 100 400; TTransfer 7 5 200 (Some (TAddr 9 None))].
Definition xsaid (code sn : Z) : top := TMessage 200 9 true sn (Some (TAnswer code)).
(** One transfer settled, one refused, one under way, one token paid out; the hypotheses hold. *)
Example C91_ex :
  let l := xgo (xbase ++ [xsaid 0 1; TTransfer 7 5 100 (Some (TAddr 9 None)); xsaid 1 2; TTransfer 7 5 50 (Some (TAddr 9 (Some 3))); TMessage 200 9 true 4 (Some (TRequest (Some 8) [TAsset 5 40 0]))]) in
  let s := xrun l in
  no_hand l /\ sane l /\ t_getBalance s 7 5 = TBal 150 50 0 /\ t_getFee s 5 = 2 /\ ledOf s 50 100 = 360 /\ ledOf s 50 8 = 40
  /\ booksOf s 5 = 200 /\ sentOff (b_out s) 5 = 198 /\ allPaid (b_out s) 5 = 40 /\ refused (b_out s) 7 5 = 100 /\ in_transit s 7 5 = 50
  /\ (forall k, aget Z.eqb k (b_addr s) = Some 50 -> k = 5) /\ exists m, aget Z.eqb 3 (b_pend s) = Some m /\ ta_acc (m_to m) = Some 3.
Proof.
  cbv zeta. split; [|split]; [repeat constructor|cbn; repeat constructor; cbn [snd]; try lia|]. repeat split; try reflexivity; [|eexists; split; reflexivity].
  intros k. cbn. destruct (k =? 5) eqn:E; [lia|discriminate].
Qed.
(** Anybody can write themselves a balance and have it paid by the other side: the books then promise more than the service holds. *)
Theorem C91_anybody_writes_refuted : exists l, (forall o, In o l -> tcaller o = 8 \/ In o [TRegister 1 5 100 50; TTokens 50 7 100 400] \/ tcaller o = 200)
  /\ let s := xrun (xgo l) in deposited (b_out s) 8 5 = 0 /\ arrived (b_out s) 8 5 = 400 /\ booksOf s 5 = 400 /\ ledOf s 50 100 = 400 /\ sentOff (b_out s) 5 = 396
  /\ booksOf (xrun (xgo (firstn 3 l))) 5 = 800.
Proof.
  exists [TRegister 1 5 100 50; TTokens 50 7 100 400; TSetBalance 8 8 5 400 0 0; TTransfer 8 5 400 (Some (TAddr 9 None)); xsaid 0 1]. split; [|repeat split; reflexivity].
  intros o H. cbn [In] in H. cbn [In]. destruct H as [<-|[<-|[<-|[<-|[<-|[]]]]]]; auto.
Qed.
Print Assumptions C91_anybody_writes_refuted.
(** A negative amount makes a balance out of nothing, which can then be transferred. *)
Theorem C91_negative_refuted : exists l, no_hand (xgo l) /\ let s := xrun (xgo l) in deposited (b_out s) 8 5 = 0 /\ In (TSend 9 2 (TRequest None [TAsset 5 297 3])) (b_out s) /\ in_transit s 8 5 = 0 /\ l_locked (t_getBalance s 8 5) = 0 /\ l_usable (t_getBalance s 8 5) = 0
  /\ arrived (b_out (xrun (xgo (l ++ [xsaid 0 2])))) 8 5 = 300 /\ l_locked (t_getBalance (xrun (xgo (l ++ [xsaid 0 2]))) 8 5) = -300.
Proof.
  exists [TRegister 1 5 100 50; TTokens 50 7 100 400; TTransfer 8 5 (-300) (Some (TAddr 9 None)); TTransfer 8 5 300 (Some (TAddr 9 None))]. split; [repeat constructor|]. cbv zeta. repeat split; try reflexivity. cbn. tauto.
Qed.
Print Assumptions C91_negative_refuted.
(** An error for a transfer keeps the fee locked although nothing is under way; to a receiver that is no address of this chain it cannot be carried out. *)
Theorem C91_error_keeps_fee_refuted : let s := xrun (xgo [TRegister 1 5 100 50; TTokens 50 7 100 400; TTransfer 7 5 200 (Some (TAddr 9 (Some 3))); TError 200 true 1]) in
  b_pend s = [] /\ t_getBalance s 7 5 = TBal 398 2 0 /\ t_getFee s 5 = 0.
Proof. cbv zeta. repeat split; reflexivity. Qed.
Print Assumptions C91_error_keeps_fee_refuted.
Theorem C91_error_refused_refuted : let s := xrun (xgo xbase) in t_getBalance s 7 5 = TBal 200 200 0 /\ forall y, xexec s y (TError 200 true 1) = None.
Proof. cbv zeta. split; [reflexivity|]. intros y. reflexivity. Qed.
Print Assumptions C91_error_refused_refuted.
(** Gathered fees do not come back when the message center reports an error, nor when the answer has a code but 1; and the numbers given out besides
    the one that is sent bring the same fees back again. *)
Definition xfees : list top := xbase ++ [TRegister 1 6 100 51; TTokens 51 7 100 400; TTransfer 7 6 100 (Some (TAddr 9 None)); xsaid 0 1; xsaid 0 2; TGatherFees 200 (Some (TAddr 9 None))].
Theorem C91_fees_lost_refuted : let s := xrun (xgo xfees) in In (TSend 9 4 (TRequest None [TAsset 5 2 0; TAsset 6 1 0])) (b_out s) /\ t_getFee s 5 = 0
  /\ (forall y, xexec s y (TError 200 true 4) = None)
  /\ (let s2 := xrun (xgo (xfees ++ [xsaid 2 4])) in t_getFee s2 5 = 0 /\ aget Z.eqb 4 (b_pfees s2) = None)
  /\ (let s3 := xrun (xgo (xfees ++ [xsaid 1 4; xsaid 1 3])) in t_getFee s3 5 = 4 /\ feesTaken (b_out s3) 5 = 2).
Proof. cbv zeta. split; [cbn; tauto|]. repeat split; try reflexivity. Qed.
Print Assumptions C91_fees_lost_refuted.
(** The count of owners is not the number of owners: removing somebody who is none counts, and then nobody can be removed. *)
Theorem C91_owner_count_refuted : let s := xrun (xgo [TAddOwner 1 2; TRemoveOwner 1 9]) in
  t_isOwner 1 s 1 = true /\ t_isOwner 1 s 2 = true /\ t_isOwner 1 s 9 = false /\ b_count s = 1 /\ forall y c, xexec s y (TRemoveOwner c 2) = None.
Proof. cbv zeta. repeat split; try reflexivity. intros y c. unfold xexec. cbn [texec]. unfold tneed. destruct (t_isOwner 1 _ c); reflexivity. Qed.
Print Assumptions C91_owner_count_refuted.
(** Only the first asset of a request is paid, and the answer is OK. *)
Theorem C91_second_asset_refuted : let l := xbase ++ [TMessage 200 9 true 4 (Some (TRequest (Some 8) [TAsset 5 40 0; TAsset 5 70 0]))] in
  In (TSend 9 4 (TAnswer T_OK)) (b_out (xrun (xgo l))) /\ ledOf (xrun (xgo l)) 50 8 = 40.
Proof. cbv zeta. split; [cbn; tauto|reflexivity]. Qed.
Print Assumptions C91_second_asset_refuted.
(** An owner can register a fee above the amount; the request then asks for less than nothing. *)
Theorem C91_share_refuted : In (TSend 9 1 (TRequest None [TAsset 5 (-100) 200])) (b_out (xrun (xgo [TRegister 1 5 20000 50; TTokens 50 7 100 400; TTransfer 7 5 100 (Some (TAddr 9 None))]))).
Proof. cbn. tauto. Qed.
Print Assumptions C91_share_refuted.
(** The answer "unknown" to a request leaves the transfer under way. *)
Theorem C91_unknown_ignored_refuted : let s := xrun (xgo xbase) in forall y, xexec s y (TMessage 200 9 true 1 (Some TUnknown)) = Some s /\ l_locked (t_getBalance s 7 5) = 200.
Proof. cbv zeta. intros y. split; reflexivity. Qed.
Print Assumptions C91_unknown_ignored_refuted.
