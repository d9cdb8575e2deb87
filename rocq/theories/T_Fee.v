(** C93: the fee aggregation keeps its books, settles every syndication once and fairly, and holds the tokens it owes. *)
From Coq Require Import String Ascii ZArith List Bool Lia.
From Coq Require Import ZifyBool.
From Verif Require Import Base L_Base M_JMap L_JMap L_JSum M_JBmc M_Ncs S_Ncs L_Ncs L_NcsNet2 M_Tbsh S_Tbsh L_Tbsh M_Fee S_Fee L_Fee L_Fee2 L_Fee3 L_Fee4 L_Fee5 L_Fee6.
Import ListNotations.
Open Scope Z_scope.

Section FEE.
Variable owner : Z.
Variable isContract : Z -> bool.
Variable icx : Z.
Variable have : list ((Z * Z) * Z).
Notation run := (frun owner isContract icx have).
Notation exec := (fexec owner isContract).

(** After any calls: balances are what was given less what was claimed, refunds what was left less what was withdrawn, the locked tokens are the
    balances together, deposits are recorded exactly, and no ICX is lost: what came in is with the fund, in open syndications, or was withdrawn. *)
Theorem C93_books : forall l, let s := run l in let h := f_out s in
  (forall u n, f_balance s u n = given h u n - claims h u n) /\ (forall u, f_refund s u = refunds h u - withdrawn h u)
  /\ (forall id u, f_amount s id u = dep h id u)
  /\ NoDup (map fst (f_bal s)) /\ (forall n, f_locked s n = sumOf (fun e => if fst (fst e) =? n then snd e else 0) (f_bal s))
  /\ f_icx s = icx + openIcx s - allWithdrawn h /\ allDeps h + gifts h = funded h + openIcx s.
Proof.
  intros l s h. pose proof (finv_run owner isContract icx have l) as I. fold s in I.
  assert (ND : NoDup (map fst (f_bal s))). { unfold s. clear. induction l as [|xo l IH] using rev_ind; [constructor|]. rewrite frun_snoc. unfold fstep. destruct (fexec _ _ _ _ _) as [s'|] eqn:E; [|exact IH]. apply (exec_nd _ _ _ _ _ _ E IH). }
  repeat split.
  - intros u n. rewrite fbal_get. apply (i_bal _ _ I).
  - intros u. rewrite fref_get. apply (i_ref _ _ I).
  - intros id u. rewrite famt_get. apply (i_amt _ _ I).
  - exact ND.
  - intros n. rewrite flock_get. apply (i_lock _ _ I).
  - apply (i_icx _ _ I).
  - apply (i_flow _ _ I).
Qed.
(** Every syndication has its own number, is ended at most once and not before its end; until then its total is what was deposited for it. *)
Theorem C93_syndications : forall l, let s := run l in let h := f_out s in
  NoDup (begun h) /\ NoDup (over h) /\ incl (over h) (begun h)
  /\ (forall id n a t, In (FEnded id n a t) h -> exists c v deadline, In (FStart id n a c v deadline) h /\ deadline <= t)
  /\ (forall n y, aget Z.eqb n (f_syn s) = Some y -> y_total y = depAll h (y_id y) /\ 0 < y_amount y /\ ~ In (y_id y) (over h) /\ exists c v, In (FStart (y_id y) n (y_amount y) c v (y_end y)) h)
  /\ (forall id, In id (begun h) -> In id (over h) \/ exists n y, aget Z.eqb n (f_syn s) = Some y /\ y_id y = id)
  /\ (forall n m y z, aget Z.eqb n (f_syn s) = Some y -> aget Z.eqb m (f_syn s) = Some z -> y_id y = y_id z -> n = m).
Proof.
  intros l s h. pose proof (finv_run owner isContract icx have l) as I. fold s in I.
  split; [apply (i_begun _ _ I)|]. split; [apply (i_over _ _ I)|]. split; [apply (i_over _ _ I)|]. split; [apply (i_time _ _ I)|]. split; [|split; [apply (i_open _ _ I)|apply (i_ids _ _ I)]].
  intros n y HY. destruct (i_syn _ _ I _ _ HY) as (_ & A & B & C & D). auto.
Qed.
(** With real deposits, an ended syndication gave every depositor one fair share, and no more tokens than were for sale; others got nothing, and
    before it ends nobody does. *)
Theorem C93_shares : forall l, fair l -> let s := run l in let h := f_out s in
  (forall id n a t, In (FEnded id n a t) h -> exists x o p tk unit price,
      In (x, o) l /\ x_now x = t /\ x_price x = Some p /\ price = p * 90 / 100 /\ aget Z.eqb n (f_toks s) = Some tk /\ unit_of tk x = Some unit
      /\ (forall u, 0 < dep h id u -> exists share remain, settled h id u = [(share, remain)] /\ fair_share unit price (depAll h id) a (dep h id u) share remain /\ 0 <= share /\ 0 <= remain <= dep h id u)
      /\ (forall u, dep h id u = 0 -> settled h id u = []) /\ soldIn h id <= a)
  /\ (forall id, ~ In id (over h) -> (forall u, settled h id u = []) /\ soldIn h id = 0)
  /\ (forall id u n t r, In (FShare id u n t r) h -> exists a k, In (FEnded id n a k) h).
Proof.
  intros l F s h. destruct (ledger_run owner isContract icx have l F) as [D1 D2 D3]. split; [|split; [exact D1|intros id u n t r HI; apply (D2 _ _ _ _ _ HI)]].
  intros id n a t HI. destruct (D3 _ _ _ _ HI) as (x & o & p & tk & unit & price & A1 & A2 & A3 & A4 & A5 & A6 & A7 & A8 & A9 & A10 & A11). exists x, o, p, tk, unit, price. repeat split; assumption.
Qed.
(** With real deposits and different tokens, the contract holds what it owes and what it sells, of every token. *)
Theorem C93_covered : forall l, (forall a i, 0 <= match aget zz_eqb (a, i) have with Some v => v | None => 0 end) -> fair l -> let s := run l in distinct (f_toks s) ->
  forall n t, aget Z.eqb n (f_toks s) = Some t -> f_locked s n + openTokens s n <= f_held s t /\ forall u, 0 <= f_balance s u n <= f_locked s n /\ 0 <= f_refund s u.
Proof.
  intros l H0 F s D n t T. pose proof (cov_run owner isContract icx have l H0 F D) as [C1 C2 C3 C4 C5 C6]. fold s in C1, C2, C3, C4, C5, C6. rewrite flock_get. split; [apply C1; exact T|].
  intros u. rewrite fbal_get, fref_get. split; [|apply C5]. split; [apply C4|]. rewrite (i_lock _ _ (finv_run owner isContract icx have l)). apply gett_le; assumption.
Qed.
(** Then a claim is paid whenever the token contract makes the transfer. *)
Theorem C93_claim : forall l, (forall a i, 0 <= match aget zz_eqb (a, i) have with Some v => v | None => 0 end) -> fair l -> let s := run l in distinct (f_toks s) ->
  forall x u n, x_tok x = true -> 0 < f_balance s u n -> (forall y, aget Z.eqb n (f_syn s) = Some y -> x_now x < y_end y) ->
  exists s', exec s x (FClaim u n) = Some s' /\ f_out s' = f_out s ++ [FClaimed u n (f_balance s u n)] /\ f_balance s' u n = 0.
Proof.
  intros l H0 F s D x u n X P Y. destruct (aget Z.eqb n (f_toks s)) as [t|] eqn:T.
  - destruct (C93_covered l H0 F D n t T) as [V W]. fold s in V, W. destruct (W u) as [[W1 W2] _].
    cbn [fexec]. unfold f_claim. rewrite T. destruct (Z.leb_spec (f_balance s u n) 0) as [|_]; [lia|]. cbv zeta.
    assert (OT : 0 <= openTokens s n). { unfold openTokens. destruct (aget Z.eqb n (f_syn s)) as [y|] eqn:E; [|lia]. destruct (C93_syndications l) as (_ & _ & _ & _ & Q & _). destruct (Q n y E) as (_ & Q1 & _). lia. }
    match goal with |- context [if (f_balance s u n <=? f_held ?z t) && x_tok x then _ else _] => change (f_held z t) with (f_held s t) end. replace (f_balance s u n <=? f_held s t) with true by lia. rewrite X. cbn [andb].
    cbn [emitF setHave setBalF setLock f_syn]. destruct (aget Z.eqb n (f_syn s)) as [y|] eqn:E.
    + specialize (Y y eq_refl). destruct (Z.leb_spec (y_end y) (x_now x)) as [|_]; [lia|]. eexists. split; [reflexivity|]. split; [reflexivity|]. rewrite fbal_get. cbn [emitF setHave setBalF setLock f_bal]. rewrite gett_put, (keqb_refl zz_eqb zz_key). reflexivity.
    + eexists. split; [reflexivity|]. split; [reflexivity|]. rewrite fbal_get. cbn [emitF setHave setBalF setLock f_bal]. rewrite gett_put, (keqb_refl zz_eqb zz_key). reflexivity.
  - exfalso. pose proof (cov_run owner isContract icx have l H0 F D) as [C1 C2 C3 C4 C5 C6]. fold s in C1, C2, C3, C4, C5, C6. destruct (C2 n T) as [L _]. pose proof (gett_le (f_bal s) n u C6 C4) as G. rewrite <- (i_lock _ _ (finv_run owner isContract icx have l)) in G. fold s in G. rewrite fbal_get in P. lia.
Qed.
End FEE.
Print Assumptions C93_books.
Print Assumptions C93_syndications.
Print Assumptions C93_shares.
Print Assumptions C93_covered.
Print Assumptions C93_claim.

(** Only the owner registers tokens and sets the duration; what somebody deposits, claims or withdraws is by their own call, for their own balance. *)
Theorem C93_who : forall owner isContract s x o s', fexec owner isContract s x o = Some s' ->
  (f_toks s' <> f_toks s \/ f_dur s' <> f_dur s -> match o with FRegister2 c _ _ | FRegister31 c _ _ _ _ | FDuration c _ => c = owner | _ => False end)
  /\ exists q, f_out s' = f_out s ++ q /\ forall e, In e q -> match e with
       | FDep _ u v => exists n, o = FDeposit u n v
       | FClaimed u n v => o = FClaim u n /\ v = f_balance s u n /\ 0 < v
       | FPaid u v => o = FWithdraw u /\ v = f_refund s u /\ 0 < v
       | _ => True end.
Proof.
  intros ow ic s x o s' H.
  assert (KEEP : match o with FRegister2 c _ _ | FRegister31 c _ _ _ _ => c = ow /\ f_dur s' = f_dur s | FDuration c _ => c = ow /\ f_toks s' = f_toks s | _ => f_toks s' = f_toks s /\ f_dur s' = f_dur s end).
  { destruct o as [c m a|c m a i d|c d|c m v|c|c m|c v|a i v]; cbn [fexec] in H; unfold fneed, f_register, fneed in H.
    - destruct ((c =? ow) && _ && _) eqn:E; [|discriminate]. injection H as <-. split; [lia|reflexivity].
    - destruct (0 <? i); [|discriminate]. destruct ((c =? ow) && _ && _) eqn:E; [|discriminate]. injection H as <-. split; [lia|reflexivity].
    - destruct ((c =? ow) && _ && _ && _) eqn:E; [|discriminate]. injection H as <-. split; [lia|reflexivity].
    - destruct (0 <=? v); [|discriminate]. unfold f_deposit in H. cbn [setIcx f_toks f_syn] in H. destruct (aget _ m _) as [t|]; [|discriminate]. destruct (_ =? 0); [discriminate|]. destruct (aget _ m (f_syn _)) as [y0|].
      + destruct (y_end y0 <=? x_now x).
        * destruct (_ <=? 0); [discriminate|]. unfold y_new, y_deposit in H. cbn beta iota zeta in H. destruct (endAuction _ _ _ _ _) as [s3|] eqn:E; [|discriminate]. cbn [fbind] in H. injection H as <-. destruct (end_spec _ _ _ _ _ _ E) as (? & ? & ? & ? & ? & ED). destruct (e_rest _ _ _ _ _ _ _ _ _ _ _ ED) as (R1 & _ & _ & _ & R5 & _). cbn [emitF f_toks f_dur]. rewrite R1, R5. split; reflexivity.
        * unfold y_deposit in H. cbn beta iota zeta in H. injection H as <-. split; reflexivity.
      + destruct (_ <=? 0); [discriminate|]. unfold y_new, y_deposit in H. cbn beta iota zeta in H. injection H as <-. split; reflexivity.
    - unfold f_withdrawal in H. destruct (_ <=? 0); [discriminate|]. destruct (_ && _); injection H as <-; split; reflexivity.
    - unfold f_claim in H. destruct (aget Z.eqb m (f_toks s)) as [tk|] eqn:TT; [|discriminate]. destruct (Z.leb_spec (f_balance s c m) 0) as [|P]; [discriminate|]. pose proof (claim_first s x c m tk TT P) as CF. cbv zeta in CF.
      match type of H with match aget _ _ (f_syn ?z) with _ => _ end = _ => set (s3 := z) in * end. destruct CF as (_ & G1 & _ & G3 & _ & _ & G6 & _). clearbody s3. destruct (aget Z.eqb m (f_syn s3)) as [y|]; [|injection H as <-; auto]. destruct (_ <=? _); [|injection H as <-; auto].
      destruct (end_spec _ _ _ _ _ _ H) as (u & p & pr & ii & ps & ED). destruct (e_rest _ _ _ _ _ _ _ _ _ _ _ ED) as (R1 & _ & _ & _ & R5 & _). rewrite R1, R5. cbn [setSyn f_toks f_dur]. auto.
    - destruct (0 <? v); [|discriminate]. unfold to_fund, fneed in H. destruct (_ && _); [|discriminate]. injection H as <-. split; reflexivity.
    - destruct (0 <=? v); [|discriminate]. injection H as <-. split; reflexivity. }
  split; [destruct o; try tauto|].
  destruct o as [c m a|c m a i d|c d|c m v|c|c m|c v|a i v].
  - cbn [fexec] in H. unfold f_register, fneed in H. destruct (_ && _); [|discriminate]. injection H as <-. exists []. split; [symmetry; apply app_nil_r|intros e []].
  - cbn [fexec] in H. unfold f_register, fneed in H. destruct (_ <? _); [|discriminate]. destruct (_ && _); [|discriminate]. injection H as <-. exists []. split; [symmetry; apply app_nil_r|intros e []].
  - cbn [fexec] in H. unfold fneed in H. destruct (_ && _); [|discriminate]. injection H as <-. exists []. split; [symmetry; apply app_nil_r|intros e []].
  - destruct (step_spec _ _ _ _ _ _ H) as (q & L & K). exists q. split; [apply (l_out _ _ _ _ _ L)|]. remember (FDeposit c m v) as o eqn:OE.
    assert (EO : forall n y ps now e, In e (end_out n y ps now) -> match e with FDep _ _ _ | FClaimed _ _ _ | FPaid _ _ => False | _ => True end).
    { intros n y ps now e HE. unfold end_out in HE. rewrite !in_app_iff in HE. destruct HE as [HE|[HE|[<-|[]]]]; [|apply in_map_iff in HE as (? & <- & _); exact I|exact I]. destruct (_ =? 0); [destruct HE|destruct HE as [<-|[]]; exact I]. }
    destruct K as [o Y1 Y2 Y3 Y4 Y5 Y6 Y7 Y8 Y8' Y9|c' n' v' t y T YN EY AY SY SC ST SH SL SQ SD|c' n' v' t y y0 s1 unit p price inIcx ps T YO EX EY AY ED EQ EL EH ET EA SY SC ST SH SQ SLi SD|c' n' v' t y0 y T YO EX EY SY SC ST SH SL SQ SD|c' n' t y0 s1 unit p price inIcx ps q1 T YO EX ED EQ EA EL ES ET SY SC SLi SQ Q1]; [subst o; destruct Y9| | | |discriminate]; injection OE as -> -> ->; intros e HE; rewrite SQ in HE.
    + destruct HE as [<-|[<-|[]]]; [exists m; reflexivity|exact I].
    + rewrite !in_app_iff in HE. destruct HE as [[<-|[]]|[HE|[<-|[]]]]; [exists m; reflexivity| |exact I]. pose proof (EO _ _ _ _ _ HE) as X. destruct e; try exact I; destruct X.
    + destruct HE as [<-|[<-|[]]]; [exists m; reflexivity|exact I].
  - cbn [fexec] in H. unfold f_withdrawal in H. destruct (Z.leb_spec (f_refund s c) 0) as [|P]; [discriminate|]. destruct (_ && _); injection H as <-; cbn [emitF setIcx setRef f_out].
    + eexists. split; [reflexivity|]. intros e [<-|[]]. auto.
    + exists []. split; [symmetry; apply app_nil_r|intros e []].
  - cbn [fexec] in H. unfold f_claim in H. destruct (aget Z.eqb m (f_toks s)) as [tk|] eqn:TT; [|discriminate]. destruct (Z.leb_spec (f_balance s c m) 0) as [|P]; [discriminate|]. pose proof (claim_first s x c m tk TT P) as CF. cbv zeta in CF.
    match type of H with match aget _ _ (f_syn ?z) with _ => _ end = _ => set (s3 := z) in * end. destruct CF as (L & G1 & _). pose proof (l_out _ _ _ _ _ (L 0)) as O3. clear L. clearbody s3. set (q1 := if _ && _ then _ else _) in O3.
    assert (Q1 : forall e, In e q1 -> e = FClaimed c m (f_balance s c m)) by (unfold q1; destruct (_ && _); [intros e [<-|[]]; reflexivity|intros e []]). clearbody q1.
    assert (SAME : Some s3 = Some s' -> exists q, f_out s' = f_out s ++ q /\ forall e, In e q -> match e with FDep _ u v => exists n, FClaim c m = FDeposit u n v | FPaid u v => FClaim c m = FWithdraw u /\ v = f_refund s u /\ 0 < v | FClaimed u n v => FClaim c m = FClaim u n /\ v = f_balance s u n /\ 0 < v | _ => True end).
    { intros E. injection E as <-. exists q1. split; [exact O3|]. intros e HE. rewrite (Q1 e HE). auto. }
    destruct (aget Z.eqb m (f_syn s3)) as [y|]; [|apply (SAME H)]. destruct (_ <=? _); [|apply (SAME H)]. destruct (end_spec _ _ _ _ _ _ H) as (u & p & pr & ii & ps & ED). pose proof (e_out _ _ _ _ _ _ _ _ _ _ _ ED) as EO. cbn [setSyn f_out] in EO. rewrite O3, <- app_assoc in EO. eexists. split; [exact EO|].
    intros e HE. apply in_app_or in HE as [HE|HE]; [rewrite (Q1 e HE); auto|]. rewrite !in_app_iff in HE. destruct HE as [HE|[HE|[<-|[]]]]; [|apply in_map_iff in HE as (? & <- & _); exact I|exact I]. destruct (_ =? 0); [destruct HE|destruct HE as [<-|[]]; exact I].
  - cbn [fexec] in H. unfold fneed in H. destruct (0 <? v); [|discriminate]. unfold to_fund, fneed in H. destruct (_ && _); [|discriminate]. injection H as <-. cbn [emitF setIcx f_out]. rewrite <- app_assoc. eexists. split; [reflexivity|]. intros e [<-|[<-|[]]]; exact I.
  - cbn [fexec] in H. unfold fneed in H. destruct (0 <=? v); [|discriminate]. injection H as <-. eexists. split; [reflexivity|]. intros e [<-|[]]; exact I.
Qed.
Print Assumptions C93_who.

(** * Examples and refutations *)
Definition at_ (t p : Z) : fext := Fext t (Some p) None true true true.
Definition ok (_ : Z) : bool := true.
Ltac fairs := repeat (apply Forall_cons; [split; [cbn [snd]; first [exact I|lia]|cbn [fst x_price at_]; intros p E; injection E as <-; lia]|]); apply Forall_nil.
(** Two depositors, then new tokens and a third; the first syndication is settled, a share is claimed. *)
Definition ops_ex : list (fext * fop) :=
  [(at_ 0 2, FRegister31 1 7 70 5 (Some 0)); (at_ 0 2, FDuration 1 100); (at_ 1 2, FArrive 70 5 100); (at_ 2 2, FDeposit 2 7 30); (at_ 3 2, FDeposit 3 7 60);
   (at_ 200 2, FArrive 70 5 50); (at_ 201 2, FDeposit 4 7 10); (at_ 202 2, FClaim 2 7)].
Example C93_ex : let s := frun 1 ok 0 [] ops_ex in
  fair ops_ex /\ over (f_out s) = [1] /\ begun (f_out s) = [1; 2] /\ settled (f_out s) 1 2 = [(30, 0)] /\ settled (f_out s) 1 3 = [(60, 0)] /\ funded (f_out s) = 90 /\ f_balance s 2 7 = 0 /\ f_balance s 3 7 = 60
  /\ f_locked s 7 = 60 /\ openTokens s 7 = 50 /\ f_held s (FTok 70 5 (Some 0)) = 120 /\ f_icx s = 10.
Proof. cbv zeta. split; [unfold fair, ops_ex; fairs|]. vm_compute. repeat split. Qed.
Lemma one_token : forall t, distinct [(7, t)].
Proof. intros t n m t1 t2 H1 H2 _ _. unfold aget in H1, H2. destruct (Z.eqb_spec n 7) as [->|N1]; [|try (replace (7 =? n) with false in H1 by lia); discriminate]. destruct (Z.eqb_spec m 7) as [->|N2]; [reflexivity|try (replace (7 =? m) with false in H2 by lia); discriminate]. Qed.
(** Depositing nothing several times makes several shares of one deposit: more tokens are given than were for sale, and more owed than there are. *)
Theorem C93_zero_deposits_refuted : exists l, let s := frun 1 ok 0 [] l in distinct (f_toks s) /\ (forall x, In x l -> x_price (fst x) = Some 2) /\
  exists id n a t, In (FEnded id n a t) (f_out s) /\ a < soldIn (f_out s) id /\ f_held s (FTok 70 5 (Some 0)) < f_locked s 7 /\ (length (settled (f_out s) id 2) = 3)%nat.
Proof.
  exists [(at_ 0 2, FRegister31 1 7 70 5 (Some 0)); (at_ 0 2, FDuration 1 100); (at_ 1 2, FArrive 70 5 100); (at_ 2 2, FDeposit 2 7 0); (at_ 2 2, FDeposit 2 7 0); (at_ 3 2, FDeposit 2 7 80); (at_ 200 2, FArrive 70 5 1); (at_ 201 2, FDeposit 4 7 10)].
  cbv zeta. split; [|split].
  - match goal with |- distinct ?x => assert (E : x = [(7, FTok 70 5 (Some 0))]) by (vm_compute; reflexivity); rewrite E end. apply one_token.
  - intros x HX. cbn in HX. repeat (destruct HX as [<-|HX]; [reflexivity|]). destruct HX.
  - exists 1, 7, 100, 201. vm_compute. repeat split. repeat (first [left; reflexivity|right]).
Qed.
Print Assumptions C93_zero_deposits_refuted.
Definition ops_refund : list (fext * fop) :=
  [(at_ 0 2, FRegister31 1 7 70 5 (Some 0)); (at_ 0 2, FRegister31 1 8 80 5 (Some 0)); (at_ 0 2, FDuration 1 100); (at_ 1 2, FArrive 70 5 100); (at_ 1 2, FArrive 80 5 100); (at_ 2 2, FDeposit 2 7 200)].
(** The fund gets all that was deposited, also what is owed back: refunds are not covered by ICX, and a withdrawal pays nothing. *)
Theorem C93_refunds_refuted : exists l, fair l /\ let s := frun 1 ok 0 [] l in
  f_refund s 2 = 100 /\ f_icx s = 0 + openIcx s /\ (exists s', fexec 1 ok s (at_ 300 2) (FWithdraw 2) = Some s' /\ f_out s' = f_out s /\ f_refund s' 2 = 100).
Proof.
  exists (ops_refund ++ [(at_ 200 2, FArrive 70 5 50); (at_ 201 2, FDeposit 3 7 10)]). split; [unfold fair, ops_refund; cbn [app]; fairs|].
  cbv zeta. vm_compute. repeat split. eexists. repeat split.
Qed.
Print Assumptions C93_refunds_refuted.
(** Where there is ICX, it is that of the open syndications: a withdrawal takes it, and such a syndication can no longer be ended. *)
Theorem C93_withdrawal_refuted : exists l, fair l /\ let s := frun 1 ok 0 [] l in
  (exists y, aget Z.eqb 8 (f_syn s) = Some y /\ f_icx s < y_total y) /\ fexec 1 ok s (at_ 400 2) (FDeposit 3 8 1) = None.
Proof.
  exists (ops_refund ++ [(at_ 150 2, FDeposit 4 8 300); (at_ 200 2, FArrive 70 5 50); (at_ 201 2, FDeposit 3 7 10); (at_ 202 2, FWithdraw 2); (at_ 390 2, FArrive 80 5 50)]). split; [unfold fair, ops_refund; cbn [app]; fairs|].
  cbv zeta. split; [|vm_compute; reflexivity]. eexists. split; [vm_compute; reflexivity|]. vm_compute. reflexivity.
Qed.
Print Assumptions C93_withdrawal_refuted.
(** A syndication nobody paid for, of tokens worth less than one unit of ICX, cannot be ended: whoever tries divides by zero. *)
Theorem C93_stuck_refuted : exists l, let s := frun 1 ok 0 [] l in (exists y, aget Z.eqb 7 (f_syn s) = Some y /\ y_end y = 102) /\
  (forall x c v, 102 <= x_now x -> x_price x = Some 1 -> fexec 1 ok s x (FDeposit c 7 v) = None).
Proof.
  exists [(at_ 0 1, FRegister31 1 7 70 5 (Some 0)); (at_ 0 1, FDuration 1 100); (at_ 1 1, FArrive 70 5 100); (at_ 2 1, FDeposit 2 7 0); (at_ 200 1, FArrive 70 5 50)].
  cbv zeta. match goal with |- context [frun ?a ?b ?c ?d ?e] => set (s := frun a b c d e) end. vm_compute in s. split; [eexists; split; reflexivity|]. intros x c v T P. subst s. cbn [fexec]. unfold fneed. destruct (0 <=? v); [|reflexivity].
  unfold f_deposit. cbn [setIcx f_toks f_syn aget Z.eqb Pos.eqb]. change (f_held _ _) with 150. cbn [Z.eqb]. cbn [y_end]. replace (102 <=? x_now x) with true by lia. change (150 - f_locked _ _ - _) with 50. change (50 <=? 0) with false. cbv iota. unfold y_new, y_deposit. cbn beta iota zeta.
  unfold endAuction. change (f_held _ _) with 150. cbn [y_amount y_total y_id]. change (150 <? 100) with false. cbv iota. change (0 =? 0) with true. cbv iota. cbn [fbind]. unfold distribute. rewrite P. cbn [unit_of k_dec option_map fbind y_amount y_total y_id]. change (10 ^ Z.max 0 ((0 + 2 ^ 31) mod 2 ^ 32 - 2 ^ 31)) with 1. change (jdiv (1 * (100 - DISCOUNT)) 100) with (Some 0). cbn [fbind]. change (jdiv (100 * 0) 1) with (Some 0). cbn [fbind].
  match goal with |- context [dist_loop ?a ?b ?c ?d ?e ?f ?g ?h ?i ?j] => replace (dist_loop a b c d e f g h i j) with (@None (fa * Z)); [reflexivity|] end. reflexivity.
Qed.
Print Assumptions C93_stuck_refuted.
(** A negative duration is accepted, and its syndications are over before they begin. *)
Theorem C93_duration_refuted : exists l, fair l /\ let s := frun 1 ok 0 [] l in exists y, aget Z.eqb 7 (f_syn s) = Some y /\ y_end y < y_start y.
Proof.
  exists [(at_ 0 2, FRegister31 1 7 70 5 (Some 0)); (at_ 0 2, FDuration 1 (-100)); (at_ 1 2, FArrive 70 5 100); (at_ 2 2, FDeposit 2 7 30)]. split; [unfold fair; fairs|].
  cbv zeta. eexists. split; [vm_compute; reflexivity|]. vm_compute. reflexivity.
Qed.
Print Assumptions C93_duration_refuted.
(** One token under two names is sold twice. *)
Theorem C93_twice_refuted : exists l, fair l /\ let s := frun 1 ok 0 [] l in exists t, aget Z.eqb 7 (f_toks s) = Some t /\ aget Z.eqb 8 (f_toks s) = Some t /\ f_held s t < openTokens s 7 + openTokens s 8.
Proof.
  exists [(at_ 0 2, FRegister31 1 7 70 5 (Some 0)); (at_ 0 2, FRegister31 1 8 70 5 (Some 0)); (at_ 1 2, FArrive 70 5 100); (at_ 2 2, FDeposit 2 7 30); (at_ 2 2, FDeposit 3 8 30)]. split; [unfold fair; fairs|].
  cbv zeta. eexists. split; [vm_compute; reflexivity|]. split; [vm_compute; reflexivity|]. vm_compute. reflexivity.
Qed.
Print Assumptions C93_twice_refuted.
