(** Theorems about the sample token (pyscore/token/sample/irc2/irc2_token.py) together with the token service, with contracts that call back. *)
From Coq Require Import String Ascii ZArith List Bool Lia.
From Coq Require Import ZifyBool.
From Verif Require Import Base L_Base GoStr M_JMap M_PyBmv M_PyBmc M_PyToken S_PyToken M_PyIrc2 S_PyIrc2 L_JMap L_PyToken L_PyIrc2 T_PyToken.
Import ListNotations.
Open Scope Z_scope.
Local Notation bytes := (list Z).
Definition any_call (c : tcall) : Prop := True.

(** The token and the service as they are installed *)
Definition begins (sender : bytes) (holder : option bytes) (decimals initial : Z) (owner bmc : bytes) (w : world) (total : Z) : Prop :=
  exists tb, irc2_install sender holder decimals initial = Some (tb, total) /\ w = World tb (token_installed owner bmc).
Lemma begins_fair : forall x h d i o b w total, begins x h d i o b w total -> fair (w_tok w) /\ supply (w_tok w) = total /\ w_bsh w = token_installed o b /\ 0 <= total /\
  forall u, tbal (w_tok w) u = if bytes_eqb u (match h with Some a => a | None => x end) then total else 0.
Proof.
  intros x h d i o b w total (tb & E & ->). unfold irc2_install in E. destruct (Z.ltb_spec i 0); [discriminate E|]. destruct (Z.ltb_spec d 0); [discriminate E|]. destruct (Z.ltb_spec 21 d); [discriminate E|]. cbv zeta in E. set (hh := match h with Some a => a | None => x end) in *. assert (T : total = i * 10 ^ d) by congruence. assert (tb = [(hh, i * 10 ^ d)]) by congruence. subst tb. rewrite <- T in *.
  assert (0 <= total) by (rewrite T; apply Z.mul_nonneg_nonneg; [lia|apply Z.pow_nonneg; lia]). cbn [w_tok w_bsh]. assert (B : forall u, tbal [(hh, total)] u = if bytes_eqb u hh then total else 0) by (intros u; unfold tbal, kget; cbn [aget]; destruct (bytes_eqb u hh); reflexivity).
  split; [split; [repeat constructor; intros []|intros u; rewrite B; destruct (bytes_eqb u hh); lia]|]. split; [cbn [supply]; lia|]. split; [reflexivity|]. split; [assumption|exact B].
Qed.
Lemma held_nonneg : forall addr_of owner bmc cs a, Forall no_request cs -> 0 <= came addr_of (token_installed owner bmc) cs a - paid (t_out (trun addr_of (token_installed owner bmc) cs)) a.
Proof.
  intros addr_of owner bmc cs a N. destruct (C105_backed addr_of owner bmc cs a N) as (W & _). set (s := trun addr_of (token_installed owner bmc) cs) in *.
  assert (0 <= worth_token (t_addr s) s a); [|lia]. apply wt_nonneg. intros m.
  apply (worth_split s m []); [apply reached| |intros u k; exact (proj2 (C105_locked addr_of owner bmc cs u k))]. intros u k. exact (C105_not_below_zero addr_of owner bmc cs u k (no_request_gives addr_of cs N)).
Qed.
Section WORLD.
Variable addr_of : bytes -> option bytes.
Variables tk bs : bytes.
Variable is_contract : bytes -> bool.
Hypothesis bsc : is_contract bs = true.
(** The token is installed exactly when supply and decimals are in range; all of it then belongs to one holder *)
Theorem C107_installed : forall x h d i, 
  ((exists tb total, irc2_install x h d i = Some (tb, total)) <-> 0 <= i /\ 0 <= d <= 21) /\
  (forall tb total, irc2_install x h d i = Some (tb, total) -> total = i * 10 ^ d /\ forall u, tbal tb u = if bytes_eqb u (match h with Some a => a | None => x end) then total else 0).
Proof.
  intros x h d i. split.
  - unfold irc2_install. destruct (Z.ltb_spec i 0); [split; [intros (? & ? & E); discriminate E|lia]|]. destruct (Z.ltb_spec d 0); [split; [intros (? & ? & E); discriminate E|lia]|]. destruct (Z.ltb_spec 21 d); [split; [intros (? & ? & E); discriminate E|lia]|]. cbv zeta. split; [lia|]. intros _. eexists _, _. reflexivity.
  - intros tb total E. assert (Bg : begins x h d i [] [] (World tb (token_installed [] [])) total) by (exists tb; split; [exact E|reflexivity]). destruct (begins_fair _ _ _ _ _ _ _ _ Bg) as (_ & _ & _ & _ & B). split; [|exact B]. unfold irc2_install in E. destruct (i <? 0); [discriminate E|]. destruct (d <? 0); [discriminate E|]. destruct (21 <? d); [discriminate E|]. cbv zeta in E. congruence.
Qed.
(** Tokens are neither made nor lost and no balance is below zero, whatever the receiving contracts call *)
Theorem C107_supply : forall x h d i owner bmc w total l, begins x h d i owner bmc w total -> Forall (proper tk bs any_call) l -> let w' := wrun addr_of tk bs is_contract w l in
  supply (w_tok w') = total /\ NoDup (map fst (w_tok w')) /\ forall u, 0 <= tbal (w_tok w') u.
Proof.
  intros x h d i owner bmc w total l Bg P w'. destruct (begins_fair _ _ _ _ _ _ _ _ Bg) as (F & S & _). destruct (wrun_goes addr_of tk bs is_contract any_call bsc (fun _ _ => I) (fun _ _ _ _ => I) l w F P) as (cs & _ & _ & (N & B) & S' & _). fold w' in N, B, S'. split; [congruence|]. split; assumption.
Qed.
(** What the token holds for the service is exactly what the service took in less what it paid out, after the calls that were not undone *)
Theorem C107_held : forall (Q : tcall -> Prop) x h d i owner bmc w total l, begins x h d i owner bmc w total -> (forall f v, Q (KFallback tk f v)) -> (forall u n v ok, Q (KReclaim u n v ok)) ->
  Forall (proper tk bs Q) l -> let w' := wrun addr_of tk bs is_contract w l in
  exists cs, Forall Q cs /\ w_bsh w' = trun addr_of (token_installed owner bmc) cs /\
    tbal (w_tok w') bs = tbal (w_tok w) bs + came addr_of (token_installed owner bmc) cs tk - paid (t_out (w_bsh w')) tk.
Proof.
  intros Q x h d i owner bmc w total l Bg Qf Qr P w'. destruct (begins_fair _ _ _ _ _ _ _ _ Bg) as (F & S & Eb & _). destruct (wrun_goes addr_of tk bs is_contract Q bsc Qf Qr l w F P) as (cs & A & B & _ & _ & C). fold w' in A, C. rewrite Eb in *. exists cs. split; [exact B|]. split; [exact A|]. change (t_out (token_installed owner bmc)) with (@nil tout) in C. cbn [paid] in C. lia.
Qed.
(** Without requests of other networks the token holds for the service at least what the users have there, under all names of the token *)
Theorem C107_covered : forall x h d i owner bmc w total l, begins x h d i owner bmc w total -> Forall (proper tk bs no_request) l -> let w' := wrun addr_of tk bs is_contract w l in
  worth_token (t_addr (w_bsh w')) (w_bsh w') tk <= tbal (w_tok w') bs - tbal (w_tok w) bs /\
  forall u n, kget n (t_addr (w_bsh w')) = Some tk -> 0 <= usable (w_bsh w') u n <= tbal (w_tok w') bs - tbal (w_tok w) bs.
Proof.
  intros x h d i owner bmc w total l Bg P w'. destruct (C107_held no_request x h d i owner bmc w total l Bg (fun _ _ => I) (fun _ _ _ _ => I) P) as (cs & N & E & B). fold w' in E, B.
  destruct (C105_backed addr_of owner bmc cs tk N) as (W & U & _). rewrite <- E in W, U. split; [lia|]. intros u n K. specialize (U u n K). pose proof (C105_not_below_zero addr_of owner bmc cs u n (no_request_gives addr_of cs N)) as V. rewrite <- E in V. lia.
Qed.
(** So the token never refuses what the service lets somebody reclaim: such a reclaim goes through, and the user gets it,
    unless the user is a contract that refuses it *)
Theorem C107_paid : forall x h d i owner bmc w total l u n v nested ok, begins x h d i owner bmc w total -> Forall (proper tk bs no_request) l -> let w' := wrun addr_of tk bs is_contract w l in
  u <> bs -> kget n (t_addr (w_bsh w')) = Some tk -> 0 <= v <= usable (w_bsh w') u n ->
  ((exists w2, exec addr_of tk bs is_contract (AReclaim u n v nested ok) w' = Val w2) <-> is_contract u = false \/ ok = true) /\
  (forall w2, is_contract u = false \/ nested = [] -> exec addr_of tk bs is_contract (AReclaim u n v nested ok) w' = Val w2 ->
     (forall y, tbal (w_tok w2) y = tbal (w_tok w') y + (if bytes_eqb y u then v else 0) - (if bytes_eqb y bs then v else 0)) /\
     forall y m, usable (w_bsh w2) y m = usable (w_bsh w') y m - (if bytes_eqb y u && bytes_eqb m n then v else 0)).
Proof.
  intros x h d i owner bmc w total l u n v nested ok Bg P w' Nu K V. destruct (C107_covered x h d i owner bmc w total l Bg P) as (_ & C). fold w' in C. specialize (C u n K).
  assert (W0 : 0 <= tbal (w_tok w) bs) by (destruct (begins_fair _ _ _ _ _ _ _ _ Bg) as ((_ & X) & _); apply X).
  assert (Fr : fair (w_tok w')). { destruct (begins_fair _ _ _ _ _ _ _ _ Bg) as (F & _). destruct (wrun_goes addr_of tk bs is_contract no_request bsc (fun _ _ => I) (fun _ _ _ _ => I) l w F P) as (cs & _ & _ & X & _). exact X. }
  rewrite exec_reclaim. unfold t_reclaim. rewrite K. destruct (Z.ltb_spec v 0); [lia|]. unfold usable in V, C. destruct (Z.ltb_spec (fst (balance (w_bsh w') u n)) v); [lia|]. cbn [bind]. rewrite bytes_eqb_refl. unfold irc2_transfer. cbn [w_tok w_bsh].
  destruct (move_tokens (w_tok w') bs u v) as [tb|] eqn:M; [|exfalso; unfold move_tokens in M; destruct (Z.ltb_spec v 0); [lia|]; destruct (Z.ltb_spec (tbal (w_tok w') bs) v); [lia|discriminate M]].
  destruct (move_fair _ _ _ _ _ Fr M) as (_ & _ & _ & B). destruct (bytes_eqb_spec u bs) as [|_]; [contradiction|]. split.
  - destruct (is_contract u); [destruct ok|].
    + split; [auto|intros _; eexists; reflexivity].
    + split; [intros (w2 & E); discriminate E|intros [E|E]; discriminate E].
    + split; [auto|intros _; eexists; reflexivity].
  - intros w2 Z E. assert (E' : w2 = World tb (M_PyToken.tell (update (w_bsh w') u n (- v) 0) (TPay tk u v))).
    { destruct (is_contract u); [destruct Z as [Z|Z]; [discriminate Z|]; subst nested; destruct ok; [|discriminate E]; cbn [runs] in E; congruence|congruence]. }
    subst w2. cbn [w_tok w_bsh]. split; [intros y; rewrite B; lia|]. intros y m. unfold usable. match goal with |- fst (balance (M_PyToken.tell ?s ?o) y m) = _ => change (balance (M_PyToken.tell s o) y m) with (balance s y m) end.
    rewrite usable_after. destruct (_ && _); lia.
Qed.
(** Tokens sent to the service are taken exactly when it knows the token, and are then the sender's there *)
Theorem C107_deposit : forall w f v nested ok, fair (w_tok w) -> f <> bs ->
  let r := exec addr_of tk bs is_contract (ASend f bs v nested ok) w in
  ((exists w2, r = Val w2) <-> 0 <= v <= tbal (w_tok w) f /\ exists c n, name_of (w_bsh w) tk = Some (c :: n)) /\
  forall w2, r = Val w2 -> exists n, name_of (w_bsh w) tk = Some n /\
    (forall y, tbal (w_tok w2) y = tbal (w_tok w) y + (if bytes_eqb y bs then v else 0) - (if bytes_eqb y f then v else 0)) /\
    forall y m, usable (w_bsh w2) y m = usable (w_bsh w) y m + (if bytes_eqb y f && bytes_eqb m n then v else 0).
Proof.
  intros w f v nested ok Fr Nf r. subst r. rewrite exec_send. unfold irc2_transfer. rewrite bsc, bytes_eqb_refl. destruct (move_tokens (w_tok w) f bs v) as [tb|] eqn:M.
  - destruct (move_fair _ _ _ _ _ Fr M) as (_ & _ & V & B). unfold t_fallback. destruct (Z.ltb_spec v 0); [lia|]. destruct (name_of (w_bsh w) tk) as [[|c n]|] eqn:K.
    + split; [split; [intros (? & E); discriminate E|intros (_ & ? & ? & E); discriminate E]|intros w2 E; discriminate E].
    + cbn [bind]. split; [split; [intros _; split; [exact V|eauto]|intros _; eexists; reflexivity]|]. intros w2 E. exists (c :: n). split; [reflexivity|]. assert (E' : w2 = World tb (update (w_bsh w) f (c :: n) v 0)) by congruence. subst w2. cbn [w_tok w_bsh]. split; [intros y; rewrite B; lia|]. intros y m. unfold usable. rewrite usable_after. lia.
    + split; [split; [intros (? & E); discriminate E|intros (_ & ? & ? & E); discriminate E]|intros w2 E; discriminate E].
  - split; [|intros w2 E; discriminate E]. split; [intros (? & E); discriminate E|]. intros (V & _). exfalso. unfold move_tokens in M. destruct (Z.ltb_spec v 0); [lia|]. destruct (Z.ltb_spec (tbal (w_tok w) f) v); [lia|discriminate M].
Qed.
(** Nobody but the service loses tokens without sending them themselves, at any depth *)
Lemma own_runs : forall l u, (forall x, In x l -> forall w w', fair (w_tok w) -> proper tk bs any_call x -> exec addr_of tk bs is_contract x w = Val w' -> tbal (w_tok w') u < tbal (w_tok w) u -> sends u x) ->
  Forall (proper tk bs any_call) l -> forall w, fair (w_tok w) -> tbal (w_tok (runs addr_of tk bs is_contract l w)) u < tbal (w_tok w) u -> exists x, In x l /\ sends u x.
Proof.
  induction l as [|x l IH]; intros u A P w F L; cbn [runs] in L; [lia|]. inversion P as [|? ? P1 P2]; subst.
  destruct (exec addr_of tk bs is_contract x w) as [w1|e] eqn:E.
  - destruct (exec_goes addr_of tk bs is_contract any_call bsc (fun _ _ => I) (fun _ _ _ _ => I) x w w1 F P1 E) as (cs & _ & _ & F1 & _).
    destruct (Z.lt_ge_cases (tbal (w_tok w1) u) (tbal (w_tok w) u)) as [D|D]; [exists x; split; [left; reflexivity|exact (A x (or_introl eq_refl) w w1 F P1 E D)]|].
    destruct (IH u) with (w := w1) as (y & I1 & I2); [intros y Iy; apply A; right; exact Iy|exact P2|exact F1|lia|]. exists y. split; [right; exact I1|exact I2].
  - destruct (IH u) with (w := w) as (y & I1 & I2); [intros y Iy; apply A; right; exact Iy|exact P2|exact F|lia|]. exists y. split; [right; exact I1|exact I2].
Qed.
Theorem C107_own : forall a w u, fair (w_tok w) -> proper tk bs any_call a -> u <> bs -> tbal (w_tok (wstep addr_of tk bs is_contract w a)) u < tbal (w_tok w) u -> sends u a.
Proof.
  intros a w u F P Nu L. unfold wstep in L. destruct (exec addr_of tk bs is_contract a w) as [w'|e] eqn:E; [|lia]. revert w w' F P L E. pattern a. revert a. apply act_ind2.
  - intros f t v l ok IL w w' F P L E. inversion P as [? ? ? ? ? Nf Pl| |]; subst. rewrite exec_send in E. unfold irc2_transfer in E. destruct (move_tokens (w_tok w) f t v) as [tb|] eqn:M; [|discriminate E]. destruct (move_fair _ _ _ _ _ F M) as (F' & _ & V & B). specialize (B u).
    destruct (bytes_eqb_spec u f) as [Ef|Ef]; [rewrite Ef; apply SD_here|].
    assert (Lt : tbal (w_tok w) u <= tbal tb u) by (destruct (bytes_eqb u t); lia).
    destruct (is_contract t); [|assert (w' = World tb (w_bsh w)) by congruence; subst w'; cbn [w_tok] in L; lia].
    destruct (bytes_eqb t bs); [destruct (t_fallback (w_bsh w) tk f v) as [s|]; [|discriminate E]; cbn [bind] in E; assert (w' = World tb s) by congruence; subst w'; cbn [w_tok] in L; lia|]. destruct ok; [|discriminate E].
    assert (E' : w' = runs addr_of tk bs is_contract l (World tb (w_bsh w))) by congruence. clear E. subst w'. rewrite Forall_forall in IL.
    destruct (own_runs l u) with (w := World tb (w_bsh w)) as (y & I1 & I2); [intros y Iy w1 w2 X1 X2 X3 X4; eapply IL; eauto|exact Pl|exact F'|cbn [w_tok]; lia|]. eapply SD_in_send; eauto.
  - intros c n v l ok IL w w' F P L E. inversion P as [|? ? ? ? ? Nc Pl|]; subst. rewrite exec_reclaim in E. destruct (t_reclaim (w_bsh w) c n v true) as [s|] eqn:T; [|discriminate E]. cbn [bind] in E. destruct (kget n (t_addr (w_bsh w))) as [a|]; [|discriminate E]. rewrite Forall_forall in IL.
    assert (R : forall tb, fair tb -> tbal (w_tok w) u <= tbal tb u -> w' = runs addr_of tk bs is_contract l (World tb s) -> sends u (AReclaim c n v l ok)).
    { intros tb Ft Lt E'. subst w'. destruct (own_runs l u) with (w := World tb s) as (y & I1 & I2); [intros y Iy w1 w2 X1 X2 X3 X4; eapply IL; eauto|exact Pl|exact Ft|cbn [w_tok]; lia|]. eapply SD_in_reclaim; eauto. }
    destruct (bytes_eqb a tk).
    + unfold irc2_transfer in E. cbn [w_tok w_bsh] in E. destruct (move_tokens (w_tok w) bs c v) as [tb|] eqn:M; [|discriminate E]. destruct (move_fair _ _ _ _ _ F M) as (F' & _ & V & B). specialize (B u). destruct (bytes_eqb_spec u bs); [contradiction|].
      assert (Lt : tbal (w_tok w) u <= tbal tb u) by (destruct (bytes_eqb u c); lia).
      destruct (is_contract c); [|assert (w' = World tb s) by congruence; subst w'; cbn [w_tok] in L; lia]. destruct (bytes_eqb_spec c bs); [contradiction|]. destruct ok; [|discriminate E]. apply (R tb F' Lt). congruence.
    + destruct ok; [|discriminate E]. apply (R (w_tok w) F); [lia|congruence].
  - intros c w w' F P L E. cbn [exec] in E. destruct (tcall_result addr_of (w_bsh w) c) as [s|]; [|discriminate E]. cbn [bind] in E. assert (w' = World (w_tok w) s) by congruence. subst w'. cbn [w_tok] in L. lia.
Qed.
(** Tokens that the service has when the token is installed are never paid out, if no other network sends requests *)
Theorem C107_minted_refuted : forall x d i owner bmc w total l, begins x (Some bs) d i owner bmc w total -> Forall (proper tk bs no_request) l ->
  total <= tbal (w_tok (wrun addr_of tk bs is_contract w l)) bs.
Proof.
  intros x d i owner bmc w total l Bg P. destruct (begins_fair _ _ _ _ _ _ _ _ Bg) as (F & _ & _ & _ & B). pose proof (B bs) as Bb. rewrite bytes_eqb_refl in Bb.
  destruct (C107_held no_request x (Some bs) d i owner bmc w total l Bg (fun _ _ => I) (fun _ _ _ _ => I) P) as (cs & N & E & H).
  pose proof (held_nonneg addr_of owner bmc cs tk N) as K. rewrite <- E in K. lia.
Qed.
End WORLD.
Print Assumptions C107_installed.
Print Assumptions C107_supply.
Print Assumptions C107_held.
Print Assumptions C107_covered.
Print Assumptions C107_paid.
Print Assumptions C107_deposit.
Print Assumptions C107_own.
Print Assumptions C107_minted_refuted.

(** * Examples *)
Local Definition ao (x : bytes) : option bytes := match x with 104 :: 120 :: _ => Some x | _ => None end.
Local Definition own : bytes := str "hx0".
Local Definition ctr : bytes := str "cx1".
Local Definition svc : bytes := str "cx9".
Local Definition tok : bytes := str "cx22".
Local Definition ua : bytes := str "hxa".
Local Definition ub : bytes := str "hxb".
Local Definition thief : bytes := str "cx66".
Local Definition nm : bytes := str "T".
Local Definition isc (x : bytes) : bool := match x with 99 :: 120 :: _ => true | _ => false end.
Local Definition w0 : world := World [(ua, 100)] (token_installed own ctr).
Local Definition run := wrun ao tok svc isc.
Local Definition setup := [ACall (KRegister own nm tok); ASend ua thief 10 [] true; ASend ua svc 40 [] true; ASend thief svc 10 [] true].
(** a contract that reclaims again and again while it is paid *)
Local Definition again := AReclaim thief nm 10 [AReclaim thief nm 10 [] true; AReclaim thief nm 10 [AReclaim thief nm 10 [] true] true] true.
(** or that takes what it is due in pieces, inside one another *)
Local Definition pieces := AReclaim thief nm 4 [AReclaim thief nm 4 [ASend thief ub 8 [] true; AReclaim thief nm 3 [] true] true; AReclaim thief nm 2 [] true] true.
Example C107_ex_begins : begins own (Some ua) 2 1 own ctr w0 100.
Proof. exists [(ua, 100)]. split; reflexivity. Qed.
Example C107_ex_proper : Forall (proper tok svc no_request) (setup ++ [again; pieces]).
Proof. repeat constructor; discriminate. Qed.
Example C107_ex_again :
  let w := run w0 (setup ++ [again]) in map (tbal (w_tok w)) [ua; svc; thief] = [50; 40; 10] /\ usable (w_bsh w) thief nm = 0 /\ usable (w_bsh w) ua nm = 40.
Proof. vm_compute. repeat split; reflexivity. Qed.
Example C107_ex_pieces :
  let w := run w0 (setup ++ [pieces]) in map (tbal (w_tok w)) [ua; svc; thief; ub] = [50; 40; 2; 8] /\ usable (w_bsh w) thief nm = 0.
Proof. vm_compute. repeat split; reflexivity. Qed.
Example C107_ex_paid : kget nm (t_addr (w_bsh (run w0 setup))) = Some tok /\ usable (w_bsh (run w0 setup)) ua nm = 40 /\
  map (tbal (w_tok (run w0 (setup ++ [AReclaim ua nm 40 [] true])))) [ua; svc] = [90; 10].
Proof. vm_compute. repeat split; reflexivity. Qed.
Example C107_ex_own : tbal (w_tok (run w0 (setup ++ [pieces]))) thief = 2 /\ sends thief pieces.
Proof. split; [reflexivity|]. eapply SD_in_reclaim; [left; reflexivity|]. eapply SD_in_reclaim; [left; reflexivity|]. apply SD_here. Qed.
(** The whole supply sent to oneself is not doubled *)
Example C107_ex_self : map (tbal (w_tok (run w0 [ASend ua ua 100 [] true]))) [ua] = [100].
Proof. reflexivity. Qed.
(** With requests the service lets a user reclaim what the token then refuses, here after another user was given and took the deposit *)
Local Definition drained := setup ++ [ACall (KMessage ctr (str "0x2.icon") 1 (JReq ub nm 50) true); AReclaim ub nm 50 [] true].
Theorem C107_paid_refuted : exists l u n v, Forall (proper tok svc any_call) l /\ let w := run w0 l in
  kget n (t_addr (w_bsh w)) = Some tok /\ 0 < v <= usable (w_bsh w) u n /\ isc u = false /\ tbal (w_tok w) svc < v /\
  (exists s', tcall_result ao (w_bsh w) (KReclaim u n v true) = Val s') /\ exec ao tok svc isc (AReclaim u n v [] true) w = Raise XOther.
Proof.
  exists drained, ua, nm, 40. split; [repeat constructor; discriminate|]. vm_compute. repeat split; try reflexivity; try discriminate. eexists. reflexivity.
Qed.
Print Assumptions C107_paid_refuted.
(** A contract that sends tokens but does not take them can deposit and never gets the deposit back *)
Theorem C107_not_taken_refuted : forall addr_of tk bs is_contract c n v l w, is_contract c = true -> c <> bs -> kget n (t_addr (w_bsh w)) = Some tk ->
  exists x, exec addr_of tk bs is_contract (AReclaim c n v l false) w = Raise x.
Proof.
  intros addr_of tk bs isc' c n v l w C N K. rewrite exec_reclaim. destruct (t_reclaim (w_bsh w) c n v true) as [s|x]; [|exists x; reflexivity]. cbn [bind]. rewrite K, bytes_eqb_refl. unfold irc2_transfer. cbn [w_tok w_bsh]. destruct (move_tokens (w_tok w) bs c v) as [tb|]; [|exists XOther; reflexivity]. rewrite C. destruct (bytes_eqb_spec c bs); [contradiction|]. exists XOther. reflexivity.
Qed.
Print Assumptions C107_not_taken_refuted.
Example C107_ex_not_taken : usable (w_bsh (run w0 setup)) thief nm = 10 /\ isc thief = true /\ exec ao tok svc isc (AReclaim thief nm 10 [] false) (run w0 setup) = Raise XOther.
Proof. vm_compute. repeat split; reflexivity. Qed.
Example C107_ex_minted : exists w, begins own (Some svc) 0 70 own ctr w 70 /\ tbal (w_tok (run w setup)) svc = 70.
Proof. eexists. split; [exists [(svc, 70)]; split; reflexivity|]. vm_compute. reflexivity. Qed.
