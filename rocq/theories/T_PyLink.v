(** C103: whose turn it is to relay over a link of the Python contracts. *)
From Coq Require Import String Ascii ZArith List Bool Lia.
From Coq Require Import ZifyBool.
From Verif Require Import Base L_Base GoStr M_JMap M_PyBmc L_PyBmc M_PyLink S_PyLink L_PyLink.
Import ListNotations.
Open Scope Z_scope.
Local Notation bytes := (list Z).

(** Dividing two integers as floats and rounding up gives the quotient rounded up, for numbers up to 2^53. *)
Theorem C103_ceil : forall a b, Z.abs a < 2 ^ 53 -> 0 < b -> rounded_up a b (f_ceil (int_div a b)).
Proof. exact ceil_exact. Qed.
Print Assumptions C103_ceil.
Example C103_ex_ceil : f_ceil (int_div 61 10) = 7 /\ f_ceil (int_div (-61) 10) = -6 /\ f_ceil (int_div 60 10) = 6 /\ f_ceil (int_div 1 3) = 1.
Proof. vm_compute. repeat split. Qed.

(** A term is max_aggregation * block_interval_dst / block_interval_src blocks, rounded up, or one more where the division is exact. *)
Theorem C103_term : forall l, 0 < r_src l -> 0 < r_dst l -> 0 < r_agg l -> r_agg l * r_dst l < 2 ^ 51 ->
  rounded_up (r_agg l * r_dst l) (r_src l) (rotate_term l) \/ (rotate_term l - 1) * r_src l = r_agg l * r_dst l.
Proof.
  intros l S D A B. unfold rotate_term, scale. replace ((r_src l <? 1) || (r_dst l <? 1)) with false by lia. apply term_near; assumption.
Qed.
Print Assumptions C103_term.
(** There are terms exactly where both intervals are set. *)
Theorem C103_terms : forall l, 0 < r_agg l -> r_agg l * r_dst l < 2 ^ 51 -> (0 < rotate_term l <-> 0 < r_src l /\ 0 < r_dst l).
Proof.
  intros l A B. split.
  - intros T. unfold rotate_term, scale in T. destruct ((r_src l <? 1) || (r_dst l <? 1)) eqn:E; lia.
  - intros (S & D). destruct (C103_term l S D A B) as [X|X]; [unfold rounded_up in X|]; nia.
Qed.
Print Assumptions C103_terms.
Local Definition lk (dst agg : Z) : rlink := RLink 1000 dst agg 3 0 110 100 50 [str "a"; str "b"; str "c"] 0 0 [] [].
(** The extra block is there: 10 messages of 6.1 s each are 61 blocks of a second, the term is 62. *)
Theorem C103_term_refuted : exists l, 0 < r_src l /\ 0 < r_dst l /\ 0 < r_agg l /\ r_agg l * r_dst l = 61 * r_src l /\ rotate_term l = 62.
Proof. exists (lk 6100 10). vm_compute. repeat split. Qed.
Print Assumptions C103_term_refuted.
Example C103_ex_term : rotate_term (lk 1160 25) = 30 /\ rotate_term (lk 2000 10) = 20 /\ rotate_term (lk 1500 3) = 5 /\ rotate_term (lk 0 10) = 0.
Proof. vm_compute. repeat split. Qed.

(** Without messages the relay is the one of the height: the turns go round, each of a term. *)
Theorem C103_turn : forall l h mh, pointing l -> 0 < rotate_term l -> h - r_height l < 2 ^ 53 -> exists k a, turns l (rotate_term l) h k /\ in_turn l k a /\
  rotate l h mh false = Val (Some a, with_turn l ((r_idx l + k) mod zlen (r_relays l)) (r_height l + k * rotate_term l)).
Proof. exact rotate_plain. Qed.
Print Assumptions C103_turn.
Example C103_ex_turn : exists l', rotate (lk 1000 10) 135 0 false = Val (Some (str "a"), l') /\ r_idx l' = 0 /\ r_height l' = 140 /\ exists l2, rotate (lk 1000 10) 120 0 false = Val (Some (str "b"), l2) /\ r_height l2 = 120.
Proof. eexists. vm_compute. split; [reflexivity|]. split; [reflexivity|]. split; [reflexivity|]. eexists. split; reflexivity. Qed.
(** It does not matter at which heights the contract was called in between. *)
Theorem C103_only_height : forall l h hs last, pointing l -> 0 < rotate_term l -> rising h hs -> Forall (fun x => x - r_height l < 2 ^ 53) (h :: hs) -> List.last (h :: hs) 0 = last ->
  rotates l (h :: hs) = bind (rotate l last 0 false) (fun p => Val (snd p)).
Proof. intros l h hs. exact (rotates_last hs l h). Qed.
Print Assumptions C103_only_height.
Example C103_ex_only_height : exists l', rotates (lk 1000 10) [95; 111; 125; 125; 160] = Val l' /\ r_idx l' = 2 /\ r_height l' = 160 /\ rising 95 [111; 125; 125; 160] /\ pointing (lk 1000 10).
Proof. eexists. split; [vm_compute; reflexivity|]. split; [reflexivity|]. split; [reflexivity|]. split; [cbn; lia|vm_compute; split; congruence]. Qed.
(** Every relay has its turn among any n * term heights that follow each other. *)
Theorem C103_fair : forall l h0 mh a, pointing l -> 0 < rotate_term l -> r_height l <= h0 -> h0 + zlen (r_relays l) * rotate_term l - r_height l < 2 ^ 53 -> In a (r_relays l) ->
  exists h l', h0 < h <= h0 + zlen (r_relays l) * rotate_term l /\ rotate l h mh false = Val (Some a, l').
Proof.
  intros l h0 mh a P T B U I. set (n := zlen (r_relays l)) in *. assert (N : 0 < n) by (unfold pointing in P; lia). set (t := rotate_term l) in *. apply In_nth_error in I as (i & I). assert (IL : 0 <= Z.of_nat i < n) by (unfold n, zlen; assert (i < length (r_relays l))%nat by (apply nth_error_Some; congruence); lia).
  pose proof (turns_exists l t h0 T ltac:(nia)) as T0. set (k0 := Z.max 0 (f_ceil (int_div (h0 - r_height l) t))) in *. clearbody k0.
  set (j := (Z.of_nat i - r_idx l - k0 - 1) mod n + 1). pose proof (Z.mod_pos_bound (Z.of_nat i - r_idx l - k0 - 1) n N) as JB. assert (JJ : 1 <= j <= n) by (unfold j; lia).
  exists (h0 + j * t). destruct (rotate_plain l (h0 + j * t) mh P T ltac:(nia)) as (k & x & TK & AK & R). eexists. split; [nia|]. rewrite R. do 2 f_equal. f_equal.
  assert (X : turns l t (h0 + j * t) (k0 + j)) by (unfold turns in *; nia). pose proof (turns_unique _ _ _ _ _ T TK X) as ->. unfold in_turn in AK. fold n in AK.
  replace ((r_idx l + (k0 + j)) mod n) with (Z.of_nat i) in AK; [rewrite Nat2Z.id in AK; congruence|].
  unfold j. replace (r_idx l + (k0 + ((Z.of_nat i - r_idx l - k0 - 1) mod n + 1))) with ((Z.of_nat i - r_idx l - k0 - 1) mod n + (r_idx l + k0 + 1)) by ring. rewrite Zplus_mod_idemp_l. replace (Z.of_nat i - r_idx l - k0 - 1 + (r_idx l + k0 + 1)) with (Z.of_nat i) by ring. rewrite Z.mod_small by exact IL. reflexivity.
Qed.
Print Assumptions C103_fair.
Example C103_ex_fair : pointing (lk 1000 10) /\ 0 < rotate_term (lk 1000 10) /\ r_height (lk 1000 10) <= 111 /\ 111 + 3 * 10 - 110 < 2 ^ 53 /\ In (str "c") (r_relays (lk 1000 10)) /\ exists l', rotate (lk 1000 10) 121 0 false = Val (Some (str "c"), l').
Proof. split; [vm_compute; split; congruence|]. split; [vm_compute; reflexivity|]. split; [vm_compute; congruence|]. split; [lia|]. split; [cbn; auto|]. eexists. vm_compute. reflexivity. Qed.

(** With messages too the turn ends at most a term from now, and it never goes back. *)
Theorem C103_heights : forall l h mh b, pointing l -> 0 < rotate_term l -> 0 < r_delay l -> h - r_height l < 2 ^ 53 -> r_height l <= h + rotate_term l -> exists a l', rotate l h mh b = Val (Some a, l') /\ In a (r_relays l) /\
  pointing l' /\ r_relays l' = r_relays l /\ rotate_term l' = rotate_term l /\ r_height l <= r_height l' <= h + rotate_term l.
Proof.
  intros l h mh b P T D B R. destruct (rotate_some l h mh b P T D B R) as (a & l' & E & I & P' & L & H & S1 & S2 & S3 & _). exists a, l'. split; [exact E|]. split; [exact I|]. split; [exact P'|]. split; [exact L|]. split; [|exact H]. unfold rotate_term, scale. rewrite S1, S2, S3. reflexivity.
Qed.
Print Assumptions C103_heights.
Example C103_ex_heights : exists l', rotate (lk 1000 10) 120 66 true = Val (Some (str "c"), l') /\ r_height l' = 130 /\ r_height (lk 1000 10) <= 120 + rotate_term (lk 1000 10).
Proof. eexists. vm_compute. split; [reflexivity|]. split; congruence. Qed.
(** With messages, however, the height they claim decides whose turn it is: at one height each of three relays may be allowed, each with another height. *)
Theorem C103_choice_refuted : exists l h, pointing l /\ 0 < rotate_term l /\ 0 < r_delay l /\ r_height l <= h + rotate_term l /\
  forall a, In a (r_relays l) -> exists mh l', r_rxsrc l < mh /\ may_relay l h mh true a = Val l'.
Proof.
  exists (lk 1000 10), 120. split; [vm_compute; split; congruence|]. split; [vm_compute; reflexivity|]. split; [vm_compute; reflexivity|]. split; [vm_compute; congruence|].
  intros a [<-|[<-|[<-|[]]]]; [exists 60|exists 71|exists 66]; eexists; (split; [vm_compute; reflexivity|]); vm_compute; reflexivity.
Qed.
Print Assumptions C103_choice_refuted.

(** Who relays is one of the relays of the link, and where there are terms, the one whose turn it is. *)
Theorem C103_registered : forall l h mh b o l', may_relay l h mh b o = Val l' -> In o (r_relays l) /\ (0 < rotate_term l -> rotate l h mh b = Val (Some o, l')).
Proof.
  intros l h mh b o l' E. unfold may_relay in E. destruct (rotate l h mh b) as [[w l2]|e] eqn:R; [|discriminate E]. cbn [bind fst snd] in E. pose proof (rotate_keeps _ _ _ _ _ _ R) as (_ & _ & _ & _ & _ & _ & K). destruct w as [x|].
  - destruct (bytes_eqb x o) eqn:X; [|discriminate E]. apply bytes_eqb_eq in X. subst x. injection E as <-. split; [apply K|]. reflexivity.
  - destruct (existsb (bytes_eqb o) (r_relays l)) eqn:X; [|discriminate E]. apply member_in in X. split; [exact X|]. intros T. exfalso. unfold rotate in R. destruct (scale_term l T) as (y & S). rewrite S in R. replace (0 <? rotate_term l) with true in R by lia. cbv zeta in R. destruct b; [destruct (0 <? f_ceil (int_div (h - guess l y h mh) (r_delay l)) - 1)|];
      match type of R with bind ?q _ = _ => destruct q; [cbn [bind] in R; discriminate R|discriminate R] end.
Qed.
Print Assumptions C103_registered.
Example C103_ex_registered : (exists l', may_relay (lk 1000 10) 120 0 false (str "b") = Val l') /\ may_relay (lk 1000 10) 120 0 false (str "a") = Raise (X_BMC 1 "invalid relay") /\
  may_relay (lk 0 10) 120 0 false (str "a") = Val (lk 0 10) /\ may_relay (lk 0 10) 120 0 false (str "x") = Raise (X_BMC 1 "not registered relay").
Proof. split; [eexists|]; vm_compute; repeat split. Qed.

(** In every history a link keeps its relays, in their order, and its index points at one of them. *)
Theorem C103_history : forall s cs k l, kget k (m_links s) = Some l -> in_order l -> exists l', kget k (m_links (rrun s cs)) = Some l' /\ in_order l' /\ grown l l'.
Proof. intros s cs k l E O. exact (fine_run cs s k l E O). Qed.
Print Assumptions C103_history.
(** New links are in order, so in every history some relay of a link with relays may relay, at each height and with any messages. *)
Theorem C103_someone : forall s cs k, kget k (m_links s) = Some new_rlink -> exists l, kget k (m_links (rrun s cs)) = Some l /\ (r_relays l <> [] -> forall h mh b, exists a l', In a (r_relays l) /\ may_relay l h mh b a = Val l').
Proof.
  intros s cs k E. destruct (fine_run cs s k new_rlink E) as (l & L & ((P & _) & _)); [split; [left; split; reflexivity|]; split; [reflexivity|]; split; [reflexivity|]; split; reflexivity|]. exists l. split; [exact L|]. intros NE h mh b. destruct P as [(P & _)|P]; [contradiction|].
  destruct (rotate_total l h mh b P) as (o & l2 & R & I). unfold may_relay. rewrite R. cbn [bind fst snd]. destruct o as [a|].
  - exists a, l2. split; [exact I|]. rewrite bytes_eqb_refl. reflexivity.
  - destruct (r_relays l) as [|a r] eqn:RL; [contradiction|]. exists a, l2. split; [left; reflexivity|]. cbn [existsb]. rewrite bytes_eqb_refl. reflexivity.
Qed.
Print Assumptions C103_someone.
Local Definition s0 : rbmc := RBmc [(str "k", new_rlink)] [].
Local Definition h1 : list rcall := [RRelayer (str "p"); RRelayer (str "q"); RAdd (str "p") (str "k") (str "a"); RSet (str "k") 1000 10 3 100 50; RMsg (str "k") 105 51 false (str "a"); RAdd (str "q") (str "k") (str "b"); RMsg (str "k") 115 51 false (str "b")].
Example C103_ex_history : exists l, kget (str "k") (m_links (rrun s0 h1)) = Some l /\ r_relays l = [str "a"; str "b"] /\ r_idx l = 1 /\ r_height l = 120 /\ in_order l.
Proof. eexists. split; [vm_compute; reflexivity|]. split; [reflexivity|]. split; [reflexivity|]. split; [reflexivity|]. split; [right; vm_compute; split; congruence|]. split; [reflexivity|]. split; [reflexivity|]. split; reflexivity. Qed.

(** A link with terms and no relays yet takes no relay message, from nobody. *)
Theorem C103_no_relays_refuted : forall l h mh b o, r_relays l = [] -> 0 < rotate_term l -> exists e, may_relay l h mh b o = Raise e.
Proof.
  intros l h mh b o E T. destruct (may_relay l h mh b o) as [l'|e] eqn:M; [|exists e; reflexivity]. apply C103_registered in M as (I & _). rewrite E in I. destruct I.
Qed.
Print Assumptions C103_no_relays_refuted.
(** A relay can never be removed: the call always fails. *)
Theorem C103_remove_refuted : forall s o k a h, exists e, removeRelay s o k a h = Raise e.
Proof. intros s o k a h. unfold removeRelay. destruct (kget o (m_relayers s)); eexists; reflexivity. Qed.
Print Assumptions C103_remove_refuted.
(** So in every history a relay stays, also when its relayer is removed. *)
Theorem C103_stays_refuted : forall s cs k l a, kget k (m_links s) = Some l -> in_order l -> In a (r_relays l) -> exists l', kget k (m_links (rrun s cs)) = Some l' /\ In a (r_relays l').
Proof. intros s cs k l a E O I. destruct (fine_run cs s k l E O) as (l' & L & _ & (t & G)). exists l'. split; [exact L|]. rewrite G. apply in_or_app. left. exact I. Qed.
Print Assumptions C103_stays_refuted.
Example C103_ex_stays : exists l, kget (str "k") (m_links (rrun s0 (h1 ++ [RNoRelayer (str "p"); RNoRelayer (str "q"); RRemove (str "p") (str "k") (str "a") 120]))) = Some l /\ r_relays l = [str "a"; str "b"] /\ m_relayers (rrun s0 (h1 ++ [RNoRelayer (str "p"); RNoRelayer (str "q")])) = [].
Proof. eexists. split; [vm_compute; reflexivity|]. split; vm_compute; reflexivity. Qed.
(** Anybody who is no relayer yet makes themself one and any address a relay of a link: two calls, no permission. *)
Theorem C103_anyone_refuted : forall s k l who a, kget k (m_links s) = Some l -> kget who (m_relayers s) = None -> r_nterm l <= 0 -> ~ In a (r_relays l) ->
  exists l', kget k (m_links (rrun s [RRelayer who; RAdd who k a])) = Some l' /\ r_relays l' = r_relays l ++ [a].
Proof.
  intros s k l who a E W T NI. exists (with_relays l (r_relays l ++ [a])). split; [|reflexivity]. unfold rrun. cbn [fold_left]. unfold rstep at 2. cbn [rcall_result]. unfold addRelayer. rewrite W. unfold rstep. cbn [rcall_result]. unfold addRelay. cbn [m_relayers m_links]. rewrite kget_put_same. cbn [kget aget].
  change (kget k (@nil (bytes * bytes))) with (@None bytes). unfold m_link. cbn [m_links]. rewrite E. cbn [bind]. unfold add_relay. replace (0 <? r_nterm l) with false by lia. destruct (member a (r_relays l)) eqn:M; [apply member_in in M; contradiction|]. cbn [bind m_links]. rewrite kget_put_same. reflexivity.
Qed.
Print Assumptions C103_anyone_refuted.
Example C103_ex_anyone : exists l, kget (str "k") (m_links s0) = Some l /\ kget (str "z") (m_relayers s0) = None /\ r_nterm l <= 0 /\ ~ In (str "y") (r_relays l).
Proof. eexists. split; [vm_compute; reflexivity|]. split; [reflexivity|]. split; [cbn; lia|]. intros []. Qed.
(** A pending removal could not be taken back: the relay that is to be removed counts as registered. *)
Theorem C103_no_cancel_refuted : forall l a, 0 < r_nterm l -> In a (r_relays l) -> In a (r_nremove l) -> add_relay l a = Raise (FAIL "already registered relay").
Proof. intros l a T I _. unfold add_relay. replace (0 <? r_nterm l) with true by lia. apply member_in in I. rewrite I. reflexivity. Qed.
Print Assumptions C103_no_cancel_refuted.
(** And a pending addition could not be taken back either. *)
Theorem C103_no_withdraw_refuted : forall l a h, 0 < r_nterm l -> ~ In a (r_relays l) -> In a (r_nadd l) -> remove_relay l a h = Raise (FAIL "not registered relay").
Proof. intros l a h T I _. unfold remove_relay. replace (0 <? r_nterm l) with true by lia. destruct (member a (r_relays l)) eqn:M; [apply member_in in M; contradiction|]. reflexivity. Qed.
Print Assumptions C103_no_withdraw_refuted.
Local Definition lp : rlink := RLink 1000 1000 10 3 0 110 100 50 [str "a"; str "b"] 5 100 [str "c"] [str "b"].
Example C103_ex_pending : 0 < r_nterm lp /\ In (str "b") (r_relays lp) /\ In (str "b") (r_nremove lp) /\ ~ In (str "c") (r_relays lp) /\ In (str "c") (r_nadd lp).
Proof. split; [reflexivity|]. split; [cbn; auto|]. split; [cbn; auto|]. split; [vm_compute; intuition congruence|cbn; auto]. Qed.

(** nextRelays puts in exactly the relays it has announced. *)
Theorem C103_next : forall l h a, r_nheight l <= h -> NoDup (r_relays l) -> (In a (r_relays (next_relays l h)) <-> In a (get_next_relays l)) /\ r_nadd (next_relays l h) = [] /\ r_nremove (next_relays l h) = [].
Proof.
  intros l h a H ND. unfold next_relays. replace (r_nheight l <=? h) with true by lia. split; [|split; reflexivity]. cbn [with_next with_relays r_relays]. unfold get_next_relays. rewrite in_app_iff, filter_In.
  assert (TO : forall x w y, NoDup w -> NoDup (take_out x w) /\ (In y (take_out x w) <-> In y w /\ y <> x)).
  { intros x w y. induction w as [|z w IH]; intros N; cbn [take_out]; [split; [constructor|cbn; tauto]|]. inversion N as [|? ? N1 N2]; subst. specialize (IH N2). destruct (bytes_eqb z x) eqn:Z; [apply bytes_eqb_eq in Z; subst z; split; [exact N2|]; cbn [In]; split; [intros I; split; [right; exact I|intros ->; contradiction]|intros ([<-|I] & NE); [contradiction|exact I]]|].
    destruct IH as (I1 & I2). assert (z <> x) by (intros ->; rewrite bytes_eqb_refl in Z; discriminate Z). split; [|cbn [In]; split; [intros [<-|I]; [split; [left; reflexivity|assumption]|split; [right; apply I2, I|apply I2, I]]|intros ([<-|I] & NE); [left; reflexivity|right; apply I2; split; assumption]]].
    constructor; [|exact I1]. intros I. apply N1. clear - I. revert I. induction w as [|q w IH]; cbn [take_out]; [intros []|]. destruct (bytes_eqb q x); [intros I; right; exact I|]. intros [<-|I]; [left; reflexivity|right; apply IH, I]. }
  assert (TA : forall xs w, NoDup w -> (In a (take_all xs w) <-> In a w /\ ~ In a xs)).
  { induction xs as [|x xs IH]; intros w N; cbn [take_all]; [cbn [In]; tauto|]. destruct (TO x w a N) as (N2 & I2). rewrite (IH _ N2), I2. cbn [In]. split; [intros ((X & Y) & Z); split; [exact X|]; intros [<-|W]; [apply Y; reflexivity|contradiction]|intros (X & Y); split; [split; [exact X|intros ->; apply Y; left; reflexivity]|intros W; apply Y; right; exact W]]. }
  assert (PA : forall xs w, In a (put_all xs w) <-> In a w \/ In a xs).
  { induction xs as [|x xs IH]; intros w; cbn [put_all]; [cbn [In]; tauto|]. rewrite IH. destruct (member x w) eqn:M; [apply member_in in M; cbn [In]; split; [tauto|intros [X|[<-|X]]; [left; exact X|left; exact M|right; exact X]]|]. rewrite in_app_iff. cbn [In]. tauto. }
  rewrite PA, (TA _ _ ND), <- !in_rev. destruct (member a (r_nremove l)) eqn:M; cbn [negb].
  - apply member_in in M. split; [intros [(X & Y)|X]; [contradiction|right; exact X]|intros [(X & Y)|X]; [discriminate Y|right; exact X]].
  - assert (NM : ~ In a (r_nremove l)) by (intros X; apply member_in in X; congruence). tauto.
Qed.
Print Assumptions C103_next.
Example C103_ex_next : r_relays (next_relays lp 100) = [str "a"; str "c"] /\ r_nheight (next_relays lp 100) = 105 /\ next_relays lp 99 = lp /\ NoDup (r_relays lp) /\ get_next_relays lp = [str "a"; str "c"].
Proof. split; [reflexivity|]. split; [reflexivity|]. split; [reflexivity|]. split; [|reflexivity]. constructor; [intros [X|[]]; discriminate X|]. constructor; [intros []|constructor]. Qed.

(** A quotient is rounded to the nearest number, and to the even one of two that are equally near. *)
Theorem C103_rounding : forall n d, 0 < d ->
  2 * Z.abs (nearest n d * d - n) <= d /\ (2 * Z.abs (nearest n d * d - n) = d -> exists h, nearest n d = 2 * h).
Proof.
  intros n d D. split; [apply nearest_error; exact D|]. unfold nearest. pose proof (Z.div_mod n d ltac:(lia)) as E. pose proof (Z.mod_pos_bound n d D) as B.
  set (q := n / d) in *. set (r := n mod d) in *. clearbody q r. cbv zeta.
  destruct (2 * r <? d) eqn:E1; [apply Z.ltb_lt in E1; intros H; exfalso; nia|]. apply Z.ltb_ge in E1.
  destruct (2 * r =? d) eqn:E2.
  - intros _. destruct (Z.even q) eqn:Q; [apply Z.even_spec in Q; exact Q|].
    assert (O : Z.odd q = true) by (rewrite <- Z.negb_even, Q; reflexivity). apply Z.odd_spec in O. destruct O as [h O]. exists (h + 1). lia.
  - apply Z.eqb_neq in E2. intros H. exfalso. nia.
Qed.
Print Assumptions C103_rounding.
Example C103_ex_rounding : nearest 5 2 = 2 /\ nearest 7 2 = 4 /\ nearest 8 3 = 3.
Proof. repeat split. Qed.
