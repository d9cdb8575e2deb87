(** C110: the fund contract keeps to its limit, pays each proposal what it is owed and accounts for every coin. *)
From Coq Require Import ZArith List Bool Lia.
From Verif Require Import Base L_Base GoStr M_JMap L_JMap M_CpfTreasury S_CpfTreasury L_CpfTreasury.
Import ListNotations.
Open Scope Z_scope.
Local Notation bytes := (list Z).

(** Every coin is accounted for, in all histories with callbacks of any depth. *)
Theorem C110_ledger : forall owner b0 m0 l, 0 <= b0 ->
  let s := ctrees (cpf_installed owner b0 m0) l in
  c_balance s = balance_after b0 (c_log s) /\ 0 <= c_balance s /\
  NoDup (c_keys s) /\ (forall k, In k (c_keys s) <-> proposed k (c_log s)) /\
  (forall k, budget_of s k = sum (sent_for k) (c_log s) - sum (back_for k) (c_log s)).
Proof.
  intros owner b0 m0 l H s.
  assert (I : inv owner b0 m0 s) by (apply (ctrees_keep (inv owner b0 m0)); [intros; eapply keep_do; eassumption|apply inv_installed; exact H]).
  destruct I. repeat split; try assumption; apply i_keys.
Qed.
Print Assumptions C110_ledger.

(** All that ever happened was allowed when it happened. *)
Theorem C110_history : forall owner b0 m0 l after e before, 0 <= b0 ->
  c_log (ctrees (cpf_installed owner b0 m0) l) = after ++ e :: before -> allowed owner b0 m0 e before.
Proof.
  intros owner b0 m0 l after e before H E.
  assert (I : inv owner b0 m0 (ctrees (cpf_installed owner b0 m0) l)) by (apply (ctrees_keep (inv owner b0 m0)); [intros; eapply keep_do; eassumption|apply inv_installed; exact H]).
  eapply all_allowed_split; [apply (i_allowed _ _ _ _ I)|exact E].
Qed.
Print Assumptions C110_history.

(** What is set now is what was set last. *)
Theorem C110_settings : forall owner b0 m0 l, 0 <= b0 ->
  let s := ctrees (cpf_installed owner b0 m0) l in
  c_owner s = owner /\ c_max s = last_max m0 (c_log s) /\ c_cps s = last_cps (c_log s) /\ c_tre s = last_tre (c_log s).
Proof.
  intros owner b0 m0 l H s.
  assert (I : inv owner b0 m0 s) by (apply (ctrees_keep (inv owner b0 m0)); [intros; eapply keep_do; eassumption|apply inv_installed; exact H]).
  destruct I. auto.
Qed.
Print Assumptions C110_settings.

(** There is never more in the fund than the largest limit there ever was (or than it began with). *)
Theorem C110_limit : forall owner b0 m0 l,
  c_balance (ctrees (cpf_installed owner b0 m0) l) <= Z.max b0 (top_max m0 (c_log (ctrees (cpf_installed owner b0 m0) l))).
Proof.
  intros owner b0 m0 l.
  assert (B : bounded b0 m0 (ctrees (cpf_installed owner b0 m0) l)); [|apply B].
  apply (ctrees_keep (bounded b0 m0)); [intros; eapply keep_bounded; eassumption|]. unfold bounded. cbn [cpf_installed c_balance c_max c_log top_max]. lia.
Qed.
Print Assumptions C110_limit.

(** ** Calls that bring coins *)
Definition brings (s : cpf) (c : ccall) (v : Z) : Prop :=
  match c with
  | CFund _ v' => v' = v
  | CReturn x v' => v' = v /\ c_cps s = Some x
  | CDisqualify x v' k => v' = v /\ c_tre s = Some x /\ In k (c_keys s)
  | _ => False
  end.
Lemma burn_exact : forall s, 0 <= c_balance s ->
  (0 <= c_max s -> exists s', burn_extra s = Some s' /\ c_balance s' = Z.min (c_balance s) (c_max s) /\ c_max s' = c_max s) /\
  (c_max s < 0 -> burn_extra s = None).
Proof.
  intros s P. unfold burn_extra. split; intros M.
  - destruct (0 <? c_balance s - c_max s) eqn:E1.
    + apply Z.ltb_lt in E1. replace (c_balance s - c_max s <=? c_balance s) with true by (symmetry; apply Z.leb_le; lia).
      eexists. split; [reflexivity|]. unfold note, with_balance. cbn [c_balance c_max]. split; lia.
    + apply Z.ltb_ge in E1. exists s. split; [reflexivity|]. split; lia.
  - replace (0 <? c_balance s - c_max s) with true by (symmetry; apply Z.ltb_lt; lia).
    replace (c_balance s - c_max s <=? c_balance s) with false by (symmetry; apply Z.leb_gt; lia). reflexivity.
Qed.
(** They succeed whenever the limit is not below zero and then leave the smaller of the limit and all there is; with a limit below zero none succeeds. *)
Theorem C110_payable : forall s c v nested ok, 0 <= c_balance s -> 0 <= v -> brings s c v ->
  (0 <= c_max s -> exists s', cexec (CCalls c nested ok) s = Some s' /\ c_balance s' = Z.min (c_balance s + v) (c_max s) /\ c_max s' = c_max s) /\
  (c_max s < 0 -> cexec (CCalls c nested ok) s = None).
Proof.
  intros s c v nested ok P V B.
  assert (G : exists s0, cdo s c = burn_extra s0 /\ c_balance s0 = c_balance s + v /\ c_max s0 = c_max s /\ sends c = false).
  { assert (V0 : (v <? 0) = false) by (apply Z.ltb_ge; exact V). destruct c; cbn [brings] in B; try contradiction.
    - subst v0. cbn [cdo]. rewrite V0. eexists. split; [reflexivity|]. auto.
    - destruct B as [B1 B2]. subst v0. cbn [cdo]. rewrite V0. replace (is_addr (c_cps s) x) with true by (symmetry; apply is_addr_eq; exact B2). eexists. split; [reflexivity|]. auto.
    - destruct B as (B1 & B2 & B3). subst v0. cbn [cdo]. rewrite V0. replace (is_addr (c_tre s) x) with true by (symmetry; apply is_addr_eq; exact B2).
      replace (has_key s key) with true by (symmetry; apply has_key_in; exact B3). eexists. split; [reflexivity|]. auto. }
  destruct G as (s0 & E & G1 & G2 & G3). destruct (burn_exact s0 ltac:(lia)) as [H1 H2]. cbn [cexec]. rewrite E, G3. split; intros M.
  - destruct (H1 ltac:(lia)) as (s' & E' & E1 & E2). exists s'. rewrite E'. split; [reflexivity|]. rewrite E1, E2, G1, G2. split; reflexivity.
  - rewrite (H2 ltac:(lia)). reflexivity.
Qed.
Print Assumptions C110_payable.

(** ** Calls that send coins *)
Definition sender_key (c : ccall) : option (bytes * bytes * Z * bool) := match c with CPropose x k b => Some (x, k, b, true) | CUpdate x k b => Some (x, k, b, false) | _ => None end.
(** Money is sent exactly when the registered contract asks for it, the proposal is new (or known, for an update), the budget is not below zero, it is covered, there is a contract to take it and that takes it; then just budget and reward are sent. *)
Theorem C110_sends : forall s c x k b new ok, sender_key c = Some (x, k, b, new) ->
  let covered := exists t r, c_cps s = Some x /\ c_tre s = Some t /\ 0 <= b /\ two_percent b r /\ b + r <= c_balance s /\ (In k (c_keys s) <-> new = false) /\ ok = true in
  (covered -> exists s' r, cexec (CCalls c [] ok) s = Some s' /\ two_percent b r /\ c_balance s' = c_balance s - (b + r) /\
      budget_of s' k = (if new then 0 else budget_of s k) + (b + r)) /\
  (~ covered -> cexec (CCalls c [] ok) s = None).
Proof.
  intros s c x k b new ok K covered.
  assert (R : forall r, two_percent b r -> r = reward b) by (intros r T; pose proof (two_percent_reward b) as T2; unfold two_percent in *; lia).
  split.
  - intros (t & r & H1 & H2 & H3 & H4 & H5 & H6 & H7). rewrite (R r H4) in *. exists (match cexec (CCalls c [] ok) s with Some s' => s' | None => s end), (reward b).
    assert (B1 : (c_balance s <? b + reward b) = false) by (apply Z.ltb_ge; exact H5).
    assert (B2 : (0 <=? b + reward b) && (b + reward b <=? c_balance s) = true) by (apply andb_true_iff; split; apply Z.leb_le; [apply total_pos; exact H3|exact H5]).
    assert (B3 : is_addr (c_cps s) x = true) by (apply is_addr_eq; exact H1).
    destruct c; try discriminate K; cbn [sender_key] in K; (assert (x0 = x /\ key = k /\ budget = b) as (Q1 & Q2 & Q3) by (repeat split; congruence)); subst x0 key budget.
    + assert (new = true) by congruence. subst new.
      assert (B4 : has_key s k = false) by (apply has_key_out; intros I; apply H6 in I; discriminate).
      cbn [cexec cdo sends]. rewrite B3. cbv zeta. rewrite B1, B4. cbn [negb]. unfold send. replace (c_tre (with_budget k (b + reward b) (with_key k s))) with (c_tre s) by reflexivity. rewrite H2.
      replace (c_balance (with_budget k (b + reward b) (with_key k s))) with (c_balance s) by reflexivity. rewrite B2, H7.
      split; [reflexivity|]. split; [apply two_percent_reward|]. split; [reflexivity|].
      pose proof (budget_of_put (with_key k s) k k (b + reward b)) as P. destruct (bytes_dec k k); [|congruence]. exact P.
    + assert (new = false) by congruence. subst new.
      assert (B4 : has_key s k = true) by (apply has_key_in; apply H6; reflexivity).
      cbn [cexec cdo sends]. rewrite B3. cbv zeta. rewrite B1, B4. unfold send. replace (c_tre (with_budget k (budget_of s k + (b + reward b)) s)) with (c_tre s) by reflexivity. rewrite H2.
      replace (c_balance (with_budget k (budget_of s k + (b + reward b)) s)) with (c_balance s) by reflexivity. rewrite B2, H7.
      split; [reflexivity|]. split; [apply two_percent_reward|]. split; [reflexivity|].
      pose proof (budget_of_put s k k (budget_of s k + (b + reward b))) as P. destruct (bytes_dec k k); [|congruence]. exact P.
  - intros N. destruct (cexec (CCalls c [] ok) s) as [s'|] eqn:E; [|reflexivity]. exfalso. apply N. unfold covered.
    destruct c; try discriminate K; cbn [sender_key] in K; (assert (x0 = x /\ key = k /\ budget = b) as (Q1 & Q2 & Q3) by (repeat split; congruence)); subst x0 key budget; cbn [cexec cdo sends] in E.
    + destruct (is_addr (c_cps s) x) eqn:Ex; [|discriminate]. apply is_addr_eq in Ex. cbv zeta in E. destruct (c_balance s <? b + reward b) eqn:E1; [discriminate|]. apply Z.ltb_ge in E1.
      destruct (has_key s k) eqn:Ek; [discriminate|]. cbn [negb] in E. apply has_key_out in Ek.
      unfold send in E. replace (c_tre (with_budget k (b + reward b) (with_key k s))) with (c_tre s) in E by reflexivity. destruct (c_tre s) as [t|] eqn:Et; [|discriminate].
      destruct (0 <=? b + reward b) eqn:E2; [|discriminate]. apply Z.leb_le in E2. apply (proj1 (total_pos b)) in E2.
      exists t, (reward b). destruct ok; [|destruct (_ && _) in E; discriminate].
      assert (new = true) by congruence. subst new. pose proof (two_percent_reward b) as T. unfold two_percent in *. repeat split; auto; try lia; try (intros; contradiction); intros; discriminate.
    + destruct (is_addr (c_cps s) x) eqn:Ex; [|discriminate]. apply is_addr_eq in Ex. cbv zeta in E. destruct (c_balance s <? b + reward b) eqn:E1; [discriminate|]. apply Z.ltb_ge in E1.
      destruct (has_key s k) eqn:Ek; [|discriminate]. apply has_key_in in Ek.
      unfold send in E. replace (c_tre (with_budget k (budget_of s k + (b + reward b)) s)) with (c_tre s) in E by reflexivity. destruct (c_tre s) as [t|] eqn:Et; [|discriminate].
      destruct (0 <=? b + reward b) eqn:E2; [|discriminate]. apply Z.leb_le in E2. apply (proj1 (total_pos b)) in E2.
      exists t, (reward b). destruct ok; [|destruct (_ && _) in E; discriminate].
      assert (new = false) by congruence. subst new. pose proof (two_percent_reward b) as T. unfold two_percent in *. repeat split; auto; try lia; congruence.
Qed.
Print Assumptions C110_sends.

(** A budget given in parts earns the sponsor at most what it earns as a whole, and less than one unit less for every part. *)
Theorem C110_reward_parts : forall bs, let all := fold_right Z.add 0 bs in let parts := fold_right (fun b a => reward b + a) 0 bs in
  parts <= reward all <= parts + zlen bs.
Proof.
  intros bs. cbv zeta. pose proof (two_percent_reward (fold_right Z.add 0 bs)) as T. set (all := fold_right Z.add 0 bs) in *.
  assert (G : 100 * fold_right (fun b a => reward b + a) 0 bs <= 2 * all <= 100 * (fold_right (fun b a => reward b + a) 0 bs + zlen bs)).
  { unfold all. clear. unfold zlen. induction bs as [|b bs IH]; [cbn; lia|]. cbn [fold_right length]. pose proof (two_percent_reward b) as T. unfold two_percent in T. lia. }
  unfold two_percent in T. lia.
Qed.
Print Assumptions C110_reward_parts.

(** ** Who may call what *)
Definition may (s : cpf) (c : ccall) : Prop :=
  match c with
  | CMax x _ => x = c_owner s
  | CCps x a => x = c_owner s /\ hd 0 a = 1
  | CTre x a => x = c_owner s /\ hd 0 a = 1
  | CFund _ v => 0 <= v
  | CReturn x v => 0 <= v /\ c_cps s = Some x
  | CFallback _ _ => False
  | CDisqualify x v k => 0 <= v /\ c_tre s = Some x /\ In k (c_keys s)
  | CPropose x _ _ => c_cps s = Some x
  | CUpdate x _ _ => c_cps s = Some x
  end.
Lemma contract_hd : forall a, is_contract a = true <-> hd 0 a = 1.
Proof. intros [|x a]; cbn [is_contract hd]; [split; discriminate|]. destruct x as [|[p|p|]|p]; split; intros H; try discriminate; reflexivity. Qed.
Theorem C110_who : forall s c nested ok s', cexec (CCalls c nested ok) s = Some s' -> may s c.
Proof.
  intros s c nested ok s' E. cbn [cexec] in E. destruct (cdo s c) as [s1|] eqn:D; [|discriminate]. clear E. destruct c; cbn [cdo may] in *.
  - destruct (bytes_eqb x (c_owner s)) eqn:Ex; [|discriminate]. apply bspec. exact Ex.
  - destruct (bytes_eqb x (c_owner s)) eqn:Ex; [|discriminate]. destruct (is_contract a) eqn:Ea; [|discriminate]. split; [apply bspec; exact Ex|apply contract_hd; exact Ea].
  - destruct (bytes_eqb x (c_owner s)) eqn:Ex; [|discriminate]. destruct (is_contract a) eqn:Ea; [|discriminate]. split; [apply bspec; exact Ex|apply contract_hd; exact Ea].
  - destruct (v <? 0) eqn:V; [discriminate|]. apply Z.ltb_ge. exact V.
  - destruct (v <? 0) eqn:V; [discriminate|]. destruct (is_addr (c_cps s) x) eqn:Ex; [|discriminate]. split; [apply Z.ltb_ge; exact V|apply is_addr_eq; exact Ex].
  - discriminate.
  - destruct (v <? 0) eqn:V; [discriminate|]. destruct (is_addr (c_tre s) x) eqn:Ex; [|discriminate]. destruct (has_key s key) eqn:Ek; [|discriminate].
    split; [apply Z.ltb_ge; exact V|]. split; [apply is_addr_eq; exact Ex|apply has_key_in; exact Ek].
  - destruct (is_addr (c_cps s) x) eqn:Ex; [|discriminate]. apply is_addr_eq. exact Ex.
  - destruct (is_addr (c_cps s) x) eqn:Ex; [|discriminate]. apply is_addr_eq. exact Ex.
Qed.
Print Assumptions C110_who.
(** The owner can always set them, and nothing else changes. *)
Theorem C110_sets : forall s v a nested ok, hd 0 a = 1 ->
  (exists s', cexec (CCalls (CMax (c_owner s) v) nested ok) s = Some s' /\ c_max s' = v /\ (c_balance s', c_cps s', c_tre s', c_keys s', c_budget s') = (c_balance s, c_cps s, c_tre s, c_keys s, c_budget s)) /\
  (exists s', cexec (CCalls (CCps (c_owner s) a) nested ok) s = Some s' /\ c_cps s' = Some a /\ (c_balance s', c_max s', c_tre s', c_keys s', c_budget s') = (c_balance s, c_max s, c_tre s, c_keys s, c_budget s)) /\
  (exists s', cexec (CCalls (CTre (c_owner s) a) nested ok) s = Some s' /\ c_tre s' = Some a /\ (c_balance s', c_max s', c_cps s', c_keys s', c_budget s') = (c_balance s, c_max s, c_cps s, c_keys s, c_budget s)).
Proof.
  intros s v a nested ok A. apply contract_hd in A. cbn [cexec cdo sends]. rewrite brefl, A. cbn [andb].
  repeat split; eexists; repeat split.
Qed.
Print Assumptions C110_sets.

(** ** Reading the proposals page by page gives each once, with its budget. *)
Theorem C110_pages : forall s n m, 0 < n <= 50 -> zlen (c_keys s) <= n * Z.of_nat m ->
  concat (map (fun i => match details s (n * Z.of_nat i) (n * Z.of_nat i + n) with Some (l, _) => l | None => [] end) (seq 0 m)) =
  map (fun k => (k, budget_of s k)) (c_keys s).
Proof.
  intros s n m N M.
  assert (P : forall i, match details s (n * Z.of_nat i) (n * Z.of_nat i + n) with Some (l, _) => l | None => [] end =
              map (fun k => (k, budget_of s k)) (firstn (Z.to_nat n) (skipn (Z.to_nat n * i) (c_keys s)))).
  { intros i. unfold details. replace (50 <? n * Z.of_nat i + n - n * Z.of_nat i) with false by (symmetry; apply Z.ltb_ge; lia).
    replace (n * Z.of_nat i <? 0) with false by (symmetry; apply Z.ltb_ge; lia). cbv zeta.
    replace (Z.to_nat (n * Z.of_nat i)) with (Z.to_nat n * i)%nat by lia. f_equal.
    unfold zlen. destruct (Z.of_nat (length (c_keys s)) <? n * Z.of_nat i + n) eqn:E.
    - apply Z.ltb_lt in E. rewrite !firstn_all2; [reflexivity| |]; rewrite skipn_length; lia.
    - f_equal. lia. }
  rewrite (map_ext _ _ P). clear P.
  assert (G : forall m j, concat (map (fun i => map (fun k => (k, budget_of s k)) (firstn (Z.to_nat n) (skipn (Z.to_nat n * i) (c_keys s)))) (seq j m)) =
              map (fun k => (k, budget_of s k)) (firstn (Z.to_nat n * m) (skipn (Z.to_nat n * j) (c_keys s)))).
  { induction m0 as [|m0 IH]; intros j; [replace (Z.to_nat n * 0)%nat with 0%nat by lia; reflexivity|].
    cbn [seq map concat]. rewrite IH, <- map_app. f_equal.
    replace (Z.to_nat n * S m0)%nat with (Z.to_nat n + Z.to_nat n * m0)%nat by lia.
    replace (Z.to_nat n * S j)%nat with (Z.to_nat n * j + Z.to_nat n)%nat by lia.
    generalize (Z.to_nat n * j)%nat as a. generalize (Z.to_nat n * m0)%nat as w. generalize (Z.to_nat n) as q. clear. intros q w a.
    replace (skipn (a + q) (c_keys s)) with (skipn q (skipn a (c_keys s))).
    - generalize (skipn a (c_keys s)) as l. clear. induction q as [|q IH]; intros l; [reflexivity|].
      destruct l as [|x l]; [cbn [skipn firstn app Nat.add]; destruct w; reflexivity|]. cbn [skipn firstn app Nat.add]. f_equal. apply IH.
    - generalize (c_keys s) as l. clear. induction a as [|a IH]; intros l; [reflexivity|]. destruct l as [|x l]; [cbn [skipn Nat.add]; destruct q; reflexivity|]. apply IH. }
  rewrite G. replace (Z.to_nat n * 0)%nat with 0%nat by lia. cbn [skipn]. f_equal. apply firstn_all2. unfold zlen in M. nia.
Qed.
Print Assumptions C110_pages.

(** ** Examples and what does not hold *)
Local Definition own : bytes := [0; 1].
Local Definition cps : bytes := [1; 2].
Local Definition tre : bytes := [1; 3].
Local Definition anyone : bytes := [0; 9].
Local Definition p1 : bytes := [112; 49].
Local Definition p2 : bytes := [112; 50].
Local Definition call (c : ccall) : ctree := CCalls c [] true.
Local Definition start : list ctree := [call (CCps own cps); call (CTre own tre); call (CFund anyone 5000)].
(** a proposal whose taker sends 300 back before it returns, and a second one that is not taken *)
Local Definition hist : list ctree := start ++
  [CCalls (CPropose cps p1 1049) [call (CDisqualify tre 300 p1); call (CDisqualify anyone 5 p1)] true; CCalls (CPropose cps p2 10) [] false; call (CUpdate cps p1 100)].
Example C110_ex : let s := ctrees (cpf_installed own 0 2000) hist in
  c_balance s = 1129 /\ c_keys s = [p1] /\ budget_of s p1 = 871 /\
  c_log s = [LMore cps tre p1 100 102; LBack tre p1 300; LFirst cps tre p1 1049 1069; LBurn 3000; LIn anyone 5000; LTre own tre; LCps own cps].
Proof. vm_compute. repeat split. Qed.
Example C110_ex_sends : sender_key (CUpdate cps p1 100) = Some (cps, p1, 100, false) /\ two_percent 100 2 /\ In p1 (c_keys (ctrees (cpf_installed own 0 2000) hist)).
Proof. split; [reflexivity|]. split; [unfold two_percent; lia|]. vm_compute. left. reflexivity. Qed.
Example C110_ex_payable : brings (ctrees (cpf_installed own 0 2000) hist) (CDisqualify tre 7 p1) 7.
Proof. split; [reflexivity|]. split; [vm_compute; reflexivity|]. vm_compute. left. reflexivity. Qed.
Example C110_ex_pages : details (ctrees (cpf_installed own 0 2000) hist) 0 20 = Some ([(p1, 871)], 1).
Proof. vm_compute. reflexivity. Qed.

(** More can be sent back for a proposal than was ever sent: its budget is below zero. *)
Theorem C110_budget_below_zero_refuted : ~ (forall owner b0 m0 l k, 0 <= b0 -> 0 <= budget_of (ctrees (cpf_installed owner b0 m0) l) k).
Proof.
  intros H. specialize (H own 0 2000 (start ++ [call (CPropose cps p1 100); call (CDisqualify tre 500 p1)]) p1 ltac:(lia)). vm_compute in H. apply H. reflexivity.
Qed.
Print Assumptions C110_budget_below_zero_refuted.
(** A proposal that was disqualified can be given money again. *)
Theorem C110_disqualified_refuted : ~ (forall owner b0 m0 l after e before k, 0 <= b0 ->
  c_log (ctrees (cpf_installed owner b0 m0) l) = after ++ e :: before -> (exists x v, In (LBack x k v) before) -> sent_for k e <= 0).
Proof.
  intros H. specialize (H own 0 2000 (start ++ [call (CPropose cps p1 100); call (CDisqualify tre 102 p1); call (CUpdate cps p1 200)]) [] (LMore cps tre p1 200 204)
    [LBack tre p1 102; LFirst cps tre p1 100 102; LBurn 3000; LIn anyone 5000; LTre own tre; LCps own cps] p1 ltac:(lia)).
  assert (E : sent_for p1 (LMore cps tre p1 200 204) = 204) by (vm_compute; reflexivity). rewrite E in H.
  enough (204 <= 0) by lia. apply H; [vm_compute; reflexivity|]. exists tre, 102. left. reflexivity.
Qed.
Print Assumptions C110_disqualified_refuted.
(** When the owner has lowered the limit, anybody can have the rest burned without paying anything. *)
Theorem C110_anyone_burns : forall s x, 0 <= c_max s < c_balance s -> exists s', cexec (CCalls (CFund x 0) [] true) s = Some s' /\ c_balance s' = c_max s.
Proof.
  intros s x M. destruct (C110_payable s (CFund x 0) 0 [] true ltac:(lia) ltac:(lia) eq_refl) as [H _].
  destruct (H ltac:(lia)) as (s' & E & B & _). exists s'. split; [exact E|]. lia.
Qed.
Print Assumptions C110_anyone_burns.
Example C110_ex_burns : 0 <= 1000 < c_balance (ctrees (cpf_installed own 0 2000) hist) /\
  c_max (ctrees (cpf_installed own 0 2000) (hist ++ [call (CMax own 1000)])) = 1000 /\ c_balance (ctrees (cpf_installed own 0 2000) (hist ++ [call (CMax own 1000); call (CFund anyone 0)])) = 1000.
Proof. vm_compute. repeat split; discriminate. Qed.
