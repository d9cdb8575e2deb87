From Coq Require Import ZArith List Bool Lia.
From Verif Require Import Base L_Base GoStr M_JMap L_JMap M_CpfTreasury S_CpfTreasury.
Import ListNotations.
Open Scope Z_scope.
Local Notation bytes := (list Z).

Lemma bspec : key_spec bytes_eqb.
Proof. intros a b. apply bytes_eqb_eq. Qed.
Lemma brefl : forall a, bytes_eqb a a = true.
Proof. intros a. apply bspec. reflexivity. Qed.

(** * Trees of calls *)
Section KEEP.
  Variable Q : cpf -> Prop.
  Hypothesis keep : forall s c s', Q s -> cdo s c = Some s' -> Q s'.
  Fixpoint cexec_keeps (t : ctree) : forall s s', Q s -> cexec t s = Some s' -> Q s'.
  Proof.
    destruct t as [c nested ok]. intros s s' HQ E. cbn [cexec] in E.
    destruct (cdo s c) as [s1|] eqn:E1; [|discriminate].
    pose proof (keep _ _ _ HQ E1) as Q1.
    destruct (sends c); [|congruence].
    destruct ok; [|discriminate].
    assert (E2 : s' = ((fix runs (l : list ctree) (s : cpf) : cpf := match l with [] => s | x :: r => runs r (match cexec x s with Some s' => s' | None => s end) end) nested s1)) by congruence.
    rewrite E2. clear - Q1 cexec_keeps. revert s1 Q1.
    induction nested as [|x r IH]; intros s1 Q1; [exact Q1|].
    apply IH. destruct (cexec x s1) as [s2|] eqn:E; [|exact Q1]. exact (cexec_keeps x _ _ Q1 E).
  Qed.
  Lemma ctrees_keep : forall l s, Q s -> Q (ctrees s l).
  Proof.
    unfold ctrees. induction l as [|t l IH]; intros s HQ; [exact HQ|]. cbn [fold_left]. apply IH.
    destruct (cexec t s) as [s'|] eqn:E; [|exact HQ]. exact (cexec_keeps t _ _ HQ E).
  Qed.
End KEEP.

(** * What holds always *)
Section INV.
Variables (owner : bytes) (b0 m0 : Z).
Fixpoint all_allowed (l : list centry) : Prop := match l with [] => True | e :: r => allowed owner b0 m0 e r /\ all_allowed r end.
Lemma all_allowed_split : forall l, all_allowed l -> forall after e before, l = after ++ e :: before -> allowed owner b0 m0 e before.
Proof.
  induction l as [|x l IH]; intros H after e before E; [destruct after; discriminate|].
  destruct H as [H1 H2]. destruct after as [|y after]; cbn [app] in E.
  - assert (x = e) by congruence. assert (l = before) by congruence. subst. exact H1.
  - assert (l = after ++ e :: before) by congruence. eapply IH; eassumption.
Qed.
Record inv (s : cpf) : Prop := {
  i_owner : c_owner s = owner;
  i_balance : c_balance s = balance_after b0 (c_log s);
  i_pos : 0 <= c_balance s;
  i_max : c_max s = last_max m0 (c_log s);
  i_cps : c_cps s = last_cps (c_log s);
  i_tre : c_tre s = last_tre (c_log s);
  i_keys : forall k, In k (c_keys s) <-> proposed k (c_log s);
  i_nodup : NoDup (c_keys s);
  i_budget : forall k, budget_of s k = sum (sent_for k) (c_log s) - sum (back_for k) (c_log s);
  i_allowed : all_allowed (c_log s) }.

Lemma has_key_in : forall s k, has_key s k = true <-> In k (c_keys s).
Proof.
  intros s k. unfold has_key. rewrite existsb_exists. split.
  - intros (x & I & E). apply bspec in E. subst. exact I.
  - intros I. exists k. split; [exact I|apply brefl].
Qed.
Lemma has_key_out : forall s k, has_key s k = false <-> ~ In k (c_keys s).
Proof. intros s k. rewrite <- has_key_in. destruct (has_key s k); split; congruence. Qed.
Lemma is_addr_eq : forall o x, is_addr o x = true <-> o = Some x.
Proof. intros [a|] x; cbn [is_addr]; [rewrite (bspec x a)|]; split; congruence. Qed.
Lemma proposed_cons : forall k e l, proposed k (e :: l) <-> (exists x t b v, e = LFirst x t k b v) \/ proposed k l.
Proof.
  intros k e l. unfold proposed. split.
  - intros (x & t & b & v & [I|I]); [left|right]; exists x, t, b, v; assumption.
  - intros [(x & t & b & v & I)|(x & t & b & v & I)]; exists x, t, b, v; [left|right]; assumption.
Qed.
Lemma budget_of_put : forall s k k' v, budget_of (with_budget k v s) k' = if bytes_dec k' k then v else budget_of s k'.
Proof.
  intros s k k' v. unfold budget_of, with_budget. cbn [c_budget]. destruct (bytes_dec k' k) as [E|N].
  - subst. rewrite (aput_same _ bspec). reflexivity.
  - rewrite (aput_other _ bspec) by exact N. reflexivity.
Qed.
Lemma two_percent_reward : forall b, two_percent b (reward b).
Proof. intros b. unfold two_percent, reward. pose proof (Z.div_mod (b * 2) 100 ltac:(lia)). pose proof (Z.mod_pos_bound (b * 2) 100 ltac:(lia)). lia. Qed.
Lemma total_pos : forall b, 0 <= b + reward b <-> 0 <= b.
Proof. intros b. pose proof (two_percent_reward b) as H. unfold two_percent in H. lia. Qed.

Ltac flat := unfold paid_in in *; unfold note, with_balance, with_budget, with_key, budget_of in *; cbn [c_owner c_balance c_max c_cps c_tre c_keys c_budget c_log] in *.
Ltac plain := unfold balance_after; cbn [sum fold_right came_in burned sent sent_for back_for last_max last_cps last_tre all_allowed].
Lemma not_first : forall k e l, (forall x t k' b v, e <> LFirst x t k' b v) -> proposed k (e :: l) <-> proposed k l.
Proof. intros k e l N. rewrite proposed_cons. split; [intros [(x & t & b & v & E)|P]; [exfalso; eapply N; exact E|exact P]|right; assumption]. Qed.
Lemma sum_cons : forall f e l, sum f (e :: l) = f e + sum f l.
Proof. reflexivity. Qed.

Lemma keep_in : forall s x v, inv s -> 0 <= v -> inv (note (LIn x v) (paid_in v s)).
Proof.
  intros s x v I V. destruct I. constructor; flat; cbn [last_max last_cps last_tre all_allowed allowed]; auto; try lia.
  - unfold balance_after in *. rewrite !sum_cons. cbn [came_in burned sent]. lia.
  - intros k. rewrite i_keys0, not_first by congruence. reflexivity.
Qed.
Lemma keep_burn : forall s s', inv s -> match c_log s with LIn _ _ :: _ => True | LBack _ _ _ :: _ => True | _ => False end -> burn_extra s = Some s' -> inv s'.
Proof.
  intros s s' I Hd E. unfold burn_extra in E.
  destruct (0 <? c_balance s - c_max s) eqn:E1; [|assert (s' = s) by congruence; subst; exact I].
  destruct (c_balance s - c_max s <=? c_balance s) eqn:E2; [|discriminate].
  apply Z.ltb_lt in E1. apply Z.leb_le in E2.
  assert (Es : s' = note (LBurn (c_balance s - c_max s)) (with_balance (c_balance s - (c_balance s - c_max s)) s)) by congruence.
  clear E. subst s'. destruct I. constructor; flat; cbn [last_max last_cps last_tre all_allowed allowed]; auto; try lia.
  - unfold balance_after in *. rewrite !sum_cons. cbn [came_in burned sent]. lia.
  - intros k. rewrite i_keys0, not_first by congruence. reflexivity.
  - split; [|exact i_allowed0]. repeat split; try lia. exact Hd.
Qed.
Lemma keep_send : forall s c s', inv s -> sends c = true -> cdo s c = Some s' -> inv s'.
Proof.
  intros s c s' I C E. destruct c; try discriminate C; cbn [cdo] in E.
  - destruct (is_addr (c_cps s) x) eqn:Ex; [|discriminate]. apply is_addr_eq in Ex.
    set (total := budget + reward budget) in *. cbv zeta in E. destruct (c_balance s <? total) eqn:E1; [discriminate|].
    destruct (has_key s key) eqn:Ek; [discriminate|]. cbn [negb] in E. apply has_key_out in Ek.
    unfold send in E. replace (c_tre (with_budget key total (with_key key s))) with (c_tre s) in E by reflexivity.
    destruct (c_tre s) as [t|] eqn:Et; [|discriminate].
    destruct ((0 <=? total) && (total <=? c_balance (with_budget key total (with_key key s)))) eqn:E2; [|discriminate].
    apply andb_true_iff in E2. destruct E2 as [E2 E3]. apply Z.leb_le in E2, E3.
    match type of E with Some ?w = Some _ => assert (Es : s' = w) by congruence end. clear E. subst s'.
    assert (T : two_percent budget (total - budget)) by (replace (total - budget) with (reward budget) by (unfold total; lia); apply two_percent_reward).
    assert (P : 0 <= budget) by (apply total_pos; exact E2). clearbody total.
    destruct I. constructor; flat; cbn [last_max last_cps last_tre all_allowed allowed]; auto; try lia.
    + unfold balance_after in *. rewrite !sum_cons. cbn [came_in burned sent]. lia.
    + intros k. rewrite in_app_iff, proposed_cons. cbn [In]. rewrite i_keys0. split.
      * intros [H|[H|[]]]; [right; exact H|left; subst; eauto].
      * intros [(x' & t' & b' & v' & H)|H]; [right; left; congruence|left; exact H].
    + apply nodup_snoc; assumption.
    + intros k. rewrite !sum_cons. cbn [sent_for back_for]. pose proof (budget_of_put (with_key key s) key k total) as B. unfold budget_of in B. flat.
      rewrite B. destruct (bytes_dec k key) as [En|Nn]; [|rewrite i_budget0; lia]. subst k.
      assert (Z1 : sum (sent_for key) (c_log s) - sum (back_for key) (c_log s) = 0).
      { assert (NP : ~ proposed key (c_log s)) by (rewrite <- i_keys0; exact Ek).
        clear - NP i_allowed0. induction (c_log s) as [|e l IH]; [reflexivity|]. destruct i_allowed0 as [A1 A2].
        rewrite !sum_cons. assert (NP' : ~ proposed key l) by (intros H; apply NP; rewrite proposed_cons; right; exact H).
        specialize (IH A2 NP'). enough (sent_for key e = 0 /\ back_for key e = 0) by lia.
        destruct e; cbn [sent_for back_for]; try (split; reflexivity).
        - destruct (bytes_dec key key0); [|split; reflexivity]. subst. exfalso. apply NP. rewrite proposed_cons. left. eauto.
        - destruct (bytes_dec key key0); [|split; reflexivity]. subst. exfalso. apply NP'. apply A1.
        - destruct (bytes_dec key key0); [|split; reflexivity]. subst. exfalso. apply NP'. apply A1. }
      lia.
    + split; [|exact i_allowed0]. rewrite <- i_cps0, <- i_balance0, <- i_tre0, Et. repeat split; auto; try (apply T); try lia. rewrite <- i_keys0. exact Ek.
  - destruct (is_addr (c_cps s) x) eqn:Ex; [|discriminate]. apply is_addr_eq in Ex.
    set (total := budget + reward budget) in *. cbv zeta in E. destruct (c_balance s <? total) eqn:E1; [discriminate|].
    destruct (has_key s key) eqn:Ek; [|discriminate]. apply has_key_in in Ek.
    unfold send in E. replace (c_tre (with_budget key (budget_of s key + total) s)) with (c_tre s) in E by reflexivity.
    destruct (c_tre s) as [t|] eqn:Et; [|discriminate].
    destruct ((0 <=? total) && (total <=? c_balance (with_budget key (budget_of s key + total) s))) eqn:E2; [|discriminate].
    apply andb_true_iff in E2. destruct E2 as [E2 E3]. apply Z.leb_le in E2, E3.
    match type of E with Some ?w = Some _ => assert (Es : s' = w) by congruence end. clear E. subst s'.
    assert (T : two_percent budget (total - budget)) by (replace (total - budget) with (reward budget) by (unfold total; lia); apply two_percent_reward).
    assert (P : 0 <= budget) by (apply total_pos; exact E2). clearbody total.
    pose proof (budget_of_put s key) as B.
    destruct I. constructor; flat; cbn [last_max last_cps last_tre all_allowed allowed]; auto; try lia.
    + unfold balance_after in *. rewrite !sum_cons. cbn [came_in burned sent]. lia.
    + intros k. rewrite i_keys0, not_first by congruence. reflexivity.
    + intros k. rewrite !sum_cons. cbn [sent_for back_for]. rewrite B. rewrite !i_budget0. destruct (bytes_dec k key) as [En|Nn]; [subst k|]; lia.
    + split; [|exact i_allowed0]. rewrite <- i_cps0, <- i_balance0, <- i_tre0, Et. repeat split; auto; try (apply T); try lia. rewrite <- i_keys0. exact Ek.
Qed.
Lemma keep_do : forall s c s', inv s -> cdo s c = Some s' -> inv s'.
Proof.
  intros s c s' I E. destruct (sends c) eqn:C; [eapply keep_send; eassumption|]. destruct c; try discriminate C; cbn [cdo] in E.
  - destruct (bytes_eqb x (c_owner s)) eqn:Ex; [|discriminate]. apply bspec in Ex.
    match type of E with Some ?w = Some _ => assert (Es : s' = w) by congruence end. clear E. subst s'.
    destruct I. constructor; flat; cbn [last_max last_cps last_tre all_allowed allowed]; auto; try lia.
    + intros k. rewrite i_keys0, not_first by congruence. reflexivity.
    + split; [congruence|exact i_allowed0].
  - destruct (bytes_eqb x (c_owner s)) eqn:Ex; [|discriminate]. apply bspec in Ex. destruct (is_contract a); [|discriminate]. cbn [andb] in E.
    match type of E with Some ?w = Some _ => assert (Es : s' = w) by congruence end. clear E. subst s'.
    destruct I. constructor; flat; cbn [last_max last_cps last_tre all_allowed allowed]; auto; try lia.
    + intros k. rewrite i_keys0, not_first by congruence. reflexivity.
    + split; [congruence|exact i_allowed0].
  - destruct (bytes_eqb x (c_owner s)) eqn:Ex; [|discriminate]. apply bspec in Ex. destruct (is_contract a); [|discriminate]. cbn [andb] in E.
    match type of E with Some ?w = Some _ => assert (Es : s' = w) by congruence end. clear E. subst s'.
    destruct I. constructor; flat; cbn [last_max last_cps last_tre all_allowed allowed]; auto; try lia.
    + intros k. rewrite i_keys0, not_first by congruence. reflexivity.
    + split; [congruence|exact i_allowed0].
  - destruct (v <? 0) eqn:V; [discriminate|]. apply Z.ltb_ge in V. eapply keep_burn; [apply keep_in; eassumption| |exact E]. exact Logic.I.
  - destruct (v <? 0) eqn:V; [discriminate|]. apply Z.ltb_ge in V. destruct (is_addr (c_cps s) x); [|discriminate].
    eapply keep_burn; [apply keep_in; eassumption| |exact E]. exact Logic.I.
  - discriminate.
  - destruct (v <? 0) eqn:V; [discriminate|]. apply Z.ltb_ge in V. destruct (is_addr (c_tre s) x) eqn:Ex; [|discriminate]. apply is_addr_eq in Ex.
    destruct (has_key s key) eqn:Ek; [|discriminate]. apply has_key_in in Ek.
    eapply keep_burn; [| |exact E]; [|exact Logic.I]. clear E.
    pose proof (fun k' => budget_of_put (paid_in v s) key k' (budget_of s key - v)) as B.
    destruct I. constructor; try (flat; cbn [last_max last_cps last_tre all_allowed allowed]; auto; lia).
    + flat. unfold balance_after in *. rewrite !sum_cons. cbn [came_in burned sent]. lia.
    + flat. intros k. rewrite i_keys0, not_first by congruence. reflexivity.
    + intros k. unfold budget_of in *. flat. rewrite !sum_cons. cbn [sent_for back_for]. rewrite B. rewrite !i_budget0. destruct (bytes_dec k key) as [En|Nn]; [subst k|]; lia.
    + flat. cbn [all_allowed allowed]. split; [|exact i_allowed0]. rewrite <- i_tre0. repeat split; auto. rewrite <- i_keys0. exact Ek.
Qed.
Lemma inv_installed : 0 <= b0 -> inv (cpf_installed owner b0 m0).
Proof.
  intros H. constructor; cbn; auto; try lia.
  - unfold balance_after. cbn. lia.
  - intros k. split; [intros []|]. intros (x & t & b & v & I). exact I.
  - constructor.
Qed.
(** * The limit *)
Lemma burn_limit : forall s s', burn_extra s = Some s' -> c_balance s' = Z.min (c_balance s) (c_max s) /\ c_max s' = c_max s /\ top_max m0 (c_log s') = top_max m0 (c_log s).
Proof.
  intros s s' E. unfold burn_extra in E.
  destruct (0 <? c_balance s - c_max s) eqn:E1.
  - destruct (c_balance s - c_max s <=? c_balance s) eqn:E2; [|discriminate]. apply Z.ltb_lt in E1.
    match type of E with Some ?w = Some _ => assert (Es : s' = w) by congruence end. subst s'. flat. cbn [top_max]. repeat split; lia.
  - apply Z.ltb_ge in E1. assert (s' = s) by congruence. subst. repeat split; lia.
Qed.
Definition bounded (s : cpf) : Prop := c_balance s <= Z.max b0 (top_max m0 (c_log s)) /\ c_max s <= top_max m0 (c_log s).
Lemma keep_bounded : forall s c s', bounded s -> cdo s c = Some s' -> bounded s'.
Proof.
  intros s c s' [H1 H2] E. unfold bounded. destruct c; cbn [cdo] in E.
  - destruct (bytes_eqb x (c_owner s)); [|discriminate]. match type of E with Some ?w = Some _ => assert (Es : s' = w) by congruence end. subst s'. flat. cbn [top_max]. lia.
  - destruct (bytes_eqb x (c_owner s) && is_contract a); [|discriminate]. match type of E with Some ?w = Some _ => assert (Es : s' = w) by congruence end. subst s'. flat. cbn [top_max]. lia.
  - destruct (bytes_eqb x (c_owner s) && is_contract a); [|discriminate]. match type of E with Some ?w = Some _ => assert (Es : s' = w) by congruence end. subst s'. flat. cbn [top_max]. lia.
  - destruct (v <? 0); [discriminate|]. apply burn_limit in E. flat. cbn [top_max] in E. destruct E as (E1 & E2 & E3). lia.
  - destruct (v <? 0); [discriminate|]. destruct (is_addr (c_cps s) x); [|discriminate]. apply burn_limit in E. flat. cbn [top_max] in E. destruct E as (E1 & E2 & E3). lia.
  - discriminate.
  - destruct (v <? 0); [discriminate|]. destruct (is_addr (c_tre s) x); [|discriminate]. destruct (has_key s key); [|discriminate].
    apply burn_limit in E. flat. cbn [top_max] in E. destruct E as (E1 & E2 & E3). lia.
  - destruct (is_addr (c_cps s) x); [|discriminate]. cbv zeta in E. destruct (c_balance s <? budget + reward budget); [discriminate|]. destruct (has_key s key); [discriminate|]. cbn [negb] in E.
    unfold send in E. flat. destruct (c_tre s); [|discriminate]. destruct ((0 <=? budget + reward budget) && (budget + reward budget <=? c_balance s)) eqn:E2; [|discriminate].
    apply andb_true_iff in E2. destruct E2 as [E2 E3]. apply Z.leb_le in E2, E3.
    match type of E with Some ?w = Some _ => assert (Es : s' = w) by congruence end. subst s'. flat. cbn [top_max]. lia.
  - destruct (is_addr (c_cps s) x); [|discriminate]. cbv zeta in E. destruct (c_balance s <? budget + reward budget); [discriminate|]. destruct (has_key s key); [|discriminate].
    unfold send in E. flat. destruct (c_tre s); [|discriminate]. destruct ((0 <=? budget + reward budget) && (budget + reward budget <=? c_balance s)) eqn:E2; [|discriminate].
    apply andb_true_iff in E2. destruct E2 as [E2 E3]. apply Z.leb_le in E2, E3.
    match type of E with Some ?w = Some _ => assert (Es : s' = w) by congruence end. subst s'. flat. cbn [top_max]. lia.
Qed.
End INV.
