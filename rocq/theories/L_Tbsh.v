(** Lemmas about the token service. *)
From Coq Require Import ZArith List Bool Lia Permutation.
From Coq Require Import ZifyBool.
From Verif Require Import Base L_Base M_JMap L_JMap M_JBmc L_JBmc L_JSum M_Ncs S_Ncs L_Ncs M_Tbsh S_Tbsh.
Import ListNotations.
Open Scope Z_scope.

Lemma sum_snoc : forall {A} (f : A -> Z) l x, sumOf f (l ++ [x]) = sumOf f l + f x.
Proof. intros. rewrite sum_app, sum_cons. unfold sumOf at 2. cbn [fold_right]. lia. Qed.
Lemma flat_snoc : forall {A B} (f : A -> list B) l x, flat_map f (l ++ [x]) = flat_map f l ++ f x.
Proof. intros. rewrite flat_map_app. cbn [flat_map]. rewrite app_nil_r. reflexivity. Qed.

(** * Balances *)
Definition balOf (b : list ((Z * Z) * tbal)) (u n : Z) : tbal := match aget zz_eqb (n, u) b with Some x => x | None => TBal 0 0 0 end.
Definition bksum (b : list ((Z * Z) * tbal)) (n : Z) : Z := sumOf (fun x : Z * Z * tbal => if fst (fst x) =? n then l_usable (snd x) + l_locked (snd x) + l_refundable (snd x) else 0) b.
Lemma balOf_put : forall b u n x u' n', balOf (aput zz_eqb (n, u) x b) u' n' = if (u =? u') && (n =? n') then x else balOf b u' n'.
Proof.
  intros. unfold balOf. destruct ((u =? u') && (n =? n')) eqn:E.
  - assert (u' = u) by lia. assert (n' = n) by lia. subst. rewrite (aput_same zz_eqb zz_key). reflexivity.
  - rewrite (aput_other zz_eqb zz_key); [reflexivity|]. intros X. injection X as -> ->. lia.
Qed.
Lemma bksum_put : forall b u n x n', bksum (aput zz_eqb (n, u) x b) n' =
  bksum b n' + if n =? n' then l_usable x + l_locked x + l_refundable x - (l_usable (balOf b u n) + l_locked (balOf b u n) + l_refundable (balOf b u n)) else 0.
Proof.
  intros. unfold bksum. set (w := fun x : Z * Z * tbal => if fst (fst x) =? n' then l_usable (snd x) + l_locked (snd x) + l_refundable (snd x) else 0).
  change (wsum w (aput zz_eqb (n, u) x b) = wsum w b + (if n =? n' then l_usable x + l_locked x + l_refundable x - (l_usable (balOf b u n) + l_locked (balOf b u n) + l_refundable (balOf b u n)) else 0)).
  rewrite (wsum_put zz_eqb zz_key). unfold wat, balOf, w. cbn [fst snd]. destruct (aget zz_eqb (n, u) b) as [y|]; cbn [l_usable l_locked l_refundable]; destruct (n =? n'); lia.
Qed.
(** what a change of one user's balances of tokens amounts to *)
Record moved (u : Z) (du dl : Z -> Z) (b b' : list ((Z * Z) * tbal)) : Prop := Moved {
  mv_own : forall n, balOf b' u n = TBal (l_usable (balOf b u n) + du n) (l_locked (balOf b u n) + dl n) (l_refundable (balOf b u n));
  mv_other : forall u' n, u' <> u -> balOf b' u' n = balOf b u' n;
  mv_sum : forall n, bksum b' n = bksum b n + du n + dl n }.
Lemma moved_ext : forall u du dl du' dl' b b', (forall n, du n = du' n) -> (forall n, dl n = dl' n) -> moved u du dl b b' -> moved u du' dl' b b'.
Proof. intros u du dl du' dl' b b' H1 H2 [A B C]. split; intros; rewrite <- ?H1, <- ?H2; auto. Qed.
Lemma moved_refl : forall u b, moved u (fun _ => 0) (fun _ => 0) b b.
Proof. intros. split; intros; try reflexivity; try lia. destruct (balOf b u n) as [x1 x2 x3]; cbn [l_usable l_locked l_refundable]. f_equal; lia. Qed.
Lemma moved_trans : forall u du dl du' dl' b b' b2, moved u du dl b b' -> moved u du' dl' b' b2 -> moved u (fun n => du n + du' n) (fun n => dl n + dl' n) b b2.
Proof.
  intros u du dl du' dl' b b' b2 [A B C] [A' B' C']. split; intros.
  - rewrite A', A. cbn [l_usable l_locked l_refundable]. f_equal; lia.
  - rewrite B', B by assumption. reflexivity.
  - rewrite C', C. lia.
Qed.
Lemma moved_set : forall s u n us lk, moved u (fun k => if n =? k then us else 0) (fun k => if n =? k then lk else 0) (b_bal s) (b_bal (t_setBalance s u n us lk 0)).
Proof.
  intros. cbn [t_setBalance setBal b_bal]. change (t_getBalance s u n) with (balOf (b_bal s) u n). split.
  - intros k. rewrite balOf_put, Z.eqb_refl. cbn [andb]. destruct (Z.eqb_spec n k) as [->|N]; [f_equal; lia|]. destruct (balOf (b_bal s) u k) as [x1 x2 x3]; cbn [l_usable l_locked l_refundable]. f_equal; lia.
  - intros u' k N. rewrite balOf_put. replace (u =? u') with false by lia. reflexivity.
  - intros k. rewrite bksum_put. cbn [l_usable l_locked l_refundable]. destruct (n =? k); lia.
Qed.

(** * Answers *)
Lemma getFee_set : forall s n v k, t_getFee (t_setFee s n v) k = if n =? k then v else t_getFee s k.
Proof. intros. exact (getf_put (b_fees s) n v k). Qed.
Lemma tnet_cons : forall n x l, tnet n (x :: l) = (if a_name x =? n then a_value x else 0) + tnet n l.
Proof. reflexivity. Qed.
Lemma tfee_cons : forall n x l, tfee n (x :: l) = (if a_name x =? n then a_fee x else 0) + tfee n l.
Proof. reflexivity. Qed.
Lemma tnet_app : forall n a b, tnet n (a ++ b) = tnet n a + tnet n b.
Proof. intros. apply sum_app. Qed.
(** all but the balances and the fees stay *)
Definition same_rest (s s' : tb) : Prop := s' = setFees (setBal s (b_bal s')) (b_fees s').
Lemma settle_spec : forall l s owner code, let s' := t_settle s owner code l in
  moved owner (fun n => if code =? T_OK then 0 else ttotal n l) (fun n => - ttotal n l) (b_bal s) (b_bal s')
  /\ (forall n, t_getFee s' n = t_getFee s n + if code =? T_OK then tfee n l else 0) /\ same_rest s s'.
Proof.
  induction l as [|x l IH]; intros s owner code; cbn [t_settle].
  - cbv zeta. split; [|split].
    + apply (moved_ext owner (fun _ => 0) (fun _ => 0)); [intros; destruct (code =? T_OK); reflexivity|reflexivity|apply moved_refl].
    + intros n. destruct (code =? T_OK); unfold tfee, sumOf; cbn [fold_right]; lia.
    + destruct s; reflexivity.
  - set (s1 := if code =? T_OK then _ else _). specialize (IH s1 owner code). cbv zeta in IH |- *. destruct IH as (M & F & R).
    set (tot := a_value x + a_fee x) in *.
    assert (M1 : moved owner (fun n => if a_name x =? n then (if code =? T_OK then 0 else tot) else 0) (fun n => if a_name x =? n then - tot else 0) (b_bal s) (b_bal s1)).
    { unfold s1. destruct (code =? T_OK); [apply (moved_set s owner (a_name x) 0 (- tot))|apply moved_set]. }
    split; [|split].
    + eapply moved_ext; [| |eapply moved_trans; [exact M1|exact M]]; intros n; cbv beta; unfold ttotal; rewrite tnet_cons, tfee_cons; unfold tot; destruct (a_name x =? n), (code =? T_OK); lia.
    + intros n. rewrite F, tfee_cons. unfold s1. destruct (code =? T_OK); [|change (t_getFee s n + 0 = t_getFee s n + 0); reflexivity]. cbv zeta. rewrite getFee_set. change (t_getFee (t_setBalance s owner (a_name x) 0 (- tot) 0)) with (t_getFee s). destruct (Z.eqb_spec (a_name x) n) as [->|N]; lia.
    + unfold same_rest in *. rewrite R at 1. unfold s1. destruct (code =? T_OK); destruct s; reflexivity.
Qed.
Lemma feesBack_spec : forall l s, let s' := t_feesBack s l in (forall n, t_getFee s' n = t_getFee s n + tnet n l) /\ s' = setFees s (b_fees s').
Proof.
  induction l as [|x l IH]; intros s; cbn [t_feesBack]; cbv zeta; [split; [intros; unfold tnet, sumOf; cbn [fold_right]; lia|destruct s; reflexivity]|].
  specialize (IH (t_setFee s (a_name x) (t_getFee s (a_name x) + a_value x))). cbv zeta in IH. destruct IH as [F R]. split.
  - intros n. rewrite F, getFee_set, tnet_cons. destruct (Z.eqb_spec (a_name x) n) as [->|N]; lia.
  - rewrite R at 1. destruct s; reflexivity.
Qed.
(** gathering: the numbers used, the lists stored, the fees taken *)
Lemma gather_spec : forall caller fa names s acc s' l, t_gather s caller fa names acc = (s', l) ->
  exists add, l = acc ++ add /\ (forall n, t_getFee s' n + tnet n add = t_getFee s n)
  /\ (forall n, tfee n add = 0) /\ Forall (fun x => In (a_name x) names /\ a_fee x = 0) add
  /\ b_sn s' = b_sn s + Z.of_nat (length add)
  /\ (forall k m, aget Z.eqb k (b_pfees s') = Some m -> aget Z.eqb k (b_pfees s) = Some m \/ (b_sn s < k <= b_sn s' /\ m_from m = caller /\ m_to m = fa /\ exists j, m_assets m = acc ++ firstn j add))
  /\ (forall k, b_sn s' < k \/ k <= b_sn s -> aget Z.eqb k (b_pfees s') = aget Z.eqb k (b_pfees s))
  /\ (add <> [] -> aget Z.eqb (b_sn s') (b_pfees s') = Some (TMove caller fa l))
  /\ (NoDup (map fst (b_pfees s)) -> NoDup (map fst (b_pfees s')))
  /\ s' = setPfees (setFees (setSn s (b_sn s')) (b_fees s')) (b_pfees s').
Proof.
  intros caller fa names. induction names as [|n names IH]; intros s acc s' l E; cbn [t_gather] in E.
  - injection E as <- <-. exists []. rewrite app_nil_r. repeat split; intros; try reflexivity; try (unfold tnet, sumOf; cbn [fold_right]; lia); try constructor; auto; try congruence; try (cbn [length]; lia). destruct s; reflexivity.
  - cbv zeta in E. destruct (Z.eqb_spec (t_getFee s n) 0) as [Z0|NZ].
    + apply IH in E as (add & -> & F & TF & AF & SN & P1 & P2 & P3 & ND & R). exists add. repeat split; try assumption. eapply Forall_impl; [|exact AF]. intros x [A B]. split; [right; exact A|exact B].
    + apply IH in E as (add & -> & F & TF & AF & SN & P1 & P2 & P3 & ND & R).
      cbn [b_sn b_pfees t_setFee setFees setPfees t_nextSn setSn] in *.
      exists (TAsset n (t_getFee s n) 0 :: add). rewrite <- app_assoc. cbn [app]. repeat split.
      * intros k. specialize (F k). rewrite getFee_set in F. change (t_getFee (setPfees (t_nextSn s) (aput Z.eqb (b_sn s + 1) (TMove caller fa (acc ++ [TAsset n (t_getFee s n) 0])) (b_pfees s))) k) with (t_getFee s k) in F.
        rewrite tnet_cons. cbn [a_name a_value]. destruct (Z.eqb_spec n k) as [->|N]; lia.
      * intros k. rewrite tfee_cons, TF. cbn [a_name a_fee]. destruct (n =? k); reflexivity.
      * constructor; [split; [left; reflexivity|reflexivity]|]. eapply Forall_impl; [|exact AF]. intros x [A B]. split; [right; exact A|exact B].
      * rewrite SN. cbn [length]. lia.
      * intros k m G. apply P1 in G as [G|(G1 & G2 & G3 & j & G4)].
        -- destruct (Z.eq_dec k (b_sn s + 1)) as [->|NK].
           ++ rewrite (aput_same Z.eqb z_key) in G. injection G as <-. right. cbn [m_from m_to m_assets]. repeat split; try lia. exists 1%nat. reflexivity.
           ++ rewrite (aput_other Z.eqb z_key) in G by exact NK. left. exact G.
        -- right. repeat split; try assumption; try lia. exists (S j). rewrite G4, <- app_assoc. reflexivity.
      * intros k H. rewrite P2 by lia. apply (aput_other Z.eqb z_key). lia.
      * intros _. destruct add as [|y add].
        -- rewrite P2 by (cbn [length] in SN; lia). cbn [length] in SN. replace (b_sn s') with (b_sn s + 1) by lia. apply (aput_same Z.eqb z_key).
        -- rewrite P3 by discriminate. rewrite <- app_assoc. reflexivity.
      * intros H. apply ND, (aput_nodup Z.eqb z_key), H.
      * rewrite R at 1. destruct s; reflexivity.
Qed.
