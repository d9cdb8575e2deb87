(** Lemmas for the Solidity BTP block verifier: which proofs the levels accept. *)
From Coq Require Import String Ascii ZArith List Bool Lia.
From Coq Require Import ZifyBool.
From Verif Require Import Base L_Base M_Mbt S_Mbt L_Mbt L_Mbt2 L_Mbt3 M_SolRlp M_Bridge M_SolBmv S_SolBmv L_SolBmv.
Import ListNotations.
Open Scope Z_scope.

Lemma level_loop_spec : forall f n l, 0 <= n < 2 ^ Z.of_nat f -> level_loop f n l = if n =? 0 then l else Z.log2 n + l + 1.
Proof.
  induction f as [|f IH]; intros n l Hn.
  - cbn [level_loop]. change (2 ^ Z.of_nat 0) with 1 in Hn. replace (n =? 0) with true by lia. reflexivity.
  - cbn [level_loop]. destruct (0 <? n) eqn:E; [|replace (n =? 0) with true by lia; reflexivity]. replace (n =? 0) with false by lia.
    assert (Hs : Z.shiftr n 1 = n / 2) by (rewrite Z.shiftr_div_pow2 by lia; reflexivity).
    rewrite IH; rewrite Hs.
    + destruct (n / 2 =? 0) eqn:E2.
      * assert (n = 1) as -> by (Z.to_euclidean_division_equations; lia). reflexivity.
      * assert (L : Z.log2 n = Z.log2 (n / 2) + 1).
        { apply Z.log2_unique; [pose proof (Z.log2_nonneg (n / 2)); lia|]. pose proof (Z.log2_spec (n / 2) ltac:(Z.to_euclidean_division_equations; lia)) as [A B].
          pose proof (Z.log2_nonneg (n / 2)). rewrite <- Z.add_1_r in B |- *. rewrite !Z.pow_add_r in * by lia. change (2 ^ 1) with 2 in *. Z.to_euclidean_division_equations; lia. }
        lia.
    + rewrite Nat2Z.inj_succ, Z.pow_succ_r in Hn by lia. Z.to_euclidean_division_equations; lia.
Qed.
Lemma levelOf_ntl : forall n, 1 <= n < 2 ^ 62 -> levelOf n = NumberToLevel n.
Proof.
  intros n Hn. assert (A : levelOf n = if n =? 1 then 1 else Z.log2 (n - 1) + 2).
  { unfold levelOf. rewrite Z.mod_small by (pose proof (Z.pow_lt_mono_r 2 62 256); lia). rewrite level_loop_spec.
    - destruct (n =? 1) eqn:E; [replace (n - 1 =? 0) with true by lia; reflexivity|replace (n - 1 =? 0) with false by lia; lia].
    - pose proof (Z.pow_lt_mono_r 2 62 256). change (Z.of_nat 256) with 256. lia. }
  destruct (ntl_spec n Hn) as [B C]. assert (levelOf n - 1 = NumberToLevel n - 1); [|lia].
  rewrite A. destruct (n =? 1) eqn:E.
  - assert (n = 1) as -> by lia. reflexivity.
  - apply (pow_between _ _ n); try lia; [pose proof (Z.log2_nonneg (n - 1)); lia|].
    pose proof (Z.log2_spec (n - 1) ltac:(lia)) as [D F]. rewrite <- Z.add_1_r in F. replace (Z.log2 (n - 1) + 2 - 1) with (Z.log2 (n - 1) + 1) by lia.
    pose proof (Z.log2_nonneg (n - 1)). rewrite Z.pow_add_r in * by lia. change (2 ^ 1) with 2 in *. lia.
Qed.
Lemma maxLevel_spec : forall f n l, 0 <= n < 2 ^ Z.of_nat f -> maxLevel f n l = if n =? 0 then l else Z.log2 n + l + 1.
Proof.
  intros f n l Hn. rewrite <- level_loop_spec with (f := f) by assumption. revert n l Hn. induction f as [|f IH]; intros n l Hn; [reflexivity|]. cbn [maxLevel level_loop].
  destruct (n =? 0) eqn:E; [replace (0 <? n) with false by lia; reflexivity|]. replace (0 <? n) with true by lia. apply IH.
  rewrite Z.shiftr_div_pow2 by lia. change (2 ^ 1) with 2. rewrite Nat2Z.inj_succ, Z.pow_succ_r in Hn by lia. Z.to_euclidean_division_equations; lia.
Qed.

Section Tree.
Variable H : list Z -> list Z.

(** ** genuine proofs are accepted *)
Definition snode_of (c : ctree) : snode := SNode (clevel c) (cnum c) (chash H c).
Fixpoint frontier (i : Z) (c : ctree) : list ctree :=
  match c with
  | CO m h => [c]
  | CB l r => if clevel c <=? i + 1 then [c] else frontier i l ++ frontier i r
  end.
Lemma frontier_small : forall i c, clevel c <= i + 1 -> frontier i c = [c].
Proof. intros i [m h|l r] L; cbn [frontier]; [reflexivity|]. replace (clevel (CB l r) <=? i + 1) with true by lia. reflexivity. Qed.
Lemma frontier_big : forall i l r, i + 1 < clevel (CB l r) -> frontier i (CB l r) = frontier i l ++ frontier i r.
Proof. intros i l r L; cbn [frontier]. replace (clevel (CB l r) <=? i + 1) with false by lia. reflexivity. Qed.

Lemma concat_ok : forall l r, canon (CB l r) -> cnum (CB l r) < 2 ^ 62 -> s_concat H (snode_of l) (snode_of r) = Some (snode_of (CB l r)).
Proof.
  intros l r C B. destruct (clevel_left l r C B) as (E & L & _ & _). pose proof C as (C1 & C2 & k & Hk & Hl & Hr). cbn [cnum clevel] in *. pose proof (cnum_pos l C1). pose proof (cnum_pos r C2).
  unfold s_concat, snode_of, csub, cadd, sshl1. cbn [sn_level sn_count sn_hash].
  replace (clevel l <? 1) with false by lia. cbn [sbind]. replace (clevel l - 1 <? 256) with true by lia. replace (cnum l =? 2 ^ (clevel l - 1)) with true by lia. cbn [require sbind].
  replace (cnum r <=? cnum l) with true by lia. cbn [require sbind]. pose proof (Z.pow_lt_mono_r 2 62 256 ltac:(lia) ltac:(lia) ltac:(lia)).
  replace (clevel l + 1 <? 2 ^ 256) with true by (pose proof (Z.pow_lt_mono_r 2 6 62 ltac:(lia) ltac:(lia) ltac:(lia)); lia). cbn [sbind]. replace (cnum l + cnum r <? 2 ^ 256) with true by lia. reflexivity.
Qed.

Lemma passl_keep : forall i x r r', i + 1 < sn_level x -> passl H i r = Some r' -> passl H i (x :: r) = Some (x :: r').
Proof.
  intros i x [|y r] r' L E; [rewrite passl_nil in E; injection E as <-; reflexivity|]. rewrite passl_two. replace (sn_level x <=? i + 1) with false by lia. rewrite E. reflexivity.
Qed.

Lemma passl_perfect : forall c i k rest rest', canon c -> cnum c < 2 ^ 62 -> 0 <= k -> cnum c = 2 ^ k -> 0 <= i -> i + 1 < clevel c -> passl H i rest = Some rest' ->
  passl H i (map snode_of (frontier i c) ++ rest) = Some (map snode_of (frontier (i + 1) c) ++ rest').
Proof.
  induction c as [m h|l IHl r IHr]; intros i k rest rest' C B K0 K I L R.
  - cbn [frontier map app]. apply passl_keep; [exact L|exact R].
  - destruct (clevel_left l r C B) as (E & L1 & L2 & _). pose proof C as (C1 & C2 & k1 & Hk & Hl & Hr). cbn [cnum] in K, B. pose proof (cnum_pos l C1). pose proof (cnum_pos r C2).
    (* both halves are perfect and of one size *)
    assert (Hh : cnum l = 2 ^ (k - 1) /\ cnum r = 2 ^ (k - 1) /\ 0 <= k - 1).
    { assert (k1 = k - 1).
      { destruct (Z.lt_total k1 (k - 1)) as [A|[A|A]]; [|assumption|]; exfalso.
        - assert (2 ^ (k1 + 1) < 2 ^ k) by (apply Z.pow_lt_mono_r; lia). rewrite Z.pow_add_r in * by lia. change (2 ^ 1) with 2 in *. lia.
        - assert (2 ^ k <= 2 ^ k1) by (apply Z.pow_le_mono_r; lia). lia. }
      subst k1. assert (2 ^ k = 2 * 2 ^ (k - 1)) by (rewrite <- Z.pow_succ_r by lia; f_equal; lia). lia. }
    destruct Hh as (Hl' & Hr' & Hk').
    assert (El : clevel l = k /\ clevel r = k).
    { destruct (clevel_spec l C1 ltac:(lia)) as [A1 A2]. destruct (clevel_spec r C2 ltac:(lia)) as [B1 B2].
      assert (clevel l - 1 = k - 1) by (apply (pow_between _ _ (cnum l)); lia). assert (clevel r - 1 = k - 1) by (apply (pow_between _ _ (cnum r)); lia). lia. }
    destruct El as [El Er]. cbn [clevel] in L, L1. rewrite frontier_big by (cbn [clevel]; lia). rewrite map_app, <- app_assoc.
    destruct (Z.eq_dec k (i + 1)) as [->|Hne].
    + rewrite !frontier_small by lia. rewrite (frontier_small (i + 1) (CB l r)) by (cbn [clevel]; lia). cbn [map app]. rewrite passl_two. cbn [snode_of sn_level]. replace (clevel l <=? i + 1) with true by lia.
      change (SNode (clevel l) (cnum l) (chash H l)) with (snode_of l). rewrite concat_ok by assumption. cbn [sbind]. rewrite R. reflexivity.
    + rewrite (frontier_big (i + 1)) by (cbn [clevel]; lia). rewrite map_app, <- app_assoc. apply (IHl i (k - 1)); try assumption; try lia. apply (IHr i (k - 1)); try assumption; lia.
Qed.

Lemma passl_canon : forall c i, canon c -> cnum c < 2 ^ 62 -> 0 <= i -> passl H i (map snode_of (frontier i c)) = Some (map snode_of (frontier (i + 1) c)).
Proof.
  induction c as [m h|l IHl r IHr]; intros i C B I; [reflexivity|].
  destruct (Z_le_gt_dec (clevel (CB l r)) (i + 1)) as [L|L]; [rewrite !frontier_small by lia; reflexivity|].
  destruct (clevel_left l r C B) as (E & L1 & L2 & _). pose proof C as (C1 & C2 & k1 & Hk & Hl & Hr). cbn [cnum] in B. pose proof (cnum_pos l C1). pose proof (cnum_pos r C2).
  rewrite frontier_big by lia. rewrite map_app. cbn [clevel] in L, L1. destruct (Z.eq_dec (clevel l) (i + 1)) as [El|Hne].
  - rewrite !frontier_small by (cbn [clevel]; lia). cbn [map app]. rewrite passl_two. cbn [snode_of sn_level]. replace (clevel l <=? i + 1) with true by lia.
    change (SNode (clevel l) (cnum l) (chash H l)) with (snode_of l). change (SNode (clevel r) (cnum r) (chash H r)) with (snode_of r). rewrite concat_ok by assumption. cbn [sbind]. rewrite passl_nil. reflexivity.
  - rewrite (frontier_big (i + 1)) by (cbn [clevel]; lia). rewrite map_app. apply (passl_perfect l i (clevel l - 1)); try assumption; try lia. apply IHr; try assumption; lia.
Qed.

Lemma passes_canon : forall n c i, canon c -> cnum c < 2 ^ 62 -> 0 <= i -> passes H n i (map snode_of (frontier i c)) = Some (map snode_of (frontier (i + Z.of_nat n) c)).
Proof.
  induction n as [|n IH]; intros c i C B I; cbn [passes]; [rewrite Z.add_0_r; reflexivity|].
  rewrite passl_canon by assumption. cbn [sbind]. rewrite IH by (assumption || lia). do 3 f_equal. lia.
Qed.

Definition item_node (x : Z * list Z) : snode := SNode (levelOf (fst x)) (fst x) (snd x).
Lemma frontier_0 : forall c, canon c -> cnum c < 2 ^ 62 -> map snode_of (frontier 0 c) = map item_node (items c).
Proof.
  induction c as [m h|l IHl r IHr]; intros C B.
  - cbn [canon cnum] in *. cbn [frontier map items]. unfold snode_of, item_node. cbn [clevel cnum chash fst snd]. rewrite levelOf_ntl by lia. reflexivity.
  - destruct (clevel_left l r C B) as (_ & L1 & _). rewrite frontier_big by lia. pose proof C as (C1 & C2 & _). cbn [cnum] in B. pose proof (cnum_pos l C1). pose proof (cnum_pos r C2).
    cbn [items]. rewrite !map_app, IHl, IHr by (assumption || lia). reflexivity.
Qed.

Lemma leafsum_items : forall l, leafsum (map item_node l) = isum l.
Proof. unfold leafsum, isum. induction l as [|x l IH]; cbn [map fold_right]; [reflexivity|]. rewrite IH. reflexivity. Qed.

Lemma calculate_canon : forall c p, canon c -> cnum c < 2 ^ 62 -> nodes_of H p = map item_node (items c) -> s_calculate H p = Some (chash H c, cnum c).
Proof.
  intros c p C B E. pose proof (cnum_pos c C). rewrite calculate_spec.
  2:{ rewrite E. apply Forall_map. eapply Forall_impl; [|apply items_pos; exact C]. intros x Hx. cbn beta in Hx. cbn [item_node sn_count]. lia. }
  rewrite E, leafsum_items, isum_items. pose proof (Z.pow_lt_mono_r 2 62 256 ltac:(lia) ltac:(lia) ltac:(lia)). replace (cnum c <? 2 ^ 256) with true by lia.
  rewrite <- frontier_0 by assumption. rewrite passes_canon by (assumption || lia). cbn [sbind]. rewrite maxLevel_spec by (change (Z.of_nat 256) with 256; lia). replace (cnum c =? 0) with false by lia.
  pose proof (Z.log2_nonneg (cnum c)). rewrite Z2Nat.id by lia. rewrite frontier_small; [reflexivity|].
  destruct (clevel_spec c C B) as [A1 A2]. pose proof (Z.log2_spec (cnum c) ltac:(lia)) as [B1 B2].
  destruct (Z_le_gt_dec (clevel c) (0 + (Z.log2 (cnum c) + 1 + 1) + 1)) as [A|A]; [assumption|exfalso].
  assert (2 ^ (Z.log2 (cnum c) + 2) <= 2 ^ (clevel c - 1)) by (apply Z.pow_le_mono_r; lia). rewrite Z.pow_succ_r in B2 by lia. rewrite Z.pow_add_r in * by lia. change (2 ^ 2) with 4 in *. lia.
Qed.

(** ** accepted proofs are trees, possibly with empty nodes *)
Fixpoint zlevel (c : ctree) : Z := match c with CO m _ => levelOf m | CB l r => zlevel l + 1 end.
Fixpoint canonz (c : ctree) : Prop :=
  match c with
  | CO m h => 0 <= m
  | CB l r => canonz l /\ canonz r /\ exists k, 0 <= k /\ cnum l = 2 ^ k /\ cnum r <= 2 ^ k
  end.
Definition znode (c : ctree) : snode := SNode (zlevel c) (cnum c) (chash H c).
Lemma cnum_nonneg : forall c, canonz c -> 0 <= cnum c.
Proof. induction c as [m h|l IHl r IHr]; cbn [canonz cnum]; intros C; [assumption|]. destruct C as (C1 & C2 & _). specialize (IHl C1). specialize (IHr C2). lia. Qed.

Lemma concat_inv : forall i l r x, canonz l -> canonz r -> i + 1 <= 256 -> zlevel l <= i + 1 -> s_concat H (znode l) (znode r) = Some x -> x = znode (CB l r) /\ canonz (CB l r).
Proof.
  intros i l r x C1 C2 I L E. unfold s_concat, znode in E. cbn [sn_level sn_count sn_hash] in E. sb E lv E1. sreq E E2. sreq E E3. sb E lv' E4. sb E c E5. injection E as <-.
  unfold csub in E1. destruct (zlevel l <? 1) eqn:F1; [discriminate|]. injection E1 as <-. unfold cadd in E4, E5. destruct (zlevel l + 1 <? 2 ^ 256); [|discriminate]. injection E4 as <-. destruct (cnum l + cnum r <? 2 ^ 256); [|discriminate]. injection E5 as <-.
  split; [reflexivity|]. cbn [canonz]. split; [assumption|]. split; [assumption|]. exists (zlevel l - 1). unfold sshl1 in E2. replace (zlevel l - 1 <? 256) with true in E2 by lia. lia.
Qed.

Definition forest (its : list (Z * list Z)) (cs : list ctree) : Prop := Forall canonz cs /\ concat (map items cs) = its.
Lemma passl_forest : forall n cs i l', (length cs <= n)%nat -> Forall canonz cs -> i + 1 <= 256 -> passl H i (map znode cs) = Some l' ->
  exists cs', l' = map znode cs' /\ Forall canonz cs' /\ concat (map items cs') = concat (map items cs).
Proof.
  induction n as [|n IH]; intros cs i l' N F I E.
  - destruct cs; [|cbn [length] in N; lia]. injection E as <-. exists []. auto.
  - destruct cs as [|x [|y cs]].
    + injection E as <-. exists []. auto.
    + injection E as <-. exists [x]. auto.
    + cbn [map length] in *. rewrite passl_two in E. inversion F as [|? ? F1 F']; subst. destruct (sn_level (znode x) <=? i + 1) eqn:L.
      * inversion F' as [|? ? F2 F3]; subst. sb E c E1. sb E r' E2. injection E as <-. cbn [znode sn_level] in L.
        apply (concat_inv i) in E1 as [-> C]; [|assumption|assumption|assumption|lia]. apply IH in E2 as (cs' & -> & G1 & G2); [|lia|assumption|assumption].
        exists (CB x y :: cs'). split; [reflexivity|]. split; [constructor; assumption|]. cbn [map concat items]. rewrite G2, app_assoc. reflexivity.
      * sb E r' E2. injection E as <-. change (znode y :: map znode cs) with (map znode (y :: cs)) in E2. apply IH in E2 as (cs' & -> & G1 & G2); [|cbn [length]; lia|assumption|assumption].
        exists (x :: cs'). split; [reflexivity|]. split; [constructor; assumption|]. cbn [map concat]. rewrite G2. reflexivity.
Qed.
Lemma passes_forest : forall n i cs l', Forall canonz cs -> i + Z.of_nat n <= 256 -> passes H n i (map znode cs) = Some l' ->
  exists cs', l' = map znode cs' /\ Forall canonz cs' /\ concat (map items cs') = concat (map items cs).
Proof.
  induction n as [|n IH]; intros i cs l' F I E; cbn [passes] in E.
  - injection E as <-. exists cs. auto.
  - sb E l1 E1. apply (passl_forest (length cs)) in E1 as (cs1 & -> & G1 & G2); [|lia|assumption|lia]. apply IH in E as (cs2 & -> & G3 & G4); [|assumption|lia]. exists cs2. rewrite G4. auto.
Qed.

Lemma calculate_inv : forall its p root n, Forall (fun x => 0 <= fst x) its -> nodes_of H p = map item_node its -> s_calculate H p = Some (root, n) -> n < 2 ^ 62 ->
  exists c, canonz c /\ items c = its /\ chash H c = root /\ cnum c = n.
Proof.
  intros its p root n F E S B. rewrite calculate_spec in S.
  2:{ rewrite E. apply Forall_map. eapply Forall_impl; [|exact F]. intros x Hx. exact Hx. }
  rewrite E, leafsum_items in S. destruct (isum its <? 2 ^ 256) eqn:S1; [|discriminate]. sb S l S2. destruct l as [|x [|? ?]]; try discriminate. injection S as <- <-.
  assert (P : 0 <= isum its) by (clear - F; unfold isum; induction F; cbn [fold_right]; lia).
  replace (map item_node its) with (map znode (map (fun x => CO (fst x) (snd x)) its)) in S2 by (rewrite map_map; reflexivity).
  apply passes_forest in S2.
  - destruct S2 as ([|c [|? ?]] & E1 & G1 & G2); try discriminate. cbn [map] in E1. injection E1 as ->. inversion G1; subst. cbn [map concat] in G2. rewrite app_nil_r in G2.
    assert (I : items c = its). { rewrite G2. clear. induction its as [|[a b] its IH]; [reflexivity|]. cbn [map concat items fst snd app] in *. rewrite IH. reflexivity. }
    exists c. repeat split; auto. rewrite <- I, isum_items. reflexivity.
  - apply Forall_map. exact F.
  - rewrite maxLevel_spec by (change (Z.of_nat 256) with 256; lia). destruct (isum its =? 0) eqn:Z0; [cbn; lia|].
    assert (Z.log2 (isum its) < 62) by (apply Z.log2_lt_pow2; lia). pose proof (Z.log2_nonneg (isum its)). rewrite Z2Nat.id by lia. lia.
Qed.

(** ** soundness *)
Hypothesis D : digest_size H 32.

Definition bad (cs : list (list Z)) : Prop := collision H \/ exists m, In m cs /\ nodelike H m.
Lemma bad_l : forall a b, bad a -> bad (a ++ b).
Proof. intros a b [C|(m & I & N)]; [left; assumption|right; exists m; split; [apply in_or_app; auto|assumption]]. Qed.
Lemma bad_r : forall a b, bad b -> bad (a ++ b).
Proof. intros a b [C|(m & I & N)]; [left; assumption|right; exists m; split; [apply in_or_app; auto|assumption]]. Qed.

Definition sized (c : ctree) : Prop := Forall (fun x => zlen (snd x) = 32) (items c).
Lemma sized_hash : forall c, sized c -> zlen (chash H c) = 32.
Proof. intros [m h|l r] S; cbn [chash]; [|apply D]. inversion S; subst. assumption. Qed.
Lemma sized_cb : forall l r, sized (CB l r) -> sized l /\ sized r.
Proof. unfold sized. cbn [items]. intros l r S. apply Forall_app in S. exact S. Qed.
Lemma has_digest : forall c A x B, items c = A ++ (1, H x) :: B -> exists y, chash H c = H y.
Proof.
  intros [m h|l r] A x B E; cbn [items chash] in *; [|eexists; reflexivity]. destruct A as [|? A]; [|destruct A; discriminate]. exists x. cbn [app] in E. congruence.
Qed.

Lemma items_nonneg : forall c, canonz c -> Forall (fun x => 0 <= fst x) (items c).
Proof. induction c as [m h|l IHl r IHr]; cbn [canonz items]; intros C; [repeat constructor; assumption|]. destruct C as (C1 & C2 & _). apply Forall_app. auto. Qed.
Lemma isum_nn : forall l, Forall (fun x => 0 <= fst x) l -> 0 <= isum l.
Proof. unfold isum. induction 1; cbn [fold_right]; lia. Qed.
Lemma no_one_in_zero : forall c A x B, canonz c -> cnum c = 0 -> items c = A ++ (1, H x) :: B -> False.
Proof.
  intros c A x B C Z0 E. pose proof (items_nonneg c C) as N. rewrite E in N. apply Forall_app in N as [N1 N2]. inversion N2 as [|? ? _ N3]; subst.
  rewrite <- isum_items, E, isum_app in Z0. cbn [isum fold_right fst] in Z0. fold (isum B) in Z0. pose proof (isum_nn _ N1). pose proof (isum_nn _ N3). lia.
Qed.

Lemma split_hash : forall l r ra rb, zlen ra = 32 -> zlen (chash H l) = 32 -> H (ra ++ rb) = H (chash H l ++ chash H r) -> (ra = chash H l /\ rb = chash H r) \/ collision H.
Proof.
  intros l r ra rb A B E. destruct (list_eq_dec Z.eq_dec (ra ++ rb) (chash H l ++ chash H r)) as [E'|E'].
  - left. apply app_eq_length in E' as [-> ->]; [auto|unfold zlen in *; lia].
  - right. exists (ra ++ rb), (chash H l ++ chash H r). auto.
Qed.
Lemma leaf_hash : forall l r y A x B, sized (CB l r) -> items (CB l r) = A ++ (1, H x) :: B -> H y = H (chash H l ++ chash H r) -> bad [y].
Proof.
  intros l r y A x B S E Ey. destruct (list_eq_dec Z.eq_dec y (chash H l ++ chash H r)) as [->|Hn]; [|left; exists y, (chash H l ++ chash H r); auto].
  right. eexists. split; [left; reflexivity|]. apply sized_cb in S as [S1 S2]. exists (chash H l), (chash H r). split; [reflexivity|]. split; [apply sized_hash; assumption|]. split; [apply sized_hash; assumption|].
  cbn [items] in E. apply app_cases in E as [(b' & E1 & _)|(a' & _ & E1)]; [left|right]; eapply has_digest; exact E1.
Qed.

(** counting more than there is: no message at all *)
Lemma excess : forall c cs i j A x B, canonz c -> sized c -> 0 <= j < i -> cnum c = 2 ^ i -> zlen cs = 2 ^ j -> merkle H cs (chash H c) -> items c = A ++ (1, H x) :: B -> bad cs.
Proof.
  induction c as [m h|l IHl r IHr]; intros cs i j A x B C S J N Z M E.
  - cbn [items cnum] in *. destruct A as [|? A]; [|destruct A; discriminate]. assert (m = 1) by (cbn [app] in E; congruence). subst. assert (2 ^ 0 < 2 ^ i) by (apply Z.pow_lt_mono_r; lia). change (2 ^ 0) with 1 in *. lia.
  - pose proof (sized_cb _ _ S) as [S1 S2]. pose proof C as C'. cbn [canonz cnum chash] in C', N, M. destruct C' as (C1 & C2 & p & Hp & Hl & Hr). pose proof (cnum_nonneg r C2).
    inversion M as [y E1 E2|a b k ra rb Hk Ha Hb HMa HMb E1 E2]; subst.
    + eapply leaf_hash; eauto.
    + rewrite zlen_app in Z.
      assert (Hj : zlen a = 2 ^ (j - 1) /\ zlen b = 2 ^ (j - 1) /\ 1 <= j).
      { assert (k < j). { destruct (Z_lt_le_dec k j); [assumption|]. assert (2 ^ j <= 2 ^ k) by (apply Z.pow_le_mono_r; lia). lia. }
        assert (j <= k + 1). { destruct (Z_le_gt_dec j (k + 1)); [assumption|]. assert (2 ^ (k + 1) < 2 ^ j) by (apply Z.pow_lt_mono_r; lia). rewrite Z.pow_add_r in * by lia. change (2 ^ 1) with 2 in *. lia. }
        assert (j = k + 1) by lia. subst j. rewrite Z.pow_add_r in Z by lia. change (2 ^ 1) with 2 in Z. replace (k + 1 - 1) with k by lia. lia. }
      destruct Hj as (Ja & Jb & J1).
      destruct (split_hash l r ra rb) as [[-> ->]|Cl]; [eapply merkle_digest; eauto|apply sized_hash; assumption|assumption| |left; assumption].
      cbn [items] in E. apply app_cases in E as [(b' & E1 & _)|(a' & _ & E1)].
      * apply bad_l. destruct (Z.eq_dec (cnum r) 0) as [R0|R0].
        -- eapply (IHl a i (j - 1)); eauto; lia.
        -- assert (Hi : p = i - 1).
           { assert (p < i). { destruct (Z_lt_le_dec p i); [assumption|]. assert (2 ^ i <= 2 ^ p) by (apply Z.pow_le_mono_r; lia). lia. }
             destruct (Z.eq_dec p (i - 1)); [assumption|]. assert (2 ^ (p + 1) < 2 ^ i) by (apply Z.pow_lt_mono_r; lia). rewrite Z.pow_add_r in * by lia. change (2 ^ 1) with 2 in *. lia. }
           subst p. eapply (IHl a (i - 1) (j - 1)); eauto; lia.
      * apply bad_r. destruct (Z.eq_dec (cnum r) 0) as [R0|R0]; [exfalso; eapply no_one_in_zero; eauto|].
        assert (Hi : p = i - 1).
        { assert (p < i). { destruct (Z_lt_le_dec p i); [assumption|]. assert (2 ^ i <= 2 ^ p) by (apply Z.pow_le_mono_r; lia). lia. }
          destruct (Z.eq_dec p (i - 1)); [assumption|]. assert (2 ^ (p + 1) < 2 ^ i) by (apply Z.pow_lt_mono_r; lia). rewrite Z.pow_add_r in * by lia. change (2 ^ 1) with 2 in *. lia. }
        subst p. assert (cnum r = 2 ^ (i - 1)). { assert (2 ^ i = 2 * 2 ^ (i - 1)) by (rewrite <- Z.pow_succ_r by lia; f_equal; lia). lia. }
        eapply (IHr b (i - 1) (j - 1)); eauto; lia.
Qed.

Lemma item_soundz : forall c cs A x B, canonz c -> sized c -> items c = A ++ (1, H x) :: B -> merkle H cs (chash H c) -> zlen cs = cnum c ->
  nth_error cs (Z.to_nat (isum A)) = Some x \/ bad cs.
Proof.
  induction c as [m h|l IHl r IHr]; intros cs A x B C S E M N.
  - cbn [items] in E. destruct A as [|a A]; [|destruct A; discriminate].
    assert (m = 1 /\ h = H x) as [-> ->] by (cbn in E; split; congruence). cbn [cnum chash] in *. change (Z.to_nat (isum [])) with 0%nat.
    inversion M as [c E1 E2|a b k ra rb Hk Ha Hb HMa HMb E1 E2]; subst.
    + cbn. destruct (list_eq_dec Z.eq_dec c x) as [->|Hne]; [auto|]. right. left. exists c, x. auto.
    + apply merkle_len in HMa, HMb. rewrite zlen_app in N. lia.
  - pose proof (sized_cb _ _ S) as [S1 S2]. pose proof C as C'. cbn [canonz cnum chash] in C', N, M. destruct C' as (C1 & C2 & k & Hk & Hl & Hr). pose proof (cnum_nonneg r C2).
    assert (0 < 2 ^ k) by (apply Z.pow_pos_nonneg; lia).
    inversion M as [y E1 E2|a b k' ra rb Hk' Ha Hb HMa HMb E1 E2]; subst; [right; eapply leaf_hash; eauto|].
    rewrite zlen_app in N. destruct (split_hash l r ra rb) as [[-> ->]|Cl]; [eapply merkle_digest; eauto|apply sized_hash; assumption|assumption| |right; left; assumption].
    destruct (Z.eq_dec (cnum r) 0) as [R0|R0].
    + (* an empty right part *)
      cbn [items] in E. apply app_cases in E as [(b' & E1 & _)|(a' & _ & E1)]; [|exfalso; eapply no_one_in_zero; eauto].
      right. apply bad_l. eapply (excess l a k k'); eauto. destruct (Z_lt_le_dec k' k); [lia|]. assert (2 ^ k <= 2 ^ k') by (apply Z.pow_le_mono_r; lia). lia.
    + assert (k = k').
      { destruct (Z.lt_total k k') as [Hlt|[Heq|Hlt]]; [|assumption|]; exfalso.
        - assert (2 ^ (k+1) <= 2 ^ k') by (apply Z.pow_le_mono_r; lia). rewrite Z.pow_add_r in * by lia. change (2^1) with 2 in *. lia.
        - assert (2 ^ (k'+1) <= 2 ^ k) by (apply Z.pow_le_mono_r; lia). rewrite Z.pow_add_r in * by lia. change (2^1) with 2 in *. lia. }
      subst k'. cbn [items] in E. apply app_cases in E as [(b' & E1 & _)|(a' & E0 & E1)].
      * destruct (IHl a _ _ _ C1 S1 E1 HMa ltac:(lia)) as [HS|HS]; [left|right; apply bad_l; assumption].
        rewrite nth_error_app1; [assumption|]. apply nth_error_Some. congruence.
      * destruct (IHr b _ _ _ C2 S2 E1 HMb ltac:(lia)) as [HS|HS]; [left|right; apply bad_r; assumption].
        subst A. rewrite isum_app, isum_items. assert (0 <= isum a').
        { apply isum_nn. pose proof (items_nonneg r C2) as HP. rewrite E1 in HP. apply Forall_app in HP. tauto. }
        rewrite nth_error_app2 by (unfold zlen in *; lia). rewrite <- HS. f_equal. unfold zlen in *. lia.
Qed.

Lemma contents_soundz : forall c cs, canonz c -> sized c -> merkle H cs (chash H c) -> zlen cs = cnum c ->
  forall contents A B, items c = A ++ map (leaf_item H) contents ++ B -> sublist_at cs (isum A) contents \/ bad cs.
Proof.
  intros c cs C S M N. induction contents as [|x contents IH]; intros A B HI.
  - left. cbn [map app] in HI. pose proof (items_nonneg c C) as HP. rewrite HI in HP. apply Forall_app in HP as [P1 P2].
    pose proof (isum_nn A P1). pose proof (isum_nn B P2).
    assert (isum A + isum B = zlen cs) by (rewrite <- isum_app, <- HI, isum_items; lia).
    destruct (split_list _ cs (isum A) ltac:(lia)) as (a & b & -> & Ha & _). exists a, b. auto.
  - cbn [map app] in HI. change (leaf_item H x) with (1, H x) in HI.
    destruct (item_soundz c cs A x _ C S HI M N) as [HS|HS]; [|auto].
    destruct (IH (A ++ [(1, H x)]) B) as [(a & b & E & Ha)|HS']; [rewrite HI, <- app_assoc; reflexivity| |auto].
    left. rewrite isum_app in Ha. cbn [isum fold_right fst] in Ha.
    pose proof (items_nonneg c C) as HP. rewrite HI in HP. apply Forall_app in HP as [P1 _]. pose proof (isum_nn A P1).
    destruct (split_list _ a (isum A) ltac:(lia)) as (a1 & a2 & -> & Ha1 & Ha2).
    destruct a2 as [|y [|z a2]].
    { rewrite zlen_app in Ha. cbn in Ha2. unfold zlen in *; cbn in *; lia. }
    2:{ rewrite zlen_app, !zlen_cons in Ha. pose proof (zlen_nonneg _ a2). lia. }
    exists a1, b. split; [|assumption]. rewrite E, <- !app_assoc. cbn [app]. f_equal. f_equal.
    rewrite E, <- !app_assoc in HS. cbn [app] in HS. rewrite nth_error_app2 in HS by (unfold zlen in *; lia).
    replace (Z.to_nat (isum A) - length a1)%nat with 0%nat in HS by (unfold zlen in *; lia). cbn in HS. congruence.
Qed.
End Tree.
