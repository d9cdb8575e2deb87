(** Lemmas about the accumulator: nodes, witness conversion and answers. *)
From Coq Require Import String Ascii ZArith List Bool Lia.
From Coq Require Import ZifyBool.
From Verif Require Import Base L_Base M_IntConv M_Mta S_Mta L_Mta L_Mta2 L_Mta3 L_Mta4.
Import ListNotations.
Open Scope Z_scope.

Section More.
Context (H : list Z -> list Z) (HD : digest32 H).
Context (e : Z -> list Z) (He : forall i, length (e i) = 32%nat).

Lemma GetNode_spec : forall st k q idx n, (k <= 62)%nat -> tree H e st k q n -> 0 <= idx < 2 ^ Z.of_nat k ->
  exists nd, GetNode st k idx n = Ok nd /\ tree H e st 0 (q * 2 ^ Z.of_nat k + idx) nd.
Proof using HD He.
  intros st. induction k as [|k IH]; intros q idx n Hk HT Hi.
  - cbn [GetNode]. change (2 ^ Z.of_nat 0) with 1 in *. replace (q * 1 + idx) with q by lia. exists n.
    destruct n; cbn [tree] in HT |- *; [tauto|destruct HT|tauto].
  - assert (HB : forall l r, tree H e st k (2 * q) l -> tree H e st k (2 * q + 1) r ->
      exists nd, (if idx <? shl k then GetNode st k idx l else GetNode st k (i64 (idx - shl k)) r) = Ok nd /\
        tree H e st 0 (q * 2 ^ Z.of_nat (S k) + idx) nd).
    { intros l r H1 H2. rewrite shl_small by lia. rewrite pow_S in *. pose proof (pow2_pos k) as HP. pose proof (pow2_le62 k ltac:(lia)).
      set (P := 2 ^ Z.of_nat k) in *. destruct (Z.ltb_spec idx P).
      - destruct (IH (2 * q) idx l ltac:(lia) H1 ltac:(lia)) as (nd & -> & T). exists nd. split; [reflexivity|].
        fold P in T. replace (q * (2 * P) + idx) with (2 * q * P + idx) by lia. assumption.
      - rewrite i64_small by lia. destruct (IH (2 * q + 1) (idx - P) r ltac:(lia) H2 ltac:(lia)) as (nd & -> & T). exists nd. split; [reflexivity|].
        fold P in T. replace (q * (2 * P) + idx) with ((2 * q + 1) * P + (idx - P)) by lia. assumption. }
    destruct n as [h|s h ser l r|s h d].
    + cbn [GetNode]. destruct HT as [-> HS]. rewrite (resolve_stored H HD e He) by assumption.
      apply HB; pose proof HS as (S1 & S2 & S3); cbn [tree]; auto.
    + cbn [GetNode]. destruct HT as (T1 & T2 & _). apply HB; assumption.
    + destruct HT as [HT _]. discriminate.
Qed.

Lemma acc_GetNode_loop_spec : forall st n rs idx o, 0 <= n < 2 ^ 62 -> slots H e st 0 n rs -> 
  (n / 2 ^ Z.of_nat o) * 2 ^ Z.of_nat o <= idx < n ->
  exists nd, acc_GetNode_loop st rs o (idx - (n / 2 ^ Z.of_nat o) * 2 ^ Z.of_nat o) = Ok nd /\ tree H e st 0 idx nd.
Proof using HD He.
  intros st n rs idx o Hn HS. induction o as [|o IH]; intros Hi.
  - change (Z.of_nat 0) with 0 in Hi. rewrite Z.pow_0_r, Z.div_1_r in Hi. lia.
  - cbn [acc_GetNode_loop]. pose proof (slots_nth H e st rs 0 n o ltac:(lia) HS) as HN. cbn [Nat.add] in HN.
    rewrite testbit_div in HN. rewrite div_S in *. rewrite pow_S in *.
    pose proof (pow2_pos o) as HP. set (P := 2 ^ Z.of_nat o) in *.
    pose proof (Z.mul_div_le n P HP) as D1. pose proof (Z.mul_succ_div_gt n P HP) as D2.
    destruct (nth_error rs o) as [[nd|]|] eqn:EN.
    + destruct HN as [HO HT]. pose proof (odd_half _ HO) as HO'.
      assert (Ho : (o < 62)%nat) by (eapply slots_length; eauto).
      rewrite shl_small by lia. fold P.
      destruct (Z.ltb_spec (idx - n / P / 2 * (2 * P)) P) as [HL|HL].
      * destruct (GetNode_spec st o (n / P - 1) (idx - n / P / 2 * (2 * P)) nd ltac:(lia) HT) as (nd' & E1 & E2).
        { fold P. lia. }
        rewrite E1. fold P in E2. exists nd'. split; [reflexivity|].
        replace ((n / P - 1) * P + (idx - n / P / 2 * (2 * P))) with idx in E2 by nia. assumption.
      * assert (0 <= n / P / 2 * (2 * P)) by (apply Z.mul_nonneg_nonneg; [apply Z.div_pos; [apply Z.div_pos; lia|lia]|lia]).
        rewrite i64_small by lia.
        replace (idx - n / P / 2 * (2 * P) - P) with (idx - n / P * P) by nia. apply IH. nia.
    + pose proof (even_half _ HN) as HE. replace (n / P / 2 * (2 * P)) with (n / P * P) in * by nia. apply IH. lia.
    + pose proof (even_half _ HN) as HE. replace (n / P / 2 * (2 * P)) with (n / P * P) in * by nia. apply IH. lia.
Qed.

Lemma acc_GetNode_spec : forall st n a idx, n < 2 ^ 62 -> inv H e st n a -> 0 <= idx < n ->
  exists nd, acc_GetNode st a idx = Ok nd /\ fst (node_Hash H nd) = e idx.
Proof using HD He.
  intros st n a idx Hn (I1 & I2 & I3) Hi. pose proof (slots_bound H e _ _ _ _ I1 I3) as HB.
  destruct (acc_GetNode_loop_spec st n (a_roots a) idx (length (a_roots a)) ltac:(lia) I3) as (nd & E1 & E2);
    rewrite ?(Z.div_small n) in * by lia; [lia|].
  replace (idx - 0 * 2 ^ Z.of_nat (length (a_roots a))) with idx in E1 by lia.
  exists nd. unfold acc_GetNode. rewrite I2. replace (n <=? idx) with false by lia. split; [assumption|].
  destruct (node_Hash_spec H HD e He _ _ _ _ E2) as [-> _]. reflexivity.
Qed.

(** Two accumulators of the same entries answer alike, whatever their in-memory form. *)
Lemma WitnessFor_same : forall st st' n a a' idx, n < 2 ^ 62 -> inv H e st n a -> inv H e st' n a' ->
  snd (WitnessFor H st a idx) = snd (WitnessFor H st' a' idx).
Proof using HD He.
  intros st st' n a a' idx Hn I1 I2. pose proof I1 as (N & L1 & S1). pose proof I2 as (_ & L2 & S2).
  destruct (Z.leb_spec n idx).
  - unfold WitnessFor. rewrite L1, L2. replace (n <=? idx) with true by lia. reflexivity.
  - destruct (Z.eq_dec n 0) as [->|].
    + assert (E : forall s rs, slots H e s 0 0 rs -> rs = []).
      { intros s [|[x|] rs] HS; [reflexivity| |]; cbn [slots] in HS; [destruct HS as [X _]; discriminate|lia]. }
      unfold WitnessFor. rewrite L1, L2, (E _ _ S1), (E _ _ S2). replace (0 <=? idx) with false by lia. reflexivity.
    + destruct (WitnessFor_inv H HD e He st n a idx Hn I1 ltac:(lia) ltac:(lia)) as (k & b & K1 & -> & _).
      destruct (WitnessFor_inv H HD e He st' n a' idx Hn I2 ltac:(lia) ltac:(lia)) as (k' & b' & K2 & -> & _).
      rewrite (in_slot_unique n _ k k' N K1 K2). reflexivity.
Qed.

Lemma hashes_witness : forall k x, 0 <= x -> HashesToWitness (WitnessesToHashes (wit H e k x)) x = wit H e k x.
Proof using.
  assert (GA : forall l m x, 0 <= x -> HashesToWitness (l ++ m) x = HashesToWitness l x ++ HashesToWitness m (x / 2 ^ Z.of_nat (length l))).
  { induction l as [|h l IH]; intros m x Hx; cbn [app HashesToWitness length].
    - change (2 ^ Z.of_nat 0) with 1. rewrite Z.div_1_r. reflexivity.
    - rewrite Z.quot_div_nonneg by lia. rewrite IH by (apply Z.div_pos; lia). rewrite pow_S.
      rewrite Z.div_div by (try apply pow2_pos; lia). reflexivity. }
  induction k as [|k IH]; intros x Hx; [reflexivity|]. cbn [wit]. unfold WitnessesToHashes. rewrite map_app, GA by lia.
  fold (WitnessesToHashes (wit H e k x)). rewrite IH by lia. f_equal. unfold WitnessesToHashes. rewrite map_length, wit_length.
  cbn [map HashesToWitness]. rewrite Z.rem_mod_nonneg by (try apply Z.div_pos; try apply pow2_pos; lia).
  rewrite testbit_div, Zmod_odd. destruct (Z.odd _); reflexivity.
Qed.
End More.
