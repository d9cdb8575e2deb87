(** Lemmas about the accumulator: witnesses and verification. *)
From Coq Require Import String Ascii ZArith List Bool Lia.
From Coq Require Import ZifyBool.
From Verif Require Import Base L_Base M_Mta S_Mta L_Mta.
Import ListNotations.
Open Scope Z_scope.

Lemma pow2_pos : forall k : nat, 0 < 2 ^ Z.of_nat k.
Proof. intros. apply Z.pow_pos_nonneg; lia. Qed.
Lemma pow2_le62 : forall k : nat, (k <= 62)%nat -> 2 ^ Z.of_nat k <= 2 ^ 62.
Proof. intros. apply Z.pow_le_mono_r; lia. Qed.
Lemma testbit_div : forall n k, Z.testbit n (Z.of_nat k) = Z.odd (n / 2 ^ Z.of_nat k).
Proof. intros. rewrite Z.testbit_odd, Z.shiftr_div_pow2 by lia. reflexivity. Qed.
Lemma div_S : forall n k, n / 2 ^ Z.of_nat (S k) = (n / 2 ^ Z.of_nat k) / 2.
Proof. intros. pose proof (pow2_pos k). rewrite pow_S, Z.mul_comm, Z.div_div by lia. reflexivity. Qed.

Lemma in_slot_alt : forall n x k, in_slot n x k <-> Z.odd (n / 2 ^ Z.of_nat k) = true /\ x / 2 ^ Z.of_nat k = n / 2 ^ Z.of_nat k - 1.
Proof.
  intros n x k. unfold in_slot. rewrite testbit_div. pose proof (pow2_pos k) as HP. set (P := 2 ^ Z.of_nat k) in *.
  split; intros [H1 H2]; (split; [assumption|]).
  - symmetry. apply Z.div_unique with (x - (n / P - 1) * P); [left; lia|lia].
  - pose proof (Z.mul_div_le x P HP). pose proof (Z.mul_succ_div_gt x P HP). nia.
Qed.

Lemma odd_half : forall m, Z.odd m = true -> m = 2 * (m / 2) + 1.
Proof. intros m Hm. apply Z.odd_spec in Hm. destruct Hm as [u ->]. f_equal. f_equal. apply Z.div_unique with 1; lia. Qed.
Lemma even_half : forall m, Z.odd m = false -> m = 2 * (m / 2).
Proof.
  intros m Hm. assert (He : Z.even m = true) by (rewrite <- Z.negb_odd, Hm; reflexivity).
  apply Z.even_spec in He. destruct He as [u ->]. f_equal. apply Z.div_unique with 0; lia.
Qed.

Lemma in_slot_mono : forall A n x kA kn, 0 <= A <= n -> in_slot A x kA -> in_slot n x kn -> (kA <= kn)%nat.
Proof.
  intros A n x kA kn HA HS HS'. apply in_slot_alt in HS, HS'. destruct HS as [O1 E1], HS' as [O2 E2].
  destruct (Nat.le_gt_cases kA kn) as [|Hlt]; [assumption|exfalso].
  assert (EP : 2 ^ Z.of_nat kA = 2 ^ Z.of_nat kn * (2 * 2 ^ Z.of_nat (kA - kn - 1))).
  { rewrite <- pow_S, <- Z.pow_add_r by lia. f_equal. lia. }
  pose proof (pow2_pos kn) as HP. pose proof (pow2_pos (kA - kn - 1)) as HQ.
  set (P := 2 ^ Z.of_nat kn) in *. set (Q := 2 ^ Z.of_nat (kA - kn - 1)) in *. rewrite EP in *.
  apply odd_half in O2. set (u := n / P / 2) in *.
  assert (X : x / (P * (2 * Q)) = u / Q).
  { rewrite <- Z.div_div by lia. rewrite E2, O2. replace (2 * u + 1 - 1) with (u * 2) by lia.
    rewrite <- Z.div_div, Z.div_mul by lia. reflexivity. }
  pose proof (Z.mul_div_le A (P * (2 * Q)) ltac:(nia)). pose proof (Z.mul_succ_div_gt n P HP).
  pose proof (Z.mul_succ_div_gt u Q HQ). nia.
Qed.

Section Wit.
Context (H : list Z -> list Z) (HD : digest32 H).
Context (e : Z -> list Z) (He : forall i, length (e i) = 32%nat).
Local Notation nv := (nv H e).
Local Notation stored := (stored H e).
Local Notation tree := (tree H e).
Local Notation slots := (slots H e).
Local Notation inv := (inv H e).
Local Notation wit := (wit H e).

Lemma slots_bound : forall st rs i m, 0 <= m -> slots st i m rs -> m < 2 ^ Z.of_nat (length rs).
Proof.
  intros st. induction rs as [|x rs IH]; intros i m Hm HS.
  - cbn in HS. subst. cbn. lia.
  - assert (HS' : slots st (S i) (m / 2) rs) by (destruct x; cbn [L_Mta.slots] in HS; tauto).
    specialize (IH _ _ (Z.div_pos m 2 Hm ltac:(lia)) HS'). cbn [length]. rewrite pow_S.
    pose proof (Z.mul_succ_div_gt m 2 ltac:(lia)). lia.
Qed.

Lemma WitnessFor_loop_spec : forall st n rs idx o, 0 <= n < 2 ^ 62 -> slots st 0 n rs -> 
  (n / 2 ^ Z.of_nat o) * 2 ^ Z.of_nat o <= idx < n ->
  exists k rs', in_slot n idx k /\
    WitnessFor_loop H st rs o (idx - (n / 2 ^ Z.of_nat o) * 2 ^ Z.of_nat o) = (rs', Ok (wit k idx)) /\ slots st 0 n rs'.
Proof using HD He.
  intros st n rs idx o Hn HS. induction o as [|o IH]; intros Hi.
  - change (Z.of_nat 0) with 0 in Hi. rewrite Z.pow_0_r, Z.div_1_r in Hi. lia.
  - cbn [WitnessFor_loop]. pose proof (slots_nth H e st rs 0 n o ltac:(lia) HS) as HN. cbn [Nat.add] in HN.
    rewrite testbit_div in HN. rewrite div_S in *. rewrite pow_S in *.
    pose proof (pow2_pos o) as HP. set (P := 2 ^ Z.of_nat o) in *.
    pose proof (Z.mul_div_le n P HP) as D1. pose proof (Z.mul_succ_div_gt n P HP) as D2.
    destruct (nth_error rs o) as [[nd|]|] eqn:EN.
    + destruct HN as [HO HT]. pose proof (odd_half _ HO) as HO'.
      assert (Ho : (o < 62)%nat) by (eapply slots_length; eauto).
      rewrite shl_small by lia. fold P.
      destruct (Z.ltb_spec (idx - n / P / 2 * (2 * P)) P) as [HL|HL].
      * destruct (node_WitnessFor_spec H HD e He st o (n / P - 1) (idx - n / P / 2 * (2 * P)) nd [] ltac:(lia) HT) as (nd' & E1 & E2).
        { fold P. lia. }
        rewrite E1. fold P. cbn [app]. exists o. eexists. split; [|split].
        -- unfold in_slot. rewrite testbit_div. fold P. nia.
        -- replace ((n / P - 1) * P + (idx - n / P / 2 * (2 * P))) with idx by nia. reflexivity.
        -- apply slots_set; [assumption|rewrite EN; discriminate|eauto|]. cbn [Nat.add]. fold P. assumption.
      * assert (0 <= n / P / 2 * (2 * P)) by (apply Z.mul_nonneg_nonneg; [apply Z.div_pos; [apply Z.div_pos; lia|lia]|lia]).
        rewrite i64_small by lia.
        replace (idx - n / P / 2 * (2 * P) - P) with (idx - n / P * P) by nia. apply IH. nia.
    + pose proof (even_half _ HN) as HE. replace (n / P / 2 * (2 * P)) with (n / P * P) in * by nia. apply IH. lia.
    + pose proof (even_half _ HN) as HE. replace (n / P / 2 * (2 * P)) with (n / P * P) in * by nia. apply IH. lia.
Qed.

Lemma WitnessFor_spec : forall st n a idx, n < 2 ^ 62 -> inv st n a -> 0 <= idx < n ->
  exists k a', in_slot n idx k /\ WitnessFor H st a idx = (a', Ok (wit k idx)) /\ inv st n a'.
Proof using HD He.
  intros st n a idx Hn (I1 & I2 & I3) Hi. pose proof (slots_bound _ _ _ _ I1 I3) as HB.
  destruct (WitnessFor_loop_spec st n (a_roots a) idx (length (a_roots a)) ltac:(lia) I3) as (k & rs' & E1 & E2 & E3);
    rewrite ?(Z.div_small n) in * by lia; [lia|].
  exists k. eexists. split; [assumption|]. unfold WitnessFor. rewrite I2. replace (n <=? idx) with false by lia.
  replace (idx - 0 * 2 ^ Z.of_nat (length (a_roots a))) with idx in E2 by lia. rewrite E2. split; [reflexivity|].
  split; [assumption|]. split; [reflexivity|]. assumption.
Qed.

(** ** verification *)
Definition pv (ws : list witness) (h : list Z) : list Z :=
  fold_left (fun h w => if w_dir w =? Left then H (w_hash w ++ h) else H (h ++ w_hash w)) ws h.

Lemma verify_loop_pv : forall ws buf h, length buf = 64%nat -> length h = 32%nat ->
  Forall (fun w => length (w_hash w) = 32%nat) ws -> verify_loop H ws buf h = pv ws h.
Proof using HD.
  induction ws as [|w ws IH]; intros buf h HB Hh HF; cbn [verify_loop]; [reflexivity|].
  inversion HF; subst. unfold pv. cbn [fold_left]. fold (pv ws).
  destruct (w_dir w =? Left); rewrite copy2_both by assumption; apply IH; auto; rewrite app_length; lia.
Qed.

Lemma wit_32 : forall k x, Forall (fun w => length (w_hash w) = 32%nat) (wit k x).
Proof using HD He.
  induction k; intros; cbn [L_Mta.wit]; [constructor|]. apply Forall_app. split; [apply IHk|].
  constructor; [|constructor]. destruct (Z.testbit _ _); apply nv_length; assumption.
Qed.

Lemma pv_wit : forall k x, pv (wit k x) (e x) = nv k (x / 2 ^ Z.of_nat k).
Proof.
  induction k as [|k IH]; intros x; [cbn; rewrite Z.div_1_r; reflexivity|].
  cbn [L_Mta.wit]. unfold pv. rewrite fold_left_app. fold (pv (wit k x) (e x)). rewrite IH.
  rewrite div_S. cbn [L_Mta.nv]. rewrite testbit_div. set (y := x / 2 ^ Z.of_nat k) in *.
  destruct (Z.odd y) eqn:EO; cbn [fold_left w_dir w_hash].
  - apply odd_half in EO. change (Left =? Left) with true. cbv iota.
    replace (2 * (y / 2)) with (y - 1) by lia. replace (y - 1 + 1) with y by lia. reflexivity.
  - apply even_half in EO. change (Right =? Left) with false. cbv iota.
    replace (2 * (y / 2)) with y by lia. reflexivity.
Qed.

Lemma root_of_slot : forall st n a k, inv st n a -> 
  match nth_error (a_roots a) k with
  | Some (Some nd) => Z.odd (n / 2 ^ Z.of_nat k) = true /\ tree st k (n / 2 ^ Z.of_nat k - 1) nd /\
       fst (node_Hash H nd) = nv k (n / 2 ^ Z.of_nat k - 1)
  | _ => Z.odd (n / 2 ^ Z.of_nat k) = false
  end.
Proof using HD He.
  intros st n a k (I1 & I2 & I3). pose proof (slots_nth H e st _ 0 n k I1 I3) as HN. rewrite testbit_div in HN.
  destruct (nth_error _ _) as [[nd|]|]; auto. destruct HN as [H1 H2]. split; [assumption|]. split; [exact H2|].
  apply (node_Hash_spec H HD e He st). exact H2.
Qed.

Lemma Verify_wit : forall st n a k x, inv st n a -> in_slot n x k -> Verify H a (wit k x) (e x) = Ok tt.
Proof using HD He.
  intros st n a k x HI HS. apply in_slot_alt in HS. destruct HS as [HO HX]. unfold Verify. rewrite wit_length.
  pose proof (root_of_slot st n a k HI) as HR. destruct (nth_error _ k) as [[nd|]|]; [|congruence|congruence].
  destruct HR as (_ & _ & ->). rewrite verify_loop_pv by (apply wit_32 || apply He || reflexivity). rewrite pv_wit, HX.
  rewrite bytes_eqb_refl. reflexivity.
Qed.

(** ** soundness *)
Definition turns (ws : list witness) : list bool := map (fun w => w_dir w =? Left) ws.

Lemma H_inj : forall x y, H x = H y -> x = y \/ collides H.
Proof.
  intros x y E. destruct (list_Z_eq_dec x y) as [|Hn]; [auto|]. right. exists x, y. auto.
Qed.

Lemma verify_loop_sound : forall ws buf h j q, length buf = 64%nat -> length h = 32%nat ->
  verify_loop H ws buf h = nv (j + length ws) q ->
  h = nv j (q * 2 ^ Z.of_nat (length ws) + path_position (turns ws)) \/ collides H.
Proof using HD He.
  induction ws as [|w ws IH]; intros buf h j q HB Hh E.
  - cbn [verify_loop length] in E. rewrite Nat.add_0_r in E. left. cbn [length turns map path_position].
    change (Z.of_nat 0) with 0. rewrite Z.pow_0_r, Z.mul_1_r, Z.add_0_r. assumption.
  - cbn [verify_loop] in E. cbn [length] in *. replace (j + S (length ws))%nat with (S j + length ws)%nat in E by lia.
    rewrite pow_S. cbn [turns map path_position]. fold (turns ws).
    set (buf' := if w_dir w =? Left then copy2 buf (w_hash w) h else copy2 buf h (w_hash w)) in *.
    assert (HB' : length buf' = 64%nat) by (subst buf'; destruct (w_dir w =? Left); apply copy2_length; assumption).
    destruct (IH buf' (H buf') (S j) q HB' (HD _) E) as [E'|]; [|auto].
    cbn [L_Mta.nv] in E'. set (Q := q * 2 ^ Z.of_nat (length ws) + path_position (turns ws)) in *.
    destruct (H_inj _ _ E') as [E2|]; [|auto]. left.
    subst buf'. destruct (w_dir w =? Left) eqn:ED.
    + assert (E3 : skipn 32 (copy2 buf (w_hash w) h) = nv j (2 * Q + 1)).
      { rewrite E2. rewrite skipn_app, nv_length by assumption. rewrite skipn_all2 by (rewrite nv_length; auto; lia). reflexivity. }
      rewrite copy2_right in E3 by assumption. rewrite E3. f_equal. subst Q. lia.
    + assert (E3 : firstn 32 (copy2 buf h (w_hash w)) = nv j (2 * Q)).
      { rewrite E2. rewrite firstn_app, nv_length by assumption. rewrite firstn_all2 by (rewrite nv_length; auto; lia).
        change (32 - 32)%nat with 0%nat. rewrite firstn_O, app_nil_r. reflexivity. }
      rewrite copy2_left in E3 by assumption. rewrite E3. f_equal. subst Q. lia.
Qed.

Lemma path_position_range : forall t, 0 <= path_position t < 2 ^ Z.of_nat (length t).
Proof.
  induction t as [|b t IH]; [cbn; lia|]. cbn [path_position length]. rewrite pow_S. destruct b; lia.
Qed.
Lemma turns_length : forall ws, length (turns ws) = length ws.
Proof. intros. apply map_length. Qed.

Lemma Verify_sound : forall st n a ws h, inv st n a -> length h = 32%nat -> Verify H a ws h = Ok tt ->
  let k := length ws in let x := (n / 2 ^ Z.of_nat k - 1) * 2 ^ Z.of_nat k + path_position (turns ws) in
  in_slot n x k /\ 0 <= x < n /\ (h = e x \/ collides H).
Proof using HD He.
  intros st n a ws h HI Hh HV k x. unfold Verify in HV. fold k in HV.
  pose proof (root_of_slot st n a k HI) as HR. destruct (nth_error (a_roots a) k) as [[nd|]|] eqn:EN; try discriminate.
  destruct HR as (HO & _ & HE). destruct (bytes_eqb_spec (fst (node_Hash H nd)) (verify_loop H ws zeros64 h)) as [E|]; [|discriminate].
  pose proof (path_position_range (turns ws)) as HP. rewrite turns_length in HP. fold k in HP.
  assert (HS : in_slot n x k).
  { unfold in_slot. rewrite testbit_div. split; [assumption|]. subst x. nia. }
  pose proof (pow2_pos k) as HK. destruct HI as (I1 & _).
  pose proof (odd_half _ HO). pose proof (Z.div_pos n (2 ^ Z.of_nat k) I1 HK). pose proof (Z.mul_div_le n _ HK).
  assert (HM1 : 1 <= n / 2 ^ Z.of_nat k) by lia. pose proof (Z.mul_div_le n _ HK) as HM2. clear -HE HS HM1 HM2 HK Hh HD He E.
  split; [assumption|]. split; [destruct HS as [_ HS]; set (m := n / 2 ^ Z.of_nat k) in *; set (P := 2 ^ Z.of_nat k) in *; nia|].
  rewrite HE in E. symmetry in E. destruct (verify_loop_sound ws zeros64 h 0 _ eq_refl Hh E) as [E'|]; [left|auto].
  exact E'.
Qed.

(** ** heights from witnesses *)
Definition lr (ws : list witness) : Prop := Forall (fun w => w_dir w = Left \/ w_dir w = Right) ws.

Lemma land_pow2 : forall a k, 0 <= k -> Z.land a (2 ^ k) = if Z.testbit a k then 2 ^ k else 0.
Proof.
  intros a k Hk. apply Z.bits_inj'. intros i Hi. rewrite Z.land_spec, Z.pow2_bits_eqb by assumption.
  destruct (Z.eqb_spec k i) as [->|Hn].
  - rewrite andb_true_r. destruct (Z.testbit a i) eqn:E; [rewrite Z.pow2_bits_true by lia; reflexivity|rewrite Z.testbit_0_l; reflexivity].
  - rewrite andb_false_r. destruct (Z.testbit a k); [rewrite Z.pow2_bits_false by lia|rewrite Z.testbit_0_l]; reflexivity.
Qed.

Lemma lor_pow2 : forall a k, 0 <= k -> 0 <= a < 2 ^ k -> Z.lor a (2 ^ k) = a + 2 ^ k.
Proof.
  intros a k Hk Ha. rewrite Z.add_nocarry_lxor; [symmetry; apply Z.lxor_lor|].
  - apply Z.bits_inj'. intros i Hi. rewrite Z.land_spec, Z.pow2_bits_eqb, Z.testbit_0_l by assumption.
    destruct (Z.eqb_spec k i) as [->|]; [|apply andb_false_r]. rewrite andb_true_r.
    destruct (Z.eq_dec a 0) as [->|]; [apply Z.testbit_0_l|]. apply Z.bits_above_log2; [lia|]. apply Z.log2_lt_pow2; lia.
  - apply Z.bits_inj'. intros i Hi. rewrite Z.land_spec, Z.pow2_bits_eqb, Z.testbit_0_l by assumption.
    destruct (Z.eqb_spec k i) as [->|]; [|apply andb_false_r]. rewrite andb_true_r.
    destruct (Z.eq_dec a 0) as [->|]; [apply Z.testbit_0_l|]. apply Z.bits_above_log2; [lia|]. apply Z.log2_lt_pow2; lia.
Qed.

Lemma mod_S : forall n k, n mod 2 ^ Z.of_nat (S k) = n mod 2 ^ Z.of_nat k + (if Z.odd (n / 2 ^ Z.of_nat k) then 2 ^ Z.of_nat k else 0).
Proof.
  intros. pose proof (pow2_pos k) as HP. rewrite pow_S, (Z.mul_comm 2), Z.rem_mul_r by lia. f_equal.
  rewrite Zmod_odd. destruct (Z.odd _); lia.
Qed.

Lemma height_loop_spec : forall ws i idx A, (i + length ws <= 62)%nat -> lr ws -> 0 <= A < 2 ^ 62 -> 0 <= idx < 2 ^ Z.of_nat i ->
  height_loop ws i idx (A mod 2 ^ Z.of_nat i) A =
  let k := (i + length ws)%nat in
  A - 1 - (A mod 2 ^ Z.of_nat k) - (idx + 2 ^ Z.of_nat i * (2 ^ Z.of_nat (length ws) - 1 - path_position (turns ws))).
Proof using.
  induction ws as [|w ws IH]; intros i idx A Hi HL HA Hx; cbv zeta.
  - cbn [height_loop length turns map path_position]. rewrite Nat.add_0_r. change (2 ^ Z.of_nat 0) with 1.
    pose proof (pow2_le62 i ltac:(lia)). pose proof (Z.mod_pos_bound A _ (pow2_pos i)).
    rewrite (i64_small (idx + _)) by lia. rewrite i64_small by lia. lia.
  - cbn [length] in *. inversion HL as [|? ? HW HL']; subst. cbn [height_loop]. rewrite shl_small by lia.
    rewrite land_pow2, testbit_div by lia. pose proof (pow2_le62 i ltac:(lia)) as HI2. pose proof (pow2_pos i) as HI3.
    pose proof (Z.mod_pos_bound A _ HI3).
    assert (EO : (if (if Z.odd (A / 2 ^ Z.of_nat i) then 2 ^ Z.of_nat i else 0) =? 0 then A mod 2 ^ Z.of_nat i
      else i64 (A mod 2 ^ Z.of_nat i + 2 ^ Z.of_nat i)) = A mod 2 ^ Z.of_nat (S i)).
    { rewrite mod_S. destruct (Z.odd _).
      - replace (2 ^ Z.of_nat i =? 0) with false by lia. apply i64_small. lia.
      - cbn [Z.eqb]. lia. }
    rewrite EO. cbn [turns map path_position]. fold (turns ws).
    replace (i + S (length ws))%nat with (S i + length ws)%nat by lia.
    destruct HW as [HW|HW]; rewrite HW; unfold Left, Right; cbn [Z.eqb Pos.eqb].
    + rewrite IH by (try assumption; try lia; rewrite ?pow_S; lia). rewrite !pow_S. cbv zeta. cbn [Nat.add]. lia.
    + rewrite lor_pow2 by lia. rewrite IH by (try assumption; try lia; rewrite ?pow_S; lia).
      rewrite !pow_S. cbv zeta. cbn [Nat.add]. lia.
Qed.

Lemma GetHeight_spec : forall ws A, (length ws <= 62)%nat -> lr ws -> 0 <= A < 2 ^ 62 ->
  GetHeightFromWitness ws A = (A / 2 ^ Z.of_nat (length ws) - 1) * 2 ^ Z.of_nat (length ws) + path_position (turns ws).
Proof using.
  intros ws A HW HL HA. unfold GetHeightFromWitness. pose proof (height_loop_spec ws 0 0 A HW HL HA ltac:(cbn; lia)) as E.
  change (2 ^ Z.of_nat 0) with 1 in E. rewrite Z.mod_1_r in E. rewrite E. cbv zeta. cbn [Nat.add].
  pose proof (Z.div_mod A (2 ^ Z.of_nat (length ws)) ltac:(pose proof (pow2_pos (length ws)); lia)). nia.
Qed.

Lemma path_position_app : forall a b, path_position (a ++ b) = path_position a + 2 ^ Z.of_nat (length a) * path_position b.
Proof. induction a as [|x a IH]; intros b; [cbn [app path_position length]; change (2 ^ Z.of_nat 0) with 1; lia|]. cbn [app path_position length]. rewrite IH, pow_S. lia. Qed.

Lemma turns_wit : forall k x, path_position (turns (wit k x)) = x mod 2 ^ Z.of_nat k.
Proof.
  induction k as [|k IH]; intros x; [cbn; rewrite Z.mod_1_r; reflexivity|].
  cbn [L_Mta.wit]. unfold turns. rewrite map_app. fold (turns (wit k x)). rewrite path_position_app, IH, turns_length, wit_length.
  rewrite mod_S, testbit_div. destruct (Z.odd _); cbn [map path_position w_dir]; unfold Left, Right; cbn [Z.eqb]; lia.
Qed.

Lemma lr_wit : forall k x, lr (wit k x).
Proof.
  induction k; intros; cbn [L_Mta.wit]; [constructor|]. apply Forall_app. split; [apply IHk|].
  constructor; [|constructor]. destruct (Z.testbit _ _); cbn; auto.
Qed.

Lemma in_slot_62 : forall n x k, 0 <= n < 2 ^ 62 -> in_slot n x k -> (k < 62)%nat.
Proof.
  intros n x k Hn HS. apply in_slot_alt in HS. destruct HS as [HO _]. destruct (Nat.lt_ge_cases k 62) as [|Hge]; [assumption|exfalso].
  rewrite Z.div_small in HO; [discriminate|]. split; [lia|]. apply Z.lt_le_trans with (2 ^ 62); [lia|]. apply Z.pow_le_mono_r; lia.
Qed.

Lemma GetHeight_wit : forall n x k, 0 <= n < 2 ^ 62 -> in_slot n x k -> GetHeightFromWitness (wit k x) n = x.
Proof.
  intros n x k Hn HS. pose proof (in_slot_62 n x k Hn HS). rewrite GetHeight_spec by (try apply lr_wit; rewrite ?wit_length; lia).
  rewrite wit_length, turns_wit. apply in_slot_alt in HS. destruct HS as [_ HX]. rewrite <- HX.
  pose proof (Z.div_mod x (2 ^ Z.of_nat k) ltac:(pose proof (pow2_pos k); lia)). lia.
Qed.

(** ** the depth for an older length *)
Lemma depth_count_spec : forall f v, 0 <= v < 2 ^ Z.of_nat f -> v < 2 ^ Z.of_nat (depth_count f v) /\ (depth_count f v <= f)%nat.
Proof.
  induction f as [|f IH]; intros v Hv; cbn [depth_count]; [cbn in *; lia|].
  destruct (Z.ltb_spec 0 v); [|cbn; lia]. rewrite Z.shiftr_div_pow2 by lia. change (2 ^ 1) with 2.
  rewrite pow_S in *. pose proof (Z.mul_succ_div_gt v 2 ltac:(lia)). pose proof (Z.mul_div_le v 2 ltac:(lia)).
  destruct (IH (v / 2) ltac:(lia)). lia.
Qed.

Lemma depth_loop_spec : forall A x d, (d <= 62)%nat -> 0 <= A < 2 ^ 62 -> (A / 2 ^ Z.of_nat d) * 2 ^ Z.of_nat d <= x < A ->
  in_slot A x (depth_loop d (x - (A / 2 ^ Z.of_nat d) * 2 ^ Z.of_nat d) A).
Proof using.
  intros A x d. induction d as [|d IH]; intros Hd HA Hx.
  - change (2 ^ Z.of_nat 0) with 1 in Hx. rewrite Z.div_1_r in Hx. lia.
  - cbn [depth_loop]. rewrite shl_small by lia. rewrite land_pow2, testbit_div by lia. rewrite div_S, pow_S in *.
    pose proof (pow2_pos d) as HP. pose proof (pow2_le62 d ltac:(lia)). set (P := 2 ^ Z.of_nat d) in *.
    destruct (Z.odd (A / P)) eqn:EO.
    + rewrite Z.eqb_refl. pose proof (odd_half _ EO) as HO.
      destruct (Z.ltb_spec (x - A / P / 2 * (2 * P)) P).
      * apply in_slot_alt. fold P. split; [assumption|]. symmetry. apply Z.div_unique with (x - A / P / 2 * (2 * P)); [left; nia|nia].
      * assert (0 <= A / P / 2 * (2 * P)) by (apply Z.mul_nonneg_nonneg; [apply Z.div_pos; [apply Z.div_pos|]|]; lia).
        rewrite i64_small by lia. replace (x - A / P / 2 * (2 * P) - P) with (x - A / P * P) by nia. apply IH; [lia|assumption|nia].
    + replace (0 =? P) with false by lia. pose proof (even_half _ EO) as HO.
      replace (A / P / 2 * (2 * P)) with (A / P * P) in * by nia. apply IH; [lia|assumption|lia].
Qed.

Lemma depth_count_62 : forall f v, 0 <= v < 2 ^ 62 -> (depth_count f v <= 62)%nat.
Proof.
  assert (G : forall f v j, 0 <= v < 2 ^ Z.of_nat j -> (depth_count f v <= j)%nat).
  { induction f as [|f IH]; intros v j Hv; cbn [depth_count]; [lia|]. destruct (Z.ltb_spec 0 v); [|lia].
    destruct j as [|j]; [cbn in Hv; lia|]. rewrite pow_S in Hv. rewrite Z.shiftr_div_pow2 by lia. change (2 ^ 1) with 2.
    pose proof (Z.mul_div_le v 2 ltac:(lia)). pose proof (Z.div_pos v 2). specialize (IH (v / 2) j ltac:(lia)). lia. }
  intros f v Hv. apply (G f v 62%nat). exact Hv.
Qed.

Lemma GetDepth_spec : forall A x, 0 <= x < A -> A < 2 ^ 62 -> in_slot A x (GetDepthByHeightAndAccLength x A).
Proof using.
  intros A x Hx HA. unfold GetDepthByHeightAndAccLength.
  destruct (depth_count_spec 64 A ltac:(change (Z.of_nat 64) with 64; lia)) as [D1 D2].
  pose proof (depth_count_62 64 A ltac:(lia)) as D3.
  pose proof (depth_loop_spec A x (depth_count 64 A) D3 ltac:(lia)) as HX. rewrite (Z.div_small A) in HX by lia.
  replace (x - 0 * _) with x in HX by lia. apply HX. lia.
Qed.

(** ** older witnesses *)
Lemma WitnessForWithAccLength_spec : forall st n a idx A, n < 2 ^ 62 -> inv st n a -> 0 <= idx < A -> A <= n ->
  exists k a', in_slot A idx k /\ WitnessForWithAccLength H st a idx A = (a', Ok (wit k idx)) /\ inv st n a'.
Proof using HD He.
  intros st n a idx A Hn HI Hx HA. destruct (WitnessFor_spec st n a idx Hn HI ltac:(lia)) as (k & a' & S1 & E1 & I1).
  pose proof (GetDepth_spec A idx Hx ltac:(lia)) as S2. exists (GetDepthByHeightAndAccLength idx A), a'. split; [assumption|].
  split; [|assumption]. unfold WitnessForWithAccLength. rewrite E1. cbn [rbind]. unfold cut. rewrite wit_length.
  pose proof (in_slot_mono A n idx _ _ ltac:(lia) S2 S1) as HM. destruct (Nat.leb_spec (GetDepthByHeightAndAccLength idx A) k); [|lia].
  rewrite wit_firstn by assumption. reflexivity.
Qed.

Lemma overwrite_spec : forall nws ws, (length ws <= length nws)%nat -> overwrite nws ws = Ok (ws ++ skipn (length ws) nws).
Proof.
  induction nws as [|x nws IH]; intros [|w ws] HL; cbn [length] in *; try reflexivity; [lia|].
  cbn [overwrite]. rewrite IH by lia. reflexivity.
Qed.
Lemma overwrite_long : forall nws ws, (length nws < length ws)%nat -> overwrite nws ws = Panic.
Proof.
  induction nws as [|x nws IH]; intros [|w ws] HL; cbn [length] in *; try lia; [reflexivity|].
  cbn [overwrite]. rewrite IH by lia. reflexivity.
Qed.

Lemma VerifyOld_complete : forall st n a x A k, n < 2 ^ 62 -> inv st n a -> 0 <= x < A -> A <= n -> in_slot A x k ->
  exists a', VerifyWithAccLength H st a (wit k x) (e x) A = (a', Ok tt) /\ inv st n a'.
Proof using HD He.
  intros st n a x A k Hn HI Hx HA HS. pose proof HI as (_ & IL & _). unfold VerifyWithAccLength. rewrite IL.
  destruct (Z.eqb_spec n A) as [->|Hne].
  - exists a. split; [|assumption]. f_equal. eapply Verify_wit; eauto.
  - rewrite (GetHeight_wit A x k) by (assumption || lia). replace (n <=? x) with false by lia. replace (A <? n) with true by lia.
    destruct (WitnessFor_spec st n a x Hn HI ltac:(lia)) as (k' & a' & S1 & E1 & I1). rewrite E1. exists a'. split; [|assumption].
    f_equal. cbn [rbind]. pose proof (in_slot_mono A n x k k' ltac:(lia) HS S1) as HM.
    rewrite overwrite_spec by (rewrite !wit_length; assumption). cbn [rbind]. rewrite wit_length.
    rewrite <- (wit_firstn H e k' k x HM), firstn_skipn. eapply Verify_wit; eauto.
Qed.

(** The low bits of the height are the turns. *)
Lemma height_low : forall ws A d, 0 <= A < 2 ^ 62 -> (length ws <= 62)%nat -> lr ws -> (d <= length ws)%nat ->
  GetHeightFromWitness ws A mod 2 ^ Z.of_nat d = path_position (turns (firstn d ws)).
Proof using.
  intros ws A d HA HW HL Hd. rewrite GetHeight_spec by assumption.
  rewrite <- (firstn_skipn d ws) at 3. unfold turns at 1. rewrite map_app. fold (turns (firstn d ws)). fold (turns (skipn d ws)).
  rewrite path_position_app, turns_length, firstn_length_le by assumption.
  replace (2 ^ Z.of_nat (length ws)) with (2 ^ Z.of_nat (length ws - d) * 2 ^ Z.of_nat d) at 2 by (rewrite <- Z.pow_add_r by lia; f_equal; lia).
  pose proof (path_position_range (turns (firstn d ws))) as HR. rewrite turns_length, firstn_length_le in HR by assumption.
  symmetry. apply Z.mod_unique with ((A / 2 ^ Z.of_nat (length ws) - 1) * 2 ^ Z.of_nat (length ws - d) + path_position (turns (skipn d ws))); [left; lia|].
  lia.
Qed.

(** negative indexes are treated as index 0 *)
Lemma node_WitnessFor_neg : forall st k idx n w, (k <= 62)%nat -> idx < 0 ->
  node_WitnessFor H st k idx n w = node_WitnessFor H st k 0 n w.
Proof using.
  intros st. induction k as [|k IH]; intros idx n w Hk Hi; [reflexivity|].
  cbn [node_WitnessFor]. rewrite shl_small by lia. pose proof (pow2_pos k).
  replace (idx <? 2 ^ Z.of_nat k) with true by lia. replace (0 <? 2 ^ Z.of_nat k) with true by lia.
  destruct n as [h|s h ser l r|s h d]; [|rewrite IH by lia; reflexivity|reflexivity].
  destruct (resolve st h) as [[[bs x] y]|]; [rewrite IH by lia|]; reflexivity.
Qed.

Lemma WitnessFor_loop_neg : forall st rs o idx, (forall j nd, nth_error rs j = Some (Some nd) -> (j < 62)%nat) -> idx < 0 ->
  WitnessFor_loop H st rs o idx = WitnessFor_loop H st rs o 0.
Proof using.
  intros st rs o idx HJ Hi. induction o as [|o IH]; [reflexivity|]. cbn [WitnessFor_loop].
  destruct (nth_error rs o) as [[nd|]|] eqn:EN; [|assumption|assumption].
  specialize (HJ _ _ EN). rewrite shl_small by lia. pose proof (pow2_pos o).
  replace (idx <? 2 ^ Z.of_nat o) with true by lia. replace (0 <? 2 ^ Z.of_nat o) with true by lia.
  rewrite node_WitnessFor_neg by lia. reflexivity.
Qed.

Lemma WitnessFor_neg : forall st n a idx, n < 2 ^ 62 -> inv st n a -> 0 < n -> idx < 0 -> WitnessFor H st a idx = WitnessFor H st a 0.
Proof using.
  intros st n a idx Hn (I1 & I2 & I3) H0 Hi. unfold WitnessFor. rewrite I2. replace (n <=? idx) with false by lia. replace (n <=? 0) with false by lia.
  rewrite WitnessFor_loop_neg; [reflexivity| |assumption]. intros. eapply slots_length; eauto.
Qed.

Lemma WitnessFor_inv : forall st n a idx, n < 2 ^ 62 -> inv st n a -> idx < n -> 0 < n ->
  exists k a', in_slot n (Z.max 0 idx) k /\ WitnessFor H st a idx = (a', Ok (wit k (Z.max 0 idx))) /\ inv st n a'.
Proof using HD He.
  intros st n a idx Hn HI Hi H0. destruct (Z.ltb_spec idx 0).
  - rewrite (WitnessFor_neg st n) by assumption. replace (Z.max 0 idx) with 0 by lia. apply WitnessFor_spec; auto; lia.
  - replace (Z.max 0 idx) with idx by lia. apply WitnessFor_spec; auto; lia.
Qed.

Lemma in_slot_intro : forall n k x, Z.odd (n / 2 ^ Z.of_nat k) = true -> x / 2 ^ Z.of_nat k = n / 2 ^ Z.of_nat k - 1 -> in_slot n x k.
Proof. intros. apply in_slot_alt. auto. Qed.

(** An accepted older witness: the entry at the height computed from it. *)
Lemma VerifyOld_sound : forall st n a ws h A a', n < 2 ^ 62 -> inv st n a -> length h = 32%nat -> lr ws -> 0 <= A < n ->
  VerifyWithAccLength H st a ws h A = (a', Ok tt) ->
  inv st n a' /\ (exists x, 0 <= x < n /\ (h = e x \/ collides H)) /\
  (0 <= GetHeightFromWitness ws A -> GetHeightFromWitness ws A < n /\ (h = e (GetHeightFromWitness ws A) \/ collides H)).
Proof using HD He.
  intros st n a ws h A a' Hn HI Hh HL HA HV. pose proof HI as (I1 & IL & _). unfold VerifyWithAccLength in HV. rewrite IL in HV.
  replace (n =? A) with false in HV by lia. set (ht := GetHeightFromWitness ws A) in *.
  destruct (Z.leb_spec n ht); [discriminate|]. replace (A <? n) with true in HV by lia.
  destruct (WitnessFor_inv st n a ht Hn HI ltac:(lia) ltac:(lia)) as (k & a1 & S1 & E1 & I2). rewrite E1 in HV. cbn [rbind] in HV.
  destruct (Nat.le_gt_cases (length ws) k) as [HLk|HLk]; [|rewrite overwrite_long in HV by (rewrite wit_length; lia); discriminate].
  rewrite overwrite_spec in HV by (rewrite wit_length; assumption). cbn [rbind] in HV.
  assert (a' = a1) by congruence. subst a1. assert (HV' : Verify H a' (ws ++ skipn (length ws) (wit k (Z.max 0 ht))) h = Ok tt) by congruence. clear HV.
  split; [assumption|]. destruct (Verify_sound st n a' _ h I2 Hh HV') as (V1 & V2 & V3).
  split; [eauto|]. intros HG0. split; [lia|].
  replace (Z.max 0 ht) with ht in * by lia.
  assert (Hk : (k < 62)%nat) by (eapply in_slot_62; [|exact S1]; lia).
  assert (LW : length (ws ++ skipn (length ws) (wit k ht)) = k) by (rewrite app_length, skipn_length, wit_length; lia).
  rewrite LW in *.
  match type of V3 with h = e ?x \/ _ => replace ht with x; [assumption|] end.
  unfold turns. rewrite map_app. fold (turns ws). fold (turns (skipn (length ws) (wit k ht))).
  rewrite path_position_app, turns_length.
  pose proof (height_low ws A (length ws) ltac:(lia) ltac:(lia) HL (le_n _)) as HLow. rewrite firstn_all in HLow. fold ht in HLow.
  pose proof (turns_wit k ht) as HT. rewrite <- (firstn_skipn (length ws) (wit k ht)) in HT.
  unfold turns in HT. rewrite map_app in HT. fold (turns (firstn (length ws) (wit k ht))) in HT. fold (turns (skipn (length ws) (wit k ht))) in HT.
  rewrite path_position_app, turns_length, firstn_length_le, wit_firstn, turns_wit in HT by (rewrite ?wit_length; lia).
  rewrite HLow in HT. rewrite HT. apply in_slot_alt in S1. destruct S1 as [_ S1].
  pose proof (Z.div_mod ht (2 ^ Z.of_nat k) ltac:(pose proof (pow2_pos k); lia)). nia.
Qed.

(** ** old accumulator, newer witness *)
Lemma old_depth_spec : forall n x i, (i <= 62)%nat -> 0 <= n < 2 ^ 62 ->
  (n / 2 ^ Z.of_nat (S i)) * 2 ^ Z.of_nat (S i) <= x < n ->
  let d := old_depth_loop i (x - (n / 2 ^ Z.of_nat (S i)) * 2 ^ Z.of_nat (S i)) in
  (d <= i)%nat /\ (Z.odd (n / 2 ^ Z.of_nat d) = true -> in_slot n x d).
Proof using.
  intros n x i. induction i as [|i IH]; intros Hi Hn Hx.
  - cbn [old_depth_loop]. cbv zeta. split; [lia|]. intros HO. apply in_slot_intro; [assumption|].
    rewrite div_S, pow_S in Hx. change (2 ^ Z.of_nat 0) with 1 in *. rewrite Z.div_1_r in *. apply odd_half in HO. rewrite ?Z.div_1_r in *. lia.
  - cbn [old_depth_loop]. rewrite shl_small by lia. rewrite (div_S n (S i)), (pow_S (S i)) in *.
    pose proof (pow2_pos (S i)) as HP. pose proof (pow2_le62 (S i) ltac:(lia)). set (P := 2 ^ Z.of_nat (S i)) in *.
    pose proof (Z.mul_div_le n P HP). pose proof (Z.mul_succ_div_gt n P HP).
    destruct (Z.ltb_spec (x - n / P / 2 * (2 * P)) P).
    + cbv zeta. split; [lia|]. fold P. intros HO. apply in_slot_intro; fold P; [assumption|]. pose proof (odd_half _ HO).
      symmetry. apply Z.div_unique with (x - n / P / 2 * (2 * P)); [left; nia|nia].
    + destruct (Z.odd (n / P)) eqn:EO; [|exfalso; pose proof (even_half _ EO); nia].
      pose proof (odd_half _ EO). assert (0 <= n / P / 2 * (2 * P)) by (apply Z.mul_nonneg_nonneg; [apply Z.div_pos; [apply Z.div_pos; lia|lia]|lia]). rewrite i64_small by lia.
      replace (x - n / P / 2 * (2 * P) - P) with (x - n / P * P) by nia.
      destruct (IH ltac:(lia) Hn ltac:(nia)) as [D1 D2]. cbv zeta. split; [lia|]. exact D2.
Qed.

Lemma old_depth_neg : forall i x, (i <= 62)%nat -> x < 0 -> old_depth_loop i x = i.
Proof. intros [|i] x Hi Hx; [reflexivity|]. cbn [old_depth_loop]. rewrite shl_small by lia. pose proof (pow2_pos (S i)). replace (x <? 2 ^ Z.of_nat (S i)) with true by lia. reflexivity. Qed.

Lemma inv_len_62 : forall st n a, n < 2 ^ 62 -> inv st n a -> (length (a_roots a) <= 62)%nat.
Proof using. intros st n a Hn (I1 & I2 & I3). eapply slots_count; [|exact I3]. change (Z.of_nat 62) with 62. lia. Qed.

Lemma VerifyNewer_sound : forall st n a ws h A a', 0 < n -> inv st n a -> length h = 32%nat -> lr ws ->
  (length ws <= 62)%nat -> n < A < 2 ^ 62 ->
  VerifyWithAccLength H st a ws h A = (a', Ok tt) ->
  a' = a /\ (exists x, 0 <= x < n /\ (h = e x \/ collides H)) /\
  (0 <= GetHeightFromWitness ws A -> GetHeightFromWitness ws A < n /\ (h = e (GetHeightFromWitness ws A) \/ collides H)).
Proof using HD He.
  intros st n a ws h A a' Hn HI Hh HL HW HA HV. pose proof (inv_len_62 st n a ltac:(lia) HI) as HRL. pose proof HI as (I1 & IL & I3). unfold VerifyWithAccLength in HV. rewrite IL in HV.
  replace (n =? A) with false in HV by lia. set (ht := GetHeightFromWitness ws A) in *.
  destruct (Z.leb_spec n ht); [discriminate|]. replace (A <? n) with false in HV by lia.
  assert (a' = a) by congruence. subst a'. split; [reflexivity|].
  set (R := length (a_roots a)) in *. pose proof (slots_bound _ _ _ _ I1 I3) as HB. fold R in HB.
  set (d := old_depth_loop (R - 1) ht) in *. assert (HV' : rbind (cut ws d) (fun ws' => Verify H a ws' h) = Ok tt) by congruence. clear HV.
  unfold cut in HV'. destruct (Nat.leb_spec d (length ws)) as [Hd|]; [|discriminate]. cbn [rbind] in HV'.
  destruct (Verify_sound st n a _ h HI Hh HV') as (V1 & V2 & V3). rewrite firstn_length_le in * by assumption.
  split; [eauto|]. intros HG0. split; [lia|].
  assert (HR : (R <> 0)%nat) by (intros E; rewrite E in HB; cbn in HB; lia).
  pose proof (old_depth_spec n ht (R - 1) ltac:(lia) ltac:(lia)) as HO. cbv zeta in HO.
  replace (S (R - 1)) with R in HO by lia. rewrite (Z.div_small n) in HO by lia. replace (ht - 0 * _) with ht in HO by lia. fold d in HO.
  destruct (HO ltac:(lia)) as [_ HO']. pose proof V1 as VS. apply in_slot_alt in V1. destruct V1 as [V1 V1'].
  specialize (HO' V1). apply in_slot_alt in HO'. destruct HO' as [_ HQ].
  match type of V3 with h = e ?x \/ _ => replace ht with x; [assumption|] end.
  rewrite <- (height_low ws A d) by (assumption || lia). fold ht. rewrite <- HQ.
  pose proof (Z.div_mod ht (2 ^ Z.of_nat d) ltac:(pose proof (pow2_pos d); lia)). lia.
Qed.

(** Completeness when no empty slot lies between the top and the slot of [x]. *)
Lemma old_depth_full : forall n x i k, (i <= 62)%nat -> 0 <= n < 2 ^ 62 -> in_slot n x k -> (k <= i)%nat ->
  (forall j, (k < j <= i)%nat -> Z.odd (n / 2 ^ Z.of_nat j) = true) ->
  (n / 2 ^ Z.of_nat (S i)) * 2 ^ Z.of_nat (S i) <= x < n ->
  old_depth_loop i (x - (n / 2 ^ Z.of_nat (S i)) * 2 ^ Z.of_nat (S i)) = k.
Proof using.
  intros n x i. induction i as [|i IH]; intros k Hi Hn HS Hk HF Hx; [cbn; lia|].
  cbn [old_depth_loop]. rewrite shl_small by lia. pose proof HS as HS'. apply in_slot_alt in HS'. destruct HS' as [O1 E1].
  rewrite (div_S n (S i)), (pow_S (S i)) in *.
  pose proof (pow2_pos (S i)) as HP. pose proof (pow2_le62 (S i) ltac:(lia)). 
  destruct (Nat.eq_dec k (S i)) as [->|Hne].
  - set (P := 2 ^ Z.of_nat (S i)) in *. pose proof (odd_half _ O1).
    pose proof (Z.mul_div_le x P HP). pose proof (Z.mul_succ_div_gt x P HP).
    replace (x - n / P / 2 * (2 * P) <? P) with true by nia. reflexivity.
  - set (P := 2 ^ Z.of_nat (S i)) in *. pose proof (HF (S i) ltac:(lia)) as O2. fold P in O2. pose proof (odd_half _ O2).
    pose proof (Z.mul_div_le n P HP). pose proof (Z.mul_succ_div_gt n P HP).
    destruct (Z.ltb_spec (x - n / P / 2 * (2 * P)) P) as [HL|HL].
    + exfalso. apply Hne. apply (in_slot_unique n x k (S i)); [lia|assumption|]. apply in_slot_intro; fold P; [assumption|].
      symmetry. apply Z.div_unique with (x - n / P / 2 * (2 * P)); [left; nia|nia].
    + assert (0 <= n / P / 2 * (2 * P)) by (apply Z.mul_nonneg_nonneg; [apply Z.div_pos; [apply Z.div_pos; lia|lia]|lia]). rewrite i64_small by lia. replace (x - n / P / 2 * (2 * P) - P) with (x - n / P * P) by nia.
      apply IH; [lia|assumption|assumption|lia| |fold P; nia]. intros j Hj. apply HF. lia.
Qed.

Lemma VerifyNewer_complete : forall st n a x A k kA, inv st n a -> 0 <= x < n -> n < A < 2 ^ 62 ->
  in_slot n x k -> in_slot A x kA -> (forall j, (k < j < length (a_roots a))%nat -> Z.odd (n / 2 ^ Z.of_nat j) = true) ->
  VerifyWithAccLength H st a (wit kA x) (e x) A = (a, Ok tt).
Proof using HD He.
  intros st n a x A k kA HI Hx HA S1 S2 HF. pose proof HI as (I1 & IL & I3). unfold VerifyWithAccLength. rewrite IL.
  replace (n =? A) with false by lia. rewrite (GetHeight_wit A x kA) by (assumption || lia).
  replace (n <=? x) with false by lia. replace (A <? n) with false by lia. f_equal.
  pose proof (inv_len_62 st n a ltac:(lia) HI) as HRL. pose proof (slots_bound _ _ _ _ I1 I3) as HB.
  set (R := length (a_roots a)) in *. assert (HR : (R <> 0)%nat) by (intros E; rewrite E in HB; cbn in HB; lia).
  assert (HkR : (k < R)%nat).
  { pose proof (root_of_slot st n a k HI) as HX. apply in_slot_alt in S1. destruct S1 as [S1 _].
    destruct (nth_error (a_roots a) k) eqn:EN; [|congruence]. apply nth_error_Some. congruence. }
  pose proof (old_depth_full n x (R - 1) k ltac:(lia) ltac:(lia) S1 ltac:(lia)) as HO.
  replace (S (R - 1)) with R in HO by lia. rewrite (Z.div_small n) in HO by lia. replace (x - 0 * _) with x in HO by lia.
  rewrite HO by (try (intros; apply HF); lia). unfold cut. rewrite wit_length.
  pose proof (in_slot_mono n A x k kA ltac:(lia) S1 S2). destruct (Nat.leb_spec k kA); [|lia]. cbn [rbind].
  rewrite wit_firstn by assumption. eapply Verify_wit; eauto.
Qed.
End Wit.
