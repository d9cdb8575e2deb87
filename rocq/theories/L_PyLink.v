(** Lemmas about floats and turns. *)
From Coq Require Import String Ascii ZArith List Bool Lia.
From Coq Require Import ZifyBool.
From Verif Require Import Base L_Base M_JMap L_JMap M_PyBmc L_PyBmc M_PyLink S_PyLink.
Import ListNotations.
Open Scope Z_scope.
Local Notation bytes := (list Z).

(** * Floats *)
Lemma nearest_error : forall n d, 0 < d -> 2 * Z.abs (nearest n d * d - n) <= d.
Proof.
  intros n d D. unfold nearest. pose proof (Z.div_mod n d ltac:(lia)) as E. pose proof (Z.mod_pos_bound n d D) as B.
  destruct (2 * (n mod d) <? d) eqn:C1; [nia|]. destruct (2 * (n mod d) =? d) eqn:C2; [destruct (Z.even (n / d)); nia|]. nia.
Qed.
Lemma nearest_le : forall n d k, 0 < d -> n <= k * d -> nearest n d <= k.
Proof. intros n d k D H. pose proof (nearest_error n d D). nia. Qed.
Lemma nearest_ge : forall n d k, 0 < d -> k * d <= n -> k <= nearest n d.
Proof. intros n d k D H. pose proof (nearest_error n d D). nia. Qed.
Lemma pow_max : forall e, 0 < 2 ^ Z.max 0 e.
Proof. intros e. apply Z.pow_pos_nonneg; lia. Qed.
Lemma pow_split : forall x y z, 0 <= x -> 0 <= y -> z = x + y -> 2 ^ z = 2 ^ x * 2 ^ y.
Proof. intros x y z X Y ->. apply Z.pow_add_r; assumption. Qed.
Lemma exponent_first : forall a b, 0 < a -> 0 < b -> let e := Z.log2 a - Z.log2 b - 53 in
  2 ^ 52 * (b * 2 ^ Z.max 0 e) <= a * 2 ^ Z.max 0 (- e) /\ a * 2 ^ Z.max 0 (- e) < 2 ^ 54 * (b * 2 ^ Z.max 0 e).
Proof.
  intros a b A B e. pose proof (Z.log2_spec a A) as LA. pose proof (Z.log2_spec b B) as LB. pose proof (Z.log2_nonneg a) as NA. pose proof (Z.log2_nonneg b) as NB.
  set (la := Z.log2 a) in *. set (lb := Z.log2 b) in *. replace (Z.succ la) with (la + 1) in LA by lia. replace (Z.succ lb) with (lb + 1) in LB by lia.
  destruct (Z_le_dec 0 e) as [E|E].
  - rewrite (Z.max_r 0 e), (Z.max_l 0 (- e)) by lia. rewrite Z.pow_0_r, Z.mul_1_r. assert (P : 0 < 2 ^ e) by (apply Z.pow_pos_nonneg; lia).
    assert (X : 2 ^ la = 2 ^ 52 * (2 ^ (lb + 1) * 2 ^ e)) by (rewrite <- (Z.pow_add_r 2 (lb + 1) e) by lia; apply pow_split; lia).
    assert (Y : 2 ^ (la + 1) = 2 ^ 54 * (2 ^ lb * 2 ^ e)) by (rewrite <- (Z.pow_add_r 2 lb e) by lia; apply pow_split; lia).
    assert (U : b * 2 ^ e <= 2 ^ (lb + 1) * 2 ^ e) by (apply Z.mul_le_mono_nonneg_r; lia). assert (V : 2 ^ lb * 2 ^ e <= b * 2 ^ e) by (apply Z.mul_le_mono_nonneg_r; lia). lia.
  - rewrite (Z.max_l 0 e), (Z.max_r 0 (- e)) by lia. rewrite Z.pow_0_r, Z.mul_1_r. assert (P : 0 < 2 ^ (- e)) by (apply Z.pow_pos_nonneg; lia).
    assert (X : 2 ^ la * 2 ^ (- e) = 2 ^ 52 * 2 ^ (lb + 1)) by (rewrite <- !Z.pow_add_r by lia; f_equal; lia).
    assert (Y : 2 ^ (la + 1) * 2 ^ (- e) = 2 ^ 54 * 2 ^ lb) by (rewrite <- !Z.pow_add_r by lia; f_equal; lia).
    assert (U : 2 ^ la * 2 ^ (- e) <= a * 2 ^ (- e)) by (apply Z.mul_le_mono_nonneg_r; lia). assert (V : a * 2 ^ (- e) < 2 ^ (la + 1) * 2 ^ (- e)) by (apply Z.mul_lt_mono_pos_r; lia). lia.
Qed.
Lemma exponent_spec : forall a b, 0 < a -> 0 < b -> let e := exponent a b in
  2 ^ 52 * (b * 2 ^ Z.max 0 e) <= a * 2 ^ Z.max 0 (- e) < 2 ^ 53 * (b * 2 ^ Z.max 0 e).
Proof.
  intros a b A B. pose proof (exponent_first a b A B) as F. unfold exponent, scaled. set (e := Z.log2 a - Z.log2 b - 53) in *. cbv zeta in F |- *.
  destruct (a * 2 ^ Z.max 0 (- e) <? 2 ^ 53 * (b * 2 ^ Z.max 0 e)) eqn:C; [lia|]. destruct (Z_le_dec 0 e) as [E|E].
  - rewrite (Z.max_l 0 (- e)) in * by lia. rewrite (Z.max_r 0 e) in * by lia. rewrite (Z.max_l 0 (- (e + 1))), (Z.max_r 0 (e + 1)) by lia. rewrite (pow_split e 1 (e + 1)) by lia. set (p := 2 ^ e) in *. change (2 ^ 1) with 2. lia.
  - rewrite (Z.max_r 0 (- e)) in * by lia. rewrite (Z.max_l 0 e) in * by lia. rewrite (Z.max_r 0 (- (e + 1))), (Z.max_l 0 (e + 1)) by lia. rewrite (pow_split (- (e + 1)) 1 (- e)) in * by lia. set (p := 2 ^ (- (e + 1))) in *. change (2 ^ 1) with 2 in *. lia.
Qed.
Lemma f_den_pos : forall x, 0 < f_den x.
Proof. intros x. apply pow_max. Qed.
(** The error of a division is at most its 2^53-th part. *)
Lemma f_pos_error : forall a b, 0 < a -> 0 < b -> let x := f_pos a b in Z.abs (f_num x * b - a * f_den x) * 2 ^ 53 <= a * f_den x.
Proof.
  intros a b A B x. pose proof (exponent_spec a b A B) as E. subst x. unfold f_pos, scaled. set (e := exponent a b) in *. cbv zeta in E. unfold f_num, f_den. cbn [f_m f_e].
  set (p := 2 ^ Z.max 0 e) in *. set (q := 2 ^ Z.max 0 (- e)) in *. assert (D : 0 < b * p) by (apply Z.mul_pos_pos; [exact B|apply pow_max]). pose proof (nearest_error (a * q) (b * p) D) as N.
  replace (nearest (a * q) (b * p) * p * b - a * q) with (nearest (a * q) (b * p) * (b * p) - a * q) by ring. lia.
Qed.
Lemma f_pos_pos : forall a b, 0 < a -> 0 < b -> 0 < f_num (f_pos a b).
Proof.
  intros a b A B. pose proof (f_pos_error a b A B) as E. cbv zeta in E. pose proof (f_den_pos (f_pos a b)) as D. set (x := f_num (f_pos a b)) in *. set (y := f_den (f_pos a b)) in *.
  destruct (Z_lt_dec 0 x) as [P|P]; [exact P|exfalso]. assert (X : x * b <= 0) by nia. assert (Y : 0 < a * y) by (apply Z.mul_pos_pos; assumption). lia.
Qed.
(** Below 2^53 rounding does not cross integers. *)
Lemma f_pos_up : forall a b c, 0 < a < 2 ^ 53 -> 0 < b -> a <= c * b -> f_num (f_pos a b) <= c * f_den (f_pos a b).
Proof.
  intros a b c A B H. pose proof (exponent_spec a b (proj1 A) B) as E. unfold f_pos, scaled. set (e := exponent a b) in *. cbv zeta in E. unfold f_num, f_den. cbn [f_m f_e].
  destruct (Z_le_dec e 0) as [L|L].
  - rewrite (Z.max_l 0 e) in * by lia. rewrite Z.pow_0_r in *. rewrite !Z.mul_1_r in *. apply nearest_le; [exact B|]. set (q := 2 ^ Z.max 0 (- e)) in *. assert (0 < q) by apply pow_max. nia.
  - exfalso. rewrite (Z.max_l 0 (- e)) in E by lia. rewrite (Z.max_r 0 e) in E by lia. rewrite (pow_split 1 (e - 1) e) in E by lia. assert (P : 0 < 2 ^ (e - 1)) by (apply Z.pow_pos_nonneg; lia). rewrite Z.pow_0_r in E. change (2 ^ 1) with 2 in E. nia.
Qed.
Lemma f_pos_down : forall a b c, 0 < a < 2 ^ 53 -> 0 < b -> c * b <= a -> c * f_den (f_pos a b) <= f_num (f_pos a b).
Proof.
  intros a b c A B H. pose proof (exponent_spec a b (proj1 A) B) as E. unfold f_pos, scaled. set (e := exponent a b) in *. cbv zeta in E. unfold f_num, f_den. cbn [f_m f_e].
  destruct (Z_le_dec e 0) as [L|L].
  - rewrite (Z.max_l 0 e) in * by lia. rewrite Z.pow_0_r in *. rewrite !Z.mul_1_r in *. apply nearest_ge; [exact B|]. set (q := 2 ^ Z.max 0 (- e)) in *. assert (0 < q) by apply pow_max. nia.
  - exfalso. rewrite (Z.max_l 0 (- e)) in E by lia. rewrite (Z.max_r 0 e) in E by lia. rewrite (pow_split 1 (e - 1) e) in E by lia. assert (P : 0 < 2 ^ (e - 1)) by (apply Z.pow_pos_nonneg; lia). rewrite Z.pow_0_r in E. change (2 ^ 1) with 2 in E. nia.
Qed.
Lemma f_pos_above : forall a b c, 0 < a < 2 ^ 53 -> 0 < b -> c * b < a -> c * f_den (f_pos a b) < f_num (f_pos a b).
Proof.
  intros a b c A B H. pose proof (f_pos_error a b (proj1 A) B) as E. cbv zeta in E. pose proof (f_den_pos (f_pos a b)) as D. set (x := f_num (f_pos a b)) in *. set (y := f_den (f_pos a b)) in *.
  assert (U : a * y < 2 ^ 53 * y) by (apply Z.mul_lt_mono_pos_r; lia). assert (V : (c * b + 1) * y <= a * y) by (apply Z.mul_le_mono_nonneg_r; lia).
  assert (W : a * y - x * b < y) by (clear V; set (w := a * y) in *; set (v := x * b) in *; lia). assert (X : c * b * y < x * b) by lia. nia.
Qed.
Lemma f_pos_below : forall a b c, 0 < a < 2 ^ 53 -> 0 < b -> a < c * b -> f_num (f_pos a b) < c * f_den (f_pos a b).
Proof.
  intros a b c A B H. pose proof (f_pos_error a b (proj1 A) B) as E. cbv zeta in E. pose proof (f_den_pos (f_pos a b)) as D. set (x := f_num (f_pos a b)) in *. set (y := f_den (f_pos a b)) in *.
  assert (U : a * y < 2 ^ 53 * y) by (apply Z.mul_lt_mono_pos_r; lia). assert (V : a * y <= (c * b - 1) * y) by (apply Z.mul_le_mono_nonneg_r; lia).
  assert (W : x * b - a * y < y) by (clear V; set (w := a * y) in *; set (v := x * b) in *; lia). assert (X : x * b < c * b * y) by lia. nia.
Qed.
Lemma up_unique : forall a b c d, 0 < b -> rounded_up a b c -> rounded_up a b d -> c = d.
Proof. unfold rounded_up. intros a b c d B H K. nia. Qed.
Lemma f_ceil_up : forall x, rounded_up (f_num x) (f_den x) (f_ceil x).
Proof.
  intros x. unfold rounded_up, f_ceil. pose proof (f_den_pos x) as D. pose proof (Z.div_mod (- f_num x) (f_den x) ltac:(lia)) as E. pose proof (Z.mod_pos_bound (- f_num x) (f_den x) D) as M. nia.
Qed.
Lemma up_exists : forall a b, 0 < b -> rounded_up a b (- ((- a) / b)).
Proof. intros a b B. unfold rounded_up. pose proof (Z.div_mod (- a) b ltac:(lia)) as E. pose proof (Z.mod_pos_bound (- a) b B) as M. nia. Qed.
Lemma f_num_neg : forall m e, f_num (Fl (- m) e) = - f_num (Fl m e).
Proof. intros m e. unfold f_num. cbn [f_m f_e]. ring. Qed.
(** ceil of a division of integers below 2^53 is exact. *)
Lemma ceil_exact : forall a b, Z.abs a < 2 ^ 53 -> 0 < b -> rounded_up a b (f_ceil (int_div a b)).
Proof.
  intros a b A B. assert (U : rounded_up (f_num (int_div a b)) (f_den (int_div a b)) (- ((- a) / b))).
  { pose proof (up_exists a b B) as (L & H). set (c := - ((- a) / b)) in *. unfold int_div. destruct (a =? 0) eqn:Z0.
    - unfold rounded_up. cbn [f_num f_den f_m f_e]. change (f_num (Fl 0 0)) with 0. change (f_den (Fl 0 0)) with 1. nia.
    - destruct (0 <? a) eqn:P.
      + split; [apply f_pos_above; lia|apply f_pos_up; lia].
      + set (x := f_pos (- a) b). change (f_den (Fl (- f_m x) (f_e x))) with (f_den x). rewrite f_num_neg. change (f_num (Fl (f_m x) (f_e x))) with (f_num x).
        assert (X : (- c) * f_den x <= f_num x) by (apply f_pos_down; lia). assert (Y : f_num x < (- (c - 1)) * f_den x) by (apply f_pos_below; lia). unfold rounded_up. lia. }
  rewrite (up_unique _ _ _ _ (f_den_pos _) (f_ceil_up (int_div a b)) U). apply up_exists, B.
Qed.
Lemma ceil_sign : forall a b, 0 < b -> a <= 0 -> f_ceil (int_div a b) <= 0.
Proof.
  intros a b B A. pose proof (f_ceil_up (int_div a b)) as (L & _). pose proof (f_den_pos (int_div a b)) as D. assert (N : f_num (int_div a b) <= 0).
  { unfold int_div. destruct (a =? 0) eqn:Z0; [change (f_num (Fl 0 0)) with 0; lia|]. replace (0 <? a) with false by lia. cbv zeta. rewrite f_num_neg. pose proof (f_pos_pos (- a) b ltac:(lia) B) as P. destruct (f_pos (- a) b) as [mm ee]. cbn [f_m f_e]. lia. }
  nia.
Qed.
Lemma int_div_pos : forall a b, 0 < a -> int_div a b = f_pos a b.
Proof. intros a b A. unfold int_div. replace (a =? 0) with false by lia. replace (0 <? a) with true by lia. reflexivity. Qed.
Lemma int_exact : forall a, 0 < a < 2 ^ 53 -> f_num (int_div a 1) = a * f_den (int_div a 1).
Proof.
  intros a A. rewrite int_div_pos by lia. pose proof (f_pos_up a 1 a A ltac:(lia) ltac:(lia)). pose proof (f_pos_down a 1 a A ltac:(lia) ltac:(lia)). lia.
Qed.
(** The error of agg / (src / dst) *)
Lemma term_error : forall src dst agg, 0 < src -> 0 < dst -> 0 < agg < 2 ^ 53 -> let t := fl_div agg (int_div src dst) in
  f_num t * src * (2 ^ 53 - 1) <= agg * dst * f_den t * (2 ^ 53 + 1) /\ agg * dst * f_den t * (2 ^ 53 - 1) <= f_num t * src * (2 ^ 53 + 1).
Proof.
  intros src dst agg S D A t. subst t. unfold fl_div. pose proof (int_exact agg A) as Y. set (y := int_div agg 1) in *. pose proof (f_den_pos y) as DY. rewrite (int_div_pos src dst) by exact S.
  pose proof (f_pos_error src dst S D) as E1. cbv zeta in E1. pose proof (f_pos_pos src dst S D) as PS. set (s := f_pos src dst) in *. pose proof (f_den_pos s) as DS.
  assert (N : 0 < f_num y * f_den s) by (rewrite Y; apply Z.mul_pos_pos; [apply Z.mul_pos_pos; lia|exact DS]). assert (M : 0 < f_den y * f_num s) by (apply Z.mul_pos_pos; assumption). cbv zeta. rewrite int_div_pos by exact N.
  pose proof (f_pos_error _ _ N M) as E2. cbv zeta in E2. pose proof (f_pos_pos _ _ N M) as PT. rewrite Y in *. set (t := f_pos (agg * f_den y * f_den s) (f_den y * f_num s)) in *. pose proof (f_den_pos t) as DT.
  set (Nt := f_num t) in *. set (Dt := f_den t) in *. set (Ns := f_num s) in *. set (Ds := f_den s) in *. set (Dy := f_den y) in *. clearbody Nt Dt Ns Ds Dy. clear s t y Y N M.
  assert (E3 : Z.abs (Nt * Ns - agg * Ds * Dt) * 2 ^ 53 <= agg * Ds * Dt).
  { replace (Nt * (Dy * Ns) - agg * Dy * Ds * Dt) with (Dy * (Nt * Ns - agg * Ds * Dt)) in E2 by ring. rewrite Z.abs_mul, (Z.abs_eq Dy) in E2 by lia. replace (agg * Dy * Ds * Dt) with (Dy * (agg * Ds * Dt)) in E2 by ring. rewrite <- Z.mul_assoc in E2. apply Z.mul_le_mono_pos_l in E2; [exact E2|exact DY]. }
  assert (A1 : Ns * dst * 2 ^ 53 <= src * Ds * (2 ^ 53 + 1)) by (set (u := Ns * dst) in *; set (v := src * Ds) in *; lia).
  assert (A2 : src * Ds * (2 ^ 53 - 1) <= Ns * dst * 2 ^ 53) by (set (u := Ns * dst) in *; set (v := src * Ds) in *; lia).
  assert (B1 : Nt * Ns * 2 ^ 53 <= agg * Ds * Dt * (2 ^ 53 + 1)) by (set (u := Nt * Ns) in *; set (v := agg * Ds * Dt) in *; lia).
  assert (B2 : agg * Ds * Dt * (2 ^ 53 - 1) <= Nt * Ns * 2 ^ 53) by (set (u := Nt * Ns) in *; set (v := agg * Ds * Dt) in *; lia).
  split; apply (Z.mul_le_mono_pos_l _ _ (Ds * 2 ^ 53)); try (apply Z.mul_pos_pos; [exact DS|lia]).
  - apply (Z.le_trans _ (Nt * (Ns * dst * 2 ^ 53) * 2 ^ 53)).
    + replace (Ds * 2 ^ 53 * (Nt * src * (2 ^ 53 - 1))) with (Nt * (src * Ds * (2 ^ 53 - 1)) * 2 ^ 53) by ring. apply Z.mul_le_mono_nonneg_r; [lia|]. apply Z.mul_le_mono_nonneg_l; [lia|exact A2].
    + replace (Nt * (Ns * dst * 2 ^ 53) * 2 ^ 53) with ((Nt * Ns * 2 ^ 53) * (dst * 2 ^ 53)) by ring. replace (Ds * 2 ^ 53 * (agg * dst * Dt * (2 ^ 53 + 1))) with ((agg * Ds * Dt * (2 ^ 53 + 1)) * (dst * 2 ^ 53)) by ring. apply Z.mul_le_mono_nonneg_r; [lia|exact B1].
  - apply (Z.le_trans _ (Nt * (Ns * dst * 2 ^ 53) * 2 ^ 53)).
    + replace (Nt * (Ns * dst * 2 ^ 53) * 2 ^ 53) with ((Nt * Ns * 2 ^ 53) * (dst * 2 ^ 53)) by ring. replace (Ds * 2 ^ 53 * (agg * dst * Dt * (2 ^ 53 - 1))) with ((agg * Ds * Dt * (2 ^ 53 - 1)) * (dst * 2 ^ 53)) by ring. apply Z.mul_le_mono_nonneg_r; [lia|exact B2].
    + replace (Ds * 2 ^ 53 * (Nt * src * (2 ^ 53 + 1))) with (Nt * (src * Ds * (2 ^ 53 + 1)) * 2 ^ 53) by ring. apply Z.mul_le_mono_nonneg_r; [lia|]. apply Z.mul_le_mono_nonneg_l; [lia|exact A1].
Qed.
Lemma term_near : forall src dst agg, 0 < src -> 0 < dst -> 0 < agg -> agg * dst < 2 ^ 51 -> let r := f_ceil (fl_div agg (int_div src dst)) in
  rounded_up (agg * dst) src r \/ ((r - 1) * src = agg * dst).
Proof.
  intros src dst agg S D A Q r. assert (A53 : agg < 2 ^ 53) by nia. pose proof (term_error src dst agg S D (conj A A53)) as (E1 & E2). pose proof (f_ceil_up (fl_div agg (int_div src dst))) as (U1 & U2). fold r in U1, U2.
  set (t := fl_div agg (int_div src dst)) in *. pose proof (f_den_pos t) as DT. set (Nt := f_num t) in *. set (Dt := f_den t) in *. clearbody r Nt Dt. clear t. set (q := agg * dst) in *. assert (QP : 0 < q) by (apply Z.mul_pos_pos; lia). clearbody q.
  unfold rounded_up. destruct (Z.eq_dec ((r - 1) * src) q) as [X|X]; [right; exact X|left].
  assert (M : 0 < Dt * src) by (apply Z.mul_pos_pos; lia).
  assert (L1 : (r - 1) * src < q).
  { destruct (Z_lt_dec ((r - 1) * src) q) as [Y|Y]; [exact Y|exfalso]. assert (Y1 : q + 1 <= (r - 1) * src) by lia.
    assert (V : (r - 1) * Dt + 1 <= Nt) by lia. assert (W : ((r - 1) * Dt + 1) * src * (2 ^ 53 - 1) <= q * Dt * (2 ^ 53 + 1)) by (eapply Z.le_trans; [|exact E1]; apply Z.mul_le_mono_nonneg_r; [lia|]; apply Z.mul_le_mono_nonneg_r; lia).
    assert (W2 : (q + 1) * Dt * (2 ^ 53 - 1) < ((r - 1) * Dt + 1) * src * (2 ^ 53 - 1)) by (apply Z.mul_lt_mono_pos_r; [lia|]; replace (((r - 1) * Dt + 1) * src) with ((r - 1) * src * Dt + src) by ring; assert ((q + 1) * Dt <= (r - 1) * src * Dt) by (apply Z.mul_le_mono_nonneg_r; lia); lia).
    assert (W3 : (q + 1) * (2 ^ 53 - 1) < q * (2 ^ 53 + 1)) by (apply (Z.mul_lt_mono_pos_l Dt); [exact DT|]; lia). lia. }
  split; [exact L1|]. destruct (Z_le_dec q (r * src)) as [Y|Y]; [exact Y|exfalso]. assert (Y1 : r * src + 1 <= q) by lia.
  assert (W : Nt * src * (2 ^ 53 + 1) <= r * Dt * src * (2 ^ 53 + 1)) by (apply Z.mul_le_mono_nonneg_r; [lia|]; apply Z.mul_le_mono_nonneg_r; lia).
  assert (W2 : r * Dt * src * (2 ^ 53 + 1) <= (q - 1) * Dt * (2 ^ 53 + 1)) by (apply Z.mul_le_mono_nonneg_r; [lia|]; replace (r * Dt * src) with (r * src * Dt) by ring; apply Z.mul_le_mono_nonneg_r; lia).
  assert (W3 : q * (2 ^ 53 - 1) <= (q - 1) * (2 ^ 53 + 1)) by (apply (Z.mul_le_mono_pos_l _ _ Dt); [exact DT|]; lia). lia.
Qed.

(** * Turns *)
Lemma nth_exists : forall (l : list bytes) i, 0 <= i < zlen l -> exists a, nth_error l (Z.to_nat i) = Some a.
Proof.
  intros l i H. destruct (nth_error l (Z.to_nat i)) as [a|] eqn:E; [exists a; reflexivity|]. apply nth_error_None in E. unfold zlen in H. lia.
Qed.
Lemma turn_same : forall l, with_turn l (r_idx l) (r_height l) = l.
Proof. intros []. reflexivity. Qed.
Lemma term_with_turn : forall l i h, rotate_term (with_turn l i h) = rotate_term l.
Proof. reflexivity. Qed.
(** Moving on by some turns *)
Lemma rotate_by_spec : forall l count base, pointing l -> 0 < rotate_term l -> exists a, in_turn l (Z.max 0 count) a /\
  rotate_by l count base = Val (a, if 0 <? count then with_turn l ((r_idx l + count) mod zlen (r_relays l)) (base + rotate_term l) else l).
Proof.
  intros l count base P T. unfold pointing in P. assert (N : 0 < zlen (r_relays l)) by lia.
  destruct (nth_exists (r_relays l) ((r_idx l + Z.max 0 count) mod zlen (r_relays l)) (Z.mod_pos_bound _ _ N)) as (a & A). exists a. split; [exact A|]. unfold rotate_by. replace (0 <? rotate_term l) with true by lia. cbn [andb].
  destruct (0 <? count) eqn:C.
  - rewrite (Z.max_r 0 count) in A by lia. destruct (r_idx l + count <? zlen (r_relays l)) eqn:S.
    + rewrite Z.mod_small in * by lia. cbn [bind]. unfold at_index. cbn [with_turn r_relays r_idx]. rewrite A. reflexivity.
    + replace (zlen (r_relays l) =? 0) with false by lia. cbn [bind]. unfold at_index. cbn [with_turn r_relays r_idx]. rewrite A. reflexivity.
  - rewrite (Z.max_l 0 count) in A by lia. rewrite Z.add_0_r, Z.mod_small in A by lia. cbn [bind]. unfold at_index. rewrite A. reflexivity.
Qed.
Lemma scale_term : forall l, 0 < rotate_term l -> exists x, scale l = Some x.
Proof. intros l T. unfold rotate_term in T. destruct (scale l) as [x|]; [exists x; reflexivity|lia]. Qed.
Lemma turns_unique : forall l t h k j, 0 < t -> turns l t h k -> turns l t h j -> k = j.
Proof. unfold turns. intros l t h k j T H K. nia. Qed.
Lemma turns_exists : forall l t h, 0 < t -> h - r_height l < 2 ^ 53 -> turns l t h (Z.max 0 (f_ceil (int_div (h - r_height l) t))).
Proof.
  intros l t h T B. unfold turns. destruct (Z_le_dec h (r_height l)) as [L|L].
  - pose proof (ceil_sign (h - r_height l) t T ltac:(lia)). left. lia.
  - pose proof (ceil_exact (h - r_height l) t ltac:(lia) T) as (U & V). set (c := f_ceil (int_div (h - r_height l) t)) in *. clearbody c. assert (0 < c) by nia. rewrite Z.max_r by lia. right. lia.
Qed.
(** Without messages: the turn of the height *)
Lemma rotate_plain : forall l h mh, pointing l -> 0 < rotate_term l -> h - r_height l < 2 ^ 53 -> exists k a, turns l (rotate_term l) h k /\ in_turn l k a /\
  rotate l h mh false = Val (Some a, with_turn l ((r_idx l + k) mod zlen (r_relays l)) (r_height l + k * rotate_term l)).
Proof.
  intros l h mh P T B. destruct (scale_term l T) as (x & S). pose proof (turns_exists l (rotate_term l) h T B) as TU. set (c := f_ceil (int_div (h - r_height l) (rotate_term l))) in *.
  destruct (rotate_by_spec l c (r_height l + (c - 1) * rotate_term l) P T) as (a & A & E). exists (Z.max 0 c), a. split; [exact TU|]. split; [exact A|].
  unfold rotate. rewrite S. replace (0 <? rotate_term l) with true by lia. fold c. rewrite E. cbn [bind fst snd]. do 2 f_equal. destruct (0 <? c) eqn:C.
  - rewrite Z.max_r by lia. f_equal. ring.
  - rewrite Z.max_l by lia. rewrite Z.add_0_r, Z.mul_0_l, Z.add_0_r. unfold pointing in P. rewrite Z.mod_small by lia. rewrite turn_same. reflexivity.
Qed.
(** With or without messages *)
Lemma rotate_some : forall l h mh b, pointing l -> 0 < rotate_term l -> 0 < r_delay l -> h - r_height l < 2 ^ 53 -> r_height l <= h + rotate_term l -> exists a l', rotate l h mh b = Val (Some a, l') /\ In a (r_relays l) /\
  pointing l' /\ r_relays l' = r_relays l /\ r_height l <= r_height l' <= h + rotate_term l /\
  r_src l' = r_src l /\ r_dst l' = r_dst l /\ r_agg l' = r_agg l /\ r_delay l' = r_delay l /\ r_nterm l' = r_nterm l /\ r_nheight l' = r_nheight l /\ r_nadd l' = r_nadd l /\ r_nremove l' = r_nremove l.
Proof.
  intros l h mh b P T D B R. assert (N : 0 < zlen (r_relays l)) by (unfold pointing in P; lia). destruct b.
  - destruct (scale_term l T) as (x & S). unfold rotate. rewrite S. replace (0 <? rotate_term l) with true by lia. set (g := guess l x h mh). assert (G : g <= h) by (unfold g, guess; destruct (h <? r_rx l + f_ceil (fl_div (mh - r_rxsrc l) x) - 1) eqn:C; lia).
    pose proof (turns_exists l (rotate_term l) g T ltac:(lia)) as TU. set (c := Z.max 0 (f_ceil (int_div (g - r_height l) (rotate_term l)))) in *. set (skip := f_ceil (int_div (h - g) (r_delay l)) - 1).
    assert (PL : pointing (with_rx l h mh)) by exact P. assert (TL : 0 < rotate_term (with_rx l h mh)) by exact T. change (rotate_term l) with (rotate_term (with_rx l h mh)) in *. set (l1 := with_rx l h mh) in *. change (r_height l) with (r_height l1) in *. change (r_relays l) with (r_relays l1) in *. change (r_idx l) with (r_idx l1) in *.
    assert (C0 : 0 <= c) by (unfold c; lia). unfold turns in TU. change (r_height l) with (r_height l1) in TU.
    destruct (0 <? skip) eqn:K.
    + destruct (rotate_by_spec l1 (c + skip) h PL TL) as (a & A & E). rewrite E. cbn [bind fst snd]. eexists. eexists. split; [reflexivity|]. split; [eapply nth_error_In, A|]. replace (0 <? c + skip) with true by lia.
      split; [apply Z.mod_pos_bound; exact N|]. split; [reflexivity|]. split; [cbn [with_turn r_height]; lia|]. repeat split; reflexivity.
    + destruct (rotate_by_spec l1 c (r_height l1 + (c - 1) * rotate_term l1) PL TL) as (a & A & E). rewrite E. cbn [bind fst snd]. eexists. eexists. split; [reflexivity|]. split; [eapply nth_error_In, A|]. destruct (0 <? c) eqn:C.
      * split; [apply Z.mod_pos_bound; exact N|]. split; [reflexivity|]. split; [cbn [with_turn r_height]; nia|]. repeat split; reflexivity.
      * split; [exact PL|]. split; [reflexivity|]. split; [lia|]. repeat split; reflexivity.
  - destruct (rotate_plain l h mh P T B) as (k & a & TU & A & E). rewrite E. eexists. eexists. split; [reflexivity|]. split; [eapply nth_error_In, A|]. split; [apply Z.mod_pos_bound; exact N|]. split; [reflexivity|].
    split; [|repeat split; reflexivity]. cbn [with_turn r_height]. unfold turns in TU. nia.
Qed.
(** What rotating leaves alone, whatever the state *)
Lemma rotate_by_keeps : forall l c b a l', rotate_by l c b = Val (a, l') -> r_relays l' = r_relays l /\ r_src l' = r_src l /\ r_dst l' = r_dst l /\ r_agg l' = r_agg l /\ r_delay l' = r_delay l /\ r_nremove l' = r_nremove l /\
  In a (r_relays l) /\ (0 <= r_idx l -> pointing l').
Proof.
  intros l c b a l' E. unfold rotate_by in E.
  assert (X : forall m, at_index (r_relays m) (r_idx m) = Val a -> In a (r_relays m) /\ (0 <= r_idx m -> pointing m)).
  { intros m Y. unfold at_index in Y. destruct (nth_error (r_relays m) (Z.to_nat (r_idx m))) as [z|] eqn:F; [|discriminate Y]. cbn [need] in Y. injection Y as ->. split; [eapply nth_error_In, F|]. intros P. assert (L : (Z.to_nat (r_idx m) < length (r_relays m))%nat) by (apply nth_error_Some; congruence). unfold pointing, zlen. lia. }
  destruct ((0 <? rotate_term l) && (0 <? c)) eqn:C.
  - apply andb_true_iff in C as (C1 & C2). destruct (r_idx l + c <? zlen (r_relays l)) eqn:S.
    + cbn [bind] in E. destruct (at_index (r_relays (with_turn l (r_idx l + c) (b + rotate_term l))) (r_idx (with_turn l (r_idx l + c) (b + rotate_term l)))) as [z|z] eqn:A; [|discriminate E]. cbn [bind] in E. injection E as -> <-. apply X in A as (I & P). repeat split; try reflexivity; [exact I|..]; apply P; cbn [with_turn r_idx]; lia.
    + destruct (zlen (r_relays l) =? 0) eqn:Z0; [discriminate E|]. cbn [bind] in E. set (m := with_turn l ((r_idx l + c) mod zlen (r_relays l)) (b + rotate_term l)) in *. destruct (at_index (r_relays m) (r_idx m)) as [z|z] eqn:A; [|discriminate E]. cbn [bind] in E. injection E as -> <-. apply X in A as (I & P).
      assert (NN : 0 < zlen (r_relays l)) by (unfold zlen in *; lia). repeat split; try reflexivity; [exact I|..]; apply P; apply Z.mod_pos_bound; exact NN.
  - cbn [bind] in E. destruct (at_index (r_relays l) (r_idx l)) as [z|z] eqn:A; [|discriminate E]. cbn [bind] in E. injection E as -> <-. apply X in A as (I & P). repeat split; try reflexivity; [exact I|..]; apply P; assumption.
Qed.
Lemma rotate_keeps : forall l h mh b o l', rotate l h mh b = Val (o, l') -> r_relays l' = r_relays l /\ r_src l' = r_src l /\ r_dst l' = r_dst l /\ r_agg l' = r_agg l /\ r_delay l' = r_delay l /\ r_nremove l' = r_nremove l /\
  match o with Some a => In a (r_relays l) /\ (0 <= r_idx l -> pointing l') | None => l' = l end.
Proof.
  intros l h mh b o l' E. unfold rotate in E. destruct (scale l) as [x|]; [|injection E as <- <-; repeat split; reflexivity]. destruct (0 <? rotate_term l); [|injection E as <- <-; repeat split; reflexivity].
  assert (X : forall m c ba, bind (rotate_by m c ba) (fun p => Val (Some (fst p), snd p)) = Val (o, l') -> r_relays m = r_relays l -> r_src m = r_src l -> r_dst m = r_dst l -> r_agg m = r_agg l -> r_delay m = r_delay l -> r_nremove m = r_nremove l -> r_idx m = r_idx l ->
    r_relays l' = r_relays l /\ r_src l' = r_src l /\ r_dst l' = r_dst l /\ r_agg l' = r_agg l /\ r_delay l' = r_delay l /\ r_nremove l' = r_nremove l /\ match o with Some a => In a (r_relays l) /\ (0 <= r_idx l -> pointing l') | None => l' = l end).
  { intros m c ba Y M1 M2 M3 M4 M5 M6 M7. destruct (rotate_by m c ba) as [[a l2]|z] eqn:R; [|discriminate Y]. cbn [bind fst snd] in Y. injection Y as <- <-. apply rotate_by_keeps in R as (K1 & K2 & K3 & K4 & K5 & K6 & K7 & K8). rewrite M7 in K8. rewrite M1 in K7. repeat split; try congruence; try (apply K8; assumption). }
  destruct b.
  - cbv zeta in E. destruct (0 <? f_ceil (int_div (h - guess l x h mh) (r_delay l)) - 1); eapply X; try exact E; reflexivity.
  - eapply X; try exact E; reflexivity.
Qed.
(** Rotations at heights that do not go down *)
Lemma turn_turn : forall l i h j k, with_turn (with_turn l i h) j k = with_turn l j k.
Proof. reflexivity. Qed.
Lemma turns_add : forall l t h k i h' j, 0 < t -> h <= h' -> turns l t h k -> turns (with_turn l i (r_height l + k * t)) t h' j -> turns l t h' (k + j).
Proof. unfold turns. cbn [with_turn r_height]. intros l t h k i h' j T L A B. nia. Qed.
Lemma mod_add : forall i k j n, 0 < n -> ((i + k) mod n + j) mod n = (i + (k + j)) mod n.
Proof. intros i k j n N. rewrite Zplus_mod_idemp_l. f_equal. ring. Qed.
Lemma rotate_again : forall l h h' mh a l1, pointing l -> 0 < rotate_term l -> h - r_height l < 2 ^ 53 -> h' - r_height l < 2 ^ 53 -> h <= h' ->
  rotate l h mh false = Val (a, l1) -> rotate l1 h' mh false = rotate l h' mh false /\ pointing l1 /\ rotate_term l1 = rotate_term l /\ r_height l <= r_height l1.
Proof.
  intros l h h' mh a l1 P T B B' L E. destruct (rotate_plain l h mh P T B) as (k & x & TU & A & R). rewrite R in E. injection E as <- <-. assert (N : 0 < zlen (r_relays l)) by (unfold pointing in P; lia).
  set (l1 := with_turn l ((r_idx l + k) mod zlen (r_relays l)) (r_height l + k * rotate_term l)). assert (P1 : pointing l1) by (apply Z.mod_pos_bound; exact N). assert (T1 : 0 < rotate_term l1) by exact T. assert (G : r_height l <= r_height l1) by (cbn [l1 with_turn r_height]; unfold turns in TU; nia).
  split; [|split; [exact P1|split; [reflexivity|exact G]]].
  destruct (rotate_plain l1 h' mh P1 T1 ltac:(lia)) as (j & y & TJ & AJ & RJ). destruct (rotate_plain l h' mh P T B') as (i & z & TI & AI & RI). rewrite RJ, RI.
  assert (X : turns l (rotate_term l) h' (k + j)) by (eapply turns_add; [exact T|exact L|exact TU|exact TJ]). pose proof (turns_unique _ _ _ _ _ T TI X) as ->. unfold in_turn in AJ, AI. cbn [l1 with_turn r_idx r_relays] in AJ. rewrite mod_add in AJ by exact N. rewrite AJ in AI. injection AI as ->.
  unfold l1. change (rotate_term (with_turn l ((r_idx l + k) mod zlen (r_relays l)) (r_height l + k * rotate_term l))) with (rotate_term l). rewrite turn_turn. cbn [with_turn r_idx r_relays r_height]. rewrite mod_add by exact N.
  replace (r_height l + k * rotate_term l + j * rotate_term l) with (r_height l + (k + j) * rotate_term l) by ring. reflexivity.
Qed.
Lemma rotates_raise : forall hs e, fold_left (fun r h => bind r (fun l => bind (rotate l h 0 false) (fun p => Val (snd p)))) hs (Raise e) = Raise e.
Proof. induction hs as [|h hs IH]; intros e; [reflexivity|]. cbn [fold_left bind]. apply IH. Qed.
Lemma rotates_last : forall hs l h last, pointing l -> 0 < rotate_term l -> rising h hs -> Forall (fun x => x - r_height l < 2 ^ 53) (h :: hs) -> List.last (h :: hs) 0 = last ->
  rotates l (h :: hs) = bind (rotate l last 0 false) (fun p => Val (snd p)).
Proof.
  induction hs as [|x hs IH]; intros l h last P T R F LA.
  - cbn [List.last] in LA. subst last. reflexivity.
  - cbn [rising] in R. destruct R as (R1 & R2). inversion F as [|? ? F1 F2]; subst. inversion F2 as [|? ? F3 F4]; subst.
    destruct (rotate_plain l h 0 P T F1) as (k & a & TU & A & E).
    set (l1 := with_turn l ((r_idx l + k) mod zlen (r_relays l)) (r_height l + k * rotate_term l)) in *.
    assert (RA : forall y, h <= y -> y - r_height l < 2 ^ 53 -> rotate l1 y 0 false = rotate l y 0 false /\ pointing l1 /\ rotate_term l1 = rotate_term l /\ r_height l <= r_height l1) by (intros y H1 H2; apply (rotate_again l h y 0 (Some a) l1 P T F1 H2 H1 E)).
    destruct (RA x R1 F3) as (_ & P1 & T1 & G).
    unfold rotates. cbn [fold_left]. cbn [bind]. rewrite E. cbn [bind snd]. change (rotates l1 (x :: hs) = bind (rotate l (List.last (h :: x :: hs) 0) 0 false) (fun p => Val (snd p))).
    rewrite (IH l1 x (List.last (x :: hs) 0) P1 ltac:(lia) R2); [|eapply Forall_impl; [|exact F2]; cbv beta; intros y Y; lia|reflexivity].
    change (List.last (h :: x :: hs) 0) with (List.last (x :: hs) 0).
    assert (In (List.last (x :: hs) 0) (x :: hs)) as IN. { clear. revert x. induction hs as [|y hs IH]; intros x; [left; reflexivity|]. right. change (List.last (x :: y :: hs) 0) with (List.last (y :: hs) 0). apply IH. }
    assert (HL : forall w, rising h w -> forall y, In y w -> h <= y). { clear. intros w. revert h. induction w as [|z w IH]; intros h R y I; [destruct I|]. destruct R as (R1 & R2). destruct I as [->|I]; [exact R1|]. specialize (IH z R2 y I). lia. }
    rewrite Forall_forall in F2. destruct (RA (List.last (x :: hs) 0)) as (RE & _); [apply (HL (x :: hs)); [split; [exact R1|exact R2]|exact IN]|apply F2; exact IN|]. rewrite RE. reflexivity.
Qed.
Lemma rotate_total : forall l h mh b, pointing l -> exists o l', rotate l h mh b = Val (o, l') /\ match o with Some a => In a (r_relays l) | None => True end.
Proof.
  intros l h mh b P. unfold rotate. destruct (scale l) as [x|]; [|eexists; eexists; split; [reflexivity|exact I]]. destruct (0 <? rotate_term l) eqn:T; [|eexists; eexists; split; [reflexivity|exact I]].
  destruct b; cbv zeta.
  - assert (PL : pointing (with_rx l h mh)) by exact P. assert (TL : 0 < rotate_term (with_rx l h mh)) by (change (0 < rotate_term l); lia).
    destruct (0 <? f_ceil (int_div (h - guess l x h mh) (r_delay l)) - 1); [destruct (rotate_by_spec (with_rx l h mh) (Z.max 0 (f_ceil (int_div (guess l x h mh - r_height l) (rotate_term l))) + (f_ceil (int_div (h - guess l x h mh) (r_delay l)) - 1)) h PL TL) as (a & A & ->)
      |destruct (rotate_by_spec (with_rx l h mh) (Z.max 0 (f_ceil (int_div (guess l x h mh - r_height l) (rotate_term l)))) (r_height l + (Z.max 0 (f_ceil (int_div (guess l x h mh - r_height l) (rotate_term l))) - 1) * rotate_term l) PL TL) as (a & A & ->)];
      cbn [bind fst snd]; eexists; eexists; (split; [reflexivity|]); eapply nth_error_In, A.
  - destruct (rotate_by_spec l (f_ceil (int_div (h - r_height l) (rotate_term l))) (r_height l + (f_ceil (int_div (h - r_height l) (rotate_term l)) - 1) * rotate_term l) P ltac:(lia)) as (a & A & ->). cbn [bind fst snd]. eexists. eexists. split; [reflexivity|]. eapply nth_error_In, A.
Qed.
Lemma member_in : forall a l, member a l = true <-> In a l.
Proof. intros a l. unfold member. rewrite existsb_exists. split; [intros (x & I & E); apply bytes_eqb_eq in E; subst x; exact I|intros I; exists a; split; [exact I|apply bytes_eqb_refl]]. Qed.
Lemma grown_refl : forall l, grown l l.
Proof. intros l. exists []. rewrite app_nil_r. reflexivity. Qed.
Lemma grown_trans : forall a b c, grown a b -> grown b c -> grown a c.
Proof. intros a b c (x & X) (y & Y). exists (x ++ y). rewrite Y, X, app_assoc. reflexivity. Qed.
Lemma app_pointing : forall l (x t : list bytes) i, 0 <= i < zlen l -> 0 <= i < zlen (l ++ t).
Proof. intros l x t i H. unfold zlen in *. rewrite app_length. lia. Qed.
(** Each change of one link *)
Definition fine (l l' : rlink) : Prop := in_order l -> in_order l' /\ grown l l'.
Lemma order_keep : forall l l', in_order l -> r_relays l' = r_relays l -> r_idx l' = r_idx l -> r_src l' = r_src l -> 0 < r_agg l' -> 0 < r_delay l' -> r_nremove l' = r_nremove l -> in_order l' /\ grown l l'.
Proof.
  intros l l' (P & A & B & C & D) E1 E2 E3 E4 E5 E6. split; [|exists []; rewrite app_nil_r; exact E1]. split; [unfold pointing in *; rewrite E1, E2; exact P|]. split; [lia|]. split; [exact E4|]. split; [exact E5|]. congruence.
Qed.
Lemma order_grow : forall l l' t, in_order l -> r_relays l' = r_relays l ++ t -> r_idx l' = r_idx l -> r_src l' = r_src l -> r_agg l' = r_agg l -> r_delay l' = r_delay l -> r_nremove l' = [] -> in_order l' /\ grown l l'.
Proof.
  intros l l' t (P & A & B & C & D) E1 E2 E3 E4 E5 E6. split; [|exists t; exact E1]. split; [|split; [lia|split; [lia|split; [lia|exact E6]]]]. unfold pointing in *. rewrite E1, E2. destruct P as [(P1 & P2)|P].
  - rewrite P1, P2. cbn [app]. destruct t as [|y t]; [left; split; reflexivity|right]. rewrite zlen_cons. unfold zlen. lia.
  - right. unfold zlen in *. rewrite app_length. lia.
Qed.
Lemma add_relay_fine : forall l a l', add_relay l a = Val l' -> fine l l'.
Proof.
  intros l a l' E O. unfold add_relay in E. pose proof O as (_ & A & B & C & D). destruct (0 <? r_nterm l).
  - destruct (member a (r_relays l) || member a (r_nadd l)); [discriminate E|]. rewrite D in E. cbn [member existsb] in E. injection E as <-. apply order_keep; cbn; congruence || assumption.
  - destruct (member a (r_relays l)); [discriminate E|]. injection E as <-. apply (order_grow l _ [a]); try reflexivity; assumption.
Qed.
Lemma put_all_grown : forall xs l, exists t, put_all xs l = l ++ t.
Proof.
  induction xs as [|x xs IH]; intros l; cbn [put_all]; [exists []; rewrite app_nil_r; reflexivity|]. destruct (member x l); [apply IH|]. destruct (IH (l ++ [x])) as (t & ->). exists (x :: t). rewrite <- app_assoc. reflexivity.
Qed.
Lemma next_relays_fine : forall l h, fine l (next_relays l h).
Proof.
  intros l h O. unfold next_relays. destruct (r_nheight l <=? h); [|split; [exact O|apply grown_refl]]. pose proof O as (_ & _ & _ & _ & D). rewrite D. cbn [rev take_all]. destruct (put_all_grown (rev (r_nadd l)) (r_relays l)) as (t & E). rewrite E. apply (order_grow l _ t); try reflexivity. exact O.
Qed.
Lemma relay_fine : forall l h mh b o l', may_relay l h mh b o = Val l' -> fine l l'.
Proof.
  intros l h mh b o l' E O. unfold may_relay in E. destruct (rotate l h mh b) as [[w l2]|e] eqn:R; [|discriminate E]. cbn [bind fst snd] in E. apply rotate_keeps in R as (K1 & K2 & K3 & K4 & K5 & K6 & K7). pose proof O as (P & A & B & C & D). destruct w as [x|].
  - destruct (bytes_eqb x o); [|discriminate E]. injection E as <-. destruct K7 as (I & K7). split; [|exists []; rewrite app_nil_r; exact K1]. split; [right; apply K7; unfold pointing in P; lia|]. split; [lia|]. split; [lia|]. split; [lia|]. congruence.
  - subst l2. destruct (existsb (bytes_eqb o) (r_relays l)); [|discriminate E]. injection E as <-. split; [exact O|apply grown_refl].
Qed.
Lemma kget_put_same : forall V k (v : V) l, kget k (kput k v l) = Some v.
Proof. intros. unfold kget, kput. apply aput_same. exact bytes_eqb_eq. Qed.
Lemma kget_put_other : forall V k j (v : V) l, j <> k -> kget j (kput k v l) = kget j l.
Proof. intros. unfold kget, kput. apply aput_other; [exact bytes_eqb_eq|assumption]. Qed.
Definition all_fine (s s' : rbmc) : Prop := forall k l, kget k (m_links s) = Some l -> in_order l -> exists l', kget k (m_links s') = Some l' /\ in_order l' /\ grown l l'.
Lemma fine_refl : forall s, all_fine s s.
Proof. intros s k l E O. exists l. split; [exact E|]. split; [exact O|apply grown_refl]. Qed.
Lemma fine_set : forall s k l l' rs, kget k (m_links s) = Some l -> fine l l' -> all_fine s (RBmc (kput k l' (m_links s)) rs).
Proof.
  intros s k l l' rs E F j x X O. cbn [m_links]. destruct (bytes_eqb j k) eqn:J.
  - apply bytes_eqb_eq in J. subst j. rewrite E in X. injection X as <-. exists l'. rewrite kget_put_same. split; [reflexivity|]. apply F. exact O.
  - exists x. rewrite kget_put_other by (intros ->; rewrite bytes_eqb_refl in J; discriminate J). split; [exact X|]. split; [exact O|apply grown_refl].
Qed.
Lemma fine_step : forall s c, all_fine s (rstep s c).
Proof.
  intros s c. unfold rstep. destruct (rcall_result s c) as [s'|e] eqn:E; [|apply fine_refl]. destruct c as [a|a|o k a|o k a h|k t h|k i g d h x|k h mh b o]; cbn [rcall_result] in E.
  - unfold addRelayer in E. destruct (kget a (m_relayers s)); [discriminate E|]. injection E as <-. intros j lk J O. exists lk. split; [exact J|]. split; [exact O|apply grown_refl].
  - unfold removeRelayer in E. destruct (kget a (m_relayers s)); [|discriminate E]. injection E as <-. intros j lk J O. exists lk. split; [exact J|]. split; [exact O|apply grown_refl].
  - unfold addRelay in E. destruct (kget o (m_relayers s)) as [w|]; [|discriminate E]. destruct (kget k w); [discriminate E|]. unfold m_link in E. destruct (kget k (m_links s)) as [l|] eqn:L; [|discriminate E]. cbn [bind] in E. destruct (add_relay l a) as [l'|] eqn:A; [|discriminate E]. cbn [bind] in E. injection E as <-. eapply fine_set; [exact L|]. eapply add_relay_fine, A.
  - unfold removeRelay in E. destruct (kget o (m_relayers s)); discriminate E.
  - unfold nextRelays, m_link in E. destruct (kget k (m_links s)) as [l|] eqn:L; [|discriminate E]. cbn [bind] in E. injection E as <-. eapply fine_set; [exact L|]. intros O.
    destruct (order_keep l (with_next l t (r_nheight l) (r_nadd l) (r_nremove l)) O) as (O1 & G1); try reflexivity; try (destruct O as (_ & ? & ? & ? & ?); assumption).
    destruct (next_relays_fine _ h O1) as (O2 & G2). split; [exact O2|]. eapply grown_trans; [exact G1|exact G2].
  - unfold setLink, m_link in E. destruct (kget k (m_links s)) as [l|] eqn:L; [|discriminate E]. cbn [bind] in E. destruct ((g <? 1) || (d <? 1)) eqn:GD; [discriminate E|]. apply orb_false_iff in GD as (G & D). injection E as <-. eapply fine_set; [exact L|]. intros O. destruct (_ && _); apply order_keep; try exact O; try reflexivity; cbn; lia.
  - unfold relayMessage, m_link in E. destruct (kget k (m_links s)) as [l|] eqn:L; [|discriminate E]. cbn [bind] in E. destruct (may_relay l h mh b o) as [l'|] eqn:R; [|discriminate E]. cbn [bind] in E. injection E as <-. eapply fine_set; [exact L|]. eapply relay_fine, R.
Qed.
Lemma fine_run : forall cs s, all_fine s (rrun s cs).
Proof.
  induction cs as [|c cs IH]; intros s; [apply fine_refl|]. unfold rrun. cbn [fold_left]. intros k l E O. destruct (fine_step s c k l E O) as (l1 & E1 & O1 & G1). destruct (IH (rstep s c) k l1 E1 O1) as (l2 & E2 & O2 & G2). exists l2. split; [exact E2|]. split; [exact O2|]. eapply grown_trans; eassumption.
Qed.
