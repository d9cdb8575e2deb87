From Coq Require Import ZArith List Bool Lia.
From Coq Require Import ZifyBool.
From Verif Require Import Base L_Base GoStr M_JMap M_Rlp S_Rlp M_Irc31 S_Irc31.
Import ListNotations.
Open Scope Z_scope.
Local Notation bytes := (list Z).

Lemma round_small : forall x, Z.abs x < 2 ^ 53 -> round53 x = x.
Proof.
  intros x H. unfold round53. assert (L : Z.log2 (Z.abs x) <= 52). { destruct (Z.eq_dec x 0) as [->|]; [cbn; lia|]. assert (Z.log2 (Z.abs x) < 53) by (apply Z.log2_lt_pow2; lia). lia. }
  cbv zeta. replace (Z.log2 (Z.abs x) - 52 <=? 0) with true by lia. reflexivity.
Qed.
Lemma div_small : forall x, 0 <= x < 2 ^ 53 -> div256 x = x / 256.
Proof. intros x H. unfold div256. rewrite round_small by lia. apply Z.quot_div_nonneg; lia. Qed.
Lemma round_bound : forall x, Z.abs (round53 x) <= 2 * Z.abs x.
Proof.
  intros x. unfold round53. cbv zeta. set (a := Z.abs x). set (s := Z.log2 a - 52). destruct (Z.leb_spec s 0); [lia|]. assert (P : 0 < 2 ^ s) by (apply Z.pow_pos_nonneg; lia).
  assert (A : 0 < a) by (assert (a <> 0) by (intros E; unfold s in *; rewrite E in *; cbn in *; lia); lia).
  assert (Q : 1 <= a / 2 ^ s). { apply Z.div_le_lower_bound; [exact P|]. assert (2 ^ s <= 2 ^ Z.log2 a) by (apply Z.pow_le_mono_r; lia). pose proof (Z.log2_spec a A). lia. }
  assert (M : a / 2 ^ s * 2 ^ s <= a) by (pose proof (Z.mul_div_le a (2 ^ s) P); lia).
  assert (Sg : Z.abs (Z.sgn x) <= 1) by lia. rewrite Z.abs_mul. set (u := if _ : bool then _ else _). assert (U : 0 <= u <= 2 * (a / 2 ^ s)) by (unfold u; destruct (_ || _); lia). rewrite (Z.abs_eq (u * 2 ^ s)) by nia. nia.
Qed.
Lemma div_bound : forall x, x <> 0 -> Z.abs (div256 x) <= Z.abs x / 2.
Proof.
  intros x N. unfold div256. rewrite <- Z.quot_abs by lia. change (Z.abs 256) with 256. rewrite Z.quot_div_nonneg by lia. pose proof (round_bound x). apply Z.div_le_lower_bound; [lia|]. pose proof (Z.mul_div_le (Z.abs (round53 x)) 256 ltac:(lia)). lia.
Qed.
Lemma itb_more : forall k m x, Z.abs x < 2 ^ Z.of_nat k -> (k <= m)%nat -> itb m x = itb k x.
Proof.
  induction k as [|k IH]; intros m x H L; [assert (x = 0) by (cbn in H; lia); subst x; destruct m; reflexivity|]. destruct m as [|m]; [lia|]. cbn [itb]. destruct (Z.eqb_spec x 0) as [|N]; [reflexivity|]. f_equal. apply IH; [|lia]. rewrite Nat2Z.inj_succ, Z.pow_succ_r in H by lia. pose proof (div_bound x N). assert (Z.abs x / 2 < 2 ^ Z.of_nat k) by (apply Z.div_lt_upper_bound; lia). lia.
Qed.
Lemma bits : forall x, Z.abs x < 2 ^ Z.of_nat (S (Z.to_nat (Z.log2 (Z.abs x)))).
Proof. intros x. destruct (Z.eq_dec x 0) as [->|N]; [cbn; lia|]. pose proof (Z.log2_nonneg (Z.abs x)). rewrite Nat2Z.inj_succ, Z2Nat.id by assumption. apply Z.log2_spec. lia. Qed.
(** The fuel is enough: int_to_bytes is as R 41-45 *)
Lemma itb_eq : forall x, int_to_bytes x = if x =? 0 then [] else int_to_bytes (div256 x) ++ [x mod 256].
Proof.
  intros x. unfold int_to_bytes at 1. cbn [itb]. destruct (Z.eqb_spec x 0) as [|N]; [reflexivity|]. f_equal. unfold int_to_bytes. set (y := div256 x). pose proof (bits y) as B. pose proof (div_bound x N) as D. fold y in D.
  destruct (Z.eq_dec y 0) as [E|Ny]; [rewrite E; generalize (Z.to_nat (Z.log2 (Z.abs x))); intros [|m]; reflexivity|].
  apply itb_more; [exact B|]. pose proof (Z.log2_nonneg (Z.abs y)). assert (Z.log2 (Z.abs y) < Z.log2 (Z.abs x)); [|lia].
  assert (X2 : 2 * Z.abs y <= Z.abs x) by (pose proof (Z.mul_div_le (Z.abs x) 2 ltac:(lia)); lia).
  assert (L : Z.log2 (2 * Z.abs y) <= Z.log2 (Z.abs x)) by (apply Z.log2_le_mono; exact X2). rewrite Z.log2_double in L by lia. lia.
Qed.
Lemma itb_small : forall k x, 0 <= x < 2 ^ 53 -> x < 2 ^ Z.of_nat k -> bytes_ok (itb k x) /\ be_val (itb k x) = x /\ (x = 0 -> itb k x = []) /\ (0 < x -> exists b r, itb k x = b :: r /\ b <> 0).
Proof.
  induction k as [|k IH]; intros x H L; [assert (x = 0) by (cbn in L; lia); subst x; cbn; repeat split; try constructor; lia|]. cbn [itb]. destruct (Z.eqb_spec x 0) as [->|N]; [cbn; repeat split; try constructor; lia|].
  rewrite (div_small x H). assert (D : 0 <= x / 256 < 2 ^ 53) by (split; [apply Z.div_pos; lia|apply Z.div_lt_upper_bound; lia]).
  assert (L' : x / 256 < 2 ^ Z.of_nat k). { rewrite Nat2Z.inj_succ, Z.pow_succ_r in L by lia. apply Z.div_lt_upper_bound; [lia|]. lia. }
  destruct (IH _ D L') as (A & B & C & E). pose proof (Z.mod_pos_bound x 256 ltac:(lia)). split; [apply Forall_app; split; [exact A|constructor; [unfold is_byte; lia|constructor]]|]. split; [rewrite be_val_snoc, B; pose proof (Z.div_mod x 256 ltac:(lia)); lia|]. split; [lia|]. intros _.
  destruct (Z.eq_dec (x / 256) 0) as [Z0|NZ]; [rewrite (C Z0); exists (x mod 256), []; split; [reflexivity|]; pose proof (Z.div_mod x 256 ltac:(lia)); lia|]. destruct (E ltac:(lia)) as (b & r & -> & Nb). exists b, (r ++ [x mod 256]). auto.
Qed.
Lemma int_small : forall x, 0 <= x < 2 ^ 53 -> number x (int_to_bytes x).
Proof.
  intros x H. destruct (itb_small (S (Z.to_nat (Z.log2 (Z.abs x)))) x H) as (A & B & C & D); [pose proof (bits x); lia|]. fold (int_to_bytes x) in *. destruct (Z.eq_dec x 0) as [E|N]; [left; auto|right]. split; [lia|]. split; [exact A|]. split; [exact B|apply D; lia].
Qed.
Lemma itb_len : forall k x, 0 <= x < 2 ^ 53 -> x < 256 ^ Z.of_nat k -> forall m, (length (itb m x) <= k)%nat.
Proof.
  induction k as [|k IH]; intros x H L m; [assert (x = 0) by (cbn in L; lia); subst x; destruct m; cbn; lia|]. destruct m as [|m]; cbn [itb]; [destruct (x =? 0); cbn; lia|]. destruct (x =? 0); [cbn; lia|]. rewrite app_length. cbn [length]. rewrite (div_small x H).
  assert (D : 0 <= x / 256 < 2 ^ 53) by (split; [apply Z.div_pos; lia|apply Z.div_lt_upper_bound; lia]). rewrite Nat2Z.inj_succ, Z.pow_succ_r in L by lia. specialize (IH (x / 256) D ltac:(apply Z.div_lt_upper_bound; lia) m). lia.
Qed.
Lemma enc_length_ok : forall n off, 0 <= n < 2 ^ 53 -> header off n (enc_length n off).
Proof.
  intros n off H. unfold enc_length. destruct (Z.leb_spec n 55); [replace (n + off) with (off + n) by lia; apply h_short; lia|]. cbv zeta. replace (zlen (int_to_bytes n) + off + 55) with (off + 55 + zlen (int_to_bytes n)) by lia. apply h_long; [lia|]. destruct (int_small n H) as [[E _]|[_ B]]; [lia|exact B].
Qed.
Lemma enc_bytes_ok : forall b, bytes_ok b -> zlen b < 2 ^ 53 -> rlp_spec (RBytes b) (enc_bytes b).
Proof.
  intros b Ok L. assert (Gen : (~ exists x, b = [x] /\ 0 <= x < 128) -> rlp_spec (RBytes b) (enc_length (zlen b) 128 ++ b)) by (intros N; apply sp_bytes; [exact N|apply enc_length_ok; unfold zlen; split; [lia|exact L]]).
  destruct b as [|x [|y r]]; cbn [enc_bytes].
  - apply Gen. intros (x & E & _). discriminate E.
  - inversion Ok as [|? ? Hx _]; subst. unfold is_byte in Hx. destruct (Z.ltb_spec x 128); [apply sp_byte; lia|]. change 1 with (zlen [x]). apply Gen. intros (y & E & R). injection E as ->. lia.
  - apply Gen. intros (z & E & _). discriminate E.
Qed.
Lemma fits_small : forall x, 0 <= x < 2 ^ 53 -> fits x = true.
Proof. intros x H. unfold fits. rewrite round_small by lia. assert (2 ^ 53 <= 2 ^ 1032) by (apply Z.pow_le_mono_r; lia). apply Z.ltb_lt. rewrite Z.abs_eq; lia. Qed.
