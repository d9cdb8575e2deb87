(** Lemmas about the shared vocabulary. *)
From Coq Require Import String Ascii ZArith List Bool Lia.
From Verif Require Import Base.
Import ListNotations.
Open Scope Z_scope.

Lemma zlen_nil : forall A, zlen (@nil A) = 0.
Proof. reflexivity. Qed.
Lemma zlen_cons : forall A (x : A) l, zlen (x :: l) = zlen l + 1.
Proof. intros; unfold zlen; cbn [List.length]; lia. Qed.
Lemma zlen_app : forall A (a b : list A), zlen (a ++ b) = zlen a + zlen b.
Proof. intros; unfold zlen; rewrite app_length; lia. Qed.
Lemma zlen_nonneg : forall A (l : list A), 0 <= zlen l.
Proof. intros; unfold zlen; lia. Qed.

Lemma bytes_ok_nil : bytes_ok [].
Proof. constructor. Qed.
Lemma bytes_ok_cons : forall b l, bytes_ok (b :: l) <-> is_byte b /\ bytes_ok l.
Proof. unfold bytes_ok; intros; split; intro H; [inversion H; auto | constructor; tauto]. Qed.
Lemma bytes_ok_app : forall a b, bytes_ok (a ++ b) <-> bytes_ok a /\ bytes_ok b.
Proof. unfold bytes_ok; intros; apply Forall_app. Qed.

Lemma pow256_pos : forall n, 0 < 256 ^ Z.of_nat n.
Proof. intros; apply Z.pow_pos_nonneg; lia. Qed.

Lemma pow256_S : forall n, 256 ^ Z.of_nat (S n) = 256 * 256 ^ Z.of_nat n.
Proof. intros; rewrite Nat2Z.inj_succ, Z.pow_succ_r; lia. Qed.

Lemma pow256_2 : forall n, 256 ^ n = 2 ^ (8 * n).
Proof. intros. replace 256 with (2^8) by reflexivity. destruct (Z.le_gt_cases 0 n).
  - rewrite <- Z.pow_mul_r; lia.
  - rewrite !Z.pow_neg_r; lia. Qed.

Lemma be_fold_shift : forall bs a,
  fold_left (fun a b => a * 256 + b) bs a = a * 256 ^ Z.of_nat (length bs) + be_val bs.
Proof.
  unfold be_val; induction bs as [|b bs IH]; intros a; cbn [fold_left length].
  - rewrite Z.pow_0_r; lia.
  - rewrite IH, (IH (0*256+b)), pow256_S. ring.
Qed.

Lemma be_val_nil : be_val [] = 0.
Proof. reflexivity. Qed.

Lemma be_val_cons : forall b bs, be_val (b :: bs) = b * 256 ^ Z.of_nat (length bs) + be_val bs.
Proof. intros. unfold be_val at 1; cbn [fold_left]. rewrite be_fold_shift. ring. Qed.

Lemma be_val_app : forall a b, be_val (a ++ b) = be_val a * 256 ^ Z.of_nat (length b) + be_val b.
Proof. intros. unfold be_val at 1. rewrite fold_left_app, be_fold_shift. reflexivity. Qed.

Lemma be_val_snoc : forall a b, be_val (a ++ [b]) = be_val a * 256 + b.
Proof. intros. rewrite be_val_app. cbn. lia. Qed.

Lemma be_val_bound : forall bs, bytes_ok bs -> 0 <= be_val bs < 256 ^ Z.of_nat (length bs).
Proof.
  induction bs as [|b bs IH]; intros H.
  - cbn; lia.
  - apply bytes_ok_cons in H as [Hb H]. specialize (IH H).
    rewrite be_val_cons. cbn [length]. rewrite pow256_S. unfold is_byte in Hb.
    pose proof (pow256_pos (length bs)). nia.
Qed.

Lemma be_fixed_length : forall n x, length (be_fixed n x) = n.
Proof. induction n; intros; cbn; [reflexivity|]. rewrite app_length, IHn; cbn; lia. Qed.

Lemma be_fixed_ok : forall n x, bytes_ok (be_fixed n x).
Proof.
  induction n; intros; cbn; [constructor|].
  apply bytes_ok_app; split; [apply IHn|].
  constructor; [|constructor]. unfold is_byte. apply Z.mod_pos_bound; lia.
Qed.

Lemma be_val_be_fixed : forall n x, be_val (be_fixed n x) = x mod 256 ^ Z.of_nat n.
Proof.
  induction n; intros.
  - cbn. rewrite Z.mod_1_r; reflexivity.
  - cbn [be_fixed]. rewrite be_val_snoc, IHn, pow256_S.
    pose proof (pow256_pos n).
    rewrite (Z.rem_mul_r x 256 (256 ^ Z.of_nat n)) by lia. ring.
Qed.

Lemma be_fixed_be_val : forall bs, bytes_ok bs -> be_fixed (length bs) (be_val bs) = bs.
Proof.
  intros bs. induction bs as [|b l IH] using rev_ind; intros H; [reflexivity|].
  apply bytes_ok_app in H as [H Hb]. apply bytes_ok_cons in Hb as [Hb _].
  rewrite app_length; cbn [length]. rewrite Nat.add_1_r. cbn [be_fixed].
  rewrite be_val_snoc. unfold is_byte in Hb.
  rewrite Z.div_add_l, (Z.div_small b) by lia.
  rewrite Z.add_0_r, IH by assumption.
  f_equal. f_equal. rewrite Z.add_comm, Z.mod_add, Z.mod_small; lia.
Qed.

Lemma be_val_inj : forall a b, bytes_ok a -> bytes_ok b -> length a = length b ->
  be_val a = be_val b -> a = b.
Proof.
  intros. rewrite <- (be_fixed_be_val a), <- (be_fixed_be_val b) by assumption. congruence.
Qed.

Lemma bit_len_0 : bit_len 0 = 0.
Proof. reflexivity. Qed.

Lemma bit_len_spec : forall x, x <> 0 -> 2 ^ (bit_len x - 1) <= Z.abs x < 2 ^ (bit_len x).
Proof.
  intros. unfold bit_len. destruct (Z.eqb_spec x 0); [lia|].
  replace (Z.log2 (Z.abs x) + 1 - 1) with (Z.log2 (Z.abs x)) by lia.
  pose proof (Z.log2_spec (Z.abs x)). rewrite Z.add_1_r. apply H0. lia.
Qed.

Lemma bit_len_pos : forall x, x <> 0 -> 1 <= bit_len x.
Proof. intros. unfold bit_len. destruct (Z.eqb_spec x 0); [lia|]. pose proof (Z.log2_nonneg (Z.abs x)). lia. Qed.

Lemma bit_len_nonneg : forall x, 0 <= bit_len x.
Proof. intros. destruct (Z.eq_dec x 0); [subst; cbn; lia| pose proof (bit_len_pos x n); lia]. Qed.

Lemma bit_len_lt : forall x, Z.abs x < 2 ^ bit_len x.
Proof. intros. destruct (Z.eq_dec x 0); [subst; cbn; lia| apply bit_len_spec; assumption]. Qed.

(** characterisation: bit_len x <= n iff |x| < 2^n *)
Lemma bit_len_le_iff : forall x n, 0 <= n -> (bit_len x <= n <-> Z.abs x < 2 ^ n).
Proof.
  intros x n Hn. split; intros H.
  - eapply Z.lt_le_trans; [apply bit_len_lt|]. apply Z.pow_le_mono_r; lia.
  - destruct (Z.eq_dec x 0); [subst; cbn; lia|].
    pose proof (bit_len_spec x n0).
    destruct (Z.le_gt_cases (bit_len x) n); [assumption|].
    assert (2 ^ n <= 2 ^ (bit_len x - 1)) by (apply Z.pow_le_mono_r; lia). lia.
Qed.

Definition big_nbytes (x : Z) : nat := Z.to_nat ((bit_len x + 7) / 8).

Lemma big_bytes_length : forall x, length (big_bytes x) = big_nbytes x.
Proof. intros; unfold big_bytes; apply be_fixed_length. Qed.

Lemma big_nbytes_bound : forall x, Z.abs x < 256 ^ Z.of_nat (big_nbytes x).
Proof.
  intros. unfold big_nbytes. pose proof (bit_len_nonneg x).
  rewrite Z2Nat.id by (apply Z.div_pos; lia).
  rewrite pow256_2. apply bit_len_le_iff.
  - pose proof (Z.div_pos (bit_len x + 7) 8); lia.
  - pose proof (Z.div_mod (bit_len x + 7) 8 ltac:(lia)).
    pose proof (Z.mod_pos_bound (bit_len x + 7) 8 ltac:(lia)). lia.
Qed.

Lemma big_nbytes_le_iff : forall x n, (big_nbytes x <= n)%nat <-> Z.abs x < 256 ^ Z.of_nat n.
Proof.
  intros x n. rewrite pow256_2.
  rewrite <- bit_len_le_iff by lia. unfold big_nbytes.
  pose proof (bit_len_nonneg x).
  pose proof (Z.div_mod (bit_len x + 7) 8 ltac:(lia)).
  pose proof (Z.mod_pos_bound (bit_len x + 7) 8 ltac:(lia)).
  pose proof (Z.div_pos (bit_len x + 7) 8 ltac:(lia) ltac:(lia)).
  lia.
Qed.

Lemma big_bytes_ok : forall x, bytes_ok (big_bytes x).
Proof. intros; apply be_fixed_ok. Qed.

Lemma be_val_big_bytes : forall x, be_val (big_bytes x) = Z.abs x.
Proof.
  intros. unfold big_bytes. rewrite be_val_be_fixed.
  apply Z.mod_small. pose proof (big_nbytes_bound x). unfold big_nbytes in H. lia.
Qed.

Lemma big_bytes_0 : big_bytes 0 = [].
Proof. reflexivity. Qed.

(** the leading byte of the minimal encoding is not zero *)
Lemma big_bytes_head : forall x b r, big_bytes x = b :: r -> 0 < b.
Proof.
  intros x b r E.
  assert (Hok := big_bytes_ok x). rewrite E in Hok. apply bytes_ok_cons in Hok as [Hb Hr].
  assert (Hv := be_val_big_bytes x). rewrite E, be_val_cons in Hv.
  pose proof (be_val_bound r Hr). destruct Hb.
  destruct (Z.eq_dec b 0); [|lia]. subst b.
  assert (big_nbytes x <= length r)%nat by (apply big_nbytes_le_iff; lia).
  pose proof (big_bytes_length x). rewrite E in H3. cbn in H3. lia.
Qed.

(** minimal big-endian bytes are unique *)
Lemma big_bytes_unique : forall x bs, bytes_ok bs -> be_val bs = Z.abs x ->
  (bs = [] \/ 0 < hd 0 bs) -> bs = big_bytes x.
Proof.
  intros x bs Hok Hv Hh.
  apply be_val_inj; auto using big_bytes_ok.
  2: { rewrite be_val_big_bytes; assumption. }
  rewrite big_bytes_length. apply Nat.le_antisymm.
  - destruct Hh as [->|Hh]; [cbn; lia|].
    destruct bs as [|b r]; [cbn in *; lia|]. cbn in Hh.
    destruct (Nat.le_gt_cases (length (b :: r)) (big_nbytes x)); [assumption|].
    cbn [length] in H. assert (big_nbytes x <= length r)%nat by lia.
    apply big_nbytes_le_iff in H0. rewrite be_val_cons in Hv.
    apply bytes_ok_cons in Hok as [? Hr]. pose proof (be_val_bound r Hr).
    pose proof (pow256_pos (length r)). nia.
  - apply big_nbytes_le_iff. rewrite <- Hv. apply be_val_bound; assumption.
Qed.

(** hex *)
Lemma unhex_hex_digit : forall d, 0 <= d < 16 -> unhex (hex_digit d) = Some d.
Proof.
  intros d H. unfold hex_digit, unhex.
  destruct (Z.ltb_spec d 10).
  - replace ((48 <=? d + 48) && (d + 48 <=? 57)) with true by lia. f_equal; lia.
  - replace ((48 <=? d + 87) && (d + 87 <=? 57)) with false by lia.
    replace ((97 <=? d + 87) && (d + 87 <=? 102)) with true by lia. f_equal; lia.
Qed.

Lemma unhex_range : forall c d, unhex c = Some d -> 0 <= d < 16.
Proof.
  intros c d. unfold unhex.
  destruct ((48 <=? c) && (c <=? 57)) eqn:E1; [intros [= <-]; lia|].
  destruct ((97 <=? c) && (c <=? 102)) eqn:E2; [intros [= <-]; lia|].
  destruct ((65 <=? c) && (c <=? 70)) eqn:E3; [intros [= <-]; lia|discriminate].
Qed.

Lemma hex_digit_range : forall d, 0 <= d < 16 -> 48 <= hex_digit d <= 102.
Proof. intros; unfold hex_digit; destruct (Z.ltb_spec d 10); lia. Qed.

Lemma byte_nibbles : forall b, is_byte b -> 0 <= b / 16 < 16 /\ 0 <= b mod 16 < 16.
Proof.
  intros b [H1 H2]. split; [|apply Z.mod_pos_bound; lia].
  split; [apply Z.div_pos; lia| apply Z.div_lt_upper_bound; lia].
Qed.

Lemma hex_decode_encode : forall bs, bytes_ok bs -> hex_decode (hex_encode bs) = Some bs.
Proof.
  induction bs as [|b r IH]; intros H; [reflexivity|].
  apply bytes_ok_cons in H as [Hb Hr]. cbn [hex_encode hex_decode].
  destruct (byte_nibbles b Hb). rewrite !unhex_hex_digit, IH by assumption.
  f_equal. f_equal. pose proof (Z.div_mod b 16 ltac:(lia)). lia.
Qed.

Lemma hex_encode_length : forall bs, length (hex_encode bs) = (2 * length bs)%nat.
Proof. induction bs; cbn; [reflexivity|]. rewrite IHbs. lia. Qed.

Lemma zlen_hex_encode : forall bs, zlen (hex_encode bs) = 2 * zlen bs.
Proof. intros; unfold zlen; rewrite hex_encode_length; lia. Qed.

Lemma list_pair_ind : forall (A : Type) (P : list A -> Prop),
  P [] -> (forall x, P [x]) -> (forall x y l, P l -> P (x :: y :: l)) -> forall l, P l.
Proof.
  intros A P H0 H1 H2 l.
  enough (P l /\ forall x, P (x :: l)) by tauto.
  induction l as [|a l [IH1 IH2]]; split; auto.
Qed.

Lemma hex_decode_ok : forall s bs, hex_decode s = Some bs ->
  bytes_ok bs /\ length s = (2 * length bs)%nat.
Proof.
  intros s. induction s as [|x|x y l IH] using list_pair_ind; intros bs; cbn [hex_decode].
  - intros [= <-]. split; [constructor|reflexivity].
  - discriminate.
  - destruct (unhex x) eqn:E1; [|discriminate]. destruct (unhex y) eqn:E2; [|discriminate].
    destruct (hex_decode l) eqn:E3; [|discriminate]. intros [= <-].
    destruct (IH _ eq_refl). apply unhex_range in E1, E2. split.
    + apply bytes_ok_cons; split; [unfold is_byte; lia|assumption].
    + cbn [length]. lia.
Qed.

Lemma bytes_eqb_eq : forall a b, bytes_eqb a b = true <-> a = b.
Proof.
  induction a as [|x a IH]; destruct b as [|y b]; cbn; split; intros H; try discriminate; auto.
  - apply andb_true_iff in H as [H1 H2]. apply Z.eqb_eq in H1. apply IH in H2. congruence.
  - injection H as -> ->. rewrite Z.eqb_refl. apply IH; reflexivity.
Qed.

Lemma bytes_eqb_refl : forall a, bytes_eqb a a = true.
Proof. intros; apply bytes_eqb_eq; reflexivity. Qed.

Lemma bytes_eqb_neq : forall a b, bytes_eqb a b = false <-> a <> b.
Proof.
  intros. destruct (bytes_eqb a b) eqn:E; split; intros H; try discriminate; auto.
  - apply bytes_eqb_eq in E. contradiction.
  - intros ->. rewrite bytes_eqb_refl in E; discriminate.
Qed.

Lemma bytes_eqb_spec : forall a b, reflect (a = b) (bytes_eqb a b).
Proof. intros. destruct (bytes_eqb a b) eqn:E; constructor; [apply bytes_eqb_eq|apply bytes_eqb_neq]; assumption. Qed.

Lemma list_Z_eq_dec : forall a b : list Z, {a = b} + {a <> b}.
Proof. intros. destruct (bytes_eqb_spec a b); auto. Qed.

Lemma has_prefix_app : forall p s, has_prefix p (p ++ s) = true.
Proof. induction p; intros; cbn; [reflexivity|]. rewrite Z.eqb_refl. apply IHp. Qed.

Lemma has_prefix_spec : forall p s, has_prefix p s = true <-> exists r, s = p ++ r.
Proof.
  induction p as [|x p IH]; intros s; cbn.
  - split; [intros; exists s; reflexivity| reflexivity].
  - destruct s as [|y s].
    + split; [discriminate|]. intros [r H]; discriminate.
    + rewrite andb_true_iff, Z.eqb_eq, IH. split.
      * intros [-> [r ->]]. exists r; reflexivity.
      * intros [r H]. injection H as -> ->. split; [reflexivity|]. exists r; reflexivity.
Qed.

(** lexicographic order is a strict total order *)
Lemma bytes_ltb_irrefl : forall a, bytes_ltb a a = false.
Proof. induction a; cbn; [reflexivity|]. rewrite Z.ltb_irrefl. assumption. Qed.

Lemma bytes_ltb_trans : forall a b c, bytes_ltb a b = true -> bytes_ltb b c = true -> bytes_ltb a c = true.
Proof.
  induction a as [|x a IH]; destruct b as [|y b]; destruct c as [|z c]; cbn; try discriminate; auto.
  destruct (Z.ltb_spec x y), (Z.ltb_spec y z); intros; destruct (Z.ltb_spec x z); try reflexivity; try lia.
  - destruct (Z.ltb_spec z y); try discriminate; try lia.
  - destruct (Z.ltb_spec y x); try discriminate; lia.
  - destruct (Z.ltb_spec y x); try discriminate. destruct (Z.ltb_spec z y); try discriminate.
    destruct (Z.ltb_spec z x); try lia. eapply IH; eauto.
Qed.

Lemma bytes_ltb_total : forall a b, bytes_ltb a b = true \/ a = b \/ bytes_ltb b a = true.
Proof.
  induction a as [|x a IH]; destruct b as [|y b]; cbn; auto.
  destruct (Z.ltb_spec x y); [auto|]. destruct (Z.ltb_spec y x); [auto|].
  assert (x = y) by lia. subst. destruct (IH b) as [H1|[H1|H1]]; auto. subst; auto.
Qed.

(** wrap-around *)
Lemma u64_range : forall x, 0 <= u64 x < 2 ^ 64.
Proof. intros; unfold u64; apply Z.mod_pos_bound; lia. Qed.
Lemma u64_small : forall x, 0 <= x < 2 ^ 64 -> u64 x = x.
Proof. intros; unfold u64; apply Z.mod_small; assumption. Qed.
Lemma i64_range : forall x, - 2 ^ 63 <= i64 x < 2 ^ 63.
Proof.
  intros; unfold i64. pose proof (Z.mod_pos_bound x (2^64) ltac:(lia)).
  destruct (Z.ltb_spec (x mod 2^64) (2^63)); lia.
Qed.
Lemma i64_small : forall x, - 2 ^ 63 <= x < 2 ^ 63 -> i64 x = x.
Proof.
  intros; unfold i64. destruct (Z.le_gt_cases 0 x).
  - rewrite Z.mod_small by lia. destruct (Z.ltb_spec x (2^63)); lia.
  - assert (E : x mod 2^64 = x + 2^64).
    { rewrite <- (Z.mod_small (x + 2^64) (2^64)) by lia.
      rewrite <- Z.add_mod_idemp_r, Z.mod_same, Z.add_0_r by lia. reflexivity. }
    rewrite E. destruct (Z.ltb_spec (x + 2^64) (2^63)); lia.
Qed.
(** i64 x is the unique representative of x modulo 2^64 *)
Lemma i64_cong : forall x y, x mod 2^64 = y mod 2^64 -> i64 x = i64 y.
Proof. intros; unfold i64; rewrite H; reflexivity. Qed.
Lemma i64_mod : forall x, i64 x mod 2 ^ 64 = x mod 2 ^ 64.
Proof.
  intros; unfold i64. destruct (x mod 2^64 <? 2^63).
  - apply Z.mod_mod; lia.
  - rewrite Zminus_mod, Z.mod_same, Z.sub_0_r, !Z.mod_mod by lia. reflexivity.
Qed.
Lemma i64_i64 : forall x, i64 (i64 x) = i64 x.
Proof. intros; apply i64_cong, i64_mod. Qed.
Lemma u64_u64 : forall x, u64 (u64 x) = u64 x.
Proof. intros; unfold u64; apply Z.mod_mod; lia. Qed.

Lemma Forall2_length : forall A B (R : A -> B -> Prop) l1 l2, Forall2 R l1 l2 -> length l1 = length l2.
Proof. induction 1; cbn; congruence. Qed.
Arguments Forall2_length {A B R l1 l2} _.
