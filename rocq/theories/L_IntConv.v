(** Lemmas about the integer codecs. *)
From Coq Require Import String Ascii ZArith List Bool Lia.
From Coq Require Import ZifyBool.
From Verif Require Import Base L_Base M_IntConv S_IntConv.
Import ListNotations.
Open Scope Z_scope.

(** ** bit tricks *)
Lemma byte_cases : forall P : Z -> bool,
  forallb P (map Z.of_nat (seq 0 256)) = true -> forall b, is_byte b -> P b = true.
Proof.
  intros P H b [H1 H2]. rewrite forallb_forall in H. apply H.
  apply in_map_iff. exists (Z.to_nat b). split; [lia|]. apply in_seq. lia.
Qed.

Lemma land_128 : forall b, is_byte b -> (Z.land b 128 =? 0) = (b <? 128).
Proof.
  intros b H. apply eqb_prop.
  apply (byte_cases (fun b => Bool.eqb (Z.land b 128 =? 0) (b <? 128))); [vm_compute; reflexivity|assumption].
Qed.

Lemma lxor_255 : forall b, is_byte b -> Z.lxor b 255 = 255 - b.
Proof.
  intros b H. apply Z.eqb_eq.
  apply (byte_cases (fun b => Z.lxor b 255 =? 255 - b)); [vm_compute; reflexivity|assumption].
Qed.

Lemma land_255 : forall v, Z.land v 255 = v mod 256.
Proof. intros. change 255 with (Z.ones 8). rewrite Z.land_ones by lia. reflexivity. Qed.

Lemma shiftr_8 : forall v, Z.shiftr v 8 = v / 256.
Proof. intros. rewrite Z.shiftr_div_pow2 by lia. reflexivity. Qed.

Lemma shiftl_8 : forall v, Z.shiftl v 8 = v * 256.
Proof. intros. rewrite Z.shiftl_mul_pow2 by lia. reflexivity. Qed.

Lemma land_m128 : forall v, Z.land v (-128) = v / 128 * 128.
Proof.
  intros. change (-128) with (Z.lnot (Z.ones 7)).
  rewrite <- Z.ldiff_land, Z.ldiff_ones_r by lia.
  rewrite Z.shiftl_mul_pow2, Z.shiftr_div_pow2 by lia. reflexivity.
Qed.

Lemma lor_low : forall x b, x mod 256 = 0 -> is_byte b -> Z.lor x b = x + b.
Proof.
  intros x b Hx [Hb1 Hb2].
  assert (E : Z.land x b = 0).
  { apply Z.bits_inj'. intros n Hn. rewrite Z.land_spec, Z.bits_0.
    destruct (Z.lt_ge_cases n 8).
    - replace x with (x / 256 * 2 ^ 8) by (pose proof (Z.div_mod x 256 ltac:(lia)); lia).
      rewrite Z.mul_pow2_bits_low by lia. reflexivity.
    - rewrite <- (Z.mod_small b (2 ^ 8)) by lia. rewrite Z.mod_pow2_bits_high by lia.
      apply andb_false_r. }
  pose proof (Z.add_nocarry_lxor x b E). rewrite Z.lxor_lor in H by assumption. lia.
Qed.

Lemma u64_mul256 : forall v, u64 (v * 256) mod 256 = 0.
Proof.
  intros. unfold u64. pose proof (Z.div_mod (v * 256) (2^64) ltac:(lia)).
  replace ((v*256) mod 2^64) with ((v - 2^56 * (v*256 / 2^64)) * 256) by lia.
  apply Z.mod_mul; lia.
Qed.

Lemma i64_mul256 : forall v, i64 (v * 256) mod 256 = 0.
Proof.
  intros. unfold i64. pose proof (u64_mul256 v) as H. unfold u64 in H.
  destruct ((v * 256) mod 2 ^ 64 <? 2 ^ 63); [assumption|].
  rewrite Zminus_mod, H. reflexivity.
Qed.

(** ** decoding *)
Lemma u64_fold : forall bs v0 a, bytes_ok bs -> 0 <= v0 < 2^64 -> v0 = u64 a ->
  fold_left (fun v b => Z.lor (u64 (Z.shiftl v 8)) b) bs v0
  = u64 (fold_left (fun v b => v * 256 + b) bs a).
Proof.
  induction bs as [|b bs IH]; intros v0 a Hok Hr Hv; cbn [fold_left]; [assumption|].
  apply bytes_ok_cons in Hok as [Hb Hok].
  rewrite shiftl_8, (lor_low _ b) by (auto using u64_mul256).
  assert (Hm := u64_mul256 v0). assert (Hu := u64_range (v0 * 256)).
  assert (HB : 0 <= u64 (v0*256) + b < 2^64).
  { pose proof (Z.div_mod (u64 (v0 * 256)) 256 ltac:(lia)). unfold is_byte in Hb. lia. }
  apply IH; [assumption|assumption|].
  rewrite <- (u64_small (u64 (v0*256) + b)) by assumption.
  unfold u64 in *. rewrite Hv, Zplus_mod_idemp_l.
  rewrite <- (Zplus_mod_idemp_l (a*256)). rewrite <- (Z.mul_mod_idemp_l a 256) by lia.
  rewrite Zplus_mod_idemp_l. reflexivity.
Qed.

Lemma BytesToSize_spec : forall bs, bytes_ok bs -> BytesToSize bs = u64 (be_val bs).
Proof. intros. unfold BytesToSize, be_val. apply u64_fold; [assumption|lia|reflexivity]. Qed.

Lemma tc_value_cons : forall b bs, tc_value (b :: bs) =
  be_val (b :: bs) - (if b <? 128 then 0 else 256 ^ Z.of_nat (S (length bs))).
Proof. reflexivity. Qed.

Lemma BytesToUint64_spec : forall bs, bytes_ok bs -> BytesToUint64 bs = u64 (tc_value bs).
Proof.
  intros [|b bs] H; [reflexivity|]. unfold BytesToUint64.
  assert (Hb : is_byte b) by (apply bytes_ok_cons in H; tauto).
  rewrite land_128 by assumption. rewrite tc_value_cons.
  destruct (b <? 128) eqn:E.
  - rewrite (u64_fold _ 0 0) by (auto; lia). rewrite Z.sub_0_r. reflexivity.
  - rewrite (u64_fold _ (2^64-1) (-1)) by (auto; lia).
    rewrite be_fold_shift. f_equal. change (length (b :: bs)) with (S (length bs)). lia.
Qed.

Lemma i64_fold : forall bs v0 a, bytes_ok bs -> - 2^63 <= v0 < 2^63 -> v0 = i64 a ->
  fold_left (fun v b => Z.lor (i64 (Z.shiftl v 8)) b) bs v0
  = i64 (fold_left (fun v b => v * 256 + b) bs a).
Proof.
  induction bs as [|b bs IH]; intros v0 a Hok Hr Hv; cbn [fold_left]; [assumption|].
  apply bytes_ok_cons in Hok as [Hb Hok].
  rewrite shiftl_8, (lor_low _ b) by (auto using i64_mul256).
  assert (Hm := i64_mul256 v0). assert (Hu := i64_range (v0 * 256)).
  assert (HB : - 2^63 <= i64 (v0*256) + b < 2^63).
  { pose proof (Z.div_mod (i64 (v0 * 256)) 256 ltac:(lia)). unfold is_byte in Hb. lia. }
  apply IH; [assumption|assumption|].
  rewrite <- (i64_small (i64 (v0*256) + b)) by assumption.
  apply i64_cong. rewrite <- (Zplus_mod_idemp_l (i64 _)), i64_mod, Zplus_mod_idemp_l.
  rewrite <- (Zplus_mod_idemp_l (a*256)), <- (Z.mul_mod_idemp_l a 256) by lia.
  rewrite <- (i64_mod a), <- Hv. rewrite (Z.mul_mod_idemp_l v0 256) by lia.
  rewrite Zplus_mod_idemp_l. reflexivity.
Qed.

Lemma fold_map : forall (f : Z -> Z -> Z) (g : Z -> Z) bs a,
  fold_left (fun v b => f v (g b)) bs a = fold_left f (map g bs) a.
Proof. induction bs; intros; cbn; [reflexivity|apply IHbs]. Qed.

Lemma fold_left_ext_in : forall A B (f g : A -> B -> A) l a,
  (forall x b, In b l -> f x b = g x b) -> fold_left f l a = fold_left g l a.
Proof. induction l; intros; cbn; [reflexivity|]. rewrite H by (left; reflexivity).
  apply IHl. intros; apply H; right; assumption. Qed.

Lemma be_val_compl : forall bs, be_val (map (fun b => 255 - b) bs) = 256 ^ Z.of_nat (length bs) - 1 - be_val bs.
Proof.
  induction bs as [|b bs IH]; [reflexivity|].
  cbn [map]. rewrite !be_val_cons, map_length, IH. cbn [length]. rewrite pow256_S. ring.
Qed.

Lemma bytes_ok_compl : forall bs, bytes_ok bs -> bytes_ok (map (fun b => 255 - b) bs).
Proof. unfold bytes_ok, is_byte. intros. apply Forall_map. eapply Forall_impl; [|apply H]. cbv beta; intros a Ha; lia. Qed.

Lemma BytesToInt64_spec : forall bs, bytes_ok bs -> BytesToInt64 bs = i64 (tc_value bs).
Proof.
  intros [|b bs] H; [reflexivity|]. unfold BytesToInt64.
  assert (Hb : is_byte b) by (apply bytes_ok_cons in H; tauto).
  rewrite land_128 by assumption. rewrite tc_value_cons.
  destruct (b <? 128) eqn:E.
  - rewrite (i64_fold _ 0 0) by (auto; lia). rewrite Z.sub_0_r. reflexivity.
  - set (l := b :: bs) in *.
    rewrite (fold_left_ext_in _ _ _ (fun v b => Z.lor (i64 (Z.shiftl v 8)) (255 - b)) l).
    2: { intros x c Hc. rewrite lxor_255; [reflexivity|]. unfold bytes_ok in H; rewrite Forall_forall in H; auto. }
    rewrite (fold_map (fun v b => Z.lor (i64 (Z.shiftl v 8)) b) (fun b => 255 - b)).
    rewrite (i64_fold _ 0 0) by (auto using bytes_ok_compl; lia).
    fold (be_val (map (fun b => 255 - b) l)). rewrite be_val_compl.
    set (P := 256 ^ Z.of_nat (length l)). set (V := be_val l).
    change (S (length bs)) with (length l). fold P.
    apply i64_cong. rewrite Zminus_mod, i64_mod, <- Zminus_mod.
    rewrite <- (Zminus_mod_idemp_l (- _)).
    replace (- i64 (P - 1 - V)) with (0 - i64 (P - 1 - V)) by lia.
    rewrite <- (Zminus_mod_idemp_r 0), i64_mod, Zminus_mod_idemp_r, Zminus_mod_idemp_l.
    f_equal. lia.
Qed.

Lemma be_val_head_bitlen : forall b bs, bytes_ok (b :: bs) -> 128 <= b ->
  bit_len (be_val (b :: bs)) = 8 * Z.of_nat (S (length bs)).
Proof.
  intros b bs H Hb. pose proof (be_val_bound _ H) as [H1 H2].
  apply bytes_ok_cons in H as [Hb' H]. pose proof (be_val_bound _ H).
  pose proof (pow256_pos (length bs)).
  cbn [length] in H2.
  set (x := be_val (b :: bs)) in *.
  assert (Hx : 2 ^ (8 * Z.of_nat (S (length bs)) - 1) <= x).
  { unfold x. rewrite be_val_cons.
    replace (8 * Z.of_nat (S (length bs)) - 1) with (7 + 8 * Z.of_nat (length bs)) by lia.
    rewrite Z.pow_add_r, <- pow256_2 by lia. change (2^7) with 128. nia. }
  assert (bit_len x <= 8 * Z.of_nat (S (length bs))).
  { apply bit_len_le_iff; [lia|]. rewrite <- pow256_2. lia. }
  assert (~ bit_len x <= 8 * Z.of_nat (S (length bs)) - 1).
  { rewrite bit_len_le_iff by lia. lia. }
  lia.
Qed.

Lemma BigIntSetBytes_spec : forall bs, bytes_ok bs -> BigIntSetBytes bs = tc_value bs.
Proof.
  intros [|b bs] H; [reflexivity|]. unfold BigIntSetBytes.
  assert (Hb : is_byte b) by (apply bytes_ok_cons in H; tauto).
  rewrite land_128 by assumption. rewrite tc_value_cons.
  destruct (Z.ltb_spec b 128).
  - lia.
  - rewrite be_val_head_bitlen by assumption. rewrite <- pow256_2. reflexivity.
Qed.

(** ** ranges and uniqueness *)
Definition fits (n : nat) (x : Z) : Prop := - 2 ^ (8 * Z.of_nat n - 1) <= x < 2 ^ (8 * Z.of_nat n - 1).

Lemma half_pow : forall n, 256 ^ Z.of_nat (S n) = 2 * 2 ^ (8 * Z.of_nat (S n) - 1).
Proof. intros. rewrite pow256_2. rewrite <- Z.pow_succ_r by lia. f_equal; lia. Qed.

Lemma head_half : forall b bs, bytes_ok (b :: bs) ->
  (b < 128 <-> be_val (b :: bs) < 2 ^ (8 * Z.of_nat (S (length bs)) - 1)).
Proof.
  intros b bs H. apply bytes_ok_cons in H as [Hb H]. pose proof (be_val_bound _ H).
  rewrite be_val_cons. pose proof (pow256_pos (length bs)).
  replace (8 * Z.of_nat (S (length bs)) - 1) with (7 + 8 * Z.of_nat (length bs)) by lia.
  rewrite Z.pow_add_r, <- pow256_2 by lia. change (2^7) with 128. nia.
Qed.

Lemma tc_value_fits : forall bs, bs <> [] -> bytes_ok bs -> fits (length bs) (tc_value bs).
Proof.
  intros [|b bs] Hne H; [contradiction|]. unfold fits. rewrite tc_value_cons.
  cbn [length]. pose proof (half_pow (length bs)). pose proof (head_half b bs H).
  pose proof (be_val_bound _ H). cbn [length] in H2.
  destruct (Z.ltb_spec b 128); lia.
Qed.

Lemma tc_value_be_fixed : forall n x, fits (S n) x -> tc_value (be_fixed (S n) x) = x.
Proof.
  intros n x Hf. pose proof (be_fixed_length (S n) x) as HL. pose proof (be_fixed_ok (S n) x) as Hok.
  pose proof (be_val_be_fixed (S n) x) as Hv.
  destruct (be_fixed (S n) x) as [|b l] eqn:E; [discriminate|].
  rewrite tc_value_cons. pose proof (head_half b l Hok) as Hh.
  cbn [length] in HL. injection HL as HL. rewrite HL in *. rewrite Hv in *.
  unfold fits in Hf. pose proof (half_pow n) as Hp.
  pose proof (pow256_pos (S n)).
  destruct (Z.ltb_spec b 128) as [Hb|Hb].
  - apply Hh in Hb. destruct (Z.le_gt_cases 0 x).
    + rewrite Z.mod_small in * by lia. lia.
    + exfalso. assert (x mod 256 ^ Z.of_nat (S n) = x + 256 ^ Z.of_nat (S n)).
      { rewrite <- (Z.mod_small (x + 256 ^ Z.of_nat (S n)) (256 ^ Z.of_nat (S n))) by lia.
        rewrite <- Z.add_mod_idemp_r, Z.mod_same, Z.add_0_r by lia. reflexivity. }
      lia.
  - destruct (Z.le_gt_cases 0 x).
    + exfalso. rewrite Z.mod_small in * by lia. lia.
    + assert (x mod 256 ^ Z.of_nat (S n) = x + 256 ^ Z.of_nat (S n)).
      { rewrite <- (Z.mod_small (x + 256 ^ Z.of_nat (S n)) (256 ^ Z.of_nat (S n))) by lia.
        rewrite <- Z.add_mod_idemp_r, Z.mod_same, Z.add_0_r by lia. reflexivity. }
      lia.
Qed.

Lemma tc_value_inj : forall a b, bytes_ok a -> bytes_ok b -> length a = length b ->
  tc_value a = tc_value b -> a = b.
Proof.
  intros [|x a] [|y b] Ha Hb Hl Hv; try discriminate; [reflexivity|].
  apply be_val_inj; try assumption.
  rewrite !tc_value_cons in Hv. cbn [length] in Hl. injection Hl as Hl. rewrite Hl in Hv.
  pose proof (head_half _ _ Ha). pose proof (head_half _ _ Hb).
  pose proof (be_val_bound _ Ha). pose proof (be_val_bound _ Hb). cbn [length] in *. rewrite Hl in *.
  pose proof (half_pow (length b)).
  destruct (Z.ltb_spec x 128), (Z.ltb_spec y 128); lia.
Qed.

Lemma shortest_tc_unique : forall x a b, shortest_tc x a -> shortest_tc x b -> a = b.
Proof.
  intros x a b (A1 & A2 & A3 & A4) (B1 & B2 & B3 & B4).
  apply tc_value_inj; auto; [|congruence].
  specialize (A4 b B1 B2 B3). specialize (B4 a A1 A2 A3). lia.
Qed.

Lemma fits_mono : forall n m x, (1 <= n <= m)%nat -> fits n x -> fits m x.
Proof.
  unfold fits; intros n m x Hnm H.
  assert (2 ^ (8 * Z.of_nat n - 1) <= 2 ^ (8 * Z.of_nat m - 1)) by (apply Z.pow_le_mono_r; lia). lia.
Qed.

(** encoder criterion *)
Lemma shortest_intro : forall x n, fits (S n) x -> (n = O \/ ~ fits n x) ->
  shortest_tc x (be_fixed (S n) x).
Proof.
  intros x n Hf Hm. split; [|split; [|split]].
  - intros E. pose proof (be_fixed_length (S n) x). rewrite E in H; discriminate.
  - apply be_fixed_ok.
  - apply tc_value_be_fixed; assumption.
  - intros bs Hne Hok Hv. rewrite be_fixed_length.
    pose proof (tc_value_fits bs Hne Hok) as Hb. rewrite Hv in Hb.
    assert (1 <= length bs)%nat by (destruct bs; [contradiction|cbn; lia]).
    destruct (Nat.le_gt_cases (S n) (length bs)); [assumption|].
    destruct Hm as [->|Hm]; [lia|]. exfalso; apply Hm.
    eapply fits_mono; [|eassumption]. lia.
Qed.

(** bit length of the two's complement magnitude *)
Definition tc_bits (x : Z) : Z := if x <? 0 then bit_len (x + 1) else bit_len x.

Lemma tc_bits_nonneg : forall x, 0 <= tc_bits x.
Proof. intros; unfold tc_bits; destruct (x <? 0); apply bit_len_nonneg. Qed.

Lemma fits_iff : forall n x, (1 <= n)%nat -> (fits n x <-> tc_bits x <= 8 * Z.of_nat n - 1).
Proof.
  intros n x Hn. unfold fits, tc_bits.
  destruct (Z.ltb_spec x 0); rewrite bit_len_le_iff by lia; lia.
Qed.

Definition tc_n (x : Z) : nat := Z.to_nat (tc_bits x / 8).

Lemma tc_n_spec : forall x, fits (S (tc_n x)) x /\ (tc_n x = O \/ ~ fits (tc_n x) x).
Proof.
  intros x. unfold tc_n. pose proof (tc_bits_nonneg x).
  pose proof (Z.div_mod (tc_bits x) 8 ltac:(lia)).
  pose proof (Z.mod_pos_bound (tc_bits x) 8 ltac:(lia)).
  pose proof (Z.div_pos (tc_bits x) 8 ltac:(lia) ltac:(lia)).
  split.
  - apply fits_iff; lia.
  - destruct (Z.eq_dec (tc_bits x / 8) 0); [left; lia|right].
    rewrite fits_iff; lia.
Qed.

Lemma shortest_tc_exists : forall x, shortest_tc x (be_fixed (S (tc_n x)) x).
Proof. intros. destruct (tc_n_spec x). apply shortest_intro; assumption. Qed.

Lemma BigIntToBytes_shortest : forall x, shortest_tc x (BigIntToBytes x).
Proof.
  intros x. enough (BigIntToBytes x = be_fixed (S (tc_n x)) x) as -> by apply shortest_tc_exists.
  unfold BigIntToBytes.
  destruct (Z.eqb_spec x 0); [subst; reflexivity|].
  assert (Hn0 := tc_bits_nonneg x).
  assert (HD := Z.div_mod (tc_bits x) 8 ltac:(lia)).
  assert (HM := Z.mod_pos_bound (tc_bits x) 8 ltac:(lia)).
  assert (HP := Z.div_pos (tc_bits x) 8 ltac:(lia) ltac:(lia)).
  destruct (Z.ltb_spec 0 x).
  - assert (HB : tc_bits x = bit_len x) by (unfold tc_bits; destruct (Z.ltb_spec x 0); lia).
    rewrite <- HB. unfold tc_n.
    destruct (Z.eqb_spec (tc_bits x mod 8) 0).
    + apply be_val_inj.
      * apply bytes_ok_cons; split; [unfold is_byte; lia|apply big_bytes_ok].
      * apply be_fixed_ok.
      * cbn [length]. rewrite big_bytes_length, be_fixed_length. f_equal. unfold big_nbytes.
        rewrite <- HB. f_equal. replace (tc_bits x + 7) with (7 + (tc_bits x / 8) * 8) by lia.
        rewrite Z.div_add by lia. reflexivity.
      * rewrite be_val_cons, be_val_big_bytes, be_val_be_fixed, Z.mod_small; [lia|].
        split; [lia|]. destruct (tc_n_spec x) as [Hf _]. unfold fits, tc_n in Hf.
        pose proof (half_pow (Z.to_nat (tc_bits x / 8))). lia.
    + unfold big_bytes. rewrite Z.abs_eq by lia. f_equal.
      rewrite <- HB.
      replace (tc_bits x + 7) with ((tc_bits x mod 8 - 1) + (tc_bits x / 8 + 1) * 8) by lia.
      rewrite Z.div_add, (Z.div_small (tc_bits x mod 8 - 1)) by lia. lia.
  - assert (HB : tc_bits x = bit_len (x + 1)) by (unfold tc_bits; destruct (Z.ltb_spec x 0); lia).
    rewrite <- HB.
    set (N := S (tc_n x)).
    assert (HN : (tc_bits x + 8) / 8 * 8 = 8 * Z.of_nat N).
    { unfold N, tc_n. replace (tc_bits x + 8) with (tc_bits x mod 8 + (tc_bits x / 8 + 1) * 8) by lia.
      rewrite Z.div_add, (Z.div_small (tc_bits x mod 8)) by lia. lia. }
    rewrite HN, <- pow256_2.
    destruct (tc_n_spec x) as [Hf _]. fold N in Hf. unfold fits in Hf.
    assert (Hp := half_pow (tc_n x)). fold N in Hp.
    assert (HV : be_val (be_fixed N x) = 256 ^ Z.of_nat N + x).
    { rewrite be_val_be_fixed.
      rewrite <- (Z.mod_small (256 ^ Z.of_nat N + x) (256 ^ Z.of_nat N)) by lia.
      rewrite <- Zplus_mod_idemp_l, Z.mod_same by lia. reflexivity. }
    symmetry. apply big_bytes_unique.
    + apply be_fixed_ok.
    + lia.
    + right. pose proof (be_fixed_ok N x) as Hok. pose proof (be_fixed_length N x) as HL.
      destruct (be_fixed N x) as [|b l]; [discriminate|]. cbn [hd].
      pose proof (head_half b l Hok) as Hh. injection HL as HL. rewrite HL in Hh.
      fold N in Hh. lia.
Qed.

(** ** fixed width loops *)
Lemma be_fixed_S : forall n x, be_fixed (S n) x = be_fixed n (x / 256) ++ [x mod 256].
Proof. reflexivity. Qed.

Lemma fits_div : forall n x, (1 <= n)%nat -> (fits n (x / 256) <-> fits (S n) x).
Proof.
  intros n x Hn. unfold fits.
  replace (8 * Z.of_nat (S n) - 1) with (8 + (8 * Z.of_nat n - 1)) by lia.
  rewrite Z.pow_add_r by lia. change (2^8) with 256.
  set (P := 2 ^ (8 * Z.of_nat n - 1)).
  pose proof (Z.div_mod x 256 ltac:(lia)). pose proof (Z.mod_pos_bound x 256 ltac:(lia)).
  split; intros; nia.
Qed.

Lemma fits_1 : forall x, fits 1 x <-> -128 <= x < 128.
Proof. intros; unfold fits. change (2 ^ (8 * Z.of_nat 1 - 1)) with 128. lia. Qed.

(** generic: a loop emitting low bytes that stops exactly when one byte suffices *)
Lemma Int64_loop_spec : forall n v acc target, target = (if v <? 0 then -128 else 0) ->
  fits n v -> (1 <= n)%nat ->
  Int64ToBytes_loop n target v acc = be_fixed (S (tc_n v)) v ++ acc.
Proof.
  induction n as [|n IH]; intros v acc target Ht Hf Hn; [lia|].
  cbn [Int64ToBytes_loop]. rewrite land_255, shiftr_8, land_m128.
  assert (Hstop : (v / 128 * 128 =? target) = true <-> fits 1 v).
  { rewrite fits_1, Z.eqb_eq, Ht. destruct (Z.ltb_spec v 0).
    - split; intros.
      + pose proof (Z.div_mod v 128 ltac:(lia)). pose proof (Z.mod_pos_bound v 128 ltac:(lia)). lia.
      + assert (v / 128 = -1) by (symmetry; apply (Z.div_unique v 128 (-1) (v+128)); lia). lia.
    - split; intros.
      + pose proof (Z.div_mod v 128 ltac:(lia)). pose proof (Z.mod_pos_bound v 128 ltac:(lia)). lia.
      + rewrite Z.div_small; lia. }
  assert (Huniq : forall a, shortest_tc v a -> a = be_fixed (S (tc_n v)) v).
  { intros; eapply shortest_tc_unique; [eassumption|apply shortest_tc_exists]. }
  destruct (v / 128 * 128 =? target) eqn:E.
  - rewrite <- (Huniq [v mod 256]); [reflexivity|].
    apply (shortest_intro v 0); [apply Hstop; reflexivity|left; reflexivity].
  - assert (Hnf : ~ fits 1 v) by (intros C; apply Hstop in C; discriminate).
    assert (Hn1 : (1 <= n)%nat) by (destruct n; [contradiction|lia]).
    rewrite (IH (v / 256)); [| |apply fits_div; assumption|assumption].
    2: { rewrite Ht. destruct (Z.ltb_spec v 0), (Z.ltb_spec (v/256) 0); try reflexivity.
         - pose proof (Z.div_lt_upper_bound v 256 0); lia.
         - pose proof (Z.div_pos v 256); lia. }
    rewrite <- (Huniq (be_fixed (S (S (tc_n (v / 256)))) v)).
    + rewrite (be_fixed_S (S _)), <- app_assoc. reflexivity.
    + destruct (tc_n_spec (v / 256)) as [H1 H2]. apply shortest_intro.
      * apply fits_div; [lia|assumption].
      * right. destruct (tc_n (v/256)); [assumption|].
        destruct H2 as [H2|H2]; [discriminate|]. rewrite <- fits_div by lia. assumption.
Qed.

Lemma Int64ToBytes_spec : forall v, - 2 ^ 63 <= v < 2 ^ 63 -> Int64ToBytes v = BigIntToBytes v.
Proof.
  intros v Hv. eapply shortest_tc_unique; [|apply BigIntToBytes_shortest].
  unfold Int64ToBytes. destruct (Z.eqb_spec v 0).
  - subst. apply (shortest_tc_exists 0).
  - rewrite Int64_loop_spec; [rewrite app_nil_r; apply shortest_tc_exists|reflexivity| |lia].
    unfold fits. change (8 * Z.of_nat 8 - 1) with 63. lia.
Qed.

Lemma Uint64_loop_spec : forall n v acc, 0 <= v -> fits n v -> (1 <= n)%nat ->
  Uint64ToBytes_loop n v acc = be_fixed (S (tc_n v)) v ++ acc.
Proof.
  induction n as [|n IH]; intros v acc Ht Hf Hn; [lia|].
  cbn [Uint64ToBytes_loop]. rewrite land_255, shiftr_8.
  rewrite land_128 by (apply Z.mod_pos_bound; lia).
  assert (Hstop : (v / 256 =? 0) && (v mod 256 <? 128) = true <-> fits 1 v).
  { rewrite fits_1. pose proof (Z.div_mod v 256 ltac:(lia)). pose proof (Z.mod_pos_bound v 256 ltac:(lia)).
    pose proof (Z.div_pos v 256 ltac:(lia) ltac:(lia)). lia. }
  assert (Huniq : forall a, shortest_tc v a -> a = be_fixed (S (tc_n v)) v).
  { intros; eapply shortest_tc_unique; [eassumption|apply shortest_tc_exists]. }
  destruct ((v / 256 =? 0) && (v mod 256 <? 128)) eqn:E.
  - rewrite <- (Huniq [v mod 256]); [reflexivity|].
    apply (shortest_intro v 0); [apply Hstop; reflexivity|left; reflexivity].
  - assert (Hnf : ~ fits 1 v) by (intros C; apply Hstop in C; discriminate).
    assert (Hn1 : (1 <= n)%nat) by (destruct n; [contradiction|lia]).
    rewrite (IH (v / 256)); [|apply Z.div_pos; lia|apply fits_div; assumption|assumption].
    rewrite <- (Huniq (be_fixed (S (S (tc_n (v / 256)))) v)).
    + rewrite (be_fixed_S (S _)), <- app_assoc. reflexivity.
    + destruct (tc_n_spec (v / 256)) as [H1 H2]. apply shortest_intro.
      * apply fits_div; [lia|assumption].
      * right. destruct (tc_n (v/256)); [assumption|].
        destruct H2 as [H2|H2]; [discriminate|]. rewrite <- fits_div by lia. assumption.
Qed.

Lemma Uint64ToBytes_spec : forall v, 0 <= v < 2 ^ 64 -> Uint64ToBytes v = BigIntToBytes v.
Proof.
  intros v Hv. eapply shortest_tc_unique; [|apply BigIntToBytes_shortest].
  unfold Uint64ToBytes. destruct (Z.eqb_spec v 0).
  - subst. apply (shortest_tc_exists 0).
  - rewrite Uint64_loop_spec; [rewrite app_nil_r; apply shortest_tc_exists|lia| |lia].
    unfold fits. change (8 * Z.of_nat 9 - 1) with 71. lia.
Qed.

Lemma Size_loop_spec : forall n v acc, 0 < v < 256 ^ Z.of_nat n ->
  SizeToBytes_loop n v acc = big_bytes v ++ acc.
Proof.
  induction n as [|n IH]; intros v acc Hv; [cbn in Hv; lia|].
  cbn [SizeToBytes_loop]. rewrite land_255, shiftr_8.
  rewrite pow256_S in Hv.
  pose proof (Z.div_mod v 256 ltac:(lia)). pose proof (Z.mod_pos_bound v 256 ltac:(lia)).
  destruct (Z.eqb_spec (v / 256) 0).
  - rewrite <- (big_bytes_unique v [v mod 256]); [reflexivity| | |].
    + constructor; [unfold is_byte; lia|constructor].
    + cbn. rewrite Z.abs_eq; lia.
    + right; cbn; lia.
  - assert (0 < v / 256) by (pose proof (Z.div_pos v 256); lia).
    rewrite IH by (split; [assumption|apply Z.div_lt_upper_bound; lia]).
    rewrite <- (big_bytes_unique v (big_bytes (v/256) ++ [v mod 256])).
    + rewrite <- app_assoc. reflexivity.
    + apply bytes_ok_app; split; [apply big_bytes_ok|]. constructor; [unfold is_byte; lia|constructor].
    + rewrite be_val_snoc, be_val_big_bytes. lia.
    + right. destruct (big_bytes (v/256)) eqn:E.
      * pose proof (be_val_big_bytes (v/256)). rewrite E in H2. cbn in H2. lia.
      * cbn. eapply big_bytes_head; eassumption.
Qed.

Lemma SizeToBytes_pos : forall v, 0 < v < 2 ^ 64 -> SizeToBytes v = big_bytes v.
Proof.
  intros v Hv. unfold SizeToBytes. destruct (Z.eqb_spec v 0); [lia|].
  rewrite Size_loop_spec, app_nil_r; [reflexivity|]. change (256 ^ Z.of_nat 8) with (2^64). lia.
Qed.

Lemma SizeToBytes_0 : SizeToBytes 0 = [0].
Proof. reflexivity. Qed.

Lemma SizeToBytes_ok : forall v, 0 <= v < 2 ^ 64 -> bytes_ok (SizeToBytes v) /\ be_val (SizeToBytes v) = v
  /\ (1 <= length (SizeToBytes v) <= 8)%nat.
Proof.
  intros v Hv. destruct (Z.eq_dec v 0).
  - subst. rewrite SizeToBytes_0. split; [|split]; [|reflexivity|cbn; lia].
    constructor; [unfold is_byte; lia|constructor].
  - rewrite SizeToBytes_pos by lia. split; [apply big_bytes_ok|]. split; [rewrite be_val_big_bytes; lia|].
    rewrite big_bytes_length. split.
    + destruct (big_nbytes v) eqn:E; [|lia]. pose proof (big_nbytes_bound v). rewrite E in H.
      cbn in H. lia.
    + apply big_nbytes_le_iff. change (256 ^ Z.of_nat 8) with (2^64). lia.
Qed.
