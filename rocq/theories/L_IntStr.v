(** Lemmas about integer text. *)
From Coq Require Import String Ascii ZArith List Bool Lia.
From Coq Require Import ZifyBool.
From Verif Require Import Base L_Base M_IntConv S_IntConv L_IntConv.
Import ListNotations.
Open Scope Z_scope.

(** ** digit strings *)
Lemma digits_fold_shift : forall base ds a,
  fold_left (fun a d => a * base + d) ds a = a * base ^ zlen ds + digits_value base ds.
Proof.
  unfold digits_value; intros base ds; induction ds as [|d ds IH]; intros a; cbn [fold_left].
  - rewrite zlen_nil, Z.pow_0_r; lia.
  - rewrite IH, (IH (0*base+d)), zlen_cons.
    rewrite Z.pow_add_r, Z.pow_1_r by (pose proof (zlen_nonneg _ ds); lia). ring.
Qed.

Lemma digits_value_cons : forall base d ds,
  digits_value base (d :: ds) = d * base ^ zlen ds + digits_value base ds.
Proof. intros. unfold digits_value at 1; cbn [fold_left]. rewrite digits_fold_shift. ring. Qed.

Lemma digits_value_bound : forall base ds, 2 <= base -> Forall (fun d => 0 <= d < base) ds ->
  0 <= digits_value base ds < base ^ zlen ds.
Proof.
  intros base ds Hb H. induction H as [|d ds Hd Hds IH].
  - cbn. lia.
  - rewrite digits_value_cons, zlen_cons, Z.pow_add_r, Z.pow_1_r by (pose proof (zlen_nonneg _ ds); lia).
    assert (0 < base ^ zlen ds) by (apply Z.pow_pos_nonneg; [lia|apply zlen_nonneg]). nia.
Qed.

Lemma hex_char_unhex : forall c d, hex_char c d -> unhex c = Some d.
Proof.
  intros c d H; inversion H; subst; unfold unhex.
  - replace ((48 <=? 48 + d) && (48 + d <=? 57)) with true by lia. f_equal; lia.
  - replace ((48 <=? 97 + (d - 10)) && (97 + (d - 10) <=? 57)) with false by lia.
    replace ((97 <=? 97 + (d - 10)) && (97 + (d - 10) <=? 102)) with true by lia. f_equal; lia.
  - replace ((48 <=? 65 + (d - 10)) && (65 + (d - 10) <=? 57)) with false by lia.
    replace ((97 <=? 65 + (d - 10)) && (65 + (d - 10) <=? 102)) with false by lia.
    replace ((65 <=? 65 + (d - 10)) && (65 + (d - 10) <=? 70)) with true by lia. f_equal; lia.
Qed.

Lemma hex_char_range : forall c d, hex_char c d -> 0 <= d < 16.
Proof. intros c d H; inversion H; lia. Qed.

Lemma hex_char_cases : forall c d, hex_char c d ->
  (48 <= c <= 57 /\ d = c - 48) \/ (97 <= c <= 102 /\ d = c - 87) \/ (65 <= c <= 70 /\ d = c - 55).
Proof. intros c d H; inversion H; subst; lia. Qed.

Lemma hex_char_byte : forall c d, hex_char c d -> is_byte c.
Proof. intros c d H; apply hex_char_cases in H; unfold is_byte; lia. Qed.

Lemma hex_chars_range : forall cs ds, Forall2 hex_char cs ds -> Forall (fun d => 0 <= d < 16) ds.
Proof. induction 1; constructor; eauto using hex_char_range. Qed.

Lemma lower_upper : forall c, is_byte c -> 65 <= c <= 90 -> lower c = c + 32.
Proof.
  intros c H1 H2. apply Z.eqb_eq. unfold lower.
  assert (implb ((65 <=? c) && (c <=? 90)) (Z.lor c 32 =? c + 32) = true).
  { apply (byte_cases (fun c => implb ((65 <=? c) && (c <=? 90)) (Z.lor c 32 =? c + 32)));
      [vm_compute; reflexivity|assumption]. }
  replace ((65 <=? c) && (c <=? 90)) with true in H by lia. exact H.
Qed.

Lemma lower_lower : forall c, is_byte c -> 97 <= c <= 122 -> lower c = c.
Proof.
  intros c H1 H2. apply Z.eqb_eq. unfold lower.
  assert (implb ((97 <=? c) && (c <=? 122)) (Z.lor c 32 =? c) = true).
  { apply (byte_cases (fun c => implb ((97 <=? c) && (c <=? 122)) (Z.lor c 32 =? c)));
      [vm_compute; reflexivity|assumption]. }
  replace ((97 <=? c) && (c <=? 122)) with true in H by lia. exact H.
Qed.

Lemma hex_char_digit_of : forall c d, hex_char c d -> digit_of c = Some d.
Proof.
  intros c d H. pose proof (hex_char_byte _ _ H) as Hb.
  apply hex_char_cases in H as [[H1 ->]|[[H1 ->]|[H1 ->]]]; unfold digit_of.
  - replace ((48 <=? c) && (c <=? 57)) with true by lia. reflexivity.
  - replace ((48 <=? c) && (c <=? 57)) with false by lia. rewrite lower_lower by (auto; lia).
    replace ((97 <=? c) && (c <=? 122)) with true by lia. reflexivity.
  - replace ((48 <=? c) && (c <=? 57)) with false by lia. rewrite lower_upper by (auto; lia).
    replace ((97 <=? c + 32) && (c + 32 <=? 122)) with true by lia. f_equal; lia.
Qed.

(** ** hex decoding of digit strings *)
Lemma hex_decode_digits : forall cs ds, Forall2 hex_char cs ds -> Nat.even (length cs) = true ->
  exists bs, hex_decode cs = Some bs /\ bytes_ok bs /\ be_val bs = digits_value 16 ds /\
             length cs = (2 * length bs)%nat.
Proof.
  intros cs. induction cs as [|x|x y l IH] using list_pair_ind; intros ds H He.
  - inversion H; subst. exists []. repeat split; constructor.
  - discriminate.
  - inversion H as [|? d1 ? ds1 Hx H1]; subst. inversion H1 as [|? d2 ? ds2 Hy H2]; subst.
    destruct (IH _ H2 He) as (bs & E & Hok & Hv & Hl).
    cbn [hex_decode]. rewrite (hex_char_unhex _ _ Hx), (hex_char_unhex _ _ Hy), E.
    exists (d1 * 16 + d2 :: bs). split; [reflexivity|].
    apply hex_char_range in Hx, Hy.
    split; [apply bytes_ok_cons; split; [unfold is_byte; lia|assumption]|].
    split; [|cbn [length]; lia].
    rewrite be_val_cons, Hv, !digits_value_cons, zlen_cons.
    assert (Hd : length ds2 = length l) by (symmetry; eapply Forall2_length; eassumption).
    assert (Hz : zlen ds2 = 2 * Z.of_nat (length bs)) by (unfold zlen; lia).
    rewrite Hz, Z.pow_add_r, Z.pow_1_r by lia.
    rewrite Z.pow_mul_r by lia. change (16 ^ 2) with 256. ring.
Qed.

Lemma even_mod : forall A (l : list A), (zlen l mod 2 =? 1) = negb (Nat.even (length l)).
Proof.
  intros. unfold zlen. destruct (Nat.even (length l)) eqn:E.
  - apply Nat.even_spec in E as [m Hm]. rewrite Hm. apply Z.eqb_neq.
    rewrite Nat2Z.inj_mul, Z.mul_comm, Z.mod_mul by lia. lia.
  - rewrite <- Nat.negb_odd in E. apply negb_false_iff, Nat.odd_spec in E as [m Hm]. rewrite Hm.
    apply Z.eqb_eq. rewrite Nat2Z.inj_add, Nat2Z.inj_mul, Z.add_comm, Z.mul_comm, Z.mod_add by lia.
    reflexivity.
Qed.

(** body of decodeHexNumber after sign and prefix have been removed *)
Lemma hex_pad_decode : forall cs ds, Forall2 hex_char cs ds ->
  exists bs, hex_decode (if zlen cs mod 2 =? 1 then ch "0" :: cs else cs) = Some bs /\ bytes_ok bs /\
             be_val bs = digits_value 16 ds /\ zlen bs = (zlen cs + 1) / 2.
Proof.
  intros cs ds H. rewrite even_mod. destruct (Nat.even (length cs)) eqn:E; cbn [negb].
  - destruct (hex_decode_digits _ _ H E) as (bs & H1 & H2 & H3 & H4).
    exists bs; repeat split; auto. unfold zlen. rewrite H4.
    replace (Z.of_nat (2 * length bs) + 1) with (1 + Z.of_nat (length bs) * 2) by lia.
    rewrite Z.div_add by lia. reflexivity.
  - assert (H0 : Forall2 hex_char (ch "0" :: cs) (0 :: ds)).
    { constructor; [|assumption]. change (ch "0") with (48 + 0). constructor; lia. }
    destruct (hex_decode_digits _ _ H0) as (bs & H1 & H2 & H3 & H4).
    { cbn [length]. rewrite Nat.even_succ, <- Nat.negb_even, E. reflexivity. }
    exists bs. split; [assumption|]. split; [assumption|]. split.
    + rewrite H3, digits_value_cons. ring.
    + unfold zlen. cbn [length] in H4. replace (Z.of_nat (length cs) + 1) with (Z.of_nat (length bs) * 2) by lia.
      rewrite Z.div_mul by lia. reflexivity.
Qed.


Lemma decodeHexNumber_prefixed : forall neg cs v, hex_text cs v ->
  exists bs, decodeHexNumber (sign_text neg ++ str "0x" ++ cs) = (neg, Some bs) /\ bytes_ok bs /\
             be_val bs = v /\ zlen bs = (zlen cs + 1) / 2.
Proof.
  intros neg cs v (ds & Hne & H & ->).
  destruct (hex_pad_decode cs ds H) as (bs & H1 & H2 & H3 & H4).
  exists bs. split; [|auto].
  assert (Hl : (2 <? zlen (str "0x" ++ cs)) = true).
  { rewrite zlen_app. change (zlen (str "0x")) with 2. destruct cs; [contradiction|].
    rewrite zlen_cons. pose proof (zlen_nonneg _ cs). lia. }
  assert (Hp : has_prefix (str "0x") (str "0x" ++ cs) = true) by apply has_prefix_app.
  assert (Hs : skipn 2 (str "0x" ++ cs) = cs) by reflexivity.
  unfold decodeHexNumber. destruct neg; cbn [sign_text].
  - change (str "-" ++ str "0x" ++ cs) with (ch "-" :: str "0x" ++ cs).
    cbv beta iota. rewrite Z.eqb_refl. cbv beta iota zeta. rewrite Hl, Hp. cbn [andb]. rewrite Hs, H1. reflexivity.
  - change ([] ++ str "0x" ++ cs) with (ch "0" :: ch "x" :: cs).
    cbv beta iota. change (ch "0" =? ch "-") with false. cbv beta iota zeta.
    change (ch "0" :: ch "x" :: cs) with (str "0x" ++ cs). rewrite Hl, Hp. cbn [andb]. rewrite Hs, H1.
    reflexivity.
Qed.

Lemma decodeHexNumber_bare : forall neg cs ds, Forall2 hex_char cs ds ->
  has_prefix (str "0x") cs = false -> hd 0 cs <> ch "-" ->
  exists bs, decodeHexNumber (sign_text neg ++ cs) = (neg, Some bs) /\ bytes_ok bs /\
             be_val bs = digits_value 16 ds /\ zlen bs = (zlen cs + 1) / 2.
Proof.
  intros neg cs ds H Hp Hd.
  destruct (hex_pad_decode cs ds H) as (bs & H1 & H2 & H3 & H4).
  exists bs. split; [|auto].
  unfold decodeHexNumber. destruct neg; cbn [sign_text].
  - change (str "-" ++ cs) with (ch "-" :: cs). cbv beta iota. rewrite Z.eqb_refl. cbv beta iota zeta.
    rewrite Hp, andb_false_r, H1. reflexivity.
  - change ([] ++ cs) with cs.
    assert (E : match cs with c :: s' => if c =? ch "-" then (true, s') else (false, cs) | [] => (false, cs) end
                = (false, cs)).
    { destruct cs; [reflexivity|]. cbn [hd] in Hd. apply Z.eqb_neq in Hd. rewrite Hd. reflexivity. }
    rewrite E. cbv beta iota zeta. rewrite Hp, andb_false_r, H1. reflexivity.
Qed.

Lemma hex_text_no_minus : forall cs ds, Forall2 hex_char cs ds -> hd 0 cs <> ch "-".
Proof.
  intros cs ds H. destruct H; [discriminate|]. cbn. apply hex_char_cases in H.
  change (ch "-") with 45. lia.
Qed.

Lemma hex_text_no_0x : forall cs ds, Forall2 hex_char cs ds -> has_prefix (str "0x") cs = false.
Proof.
  intros cs ds H. destruct H; [reflexivity|]. destruct H0; cbn [str has_prefix].
  - rewrite andb_false_r; reflexivity.
  - apply hex_char_cases in H0. change (ch "x") with 120.
    replace (120 =? x0) with false by lia. cbn. apply andb_false_r.
Qed.

(** ** strconv *)
Lemma fold_digits_mono : forall base ds n, 2 <= base -> Forall (fun d => 0 <= d < base) ds -> 0 <= n ->
  n <= fold_left (fun a d => a * base + d) ds n.
Proof.
  intros base ds n Hb H. revert n. induction H as [|d ds Hd Hds IH]; intros n Hn; cbn [fold_left]; [lia|].
  assert (0 <= n * base + d) by nia. specialize (IH (n * base + d) H). nia.
Qed.

Lemma ParseUint_loop_spec : forall base maxVal cs ds us n, 2 <= base <= 16 -> 0 <= maxVal < 2 ^ 64 ->
  Forall2 (fun c d => digit_of c = Some d /\ 0 <= d < base /\ c <> ch "_") cs ds ->
  0 <= n <= maxVal ->
  ParseUint_loop base maxVal us n cs =
  (us, let v := fold_left (fun a d => a * base + d) ds n in
       if v <=? maxVal then PU_ok v else PU_range maxVal).
Proof.
  intros base maxVal cs ds us n Hb Hm H. revert n.
  induction H as [|c d cs ds [H1 [H2 H3]] H IH]; intros n Hn; cbn [ParseUint_loop fold_left].
  - cbv zeta. replace (n <=? maxVal) with true by lia. reflexivity.
  - replace (c =? ch "_") with false by lia. rewrite H1.
    replace (base <=? d) with false by lia.
    assert (Hds : Forall (fun d => 0 <= d < base) ds).
    { clear -H. induction H; constructor; tauto. }
    pose proof (fold_digits_mono base ds (n * base + d) ltac:(lia) Hds ltac:(nia)) as Hmono.
    assert (Hdm := Z.div_mod (2^64-1) base ltac:(lia)). assert (Hmb := Z.mod_pos_bound (2^64-1) base ltac:(lia)).
    cbv zeta.
    destruct (Z.leb_spec ((2^64-1) / base + 1) n).
    + assert (2^64 - 1 < n * base) by nia.
      replace (fold_left (fun a d0 : Z => a * base + d0) ds (n * base + d) <=? maxVal) with false by lia.
      reflexivity.
    + assert (n * base <= 2^64 - 1) by nia.
      rewrite (u64_small (n * base)) by nia.
      destruct (Z.lt_ge_cases (n * base + d) (2^64)).
      * rewrite u64_small by nia.
        replace (n * base + d <? n * base) with false by lia. cbn [orb].
        destruct (Z.ltb_spec maxVal (n * base + d)).
        -- replace (fold_left (fun a d0 : Z => a * base + d0) ds (n * base + d) <=? maxVal) with false by lia.
           reflexivity.
        -- rewrite IH by nia. reflexivity.
      * assert (E : u64 (n * base + d) = n * base + d - 2^64).
        { unfold u64. symmetry. apply (Z.mod_unique_pos _ _ 1); lia. }
        rewrite E. replace (n * base + d - 2^64 <? n * base) with true by lia. cbn [orb].
        replace (fold_left (fun a d0 : Z => a * base + d0) ds (n * base + d) <=? maxVal) with false by lia.
        reflexivity.
Qed.

Lemma hex_loop_pre : forall cs ds, Forall2 hex_char cs ds ->
  Forall2 (fun c d => digit_of c = Some d /\ 0 <= d < 16 /\ c <> ch "_") cs ds.
Proof.
  induction 1; constructor; auto. repeat split; eauto using hex_char_digit_of.
  - apply hex_char_range in H; lia.
  - apply hex_char_range in H; lia.
  - apply hex_char_cases in H. change (ch "_") with 95. lia.
Qed.

Lemma strconv_uint_hex : forall cs v bits, hex_text cs v -> 1 <= bits <= 64 ->
  strconv_ParseUint0 (str "0x" ++ cs) bits = if v <? 2 ^ bits then PU_ok v else PU_range (2 ^ bits - 1).
Proof.
  intros cs v bits (ds & Hne & H & ->) Hb.
  assert (HP : 2 <= 2 ^ bits <= 2 ^ 64).
  { split; [change 2 with (2^1) at 1|]; apply Z.pow_le_mono_r; lia. }
  destruct cs as [|c cs]; [contradiction|].
  change (str "0x" ++ c :: cs) with (ch "0" :: ch "x" :: c :: cs).
  unfold strconv_ParseUint0. cbn -[ParseUint_loop Z.pow ch hex_text underscoreOK].
  change (ch "0" =? ch "0") with true. cbn iota.
  change (lower (ch "x") =? ch "b") with false. change (lower (ch "x") =? ch "o") with false.
  change (lower (ch "x") =? ch "x") with true. cbn iota.
  rewrite (ParseUint_loop_spec 16 (2^bits-1) (c :: cs) ds) by (auto using hex_loop_pre; lia).
  cbv zeta. fold (digits_value 16 ds).
  destruct (Z.leb_spec (digits_value 16 ds) (2^bits-1)), (Z.ltb_spec (digits_value 16 ds) (2^bits));
    try lia; reflexivity.
Qed.

Lemma dec_loop_pre : forall cs ds, Forall2 (fun c d => c = 48 + d /\ 0 <= d <= 9) cs ds ->
  Forall2 (fun c d => digit_of c = Some d /\ 0 <= d < 10 /\ c <> ch "_") cs ds.
Proof.
  induction 1 as [|c d cs ds [-> Hd]]; constructor; auto. repeat split; try lia.
  - unfold digit_of. replace ((48 <=? 48 + d) && (48 + d <=? 57)) with true by lia. f_equal; lia.
  - change (ch "_") with 95. lia.
Qed.

Lemma strconv_uint_dec : forall cs v bits, dec_text cs v -> hd 0 cs <> ch "0" -> 1 <= bits <= 64 ->
  strconv_ParseUint0 cs bits = if v <? 2 ^ bits then PU_ok v else PU_range (2 ^ bits - 1).
Proof.
  intros cs v bits (ds & Hne & H & ->) Hd Hb.
  assert (HP : 2 <= 2 ^ bits <= 2 ^ 64).
  { split; [change 2 with (2^1) at 1|]; apply Z.pow_le_mono_r; lia. }
  destruct cs as [|c cs]; [contradiction|]. cbn [hd] in Hd.
  unfold strconv_ParseUint0. replace (c =? ch "0") with false by lia.
  rewrite (ParseUint_loop_spec 10 (2^bits-1) (c :: cs) ds) by (auto using dec_loop_pre; lia).
  cbv zeta. fold (digits_value 10 ds).
  destruct (Z.leb_spec (digits_value 10 ds) (2^bits-1)), (Z.ltb_spec (digits_value 10 ds) (2^bits));
    try lia; reflexivity.
Qed.

(** ParseInt's sign handling *)
Definition in_int_rangeb (bits x : Z) : bool := (- 2 ^ (bits - 1) <=? x) && (x <? 2 ^ (bits - 1)).

Lemma pow_bits : forall bits, 1 <= bits -> 2 ^ bits = 2 * 2 ^ (bits - 1).
Proof. intros. rewrite <- Z.pow_succ_r by lia. f_equal; lia. Qed.

Lemma pow_bits_bounds : forall bits, 1 <= bits <= 64 -> 1 <= 2 ^ (bits - 1) <= 2 ^ 63.
Proof.
  intros. split; [change 1 with (2^0) at 1|]; apply Z.pow_le_mono_r; lia.
Qed.

Lemma pow_bits_bounds2 : forall bits, 2 <= bits <= 64 -> 2 <= 2 ^ (bits - 1) <= 2 ^ 63.
Proof.
  intros. split; [change 2 with (2^1) at 1|]; apply Z.pow_le_mono_r; lia.
Qed.

Lemma strconv_int_of_uint : forall neg body v bits,
  2 <= bits <= 64 -> 0 <= v -> body <> [] -> hd 0 body <> ch "-" -> hd 0 body <> ch "+" ->
  strconv_ParseUint0 body bits = (if v <? 2 ^ bits then PU_ok v else PU_range (2 ^ bits - 1)) ->
  strconv_ParseInt0 (sign_text neg ++ body) bits =
  if in_int_rangeb bits (signed neg v) then Some (signed neg v) else None.
Proof.
  intros neg body v bits Hb Hv Hne Hm Hp HU.
  pose proof (pow_bits bits ltac:(lia)). pose proof (pow_bits_bounds2 bits Hb).
  assert (HF : forall un, (un = v \/ (2 ^ bits <= v /\ un = 2 ^ bits - 1)) ->
    (if negb neg && (2 ^ (bits - 1) <=? un) then None
     else if neg && (2 ^ (bits - 1) <? un) then None
     else Some (i64 (if neg then - un else un)))
    = if in_int_rangeb bits (signed neg v) then Some (signed neg v) else None).
  { intros un Hun. unfold in_int_rangeb, signed. destruct neg; cbn [negb andb].
    - destruct (Z.ltb_spec (2^(bits-1)) un).
      + replace (- 2 ^ (bits - 1) <=? - v) with false by lia. reflexivity.
      + assert (un = v) by lia. subst. rewrite i64_small by lia.
        replace (- 2 ^ (bits - 1) <=? - v) with true by lia.
        replace (- v <? 2 ^ (bits - 1)) with true by lia. reflexivity.
    - destruct (Z.leb_spec (2^(bits-1)) un).
      + replace (v <? 2 ^ (bits - 1)) with false by lia. rewrite andb_false_r. reflexivity.
      + assert (un = v) by lia. subst. rewrite i64_small by lia.
        replace (- 2 ^ (bits - 1) <=? v) with true by lia.
        replace (v <? 2 ^ (bits - 1)) with true by lia. reflexivity. }
  assert (E : exists c r, sign_text neg ++ body = c :: r /\
     (if c =? ch "+" then (false, r) else if c =? ch "-" then (true, r) else (false, c :: r)) = (neg, body)).
  { destruct neg; cbn [sign_text].
    - exists (ch "-"), body. split; reflexivity.
    - destruct body as [|c r]; [contradiction|]. exists c, r. split; [reflexivity|].
      cbn [hd] in Hm, Hp. apply Z.eqb_neq in Hm, Hp. rewrite Hm, Hp. reflexivity. }
  destruct E as (c & r & E1 & E2). rewrite E1. unfold strconv_ParseInt0. rewrite E2, HU.
  destruct (Z.ltb_spec v (2 ^ bits)); cbv zeta; apply HF; [left; reflexivity|right; split; [assumption|reflexivity]].
Qed.

Lemma strconv_int_hex : forall neg cs v bits, hex_text cs v -> 2 <= bits <= 64 ->
  strconv_ParseInt0 (sign_text neg ++ str "0x" ++ cs) bits =
  if in_int_rangeb bits (signed neg v) then Some (signed neg v) else None.
Proof.
  intros neg cs v bits H Hb. apply strconv_int_of_uint; try assumption; try (cbn; discriminate).
  - destruct H as (ds & _ & H & ->). apply digits_value_bound; [lia|eapply hex_chars_range; eassumption].
  - apply strconv_uint_hex; [assumption|lia].
Qed.

Lemma strconv_int_dec : forall neg cs v bits, dec_text cs v -> hd 0 cs <> ch "0" -> 2 <= bits <= 64 ->
  strconv_ParseInt0 (sign_text neg ++ cs) bits =
  if in_int_rangeb bits (signed neg v) then Some (signed neg v) else None.
Proof.
  intros neg cs v bits H Hd Hb.
  assert (Hc : 48 <= hd 0 cs <= 57 /\ cs <> [] /\ 0 <= v).
  { destruct H as (ds & Hne & H & ->). split; [|split].
    - destruct H as [|c d cs ds [-> ?]]; [contradiction|]. cbn [hd]; lia.
    - assumption.
    - apply digits_value_bound; [lia|]. clear Hne Hd. induction H; constructor; auto. lia. }
  apply strconv_int_of_uint; try tauto.
  - change (ch "-") with 45. lia.
  - change (ch "+") with 43. lia.
  - apply strconv_uint_dec; [assumption|assumption|lia].
Qed.

(** ** ParseInt *)
Lemma ParseInt_hex : forall neg cs v bits, hex_text cs v -> 2 <= bits <= 64 ->
  ParseInt (sign_text neg ++ str "0x" ++ cs) bits =
  if in_int_rangeb bits (signed neg v) then Some (signed neg v) else None.
Proof.
  intros neg cs v bits H Hb. unfold ParseInt. rewrite (strconv_int_hex neg cs v bits H Hb).
  destruct (in_int_rangeb bits (signed neg v)) eqn:E; [reflexivity|].
  destruct (decodeHexNumber_prefixed neg cs v H) as (bs & -> & Hok & Hv & Hl).
  pose proof (be_val_bound bs Hok). pose proof (pow_bits_bounds bits ltac:(lia)).
  destruct (Z.ltb_spec bits (zlen bs * 8)); [reflexivity|].
  rewrite BytesToSize_spec, Hv by assumption.
  assert (v < 2 ^ 64).
  { rewrite <- Hv. eapply Z.lt_le_trans; [apply H0|]. rewrite pow256_2. apply Z.pow_le_mono_r; [lia|].
    unfold zlen in H2. lia. }
  rewrite u64_small by lia. unfold in_int_rangeb, signed in E. destruct neg; cbv zeta.
  - destruct (Z.ltb_spec (2 ^ (bits-1)) v); [reflexivity|]. exfalso; lia.
  - destruct (Z.leb_spec (2 ^ (bits-1)) v); [reflexivity|]. exfalso; lia.
Qed.

Lemma ParseInt_range : forall s bits v, 1 <= bits <= 64 -> ParseInt s bits = Some v -> in_int_range bits v.
Proof.
  intros s bits v Hb. unfold ParseInt, in_int_range.
  pose proof (pow_bits bits ltac:(lia)). pose proof (pow_bits_bounds bits Hb).
  assert (HL : forall base m us n r, 2 <= base -> 0 <= m < 2^64 -> 0 <= n -> forall us' x,
     ParseUint_loop base m us n r = (us', PU_ok x) \/ ParseUint_loop base m us n r = (us', PU_range x) -> 0 <= x).
  { intros base m us n r Hbase Hm; revert us n. induction r as [|c r IH]; intros us n Hn us' x; cbn [ParseUint_loop].
    - intros [[= _ <-]|[=]]; lia.
    - destruct (c =? ch "_"); [apply IH; assumption|].
      destruct (digit_of c); [|intros [[=]|[=]]].
      destruct (base <=? z); [intros [[=]|[=]]|].
      destruct (_ <=? n); [intros [[=]|[= _ <-]]; lia|].
      destruct (_ || _); [intros [[=]|[= _ <-]]; lia|].
      apply IH. apply u64_range. }
  assert (HU : forall b x, strconv_ParseUint0 b bits = PU_ok x \/ strconv_ParseUint0 b bits = PU_range x -> 0 <= x).
  { intros b x. unfold strconv_ParseUint0. destruct b as [|c0 s1]; [intros [[=]|[=]]|].
    set (pr := if c0 =? ch "0" then _ else _).
    assert (2 <= fst pr).
    { unfold pr. destruct (c0 =? ch "0"); [|cbn; lia]. destruct s1 as [|c1 [|c2 s3]]; try (cbn; lia).
      destruct (lower c1 =? ch "b"); [cbn; lia|]. destruct (lower c1 =? ch "o"); [cbn; lia|].
      destruct (lower c1 =? ch "x"); cbn; lia. }
    destruct pr as [base body]. cbn [fst] in H1.
    destruct (ParseUint_loop base (2^bits-1) false 0 body) as [us r] eqn:E.
    destruct r as [n| |m].
    - destruct (us && negb (underscoreOK (c0 :: s1))); [intros [[=]|[=]]|].
      intros [[= <-]|[=]]. eapply (HL base); [eassumption| |apply Z.le_refl|left; eassumption]. lia.
    - intros [[=]|[=]].
    - intros [[=]|[= <-]]. eapply (HL base); [eassumption| |apply Z.le_refl|right; eassumption]. lia. }
  destruct (strconv_ParseInt0 s bits) eqn:E.
  - intros [= <-]. unfold strconv_ParseInt0 in E. destruct s as [|c r]; [discriminate|].
    set (pr := if c =? ch "+" then _ else _) in E. destruct pr as [neg body].
    assert (HF : forall un, 0 <= un ->
      (if negb neg && (2 ^ (bits - 1) <=? un) then None
       else if neg && (2 ^ (bits - 1) <? un) then None
       else Some (i64 (if neg then - un else un))) = Some z -> - 2 ^ (bits - 1) <= z < 2 ^ (bits - 1)).
    { intros un Hun. destruct neg; cbn [negb andb].
      - destruct (Z.ltb_spec (2 ^ (bits-1)) un); [discriminate|]. intros [= <-]. rewrite i64_small; lia.
      - destruct (Z.leb_spec (2 ^ (bits-1)) un); [discriminate|]. intros [= <-]. rewrite i64_small; lia. }
    destruct (strconv_ParseUint0 body bits) eqn:EU; cbv zeta in E; [| discriminate |];
      (eapply HF; [|exact E]); apply (HU body); auto.
  - destruct (decodeHexNumber s) as [negative [bs|]] eqn:ED; [|discriminate].
    assert (Hok : bytes_ok bs).
    { unfold decodeHexNumber in ED. destruct (match s with [] => _ | _ => _ end) as [ng s'].
      injection ED as _ ED. apply hex_decode_ok in ED. tauto. }
    destruct (Z.ltb_spec bits (zlen bs * 8)); [discriminate|]. cbv zeta.
    pose proof (be_val_bound bs Hok).
    assert (be_val bs < 2 ^ 64).
    { eapply Z.lt_le_trans; [apply H2|]. rewrite pow256_2. apply Z.pow_le_mono_r; [lia|]. unfold zlen in H1. lia. }
    rewrite BytesToSize_spec, u64_small by (auto; lia).
    destruct negative.
    + destruct (Z.ltb_spec (2^(bits-1)) (be_val bs)); [discriminate|]. intros [= <-].
      destruct (Z.eq_dec (be_val bs) (2^63)).
      * rewrite e. change (i64 (- i64 (2^63))) with (- 2^63). lia.
      * rewrite (i64_small (be_val bs)), i64_small by lia. lia.
    + destruct (Z.leb_spec (2^(bits-1)) (be_val bs)); [discriminate|]. intros [= <-].
      rewrite i64_small by lia. lia.
Qed.

Lemma ParseUint_hex : forall cs v bits, hex_text cs v -> 1 <= bits <= 64 ->
  ParseUint (str "0x" ++ cs) bits = if v <? 2 ^ bits then Some v else None.
Proof.
  intros cs v bits H Hb. unfold ParseUint. rewrite (strconv_uint_hex cs v bits H Hb).
  destruct (Z.ltb_spec v (2^bits)); [reflexivity|].
  destruct (decodeHexNumber_prefixed false cs v H) as (bs & E & Hok & Hv & Hl).
  change (sign_text false ++ str "0x" ++ cs) with (str "0x" ++ cs) in E. rewrite E.
  pose proof (be_val_bound bs Hok).
  destruct (Z.ltb_spec bits (zlen bs * 8)); [reflexivity|]. exfalso.
  rewrite pow256_2 in H1. assert (2 ^ (8 * Z.of_nat (length bs)) <= 2 ^ bits).
  { apply Z.pow_le_mono_r; [lia|]. unfold zlen in H2; lia. }
  lia.
Qed.

Lemma ParseUint_range : forall s bits v, 1 <= bits <= 64 -> ParseUint s bits = Some v -> 0 <= v < 2 ^ bits.
Proof.
  intros s bits v Hb. unfold ParseUint.
  assert (HP : 2 <= 2 ^ bits <= 2 ^ 64).
  { split; [change 2 with (2^1) at 1|]; apply Z.pow_le_mono_r; lia. }
  assert (HL : forall base us n r, 2 <= base -> 0 <= n <= 2^bits-1 -> forall us' x,
     ParseUint_loop base (2^bits-1) us n r = (us', PU_ok x) -> 0 <= x < 2^bits).
  { intros base us n r Hbase; revert us n. induction r as [|c r IH]; intros us n Hn us' x; cbn [ParseUint_loop].
    - intros [= _ <-]; lia.
    - destruct (c =? ch "_"); [apply IH; assumption|].
      destruct (digit_of c); [|intros [=]].
      destruct (base <=? z); [intros [=]|].
      destruct (_ <=? n); [intros [=]|].
      destruct (_ || _) eqn:EE; [intros [=]|].
      apply IH. pose proof (u64_range (u64 (n*base) + z)). lia. }
  assert (HD : forall o, match decodeHexNumber s with
      | (false, Some bs) => if bits <? zlen bs * 8 then None else Some (BytesToSize bs)
      | _ => None end = Some o -> 0 <= o < 2 ^ bits).
  { intros o. destruct (decodeHexNumber s) as [negative [bs|]] eqn:ED; [|destruct negative; discriminate].
    destruct negative; [discriminate|].
    assert (Hok : bytes_ok bs).
    { unfold decodeHexNumber in ED. destruct (match s with [] => _ | _ => _ end) as [ng s'].
      injection ED as _ ED. apply hex_decode_ok in ED. tauto. }
    destruct (Z.ltb_spec bits (zlen bs * 8)); [discriminate|]. intros [= <-].
    pose proof (be_val_bound bs Hok).
    assert (be_val bs < 2 ^ bits).
    { eapply Z.lt_le_trans; [apply H0|]. rewrite pow256_2. apply Z.pow_le_mono_r; [lia|]. unfold zlen in H; lia. }
    rewrite BytesToSize_spec, u64_small by (auto; lia). lia. }
  destruct (strconv_ParseUint0 s bits) eqn:E; [|apply HD|apply HD].
  intros [= <-]. unfold strconv_ParseUint0 in E. destruct s as [|c0 s1]; [discriminate|].
  set (pr := if c0 =? ch "0" then _ else _) in E.
  assert (2 <= fst pr).
  { unfold pr. destruct (c0 =? ch "0"); [|cbn; lia]. destruct s1 as [|c1 [|c2 s3]]; try (cbn; lia).
    destruct (lower c1 =? ch "b"); [cbn; lia|]. destruct (lower c1 =? ch "o"); [cbn; lia|].
    destruct (lower c1 =? ch "x"); cbn; lia. }
  destruct pr as [base body]. cbn [fst] in H.
  destruct (ParseUint_loop base (2^bits-1) false 0 body) as [us r] eqn:EL.
  destruct r as [m| |m]; [|discriminate|discriminate].
  destruct (us && negb (underscoreOK (c0 :: s1))); [discriminate|]. injection E as <-.
  eapply HL; [eassumption| |eassumption]. lia.
Qed.

(** decimal text *)
Lemma dec_as_hex : forall cs ds, Forall2 (fun c d => c = 48 + d /\ 0 <= d <= 9) cs ds -> Forall2 hex_char cs ds.
Proof. induction 1 as [|c d cs ds [-> Hd]]; constructor; auto. constructor; assumption. Qed.

Lemma dec_bound : forall cs ds, Forall2 (fun c d => c = 48 + d /\ 0 <= d <= 9) cs ds ->
  0 <= digits_value 10 ds < 10 ^ zlen cs.
Proof.
  intros cs ds H. replace (zlen cs) with (zlen ds).
  - apply digits_value_bound; [lia|]. induction H; constructor; auto. lia.
  - unfold zlen. f_equal. symmetry. eapply Forall2_length; eassumption.
Qed.


Lemma ten_pow_width : forall bits k, std_width bits -> 0 <= k -> (k + 1) / 2 * 8 <= bits -> 10 ^ k <= 2 ^ (bits - 1).
Proof.
  intros bits k Hw Hk H.
  assert (k <= bits / 4).
  { pose proof (Z.div_mod (k+1) 2 ltac:(lia)). pose proof (Z.mod_pos_bound (k+1) 2 ltac:(lia)).
    destruct Hw as [->|[->|[->| ->]]]; [change (8/4) with 2|change (16/4) with 4|change (32/4) with 8|change (64/4) with 16]; lia. }
  transitivity (10 ^ (bits / 4)); [apply Z.pow_le_mono_r; lia|].
  destruct Hw as [->|[->|[->| ->]]]; vm_compute; discriminate.
Qed.

Lemma ParseInt_dec : forall neg cs v bits, dec_text cs v -> hd 0 cs <> ch "0" -> std_width bits ->
  ParseInt (sign_text neg ++ cs) bits =
  if in_int_rangeb bits (signed neg v) then Some (signed neg v) else None.
Proof.
  intros neg cs v bits H Hd Hw.
  assert (Hb : 2 <= bits <= 64) by (destruct Hw as [->|[->|[->| ->]]]; lia).
  unfold ParseInt. rewrite (strconv_int_dec neg cs v bits H Hd Hb).
  destruct (in_int_rangeb bits (signed neg v)) eqn:E; [reflexivity|].
  destruct H as (ds & Hne & H & ->).
  destruct (decodeHexNumber_bare neg cs ds (dec_as_hex _ _ H)) as (bs & -> & Hok & Hv & Hl).
  { eapply hex_text_no_0x, dec_as_hex, H. } { eapply hex_text_no_minus, dec_as_hex, H. }
  destruct (Z.ltb_spec bits (zlen bs * 8)); [reflexivity|]. exfalso.
  rewrite Hl in H0.
  pose proof (ten_pow_width bits (zlen cs) Hw (zlen_nonneg _ _) H0).
  pose proof (dec_bound _ _ H). unfold in_int_rangeb, signed in E. destruct neg; lia.
Qed.

Lemma ParseUint_dec : forall cs v bits, dec_text cs v -> hd 0 cs <> ch "0" -> std_width bits ->
  ParseUint cs bits = if v <? 2 ^ bits then Some v else None.
Proof.
  intros cs v bits H Hd Hw.
  assert (Hb : 1 <= bits <= 64) by (destruct Hw as [->|[->|[->| ->]]]; lia).
  unfold ParseUint. rewrite (strconv_uint_dec cs v bits H Hd Hb).
  destruct (Z.ltb_spec v (2 ^ bits)); [reflexivity|].
  destruct H as (ds & Hne & H & ->).
  destruct (decodeHexNumber_bare false cs ds (dec_as_hex _ _ H)) as (bs & E & Hok & Hv & Hl).
  { eapply hex_text_no_0x, dec_as_hex, H. } { eapply hex_text_no_minus, dec_as_hex, H. }
  change (sign_text false ++ cs) with cs in E. rewrite E.
  destruct (Z.ltb_spec bits (zlen bs * 8)); [reflexivity|]. exfalso.
  rewrite Hl in H1.
  pose proof (ten_pow_width bits (zlen cs) Hw (zlen_nonneg _ _) H1).
  pose proof (dec_bound _ _ H). pose proof (pow_bits bits ltac:(lia)). lia.
Qed.

(** ** formatting *)
Lemma hex_digit_char : forall d, 0 <= d < 16 -> hex_char (hex_digit d) d.
Proof.
  intros d H. unfold hex_digit. destruct (Z.ltb_spec d 10).
  - replace (d + 48) with (48 + d) by lia. constructor; lia.
  - replace (d + 87) with (97 + (d - 10)) by lia. constructor; lia.
Qed.

Lemma hex_encode_digits : forall bs, bytes_ok bs ->
  exists ds, Forall2 hex_char (hex_encode bs) ds /\ digits_value 16 ds = be_val bs.
Proof.
  induction bs as [|b bs IH]; intros H.
  - exists []. split; [constructor|reflexivity].
  - apply bytes_ok_cons in H as [Hb H]. destruct (IH H) as (ds & H1 & H2).
    destruct (byte_nibbles b Hb). exists (b / 16 :: b mod 16 :: ds). split.
    + cbn. repeat constructor; auto using hex_digit_char.
    + rewrite !digits_value_cons, be_val_cons, H2, zlen_cons.
      assert (Hz : zlen ds = 2 * Z.of_nat (length bs)).
      { unfold zlen. rewrite <- (Forall2_length H1), hex_encode_length. lia. }
      rewrite Hz, Z.pow_add_r, Z.pow_1_r by lia. rewrite Z.pow_mul_r by lia. change (16^2) with 256.
      pose proof (Z.div_mod b 16 ltac:(lia)).
      replace (b * 256 ^ Z.of_nat (length bs)) with ((16 * (b / 16) + b mod 16) * 256 ^ Z.of_nat (length bs)) by congruence.
      ring.
Qed.


Lemma encodeHexNumber_spec : forall neg b, bytes_ok b -> b <> [] -> (0 < hd 0 b \/ length b = 1%nat) ->
  exists cs, encodeHexNumber neg b = sign_text neg ++ str "0x" ++ cs /\ hex_text cs (be_val b) /\
             no_leading_zero cs.
Proof.
  intros neg [|b0 r] Hok Hne Hh; [contradiction|].
  assert (Hb0 : is_byte b0) by (apply bytes_ok_cons in Hok; tauto).
  destruct (byte_nibbles b0 Hb0) as [Hn1 Hn2].
  destruct (hex_encode_digits _ Hok) as (ds & H1 & H2).
  unfold encodeHexNumber. cbn [hex_encode] in H1 |- *.
  inversion H1 as [|? d1 ? ds1 Hd1 H1']; subst. inversion H1' as [|? d2 ? ds2 Hd2 H1'']; subst.
  assert (Hz : forall d, 0 <= d < 16 -> (hex_digit d =? ch "0") = (d =? 0)).
  { intros d Hd. unfold hex_digit. change (ch "0") with 48. destruct (Z.ltb_spec d 10); lia. }
  assert (HF : forall cs : list Z, (if neg then str "-0x" ++ cs else str "0x" ++ cs) = sign_text neg ++ str "0x" ++ cs).
  { intros; destruct neg; reflexivity. }
  rewrite HF, Hz by assumption. destruct (Z.eqb_spec (b0 / 16) 0) as [E|E].
  - eexists; split; [reflexivity|]. split.
    + exists (d2 :: ds2). split; [discriminate|]. split; [constructor; assumption|].
      rewrite <- H2, (digits_value_cons 16 d1). rewrite E in Hd1. apply hex_char_cases in Hd1.
      change (hex_digit 0) with 48 in Hd1. assert (d1 = 0) by lia. subst. ring.
    + unfold no_leading_zero. cbn [hd length]. destruct Hh as [Hh|Hh].
      * left. cbn in Hh. intros C. apply Z.eqb_eq in C. rewrite Hz in C by assumption.
        pose proof (Z.div_mod b0 16 ltac:(lia)). lia.
      * right. cbn in Hh. injection Hh as Hh. destruct r; [reflexivity|discriminate].
  - eexists; split; [reflexivity|]. split.
    + exists (d1 :: d2 :: ds2). split; [discriminate|]. split; [repeat constructor; assumption|].
      symmetry; exact H2.
    + left. cbn [hd]. intros C. apply Z.eqb_eq in C. rewrite Hz in C by assumption. lia.
Qed.

Lemma FormatBigInt_spec : forall x, exists cs,
  FormatBigInt x = sign_text (x <? 0) ++ str "0x" ++ cs /\ hex_text cs (Z.abs x) /\ no_leading_zero cs.
Proof.
  intros x. unfold FormatBigInt. destruct (Z.eq_dec x 0).
  - subst. exists (str "0"). split; [reflexivity|]. split; [|right; reflexivity].
    exists [0]. split; [discriminate|]. split; [|reflexivity]. change (str "0") with [48 + 0]; constructor; [apply hc_dec; lia|constructor].
  - rewrite <- (be_val_big_bytes x).
    assert (big_bytes x <> []).
    { intros E. pose proof (be_val_big_bytes x). rewrite E in H. cbn in H. lia. }
    apply encodeHexNumber_spec; [apply big_bytes_ok|assumption|].
    left. destruct (big_bytes x) eqn:E; [contradiction|]. cbn. eapply big_bytes_head; eassumption.
Qed.

Lemma Size_text : forall neg v, 0 <= v < 2 ^ 64 -> exists cs,
  encodeHexNumber neg (SizeToBytes v) = sign_text neg ++ str "0x" ++ cs /\ hex_text cs v /\ no_leading_zero cs.
Proof.
  intros neg v Hv. destruct (SizeToBytes_ok v Hv) as (H1 & H2 & H3).
  enough (X : exists cs, encodeHexNumber neg (SizeToBytes v) = sign_text neg ++ str "0x" ++ cs /\
    hex_text cs (be_val (SizeToBytes v)) /\ no_leading_zero cs) by (rewrite H2 in X; exact X).
  apply encodeHexNumber_spec; [assumption| |].
  - intros E; rewrite E in H3; cbn in H3; lia.
  - destruct (Z.eq_dec v 0).
    + subst. right. reflexivity.
    + left. rewrite SizeToBytes_pos in * by lia. destruct (big_bytes v) eqn:E; [cbn in H3; lia|].
      cbn. eapply big_bytes_head; eassumption.
Qed.

Lemma FormatInt_spec : forall v, - 2 ^ 63 <= v < 2 ^ 63 -> exists cs,
  FormatInt v = sign_text (v <? 0) ++ str "0x" ++ cs /\ hex_text cs (Z.abs v) /\ no_leading_zero cs.
Proof.
  intros v Hv. unfold FormatInt. destruct (Z.ltb_spec v 0).
  - replace (u64 (i64 (- v))) with (Z.abs v).
    + apply (Size_text true). lia.
    + unfold u64. rewrite i64_mod, Z.mod_small; lia.
  - rewrite u64_small by lia. replace (Z.abs v) with v by lia. apply (Size_text false). lia.
Qed.

Lemma FormatUint_spec : forall v, 0 <= v < 2 ^ 64 -> exists cs,
  FormatUint v = str "0x" ++ cs /\ hex_text cs v /\ no_leading_zero cs.
Proof. intros v Hv. exact (Size_text false v Hv). Qed.

Lemma ParseBigInt_text : forall neg cs v, hex_text cs v ->
  ParseBigInt (sign_text neg ++ str "0x" ++ cs) = Some (signed neg v).
Proof.
  intros neg cs v H. unfold ParseBigInt.
  destruct (decodeHexNumber_prefixed neg cs v H) as (bs & -> & Hok & Hv & _).
  rewrite Hv. destruct neg; reflexivity.
Qed.

Lemma ParseBigInt_Format : forall x, ParseBigInt (FormatBigInt x) = Some x.
Proof.
  intros x. destruct (FormatBigInt_spec x) as (cs & -> & H & _).
  rewrite (ParseBigInt_text _ _ _ H). f_equal. unfold signed. destruct (Z.ltb_spec x 0); lia.
Qed.

Lemma ParseInt_Format : forall v bits, 2 <= bits <= 64 -> in_int_range bits v ->
  ParseInt (FormatInt v) bits = Some v.
Proof.
  intros v bits Hb Hv. unfold in_int_range in Hv. pose proof (pow_bits_bounds bits ltac:(lia)).
  destruct (FormatInt_spec v ltac:(lia)) as (cs & -> & H1 & _).
  rewrite (ParseInt_hex _ _ _ bits H1 Hb).
  assert (E : signed (v <? 0) (Z.abs v) = v) by (unfold signed; destruct (Z.ltb_spec v 0); lia).
  rewrite E. unfold in_int_rangeb.
  replace ((- 2 ^ (bits - 1) <=? v) && (v <? 2 ^ (bits - 1))) with true by lia. reflexivity.
Qed.

Lemma ParseUint_Format : forall v bits, 1 <= bits <= 64 -> 0 <= v < 2 ^ bits ->
  ParseUint (FormatUint v) bits = Some v.
Proof.
  intros v bits Hb Hv.
  assert (2 ^ bits <= 2 ^ 64) by (apply Z.pow_le_mono_r; lia).
  destruct (FormatUint_spec v ltac:(lia)) as (cs & -> & H1 & _).
  rewrite (ParseUint_hex _ _ bits H1 Hb).
  replace (v <? 2 ^ bits) with true by lia. reflexivity.
Qed.
