(** C01-C04: integer codecs of common/intconv. *)
From Coq Require Import String Ascii ZArith List Bool Lia.
From Verif Require Import Base L_Base M_IntConv S_IntConv L_IntConv L_IntStr.
Import ListNotations.
Open Scope Z_scope.

(** ** C01 *)

(** The encoder outputs the shortest two's-complement bytes. *)
Theorem C01_bigint_encoding_is_shortest : forall i : Z, shortest_tc i (BigIntToBytes i).
Proof. exact BigIntToBytes_shortest. Qed.
Print Assumptions C01_bigint_encoding_is_shortest.

(** Shortest encodings are unique, so the encoder is pinned down completely. *)
Theorem C01_shortest_unique : forall (i : Z) (bs : list Z), shortest_tc i bs -> bs = BigIntToBytes i.
Proof. exact (fun i bs H => shortest_tc_unique i _ _ H (BigIntToBytes_shortest i)). Qed.
Print Assumptions C01_shortest_unique.

(** The decoder reads any byte string as two's complement. *)
Theorem C01_bigint_decode_value : forall bs, bytes_ok bs -> BigIntSetBytes bs = tc_value bs.
Proof. exact BigIntSetBytes_spec. Qed.
Print Assumptions C01_bigint_decode_value.

Theorem C01_bigint_roundtrip : forall i : Z, BigIntSetBytes (BigIntToBytes i) = i.
Proof.
  exact (fun i => match BigIntToBytes_shortest i with
                  | conj _ (conj H1 (conj H2 _)) => eq_trans (BigIntSetBytes_spec _ H1) H2 end).
Qed.
Print Assumptions C01_bigint_roundtrip.

Theorem C01_bigint_injective : forall i j : Z, BigIntToBytes i = BigIntToBytes j -> i = j.
Proof.
  exact (fun i j H => eq_trans (eq_sym (C01_bigint_roundtrip i))
           (eq_trans (f_equal BigIntSetBytes H) (C01_bigint_roundtrip j))).
Qed.
Print Assumptions C01_bigint_injective.

Example C01_ex : BigIntToBytes (-32769) = [255; 127; 255] /\ BigIntToBytes 128 = [0; 128]
  /\ BigIntToBytes (-128) = [128] /\ BigIntSetBytes [255; 127; 255] = -32769.
Proof. vm_compute. auto. Qed.

(** ** C02 *)

Theorem C02_int64_encode : forall v, - 2 ^ 63 <= v < 2 ^ 63 -> Int64ToBytes v = BigIntToBytes v.
Proof. exact Int64ToBytes_spec. Qed.
Print Assumptions C02_int64_encode.

Theorem C02_uint64_encode : forall v, 0 <= v < 2 ^ 64 -> Uint64ToBytes v = BigIntToBytes v.
Proof. exact Uint64ToBytes_spec. Qed.
Print Assumptions C02_uint64_encode.

(** 64-bit decoders compute the two's-complement value reduced to 64 bits, for byte strings of
    every length. *)
Theorem C02_int64_decode : forall bs, bytes_ok bs -> BytesToInt64 bs = i64 (tc_value bs).
Proof. exact BytesToInt64_spec. Qed.
Print Assumptions C02_int64_decode.

Theorem C02_uint64_decode : forall bs, bytes_ok bs -> BytesToUint64 bs = u64 (tc_value bs).
Proof. exact BytesToUint64_spec. Qed.
Print Assumptions C02_uint64_decode.

Lemma tc_of_enc : forall v, bytes_ok (BigIntToBytes v) /\ tc_value (BigIntToBytes v) = v.
Proof. intros. destruct (BigIntToBytes_shortest v) as (_ & ? & ? & _). auto. Qed.

Theorem C02_int64_roundtrip : forall v, - 2 ^ 63 <= v < 2 ^ 63 -> BytesToInt64 (Int64ToBytes v) = v.
Proof.
  intros v Hv. destruct (tc_of_enc v). rewrite Int64ToBytes_spec, BytesToInt64_spec, H0 by assumption.
  apply i64_small; assumption.
Qed.
Print Assumptions C02_int64_roundtrip.

Theorem C02_uint64_roundtrip : forall v, 0 <= v < 2 ^ 64 -> BytesToUint64 (Uint64ToBytes v) = v.
Proof.
  intros v Hv. destruct (tc_of_enc v). rewrite Uint64ToBytes_spec, BytesToUint64_spec, H0 by assumption.
  apply u64_small; assumption.
Qed.
Print Assumptions C02_uint64_roundtrip.

(** Size headers: unsigned big-endian, at most eight bytes, no leading zero except for zero itself. *)
Theorem C02_size_encode : forall v, 0 <= v < 2 ^ 64 ->
  bytes_ok (SizeToBytes v) /\ be_val (SizeToBytes v) = v /\ (1 <= length (SizeToBytes v) <= 8)%nat /\
  (v <> 0 -> hd 0 (SizeToBytes v) <> 0).
Proof.
  intros v Hv. destruct (SizeToBytes_ok v Hv) as (H1 & H2 & H3). repeat split; try assumption; try tauto.
  intros Hnz. rewrite SizeToBytes_pos in * by lia. destruct (big_bytes v) eqn:E; [cbn in H3; lia|].
  apply big_bytes_head in E. cbn [hd]. lia.
Qed.
Print Assumptions C02_size_encode.

Theorem C02_size_decode : forall bs, bytes_ok bs -> BytesToSize bs = be_val bs mod 2 ^ 64.
Proof. exact BytesToSize_spec. Qed.
Print Assumptions C02_size_decode.

Theorem C02_size_roundtrip : forall v, 0 <= v < 2 ^ 64 -> BytesToSize (SizeToBytes v) = v.
Proof.
  intros v Hv. destruct (SizeToBytes_ok v Hv) as (H1 & H2 & _).
  rewrite BytesToSize_spec, H2 by assumption. apply u64_small; assumption.
Qed.
Print Assumptions C02_size_roundtrip.

Example C02_ex : Int64ToBytes (-129) = [255; 127] /\ BytesToInt64 [255; 127] = -129
  /\ Uint64ToBytes (2 ^ 63) = [0; 128; 0; 0; 0; 0; 0; 0; 0] /\ SizeToBytes 70000 = [1; 17; 112].
Proof. vm_compute. auto. Qed.

(** ** C03 *)

(** What the formatters print: sign, "0x", the hex digits of the magnitude, no superfluous zero. *)
Theorem C03_bigint_text : forall i, exists cs,
  FormatBigInt i = sign_text (i <? 0) ++ str "0x" ++ cs /\ hex_text cs (Z.abs i) /\ no_leading_zero cs.
Proof. exact FormatBigInt_spec. Qed.
Print Assumptions C03_bigint_text.

Theorem C03_int64_text : forall v, - 2 ^ 63 <= v < 2 ^ 63 -> exists cs,
  FormatInt v = sign_text (v <? 0) ++ str "0x" ++ cs /\ hex_text cs (Z.abs v) /\ no_leading_zero cs.
Proof. exact FormatInt_spec. Qed.
Print Assumptions C03_int64_text.

Theorem C03_uint64_text : forall v, 0 <= v < 2 ^ 64 -> exists cs,
  FormatUint v = str "0x" ++ cs /\ hex_text cs v /\ no_leading_zero cs.
Proof. exact FormatUint_spec. Qed.
Print Assumptions C03_uint64_text.

Theorem C03_bigint_roundtrip : forall i, ParseBigInt (FormatBigInt i) = Some i.
Proof. exact ParseBigInt_Format. Qed.
Print Assumptions C03_bigint_roundtrip.

Theorem C03_int_roundtrip : forall v bits, 2 <= bits <= 64 -> in_int_range bits v ->
  ParseInt (FormatInt v) bits = Some v.
Proof. exact ParseInt_Format. Qed.
Print Assumptions C03_int_roundtrip.

Theorem C03_uint_roundtrip : forall v bits, 1 <= bits <= 64 -> 0 <= v < 2 ^ bits ->
  ParseUint (FormatUint v) bits = Some v.
Proof. exact ParseUint_Format. Qed.
Print Assumptions C03_uint_roundtrip.

Example C03_ex : FormatBigInt (-255) = str "-0xff" /\ FormatInt (- 2 ^ 63) = str "-0x8000000000000000"
  /\ ParseInt (str "-0x8000000000000000") 64 = Some (- 2 ^ 63) /\ in_int_range 16 (-32768).
Proof. unfold in_int_range. vm_compute. repeat split; discriminate. Qed.

(** ** C04 *)

(** Whatever the text, a parsed value fits the declared width. *)
Theorem C04_int_in_range : forall s bits v, 1 <= bits <= 64 -> ParseInt s bits = Some v -> in_int_range bits v.
Proof. exact ParseInt_range. Qed.
Print Assumptions C04_int_in_range.

Theorem C04_uint_in_range : forall s bits v, 1 <= bits <= 64 -> ParseUint s bits = Some v -> 0 <= v < 2 ^ bits.
Proof. exact ParseUint_range. Qed.
Print Assumptions C04_uint_in_range.

(** Text with a 0x prefix (any case, any number of leading zeros) is accepted exactly when the
    number it denotes is in range, and then yields that number. *)
Theorem C04_int_prefixed_text : forall neg cs m bits v, hex_text cs m -> 2 <= bits <= 64 ->
  (ParseInt (sign_text neg ++ str "0x" ++ cs) bits = Some v <->
   v = signed neg m /\ in_int_range bits v).
Proof.
  intros neg cs m bits v H Hb. rewrite (ParseInt_hex neg cs m bits H Hb). unfold in_int_rangeb, in_int_range.
  destruct (Z.leb_spec (- 2 ^ (bits - 1)) (signed neg m)), (Z.ltb_spec (signed neg m) (2 ^ (bits - 1)));
    cbn [andb]; split; intros X; try discriminate; try (injection X as <-; auto);
    destruct X as [-> ?]; auto; lia.
Qed.
Print Assumptions C04_int_prefixed_text.

Theorem C04_uint_prefixed_text : forall cs m bits v, hex_text cs m -> 1 <= bits <= 64 ->
  (ParseUint (str "0x" ++ cs) bits = Some v <-> v = m /\ m < 2 ^ bits).
Proof.
  intros cs m bits v H Hb. rewrite (ParseUint_hex cs m bits H Hb).
  destruct (Z.ltb_spec m (2 ^ bits)); split; intros X; try discriminate; try (injection X as <-; auto);
    destruct X as [-> ?]; auto; lia.
Qed.
Print Assumptions C04_uint_prefixed_text.

(** The same for decimal text without a leading zero: no fall-back to the hexadecimal reading. *)
Theorem C04_int_decimal_text : forall neg cs m bits v, dec_text cs m -> hd 0 cs <> ch "0" -> std_width bits ->
  (ParseInt (sign_text neg ++ cs) bits = Some v <-> v = signed neg m /\ in_int_range bits v).
Proof.
  intros neg cs m bits v H Hd Hb. rewrite (ParseInt_dec neg cs m bits H Hd Hb). unfold in_int_rangeb, in_int_range.
  destruct (Z.leb_spec (- 2 ^ (bits - 1)) (signed neg m)), (Z.ltb_spec (signed neg m) (2 ^ (bits - 1)));
    cbn [andb]; split; intros X; try discriminate; try (injection X as <-; auto);
    destruct X as [-> ?]; auto; lia.
Qed.
Print Assumptions C04_int_decimal_text.

Theorem C04_uint_decimal_text : forall cs m bits v, dec_text cs m -> hd 0 cs <> ch "0" -> std_width bits ->
  (ParseUint cs bits = Some v <-> v = m /\ m < 2 ^ bits).
Proof.
  intros cs m bits v H Hd Hb. rewrite (ParseUint_dec cs m bits H Hd Hb).
  destruct (Z.ltb_spec m (2 ^ bits)); split; intros X; try discriminate; try (injection X as <-; auto);
    destruct X as [-> ?]; auto; lia.
Qed.
Print Assumptions C04_uint_decimal_text.

Example C04_ex_hex : hex_text (str "00fF") 255.
Proof.
  exists [0; 0; 15; 15]. split; [discriminate|]. split; [|reflexivity].
  change (str "00fF") with [48 + 0; 48 + 0; 97 + (15 - 10); 65 + (15 - 10)].
  repeat (constructor; [first [apply hc_dec; lia | apply hc_low; lia | apply hc_up; lia]|]). constructor.
Qed.
Example C04_ex : ParseInt (str "0x8000") 16 = None /\ ParseInt (str "32767") 16 = Some 32767
  /\ ParseInt (str "32768") 16 = None /\ ParseUint (str "0x00ff") 8 = Some 255.
Proof. vm_compute. auto. Qed.

(** Finding: text without a prefix means different numbers to the two parsers, and a leading zero
    switches the 64-bit parser to octal unless a digit 8 or 9 occurs, which switches it to hex. *)
Theorem C04_bare_digits_agree_refuted :
  exists s, ParseInt s 64 = Some 10 /\ ParseBigInt s = Some 16.
Proof. exists (str "10"). vm_compute. auto. Qed.
Print Assumptions C04_bare_digits_agree_refuted.

Theorem C04_leading_zero_monotone_refuted :
  ParseInt (str "077") 64 = Some 63 /\ ParseInt (str "078") 64 = Some 120 /\ ParseInt (str "0100") 64 = Some 64.
Proof. vm_compute. auto. Qed.
Print Assumptions C04_leading_zero_monotone_refuted.
