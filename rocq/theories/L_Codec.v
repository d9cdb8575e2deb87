From Coq Require Import String Ascii ZArith List Bool Lia Permutation Sorted.
From Coq Require Import ZifyBool.
From Verif Require Import Base L_Base GoStr GoSort M_IntConv S_IntConv L_IntConv M_Rlp S_Rlp L_Rlp L_Address M_Codec S_Codec.
Import ListNotations.
Open Scope Z_scope.

Lemma ty_ind2 : forall P : ty -> Prop,
  P TBool -> (forall b, P (TUint b)) -> (forall b, P (TInt b)) -> P TString -> P TBytes -> (forall n, P (TByteArray n)) ->
  (forall t, P t -> P (TPtr t)) -> (forall t, P t -> P (TSlice t)) -> (forall n t, P t -> P (TArray n t)) ->
  (forall fs, Forall P fs -> P (TStruct fs)) -> (forall k t, P t -> P (TMap k t)) -> forall t, P t.
Proof.
  intros P H1 H2 H3 H4 H5 H6 H7 H8 H9 H10 H11. fix IH 1.
  intros [|b|b| | |n|t|t|n t|fs|k t];
    [exact H1|exact (H2 b)|exact (H3 b)|exact H4|exact H5|exact (H6 n)|exact (H7 t (IH t))|exact (H8 t (IH t))
    |exact (H9 n t (IH t))| |exact (H11 k t (IH t))].
  apply H10. induction fs as [|f fs IHf]; constructor; [exact (IH f)|exact IHf].
Qed.

(** ** key order *)
Lemma key_ltb_irrefl : forall a, key_ltb a a = false.
Proof. intros [s|z|z]; cbn; [apply bytes_ltb_irrefl|apply Z.ltb_irrefl..]. Qed.

Lemma key_ltb_trans : forall a b c, key_ltb a b = true -> key_ltb b c = true -> key_ltb a c = true.
Proof.
  intros [s|z|z] [s'|z'|z'] [s''|z''|z'']; cbn; try discriminate; try reflexivity; try lia.
  apply bytes_ltb_trans.
Qed.

Lemma key_ltb_total : forall a b, key_ltb a b = true \/ a = b \/ key_ltb b a = true.
Proof.
  intros [s|z|z] [s'|z'|z']; cbn; auto.
  - destruct (bytes_ltb_total s s') as [H|[H|H]]; subst; auto.
  - destruct (Z.lt_total z z') as [H|[H|H]]; [left|right; left|right; right]; try lia; congruence.
  - destruct (Z.lt_total z z') as [H|[H|H]]; [left|right; left|right; right]; try lia; congruence.
Qed.

Definition ent_ltb {A} (a b : gkey * A) : bool := key_ltb (fst a) (fst b).

Lemma ent_irr : forall A (a : gkey * A), ent_ltb a a = false.
Proof. intros. apply key_ltb_irrefl. Qed.
Lemma ent_trans : forall A (a b c : gkey * A), ent_ltb a b = true -> ent_ltb b c = true -> ent_ltb a c = true.
Proof. intros A a b c. apply key_ltb_trans. Qed.

Lemma nodup_pairwise : forall A (l : list (gkey * A)), NoDup (map fst l) -> pairwise ent_ltb l.
Proof.
  induction l as [|x l IH]; cbn; intros H; [constructor|]. inversion H; subst.
  constructor; [|apply IH; assumption]. apply Forall_forall. intros y Hy. unfold ent_ltb.
  destruct (key_ltb_total (fst x) (fst y)) as [E|[E|E]]; auto.
  exfalso. apply H2. rewrite E. apply in_map; assumption.
Qed.

Lemma sorted_nodup : forall A (l : list (gkey * A)), StronglySorted (fun a b => key_lt (fst a) (fst b)) l -> NoDup (map fst l).
Proof.
  induction 1 as [|x l HS IH Hx]; cbn; constructor; auto.
  intros Hin. apply in_map_iff in Hin as (y & E & Hy). rewrite Forall_forall in Hx. specialize (Hx _ Hy).
  unfold key_lt in Hx. rewrite E, key_ltb_irrefl in Hx. discriminate.
Qed.

(** the entries of a map in the order they are written *)
Definition enc_entries (m : list (gkey * val)) : list (gkey * list Z) :=
  map (fun kv => (fst kv, encodeValue (snd kv))) m.

Lemma encode_map_eq : forall m, encodeValue (VMap (Some m)) =
  writeList (concat (map (fun ke => write_key (fst ke) ++ snd ke) (sort_by ent_ltb (enc_entries m)))).
Proof. reflexivity. Qed.

Lemma enc_entries_fst : forall m, map fst (enc_entries m) = map fst m.
Proof. intros. unfold enc_entries. rewrite map_map. reflexivity. Qed.

Lemma enc_entries_sorted : forall m, StronglySorted (fun a b => key_lt (fst a) (fst b)) m ->
  StronglySorted (fun a b => ent_ltb a b = true) (enc_entries m).
Proof.
  induction 1 as [|x l HS IH Hx]; cbn; constructor; auto.
  apply Forall_forall. intros y Hy. unfold enc_entries in Hy. apply in_map_iff in Hy as (z & <- & Hz).
  rewrite Forall_forall in Hx. exact (Hx z Hz).
Qed.

Lemma sort_sorted_map : forall m, StronglySorted (fun a b => key_lt (fst a) (fst b)) m ->
  sort_by ent_ltb (enc_entries m) = enc_entries m.
Proof.
  intros m H. apply sort_by_unique; auto using ent_irr.
  - intros a b c; apply ent_trans.
  - apply nodup_pairwise. rewrite enc_entries_fst. apply sorted_nodup; assumption.
  - apply enc_entries_sorted; assumption.
Qed.

Lemma encode_sorted_map : forall m, StronglySorted (fun a b => key_lt (fst a) (fst b)) m ->
  encodeValue (VMap (Some m)) = writeList (concat (map (fun kv => write_key (fst kv) ++ encodeValue (snd kv)) m)).
Proof.
  intros m H. rewrite encode_map_eq, sort_sorted_map by assumption. unfold enc_entries. rewrite map_map. reflexivity.
Qed.

(** ** scalars *)
Lemma uint_bytes_ok : forall z, 0 <= z < 2 ^ 64 -> bytes_ok (Uint64ToBytes z) /\ BytesToUint64 (Uint64ToBytes z) = z.
Proof.
  intros z Hz. rewrite Uint64ToBytes_spec by assumption.
  destruct (BigIntToBytes_shortest z) as (_ & H1 & H2 & _). split; [assumption|].
  rewrite BytesToUint64_spec, H2 by assumption. apply u64_small; assumption.
Qed.

Lemma int_bytes_ok : forall z, - 2 ^ 63 <= z < 2 ^ 63 -> bytes_ok (Int64ToBytes z) /\ BytesToInt64 (Int64ToBytes z) = z.
Proof.
  intros z Hz. rewrite Int64ToBytes_spec by assumption.
  destruct (BigIntToBytes_shortest z) as (_ & H1 & H2 & _). split; [assumption|].
  rewrite BytesToInt64_spec, H2 by assumption. apply i64_small; assumption.
Qed.

Lemma width_bounds : forall bits, int_width bits -> 2 ^ bits <= 2 ^ 64 /\ 2 ^ (bits - 1) <= 2 ^ 63 /\ 2 ^ bits = 2 * 2 ^ (bits - 1).
Proof. intros bits [->|[->|[->| ->]]]; cbn; lia. Qed.

Lemma wrap_uint_id : forall bits z, uint_value bits z -> wrap_uint bits z = z.
Proof. intros bits z H. apply Z.mod_small. exact H. Qed.

Lemma wrap_int_id : forall bits z, int_width bits -> int_value bits z -> wrap_int bits z = z.
Proof.
  intros bits z Hw H. destruct (width_bounds bits Hw) as (_ & _ & H2). unfold wrap_int, int_value in *.
  destruct (Z.le_gt_cases 0 z).
  - rewrite Z.mod_small by lia. destruct (Z.ltb_spec z (2 ^ (bits - 1))); lia.
  - replace (z mod 2 ^ bits) with (z + 2 ^ bits) by (apply (Z.mod_unique _ _ (-1)); lia).
    destruct (Z.ltb_spec (z + 2 ^ bits) (2 ^ (bits - 1))); lia.
Qed.

Lemma uint_len : forall z, 0 <= z < 2 ^ 64 -> zlen (Uint64ToBytes z) < 2 ^ 63.
Proof.
  intros z Hz. rewrite Uint64ToBytes_spec by lia.
  destruct (BigIntToBytes_shortest z) as (_ & _ & _ & HS).
  specialize (HS (be_fixed 9 z)). assert (length (BigIntToBytes z) <= 9)%nat.
    { replace 9%nat with (length (be_fixed 9 z)) by apply be_fixed_length. apply HS; [|apply be_fixed_ok|].
    - intros E. apply (f_equal (@length Z)) in E. rewrite be_fixed_length in E. discriminate.
    - unfold tc_value. destruct (be_fixed 9 z) as [|b0 r] eqn:E.
      { apply (f_equal (@length Z)) in E. rewrite be_fixed_length in E. discriminate. }
      assert (HV := be_val_be_fixed 9 z). rewrite E in HV.
      assert (HL := be_fixed_length 9 z). rewrite E in HL. rewrite HV, HL.
      rewrite Z.mod_small by (change (256 ^ Z.of_nat 9) with (2^72); lia).
      assert (b0 = 0) as ->.
      { rewrite be_val_cons in HV. cbn [length] in HL. injection HL as HL. rewrite HL in HV.
        change (256 ^ Z.of_nat 8) with (2^64) in HV.
        rewrite Z.mod_small in HV by (change (256 ^ Z.of_nat 9) with (2^72); lia).
        assert (HO := be_fixed_ok 9 z). rewrite E in HO. apply bytes_ok_cons in HO as [[HO1 HO2] HO3].
        pose proof (be_val_bound r HO3). lia. }
      cbn. lia. }
  unfold zlen. lia.
Qed.

Lemma read_uint_write : forall bits z rest, int_width bits -> uint_value bits z ->
  read_uint bits (write_uint z ++ rest) = ROk z rest.
Proof.
  intros bits z rest Hw H. destruct (width_bounds bits Hw) as (H1 & _ & _). unfold uint_value in H.
  destruct (uint_bytes_ok z ltac:(lia)) as [B1 B2]. unfold read_uint, write_uint.
  rewrite readBytes_write; [|assumption|apply uint_len; lia].
  cbn [rmap]. rewrite B2, wrap_uint_id by assumption. reflexivity.
Qed.

Lemma int_len : forall z, - 2 ^ 63 <= z < 2 ^ 63 -> zlen (Int64ToBytes z) < 2 ^ 63.
Proof.
  intros z Hz. rewrite Int64ToBytes_spec by assumption.
  destruct (BigIntToBytes_shortest z) as (_ & _ & _ & HS).
  specialize (HS (be_fixed 8 z)). assert (length (BigIntToBytes z) <= 8)%nat; [|unfold zlen; lia].
  replace 8%nat with (length (be_fixed 8 z)) by apply be_fixed_length. apply HS; [|apply be_fixed_ok|].
  - intros E. apply (f_equal (@length Z)) in E. rewrite be_fixed_length in E. discriminate.
  - unfold tc_value. destruct (be_fixed 8 z) as [|b0 r] eqn:E.
    { apply (f_equal (@length Z)) in E. rewrite be_fixed_length in E. discriminate. }
    assert (HV := be_val_be_fixed 8 z). rewrite E in HV.
    assert (HL := be_fixed_length 8 z). rewrite E in HL. rewrite HV, HL. change (256 ^ Z.of_nat 8) with (2^64) in *.
    rewrite be_val_cons in HV. cbn [length] in HL. injection HL as HL. rewrite HL in HV.
    change (256 ^ Z.of_nat 7) with (2^56) in HV.
    assert (HO := be_fixed_ok 8 z). rewrite E in HO. apply bytes_ok_cons in HO as [[HO1 HO2] HO3].
    pose proof (be_val_bound r HO3) as HB. rewrite HL in HB. change (256 ^ Z.of_nat 7) with (2^56) in HB.
    destruct (Z.le_gt_cases 0 z).
    + rewrite Z.mod_small in * by lia. destruct (Z.ltb_spec b0 128); lia.
    + replace (z mod 2^64) with (z + 2^64) in * by (apply (Z.mod_unique _ _ (-1)); lia).
      destruct (Z.ltb_spec b0 128); lia.
Qed.

Lemma read_int_write : forall bits z rest, int_width bits -> int_value bits z ->
  read_int bits (write_int z ++ rest) = ROk z rest.
Proof.
  intros bits z rest Hw H. destruct (width_bounds bits Hw) as (_ & H1 & _). unfold int_value in H.
  destruct (int_bytes_ok z ltac:(lia)) as [B1 B2]. unfold read_int, write_int.
  rewrite readBytes_write; [|assumption|apply int_len; lia].
  cbn [rmap]. rewrite B2, wrap_int_id by assumption. reflexivity.
Qed.

Lemma read_bool_write : forall b rest, read_bool (write_bool b ++ rest) = ROk b rest.
Proof.
  intros b rest. unfold read_bool, write_bool. rewrite readBytes_write.
  - destruct b; reflexivity.
  - destruct b; repeat constructor; cbn; lia.
  - destruct b; cbn; lia.
Qed.

Lemma write_key_pos : forall k, 1 <= zlen (write_key k).
Proof. intros [s|z|z]; apply writeBytes_len. Qed.

Lemma read_key_write : forall k x rest, key_has_kind k x -> zlen (write_key x) < 2^63 ->
  read_key k (write_key x ++ rest) = ROk x rest.
Proof.
  intros k x rest H Hl. destruct k, x; cbn [key_has_kind] in H; try contradiction; cbn [read_key write_key].
  - cbn [write_key] in Hl. unfold write_string, read_string in *. pose proof (writeBytes_len s).
    rewrite readBytes_write by (auto; lia). reflexivity.
  - destruct H. rewrite read_int_write by assumption. reflexivity.
  - destruct H. rewrite read_uint_write by assumption. reflexivity.
Qed.

Lemma read_key_eof : forall k, read_key k [] = REof.
Proof. intros []; reflexivity. Qed.

(** ** structure *)
Lemma encodeValue_pos : forall v, 1 <= zlen (encodeValue v).
Proof.
  assert (HL : forall b, 1 <= zlen (writeList b)).
  { intros b. pose proof (writeList_len b). pose proof (zlen_nonneg _ b). lia. }
  assert (HN : 1 <= zlen writeNull) by (cbn; lia).
  fix IH 1. intros [b|z|z|s|[b|]|b|[v|]|[l|]|l|l|[m|]]; cbn [encodeValue]; try apply writeBytes_len; auto.
Qed.

Lemma decodeValue_eof : forall t, decodeValue t [] = REof.
Proof. induction t using ty_ind2; cbn [decodeValue]; try reflexivity. rewrite IHt. reflexivity. Qed.


Lemma dec_slice_enc : forall dec (l : list val) fuel,
  Forall (fun v => forall rest, dec (encodeValue v ++ rest) = ROk v rest) l -> dec [] = REof ->
  (length l < fuel)%nat -> dec_slice dec fuel (concat (map encodeValue l)) = LOk l.
Proof.
  intros dec l. induction l as [|v l IH]; intros fuel HF HE Hf; (destruct fuel; [cbn in Hf; lia|]); cbn [map concat dec_slice].
  - rewrite HE. reflexivity.
  - inversion HF as [|? ? Hv Hl]; subst. rewrite Hv. rewrite IH by (auto; cbn in Hf; lia). reflexivity.
Qed.

Lemma dec_array_enc : forall dec z (l : list val),
  Forall (fun v => forall rest, dec (encodeValue v ++ rest) = ROk v rest) l ->
  dec_array dec z (length l) (concat (map encodeValue l)) = LOk l.
Proof.
  intros dec z l. induction l as [|v l IH]; intros HF; [reflexivity|]. cbn [map concat length dec_array].
  inversion HF as [|? ? Hv Hl]; subst. rewrite Hv, IH by assumption. reflexivity.
Qed.

Lemma concat_len_ge : forall (l : list val), (length l <= length (concat (map encodeValue l)))%nat.
Proof.
  induction l as [|v l IH]; cbn [map concat length]; [lia|]. rewrite app_length.
  pose proof (encodeValue_pos v) as H. unfold zlen in H. lia.
Qed.

Lemma map_set_last : forall k v m, Forall (fun kv => key_lt (fst kv) k) m -> map_set k v m = m ++ [(k, v)].
Proof.
  induction m as [|[k' v'] m IH]; intros H; [reflexivity|]. inversion H as [|? ? H1 H2]; subst.
  cbn [map_set app]. unfold key_lt in H1. cbn [fst] in H1. rewrite H1, IH by assumption. reflexivity.
Qed.

Lemma dec_map_enc : forall kdec vdec (m acc : list (gkey * val)) fuel,
  Forall (fun kv => (forall rest, kdec (write_key (fst kv) ++ rest) = ROk (fst kv) rest) /\
                    (forall rest, vdec (encodeValue (snd kv) ++ rest) = ROk (snd kv) rest)) m ->
  kdec [] = REof -> StronglySorted (fun a b => key_lt (fst a) (fst b)) (acc ++ m) -> (length m < fuel)%nat ->
  dec_map kdec vdec fuel acc (concat (map (fun kv => write_key (fst kv) ++ encodeValue (snd kv)) m)) = LOk (acc ++ m).
Proof.
  intros kdec vdec m. induction m as [|[k v] m IH]; intros acc fuel HF HE HS Hf;
    (destruct fuel; [cbn in Hf; lia|]); cbn [map concat dec_map fst snd].
  - rewrite HE, app_nil_r. reflexivity.
  - inversion HF as [|? ? [Hk Hv] Hl]; subst. cbn [fst snd] in Hk, Hv. rewrite <- app_assoc, Hk, Hv.
    assert (HA : Forall (fun kv => key_lt (fst kv) k) acc).
    { clear -HS. induction acc as [|a acc IHa]; constructor.
      - inversion HS as [|? ? _ HF]; subst. rewrite Forall_forall in HF.
        apply (HF (k, v)). apply in_or_app. right; left; reflexivity.
      - apply IHa. inversion HS; assumption. }
    rewrite map_set_last by assumption.
    rewrite IH; [rewrite <- app_assoc; reflexivity|assumption|assumption| |cbn in Hf; lia].
    rewrite <- app_assoc. exact HS.
Qed.

Lemma concat_map_len_ge : forall (m : list (gkey * val)),
  (length m <= length (concat (map (fun kv => write_key (fst kv) ++ encodeValue (snd kv)) m)))%nat.
Proof.
  induction m as [|[k v] m IH]; cbn [map concat length fst snd]; [lia|]. rewrite !app_length.
  pose proof (encodeValue_pos v) as H. unfold zlen in H. lia.
Qed.

Definition is_nil_ptr (v : val) : Prop := v = VPtr None.

Definition decodes (t : ty) (v : val) : Prop := forall rest,
  decodeValue t (encodeValue v ++ rest) = match v with VPtr None => RNil rest | _ => ROk v rest end.

Lemma decodes_nullable : forall t v, has_type t v -> decodes t v -> forall rest,
  nullable (zero t) (decodeValue t (encodeValue v ++ rest)) = ROk v rest.
Proof.
  intros t v HT HD rest. rewrite HD. destruct v; try reflexivity. destruct v; [reflexivity|].
  destruct t; cbn in HT; try contradiction. reflexivity.
Qed.

Lemma small_list : forall b, zlen (writeList b) < 2^63 -> zlen b < 2^63.
Proof. intros b H. pose proof (writeList_len b). lia. Qed.

Lemma small_elems : forall l, zlen (concat (map encodeValue l)) < 2^63 -> Forall (fun v => zlen (encodeValue v) < 2^63) l.
Proof.
  intros l H. apply Forall_forall. intros v Hv.
  pose proof (concat_len_in (map encodeValue l) (encodeValue v) (in_map _ _ _ Hv)). lia.
Qed.

Lemma decode_encode : forall t v, simple_pointers t -> has_type t v -> zlen (encodeValue v) < 2^63 -> decodes t v.
Proof.
  induction t as [|bits|bits| | |n|t IH|t IH|n t IH|fs IH|k t IH] using ty_ind2; intros v HP HT HL rest.
  - destruct v; cbn in HT; try contradiction. cbn [encodeValue decodeValue]. rewrite read_bool_write. reflexivity.
  - destruct v; cbn in HT; try contradiction. destruct HT. cbn [encodeValue decodeValue].
    rewrite read_uint_write by assumption. reflexivity.
  - destruct v; cbn in HT; try contradiction. destruct HT. cbn [encodeValue decodeValue].
    rewrite read_int_write by assumption. reflexivity.
  - destruct v; cbn in HT; try contradiction. cbn [encodeValue decodeValue] in *. unfold write_string, read_string in *.
    pose proof (writeBytes_len s). rewrite readBytes_write by (auto; lia). reflexivity.
  - destruct v as [| | | |[b|]| | | | | |]; cbn in HT; try contradiction; cbn [encodeValue decodeValue] in *.
    + pose proof (writeBytes_len b). rewrite readBytes_write by (auto; lia). reflexivity.
    + change (writeBytes None) with writeNull. rewrite readBytes_null. reflexivity.
  - destruct v; cbn in HT; try contradiction. destruct HT as [H1 H2]. cbn [encodeValue decodeValue] in *.
    pose proof (writeBytes_len b). rewrite readBytes_write by (auto; lia). cbn [rmap].
    rewrite go_copy_all by (rewrite repeat_length; assumption). reflexivity.
  - destruct v as [| | | | | |[v|]| | | |]; cbn in HT; try contradiction; cbn [encodeValue decodeValue] in *.
    + destruct HP as [HP1 HP2]. rewrite (IH v HP2 HT HL).
      destruct v; try reflexivity. destruct v; [reflexivity|]. destruct t; cbn in HT; try contradiction.
    + destruct HP as [HP1 HP2].
      assert (HN : decodeValue t (writeNull ++ rest) = RNil rest).
      { destruct t; cbn [can_be_nil] in HP1; try tauto; cbn [decodeValue];
          unfold read_bool, read_uint, read_int, read_string; rewrite ?readBytes_null, ?readList_null; reflexivity. }
      rewrite HN. reflexivity.
  - destruct v as [| | | | | | |[l|]| | |]; cbn in HT; try contradiction; cbn [encodeValue decodeValue] in *.
    + apply small_list in HL. rewrite readList_write by assumption.
      rewrite dec_slice_enc; [reflexivity| | |].
      * apply small_elems in HL. cbn [simple_pointers] in HP. rewrite Forall_forall in *.
        intros v Hv rest'. apply decodes_nullable; auto.
      * rewrite decodeValue_eof. reflexivity.
      * pose proof (concat_len_ge l). lia.
    + rewrite readList_null. reflexivity.
  - destruct v; cbn in HT; try contradiction; cbn [encodeValue decodeValue] in *. destruct HT as [<- HT].
    apply small_list in HL. rewrite readList_write by assumption.
    rewrite dec_array_enc; [reflexivity|].
    apply small_elems in HL. cbn [simple_pointers] in HP. rewrite Forall_forall in *.
    intros v Hv rest'. apply decodes_nullable; auto.
  - destruct v; cbn [has_type] in HT; try contradiction; cbn [encodeValue decodeValue] in *.
    apply small_list in HL. rewrite readList_write by assumption. apply small_elems in HL.
    assert (G : dec_fields (map (fun t' => (zero t', fun s => nullable (zero t') (decodeValue t' s))) fs)
                  (concat (map encodeValue l)) = LOk l).
    { cbn [simple_pointers] in HP. clear rest. revert l HT HL. induction fs as [|f fs IHf]; intros [|v l] HT HL; try contradiction.
      - reflexivity.
      - destruct HT as [HT1 HT2]. inversion HL; subst. inversion IH; subst. cbn [fold_right] in HP. destruct HP as [HP1 HP2].
        cbn [map concat]. unfold dec_fields. rewrite decodes_nullable by auto.
        fold (dec_fields (map (fun t' => (zero t', fun s => nullable (zero t') (decodeValue t' s))) fs)).
        rewrite IHf by auto. reflexivity. }
    rewrite G. reflexivity.
  - destruct v as [| | | | | | | | | |[m|]]; cbn [has_type] in HT; try contradiction; cbn [decodeValue] in *.
    + destruct HT as [HS HT]. rewrite encode_sorted_map in * by assumption.
      apply small_list in HL. rewrite readList_write by assumption.
      rewrite (dec_map_enc _ _ m []); [reflexivity| | | |].
      * cbn [simple_pointers] in HP. rewrite Forall_forall in *. intros [k' v'] Hkv. specialize (HT _ Hkv).
        cbn [fst snd] in *. destruct HT as [HT1 HT2].
        pose proof (concat_len_in _ _ (in_map (fun kv => write_key (fst kv) ++ encodeValue (snd kv)) _ _ Hkv)) as HLen.
        cbn [fst snd] in HLen. rewrite zlen_app in HLen.
        pose proof (encodeValue_pos v'). pose proof (write_key_pos k').
        split; intros rest'; [apply read_key_write; [assumption|lia]|].
        apply decodes_nullable; auto. apply IH; auto. lia.
      * apply read_key_eof.
      * exact HS.
      * pose proof (concat_map_len_ge m). lia.
    + cbn [encodeValue]. rewrite readList_null. reflexivity.
Qed.
