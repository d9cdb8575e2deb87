(** Theorems about the typed codec: C10, C11, C12. *)
From Coq Require Import String Ascii ZArith List Bool Lia Permutation Sorted.
From Coq Require Import ZifyBool.
From Verif Require Import Base L_Base GoStr GoSort M_IntConv S_IntConv L_IntConv M_Rlp S_Rlp L_Rlp M_Codec S_Codec L_Codec.
Import ListNotations.
Open Scope Z_scope.

(** ** C10 *)

(** Marshal, then unmarshal into a fresh variable: the value, and the bytes that followed it.  A nil
    pointer at top level is the exception: UnmarshalFromBytes reports ErrNilValue for it (next theorem). *)
Theorem C10_roundtrip : forall t v rest, simple_pointers t -> has_type t v -> zlen (MarshalToBytes v) < 2^63 ->
  v <> VPtr None -> UnmarshalFromBytes t (MarshalToBytes v ++ rest) = Ok (v, rest).
Proof.
  intros t v rest H1 H2 H3 H4. unfold UnmarshalFromBytes, MarshalToBytes in *. rewrite (decode_encode t v H1 H2 H3 rest).
  destruct v as [| | | | | |[v|]| | | |]; try reflexivity. congruence.
Qed.
Print Assumptions C10_roundtrip.

Theorem C10_top_level_nil_pointer : forall t rest, simple_pointers (TPtr t) ->
  UnmarshalFromBytes (TPtr t) (MarshalToBytes (VPtr None) ++ rest) = Err 2.
Proof.
  intros t rest H. unfold UnmarshalFromBytes, MarshalToBytes.
  rewrite (decode_encode (TPtr t) (VPtr None) H I ltac:(vm_compute; reflexivity) rest). reflexivity.
Qed.
Print Assumptions C10_top_level_nil_pointer.

(** Hence marshalling is injective on the values of a type. *)
Theorem C10_marshal_injective : forall t v w, simple_pointers t -> has_type t v -> has_type t w ->
  zlen (MarshalToBytes v) < 2^63 -> zlen (MarshalToBytes w) < 2^63 -> MarshalToBytes v = MarshalToBytes w -> v = w.
Proof.
  intros t v w HP HV HW LV LW H. unfold MarshalToBytes in *.
  pose proof (decodes_nullable t v HV (decode_encode t v HP HV LV) []) as EV.
  pose proof (decodes_nullable t w HW (decode_encode t w HP HW LW) []) as EW.
  rewrite H in EV. congruence.
Qed.
Print Assumptions C10_marshal_injective.

Definition ex_ty : ty := TStruct [TUint 16; TPtr (TStruct [TString; TBool]); TSlice (TInt 64); TMap KString (TPtr (TUint 8)); TByteArray 2; TPtr TBool].
Definition ex_val : val := VStruct [VUint 65535; VPtr (Some (VStruct [VString [97]; VBool true])); VSlice (Some [VInt (-5); VInt 300]);
   VMap (Some [(KeyS [97], VPtr None); (KeyS [97; 98], VPtr (Some (VUint 3)))]); VByteArr [1; 255]; VPtr None].
Example C10_ex : simple_pointers ex_ty /\ has_type ex_ty ex_val /\
  UnmarshalFromBytes ex_ty (MarshalToBytes ex_val ++ [7]) = Ok (ex_val, [7]).
Proof.
  split; [cbn; tauto|]. split; [|vm_compute; reflexivity].
  cbn. unfold int_width, uint_value, int_value, bytes_ok, is_byte, key_lt.
  repeat match goal with |- _ /\ _ => split | |- Forall _ _ => constructor | |- StronglySorted _ _ => constructor end;
    try exact I; try reflexivity; try lia; cbn; repeat split; try lia; repeat constructor; lia.
Qed.

(** Version compatibility of structs: fields appended to the type are read from old bytes as zero
    values, and fields appended to the bytes are ignored by the old type. *)
Definition decode_as (t : ty) (v w : val) : Prop := forall rest, UnmarshalFromBytes t (MarshalToBytes v ++ rest) = Ok (w, rest).

Theorem C10_struct_missing_fields_are_zero : forall fs gs vs, simple_pointers (TStruct fs) ->
  has_type (TStruct fs) (VStruct vs) -> zlen (MarshalToBytes (VStruct vs)) < 2^63 ->
  decode_as (TStruct (fs ++ gs)) (VStruct vs) (VStruct (vs ++ map zero gs)).
Proof.
  intros fs gs vs HP HT HL rest. unfold UnmarshalFromBytes, MarshalToBytes in *. cbn [encodeValue decodeValue] in *.
  apply small_list in HL. rewrite readList_write by assumption. apply small_elems in HL.
  match goal with |- context [dec_fields ?a ?b] => assert (G : dec_fields a b = LOk (vs ++ map zero gs)) end; [|rewrite G; reflexivity].
  clear rest. revert vs HP HT HL. induction fs as [|f fs IH]; intros [|v vs] HP HT HL; cbn [has_type] in HT; try contradiction.
  - cbn [app map concat]. destruct gs as [|g gs]; [reflexivity|]. cbn [map dec_fields].
    rewrite decodeValue_eof. cbn [nullable fst map]. rewrite map_map. reflexivity.
  - destruct HT as [HT1 HT2]. cbn [simple_pointers fold_right] in HP. destruct HP as [HP1 HP2]. inversion HL; subst.
    cbn [app map concat]. unfold dec_fields. rewrite decodes_nullable by (auto; apply decode_encode; auto).
    match goal with |- lmap _ (?f ?a ?b) = _ => change (lmap (cons v) (dec_fields a b) = LOk (v :: vs ++ map zero gs)) end.
    rewrite IH by (cbn [simple_pointers has_type]; assumption). reflexivity.
Qed.
Print Assumptions C10_struct_missing_fields_are_zero.

Theorem C10_struct_extra_fields_ignored : forall fs vs ws, simple_pointers (TStruct fs) ->
  has_type (TStruct fs) (VStruct vs) -> zlen (MarshalToBytes (VStruct (vs ++ ws))) < 2^63 ->
  decode_as (TStruct fs) (VStruct (vs ++ ws)) (VStruct vs).
Proof.
  intros fs vs ws HP HT HL rest. unfold UnmarshalFromBytes, MarshalToBytes in *. cbn [encodeValue decodeValue] in *.
  apply small_list in HL. rewrite readList_write by assumption. apply small_elems in HL.
  match goal with |- context [dec_fields ?a ?b] => assert (G : dec_fields a b = LOk vs) end; [|rewrite G; reflexivity].
  clear rest. revert vs HP HT HL. induction fs as [|f fs IH]; intros [|v vs] HP HT HL; cbn [has_type] in HT; try contradiction.
  - reflexivity.
  - destruct HT as [HT1 HT2]. cbn [simple_pointers fold_right] in HP. destruct HP as [HP1 HP2]. inversion HL; subst.
    cbn [app map concat]. unfold dec_fields. rewrite decodes_nullable by (auto; apply decode_encode; auto).
    match goal with |- lmap _ (?f ?a ?b) = _ => change (lmap (cons v) (dec_fields a b) = LOk (v :: vs)) end.
    rewrite IH by (cbn [simple_pointers has_type]; assumption). reflexivity.
Qed.
Print Assumptions C10_struct_extra_fields_ignored.

Example C10_ex2 : decode_as (TStruct ([TUint 8] ++ [TString; TPtr TBool])) (VStruct [VUint 3]) (VStruct ([VUint 3] ++ [VString []; VPtr None])).
Proof.
  apply (C10_struct_missing_fields_are_zero [TUint 8] [TString; TPtr TBool] [VUint 3]); [cbn; tauto| |vm_compute; reflexivity].
  cbn. unfold int_width, uint_value. repeat split; lia.
Qed.

(** Arrays: a list that is too short leaves the remaining elements zero, one that is too long is cut. *)
Theorem C10_array_missing_elements_are_zero : forall n m t l, simple_pointers t ->
  has_type (TArray n t) (VArray l) -> zlen (MarshalToBytes (VArray l)) < 2^63 ->
  decode_as (TArray (n + m) t) (VArray l) (VArray (l ++ repeat (zero t) m)).
Proof.
  intros n m t l HP HT HL rest. unfold UnmarshalFromBytes, MarshalToBytes in *. cbn [has_type encodeValue decodeValue] in *.
  destruct HT as [<- HT]. apply small_list in HL. rewrite readList_write by assumption. apply small_elems in HL.
  assert (G : dec_array (fun s => nullable (zero t) (decodeValue t s)) (zero t) (length l + m) (concat (map encodeValue l)) =
              LOk (l ++ repeat (zero t) m)); [|rewrite G; reflexivity].
  clear rest. induction l as [|v l IH].
  - cbn [map concat length Nat.add app]. destruct m; [reflexivity|]. cbn [dec_array]. rewrite decodeValue_eof. reflexivity.
  - inversion HT; subst. inversion HL; subst. cbn [map concat length Nat.add app dec_array].
    rewrite decodes_nullable by (auto; apply decode_encode; auto). rewrite IH by assumption. reflexivity.
Qed.
Print Assumptions C10_array_missing_elements_are_zero.

Theorem C10_array_extra_elements_ignored : forall n t l ws, simple_pointers t ->
  has_type (TArray n t) (VArray l) -> zlen (MarshalToBytes (VArray (l ++ ws))) < 2^63 ->
  decode_as (TArray n t) (VArray (l ++ ws)) (VArray l).
Proof.
  intros n t l ws HP HT HL rest. unfold UnmarshalFromBytes, MarshalToBytes in *. cbn [has_type encodeValue decodeValue] in *.
  destruct HT as [<- HT]. apply small_list in HL. rewrite readList_write by assumption. apply small_elems in HL.
  assert (G : dec_array (fun s => nullable (zero t) (decodeValue t s)) (zero t) (length l) (concat (map encodeValue (l ++ ws))) = LOk l);
    [|rewrite G; reflexivity].
  clear rest. induction l as [|v l IH]; [reflexivity|].
  inversion HT; subst. inversion HL; subst. cbn [map concat length app dec_array].
  rewrite decodes_nullable by (auto; apply decode_encode; auto). rewrite IH by assumption. reflexivity.
Qed.
Print Assumptions C10_array_extra_elements_ignored.

Example C10_array_ex : has_type (TArray 2 (TUint 8)) (VArray [VUint 3; VUint 4]) /\
  UnmarshalFromBytes (TArray 4 (TUint 8)) (MarshalToBytes (VArray [VUint 3; VUint 4])) = Ok (VArray [VUint 3; VUint 4; VUint 0; VUint 0], []).
Proof. split; [cbn; unfold int_width, uint_value; repeat constructor; lia|vm_compute; reflexivity]. Qed.

(** Maps are read from entries in any order, also from entries of other encoders that do not sort: every key
    is kept and the last value given for a key wins. *)
Lemma map_set_spec : forall k v m, StronglySorted (fun a b => key_lt (fst a) (fst b)) m ->
  StronglySorted (fun a b => key_lt (fst a) (fst b)) (map_set k v m) /\
  forall k' v', In (k', v') (map_set k v m) <-> (k' = k /\ v' = v) \/ (k' <> k /\ In (k', v') m).
Proof.
  intros k v. induction m as [|[k1 v1] m IH]; intros HS; cbn [map_set].
  - split; [repeat constructor|]. intros k' v'. cbn. split; [intros [E|[]]; left; split; congruence|intros [[-> ->]|[_ []]]; auto].
  - inversion HS as [|? ? HS' HF]; subst. rewrite Forall_forall in HF.
    destruct (key_ltb k1 k) eqn:E1; [|destruct (key_ltb k k1) eqn:E2].
    + destruct (IH HS') as [A B]. split.
      * constructor; [assumption|]. apply Forall_forall. intros [k2 v2] Hin. apply B in Hin. destruct Hin as [[-> ->]|[_ Hin]]; [exact E1|apply (HF _ Hin)].
      * intros k' v'. cbn [In]. rewrite B. split.
        -- intros [E|[E|[E1' E2']]]; auto. right. split; [|auto]. intros ->. injection E as -> ->. rewrite key_ltb_irrefl in E1. discriminate.
        -- intros [E|[Hn [E|Hin]]]; auto.
    + split.
      * constructor; [assumption|]. apply Forall_forall. intros [k2 v2] [E|Hin]; [injection E as <- <-; exact E2|].
        unfold key_lt. eapply key_ltb_trans; [exact E2|apply (HF _ Hin)].
      * intros k' v'. cbn [In]. split.
        -- intros [E|[E|Hin]]; [left; split; congruence| |].
           ++ right. split; [|auto]. intros ->. injection E as -> ->. rewrite key_ltb_irrefl in E2. discriminate.
           ++ right. split; [|auto]. intros ->. specialize (HF _ Hin). cbn in HF. unfold key_lt in HF. rewrite E1 in HF. discriminate.
        -- intros [[-> ->]|[_ Hin]]; auto.
    + assert (k1 = k) by (destruct (key_ltb_total k1 k) as [E|[E|E]]; congruence). subst k1. split.
      * constructor; [assumption|]. apply Forall_forall. intros kv Hin. apply (HF _ Hin).
      * intros k' v'. cbn [In]. split.
        -- intros [E|Hin]; [left; split; congruence|]. right. split; [|auto]. intros ->. specialize (HF _ Hin). cbn in HF. unfold key_lt in HF.
           rewrite key_ltb_irrefl in HF. discriminate.
        -- intros [[-> ->]|[Hn [E|Hin]]]; auto. congruence.
Qed.

Lemma key_dec : forall a b : gkey, {a = b} + {a <> b}.
Proof. decide equality; try apply Z.eq_dec. apply (list_eq_dec Z.eq_dec). Qed.

Lemma map_sets_spec : forall es m0, StronglySorted (fun a b => key_lt (fst a) (fst b)) m0 ->
  let m := fold_left (fun a kv => map_set (fst kv) (snd kv) a) es m0 in
  StronglySorted (fun a b => key_lt (fst a) (fst b)) m /\
  forall k v, In (k, v) m <-> (exists a b, es = a ++ (k, v) :: b /\ ~ In k (map fst b)) \/ (~ In k (map fst es) /\ In (k, v) m0).
Proof.
  induction es as [|[k1 v1] es IH]; intros m0 HS; cbv zeta; cbn [fold_left fst snd map].
  - split; [assumption|]. intros k v. split; [intros HI; right; auto|intros [(a & b & E & _)|[_ HI]]; [destruct a; discriminate|assumption]].
  - destruct (map_set_spec k1 v1 m0 HS) as [A B]. destruct (IH _ A) as [C D]. split; [assumption|]. intros k v. rewrite D, B. split.
    + intros [(a & b & -> & Hn)|[Hn [[-> ->]|[Hk Hin]]]].
      * left. exists ((k1, v1) :: a), b. auto.
      * left. exists [], es. auto.
      * right. split; [|assumption]. cbn. intros [E|E]; congruence.
    + intros [(a & b & E & Hn)|[Hn Hin]].
      * destruct a as [|x a]; cbn [app] in E.
        -- right. assert (k1 = k) by congruence. assert (v1 = v) by congruence. assert (es = b) by congruence. subst. auto.
        -- left. exists a, b. split; [congruence|assumption].
      * right. cbn in Hn. split; [tauto|]. right. split; [intros ->; tauto|assumption].
Qed.

Theorem C10_map_entries_any_order : forall kk t es rest, simple_pointers t ->
  Forall (fun kv => key_has_kind kk (fst kv) /\ has_type t (snd kv)) es ->
  let body := concat (map (fun kv => write_key (fst kv) ++ MarshalToBytes (snd kv)) es) in
  zlen body < 2^63 ->
  exists m, UnmarshalFromBytes (TMap kk t) (writeList body ++ rest) = Ok (VMap (Some m), rest) /\ has_type (TMap kk t) (VMap (Some m)) /\
    forall k v, In (k, v) m <-> exists a b, es = a ++ (k, v) :: b /\ ~ In k (map fst b).
Proof.
  intros kk t es rest HP HT. cbv zeta. unfold MarshalToBytes. intros HL.
  set (m := fold_left (fun a kv => map_set (fst kv) (snd kv) a) es []).
  destruct (map_sets_spec es [] ltac:(constructor)) as [HS HI]. fold m in HS, HI.
  assert (HI' : forall k v, In (k, v) m <-> exists a b, es = a ++ (k, v) :: b /\ ~ In k (map fst b)).
  { intros k v. rewrite HI. split; [intros [E|[_ []]]; assumption|auto]. }
  exists m. split; [|split; [|exact HI']].
  - unfold UnmarshalFromBytes. cbn [decodeValue]. rewrite readList_write by assumption.
    assert (G : forall es' acc fuel, (forall x, In x es' -> In x es) -> (length es' < fuel)%nat ->
      dec_map (read_key kk) (fun s => nullable (zero t) (decodeValue t s)) fuel acc
        (concat (map (fun kv => write_key (fst kv) ++ encodeValue (snd kv)) es')) = LOk (fold_left (fun a kv => map_set (fst kv) (snd kv) a) es' acc)).
    { induction es' as [|[k v] es' IH]; intros acc fuel Hin Hf; (destruct fuel as [|fuel]; [cbn in Hf; lia|]); cbn [map concat dec_map fst snd fold_left].
      - rewrite read_key_eof. reflexivity.
      - pose proof (Hin (k, v) (or_introl eq_refl)) as Hkv. rewrite Forall_forall in HT. destruct (HT _ Hkv) as [T1 T2]. cbn [fst snd] in *.
        pose proof (concat_len_in _ _ (in_map (fun kv => write_key (fst kv) ++ encodeValue (snd kv)) _ _ Hkv)) as HLen.
        cbn [fst snd] in HLen. rewrite zlen_app in HLen. pose proof (encodeValue_pos v). pose proof (write_key_pos k).
        rewrite <- app_assoc, read_key_write by (assumption || lia).
        rewrite decodes_nullable by (auto; apply decode_encode; auto; lia).
        apply IH; [intros x Hx; apply Hin; right; assumption|cbn in Hf; lia]. }
    rewrite G; [reflexivity|auto|]. pose proof (concat_map_len_ge es). lia.
  - cbn [has_type]. split; [exact HS|]. apply Forall_forall. intros [k v] Hin. apply HI' in Hin. destruct Hin as (a & b & -> & _).
    rewrite Forall_forall in HT. apply (HT (k, v)). apply in_or_app. right. left. reflexivity.
Qed.
Print Assumptions C10_map_entries_any_order.

Example C10_map_ex : let es := [(KeyS [98], VUint 1); (KeyS [97], VUint 2); (KeyS [98], VUint 3)] in
  Forall (fun kv => key_has_kind KString (fst kv) /\ has_type (TUint 8) (snd kv)) es /\
  UnmarshalFromBytes (TMap KString (TUint 8)) (writeList (concat (map (fun kv => write_key (fst kv) ++ MarshalToBytes (snd kv)) es)))
    = Ok (VMap (Some [(KeyS [97], VUint 2); (KeyS [98], VUint 3)]), []).
Proof.
  split; [|vm_compute; reflexivity]. cbn. unfold int_width, uint_value, bytes_ok, is_byte. repeat constructor; cbn; lia.
Qed.

(** Without the restriction on pointers the round trip fails: a nil *[]T comes back as a pointer to a
    nil slice, and a pointer to a nil pointer comes back as nil. *)
Theorem C10_pointer_to_slice_refuted : exists t v w, has_type t v /\
  UnmarshalFromBytes t (MarshalToBytes v) = Ok (w, []) /\ w <> v.
Proof.
  exists (TStruct [TPtr (TSlice TBool)]), (VStruct [VPtr None]), (VStruct [VPtr (Some (VSlice None))]).
  split; [cbn; tauto|]. split; [vm_compute; reflexivity|discriminate].
Qed.
Print Assumptions C10_pointer_to_slice_refuted.

Theorem C10_pointer_to_pointer_refuted : exists t v w, has_type t v /\
  UnmarshalFromBytes t (MarshalToBytes v) = Ok (w, []) /\ w <> v.
Proof.
  exists (TStruct [TPtr (TPtr TBool)]), (VStruct [VPtr (Some (VPtr None))]), (VStruct [VPtr None]).
  split; [cbn; tauto|]. split; [vm_compute; reflexivity|discriminate].
Qed.
Print Assumptions C10_pointer_to_pointer_refuted.

(** An integer too large for the target field is truncated silently rather than rejected. *)
Theorem C10_narrowing_detected_refuted : exists z w,
  has_type (TUint 64) (VUint z) /\ UnmarshalFromBytes (TUint 8) (MarshalToBytes (VUint z)) = Ok (VUint w, []) /\ w <> z.
Proof.
  exists 257, 1. split; [cbn; unfold int_width, uint_value; split; lia|]. split; [vm_compute; reflexivity|lia].
Qed.
Print Assumptions C10_narrowing_detected_refuted.

(** ** C11: nil and empty stay distinct through a round trip *)
Theorem C11_typed_nil_vs_empty : forall t k rest, simple_pointers t ->
  UnmarshalFromBytes TBytes (MarshalToBytes (VBytes None) ++ rest) = Ok (VBytes None, rest) /\
  UnmarshalFromBytes TBytes (MarshalToBytes (VBytes (Some [])) ++ rest) = Ok (VBytes (Some []), rest) /\
  UnmarshalFromBytes (TSlice t) (MarshalToBytes (VSlice None) ++ rest) = Ok (VSlice None, rest) /\
  UnmarshalFromBytes (TSlice t) (MarshalToBytes (VSlice (Some [])) ++ rest) = Ok (VSlice (Some []), rest) /\
  UnmarshalFromBytes (TMap k t) (MarshalToBytes (VMap None) ++ rest) = Ok (VMap None, rest) /\
  UnmarshalFromBytes (TMap k t) (MarshalToBytes (VMap (Some [])) ++ rest) = Ok (VMap (Some []), rest).
Proof.
  intros t k rest H.
  repeat split; apply C10_roundtrip; try discriminate; try (vm_compute; reflexivity); cbn [has_type simple_pointers]; auto;
    try constructor; constructor.
Qed.
Print Assumptions C11_typed_nil_vs_empty.

(** and no non-nil value of a nilable type shares its bytes with nil. *)
Theorem C11_only_nil_is_nil : forall t v, simple_pointers t -> has_type t v -> zlen (MarshalToBytes v) < 2^63 ->
  can_be_nil t -> MarshalToBytes v = writeNull -> v = zero t.
Proof.
  intros t v HP HT HL HN E. apply (C10_marshal_injective t); try assumption.
  - destruct t; cbn in HN; try contradiction; exact I.
  - destruct t; cbn in HN; try contradiction; vm_compute; reflexivity.
  - rewrite E. destruct t; cbn in HN; try contradiction; reflexivity.
Qed.
Print Assumptions C11_only_nil_is_nil.

Example C11_ex : simple_pointers (TSlice (TPtr TBool)) /\ has_type (TSlice (TPtr TBool)) (VSlice (Some [VPtr None])) /\
  MarshalToBytes (VSlice (Some [VPtr None])) <> writeNull.
Proof. split; [cbn; tauto|]. split; [cbn; repeat constructor|vm_compute; discriminate]. Qed.

(** ** C12 *)
Theorem C12_map_order_irrelevant : forall m m', NoDup (map fst m) -> Permutation m m' ->
  MarshalToBytes (VMap (Some m)) = MarshalToBytes (VMap (Some m')).
Proof.
  intros m m' HN HP. unfold MarshalToBytes. rewrite !encode_map_eq. f_equal. f_equal. f_equal.
  apply sort_by_perm_eq; auto using ent_irr.
  - intros a b c; apply ent_trans.
  - apply nodup_pairwise. rewrite enc_entries_fst. assumption.
  - apply Permutation_map. assumption.
Qed.
Print Assumptions C12_map_order_irrelevant.

(** The entries appear in increasing key order: the output is the list encoding of the entries of some
    key-sorted arrangement of the map. *)
Theorem C12_keys_increasing : forall m, NoDup (map fst m) -> exists s,
  Permutation m s /\ StronglySorted (fun a b => key_lt (fst a) (fst b)) s /\
  MarshalToBytes (VMap (Some m)) = writeList (concat (map (fun kv => MarshalToBytes
      (match fst kv with KeyS x => VString x | KeyI z => VInt z | KeyU z => VUint z end) ++ MarshalToBytes (snd kv)) s)).
Proof.
  intros m HN. exists (sort_by ent_ltb m).
  assert (HS : StronglySorted (fun a b : gkey * val => ent_ltb a b = true) (sort_by ent_ltb m)).
  { apply sort_by_sorted; [intros a b c; apply ent_trans|]. apply nodup_pairwise; assumption. }
  split; [symmetry; apply sort_by_perm|]. split; [exact HS|].
  rewrite (C12_map_order_irrelevant m (sort_by ent_ltb m) HN) by (symmetry; apply sort_by_perm).
  unfold MarshalToBytes. rewrite encode_sorted_map by exact HS. f_equal. f_equal. apply map_ext.
  intros [[x|z|z] v]; reflexivity.
Qed.
Print Assumptions C12_keys_increasing.

Example C12_ex : NoDup (map fst [(KeyS [98], VBool true); (KeyS [97], VBool false)]) /\
  MarshalToBytes (VMap (Some [(KeyS [98], VBool true); (KeyS [97], VBool false)])) = [196; 97; 0; 98; 1].
Proof. split; [|vm_compute; reflexivity]. cbn. repeat constructor; cbn; intuition discriminate. Qed.
