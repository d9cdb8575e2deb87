(** Theorems about codec.MP (C75). *)
From Coq Require Import String Ascii ZArith List Bool Lia Permutation Sorted.
From Coq Require Import ZifyBool.
From Verif Require Import Base L_Base GoStr GoSort M_IntConv M_Rlp L_Rlp L_Address M_Codec S_Codec L_Codec T_Codec M_MsgPack S_MsgPack L_MsgPack L_MsgPack2 L_MsgPack3 L_MsgPack4.
Import ListNotations.
Open Scope Z_scope.

(** A sample of everything. *)
Definition ex_ty : ty := TStruct [TUint 16; TInt 8; TString; TBytes; TByteArray 2; TPtr TBool; TSlice (TInt 64); TMap KString (TUint 8)].
Definition ex_val : val := VStruct [VUint 300; VInt (-33); VString [104; 105]; VBytes (Some []); VByteArr [1; 2]; VPtr None; VSlice (Some [VInt (-1); VInt 128]);
  VMap (Some [(KeyS [97], VUint 1); (KeyS [98], VUint 255)])].
Definition ex_bytes : list Z := [152; 205; 1; 44; 208; 223; 162; 104; 105; 196; 0; 196; 2; 1; 2; 192; 146; 255; 204; 128; 130; 161; 97; 1; 161; 98; 204; 255].
Lemma ex_typed : has_type ex_ty ex_val.
Proof.
  assert (W8 : int_width 8) by (left; reflexivity). assert (W16 : int_width 16) by (right; left; reflexivity). assert (W64 : int_width 64) by (right; right; right; reflexivity).
  cbn. unfold uint_value, int_value, bytes_ok, is_byte, key_lt. repeat first [exact W8|exact W16|exact W64|lia|exact I|reflexivity|constructor].
Qed.
Lemma ex_simple : simple_pointers ex_ty.
Proof. cbn. tauto. Qed.
Example C75_ex : has_type ex_ty ex_val /\ simple_pointers ex_ty /\ go_widths ex_ty /\ MP_MarshalToBytes ex_val = ex_bytes /\ MP_UnmarshalFromBytes ex_ty (ex_bytes ++ [7]) = Ok (ex_val, [7]).
Proof. split; [exact ex_typed|]. split; [exact ex_simple|]. split; [cbn; unfold int_width; tauto|]. split; vm_compute; reflexivity. Qed.

(** ** The format *)
(** What is written is MessagePack for the value. *)
Theorem C75_writes_format : forall t v, has_type t v -> zlen (MP_MarshalToBytes v) < 2 ^ 32 -> mp_form (item_of v) (MP_MarshalToBytes v).
Proof. exact write_form. Qed.
Print Assumptions C75_writes_format.
(** No other MessagePack for it is shorter. *)
Theorem C75_shortest : forall t v b, has_type t v -> mp_form (item_of v) b -> zlen (MP_MarshalToBytes v) <= zlen b.
Proof. intros t v b H. apply (write_shortest t v H). Qed.
Print Assumptions C75_shortest.
(** Every MessagePack for it is read, whoever has written it and with whichever lengths of numbers and headers; what follows is left. *)
Theorem C75_reads_format : forall t v b rest, simple_pointers t -> has_type t v -> mp_form (item_of v) b -> v <> VPtr None -> MP_UnmarshalFromBytes t (b ++ rest) = Ok (v, rest).
Proof.
  intros t v b rest P T F N. unfold MP_UnmarshalFromBytes. rewrite (read_any t v P T b rest F). destruct v as [| | | | | |[v|]| | | |]; try reflexivity. congruence.
Qed.
Print Assumptions C75_reads_format.
Example C75_ex_long_form : mp_form (item_of (VUint 5)) [207; 0; 0; 0; 0; 0; 0; 0; 5] /\ mp_form (item_of (VSlice (Some [VString [104]]))) [221; 0; 0; 0; 1; 218; 0; 1; 104].
Proof.
  split.
  - constructor. right. right. exists 3, [0; 0; 0; 0; 0; 0; 0; 5]. split; [lia|]. left. split; [reflexivity|]. split; [reflexivity|]. split; [|reflexivity]. unfold bytes_ok, is_byte. repeat constructor; lia.
  - apply (FList [IStr [104]] [221; 0; 0; 0; 1] [[218; 0; 1; 104]]).
    + right. exists 2, [0; 0; 0; 1]. split; [lia|]. split; [|reflexivity]. split; [reflexivity|]. split; [|reflexivity]. unfold bytes_ok, is_byte. repeat constructor; lia.
    + constructor; [|constructor]. apply (FStr [104] [218; 0; 1]). right. exists 1, [0; 1]. split; [lia|]. split; [|reflexivity]. split; [reflexivity|]. split; [|reflexivity]. unfold bytes_ok, is_byte. repeat constructor; lia.
Qed.
Corollary C75_roundtrip : forall t v rest, simple_pointers t -> has_type t v -> zlen (MP_MarshalToBytes v) < 2 ^ 32 -> v <> VPtr None ->
  MP_UnmarshalFromBytes t (MP_MarshalToBytes v ++ rest) = Ok (v, rest).
Proof. intros t v rest P T L N. apply C75_reads_format; try assumption. apply (C75_writes_format t); assumption. Qed.
Print Assumptions C75_roundtrip.
(** A nil pointer at the top is reported as such, and the reader is behind it. *)
Theorem C75_top_level_nil : forall t rest, simple_pointers (TPtr t) -> MP_UnmarshalFromBytes (TPtr t) (MP_MarshalToBytes (VPtr None) ++ rest) = Err 2.
Proof. intros t rest P. unfold MP_UnmarshalFromBytes, MP_MarshalToBytes. cbn [mp_encode]. rewrite (read_any (TPtr t) (VPtr None) P I mp_nil rest FNil). reflexivity. Qed.
Print Assumptions C75_top_level_nil.

(** ** Different values, different bytes; no value is the beginning of another *)
Theorem C75_prefix_free : forall t v w r r', simple_pointers t -> has_type t v -> has_type t w -> zlen (MP_MarshalToBytes v) < 2 ^ 32 -> zlen (MP_MarshalToBytes w) < 2 ^ 32 ->
  MP_MarshalToBytes v ++ r = MP_MarshalToBytes w ++ r' -> v = w /\ r = r'.
Proof.
  intros t v w r r' P TV TW LV LW E. unfold MP_MarshalToBytes in *.
  pose proof (read_any t v P TV _ r (write_form t v TV LV)) as A. pose proof (read_any t w P TW _ r' (write_form t w TW LW)) as B. rewrite E, B in A.
  destruct v as [| | | | | |[v|]| | | |], w as [| | | | | |[w|]| | | |]; split; congruence.
Qed.
Print Assumptions C75_prefix_free.
Theorem C75_injective : forall t v w, simple_pointers t -> has_type t v -> has_type t w -> zlen (MP_MarshalToBytes v) < 2 ^ 32 -> zlen (MP_MarshalToBytes w) < 2 ^ 32 ->
  MP_MarshalToBytes v = MP_MarshalToBytes w -> v = w.
Proof. intros t v w P TV TW LV LW E. apply (C75_prefix_free t v w [] []); try assumption. rewrite !app_nil_r. exact E. Qed.
Print Assumptions C75_injective.
(** nil is nothing else's encoding: an empty slice, map or byte string stays different from nil. *)
Theorem C75_only_nil_is_nil : forall t v, simple_pointers t -> can_be_nil t -> has_type t v -> zlen (MP_MarshalToBytes v) < 2 ^ 32 -> MP_MarshalToBytes v = [192] -> v = zero t.
Proof.
  intros t v P N T L E. apply (C75_injective t); try assumption.
  - destruct t; cbn in N; try contradiction; exact I.
  - destruct t; cbn in N; try contradiction; vm_compute; reflexivity.
  - rewrite E. destruct t; cbn in N; try contradiction; reflexivity.
Qed.
Print Assumptions C75_only_nil_is_nil.
Example C75_ex_empty : MP_MarshalToBytes (VSlice (Some [])) = [144] /\ MP_MarshalToBytes (VMap (Some [])) = [128] /\ MP_MarshalToBytes (VBytes (Some [])) = [196; 0] /\ MP_MarshalToBytes (VString []) = [160].
Proof. vm_compute. repeat split. Qed.

(** ** More or fewer fields *)
Lemma struct_reads : forall fs vs, Forall simple_pointers fs -> Forall2 has_type fs vs -> Forall2 (fun t v => has_type t v /\ reads t v) fs vs.
Proof. intros fs vs P F. induction F as [|t v fs vs H F IH]; constructor; [split; [exact H|exact (read_any t v (Forall_inv P) H)]|exact (IH (Forall_inv_tail P))]. Qed.
(** Members beyond the fields of a struct are passed over, whatever they are. *)
Theorem C75_extra_fields_ignored : forall fs vs more b rest, simple_pointers (TStruct fs) -> has_type (TStruct fs) (VStruct vs) -> mp_form (IList (map item_of vs ++ more)) b ->
  MP_UnmarshalFromBytes (TStruct fs) (b ++ rest) = Ok (VStruct vs, rest).
Proof.
  intros fs vs more b rest P T F. apply simple_struct in P. apply (proj1 (struct_types fs vs)) in T. inversion F as [| | |? ? NF|? L|? L|? ? HH|? ? HH|? ? ? HH|? h parts HH FF|? ? ? HH FF]; subst.
  apply Forall2_app_inv_l in FF as (p1 & p2 & F1 & F2 & ->). apply forms_map in F1. unfold zlen in HH. rewrite app_length, map_length in HH.
  unfold MP_UnmarshalFromBytes. cbn [mp_decode]. rewrite concat_app, <- !app_assoc, (list_read _ _ _ HH).
  rewrite fields_extra; [|apply fields_rd; [apply struct_reads; assumption|exact F1]|exact (Forall2_len _ _ _ _ _ F1)]. rewrite close_extra by exact F2. reflexivity.
Qed.
Print Assumptions C75_extra_fields_ignored.
(** Fields without member get their zero value. *)
Theorem C75_missing_fields_are_zero : forall fs gs vs b rest, simple_pointers (TStruct fs) -> has_type (TStruct fs) (VStruct vs) -> mp_form (IList (map item_of vs)) b ->
  MP_UnmarshalFromBytes (TStruct (fs ++ gs)) (b ++ rest) = Ok (VStruct (vs ++ map zero gs), rest).
Proof.
  intros fs gs vs b rest P T F. apply simple_struct in P. apply (proj1 (struct_types fs vs)) in T. inversion F as [| | |? ? NF|? L|? L|? ? HH|? ? HH|? ? ? HH|? h parts HH FF|? ? ? HH FF]; subst.
  apply forms_map in FF. unfold zlen in HH. rewrite map_length in HH.
  unfold MP_UnmarshalFromBytes. cbn [mp_decode]. rewrite <- !app_assoc, (list_read _ _ _ HH), map_app.
  rewrite fields_read; [|apply fields_rd; [apply struct_reads; assumption|exact FF]|exact (Forall2_len _ _ _ _ _ FF)]. rewrite map_map. cbn [fst]. reflexivity.
Qed.
Print Assumptions C75_missing_fields_are_zero.
Theorem C75_array_extra_and_missing : forall t l more n b rest, simple_pointers t -> Forall (has_type t) l -> 
  (mp_form (IList (map item_of l ++ more)) b -> MP_UnmarshalFromBytes (TArray (length l) t) (b ++ rest) = Ok (VArray l, rest)) /\
  (mp_form (IList (map item_of l)) b -> MP_UnmarshalFromBytes (TArray (length l + n) t) (b ++ rest) = Ok (VArray (l ++ repeat (zero t) n), rest)).
Proof.
  intros t l more n b rest P T.
  assert (R : Forall2 (fun t v => has_type t v /\ reads t v) (repeat t (length l)) l) by (apply array_fields; eapply Forall_impl; [|exact T]; intros v H; split; [exact H|exact (read_any t v P H)]).
  split; intros F; inversion F as [| | |? ? NF|? L|? L|? ? HH|? ? HH|? ? ? HH|? h parts HH FF|? ? ? HH FF]; subst; unfold MP_UnmarshalFromBytes; cbn [mp_decode]; unfold zlen in HH; rewrite <- (map_repeat _ _ (fun t' => (zero t', fun s => mnullable (zero t') (mp_decode t' s)))).
  - apply Forall2_app_inv_l in FF as (p1 & p2 & F1 & F2 & ->). apply forms_map in F1. rewrite app_length, map_length in HH. rewrite concat_app, <- !app_assoc, (list_read _ _ _ HH).
    rewrite fields_extra; [|apply fields_rd; [exact R|exact F1]|exact (Forall2_len _ _ _ _ _ F1)]. rewrite close_extra by exact F2. reflexivity.
  - apply forms_map in FF. rewrite map_length in HH. rewrite <- !app_assoc, (list_read _ _ _ HH), repeat_app, map_app.
    rewrite fields_read; [|apply fields_rd; [exact R|exact FF]|exact (Forall2_len _ _ _ _ _ FF)]. rewrite map_map. cbn [fst]. rewrite map_repeat. reflexivity.
Qed.
Print Assumptions C75_array_extra_and_missing.
Example C75_ex_fields : MP_UnmarshalFromBytes (TStruct [TUint 8; TBool]) [148; 5; 195; 129; 1; 146; 2; 3; 202; 1; 2; 3; 4; 9] = Ok (VStruct [VUint 5; VBool true], [9]) /\
  MP_UnmarshalFromBytes (TStruct [TUint 8; TBool]) [145; 5; 9] = Ok (VStruct [VUint 5; VBool false], [9]).
Proof. vm_compute. split; reflexivity. Qed.

(** ** Maps *)
(** The bytes do not depend on the order in which the runtime enumerates a map. *)
Theorem C75_map_order_irrelevant : forall m m', NoDup (map fst m) -> Permutation m m' -> MP_MarshalToBytes (VMap (Some m)) = MP_MarshalToBytes (VMap (Some m')).
Proof.
  intros m m' HN HP. unfold MP_MarshalToBytes. cbn [mp_encode]. assert (LE : zlen m = zlen m') by (unfold zlen; rewrite (Permutation_length HP); reflexivity). rewrite LE. f_equal. f_equal. f_equal.
  change (sort_by ent_ltb (map (fun kv => (fst kv, mp_encode (snd kv))) m) = sort_by ent_ltb (map (fun kv => (fst kv, mp_encode (snd kv))) m')).
  apply sort_by_perm_eq; auto using ent_irr.
  - intros a b c; apply ent_trans.
  - apply nodup_pairwise. rewrite map_map. cbn [fst]. exact HN.
  - apply Permutation_map. exact HP.
Qed.
Print Assumptions C75_map_order_irrelevant.
(** Entries are read in any order; the last value given for a key is kept. *)
Theorem C75_map_entries_any_order : forall kk t es b rest, simple_pointers t -> Forall (fun kv => key_has_kind kk (fst kv) /\ has_type t (snd kv)) es ->
  mp_form (IPairs (map (fun kv => (key_item (fst kv), item_of (snd kv))) es)) b ->
  exists m, MP_UnmarshalFromBytes (TMap kk t) (b ++ rest) = Ok (VMap (Some m), rest) /\ has_type (TMap kk t) (VMap (Some m)) /\
    forall k v, In (k, v) m <-> exists x y, es = x ++ (k, v) :: y /\ ~ In k (map fst y).
Proof.
  intros kk t es b rest P T F. set (m := fold_left (fun a kv => map_set (fst kv) (snd kv) a) es []).
  destruct (map_sets_spec es [] ltac:(constructor)) as [HS HI]. fold m in HS, HI.
  assert (HI' : forall k v, In (k, v) m <-> exists a b, es = a ++ (k, v) :: b /\ ~ In k (map fst b)).
  { intros k v. rewrite HI. split; [intros [E|[_ []]]; assumption|auto]. }
  exists m. split; [|split; [|exact HI']].
  - inversion F as [| | |? ? NF|? L|? L|? ? HH|? ? HH|? ? ? HH|? ? ? HH FF|? h parts HH FF]; subst. apply pair_forms in FF as (ps & FF & E).
    unfold MP_UnmarshalFromBytes. cbn [mp_decode]. unfold zlen in HH. rewrite map_length in HH. rewrite <- app_assoc, (map_read _ _ _ HH), E.
    rewrite entries_read; [reflexivity|]. eapply Forall2_mono; [|exact (Forall2_and_l _ _ _ _ _ _ T FF)]. intros [k v] p [[A1 A2] (x & y & X & Y & ->)]. cbn [fst snd] in *. exists x, y.
    split; [intros r; apply key_read; assumption|]. split; [apply reads_nullable; auto using read_any|reflexivity].
  - cbn [has_type]. split; [exact HS|]. apply Forall_forall. intros [k v] Hin. apply HI' in Hin. destruct Hin as (x & y & -> & _).
    rewrite Forall_forall in T. apply (T (k, v)). apply in_or_app. right. left. reflexivity.
Qed.
Print Assumptions C75_map_entries_any_order.
Example C75_ex_map : MP_UnmarshalFromBytes (TMap KString (TUint 8)) [131; 161; 98; 1; 161; 97; 2; 161; 98; 3] = Ok (VMap (Some [(KeyS [97], VUint 2); (KeyS [98], VUint 3)]), []).
Proof. vm_compute. reflexivity. Qed.

(** ** Arbitrary input *)
(** Whatever is read is a value of the type, it depends on the bytes it was read from alone, and the rest is left. *)
Theorem C75_any_input : forall t s v r, go_widths t -> bytes_ok s -> MP_UnmarshalFromBytes t s = Ok (v, r) ->
  has_type t v /\ exists p, s = p ++ r /\ forall r', MP_UnmarshalFromBytes t (p ++ r') = Ok (v, r').
Proof.
  intros t s v r W B H. unfold MP_UnmarshalFromBytes in H. destruct (mp_decode t s) as [a u|u|] eqn:E; try discriminate. injection H as <- <-. split; [exact (decode_typed t W _ _ _ B E)|].
  destruct (proj1 (decode_local t s) _ _ E) as (p & -> & G). exists p. split; [reflexivity|]. intros r'. unfold MP_UnmarshalFromBytes. rewrite G. reflexivity.
Qed.
Print Assumptions C75_any_input.
(** Cut off anywhere, a value is refused (unlike in RLP, see C13). *)
Theorem C75_cut_off : forall t v b k, simple_pointers t -> has_type t v -> mp_form (item_of v) b -> (k < length b)%nat -> MP_UnmarshalFromBytes t (firstn k b) = Err 3.
Proof.
  intros t v b k P T F K. pose proof (read_any t v P T b [] F) as R. rewrite app_nil_r in R. unfold MP_UnmarshalFromBytes.
  assert (NE : skipn k b <> []) by (intros E; apply (f_equal (@length Z)) in E; rewrite skipn_length in E; cbn [length] in E; lia).
  destruct (decode_local t (firstn k b)) as [X Y]. destruct (mp_decode t (firstn k b)) as [a u|u|]; [| |reflexivity]; exfalso.
  - destruct (X _ _ eq_refl) as (p & E & G). specialize (G (u ++ skipn k b)). rewrite app_assoc, <- E, firstn_skipn, R in G. assert (Z0 : u ++ skipn k b = []) by (destruct v as [| | | | | |[v|]| | | |]; congruence). apply app_eq_nil in Z0. tauto.
  - destruct (Y _ eq_refl) as (p & E & G). specialize (G (u ++ skipn k b)). rewrite app_assoc, <- E, firstn_skipn, R in G. assert (Z0 : u ++ skipn k b = []) by (destruct v as [| | | | | |[v|]| | | |]; congruence). apply app_eq_nil in Z0. tauto.
Qed.
Print Assumptions C75_cut_off.
Example C75_ex_cut : MP_UnmarshalFromBytes (TSlice (TUint 8)) [146; 1; 2] = Ok (VSlice (Some [VUint 1; VUint 2]), []) /\ MP_UnmarshalFromBytes (TSlice (TUint 8)) [146; 1] = Err 3.
Proof. vm_compute. split; reflexivity. Qed.

(** ** What is not so *)
(** FINDING: a number that does not fit is not refused but taken modulo the width of the field. *)
Theorem C75_narrowing_detected_refuted : forall bits z b rest, int_width bits -> number_form z b ->
  MP_UnmarshalFromBytes (TUint bits) (b ++ rest) = Ok (VUint (z mod 2 ^ bits), rest).
Proof.
  intros bits z b rest W F. unfold MP_UnmarshalFromBytes. cbn [mp_decode]. unfold mp_readUint. rewrite (number_read _ _ _ F). cbn [mmap]. do 3 f_equal. unfold wrap_uint.
  destruct W as [->|[->|[->| ->]]]; symmetry; [apply (Znumtheory.Zmod_div_mod (2 ^ 8) (2 ^ 64) z); [lia|lia|exists (2 ^ 56); reflexivity]|apply (Znumtheory.Zmod_div_mod (2 ^ 16) (2 ^ 64) z); [lia|lia|exists (2 ^ 48); reflexivity]
    |apply (Znumtheory.Zmod_div_mod (2 ^ 32) (2 ^ 64) z); [lia|lia|exists (2 ^ 32); reflexivity]|symmetry; apply Z.mod_mod; lia].
Qed.
Print Assumptions C75_narrowing_detected_refuted.
Example C75_ex_narrow : MP_UnmarshalFromBytes (TUint 8) [205; 1; 1] = Ok (VUint 1, []) /\ MP_UnmarshalFromBytes (TUint 8) [255] = Ok (VUint 255, []).
Proof. vm_compute. split; reflexivity. Qed.
(** FINDING: bytes from 2^32 on are written with a length that is cut to 32 bits; 2^32 bytes are read back as none, and the bytes themselves as what follows. *)
Theorem C75_four_gigabytes_refuted : forall b, zlen b = 2 ^ 32 -> has_type TBytes (VBytes (Some b)) ->
  MP_UnmarshalFromBytes TBytes (MP_MarshalToBytes (VBytes (Some b))) = Ok (VBytes (Some []), b).
Proof.
  intros b L _. unfold MP_UnmarshalFromBytes, MP_MarshalToBytes. cbn [mp_encode]. unfold mp_bin. rewrite L. change (2 ^ 32 <? 256) with false. change (2 ^ 32 <? 65536) with false. cbv iota zeta.
  change (be_fixed 4 (2 ^ 32)) with [0; 0; 0; 0]. cbn [app mp_decode].
  assert (E : mp_readBytes (198 :: 0 :: 0 :: 0 :: 0 :: b) = MOk [] b).
  { change (198 :: 0 :: 0 :: 0 :: 0 :: b) with (([198; 0; 0; 0; 0] ++ []) ++ b). apply bin_read. exists 2, [0; 0; 0; 0]. split; [lia|]. split; [|reflexivity]. split; [reflexivity|]. split; [|reflexivity]. unfold bytes_ok, is_byte. repeat constructor; lia. }
  rewrite E. reflexivity.
Qed.
Print Assumptions C75_four_gigabytes_refuted.
Example C75_ex_four_gigabytes : exists b, zlen b = 2 ^ 32 /\ has_type TBytes (VBytes (Some b)).
Proof.
  exists (repeat 0 (Z.to_nat (2 ^ 32))). split; [unfold zlen; rewrite repeat_length; apply Z2Nat.id; lia|]. exact (bytes_zero _).
Qed.
(** FINDING: strings and byte strings are not told apart when reading, and an extension header before a map is passed over. *)
Theorem C75_kinds_told_apart_refuted : forall s h rest, str_header (zlen s) h -> MP_UnmarshalFromBytes TBytes ((h ++ s) ++ rest) = Ok (VBytes (Some s), rest).
Proof. intros s h rest F. unfold MP_UnmarshalFromBytes. cbn [mp_decode]. rewrite str_read by exact F. reflexivity. Qed.
Print Assumptions C75_kinds_told_apart_refuted.
Theorem C75_extension_refuted : forall kind t n b rest v r, mp_decode (TMap KString t) (n :: b ++ rest) = MOk v r -> ext_header n = None ->
  mp_decode (TMap KString t) (212 :: kind :: n :: b ++ rest) = MOk v r.
Proof. intros kind t n b rest v r H X. cbn [mp_decode mp_readMap] in *. change (ext_header 212) with (Some 1). rewrite X in H. cbv iota. rewrite (take_app [kind] (n :: b ++ rest) : take 1 (kind :: n :: b ++ rest) = Some ([kind], n :: b ++ rest)). exact H. Qed.
Print Assumptions C75_extension_refuted.
Example C75_ex_extension : MP_UnmarshalFromBytes (TMap KString (TUint 8)) [129; 161; 97; 2] = Ok (VMap (Some [(KeyS [97], VUint 2)]), []) /\ MP_UnmarshalFromBytes (TMap KString (TUint 8)) [212; 77; 129; 161; 97; 2] = Ok (VMap (Some [(KeyS [97], VUint 2)]), []).
Proof. vm_compute. split; reflexivity. Qed.
