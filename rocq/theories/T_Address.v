(** Theorems: hex byte text (C05), ICON addresses (C06), BTP addresses (C07), hex integer types (C03/C04). *)
From Coq Require Import String Ascii ZArith List Bool Lia.
From Coq Require Import ZifyBool.
From Verif Require Import Base L_Base GoStr M_IntConv S_IntConv L_IntConv L_IntStr M_Address S_Address L_Address.
Import ListNotations.
Open Scope Z_scope.

(** ** C05: hex byte text *)

Definition nilable_ok (b : option (list Z)) : Prop := match b with None => True | Some l => bytes_ok l end.

Theorem C05_rawhex_roundtrip : forall b, nilable_ok b ->
  RawHexBytes_UnmarshalJSON (RawHexBytes_MarshalJSON b) = Ok b.
Proof. intros [b|] H; cbn; [rewrite hex_decode_encode by assumption|]; reflexivity. Qed.
Print Assumptions C05_rawhex_roundtrip.

Theorem C05_hexbytes_roundtrip : forall b, nilable_ok b ->
  HexBytes_UnmarshalJSON (HexBytes_MarshalJSON b) = Ok b.
Proof.
  intros [b|] H; [|reflexivity]. unfold HexBytes_UnmarshalJSON, HexBytes_MarshalJSON.
  rewrite strip0x_prefix, hex_decode_encode by assumption. reflexivity.
Qed.
Print Assumptions C05_hexbytes_roundtrip.

(** What the two parsers accept, and with which meaning. *)
Theorem C05_rawhex_accepts : forall s b,
  RawHexBytes_UnmarshalJSON (JStr s) = Ok b <-> exists bs, b = Some bs /\ hex_pairs s bs.
Proof.
  intros s b. cbn. destruct (hex_decode s) eqn:E.
  - apply hex_decode_pairs in E. split; [intros [= <-]; eauto|].
    intros (bs & -> & H). rewrite (hex_pairs_fun _ _ _ E H). reflexivity.
  - split; [discriminate|]. intros (bs & -> & H). apply hex_decode_pairs in H. congruence.
Qed.
Print Assumptions C05_rawhex_accepts.

Theorem C05_hexbytes_accepts : forall s b,
  HexBytes_UnmarshalJSON (JStr s) = Ok b <->
  exists digits bs, b = Some bs /\ hex_pairs digits bs /\ (s = digits \/ s = str "0x" ++ digits).
Proof.
  intros s b. split.
  - cbn. destruct (hex_decode (strip0x s)) eqn:E; [|discriminate]. intros [= <-].
    apply hex_decode_pairs in E. exists (strip0x s), l. repeat split; [assumption|].
    unfold strip0x. destruct (has_prefix (str "0x") s) eqn:EP; [right|left; reflexivity].
    apply has_prefix_spec in EP as [r ->]. reflexivity.
  - intros (d & bs & -> & H & [->| ->]); unfold HexBytes_UnmarshalJSON.
    + rewrite (strip0x_pairs _ _ H). apply hex_decode_pairs in H. rewrite H. reflexivity.
    + rewrite strip0x_prefix. apply hex_decode_pairs in H. rewrite H. reflexivity.
Qed.
Print Assumptions C05_hexbytes_accepts.

(** Printing (String) is what MarshalJSON puts in the JSON string; different byte strings print differently. *)
Theorem C05_hexbytes_text_injective : forall a b, bytes_ok a -> bytes_ok b ->
  HexBytes_String (Some a) = HexBytes_String (Some b) -> a = b.
Proof. intros a b Ha Hb H. cbn in H. injection H as H. apply hex_encode_inj; assumption. Qed.
Print Assumptions C05_hexbytes_text_injective.

Theorem C05_client_hexbytes_roundtrip : forall b, bytes_ok b ->
  client_HexBytes_Value (client_NewHexBytes b) = Ok (Some b).
Proof. intros b H. cbn. rewrite hex_decode_encode by assumption. reflexivity. Qed.
Print Assumptions C05_client_hexbytes_roundtrip.

(** The client type does not look at the first two characters and, unlike the common types, panics on one. *)
Theorem C05_client_hexbytes_accepts : forall s b,
  client_HexBytes_Value s = Ok (Some b) <-> exists c1 c2 digits, s = c1 :: c2 :: digits /\ hex_pairs digits b.
Proof.
  intros s b. split.
  - destruct s as [|c1 [|c2 d]]; cbn; try discriminate. destruct (hex_decode d) eqn:E; [|discriminate].
    intros [= <-]. apply hex_decode_pairs in E. eauto 6.
  - intros (c1 & c2 & d & -> & H). cbn. apply hex_decode_pairs in H. rewrite H. reflexivity.
Qed.
Print Assumptions C05_client_hexbytes_accepts.

Theorem C05_client_hexbytes_total_refuted : exists s, bytes_ok s /\ client_HexBytes_Value s = Panic.
Proof. exists (str "0"). split; [|reflexivity]. repeat constructor; cbn; lia. Qed.
Print Assumptions C05_client_hexbytes_total_refuted.

(** HexPre shows the bytes themselves when there are at most four, otherwise the first four and "..". *)
Theorem C05_hexpre : forall b, bytes_ok b -> exists digits,
  hex_pairs digits (firstn 4 b) /\
  HexPre (Some b) = digits ++ (if (length b <=? 4)%nat then [] else str "..").
Proof.
  intros b H. exists (hex_encode (firstn 4 b)). split.
  - apply hex_encode_pairs. apply Forall_forall. intros x Hx. rewrite <- (firstn_skipn 4 b) in H.
    apply bytes_ok_app in H as [H _]. unfold bytes_ok in H. rewrite Forall_forall in H. auto.
  - unfold HexPre, zlen. destruct (Nat.leb_spec (length b) 4).
    + replace (Z.of_nat (length b) >? 4) with false by lia.
      rewrite firstn_all2 by assumption. rewrite app_nil_r. reflexivity.
    + replace (Z.of_nat (length b) >? 4) with true by lia. reflexivity.
Qed.
Print Assumptions C05_hexpre.

Example C05_ex : HexBytes_MarshalJSON (Some [0; 171; 255]) = JStr (str "0x00abff")
  /\ HexBytes_UnmarshalJSON (JStr (str "00aBFf")) = Ok (Some [0; 171; 255])
  /\ HexBytes_UnmarshalJSON (JStr []) = Ok (Some []) /\ HexBytes_UnmarshalJSON JNull = Ok None
  /\ HexPre (Some [1;2;3;4;5]) = str "01020304..".
Proof. vm_compute. auto. Qed.

(** ** C06: ICON addresses *)

(** Text form: parsing the printed form of a valid address into any receiver gives that address. *)
Theorem C06_text_roundtrip : forall a old, valid_address a -> length old = 21%nat ->
  Address_SetString old (Address_String a) = Ok a.
Proof.
  intros a old (t & id & -> & Ht & HL & Hok) Ho.
  rewrite Address_String_valid by assumption.
  rewrite (SetString_prefixed old t _ id Ht (hex_encode_pairs _ Hok)), set_id_20 by assumption.
  destruct Ht; subst; reflexivity.
Qed.
Print Assumptions C06_text_roundtrip.

Theorem C06_binary_roundtrip : forall a old, valid_address a -> length old = 21%nat ->
  Address_SetBytes old (Some (Address_Bytes a)) = Ok a.
Proof.
  intros a old (t & id & -> & Ht & HL & Hok) Ho. unfold Address_SetBytes, Address_Bytes.
  destruct Ht; subst; [change (0 =? 0) with true|change (1 =? 0) with false; change (1 =? 1) with true];
  cbv beta iota; rewrite set_id_20 by assumption; reflexivity.
Qed.
Print Assumptions C06_binary_roundtrip.

Theorem C06_text_injective : forall a b, valid_address a -> valid_address b ->
  Address_String a = Address_String b -> a = b.
Proof.
  intros a b Ha Hb H.
  assert (E := C06_text_roundtrip a zeroAddress Ha zero_addr_len).
  rewrite H, (C06_text_roundtrip b zeroAddress Hb zero_addr_len) in E. congruence.
Qed.
Print Assumptions C06_text_injective.

(** The printed form is the canonical one: "cx" or "hx" and forty hex digits spelling the id. *)
Theorem C06_text_form : forall t id, valid_address (t :: id) -> exists digits,
  Address_String (t :: id) = type_prefix t ++ digits /\ hex_pairs digits id /\ length digits = 40%nat.
Proof.
  intros t id (t' & id' & E & Ht & HL & Hok). injection E as <- <-.
  exists (hex_encode id). rewrite Address_String_valid by assumption. repeat split.
  - apply hex_encode_pairs; assumption.
  - rewrite hex_encode_length, HL. reflexivity.
Qed.
Print Assumptions C06_text_form.

(** Whatever SetBytes accepts, the receiver afterwards holds a valid address. *)
Theorem C06_setbytes_valid : forall old b a, length old = 21%nat -> bytes_ok old -> nilable_ok b ->
  Address_SetBytes old b = Ok a -> valid_address a.
Proof.
  intros old b a Ho Hok Hb H. destruct b as [[|t id]|]; cbn [Address_SetBytes] in H; try discriminate.
  cbn [nilable_ok] in Hb. apply bytes_ok_cons in Hb as [_ Hid].
  assert (K : forall ic, Address_SetTypeAndID old ic (Some id) = Ok a -> valid_address a).
  { intros ic HS. destruct (Nat.lt_ge_cases (length id) 20) as [HL|HL].
    - rewrite set_id_short in HS by assumption.
      set (rest := skipn 1 old) in *.
      match type of HS with Ok ?x = _ => assert (a = x) by congruence; subst a end.
      eexists _, _. split; [reflexivity|]. split; [destruct ic; auto|]. split.
      + rewrite app_length, firstn_length. unfold rest. rewrite skipn_length. lia.
      + apply bytes_ok_app. split; [|assumption].
        assert (bytes_ok rest) as Hs.
        { rewrite <- (firstn_skipn 1 old) in Hok. apply bytes_ok_app in Hok. tauto. }
        rewrite <- (firstn_skipn (20 - length id) rest) in Hs. apply bytes_ok_app in Hs. tauto.
    - rewrite set_id_long in HS by assumption.
      remember (firstn 20 id) as id20 eqn:E20. injection HS as <-. subst id20.
      eexists _, _. split; [reflexivity|]. split; [destruct ic; auto|]. split.
      + rewrite firstn_length. lia.
      + rewrite <- (firstn_skipn 20 id) in Hid. apply bytes_ok_app in Hid. tauto. }
  destruct (t =? 0); [eauto|]. destruct (t =? 1); [eauto|discriminate].
Qed.
Print Assumptions C06_setbytes_valid.

(** SetBytes on nil returns an error, on anything non-empty it returns normally; it panics exactly on an
    empty non-nil slice. *)
Theorem C06_setbytes_panics_iff : forall old b, Address_SetBytes old b = Panic <-> b = Some [].
Proof.
  intros old b. destruct b as [[|t id]|]; cbn [Address_SetBytes]; split; try discriminate; auto.
  destruct (t =? 0); [discriminate|]. destruct (t =? 1); discriminate.
Qed.
Print Assumptions C06_setbytes_panics_iff.

(** Abbreviated text on a fresh address: the id is the number denoted by the digits. *)
Theorem C06_short_text : forall t cs v, (t = 0 \/ t = 1) -> hex_text cs v -> (length cs <= 40)%nat ->
  exists id, Address_SetString zeroAddress (type_prefix t ++ cs) = Ok (t :: id) /\
             length id = 20%nat /\ be_val id = v.
Proof.
  intros t cs v Ht (ds & Hne & H & ->) HL.
  destruct (hex_pad_decode cs ds H) as (bs & H1 & H2 & H3 & H4).
  assert (Hb : (length bs <= 20)%nat).
  { unfold zlen in H4. assert ((Z.of_nat (length cs) + 1) / 2 < 21).
    { apply Z.div_lt_upper_bound; lia. } lia. }
  assert (E : Address_SetString zeroAddress (type_prefix t ++ cs)
              = Address_SetTypeAndID zeroAddress (t =? 1) (Some bs)).
  { unfold Address_SetString.
    assert (E1 : has_prefix (str "cx") (type_prefix t ++ cs) = (t =? 1)) by (destruct Ht; subst; reflexivity).
    assert (E2 : has_prefix (str "cx") (type_prefix t ++ cs) || has_prefix (str "hx") (type_prefix t ++ cs)
                 || has_prefix (str "0x") (type_prefix t ++ cs) = true) by (destruct Ht; subst; reflexivity).
    rewrite E2, E1. cbv beta iota zeta.
    replace (skipn 2 (type_prefix t ++ cs)) with cs by (destruct Ht; subst; reflexivity).
    change (str "0" ++ cs) with (ch "0" :: cs). rewrite H1. reflexivity. }
  rewrite E. assert (ET : (if t =? 1 then 1 else 0) = t) by (destruct Ht; subst; reflexivity).
  destruct (Nat.eq_dec (length bs) 20) as [H20|H20].
  - rewrite set_id_20 by (auto using zero_addr_len). rewrite ET. exists bs. auto.
  - rewrite set_id_short by (auto using zero_addr_len; lia). rewrite ET. eexists. split; [reflexivity|].
    assert (EZ : firstn (20 - length bs) (skipn 1 zeroAddress) = repeat 0 (20 - length bs)).
    { change (skipn 1 zeroAddress) with (repeat 0 20).
      replace 20%nat with ((20 - length bs) + length bs)%nat at 2 by lia.
      rewrite repeat_app, firstn_app, repeat_length, Nat.sub_diag. cbn [firstn].
      rewrite app_nil_r. apply firstn_all2. rewrite repeat_length. lia. }
    rewrite EZ. split; [rewrite app_length, repeat_length; lia|].
    rewrite be_val_app. assert (be_val (repeat 0 (20 - length bs)) = 0) as ->; [|lia].
    { generalize (20 - length bs)%nat as n. induction n; [reflexivity|]. cbn [repeat].
      rewrite be_val_cons, IHn. lia. }
Qed.
Print Assumptions C06_short_text.

Theorem C06_equal_iff : forall a b, Address_Equal a b = true <-> a = b.
Proof.
  intros [a|] [b|]; cbn; split; try discriminate; try reflexivity.
  - intros H. apply bytes_eqb_eq in H. congruence.
  - intros [= ->]. apply bytes_eqb_refl.
Qed.
Print Assumptions C06_equal_iff.

Lemma client_value_prefixed : forall t d, (t = 0 \/ t = 1) -> client_Address_Value (type_prefix t ++ d) =
  rbind (hex_decode_into 20 d) (fun bs => if (length bs =? 20)%nat then Ok (t :: bs) else Err 1).
Proof. intros t d [-> | ->]; reflexivity. Qed.

(** The RPC address type agrees with the binary one in both directions. *)
Theorem C06_client_roundtrip : forall a, valid_address a ->
  client_NewAddress a = Address_String a /\ client_Address_Value (client_NewAddress a) = Ok a.
Proof.
  intros a (t & id & -> & Ht & HL & Hok).
  assert (E : client_NewAddress (t :: id) = type_prefix t ++ hex_encode id).
  { unfold client_NewAddress. cbn [length]. rewrite HL. destruct Ht; subst; reflexivity. }
  split; [rewrite E, Address_String_valid by assumption; reflexivity|]. rewrite E.
  assert (HD : hex_decode_into 20 (hex_encode id) = Ok id).
  { apply hex_decode_into_ok. split; [apply hex_encode_pairs; assumption|lia]. }
  rewrite client_value_prefixed, HD by assumption. cbn [rbind]. rewrite HL. reflexivity.
Qed.
Print Assumptions C06_client_roundtrip.

Theorem C06_client_accepts : forall s a, client_Address_Value s = Ok a <->
  exists t digits id, s = type_prefix t ++ digits /\ (t = 0 \/ t = 1) /\ hex_pairs digits id /\
                      length id = 20%nat /\ a = t :: id.
Proof.
  intros s a. split.
  - unfold client_Address_Value. destruct s as [|c1 [|c2 d]]; try discriminate.
    change ((length (c1 :: c2 :: d) <? 2)%nat) with false. cbn [firstn skipn]. cbv beta iota zeta.
    destruct (bytes_eqb_spec [c1; c2] (str "cx")) as [E|_].
    + destruct (hex_decode_into 20 d) eqn:EH; cbn [rbind]; try discriminate.
      destruct (Nat.eqb_spec (length a0) 20); [|discriminate]. intros [= <-].
      apply hex_decode_into_ok in EH as [EH _]. exists 1, d, a0. repeat split; auto.
      change (c1 :: c2 :: d) with ([c1; c2] ++ d). rewrite E. reflexivity.
    + destruct (bytes_eqb_spec [c1; c2] (str "hx")) as [E|_]; [|discriminate].
      destruct (hex_decode_into 20 d) eqn:EH; cbn [rbind]; try discriminate.
      destruct (Nat.eqb_spec (length a0) 20); [|discriminate]. intros [= <-].
      apply hex_decode_into_ok in EH as [EH _]. exists 0, d, a0. repeat split; auto.
      change (c1 :: c2 :: d) with ([c1; c2] ++ d). rewrite E. reflexivity.
  - intros (t & d & id & -> & Ht & H & HL & ->).
    assert (HD : hex_decode_into 20 d = Ok id) by (apply hex_decode_into_ok; split; [assumption|lia]).
    rewrite client_value_prefixed, HD by assumption. cbn [rbind]. rewrite HL. reflexivity.
Qed.
Print Assumptions C06_client_accepts.

(** It does not panic on text of plausible length ... *)
Theorem C06_client_no_panic : forall s, (2 <= length s <= 43)%nat -> client_Address_Value s <> Panic.
Proof.
  intros s H. unfold client_Address_Value.
  replace (length s <? 2)%nat with false by (symmetry; apply Nat.ltb_ge; lia).
  assert (HN : hex_decode_into 20 (skipn 2 s) <> Panic).
  { apply hex_decode_into_no_panic. rewrite skipn_length. lia. }
  destruct (if bytes_eqb (firstn 2 s) (str "cx") then Some 1 else
            if bytes_eqb (firstn 2 s) (str "hx") then Some 0 else None); [|discriminate].
  destruct (hex_decode_into 20 (skipn 2 s)); cbn [rbind]; try congruence.
  destruct (length a =? 20)%nat; discriminate.
Qed.
Print Assumptions C06_client_no_panic.

(** ... but it does on shorter or longer text received from a peer. *)
Theorem C06_client_no_panic_refuted :
  client_Address_Value (str "c") = Panic /\
  client_Address_Value (str "hx" ++ repeat (ch "0") 42) = Panic.
Proof. split; vm_compute; reflexivity. Qed.
Print Assumptions C06_client_no_panic_refuted.

(** Re-using an address variable: a short id leaves bytes of the previous address in place. *)
Theorem C06_receiver_independent_refuted : exists old s a1 a2, valid_address old /\
  Address_SetString old s = Ok a1 /\ Address_SetString zeroAddress s = Ok a2 /\ a1 <> a2.
Proof.
  exists (0 :: repeat 7 20), (str "hx01"). eexists _, _. split; [|split; [|split]].
  - exists 0, (repeat 7 20). repeat split; auto. apply Forall_forall. intros x Hx.
    apply repeat_spec in Hx. subst. split; lia.
  - vm_compute. reflexivity.
  - vm_compute. reflexivity.
  - discriminate.
Qed.
Print Assumptions C06_receiver_independent_refuted.

(** Too long text is accepted and cut: two different texts, one address. *)
Theorem C06_long_text_rejected_refuted : exists s1 s2 a, s1 <> s2 /\ (length s1 < length s2)%nat /\
  Address_SetString zeroAddress s1 = Ok a /\ Address_SetString zeroAddress s2 = Ok a.
Proof.
  exists (str "cx" ++ repeat (ch "1") 40), (str "cx" ++ repeat (ch "1") 40 ++ str "ff"). eexists.
  split; [discriminate|]. split; [vm_compute; lia|]. split; vm_compute; reflexivity.
Qed.
Print Assumptions C06_long_text_rejected_refuted.

(** An account address made from a public key is the last 20 bytes of the key's hash. *)
Theorem C06_from_public_key : forall sha3 k, (20 <= length (sha3 (skipn 1 k)))%nat ->
  exists p id, sha3 (skipn 1 k) = p ++ id /\ length id = 20%nat /\
  NewAccountAddressFromPublicKey sha3 (Some k) = Ok (0 :: id).
Proof.
  intros sha3 k H. set (d := sha3 (skipn 1 k)) in *.
  exists (firstn (length d - 20) d), (skipn (length d - 20) d). split; [symmetry; apply firstn_skipn|].
  assert (HL : length (skipn (length d - 20) d) = 20%nat) by (rewrite skipn_length; lia).
  split; [assumption|]. unfold NewAccountAddressFromPublicKey. fold d. cbv beta iota zeta.
  rewrite set_id_20 by (auto using zero_addr_len). reflexivity.
Qed.
Print Assumptions C06_from_public_key.

Example C06_ex : valid_address (1 :: repeat 171 20) /\
  Address_String (1 :: repeat 171 20) = str "cxabababababababababababababababababababab".
Proof.
  split; [|vm_compute; reflexivity]. exists 1, (repeat 171 20). repeat split; auto.
  apply Forall_forall. intros x Hx. apply repeat_spec in Hx. subst. split; lia.
Qed.

(** ** C07: BTP addresses *)

Theorem C07_compose_decompose : forall proto nid chain account,
  proto <> [] -> free_of (ch ":") proto -> free_of (ch "/") proto ->
  free_of (ch "/") nid -> free_of (ch ".") nid ->
  free_of (ch "/") chain -> free_of (ch ".") chain -> free_of (ch "/") account ->
  let a := compose_btp proto nid chain account in
  Btp_Protocol a = proto /\ Btp_NetworkAddress a = nid ++ str "." ++ chain /\
  Btp_NetworkID a = nid /\ Btp_BlockChain a = chain /\ Btp_Account a = account /\
  Btp_ContractAddress a = account.
Proof.
  intros proto nid chain account Hne H1 H2 H3 H4 H5 H6 H7 a.
  assert (Hna : free_of (ch "/") (nid ++ str "." ++ chain)).
  { intros HI. apply in_app_or in HI as [HI|HI]; [exact (H3 HI)|].
    apply in_app_or in HI as [HI|HI]; [|exact (H5 HI)]. cbn in HI. destruct HI as [HI|[]]. discriminate. }
  destruct (Btp_parts proto (nid ++ str "." ++ chain) account [] Hne H1 H2 Hna H7 (or_introl eq_refl)) as (P1 & P2 & P3).
  assert (EA : proto ++ str "://" ++ (nid ++ str "." ++ chain) ++ str "/" ++ account ++ [] = a).
  { unfold a, compose_btp. rewrite app_nil_r, <- !app_assoc. reflexivity. }
  cbv zeta in P1, P2, P3. rewrite EA in P1, P2, P3.
  assert (PN : Btp_network a = (nid, chain)).
  { apply (Btp_network_dot a nid chain []); auto; [rewrite app_nil_r; assumption|left; reflexivity]. }
  unfold Btp_NetworkID, Btp_BlockChain, Btp_ContractAddress. rewrite PN. auto 8.
Qed.
Print Assumptions C07_compose_decompose.

Theorem C07_compose_decompose_plain : forall proto chain account,
  proto <> [] -> free_of (ch ":") proto -> free_of (ch "/") proto ->
  free_of (ch "/") chain -> free_of (ch ".") chain -> free_of (ch "/") account ->
  let a := compose_btp_plain proto chain account in
  Btp_Protocol a = proto /\ Btp_NetworkAddress a = chain /\
  Btp_NetworkID a = [] /\ Btp_BlockChain a = chain /\ Btp_Account a = account.
Proof.
  intros proto chain account Hne H1 H2 H3 H4 H5 a.
  destruct (Btp_parts proto chain account [] Hne H1 H2 H3 H5 (or_introl eq_refl)) as (P1 & P2 & P3).
  cbv zeta in P1, P2, P3. rewrite app_nil_r in P1, P2, P3. fold (compose_btp_plain proto chain account) in P1, P2, P3.
  fold a in P1, P2, P3. unfold Btp_NetworkID, Btp_BlockChain. rewrite (Btp_network_plain a chain) by assumption. auto 8.
Qed.
Print Assumptions C07_compose_decompose_plain.

(** Different parts give different addresses. *)
Theorem C07_compose_injective : forall p n c a p' n' c' a',
  let wf p n c a := p <> [] /\ free_of (ch ":") p /\ free_of (ch "/") p /\ free_of (ch "/") n /\
                    free_of (ch ".") n /\ free_of (ch "/") c /\ free_of (ch ".") c /\ free_of (ch "/") a in
  wf p n c a -> wf p' n' c' a' -> compose_btp p n c a = compose_btp p' n' c' a' ->
  p = p' /\ n = n' /\ c = c' /\ a = a'.
Proof.
  intros p n c a p' n' c' a' wf (A1 & A2 & A3 & A4 & A5 & A6 & A7 & A8) (B1 & B2 & B3 & B4 & B5 & B6 & B7 & B8) E.
  destruct (C07_compose_decompose p n c a) as (X1 & _ & X2 & X3 & X4 & _); auto.
  destruct (C07_compose_decompose p' n' c' a') as (Y1 & _ & Y2 & Y3 & Y4 & _); auto.
  rewrite E in *. repeat split; congruence.
Qed.
Print Assumptions C07_compose_injective.

(** Validation accepts exactly addresses of protocol btp whose chain is icon or iconee and whose
    account is not empty; anything after a third '/' of the rest, or after a second '.' of the network
    address, is ignored. *)
Theorem C07_validate_iff : forall a, ValidateBtpAddress a = true <->
  exists na account tail chain, a = str "btp://" ++ na ++ str "/" ++ account ++ tail /\
    free_of (ch "/") na /\ free_of (ch "/") account /\ account <> [] /\ ends_at (ch "/") tail /\
    (chain = str "icon" \/ chain = str "iconee") /\
    (na = chain \/ exists nid t, na = nid ++ str "." ++ chain ++ t /\ free_of (ch ".") nid /\ ends_at (ch ".") t).
Proof.
  assert (HF : forall chain, chain = str "icon" \/ chain = str "iconee" -> free_of (ch ".") chain).
  { intros chain H HI. destruct H; subst; cbn in HI; repeat (destruct HI as [HI|HI]; [discriminate|]); exact HI. }
  intros a. unfold ValidateBtpAddress. rewrite !andb_true_iff, orb_true_iff, !bytes_eqb_eq. split.
  - intros [[HP HC] HA].
    assert (HA' : Btp_Account a <> []) by (destruct (Btp_Account a); [discriminate|congruence]). clear HA.
    assert (HL : (3 < length (str_split a (ch "/")))%nat).
    { apply nth_nonempty_len. unfold Btp_Account in HA'. rewrite HP in HA'. exact HA'. }
    destruct (split_nth2 _ _ HL) as (x & y & n & ac & tail & E & Fx & Fy & Fn & Fa & HT & N0 & N1 & N2 & N3).
    destruct (Btp_Protocol_btp a HP) as [r Hr].
    assert (HS : str_split a (ch "/") = str "btp:" :: [] :: str_split r (ch "/")).
    { rewrite Hr. apply split_compose. intros HI; cbn in HI; repeat (destruct HI as [HI|HI]; [discriminate|]); exact HI. }
    rewrite HS in N0, N1. cbn [nth] in N0, N1. subst x y.
    assert (HNA : Btp_NetworkAddress a = n) by (unfold Btp_NetworkAddress; rewrite HP; exact N2).
    assert (HAC : Btp_Account a = ac) by (unfold Btp_Account; rewrite HP; exact N3).
    exists n, ac, tail, (Btp_BlockChain a). split; [rewrite E; reflexivity|]. split; [assumption|].
    split; [assumption|]. split; [congruence|]. split; [assumption|]. split; [assumption|].
    unfold Btp_BlockChain, Btp_network. rewrite HNA. destruct n as [|n0 n1] eqn:EN.
    { exfalso. unfold Btp_BlockChain, Btp_network in HC. rewrite HNA in HC. cbn in HC. destruct HC; discriminate. }
    rewrite <- EN. replace (is_empty n) with false by (subst; reflexivity). cbv beta iota zeta.
    destruct (split_first n (ch ".")) as [Hf|(nid & r1 & E1 & Hf)].
    + left. rewrite str_split_free by assumption. reflexivity.
    + right. rewrite E1, str_split_sep by assumption.
      destruct (split_first r1 (ch ".")) as [Hf1|(c & r2 & E2 & Hf1)].
      * rewrite str_split_free by assumption. exists nid, []. rewrite app_nil_r. repeat split; auto. left; reflexivity.
      * rewrite E2, str_split_sep by assumption. exists nid, (ch "." :: r2). repeat split; auto. right; eexists; reflexivity.
  - intros (na & ac & tail & chain & -> & Fn & Fa & Hne & HT & HC & HN).
    change (str "btp://") with (str "btp" ++ str "://"). rewrite <- app_assoc.
    destruct (Btp_parts (str "btp") na ac tail) as (P1 & P2 & P3); auto.
    { discriminate. }
    { intros HI; cbn in HI; repeat (destruct HI as [HI|HI]; [discriminate|]); exact HI. }
    { intros HI; cbn in HI; repeat (destruct HI as [HI|HI]; [discriminate|]); exact HI. }
    cbv zeta in P1, P2, P3. set (a := str "btp" ++ str "://" ++ na ++ str "/" ++ ac ++ tail) in *.
    assert (HB : Btp_BlockChain a = chain).
    { unfold Btp_BlockChain. destruct HN as [->|(nid & t & -> & F1 & F2)].
      - rewrite (Btp_network_plain a chain P2) by (apply HF; assumption). reflexivity.
      - rewrite (Btp_network_dot a nid chain t P2) by (auto). reflexivity. }
    rewrite P1, HB, P3. split; [split; [reflexivity|assumption]|]. destruct ac; [congruence|reflexivity].
Qed.
Print Assumptions C07_validate_iff.

Example C07_ex : compose_btp (str "btp") (str "0x1") (str "iconee") (str "cx00") = str "btp://0x1.iconee/cx00"
  /\ ValidateBtpAddress (str "btp://0x1.iconee/cx00") = true
  /\ ValidateBtpAddress (str "btp://0x1.eth/cx00") = false
  /\ Btp_BlockChain (str "btp://icon/cx00") = str "icon" /\ Btp_Protocol (str "://icon") = [].
Proof. vm_compute. auto 6. Qed.

(** ** C03/C04 for the hex integer types *)

Definition hk_in_range (k : hexkind) (v : Z) : Prop :=
  match k with
  | HI16 => - 2 ^ 15 <= v < 2 ^ 15 | HU16 => 0 <= v < 2 ^ 16
  | HI32 => - 2 ^ 31 <= v < 2 ^ 31 | HU32 => 0 <= v < 2 ^ 32
  | HI64 => - 2 ^ 63 <= v < 2 ^ 63 | HU64 => 0 <= v < 2 ^ 64
  end.

Lemma hk_convert_id : forall k v, hk_in_range k v -> hk_convert k v = v.
Proof.
  intros k v H. unfold hk_convert, hk_bits, hk_signed. destruct k; unfold hk_in_range in H.
    all: try (apply Z.mod_small; lia).
    all: destruct (Z.le_gt_cases 0 v); [rewrite Z.mod_small by lia; match goal with |- (if ?a <? ?b then _ else _) = _ => destruct (Z.ltb_spec a b); lia end|].
    - replace (v mod 2^16) with (v + 2^16) by (apply (Z.mod_unique _ _ (-1)); lia).
      destruct (Z.ltb_spec (v + 2^16) (2 ^ (16 - 1))); lia.
    - replace (v mod 2^32) with (v + 2^32) by (apply (Z.mod_unique _ _ (-1)); lia).
      destruct (Z.ltb_spec (v + 2^32) (2 ^ (32 - 1))); lia.
    - replace (v mod 2^64) with (v + 2^64) by (apply (Z.mod_unique _ _ (-1)); lia).
      destruct (Z.ltb_spec (v + 2^64) (2 ^ (64 - 1))); lia.
Qed.

Theorem C03_hexint_types_roundtrip : forall k v, hk_in_range k v -> HexFixed_parse k (HexFixed_text k v) = Some v.
Proof.
  intros k v H.
  assert (HC := hk_convert_id k v H).
  unfold HexFixed_parse.
  assert (HP : (if hk_signed k then ParseInt (HexFixed_text k v) (hk_bits k)
                else ParseUint (HexFixed_text k v) (hk_bits k)) = Some v).
  { destruct k; unfold hk_signed, hk_bits, HexFixed_text; unfold hk_in_range in H; cbv iota.
    - apply ParseInt_Format; [lia|]. unfold in_int_range. change (16 - 1) with 15. lia.
    - assert (HF : FormatInt v = FormatUint v).
      { unfold FormatInt, FormatUint. replace (v <? 0) with false by lia. rewrite u64_small by lia. reflexivity. }
      rewrite HF. apply ParseUint_Format; lia.
    - apply ParseInt_Format; [lia|]. unfold in_int_range. change (32 - 1) with 31. lia.
    - apply ParseUint_Format; lia.
    - apply ParseInt_Format; [lia|]. unfold in_int_range. change (64 - 1) with 63. lia.
    - apply ParseUint_Format; lia. }
  rewrite HP, HC. reflexivity.
Qed.
Print Assumptions C03_hexint_types_roundtrip.

(** ** C04: whatever text is parsed, the stored value is the parsed number (no silent narrowing) *)
Theorem C04_hexint_types_no_narrowing : forall k s v, HexFixed_parse k s = Some v ->
  hk_in_range k v /\ (if hk_signed k then ParseInt s (hk_bits k) else ParseUint s (hk_bits k)) = Some v.
Proof.
  intros k s v H. unfold HexFixed_parse in H.
  destruct (if hk_signed k then ParseInt s (hk_bits k) else ParseUint s (hk_bits k)) as [w|] eqn:E; [|discriminate].
  injection H as H.
  assert (HR : hk_in_range k w).
  { destruct k; unfold hk_signed, hk_bits in E; cbv iota in E.
    all: try (apply ParseInt_range in E; [|lia]; unfold in_int_range in E; unfold hk_in_range; cbn in *; lia).
    all: apply ParseUint_range in E; [|lia]; unfold hk_in_range; lia. }
  rewrite hk_convert_id in H by assumption. subst w. auto.
Qed.
Print Assumptions C04_hexint_types_no_narrowing.

Example C03_ex_types : HexFixed_text HI16 (-32768) = str "-0x8000" /\ HexFixed_parse HU16 (str "0xffff") = Some 65535
  /\ HexFixed_parse HU16 (str "0x10000") = None /\ HexFixed_parse HI32 (str "-0x80000000") = Some (- 2 ^ 31).
Proof. vm_compute. auto. Qed.
