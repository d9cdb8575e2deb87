(** Theorems about signatures (C42), keystores (C43) and encrypted values (C44). *)
From Coq Require Import String Ascii ZArith List Bool Lia.
From Coq Require Import ZifyBool.
From Verif Require Import Base L_Base GoStr M_Address S_Address L_Address T_Address M_Crypto S_Crypto.
Import ListNotations.
Open Scope Z_scope.

(** * C42 *)
(** [R|S|V]: every layout contains the same three parts. *)
Theorem C42_with_v : forall r s v, length r = 32%nat -> length s = 32%nat -> exists g, ParseSignature (r ++ s ++ [v]) = Ok g /\
  SerializeRSV g = Ok (r ++ s ++ [v]) /\ SerializeVRS g = Ok (v :: r ++ s) /\ SerializeRS g = Ok (r ++ s).
Proof.
  intros r s v Hr Hs. assert (HL : length (r ++ s ++ [v]) = 65%nat) by (rewrite !app_length; cbn [length]; lia).
  exists (mkSig (r ++ s ++ [v]) true). unfold ParseSignature, SerializeRSV, SerializeVRS, SerializeRS. rewrite HL. cbn [sg_bytes sg_hasV negb]. rewrite HL.
  change (65 <=? 64)%nat with false. change (65 <? 64)%nat with false. repeat split.
  - f_equal. rewrite !app_nth2 by lia. replace (64 - length r - length s)%nat with O by lia. cbn [nth]. f_equal. rewrite firstn_app, Hr, Nat.sub_diag, firstn_O, app_nil_r, firstn_all2 by lia. f_equal.
    rewrite skipn_app, Hr, Nat.sub_diag, skipn_all2 by lia. cbn [skipn app]. rewrite firstn_app, Hs, Nat.sub_diag, firstn_O, app_nil_r. apply firstn_all2. lia.
  - f_equal. rewrite app_assoc. rewrite firstn_app, app_length, Hr, Hs. change (64 - (32 + 32))%nat with O. rewrite firstn_O, app_nil_r. apply firstn_all2. rewrite app_length. lia.
Qed.
Print Assumptions C42_with_v.

(** [R|S]: the same bytes come back; the layouts with V are refused. *)
Theorem C42_without_v : forall rs, length rs = 64%nat -> exists g, ParseSignature rs = Ok g /\ SerializeRS g = Ok rs /\ SerializeRSV g = Err 4 /\ SerializeVRS g = Err 4.
Proof.
  intros rs HL. exists (mkSig (rs ++ [0]) false). unfold ParseSignature, SerializeRSV, SerializeVRS, SerializeRS. rewrite HL. cbn [sg_bytes sg_hasV negb]. rewrite app_length, HL. cbn [length]. change (64 + 1 <? 64)%nat with false.
  repeat split. f_equal. rewrite firstn_app, HL, Nat.sub_diag, firstn_O, app_nil_r. apply firstn_all2. lia.
Qed.
Print Assumptions C42_without_v.

Theorem C42_other_lengths : forall b, (exists g, ParseSignature b = Ok g) <-> length b = 64%nat \/ length b = 65%nat.
Proof.
  intros b. unfold ParseSignature. split; [|intros [-> | ->]; cbn [Nat.eqb]; eauto].
  intros [g H]. destruct (length b =? 0)%nat; [discriminate|]. destruct (length b =? 65)%nat eqn:E1; [lia|]. destruct (length b =? 64)%nat eqn:E2; [lia|discriminate].
Qed.
Print Assumptions C42_other_lengths.

(** Different byte strings are different signatures. *)
Theorem C42_injective : forall a b g, ParseSignature a = Ok g -> ParseSignature b = Ok g -> a = b.
Proof.
  intros a b g Ha Hb. assert (La : length a = 64%nat \/ length a = 65%nat) by (apply C42_other_lengths; eauto). assert (Lb : length b = 64%nat \/ length b = 65%nat) by (apply C42_other_lengths; eauto).
  unfold ParseSignature in *. destruct La as [La|La], Lb as [Lb|Lb]; rewrite La in Ha; rewrite Lb in Hb; cbn [Nat.eqb] in Ha, Hb; try congruence. assert (E : a ++ [0] = b ++ [0]) by congruence. apply app_inj_tail in E. tauto.
Qed.
Print Assumptions C42_injective.

(** Finding: no [V|R|S] signature can be parsed; a string of the right length crashes. *)
Theorem C42_parse_vrs_refuted : forall b, ParseSignatureVRS b = if (length b =? 65)%nat then Panic else Err 2.
Proof.
  intros b. unfold ParseSignatureVRS. destruct (length b =? 65)%nat eqn:E; cbn [negb]; [|reflexivity]. apply Nat.eqb_eq in E. unfold slice. rewrite E. change (65 <? 33)%nat with false. change (65 <? 65)%nat with false. cbn [rbind].
  rewrite app_length, !firstn_length, !skipn_length, E. reflexivity.
Qed.
Print Assumptions C42_parse_vrs_refuted.

(** Signing and recovering, for a curve whose recovery is right. *)
Theorem C42_sign_recover : forall sign recover verify pubk key hash, (forall h k, length (sign h k) = 65%nat) -> (forall h k, recover h (sign h k) = pubk k) -> (forall h k, verify h (sign h k) (pubk k) = true) ->
  length (pubk key) = 33%nat -> (1 <= length hash <= 32)%nat ->
  exists g, NewSignature sign hash (Some key) = Ok g /\ RecoverPublicKey recover g hash = Ok (pubk key) /\ Verify verify g hash (Some (pubk key)) = true.
Proof.
  intros sign recover verify pubk key hash HS HR HV HP HH. exists (mkSig (sign hash key) true). unfold NewSignature, RecoverPublicKey, Verify, ParseSignature, SerializeRSV. rewrite HS. cbn [sg_hasV sg_bytes negb].
  replace (length hash =? 0)%nat with false by lia. replace (32 <? length hash)%nat with false by lia. cbn [orb rbind]. rewrite HR, HV. unfold ParsePublicKey. rewrite HP. auto.
Qed.
Print Assumptions C42_sign_recover.

(** Hashes of a wrong length are refused everywhere; a signature without V never verifies, whatever the curve says. *)
Theorem C42_refused : forall sign recover verify g hash key, 
  (length hash = 0%nat \/ (32 < length hash)%nat -> NewSignature sign hash key = Err 8 /\ Verify verify g hash key = false /\ (forall k, RecoverPublicKey recover g hash <> Ok k)) /\
  (forall rs, length rs = 64%nat -> ParseSignature rs = Ok g -> Verify verify g hash key = false /\ RecoverPublicKey recover g hash = Err 4).
Proof.
  intros sign recover verify g hash key. split.
  - intros H. assert (X : (length hash =? 0)%nat || (32 <? length hash)%nat = true) by lia. unfold NewSignature, Verify, RecoverPublicKey. rewrite X. repeat split; try (destruct key; reflexivity). intros k. destruct (sg_hasV g); discriminate.
  - intros rs HL HP. destruct (C42_without_v rs HL) as (g' & E & _ & E2 & _). assert (g' = g) by congruence. subst g'. unfold Verify, RecoverPublicKey. rewrite E2. assert (HV : sg_hasV g = false) by (unfold SerializeRSV in E2; destruct (sg_hasV g); [discriminate|reflexivity]). rewrite HV.
    split; [|reflexivity]. destruct key; [|reflexivity]. destruct (_ || _); reflexivity.
Qed.
Print Assumptions C42_refused.

(** Public keys: the compressed form keeps x and the parity of y, and nothing else. *)
Theorem C42_compression : forall f x y f' x' y', length x = 32%nat -> length y = 32%nat -> length x' = 32%nat -> length y' = 32%nat ->
  (exists k, ParsePublicKey (f :: x ++ y) = Ok k /\ length k = 33%nat /\ ParsePublicKey k = Ok k) /\
  (ParsePublicKey (f :: x ++ y) = ParsePublicKey (f' :: x' ++ y') <-> x = x' /\ Z.odd (be_val y) = Z.odd (be_val y')).
Proof.
  intros f x y f' x' y' Hx Hy Hx' Hy'.
  assert (P : forall f x y, length x = 32%nat -> length y = 32%nat -> ParsePublicKey (f :: x ++ y) = Ok ((if Z.odd (be_val y) then 3 else 2) :: x)).
  { clear. intros f x y Hx Hy. unfold ParsePublicKey. cbn [length]. rewrite app_length, Hx, Hy. change (S (32 + 32)) with 65%nat. unfold uncompToComp. cbn [skipn]. rewrite firstn_app, Hx, Nat.sub_diag, firstn_O, app_nil_r, firstn_all2 by lia.
    change 64%nat with (S 63). cbn [nth]. rewrite app_nth2 by lia. rewrite Hx. change (63 - 32)%nat with 31%nat. destruct (exists_last (l := y)) as (y0 & b & ->); [destruct y; [discriminate|congruence]|].
    rewrite app_length in Hy. cbn [length] in Hy. rewrite app_nth2 by lia. replace (31 - length y0)%nat with O by lia. cbn [nth]. rewrite be_val_snoc. rewrite Z.odd_add, Z.odd_mul. change (Z.odd 256) with false. rewrite andb_false_r, xorb_false_l. reflexivity. }
  rewrite (P f x y Hx Hy), (P f' x' y' Hx' Hy'). split.
  - eexists. split; [reflexivity|]. split; [cbn [length]; lia|]. unfold ParsePublicKey. cbn [length]. rewrite Hx. reflexivity.
  - split; [|intros [-> ->]; reflexivity]. intros E. split; [congruence|]. destruct (Z.odd (be_val y)), (Z.odd (be_val y')); congruence.
Qed.
Print Assumptions C42_compression.

Example C42_ex : exists g, ParseSignature (repeat 1 32 ++ repeat 2 32 ++ [7]) = Ok g /\ SerializeVRS g = Ok (7 :: repeat 1 32 ++ repeat 2 32) /\ ParseSignatureVRS (7 :: repeat 1 32 ++ repeat 2 32) = Panic.
Proof. eexists. vm_compute. auto. Qed.

(** * The key stream *)
Lemma xor_from_length : forall ks b i, length (xor_from ks i b) = length b.
Proof. induction b as [|x b IH]; intros i; cbn [xor_from length]; [reflexivity|]. rewrite IH. reflexivity. Qed.
Lemma xor_from_twice : forall ks b i, xor_from ks i (xor_from ks i b) = b.
Proof. induction b as [|x b IH]; intros i; cbn [xor_from]; [reflexivity|]. rewrite IH, Z.lxor_assoc, Z.lxor_nilpotent, Z.lxor_0_r. reflexivity. Qed.
Lemma lxor_byte : forall a b, is_byte a -> is_byte b -> is_byte (Z.lxor a b).
Proof.
  intros a b Ha Hb. unfold is_byte in *. assert (0 <= Z.lxor a b) by (apply Z.lxor_nonneg; lia). split; [assumption|]. destruct (Z.eq_dec (Z.lxor a b) 0) as [->|N]; [lia|].
  change 256 with (2 ^ 8). apply Z.log2_lt_pow2; [lia|]. pose proof (Z.log2_lxor a b ltac:(lia) ltac:(lia)). assert (LB : forall x, 0 <= x < 256 -> Z.log2 x <= 7) by (intros x Hx; change 7 with (Z.log2 255); apply Z.log2_le_mono; lia). pose proof (LB a Ha). pose proof (LB b Hb). lia.
Qed.
Lemma xor_from_bytes : forall ks b i, (forall j, is_byte (ks j)) -> bytes_ok b -> bytes_ok (xor_from ks i b).
Proof. intros ks b i HK. revert i. induction b as [|x b IH]; intros i HB; [constructor|]. inversion HB; subst. cbn [xor_from]. constructor; [apply lxor_byte; auto|apply IH; assumption]. Qed.

(** * C43 *)
Lemma slice_ok : forall l a b, (b <= length l)%nat -> slice l a b = Ok (firstn (b - a) (skipn a l)).
Proof. intros l a b H. unfold slice. replace (length l <? b)%nat with false by lia. reflexivity. Qed.

(** What the encryption writes down. *)
Lemma encrypt_spec : forall kdf keccak sha3 aes unc salt iv s pw key u, kdf pw salt 65536 8 1 32 = Some key -> (32 <= length key)%nat -> length iv = 16%nat -> unc s = Some u -> gives_bytes sha3 20 ->
  let ct := xor_from (aes (firstn 16 key) iv) 0 s in
  exists id, length id = 20%nat /\ bytes_ok id /\ key_address sha3 unc s = Ok (0 :: id) /\
  EncryptKeyAsKeyStore kdf keccak sha3 aes unc salt iv s pw = Ok (mkKs (Address_String (0 :: id)) (str "icx") (str "aes-128-ctr") (JStr (hex_encode iv)) (JStr (hex_encode ct)) (str "scrypt") 32 65536 8 1 (JStr (hex_encode salt)) (JStr (hex_encode (keccak (firstn 16 (skipn 16 key) ++ ct))))).
Proof.
  intros kdf keccak sha3 aes unc salt iv s pw key u HK HL HI HU HS ct. destruct (HS (skipn 1 u)) as [HB H20]. destruct (C06_from_public_key sha3 u H20) as (p & id & E1 & E2 & E3). exists id.
  assert (BI : bytes_ok id) by (rewrite E1 in HB; apply bytes_ok_app in HB; tauto). assert (KA : key_address sha3 unc s = Ok (0 :: id)) by (unfold key_address; rewrite HU; exact E3).
  repeat split; try assumption. unfold EncryptKeyAsKeyStore. rewrite HK. rewrite (slice_ok key 0 16) by lia. cbn [rbind]. unfold ctr. rewrite HI. cbn [Nat.eqb negb rbind]. rewrite (slice_ok key 16 32) by lia. cbn [rbind]. rewrite KA. cbn [rbind].
  assert (VA : valid_address (0 :: id)) by (exists 0, id; auto). pose proof (C06_binary_roundtrip (0 :: id) zeroAddress VA zero_addr_len) as X. unfold Address_Bytes in X. rewrite X. cbn [rbind]. reflexivity.
Qed.

(** The right password gives the key back. *)
Theorem C43_roundtrip : forall kdf keccak sha3 aes unc evm salt iv s pw key u,
  kdf pw salt 65536 8 1 32 = Some key -> (32 <= length key)%nat -> length iv = 16%nat -> bytes_ok iv -> bytes_ok salt -> length s = 32%nat -> bytes_ok s ->
  unc s = Some u -> gives_bytes sha3 20 -> gives_bytes keccak 0 -> (forall k i j, is_byte (aes k i j)) ->
  exists d, EncryptKeyAsKeyStore kdf keccak sha3 aes unc salt iv s pw = Ok d /\ DecryptKeyStore kdf keccak sha3 aes unc evm d pw = Ok (false, s).
Proof.
  intros kdf keccak sha3 aes unc evm salt iv s pw key u HK HL HI BI BS LS BB HU HS HC HA. destruct (encrypt_spec kdf keccak sha3 aes unc salt iv s pw key u HK HL HI HU HS) as (id & L & BID & KA & E). eexists. split; [exact E|].
  assert (BC : bytes_ok (xor_from (aes (firstn 16 key) iv) 0 s)) by (apply xor_from_bytes; auto). set (ct := xor_from (aes (firstn 16 key) iv) 0 s) in *.
  unfold DecryptKeyStore, DecryptICONKeyStore. cbn [k_coin k_text k_mac k_address k_cipher k_iv k_kdf k_salt k_n k_r k_p k_dklen]. rewrite bytes_eqb_refl. unfold RawHexBytes_UnmarshalJSON. rewrite !hex_decode_encode by (try assumption; apply HC). cbn [rbind].
  assert (VA : valid_address (0 :: id)) by (exists 0, id; auto). rewrite (C06_text_roundtrip (0 :: id) zeroAddress VA zero_addr_len). cbn [rbind]. rewrite !bytes_eqb_refl. cbn [negb raw]. rewrite HK. rewrite (slice_ok key 16 32), (slice_ok key 0 16) by lia. cbn [rbind].
  change (32 - 16)%nat with 16%nat. change (16 - 0)%nat with 16%nat. cbn [skipn] in *. rewrite bytes_eqb_refl. cbn [negb rbind]. unfold ctr. rewrite HI. cbn [Nat.eqb negb rbind]. unfold ct. rewrite xor_from_twice. unfold ParsePrivateKey. rewrite LS. cbn [Nat.eqb negb rbind]. rewrite KA. cbn [rbind Address_Equal]. rewrite bytes_eqb_refl. reflexivity.
Qed.
Print Assumptions C43_roundtrip.

(** Anything accepted, from whatever document, has the right MAC and the address in the document. *)
Theorem C43_accepted : forall kdf keccak sha3 aes unc d pw s, DecryptICONKeyStore kdf keccak sha3 aes unc d pw = Ok s ->
  exists ct mac salt key a, RawHexBytes_UnmarshalJSON (k_text d) = Ok ct /\ RawHexBytes_UnmarshalJSON (k_mac d) = Ok mac /\ RawHexBytes_UnmarshalJSON (k_salt d) = Ok salt /\
    kdf pw (raw salt) (k_n d) (k_r d) (k_p d) (k_dklen d) = Some key /\ raw mac = keccak (firstn 16 (skipn 16 key) ++ raw ct) /\
    length s = 32%nat /\ Address_SetString zeroAddress (k_address d) = Ok a /\ key_address sha3 unc s = Ok a.
Proof.
  intros kdf keccak sha3 aes unc d pw s E. unfold DecryptICONKeyStore in E. destruct (RawHexBytes_UnmarshalJSON (k_text d)) as [ct| |]; cbn [rbind] in E; try discriminate. destruct (RawHexBytes_UnmarshalJSON (k_mac d)) as [mac| |]; cbn [rbind] in E; try discriminate.
  destruct (Address_SetString zeroAddress (k_address d)) as [a| |]; cbn [rbind] in E; try discriminate. destruct (negb (bytes_eqb (k_cipher d) _)); [discriminate|]. destruct (RawHexBytes_UnmarshalJSON (k_iv d)) as [iv| |]; cbn [rbind] in E; try discriminate.
  destruct (negb (bytes_eqb (k_kdf d) _)); [discriminate|]. destruct (RawHexBytes_UnmarshalJSON (k_salt d)) as [salt| |]; cbn [rbind] in E; try discriminate. destruct (kdf pw (raw salt) (k_n d) (k_r d) (k_p d) (k_dklen d)) as [key|] eqn:EK; [|discriminate].
  unfold slice in E. destruct (length key <? 32)%nat; cbn [rbind] in E; [discriminate|]. destruct (bytes_eqb (keccak _) (raw mac)) eqn:EM; cbn [negb] in E; [|discriminate]. destruct (length key <? 16)%nat; cbn [rbind] in E; [discriminate|].
  destruct (ctr aes _ (raw iv) (raw ct)) as [sb| |]; cbn [rbind] in E; try discriminate. unfold ParsePrivateKey in E. destruct (negb (length sb =? 32)%nat) eqn:EL; cbn [rbind] in E; [discriminate|]. destruct (key_address sha3 unc sb) as [b| |] eqn:EA; cbn [rbind] in E; try discriminate.
  cbn [Address_Equal] in E. destruct (bytes_eqb b a) eqn:EB; [|discriminate]. assert (s = sb) by congruence. subst sb. apply bytes_eqb_eq in EB. subst b. apply bytes_eqb_eq in EM.
  exists ct, mac, salt, key, a. repeat split; auto. lia.
Qed.
Print Assumptions C43_accepted.

(** A password whose MAC key differs is refused, or two different inputs of the hash collide. *)
Theorem C43_wrong_password : forall kdf keccak sha3 aes unc salt iv s pw pw' key key' u d, gives_bytes keccak 0 -> gives_bytes sha3 20 -> (forall k i j, is_byte (aes k i j)) -> bytes_ok iv -> bytes_ok salt -> bytes_ok s -> length iv = 16%nat ->
  kdf pw salt 65536 8 1 32 = Some key -> kdf pw' salt 65536 8 1 32 = Some key' -> (32 <= length key)%nat -> (32 <= length key')%nat -> unc s = Some u ->
  firstn 16 (skipn 16 key) <> firstn 16 (skipn 16 key') ->
  EncryptKeyAsKeyStore kdf keccak sha3 aes unc salt iv s pw = Ok d ->
  DecryptICONKeyStore kdf keccak sha3 aes unc d pw' = Err 14 \/
  (exists ct, collision keccak (firstn 16 (skipn 16 key) ++ ct) (firstn 16 (skipn 16 key') ++ ct)).
Proof.
  intros kdf keccak sha3 aes unc salt iv s pw pw' key key' u d HC HS HA BI BS BB HI HK HK' HL HL' HU HN E. destruct (encrypt_spec kdf keccak sha3 aes unc salt iv s pw key u HK HL HI HU HS) as (id & L & BID & KA & E').
  assert (BC : bytes_ok (xor_from (aes (firstn 16 key) iv) 0 s)) by (apply xor_from_bytes; auto). set (ct := xor_from (aes (firstn 16 key) iv) 0 s) in *. rewrite E' in E. assert (Ed : d = mkKs (Address_String (0 :: id)) (str "icx") (str "aes-128-ctr") (JStr (hex_encode iv)) (JStr (hex_encode ct)) (str "scrypt") 32 65536 8 1 (JStr (hex_encode salt)) (JStr (hex_encode (keccak (firstn 16 (skipn 16 key) ++ ct))))) by congruence. subst d.
  unfold DecryptICONKeyStore. cbn [k_coin k_text k_mac k_address k_cipher k_iv k_kdf k_salt k_n k_r k_p k_dklen]. unfold RawHexBytes_UnmarshalJSON. rewrite !hex_decode_encode by (try assumption; apply HC). cbn [rbind].
  assert (VA : valid_address (0 :: id)) by (exists 0, id; auto). rewrite (C06_text_roundtrip (0 :: id) zeroAddress VA zero_addr_len). cbn [rbind]. rewrite !bytes_eqb_refl. cbn [negb raw]. rewrite HK'. rewrite (slice_ok key' 16 32), (slice_ok key' 0 16) by lia. cbn [rbind].
  change (32 - 16)%nat with 16%nat. destruct (bytes_eqb (keccak (firstn 16 (skipn 16 key') ++ ct)) (keccak (firstn 16 (skipn 16 key) ++ ct))) eqn:EM; [|left; reflexivity].
  right. exists ct. split; [intros X; apply HN; apply app_inv_tail in X; exact X|]. apply bytes_eqb_eq in EM. congruence.
Qed.
Print Assumptions C43_wrong_password.

(** A changed cipher text is not accepted under any password with the same MAC key, or the hash collides. *)
Theorem C43_tampered : forall kdf keccak sha3 aes unc d pw s t' s', bytes_ok t' ->
  DecryptICONKeyStore kdf keccak sha3 aes unc d pw = Ok s ->
  RawHexBytes_UnmarshalJSON (k_text d) <> Ok (Some t') -> (t' <> [] \/ k_text d <> JNull) ->
  DecryptICONKeyStore kdf keccak sha3 aes unc (mkKs (k_address d) (k_coin d) (k_cipher d) (k_iv d) (JStr (hex_encode t')) (k_kdf d) (k_dklen d) (k_n d) (k_r d) (k_p d) (k_salt d) (k_mac d)) pw = Ok s' ->
  exists m t, collision keccak (m ++ t) (m ++ t').
Proof.
  intros kdf keccak sha3 aes unc d pw s t' s' BT E HN HZ E'. apply C43_accepted in E. apply C43_accepted in E'. cbn [k_text k_mac k_salt k_n k_r k_p k_dklen k_address] in E'.
  destruct E as (ct & mac & salt & key & a & A1 & A2 & A3 & A4 & A5 & _). destruct E' as (ct' & mac' & salt' & key' & a' & B1 & B2 & B3 & B4 & B5 & _). unfold RawHexBytes_UnmarshalJSON in B1. rewrite hex_decode_encode in B1 by assumption.
  assert (ct' = Some t') by congruence. assert (mac' = mac) by congruence. assert (salt' = salt) by congruence. subst. assert (key' = key) by congruence. subst. cbn [raw] in B5.
  exists (firstn 16 (skipn 16 key)), (raw ct). split; [|congruence]. intros X. apply app_inv_head in X. destruct ct as [c|]; cbn [raw] in X; [subst; congruence|].
  destruct HZ as [HZ|HZ]; [congruence|]. unfold RawHexBytes_UnmarshalJSON in A1. destruct (k_text d); [congruence|]. destruct (hex_decode s0); congruence.
Qed.
Print Assumptions C43_tampered.

(** Finding: an initialization vector of the wrong length crashes instead of giving an error. *)
Theorem C43_bad_iv_refuted : forall kdf keccak sha3 aes unc d pw s iv', DecryptICONKeyStore kdf keccak sha3 aes unc d pw = Ok s -> bytes_ok iv' -> length iv' <> 16%nat ->
  DecryptICONKeyStore kdf keccak sha3 aes unc (mkKs (k_address d) (k_coin d) (k_cipher d) (JStr (hex_encode iv')) (k_text d) (k_kdf d) (k_dklen d) (k_n d) (k_r d) (k_p d) (k_salt d) (k_mac d)) pw = Panic.
Proof.
  intros kdf keccak sha3 aes unc d pw s iv' E BI HL. unfold DecryptICONKeyStore in *. cbn [k_coin k_text k_mac k_address k_cipher k_iv k_kdf k_salt k_n k_r k_p k_dklen]. destruct (RawHexBytes_UnmarshalJSON (k_text d)) as [ct| |]; cbn [rbind] in *; try discriminate. destruct (RawHexBytes_UnmarshalJSON (k_mac d)) as [mac| |]; cbn [rbind] in *; try discriminate.
  destruct (Address_SetString zeroAddress (k_address d)) as [a| |]; cbn [rbind] in *; try discriminate. destruct (negb (bytes_eqb (k_cipher d) _)); [discriminate|]. unfold RawHexBytes_UnmarshalJSON at 1. rewrite hex_decode_encode by assumption. cbn [rbind raw].
  destruct (RawHexBytes_UnmarshalJSON (k_iv d)) as [iv| |]; cbn [rbind] in *; try discriminate. destruct (negb (bytes_eqb (k_kdf d) _)); [discriminate|]. destruct (RawHexBytes_UnmarshalJSON (k_salt d)) as [salt| |]; cbn [rbind] in *; try discriminate. destruct (kdf pw (raw salt) (k_n d) (k_r d) (k_p d) (k_dklen d)) as [key|] eqn:EK; [|discriminate].
  unfold slice in *. destruct (length key <? 32)%nat; cbn [rbind] in *; [discriminate|]. destruct (bytes_eqb (keccak _) (raw mac)) eqn:EM; cbn [negb] in *; [|discriminate]. destruct (length key <? 16)%nat; cbn [rbind] in *; [discriminate|].
  unfold ctr. replace (length iv' =? 16)%nat with false by lia. reflexivity.
Qed.
Print Assumptions C43_bad_iv_refuted.

(** Finding: storing an EVM wallet reports success and stores nothing. *)
Theorem C43_evm_wallet_not_stored_refuted : forall kdf keccak sha3 aes unc salt iv pk pw, KeyStoreFromWallet kdf keccak sha3 aes unc salt iv (WEvm pk) pw = Ok None.
Proof. reflexivity. Qed.
Print Assumptions C43_evm_wallet_not_stored_refuted.

(** A toy instance: the parameters' assumptions can be met. *)
Definition toy_kdf (pw salt : list Z) (_ _ _ _ : Z) : option (list Z) := Some (map (fun i => (fold_left Z.add pw 0 * Z.of_nat (S i)) mod 256) (seq 0 32)).
Definition toy_hash (x : list Z) : list Z := map (fun i => (fold_left (fun a b => a * 31 + b) x 7 + Z.of_nat i) mod 256) (seq 0 32).
Definition toy_aes (k iv : list Z) (i : nat) : Z := (nth 0 k 0 + nth 0 iv 0 + Z.of_nat i) mod 256.
Example C43_ex_toy : gives_bytes toy_hash 20 /\ (forall k i j, is_byte (toy_aes k i j)) /\
  match EncryptKeyAsKeyStore toy_kdf toy_hash toy_hash toy_aes (fun s => Some (4 :: s ++ s)) (repeat 1 8) (repeat 2 16) (repeat 9 32) [5; 6] with
  | Ok d => DecryptICONKeyStore toy_kdf toy_hash toy_hash toy_aes (fun s => Some (4 :: s ++ s)) d [5; 6] = Ok (repeat 9 32) /\
            DecryptICONKeyStore toy_kdf toy_hash toy_hash toy_aes (fun s => Some (4 :: s ++ s)) d [5; 7] = Err 14
  | _ => False
  end.
Proof.
  split; [|split].
  - intros x. split; [|unfold toy_hash; rewrite map_length, seq_length; lia]. unfold toy_hash. apply Forall_forall. intros y Hy. apply in_map_iff in Hy. destruct Hy as (i & <- & _). apply Z.mod_pos_bound. lia.
  - intros k i j. apply Z.mod_pos_bound. lia.
  - vm_compute. auto.
Qed.

(** * C44 *)
Lemma go_copy_app : forall a b c, length b = length c -> go_copy (a ++ b) (length a) c = a ++ c.
Proof.
  intros a b c H. unfold go_copy. rewrite app_length. replace (length a + length b - length a)%nat with (length b) by lia. rewrite <- H, Nat.min_id. rewrite firstn_app, Nat.sub_diag, firstn_O, app_nil_r, firstn_all. f_equal. rewrite H at 1. rewrite firstn_all. rewrite skipn_all2 by (rewrite app_length; lia). apply app_nil_r.
Qed.
Lemma salt_split : forall (salt rest : list Z), length salt = 4%nat -> firstn 4 (salt ++ rest) = salt /\ skipn 4 (salt ++ rest) = rest.
Proof. intros [|a [|b [|c [|d [|e salt]]]]] rest H; try discriminate. split; reflexivity. Qed.
Lemma stream_spec : forall ecdh hkdf k salt pk, length salt = 4%nat -> length pk = 33%nat -> gives_bytes (fun x => hkdf x salt) 32 ->
  Aes128CTRStream ecdh hkdf (WIcon k) (salt ++ pk) = Ok (firstn 16 (hkdf (ecdh pk k) salt), firstn 16 (skipn 16 (hkdf (ecdh pk k) salt))).
Proof.
  intros ecdh hkdf k salt pk HS HP HH. unfold Aes128CTRStream. rewrite app_length, HS, HP. change (4 + 33 <? 4)%nat with false. destruct (salt_split salt pk HS) as [-> ->]. cbn [w_ECDH]. unfold ParsePublicKey. rewrite HP. cbn [Nat.eqb rbind].
  destruct (HH (ecdh pk k)) as [_ H32]. cbn beta in H32. rewrite (slice_ok _ 0 16), (slice_ok _ 16 32) by lia. reflexivity.
Qed.

(** What is encrypted to a compressed public key is decrypted by its owner, when key agreement is symmetric. *)
Theorem C44_roundtrip : forall ecdh pub hkdf aes a b salt data, length salt = 4%nat -> (forall k, length (pub k) = 33%nat) -> (forall x s, bytes_ok (hkdf x s) /\ (32 <= length (hkdf x s))%nat) ->
  ecdh (pub b) a = ecdh (pub a) b ->
  exists e, NewEncrypted ecdh pub hkdf aes (WIcon a) salt (pub b) data = Ok e /\ enc_Decrypt ecdh hkdf aes e (WIcon b) = Ok data /\ en_param e = salt ++ pub a /\ length (en_text e) = length data.
Proof.
  intros ecdh pub hkdf aes a b salt data HS HP HH HE. assert (GB : gives_bytes (fun x => hkdf x salt) 32) by (intros x; apply HH). unfold NewEncrypted. rewrite stream_spec by auto. cbn [rbind fst snd w_PublicKey].
  destruct (HH (ecdh (pub b) a) salt) as [_ H32]. assert (I16 : length (firstn 16 (skipn 16 (hkdf (ecdh (pub b) a) salt))) = 16%nat) by (rewrite firstn_length, skipn_length; lia). unfold ctr. rewrite I16. cbn [Nat.eqb negb rbind].
  eexists. split; [reflexivity|]. assert (GC : go_copy (salt ++ pub b) 4 (pub a) = salt ++ pub a) by (pose proof (go_copy_app salt (pub b) (pub a)) as X; rewrite HS, !HP in X; apply X; reflexivity). rewrite GC. cbn [en_param en_text]. split; [|split; [reflexivity|apply xor_from_length]].
  unfold enc_Decrypt. cbn [en_param en_text]. rewrite stream_spec by auto. rewrite <- HE. cbn [rbind fst snd]. unfold ctr. rewrite I16. cbn [Nat.eqb negb]. rewrite xor_from_twice. reflexivity.
Qed.
Print Assumptions C44_roundtrip.

(** Finding: given the recipient's uncompressed key, the parameter written is neither key: the recipient agrees with the
    point that has the sender's x and the parity of the recipient's own y. *)
Theorem C44_uncompressed_recipient_refuted : forall ecdh pub hkdf aes a b salt data f xb yb pa xa, length salt = 4%nat -> length xb = 32%nat -> length yb = 32%nat -> length xa = 32%nat -> pub a = pa :: xa ->
  (forall x s, bytes_ok (hkdf x s) /\ (32 <= length (hkdf x s))%nat) ->
  exists e, NewEncrypted ecdh pub hkdf aes (WIcon a) salt (f :: xb ++ yb) data = Ok e /\
    w_ECDH ecdh (WIcon b) (skipn 4 (en_param e)) = Ok (ecdh ((if Z.odd (be_val yb) then 3 else 2) :: xa) b).
Proof.
  intros ecdh pub hkdf aes a b salt data f xb yb pa xa HS HX HY HA HP HH. unfold NewEncrypted, Aes128CTRStream.
  assert (LP : length (f :: xb ++ yb) = 65%nat) by (cbn [length]; rewrite app_length; lia). rewrite app_length, HS, LP. change (4 + 65 <? 4)%nat with false. destruct (salt_split salt (f :: xb ++ yb) HS) as [-> ->]. cbn [w_ECDH]. unfold ParsePublicKey at 1. rewrite LP. cbn [Nat.eqb rbind].
  set (kk := hkdf _ _). assert (H32 : (32 <= length kk)%nat) by (apply HH). rewrite (slice_ok kk 0 16), (slice_ok kk 16 32) by lia. cbn [rbind fst snd]. unfold ctr. replace (length (firstn (32 - 16) (skipn 16 kk)) =? 16)%nat with true by (symmetry; apply Nat.eqb_eq; rewrite firstn_length, skipn_length; lia). cbn [negb rbind].
  eexists. split; [reflexivity|]. cbn [en_param w_PublicKey]. rewrite HP.
  assert (GC : go_copy (salt ++ f :: xb ++ yb) 4 (pa :: xa) = salt ++ pa :: xa ++ yb).
  { unfold go_copy. rewrite app_length, HS, LP. cbn [length]. rewrite HA. change (Nat.min (4 + 65 - 4) 33) with 33%nat. destruct (salt_split salt (f :: xb ++ yb) HS) as [-> _]. f_equal. rewrite (firstn_all2 (pa :: xa)) by (cbn [length]; lia). cbn [app]. f_equal. f_equal.
    rewrite skipn_app, skipn_all2, HS by lia. change (4 + 33 - 4)%nat with 33%nat. change (skipn 33 (f :: xb ++ yb)) with (skipn 32 (xb ++ yb)). rewrite skipn_app, HX, skipn_all2 by lia. reflexivity. }
  rewrite GC. destruct (salt_split salt (pa :: xa ++ yb) HS) as [_ ->]. cbn [w_ECDH].
  assert (PP : ParsePublicKey (pa :: xa ++ yb) = Ok ((if Z.odd (be_val yb) then 3 else 2) :: xa)).
  { unfold ParsePublicKey. cbn [length]. rewrite app_length, HA, HY. change (S (32 + 32)) with 65%nat. unfold uncompToComp. cbn [skipn]. rewrite firstn_app, HA, Nat.sub_diag, firstn_O, app_nil_r, firstn_all2 by lia.
    change 64%nat with (S 63). cbn [nth]. rewrite app_nth2 by lia. rewrite HA. change (63 - 32)%nat with 31%nat. destruct (exists_last (l := yb)) as (y0 & z & ->); [destruct yb; [discriminate|congruence]|].
    rewrite app_length in HY. cbn [length] in HY. rewrite app_nth2 by lia. replace (31 - length y0)%nat with O by lia. cbn [nth]. rewrite be_val_snoc. rewrite Z.odd_add, Z.odd_mul. change (Z.odd 256) with false. rewrite andb_false_r, xorb_false_l. reflexivity. }
  rewrite PP. reflexivity.
Qed.
Print Assumptions C44_uncompressed_recipient_refuted.

(** Finding: an EVM wallet's key agreement returns nothing, so what it encrypts any EVM wallet decrypts. *)
Theorem C44_evm_not_secret_refuted : forall ecdh pub hkdf aes p q salt pk data, length salt = 4%nat -> (forall x s, bytes_ok (hkdf x s) /\ (32 <= length (hkdf x s))%nat) ->
  exists e, NewEncrypted ecdh pub hkdf aes (WEvm p) salt pk data = Ok e /\ enc_Decrypt ecdh hkdf aes e (WEvm q) = Ok data.
Proof.
  intros ecdh pub hkdf aes p q salt pk data HS HH. destruct (HH [] salt) as [_ H32].
  assert (ST : forall w rest, Aes128CTRStream ecdh hkdf (WEvm w) (salt ++ rest) = Ok (firstn 16 (hkdf [] salt), firstn 16 (skipn 16 (hkdf [] salt)))).
  { intros w rest. unfold Aes128CTRStream. rewrite app_length, HS. replace (4 + length rest <? 4)%nat with false by lia. cbn [w_ECDH rbind]. destruct (salt_split salt rest HS) as [-> _]. rewrite (slice_ok _ 0 16), (slice_ok _ 16 32) by lia. reflexivity. }
  assert (I16 : length (firstn 16 (skipn 16 (hkdf [] salt))) = 16%nat) by (rewrite firstn_length, skipn_length; lia).
  unfold NewEncrypted. rewrite ST. cbn [rbind fst snd]. unfold ctr. rewrite I16. cbn [Nat.eqb negb rbind]. eexists. split; [reflexivity|]. unfold enc_Decrypt. cbn [en_param en_text].
  assert (GC : exists rest, go_copy (salt ++ pk) 4 (w_PublicKey pub (WEvm p)) = salt ++ rest) by (unfold go_copy; destruct (salt_split salt pk HS) as [-> _]; eauto).
  destruct GC as [rest ->]. rewrite ST. cbn [rbind fst snd]. unfold ctr. rewrite I16. cbn [Nat.eqb negb]. rewrite xor_from_twice. reflexivity.
Qed.
Print Assumptions C44_evm_not_secret_refuted.

(** Finding: Encrypt uses the same key stream each time, so two cipher texts give away the exclusive or of the plain texts. *)
Theorem C44_stream_reuse_refuted : forall ecdh hkdf aes e w x y ex ey, length x = length (en_text e) -> length y = length (en_text e) ->
  enc_Encrypt ecdh hkdf aes e w x = Ok ex -> enc_Encrypt ecdh hkdf aes e w y = Ok ey -> xor_bytes (en_text ex) (en_text ey) = xor_bytes x y.
Proof.
  intros ecdh hkdf aes e w x y ex ey HX HY EX EY. unfold enc_Encrypt in *. destruct (Aes128CTRStream ecdh hkdf w (en_param e)) as [s| |]; cbn [rbind] in *; try discriminate.
  replace (length (en_text e) <? length x)%nat with false in EX by lia. replace (length (en_text e) <? length y)%nat with false in EY by lia. unfold ctr in *. destruct (negb _); cbn [rbind] in *; [discriminate|].
  rewrite skipn_all2, app_nil_r in EX by lia. rewrite skipn_all2, app_nil_r in EY by lia. assert (E1 : ex = mkEnc (en_param e) (xor_from (aes (fst s) (snd s)) 0 x)) by congruence. assert (E2 : ey = mkEnc (en_param e) (xor_from (aes (fst s) (snd s)) 0 y)) by congruence. subst. cbn [en_text].
  rewrite <- HX in HY. clear - HY. generalize 0%nat as i. revert y HY. induction x as [|a x IH]; intros [|b y] HY i; try discriminate; [reflexivity|]. unfold xor_bytes in *. cbn [xor_from combine map fst snd]. rewrite IH by (cbn [length] in HY; lia). f_equal.
  rewrite (Z.lxor_comm b), Z.lxor_assoc. rewrite <- (Z.lxor_assoc (aes (fst s) (snd s) i)). rewrite Z.lxor_nilpotent, Z.lxor_0_l. reflexivity.
Qed.
Print Assumptions C44_stream_reuse_refuted.

(** A toy key agreement: exponents of 3 modulo 257, symmetric. *)
Definition toy_pub (k : list Z) : list Z := 2 :: repeat 0 31 ++ [3 ^ (nth 0 k 0) mod 257].
Definition toy_ecdh (p k : list Z) : list Z := [(nth 32 p 0) ^ (nth 0 k 0) mod 257].
Example C44_ex : match NewEncrypted toy_ecdh toy_pub (fun x s => toy_hash (x ++ s)) toy_aes (WIcon [5]) [1; 2; 3; 4] (toy_pub [9]) (str "hello") with
  | Ok e => bytes_eqb (en_text e) (str "hello") = false /\ enc_Decrypt toy_ecdh (fun x s => toy_hash (x ++ s)) toy_aes e (WIcon [9]) = Ok (str "hello") /\ toy_ecdh (toy_pub [9]) [5] = toy_ecdh (toy_pub [5]) [9]
  | _ => False
  end.
Proof. vm_compute. auto. Qed.
