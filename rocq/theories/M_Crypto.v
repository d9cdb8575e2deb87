(** Model of common/crypto/signature.go, common/crypto/key.go, common/wallet/encrypted.go and common/wallet/keystore.go.
    The curve operations, hashes, key derivation and the AES-CTR key stream are parameters.  Slices are values: the code
    sometimes keeps the caller's slice, so later writes by the caller are not modelled. *)
From Coq Require Import String Ascii ZArith List Bool.
From Verif Require Import Base GoStr M_Address.
Import ListNotations.
Open Scope Z_scope.

(** l[a:b], where [l] is the whole backing array *)
Definition slice (l : list Z) (a b : nat) : result (list Z) := if (length l <? b)%nat then Panic else Ok (firstn (b - a) (skipn a l)).

(** * signature.go *)
(** signature.go 22-25 *)
Record sig := mkSig { sg_bytes : list Z; sg_hasV : bool }.
(** signature.go 45-61 *)
Definition ParseSignature (s : list Z) : result sig :=
  if (length s =? 0)%nat then Err 1
  else if (length s =? 65)%nat then Ok (mkSig s true)
  else if (length s =? 64)%nat then Ok (mkSig (s ++ [0]) false)
  else Err 2.
(** signature.go 66-76: bytes has 64 elements when element 64 is assigned *)
Definition ParseSignatureVRS (s : list Z) : result sig :=
  if negb (length s =? 65)%nat then Err 2
  else rbind (slice s 1 33) (fun r => rbind (slice s 33 65) (fun t =>
       let b := r ++ t in
       if (length b <=? 64)%nat then Panic else Ok (mkSig (firstn 64 b ++ [nth 0 s 0]) false))).
(** signature.go 86-91 *)
Definition SerializeRS (g : sig) : result (list Z) := if (length (sg_bytes g) <? 64)%nat then Err 3 else Ok (firstn 64 (sg_bytes g)).
(** signature.go 98-108 *)
Definition SerializeVRS (g : sig) : result (list Z) :=
  if negb (sg_hasV g) then Err 4
  else if (length (sg_bytes g) <=? 64)%nat then Panic
  else Ok (nth 64 (sg_bytes g) 0 :: firstn 32 (sg_bytes g) ++ firstn 32 (skipn 32 (sg_bytes g))).
(** signature.go 115-121 *)
Definition SerializeRSV (g : sig) : result (list Z) := if negb (sg_hasV g) then Err 4 else Ok (sg_bytes g).

(** * key.go *)
(** key.go 86-98; byte 64 is the last byte of y *)
Definition uncompToComp (u : list Z) : list Z := (if Z.odd (nth 64 u 0) then 3 else 2) :: firstn 32 (skipn 1 u).
(** key.go 71-82; a public key is its 33 compressed bytes *)
Definition ParsePublicKey (k : list Z) : result (list Z) :=
  if (length k =? 0)%nat then Err 5
  else if (length k =? 33)%nat then Ok k
  else if (length k =? 65)%nat then Ok (uncompToComp k)
  else Err 6.
(** key.go 134-141 *)
Definition ParsePrivateKey (k : list Z) : result (list Z) := if negb (length k =? 32)%nat then Err 7 else Ok k.
(** signature.go 30-38; [sign] is secp256k1.Sign *)
Definition NewSignature (sign : list Z -> list Z -> list Z) (hash : list Z) (key : option (list Z)) : result sig :=
  match key with
  | None => Err 8
  | Some k => if (length hash =? 0)%nat || (32 <? length hash)%nat then Err 8 else ParseSignature (sign hash k)
  end.
(** signature.go 124-136; [recover] is secp256k1.RecoverPubkey *)
Definition RecoverPublicKey (recover : list Z -> list Z -> list Z) (g : sig) (hash : list Z) : result (list Z) :=
  if negb (sg_hasV g) then Err 4
  else if (length hash =? 0)%nat || (32 <? length hash)%nat then Err 9
  else rbind (SerializeRSV g) (fun s => ParsePublicKey (recover hash s)).
(** signature.go 139-149; [verify] is secp256k1.VerifySignature *)
Definition Verify (verify : list Z -> list Z -> list Z -> bool) (g : sig) (msg : list Z) (key : option (list Z)) : bool :=
  match key with
  | None => false
  | Some k => if (length msg =? 0)%nat || (32 <? length msg)%nat then false
              else match SerializeRSV g with Ok s => verify msg s k | _ => false end
  end.

(** * AES-CTR: [ks key iv i] is byte i of the key stream *)
Fixpoint xor_from (ks : nat -> Z) (i : nat) (b : list Z) : list Z :=
  match b with [] => [] | x :: r => Z.lxor x (ks i) :: xor_from ks (S i) r end.
(** cipher.NewCTR panics when the IV is not one block long *)
Definition ctr (aes : list Z -> list Z -> nat -> Z) (key iv b : list Z) : result (list Z) :=
  if negb (length iv =? 16)%nat then Panic else Ok (xor_from (aes key iv) 0 b).

(** * encrypted.go *)
(** wallet.go 9-14, 35-43; wallet_evm.go 26-33: what Encrypted uses of a wallet *)
Inductive wallet := WIcon (skey : list Z) | WEvm (pkey : list Z).
Section ENC.
Variable ecdh : list Z -> list Z -> list Z. (* secp256k1.ECDH(public, private) *)
Variable pub : list Z -> list Z.            (* compressed public key of a private key *)
Variable hkdf : list Z -> list Z -> list Z. (* 32 bytes from secret and salt *)
Variable aes : list Z -> list Z -> nat -> Z.

Definition w_PublicKey (w : wallet) : list Z := match w with WIcon k => pub k | WEvm p => p end.
Definition w_ECDH (w : wallet) (pk : list Z) : result (list Z) :=
  match w with WIcon k => rbind (ParsePublicKey pk) (fun p => Ok (ecdh p k)) | WEvm _ => Ok [] end.
(** encrypted.go 20-23 *)
Record enc := mkEnc { en_param : list Z; en_text : list Z }.
(** encrypted.go 25-44: key and IV of the stream *)
Definition Aes128CTRStream (w : wallet) (param : list Z) : result (list Z * list Z) :=
  if (length param <? 4)%nat then Err 10
  else rbind (w_ECDH w (skipn 4 param)) (fun secret =>
       let key := hkdf secret (firstn 4 param) in
       rbind (slice key 0 16) (fun k => rbind (slice key 16 32) (fun iv => Ok (k, iv)))).
(** encrypted.go 46-54 *)
Definition enc_Decrypt (e : enc) (w : wallet) : result (list Z) :=
  rbind (Aes128CTRStream w (en_param e)) (fun s => ctr aes (fst s) (snd s) (en_text e)).
(** encrypted.go 56-63: XORKeyStream panics when the destination is shorter, and leaves a longer one's tail *)
Definition enc_Encrypt (e : enc) (w : wallet) (b : list Z) : result enc :=
  rbind (Aes128CTRStream w (en_param e)) (fun s =>
  if (length (en_text e) <? length b)%nat then Panic
  else rbind (ctr aes (fst s) (snd s) b) (fun c => Ok (mkEnc (en_param e) (c ++ skipn (length b) (en_text e))))).
(** encrypted.go 65-82; [salt] is what the random source gives *)
Definition NewEncrypted (w : wallet) (salt pubKey b : list Z) : result enc :=
  rbind (Aes128CTRStream w (salt ++ pubKey)) (fun s =>
  rbind (ctr aes (fst s) (snd s) b) (fun c => Ok (mkEnc (go_copy (salt ++ pubKey) 4 (w_PublicKey w)) c))).
End ENC.

(** * keystore.go *)
(** keystore.go 28-72: the JSON document.  Framing of objects and numbers is encoding/json's; byte fields and the address are texts. *)
Record ksdoc := mkKs { k_address : list Z; k_coin : list Z; k_cipher : list Z; k_iv : json_str; k_text : json_str;
  k_kdf : list Z; k_dklen : Z; k_n : Z; k_r : Z; k_p : Z; k_salt : json_str; k_mac : json_str }.
(** common/hexbytes.go 37-42 *)
Definition raw (o : option (list Z)) : list Z := match o with Some b => b | None => [] end.

Section KS.
Variable kdf : list Z -> list Z -> Z -> Z -> Z -> Z -> option (list Z). (* scrypt.Key(pw, salt, n, r, p, dklen): the backing array *)
Variable keccak : list Z -> list Z.
Variable sha3 : list Z -> list Z.
Variable aes : list Z -> list Z -> nat -> Z.
Variable uncompressed : list Z -> option (list Z). (* uncompressed public key of a private key *)

Definition key_address (s : list Z) : result (list Z) := NewAccountAddressFromPublicKey sha3 (uncompressed s).
(** keystore.go 82-133; [salt] (8 bytes) and [iv] (16 bytes) are what the random source gives *)
Definition EncryptKeyAsKeyStore (salt iv s pw : list Z) : result ksdoc :=
  match kdf pw salt 65536 8 1 32 with
  | None => Err 11
  | Some key =>
      rbind (slice key 0 16) (fun ek => rbind (ctr aes ek iv s) (fun ct => rbind (slice key 16 32) (fun mk =>
      rbind (key_address s) (fun a => rbind (Address_SetBytes zeroAddress (Some a)) (fun a =>
      Ok (mkKs (Address_String a) (str "icx") (str "aes-128-ctr") (RawHexBytes_MarshalJSON (Some iv)) (RawHexBytes_MarshalJSON (Some ct))
               (str "scrypt") 32 65536 8 1 (RawHexBytes_MarshalJSON (Some salt)) (RawHexBytes_MarshalJSON (Some (keccak (mk ++ ct))))))))))
  end.
(** keystore.go 179-233 with the decoding of 147, 235-242 *)
Definition DecryptICONKeyStore (d : ksdoc) (pw : list Z) : result (list Z) :=
  rbind (RawHexBytes_UnmarshalJSON (k_text d)) (fun ct => rbind (RawHexBytes_UnmarshalJSON (k_mac d)) (fun mac =>
  rbind (Address_SetString zeroAddress (k_address d)) (fun a =>
  if negb (bytes_eqb (k_cipher d) (str "aes-128-ctr")) then Err 12
  else rbind (RawHexBytes_UnmarshalJSON (k_iv d)) (fun iv =>
  if negb (bytes_eqb (k_kdf d) (str "scrypt")) then Err 13
  else rbind (RawHexBytes_UnmarshalJSON (k_salt d)) (fun salt =>
  match kdf pw (raw salt) (k_n d) (k_r d) (k_p d) (k_dklen d) with
  | None => Err 11
  | Some key =>
      rbind (slice key 16 32) (fun mk =>
      if negb (bytes_eqb (keccak (mk ++ raw ct)) (raw mac)) then Err 14
      else rbind (slice key 0 16) (fun ek => rbind (ctr aes ek (raw iv) (raw ct)) (fun sb =>
      rbind (ParsePrivateKey sb) (fun s => rbind (key_address s) (fun b =>
      if Address_Equal (Some b) (Some a) then Ok s else Err 15)))))
  end))))).
(** keystore.go 146-168: which decoder is used; [evm] is go-ethereum's keystore.DecryptKey *)
Definition DecryptKeyStore (evm : ksdoc -> list Z -> result (list Z)) (d : ksdoc) (pw : list Z) : result (bool * list Z) :=
  if bytes_eqb (k_coin d) (str "icx") then rbind (DecryptICONKeyStore d pw) (fun s => Ok (false, s))
  else if bytes_eqb (k_coin d) (str "evm") || bytes_eqb (k_coin d) [] then rbind (evm d pw) (fun s => Ok (true, s))
  else Err 16.
(** keystore.go 170-177: None is nil bytes *)
Definition KeyStoreFromWallet (salt iv : list Z) (w : wallet) (pw : list Z) : result (option ksdoc) :=
  match w with WIcon s => rbind (EncryptKeyAsKeyStore salt iv s pw) (fun d => Ok (Some d)) | WEvm _ => Ok None end.
End KS.
