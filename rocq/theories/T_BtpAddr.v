(** Theorems about BTP addresses in the contracts (C61). *)
From Coq Require Import String Ascii ZArith List Bool Lia.
From Coq Require Import ZifyBool.
From Verif Require Import Base L_Base GoStr M_IntConv S_IntConv M_Address S_Address L_Address M_SolRlp M_BtpAddr S_BtpAddr L_BtpAddr.
Import ListNotations.
Open Scope Z_scope.

(** The Solidity parser accepts exactly btp://NET/ACCOUNT with a non-empty network without slash and a non-empty
    account, and gives these two back. *)
Theorem C61_solidity_accepts_exactly : forall s n a, parseBTPAddress s = Some (n, a) <->
  s = address_text (str "btp") n a /\ n <> [] /\ a <> [] /\ free_of (ch "/") n.
Proof.
  intros s n a. split.
  - intros E. destruct (s_validate s) as [k|] eqn:V; [|unfold parseBTPAddress in E; rewrite V in E; discriminate].
    apply validate_inv in V as (n' & a' & -> & N & A & F & _). rewrite (proj1 (parse_text n' a' N A F)) in E. injection E as <- <-. repeat split; assumption.
  - intros (-> & N & A & F). exact (proj1 (parse_text n a N A F)).
Qed.
Print Assumptions C61_solidity_accepts_exactly.

(** The network alone is that of the same addresses. *)
Theorem C61_network_of_same_addresses : forall s n, networkAddress s = Some n <-> exists a, parseBTPAddress s = Some (n, a).
Proof.
  intros s n. split.
  - intros E. destruct (s_validate s) as [k|] eqn:V; [|unfold networkAddress in E; rewrite V in E; discriminate].
    apply validate_inv in V as (n' & a' & -> & N & A & F & _). destruct (parse_text n' a' N A F) as [P1 P2]. rewrite P2 in E. injection E as <-. exists a'. exact P1.
  - intros (a & E). apply C61_solidity_accepts_exactly in E as (-> & N & A & F). exact (proj2 (parse_text n a N A F)).
Qed.
Print Assumptions C61_network_of_same_addresses.

(** The Java parser accepts exactly PROTOCOL://NET/ACCOUNT with three non-empty parts, the protocol without "://" and the
    network without slash, and gives these back. *)
Theorem C61_java_accepts_exactly : forall s p n a, j_valueOf s = Some (JAddr p n a) <->
  s = address_text p n a /\ p <> [] /\ n <> [] /\ a <> [] /\ ~ contains p (str "://") /\ free_of (ch "/") n.
Proof.
  intros s p n a. split.
  - intros E. apply j_valueOf_text in E as (E & P & F & V1 & V2 & V3). cbn [ja_protocol ja_net ja_account] in *. repeat split; assumption.
  - intros (-> & V1 & V2 & V3 & P & F). unfold j_valueOf. rewrite j_parse_text by assumption. unfold j_isValid. cbn [ja_protocol ja_net ja_account].
    destruct p; [congruence|]. destruct n; [congruence|]. destruct a; [congruence|]. reflexivity.
Qed.
Print Assumptions C61_java_accepts_exactly.

(** Writing an address and reading it again (toString/parse, as in writeObject/readObject) changes nothing, even when parts
    are empty; so equal texts are equal addresses. *)
Theorem C61_java_roundtrip : forall p n a, ~ contains p (str "://") -> free_of (ch "/") n -> j_parse (j_toString (JAddr p n a)) = JAddr p n a.
Proof. intros p n a P F. apply (j_parse_text p n a P F). Qed.
Print Assumptions C61_java_roundtrip.
Theorem C61_java_equals : forall s t x y, j_valueOf s = Some x -> j_valueOf t = Some y -> (j_equals x y = true <-> x = y).
Proof.
  intros s t x y X Y. unfold j_equals. rewrite bytes_eqb_eq. split; [|intros ->; reflexivity]. intros E.
  apply j_valueOf_text in X as (_ & X1 & X2 & _). apply j_valueOf_text in Y as (_ & Y1 & Y2 & _). destruct x as [p n a]. destruct y as [p' n' a'].
  cbn [ja_protocol ja_net ja_account] in *. rewrite <- (C61_java_roundtrip p n a X1 X2), E. apply C61_java_roundtrip; assumption.
Qed.
Print Assumptions C61_java_equals.

Lemma btp_plain : ~ contains (str "btp") (str "://").
Proof.
  intros (x & y & E). apply (f_equal (@length Z)) in E as L. rewrite !app_length in L. cbn [str length] in L. destruct x, y; cbn [length] in L; try lia. discriminate E.
Qed.
(** What Solidity accepts, Java and the relay's Go code read as the same protocol and network; Java reads the same
    account, Go the account up to a slash in it. *)
Theorem C61_three_parsers_agree : forall s n a, parseBTPAddress s = Some (n, a) ->
  j_valueOf s = Some (JAddr (str "btp") n a) /\ Btp_Protocol s = str "btp" /\ Btp_NetworkAddress s = n /\
  (free_of (ch "/") a -> Btp_Account s = a).
Proof.
  intros s n a E. apply C61_solidity_accepts_exactly in E as (-> & N & A & F).
  split; [apply C61_java_accepts_exactly; repeat split; try assumption; [discriminate|apply btp_plain]|].
  assert (C : free_of (ch ":") (str "btp")) by (intros I; cbn in I; intuition discriminate).
  assert (D : free_of (ch "/") (str "btp")) by (intros I; cbn in I; intuition discriminate).
  destruct (split_first a (ch "/")) as [G|(a1 & a2 & -> & G)].
  - destruct (Btp_parts (str "btp") n a [] ltac:(discriminate) C D F G (or_introl eq_refl)) as (P1 & P2 & P3). rewrite app_nil_r in P1, P2, P3. auto.
  - assert (T : ends_at (ch "/") (ch "/" :: a2)) by (right; exists a2; reflexivity).
    destruct (Btp_parts (str "btp") n a1 (ch "/" :: a2) ltac:(discriminate) C D F G T) as (P1 & P2 & P3). split; [exact P1|]. split; [exact P2|].
    intros I. exfalso. apply I. apply in_or_app. right. left. reflexivity.
Qed.
Print Assumptions C61_three_parsers_agree.

(** Not so the other way round: Java takes addresses of any protocol, and Go drops what follows a slash in the account. *)
Theorem C61_other_protocols_refuted : exists s n a, j_valueOf s = Some (JAddr (str "xyz") n a) /\ parseBTPAddress s = None /\ Btp_NetworkAddress s = n.
Proof. exists (str "xyz://0x1.icon/cx00"), (str "0x1.icon"), (str "cx00"). vm_compute. repeat split. Qed.
Print Assumptions C61_other_protocols_refuted.
Theorem C61_account_with_slash_refuted : exists s n a, parseBTPAddress s = Some (n, a) /\ j_valueOf s = Some (JAddr (str "btp") n a) /\ Btp_Account s <> a.
Proof. exists (str "btp://0x1.icon/cx00/1"), (str "0x1.icon"), (str "cx00/1"). vm_compute. repeat split. discriminate. Qed.
Print Assumptions C61_account_with_slash_refuted.

(** Account addresses: exactly 0x and forty hexadecimal digits of either case are accepted, for the number they spell. *)
Theorem C61_account_accepts_exactly : forall s a, parseAddress s = Some a <-> account_text s a.
Proof. exact parseAddress_iff. Qed.
Print Assumptions C61_account_accepts_exactly.

(** The text a contract writes for an address is read back as that address, whatever the hash; so texts identify accounts. *)
Theorem C61_account_roundtrip : forall H a, 0 <= a < 2 ^ 160 -> parseAddress (toChecksumString H a) = Some a.
Proof.
  intros H a R. apply parseAddress_iff. exists (skipn 2 (toChecksumString H a)), (be_fixed 20 a). split; [reflexivity|].
  split; [apply checksum_pairs|]. split; [apply be_fixed_length|]. rewrite be_val_be_fixed. symmetry. apply Z.mod_small. exact R.
Qed.
Print Assumptions C61_account_roundtrip.

Lemma nth_pairs : forall (f : nat -> Z * Z) l i, (i < length l)%nat ->
  let s := concat (map (fun i => [fst (f i); snd (f i)]) l) in
  nth (2 * i) s 0 = fst (f (nth i l 0%nat)) /\ nth (2 * i + 1) s 0 = snd (f (nth i l 0%nat)).
Proof.
  intros f l. induction l as [|x l IH]; intros i L; [cbn [length] in L; lia|]. cbn [length] in L. destruct i as [|i]; [split; reflexivity|].
  destruct (IH i ltac:(lia)) as [I1 I2]. cbv zeta in *. cbn [map concat app].
  replace (2 * S i)%nat with (S (S (2 * i))) by lia. replace (S (S (2 * i)) + 1)%nat with (S (S (2 * i + 1))) by lia. cbn [nth]. auto.
Qed.
(** The case of a letter tells the hash's digit at its place (ERC-55): digit k of the address is written as a capital
    letter when it is 10 or more and digit k of the hash of the lower-case text is 8 or more. *)
Definition digit (bs : list Z) (k : nat) : Z := let b := nth (Nat.div2 k) bs 0 in if Nat.even k then b / 16 else b mod 16.
Definition letter (d : Z) (capital : bool) : Z := if d <? 10 then ch "0" + d else (if capital then ch "A" else ch "a") + (d - 10).
Theorem C61_checksum_case : forall H a k, (k < 40)%nat ->
  nth (2 + k) (toChecksumString H a) 0 = letter (digit (be_fixed 20 a) k) (7 <? digit (H (hex_encode (be_fixed 20 a))) k).
Proof.
  intros H a k K.
  assert (AS : toAsciiString a = hex_encode (be_fixed 20 a)).
  { unfold toAsciiString. rewrite be_fixed_map. change (Z.of_nat 20 - 1) with 19. generalize (seq 0 20). intros l. induction l as [|i l IH]; [reflexivity|].
    cbn [map concat hex_encode app]. set (b := (a / 2 ^ (8 * (19 - Z.of_nat i))) mod 256) in *. cbv zeta. rewrite IH. unfold hex_digit.
    destruct (b / 16 <? 10), (b mod 16 <? 10); reflexivity. }
  unfold toChecksumString. rewrite app_nth2 by (cbn [str length]; lia). replace (2 + k - length (str "0x"))%nat with k by (cbn [str length]; lia).
  set (f := fun i : nat => let b := (a / 2 ^ (8 * (19 - Z.of_nat i))) mod 256 in let (lc, rc) := caps_flags H a i in
                           (b / 16 + ascii_offset (b / 16) lc, b mod 16 + ascii_offset (b mod 16) rc)).
  match goal with |- nth k (concat (map ?g ?l)) 0 = _ => replace (map g l) with (map (fun i => [fst (f i); snd (f i)]) l) end.
  2:{ apply map_ext. intros i. unfold f. destruct (caps_flags H a i). reflexivity. }
  assert (D2 : (Nat.div2 k < 20)%nat) by (pose proof (Nat.div2_odd k); destruct (Nat.odd k); cbn [Nat.b2n] in *; lia).
  destruct (nth_pairs f (seq 0 20) (Nat.div2 k) ltac:(rewrite seq_length; exact D2)) as [N1 N2]. cbv zeta in N1, N2. rewrite seq_nth in N1, N2 by exact D2. cbn [Nat.add] in N1, N2.
  set (s0 := concat (map (fun i => [fst (f i); snd (f i)]) (seq 0 20))) in *. clearbody s0.
  assert (BF : nth (Nat.div2 k) (be_fixed 20 a) 0 = (a / 2 ^ (8 * (19 - Z.of_nat (Nat.div2 k)))) mod 256).
  { rewrite be_fixed_map. change (Z.of_nat 20 - 1) with 19.
    set (g := fun i : nat => (a / 2 ^ (8 * (19 - Z.of_nat i))) mod 256). rewrite (nth_indep _ 0 (g 0%nat)) by (rewrite map_length, seq_length; exact D2).
    rewrite map_nth, seq_nth by exact D2. reflexivity. }
  unfold digit. rewrite BF. unfold f in N1, N2. unfold caps_flags in N1, N2. rewrite BF in N1, N2. rewrite <- AS.
  set (b := (a / 2 ^ (8 * (19 - Z.of_nat (Nat.div2 k)))) mod 256) in *. set (h := nth (Nat.div2 k) (H (toAsciiString a)) 0) in *. cbn [fst snd] in N1, N2.
  change (ch "0") with 48. change (ch "A") with 65. change (ch "a") with 97.
  pose proof (Nat.div2_odd k) as DO. destruct (Nat.even k) eqn:EV; unfold Nat.odd in DO; rewrite EV in DO; cbn [negb Nat.b2n] in DO.
  - rewrite Nat.add_0_r in DO. rewrite DO at 1. rewrite N1. unfold ascii_offset, letter. change (ch "0") with 48. change (ch "A") with 65. change (ch "a") with 97.
    destruct (b / 16 <? 10) eqn:E; [lia|]. replace (9 <? b / 16) with true by lia. cbn [andb]. destruct (7 <? h / 16); lia.
  - rewrite DO at 1. rewrite N2. unfold ascii_offset, letter. change (ch "0") with 48. change (ch "A") with 65. change (ch "a") with 97.
    destruct (b mod 16 <? 10) eqn:E; [lia|]. replace (9 <? b mod 16) with true by lia. cbn [andb]. destruct (7 <? h mod 16); lia.
Qed.
Print Assumptions C61_checksum_case.

Example C61_ex_btp : parseBTPAddress (str "btp://0x1.icon/cx87ed") = Some (str "0x1.icon", str "cx87ed") /\
  parseBTPAddress (str "btp:///cx87ed") = None /\ parseBTPAddress (str "btp://0x1.icon/") = None /\ parseBTPAddress (str "btp://x") = None /\
  j_valueOf (str "btp://0x1.icon/cx87ed") = Some (JAddr (str "btp") (str "0x1.icon") (str "cx87ed")) /\ j_valueOf (str "0x1.icon/cx87ed") = None.
Proof. vm_compute. repeat split. Qed.
Example C61_ex_account : parseAddress (str "0x00000000000000000000000000000000000000fF") = Some 255 /\ parseAddress (str "0xfF") = None /\
  toChecksumString (fun _ => repeat 240 20) 171 = str "0x00000000000000000000000000000000000000Ab".
Proof. vm_compute. repeat split. Qed.
