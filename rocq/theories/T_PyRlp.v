(** C97: what the Python contracts read and write as RLP and base64. *)
From Coq Require Import String Ascii ZArith List Bool Lia.
From Coq Require Import ZifyBool.
From Verif Require Import Base L_Base M_IntConv S_IntConv L_IntConv M_Rlp S_Rlp L_Rlp T_Rlp L_Wire L_BtpAddr M_PyRlp S_PyRlp L_PyRlp.
Import ListNotations.
Open Scope Z_scope.

(** Every value has its item, and only one. *)
Fixpoint item_of (v : pyval) : rlp :=
  match v with
  | PNone => RNull | PBytes b => RBytes b | PInt n => RBytes (int_bytes n) | PStr s => RBytes s | PBool b => RBytes [if b then 1 else 0]
  | PList l => RList (map item_of l)
  end.
Lemma item_total : forall v, item v (item_of v).
Proof.
  fix IH 1. intros [|b|n|s|b|l]; cbn [item_of]; try constructor.
  - rewrite int_bytes_spec. apply BigIntToBytes_shortest.
  - induction l as [|v l IL]; cbn [map]; constructor; [apply IH|exact IL].
Qed.

(** What is written is the RLP of the value (the payloads below 65536 bytes). *)
Theorem C97_written_is_rlp : forall v, exists x, item v x /\ (rlp_ok x -> zlen (rlp_write x) <= 65538 -> rlp_encode v = rlp_write x /\ rlp_spec x (rlp_encode v)).
Proof.
  intros v. exists (item_of v). split; [apply item_total|]. intros Ok L. pose proof (proj1 encoded v _ (item_total v) L) as E. split; [exact E|]. rewrite E. apply C08_written_is_rlp; [exact Ok|lia].
Qed.
Print Assumptions C97_written_is_rlp.
Example C97_ex_written : rlp_encode (PList [PInt (-129); PStr (str "cat"); PNone; PBool true; PList [PBytes [128]]]) = [205; 130; 255; 127; 131; 99; 97; 116; 248; 0; 1; 194; 129; 128].
Proof. vm_compute. reflexivity. Qed.

(** Any bytes that are the RLP of an item are read as the value that the item has in the wanted type; if it has none there, they are refused. *)
Theorem C97_reads : forall utf8 t x s v, plain_ty t -> rlp_ok x -> zlen s < 2 ^ 63 -> s = rlp_write x -> rlp_decode utf8 s t = Some v <-> reads utf8 t x v.
Proof. intros utf8 t x s v P Ok L ->. apply rlp_decode_reads; assumption. Qed.
Print Assumptions C97_reads.

(** A value that the type can hold is read back from what was written. *)
Theorem C97_read_back : forall utf8 t v x, item v x -> reads utf8 t x v -> plain_ty t -> rlp_ok x -> zlen (rlp_write x) <= 65538 -> rlp_decode utf8 (rlp_encode v) t = Some v.
Proof. intros utf8 t v x I R P Ok L. rewrite (proj1 encoded v x I L). apply rlp_decode_reads; [assumption|assumption|lia|assumption]. Qed.
Print Assumptions C97_read_back.

(** A message that is cut short anywhere, or that goes on behind its end, is refused whatever the type. *)
Lemma no_part : forall utf8 s t, (forall p, decode_part s <> Some (p, [])) -> rlp_decode utf8 s t = None.
Proof.
  intros utf8 s t H. unfold rlp_decode. destruct (depth t) as [|f]; [reflexivity|]. cbn [decode]. destruct (decode_part s) as [[p [|r0 r]]|] eqn:E; try reflexivity. exfalso. exact (H p eq_refl).
Qed.
Theorem C97_cut_refused : forall utf8 t x k, rlp_ok x -> zlen (rlp_write x) < 2 ^ 63 -> (k < length (rlp_write x))%nat -> rlp_decode utf8 (firstn k (rlp_write x)) t = None.
Proof.
  intros utf8 t x k Ok L K. apply no_part. intros p. destruct (header_of x [] Ok L) as (h & E & H & _). rewrite app_nil_r in H. unfold decode_part. rewrite (header_cut _ _ _ _ k (rlp_write_ok x Ok L) H); [discriminate|].
  rewrite <- zlen_app, <- E. unfold zlen. lia.
Qed.
Print Assumptions C97_cut_refused.
Theorem C97_tail_refused : forall utf8 t x rest, rlp_ok x -> zlen (rlp_write x) < 2 ^ 63 -> rest <> [] -> rlp_decode utf8 (rlp_write x ++ rest) t = None.
Proof. intros utf8 t x rest Ok L N. apply no_part. intros p. rewrite (part_written x rest Ok L). congruence. Qed.
Print Assumptions C97_tail_refused.

(** Whatever the bytes are, what is taken from them lies in them, one behind the other, and what follows is left as it is. *)
Lemma header_pos : forall s l ts size, bytes_ok s -> decode_header s = Some (l, ts, size) -> 0 <= ts /\ 0 <= size /\ 1 <= ts + size <= zlen s.
Proof.
  intros s l ts size Ok H. destruct s as [|b r]; [discriminate H|]. inversion Ok as [|? ? B R]; subst. unfold is_byte in B. cbn [decode_header] in H.
  pose proof (be_nonneg _ (ok_firstn (Z.to_nat (b - 183 + 1 - 1)) r R)). pose proof (be_nonneg _ (ok_firstn (Z.to_nat (b - 247 + 1 - 1)) r R)).
  destruct (b <? 128) eqn:C1; [|destruct (b <? 184) eqn:C2; [|destruct (b <? 192) eqn:C3; [|destruct (b <? 248) eqn:C4]]]; cbn [fst snd] in H;
    match type of H with (if ?c then _ else _) = _ => destruct c eqn:C5; [discriminate H|] end; injection H as <- <- <-; lia.
Qed.
Lemma ok_skipn : forall n l, bytes_ok l -> bytes_ok (skipn n l).
Proof. intros n l H. apply Forall_forall. intros x I. apply (proj1 (Forall_forall _ _) H). rewrite <- (firstn_skipn n l). apply in_or_app. right. exact I. Qed.
Lemma elements_join : forall f c l, bytes_ok c -> elements f c = Some l -> concat l = c /\ Forall (fun e => e <> []) l.
Proof.
  induction f as [|f IH]; intros c l Ok H.
  - destruct c; cbn [elements] in H; [|discriminate H]. injection H as <-. split; [reflexivity|constructor].
  - destruct c as [|b r]; [cbn [elements] in H; injection H as <-; split; [reflexivity|constructor]|]. cbn [elements] in H. destruct (decode_header (b :: r)) as [[[i ts] size]|] eqn:D; [|discriminate H].
    destruct (elements f (skipn (Z.to_nat (ts + size)) (b :: r))) as [l'|] eqn:E; [|discriminate H]. injection H as <-. destruct (header_pos _ _ _ _ Ok D) as (T0 & S0 & T1).
    destruct (IH _ _ (ok_skipn _ _ Ok) E) as [J F]. cbn [concat]. rewrite J, firstn_skipn. split; [reflexivity|]. constructor; [|exact F]. destruct (Z.to_nat (ts + size)) eqn:N; [lia|]. cbn [firstn]. discriminate.
Qed.
Theorem C97_parts_lie_inside : forall s p rest, bytes_ok s -> decode_part s = Some (p, rest) ->
  exists h body, s = h ++ body ++ rest /\ h ++ body <> [] /\
    match p with NullPart => body = [] | BytesPart b => b = body | ListPart l => concat l = body /\ Forall (fun e => e <> []) l end.
Proof.
  intros s p rest Ok H. unfold decode_part in H. destruct (decode_header s) as [[[i ts] size]|] eqn:D; [|discriminate H]. destruct (header_pos _ _ _ _ Ok D) as (T0 & S0 & T1).
  set (body := firstn (Z.to_nat size) (skipn (Z.to_nat ts) s)) in *. set (rest' := skipn (Z.to_nat (ts + size)) s) in *.
  assert (E : s = firstn (Z.to_nat ts) s ++ body ++ rest').
  { unfold body, rest'. rewrite Z2Nat.inj_add by lia. rewrite L_BtpAddr.skipn_plus, firstn_skipn, firstn_skipn. reflexivity. }
  assert (N : firstn (Z.to_nat ts) s ++ body <> []).
  { intros C. rewrite app_assoc, C in E. cbn [app] in E. assert (LE : length s = length rest') by (rewrite E at 1; reflexivity). unfold rest' in LE. rewrite skipn_length in LE. unfold zlen in T1. lia. }
  assert (OkB : bytes_ok body) by (apply ok_firstn, ok_skipn, Ok).
  exists (firstn (Z.to_nat ts) s), body. destruct i.
  - destruct ((ts =? 2) && (size =? 0)) eqn:C.
    + injection H as <- <-. apply andb_prop in C as [C1 C2]. assert (B0 : body = []) by (unfold body; replace size with 0 by lia; reflexivity). split; [exact E|]. split; [exact N|exact B0].
    + destruct (elements (length body) body) as [l|] eqn:EL; [|discriminate H]. injection H as <- <-. split; [exact E|]. split; [exact N|]. exact (elements_join _ _ _ OkB EL).
  - injection H as <- <-. split; [exact E|]. split; [exact N|reflexivity].
Qed.
Print Assumptions C97_parts_lie_inside.

(** Payloads from 65536 bytes on are written with the bytes of their length in disorder, and then not read back unless two of these are equal. *)
Lemma header_65536 : forall base n, 0 <= base <= 247 -> 65536 <= n < 16777216 -> long_header base n = [base + 3; n / 65536; n mod 256; n / 256 mod 256].
Proof.
  intros base n B H. unfold long_header. assert (S3 : length_size n = 3%nat).
  { rewrite length_size_spec by lia. assert (A : (big_nbytes n <= 3)%nat) by (apply big_nbytes_le_iff; change (256 ^ Z.of_nat 3) with 16777216; lia).
    assert (B2 : ~ (big_nbytes n <= 2)%nat) by (intros C; apply big_nbytes_le_iff in C; change (256 ^ Z.of_nat 2) with 65536 in C; lia). lia. }
  rewrite S3. cbn [put_length]. unfold insert at 4. cbn [firstn skipn app]. change (Z.of_nat 3) with 3. rewrite (Z.mod_small (base + 3)) by lia. unfold insert. cbn [firstn skipn app].
  rewrite Z.div_div by lia. change (256 * 256) with 65536. rewrite (Z.mod_small (n / 65536)); [reflexivity|]. split; [apply Z.div_pos; lia|apply Z.div_lt_upper_bound; lia].
Qed.
Theorem C97_long_payload_refuted : forall utf8 b, bytes_ok b -> 65536 <= zlen b < 16777216 -> let n := zlen b in
  rlp_encode (PBytes b) = [186; n / 65536; n mod 256; n / 256 mod 256] ++ b /\
  rlp_decode utf8 (rlp_encode (PBytes b)) TBytes = (if n mod 256 =? n / 256 mod 256 then Some (PBytes b) else None).
Proof.
  intros utf8 b Ok L n. assert (E : rlp_encode (PBytes b) = [186; n / 65536; n mod 256; n / 256 mod 256] ++ b).
  { cbn [rlp_encode]. unfold encode_bytes. cbv zeta. fold n. replace (n =? 1) with false by (unfold n; lia). cbn [andb]. replace (n <=? 55) with false by (unfold n; lia). rewrite header_65536 by (unfold n; lia). reflexivity. }
  split; [exact E|]. rewrite E. unfold rlp_decode. cbn [depth decode]. unfold decode_part. cbn [app decode_header]. change (186 <? 128) with false. change (186 <? 184) with false. change (186 <? 192) with true. cbn [fst snd].
  change (Z.to_nat (186 - 183 + 1 - 1)) with 3%nat. cbn [firstn]. change (186 - 183 + 1) with 4. unfold be_val. cbn [fold_left]. rewrite !zlen_cons. fold n.
  pose proof (Z.div_mod n 256). pose proof (Z.mod_pos_bound n 256). pose proof (Z.div_mod (n / 256) 256). pose proof (Z.mod_pos_bound (n / 256) 256). assert (E2 : n / 256 / 256 = n / 65536) by (rewrite Z.div_div by lia; reflexivity).
  set (n0 := n mod 256) in *. set (n1 := n / 256 mod 256) in *. set (n2 := n / 65536) in *. set (m := n / 256) in *. clearbody n0 n1 n2 m.
  destruct (n0 =? n1) eqn:Q.
  - assert (n0 = n1) by lia. subst n1. replace (((0 * 256 + n2) * 256 + n0) * 256 + n0) with n by lia. replace (n + 1 + 1 + 1 + 1 <? 4 + n) with false by lia.
    replace (Z.to_nat (4 + n)) with (4 + length b)%nat by (unfold n, zlen; lia). cbn [Nat.add skipn]. rewrite skipn_all. change (Z.to_nat 4) with 4%nat. cbn [skipn]. replace (Z.to_nat n) with (length b) by (unfold n, zlen; lia). rewrite firstn_all. reflexivity.
  - replace (n + 1 + 1 + 1 + 1 <? 4 + (((0 * 256 + n2) * 256 + n0) * 256 + n1)) with (n1 <? n0) by lia. destruct (n1 <? n0) eqn:C; [reflexivity|].
    assert (GE : skipn (Z.to_nat (4 + (((0 * 256 + n2) * 256 + n0) * 256 + n1))) (186 :: n2 :: n0 :: n1 :: b) <> []).
    { intros G. apply (f_equal (@length Z)) in G. rewrite skipn_length in G. cbn [length] in G. unfold n, zlen in *. lia. }
    destruct (skipn _ _) as [|q0 q]; [congruence|reflexivity].
Qed.
Print Assumptions C97_long_payload_refuted.
Example C97_ex_long : exists b, bytes_ok b /\ zlen b = 65537 /\ forall utf8, rlp_decode utf8 (rlp_encode (PBytes b)) TBytes = None.
Proof.
  exists (repeat 0 (Z.to_nat 65537)). assert (L : zlen (repeat 0 (Z.to_nat 65537)) = 65537) by (unfold zlen; rewrite repeat_length; lia).
  assert (Ok : bytes_ok (repeat 0 (Z.to_nat 65537))) by (apply Forall_forall; intros x I; apply repeat_spec in I; subst; unfold is_byte; lia).
  split; [exact Ok|]. split; [exact L|]. intros utf8. rewrite (proj2 (C97_long_payload_refuted utf8 _ Ok ltac:(lia))). rewrite L. reflexivity.
Qed.

(** Other bytes than the written ones are read as the same value. *)
Theorem C97_one_encoding_refuted : forall utf8 b, 0 <= b < 128 ->
  rlp_decode utf8 [b] TBytes = Some (PBytes [b]) /\ rlp_decode utf8 [129; b] TBytes = Some (PBytes [b]) /\ rlp_decode utf8 [184; 1; b] TBytes = Some (PBytes [b]) /\ rlp_encode (PBytes [b]) = [b].
Proof.
  intros utf8 b H. repeat split.
  - unfold rlp_decode. cbn [depth decode]. unfold decode_part. cbn [decode_header]. replace (b <? 128) with true by lia. reflexivity.
  - cbn [rlp_encode]. unfold encode_bytes. cbn [hd]. replace (b <? 128) with true by lia. reflexivity.
Qed.
Print Assumptions C97_one_encoding_refuted.

(** A dict of dicts can be read once: its inner dict is empty afterwards, so that of a list of lists only lists with one element are read. *)
Theorem C97_nested_dict_refuted : forall utf8, rlp_decode utf8 [194; 193; 1] (TOf (Some (TOf (Some TInt)))) = Some (PList [PList [PInt 1]]) /\
  rlp_decode utf8 [196; 193; 1; 193; 2] (TOf (Some (TOf (Some TInt)))) = None /\ rlp_encode (PList [PList [PInt 1]; PList [PInt 2]]) = [196; 193; 1; 193; 2] /\
  rlp_decode utf8 [196; 193; 1; 193; 2] (TOf (Some (TFields [TInt]))) = Some (PList [PList [PInt 1]; PList [PInt 2]]).
Proof. intros utf8. repeat split. Qed.
Print Assumptions C97_nested_dict_refuted.

(** An absent object (the nil marker) is refused where an object or a list of objects is expected, although it is written for None. *)
Theorem C97_absent_object_refuted : forall utf8 t, (exists l, t = TFields l) \/ (exists o, t = TOf o) -> rlp_decode utf8 (rlp_encode PNone) t = None.
Proof. intros utf8 t [[l ->]|[[o|] ->]]; unfold rlp_decode; cbn [depth]; reflexivity. Qed.
Print Assumptions C97_absent_object_refuted.
Example C97_ex_read : forall utf8, utf8 (str "cat") = true ->
  rlp_decode utf8 [205; 130; 255; 127; 131; 99; 97; 116; 248; 0; 1; 194; 129; 128] (TFields [TInt; TStr; TBytes; TBool; TOf (Some TBytes); TInt]) =
  Some (PList [PInt (-129); PStr (str "cat"); PNone; PBool true; PList [PBytes [128]]]).
Proof. intros utf8 H. unfold rlp_decode. cbn -[str]. vm_compute in H. vm_compute. rewrite H. reflexivity. Qed.

(** * base64 *)
(** What is written is the base64 (with the letters for URLs, padded) of the bytes, and every such text is read as its bytes. *)
Theorem C97_base64_written : forall b, bytes_ok b -> base64 b (urlsafe_b64encode b).
Proof. intros b Ok. apply (encode_ok (S (length b))); [lia|exact Ok]. Qed.
Print Assumptions C97_base64_written.
Lemma padded64 : forall s, zlen s mod 4 = 0 -> Forall (fun c => c < 128) s -> urlsafe_b64decode s = b64_decode s.
Proof. intros s E F. unfold urlsafe_b64decode. cbv zeta. rewrite E. change (0 <? 0) with false. cbv iota. replace (forallb (fun c => c <? 128) s) with true; [reflexivity|]. symmetry. apply forallb_forall. rewrite Forall_forall in F. intros x I. specialize (F x I). lia. Qed.
Theorem C97_base64_read : forall b s, bytes_ok b -> base64 b s -> urlsafe_b64decode s = Some b.
Proof.
  intros b s Ok B. destruct (shape64 b s B) as (n & p & Z1 & _ & _ & _ & _ & _ & F). rewrite padded64; [apply decode64; assumption| |exact F]. rewrite Z1, Z.mul_comm. apply Z.mod_mul. lia.
Qed.
Print Assumptions C97_base64_read.
Theorem C97_base64_read_back : forall b, bytes_ok b -> urlsafe_b64decode (urlsafe_b64encode b) = Some b.
Proof. intros b Ok. apply C97_base64_read; [exact Ok|apply C97_base64_written, Ok]. Qed.
Print Assumptions C97_base64_read_back.
(** The padding may be left out. *)
Lemma unpad_end : forall b s u, base64 b s -> (exists k, s = u ++ repeat 61 k) -> last u 0 <> 61 \/ u = [] -> exists k, s = u ++ repeat 61 k /\ (k <= 2)%nat /\ (u = [] -> s = []).
Proof.
  intros b s u B. revert u. induction B as [|a i j c d L1 L2 E|a b i j k c d e L1 L2 L3 E|a b x i j k l c d e f r s L1 L2 L3 L4 E B IH]; intros u (m & Em) N.
  - exists 0%nat. destruct u; [|discriminate Em]. split; [reflexivity|]. split; [lia|reflexivity].
  - destruct (letter_from _ _ L1) as (_ & _ & N1 & _). destruct (letter_from _ _ L2) as (_ & _ & N2 & _).
    destruct u as [|u0 [|u1 [|u2 [|u3 [|u4 u]]]]]; cbn [app] in Em.
    + destruct m; cbn [repeat] in Em; inversion Em. congruence.
    + inversion Em; subst. destruct m; cbn [repeat] in *; [discriminate|]. congruence.
    + exists m. split; [cbn [app]; congruence|]. split; [|discriminate]. injection Em as _ _ Em. destruct m as [|[|[|m]]]; [lia|lia|lia|discriminate Em].
    + exfalso. destruct N as [N|N]; [|discriminate N]. inversion Em; subst. cbn [last] in N. congruence.
    + exfalso. destruct N as [N|N]; [|discriminate N]. inversion Em; subst. cbn [last] in N. congruence.
    + discriminate Em.
  - destruct (letter_from _ _ L1) as (_ & _ & N1 & _). destruct (letter_from _ _ L2) as (_ & _ & N2 & _). destruct (letter_from _ _ L3) as (_ & _ & N3 & _).
    destruct u as [|u0 [|u1 [|u2 [|u3 [|u4 u]]]]]; cbn [app] in Em.
    + destruct m; cbn [repeat] in Em; inversion Em. congruence.
    + inversion Em; subst. destruct m; cbn [repeat] in *; [discriminate|]. congruence.
    + inversion Em; subst. destruct m; cbn [repeat] in *; [discriminate|]. congruence.
    + exists m. split; [cbn [app]; congruence|]. split; [|discriminate]. injection Em as _ _ _ Em. destruct m as [|[|[|m]]]; [lia|lia|lia|discriminate Em].
    + exfalso. destruct N as [N|N]; [|discriminate N]. inversion Em; subst. cbn [last] in N. congruence.
    + discriminate Em.
  - destruct (letter_from _ _ L1) as (_ & _ & N1 & _). destruct (letter_from _ _ L2) as (_ & _ & N2 & _). destruct (letter_from _ _ L3) as (_ & _ & N3 & _). destruct (letter_from _ _ L4) as (_ & _ & N4 & _).
    destruct u as [|u0 [|u1 [|u2 [|u3 u]]]]; cbn [app] in Em; try solve [destruct m; cbn [repeat] in Em; [discriminate Em|]; destruct m; cbn [repeat] in Em; [discriminate Em|]; inversion Em; congruence];
      try solve [destruct m; cbn [repeat] in Em; [discriminate Em|]; inversion Em; congruence].
    injection Em as <- <- <- <- Em. destruct (IH u (ex_intro _ m Em)) as (k' & Ek & Lk & Un).
    { destruct N as [N|N]; [|discriminate N]. destruct u as [|u0 u]; [right; reflexivity|left]. exact N. }
    exists k'. split; [cbn [app]; congruence|]. split; [exact Lk|discriminate].
Qed.
Theorem C97_base64_unpadded : forall b s u k, bytes_ok b -> base64 b s -> s = u ++ repeat 61 k -> last u 0 <> 61 \/ u = [] -> urlsafe_b64decode u = Some b.
Proof.
  intros b s u k Ok B E N. destruct (unpad_end b s u B (ex_intro _ k E) N) as (k' & E' & L & Un). destruct (shape64 b s B) as (n & p & Z1 & Z2 & _ & _ & _ & _ & F).
  assert (K : k' = k). { rewrite E in E'. apply app_inv_head in E'. apply (f_equal (@length Z)) in E'. rewrite !repeat_length in E'. congruence. } subst k'.
  assert (LU : zlen u + Z.of_nat k = 4 * n) by (rewrite <- Z1, E, zlen_app; unfold zlen; rewrite repeat_length; lia).
  assert (FU : Forall (fun c => c < 128) u) by (rewrite E in F; apply Forall_app in F; apply F).
  destruct (Nat.eq_dec k 0) as [->|NK].
  - cbn [repeat] in E. rewrite app_nil_r in E. subst s. apply C97_base64_read; assumption.
  - unfold urlsafe_b64decode. cbv zeta. replace (forallb (fun c => c <? 128) u) with true by (symmetry; apply forallb_forall; rewrite Forall_forall in FU; intros x I; specialize (FU x I); lia).
    assert (R : zlen u mod 4 = 4 - Z.of_nat k). { replace (zlen u) with ((4 - Z.of_nat k) + (n - 1) * 4) by lia. rewrite Z.mod_add by lia. apply Z.mod_small. lia. }
    rewrite R. replace (0 <? 4 - Z.of_nat k) with true by lia. replace (4 - (4 - Z.of_nat k)) with (Z.of_nat k) by lia. rewrite Nat2Z.id. change PAD with 61. rewrite <- E. apply decode64; assumption.
Qed.
Print Assumptions C97_base64_unpadded.
Example C97_ex_base64 : urlsafe_b64encode (str "light w") = str "bGlnaHQgdw==" /\ urlsafe_b64decode (str "bGlnaHQgdw") = Some (str "light w") /\ urlsafe_b64decode (str "bGlnaHQgd") = None /\ urlsafe_b64decode (str "bGl+") = None.
Proof. vm_compute. repeat split. Qed.
(** Other texts are read as the same bytes: the bits that fill the last group are not looked at. *)
Theorem C97_one_text_refuted : urlsafe_b64decode (str "QQ==") = Some [65] /\ urlsafe_b64decode (str "QR==") = Some [65] /\ urlsafe_b64encode [65] = str "QQ==" /\ ~ base64 [65] (str "QR==").
Proof. repeat split. intros H. change (str "QR==") with [81; 82; 61; 61] in H. inversion H; subst. unfold letter in *. lia. Qed.
Print Assumptions C97_one_text_refuted.
(** Nothing else is read: letters, never one alone in its group, and no more padding than the last group wants. *)
Lemma from64_letter : forall c, 0 <= from64 c -> exists i, letter i c.
Proof.
  intros c H. unfold from64 in H. destruct (c =? PAD); [lia|]. assert (X : forall l k, 0 <= index64 c l k -> In c l) by (induction l as [|y l IH]; intros k K; cbn [index64] in K; [lia|]; destruct (Z.eqb_spec y c) as [->|]; [left; reflexivity|right; eapply IH, K]).
  apply X in H. apply In_nth_error in H as (n & H). assert (L : (n < 64)%nat) by (change 64%nat with (length b64_url); apply nth_error_Some; congruence). exists (Z.of_nat n). replace c with (chr64 (Z.of_nat n)); [apply letter_chr; lia|]. unfold chr64. rewrite Nat2Z.id. apply nth_error_nth. exact H.
Qed.
Lemma loop_shape : forall src bits m out bits' sh' out' rest, 0 <= m < 4 -> b64_loop src bits (18 - 6 * m) out = Some (bits', sh', out', rest) ->
  exists t tail, src = t ++ tail /\ Forall (fun c => exists i, letter i c) t /\ sh' = 18 - 6 * ((m + zlen t) mod 4) /\ (tail = [] /\ rest = [] \/ exists r, tail = 61 :: r /\ rest = skipn 1 r /\ sh' <> 18 /\ (sh' = 6 -> hd 0 r = 61)).
Proof.
  induction src as [|c src IH]; intros bits m out bits' sh' out' rest M E.
  - cbn [b64_loop] in E. assert (S1 : sh' = 18 - 6 * m) by congruence. assert (S2 : rest = []) by congruence. subst sh' rest. clear E. exists [], []. split; [reflexivity|]. split; [constructor|]. split; [change (zlen (@nil Z)) with 0; rewrite Z.add_0_r, Z.mod_small by lia; reflexivity|left; split; reflexivity].
  - cbn [b64_loop] in E. cbv zeta in E. destruct (from64 c <? 0) eqn:N.
    + destruct (from64 c =? -2) eqn:P; [|discriminate E]. assert (c = 61). { unfold from64 in P. destruct (Z.eqb_spec c PAD) as [->|NP]; [reflexivity|]. exfalso. assert (X : forall l k, 0 <= k -> -1 <= index64 c l k) by (induction l as [|y l IHl]; intros k K; cbn [index64]; [lia|]; destruct (y =? c); [lia|apply IHl; lia]). specialize (X b64_url 0 ltac:(lia)). lia. } subst c.
      destruct (((18 - 6 * m =? 6) && match src with [] => true | x :: _ => negb (x =? PAD) end) || (18 - 6 * m =? 18)) eqn:C; [discriminate E|]. apply orb_false_iff in C as (C1 & C2). assert (S1 : sh' = 18 - 6 * m) by congruence. assert (S2 : rest = skipn 1 src) by congruence. subst sh' rest. clear E. exists [], (61 :: src). split; [reflexivity|]. split; [constructor|]. split; [change (zlen (@nil Z)) with 0; rewrite Z.add_0_r, Z.mod_small by lia; reflexivity|].
      right. exists src. split; [reflexivity|]. split; [reflexivity|]. split; [lia|]. intros S6. replace (18 - 6 * m =? 6) with true in C1 by lia. cbn [andb] in C1. destruct src as [|x src]; [discriminate C1|]. cbn [hd]. unfold PAD in C1. lia.
    + destruct (from64_letter c ltac:(lia)) as (i & L). destruct (18 - 6 * m - 6 <? 0) eqn:S.
      * assert (m = 3) by lia. subst m. change 18 with (18 - 6 * 0) in E at 1. apply (IH 0 0) in E as (t & tail & -> & F & SH & R); [|lia]. exists (c :: t), tail. split; [reflexivity|]. split; [constructor; [exists i; exact L|exact F]|]. split; [rewrite SH, zlen_cons; f_equal; f_equal; replace (3 + (zlen t + 1)) with (0 + zlen t + 1 * 4) by ring; rewrite Z.mod_add by lia; reflexivity|exact R].
      * replace (18 - 6 * m - 6) with (18 - 6 * (m + 1)) in E by lia. apply (IH _ (m + 1)) in E as (t & tail & -> & F & SH & R); [|lia]. exists (c :: t), tail. split; [reflexivity|]. split; [constructor; [exists i; exact L|exact F]|]. split; [rewrite SH, zlen_cons; do 3 f_equal; ring|exact R].
Qed.
Theorem C97_base64_only : forall s b, urlsafe_b64decode s = Some b -> exists t k, s = t ++ repeat 61 k /\ Forall (fun c => exists i, letter i c) t /\ zlen t mod 4 <> 1 /\ Z.of_nat k <= (- zlen t) mod 4.
Proof.
  intros s b E. unfold urlsafe_b64decode in E. destruct (forallb (fun c => c <? 128) s); [|discriminate E]. cbv zeta in E. set (p := if 0 <? zlen s mod 4 then Z.to_nat (4 - zlen s mod 4) else O).
  assert (E' : b64_decode (s ++ repeat 61 p) = Some b) by (unfold p; destruct (0 <? zlen s mod 4); [exact E|rewrite app_nil_r; exact E]).
  assert (M4 : zlen (s ++ repeat 61 p) mod 4 = 0). { rewrite zlen_app. unfold zlen at 2. rewrite repeat_length. unfold p. pose proof (Z.mod_pos_bound (zlen s) 4 ltac:(lia)) as MB. pose proof (Z.div_mod (zlen s) 4 ltac:(lia)) as DM. destruct (0 <? zlen s mod 4) eqn:C; [rewrite Z2Nat.id by lia; replace (zlen s + (4 - zlen s mod 4)) with (0 + (zlen s / 4 + 1) * 4) by lia; rewrite Z.mod_add by lia; reflexivity|rewrite Z.add_0_r; lia]. }
  clearbody p. clear E. unfold b64_decode in E'. destruct (decode_length (s ++ repeat 61 p)) as [n|]; [|discriminate E']. destruct (b64_loop (s ++ repeat 61 p) 0 18 []) as [[[[bits' sh'] out'] rest]|] eqn:LO; [|discriminate E']. destruct (sh' =? 12) eqn:S12; [discriminate E'|]. cbv zeta in E'. destruct rest as [|x rest]; [|discriminate E']. clear E'.
  apply (loop_shape _ 0 0) in LO as (t & tail & EQ & F & SH & R); [|lia]. rewrite Z.add_0_l in SH. assert (NP : forall c, In c t -> c <> 61) by (intros c I; rewrite Forall_forall in F; destruct (F c I) as (i & L); unfold letter in L; lia).
  assert (K : exists K, tail = repeat 61 K /\ zlen t mod 4 <> 1 /\ Z.of_nat K = (- zlen t) mod 4).
  { rewrite EQ, zlen_app in M4. pose proof (Z.mod_pos_bound (zlen t) 4 ltac:(lia)) as MB. pose proof (Z.div_mod (zlen t) 4 ltac:(lia)) as DM. destruct R as [(-> & _)|(r & -> & RS & S18 & S6)].
    - exists O. split; [reflexivity|]. change (zlen (@nil Z)) with 0 in M4. rewrite Z.add_0_r in M4. split; [lia|]. rewrite Z.mod_opp_l_z by lia. reflexivity.
    - assert (RC : r = [] \/ exists x, r = [x]) by (destruct r as [|x [|y r]]; [left; reflexivity|right; exists x; reflexivity|discriminate RS]). pose proof (Z.div_mod (zlen t + zlen (61 :: r)) 4 ltac:(lia)) as DM2. destruct RC as [->|(x & ->)].
      + change (zlen [61]) with 1 in *. assert (zlen t mod 4 = 3) by lia. exists 1%nat. split; [reflexivity|]. split; [lia|]. rewrite Z.mod_opp_l_nz by lia. lia.
      + change (zlen [61; x]) with 2 in *. assert (zlen t mod 4 = 2) by lia. cbn [hd] in S6. rewrite (S6 ltac:(lia)). exists 2%nat. split; [reflexivity|]. split; [lia|]. rewrite Z.mod_opp_l_nz by lia. lia. }
  destruct K as (K & -> & T1 & KT). destruct (le_lt_dec p K) as [LE|GT].
  - exists t, (K - p)%nat. split; [|split; [exact F|split; [exact T1|lia]]]. replace K with (K - p + p)%nat in EQ by lia. rewrite repeat_app, app_assoc in EQ. apply app_inv_tail in EQ. exact EQ.
  - exfalso. replace p with (S (p - K - 1) + K)%nat in EQ by lia. rewrite repeat_app, app_assoc in EQ. apply app_inv_tail in EQ. apply (NP 61); [|reflexivity]. rewrite <- EQ. apply in_or_app. right. left. reflexivity.
Qed.
Print Assumptions C97_base64_only.
