(** C60: the RLP libraries of the Solidity contracts. *)
From Coq Require Import String Ascii ZArith List Bool Lia.
From Coq Require Import ZifyBool.
From Verif Require Import Base L_Base M_IntConv S_IntConv L_IntConv M_Rlp S_Rlp L_Rlp M_Codec S_JBmv L_Wire M_SolRlp S_SolRlp L_SolRlp.
Import ListNotations.
Open Scope Z_scope.

Lemma bytes33 : forall b, bytes_ok b -> zlen b <= 32 -> zlen (rlp_write (RBytes b)) <= 33.
Proof.
  intros b O L. cbn [rlp_write]. destruct (writeBytes_header b O ltac:(lia)) as [(x & E & _ & ->)|(_ & h & -> & _ & Hs & _)]; [lia|].
  rewrite zlen_app, (Hs ltac:(lia)). change (zlen [_]) with 1. lia.
Qed.
Lemma null_only : forall it t, holds it t -> isNull it = true -> t = RNull.
Proof.
  intros it t (O & L & E & P & _) N. unfold isNull in N. assert (E2 : zlen (rlp_write t) = 2) by lia. assert (E0 : i_mem it 0 = 248) by lia. assert (E1 : i_mem it 1 = 0) by lia. clear N.
  destruct (rlp_write t) as [|x [|y [|z r]]] eqn:W; try (exfalso; rewrite ?zlen_cons in E2; try pose proof (zlen_nonneg _ r); cbn in E2; lia).
  apply placed_cons in P as [P0 P]. apply placed_cons in P as [P1 _]. rewrite E0 in P0. change (0 + 1) with 1 in P1. rewrite E1 in P1. subst x y.
  refine (proj1 (rlp_prefix_free t RNull [] [] _ O _ I _)); [rewrite W; cbn; lia|cbn; lia|]. rewrite !app_nil_r. assumption.
Qed.

(** An item read is the item that lies in memory, of whatever kind, regardless of what lies behind it. *)
Theorem C60_item_read : forall it t, holds it t ->
  toRlpBytes it = rlp_write t /\ (isNull it = true <-> t = RNull) /\
  match t with
  | RNull => isList it = true /\ toList it = Some [] /\ toBytes it = Some [] /\ payloadLen it = Some 0 /\ toUint it = Some 0
  | RBytes b => isList it = false /\ toList it = None /\ toBytes it = Some b /\ payloadLen it = Some (zlen b) /\
      (zlen b <= 32 -> toUint it = Some (be_val b)) /\ (32 < zlen b -> toUint it = None) /\
      (zlen b = 20 -> toAddress it = Some (be_val b)) /\
      (b <> [] -> zlen b <= 32 -> (zlen b = 32 -> hd 0 b < 128) -> toInt it = Some (tc_value b))
  | RList l => isList it = true /\ exists its, toList it = Some its /\ Forall2 holds its l
  end.
Proof.
  intros it t Hd. split; [apply toRlpBytes_holds; assumption|]. split.
  { split; [apply null_only; assumption|]. intros ->. destruct Hd as (_ & _ & E & P & _). cbn [rlp_write] in *. unfold writeNull in *. change (zlen [248; 0]) with 2 in E.
    apply placed_cons in P as [P0 P]. apply placed_cons in P as [P1 _]. change (0 + 1) with 1 in P1. unfold isNull. rewrite E, P0, P1. reflexivity. }
  pose proof (isList_holds _ _ Hd) as EL. pose proof (toBytes_holds _ _ Hd) as EB. pose proof (payloadLen_holds _ _ Hd) as EP. pose proof Hd as (O & S & LE & _).
  destruct t as [|b|l]; cbn [payload] in *.
  - repeat split; try assumption; [apply toList_null; assumption|]. apply (toUint_holds it RNull Hd); [rewrite LE; cbn; lia|cbn; lia].
  - cbn [rlp_ok] in O. repeat split; try assumption.
    + apply (toList_bytes it b). assumption.
    + intros L. apply (toUint_holds it (RBytes b) Hd); [|assumption]. rewrite LE. apply bytes33; assumption.
    + intros L. unfold toUint. replace ((0 <? i_len it) && (i_len it <=? 33)) with false; [reflexivity|]. rewrite LE. cbn [rlp_write].
      destruct (writeBytes_header b O ltac:(apply small_b; assumption)) as [(x & -> & _)|(_ & h & -> & Hh & _)]; [cbn in L; lia|]. apply header_len in Hh. rewrite zlen_app. lia.
    + intros L. unfold toAddress. replace (i_len it =? 21) with true.
      * cbn [require sbind]. rewrite (toUint_holds it (RBytes b) Hd); [|rewrite LE; apply bytes33; [assumption|lia]|cbn [payload]; lia]. cbn [sbind payload]. f_equal. apply Z.mod_small.
        pose proof (be_val_bound b O) as B. replace (256 ^ Z.of_nat (length b)) with (2 ^ 160) in B; [lia|]. replace (Z.of_nat (length b)) with 20 by (unfold zlen in L; lia). reflexivity.
      * rewrite LE. cbn [rlp_write]. destruct (writeBytes_header b O ltac:(lia)) as [(x & -> & _)|(_ & h & -> & _ & Hs & _)]; [cbn in L; lia|].
        rewrite zlen_app, (Hs ltac:(lia)). change (zlen [_]) with 1. lia.
    + intros N L H. apply toInt_holds; assumption.
  - split; [assumption|]. apply toList_holds. assumption.
Qed.
Print Assumptions C60_item_read.

(** Bytes handed to the library are such an item if they were written by the Go codec (C08), whatever the memory behind them. *)
Theorem C60_bytes_become_item : forall junk t, (forall b, mem_ok (junk b)) -> rlp_ok t -> zlen (rlp_write t) < 2 ^ 63 ->
  holds (toRlpItem junk (rlp_write t)) t.
Proof. intros junk t J O L. apply toRlpItem_holds; try assumption. apply rlp_write_ok; assumption. Qed.
Print Assumptions C60_bytes_become_item.

(** What the contracts write is what the Go codec writes for the same tree, as long as no string is the single byte 0x80. *)
Theorem C60_writers_agree : forall t, ~ has_0x80 t -> zlen (rlp_write t) < 2 ^ 63 -> sol_write t = rlp_write t.
Proof. exact sol_write_ok. Qed.
Print Assumptions C60_writers_agree.

(** FINDING: a string of the single byte 0x80 is written as the empty string. *)
Theorem C60_byte_0x80_refuted : encodeBytes [128] = encodeBytes [] /\ encodeBytes [128] <> rlp_write (RBytes [128]) /\
  forall junk, toBytes (toRlpItem junk (encodeBytes [128])) = Some [].
Proof. split; [reflexivity|]. split; [discriminate|]. intros junk. reflexivity. Qed.
Print Assumptions C60_byte_0x80_refuted.

Lemma tc_not_128 : forall n, n <> -128 -> BigIntToBytes n <> [128].
Proof. intros n N E. destruct (BigIntToBytes_shortest n) as (_ & _ & V & _). rewrite E in V. cbn in V. congruence. Qed.
Lemma tc_small : forall n, - 2 ^ 255 <= n < 2 ^ 255 -> zlen (BigIntToBytes n) <= 32.
Proof. intros n N. apply (tc_bytes_len n 32); [lia|]. unfold fits. change (8 * Z.of_nat 32 - 1) with 255. lia. Qed.

(** Unsigned numbers are written as the Go codec writes them, up to 2^128 - 2; larger ones revert. *)
Theorem C60_uint_written : forall n, 0 <= n -> encodeUint n = if n <? 2 ^ 128 - 1 then Some (rlp_write (int_item n)) else None.
Proof.
  intros n N. destruct (n <? 2 ^ 128 - 1) eqn:E; [|apply encodeUint_reverts; lia]. rewrite encodeUint_bytes by lia. f_equal. unfold int_item. cbn [rlp_write].
  apply encodeBytes_write; [|apply tc_not_128; lia]. pose proof (tc_small n ltac:(lia)). lia.
Qed.
Print Assumptions C60_uint_written.
(** Signed numbers too, within 128 bits, except one. *)
Theorem C60_int_written : forall n, n <> -128 -> encodeInt n = if (- 2 ^ 127 <=? n) && (n <? 2 ^ 127) then Some (rlp_write (int_item n)) else None.
Proof.
  intros n N. unfold encodeInt. destruct ((- 2 ^ 127 <=? n) && (n <? 2 ^ 127)) eqn:E.
  - rewrite intToStrictBytes_bytes by lia. cbn [sbind]. f_equal. unfold int_item. cbn [rlp_write]. apply encodeBytes_write; [|apply tc_not_128; lia].
    pose proof (tc_small n ltac:(lia)). lia.
  - rewrite intToStrictBytes_reverts by lia. reflexivity.
Qed.
Print Assumptions C60_int_written.
(** FINDING: -128 is written as the empty string, and reading it back reverts. *)
Theorem C60_int_minus_128_refuted : encodeInt (-128) = Some [128] /\ rlp_write (int_item (-128)) = [129; 128] /\
  (forall junk, toInt (toRlpItem junk [128]) = None) /\ (forall junk, toUint (toRlpItem junk [128]) = Some 0).
Proof. repeat split. Qed.
Print Assumptions C60_int_minus_128_refuted.

(** Numbers read: those of the Go codec (two's complement) and those of go-ethereum (shortest unsigned bytes) both come out right as unsigned
    numbers; two's complement also as signed ones. *)
Theorem C60_numbers_read : forall it n, 
  (holds it (int_item n) -> 0 <= n < 2 ^ 255 -> toUint it = Some n) /\
  (holds it (RBytes (big_bytes n)) -> 0 <= n < 2 ^ 256 -> toUint it = Some n) /\
  (holds it (int_item n) -> - 2 ^ 247 <= n < 2 ^ 255 -> toInt it = Some n).
Proof.
  intros it n. destruct (BigIntToBytes_shortest n) as (S1 & S2 & S3 & S4). repeat split.
  - intros Hd R. pose proof (tc_small n ltac:(lia)) as L. destruct (C60_item_read _ _ Hd) as (_ & _ & _ & _ & _ & _ & U & _). rewrite (U L). f_equal.
    destruct (BigIntToBytes n) as [|b bs] eqn:E; [congruence|]. rewrite <- S3. rewrite tc_value_cons in *. pose proof (be_val_bound _ S2) as B. change (length (b :: bs)) with (S (length bs)) in B.
    destruct (b <? 128); lia.
  - intros Hd R. assert (L : (big_nbytes n <= 32)%nat) by (apply big_nbytes_le_iff; change (256 ^ Z.of_nat 32) with (2 ^ 256); lia).
    destruct (C60_item_read _ _ Hd) as (_ & _ & _ & _ & _ & _ & U & _). rewrite U by (unfold zlen; rewrite big_bytes_length; lia). f_equal. rewrite be_val_big_bytes. lia.
  - intros Hd R. pose proof (tc_small n ltac:(lia)) as L. destruct (C60_item_read _ _ Hd) as (_ & _ & _ & _ & _ & _ & _ & _ & _ & T). rewrite T; try assumption; [f_equal; assumption|].
    intros L32. destruct (BigIntToBytes n) as [|b bs] eqn:E; [congruence|]. cbn [hd]. destruct (Z.lt_ge_cases b 128) as [C|C]; [assumption|exfalso].
    assert (F : fits 31 n) by (unfold fits; change (8 * Z.of_nat 31 - 1) with 247; rewrite tc_value_cons in S3; replace (b <? 128) with false in S3 by lia; pose proof (be_val_bound _ S2) as B;
      change (length (b :: bs)) with (S (length bs)) in B; lia).
    pose proof (tc_bytes_len n 31 ltac:(lia) F) as L31. rewrite E in L31. lia.
Qed.
Print Assumptions C60_numbers_read.
(** In particular numbers written by a contract are read back by a contract. *)
Theorem C60_roundtrip : forall junk n, (forall b, mem_ok (junk b)) ->
  (forall e, 0 <= n -> encodeUint n = Some e -> toUint (toRlpItem junk e) = Some n) /\
  (forall e, n <> -128 -> encodeInt n = Some e -> toInt (toRlpItem junk e) = Some n).
Proof.
  intros junk n J. split; intros e H1 H2.
  - rewrite (C60_uint_written n H1) in H2. destruct (n <? 2 ^ 128 - 1) eqn:E; [|discriminate]. injection H2 as <-. refine (proj1 (C60_numbers_read _ n) _ _); [|lia].
    apply C60_bytes_become_item; [assumption|apply int_ok|]. pose proof (tc_small n ltac:(lia)). pose proof (bytes33 _ (int_ok n) H). unfold int_item. lia.
  - rewrite (C60_int_written n H1) in H2. destruct ((- 2 ^ 127 <=? n) && (n <? 2 ^ 127)) eqn:E; [|discriminate]. injection H2 as <-. refine (proj2 (proj2 (C60_numbers_read _ n)) _ _); [|lia].
    apply C60_bytes_become_item; [assumption|apply int_ok|]. pose proof (tc_small n ltac:(lia)). pose proof (bytes33 _ (int_ok n) H). unfold int_item. lia.
Qed.
Print Assumptions C60_roundtrip.
(** A negative number read as an unsigned one is a large positive one, not an error. *)
Theorem C60_negative_as_unsigned : forall it n, holds it (int_item n) -> - 2 ^ 255 <= n < 0 ->
  exists u, toUint it = Some u /\ u = n + 256 ^ zlen (BigIntToBytes n) /\ 0 < u.
Proof.
  intros it n Hd R. destruct (BigIntToBytes_shortest n) as (S1 & S2 & S3 & S4). pose proof (tc_small n ltac:(lia)) as L. destruct (C60_item_read _ _ Hd) as (_ & _ & _ & _ & _ & _ & U & _).
  exists (be_val (BigIntToBytes n)). split; [apply U; assumption|].
  destruct (BigIntToBytes n) as [|b bs] eqn:E; [congruence|]. rewrite tc_value_cons in S3. pose proof (be_val_bound _ S2) as B. change (length (b :: bs)) with (S (length bs)) in B.
  unfold zlen. change (length (b :: bs)) with (S (length bs)). pose proof (head_half _ _ S2) as HH. destruct (b <? 128) eqn:Eb; [lia|]. split; [lia|].
  destruct (Z.eq_dec (be_val (b :: bs)) 0) as [Z0|Z0]; [|lia]. assert (b < 128) by (apply HH; rewrite Z0; apply Z.pow_pos_nonneg; lia). lia.
Qed.
Print Assumptions C60_negative_as_unsigned.

(** FINDING: the reader does not check that items lie within the bytes it was given: what a malformed message is taken for can depend on memory
    that is not part of the message. *)
Theorem C60_reads_within_bounds_refuted : exists b junk1 junk2 it1 it2, bytes_ok b /\ (forall x, mem_ok (junk1 x)) /\ (forall x, mem_ok (junk2 x)) /\
  toList (toRlpItem junk1 b) = Some [it1] /\ toList (toRlpItem junk2 b) = Some [it2] /\ toBytes it1 = Some [0; 0] /\ toBytes it2 = Some [7; 7].
Proof.
  exists [193; 130], (fun _ _ => 0), (fun _ _ => 7). do 2 eexists. split; [repeat constructor; lia|]. split; [intros x i; unfold is_byte; lia|]. split; [intros x i; unfold is_byte; lia|].
  split; [reflexivity|]. split; [reflexivity|]. split; reflexivity.
Qed.
Print Assumptions C60_reads_within_bounds_refuted.

Definition C60_tree : rlp := RList [RBytes (str "0x1.icon"); int_item 128; RList [RNull; RBytes []]; RBytes (repeat 7 60)].
Example C60_ex_ok : rlp_ok C60_tree /\ zlen (rlp_write C60_tree) < 2 ^ 63 /\ ~ has_0x80 C60_tree.
Proof.
  split; [|split; [vm_compute; reflexivity|]].
  - cbn [C60_tree rlp_ok fold_right]. split; [repeat constructor; vm_compute; intuition congruence|]. split; [apply int_ok|]. split; [split; [exact I|split; [constructor|exact I]]|].
    split; [|exact I]. apply Forall_forall. intros x Hx. apply repeat_spec in Hx. unfold is_byte. lia.
  - vm_compute. intuition discriminate.
Qed.
Example C60_ex_bytes : sol_write C60_tree = rlp_write C60_tree /\ encodeUint 128 = Some [130; 0; 128] /\ encodeInt (-129) = Some [130; 255; 127] /\
  toInt (toRlpItem (fun _ _ => 9) [130; 255; 127]) = Some (-129) /\ toUint (toRlpItem (fun _ _ => 9) [130; 0; 128]) = Some 128.
Proof. vm_compute. auto. Qed.
