(** C63: what the relay encodes is what the bridge verifiers read, and where it is not. *)
From Coq Require Import String Ascii ZArith List Bool Lia.
From Coq Require Import ZifyBool.
From Verif Require Import Base L_Base M_IntConv S_IntConv L_IntConv M_Rlp S_Rlp L_Rlp M_Codec S_Codec L_Codec S_JBmv M_Wire S_Wire L_Wire T_Wire
  M_SolRlp S_SolRlp L_SolRlp T_SolRlp M_BtpAddr S_BtpAddr M_Bridge S_Bridge L_Bridge T_Bridge S_BridgeWire.
Import ListNotations.
Open Scope Z_scope.

(** ** The trees *)
Section Num.
Variable num : Z -> list Z.
Hypothesis num_ok : forall z, bytes_ok (num z).
Lemma event_item_ok : forall e, event_ok e -> rlp_ok (event_item num e).
Proof. intros e [E1 E2]. apply rlp_ok_list. repeat constructor; try assumption. apply num_ok. Qed.
Lemma events_ok : forall evs, Forall event_ok evs -> rlp_ok (RList (map (event_item num) evs)).
Proof. intros evs F. apply rlp_ok_list, Forall_map. revert F. apply Forall_impl. exact event_item_ok. Qed.
Lemma receipt_parts : forall r, zlen (rlp_write (receipt_item num r)) < 2 ^ 63 -> zlen (rlp_write (RList (map (event_item num) (br_events r)))) < 2 ^ 63.
Proof. intros r L. apply small_children in L as [_ L]. inv_small L. apply small_b. assumption. Qed.
Lemma receipt_item_ok : forall r, receipt_ok r -> zlen (rlp_write (receipt_item num r)) < 2 ^ 63 -> rlp_ok (receipt_item num r).
Proof.
  intros r (R1 & _) L. apply receipt_parts in L. apply rlp_ok_list. constructor; [apply int_ok|]. constructor; [|constructor; [apply int_ok|constructor]].
  apply rlp_write_ok; [apply events_ok|]; assumption.
Qed.
Lemma message_parts : forall rps, zlen (rlp_write (message_item num rps)) < 2 ^ 63 ->
  Forall (fun r => zlen (rlp_write (receipt_item num r)) < 2 ^ 63) rps.
Proof.
  intros rps L. apply small_children in L as [_ L]. inv_small L. apply small_children in L0 as [_ L0]. apply Forall_map in L0. revert L0. apply Forall_impl. intros r. apply small_b.
Qed.
Lemma message_item_ok : forall rps, Forall receipt_ok rps -> zlen (rlp_write (message_item num rps)) < 2 ^ 63 -> rlp_ok (message_item num rps).
Proof.
  intros rps F L. apply message_parts in L. apply rlp_ok_list. constructor; [|constructor]. apply rlp_ok_list, Forall_map. rewrite Forall_forall in *. intros r I.
  apply rlp_write_ok; [apply receipt_item_ok|]; auto.
Qed.

(** Java *)
Lemma java_reads : forall g rps, Forall receipt_ok rps -> Forall (numbers_ok (fun n => num n <> [] /\ tc_value (num n) = g n)) rps ->
  zlen (rlp_write (message_item num rps)) < 2 ^ 63 -> fromBytes readBridgeMessage (rlp_write (message_item num rps)) = Some (map (renumber g) rps).
Proof.
  intros g rps F N L. apply fromBytes_reads; [|assumption]. pose proof (message_parts rps L) as LR. clear L. unfold readBridgeMessage, message_item.
  set (p := pbind readByteArray _). eapply reads_inList. intros L. inv_small L. cbn [map concat].
  assert (R : reads (listOf p) (RList (map (fun r => RBytes (rlp_write (receipt_item num r))) rps)) (map (renumber g) rps)).
  { apply reads_listOf, Forall2_map_l. rewrite Forall_forall in *. intros r I. specialize (F r I). specialize (N r I). specialize (LR r I).
    intros Lb rest. unfold p, pbind. rewrite reads_bytes by (try apply rlp_write_ok; try apply receipt_item_ok; assumption).
    assert (X : fromBytes readReceipt (rlp_write (receipt_item num r)) = Some (renumber g r)); [|rewrite X; reflexivity].
    apply fromBytes_reads; [|assumption]. pose proof (receipt_parts r LR) as LE. unfold readReceipt, receipt_item. destruct F as (F1 & F2 & F3).
    eapply reads_inList. intros LX. inv_small LX. cbn [map concat]. step (reads_int (br_index r) F2).
    step (reads_bytes _ (rlp_write_ok _ (events_ok _ F1) LE)).
    assert (E : reads (listOf readEvent) (RList (map (event_item num) (br_events r))) (map (fun e => BEvent (be_next e) (g (be_seq e)) (be_msg e)) (br_events r))).
    { apply reads_listOf, Forall2_map_l. unfold numbers_ok in N. rewrite Forall_forall in *. intros e Ie. destruct (F1 e Ie) as [B1 B2]. destruct (N e Ie) as [N1 N2].
      unfold readEvent, event_item. eapply reads_inList. intros LY. inv_small LY. cbn [map concat]. step (reads_bytes _ B1).
      assert (Q : reads readBigInteger (RBytes (num (be_seq e))) (g (be_seq e))).
      { intros Lq rst. unfold readBigInteger, pbind. rewrite reads_bytes by (try apply num_ok; assumption). rewrite <- N2, <- (BigIntSetBytes_spec _ (num_ok (be_seq e))).
        destruct (num (be_seq e)); [congruence|reflexivity]. }
      step Q. step (reads_bytes _ B2). reflexivity. }
    rewrite (fromBytes_reads _ _ _ _ E LE). step (reads_big (br_height r)). reflexivity. }
  rewrite R by assumption. reflexivity.
Qed.

(** Solidity *)
Variable junk : list Z -> mem.
Hypothesis junk_ok : forall b, mem_ok (junk b).
Lemma list_of_holds : forall l, rlp_ok (RList l) -> zlen (rlp_write (RList l)) < 2 ^ 63 -> exists its, list_of junk (rlp_write (RList l)) = Some its /\ Forall2 holds its l.
Proof. intros l O L. unfold list_of. apply toList_holds. apply C60_bytes_become_item; assumption. Qed.
Lemma map_opt_holds : forall A (f : sitem -> option A) ts xs its, Forall2 (fun t x => forall it, holds it t -> f it = Some x) ts xs -> Forall2 holds its ts -> map_opt f its = Some xs.
Proof.
  intros A f ts xs its F. revert its. induction F as [|t x ts xs Fx F IH]; intros its Hd; inversion Hd as [|it ? its' ? H1 H2]; subst; cbn [map_opt]; [reflexivity|].
  rewrite (Fx it H1). cbn [sbind]. rewrite (IH its' H2). reflexivity.
Qed.
Lemma f2_cons : forall its t ts, Forall2 holds its (t :: ts) -> exists i r, its = i :: r /\ holds i t /\ Forall2 holds r ts.
Proof. intros its t ts F. inversion F; subst. eexists; eexists; eauto. Qed.
Lemma Forall2_map : forall A B C (R : B -> C -> Prop) (f : A -> B) (g : A -> C) l, (forall x, In x l -> R (f x) (g x)) -> Forall2 R (map f l) (map g l).
Proof. intros A B C R f g l F. induction l as [|x l IH]; cbn [map]; constructor; [apply F; left; reflexivity|apply IH; intros y Y; apply F; right; assumption]. Qed.
Lemma solidity_reads : forall g rps, Forall receipt_ok rps -> Forall (fun r => 0 <= br_index r /\ 0 <= br_height r) rps ->
  Forall (numbers_ok (fun n => zlen (num n) <= 32 /\ be_val (num n) = g n)) rps ->
  zlen (rlp_write (message_item num rps)) < 2 ^ 63 -> decodeRelayMessage junk (rlp_write (message_item num rps)) = Some (map (renumber g) rps).
Proof.
  intros g rps F P N L. pose proof (message_parts rps L) as LR. pose proof (message_item_ok rps F L) as O. unfold decodeRelayMessage, message_item in *.
  destruct (list_of_holds _ O L) as (its & -> & Hd). cbn [sbind]. destruct (f2_cons _ _ _ Hd) as (it0 & its' & -> & H0 & _). unfold at_index at 1. cbn [nth_error sbind].
  rewrite (toBytes_holds _ _ H0). cbn [sbind payload]. destruct (zlen (concat (map rlp_write (map (fun r => RBytes (rlp_write (receipt_item num r))) rps))) =? 0) eqn:Z0.
  - destruct rps as [|r rps]; [reflexivity|]. exfalso. cbn [map concat] in Z0. rewrite zlen_app in Z0. pose proof (rlp_write_pos (RBytes (rlp_write (receipt_item num r)))).
    pose proof (zlen_nonneg _ (concat (map rlp_write (map (fun r => RBytes (rlp_write (receipt_item num r))) rps)))). lia.
  - clear Z0. destruct (toList_holds _ _ H0) as (rs & -> & Hr). cbn [sbind]. refine (map_opt_holds _ _ _ _ _ _ Hr). apply Forall2_map. intros r I it Hit.
    rewrite Forall_forall in *. specialize (F r I). specialize (P r I). specialize (N r I). specialize (LR r I). rewrite (toBytes_holds _ _ Hit). cbn [sbind payload].
    pose proof (receipt_item_ok r F LR) as Or. pose proof (receipt_parts r LR) as LE. unfold decodeReceiptProof. unfold receipt_item in Or, LR |- *.
    destruct (list_of_holds _ Or LR) as (ls & -> & Hls). cbn [sbind]. destruct (f2_cons _ _ _ Hls) as (i0 & ls1 & -> & K0 & K). destruct (f2_cons _ _ _ K) as (i1 & ls2 & -> & K1 & K'). destruct (f2_cons _ _ _ K') as (i2 & ls3 & -> & K2 & _). clear K K' Hls.
    unfold at_index. cbn [nth_error sbind]. rewrite (toBytes_holds _ _ K1). cbn [sbind payload]. destruct F as (F1 & F2 & F3).
    destruct (list_of_holds _ (events_ok _ F1) LE) as (es & -> & He). cbn [sbind].
    assert (E : map_opt (fun e => toMessageEvent junk (toRlpBytes e)) es = Some (map (fun e => BEvent (be_next e) (g (be_seq e)) (be_msg e)) (br_events r))).
    { refine (map_opt_holds _ _ _ _ _ _ He). apply Forall2_map. intros e Ie ie Hie. rewrite (toRlpBytes_holds _ _ Hie). unfold numbers_ok in N. rewrite Forall_forall in F1, N.
      pose proof (event_item_ok e (F1 e Ie)) as Oe. destruct Hie as (_ & Le & _). unfold toMessageEvent, event_item in *.
      destruct (list_of_holds _ Oe Le) as (le & -> & Hle). cbn [sbind]. destruct (f2_cons _ _ _ Hle) as (e0 & l1 & -> & J0 & J). destruct (f2_cons _ _ _ J) as (e1 & l2 & -> & J1 & J'). destruct (f2_cons _ _ _ J') as (e2 & l3 & -> & J2 & _).
      unfold at_index. cbn [nth_error sbind]. rewrite (toBytes_holds _ _ J0). cbn [sbind payload]. destruct (N e Ie) as [N1 N2].
      destruct (C60_item_read _ _ J1) as (_ & _ & _ & _ & _ & _ & U & _). rewrite (U N1), N2. cbn [sbind]. rewrite (toBytes_holds _ _ J2). reflexivity. }
    rewrite E. cbn [sbind]. destruct P as [P1 P2]. unfold fits_int in F2. rewrite (proj1 (C60_numbers_read _ _) K0) by lia. cbn [sbind]. rewrite (proj1 (C60_numbers_read _ _) K2) by lia. reflexivity.
Qed.
End Num.

(** ** The encoders write the trees *)
Lemma icon_written : forall rp, receipt_ok rp -> numbers_ok (fun n => - 2 ^ 63 <= n < 2 ^ 63) rp -> icon_payload rp = rlp_write (message_item BigIntToBytes [rp]).
Proof.
  intros rp (F1 & F2 & F3) N. unfold fits_int in F2. unfold icon_payload.
  assert (E : MarshalToBytes (VSlice (Some (map event_val (br_events rp)))) = rlp_write (RList (map (event_item BigIntToBytes) (br_events rp)))).
  { unfold MarshalToBytes. cbn [encodeValue rlp_write]. f_equal. f_equal. rewrite !map_map. apply map_ext_in. intros e I. unfold numbers_ok in N. rewrite Forall_forall in N.
    unfold event_val, event_item. cbn [encodeValue map concat rlp_write]. f_equal. f_equal. f_equal. change (write_int (be_seq e)) with (encodeValue (VInt (be_seq e))). rewrite enc_int by (apply N; assumption). reflexivity. }
  rewrite E. set (eb := rlp_write (RList (map (event_item BigIntToBytes) (br_events rp)))).
  assert (R : MarshalToBytes (receipt_val (br_index rp) eb (br_height rp)) = rlp_write (receipt_item BigIntToBytes rp)).
  { unfold MarshalToBytes, receipt_val, receipt_item. cbn [encodeValue map concat]. change (write_int ?z) with (encodeValue (VInt z)). rewrite !enc_int by lia. reflexivity. }
  rewrite R. reflexivity.
Qed.
Lemma eth_receipts_written : forall rps l, Forall receipt_ok rps -> eth_receipts rps = Some l ->
  l = map (fun r => rlp_write (receipt_item big_bytes r)) (filter has_events rps) /\ Forall (numbers_ok (fun n => 0 <= n)) rps.
Proof.
  induction rps as [|r rps IH]; intros l F E; cbn [eth_receipts filter] in *; [injection E as <-; split; [reflexivity|constructor]|]. inversion F as [|? ? Fr F']; subst.
  unfold has_events at 1. destruct (br_events r) as [|e evs] eqn:EV.
  - destruct (IH l F' E) as [I1 I2]. split; [assumption|]. constructor; [|assumption]. unfold numbers_ok. rewrite EV. constructor.
  - rewrite <- EV in *. unfold eth_events in E. destruct (forallb (fun e => 0 <=? be_seq e) (br_events r)) eqn:P; [|discriminate]. destruct (eth_receipts rps) as [l'|]; [|discriminate].
    injection E as <-. destruct (IH l' F' eq_refl) as [-> I2]. cbn [map]. split.
    + f_equal. destruct Fr as (F1 & F2 & F3). unfold fits_int in F2. unfold MarshalToBytes, receipt_val, receipt_item. cbn [encodeValue map concat]. change (write_int ?z) with (encodeValue (VInt z)). rewrite !enc_int by lia. reflexivity.
    + constructor; [|assumption]. unfold numbers_ok. rewrite forallb_forall in P. rewrite Forall_forall. intros x I. specialize (P x I). lia.
Qed.
Lemma eth_written : forall rps b, Forall receipt_ok rps -> eth_payload rps = Some b ->
  b = rlp_write (message_item big_bytes (filter has_events rps)) /\ Forall (numbers_ok (fun n => 0 <= n)) rps.
Proof.
  intros rps b F E. unfold eth_payload in E. destruct (eth_receipts rps) as [l|] eqn:R; [|discriminate]. injection E as <-. destruct (eth_receipts_written _ _ F R) as [-> N]. split; [|assumption].
  unfold MarshalToBytes, message_val, message_item. cbn [encodeValue map concat rlp_write]. rewrite !app_nil_r. do 3 f_equal. rewrite !map_map. reflexivity.
Qed.
Lemma renumber_id : forall rps, map (renumber (fun n => n)) rps = rps.
Proof.
  intros rps. rewrite <- (map_id rps) at 2. apply map_ext. intros [i evs h]. unfold renumber. cbn [br_index br_events br_height]. f_equal. rewrite <- (map_id evs) at 2. apply map_ext. intros [n q m]. reflexivity.
Qed.
Lemma big_ok' : forall z, bytes_ok (BigIntToBytes z).
Proof. intros z. apply big_ok. Qed.
Lemma tc_unsigned : forall n, 0 <= n -> be_val (BigIntToBytes n) = n.
Proof.
  intros n R. destruct (BigIntToBytes_shortest n) as (S1 & S2 & S3 & S4). destruct (BigIntToBytes n) as [|b bs] eqn:E; [congruence|]. rewrite <- S3. rewrite tc_value_cons in *.
  pose proof (be_val_bound _ S2) as B. change (length (b :: bs)) with (S (length bs)) in B. destruct (b <? 128); lia.
Qed.
Lemma Forall_filter : forall A (P : A -> Prop) f l, Forall P l -> Forall P (filter f l).
Proof. intros A P f l F. rewrite Forall_forall in *. intros x I. apply filter_In in I as [I _]. auto. Qed.

Lemma one : forall A (P : A -> Prop) x, P x -> Forall P [x].
Proof. intros A P x H. constructor; [assumption|constructor]. Qed.

(** ICON to ICON-side contract: the Java verifier reads the receipt the ICON relay wrote. *)
Theorem C63_icon_to_java : forall rp, receipt_ok rp -> numbers_ok (fun n => - 2 ^ 63 <= n < 2 ^ 63) rp -> zlen (icon_payload rp) < 2 ^ 63 ->
  fromBytes readBridgeMessage (icon_payload rp) = Some [rp].
Proof.
  intros rp F N L. rewrite icon_written in * by assumption. rewrite (java_reads BigIntToBytes big_ok' (fun n => n)); [rewrite renumber_id; reflexivity|apply one; assumption| |assumption].
  constructor; [|constructor]. revert N. apply Forall_impl. intros e _. destruct (BigIntToBytes_shortest (be_seq e)) as (S1 & _ & S3 & _). auto.
Qed.
Print Assumptions C63_icon_to_java.

(** The Solidity verifier reads it too, if no number is negative, whatever lies in memory behind. *)
Theorem C63_icon_to_solidity : forall junk rp, (forall b, mem_ok (junk b)) -> receipt_ok rp -> 0 <= br_index rp -> 0 <= br_height rp ->
  numbers_ok (fun n => 0 <= n < 2 ^ 63) rp -> zlen (icon_payload rp) < 2 ^ 63 -> decodeRelayMessage junk (icon_payload rp) = Some [rp].
Proof.
  intros junk rp J F I H N L.
  assert (N' : numbers_ok (fun n => - 2 ^ 63 <= n < 2 ^ 63) rp) by (revert N; apply Forall_impl; intros; lia).
  rewrite icon_written in * by assumption. rewrite (solidity_reads BigIntToBytes big_ok' junk J (fun n => n)); [rewrite renumber_id; reflexivity|apply one; assumption|apply one; auto| |assumption].
  constructor; [|constructor]. revert N. apply Forall_impl. intros e R. split; [apply tc_small; lia|apply tc_unsigned; lia].
Qed.
Print Assumptions C63_icon_to_solidity.

(** What the Ethereum relay writes, the Solidity verifier reads: receipts without events are left out. *)
Theorem C63_eth_to_solidity : forall junk rps b, (forall b, mem_ok (junk b)) -> Forall receipt_ok rps -> Forall (fun r => 0 <= br_index r /\ 0 <= br_height r) rps ->
  Forall (numbers_ok (fun n => n < 2 ^ 256)) rps -> eth_payload rps = Some b -> zlen b < 2 ^ 63 -> decodeRelayMessage junk b = Some (filter has_events rps).
Proof.
  intros junk rps b J F P N E L. destruct (eth_written _ _ F E) as [-> N0]. rewrite (solidity_reads big_bytes big_bytes_ok junk J (fun n => n)); [rewrite renumber_id; reflexivity|apply Forall_filter; assumption|apply Forall_filter; assumption| |assumption].
  apply Forall_filter. rewrite Forall_forall in N, N0 |- *. intros r I. specialize (N r I). specialize (N0 r I). unfold numbers_ok in *. rewrite Forall_forall in *. intros e Ie. specialize (N e Ie). specialize (N0 e Ie).
  cbv beta in *. split; [|rewrite be_val_big_bytes; lia]. assert (K : (big_nbytes (be_seq e) <= 32)%nat) by (apply big_nbytes_le_iff; change (256 ^ Z.of_nat 32) with (2 ^ 256); lia).
  unfold zlen. rewrite big_bytes_length. lia.
Qed.
Print Assumptions C63_eth_to_solidity.

Lemma misread_bytes : forall n, 0 < n -> tc_value (big_bytes n) = misread n /\ big_bytes n <> [].
Proof.
  intros n P. pose proof (big_bytes_ok n) as O. pose proof (be_val_big_bytes n) as V. pose proof (big_bytes_length n) as L.
  assert (K : Z.of_nat (big_nbytes n) = Z.log2 n / 8 + 1).
  { unfold big_nbytes, bit_len. replace (n =? 0) with false by lia. rewrite Z.abs_eq by lia. rewrite Z2Nat.id by (apply Z.div_pos; pose proof (Z.log2_nonneg n); lia).
    replace (Z.log2 n + 1 + 7) with (Z.log2 n + 1 * 8) by lia. apply Z.div_add. lia. }
  split; [|intros Z0; rewrite Z0 in V; cbn in V; lia]. unfold misread. rewrite <- K, <- L. destruct (big_bytes n) as [|b bs] eqn:E; [cbn in V; lia|].
  rewrite tc_value_cons, V, Z.abs_eq by lia. pose proof (head_half b bs O) as HH. rewrite V, Z.abs_eq in HH by lia. change (length (b :: bs)) with (S (length bs)). rewrite pow256_2.
  destruct (n <? 2 ^ (8 * Z.of_nat (S (length bs)) - 1)) eqn:C; [replace (b <? 128) with true by lia; lia|replace (b <? 128) with false by lia; reflexivity].
Qed.
Lemma misread_cases : forall n, 0 < n -> (misread n = n /\ exists k, 1 <= k /\ 2 ^ (8 * (k - 1)) <= n < 2 ^ (8 * k - 1)) \/ (misread n < 0 /\ exists k, 1 <= k /\ 2 ^ (8 * k - 1) <= n < 2 ^ (8 * k) /\ misread n = n - 2 ^ (8 * k)).
Proof.
  intros n P. unfold misread. set (k := Z.log2 n / 8 + 1). pose proof (Z.log2_nonneg n). pose proof (Z.log2_spec n P) as [L1 L2].
  pose proof (Z.div_mod (Z.log2 n) 8 ltac:(lia)) as D. pose proof (Z.mod_pos_bound (Z.log2 n) 8 ltac:(lia)) as M. assert (K : 1 <= k) by (unfold k; pose proof (Z.div_pos (Z.log2 n) 8); lia).
  assert (B1 : 2 ^ (8 * (k - 1)) <= 2 ^ Z.log2 n) by (apply Z.pow_le_mono_r; unfold k; lia). assert (B2 : 2 ^ Z.succ (Z.log2 n) <= 2 ^ (8 * k)) by (apply Z.pow_le_mono_r; unfold k; lia).
  destruct (n <? 2 ^ (8 * k - 1)) eqn:C; [left; split; [reflexivity|]; exists k; lia|right; split; [lia|]; exists k; lia].
Qed.
(** But the Java verifier takes the numbers of an Ethereum relay for two's complement: a number whose leading bit is set is
    read as a negative one. *)
Theorem C63_eth_to_java_refuted : forall rps b, Forall receipt_ok rps -> Forall (numbers_ok (fun n => 0 < n)) rps ->
  eth_payload rps = Some b -> zlen b < 2 ^ 63 -> fromBytes readBridgeMessage b = Some (map (renumber misread) (filter has_events rps)).
Proof.
  intros rps b F N E L. destruct (eth_written _ _ F E) as [-> _]. apply (java_reads big_bytes big_bytes_ok misread); [apply Forall_filter; assumption| |assumption].
  apply Forall_filter. revert N. apply Forall_impl. intros r. apply Forall_impl. intros e P. destruct (misread_bytes _ P) as [M1 M2]. auto.
Qed.
Print Assumptions C63_eth_to_java_refuted.
Theorem C63_when_misread : forall n, 0 < n ->
  (misread n = n <-> exists k, 1 <= k /\ 2 ^ (8 * (k - 1)) <= n < 2 ^ (8 * k - 1)) /\ (misread n <> n -> misread n < 0).
Proof.
  intros n P. destruct (misread_cases n P) as [[E X]|[E (k & K & R & D)]].
  - split; [split; auto|]. intros N. congruence.
  - split; [|auto]. split; [lia|]. intros (j & J & R'). exfalso. assert (C : j < k \/ j = k \/ k < j) by lia. destruct C as [C|[->|C]]; [|lia|].
    + pose proof (Z.pow_le_mono_r 2 (8 * j - 1) (8 * k - 1) ltac:(lia) ltac:(lia)). lia.
    + pose proof (Z.pow_le_mono_r 2 (8 * k) (8 * (j - 1)) ltac:(lia) ltac:(lia)). lia.
Qed.
Print Assumptions C63_when_misread.
(** So the link from an Ethereum chain stops for good at message 128: whatever receipts the relay sends once 127 messages
    have arrived, the contract hands over none. *)
Lemma misread_not_128 : forall n, 0 < n -> misread n <> 128.
Proof.
  intros n P E. destruct (misread_cases n P) as [[E' (k & K & R)]|[N _]]; [|lia]. assert (X : n = 128) by lia. subst n. clear -E. vm_compute in E. discriminate.
Qed.
Theorem C63_eth_link_stops_refuted : forall rps b, Forall receipt_ok rps -> Forall (numbers_ok (fun n => 0 < n)) rps -> eth_payload rps = Some b -> zlen b < 2 ^ 63 ->
  forall addr_of st caller bmc prev st' ret, j_bridge_handle addr_of st caller bmc prev 127 b = Some (st', ret) -> ret = [].
Proof.
  intros rps b F N E L addr_of st caller bmc prev st' ret Hd. apply C62_java_handles_exactly in Hd as (cur & from & rps' & ms & _ & _ & _ & _ & _ & R & T & _ & ->).
  rewrite (C63_eth_to_java_refuted rps b F N E L) in R. injection R as <-. change (127 + 1) with 128 in T. destruct ms as [|m ms]; [reflexivity|exfalso].
  destruct (takes_picked _ _ _ _ T) as (p & W & _ & NB & _). cbn [length numbers] in NB. destruct p as [|e p]; [discriminate|]. injection NB as NB _.
  assert (I : In e (seen (jb_height st) (map (renumber misread) (filter has_events rps)))) by (eapply within_In; [exact W|left; reflexivity]).
  assert (SI : forall h l x, In x (seen h l) -> exists r, In r l /\ In x (br_events r)).
  { clear. intros h l. revert h. induction l as [|r l IH]; intros h x I; [contradiction|]. cbn [seen] in I. apply in_app_or in I as [I|I].
    - destruct (br_height r <? h); [contradiction|]. exists r. split; [left; reflexivity|assumption].
    - destruct (IH _ _ I) as (r' & R1 & R2). exists r'. split; [right; assumption|assumption]. }
  apply SI in I as (r & Ir & Ie). apply in_map_iff in Ir as (r0 & <- & Ir). apply filter_In in Ir as [Ir _]. cbn [renumber br_events] in Ie. apply in_map_iff in Ie as (e0 & <- & Ie).
  cbn [be_seq] in NB. rewrite Forall_forall in N. specialize (N r0 Ir). unfold numbers_ok in N. rewrite Forall_forall in N. exact (misread_not_128 _ (N e0 Ie) NB).
Qed.
Print Assumptions C63_eth_link_stops_refuted.

(** End to end from ICON to the Solidity verifier: the relay's message with the next run of events is handed over completely. *)
Theorem C63_icon_to_solidity_end_to_end : forall H junk b sender bmc prev seq rp cnet cacc fnet facc, (forall x, mem_ok (junk x)) ->
  receipt_ok rp -> 0 <= br_index rp -> 0 <= br_height rp -> numbers_ok (fun n => 0 <= n < 2 ^ 63) rp -> zlen (icon_payload rp) < 2 ^ 63 ->
  parseBTPAddress bmc = Some (cnet, cacc) -> account_text cacc (sb_bmc b) -> sender = sb_bmc b ->
  parseBTPAddress prev = Some (fnet, facc) -> sb_net b = fnet ->
  0 <= seq -> sb_height b <= br_height rp -> map be_seq (br_events rp) = numbers (seq + 1) (length (br_events rp)) -> Forall (fun e => be_next e = bmc) (br_events rp) ->
  br_events rp <> [] ->
  s_bridge_handle H junk b sender bmc prev seq (buildBridgeMessage [BBlock; BProof (icon_payload rp)]) =
    Some (SBridge (sb_bmc b) (sb_net b) (br_height rp), map be_msg (br_events rp)).
Proof.
  intros H junk b sender bmc prev seq rp cnet cacc fnet facc J F I Hh N L P1 A S P2 NE SQ HT NB MI NN. cbn [buildBridgeMessage].
  assert (B : seq + Z.of_nat (length (br_events rp)) < 2 ^ 63).
  { assert (In (seq + Z.of_nat (length (br_events rp))) (map be_seq (br_events rp))) as X.
    { rewrite NB. apply numbers_In. destruct (br_events rp); [congruence|]. cbn [length]. lia. }
    apply in_map_iff in X as (e & X & Ie). unfold numbers_ok in N. rewrite Forall_forall in N. specialize (N e Ie). cbv beta in N. lia. }
  apply C62_solidity_handles_exactly; [lia|]. exists cnet, cacc, fnet, facc, [rp]. cbn [seen top_height fold_right]. rewrite app_nil_r. replace (br_height rp <? sb_height b) with false by lia.
  replace (Z.max (br_height rp) (sb_height b)) with (br_height rp) by lia. unfold zlen. rewrite map_length.
  repeat split; try assumption; try congruence; try lia; [apply C63_icon_to_solidity; assumption|].
  apply takes_run; [assumption|]. revert MI. apply Forall_impl. intros e ->. reflexivity.
Qed.
Print Assumptions C63_icon_to_solidity_end_to_end.

(** Of several message proofs in one relay message only the first is sent. *)
Theorem C63_first_proof_only_refuted : forall p l, buildBridgeMessage (BProof p :: l) = buildBridgeMessage [BProof p].
Proof. reflexivity. Qed.
Print Assumptions C63_first_proof_only_refuted.

Definition ex_rp : breceipt := BReceipt 3 [BEvent (str "btp://a/b") 200 [1; 2]; BEvent (str "btp://a/b") 201 []] 70000.
Example C63_ex_ok : receipt_ok ex_rp /\ numbers_ok (fun n => 0 < n < 2 ^ 63) ex_rp.
Proof. unfold receipt_ok, numbers_ok, event_ok, fits_int, bytes_ok, ex_rp. cbn. repeat split; repeat constructor; cbn; lia. Qed.
Example C63_ex_read : fromBytes readBridgeMessage (icon_payload ex_rp) = Some [ex_rp] /\ decodeRelayMessage (fun _ _ => 7) (icon_payload ex_rp) = Some [ex_rp] /\
  option_map (decodeRelayMessage (fun _ _ => 7)) (eth_payload [ex_rp]) = Some (Some [ex_rp]) /\
  option_map (fromBytes readBridgeMessage) (eth_payload [ex_rp]) = Some (Some [renumber (fun n => n - 256) ex_rp]).
Proof. vm_compute. repeat split. Qed.
