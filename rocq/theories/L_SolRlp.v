(** Lemmas for the Solidity RLP libraries. *)
From Coq Require Import String Ascii ZArith List Bool Lia.
From Coq Require Import ZifyBool.
From Verif Require Import Base L_Base M_IntConv S_IntConv L_IntConv M_Rlp S_Rlp L_Rlp M_SolRlp S_SolRlp.
Import ListNotations.
Open Scope Z_scope.

(** ** Memory *)
Lemma placed_app : forall m p a b, placed m p (a ++ b) <-> placed m p a /\ placed m (p + zlen a) b.
Proof.
  intros m p a b. unfold placed, zlen. split.
  - intros P. split; intros i x E.
    + apply P. rewrite nth_error_app1; [assumption|]. apply nth_error_Some. congruence.
    + replace (p + Z.of_nat (length a) + Z.of_nat i) with (p + Z.of_nat (length a + i)%nat) by lia. apply P.
      rewrite nth_error_app2 by lia. replace (length a + i - length a)%nat with i by lia. assumption.
  - intros [P1 P2] i x E. destruct (Nat.lt_ge_cases i (length a)) as [L|L].
    + apply P1. rewrite nth_error_app1 in E by assumption. assumption.
    + replace (p + Z.of_nat i) with (p + Z.of_nat (length a) + Z.of_nat (i - length a)%nat) by lia. apply P2.
      rewrite nth_error_app2 in E by assumption. assumption.
Qed.
Lemma placed_cons : forall m p x b, placed m p (x :: b) <-> m p = x /\ placed m (p + 1) b.
Proof.
  intros m p x b. change (x :: b) with ([x] ++ b). rewrite placed_app. change (zlen [x]) with 1. split; intros [H1 H2]; split; try assumption.
  - specialize (H1 0%nat x eq_refl). rewrite Z.add_0_r in H1. assumption.
  - intros [|i] y E; cbn in E; [|destruct i; discriminate]. rewrite Z.add_0_r. congruence.
Qed.
Lemma map_seq_shift : forall (f : nat -> Z) n s, map f (seq (S s) n) = map (fun i => f (S i)) (seq s n).
Proof. intros f n s. rewrite <- seq_shift, map_map. reflexivity. Qed.
Lemma bytes_of_placed : forall b m p, placed m p b -> bytes_of m p (zlen b) = b.
Proof.
  intros b. unfold bytes_of, zlen. induction b as [|x b IH]; intros m p P; [reflexivity|].
  rewrite Nat2Z.id in *. cbn [length seq map]. apply placed_cons in P as [P1 P2]. rewrite Z.add_0_r, P1. f_equal.
  rewrite map_seq_shift. specialize (IH m (p + 1) P2). rewrite <- IH at 2. apply map_ext. intros i. f_equal. lia.
Qed.
Lemma bytes_of_split : forall m p a b, 0 <= a -> 0 <= b -> bytes_of m p (a + b) = bytes_of m p a ++ bytes_of m (p + a) b.
Proof.
  intros m p a b A B. unfold bytes_of. rewrite Z2Nat.inj_add by assumption. rewrite seq_app, map_app. f_equal. cbn [Nat.add].
  rewrite <- (Nat.add_0_r (Z.to_nat a)) at 1. generalize (Z.to_nat b) as n. intros n.
  assert (G : forall s, map (fun i : nat => m (p + Z.of_nat i)) (seq (Z.to_nat a + s) n) = map (fun i : nat => m (p + a + Z.of_nat i)) (seq s n)).
  { induction n as [|n IH]; intros s; [reflexivity|]. cbn [seq map]. rewrite <- IH. replace (S (Z.to_nat a + s))%nat with (Z.to_nat a + S s)%nat by lia. f_equal. f_equal. lia. }
  apply G.
Qed.
Lemma bytes_of_ok : forall m p n, mem_ok m -> bytes_ok (bytes_of m p n).
Proof. intros m p n M. unfold bytes_of, bytes_ok. apply Forall_map, Forall_forall. intros i _. apply M. Qed.
Lemma bytes_of_len : forall m p n, 0 <= n -> zlen (bytes_of m p n) = n.
Proof. intros m p n N. unfold bytes_of, zlen. rewrite map_length, seq_length. lia. Qed.
Lemma exp_256 : forall n, 0 <= n < 32 -> evm_exp 256 n = 256 ^ n.
Proof.
  intros n N. unfold evm_exp. apply Z.mod_small. split; [apply Z.pow_nonneg; lia|]. rewrite pow256_2.
  apply Z.pow_lt_mono_r; lia.
Qed.
Lemma shifted_placed : forall m p b, mem_ok m -> placed m p b -> zlen b <= 32 -> shifted m p (zlen b) = be_val b.
Proof.
  intros m p b M P L. pose proof (zlen_nonneg _ b) as N. unfold shifted, mload.
  replace 32 with (zlen b + (32 - zlen b)) at 1 by lia. rewrite bytes_of_split by lia. rewrite bytes_of_placed by assumption.
  rewrite be_val_app. pose proof (be_val_bound _ (bytes_of_ok m (p + zlen b) (32 - zlen b) M)) as B.
  pose proof (bytes_of_len m (p + zlen b) (32 - zlen b) ltac:(lia)) as E. unfold zlen in E at 1. rewrite E in *.
  destruct (Z.eq_dec (zlen b) 0) as [E0|E0].
  - destruct b; [|rewrite zlen_cons in E0; pose proof (zlen_nonneg _ b); lia]. reflexivity.
  - rewrite exp_256 by lia. unfold evm_div. replace (256 ^ (32 - zlen b) =? 0) with false by lia.
    rewrite Z.mul_comm. symmetry. apply Z.div_unique with (r := be_val (bytes_of m (p + zlen b) (32 - zlen b))); lia.
Qed.
Lemma mload_placed : forall m p b, placed m p b -> zlen b = 32 -> mload m p = be_val b.
Proof. intros m p b P L. unfold mload. rewrite <- L, bytes_of_placed by assumption. reflexivity. Qed.

(** ** Headers *)
Definition payload (t : rlp) : list Z := match t with RNull => [] | RBytes b => b | RList l => concat (map rlp_write l) end.
Definition off_of (t : rlp) : Z := zlen (rlp_write t) - zlen (payload t).

Lemma header_short : forall m p n off, off = 128 \/ off = 192 -> 0 <= n <= 55 -> m p = off + n ->
  itemLength m p = 1 + n /\ payloadOffset m p = 1.
Proof.
  intros m p n off O N E. unfold itemLength, payloadOffset. rewrite E. destruct O as [-> | ->].
  - replace (128 + n <? 128) with false by lia. replace (128 + n <? 184) with true by lia. cbn [orb]. lia.
  - replace (192 + n <? 128) with false by lia. replace (192 + n <? 184) with false by lia. replace (192 + n <? 192) with false by lia.
    replace (192 + n <? 248) with true by lia. replace (192 <=? 192 + n) with true by lia. cbn [orb andb]. lia.
Qed.
Lemma header_long : forall m p sz off, off = 183 \/ off = 247 -> 1 <= zlen sz <= 8 -> mem_ok m -> placed m p (off + zlen sz :: sz) ->
  itemLength m p = be_val sz + (zlen sz + 1) /\ payloadOffset m p = zlen sz + 1.
Proof.
  intros m p sz off O N M P. apply placed_cons in P as [P1 P2]. unfold itemLength, payloadOffset. rewrite P1.
  destruct O as [-> | ->].
  - replace (183 + zlen sz <? 128) with false by lia. replace (183 + zlen sz <? 184) with false by lia. replace (183 + zlen sz <? 192) with true by lia.
    replace (192 <=? 183 + zlen sz) with false by lia. cbn [orb andb]. replace (183 + zlen sz - 183) with (zlen sz) by lia.
    rewrite shifted_placed by (assumption || lia). lia.
  - replace (247 + zlen sz <? 128) with false by lia. replace (247 + zlen sz <? 184) with false by lia. replace (247 + zlen sz <? 192) with false by lia.
    replace (247 + zlen sz <? 248) with false by lia. rewrite andb_false_r. cbn [orb]. replace (247 + zlen sz - 247) with (zlen sz) by lia.
    rewrite shifted_placed by (assumption || lia). lia.
Qed.
Lemma item_at : forall t m p, rlp_ok t -> zlen (rlp_write t) < 2 ^ 63 -> mem_ok m -> placed m p (rlp_write t) ->
  itemLength m p = zlen (rlp_write t) /\ payloadOffset m p = off_of t /\ 0 <= off_of t /\ placed m (p + off_of t) (payload t) /\
  (m p <? 192) = (match t with RBytes _ => true | _ => false end) /\ (match t with RBytes _ => True | _ => 1 <= off_of t end).
Proof.
  intros t m p O L M P. unfold off_of. destruct t as [|b|l].
  - cbn [rlp_write payload] in *. change (zlen writeNull) with 2. change (zlen (@nil Z)) with 0.
    destruct (header_long m p [0] 247 (or_intror eq_refl) ltac:(cbn; lia) M P) as [E1 E2]. rewrite E1, E2.
    apply placed_cons in P as [P1 _]. rewrite P1. repeat split; cbn; try lia. intros i x Hx. destruct i; discriminate.
  - cbn [rlp_write payload rlp_ok] in *. assert (Lb : zlen b < 2 ^ 63) by (pose proof (writeBytes_len b); lia).
    destruct (writeBytes_header b O Lb) as [(x & -> & Hx & E)|(_ & h & E & _ & Hs & Hb)]; rewrite E in *.
    + rewrite Z.sub_diag, Z.add_0_r. pose proof P as Q. apply placed_cons in Q as [Q _]. unfold itemLength, payloadOffset. rewrite Q.
      replace (x <? 128) with true by lia. change (zlen [x]) with 1. repeat split; try assumption; lia.
    + rewrite zlen_app. replace (zlen h + zlen b - zlen b) with (zlen h) by lia. apply placed_app in P as [P1 P2]. pose proof (zlen_nonneg _ b).
      destruct (Z.le_gt_cases (zlen b) 55) as [HL|HL].
      * rewrite (Hs HL) in *. change (zlen [128 + zlen b]) with 1 in *. pose proof P1 as Q. apply placed_cons in Q as [Q _].
        destruct (header_short m p (zlen b) 128 (or_introl eq_refl) ltac:(lia) Q) as [E1 E2]. rewrite E1, E2, Q. repeat split; try assumption; lia.
      * rewrite (Hb ltac:(lia)) in *. destruct (sizeToBytes_spec (zlen b) ltac:(lia)) as ((_ & S1 & _) & S2 & _).
        destruct (header_long m p _ 183 (or_introl eq_refl) S2 M P1) as [E1 E2]. rewrite E1, E2, S1. rewrite zlen_cons in *. apply placed_cons in P1 as [P1 _].
        rewrite P1. repeat split; try assumption; lia.
  - cbn [rlp_write payload] in *. set (body := concat (map rlp_write l)) in *. assert (Lb : zlen body < 2 ^ 63) by (pose proof (writeList_len body); lia).
    destruct (writeList_header body Lb) as (h & E & _ & Hs & Hb); rewrite E in *.
    rewrite zlen_app. replace (zlen h + zlen body - zlen body) with (zlen h) by lia. apply placed_app in P as [P1 P2]. pose proof (zlen_nonneg _ body).
    destruct (Z.le_gt_cases (zlen body) 55) as [HL|HL].
    + rewrite (Hs HL) in *. change (zlen [192 + zlen body]) with 1 in *. pose proof P1 as Q. apply placed_cons in Q as [Q _].
      destruct (header_short m p (zlen body) 192 (or_intror eq_refl) ltac:(lia) Q) as [E1 E2]. rewrite E1, E2, Q. repeat split; try assumption; lia.
    + rewrite (Hb ltac:(lia)) in *. destruct (sizeToBytes_spec (zlen body) ltac:(lia)) as ((_ & S1 & _) & S2 & _).
      destruct (header_long m p _ 247 (or_intror eq_refl) S2 M P1) as [E1 E2]. rewrite E1, E2, S1. rewrite zlen_cons in *. apply placed_cons in P1 as [P1 _].
      rewrite P1. repeat split; try assumption; lia.
Qed.

(** ** Reading *)
Lemma toRlpItem_holds : forall junk t, (forall b, mem_ok (junk b)) -> rlp_ok t -> zlen (rlp_write t) < 2 ^ 63 -> bytes_ok (rlp_write t) ->
  holds (toRlpItem junk (rlp_write t)) t.
Proof.
  intros junk t J O L B. set (enc := rlp_write t) in *. unfold holds, toRlpItem. cbn [i_len i_mem]. fold enc. repeat split; try assumption; try lia.
  - intros i x E. rewrite Z.add_0_l. assert (Hi : (i < length enc)%nat) by (apply nth_error_Some; congruence).
    unfold zlen. replace (Z.of_nat i <? Z.of_nat (length enc)) with true by lia. rewrite Nat2Z.id. apply nth_error_nth. assumption.
  - destruct (i <? zlen enc) eqn:E; [|apply J].
    destruct (Nat.lt_ge_cases (Z.to_nat i) (length enc)) as [K|K]; [|rewrite nth_overflow by assumption; lia].
    apply (Forall_nth is_byte enc); assumption.
  - destruct (i <? zlen enc) eqn:E; [|apply J].
    destruct (Nat.lt_ge_cases (Z.to_nat i) (length enc)) as [K|K]; [|rewrite nth_overflow by assumption; lia].
    apply (Forall_nth is_byte enc); assumption.
Qed.
Lemma holds_at : forall it t, holds it t -> itemLength (i_mem it) 0 = i_len it /\ payloadOffset (i_mem it) 0 = off_of t /\ 0 <= off_of t /\
  placed (i_mem it) (off_of t) (payload t) /\ (i_mem it 0 <? 192) = (match t with RBytes _ => true | _ => false end) /\
  i_len it = off_of t + zlen (payload t) /\ 1 <= i_len it.
Proof.
  intros it t (O & L & E & P & M). destruct (item_at t (i_mem it) 0 O L M P) as (H1 & H2 & H3 & H4 & H5 & _).
  rewrite E. pose proof (rlp_write_pos t). unfold off_of in *. rewrite Z.add_0_l in H4. repeat split; try assumption; lia.
Qed.
Lemma toBytes_holds : forall it t, holds it t -> toBytes it = Some (payload t).
Proof.
  intros it t Hd. destruct (holds_at it t Hd) as (_ & E & N & P & _ & L & L1). unfold toBytes, require, csub. pose proof (zlen_nonneg _ (payload t)).
  replace (0 <? i_len it) with true by lia. cbn [sbind]. rewrite E. replace (i_len it <? off_of t) with false by lia. cbn [sbind].
  replace (i_len it - off_of t) with (zlen (payload t)) by lia. rewrite bytes_of_placed by assumption. reflexivity.
Qed.
Lemma payloadLen_holds : forall it t, holds it t -> payloadLen it = Some (zlen (payload t)).
Proof.
  intros it t Hd. destruct (holds_at it t Hd) as (_ & E & N & P & _ & L & L1). unfold payloadLen, csub. pose proof (zlen_nonneg _ (payload t)).
  rewrite E. replace (i_len it <? off_of t) with false by lia. f_equal. lia.
Qed.
Lemma toRlpBytes_holds : forall it t, holds it t -> toRlpBytes it = rlp_write t.
Proof. intros it t (_ & _ & E & P & _). unfold toRlpBytes. rewrite E. apply bytes_of_placed. assumption. Qed.
Lemma toUint_holds : forall it t, holds it t -> i_len it <= 33 -> zlen (payload t) <= 32 -> toUint it = Some (be_val (payload t)).
Proof.
  intros it t Hd L33 L32. destruct (holds_at it t Hd) as (_ & E & N & P & _ & L & L1). destruct Hd as (_ & _ & _ & _ & M).
  unfold toUint, require, csub. pose proof (zlen_nonneg _ (payload t)).
  replace ((0 <? i_len it) && (i_len it <=? 33)) with true by lia. cbn [sbind]. rewrite E. replace (i_len it <? off_of t) with false by lia. cbn [sbind].
  replace (i_len it - off_of t) with (zlen (payload t)) by lia. destruct (zlen (payload t) <? 32) eqn:C.
  - rewrite shifted_placed by assumption. reflexivity.
  - rewrite (mload_placed _ _ _ P) by lia. reflexivity.
Qed.
Lemma isList_holds : forall it t, holds it t -> isList it = match t with RBytes _ => false | _ => true end.
Proof.
  intros it t Hd. destruct (holds_at it t Hd) as (_ & _ & _ & _ & E & _ & L). unfold isList. replace (i_len it =? 0) with false by lia. rewrite E. destruct t; reflexivity.
Qed.
Lemma pointers_app : forall l m p fuel, Forall rlp_ok l -> Forall (fun t => zlen (rlp_write t) < 2 ^ 63) l -> mem_ok m ->
  placed m p (concat (map rlp_write l)) -> (length (concat (map rlp_write l)) <= fuel)%nat ->
  Forall2 (fun q t => holds (mkItem (itemLength m q) (fun i => m (q + i))) t) (pointers fuel m p (p + zlen (concat (map rlp_write l)))) l.
Proof.
  induction l as [|t l IH]; intros m p fuel O L M P F.
  - cbn [map concat]. change (zlen (@nil Z)) with 0. rewrite Z.add_0_r. destruct fuel; cbn [pointers]; [constructor|]. replace (p <? p) with false by lia. constructor.
  - cbn [map concat] in *. inversion O as [|? ? O1 O2]; subst. inversion L as [|? ? L1 L2]; subst. pose proof (rlp_write_pos t) as W.
    apply placed_app in P as [P1 P2]. rewrite app_length in F. rewrite zlen_app. unfold zlen in W. destruct fuel as [|fuel]; [lia|]. cbn [pointers].
    pose proof (zlen_nonneg _ (concat (map rlp_write l))). unfold zlen in *. replace (p <? _) with true by lia.
    destruct (item_at t m p O1 L1 M P1) as (E & _). constructor.
    + rewrite E. repeat split; try assumption; cbn [i_mem i_len]; try (intros i x Hx; rewrite Z.add_0_l; apply P1; assumption); apply M.
    + rewrite E. unfold zlen. rewrite Z.add_assoc. apply IH; try assumption. lia.
Qed.
Lemma toList_holds : forall it l, holds it (RList l) -> exists its, toList it = Some its /\ Forall2 holds its l.
Proof.
  intros it l Hd. destruct (holds_at it _ Hd) as (_ & E & N & P & _ & L & L1). unfold toList. rewrite (isList_holds _ _ Hd). cbn [require sbind]. rewrite E, L.
  eexists. split; [reflexivity|]. cbn [payload] in *. destruct Hd as (O & S & LE & _ & M). apply rlp_ok_in in O. destruct (small_children l S) as [_ S2].
  assert (K : Forall2 (fun q t => holds (mkItem (itemLength (i_mem it) q) (fun i => i_mem it (q + i))) t)
     (pointers (Z.to_nat (off_of (RList l) + zlen (concat (map rlp_write l)))) (i_mem it) (off_of (RList l)) (off_of (RList l) + zlen (concat (map rlp_write l)))) l).
  { apply pointers_app; try assumption. unfold zlen. lia. }
  clear - K. induction K; cbn [map]; constructor; auto.
Qed.
Lemma toList_null : forall it, holds it RNull -> toList it = Some [].
Proof.
  intros it Hd. destruct (holds_at it _ Hd) as (_ & E & N & P & _ & L & L1). unfold toList. rewrite (isList_holds _ _ Hd). cbn [require sbind]. rewrite E, L.
  cbn [payload]. change (zlen (@nil Z)) with 0. rewrite Z.add_0_r. destruct (Z.to_nat (off_of RNull)); cbn [pointers]; [reflexivity|].
  replace (off_of RNull <? off_of RNull) with false by lia. reflexivity.
Qed.
Lemma toList_bytes : forall it b, holds it (RBytes b) -> toList it = None.
Proof. intros it b Hd. unfold toList. rewrite (isList_holds _ _ Hd). reflexivity. Qed.

(** ** Writing *)
Lemma lenLen_spec : forall fuel len k, 0 < len -> (k <= big_nbytes len <= k + fuel)%nat ->
  lenLen fuel len (256 ^ Z.of_nat k) (Z.of_nat k) = Z.of_nat (big_nbytes len).
Proof.
  induction fuel as [|fuel IH]; intros len k P B; cbn [lenLen]; [f_equal; lia|]. pose proof (pow256_pos k) as PP. pose proof (big_nbytes_le_iff len k) as I.
  rewrite Z.abs_eq in I by lia. destruct (len / 256 ^ Z.of_nat k =? 0) eqn:E.
  - assert (len < 256 ^ Z.of_nat k) by (apply Z.eqb_eq, Z.div_small_iff in E; lia). f_equal. lia.
  - replace (256 ^ Z.of_nat k * 256) with (256 ^ Z.of_nat (S k)) by (rewrite pow256_S; lia). replace (Z.of_nat k + 1) with (Z.of_nat (S k)) by lia.
    apply IH; [assumption|]. destruct (Nat.eq_dec k (big_nbytes len)) as [Ek|Ek]; [|lia]. exfalso.
    assert (len < 256 ^ Z.of_nat k) by (apply I; lia). rewrite Z.div_small in E by lia. discriminate.
Qed.
Lemma digits_be_fixed : forall n x, map (fun i => (x / 256 ^ (Z.of_nat n - (Z.of_nat i + 1))) mod 256) (seq 0 n) = be_fixed n x.
Proof.
  induction n as [|n IH]; intros x; [reflexivity|]. rewrite seq_S, map_app, be_fixed_S. f_equal.
  - rewrite <- IH. apply map_ext_in. intros i Hi. apply in_seq in Hi. f_equal.
    replace (Z.of_nat (S n) - (Z.of_nat i + 1)) with (1 + (Z.of_nat n - (Z.of_nat i + 1))) by lia. rewrite Z.pow_add_r by lia. change (256 ^ 1) with 256.
    rewrite Z.div_div; [reflexivity|lia|]. apply Z.pow_pos_nonneg; lia.
  - cbn [map]. f_equal. replace (Z.of_nat (S n) - (Z.of_nat (0 + n) + 1)) with 0 by lia. rewrite Z.pow_0_r, Z.div_1_r. reflexivity.
Qed.
Lemma encodeLength_short : forall len off, 0 <= len < 56 -> encodeLength len off = [(len + off) mod 256].
Proof. intros len off L. unfold encodeLength. replace (len <? 56) with true by lia. reflexivity. Qed.
Lemma encodeLength_long : forall len off, 56 <= len < 2 ^ 63 -> encodeLength len off = (off + 55 + zlen (sizeToBytes len)) mod 256 :: sizeToBytes len.
Proof.
  intros len off L. unfold encodeLength. replace (len <? 56) with false by lia. unfold sizeToBytes. rewrite u64_small by lia. rewrite SizeToBytes_pos by lia.
  assert (B : (big_nbytes len <= 8)%nat) by (apply big_nbytes_le_iff; change (256 ^ Z.of_nat 8) with (2 ^ 64); lia).
  assert (E : lenLen 32 len 1 0 = Z.of_nat (big_nbytes len)) by (apply (lenLen_spec 32 len 0); lia).
  cbv zeta. rewrite E. unfold zlen. rewrite big_bytes_length. f_equal; [f_equal; lia|]. rewrite Nat2Z.id, digits_be_fixed.
  unfold big_bytes, big_nbytes. rewrite Z.abs_eq by lia. reflexivity.
Qed.
Lemma encodeBytes_write : forall b, zlen b < 2 ^ 63 -> b <> [128] -> encodeBytes b = writeBytes (Some b).
Proof.
  intros b L N. unfold encodeBytes, writeBytes. pose proof (zlen_nonneg _ b) as NN.
  destruct (Z.eqb_spec (zlen b) 0) as [E0|E0].
  { destruct b; [reflexivity|rewrite zlen_cons in E0; pose proof (zlen_nonneg _ b); lia]. }
  assert (EH : (zlen b =? 1) && (hd 0 b <=? 128) = (zlen b =? 1) && (hd 0 b <? 128)).
  { destruct (zlen b =? 1) eqn:E1; [|reflexivity]. destruct b as [|x [|y b]]; [discriminate| |rewrite !zlen_cons in E1; pose proof (zlen_nonneg _ b); lia].
    cbn [hd andb]. assert (x <> 128) by congruence. lia. }
  rewrite EH. destruct ((zlen b =? 1) && (hd 0 b <? 128)); [reflexivity|]. destruct (zlen b <=? 55) eqn:E.
  - rewrite encodeLength_short by lia. cbn [app]. do 2 f_equal. lia.
  - rewrite encodeLength_long by lia. reflexivity.
Qed.
Lemma encodeList_write : forall l, zlen (concat l) < 2 ^ 63 -> encodeList l = writeList (concat l).
Proof.
  intros l L. unfold encodeList, writeList. cbv zeta. pose proof (zlen_nonneg _ (concat l)) as NN.
  destruct (Z.eqb_spec (zlen (concat l)) 0) as [E0|E0].
  { destruct (concat l); [reflexivity|rewrite zlen_cons in E0; pose proof (zlen_nonneg _ l0); lia]. }
  destruct (zlen (concat l) <=? 55) eqn:E.
  - rewrite encodeLength_short by lia. cbn [app]. do 2 f_equal. lia.
  - rewrite encodeLength_long by lia. reflexivity.
Qed.
Lemma sol_write_ok : forall t, ~ has_0x80 t -> zlen (rlp_write t) < 2 ^ 63 -> sol_write t = rlp_write t.
Proof.
  induction t as [|b|l IH] using rlp_ind2; intros N L; cbn [sol_write rlp_write] in *; [reflexivity| |].
  - apply encodeBytes_write; [|exact N]. pose proof (writeBytes_len b). lia.
  - destruct (small_children l L) as [L1 L2]. assert (E : map sol_write l = map rlp_write l).
    { clear L L1. induction l as [|t l IHl]; [reflexivity|]. inversion IH as [|? ? I1 I2]; subst. inversion L2 as [|? ? K1 K2]; subst. cbn [has_0x80 fold_right] in N.
      cbn [map]. f_equal; [apply I1; tauto|]. apply IHl; try assumption. cbn [has_0x80]. tauto. }
    rewrite E. apply encodeList_write. assumption.
Qed.

(** ** Integers *)
Lemma bitLength_loop_spec : forall fuel n c, 0 <= n -> bit_len n <= Z.of_nat fuel -> bitLength_loop fuel n c = c + bit_len n.
Proof.
  induction fuel as [|fuel IH]; intros n c N B; cbn [bitLength_loop].
  - pose proof (bit_len_nonneg n). lia.
  - destruct (Z.eqb_spec n 0) as [E|E]; [subst; rewrite bit_len_0; lia|].
    assert (E1 : bit_len n = bit_len (Z.shiftr n 1) + 1).
    { rewrite Z.shiftr_div_pow2 by lia. change (2 ^ 1) with 2. unfold bit_len. replace (n =? 0) with false by lia.
      rewrite !Z.abs_eq by (try apply Z.div_pos; lia). destruct (Z.eqb_spec (n / 2) 0) as [D|D].
      - assert (n = 1) by (pose proof (Z.div_mod n 2 ltac:(lia)); pose proof (Z.mod_pos_bound n 2 ltac:(lia)); lia). subst. reflexivity.
      - assert (P : 0 < n / 2) by (pose proof (Z.div_pos n 2); lia). rewrite <- Z.div2_div. rewrite Z.div2_spec, Z.log2_shiftr by lia. pose proof (Z.log2_pos n). assert (1 < n) by (pose proof (Z.div_mod n 2 ltac:(lia)); pose proof (Z.mod_pos_bound n 2 ltac:(lia)); lia). lia. }
    rewrite IH; [lia| |lia]. apply Z.shiftr_nonneg. lia.
Qed.
Lemma uintWidth_spec : forall fuel n k, 0 <= n -> (1 <= k)%nat -> (k = 1%nat \/ 256 ^ Z.of_nat (k - 1) - 1 <= n) ->
  let w := uintWidth fuel n k in (k <= w <= k + fuel)%nat /\ (w = 1%nat \/ 256 ^ Z.of_nat (w - 1) - 1 <= n) /\
  ((w < k + fuel)%nat -> n < 256 ^ Z.of_nat w - 1).
Proof.
  induction fuel as [|fuel IH]; intros n k N K L; cbn [uintWidth]; cbv zeta.
  - split; [lia|]. split; [assumption|]. lia.
  - destruct (n <? 256 ^ Z.of_nat k - 1) eqn:E.
    + split; [lia|]. split; [assumption|]. lia.
    + destruct (IH n (S k) N ltac:(lia)) as (H1 & H2 & H3). { right. replace (S k - 1)%nat with k by lia. lia. }
      split; [lia|]. split; [assumption|]. intros Hw. apply H3. lia.
Qed.
Lemma zero_be_fixed : forall k n, 0 <= n < 256 ^ Z.of_nat k -> 0 :: be_fixed k n = be_fixed (S k) n.
Proof.
  intros k n B. apply be_val_inj.
  - apply bytes_ok_cons. split; [unfold is_byte; lia|apply be_fixed_ok].
  - apply be_fixed_ok.
  - cbn [length]. rewrite !be_fixed_length. reflexivity.
  - rewrite be_val_cons, !be_val_be_fixed. rewrite Z.mul_0_l, Z.add_0_l. rewrite pow256_S. rewrite !Z.mod_small by lia. reflexivity.
Qed.
(** Solidity's unsigned encoding is the shortest two's complement one *)
Lemma encodeUint_bytes : forall n, 0 <= n < 2 ^ 128 - 1 -> encodeUint n = Some (encodeBytes (BigIntToBytes n)).
Proof.
  intros n N. unfold encodeUint, encodeUintByLength. cbv zeta.
  destruct (uintWidth_spec 15 n 1 ltac:(lia) ltac:(lia) (or_introl eq_refl)) as (W1 & W2 & W3). set (w := uintWidth 15 n 1) in *.
  assert (W4 : n < 256 ^ Z.of_nat w - 1).
  { destruct (Nat.eq_dec w 16) as [E|E]; [rewrite E; change (256 ^ Z.of_nat 16) with (2 ^ 128); lia|apply W3; lia]. }
  assert (E : (if Nat.eqb w 16 then sbind (require (n <? 2 ^ 128 - 1)) (fun _ => Some (be_fixed 16 n)) else Some (be_fixed w n)) = Some (be_fixed w n)).
  { destruct (Nat.eqb_spec w 16) as [Ew|Ew]; [|reflexivity]. rewrite Ew. replace (n <? 2 ^ 128 - 1) with true by lia. reflexivity. }
  rewrite E. cbn [sbind]. clear E W3. unfold zlen. rewrite be_fixed_length.
  assert (BL : bitLength n = bit_len n).
  { unfold bitLength. rewrite bitLength_loop_spec; [lia|lia|]. apply bit_len_le_iff; [lia|]. rewrite Z.abs_eq by lia. change (Z.of_nat 256) with 256. lia. }
  rewrite BL. pose proof (bit_len_nonneg n) as B0. pose proof (bit_len_le_iff n (8 * Z.of_nat w) ltac:(lia)) as B1. rewrite <- pow256_2, Z.abs_eq in B1 by lia.
  assert (Bw : bit_len n <= 8 * Z.of_nat w) by (apply B1; lia).
  set (q := bit_len n / 8). pose proof (Z.div_mod (bit_len n) 8 ltac:(lia)) as D1. pose proof (Z.mod_pos_bound (bit_len n) 8 ltac:(lia)) as D2. fold q in D1.
  assert (Bl : w = 1%nat \/ 8 * (Z.of_nat w - 1) <= bit_len n).
  { destruct W2 as [W2|W2]; [left; assumption|right]. pose proof (bit_len_le_iff n (8 * (Z.of_nat w - 1) - 1)) as B2.
    destruct (Nat.eq_dec w 1) as [W5|W5]; [lia|]. specialize (B2 ltac:(lia)). destruct (Z.le_gt_cases (8 * (Z.of_nat w - 1)) (bit_len n)) as [?|G]; [assumption|exfalso].
    assert (bit_len n <= 8 * (Z.of_nat w - 1) - 1) as B3 by lia. apply B2 in B3. rewrite Z.abs_eq in B3 by lia.
    destruct w as [|[|w]]; [lia|lia|]. replace (S (S w) - 1)%nat with (S w) in W2 by lia. rewrite half_pow in W2.
    replace (8 * (Z.of_nat (S (S w)) - 1) - 1) with (8 * Z.of_nat (S w) - 1) in B3 by lia. assert (2 ^ 1 <= 2 ^ (8 * Z.of_nat (S w) - 1)) by (apply Z.pow_le_mono_r; lia). lia. }
  assert (Q : q + 1 = Z.of_nat w \/ q = Z.of_nat w) by lia. unfold csub. replace (q + 1 <? Z.of_nat w) with false by lia. cbn [sbind].
  f_equal. f_equal. assert (SH : (if 0 <? q + 1 - Z.of_nat w then 0 :: be_fixed w n else be_fixed w n) = be_fixed (S (Z.to_nat q)) n).
  { destruct Q as [Q|Q].
    - replace (0 <? q + 1 - Z.of_nat w) with false by lia. f_equal. lia.
    - replace (0 <? q + 1 - Z.of_nat w) with true by lia. rewrite zero_be_fixed by lia. f_equal. lia. }
  rewrite SH. eapply shortest_tc_unique; [|apply BigIntToBytes_shortest]. apply shortest_intro.
  - unfold fits. assert (n < 2 ^ (8 * Z.of_nat (S (Z.to_nat q)) - 1)).
    { rewrite <- (Z.abs_eq n) by lia. apply bit_len_le_iff; lia. }
    pose proof (Z.pow_nonneg 2 (8 * Z.of_nat (S (Z.to_nat q)) - 1) ltac:(lia)). lia.
  - destruct (Z.to_nat q) as [|q'] eqn:Eq; [left; reflexivity|right]. unfold fits. intros [_ F]. rewrite <- (Z.abs_eq n) in F by lia. apply bit_len_le_iff in F; lia.
Qed.
Lemma encodeUint_reverts : forall n, 2 ^ 128 - 1 <= n -> encodeUint n = None.
Proof.
  intros n N. unfold encodeUint, encodeUintByLength. cbv zeta.
  destruct (uintWidth_spec 15 n 1 ltac:(lia) ltac:(lia) (or_introl eq_refl)) as (W1 & W2 & W3). set (w := uintWidth 15 n 1) in *.
  destruct (Nat.eqb_spec w 16) as [E|E].
  - replace (n <? 2 ^ 128 - 1) with false by lia. reflexivity.
  - exfalso. assert (L : n < 256 ^ Z.of_nat w - 1) by (apply W3; lia). assert (256 ^ Z.of_nat w <= 256 ^ Z.of_nat 16) by (apply Z.pow_le_mono_r; lia).
    change (256 ^ Z.of_nat 16) with (2 ^ 128) in *. lia.
Qed.
Lemma intWidth_spec : forall fuel n k, (1 <= k)%nat -> (k = 1%nat \/ ~ fits (k - 1) n) ->
  let w := intWidth fuel n k in (k <= w <= k + fuel)%nat /\ (w = 1%nat \/ ~ fits (w - 1) n) /\ ((w < k + fuel)%nat -> fits w n).
Proof.
  induction fuel as [|fuel IH]; intros n k K L; cbn [intWidth]; cbv zeta.
  - split; [lia|]. split; [assumption|]. lia.
  - destruct ((- 2 ^ (8 * Z.of_nat k - 1) <=? n) && (n <=? 2 ^ (8 * Z.of_nat k - 1) - 1)) eqn:E.
    + split; [lia|]. split; [assumption|]. intros _. unfold fits. lia.
    + destruct (IH n (S k) ltac:(lia)) as (H1 & H2 & H3). { right. replace (S k - 1)%nat with k by lia. unfold fits. lia. }
      split; [lia|]. split; [assumption|]. intros Hw. apply H3. lia.
Qed.
Lemma intToStrictBytes_bytes : forall n, - 2 ^ 127 <= n < 2 ^ 127 -> intToStrictBytes n = Some (BigIntToBytes n).
Proof.
  intros n N. unfold intToStrictBytes. cbv zeta.
  destruct (intWidth_spec 15 n 1 ltac:(lia) (or_introl eq_refl)) as (W1 & W2 & W3). set (w := intWidth 15 n 1) in *.
  assert (W4 : fits w n). { destruct (Nat.eq_dec w 16) as [E|E]; [rewrite E; unfold fits; change (8 * Z.of_nat 16 - 1) with 127; lia|apply W3; lia]. }
  assert (E : BigIntToBytes n = be_fixed w n).
  { symmetry. eapply shortest_tc_unique; [|apply BigIntToBytes_shortest]. destruct w as [|w]; [lia|]. apply shortest_intro; [assumption|].
    replace (S w - 1)%nat with w in W2 by lia. destruct W2; [left; lia|right; assumption]. }
  rewrite E. destruct (Nat.eqb_spec w 16) as [Ew|Ew]; [|reflexivity]. rewrite Ew. replace ((- 2 ^ 127 <=? n) && (n <=? 2 ^ 127 - 1)) with true by lia. reflexivity.
Qed.
Lemma intToStrictBytes_reverts : forall n, ~ (- 2 ^ 127 <= n < 2 ^ 127) -> intToStrictBytes n = None.
Proof.
  intros n N. unfold intToStrictBytes. cbv zeta.
  destruct (intWidth_spec 15 n 1 ltac:(lia) (or_introl eq_refl)) as (W1 & W2 & W3). set (w := intWidth 15 n 1) in *.
  destruct (Nat.eqb_spec w 16) as [E|E].
  - replace ((- 2 ^ 127 <=? n) && (n <=? 2 ^ 127 - 1)) with false by lia. reflexivity.
  - exfalso. apply N. assert (F : fits w n) by (apply W3; lia). eapply (fits_mono w 16) in F; [|lia]. exact F.
Qed.
Lemma tc_bytes_len : forall n k, (1 <= k)%nat -> fits k n -> zlen (BigIntToBytes n) <= Z.of_nat k.
Proof.
  intros n k K F. destruct (BigIntToBytes_shortest n) as (_ & _ & _ & M). destruct k as [|k]; [lia|].
  specialize (M (be_fixed (S k) n)). rewrite be_fixed_length in M. unfold zlen. apply inj_le. apply M.
  - intros E. pose proof (be_fixed_length (S k) n) as L. rewrite E in L. discriminate.
  - apply be_fixed_ok.
  - apply tc_value_be_fixed. assumption.
Qed.
Lemma land_128_eq : forall b, is_byte b -> (Z.land b 128 =? 128) = negb (b <? 128).
Proof.
  intros b H. apply eqb_prop.
  apply (byte_cases (fun b => Bool.eqb (Z.land b 128 =? 128) (negb (b <? 128)))); [vm_compute; reflexivity|assumption].
Qed.
Lemma int256_small : forall z, 0 <= z < 2 ^ 255 -> int256 z = z.
Proof. intros z R. unfold int256. cbv zeta. rewrite Z.mod_small by lia. replace (z <? 2 ^ 255) with true by lia. reflexivity. Qed.
Lemma toInt_holds : forall it b, holds it (RBytes b) -> b <> [] -> zlen b <= 32 -> (zlen b = 32 -> hd 0 b < 128) -> toInt it = Some (tc_value b).
Proof.
  intros it b Hd N L H32. pose proof Hd as (O & _ & EL & _). cbn [rlp_ok] in O. unfold toInt. rewrite (toBytes_holds _ _ Hd). cbn [sbind payload].
  destruct b as [|b0 bs]; [congruence|]. cbn [at_index nth_error sbind]. pose proof O as O'. apply bytes_ok_cons in O' as [O0 _].
  rewrite land_128_eq by assumption.
  assert (L33 : i_len it <= 33).
  { rewrite EL. cbn [rlp_write]. destruct (writeBytes_header (b0 :: bs) O ltac:(lia)) as [(x & E & _ & ->)|(_ & h & -> & _ & Hs & _)]; [lia|].
    rewrite zlen_app, (Hs ltac:(lia)). change (zlen [_]) with 1. lia. }
  rewrite (toUint_holds _ _ Hd L33) by assumption. cbn [payload sbind]. pose proof (be_val_bound _ O) as B. pose proof (head_half _ _ O) as HH.
  rewrite tc_value_cons. set (n := length bs) in *. change (length (b0 :: bs)) with (S n) in B. pose proof (half_pow n) as HP.
  assert (Ln : zlen (b0 :: bs) = Z.of_nat (S n)) by reflexivity. rewrite Ln in *.
  destruct (b0 <? 128) eqn:E; cbn [negb].
  - rewrite int256_small; [f_equal; lia|]. assert (2 ^ (8 * Z.of_nat (S n) - 1) <= 2 ^ 255) by (apply Z.pow_le_mono_r; lia). lia.
  - assert (Z.of_nat (S n) <> 32) by (cbn [hd] in H32; lia). replace (8 * Z.of_nat (S n) <? 256) with true by lia. cbn [require sbind].
    assert (P : 256 ^ Z.of_nat (S n) = 2 ^ (8 * Z.of_nat (S n))) by apply pow256_2.
    assert (P2 : 2 ^ (8 * Z.of_nat (S n)) <= 2 ^ 248) by (apply Z.pow_le_mono_r; lia).
    assert (P3 : 2 ^ 248 < 2 ^ 255) by reflexivity. rewrite <- P in *. rewrite (int256_small (be_val _)) by lia. rewrite (int256_small (256 ^ _)) by lia. replace ((- 2 ^ 255 <=? _) && (_ <? 2 ^ 255)) with true by lia. reflexivity.
Qed.
