From Coq Require Import String Ascii ZArith List Bool Lia.
From Coq Require Import ZifyBool.
From Verif Require Import Base L_Base GoStr M_IntConv S_IntConv L_IntConv L_IntStr M_Address S_Address.
Import ListNotations.
Open Scope Z_scope.

(** ** hex text *)
Lemma unhex_hex_char : forall c d, unhex c = Some d -> hex_char c d.
Proof.
  intros c d. unfold unhex.
  destruct ((48 <=? c) && (c <=? 57)) eqn:E1.
  { intros [= <-]. replace c with (48 + (c - 48)) at 1 by lia. constructor; lia. }
  destruct ((97 <=? c) && (c <=? 102)) eqn:E2.
  { intros [= <-]. replace c with (97 + (c - 87 - 10)) at 1 by lia. apply hc_low; lia. }
  destruct ((65 <=? c) && (c <=? 70)) eqn:E3; [|discriminate].
  intros [= <-]. replace c with (65 + (c - 55 - 10)) at 1 by lia. apply hc_up; lia.
Qed.

Lemma hex_decode_pairs : forall s bs, hex_decode s = Some bs <-> hex_pairs s bs.
Proof.
  intros s bs; split.
  - revert bs. induction s as [|x|x y l IH] using list_pair_ind; intros bs; cbn [hex_decode].
    + intros [= <-]; constructor.
    + discriminate.
    + destruct (unhex x) eqn:E1; [|discriminate]. destruct (unhex y) eqn:E2; [|discriminate].
      destruct (hex_decode l) eqn:E3; [|discriminate]. intros [= <-].
      rewrite Z.mul_comm. constructor; auto using unhex_hex_char.
  - induction 1 as [|a b x y s bs Ha Hb H IH]; [reflexivity|]. cbn [hex_decode].
    rewrite (hex_char_unhex _ _ Ha), (hex_char_unhex _ _ Hb), IH. rewrite Z.mul_comm. reflexivity.
Qed.

Lemma hex_pairs_ok : forall s bs, hex_pairs s bs -> bytes_ok bs /\ length s = (2 * length bs)%nat.
Proof. intros s bs H. apply hex_decode_pairs in H. apply hex_decode_ok; assumption. Qed.

Lemma hex_encode_pairs : forall bs, bytes_ok bs -> hex_pairs (hex_encode bs) bs.
Proof. intros. apply hex_decode_pairs, hex_decode_encode; assumption. Qed.

Lemma hex_pairs_fun : forall s b1 b2, hex_pairs s b1 -> hex_pairs s b2 -> b1 = b2.
Proof. intros s b1 b2 H1 H2. apply hex_decode_pairs in H1, H2. congruence. Qed.

Lemma hex_pairs_no_0x : forall s bs, hex_pairs s bs -> has_prefix (str "0x") s = false.
Proof.
  intros s bs H. destruct H as [|a b x y s bs Ha Hb H]; [reflexivity|].
  cbn [str has_prefix]. apply hex_char_cases in Hb. change (ch "x") with 120.
  replace (120 =? b) with false by lia. cbn. apply andb_false_r.
Qed.

Lemma strip0x_prefix : forall s, strip0x (str "0x" ++ s) = s.
Proof. intros. unfold strip0x. rewrite has_prefix_app. reflexivity. Qed.

Lemma strip0x_pairs : forall s bs, hex_pairs s bs -> strip0x s = s.
Proof. intros s bs H. unfold strip0x. rewrite (hex_pairs_no_0x _ _ H). reflexivity. Qed.

Lemma hex_encode_inj : forall a b, bytes_ok a -> bytes_ok b -> hex_encode a = hex_encode b -> a = b.
Proof.
  intros a b Ha Hb H. apply (f_equal hex_decode) in H. rewrite !hex_decode_encode in H by assumption.
  congruence.
Qed.

Lemma hex_decode_into_ok : forall cap s bs,
  hex_decode_into cap s = Ok bs <-> hex_pairs s bs /\ (length bs <= cap)%nat.
Proof.
  intros cap s. revert cap. induction s as [|x|x y l IH] using list_pair_ind; intros cap bs; cbn [hex_decode_into].
  - split; [intros [= <-]; split; [constructor|cbn; lia] | intros [H _]; inversion H; reflexivity].
  - split; [discriminate|]. intros [H _]; inversion H.
  - split.
    + destruct (unhex x) eqn:E1; [|discriminate]. destruct (unhex y) eqn:E2; [|discriminate].
      destruct cap; [discriminate|]. destruct (hex_decode_into cap l) eqn:E3; cbn [rbind]; try discriminate.
      intros [= <-]. apply IH in E3 as [E3 E4]. split; [|cbn [length]; lia].
      rewrite Z.mul_comm. constructor; auto using unhex_hex_char.
    + intros [H HL]. inversion H as [|a b x0 y0 s bs' Ha Hb H']; subst.
      rewrite (hex_char_unhex _ _ Ha), (hex_char_unhex _ _ Hb). destruct cap; cbn [length] in HL; [lia|].
      rewrite (proj2 (IH cap bs')) by (split; [assumption|lia]). cbn [rbind]. rewrite Z.mul_comm. reflexivity.
Qed.

Lemma hex_decode_into_no_panic : forall cap s, (length s <= 2 * cap + 1)%nat -> hex_decode_into cap s <> Panic.
Proof.
  intros cap s. revert cap. induction s as [|x|x y l IH] using list_pair_ind; intros cap HL; cbn [hex_decode_into]; try discriminate.
  destruct (unhex x); [|discriminate]. destruct (unhex y); [|discriminate].
  cbn [length] in HL. destruct cap; [lia|].
  specialize (IH cap ltac:(lia)). destruct (hex_decode_into cap l); cbn [rbind]; congruence.
Qed.

(** ** copy *)
Lemma go_copy_all : forall dst src, length src = length dst -> go_copy dst 0 src = src.
Proof.
  intros. unfold go_copy. rewrite Nat.sub_0_r, H, Nat.min_id. cbn [firstn].
  rewrite skipn_all2 by lia. rewrite app_nil_r. cbn [app]. apply firstn_all2. lia.
Qed.

Lemma go_copy_length : forall dst off src, (off <= length dst)%nat -> length (go_copy dst off src) = length dst.
Proof.
  intros. unfold go_copy. rewrite !app_length, !firstn_length, skipn_length. lia.
Qed.

Lemma set_id_20 : forall a ic id, length a = 21%nat -> length id = 20%nat ->
  Address_SetTypeAndID a ic (Some id) = Ok ((if ic then 1 else 0) :: id).
Proof.
  intros a ic id Ha Hi. unfold Address_SetTypeAndID, AddressIDBytes. rewrite Hi.
  change (20 <? 20)%nat with false. cbv beta iota zeta. f_equal.
  assert (E : go_copy a 1 id = firstn 1 a ++ id).
  { unfold go_copy. rewrite Ha, Hi. change (Nat.min (21 - 1) 20) with 20%nat.
    rewrite (firstn_all2 id) by lia. rewrite (skipn_all2 a) by (rewrite Ha; lia).
    rewrite app_nil_r. reflexivity. }
  rewrite E. destruct a as [|a0 a]; [discriminate|]. cbn [firstn app].
  unfold go_copy. cbn [length]. rewrite Nat.sub_0_r, Nat.add_0_l.
  change (Nat.min (S (length id)) 1) with (S (Nat.min (length id) 0)). rewrite Nat.min_0_r.
  reflexivity.
Qed.

Lemma set_id_long : forall a ic id, length a = 21%nat -> (20 <= length id)%nat ->
  Address_SetTypeAndID a ic (Some id) = Ok ((if ic then 1 else 0) :: firstn 20 id).
Proof.
  intros a ic id Ha Hi. rewrite <- (set_id_20 a ic (firstn 20 id) Ha) by (rewrite firstn_length; lia).
  unfold Address_SetTypeAndID, AddressIDBytes.
  replace (length id <? 20)%nat with false by (symmetry; apply Nat.ltb_ge; lia).
  replace (length (firstn 20 id) <? 20)%nat with false
    by (symmetry; apply Nat.ltb_ge; rewrite firstn_length; lia).
  cbv beta iota zeta. do 2 f_equal. unfold go_copy. rewrite Ha, firstn_length.
  change (21 - 1)%nat with 20%nat. replace (Nat.min 20 (length id)) with 20%nat by lia.
  rewrite firstn_firstn. change (Nat.min (Nat.min 20 20) 20) with 20%nat.
  change (Nat.min 20 20) with 20%nat. reflexivity.
Qed.

Lemma set_id_short : forall a ic id, length a = 21%nat -> (length id < 20)%nat ->
  Address_SetTypeAndID a ic (Some id) =
  Ok ((if ic then 1 else 0) :: firstn (20 - length id) (skipn 1 a) ++ id).
Proof.
  intros a ic id Ha Hi. unfold Address_SetTypeAndID, AddressIDBytes.
  replace (length id <? 20)%nat with true by (symmetry; apply Nat.ltb_lt; lia).
  f_equal. unfold go_copy at 2. rewrite Ha.
  replace (Nat.min (21 - (20 - length id + 1)) (length id)) with (length id) by lia.
  rewrite (firstn_all2 id) by lia. rewrite (skipn_all2 a) by (rewrite Ha; lia). rewrite app_nil_r.
  destruct a as [|a0 a]; [discriminate|]. rewrite Nat.add_1_r. cbn [firstn skipn app].
  unfold go_copy. cbn [length]. rewrite Nat.sub_0_r, Nat.add_0_l.
  rewrite (Nat.min_r (S _) 1) by lia. reflexivity.
Qed.

Lemma zero_addr_len : length zeroAddress = 21%nat.
Proof. reflexivity. Qed.

Lemma Address_String_valid : forall t id, (t = 0 \/ t = 1) ->
  Address_String (t :: id) = type_prefix t ++ hex_encode id.
Proof. intros t id [-> | ->]; reflexivity. Qed.

Lemma SetString_prefixed : forall a t cs bs, (t = 0 \/ t = 1) -> hex_pairs cs bs ->
  Address_SetString a (type_prefix t ++ cs) = Address_SetTypeAndID a (t =? 1) (Some bs).
Proof.
  intros a t cs bs Ht H. unfold Address_SetString.
  assert (E1 : has_prefix (str "cx") (type_prefix t ++ cs) = (t =? 1)) by (destruct Ht; subst; reflexivity).
  assert (E2 : has_prefix (str "cx") (type_prefix t ++ cs) || has_prefix (str "hx") (type_prefix t ++ cs)
               || has_prefix (str "0x") (type_prefix t ++ cs) = true) by (destruct Ht; subst; reflexivity).
  rewrite E2, E1. cbv beta iota zeta.
  replace (skipn 2 (type_prefix t ++ cs)) with cs by (destruct Ht; subst; reflexivity).
  rewrite even_mod. destruct (hex_pairs_ok _ _ H) as [_ HL]. rewrite HL.
  rewrite Nat.even_mul. cbn [Nat.even orb negb]. apply hex_decode_pairs in H. rewrite H. reflexivity.
Qed.

(** ** strings.Split / strings.Index *)
Lemma str_split_ne : forall s c, str_split s c <> [].
Proof.
  induction s as [|x s IH]; intros c; cbn [str_split]; [discriminate|].
  destruct (x =? c); [discriminate|]. destruct (str_split s c); discriminate.
Qed.

Lemma str_split_free : forall s c, free_of c s -> str_split s c = [s].
Proof.
  unfold free_of. induction s as [|x s IH]; intros c H; cbn [str_split]; [reflexivity|].
  cbn [In] in H. replace (x =? c) with false by (symmetry; apply Z.eqb_neq; tauto).
  rewrite IH by tauto. reflexivity.
Qed.

Lemma str_split_sep : forall p c r, free_of c p -> str_split (p ++ c :: r) c = p :: str_split r c.
Proof.
  unfold free_of. induction p as [|x p IH]; intros c r H; cbn [str_split app].
  - rewrite Z.eqb_refl. reflexivity.
  - cbn [In] in H. replace (x =? c) with false by (symmetry; apply Z.eqb_neq; tauto).
    rewrite IH by tauto. reflexivity.
Qed.

Lemma split_first : forall s c, free_of c s \/ exists p r, s = p ++ c :: r /\ free_of c p.
Proof.
  unfold free_of. induction s as [|x s IH]; intros c; [left; auto|].
  destruct (Z.eq_dec x c) as [->|N].
  - right. exists [], s. split; [reflexivity|auto].
  - destruct (IH c) as [H|(p & r & -> & H)].
    + left. cbn [In]. tauto.
    + right. exists (x :: p), r. split; [reflexivity|]. cbn [In]. tauto.
Qed.

Lemma str_index_first : forall p r, free_of (ch ":") p ->
  str_index (p ++ str "://" ++ r) (str "://") = Some (length p).
Proof.
  unfold free_of. induction p as [|x p IH]; intros r H.
  - cbn [app]. destruct r; reflexivity.
  - cbn [In] in H. cbn [app str_index].
    assert (has_prefix (str "://") (x :: p ++ str "://" ++ r) = false) as ->.
    { cbn [str has_prefix]. replace (ch ":" =? x) with false by (symmetry; apply Z.eqb_neq; intros E; apply H; left; congruence). reflexivity. }
    rewrite IH by tauto. reflexivity.
Qed.

Lemma str_index_some : forall s sep n, str_index s sep = Some n ->
  (n <= length s)%nat /\ has_prefix sep (skipn n s) = true.
Proof.
  induction s as [|x s IH]; intros sep n; cbn [str_index].
  - destruct (has_prefix sep []) eqn:E; [|discriminate]. intros [= <-]. split; [cbn; lia|exact E].
  - destruct (has_prefix sep (x :: s)) eqn:E.
    + intros [= <-]. split; [lia|exact E].
    + destruct (str_index s sep) eqn:E2; [|discriminate]. intros [= <-].
      apply IH in E2 as [H1 H2]. split; [cbn [length]; lia|exact H2].
Qed.

Lemma Btp_Protocol_compose : forall p r, p <> [] -> free_of (ch ":") p ->
  Btp_Protocol (p ++ str "://" ++ r) = p.
Proof.
  intros p r Hne Hf. unfold Btp_Protocol. rewrite str_index_first by assumption.
  replace (0 <? length p)%nat with true by (destruct p; [congruence|reflexivity]).
  rewrite firstn_app, firstn_all, Nat.sub_diag. cbn [firstn]. apply app_nil_r.
Qed.

Lemma str_sep : str "://" = ch ":" :: ch "/" :: ch "/" :: [].
Proof. reflexivity. Qed.

Lemma split_compose : forall p r, free_of (ch "/") p ->
  str_split (p ++ str "://" ++ r) (ch "/") = (p ++ str ":") :: [] :: str_split r (ch "/").
Proof.
  intros p r Hf.
  replace (p ++ str "://" ++ r) with ((p ++ str ":") ++ ch "/" :: (ch "/" :: r))
    by (rewrite <- app_assoc; reflexivity).
  rewrite str_split_sep.
  - f_equal.
  - intros H. apply in_app_or in H as [H|H]; [exact (Hf H)|]. cbn in H. destruct H as [H|[]].
    discriminate.
Qed.

Lemma Btp_parts : forall p na acct tail, p <> [] -> free_of (ch ":") p -> free_of (ch "/") p ->
  free_of (ch "/") na -> free_of (ch "/") acct -> ends_at (ch "/") tail ->
  let a := p ++ str "://" ++ na ++ str "/" ++ acct ++ tail in
  Btp_Protocol a = p /\ Btp_NetworkAddress a = na /\ Btp_Account a = acct.
Proof.
  intros p na acct tail Hne H1 H2 H3 H4 H5 a.
  assert (HP : Btp_Protocol a = p) by (apply Btp_Protocol_compose; assumption).
  assert (HS : exists rest, str_split a (ch "/") = (p ++ str ":") :: [] :: na :: acct :: rest).
  { unfold a. rewrite split_compose by assumption. change (str "/" ++ acct ++ tail) with (ch "/" :: acct ++ tail).
    rewrite str_split_sep by assumption. destruct H5 as [->|[t ->]].
    - rewrite app_nil_r, str_split_free by assumption. eexists; reflexivity.
    - rewrite str_split_sep by assumption. eexists; reflexivity. }
  destruct HS as [rest HS].
  unfold Btp_NetworkAddress, Btp_Account. rewrite HP, HS. destruct p; [congruence|]. auto.
Qed.

Lemma Btp_network_dot : forall a nid chain tail, Btp_NetworkAddress a = nid ++ str "." ++ chain ++ tail ->
  free_of (ch ".") nid -> free_of (ch ".") chain -> ends_at (ch ".") tail -> Btp_network a = (nid, chain).
Proof.
  intros a nid chain tail E H1 H2 H3. unfold Btp_network. rewrite E.
  replace (is_empty (nid ++ str "." ++ chain ++ tail)) with false by (destruct nid; reflexivity).
  cbv beta iota zeta. change (str "." ++ chain ++ tail) with (ch "." :: chain ++ tail).
  rewrite str_split_sep by assumption. destruct H3 as [->|[t ->]].
  - rewrite app_nil_r, str_split_free by assumption. reflexivity.
  - rewrite str_split_sep by assumption. reflexivity.
Qed.

Lemma Btp_network_plain : forall a chain, Btp_NetworkAddress a = chain ->
  free_of (ch ".") chain -> Btp_network a = ([], chain).
Proof.
  intros a chain E H1. unfold Btp_network. rewrite E. destruct chain as [|c cs] eqn:EC; [reflexivity|].
  rewrite <- EC in *. replace (is_empty chain) with false by (subst; reflexivity). cbv beta iota zeta.
  rewrite str_split_free by assumption. reflexivity.
Qed.

(** inversion of the pieces *)
Lemma split_nth2 : forall s c, (3 < length (str_split s c))%nat -> exists x y n a tail,
  s = x ++ c :: y ++ c :: n ++ c :: a ++ tail /\ free_of c x /\ free_of c y /\ free_of c n /\ free_of c a /\
  ends_at c tail /\ nth 0 (str_split s c) [] = x /\ nth 1 (str_split s c) [] = y /\
  nth 2 (str_split s c) [] = n /\ nth 3 (str_split s c) [] = a.
Proof.
  intros s c.
  destruct (split_first s c) as [H|(x & s1 & -> & Hx)]; [rewrite str_split_free by assumption; cbn; lia|].
  rewrite str_split_sep by assumption.
  destruct (split_first s1 c) as [H|(y & s2 & -> & Hy)]; [rewrite str_split_free by assumption; cbn; lia|].
  rewrite str_split_sep by assumption.
  destruct (split_first s2 c) as [H|(n & s3 & -> & Hn)]; [rewrite str_split_free by assumption; cbn; lia|].
  rewrite str_split_sep by assumption. intros _.
  destruct (split_first s3 c) as [H|(a & s4 & -> & Ha)].
  - exists x, y, n, s3, []. rewrite app_nil_r, str_split_free by assumption.
    split; [reflexivity|]. repeat split; try assumption. left; reflexivity.
  - exists x, y, n, a, (c :: s4). rewrite str_split_sep by assumption.
    split; [reflexivity|]. repeat split; try assumption. right; eexists; reflexivity.
Qed.

Lemma nth_nonempty_len : forall (l : list (list Z)) n, nth n l [] <> [] -> (n < length l)%nat.
Proof.
  intros l n H. destruct (Nat.lt_ge_cases n (length l)); [assumption|].
  rewrite nth_overflow in H by assumption. congruence.
Qed.

Lemma Btp_Protocol_btp : forall a, Btp_Protocol a = str "btp" -> exists r, a = str "btp" ++ str "://" ++ r.
Proof.
  intros a. unfold Btp_Protocol. destruct (str_index a (str "://")) as [i|] eqn:E; [|discriminate].
  destruct (0 <? i)%nat; [|discriminate]. intros H.
  apply str_index_some in E as [H1 H2]. apply has_prefix_spec in H2 as [r H2].
  exists r. rewrite <- H, <- H2. symmetry; apply firstn_skipn.
Qed.
