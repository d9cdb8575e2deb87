From Coq Require Import String Ascii ZArith List Bool Lia.
From Coq Require Import ZifyBool.
From Verif Require Import Base L_Base M_IntConv S_IntConv L_IntConv M_Rlp S_Rlp.
Import ListNotations.
Open Scope Z_scope.

Lemma rlp_ind2 : forall P : rlp -> Prop,
  P RNull -> (forall b, P (RBytes b)) -> (forall l, Forall P l -> P (RList l)) -> forall t, P t.
Proof.
  intros P H1 H2 H3. fix IH 1. intros [|b|l]; [assumption|apply H2|].
  apply H3. induction l; constructor; auto.
Qed.

Lemma to_nat_zlen : forall A (l : list A), Z.to_nat (zlen l) = length l.
Proof. intros. unfold zlen. apply Nat2Z.id. Qed.

Lemma read_full_app : forall b r n, n = zlen b -> read_full n (b ++ r) = Some (b, r).
Proof.
  intros b r n ->. unfold read_full. rewrite zlen_app. pose proof (zlen_nonneg _ r).
  replace (zlen b <=? zlen b + zlen r) with true by lia. rewrite to_nat_zlen.
  rewrite firstn_app, firstn_all, Nat.sub_diag, skipn_app, skipn_all, Nat.sub_diag.
  cbn [firstn skipn app]. rewrite app_nil_r. reflexivity.
Qed.

Lemma read_full_some : forall n s b r, read_full n s = Some (b, r) -> s = b ++ r /\ (0 <= n -> zlen b = n).
Proof.
  intros n s b r. unfold read_full. destruct (Z.leb_spec n (zlen s)); [|discriminate].
  intros [= <- <-]. split; [symmetry; apply firstn_skipn|]. intros Hn.
  unfold zlen in *. rewrite firstn_length. lia.
Qed.

Lemma read_full_none : forall n s, zlen s < n -> read_full n s = None.
Proof. intros. unfold read_full. replace (n <=? zlen s) with false by lia. reflexivity. Qed.

(** size headers *)
Lemma sizeToBytes_spec : forall l, 56 <= l < 2 ^ 63 ->
  be_min l (sizeToBytes l) /\ 1 <= zlen (sizeToBytes l) <= 8 /\ bytesToSize (sizeToBytes l) = l.
Proof.
  intros l Hl. unfold sizeToBytes, bytesToSize. rewrite u64_small by lia.
  destruct (SizeToBytes_ok l ltac:(lia)) as (H1 & H2 & H3).
  split; [|split].
  - split; [assumption|]. split; [assumption|]. rewrite SizeToBytes_pos in * by lia.
    destruct (big_bytes l) eqn:E; [cbn in H3; lia|]. apply big_bytes_head in E. exists z, l0. split; [reflexivity|lia].
  - unfold zlen. lia.
  - rewrite BytesToSize_spec, H2 by assumption. rewrite u64_small by lia. apply i64_small. lia.
Qed.

Lemma writeBytes_header : forall b, bytes_ok b -> zlen b < 2 ^ 63 ->
  (exists x, b = [x] /\ 0 <= x < 128 /\ writeBytes (Some b) = b) \/
  (~ (exists x, b = [x] /\ 0 <= x < 128) /\ exists h, writeBytes (Some b) = h ++ b /\ header 128 (zlen b) h /\
     (zlen b <= 55 -> h = [128 + zlen b]) /\ (56 <= zlen b -> h = 183 + zlen (sizeToBytes (zlen b)) :: sizeToBytes (zlen b))).
Proof.
  intros b Hok Hl. unfold writeBytes. pose proof (zlen_nonneg _ b).
  destruct (Z.eqb_spec (zlen b) 0) as [E0|E0].
  { right. destruct b; [|rewrite zlen_cons in E0; pose proof (zlen_nonneg _ b); lia].
    split; [intros (x & Hx & _); discriminate|]. exists [128]. repeat split.
    - apply (h_short 128 0). lia.
    - intros HH; exfalso; change (zlen (@nil Z)) with 0 in HH; lia. }
  destruct ((zlen b =? 1) && (hd 0 b <? 128)) eqn:E1.
  { left. destruct b as [|x [|y b]].
    - cbn in E0. lia.
    - exists x. repeat split; cbn in E1; try lia. inversion Hok as [|? ? Hx]; subst. destruct Hx; lia.
    - exfalso. rewrite !zlen_cons in E1. pose proof (zlen_nonneg _ b). lia. }
  right. assert (HN : ~ (exists x, b = [x] /\ 0 <= x < 128)).
  { intros (x & -> & Hx). cbn in E1. lia. }
  split; [assumption|]. destruct (Z.leb_spec (zlen b) 55).
  - exists [128 + zlen b]. rewrite Z.mod_small by lia. repeat split; [|lia]. apply h_short. lia.
  - destruct (sizeToBytes_spec (zlen b) ltac:(lia)) as (S1 & S2 & S3).
    exists (183 + zlen (sizeToBytes (zlen b)) :: sizeToBytes (zlen b)).
    change (128 + 55) with 183. rewrite Z.mod_small by lia. repeat split; [|lia].
    replace 183 with (128 + 55) by reflexivity. apply h_long; [lia|assumption].
Qed.

Lemma writeList_header : forall b, zlen b < 2 ^ 63 -> exists h, writeList b = h ++ b /\ header 192 (zlen b) h /\
     (zlen b <= 55 -> h = [192 + zlen b]) /\ (56 <= zlen b -> h = 247 + zlen (sizeToBytes (zlen b)) :: sizeToBytes (zlen b)).
Proof.
  intros b Hl. unfold writeList. pose proof (zlen_nonneg _ b).
  destruct (Z.eqb_spec (zlen b) 0) as [E0|E0].
  { destruct b; [|rewrite zlen_cons in E0; pose proof (zlen_nonneg _ b); lia].
    exists [192]. repeat split.
    - apply (h_short 192 0). lia.
    - intros HH; exfalso; change (zlen (@nil Z)) with 0 in HH; lia. }
  destruct (Z.leb_spec (zlen b) 55).
  - exists [192 + zlen b]. rewrite Z.mod_small by lia. repeat split; [|lia]. apply h_short. lia.
  - destruct (sizeToBytes_spec (zlen b) ltac:(lia)) as (S1 & S2 & S3).
    exists (247 + zlen (sizeToBytes (zlen b)) :: sizeToBytes (zlen b)).
    change (192 + 55) with 247. rewrite Z.mod_small by lia. repeat split; [|lia].
    replace 247 with (192 + 55) by reflexivity. apply h_long; [lia|assumption].
Qed.

(** ** reading what was written *)
Lemma readBytes_write : forall b rest, bytes_ok b -> zlen b < 2 ^ 63 ->
  readBytes (writeBytes (Some b) ++ rest) = ROk b rest.
Proof.
  intros b rest Hok Hl. destruct (writeBytes_header b Hok Hl) as [(x & -> & Hx & ->)|(_ & h & -> & _ & Hs & Hb)].
  - cbn [app readBytes]. replace (x <? 128) with true by lia. reflexivity.
  - pose proof (zlen_nonneg _ b). rewrite <- app_assoc. destruct (Z.le_gt_cases (zlen b) 55) as [HL|HL].
    + rewrite (Hs HL). cbn [app readBytes].
      replace (128 + zlen b <? 128) with false by lia. replace (128 + zlen b <=? 183) with true by lia.
      unfold readAll. rewrite read_full_app by lia. reflexivity.
    + rewrite (Hb ltac:(lia)). destruct (sizeToBytes_spec (zlen b) ltac:(lia)) as (S1 & S2 & S3).
      set (sz := sizeToBytes (zlen b)) in *. cbn [app readBytes].
      replace (183 + zlen sz <? 128) with false by lia. replace (183 + zlen sz <=? 183) with false by lia.
      replace (183 + zlen sz <? 192) with true by lia.
      unfold readSize. rewrite read_full_app by lia. rewrite S3.
      replace (zlen b <? 0) with false by lia. unfold readAll. rewrite read_full_app by lia. reflexivity.
Qed.

Lemma readBytes_null : forall rest, readBytes (writeNull ++ rest) = RNil rest.
Proof.
  intros. cbn [writeNull app readBytes]. change (248 <? 128) with false. change (248 <=? 183) with false.
  change (248 <? 192) with false. change (248 =? 248) with true. cbv iota.
  unfold readSize. change (0 :: rest) with ([0] ++ rest). rewrite read_full_app by reflexivity.
  reflexivity.
Qed.

Lemma readList_null : forall rest, readList (writeNull ++ rest) = RNil rest.
Proof.
  intros. cbn [writeNull app readList]. change (248 <? 192) with false. change (248 <=? 247) with false. cbv iota.
  unfold readSize. change (248 - 247) with 1. change (0 :: rest) with ([0] ++ rest). rewrite read_full_app by reflexivity.
  reflexivity.
Qed.

Lemma limited_app : forall b r n, n = zlen b -> limited n (b ++ r) = ROk b r.
Proof.
  intros b r n ->. unfold limited. rewrite zlen_app. destruct (Z.leb_spec (zlen b + zlen r) (zlen b)).
  - destruct r; [rewrite app_nil_r; reflexivity|]. rewrite zlen_cons in H. pose proof (zlen_nonneg _ r). lia.
  - rewrite to_nat_zlen, firstn_app, firstn_all, Nat.sub_diag, skipn_app, skipn_all, Nat.sub_diag.
    cbn [firstn skipn app]. rewrite app_nil_r. reflexivity.
Qed.

Lemma readList_write : forall b rest, zlen b < 2 ^ 63 -> readList (writeList b ++ rest) = ROk b rest.
Proof.
  intros b rest Hl. destruct (writeList_header b Hl) as (h & -> & _ & Hs & Hb).
  pose proof (zlen_nonneg _ b). rewrite <- app_assoc. destruct (Z.le_gt_cases (zlen b) 55) as [HL|HL].
  - rewrite (Hs HL). cbn [app readList].
    replace (192 + zlen b <? 192) with false by lia. replace (192 + zlen b <=? 247) with true by lia.
    apply limited_app. lia.
  - rewrite (Hb ltac:(lia)). destruct (sizeToBytes_spec (zlen b) ltac:(lia)) as (S1 & S2 & S3).
    set (sz := sizeToBytes (zlen b)) in *. cbn [app readList].
    replace (247 + zlen sz <? 192) with false by lia. replace (247 + zlen sz <=? 247) with false by lia.
    unfold readSize. rewrite read_full_app by lia. rewrite S3.
    replace (zlen b =? 0) with false by lia. rewrite andb_false_r. apply limited_app. reflexivity.
Qed.

Lemma readBytes_list : forall b rest, zlen b < 2 ^ 63 -> readBytes (writeList b ++ rest) = RFail.
Proof.
  intros b rest Hl. destruct (writeList_header b Hl) as (h & -> & _ & Hs & Hb).
  pose proof (zlen_nonneg _ b). rewrite <- app_assoc. destruct (Z.le_gt_cases (zlen b) 55) as [HL|HL].
  - rewrite (Hs HL). cbn [app readBytes].
    replace (192 + zlen b <? 128) with false by lia. replace (192 + zlen b <=? 183) with false by lia.
    replace (192 + zlen b <? 192) with false by lia. replace (192 + zlen b =? 248) with false by lia. reflexivity.
  - rewrite (Hb ltac:(lia)). destruct (sizeToBytes_spec (zlen b) ltac:(lia)) as (S1 & S2 & S3).
    set (sz := sizeToBytes (zlen b)) in *. cbn [app readBytes].
    replace (247 + zlen sz <? 128) with false by lia. replace (247 + zlen sz <=? 183) with false by lia.
    replace (247 + zlen sz <? 192) with false by lia.
    destruct (Z.eqb_spec (247 + zlen sz) 248); [|reflexivity].
    unfold readSize. rewrite read_full_app by lia. rewrite S3.
    replace (zlen b =? 0) with false by lia. reflexivity.
Qed.

Lemma readList_bytes : forall b rest, bytes_ok b -> zlen b < 2 ^ 63 -> readList (writeBytes (Some b) ++ rest) = RFail.
Proof.
  intros b rest Hok Hl. destruct (writeBytes_header b Hok Hl) as [(x & -> & Hx & ->)|(_ & h & -> & _ & Hs & Hb)].
  - cbn [app readList]. replace (x <? 192) with true by lia. reflexivity.
  - pose proof (zlen_nonneg _ b). rewrite <- app_assoc. destruct (Z.le_gt_cases (zlen b) 55) as [HL|HL].
    + rewrite (Hs HL). cbn [app readList]. replace (128 + zlen b <? 192) with true by lia. reflexivity.
    + rewrite (Hb ltac:(lia)). destruct (sizeToBytes_spec (zlen b) ltac:(lia)) as (S1 & S2 & S3).
      cbn [app readList]. replace (183 + zlen (sizeToBytes (zlen b)) <? 192) with true by lia. reflexivity.
Qed.

(** ** sizes *)
Lemma header_len : forall off n h, header off n h -> 1 <= zlen h.
Proof. intros off n h H. destruct H; rewrite zlen_cons; [cbn; lia|]. pose proof (zlen_nonneg _ bs); lia. Qed.

Lemma writeList_len : forall b, zlen b < zlen (writeList b).
Proof.
  intros b. unfold writeList. destruct (Z.eqb_spec (zlen b) 0) as [E|E].
  - rewrite E. cbn. lia.
  - destruct (zlen b <=? 55); rewrite zlen_cons; [lia|]. rewrite zlen_app.
    pose proof (zlen_nonneg _ (sizeToBytes (zlen b))). lia.
Qed.

Lemma writeBytes_len : forall b, zlen b <= zlen (writeBytes (Some b)) /\ 1 <= zlen (writeBytes (Some b)).
Proof.
  intros b. unfold writeBytes. pose proof (zlen_nonneg _ b).
  destruct (Z.eqb_spec (zlen b) 0) as [E|E].
  - rewrite E. cbn. lia.
  - destruct ((zlen b =? 1) && _); [lia|].
    destruct (zlen b <=? 55); rewrite zlen_cons; [lia|]. rewrite zlen_app.
    pose proof (zlen_nonneg _ (sizeToBytes (zlen b))). lia.
Qed.

Lemma concat_len_in : forall (l : list (list Z)) x, In x l -> zlen x <= zlen (concat l).
Proof.
  induction l as [|y l IH]; intros x [].
  - subst. cbn [concat]. rewrite zlen_app. pose proof (zlen_nonneg _ (concat l)). lia.
  - cbn [concat]. rewrite zlen_app. specialize (IH x H). pose proof (zlen_nonneg _ y). lia.
Qed.

Lemma rlp_write_pos : forall t, 1 <= zlen (rlp_write t).
Proof.
  intros [|b|l]; cbn [rlp_write].
  - cbn; lia.
  - apply writeBytes_len.
  - pose proof (writeList_len (concat (map rlp_write l))). pose proof (zlen_nonneg _ (concat (map rlp_write l))). lia.
Qed.

Lemma rlp_ok_in : forall l, rlp_ok (RList l) -> Forall rlp_ok l.
Proof. induction l; cbn; intros H; constructor; tauto. Qed.

Lemma small_children : forall l, zlen (rlp_write (RList l)) < 2 ^ 63 ->
  zlen (concat (map rlp_write l)) < 2 ^ 63 /\ Forall (fun t => zlen (rlp_write t) < 2 ^ 63) l.
Proof.
  intros l H. cbn [rlp_write] in H. pose proof (writeList_len (concat (map rlp_write l))).
  split; [lia|]. apply Forall_forall. intros t Ht.
  pose proof (concat_len_in (map rlp_write l) (rlp_write t) (in_map _ _ _ Ht)). lia.
Qed.

(** ** the encoding is RLP *)
Lemma rlp_write_spec : forall t, rlp_ok t -> zlen (rlp_write t) < 2 ^ 63 -> rlp_spec t (rlp_write t).
Proof.
  induction t as [|b|l IH] using rlp_ind2; intros Hok Hl.
  - constructor.
  - cbn [rlp_write] in *. pose proof (writeBytes_len b).
    destruct (writeBytes_header b Hok ltac:(lia)) as [(x & -> & Hx & ->)|(HN & h & -> & Hh & _)].
    + apply sp_byte; assumption.
    + apply sp_bytes; assumption.
  - destruct (small_children l Hl) as [H1 H2]. apply rlp_ok_in in Hok. cbn [rlp_write].
    destruct (writeList_header _ H1) as (h & -> & Hh & _). apply sp_list; [|assumption].
    clear h Hh H1 Hl. induction l as [|t l IHl]; [constructor|].
    inversion IH; inversion Hok; inversion H2; subst. cbn [map concat]. constructor; auto.
Qed.

(** ** prefix-freeness *)
Lemma concat_enc_inj : forall l1 l2,
  Forall (fun t => forall t2 r1 r2, zlen (rlp_write t) < 2^63 -> rlp_ok t -> zlen (rlp_write t2) < 2^63 -> rlp_ok t2 ->
                   rlp_write t ++ r1 = rlp_write t2 ++ r2 -> t = t2 /\ r1 = r2) l1 ->
  Forall (fun t => zlen (rlp_write t) < 2^63) l1 -> Forall rlp_ok l1 ->
  Forall (fun t => zlen (rlp_write t) < 2^63) l2 -> Forall rlp_ok l2 ->
  concat (map rlp_write l1) = concat (map rlp_write l2) -> l1 = l2.
Proof.
  induction l1 as [|t1 l1 IH]; intros l2 HF S1 O1 S2 O2 H; destruct l2 as [|t2 l2]; cbn [map concat] in H.
  - reflexivity.
  - exfalso. pose proof (rlp_write_pos t2). apply (f_equal zlen) in H. rewrite zlen_app in H.
    pose proof (zlen_nonneg _ (concat (map rlp_write l2))). change (zlen (@nil Z)) with 0 in H. lia.
  - exfalso. pose proof (rlp_write_pos t1). apply (f_equal zlen) in H. rewrite zlen_app in H.
    pose proof (zlen_nonneg _ (concat (map rlp_write l1))). change (zlen (@nil Z)) with 0 in H. lia.
  - inversion HF; inversion S1; inversion O1; inversion S2; inversion O2; subst.
    destruct (H2 t2 _ _ H6 H10 H14 H18 H) as [-> E]. f_equal. apply IH; assumption.
Qed.

Lemma rlp_prefix_free : forall t1 t2 r1 r2, zlen (rlp_write t1) < 2^63 -> rlp_ok t1 -> zlen (rlp_write t2) < 2^63 -> rlp_ok t2 ->
  rlp_write t1 ++ r1 = rlp_write t2 ++ r2 -> t1 = t2 /\ r1 = r2.
Proof.
  induction t1 as [|b|l IH] using rlp_ind2; intros t2 r1 r2 S1 O1 S2 O2 H.
  - assert (E := f_equal readBytes H). cbn [rlp_write] in E. rewrite readBytes_null in E.
    destruct t2 as [|b2|l2]; cbn [rlp_write] in *.
    + rewrite readBytes_null in E. injection E as ->. auto.
    + pose proof (writeBytes_len b2). rewrite readBytes_write in E by (auto; lia). discriminate.
    + destruct (small_children l2 S2). rewrite readBytes_list in E by assumption. discriminate.
  - assert (E := f_equal readBytes H). cbn [rlp_write] in *. pose proof (writeBytes_len b).
    rewrite readBytes_write in E by (auto; lia).
    destruct t2 as [|b2|l2]; cbn [rlp_write] in *.
    + rewrite readBytes_null in E. discriminate.
    + pose proof (writeBytes_len b2). rewrite readBytes_write in E by (auto; lia). injection E as -> ->. auto.
    + destruct (small_children l2 S2). rewrite readBytes_list in E by assumption. discriminate.
  - assert (E := f_equal readList H). destruct (small_children l S1) as [C1 C2]. cbn [rlp_write] in E.
    rewrite readList_write in E by assumption.
    destruct t2 as [|b2|l2]; cbn [rlp_write] in E.
    + rewrite readList_null in E. discriminate.
    + cbn [rlp_write] in S2. pose proof (writeBytes_len b2). rewrite readList_bytes in E by (auto; lia). discriminate.
    + destruct (small_children l2 S2) as [D1 D2]. rewrite readList_write in E by assumption.
      injection E as E1 E2. subst r2. apply rlp_ok_in in O1, O2. split; [|reflexivity]. f_equal.
      apply concat_enc_inj; auto.
Qed.

(** ** reading a tree of known shape *)
Lemma shape_ind2 : forall P : shape -> Prop,
  P ShBytes -> (forall l, Forall P l -> P (ShList l)) -> forall s, P s.
Proof.
  intros P H1 H2. fix IH 1. intros [|l]; [assumption|]. apply H2. induction l; constructor; auto.
Qed.

Lemma rlp_read_write : forall sh t rest, has_shape sh t -> rlp_ok t -> zlen (rlp_write t) < 2^63 ->
  rlp_read sh (rlp_write t ++ rest) = ROk t rest.
Proof.
  induction sh as [|shs IH] using shape_ind2; intros t rest Hs Hok Hl.
  - destruct t as [|b|l]; cbn [has_shape] in Hs; try contradiction; cbn [rlp_read rlp_write].
    + rewrite readBytes_null. reflexivity.
    + cbn [rlp_write] in Hl. pose proof (writeBytes_len b). rewrite readBytes_write by (auto; lia). reflexivity.
  - destruct t as [|b|l]; cbn [has_shape] in Hs; try contradiction; cbn [rlp_read].
    + cbn [rlp_write]. rewrite readList_null. reflexivity.
    + destruct (small_children l Hl) as [C1 C2]. cbn [rlp_write]. rewrite readList_write by assumption.
      apply rlp_ok_in in Hok. clear Hl C1.
      match goal with |- ?f shs [] _ = _ => set (go := f) end.
      assert (G : forall shs l acc, Forall (fun s => forall t rest, has_shape s t -> rlp_ok t ->
                zlen (rlp_write t) < 2^63 -> rlp_read s (rlp_write t ++ rest) = ROk t rest) shs ->
              (fix all shs l := match shs, l with
                        | [], [] => True
                        | s :: shs', x :: l' => has_shape s x /\ all shs' l'
                        | _, _ => False
                        end) shs l -> Forall rlp_ok l -> Forall (fun t => zlen (rlp_write t) < 2^63) l ->
              go shs acc (concat (map rlp_write l)) = ROk (RList (rev acc ++ l)) rest).
      { clear. induction shs as [|s shs IH]; intros [|t l] acc HF HS HO HL; try contradiction.
        - cbn [map concat]. unfold go. rewrite app_nil_r. reflexivity.
        - inversion HF; inversion HO; inversion HL; subst. destruct HS as [HS1 HS2]. cbn [map concat].
          unfold go. fold go. rewrite H1 by assumption. rewrite IH by assumption.
          cbn [rev]. rewrite <- app_assoc. reflexivity. }
      apply G; assumption.
Qed.

(** ** skip and raw *)
Lemma skip_raw_write : forall t rest, rlp_ok t -> zlen (rlp_write t) < 2^63 ->
  skipOne (rlp_write t ++ rest) = ROk tt rest /\ readRaw (rlp_write t ++ rest) = ROk (rlp_write t) rest.
Proof.
  assert (HD : forall off h b rest, (off = 128 \/ off = 192) -> zlen b < 2^63 ->
    (zlen b <= 55 -> h = [off + zlen b]) ->
    (56 <= zlen b -> h = off + 55 + zlen (sizeToBytes (zlen b)) :: sizeToBytes (zlen b)) ->
    skipOne (h ++ b ++ rest) = ROk tt rest /\ readRaw (h ++ b ++ rest) = ROk (h ++ b) rest).
  { intros off h b rest Ho Hl Hs Hb. pose proof (zlen_nonneg _ b). destruct (Z.le_gt_cases (zlen b) 55) as [HL|HL].
    - rewrite (Hs HL). cbn [app skipOne readRaw]. destruct Ho; subst off.
      + replace (128 + zlen b <? 128) with false by lia. replace (128 + zlen b <=? 183) with true by lia.
        unfold skipN, readMore. replace (128 + zlen b - 128 <? 0) with false by lia.
        rewrite read_full_app by lia. split; reflexivity.
      + replace (192 + zlen b <? 128) with false by lia. replace (192 + zlen b <=? 183) with false by lia.
        replace (192 + zlen b <? 192) with false by lia. replace (192 + zlen b <=? 247) with true by lia.
        unfold skipN, readMore. replace (192 + zlen b - 192 <? 0) with false by lia.
        rewrite read_full_app by lia. split; reflexivity.
    - rewrite (Hb ltac:(lia)). destruct (sizeToBytes_spec (zlen b) ltac:(lia)) as (S1 & S2 & S3).
      set (sz := sizeToBytes (zlen b)) in *. cbn [app skipOne readRaw]. unfold readSize, readRaw_long.
      destruct Ho; subst off.
      + replace (128 + 55 + zlen sz <? 128) with false by lia. replace (128 + 55 + zlen sz <=? 183) with false by lia.
        replace (128 + 55 + zlen sz <? 192) with true by lia.
        rewrite read_full_app by lia. rewrite S3. unfold skipN, readMore. replace (zlen b <? 0) with false by lia.
        rewrite read_full_app by lia. split; reflexivity.
      + replace (192 + 55 + zlen sz <? 128) with false by lia. replace (192 + 55 + zlen sz <=? 183) with false by lia.
        replace (192 + 55 + zlen sz <? 192) with false by lia. replace (192 + 55 + zlen sz <=? 247) with false by lia.
        rewrite read_full_app by lia. rewrite S3. unfold skipN, readMore. replace (zlen b <? 0) with false by lia.
        rewrite read_full_app by lia. split; reflexivity. }
  intros [|b|l] rest Hok Hl.
  - cbn [rlp_write]. unfold writeNull. change ([248; 0] ++ rest) with (248 :: [0] ++ rest).
    unfold skipOne, readRaw, readRaw_long, readSize. change (248 <? 128) with false. change (248 <=? 183) with false.
    change (248 <? 192) with false. change (248 <=? 247) with false. cbv iota. change (248 - 247) with 1.
    rewrite read_full_app by reflexivity. change (bytesToSize [0]) with 0.
    unfold skipN, readMore. change (0 <? 0) with false. cbv iota.
    assert (EF := read_full_app [] rest 0 eq_refl); cbn [app] in EF; rewrite EF. split; reflexivity.
  - cbn [rlp_write] in *. pose proof (writeBytes_len b).
    destruct (writeBytes_header b Hok ltac:(lia)) as [(x & -> & Hx & ->)|(_ & h & -> & _ & Hs & Hb)].
    + cbn [app skipOne readRaw]. replace (x <? 128) with true by lia. split; reflexivity.
    + rewrite <- app_assoc. apply (HD 128); auto; lia.
  - destruct (small_children l Hl) as [C1 C2]. cbn [rlp_write].
    destruct (writeList_header _ C1) as (h & -> & _ & Hs & Hb). rewrite <- app_assoc. apply (HD 192); auto.
Qed.

(** skip and raw on arbitrary input *)
Lemma readRaw_splits : forall s raw rest, readRaw s = ROk raw rest -> s = raw ++ rest /\ raw <> [] /\ skipOne s = ROk tt rest.
Proof.
  intros s raw rest. destruct s as [|tag s1]; [discriminate|]. unfold readRaw, skipOne, readRaw_long, readSize.
  destruct (tag <? 128); [intros [= <- <-]; repeat split; discriminate|].
  assert (HM : forall org sz s2, s1 = skipn (Nat.pred (length org)) (s1) \/ True ->
     readMore org sz s2 = ROk raw rest -> org ++ s2 = raw ++ rest /\ (org <> [] -> raw <> []) /\ skipN sz s2 = ROk tt rest).
  { intros org sz s2 _. unfold readMore, skipN. destruct (sz <? 0); [discriminate|].
    destruct (read_full sz s2) as [[b r]|] eqn:E; [|discriminate]. intros [= <- <-].
    apply read_full_some in E as [E _]. subst s2. rewrite app_assoc. repeat split.
    intros Ho Hn. apply Ho. destruct org; [reflexivity|discriminate]. }
  destruct (tag <=? 183).
  { intros H. apply HM in H as (H1 & H2 & H3); [|auto]. repeat split; auto. apply H2; discriminate. }
  destruct (tag <? 192).
  { destruct (read_full (tag - 183) s1) as [[b r]|] eqn:E; [|discriminate]. intros H.
    apply HM in H as (H1 & H2 & H3); [|auto]. apply read_full_some in E as [E _]. subst s1.
    repeat split; auto. apply H2; discriminate. }
  destruct (tag <=? 247).
  { intros H. apply HM in H as (H1 & H2 & H3); [|auto]. repeat split; auto. apply H2; discriminate. }
  destruct (read_full (tag - 247) s1) as [[b r]|] eqn:E; [|discriminate]. intros H.
  apply HM in H as (H1 & H2 & H3); [|auto]. apply read_full_some in E as [E _]. subst s1.
  repeat split; auto. apply H2; discriminate.
Qed.

(** ** truncation *)
Lemma firstn_app_cases : forall (A : Type) (a b : list A) n, (n < length (a ++ b))%nat ->
  ((n < length a)%nat /\ firstn n (a ++ b) = firstn n a) \/
  exists m, (m < length b)%nat /\ firstn n (a ++ b) = a ++ firstn m b.
Proof.
  intros A a b n H. rewrite app_length in H. destruct (Nat.lt_ge_cases n (length a)).
  - left. split; [assumption|]. rewrite firstn_app. replace (n - length a)%nat with O by lia.
    cbn. apply app_nil_r.
  - right. exists (n - length a)%nat. split; [lia|]. rewrite firstn_app. rewrite firstn_all2 by lia. reflexivity.
Qed.

Lemma readBytes_truncated : forall b k, bytes_ok b -> zlen b < 2^63 -> (k < length (writeBytes (Some b)))%nat ->
  readBytes (firstn k (writeBytes (Some b))) = REof \/ readBytes (firstn k (writeBytes (Some b))) = RFail.
Proof.
  intros b k Hok Hl Hk. pose proof (zlen_nonneg _ b).
  assert (HR : forall n s, zlen s < n -> readAll n s = RFail).
  { intros n s Hn. unfold readAll. rewrite read_full_none by assumption. reflexivity. }
  destruct (writeBytes_header b Hok Hl) as [(x & -> & Hx & E)|(_ & h & E & _ & Hs & Hb)]; rewrite E in *.
  - cbn in Hk. replace k with O by lia. left; reflexivity.
  - destruct (Z.le_gt_cases (zlen b) 55) as [HL|HL].
    + specialize (Hs HL); subst h. destruct k; [left; reflexivity|]. right. cbn [app firstn readBytes].
      replace (128 + zlen b <? 128) with false by lia. replace (128 + zlen b <=? 183) with true by lia.
      apply HR. cbn [app length] in Hk. unfold zlen. rewrite firstn_length. lia.
    + specialize (Hb ltac:(lia)); subst h. destruct (sizeToBytes_spec (zlen b) ltac:(lia)) as (S1 & S2 & S3).
      set (sz := sizeToBytes (zlen b)) in *. destruct k; [left; reflexivity|]. right.
      cbn [app firstn readBytes]. cbn [app length] in Hk.
      replace (183 + zlen sz <? 128) with false by lia. replace (183 + zlen sz <=? 183) with false by lia.
      replace (183 + zlen sz <? 192) with true by lia. unfold readSize.
      destruct (firstn_app_cases _ sz b k ltac:(lia)) as [[H1 H2]|(m & H1 & H2)]; rewrite H2.
      * rewrite read_full_none; [reflexivity|]. unfold zlen. rewrite firstn_length. lia.
      * rewrite read_full_app by lia. rewrite S3. replace (zlen b <? 0) with false by lia.
        apply HR. unfold zlen. rewrite firstn_length. lia.
Qed.
