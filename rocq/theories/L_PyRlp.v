(** Lemmas about the byte formats of the Python contracts. *)
From Coq Require Import String Ascii ZArith List Bool Lia.
From Coq Require Import ZifyBool.
From Verif Require Import Base L_Base M_IntConv S_IntConv L_IntConv M_Rlp S_Rlp L_Rlp M_PyRlp S_PyRlp.
Import ListNotations.
Open Scope Z_scope.

(** ** Headers *)
Lemma size_loop_spec : forall f n, 0 <= n < 256 ^ Z.of_nat f -> size_loop f n = big_nbytes n.
Proof.
  induction f as [|f IH]; intros n Hn.
  - change (256 ^ Z.of_nat 0) with 1 in Hn. assert (n = 0) as -> by lia. reflexivity.
  - cbn [size_loop]. destruct (Z.ltb_spec 0 n) as [H|H].
    + rewrite IH. 2:{ rewrite pow256_S in Hn. split; [apply Z.div_pos; lia|]. apply Z.div_lt_upper_bound; lia. }
      assert (K : forall k, (big_nbytes (n / 256) <= k)%nat <-> (big_nbytes n <= S k)%nat).
      { intros k. rewrite !big_nbytes_le_iff, pow256_S. assert (0 <= n / 256) by (apply Z.div_pos; lia).
        rewrite !Z.abs_eq by lia. split; intros.
        - pose proof (Z.div_mod n 256). pose proof (Z.mod_pos_bound n 256). lia.
        - apply Z.div_lt_upper_bound; lia. }
      assert (P : (1 <= big_nbytes n)%nat). { destruct (Nat.le_gt_cases 1 (big_nbytes n)); [assumption|]. assert (Q : (big_nbytes n <= 0)%nat) by lia. apply big_nbytes_le_iff in Q. change (256 ^ Z.of_nat 0) with 1 in Q. lia. }
      pose proof (K (big_nbytes (n / 256))). pose proof (K (big_nbytes n - 1)%nat). lia.
    + assert (n = 0) as -> by lia. reflexivity.
Qed.
Lemma length_size_spec : forall n, 0 < n -> length_size n = big_nbytes n.
Proof.
  intros n H. unfold length_size. apply size_loop_spec. split; [lia|].
  rewrite Nat2Z.inj_succ, Z2Nat.id by apply Z.log2_nonneg. pose proof (Z.log2_spec n H) as [_ U].
  eapply Z.lt_le_trans; [exact U|]. apply Z.pow_le_mono_l. lia.
Qed.
Lemma long_header_spec : forall base n, 0 <= base <= 247 -> 56 <= n < 65536 -> long_header base n = base + zlen (sizeToBytes n) :: sizeToBytes n.
Proof.
  intros base n Hb Hn. unfold long_header. rewrite length_size_spec by lia.
  assert (E : sizeToBytes n = big_bytes n) by (unfold sizeToBytes; rewrite u64_small by lia; apply SizeToBytes_pos; lia).
  rewrite E. unfold zlen. rewrite big_bytes_length.
  assert (C : big_nbytes n = 1%nat \/ big_nbytes n = 2%nat).
  { assert ((big_nbytes n <= 2)%nat) by (apply big_nbytes_le_iff; change (256 ^ Z.of_nat 2) with 65536; lia).
    destruct (big_nbytes n) as [|[|[|k]]] eqn:EN; try lia. assert (Q : (big_nbytes n <= 0)%nat) by lia. apply big_nbytes_le_iff in Q. change (256 ^ Z.of_nat 0) with 1 in Q. lia. }
  unfold big_bytes. fold (big_nbytes n). rewrite Z.abs_eq by lia.
  destruct C as [C|C]; rewrite C.
  - assert (Q : (big_nbytes n <= 1)%nat) by lia. apply big_nbytes_le_iff in Q. change (256 ^ Z.of_nat 1) with 256 in Q.
    cbn [put_length insert firstn skipn app be_fixed]. rewrite (Z.mod_small (base + _)) by (cbn; lia). reflexivity.
  - cbn [put_length insert firstn skipn app be_fixed]. rewrite (Z.mod_small (base + _)) by (cbn; lia). reflexivity.
Qed.
Lemma encode_bytes_spec : forall b, zlen b < 65536 -> encode_bytes b = writeBytes (Some b).
Proof.
  intros b H. unfold encode_bytes, writeBytes. pose proof (zlen_nonneg _ b).
  destruct (Z.eqb_spec (zlen b) 0) as [E|E].
  { destruct b; [reflexivity|rewrite zlen_cons in E; pose proof (zlen_nonneg _ b); lia]. }
  destruct ((zlen b =? 1) && (hd 0 b <? 128)); [reflexivity|].
  destruct (Z.leb_spec (zlen b) 55); [rewrite Z.mod_small by lia; reflexivity|].
  rewrite long_header_spec by lia. destruct (sizeToBytes_spec (zlen b) ltac:(lia)) as (_ & S2 & _). rewrite Z.mod_small by lia. reflexivity.
Qed.
Lemma encode_list_spec : forall l, zlen (concat l) < 65536 -> encode_list l = writeList (concat l).
Proof.
  intros l H. unfold encode_list, writeList. pose proof (zlen_nonneg _ (concat l)).
  destruct (Z.eqb_spec (zlen (concat l)) 0) as [E|E].
  { destruct (concat l); [reflexivity|rewrite zlen_cons in E; pose proof (zlen_nonneg _ l0); lia]. }
  destruct (Z.leb_spec (zlen (concat l)) 55); [rewrite Z.mod_small by lia; reflexivity|].
  rewrite long_header_spec by lia. destruct (sizeToBytes_spec (zlen (concat l)) ltac:(lia)) as (_ & S2 & _). rewrite Z.mod_small by lia. reflexivity.
Qed.
Lemma int_bytes_spec : forall n, int_bytes n = BigIntToBytes n.
Proof.
  intros n. apply (shortest_tc_unique n); [|apply BigIntToBytes_shortest].
  replace (int_bytes n) with (be_fixed (S (tc_n n)) n); [apply shortest_tc_exists|].
  unfold int_bytes, tc_n. replace (bit_len (n + (if n <? 0 then 1 else 0))) with (tc_bits n).
  - replace (tc_bits n + 8) with (tc_bits n + 1 * 8) by lia. rewrite Z.div_add by lia. pose proof (tc_bits_nonneg n).
    assert (0 <= tc_bits n / 8) by (apply Z.div_pos; lia). rewrite Z2Nat.inj_add by lia. rewrite Nat.add_1_r. reflexivity.
  - unfold tc_bits. destruct (n <? 0); [reflexivity|]. rewrite Z.add_0_r. reflexivity.
Qed.
Lemma int_bytes_bool : forall b : bool, int_bytes (if b then 1 else 0) = [if b then 1 else 0].
Proof. intros []; reflexivity. Qed.

Scheme item_ind2 := Induction for item Sort Prop with items_ind2 := Induction for items Sort Prop.
Combined Scheme item_items_ind from item_ind2, items_ind2.

(** bytes and sizes of lists *)
Lemma written_bytes_bound : forall b, zlen (writeBytes (Some b)) <= 65538 -> zlen b < 65536.
Proof.
  intros b. destruct (Z.ltb_spec (zlen b) 65536); [intros; lia|]. unfold writeBytes.
  destruct (Z.eqb_spec (zlen b) 0); [lia|]. replace (zlen b =? 1) with false by lia. cbn [andb]. replace (zlen b <=? 55) with false by lia.
  intros W. rewrite zlen_cons, zlen_app in W. assert (65536 <= zlen b <= 65538) by (pose proof (zlen_nonneg _ (sizeToBytes (zlen b))); lia). 
  exfalso. assert (Q : zlen (sizeToBytes (zlen b)) = 3).
  { unfold sizeToBytes. rewrite u64_small by lia. rewrite SizeToBytes_pos by lia. unfold zlen at 1. rewrite big_bytes_length.
    assert (C : zlen b = 65536 \/ zlen b = 65537 \/ zlen b = 65538) by lia. destruct C as [->|[->| ->]]; reflexivity. }
  lia.
Qed.
Lemma written_list_bound : forall b, zlen (writeList b) <= 65538 -> zlen b < 65536.
Proof.
  intros b. destruct (Z.ltb_spec (zlen b) 65536); [intros; lia|]. unfold writeList.
  destruct (Z.eqb_spec (zlen b) 0); [lia|]. replace (zlen b <=? 55) with false by lia.
  intros W. rewrite zlen_cons, zlen_app in W. assert (65536 <= zlen b <= 65538) by (pose proof (zlen_nonneg _ (sizeToBytes (zlen b))); lia). 
  exfalso. assert (Q : zlen (sizeToBytes (zlen b)) = 3).
  { unfold sizeToBytes. rewrite u64_small by lia. rewrite SizeToBytes_pos by lia. unfold zlen at 1. rewrite big_bytes_length.
    assert (C : zlen b = 65536 \/ zlen b = 65537 \/ zlen b = 65538) by lia. destruct C as [->|[->| ->]]; reflexivity. }
  lia.
Qed.
Lemma encoded : (forall v x, item v x -> zlen (rlp_write x) <= 65538 -> rlp_encode v = rlp_write x) /\
  (forall vs xs, items vs xs -> zlen (concat (map rlp_write xs)) < 65536 -> map rlp_encode vs = map rlp_write xs).
Proof.
  apply item_items_ind; intros; cbn [rlp_encode rlp_write map] in *.
  - reflexivity.
  - apply encode_bytes_spec. apply written_bytes_bound; assumption.
  - apply encode_bytes_spec. apply written_bytes_bound; assumption.
  - rewrite int_bytes_spec. rewrite (shortest_tc_unique n (BigIntToBytes n) b) by (try assumption; apply BigIntToBytes_shortest).
    apply encode_bytes_spec. apply written_bytes_bound; assumption.
  - rewrite int_bytes_bool. apply encode_bytes_spec. destruct b; reflexivity.
  - apply written_list_bound in H0. rewrite H by assumption. apply encode_list_spec. assumption.
  - reflexivity.
  - cbn [concat] in H1. rewrite zlen_app in H1. pose proof (zlen_nonneg _ (rlp_write x)). pose proof (zlen_nonneg _ (concat (map rlp_write xs))). f_equal; [apply H; lia|apply H0; lia].
Qed.

(** ** Reading *)
Lemma be_nonneg : forall b, bytes_ok b -> 0 <= be_val b.
Proof. intros b H. destruct (be_val_bound b H). assumption. Qed.
Lemma firstn_app_l : forall {A} n (a b : list A), (n <= length a)%nat -> firstn n (a ++ b) = firstn n a.
Proof. intros A n a b H. rewrite firstn_app. replace (n - length a)%nat with O by lia. cbn [firstn]. apply app_nil_r. Qed.

Ltac nolt := match goal with |- context [if ?a <? ?b then None else _] => replace (a <? b) with false by lia end.
(** header of a tree: what follows does not matter *)
Definition off_ts (t : rlp) : Z := zlen (rlp_write t) - match t with RNull => 0 | RBytes b => zlen b | RList l => zlen (concat (map rlp_write l)) end.
Definition is_list_item (t : rlp) : bool := match t with RBytes _ => false | _ => true end.
Definition body (t : rlp) : list Z := match t with RNull => [] | RBytes b => b | RList l => concat (map rlp_write l) end.
Lemma long_be : forall n, 56 <= n < 2 ^ 63 -> be_val (sizeToBytes n) = n.
Proof. intros n H. destruct (sizeToBytes_spec n H) as ((_ & E & _) & _). exact E. Qed.
Lemma header_of : forall t rest, rlp_ok t -> zlen (rlp_write t) < 2 ^ 63 ->
  exists h, rlp_write t = h ++ body t /\ decode_header (rlp_write t ++ rest) = Some (is_list_item t, zlen h, zlen (body t)) /\ (t <> RNull -> is_list_item t = true -> zlen h = 2 -> 56 <= zlen (body t)).
Proof.
  intros t rest Ok L. pose proof (zlen_nonneg _ rest) as R0. destruct t as [|b|l].
  - exists [248; 0]. split; [reflexivity|]. split; [|intros; congruence]. cbn [rlp_write writeNull app decode_header]. change (248 <? 128) with false. change (248 <? 184) with false. change (248 <? 192) with false. change (248 <? 248) with false. cbn [fst snd].
    change (Z.to_nat (248 - 247 + 1 - 1)) with 1%nat. cbn [firstn]. change (be_val [0]) with 0. rewrite !zlen_cons. nolt. reflexivity.
  - cbn [rlp_ok] in Ok. cbn [rlp_write] in *. pose proof (writeBytes_len b) as [LB _]. pose proof (zlen_nonneg _ b) as B0.
    destruct (writeBytes_header b Ok ltac:(lia)) as [(x & -> & Hx & E)|(Nx & h & E & _ & Hs & Hl)].
    + exists []. rewrite E. split; [reflexivity|]. cbn [app decode_header is_list_item body]. replace (x <? 128) with true by lia. cbn [fst snd]. rewrite !zlen_cons. nolt. split; [reflexivity|]. intros; discriminate.
    + exists h. split; [exact E|]. cbn [is_list_item body]. split; [|intros; discriminate]. rewrite E. destruct (Z.leb_spec (zlen b) 55) as [S|S].
      * rewrite Hs by lia. cbn [app decode_header]. replace (128 + zlen b <? 128) with false by lia. replace (128 + zlen b <? 184) with true by lia. cbn [fst snd]. rewrite zlen_cons, zlen_app, zlen_cons.
        nolt. change (zlen (@nil Z)) with 0. repeat f_equal; lia.
      * rewrite Hl by lia. destruct (sizeToBytes_spec (zlen b) ltac:(lia)) as (_ & S2 & _). pose proof (long_be (zlen b) ltac:(lia)) as LV. set (sz := sizeToBytes (zlen b)) in *. cbn [app decode_header].
        replace (183 + zlen sz <? 128) with false by lia. replace (183 + zlen sz <? 184) with false by lia. replace (183 + zlen sz <? 192) with true by lia. cbn [fst snd].
        replace (Z.to_nat (183 + zlen sz - 183 + 1 - 1)) with (length sz) by (unfold zlen; lia). rewrite <- app_assoc, firstn_app_l, firstn_all by lia.
        rewrite !LV. rewrite !zlen_cons, !zlen_app.
        nolt. repeat f_equal; lia.
  - cbn [rlp_write] in *. set (c := concat (map rlp_write l)) in *. pose proof (writeList_len c) as LB. pose proof (zlen_nonneg _ c) as C0.
    destruct (writeList_header c ltac:(lia)) as (h & E & _ & Hs & Hl). exists h. split; [exact E|]. cbn [is_list_item body]. fold c. rewrite E. destruct (Z.leb_spec (zlen c) 55) as [S|S].
    + rewrite Hs by lia. split; [|intros _ _ Q; rewrite zlen_cons in Q; change (zlen (@nil Z)) with 0 in Q; lia]. cbn [app decode_header]. replace (192 + zlen c <? 128) with false by lia. replace (192 + zlen c <? 184) with false by lia. replace (192 + zlen c <? 192) with false by lia. replace (192 + zlen c <? 248) with true by lia. cbn [fst snd]. rewrite zlen_cons, zlen_app, zlen_cons.
      nolt. change (zlen (@nil Z)) with 0. repeat f_equal; lia.
    + rewrite Hl by lia. destruct (sizeToBytes_spec (zlen c) ltac:(lia)) as (_ & S2 & _). pose proof (long_be (zlen c) ltac:(lia)) as LV. set (sz := sizeToBytes (zlen c)) in *. split; [|intros; lia]. cbn [app decode_header].
      replace (247 + zlen sz <? 128) with false by lia. replace (247 + zlen sz <? 184) with false by lia. replace (247 + zlen sz <? 192) with false by lia. replace (247 + zlen sz <? 248) with false by lia. cbn [fst snd].
      replace (Z.to_nat (247 + zlen sz - 247 + 1 - 1)) with (length sz) by (unfold zlen; lia). rewrite <- app_assoc, firstn_app_l, firstn_all by lia.
      rewrite !LV. rewrite !zlen_cons, !zlen_app.
      nolt. repeat f_equal; lia.
Qed.
Lemma elements_of : forall l f rest, Forall rlp_ok l -> Forall (fun t => zlen (rlp_write t) < 2 ^ 63) l -> rest = [] -> (length (concat (map rlp_write l)) <= f)%nat ->
  elements f (concat (map rlp_write l) ++ rest) = Some (map rlp_write l).
Proof.
  induction l as [|t l IH]; intros f rest Ok Sm -> Hf; [destruct f; reflexivity|]. rewrite app_nil_r. inversion Ok as [|? ? O1 O2]; subst. inversion Sm as [|? ? S1 S2]; subst.
  cbn [map concat] in *. pose proof (rlp_write_pos t) as P. rewrite app_length in Hf.
  destruct (header_of t (concat (map rlp_write l)) O1 S1) as (h & E & D & _). 
  destruct f as [|f]; [unfold zlen in P; lia|].
  destruct (rlp_write t ++ concat (map rlp_write l)) as [|z s] eqn:EQ. { apply (f_equal (@length Z)) in EQ. rewrite app_length in EQ. cbn [length] in EQ. unfold zlen in P. lia. }
  cbn [elements]. rewrite D. cbn [fst snd]. rewrite <- EQ. 
  assert (N : Z.to_nat (zlen h + zlen (body t)) = length (rlp_write t)). { rewrite <- zlen_app, <- E. unfold zlen. lia. }
  rewrite N. rewrite skipn_app, skipn_all, Nat.sub_diag. cbn [skipn app]. rewrite firstn_app, firstn_all, Nat.sub_diag. cbn [firstn]. rewrite app_nil_r.
  specialize (IH f [] O2 S2 eq_refl). rewrite app_nil_r in IH. rewrite IH; [reflexivity|]. unfold zlen in P. lia.
Qed.
Definition part_of (t : rlp) : part := match t with RNull => NullPart | RBytes b => BytesPart b | RList l => ListPart (map rlp_write l) end.
Lemma part_written : forall t rest, rlp_ok t -> zlen (rlp_write t) < 2 ^ 63 -> decode_part (rlp_write t ++ rest) = Some (part_of t, rest).
Proof.
  intros t rest Ok L. destruct (header_of t rest Ok L) as (h & E & D & NL). unfold decode_part. rewrite D.
  assert (N : Z.to_nat (zlen h + zlen (body t)) = length (rlp_write t)). { rewrite <- zlen_app, <- E. unfold zlen. lia. }
  rewrite N. replace (skipn (length (rlp_write t)) (rlp_write t ++ rest)) with rest by (rewrite skipn_app, skipn_all, Nat.sub_diag; reflexivity).
  assert (B : firstn (Z.to_nat (zlen (body t))) (skipn (Z.to_nat (zlen h)) (rlp_write t ++ rest)) = body t).
  { rewrite E, <- app_assoc. rewrite !to_nat_zlen. rewrite skipn_app, skipn_all, Nat.sub_diag. cbn [skipn app]. rewrite firstn_app_l, firstn_all by lia. reflexivity. }
  rewrite B. destruct t as [|b|l]; cbn [is_list_item body part_of] in *.
  - rewrite app_nil_r in E. subst h. reflexivity.
  - reflexivity.
  - replace ((zlen h =? 2) && (zlen (concat (map rlp_write l)) =? 0)) with false.
    2:{ destruct (Z.eqb_spec (zlen h) 2) as [Q|Q]; [|reflexivity]. specialize (NL ltac:(discriminate) eq_refl Q). lia. }
    assert (SC : Forall (fun t => zlen (rlp_write t) < 2 ^ 63) l) by (apply small_children in L; intuition).
    pose proof (elements_of l (length (concat (map rlp_write l))) [] (rlp_ok_in l Ok) SC eq_refl ltac:(lia)) as EL. rewrite app_nil_r in EL. rewrite EL. reflexivity.
Qed.

(** ** Values *)
Lemma tc_int_value : forall b, tc_int b = tc_value b.
Proof. intros [|x b]; reflexivity. Qed.
Lemma ty_ind2 : forall P : ty -> Prop, P TBytes -> P TInt -> P TStr -> P TBool -> P TList -> (forall l, Forall P l -> P (TFields l)) -> (forall t, P t -> P (TOf (Some t))) -> P (TOf None) -> forall t, P t.
Proof.
  intros P H1 H2 H3 H4 H5 H6 H7 H8. fix IH 1. intros [| | | | |l|[t|]]; try assumption.
  - apply H6. induction l as [|t l IHl]; constructor; [apply IH|exact IHl].
  - apply H7. apply IH.
Qed.
Lemma decode_same : forall utf8 f t bs v t', dictless t -> decode utf8 f bs t = Some (v, t') -> t' = t.
Proof.
  intros utf8. induction f as [|f IH]; intros t bs v t' DL; cbn [decode]; [discriminate|].
  destruct (decode_part bs) as [(p, [|? ?])|]; try discriminate.
  destruct t as [| | | | |ts|o]; try (destruct (from_bytes utf8 p _); [intros E; inversion E; reflexivity|discriminate]).
  - destruct p as [| |l]; try discriminate. destruct (length ts <? length l)%nat; [discriminate|].
    assert (K : forall l ts vs us, fold_right (fun t p => dictless t /\ p) True ts -> fields (decode utf8 f) l ts = Some (vs, us) -> us = ts).
    { clear - IH. induction l as [|e l IHl]; intros ts vs us D; cbn [fields]; [destruct ts; intros E; inversion E; reflexivity|].
      destruct ts as [|t ts]; [discriminate|]. cbn [fold_right] in D. destruct D as (D1 & D2). destruct (decode utf8 f e t) as [(v, t')|] eqn:E; [|discriminate].
      destruct (fields (decode utf8 f) l ts) as [(vs2, us2)|] eqn:E2; [|discriminate]. intros Q; inversion Q; subst. f_equal; [exact (IH _ _ _ _ D1 E)|exact (IHl _ _ _ D2 E2)]. }
    cbn [dictless] in DL. destruct (fields (decode utf8 f) l ts) as [(vs, us)|] eqn:E; [|discriminate]. intros Q; inversion Q; subst. f_equal. exact (K _ _ _ _ DL E).
  - contradiction.
Qed.
Lemma dictless_plain : forall t, dictless t -> plain_ty t.
Proof.
  apply (ty_ind2 (fun t => dictless t -> plain_ty t)); cbn [dictless plain_ty]; try tauto.
  intros l F. induction F as [|t l Ht F IH]; cbn [fold_right]; tauto.
Qed.
Lemma decode_reads : forall utf8 f t x v, plain_ty t -> (depth t <= f)%nat -> rlp_ok x -> zlen (rlp_write x) < 2 ^ 63 ->
  (exists t', decode utf8 f (rlp_write x) t = Some (v, t')) <-> reads utf8 t x v.
Proof.
  intros utf8. induction f as [|f IH]; intros t x v Pl Df Ok Sm. { destruct t as [| | | | |ts|[t|]]; cbn [depth] in Df; lia. }
  cbn [decode]. pose proof (part_written x [] Ok Sm) as PW. rewrite app_nil_r in PW. rewrite PW. clear PW.
  assert (Q : forall (a : pyval) (o : option pyval) (t0 : ty), (exists t' : ty, match o with Some v0 => Some (v0, t0) | None => None end = Some (a, t')) <-> o = Some a).
  { intros a [o|] t0; split; [intros (t' & E); inversion E; reflexivity|intros E; inversion E; eexists; reflexivity|intros (? & E); discriminate|discriminate]. }
  destruct t as [| | | | |ts|o].
  1-5: rewrite (Q v); destruct x as [|b|l]; cbn [part_of from_bytes]; split; intros E.
  all: try (inversion E; subst; constructor; exact I).
  all: try (inversion E; subst; reflexivity).
  all: try discriminate.
  all: try (inversion E; fail).
  - destruct (utf8 b) eqn:U; [|discriminate]. inversion E; subst. constructor. exact U.
  - inversion E; subst. match goal with H : utf8 _ = true |- _ => rewrite H end. reflexivity.
  - destruct b as [|z [|y b]]; [discriminate| |]. 
    + destruct z as [|[p|p|]|p]; try discriminate; inversion E; subst; [apply (r_bool utf8 false)|apply (r_bool utf8 true)].
    + destruct z as [|[p|p|]|p]; discriminate.
  - inversion E; subst. match goal with |- context [if ?b then 1 else 0] => destruct b end; reflexivity.
  - inversion E; subst. rewrite map_map. constructor.
  - inversion E; subst. rewrite map_map. reflexivity.
  - (* fields *) clear Q. cbn [depth] in Df. cbn [plain_ty] in Pl.
    destruct x as [|b|l]; cbn [part_of]; [split; [intros (? & ?); discriminate|inversion 1; contradiction]|split; [intros (? & ?); discriminate|inversion 1]|].
    pose proof (rlp_ok_in l Ok) as OkL. pose proof (proj2 (small_children l Sm)) as SmL.
    assert (K : forall l ts vs, fold_right (fun t p => plain_ty t /\ p) True ts -> (fold_right (fun t n => Nat.max (depth t) n) O ts <= f)%nat -> Forall rlp_ok l -> Forall (fun t => zlen (rlp_write t) < 2 ^ 63) l ->
      (exists us, fields (decode utf8 f) (map rlp_write l) ts = Some (vs, us)) <-> reads_fields utf8 ts l vs).
    { clear - IH. induction l as [|x l IHl]; intros ts vs Pl Df OkL SmL; cbn [map fields].
      - split; [intros (us & E); destruct ts; inversion E; subst; constructor|inversion 1; subst; destruct ts; eexists; reflexivity].
      - destruct ts as [|t ts]; [split; [intros (? & ?); discriminate|inversion 1]|]. cbn [fold_right] in Pl, Df. inversion OkL as [|? ? O1 O2]; subst. inversion SmL as [|? ? S1 S2]; subst.
        split.
        + intros (us & E). destruct (decode utf8 f (rlp_write x) t) as [(v, t')|] eqn:E1; [|discriminate]. destruct (fields (decode utf8 f) (map rlp_write l) ts) as [(vs2, us2)|] eqn:E2; [|discriminate]. inversion E; subst.
          constructor; [apply (IH t x v); try tauto; try lia; eauto|apply (IHl ts vs2); try tauto; try lia; eauto].
        + intros R. inversion R as [|? ? ? ? v vs2 R1 R2]; subst. apply (IH t x v) in R1 as (t' & E1); try tauto; try lia. apply (IHl ts vs2) in R2 as (us2 & E2); try tauto; try lia. rewrite E1, E2. eexists; reflexivity. }
    specialize (K l ts). rewrite map_length. destruct (Nat.ltb_spec (length ts) (length l)) as [LT|LT].
    + split; [intros (? & ?); discriminate|]. intros R. inversion R as [| | | | | |? ? vs RF|]; subst. exfalso. clear - RF LT. revert ts vs RF LT. induction l as [|x l IHl]; intros ts vs RF LT; cbn [length] in LT; [lia|].
      inversion RF; subst. cbn [length] in LT. eapply IHl; [eassumption|lia].
    + split.
      * intros (t' & E). destruct (fields (decode utf8 f) (map rlp_write l) ts) as [(vs, us)|] eqn:EF; [|discriminate]. inversion E; subst. constructor. apply K; try assumption; try lia. eauto.
      * intros R. inversion R as [| | | | | |? ? vs RF|]; subst. apply K in RF as (us & E); try assumption; try lia. rewrite E. eexists; reflexivity.
  - (* all *) clear Q. destruct o as [t|]; [|contradiction]. cbn [depth] in Df. cbn [plain_ty] in Pl.
    destruct x as [|b|l]; cbn [part_of]; [split; [intros (? & ?); discriminate|inversion 1; contradiction]|split; [intros (? & ?); discriminate|inversion 1]|].
    pose proof (rlp_ok_in l Ok) as OkL. pose proof (proj2 (small_children l Sm)) as SmL.
    assert (K : forall l vs, Forall rlp_ok l -> Forall (fun t => zlen (rlp_write t) < 2 ^ 63) l -> alls (decode utf8 f) (map rlp_write l) t = Some vs <-> reads_all utf8 t l vs).
    { clear - IH Pl Df. induction l as [|x l IHl]; intros vs OkL SmL; cbn [map alls].
      - split; [intros E; inversion E; constructor|inversion 1; reflexivity].
      - inversion OkL as [|? ? O1 O2]; subst. inversion SmL as [|? ? S1 S2]; subst. split.
        + intros E. destruct (decode utf8 f (rlp_write x) t) as [(v, t')|] eqn:E1; [|discriminate]. pose proof (decode_same _ _ _ _ _ _ Pl E1); subst t'.
          destruct (alls (decode utf8 f) (map rlp_write l) t) as [vs2|] eqn:E2; [|discriminate]. inversion E; subst.
          constructor; [apply (IH t x v); try assumption; try lia; [apply dictless_plain; assumption|eauto]|apply (proj1 (IHl vs2 O2 S2)); reflexivity].
        + intros R. inversion R as [|? ? ? v vs2 R1 R2]; subst. apply (IH t x v) in R1 as (t' & E1); try assumption; try lia; [|apply dictless_plain; assumption]. rewrite E1. pose proof (decode_same _ _ _ _ _ _ Pl E1); subst t'.
          apply (IHl vs2) in R2; try assumption. rewrite R2. reflexivity. }
    split.
    + intros (t' & E). destruct (alls (decode utf8 f) (map rlp_write l) t) as [vs|] eqn:EF; [|discriminate]. inversion E; subst. constructor. apply K; assumption.
    + intros R. inversion R as [| | | | | | |? ? vs RF]; subst. apply K in RF; try assumption. rewrite RF. eexists; reflexivity.
Qed.
Lemma rlp_decode_reads : forall utf8 t x v, plain_ty t -> rlp_ok x -> zlen (rlp_write x) < 2 ^ 63 -> rlp_decode utf8 (rlp_write x) t = Some v <-> reads utf8 t x v.
Proof.
  intros utf8 t x v Pl Ok Sm. rewrite <- (decode_reads utf8 (depth t) t x v Pl (le_n _) Ok Sm). unfold rlp_decode.
  destruct (decode utf8 (depth t) (rlp_write x) t) as [(v2, t')|]; split; intros E; [inversion E; subst; eauto|destruct E as (? & E); inversion E; reflexivity|discriminate|destruct E; discriminate].
Qed.

(** ** Cut input *)
Lemma ok_firstn : forall n l, bytes_ok l -> bytes_ok (firstn n l).
Proof. induction n; intros [|x l] H; cbn [firstn]; try constructor; inversion H; subst; [assumption|apply IHn; assumption]. Qed.
Lemma header_cut : forall s l ts size k, bytes_ok s -> decode_header s = Some (l, ts, size) -> Z.of_nat k < ts + size -> decode_header (firstn k s) = None.
Proof.
  intros s l ts size k Ok. destruct s as [|b r]; [discriminate|]. destruct k as [|k]; [reflexivity|]. cbn [firstn decode_header]. inversion Ok as [|? ? Hb Hr]; subst. unfold is_byte in Hb.
  assert (Q : forall n, 0 <= be_val (firstn n (firstn k r))). { intros n. apply be_nonneg. apply ok_firstn. apply ok_firstn. exact Hr. }
  assert (Lk : zlen (b :: firstn k r) <= Z.of_nat k + 1) by (rewrite zlen_cons; unfold zlen; rewrite firstn_length; lia).
  assert (EQ : forall n, (n <= k)%nat -> firstn n (firstn k r) = firstn n r) by (intros n Hn; rewrite firstn_firstn; f_equal; lia).
  destruct (b <? 128). { cbn [fst snd]. destruct (zlen (b :: r) <? 0 + 1); [discriminate|]. intros E K. inversion E; subst. lia. }
  destruct (b <? 184). { cbn [fst snd]. destruct (zlen (b :: r) <? 1 + (b - 128)); [discriminate|]. intros E K. inversion E; subst. replace (zlen (b :: firstn k r) <? 1 + (b - 128)) with true by lia. reflexivity. }
  destruct (b <? 192) eqn:E192.
  { cbn [fst snd]. destruct (zlen (b :: r) <? _) eqn:W; [discriminate|]. intros E K. inversion E; subst. clear E.
    specialize (Q (Z.to_nat (b - 183 + 1 - 1))). destruct (Nat.le_gt_cases (Z.to_nat (b - 183 + 1 - 1)) k) as [C|C].
    - rewrite (EQ _ C). match goal with |- (if ?a <? ?b then _ else _) = _ => replace (a <? b) with true by lia end. reflexivity.
    - match goal with |- (if ?a <? ?b then _ else _) = _ => replace (a <? b) with true by lia end. reflexivity. }
  destruct (b <? 248). { cbn [fst snd]. destruct (zlen (b :: r) <? 1 + (b - 192)); [discriminate|]. intros E K. inversion E; subst. replace (zlen (b :: firstn k r) <? 1 + (b - 192)) with true by lia. reflexivity. }
  cbn [fst snd]. destruct (zlen (b :: r) <? _) eqn:W; [discriminate|]. intros E K. inversion E; subst. clear E.
  specialize (Q (Z.to_nat (b - 247 + 1 - 1))). destruct (Nat.le_gt_cases (Z.to_nat (b - 247 + 1 - 1)) k) as [C|C].
  - rewrite (EQ _ C). match goal with |- (if ?a <? ?b then _ else _) = _ => replace (a <? b) with true by lia end. reflexivity.
  - match goal with |- (if ?a <? ?b then _ else _) = _ => replace (a <? b) with true by lia end. reflexivity.
Qed.

(** ** base64 *)
Lemma letter_chr : forall i, 0 <= i < 64 -> letter i (chr64 i).
Proof.
  intros i H. assert (C : forall n, (n < 64)%nat -> letter (Z.of_nat n) (chr64 (Z.of_nat n))).
  { intros n Hn. do 64 (destruct n as [|n]; [vm_compute; intuition congruence|]). lia. }
  specialize (C (Z.to_nat i)). rewrite Z2Nat.id in C by lia. apply C. lia.
Qed.
Lemma letter_from : forall i c, letter i c -> from64 c = i /\ 0 <= i < 64 /\ c <> 61 /\ 0 <= c < 128.
Proof.
  intros i c H. assert (R : 0 <= i < 64) by (unfold letter in H; lia).
  assert (C : forall n, (n < 64)%nat -> from64 (chr64 (Z.of_nat n)) = Z.of_nat n).
  { intros n Hn. do 64 (destruct n as [|n]; [vm_compute; reflexivity|]). lia. }
  assert (E : c = chr64 i). { pose proof (letter_chr i R) as L. unfold letter in H, L. lia. }
  specialize (C (Z.to_nat i)). rewrite Z2Nat.id in C by lia. split; [rewrite E; apply C; lia|]. split; [exact R|]. unfold letter in H. lia.
Qed.
Lemma lor_add : forall k x b, 0 <= k -> 0 <= b < 2 ^ k -> Z.lor (x * 2 ^ k) b = x * 2 ^ k + b.
Proof.
  intros k x b Hk Hb. assert (L : Z.land (x * 2 ^ k) b = 0); [|rewrite Z.add_nocarry_lxor, Z.lxor_lor by exact L; reflexivity]. apply Z.bits_inj'. intros n Hn. rewrite Z.land_spec, Z.bits_0.
  destruct (Z.ltb_spec n k) as [C|C].
  - rewrite Z.mul_pow2_bits_low by lia. reflexivity.
  - destruct (Z.eq_dec b 0) as [->|NZ]; [rewrite Z.bits_0; apply andb_false_r|]. rewrite (Z.bits_above_log2 b n); [apply andb_false_r|lia|]. apply Z.log2_lt_pow2; [lia|]. eapply Z.lt_le_trans; [apply Hb|]. apply Z.pow_le_mono_r; lia.
Qed.
Lemma land63 : forall v, Z.land v 63 = v mod 64.
Proof. intros v. change 63 with (Z.ones 6). rewrite Z.land_ones by lia. reflexivity. Qed.
Lemma shl : forall k v, 0 <= k -> Z.shiftl v k = v * 2 ^ k.
Proof. intros. apply Z.shiftl_mul_pow2. assumption. Qed.
Lemma shr : forall k v, 0 <= k -> Z.shiftr v k = v / 2 ^ k.
Proof. intros. apply Z.shiftr_div_pow2. assumption. Qed.

Lemma encode_ok : forall n b, (length b < n)%nat -> bytes_ok b -> base64 b (b64_encode b).
Proof.
  induction n as [|n IH]; intros b L Ok; [lia|]. destruct b as [|a [|b [|c r]]].
  - constructor.
  - inversion Ok as [|? ? A _]; subst. unfold is_byte in A. cbn [b64_encode]. change PAD with 61. rewrite shr, shl, land63 by lia. change (2 ^ 2) with 4. change (2 ^ 4) with 16.
    pose proof (Z.div_mod a 4). pose proof (Z.mod_pos_bound a 4).
    apply (b_one a (a / 4) ((a * 16) mod 64)); [apply letter_chr|apply letter_chr|].
    + split; [apply Z.div_pos; lia|apply Z.div_lt_upper_bound; lia].
    + apply Z.mod_pos_bound. lia.
    + replace (a * 16) with ((a mod 4) * 16 + (a / 4) * 64) by lia. rewrite Z.mod_add by lia. rewrite (Z.mod_small (a mod 4 * 16)) by lia. lia.
  - inversion Ok as [|? ? A Ok2]; subst. inversion Ok2 as [|? ? B _]; subst. unfold is_byte in A, B. cbn [b64_encode]. change PAD with 61. rewrite !shr, !shl, !land63 by lia.
    pose proof (Z.div_mod a 4). pose proof (Z.mod_pos_bound a 4). pose proof (Z.div_mod b 16). pose proof (Z.mod_pos_bound b 16).
    assert (BD : 0 <= b / 16 < 16) by (split; [apply Z.div_pos; lia|apply Z.div_lt_upper_bound; lia]).
    replace ((a * 2 ^ 4) mod 64) with ((a mod 4) * 2 ^ 4).
    2:{ change (2 ^ 4) with 16. replace (a * 16) with ((a mod 4) * 16 + (a / 4) * 64) by lia. rewrite Z.mod_add by lia. rewrite (Z.mod_small (a mod 4 * 16)) by lia. reflexivity. }
    rewrite lor_add by (change (2 ^ 4) with 16; lia). change (2 ^ 4) with 16. change (2 ^ 2) with 4.
    replace ((b * 4) mod 64) with ((b mod 16) * 4) by (replace (b * 4) with ((b mod 16) * 4 + (b / 16) * 64) by lia; rewrite Z.mod_add by lia; rewrite (Z.mod_small (b mod 16 * 4)) by lia; reflexivity).
    apply (b_two a b (a / 4) (a mod 4 * 16 + b / 16) (b mod 16 * 4)); try apply letter_chr; lia.
  - inversion Ok as [|? ? A Ok2]; subst. inversion Ok2 as [|? ? B Ok3]; subst. inversion Ok3 as [|? ? C Ok4]; subst. unfold is_byte in A, B, C. cbn [b64_encode length] in *.
    rewrite !shl by lia. replace (Z.lor (Z.lor (a * 2 ^ 16) (b * 2 ^ 8)) c) with (a * 65536 + b * 256 + c).
    2:{ rewrite (lor_add 16 a) by (change (2 ^ 16) with 65536; change (2 ^ 8) with 256; lia). replace (a * 2 ^ 16 + b * 2 ^ 8) with ((a * 256 + b) * 2 ^ 8) by (change (2 ^ 16) with 65536; change (2 ^ 8) with 256; lia).
        rewrite lor_add by (change (2 ^ 8) with 256; lia). change (2 ^ 8) with 256. lia. }
    set (v := a * 65536 + b * 256 + c). rewrite !shr, !land63 by lia. change (2 ^ 18) with (64 * (64 * 64)). change (2 ^ 12) with (64 * 64). change (2 ^ 6) with 64.
    rewrite <- !Z.div_div by lia.
    pose proof (Z.div_mod v 64). pose proof (Z.div_mod (v / 64) 64). pose proof (Z.div_mod (v / 64 / 64) 64).
    pose proof (Z.mod_pos_bound v 64). pose proof (Z.mod_pos_bound (v / 64) 64). pose proof (Z.mod_pos_bound (v / 64 / 64) 64).
    assert (V : 0 <= v < 16777216) by (unfold v; lia).
    assert (T : 0 <= v / 64 / 64 / 64 < 64) by lia. rewrite (Z.mod_small (v / 64 / 64 / 64)) by exact T.
    apply (b_three a b c (v / 64 / 64 / 64) (v / 64 / 64 mod 64) (v / 64 mod 64) (v mod 64)); try apply letter_chr; try lia; try (apply Z.mod_pos_bound; lia).
    apply IH; [lia|assumption].
Qed.

(** reading groups of letters *)
Lemma step64 : forall i c r bits sh out, letter i c -> 6 <= sh -> b64_loop (c :: r) bits sh out = b64_loop r (Z.lor bits (i * 2 ^ sh)) (sh - 6) out.
Proof.
  intros i c r bits sh out L S. destruct (letter_from i c L) as (F & R & _). cbn [b64_loop]. rewrite F. replace (i <? 0) with false by lia. replace (sh - 6 <? 0) with false by lia. rewrite shl by lia. reflexivity.
Qed.
Lemma step64_0 : forall i c r bits out, letter i c -> let v := Z.lor bits i in
  b64_loop (c :: r) bits 0 out = b64_loop r 0 18 (out ++ [v / 65536 mod 256; v / 256 mod 256; v mod 256]).
Proof.
  intros i c r bits out L v. destruct (letter_from i c L) as (F & R & _). cbn [b64_loop]. rewrite F. replace (i <? 0) with false by lia. replace (0 - 6 <? 0) with true by lia. rewrite shl by lia. change (2 ^ 0) with 1. rewrite Z.mul_1_r. fold v.
  rewrite !land_255, !shr by lia. reflexivity.
Qed.
Lemma bits2 : forall i j, 0 <= i < 64 -> 0 <= j < 64 -> Z.lor (Z.lor 0 (i * 2 ^ 18)) (j * 2 ^ 12) = (64 * i + j) * 4096.
Proof. intros. rewrite Z.lor_0_l, lor_add by lia. lia. Qed.
Lemma bits3 : forall i j k, 0 <= k < 64 -> Z.lor ((64 * i + j) * 4096) (k * 2 ^ 6) = (64 * (64 * i + j) + k) * 64.
Proof. intros. change 4096 with (2 ^ 12). rewrite lor_add by lia. lia. Qed.
Lemma bits4 : forall i j k l, 0 <= l < 64 -> Z.lor ((64 * (64 * i + j) + k) * 64) l = 64 * (64 * (64 * i + j) + k) + l.
Proof. intros. change 64 with (2 ^ 6) at 3. rewrite lor_add by lia. change (2 ^ 6) with 64. lia. Qed.
Lemma three_bytes : forall v a b x, v = 256 * (256 * a + b) + x -> is_byte a -> is_byte b -> is_byte x -> [v / 65536 mod 256; v / 256 mod 256; v mod 256] = [a; b; x].
Proof.
  unfold is_byte. intros v a b x -> A B X. assert (E1 : (256 * (256 * a + b) + x) / 256 = 256 * a + b) by (rewrite Z.mul_comm, Z.div_add_l by lia; rewrite Z.div_small by lia; lia).
  assert (E0 : (256 * (256 * a + b) + x) / 65536 = a) by (change 65536 with (256 * 256); rewrite <- Z.div_div by lia; rewrite E1; rewrite Z.mul_comm, Z.div_add_l by lia; rewrite Z.div_small by lia; lia).
  rewrite E0, E1. rewrite (Z.mod_small a) by lia.
  rewrite (Z.add_comm (256 * a)), Z.mul_comm, Z.mod_add by lia. rewrite (Z.mod_small b) by lia.
  rewrite (Z.add_comm _ x), (Z.mul_comm 256), Z.mod_add by lia. rewrite (Z.mod_small x) by lia. reflexivity.
Qed.
(** the loop over a whole text: what is still to be added, and nothing left *)
Lemma loop64 : forall b s, base64 b s -> bytes_ok b -> forall out, exists bits sh got, b64_loop s 0 18 out = Some (bits, sh, out ++ got, []) /\ sh <> 12 /\
  got ++ (if sh =? 6 then [Z.land (Z.shiftr bits 16) 255] else if sh =? 0 then [Z.land (Z.shiftr bits 16) 255; Z.land (Z.shiftr bits 8) 255] else []) = b.
Proof.
  induction 1 as [|a i j c d L1 L2 E|a b i j k c d e L1 L2 L3 E|a b x i j k l c d e f r s L1 L2 L3 L4 E B IH]; intros Ok out.
  - exists 0, 18, []. cbn [b64_loop]. rewrite app_nil_r. split; [reflexivity|]. split; [lia|reflexivity].
  - destruct (letter_from _ _ L1) as (_ & R1 & _). destruct (letter_from _ _ L2) as (_ & R2 & _). inversion Ok as [|? ? A _]; subst. unfold is_byte in A.
    rewrite (step64 i c), (step64 j d) by (assumption || lia). change (18 - 6 - 6) with 6. change (18 - 6) with 12. rewrite bits2 by assumption. exists ((64 * i + j) * 4096), 6, []. rewrite app_nil_r. cbn [b64_loop].
    split; [reflexivity|]. split; [lia|]. change (6 =? 6) with true. cbn [app]. rewrite land_255, shr by lia. f_equal. rewrite E. change (2 ^ 16) with 65536. replace (16 * a * 4096) with (a * 65536) by lia. rewrite Z.div_mul by lia. apply Z.mod_small. lia.
  - destruct (letter_from _ _ L1) as (_ & R1 & _). destruct (letter_from _ _ L2) as (_ & R2 & _). destruct (letter_from _ _ L3) as (_ & R3 & _). inversion Ok as [|? ? A Ok2]; subst. inversion Ok2 as [|? ? B _]; subst.
    rewrite (step64 i c), (step64 j d), (step64 k e) by (assumption || lia). change (18 - 6 - 6 - 6) with 0. change (18 - 6 - 6) with 6. change (18 - 6) with 12. rewrite bits2, bits3 by assumption. exists ((64 * (64 * i + j) + k) * 64), 0, []. rewrite app_nil_r. cbn [b64_loop].
    split; [reflexivity|]. split; [lia|]. change (0 =? 6) with false. change (0 =? 0) with true. cbn [app]. rewrite !land_255, !shr by lia. rewrite E. change (2 ^ 16) with 65536. change (2 ^ 8) with 256.
    pose proof (three_bytes (4 * (256 * a + b) * 64) a b 0 ltac:(lia) A B ltac:(unfold is_byte; lia)) as T. apply (f_equal (firstn 2)) in T. cbn [firstn] in T. exact T.
  - destruct (letter_from _ _ L1) as (_ & R1 & _). destruct (letter_from _ _ L2) as (_ & R2 & _). destruct (letter_from _ _ L3) as (_ & R3 & _). destruct (letter_from _ _ L4) as (_ & R4 & _).
    inversion Ok as [|? ? A Ok2]; subst. inversion Ok2 as [|? ? B2 Ok3]; subst. inversion Ok3 as [|? ? X Ok4]; subst.
    rewrite (step64 i c), (step64 j d), (step64 k e) by (assumption || lia). change (18 - 6 - 6 - 6) with 0. change (18 - 6 - 6) with 6. change (18 - 6) with 12. rewrite bits2, bits3 by assumption. rewrite (step64_0 l f) by assumption. rewrite bits4 by assumption.
    rewrite (three_bytes _ a b x E A B2 X). destruct (IH Ok4 (out ++ [a; b; x])) as (bits & sh & got & E1 & E2 & E3). exists bits, sh, ([a; b; x] ++ got). rewrite E1, <- app_assoc. split; [reflexivity|]. split; [exact E2|]. rewrite <- app_assoc, E3. reflexivity.
Qed.
(** lengths and the place of the padding *)
Lemma shape64 : forall b s, base64 b s -> exists n p, zlen s = 4 * n /\ 0 <= n /\ zlen b = 3 * n - p /\ 0 <= p <= 2 /\ (s <> [] -> 1 <= n) /\
  p = (if nth (length s - 1) s 0 =? PAD then 1 else 0) + (if nth (length s - 2) s 0 =? PAD then 1 else 0) /\ Forall (fun c => c < 128) s.
Proof.
  induction 1 as [|a i j c d L1 L2 E|a b i j k c d e L1 L2 L3 E|a b x i j k l c d e f r s L1 L2 L3 L4 E B IH].
  - exists 0, 0. repeat split; try (cbn; lia). 2: constructor. congruence.
  - destruct (letter_from _ _ L1) as (_ & _ & N1 & ?). destruct (letter_from _ _ L2) as (_ & _ & N2 & ?). exists 1, 2. repeat split; try (cbn; lia). repeat (constructor; [lia|]). constructor.
  - destruct (letter_from _ _ L1) as (_ & _ & N1 & ?). destruct (letter_from _ _ L2) as (_ & _ & N2 & ?). destruct (letter_from _ _ L3) as (_ & _ & N3 & ?). exists 1, 1. repeat split; try (cbn; lia).
    + cbn [length nth Nat.sub]. change (61 =? PAD) with true. replace (e =? PAD) with false by (unfold PAD; lia). reflexivity.
    + repeat (constructor; [lia|]). constructor.
  - destruct (letter_from _ _ L1) as (_ & _ & N1 & ?). destruct (letter_from _ _ L2) as (_ & _ & N2 & ?). destruct (letter_from _ _ L3) as (_ & _ & N3 & ?). destruct (letter_from _ _ L4) as (_ & _ & N4 & ?).
    destruct IH as (n & p & Z1 & Z2 & Z3 & Z4 & Z5 & Z6 & Z7). exists (n + 1), p. rewrite !zlen_cons. repeat split; try lia.
    + destruct s as [|s0 s].
      * cbn [length nth Nat.sub] in *. change (zlen (@nil Z)) with 0 in Z1. replace (f =? PAD) with false by (unfold PAD; lia). replace (e =? PAD) with false by (unfold PAD; lia). rewrite Z6. reflexivity.
      * assert (LL : (4 <= length (s0 :: s))%nat) by (specialize (Z5 ltac:(discriminate)); unfold zlen in Z1; lia). set (q := s0 :: s) in *.
        replace (length (c :: d :: e :: f :: q) - 1)%nat with (4 + (length q - 1))%nat by (cbn [length]; lia). replace (length (c :: d :: e :: f :: q) - 2)%nat with (4 + (length q - 2))%nat by (cbn [length]; lia). cbn [Nat.add nth]. exact Z6.
    + repeat (constructor; [lia|]). exact Z7.
Qed.
Lemma decode64 : forall b s, base64 b s -> bytes_ok b -> b64_decode s = Some b.
Proof.
  intros b s B Ok. destruct (shape64 b s B) as (n & p & Z1 & Z2 & Z3 & Z4 & Z5 & Z6 & _). unfold b64_decode.
  assert (DL : decode_length s = Some (zlen b)).
  { unfold decode_length. destruct s as [|s0 s]; [inversion B; reflexivity|]. specialize (Z5 ltac:(discriminate)). set (q := s0 :: s) in *. replace (zlen q =? 0) with false by lia. replace (zlen q <? 2) with false by lia. cbv zeta. rewrite <- Z6.
    rewrite Z1. rewrite (Z.mul_comm 4), Z.mod_mul by lia. change (negb (0 =? 0)) with false. rewrite andb_false_r. rewrite Z.div_add_l by lia. change (3 / 4) with 0. f_equal. lia. }
  rewrite DL. destruct (loop64 b s B Ok []) as (bits & sh & got & E & NS & G). rewrite E. replace (sh =? 12) with false by lia. cbn [app]. rewrite G. rewrite Z.ltb_irrefl, Z.sub_diag. cbn [Z.to_nat repeat]. rewrite app_nil_r. reflexivity.
Qed.
