(** Lemmas for codec.MP: what is written is the shortest form, and readers look only at what they use. *)
From Coq Require Import String Ascii ZArith List Bool Lia Permutation Sorted.
From Coq Require Import ZifyBool.
From Verif Require Import Base L_Base GoStr GoSort M_IntConv M_Rlp S_Rlp L_Rlp L_Address M_Codec S_Codec L_Codec T_Codec M_MsgPack S_MsgPack L_MsgPack L_MsgPack2.
Import ListNotations.
Open Scope Z_scope.

(** * Writing *)
Lemma digits_step : forall k j z, 2 ^ j = Z.of_nat k -> 0 <= z < 256 ^ Z.of_nat k -> digits j z (be_fixed k z).
Proof. exact digits_be. Qed.
Lemma uint_form : forall z, 0 <= z < 2 ^ 64 -> number_form z (mp_uint z).
Proof.
  intros z R. unfold mp_uint. destruct (Z.leb_spec z 127); [left; split; [lia|reflexivity]|]. right. right.
  destruct (Z.leb_spec z 255); [|destruct (Z.leb_spec z 65535); [|destruct (Z.leb_spec z 4294967295)]].
  - exists 0, (be_fixed 1 z). split; [lia|]. left. split; [reflexivity|]. apply digits_be; [reflexivity|]. change (256 ^ Z.of_nat 1) with 256. lia.
  - exists 1, (be_fixed 2 z). split; [lia|]. left. split; [reflexivity|]. apply digits_be; [reflexivity|]. change (256 ^ Z.of_nat 2) with 65536. lia.
  - exists 2, (be_fixed 4 z). split; [lia|]. left. split; [reflexivity|]. apply digits_be; [reflexivity|]. change (256 ^ Z.of_nat 4) with 4294967296. lia.
  - exists 3, (be_fixed 8 z). split; [lia|]. left. split; [reflexivity|]. apply digits_be; [reflexivity|]. change (256 ^ Z.of_nat 8) with (2 ^ 64). lia.
Qed.
Lemma int_form : forall z, - 2 ^ 63 <= z < 2 ^ 64 -> number_form z (mp_int z).
Proof.
  intros z R. unfold mp_int. destruct (Z.leb_spec 0 z); [apply uint_form; lia|]. destruct (Z.leb_spec (-32) z); [right; left; split; [lia|f_equal; lia]|]. right. right.
  destruct (Z.leb_spec (-128) z); [|destruct (Z.leb_spec (-32768) z); [|destruct (Z.leb_spec (-2147483648) z)]].
  - exists 0, (be_fixed 1 z). split; [lia|]. right. split; [reflexivity|]. split; [exact (digits_be_mod 1 0 z eq_refl)|]. change (2 ^ (8 * 2 ^ 0 - 1)) with 128. lia.
  - exists 1, (be_fixed 2 z). split; [lia|]. right. split; [reflexivity|]. split; [exact (digits_be_mod 2 1 z eq_refl)|]. change (2 ^ (8 * 2 ^ 1 - 1)) with 32768. lia.
  - exists 2, (be_fixed 4 z). split; [lia|]. right. split; [reflexivity|]. split; [exact (digits_be_mod 4 2 z eq_refl)|]. change (2 ^ (8 * 2 ^ 2 - 1)) with 2147483648. lia.
  - exists 3, (be_fixed 8 z). split; [lia|]. right. split; [reflexivity|]. split; [exact (digits_be_mod 8 3 z eq_refl)|]. change (2 ^ (8 * 2 ^ 3 - 1)) with (2 ^ 63). lia.
Qed.
Lemma zlen_be : forall c k z, zlen (c :: be_fixed k z) = 1 + Z.of_nat k.
Proof. intros. unfold zlen. cbn [length]. rewrite be_fixed_length. lia. Qed.
Lemma digits_len : forall c j z d, digits j z d -> zlen (c :: d) = 1 + 2 ^ j.
Proof. intros c j z d (L & _). rewrite zlen_cons. lia. Qed.
Lemma uint_shortest : forall z b, 0 <= z -> number_form z b -> zlen (mp_uint z) <= zlen b.
Proof.
  intros z b N [[R ->]|[[R ->]|(j & d & J & [[-> D]|(-> & D & R)])]].
  - unfold mp_uint. destruct (Z.leb_spec z 127); [|lia]. unfold zlen. cbn [length]. lia.
  - lia.
  - rewrite (digits_len _ _ _ _ D). apply digits_lt in D. unfold mp_uint. destruct (Z.leb_spec z 127); [unfold zlen; cbn [length]; pose proof (Z.pow_nonneg 2 j); lia|].
    destruct (Z.leb_spec z 255); [|destruct (Z.leb_spec z 65535); [|destruct (Z.leb_spec z 4294967295)]]; rewrite zlen_be; j4 j; cbn in D |- *; lia.
  - rewrite (digits_len _ _ _ _ D). unfold mp_uint. destruct (Z.leb_spec z 127); [unfold zlen; cbn [length]; pose proof (Z.pow_nonneg 2 j); lia|].
    destruct (Z.leb_spec z 255); [|destruct (Z.leb_spec z 65535); [|destruct (Z.leb_spec z 4294967295)]]; rewrite zlen_be; j4 j; cbn in R |- *; lia.
Qed.
Lemma int_shortest : forall z b, number_form z b -> zlen (mp_int z) <= zlen b.
Proof.
  intros z b F. unfold mp_int. destruct (Z.leb_spec 0 z); [apply uint_shortest; assumption|].
  destruct F as [[R ->]|[[R ->]|(j & d & J & [[-> D]|(-> & D & R)])]].
  - lia.
  - destruct (Z.leb_spec (-32) z); [|lia]. unfold zlen. cbn [length]. lia.
  - apply digits_nonneg in D. lia.
  - rewrite (digits_len _ _ _ _ D). destruct (Z.leb_spec (-32) z); [unfold zlen; cbn [length]; pose proof (Z.pow_nonneg 2 j); lia|].
    destruct (Z.leb_spec (-128) z); [|destruct (Z.leb_spec (-32768) z); [|destruct (Z.leb_spec (-2147483648) z)]]; rewrite zlen_be; j4 j; cbn in R |- *; lia.
Qed.

(** ** headers *)
Definition mp_strlen (l : Z) : list Z := if l <? 32 then [160 + l] else if l <? 256 then 217 :: be_fixed 1 l else if l <? 65536 then 218 :: be_fixed 2 l else 219 :: be_fixed 4 l.
Definition mp_binlen (l : Z) : list Z := if l <? 256 then 196 :: be_fixed 1 l else if l <? 65536 then 197 :: be_fixed 2 l else 198 :: be_fixed 4 l.
Lemma mp_string_eq : forall s, mp_string s = mp_strlen (zlen s) ++ s.
Proof. reflexivity. Qed.
Lemma mp_bin_eq : forall s, mp_bin s = mp_binlen (zlen s) ++ s.
Proof. reflexivity. Qed.
Ltac sz k j := exists j, (be_fixed k _); split; [lia|]; split; [apply digits_be; [reflexivity|]|reflexivity].
Lemma strlen_form : forall n, 0 <= n < 2 ^ 32 -> str_header n (mp_strlen n).
Proof.
  intros n R. unfold mp_strlen. destruct (Z.ltb_spec n 32); [left; auto|]. right. destruct (Z.ltb_spec n 256); [|destruct (Z.ltb_spec n 65536)].
  - exists 0, (be_fixed 1 n). split; [lia|]. split; [|reflexivity]. apply digits_be; [reflexivity|]. change (256 ^ Z.of_nat 1) with 256. lia.
  - exists 1, (be_fixed 2 n). split; [lia|]. split; [|reflexivity]. apply digits_be; [reflexivity|]. change (256 ^ Z.of_nat 2) with 65536. lia.
  - exists 2, (be_fixed 4 n). split; [lia|]. split; [|reflexivity]. apply digits_be; [reflexivity|]. change (256 ^ Z.of_nat 4) with (2 ^ 32). lia.
Qed.
Lemma binlen_form : forall n, 0 <= n < 2 ^ 32 -> bin_header n (mp_binlen n).
Proof.
  intros n R. unfold mp_binlen. destruct (Z.ltb_spec n 256); [|destruct (Z.ltb_spec n 65536)].
  - exists 0, (be_fixed 1 n). split; [lia|]. split; [|reflexivity]. apply digits_be; [reflexivity|]. change (256 ^ Z.of_nat 1) with 256. lia.
  - exists 1, (be_fixed 2 n). split; [lia|]. split; [|reflexivity]. apply digits_be; [reflexivity|]. change (256 ^ Z.of_nat 2) with 65536. lia.
  - exists 2, (be_fixed 4 n). split; [lia|]. split; [|reflexivity]. apply digits_be; [reflexivity|]. change (256 ^ Z.of_nat 4) with (2 ^ 32). lia.
Qed.
Lemma arraylen_form : forall n, 0 <= n < 2 ^ 32 -> list_header n (mp_arraylen n).
Proof.
  intros n R. unfold mp_arraylen. destruct (Z.ltb_spec n 16); [left; auto|]. right. destruct (Z.ltb_spec n 65536).
  - exists 1, (be_fixed 2 n). split; [lia|]. split; [|reflexivity]. apply digits_be; [reflexivity|]. change (256 ^ Z.of_nat 2) with 65536. lia.
  - exists 2, (be_fixed 4 n). split; [lia|]. split; [|reflexivity]. apply digits_be; [reflexivity|]. change (256 ^ Z.of_nat 4) with (2 ^ 32). lia.
Qed.
Lemma maplen_form : forall n, 0 <= n < 2 ^ 32 -> map_header n (mp_maplen n).
Proof.
  intros n R. unfold mp_maplen. destruct (Z.ltb_spec n 16); [left; auto|]. right. destruct (Z.ltb_spec n 65536).
  - exists 1, (be_fixed 2 n). split; [lia|]. split; [|reflexivity]. apply digits_be; [reflexivity|]. change (256 ^ Z.of_nat 2) with 65536. lia.
  - exists 2, (be_fixed 4 n). split; [lia|]. split; [|reflexivity]. apply digits_be; [reflexivity|]. change (256 ^ Z.of_nat 4) with (2 ^ 32). lia.
Qed.
Lemma sized_len : forall c lo n h, 0 <= lo -> sized c lo n h -> exists j, lo <= j <= 2 /\ zlen h = 1 + 2 ^ j /\ n < 256 ^ (2 ^ j).
Proof. intros c lo n h L (j & d & J & D & ->). exists j. split; [exact J|]. split; [exact (digits_len _ _ _ _ D)|exact (digits_lt _ _ _ D)]. Qed.
Lemma strlen_shortest : forall n h, str_header n h -> zlen (mp_strlen n) <= zlen h.
Proof.
  intros n h [[L ->]|X]; unfold mp_strlen.
  - destruct (Z.ltb_spec n 32); [|lia]. unfold zlen. cbn [length]. lia.
  - apply sized_len in X as (j & J & -> & B); [|lia]. destruct (n <? 32); [unfold zlen; cbn [length]; pose proof (Z.pow_nonneg 2 j); lia|].
    destruct (Z.ltb_spec n 256); [|destruct (Z.ltb_spec n 65536)]; rewrite zlen_be; j3 j; cbn in B |- *; lia.
Qed.
Lemma binlen_shortest : forall n h, bin_header n h -> zlen (mp_binlen n) <= zlen h.
Proof. intros n h X; unfold mp_binlen. apply sized_len in X as (j & J & -> & B); [|lia]. destruct (Z.ltb_spec n 256); [|destruct (Z.ltb_spec n 65536)]; rewrite zlen_be; j3 j; cbn in B |- *; lia. Qed.
Lemma arraylen_shortest : forall n h, list_header n h -> zlen (mp_arraylen n) <= zlen h.
Proof.
  intros n h [[L ->]|X]; unfold mp_arraylen.
  - destruct (Z.ltb_spec n 16); [|lia]. unfold zlen. cbn [length]. lia.
  - apply sized_len in X as (j & J & -> & B); [|lia]. destruct (n <? 16); [unfold zlen; cbn [length]; pose proof (Z.pow_nonneg 2 j); lia|].
    destruct (Z.ltb_spec n 65536); rewrite zlen_be; j2 j; cbn in B |- *; lia.
Qed.
Lemma maplen_shortest : forall n h, map_header n h -> zlen (mp_maplen n) <= zlen h.
Proof.
  intros n h [[L ->]|X]; unfold mp_maplen.
  - destruct (Z.ltb_spec n 16); [|lia]. unfold zlen. cbn [length]. lia.
  - apply sized_len in X as (j & J & -> & B); [|lia]. destruct (n <? 16); [unfold zlen; cbn [length]; pose proof (Z.pow_nonneg 2 j); lia|].
    destruct (Z.ltb_spec n 65536); rewrite zlen_be; j2 j; cbn in B |- *; lia.
Qed.

(** ** values *)
Lemma mp_sorted_map : forall m, StronglySorted (fun a b => key_lt (fst a) (fst b)) m ->
  mp_encode (VMap (Some m)) = mp_maplen (zlen m) ++ concat (map (fun kv => mp_key (fst kv) ++ mp_encode (snd kv)) m).
Proof.
  intros m HS. cbn [mp_encode]. f_equal. set (es := map (fun kv => (fst kv, mp_encode (snd kv))) m).
  assert (E : sort_by (fun a b => key_ltb (fst a) (fst b)) es = es).
  { assert (SE : StronglySorted (fun a b => ent_ltb a b = true) es).
    { unfold es. induction HS as [|x l HS IH Hx]; cbn [map]; constructor; auto. apply Forall_forall. intros y Hy. apply in_map_iff in Hy as (z & <- & Hz). rewrite Forall_forall in Hx. exact (Hx z Hz). }
    change (sort_by ent_ltb es = es); apply sort_by_unique; auto using ent_irr; [intros a b c; apply ent_trans|]. apply nodup_pairwise. unfold es. rewrite map_map. cbn [fst]. apply sorted_nodup. exact HS. }
  rewrite E. unfold es. rewrite map_map. reflexivity.
Qed.
Lemma ne_head : forall (h s : list Z), 1 <= zlen h -> 1 <= zlen (h ++ s).
Proof. intros h s H. rewrite zlen_app. pose proof (zlen_nonneg _ s). lia. Qed.
Lemma maplen_pos : forall n, 1 <= zlen (mp_maplen n).
Proof. intros n. unfold mp_maplen. destruct (n <? 16); [|destruct (n <? 65536)]; unfold zlen; cbn [length]; lia. Qed.
Lemma arraylen_pos : forall n, 1 <= zlen (mp_arraylen n).
Proof. intros n. unfold mp_arraylen. destruct (n <? 16); [|destruct (n <? 65536)]; unfold zlen; cbn [length]; lia. Qed.
Lemma uint_pos : forall z, 1 <= zlen (mp_uint z).
Proof. intros z. unfold mp_uint. repeat match goal with |- context [if ?b then _ else _] => destruct b end; unfold zlen; cbn [length]; lia. Qed.
Lemma int_pos : forall z, 1 <= zlen (mp_int z).
Proof. intros z. unfold mp_int. destruct (0 <=? z); [apply uint_pos|]. repeat match goal with |- context [if ?b then _ else _] => destruct b end; unfold zlen; cbn [length]; lia. Qed.
Lemma string_pos : forall s, 1 <= zlen (mp_string s).
Proof. intros s. apply ne_head. repeat match goal with |- context [if ?b then _ else _] => destruct b end; unfold zlen; cbn [length]; lia. Qed.
Lemma bin_pos : forall s, 1 <= zlen (mp_bin s).
Proof. intros s. apply ne_head. repeat match goal with |- context [if ?b then _ else _] => destruct b end; unfold zlen; cbn [length]; lia. Qed.
Lemma key_pos : forall k, 1 <= zlen (mp_key k).
Proof. intros [s|z|z]; cbn [mp_key]; [apply string_pos|apply int_pos|apply uint_pos]. Qed.
Lemma mp_pos : forall v, 1 <= zlen (mp_encode v).
Proof.
  fix IH 1. intros [b|z|z|s|[b|]|b|[v|]|[l|]|l|l|[m|]]; cbn [mp_encode]; try (unfold zlen, mp_nil, mp_bool; cbn [length]; lia);
    [apply uint_pos|apply int_pos|apply string_pos|apply bin_pos|apply bin_pos|apply IH|apply ne_head, arraylen_pos|apply ne_head, arraylen_pos|apply ne_head, arraylen_pos|apply ne_head, maplen_pos].
Qed.
Lemma zlen_concat : forall A (f : A -> list Z) l, (forall x, 1 <= zlen (f x)) -> zlen l <= zlen (concat (map f l)) /\ forall x, In x l -> zlen (f x) <= zlen (concat (map f l)).
Proof.
  intros A f l P. induction l as [|a l [IH1 IH2]]; cbn [map concat]; [split; [unfold zlen; cbn [length]; lia|intros x []]|]. rewrite zlen_cons, zlen_app. pose proof (P a). pose proof (zlen_nonneg _ l).
  split; [lia|]. intros x [->|I]; [lia|]. specialize (IH2 x I). lia.
Qed.
Lemma key_form : forall k x, key_has_kind k x -> zlen (mp_key x) < 2 ^ 32 -> mp_form (key_item x) (mp_key x).
Proof.
  intros [|bits|bits] [s|z|z] K L; cbn in K; try contradiction; cbn [key_item mp_key] in *.
  - rewrite mp_string_eq in *. rewrite zlen_app in L. pose proof (zlen_nonneg _ (mp_strlen (zlen s))). pose proof (zlen_nonneg _ s). constructor. apply strlen_form. lia.
  - constructor. destruct K as [W V]. destruct (width_bounds _ W) as (_ & B & _). unfold int_value in V. apply int_form. lia.
  - constructor. destruct K as [W V]. destruct (width_bounds _ W) as (B & _). unfold uint_value in V. apply uint_form. lia.
Qed.
Lemma list_forms : forall l, Forall (fun v => mp_form (item_of v) (mp_encode v)) l -> zlen (concat (map mp_encode l)) < 2 ^ 32 -> mp_form (IList (map item_of l)) (mp_arraylen (zlen l) ++ concat (map mp_encode l)).
Proof.
  intros l F L. destruct (zlen_concat _ mp_encode l mp_pos) as [B _]. constructor.
  - unfold zlen. rewrite map_length. apply arraylen_form. pose proof (zlen_nonneg _ l). unfold zlen in *. lia.
  - apply forms_map. clear L B. induction F; cbn [map]; constructor; auto.
Qed.
Lemma elems_small : forall l, zlen (mp_arraylen (zlen l) ++ concat (map mp_encode l)) < 2 ^ 32 -> zlen (concat (map mp_encode l)) < 2 ^ 32 /\ Forall (fun v => zlen (mp_encode v) < 2 ^ 32) l.
Proof.
  intros l L. rewrite zlen_app in L. pose proof (zlen_nonneg _ (mp_arraylen (zlen l))). split; [lia|]. apply Forall_forall. intros v I. destruct (zlen_concat _ mp_encode l mp_pos) as [_ B]. specialize (B v I). lia.
Qed.
Lemma write_form : forall t v, has_type t v -> zlen (mp_encode v) < 2 ^ 32 -> mp_form (item_of v) (mp_encode v).
Proof.
  induction t as [|bits|bits| | |n|t IH|t IH|n t IH|fs IH|k t IH] using ty_ind2; intros v HT HL.
  - destruct v as [[|]| | | | | | | | | |]; cbn in HT; try contradiction; constructor.
  - destruct v; cbn in HT; try contradiction. destruct HT as [W V]. destruct (width_bounds _ W) as (B & _). unfold uint_value in V. constructor. apply uint_form. lia.
  - destruct v; cbn in HT; try contradiction. destruct HT as [W V]. destruct (width_bounds _ W) as (_ & B & _). unfold int_value in V. constructor. apply int_form. lia.
  - destruct v; cbn in HT; try contradiction. cbn [item_of mp_encode] in *. rewrite mp_string_eq in *. rewrite zlen_app in HL. pose proof (zlen_nonneg _ (mp_strlen (zlen s))). pose proof (zlen_nonneg _ s). constructor. apply strlen_form. lia.
  - destruct v as [| | | |[x|]| | | | | |]; cbn in HT; try contradiction; cbn [item_of mp_encode] in *; [|constructor]. rewrite mp_bin_eq in *. rewrite zlen_app in HL. pose proof (zlen_nonneg _ (mp_binlen (zlen x))). pose proof (zlen_nonneg _ x). constructor. apply binlen_form. lia.
  - destruct v as [| | | | |x| | | | |]; cbn in HT; try contradiction; cbn [item_of mp_encode] in *. rewrite mp_bin_eq in *. rewrite zlen_app in HL. pose proof (zlen_nonneg _ (mp_binlen (zlen x))). pose proof (zlen_nonneg _ x). constructor. apply binlen_form. lia.
  - destruct v as [| | | | | |[v|]| | | |]; cbn in HT; try contradiction; cbn [item_of mp_encode] in *; [apply IH; assumption|constructor].
  - destruct v as [| | | | | | |[l|]| | |]; cbn in HT; try contradiction; cbn [item_of mp_encode] in *; [|constructor]. apply elems_small in HL as [L1 L2]. apply list_forms; [|exact L1].
    rewrite Forall_forall in *. intros v I. apply IH; auto.
  - destruct v as [| | | | | | | |l| |]; cbn in HT; try contradiction; cbn [item_of mp_encode] in *. destruct HT as [_ HT]. apply elems_small in HL as [L1 L2]. apply list_forms; [|exact L1].
    rewrite Forall_forall in *. intros v I. apply IH; auto.
  - destruct v as [| | | | | | | | |l|]; cbn in HT; try contradiction. change (has_type (TStruct fs) (VStruct l)) in HT. apply struct_types in HT. cbn [item_of mp_encode] in *. apply elems_small in HL as [L1 L2]. apply list_forms; [|exact L1].
    clear L1. induction HT as [|t v fs vs H HT IHT]; constructor; [exact (Forall_inv IH v H (Forall_inv L2))|apply IHT; [exact (Forall_inv_tail IH)|exact (Forall_inv_tail L2)]].
  - destruct v as [| | | | | | | | | |[m|]]; cbn in HT; try contradiction; [|constructor]. destruct HT as [HS HT]. rewrite mp_sorted_map in * by exact HS. cbn [item_of].
    rewrite zlen_app in HL. pose proof (zlen_nonneg _ (mp_maplen (zlen m))).
    destruct (zlen_concat _ (fun kv : gkey * val => mp_key (fst kv) ++ mp_encode (snd kv)) m (fun kv => ne_head _ _ (key_pos _))) as [B1 B2].
    assert (E : Forall2 entry_form m (map (fun kv => mp_key (fst kv) ++ mp_encode (snd kv)) m)).
    { assert (G : Forall (fun kv => entry_form kv (mp_key (fst kv) ++ mp_encode (snd kv))) m).
      { rewrite Forall_forall in HT |- *. intros kv I. specialize (HT _ I) as [K V]. specialize (B2 _ I). rewrite zlen_app in B2. pose proof (zlen_nonneg _ (mp_encode (snd kv))). pose proof (key_pos (fst kv)).
        exists (mp_key (fst kv)), (mp_encode (snd kv)). split; [eapply key_form; [exact K|lia]|]. split; [apply IH; [exact V|lia]|reflexivity]. }
      clear -G. induction G; cbn [map]; constructor; auto. }
    apply entry_forms in E as (parts & F & E). rewrite <- E. constructor; [|exact F]. unfold zlen at 1. rewrite map_length. apply maplen_form. pose proof (zlen_nonneg _ m). unfold zlen in *. lia.
Qed.

(** ** shortest *)
Lemma zlen_forms : forall (f : val -> list Z) l (parts : list (list Z)), Forall2 (fun v b => zlen (f v) <= zlen b) l parts -> zlen (concat (map f l)) <= zlen (concat parts).
Proof. intros f l parts F. induction F; cbn [map concat]; [lia|]. rewrite !zlen_app. lia. Qed.
Lemma key_shortest : forall k x b, key_has_kind k x -> mp_form (key_item x) b -> zlen (mp_key x) <= zlen b.
Proof.
  intros [|bits|bits] [s|z|z] b K F; cbn in K; try contradiction; cbn [key_item mp_key] in *; inversion F; subst.
  - rewrite mp_string_eq, !zlen_app. pose proof (strlen_shortest _ _ H0). lia.
  - apply int_shortest. assumption.
  - destruct K as [_ V]. unfold uint_value in V. apply uint_shortest; [lia|assumption].
Qed.
Definition short (v : val) : Prop := forall b, mp_form (item_of v) b -> zlen (mp_encode v) <= zlen b.
Lemma list_short : forall l b, Forall short l -> mp_form (IList (map item_of l)) b -> zlen (mp_arraylen (zlen l) ++ concat (map mp_encode l)) <= zlen b.
Proof.
  intros l b S F. inversion F as [| | |? ? NF|? L|? L|? ? HH|? ? HH|? ? ? HH|? h parts HH FF|? ? ? HH FF]; subst. apply forms_map in FF. unfold zlen in HH. rewrite map_length in HH. change (Z.of_nat (length l)) with (zlen l) in HH.
  apply arraylen_shortest in HH. rewrite !zlen_app.
  assert (G : zlen (concat (map mp_encode l)) <= zlen (concat parts)); [|lia]. apply zlen_forms. eapply Forall2_mono; [|exact (Forall2_and_l _ _ _ _ _ _ S FF)]. intros v p [A B]. apply A. exact B.
Qed.
Lemma write_shortest : forall t v, has_type t v -> short v.
Proof.
  induction t as [|bits|bits| | |n|t IH|t IH|n t IH|fs IH|k t IH] using ty_ind2; intros v HT b F.
  - destruct v as [[|]| | | | | | | | | |]; cbn in HT; try contradiction; cbn [item_of] in F; inversion F; subst; cbn [mp_encode]; unfold mp_bool; lia.
  - destruct v; cbn in HT; try contradiction. destruct HT as [_ V]. unfold uint_value in V. cbn [item_of] in F; inversion F; subst. apply uint_shortest; [lia|assumption].
  - destruct v; cbn in HT; try contradiction. cbn [item_of] in F; inversion F; subst. apply int_shortest. assumption.
  - destruct v; cbn in HT; try contradiction. cbn [item_of] in F; inversion F; subst. cbn [mp_encode]. rewrite mp_string_eq, !zlen_app. pose proof (strlen_shortest _ _ H0). lia.
  - destruct v as [| | | |[x|]| | | | | |]; cbn in HT; try contradiction; cbn [item_of] in F; inversion F; subst; cbn [mp_encode]; [|unfold mp_nil; lia]. rewrite mp_bin_eq, !zlen_app. pose proof (binlen_shortest _ _ H0). lia.
  - destruct v as [| | | | |x| | | | |]; cbn in HT; try contradiction; cbn [item_of] in F; inversion F; subst; cbn [mp_encode]. rewrite mp_bin_eq, !zlen_app. pose proof (binlen_shortest _ _ H0). lia.
  - destruct v as [| | | | | |[v|]| | | |]; cbn in HT; try contradiction; cbn [item_of mp_encode] in *; [apply (IH v HT); assumption|inversion F; unfold mp_nil; lia].
  - destruct v as [| | | | | | |[l|]| | |]; cbn in HT; try contradiction; cbn [item_of mp_encode] in *; [|inversion F; unfold mp_nil; lia]. apply list_short; [|exact F]. eapply Forall_impl; [|exact HT]. exact IH.
  - destruct v as [| | | | | | | |l| |]; cbn in HT; try contradiction; cbn [item_of mp_encode] in *. destruct HT as [_ HT]. apply list_short; [|exact F]. eapply Forall_impl; [|exact HT]. exact IH.
  - destruct v as [| | | | | | | | |l|]; cbn in HT; try contradiction. change (has_type (TStruct fs) (VStruct l)) in HT. apply struct_types in HT. cbn [item_of mp_encode] in *. apply list_short; [|exact F].
    clear F. induction HT as [|t v fs vs H HT IHT]; constructor; [exact (Forall_inv IH v H)|apply IHT; exact (Forall_inv_tail IH)].
  - destruct v as [| | | | | | | | | |[m|]]; cbn in HT; try contradiction; [|cbn [item_of] in F; inversion F; cbn [mp_encode]; unfold mp_nil; lia]. destruct HT as [HS HT]. rewrite mp_sorted_map by exact HS. cbn [item_of] in F.
    inversion F as [| | |? ? NF|? L|? L|? ? HH|? ? HH|? ? ? HH|? ? ? HH FF|? h parts HH FF]; subst. apply pair_forms in FF as (ps & FF & E). rewrite E, !zlen_app. unfold zlen in HH. rewrite map_length in HH. change (Z.of_nat (length m)) with (zlen m) in HH.
    apply maplen_shortest in HH. assert (G : zlen (concat (map (fun kv => mp_key (fst kv) ++ mp_encode (snd kv)) m)) <= zlen (concat ps)); [|lia].
    pose proof (Forall2_and_l _ _ _ _ _ _ HT FF) as A. clear -A IH. induction A as [|[kk v] p m ps [[K V] (x & y & X & Y & ->)] A IHA]; cbn [map concat]; [lia|]. cbn [fst snd] in *. rewrite !zlen_app.
    pose proof (key_shortest _ _ _ K X). pose proof (IH v V _ Y). lia.
Qed.
