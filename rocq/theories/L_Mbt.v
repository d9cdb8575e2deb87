From Coq Require Import String Ascii ZArith List Bool Lia.
From Coq Require Import ZifyBool.
From Verif Require Import Base L_Base M_Mbt S_Mbt.
Import ListNotations.
Open Scope Z_scope.

Lemma i64_id : forall x, - 2^63 <= x < 2^63 -> i64 x = x.
Proof.
  intros x Hx. unfold i64. destruct (Z.le_gt_cases 0 x).
  - rewrite Z.mod_small by lia. destruct (Z.ltb_spec x (2^63)); lia.
  - replace (x mod 2^64) with (x + 2^64) by (apply (Z.mod_unique _ _ (-1)); lia).
    destruct (Z.ltb_spec (x + 2^64) (2^63)); lia.
Qed.

Lemma app_eq_length : forall A (a b c d : list A), a ++ b = c ++ d -> length a = length c -> a = c /\ b = d.
Proof.
  induction a as [|x a IH]; intros b [|y c] d E L; cbn in *; try discriminate; [auto|].
  injection L as L. assert (x = y /\ a ++ b = c ++ d) as [-> E'] by (split; congruence).
  destruct (IH _ _ _ E' L). subst. auto.
Qed.

(** ** levels *)
Lemma ntl_loop_spec : forall f n l, 0 <= n < 2 ^ Z.of_nat f ->
  ntl_loop f n l = l + (if n =? 0 then 0 else Z.log2 n + 1).
Proof.
  induction f as [|f IH]; intros n l Hn; cbn [ntl_loop].
  - change (2 ^ Z.of_nat 0) with 1 in Hn. replace n with 0 by lia. cbn. lia.
  - destruct (Z.leb_spec n 0).
    + replace n with 0 by lia. cbn. lia.
    + rewrite IH.
      2:{ rewrite Z.shiftr_div_pow2 by lia. change (2^1) with 2. rewrite Nat2Z.inj_succ, Z.pow_succ_r in Hn by lia.
          split; [apply Z.div_pos; lia|]. apply Z.div_lt_upper_bound; lia. }
      rewrite Z.log2_shiftr by lia. replace (n =? 0) with false by lia.
      destruct (Z.eqb_spec (Z.shiftr n 1) 0) as [E|E].
      * assert (n = 1). { rewrite Z.shiftr_div_pow2 in E by lia. change (2^1) with 2 in E.
          pose proof (Z.div_mod n 2 ltac:(lia)). pose proof (Z.mod_pos_bound n 2 ltac:(lia)). lia. }
        subst. cbn. lia.
      * assert (1 <= Z.log2 n). { apply Z.log2_le_pow2; [lia|]. change (2^1) with 2.
          rewrite Z.shiftr_div_pow2 in E by lia. change (2^1) with 2 in E.
          destruct (Z.le_gt_cases 2 n); [assumption|]. exfalso; apply E. apply Z.div_small; lia. }
        lia.
Qed.

Lemma ntl_spec : forall n, 1 <= n < 2^62 ->
  1 <= NumberToLevel n <= 63 /\ n <= 2 ^ (NumberToLevel n - 1) < 2 * n.
Proof.
  intros n Hn. unfold NumberToLevel.
  destruct (Z.eqb_spec n 0); [lia|]. destruct (Z.eqb_spec n 1); [subst; cbn; lia|].
  destruct (Z.eqb_spec n 2); [subst; cbn; lia|].
  rewrite i64_id by lia. rewrite Z.shiftr_div_pow2 by lia. change (2^2) with 4.
  set (m := (n - 1) / 4).
  assert (Hm : 4 * m <= n - 1 < 4 * m + 4). { unfold m. pose proof (Z.div_mod (n-1) 4 ltac:(lia)). pose proof (Z.mod_pos_bound (n-1) 4 ltac:(lia)). lia. }
  rewrite ntl_loop_spec by (change (2 ^ Z.of_nat 64) with (2^64); lia).
  destruct (Z.eqb_spec m 0) as [E|E].
  - change (3 + 0 - 1) with 2. change (2^2) with 4. lia.
  - pose proof (Z.log2_spec m ltac:(lia)) as HL. assert (Z.log2 m < 60) by (apply Z.log2_lt_pow2; lia).
    pose proof (Z.log2_nonneg m). rewrite Z.pow_succ_r in HL by lia.
    replace (3 + (Z.log2 m + 1) - 1) with (3 + Z.log2 m) by lia. rewrite Z.pow_add_r by lia. change (2^3) with 8. lia.
Qed.

Lemma pow_between : forall a b n, 0 <= a -> 0 <= b -> n <= 2 ^ a < 2 * n -> n <= 2 ^ b < 2 * n -> a = b.
Proof.
  intros a b n Ha Hb H1 H2. destruct (Z.lt_total a b) as [H|[H|H]]; auto; exfalso.
  - assert (2 ^ (a + 1) <= 2 ^ b) by (apply Z.pow_le_mono_r; lia). rewrite Z.pow_add_r in * by lia. lia.
  - assert (2 ^ (b + 1) <= 2 ^ a) by (apply Z.pow_le_mono_r; lia). rewrite Z.pow_add_r in * by lia. lia.
Qed.

Lemma ntl_pow : forall k, 0 <= k < 62 -> NumberToLevel (2 ^ k) = k + 1.
Proof.
  intros k Hk. assert (H1 : 1 <= 2^k) by (pose proof (Z.pow_pos_nonneg 2 k); lia).
  assert (H2 : 2^k < 2^62) by (apply Z.pow_lt_mono_r; lia).
  pose proof (ntl_spec (2^k) ltac:(lia)) as [HL HB].
  assert (NumberToLevel (2^k) - 1 = k); [|lia]. apply (pow_between _ _ (2^k)); lia.
Qed.

(** ** trees with opaque leaves: what [lazyAdd] builds *)
Inductive ctree : Type :=
| CO (m : Z) (h : list Z)
| CB (l r : ctree).

Fixpoint items (c : ctree) : list (Z * list Z) :=
  match c with CO m h => [(m, h)] | CB l r => items l ++ items r end.
Fixpoint cnum (c : ctree) : Z := match c with CO m _ => m | CB l r => cnum l + cnum r end.
Fixpoint clevel (c : ctree) : Z := match c with CO m _ => NumberToLevel m | CB l r => clevel l + 1 end.
Fixpoint chash (H : list Z -> list Z) (c : ctree) : list Z :=
  match c with CO _ h => h | CB l r => H (chash H l ++ chash H r) end.
Fixpoint canon (c : ctree) : Prop :=
  match c with
  | CO m _ => 1 <= m
  | CB l r => canon l /\ canon r /\ exists k, 0 <= k /\ cnum l = 2 ^ k /\ cnum r <= 2 ^ k
  end.
Fixpoint to_node (c : ctree) : node :=
  match c with
  | CO m h => Leaf h (NumberToLevel m) m
  | CB l r => Branch (to_node l) (to_node r) [] (clevel c) (cnum c)
  end.
Fixpoint hashed (H : list Z -> list Z) (c : ctree) : node :=
  match c with
  | CO m h => Leaf h (NumberToLevel m) m
  | CB l r => Branch (hashed H l) (hashed H r) (chash H c) (clevel c) (cnum c)
  end.

Definition ins (n : node) (x : Z * list Z) : node := lazyAdd n (fst x) (snd x).
Definition isum (l : list (Z * list Z)) : Z := fold_right (fun x a => fst x + a) 0 l.

Lemma isum_app : forall a b, isum (a ++ b) = isum a + isum b.
Proof. unfold isum. induction a; intros; cbn [app fold_right]; [lia|]. rewrite IHa. lia. Qed.

Lemma isum_items : forall c, isum (items c) = cnum c.
Proof. induction c; cbn [items cnum]; [cbn; lia|]. rewrite isum_app. lia. Qed.

Lemma cnum_pos : forall c, canon c -> 1 <= cnum c.
Proof.
  induction c; cbn [canon cnum]; intros H; [assumption|].
  destruct H as (H1 & H2 & _). specialize (IHc1 H1). specialize (IHc2 H2). lia.
Qed.

Lemma items_pos : forall c, canon c -> Forall (fun x => 1 <= fst x) (items c).
Proof.
  induction c; cbn [canon items]; intros H; [repeat constructor; assumption|].
  destruct H as (H1 & H2 & _). apply Forall_app. auto.
Qed.

Lemma clevel_spec : forall c, canon c -> cnum c < 2^62 ->
  1 <= clevel c <= 63 /\ cnum c <= 2 ^ (clevel c - 1) < 2 * cnum c.
Proof.
  induction c as [m h|l IHl r IHr]; cbn [canon cnum clevel]; intros H HB.
  - apply ntl_spec. lia.
  - destruct H as (H1 & H2 & k & Hk & Hl & Hr). pose proof (cnum_pos l H1). pose proof (cnum_pos r H2).
    destruct (IHl H1 ltac:(lia)) as [L1 L2].
    assert (clevel l - 1 = k).
    { apply (pow_between _ _ (cnum l)); try lia. }
    assert (k < 62). { destruct (Z.lt_ge_cases k 62); [assumption|]. assert (2^62 <= 2^k) by (apply Z.pow_le_mono_r; lia). lia. }
    replace (clevel l + 1 - 1) with (k + 1) by lia. rewrite Z.pow_add_r by lia. change (2^1) with 2. lia.
Qed.

Lemma clevel_left : forall l r, canon (CB l r) -> cnum (CB l r) < 2^62 ->
  cnum l = 2 ^ (clevel l - 1) /\ 2 <= clevel (CB l r) <= 63 /\ clevel r <= clevel l /\ shl1 (clevel (CB l r) - 2) = cnum l.
Proof.
  intros l r H HB. destruct (clevel_spec _ H HB) as [HL _]. cbn [canon cnum clevel] in *.
  destruct H as (H1 & H2 & k & Hk & Hl & Hr). pose proof (cnum_pos l H1). pose proof (cnum_pos r H2).
  destruct (clevel_spec l H1 ltac:(lia)) as [L1 L2]. destruct (clevel_spec r H2 ltac:(lia)) as [R1 R2].
  assert (E : clevel l - 1 = k) by (apply (pow_between _ _ (cnum l)); lia).
  split; [congruence|]. split; [lia|]. split.
  - destruct (Z.le_gt_cases (clevel r) (clevel l)); [assumption|].
    assert (2 ^ (k + 1) <= 2 ^ (clevel r - 1)) by (apply Z.pow_le_mono_r; lia). rewrite Z.pow_add_r in * by lia.
    change (2^1) with 2 in *. lia.
  - unfold shl1. replace (clevel l + 1 - 2) with k by lia. rewrite <- Hl. apply i64_id. lia.
Qed.

Definition ready (P : node) : Prop :=
  1 <= n_level P /\ 1 <= n_num P /\ match P with Leaf _ _ _ => True | Branch l r _ _ _ => n_num l = n_num r end.

Lemma n_num_to_node : forall c, n_num (to_node c) = cnum c.
Proof. destruct c; reflexivity. Qed.
Lemma n_level_to_node : forall c, n_level (to_node c) = clevel c.
Proof. destruct c; reflexivity. Qed.

Lemma lazyAdd_level_num : forall n m h, 1 <= n_level n -> 0 <= n_num n + m < 2^63 ->
  1 <= n_level (lazyAdd n m h) /\ n_num (lazyAdd n m h) = n_num n + m.
Proof.
  intros [h0 lv num|l r h0 lv num] m h H1 H2; cbn [lazyAdd n_level n_num] in *.
  - replace (lv =? 0) with false by lia. cbn [n_level n_num]. rewrite i64_id by lia. lia.
  - replace (lv =? 0) with false by lia. destruct (negb _); cbn [n_level n_num]; rewrite i64_id by lia; lia.
Qed.

Lemma context : forall its L R h0 lv num, 1 <= lv -> 1 <= n_level R -> 0 <= n_num R -> Forall (fun x => 1 <= fst x) its ->
  n_num R + isum its <= n_num L -> 0 <= num -> num + isum its < 2^62 -> n_num R <= num ->
  fold_left ins its (Branch L R h0 lv num) = Branch L (fold_left ins its R) h0 lv (num + isum its).
Proof.
  induction its as [|[m h] its IH]; intros L R h0 lv num Hlv HR HR0 HF HL Hn0 Hn HRn; cbn [fold_left isum fold_right].
  - f_equal. lia.
  - change (fold_right (fun x a => fst x + a) 0 its) with (isum its) in *. inversion HF as [|? ? Hm HF']; subst.
    cbn [fst] in *. assert (HS : 0 <= isum its).
    { clear -HF'. induction HF'; [cbn; lia|]. unfold isum in *. cbn [fold_right]. lia. }
    cbn [isum fold_right fst] in HL, Hn. change (fold_right (fun x a => fst x + a) 0 its) with (isum its) in *.
    unfold ins at 2. cbn [fst snd lazyAdd]. replace (lv =? 0) with false by lia.
    replace (n_num L =? n_num R) with false by lia. cbn [negb]. rewrite i64_id by lia.
    change (lazyAdd R m h) with (ins R (m, h)).
    destruct (lazyAdd_level_num R m h HR ltac:(lia)) as [E1 E2].
    rewrite IH; try assumption; unfold ins; cbn [fst snd]; try lia.
    f_equal. lia.
Qed.

Lemma canon_ready : forall c k, canon c -> cnum c < 2^62 -> 0 <= k -> cnum c = 2 ^ k -> ready (to_node c).
Proof.
  intros c k H HB Hk E. destruct (clevel_spec c H HB) as [L _]. pose proof (cnum_pos c H).
  unfold ready. rewrite n_level_to_node, n_num_to_node. split; [lia|]. split; [lia|].
  destruct c as [m h|l r]; cbn [to_node]; [exact I|]. rewrite !n_num_to_node.
  cbn [canon cnum] in *. destruct H as (H1 & H2 & j & Hj & Hl & Hr). pose proof (cnum_pos r H2).
  assert (j < k). { destruct (Z.lt_ge_cases j k); [assumption|]. assert (2^k <= 2^j) by (apply Z.pow_le_mono_r; lia). lia. }
  assert (2 ^ (j + 1) <= 2 ^ k) by (apply Z.pow_le_mono_r; lia). rewrite Z.pow_add_r in * by lia. change (2^1) with 2 in *. lia.
Qed.

Lemma fold_ready : forall c P, canon c -> ready P -> cnum c <= n_num P -> n_num P + cnum c < 2^62 ->
  fold_left ins (items c) P = Branch P (to_node c) [] (n_level P + 1) (n_num P + cnum c).
Proof.
  induction c as [m h|l IHl r IHr]; intros P HC HP HL HB.
  - cbn [items fold_left to_node cnum canon] in *. unfold ins. cbn [fst snd]. destruct HP as (P1 & P2 & P3).
    destruct P as [h0 lv num|pl pr h0 lv num]; cbn [lazyAdd n_level n_num] in *.
    + replace (lv =? 0) with false by lia. rewrite i64_id by lia. reflexivity.
    + replace (lv =? 0) with false by lia. replace (n_num pl =? n_num pr) with true by lia.
      cbn [negb]. rewrite i64_id by lia. reflexivity.
  - cbn [canon cnum items] in *. destruct HC as (H1 & H2 & k & Hk & Hl & Hr).
    pose proof (cnum_pos l H1). pose proof (cnum_pos r H2).
    rewrite fold_left_app, IHl by (assumption || lia).
    destruct (clevel_spec l H1 ltac:(lia)) as [L1 _].
    rewrite context; rewrite ?n_level_to_node, ?n_num_to_node, ?isum_items; try lia; [|destruct HP; lia|apply items_pos; assumption].
    rewrite (IHr (to_node l)); rewrite ?n_num_to_node; try lia; [|assumption|eapply canon_ready; eauto; lia].
    cbn [to_node clevel cnum]. rewrite n_level_to_node. f_equal. lia.
Qed.

Lemma fold_new : forall c, canon c -> cnum c < 2^62 -> fold_left ins (items c) new_node = to_node c.
Proof.
  induction c as [m h|l IHl r IHr]; intros HC HB.
  - reflexivity.
  - cbn [canon cnum items] in *. destruct HC as (H1 & H2 & k & Hk & Hl & Hr).
    pose proof (cnum_pos l H1). pose proof (cnum_pos r H2).
    rewrite fold_left_app, IHl by (assumption || lia).
    rewrite fold_ready; rewrite ?n_num_to_node; try lia; [|assumption|eapply canon_ready; eauto; lia].
    cbn [to_node clevel cnum]. rewrite n_level_to_node. reflexivity.
Qed.

(** ** hashing *)
Fixpoint opaque_ok (c : ctree) : Prop :=
  match c with CO _ h => h <> [] | CB l r => opaque_ok l /\ opaque_ok r end.

Lemma n_h_hashed : forall H c, n_h (hashed H c) = chash H c.
Proof. destruct c; reflexivity. Qed.
Lemma n_num_hashed : forall H c, n_num (hashed H c) = cnum c.
Proof. destruct c; reflexivity. Qed.
Lemma n_level_hashed : forall H c, n_level (hashed H c) = clevel c.
Proof. destruct c; reflexivity. Qed.

Lemma ensureHash_to_node : forall H c, canon c -> cnum c < 2^62 -> opaque_ok c ->
  ensureHash H false (to_node c) = Ok (hashed H c).
Proof.
  intros H c. induction c as [m h|l IHl r IHr]; intros HC HB HO; cbn [to_node].
  - cbn [ensureHash]. cbn [opaque_ok] in HO. destruct h; [congruence|]. cbn. destruct (_ <? 2); reflexivity.
  - destruct (clevel_left l r HC HB) as (_ & HL & _). cbn [canon cnum opaque_ok] in HC, HB, HO.
    destruct HC as (H1 & H2 & k & Hk & Hl & Hr). destruct HO as [O1 O2].
    pose proof (cnum_pos l H1). pose proof (cnum_pos r H2).
    cbn [ensureHash]. replace (clevel (CB l r) <? 2) with false by lia. cbn [orb empty_bytes].
    rewrite IHl, IHr by (assumption || lia). cbn [rbind]. rewrite !n_h_hashed. reflexivity.
Qed.

Lemma verify_hashed : forall H c, canon c -> cnum c < 2^62 -> verify (hashed H c) = true.
Proof.
  intros H c. induction c as [m h|l IHl r IHr]; intros HC HB.
  - cbn [hashed verify]. destruct (Z.eqb_spec (NumberToLevel m) 1) as [E|E]; [|reflexivity].
    cbn [canon cnum] in *. destruct (ntl_spec m ltac:(lia)) as [_ HN]. rewrite E in HN. change (2 ^ (1 - 1)) with 1 in HN. lia.
  - destruct (clevel_left l r HC HB) as (E1 & HL & HLR & E2).
    pose proof HC as HC'. cbn [canon cnum] in HC', HB.
    destruct HC' as (H1 & H2 & k & Hk & Hl & Hr). pose proof (cnum_pos l H1). pose proof (cnum_pos r H2).
    cbn [hashed verify]. replace (clevel (CB l r) =? 1) with false by lia.
    rewrite !n_level_hashed, n_num_hashed, IHl, IHr by (assumption || lia).
    replace (clevel l <? clevel r) with false by lia. cbn [negb andb].
    replace (clevel l - 1) with (clevel (CB l r) - 2) by (cbn [clevel]; lia). rewrite E2.
    destruct (2 <? clevel (CB l r)); [|reflexivity]. rewrite Z.eqb_refl. reflexivity.
Qed.

(** ** the fully expanded tree of a list of contents *)
Definition leaf_item (H : list Z -> list Z) (c : list Z) : Z * list Z := (1, H c).

Fixpoint full (c : ctree) : Prop := match c with CO m _ => m = 1 | CB l r => full l /\ full r end.

Lemma full_num : forall c, full c -> cnum c = zlen (items c).
Proof.
  induction c; cbn [full cnum items]; intros H; [subst; reflexivity|]. rewrite zlen_app. destruct H. rewrite IHc1, IHc2 by assumption. reflexivity.
Qed.

Lemma split_pow : forall n, 2 <= n -> exists k, 0 <= k /\ 2 ^ k < n <= 2 * 2 ^ k.
Proof.
  intros n Hn. exists (Z.log2 (n - 1)). pose proof (Z.log2_nonneg (n-1)). split; [assumption|].
  pose proof (Z.log2_spec (n - 1) ltac:(lia)) as HS. rewrite Z.pow_succ_r in HS by lia. lia.
Qed.

Lemma split_list : forall A (l : list A) n, 0 <= n <= zlen l -> exists a b, l = a ++ b /\ zlen a = n /\ zlen b = zlen l - n.
Proof.
  intros A l n Hn. exists (firstn (Z.to_nat n) l), (skipn (Z.to_nat n) l). split; [symmetry; apply firstn_skipn|].
  unfold zlen in *. rewrite firstn_length, skipn_length. lia.
Qed.

Lemma full_exists : forall n H cs, (length cs <= n)%nat -> cs <> [] ->
  exists c, canon c /\ full c /\ items c = map (leaf_item H) cs /\ merkle H cs (chash H c).
Proof.
  induction n as [|n IH]; intros H cs Hn Hne.
  - destruct cs; [congruence|cbn in Hn; lia].
  - destruct cs as [|x [|y cs]]; [congruence| |].
    + exists (CO 1 (H x)). repeat split; cbn [canon full items]; try lia. constructor.
    + set (L := x :: y :: cs) in *. assert (2 <= zlen L) by (unfold L; rewrite !zlen_cons; pose proof (zlen_nonneg _ cs); lia).
      destruct (split_pow (zlen L) H0) as (k & Hk & Hk2). pose proof (Z.pow_pos_nonneg 2 k ltac:(lia) Hk).
      destruct (split_list _ L (2^k) ltac:(lia)) as (a & b & E & Ha & Hb).
      assert (HLen : (length L = length a + length b)%nat) by (rewrite E, app_length; reflexivity).
      unfold zlen in *.
      destruct (IH H a) as (ca & A1 & A2 & A3 & A4); [lia|destruct a; [cbn in *; lia|discriminate]|].
      destruct (IH H b) as (cb & B1 & B2 & B3 & B4); [lia|destruct b; [cbn in *; lia|discriminate]|].
      assert (Na : cnum ca = 2^k) by (rewrite full_num, A3 by assumption; unfold zlen; rewrite map_length; lia).
      assert (Nb : cnum cb = Z.of_nat (length L) - 2^k) by (rewrite full_num, B3 by assumption; unfold zlen; rewrite map_length; lia).
      exists (CB ca cb). cbn [canon full items chash]. split; [|split; [tauto|split]].
      * split; [assumption|]. split; [assumption|]. exists k. lia.
      * rewrite A3, B3, E, map_app. reflexivity.
      * rewrite E. apply mk_split with k; auto; unfold zlen; lia.
Qed.

Lemma merkle_fun : forall H cs r, merkle H cs r -> forall r', merkle H cs r' -> r = r'.
Proof.
  assert (P0 : forall k, 0 <= k -> 1 <= 2 ^ k) by (intros k Hk; pose proof (Z.pow_pos_nonneg 2 k); lia).
  assert (N : forall H cs r, merkle H cs r -> 1 <= zlen cs).
  { induction 1; [cbn; lia|]. rewrite zlen_app. lia. }
  intros H cs r HM. induction HM as [c|a b k ra rb Hk Ha Hb HMa IHa HMb IHb]; intros r' HM'.
  - inversion HM' as [c' E|a' b' k' ra' rb' Hk' Ha' Hb' HMa' HMb' E]; subst; [reflexivity|].
    apply N in HMa', HMb'. apply (f_equal zlen) in E. rewrite zlen_app in E. cbn in E. lia.
  - inversion HM' as [c' E|a' b' k' ra' rb' Hk' Ha' Hb' HMa' HMb' E]; subst.
    + apply N in HMa, HMb. apply (f_equal zlen) in E. rewrite zlen_app in E. cbn in E. lia.
    + assert (EL : zlen a + zlen b = zlen a' + zlen b') by (rewrite <- !zlen_app, E; reflexivity).
      assert (k = k').
      { destruct (Z.lt_total k k') as [Hlt|[Heq|Hlt]]; [|assumption|]; exfalso.
        - assert (2 ^ (k+1) <= 2 ^ k') by (apply Z.pow_le_mono_r; lia). rewrite Z.pow_add_r in * by lia. change (2^1) with 2 in *. lia.
        - assert (2 ^ (k'+1) <= 2 ^ k) by (apply Z.pow_le_mono_r; lia). rewrite Z.pow_add_r in * by lia. change (2^1) with 2 in *. lia. }
      subst k'. assert (length a = length a') by (unfold zlen in *; lia).
      apply app_eq_app in E as (z & [[E1 E2]|[E1 E2]]); subst.
      * rewrite app_length in H0. assert (z = []) by (destruct z; [reflexivity|cbn in H0; lia]). subst z.
        rewrite app_nil_r in *. cbn [app] in *. rewrite (IHa _ HMa'), (IHb _ HMb'). reflexivity.
      * rewrite app_length in H0. assert (z = []) by (destruct z; [reflexivity|cbn in H0; lia]). subst z.
        rewrite app_nil_r in *. cbn [app] in *. rewrite (IHa _ HMa'), (IHb _ HMb'). reflexivity.
Qed.

(** ** NewMerkleBinaryTree *)
Lemma New_loop_spec : forall H cs n, New_loop H n (map Some cs) = Ok (fold_left ins (map (leaf_item H) cs) n, cs).
Proof.
  induction cs as [|c cs IH]; intros n; cbn [map New_loop fold_left]; [reflexivity|].
  rewrite IH. cbn [rbind fst snd]. reflexivity.
Qed.

Lemma New_spec : forall H cs, (forall x, H x <> []) -> cs <> [] -> zlen cs < 2^62 ->
  exists c, canon c /\ full c /\ items c = map (leaf_item H) cs /\ merkle H cs (chash H c) /\
    NewMerkleBinaryTree H (map Some cs) = Ok {| m_root := Some (hashed H c); m_contents := cs |}.
Proof.
  intros H cs HH Hne HB. destruct (full_exists (length cs) H cs (le_n _) Hne) as (c & C1 & C2 & C3 & C4).
  assert (N : cnum c = zlen cs) by (rewrite full_num, C3 by assumption; unfold zlen; rewrite map_length; reflexivity).
  exists c. repeat (split; [assumption|]). unfold NewMerkleBinaryTree.
  destruct (map Some cs) eqn:E; [destruct cs; [congruence|discriminate]|]. rewrite <- E, New_loop_spec. cbn [rbind fst snd].
  rewrite <- C3, fold_new by (assumption || lia). rewrite ensureHash_to_node; [reflexivity|assumption|lia|].
  clear -C3 HH. revert cs C3. induction c; intros cs C3; cbn [opaque_ok items] in *.
  - destruct cs as [|x cs]; [discriminate|]. cbn in C3. unfold leaf_item in C3. injection C3 as _ -> _. apply HH.
  - symmetry in C3. apply map_eq_app in C3 as (l1 & l2 & -> & E1 & E2). split; [eapply IHc1|eapply IHc2]; symmetry; eassumption.
Qed.
