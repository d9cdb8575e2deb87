(** Lemmas about the accumulator: the representation invariant. *)
From Coq Require Import String Ascii ZArith List Bool Lia.
From Coq Require Import ZifyBool.
From Verif Require Import Base L_Base M_Mta S_Mta.
Import ListNotations.
Open Scope Z_scope.

(** ** copying *)
Lemma go_copy_length : forall d s, length (go_copy d s) = length d.
Proof. intros. unfold go_copy. rewrite app_length, firstn_length, skipn_length. lia. Qed.
Lemma copy2_length : forall d a b, length d = 64%nat -> length (copy2 d a b) = 64%nat.
Proof.
  intros d a b Hd. unfold copy2. rewrite app_length, !go_copy_length, firstn_length, skipn_length, !go_copy_length, Hd. unfold HashSize. lia.
Qed.
Lemma zeros64_length : length zeros64 = 64%nat.
Proof. reflexivity. Qed.

Lemma copy2_right : forall d a b, length d = 64%nat -> length b = 32%nat -> skipn 32 (copy2 d a b) = b.
Proof.
  intros d a b Hd Hb. unfold copy2. rewrite skipn_app, firstn_length, go_copy_length, Hd.
  rewrite skipn_all2 by (rewrite firstn_length, go_copy_length; unfold HashSize; lia).
  change (32 - Nat.min HashSize 64)%nat with 0%nat. cbn [skipn app].
  unfold go_copy at 1. rewrite skipn_length, go_copy_length, Hd. change (64 - HashSize)%nat with 32%nat.
  rewrite firstn_all2 by lia. rewrite skipn_all2; [apply app_nil_r|]. rewrite skipn_length, go_copy_length. unfold HashSize. lia.
Qed.

Lemma copy2_left : forall d a b, length d = 64%nat -> length a = 32%nat -> firstn 32 (copy2 d a b) = a.
Proof.
  intros d a b Hd Ha. unfold copy2. rewrite firstn_app, firstn_firstn, firstn_length, go_copy_length, Hd.
  change (Nat.min 32 HashSize) with 32%nat. change (32 - Nat.min HashSize 64)%nat with 0%nat. rewrite firstn_O, app_nil_r.
  unfold go_copy. rewrite Hd. rewrite (firstn_all2 a) by lia.
  rewrite (firstn_app 32 a). rewrite Ha. change (32 - 32)%nat with 0%nat.
  rewrite firstn_O, app_nil_r. apply firstn_all2. lia.
Qed.

Lemma copy2_both : forall d a b, length d = 64%nat -> length a = 32%nat -> length b = 32%nat -> copy2 d a b = a ++ b.
Proof.
  intros d a b Hd Ha Hb. rewrite <- (firstn_skipn 32 (copy2 d a b)). rewrite copy2_left, copy2_right by assumption. reflexivity.
Qed.

Lemma app_eq_32 : forall a b c d : list Z, length a = length c -> a ++ b = c ++ d -> a = c /\ b = d.
Proof.
  induction a as [|x a IH]; intros b c d HL HE; destruct c; cbn in *; try discriminate; [auto|].
  injection HE as -> HE. destruct (IH b c d) as [-> ->]; auto.
Qed.

Lemma bset_same : forall st k v, bset st k v k = v.
Proof. intros. unfold bset. rewrite bytes_eqb_refl. reflexivity. Qed.
Lemma bset_other : forall st k v k', k <> k' -> bset st k v k' = st k'.
Proof. intros st k v k' Hn. unfold bset. destruct (bytes_eqb_spec k k'); congruence. Qed.

Section Inv.
Context (H : list Z -> list Z) (HD : digest32 H).
(** The sequence of entry hashes. *)
Context (e : Z -> list Z) (He : forall i, length (e i) = 32%nat).

(** The tree node [q] on level [k], covering entries [q*2^k .. (q+1)*2^k-1]. *)
Fixpoint nv (k : nat) (q : Z) : list Z :=
  match k with
  | O => e q
  | S k' => H (nv k' (2 * q) ++ nv k' (2 * q + 1))
  end.

Lemma nv_length : forall k q, length (nv k q) = 32%nat.
Proof using HD He. destruct k; intros; cbn [nv]; [apply He|apply HD]. Qed.

(** The children of every inner node below (k,q) can be read from the store. *)
Fixpoint stored (st : store) (k : nat) (q : Z) : Prop :=
  match k with
  | O => True
  | S k' => st (nv k q) = nv k' (2 * q) ++ nv k' (2 * q + 1) /\ stored st k' (2 * q) /\ stored st k' (2 * q + 1)
  end.

(** A model node stands for (k,q). *)
Fixpoint tree (st : store) (k : nat) (q : Z) (n : node) {struct n} : Prop :=
  match n with
  | HNode h => h = nv k q /\ stored st k q
  | DNode s h d => k = O /\ H d = e q /\ (s <> stateDirty -> h = H d)
  | BNode s h ser l r =>
      match k with
      | O => False
      | S k' => tree st k' (2 * q) l /\ tree st k' (2 * q + 1) r /\
                (s <> stateDirty -> h = nv k q /\ ser = nv k' (2 * q) ++ nv k' (2 * q + 1)) /\
                (s = stateFlushed -> stored st k q)
      end
  end.

Lemma below_dirty : forall s, below_hashed s = true -> s = stateDirty.
Proof. destruct s; cbn; congruence. Qed.
Lemma below_not_dirty : forall s, below_hashed s = false -> s <> stateDirty.
Proof. destruct s; cbn; congruence. Qed.

Lemma node_Hash_spec : forall st n k q, tree st k q n -> fst (node_Hash H n) = nv k q /\ tree st k q (snd (node_Hash H n)).
Proof using HD He.
  intros st n. induction n as [h|s h ser l IHl r IHr|s h d]; intros k q HT; cbn [node_Hash].
  - cbn [tree] in HT. destruct HT as [-> HT]. cbn. auto.
  - cbn [tree] in HT. destruct k as [|k]; [destruct HT|]. destruct HT as (H1 & H2 & H3 & H4).
    destruct (below_hashed s) eqn:Es.
    + destruct (IHl _ _ H1) as [A1 A2]. destruct (IHr _ _ H2) as [B1 B2].
      destruct (node_Hash H l) as [lh l'], (node_Hash H r) as [rh r']. cbn [fst snd] in *. subst lh rh.
      rewrite copy2_both by (apply zeros64_length || apply nv_length). split; [reflexivity|].
      cbn [tree]. split; [assumption|]. split; [assumption|]. split; [auto|discriminate].
    + cbn [fst snd]. destruct (H3 (below_not_dirty _ Es)) as [-> ->]. split; [reflexivity|].
      cbn [tree]. auto.
  - cbn [tree] in HT. destruct HT as (-> & H1 & H2). destruct (below_hashed s) eqn:Es; cbn [fst snd].
    + cbn [tree nv]. auto.
    + rewrite (H2 (below_not_dirty _ Es)). cbn [nv tree]. auto.
Qed.

(** ** slots *)
Fixpoint slots (st : store) (i : nat) (m : Z) (rs : list (option node)) : Prop :=
  match rs with
  | [] => m = 0
  | None :: r => (0 < m /\ Z.even m = true) /\ slots st (S i) (m / 2) r
  | Some nd :: r => Z.odd m = true /\ tree st i (m - 1) nd /\ slots st (S i) (m / 2) r
  end.

Lemma slots_add : forall st rs i m n w, 0 <= m -> slots st i m rs -> tree st i m n ->
  slots st i (m + 1) (fst (addNode H rs n w)).
Proof using HD He.
  intros st. induction rs as [|[root|] rs IH]; intros i m n w Hm HS HT; cbn [addNode].
  - cbn [slots] in HS. subst m. cbn [fst slots]. auto.
  - destruct HS as (H1 & H2 & H3). destruct (node_Hash_spec _ _ _ _ H2) as [A1 A2].
    destruct (node_Hash H root) as [rh root']. cbn [fst snd] in *. subst rh.
    rewrite nv_length. cbn [Nat.eqb].
    specialize (IH (S i) (m / 2) (BNode stateDirty [] [] root' n) (w ++ [{| w_dir := Left; w_hash := nv i (m - 1) |}])).
    destruct (addNode H rs _ _) as [rs'' w']. cbn [fst slots] in *.
    apply Z.odd_spec in H1. destruct H1 as [m' ->].
    replace ((2 * m' + 1) / 2) with m' in * by (apply (Z.div_unique _ 2 m' 1); lia).
    split; [split; [lia|]; replace (2 * m' + 1 + 1) with (0 + 2 * (m' + 1)) by lia; rewrite Z.even_add_mul_2; reflexivity|].
    replace ((2 * m' + 1 + 1) / 2) with (m' + 1) by (apply (Z.div_unique _ 2 (m'+1) 0); lia).
    apply IH; [lia|assumption|]. cbn [tree]. replace (2 * m' + 1 - 1) with (2 * m') in * by lia.
    split; [assumption|]. split; [assumption|]. split; [congruence|discriminate].
  - destruct HS as ((_ & H1) & H2). cbn [fst slots]. apply Z.even_spec in H1. destruct H1 as [m' ->].
    replace (2 * m' / 2) with m' in * by (apply (Z.div_unique _ 2 m' 0); lia).
    split; [rewrite Z.add_comm, Z.odd_add_mul_2; reflexivity|]. split; [replace (2 * m' + 1 - 1) with (2 * m') by lia; assumption|].
    replace ((2 * m' + 1) / 2) with m' by (apply (Z.div_unique _ 2 m' 1); lia). assumption.
Qed.

Lemma slots_nth : forall st rs i m j, 0 <= m -> slots st i m rs ->
  match nth_error rs j with
  | Some (Some nd) => Z.testbit m (Z.of_nat j) = true /\ tree st (i + j) (m / 2 ^ Z.of_nat j - 1) nd
  | _ => Z.testbit m (Z.of_nat j) = false
  end.
Proof.
  intros st. induction rs as [|x rs IH]; intros i m j Hm HS.
  - cbn [slots] in HS. subst m. destruct j; cbn [nth_error]; apply Z.testbit_0_l.
  - destruct j as [|j].
    + cbn [nth_error]. change (Z.of_nat 0) with 0. rewrite Z.bit0_odd. rewrite Z.pow_0_r, Z.div_1_r, Nat.add_0_r.
      destruct x as [nd|]; cbn [slots] in HS; [tauto|]. destruct HS as [[_ HS] _]. rewrite <- Z.negb_even, HS. reflexivity.
    + cbn [nth_error]. assert (HS' : slots st (S i) (m / 2) rs) by (destruct x; cbn [slots] in HS; tauto).
      specialize (IH (S i) (m / 2) j (Z.div_pos m 2 Hm ltac:(lia)) HS').
      replace (Z.testbit (m / 2) (Z.of_nat j)) with (Z.testbit m (Z.of_nat (S j))) in IH
        by (rewrite <- Z.div2_div, Z.div2_spec, Z.shiftr_spec by lia; f_equal; lia).
      replace (m / 2 / 2 ^ Z.of_nat j) with (m / 2 ^ Z.of_nat (S j)) in IH
        by (rewrite Nat2Z.inj_succ, Z.pow_succ_r, Z.div_div by (pose proof (Z.pow_pos_nonneg 2 (Z.of_nat j)); lia); reflexivity).
      replace (S i + j)%nat with (i + S j)%nat in IH by lia. exact IH.
Qed.

Lemma slots_set : forall st rs i m j nd, slots st i m rs -> nth_error rs j <> None -> 
  (exists nd0, nth_error rs j = Some (Some nd0)) -> tree st (i + j) (m / 2 ^ Z.of_nat j - 1) nd -> slots st i m (set_slot j (Some nd) rs).
Proof.
  intros st. induction rs as [|x rs IH]; intros i m j nd HS Hn [nd0 Hn0] HT; destruct j as [|j]; cbn [nth_error] in *; try discriminate.
  - injection Hn0 as ->. cbn [set_slot slots] in *. rewrite Nat.add_0_r in HT. change (Z.of_nat 0) with 0 in HT.
    rewrite Z.pow_0_r, Z.div_1_r in HT. tauto.
  - assert (HS' : slots st (S i) (m / 2) (set_slot j (Some nd) rs)).
    { apply IH; eauto; [destruct x; cbn [slots] in HS; tauto|].
      replace (S i + j)%nat with (i + S j)%nat by lia. rewrite Z.div_div by lia.
      rewrite Nat2Z.inj_succ, Z.pow_succ_r in HT by lia. exact HT. }
    destruct x; cbn [set_slot slots] in *; tauto.
Qed.

Definition inv (st : store) (n : Z) (a : acc) : Prop := 0 <= n /\ a_length a = n /\ slots st 0 n (a_roots a).

Lemma inv_new : forall st, inv st 0 new_acc.
Proof. intros. split; [lia|]. split; reflexivity. Qed.

Lemma inv_AddNode : forall st n a nd, inv st n a -> n < 2^62 -> tree st 0 n nd -> inv st (n + 1) (fst (AddNode H a nd)).
Proof using HD He.
  intros st n a nd (H1 & H2 & H3) HB HT. unfold AddNode. pose proof (slots_add st (a_roots a) 0 n nd [] H1 H3 HT) as HX.
  destruct (addNode H (a_roots a) nd []) as [rs w]. cbn [fst] in *. split; [lia|]. cbn [a_length a_roots]. split; [|assumption].
  rewrite H2. apply i64_small. lia.
Qed.

(** slot count *)
Lemma slots_length : forall st rs i m, 0 <= m < 2 ^ 62 -> slots st i m rs -> forall j nd, nth_error rs j = Some (Some nd) -> (j < 62)%nat.
Proof.
  intros st rs i m Hm HS j nd Hj. pose proof (slots_nth st rs i m j ltac:(lia) HS) as HN. rewrite Hj in HN. destruct HN as [HN _].
  destruct (Nat.lt_ge_cases j 62) as [|Hge]; [assumption|]. exfalso.
  assert (HT : Z.testbit m (Z.of_nat j) = false); [|congruence].
  destruct (Z.eq_dec m 0) as [->|]; [apply Z.testbit_0_l|]. apply Z.bits_above_log2; [lia|].
  apply Z.log2_lt_pow2; [lia|]. apply Z.lt_le_trans with (2^62); [lia|]. apply Z.pow_le_mono_r; lia.
Qed.

Lemma slots_count : forall st rs i m j, 0 <= m < 2 ^ Z.of_nat j -> slots st i m rs -> (length rs <= j)%nat.
Proof.
  intros st. induction rs as [|x rs IH]; intros i m j Hm HS; [cbn; lia|].
  assert (Hp : 0 < m /\ slots st (S i) (m / 2) rs).
  { destruct x; cbn [slots] in HS; [|tauto]. destruct HS as (H1 & _ & H3). split; [|assumption].
    destruct (Z.eq_dec m 0) as [->|]; [discriminate|lia]. }
  destruct Hp as [Hp HS']. destruct j as [|j]; [change (2 ^ Z.of_nat 0) with 1 in Hm; lia|].
  rewrite Nat2Z.inj_succ, Z.pow_succ_r in Hm by lia. cbn [length]. apply le_n_S. eapply IH; [|exact HS'].
  pose proof (Z.mul_div_le m 2 ltac:(lia)). pose proof (Z.div_pos m 2). lia.
Qed.

(** ** witnesses *)
(** The witness for entry [x], [k] levels high. *)
Fixpoint wit (k : nat) (x : Z) : list witness :=
  match k with
  | O => []
  | S k' => wit k' x ++ [if Z.testbit x (Z.of_nat k') then {| w_dir := Left; w_hash := nv k' (x / 2 ^ Z.of_nat k' - 1) |}
                         else {| w_dir := Right; w_hash := nv k' (x / 2 ^ Z.of_nat k' + 1) |}]
  end.

Lemma wit_length : forall k x, length (wit k x) = k.
Proof. induction k; intros; cbn [wit]; [reflexivity|]. rewrite app_length, IHk. cbn. lia. Qed.

Lemma wit_firstn : forall k d x, (d <= k)%nat -> firstn d (wit k x) = wit d x.
Proof.
  induction k as [|k IH]; intros d x Hd; [replace d with 0%nat by lia; reflexivity|].
  destruct (Nat.eq_dec d (S k)) as [->|Hn]; [apply firstn_all2; rewrite wit_length; lia|].
  cbn [wit]. rewrite firstn_app, wit_length, IH by lia. replace (d - k)%nat with 0%nat by lia. cbn [firstn]. apply app_nil_r.
Qed.

Lemma shl_small : forall d, (d <= 62)%nat -> shl d = 2 ^ Z.of_nat d.
Proof.
  intros d Hd. unfold shl. apply i64_small. pose proof (Z.pow_pos_nonneg 2 (Z.of_nat d)).
  assert (2 ^ Z.of_nat d <= 2 ^ 62) by (apply Z.pow_le_mono_r; lia). lia.
Qed.

Lemma resolve_stored : forall st k q, stored st (S k) q ->
  resolve st (nv (S k) q) = Some (nv k (2 * q) ++ nv k (2 * q + 1), nv k (2 * q), nv k (2 * q + 1)).
Proof using HD He.
  intros st k q (H1 & _). unfold resolve. rewrite H1, app_length, !nv_length. cbn [Nat.eqb Nat.add Nat.mul HashSize].
  unfold HashSize. rewrite firstn_app, skipn_app, nv_length. rewrite firstn_all2 by (rewrite nv_length; lia).
  rewrite skipn_all2 by (rewrite nv_length; lia). cbn [Nat.sub firstn skipn app]. rewrite app_nil_r. reflexivity.
Qed.

(** Relative index [idx] inside node (k,q). *)
Lemma pow_S : forall k, 2 ^ Z.of_nat (S k) = 2 * 2 ^ Z.of_nat k.
Proof. intros. rewrite Nat2Z.inj_succ, Z.pow_succ_r by lia. reflexivity. Qed.

Lemma node_WitnessFor_spec : forall st k q idx n w, (k <= 62)%nat -> tree st k q n -> 0 <= idx < 2 ^ Z.of_nat k ->
  exists n', node_WitnessFor H st k idx n w = (n', Ok (w ++ wit k (q * 2 ^ Z.of_nat k + idx))) /\ tree st k q n'.
Proof using HD He.
  intros st. induction k as [|k IH]; intros q idx n w Hk HT Hi.
  - cbn [node_WitnessFor wit]. rewrite app_nil_r. exists n. destruct n; cbn [tree] in HT |- *; [tauto|destruct HT|tauto].
  - assert (HB : forall s h ser l r, tree st (S k) q (BNode s h ser l r) ->
      exists n', (let bound := shl k in
        if idx <? bound then
          let (l', res) := node_WitnessFor H st k idx l w in
          match res with
          | Ok w' => let (rh, r') := node_Hash H r in
                     (BNode s h ser l' r', Ok (w' ++ [{| w_dir := Right; w_hash := rh |}]))
          | Err e => (BNode s h ser l' r, Err e)
          | Panic => (BNode s h ser l' r, Panic)
          end
        else
          let (r', res) := node_WitnessFor H st k (i64 (idx - bound)) r w in
          match res with
          | Ok w' => let (lh, l') := node_Hash H l in
                     (BNode s h ser l' r', Ok (w' ++ [{| w_dir := Left; w_hash := lh |}]))
          | Err e => (BNode s h ser l r', Err e)
          | Panic => (BNode s h ser l r', Panic)
          end) = (n', Ok (w ++ wit (S k) (q * 2 ^ Z.of_nat (S k) + idx))) /\ tree st (S k) q n').
    { intros s h ser l r (H1 & H2 & H3 & H4). cbv zeta. rewrite shl_small by lia. rewrite pow_S in *.
      set (P := 2 ^ Z.of_nat k) in *. assert (HP : 0 < P) by (apply Z.pow_pos_nonneg; lia).
      destruct (Z.ltb_spec idx P).
      - destruct (IH (2 * q) idx l w ltac:(lia) H1 ltac:(lia)) as (l' & -> & Tl).
        destruct (node_Hash_spec _ _ _ _ H2) as [B1 B2]. destruct (node_Hash H r) as [rh r']. cbn [fst snd] in *. subst rh.
        exists (BNode s h ser l' r'). split; [|cbn [tree]; auto]. apply f_equal. apply f_equal. cbn [wit]. fold P. rewrite <- app_assoc. f_equal. 
        replace (2 * q * P + idx) with (q * (2 * P) + idx) by lia. f_equal.
        assert (E : (q * (2 * P) + idx) / P = 2 * q) by (symmetry; apply Z.div_unique with idx; lia).
        assert (ET : Z.testbit (q * (2 * P) + idx) (Z.of_nat k) = false).
        { rewrite Z.testbit_odd, Z.shiftr_div_pow2 by lia. fold P. rewrite E. rewrite Z.odd_mul. reflexivity. }
        rewrite ET, E. reflexivity.
      - rewrite i64_small by (assert (P <= 2 ^ 62) by (apply Z.pow_le_mono_r; lia); lia).
        destruct (IH (2 * q + 1) (idx - P) r w ltac:(lia) H2 ltac:(lia)) as (r' & -> & Tr).
        destruct (node_Hash_spec _ _ _ _ H1) as [B1 B2]. destruct (node_Hash H l) as [lh l']. cbn [fst snd] in *. subst lh.
        exists (BNode s h ser l' r'). split; [|cbn [tree]; auto]. apply f_equal. apply f_equal. cbn [wit]. fold P. rewrite <- app_assoc. f_equal.
        replace ((2 * q + 1) * P + (idx - P)) with (q * (2 * P) + idx) by lia. f_equal.
        assert (E : (q * (2 * P) + idx) / P = 2 * q + 1) by (symmetry; apply Z.div_unique with (idx - P); lia).
        assert (ET : Z.testbit (q * (2 * P) + idx) (Z.of_nat k) = true).
        { rewrite Z.testbit_odd, Z.shiftr_div_pow2 by lia. fold P. rewrite E. rewrite Z.odd_add, Z.odd_mul. reflexivity. }
        rewrite ET, E. replace (2 * q + 1 - 1) with (2 * q) by lia. reflexivity. }
    destruct n as [h|s h ser l r|s h d].
    + cbn [node_WitnessFor]. destruct HT as [-> HS]. rewrite resolve_stored by assumption.
      apply (HB stateFlushed (nv (S k) q) _ (HNode (nv k (2 * q))) (HNode (nv k (2 * q + 1)))).
      pose proof HS as (S1 & S2 & S3). cbn [tree]. auto.
    + cbn [node_WitnessFor]. apply HB. assumption.
    + destruct HT as [HT _]. discriminate.
Qed.

(** ** Which slot holds an entry *)
(** The highest slot whose block contains entry [x] (x < n). *)
Definition in_slot (n x : Z) (k : nat) : Prop :=
  Z.testbit n (Z.of_nat k) = true /\ (n / 2 ^ Z.of_nat k - 1) * 2 ^ Z.of_nat k <= x < (n / 2 ^ Z.of_nat k) * 2 ^ Z.of_nat k.

Lemma in_slot_unique : forall n x k k', 0 <= n -> in_slot n x k -> in_slot n x k' -> k = k'.
Proof.
  assert (G : forall n x k k', 0 <= n -> (k < k')%nat -> in_slot n x k -> in_slot n x k' -> False).
  { intros n x k k' Hn Hk (A1 & A2) (B1 & B2).
    rewrite Z.testbit_odd, Z.shiftr_div_pow2 in A1, B1 by lia. apply Z.odd_spec in A1. destruct A1 as [u Hu].
    assert (EP : 2 ^ Z.of_nat k' = 2 ^ Z.of_nat k * (2 * 2 ^ Z.of_nat (k' - k - 1))).
    { rewrite <- pow_S, <- Z.pow_add_r by lia. f_equal. lia. }
    set (P := 2 ^ Z.of_nat k) in *. set (Q := 2 ^ Z.of_nat (k' - k - 1)) in *.
    assert (0 < P) by (apply Z.pow_pos_nonneg; lia). assert (0 < Q) by (apply Z.pow_pos_nonneg; lia).
    assert (n / 2 ^ Z.of_nat k' = u / Q).
    { rewrite EP, <- Z.div_div, Hu by lia. rewrite <- Z.div_div by lia. f_equal. symmetry. apply Z.div_unique with 1; lia. }
    rewrite H2 in B2. rewrite EP in B2. rewrite Hu in A2.
    pose proof (Z.mul_div_le u Q). nia. }
  intros n x k k' Hn A B. destruct (Nat.lt_trichotomy k k') as [L|[L|L]]; [|assumption|]; exfalso; eapply G; eauto.
Qed.
End Inv.
