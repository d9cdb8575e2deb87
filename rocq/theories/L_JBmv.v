(** Lemmas for the Java BTP block verifier: its Merkle proofs compute what common/mbt computes. *)
From Coq Require Import String Ascii ZArith List Bool Lia.
From Coq Require Import ZifyBool.
From Verif Require Import Base L_Base M_Mbt S_Mbt L_Mbt M_JBmv.
Import ListNotations.
Open Scope Z_scope.

Lemma jint_id : forall x, - 2^31 <= x < 2^31 -> jint x = x.
Proof. intros. unfold jint. rewrite Z.mod_small by lia. lia. Qed.

Lemma numberToLevel_same : forall n, 0 <= n < 2^31 -> numberToLevel n = NumberToLevel n.
Proof.
  intros n Hn. unfold numberToLevel, NumberToLevel.
  destruct (Z.leb_spec n 2).
  - destruct (Z.eqb_spec n 0); [lia|]. destruct (Z.eqb_spec n 1); [lia|]. destruct (Z.eqb_spec n 2); lia.
  - replace (n =? 0) with false by lia. replace (n =? 1) with false by lia. replace (n =? 2) with false by lia.
    rewrite i64_id by lia. reflexivity.
Qed.

(** Shape of the trees built from positive sizes *)
Fixpoint shape (n : node) : Prop :=
  match n with
  | Leaf _ lv num => 1 <= num < 2^62 /\ lv = NumberToLevel num
  | Branch l r _ lv num => shape l /\ shape r /\ lv = n_level l + 1 /\ num = n_num l + n_num r /\ 2 ^ (n_level l) < 4 * n_num l
  end.

Lemma shape_pos : forall n, shape n -> 1 <= n_num n /\ 1 <= n_level n.
Proof.
  induction n as [h lv num|l IHl r IHr h lv num]; cbn [shape n_num n_level]; intros S.
  - destruct S as [S ->]. destruct (ntl_spec num S). lia.
  - destruct S as (Sl & Sr & -> & -> & _). specialize (IHl Sl). specialize (IHr Sr). lia.
Qed.

Lemma shape_leaf_bound : forall num, 1 <= num < 2^62 -> 2 ^ (NumberToLevel num) < 4 * num.
Proof.
  intros num Hn. destruct (ntl_spec num Hn) as [HL HB]. replace (NumberToLevel num) with (Z.succ (NumberToLevel num - 1)) by lia.
  rewrite Z.pow_succ_r by lia. lia.
Qed.

Lemma add_same : forall n m v, shape n -> 1 <= m -> n_num n + m < 2^31 -> j_add n m v = lazyAdd n m v /\ shape (lazyAdd n m v).
Proof.
  induction n as [h lv num|l IHl r IHr h lv num]; intros m v S Hm HB.
  - cbn [j_add lazyAdd]. pose proof (shape_pos _ S) as [P1 P2]. cbn [n_num n_level] in *. replace (lv =? 0) with false by lia.
    rewrite numberToLevel_same, jint_id, i64_id by lia. split; [reflexivity|].
    pose proof S as S'. cbn [shape] in S'. destruct S' as [S1 S2].
    cbn [shape n_level n_num]. repeat split; try lia. rewrite S2. apply shape_leaf_bound. lia.
  - cbn [j_add lazyAdd]. pose proof (shape_pos _ S) as [P1 P2]. cbn [n_num n_level] in *. replace (lv =? 0) with false by lia.
    rewrite numberToLevel_same, jint_id, i64_id by lia. pose proof S as S'. cbn [shape] in S'. destruct S' as (Sl & Sr & E1 & E2 & E3).
    pose proof (shape_pos _ Sl). pose proof (shape_pos _ Sr).
    destruct (Z.eqb_spec (n_num l) (n_num r)) as [E|E]; cbn [negb].
    + split; [reflexivity|]. cbn [shape n_level n_num]. repeat split; auto; try lia. rewrite E1, Z.pow_add_r by lia. lia.
    + destruct (IHr m v Sr Hm ltac:(lia)) as [-> S1]. split; [reflexivity|]. cbn [shape]. repeat split; auto; try lia.
      destruct (lazyAdd_level_num r m v) as [_ ->]; lia.
Qed.

Definition jins (n : node) (x : Z * list Z) := j_add n (fst x) (snd x).
Definition gins (n : node) (x : Z * list Z) := lazyAdd n (fst x) (snd x).
Definition nsum (l : list (Z * list Z)) : Z := fold_right (fun x a => fst x + a) 0 l.

Lemma fold_same : forall l n, shape n -> Forall (fun x => 1 <= fst x) l -> n_num n + nsum l < 2^31 ->
  fold_left jins l n = fold_left gins l n /\ shape (fold_left gins l n) /\ n_num (fold_left gins l n) = n_num n + nsum l.
Proof.
  induction l as [|[m v] l IH]; intros n S F HB; cbn [fold_left nsum fold_right fst] in *; [split; [reflexivity|split; [assumption|lia]]|].
  inversion F as [|? ? F1 F2]; subst. cbn [fst] in F1. fold (nsum l) in *.
  assert (0 <= nsum l). { clear - F2. induction F2; cbn [nsum fold_right]; [lia|]. fold (nsum l). lia. }
  unfold jins at 2, gins at 2 4 6. cbn [fst snd].
  destruct (add_same n m v S F1 ltac:(lia)) as [-> S1].
  pose proof (shape_pos _ S). destruct (lazyAdd_level_num n m v) as [_ N]; try lia.
  destruct (IH (lazyAdd n m v) S1 F2 ltac:(lia)) as (A & B & C). split; [exact A|]. split; [exact B|]. lia.
Qed.

(** The first insertion goes into the empty node *)
Lemma fold_same_new : forall l, Forall (fun x => 1 <= fst x) l -> nsum l < 2^31 ->
  fold_left jins l new_node = fold_left gins l new_node /\
  (l = [] \/ shape (fold_left gins l new_node)) /\ n_num (fold_left gins l new_node) = nsum l.
Proof.
  intros [|[m v] l] F HB; [split; [reflexivity|split; [auto|reflexivity]]|].
  inversion F as [|? ? F1 F2]; subst. cbn [fst] in F1. cbn [nsum fold_right fst] in *. fold (nsum l) in *.
  assert (0 <= nsum l). { clear - F2. induction F2; cbn [nsum fold_right]; [lia|]. fold (nsum l). lia. }
  cbn [fold_left]. unfold jins at 2, gins at 2 4 6. cbn [fst snd].
  change (j_add new_node m v) with (Leaf v (numberToLevel m) m). change (lazyAdd new_node m v) with (Leaf v (NumberToLevel m) m).
  rewrite numberToLevel_same by lia.
  destruct (fold_same l (Leaf v (NumberToLevel m) m)) as (A & B & C); [cbn [shape]; split; [lia|reflexivity]|assumption|cbn [n_num]; lia|].
  cbn [n_num] in C. auto.
Qed.

Lemma ensure_same : forall H n, match ensureHash H false n with Ok a => j_ensureHash H n = Some a | _ => j_ensureHash H n = None end.
Proof.
  induction n as [h lv num|l IHl r IHr h lv num]; cbn [ensureHash j_ensureHash].
  - replace (lv <=? 1) with (lv <? 2) by lia. destruct (lv <? 2); [reflexivity|]. cbn [orb]. destruct (empty_bytes h); reflexivity.
  - replace (lv <=? 1) with (lv <? 2) by lia. destruct (lv <? 2); [reflexivity|]. cbn [orb]. destruct (empty_bytes h); [|reflexivity].
    destruct (ensureHash H false l) as [l'| |]; cbn [rbind]; rewrite IHl; cbn [obind]; try reflexivity.
    destruct (ensureHash H false r) as [r'| |]; cbn [rbind]; rewrite IHr; reflexivity.
Qed.

Lemma ensure_shape : forall H n a, ensureHash H false n = Ok a ->
  n_level a = n_level n /\ n_num a = n_num n /\ (shape n -> shape a).
Proof.
  induction n as [h lv num|l IHl r IHr h lv num]; intros a E; cbn [ensureHash] in E.
  - destruct (lv <? 2); [injection E as <-; auto|]. destruct (_ || _); [discriminate|]. injection E as <-. auto.
  - destruct (lv <? 2); [injection E as <-; auto|]. destruct (_ || _); [|injection E as <-; auto].
    destruct (ensureHash H false l) as [l'| |]; cbn [rbind] in E; try discriminate.
    destruct (ensureHash H false r) as [r'| |]; cbn [rbind] in E; try discriminate. injection E as <-.
    destruct (IHl _ eq_refl) as (A1 & A2 & A3). destruct (IHr _ eq_refl) as (B1 & B2 & B3). split; [reflexivity|]. split; [reflexivity|].
    cbn [shape]. rewrite A1, A2, B2. intuition auto.
Qed.

Lemma shift_same : forall lv num, 1 <= lv -> 2 ^ lv < 4 * num -> num < 2^31 -> (jshl1 (lv - 1) =? num) = (shl1 (lv - 1) =? num).
Proof.
  intros lv num H1 H2 H3. assert (2 ^ lv < 2 ^ 33) by (replace (2 ^ 33) with (4 * 2 ^ 31) by reflexivity; lia).
  assert (lv < 33) by (apply (Z.pow_lt_mono_r_iff 2); lia).
  unfold jshl1, shl1. rewrite Z.mod_small by lia. destruct (Z.eq_dec lv 32) as [->|E].
  - replace (2 ^ (32 - 1)) with (2 ^ 31) by reflexivity. unfold jint, i64. change ((2 ^ 31 + 2 ^ 31) mod 2 ^ 32 - 2 ^ 31) with (- 2 ^ 31).
    replace (2 ^ 31 mod 2 ^ 64) with (2 ^ 31) by reflexivity. replace (2 ^ 31 <? 2 ^ 63) with true by reflexivity.
    assert (0 < num) by (assert (0 < 2 ^ 32) by reflexivity; lia). lia.
  - assert (2 ^ (lv - 1) <= 2 ^ 30) by (apply Z.pow_le_mono_r; lia). assert (0 < 2 ^ (lv - 1)) by (apply Z.pow_pos_nonneg; lia).
    rewrite jint_id, i64_id by lia. reflexivity.
Qed.

Lemma verify_same : forall n, shape n -> n_num n < 2^31 -> j_verify n = verify n.
Proof.
  induction n as [h lv num|l IHl r IHr h lv num]; intros S HB; cbn [j_verify verify]; [reflexivity|].
  cbn [shape] in S. destruct S as (Sl & Sr & E1 & E2 & E3). cbn [n_num] in HB. pose proof (shape_pos _ Sl). pose proof (shape_pos _ Sr).
  rewrite IHl, IHr by (assumption || lia). rewrite shift_same by lia. reflexivity.
Qed.

Definition un (x : proof_node) : Z * list Z := (p_num x, p_value x).
Lemma fold_left_map : forall A B C (f : C -> B -> C) (g : A -> B) l a, fold_left f (map g l) a = fold_left (fun a x => f a (g x)) l a.
Proof. induction l; intros; cbn; auto. Qed.

Lemma sum_fold_j : forall l a, 0 <= a -> Forall (fun x => 1 <= p_num x) l -> a + nsum (map un l) < 2^31 ->
  fold_left (fun a x => jint (a + p_num x)) l a = a + nsum (map un l) /\
  fold_left (fun a x => i64 (a + p_num x)) l a = a + nsum (map un l) /\ 0 <= nsum (map un l).
Proof.
  induction l as [|x l IH]; intros a Ha F HB; [cbn; split; [lia|]; split; lia|].
  change (nsum (map un (x :: l))) with (p_num x + nsum (map un l)) in *. cbn [fold_left].
  inversion F as [|? ? F1 F2]; subst.
  assert (N : 0 <= nsum (map un l)). { clear - F2. induction F2; cbn [map nsum fold_right]; [lia|]. fold (nsum (map un l)). unfold un at 1. cbn [fst]. lia. }
  rewrite jint_id, i64_id by lia. destruct (IH (a + p_num x) ltac:(lia) F2 ltac:(lia)) as (A & B & C). rewrite A, B. lia.
Qed.

Lemma nsum_app : forall a b, nsum (a ++ b) = nsum a + nsum b.
Proof. induction a; intros; cbn [app nsum fold_right]; [reflexivity|]. fold (nsum (a0 ++ b)). fold (nsum a0). rewrite IHa. lia. Qed.

(** The Java proof evaluation is that of common/mbt for positive sizes that add up to less than 2^31. *)
Lemma prove_same : forall H p, Forall (fun x => 1 <= p_num x) (p_left p ++ p_right p) ->
  nsum (map un (p_left p ++ p_right p)) + zlen (p_contents p) < 2^31 -> p_left p ++ map (fun c => {| p_num := 1; p_value := H c |}) (p_contents p) ++ p_right p <> [] ->
  match proof_Root H p with
  | Ok (h, lft, total, true) => proveMessage H p = Some (Some h, lft, total)
  | _ => proveMessage H p = None
  end.
Proof.
  intros H [L C R] F HB Hne. cbn [p_left p_contents p_right] in *. unfold proof_Root, proveMessage. cbn [p_left p_contents p_right].
  apply Forall_app in F as [FL FR]. rewrite map_app, nsum_app in HB.
  set (C' := map (fun c => (1, H c)) C).
  assert (EC : nsum C' = zlen C). { unfold C'. clear. induction C as [|c C IH]; [reflexivity|]. cbn [map nsum fold_right fst]. fold (nsum (map (fun c => (1, H c)) C)). rewrite IH, zlen_cons. lia. }
  assert (NL : 0 <= nsum (map un L)). { clear - FL. induction FL; cbn [map nsum fold_right]; [lia|]. fold (nsum (map un l)). unfold un at 1. cbn [fst]. lia. }
  assert (NR : 0 <= nsum (map un R)). { clear - FR. induction FR; cbn [map nsum fold_right]; [lia|]. fold (nsum (map un l)). unfold un at 1. cbn [fst]. lia. }
  pose proof (zlen_nonneg _ C) as NC.
  assert (G : forall (f : node -> Z * list Z -> node) n, fold_left (fun n x => f n (un x)) R (fold_left (fun n c => f n (1, H c)) C (fold_left (fun n x => f n (un x)) L n)) =
              fold_left f (map un L ++ C' ++ map un R) n).
  { intros f n. rewrite !fold_left_app. unfold C'. rewrite !fold_left_map. reflexivity. }
  pose proof (G jins new_node) as GJ. pose proof (G gins new_node) as GG. unfold jins, gins in GJ, GG. unfold un in GJ, GG. cbn [fst snd] in GJ, GG.
  fold un in GJ, GG. rewrite GJ, GG. clear GJ GG G.
  destruct (fold_same_new (map un L ++ C' ++ map un R)) as (A1 & A2 & A3).
  { apply Forall_app. split; [apply Forall_map; exact FL|]. apply Forall_app. split; [|apply Forall_map; exact FR].
    unfold C'. apply Forall_map. apply Forall_forall. intros. cbn [fst]. lia. }
  { rewrite !nsum_app. lia. }
  unfold jins, gins in A1, A2, A3. rewrite A1. destruct A2 as [A2|A2].
  { exfalso. apply app_eq_nil in A2 as [A2 A2']. apply app_eq_nil in A2' as [A2' A2'']. apply map_eq_nil in A2, A2''. unfold C' in A2'. apply map_eq_nil in A2'. subst. apply Hne. reflexivity. }
  rewrite !nsum_app, EC in A3.
  destruct (sum_fold_j L 0) as (B1 & B2 & _); [lia|assumption|lia|]. rewrite B1, B2.
  rewrite (jint_id (zlen C)), (i64_id (zlen C)) by lia.
  destruct (sum_fold_j R (zlen C)) as (D1 & D2 & _); [lia|assumption|lia|]. rewrite D1, D2. rewrite !jint_id, !i64_id by lia.
  set (T := fold_left gins (map un L ++ C' ++ map un R) new_node).
  match goal with |- context [ensureHash H false ?x] => change x with T end.
  match goal with |- context [j_ensureHash H ?x] => change x with T end.
  match type of A2 with shape ?x => change x with T in A2 end. match type of A3 with n_num ?x = _ => change x with T in A3 end.
  pose proof (ensure_same H T) as ES. destruct (ensureHash H false T) as [a| |] eqn:EH; rewrite ES; cbn [rbind obind]; try reflexivity.
  destruct (ensure_shape H T a EH) as (S1 & S2 & S3). rewrite verify_same by (auto || lia).
  rewrite S2, A3. replace (nsum (map un L) + (zlen C + nsum (map un R)) =? 0 + nsum (map un L) + (zlen C + nsum (map un R))) with true by lia.
  replace (zlen C + nsum (map un R) + (0 + nsum (map un L)) =? nsum (map un L) + (zlen C + nsum (map un R))) with true by lia.
  cbn [andb]. destruct (verify a); cbn [check obind]; [|reflexivity].
  replace (zlen C + nsum (map un R) + (0 + nsum (map un L))) with (0 + nsum (map un L) + (zlen C + nsum (map un R))) by lia.
  destruct L, C, R; try reflexivity. exfalso. apply Hne. reflexivity.
Qed.
