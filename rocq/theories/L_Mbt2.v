From Coq Require Import String Ascii ZArith List Bool Lia.
From Coq Require Import ZifyBool.
From Verif Require Import Base L_Base M_Mbt S_Mbt L_Mbt.
Import ListNotations.
Open Scope Z_scope.

Section Proofs.
Context (H : list Z -> list Z).

(** the nodes to the left / right of the path to leaf [num], in leaf order *)
Fixpoint lprf (c : ctree) (num : Z) : list (Z * list Z) :=
  match c with
  | CO _ _ => []
  | CB l r => if cnum l <? num then (cnum l, chash H l) :: lprf r (num - cnum l) else lprf l num
  end.
Fixpoint rprf (c : ctree) (num : Z) : list (Z * list Z) :=
  match c with
  | CO _ _ => []
  | CB l r => if cnum l <? num then rprf r (num - cnum l) else rprf l num ++ [(cnum r, chash H r)]
  end.

Definition pn (x : Z * list Z) : proof_node := {| p_num := fst x; p_value := snd x |}.

Lemma node_proof_spec : forall c num, canon c -> full c -> cnum c < 2^62 ->
  node_proof (hashed H c) num = Ok (map pn (rev (lprf c num)), map pn (rprf c num)).
Proof.
  induction c as [m h|l IHl r IHr]; intros num HC HF HB.
  - cbn [hashed node_proof lprf rprf]. cbn [full] in HF. subst m. reflexivity.
  - destruct (clevel_left l r HC HB) as (_ & HL & _ & HS).
    pose proof HC as HC'. cbn [canon cnum full] in HC', HB, HF. destruct HF as [F1 F2].
    destruct HC' as (H1 & H2 & k & Hk & Hl & Hr). pose proof (cnum_pos l H1). pose proof (cnum_pos r H2).
    cbn [hashed node_proof lprf rprf]. replace (clevel (CB l r) <? 2) with false by lia. rewrite HS.
    destruct (cnum l <? num).
    + rewrite IHr by (assumption || lia). cbn [rbind fst snd rev]. rewrite map_app, n_num_hashed, n_h_hashed. reflexivity.
    + rewrite IHl by (assumption || lia). cbn [rbind fst snd]. rewrite map_app, n_num_hashed, n_h_hashed. reflexivity.
Qed.

(** replace everything outside the range by opaque nodes *)
Fixpoint collapse (c : ctree) (b e : Z) : ctree :=
  match c with
  | CO m h => CO m h
  | CB l r =>
      if cnum l <? b then CB (CO (cnum l) (chash H l)) (collapse r (b - cnum l) (e - cnum l))
      else if e <=? cnum l then CB (collapse l b e) (CO (cnum r) (chash H r))
      else CB (collapse l b (cnum l)) (collapse r 1 (e - cnum l))
  end.

Lemma collapse_num : forall c b e, cnum (collapse c b e) = cnum c.
Proof.
  induction c as [m h|l IHl r IHr]; intros b e; cbn [collapse]; [reflexivity|].
  destruct (cnum l <? b); [cbn [cnum]; rewrite IHr; reflexivity|].
  destruct (e <=? cnum l); cbn [cnum]; rewrite ?IHl, ?IHr; reflexivity.
Qed.

Lemma collapse_hash : forall c b e, chash H (collapse c b e) = chash H c.
Proof.
  induction c as [m h|l IHl r IHr]; intros b e; cbn [collapse]; [reflexivity|].
  destruct (cnum l <? b); [cbn [chash]; rewrite IHr; reflexivity|].
  destruct (e <=? cnum l); cbn [chash]; rewrite ?IHl, ?IHr; reflexivity.
Qed.

Lemma collapse_canon : forall c b e, canon c -> canon (collapse c b e).
Proof.
  induction c as [m h|l IHl r IHr]; intros b e HC; cbn [collapse]; [assumption|].
  cbn [canon] in HC. destruct HC as (H1 & H2 & HK). pose proof (cnum_pos l H1). pose proof (cnum_pos r H2).
  destruct (cnum l <? b); [cbn [canon cnum]; rewrite collapse_num; auto|].
  destruct (e <=? cnum l); cbn [canon cnum]; rewrite ?collapse_num; auto.
Qed.

Lemma lprf_one : forall c, canon c -> lprf c 1 = [].
Proof.
  induction c as [m h|l IHl r IHr]; intros HC; cbn [lprf]; [reflexivity|].
  cbn [canon] in HC. destruct HC as (H1 & H2 & HK). pose proof (cnum_pos l H1).
  replace (cnum l <? 1) with false by lia. auto.
Qed.

Lemma rprf_last : forall c, canon c -> rprf c (cnum c) = [].
Proof.
  induction c as [m h|l IHl r IHr]; intros HC; cbn [rprf cnum]; [reflexivity|].
  cbn [canon] in HC. destruct HC as (H1 & H2 & HK). pose proof (cnum_pos r H2).
  replace (cnum l <? cnum l + cnum r) with true by lia.
  replace (cnum l + cnum r - cnum l) with (cnum r) by lia. auto.
Qed.

Lemma slice_app_r : forall A (a b : list A) lo hi, zlen a <= lo -> go_slice (a ++ b) lo hi = go_slice b (lo - zlen a) (hi - zlen a).
Proof.
  intros A a b lo hi Hl. unfold go_slice, zlen in *. rewrite skipn_app.
  rewrite (skipn_all2 a) by lia. cbn [app]. f_equal; [lia|]. f_equal. lia.
Qed.

Lemma slice_app_l : forall A (a b : list A) lo hi, 0 <= lo -> hi <= zlen a -> go_slice (a ++ b) lo hi = go_slice a lo hi.
Proof.
  intros A a b lo hi Hl Hh. unfold go_slice, zlen in *. rewrite skipn_app, firstn_app, skipn_length.
  destruct (Z.le_gt_cases lo hi).
  - replace (Z.to_nat (hi - lo) - (length a - Z.to_nat lo))%nat with 0%nat by lia. cbn [firstn]. apply app_nil_r.
  - replace (Z.to_nat (hi - lo)) with 0%nat by lia. reflexivity.
Qed.

Lemma slice_app_mid : forall A (a b : list A) lo hi, 0 <= lo <= zlen a -> zlen a <= hi ->
  go_slice (a ++ b) lo hi = go_slice a lo (zlen a) ++ go_slice b 0 (hi - zlen a).
Proof.
  intros A a b lo hi Hl Hh. unfold go_slice, zlen in *. rewrite skipn_app, firstn_app, skipn_length. f_equal.
  - rewrite !firstn_all2 by (rewrite skipn_length; lia). reflexivity.
  - replace (Z.to_nat lo - length a)%nat with 0%nat by lia. cbn [skipn Z.to_nat]. f_equal. lia.
Qed.

Lemma collapse_items : forall c b e, canon c -> full c -> 1 <= b <= e -> e <= cnum c ->
  items (collapse c b e) = lprf c b ++ go_slice (items c) (b - 1) e ++ rprf c e.
Proof.
  induction c as [m h|l IHl r IHr]; intros b e HC HF Hb He; cbn [collapse lprf rprf items].
  - cbn [full cnum] in *. replace e with 1 by lia. replace b with 1 by lia. reflexivity.
  - pose proof HC as HC'. cbn [canon cnum full] in HC', He, HF. destruct HF as [F1 F2].
    destruct HC' as (H1 & H2 & HK). pose proof (cnum_pos l H1). pose proof (cnum_pos r H2).
    pose proof (full_num l F1) as NL. pose proof (full_num r F2) as NR.
    destruct (Z.ltb_spec (cnum l) b).
    + cbn [items app]. rewrite IHr by (assumption || lia).
      replace (cnum l <? e) with true by lia. cbn [app]. f_equal. f_equal. f_equal.
      rewrite slice_app_r by lia. f_equal; lia.
    + destruct (Z.leb_spec e (cnum l)).
      * cbn [items]. rewrite IHl by (assumption || lia). replace (cnum l <? e) with false by lia.
        rewrite <- !app_assoc. f_equal. rewrite slice_app_l by lia. reflexivity.
      * cbn [items]. rewrite IHl, IHr by (assumption || lia). replace (cnum l <? e) with true by lia.
        rewrite rprf_last, lprf_one by assumption. rewrite app_nil_r. cbn [app].
        rewrite <- !app_assoc. f_equal. rewrite slice_app_mid by lia. rewrite <- NL. rewrite <- app_assoc. reflexivity.
Qed.

Lemma collapse_opaque_ok : forall c b e, (forall x, H x <> []) -> opaque_ok c -> opaque_ok (collapse c b e).
Proof.
  intros c b e HH. assert (HN : forall c, opaque_ok c -> chash H c <> []) by (intros [m h|l r] HO; cbn in *; auto).
  revert b e. induction c as [m h|l IHl r IHr]; intros b e HO; cbn [collapse]; [assumption|].
  cbn [opaque_ok] in HO. destruct HO.
  destruct (cnum l <? b); [cbn [opaque_ok]; auto|]. destruct (e <=? cnum l); cbn [opaque_ok]; auto.
Qed.

(** ** Root of a proof *)
Lemma fold_left_map : forall A B C (f : A -> B -> A) (g : C -> B) l a,
  fold_left f (map g l) a = fold_left (fun a x => f a (g x)) l a.
Proof. intros A B C f g. induction l; intros; cbn; auto. Qed.

Lemma fold_add_sum : forall l a, 0 <= a -> Forall (fun x => 1 <= fst x) l -> a + isum l < 2^62 ->
  fold_left (fun a x => i64 (a + p_num x)) (map pn l) a = a + isum l.
Proof.
  induction l as [|x l IH]; intros a Ha HF HB; cbn [map fold_left isum fold_right].
  - lia.
  - change (fold_right (fun x a => fst x + a) 0 l) with (isum l).
    inversion HF as [|? ? Hx HF']; subst. cbn [isum fold_right] in HB. change (fold_right (fun x a => fst x + a) 0 l) with (isum l) in HB.
    assert (0 <= isum l). { clear -HF'. induction HF'; [cbn; lia|]. unfold isum in *. cbn [fold_right]. lia. }
    cbn [pn p_num]. rewrite i64_id by lia. rewrite IH by (assumption || lia). lia.
Qed.

Lemma proof_Root_items : forall L cs R,
  let its := L ++ map (leaf_item H) cs ++ R in
  Forall (fun x => 1 <= fst x) its -> isum its < 2^62 ->
  proof_Root H {| p_left := map pn L; p_contents := cs; p_right := map pn R |} =
  rbind (ensureHash H false (fold_left ins its new_node)) (fun r =>
    Ok (n_h r, isum L, isum its, (n_num r =? isum its) && verify r)).
Proof.
  intros L cs R its HF HB. unfold proof_Root. cbn [p_left p_contents p_right].
  assert (E : fold_left ins its new_node =
     fold_left (fun n x => lazyAdd n (p_num x) (p_value x)) (map pn R)
       (fold_left (fun n c => lazyAdd n 1 (H c)) cs (fold_left (fun n x => lazyAdd n (p_num x) (p_value x)) (map pn L) new_node))).
  { unfold its. rewrite !fold_left_app, !fold_left_map. reflexivity. }
  rewrite <- E. clear E. unfold its in *. rewrite !isum_app in *.
  apply Forall_app in HF as [F1 F2]. apply Forall_app in F2 as [_ F2].
  assert (P : forall l, Forall (fun x => 1 <= fst x) l -> 0 <= isum l).
  { clear. intros l HF. induction HF; [cbn; lia|]. unfold isum in *. cbn [fold_right]. lia. }
  assert (EC : isum (map (leaf_item H) cs) = zlen cs).
  { clear. unfold isum. induction cs; [reflexivity|]. rewrite zlen_cons. cbn [map fold_right leaf_item fst] in *. lia. }
  rewrite EC in *. pose proof (P _ F1). pose proof (P _ F2). pose proof (zlen_nonneg _ cs).
  rewrite (i64_id (zlen cs)) by lia.
  rewrite !fold_add_sum by (assumption || lia). rewrite i64_id by lia.
  replace (0 + isum L + (zlen cs + isum R)) with (isum L + (zlen cs + isum R)) by lia. reflexivity.
Qed.

Lemma lprf_sum : forall c b, canon c -> full c -> 1 <= b <= cnum c -> isum (lprf c b) = b - 1.
Proof.
  induction c as [m h|l IHl r IHr]; intros b HC HF Hb; cbn [lprf].
  - cbn [full cnum] in *. cbn. lia.
  - cbn [canon cnum full] in *. destruct HF as [F1 F2]. destruct HC as (H1 & H2 & HK).
    destruct (Z.ltb_spec (cnum l) b).
    + unfold isum. cbn [fold_right fst]. fold (isum (lprf r (b - cnum l))). rewrite IHr by (assumption || lia). lia.
    + apply IHl; (assumption || lia).
Qed.

Lemma go_slice_map : forall A B (f : A -> B) l lo hi, go_slice (map f l) lo hi = map f (go_slice l lo hi).
Proof. intros. unfold go_slice. rewrite skipn_map, firstn_map. reflexivity. Qed.

Lemma go_slice_full : forall A (l : list A), go_slice l 0 (zlen l) = l.
Proof. intros. unfold go_slice, zlen. cbn [Z.to_nat skipn]. apply firstn_all2. lia. Qed.

Lemma proof_complete : forall c cs b e, canon c -> full c -> items c = map (leaf_item H) cs -> cnum c < 2^62 ->
  (forall x, H x <> []) -> 1 <= b <= e -> e <= cnum c ->
  proof_Root H {| p_left := map pn (lprf c b); p_contents := go_slice cs (b - 1) e; p_right := map pn (rprf c e) |} =
    Ok (chash H c, b - 1, cnum c, true).
Proof.
  intros c cs b e HC HF HI HB HH Hb He.
  pose proof (collapse_items c b e HC HF Hb He) as E. rewrite HI, go_slice_map in E.
  assert (HCc := collapse_canon c b e HC). assert (HN := collapse_num c b e). assert (HHc := collapse_hash c b e).
  assert (HO : opaque_ok (collapse c b e)).
  { apply collapse_opaque_ok; [assumption|]. clear -HI HH. revert cs HI. induction c; intros cs HI; cbn [opaque_ok items] in *.
    - destruct cs as [|x cs]; [discriminate|]. cbn in HI. unfold leaf_item in HI. injection HI as _ -> _. apply HH.
    - symmetry in HI. apply map_eq_app in HI as (l1 & l2 & -> & E1 & E2). split; [eapply IHc1|eapply IHc2]; symmetry; eassumption. }
  rewrite proof_Root_items; rewrite <- E.
  - rewrite fold_new, ensureHash_to_node by (assumption || lia). cbn [rbind].
    rewrite n_h_hashed, n_num_hashed, verify_hashed by (assumption || lia).
    rewrite isum_items, HN, HHc, lprf_sum, Z.eqb_refl by (assumption || lia). reflexivity.
  - apply items_pos. assumption.
  - rewrite isum_items. lia.
Qed.

Lemma Proof_spec : forall c cs b e, canon c -> full c -> items c = map (leaf_item H) cs -> cnum c < 2^62 ->
  1 <= b <= e -> e <= zlen cs ->
  mbt_Proof {| m_root := Some (hashed H c); m_contents := cs |} b e =
  Ok {| p_left := map pn (lprf c b); p_contents := go_slice cs (b - 1) e; p_right := map pn (rprf c e) |}.
Proof.
  intros c cs b e HC HF HI HB Hb He.
  assert (N : cnum c = zlen cs) by (rewrite full_num, HI by assumption; unfold zlen; rewrite map_length; reflexivity).
  assert (HP : forall num, root_proof {| m_root := Some (hashed H c); m_contents := cs |} num = Ok (map pn (rev (lprf c num)), map pn (rprf c num))).
  { intros num. unfold root_proof. cbn [m_root]. apply node_proof_spec; assumption. }
  assert (HR : forall l : list (Z * list Z), rev (map pn (rev l)) = map pn l).
  { intros l. rewrite <- map_rev, rev_involutive. reflexivity. }
  unfold mbt_Proof, mbt_Len. cbn [m_contents].
  replace ((b <? 1) || (e <? 1) || (zlen cs <? e)) with false by lia. replace (e <? b) with false by lia.
  rewrite !HP. cbn [rbind fst snd].
  destruct (Z.eqb_spec b 1) as [->|Hb1].
  - destruct (Z.eqb_spec e (zlen cs)) as [->|He1]; cbn [andb].
    + unfold mbt_ProofOfAll, mbt_Len. cbn [m_contents]. replace (zlen cs <? 1) with false by lia.
      rewrite lprf_one, <- N, rprf_last, N by assumption. change (1 - 1) with 0. rewrite go_slice_full. reflexivity.
    + cbn [rev]. rewrite lprf_one by assumption. reflexivity.
  - cbn [andb]. destruct (Z.eqb_spec b e) as [->|Hbe]; [cbn [rbind fst snd]; rewrite HR; reflexivity|].
    destruct (Z.eqb_spec e (zlen cs)) as [->|He1]; cbn [rbind fst snd]; rewrite HR.
    + rewrite <- N, rprf_last by assumption. reflexivity.
    + reflexivity.
Qed.

(** ** paths *)
Lemma node_path_spec : forall c num, canon c -> full c -> cnum c < 2^62 -> 1 <= num <= cnum c ->
  exists p x, node_path (hashed H c) num = Ok p /\ nth_error (items c) (Z.to_nat (num - 1)) = Some x /\
    RootByMerkleNode H (snd x) p = chash H c.
Proof.
  induction c as [m h|l IHl r IHr]; intros num HC HF HB Hn.
  - cbn [full cnum] in *. subst m. exists [], (1, h). replace num with 1 by lia. split; [reflexivity|]. split; reflexivity.
  - destruct (clevel_left l r HC HB) as (_ & HL & _ & HS).
    pose proof HC as HC'. cbn [canon cnum full] in HC', HB, HF, Hn. destruct HF as [F1 F2].
    destruct HC' as (H1 & H2 & k & Hk & Hl & Hr). pose proof (cnum_pos l H1). pose proof (cnum_pos r H2).
    pose proof (full_num l F1) as NL. unfold zlen in NL.
    cbn [hashed node_path items]. replace (clevel (CB l r) <? 2) with false by lia. rewrite HS.
    destruct (Z.ltb_spec (cnum l) num).
    + destruct (IHr (num - cnum l) H2 F2 ltac:(lia) ltac:(lia)) as (p & x & E1 & E2 & E3).
      exists (p ++ [{| pn_right := false; pn_value := n_h (hashed H l) |}]), x. rewrite E1. split; [reflexivity|].
      split; [rewrite nth_error_app2 by lia; rewrite <- E2; f_equal; lia|].
      unfold RootByMerkleNode in *. rewrite fold_left_app, E3. cbn. rewrite n_h_hashed. reflexivity.
    + destruct (IHl num H1 F1 ltac:(lia) ltac:(lia)) as (p & x & E1 & E2 & E3).
      exists (p ++ [{| pn_right := true; pn_value := n_h (hashed H r) |}]), x. rewrite E1. split; [reflexivity|].
      split; [rewrite nth_error_app1 by lia; assumption|].
      unfold RootByMerkleNode in *. rewrite fold_left_app, E3. cbn. rewrite n_h_hashed. reflexivity.
Qed.

Lemma path_sound : forall n p p' h h', digest_size H n -> zlen h = n -> zlen h' = n ->
  map pn_right p = map pn_right p' -> RootByMerkleNode H h p = RootByMerkleNode H h' p' -> h = h' \/ collision H.
Proof.
  intros n p p' h h' HD. revert p' h h'. induction p as [|x p IH]; intros [|x' p'] h h' Hh Hh' HE HR; try discriminate.
  - left. exact HR.
  - cbn [map] in HE. assert (pn_right x = pn_right x' /\ map pn_right p = map pn_right p') as [E1 E2] by (split; congruence).
    unfold RootByMerkleNode in HR. cbn [fold_left] in HR. rewrite <- E1 in HR.
    destruct (pn_right x); apply IH in HR; auto; destruct HR as [HR|HR]; auto.
    + destruct (list_eq_dec Z.eq_dec (h ++ pn_value x) (h' ++ pn_value x')) as [E|E]; [|right; unfold collision; eauto].
      left. apply app_eq_length in E; [tauto|]. unfold zlen in *. lia.
    + destruct (list_eq_dec Z.eq_dec (pn_value x ++ h) (pn_value x' ++ h')) as [E|E]; [|right; unfold collision; eauto].
      left. assert (HLn : length (pn_value x) = length (pn_value x')).
      { apply (f_equal (@length Z)) in E. rewrite !app_length in E. unfold zlen in *. lia. }
      apply app_eq_length in E; [tauto|assumption].
Qed.
End Proofs.
