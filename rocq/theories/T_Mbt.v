(** Theorems about the Merkle binary tree: C15 - C19. *)
From Coq Require Import String Ascii ZArith List Bool Lia.
From Coq Require Import ZifyBool.
From Verif Require Import Base L_Base M_Mbt S_Mbt L_Mbt L_Mbt2 L_Mbt3.
Import ListNotations.
Open Scope Z_scope.

(** A toy hash with 2-byte digests, for examples. *)
Definition toyH (l : list Z) : list Z :=
  let s := fold_left (fun a b => (a * 31 + b + 7) mod 65521) l 5 in [s / 256; s mod 256].

Lemma toyH_digest : digest_size toyH 2.
Proof. intros x. reflexivity. Qed.

(** ** C15 *)
Theorem C15_root_is_merkle_root : forall H cs, (forall x, H x <> []) -> cs <> [] -> zlen cs < 2^62 ->
  exists t root, NewMerkleBinaryTree H (map Some cs) = Ok t /\ mbt_Root t = Some root /\ merkle H cs root /\ mbt_Len t = zlen cs.
Proof.
  intros H cs HH Hne HB. destruct (New_spec H cs HH Hne HB) as (c & _ & _ & _ & HM & E).
  eexists. exists (chash H c). split; [exact E|]. split; [unfold mbt_Root; cbn [m_root]; rewrite n_h_hashed; reflexivity|].
  split; [assumption|reflexivity].
Qed.
Print Assumptions C15_root_is_merkle_root.

(** The specification determines the root. *)
Theorem C15_merkle_root_unique : forall H cs r r', merkle H cs r -> merkle H cs r' -> r = r'.
Proof. intros. eapply merkle_fun; eassumption. Qed.
Print Assumptions C15_merkle_root_unique.

(** The root commits to the contents (for a known number of leaves). *)
Theorem C15_root_binds_contents : forall H n cs cs' r, digest_size H n -> merkle H cs r -> merkle H cs' r ->
  zlen cs = zlen cs' -> cs = cs' \/ collision H.
Proof.
  intros H n cs cs' r HD HM HM' HL.
  assert (Hne : cs' <> []) by (apply merkle_len in HM'; destruct cs'; [cbn in *; lia|discriminate]).
  destruct (full_exists (length cs') H cs' (le_n _) Hne) as (c & C1 & C2 & C3 & C4).
  assert (N : cnum c = zlen cs') by (rewrite full_num, C3 by assumption; unfold zlen; rewrite map_length; reflexivity).
  rewrite (merkle_fun _ _ _ HM' _ C4) in HM.
  destruct (contents_sound H n c cs HD C1 HM ltac:(lia) cs' [] []) as [(a & b & E & Ha)|HC]; [rewrite app_nil_r; exact C3| |auto].
  left. destruct a; [|rewrite zlen_cons in Ha; pose proof (zlen_nonneg _ a); cbn in Ha; lia].
  rewrite E in HL. cbn [app] in HL. rewrite zlen_app in HL.
  destruct b; [rewrite E, app_nil_r; reflexivity|]. rewrite zlen_cons in HL. pose proof (zlen_nonneg _ b). lia.
Qed.
Print Assumptions C15_root_binds_contents.

(** nil contents are refused, wherever they are. *)
Theorem C15_nil_content_rejected : forall H a b, NewMerkleBinaryTree H (map Some a ++ None :: b) = Err 1.
Proof.
  intros H a b. unfold NewMerkleBinaryTree. destruct (map Some a ++ None :: b) eqn:E; [destruct a; discriminate|]. rewrite <- E.
  assert (G : forall n, New_loop H n (map Some a ++ None :: b) = Err 1).
  { clear E. induction a as [|x a IH]; intros n; cbn [map app New_loop]; [reflexivity|]. rewrite IH. reflexivity. }
  rewrite G. reflexivity.
Qed.
Print Assumptions C15_nil_content_rejected.

(** Get returns the leaves (1-based) and refuses everything else. *)
Theorem C15_get : forall H cs t, NewMerkleBinaryTree H (map Some cs) = Ok t -> forall num,
  (1 <= num <= zlen cs -> exists c, nth_error cs (Z.to_nat (num - 1)) = Some c /\ mbt_Get t num = Ok c) /\
  (num < 1 \/ zlen cs < num -> mbt_Get t num = Err 2).
Proof.
  intros H cs t E num. assert (HC : m_contents t = cs).
  { unfold NewMerkleBinaryTree in E. destruct cs as [|c cs]; [cbn in E; injection E as <-; reflexivity|].
    rewrite New_loop_spec in E. cbn [map rbind fst snd] in E.
    destruct (ensureHash _ _ _); cbn [rbind] in E; try discriminate. injection E as <-. reflexivity. }
  unfold mbt_Get, mbt_Len. rewrite HC. split; intros Hn.
  - replace ((num <? 1) || (zlen cs <? num)) with false by lia.
    destruct (nth_error cs (Z.to_nat (num - 1))) eqn:EN; [eauto|]. apply nth_error_None in EN. unfold zlen in *. lia.
  - replace ((num <? 1) || (zlen cs <? num)) with true by lia. reflexivity.
Qed.
Print Assumptions C15_get.

Definition ex_cs : list (list Z) := [[1]; [2; 2]; []; [4]; [5]; [6; 6; 6]; [7]].
Example C15_ex : (forall x, toyH x <> []) /\ ex_cs <> [] /\ zlen ex_cs < 2^62 /\
  exists t, NewMerkleBinaryTree toyH (map Some ex_cs) = Ok t /\
  mbt_Root t = Some (let h := toyH in h (h (h (h [1] ++ h [2;2]) ++ h (h [] ++ h [4])) ++ h (h (h [5] ++ h [6;6;6]) ++ h [7]))).
Proof.
  split; [intros x; discriminate|]. split; [discriminate|]. split; [reflexivity|].
  eexists. split; vm_compute; reflexivity.
Qed.

(** ** C16 *)
Theorem C16_range_proof_verifies : forall H cs b e, (forall x, H x <> []) -> zlen cs < 2^62 ->
  1 <= b -> b <= e -> e <= zlen cs ->
  exists t p root, NewMerkleBinaryTree H (map Some cs) = Ok t /\ mbt_Root t = Some root /\
    mbt_Proof t b e = Ok p /\ proof_Root H p = Ok (root, b - 1, zlen cs, true) /\
    sublist_at cs (b - 1) (p_contents p) /\ zlen (p_contents p) = e - b + 1.
Proof.
  intros H cs b e HH HB H1 H2 H3.
  assert (Hne : cs <> []) by (destruct cs; [cbn in *; lia|discriminate]).
  destruct (New_spec H cs HH Hne HB) as (c & C1 & C2 & C3 & HM & E).
  assert (N : cnum c = zlen cs) by (rewrite full_num, C3 by assumption; unfold zlen; rewrite map_length; reflexivity).
  eexists. eexists. exists (chash H c). split; [exact E|]. split; [unfold mbt_Root; cbn [m_root]; rewrite n_h_hashed; reflexivity|].
  split; [apply Proof_spec; assumption || lia|]. split; [rewrite <- N; apply proof_complete; assumption || lia|].
  cbn [p_contents]. unfold go_slice. split.
  - exists (firstn (Z.to_nat (b - 1)) cs), (skipn (Z.to_nat (e - (b - 1))) (skipn (Z.to_nat (b - 1)) cs)).
    rewrite firstn_skipn, firstn_skipn. split; [reflexivity|]. unfold zlen in *. rewrite firstn_length. lia.
  - unfold zlen in *. rewrite firstn_length, skipn_length. lia.
Qed.
Print Assumptions C16_range_proof_verifies.

(** Out-of-range requests are refused. *)
Theorem C16_bad_range_rejected : forall t b e, b < 1 \/ e < 1 \/ mbt_Len t < e \/ e < b -> exists x, mbt_Proof t b e = Err x.
Proof.
  intros t b e Hb. unfold mbt_Proof. destruct ((b <? 1) || (e <? 1) || (mbt_Len t <? e)) eqn:E1; [eauto|].
  destruct (Z.ltb_spec e b); [eauto|]. lia.
Qed.
Print Assumptions C16_bad_range_rejected.

Example C16_ex : exists t p root, NewMerkleBinaryTree toyH (map Some ex_cs) = Ok t /\ mbt_Root t = Some root /\
  mbt_Proof t 3 5 = Ok p /\ p_contents p = [[]; [4]; [5]] /\ length (p_left p) = 1%nat /\ length (p_right p) = 2%nat /\
  proof_Root toyH p = Ok (root, 2, 7, true).
Proof. eexists. eexists. eexists. repeat (split; [vm_compute; reflexivity|]). vm_compute. reflexivity. Qed.

(** ** C17 *)

(** Node sizes of a proof, in order, with the contents counting one each. *)
Definition claimed_sizes (p : mbt_proof) : list Z :=
  map p_num (p_left p) ++ map (fun _ => 1) (p_contents p) ++ map p_num (p_right p).
Definition zsum (l : list Z) : Z := fold_right Z.add 0 l.

Theorem C17_accepted_contents_are_genuine : forall H n cs root p left total,
  digest_size H n -> merkle H cs root ->
  Forall (fun s => 1 <= s) (claimed_sizes p) -> zsum (claimed_sizes p) < 2^62 ->
  proof_Root H p = Ok (root, left, total, true) -> total = zlen cs ->
  sublist_at cs left (p_contents p) \/ collision H.
Proof.
  intros H n cs root p left total HD HM HF HS HR HT. destruct p as [L C R]. cbn [p_contents] in *.
  set (un := fun x : proof_node => (p_num x, p_value x)).
  assert (EU : forall l, map pn (map un l) = l).
  { intros l. rewrite map_map. rewrite <- (map_id l) at 2. apply map_ext. intros [? ?]; reflexivity. }
  assert (EZ : forall l, isum l = zsum (map fst l)) by (intros l; unfold isum, zsum; induction l; cbn in *; congruence).
  set (its := map un L ++ map (leaf_item H) C ++ map un R).
  assert (EI : map fst its = claimed_sizes {| p_left := L; p_contents := C; p_right := R |}).
  { unfold its, claimed_sizes. cbn [p_left p_contents p_right]. rewrite !map_app, !map_map. reflexivity. }
  rewrite <- EI in *. rewrite <- EZ in HS.
  assert (HP : pos_items its) by (unfold pos_items; clear -HF; induction its as [|x l IH]; cbn [map] in HF; [constructor|inversion HF; subst; constructor; auto]).
  rewrite <- (EU L), <- (EU R) in HR.
  destruct (proof_sound H n cs root (map un L) C (map un R) left total HD HM HP HS HR HT) as [_ HX]. exact HX.
Qed.
Print Assumptions C17_accepted_contents_are_genuine.

Example C17_ex : exists p root, digest_size toyH 2 /\ merkle toyH ex_cs root /\
  Forall (fun s => 1 <= s) (claimed_sizes p) /\ zsum (claimed_sizes p) < 2^62 /\ p_left p <> [] /\
  proof_Root toyH p = Ok (root, 2, zlen ex_cs, true).
Proof.
  destruct (C16_range_proof_verifies toyH ex_cs 3 5 ltac:(discriminate) ltac:(reflexivity) ltac:(lia) ltac:(lia) ltac:(vm_compute; discriminate))
    as (t & p & root & E1 & E2 & E3 & E4 & _).
  destruct (C15_root_is_merkle_root toyH ex_cs ltac:(discriminate) ltac:(discriminate) ltac:(reflexivity)) as (t' & root' & F1 & F2 & F3 & _).
  assert (t' = t) by congruence. subst t'. assert (root' = root) by congruence. subst root'.
  exists p, root. split; [exact toyH_digest|]. split; [assumption|].
  vm_compute in E1. injection E1 as <-. vm_compute in E3. injection E3 as <-.
  split; [vm_compute; repeat constructor; discriminate|]. split; [reflexivity|]. split; [discriminate|exact E4].
Qed.

(** The hypothesis on the sizes is needed, and the code does not check it: with a right-hand node that
    claims zero leaves, an inner node can be passed off as a leaf without any hash collision.  Whenever a
    genuine leaf is the concatenation of a digest [H forged] and other bytes, [forged] is accepted
    as the one and only leaf. *)
Theorem C17_zero_sized_node_forgery_refuted : forall H n forged x, digest_size H n -> 0 < n -> zlen forged <> n + zlen x ->
  let genuine := H forged ++ x in
  let p := {| p_left := []; p_contents := [forged]; p_right := [{| p_num := 0; p_value := x |}] |} in
  merkle H [genuine] (H genuine) /\
  proof_Root H p = Ok (H genuine, 0, zlen [genuine], true) /\
  ~ sublist_at [genuine] 0 (p_contents p).
Proof.
  intros H n forged x HD Hn HL genuine p. split; [constructor|]. split; [reflexivity|].
  intros (a & b & E & Ha). destruct a; [|rewrite zlen_cons in Ha; pose proof (zlen_nonneg _ a); lia].
  cbn [app p_contents p] in E. assert (EG : genuine = forged) by congruence.
  apply HL. rewrite <- EG. unfold genuine. rewrite zlen_app, (HD forged). reflexivity.
Qed.
Print Assumptions C17_zero_sized_node_forgery_refuted.

(** A proof node without hash makes the evaluation panic. *)
Theorem C17_evaluation_total_refuted : exists p, forall H, proof_Root H p = Panic.
Proof.
  exists {| p_left := [{| p_num := 2; p_value := [] |}]; p_contents := []; p_right := [] |}. intros H. reflexivity.
Qed.
Print Assumptions C17_evaluation_total_refuted.

(** ** C18 *)
Theorem C18_path_verifies : forall H cs num, (forall x, H x <> []) -> zlen cs < 2^62 -> 1 <= num <= zlen cs ->
  exists t root c path, NewMerkleBinaryTree H (map Some cs) = Ok t /\ mbt_Root t = Some root /\
    nth_error cs (Z.to_nat (num - 1)) = Some c /\ mbt_Path t num = Ok (c, path) /\ path_Root H c path = root.
Proof.
  intros H cs num HH HB Hn. assert (Hne : cs <> []) by (destruct cs; [cbn in *; lia|discriminate]).
  destruct (New_spec H cs HH Hne HB) as (c & C1 & C2 & C3 & HM & E).
  assert (N : cnum c = zlen cs) by (rewrite full_num, C3 by assumption; unfold zlen; rewrite map_length; reflexivity).
  destruct (node_path_spec H c num C1 C2 ltac:(lia) ltac:(lia)) as (p & x & E1 & E2 & E3).
  rewrite C3, nth_error_map in E2. destruct (nth_error cs (Z.to_nat (num - 1))) as [y|] eqn:EN; [|discriminate].
  cbn in E2. injection E2 as <-. eexists. exists (chash H c), y, p. split; [exact E|].
  split; [unfold mbt_Root; cbn [m_root]; rewrite n_h_hashed; reflexivity|]. split; [reflexivity|]. split.
  - unfold mbt_Path, mbt_Len. cbn [m_contents m_root]. replace ((num <? 1) || (zlen cs <? num)) with false by lia.
    rewrite EN, E1. reflexivity.
  - exact E3.
Qed.
Print Assumptions C18_path_verifies.

(** Along a path with the same directions, whatever the sibling values, only the genuine content reaches
    the same root. *)
Theorem C18_path_cannot_lie : forall H n c path c' path', digest_size H n ->
  map pn_right path' = map pn_right path -> path_Root H c' path' = path_Root H c path -> c' = c \/ collision H.
Proof.
  intros H n c path c' path' HD HE HR.
  destruct (path_sound H n path' path (H c') (H c) HD (HD _) (HD _) HE HR) as [E|E]; [|auto].
  destruct (list_eq_dec Z.eq_dec c' c) as [->|Hne]; [auto|]. right. exists c', c. auto.
Qed.
Print Assumptions C18_path_cannot_lie.

Theorem C18_out_of_range : forall t num, num < 1 \/ mbt_Len t < num -> mbt_Path t num = Err 2.
Proof. intros t num Hn. unfold mbt_Path. replace ((num <? 1) || (mbt_Len t <? num)) with true by lia. reflexivity. Qed.
Print Assumptions C18_out_of_range.

Example C18_ex : exists t c path, NewMerkleBinaryTree toyH (map Some ex_cs) = Ok t /\ mbt_Path t 6 = Ok (c, path) /\
  c = [6; 6; 6] /\ map pn_right path = [false; true; false] /\ mbt_Root t = Some (path_Root toyH c path).
Proof. eexists. eexists. eexists. repeat (split; [vm_compute; reflexivity|]). vm_compute. reflexivity. Qed.

(** ** C19 *)

(** Up to seven leaves, growing a tree with Add and building it at once give the same root.  Missing: more
    than seven leaves, for which the claim is false (below). *)
Theorem C19_add_equals_build_partial : forall H cs, (forall x, H x <> []) -> 1 <= zlen cs <= 7 ->
  exists t t' root, add_all H empty_mbt cs = Ok t /\ NewMerkleBinaryTree H (map Some cs) = Ok t' /\
    mbt_Root t = Some root /\ mbt_Root t' = Some root.
Proof.
  intros H cs HH Hn. assert (Hne : cs <> []) by (destruct cs; [cbn in *; lia|discriminate]).
  destruct (New_spec H cs HH Hne ltac:(lia)) as (c & C1 & C2 & C3 & HM & E).
  destruct cs as [|c1 cs]; [congruence|]. destruct (add_all_from H cs (add H new_node (H c1)) [c1]) as (n' & E1 & E2).
  do 2 eexists. exists (chash H c). split; [cbn [add_all mbt_Add rbind empty_mbt m_root m_contents app]; exact E1|].
  split; [exact E|]. split; [|unfold mbt_Root; cbn [m_root]; rewrite n_h_hashed; reflexivity].
  unfold mbt_Root. cbn [m_root]. f_equal. rewrite E2.
  apply (merkle_fun H (c1 :: cs)); [|exact HM]. clear -Hn.
  assert (M1 : forall a, merkle H [a] (H a)) by (intros; constructor).
  assert (M2 : forall a b, merkle H [a; b] (H (H a ++ H b))) by (intros a b; apply (mk_split H [a] [b] 0); auto; unfold zlen; cbn; lia).
  assert (M3 : forall a b c, merkle H [a; b; c] (H (H (H a ++ H b) ++ H c))) by (intros a b c; apply (mk_split H [a; b] [c] 1); auto; unfold zlen; cbn; lia).
  assert (M4 : forall a b c d, merkle H [a; b; c; d] (H (H (H a ++ H b) ++ H (H c ++ H d))))
    by (intros a b c d; apply (mk_split H [a; b] [c; d] 1); auto; unfold zlen; cbn; lia).
  destruct cs as [|c2 cs]; [apply M1|]. destruct cs as [|c3 cs]; [apply M2|]. destruct cs as [|c4 cs]; [apply M3|].
  destruct cs as [|c5 cs]; [apply M4|].
  destruct cs as [|c6 cs]; [exact (mk_split H [c1; c2; c3; c4] [c5] 2 _ _ ltac:(discriminate) eq_refl ltac:(split; discriminate) (M4 c1 c2 c3 c4) (M1 c5))|].
  destruct cs as [|c7 cs]; [exact (mk_split H [c1; c2; c3; c4] [c5; c6] 2 _ _ ltac:(discriminate) eq_refl ltac:(split; discriminate) (M4 c1 c2 c3 c4) (M2 c5 c6))|].
  destruct cs as [|c8 cs]; [exact (mk_split H [c1; c2; c3; c4] [c5; c6; c7] 2 _ _ ltac:(discriminate) eq_refl ltac:(split; discriminate) (M4 c1 c2 c3 c4) (M3 c5 c6 c7))|].
  rewrite !zlen_cons in Hn. pose proof (zlen_nonneg _ cs). lia.
Qed.
Print Assumptions C19_add_equals_build_partial.

Example C19_ex : (forall x, toyH x <> []) /\ 1 <= zlen ex_cs <= 7.
Proof. split; [discriminate|]. vm_compute. split; discriminate. Qed.

(** From eight leaves on the two constructions differ, and proofs taken from a grown tree do not verify. *)
Theorem C19_add_equals_build_refuted : exists H cs t t' p r left total,
  digest_size H 2 /\ zlen cs = 8 /\ add_all H empty_mbt cs = Ok t /\ NewMerkleBinaryTree H (map Some cs) = Ok t' /\
  mbt_Root t <> mbt_Root t' /\ mbt_Proof t 1 8 = Ok p /\ proof_Root H p = Ok (r, left, total, true) /\ mbt_Root t <> Some r.
Proof.
  exists toyH, (ex_cs ++ [[8]]). do 6 eexists. split; [exact toyH_digest|]. split; [reflexivity|].
  split; [vm_compute; reflexivity|]. split; [vm_compute; reflexivity|]. split; [vm_compute; discriminate|].
  split; [vm_compute; reflexivity|]. split; [vm_compute; reflexivity|]. vm_compute. discriminate.
Qed.
Print Assumptions C19_add_equals_build_refuted.

(** What does hold for every number of leaves: a grown tree commits to its contents. *)
Theorem C19_grown_root_binds_contents : forall H n cs cs' t t' root, digest_size H n -> cs <> [] -> zlen cs = zlen cs' ->
  add_all H empty_mbt cs = Ok t -> add_all H empty_mbt cs' = Ok t' ->
  mbt_Root t = Some root -> mbt_Root t' = Some root -> cs = cs' \/ collision H.
Proof.
  intros H n cs cs' t t' root HD Hne HL E E' R R'.
  destruct cs as [|c cs]; [congruence|]. destruct cs' as [|c' cs']; [rewrite zlen_cons in HL; pose proof (zlen_nonneg _ cs); cbn in HL; lia|].
  cbn [add_all mbt_Add rbind empty_mbt m_root m_contents app] in E, E'.
  destruct (add_all_from H cs (add H new_node (H c)) [c]) as (n1 & E1 & N1). rewrite E1 in E. injection E as <-.
  destruct (add_all_from H cs' (add H new_node (H c')) [c']) as (n2 & E2 & N2). rewrite E2 in E'. injection E' as <-.
  unfold mbt_Root in R, R'. cbn [m_root] in R, R'.
  assert (I1 : forall x, hash_inv H (add H new_node (H x))) by (intros x; cbn; split; [lia|eauto]).
  destruct (add_fold H cs _ (I1 c)) as [J1 J2]. destruct (add_fold H cs' _ (I1 c')) as [K1 K2]. rewrite <- N1 in *. rewrite <- N2 in *.
  assert (LL : length cs = length cs') by (rewrite !zlen_cons in HL; unfold zlen in HL; lia).
  assert (HS : shape_of n1 = shape_of n2) by (subst n1 n2; apply add_fold_shape; [assumption|reflexivity]).
  destruct (hash_binding H n n1 n2 HD J1 K1 HS ltac:(congruence)) as [HB|HB]; [|auto].
  rewrite J2, K2 in HB. apply (map_hash_binding H (c :: cs) (c' :: cs')); [cbn; congruence|]. exact HB.
Qed.
Print Assumptions C19_grown_root_binds_contents.
