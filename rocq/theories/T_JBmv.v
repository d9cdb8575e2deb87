(** Theorems about the BTP block verifier contract (javascore/bmv/btpblock): C48 - C50. *)
From Coq Require Import String Ascii ZArith List Bool Lia.
From Coq Require Import ZifyBool.
From Verif Require Import Base L_Base M_IntConv M_Rlp S_Rlp M_Mbt S_Mbt L_Mbt L_Mbt2 T_Mbt M_JBmv S_JBmv L_JBmv L_JBmv2 L_JBmv3.
Import ListNotations.
Open Scope Z_scope.

(** A toy hash with digests of 32 bytes, for examples. *)
Definition toy32 (l : list Z) : list Z :=
  let s := fold_left (fun a b => (a * 31 + b + 7) mod 65521) l 5 in
  let s2 := fold_left (fun a b => (a * 257 + b * b + 3) mod 65519) l 11 in repeat 7 12 ++ [s / 256; s mod 256; s2 / 256; s2 mod 256] ++ repeat 9 16.
Lemma toy32_hash : hash32 toy32.
Proof.
  split; [intros x; reflexivity|]. intros x. unfold toy32. cbv zeta.
  assert (A : forall l a, 0 <= a < 65536 -> 0 <= fold_left (fun a b => (a * 31 + b + 7) mod 65521) l a < 65536).
  { induction l as [|y l IH]; intros a Ha; cbn [fold_left]; [assumption|]. apply IH. pose proof (Z.mod_pos_bound (a * 31 + y + 7) 65521). lia. }
  assert (B : forall l a, 0 <= a < 65536 -> 0 <= fold_left (fun a b => (a * 257 + b * b + 3) mod 65519) l a < 65536).
  { induction l as [|y l IH]; intros a Ha; cbn [fold_left]; [assumption|]. apply IH. pose proof (Z.mod_pos_bound (a * 257 + y * y + 3) 65519). lia. }
  specialize (A x 5 ltac:(lia)). specialize (B x 11 ltac:(lia)).
  set (s := fold_left _ x 5) in *. set (s2 := fold_left _ x 11) in *. clearbody s s2.
  unfold bytes_ok. rewrite !Forall_app. split; [|split].
  - apply Forall_forall. intros z Hz. apply repeat_spec in Hz. subst. unfold is_byte. lia.
  - repeat constructor; unfold is_byte; Z.to_euclidean_division_equations; lia.
  - apply Forall_forall. intros z Hz. apply repeat_spec in Hz. subst. unfold is_byte. lia.
Qed.

Definition pnode (m : Z) (v : list Z) : proof_node := {| p_num := m; p_value := v |}.

(** ** C48 *)
(** Messages accepted under a genuine root are the genuine messages at the reported offset. *)
Theorem C48_accepted_messages_are_genuine : forall H m root offset total cs, digest_size H 32 ->
  Forall (fun x => 1 <= p_num x) (p_left m ++ p_right m) -> zsum (claimed_sizes m) < 2 ^ 31 ->
  merkle H cs root -> proveMessage H m = Some (Some root, offset, total) -> total = zlen cs ->
  sublist_at cs offset (p_contents m) \/ collision H.
Proof. intros. eapply prove_sound; eauto. split; assumption. Qed.
Print Assumptions C48_accepted_messages_are_genuine.

(** The contract evaluates such a proof exactly as the relay's common/mbt does. *)
Theorem C48_contract_agrees_with_relay : forall H m, Forall (fun x => 1 <= p_num x) (p_left m ++ p_right m) -> zsum (claimed_sizes m) < 2 ^ 31 -> claimed_sizes m <> [] ->
  forall root offset total, proveMessage H m = Some (Some root, offset, total) <-> proof_Root H m = Ok (root, offset, total, true).
Proof.
  intros H m F S N root offset total.
  assert (N' : p_left m ++ map (fun c => {| p_num := 1; p_value := H c |}) (p_contents m) ++ p_right m <> []).
  { intros X. apply N. destruct m as [L C R]. unfold claimed_sizes. cbn [p_left p_contents p_right] in *. apply app_eq_nil in X as [-> X]. apply app_eq_nil in X as [X ->]. apply map_eq_nil in X. subst. reflexivity. }
  pose proof (prove_same H m F ltac:(rewrite <- claimed_nsum; lia) N') as P.
  destruct (proof_Root H m) as [[[[h lft] tot] []]| |]; rewrite P; split; intros E; congruence.
Qed.
Print Assumptions C48_contract_agrees_with_relay.

Lemma relay_proof : forall H cs b e root, (forall x, H x <> []) -> zlen cs < 2 ^ 31 -> 1 <= b -> b <= e -> e <= zlen cs -> merkle H cs root ->
  exists t m, NewMerkleBinaryTree H (map Some cs) = Ok t /\ mbt_Proof t b e = Ok m /\ proof_ok m /\ claimed_sizes m <> [] /\
    proveMessage H m = Some (Some root, b - 1, zlen cs) /\ p_contents m = go_slice cs (b - 1) e.
Proof.
  intros H cs b e root HH HB H1 H2 H3 HM0.
  assert (Hne : cs <> []) by (destruct cs; [cbn in *; lia|discriminate]).
  destruct (New_spec H cs HH Hne ltac:(lia)) as (c & C1 & C2 & C3 & HM & E).
  assert (N : cnum c = zlen cs) by (rewrite full_num, C3 by assumption; unfold zlen; rewrite map_length; reflexivity).
  pose proof (collapse_items H c b e C1 C2 ltac:(lia) ltac:(lia)) as EI. rewrite C3, go_slice_map in EI.
  pose proof (items_pos _ (collapse_canon H c b e C1)) as IP. pose proof (isum_items (collapse H c b e)) as IS. rewrite collapse_num, N in IS.
  set (m := {| p_left := map pn (lprf H c b); p_contents := go_slice cs (b - 1) e; p_right := map pn (rprf H c e) |}).
  rewrite EI in IP, IS. rewrite !Forall_app in IP. destruct IP as (IP1 & _ & IP2).
  assert (Hok : proof_ok m).
  { split.
    - unfold m. cbn [p_left p_right]. apply Forall_app. split; apply Forall_map; assumption.
    - rewrite claimed_nsum. unfold m. cbn [p_left p_right p_contents]. rewrite map_app, nsum_app, !map_map.
      rewrite !(map_ext (fun x => un (pn x)) (fun x => x)) by (intros [? ?]; reflexivity). rewrite !map_id.
      rewrite !isum_app in IS. assert (EL : forall l, isum (map (leaf_item H) l) = zlen l).
      { unfold isum, zlen. induction l as [|x l IH]; [reflexivity|]. cbn [map fold_right length]. rewrite IH. unfold leaf_item. cbn [fst]. lia. }
      rewrite EL in IS. unfold isum in IS. unfold nsum. lia. }
  assert (Hcs : claimed_sizes m <> []).
  { unfold claimed_sizes, m. cbn [p_left p_contents p_right]. intros X. apply app_eq_nil in X as [_ X]. apply app_eq_nil in X as [X _]. apply map_eq_nil in X.
    unfold go_slice in X. apply (f_equal (@length _)) in X. rewrite firstn_length, skipn_length in X. cbn [length] in X. unfold zlen in *. lia. }
  exists {| m_root := Some (hashed H c); m_contents := cs |}, m. split; [exact E|]. split; [apply Proof_spec; assumption || lia|]. split; [exact Hok|]. split; [exact Hcs|]. split; [|reflexivity].
  destruct Hok as [O1 O2]. apply C48_contract_agrees_with_relay; auto. rewrite (merkle_fun _ _ _ HM0 _ HM), <- N. apply proof_complete; assumption || lia.
Qed.

(** Every range proof that the relay builds is accepted by the contract. *)
Theorem C48_relay_proofs_accepted : forall H cs b e root, (forall x, H x <> []) -> zlen cs < 2 ^ 31 -> 1 <= b -> b <= e -> e <= zlen cs -> merkle H cs root ->
  exists t m, NewMerkleBinaryTree H (map Some cs) = Ok t /\ mbt_Proof t b e = Ok m /\
    proveMessage H m = Some (Some root, b - 1, zlen cs) /\ sublist_at cs (b - 1) (p_contents m) /\ zlen (p_contents m) = e - b + 1.
Proof.
  intros H cs b e root HH HB H1 H2 H3 HM. destruct (relay_proof H cs b e root HH HB H1 H2 H3 HM) as (t & m & E1 & E2 & _ & _ & E3 & E4).
  exists t, m. rewrite E4. repeat (split; [assumption|]). unfold go_slice. split.
  - exists (firstn (Z.to_nat (b - 1)) cs), (skipn (Z.to_nat (e - (b - 1))) (skipn (Z.to_nat (b - 1)) cs)).
    rewrite firstn_skipn, firstn_skipn. split; [reflexivity|]. unfold zlen in *. rewrite firstn_length. lia.
  - unfold zlen in *. rewrite firstn_length, skipn_length. lia.
Qed.
Print Assumptions C48_relay_proofs_accepted.

(** Without the restriction to positive sizes the claim is false: negative sizes move a message to another offset. *)
Theorem C48_negative_sizes_forgery_refuted : forall H n a b c d y, digest_size H n -> 0 < n ->
  let root := H (H (H a ++ H b) ++ H (H c ++ H d)) in
  let m := {| p_left := [pnode 2 (H (H a ++ H b)); pnode (-1) y; pnode (-1) y]; p_contents := [c]; p_right := [pnode (-1) y; pnode 3 y; pnode 1 (H d)] |} in
  merkle H [a; b; c; d] root /\ proveMessage H m = Some (Some root, 0, zlen [a; b; c; d]) /\
  (c <> a -> ~ sublist_at [a; b; c; d] 0 (p_contents m)).
Proof.
  intros H n a b c d y D Hn root m. split; [|split].
  - unfold root. apply (mk_split H [a; b] [c; d] 1); try (cbn; lia).
    + apply (mk_split H [a] [b] 0); try (cbn; lia); constructor.
    + apply (mk_split H [c] [d] 0); try (cbn; lia); constructor.
  - unfold root, m. destruct (H (H a ++ H b)) as [|z w] eqn:E; [exfalso; specialize (D (H a ++ H b)); rewrite E in D; cbn in D; lia|]. reflexivity.
  - intros Hc (l & r & E & L). destruct l; [|rewrite zlen_cons in L; pose proof (zlen_nonneg _ l0); lia]. cbn in E. congruence.
Qed.
Print Assumptions C48_negative_sizes_forgery_refuted.

Definition ex_msgs : list (list Z) := [[1]; [2; 2]; [3]; [4]; [5; 5; 5]].
Example C48_ex : match NewMerkleBinaryTree toy32 (map Some ex_msgs) with
  | Ok t => match mbt_Proof t 3 4, mbt_Root t with
            | Ok m, Some r => proveMessage toy32 m = Some (Some r, 2, 5) /\ p_contents m = [[3]; [4]] /\ proof_ok m /\ length (p_left m ++ p_right m) = 2%nat
            | _, _ => False end
  | _ => False end.
Proof. vm_compute. split; [reflexivity|]. split; [reflexivity|]. split; [|reflexivity]. split; [repeat constructor; discriminate|reflexivity]. Qed.

(** ** C49 *)
(** An accepted block update was signed by more than two thirds of the validators in force, each counted once. *)
Theorem C49_block_update_needs_quorum : forall H recover p h sigs p', digest_size H 32 -> handleBlockUpdate H recover p h sigs = Some p' ->
  exists vs root, ctx_validators (p_ctx p) = Some vs /\ getNetworkSectionsRoot H (H (ns_enc (header_section h))) (hd_path h) = Some root /\
    quorum H recover vs (dec_hash H (p_src p) (p_ntid p) (i64 (hd_height h)) (jint (hd_round h)) (hd_nextCtxHash h) root).
Proof.
  intros H recover p h sigs p' D E. apply bu_inv in E as (_ & _ & _ & _ & (root & d & sg & R & -> & _ & V) & _).
  apply verifyProof_quorum in V as (vs & V1 & V2); [|assumption]. exists vs, root. auto.
Qed.
Print Assumptions C49_block_update_needs_quorum.

(** Exactly two thirds are not enough, and neither a repeated nor a foreign signature is tolerated. *)
Theorem C49_two_thirds_refused : forall H recover p d sigs vs, ctx_validators (p_ctx p) = Some vs -> 3 * zlen sigs <= 2 * zlen vs -> verifyProof H recover p d sigs = None.
Proof.
  intros H recover p d sigs vs V L. unfold verifyProof. rewrite V. cbn [obind].
  assert (G : forall sg seen out, count_votes H recover vs d sg seen = Some out -> zlen out = zlen seen + zlen sg).
  { induction sg as [|s sg IH]; intros seen out E; cbn [count_votes] in E; [injection E as <-; cbn; lia|].
    obn E a F. destruct (negb _); [discriminate|]. destruct (existsb _ seen); [discriminate|]. apply IH in E. rewrite E, zlen_app, !zlen_cons. cbn. lia. }
  destruct (count_votes H recover vs d sigs []) as [out|] eqn:E; cbn [obind]; [|reflexivity]. apply G in E. change (zlen (@nil (list Z))) with 0 in E.
  replace (zlen vs * 2 <? zlen out * 3) with false by lia. reflexivity.
Qed.
Print Assumptions C49_two_thirds_refused.

Theorem C49_double_vote_refused : forall H recover p d l1 s1 l2 s2 l3 a, digest_size H 32 -> signs H recover d s1 a -> signs H recover d s2 a ->
  verifyProof H recover p d (l1 ++ s1 :: l2 ++ s2 :: l3) = None.
Proof.
  intros H recover p d l1 s1 l2 s2 l3 a D S1 S2. unfold verifyProof. destruct (ctx_validators (p_ctx p)) as [vs|]; cbn [obind]; [|reflexivity].
  destruct (count_votes H recover vs d _ []) as [out|] eqn:E; [|reflexivity]. exfalso.
  apply count_votes_spec in E as (new & -> & F & _ & N); [|assumption]. specialize (N (NoDup_nil _)). cbn [app] in N.
  apply Forall2_app_inv_l in F as (n1 & n2 & F1 & F2 & ->). inversion F2 as [|? x ? n3 F3 F4]; subst. apply Forall2_app_inv_l in F4 as (n4 & n5 & F5 & F6 & ->). inversion F6 as [|? x' ? n6 F7 F8]; subst.
  assert (U : forall s x y, signs H recover d s x -> signs H recover d s y -> x = y).
  { intros s x0 y0 (c & k & R & ->) (c' & k' & R' & ->). congruence. }
  rewrite (U _ _ _ F3 S1), (U _ _ _ F7 S2) in N. apply NoDup_remove_2 in N. apply N. rewrite !in_app_iff. cbn [In]. auto.
Qed.
Print Assumptions C49_double_vote_refused.

Theorem C49_outsider_refused : forall H recover p d l1 s l2 a vs, digest_size H 32 -> signs H recover d s a -> ctx_validators (p_ctx p) = Some vs -> ~ In a vs ->
  verifyProof H recover p d (l1 ++ s :: l2) = None.
Proof.
  intros H recover p d l1 s l2 a vs D S V N. unfold verifyProof. rewrite V. cbn [obind].
  destruct (count_votes H recover vs d _ []) as [out|] eqn:E; [|reflexivity]. exfalso.
  apply count_votes_spec in E as (new & -> & F & I & _); [|assumption].
  apply Forall2_app_inv_l in F as (n1 & n2 & F1 & F2 & ->). inversion F2 as [|? x ? n3 F3 F4]; subst.
  destruct F3 as (c & k & R & ->), S as (c' & k' & R' & ->). apply N. replace k' with k by congruence. apply I. apply in_or_app. right. left. reflexivity.
Qed.
Print Assumptions C49_outsider_refused.

(** Conversely a header that follows the last one, signed by distinct validators in sufficient number, is accepted. *)
Theorem C49_quorum_accepted : forall H recover p d sigs signers vs, digest_size H 32 -> ctx_validators (p_ctx p) = Some vs ->
  Forall2 (signs H recover d) sigs signers -> NoDup signers -> (forall a, In a signers -> In a vs) -> 2 * zlen vs < 3 * zlen sigs ->
  verifyProof H recover p d sigs = Some tt.
Proof.
  intros H recover p d sigs signers vs D V F N I L. unfold verifyProof. rewrite V. cbn [obind].
  assert (G : forall seen, (forall a, In a seen -> ~ In a signers) -> count_votes H recover vs d sigs seen = Some (seen ++ signers)).
  { clear L. induction F as [|s a sg sn Fs F IH]; intros seen Hs; cbn [count_votes]; [rewrite app_nil_r; reflexivity|].
    rewrite (proj2 (recoverAddress_signs _ _ _ _ _ D) Fs). cbn [obind]. rewrite (proj2 (existsb_bytes a vs)) by (apply I; left; reflexivity). cbn [negb].
    destruct (existsb (bytes_eqb a) seen) eqn:W; [apply existsb_bytes in W; exfalso; eapply Hs; [exact W|left; reflexivity]|].
    inversion N; subst. rewrite IH; [rewrite <- app_assoc; reflexivity|assumption|intros; apply I; right; assumption|].
    intros x Hx Hin. apply in_app_iff in Hx as [Hx|[<-|[]]]; [eapply Hs; [exact Hx|right; exact Hin]|contradiction]. }
  rewrite G by (intros a []). cbn [obind app]. rewrite <- (Forall2_zlen _ _ _ _ _ F). replace (zlen vs * 2 <? zlen sigs * 3) with true by lia. reflexivity.
Qed.
Print Assumptions C49_quorum_accepted.

(** The validators change only with the update flag, and then to the signed ones. *)
Theorem C49_validators_change : forall H recover p h sigs p', handleBlockUpdate H recover p h sigs = Some p' ->
  if Z.odd (hd_upd h) then exists ctx, hd_nextCtxHash h = Some (H ctx) /\ p_ctx p' = Some ctx /\ p_ctxHash p' = Some (H ctx) /\ p_ctxHash p' <> p_ctxHash p
  else p_ctx p' = p_ctx p /\ p_ctxHash p' = p_ctxHash p.
Proof.
  intros H recover p h sigs p' E. apply bu_inv in E as (_ & _ & _ & _ & _ & U & _). destruct (Z.odd (hd_upd h)).
  - destruct U as (N & ctx & C1 & C2 & C3 & C4). exists ctx. repeat (split; [congruence|]). congruence.
  - destruct U. auto.
Qed.
Print Assumptions C49_validators_change.

(** The height is not covered: adding 2^64 changes neither the signed bytes nor the outcome, only the recorded height. *)
Definition with_height (h : header) (z : Z) : header :=
  mkHeader z (hd_round h) (hd_nextCtxHash h) (hd_path h) (hd_nid h) (hd_upd h) (hd_prev h) (hd_cnt h) (hd_root h) (hd_nextCtx h).
Theorem C49_height_committed_refuted : forall H recover p h sigs p', handleBlockUpdate H recover p h sigs = Some p' ->
  exists q, handleBlockUpdate H recover p (with_height h (hd_height h + 2 ^ 64)) sigs = Some q /\ p_height q = hd_height h + 2 ^ 64 /\ p_height q <> p_height p'.
Proof.
  intros H recover p h sigs p' E. assert (Hh : p_height p' = hd_height h) by (apply bu_inv in E; tauto).
  assert (I : i64 (hd_height h + 2 ^ 64) = i64 (hd_height h)).
  { unfold i64. replace ((hd_height h + 2 ^ 64) mod 2 ^ 64) with (hd_height h mod 2 ^ 64); [reflexivity|]. rewrite <- (Z.mod_add (hd_height h) 1 (2 ^ 64)) by lia. f_equal; lia. }
  unfold handleBlockUpdate, decision_hash in *. cbn [with_height hd_height hd_round hd_nextCtxHash hd_path hd_nid hd_upd hd_prev hd_cnt hd_root hd_nextCtx] in *. unfold firstMessageSn in *. cbn [hd_upd with_height].
  rewrite I. obn E u1 F1. obn E u2 F2. obn E u3 F3. obn E u4 F4. obn E u5 F5. obn E u6 F6. obn E u7 F7. obn E u8 F8. cbn [obind]. rewrite F7. cbn [obind]. rewrite ?F8. cbn [obind].
  eexists. split; [reflexivity|]. cbn [p_height]. rewrite Hh. split; lia.
Qed.
Print Assumptions C49_height_committed_refuted.

(** With four networks of one type, the path check ignores all but the last path element; so the genuine path of a
    genuine section does not lead to the genuine root. *)
Theorem C49_long_network_path_refuted : forall H s s2 t2, digest_size H 32 ->
  let t := NNode (NNode (NLeaf s) (NLeaf s2)) t2 in
  let path := [(1, nst_root H (NLeaf s2)); (1, nst_root H t2)] in
  getNetworkSectionsRoot H (H (ns_enc s)) path = Some (nst_root H t) -> collision H \/ confusion H.
Proof.
  intros H s s2 t2 D t path E. unfold getNetworkSectionsRoot, path in E. cbn [fold_left obind fst snd] in E. change (1 =? 0) with false in E. change (1 =? 1) with true in E. cbv iota in E.
  assert (G : forall a b, concatAndHash H (H a) (H b) = Some (H (H a ++ H b))).
  { intros a b. unfold concatAndHash. pose proof (D a). pose proof (D b). unfold zlen in *. replace ((length (H a) <? 32)%nat || (length (H b) <? 32)%nat) with false by lia.
    rewrite !firstn_all2 by lia. reflexivity. }
  destruct (nst_root_hash H t2) as [x Ex]. cbn [nst_root] in E. rewrite Ex in E. rewrite !G in E. cbn [obind] in E. injection E as E. unfold t in E. cbn [nst_root] in E. rewrite Ex in E.
  apply hash_inj in E as [E|E]; [|auto]. apply zlen_app_eq in E as [E _]; [|rewrite !D; reflexivity]. apply hash_inj in E as [E|E]; [|auto].
  right. exists s, (H (ns_enc s)), (H (ns_enc s2)). repeat (split; [auto|]). left. eauto.
Qed.
Print Assumptions C49_long_network_path_refuted.

(** ** C50 *)
(** Whatever relay messages are submitted, the delivered messages are the first messages of the source chain, in order
    and each once - provided that quorums sign genuine blocks only and that proof nodes have positive sizes. *)
Theorem C50_delivered_is_prefix : forall H recover src ntid nid ctx0 b bs bmc h0 p0 cs p out, hash32 H -> bytes_ok src ->
  history H nid None ctx0 0 (b :: bs) ->
  (forall x, In x (b :: bs) -> short (rlp_write (nts_items (Some (H (gb_ctx x))) (nst_root H (gb_tree x)))) /\
     short (rlp_write (dec_items src ntid (gb_height x) (gb_round x) (H (rlp_write (nts_items (Some (H (gb_ctx x))) (nst_root H (gb_tree x)))))))) ->
  (forall x vs d, In x (b :: bs) -> ctx_validators (Some (gb_ctx x)) = Some vs -> quorum H recover vs d -> exists y, In y (b :: bs) /\ d = gb_decision H src ntid y) ->
  header_section h0 = gb_section nid None 0 b -> hd_nextCtxHash h0 = Some (H (gb_ctx b)) ->
  handleFirstBlockHeader H src ntid bmc 0 h0 = Some p0 ->
  Forall (fun c => Forall item_ok (c_items c)) cs -> run H recover p0 cs = (p, out) ->
  ((exists rest, messages (b :: bs) = out ++ rest) /\ p_lastSeq p = zlen out) \/ collision H \/ confusion H.
Proof.
  intros H recover src ntid nid ctx0 b bs bmc h0 p0 cs p out HH Hs Hi Hd Ho E1 E2 E3 F R.
  destruct (first_inv H src ntid nid ctx0 (b :: bs) b bs bmc h0 p0 eq_refl E1 E2 E3) as [I|C]; [|auto].
  destruct (run_inv H recover src ntid nid ctx0 (b :: bs) HH Hs Hi Hd Ho cs p0 [] p out I F R) as [J|C]; [|auto].
  cbn [app] in J. apply inv_prefix in J as [J1 J2]. left. auto.
Qed.
Print Assumptions C50_delivered_is_prefix.

(** The next genuine block is accepted once all messages of the last one are delivered (for network types with one
    or two networks, see C49_long_network_path_refuted). *)
Definition network_path (H : list Z -> list Z) (t : nstree) (s : nsection) (path : list (Z * list Z)) : Prop :=
  (t = NLeaf s /\ path = []) \/ (exists o, t = NNode (NLeaf s) o /\ path = [(1, nst_root H o)]) \/ (exists o, t = NNode o (NLeaf s) /\ path = [(0, nst_root H o)]).
Theorem C50_genuine_update_accepted : forall H recover src ntid nid p prev sn b b' h sigs signers vs, hash32 H ->
  stands H src ntid nid p prev sn b (zlen (gb_msgs b)) ->
  let s := gb_section nid (Some (H (ns_enc (gb_section nid prev sn b)))) (sn + zlen (gb_msgs b)) b' in
  header_section h = s -> network_path H (gb_tree b') s (hd_path h) ->
  hd_height h = gb_height b' -> - 2 ^ 63 <= gb_height b' < 2 ^ 63 -> hd_round h = gb_round b' -> - 2 ^ 31 <= gb_round b' < 2 ^ 31 ->
  hd_nextCtxHash h = Some (H (gb_ctx b')) ->
  (if gb_update b' then hd_nextCtx h = Some (gb_ctx b') /\ p_ctxHash p <> Some (H (gb_ctx b')) else gb_ctx b' = gb_ctx b) ->
  ctx_validators (Some (gb_ctx b)) = Some vs -> Forall2 (signs H recover (gb_decision H src ntid b')) sigs signers -> NoDup signers ->
  (forall a, In a signers -> In a vs) -> 2 * zlen vs < 3 * zlen sigs ->
  exists p', handleBlockUpdate H recover p h (Some sigs) = Some p' /\ stands H src ntid nid p' (Some (H (ns_enc (gb_section nid prev sn b)))) (sn + zlen (gb_msgs b)) b' 0.
Proof.
  intros H recover src ntid nid p prev sn b b' h sigs signers vs [D B] St s Es Ep Eh Rh Er Rr Ec Eu Ev F N I L.
  unfold stands in St. destruct St as (S1 & S2 & S3 & S4 & S5 & S6 & S7 & S8 & S9 & S10 & _).
  pose proof (f_equal s_nid Es) as M1. pose proof (f_equal s_upd Es) as M2. pose proof (f_equal s_cnt Es) as M3. pose proof (f_equal s_root Es) as M4. pose proof (f_equal s_prev Es) as M5.
  unfold s in M1, M2, M3, M4, M5. cbn [header_section gb_section s_nid s_upd s_cnt s_root s_prev] in M1, M2, M3, M4, M5.
  assert (Ho : Z.land (hd_upd h) 1 = (if gb_update b' then 1 else 0) /\ Z.shiftr (hd_upd h) 1 = sn + zlen (gb_msgs b)).
  { change 1 with (Z.ones 1) at 1. rewrite Z.land_ones by lia. rewrite Z.shiftr_div_pow2 by lia. change (2 ^ 1) with 2. rewrite M2.
    destruct (gb_update b'); split; Z.to_euclidean_division_equations; lia. }
  destruct Ho as [Ho Hf].
  assert (ER : getNetworkSectionsRoot H (H (ns_enc (header_section h))) (hd_path h) = Some (nst_root H (gb_tree b'))).
  { assert (G : forall a o, concatAndHash H (H a) (nst_root H o) = Some (H (H a ++ nst_root H o)) /\ concatAndHash H (nst_root H o) (H a) = Some (H (nst_root H o ++ H a))).
    { intros a o. unfold concatAndHash. pose proof (D a). pose proof (nst_root_len H o D). unfold zlen in *.
      replace ((length (H a) <? 32)%nat || (length (nst_root H o) <? 32)%nat) with false by lia. replace ((length (nst_root H o) <? 32)%nat || (length (H a) <? 32)%nat) with false by lia.
      rewrite !firstn_all2 by lia. auto. }
    rewrite Es. destruct Ep as [(-> & ->)|[(o & -> & ->)|(o & -> & ->)]]; [reflexivity| |]; unfold getNetworkSectionsRoot; cbn [fold_left obind fst snd nst_root].
    - change (1 =? 0) with false. change (1 =? 1) with true. cbv iota. apply G.
    - change (0 =? 0) with true. cbv iota. apply G. }
  unfold handleBlockUpdate, firstMessageSn. rewrite Hf, S7, S8, S4. replace (sn + zlen (gb_msgs b) - 0 =? sn + zlen (gb_msgs b)) with true by lia. cbn [check obind].
  unfold remain, processed. rewrite S7, S8, S9. replace (zlen (gb_msgs b) - (sn + zlen (gb_msgs b) - sn) =? 0) with true by lia. cbn [check obind].
  rewrite S3, M1, Z.eqb_refl. cbn [check obind]. rewrite S6, M5. cbn [opt_eqb]. rewrite bytes_eqb_refl. cbn [check obind].
  unfold decision_hash. rewrite <- M5. change (section_bytes (hd_nid h) (hd_upd h) (hd_prev h) (hd_cnt h) (hd_root h)) with (ns_enc (header_section h)).
  replace (section_bytes nid (hd_upd h) (hd_prev h) (hd_cnt h) (hd_root h)) with (ns_enc (header_section h)) by (rewrite <- M1; reflexivity).
  rewrite ER. cbn [obind]. rewrite Eh, Er, i64_id, jint_id, S1, S2, Ec by lia.
  match goal with |- context [verifyProof H recover p ?d sigs] => change d with (gb_decision H src ntid b') end.
  rewrite (C49_quorum_accepted H recover p _ sigs signers vs D) by (rewrite ?S5; assumption). cbn [obind]. rewrite Ho.
  assert (EC : exists c, (if (if gb_update b' then 1 else 0) =? 1 then obind (check (negb (opt_eqb (p_ctxHash p) (Some (H (gb_ctx b')))))) (fun _ => obind (hd_nextCtx h) (fun ctx =>
       obind (check (opt_eqb (Some (H ctx)) (Some (H (gb_ctx b'))))) (fun _ => Some (Some (H (gb_ctx b')), Some ctx)))) else Some (p_ctxHash p, p_ctx p)) = Some c /\ snd c = Some (gb_ctx b')).
  { destruct (gb_update b').
    - destruct Eu as [Eu1 Eu2]. change (1 =? 1) with true. cbv iota. rewrite Eu1. destruct (opt_eqb (p_ctxHash p) (Some (H (gb_ctx b')))) eqn:Eo; [apply opt_eqb_eq in Eo; contradiction|].
      cbn [negb check obind opt_eqb]. rewrite bytes_eqb_refl. cbn [check obind]. eexists. split; reflexivity.
    - change (0 =? 1) with false. cbv iota. eexists. split; [reflexivity|]. cbn [snd]. congruence. }
  destruct EC as (c & EC & ES). match goal with |- exists p', obind ?x _ = _ /\ _ => replace x with (Some c) by (symmetry; exact EC) end. cbn [obind]. eexists. split; [reflexivity|].
  unfold stands. cbn [p_src p_ntid p_nid p_nsHash p_bmc p_lastSeq p_root p_cnt p_first p_height p_offset p_ctx]. pose proof (zlen_nonneg _ (gb_msgs b')).
  repeat split; auto; try lia; try congruence.
  rewrite Es. unfold s. rewrite <- M5. reflexivity.
Qed.
Print Assumptions C50_genuine_update_accepted.

(** Messages [k+1 .. e] of the current block are delivered by the relay's own range proof. *)
Theorem C50_genuine_proof_accepted : forall H src ntid nid p prev sn b k e, hash32 H ->
  stands H src ntid nid p prev sn b k -> root_of H (gb_msgs b) (gb_root b) -> zlen (gb_msgs b) < 2 ^ 31 -> k < e <= zlen (gb_msgs b) ->
  exists t m p', NewMerkleBinaryTree H (map Some (gb_msgs b)) = Ok t /\ mbt_Proof t (k + 1) e = Ok m /\
    handleMessageProof H p m None = Some (p', go_slice (gb_msgs b) k e) /\ stands H src ntid nid p' prev sn b e.
Proof.
  intros H src ntid nid p prev sn b k e [D B] St Hr Hl He. unfold stands in St. destruct St as (S1 & S2 & S3 & S4 & S5 & S6 & S7 & S8 & S9 & S10 & S11).
  unfold root_of in Hr. destruct (gb_msgs b) as [|c0 cs] eqn:Em; [change (zlen (@nil (list Z))) with 0 in *; lia|]. rewrite <- Em in *. clear c0 cs Em. destruct Hr as (r & Er & Mr).
  destruct (relay_proof H (gb_msgs b) (k + 1) e r) as (t & m & E1 & E2 & _ & _ & E3 & E4); try lia; auto.
  { intros x E. specialize (D x). rewrite E in D. discriminate. }
  replace (k + 1 - 1) with k in * by lia.
  assert (Lm : zlen (p_contents m) = e - k) by (rewrite E4; unfold go_slice, zlen in *; rewrite firstn_length, skipn_length; lia).
  exists t, m. eexists. split; [exact E1|]. split; [exact E2|]. unfold handleMessageProof, remain, processed. rewrite S7, S8, S9.
  replace (0 <? zlen (gb_msgs b) - (sn + k - sn)) with true by lia. cbn [check obind]. rewrite E3. cbn [obind].
  replace (sn + k - sn) with k by lia. rewrite Z.eqb_refl. cbn [check obind]. rewrite jint_id by lia. rewrite Z.eqb_refl. cbn [check obind fst snd].
  rewrite jint_id by lia. rewrite Z.eqb_refl. cbn [check obind]. rewrite S11, Er by lia. cbn [opt_eqb]. rewrite bytes_eqb_refl. cbn [check obind]. rewrite Lm, E4. split; [reflexivity|].
  unfold stands. cbn [p_src p_ntid p_nid p_nsHash p_bmc p_lastSeq p_root p_cnt p_first p_height p_offset p_ctx]. repeat split; auto; try lia.
  intros Hlt. rewrite jint_id by lia. replace (zlen (gb_msgs b) - k - (e - k) =? 0) with false by lia. congruence.
Qed.
Print Assumptions C50_genuine_proof_accepted.

(** A relay message that delivered something cannot be submitted again. *)
Lemma items_seq : forall H recover its p bu acc p' out, handle_items H recover p bu its acc = Some (p', out) ->
  p_lastSeq p' - zlen out = p_lastSeq p - zlen acc /\ p_offset p' = p_offset p.
Proof.
  induction its as [|it its IH]; intros p bu acc p' out E; cbn [handle_items] in E; [injection E as <- <-; auto|].
  destruct it as [h sigs|m|]; [| |discriminate].
  - obn E p1 G. apply bu_inv in G as (_ & _ & _ & _ & _ & _ & _ & _ & _ & _ & _ & L & _ & _ & _ & _ & O). apply IH in E as [E1 E2]. rewrite <- L, <- O. auto.
  - obn E p1 G. destruct p1 as [p1 o1]. apply mp_inv in G as (ha & of & to & _ & _ & _ & -> & _ & ->). apply IH in E as [E1 E2]. cbn [fst snd p_lastSeq p_offset] in *. rewrite zlen_app in E1. split; [lia|auto].
Qed.
Theorem C50_no_replay : forall H recover p c p' out, handleRelayMessage H recover p c = Some (p', out) -> out <> [] -> handleRelayMessage H recover p' c = None.
Proof.
  intros H recover p c p' out E N. unfold handleRelayMessage in *. obn E u1 G1. obn E u2 G2. apply items_seq in E as [E1 E2]. apply check_some in G2. change (zlen (@nil (list Z))) with 0 in E1.
  assert (1 <= zlen out) by (destruct out; [congruence|]; rewrite zlen_cons; pose proof (zlen_nonneg _ out); lia).
  clear G1. destruct (check (_ && _)); cbn [obind]; [|reflexivity]. replace (p_offset p' + p_lastSeq p' =? c_seq c) with false by lia. reflexivity.
Qed.
Print Assumptions C50_no_replay.

(** Only the message center may submit, and only for the right source network. *)
Theorem C50_only_bmc : forall H recover p c p' out, handleRelayMessage H recover p c = Some (p', out) ->
  c_caller c = p_bmc p /\ c_account c = p_bmc p /\ c_net c = getNetwork (p_src p) /\ c_seq c = p_offset p + p_lastSeq p.
Proof.
  intros H recover p c p' out E. unfold handleRelayMessage in *. obn E u1 G1. obn E u2 G2. apply check_some in G1, G2. apply andb_prop in G1 as [G1 G3]. apply andb_prop in G1 as [G0 G1].
  apply bytes_eqb_eq in G0, G1, G3. repeat split; auto; lia.
Qed.
Print Assumptions C50_only_bmc.

(** With a sequence offset, the header that really comes next is always refused. *)
Theorem C50_sequence_offset_refuted : forall H recover p h sigs, p_offset p <> 0 -> firstMessageSn h = p_first p + p_cnt p -> handleBlockUpdate H recover p h sigs = None.
Proof.
  intros H recover p h sigs Ho Hf. unfold handleBlockUpdate. rewrite Hf. replace (p_first p + p_cnt p - p_offset p =? p_first p + p_cnt p) with false by lia. reflexivity.
Qed.
Print Assumptions C50_sequence_offset_refuted.

(** A verifier started from a header whose first message number is not zero never delivers or advances. *)
Lemma prove_offset : forall H m hash offset total, proof_ok m -> proveMessage H m = Some (hash, offset, total) -> 0 <= offset.
Proof.
  intros H m hash offset total [F S] E. rewrite claimed_nsum, map_app, nsum_app in S. apply Forall_app in F as [F1 F2].
  unfold proveMessage in E. obn E r G. obn E u G'. destruct m as [L C R]. cbn [p_left p_contents p_right] in *.
  assert (N : forall l, Forall (fun x => 1 <= p_num x) l -> 0 <= nsum (map un l)).
  { intros l Fl. induction Fl; cbn [map nsum fold_right]; [lia|]. fold (nsum (map un l)). unfold un at 1. cbn [fst]. lia. }
  pose proof (N L F1). pose proof (N R F2). pose proof (zlen_nonneg _ C).
  destruct (sum_fold_j L 0) as (B1 & _ & B3); [lia|assumption|lia|]. rewrite B1 in E.
  assert (Ho : 0 <= 0 + nsum (map un L)) by lia. set (o := 0 + nsum (map un L)) in *. clearbody o. destruct L, C, R; injection E as _ <- _; exact Ho.
Qed.
Theorem C50_late_start_refuted : forall H recover p cs, p_lastSeq p = 0 -> 0 < p_first p -> 0 <= p_cnt p ->
  Forall (fun c => Forall item_ok (c_items c)) cs -> run H recover p cs = (p, []).
Proof.
  intros H recover p cs L Hf Hc F. induction F as [|c cs Fc F IH]; cbn [run]; [reflexivity|].
  assert (G : handleRelayMessage H recover p c = None \/ handleRelayMessage H recover p c = Some (p, [])).
  { unfold handleRelayMessage. destruct (check _); cbn [obind]; [|auto]. destruct (check (_ =? c_seq c)); cbn [obind]; [|auto].
    destruct (c_items c) as [|[h sigs|m|] its]; cbn [handle_items]; auto; left.
    - replace (handleBlockUpdate H recover p h sigs) with (@None props); [reflexivity|]. symmetry. unfold handleBlockUpdate. destruct (check _); cbn [obind]; [|reflexivity].
      unfold remain, processed. rewrite L. replace (p_cnt p - (0 - p_first p) =? 0) with false by lia. reflexivity.
    - destruct (handleMessageProof H p m None) as [[q o]|] eqn:E; [|reflexivity]. exfalso. inversion Fc as [|? ? F1 F2]; subst.
      apply mp_inv in E as (ha & of & to & E1 & _ & E2 & _). apply prove_offset in E1; [|exact F1]. unfold processed in E2. lia. }
  destruct G as [-> | ->]; [exact IH|]. rewrite IH. reflexivity.
Qed.
Print Assumptions C50_late_start_refuted.

(** A second partial proof for a block is refused in the relay message that carries the block update. *)
Theorem C50_second_proof_same_message_refuted : forall H p m h, 0 < processed p -> handleMessageProof H p m (Some h) = None.
Proof.
  intros H p m h Hp. destruct (handleMessageProof H p m (Some h)) as [[q o]|] eqn:E; [|reflexivity]. exfalso.
  apply mp_inv in E as (ha & of & to & _ & _ & E2 & _ & E3 & _). lia.
Qed.
Print Assumptions C50_second_proof_same_message_refuted.

(** *** A concrete chain of three blocks: four validators, a block without messages, a change of validators, and
    a second network beside the last section. *)
Definition ex_addr (k : list Z) : list Z := skipn 12 (toy32 k).
Definition ex_ctx (ks : list (list Z)) : list Z := rlp_write (RList [RList (map (fun k => RBytes (ex_addr k)) ks)]).
Definition ex_ctxA := ex_ctx [[1]; [2]; [3]; [4]].
Definition ex_ctxB := ex_ctx [[2]; [3]; [4]; [9; 9]].
Definition ex_root (l : list (list Z)) : option (list Z) := match NewMerkleBinaryTree toy32 (map Some l) with Ok t => mbt_Root t | _ => None end.
Definition ex_s0 := NS 5 1 None 2 (ex_root [[1]; [2; 2]]).
Definition ex_b0 := GB 100 0 ex_ctxA true [[1]; [2; 2]] (ex_root [[1]; [2; 2]]) (NLeaf ex_s0).
Definition ex_s1 := NS 5 4 (Some (toy32 (ns_enc ex_s0))) 0 None.
Definition ex_b1 := GB 101 0 ex_ctxA false [] None (NLeaf ex_s1).
Definition ex_s2 := NS 5 5 (Some (toy32 (ns_enc ex_s1))) 5 (ex_root ex_msgs).
Definition ex_other := NLeaf (NS 6 0 None 0 None).
Definition ex_b2 := GB 102 1 ex_ctxB true ex_msgs (ex_root ex_msgs) (NNode ex_other (NLeaf ex_s2)).
Definition ex_src : list Z := str "0x1.icon".
Definition ex_chain := [ex_b0; ex_b1; ex_b2].
Definition ex_recover (d sig : list Z) : option (list Z) := if existsb (bytes_eqb d) (map (gb_decision toy32 ex_src 1) ex_chain) then Some (4 :: sig) else None.
Definition ex_header (b : gblock) (s : nsection) (path : list (Z * list Z)) : header :=
  mkHeader (gb_height b) (gb_round b) (Some (toy32 (gb_ctx b))) path (s_nid s) (s_upd s) (s_prev s) (s_cnt s) (s_root s) (Some (gb_ctx b)).
Definition ex_p0 := handleFirstBlockHeader toy32 ex_src 1 [7] 0 (ex_header ex_b0 ex_s0 []).
Definition ex_proof (l : list (list Z)) (b e : Z) : jproof :=
  match NewMerkleBinaryTree toy32 (map Some l) with Ok t => match mbt_Proof t b e with Ok m => m | _ => {| p_left := []; p_contents := []; p_right := [] |} end | _ => {| p_left := []; p_contents := []; p_right := [] |} end.
Definition ex_call (seq : Z) (its : list item) : call := mkCall [7] [7] ex_src seq its.
Definition ex_calls : list call :=
  [ex_call 0 [MessageProof_ (ex_proof [[1]; [2; 2]] 1 1)];
   ex_call 0 [MessageProof_ (ex_proof [[1]; [2; 2]] 1 1)] (* replay *);
   ex_call 1 [MessageProof_ (ex_proof [[1]; [2; 2]] 2 2); BlockUpdate_ (ex_header ex_b1 ex_s1 []) (Some [[1]; [2]; [4]]);
              BlockUpdate_ (ex_header ex_b2 ex_s2 [(0, nst_root toy32 ex_other)]) (Some [[4]; [3]]) (* two signatures only *)];
   ex_call 1 [MessageProof_ (ex_proof [[1]; [2; 2]] 2 2); BlockUpdate_ (ex_header ex_b1 ex_s1 []) (Some [[1]; [2]; [4]]);
              BlockUpdate_ (ex_header ex_b2 ex_s2 [(0, nst_root toy32 ex_other)]) (Some [[4]; [3]; [1]]); MessageProof_ (ex_proof ex_msgs 1 3)];
   ex_call 5 [MessageProof_ (ex_proof ex_msgs 4 4)]].

Lemma bytes_ok_b : forall l, forallb (fun b => (0 <=? b) && (b <? 256)) l = true -> bytes_ok l.
Proof. intros l E. apply Forall_forall. intros x Hx. rewrite forallb_forall in E. specialize (E x Hx). unfold is_byte. lia. Qed.
Fixpoint rlp_okb (t : rlp) : bool :=
  match t with RNull => true | RBytes b => forallb (fun b => (0 <=? b) && (b <? 256)) b | RList l => forallb rlp_okb l end.
Lemma ns_ok_b : forall s, rlp_okb (ns_items s) = true -> rlp_ok (ns_items s).
Proof.
  intros s E. apply ns_ok; unfold ns_items in E; cbn [rlp_okb forallb] in E; repeat (apply andb_prop in E as [? E]).
  - destruct (s_prev s); cbn [opt_ok]; [|exact I]. apply bytes_ok_b. assumption.
  - destruct (s_root s); cbn [opt_ok]; [|exact I]. apply bytes_ok_b. assumption.
Qed.

Lemma ex_merkle : forall l, l <> [] -> zlen l < 2 ^ 62 -> exists x, ex_root l = Some x /\ merkle toy32 l x.
Proof.
  intros l N L. destruct (C15_root_is_merkle_root toy32 l) as (t & r & E1 & E2 & E3 & _); auto; [intros x; discriminate|].
  exists r. unfold ex_root. rewrite E1, E2. auto.
Qed.

Example C50_ex_history : history toy32 5 None [] 0 ex_chain.
Proof.
  apply hi_cons; [discriminate|apply ex_merkle; [discriminate|reflexivity]|reflexivity|vm_compute; reflexivity| |].
  { intros s Hs. cbn [ex_b0 gb_tree in_tree] in Hs. subst s. split; [vm_compute; reflexivity|]. split; [apply ns_ok_b; vm_compute; reflexivity|]. intros _. vm_compute. reflexivity. }
  apply hi_cons; [reflexivity|reflexivity|reflexivity|vm_compute; reflexivity| |].
  { intros s Hs. cbn [ex_b1 gb_tree in_tree] in Hs. subst s. split; [vm_compute; reflexivity|]. split; [apply ns_ok_b; vm_compute; reflexivity|]. intros _. vm_compute. reflexivity. }
  apply hi_cons; [discriminate|apply ex_merkle; [discriminate|reflexivity]|reflexivity|right; vm_compute; reflexivity| |constructor].
  intros s Hs. cbn [ex_b2 gb_tree in_tree ex_other] in Hs. destruct Hs as [-> | ->].
  - split; [vm_compute; reflexivity|]. split; [apply ns_ok_b; vm_compute; reflexivity|]. intros X. discriminate X.
  - split; [vm_compute; reflexivity|]. split; [apply ns_ok_b; vm_compute; reflexivity|]. intros _. vm_compute. reflexivity.
Qed.

Example C50_ex_honest : forall x vs d, In x ex_chain -> ctx_validators (Some (gb_ctx x)) = Some vs -> quorum toy32 ex_recover vs d -> exists y, In y ex_chain /\ d = gb_decision toy32 ex_src 1 y.
Proof.
  intros x vs d _ _ (signers & _ & S & L). destruct signers as [|a signers]; [change (zlen (@nil (list Z))) with 0 in L; pose proof (zlen_nonneg _ vs); lia|].
  destruct (S a (or_introl eq_refl)) as (_ & sig & c & k & R & _). unfold ex_recover in R. destruct (existsb _ _) eqn:E; [|discriminate].
  apply existsb_bytes in E. apply in_map_iff in E as (y & <- & Hy). eauto.
Qed.

Example C50_ex_short : forall x, In x ex_chain -> short (rlp_write (nts_items (Some (toy32 (gb_ctx x))) (nst_root toy32 (gb_tree x)))) /\
  short (rlp_write (dec_items ex_src 1 (gb_height x) (gb_round x) (toy32 (rlp_write (nts_items (Some (toy32 (gb_ctx x))) (nst_root toy32 (gb_tree x))))))).
Proof. intros x Hx. repeat (destruct Hx as [<-|Hx]; [split; vm_compute; reflexivity|]). destruct Hx. Qed.

Example C50_ex_run : match ex_p0 with
  | Some p0 => let (p, out) := run toy32 ex_recover p0 ex_calls in out = [[1]; [2; 2]; [1]; [2; 2]; [3]; [4]] /\ p_lastSeq p = 6 /\ p_ctx p = Some ex_ctxB /\ p_height p = 102
  | None => False end /\ header_section (ex_header ex_b0 ex_s0 []) = gb_section 5 None 0 ex_b0 /\ messages ex_chain = [[1]; [2; 2]; [1]; [2; 2]; [3]; [4]; [5; 5; 5]].
Proof. vm_compute. repeat (split; [reflexivity|]). repeat split. Qed.
Example C50_ex_items_ok : Forall (fun c => Forall item_ok (c_items c)) ex_calls.
Proof.
  assert (P : forall m, forallb (fun x => 1 <=? p_num x) (p_left m ++ p_right m) && (zsum (claimed_sizes m) <? 2 ^ 31) = true -> proof_ok m).
  { intros m E. apply andb_prop in E as [E1 E2]. split; [|lia]. apply Forall_forall. intros x Hx. rewrite forallb_forall in E1. specialize (E1 x Hx). lia. }
  assert (O : forall h, forallb rlp_okb [opt_item (hd_prev h); opt_item (hd_root h); opt_item (hd_nextCtxHash h)] = true -> header_ok h).
  { intros h E. cbn [forallb] in E. apply andb_prop in E as [E1 E]. apply andb_prop in E as [E2 E]. apply andb_prop in E as [E3 _].
    split; [|split]; [destruct (hd_prev h)|destruct (hd_root h)|destruct (hd_nextCtxHash h)]; cbn [opt_ok]; try exact I; apply bytes_ok_b; assumption. }
  unfold ex_calls. repeat (apply Forall_cons; [cbn [c_items ex_call]; repeat (apply Forall_cons; [cbn [item_ok]; (apply P || apply O); vm_compute; reflexivity|]); apply Forall_nil|]). apply Forall_nil.
Qed.

(** The votes in the example: three of four validators suffice, two do not. *)
Example C49_ex : match ex_p0 with
  | Some p0 => let p := fst (run toy32 ex_recover p0 [ex_call 0 [MessageProof_ (ex_proof [[1]; [2; 2]] 1 2)]]) in
     handleBlockUpdate toy32 ex_recover p (ex_header ex_b1 ex_s1 []) (Some [[1]; [2]; [4]]) <> None /\
     handleBlockUpdate toy32 ex_recover p (ex_header ex_b1 ex_s1 []) (Some [[1]; [2]; [1]]) = None /\
     handleBlockUpdate toy32 ex_recover p (ex_header ex_b1 ex_s1 []) (Some [[1]; [2]]) = None /\
     ctx_validators (p_ctx p) = Some (map ex_addr [[1]; [2]; [3]; [4]])
  | None => False end.
Proof. vm_compute. repeat split; discriminate. Qed.
