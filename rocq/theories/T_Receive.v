(** Theorems about the receivers: C38, C39, C40, C41. *)
From Coq Require Import ZArith List Bool Lia Permutation Sorted.
From Coq Require Import ZifyBool.
From Verif Require Import Base L_Base GoSort M_Mbt S_Mbt T_Mbt M_Link M_Receive S_Receive.
Import ListNotations.
Open Scope Z_scope.

(** * C38 *)
Lemma tree_of : forall H cs t, (forall x, H x <> []) -> zlen cs < 2 ^ 62 -> NewMerkleBinaryTree H (map Some cs) = Ok t -> mbt_Len t = zlen cs /\ m_contents t = cs.
Proof.
  intros H cs t HH HB E. destruct cs as [|c cs]; [cbn in E; assert (t = {| m_root := None; m_contents := [] |}) by congruence; subst; auto|].
  unfold mbt_Len. enough (X : m_contents t = c :: cs) by (rewrite X; auto). unfold NewMerkleBinaryTree in E. cbn [map] in E. change (Some c :: map Some cs) with (map Some (c :: cs)) in E.
  assert (NL : forall cs n p, New_loop H n (map Some cs) = Ok p -> snd p = cs).
  { clear. induction cs as [|c cs IH]; intros n p E; cbn [map New_loop] in E; [assert (p = (n, [])) by congruence; subst; reflexivity|].
    destruct (New_loop H (lazyAdd n 1 (H c)) (map Some cs)) as [q| |] eqn:EL; cbn [rbind] in E; try discriminate. assert (p = (fst q, c :: snd q)) by congruence. subst. cbn [snd]. rewrite (IH _ _ EL). reflexivity. }
  destruct (New_loop H new_node (map Some (c :: cs))) as [p| |] eqn:EL; cbn [rbind] in E; try discriminate. destruct (ensureHash H false (fst p)) as [r| |]; cbn [rbind] in E; try discriminate.
  assert (t = {| m_root := Some r; m_contents := snd p |}) by congruence. subst. cbn [m_contents]. apply (NL _ _ _ EL).
Qed.

(** What is built for a status inside the block: the messages from there on, up to the first proof above the limit. *)
Theorem C38_proof_contents : forall H plen l b limit rs msgs, (forall x, H x <> []) -> zlen msgs < 2 ^ 62 ->
  b_forHeight l (Height b) = Some rs -> NewMerkleBinaryTree H (map Some msgs) = Ok (b_tree rs) ->
  let offset := RxSeq b - (b_seq rs - zlen msgs) in 0 <= offset < zlen msgs ->
  exists k p root, 1 <= k <= zlen msgs - offset /\
    b_BuildMessageProof plen l b limit = Ok (Some (RxSeq b + offset + k, p)) /\
    sublist_at msgs offset (p_contents p) /\ zlen (p_contents p) = k /\
    mbt_Root (b_tree rs) = Some root /\ proof_Root H p = Ok (root, offset, zlen msgs, true) /\
    (offset + k = zlen msgs \/ limit < plen p) /\
    (forall j q, 1 <= j < k -> mbt_Proof (b_tree rs) (offset + 1) (offset + j) = Ok q -> plen q <= limit).
Proof.
  intros H plen l b limit rs msgs HH HB HF HT offset HO. destruct (tree_of H msgs _ HH HB HT) as [HL _].
  assert (PR : forall e, offset + 1 <= e <= zlen msgs -> exists p root, mbt_Proof (b_tree rs) (offset + 1) e = Ok p /\ mbt_Root (b_tree rs) = Some root /\ proof_Root H p = Ok (root, offset, zlen msgs, true) /\ sublist_at msgs offset (p_contents p) /\ zlen (p_contents p) = e - offset).
  { intros e He. destruct (C16_range_proof_verifies H msgs (offset + 1) e HH HB) as (t & p & root & E & H1 & H2 & H3 & H4 & H5); try lia. assert (t = b_tree rs) by congruence. subst t. exists p, root.
    replace (offset + 1 - 1) with offset in * by lia. repeat split; auto; lia. }
  unfold b_BuildMessageProof. rewrite HF, HL. fold offset. replace (RxSeq b - b_seq rs =? 0) with false by (unfold offset in *; lia). replace (0 <? zlen msgs) with true by lia.
  assert (LP : forall fuel i, offset + 1 <= i -> i <= zlen msgs -> Z.of_nat fuel = zlen msgs - i + 1 ->
    (exists p, b_proof_loop plen fuel (b_tree rs) (RxSeq b) offset (zlen msgs) limit i = Ok (Some p) /\ exists k, i <= offset + k < zlen msgs /\ mbt_Proof (b_tree rs) (offset + 1) (offset + k) = Ok (snd p) /\ fst p = RxSeq b + offset + k /\ limit < plen (snd p) /\
       (forall j q, i <= offset + j < offset + k -> mbt_Proof (b_tree rs) (offset + 1) (offset + j) = Ok q -> plen q <= limit)) \/
    (b_proof_loop plen fuel (b_tree rs) (RxSeq b) offset (zlen msgs) limit i = Ok None /\ (forall j q, i <= offset + j < zlen msgs -> mbt_Proof (b_tree rs) (offset + 1) (offset + j) = Ok q -> plen q <= limit))).
  { induction fuel as [|f IH]; intros i Hi1 Hi2 HFu; [lia|]. cbn [b_proof_loop]. destruct (i <? zlen msgs) eqn:EI; [|right; split; [reflexivity|intros; lia]].
    destruct (PR i) as (p & root & EP & _); [lia|]. rewrite EP. cbn [rbind]. destruct (limit <? plen p) eqn:EL.
    - left. exists (RxSeq b + i, p). split; [reflexivity|]. exists (i - offset). cbn [fst snd]. replace (offset + (i - offset)) with i by lia. split; [lia|]. split; [exact EP|]. split; [lia|]. split; [lia|]. intros; lia.
    - destruct (IH (i + 1)) as [(p' & E' & k & K1 & K2 & K3 & K4 & K5)|[E' K]]; try lia.
      + left. exists p'. split; [exact E'|]. exists k. repeat split; auto; try lia. intros j q Hj Eq. destruct (Z.eq_dec (offset + j) i) as [Ej|Ej]; [rewrite Ej in Eq; assert (q = p) by congruence; subst; lia|]. apply (K5 j q); auto. lia.
      + right. split; [exact E'|]. intros j q Hj Eq. destruct (Z.eq_dec (offset + j) i) as [Ej|Ej]; [rewrite Ej in Eq; assert (q = p) by congruence; subst; lia|]. apply (K j q); auto. lia. }
  destruct (LP (Z.to_nat (zlen msgs - offset)) (offset + 1)) as [(p & E & k & K1 & K2 & K3 & K4 & K5)|[E K]]; try lia; rewrite E; cbn [rbind].
  - destruct (PR (offset + k)) as (p2 & root & Q1 & Q2 & Q3 & Q4 & Q5); [lia|]. assert (p2 = snd p) by congruence. subst p2. exists k, (snd p), root. repeat split; auto; try lia.
    + destruct p as [a c]. cbn [fst snd] in *. subst a. reflexivity.
    + intros j q Hj. apply K5. lia.
  - destruct (PR (zlen msgs)) as (p2 & root & Q1 & Q2 & Q3 & Q4 & Q5); [lia|]. rewrite Q1. cbn [rbind]. exists (zlen msgs - offset), p2, root. repeat split; auto; try lia.
    + do 3 f_equal. lia.
    + intros j q Hj. apply K. lia.
Qed.
Print Assumptions C38_proof_contents.

(** A status at the start of the block: the announced sequence is exactly the last message proved. *)
Theorem C38_from_block_start : forall H plen l b limit rs msgs, (forall x, H x <> []) -> zlen msgs < 2 ^ 62 ->
  b_forHeight l (Height b) = Some rs -> NewMerkleBinaryTree H (map Some msgs) = Ok (b_tree rs) -> RxSeq b = b_seq rs - zlen msgs -> msgs <> [] ->
  exists p root, b_BuildMessageProof plen l b limit = Ok (Some (RxSeq b + zlen (p_contents p), p)) /\ 1 <= zlen (p_contents p) /\
    (exists rest, msgs = p_contents p ++ rest) /\ mbt_Root (b_tree rs) = Some root /\ proof_Root H p = Ok (root, 0, zlen msgs, true).
Proof.
  intros H plen l b limit rs msgs HH HB HF HT HR HN. assert (0 < zlen msgs) by (destruct msgs; [congruence|unfold zlen; cbn [length]; lia]).
  destruct (C38_proof_contents H plen l b limit rs msgs HH HB HF HT) as (k & p & root & K1 & K2 & (x & y & K3 & K3') & K4 & K5 & K6 & _); [lia|].
  assert (OF : RxSeq b - (b_seq rs - zlen msgs) = 0) by lia. rewrite OF in *. exists p, root. repeat split; auto; try lia.
  - rewrite K2. do 3 f_equal. lia.
  - assert (x = []) by (destruct x; [reflexivity|unfold zlen in K3'; cbn [length] in K3'; lia]). subst x. exists y. exact K3.
Qed.
Print Assumptions C38_from_block_start.

(** Finding: for a status inside the block the announced sequence is too high by the number of messages already delivered. *)
Theorem C38_mid_block_refuted : forall H plen l b limit rs msgs, (forall x, H x <> []) -> zlen msgs < 2 ^ 62 ->
  b_forHeight l (Height b) = Some rs -> NewMerkleBinaryTree H (map Some msgs) = Ok (b_tree rs) ->
  let delivered := RxSeq b - (b_seq rs - zlen msgs) in 0 < delivered < zlen msgs ->
  exists ls p, b_BuildMessageProof plen l b limit = Ok (Some (ls, p)) /\ ls = RxSeq b + zlen (p_contents p) + delivered /\ RxSeq b + zlen (p_contents p) <= b_seq rs.
Proof.
  intros H plen l b limit rs msgs HH HB HF HT d HD. destruct (C38_proof_contents H plen l b limit rs msgs HH HB HF HT) as (k & p & root & K1 & K2 & _ & K4 & _); [unfold d in HD; lia|].
  eexists. exists p. split; [exact K2|]. unfold d in *. lia.
Qed.
Print Assumptions C38_mid_block_refuted.

(** Finding: a proof that stops early is always above the size limit it was meant to respect. *)
Theorem C38_early_proof_above_limit_refuted : forall H plen l b limit rs msgs ls p, (forall x, H x <> []) -> zlen msgs < 2 ^ 62 ->
  b_forHeight l (Height b) = Some rs -> NewMerkleBinaryTree H (map Some msgs) = Ok (b_tree rs) ->
  let delivered := RxSeq b - (b_seq rs - zlen msgs) in 0 <= delivered < zlen msgs ->
  b_BuildMessageProof plen l b limit = Ok (Some (ls, p)) -> delivered + zlen (p_contents p) < zlen msgs -> limit < plen p.
Proof.
  intros H plen l b limit rs msgs ls p HH HB HF HT d HD E HL. destruct (C38_proof_contents H plen l b limit rs msgs HH HB HF HT HD) as (k & p' & root & K1 & K2 & _ & K4 & _ & _ & K7 & _).
  assert (p = p') by congruence. subst p'. unfold d in *. lia.
Qed.
Print Assumptions C38_early_proof_above_limit_refuted.

(** Nothing to do, unknown height, or a status that is not inside the block. *)
Theorem C38_no_proof : forall H plen l b limit, (forall x, H x <> []) ->
  (b_forHeight l (Height b) = None -> b_BuildMessageProof plen l b limit = Ok None) /\
  (forall rs msgs, b_forHeight l (Height b) = Some rs -> zlen msgs < 2 ^ 62 -> NewMerkleBinaryTree H (map Some msgs) = Ok (b_tree rs) ->
    (RxSeq b = b_seq rs -> b_BuildMessageProof plen l b limit = Ok None) /\
    (RxSeq b < b_seq rs - zlen msgs \/ b_seq rs < RxSeq b -> exists x, b_BuildMessageProof plen l b limit = Err x)).
Proof.
  intros H plen l b limit HH. unfold b_BuildMessageProof. split; [intros ->; reflexivity|]. intros rs msgs HF HB HT. destruct (tree_of H msgs _ HH HB HT) as [HL _]. rewrite HF, HL. split.
  - intros ->. rewrite Z.sub_diag. reflexivity.
  - intros HR. assert (0 <= zlen msgs) by (unfold zlen; lia). replace (RxSeq b - b_seq rs =? 0) with false by lia. set (o := RxSeq b - (b_seq rs - zlen msgs)).
    assert (BAD : forall e, e <= zlen msgs -> exists x, mbt_Proof (b_tree rs) (o + 1) e = Err x).
    { intros e He. apply C16_bad_range_rejected. destruct HR as [HR|HR]; [left|]; unfold o; lia. }
    assert (LP : exists x, rbind (if 0 <? zlen msgs then b_proof_loop plen (Z.to_nat (zlen msgs - o)) (b_tree rs) (RxSeq b) o (zlen msgs) limit (o + 1) else Ok None)
       (fun r => match r with Some x => Ok (Some x) | None => rbind (mbt_Proof (b_tree rs) (o + 1) (zlen msgs)) (fun p => Ok (Some (RxSeq b + zlen msgs, p))) end) = Err x).
    { destruct (BAD (zlen msgs)) as [x Ex]; [lia|]. destruct (0 <? zlen msgs); cbn [rbind]; [|rewrite Ex; cbn [rbind]; eauto].
      destruct (Z.to_nat (zlen msgs - o)) as [|f]; cbn [b_proof_loop rbind]; [rewrite Ex; cbn [rbind]; eauto|]. destruct (o + 1 <? zlen msgs) eqn:EO; cbn [rbind]; [|rewrite Ex; cbn [rbind]; eauto].
      destruct (BAD (o + 1)) as [y Ey]; [lia|]. rewrite Ey. cbn [rbind]. eauto. }
    exact LP.
Qed.
Print Assumptions C38_no_proof.

(** The records the monitor makes cover the message numbers without gap or overlap. *)
Theorem C38_records_contiguous : forall H startHeight notes q q' l', (forall x, H x <> []) -> Forall (fun nt => zlen (snd nt) < 2 ^ 62) notes ->
  fold_left (fun st nt => rbind st (fun st => b_notify H startHeight (fst nt) (snd nt) (fst st) (snd st))) notes (Ok (q, [])) = Ok (q', l') ->
  contiguous q l' /\ q' = last (map b_seq l') q /\
  q' - q = fold_left (fun a nt => a + if fst nt =? startHeight then 0 else zlen (snd nt)) notes 0.
Proof.
  intros H sh notes q q' l' HH HF E.
  assert (CA : forall l q r, contiguous q l -> b_seq r - zlen (m_contents (b_tree r)) = last (map b_seq l) q -> contiguous q (l ++ [r])).
  { induction l as [|x l IH]; intros q0 r HC HR; cbn [app contiguous map] in *; [auto|]. destruct HC as [H1 H2]. split; [exact H1|]. apply IH; [exact H2|]. rewrite HR. clear. revert x. induction l as [|y l IH]; intros x; [reflexivity|]. cbn [map last] in *. destruct l; [reflexivity|]. apply (IH x). }
  assert (G : forall notes q0 l0 a, Forall (fun nt => zlen (snd nt) < 2 ^ 62) notes -> contiguous q l0 -> q0 = last (map b_seq l0) q -> q0 - q = a ->
     fold_left (fun st nt => rbind st (fun st => b_notify H sh (fst nt) (snd nt) (fst st) (snd st))) notes (Ok (q0, l0)) = Ok (q', l') ->
     contiguous q l' /\ q' = last (map b_seq l') q /\ q' - q = fold_left (fun a nt => a + if fst nt =? sh then 0 else zlen (snd nt)) notes a).
  { clear E HF notes. induction notes as [|[h ms] notes IH]; intros q0 l0 a HF HC HQ HA E; cbn [fold_left] in *; [assert (q' = q0) by congruence; assert (l' = l0) by congruence; subst; auto|].
    inversion HF; subst. cbn [rbind fst snd] in *. unfold b_notify in E. destruct (h =? sh) eqn:EH.
    - apply (IH _ _ (last (map b_seq l0) q - q + 0) H3 HC eq_refl) in E; [exact E|lia].
    - destruct (NewMerkleBinaryTree H (map Some ms)) as [t|x|] eqn:ET; cbn [rbind] in E.
      + destruct (tree_of H ms t HH H2 ET) as [HL HM]. apply (IH _ _ (last (map b_seq l0) q - q + zlen ms) H3) in E; auto.
        * apply CA; [exact HC|]. cbn [b_seq b_tree]. rewrite HM. lia.
        * rewrite map_app. cbn [map b_seq]. rewrite last_last. reflexivity.
        * lia.
      + exfalso. clear - E. assert (ERR : forall n, fold_left (fun st nt => rbind st (fun st => b_notify H sh (fst nt) (snd nt) (fst st) (snd st))) n (Err x) = Err x) by (induction n as [|y n IH]; [reflexivity|exact IH]). rewrite ERR in E. discriminate.
      + exfalso. clear - E. assert (ERR : forall n, fold_left (fun st nt => rbind st (fun st => b_notify H sh (fst nt) (snd nt) (fst st) (snd st))) n Panic = Panic) by (induction n as [|y n IH]; [reflexivity|exact IH]). rewrite ERR in E. discriminate. }
  apply (G notes q [] 0); auto; [exact I|lia].
Qed.
Print Assumptions C38_records_contiguous.

Definition ex_rs (cs : list (list Z)) (h q : Z) : list brs := match NewMerkleBinaryTree toyH (map Some cs) with Ok t => [mkBrs h q t] | _ => [] end.
Example C38_ex : exists p, b_BuildMessageProof (fun p => zlen (p_contents p)) (ex_rs ex_cs 9 17) (mkBls 0 10 9) 3 = Ok (Some (14, p)) /\ zlen (p_contents p) = 4.
Proof. eexists. vm_compute. auto. Qed.
Example C38_ex_mid : exists p, b_BuildMessageProof (fun p => zlen (p_contents p)) (ex_rs ex_cs 9 17) (mkBls 0 13 9) 30 = Ok (Some (20, p)) /\ zlen (p_contents p) = 4.
Proof. eexists. vm_compute. auto. Qed.

(** * C39 *)
(** The events of a record: consecutive sequence numbers, those above the status's received sequence. *)
Theorem C39_events_kept : forall height rx sn msgs, let rs := g_newReceiveStatus height rx sn msgs in
  g_height rs = height /\ g_seq rs = sn /\
  g_events rs = map (fun x => mkEvt (sn + Z.of_nat (fst x)) (snd x)) (skipn (Z.to_nat (rx + 1 - sn)) (combine (seq 0 (length msgs)) msgs)).
Proof.
  intros height rx sn msgs. cbn zeta. cbn [g_newReceiveStatus g_height g_seq g_events]. split; [reflexivity|]. split; [reflexivity|].
  assert (G : forall msgs k, g_events_loop rx (sn + Z.of_nat k) msgs = map (fun x => mkEvt (sn + Z.of_nat (fst x)) (snd x)) (skipn (Z.to_nat (rx + 1 - (sn + Z.of_nat k))) (combine (seq k (length msgs)) msgs))).
  { clear. induction msgs as [|m msgs IH]; intros k; cbn [g_events_loop length seq combine]; [rewrite skipn_nil; reflexivity|].
    replace (sn + Z.of_nat k + 1) with (sn + Z.of_nat (S k)) by lia. rewrite IH. destruct (rx <? sn + Z.of_nat k) eqn:E.
    - replace (Z.to_nat (rx + 1 - (sn + Z.of_nat k))) with O by lia. replace (Z.to_nat (rx + 1 - (sn + Z.of_nat (S k)))) with O by lia. reflexivity.
    - replace (Z.to_nat (rx + 1 - (sn + Z.of_nat k))) with (S (Z.to_nat (rx + 1 - (sn + Z.of_nat (S k))))) by lia. reflexivity. }
  specialize (G msgs O). replace (sn + Z.of_nat 0) with sn in G by lia. exact G.
Qed.
Print Assumptions C39_events_kept.

(** What the bridge builds: the last event of the record that starts right after the status. *)
Theorem C39_bridge_proof : forall l b limit rs, g_forSequence l (RxSeq b + 1) = Some rs -> 
  match rev (g_events rs) with
  | [] => g_BuildMessageProof l b limit = Panic
  | e :: _ => g_BuildMessageProof l b limit = Ok (Some (if limit <? 8 then (RxSeq b + zlen (g_events rs) - 1, []) else (RxSeq b + zlen (g_events rs), [e])))
  end.
Proof.
  intros l b limit rs HF. assert (HS : g_seq rs = RxSeq b + 1).
  { clear - HF. induction l as [|r l IH]; cbn [g_forSequence] in HF; [discriminate|]. destruct ((RxSeq b + 1 <=? g_seq r) && (g_seq r <=? RxSeq b + 1)) eqn:E; [|auto]. assert (rs = r) by congruence. subst. lia. }
  unfold g_BuildMessageProof. rewrite HF, HS. replace (RxSeq b - (RxSeq b + 1 - zlen (g_events rs))) with (zlen (g_events rs) - 1) by lia.
  replace (Z.to_nat (zlen (g_events rs) - (zlen (g_events rs) - 1))) with 1%nat by lia. cbn [g_proof_loop]. replace (zlen (g_events rs) - 1 <? zlen (g_events rs)) with true by lia.
  destruct (rev (g_events rs)) as [|e r] eqn:ER.
  - assert (X : g_events rs = []) by (rewrite <- (rev_involutive (g_events rs)), ER; reflexivity). rewrite X. reflexivity.
  - assert (X : g_events rs = rev r ++ [e]) by (rewrite <- (rev_involutive (g_events rs)), ER; reflexivity). rewrite X.
    assert (Y : at_ (rev r ++ [e]) (zlen (rev r ++ [e]) - 1) = Ok e).
    { unfold at_, zlen. rewrite app_length. cbn [length]. replace (Z.of_nat (length (rev r) + 1) - 1 <? 0) with false by lia. replace (Z.to_nat (Z.of_nat (length (rev r) + 1) - 1)) with (length (rev r)) by lia.
      rewrite nth_error_app2 by lia. rewrite Nat.sub_diag. reflexivity. }
    rewrite Y. cbn [rbind]. change (0 + sizeOfEvent e) with 8. destruct (limit <? 8); cbn [rbind app]; [|reflexivity]. do 3 f_equal. lia.
Qed.
Print Assumptions C39_bridge_proof.

(** One message per block: exactly the next message, announced as such. *)
Theorem C39_bridge_single : forall l b limit height rx m, 8 <= limit -> rx <= RxSeq b ->
  g_forSequence l (RxSeq b + 1) = Some (g_newReceiveStatus height rx (RxSeq b + 1) [m]) ->
  g_BuildMessageProof l b limit = Ok (Some (RxSeq b + 1, [mkEvt (RxSeq b + 1) m])).
Proof.
  intros l b limit height rx m HL HR HF. pose proof (C39_bridge_proof l b limit _ HF) as X. cbn [g_newReceiveStatus g_events g_events_loop] in X. replace (rx <? RxSeq b + 1) with true in X by lia.
  cbn [rev app] in X. replace (limit <? 8) with false in X by lia. exact X.
Qed.
Print Assumptions C39_bridge_single.

(** Finding: with several messages in a block all but the last are announced as delivered without being sent. *)
Theorem C39_bridge_skips_refuted : forall l b limit height rx m0 ms m, 8 <= limit -> rx <= RxSeq b ->
  g_forSequence l (RxSeq b + 1) = Some (g_newReceiveStatus height rx (RxSeq b + 1) (m0 :: ms ++ [m])) ->
  exists ls, g_BuildMessageProof l b limit = Ok (Some (ls, [mkEvt ls m])) /\ ls = RxSeq b + zlen ms + 2.
Proof.
  intros l b limit height rx m0 ms m HL HR HF. pose proof (C39_bridge_proof l b limit _ HF) as X. 
  assert (G : forall ms sn, rx < sn -> exists es, g_events_loop rx sn (ms ++ [m]) = es ++ [mkEvt (sn + zlen ms) m] /\ zlen es = zlen ms).
  { clear. induction ms as [|x ms IH]; intros sn H; cbn [app g_events_loop]; replace (rx <? sn) with true by lia.
    - exists []. split; [|reflexivity]. cbn [app]. do 2 f_equal. unfold zlen. cbn. lia.
    - destruct (IH (sn + 1)) as (es & E & HL); [lia|]. exists (mkEvt sn x :: es). rewrite E. split; [cbn [app]; replace (sn + zlen (x :: ms)) with (sn + 1 + zlen ms) by (unfold zlen; cbn [length]; lia); reflexivity|]. unfold zlen in *. cbn [length]. lia. }
  destruct (G (m0 :: ms) (RxSeq b + 1)) as (es & E & HE); [lia|]. cbn [g_newReceiveStatus g_events] in X. cbn [app] in E. rewrite E in X. rewrite rev_unit in X. replace (limit <? 8) with false in X by lia.
  exists (RxSeq b + 1 + zlen (m0 :: ms)). rewrite X. split; [|unfold zlen; cbn [length]; lia].
  replace (RxSeq b + zlen (es ++ [mkEvt (RxSeq b + 1 + zlen (m0 :: ms)) m])) with (RxSeq b + 1 + zlen (m0 :: ms)) by (unfold zlen in *; rewrite app_length; cbn [length] in *; lia). reflexivity.
Qed.
Print Assumptions C39_bridge_skips_refuted.

(** Finding: a block without new messages whose first sequence follows the status crashes the receiver. *)
Theorem C39_bridge_empty_block_refuted : forall l b limit height rx,
  g_forSequence l (RxSeq b + 1) = Some (g_newReceiveStatus height rx (RxSeq b + 1) []) -> g_BuildMessageProof l b limit = Panic.
Proof. intros l b limit height rx HF. apply (C39_bridge_proof l b limit _ HF). Qed.
Print Assumptions C39_bridge_empty_block_refuted.

(** The EVM receiver, one new message in the block. *)
Theorem C39_eth_single : forall l b limit h idx bh m, 8 <= limit ->
  e_forSequence l (RxSeq b + 1) = Some (mkErs h (RxSeq b + 1) [mkRp idx bh [mkEvt (RxSeq b + 1) m]]) ->
  e_BuildMessageProof l b limit = Ok (Some (RxSeq b + 1, [mkRp idx bh [mkEvt (RxSeq b + 1) m]])).
Proof.
  intros l b limit h idx bh m HL HF. unfold e_BuildMessageProof. rewrite HF. cbn [e_rps e_seq]. change (zlen [mkRp idx bh [mkEvt (RxSeq b + 1) m]]) with 1. change (0 <? 1) with true.
  replace (RxSeq b - (RxSeq b + 1 - 1)) with 0 by lia. change (Z.to_nat (1 - 0)) with 1%nat. cbn [e_proof_loop zlen length Z.of_nat]. change (0 <? Z.pos (Pos.of_succ_nat 0)) with true.
  cbn [at_ Z.ltb Z.compare Z.to_nat nth_error rbind rp_events e_events_loop]. change (0 + sizeOfEvent (mkEvt (RxSeq b + 1) m)) with 8. replace (limit <? 8) with false by lia. cbn [andb app e_events_loop rp_index rp_height].
  replace (limit <? 8) with false by lia. cbn [fst snd filter rp_events rbind]. reflexivity.
Qed.
Print Assumptions C39_eth_single.

(** Finding: with a limit too small for it, the first message goes out all the same but is not counted, so that it is taken again. *)
Theorem C39_eth_small_limit_refuted : forall l b limit h idx bh m, limit < 8 ->
  e_forSequence l (RxSeq b + 1) = Some (mkErs h (RxSeq b + 1) [mkRp idx bh [mkEvt (RxSeq b + 1) m]]) ->
  e_BuildMessageProof l b limit = Ok (Some (RxSeq b, [mkRp idx bh [mkEvt (RxSeq b + 1) m]])).
Proof.
  intros l b limit h idx bh m HL HF. unfold e_BuildMessageProof. rewrite HF. cbn [e_rps e_seq]. change (zlen [mkRp idx bh [mkEvt (RxSeq b + 1) m]]) with 1. change (0 <? 1) with true.
  replace (RxSeq b - (RxSeq b + 1 - 1)) with 0 by lia. change (Z.to_nat (1 - 0)) with 1%nat. cbn [e_proof_loop zlen length Z.of_nat]. change (0 <? Z.pos (Pos.of_succ_nat 0)) with true.
  cbn [at_ Z.ltb Z.compare Z.to_nat nth_error rbind rp_events e_events_loop]. change (0 + sizeOfEvent (mkEvt (RxSeq b + 1) m)) with 8. replace (limit <? 8) with true by lia. change (0 <? 0) with false. cbn [andb app e_events_loop rp_index rp_height].
  replace (limit <? 8) with true by lia. cbn [fst snd filter rp_events rbind]. rewrite Z.add_0_r. reflexivity.
Qed.
Print Assumptions C39_eth_small_limit_refuted.

(** Finding: two or more new messages in a block crash the receiver: the record carries the last sequence, which is not the next one. *)
Theorem C39_eth_batch_refuted : forall l b limit, (forall r, In r l -> e_seq r <> RxSeq b + 1) -> e_BuildMessageProof l b limit = Panic.
Proof.
  intros l b limit HN. unfold e_BuildMessageProof. assert (X : e_forSequence l (RxSeq b + 1) = None); [|rewrite X; reflexivity].
  induction l as [|r l IH]; [reflexivity|]. cbn [e_forSequence]. assert (e_seq r <> RxSeq b + 1) by (apply HN; left; reflexivity). replace ((RxSeq b + 1 <=? e_seq r) && (e_seq r <=? RxSeq b + 1)) with false by lia.
  apply IH. intros x Hx. apply HN. right. exact Hx.
Qed.
Print Assumptions C39_eth_batch_refuted.

Example C39_ex : g_BuildMessageProof [g_newReceiveStatus 7 4 5 [[1]; [2]; [3]]] (mkBls 0 4 7) 100 = Ok (Some (7, [mkEvt 7 [3]])) /\
  g_BuildMessageProof [g_newReceiveStatus 7 4 5 []] (mkBls 0 4 7) 100 = Panic /\ e_BuildMessageProof [mkErs 7 6 [mkRp 0 7 [mkEvt 5 []; mkEvt 6 []]]] (mkBls 0 4 7) 100 = Panic /\
  e_BuildMessageProof [mkErs 7 5 [mkRp 0 7 [mkEvt 5 [1]]]] (mkBls 0 4 7) 7 = Ok (Some (4, [mkRp 0 7 [mkEvt 5 [1]]])).
Proof. vm_compute. auto. Qed.

(** * C40 *)
Definition get (tx : Z) (m : list (Z * rp)) : list evt := flat_map (fun x => if fst x =? tx then rp_events (snd x) else []) m.
Definition wfm (m : list (Z * rp)) : Prop := NoDup (map fst m) /\ Forall (fun x => rp_index (snd x) = fst x /\ rp_events (snd x) <> []) m.

Lemma map_add_keys : forall tx bk e m k, In k (map fst (map_add tx bk e m)) <-> k = tx \/ In k (map fst m).
Proof.
  induction m as [|[t r] m IH]; intros k; cbn [map_add map fst In]; [split; [intros [H|[]]; auto|intros [H|[]]; auto]|]. destruct (t =? tx) eqn:E; cbn [map fst In]; [|rewrite IH; tauto].
  apply Z.eqb_eq in E. subst. split; [tauto|]. intros [->|H]; tauto.
Qed.
Lemma get_nokey : forall tx m, ~ In tx (map fst m) -> get tx m = [].
Proof. induction m as [|[t r] m IH]; intros H; [reflexivity|]. cbn [get flat_map fst snd map In] in *. destruct (t =? tx) eqn:E; [apply Z.eqb_eq in E; tauto|]. cbn [app]. apply IH. tauto. Qed.
Lemma map_add_spec : forall tx bk e m, wfm m -> wfm (map_add tx bk e m) /\ (forall t, get t (map_add tx bk e m) = if t =? tx then get t m ++ [e] else get t m).
Proof.
  intros tx bk e m [HN HF]. split.
  - split.
    + induction m as [|[t r] m IH]; cbn [map_add map fst]; [constructor; [intros []|constructor]|]. inversion HN; subst. inversion HF; subst. destruct (t =? tx) eqn:E; cbn [map fst]; [constructor; assumption|].
      constructor; [|apply IH; assumption]. rewrite map_add_keys. intros [X|X]; [subst; rewrite Z.eqb_refl in E; discriminate|contradiction].
    + clear HN. induction HF as [|[t r] m H HF IH]; cbn [map_add]; [constructor; [split; [reflexivity|discriminate]|constructor]|]. destruct (t =? tx); constructor; auto. cbn [fst snd rp_index rp_events] in *. split; [tauto|]. intros X. apply app_eq_nil in X. destruct X; discriminate.
  - intros t. induction m as [|[t0 r] m IH]; cbn [map_add].
    + cbn [get flat_map fst snd rp_events]. rewrite (Z.eqb_sym tx t). destruct (t =? tx); reflexivity.
    + inversion HN; subst. inversion HF; subst. cbn [map fst] in *. destruct (t0 =? tx) eqn:E.
      * apply Z.eqb_eq in E. subst t0. cbn [get flat_map fst snd rp_events]. rewrite (Z.eqb_sym tx t). destruct (t =? tx) eqn:ET; [|reflexivity]. apply Z.eqb_eq in ET. subst t.
        change (flat_map (fun x => if fst x =? tx then rp_events (snd x) else []) m) with (get tx m). rewrite (get_nokey tx m) by assumption. rewrite !app_nil_r. reflexivity.
      * unfold get. cbn [flat_map fst snd]. fold (get t m). fold (get t (map_add tx bk e m)). rewrite (IH H2 H4). destruct (t =? tx); [|reflexivity]. rewrite app_assoc. reflexivity.
Qed.
Lemma collect_spec : forall dst seq logs m m', wfm m -> e_collect dst seq logs m = Ok m' ->
  wfm m' /\ (forall t, get t m' = get t m ++ group t (kept dst seq logs)) /\ (forall k, In k (map fst m') <-> In k (map fst m) \/ In k (map fst (kept dst seq logs))).
Proof.
  induction logs as [|g logs IH]; intros m m' HW E; cbn [e_collect] in E.
  - assert (m' = m) by congruence. subst. split; [exact HW|]. split; [intros; unfold kept, group; cbn; rewrite app_nil_r; reflexivity|]. intros. cbn. tauto.
  - unfold kept in *. cbn [flat_map]. unfold relevant at 1 3. destruct (lg_event g) as [[[sq next] msg]|]; [|discriminate]. destruct (i64 sq <=? seq) eqn:E1.
    + replace (seq <? i64 sq) with false by lia. cbn [andb app]. apply (IH _ _ HW E).
    + replace (seq <? i64 sq) with true by lia. cbn [andb]. destruct (bytes_eqb next dst); cbn [negb] in E; [|apply (IH _ _ HW E)].
      destruct (map_add_spec (lg_tx g) (lg_block g) (mkEvt sq msg) m HW) as [HW' HG]. destruct (IH _ _ HW' E) as (H1 & H2 & H3). split; [exact H1|]. split.
      * intros t. rewrite H2, HG. unfold group. cbn [app filter fst]. rewrite (Z.eqb_sym (lg_tx g) t). destruct (t =? lg_tx g); [|reflexivity]. rewrite <- app_assoc. reflexivity.
      * intros k. rewrite H3, map_add_keys. cbn [app map fst In]. intuition.
Qed.
Lemma at_last : forall A (l : list A) x, at_ (l ++ [x]) (zlen (l ++ [x]) - 1) = Ok x.
Proof.
  intros A l x. unfold at_, zlen. rewrite app_length. cbn [length]. replace (Z.of_nat (length l + 1) - 1 <? 0) with false by lia. replace (Z.to_nat (Z.of_nat (length l + 1) - 1)) with (length l) by lia.
  rewrite nth_error_app2 by lia. rewrite Nat.sub_diag. reflexivity.
Qed.
Lemma rp_irr : forall a, rp_ltb a a = false. Proof. intros. unfold rp_ltb. lia. Qed.
Lemma rp_trans : forall a b c, rp_ltb a b = true -> rp_ltb b c = true -> rp_ltb a c = true. Proof. unfold rp_ltb. intros. lia. Qed.
Lemma rp_pairwise : forall l, NoDup (map rp_index l) -> pairwise rp_ltb l.
Proof.
  induction l as [|x l IH]; cbn [map]; intros H; [constructor|]. inversion H; subst. constructor; [|apply IH; assumption]. apply Forall_forall. intros y Hy. unfold rp_ltb.
  assert (rp_index x <> rp_index y) by (intros X; apply H2; rewrite X; apply in_map; assumption). lia.
Qed.
Lemma wfm_index : forall m, wfm m -> map rp_index (map snd m) = map fst m.
Proof. intros m [_ HF]. induction HF as [|x m [H _] HF IH]; [reflexivity|]. cbn [map]. congruence. Qed.
Lemma get_in : forall m t r, wfm m -> In (t, r) m -> get t m = rp_events r.
Proof.
  intros m t r [HN HF] HI. induction m as [|[t0 r0] m IH]; [destruct HI|]. cbn [map fst] in HN. inversion HN; subst. inversion HF; subst. unfold get. cbn [flat_map fst snd]. fold (get t m). destruct HI as [HI|HI].
  - assert (t0 = t) by congruence. assert (r0 = r) by congruence. subst. rewrite Z.eqb_refl, get_nokey, app_nil_r by assumption. reflexivity.
  - assert (t0 <> t) by (intros ->; apply H1; apply (in_map fst) in HI; exact HI). replace (t0 =? t) with false by lia. cbn [app]. apply IH; assumption.
Qed.

(** The receipts of a block: exactly the relevant logs, by transaction, in increasing order. *)
Theorem C40_receipts : forall enum dst height logs seq l seq' l', (forall m, Permutation (enum m) m) ->
  e_onBlock enum dst height logs seq l = Ok (seq', l') ->
  (kept dst seq logs = [] /\ seq' = seq /\ l' = l) \/
  (exists rps init r evs e, kept dst seq logs <> [] /\ l' = l ++ [mkErs height seq' rps] /\
    StronglySorted (fun a b => rp_index a < rp_index b) rps /\
    Forall (fun r => rp_events r = group (rp_index r) (kept dst seq logs) /\ rp_events r <> []) rps /\
    (forall tx, In tx (map rp_index rps) <-> In tx (map fst (kept dst seq logs))) /\
    rps = init ++ [r] /\ rp_events r = evs ++ [e] /\ seq' = i64 (ev_seq e)).
Proof.
  intros enum dst height logs seq l seq' l' HP E. unfold e_onBlock in E. destruct (e_collect dst seq logs []) as [m|x|] eqn:EC; cbn [rbind] in E; try discriminate.
  assert (W0 : wfm []) by (split; constructor). destruct (collect_spec _ _ _ _ _ W0 EC) as (HW & HG & HK). destruct m as [|x0 m0].
  - left. assert (seq' = seq) by congruence. assert (l' = l) by congruence. split; [|auto]. destruct (kept dst seq logs) as [|[k e] ks]; [reflexivity|]. exfalso. apply (HK k). right. left. reflexivity.
  - right. set (m := x0 :: m0) in *. set (rps := sort_by rp_ltb (map snd (enum m))) in *.
    assert (PM : Permutation (map snd (enum m)) (map snd m)) by (apply Permutation_map; apply HP). pose proof (sort_by_perm _ rp_ltb (map snd (enum m))) as SP. fold rps in SP.
    assert (PR : Permutation rps (map snd m)) by (eapply Permutation_trans; eassumption).
    assert (ND : NoDup (map rp_index (map snd (enum m)))).
    { apply (Permutation_NoDup (l := map rp_index (map snd m))); [apply Permutation_map; apply Permutation_sym; exact PM|]. rewrite wfm_index by assumption. apply HW. }
    assert (RE : forall r, In r rps -> In (rp_index r, r) m).
    { intros r Hr. apply (Permutation_in _ PR) in Hr. apply in_map_iff in Hr. destruct Hr as ([t r'] & E1 & E2). cbn [snd] in E1. subst r'. destruct HW as [_ HF]. rewrite Forall_forall in HF. destruct (HF _ E2) as [H1 _]. cbn [fst snd] in H1. rewrite H1. exact E2. }
    destruct (rev rps) as [|r rr] eqn:ER.
    + exfalso. assert (rps = []) by (rewrite <- (rev_involutive rps), ER; reflexivity). rewrite H in PR. apply Permutation_nil in PR. unfold m in PR. discriminate.
    + assert (EX : rps = rev rr ++ [r]) by (rewrite <- (rev_involutive rps), ER; reflexivity). rewrite EX in E at 1 2. rewrite at_last in E. cbn [rbind] in E.
      assert (RI : In r rps) by (rewrite EX; apply in_or_app; right; left; reflexivity). destruct HW as [HWN HWF]. assert (HW : wfm m) by (split; assumption). rewrite Forall_forall in HWF. destruct (HWF _ (RE _ RI)) as [_ HNE]. cbn [snd] in HNE.
      destruct (rev (rp_events r)) as [|e er] eqn:EE; [exfalso; apply HNE; rewrite <- (rev_involutive (rp_events r)), EE; reflexivity|].
      assert (EY : rp_events r = rev er ++ [e]) by (rewrite <- (rev_involutive (rp_events r)), EE; reflexivity). rewrite EY in E. rewrite at_last in E. cbn [rbind] in E.
      exists rps, (rev rr), r, (rev er), e. split; [|split; [|split; [|split; [|split; [|repeat split; auto]]]]].
      * intros X. assert (Y : In (fst x0) (map fst m)) by (left; reflexivity). apply HK in Y. rewrite X in Y. cbn in Y. tauto.
      * congruence.
      * assert (SS : StronglySorted (fun a b => rp_ltb a b = true) rps) by (apply sort_by_sorted; [apply rp_trans|apply rp_pairwise; exact ND]).
        clear - SS. induction SS as [|x l0 SS IH HX]; constructor; [exact IH|]. eapply Forall_impl; [|exact HX]. intros y. unfold rp_ltb. lia.
      * apply Forall_forall. intros q Hq. pose proof (RE _ Hq) as Hm. split; [|apply (HWF _ Hm)]. rewrite <- (get_in m (rp_index q) q HW Hm), HG. reflexivity.
      * intros tx. assert (PI : In tx (map rp_index rps) <-> In tx (map rp_index (map snd m))) by (split; apply Permutation_in; [|apply Permutation_sym]; apply Permutation_map; exact PR).
        rewrite PI. rewrite wfm_index by exact HW. rewrite HK. cbn [map In]. tauto.
      * congruence.
Qed.
Print Assumptions C40_receipts.

(** The order in which the map is ranged over does not matter. *)
Theorem C40_enumeration_irrelevant : forall enum enum' dst height logs seq l, (forall m, Permutation (enum m) m) -> (forall m, Permutation (enum' m) m) ->
  e_onBlock enum dst height logs seq l = e_onBlock enum' dst height logs seq l.
Proof.
  intros enum enum' dst height logs seq l H1 H2. unfold e_onBlock. destruct (e_collect dst seq logs []) as [m|x|] eqn:EC; cbn [rbind]; try reflexivity. destruct m as [|x0 m0]; [reflexivity|]. set (m := x0 :: m0) in *.
  assert (W0 : wfm []) by (split; constructor). destruct (collect_spec _ _ _ _ _ W0 EC) as (HW & _ & _).
  assert (X : sort_by rp_ltb (map snd (enum m)) = sort_by rp_ltb (map snd (enum' m))).
  { apply (sort_by_perm_eq _ _ rp_irr rp_trans).
    - apply rp_pairwise. apply (Permutation_NoDup (l := map rp_index (map snd m))); [do 2 apply Permutation_map; apply Permutation_sym; apply H1|]. rewrite wfm_index by assumption. apply HW.
    - apply Permutation_map. eapply Permutation_trans; [apply H1|apply Permutation_sym; apply H2]. }
  rewrite X. reflexivity.
Qed.
Print Assumptions C40_enumeration_irrelevant.

(** Logs in block order (transaction indices do not decrease): the events of the receipts, one after another, are the
    relevant logs, and the last sequence seen is that of the last one. *)
Lemma group_flat : forall ks (kl : list (Z * evt)), StronglySorted (fun a b => a < b) ks -> StronglySorted (fun a b => fst a <= fst b) kl ->
  (forall x, In x kl -> In (fst x) ks) -> flat_map (fun k => group k kl) ks = map snd kl.
Proof.
  induction ks as [|k ks IH]; intros kl HS HL HK; [destruct kl as [|x kl]; [reflexivity|destruct (HK x (or_introl eq_refl))]|].
  inversion HS as [|? ? HS' HX]; subst. rewrite Forall_forall in HX.
  assert (SPLIT : map snd kl = group k kl ++ map snd (filter (fun x => negb (fst x =? k)) kl)).
  { assert (GE : forall x, In x kl -> k <= fst x) by (intros x Hx; destruct (HK x Hx) as [<-|H]; [lia|specialize (HX _ H); lia]). clear HK IH. induction HL as [|x kl HL IHL HY]; [reflexivity|].
    unfold group in *. cbn [filter map]. destruct (fst x =? k) eqn:E; cbn [negb map app]; [rewrite IHL by (intros; apply GE; right; assumption); reflexivity|].
    assert (NF : filter (fun x => fst x =? k) kl = []). { rewrite Forall_forall in HY. clear - HY E GE. assert (k < fst x) by (specialize (GE x (or_introl eq_refl)); lia). induction kl as [|y kl IH]; [reflexivity|]. cbn [filter]. assert (fst x <= fst y) by (apply HY; left; reflexivity). replace (fst y =? k) with false by lia. apply IH; [intros z Hz; apply HY; right; exact Hz|intros z [Hz|Hz]; apply GE; [left|right; right]; assumption]. }
    rewrite NF. cbn [map app]. f_equal. clear - NF. induction kl as [|y kl IH]; [reflexivity|]. cbn [filter map] in *. destruct (fst y =? k); [discriminate|]. cbn [negb map]. f_equal. apply IH. exact NF. }
  cbn [flat_map]. rewrite SPLIT. f_equal. rewrite <- (IH (filter (fun x => negb (fst x =? k)) kl)).
  - rewrite !flat_map_concat_map. f_equal. apply map_ext_in. intros a Ha. unfold group. f_equal. specialize (HX _ Ha). clear - HX. induction kl as [|y kl IH]; [reflexivity|]. cbn [filter]. destruct (fst y =? a) eqn:E1, (fst y =? k) eqn:E2; cbn [negb filter]; rewrite ?E1, ?IH; try reflexivity. lia.
  - exact HS'.
  - clear - HL. induction HL as [|x l HL IH HX]; cbn [filter]; [constructor|]. destruct (negb (fst x =? k)); [|exact IH]. constructor; [exact IH|]. rewrite Forall_forall in *. intros y Hy. apply filter_In in Hy. apply HX. tauto.
  - intros x Hx. apply filter_In in Hx. destruct Hx as [Hx Hn]. destruct (HK x Hx) as [H|H]; [subst; rewrite Z.eqb_refl in Hn; discriminate|exact H].
Qed.
Theorem C40_in_order : forall enum dst height logs seq l seq' l' pre x, (forall m, Permutation (enum m) m) ->
  e_onBlock enum dst height logs seq l = Ok (seq', l') ->
  StronglySorted (fun a b => fst a <= fst b) (kept dst seq logs) -> kept dst seq logs = pre ++ [x] ->
  exists rps, l' = l ++ [mkErs height seq' rps] /\ flat_map rp_events rps = map snd (kept dst seq logs) /\ seq' = i64 (ev_seq (snd x)).
Proof.
  intros enum dst height logs seq l seq' l' pre x HP E HS HX. destruct (C40_receipts _ _ _ _ _ _ _ _ HP E) as [[H _]|(rps & init & r & evs & e & _ & H2 & H3 & H4 & H5 & H6 & H7 & H8)]; [rewrite H in HX; destruct pre; discriminate|].
  exists rps. split; [exact H2|]. assert (F : flat_map rp_events rps = map snd (kept dst seq logs)).
  { rewrite <- (group_flat (map rp_index rps) (kept dst seq logs)); [| |exact HS|].
    - rewrite flat_map_concat_map, flat_map_concat_map, map_map. f_equal. apply map_ext_in. rewrite Forall_forall in H4. intros q Hq. apply H4. exact Hq.
    - clear - H3. induction H3 as [|a l0 H3 IH HA]; cbn [map]; constructor; [exact IH|]. rewrite Forall_forall in *. intros y Hy. apply in_map_iff in Hy. destruct Hy as (z & <- & Hz). apply HA. exact Hz.
    - intros y Hy. apply H5. apply in_map. exact Hy. }
  split; [exact F|]. rewrite H6, HX, flat_map_app, map_app in F. cbn [flat_map map] in F. rewrite app_nil_r, H7, app_assoc in F. apply app_inj_tail in F. destruct F as [_ ->]. exact H8.
Qed.
Print Assumptions C40_in_order.

(** Finding: a log of the watched contract whose data do not unpack crashes the receiver instead of being reported. *)
Theorem C40_bad_log_refuted : forall enum dst height pre g post seq l, lg_event g = None -> Forall (fun x => lg_event x <> None) pre ->
  e_onBlock enum dst height (pre ++ g :: post) seq l = Panic.
Proof.
  intros enum dst height pre g post seq l HG HF. unfold e_onBlock. assert (X : forall m, e_collect dst seq (pre ++ g :: post) m = Panic).
  { induction HF as [|y pre Hy HF IH]; intros m; cbn [app e_collect]; [rewrite HG; reflexivity|]. destruct (lg_event y) as [[[sq nx] ms]|]; [|congruence]. destruct (i64 sq <=? seq); [apply IH|]. destruct (negb _); apply IH. }
  rewrite X. reflexivity.
Qed.
Print Assumptions C40_bad_log_refuted.

Example C40_ex : let logs := [mkElog 3 9 (Some (5, [1], [50])); mkElog 7 9 (Some (6, [2], [60])); mkElog 7 9 (Some (6, [1], [61])); mkElog 7 9 (Some (7, [1], [70]))] in
  e_onBlock (@rev _) [1] 9 logs 4 [] = Ok (7, [mkErs 9 7 [mkRp 3 9 [mkEvt 5 [50]]; mkRp 7 9 [mkEvt 6 [61]; mkEvt 7 [70]]]]).
Proof. vm_compute. reflexivity. Qed.

(** * C41 *)
Lemma heights_app : forall n m h, heights h (n + m) = heights h n ++ heights (h + Z.of_nat n) m.
Proof. induction n as [|n IH]; intros m h; cbn [Nat.add heights app]; [f_equal; lia|]. f_equal. rewrite IH. f_equal. f_equal. lia. Qed.
Lemma heights_snoc : forall n h, heights h n ++ [h + Z.of_nat n] = heights h (S n).
Proof. intros n h. replace (S n) with (n + 1)%nat by lia. rewrite heights_app. reflexivity. Qed.

Section MON.
Variable hdr : Z -> option Z.
Variable ok : Z -> bool.
Hypothesis hdr_ok : forall h n, hdr h = Some n -> n = h.

Lemma catchup_spec : forall requested fuel k acc target, acc = heights requested k -> Z.of_nat fuel = target - (requested + Z.of_nat k) ->
  exists k', fst (catchup hdr ok fuel (requested + Z.of_nat k) target acc) = heights requested k' /\ (snd (catchup hdr ok fuel (requested + Z.of_nat k) target acc) = true -> requested + Z.of_nat k' = target).
Proof.
  intros requested. induction fuel as [|f IH]; intros k acc target HA HF; cbn [catchup]; [exists k; cbn [fst snd]; split; [exact HA|lia]|]. replace (requested + Z.of_nat k <? target) with true by lia.
  destruct (hdr (requested + Z.of_nat k)) as [n|] eqn:EH; [|exists k; cbn [fst snd]; split; [exact HA|discriminate]]. rewrite (hdr_ok _ _ EH). assert (HS : acc ++ [requested + Z.of_nat k] = heights requested (S k)) by (rewrite HA; apply heights_snoc).
  destruct (ok (requested + Z.of_nat k)); [|exists (S k); cbn [fst snd]; split; [exact HS|discriminate]]. replace (requested + Z.of_nat k + 1) with (requested + Z.of_nat (S k)) by lia. apply IH; [exact HS|lia].
Qed.
(** One head: the delivered heights stay consecutive as long as the head is the next height (or the first head). *)
Lemma on_head_spec : forall requested (first : bool) head acc k, acc = heights requested k -> (if first then k = O /\ requested <= head else head = requested + Z.of_nat k) ->
  exists k', fst (on_head hdr ok requested first head acc) = heights requested k' /\ (snd (on_head hdr ok requested first head acc) = true -> requested + Z.of_nat k' = head + 1).
Proof.
  intros requested first head acc k HA HC. unfold on_head. destruct first.
  - destruct HC as [-> HL]. destruct (catchup_spec requested (Z.to_nat (head - requested)) 0 acc head HA) as (k' & K1 & K2); [lia|]. replace (requested + Z.of_nat 0) with requested in * by lia.
    destruct (catchup hdr ok (Z.to_nat (head - requested)) requested head acc) as [acc1 go]. cbn [fst snd] in *. destruct go; [|exists k'; cbn [fst snd]; split; [exact K1|discriminate]].
    exists (S k'). cbn [fst snd]. specialize (K2 eq_refl). split; [|lia]. rewrite K1, <- K2. apply heights_snoc.
  - exists (S k). cbn [fst snd]. split; [rewrite HA, HC; apply heights_snoc|lia].
Qed.
End MON.

(** Polling: each height from the requested one on, once, in order, whatever fails in between. *)
Theorem C41_polling : forall ready hdr ok retryLimit requested start steps, (forall h n, hdr h = Some n -> n = h) -> (forall t h n, ready t h = Some n -> n = h) -> requested <= start ->
  exists k, fst (poll ready hdr ok retryLimit requested steps 0 retryLimit true start []) = heights requested k.
Proof.
  intros ready hdr ok rl requested start steps HH HR HL.
  assert (G : forall steps t retry (first : bool) current acc k, acc = heights requested k -> (if first then k = O /\ requested <= current else current = requested + Z.of_nat k) ->
     exists k', fst (poll ready hdr ok rl requested steps t retry first current acc) = heights requested k').
  { induction steps0 as [|s IH]; intros t retry first current acc k HA HC; cbn [poll]; [eauto|]. destruct retry as [|retry]; [eauto|]. destruct (ready t current) as [n|] eqn:ER; [|eapply IH; eassumption].
    rewrite (HR _ _ _ ER). destruct (on_head_spec hdr ok HH requested first current acc k HA HC) as (k' & K1 & K2). destruct (on_head hdr ok requested first current acc) as [acc' go]. cbn [fst snd] in *. destruct go; [|eauto].
    apply (IH _ _ false _ _ k'); [exact K1|]. specialize (K2 eq_refl). lia. }
  apply (G steps O rl true start [] O); [reflexivity|auto].
Qed.
Print Assumptions C41_polling.

(** It makes progress: with all answers good, k steps deliver the catch-up and k heights. *)
Theorem C41_polling_progress : forall hdr ok retryLimit requested start steps, (forall h, hdr h = Some h) -> (forall h, ok h = true) -> requested <= start -> (0 < retryLimit)%nat ->
  poll (fun _ h => Some h) hdr ok retryLimit requested (S steps) 0 retryLimit true start [] = (heights requested (Z.to_nat (start - requested) + S steps), true).
Proof.
  intros hdr ok rl requested start steps HH HO HL HR.
  assert (CU : forall fuel k acc target, acc = heights requested k -> Z.of_nat fuel = target - (requested + Z.of_nat k) -> catchup hdr ok fuel (requested + Z.of_nat k) target acc = (heights requested (k + fuel), true)).
  { induction fuel as [|f IH]; intros k acc target HA HF; cbn [catchup]; [rewrite Nat.add_0_r; congruence|]. replace (requested + Z.of_nat k <? target) with true by lia. rewrite HH, HO. replace (requested + Z.of_nat k + 1) with (requested + Z.of_nat (S k)) by lia.
    rewrite IH; [do 2 f_equal; lia|rewrite HA; apply heights_snoc|lia]. }
  assert (PL : forall steps t k, poll (fun _ h => Some h) hdr ok rl requested steps t rl false (requested + Z.of_nat k) (heights requested k) = (heights requested (k + steps), true)).
  { induction steps0 as [|s IH]; intros t k; cbn [poll]; [rewrite Nat.add_0_r; reflexivity|]. destruct rl as [|r]; [lia|]. unfold on_head. rewrite HO. rewrite heights_snoc. replace (requested + Z.of_nat k + 1) with (requested + Z.of_nat (S k)) by lia. rewrite IH. do 2 f_equal. lia. }
  cbn [poll]. destruct rl as [|r] eqn:ER; [lia|]. unfold on_head. specialize (CU (Z.to_nat (start - requested)) O [] start eq_refl). replace (requested + Z.of_nat 0) with requested in CU by lia. rewrite CU by lia. cbn [Nat.add]. rewrite HO.
  assert (X : heights requested (Z.to_nat (start - requested)) ++ [start] = heights requested (S (Z.to_nat (start - requested)))) by (rewrite <- heights_snoc; do 2 f_equal; lia). rewrite X.
  replace (start + 1) with (requested + Z.of_nat (S (Z.to_nat (start - requested)))) by lia. rewrite PL. do 2 f_equal. lia.
Qed.
Print Assumptions C41_polling_progress.

(** Subscription: the same as long as the heads come without gap. *)
Theorem C41_subscription : forall hdr ok requested start n, (forall h m, hdr h = Some m -> m = h) -> requested <= start ->
  exists k, fst (monitor_heads hdr ok requested true (heights start n) []) = heights requested k.
Proof.
  intros hdr ok requested start n HH HL.
  assert (G : forall n (first : bool) cur acc k, acc = heights requested k -> (if first then k = O /\ requested <= cur else cur = requested + Z.of_nat k) -> exists k', fst (monitor_heads hdr ok requested first (heights cur n) acc) = heights requested k').
  { induction n0 as [|m IH]; intros first cur acc k HA HC; cbn [heights monitor_heads]; [eauto|]. destruct (on_head_spec hdr ok HH requested first cur acc k HA HC) as (k' & K1 & K2). destruct (on_head hdr ok requested first cur acc) as [acc' go]. cbn [fst snd] in *. destruct go; [|eauto].
    apply (IH false _ _ k'); [exact K1|]. specialize (K2 eq_refl). lia. }
  apply (G n true start [] O); auto.
Qed.
Print Assumptions C41_subscription.

(** Findings: heights missing between two heads are never fetched; heads below the requested height are delivered; repeated heads are delivered again. *)
Theorem C41_gap_lost_refuted : forall hdr ok requested a b r, (forall h, hdr h = Some h) -> (forall h, ok h = true) -> requested <= a ->
  exists r', fst (monitor_heads hdr ok requested true (a :: b :: r) []) = heights requested (S (Z.to_nat (a - requested))) ++ b :: r'.
Proof.
  intros hdr ok requested a b r HH HO HL.
  assert (CU : forall fuel k acc target, acc = heights requested k -> Z.of_nat fuel = target - (requested + Z.of_nat k) -> catchup hdr ok fuel (requested + Z.of_nat k) target acc = (heights requested (k + fuel), true)).
  { induction fuel as [|f IH]; intros k acc target HA HF; cbn [catchup]; [rewrite Nat.add_0_r; congruence|]. replace (requested + Z.of_nat k <? target) with true by lia. rewrite HH, HO. replace (requested + Z.of_nat k + 1) with (requested + Z.of_nat (S k)) by lia.
    rewrite IH; [do 2 f_equal; lia|rewrite HA; apply heights_snoc|lia]. }
  cbn [monitor_heads]. unfold on_head at 1. specialize (CU (Z.to_nat (a - requested)) O [] a eq_refl). replace (requested + Z.of_nat 0) with requested in CU by lia. rewrite CU by lia. cbn [Nat.add]. rewrite HO. unfold on_head. rewrite HO.
  assert (X : heights requested (Z.to_nat (a - requested)) ++ [a] = heights requested (S (Z.to_nat (a - requested)))) by (rewrite <- heights_snoc; do 2 f_equal; lia). rewrite X.
  assert (G : forall r acc, exists r', fst (monitor_heads hdr ok requested false r acc) = acc ++ r').
  { induction r0 as [|y r0 IH]; intros acc; cbn [monitor_heads]; [exists []; rewrite app_nil_r; reflexivity|]. unfold on_head. rewrite HO. destruct (IH (acc ++ [y])) as [r' E]. exists (y :: r'). rewrite E, <- app_assoc. reflexivity. }
  destruct (G r (heights requested (S (Z.to_nat (a - requested))) ++ [b])) as [r' E]. exists r'. rewrite E, <- app_assoc. reflexivity.
Qed.
Print Assumptions C41_gap_lost_refuted.
Theorem C41_below_requested_refuted : forall hdr ok requested a r, a < requested -> exists r', fst (monitor_heads hdr ok requested true (a :: r) []) = a :: r'.
Proof.
  intros hdr ok requested a r HL. cbn [monitor_heads]. unfold on_head. replace (Z.to_nat (a - requested)) with O by lia. cbn [catchup app]. 
  destruct (ok a); [|exists []; reflexivity].
  assert (G : forall r acc, exists r', fst (monitor_heads hdr ok requested false r acc) = acc ++ r').
  { induction r0 as [|y r0 IH]; intros acc; cbn [monitor_heads]; [exists []; rewrite app_nil_r; reflexivity|]. unfold on_head. destruct (ok y); [|exists [y]; reflexivity]. destruct (IH (acc ++ [y])) as [r' E]. exists (y :: r'). rewrite E, <- app_assoc. reflexivity. }
  destruct (G r [a]) as [r' E]. exists r'. exact E.
Qed.
Print Assumptions C41_below_requested_refuted.

Example C41_ex : poll (fun t h => if (t =? 1)%nat then None else Some h) Some (fun _ => true) 3 5 4 0 3 true 7 [] = ([5; 6; 7; 8; 9], true) /\
  monitor_heads Some (fun _ => true) 5 true [7; 9] [] = ([5; 6; 7; 9], true).
Proof. vm_compute. auto. Qed.
