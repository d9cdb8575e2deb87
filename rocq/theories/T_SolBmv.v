(** Theorems about the Solidity BTP block verifier (solidity/bmv): C64, proofs of messages, and C65, block updates. *)
From Coq Require Import String Ascii ZArith List Bool Lia.
From Coq Require Import ZifyBool.
From Verif Require Import Base L_Base M_IntConv M_Rlp S_Rlp L_Rlp T_Rlp M_Mbt S_Mbt L_Mbt L_Mbt2 L_Mbt3 T_Mbt M_JBmv S_JBmv L_JBmv L_JBmv2 L_JBmv3 T_JBmv
  M_SolRlp S_SolRlp L_SolRlp T_SolRlp M_Bridge M_SolBmv S_SolBmv L_SolBmv L_SolBmv2 L_SolBmv3 L_SolBmv4.
Import ListNotations.
Open Scope Z_scope.

(** ** C64 *)
(** Messages that the contract reads from a proof for a genuine root are genuine, at the place the proof claims, unless
    there is a collision or one of the block's messages looks like an inner node of the tree. *)
Theorem C64_messages_genuine : forall H junk b p cs root, digest_size H 32 -> (forall x, mem_ok (junk x)) -> bytes_ok b -> decodeMessageProof junk b = Some p ->
  merkle H cs root -> zlen cs < 2 ^ 62 -> s_calculate H p = Some (root, zlen cs) ->
  sublist_at cs (fold_right (fun x a => sn_count x + a) 0 (sp_lefts p)) (sp_mesgs p) \/ collision H \/ exists m, In m cs /\ nodelike H m.
Proof.
  intros H junk b p cs root D J B E M L S. destruct (proof_decoded junk J b p B E) as [F1 F2]. exact (messages_genuine H p cs root D F1 F2 M S L).
Qed.
Print Assumptions C64_messages_genuine.

(** Every range proof the relay builds is accepted, with the root and the number of all messages of the block. *)
Theorem C64_relay_proofs_accepted : forall H cs b e root, (forall x, H x <> []) -> zlen cs < 2 ^ 31 -> 1 <= b -> b <= e -> e <= zlen cs -> merkle H cs root ->
  exists t m, NewMerkleBinaryTree H (map Some cs) = Ok t /\ mbt_Proof t b e = Ok m /\ s_calculate H (of_proof m) = Some (root, zlen cs) /\
    sublist_at cs (b - 1) (p_contents m) /\ zlen (p_contents m) = e - b + 1.
Proof.
  intros H cs b e root HN HB H1 H2 H3 HM0. destruct (C48_relay_proofs_accepted H cs b e root HN HB H1 H2 H3 HM0) as (t & m & E1 & E2 & _ & E3 & E4).
  exists t, m. repeat (split; [assumption|]). split; [|split; assumption]. clear E3 E4.
  assert (Hne : cs <> []) by (destruct cs; [cbn in *; lia|discriminate]).
  destruct (New_spec H cs HN Hne ltac:(lia)) as (c & C1 & C2 & C3 & HM & E). rewrite E in E1. injection E1 as <-.
  assert (N : cnum c = zlen cs) by (rewrite full_num, C3 by assumption; unfold zlen; rewrite map_length; reflexivity).
  pose proof (collapse_items H c b e C1 C2 ltac:(lia) ltac:(lia)) as EI. rewrite C3, go_slice_map in EI.
  rewrite (Proof_spec H c cs b e) in E2 by (assumption || lia). injection E2 as <-.
  rewrite (merkle_fun _ _ _ HM0 _ HM), <- N, <- (collapse_hash H c b e), <- (collapse_num H c b e).
  pose proof (Z.pow_lt_mono_r 2 31 62 ltac:(lia) ltac:(lia) ltac:(lia)).
  apply calculate_canon; [apply collapse_canon; assumption|rewrite collapse_num; lia|].
  rewrite EI, !map_app. unfold nodes_of, of_proof. cbn [sp_lefts sp_mesgs sp_rights p_left p_contents p_right]. rewrite !map_map. f_equal.
Qed.
Print Assumptions C64_relay_proofs_accepted.

(** FINDING: nodes for no leaf at all are taken.  A block whose third message consists of the hash of [x] and 32 more
    bytes lets anyone deliver [x], which was never sent. *)
Theorem C64_zero_sized_node_refuted : forall H m1 m2 x b, digest_size H 32 -> zlen b = 32 ->
  let cs := [m1; m2; H x ++ b] in
  let root := H (H (H m1 ++ H m2) ++ H (H x ++ b)) in
  merkle H cs root /\ s_calculate H (SProof [SNode (levelOf 2) 2 (H (H m1 ++ H m2))] [x] [SNode (levelOf 0) 0 b]) = Some (root, 3) /\
  (x <> m1 -> x <> m2 -> x <> H x ++ b -> ~ In x cs).
Proof.
  intros H m1 m2 x b D L. cbv zeta. split; [|split].
  - change [m1; m2; H x ++ b] with ([m1; m2] ++ [H x ++ b]). apply (mk_split H _ _ 1); [lia|reflexivity|cbn; lia| |constructor].
    change [m1; m2] with ([m1] ++ [m2]). apply (mk_split H _ _ 0); [lia|reflexivity|cbn; lia|constructor|constructor].
  - vm_compute. reflexivity.
  - intros A1 A2 A3 [I|[I|[I|[]]]]; congruence.
Qed.
Print Assumptions C64_zero_sized_node_refuted.

(** The ring buffer is a queue: however pushes and pops alternate, it does what a list of bounded length does. *)
Inductive qop := Push (x : snode) | Pop.
Fixpoint ring (q : squeue) (ops : list qop) : option (list snode) :=
  match ops with
  | [] => Some []
  | Push x :: r => sbind (q_push q x) (fun q' => ring q' r)
  | Pop :: r => sbind (q_pop q) (fun y => sbind (ring (snd y) r) (fun out => Some (fst y :: out)))
  end.
Fixpoint fifo (n : nat) (l : list snode) (ops : list qop) : option (list snode) :=
  match ops with
  | [] => Some []
  | Push x :: r => if (length l <? n)%nat then fifo n (l ++ [x]) r else None
  | Pop :: r => match l with [] => None | x :: l' => match fifo n l' r with Some out => Some (x :: out) | None => None end end
  end.
Theorem C64_ring_is_queue : forall n d ops, ring (SQueue 0 0 0 (repeat d n)) ops = fifo n [] ops.
Proof.
  intros n d ops. assert (G : forall ops q l, qrep q l -> length (q_nodes q) = n -> ring q ops = fifo n l ops).
  { clear ops. induction ops as [|[x|] ops IH]; intros q l R L; cbn [ring fifo]; [reflexivity| |].
    - destruct (length l <? n)%nat eqn:E.
      + destruct (push_rep q l x R ltac:(lia)) as (q' & -> & R' & L'). cbn [sbind]. apply IH; [exact R'|congruence].
      + unfold q_push. destruct R as (R1 & _). rewrite R1, L, E. reflexivity.
    - destruct l as [|x l]; [rewrite pop_empty by assumption; reflexivity|]. destruct (pop_rep q l x R) as (q' & -> & R' & L'). cbn [sbind fst snd]. rewrite (IH q' l R') by congruence. destruct (fifo n l ops); reflexivity. }
  apply G; [|cbn; apply repeat_length]. unfold qrep. cbn [q_front q_rear q_len q_nodes length]. destruct n as [|n]; cbn [repeat length].
  - repeat split; try lia; intros i Hi; lia.
  - repeat split; try lia. unfold ix. cbn [q_front q_nodes plus]. symmetry. apply Nat.mod_0_l. discriminate.
Qed.
Print Assumptions C64_ring_is_queue.

(** The level of a node is one more than the number of halvings down to a single leaf. *)
Theorem C64_level_smallest : forall n, 1 <= n < 2 ^ 256 -> 1 <= levelOf n /\ n <= 2 ^ (levelOf n - 1) /\ (forall k, 0 <= k -> n <= 2 ^ k -> levelOf n <= k + 1).
Proof.
  intros n R. unfold levelOf. rewrite Z.mod_small by lia. rewrite level_loop_spec by (change (Z.of_nat 256) with 256; lia). destruct (n - 1 =? 0) eqn:E.
  - assert (n = 1) by lia. subst. repeat split; try lia. 
  - pose proof (Z.log2_spec (n - 1) ltac:(lia)) as [A B]. pose proof (Z.log2_nonneg (n - 1)). replace (Z.log2 (n - 1) + 1 + 1 - 1) with (Z.succ (Z.log2 (n - 1))) by lia. repeat split; try lia.
    intros k Hk Hn. assert (Z.log2 (n - 1) < k); [|lia]. apply Z.log2_lt_pow2; lia.
Qed.
Print Assumptions C64_level_smallest.
(** For no leaves at all it is 257 and the node never merges as a left one. *)
Example C64_ex_level : map levelOf [0; 1; 2; 3; 4; 5; 2 ^ 255; 2 ^ 255 + 1] = [257; 1; 2; 3; 3; 4; 256; 257].
Proof. vm_compute. reflexivity. Qed.

Definition ex_sproof (l : list (list Z)) (b e : Z) : sproof :=
  match NewMerkleBinaryTree toy32 (map Some l) with Ok t => match mbt_Proof t b e with Ok m => of_proof m | _ => SProof [] [] [] end | _ => SProof [] [] [] end.
Example C64_ex : s_calculate toy32 (ex_sproof ex_msgs 3 4) = sbind (ex_root ex_msgs) (fun r => Some (r, 5)) /\ sp_mesgs (ex_sproof ex_msgs 3 4) = [[3]; [4]] /\
  map sn_count (sp_lefts (ex_sproof ex_msgs 3 4)) = [2] /\ map sn_count (sp_rights (ex_sproof ex_msgs 3 4)) = [1].
Proof. vm_compute. repeat split. Qed.
Example C64_ex_queue : ring (SQueue 0 0 0 (repeat (SNode 0 0 []) 2)) [Push (SNode 1 1 [1]); Push (SNode 1 1 [2]); Pop; Push (SNode 1 1 [3]); Pop; Pop] = Some [SNode 1 1 [1]; SNode 1 1 [2]; SNode 1 1 [3]].
Proof. reflexivity. Qed.

(** ** C65 *)
(** An accepted block update continues the known block and was signed, for exactly this header, from more than two
    thirds of the places in the list of validators. *)
Theorem C65_update_needs_quorum : forall H junk ecrecover k db rem b h sigs db' rem', hash32 H -> (forall x, mem_ok (junk x)) -> bytes_ok b ->
  bytes_ok (k_src k) -> zlen (k_src k) < 2 ^ 60 -> k_src k <> [128] -> 0 <= k_ntid k ->
  decodeBlockUpdate junk b = Some (h, sigs) -> s_update H ecrecover k db rem h sigs = Some (db', rem') ->
  squorum ecrecover (d_vals db) (dec_hash H (k_src k) (k_ntid k) (sh_height h) (sh_round h) (Some (sh_ctx h)) (s_pathRoot H (H (ns_enc (s_section h))) (sh_path h))) /\
  sh_nid h = k_nid k /\ sh_prev h = d_hash db /\ sh_sn h = d_next db /\ rem = 0 /\ d_hash db' = H (ns_enc (s_section h)) /\ d_next db' = d_next db.
Proof.
  intros * HH J B S1 S2 S3 N E U. pose proof (update_decoded junk J b h sigs B E) as O. apply update_steps in U as (U1 & U2 & U3 & U4 & (d & Ud & Uq) & ns & U5 & U6 & U7 & U8 & _).
  apply decision_hash in Ud; try assumption. subst d. apply section_hash in U5; [|assumption]. repeat split; auto; congruence.
Qed.
Print Assumptions C65_update_needs_quorum.

(** The path leads to a section of the tree whose root was signed; so if the validators sign genuine blocks only, the
    header describes this network's section of one of them. *)
Theorem C65_header_is_signed : forall H junk ecrecover k db rem b h sigs db' rem' bs, hash32 H -> (forall x, mem_ok (junk x)) -> bytes_ok b ->
  bytes_ok (k_src k) -> zlen (k_src k) < 2 ^ 60 -> k_src k <> [128] -> 0 <= k_ntid k ->
  (forall g, In g bs -> short (rlp_write (nts_items (Some (H (gb_ctx g))) (nst_root H (gb_tree g)))) /\
     short (rlp_write (dec_items (k_src k) (k_ntid k) (gb_height g) (gb_round g) (H (rlp_write (nts_items (Some (H (gb_ctx g))) (nst_root H (gb_tree g))))))) /\
     forall s, in_tree s (gb_tree g) -> short (ns_enc s) /\ rlp_ok (ns_items s)) ->
  (forall d, squorum ecrecover (d_vals db) d -> exists g, In g bs /\ d = gb_decision H (k_src k) (k_ntid k) g) ->
  decodeBlockUpdate junk b = Some (h, sigs) -> s_update H ecrecover k db rem h sigs = Some (db', rem') ->
  (exists g, In g bs /\ in_tree (s_section h) (gb_tree g) /\ sh_ctx h = H (gb_ctx g) /\ sh_height h = gb_height g /\ sh_round h = gb_round g) \/ collision H \/ confusion H.
Proof.
  intros * HH J B S1 S2 S3 N Hbs Hq E U. pose proof (update_decoded junk J b h sigs B E) as O.
  destruct (C65_update_needs_quorum _ _ _ _ _ _ _ _ _ _ _ HH J B S1 S2 S3 N E U) as (Q & _). destruct (Hq _ Q) as (g & Ig & Eg). destruct (Hbs g Ig) as (L1 & L2 & L3).
  pose proof O as (O1 & O2 & O3 & O4 & O5 & O6 & O7 & O8 & O9). unfold gb_decision in Eg.
  destruct (pathRoot_digest H (sh_path h) (H (ns_enc (s_section h))) ltac:(eauto)) as (px & Ex).
  apply decision_commits in Eg; auto.
  2:{ cbn. apply O3. }
  2:{ cbn. apply HH. }
  2:{ rewrite Ex. apply HH. }
  2:{ destruct (nst_root_hash H (gb_tree g)) as [x ->]. apply HH. }
  destruct Eg as [(E1 & E2 & E3 & E4)|C]; [|auto]. injection E3 as E3. apply path_commits in E4; try assumption. destruct E4 as [(s & I & Es)|C]; [|auto]. destruct (L3 s I) as [L4 L5].
  apply ns_inj in Es; auto; [|apply ns_ok; cbn [s_section s_prev s_root]; apply opt32_ok; assumption]. left. exists g. rewrite Es. auto.
Qed.
Print Assumptions C65_header_is_signed.

(** Signatures of 65 bytes, not more of them than validators: accepted exactly if more than two thirds of the places match. *)
Definition recovered (ecrecover : list Z -> Z -> list Z -> list Z -> Z) (d sig : list Z) : Z := ecrecover d (nth 64 sig 0 + 27) (firstn 32 sig) (firstn 32 (skipn 32 sig)).
Definition matches (ecrecover : list Z -> Z -> list Z -> list Z -> Z) (d : list Z) (vals : list Z) (sigs : list (list Z)) : Z :=
  zlen (filter (fun x => recovered ecrecover d (fst x) =? snd x) (combine sigs vals)).
Definition whole_sig (s : list Z) : Prop := zlen s = 65 /\ nth 64 s 0 + 27 < 256.

Lemma recoverSigner_whole : forall ecrecover d s, whole_sig s -> recoverSigner ecrecover d s = Some (recovered ecrecover d s).
Proof.
  intros ecrecover d s [L V]. unfold recoverSigner. replace (zlen s =? 65) with true by lia. cbn [require sbind]. unfold at_index. rewrite (nth_error_nth' s 0) by (unfold zlen in L; lia). cbn [sbind].
  replace (nth 64 s 0 + 27 <? 256) with true by lia. reflexivity.
Qed.
Lemma count_whole : forall ecrecover d all sigs vals i votes, Forall whole_sig sigs -> (length sigs <= length vals)%nat -> vals = skipn i all ->
  exists out, count_signers ecrecover d all i votes sigs = Some out /\ hasQuorumOf (zlen all) out = hasQuorumOf (zlen all) (votes + matches ecrecover d vals sigs) /\ 0 <= matches ecrecover d vals sigs.
Proof.
  intros ecrecover d all. induction sigs as [|s sigs IH]; intros vals i votes F L E; cbn [count_signers].
  - exists votes. unfold matches. cbn [combine filter]. change (zlen (@nil (list Z * Z))) with 0. rewrite Z.add_0_r. repeat split. lia.
  - destruct vals as [|v vals]; [cbn in L; lia|]. pose proof (Forall_inv F) as F1. pose proof (Forall_inv_tail F) as F2. cbn [length] in L.
    assert (Ev : nth_error all i = Some v /\ vals = skipn (S i) all).
    { clear - E. revert i E. induction all as [|a all IH]; intros [|i] E; cbn [skipn nth_error] in *; try discriminate; [injection E as -> ->; auto|]. apply IH. exact E. }
    destruct Ev as [Ev Es]. rewrite recoverSigner_whole by assumption. cbn [sbind]. unfold at_index. rewrite Ev. cbn [sbind].
    assert (M : matches ecrecover d (v :: vals) (s :: sigs) = (if recovered ecrecover d s =? v then 1 else 0) + matches ecrecover d vals sigs).
    { unfold matches. cbn [combine filter fst snd]. destruct (_ =? v); [rewrite zlen_cons|]; lia. }
    destruct (IH vals (S i) (if recovered ecrecover d s =? v then votes + 1 else votes) F2 ltac:(lia) Es) as (out & E1 & E2 & E3). rewrite M.
    destruct (hasQuorumOf (zlen all) votes) eqn:Q.
    + exists votes. split; [reflexivity|]. unfold hasQuorumOf in *. split; destruct (_ =? v); lia.
    + exists out. split; [exact E1|]. rewrite E2. split; [f_equal|]; destruct (_ =? v); lia.
Qed.
Theorem C65_votes_counted : forall H ecrecover src ntid h sigs vals d, Forall whole_sig sigs -> (length sigs <= length vals)%nat -> s_decision H src ntid h = Some d ->
  (checkBlockProof H ecrecover src ntid h sigs vals = Some tt <-> 2 * zlen vals < 3 * matches ecrecover d vals sigs).
Proof.
  intros H ecrecover src ntid h sigs vals d F L E. unfold checkBlockProof. rewrite E. cbn [sbind]. destruct (count_whole ecrecover d vals sigs vals 0 0 F L eq_refl) as (out & -> & E2 & _). cbn [sbind]. rewrite E2, Z.add_0_l.
  unfold hasQuorumOf, require. destruct (_ <? _) eqn:Q; split; intros X; try reflexivity; try discriminate; lia.
Qed.
Print Assumptions C65_votes_counted.

(** A genuine header with enough signatures, in the order of the validators, is accepted. *)
Theorem C65_genuine_update_accepted : forall H junk ecrecover k db b h sigs, hash32 H -> (forall x, mem_ok (junk x)) -> bytes_ok b ->
  bytes_ok (k_src k) -> zlen (k_src k) < 2 ^ 60 -> k_src k <> [128] -> 0 <= k_ntid k < 2 ^ 128 - 1 ->
  decodeBlockUpdate junk b = Some (h, sigs) ->
  sh_height h < 2 ^ 128 - 1 -> sh_round h < 2 ^ 128 - 1 -> sh_nid h < 2 ^ 128 - 1 -> 2 * sh_sn h + 1 < 2 ^ 128 - 1 -> sh_cnt h < 2 ^ 128 - 1 ->
  sh_nid h = k_nid k -> sh_prev h = d_hash db -> sh_sn h = d_next db -> d_next db = d_first db + d_cnt db ->
  Forall whole_sig sigs -> (length sigs <= length (d_vals db))%nat ->
  2 * zlen (d_vals db) < 3 * matches ecrecover (dec_hash H (k_src k) (k_ntid k) (sh_height h) (sh_round h) (Some (sh_ctx h)) (s_pathRoot H (H (ns_enc (s_section h))) (sh_path h))) (d_vals db) sigs ->
  exists db' rem', s_update H ecrecover k db 0 h sigs = Some (db', rem') /\ d_hash db' = H (ns_enc (s_section h)) /\ d_next db' = d_next db /\ d_height db' = sh_height h /\
    d_vals db' = (if sh_upd h then sh_vals h else d_vals db) /\ (sh_root h <> repeat 0 32 -> d_root db' = sh_root h /\ d_cnt db' = sh_cnt h /\ d_first db' = sh_sn h /\ rem' = sh_cnt h) /\
    (sh_root h = repeat 0 32 -> d_root db' = d_root db /\ d_cnt db' = d_cnt db /\ d_first db' = d_first db /\ rem' = 0).
Proof.
  intros * HH J B S1 S2 S3 N E B1 B2 B3 B4 B5 P1 P2 P3 P4 F L Q. pose proof (update_decoded junk J b h sigs B E) as O. pose proof O as (O1 & O2 & _ & _ & O5 & O6 & _ & O8 & _).
  pose proof (section_hash_ok H h O B3 B4 B5) as Es.
  assert (Ed : exists d, s_decision H (k_src k) (k_ntid k) h = Some d) by (unfold s_decision; rewrite !uint_ok by lia; cbn [sbind]; rewrite Es; cbn [sbind]; eauto).
  destruct Ed as (d & Ed). pose proof (decision_hash H HH _ _ _ _ O S1 S2 S3 (proj1 N) Ed) as ED. rewrite <- ED in Q.
  assert (C : checkBlockProof H ecrecover (k_src k) (k_ntid k) h sigs (d_vals db) = Some tt) by (apply (C65_votes_counted H ecrecover _ _ _ _ _ d); assumption).
  unfold s_update, checkMessageSn. rewrite P1, P2, P3, C, Es, bytes_eqb_refl, !Z.eqb_refl. cbn [require sbind]. change zero32 with (repeat 0 32).
  destruct (bytes_eqb (sh_root h) (repeat 0 32)) eqn:Z0.
  - apply bytes_eqb_eq in Z0. do 2 eexists. split; [reflexivity|]. cbn [d_hash d_vals d_next d_height d_root d_cnt d_first]. repeat split; contradiction.
  - unfold cadd. replace (d_first db + d_cnt db <? 2 ^ 256) with true by (pose proof (Z.pow_lt_mono_r 2 255 256); lia). cbn [sbind]. rewrite P4, Z.eqb_refl. cbn [require sbind].
    do 2 eexists. split; [reflexivity|]. cbn [d_hash d_vals d_next d_height d_root d_cnt d_first]. assert (Zn : sh_root h <> repeat 0 32) by (intros X; rewrite X, bytes_eqb_refl in Z0; discriminate). repeat split; try lia; contradiction.
Qed.
Print Assumptions C65_genuine_update_accepted.

(** FINDING: a validator that did not sign, among the first two thirds, makes the update fail whoever else signed. *)
Lemma count_stuck : forall ecrecover d vals l1 s l2 i votes, zlen s <> 65 -> 3 * (votes + zlen l1) <= 2 * zlen vals -> count_signers ecrecover d vals i votes (l1 ++ s :: l2) = None.
Proof.
  intros ecrecover d vals. induction l1 as [|x l1 IH]; intros s l2 i votes N B; cbn [app count_signers].
  - change (zlen (@nil (list Z))) with 0 in B. unfold hasQuorumOf. replace (zlen vals * 2 <? votes * 3) with false by lia. unfold recoverSigner. replace (zlen s =? 65) with false by lia. reflexivity.
  - rewrite zlen_cons in B. pose proof (zlen_nonneg _ l1). unfold hasQuorumOf. replace (zlen vals * 2 <? votes * 3) with false by lia. destruct (recoverSigner ecrecover d x) as [a|]; [|reflexivity]. cbn [sbind].
    destruct (at_index vals i) as [v|]; [|reflexivity]. cbn [sbind]. apply IH; [assumption|]. destruct (a =? v); lia.
Qed.
Theorem C65_missing_signature_refuted : forall H ecrecover k db rem h l1 s l2, zlen s <> 65 -> 3 * zlen l1 <= 2 * zlen (d_vals db) -> s_update H ecrecover k db rem h (l1 ++ s :: l2) = None.
Proof.
  intros H ecrecover k db rem h l1 s l2 N B. destruct (s_update H ecrecover k db rem h (l1 ++ s :: l2)) as [x|] eqn:E; [exfalso|reflexivity].
  unfold s_update in E. sreq E E1. sreq E E2. sreq E E3. sb E u E4. sb E u2 E5. unfold checkBlockProof in E5. sb E5 d E6. sb E5 v E7. rewrite count_stuck in E7 by (assumption || lia). discriminate.
Qed.
Print Assumptions C65_missing_signature_refuted.

(** FINDING: the new validators of an update are not checked against anything signed: with the same signatures any other
    list of validators is taken. *)
Theorem C65_validators_not_committed_refuted : forall H ecrecover k db rem h sigs db' rem' vals, s_update H ecrecover k db rem h sigs = Some (db', rem') -> sh_upd h = true ->
  s_update H ecrecover k db rem (SHeader (sh_height h) (sh_round h) (sh_ctx h) (sh_path h) (sh_nid h) (sh_sn h) (sh_upd h) (sh_prev h) (sh_cnt h) (sh_root h) vals) sigs =
    Some (SDb (d_hash db') (d_root db') (d_height db') (d_cnt db') (d_first db') (d_next db') vals, rem').
Proof.
  intros * E U. unfold s_update in *. cbn [sh_nid sh_prev sh_sn sh_upd sh_vals sh_root sh_height sh_cnt] in *.
  change (checkBlockProof H ecrecover (k_src k) (k_ntid k) (SHeader _ _ _ _ _ _ _ _ _ _ _) sigs (d_vals db)) with (checkBlockProof H ecrecover (k_src k) (k_ntid k) h sigs (d_vals db)).
  change (s_sectionHash H (SHeader _ _ _ _ _ _ _ _ _ _ _)) with (s_sectionHash H h).
  sb E x1 E1. sb E x2 E2. sb E x3 E3. sb E x E4. sb E y E5. sb E z E6. rewrite U in *. cbn [sbind]. cbv zeta in *.
  destruct (bytes_eqb (sh_root h) zero32); [injection E as <- <-; reflexivity|]. sb E w E7. sb E v E8. injection E as <- <-. cbn [sbind]. rewrite E8. reflexivity.
Qed.
Print Assumptions C65_validators_not_committed_refuted.
