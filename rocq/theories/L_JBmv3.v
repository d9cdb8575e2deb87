(** Lemmas for the Java BTP block verifier: it follows the chain block by block. *)
From Coq Require Import String Ascii ZArith List Bool Lia.
From Coq Require Import ZifyBool.
From Verif Require Import Base L_Base M_IntConv M_Rlp S_Rlp M_Mbt S_Mbt T_Mbt M_JBmv S_JBmv L_JBmv L_JBmv2.
Import ListNotations.
Open Scope Z_scope.

Lemma check_some : forall b u, check b = Some u -> b = true.
Proof. intros [] u E; [reflexivity|discriminate]. Qed.
Lemma opt_eqb_eq : forall a b, opt_eqb a b = true <-> a = b.
Proof.
  intros [a|] [b|]; cbn [opt_eqb]; split; intros E; try discriminate; try reflexivity.
  - apply bytes_eqb_eq in E. congruence.
  - injection E as ->. apply bytes_eqb_refl.
Qed.

Ltac ob E := match type of E with obind ?x _ = Some _ => let F := fresh "F" in destruct x eqn:F; cbn [obind] in E; [|discriminate E] end.

Ltac obn E x F := match type of E with obind ?o _ = Some _ => destruct o as [x|] eqn:F; cbn [obind] in E; [|discriminate E] end.

Definition header_section (h : header) : nsection := NS (hd_nid h) (hd_upd h) (hd_prev h) (hd_cnt h) (hd_root h).

Lemma bu_inv : forall H recover p h sigs p', handleBlockUpdate H recover p h sigs = Some p' ->
  p_first p + p_cnt p - p_offset p = Z.shiftr (hd_upd h) 1 /\ remain p = 0 /\ p_nid p = hd_nid h /\ p_nsHash p = hd_prev h /\
  (exists root d sg, getNetworkSectionsRoot H (H (ns_enc (header_section h))) (hd_path h) = Some root /\
     d = dec_hash H (p_src p) (p_ntid p) (i64 (hd_height h)) (jint (hd_round h)) (hd_nextCtxHash h) root /\ sigs = Some sg /\ verifyProof H recover p d sg = Some tt) /\
  (if Z.odd (hd_upd h) then p_ctxHash p <> hd_nextCtxHash h /\ exists ctx, hd_nextCtx h = Some ctx /\ hd_nextCtxHash h = Some (H ctx) /\ p_ctxHash p' = Some (H ctx) /\ p_ctx p' = Some ctx
   else p_ctxHash p' = p_ctxHash p /\ p_ctx p' = p_ctx p) /\
  p_src p' = p_src p /\ p_ntid p' = p_ntid p /\ p_nid p' = p_nid p /\ p_nsHash p' = Some (H (ns_enc (header_section h))) /\ p_bmc p' = p_bmc p /\
  p_lastSeq p' = p_lastSeq p /\ p_root p' = hd_root h /\ p_cnt p' = hd_cnt h /\ p_first p' = Z.shiftr (hd_upd h) 1 /\ p_height p' = hd_height h /\ p_offset p' = p_offset p.
Proof.
  intros H recover p h sigs p' E. unfold handleBlockUpdate in E.
  ob E. ob E. ob E. ob E. ob E. ob E. ob E. ob E. destruct u3. destruct p0 as [c1 c2]. cbn [fst snd] in E. injection E as <-.
  apply check_some in F, F0, F1, F2. unfold firstMessageSn in *. apply opt_eqb_eq in F2.
  unfold decision_hash in F3. ob F3. injection F3 as <-.
  split; [lia|]. split; [lia|]. split; [lia|]. split; [assumption|]. split.
  { exists l1, (dec_hash H (p_src p) (p_ntid p) (i64 (hd_height h)) (jint (hd_round h)) (hd_nextCtxHash h) l1), l0. auto. }
  split; [|cbn [p_src p_ntid p_nid p_nsHash p_bmc p_lastSeq p_root p_cnt p_first p_height p_offset]; repeat split; reflexivity].
  cbn [p_ctxHash p_ctx]. change 1 with (Z.ones 1) in F6 at 1. rewrite (Z.land_ones (hd_upd h) 1) in F6 by lia. change (2 ^ 1) with 2 in F6. rewrite Zmod_odd in F6. destruct (Z.odd (hd_upd h)).
  - change (1 =? 1) with true in F6. cbv iota in F6. obn F6 w1 G1. obn F6 ctx G2. obn F6 w2 G3. apply check_some in G1, G3. injection F6 as <- <-. apply opt_eqb_eq in G3. split.
    + intros Hc. rewrite (proj2 (opt_eqb_eq _ _) Hc) in G1. discriminate.
    + exists ctx. rewrite <- G3. auto.
  - change (0 =? 1) with false in F6. cbv iota in F6. injection F6 as <- <-. auto.
Qed.

Lemma mp_inv : forall H p m bu p' out, handleMessageProof H p m bu = Some (p', out) ->
  exists hash offset total, proveMessage H m = Some (hash, offset, total) /\ 0 < remain p /\ processed p = offset /\ out = p_contents m /\
    match bu with Some h => offset <= 0 /\ jint (hd_cnt h) = total /\ hash = hd_root h | None => jint (p_cnt p) = total /\ hash = p_root p end /\
    p' = mkProps (p_src p) (p_ntid p) (p_nid p) (p_ctxHash p) (p_ctx p) (p_nsHash p) (p_bmc p) (p_lastSeq p + zlen (p_contents m))
                (if jint (total - offset - zlen (p_contents m)) =? 0 then None else p_root p) (p_cnt p) (p_first p) (p_height p) (p_offset p).
Proof.
  intros H p m bu p' out E. unfold handleMessageProof in E. ob E. ob E. destruct p0 as [[hash offset] total]. ob E. ob E. destruct p0 as [r c]. cbn [fst snd] in E. ob E. ob E.
  injection E as <- <-. apply check_some in F, F1, F3, F4. apply opt_eqb_eq in F4. exists hash, offset, total. split; [reflexivity|]. split; [lia|]. split; [lia|]. split; [reflexivity|].
  split; [|reflexivity]. destruct bu as [h|]; ob F2; apply check_some in F5; injection F2 as <- <-; repeat split; try assumption; lia.
Qed.

(** Hypotheses on relay messages: strings are bytes, proof nodes count at least one leaf each. *)
Definition header_ok (h : header) : Prop := opt_ok (hd_prev h) /\ opt_ok (hd_root h) /\ opt_ok (hd_nextCtxHash h).
Definition proof_ok (m : jproof) : Prop :=
  Forall (fun x => 1 <= p_num x) (p_left m ++ p_right m) /\ zsum (claimed_sizes m) < 2 ^ 31.
Definition item_ok (it : item) : Prop := match it with BlockUpdate_ h _ => header_ok h | MessageProof_ m => proof_ok m | Undecodable => True end.

Lemma claimed_nsum : forall m, zsum (claimed_sizes m) = nsum (map un (p_left m ++ p_right m)) + zlen (p_contents m).
Proof.
  intros [L C R]. unfold claimed_sizes. cbn [p_left p_contents p_right].
  assert (A : forall a b, zsum (a ++ b) = zsum a + zsum b) by (unfold zsum; induction a; intros; cbn [app fold_right]; [reflexivity|]; rewrite IHa; lia).
  assert (B : forall l, zsum (map p_num l) = nsum (map un l)) by (unfold zsum, nsum; induction l as [|x l IH]; cbn [map fold_right]; [reflexivity|]; rewrite IH; reflexivity).
  rewrite !A, map_app, nsum_app, !B. assert (D : zsum (map (fun _ => 1) C) = zlen C).
  { unfold zsum. induction C as [|c C IH]; [reflexivity|]. cbn [map fold_right]. rewrite IH, zlen_cons. lia. }
  rewrite D. lia.
Qed.

Lemma claimed_pos : forall m, Forall (fun x => 1 <= p_num x) (p_left m ++ p_right m) -> Forall (fun s => 1 <= s) (claimed_sizes m).
Proof.
  intros [L C R] F. unfold claimed_sizes. cbn [p_left p_contents p_right] in *. apply Forall_app in F as [F1 F2].
  rewrite !Forall_app. repeat split; apply Forall_map; auto. apply Forall_forall. intros; lia.
Qed.

(** Accepted proofs with positive sizes are proofs in the sense of common/mbt. *)
Lemma prove_sound : forall H m root offset total cs, digest_size H 32 -> proof_ok m -> proveMessage H m = Some (Some root, offset, total) ->
  merkle H cs root -> total = zlen cs -> sublist_at cs offset (p_contents m) \/ collision H.
Proof.
  intros H m root offset total cs D [F S] E M T.
  assert (N : p_left m ++ map (fun c => {| p_num := 1; p_value := H c |}) (p_contents m) ++ p_right m <> []).
  { intros N. apply app_eq_nil in N as [N1 N2]. apply app_eq_nil in N2 as [N2 N3]. apply map_eq_nil in N2. destruct m as [L C R]. cbn in N1, N2, N3. subst. discriminate. }
  pose proof (prove_same H m F ltac:(rewrite <- claimed_nsum; lia) N) as P.
  destruct (proof_Root H m) as [[[[h lft] tot] []]| |] eqn:R; rewrite P in E; try discriminate. injection E as -> -> ->.
  eapply C17_accepted_contents_are_genuine; eauto; [apply claimed_pos; assumption|lia].
Qed.

Section Chain.
Variable H : list Z -> list Z.
Variable recover : list Z -> list Z -> option (list Z).
Variables (src : list Z) (ntid nid : Z) (ctx0 : list Z) (bs0 : list gblock).
Hypothesis HH : hash32 H.
Hypothesis Hsrc : bytes_ok src.
Hypothesis Hist : history H nid None ctx0 0 bs0.
Hypothesis Hdec : forall b, In b bs0 -> short (rlp_write (nts_items (Some (H (gb_ctx b))) (nst_root H (gb_tree b)))) /\
  short (rlp_write (dec_items src ntid (gb_height b) (gb_round b) (H (rlp_write (nts_items (Some (H (gb_ctx b))) (nst_root H (gb_tree b))))))).
Hypothesis Honest : forall b vs d, In b bs0 -> ctx_validators (Some (gb_ctx b)) = Some vs -> quorum H recover vs d ->
  exists b', In b' bs0 /\ d = gb_decision H src ntid b'.

Inductive pos : nat -> option (list Z) -> list Z -> Z -> list (list Z) -> list gblock -> Prop :=
| pos_0 : pos 0 None ctx0 0 [] bs0
| pos_S : forall i prev ctx sn done b rest, pos i prev ctx sn done (b :: rest) ->
    pos (S i) (Some (H (ns_enc (gb_section nid prev sn b)))) (gb_ctx b) (sn + zlen (gb_msgs b)) (done ++ gb_msgs b) rest.

Lemma pos_hist : forall i prev ctx sn done rest, pos i prev ctx sn done rest -> history H nid prev ctx sn rest.
Proof. induction 1; [exact Hist|]. inversion IHpos; subst. assumption. Qed.
Lemma pos_done : forall i prev ctx sn done rest, pos i prev ctx sn done rest -> done ++ messages rest = messages bs0 /\ zlen done = sn.
Proof.
  induction 1; [split; reflexivity|]. destruct IHpos as [A B]. rewrite <- app_assoc, zlen_app. split; [exact A|lia].
Qed.
Lemma pos_suffix : forall i prev ctx sn done rest, pos i prev ctx sn done rest -> exists pre, bs0 = pre ++ rest /\ length pre = i.
Proof.
  induction 1; [exists []; auto|]. destruct IHpos as (pre & E & L). exists (pre ++ [b]). rewrite <- app_assoc, app_length. cbn [app length]. split; [exact E|lia].
Qed.
Lemma pos_In : forall i prev ctx sn done b rest, pos i prev ctx sn done (b :: rest) -> In b bs0.
Proof. intros * P. apply pos_suffix in P as (pre & E & _). rewrite E. apply in_or_app. right. left. reflexivity. Qed.
Lemma pos_at : forall b, In b bs0 -> exists i prev ctx sn done rest, pos i prev ctx sn done (b :: rest).
Proof.
  intros b Hb. apply in_split in Hb as (pre & post & E).
  assert (G : forall pre post, bs0 = pre ++ post -> exists prev ctx sn done, pos (length pre) prev ctx sn done post).
  { intros pre'. induction pre' as [|x pre' IH] using rev_ind; intros post' E'.
    - cbn [app] in E'. subst. repeat eexists. constructor.
    - rewrite <- app_assoc in E'. destruct (IH _ E') as (prev & ctx & sn & done & P). cbn [app] in P. apply pos_S in P. rewrite app_length. cbn [length].
      replace (length pre' + 1)%nat with (S (length pre')) by lia. repeat eexists. exact P. }
  destruct (G _ _ E) as (prev & ctx & sn & done & P). repeat eexists. exact P.
Qed.
Lemma pos_det : forall i prev ctx sn done rest, pos i prev ctx sn done rest -> forall prev' ctx' sn' done' rest',
  pos i prev' ctx' sn' done' rest' -> prev = prev' /\ ctx = ctx' /\ sn = sn' /\ done = done' /\ rest = rest'.
Proof.
  induction 1; intros * P'; inversion P'; subst; [repeat split|]. edestruct IHpos as (-> & -> & -> & -> & E); [eassumption|]. injection E as -> ->. repeat split.
Qed.

Lemma pos_section : forall i prev ctx sn done b rest, pos i prev ctx sn done (b :: rest) ->
  let s := gb_section nid prev sn b in in_tree s (gb_tree b) /\ short (ns_enc s) /\ rlp_ok (ns_items s) /\ root_of H (gb_msgs b) (gb_root b) /\ zlen (gb_msgs b) < 2 ^ 31.
Proof. intros * P. apply pos_hist in P. inversion P as [|? ? ? ? ? h1 h2 h3 h4 h5 h6]; subst. cbv zeta. destruct (h5 _ h4) as (A & B & _). auto. Qed.

Lemma section_unique : forall i prev ctx sn done b rest, pos i prev ctx sn done (b :: rest) ->
  forall j prev' ctx' sn' done' b' rest', pos j prev' ctx' sn' done' (b' :: rest') ->
  gb_section nid prev sn b = gb_section nid prev' sn' b' -> i = j \/ collision H.
Proof.
  induction i as [|i IH]; intros * P * P' E.
  - inversion P; subst. inversion P'; subst; [auto|]. discriminate.
  - inversion P as [|i0 q1 q2 q3 q4 c q5 PP]; subst. inversion P' as [|i1 w1 w2 w3 w4 c' w5 PP']; subst; [discriminate|].
    assert (E' : H (ns_enc (gb_section nid q1 q3 c)) = H (ns_enc (gb_section nid w1 w3 c'))) by (unfold gb_section in *; congruence).
    apply hash_inj in E' as [E'|E']; [|auto].
    destruct (pos_section _ _ _ _ _ _ _ PP) as (_ & S1 & O1 & _). destruct (pos_section _ _ _ _ _ _ _ PP') as (_ & S2 & O2 & _).
    apply ns_inj in E'; auto. destruct (IH _ _ _ _ _ _ PP _ _ _ _ _ _ _ PP' E') as [->|C]; auto.
Qed.

(** A header signed by a quorum that follows block [i] is the header of block [i+1]. *)
Lemma next_block : forall i prev ctx sn done b rest h root d vs, pos i prev ctx sn done (b :: rest) -> header_ok h -> hd_nid h = nid ->
  hd_prev h = Some (H (ns_enc (gb_section nid prev sn b))) ->
  getNetworkSectionsRoot H (H (ns_enc (header_section h))) (hd_path h) = Some root ->
  d = dec_hash H src ntid (i64 (hd_height h)) (jint (hd_round h)) (hd_nextCtxHash h) root ->
  ctx_validators (Some (gb_ctx b)) = Some vs -> quorum H recover vs d ->
  (exists b' rest', rest = b' :: rest' /\ header_section h = gb_section nid (hd_prev h) (sn + zlen (gb_msgs b)) b' /\
     hd_nextCtxHash h = Some (H (gb_ctx b')) /\ i64 (hd_height h) = gb_height b' /\ jint (hd_round h) = gb_round b') \/ collision H \/ confusion H.
Proof.
  intros * P (O1 & O2 & O3) Hn Hp R -> V Q. destruct HH as [D B].
  destruct (Honest b vs _ (pos_In _ _ _ _ _ _ _ P) V Q) as (b2 & I2 & E). unfold gb_decision in E. destruct (Hdec b2 I2) as [L1 L2].
  pose proof (sections_root_spec _ _ _ _ (D _) R) as R'.
  apply decision_commits in E; auto.
  2:{ cbn. apply B. }
  2:{ destruct R' as [R'|(v & _ & [R'|R'])]; rewrite R'; apply B. }
  2:{ destruct (nst_root_hash H (gb_tree b2)) as [x ->]. apply B. }
  destruct E as [(E1 & E2 & E3 & E4)|C]; [|auto]. subst root.
  apply root_commits in R'; [|assumption]. destruct R' as [(s & I & E)|C]; [|auto].
  destruct (pos_at b2 I2) as (j & prev2 & ctx2 & sn2 & done2 & rest2 & P2).
  pose proof (pos_hist _ _ _ _ _ _ P2) as Hi. inversion Hi as [|? ? ? ? ? h1 h2 h3 h4 h5 h6]; subst.
  destruct (h5 s I) as (Ss & So & Sn).
  apply ns_inj in E; auto; [|apply ns_ok; cbn [header_section s_prev s_root]; assumption].
  assert (Es : s = gb_section nid prev2 sn2 b2) by (apply Sn; rewrite <- E; cbn [header_section s_nid]; exact Hn).
  rewrite Es in E. clear Sn Es Ss So.
  assert (Ep : prev2 = hd_prev h) by (unfold header_section, gb_section in E; congruence).
  inversion P2 as [|j0 q1 q2 q3 q4 c q5 PP]; subst; [rewrite Hp in *; discriminate|].
  rewrite Hp in *. assert (E' : H (ns_enc (gb_section nid q1 q3 c)) = H (ns_enc (gb_section nid prev sn b))) by congruence.
  apply hash_inj in E' as [E'|E']; [|auto].
  destruct (pos_section _ _ _ _ _ _ _ PP) as (_ & S1 & W1 & _). destruct (pos_section _ _ _ _ _ _ _ P) as (_ & S2 & W2 & _).
  apply ns_inj in E'; auto. destruct (section_unique _ _ _ _ _ _ _ PP _ _ _ _ _ _ _ P E') as [->|C]; [|auto].
  destruct (pos_det _ _ _ _ _ _ P _ _ _ _ _ PP) as (-> & -> & -> & -> & Eb). injection Eb as -> ->.
  left. exists b2, rest2. rewrite <- Hp in *. repeat split; auto.
Qed.

(** The verifier stands at block [b] with [k] of its messages delivered. *)
Definition stands (p : props) (prev : option (list Z)) (sn : Z) (b : gblock) (k : Z) : Prop :=
  p_src p = src /\ p_ntid p = ntid /\ p_nid p = nid /\ p_offset p = 0 /\ p_ctx p = Some (gb_ctx b) /\
  p_nsHash p = Some (H (ns_enc (gb_section nid prev sn b))) /\ p_cnt p = zlen (gb_msgs b) /\ p_first p = sn /\ p_lastSeq p = sn + k /\
  0 <= k <= zlen (gb_msgs b) /\ (k < zlen (gb_msgs b) -> p_root p = gb_root b).
Definition inv (p : props) (bu : option header) (dl : list (list Z)) : Prop :=
  exists i prev ctx sn done b rest k, pos i prev ctx sn done (b :: rest) /\ stands p prev sn b k /\
    (forall h, bu = Some h -> hd_root h = gb_root b /\ hd_cnt h = zlen (gb_msgs b)) /\ dl = done ++ firstn (Z.to_nat k) (gb_msgs b).

Lemma inv_prefix : forall p bu dl, inv p bu dl -> (exists rest, messages bs0 = dl ++ rest) /\ zlen dl = p_lastSeq p.
Proof.
  intros p bu dl (i & prev & ctx & sn & done & b & rest & k & P & S & _ & ->).
  destruct (pos_done _ _ _ _ _ _ P) as [<- E2]. unfold stands in S. destruct S as (_ & _ & _ & _ & _ & _ & _ & _ & E3 & E4 & _). split.
  - exists (skipn (Z.to_nat k) (gb_msgs b) ++ messages rest). unfold messages. cbn [map concat]. rewrite <- !app_assoc. f_equal. rewrite app_assoc, firstn_skipn. reflexivity.
  - rewrite zlen_app, E2, E3. unfold zlen in *. rewrite firstn_length. lia.
Qed.

Lemma inv_forget : forall p bu dl, inv p bu dl -> inv p None dl.
Proof.
  intros p bu dl (i & prev & ctx & sn & done & b & rest & k & P & S & _ & E). exists i, prev, ctx, sn, done, b, rest, k. repeat split; auto; try apply S; discriminate.
Qed.

Lemma update_inv : forall p bu dl h sigs p', inv p bu dl -> header_ok h -> handleBlockUpdate H recover p h sigs = Some p' ->
  inv p' (Some h) dl \/ collision H \/ confusion H.
Proof.
  intros p bu dl h sigs p' (i & prev & ctx & sn & done & b & rest & k & P & S & _ & E) O U.
  unfold stands in S. destruct S as (S1 & S2 & S3 & S4 & S5 & S6 & S7 & S8 & S9 & S10 & S11).
  apply bu_inv in U as (U1 & U2 & U3 & U4 & (root & d & sg & R & Ed & _ & V) & U5 & W).
  destruct W as (W1 & W2 & W3 & W4 & _ & W5 & W6 & W7 & W8 & _ & W9).
  unfold remain, processed in U2. assert (Ek : k = zlen (gb_msgs b)) by lia.
  apply verifyProof_quorum in V; [|apply HH]. destruct V as (vs & V1 & V2). rewrite S5 in V1. rewrite S1, S2 in Ed.
  destruct (next_block _ _ _ _ _ _ _ h root d vs P O) as [(b' & rest' & -> & N1 & N2 & _)|C]; try assumption; try congruence; auto.
  pose proof (pos_S _ _ _ _ _ _ _ P) as P'.
  pose proof (f_equal s_nid N1) as M1. pose proof (f_equal s_upd N1) as M2. pose proof (f_equal s_cnt N1) as M3. pose proof (f_equal s_root N1) as M4.
  cbn [header_section gb_section s_nid s_upd s_cnt s_root] in M1, M2, M3, M4.
  assert (Ho : Z.odd (hd_upd h) = gb_update b' /\ Z.shiftr (hd_upd h) 1 = sn + zlen (gb_msgs b)).
  { rewrite Z.shiftr_div_pow2 by lia. change (2 ^ 1) with 2. rewrite M2. split.
    - replace (2 * (sn + zlen (gb_msgs b)) + (if gb_update b' then 1 else 0)) with ((if gb_update b' then 1 else 0) + 2 * (sn + zlen (gb_msgs b))) by lia.
      rewrite Z.odd_add_mul_2. destruct (gb_update b'); reflexivity.
    - destruct (gb_update b'); Z.to_euclidean_division_equations; lia. }
  destruct Ho as [Ho Hf]. rewrite Ho in U5.
  assert (Ectx : p_ctx p' = Some (gb_ctx b') \/ collision H).
  { destruct (gb_update b') eqn:Eu.
    - destruct U5 as (_ & c & C1 & C2 & C3 & C4). rewrite C4. rewrite C2 in N2. injection N2 as N2. apply hash_inj in N2 as [->|C]; auto.
    - destruct U5 as [_ ->]. rewrite S5. apply pos_hist in P'. inversion P' as [|? ? ? ? ? h1 h2 h3 h4 h5 h6]; subst. rewrite h1 by assumption. auto. }
  destruct Ectx as [Ectx|C]; [|auto].
  left. do 3 eexists. exists (sn + zlen (gb_msgs b)). do 1 eexists. exists b', rest', 0. split; [exact P'|].
  rewrite <- S6, U4. split; [|split].
  - unfold stands. rewrite <- N1. pose proof (zlen_nonneg _ (gb_msgs b')). repeat split; try congruence; try lia.
  - intros h' Eh. injection Eh as <-. auto.
  - cbn [Z.to_nat firstn]. rewrite app_nil_r, E, Ek. f_equal. apply firstn_all2. unfold zlen. lia.
Qed.

Lemma firstn_sublist : forall (l a part c : list (list Z)) k, l = a ++ part ++ c -> zlen a = k ->
  firstn (Z.to_nat k) l ++ part = firstn (Z.to_nat (k + zlen part)) l.
Proof.
  intros l a part c k -> L. unfold zlen in *. replace (Z.to_nat k) with (length a) by lia. replace (Z.to_nat (k + Z.of_nat (length part))) with (length (a ++ part)) by (rewrite app_length; lia).
  rewrite app_assoc. rewrite (firstn_app (length (a ++ part))), Nat.sub_diag, firstn_all, firstn_O, app_nil_r. f_equal.
  rewrite <- app_assoc, firstn_app, Nat.sub_diag, firstn_all, firstn_O, app_nil_r. reflexivity.
Qed.

Lemma proof_inv : forall p bu dl m p' out, inv p bu dl -> proof_ok m -> handleMessageProof H p m bu = Some (p', out) ->
  inv p' bu (dl ++ out) \/ collision H.
Proof.
  intros p bu dl m p' out (i & prev & ctx & sn & done & b & rest & k & P & S & Hbu & E) O U.
  unfold stands in S. destruct S as (S1 & S2 & S3 & S4 & S5 & S6 & S7 & S8 & S9 & S10 & S11).
  apply mp_inv in U as (hash & offset & total & U1 & U2 & U3 & -> & U4 & ->). unfold remain, processed in U2, U3.
  destruct (pos_section _ _ _ _ _ _ _ P) as (_ & _ & _ & Hr & Hl). assert (Ek : offset = k) by lia. assert (k < zlen (gb_msgs b)) by lia.
  unfold root_of in Hr. destruct (gb_msgs b) as [|c0 cs] eqn:Em; [change (zlen (@nil (list Z))) with 0 in *; lia|]. rewrite <- Em in *. clear c0 cs Em. destruct Hr as (r & Er & Mr).
  assert (Eh : hash = Some r /\ total = zlen (gb_msgs b)).
  { destruct bu as [h|].
    - destruct U4 as (_ & U4 & U5). destruct (Hbu h eq_refl) as [B1 B2]. rewrite B2, jint_id in U4 by lia. split; [congruence|lia].
    - destruct U4 as (U4 & U5). rewrite S7, jint_id in U4 by lia. rewrite S11 in U5 by lia. split; [congruence|lia]. }
  destruct Eh as [-> ->].
  destruct (prove_sound H m r offset _ _ (proj1 HH) O U1 Mr eq_refl) as [(x & z & E1 & E2)|C]; [|auto].
  left. exists i, prev, ctx, sn, done, b, rest, (k + zlen (p_contents m)). split; [exact P|]. split; [|split; [exact Hbu|]].
  - pose proof (zlen_nonneg _ (p_contents m)). pose proof (zlen_nonneg _ z).
    assert (k + zlen (p_contents m) <= zlen (gb_msgs b)) by (rewrite E1, !zlen_app; lia).
    unfold stands. cbn [p_src p_ntid p_nid p_nsHash p_bmc p_lastSeq p_root p_cnt p_first p_height p_offset p_ctx]. repeat split; auto; try lia.
    intros Hlt. rewrite jint_id by lia. replace (zlen (gb_msgs b) - offset - zlen (p_contents m) =? 0) with false by lia. auto.
  - rewrite E, <- app_assoc. f_equal. apply firstn_sublist with (a := x) (c := z); [exact E1|lia].
Qed.

Lemma items_inv : forall its p bu dl acc p' out, inv p bu (dl ++ acc) -> Forall item_ok its -> handle_items H recover p bu its acc = Some (p', out) ->
  inv p' None (dl ++ out) \/ collision H \/ confusion H.
Proof.
  induction its as [|it its IH]; intros p bu dl acc p' out I F E; cbn [handle_items] in E.
  - injection E as <- <-. left. eapply inv_forget. exact I.
  - inversion F as [|? ? F1 F2]; subst. destruct it as [h sigs|m|]; [| |discriminate].
    + obn E p1 G. apply (update_inv _ _ _ _ _ _ I F1) in G as [G|G]; [|auto]. eapply IH; eauto.
    + obn E p1 G. destruct p1 as [p1 o1]. cbn [fst snd] in E. apply (proof_inv _ _ _ _ _ _ I F1) in G as [G|G]; [|auto]. rewrite <- app_assoc in G. eapply IH; eauto.
Qed.

Lemma run_inv : forall cs p dl p' out, inv p None dl -> Forall (fun c => Forall item_ok (c_items c)) cs -> run H recover p cs = (p', out) ->
  inv p' None (dl ++ out) \/ collision H \/ confusion H.
Proof.
  induction cs as [|c cs IH]; intros p dl p' out I F E; cbn [run] in E.
  - injection E as <- <-. rewrite app_nil_r. auto.
  - inversion F as [|? ? F1 F2]; subst. destruct (handleRelayMessage H recover p c) as [[p1 ms]|] eqn:G; [|eapply IH; eauto].
    destruct (run H recover p1 cs) as [q o] eqn:R. injection E as <- <-.
    unfold handleRelayMessage in G. obn G u1 G1. obn G u2 G2.
    destruct (items_inv (c_items c) p None dl [] p1 ms) as [J|J]; auto; [rewrite app_nil_r; exact I|].
    destruct (IH _ _ _ _ J F2 R) as [K|K]; auto. left. rewrite app_assoc. exact K.
Qed.

Lemma first_inv : forall b rest bmc h p, bs0 = b :: rest -> header_section h = gb_section nid None 0 b -> hd_nextCtxHash h = Some (H (gb_ctx b)) ->
  handleFirstBlockHeader H src ntid bmc 0 h = Some p -> inv p None [] \/ collision H.
Proof.
  intros b rest bmc h p Eb Es Ec E. unfold handleFirstBlockHeader in E. destruct (hd_prev h) eqn:Ep; [discriminate|]. destruct (hd_nextCtx h) as [c|] eqn:En; [|discriminate].
  destruct (opt_eqb (Some (H c)) (hd_nextCtxHash h)) eqn:Eo; [|discriminate]. injection E as <-. apply opt_eqb_eq in Eo. rewrite Ec in Eo. injection Eo as Eo.
  apply hash_inj in Eo as [->|C]; [|auto]. left.
  pose proof pos_0 as P. rewrite Eb in P. exists 0%nat, None, ctx0, 0, [], b, rest, 0. split; [exact P|]. split; [|split; [discriminate|reflexivity]].
  pose proof (f_equal s_nid Es) as M1. pose proof (f_equal s_upd Es) as M2. pose proof (f_equal s_cnt Es) as M3. pose proof (f_equal s_root Es) as M4.
  cbn [header_section gb_section s_nid s_upd s_cnt s_root] in M1, M2, M3, M4.
  unfold stands. cbn [p_src p_ntid p_nid p_nsHash p_bmc p_lastSeq p_root p_cnt p_first p_height p_offset p_ctx]. pose proof (zlen_nonneg _ (gb_msgs b)).
  repeat split; auto; try lia.
  - rewrite <- Es. unfold header_section. rewrite Ep. reflexivity.
  - unfold firstMessageSn. rewrite M2. destruct (gb_update b); reflexivity.
Qed.
End Chain.
