(** Lemmas for the Solidity BTP block verifier: it follows the chain block by block. *)
From Coq Require Import String Ascii ZArith List Bool Lia.
From Coq Require Import ZifyBool.
From Verif Require Import Base L_Base M_Rlp S_Rlp M_Mbt S_Mbt L_Mbt L_Mbt2 M_JBmv S_JBmv L_JBmv2 L_JBmv3
  M_SolRlp S_SolRlp M_Bridge M_SolBmv S_SolBmv L_SolBmv L_SolBmv2 L_SolBmv3.
Import ListNotations.
Open Scope Z_scope.

Lemma csub_some : forall a b c, csub a b = Some c -> b <= a /\ c = a - b.
Proof. intros a b c E. unfold csub in E. destruct (a <? b) eqn:L; [discriminate|]. injection E as <-. lia. Qed.
Lemma cadd_some : forall a b c, cadd a b = Some c -> c = a + b.
Proof. intros a b c E. unfold cadd in E. destruct (_ <? _); [|discriminate]. injection E as <-. reflexivity. Qed.

Lemma update_steps : forall H ecrecover k db rem h sigs db' rem', s_update H ecrecover k db rem h sigs = Some (db', rem') ->
  rem = 0 /\ k_nid k = sh_nid h /\ d_hash db = sh_prev h /\ d_next db = sh_sn h /\ (exists d, s_decision H (k_src k) (k_ntid k) h = Some d /\ squorum ecrecover (d_vals db) d) /\
  exists ns, s_sectionHash H h = Some ns /\ d_hash db' = ns /\ d_vals db' = (if sh_upd h then sh_vals h else d_vals db) /\ d_next db' = d_next db /\ d_height db' = sh_height h /\
  ((sh_root h = zero32 /\ d_root db' = d_root db /\ d_cnt db' = d_cnt db /\ d_first db' = d_first db /\ rem' = 0) \/
   (sh_root h <> zero32 /\ d_root db' = sh_root h /\ d_cnt db' = sh_cnt h /\ d_first db' = sh_sn h /\ rem' = sh_cnt h /\ d_first db + d_cnt db = sh_sn h)).
Proof.
  intros * E. unfold s_update, checkMessageSn in E. sreq E E1. sreq E E2. sreq E E3. sreq E E4. sb E u E5. sb E ns E6. cbv zeta in E. apply checkBlockProof_quorum in E5. apply bytes_eqb_eq in E3.
  split; [lia|]. split; [lia|]. split; [assumption|]. split; [lia|]. split; [assumption|]. exists ns. split; [reflexivity|]. destruct (bytes_eqb (sh_root h) zero32) eqn:Z.
  - injection E as <- <-. cbn [d_hash d_vals d_next d_height d_root d_cnt d_first]. apply bytes_eqb_eq in Z. repeat split. left. repeat split; auto. lia.
  - sb E sn E7. sreq E E8. injection E as <- <-. apply cadd_some in E7. cbn [d_hash d_vals d_next d_height d_root d_cnt d_first]. repeat split. right. repeat split; auto; [|lia].
    intros X. rewrite X, bytes_eqb_refl in Z. discriminate.
Qed.
Lemma messages_steps : forall H db rem p db' rem', s_messages H db rem p = Some (db', rem') ->
  s_calculate H p = Some (d_root db, d_cnt db) /\ zlen (sp_mesgs p) <= rem /\ rem' = rem - zlen (sp_mesgs p) /\ d_next db' = d_next db + zlen (sp_mesgs p) /\
  d_hash db' = d_hash db /\ d_root db' = d_root db /\ d_height db' = d_height db /\ d_cnt db' = d_cnt db /\ d_first db' = d_first db /\ d_vals db' = d_vals db.
Proof.
  intros * E. unfold s_messages in E. sb E x E1. sreq E E2. sb E r E3. sb E n E4. injection E as <- <-. apply csub_some in E3. apply cadd_some in E4. apply andb_true_iff in E2 as [E5 E6]. apply bytes_eqb_eq in E5.
  destruct x as [root n']. cbn [fst snd] in *. cbn [d_hash d_vals d_next d_height d_root d_cnt d_first]. repeat split; try lia. f_equal. f_equal; [exact E5|lia].
Qed.

(** messages accepted under a genuine root *)
Definition left_sum (p : sproof) : Z := fold_right (fun x a => sn_count x + a) 0 (sp_lefts p).
Lemma messages_genuine : forall H p cs root, digest_size H 32 -> Forall node_ok (sp_lefts p) -> Forall node_ok (sp_rights p) -> merkle H cs root -> s_calculate H p = Some (root, zlen cs) -> zlen cs < 2 ^ 62 ->
  sublist_at cs (left_sum p) (sp_mesgs p) \/ bad H cs.
Proof.
  intros H p cs root D Fl Fr M E B. set (it := fun x : snode => (sn_count x, sn_hash x)).
  set (its := map it (sp_lefts p) ++ map (leaf_item H) (sp_mesgs p) ++ map it (sp_rights p)).
  assert (G : forall l, Forall node_ok l -> map item_node (map it l) = l).
  { induction 1 as [|x l (N1 & N2 & N3) F IH]; [reflexivity|]. cbn [map]. rewrite IH. f_equal. unfold item_node, snode_of, it. cbn [fst snd]. destruct x as [lv c h]. cbn [sn_count sn_level sn_hash] in *. f_equal. symmetry. exact N2. }
  assert (E1 : nodes_of H p = map item_node its).
  { unfold nodes_of, its. rewrite !map_app, !G by assumption. f_equal. f_equal. rewrite map_map. apply map_ext. intros m. unfold item_node, leaf_item, snode_of. cbn [fst snd]. reflexivity. }
  assert (N : forall l, Forall node_ok l -> Forall (fun x : Z * list Z => 0 <= fst x /\ zlen (snd x) = 32) (map it l)).
  { intros l F. apply Forall_map. eapply Forall_impl; [|exact F]. intros x (X1 & _ & X2). unfold it. cbn [fst snd]. auto. }
  assert (F : Forall (fun x : Z * list Z => 0 <= fst x /\ zlen (snd x) = 32) its).
  { unfold its. apply Forall_app. split; [auto|]. apply Forall_app. split; [|auto]. apply Forall_map, Forall_forall. intros m _. unfold leaf_item. cbn [fst snd]. split; [lia|apply D]. }
  destruct (calculate_inv H its p root (zlen cs)) as (c & C1 & C2 & C3 & C4); auto.
  { eapply Forall_impl; [|exact F]. intros x Hx. apply Hx. }
  replace (left_sum p) with (isum (map it (sp_lefts p))).
  2:{ unfold left_sum, isum. clear. induction (sp_lefts p) as [|x l IH]; cbn [map fold_right]; [reflexivity|]. rewrite IH. reflexivity. }
  apply (contents_soundz H D c cs C1) with (B := map it (sp_rights p)); auto.
  - unfold sized. rewrite C2. eapply Forall_impl; [|exact F]. intros x Hx. apply Hx.
  - rewrite C3. exact M.
Qed.

Lemma repeat_map : forall A B (x : B) (l : list A), map (fun _ => x) l = repeat x (length l).
Proof. induction l as [|a l IH]; cbn [map length repeat]; [reflexivity|]. rewrite IH. reflexivity. Qed.
Lemma carriers_cons : forall b bs, carriers (b :: bs) = repeat (gb_msgs b) (length (gb_msgs b)) ++ carriers bs.
Proof. intros b bs. unfold carriers. cbn [map concat]. rewrite repeat_map. reflexivity. Qed.
Lemma messages_cons : forall b bs, messages (b :: bs) = gb_msgs b ++ messages bs.
Proof. reflexivity. Qed.

Section Chain.
Variable H : list Z -> list Z.
Variable junk : list Z -> mem.
Variable ecrecover : list Z -> Z -> list Z -> list Z -> Z.
Variables (src : list Z) (ntid nid : Z) (ctx0 : list Z) (bs0 start : list gblock) (sn0 : Z).
Hypothesis HH : hash32 H.
Hypothesis J : forall x, mem_ok (junk x).
Hypothesis Hsrc : bytes_ok src /\ zlen src < 2 ^ 60 /\ src <> [128].
Hypothesis Hntid : 0 <= ntid.
Hypothesis Hist : history H nid None ctx0 0 bs0.
Hypothesis Hdec : forall b, In b bs0 -> short (rlp_write (nts_items (Some (H (gb_ctx b))) (nst_root H (gb_tree b)))) /\
  short (rlp_write (dec_items src ntid (gb_height b) (gb_round b) (H (rlp_write (nts_items (Some (H (gb_ctx b))) (nst_root H (gb_tree b))))))).
Hypothesis Honest : forall b vs d, In b bs0 -> decodeValidators junk (gb_ctx b) = Some vs -> squorum ecrecover vs d ->
  exists b', In b' bs0 /\ d = gb_decision H src ntid b'.

Definition flaw : Prop := collision H \/ confusion H \/ (exists x, H x = repeat 0 32) \/ (exists m, In m (messages start) /\ nodelike H m).
Local Notation pos := (pos H nid ctx0 bs0).

Lemma opt32_digest : forall x, opt32 (H x) = Some (H x) \/ flaw.
Proof. intros x. unfold opt32. destruct (bytes_eqb (H x) (repeat 0 32)) eqn:E; [right; right; right; left; exists x; apply bytes_eqb_eq; exact E|auto]. Qed.
Lemma opt32_ok : forall h, word h -> opt_ok (opt32 h).
Proof. intros h [_ O]. unfold opt32. destruct (bytes_eqb _ _); cbn; auto. Qed.

Lemma next_block_sol : forall i prev ctx sn done b rest h d vs, pos i prev ctx sn done (b :: rest) -> sheader_ok h -> sh_nid h = nid ->
  sh_prev h = H (ns_enc (gb_section nid prev sn b)) -> s_decision H src ntid h = Some d ->
  decodeValidators junk (gb_ctx b) = Some vs -> squorum ecrecover vs d ->
  (exists b' rest', rest = b' :: rest' /\ s_section h = gb_section nid (Some (sh_prev h)) (sn + zlen (gb_msgs b)) b' /\
     sh_ctx h = H (gb_ctx b') /\ sh_height h = gb_height b' /\ sh_round h = gb_round b') \/ flaw.
Proof.
  intros * P O Hn Hp Ed V Q. pose proof HH as [D B]. destruct Hsrc as (Hs1 & Hs2 & Hs3).
  destruct (Honest b vs _ (pos_In _ _ _ _ _ _ _ _ _ _ _ P) V Q) as (b2 & I2 & E). unfold gb_decision in E. destruct (Hdec b2 I2) as [L1 L2].
  apply decision_hash in Ed; try assumption. rewrite Ed in E. pose proof O as (O1 & O2 & O3 & O4 & O5 & O6 & O7 & O8 & O9).
  destruct (pathRoot_digest H (sh_path h) (H (ns_enc (s_section h))) ltac:(eauto)) as (px & Ex).
  apply decision_commits in E; auto.
  2:{ cbn. apply O3. }
  2:{ cbn. apply B. }
  2:{ rewrite Ex. apply B. }
  2:{ destruct (nst_root_hash H (gb_tree b2)) as [x ->]. apply B. }
  destruct E as [(E1 & E2 & E3 & E4)|C]; [|right; left; exact C]. injection E3 as E3.
  apply path_commits in E4; [|assumption..]. destruct E4 as [(s & I & E)|C]; [|right; unfold flaw; tauto].
  destruct (pos_at H nid ctx0 bs0 b2 I2) as (j & prev2 & ctx2 & sn2 & done2 & rest2 & P2).
  pose proof (pos_hist _ _ _ _ Hist _ _ _ _ _ _ P2) as Hi. inversion Hi as [|? ? ? ? ? h1 h2 h3 h4 h5 h6]; subst.
  destruct (h5 s I) as (Ss & So & Sn).
  apply ns_inj in E; auto; [|apply ns_ok; cbn [s_section s_prev s_root]; apply opt32_ok; assumption].
  assert (Es : s = gb_section (sh_nid h) prev2 sn2 b2) by (apply Sn; rewrite <- E; reflexivity).
  rewrite Es in E. clear Sn Es Ss So.
  destruct (opt32_digest (ns_enc (gb_section (sh_nid h) prev sn b))) as [Zd|C]; [|auto]. rewrite <- Hp in Zd.
  assert (Ep : prev2 = Some (sh_prev h)) by (unfold s_section, gb_section in E; congruence).
  inversion P2 as [|j0 q1 q2 q3 q4 c q5 PP]; subst; [discriminate|].
  assert (E' : H (ns_enc (gb_section (sh_nid h) q1 q3 c)) = H (ns_enc (gb_section (sh_nid h) prev sn b))) by congruence.
  apply hash_inj in E' as [E'|E']; [|right; left; exact E'].
  destruct (pos_section _ _ _ _ Hist _ _ _ _ _ _ _ PP) as (_ & S1 & W1 & _). destruct (pos_section _ _ _ _ Hist _ _ _ _ _ _ _ P) as (_ & S2 & W2 & _).
  apply ns_inj in E'; auto. destruct (section_unique _ _ _ _ Hist _ _ _ _ _ _ _ PP _ _ _ _ _ _ _ P E') as [->|C]; [|right; left; exact C].
  destruct (pos_det _ _ _ _ _ _ _ _ _ _ P _ _ _ _ _ PP) as (-> & -> & -> & -> & Eb). injection Eb as -> ->.
  left. exists b2, rest2. repeat split; auto.
Qed.

(** The contract stands at block [b]; [ms] are the messages of the last block with messages. *)
Definition sinv (db : sdb) (dl : list (list Z)) (ord : Prop) : Prop :=
  exists i prev ctx sn done b rest ms C Dm, let k := d_next db - d_first db in
    pos i prev ctx sn done (b :: rest) /\ d_hash db = H (ns_enc (gb_section nid prev sn b)) /\ decodeValidators junk (gb_ctx b) = Some (d_vals db) /\
    d_cnt db = zlen ms /\ 0 <= k <= zlen ms /\ (ms <> [] -> merkle H ms (d_root db)) /\ zlen ms < 2 ^ 31 /\ d_first db + zlen ms = sn + zlen (gb_msgs b) /\
    Forall2 (@In (list Z)) dl (C ++ repeat ms (Z.to_nat k)) /\ C ++ repeat ms (length ms) ++ carriers rest = carriers start /\ zlen C = d_first db - sn0 /\
    Dm ++ ms ++ messages rest = messages start /\ (ord -> dl = Dm ++ firstn (Z.to_nat k) ms).

Lemma update_sinv : forall k db dl ord h sigs db' rem', k_src k = src -> k_ntid k = ntid -> k_nid k = nid -> sinv db dl ord -> sheader_ok h -> committed H junk h ->
  s_update H ecrecover k db (d_cnt db - (d_next db - d_first db)) h sigs = Some (db', rem') -> (sinv db' dl ord /\ rem' = d_cnt db' - (d_next db' - d_first db')) \/ flaw.
Proof.
  intros k db dl ord h sigs db' rem' K1 K2 K3 (i & prev & ctx & sn & done & b & rest & ms & C & Dm & P & S1 & S2 & S3 & S4 & S5 & S6 & S7 & S8 & S9 & S10 & S11 & S12) O Cm U.
  apply update_steps in U as (U1 & U2 & U3 & U4 & (d & Ud & Uq) & ns & U5 & U6 & U7 & U8 & _ & U9). rewrite K1, K2 in Ud. rewrite K3 in U2. cbv zeta in *.
  assert (Ek : d_next db - d_first db = zlen ms) by lia.
  destruct (next_block_sol _ _ _ _ _ _ _ h d (d_vals db) P O) as [(b' & rest' & -> & N1 & N2 & _)|F]; try assumption; try congruence; auto.
  pose proof (pos_S _ _ _ _ _ _ _ _ _ _ _ P) as P'.
  apply section_hash in U5; [|assumption]. rewrite N1 in U5.
  pose proof (f_equal s_nid N1) as M1. pose proof (f_equal s_upd N1) as M2. pose proof (f_equal s_cnt N1) as M3. pose proof (f_equal s_root N1) as M4.
  cbn [s_section gb_section s_nid s_upd s_cnt s_root] in M1, M2, M3, M4.
  assert (Ho : sh_upd h = gb_update b' /\ sh_sn h = sn + zlen (gb_msgs b)) by (destruct (sh_upd h), (gb_update b'); split; congruence || lia).
  destruct Ho as [Ho Hf].
  destruct (pos_section _ _ _ _ Hist _ _ _ _ _ _ _ P') as (_ & _ & _ & Hr & Hl).
  assert (Ev : decodeValidators junk (gb_ctx b') = Some (d_vals db') \/ flaw).
  { rewrite U7, Ho. destruct (gb_update b') eqn:Eu.
    - destruct (Cm Ho) as (cx & C1 & C2). rewrite C1 in N2. apply hash_inj in N2 as [<-|X]; [auto|right; left; exact X].
    - apply (pos_hist _ _ _ _ Hist) in P'. inversion P' as [|? ? ? ? ? h1 h2 h3 h4 h5 h6]; subst. rewrite h1 by assumption. auto. }
  destruct Ev as [Ev|F]; [|auto]. rewrite <- S1, U3 in P'.
  destruct U9 as [(Z0 & U9 & U10 & U11 & ->)|(Z0 & U9 & U10 & U11 & -> & U12)].
  - assert (Em : gb_msgs b' = []).
    { destruct (gb_msgs b') as [|c0 cs]; [reflexivity|]. cbn [root_of] in Hr. destruct Hr as (x & Hr & _). rewrite Hr in M4. unfold opt32 in M4. rewrite Z0, bytes_eqb_refl in M4. discriminate. }
    left. split; [|rewrite U10, U8, U11; lia]. do 6 eexists. exists rest', ms, C, Dm. cbv zeta. rewrite U8, U9, U10, U11. split; [exact P'|]. rewrite U6, U5. split; [reflexivity|]. split; [exact Ev|].
    rewrite carriers_cons, Em in S9. rewrite messages_cons, Em in S11. rewrite Em. change (zlen (@nil (list Z))) with 0. cbn [length repeat app] in S9, S11. repeat split; auto; lia.
  - assert (Em : merkle H (gb_msgs b') (sh_root h)).
    { unfold opt32 in M4. destruct (bytes_eqb (sh_root h) (repeat 0 32)) eqn:Zb; [apply bytes_eqb_eq in Zb; contradiction|]. rewrite <- M4 in Hr. unfold root_of in Hr. destruct (gb_msgs b') as [|c0 cs]; [discriminate|]. destruct Hr as (x & Ex & Mx). injection Ex as <-. exact Mx. }
    left. split; [|rewrite U10, U8, U11; lia]. do 6 eexists. exists rest', (gb_msgs b'), (C ++ repeat ms (length ms)), (Dm ++ ms). cbv zeta. rewrite U8, U9, U10, U11. split; [exact P'|]. rewrite U6, U5. split; [reflexivity|]. split; [exact Ev|].
    replace (d_next db - sh_sn h) with 0 by lia. cbn [Z.to_nat repeat firstn]. rewrite app_nil_r. rewrite carriers_cons in S9. rewrite messages_cons in S11. rewrite <- !app_assoc. pose proof (zlen_nonneg _ (gb_msgs b')).
    rewrite Ek in S8, S12. replace (Z.to_nat (zlen ms)) with (length ms) in S8, S12 by (unfold zlen; lia). rewrite firstn_all in S12.
    repeat split; auto; try lia.
    + rewrite zlen_app. replace (zlen (repeat ms (length ms))) with (zlen ms) by (unfold zlen; rewrite repeat_length; reflexivity). lia.
    + rewrite app_nil_r. assumption.
Qed.

Lemma sublist_in : forall (l a part c : list (list Z)), l = a ++ part ++ c -> Forall (fun m => In m l) part.
Proof. intros l a part c ->. apply Forall_forall. intros m I. apply in_or_app. right. apply in_or_app. auto. Qed.
Lemma Forall_repeat : forall (l part : list (list Z)), Forall (fun m => In m l) part -> Forall2 (@In (list Z)) part (repeat l (length part)).
Proof. induction 1; cbn [length repeat]; constructor; auto. Qed.
Lemma repeat_plus : forall A (x : A) a b, repeat x (a + b) = repeat x a ++ repeat x b.
Proof. induction a as [|a IH]; intros b; cbn [repeat app plus]; [reflexivity|]. rewrite IH. reflexivity. Qed.

Lemma messages_sinv : forall db dl ord p db' rem', sinv db dl ord -> Forall node_ok (sp_lefts p) -> Forall node_ok (sp_rights p) ->
  s_messages H db (d_cnt db - (d_next db - d_first db)) p = Some (db', rem') ->
  (sinv db' (dl ++ sp_mesgs p) (ord /\ left_sum p = d_next db - d_first db) /\ rem' = d_cnt db' - (d_next db' - d_first db')) \/ flaw.
Proof.
  intros db dl ord p db' rem' (i & prev & ctx & sn & done & b & rest & ms & C & Dm & P & S1 & S2 & S3 & S4 & S5 & S6 & S7 & S8 & S9 & S10 & S11 & S12) Fl Fr U.
  apply messages_steps in U as (U1 & U2 & -> & U3 & U4 & U5 & U6 & U7 & U8 & U9). cbv zeta in *. pose proof (zlen_nonneg _ (sp_mesgs p)) as N0.
  assert (G : (sp_mesgs p = [] \/ sublist_at ms (left_sum p) (sp_mesgs p)) \/ flaw).
  { destruct (sp_mesgs p) as [|m0 mr] eqn:Em; [auto|]. rewrite <- Em in *. assert (Hne : ms <> []) by (intros ->; rewrite Em, zlen_cons in U2; pose proof (zlen_nonneg _ mr); change (zlen (@nil (list Z))) with 0 in S3; lia).
    destruct (messages_genuine H p ms (d_root db) (proj1 HH) Fl Fr (S5 Hne)) as [X|[X|(m & X1 & X2)]]; try lia; auto.
    - rewrite U1, S3. reflexivity.
    - right; left; exact X.
    - right; right; right; right. exists m. split; [|exact X2]. rewrite <- S11. apply in_or_app. right. apply in_or_app. auto. }
  destruct G as [G|F]; [|auto]. left. split; [|rewrite U7, U3, U8; lia].
  exists i, prev, ctx, sn, done, b, rest, ms, C, Dm. cbv zeta. rewrite U3, U4, U5, U7, U8, U9.
  replace (d_next db + zlen (sp_mesgs p) - d_first db) with (d_next db - d_first db + zlen (sp_mesgs p)) by lia. set (k := d_next db - d_first db) in *. clearbody k.
  repeat split; auto; try lia.
  - replace (Z.to_nat (k + zlen (sp_mesgs p))) with (Z.to_nat k + length (sp_mesgs p))%nat by (unfold zlen in *; lia). rewrite repeat_plus, app_assoc. apply Forall2_app; [exact S8|].
    apply Forall_repeat. destruct G as [->|(x & y & E & _)]; [constructor|]. eapply sublist_in. exact E.
  - intros [Ho Hl]. rewrite (S12 Ho), <- app_assoc. f_equal. destruct G as [->|(x & y & E1 & E2)].
    + change (zlen (@nil (list Z))) with 0. rewrite Z.add_0_r, app_nil_r. reflexivity.
    + apply firstn_sublist with (a := x) (c := y); [exact E1|lia].
Qed.

Lemma items_sinv : forall k, k_src k = src -> k_ntid k = ntid -> k_nid k = nid -> forall l db dl acc ord db' out, Forall (fun x => bytes_ok (snd x)) l ->
  (forall b h sigs, In (1, b) l -> decodeBlockUpdate junk b = Some (h, sigs) -> committed H junk h) -> sinv db (dl ++ acc) ord ->
  s_items H junk ecrecover k db (d_cnt db - (d_next db - d_first db)) acc l = Some (db', out) ->
  sinv db' (dl ++ out) (ord /\ items_in_order H junk ecrecover k db (d_cnt db - (d_next db - d_first db)) l) \/ flaw.
Proof.
  intros k K1 K2 K3. induction l as [|[ty by_] l IH]; intros db dl acc ord db' out F Cm I E; cbn [s_items items_in_order] in *.
  - injection E as <- <-. left. destruct I as (i & prev & ctx & sn & done & b & rest & ms & C & Dm & I). exists i, prev, ctx, sn, done, b, rest, ms, C, Dm. cbv zeta in *. intuition.
  - pose proof (Forall_inv F) as F1. pose proof (Forall_inv_tail F) as F2. cbn [snd] in F1. assert (Cm' : forall b h sigs, In (1, b) l -> decodeBlockUpdate junk b = Some (h, sigs) -> committed H junk h) by (intros; eapply Cm; [right; eassumption|eassumption]).
    assert (W : forall db0 dl0 (o1 o2 : Prop), (o2 -> o1) -> sinv db0 dl0 o1 -> sinv db0 dl0 o2).
    { clear. intros db0 dl0 o1 o2 X (i & prev & ctx & sn & done & b & rest & ms & C & Dm & I). exists i, prev, ctx, sn, done, b, rest, ms, C, Dm. cbv zeta in *. intuition. }
    destruct (ty =? 1) eqn:T1; [|destruct (ty =? 2) eqn:T2].
    + sb E u E1. destruct u as [h sigs]. cbn [fst snd] in E. sb E x E2. destruct x as [db1 rem1]. cbn [fst snd] in E. assert (ty = 1) by lia. subst ty.
      destruct (update_sinv k db (dl ++ acc) ord h sigs db1 rem1 K1 K2 K3 I) as [[I1 ->]|Fl]; auto.
      { eapply update_decoded; eauto. } { eapply Cm; [left; reflexivity|exact E1]. }
      destruct (IH _ _ _ _ _ _ F2 Cm' I1 E) as [R|R]; [|auto]. left. eapply W; [|exact R]. intros [A1 A2]. split; [exact A1|]. eapply A2; eauto.
    + sb E p E1. sb E x E2. destruct x as [db1 rem1]. cbn [fst snd] in E. destruct (proof_decoded junk J by_ p F1 E1) as [Fl Fr].
      destruct (messages_sinv db (dl ++ acc) ord p db1 rem1 I Fl Fr E2) as [[I1 ->]|X]; auto. rewrite <- app_assoc in I1.
      destruct (IH _ _ _ _ _ _ F2 Cm' I1 E) as [R|R]; [|auto]. left. eapply W; [|exact R]. intros [A1 A2]. destruct (A2 _ _ _ eq_refl E2) as [A3 A4]. split; [split; [exact A1|exact A3]|exact A4].
    + eapply IH; eauto.
Qed.

Definition kinv (k : sbmv) (dl : list (list Z)) (ord : Prop) : Prop := k_src k = src /\ k_ntid k = ntid /\ k_nid k = nid /\ sinv (k_db k) dl ord.
Lemma handle_sinv : forall k dl ord c k' out, kinv k dl ord -> bytes_ok (sc_msg c) -> all_committed H junk (sc_msg c) ->
  s_handle H junk ecrecover k (sc_sender c) (sc_prev c) (sc_sn c) (sc_msg c) = Some (k', out) ->
  kinv k' (dl ++ out) (ord /\ forall rms, decodeTyped junk (sc_msg c) = Some rms -> items_in_order H junk ecrecover k (k_db k) (d_cnt (k_db k) - (d_next (k_db k) - d_first (k_db k))) rms) \/ flaw.
Proof.
  intros k dl ord c k' out (K1 & K2 & K3 & I) B A E. unfold s_handle in E. sreq E E1. sb E na E2. sreq E E3. cbv zeta in E. sb E n E4. sreq E E5. sb E dn E6. sb E rem E7. sb E rms E8. sb E x E9. destruct x as [d o]. cbn [fst snd] in E. injection E as <- <-.
  apply csub_some in E6 as [_ ->]. apply csub_some in E7 as [_ ->].
  assert (I' : sinv (k_db k) (dl ++ []) ord) by (rewrite app_nil_r; exact I).
  destruct (items_sinv k K1 K2 K3 rms (k_db k) dl [] ord d o) as [R|R]; auto.
  { eapply typed_decoded; eauto. } { intros. eapply A; eauto. }
  left. unfold kinv. cbn [k_src k_ntid k_nid k_db]. repeat split; auto.
  destruct R as (i & prev & ctx & sn & done & b & rest & ms & C & Dm & R). exists i, prev, ctx, sn, done, b, rest, ms, C, Dm. cbv zeta in *. cbn [d_hash d_vals d_next d_height d_root d_cnt d_first].
  destruct R as (R1 & R2 & R3 & R4 & R5 & R6 & R7 & R8 & R9 & R10 & R11 & R12 & R13). repeat split; auto; try lia. intros [X1 X2]. apply R13. split; [exact X1|]. apply X2. reflexivity.
Qed.

Lemma run_sinv : forall cs k dl ord k' out, kinv k dl ord -> Forall (fun c => bytes_ok (sc_msg c) /\ all_committed H junk (sc_msg c)) cs -> s_run H junk ecrecover k cs = (k', out) ->
  kinv k' (dl ++ out) (ord /\ calls_in_order H junk ecrecover k cs) \/ flaw.
Proof.
  induction cs as [|c cs IH]; intros k dl ord k' out I F E; cbn [s_run] in E.
  - injection E as <- <-. rewrite app_nil_r. left. cbn [calls_in_order]. destruct I as (K1 & K2 & K3 & i & prev & ctx & sn & done & b & rest & ms & C & Dm & I).
    repeat split; auto. exists i, prev, ctx, sn, done, b, rest, ms, C, Dm. cbv zeta in *. intuition.
  - inversion F as [|? ? [F1 F2] F3]; subst.
    assert (W : forall k0 dl0 (o1 o2 : Prop), (o2 -> o1) -> kinv k0 dl0 o1 -> kinv k0 dl0 o2).
    { clear. intros k0 dl0 o1 o2 X (K1 & K2 & K3 & i & prev & ctx & sn & done & b & rest & ms & C & Dm & I). repeat split; auto. exists i, prev, ctx, sn, done, b, rest, ms, C, Dm. cbv zeta in *. intuition. }
    cbn [calls_in_order]. destruct (s_handle H junk ecrecover k (sc_sender c) (sc_prev c) (sc_sn c) (sc_msg c)) as [[k1 o1]|] eqn:G.
    + destruct (s_run H junk ecrecover k1 cs) as [q o] eqn:R. injection E as <- <-. destruct (handle_sinv k dl ord c k1 o1 I F1 F2 G) as [X|X]; auto.
      destruct (IH _ _ _ _ _ X F3 R) as [Y|Y]; auto. left. rewrite app_assoc. eapply W; [|exact Y]. tauto.
    + destruct (IH _ _ _ _ _ I F3 E) as [Y|Y]; auto.
Qed.

Lemma sinv_result : forall db dl ord, sinv db dl ord -> Forall2 (@In (list Z)) dl (firstn (length dl) (carriers start)) /\ zlen dl = d_next db - sn0 /\ (ord -> exists r, messages start = dl ++ r).
Proof.
  intros db dl ord (i & prev & ctx & sn & done & b & rest & ms & C & Dm & P & S1 & S2 & S3 & S4 & S5 & S6 & S7 & S8 & S9 & S10 & S11 & S12). cbv zeta in *.
  assert (L : length dl = (length C + Z.to_nat (d_next db - d_first db))%nat) by (apply Forall2_length in S8; rewrite S8, app_length, repeat_length; reflexivity).
  split; [|split].
  - rewrite L, <- S9, firstn_app_2. replace (length ms) with (Z.to_nat (d_next db - d_first db) + (length ms - Z.to_nat (d_next db - d_first db)))%nat by (unfold zlen in S4; lia).
    rewrite repeat_plus, <- app_assoc, firstn_app, repeat_length, Nat.sub_diag, firstn_O, app_nil_r, firstn_all2 by (rewrite repeat_length; lia). exact S8.
  - unfold zlen in *. lia.
  - intros o. rewrite (S12 o). exists (skipn (Z.to_nat (d_next db - d_first db)) ms ++ messages rest). rewrite <- S11, <- app_assoc. f_equal. rewrite app_assoc, firstn_skipn. reflexivity.
Qed.

Lemma pos_after : forall pre rest, bs0 = pre ++ rest -> exists ctx done, pos (length pre) (fst (after H nid None 0 pre)) ctx (snd (after H nid None 0 pre)) done rest.
Proof.
  assert (A : forall l b p s, after H nid p s (l ++ [b]) = (Some (H (ns_enc (gb_section nid (fst (after H nid p s l)) (snd (after H nid p s l)) b))), snd (after H nid p s l) + zlen (gb_msgs b))).
  { induction l as [|x l IH]; intros b p s; cbn [app after fst snd]; [reflexivity|]. apply IH. }
  induction pre as [|x pre IH] using rev_ind; intros rest E.
  - cbn [app] in E. subst. do 2 eexists. cbn [after fst snd length]. constructor.
  - rewrite <- app_assoc in E. destruct (IH _ E) as (ctx & done & P). cbn [app] in P. apply pos_S in P. rewrite app_length, Nat.add_1_r, A. cbn [fst snd]. do 2 eexists. exact P.
Qed.

Lemma start_sinv : forall pre b rest, bs0 = pre ++ b :: rest -> start = b :: rest -> sn0 = snd (after H nid None 0 pre) -> forall bmc first off k h,
  decodeHeader junk first = Some h -> bytes_ok first -> s_section h = gb_section nid (fst (after H nid None 0 pre)) sn0 b -> decodeValidators junk (gb_ctx b) = Some (sh_vals h) ->
  s_construct H junk bmc src ntid first off = Some k -> kinv k [] True.
Proof.
  intros pre b rest Eb Es En bmc first off k h Eh Bf N1 Ev E. unfold s_construct in E. rewrite Eh in E. cbn [sbind] in E. sreq E E1. sb E ns E2. injection E as <-.
  pose proof (header_decoded junk J first h Bf Eh) as O. apply section_hash in E2; [|assumption]. rewrite N1 in E2.
  pose proof (f_equal s_nid N1) as M1. pose proof (f_equal s_upd N1) as M2. pose proof (f_equal s_cnt N1) as M3. pose proof (f_equal s_root N1) as M4.
  cbn [s_section gb_section s_nid s_upd s_cnt s_root] in M1, M2, M3, M4.
  unfold kinv. cbn [k_src k_ntid k_nid k_db]. repeat split; auto.
  destruct (pos_after pre (b :: rest) Eb) as (ctx & done & P). rewrite <- En in P. destruct (pos_section _ _ _ _ Hist _ _ _ _ _ _ _ P) as (_ & _ & _ & Hr & Hl).
  do 7 eexists. exists (gb_msgs b), [], []. cbv zeta. split; [exact P|]. cbn [d_hash d_vals d_next d_height d_root d_cnt d_first]. rewrite E2, Es.
  assert (sh_sn h = sn0) by (destruct (sh_upd h), (gb_update b); lia). rewrite Z.sub_diag. pose proof (zlen_nonneg _ (gb_msgs b)).
  repeat split; auto; try lia.
  - intros Hne. unfold root_of in Hr. destruct (gb_msgs b) as [|c0 cs]; [contradiction|]. destruct Hr as (x & Ex & Mx). rewrite Ex in M4. unfold opt32 in M4. destruct (bytes_eqb _ _); [discriminate|]. injection M4 as ->. exact Mx.
  - constructor.
  - rewrite carriers_cons. reflexivity.
  - change (zlen (@nil (list (list Z)))) with 0. lia.
Qed.
End Chain.
