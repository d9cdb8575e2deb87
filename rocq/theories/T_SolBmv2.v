(** Theorems about the Solidity BTP block verifier (solidity/bmv): C66, what it hands over, and examples for C65. *)
From Coq Require Import String Ascii ZArith List Bool Lia.
From Coq Require Import ZifyBool.
From Verif Require Import Base L_Base M_IntConv M_Rlp S_Rlp L_Rlp T_Rlp M_Mbt S_Mbt L_Mbt L_Mbt2 L_Mbt3 T_Mbt M_JBmv S_JBmv L_JBmv L_JBmv2 L_JBmv3 T_JBmv
  M_Wire S_Wire L_Wire T_Wire S_BtpAddr M_SolRlp S_SolRlp L_SolRlp T_SolRlp M_BtpAddr M_Bridge T_BridgeWire M_SolBmv S_SolBmv L_SolBmv L_SolBmv2 L_SolBmv3 L_SolBmv4 L_SolBmv5 T_SolBmv.
Import ListNotations.
Open Scope Z_scope.

(** ** C66 *)
(** Who may call, for which network, and with which number. *)
Theorem C66_only_in_turn : forall H junk ecrecover k sender prev sn msg r, s_handle H junk ecrecover k sender prev sn msg = Some r ->
  sender = k_bmc k /\ (exists net acc, splitBTPAddress prev = Some (net, acc) /\ (net = k_src k \/ collision H)) /\ sn = k_off k + d_next (k_db k).
Proof.
  intros * E. unfold s_handle in E. sreq E E1. sb E na E2. sreq E E3. cbv zeta in E. sb E n E4. sreq E E5. apply csub_some in E4 as [_ E4]. apply bytes_eqb_eq in E3. destruct na as [net acc]. cbn [fst] in *.
  split; [lia|]. split; [|lia]. exists net, acc. split; [reflexivity|]. destruct (bytes_eqb net (k_src k)) eqn:Q; [left; apply bytes_eqb_eq; exact Q|]. right. exists net, (k_src k). split; [intros ->; rewrite bytes_eqb_refl in Q; discriminate|congruence].
Qed.
Print Assumptions C66_only_in_turn.

(** The network and the account of an address are read correctly, if the account has more than one character. *)
Lemma index_here : forall c x y i, ~ In c x -> index_loop c (x ++ c :: y) i = Some (i + length x)%nat.
Proof.
  intros c. induction x as [|a x IH]; intros y i N; cbn [app index_loop length].
  - rewrite Z.eqb_refl. f_equal. lia.
  - replace (a =? c) with false; [rewrite IH; [f_equal; lia|intros X; apply N; right; exact X]|]. symmetry. apply Z.eqb_neq. intros ->. apply N. left. reflexivity.
Qed.
Lemma index_none : forall c x i, ~ In c x -> index_loop c x i = None.
Proof.
  intros c. induction x as [|a x IH]; intros i N; cbn [index_loop]; [reflexivity|]. replace (a =? c) with false; [apply IH; intros X; apply N; right; exact X|]. symmetry. apply Z.eqb_neq. intros ->. apply N. left. reflexivity.
Qed.
Lemma indexOf_at : forall c p x y off, off = length p -> ~ In c x -> s_indexOf (p ++ x ++ c :: y) c off = Some (off + length x)%nat.
Proof. intros c p x y off -> N. unfold s_indexOf. rewrite skipn_app, skipn_all, Nat.sub_diag. cbn [app skipn]. apply index_here. exact N. Qed.
Lemma indexOf_end : forall c p x off, off = length p -> ~ In c x -> s_indexOf (p ++ x) c off = None.
Proof. intros c p x off -> N. unfold s_indexOf. rewrite skipn_app, skipn_all, Nat.sub_diag. cbn [app skipn]. apply index_none. exact N. Qed.
Lemma count_step : forall f p x y c off n, off = length p -> ~ In c x -> (1 < length (x ++ c :: y))%nat ->
  split_count (S f) (p ++ x ++ c :: y) c off n = split_count f ((p ++ x ++ [c]) ++ y) c (length (p ++ x ++ [c])) (n + 1).
Proof.
  intros f p x y c off n E N L. cbn [split_count]. rewrite (indexOf_at c p x y off E N). replace (off <? length (p ++ x ++ c :: y) - 1)%nat with true by (rewrite app_length; lia).
  rewrite <- !app_assoc. cbn [app]. f_equal. rewrite !app_length. cbn [length]. lia.
Qed.
Lemma parts_step : forall f p x y c off, off = length p -> ~ In c x -> (1 < length (x ++ c :: y))%nat ->
  split_parts (S f) (p ++ x ++ c :: y) c off = x :: split_parts f ((p ++ x ++ [c]) ++ y) c (length (p ++ x ++ [c])).
Proof.
  intros f p x y c off E N L. cbn [split_parts]. rewrite (indexOf_at c p x y off E N). replace (off <? length (p ++ x ++ c :: y) - 1)%nat with true by (rewrite app_length; lia). cbv zeta.
  f_equal.
  - replace (off + length x - off)%nat with (length x) by lia. rewrite E, skipn_app, skipn_all, Nat.sub_diag. cbn [app skipn]. rewrite firstn_app, Nat.sub_diag, firstn_all. cbn [firstn]. apply app_nil_r.
  - rewrite <- !app_assoc. cbn [app]. f_equal. rewrite !app_length. cbn [length]. lia.
Qed.
Lemma count_end : forall f p x c n, ~ In c x -> split_count f (p ++ x) c (length p) n = n.
Proof. intros [|f] p x c n N; cbn [split_count]; [reflexivity|]. rewrite (indexOf_end c p x _ eq_refl N). destruct (_ <? _)%nat; reflexivity. Qed.
Lemma parts_end : forall f p x c, ~ In c x -> split_parts (S (S f)) (p ++ x) c (length p) = if (2 <=? length x)%nat then [x] else [].
Proof.
  intros f p x c N. cbn [split_parts]. rewrite (indexOf_end c p x _ eq_refl N). cbv zeta. rewrite app_length. destruct (2 <=? length x)%nat eqn:L.
  - replace (length p <? length p + length x - 1)%nat with true by lia. rewrite skipn_app, skipn_all, Nat.sub_diag. cbn [app skipn]. rewrite firstn_all2 by lia.
    replace (length p + length x + 1 <? length p + length x - 1)%nat with false by lia. reflexivity.
  - replace (length p <? length p + length x - 1)%nat with false by lia. reflexivity.
Qed.
Theorem C66_address_split : forall net acc, ~ In (ch "/") net -> ~ In (ch "/") acc -> (0 < length acc)%nat ->
  splitBTPAddress (address_text (str "btp") net acc) = Some (net, if (2 <=? length acc)%nat then acc else []).
Proof.
  intros net acc Nn Na La. unfold splitBTPAddress, s_split. set (c := ch "/") in *.
  assert (Ea : address_text (str "btp") net acc = [] ++ str "btp:" ++ c :: [] ++ c :: net ++ c :: acc) by reflexivity.
  set (b := address_text (str "btp") net acc) in *.
  assert (Lb : exists f, length b = S (S (S (S (S f))))).
  { rewrite Ea. cbn [app str length]. eexists. reflexivity. }
  destruct Lb as (f & Lb). assert (L0 : (0 <? zlen b) = true) by (unfold zlen; lia). rewrite L0. cbn [require sbind]. rewrite Lb, Ea.
  assert (N1 : ~ In c (str "btp:")) by (cbn [str In]; intros [X|[X|[X|[X|[]]]]]; discriminate X).
  assert (N2 : ~ In c []) by (intros []).
  assert (G1 : (1 < length (str "btp:" ++ c :: [] ++ c :: net ++ c :: acc))%nat) by (cbn [app str length]; lia).
  assert (G2 : (1 < length ([] ++ c :: net ++ c :: acc))%nat) by (cbn [app length]; rewrite app_length; cbn [length]; lia).
  assert (G3 : (1 < length (net ++ c :: acc))%nat) by (rewrite app_length; cbn [length]; lia).
  rewrite count_step by (assumption || reflexivity). rewrite count_step by (assumption || reflexivity). rewrite count_step by (assumption || reflexivity). rewrite count_end by assumption.
  rewrite parts_step by (assumption || reflexivity). rewrite parts_step by (assumption || reflexivity). rewrite parts_step by (assumption || reflexivity). rewrite parts_end by assumption.
  destruct (2 <=? length acc)%nat; cbn [length require sbind]; reflexivity.
Qed.
Print Assumptions C66_address_split.
Example C66_ex_split : splitBTPAddress (str "btp://0x1.icon/cx00") = Some (str "0x1.icon", str "cx00") /\ splitBTPAddress (str "btp://0x1.icon/c") = Some (str "0x1.icon", []) /\
  splitBTPAddress (str "0x1.icon/cx00") = None /\ splitBTPAddress [] = None.
Proof. vm_compute. auto. Qed.

(** The flaws that would be needed: a collision, data that is both a message and an encoded section, a digest that is
    all zeros, a message that could be an inner node. *)
Definition broken (H : list Z -> list Z) (bs : list gblock) : Prop :=
  collision H \/ confusion H \/ (exists x, H x = repeat 0 32) \/ (exists m, In m (messages bs) /\ nodelike H m).

Section Chain.
Variable H : list Z -> list Z.
Variable junk : list Z -> mem.
Variable ecrecover : list Z -> Z -> list Z -> list Z -> Z.
Variables (src : list Z) (ntid nid : Z) (ctx0 : list Z) (pre : list gblock) (b : gblock) (rest : list gblock).
Hypothesis HH : hash32 H.
Hypothesis J : forall x, mem_ok (junk x).
Hypothesis Hsrc : bytes_ok src /\ zlen src < 2 ^ 60 /\ src <> [128].
Hypothesis Hntid : 0 <= ntid.
Hypothesis Hist : history H nid None ctx0 0 (pre ++ b :: rest).
Hypothesis Hdec : forall g, In g (pre ++ b :: rest) -> short (rlp_write (nts_items (Some (H (gb_ctx g))) (nst_root H (gb_tree g)))) /\
  short (rlp_write (dec_items src ntid (gb_height g) (gb_round g) (H (rlp_write (nts_items (Some (H (gb_ctx g))) (nst_root H (gb_tree g))))))).
(** the validators sign the blocks of the chain and nothing else *)
Hypothesis Honest : forall g vs d, In g (pre ++ b :: rest) -> decodeValidators junk (gb_ctx g) = Some vs -> squorum ecrecover vs d ->
  exists g', In g' (pre ++ b :: rest) /\ d = gb_decision H src ntid g'.
(** the contract was set up with the header of block [b] *)
Variables (bmc off : Z) (first : list Z) (h : sheader) (k : sbmv).
Hypothesis Bf : bytes_ok first.
Hypothesis Eh : decodeHeader junk first = Some h.
Hypothesis Es : s_section h = gb_section nid (fst (after H nid None 0 pre)) (snd (after H nid None 0 pre)) b.
Hypothesis Ev : decodeValidators junk (gb_ctx b) = Some (sh_vals h).
Hypothesis Ek : s_construct H junk bmc src ntid first off = Some k.

(** Whatever calls are made, the n-th message handed over is a message of the block that carries the n-th message. *)
Theorem C66_delivered_from_right_block : forall cs k' out, Forall (fun c => bytes_ok (sc_msg c) /\ all_committed H junk (sc_msg c)) cs ->
  s_run H junk ecrecover k cs = (k', out) ->
  (Forall2 (@In (list Z)) out (firstn (length out) (carriers (b :: rest))) /\ zlen out = d_next (k_db k') - snd (after H nid None 0 pre)) \/ broken H (b :: rest).
Proof.
  intros cs k' out F E.
  pose proof (start_sinv H junk ecrecover src ntid nid ctx0 (pre ++ b :: rest) (b :: rest) (snd (after H nid None 0 pre)) J Hist Hdec Honest pre b rest eq_refl eq_refl eq_refl bmc first off k h Eh Bf Es Ev Ek) as K.
  destruct (run_sinv H junk ecrecover src ntid nid ctx0 (pre ++ b :: rest) (b :: rest) _ HH J Hsrc Hntid Hist Hdec Honest cs k [] True k' out K F E) as [(_ & _ & _ & I)|X]; [|right; exact X].
  left. cbn [app] in I. apply (sinv_result H junk src) in I as (I1 & I2 & _). auto.
Qed.

(** If moreover every proof of messages starts where the last one ended, the messages handed over are the first messages
    of the chain, each once and in order. *)
Theorem C66_in_order_if_proofs_are : forall cs k' out, Forall (fun c => bytes_ok (sc_msg c) /\ all_committed H junk (sc_msg c)) cs -> calls_in_order H junk ecrecover k cs ->
  s_run H junk ecrecover k cs = (k', out) -> (exists r, messages (b :: rest) = out ++ r) \/ broken H (b :: rest).
Proof.
  intros cs k' out F O E.
  pose proof (start_sinv H junk ecrecover src ntid nid ctx0 (pre ++ b :: rest) (b :: rest) (snd (after H nid None 0 pre)) J Hist Hdec Honest pre b rest eq_refl eq_refl eq_refl bmc first off k h Eh Bf Es Ev Ek) as K.
  destruct (run_sinv H junk ecrecover src ntid nid ctx0 (pre ++ b :: rest) (b :: rest) _ HH J Hsrc Hntid Hist Hdec Honest cs k [] True k' out K F E) as [(_ & _ & _ & I)|X]; [|right; exact X].
  left. cbn [app] in I. apply (sinv_result H junk src) in I as (_ & _ & I3). apply I3. auto.
Qed.
End Chain.
Print Assumptions C66_delivered_from_right_block.
Print Assumptions C66_in_order_if_proofs_are.

(** FINDING: the place of a proof within the block is not compared with what was handed over before: a proof that was
    accepted is accepted again while the block counts as unfinished. *)
Theorem C66_proof_again_refuted : forall H db rem p db' rem', s_messages H db rem p = Some (db', rem') -> zlen (sp_mesgs p) <= rem' -> d_next db' + zlen (sp_mesgs p) < 2 ^ 256 ->
  exists db'' rem'', s_messages H db' rem' p = Some (db'', rem'') /\ d_next db'' = d_next db + 2 * zlen (sp_mesgs p).
Proof.
  intros H db rem p db' rem' E L B. unfold s_messages in *. sb E x E1. sb E u E2. sb E r E3. sb E n E4. injection E as <- <-. cbn [d_root d_cnt d_next] in *. cbn [sbind]. rewrite E2. cbn [sbind].
  apply csub_some in E3 as [_ E3]. apply cadd_some in E4. unfold csub, cadd. replace (r <? zlen (sp_mesgs p)) with false by lia. cbn [sbind]. replace (n + zlen (sp_mesgs p) <? 2 ^ 256) with true by lia. cbn [sbind].
  do 2 eexists. split; [reflexivity|]. cbn [d_next]. lia.
Qed.
Print Assumptions C66_proof_again_refuted.

(** Items of a type that is not known are passed over. *)
Theorem C66_unknown_items_ignored : forall H junk ecrecover k l db rem acc, s_items H junk ecrecover k db rem acc l = s_items H junk ecrecover k db rem acc (filter (fun x => (fst x =? 1) || (fst x =? 2)) l).
Proof.
  intros H junk ecrecover k. induction l as [|[ty b] l IH]; intros db rem acc; cbn [s_items filter fst]; [reflexivity|]. destruct (ty =? 1) eqn:E1; [|destruct (ty =? 2) eqn:E2]; cbn [orb s_items]; rewrite ?E1, ?E2.
  - destruct (decodeBlockUpdate junk b) as [u|]; [|reflexivity]. cbn [sbind]. destruct (s_update _ _ _ _ _ _ _) as [x|]; [|reflexivity]. cbn [sbind]. apply IH.
  - destruct (decodeMessageProof junk b) as [p|]; [|reflexivity]. cbn [sbind]. destruct (s_messages _ _ _ _) as [x|]; [|reflexivity]. cbn [sbind]. apply IH.
  - apply IH.
Qed.
Print Assumptions C66_unknown_items_ignored.

(** What the relay writes the contract reads, item by item. *)
Definition means (n : news) (addrs : list (list Z)) (x : Z * list Z) (junk : list Z -> mem) : Prop :=
  match n with
  | Header h sigs => fst x = 1 /\ decodeBlockUpdate junk (snd x) = Some (taken h (map be_val addrs), sigs)
  | Messages all m => fst x = 2 /\ decodeMessageProof junk (snd x) = Some (of_proof m)
  end.
Theorem C66_relay_bytes_read : forall junk l ctxs bytes, (forall x, mem_ok (junk x)) -> Forall news_ok l -> Forall2 sol_news_ok l ctxs ->
  BuildRelayMessage (map build l) = Some bytes -> zlen bytes < 2 ^ 63 ->
  exists items, decodeTyped junk bytes = Some items /\ length items = length l /\ forall i n addrs x, nth_error l i = Some n -> nth_error ctxs i = Some addrs -> nth_error items i = Some x -> means n addrs x junk.
Proof.
  intros junk l ctxs bytes J F S E L. rewrite enc_message in E by assumption. injection E as <-. destruct (typed_holds junk J l F L) as [E Lb]. exists (map (fun n => (kind n, body n)) l).
  split; [exact E|]. split; [apply map_length|]. intros i n addrs x En Ea Ex. rewrite nth_error_map, En in Ex. cbn [option_map] in Ex. injection Ex as <-.
  assert (In n l) by (eapply nth_error_In; eassumption). rewrite Forall_forall in F, Lb. specialize (F n ltac:(assumption)). specialize (Lb n ltac:(assumption)).
  assert (Sn : sol_news_ok n addrs). { clear - S En Ea. revert i En Ea. induction S as [|a c l ctxs A S IH]; intros [|i] En Ea; cbn [nth_error] in *; try discriminate; [congruence|]. eapply IH; eassumption. }
  destruct n as [h sigs|all m]; cbn [means kind fst snd news_ok sol_news_ok] in *; (split; [reflexivity|]).
  - apply update_holds; [assumption|apply F|apply F|assumption..].
  - apply proof_holds; assumption.
Qed.
Print Assumptions C66_relay_bytes_read.

(** Relay messages whose validators are those of the context hash satisfy the condition of the theorems above. *)
Theorem C66_relay_messages_committed : forall H junk l ctxs bytes, (forall x, mem_ok (junk x)) -> Forall news_ok l -> Forall2 sol_news_ok l ctxs ->
  Forall2 (fun n addrs => match n with Header h _ => Z.odd (hd_upd h) = true -> hd_nextCtxHash h = Some (H (ctx_wire addrs)) | Messages _ _ => True end) l ctxs ->
  BuildRelayMessage (map build l) = Some bytes -> zlen bytes < 2 ^ 63 -> bytes_ok bytes /\ all_committed H junk bytes.
Proof.
  intros H junk l ctxs bytes J F S C E L. split; [exact (message_bytes l bytes F E L)|]. rewrite enc_message in E by assumption. injection E as <-. destruct (typed_holds junk J l F L) as [E Lb].
  intros rms b h sigs Er I Ed. rewrite E in Er. injection Er as <-. apply in_map_iff in I as (n & En & In_n). apply In_nth_error in In_n as (i & Ei).
  assert (X : exists addrs, sol_news_ok n addrs /\ match n with Header h _ => Z.odd (hd_upd h) = true -> hd_nextCtxHash h = Some (H (ctx_wire addrs)) | Messages _ _ => True end /\ zlen (body n) < 2 ^ 63 /\ news_ok n).
  { clear - S C F Lb Ei. revert i Ei. induction S as [|a c l ctxs A S IH]; intros [|i] Ei; cbn [nth_error] in *; try discriminate.
    - injection Ei as ->. exists c. split; [exact A|]. split; [inversion C; assumption|]. split; [exact (Forall_inv Lb)|exact (Forall_inv F)].
    - apply (IH (Forall_inv_tail F)) with (i := i); [|exact (Forall_inv_tail Lb)|exact Ei]. inversion C; assumption. }
  destruct X as (addrs & X1 & X2 & X3 & X4). destruct n as [h0 s0|all m]; cbn [kind] in En; [|discriminate]. assert (Eb : b = body (Header h0 s0)) by congruence. subst b. clear En. destruct X4 as [X4 X5].
  rewrite (update_holds junk J h0 s0 addrs X4 X5 X1 X3) in Ed. injection Ed as <- <-. intros U. cbn [taken sh_upd sh_ctx sh_vals] in *. exists (ctx_wire addrs). rewrite (X2 U). split; [reflexivity|].
  cbn [sol_news_ok] in X1. destruct X1 as (_ & _ & _ & _ & _ & _ & _ & _ & _ & Fa & V). rewrite U in V. apply validators_holds; try assumption.
  cbn [body] in X3. apply two_small in X3 as [X3 _]. apply small_b in X3. unfold header_wire, header_item in X3. apply small_children in X3 as [_ X3].
  do 9 apply Forall_inv_tail in X3. apply Forall_inv in X3. rewrite V in X3. cbn [opt_item] in X3. apply small_b in X3. exact X3.
Qed.
Print Assumptions C66_relay_messages_committed.

(** All the way: the header of the next block and a proof of its first messages, packed by the relay, are accepted and
    exactly these messages are handed over. *)
Lemma prf_len : forall H c num, digest_size H 32 -> Forall (fun x => zlen (snd x) = 32) (items c) ->
  zlen (chash H c) = 32 /\ Forall (fun x => zlen (snd x) = 32) (lprf H c num) /\ Forall (fun x => zlen (snd x) = 32) (rprf H c num).
Proof.
  intros H c num D. revert num. induction c as [m h|l IHl r IHr]; intros num F.
  - cbn [items] in F. apply Forall_inv in F. cbn [chash lprf rprf]. repeat split; auto.
  - cbn [items] in F. apply Forall_app in F as [F1 F2]. destruct (IHl num F1) as (B1 & L1 & R1). destruct (IHr (num - cnum l) F2) as (B2 & L2 & R2). cbn [lprf rprf chash]. split; [apply D|].
    destruct (cnum l <? num); split; auto. apply Forall_app. split; auto.
Qed.
Lemma proof_nodes_ok : forall H cs b e t m, hash32 H -> zlen cs < 2 ^ 31 -> 1 <= b -> b <= e -> e <= zlen cs ->
  NewMerkleBinaryTree H (map Some cs) = Ok t -> mbt_Proof t b e = Ok m -> Forall sol_node_ok (p_left m ++ p_right m).
Proof.
  intros H cs b e t m HH L H1 H2 H3 E1 E2.
  assert (Hne : cs <> []) by (destruct cs; [cbn in *; lia|discriminate]).
  assert (HN : forall x, H x <> []). { destruct HH as [D _]. intros x E. specialize (D x). rewrite E in D. discriminate. }
  destruct (New_spec H cs HN Hne ltac:(lia)) as (c & C1 & C2 & C3 & _ & E). rewrite E in E1. injection E1 as <-.
  assert (N : cnum c = zlen cs) by (rewrite full_num, C3 by assumption; unfold zlen; rewrite map_length; reflexivity).
  assert (I : Forall (fun x => zlen (snd x) = 32) (items c)).
  { rewrite C3. apply Forall_map. apply Forall_forall. intros x _. cbn [snd]. apply HH. }
  assert (I2 : Forall (fun x => bytes_ok (snd x)) (items c)).
  { rewrite C3. apply Forall_map. apply Forall_forall. intros x _. apply HH. }
  rewrite (Proof_spec H) in E2 by (assumption || lia). injection E2 as <-. cbn [p_left p_right].
  destruct (prf_len H c b (proj1 HH) I) as (_ & PL & _). destruct (prf_len H c e (proj1 HH) I) as (_ & _ & PR).
  destruct (prf_ok H c b HH C1 I2) as (_ & QL & _). destruct (prf_ok H c e HH C1 I2) as (_ & _ & QR).
  apply Forall_app. split; apply Forall_map; apply Forall_forall; intros x Hx; rewrite Forall_forall in *.
  - specialize (PL x Hx). specialize (QL x Hx). split; cbn [pn p_num p_value]; [lia|assumption].
  - specialize (PR x Hx). specialize (QR x Hx). split; cbn [pn p_num p_value]; [lia|assumption].
Qed.

Theorem C66_block_and_messages_end_to_end : forall H junk ecrecover k acc h sigs addrs cs root e t m bytes, hash32 H -> (forall x, mem_ok (junk x)) ->
  let db := k_db k in let src := k_src k in
  bytes_ok src -> zlen src < 2 ^ 60 -> src <> [128] -> 0 <= k_ntid k < 2 ^ 128 - 1 -> ~ In (ch "/") src -> ~ In (ch "/") acc -> acc <> [] ->
  (* all messages so far were handed over *)
  0 <= k_off k -> d_next db = d_first db + d_cnt db -> 0 <= d_cnt db ->
  (* the header of the next block, with messages [cs] *)
  wire_header_ok h -> sol_header_ok h addrs -> Forall bytes_ok sigs -> hd_upd h < 2 ^ 127 -> hd_height h < 2 ^ 127 -> hd_round h < 2 ^ 127 -> hd_nid h < 2 ^ 127 ->
  hd_nid h = k_nid k -> hd_prev h = Some (d_hash db) -> hd_upd h / 2 = d_next db -> hd_cnt h = zlen cs -> hd_root h = Some root -> merkle H cs root -> root <> repeat 0 32 -> d_hash db <> repeat 0 32 ->
  Forall bytes_ok cs -> zlen cs < 2 ^ 31 ->
  (* signed by more than two thirds of the validators, in their order *)
  Forall whole_sig sigs -> (length sigs <= length (d_vals db))%nat ->
  2 * zlen (d_vals db) < 3 * matches ecrecover (dec_hash H src (k_ntid k) (hd_height h) (hd_round h) (Some (dflt32 (hd_nextCtxHash h))) (s_pathRoot H (H (ns_enc (header_section h))) (hd_path h))) (d_vals db) sigs ->
  (* a proof of the first [e] messages *)
  1 <= e <= zlen cs -> NewMerkleBinaryTree H (map Some cs) = Ok t -> mbt_Proof t 1 e = Ok m ->
  BuildRelayMessage (map build (first_report t h sigs m e)) = Some bytes -> zlen bytes < 2 ^ 63 ->
  exists k', s_handle H junk ecrecover k (k_bmc k) (address_text (str "btp") src acc) (k_off k + d_next db) bytes = Some (k', firstn (Z.to_nat e) cs) /\
    d_hash (k_db k') = H (ns_enc (header_section h)) /\ d_next (k_db k') = d_next db + e /\ d_first (k_db k') = d_next db /\ d_cnt (k_db k') = zlen cs /\ d_root (k_db k') = root /\
    d_vals (k_db k') = (if Z.odd (hd_upd h) then map be_val addrs else d_vals db) /\ d_height (k_db k') = (if hd_height h =? 0 then d_height db else hd_height h).
Proof.
  intros * HH J db src S1 S2 S3 N Ns Na Ha Ho Hn Hc W S Fs Hu Hh Hr Hnid P1 P2 P3 P4 P5 M Zr Zp Fc Lc F L Q He Et Em Eb Lb.
  assert (O : Forall news_ok (first_report t h sigs m e)).
  { constructor; [cbn [news_ok]; auto|]. constructor; [|constructor]. cbn [news_ok]. apply (proof_sendable H cs); assumption || lia. }
  rewrite enc_message in Eb by assumption. injection Eb as <-. destruct (typed_holds junk J _ O Lb) as [Ety Lbs].
  pose proof (Forall_inv Lbs) as Lh. pose proof (Forall_inv (Forall_inv_tail Lbs)) as Lm. clear Lbs.
  pose proof (update_holds junk J h sigs addrs W Fs S Lh) as Eu.
  pose proof (proof_holds junk J (is_all t 1 e) m ltac:(apply (proof_sendable H cs); assumption || lia) ltac:(apply (proof_nodes_ok H cs 1 e t); assumption || lia) Lm) as Ep.
  assert (Bu : bytes_ok (body (Header h sigs))) by (cbn [body] in *; apply rlp_write_ok; [apply update_ok; assumption|exact Lh]).
  pose proof (update_decoded junk J _ _ _ Bu Eu) as Oh.
  destruct (C64_relay_proofs_accepted H cs 1 e root) as (t2 & m2 & Q1 & Q2 & Q3 & Q4 & Q5); try assumption; try lia.
  { destruct HH as [D _]. intros x E. specialize (D x). rewrite E in D. discriminate. }
  rewrite Et in Q1. injection Q1 as <-. rewrite Em in Q2. injection Q2 as <-.
  pose proof S as (U1 & U2 & U3 & U4 & U5 & L1 & L2 & L3 & _). destruct W as (W1 & W2 & W3 & W4 & W5). unfold unsigned in *.
  assert (Es : s_section (taken h (map be_val addrs)) = header_section h).
  { unfold s_section, taken, header_section. cbn [sh_nid sh_sn sh_upd sh_prev sh_cnt sh_root]. f_equal.
    - rewrite (Z.div_mod (hd_upd h) 2) at 3 by lia. rewrite Zmod_odd. reflexivity.
    - rewrite P2. cbn [dflt32]. unfold opt32. destruct (bytes_eqb _ _) eqn:X; [apply bytes_eqb_eq in X; contradiction|reflexivity].
    - rewrite P5. cbn [dflt32]. unfold opt32. destruct (bytes_eqb _ _) eqn:X; [apply bytes_eqb_eq in X; contradiction|reflexivity]. }
  destruct (C65_genuine_update_accepted H junk ecrecover k db (body (Header h sigs)) (taken h (map be_val addrs)) sigs) as (db1 & rem1 & A1 & A2 & A3 & A4 & A5 & A6 & _); try assumption;
    cbn [taken sh_height sh_round sh_nid sh_sn sh_cnt sh_prev sh_ctx sh_path]; try lia.
  { pose proof (Z.mul_div_le (hd_upd h) 2 ltac:(lia)). lia. }
  { rewrite P2. reflexivity. }
  { cbv zeta in Q. rewrite Es. exact Q. }
  cbn [taken sh_root sh_cnt sh_sn sh_upd sh_vals sh_height] in A2, A3, A4, A5, A6. rewrite P5 in A6. cbn [dflt32] in A6. destruct (A6 Zr) as (A7 & A8 & A9 & A10).
  assert (Ec : p_contents m = firstn (Z.to_nat e) cs /\ zlen (p_contents m) = e).
  { split; [|lia]. destruct Q4 as (a & c & Ecs & La). assert (a = []) by (destruct a; [reflexivity|rewrite zlen_cons in La; pose proof (zlen_nonneg _ a); lia]). subst a. cbn [app] in Ecs. rewrite Ecs. rewrite firstn_app.
    replace (Z.to_nat e - length (p_contents m))%nat with 0%nat by (unfold zlen in Q5; lia). cbn [firstn]. rewrite app_nil_r, firstn_all2; [reflexivity|unfold zlen in Q5; lia]. }
  destruct Ec as [Ec Ec2].
  assert (Hsn : 0 <= d_next db < 2 ^ 127) by (destruct Oh as (_ & _ & _ & _ & _ & O6 & _); cbn [taken sh_sn] in O6; pose proof (Z.mul_div_le (hd_upd h) 2 ltac:(lia)); lia).
  assert (Em2 : s_messages H db1 rem1 (of_proof m) = Some (SDb (d_hash db1) (d_root db1) (d_height db1) (d_cnt db1) (d_first db1) (d_next db1 + e) (d_vals db1), rem1 - e)).
  { unfold s_messages. rewrite Q3. cbn [sbind fst snd of_proof sp_mesgs]. rewrite A7, A8, bytes_eqb_refl, P4, Z.eqb_refl. cbn [andb require sbind]. rewrite Ec2. unfold csub, cadd.
    replace (rem1 <? e) with false by lia. cbn [sbind]. replace (d_next db1 + e <? 2 ^ 256) with true by (rewrite A3; pose proof (Z.pow_lt_mono_r 2 127 255); pose proof (Z.pow_lt_mono_r 2 255 256); lia). reflexivity. }
  eexists. split.
  - unfold s_handle. rewrite Z.eqb_refl. cbn [require sbind]. fold src. rewrite C66_address_split; [|assumption|assumption|destruct acc; [contradiction|cbn [length]; lia]]. cbn [sbind fst]. rewrite bytes_eqb_refl. cbn [require sbind]. cbv zeta. fold db.
    unfold csub at 1. replace (k_off k + d_next db <? k_off k) with false by lia. cbn [sbind]. replace (d_next db =? k_off k + d_next db - k_off k) with true by lia. cbn [require sbind].
    unfold csub. replace (d_next db <? d_first db) with false by lia. cbn [sbind]. replace (d_cnt db <? d_next db - d_first db) with false by lia. cbn [sbind].
    rewrite Ety. cbn [sbind first_report map kind s_items]. change (1 =? 1) with true. change (2 =? 1) with false. change (2 =? 2) with true. cbv iota. rewrite Eu. cbn [sbind fst snd].
    replace (d_cnt db - (d_next db - d_first db)) with 0 by lia. rewrite A1. cbn [sbind fst snd]. rewrite Ep. cbn [sbind]. rewrite Em2. cbn [sbind fst snd app of_proof sp_mesgs]. rewrite Ec. reflexivity.
  - cbn [k_db fst snd d_hash d_next d_first d_cnt d_root d_vals d_height]. rewrite A2, A3, A4, A5, A7, A8, A9, Es. repeat split; assumption.
Qed.
Print Assumptions C66_block_and_messages_end_to_end.

(** *** The chain of [T_JBmv] again: four validators, a block without messages, a change of validators.  A signature is
    the address itself; it counts for the digests of the chain only. *)
Definition ex_junk : list Z -> mem := fun _ _ => 0.
Definition ex_ecrecover (d : list Z) (v : Z) (r s : list Z) : Z := if existsb (bytes_eqb d) (map (gb_decision toy32 ex_src 1) ex_chain) then be_val r else -1.
Definition ex_sig (k : list Z) : list Z := repeat 0 12 ++ ex_addr k ++ repeat 0 32 ++ [0].
Definition ex_messages (l : list (list Z)) (b e : Z) : news :=
  match NewMerkleBinaryTree toy32 (map Some l) with
  | Ok t => match mbt_Proof t b e with Ok m => Messages (is_all t b e) m | _ => Header (ex_header ex_b0 ex_s0 []) [] end
  | _ => Header (ex_header ex_b0 ex_s0 []) [] end.
Definition ex_bytes (l : list news) : list Z := match BuildRelayMessage (map build l) with Some b => b | None => [] end.
Definition ex_h1 (ks : list (list Z)) := Header (ex_header ex_b1 ex_s1 []) (map ex_sig ks).
Definition ex_h2 (ks : list (list Z)) := Header (ex_header ex_b2 ex_s2 [(0, nst_root toy32 ex_other)]) (map ex_sig ks).
Definition ex_first := header_wire (ex_header ex_b0 ex_s0 []).
Definition ex_k0 := s_construct toy32 ex_junk 3 ex_src 1 ex_first 7.
Definition ex_scall (sn : Z) (l : list news) : scall := SCall 3 (str "btp://0x1.icon/cx01") (7 + sn) (ex_bytes l).
Definition ex_run (cs : list scall) : option (Z * list (list Z)) := match ex_k0 with Some k => let (k', out) := s_run toy32 ex_junk ex_ecrecover k cs in Some (d_next (k_db k'), out) | None => None end.
Definition ex_m0 (b e : Z) := ex_messages [[1]; [2; 2]] b e.
Definition ex_scalls : list scall :=
  [ex_scall 0 [ex_m0 1 1]; ex_scall 0 [ex_m0 1 1] (* the number is no longer in turn *); ex_scall 1 [ex_m0 2 2; ex_h1 [[1]; [2]; [3]]];
   ex_scall 2 [ex_h2 [[1]; [2]]] (* too few *); ex_scall 2 [ex_h2 [[1]; [9]; [3]; [4]]; ex_messages ex_msgs 1 3]; ex_scall 5 [ex_messages ex_msgs 4 4]].
Example C66_ex_run : ex_run ex_scalls = Some (6, [[1]; [2; 2]; [1]; [2; 2]; [3]; [4]]).
Proof. vm_compute. reflexivity. Qed.
(** A proof accepted twice: the second message is lost for good, the first one handed over twice; the chain goes on. *)
Example C66_ex_twice : ex_run [ex_scall 0 [ex_m0 1 1; ex_m0 1 1]; ex_scall 2 [ex_h1 [[1]; [2]; [3]]; ex_h2 [[1]; [9]; [3]; [4]]; ex_messages ex_msgs 1 5]] =
  Some (7, [[1]; [1]] ++ ex_msgs) /\ ex_run [ex_scall 0 [ex_m0 2 2]; ex_scall 1 [ex_m0 2 2]] = Some (2, [[2; 2]; [2; 2]]).
Proof. vm_compute. split; reflexivity. Qed.
(** The conditions of the theorems hold for this run. *)
Example C66_ex_honest : forall g vs d, In g ex_chain -> decodeValidators ex_junk (gb_ctx g) = Some vs -> squorum ex_ecrecover vs d -> exists g', In g' ex_chain /\ d = gb_decision toy32 ex_src 1 g'.
Proof.
  intros g vs d I V (places & _ & S & L). destruct places as [|i places]; [change (zlen (@nil nat)) with 0 in L; pose proof (zlen_nonneg _ vs); lia|].
  destruct (S i (or_introl eq_refl)) as (a & Ea & v & r & s & E). unfold ex_ecrecover in E. destruct (existsb _ _) eqn:X.
  - apply existsb_bytes in X. apply in_map_iff in X as (y & <- & Hy). eauto.
  - exfalso. assert (F : forallb (fun x => 0 <=? x) vs = true). { repeat (destruct I as [<-|I]; [vm_compute in V; injection V as <-; vm_compute; reflexivity|]). destruct I. }
    rewrite forallb_forall in F. apply nth_error_In in Ea. specialize (F a Ea). lia.
Qed.
Example C66_ex_setup : exists k h, ex_k0 = Some k /\ decodeHeader ex_junk ex_first = Some h /\ bytes_ok ex_first /\ s_section h = gb_section 5 None 0 ex_b0 /\ decodeValidators ex_junk (gb_ctx ex_b0) = Some (sh_vals h) /\ zlen (sh_vals h) = 4.
Proof.
  destruct ex_k0 as [k|] eqn:E; [|vm_compute in E; discriminate]. destruct (decodeHeader ex_junk ex_first) as [h|] eqn:Eh; [|vm_compute in Eh; discriminate]. exists k, h.
  vm_compute in Eh. injection Eh as <-. repeat split; try (vm_compute; reflexivity). apply bytes_ok_b. vm_compute. reflexivity.
Qed.
Definition committed_b (H : list Z -> list Z) (junk : list Z -> mem) (ctx : list Z) (h : sheader) : bool :=
  negb (sh_upd h) || (bytes_eqb (sh_ctx h) (H ctx) && match decodeValidators junk ctx with Some vs => bytes_eqb vs (sh_vals h) | None => false end).
Lemma committed_by : forall H junk ctx msg, match decodeTyped junk msg with
    | Some rms => forallb (fun x => match decodeBlockUpdate junk (snd x) with Some u => committed_b H junk ctx (fst u) | None => true end) rms
    | None => true end = true -> all_committed H junk msg.
Proof.
  intros H junk ctx msg E rms b h sigs Er I Ed U. rewrite Er in E. rewrite forallb_forall in E. specialize (E _ I). cbn [snd] in E. rewrite Ed in E. cbn [fst] in E. unfold committed_b in E. rewrite U in E. cbn [negb orb] in E.
  apply andb_prop in E as [E1 E2]. exists ctx. destruct (decodeValidators junk ctx) as [vs|]; [|discriminate]. apply bytes_eqb_eq in E1, E2. subst vs. auto.
Qed.
Example C66_ex_committed : Forall (fun c => bytes_ok (sc_msg c) /\ all_committed toy32 ex_junk (sc_msg c)) ex_scalls.
Proof.
  assert (G : forallb (fun c => rlp_okb (RBytes (sc_msg c)) && match decodeTyped ex_junk (sc_msg c) with
    | Some rms => forallb (fun x => match decodeBlockUpdate ex_junk (snd x) with Some u => committed_b toy32 ex_junk ex_ctxB (fst u) | None => true end) rms
    | None => true end) ex_scalls = true) by (vm_compute; reflexivity).
  apply Forall_forall. intros c I. rewrite forallb_forall in G. specialize (G c I). apply andb_prop in G as [G1 G2]. split; [apply bytes_ok_b; exact G1|apply (committed_by _ _ ex_ctxB); exact G2].
Qed.
Definition order_b (H : list Z -> list Z) (junk : list Z -> mem) (ecrecover : list Z -> Z -> list Z -> list Z -> Z) (k : sbmv) : sdb -> Z -> list (Z * list Z) -> bool :=
  fix go db rem l := match l with
   | [] => true
   | (ty, b) :: r =>
      if ty =? 1 then match decodeBlockUpdate junk b with Some (h, sigs) => match s_update H ecrecover k db rem h sigs with Some (db', rem') => go db' rem' r | None => true end | None => true end
      else if ty =? 2 then match decodeMessageProof junk b with Some p => match s_messages H db rem p with Some (db', rem') => (fold_right (fun x a => sn_count x + a) 0 (sp_lefts p) =? d_next db - d_first db) && go db' rem' r | None => true end | None => true end
      else go db rem r end.
Lemma items_order_by : forall H junk ecrecover k l db rem, order_b H junk ecrecover k db rem l = true -> items_in_order H junk ecrecover k db rem l.
Proof.
  intros H junk ecrecover k. induction l as [|[ty b] l IH]; intros db rem E; cbn [items_in_order order_b] in *; [exact I|]. destruct (ty =? 1); [|destruct (ty =? 2)].
  - intros h sigs db' rem' E1 E2. rewrite E1, E2 in E. apply IH. exact E.
  - intros p db' rem' E1 E2. rewrite E1, E2 in E. apply andb_prop in E as [E3 E4]. split; [lia|]. apply IH. exact E4.
  - apply IH. exact E.
Qed.
Fixpoint calls_b (H : list Z -> list Z) (junk : list Z -> mem) (ecrecover : list Z -> Z -> list Z -> list Z -> Z) (k : sbmv) (cs : list scall) : bool :=
  match cs with
  | [] => true
  | c :: r => match s_handle H junk ecrecover k (sc_sender c) (sc_prev c) (sc_sn c) (sc_msg c) with
    | None => calls_b H junk ecrecover k r
    | Some (k', _) => match decodeTyped junk (sc_msg c) with Some rms => order_b H junk ecrecover k (k_db k) (d_cnt (k_db k) - (d_next (k_db k) - d_first (k_db k))) rms | None => true end && calls_b H junk ecrecover k' r end
  end.
Lemma calls_order_by : forall H junk ecrecover cs k, calls_b H junk ecrecover k cs = true -> calls_in_order H junk ecrecover k cs.
Proof.
  intros H junk ecrecover. induction cs as [|c cs IH]; intros k E; cbn [calls_in_order calls_b] in *; [exact I|]. destruct (s_handle _ _ _ _ _ _ _ _) as [[k' o]|]; [|apply IH; exact E].
  apply andb_prop in E as [E1 E2]. split; [|apply IH; exact E2]. intros rms Er. rewrite Er in E1. apply items_order_by. exact E1.
Qed.
Example C66_ex_in_order : exists k, ex_k0 = Some k /\ calls_in_order toy32 ex_junk ex_ecrecover k ex_scalls.
Proof.
  assert (G : match ex_k0 with Some k => calls_b toy32 ex_junk ex_ecrecover k ex_scalls | None => false end = true) by (vm_compute; reflexivity).
  destruct ex_k0 as [k|]; [|discriminate]. exists k. split; [reflexivity|]. apply calls_order_by. exact G.
Qed.

(** *** C65: the votes.  [ex_at1] stands at the first block with both messages handed over. *)
Definition ex_at1 : option sbmv := match ex_k0 with Some k => Some (fst (s_run toy32 ex_junk ex_ecrecover k [ex_scall 0 [ex_m0 1 2]])) | None => None end.
Definition ex_update (sigs : list (list Z)) : option Z :=
  match ex_at1 with
  | Some k => match s_handle toy32 ex_junk ex_ecrecover k 3 (str "btp://0x1.icon/cx01") 9 (ex_bytes [Header (ex_header ex_b1 ex_s1 []) sigs]) with Some (k', _) => Some (d_height (k_db k')) | None => None end
  | None => None end.
Example C65_ex :
  ex_update (map ex_sig [[1]; [2]; [3]]) = Some 101 /\ ex_update (map ex_sig [[1]; [9]; [3]; [4]]) = Some 101 /\
  ex_update (map ex_sig [[1]; [2]]) = None /\ ex_update (map ex_sig [[1]; [1]; [1]; [1]]) = None /\ ex_update (map ex_sig [[2]; [1]; [4]; [3]]) = None (* in the wrong order *) /\
  (* one signature missing: rejected at the front, though the other three would suffice; harmless at the end *)
  ex_update ([] :: map ex_sig [[2]; [3]; [4]]) = None /\ ex_update (map ex_sig [[1]; [2]; [3]] ++ [[]]) = Some 101 /\
  (* more signatures than validators *)
  ex_update (map ex_sig [[1]; [2]; [9]; [9]; [3]]) = None.
Proof. vm_compute. repeat split. Qed.
