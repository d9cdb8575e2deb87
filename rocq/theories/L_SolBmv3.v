(** Lemmas for the Solidity BTP block verifier: headers, signatures and the chain. *)
From Coq Require Import String Ascii ZArith List Bool Lia.
From Coq Require Import ZifyBool.
From Verif Require Import Base L_Base M_IntConv S_IntConv L_IntConv M_Rlp S_Rlp L_Rlp T_Rlp M_Mbt S_Mbt L_Mbt L_Mbt2 L_Mbt3 M_JBmv S_JBmv L_JBmv2 L_JBmv3
  M_SolRlp S_SolRlp L_SolRlp T_SolRlp M_Bridge M_SolBmv S_SolBmv L_SolBmv L_SolBmv2.
Import ListNotations.
Open Scope Z_scope.

(** ** what a decoder hands out *)
Definition iok (it : sitem) : Prop := mem_ok (i_mem it).
Lemma iok_item : forall junk b, (forall x, mem_ok (junk x)) -> bytes_ok b -> iok (toRlpItem junk b).
Proof.
  intros junk b J B i. unfold toRlpItem. cbn [i_mem]. destruct (i <? zlen b); [|apply J]. destruct (nth_in_or_default (Z.to_nat i) b 0) as [I| ->]; [|unfold is_byte; lia].
  unfold bytes_ok in B. rewrite Forall_forall in B. apply B. exact I.
Qed.
Lemma toList_iok : forall it its, iok it -> toList it = Some its -> Forall iok its.
Proof.
  intros it its O E. unfold toList in E. sreq E F. injection E as <-. apply Forall_map, Forall_forall. intros p _ i. cbn [i_mem]. apply O.
Qed.
Lemma toBytes_iok : forall it b, iok it -> toBytes it = Some b -> bytes_ok b.
Proof. intros it b O E. unfold toBytes in E. sreq E F. cbv zeta in E. sb E n F2. injection E as <-. apply bytes_of_ok. exact O. Qed.
Lemma mload_range : forall m p, mem_ok m -> 0 <= mload m p < 2 ^ 256.
Proof.
  intros m p O. unfold mload. pose proof (be_val_bound (bytes_of m p 32) (bytes_of_ok _ _ _ O)) as B. pose proof (bytes_of_len m p 32 ltac:(lia)) as L.
  replace (256 ^ Z.of_nat (length (bytes_of m p 32))) with (2 ^ 256) in B; [exact B|]. fold (zlen (bytes_of m p 32)). rewrite L. reflexivity.
Qed.
Lemma toUint_iok : forall it u, iok it -> toUint it = Some u -> 0 <= u < 2 ^ 256.
Proof.
  intros it u O E. unfold toUint in E. sreq E F. cbv zeta in E. sb E n F2. injection E as <-. pose proof (mload_range (i_mem it) (payloadOffset (i_mem it) 0) O) as M.
  destruct (n <? 32); [|exact M]. unfold shifted, evm_div. destruct (_ =? 0) eqn:Z0; [lia|].
  assert (0 < evm_exp 256 (32 - n)) by (unfold evm_exp in *; pose proof (Z.mod_pos_bound (256 ^ (32 - n)) (2 ^ 256) ltac:(lia)); lia).
  split; [apply Z.div_pos; lia|]. apply Z.div_lt_upper_bound; [lia|]. nia.
Qed.
Lemma map_opt_all : forall A B (P : A -> Prop) (Q : B -> Prop) f l xs, map_opt f l = Some xs -> Forall P l -> (forall a x, P a -> f a = Some x -> Q x) -> Forall Q xs.
Proof.
  intros A B P Q f. induction l as [|a l IH]; intros xs E F G; cbn [map_opt] in E; [injection E as <-; constructor|]. inversion F; subst. sb E y E1. sb E ys E2. injection E as <-. constructor; eauto.
Qed.
Lemma at_iok : forall its i it, Forall iok its -> at_index its i = Some it -> iok it.
Proof. intros its i it F E. unfold at_index in E. apply nth_error_In in E. rewrite Forall_forall in F. auto. Qed.
Lemma toRlpBytes_iok : forall it, iok it -> bytes_ok (toRlpBytes it).
Proof. intros it O. apply bytes_of_ok. exact O. Qed.

Lemma zeros_ok : forall n, bytes_ok (repeat 0 n).
Proof. intros n. apply Forall_forall. intros x Hx. apply repeat_spec in Hx. subst. unfold is_byte. lia. Qed.
Lemma In_firstn : forall A n (l : list A) x, In x (firstn n l) -> In x l.
Proof. intros A n l x I. rewrite <- (firstn_skipn n l). apply in_or_app. auto. Qed.
Definition word (b : list Z) : Prop := zlen b = 32 /\ bytes_ok b.
Lemma to32_word : forall b, bytes_ok b -> word (to32 b).
Proof.
  intros b O. unfold to32. split.
  - unfold zlen. rewrite firstn_length, app_length, repeat_length. lia.
  - apply Forall_forall. intros x I. apply In_firstn in I. revert x I. apply Forall_forall. apply Forall_app. split; [exact O|apply zeros_ok].
Qed.
Lemma zero32_word : word zero32.
Proof. split; [reflexivity|apply zeros_ok]. Qed.
Lemma to32_id : forall b, zlen b = 32 -> to32 b = b.
Proof. intros b L. unfold to32, zlen in *. rewrite firstn_app. replace (32 - length b)%nat with 0%nat by lia. rewrite firstn_O, app_nil_r. apply firstn_all2. lia. Qed.

Definition sheader_ok (h : sheader) : Prop :=
  0 <= sh_height h /\ 0 <= sh_round h /\ word (sh_ctx h) /\ Forall (fun x => word (snd x)) (sh_path h) /\ 0 <= sh_nid h /\ 0 <= sh_sn h < 2 ^ 255 /\
  word (sh_prev h) /\ 0 <= sh_cnt h /\ word (sh_root h).

Section Decoded.
Variable junk : list Z -> mem.
Hypothesis J : forall x, mem_ok (junk x).
Lemma list_of_iok : forall b its, bytes_ok b -> list_of junk b = Some its -> Forall iok its.
Proof. intros b its B E. eapply toList_iok; [|exact E]. apply iok_item; assumption. Qed.

Ltac at_ E n := match type of E with sbind (at_index ?l _) _ = Some _ => let F := fresh "A" in sb E n F; apply at_iok in F; [|assumption] end.
Ltac uint_ E n R := sb E n R; apply toUint_iok in R; [|assumption].

Lemma header_decoded : forall b h, bytes_ok b -> decodeHeader junk b = Some h -> sheader_ok h.
Proof.
  intros b h B E. unfold decodeHeader in E. sb E l F. apply list_of_iok in F; [|assumption].
  at_ E l0. uint_ E height R0. at_ E l1. uint_ E round R1. at_ E l2. sb E ctx R2. apply toBytes_iok in R2; [|assumption].
  at_ E l3. sb E path R3. at_ E l4. uint_ E nid R4. at_ E l5. uint_ E upd R5. at_ E l6. sb E prev R6. at_ E l7. uint_ E cnt R7. at_ E l8. sb E root R8. cbv zeta in E. sb E vals R9. injection E as <-.
  assert (W : forall it x, iok it -> if_payload it (sbind (toBytes it) (fun h => Some (to32 h))) zero32 = Some x -> word x).
  { intros it x O E. unfold if_payload in E. sb E n E1. destruct (0 <? n); [|injection E as <-; apply zero32_word]. sb E y E2. injection E as <-. apply to32_word. eapply toBytes_iok; eauto. }
  unfold sheader_ok. cbn [sh_height sh_round sh_ctx sh_path sh_nid sh_sn sh_upd sh_prev sh_cnt sh_root]. repeat match goal with |- _ /\ _ => split end; try lia.
  - apply to32_word; assumption.
  - unfold if_payload in R3. sb R3 n E1. destruct (0 <? n); [|injection R3 as <-; constructor]. unfold decodePath in R3. sb R3 its E2. apply list_of_iok in E2; [|apply toRlpBytes_iok; assumption].
    eapply map_opt_all; [exact R3|exact E2|]. intros it x O E. cbn beta in E. sb E m M. apply toList_iok in M; [|assumption]. at_ E m0. sb E d D. at_ E m1. sb E hh M2. injection E as <-. cbn [snd]. apply to32_word. eapply toBytes_iok; [|exact M2]. assumption.
  - rewrite Z.shiftr_div_pow2 by lia. apply Z.div_pos; lia.
  - rewrite Z.shiftr_div_pow2 by lia. apply Z.div_lt_upper_bound; [lia|]. change (2 ^ 1 * 2 ^ 255) with (2 ^ 256). lia.
  - apply (W l6 prev); assumption.
  - apply (W l8 root); assumption.
Qed.

Lemma update_decoded : forall b h sigs, bytes_ok b -> decodeBlockUpdate junk b = Some (h, sigs) -> sheader_ok h.
Proof.
  intros b h sigs B E. unfold decodeBlockUpdate in E. sb E l F. apply list_of_iok in F; [|assumption]. at_ E l0. sb E hb F1. apply toBytes_iok in F1; [|assumption]. sb E h' F2. at_ E l1. sb E pb F3. sb E p F4. injection E as -> ->.
  eapply header_decoded; eauto.
Qed.

Definition node_ok (x : snode) : Prop := 0 <= sn_count x /\ sn_level x = levelOf (sn_count x) /\ zlen (sn_hash x) = 32.
Lemma nodes_decoded : forall its l, Forall iok its -> decodeNodes its = Some l -> Forall node_ok l.
Proof.
  intros its l F E. unfold decodeNodes in E. eapply map_opt_all; [exact E|exact F|]. clear. intros it x O E. cbn beta in E.
  sb E t T. apply toList_iok in T; [|assumption]. at_ E t0. uint_ E n R. at_ E t1. sb E h R2. apply toBytes_iok in R2; [|assumption]. injection E as <-.
  unfold node_ok. cbn [sn_count sn_level sn_hash]. split; [lia|]. split; [reflexivity|]. apply to32_word. assumption.
Qed.
Lemma proof_decoded : forall b p, bytes_ok b -> decodeMessageProof junk b = Some p -> Forall node_ok (sp_lefts p) /\ Forall node_ok (sp_rights p).
Proof.
  intros b p B E. unfold decodeMessageProof in E. sb E l F. apply list_of_iok in F; [|assumption]. at_ E t1. sb E ms F1. at_ E t0. sb E ls F2. apply toList_iok in F2; [|assumption]. sb E lefts F3. at_ E t2. sb E rs F4. apply toList_iok in F4; [|assumption]. sb E rights F5. sb E mesgs F6. injection E as <-.
  cbn [sp_lefts sp_rights]. split; [apply (nodes_decoded ls)|apply (nodes_decoded rs)]; assumption.
Qed.
Lemma typed_decoded : forall b l, bytes_ok b -> decodeTyped junk b = Some l -> Forall (fun x => bytes_ok (snd x)) l.
Proof.
  intros b l B E. unfold decodeTyped in E. sb E its0 F. apply list_of_iok in F; [|assumption]. at_ E t0. sb E its F1. apply toList_iok in F1; [|assumption].
  eapply map_opt_all; [exact E|exact F1|]. clear - J. intros it x O E. cbn beta in E. sb E ms M. apply toList_iok in M; [|assumption]. at_ E m0. sb E ty T. at_ E m1. sb E m M2. apply toBytes_iok in M2; [|assumption]. injection E as <-. exact M2.
Qed.
End Decoded.

(** ** what is hashed *)
Lemma opt32_item : forall h, word h -> hash_or_null h = rlp_write (opt_item (opt32 h)).
Proof.
  intros h [L _]. unfold hash_or_null, opt32. change zero32 with (repeat 0 32). destruct (bytes_eqb h (repeat 0 32)); [reflexivity|]. cbn [opt_item rlp_write]. apply encodeBytes_write; [lia|].
  intros ->. discriminate.
Qed.
Lemma word_enc : forall h, word h -> encodeBytes h = rlp_write (RBytes h).
Proof. intros h [L _]. cbn [rlp_write]. apply encodeBytes_write; [lia|]. intros ->. discriminate. Qed.
Lemma word_size : forall h, word h -> zlen (rlp_write (RBytes h)) <= 33.
Proof. intros h [L O]. apply bytes33; [assumption|lia]. Qed.
Lemma opt32_size : forall h, word h -> zlen (rlp_write (opt_item (opt32 h))) <= 33.
Proof. intros h W. unfold opt32. destruct (bytes_eqb h (repeat 0 32)); cbn [opt_item]; [vm_compute; discriminate|apply word_size; exact W]. Qed.
Lemma int_size : forall n, 0 <= n < 2 ^ 128 -> zlen (rlp_write (int_item n)) <= 33.
Proof. intros n R. unfold int_item. apply bytes33; [apply (BigIntToBytes_shortest n)|apply tc_small; lia]. Qed.
Lemma list_enc : forall l, (Z.of_nat (length l) <= 10) -> Forall (fun t => zlen (rlp_write t) <= 33) l -> encodeList (map rlp_write l) = rlp_write (RList l).
Proof.
  intros l N F. cbn [rlp_write]. apply encodeList_write.
  assert (G : zlen (concat (map rlp_write l)) <= 33 * Z.of_nat (length l)).
  { clear N. induction F as [|t l Ft F IH]; cbn [map concat length]; [cbn; lia|]. rewrite zlen_app. lia. }
  lia.
Qed.
Lemma uint_some : forall n e, 0 <= n -> encodeUint n = Some e -> n < 2 ^ 128 /\ e = rlp_write (int_item n).
Proof. intros n e N E. rewrite C60_uint_written in E by assumption. destruct (n <? 2 ^ 128 - 1) eqn:L; [|discriminate]. injection E as <-. split; [lia|reflexivity]. Qed.
Lemma uint_ok : forall n, 0 <= n < 2 ^ 128 - 1 -> encodeUint n = Some (rlp_write (int_item n)).
Proof. intros n N. rewrite C60_uint_written by lia. replace (n <? 2 ^ 128 - 1) with true by lia. reflexivity. Qed.

Lemma upd_bits : forall h, 0 <= sh_sn h < 2 ^ 255 -> Z.lor ((sh_sn h * 2) mod 2 ^ 256) (if sh_upd h then 1 else 0) = 2 * sh_sn h + (if sh_upd h then 1 else 0).
Proof.
  intros h R. rewrite Z.mod_small by lia. destruct (sh_upd h); [|rewrite Z.lor_0_r; lia]. rewrite Z.mul_comm. destruct (sh_sn h) as [|p|p]; cbn; reflexivity || lia.
Qed.

Lemma header_size : forall src hd, bytes_ok src -> zlen src < 2 ^ 63 -> ((zlen src <= 55 -> hd = [128 + zlen src]) /\ (56 <= zlen src -> hd = 183 + zlen (sizeToBytes (zlen src)) :: sizeToBytes (zlen src))) -> zlen hd <= 9.
Proof.
  intros src hd B L (S1 & S2). destruct (Z_le_gt_dec (zlen src) 55) as [G|G]; [rewrite S1 by lia; vm_compute; discriminate|]. rewrite S2 by lia. rewrite zlen_cons. pose proof (sizeToBytes_spec (zlen src) ltac:(lia)) as (_ & X & _). lia.
Qed.
Section Hashes.
Variable H : list Z -> list Z.
Hypothesis HH : hash32 H.

Lemma section_hash : forall h x, sheader_ok h -> s_sectionHash H h = Some x -> x = H (ns_enc (s_section h)).
Proof.
  intros h x (_ & _ & _ & _ & N & S & P & C & R) E. unfold s_sectionHash in E. rewrite upd_bits in E by assumption.
  sb E a E1. sb E b E2. sb E c E3. injection E as <-. apply uint_some in E1 as [B1 ->]; [|assumption]. apply uint_some in E2 as [B2 ->]; [|destruct (sh_upd h); lia]. apply uint_some in E3 as [B3 ->]; [|assumption].
  f_equal. rewrite !opt32_item by assumption. unfold ns_enc, ns_items, s_section. cbn [s_nid s_upd s_prev s_cnt s_root]. apply (list_enc [_; _; _; _; _]); [cbn; lia|].
  repeat constructor; try (apply int_size; destruct (sh_upd h); lia); apply opt32_size; assumption.
Qed.
Lemma section_hash_ok : forall h, sheader_ok h -> sh_nid h < 2 ^ 128 - 1 -> 2 * sh_sn h + 1 < 2 ^ 128 - 1 -> sh_cnt h < 2 ^ 128 - 1 -> s_sectionHash H h = Some (H (ns_enc (s_section h))).
Proof.
  intros h O B1 B2 B3. destruct (s_sectionHash H h) as [x|] eqn:E; [f_equal; apply section_hash; assumption|]. exfalso. destruct O as (_ & _ & _ & _ & N & S & P & C & R). unfold s_sectionHash in E.
  rewrite upd_bits in E by assumption. rewrite !uint_ok in E by (destruct (sh_upd h); lia). discriminate.
Qed.
Lemma pathRoot_digest : forall path leaf, (exists x, leaf = H x) -> exists x, s_pathRoot H leaf path = H x.
Proof. unfold s_pathRoot. induction path as [|p path IH]; intros leaf L; cbn [fold_left]; [assumption|]. apply IH. destruct (fst p =? 0); eauto. Qed.
Lemma digest_word : forall x, word (H x).
Proof. intros x. split; apply HH. Qed.

Lemma decision_hash : forall src ntid h d, sheader_ok h -> bytes_ok src -> zlen src < 2 ^ 60 -> src <> [128] -> 0 <= ntid -> s_decision H src ntid h = Some d ->
  d = dec_hash H src ntid (sh_height h) (sh_round h) (Some (sh_ctx h)) (s_pathRoot H (H (ns_enc (s_section h))) (sh_path h)).
Proof.
  intros src ntid h d O Bs Ls Ns Nt E. pose proof O as (A1 & A2 & A3 & _). unfold s_decision in E. sb E n1 E1. sb E n2 E2. sb E n3 E3. sb E ns E4. cbv zeta in E. injection E as <-.
  apply section_hash in E4; [|assumption]. subst ns. apply uint_some in E1 as [B1 ->]; [|assumption]. apply uint_some in E2 as [B2 ->]; [|assumption]. apply uint_some in E3 as [B3 ->]; [|assumption].
  unfold dec_hash. destruct (pathRoot_digest (sh_path h) (H (ns_enc (s_section h))) ltac:(eauto)) as (x & Ex).
  assert (W1 : word (s_pathRoot H (H (ns_enc (s_section h))) (sh_path h))) by (rewrite Ex; apply digest_word).
  assert (N1 : encodeList [encodeBytes (sh_ctx h); encodeBytes (s_pathRoot H (H (ns_enc (s_section h))) (sh_path h))] = rlp_write (nts_items (Some (sh_ctx h)) (s_pathRoot H (H (ns_enc (s_section h))) (sh_path h)))).
  { rewrite !word_enc by assumption. apply (list_enc [_; _]); [cbn; lia|]. repeat constructor; apply word_size; assumption. }
  rewrite N1. f_equal. unfold encodeString. unfold dec_items. rewrite (word_enc (H _)) by apply digest_word. rewrite encodeBytes_write by (assumption || lia). change (writeBytes (Some src)) with (rlp_write (RBytes src)).
  change [rlp_write (RBytes src); rlp_write (int_item ntid); rlp_write (int_item (sh_height h)); rlp_write (int_item (sh_round h)); rlp_write (RBytes (H (rlp_write (nts_items (Some (sh_ctx h)) (s_pathRoot H (H (ns_enc (s_section h))) (sh_path h))))))]
    with (map rlp_write [RBytes src; int_item ntid; int_item (sh_height h); int_item (sh_round h); RBytes (H (rlp_write (nts_items (Some (sh_ctx h)) (s_pathRoot H (H (ns_enc (s_section h))) (sh_path h)))))]).
  cbn [rlp_write]. apply encodeList_write. cbn [map concat]. rewrite !zlen_app.
  pose proof (int_size ntid ltac:(lia)). pose proof (int_size (sh_height h) ltac:(lia)). pose proof (int_size (sh_round h) ltac:(lia)). pose proof (word_size _ (digest_word (rlp_write (nts_items (Some (sh_ctx h)) (s_pathRoot H (H (ns_enc (s_section h))) (sh_path h)))))).
  change (zlen (@nil Z)) with 0. assert (zlen (rlp_write (RBytes src)) <= zlen src + 10).
  { cbn [rlp_write]. destruct (writeBytes_header src Bs ltac:(lia)) as [(y & -> & _ & ->)|(_ & hd & -> & Hs)]; [lia|]. rewrite zlen_app. pose proof (header_size src hd Bs ltac:(lia) (proj2 Hs)). lia. }
  lia.
Qed.

(** ** the path to the root of all networks' sections *)
Lemma path_commits : forall path t s, Forall (fun x : Z * list Z => word (snd x)) path -> s_pathRoot H (H (ns_enc s)) path = nst_root H t ->
  (exists s', in_tree s' t /\ ns_enc s = ns_enc s') \/ collision H \/ confusion H.
Proof.
  destruct HH as [D _]. induction path as [|p path IH] using rev_ind; intros t s F E.
  - apply root_commits; [assumption|]. left. unfold s_pathRoot in E. cbn [fold_left] in E. congruence.
  - apply Forall_app in F as [F1 F2]. inversion F2 as [|? ? [L _] _]; subst. unfold s_pathRoot in E. rewrite fold_left_app in E. cbn [fold_left] in E. fold (s_pathRoot H (H (ns_enc s)) path) in E.
    destruct (pathRoot_digest path (H (ns_enc s)) ltac:(eauto)) as (x & Ex).
    assert (G : exists a b, nst_root H t = H (a ++ b) /\ zlen a = 32 /\ zlen b = 32 /\ ((a = snd p /\ b = s_pathRoot H (H (ns_enc s)) path) \/ (a = s_pathRoot H (H (ns_enc s)) path /\ b = snd p))).
    { destruct (fst p =? 0); do 2 eexists; (split; [symmetry; exact E|]); rewrite Ex, ?D; auto. }
    destruct G as (a & b & G1 & G2 & G3 & G4). destruct t as [s'|l r]; cbn [nst_root] in G1; apply hash_inj in G1 as [G1|G1]; auto.
    + right; right. exists s', a, b. repeat split; auto. destruct G4 as [[_ ->]|[-> _]]; rewrite Ex; eauto.
    + apply zlen_app_eq in G1 as [G5 G6]; [|rewrite G2; apply nst_root_len; assumption]. destruct G4 as [[_ ->]|[-> _]].
      * destruct (IH r s F1) as [(s' & I & Es)|C]; auto. left. exists s'. cbn [in_tree]. auto.
      * destruct (IH l s F1) as [(s' & I & Es)|C]; auto. left. exists s'. cbn [in_tree]. auto.
Qed.

(** ** votes *)
Variable ecrecover : list Z -> Z -> list Z -> list Z -> Z.
Lemma count_signers_spec : forall d vals sigs i votes out, count_signers ecrecover d vals i votes sigs = Some out ->
  exists places, NoDup places /\ (forall j, In j places -> (i <= j)%nat /\ exists a, nth_error vals j = Some a /\ signed_by ecrecover d a) /\ out = votes + zlen places.
Proof.
  intros d vals. induction sigs as [|s sigs IH]; intros i votes out E; cbn [count_signers] in E.
  - injection E as <-. exists []. split; [constructor|]. split; [intros j []|]. change (zlen (@nil nat)) with 0. lia.
  - destruct (hasQuorumOf _ _). { injection E as <-. exists []. split; [constructor|]. split; [intros j []|]. change (zlen (@nil nat)) with 0. lia. }
    sb E a R. sb E v V. destruct (IH _ _ _ E) as (pl & N & P & ->). destruct (a =? v) eqn:Ea.
    + apply Z.eqb_eq in Ea. subst v. exists (i :: pl). split; [constructor; [|exact N]|split].
      * intros I. apply P in I as [I _]. lia.
      * intros j [<-|I]; [split; [lia|]|destruct (P j I) as [P1 P2]; split; [lia|exact P2]]. exists a. split; [exact V|].
        unfold recoverSigner in R. sb R u1 R1. sb R u2 R2. sb R u3 R3. injection R as R. do 3 eexists. exact R.
      * rewrite zlen_cons. lia.
    + exists pl. split; [exact N|]. split; [|reflexivity]. intros j I. destruct (P j I) as [P1 P2]. split; [lia|exact P2].
Qed.
Lemma checkBlockProof_quorum : forall src ntid h sigs vals u, checkBlockProof H ecrecover src ntid h sigs vals = Some u ->
  exists d, s_decision H src ntid h = Some d /\ squorum ecrecover vals d.
Proof.
  intros src ntid h sigs vals u E. unfold checkBlockProof in E. sb E d E1. sb E votes E2. apply require_some in E. unfold hasQuorumOf in E. exists d. split; [reflexivity|].
  apply count_signers_spec in E2 as (pl & N & P & ->). exists pl. split; [exact N|]. split; [|lia]. intros i I. apply (P i I).
Qed.
End Hashes.
