(** The verifier with the report of a whole block, and what such reports look like to the relay. *)
From Coq Require Import ZArith List Bool Lia.
From Coq Require Import ZifyBool.
From Verif Require Import Base L_Base M_Rlp S_Rlp L_Rlp M_Codec M_Mbt S_Mbt T_Mbt M_JBmv S_JBmv L_JBmv L_JBmv2 L_JBmv3 T_JBmv M_Fragment T_Fragment
  M_Wire S_Wire L_Wire T_Wire S_Btp2.
From Verif Require T_Receive.
Import ListNotations.
Open Scope Z_scope.

Lemma last_cons : forall A (l : list A) x d, last (x :: l) d = last l x.
Proof. induction l as [|z l IH]; intros x d; [reflexivity|]. change (last (x :: z :: l) d) with (last (z :: l) d). rewrite !IH. reflexivity. Qed.
Lemma hash_some : forall H, hash32 H -> forall x, H x <> [].
Proof. intros H [D _] x E. specialize (D x). rewrite E in D. discriminate. Qed.

(** What the relay needs of a block after height [h0], and of several blocks. *)
Definition readable (h0 : Z) (x : shown) : Prop :=
  hd_path (sh_header x) = [] /\ hd_height (sh_header x) = sh_height x /\ h0 < sh_height x /\ 0 < sh_height x /\ header_ranges (sh_header x) /\
  wire_header_ok (sh_header x) /\ Forall bytes_ok (sh_sigs x) /\ Forall bytes_ok (sh_msgs x) /\ zlen (sh_msgs x) < 2 ^ 31.
Fixpoint rising (h0 : Z) (xs : list shown) : Prop := match xs with [] => True | x :: r => readable h0 x /\ rising (sh_height x) r end.
Lemma follows_readable : forall H recover src ntid nid prev sn b x, follows H recover src ntid nid prev sn b x -> readable (gb_height b) x.
Proof.
  intros H recover src ntid nid prev sn b x [F1 [F2 F3] [F4 [F5 F6]] F7 F8 F9 _ Fr (N1 & N2 & N3 & N4 & N5) (B1 & B2 & B3 & B4)].
  unfold readable, header_ranges, S_Codec.int_value, int64, int32 in *. change (64 - 1) with 63. change (32 - 1) with 31. auto 20.
Qed.
Lemma goes_rising : forall H recover src ntid nid prev sn b xs, goes_on H recover src ntid nid prev sn b xs -> rising (gb_height b) xs.
Proof. intros H recover src ntid nid prev sn b xs G. induction G as [|prev sn b x xs Fo G IH]; cbn [rising]; [exact I|]. split; [eapply follows_readable; exact Fo|exact IH]. Qed.
(** The messages of later blocks have later numbers. *)
Lemma goes_numbers : forall H recover src ntid nid prev sn b xs, goes_on H recover src ntid nid prev sn b xs ->
  Forall (fun x => sn + zlen (gb_msgs b) <= firstMessageSn (sh_header x)) xs.
Proof.
  intros H recover src ntid nid prev sn b xs G. induction G as [|prev sn b x xs Fo G IH]; constructor.
  - pose proof (f_equal s_upd (fo_section _ _ _ _ _ _ _ _ _ Fo)) as U. cbn [header_section gb_section s_upd] in U. unfold firstMessageSn. rewrite U, Z.shiftr_div_pow2 by lia. change (2 ^ 1) with 2. destruct (gb_update (sh_block x)); Z.div_mod_to_equations; lia.
  - apply Forall_impl with (2 := IH). intros z Hz. cbn beta in *. pose proof (zlen_nonneg _ (gb_msgs (sh_block x))). lia.
Qed.

(** Every block has a report of all of it, and it can be sent. *)
Lemma report_exists : forall H h0 x, hash32 H -> readable h0 x ->
  exists t l, NewMerkleBinaryTree H (map Some (sh_msgs x)) = Ok t /\ mbt_Len t = zlen (sh_msgs x) /\ whole_news H x l /\ Forall news_ok l /\
    (sh_msgs x = [] /\ l = [Header (sh_header x) (sh_sigs x)] \/
     sh_msgs x <> [] /\ exists m, mbt_Proof t 1 (zlen (sh_msgs x)) = Ok m /\ zlen (p_contents m) = zlen (sh_msgs x) /\ l = [Header (sh_header x) (sh_sigs x); Messages true m]) /\
    (forall e, 1 <= e < zlen (sh_msgs x) -> exists m, mbt_Proof t 1 e = Ok m /\ wire_proof_ok false m).
Proof.
  intros H h0 x HH (_ & _ & _ & _ & _ & B1 & B2 & B3 & B4).
  destruct (sh_msgs x) as [|c cs] eqn:Em.
  - exists {| m_root := None; m_contents := [] |}, [Header (sh_header x) (sh_sigs x)]. split; [reflexivity|]. split; [reflexivity|]. split; [unfold whole_news; rewrite Em; reflexivity|].
    split; [constructor; [split; assumption|constructor]|]. split; [left; auto|]. change (zlen (@nil (list Z))) with 0. intros; lia.
  - assert (N : c :: cs <> []) by discriminate. rewrite <- Em in *. clear c cs Em.
    assert (P : 0 < zlen (sh_msgs x)) by (destruct (sh_msgs x); [congruence|unfold zlen; cbn [length]; lia]).
    assert (PR : forall e, 1 <= e <= zlen (sh_msgs x) -> exists t m, NewMerkleBinaryTree H (map Some (sh_msgs x)) = Ok t /\ mbt_Proof t 1 e = Ok m /\ zlen (p_contents m) = e).
    { intros e He. destruct (C16_range_proof_verifies H (sh_msgs x) 1 e (hash_some H HH)) as (t & m & r & E1 & _ & E2 & _ & _ & E3); try lia. exists t, m. split; [exact E1|]. split; [exact E2|]. lia. }
    destruct (PR (zlen (sh_msgs x)) ltac:(lia)) as (t & m & E1 & E2 & E3).
    destruct (T_Receive.tree_of H (sh_msgs x) t (hash_some H HH) ltac:(lia) E1) as [L _].
    assert (SE : forall e m, 1 <= e <= zlen (sh_msgs x) -> mbt_Proof t 1 e = Ok m -> wire_proof_ok (is_all t 1 e) m).
    { intros e m' He Em. apply (proof_sendable H (sh_msgs x)); assumption || lia. }
    exists t, [Header (sh_header x) (sh_sigs x); Messages true m]. split; [exact E1|]. split; [exact L|].
    split. { unfold whole_news. destruct (sh_msgs x); [congruence|]. exists t, m. auto. }
    split. { constructor; [split; assumption|]. constructor; [|constructor]. cbn [news_ok]. specialize (SE (zlen (sh_msgs x)) m ltac:(lia) E2). unfold is_all in SE. rewrite L, !Z.eqb_refl in SE. exact SE. }
    split; [right; split; [exact N|]; exists m; auto|].
    intros e He. destruct (PR e ltac:(lia)) as (t' & m' & E1' & E2' & _). assert (t' = t) by congruence. subst t'. exists m'. split; [exact E2'|].
    specialize (SE e m' ltac:(lia) E2'). unfold is_all in SE. rewrite L in SE. replace (e =? zlen (sh_msgs x)) with false in SE by lia. rewrite andb_false_r in SE. exact SE.
Qed.

(** The verifier at the block before takes the report, hands over all messages and stands at the block. *)
Lemma report_taken : forall H recover src ntid nid p prev sn b x l, hash32 H -> stands H src ntid nid p prev sn b (zlen (gb_msgs b)) -> p_ctxHash p = Some (H (gb_ctx b)) ->
  follows H recover src ntid nid prev sn b x -> whole_news H x l -> Forall news_ok l -> zlen (message_wire l) < 2 ^ 31 ->
  exists p', handleRelayBytes H recover p (p_bmc p) (p_bmc p) (getNetwork (p_src p)) (p_lastSeq p) (message_wire l) = Some (p', sh_msgs x) /\
    stands H src ntid nid p' (Some (H (ns_enc (gb_section nid prev sn b)))) (sn + zlen (gb_msgs b)) (sh_block x) (zlen (gb_msgs (sh_block x))) /\ p_ctxHash p' = Some (H (gb_ctx (sh_block x))).
Proof.
  intros H recover src ntid nid p prev sn b x l HH St Hc Fo W O Lw.
  destruct Fo as [F1 [F2 F3] [F4 [F5 F6]] F7 F8 F9 (vs & signers & G1 & G2 & G3 & G4 & G5) Fr Fn (B1 & B2 & B3 & B4)].
  destruct Fn as (N1 & N2 & _). unfold int64, int32 in N1, N2. rewrite F4 in N1. rewrite F7 in N2. unfold sh_height in *.
  destruct (C50_genuine_update_accepted H recover src ntid nid p prev sn b (sh_block x) (sh_header x) (sh_sigs x) signers vs) as (p1 & A1 & A2); try assumption.
  { unfold network_path. rewrite <- F1, F2. auto. }
  { destruct (gb_update (sh_block x)); [|exact F9]. destruct F9 as [X1 X2]. split; [exact X1|]. rewrite Hc. congruence. }
  assert (C1 : p_ctxHash p1 = Some (H (gb_ctx (sh_block x)))).
  { pose proof (C49_validators_change _ _ _ _ _ _ A1) as V. pose proof (f_equal s_upd F1) as U. cbn [header_section gb_section s_upd] in U. rewrite U in V. rewrite Z.add_comm, Z.odd_add_mul_2 in V.
    destruct (gb_update (sh_block x)).
    - change (Z.odd 1) with true in V. cbv iota in V. destruct V as (ctx & V1 & V2 & V3 & _). congruence.
    - change (Z.odd 0) with false in V. cbv iota in V. destruct V as [_ V]. congruence. }
  pose proof (enc_message l O) as Eb. assert (Lb : zlen (message_wire l) < 2 ^ 63) by lia. pose proof (C59_relay_message_read l _ O Eb Lb) as Rd. clear Lb.
  unfold handleRelayBytes. rewrite Rd. unfold handleRelayMessage. cbn [c_net c_caller c_account c_seq c_items].
  rewrite !bytes_eqb_refl. cbn [andb check obind]. pose proof St as St'. unfold stands in St'. destruct St' as (_ & _ & _ & S4 & _). rewrite S4, Z.add_0_l, Z.eqb_refl. cbn [check obind].
  unfold whole_news in W. destruct (sh_msgs x) as [|c cs] eqn:Em.
  - subst l. cbn [map meant handle_items]. rewrite A1. cbn [obind handle_items]. exists p1. split; [reflexivity|]. split; [|exact C1].
    unfold sh_msgs in Em. rewrite Em. change (zlen (@nil (list Z))) with 0. exact A2.
  - assert (P : 0 < zlen (sh_msgs x)) by (rewrite Em, zlen_cons; pose proof (zlen_nonneg _ cs); lia). destruct W as (t & m & T1 & T2 & ->). rewrite <- Em in *. clear c cs Em.
    destruct (C50_genuine_proof_accepted H src ntid nid p1 _ _ (sh_block x) 0 (zlen (sh_msgs x)) HH A2 Fr B4 ltac:(unfold sh_msgs in *; lia)) as (t' & m' & p2 & D1 & D2 & D3 & D4).
    unfold sh_msgs in *. rewrite T1 in D1. injection D1 as <-. change (0 + 1) with 1 in D2. rewrite T2 in D2. injection D2 as <-.
    cbn [map meant handle_items]. rewrite A1. cbn [obind].
    pose proof (bu_inv _ _ _ _ _ _ A1) as (_ & _ & _ & _ & _ & _ & _ & _ & _ & _ & _ & _ & I1 & I2 & _).
    pose proof A2 as A3. unfold stands in A3. destruct A3 as (_ & _ & _ & _ & _ & _ & _ & A4 & A5 & _).
    rewrite (mp_after_update H p1 m (sh_header x) _ D3); [|unfold processed; lia|congruence|congruence].
    cbn [obind fst snd app]. exists p2. split; [|split; [exact D4|]].
    + unfold go_slice. change (Z.to_nat 0) with 0%nat. cbn [skipn]. rewrite Z.sub_0_r. unfold zlen. rewrite Nat2Z.id, firstn_all. reflexivity.
    + rewrite <- C1. unfold handleMessageProof in D3. obn D3 u1 G. obn D3 r G'. destruct r as [[ha of] to]. obn D3 u2 G''. obn D3 e G3'. obn D3 u3 G4'. obn D3 u4 G5'. injection D3 as <- _. reflexivity.
Qed.

Definition report (H : list Z -> list Z) (x : shown) (m : list Z) : Prop := exists l, whole_news H x l /\ Forall news_ok l /\ m = message_wire l.

(** One report per block, in order: all taken. *)
Lemma reports_taken : forall H recover src ntid nid limit prev sn b xs, hash32 H -> goes_on H recover src ntid nid prev sn b xs -> Forall (fits H limit) xs ->
  forall ms p, Forall2 (report H) xs ms -> stands H src ntid nid p prev sn b (zlen (gb_msgs b)) -> p_ctxHash p = Some (H (gb_ctx b)) ->
  exists p' prev' sn', let b' := last (map sh_block xs) b in all_taken H recover p ms = Some (p', concat (map sh_msgs xs)) /\
    stands H src ntid nid p' prev' sn' b' (zlen (gb_msgs b')) /\ p_ctxHash p' = Some (H (gb_ctx b')).
Proof.
  intros H recover src ntid nid limit prev sn b xs HH G. induction G as [prev sn b|prev sn b x xs Fo G IH]; intros Fi ms p F2 St Hc.
  - inversion F2; subst. exists p, prev, sn. cbn [all_taken map concat last]. auto.
  - inversion F2 as [|? m ? ms' R F2']; subst. inversion Fi as [|? ? Fx Fi']; subst. destruct R as (l & R1 & R2 & ->).
    destruct (report_taken H recover src ntid nid p prev sn b x l HH St Hc Fo R1 R2) as (p1 & A1 & A2 & A3); [apply Fx; exact R1|].
    destruct (IH Fi' ms' p1 F2' A2 A3) as (p' & prev' & sn' & B1 & B2 & B3). exists p', prev', sn'. cbv zeta in *.
    replace (last (map sh_block (x :: xs)) b) with (last (map sh_block xs) (sh_block x)).
    + cbn [all_taken map concat]. rewrite A1, B1. auto.
    + cbn [map]. rewrite last_cons. reflexivity.
Qed.

(** A verifier that expects another message number, or that has not handed over all messages of its block, refuses a report. *)
Lemma report_refused : forall H recover p x m caller account net seq, report H x m -> zlen m < 2 ^ 63 ->
  p_offset p = 0 /\ firstMessageSn (sh_header x) <> p_first p + p_cnt p \/ remain p <> 0 ->
  handleRelayBytes H recover p caller account net seq m = None.
Proof.
  intros H recover p x m caller account net seq (l & W & O & ->) L Hp. unfold handleRelayBytes. rewrite (C59_relay_message_read l _ O (enc_message l O) L).
  unfold handleRelayMessage. cbn [c_items]. destruct (check _) as [u|]; cbn [obind]; [|reflexivity]. destruct (check (_ =? _)) as [u'|]; cbn [obind]; [|reflexivity].
  assert (E : exists r, l = Header (sh_header x) (sh_sigs x) :: r).
  { unfold whole_news in W. destruct (sh_msgs x); [exists []; exact W|]. destruct W as (t & mm & _ & _ & ->). eexists. reflexivity. }
  destruct E as [r ->]. cbn [map meant handle_items]. replace (handleBlockUpdate H recover p (sh_header x) (Some (sh_sigs x))) with (@None props); [reflexivity|].
  symmetry. unfold handleBlockUpdate. destruct Hp as [[H1 H2]|H1].
  - rewrite H1, Z.sub_0_r. replace (p_first p + p_cnt p =? firstMessageSn (sh_header x)) with false by lia. reflexivity.
  - destruct (check _) as [v|]; cbn [obind]; [|reflexivity]. replace (remain p =? 0) with false by lia. reflexivity.
Qed.
