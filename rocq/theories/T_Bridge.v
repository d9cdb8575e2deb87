(** Theorems about the bridge verifiers (C62). *)
From Coq Require Import String Ascii ZArith List Bool Lia.
From Coq Require Import ZifyBool.
From Verif Require Import Base L_Base M_IntConv M_Rlp M_Codec M_Wire M_SolRlp M_BtpAddr S_BtpAddr L_BtpAddr M_Bridge S_Bridge L_Bridge.
Import ListNotations.
Open Scope Z_scope.

(** The Java contract accepts a message exactly when it comes from its BMC, names this BMC and the network it is for, and
    can be read and gone through; it then moves on to the largest height. *)
Theorem C62_java_handles_exactly : forall addr_of b caller bmc prev seq msg b' ret,
  j_bridge_handle addr_of b caller bmc prev seq msg = Some (b', ret) <->
  exists cur from rps ms, j_valueOf bmc = Some cur /\ j_valueOf prev = Some from /\
    ja_net from = jb_net b /\ caller = jb_bmc b /\ addr_of (ja_account cur) = Some (jb_bmc b) /\
    fromBytes readBridgeMessage msg = Some rps /\ takes anyone (seq + 1) (seen (jb_height b) rps) ms /\
    b' = JBridge (jb_bmc b) (jb_net b) (top_height (jb_height b) rps) /\ ret = j_array ms.
Proof.
  intros addr_of b caller bmc prev seq msg b' ret. unfold j_bridge_handle. split.
  - destruct (j_valueOf bmc) as [cur|]; [|discriminate]. destruct (j_valueOf prev) as [from|]; [|discriminate].
    destruct (j_accessible addr_of b caller cur from) eqn:A; [|discriminate]. destruct (fromBytes readBridgeMessage msg) as [rps|]; [|discriminate].
    destruct (j_receipts rps (jb_height b) (seq + 1)) as [[ms h]|] eqn:R; [|discriminate]. intros [= <- <-].
    apply j_receipts_takes in R as [T ->]. unfold j_accessible in A. rewrite !andb_true_iff, !bytes_eqb_eq in A. destruct A as [[A1 A2] A3].
    exists cur, from, rps, ms. repeat split; try assumption; try congruence. destruct (addr_of (ja_account cur)) as [a|]; [|discriminate]. apply bytes_eqb_eq in A3. congruence.
  - intros (cur & from & rps & ms & -> & -> & A1 & A2 & A3 & -> & T & -> & ->).
    replace (j_accessible addr_of b caller cur from) with true.
    2:{ symmetry. unfold j_accessible. rewrite A3, A1, A2, !bytes_eqb_refl. reflexivity. }
    rewrite (proj2 (j_receipts_takes _ _ _ _ _) (conj T eq_refl)). reflexivity.
Qed.
Print Assumptions C62_java_handles_exactly.

(** The same for the Solidity contract, which also takes only messages for this BMC.  Texts are compared by their hash. *)
Theorem C62_solidity_handles_exactly : forall H junk b sender bmc prev seq msg b' ms, 0 <= seq < 2 ^ 256 ->
  s_bridge_handle H junk b sender bmc prev seq msg = Some (b', ms) <->
  exists cnet cacc fnet facc rps, parseBTPAddress bmc = Some (cnet, cacc) /\ parseBTPAddress prev = Some (fnet, facc) /\
    H (sb_net b) = H fnet /\ sender = sb_bmc b /\ account_text cacc (sb_bmc b) /\
    decodeRelayMessage junk msg = Some rps /\ takes (fun e => H (be_next e) = H bmc) (seq + 1) (seen (sb_height b) rps) ms /\
    seq + 1 + zlen ms < 2 ^ 256 /\ b' = SBridge (sb_bmc b) (sb_net b) (top_height (sb_height b) rps).
Proof.
  intros H junk b sender bmc prev seq msg b' ms R. unfold s_bridge_handle, s_accessible. split.
  - destruct (networkAddress prev) as [fnet|] eqn:N; cbn [sbind]; [|discriminate]. destruct (compareTo H (sb_net b) fnet) eqn:C; cbn [require sbind]; [|discriminate].
    destruct (sender =? sb_bmc b) eqn:S; cbn [require sbind]; [|discriminate]. destruct (parseBTPAddress bmc) as [[cnet cacc]|]; cbn [sbind snd]; [|discriminate].
    destruct (parseAddress cacc) as [a|] eqn:A; cbn [sbind]; [|discriminate]. destruct (a =? sb_bmc b) eqn:E; cbn [require sbind]; [|discriminate].
    destruct (decodeRelayMessage junk msg) as [rps|]; cbn [sbind]; [|discriminate]. unfold cadd. destruct (seq + 1 <? 2 ^ 256) eqn:L; cbn [sbind]; [|discriminate].
    destruct (s_receipts H bmc rps (sb_height b) (seq + 1)) as [[ms' h]|] eqn:SR; cbn [sbind fst snd]; [|discriminate]. intros [= <- <-].
    apply s_receipts_takes in SR as (T & L' & ->); [|lia].
    assert (V : exists k, s_validate prev = Some k) by (unfold networkAddress in N; destruct (s_validate prev) as [k|]; [exists k; reflexivity|discriminate]).
    destruct V as [k V]. apply validate_inv in V as (n' & a' & -> & N1 & N2 & N3 & _). destruct (parse_text n' a' N1 N2 N3) as [P1 P2]. rewrite P2 in N. injection N as <-.
    apply parseAddress_iff in A. exists cnet, cacc, n', a', rps. repeat split; try assumption; try lia; [apply bytes_eqb_eq; exact C|]. replace (sb_bmc b) with a by lia. assumption.
  - intros (cnet & cacc & fnet & facc & rps & -> & P & N & -> & A & -> & T & L & ->).
    assert (V : networkAddress prev = Some fnet).
    { unfold parseBTPAddress in P. unfold networkAddress. destruct (s_validate prev) as [k|]; [|discriminate]. cbn [sbind] in *. destruct (s_slice prev 6 k) as [x|]; [|discriminate]. cbn [sbind] in *.
      destruct (s_slice prev (k + 1) (length prev)); [|discriminate]. cbn [sbind] in P. congruence. }
    rewrite V. cbn [sbind]. unfold compareTo at 1. rewrite N, bytes_eqb_refl, Z.eqb_refl. cbn [require sbind snd]. apply parseAddress_iff in A. rewrite A. cbn [sbind]. rewrite Z.eqb_refl. cbn [require sbind].
    pose proof (zlen_nonneg _ ms). unfold cadd. replace (seq + 1 <? 2 ^ 256) with true by lia. cbn [sbind].
    rewrite (proj2 (s_receipts_takes H bmc rps (sb_height b) (seq + 1) ms _ ltac:(lia))) by (split; [exact T|split; [lia|reflexivity]]). reflexivity.
Qed.
Print Assumptions C62_solidity_handles_exactly.

(** What is handed over: events of receipts that are not below the height reached, in their order, numbered consecutively
    from the next number on; so no message twice, none left out. *)
Theorem C62_consecutive : forall mine n es ms, takes mine n es ms ->
  exists picked, within picked es /\ ms = map be_msg picked /\ map be_seq picked = numbers n (length ms) /\ Forall mine picked.
Proof. exact takes_picked. Qed.
Print Assumptions C62_consecutive.

(** Nothing is further ahead than what is handed over: if an event with a larger number is seen, then each number before it
    was seen too; otherwise the message is refused. *)
Theorem C62_gap_refused : forall (mine : bevent -> Prop) n es e k, In e es -> n <= k < be_seq e -> (forall e', In e' es -> mine e' -> be_seq e' <> k) ->
  forall ms, ~ takes mine n es ms.
Proof. intros mine n es e k I K N ms T. destruct (takes_no_gap _ _ _ _ _ _ T I K) as (e' & I' & M & E). exact (N e' I' M E). Qed.
Print Assumptions C62_gap_refused.

(** Old events are passed over and a run of new ones is handed over completely. *)
Theorem C62_run_delivered : forall mine n old es, Forall (fun e => be_seq e < n) old -> map be_seq es = numbers n (length es) -> Forall mine es ->
  takes mine n (old ++ es) (map be_msg es).
Proof.
  intros mine n old es O E F. apply takes_app. exists [], (map be_msg es). split; [reflexivity|]. split; [|rewrite zlen_nil, Z.add_0_r; apply takes_run; assumption].
  apply takes_nothing. revert O. apply Forall_impl. auto.
Qed.
Print Assumptions C62_run_delivered.

(** The height never decreases, and receipts below it count for nothing. *)
Theorem C62_height_grows : forall h rps, h <= top_height h rps /\ (forall r, In r rps -> br_height r <= top_height h rps).
Proof.
  intros h rps. split; [apply top_ge|]. induction rps as [|x t IH]; intros r I; [contradiction|]. cbn [top_height fold_right]. destruct I as [->|I]; [lia|].
  specialize (IH r I). unfold top_height in IH. lia.
Qed.
Print Assumptions C62_height_grows.
Theorem C62_old_receipts_ignored : forall h r rps, br_height r < h -> seen h (r :: rps) = seen h rps /\ top_height h (r :: rps) = top_height h rps.
Proof.
  intros h r rps L. rewrite top_cons. cbn [seen]. replace (br_height r <? h) with true by lia. replace (Z.max h (br_height r)) with h by lia. split; reflexivity.
Qed.
Print Assumptions C62_old_receipts_ignored.

(** The same message again, with the number reached: accepted, nothing handed over, nothing changed. *)
Theorem C62_java_resend : forall addr_of b caller bmc prev seq msg b' ret,
  j_bridge_handle addr_of b caller bmc prev seq msg = Some (b', ret) ->
  j_bridge_handle addr_of b' caller bmc prev (seq + zlen ret) msg = Some (b', []).
Proof.
  intros addr_of b caller bmc prev seq msg b' ret E. apply C62_java_handles_exactly in E as (cur & from & rps & ms & E1 & E2 & A1 & A2 & A3 & E3 & T & -> & ->).
  assert (L : zlen (j_array ms) = zlen ms).
  { rewrite j_array_spec. destruct ms as [|m ms]; [reflexivity|]. unfold zlen. cbn [length]. rewrite repeat_length. lia. }
  rewrite L. apply C62_java_handles_exactly. exists cur, from, rps, []. cbn [jb_bmc jb_net jb_height]. repeat split; try assumption; [|rewrite top_idem; reflexivity].
  apply takes_nothing. pose proof (takes_bound _ _ _ _ T) as B. rewrite Forall_forall in B |- *. intros e I.
  replace (seq + zlen ms + 1) with (seq + 1 + zlen ms) by lia. apply B. eapply within_In; [|exact I]. apply seen_mono. apply top_ge.
Qed.
Print Assumptions C62_java_resend.
Theorem C62_solidity_resend : forall H junk b sender bmc prev seq msg b' ms, 0 <= seq < 2 ^ 256 ->
  s_bridge_handle H junk b sender bmc prev seq msg = Some (b', ms) ->
  s_bridge_handle H junk b' sender bmc prev (seq + zlen ms) msg = Some (b', []).
Proof.
  intros H junk b sender bmc prev seq msg b' ms R E. apply C62_solidity_handles_exactly in E as (cnet & cacc & fnet & facc & rps & E1 & E2 & A1 & A2 & A3 & E3 & T & L & ->); [|assumption].
  pose proof (zlen_nonneg _ ms). apply C62_solidity_handles_exactly; [lia|]. exists cnet, cacc, fnet, facc, rps. cbn [sb_bmc sb_net sb_height]. rewrite zlen_nil.
  repeat split; try assumption; try lia; [|rewrite top_idem; reflexivity].
  apply takes_nothing. pose proof (takes_bound _ _ _ _ T) as B. rewrite Forall_forall in B |- *. intros e I.
  replace (seq + zlen ms + 1) with (seq + 1 + zlen ms) by lia. apply B. eapply within_In; [|exact I]. apply seen_mono. apply top_ge.
Qed.
Print Assumptions C62_solidity_resend.

(** The Solidity contract hands over messages for this BMC only, or two texts with the same hash are known. *)
Theorem C62_solidity_only_mine : forall (H : list Z -> list Z) bmc n es ms, takes (fun e => H (be_next e) = H bmc) n es ms ->
  exists picked, within picked es /\ ms = map be_msg picked /\
    (Forall (fun e => be_next e = bmc) picked \/ exists a, a <> bmc /\ H a = H bmc).
Proof.
  intros H bmc n es ms T. destruct (takes_picked _ _ _ _ T) as (p & P1 & P2 & _ & P4). exists p. split; [assumption|]. split; [assumption|]. clear P1 P2.
  induction P4 as [|e p M F IH]; [left; constructor|]. destruct (list_Z_eq_dec (be_next e) bmc) as [Q|N]; [|right; exists (be_next e); auto].
  destruct IH as [IH|IH]; [left; constructor; auto|right; assumption].
Qed.
Print Assumptions C62_solidity_only_mine.

(** What the Java contract returns is right for at most one message.  For more, the array holds the last message and nulls. *)
Theorem C62_java_one_message : forall ms, (length ms <= 1)%nat -> j_array ms = map Some ms.
Proof. intros [|m [|m' ms]] L; try reflexivity. cbn [length] in L. lia. Qed.
Print Assumptions C62_java_one_message.
Theorem C62_java_several_messages_refuted : forall m1 m2 ms, j_array (m1 :: m2 :: ms) = Some (last (m2 :: ms) []) :: repeat None (S (length ms)) /\
  j_array (m1 :: m2 :: ms) <> map Some (m1 :: m2 :: ms).
Proof.
  intros m1 m2 ms. assert (E : j_array (m1 :: m2 :: ms) = Some (last (m2 :: ms) []) :: repeat None (S (length ms))).
  { rewrite j_array_spec. cbn [length]. replace (S (S (length ms)) - 1)%nat with (S (length ms)) by lia. reflexivity. }
  split; [assumption|]. rewrite E. cbn [repeat map]. discriminate.
Qed.
Print Assumptions C62_java_several_messages_refuted.
(** The Java contract does not look at the receiver. *)
Theorem C62_java_any_receiver : forall es n es', map be_seq es = map be_seq es' -> map be_msg es = map be_msg es' ->
  forall ms, takes anyone n es ms -> takes anyone n es' ms.
Proof.
  intros es n es' E1 E2 ms T. revert es' E1 E2. induction T as [n|n e es ms L T IH|n e es ms L M T IH|n e es ms L M T IH]; intros [|e' es'] E1 E2; try discriminate; [constructor| | |].
  - injection E1 as E1 E1'. injection E2 as E2 E2'. apply takes_old; [lia|auto].
  - exfalso. apply M. exact I.
  - injection E1 as E1 E1'. injection E2 as E2 E2'. rewrite E2. apply takes_next; [lia|exact I|auto].
Qed.
Print Assumptions C62_java_any_receiver.

(** Three receipts, one of them old: numbers 5 (old), 6 and 7 are offered where 6 is next. *)
Definition ex_rps : list breceipt :=
  [BReceipt 0 [BEvent (str "x") 9 [9]] 3; BReceipt 1 [BEvent (str "x") 5 [5]; BEvent (str "x") 6 [6]] 10; BReceipt 0 [BEvent (str "y") 7 [7]] 12].
Example C62_ex_java : j_receipts ex_rps 10 6 = Some ([[6]; [7]], 12) /\ j_receipts ex_rps 2 6 = None /\ j_receipts ex_rps 10 5 = Some ([[5]; [6]; [7]], 12).
Proof. vm_compute. repeat split. Qed.
Example C62_ex_solidity : s_receipts (fun x => x) (str "x") ex_rps 10 6 = Some ([[6]], 12).
Proof. vm_compute. reflexivity. Qed.
Definition ex_bridge : jbridge := JBridge (str "cx01") (str "0x1.eth") 10.
Definition ex_msg : list Z := icon_payload (BReceipt 1 [BEvent (str "x") 5 [5]; BEvent (str "x") 6 [6]] 11).
Example C62_ex_handle : j_bridge_handle Some ex_bridge (str "cx01") (str "btp://0x2.icon/cx01") (str "btp://0x1.eth/0xab") 5 ex_msg =
  Some (JBridge (str "cx01") (str "0x1.eth") 11, [Some [6]]).
Proof. vm_compute. reflexivity. Qed.
Example C62_ex_solidity_handle :
  let bmc := str "btp://0x2.eth/0x00000000000000000000000000000000000000ff" in
  s_bridge_handle (fun x => x) (fun _ _ => 0) (SBridge 255 (str "0x1.icon") 10) 255 bmc (str "btp://0x1.icon/cx01") 5
    (icon_payload (BReceipt 1 [BEvent bmc 6 [6]; BEvent (str "x") 7 [7]; BEvent bmc 7 [8]] 11)) = Some (SBridge 255 (str "0x1.icon") 11, [[6]; [8]]).
Proof. vm_compute. reflexivity. Qed.
