(** C82: what goes wrong with the bytes of messages, and examples. *)
From Coq Require Import String Ascii ZArith List Bool Lia.
From Coq Require Import ZifyBool.
From Verif Require Import Base L_Base M_IntConv S_IntConv L_IntConv M_Rlp S_Rlp L_Rlp S_Address S_BtpAddr M_JBmv S_JBmv M_Wire S_Wire L_Wire
  M_SolRlp S_SolRlp L_SolRlp T_SolRlp M_BtpAddr L_BtpAddr T_BtpAddr M_Bridge M_XCall S_XCall L_XCall M_JCall M_SolCall S_JCall L_JCall L_CallWire M_JMap M_SBmc S_SBmc L_SBmc X_SBmc M_JMsg S_Msg L_Msg T_Msg T_Msg2.
Import ListNotations.
Open Scope Z_scope.

Ltac h2 F := match type of F with Forall2 _ ?its (_ :: _) => let x := fresh "it" in let r := fresh "its" in let h := fresh "HD" in let F' := fresh in
  destruct its as [|x r]; [exfalso; inversion F|]; assert (h := F); apply Forall2_hd in h; apply Forall2_tl in F end.
Lemma toInt_empty : forall it, held it (RBytes []) -> toInt it = None.
Proof. intros it H. unfold toInt. rewrite (held_text _ _ H). reflexivity. Qed.
Lemma big_empty : forall A (f : Z -> parser A) b rest, form (RBytes []) b -> pbind readBigInteger f (b ++ rest) = None.
Proof. intros A f b rest F. unfold pbind, readBigInteger. rewrite (bind_gets _ _ _ _ _ _ _ _ (gets_bytes []) F). reflexivity. Qed.
Lemma squash_128 : squashed_int (-128) = RBytes [].
Proof. reflexivity. Qed.
Lemma squash_other : forall n, n <> -128 -> squashed_int n = int_item n.
Proof. intros n N. unfold squashed_int. rewrite squash_plain; [reflexivity|apply tc_not_128; exact N]. Qed.
Lemma inList_none : forall A (p : parser A) ts b rest, form (RList ts) b -> (forall body, forms ts body -> p body = None) -> inList p (b ++ rest) = None.
Proof.
  intros A p ts b rest F H. inversion F as [| |? body ? Fs W]; subst. specialize (H body Fs). unfold inList.
  assert (RL : readList (b ++ rest) = ROk body rest).
  { pose proof (zlen_nonneg _ body). destruct W as [(L & ->) | (L & sz & S & B & V & ->)]; cbn [app readList].
    - replace (192 + zlen body <? 192) with false by lia. replace (192 + zlen body <=? 247) with true by lia. apply limited_app. lia.
    - replace (247 + zlen sz <? 192) with false by lia. replace (247 + zlen sz <=? 247) with false by lia. unfold readSize. rewrite <- app_assoc, read_full_app by lia.
      rewrite bytesToSize_small by (assumption || lia). rewrite V. replace (zlen body =? 0) with false by lia. rewrite andb_false_r. apply limited_app. reflexivity. }
  rewrite RL, H. reflexivity.
Qed.
(** FINDING: a message with the number -128 is sent as bytes nobody can read. *)
Theorem C82_number_128_refuted : forall junk, (forall b, mem_ok (junk b)) -> forall m b, msg_ok m -> modest m -> m_sn m = -128 \/ m_nsn m = -128 -> encodeBTPMessage m = Some b ->
  decodeBTPMessage junk b = None /\ fromBytes readBTPMessage b = None.
Proof.
  intros junk J m b O L N E. pose proof (C82_solidity_writes m O L) as W. rewrite E in W. destruct W as ((N1 & N2 & N3) & F). unfold sol_tree in F. split.
  - destruct (list_of_form junk _ b J F) as (its & E2 & H). h2 H. h2 H. h2 H. h2 H. h2 H. h2 H. h2 H. unfold decodeBTPMessage. rewrite E2. cbn [sbind]. unfold M_SBmc.item_at. cbn [at_index nth_error sbind].
    rewrite (held_text _ _ HD). cbn [sbind]. rewrite (held_text _ _ HD0). cbn [sbind]. rewrite (held_text _ _ HD1). cbn [sbind].
    destruct (Z.eq_dec (m_sn m) (-128)) as [S|S].
    + rewrite S, squash_128 in HD2. rewrite (toInt_empty _ HD2). reflexivity.
    + rewrite (squash_other _ S) in HD2. rewrite (held_int _ _ HD2 ltac:(lia)). cbn [sbind]. rewrite (held_text _ _ HD3). cbn [sbind].
      destruct N as [N|N]; [contradiction|]. rewrite N, squash_128 in HD4. rewrite (toInt_empty _ HD4). reflexivity.
  - unfold fromBytes. rewrite <- (app_nil_r b). unfold readBTPMessage. rewrite (inList_none _ _ _ _ _ F); [reflexivity|]. clear - N. intros by_ F.
    go F (gets_bytes (squashed (m_src m))). go F (gets_bytes (squashed (m_dst m))). go F (gets_bytes (squashed (m_svc m))).
    destruct (Z.eq_dec (m_sn m) (-128)) as [S|S].
    + rewrite S, squash_128 in F. inversion F; subst. apply big_empty. assumption.
    + rewrite (squash_other _ S) in F. go F (gets_big (m_sn m)). go F (gets_bytes (squashed (m_body m))). destruct N as [N|N]; [contradiction|].
      rewrite N, squash_128 in F. inversion F; subst. apply big_empty. assumption.
Qed.
Print Assumptions C82_number_128_refuted.

Section Center.
Variable own : text.
Variables self mgmt svcaddr : Z.
Variable junk : list Z -> mem.
Variable verify : nat -> Z -> text -> Z -> list Z -> option (list (list Z)).
Variable serve : nat -> Z -> bshcall -> action.
Variable blame : nat -> text.
Variable accepts : nat -> Z -> Z -> bool.
Notation handleRelay := (handleRelay own self mgmt svcaddr junk verify serve blame).
Notation dispatch_all := (dispatch_all own self mgmt svcaddr junk serve blame).
Notation sendError := (sendError own self).
Notation sendWithFee := (sendWithFee own self).
Lemma unreadable_all : forall pre s caller prev rx b post, decodeBTPMessage junk b = None -> dispatch_all s caller prev rx (pre ++ b :: post) = None.
Proof.
  induction pre as [|a pre IH]; intros s caller prev rx b post D; cbn [app M_SBmc.dispatch_all].
  - unfold handleFee. rewrite D. reflexivity.
  - destruct (handleFee _ _ _ _ _ a) as [y|]; [|reflexivity]. cbn [sbind]. destruct (dispatch _ _ _ _ _ _ _ _ _ _ _) as [s'|]; [|reflexivity]. cbn [sbind]. apply IH. exact D.
Qed.
(** FINDING: one such message stops its link: every relay message which reaches it is reverted as a whole. *)
Theorem C82_unreadable_stops_link_refuted : forall s caller prev bytes net v bs b, networkAddress prev = Some net -> getVerifier (s_m s) net = Some v ->
  verify (length (s_out s)) v prev (rx_of (s_p s) prev) bytes = Some bs -> In b bs -> decodeBTPMessage junk b = None -> handleRelay s caller prev bytes = None.
Proof.
  intros s caller prev bytes net v bs b N V E I D. unfold M_SBmc.handleRelay. rewrite N. cbn [sbind]. rewrite V. cbn [sbind]. rewrite E. cbn [sbind].
  destruct (isLinkRelay (s_m s) prev caller) as [r|]; [|reflexivity]. cbn [sbind]. destruct r; [|reflexivity]. cbn [require sbind].
  apply in_split in I as (pre & post & ->). rewrite unreadable_all by exact D. reflexivity.
Qed.
(** And it comes up by itself: the error reply to, and the answer of a service to, the message with network number 128. *)
Lemma send_logs : forall s next m e s', send s next m e = Some s' -> exists k, In (OSent next k m) (s_out s').
Proof.
  intros s next m e s' E. unfold send in E. bnd E b B. exists (tx_of (s_p s) next + 1). unfold event in E.
  destruct (m_nsn m <? 0).
  - bnd E n Cn. same E. unfold emit. cbn [s_out]. apply in_or_app. left. apply in_or_app. right. left. reflexivity.
  - same E. unfold emit. cbn [s_out]. apply in_or_app. left. apply in_or_app. right. left. reflexivity.
Qed.
Theorem C82_reply_to_128_refuted :
  (forall s prev seq m code reason s', 0 < m_sn m -> m_nsn m = 128 -> sendError s prev seq m code reason = Some s' -> exists k m', In (OSent prev k m') (s_out s') /\ m_nsn m' = -128) /\
  (forall s internal value to svc sn b fill s' n, p_nsn (response_at (s_s s) (to, svc, sn)) = 128 -> sendWithFee s internal value to svc sn b true fill = Some (s', n) ->
    exists next k m', In (OSent next k m') (s_out s') /\ m_nsn m' = -128).
Proof.
  split.
  - intros s prev seq m code reason s' P N E. unfold M_SBmc.sendError in E. bnd E y Y. cbv zeta in E. cbn [m_sn m_nsn m_src m_svc m_fee with_fee] in E.
    replace (0 <? m_sn m) with true in E by lia. bnd E sn SS. bnd E nsn T. bnd E b B. rewrite N in T. unfold cneg in T. change (128 =? - 2 ^ 255) with false in T. cbv iota in T. same T.
    destruct (send_logs _ _ _ _ _ E) as (k & I). exists k. eexists. split; [exact I|reflexivity].
  - intros s internal value to svc sn b fill s' n P E. unfold M_SBmc.sendWithFee in E. bnd E next NX. bnd E y Y. unfold removeResponse in Y. cbv zeta in Y. chk Y R. apply some_inj in Y. subst y. cbn [fst snd] in E.
    bnd E s1 S1. rewrite P in E. unfold cneg in E. change (128 =? - 2 ^ 255) with false in E. cbv iota in E. cbn [sbind] in E. bnd E s2 S2. apply some_inj in E.
    destruct (send_logs _ _ _ _ _ S2) as (k & I). exists next, k. eexists. injection E as <- _. split; [exact I|reflexivity].
Qed.
End Center.
Print Assumptions C82_unreadable_stops_link_refuted.
Print Assumptions C82_reply_to_128_refuted.

(** FINDING: a payload of the single byte 0x80 arrives empty. *)
Theorem C82_byte_0x80_refuted : forall junk, (forall b, mem_ok (junk b)) -> forall m b, msg_ok m -> modest m -> m_body m = [128] ->
  plain (m_src m) -> plain (m_dst m) -> plain (m_svc m) -> plain (f_net (m_fee m)) -> m_sn m <> -128 -> m_nsn m <> -128 -> encodeBTPMessage m = Some b ->
  decodeBTPMessage junk b = Some (Msg (m_src m) (m_dst m) (m_svc m) (m_sn m) [] (m_nsn m) (m_fee m)) /\
  fromBytes readBTPMessage b = Some (JMsg (m_src m) (m_dst m) (m_svc m) (m_sn m) [] (m_nsn m) (Some (m_fee m))).
Proof.
  intros junk J m b O L B P1 P2 P3 P4 N1 N2 E. pose proof (C82_solidity_writes m O L) as W. rewrite E in W. destruct W as ((R1 & R2 & R3) & F).
  set (m' := JMsg (m_src m) (m_dst m) (m_svc m) (m_sn m) [] (m_nsn m) (Some (m_fee m))).
  assert (T : sol_tree m = jmsg_tree m').
  { unfold sol_tree, jmsg_tree, btp_item, fee_squashed, squashed_int, m'. cbn [j_src j_dst j_svc j_sn j_body j_nsn j_fee fee_tree]. rewrite B.
    rewrite (squash_plain (m_src m)), (squash_plain (m_dst m)), (squash_plain (m_svc m)), (squash_plain (f_net (m_fee m))), (squash_plain (BigIntToBytes (m_sn m))), (squash_plain (BigIntToBytes (m_nsn m)))
      by (assumption || (apply tc_not_128; assumption)). reflexivity. }
  rewrite T in F. split; [|exact (proj1 C82_java_reads m' b F)]. rewrite (proj1 (C82_solidity_reads junk J) m' b); [reflexivity| |exact F].
  unfold nums_ok, int_range, uint_range, m'. cbn [j_sn j_nsn j_fee given]. split; [lia|]. split; [lia|].
  destruct O as (_ & _ & _ & _ & _ & O). apply Forall_forall. intros v V. pose proof (proj1 (Forall_forall _ _) O v V). pose proof (proj1 (Forall_forall _ _) R3 v V). cbv beta in *. lia.
Qed.
Print Assumptions C82_byte_0x80_refuted.

(** FINDING: numbers beyond 128 bits arrive but cannot be passed on: the message is accepted by the reader and reverts the transaction when it is written. *)
Theorem C82_wide_numbers_not_forwarded : forall junk, (forall b, mem_ok (junk b)) -> forall m, jmsg_ok m -> nums_ok m -> zlen (j_btp_bytes m) < 2 ^ 32 -> modest (to_sol m) -> ~ narrow (to_sol m) ->
  decodeBTPMessage junk (j_btp_bytes m) = Some (to_sol m) /\ encodeBTPMessage (to_sol m) = None.
Proof.
  intros junk J m O R L M N. split; [exact (proj1 (C82_java_messages_read junk J m O R L))|].
  assert (O2 : msg_ok (to_sol m)).
  { destruct O as (B1 & B2 & B3 & B4 & B5). destruct R as (_ & _ & R). split; [exact B1|]. split; [exact B2|]. split; [exact B3|]. split; [exact B4|].
    split; [cbn [to_sol m_fee]; destruct (j_fee m); [exact B5|constructor]|]. cbn [to_sol m_fee]. apply Forall_impl with (2 := R). intros v [V _]. exact V. }
  pose proof (C82_solidity_writes _ O2 M) as W. destruct (encodeBTPMessage (to_sol m)); [destruct W as (W & _); contradiction|reflexivity].
Qed.
Print Assumptions C82_wide_numbers_not_forwarded.

(** FINDING: an error code beyond a Java long makes the reply unreadable in Java; Solidity sends codes up to 128 bits. *)
Theorem C82_long_code_refuted : forall code t b, ~ (- 2 ^ 63 <= code < 2 ^ 63) -> form (response_item code t) b -> fromBytes readResponseMessage b = None.
Proof.
  intros c t b R F. unfold fromBytes. rewrite <- (app_nil_r b). unfold readResponseMessage. rewrite (inList_none _ _ _ _ _ F); [reflexivity|]. intros by_ H. inversion H as [|? ? x r F1 F2]; subst.
  unfold pbind at 1. unfold readLong. rewrite (bind_gets _ _ _ _ _ _ _ _ (gets_big c) F1). replace ((- 2 ^ 63 <=? c) && (c <? 2 ^ 63)) with false by lia. reflexivity.
Qed.
Print Assumptions C82_long_code_refuted.

(** * Examples *)
Definition ex_m : msg := Msg x_own x_icon (str "xcall") 7 (str "hello") (-129) (Fee x_icon [5; 300]).
Example C82_ex : msg_ok ex_m /\ modest ex_m /\ narrow ex_m /\ kept_whole ex_m /\ unpadded (jmsg_tree (to_java ex_m)) /\
  encodeBTPMessage ex_m = Some (j_btp_bytes (to_java ex_m)) /\ decodeBTPMessage x_junk (j_btp_bytes (to_java ex_m)) = Some ex_m /\ fromBytes readBTPMessage (j_btp_bytes (to_java ex_m)) = Some (to_java ex_m).
Proof.
  assert (O : msg_ok ex_m).
  { assert (B : forall l, forallb (fun x => (0 <=? x) && (x <? 256)) l = true -> bytes_ok l).
    { intros l H. apply Forall_forall. intros x X. rewrite forallb_forall in H. specialize (H x X). red. lia. }
    repeat (split; [apply B; reflexivity|]). constructor; [lia|]. constructor; [lia|constructor]. }
  split; [exact O|]. split; [vm_compute; reflexivity|]. split; [split; [cbn; lia|split; [cbn; lia|constructor; [lia|constructor; [lia|constructor]]]]|].
  split; [repeat split; discriminate|]. split; [|split; [vm_compute; reflexivity|split; vm_compute; reflexivity]].
  assert (NP : forall n, 0 <= n < 255 -> ~ padded n).
  { intros n N (k & K & E). assert (256 ^ 1 <= 256 ^ k) by (apply Z.pow_le_mono_r; lia). lia. }
  cbn [unpadded jmsg_tree btp_item fee_tree fee_item to_java fold_right]. repeat (split; try exact I); apply NP; vm_compute; split; congruence.
Qed.
(** a null fee, and what becomes of it *)
Definition ex_null : jmsg := JMsg x_icon x_own (str "xcall") 1 (str "x") 2 None.
Example C82_ex_null : decodeBTPMessage x_junk (j_btp_bytes ex_null) = Some (to_sol ex_null) /\ m_fee (to_sol ex_null) = Fee [] [].
Proof. split; vm_compute; reflexivity. Qed.
(** the reply to message 128 *)
Example C82_ex_128 : exists b, encodeBTPMessage (Msg x_own x_icon (str "xcall") 0 (str "pong") (-128) (Fee x_icon [])) = Some b /\ decodeBTPMessage x_junk b = None /\ fromBytes readBTPMessage b = None.
Proof. eexists. split; [vm_compute; reflexivity|]. split; vm_compute; reflexivity. Qed.
(** FINDING: a message whose parts take 255 bytes is not written in the shortest way. *)
Definition ex_255 : msg := Msg x_own x_icon (str "xcall") 7 (repeat 1 216) 9 (Fee x_icon [5]).
Theorem C82_leading_zero_refuted : exists m b, kept_whole m /\ narrow m /\ encodeBTPMessage m = Some b /\ b <> j_btp_bytes (to_java m) /\ fromBytes readBTPMessage b = Some (to_java m).
Proof.
  exists ex_255. eexists. split; [repeat split; discriminate|]. split; [split; [cbn; lia|split; [cbn; lia|constructor; [lia|constructor]]]|].
  split; [vm_compute; reflexivity|]. split; [vm_compute; discriminate|vm_compute; reflexivity].
Qed.
Print Assumptions C82_leading_zero_refuted.
Example C82_ex_links : fromBytes readInitMessage (j_init_bytes [Some (j_parse x_link); None]) = Some [Some (j_parse x_link); None] /\
  decodeInitMessage x_junk (j_init_bytes [Some (j_parse x_link)]) = Some [x_link] /\ clear_link (Some (j_parse x_link)).
Proof. split; [vm_compute; reflexivity|]. split; vm_compute; reflexivity. Qed.
