(** C82: the bytes of messages between message centers, in Java and in Solidity. *)
From Coq Require Import String Ascii ZArith List Bool Lia.
From Coq Require Import ZifyBool.
From Verif Require Import Base L_Base M_IntConv S_IntConv L_IntConv M_Rlp S_Rlp L_Rlp S_Address S_BtpAddr M_JBmv S_JBmv M_Wire S_Wire L_Wire
  M_SolRlp S_SolRlp L_SolRlp T_SolRlp M_BtpAddr L_BtpAddr T_BtpAddr M_Bridge M_XCall S_XCall L_XCall M_JCall M_SolCall S_JCall L_JCall L_CallWire M_SBmc M_JMsg S_Msg L_Msg.
Import ListNotations.
Open Scope Z_scope.

(** what the parts of a message amount to *)
Definition fee_tree (f : option fee) : rlp := match f with Some f => fee_item (f_net f) (f_vals f) | None => RNull end.
Definition jmsg_tree (m : jmsg) : rlp := btp_item (j_src m) (j_dst m) (j_svc m) (j_sn m) (j_body m) (j_nsn m) (fee_tree (j_fee m)).
Definition link_text (o : option jaddr) : option (list Z) := match o with Some a => Some (j_toString a) | None => None end.
(** an address which is the same after being written and read *)
Definition clear_link (o : option jaddr) : Prop := match o with Some a => j_parse (j_toString a) = a | None => True end.
(** the Solidity struct for a Java message: no null *)
Definition given (f : option fee) : fee := match f with Some f => f | None => Fee [] [] end.
Definition to_sol (m : jmsg) : msg := Msg (j_src m) (j_dst m) (j_svc m) (j_sn m) (j_body m) (j_nsn m) (given (j_fee m)).
Definition to_java (m : msg) : jmsg := JMsg (m_src m) (m_dst m) (m_svc m) (m_sn m) (m_body m) (m_nsn m) (Some (m_fee m)).

(** * Java *)
(** Java writes the format described, in its standard bytes. *)
Theorem C82_java_writes : forall m type payload code t amount receiver links link,
  j_btp_bytes m = rlp_write (jmsg_tree m) /\
  j_bmc_bytes type payload = rlp_write (bmc_item type payload) /\
  j_response_bytes code t = rlp_write (response_item code t) /\
  j_claim_bytes amount receiver = rlp_write (claim_item amount receiver) /\
  j_init_bytes links = rlp_write (init_item (map link_text links)) /\
  j_link_bytes link = rlp_write (link_item (link_text link)).
Proof.
  intros m type payload code t amount receiver links link. split.
  { unfold j_btp_bytes, jmsg_tree, btp_item, fee_tree, writeNullableOf. destruct (j_fee m); reflexivity. }
  split; [reflexivity|]. split; [destruct t; reflexivity|]. split; [reflexivity|]. split; [|destruct link; reflexivity].
  unfold j_init_bytes, init_item. rewrite map_map. do 4 f_equal. apply map_ext. intros [a|]; reflexivity.
Qed.
Print Assumptions C82_java_writes.

Lemma gets_fee : forall f, gets readFeeInfo (fee_item (f_net f) (f_vals f)) f.
Proof.
  intros [n vs]. unfold readFeeInfo, fee_item. cbn [f_net f_vals]. apply gets_inList. intros body F. go F (gets_bytes n).
  assert (G : gets (listOf readBigInteger) (RList (map int_item vs)) vs).
  { apply gets_listOf. clear. induction vs; constructor; [apply gets_big|assumption]. }
  go F G. eexists. reflexivity.
Qed.
Lemma gets_msg : forall m, gets readBTPMessage (jmsg_tree m) m.
Proof.
  intros [src dst svc sn body nsn f]. unfold readBTPMessage, jmsg_tree, btp_item. cbn [j_src j_dst j_svc j_sn j_body j_nsn j_fee]. apply gets_inList. intros by_ F.
  go F (gets_bytes src). go F (gets_bytes dst). go F (gets_bytes svc). go F (gets_big sn). go F (gets_bytes body). go F (gets_big nsn).
  assert (G : gets (readNullableOf readFeeInfo) (fee_tree f) f) by (destruct f as [f|]; [apply gets_some; [discriminate|apply gets_fee]|apply gets_none]).
  go F G. eexists. reflexivity.
Qed.
Lemma gets_bmc : forall type payload, gets readBMCMessage (bmc_item type payload) (Some type, Some payload).
Proof.
  intros t p. unfold readBMCMessage, bmc_item. apply gets_inList. intros by_ F.
  go F (gets_nullable (Some t)). go F (gets_nullable (Some p)). eexists. reflexivity.
Qed.
Lemma gets_response : forall code t, - 2 ^ 63 <= code < 2 ^ 63 -> gets readResponseMessage (response_item code t) (code, t).
Proof. intros c t R. unfold readResponseMessage, response_item. apply gets_inList. intros by_ F. go F (gets_long c R). go F (gets_nullable t). eexists. reflexivity. Qed.
Lemma gets_claim : forall a r, gets readClaimMessage (claim_item a r) (a, r).
Proof. intros a r. unfold readClaimMessage, claim_item. apply gets_inList. intros by_ F. go F (gets_big a). go F (gets_bytes r). eexists. reflexivity. Qed.
Definition parsed (o : option (list Z)) : option jaddr := match o with Some t => Some (j_parse t) | None => None end.
Lemma gets_addr : forall o, gets (readNullableOf readAddress) (opt_item o) (parsed o).
Proof.
  intros [t|]; [|apply gets_none]. apply gets_some; [discriminate|]. intros b rest F. unfold readAddress. cbn [opt_item] in F.
  rewrite (bind_gets _ _ _ _ _ _ _ _ (gets_bytes t) F). reflexivity.
Qed.
Lemma gets_init : forall l, gets readInitMessage (init_item l) (map parsed l).
Proof.
  intros l. unfold readInitMessage, init_item. apply gets_inList. intros by_ F.
  assert (G : gets (listOf (readNullableOf readAddress)) (RList (map opt_item l)) (map parsed l)).
  { apply gets_listOf. clear. induction l; constructor; [apply gets_addr|assumption]. }
  inversion F as [|? ? b r F1 F2]; subst. eexists. apply (G b r F1).
Qed.
Lemma gets_link : forall o, gets readLinkMessage (link_item o) (parsed o).
Proof. intros o. unfold readLinkMessage, link_item. apply gets_inList. intros by_ F. inversion F as [|? ? b r F1 F2]; subst. eexists. apply (gets_addr o b r F1). Qed.

(** Java reads every form of it, with or without leading zeros in lengths. *)
Theorem C82_java_reads :
  (forall m b, form (jmsg_tree m) b -> fromBytes readBTPMessage b = Some m) /\
  (forall type payload b, form (bmc_item type payload) b -> fromBytes readBMCMessage b = Some (Some type, Some payload)) /\
  (forall code t b, - 2 ^ 63 <= code < 2 ^ 63 -> form (response_item code t) b -> fromBytes readResponseMessage b = Some (code, t)) /\
  (forall amount receiver b, form (claim_item amount receiver) b -> fromBytes readClaimMessage b = Some (amount, receiver)) /\
  (forall links b, form (init_item links) b -> fromBytes readInitMessage b = Some (map parsed links)) /\
  (forall link b, form (link_item link) b -> fromBytes readLinkMessage b = Some (parsed link)).
Proof.
  split; [intros m b F; exact (fromBytes_gets _ _ _ _ _ (gets_msg m) F)|]. split; [intros t p b F; exact (fromBytes_gets _ _ _ _ _ (gets_bmc t p) F)|].
  split; [intros c t b R F; exact (fromBytes_gets _ _ _ _ _ (gets_response c t R) F)|]. split; [intros a r b F; exact (fromBytes_gets _ _ _ _ _ (gets_claim a r) F)|].
  split; [intros l b F; exact (fromBytes_gets _ _ _ _ _ (gets_init l) F)|intros o b F; exact (fromBytes_gets _ _ _ _ _ (gets_link o) F)].
Qed.
Print Assumptions C82_java_reads.

Definition fee_bytes_ok (f : option fee) : Prop := match f with Some f => bytes_ok (f_net f) | None => True end.
Definition jmsg_ok (m : jmsg) : Prop := bytes_ok (j_src m) /\ bytes_ok (j_dst m) /\ bytes_ok (j_svc m) /\ bytes_ok (j_body m) /\ fee_bytes_ok (j_fee m).
Lemma ints_ok : forall l, rlp_ok (RList (map int_item l)).
Proof. intros l. apply rlp_ok_list, Forall_map. apply Forall_forall. intros z _. apply int_ok. Qed.
Lemma fee_tree_ok : forall f, fee_bytes_ok f -> rlp_ok (fee_tree f).
Proof. intros [f|] B; [|exact I]. apply rlp_ok_list. constructor; [exact B|]. constructor; [apply ints_ok|constructor]. Qed.
Lemma jmsg_tree_ok : forall m, jmsg_ok m -> rlp_ok (jmsg_tree m).
Proof.
  intros m (B1 & B2 & B3 & B4 & B5). apply rlp_ok_list. constructor; [exact B1|]. constructor; [exact B2|]. constructor; [exact B3|].
  constructor; [apply int_ok|]. constructor; [exact B4|]. constructor; [apply int_ok|]. constructor; [apply fee_tree_ok; exact B5|constructor].
Qed.
Lemma opt_items_ok : forall l, Forall opt_bytes l -> Forall rlp_ok (map opt_item l).
Proof. intros l F. apply Forall_map. apply Forall_impl with (2 := F). intros o B. apply opt_item_ok. exact B. Qed.

(** So Java reads what Java writes. *)
Theorem C82_java_to_java :
  (forall m, jmsg_ok m -> zlen (j_btp_bytes m) < 2 ^ 32 -> fromBytes readBTPMessage (j_btp_bytes m) = Some m) /\
  (forall t p, bytes_ok t -> bytes_ok p -> zlen (j_bmc_bytes t p) < 2 ^ 32 -> fromBytes readBMCMessage (j_bmc_bytes t p) = Some (Some t, Some p)) /\
  (forall c t, - 2 ^ 63 <= c < 2 ^ 63 -> opt_bytes t -> zlen (j_response_bytes c t) < 2 ^ 32 -> fromBytes readResponseMessage (j_response_bytes c t) = Some (c, t)) /\
  (forall a r, bytes_ok r -> zlen (j_claim_bytes a r) < 2 ^ 32 -> fromBytes readClaimMessage (j_claim_bytes a r) = Some (a, r)) /\
  (forall l, Forall (fun o => opt_bytes (link_text o) /\ clear_link o) l -> zlen (j_init_bytes l) < 2 ^ 32 -> fromBytes readInitMessage (j_init_bytes l) = Some l) /\
  (forall o, opt_bytes (link_text o) -> clear_link o -> zlen (j_link_bytes o) < 2 ^ 32 -> fromBytes readLinkMessage (j_link_bytes o) = Some o).
Proof.
  destruct C82_java_reads as (R1 & R2 & R3 & R4 & R5 & R6).
  assert (P : forall o, clear_link o -> parsed (link_text o) = o) by (intros [a|] C; [cbn [parsed link_text]; rewrite C|]; reflexivity).
  split; [|split; [|split; [|split; [|split]]]].
  - intros m O L. destruct (C82_java_writes m [] [] 0 None 0 [] [] None) as (E & _). rewrite E in *. apply R1, form_write; [apply jmsg_tree_ok; exact O|exact L].
  - intros t p B1 B2 L. apply R2. apply (form_write (bmc_item t p)); [|exact L]. apply ok_two; assumption.
  - intros c t R B L. assert (E : j_response_bytes c t = rlp_write (response_item c t)) by (destruct t; reflexivity). rewrite E in *. apply R3; [exact R|]. apply form_write; [|exact L]. apply ok_two; [apply int_ok|apply opt_item_ok; exact B].
  - intros a r B L. apply R4. apply (form_write (claim_item a r)); [|exact L]. apply ok_two; [apply int_ok|exact B].
  - intros l O L. assert (E : j_init_bytes l = rlp_write (init_item (map link_text l))) by (apply (C82_java_writes (JMsg [] [] [] 0 [] 0 None) [] [] 0 None 0 [] l None)). rewrite E in *.
    rewrite (R5 (map link_text l)).
    + rewrite map_map. f_equal. clear - O P. induction O as [|o l [_ C] O IH]; [reflexivity|]. cbn [map]. rewrite (P o C), IH. reflexivity.
    + apply form_write; [|exact L]. apply rlp_ok_list. constructor; [|constructor]. apply rlp_ok_list, opt_items_ok, Forall_map. apply Forall_impl with (2 := O). intros o [B _]. exact B.
  - intros o B C L. assert (E : j_link_bytes o = rlp_write (link_item (link_text o))) by (destruct o; reflexivity). rewrite E in *. rewrite (R6 (link_text o)).
    + rewrite (P o C). reflexivity.
    + apply form_write; [|exact L]. apply rlp_ok_list. constructor; [apply opt_item_ok; exact B|constructor].
Qed.
Print Assumptions C82_java_to_java.

(** * Solidity reads *)
Section Read.
Variable junk : list Z -> mem.
Hypothesis J : forall b, mem_ok (junk b).
Ltac h2 F := match type of F with Forall2 _ ?its (_ :: _) => let x := fresh "it" in let r := fresh "its" in let h := fresh "HD" in let F' := fresh in
  destruct its as [|x r]; [exfalso; inversion F|]; assert (h := F); apply Forall2_hd in h; apply Forall2_tl in F end.
(** numbers an int256 or uint256 is read as *)
Definition int_range (n : Z) : Prop := - 2 ^ 247 <= n < 2 ^ 255.
Definition uint_range (n : Z) : Prop := 0 <= n < 2 ^ 255.
Definition nums_ok (m : jmsg) : Prop := int_range (j_sn m) /\ int_range (j_nsn m) /\ Forall uint_range (f_vals (given (j_fee m))).
Lemma fee_held : forall it f, held it (fee_tree f) -> Forall uint_range (f_vals (given f)) -> decodeFeeInfo it = Some (given f).
Proof.
  intros it [[n vs]|] Hd R; unfold decodeFeeInfo; cbn [fee_tree given f_net f_vals] in *.
  - destruct (held_list _ _ Hd) as (N & its & E & F). rewrite N, E. cbn [sbind]. h2 F. h2 F. unfold M_SBmc.item_at. cbn [at_index nth_error sbind].
    destruct (held_list _ _ HD0) as (_ & vts & E2 & F2). rewrite E2. cbn [sbind].
    rewrite (map_opt_held Z toUint int_item uint_range (fun z => z)) with (l := vs); [|intros i a Ha Ra; apply held_uint; assumption|exact F2|exact R].
    cbn [sbind]. rewrite (held_text _ _ HD). cbn [sbind]. rewrite map_id. reflexivity.
  - rewrite (proj2 (proj1 (proj2 (C60_item_read _ _ (held_null _ Hd)))) eq_refl). reflexivity.
Qed.
Lemma msg_read : forall m b, nums_ok m -> form (jmsg_tree m) b -> decodeBTPMessage junk b = Some (to_sol m).
Proof.
  intros [src dst svc sn body nsn f] b (R1 & R2 & R3) F. cbn [j_sn j_nsn j_fee] in *. unfold jmsg_tree, btp_item in F. cbn [j_src j_dst j_svc j_sn j_body j_nsn j_fee] in F.
  destruct (list_of_form junk _ b J F) as (its & E & H). h2 H. h2 H. h2 H. h2 H. h2 H. h2 H. h2 H. unfold decodeBTPMessage. rewrite E. cbn [sbind]. unfold M_SBmc.item_at. cbn [at_index nth_error sbind].
  rewrite (held_text _ _ HD). cbn [sbind]. rewrite (held_text _ _ HD0). cbn [sbind]. rewrite (held_text _ _ HD1). cbn [sbind]. rewrite (held_int _ _ HD2 R1). cbn [sbind].
  rewrite (held_text _ _ HD3). cbn [sbind]. rewrite (held_int _ _ HD4 R2). cbn [sbind]. rewrite (fee_held _ _ HD5 R3). reflexivity.
Qed.
Definition text_or_empty (o : option (list Z)) : list Z := match o with Some t => t | None => [] end.
Lemma pair_read : forall n t b, uint_range n -> form (RList [int_item n; opt_item t]) b -> decodeResponseMessage junk b = Some (n, text_or_empty t).
Proof.
  intros n t b R F. destruct (list_of_form junk _ b J F) as (its & E & H). h2 H. h2 H. unfold decodeResponseMessage. rewrite E. cbn [sbind]. unfold M_SBmc.item_at. cbn [at_index nth_error sbind].
  rewrite (held_uint _ _ HD R). cbn [sbind]. rewrite (held_opt _ _ HD0). reflexivity.
Qed.
(** Solidity reads every form of the messages too: null becomes empty, and numbers have to fit. *)
Theorem C82_solidity_reads :
  (forall m b, nums_ok m -> form (jmsg_tree m) b -> decodeBTPMessage junk b = Some (to_sol m)) /\
  (forall type payload b, form (bmc_item type payload) b -> decodeBMCMessage junk b = Some (type, payload)) /\
  (forall code t b, uint_range code -> form (response_item code t) b -> decodeResponseMessage junk b = Some (code, text_or_empty t)) /\
  (forall amount receiver b, uint_range amount -> form (claim_item amount receiver) b -> decodeClaimMessage junk b = Some (amount, receiver)) /\
  (forall links b, form (init_item links) b -> decodeInitMessage junk b = Some (map text_or_empty links)) /\
  (forall link b, form (link_item link) b -> decodePropagateMessage junk b = Some (text_or_empty link)).
Proof.
  split; [exact msg_read|]. split.
  { intros t p b F. destruct (list_of_form junk _ b J F) as (its & E & H). h2 H. h2 H. unfold decodeBMCMessage. rewrite E. cbn [sbind]. unfold M_SBmc.item_at. cbn [at_index nth_error sbind].
    rewrite (held_text _ _ HD). cbn [sbind]. rewrite (held_text _ _ HD0). reflexivity. }
  split; [exact pair_read|]. split; [intros a r b R F; exact (pair_read a (Some r) b R F)|]. split.
  { intros l b F. destruct (list_of_form junk _ b J F) as (its & E & H). h2 H. unfold decodeInitMessage. rewrite E. cbn [sbind]. unfold M_SBmc.item_at. cbn [at_index nth_error sbind].
    destruct (held_list _ _ HD) as (_ & ts & E2 & F2). rewrite E2. cbn [sbind]. clear - F2. revert ts F2. induction l as [|o l IH]; intros ts F2; cbn [map] in F2; inversion F2; subst; [reflexivity|].
    cbn [map_opt map]. rewrite (held_opt _ o) by assumption. cbn [filled sbind]. rewrite IH by assumption. reflexivity. }
  intros o b F. destruct (list_of_form junk _ b J F) as (its & E & H). h2 H. unfold decodePropagateMessage. rewrite E. cbn [sbind]. unfold M_SBmc.item_at. cbn [at_index nth_error sbind].
  rewrite (held_opt _ _ HD). reflexivity.
Qed.
End Read.
Print Assumptions C82_solidity_reads.
