(** C59: what the relay encodes is what the BTP block verifier reads. *)
From Coq Require Import String Ascii ZArith List Bool Lia.
From Coq Require Import ZifyBool.
From Verif Require Import Base L_Base M_IntConv S_IntConv L_IntConv M_Rlp S_Rlp L_Rlp M_Codec S_Codec L_Codec M_Mbt S_Mbt L_Mbt L_Mbt2
  M_JBmv S_JBmv L_JBmv L_JBmv2 L_JBmv3 T_JBmv M_Fragment T_Fragment M_Wire S_Wire L_Wire.
Import ListNotations.
Open Scope Z_scope.

(** ** The relay writes the format *)
Definition build (n : news) : ritem :=
  match n with Header h sigs => NewBlockUpdate (header_wire h) (sigs_wire sigs) | Messages all m => NewMessageProof all m end.

Lemma enc_int : forall z, - 2 ^ 63 <= z < 2 ^ 63 -> encodeValue (VInt z) = rlp_write (int_item z).
Proof. intros z R. cbn [encodeValue]. unfold write_int. rewrite Int64ToBytes_spec by assumption. reflexivity. Qed.
Lemma enc_node : forall n, fits_int (p_num n) -> encodeValue (node_val n) = rlp_write (pnode_item n).
Proof.
  intros n F. unfold fits_int in F. unfold node_val, pnode_item. cbn [encodeValue map concat rlp_write]. f_equal.
  change (write_int (p_num n)) with (encodeValue (VInt (p_num n))). rewrite enc_int by lia. reflexivity.
Qed.
Lemma enc_nodes : forall all l, Forall wire_node_ok l -> encodeValue (nodes_val all l) = rlp_write (pnodes_item all l).
Proof.
  intros [|] l F; [reflexivity|]. unfold nodes_val, pnodes_item. cbn [encodeValue rlp_write]. f_equal. f_equal. rewrite !map_map.
  induction F as [|n l [F1 _] F IH]; [reflexivity|]. cbn [map]. rewrite enc_node, IH by assumption. reflexivity.
Qed.
Lemma enc_proof : forall all m, wire_proof_ok all m -> MarshalToBytes (proof_val all m) = rlp_write (proof_item all m).
Proof.
  intros all m (W1 & _ & W3 & _). unfold MarshalToBytes, proof_val, proof_item.
  change (encodeValue (VStruct [?a; ?b; ?c])) with (writeList (encodeValue a ++ encodeValue b ++ encodeValue c ++ [])).
  rewrite !enc_nodes by assumption. cbn [rlp_write map concat]. f_equal. f_equal. f_equal. cbn [encodeValue]. rewrite !map_map. reflexivity.
Qed.
Lemma enc_message : forall l, Forall news_ok l -> BuildRelayMessage (map build l) = Some (message_wire l).
Proof.
  intros l F. unfold BuildRelayMessage.
  assert (T : typed_all (map build l) = Some (map (fun n => match n with Header h s => (1, rlp_write (RList [RBytes (header_wire h); RBytes (sigs_wire s)])) | Messages all m => (2, rlp_write (proof_item all m)) end) l)).
  { induction F as [|n l Fn F IH]; [reflexivity|]. cbn [map typed_all]. rewrite IH. destruct n as [h s|all m]; cbn [build NewBlockUpdate NewMessageProof NewTypePrefixedMessage]; [reflexivity|].
    rewrite enc_proof by assumption. reflexivity. }
  rewrite T. unfold message_wire, MarshalToBytes. cbn [encodeValue map concat rlp_write]. rewrite !app_nil_r. do 4 f_equal. rewrite !map_map. apply map_ext. intros [h s|all m]; reflexivity.
Qed.

Lemma message_ok : forall l, Forall news_ok l -> zlen (message_wire l) < 2 ^ 63 -> rlp_ok (RList [RList (map news_item l)]).
Proof.
  intros l F L. apply rlp_ok_list. constructor; [|constructor]. apply rlp_ok_list, Forall_map. apply small_children in L as [_ L]. inv_small L. apply small_children in L0 as [_ L0]. apply Forall_map in L0.
  apply Forall_forall. intros n Hn. rewrite Forall_forall in F, L0. specialize (F n Hn). specialize (L0 n Hn).
  destruct n as [h s|all m]; cbn [news_item news_ok] in *; apply two_small in L0 as [_ L0]; apply small_b in L0; (apply ok_two; [apply int_ok|]); apply rlp_write_ok; try exact L0.
  - destruct F as [F1 F2]. apply update_ok; assumption.
  - apply proof_item_ok. assumption.
Qed.

Lemma message_bytes : forall l b, Forall news_ok l -> BuildRelayMessage (map build l) = Some b -> zlen b < 2 ^ 63 -> bytes_ok b.
Proof. intros l b F E L. rewrite enc_message in E by exact F. injection E as <-. apply rlp_write_ok; [apply message_ok; assumption|exact L]. Qed.

(** The relay's encoder produces exactly the documented format. *)
Theorem C59_relay_writes_format : forall l, Forall news_ok l -> zlen (message_wire l) < 2 ^ 63 ->
  exists b, BuildRelayMessage (map build l) = Some b /\ rlp_spec (RList [RList (map news_item l)]) b.
Proof. intros l F L. exists (message_wire l). split; [apply enc_message; assumption|]. apply rlp_write_spec; [apply message_ok; assumption|exact L]. Qed.
Print Assumptions C59_relay_writes_format.

Lemma reads_news : forall n, news_ok n -> exists x, reads readTyped (news_item n) x /\ (zlen (rlp_write (news_item n)) < 2 ^ 63 -> getMessage x = meant n).
Proof.
  intros [h s|all m] F; cbn [news_ok news_item meant] in *.
  - destruct F as [F1 F2]. set (pl := rlp_write (RList [RBytes (header_wire h); RBytes (sigs_wire s)])) in *. exists (1, pl). split.
    + intros L rest. pose proof L as L'. apply two_small in L' as [_ L']. apply small_b in L'.
      assert (B : bytes_ok pl). { apply rlp_write_ok; [apply update_ok|]; assumption. }
      revert L rest. eapply reads_inList. intros L. inv_small L. cbn [map concat]. step (reads_int 1 ltac:(unfold fits_int; lia)). step (reads_bytes pl B). reflexivity.
    + intros L. apply two_small in L as [_ L]. apply small_b in L. unfold getMessage. cbn [fst snd]. change (1 =? 1) with true. cbv iota.
      unfold pl. rewrite (fromBytes_reads _ _ _ _ (reads_update h s F1 F2) L). reflexivity.
  - set (pl := rlp_write (proof_item all m)) in *. exists (2, pl). split.
    + intros L rest. pose proof L as L'. apply two_small in L' as [_ L']. apply small_b in L'.
      assert (B : bytes_ok pl) by (apply rlp_write_ok; [apply proof_item_ok|]; assumption).
      revert L rest. eapply reads_inList. intros L. inv_small L. cbn [map concat]. step (reads_int 2 ltac:(unfold fits_int; lia)). step (reads_bytes pl B). reflexivity.
    + intros L. apply two_small in L as [_ L]. apply small_b in L. unfold getMessage. cbn [fst snd]. change (2 =? 1) with false. change (2 =? 2) with true. cbv iota.
      unfold pl. rewrite (fromBytes_reads _ _ _ _ (reads_proof all m F) L). reflexivity.
Qed.

(** Whatever the relay has to tell, in whatever number and order: the contract reads exactly that. *)
Theorem C59_relay_message_read : forall l b, Forall news_ok l -> BuildRelayMessage (map build l) = Some b -> zlen b < 2 ^ 63 ->
  items_of_bytes b = Some (map meant l).
Proof.
  intros l b F E L. rewrite enc_message in E by assumption. injection E as <-. unfold items_of_bytes, message_wire in *.
  assert (L0 : Forall (fun n => zlen (rlp_write (news_item n)) < 2 ^ 63) l).
  { pose proof L as L'. apply small_children in L' as [_ L']. inv_small L'. apply small_children in L0 as [_ L0]. apply Forall_map in L0. exact L0. }
  assert (X : exists xs, Forall2 (reads readTyped) (map news_item l) xs /\ map getMessage xs = map meant l).
  { clear L. induction F as [|n l Fn F IH]; [exists []; split; [constructor|reflexivity]|]. inversion L0 as [|? ? L1 L2]; subst. destruct (IH L2) as (xs & X1 & X2).
    destruct (reads_news n Fn) as (x & X3 & X4). exists (x :: xs). cbn [map]. split; [constructor; assumption|]. rewrite X4, X2 by assumption. reflexivity. }
  destruct X as (xs & X1 & X2).
  assert (R : reads readRelayMessage (RList [RList (map news_item l)]) xs).
  { unfold readRelayMessage. eapply reads_inList. intros L'. inv_small L'. cbn [map concat]. rewrite (reads_listOf _ _ _ _ X1) by assumption. reflexivity. }
  rewrite (fromBytes_reads _ _ _ _ R L), X2. reflexivity.
Qed.
Print Assumptions C59_relay_message_read.

(** Two different reports never look alike. *)
Theorem C59_no_confusion : forall l1 l2 b, Forall news_ok l1 -> Forall news_ok l2 -> zlen b < 2 ^ 63 ->
  BuildRelayMessage (map build l1) = Some b -> BuildRelayMessage (map build l2) = Some b -> map meant l1 = map meant l2.
Proof.
  intros l1 l2 b F1 F2 L E1 E2. apply C59_relay_message_read in E1; try assumption. apply C59_relay_message_read in E2; try assumption. congruence.
Qed.
Print Assumptions C59_no_confusion.

(** Other kinds of items are never sent. *)
Theorem C59_other_items_refused : forall l, In IOther l -> BuildRelayMessage l = None.
Proof.
  intros l Hin. unfold BuildRelayMessage. replace (typed_all l) with (@None (list (Z * list Z))); [reflexivity|].
  induction l as [|i l IH]; [destruct Hin|]. cbn [typed_all]. destruct Hin as [->|Hin]; [reflexivity|]. rewrite <- IH by assumption. destruct (NewTypePrefixedMessage i); reflexivity.
Qed.
Print Assumptions C59_other_items_refused.

(** The contract takes no item of another type, whatever its payload. *)
Theorem C59_unknown_types_refused : forall H recover p c t pl its, t <> 1 -> t <> 2 -> c_items c = getMessage (t, pl) :: its -> handleRelayMessage H recover p c = None.
Proof.
  intros H recover p c t pl its H1 H2 E. unfold handleRelayMessage. rewrite E. unfold getMessage. cbn [fst snd].
  destruct (Z.eqb_spec t 1); [contradiction|]. destruct (Z.eqb_spec t 2); [contradiction|]. cbn [handle_items].
  destruct (check _); [|reflexivity]. cbn [obind]. destruct (check _); reflexivity.
Qed.
Print Assumptions C59_unknown_types_refused.

(** ** The relay's own view of a header *)
Definition header_ranges (h : header) : Prop :=
  int_value 64 (hd_height h) /\ int_value 32 (hd_round h) /\ int_value 64 (hd_nid h) /\ int_value 64 (hd_upd h) /\ int_value 64 (hd_cnt h).

Lemma header_val_enc : forall h, hd_path h = [] -> header_ranges h -> header_wire h =
  encodeValue (VStruct [VInt (hd_height h); VInt (hd_round h); VBytes (hd_nextCtxHash h); VSlice (Some []); VInt (hd_nid h); VInt (hd_upd h); VBytes (hd_prev h); VInt (hd_cnt h); VBytes (hd_root h); VBytes (hd_nextCtx h)]).
Proof.
  intros h E (R1 & R2 & R3 & R4 & R5). unfold int_value in *. change (64 - 1) with 63 in *. change (32 - 1) with 31 in *.
  unfold header_wire, header_item. rewrite E.
  cbn [encodeValue map concat rlp_write]. f_equal.
  assert (W : forall z, - 2 ^ 63 <= z < 2 ^ 63 -> rlp_write (int_item z) = write_int z) by (intros z Rz; rewrite <- enc_int by assumption; reflexivity).
  assert (V : forall o, rlp_write (opt_item o) = writeBytes o) by (intros [o|]; reflexivity).
  rewrite !W, !V by lia. reflexivity.
Qed.

(** The relay reads the height of a header correctly when the network is alone in its type ... *)
Theorem C59_relay_reads_height : forall h, hd_path h = [] -> header_ranges h -> wire_header_ok h -> zlen (header_wire h) < 2 ^ 63 ->
  relay_height (header_wire h) = Some (hd_height h).
Proof.
  intros h E R (W1 & W2 & W3 & W4 & _) L. unfold relay_height, UnmarshalFromBytes. rewrite header_val_enc in * by assumption.
  match goal with |- context [encodeValue ?v] => set (vv := v) in * end.
  assert (S : simple_pointers header_ty) by (cbn; tauto).
  assert (T : has_type header_ty vv).
  { destruct R as (R1 & R2 & R3 & R4 & R5). unfold vv, header_ty. cbn [has_type].
    repeat match goal with |- _ /\ _ => split end; try assumption; try exact I; try (unfold int_width; auto; fail); try constructor; first [exact W1|exact W2|exact W3|exact W4]. }
  pose proof (decode_encode header_ty vv S T L []) as D. rewrite app_nil_r in D. rewrite D. reflexivity.
Qed.
Print Assumptions C59_relay_reads_height.

(** ... and fails on every header of a network that shares its type with another: the path elements are lists, the
    relay's type has byte strings in their place. The contract reads such a header. *)
Theorem C59_relay_reads_shared_type_refuted : forall h, hd_path h <> [] -> header_ranges h -> wire_header_ok h -> zlen (header_wire h) < 2 ^ 63 ->
  relay_height (header_wire h) = None /\ fromBytes readHeader (header_wire h) = Some h.
Proof.
  intros h E R W L. split; [|apply fromBytes_reads; [apply reads_header; assumption|exact L]].
  destruct R as (R1 & R2 & _). destruct W as (W1 & W2 & W3 & W4 & W5).
  unfold relay_height, UnmarshalFromBytes, header_wire, header_item in *. pose proof L as L'. apply small_children in L' as [L1 L2]. inv_small L2.
  cbn [decodeValue header_ty]. rewrite <- (app_nil_r (rlp_write (RList _))). cbn [rlp_write]. rewrite readList_write by exact L1.
  cbn [map concat dec_fields]. unfold int_value in *. change (64 - 1) with 63 in *. change (32 - 1) with 31 in *.
  rewrite <- !enc_int by lia. cbn [encodeValue].
  assert (DI : forall bits z rest, int_width bits -> int_value bits z -> nullable (zero (TInt bits)) (decodeValue (TInt bits) (write_int z ++ rest)) = ROk (VInt z) rest).
  { intros bits z rest Wb Rz. cbn [decodeValue]. rewrite read_int_write by assumption. reflexivity. }
  assert (D : forall o rest, opt_bytes o -> zlen (rlp_write (opt_item o)) < 2 ^ 63 -> nullable (zero TBytes) (decodeValue TBytes (rlp_write (opt_item o) ++ rest)) = ROk (VBytes o) rest).
  { intros [b|] rest Wo Lo; cbn [opt_item decodeValue] in *.
    - apply small_b in Lo. cbn [rlp_write]. rewrite readBytes_write by assumption. reflexivity.
    - cbn [rlp_write]. rewrite readBytes_null. reflexivity. }
  assert (DS : forall rest, nullable (zero (TSlice TBytes)) (decodeValue (TSlice TBytes) (rlp_write (RList (map path_item (hd_path h))) ++ rest)) = RFail).
  { intros rest. destruct (hd_path h) as [|[d v] pa] eqn:Ep; [congruence|].
    match goal with H : zlen (rlp_write (RList (map path_item ((d, v) :: pa)))) < _ |- _ => rename H into LP end.
    cbn [map rlp_write] in *. apply small_list in LP. cbn [decodeValue]. rewrite readList_write by assumption. cbn [concat] in *. rewrite zlen_app in LP.
    pose proof (zlen_nonneg _ (concat (map rlp_write (map path_item pa)))).
    change (rlp_write (path_item (d, v))) with (writeList (concat (map rlp_write [int_item d; RBytes v]))) in *.
    cbn [dec_slice decodeValue]. rewrite readBytes_list; [reflexivity|]. match type of LP with zlen (writeList ?b) + _ < _ => pose proof (writeList_len b) end. lia. }
  rewrite (DI 64) by (unfold int_width, int_value; change (64 - 1) with 63; lia).
  rewrite (DI 32) by (unfold int_width, int_value; change (32 - 1) with 31; lia).
  rewrite D by assumption. rewrite DS. reflexivity.
Qed.
Print Assumptions C59_relay_reads_shared_type_refuted.

(** ** From the relay to the contract *)
Lemma prf_ok : forall H c num, hash32 H -> canon c -> Forall (fun x => bytes_ok (snd x)) (items c) ->
  bytes_ok (chash H c) /\ Forall (fun x => 1 <= fst x <= cnum c /\ bytes_ok (snd x)) (lprf H c num) /\ Forall (fun x => 1 <= fst x <= cnum c /\ bytes_ok (snd x)) (rprf H c num).
Proof.
  intros H c num HH. revert num. induction c as [m h|l IHl r IHr]; intros num HC F.
  - cbn [items] in F. inversion F as [|? ? F1 _]; subst. cbn [chash lprf rprf]. repeat split; auto.
  - pose proof HC as (C1 & C2 & _). cbn [items] in F. apply Forall_app in F as [F1 F2].
    assert (P : forall c, canon c -> 1 <= cnum c).
    { clear. induction c as [m h|l IHl r IHr]; cbn [canon cnum]; [lia|]. intros (A & B & _). specialize (IHl A). specialize (IHr B). lia. }
    pose proof (P l C1). pose proof (P r C2).
    assert (W : forall k k' l0, k <= k' -> Forall (fun x : Z * list Z => 1 <= fst x <= k /\ bytes_ok (snd x)) l0 -> Forall (fun x => 1 <= fst x <= k' /\ bytes_ok (snd x)) l0).
    { intros k k' l0 Hk F0. apply Forall_impl with (2 := F0). intros x [X1 X2]. split; [lia|assumption]. }
    cbn [cnum lprf rprf chash]. split; [apply HH|].
    destruct (IHl num C1 F1) as (B1 & L1 & R1). destruct (IHr (num - cnum l) C2 F2) as (B2 & L2 & R2).
    destruct (cnum l <? num); split.
    + constructor; [cbn [fst snd]; split; [lia|assumption]|]. eapply W; [|exact L2]. lia.
    + eapply W; [|exact R2]. lia.
    + eapply W; [|exact L1]. lia.
    + apply Forall_app. split; [eapply W; [|exact R1]; lia|]. constructor; [cbn [fst snd]; split; [lia|assumption]|constructor].
Qed.

(** The proofs the relay makes can be sent. *)
Lemma proof_sendable : forall H cs b e t m, hash32 H -> Forall bytes_ok cs -> zlen cs < 2 ^ 31 -> 1 <= b -> b <= e -> e <= zlen cs ->
  NewMerkleBinaryTree H (map Some cs) = Ok t -> mbt_Proof t b e = Ok m -> wire_proof_ok (is_all t b e) m.
Proof.
  intros H cs b e t m HH F L H1 H2 H3 E1 E2.
  assert (Hne : cs <> []) by (destruct cs; [cbn in *; lia|discriminate]).
  assert (HN : forall x, H x <> []). { destruct HH as [D _]. intros x E. specialize (D x). rewrite E in D. discriminate. }
  destruct (New_spec H cs HN Hne ltac:(lia)) as (c & C1 & C2 & C3 & _ & E). rewrite E in E1. injection E1 as <-.
  assert (N : cnum c = zlen cs) by (rewrite full_num, C3 by assumption; unfold zlen; rewrite map_length; reflexivity).
  assert (I : Forall (fun x => bytes_ok (snd x)) (items c)).
  { rewrite C3. apply Forall_map. apply Forall_forall. intros x _. apply HH. }
  assert (X : forall l, Forall (fun x => 1 <= fst x <= cnum c /\ bytes_ok (snd x)) l -> Forall wire_node_ok (map pn l)).
  { intros l Fl. apply Forall_map. apply Forall_impl with (2 := Fl). intros x [X1 X2]. split; [|exact X2]. unfold fits_int. cbn [pn p_num]. lia. }
  pose proof E2 as E3. rewrite (Proof_spec H) in E3 by (assumption || lia). injection E3 as <-.
  destruct (prf_ok H c b HH C1 I) as (_ & PL & _). destruct (prf_ok H c e HH C1 I) as (_ & _ & PR).
  unfold wire_proof_ok. cbn [p_left p_contents p_right]. split; [apply X; exact PL|]. split; [|split; [apply X; exact PR|]].
  - unfold go_slice. apply Forall_forall. intros x Hx. rewrite Forall_forall in F. apply F.
    rewrite <- (firstn_skipn (Z.to_nat (b - 1)) cs). apply in_or_app. right. set (q := skipn _ cs) in *.
    rewrite <- (firstn_skipn (Z.to_nat (e - (b - 1))) q). apply in_or_app. left. exact Hx.
  - intros Ea. unfold is_all in Ea. unfold mbt_Proof in E2. rewrite Ea in E2. destruct (_ || _) in E2; [discriminate|]. destruct (e <? b) in E2; [discriminate|].
    unfold mbt_ProofOfAll in E2. destruct (_ <? 1) in E2; [discriminate|]. injection E2 as E4 _ E5. rewrite <- E4, <- E5. auto.
Qed.

Lemma mp_after_update : forall H p m h r, handleMessageProof H p m None = Some r -> processed p = 0 -> hd_root h = p_root p -> hd_cnt h = p_cnt p ->
  handleMessageProof H p m (Some h) = Some r.
Proof.
  intros H p m h r E P Er Ec. unfold handleMessageProof in *. obn E u1 G1. rewrite P in *. obn E x G2. destruct x as [[ha of] to]. cbn [obind].
  obn E u2 G3. cbn [obind]. apply check_some in G3. replace (negb (0 <? of)) with true by lia. cbn [check obind]. rewrite Er, Ec.
  obn E y G4. obn G4 u3 G5. injection G4 as <-. exact E.
Qed.

(** What both ends do with a block and the first [e] messages of it. *)
Definition first_report (t : mbt) (h : header) (sigs : list (list Z)) (m : mbt_proof) (e : Z) : list news := [Header h sigs; Messages (is_all t 1 e) m].

(** All the way: the relay encodes the update to the next block together with a proof of its first messages and cuts the
    result into transactions; the message center puts the pieces together; the verifier hands over exactly those messages
    and stands at that block. *)
Theorem C59_block_and_messages_end_to_end : forall H recover src ntid nid p prev sn b b' h sigs signers vs e t m limit st bytes txs, hash32 H ->
  stands H src ntid nid p prev sn b (zlen (gb_msgs b)) ->
  let s := gb_section nid (Some (H (ns_enc (gb_section nid prev sn b)))) (sn + zlen (gb_msgs b)) b' in
  header_section h = s -> network_path H (gb_tree b') s (hd_path h) ->
  hd_height h = gb_height b' -> - 2 ^ 63 <= gb_height b' < 2 ^ 63 -> hd_round h = gb_round b' -> - 2 ^ 31 <= gb_round b' < 2 ^ 31 ->
  hd_nextCtxHash h = Some (H (gb_ctx b')) ->
  (if gb_update b' then hd_nextCtx h = Some (gb_ctx b') /\ p_ctxHash p <> Some (H (gb_ctx b')) else gb_ctx b' = gb_ctx b) ->
  ctx_validators (Some (gb_ctx b)) = Some vs -> Forall2 (signs H recover (gb_decision H src ntid b')) sigs signers -> NoDup signers ->
  (forall a, In a signers -> In a vs) -> 2 * zlen vs < 3 * zlen sigs ->
  (* the messages of the block, a proof of the first [e] of them *)
  root_of H (gb_msgs b') (gb_root b') -> zlen (gb_msgs b') < 2 ^ 31 -> 0 < e <= zlen (gb_msgs b') -> Forall bytes_ok (gb_msgs b') ->
  NewMerkleBinaryTree H (map Some (gb_msgs b')) = Ok t -> mbt_Proof t 1 e = Ok m ->
  (* what is sent *)
  wire_header_ok h -> Forall bytes_ok sigs ->
  BuildRelayMessage (map build (first_report t h sigs m e)) = Some bytes -> zlen bytes < 2 ^ 31 -> usable st -> relay limit bytes = Ok txs ->
  exists st' p', execute st txs = (st', [bytes]) /\
    handleRelayBytes H recover p (p_bmc p) (p_bmc p) (getNetwork (p_src p)) (p_lastSeq p) bytes = Some (p', firstn (Z.to_nat e) (gb_msgs b')) /\
    stands H src ntid nid p' (Some (H (ns_enc (gb_section nid prev sn b)))) (sn + zlen (gb_msgs b)) b' e.
Proof.
  intros H recover src ntid nid p prev sn b b' h sigs signers vs e t m limit st bytes txs HH St s Es Ep Eh Rh Er Rr Ec Eu Ev F N I L Ro Lm He Bm Et Em Wh Ws Eb Lb U Etx.
  destruct (C50_genuine_update_accepted H recover src ntid nid p prev sn b b' h sigs signers vs HH St Es Ep Eh Rh Er Rr Ec Eu Ev F N I L) as (p1 & A1 & A2).
  destruct (C50_genuine_proof_accepted H src ntid nid p1 _ _ b' 0 e HH A2 Ro Lm ltac:(lia)) as (t' & m' & p2 & B1 & B2 & B3 & B4).
  rewrite Et in B1. injection B1 as <-. change (0 + 1) with 1 in B2. rewrite Em in B2. injection B2 as <-.
  assert (O : Forall news_ok (first_report t h sigs m e)).
  { constructor; [cbn [news_ok]; auto|]. constructor; [|constructor]. cbn [news_ok]. apply (proof_sendable H (gb_msgs b')); assumption || lia. }
  assert (Lb' : zlen bytes < 2 ^ 63) by lia. pose proof (message_bytes _ _ O Eb Lb') as Bb. pose proof (C59_relay_message_read _ bytes O Eb Lb') as Rd. clear Lb'.
  destruct (C32_fragments_reassembled limit bytes st txs Bb Lb U Etx) as (st' & X1 & _).
  exists st', p2. split; [exact X1|]. split; [|exact B4].
  unfold handleRelayBytes. rewrite Rd. unfold handleRelayMessage. cbn [c_net c_caller c_account c_seq c_items first_report map meant].
  rewrite !bytes_eqb_refl. cbn [andb check obind]. pose proof St as St'. unfold stands in St'. destruct St' as (_ & _ & _ & S4 & _). rewrite S4, Z.add_0_l, Z.eqb_refl. cbn [check obind handle_items].
  rewrite A1. cbn [obind].
  pose proof (bu_inv _ _ _ _ _ _ A1) as (_ & _ & _ & _ & _ & _ & _ & _ & _ & _ & _ & _ & I1 & I2 & _).
  pose proof A2 as A3. unfold stands in A3. destruct A3 as (_ & _ & _ & _ & _ & _ & _ & A4 & A5 & _).
  rewrite (mp_after_update H p1 m h _ B3); [|unfold processed; lia|congruence|congruence].
  cbn [obind fst snd app]. unfold go_slice. change (Z.to_nat 0) with 0%nat. cbn [skipn]. rewrite Z.sub_0_r. reflexivity.
Qed.
Print Assumptions C59_block_and_messages_end_to_end.

(** The same for a later part of the messages of the block at which the verifier stands. *)
Theorem C59_more_messages_end_to_end : forall H recover src ntid nid p prev sn b k e t m limit st bytes txs, hash32 H ->
  stands H src ntid nid p prev sn b k -> root_of H (gb_msgs b) (gb_root b) -> zlen (gb_msgs b) < 2 ^ 31 -> k < e <= zlen (gb_msgs b) -> Forall bytes_ok (gb_msgs b) ->
  NewMerkleBinaryTree H (map Some (gb_msgs b)) = Ok t -> mbt_Proof t (k + 1) e = Ok m ->
  BuildRelayMessage (map build [Messages (is_all t (k + 1) e) m]) = Some bytes -> zlen bytes < 2 ^ 31 -> usable st -> relay limit bytes = Ok txs ->
  exists st' p', execute st txs = (st', [bytes]) /\
    handleRelayBytes H recover p (p_bmc p) (p_bmc p) (getNetwork (p_src p)) (p_lastSeq p) bytes = Some (p', firstn (Z.to_nat (e - k)) (skipn (Z.to_nat k) (gb_msgs b))) /\
    stands H src ntid nid p' prev sn b e.
Proof.
  intros H recover src ntid nid p prev sn b k e t m limit st bytes txs HH St Ro Lm He Bm Et Em Eb Lb U Etx.
  destruct (C50_genuine_proof_accepted H src ntid nid p _ _ b k e HH St Ro Lm ltac:(lia)) as (t' & m' & p2 & B1 & B2 & B3 & B4).
  rewrite Et in B1. injection B1 as <-. rewrite Em in B2. injection B2 as <-.
  pose proof St as St'. unfold stands in St'. destruct St' as (_ & _ & _ & S4 & _ & _ & _ & _ & _ & S10 & _).
  assert (O : Forall news_ok [Messages (is_all t (k + 1) e) m]).
  { constructor; [|constructor]. cbn [news_ok]. apply (proof_sendable H (gb_msgs b)); assumption || lia. }
  assert (Lb' : zlen bytes < 2 ^ 63) by lia. pose proof (message_bytes _ _ O Eb Lb') as Bb. pose proof (C59_relay_message_read _ bytes O Eb Lb') as Rd. clear Lb'.
  destruct (C32_fragments_reassembled limit bytes st txs Bb Lb U Etx) as (st' & X1 & _).
  exists st', p2. split; [exact X1|]. split; [|exact B4].
  unfold handleRelayBytes. rewrite Rd. unfold handleRelayMessage. cbn [c_net c_caller c_account c_seq c_items map meant].
  rewrite !bytes_eqb_refl. cbn [andb check obind]. rewrite S4, Z.add_0_l, Z.eqb_refl. cbn [check obind handle_items]. rewrite B3. reflexivity.
Qed.
Print Assumptions C59_more_messages_end_to_end.

(** *** The example chain of T_JBmv again, now as bytes and in transactions of at most 40 bytes. *)
Definition ex_tree (l : list (list Z)) : mbt := match NewMerkleBinaryTree toy32 (map Some l) with Ok t => t | _ => {| m_root := None; m_contents := [] |} end.
Definition ex_news : list news :=
  [Messages (is_all (ex_tree [[1]; [2; 2]]) 1 2) (ex_proof [[1]; [2; 2]] 1 2); Header (ex_header ex_b1 ex_s1 []) [[1]; [2]; [4]];
   Header (ex_header ex_b2 ex_s2 [(0, nst_root toy32 ex_other)]) [[4]; [3]; [1]]; Messages (is_all (ex_tree ex_msgs) 1 3) (ex_proof ex_msgs 1 3)].
Example C59_ex : match ex_p0, BuildRelayMessage (map build ex_news) with
  | Some p0, Some b => match handleRelayBytes toy32 ex_recover p0 [7] [7] ex_src 0 b with
      | Some (p, out) => out = [[1]; [2; 2]; [1]; [2; 2]; [3]] /\ p_lastSeq p = 5 /\ p_height p = 102
      | None => False end /\ handleRelayBytes toy32 ex_recover p0 [7] [7] ex_src 0 (removelast b) = None /\
      match relay 40 b with Ok txs => snd (execute None txs) = [b] /\ (10 <? zlen txs) = true | _ => False end
  | _, _ => False end.
Proof. vm_compute. repeat split. Qed.
Example C59_ex_ok : Forall news_ok ex_news.
Proof.
  assert (B : forall l, forallb (forallb (fun b => (0 <=? b) && (b <? 256))) l = true -> Forall bytes_ok l).
  { intros l E. apply Forall_forall. intros x Hx. rewrite forallb_forall in E. apply bytes_ok_b, E, Hx. }
  assert (N : forall l, forallb (fun n => (- 2 ^ 31 <=? p_num n) && (p_num n <? 2 ^ 31) && forallb (fun b => (0 <=? b) && (b <? 256)) (p_value n)) l = true -> Forall wire_node_ok l).
  { intros l E. apply Forall_forall. intros x Hx. rewrite forallb_forall in E. specialize (E x Hx). apply andb_prop in E as [E1 E2]. split; [unfold fits_int; lia|apply bytes_ok_b; exact E2]. }
  repeat (apply Forall_cons; [cbn [news_ok]|]); [| | | |apply Forall_nil].
  - repeat split; try (apply N || apply B); vm_compute; reflexivity.
  - split; [|apply B; vm_compute; reflexivity]. repeat split; cbn [ex_header hd_nextCtxHash hd_prev hd_root hd_nextCtx hd_path opt_bytes ex_s1 s_prev s_root]; try exact I; try apply Forall_nil; apply bytes_ok_b; vm_compute; reflexivity.
  - split; [|apply B; vm_compute; reflexivity]. repeat split; cbn [ex_header hd_nextCtxHash hd_prev hd_root hd_nextCtx hd_path opt_bytes ex_s2 s_prev s_root]; try (apply bytes_ok_b; vm_compute; reflexivity).
    apply Forall_cons; [|apply Forall_nil]. split; [unfold fits_int; cbn [fst]; lia|apply bytes_ok_b; vm_compute; reflexivity].
  - split; [apply N; vm_compute; reflexivity|]. split; [apply B; vm_compute; reflexivity|]. split; [apply N; vm_compute; reflexivity|]. intros X. vm_compute in X. discriminate X.
Qed.
Example C59_ex_heights : relay_height (header_wire (ex_header ex_b1 ex_s1 [])) = Some 101 /\
  relay_height (header_wire (ex_header ex_b2 ex_s2 [(0, nst_root toy32 ex_other)])) = None.
Proof. vm_compute. auto. Qed.
Example C59_ex_bytes : BuildRelayMessage (map build [Messages true {| p_left := []; p_contents := [[5]]; p_right := [] |}]) = Some [203; 202; 201; 2; 135; 198; 248; 0; 193; 5; 248; 0].
Proof. vm_compute. reflexivity. Qed.
