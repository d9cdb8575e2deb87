(** Lemmas: the classes of the ICON block verifier read what they write. *)
From Coq Require Import String Ascii ZArith List Bool Lia.
From Coq Require Import ZifyBool.
From Verif Require Import Base L_Base M_IntConv S_IntConv L_IntConv M_Rlp S_Rlp L_Rlp M_JBmv S_JBmv M_Wire S_Wire L_Wire M_JMsg M_XCall M_JCall M_JMta M_JMpt M_JIcon M_JIbmv L_JIbmv M_JIstore S_JIwire.
Import ListNotations.
Open Scope Z_scope.

(** [p] reads [a] from item [t], which is one of bytes. *)
Definition rw {A} (p : parser A) (t : rlp) (a : A) : Prop := rlp_ok t /\ reads p t a.
Lemma rw_long : forall z, long z -> rw readLong (rint z) z.
Proof.
  intros z R. split; [apply int_ok|]. intros L rest. unfold readLong. erewrite bind_reads; [|apply reads_big|exact L]. unfold long in R. replace ((_ <=? z) && (z <? _)) with true by lia. reflexivity.
Qed.
Lemma rw_nullable : forall o, opt_bytes o -> rw readNullable (rnull o) o.
Proof. intros o B. split; [exact (opt_item_ok o B)|exact (reads_nullable o B)]. Qed.
Lemma rw_bytes : forall b, bytes_ok b -> rw readByteArray (RBytes b) b.
Proof. intros b B. split; [exact B|apply reads_bytes; assumption]. Qed.
Lemma rw_address : forall o, some_ok address o -> rw readNullableAddress (rnull o) o.
Proof.
  intros o B. assert (O : opt_bytes o) by (destruct o; [apply B|exact I]). split; [exact (opt_item_ok o O)|]. intros L rest. unfold readNullableAddress. erewrite bind_reads; [|apply (reads_nullable o O)|exact L].
  destruct o as [b|]; [|reflexivity]. destruct B as [-> _]. reflexivity.
Qed.
Lemma rw_listOf : forall A (p : parser A) (w : A -> rlp) l, Forall (fun a => rw p (w a) a) l -> rw (listOf p) (RList (map w l)) l.
Proof.
  intros A p w l F. split.
  - apply rlp_ok_list. apply Forall_map. eapply Forall_impl; [|exact F]. intros a [O _]. exact O.
  - apply reads_listOf, Forall2_self. eapply Forall_impl; [|exact F]. intros a [_ R]. exact R.
Qed.
(** the null marker is no list *)
Lemma readList_some : forall t rest, rlp_ok t -> zlen (rlp_write t) < 2 ^ 63 -> t <> RNull -> forall r, readList (rlp_write t ++ rest) <> RNil r.
Proof.
  intros [|b|l] rest O L N r.
  - congruence.
  - cbn [rlp_write]. rewrite readList_bytes; [discriminate|assumption|apply small_b; assumption].
  - cbn [rlp_write]. destruct (small_children l L) as [L1 _]. rewrite readList_write by assumption. discriminate.
Qed.
Lemma rw_nullableOf : forall A (p : parser A) (w : A -> rlp) o, (forall a, w a <> RNull) -> some_ok (fun a => rw p (w a) a) o -> rw (readNullableOf p) (writeNullableOf w o) o.
Proof.
  intros A p w [a|] N R; cbn [some_ok writeNullableOf] in *.
  - destruct R as [O R]. split; [exact O|]. intros L rest. unfold readNullableOf. pose proof (readList_some (w a) rest O L (N a)) as X. rewrite (R L rest). destruct (readList (rlp_write (w a) ++ rest)); try reflexivity. exfalso. eapply X. reflexivity.
  - split; [exact I|]. intros L rest. unfold readNullableOf. cbn [rlp_write]. rewrite readList_null. reflexivity.
Qed.
Lemma rw_nullableList : forall A (p : parser A) (w : A -> rlp) o, some_ok (Forall (fun a => rw p (w a) a)) o -> rw (nullableList p) (list_item w o) o.
Proof.
  intros A p w o F. unfold nullableList. change (list_item w o) with (writeNullableOf (fun l => RList (map w l)) o). apply rw_nullableOf; [discriminate|].
  destruct o as [l|]; [|exact I]. apply rw_listOf. exact F.
Qed.
(** for items with nested bytes the size is needed before [rlp_ok] *)
Definition rws {A} (p : parser A) (t : rlp) (a : A) : Prop := zlen (rlp_write t) < 2 ^ 63 -> rlp_ok t /\ forall rest, p (rlp_write t ++ rest) = Some (a, rest).
Lemma rw_rws : forall A (p : parser A) t a, rw p t a -> rws p t a.
Proof. intros A p t a [O R] L. auto. Qed.
Lemma rws_nested : forall A (p : parser A) (w : A -> rlp) o, some_ok (fun a => rws p (w a) a) o -> rws (nested p) (nested_item w o) o.
Proof.
  intros A p w [a|] R L; cbn [some_ok nested_item] in *.
  - pose proof (small_b _ L) as L'. destruct (R L') as [O R']. assert (B : bytes_ok (rlp_write (w a))) by (apply rlp_write_ok; assumption). split; [exact B|]. intros rest. unfold nested.
    erewrite bind_reads; [|apply (reads_nullable (Some (rlp_write (w a))) B)|exact L]. cbv beta iota. assert (EF : fromBytes p (rlp_write (w a)) = Some a) by (unfold fromBytes; rewrite <- (app_nil_r (rlp_write (w a))), R'; reflexivity). rewrite EF. reflexivity.
  - split; [exact I|]. intros rest. unfold nested. erewrite bind_reads; [|apply (reads_nullable None I)|reflexivity]. reflexivity.
Qed.
Lemma rws_listOf : forall A (p : parser A) (w : A -> rlp) l, Forall (fun a => rws p (w a) a) l -> rws (listOf p) (RList (map w l)) l.
Proof.
  intros A p w l F L. destruct (small_children _ L) as [L1 L2].
  assert (G : Forall (fun a => rw p (w a) a) l).
  { apply Forall_forall. intros a Ha. rewrite Forall_forall in F, L2. assert (La : zlen (rlp_write (w a)) < 2 ^ 63) by (apply L2, in_map; assumption).
    destruct (F a Ha La) as [O R]. split; [exact O|]. intros _. exact R. }
  destruct (rw_listOf A p w l G) as [O R]. split; [exact O|]. exact (R L).
Qed.
Lemma rws_nullableOf : forall A (p : parser A) (w : A -> rlp) o, (forall a, w a <> RNull) -> some_ok (fun a => rws p (w a) a) o -> rws (readNullableOf p) (writeNullableOf w o) o.
Proof.
  intros A p w o N R L. assert (G : some_ok (fun a => rw p (w a) a) o).
  { destruct o as [a|]; [|exact I]. cbn [some_ok writeNullableOf] in *. destruct (R L) as [O R']. split; [exact O|]. intros _. exact R'. }
  destruct (rw_nullableOf A p w o N G) as [O R']. split; [exact O|]. exact (R' L).
Qed.
Lemma rws_nullableList : forall A (p : parser A) (w : A -> rlp) o, some_ok (Forall (fun a => rws p (w a) a)) o -> rws (nullableList p) (list_item w o) o.
Proof.
  intros A p w o F. unfold nullableList. change (list_item w o) with (writeNullableOf (fun l => RList (map w l)) o). apply rws_nullableOf; [discriminate|].
  destruct o as [l|]; [|exact I]. apply rws_listOf. exact F.
Qed.
(** structures: a reader of the fields one after another *)
Inductive fields : forall A : Type, parser A -> list rlp -> A -> Prop :=
| f_ret : forall A (a : A), fields A (pret a) [] a
| f_bind : forall A B (p : parser A) (f : A -> parser B) t a ts b, rws p t a -> fields B (f a) ts b -> fields B (pbind p f) (t :: ts) b.
Lemma fields_reads : forall A p ts a, fields A p ts a -> Forall (fun t => zlen (rlp_write t) < 2 ^ 63) ts -> Forall rlp_ok ts /\ p (concat (map rlp_write ts)) = Some (a, []).
Proof.
  intros A p ts a F. induction F as [A a|A B p f t a ts b R F IH]; intros L; [split; [constructor|reflexivity]|].
  inversion L as [|? ? L1 L2]; subst. destruct (IH L2) as [O E]. destruct (R L1) as [O1 R1]. split; [constructor; assumption|]. cbn [map concat]. unfold pbind. rewrite R1. exact E.
Qed.
Lemma rws_struct : forall A (p : parser A) ts a, fields A p ts a -> rws (inList p) (RList ts) a.
Proof.
  intros A p ts a F L. destruct (small_children ts L) as [L1 L2]. destruct (fields_reads _ _ _ _ F L2) as [O E]. split; [apply rlp_ok_list; assumption|].
  intros rest. unfold inList. cbn [rlp_write]. rewrite readList_write by assumption. rewrite E. reflexivity.
Qed.
Ltac field R := eapply f_bind; [first [apply rw_rws; apply R | apply R]|].

Lemma rws_extension : forall e, extension_ok e -> rws readExtension (nullables_item e) e.
Proof. intros e O. apply (rws_nullableList _ readNullable rnull). destruct e as [l|]; [|exact I]. cbn [some_ok]. eapply Forall_impl; [|exact O]. intros a Ha. apply rw_rws, rw_nullable, Ha. Qed.
Lemma rws_result : forall r, result_ok r -> rws readResult (result_item r) r.
Proof.
  intros r (O1 & O2 & O3 & O4). unfold readResult, result_item. destruct (rs_ext r) as [e|] eqn:EE.
  - intros L. destruct (small_children _ L) as [L1 L2]. cbn [app] in *. inversion L2 as [|? ? A1 L3]; subst. inversion L3 as [|? ? A2 L4]; subst. inversion L4 as [|? ? A3 L5]; subst. inversion L5 as [|? ? A4 _]; subst.
    destruct (rws_nested _ readExtension nullables_item (Some e) (rws_extension e O4) A4) as [OE RE]. cbn [nested_item] in OE, RE.
    split. { apply rlp_ok_list. do 3 (apply Forall_cons; [apply opt_item_ok; assumption|]). apply Forall_cons; [exact OE|apply Forall_nil]. }
    intros rest. unfold inList. cbn [rlp_write]. rewrite readList_write by assumption. cbn [map concat]. rewrite app_nil_r.
    erewrite bind_reads; [|apply (rw_nullable _ O1)|exact A1]. erewrite bind_reads; [|apply (rw_nullable _ O2)|exact A2]. erewrite bind_reads; [|apply (rw_nullable _ O3)|exact A3].
    specialize (RE []). rewrite app_nil_r in RE. rewrite RE. pose proof (rlp_write_pos (RBytes (rlp_write (nullables_item e)))) as P.
    destruct (rlp_write (RBytes (rlp_write (nullables_item e)))); [unfold zlen in P; cbn [length] in P; lia|]. destruct r as [a b c d]. cbn [rs_state rs_patch rs_receipts rs_ext] in *. subst d. reflexivity.
  - cbn [app]. intros L. destruct (small_children _ L) as [L1 L2]. inversion L2 as [|? ? A1 L3]; subst. inversion L3 as [|? ? A2 L4]; subst. inversion L4 as [|? ? A3 _]; subst.
    split. { apply rlp_ok_list. do 3 (apply Forall_cons; [apply opt_item_ok; assumption|]). apply Forall_nil. }
    intros rest. unfold inList. cbn [rlp_write]. rewrite readList_write by assumption. cbn [map concat].
    erewrite bind_reads; [|apply (rw_nullable _ O1)|exact A1]. erewrite bind_reads; [|apply (rw_nullable _ O2)|exact A2]. erewrite bind_reads; [|apply (rw_nullable _ O3)|exact A3].
    destruct r as [a b c d]. cbn [rs_state rs_patch rs_receipts rs_ext] in *. subst d. reflexivity.
Qed.
Lemma some_impl : forall A (P Q : A -> Prop) o, (forall a, P a -> Q a) -> some_ok P o -> some_ok Q o.
Proof. intros A P Q [a|] F X; cbn [some_ok] in *; auto. Qed.
Lemma rws_header : forall h, header_ok h -> rws readIHeader (iheader_item h) h.
Proof.
  intros h (O1 & O2 & O3 & O4 & O5 & O6 & O7 & O8 & O9 & O10 & O11). apply rws_struct.
  eapply f_bind; [apply rw_rws, rw_long, O1|]. eapply f_bind; [apply rw_rws, rw_long, O2|]. eapply f_bind; [apply rw_rws, rw_long, O3|]. eapply f_bind; [apply rw_rws, rw_address, O4|].
  eapply f_bind; [apply rw_rws, rw_nullable, O5|]. eapply f_bind; [apply rw_rws, rw_nullable, O6|]. eapply f_bind; [apply rw_rws, rw_nullable, O7|]. eapply f_bind; [apply rw_rws, rw_nullable, O8|].
  eapply f_bind; [apply rw_rws, rw_nullable, O9|]. eapply f_bind; [apply rw_rws, rw_nullable, O10|].
  eapply f_bind; [apply (rws_nested _ readResult result_item), (some_impl _ _ _ _ rws_result O11)|]. destruct h. apply f_ret.
Qed.
Lemma rws_partset : forall p, partset_ok p -> rws readPartSet (partset_item p) p.
Proof. intros [c h] (O1 & O2). apply rws_struct. eapply f_bind; [apply rw_rws, rw_long, O1|]. eapply f_bind; [apply rw_rws, rw_nullable, O2|]. apply f_ret. Qed.
Lemma rws_vote : forall v, vote_ok v -> rws readVote (vote_item v) v.
Proof. intros [c h] (O1 & O2). apply rws_struct. eapply f_bind; [apply rw_rws, rw_long, O1|]. eapply f_bind; [apply rw_rws, rw_nullable, O2|]. apply f_ret. Qed.
Lemma rws_votes : forall v, votes_ok v -> rws readVotes (votes_item v) v.
Proof.
  intros [r p l] (O1 & O2 & O3). apply rws_struct. eapply f_bind; [apply rw_rws, rw_long, O1|].
  eapply f_bind; [apply rws_nullableOf; [discriminate|]; exact (some_impl _ _ _ _ rws_partset O2)|]. eapply f_bind; [apply rws_listOf; eapply Forall_impl; [|exact O3]; exact rws_vote|]. apply f_ret.
Qed.
Lemma rws_votemsg : forall m, votemsg_ok m -> rws readVoteMsg (RList [rint (vm_height m); rint (vm_round m); rint (vm_type m); rnull (vm_block m); writeNullableOf partset_item (vm_part m); rint (vm_time m)]) m.
Proof.
  intros [a b c d e f] (O1 & O2 & O3 & O4 & O5 & O6). apply rws_struct. eapply f_bind; [apply rw_rws, rw_long, O1|]. eapply f_bind; [apply rw_rws, rw_long, O2|]. eapply f_bind; [apply rw_rws, rw_long, O3|].
  eapply f_bind; [apply rw_rws, rw_nullable, O4|]. eapply f_bind; [apply rws_nullableOf; [discriminate|]; exact (some_impl _ _ _ _ rws_partset O5)|]. eapply f_bind; [apply rw_rws, rw_long, O6|]. apply f_ret.
Qed.
Lemma rws_validators : forall l, Forall (some_ok address) l -> rws readValidators (RList (map rnull l)) l.
Proof. intros l F. apply rws_listOf. eapply Forall_impl; [|exact F]. intros a Ha. apply rw_rws, rw_address, Ha. Qed.
Lemma there_some : forall A (P : A -> Prop) o, there P o -> some_ok P o.
Proof. intros A P [a|] X; cbn [there some_ok] in *; auto. Qed.
Lemma there_opt : forall o, there bytes_ok o -> opt_bytes o.
Proof. intros [a|] X; cbn [there opt_bytes] in *; auto. Qed.
Lemma rws_update : forall u, update_ok u -> rws readUpdate (update_item u) u.
Proof.
  intros [h v n] (O1 & O2 & O3). apply rws_struct. eapply f_bind; [apply (rws_nested _ readIHeader iheader_item); exact (some_impl _ _ _ _ rws_header O1)|].
  eapply f_bind; [apply (rws_nested _ readVotes votes_item); exact (some_impl _ _ _ _ rws_votes O2)|].
  eapply f_bind; [apply (rws_nested _ readValidators (fun l => RList (map rnull l))); refine (some_impl _ _ _ _ _ O3)|apply f_ret].
  intros l F. apply rws_validators. eapply Forall_impl; [|exact F]. intros a. apply there_some.
Qed.
Lemma rws_hashes : forall o, some_ok (Forall (there bytes_ok)) o -> rws (nullableList readNullable) (list_item rnull o) o.
Proof. intros o O. apply rws_nullableList. refine (some_impl _ _ _ _ _ O). intros l F. eapply Forall_impl; [|exact F]. intros a Ha. apply rw_rws, rw_nullable, there_opt, Ha. Qed.
Lemma rws_slots : forall o, some_ok (Forall opt_bytes) o -> rws (nullableList readNullable) (list_item rnull o) o.
Proof. intros o O. apply rws_nullableList. refine (some_impl _ _ _ _ _ O). intros l F. eapply Forall_impl; [|exact F]. intros a Ha. apply rw_rws, rw_nullable, Ha. Qed.
Lemma rws_witness : forall w, witness_ok w -> rws readWitness (witness_item w) w.
Proof. intros [h l] (O1 & O2). apply rws_struct. eapply f_bind; [apply rw_rws, rw_long, O1|]. eapply f_bind; [apply rws_hashes, O2|]. apply f_ret. Qed.
Lemma rws_blockproof : forall p, blockproof_ok p -> rws readBlockProof (blockproof_item p) p.
Proof.
  intros [h w] (O1 & O2). apply rws_struct. eapply f_bind; [apply (rws_nested _ readIHeader iheader_item); exact (some_impl _ _ _ _ rws_header O1)|].
  eapply f_bind; [apply rws_nullableOf; [discriminate|]; exact (some_impl _ _ _ _ rws_witness O2)|]. apply f_ret.
Qed.
Lemma rws_mptproof : forall m, mptproof_ok m -> rws readMptProof (mptproof_item m) m.
Proof.
  intros [i p] (O1 & O2). apply rws_struct. eapply f_bind; [apply rw_rws, rw_long, O1|]. eapply f_bind; [apply (rws_nested _ readProofList (list_item rnull)); exact (some_impl _ _ _ _ rws_hashes O2)|]. apply f_ret.
Qed.
Lemma rws_receiptproof : forall p, receiptproof_ok p -> rws readReceiptProof (receiptproof_item p) p.
Proof.
  intros [[i p] e] ((O1 & O2) & O3). apply rws_struct. eapply f_bind; [apply rw_rws, rw_long, O1|]. eapply f_bind; [apply (rws_nested _ readProofList (list_item rnull)); exact (some_impl _ _ _ _ rws_hashes O2)|].
  eapply f_bind; [apply rws_nullableList; refine (some_impl _ _ _ _ _ O3)|apply f_ret].
  intros l F. eapply Forall_impl; [|exact F]. intros a Ha. apply rws_nullableOf; [discriminate|]. exact (some_impl _ _ _ _ rws_mptproof Ha).
Qed.
Lemma rws_relay : forall m, relay_ok m -> rws readIRelay (relay_item m) m.
Proof.
  intros [u p r] (O1 & O2 & O3). apply rws_struct.
  eapply f_bind; [apply rws_nullableList; refine (some_impl _ _ _ _ _ O1); intros l F; eapply Forall_impl; [|exact F]; intros a Ha; apply rws_nested; exact (some_impl _ _ _ _ rws_update Ha)|].
  eapply f_bind; [apply rws_nested; exact (some_impl _ _ _ _ rws_blockproof O2)|].
  eapply f_bind; [apply rws_nullableList; refine (some_impl _ _ _ _ _ O3); intros l F; eapply Forall_impl; [|exact F]; intros a Ha; apply rws_nested; exact (some_impl _ _ _ _ rws_receiptproof Ha)|]. apply f_ret.
Qed.
Lemma rws_byteslist : forall l, Forall bytes_ok l -> rws (listOf readByteArray) (RList (map RBytes l)) l.
Proof. intros l F. apply rws_listOf. eapply Forall_impl; [|exact F]. intros a Ha. apply rw_rws, rw_bytes, Ha. Qed.
Lemma rws_event : forall e, event_ok e -> rws readEventLog (evlog_item e) e.
Proof. intros [a i d] (O1 & O2 & O3). apply rws_struct. eapply f_bind; [apply rw_rws, rw_address, O1|]. eapply f_bind; [apply rws_byteslist, O2|]. eapply f_bind; [apply rws_byteslist, O3|]. apply f_ret. Qed.
Lemma only_some_map : forall A (l : list A), only_some (map Some l) = l.
Proof. intros A l. induction l as [|a l IH]; cbn [map only_some]; congruence. Qed.
Lemma rws_receipt : forall r, receipt_ok r -> rws readReceipt (receipt_item r) r.
Proof.
  intros r (O1 & O2 & O3 & O4 & O5 & O6 & O7 & O8 & O9). apply rws_struct. eapply f_bind; [apply rw_rws, rw_long, O1|]. do 5 (eapply f_bind; [apply rw_rws, rw_nullable; eassumption|]).
  eapply (f_bind _ _ _ _ _ (map Some (rc_logs r))).
  { replace (map (fun e => RBytes (rlp_write (evlog_item e))) (rc_logs r)) with (map (nested_item evlog_item) (map Some (rc_logs r))) by (rewrite map_map; reflexivity).
    apply rws_listOf. apply Forall_map. eapply Forall_impl; [|exact O7]. intros e He. apply (rws_nested _ readEventLog evlog_item (Some e)). cbn [some_ok]. apply rws_event, He. }
  do 2 (eapply f_bind; [apply rw_rws, rw_nullable; eassumption|]). rewrite only_some_map. destruct r. apply f_ret.
Qed.

(** ** The state *)
Lemma rws_int : forall o, some_ok fits_int o -> rws readNullableInt (int_or_null o) o.
Proof.
  intros [z|] O L; cbn [some_ok int_or_null] in *.
  - split; [apply int_ok|]. intros rest. unfold readNullableInt. erewrite bind_reads; [|apply reads_nbig|exact L]. cbv beta iota. unfold fits_int in O. replace ((- 2 ^ 31 <=? z) && (z <? 2 ^ 31)) with true by lia. reflexivity.
  - split; [exact I|]. intros rest. unfold readNullableInt, pbind, readNullableBig, pbind. pose proof (reads_nullable None I L rest) as R. cbn [opt_item] in R. rewrite R. reflexivity.
Qed.
Lemma rws_bool : forall o, rws readNullableBool (bool_or_null o) o.
Proof.
  intros [b|] L; cbn [bool_or_null] in *.
  - assert (B : bytes_ok [if b then 1 else 0]) by (constructor; [destruct b; red; lia|constructor]). split; [exact B|]. intros rest. unfold readNullableBool. erewrite bind_reads; [|apply (reads_nullable (Some _) B)|exact L]. destruct b; reflexivity.
  - split; [exact I|]. intros rest. unfold readNullableBool. erewrite bind_reads; [|apply (reads_nullable None I)|exact L]. reflexivity.
Qed.
Lemma rws_mta : forall m, mta_ok m -> rws readMta (mta_item m) m.
Proof.
  intros m (O1 & O2 & O3 & O4 & O5 & O6 & O7). unfold readMta, mta_item.
  intros L. destruct (small_children _ L) as [L1 L2]. inversion L2 as [|? ? A1 L3]; subst. inversion L3 as [|? ? A2 L4]; subst. inversion L4 as [|? ? A3 L5]; subst. inversion L5 as [|? ? A4 L6]; subst.
  inversion L6 as [|? ? A5 L7]; subst. inversion L7 as [|? ? A6 L8]; subst. inversion L8 as [|? ? A7 L9]; subst. inversion L9 as [|? ? A8 _]; subst.
  destruct (rw_rws _ _ _ _ (rw_long _ O1) A1) as [P1 R1]. destruct (rws_slots (Some (j_roots m)) O2 A2) as [P2 R2]. destruct (rw_rws _ _ _ _ (rw_long _ O3) A3) as [P3 R3].
  destruct (rws_int _ O4 A4) as [P4 R4]. destruct (rws_int _ O5 A5) as [P5 R5]. assert (O6' : some_ok (Forall opt_bytes) (j_cache m)) by (destruct (j_cache m); [apply O6|exact I]). destruct (rws_slots _ O6' A6) as [P6 R6]. destruct (rws_bool _ A7) as [P7 R7]. destruct (rws_int _ O7 A8) as [P8 R8].
  cbn [list_item] in P2, R2. split; [apply rlp_ok_list; do 8 (apply Forall_cons; [assumption|]); apply Forall_nil|].
  intros rest. unfold inList. cbn [rlp_write]. rewrite readList_write by assumption. cbn [map concat]. rewrite app_nil_r.
  unfold pbind at 1. rewrite R1. unfold pbind at 1. rewrite R2. unfold pbind at 1. rewrite R3. unfold pbind at 1. rewrite R4. unfold pbind at 1. rewrite R5. unfold pbind at 1. rewrite R6. unfold pbind at 1. rewrite R7.
  unfold pbind. specialize (R8 []). rewrite app_nil_r in R8. rewrite R8. pose proof (rlp_write_pos (int_or_null (j_cacheIdx m))) as P.
  destruct (rlp_write (int_or_null (j_cacheIdx m))); [unfold zlen in P; cbn [length] in P; lia|]. destruct m. reflexivity.
Qed.
Lemma rws_props : forall p, state_ok p -> rws readProps (props_item p) p.
Proof.
  intros p (O1 & O2 & O3 & O4 & O5) L. unfold readProps, props_item in *.
  destruct (small_children _ L) as [L1 L2]. inversion L2 as [|? ? A1 L3]; subst. inversion L3 as [|? ? A2 L4]; subst. inversion L4 as [|? ? A3 L5]; subst. inversion L5 as [|? ? A4 L6]; subst. inversion L6 as [|? ? A5 _]; subst.
  destruct (rw_rws _ _ _ _ (rw_address (Some (ip_bmc p)) O1) A1) as [P1 R1]. destruct (rw_rws _ _ _ _ (rw_nullable (Some (ip_net p)) O2) A2) as [P2 R2]. destruct (rw_rws _ _ _ _ (rw_long _ O3) A3) as [P3 R3].
  assert (EV : validators_item (ip_vals p) = writeNullableOf (fun l => RList (map rnull l)) (Some (map Some (ip_vals p)))) by (unfold validators_item; cbn [writeNullableOf]; rewrite map_map; reflexivity).
  rewrite EV in *.
  assert (FV : some_ok (fun a => rws readValidators (RList (map rnull a)) a) (Some (map Some (ip_vals p)))). { cbn [some_ok]. apply rws_validators. apply Forall_map. exact O4. }
  destruct (rws_nullableOf _ readValidators (fun l => RList (map rnull l)) _ ltac:(discriminate) FV A4) as [P4 R4].
  destruct (rws_nullableOf _ readMta mta_item (Some (ip_mta p)) ltac:(discriminate) (rws_mta _ O5) A5) as [P5 R5]. cbn [writeNullableOf rnull] in P1, R1, P2, R2, P5, R5.
  split; [apply rlp_ok_list; do 5 (apply Forall_cons; [assumption|]); apply Forall_nil|].
  intros rest. unfold inList. match goal with |- context [readList (rlp_write (RList ?l) ++ rest)] => change (rlp_write (RList l)) with (writeList (concat (map rlp_write l))) end. rewrite readList_write by assumption. cbn [map concat]. rewrite app_nil_r.
  unfold pbind at 1. rewrite R1. unfold pbind at 1. rewrite R2. unfold pbind at 1. rewrite R3. unfold pbind at 1. rewrite R4. unfold pbind. specialize (R5 []). rewrite app_nil_r in R5. rewrite R5.
  rewrite (proj2 (all_some_map _ (map Some (ip_vals p)) (ip_vals p)) eq_refl). destruct p. reflexivity.
Qed.
