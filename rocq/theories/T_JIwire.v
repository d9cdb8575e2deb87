(** Theorems about the bytes and the stored state of the ICON block verifier contract: C86. *)
From Coq Require Import String Ascii ZArith List Bool Lia.
From Coq Require Import ZifyBool.
From Verif Require Import Base L_Base M_IntConv S_IntConv L_IntConv M_Rlp S_Rlp L_Rlp M_JBmv S_JBmv M_Wire S_Wire L_Wire M_BtpAddr M_JMsg M_XCall M_JCall M_JMta S_Mta L_JMta2 T_JMta M_JMpt S_JMpt T_JMpt M_JIcon M_JIbmv S_JIbmv L_JIbmv T_JIbmv M_JIstore S_JIwire L_JIwire.
Import ListNotations.
Open Scope Z_scope.

Lemma rws_from : forall A (p : parser A) t a, rws p t a -> zlen (rlp_write t) < 2 ^ 63 -> fromBytes p (rlp_write t) = Some a.
Proof. intros A p t a R L. destruct (R L) as [_ E]. unfold fromBytes. rewrite <- (app_nil_r (rlp_write t)), E. reflexivity. Qed.

(** What the classes write is read back as it was. *)
Theorem C86_relay_read_back : forall m, relay_ok m -> short (rlp_write (relay_item m)) -> fromBytes readIRelay (rlp_write (relay_item m)) = Some m.
Proof. intros m O S. exact (rws_from _ _ _ _ (rws_relay m O) S). Qed.
Print Assumptions C86_relay_read_back.
Theorem C86_header_read_back : forall h, header_ok h -> short (header_bytes h) -> fromBytes readIHeader (header_bytes h) = Some h.
Proof. intros h O S. exact (rws_from _ _ _ _ (rws_header h O) S). Qed.
Print Assumptions C86_header_read_back.
Theorem C86_receipt_read_back : forall r, receipt_ok r -> short (rlp_write (receipt_item r)) -> fromBytes readReceipt (rlp_write (receipt_item r)) = Some r.
Proof. intros r O S. exact (rws_from _ _ _ _ (rws_receipt r O) S). Qed.
Print Assumptions C86_receipt_read_back.
Theorem C86_event_read_back : forall e, event_ok e -> short (rlp_write (evlog_item e)) -> fromBytes readEventLog (rlp_write (evlog_item e)) = Some e.
Proof. intros e O S. exact (rws_from _ _ _ _ (rws_event e O) S). Qed.
Print Assumptions C86_event_read_back.
Theorem C86_validators_read_back : forall vals, Forall address vals -> short (validator_list vals) -> fromBytes readValidators (validator_list vals) = Some (map Some vals).
Proof.
  intros vals F S. assert (E : validator_list vals = rlp_write (RList (map rnull (map Some vals)))) by (unfold validator_list; rewrite map_map; reflexivity). rewrite E in *.
  apply (rws_from _ readValidators); [|exact S]. apply rws_validators. apply Forall_map. exact F.
Qed.
Print Assumptions C86_validators_read_back.

(** The hash of a block is one of its header, and a vote is one for its block: no two headers, no two votes have the same bytes. *)
Theorem C86_headers_apart : forall h h', header_ok h -> header_ok h' -> short (header_bytes h) -> header_bytes h = header_bytes h' -> h = h'.
Proof.
  intros h h' O O' S E. pose proof (C86_header_read_back h O S) as R. rewrite E in R. rewrite (C86_header_read_back h' O') in R; [congruence|]. unfold short in *. rewrite <- E. exact S.
Qed.
Print Assumptions C86_headers_apart.
Theorem C86_votes_apart : forall height round block part time height' round' block' part' time',
  long height -> long round -> bytes_ok block -> some_ok partset_ok part -> long time -> long height' -> long round' -> bytes_ok block' -> some_ok partset_ok part' -> long time' ->
  short (precommit height round block part time) -> precommit height round block part time = precommit height' round' block' part' time' ->
  height = height' /\ round = round' /\ block = block' /\ part = part' /\ time = time'.
Proof.
  intros height round block part time height' round' block' part' time' A1 A2 A3 A4 A5 B1 B2 B3 B4 B5 S E. rewrite <- !vote_bytes_precommit in E. rewrite <- vote_bytes_precommit in S.
  assert (L1 : long 1) by (unfold long; lia).
  pose proof (rws_from _ _ _ _ (rws_votemsg (VoteMsg height round 1 (Some block) part time) ltac:(repeat split; assumption || apply A1 || apply A2 || apply A5 || apply L1)) S) as R.
  unfold short in S. unfold vote_bytes in *. rewrite E in R, S.
  pose proof (rws_from _ _ _ _ (rws_votemsg (VoteMsg height' round' 1 (Some block') part' time') ltac:(repeat split; assumption || apply B1 || apply B2 || apply B5 || apply L1)) S) as R'.
  rewrite R in R'. injection R' as -> -> -> -> ->. auto.
Qed.
Print Assumptions C86_votes_apart.

(** A result with further elements, such as a fifth one, is read without them: the hash of such a block is not the one computed. *)
Definition header_with (h : iheader) (result : list Z) : list Z :=
  rlp_write (RList [rint (ih_version h); rint (ih_height h); rint (ih_time h); rnull (ih_proposer h); rnull (ih_prev h); rnull (ih_votes h);
         rnull (ih_nextVals h); rnull (ih_patchTx h); rnull (ih_tx h); rnull (ih_bloom h); RBytes result]).
Lemma header_with_reads : forall h r b, header_ok h -> bytes_ok b -> fromBytes readResult b = Some r -> short (header_with h b) ->
  fromBytes readIHeader (header_with h b) = Some (IHeader (ih_version h) (ih_height h) (ih_time h) (ih_proposer h) (ih_prev h) (ih_votes h) (ih_nextVals h) (ih_patchTx h) (ih_tx h) (ih_bloom h) (Some r)).
Proof.
  intros h r b (O1 & O2 & O3 & O4 & O5 & O6 & O7 & O8 & O9 & O10 & O11) B ER S. apply (rws_from _ readIHeader); [|exact S]. apply rws_struct.
  eapply f_bind; [apply rw_rws, rw_long, O1|]. eapply f_bind; [apply rw_rws, rw_long, O2|]. eapply f_bind; [apply rw_rws, rw_long, O3|]. eapply f_bind; [apply rw_rws, rw_address, O4|].
  eapply f_bind; [apply rw_rws, rw_nullable, O5|]. eapply f_bind; [apply rw_rws, rw_nullable, O6|]. eapply f_bind; [apply rw_rws, rw_nullable, O7|]. eapply f_bind; [apply rw_rws, rw_nullable, O8|].
  eapply f_bind; [apply rw_rws, rw_nullable, O9|]. eapply f_bind; [apply rw_rws, rw_nullable, O10|].
  apply (f_bind (option iresult) iheader (nested readResult) _ (RBytes b) (Some r)); [|apply f_ret]. intros L. split; [exact B|]. intros rest. unfold nested.
  erewrite bind_reads; [|apply (reads_nullable (Some b) B)|exact L]. cbv beta iota. rewrite ER. reflexivity.
Qed.
(** The header with the bytes of its result as they are. *)
Definition readRaw : parser (option (list Z)) := inList
  (pbind readLong (fun _ => pbind readLong (fun _ => pbind readLong (fun _ => pbind readNullableAddress (fun _ => pbind readNullable (fun _ => pbind readNullable (fun _ =>
   pbind readNullable (fun _ => pbind readNullable (fun _ => pbind readNullable (fun _ => pbind readNullable (fun _ => pbind readNullable pret))))))))))).
Lemma raw_reads : forall h b, header_ok h -> bytes_ok b -> short (header_with h b) -> fromBytes readRaw (header_with h b) = Some (Some b).
Proof.
  intros h b (O1 & O2 & O3 & O4 & O5 & O6 & O7 & O8 & O9 & O10 & O11) B S. apply (rws_from _ readRaw); [|exact S]. apply rws_struct.
  eapply f_bind; [apply rw_rws, rw_long, O1|]. eapply f_bind; [apply rw_rws, rw_long, O2|]. eapply f_bind; [apply rw_rws, rw_long, O3|]. eapply f_bind; [apply rw_rws, rw_address, O4|].
  eapply f_bind; [apply rw_rws, rw_nullable, O5|]. eapply f_bind; [apply rw_rws, rw_nullable, O6|]. eapply f_bind; [apply rw_rws, rw_nullable, O7|]. eapply f_bind; [apply rw_rws, rw_nullable, O8|].
  eapply f_bind; [apply rw_rws, rw_nullable, O9|]. eapply f_bind; [apply rw_rws, rw_nullable, O10|]. eapply f_bind; [apply rw_rws, (rw_nullable (Some b)), B|]. apply f_ret.
Qed.
Lemma header_part : forall h b, short (header_with h b) -> zlen b < 2 ^ 63.
Proof.
  intros h b S. unfold short, header_with in S. destruct (small_children _ S) as [_ F]. do 10 (apply Forall_inv_tail in F). apply Forall_inv in F. exact (small_b _ F).
Qed.
Definition longer_result (r : iresult) (e : extension) (more : list rlp) : list Z :=
  rlp_write (RList ([rnull (rs_state r); rnull (rs_patch r); rnull (rs_receipts r); RBytes (rlp_write (nullables_item e))] ++ more)).
Lemma longer_reads : forall r e more, result_ok (IResult (rs_state r) (rs_patch r) (rs_receipts r) (Some e)) -> zlen (longer_result r e more) < 2 ^ 63 ->
  fromBytes readResult (longer_result r e more) = Some (IResult (rs_state r) (rs_patch r) (rs_receipts r) (Some e)).
Proof.
  intros r e more (O1 & O2 & O3 & O4) L. cbn [rs_state rs_patch rs_receipts rs_ext some_ok] in *. unfold longer_result in *. destruct (small_children _ L) as [L1 L2]. cbn [app] in *.
  inversion L2 as [|? ? A1 L3]; subst. inversion L3 as [|? ? A2 L4]; subst. inversion L4 as [|? ? A3 L5]; subst. inversion L5 as [|? ? A4 _]; subst.
  destruct (rws_nested _ readExtension nullables_item (Some e) (rws_extension e O4) A4) as [OE RE]. cbn [nested_item] in OE, RE.
  unfold fromBytes, readResult, inList. change (rlp_write (RList ?l)) with (writeList (concat (map rlp_write l))). rewrite <- (app_nil_r (writeList _)). rewrite readList_write by assumption. cbn [map concat].
  erewrite bind_reads; [|apply (rw_nullable _ O1)|exact A1]. erewrite bind_reads; [|apply (rw_nullable _ O2)|exact A2]. erewrite bind_reads; [|apply (rw_nullable _ O3)|exact A3].
  rewrite RE. pose proof (rlp_write_pos (RBytes (rlp_write (nullables_item e)))) as P.
  destruct (rlp_write (RBytes (rlp_write (nullables_item e)))); [unfold zlen in P; cbn [length] in P; lia|]. reflexivity.
Qed.
Theorem C86_longer_result_refuted : forall H h r e more, header_ok h -> result_ok (IResult (rs_state r) (rs_patch r) (rs_receipts r) (Some e)) -> more <> [] -> Forall rlp_ok more ->
  let b := header_with h (longer_result r e more) in short b ->
  exists h', fromBytes readIHeader b = Some h' /\ header_bytes h' <> b /\ (H (header_bytes h') = H b -> collision H).
Proof.
  intros H h r e more HO RO NM MO b S.
  assert (L : zlen (longer_result r e more) < 2 ^ 63).
  { apply (header_part h), S. }
  assert (OL : rlp_ok (RList ([rnull (rs_state r); rnull (rs_patch r); rnull (rs_receipts r); RBytes (rlp_write (nullables_item e))] ++ more))).
  { destruct RO as (O1 & O2 & O3 & O4). cbn [rs_state rs_patch rs_receipts rs_ext some_ok] in *. destruct (small_children _ L) as [_ L2]. cbn [app] in L2.
    inversion L2 as [|? ? A1 L3]; subst. inversion L3 as [|? ? A2 L4]; subst. inversion L4 as [|? ? A3 L5]; subst. inversion L5 as [|? ? A4 _]; subst.
    destruct (rws_nested _ readExtension nullables_item (Some e) (rws_extension e O4) A4) as [OE _]. apply rlp_ok_list. apply Forall_app. split; [|exact MO].
    do 3 (apply Forall_cons; [apply opt_item_ok; assumption|]). apply Forall_cons; [exact OE|apply Forall_nil]. }
  assert (B : bytes_ok (longer_result r e more)) by (apply rlp_write_ok; assumption).
  eexists. split; [apply header_with_reads; [exact HO|exact B|apply longer_reads; assumption|exact S]|].
  match goal with |- ?x <> b /\ _ => assert (N : x <> b) end.
  { intros E. assert (E2 := E). apply (f_equal (fromBytes readRaw)) in E. unfold b in E. rewrite (raw_reads h _ HO B S) in E.
    destruct RO as (O1 & O2 & O3 & O4). cbn [rs_state rs_patch rs_receipts rs_ext some_ok] in *.
    set (r' := IResult (rs_state r) (rs_patch r) (rs_receipts r) (Some e)) in *.
    change (header_bytes _) with (header_with h (rlp_write (result_item r'))) in E, E2.
    assert (LR : zlen (rlp_write (result_item r')) < 2 ^ 63). { unfold b in E2. assert (S2 : short (header_with h (rlp_write (result_item r')))) by (unfold short; rewrite E2; exact S). apply (header_part _ _ S2). }
    assert (B2 : bytes_ok (rlp_write (result_item r'))). { apply rlp_write_ok; [|exact LR]. apply (rws_result r'); [repeat split; assumption|exact LR]. }
    rewrite (raw_reads h _ HO B2) in E by (unfold short; unfold b in E2; rewrite E2; exact S). assert (E4 : rlp_write (result_item r') = longer_result r e more) by congruence. clear E. rename E4 into E.
    unfold longer_result in E, L. unfold result_item, r' in E, LR. cbn [rs_state rs_patch rs_receipts rs_ext nested_item] in E, LR.
    match type of E with rlp_write (RList ?x) = rlp_write (RList ?y) => assert (E3 : concat (map rlp_write x) = concat (map rlp_write y)) end.
    { destruct (small_children _ L) as [LL _]. destruct (small_children _ LR) as [LL' _].
      change (rlp_write (RList ?l)) with (writeList (concat (map rlp_write l))) in E. pose proof (readList_write _ [] LL) as R1. pose proof (readList_write _ [] LL') as R2. rewrite E, R1 in R2. congruence. }
    cbn [app] in E3. cbn [map concat] in E3. apply (f_equal (@length Z)) in E3. rewrite !app_length in E3. destruct more as [|x more]; [congruence|].
    pose proof (rlp_write_pos x) as P. unfold zlen in P. change (concat (map rlp_write (x :: more))) with (rlp_write x ++ concat (map rlp_write more)) in E3. rewrite (app_length (rlp_write x)) in E3. cbn [length] in E3. lia. }
  split; [exact N|]. intros E. eexists. eexists. split; [exact N|exact E].
Qed.
Print Assumptions C86_longer_result_refuted.

(** A result whose fourth element is null is not read at all. *)
Theorem C86_null_extension_refuted : forall a b c, opt_bytes a -> opt_bytes b -> opt_bytes c -> let t := RList [rnull a; rnull b; rnull c; RNull] in short (rlp_write t) ->
  fromBytes readResult (rlp_write t) = None.
Proof.
  intros a b c O1 O2 O3 t S. unfold short, t in *. destruct (small_children _ S) as [L1 L2].
  inversion L2 as [|? ? A1 L3]; subst. inversion L3 as [|? ? A2 L4]; subst. inversion L4 as [|? ? A3 _]; subst.
  unfold fromBytes, readResult, inList. change (rlp_write (RList ?l)) with (writeList (concat (map rlp_write l))). rewrite <- (app_nil_r (writeList _)). rewrite readList_write by assumption. cbn [map concat].
  erewrite bind_reads; [|apply (rw_nullable _ O1)|exact A1]. erewrite bind_reads; [|apply (rw_nullable _ O2)|exact A2]. erewrite bind_reads; [|apply (rw_nullable _ O3)|exact A3]. reflexivity.
Qed.
Print Assumptions C86_null_extension_refuted.

(** ** What is stored *)
Theorem C86_state_survives : forall p, state_ok p -> short (props_bytes p) -> fromBytes readProps (props_bytes p) = Some p.
Proof. intros p O S. exact (rws_from _ _ _ _ (rws_props p O) S). Qed.
Print Assumptions C86_state_survives.

(** Readers of bytes give bytes. *)
Definition gives {A} (p : parser A) (P : A -> Prop) : Prop := forall s a r, bytes_ok s -> p s = Some (a, r) -> P a /\ bytes_ok r.
Lemma bytes_firstn : forall n s, bytes_ok s -> bytes_ok (firstn n s).
Proof. intros n s B. rewrite <- (firstn_skipn n s) in B. apply bytes_ok_app in B. apply B. Qed.
Lemma bytes_skipn : forall n s, bytes_ok s -> bytes_ok (skipn n s).
Proof. intros n s B. rewrite <- (firstn_skipn n s) in B. apply bytes_ok_app in B. apply B. Qed.
Lemma read_full_ok : forall n s b r, bytes_ok s -> read_full n s = Some (b, r) -> bytes_ok b /\ bytes_ok r.
Proof. intros n s b r B E. unfold read_full in E. destruct (n <=? zlen s); [|discriminate]. injection E as <- <-. split; [apply bytes_firstn|apply bytes_skipn]; assumption. Qed.
Lemma readAll_ok : forall n s b r, bytes_ok s -> readAll n s = ROk b r -> bytes_ok b /\ bytes_ok r.
Proof. intros n s b r B E. unfold readAll in E. destruct (read_full n s) as [[x y]|] eqn:EF; [|discriminate]. injection E as <- <-. eapply read_full_ok; eassumption. Qed.
Lemma readSize_ok : forall n s z r, bytes_ok s -> readSize n s = Some (z, r) -> bytes_ok r.
Proof. intros n s z r B E. unfold readSize in E. destruct (read_full n s) as [[x y]|] eqn:EF; [|discriminate]. injection E as _ <-. eapply read_full_ok; eassumption. Qed.
Definition good_read (o : rout (list Z)) : Prop := match o with ROk b r => bytes_ok b /\ bytes_ok r | RNil r => bytes_ok r | _ => True end.
Lemma readBytes_ok : forall s, bytes_ok s -> good_read (readBytes s).
Proof.
  intros [|t s] B; [exact I|]. pose proof B as B0. apply bytes_ok_cons in B. destruct B as [Bt Bs]. unfold readBytes.
  assert (A : forall n, good_read (readAll n s)). { intros n. destruct (readAll n s) eqn:E; try exact I; [exact (readAll_ok _ _ _ _ Bs E)|]. unfold readAll in E. destruct (read_full n s) as [[? ?]|]; discriminate. }
  destruct (t <? 128). { cbn [good_read]. split; [apply bytes_ok_cons; split; [assumption|constructor]|assumption]. }
  destruct (t <=? 183); [apply A|]. destruct (t <? 192).
  { destruct (readSize (t - 183) s) as [[sz s2]|] eqn:E; [|exact I]. pose proof (readSize_ok _ _ _ _ Bs E) as B2. destruct (sz <? 0); [exact I|].
    destruct (readAll sz s2) eqn:E2; try exact I; [exact (readAll_ok _ _ _ _ B2 E2)|]. unfold readAll in E2. destruct (read_full sz s2) as [[? ?]|]; discriminate. }
  destruct (t =? 248); [|exact I]. destruct (readSize 1 s) as [[sz s2]|] eqn:E; [|exact I]. pose proof (readSize_ok _ _ _ _ Bs E) as B2. destruct (sz =? 0); [exact B2|exact I].
Qed.
Lemma limited_ok : forall n s, bytes_ok s -> good_read (limited n s).
Proof. intros n s B. unfold limited. destruct (zlen s <=? n); cbn [good_read]; split; try assumption; [constructor|apply bytes_firstn; assumption|apply bytes_skipn; assumption]. Qed.
Lemma readList_ok : forall s, bytes_ok s -> good_read (readList s).
Proof.
  intros [|t s] B; [exact I|]. apply bytes_ok_cons in B. destruct B as [Bt Bs]. unfold readList. destruct (t <? 192); [exact I|]. destruct (t <=? 247); [apply limited_ok; assumption|].
  destruct (readSize (t - 247) s) as [[sz s2]|] eqn:E; [|exact I]. pose proof (readSize_ok _ _ _ _ Bs E) as B2. destruct (t - 247 =? 1); cbn [andb]; [destruct (sz =? 0); [exact B2|]|]; apply limited_ok; assumption.
Qed.
Lemma g_nullable : gives readNullable opt_bytes.
Proof. intros s a r B E. unfold readNullable in E. pose proof (readBytes_ok s B) as G. destruct (readBytes s); try discriminate; injection E as <- <-; [exact G|]. split; [exact I|exact G]. Qed.
Lemma g_bytes : gives readByteArray bytes_ok.
Proof. intros s a r B E. unfold readByteArray in E. pose proof (readBytes_ok s B) as G. destruct (readBytes s); try discriminate; injection E as <- <-. exact G. Qed.
Lemma g_bind : forall A B (p : parser A) (f : A -> parser B) P Q, gives p P -> (forall a, P a -> gives (f a) Q) -> gives (pbind p f) Q.
Proof. intros A B p f P Q Yp Yf s b r BS E. unfold pbind in E. destruct (p s) as [[a s1]|] eqn:EP; [|discriminate]. destruct (Yp _ _ _ BS EP) as [Pa B1]. exact (Yf a Pa _ _ _ B1 E). Qed.
Lemma g_ret : forall A (a : A) (P : A -> Prop), P a -> gives (pret a) P. Proof. intros A a P Pa s b r B E. unfold pret in E. injection E as <- <-. auto. Qed.
Lemma g_inList : forall A (p : parser A) P, gives p P -> gives (inList p) P.
Proof.
  intros A p P Y s a r B E. unfold inList in E. pose proof (readList_ok s B) as G. destruct (readList s) as [body r'|r'| | |]; try discriminate; cbn [good_read] in G.
  - destruct (p body) as [[a' x]|] eqn:EP; [|discriminate]. injection E as <- <-. split; [eapply Y; [|exact EP]; apply G|apply G].
  - destruct (p []) as [[a' x]|] eqn:EP; [|discriminate]. injection E as <- <-. split; [eapply Y; [|exact EP]; constructor|apply G].
Qed.
Lemma g_many : forall A (p : parser A) P, gives p P -> forall f, gives (many p f) (Forall P).
Proof.
  intros A p P Y. induction f as [|f IH]; intros s a r B E; cbn [many] in E; (destruct s as [|c s]; [injection E as <- <-; split; constructor|]); [discriminate|].
  destruct (p (c :: s)) as [[x s1]|] eqn:EP; [|discriminate]. destruct (many p f s1) as [[l s2]|] eqn:EM; [|discriminate]. injection E as <- <-. destruct (Y _ _ _ B EP) as [Px B1]. destruct (IH _ _ _ B1 EM) as [F B2]. split; [constructor; assumption|assumption].
Qed.
Lemma g_listOf : forall A (p : parser A) P, gives p P -> gives (listOf p) (Forall P).
Proof. intros A p P Y. apply g_inList. intros s a r B E. eapply g_many; eassumption. Qed.
Lemma g_nullableOf : forall A (p : parser A) P, gives p P -> gives (readNullableOf p) (some_ok P).
Proof.
  intros A p P Y s a r B E. unfold readNullableOf in E. pose proof (readList_ok s B) as G. destruct (readList s) as [body r'|r'| | |].
  2: injection E as <- <-; split; [exact I|exact G]. all: destruct (p s) as [[x s1]|] eqn:EP; [|discriminate]; injection E as <- <-; cbn [some_ok]; exact (Y _ _ _ B EP).
Qed.
Lemma g_nested : forall A (p : parser A) P, gives p P -> gives (nested p) (some_ok P).
Proof.
  intros A p P Y. unfold nested. eapply g_bind; [exact g_nullable|]. intros [b|] Bb s a r B E.
  - unfold fromBytes in E. destruct (p b) as [[x y]|] eqn:EP; [|discriminate]. injection E as <- <-. cbn [some_ok]. split; [eapply Y; [|exact EP]; exact Bb|assumption].
  - injection E as <- <-. split; [exact I|assumption].
Qed.
Lemma g_big : gives readBigInteger (fun _ => True).
Proof. unfold readBigInteger. eapply g_bind; [exact g_bytes|]. intros [|z b] _ s a r B E; [discriminate|]. injection E as _ <-. split; [exact I|assumption]. Qed.
Lemma g_long : gives readLong long.
Proof.
  unfold readLong. eapply g_bind; [exact g_big|]. intros z _ s a r B E. destruct ((- 2 ^ 63 <=? z) && (z <? 2 ^ 63)) eqn:EZ; [|discriminate]. injection E as <- <-. unfold long. split; [lia|assumption].
Qed.
Lemma g_address : gives readNullableAddress (some_ok address).
Proof.
  unfold readNullableAddress. eapply g_bind; [exact g_nullable|]. intros [b|] Bb s a r B E.
  - destruct (Nat.eqb_spec (length b) 21); [|discriminate]. injection E as <- <-. split; [split; assumption|assumption].
  - injection E as <- <-. split; [exact I|assumption].
Qed.
Lemma g_extension : gives readExtension extension_ok.
Proof. apply g_nullableOf, g_listOf, g_nullable. Qed.
Lemma g_result : gives readResult result_ok.
Proof.
  apply g_inList. eapply g_bind; [exact g_nullable|]. intros a Ha. eapply g_bind; [exact g_nullable|]. intros b Hb. eapply g_bind; [exact g_nullable|]. intros c Hc s x r B E. destruct s as [|z s].
  - injection E as <- <-. split; [|assumption]. repeat split; assumption.
  - destruct (nested readExtension (z :: s)) as [[[e|] s']|] eqn:EN; try discriminate. injection E as <- <-. destruct (g_nested _ _ _ g_extension _ _ _ B EN) as [O B']. split; [|assumption]. repeat split; assumption.
Qed.
Lemma g_header : gives readIHeader header_ok.
Proof.
  apply g_inList. eapply g_bind; [exact g_long|]. intros v Hv. eapply g_bind; [exact g_long|]. intros h Hh. eapply g_bind; [exact g_long|]. intros t Ht. eapply g_bind; [exact g_address|]. intros p Hp.
  eapply g_bind; [exact g_nullable|]. intros a Ha. eapply g_bind; [exact g_nullable|]. intros b Hb. eapply g_bind; [exact g_nullable|]. intros c Hc. eapply g_bind; [exact g_nullable|]. intros d Hd.
  eapply g_bind; [exact g_nullable|]. intros e He. eapply g_bind; [exact g_nullable|]. intros f Hf. eapply g_bind; [apply g_nested, g_result|]. intros r Hr. apply g_ret.
  unfold header_ok. cbn [ih_version ih_height ih_time ih_proposer ih_prev ih_votes ih_nextVals ih_patchTx ih_tx ih_bloom ih_result]. auto 12.
Qed.
Lemma g_partset : gives readPartSet partset_ok.
Proof. apply g_inList. eapply g_bind; [exact g_long|]. intros c Hc. eapply g_bind; [exact g_nullable|]. intros h Hh. apply g_ret. split; assumption. Qed.
Lemma g_vote : gives readVote vote_ok.
Proof. apply g_inList. eapply g_bind; [exact g_long|]. intros c Hc. eapply g_bind; [exact g_nullable|]. intros h Hh. apply g_ret. split; assumption. Qed.
Lemma g_votes : gives readVotes votes_ok.
Proof.
  apply g_inList. eapply g_bind; [exact g_long|]. intros c Hc. eapply g_bind; [apply g_nullableOf, g_partset|]. intros h Hh. eapply g_bind; [apply g_listOf, g_vote|]. intros l Hl. apply g_ret. split; [|split]; assumption.
Qed.
(** validators read may have nulls, [update_ok] has none *)
Definition update_read (u : iupdate) : Prop := some_ok header_ok (iu_header u) /\ some_ok votes_ok (iu_votes u) /\ some_ok (Forall (some_ok address)) (iu_next u).
Lemma g_update : gives readUpdate update_read.
Proof.
  apply g_inList. eapply g_bind; [apply g_nested, g_header|]. intros h Hh. eapply g_bind; [apply g_nested, g_votes|]. intros v Hv. eapply g_bind; [apply g_nested, g_listOf, g_address|]. intros n Hn. apply g_ret. split; [|split]; assumption.
Qed.
Lemma g_any_nullables : gives (nullableList readNullable) (fun _ => True).
Proof. intros s a r B E. split; [exact I|]. eapply (g_nullableOf _ _ _ (g_listOf _ _ _ g_nullable)); eassumption. Qed.
Lemma g_blockproof : gives readBlockProof (fun p => some_ok header_ok (ib_header p)).
Proof.
  apply g_inList. eapply g_bind; [apply g_nested, g_header|]. intros h Hh. eapply g_bind.
  - apply (g_nullableOf _ readWitness (fun _ => True)). apply g_inList. eapply g_bind; [exact g_long|]. intros c Hc. eapply g_bind; [exact g_any_nullables|]. intros l _. apply g_ret. exact I.
  - intros w _. apply g_ret. exact Hh.
Qed.
Lemma g_nested_any : forall A (p : parser A), gives (nested p) (fun _ => True).
Proof.
  intros A p. unfold nested. eapply g_bind; [exact g_nullable|]. intros [b|] _ s a r B E; [|injection E as _ <-; auto]. destruct (fromBytes p b); [|discriminate]. injection E as _ <-. auto.
Qed.
Lemma g_relay : gives readIRelay (fun m => some_ok (Forall (some_ok update_read)) (ir_updates m) /\ some_ok (fun p => some_ok header_ok (ib_header p)) (ir_proof m)).
Proof.
  apply g_inList. eapply g_bind; [apply g_nullableOf, g_listOf, g_nested, g_update|]. intros u Hu. eapply g_bind; [apply g_nested, g_blockproof|]. intros p Hp.
  eapply g_bind; [apply g_nullableOf, g_listOf, g_nested_any|]. intros r _. apply g_ret. split; assumption.
Qed.

(** The accumulator keeps to what can be written. *)
Lemma array_set_in : forall A (P : A -> Prop) i x l, P x -> Forall P l -> Forall P (array_set i x l).
Proof. intros A P. induction i as [|i IH]; intros x l Px F; destruct F; cbn [array_set]; constructor; auto. Qed.
Section STORE.
Context (H : list Z -> list Z) (HB : hash_bytes H).
Lemma concat_ok : forall a b h, concatAndHash H a b = Some h -> bytes_ok h.
Proof using HB. intros a b h E. unfold concatAndHash in E. destruct ((length a <? 32)%nat || (length b <? 32)%nat); [discriminate|]. injection E as <-. apply HB. Qed.
Lemma add_loop_ok : forall p rs i hash x, bytes_ok hash -> Forall opt_bytes rs -> add_loop H p i rs hash = Some x -> Forall opt_bytes (fst (fst x)) /\ opt_bytes (snd (fst x)) /\ (p < 0 -> snd x = 0).
Proof using HB.
  intros p. induction rs as [|[y|] rs IH]; intros i hash x Bh F E; cbn [add_loop] in E.
  - injection E as <-. cbn [fst snd]. auto.
  - inversion F as [|? ? F1 F2]; subst. destruct (Z.eqb_spec (Z.of_nat i) p).
    + injection E as <-. cbn [fst snd]. split; [constructor; assumption|]. split; [exact I|]. lia.
    + destruct (concatAndHash H y hash) as [h|] eqn:EH; cbn [obind] in E; [|discriminate]. apply concat_ok in EH. destruct (add_loop H p (S i) rs h) as [z|] eqn:EA; cbn [obind] in E; [|discriminate].
      injection E as <-. cbn [fst snd]. destruct (IH _ _ _ EH F2 EA) as (G1 & G2 & G3). split; [constructor; [exact I|assumption]|]. auto.
  - injection E as <-. inversion F; subst. cbn [fst snd]. split; [constructor; assumption|]. split; [exact I|auto].
Qed.
Lemma append_ok : forall rs h, bytes_ok h -> Forall opt_bytes (appendRoot rs h).
Proof using. intros rs h B. unfold appendRoot. apply Forall_app. split; [apply Forall_forall; intros x Hx; apply repeat_spec in Hx; subst; exact I|constructor; [exact B|constructor]]. Qed.
Lemma mta_add_ok : forall m h m', mta_ok m -> bytes_ok h -> mta_add H m h = Some m' -> j_height m + 1 < 2 ^ 63 -> (j_rootSize m = None \/ long (j_offset m')) -> mta_ok m' /\ j_height m' = j_height m + 1 /\ j_rootSize m' = j_rootSize m.
Proof using HB.
  intros m h m' (O1 & O2 & O3 & O4 & O5 & O6 & O7) B E LH LO. unfold mta_add in E. destruct (putCache m h) as [m1|] eqn:EP; cbn [obind] in E; [|discriminate].
  assert (X : j_height m1 = j_height m /\ j_roots m1 = j_roots m /\ j_offset m1 = j_offset m /\ j_rootSize m1 = j_rootSize m /\ j_cacheSize m1 = j_cacheSize m /\
              some_ok (fun c => Forall opt_bytes c /\ zlen c < 2 ^ 31) (j_cache m1) /\ some_ok fits_int (j_cacheIdx m1)).
  { unfold putCache in EP. destruct (isCacheEnabled m); [|injection EP as <-; auto 10]. destruct (j_cache m) as [c|] eqn:EC; [|discriminate]. destruct (j_cacheIdx m) as [i|]; [|discriminate].
    destruct ((0 <=? i) && (i <? zlen c)) eqn:EI; [|discriminate]. injection EP as <-. cbn [j_height j_roots j_offset j_rootSize j_cacheSize j_cache j_cacheIdx some_ok] in *. destruct O6 as [O6 O6']. do 5 (split; [reflexivity|]).
    split; [split; [apply array_set_in; [exact B|assumption]|unfold zlen in *; rewrite array_set_length; assumption]|]. unfold fits_int in *. destruct (zlen c <=? i + 1) eqn:EL; lia. }
  destruct X as (X1 & X2 & X3 & X4 & X5 & X6 & X7). rewrite X1, X2, X3 in E.
  assert (Y : forall r : list (option (list Z)) * Z, Forall opt_bytes (fst r) -> (j_rootSize m = None -> snd r = 0) ->
     Some (JMta (j_height m + 1) (fst r) (j_offset m + snd r) (j_rootSize m1) (j_cacheSize m1) (j_cache m1) (j_allow m1) (j_cacheIdx m1)) = Some m' -> mta_ok m' /\ j_height m' = j_height m + 1 /\ j_rootSize m' = j_rootSize m).
  { intros r F Z0 [= <-]. cbn [j_height j_rootSize j_offset] in *. split; [|auto]. unfold mta_ok. cbn [j_height j_roots j_offset j_rootSize j_cacheSize j_cache j_cacheIdx]. unfold long in *. rewrite X4, X5.
    split; [lia|]. split; [assumption|]. split; [destruct LO as [LO|LO]; [rewrite (Z0 LO); lia|assumption]|]. auto. }
  destruct (j_height m =? j_offset m).
  - cbn [obind] in E. eapply Y; [|intros _|exact E]; [apply append_ok; assumption|reflexivity].
  - match type of E with context [add_loop H ?q 0 (j_roots m) h] => destruct (add_loop H q 0 (j_roots m) h) as [y|] eqn:EA; cbn [obind] in E; [|discriminate]; destruct (add_loop_ok _ _ _ _ _ B O2 EA) as (G1 & G2 & G3) end.
    eapply Y; [| |exact E]; cbn [fst snd].
    + destruct (snd (fst y)) as [z|]; [apply append_ok; exact G2|assumption].
    + intros N. apply G3. unfold isRootSizeLimitEnabled. rewrite X4, N. cbn [positive]. lia.
Qed.
Lemma mta_adds_ok : forall hs m m', mta_ok m -> Forall bytes_ok hs -> mta_adds H m hs = Some m' -> j_rootSize m = None -> j_height m + zlen hs < 2 ^ 63 -> mta_ok m' /\ j_height m' = j_height m + zlen hs /\ j_rootSize m' = None.
Proof using HB.
  induction hs as [|h hs IH]; intros m m' O F E N L; cbn [mta_adds] in E.
  - injection E as <-. change (zlen (@nil (list Z))) with 0. split; [assumption|]. split; [lia|assumption].
  - inversion F as [|? ? F1 F2]; subst. destruct (mta_add H m h) as [m1|] eqn:EA; cbn [obind] in E; [|discriminate]. assert (Z1 : zlen (h :: hs) = 1 + zlen hs) by (unfold zlen; cbn [length]; lia).
    assert (Z2 : 0 <= zlen hs) by (unfold zlen; lia). destruct (mta_add_ok _ _ _ O F1 EA ltac:(lia) (or_introl N)) as (O1 & H1 & R1).
    destruct (IH _ _ O1 F2 E ltac:(congruence) ltac:(lia)) as (O2 & H2 & R2). split; [assumption|]. split; [lia|assumption].
Qed.
Lemma new_mta_ok : forall off, long off -> mta_ok (new_mta off).
Proof using. intros off L. unfold new_mta, mta_ok. cbn [j_height j_roots j_offset j_rootSize j_cacheSize j_cache j_cacheIdx some_ok]. auto 10. Qed.
End STORE.
Theorem C86_accumulator_storable : forall H off bs m, hash_bytes H -> long off -> Forall bytes_ok bs -> off + zlen bs < 2 ^ 63 -> mta_adds H (new_mta off) bs = Some m -> short (rlp_write (mta_item m)) ->
  fromBytes readMta (rlp_write (mta_item m)) = Some m.
Proof.
  intros H off bs m HB LO F L E S. destruct (mta_adds_ok H HB bs _ _ (new_mta_ok off LO) F E eq_refl ltac:(exact L)) as (O & _ & _). exact (rws_from _ _ _ _ (rws_mta m O) S).
Qed.
Print Assumptions C86_accumulator_storable.

Section KEPT.
Context (H : list Z -> list Z) (recover : list Z -> list Z -> option (list Z)) (addr_of : list Z -> option (list Z)) (show : list Z -> list Z) (unbase64 : list Z -> option (list Z)).
Notation handleRelay := (handleRelay H recover addr_of show).
Lemma chain_addresses : forall h vals us bs vals', chain H recover h vals us bs vals' -> Forall address vals -> Forall update_read us -> Forall address vals'.
Proof using.
  intros h vals us bs vals' C. induction C as [|h vals u b vals' us bs vals2 Hc C IH]; intros FV FU; [assumption|]. inversion FU as [|? ? U1 U2]; subst. apply IH; [|assumption].
  destruct Hc as (hd & vs & _ & _ & _ & _ & _ & _ & X). destruct (bytes_eqb _ _) in X; [congruence|]. destruct U1 as (_ & _ & U1). rewrite X in U1. cbn [some_ok] in U1. rewrite Forall_map in U1. exact U1.
Qed.
Lemma chain_hashes : forall h vals us bs vals', hash_bytes H -> chain H recover h vals us bs vals' -> Forall bytes_ok bs.
Proof using.
  intros h vals us bs vals' HB C. induction C as [|h vals u b vals' us bs vals2 Hc C IH]; constructor; [|assumption]. destruct Hc as (hd & vs & _ & _ & _ & -> & _). apply HB.
Qed.
(** Calls with messages of bytes, at heights below 2^63, keep the state to what can be stored. *)
Theorem C86_state_kept : forall p caller bmc prev seq msg p' out, hash_bytes H -> bytes_ok msg -> state_ok p -> j_rootSize (ip_mta p) = None ->
  handleRelay p caller bmc prev seq msg = Ok (p', out) -> j_height (ip_mta p') < 2 ^ 63 -> state_ok p' /\ j_rootSize (ip_mta p') = None.
Proof using.
  intros p caller bmc prev seq msg p' out HB BM (O1 & O2 & O3 & O4 & O5) N E L. apply call_parts in E.
  destruct E as (cur & from & rm & us & h & p1 & msgs & _ & _ & _ & _ & _ & ER & EU & B1 & B2 & B3 & D & _ & _ & EP).
  unfold fromBytes in ER. destruct (readIRelay msg) as [[rm' rest]|] eqn:ERR; [|discriminate]. assert (rm' = rm) by congruence. subst rm'. destruct (g_relay _ _ _ BM ERR) as [[GU GP] _].
  assert (Q : ip_vals p' = ip_vals p1 /\ ip_mta p' = ip_mta p1 /\ ip_bmc p' = ip_bmc p1 /\ ip_net p' = ip_net p1 /\ (ip_last p' = ip_last p1 \/ ip_last p' = ih_height h)) by (subst p'; destruct (is_nil msgs); auto 6).
  destruct Q as (Q1 & Q2 & Q3 & Q4 & Q5). rewrite Q2 in L. unfold state_ok. rewrite Q1, Q2, Q3, Q4, B1, B2.
  assert (GH : forall u, In (Some u) us -> update_read u). { intros u Hu. subst us. destruct (ir_updates rm) as [us|]; [|destruct Hu]. cbn [some_ok] in GU. rewrite Forall_forall in GU. exact (GU _ Hu). }
  assert (LH : long (ih_height h)).
  { destruct D as [(NU & _ & EL)|(_ & _ & bp & EB & EV)].
    - destruct (last us None) as [u|] eqn:ELU; cbn [obind] in EL; [|discriminate]. assert (Hu : In (Some u) us). { rewrite <- ELU. destruct (exists_last NU) as (l & x & ->). rewrite last_last. apply in_or_app. right. left. reflexivity. }
      destruct (GH u Hu) as (G & _). rewrite EL in G. cbn [some_ok] in G. apply G.
    - rewrite EB in GP. cbn [some_ok] in GP. unfold verifyBlockProof in EV. destruct (ib_witness bp) as [w|]; [|discriminate]. destruct (ib_header bp) as [h'|] eqn:EH; cbn [of_option rbind some_ok] in *; [|discriminate].
      destruct (j_height (ip_mta p) <? ih_height h'); [discriminate|].
      assert (h' = h). { match type of EV with match ?x with _ => _ end = _ => destruct x; congruence end. } subst h'. apply GP. }
  assert (X : Forall address (ip_vals p1) /\ mta_ok (ip_mta p1) /\ j_rootSize (ip_mta p1) = None).
  { destruct D as [(NU & EV & _)|(_ & -> & _)]; [|auto]. apply verifyBlockUpdates_iff in EV. destruct EV as (us3 & bs3 & E3 & C3 & A3 & _).
    assert (FU : Forall update_read us3). { apply Forall_forall. intros u Hu. apply GH. rewrite E3. apply in_map. assumption. }
    split; [eapply chain_addresses; eassumption|]. pose proof (chain_hashes _ _ _ _ _ HB C3) as FB.
    assert (HH : j_height (ip_mta p1) = j_height (ip_mta p) + zlen bs3) by (apply mta_adds_height in A3; exact A3).
    destruct (mta_adds_ok H HB bs3 _ _ O5 FB A3 N ltac:(lia)) as (G1 & _ & G2). auto. }
  destruct X as (X1 & X2 & X3). split; [|assumption]. split; [assumption|]. split; [assumption|]. split; [destruct Q5 as [->| ->]; [rewrite B3|]; assumption|]. split; assumption.
Qed.
(** What the contract stores after a deployment and calls is read back as it was. *)
Inductive ran_bytes (p0 : iprops) : iprops -> Prop :=
| rb_0 : ran_bytes p0 p0
| rb_call : forall p caller bmc prev seq msg p' out, ran_bytes p0 p -> bytes_ok msg -> handleRelay p caller bmc prev seq msg = Ok (p', out) -> ran_bytes p0 p'.
Theorem C86_always_read_back : forall bmc net vs off p0 p, hash_bytes H -> (forall s a, addr_of s = Some a -> address a) -> (forall s b, unbase64 s = Some b -> bytes_ok b) ->
  address bmc -> bytes_ok net -> long off -> deploy addr_of unbase64 None bmc net vs off = Some p0 -> ran_bytes p0 p -> j_height (ip_mta p) < 2 ^ 63 -> short (props_bytes p) ->
  fromBytes readProps (props_bytes p) = Some p.
Proof using.
  intros bmc net vs off p0 p HB AO UO AB BN LO ED R L S. apply C86_state_survives; [|exact S]. clear S.
  assert (S0 : state_ok p0 /\ j_rootSize (ip_mta p0) = None).
  { unfold deploy, obind in ED. destruct (validators_of addr_of unbase64 vs) as [v|] eqn:EV; [|discriminate]. injection ED as <-. cbn [ip_mta]. split; [|reflexivity].
    unfold state_ok. cbn [ip_bmc ip_net ip_last ip_vals ip_mta]. split; [assumption|]. split; [assumption|]. split; [assumption|]. split; [|apply new_mta_ok; assumption].
    unfold validators_of in EV. destruct (all_some (map addr_of (tokens [] vs))) as [l|] eqn:EA.
    - injection EV as <-. apply all_some_map in EA. apply Forall_forall. intros a Ha. assert (X : In (Some a) (map addr_of (tokens [] vs))) by (rewrite EA; apply in_map; assumption).
      apply in_map_iff in X. destruct X as (t & ET & _). eapply AO. exact ET.
    - destruct (tokens [] vs) as [|t [|t2 r]]; try discriminate. destruct (unbase64 vs) as [b|] eqn:EB; cbn [obind] in EV; [|discriminate]. apply UO in EB.
      unfold fromBytes in EV. destruct (readValidators b) as [[l r]|] eqn:ER; cbn [obind] in EV; [|discriminate]. destruct (g_listOf _ _ _ g_address _ _ _ EB ER) as [F _].
      apply all_some_map in EV. subst l. rewrite Forall_map in F. exact F. }
  enough (X : state_ok p /\ j_rootSize (ip_mta p) = None) by apply X.
  revert L. induction R as [|p caller b prev seq msg p' out R IH BM E]; intros L; [assumption|].
  assert (LE : j_height (ip_mta p) <= j_height (ip_mta p')).
  { pose proof E as E2. apply call_parts in E2. destruct E2 as (cur & from & rm & us & h & p1 & msgs & _ & _ & _ & _ & _ & _ & _ & _ & _ & _ & D & _ & _ & EP).
    assert (Q2 : ip_mta p' = ip_mta p1) by (subst p'; destruct (is_nil msgs); reflexivity). rewrite Q2. destruct D as [(_ & EV & _)|(_ & -> & _)]; [|lia].
    apply verifyBlockUpdates_iff in EV. destruct EV as (us3 & bs3 & _ & _ & A3 & _). apply mta_adds_height in A3. rewrite A3. unfold zlen. lia. }
  destruct (IH ltac:(lia)) as [SP NP]. eapply C86_state_kept; eassumption.
Qed.
End KEPT.
Print Assumptions C86_state_kept.
Print Assumptions C86_always_read_back.

(** ** Examples *)
Ltac bytes := repeat (apply Forall_cons; [unfold is_byte; lia|]); apply Forall_nil.
Definition ex_bytes (l : list Z) : bool := forallb (fun b => (0 <=? b) && (b <? 256)) l.
Lemma ex_bytes_ok : forall l, ex_bytes l = true -> bytes_ok l.
Proof. intros l E. unfold ex_bytes in E. rewrite forallb_forall in E. apply Forall_forall. intros x Hx. specialize (E x Hx). unfold is_byte. lia. Qed.
Lemma ex_short : forall l, (zlen l <? 2 ^ 63) = true -> short l.
Proof. intros l E. unfold short. lia. Qed.
Definition ex_h5 : iheader := IHeader 2 101 7 (Some (0 :: repeat 1 20)) (Some (repeat 3 32)) (Some (repeat 4 32)) (Some (repeat 5 32)) None None (Some [0])
  (Some (IResult (Some (repeat 6 32)) None (Some (repeat 7 32)) (Some (Some [Some [8]; None])))).
Lemma C86_ex_header_ok : header_ok ex_h5.
Proof.
  unfold header_ok, ex_h5, result_ok, extension_ok. cbn [ih_version ih_height ih_time ih_proposer ih_prev ih_votes ih_nextVals ih_patchTx ih_tx ih_bloom ih_result some_ok rs_state rs_patch rs_receipts rs_ext].
  unfold long, address. split; [lia|]. split; [lia|]. split; [lia|]. split; [split; [reflexivity|apply ex_bytes_ok; reflexivity]|].
  do 3 (split; [apply ex_bytes_ok; reflexivity|]). split; [exact I|]. split; [exact I|]. split; [apply ex_bytes_ok; reflexivity|]. split; [apply ex_bytes_ok; reflexivity|]. split; [exact I|].
  split; [apply ex_bytes_ok; reflexivity|]. constructor; [apply ex_bytes_ok; reflexivity|]. constructor; [exact I|constructor].
Qed.
Example C86_ex_header : fromBytes readIHeader (header_bytes ex_h5) = Some ex_h5.
Proof. apply C86_header_read_back; [exact C86_ex_header_ok|]. apply ex_short. vm_compute. reflexivity. Qed.
(** the hypotheses of [C86_longer_result_refuted] *)
Example C86_ex_longer : exists h', fromBytes readIHeader (header_with ex_h5 (longer_result (IResult (Some [1]) None (Some [2]) None) (Some []) [RBytes [9]])) = Some h' /\ rs_receipts (match ih_result h' with Some r => r | None => IResult None None None None end) = Some [2].
Proof. eexists. split; [vm_compute; reflexivity|reflexivity]. Qed.
Example C86_ex_longer_apart : let b := header_with ex_h5 (longer_result (IResult (Some [1]) None (Some [2]) None) (Some []) [RBytes [9]]) in exists h', fromBytes readIHeader b = Some h' /\ header_bytes h' <> b.
Proof.
  intros b. destruct (C86_longer_result_refuted (fun x => x) ex_h5 (IResult (Some [1]) None (Some [2]) None) (Some []) [RBytes [9]]) as (h' & R & N & _).
  - exact C86_ex_header_ok.
  - unfold result_ok. cbn [rs_state rs_patch rs_receipts rs_ext some_ok]. split; [apply ex_bytes_ok; reflexivity|]. split; [exact I|]. split; [apply ex_bytes_ok; reflexivity|constructor].
  - discriminate.
  - constructor; [apply ex_bytes_ok; reflexivity|constructor].
  - apply ex_short. vm_compute. reflexivity.
  - exists h'. auto.
Qed.
Example C86_ex_null : fromBytes readResult (rlp_write (RList [rnull None; rnull (Some [1]); rnull None; RNull])) = None.
Proof. apply C86_null_extension_refuted; [exact I|apply ex_bytes_ok; reflexivity|exact I|]. apply ex_short. vm_compute. reflexivity. Qed.
Lemma C86_ex_state : state_ok ex_p0.
Proof.
  unfold state_ok, ex_p0. cbn [ip_bmc ip_net ip_last ip_vals ip_mta]. unfold address. split; [split; [reflexivity|apply ex_bytes_ok; reflexivity]|]. split; [apply ex_bytes_ok; reflexivity|]. split; [unfold long; lia|].
  split; [|apply new_mta_ok; unfold long; lia]. do 4 (apply Forall_cons; [split; [reflexivity|apply ex_bytes_ok; reflexivity]|]). apply Forall_nil.
Qed.
Example C86_ex_stored : fromBytes readProps (props_bytes ex_p0) = Some ex_p0.
Proof. apply C86_state_survives; [exact C86_ex_state|]. apply ex_short. vm_compute. reflexivity. Qed.
(** after the call of C85's example *)
Example C86_ex_kept : exists p' out, ex_call ex_votes ex_bmc 7 = Ok (p', out) /\ state_ok p' /\ j_height (ip_mta p') = 101.
Proof.
  destruct (ex_call ex_votes ex_bmc 7) as [[p' out]| |] eqn:E; [|exfalso; vm_compute in E; discriminate|exfalso; vm_compute in E; discriminate].
  assert (HH : j_height (ip_mta p') = 101). { assert (X : match ex_call ex_votes ex_bmc 7 with Ok (q, _) => j_height (ip_mta q) | _ => 0 end = 101) by (vm_compute; reflexivity). rewrite E in X. exact X. }
  exists p', out. split; [reflexivity|]. split; [|assumption]. apply (C86_state_kept ex_H ex_recover ex_addr ex_show ex_p0 ex_bmc ex_to ex_from 7 (ex_relay ex_votes) p' out).
  - exact C84_ex_hash.
  - apply ex_bytes_ok. vm_compute. reflexivity.
  - exact C86_ex_state.
  - reflexivity.
  - exact E.
  - lia.
Qed.
Example C86_ex_votes : precommit 101 0 [1] None 5 <> precommit 101 0 [1] None 6.
Proof.
  intros E. apply C86_votes_apart in E; try (unfold long; lia); try exact I; try (apply ex_bytes_ok; reflexivity); try (apply ex_short; vm_compute; reflexivity).
Qed.
