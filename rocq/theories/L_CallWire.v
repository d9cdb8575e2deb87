(** Lemmas for the bytes of call service messages in both implementations. *)
From Coq Require Import String Ascii ZArith List Bool Lia.
From Coq Require Import ZifyBool.
From Verif Require Import Base L_Base M_IntConv S_IntConv L_IntConv M_Rlp S_Rlp L_Rlp S_Address S_BtpAddr M_JBmv S_JBmv M_Wire S_Wire L_Wire M_SolRlp S_SolRlp L_SolRlp T_SolRlp M_BtpAddr L_BtpAddr T_BtpAddr
  M_Bridge M_XCall S_XCall L_XCall M_JCall M_SolCall S_JCall L_JCall.
Import ListNotations.
Open Scope Z_scope.

(** a list around [body], its length written with or without leading zeros *)
Definition list_bytes (b body : list Z) : Prop :=
  (zlen body <= 55 /\ b = 192 + zlen body :: body) \/
  (55 < zlen body < 2 ^ 32 /\ exists sz, 1 <= zlen sz <= 5 /\ bytes_ok sz /\ be_val sz = zlen body /\ b = 247 + zlen sz :: sz ++ body).
Lemma list_bytes_len : forall b body, list_bytes b body -> zlen body < 2 ^ 32 /\ zlen body + 1 <= zlen b <= zlen body + 6.
Proof.
  intros b body [(L & ->) | (L & sz & S & _ & _ & ->)]; pose proof (zlen_nonneg _ body).
  - rewrite zlen_cons. lia.
  - rewrite zlen_cons, zlen_app. lia.
Qed.
Lemma list_bytes_ok : forall b body, list_bytes b body -> bytes_ok body -> bytes_ok b.
Proof.
  intros b body [(L & ->) | (L & sz & S & B & _ & ->)] BB; pose proof (zlen_nonneg _ body).
  - constructor; [red; lia|exact BB].
  - constructor; [red; lia|]. apply Forall_app. split; assumption.
Qed.
Lemma list_bytes_not128 : forall b body, list_bytes b body -> b <> [128].
Proof. intros b body [(L & ->) | (L & sz & S & _ & _ & ->)] E; apply (f_equal (hd 0)) in E; cbn [hd] in E; pose proof (zlen_nonneg _ body); lia. Qed.
Lemma be_val_small_len : forall l, 56 <= l < 2 ^ 32 -> zlen (sizeToBytes l) <= 5.
Proof.
  intros l Hl. destruct (sizeToBytes_spec l ltac:(lia)) as ((B & V & x & r & E & N) & Z8 & _). rewrite E in *. unfold zlen. cbn [length] in *.
  rewrite be_val_cons in V. assert (BR : bytes_ok r) by exact (Forall_inv_tail B). pose proof (be_val_bound r BR) as R. pose proof (Forall_inv B) as X. red in X.
  destruct (Z_le_dec (Z.of_nat (length r)) 4) as [|G]; [lia|exfalso]. assert (256 ^ 5 <= 256 ^ Z.of_nat (length r)) by (apply Z.pow_le_mono_r; lia).
  assert (256 ^ 5 > 2 ^ 32) by reflexivity. nia.
Qed.
Lemma writeList_bytes : forall body, zlen body < 2 ^ 32 -> list_bytes (writeList body) body.
Proof.
  intros body L. pose proof (zlen_nonneg _ body). destruct (writeList_header body ltac:(lia)) as (h & -> & _ & H1 & H2).
  destruct (Z_le_dec (zlen body) 55) as [S|S]; [left; rewrite H1 by exact S; split; [exact S|reflexivity]|right]. split; [lia|].
  destruct (sizeToBytes_spec (zlen body) ltac:(lia)) as ((B & V & _) & Z8 & _). exists (sizeToBytes (zlen body)). rewrite H2 by lia.
  split; [split; [lia|apply be_val_small_len; lia]|]. split; [exact B|]. split; [exact V|reflexivity].
Qed.
Lemma listed_bytes : forall body, zlen body < 2 ^ 32 -> exists b, listed body = Some b /\ list_bytes b body.
Proof.
  intros body L. unfold listed, addLength. pose proof (zlen_nonneg _ body) as N. destruct (55 <? zlen body) eqn:S.
  - unfold encodeUintByLength. cbv zeta. destruct (uintWidth_spec 15 (zlen body) 1 ltac:(lia) ltac:(lia) (or_introl eq_refl)) as (W1 & W2 & W3). set (w := uintWidth 15 (zlen body) 1) in *.
    assert (W5 : (w <= 5)%nat).
    { destruct W2 as [->|W2]; [lia|]. destruct (le_dec w 5) as [|G]; [assumption|exfalso]. assert (256 ^ 5 <= 256 ^ Z.of_nat (w - 1)) by (apply Z.pow_le_mono_r; lia).
      assert (256 ^ 5 > 2 ^ 33) by reflexivity. lia. }
    destruct (Nat.eqb_spec w 16) as [E|E]; [lia|]. cbn [sbind]. specialize (W3 ltac:(lia)).
    assert (LW : zlen (be_fixed w (zlen body)) = Z.of_nat w) by (unfold zlen at 1; rewrite be_fixed_length; reflexivity). rewrite LW.
    eexists. split; [reflexivity|]. right. split; [lia|]. exists (be_fixed w (zlen body)). rewrite LW. split; [lia|]. split; [apply be_fixed_ok|].
    split; [rewrite be_val_be_fixed; apply Z.mod_small; lia|]. cbn [app]. rewrite Z.mod_small by lia. reflexivity.
  - cbn [sbind]. eexists. split; [reflexivity|]. left. split; [lia|reflexivity].
Qed.
Lemma listed_write : forall body, zlen body < 2 ^ 32 -> ~ spread (zlen body) -> listed body = Some (writeList body).
Proof.
  intros body L NS. destruct (listed_bytes body L) as (b & E & LB). rewrite E. f_equal. pose proof (zlen_nonneg _ body). destruct (writeList_header body ltac:(lia)) as (h & -> & _ & H1 & H2).
  destruct (Z_le_dec (zlen body) 55) as [S|S].
  - rewrite H1 by exact S. destruct LB as [(_ & ->) | (G & _)]; [reflexivity|lia].
  - rewrite H2 by lia. unfold listed, addLength in E. replace (55 <? zlen body) with true in E by lia. unfold encodeUintByLength in E. cbv zeta in E.
    destruct (uintWidth_spec 15 (zlen body) 1 ltac:(lia) ltac:(lia) (or_introl eq_refl)) as (W1 & W2 & W3). set (w := uintWidth 15 (zlen body) 1) in *.
    assert (W5 : (w <= 5)%nat).
    { destruct W2 as [->|W2]; [lia|]. destruct (le_dec w 5) as [|G]; [assumption|exfalso]. assert (256 ^ 5 <= 256 ^ Z.of_nat (w - 1)) by (apply Z.pow_le_mono_r; lia).
      assert (256 ^ 5 > 2 ^ 33) by reflexivity. lia. }
    destruct (Nat.eqb_spec w 16) as [E16|E16]; [lia|]. cbn [sbind] in E. specialize (W3 ltac:(lia)).
    assert (SZ : sizeToBytes (zlen body) = be_fixed w (zlen body)).
    { destruct (sizeToBytes_spec (zlen body) ltac:(lia)) as ((B & V & x & r & EX & NX) & Z8 & _).
      assert (LEN : length (sizeToBytes (zlen body)) = w).
      { rewrite EX in *. cbn [length] in *. rewrite be_val_cons in V. assert (BR : bytes_ok r) by exact (Forall_inv_tail B). pose proof (be_val_bound r BR) as R. pose proof (Forall_inv B) as X. red in X.
        assert (P : 0 < 256 ^ Z.of_nat (length r)) by (apply Z.pow_pos_nonneg; lia).
        assert (lo : 256 ^ Z.of_nat (length r) <= zlen body) by nia.
        assert (hi : zlen body < 256 ^ (Z.of_nat (length r) + 1)) by (rewrite Z.pow_add_r by lia; nia).
        destruct (lt_eq_lt_dec (Datatypes.S (length r)) w) as [[G|G]|G]; [exfalso|exact G|exfalso].
        - destruct W2 as [W2|W2]; [lia|]. assert (LE : 256 ^ (Z.of_nat (length r) + 1) <= 256 ^ Z.of_nat (w - 1)) by (apply Z.pow_le_mono_r; lia).
          apply NS. exists (Z.of_nat (length r) + 1). split; [lia|]. lia.
        - assert (256 ^ Z.of_nat w <= 256 ^ Z.of_nat (length r)) by (apply Z.pow_le_mono_r; lia). lia. }
      pose proof (be_fixed_be_val _ B) as FB. rewrite LEN, V in FB. symmetry. exact FB. }
    rewrite SZ. assert (LW : zlen (be_fixed w (zlen body)) = Z.of_nat w) by (unfold zlen at 1; rewrite be_fixed_length; reflexivity). rewrite LW in *.
    rewrite Z.mod_small in E by lia. symmetry. injection E as E. exact E.
Qed.

(** reading it *)
Lemma bytesToSize_small : forall sz, bytes_ok sz -> zlen sz <= 5 -> bytesToSize sz = be_val sz.
Proof.
  intros sz B L. unfold bytesToSize. rewrite BytesToSize_spec by assumption. pose proof (be_val_bound sz B) as R.
  assert (256 ^ Z.of_nat (length sz) <= 256 ^ 5) by (apply Z.pow_le_mono_r; unfold zlen in L; lia). assert (256 ^ 5 < 2 ^ 63) by reflexivity.
  rewrite u64_small by lia. apply i64_small. lia.
Qed.
Lemma inList_bytes : forall A (p : parser A) b body a r rest, list_bytes b body -> p body = Some (a, r) -> inList p (b ++ rest) = Some (a, rest).
Proof.
  intros A p b body a r rest LB E. unfold inList. assert (RL : readList (b ++ rest) = ROk body rest).
  { pose proof (zlen_nonneg _ body). destruct LB as [(L & ->) | (L & sz & S & B & V & ->)]; cbn [app readList].
    - replace (192 + zlen body <? 192) with false by lia. replace (192 + zlen body <=? 247) with true by lia. apply limited_app. lia.
    - replace (247 + zlen sz <? 192) with false by lia. replace (247 + zlen sz <=? 247) with false by lia. unfold readSize. rewrite <- app_assoc, read_full_app by lia.
      rewrite bytesToSize_small by (assumption || lia). rewrite V. replace (zlen body =? 0) with false by lia. rewrite andb_false_r. apply limited_app. reflexivity. }
  rewrite RL, E. reflexivity.
Qed.
Lemma list_of_bytes : forall junk b l, (forall b, mem_ok (junk b)) -> Forall rlp_ok l -> bytes_ok b -> list_bytes b (concat (map rlp_write l)) ->
  exists its, list_of junk b = Some its /\ Forall2 holds its l.
Proof.
  intros junk b l J O B LB. set (body := concat (map rlp_write l)) in *. pose proof (zlen_nonneg _ body) as N. destruct (list_bytes_len _ _ LB) as [L1 L2].
  unfold list_of, toList. set (it := toRlpItem junk b).
  assert (M : mem_ok (i_mem it)).
  { intros i. unfold it, toRlpItem. cbn [i_mem]. destruct (i <? zlen b); [|apply J]. destruct (Nat.lt_ge_cases (Z.to_nat i) (length b)) as [K|K]; [|rewrite nth_overflow by assumption; red; lia].
    apply (Forall_nth is_byte b); assumption. }
  assert (P : placed (i_mem it) 0 b).
  { intros i x E. rewrite Z.add_0_l. assert (Hi : (i < length b)%nat) by (apply nth_error_Some; congruence). unfold it, toRlpItem. cbn [i_mem].
    unfold zlen. replace (Z.of_nat i <? Z.of_nat (length b)) with true by lia. rewrite Nat2Z.id. apply nth_error_nth. assumption. }
  change (i_len it) with (zlen b).
  assert (H : exists off, payloadOffset (i_mem it) 0 = off /\ 1 <= off /\ zlen b = off + zlen body /\ placed (i_mem it) off body /\ 192 <= i_mem it 0).
  { destruct LB as [(L & E) | (L & sz & S & BS & V & E)]; rewrite E in P.
    - apply placed_cons in P as [P1 P2]. destruct (header_short (i_mem it) 0 (zlen body) 192 (or_intror eq_refl) ltac:(lia) P1) as [_ H]. exists 1. rewrite H.
      split; [reflexivity|]. split; [lia|]. split; [rewrite E, zlen_cons; lia|]. split; [exact P2|lia].
    - change (247 + zlen sz :: sz ++ body) with ((247 + zlen sz :: sz) ++ body) in P. apply placed_app in P as [P1 P2].
      destruct (header_long (i_mem it) 0 sz 247 (or_intror eq_refl) ltac:(lia) M P1) as [_ H]. exists (zlen sz + 1). rewrite H. rewrite zlen_cons in P2.
      split; [reflexivity|]. split; [lia|]. split; [rewrite E, zlen_cons, zlen_app; lia|]. split; [rewrite Z.add_0_l in P2; exact P2|].
      apply placed_cons in P1 as [P1 _]. lia. }
  destruct H as (off & H1 & H2 & H3 & H4 & H5). unfold isList. change (i_len it) with (zlen b). replace (zlen b =? 0) with false by lia. replace (i_mem it 0 <? 192) with false by lia. cbn [require sbind].
  eexists. split; [reflexivity|]. rewrite H1.
  assert (S2 : Forall (fun t => zlen (rlp_write t) < 2 ^ 63) l).
  { apply Forall_forall. intros t T. assert (zlen (rlp_write t) <= zlen body); [|lia]. unfold body. clear - T. induction l as [|x l IH]; [contradiction|]. cbn [map concat]. rewrite zlen_app.
    pose proof (zlen_nonneg _ (rlp_write x)). pose proof (zlen_nonneg _ (concat (map rlp_write l))). destruct T as [->|T]; [lia|]. specialize (IH T). lia. }
  assert (K : Forall2 (fun q t => holds (mkItem (itemLength (i_mem it) q) (fun i => i_mem it (q + i))) t) (pointers (Z.to_nat (zlen b)) (i_mem it) off (off + zlen body)) l).
  { apply pointers_app; try assumption. fold body. unfold zlen in *. lia. }
  rewrite <- H3 in K. clear - K. induction K; cbn [map]; constructor; auto.
Qed.

(** ** Messages *)
Definition carried (type : Z) (items : list rlp) (b : list Z) : Prop :=
  exists inner, list_bytes inner (concat (map rlp_write items)) /\ list_bytes b (concat (map rlp_write [int_item type; RBytes inner])).
Definition request_items (q : csreq) : list rlp := [RBytes (q_from q); RBytes (q_to q); int_item (q_sn q); bool_item (q_rollback q); opt_item (q_data q)].
Definition response_items (r : csres) : list rlp := [int_item (r_sn r); int_item (r_code r); opt_item (r_msg r)].

Lemma child_le : forall l t, In t l -> zlen (rlp_write t) <= zlen (concat (map rlp_write l)).
Proof.
  induction l as [|x l IH]; intros t T; [contradiction|]. cbn [map concat]. rewrite zlen_app.
  pose proof (zlen_nonneg _ (rlp_write x)). pose proof (zlen_nonneg _ (concat (map rlp_write l))). destruct T as [->|T]; [lia|]. specialize (IH _ T). lia.
Qed.
Lemma children_ok : forall l, Forall rlp_ok l -> zlen (concat (map rlp_write l)) < 2 ^ 63 -> bytes_ok (concat (map rlp_write l)).
Proof.
  induction l as [|t l IH]; intros O S; [constructor|]. cbn [map concat] in *. rewrite zlen_app in S. pose proof (zlen_nonneg _ (rlp_write t)). pose proof (zlen_nonneg _ (concat (map rlp_write l))).
  apply Forall_app. split; [apply rlp_write_ok; [exact (Forall_inv O)|lia]|apply IH; [exact (Forall_inv_tail O)|lia]].
Qed.
Lemma carried_write : forall type items, zlen (rlp_write (message_item type (rlp_write (RList items)))) < 2 ^ 32 -> carried type items (rlp_write (message_item type (rlp_write (RList items)))).
Proof.
  intros type items L. exists (rlp_write (RList items)). unfold message_item in *. cbn [rlp_write] in L |- *.
  set (inner := writeList (concat (map rlp_write items))) in *. set (outer := concat (map rlp_write [int_item type; RBytes inner])) in *.
  assert (L1 : zlen outer < 2 ^ 32) by (pose proof (writeList_len outer); lia).
  assert (L2 : zlen inner < 2 ^ 32) by (pose proof (child_le [int_item type; RBytes inner] (RBytes inner) (or_intror (or_introl eq_refl))) as C; cbn [rlp_write] in C; pose proof (writeBytes_len inner); fold outer in C; lia).
  split; [|apply writeList_bytes; exact L1]. apply writeList_bytes. unfold inner in L2. pose proof (writeList_len (concat (map rlp_write items))). lia.
Qed.
Lemma carried_parts : forall type items b, carried type items b -> Forall rlp_ok items -> exists inner, bytes_ok inner /\ bytes_ok b /\ zlen (rlp_write (RBytes inner)) < 2 ^ 63 /\
  Forall (fun t => zlen (rlp_write t) < 2 ^ 63) items /\
  list_bytes inner (concat (map rlp_write items)) /\ list_bytes b (concat (map rlp_write [int_item type; RBytes inner])).
Proof.
  intros type items b (inner & L1 & L2) O. exists inner. destruct (list_bytes_len _ _ L1) as [A1 A2]. destruct (list_bytes_len _ _ L2) as [B1 B2].
  assert (BI : bytes_ok inner) by (apply (list_bytes_ok _ _ L1), children_ok; [exact O|lia]).
  assert (BB : bytes_ok b). { apply (list_bytes_ok _ _ L2), children_ok; [|lia]. constructor; [apply int_ok|]. constructor; [exact BI|constructor]. }
  split; [exact BI|]. split; [exact BB|]. split.
  - pose proof (child_le [int_item type; RBytes inner] (RBytes inner) (or_intror (or_introl eq_refl))) as C. lia.
  - split; [|split; assumption]. apply Forall_forall. intros t T. pose proof (child_le _ _ T). lia.
Qed.
Definition fits_items (l : list rlp) : Prop := Forall (fun t => zlen (rlp_write t) < 2 ^ 63) l.
Ltac small S := repeat match type of S with Forall _ (_ :: _) => let S1 := fresh "S" in pose proof (Forall_inv S) as S1; apply Forall_inv_tail in S end.
Lemma j_message_read : forall type items b, fits_int type -> carried type items b -> Forall rlp_ok items -> exists inner, fromBytes readCSMessage b = Some (type, Some inner) /\
  list_bytes inner (concat (map rlp_write items)) /\ fits_items items /\ bytes_ok inner.
Proof.
  intros type items b F C O. destruct (carried_parts _ _ _ C O) as (inner & B1 & B2 & S1 & S2 & L1 & L2). exists inner. split; [|split; [exact L1|split; [exact S2|exact B1]]].
  unfold fromBytes. rewrite <- (app_nil_r b). unfold readCSMessage. erewrite inList_bytes; [reflexivity|exact L2|]. cbn [map concat]. rewrite app_nil_r.
  destruct (list_bytes_len _ _ L2) as [A1 A2]. pose proof (child_le [int_item type; RBytes inner] (int_item type) (or_introl eq_refl)) as C1.
  rewrite (bind_reads _ _ readInt) with (a := type) by (try apply reads_int; try assumption; lia).
  rewrite <- (app_nil_r (rlp_write (RBytes inner))). rewrite (bind_reads _ _ readNullable) with (a := Some inner); [reflexivity|apply (reads_nullable (Some inner)); exact B1|exact S1].
Qed.
Lemma Forall_one_byte : forall b, 0 <= b < 256 -> rlp_ok (RBytes [b]).
Proof. intros b H. repeat constructor; apply H. Qed.
Lemma request_items_ok : forall q, request_ok q -> Forall rlp_ok (request_items q).
Proof. intros q (B1 & B2 & B3). unfold request_items.
  constructor; [exact B1|]. constructor; [exact B2|]. constructor; [apply int_ok|]. constructor; [destruct (q_rollback q); apply Forall_one_byte; lia|]. constructor; [apply opt_item_ok; assumption|constructor].
Qed.
Lemma response_items_ok : forall r, response_ok r -> Forall rlp_ok (response_items r).
Proof. intros r (B1 & B2). unfold response_items. constructor; [apply int_ok|]. constructor; [apply int_ok|]. constructor; [apply opt_item_ok; assumption|constructor]. Qed.
Lemma j_read_request : forall q b, request_ok q -> carried 1 (request_items q) b -> payload_of 1 (fromBytes readCSRequest) (fromBytes readCSMessage b) = Some q /\
  payload_of 2 (fromBytes readCSResponse) (fromBytes readCSMessage b) = None.
Proof.
  intros q b OK C. destruct (j_message_read 1 _ b ltac:(red; lia) C (request_items_ok q OK)) as (inner & E & L1 & S & B). rewrite E. cbn [payload_of]. change (1 =? 1) with true. change (1 =? 2) with false. split; [|reflexivity]. cbv iota.
  unfold fromBytes. rewrite <- (app_nil_r inner). unfold readCSRequest. erewrite inList_bytes; [reflexivity|exact L1|]. destruct OK as (B1 & B2 & B3). unfold request_items in *. red in S. cbn [map concat]. small S.
  rewrite (bind_reads _ _ readByteArray) with (a := q_from q) by (try apply reads_bytes; assumption).
  rewrite (bind_reads _ _ readByteArray) with (a := q_to q) by (try apply reads_bytes; assumption).
  rewrite (bind_reads _ _ readBigInteger) with (a := q_sn q) by (try apply reads_big; assumption).
  rewrite (bind_reads _ _ readBoolean) with (a := q_rollback q) by (try apply reads_boolean; assumption).
  rewrite (bind_reads _ _ readNullable) with (a := q_data q) by (try apply reads_nullable; assumption).
  destruct q; reflexivity.
Qed.
Lemma j_read_response : forall r b, response_ok r -> carried 2 (response_items r) b -> payload_of 2 (fromBytes readCSResponse) (fromBytes readCSMessage b) = Some r /\
  payload_of 1 (fromBytes readCSRequest) (fromBytes readCSMessage b) = None.
Proof.
  intros r b OK C. destruct (j_message_read 2 _ b ltac:(red; lia) C (response_items_ok r OK)) as (inner & E & L1 & S & B). rewrite E. cbn [payload_of]. change (2 =? 2) with true. change (2 =? 1) with false. split; [|reflexivity]. cbv iota.
  unfold fromBytes. rewrite <- (app_nil_r inner). unfold readCSResponse. erewrite inList_bytes; [reflexivity|exact L1|]. destruct OK as (B1 & B2). unfold response_items in *. red in S. cbn [map concat]. small S.
  rewrite (bind_reads _ _ readBigInteger) with (a := r_sn r) by (try apply reads_big; assumption).
  rewrite (bind_reads _ _ readInt) with (a := r_code r) by (try apply reads_int; assumption).
  rewrite (bind_reads _ _ readNullable) with (a := r_msg r) by (try apply reads_nullable; assumption).
  destruct r; reflexivity.
Qed.

(** in Solidity *)
Section Sol.
Variable junk : list Z -> mem.
Hypothesis J : forall b, mem_ok (junk b).
Lemma toBoolean_holds : forall it b, holds it (bool_item b) -> toBoolean it = Some b.
Proof.
  intros it b (_ & _ & L & P & _). unfold toBoolean. assert (E : rlp_write (bool_item b) = [if b then 1 else 0]) by (destruct b; reflexivity). rewrite E in *.
  rewrite L. change (zlen [if b then 1 else 0]) with 1. cbn [Z.eqb Pos.eqb require sbind]. specialize (P 0%nat _ eq_refl). rewrite Z.add_0_l in P. change (Z.of_nat 0) with 0 in P. rewrite P. destruct b; reflexivity.
Qed.
Lemma opt_payload : forall it o, holds it (opt_item o) -> toBytes it = filled o.
Proof. intros it [d|] Hd; rewrite (toBytes_holds _ _ Hd); reflexivity. Qed.
Lemma Forall2_hd : forall A B (R : A -> B -> Prop) x l y m, Forall2 R (x :: l) (y :: m) -> R x y.
Proof. intros A B R x l y m F. inversion F; assumption. Qed.
Lemma Forall2_tl : forall A B (R : A -> B -> Prop) x l y m, Forall2 R (x :: l) (y :: m) -> Forall2 R l m.
Proof. intros A B R x l y m F. inversion F; assumption. Qed.
Ltac f2 F := match type of F with Forall2 _ ?its (_ :: _) => let x := fresh "it" in let r := fresh "its" in let h := fresh "HD" in let F' := fresh in
  destruct its as [|x r]; [exfalso; inversion F|]; assert (h := F); apply Forall2_hd in h; apply Forall2_tl in F end.
Lemma s_message_read : forall type items b, - 2 ^ 247 <= type < 2 ^ 255 -> carried type items b -> Forall rlp_ok items -> exists inner its, decodeCSMessage junk b = Some (type, inner) /\
  list_of junk inner = Some its /\ Forall2 holds its items.
Proof.
  intros type items b F C O. destruct (carried_parts _ _ _ C O) as (inner & B1 & B2 & S1 & S2 & L1 & L2).
  destruct (list_of_bytes junk inner items J O B1 L1) as (its & I1 & I2). exists inner, its. split; [|split; assumption].
  destruct (list_of_bytes junk b [int_item type; RBytes inner] J) as (js & J1 & J2); [constructor; [apply int_ok|constructor; [exact B1|constructor]]|exact B2|exact L2|].
  unfold decodeCSMessage. rewrite J1. f2 J2. f2 J2. cbn [sbind at_index nth_error].
  rewrite (proj2 (proj2 (C60_numbers_read _ type)) HD F). cbn [sbind]. rewrite (toBytes_holds _ _ HD0). reflexivity.
Qed.
Lemma s_read_request : forall q b, request_ok q -> 0 <= q_sn q < 2 ^ 255 -> carried 1 (request_items q) b ->
  payload_of 1 (decodeCSMessageRequest junk) (typed (decodeCSMessage junk b)) = Some (filled_req q) /\
  payload_of 2 (decodeCSMessageResponse junk) (typed (decodeCSMessage junk b)) = None.
Proof.
  intros q b OK R C. destruct (s_message_read 1 _ b ltac:(lia) C (request_items_ok q OK)) as (inner & its & E & L & F). rewrite E. cbn [payload_of typed]. change (1 =? 1) with true. change (1 =? 2) with false. split; [|reflexivity]. cbv iota.
  unfold decodeCSMessageRequest. rewrite L. unfold request_items in F. f2 F. f2 F. f2 F. f2 F. f2 F. cbn [sbind at_index nth_error].
  rewrite (toBytes_holds _ _ HD). cbn [sbind]. rewrite (toBytes_holds _ _ HD0). cbn [sbind]. rewrite (proj1 (C60_numbers_read _ _) HD1 R). cbn [sbind].
  rewrite (toBoolean_holds _ _ HD2). cbn [sbind]. rewrite (opt_payload _ _ HD3). reflexivity.
Qed.
Lemma s_read_response : forall r b, response_ok r -> 0 <= r_sn r < 2 ^ 255 -> carried 2 (response_items r) b ->
  payload_of 2 (decodeCSMessageResponse junk) (typed (decodeCSMessage junk b)) = Some (filled_res r) /\
  payload_of 1 (decodeCSMessageRequest junk) (typed (decodeCSMessage junk b)) = None.
Proof.
  intros r b OK R C. destruct (s_message_read 2 _ b ltac:(lia) C (response_items_ok r OK)) as (inner & its & E & L & F). rewrite E. cbn [payload_of typed]. change (2 =? 2) with true. change (2 =? 1) with false. split; [|reflexivity]. cbv iota.
  unfold decodeCSMessageResponse. rewrite L. unfold response_items in F. f2 F. f2 F. f2 F. cbn [sbind at_index nth_error].
  rewrite (proj1 (C60_numbers_read _ _) HD R). cbn [sbind].
  rewrite (proj2 (proj2 (C60_numbers_read _ _)) HD0) by (destruct OK as [O _]; red in O; lia). cbn [sbind]. rewrite (opt_payload _ _ HD1). reflexivity.
Qed.
End Sol.

Lemma encodeBytes_item : forall b, zlen b < 2 ^ 32 -> plain b -> encodeBytes b = rlp_write (RBytes b).
Proof. intros b L P. cbn [rlp_write]. apply encodeBytes_write; [lia|exact P]. Qed.
Lemma s_wrap : forall type payload items inner, type = 1 \/ type = 2 -> zlen (concat (map rlp_write items)) < 2 ^ 31 ->
  listed (concat (map rlp_write items)) = Some inner -> payload = Some inner -> bytes_ok (concat (map rlp_write items)) ->
  exists b, sbind payload (encodeCSMessage type) = Some b /\ carried type items b.
Proof.
  intros type payload items inner T L E -> B. destruct (listed_bytes (concat (map rlp_write items)) ltac:(lia)) as (b' & E' & LB). assert (b' = inner) by congruence. subst b'. clear E'.
  destruct (list_bytes_len _ _ LB) as [L1 L2]. cbn [sbind]. unfold encodeCSMessage.
  rewrite C60_int_written by (destruct T; lia). replace ((- 2 ^ 127 <=? type) && (type <? 2 ^ 127)) with true by (destruct T; lia). cbn [sbind].
  rewrite encodeBytes_item by (lia || exact (list_bytes_not128 _ _ LB)).
  assert (EQ : rlp_write (int_item type) ++ rlp_write (RBytes inner) = concat (map rlp_write [int_item type; RBytes inner])) by (cbn [map concat]; rewrite app_nil_r; reflexivity).
  rewrite EQ. destruct (listed_bytes (concat (map rlp_write [int_item type; RBytes inner]))) as (b & E2 & LB2).
  - rewrite <- EQ, zlen_app. pose proof (write_len inner (list_bytes_ok _ _ LB B) ltac:(lia)). pose proof (num_len type ltac:(destruct T; subst; reflexivity)). lia.
  - exists b. split; [exact E2|]. exists inner. split; assumption.
Qed.
Lemma uint_item : forall n b, 0 <= n -> encodeUint n = Some b -> b = rlp_write (int_item n) /\ n < 2 ^ 128 - 1.
Proof. intros n b N E. rewrite C60_uint_written in E by assumption. destruct (n <? 2 ^ 128 - 1) eqn:C; [|discriminate]. split; [congruence|lia]. Qed.
Lemma request_body : forall q n, request_ok q -> plain_request q -> zlen (concat (map rlp_write (request_items q))) < 2 ^ 31 -> n = rlp_write (int_item (q_sn q)) ->
  encodeString (q_from q) ++ encodeString (q_to q) ++ n ++ encodeBool (q_rollback q) ++ encodeBytes (match q_data q with Some d => d | None => [] end) = concat (map rlp_write (request_items q)).
Proof.
  intros q n (B1 & B2 & B3) (P1 & P2 & d & D & P3) L ->. unfold request_items in *.
  assert (LF : zlen (q_from q) < 2 ^ 32) by (pose proof (child_le _ _ (or_introl eq_refl : In (RBytes (q_from q)) [RBytes (q_from q); RBytes (q_to q); int_item (q_sn q); bool_item (q_rollback q); opt_item (q_data q)])) as C; cbn [rlp_write] in C; pose proof (writeBytes_len (q_from q)); cbn [rlp_write] in L; lia).
  assert (LT : zlen (q_to q) < 2 ^ 32) by (pose proof (child_le _ _ (or_intror (or_introl eq_refl) : In (RBytes (q_to q)) [RBytes (q_from q); RBytes (q_to q); int_item (q_sn q); bool_item (q_rollback q); opt_item (q_data q)])) as C; cbn [rlp_write] in C; pose proof (writeBytes_len (q_to q)); cbn [rlp_write] in L; lia).
  rewrite D in *. cbn [opt_item] in *.
  assert (LD : zlen d < 2 ^ 32) by (pose proof (child_le _ _ (or_intror (or_intror (or_intror (or_intror (or_introl eq_refl)))) : In (RBytes d) [RBytes (q_from q); RBytes (q_to q); int_item (q_sn q); bool_item (q_rollback q); RBytes d])) as C; cbn [rlp_write] in C; pose proof (writeBytes_len d); cbn [rlp_write] in L; lia).
  unfold encodeString. rewrite !encodeBytes_item by assumption. cbn [map concat]. rewrite app_nil_r. replace (encodeBool (q_rollback q)) with (rlp_write (bool_item (q_rollback q))) by (destruct (q_rollback q); reflexivity). reflexivity.
Qed.
Lemma s_write_request : forall q, request_ok q -> plain_request q -> 0 <= q_sn q < 2 ^ 128 - 1 -> zlen (concat (map rlp_write (request_items q))) < 2 ^ 31 ->
  exists b, sbind (encodeCSMessageRequest q) (encodeCSMessage 1) = Some b /\ carried 1 (request_items q) b.
Proof.
  intros q OK P R L. destruct (listed_bytes (concat (map rlp_write (request_items q))) ltac:(lia)) as (inner & E & _). eapply s_wrap; [left; reflexivity|exact L|exact E| |apply children_ok; [apply request_items_ok; exact OK|lia]].
  unfold encodeCSMessageRequest. rewrite C60_uint_written by lia. replace (q_sn q <? 2 ^ 128 - 1) with true by lia. cbn [sbind]. rewrite request_body; try assumption; reflexivity.
Qed.
Lemma s_write_response : forall r, response_ok r -> plain_response r -> 0 <= r_sn r < 2 ^ 128 - 1 -> zlen (concat (map rlp_write (response_items r))) < 2 ^ 31 ->
  exists b, sbind (encodeCSMessageResponse r) (encodeCSMessage 2) = Some b /\ carried 2 (response_items r) b.
Proof.
  intros r OK (P1 & t & T & P2) R L. destruct (listed_bytes (concat (map rlp_write (response_items r))) ltac:(lia)) as (inner & E & _). eapply s_wrap; [right; reflexivity|exact L|exact E| |apply children_ok; [apply response_items_ok; exact OK|lia]].
  unfold encodeCSMessageResponse. rewrite C60_uint_written by lia. replace (r_sn r <? 2 ^ 128 - 1) with true by lia. cbn [sbind].
  rewrite C60_int_written by exact P1. destruct OK as [O1 O2]. red in O1. replace ((- 2 ^ 127 <=? r_code r) && (r_code r <? 2 ^ 127)) with true by lia. cbn [sbind].
  unfold response_items in *. rewrite T in *. cbn [opt_item] in *.
  assert (LD : zlen t < 2 ^ 32) by (pose proof (child_le _ _ (or_intror (or_intror (or_introl eq_refl)) : In (RBytes t) [int_item (r_sn r); int_item (r_code r); RBytes t])) as C; cbn [rlp_write] in C; pose proof (writeBytes_len t); cbn [rlp_write] in L; lia).
  unfold encodeString. rewrite encodeBytes_item by assumption. rewrite <- E. f_equal. cbn [map concat]. rewrite app_nil_r. reflexivity.
Qed.
