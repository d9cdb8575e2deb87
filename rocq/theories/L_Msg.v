(** Lemmas for the bytes of messages between message centers. *)
From Coq Require Import String Ascii ZArith List Bool Lia.
From Coq Require Import ZifyBool.
From Verif Require Import Base L_Base M_IntConv S_IntConv L_IntConv M_Rlp S_Rlp L_Rlp S_Address S_BtpAddr M_JBmv S_JBmv M_Wire S_Wire L_Wire
  M_SolRlp S_SolRlp L_SolRlp T_SolRlp M_BtpAddr L_BtpAddr T_BtpAddr M_Bridge M_XCall S_XCall L_XCall M_JCall M_SolCall S_JCall L_JCall L_CallWire M_SBmc M_JMsg S_Msg.
Import ListNotations.
Open Scope Z_scope.

Scheme form_mut := Induction for form Sort Prop
with forms_mut := Induction for forms Sort Prop.
Combined Scheme form_both from form_mut, forms_mut.

Lemma wraps_list : forall b body, wraps b body <-> list_bytes b body.
Proof. intros b body. split; intros W; exact W. Qed.
Lemma bytes_len : forall b, bytes_ok b -> zlen b < 2 ^ 32 -> 1 <= zlen (rlp_write (RBytes b)) < 2 ^ 33.
Proof. intros b B L. pose proof (write_len b B ltac:(lia)). pose proof (rlp_write_pos (RBytes b)). lia. Qed.
Lemma form_len : forall t b, form t b -> 1 <= zlen b < 2 ^ 33.
Proof.
  intros t b F. destruct F as [|b B L|ts body b F W]; [cbn; lia|apply bytes_len; assumption|].
  destruct (list_bytes_len _ _ W) as [L1 L2]. pose proof (zlen_nonneg _ body). lia.
Qed.
Lemma form_ok_both : (forall t b, form t b -> rlp_ok t /\ bytes_ok b) /\ (forall ts b, forms ts b -> Forall rlp_ok ts /\ bytes_ok b).
Proof.
  apply form_both.
  - split; [exact I|]. repeat constructor; lia.
  - intros b B L. split; [exact B|]. apply rlp_write_ok; [exact B|]. pose proof (bytes_len b B L). lia.
  - intros ts body b F [O B] W. split; [apply rlp_ok_list; exact O|]. apply (list_bytes_ok _ _ W). exact B.
  - split; constructor.
  - intros t ts b r F [O1 B1] Fs [O2 B2]. split; [constructor; assumption|]. apply Forall_app. split; assumption.
Qed.
Lemma form_ok : forall t b, form t b -> bytes_ok b.
Proof. intros t b F. apply (proj1 form_ok_both _ _ F). Qed.

(** the standard bytes are one form *)
Lemma form_write : forall t, rlp_ok t -> zlen (rlp_write t) < 2 ^ 32 -> form t (rlp_write t).
Proof.
  induction t as [|b|l IH] using rlp_ind2; intros O L.
  - exact FNull.
  - constructor; [exact O|]. cbn [rlp_write] in L. pose proof (writeBytes_len b). lia.
  - cbn [rlp_write] in *. apply rlp_ok_in in O. pose proof (writeList_len (concat (map rlp_write l))) as WL.
    apply (FList l (concat (map rlp_write l))); [|apply writeList_bytes; lia]. assert (L2 : zlen (concat (map rlp_write l)) < 2 ^ 32) by lia. clear L WL.
    induction l as [|t l IHl]; [constructor|]. cbn [map concat] in *. rewrite zlen_app in L2. inversion IH as [|? ? I1 I2]; subst. inversion O as [|? ? O1 O2]; subst.
    pose proof (zlen_nonneg _ (rlp_write t)). pose proof (zlen_nonneg _ (concat (map rlp_write l))). constructor; [apply I1; [assumption|lia]|apply IHl; try assumption; lia].
Qed.

(** ** Java *)
Definition gets {A} (p : parser A) (t : rlp) (a : A) : Prop := forall b rest, form t b -> p (b ++ rest) = Some (a, rest).
Lemma gets_leaf : forall A (p : parser A) b a, reads p (RBytes b) a -> gets p (RBytes b) a.
Proof. intros A p b a R x rest F. inversion F as [|? B L|]; subst. apply R. pose proof (bytes_len b B L). lia. Qed.
Lemma gets_bytes : forall b, gets readByteArray (RBytes b) b.
Proof. intros b x rest F. inversion F as [|? B L|]; subst. apply reads_bytes; [exact B|]. pose proof (bytes_len b B L). lia. Qed.
Lemma gets_big : forall z, gets readBigInteger (int_item z) z.
Proof. intros z. apply gets_leaf. apply reads_big. Qed.
Lemma gets_long : forall z, - 2 ^ 63 <= z < 2 ^ 63 -> gets readLong (int_item z) z.
Proof. intros z R b rest F. unfold readLong, pbind. rewrite (gets_big z b rest F). replace ((_ <=? z) && (z <? _)) with true by lia. reflexivity. Qed.
Lemma gets_nullable : forall o, gets readNullable (opt_item o) o.
Proof.
  intros [t|] b rest F; cbn [opt_item] in F.
  - inversion F as [|? B L|]; subst. apply (reads_nullable (Some t)); [exact B|]. cbn [opt_item]. pose proof (bytes_len t B L). lia.
  - inversion F; subst. unfold readNullable. change [248; 0] with writeNull. rewrite readBytes_null. reflexivity.
Qed.
Lemma bind_gets : forall A B (p : parser A) (f : A -> parser B) t a b rest, gets p t a -> form t b -> pbind p f (b ++ rest) = f a rest.
Proof. intros A B p f t a b rest G F. unfold pbind. rewrite (G b rest F). reflexivity. Qed.
Lemma gets_inList : forall A (p : parser A) ts a, (forall body, forms ts body -> exists r, p body = Some (a, r)) -> gets (inList p) (RList ts) a.
Proof. intros A p ts a G b rest F. inversion F as [| |? body ? Fs W]; subst. destruct (G body Fs) as (r & E). apply (inList_bytes _ p b body a r rest W E). Qed.
Lemma many_gets : forall A (p : parser A) ts xs body fuel, Forall2 (gets p) ts xs -> forms ts body -> (length body <= fuel)%nat -> many p fuel body = Some (xs, []).
Proof.
  intros A p ts xs body fuel G. revert body fuel. induction G as [|t x ts xs G1 G IH]; intros body fuel F L; inversion F as [|? ? b r F1 F2]; subst.
  - destruct fuel; reflexivity.
  - pose proof (form_len _ _ F1) as P. rewrite app_length in L. unfold zlen in P. destruct fuel as [|fuel]; [lia|]. cbn [many].
    destruct (b ++ r) as [|c s] eqn:E; [apply app_eq_nil in E as [-> _]; cbn [length] in P; lia|]. rewrite <- E, (G1 b r F1), (IH r fuel F2) by lia. reflexivity.
Qed.
Lemma gets_listOf : forall A (p : parser A) ts xs, Forall2 (gets p) ts xs -> gets (listOf p) (RList ts) xs.
Proof. intros A p ts xs G. apply gets_inList. intros body F. exists []. apply (many_gets A p ts xs body _ G F). lia. Qed.
Lemma gets_none : forall A (p : parser A), gets (readNullableOf p) RNull None.
Proof. intros A p b rest F. inversion F; subst. unfold readNullableOf. change [248; 0] with writeNull. rewrite readList_null. reflexivity. Qed.
Lemma not_null : forall t b rest r, form t b -> t <> RNull -> readList (b ++ rest) = RNil r -> False.
Proof.
  intros t b rest r F N E. destruct F as [|b B L|ts body b Fs W]; [congruence| |].
  - cbn [rlp_write] in E. destruct (writeBytes_header b B ltac:(lia)) as [(x & -> & Hx & Ex)|(_ & h & Eh & _ & Hs & Hb)].
    + rewrite Ex in E. cbn [app readList] in E. replace (x <? 192) with true in E by lia. discriminate.
    + rewrite Eh in E. pose proof (zlen_nonneg _ b). destruct (Z_le_dec (zlen b) 55) as [Q|Q].
      * rewrite (Hs Q) in E. cbn [app readList] in E. replace (128 + zlen b <? 192) with true in E by lia. discriminate.
      * rewrite (Hb ltac:(lia)) in E. destruct (sizeToBytes_spec (zlen b) ltac:(lia)) as (_ & S8 & _). rewrite <- app_assoc in E. cbn [app readList] in E.
        replace (183 + zlen (sizeToBytes (zlen b)) <? 192) with true in E by lia. discriminate.
  - pose proof (zlen_nonneg _ body). destruct W as [(L & ->) | (L & sz & S & B & V & ->)]; cbn [app readList] in E.
    + replace (192 + zlen body <? 192) with false in E by lia. replace (192 + zlen body <=? 247) with true in E by lia. rewrite limited_app in E by lia. discriminate.
    + replace (247 + zlen sz <? 192) with false in E by lia. replace (247 + zlen sz <=? 247) with false in E by lia. unfold readSize in E. rewrite <- app_assoc, read_full_app in E by lia.
      rewrite bytesToSize_small in E by (assumption || lia). rewrite V in E. replace (zlen body =? 0) with false in E by lia. rewrite andb_false_r, limited_app in E by reflexivity. discriminate.
Qed.
Lemma gets_some : forall A (p : parser A) t a, t <> RNull -> gets p t a -> gets (readNullableOf p) t (Some a).
Proof.
  intros A p t a N G b rest F. unfold readNullableOf. destruct (readList (b ++ rest)) eqn:E; try (rewrite (G b rest F); reflexivity).
  exfalso. exact (not_null _ _ _ _ F N E).
Qed.
Lemma fromBytes_gets : forall A (p : parser A) t a b, gets p t a -> form t b -> fromBytes p b = Some a.
Proof. intros A p t a b G F. unfold fromBytes. rewrite <- (app_nil_r b), (G b [] F). reflexivity. Qed.
Ltac go F G := let b := fresh "b" in let r := fresh "r" in let F1 := fresh "F" in let F2 := fresh "F" in
  inversion F as [|? ? b r F1 F2]; subst; clear F; rename F2 into F; rewrite (bind_gets _ _ _ _ _ _ _ _ G F1).

(** ** Solidity *)
Definition held (it : sitem) (t : rlp) : Prop := exists b, form t b /\ i_len it = zlen b /\ placed (i_mem it) 0 b /\ mem_ok (i_mem it).
Lemma held_bytes : forall it b, held it (RBytes b) -> holds it (RBytes b).
Proof. intros it b (x & F & L & P & M). inversion F as [|? B Lb|]; subst. pose proof (bytes_len b B Lb). split; [exact B|]. split; [lia|]. split; [exact L|]. split; assumption. Qed.
Lemma held_null : forall it, held it RNull -> holds it RNull.
Proof. intros it (x & F & L & P & M). inversion F; subst. split; [exact I|]. split; [cbn; lia|]. split; [exact L|]. split; assumption. Qed.
Lemma toItem_held : forall junk t b, (forall x, mem_ok (junk x)) -> form t b -> held (toRlpItem junk b) t.
Proof.
  intros junk t b J F. exists b. split; [exact F|]. pose proof (form_ok _ _ F) as B. split; [reflexivity|]. split.
  - intros i x E. rewrite Z.add_0_l. assert (Hi : (i < length b)%nat) by (apply nth_error_Some; congruence). unfold toRlpItem. cbn [i_mem].
    unfold zlen. replace (Z.of_nat i <? Z.of_nat (length b)) with true by lia. rewrite Nat2Z.id. apply nth_error_nth. assumption.
  - intros i. unfold toRlpItem. cbn [i_mem]. destruct (i <? zlen b); [|apply J]. destruct (Nat.lt_ge_cases (Z.to_nat i) (length b)) as [K|K]; [|rewrite nth_overflow by assumption; red; lia].
    apply (Forall_nth is_byte b); assumption.
Qed.
Lemma form_at : forall t b m p, form t b -> mem_ok m -> placed m p b -> itemLength m p = zlen b.
Proof.
  intros t b m p F M P. destruct F as [|b B L|ts body b Fs W].
  - exact (proj1 (L_SolRlp.item_at RNull m p I ltac:(cbn; lia) M P)).
  - pose proof (bytes_len b B L). exact (proj1 (L_SolRlp.item_at (RBytes b) m p B ltac:(lia) M P)).
  - pose proof (zlen_nonneg _ body). destruct W as [(L & ->) | (L & sz & S & B & V & ->)].
    + apply placed_cons in P as [P1 P2]. rewrite (proj1 (header_short m p (zlen body) 192 (or_intror eq_refl) ltac:(lia) P1)), zlen_cons. lia.
    + change (247 + zlen sz :: sz ++ body) with ((247 + zlen sz :: sz) ++ body) in P. apply placed_app in P as [P1 P2].
      rewrite (proj1 (header_long m p sz 247 (or_intror eq_refl) ltac:(lia) M P1)), V, zlen_cons, zlen_app. lia.
Qed.
Lemma pointers_forms : forall ts body m p fuel, forms ts body -> mem_ok m -> placed m p body -> (length body <= fuel)%nat ->
  Forall2 (fun q t => held (mkItem (itemLength m q) (fun i => m (q + i))) t) (pointers fuel m p (p + zlen body)) ts.
Proof.
  induction ts as [|t ts IH]; intros body m p fuel F M P L; inversion F as [|? ? b r F1 F2]; subst.
  - change (zlen (@nil Z)) with 0. rewrite Z.add_0_r. destruct fuel; cbn [pointers]; [constructor|]. replace (p <? p) with false by lia. constructor.
  - pose proof (form_len _ _ F1) as W. apply placed_app in P as [P1 P2]. rewrite app_length in L. rewrite zlen_app. pose proof (zlen_nonneg _ r) as R. unfold zlen in W.
    destruct fuel as [|fuel]; [lia|]. cbn [pointers]. unfold zlen in *. replace (p <? _) with true by lia.
    pose proof (form_at _ _ _ _ F1 M P1) as E. constructor.
    + rewrite E. exists b. split; [exact F1|]. split; [reflexivity|]. split; cbn [i_mem]; [intros i x Hx; rewrite Z.add_0_l; apply P1; assumption|intros i; apply M].
    + rewrite E. unfold zlen. rewrite Z.add_assoc. apply IH; try assumption. lia.
Qed.
Lemma held_list : forall it ts, held it (RList ts) -> isNull it = false /\ exists its, toList it = Some its /\ Forall2 held its ts.
Proof.
  intros it ts (b & F & L & P & M). inversion F as [| |? body ? Fs W]; subst. pose proof (zlen_nonneg _ body) as N.
  assert (H : exists off, payloadOffset (i_mem it) 0 = off /\ 1 <= off /\ zlen b = off + zlen body /\ placed (i_mem it) off body /\ 192 <= i_mem it 0 /\ isNull it = false).
  { destruct W as [(W1 & E) | (W1 & sz & S & BS & V & E)]; rewrite E in P.
    - apply placed_cons in P as [P1 P2]. destruct (header_short (i_mem it) 0 (zlen body) 192 (or_intror eq_refl) ltac:(lia) P1) as [_ H]. exists 1. rewrite H.
      split; [reflexivity|]. split; [lia|]. split; [rewrite E, zlen_cons; lia|]. split; [exact P2|]. split; [lia|]. unfold isNull. rewrite P1. lia.
    - change (247 + zlen sz :: sz ++ body) with ((247 + zlen sz :: sz) ++ body) in P. apply placed_app in P as [P1 P2].
      destruct (header_long (i_mem it) 0 sz 247 (or_intror eq_refl) ltac:(lia) M P1) as [_ H]. exists (zlen sz + 1). rewrite H. rewrite zlen_cons in P2.
      assert (LB : zlen b = zlen sz + 1 + zlen body) by (rewrite E, zlen_cons, zlen_app; lia).
      split; [reflexivity|]. split; [lia|]. split; [exact LB|]. split; [rewrite Z.add_0_l in P2; exact P2|].
      apply placed_cons in P1 as [P1 _]. split; [lia|]. unfold isNull. rewrite L. lia. }
  destruct H as (off & H1 & H2 & H3 & H4 & H5 & H6). split; [exact H6|]. unfold toList, isList. replace (i_len it =? 0) with false by lia. replace (i_mem it 0 <? 192) with false by lia. cbn [require sbind].
  eexists. split; [reflexivity|]. rewrite H1, L, H3.
  pose proof (pointers_forms ts body (i_mem it) off (Z.to_nat (off + zlen body)) Fs M H4 ltac:(unfold zlen in *; lia)) as K.
  clear - K. induction K; cbn [map]; constructor; auto.
Qed.
Lemma list_of_form : forall junk ts b, (forall x, mem_ok (junk x)) -> form (RList ts) b -> exists its, list_of junk b = Some its /\ Forall2 held its ts.
Proof. intros junk ts b J F. exact (proj2 (held_list _ _ (toItem_held junk _ b J F))). Qed.
Lemma held_text : forall it b, held it (RBytes b) -> toBytes it = Some b.
Proof. intros it b H. apply (toBytes_holds _ _ (held_bytes _ _ H)). Qed.
Lemma held_opt : forall it o, held it (opt_item o) -> toBytes it = filled o.
Proof. intros it [d|] H; apply opt_payload; [apply held_bytes|apply held_null]; exact H. Qed.
Lemma held_uint : forall it n, held it (int_item n) -> 0 <= n < 2 ^ 255 -> toUint it = Some n.
Proof. intros it n H R. apply (proj1 (C60_numbers_read it n)); [apply held_bytes; exact H|exact R]. Qed.
Lemma held_int : forall it n, held it (int_item n) -> - 2 ^ 247 <= n < 2 ^ 255 -> toInt it = Some n.
Proof. intros it n H R. apply (proj2 (proj2 (C60_numbers_read it n))); [apply held_bytes; exact H|exact R]. Qed.
Lemma map_opt_held : forall A (f : sitem -> option A) (w : A -> rlp) (P : A -> Prop) (g : A -> A), (forall it a, held it (w a) -> P a -> f it = Some (g a)) ->
  forall its l, Forall2 held its (map w l) -> Forall P l -> map_opt f its = Some (map g l).
Proof.
  intros A f w P g H its l. revert its. induction l as [|a l IH]; intros its F Q; cbn [map] in F; inversion F; subst; [reflexivity|].
  cbn [map_opt map]. rewrite (H _ a) by (assumption || exact (Forall_inv Q)). rewrite IH by (assumption || exact (Forall_inv_tail Q)). reflexivity.
Qed.
