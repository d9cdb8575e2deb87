(** Lemmas for the wire format. *)
From Coq Require Import String Ascii ZArith List Bool Lia.
From Coq Require Import ZifyBool.
From Verif Require Import Base L_Base M_IntConv S_IntConv L_IntConv M_Rlp S_Rlp L_Rlp M_Codec S_Codec L_Codec M_Mbt M_JBmv S_JBmv M_Wire S_Wire.
Import ListNotations.
Open Scope Z_scope.

Lemma big_ok : forall z, bytes_ok (BigIntToBytes z) /\ BigIntSetBytes (BigIntToBytes z) = z /\ BigIntToBytes z <> [].
Proof.
  intros z. destruct (BigIntToBytes_shortest z) as (H1 & H2 & H3 & _). split; [assumption|]. split; [|assumption].
  rewrite <- H3 at 2. apply BigIntSetBytes_spec. assumption.
Qed.

(** ** Reading single items and lists *)
Definition reads {A} (p : parser A) (t : rlp) (a : A) : Prop := zlen (rlp_write t) < 2 ^ 63 -> forall rest, p (rlp_write t ++ rest) = Some (a, rest).

Lemma small_b : forall b, zlen (rlp_write (RBytes b)) < 2 ^ 63 -> zlen b < 2 ^ 63.
Proof. intros b H. cbn [rlp_write] in H. pose proof (writeBytes_len b). lia. Qed.
Lemma reads_bytes : forall b, bytes_ok b -> reads readByteArray (RBytes b) b.
Proof. intros b B L rest. apply small_b in L. unfold readByteArray. cbn [rlp_write]. rewrite readBytes_write by assumption. reflexivity. Qed.
Lemma reads_nullable : forall o, opt_bytes o -> reads readNullable (opt_item o) o.
Proof.
  intros [b|] B L rest; unfold readNullable; cbn [opt_item] in *.
  - apply small_b in L. cbn [rlp_write]. rewrite readBytes_write by assumption. reflexivity.
  - cbn [rlp_write]. rewrite readBytes_null. reflexivity.
Qed.
Lemma reads_big : forall z, reads readBigInteger (int_item z) z.
Proof.
  intros z L rest. destruct (big_ok z) as (B & E & N). unfold readBigInteger, pbind. unfold int_item in *. rewrite reads_bytes by assumption.
  destruct (BigIntToBytes z); [congruence|]. rewrite E. reflexivity.
Qed.
Lemma reads_nbig : forall z, reads readNullableBig (int_item z) (Some z).
Proof.
  intros z L rest. destruct (big_ok z) as (B & E & N). unfold readNullableBig, pbind.
  pose proof (reads_nullable (Some (BigIntToBytes z)) B L rest) as R. unfold int_item, opt_item in *. rewrite R.
  destruct (BigIntToBytes z); [congruence|]. rewrite E. reflexivity.
Qed.
Lemma reads_int : forall z, fits_int z -> reads readInt (int_item z) z.
Proof. intros z F L rest. unfold readInt, pbind, fits_int in *. rewrite reads_big by assumption. replace ((_ <=? z) && (z <? _)) with true by lia. reflexivity. Qed.

Lemma bind_reads : forall A B (p : parser A) (f : A -> parser B) t a rest, reads p t a -> zlen (rlp_write t) < 2 ^ 63 ->
  pbind p f (rlp_write t ++ rest) = f a rest.
Proof. intros A B p f t a rest R L. unfold pbind. rewrite R by assumption. reflexivity. Qed.

Lemma reads_inList : forall A (p : parser A) l a r, (Forall (fun t => zlen (rlp_write t) < 2 ^ 63) l -> p (concat (map rlp_write l)) = Some (a, r)) -> reads (inList p) (RList l) a.
Proof.
  intros A p l a r E L rest. destruct (small_children l L) as [L1 L2]. unfold inList. cbn [rlp_write]. rewrite readList_write by assumption.
  rewrite (E L2). reflexivity.
Qed.
Lemma reads_inNull : forall A (p : parser A) a r, p [] = Some (a, r) -> reads (inList p) RNull a.
Proof. intros A p a r E L rest. unfold inList. cbn [rlp_write]. rewrite readList_null, E. reflexivity. Qed.

Lemma many_reads : forall A (p : parser A) ts xs fuel, Forall2 (reads p) ts xs -> Forall (fun t => zlen (rlp_write t) < 2 ^ 63) ts ->
  (length (concat (map rlp_write ts)) <= fuel)%nat -> many p fuel (concat (map rlp_write ts)) = Some (xs, []).
Proof.
  intros A p ts xs fuel R. revert fuel. induction R as [|t x ts xs R1 R IH]; intros fuel L F; cbn [map concat] in *; [destruct fuel; reflexivity|].
  inversion L as [|? ? L1 L2]; subst. pose proof (rlp_write_pos t) as P. rewrite app_length in F. unfold zlen in P.
  destruct fuel as [|fuel]; [lia|]. cbn [many]. destruct (rlp_write t ++ concat (map rlp_write ts)) as [|b s] eqn:E.
  - apply app_eq_nil in E as [E _]. rewrite E in P. cbn [length] in P. lia.
  - rewrite <- E, R1 by assumption. rewrite IH; [reflexivity|assumption|lia].
Qed.
Lemma reads_listOf : forall A (p : parser A) ts xs, Forall2 (reads p) ts xs -> reads (listOf p) (RList ts) xs.
Proof. intros A p ts xs R. unfold listOf. eapply reads_inList. intros L. apply many_reads; auto. Qed.
Lemma reads_listNull : forall A (p : parser A), reads (listOf p) RNull [].
Proof. intros A p. unfold listOf. eapply reads_inNull. reflexivity. Qed.
Lemma Forall2_map_l : forall A B (R : rlp -> B -> Prop) (f : A -> rlp) (g : A -> B) l, Forall (fun x => R (f x) (g x)) l -> Forall2 R (map f l) (map g l).
Proof. intros A B R f g l F. induction F; constructor; auto. Qed.
Lemma Forall2_self : forall A (R : rlp -> A -> Prop) (f : A -> rlp) l, Forall (fun x => R (f x) x) l -> Forall2 R (map f l) l.
Proof. intros A R f l F. induction F; constructor; auto. Qed.
Lemma fromBytes_reads : forall A (p : parser A) t a, reads p t a -> zlen (rlp_write t) < 2 ^ 63 -> fromBytes p (rlp_write t) = Some a.
Proof. intros A p t a R L. unfold fromBytes. rewrite <- (app_nil_r (rlp_write t)), R by assumption. reflexivity. Qed.

Ltac step R := erewrite bind_reads; [|apply R|assumption].
Ltac inv_small F := repeat match type of F with Forall _ (_ :: _) => let L := fresh "L" in let F' := fresh in inversion F as [|? ? L F']; clear F; subst; rename F' into F end.

(** ** The pieces *)
Lemma reads_path : forall x, fits_int (fst x) -> bytes_ok (snd x) -> reads readPathElement (path_item x) x.
Proof.
  intros [d v] F B. cbn [fst snd] in *. unfold readPathElement, path_item. eapply reads_inList. intros L. inv_small L. cbn [map concat fst snd] in *.
  step (reads_int d F). step (reads_bytes v B). reflexivity.
Qed.
Lemma reads_pnode : forall n, wire_node_ok n -> reads readProofNode (pnode_item n) n.
Proof.
  intros [n v] [F B]. cbn [p_num p_value] in *. unfold readProofNode, pnode_item. eapply reads_inList. intros L. inv_small L. cbn [map concat p_num p_value] in *.
  step (reads_int n F). step (reads_bytes v B). reflexivity.
Qed.
Lemma reads_pnodes : forall all l, Forall wire_node_ok l -> (all = true -> l = []) -> reads (listOf readProofNode) (pnodes_item all l) l.
Proof.
  intros [|] l F E; unfold pnodes_item.
  - rewrite E by reflexivity. apply reads_listNull.
  - apply reads_listOf. apply Forall2_self. apply Forall_impl with (2 := F). intros n Fn. apply reads_pnode. assumption.
Qed.
Lemma reads_strings : forall l, Forall bytes_ok l -> reads (listOf readByteArray) (RList (map RBytes l)) l.
Proof. intros l F. apply reads_listOf. apply Forall2_self. apply Forall_impl with (2 := F). intros b B. apply reads_bytes. assumption. Qed.
Lemma reads_proof : forall all m, wire_proof_ok all m -> reads readMessageProof (proof_item all m) m.
Proof.
  intros all [l c r] (W1 & W2 & W3 & W4). cbn [p_left p_contents p_right] in *. unfold readMessageProof, proof_item. eapply reads_inList. intros L. inv_small L.
  cbn [map concat p_left p_contents p_right] in *.
  step (reads_pnodes all l W1 (fun e => proj1 (W4 e))). step (reads_strings c W2). step (reads_pnodes all r W3 (fun e => proj2 (W4 e))). reflexivity.
Qed.
Lemma reads_header : forall h, wire_header_ok h -> reads readHeader (header_item h) h.
Proof.
  intros [he ro ch pa ni up pr cn rt cx] (W1 & W2 & W3 & W4 & W5). cbn [hd_height hd_round hd_nextCtxHash hd_path hd_nid hd_upd hd_prev hd_cnt hd_root hd_nextCtx] in *.
  unfold readHeader, header_item. eapply reads_inList. intros L. inv_small L. cbn [map concat hd_height hd_round hd_nextCtxHash hd_path hd_nid hd_upd hd_prev hd_cnt hd_root hd_nextCtx] in *.
  step (reads_nbig he). step (reads_nbig ro). step (reads_nullable ch W1).
  assert (R : reads (listOf readPathElement) (RList (map path_item pa)) pa).
  { apply reads_listOf, Forall2_self. apply Forall_impl with (2 := W5). intros x [X1 X2]. apply reads_path; assumption. }
  step R. step (reads_big ni). step (reads_big up). step (reads_nullable pr W2). step (reads_big cn). step (reads_nullable rt W3). step (reads_nullable cx W4). reflexivity.
Qed.
Lemma reads_sigs : forall s, Forall bytes_ok s -> reads readProofs (sigs_item s) s.
Proof.
  intros s F. unfold readProofs, sigs_item. eapply reads_inList. intros L. inv_small L. cbn [map concat] in *. rewrite reads_strings by assumption. reflexivity.
Qed.

(** ** Bytes stay bytes *)
Lemma sizeToBytes_bytes : forall l, 56 <= l < 2 ^ 63 -> bytes_ok (sizeToBytes l).
Proof. intros l H. destruct (sizeToBytes_spec l H) as ((B & _) & _). exact B. Qed.
Lemma writeBytes_ok : forall b, bytes_ok b -> zlen b < 2 ^ 63 -> bytes_ok (writeBytes (Some b)).
Proof.
  intros b B L. destruct (writeBytes_header b B L) as [(x & -> & Hx & ->)|(_ & h & -> & _ & Hs & Hb)]; [assumption|].
  apply Forall_app. split; [|assumption]. pose proof (zlen_nonneg _ b). destruct (Z.le_gt_cases (zlen b) 55) as [E|E].
  - rewrite (Hs E). repeat constructor; lia.
  - rewrite Hb by lia. destruct (sizeToBytes_spec (zlen b)) as ((B1 & _) & B2 & _); [lia|]. constructor; [unfold is_byte; lia|assumption].
Qed.
Lemma writeList_ok : forall b, bytes_ok b -> zlen b < 2 ^ 63 -> bytes_ok (writeList b).
Proof.
  intros b B L. destruct (writeList_header b L) as (h & -> & _ & Hs & Hb).
  apply Forall_app. split; [|assumption]. pose proof (zlen_nonneg _ b). destruct (Z.le_gt_cases (zlen b) 55) as [E|E].
  - rewrite (Hs E). repeat constructor; lia.
  - rewrite Hb by lia. destruct (sizeToBytes_spec (zlen b)) as ((B1 & _) & B2 & _); [lia|]. constructor; [unfold is_byte; lia|assumption].
Qed.
Lemma rlp_write_ok : forall t, rlp_ok t -> zlen (rlp_write t) < 2 ^ 63 -> bytes_ok (rlp_write t).
Proof.
  induction t as [|b|l IH] using rlp_ind2; intros O L.
  - cbn [rlp_write]. repeat constructor; lia.
  - cbn [rlp_write]. apply writeBytes_ok; [exact O|]. apply small_b. exact L.
  - destruct (small_children l L) as [L1 L2]. cbn [rlp_write]. apply writeList_ok; [|assumption]. apply rlp_ok_in in O. clear L L1.
    induction l as [|t l IHl]; cbn [map concat]; [constructor|]. inversion IH as [|? ? I1 I2]; subst. inversion O as [|? ? O1 O2]; subst. inversion L2 as [|? ? K1 K2]; subst.
    apply Forall_app. split; [apply I1; assumption|apply IHl; assumption].
Qed.
Lemma rlp_ok_list : forall l, Forall rlp_ok l -> rlp_ok (RList l).
Proof. intros l F. cbn [rlp_ok]. induction F; cbn [fold_right]; auto. Qed.
Lemma int_ok : forall z, rlp_ok (int_item z).
Proof. intros z. apply big_ok. Qed.
Lemma opt_item_ok : forall o, opt_bytes o -> rlp_ok (opt_item o).
Proof. intros [b|] B; exact B. Qed.
Lemma strings_ok : forall l, Forall bytes_ok l -> rlp_ok (RList (map RBytes l)).
Proof. intros l F. apply rlp_ok_list. apply Forall_map. exact F. Qed.
Lemma header_item_ok : forall h, wire_header_ok h -> rlp_ok (header_item h).
Proof.
  intros h (W1 & W2 & W3 & W4 & W5). apply rlp_ok_list. repeat (constructor; [first [apply int_ok|apply opt_item_ok; assumption|idtac]|]); [|constructor].
  apply rlp_ok_list, Forall_map. apply Forall_impl with (2 := W5). intros x [_ X]. apply rlp_ok_list. repeat constructor; [apply int_ok|exact X].
Qed.
Lemma sigs_item_ok : forall s, Forall bytes_ok s -> rlp_ok (sigs_item s).
Proof. intros s F. apply rlp_ok_list. repeat constructor. apply strings_ok. assumption. Qed.
Lemma pnodes_ok : forall all l, Forall wire_node_ok l -> rlp_ok (pnodes_item all l).
Proof.
  intros [|] l F; [exact I|]. apply rlp_ok_list, Forall_map. apply Forall_impl with (2 := F). intros n [_ B]. apply rlp_ok_list. repeat constructor; [apply int_ok|exact B].
Qed.
Lemma proof_item_ok : forall all m, wire_proof_ok all m -> rlp_ok (proof_item all m).
Proof. intros all m (W1 & W2 & W3 & _). apply rlp_ok_list. repeat constructor; [apply pnodes_ok|apply strings_ok|apply pnodes_ok]; assumption. Qed.

Lemma ok_two : forall a b, rlp_ok a -> rlp_ok b -> rlp_ok (RList [a; b]).
Proof. intros a b A B. cbn [rlp_ok fold_right]. auto. Qed.
Lemma update_ok : forall h s, wire_header_ok h -> Forall bytes_ok s -> zlen (rlp_write (RList [RBytes (header_wire h); RBytes (sigs_wire s)])) < 2 ^ 63 ->
  rlp_ok (RList [RBytes (header_wire h); RBytes (sigs_wire s)]).
Proof.
  intros h s F1 F2 L. apply small_children in L as [_ L]. inv_small L. apply small_b in L0, L1.
  apply ok_two; apply rlp_write_ok; try assumption; [apply header_item_ok|apply sigs_item_ok]; assumption.
Qed.
Lemma two_small : forall a b, zlen (rlp_write (RList [a; b])) < 2 ^ 63 -> zlen (rlp_write a) < 2 ^ 63 /\ zlen (rlp_write b) < 2 ^ 63.
Proof. intros a b L. apply small_children in L as [_ L]. inv_small L. auto. Qed.

Lemma reads_update : forall h sigs, wire_header_ok h -> Forall bytes_ok sigs ->
  reads readBlockUpdate (RList [RBytes (header_wire h); RBytes (sigs_wire sigs)]) (h, Some sigs).
Proof.
  intros h sigs Wh Ws L rest. destruct (two_small _ _ L) as [L1 L2].
  pose proof (small_b _ L1) as L3. pose proof (small_b _ L2) as L4. revert L rest. unfold readBlockUpdate. eapply reads_inList. intros _. cbn [map concat].
  assert (B1 : bytes_ok (header_wire h)) by (apply rlp_write_ok; [apply header_item_ok|]; assumption).
  assert (B2 : bytes_ok (sigs_wire sigs)) by (apply rlp_write_ok; [apply sigs_item_ok|]; assumption).
  step (reads_bytes _ B1). unfold header_wire at 1. rewrite (fromBytes_reads _ _ _ _ (reads_header h Wh) L3).
  step (reads_nullable (Some (sigs_wire sigs)) B2). unfold sigs_wire at 1. rewrite (fromBytes_reads _ _ _ _ (reads_sigs sigs Ws) L4). reflexivity.
Qed.
