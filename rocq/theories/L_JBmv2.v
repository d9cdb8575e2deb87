(** Lemmas for the Java BTP block verifier: what a signed header commits to. *)
From Coq Require Import String Ascii ZArith List Bool Lia.
From Coq Require Import ZifyBool.
From Verif Require Import Base L_Base M_IntConv S_IntConv L_IntConv T_IntConv M_Rlp S_Rlp L_Rlp T_Rlp S_Mbt M_JBmv S_JBmv.
Import ListNotations.
Open Scope Z_scope.

Lemma hash_inj : forall H x y, H x = H y -> x = y \/ collision H.
Proof. intros H x y E. destruct (list_eq_dec Z.eq_dec x y) as [->|N]; [auto|]. right. exists x, y. auto. Qed.

Lemma int_item_inj : forall a b, int_item a = int_item b -> a = b.
Proof. intros a b E. injection E as E. apply C01_bigint_injective. exact E. Qed.
Lemma opt_item_inj : forall a b, opt_item a = opt_item b -> a = b.
Proof. intros [a|] [b|] E; cbn in E; congruence. Qed.
Lemma int_item_ok : forall z, rlp_ok (int_item z).
Proof. intros z. cbn [int_item rlp_ok]. apply (BigIntToBytes_shortest z). Qed.
Definition opt_ok (o : option (list Z)) : Prop := match o with Some b => bytes_ok b | None => True end.
Lemma opt_item_ok : forall o, opt_ok o -> rlp_ok (opt_item o).
Proof. intros [b|] Ho; cbn [opt_item rlp_ok]; auto. Qed.

Lemma enc_inj : forall a b, rlp_ok a -> rlp_ok b -> short (rlp_write b) -> rlp_write a = rlp_write b -> a = b.
Proof. intros a b A B S E. apply C09_injective; auto. rewrite E. exact S. Qed.

Lemma ns_inj : forall s s', rlp_ok (ns_items s) -> rlp_ok (ns_items s') -> short (ns_enc s') -> ns_enc s = ns_enc s' -> s = s'.
Proof.
  intros [a1 a2 a3 a4 a5] [b1 b2 b3 b4 b5] A B S E. apply enc_inj in E; auto.
  unfold ns_items in E. cbn [s_nid s_upd s_prev s_cnt s_root] in E. injection E as E1 E2 E3 E4 E5.
  apply C01_bigint_injective in E1, E2, E4. apply opt_item_inj in E3, E5. congruence.
Qed.

Lemma ns_ok : forall s, opt_ok (s_prev s) -> opt_ok (s_root s) -> rlp_ok (ns_items s).
Proof.
  intros s P R. unfold ns_items. cbn [rlp_ok fold_right]. repeat split; try apply int_item_ok; apply opt_item_ok; assumption.
Qed.

(** * The root of all sections *)
Definition one_step (H : list Z -> list Z) (leaf r : list Z) : Prop :=
  r = leaf \/ (exists v, zlen v = 32 /\ (r = H (v ++ leaf) \/ r = H (leaf ++ v))).

Lemma concatAndHash_spec : forall H a b r, concatAndHash H a b = Some r -> zlen (firstn 32 a) = 32 /\ zlen (firstn 32 b) = 32 /\ r = H (firstn 32 a ++ firstn 32 b).
Proof.
  intros H a b r E. unfold concatAndHash in E. destruct ((length a <? 32)%nat || (length b <? 32)%nat) eqn:L; [discriminate|].
  injection E as <-. unfold zlen. rewrite !firstn_length. split; [lia|]. split; [lia|reflexivity].
Qed.

Lemma sections_root_spec : forall H leaf path r, zlen leaf = 32 -> getNetworkSectionsRoot H leaf path = Some r -> one_step H leaf r.
Proof.
  intros H leaf path r L. unfold getNetworkSectionsRoot.
  assert (F : firstn 32 leaf = leaf) by (apply firstn_all2; unfold zlen in L; lia).
  assert (G : forall path o, (forall h, o = Some h -> one_step H leaf h) -> fold_left (fun o e => obind o (fun h =>
      if fst e =? 0 then concatAndHash H (snd e) leaf else if fst e =? 1 then concatAndHash H leaf (snd e) else Some h)) path o = Some r -> one_step H leaf r).
  { clear path. induction path as [|[d v] path IH]; intros o Ho E; cbn [fold_left] in E; [auto|].
    apply IH in E; [exact E|]. intros h Eh. destruct o as [h0|]; cbn [obind fst snd] in Eh; [|discriminate].
    destruct (d =? 0); [|destruct (d =? 1)].
    - apply concatAndHash_spec in Eh as (A & B & ->). rewrite F. right. eauto.
    - apply concatAndHash_spec in Eh as (A & B & ->). rewrite F. right. eauto.
    - injection Eh as <-. auto. }
  apply G. intros h E. injection E as <-. left. reflexivity.
Qed.

Lemma nst_root_len : forall H t, digest_size H 32 -> zlen (nst_root H t) = 32.
Proof. intros H [s|l r] D; cbn [nst_root]; apply D. Qed.
Lemma nst_root_hash : forall H t, exists x, nst_root H t = H x.
Proof. intros H [s|l r]; cbn [nst_root]; eauto. Qed.

Lemma zlen_app_eq : forall A (a b c d : list A), a ++ b = c ++ d -> zlen a = zlen c -> a = c /\ b = d.
Proof.
  induction a as [|x a IH]; intros b [|y c] d E L; rewrite ?zlen_cons in L; cbn [app] in E; auto.
  - pose proof (zlen_nonneg _ c). change (zlen (@nil A)) with 0 in L. lia.
  - pose proof (zlen_nonneg _ a). change (zlen (@nil A)) with 0 in L. lia.
  - injection E as -> E. destruct (IH _ _ _ E) as [-> ->]; [lia|auto].
Qed.

(** A section that the verifier reaches from a root is a section of the tree. *)
Lemma root_commits : forall H t s, digest_size H 32 -> one_step H (H (ns_enc s)) (nst_root H t) ->
  (exists s', in_tree s' t /\ ns_enc s = ns_enc s') \/ collision H \/ confusion H.
Proof.
  intros H t s D O.
  assert (Base : forall t, nst_root H t = H (ns_enc s) -> (exists s', in_tree s' t /\ ns_enc s = ns_enc s') \/ collision H \/ confusion H).
  { clear t O. intros [s'|l r] E; cbn [nst_root in_tree] in *.
    - apply hash_inj in E as [E|E]; [left; exists s'; auto|auto].
    - apply hash_inj in E as [E|E]; [|auto]. right; right. exists s, (nst_root H l), (nst_root H r).
      split; [auto|]. split; [apply nst_root_len; assumption|]. split; [apply nst_root_len; assumption|]. left. apply nst_root_hash. }
  destruct O as [O|(v & V & O)]; [auto|].
  destruct t as [s'|l r]; cbn [nst_root] in O.
  - right. destruct O as [O|O]; apply hash_inj in O as [O|O]; auto; right.
    + exists s', v, (H (ns_enc s)). split; [auto|]. split; [auto|]. split; [apply D|]. eauto.
    + exists s', (H (ns_enc s)), v. split; [auto|]. split; [apply D|]. split; [auto|]. eauto.
  - destruct O as [O|O]; apply hash_inj in O as [O|O]; auto; apply zlen_app_eq in O as [O1 O2]; rewrite ?nst_root_len, ?D, ?V by assumption; try reflexivity.
    + destruct (Base r O2) as [(s' & I & E)|C]; [left; exists s'; cbn [in_tree]; auto|auto].
    + destruct (Base l O1) as [(s' & I & E)|C]; [left; exists s'; cbn [in_tree]; auto|auto].
Qed.

(** * Decisions *)
Lemma dec_items_inj : forall src ntid h1 r1 x1 h2 r2 x2, dec_items src ntid h1 r1 x1 = dec_items src ntid h2 r2 x2 -> h1 = h2 /\ r1 = r2 /\ x1 = x2.
Proof.
  intros src ntid h1 r1 x1 h2 r2 x2 E. unfold dec_items in E. injection E as E1 E2 E3. apply C01_bigint_injective in E1, E2. auto.
Qed.
Lemma nts_items_inj : forall c1 x1 c2 x2, nts_items c1 x1 = nts_items c2 x2 -> c1 = c2 /\ x1 = x2.
Proof. intros c1 x1 c2 x2 E. unfold nts_items in E. injection E as E1 E2. apply opt_item_inj in E1. auto. Qed.

Lemma decision_commits : forall H src ntid h1 r1 c1 root1 h2 r2 c2 root2, hash32 H -> bytes_ok src -> opt_ok c1 -> opt_ok c2 -> bytes_ok root1 -> bytes_ok root2 ->
  short (rlp_write (dec_items src ntid h2 r2 (H (rlp_write (nts_items c2 root2))))) -> short (rlp_write (nts_items c2 root2)) ->
  dec_hash H src ntid h1 r1 c1 root1 = dec_hash H src ntid h2 r2 c2 root2 -> (h1 = h2 /\ r1 = r2 /\ c1 = c2 /\ root1 = root2) \/ collision H.
Proof.
  intros H src ntid h1 r1 c1 root1 h2 r2 c2 root2 [D B] S C1 C2 R1 R2 L1 L2 E. unfold dec_hash in E.
  apply hash_inj in E as [E|E]; [|auto]. apply enc_inj in E; auto.
  2,3: unfold dec_items; cbn [rlp_ok fold_right]; repeat split; auto; apply int_item_ok.
  apply dec_items_inj in E as (E1 & E2 & E3).
  apply hash_inj in E3 as [E3|E3]; [|auto]. apply enc_inj in E3; auto.
  2,3: unfold nts_items; cbn [rlp_ok fold_right]; repeat split; auto; apply opt_item_ok; assumption.
  apply nts_items_inj in E3 as [E4 E5]. left. auto.
Qed.

(** * Votes *)
Lemma existsb_bytes : forall a l, existsb (bytes_eqb a) l = true <-> In a l.
Proof.
  intros a l. rewrite existsb_exists. split.
  - intros (x & I & E). apply bytes_eqb_eq in E. subst. exact I.
  - intros I. exists a. split; [exact I|apply bytes_eqb_refl].
Qed.

Lemma recoverAddress_signs : forall H recover d s a, digest_size H 32 -> recoverAddress H recover d s = Some a <-> signs H recover d s a.
Proof.
  intros H recover d s a D. unfold recoverAddress, signs.
  assert (F : forall k, (length (H k) <? 32)%nat = false /\ firstn 20 (skipn 12 (H k)) = skipn 12 (H k)).
  { intros k. specialize (D k). unfold zlen in D. split; [lia|]. apply firstn_all2. rewrite skipn_length. lia. }
  split.
  - intros E. destruct (recover d s) as [[|c k]|] eqn:R; cbn [obind] in E; try discriminate.
    destruct (F k) as [F1 F2]. rewrite F1, F2 in E. injection E as <-. eauto.
  - intros (c & k & R & ->). rewrite R. cbn [obind]. destruct (F k) as [F1 F2]. rewrite F1, F2. reflexivity.
Qed.

Lemma count_votes_spec : forall H recover vs d sigs seen out, digest_size H 32 -> count_votes H recover vs d sigs seen = Some out ->
  exists new, out = seen ++ new /\ Forall2 (signs H recover d) sigs new /\ (forall a, In a new -> In a vs) /\ (NoDup seen -> NoDup out).
Proof.
  intros H recover vs d sigs. induction sigs as [|s sigs IH]; intros seen out D E; cbn [count_votes] in E.
  - injection E as <-. exists []. rewrite app_nil_r. repeat split; auto. intros a [].
  - destruct (recoverAddress H recover d s) as [a|] eqn:R; cbn [obind] in E; [|discriminate].
    destruct (existsb (bytes_eqb a) vs) eqn:V; cbn [negb] in E; [|discriminate].
    destruct (existsb (bytes_eqb a) seen) eqn:W; [discriminate|].
    destruct (IH _ _ D E) as (new & -> & F & I & N). exists (a :: new). rewrite <- app_assoc. split; [reflexivity|].
    split; [constructor; [apply recoverAddress_signs; assumption|assumption]|]. split.
    + intros x [<-|Hx]; [apply existsb_bytes; exact V|auto].
    + intros Hs. rewrite <- app_assoc in N. apply N. rewrite <- rev_involutive. apply NoDup_rev. rewrite rev_app_distr. cbn [rev app]. constructor.
      * rewrite <- in_rev. intros Hin. apply existsb_bytes in Hin. congruence.
      * apply NoDup_rev. exact Hs.
Qed.

Lemma Forall2_zlen : forall A B (R : A -> B -> Prop) a b, Forall2 R a b -> zlen a = zlen b.
Proof. induction 1; [reflexivity|]. rewrite !zlen_cons. lia. Qed.

Lemma verifyProof_quorum : forall H recover p d sigs, digest_size H 32 -> verifyProof H recover p d sigs = Some tt ->
  exists vs, ctx_validators (p_ctx p) = Some vs /\ quorum H recover vs d.
Proof.
  intros H recover p d sigs D E. unfold verifyProof in E. destruct (ctx_validators (p_ctx p)) as [vs|]; cbn [obind] in E; [|discriminate].
  destruct (count_votes H recover vs d sigs []) as [seen|] eqn:C; cbn [obind] in E; [|discriminate].
  unfold check in E. destruct (Z.ltb_spec (zlen vs * 2) (zlen seen * 3)); [|discriminate].
  destruct (count_votes_spec _ _ _ _ _ _ _ D C) as (new & -> & F & I & N). cbn [app] in *.
  exists vs. split; [reflexivity|]. exists new. split; [apply N; constructor|]. split; [|lia].
  intros a Ha. split; [auto|]. clear - F Ha. induction F; [contradiction|]. destruct Ha as [<-|Ha]; eauto.
Qed.
