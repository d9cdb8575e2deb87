(** Lemmas for the Solidity BTP block verifier: it reads what the relay writes. *)
From Coq Require Import String Ascii ZArith List Bool Lia.
From Coq Require Import ZifyBool.
From Verif Require Import Base L_Base M_IntConv M_Rlp S_Rlp L_Rlp M_Mbt M_JBmv S_JBmv M_Wire S_Wire L_Wire T_Wire M_SolRlp S_SolRlp L_SolRlp T_SolRlp M_Bridge T_BridgeWire
  M_SolBmv S_SolBmv L_SolBmv L_SolBmv3.
Import ListNotations.
Open Scope Z_scope.

Ltac next Hd i K := let r := fresh "r" in let K2 := fresh "K" in apply f2_cons in Hd as (i & r & -> & K & K2); clear Hd; rename K2 into Hd.

Section Read.
Variable junk : list Z -> mem.
Hypothesis J : forall x, mem_ok (junk x).

Lemma uint_holds : forall it n, holds it (int_item n) -> unsigned n -> toUint it = Some n.
Proof. intros it n K R. apply (proj1 (C60_numbers_read it n)); assumption. Qed.
Lemma opt_holds : forall it o, holds it (opt_item o) -> len32 o -> if_payload it (sbind (toBytes it) (fun h => Some (to32 h))) zero32 = Some (dflt32 o).
Proof.
  intros it o K L. unfold if_payload. rewrite (payloadLen_holds _ _ K), (toBytes_holds _ _ K). cbn [sbind]. destruct o as [b|]; cbn [opt_item payload dflt32 len32] in *; [|reflexivity].
  rewrite L. change (0 <? 32) with true. rewrite to32_id by assumption. reflexivity.
Qed.
Lemma validators_holds : forall addrs, Forall (fun a => bytes_ok a /\ zlen a = 20) addrs -> zlen (ctx_wire addrs) < 2 ^ 63 -> decodeValidators junk (ctx_wire addrs) = Some (map be_val addrs).
Proof.
  intros addrs F L. unfold decodeValidators, ctx_wire in *.
  assert (O : rlp_ok (RList [RList (map RBytes addrs)])).
  { apply rlp_ok_list. constructor; [|constructor]. apply strings_ok. revert F. apply Forall_impl. intros a [A _]. exact A. }
  destruct (list_of_holds junk J _ O L) as (its & -> & Hd). cbn [sbind]. next Hd i0 K0. unfold at_index. cbn [nth_error sbind]. destruct (toList_holds _ _ K0) as (rs & -> & Hr). cbn [sbind].
  refine (map_opt_holds _ _ _ _ _ _ Hr). apply Forall2_map. intros a I it K. rewrite Forall_forall in F. destruct (F a I) as [_ F2]. destruct (C60_item_read _ _ K) as (_ & _ & _ & _ & _ & _ & _ & _ & A & _). exact (A F2).
Qed.
Lemma path_holds : forall path it, holds it (RList (map path_item path)) -> Forall (fun x => fits_int (fst x) /\ bytes_ok (snd x)) path -> Forall (fun x => 0 <= fst x /\ zlen (snd x) = 32) path ->
  if_payload it (decodePath junk (toRlpBytes it)) [] = Some path.
Proof.
  intros path it K F1 F2. unfold if_payload. rewrite (payloadLen_holds _ _ K), (toRlpBytes_holds _ _ K). cbn [sbind payload]. pose proof K as (O & L & _). destruct path as [|x path]; [reflexivity|].
  set (l := x :: path) in *. replace (0 <? zlen (concat (map rlp_write (map path_item l)))) with true.
  2:{ unfold l. cbn [map concat]. rewrite zlen_app. pose proof (rlp_write_pos (path_item x)). pose proof (zlen_nonneg _ (concat (map rlp_write (map path_item path)))). lia. }
  unfold decodePath. destruct (list_of_holds junk J _ O L) as (its & -> & Hd). cbn [sbind]. rewrite <- (map_id l). refine (map_opt_holds _ _ _ _ _ _ Hd). apply Forall2_map. intros y I i Ki.
  rewrite Forall_forall in F1, F2. destruct (F1 y I) as [A1 A2]. destruct (F2 y I) as [A3 A4]. unfold fits_int in A1. unfold path_item in Ki. destruct (toList_holds _ _ Ki) as (m & -> & Hm). cbn [sbind]. next Hm m0 M0. next Hm m1 M1.
  unfold at_index. cbn [nth_error sbind]. rewrite (uint_holds m0 (fst y) M0) by (unfold unsigned; lia). cbn [sbind]. rewrite (toBytes_holds _ _ M1). cbn [sbind payload]. rewrite to32_id by assumption. destruct y; reflexivity.
Qed.

Lemma header_holds : forall h addrs, wire_header_ok h -> sol_header_ok h addrs -> zlen (header_wire h) < 2 ^ 63 -> decodeHeader junk (header_wire h) = Some (taken h (map be_val addrs)).
Proof.
  intros h addrs W (U1 & U2 & U3 & U4 & U5 & L1 & L2 & L3 & Fp & Fa & V) L. pose proof (header_item_ok h W) as O. destruct W as (W1 & W2 & W3 & W4 & W5).
  unfold decodeHeader, header_wire, header_item in *. destruct (list_of_holds junk J _ O L) as (its & -> & Hd). cbn [sbind].
  next Hd i0 K0. next Hd i1 K1. next Hd i2 K2. next Hd i3 K3. next Hd i4 K4. next Hd i5 K5. next Hd i6 K6. next Hd i7 K7. next Hd i8 K8. next Hd i9 K9. unfold at_index. cbn [nth_error sbind].
  rewrite (uint_holds _ _ K0 U1). cbn [sbind]. rewrite (uint_holds _ _ K1 U2). cbn [sbind]. rewrite (toBytes_holds _ _ K2). cbn [sbind]. rewrite (path_holds _ _ K3 W5 Fp). cbn [sbind].
  rewrite (uint_holds _ _ K4 U3). cbn [sbind]. rewrite (uint_holds _ _ K5 U4). cbn [sbind]. rewrite (opt_holds _ _ K6 L2). cbn [sbind]. rewrite (uint_holds _ _ K7 U5). cbn [sbind]. rewrite (opt_holds _ _ K8 L3). cbn [sbind]. cbv zeta.
  assert (Eo : (Z.land (hd_upd h) 1 =? 1) = Z.odd (hd_upd h)).
  { change (Z.land (hd_upd h) 1) with (Z.land (hd_upd h) (Z.ones 1)). rewrite Z.land_ones by lia. change (2 ^ 1) with 2. rewrite Zmod_odd. destruct (Z.odd (hd_upd h)); reflexivity. }
  rewrite Eo.
  assert (Ev : (if Z.odd (hd_upd h) then sbind (toBytes i9) (decodeValidators junk) else Some []) = Some (map be_val addrs)).
  { destruct (Z.odd (hd_upd h)); [|rewrite V; reflexivity]. cbn [sbind]. rewrite (toBytes_holds _ _ K9). cbn [sbind]. rewrite V in *. cbn [opt_item payload]. destruct K9 as (_ & S & _). apply validators_holds; [assumption|]. apply small_b. exact S. }
  rewrite Ev. cbn [sbind]. unfold taken. rewrite Z.shiftr_div_pow2 by lia. change (2 ^ 1) with 2. do 2 f_equal.
  destruct (hd_nextCtxHash h) as [c|]; cbn [opt_item payload dflt32 len32] in *; [apply to32_id; assumption|reflexivity].
Qed.

Lemma sigs_holds : forall sigs, Forall bytes_ok sigs -> zlen (sigs_wire sigs) < 2 ^ 63 -> decodeProof junk (sigs_wire sigs) = Some sigs.
Proof.
  intros sigs F L. pose proof (sigs_item_ok sigs F) as O. unfold decodeProof, sigs_wire, sigs_item in *. destruct (list_of_holds junk J _ O L) as (its & -> & Hd). cbn [sbind]. next Hd i0 K0.
  unfold at_index. cbn [nth_error sbind]. destruct (toList_holds _ _ K0) as (rs & -> & Hr). cbn [sbind]. rewrite <- (map_id sigs). refine (map_opt_holds _ _ _ _ _ _ Hr). apply Forall2_map. intros s I it K.
  unfold if_payload. rewrite (payloadLen_holds _ _ K), (toBytes_holds _ _ K). cbn [sbind payload]. destruct s as [|x s]; [reflexivity|]. replace (0 <? zlen (x :: s)) with true by (rewrite zlen_cons; pose proof (zlen_nonneg _ s); lia). reflexivity.
Qed.
Lemma update_holds : forall h sigs addrs, wire_header_ok h -> Forall bytes_ok sigs -> sol_header_ok h addrs -> zlen (body (Header h sigs)) < 2 ^ 63 ->
  decodeBlockUpdate junk (body (Header h sigs)) = Some (taken h (map be_val addrs), sigs).
Proof.
  intros h sigs addrs W F S L. cbn [body] in *. pose proof (update_ok h sigs W F L) as O. pose proof (two_small _ _ L) as [L1 L2]. apply small_b in L1, L2.
  unfold decodeBlockUpdate. destruct (list_of_holds junk J _ O L) as (its & -> & Hd). cbn [sbind]. next Hd i0 K0. next Hd i1 K1. unfold at_index. cbn [nth_error sbind].
  rewrite (toBytes_holds _ _ K0). cbn [sbind payload]. rewrite (header_holds h addrs W S L1). cbn [sbind]. rewrite (toBytes_holds _ _ K1). cbn [sbind payload]. rewrite (sigs_holds sigs F L2). reflexivity.
Qed.

Lemma nodes_holds : forall all l it, holds it (pnodes_item all l) -> Forall wire_node_ok l -> Forall sol_node_ok l -> (all = true -> l = []) ->
  exists its, toList it = Some its /\ decodeNodes its = Some (map (fun x => SNode (levelOf (p_num x)) (p_num x) (p_value x)) l).
Proof.
  intros all l it K W S A. destruct all; cbn [pnodes_item] in K.
  - rewrite (A eq_refl). exists []. split; [apply toList_null; assumption|reflexivity].
  - destruct (toList_holds _ _ K) as (its & E & Hd). exists its. split; [exact E|]. unfold decodeNodes. refine (map_opt_holds _ _ _ _ _ _ Hd). apply Forall2_map. intros n I i Ki.
    rewrite Forall_forall in W, S. destruct (W n I) as [W1 W2]. destruct (S n I) as [S1 S2]. unfold fits_int in W1. unfold pnode_item in Ki. destruct (toList_holds _ _ Ki) as (t & -> & Ht). cbn [sbind]. next Ht t0 T0. next Ht t1 T1.
    unfold at_index. cbn [nth_error sbind]. rewrite (uint_holds t0 (p_num n) T0) by (unfold unsigned; lia). cbn [sbind]. rewrite (toBytes_holds _ _ T1). cbn [sbind payload]. rewrite to32_id by assumption. reflexivity.
Qed.
Lemma proof_holds : forall all m, wire_proof_ok all m -> Forall sol_node_ok (p_left m ++ p_right m) -> zlen (body (Messages all m)) < 2 ^ 63 -> decodeMessageProof junk (body (Messages all m)) = Some (of_proof m).
Proof.
  intros all m W S L. cbn [body] in *. pose proof (proof_item_ok all m W) as O. destruct W as (W1 & W2 & W3 & W4). apply Forall_app in S as [S1 S2].
  unfold decodeMessageProof, proof_item in *. destruct (list_of_holds junk J _ O L) as (its & -> & Hd). cbn [sbind]. next Hd i0 K0. next Hd i1 K1. next Hd i2 K2. unfold at_index. cbn [nth_error sbind].
  destruct (toList_holds _ _ K1) as (ms & -> & Hm). cbn [sbind]. destruct (nodes_holds all _ _ K0 W1 S1 (fun e => proj1 (W4 e))) as (x & -> & E1). cbn [sbind]. rewrite E1. cbn [sbind].
  destruct (nodes_holds all _ _ K2 W3 S2 (fun e => proj2 (W4 e))) as (y & -> & E2). cbn [sbind]. rewrite E2. cbn [sbind].
  replace (map_opt toBytes ms) with (Some (p_contents m)); [reflexivity|]. symmetry. rewrite <- (map_id (p_contents m)). refine (map_opt_holds _ _ _ _ _ _ Hm). apply Forall2_map. intros c I i Ki. rewrite (toBytes_holds _ _ Ki). reflexivity.
Qed.

Lemma typed_holds : forall l, Forall news_ok l -> zlen (message_wire l) < 2 ^ 63 -> decodeTyped junk (message_wire l) = Some (map (fun n => (kind n, body n)) l) /\ Forall (fun n => zlen (body n) < 2 ^ 63) l.
Proof.
  intros l F L. pose proof (message_ok l F L) as O. unfold message_wire in *.
  assert (L0 : Forall (fun n => zlen (body n) < 2 ^ 63) l).
  { pose proof L as L'. apply small_children in L' as [_ L']. apply Forall_inv in L'. apply small_children in L' as [_ L']. apply Forall_map in L'. revert L'. apply Forall_impl. intros [h s|all m] X; cbn [news_item body] in *; apply two_small in X as [_ X]; apply small_b in X; exact X. }
  split; [|exact L0]. unfold decodeTyped. destruct (list_of_holds junk J _ O L) as (its & -> & Hd). cbn [sbind]. next Hd i0 K0. unfold at_index at 1. cbn [nth_error sbind]. destruct (toList_holds _ _ K0) as (rs & -> & Hr). cbn [sbind].
  refine (map_opt_holds _ _ _ _ _ _ Hr). apply Forall2_map. intros n I it K.
  assert (Kn : holds it (RList [int_item (kind n); RBytes (body n)])) by (destruct n; exact K).
  destruct (toList_holds _ _ Kn) as (t & -> & Ht). cbn [sbind]. next Ht t0 T0. next Ht t1 T1. unfold at_index. cbn [nth_error sbind].
  rewrite (uint_holds t0 (kind n) T0) by (unfold unsigned; destruct n; cbn; lia). cbn [sbind]. rewrite (toBytes_holds _ _ T1). reflexivity.
Qed.
End Read.
