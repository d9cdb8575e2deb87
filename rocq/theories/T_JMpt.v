(** C84: the Patricia tree of the ICON block verifier. *)
From Coq Require Import String Ascii ZArith List Bool Lia.
From Coq Require Import ZifyBool.
From Verif Require Import Base L_Base M_IntConv S_IntConv L_IntConv M_Rlp S_Rlp L_Rlp M_Codec M_Wire L_Wire L_SolRlp L_Mta5 M_JMpt S_JMpt L_JMpt.
Import ListNotations.
Open Scope Z_scope.

(** The proof made of the nodes on the way to a value is accepted and gives the value, when each of them is named by its
    hash. *)
Theorem C84_proof_accepted : forall H emb t key p v,
  hash_bytes H -> good t -> sized H emb t -> ext_by_hash emb t -> at_key t (bytesToNibbles key) p v -> Forall (fun n => emb n = false) (tl p) ->
  mpt_prove H (root_of H emb t) key (map (fun n => Some (bytes_of H emb n)) p) = Ok v.
Proof. intros H emb t key p v HB G S X A EM. apply (prove_complete H HB emb t _ p v); assumption. Qed.
Print Assumptions C84_proof_accepted.

(** Whatever is accepted under the root of a tree is the tree's value for the key, or the key is a proper prefix of one of the
    tree's keys. *)
Theorem C84_accepted_in_tree : forall H emb t key ps d,
  hash_bytes H -> good t -> sized H emb t -> bytes_ok key -> mpt_prove H (root_of H emb t) key ps = Ok d ->
  collision H \/ (exists p, at_key t (bytesToNibbles key) p d) \/
  (exists e p d', e <> [] /\ at_key t (bytesToNibbles key ++ e) p d' /\ (d = d' \/ d = [])).
Proof. intros H emb t key ps d HB G S BK E. apply (prove_sound H HB emb ps t _ d G S (nibbles_nibble _ BK) E). Qed.
Print Assumptions C84_accepted_in_tree.

(** The trees of receipts and of event logs have encoded indexes as keys, and none of them is a prefix of another: what is
    accepted for an index is what the tree has there. *)
Definition index (i : Z) : Prop := - 2 ^ 63 <= i < 2 ^ 63.
Lemma enc_facts : forall i, index i -> encodeKey i = rlp_write (RBytes (BigIntToBytes i)) /\ rlp_ok (RBytes (BigIntToBytes i)) /\
  zlen (rlp_write (RBytes (BigIntToBytes i))) < 2 ^ 63 /\ bytes_ok (encodeKey i).
Proof.
  intros i Hi. destruct (big_ok i) as (B & _ & _).
  assert (L : zlen (BigIntToBytes i) <= 8). { apply (tc_bytes_len i 8); [lia|]. unfold fits. unfold index in Hi. cbn. lia. }
  assert (L2 : zlen (rlp_write (RBytes (BigIntToBytes i))) < 2 ^ 63).
  { cbn [rlp_write]. destruct (writeBytes_header (BigIntToBytes i) B ltac:(lia)) as [(x & E & _ & ->)|(_ & h & -> & _ & Hs & _)]; [lia|]. rewrite Hs by lia. rewrite zlen_app. change (zlen [128 + zlen (BigIntToBytes i)]) with 1. lia. }
  split; [reflexivity|]. split; [exact B|]. split; [exact L2|]. apply writeBytes_ok; [exact B|lia].
Qed.
Lemma keys_apart : forall i j e, index i -> index j -> bytesToNibbles (encodeKey i) ++ e = bytesToNibbles (encodeKey j) -> i = j /\ e = [].
Proof.
  intros i j e Hi Hj E. destruct (enc_facts i Hi) as (Ei & Oi & Li & Bi). destruct (enc_facts j Hj) as (Ej & Oj & Lj & Bj).
  destruct (nibbles_prefix _ _ e Bi Bj (eq_sym E)) as (r & E1 & E2). rewrite Ei, Ej in E1. rewrite <- (app_nil_r (rlp_write (RBytes (BigIntToBytes j)))) in E1.
  destruct (rlp_prefix_free _ _ [] r Lj Oj Li Oi E1) as [E3 <-]. injection E3 as E3. split; [|rewrite E2; reflexivity].
  destruct (big_ok i) as (_ & <- & _). destruct (big_ok j) as (_ & <- & _). congruence.
Qed.
Definition keyed_by_index (t : trie) : Prop := forall k p v, at_key t k p v -> exists i, index i /\ k = bytesToNibbles (encodeKey i).
Theorem C84_index_exact : forall H emb t i ps d,
  hash_bytes H -> good t -> sized H emb t -> keyed_by_index t -> index i -> mpt_prove H (root_of H emb t) (encodeKey i) ps = Ok d ->
  collision H \/ exists p, at_key t (bytesToNibbles (encodeKey i)) p d.
Proof.
  intros H emb t i ps d HB G S K Hi E. destruct (enc_facts i Hi) as (_ & _ & _ & Bi).
  destruct (C84_accepted_in_tree H emb t _ ps d HB G S Bi E) as [|[|(e & p & d' & Ne & A & _)]]; [auto|auto|]. exfalso.
  destruct (K _ _ _ A) as (j & Hj & Ej). destruct (keys_apart i j e Hi Hj Ej) as [_ ->]. congruence.
Qed.
Print Assumptions C84_index_exact.
(** A tree has one value per key, and different indexes are different keys. *)
Theorem C84_index_keys_differ : forall i j, index i -> index j -> bytesToNibbles (encodeKey i) = bytesToNibbles (encodeKey j) -> i = j.
Proof. intros i j Hi Hj E. apply (keys_apart i j []); [assumption|assumption|]. rewrite app_nil_r. exact E. Qed.
Print Assumptions C84_index_keys_differ.
Theorem C84_one_value : forall t k p v p' v', at_key t k p v -> at_key t k p' v' -> p = p' /\ v = v'.
Proof.
  intros t k p v p' v' A. revert p' v'. induction A as [nib v|nib t k p v A IH|cs v HV|cs v x c k p w Hx HC A IH]; intros p' v' A'.
  - inversion A'; subst. auto.
  - inversion A' as [|? ? k' p2 ? A2| |]; subst. match goal with E : _ ++ _ = _ ++ _ |- _ => apply app_inv_head in E; subst end.
    destruct (IH _ _ A2) as [-> ->]. auto.
  - inversion A'; subst. auto.
  - inversion A' as [| | |? ? ? c' ? p2 ? ? HC' A2]; subst. assert (c' = c) by congruence. subst. destruct (IH _ _ A2) as [-> ->]. auto.
Qed.
Print Assumptions C84_one_value.

(** Two accepted proofs for one root and one key give the same bytes, whatever the root is. *)
Theorem C84_binding : forall H root key ps ps' d d', mpt_prove H root key ps = Ok d -> mpt_prove H root key ps' = Ok d' -> d = d' \/ collision H.
Proof. intros H root key ps ps' d d' E E'. exact (prove_binding H ps ps' (NHash root) _ d d' E E'). Qed.
Print Assumptions C84_binding.

(** A value whose way leads through a node contained in its parent cannot be proved at all. *)
Theorem C84_contained_unprovable : forall H emb t key p v ps d,
  hash_bytes H -> good t -> sized H emb t -> at_key t (bytesToNibbles key) p v -> Exists (fun n => emb n = true) (tl p) ->
  mpt_prove H (root_of H emb t) key ps = Ok d -> collision H.
Proof. intros H emb t key p v ps d HB G S A EM E. exact (embedded_blocked H HB emb t _ p v A G S EM ps d E). Qed.
Print Assumptions C84_contained_unprovable.

(** Reading the bytes of a node does not depend on the fuel of the model, nor on bytes behind the node. *)
Theorem C84_reading_total : forall b f, (2 * length b <= f)%nat -> rbind (readNode f b) (fun x => Ok (fst x)) = node_fromBytes b.
Proof. intros b f Hf. unfold node_fromBytes. rewrite (readNode_fuel b f Hf). reflexivity. Qed.
Print Assumptions C84_reading_total.
Theorem C84_reads_written : forall H emb t, hash_bytes H -> good t -> sized H emb t -> ext_by_hash emb t -> exists n, node_fromBytes (bytes_of H emb t) = Ok n /\
  match t, n with
  | TLeaf nib v, NLeaf nib' v' => nib' = nib /\ v' = v
  | TExt nib c, NExt nib' h => nib' = nib /\ h = root_of H emb c
  | TBranch cs v, NBranch l v' => v' = v /\ length l = 16%nat /\
      (forall i c, nth_error cs i = Some (Some c) -> emb c = false -> nth_error l i = Some (Some (NHash (root_of H emb c)))) /\
      (forall i, nth_error cs i = Some None -> nth_error l i = Some None)
  | _, _ => False
  end.
Proof.
  intros H emb t HB G S X. destruct (read_ok H HB emb t G X) as [n EN]. exists n. rewrite (node_of_bytes H HB) by assumption. split; [exact EN|].
  pose proof (read_node_for H HB emb t n G EN) as NF. destruct t as [nib v|nib c|cs v]; cbn [node_for] in NF.
  - subst. auto.
  - destruct NF as [_ ->]. auto.
  - destruct NF as (l & -> & NF). split; [reflexivity|]. inversion G as [| |? ? L]; subst. split; [rewrite <- (Forall2_length NF); assumption|].
    clear - NF. split.
    + induction NF as [|o c0 cs l H0 NF IH]; intros [|i] c EL EC; try discriminate; cbn [nth_error] in *; [|eauto].
      injection EL as ->. cbn [child_for] in H0. rewrite EC in H0. congruence.
    + induction NF as [|o c0 cs l H0 NF IH]; intros [|i] EL; try discriminate; cbn [nth_error] in *; [|eauto].
      injection EL as ->. cbn [child_for] in H0. congruence.
Qed.
Print Assumptions C84_reads_written.

(** "Only keys of the tree are accepted" is false: a leaf is accepted for every prefix of its key, the empty one included. *)
Lemma leaf_bytes_small : forall H emb nib v, Forall nibble nib -> bytes_ok v -> zlen nib <= 1000 -> zlen v <= 1000 -> zlen (bytes_of H emb (TLeaf nib v)) < 2 ^ 63.
Proof.
  intros H emb nib v F B L1 L2. unfold bytes_of. cbn [item_of rlp_write map concat]. rewrite app_nil_r.
  assert (LC : zlen (compact true nib) <= 1002).
  { assert (P : forall n l, (length l < n)%nat -> zlen (pack l) <= zlen l).
    { induction n as [|n IH]; intros l Hn; [lia|]. destruct l as [|a [|b l]]; cbn [pack]; [unfold zlen; cbn; lia|unfold zlen; cbn; lia|]. rewrite !zlen_cons.
      specialize (IH l ltac:(cbn [length] in Hn; lia)). pose proof (zlen_nonneg _ l). lia. }
    unfold compact. destruct (Nat.even (length nib)).
    - rewrite zlen_cons. specialize (P (S (length nib)) nib ltac:(lia)). lia.
    - destruct nib as [|a r]; [change (zlen (@nil Z)) with 0; lia|]. rewrite zlen_cons in *. specialize (P (S (length r)) r ltac:(lia)). lia. }
  pose proof (writeBytes_len_le (compact true nib)). pose proof (writeBytes_len_le v). pose proof (writeList_len_le (writeBytes (Some (compact true nib)) ++ writeBytes (Some v))) as W.
  rewrite zlen_app in W. lia.
Qed.
Theorem C84_only_keys_of_tree_refuted : forall H emb, hash_bytes H ->
  exists t ps d, good t /\ sized H emb t /\ ext_by_hash emb t /\ d <> [] /\
    (forall key, key = [] \/ key = [18] -> (forall p v, ~ at_key t (bytesToNibbles key) p v) /\ mpt_prove H (root_of H emb t) key ps = Ok d).
Proof.
  intros H emb HB. exists (TLeaf [1; 2; 3; 4] [7]), [Some (bytes_of H emb (TLeaf [1; 2; 3; 4] [7]))], [7].
  assert (F : Forall nibble [1; 2; 3; 4]) by (repeat constructor; unfold nibble; lia).
  assert (B : bytes_ok [7]) by (repeat constructor; unfold is_byte; lia).
  assert (G : good (TLeaf [1; 2; 3; 4] [7])) by (constructor; assumption).
  assert (S : sized H emb (TLeaf [1; 2; 3; 4] [7])). { constructor. apply leaf_bytes_small; try assumption; unfold zlen; cbn [length]; lia. }
  split; [exact G|]. split; [exact S|]. split; [constructor|]. split; [discriminate|]. intros key Hk. split.
  - intros p v A. destruct Hk as [->| ->]; inversion A.
  - unfold mpt_prove. unfold root_of. destruct (hash_cons H HB (bytes_of H emb (TLeaf [1; 2; 3; 4] [7]))) as (a & r & EH).
    cbn [prove_node]. rewrite EH, <- EH, bytes_eqb_refl. rewrite (node_of_bytes H HB) by assumption. destruct (read_ok H HB emb _ G (e_leaf emb [1;2;3;4] [7])) as [n EN].
    rewrite EN. pose proof (read_node_for H HB emb _ n G EN) as NF. cbn [node_for] in NF. subst n. cbn [rbind at_node]. destruct Hk as [->| ->]; reflexivity.
Qed.
Print Assumptions C84_only_keys_of_tree_refuted.
(** "Every failure is reported as an MPTException" is false: a proof that is too short, a key that is not in the tree at a
    branch, and a node with an empty header end in other exceptions. *)
Theorem C84_failures_reported_refuted : forall H, hash_bytes H ->
  (forall root key, mpt_prove H root key [] = Panic) /\
  (exists node key, node_fromBytes node <> Panic /\ mpt_prove H (H node) key [Some node] = Panic) /\
  (exists node, forall key, mpt_prove H (H node) key [Some node] = Panic).
Proof.
  intros H HB. split; [intros [|] key; reflexivity|]. split.
  - exists (rlp_write (RList (repeat (RBytes []) 16 ++ [RBytes [7]]))), [18].
    assert (E : node_fromBytes (rlp_write (RList (repeat (RBytes []) 16 ++ [RBytes [7]]))) = Ok (NBranch (repeat None 16) [7])) by reflexivity.
    split; [rewrite E; discriminate|]. unfold mpt_prove. destruct (hash_cons H HB (rlp_write (RList (repeat (RBytes []) 16 ++ [RBytes [7]])))) as (a & r & EH).
    cbn [prove_node]. rewrite EH, <- EH, bytes_eqb_refl, E. reflexivity.
  - exists [194; 128; 128]. intros key. unfold mpt_prove. destruct (hash_cons H HB [194; 128; 128]) as (a & r & EH).
    cbn [prove_node]. rewrite EH, <- EH, bytes_eqb_refl. reflexivity.
Qed.
Print Assumptions C84_failures_reported_refuted.

(** A tree with the values of the indexes 0 and 1, as of the receipts of a block with two transactions.  Their keys are the
    bytes 0 and 1, so that an extension for the common nibble leads to a branch. *)
Definition ex_v0 : list Z := repeat 10 40.
Definition ex_v1 : list Z := repeat 11 40.
Definition ex_tree : trie := TExt [0] (TBranch ([Some (TLeaf [] ex_v0); Some (TLeaf [] ex_v1)] ++ repeat None 14) []).
Definition ex_emb (t : trie) : bool := false.
Definition ex_H (b : list Z) : list Z := repeat (Z.modulo (fold_left Z.add b 0) 256) 32.
Example C84_ex_hash : hash_bytes ex_H.
Proof.
  intros x. unfold ex_H. split; [|apply repeat_length]. apply Forall_forall. intros y Hy. apply repeat_spec in Hy. subst. unfold is_byte. apply Z.mod_pos_bound. lia.
Qed.
Lemma ex_children : forall i c, nth_error ([Some (TLeaf [] ex_v0); Some (TLeaf [] ex_v1)] ++ repeat None 14) i = Some (Some c) -> i = 0%nat /\ c = TLeaf [] ex_v0 \/ i = 1%nat /\ c = TLeaf [] ex_v1.
Proof.
  intros [|[|i]] c E; cbn [app nth_error] in E; [injection E as <-; auto|injection E as <-; auto|]. apply nth_error_In in E. apply repeat_spec in E. discriminate.
Qed.
Lemma ex_vok : forall n, 0 <= n < 256 -> bytes_ok (repeat n 40).
Proof. intros n Hn. apply Forall_forall. intros y Hy. apply repeat_spec in Hy. subst. exact Hn. Qed.
Example C84_ex_good : good ex_tree.
Proof.
  constructor; [repeat constructor; unfold nibble; lia|]. constructor; [reflexivity|constructor| |right; exists 0%nat; eauto].
  - intros i c E. destruct (ex_children i c E) as [[_ ->]|[_ ->]]; (constructor; [constructor|]); apply ex_vok; lia.
  - eexists. reflexivity.
Qed.
Example C84_ex_sized : sized ex_H ex_emb ex_tree.
Proof.
  constructor; [vm_compute; reflexivity|]. constructor; [vm_compute; reflexivity|]. intros i c E. destruct (ex_children i c E) as [[_ ->]|[_ ->]]; constructor; vm_compute; reflexivity.
Qed.
Example C84_ex_ext : ext_by_hash ex_emb ex_tree.
Proof. constructor; [reflexivity|]. constructor. intros i c E. destruct (ex_children i c E) as [[_ ->]|[_ ->]]; constructor. Qed.
Example C84_ex_keyed : keyed_by_index ex_tree.
Proof.
  intros k p v A. inversion A as [|? ? k' p' ? A2| |]; subst. inversion A2 as [| |? ? NV|? ? x c k2 p2 ? Hx HC A3]; subst; [congruence|].
  destruct (ex_children _ _ HC) as [[E ->]|[E ->]]; inversion A3; subst.
  - exists 0. split; [unfold index; lia|]. replace x with 0 by lia. reflexivity.
  - exists 1. split; [unfold index; lia|]. replace x with 1 by lia. reflexivity.
Qed.
Example C84_ex_at : at_key ex_tree (bytesToNibbles (encodeKey 1)) [ex_tree; TBranch ([Some (TLeaf [] ex_v0); Some (TLeaf [] ex_v1)] ++ repeat None 14) []; TLeaf [] ex_v1] ex_v1.
Proof. change (bytesToNibbles (encodeKey 1)) with ([0] ++ [1]). constructor. apply at_child with (TLeaf [] ex_v1); [lia|reflexivity|constructor]. Qed.
Example C84_ex_accepted : mpt_prove ex_H (root_of ex_H ex_emb ex_tree) (encodeKey 1)
  (map (fun n => Some (bytes_of ex_H ex_emb n)) [ex_tree; TBranch ([Some (TLeaf [] ex_v0); Some (TLeaf [] ex_v1)] ++ repeat None 14) []; TLeaf [] ex_v1]) = Ok ex_v1.
Proof. vm_compute. reflexivity. Qed.
(** A tree whose second leaf is contained in the branch. *)
Definition ex_small : trie := TBranch ([Some (TLeaf [0] ex_v0); Some (TLeaf [2] [7])] ++ repeat None 14) [].
Definition ex_emb2 (t : trie) : bool := match t with TLeaf _ v => zlen v <? 20 | _ => false end.
Example C84_ex_contained : mpt_prove ex_H (root_of ex_H ex_emb2 ex_small) [18] (map (fun n => Some (bytes_of ex_H ex_emb2 n)) [ex_small; TLeaf [2] [7]]) = Panic /\
  mpt_prove ex_H (root_of ex_H ex_emb2 ex_small) [0] (map (fun n => Some (bytes_of ex_H ex_emb2 n)) [ex_small; TLeaf [0] ex_v0]) = Ok ex_v0 /\
  at_key ex_small (bytesToNibbles [18]) [ex_small; TLeaf [2] [7]] [7] /\ Exists (fun n => ex_emb2 n = true) (tl [ex_small; TLeaf [2] [7]]).
Proof.
  split; [vm_compute; reflexivity|]. split; [vm_compute; reflexivity|]. split.
  - change (bytesToNibbles [18]) with [1; 2]. apply at_child with (TLeaf [2] [7]); [lia|reflexivity|constructor].
  - constructor. reflexivity.
Qed.
