(** C99: the Patricia tree of the contracts written in Python. *)
From Coq Require Import String Ascii ZArith List Bool Lia.
From Coq Require Import ZifyBool.
From Verif Require Import Base L_Base M_IntConv S_IntConv L_IntConv M_Rlp S_Rlp L_Rlp M_Codec M_Wire L_Wire L_SolRlp L_Mta5 M_PyRlp S_PyRlp L_PyRlp T_PyRlp M_JMpt S_JMpt L_JMpt T_JMpt M_PyMpt S_PyMpt L_PyMpt.
Import ListNotations.
Open Scope Z_scope.

Lemma top_hash : forall H root key ps, hash_bytes H -> py_prove H (H root) key ps = node_prove H ps (YHash (H root)) (bytesToNibbles key).
Proof. intros H root key ps HB. unfold py_prove. rewrite of_hash_ok by assumption. rewrite py_nibbles. reflexivity. Qed.

(** The proof made of the nodes on the way to a value is accepted, those contained in their parents left out, and gives the
    value, with its RLP header if it is the value of a branch. *)
Theorem C99_proof_accepted : forall H emb t key p v,
  hash_bytes H -> good t -> sized H emb t -> ext_by_hash emb t -> at_key t (bytesToNibbles key) p v ->
  py_prove H (root_of H emb t) key (proof_of H emb p) = Some (Some (shown p v)).
Proof.
  intros H emb t key p v HB G S X A. unfold root_of. rewrite top_hash by assumption. destruct (path_head _ _ _ _ A) as [r ->]. unfold proof_of.
  change (H (bytes_of H emb t)) with (root_of H emb t). rewrite (np_root H HB emb) by assumption. destruct (ytree_ok H emb t G X) as [n En]. rewrite En.
  exact (py_complete H HB emb t _ _ v A G S X n En).
Qed.
Print Assumptions C99_proof_accepted.

(** Whatever is accepted under the root of a tree is what the tree has for the key, or the key is a proper prefix of one of the
    tree's keys; then a leaf gives its value and a branch without value the header of an empty one. *)
Theorem C99_accepted_in_tree : forall H emb t key ps d,
  hash_bytes H -> good t -> sized H emb t -> bytes_ok key -> py_prove H (root_of H emb t) key ps = Some d ->
  collision H \/ (exists p v, at_key t (bytesToNibbles key) p v /\ d = Some (shown p v)) \/
  (exists e p v, e <> [] /\ at_key t (bytesToNibbles key ++ e) p v /\ (d = Some v \/ d = Some [128])).
Proof.
  intros H emb t key ps d HB G S BK E. unfold root_of in E. rewrite top_hash in E by assumption.
  destruct (np_root_inv H HB emb _ _ _ _ G S E) as [|(p & r & n & -> & En & E2)]; [auto|].
  exact (py_sound H HB emb r t G S n _ d (nibbles_nibble _ BK) En E2).
Qed.
Print Assumptions C99_accepted_in_tree.

(** bmv/icon/message.py 468 and 494: the keys are the ones of the Java verifier. *)
Theorem C99_keys : forall i, index i -> rlp_encode (PInt i) = encodeKey i.
Proof.
  intros i Hi. destruct (enc_facts i Hi) as (Ei & _ & _ & _). rewrite Ei. apply (proj1 encoded); [constructor; apply BigIntToBytes_shortest|].
  destruct (big_ok i) as (B & _ & _). assert (L : zlen (BigIntToBytes i) <= 8). { apply (tc_bytes_len i 8); [lia|]. unfold fits. unfold index in Hi. cbn. lia. }
  cbn [rlp_write]. destruct (writeBytes_header (BigIntToBytes i) B ltac:(lia)) as [(x & E & _ & ->)|(_ & h & -> & _ & Hs & _)]; [lia|]. rewrite Hs by lia. rewrite zlen_app. change (zlen [128 + zlen (BigIntToBytes i)]) with 1. lia.
Qed.
Print Assumptions C99_keys.

(** In the trees of receipts and of event logs no key is a prefix of another, so that no value is in a branch: what is accepted
    for an index is the tree's value. *)
Lemma branch_extends : forall t k p v, at_key t k p v -> good t -> forks t -> (exists cs w, last p (TLeaf [] []) = TBranch cs w) -> exists e p' v', e <> [] /\ at_key t (k ++ e) p' v'.
Proof.
  intros t k p v A. induction A as [nib v|nib t k p v A IH|cs v HV|cs v x c k p w Hx HC A IH]; intros G F (cs' & w' & E).
  - discriminate.
  - inversion G; inversion F; subst. destruct (path_head _ _ _ _ A) as [r ->]. destruct IH as (e & p' & v' & Ne & A'); [assumption|assumption|exists cs', w'; exact E|].
    exists e, (TExt nib t :: p'), v'. split; [assumption|]. rewrite <- app_assoc. constructor. assumption.
  - inversion G as [| |? ? L V Gc N]; inversion F as [| |? ? (i & c & Hc) Fc]; subst. destruct (good_key c (Gc i c Hc)) as (k & p & w & A). assert (i < length cs)%nat by (apply nth_error_Some; congruence).
    exists (Z.of_nat i :: k), (TBranch cs v :: p), w. split; [discriminate|]. cbn [app]. apply at_child with c; [lia|rewrite Nat2Z.id; assumption|assumption].
  - inversion G as [| |? ? L V Gc N]; inversion F as [| |? ? _ Fc]; subst. destruct (path_head _ _ _ _ A) as [r ->]. destruct IH as (e & p' & v' & Ne & A'); [eauto|eauto|exists cs', w'; exact E|].
    exists e, (TBranch cs v :: p'), v'. split; [assumption|]. cbn [app]. eapply at_child; eassumption.
Qed.
Lemma index_in_leaf : forall t i p v, good t -> forks t -> keyed_by_index t -> index i -> at_key t (bytesToNibbles (encodeKey i)) p v -> shown p v = v.
Proof.
  intros t i p v G F K Hi A. unfold shown. destruct (last p (TLeaf [] [])) as [| |cs w] eqn:E; [reflexivity|reflexivity|]. exfalso.
  destruct (branch_extends t _ p v A G F ltac:(eauto)) as (e & p' & v' & Ne & A'). destruct (K _ _ _ A') as (j & Hj & Ej). destruct (keys_apart i j e Hi Hj Ej) as [_ ->]. congruence.
Qed.
Theorem C99_index_exact : forall H emb t i ps d,
  hash_bytes H -> good t -> forks t -> sized H emb t -> keyed_by_index t -> index i -> py_prove H (root_of H emb t) (rlp_encode (PInt i)) ps = Some d ->
  collision H \/ exists p v, at_key t (bytesToNibbles (encodeKey i)) p v /\ d = Some v.
Proof.
  intros H emb t i ps d HB G F S K Hi E. rewrite C99_keys in E by assumption. destruct (enc_facts i Hi) as (_ & _ & _ & Bi).
  destruct (C99_accepted_in_tree H emb t _ ps d HB G S Bi E) as [|[(p & v & A & ->)|(e & p & v & Ne & A & _)]]; [auto| |].
  - right. exists p, v. split; [assumption|]. rewrite (index_in_leaf t i p v); auto.
  - exfalso. destruct (K _ _ _ A) as (j & Hj & Ej). destruct (keys_apart i j e Hi Hj Ej) as [_ ->]. congruence.
Qed.
Print Assumptions C99_index_exact.
Theorem C99_index_accepted : forall H emb t i p v,
  hash_bytes H -> good t -> forks t -> sized H emb t -> ext_by_hash emb t -> keyed_by_index t -> index i -> at_key t (bytesToNibbles (encodeKey i)) p v ->
  py_prove H (root_of H emb t) (rlp_encode (PInt i)) (proof_of H emb p) = Some (Some v).
Proof.
  intros H emb t i p v HB G F S X K Hi A. rewrite C99_keys by assumption. rewrite (C99_proof_accepted H emb t _ p v HB G S X A). rewrite (index_in_leaf t i p v); auto.
Qed.
Print Assumptions C99_index_accepted.

(** The Java verifier (C84) and the Python one give the same value for an index. *)
Theorem C99_same_as_java : forall H emb t i ps ps' d d',
  hash_bytes H -> good t -> forks t -> sized H emb t -> keyed_by_index t -> index i ->
  py_prove H (root_of H emb t) (rlp_encode (PInt i)) ps = Some d -> mpt_prove H (root_of H emb t) (encodeKey i) ps' = Ok d' -> collision H \/ d = Some d'.
Proof.
  intros H emb t i ps ps' d d' HB G F S K Hi E E'. destruct (C99_index_exact H emb t i ps d HB G F S K Hi E) as [|(p & v & A & ->)]; [auto|].
  destruct (C84_index_exact H emb t i ps' d' HB G S K Hi E') as [|(p' & A')]; [auto|]. right. f_equal. exact (proj2 (C84_one_value _ _ _ _ _ _ A A')).
Qed.
Print Assumptions C99_same_as_java.

(** Two accepted proofs for one root and one key give the same, whatever the root is. *)
Theorem C99_binding : forall H root key ps ps' d d', py_prove H root key ps = Some d -> py_prove H root key ps' = Some d' -> d = d' \/ collision H.
Proof.
  intros H root key ps ps' d d' E E'. unfold py_prove in *. destruct (of_hash root) as [n|]; [|discriminate]. eapply py_binding; eassumption.
Qed.
Print Assumptions C99_binding.

(** Roots of 1 to 31 bytes and empty ones prove nothing, nor does an empty proof. *)
Theorem C99_needs_hash_and_proof : forall H root key ps d, py_prove H root key ps = Some d -> 32 <= zlen root /\ ps <> [].
Proof.
  intros H root key ps d E. unfold py_prove, of_hash, hash_ok in E. destruct ((0 <? zlen root) && (zlen root <? 32)) eqn:C; [discriminate|]. cbn [negb] in E. rewrite np_hash in E.
  destruct root as [|a r]; [discriminate|]. destruct ps; [discriminate|]. split; [|discriminate]. rewrite zlen_cons in *. pose proof (zlen_nonneg _ r). lia.
Qed.
Print Assumptions C99_needs_hash_and_proof.
Theorem C99_reading_total : forall b f, (length b < f)%nat -> read_node f b = node_of_bytes b.
Proof. intros b f Hf. apply read_fuel; [assumption|lia]. Qed.
Print Assumptions C99_reading_total.

(** "Every value of a tree can be proved" is false: no proof leads through an extension that contains its child. *)
Theorem C99_contained_in_extension : forall H emb t key p v ps d,
  hash_bytes H -> good t -> sized H emb t -> at_key t (bytesToNibbles key) p v -> (exists nb c, In (TExt nb c) p /\ emb c = true) ->
  py_prove H (root_of H emb t) key ps = Some d -> collision H.
Proof.
  intros H emb t key p v ps d HB G S A I E. unfold root_of in E. rewrite top_hash in E by assumption.
  destruct (np_root_inv H HB emb _ _ _ _ G S E) as [|(q & r & n & -> & En & E2)]; [auto|]. exact (ext_blocked H HB emb t _ p v A G S I n r d En E2).
Qed.
Print Assumptions C99_contained_in_extension.

(** "What is accepted for a key of the tree is its value" is false: a branch gives its value with the RLP header. *)
Definition two_leaves (v w : list Z) : trie := TExt [1; 2] (TBranch ([Some (TLeaf [3] v)] ++ repeat None 15) w).
Definition no_emb (t : trie) : bool := false.
Lemma two_facts : forall H v w, hash_bytes H -> bytes_ok v -> bytes_ok w -> zlen v <= 1000 -> zlen w <= 1000 -> good (two_leaves v w) /\ sized H no_emb (two_leaves v w) /\ ext_by_hash no_emb (two_leaves v w) /\ forks (two_leaves v w).
Proof.
  intros H v w HB V W Lv Lw. assert (C : forall i c, nth_error ([Some (TLeaf [3] v)] ++ repeat None 15) i = Some (Some c) -> c = TLeaf [3] v).
  { intros [|i] c E; cbn [app nth_error] in E; [congruence|]. apply nth_error_In in E. apply repeat_spec in E. discriminate. }
  assert (N : forall l, (forall x, In x l -> 0 <= x < 16) -> Forall nibble l) by (intros l Hl; apply Forall_forall; exact Hl).
  split; [|split; [|split]].
  - constructor; [repeat constructor; unfold nibble; lia|]. constructor; [reflexivity|assumption| |right; exists 0%nat; eexists; reflexivity].
    intros i c E. rewrite (C i c E). constructor; [repeat constructor; unfold nibble; lia|assumption].
  - assert (SL : sized H no_emb (TLeaf [3] v)). { constructor. apply leaf_bytes_small; try assumption; [repeat constructor; unfold nibble; lia|unfold zlen; cbn [length]; lia]. }
    constructor; [|constructor].
    + unfold bytes_of, two_leaves. cbn [item_of no_emb rlp_write map concat]. rewrite app_nil_r.
      match goal with |- zlen (writeList (writeBytes (Some ?a) ++ writeBytes (Some ?b))) < _ => pose proof (writeList_len_le (writeBytes (Some a) ++ writeBytes (Some b))) as W1; pose proof (writeBytes_len_le a); pose proof (writeBytes_len_le b);
        rewrite zlen_app in W1; assert (zlen a = 2) by reflexivity; assert (zlen b = 32) by (apply (hash_len H HB)); lia end.
    + unfold bytes_of. cbn [item_of no_emb]. rewrite map_app, <- app_assoc. cbn [map app repeat rlp_write concat]. match goal with |- zlen (writeList ?x) < _ => pose proof (writeList_len_le x) as W1 end.
      revert W1. rewrite !zlen_app. change (zlen (writeBytes (Some []))) with 1. change (zlen (@nil Z)) with 0. pose proof (writeBytes_len_le w).
      match goal with |- context [writeBytes (Some (H ?a))] => pose proof (writeBytes_len_le (H a)); pose proof (hash_len H HB a) end. intros W1. lia.
    + intros i c E. rewrite (C i c E). exact SL.
  - constructor; [reflexivity|]. constructor. intros i c E. rewrite (C i c E). constructor.
  - constructor. constructor; [exists 0%nat; eexists; reflexivity|]. intros i c E. rewrite (C i c E). constructor.
Qed.

Theorem C99_branch_value_refuted : forall H, hash_bytes H -> exists t key p v, good t /\ forks t /\ sized H no_emb t /\ ext_by_hash no_emb t /\ at_key t (bytesToNibbles key) p v /\
  (forall ps d, py_prove H (root_of H no_emb t) key ps = Some d -> collision H \/ d = Some (rlp_write (RBytes v)) /\ d <> Some v) /\
  (exists ps, py_prove H (root_of H no_emb t) key ps = Some (Some (rlp_write (RBytes v)))).
Proof.
  intros H HB. assert (B7 : bytes_ok [7]) by (repeat constructor; unfold is_byte; lia). assert (B8 : bytes_ok [200; 1]) by (repeat constructor; unfold is_byte; lia).
  destruct (two_facts H [7] [200; 1] HB B7 B8 ltac:(unfold zlen; cbn [length]; lia) ltac:(unfold zlen; cbn [length]; lia)) as (G & S & X & F). set (t := two_leaves [7] [200; 1]) in *.
  assert (A : exists p, at_key t (bytesToNibbles [18]) p [200; 1] /\ shown p [200; 1] = rlp_write (RBytes [200; 1])).
  { eexists. split; [change (bytesToNibbles [18]) with ([1; 2] ++ []); unfold t, two_leaves; constructor; apply at_end; discriminate|reflexivity]. }
  destruct A as (p & A & Sh). exists t, [18], p, [200; 1]. do 5 (split; [assumption|]). pose proof (C99_proof_accepted H no_emb t [18] p _ HB G S X A) as P. rewrite Sh in P. split; [|eauto].
  intros ps d E. destruct (C99_binding H _ _ _ _ _ _ E P) as [->|]; [|auto]. right. split; [reflexivity|]. discriminate.
Qed.
Print Assumptions C99_branch_value_refuted.

(** "Only keys of the tree are accepted" is false: a proper prefix of a key is accepted with the value of a leaf, and where the
    prefix ends at a branch without value, with the byte 128. *)
Theorem C99_only_keys_of_tree_refuted : forall H, hash_bytes H -> exists t ps ps', good t /\ forks t /\ sized H no_emb t /\ ext_by_hash no_emb t /\
  (forall p v, ~ at_key t (bytesToNibbles [18]) p v) /\ py_prove H (root_of H no_emb t) [18] ps = Some (Some [128]) /\
  (exists t', good t' /\ sized H no_emb t' /\ (forall p v, ~ at_key t' (bytesToNibbles [18]) p v) /\ py_prove H (root_of H no_emb t') [18] ps' = Some (Some [7])).
Proof.
  intros H HB. assert (B7 : bytes_ok [7]) by (repeat constructor; unfold is_byte; lia).
  destruct (two_facts H [7] [] HB B7 ltac:(constructor) ltac:(unfold zlen; cbn [length]; lia) ltac:(unfold zlen; cbn [length]; lia)) as (G & S & X & F). set (t := two_leaves [7] []) in *.
  set (b := TBranch ([Some (TLeaf [3] [7])] ++ repeat None 15) []) in *. set (l := TLeaf [1; 2; 3; 4] [7]).
  exists t, [bytes_of H no_emb t; bytes_of H no_emb b], [bytes_of H no_emb l]. do 4 (split; [assumption|]). split; [|split].
  - intros p v A. unfold t, two_leaves in A. remember (bytesToNibbles [18]) as K eqn:EK. change (bytesToNibbles [18]) with [1; 2] in EK. inversion A as [|? ? k q u A2| |]; subst. match goal with E : _ ++ _ = _ |- _ => rename E into EQ end.
    destruct k; [|discriminate]. inversion A2; subst. congruence.
  - unfold root_of. rewrite top_hash by assumption. change (H (bytes_of H no_emb t)) with (root_of H no_emb t). rewrite (np_root H HB) by assumption. cbn [ytree t two_leaves no_emb].
    rewrite np_ext. change (matchCount [1; 2] (bytesToNibbles [18])) with 2%nat. cbn [length Nat.ltb Nat.leb]. change (skipn 2 (bytesToNibbles [18])) with (@nil Z). fold b.
    inversion G; inversion S; subst. rewrite (np_root H HB) by assumption. reflexivity.
  - assert (Gl : good l) by (constructor; [repeat constructor; unfold nibble; lia|assumption]).
    assert (Sl : sized H no_emb l). { constructor. apply leaf_bytes_small; [repeat constructor; unfold nibble; lia|assumption|unfold zlen; cbn [length]; lia|unfold zlen; cbn [length]; lia]. }
    exists l. split; [assumption|]. split; [assumption|]. split; [intros p v A; inversion A|]. unfold root_of. rewrite top_hash by assumption. change (H (bytes_of H no_emb l)) with (root_of H no_emb l). rewrite (np_root H HB) by assumption. reflexivity.
Qed.
Print Assumptions C99_only_keys_of_tree_refuted.
(** A leaf whose value is the nil marker gives None instead of bytes. *)
Theorem C99_nil_value_refuted : forall H, hash_bytes H -> exists node, py_prove H (H node) [18] [node] = Some None.
Proof.
  intros H HB. exists (rlp_write (RList [RBytes [32; 18]; RNull])). rewrite top_hash by assumption. rewrite np_hash.
  set (node := rlp_write _). destruct (hash_cons H HB node) as (a & r & E). rewrite E, <- E, bytes_eqb_refl. cbn [negb]. rewrite (hash_is_ok H HB). reflexivity.
Qed.
Print Assumptions C99_nil_value_refuted.

(** The trees of C84: the values of the indexes 0 and 1; and a branch that contains a leaf, which the Java verifier cannot prove. *)
Example C99_ex_forks : forks ex_tree.
Proof.
  constructor. constructor; [exists 0%nat; eexists; reflexivity|]. intros i c E. destruct (ex_children i c E) as [[_ ->]|[_ ->]]; constructor.
Qed.
Example C99_ex_accepted : py_prove ex_H (root_of ex_H ex_emb ex_tree) (rlp_encode (PInt 1))
  (proof_of ex_H ex_emb [ex_tree; TBranch ([Some (TLeaf [] ex_v0); Some (TLeaf [] ex_v1)] ++ repeat None 14) []; TLeaf [] ex_v1]) = Some (Some ex_v1).
Proof. vm_compute. reflexivity. Qed.
Example C99_ex_contained : py_prove ex_H (root_of ex_H ex_emb2 ex_small) [18] (proof_of ex_H ex_emb2 [ex_small; TLeaf [2] [7]]) = Some (Some [7]) /\
  length (proof_of ex_H ex_emb2 [ex_small; TLeaf [2] [7]]) = 1%nat.
Proof. vm_compute. split; reflexivity. Qed.
