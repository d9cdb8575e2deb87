(** Theorems about Patricia proofs: C27. *)
From Coq Require Import String Ascii ZArith List Bool Lia.
From Coq Require Import ZifyBool.
From Verif Require Import Base L_Base M_IntConv M_Rlp M_Codec M_Mpt S_Mpt.
Import ListNotations.
Open Scope Z_scope.

Lemma leaf_bit : forall p, IsLeaf p = Z.testbit p 5.
Proof.
  intros p. unfold IsLeaf. change 32 with (2 ^ 5). 
  assert (E : Z.land p (2 ^ 5) = if Z.testbit p 5 then 2 ^ 5 else 0).
  { apply Z.bits_inj'. intros i Hi. rewrite Z.land_spec, Z.pow2_bits_eqb by lia.
    destruct (Z.eqb_spec 5 i) as [<-|].
    - rewrite andb_true_r. destruct (Z.testbit p 5); [rewrite Z.pow2_bits_eqb by lia; reflexivity|rewrite Z.bits_0; reflexivity].
    - rewrite andb_false_r. destruct (Z.testbit p 5); [rewrite Z.pow2_bits_eqb by lia; symmetry; apply Z.eqb_neq; lia|rewrite Z.bits_0; reflexivity]. }
  rewrite E. destruct (Z.testbit p 5); reflexivity.
Qed.

Lemma decode_node_items : forall b n, decode_node b = Ok n -> exists l, items b l /\ node_of_items l = Ok n.
Proof.
  intros b n E. unfold decode_node in E. destruct (UnmarshalFromBytes (TSlice TBytes) b) as [[v r]| |] eqn:EU; cbn [rbind fst] in E; try discriminate.
  destruct v as [| | | | | | |[l|]| | |]; try discriminate. exists (map bytes_of l). split; [|assumption].
  exists l, r. split; [assumption|reflexivity].
Qed.

Lemma items_fun : forall b l l', items b l -> items b l' -> l = l'.
Proof. intros b l l' (v & r & E & <-) (v' & r' & E' & <-). rewrite E in E'. congruence. Qed.

Lemma node_cases : forall l n, node_of_items l = Ok n ->
  (exists p nib d, l = [p :: nib; d] /\ Z.testbit p 5 = true /\ n = {| n_header := Some (p, nib); n_links := []; n_data := d |}) \/
  (exists p nib d, l = [p :: nib; d] /\ Z.testbit p 5 = false /\ n = {| n_header := Some (p, nib); n_links := [d]; n_data := [] |}) \/
  (length l = 17%nat /\ n = {| n_header := None; n_links := firstn 16 l; n_data := nth 16 l [] |}).
Proof.
  intros l n E. unfold node_of_items in E. destruct (Nat.eqb_spec (length l) 2) as [E2|].
  - destruct l as [|h [|d [|]]]; cbn in E2; try lia. destruct h as [|p nib]; [discriminate|]. rewrite leaf_bit in E.
    destruct (Z.testbit p 5) eqn:EB; injection E as <-; [left|right; left]; exists p, nib, d; auto.
  - destruct (Nat.eqb_spec (length l) 17) as [E17|]; [|discriminate]. injection E as <-. auto.
Qed.

Lemma find_link_spec : forall links h i j, find_link links h i = Some j -> (i <= j)%nat /\ nth_error links (j - i) = Some h /\ h <> [].
Proof.
  induction links as [|x links IH]; intros h i j E; cbn [find_link] in E; [discriminate|].
  destruct (negb (length x =? 0)%nat && bytes_eqb x h) eqn:EC.
  - injection E as <-. rewrite Nat.sub_diag. apply andb_true_iff in EC. destruct EC as [E1 E2].
    destruct (bytes_eqb_spec x h) as [->|]; [|discriminate]. split; [lia|]. split; [reflexivity|]. intros ->. discriminate.
  - destruct (IH _ _ _ E) as (A & B & C). split; [lia|]. split; [|assumption]. replace (j - i)%nat with (S (j - S i)) by lia. exact B.
Qed.

(** One step of the second loop. *)
Lemma link_step : forall H b n bl ns f, decode_node b = Ok n -> link_nodes (n :: ns) (map H (b :: bl)) = Ok f ->
  exists o f', f = o :: f' /\ link_nodes ns (map H bl) = Ok f' /\
    match o with
    | None => exists value, is_leaf b value /\ n_data n = value
    | Some i => exists b' bl', bl = b' :: bl' /\ refers b i (H b')
    end.
Proof.
  intros H b n bl ns f ED EL. destruct (decode_node_items b n ED) as (l & HI & HN).
  cbn [link_nodes map] in EL. destruct (node_cases l n HN) as [(p & nib & d & El & EB & ->)|[(p & nib & d & El & EB & ->)|[E17 ->]]]; subst; cbn [n_header n_links n_data] in *.
  - rewrite leaf_bit, EB in EL. destruct (link_nodes ns (map H bl)) as [f'| |]; cbn [rbind] in EL; try discriminate.
    injection EL as <-. exists None, f'. split; [reflexivity|]. split; [reflexivity|]. exists d. split; [|reflexivity]. exists p, nib. auto.
  - rewrite leaf_bit, EB in EL. destruct bl as [|b' bl]; cbn [map] in EL; [discriminate|].
    destruct (bytes_eqb_spec d (H b')) as [ED'|]; [|discriminate]. rewrite ED' in HI.
    destruct (link_nodes ns (H b' :: map H bl)) as [f'| |] eqn:EF; cbn [rbind] in EL; try discriminate.
    injection EL as <-. exists (Some 0%nat), f'. split; [reflexivity|]. split; [exact EF|]. exists b', bl. split; [reflexivity|].
    left. split; [reflexivity|]. exists p, nib. auto.
  - destruct bl as [|b' bl]; cbn [map] in EL; [discriminate|].
    destruct (find_link (firstn 16 l) (H b') 0) as [i|] eqn:EF; [|discriminate].
    destruct (link_nodes ns (H b' :: map H bl)) as [f'| |] eqn:EF'; cbn [rbind] in EL; try discriminate.
    injection EL as <-. exists (Some i), f'. split; [reflexivity|]. split; [exact EF'|]. exists b', bl. split; [reflexivity|].
    right. exists l. destruct (find_link_spec _ _ _ _ EF) as (_ & F1 & F2). rewrite Nat.sub_0_r in F1.
    assert (Hi : (i < 16)%nat). { assert (i < length (firstn 16 l))%nat by (apply nth_error_Some; congruence). rewrite firstn_length in H0. lia. }
    split; [assumption|]. split; [assumption|]. split; [assumption|]. split; [|assumption].
    rewrite <- (firstn_skipn 16 l), nth_error_app1; [assumption|]. rewrite firstn_length, E17. exact Hi.
Qed.

(** Every accepted node is a leaf, or refers to the hash of the node after it. *)
Theorem C27_nodes_are_linked : forall H bl mp, NewMptProof H bl = Ok mp ->
  length (mp_follow mp) = length bl /\ mp_hashes mp = map H bl /\
  forall k b, nth_error bl k = Some b ->
    (nth_error (mp_follow mp) k = Some None /\ exists value, is_leaf b value) \/
    (exists i b', nth_error (mp_follow mp) k = Some (Some i) /\ nth_error bl (S k) = Some b' /\ refers b i (H b')).
Proof.
  intros H bl mp E. unfold NewMptProof in E. destruct (decode_nodes bl) as [ns| |] eqn:EN; cbn [rbind] in E; try discriminate.
  destruct (link_nodes ns (map H bl)) as [f| |] eqn:EL; cbn [rbind] in E; try discriminate. injection E as <-. cbn [mp_follow mp_hashes].
  revert ns f EN EL. induction bl as [|b bl IH]; intros ns f EN EL.
  - cbn in EN. injection EN as <-. cbn in EL. injection EL as <-. split; [reflexivity|]. split; [reflexivity|]. intros [|k]; discriminate.
  - cbn [decode_nodes] in EN. destruct (decode_node b) as [n| |] eqn:ED; cbn [rbind] in EN; try discriminate.
    destruct (decode_nodes bl) as [ns'| |] eqn:EN'; cbn [rbind] in EN; try discriminate. injection EN as <-.
    destruct (link_step H b n bl ns' f ED EL) as (o & f' & -> & EL' & HO).
    destruct (IH ns' f' eq_refl EL') as (L & _ & HK). split; [cbn; congruence|]. split; [reflexivity|].
    intros [|k] x Hx; cbn [nth_error] in Hx |- *.
    + injection Hx as <-. destruct o as [i|].
      * destruct HO as (b' & bl' & -> & HR). right. exists i, b'. auto.
      * destruct HO as (v & HL & _). left. split; [reflexivity|]. exists v. assumption.
    + apply HK. assumption.
Qed.
Print Assumptions C27_nodes_are_linked.

(** The value returned is that of the last node, which is a leaf. *)
Theorem C27_returns_last_leaf : forall H bl b mp n, NewMptProof H (bl ++ [b]) = Ok mp -> mp_Leaf mp = Ok n ->
  is_leaf b (n_data n) /\ decode_node b = Ok n.
Proof.
  intros H bl b mp n E EL. unfold NewMptProof in E. destruct (decode_nodes (bl ++ [b])) as [ns| |] eqn:EN; cbn [rbind] in E; try discriminate.
  destruct (link_nodes ns (map H (bl ++ [b]))) as [f| |] eqn:EF; cbn [rbind] in E; try discriminate. injection E as <-.
  unfold mp_Leaf in EL. cbn [mp_nodes] in EL.
  assert (G : nth_error ns (length ns - 1) = Some n) by (destruct ns as [|x ns]; [discriminate|]; destruct (nth_error (x :: ns) (length (x :: ns) - 1)); congruence). clear EL.
  revert ns f EN EF G. induction bl as [|b0 bl IH]; intros ns f EN EF G; cbn [app decode_nodes map] in EN, EF.
  - destruct (decode_node b) as [n0| |] eqn:ED; cbn [rbind] in EN; try discriminate. injection EN as <-. cbn in G. injection G as <-.
    change [H b] with (map H [b]) in EF. destruct (link_step H b n0 [] [] f ED EF) as (o & f' & _ & _ & HO).
    destruct o as [i|]; [destruct HO as (b' & bl' & X & _); discriminate|]. destruct HO as (v & HL & <-). auto.
  - destruct (decode_node b0) as [n0| |] eqn:ED; cbn [rbind] in EN; try discriminate.
    destruct (decode_nodes (bl ++ [b])) as [ns'| |] eqn:EN'; cbn [rbind] in EN; try discriminate. injection EN as <-.
    change (H b0 :: map H (bl ++ [b])) with (map H (b0 :: (bl ++ [b]))) in EF.
    destruct (link_step H b0 n0 (bl ++ [b]) ns' f ED EF) as (o & f' & _ & EF' & _).
    apply (IH ns' f' eq_refl EF'). destruct ns' as [|x ns'].
    + destruct bl as [|y bl]; cbn [app decode_nodes] in EN'.
      * destruct (decode_node b); cbn in EN'; discriminate.
      * destruct (decode_node y); cbn [rbind] in EN'; try discriminate. destruct (decode_nodes (bl ++ [b])); cbn in EN'; discriminate.
    + cbn [length] in G |- *. rewrite Nat.sub_succ, Nat.sub_0_r in *. exact G.
Qed.
Print Assumptions C27_returns_last_leaf.

(** The root hash and the branches taken determine the proof: two accepted proofs that start at the same hash
    and take the same references, with no leaf before the end of the first, agree byte for byte as far as the
    first goes, and so give the same value. *)
Theorem C27_binding : forall H bl bl' mp mp',
  NewMptProof H bl = Ok mp -> NewMptProof H bl' = Ok mp' ->
  (forall k o, nth_error (mp_follow mp) k = Some o -> nth_error (mp_follow mp') k = Some o) ->
  (forall k, nth_error (mp_follow mp) k = Some None -> S k = length bl) ->
  map H (firstn 1 bl) = map H (firstn 1 bl') ->
  firstn (length bl) bl' = bl \/ collision H.
Proof.
  intros H bl bl' mp mp' E E' HF HN HR.
  assert (HI : forall x y, H x = H y -> x = y \/ collision H).
  { intros x y EQ. destruct (list_eq_dec Z.eq_dec x y); [auto|]. right. exists x, y. auto. }
  destruct (C27_nodes_are_linked H bl mp E) as (L1 & _ & K1). destruct (C27_nodes_are_linked H bl' mp' E') as (L2 & _ & K2).
  assert (G : forall n, (n <= length bl)%nat -> (firstn n bl' = firstn n bl) \/ collision H).
  { induction n as [|n IH]; intros Hn; [auto|]. destruct (IH ltac:(lia)) as [EQ|]; [|auto].
    assert (Hx : exists x, nth_error bl n = Some x) by (destruct (nth_error bl n) eqn:EX; [eauto|apply nth_error_None in EX; lia]).
    destruct Hx as [x Hx].
    assert (S1 : forall (l : list (list Z)) y, nth_error l n = Some y -> firstn (S n) l = firstn n l ++ [y]).
    { clear. intros l y. revert l. induction n as [|n IH]; intros [|z l] E; cbn in E; try discriminate; [injection E as ->; reflexivity|].
      cbn [firstn app]. f_equal. apply IH. assumption. }
    assert (HY : (exists y, nth_error bl' n = Some y /\ H x = H y) \/ collision H).
    { destruct n as [|n].
      - destruct bl as [|x0 bl]; [discriminate|]. injection Hx as ->. destruct bl' as [|y bl']; cbn in HR; [discriminate|]. left. exists y. split; [reflexivity|congruence].
      - assert (Hp : exists p, nth_error bl n = Some p) by (destruct (nth_error bl n) eqn:EX; [eauto|apply nth_error_None in EX; lia]).
        destruct Hp as [p Hp]. assert (Hp' : nth_error bl' n = Some p).
        { assert (nth_error (firstn (S n) bl') n = nth_error (firstn (S n) bl) n) by congruence.
          rewrite <- (firstn_skipn (S n) bl) in Hp. rewrite nth_error_app1 in Hp by (rewrite firstn_length; lia).
          rewrite <- H0 in Hp. rewrite <- (firstn_skipn (S n) bl'). rewrite nth_error_app1; [assumption|].
          apply nth_error_Some. congruence. }
        destruct (K1 n p Hp) as [[F1 _]|(i & b1 & F1 & B1 & R1)]; [apply HN in F1; lia|].
        pose proof (HF _ _ F1) as F2. destruct (K2 n p Hp') as [[F3 _]|(i' & b2 & F3 & B2 & R2)]; [congruence|].
        assert (i' = i) by congruence. subst i'. left. exists b2. split; [assumption|]. assert (b1 = x) by congruence. subst b1.
        destruct R1 as [(_ & p1 & nb1 & I1 & _)|(l1 & I1 & N1 & _ & V1 & _)], R2 as [(_ & p2 & nb2 & I2 & _)|(l2 & I2 & N2 & _ & V2 & _)];
          pose proof (items_fun _ _ _ I1 I2) as EI; subst; try (cbn in *; lia); congruence. }
    destruct HY as [(y & Hy & EH)|]; [|auto]. destruct (HI _ _ EH) as [->|]; [left|auto]. rewrite (S1 _ _ Hx), (S1 _ _ Hy), EQ. reflexivity. }
  destruct (G (length bl) (le_n _)) as [G1|]; [left|auto]. rewrite G1, firstn_all. reflexivity.
Qed.
Print Assumptions C27_binding.

(** A leaf in the middle of a proof is accepted and cuts the chain of hashes: whatever the first node is (say
    a leaf under a known root), the caller is given the value of an unrelated one. *)
Theorem C27_leaf_inside_refuted : forall H b b' v v', is_leaf b v -> is_leaf b' v' ->
  exists mp n, NewMptProof H [b; b'] = Ok mp /\ mp_Leaf mp = Ok n /\ n_data n = v'.
Proof.
  assert (D : forall b v, is_leaf b v -> exists p nib, decode_node b = Ok {| n_header := Some (p, nib); n_links := []; n_data := v |} /\ IsLeaf p = true).
  { intros b v (p & nib & (vs & r & E & Em) & EB). exists p, nib. rewrite leaf_bit. split; [|assumption].
    unfold decode_node. rewrite E. cbn [rbind fst]. change (fun v => match v with VBytes (Some x) => x | _ => [] end) with bytes_of in Em. rewrite Em.
    unfold node_of_items. cbn [length Nat.eqb]. rewrite leaf_bit, EB. reflexivity. }
  intros H b b' v v' L L'. destruct (D _ _ L) as (p & nib & E & EP). destruct (D _ _ L') as (p' & nib' & E' & EP').
  unfold NewMptProof. cbn [decode_nodes map]. rewrite E, E'. cbn [rbind link_nodes n_header]. rewrite EP, EP'. cbn [rbind].
  do 2 eexists. split; [reflexivity|]. split; [reflexivity|]. reflexivity.
Qed.
Print Assumptions C27_leaf_inside_refuted.

(** A proof that stops at a branch or an extension makes the code read past the end of the hashes and panic. *)
Theorem C27_truncated_proof_panics_refuted : forall H b,
  (exists n, decode_node b = Ok n /\ forall v, ~ is_leaf b v) -> NewMptProof H [b] = Panic.
Proof.
  intros H b (n & E & HL). unfold NewMptProof. cbn [decode_nodes map]. rewrite E. cbn [rbind].
  destruct (decode_node_items b n E) as (l & HI & HN).
  destruct (node_cases l n HN) as [(p & nib & d & -> & EB & ->)|[(p & nib & d & -> & EB & ->)|[E17 ->]]]; cbn [link_nodes n_header].
  - exfalso. apply (HL d). exists p, nib. auto.
  - rewrite leaf_bit, EB. reflexivity.
  - reflexivity.
Qed.
Print Assumptions C27_truncated_proof_panics_refuted.

(** A two-item node whose first item is empty panics as well. *)
Theorem C27_empty_path_panics_refuted : NewMptProof (fun b => b) [[194; 128; 128]] = Panic.
Proof. vm_compute. reflexivity. Qed.
Print Assumptions C27_empty_path_panics_refuted.

(** A toy hash for the examples. *)
Definition toy2 (b : list Z) : list Z := [1 + (fold_left (fun a x => (a * 3 + x) mod 251) b 0); Z.of_nat (length b)].
Definition ex_leaf : list Z := [196; 130; 32; 7; 42].                      (* [0x2007, 0x2a] *)
Definition ex_ext : list Z := [196; 0] ++ [130] ++ toy2 ex_leaf.           (* [0x00, H(leaf)] *)
Definition ex_branch : list Z := [211; 128; 128; 130] ++ toy2 ex_ext ++ repeat 128 14.
Example C27_ex : is_leaf ex_leaf [42] /\ refers ex_ext 0 (toy2 ex_leaf) /\ refers ex_branch 2 (toy2 ex_ext) /\
  exists mp n, NewMptProof toy2 [ex_branch; ex_ext; ex_leaf] = Ok mp /\ mp_follow mp = [Some 2%nat; Some 0%nat; None] /\ mp_Leaf mp = Ok n /\ n_data n = [42].
Proof.
  split; [|split; [|split]].
  - exists 32, [7]. split; [|reflexivity]. do 2 eexists. split; vm_compute; reflexivity.
  - left. split; [reflexivity|]. exists 0, []. split; [|reflexivity]. do 2 eexists. split; vm_compute; reflexivity.
  - right. eexists. split; [do 2 eexists; split; vm_compute; reflexivity|]. split; [reflexivity|]. split; [repeat constructor|].
    split; [vm_compute; reflexivity|discriminate].
  - do 2 eexists. split; [vm_compute; reflexivity|]. split; [reflexivity|]. split; vm_compute; reflexivity.
Qed.
(** A changed leaf is refused; a truncated proof panics. *)
Example C27_ex2 : NewMptProof toy2 [ex_branch; ex_ext; [196; 130; 32; 7; 43]] = Err 2 /\ NewMptProof toy2 [ex_branch] = Panic /\
  NewMptProof toy2 [ex_branch; ex_leaf] = Err 3.
Proof. vm_compute. auto. Qed.
