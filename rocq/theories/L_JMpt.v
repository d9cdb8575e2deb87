(** Lemmas about the Patricia tree of the ICON block verifier. *)
From Coq Require Import String Ascii ZArith List Bool Lia.
From Coq Require Import ZifyBool.
From Verif Require Import Base L_Base M_IntConv S_IntConv L_IntConv M_Rlp S_Rlp L_Rlp M_Codec M_Wire M_JMpt S_JMpt.
Import ListNotations.
Open Scope Z_scope.

(** ** Reading trees *)
Fixpoint tree_node (t : rlp) : result jnode :=
  match t with
  | RList l =>
      rbind ((fix go (i : nat) (l : list rlp) {struct l} : result (list jitem) :=
        match l with
        | [] => Ok []
        | x :: r =>
            match x with
            | RBytes b => if (i <? 17)%nat then rbind (go (S i) r) (fun l => Ok (IBytes b :: l)) else Panic
            | _ => if (i <? 16)%nat then rbind (tree_node x) (fun n => rbind (go (S i) r) (fun l => Ok (INode n :: l))) else Err 1
            end
        end) 0%nat l) node_of
  | RNull => node_of []
  | RBytes _ => Panic
  end.
Fixpoint tree_items (i : nat) (l : list rlp) {struct l} : result (list jitem) :=
  match l with
  | [] => Ok []
  | x :: r =>
      match x with
      | RBytes b => if (i <? 17)%nat then rbind (tree_items (S i) r) (fun l => Ok (IBytes b :: l)) else Panic
      | _ => if (i <? 16)%nat then rbind (tree_node x) (fun n => rbind (tree_items (S i) r) (fun l => Ok (INode n :: l))) else Err 1
      end
  end.
Lemma tree_node_list : forall l, tree_node (RList l) = rbind (tree_items 0 l) node_of.
Proof. reflexivity. Qed.

Lemma write_len : forall t, (1 <= length (rlp_write t))%nat.
Proof. intros t. pose proof (rlp_write_pos t). unfold zlen in *. lia. Qed.

Lemma readNode_tree : forall t, rlp_ok t -> zlen (rlp_write t) < 2 ^ 63 ->
  match t with RBytes _ => True | _ =>
    forall f rest, (2 * length (rlp_write t) <= f)%nat -> readNode f (rlp_write t ++ rest) = rbind (tree_node t) (fun n => Ok (n, rest))
  end.
Proof.
  induction t as [|b|l IH] using rlp_ind2; intros HO HS; [| exact I|].
  - intros f rest Hf. destruct f as [|f]; [pose proof (write_len RNull); lia|]. cbn [readNode]. unfold beginList. cbn [rlp_write].
    rewrite readList_null. destruct f; reflexivity.
  - intros f rest Hf. destruct (small_children l HS) as [HC HF]. apply rlp_ok_in in HO. destruct f as [|f]; [pose proof (write_len (RList l)); lia|].
    cbn [readNode]. unfold beginList. cbn [rlp_write] in *. rewrite readList_write by assumption. rewrite tree_node_list.
    pose proof (writeList_len (concat (map rlp_write l))) as HL.
    assert (G : forall f i, (2 * length (concat (map rlp_write l)) + 1 <= f)%nat -> readItems f i (concat (map rlp_write l)) = tree_items i l).
    { clear HC HL Hf f HS. induction l as [|x l IHl]; intros f i Hf; [destruct f; reflexivity|].
      inversion IH as [|? ? IHx IHr]; subst. inversion HF as [|? ? Fx Fr]; subst. inversion HO as [|? ? Ox Or]; subst.
      cbn [map concat] in *. rewrite app_length in Hf. pose proof (write_len x) as Lx.
      destruct f as [|f]; [lia|]. cbn [readItems].
      destruct (rlp_write x ++ concat (map rlp_write l)) as [|w0 w] eqn:EW; [apply app_eq_nil in EW; destruct EW as [EW _]; rewrite EW in Lx; cbn in Lx; lia|]. rewrite <- EW. clear EW.
      unfold readByteArray. destruct x as [|b|l0]; cbn [rlp_write tree_items].
      - rewrite readBytes_null. destruct (i <? 16)%nat; [|reflexivity]. cbn [rlp_write] in *. rewrite (IHx Ox Fx f) by lia.
        destruct (tree_node RNull); cbn [rbind fst snd]; try reflexivity. rewrite IHl by (assumption || lia). reflexivity.
      - pose proof (writeBytes_len b) as Lb. cbn [rlp_write] in Fx, Lx, Hf. rewrite readBytes_write by (assumption || lia). destruct (i <? 17)%nat; [|reflexivity].
        rewrite IHl by (assumption || lia). reflexivity.
      - destruct (small_children l0 Fx) as [HC0 _]. rewrite readBytes_list by assumption. destruct (i <? 16)%nat; [|reflexivity].
        cbn [rlp_write] in *. rewrite (IHx Ox Fx f) by lia. destruct (tree_node (RList l0)); cbn [rbind fst snd]; try reflexivity.
        rewrite IHl by (assumption || lia). reflexivity. }
    rewrite G by (unfold zlen in HL; lia). destruct (tree_items 0 l) as [arr| |]; cbn [rbind]; try reflexivity. 
Qed.

(** more fuel changes nothing *)
Lemma readByteArray_shorter : forall s b r, readByteArray s = Some (b, r) -> (length r < length s)%nat.
Proof.
  intros s b r E. unfold readByteArray in E. destruct (readBytes s) as [b' r'| | | |] eqn:ER; try discriminate. injection E as -> ->.
  destruct s as [|tag s]; cbn [readBytes] in ER; [discriminate|]. cbn [length].
  assert (RA : forall n s0, readAll n s0 = ROk b r -> (length r <= length s0)%nat).
  { intros n s0 X. unfold readAll in X. destruct (read_full n s0) as [[y z]|] eqn:EF; [|discriminate]. injection X as -> ->.
    apply read_full_some in EF. destruct EF as [-> _]. rewrite app_length. lia. }
  assert (RS : forall n s0 z s1, readSize n s0 = Some (z, s1) -> (length s1 <= length s0)%nat).
  { intros n s0 z s1 X. unfold readSize in X. destruct (read_full n s0) as [[y w]|] eqn:EF; [|discriminate]. injection X as <- <-.
    apply read_full_some in EF. destruct EF as [-> _]. rewrite app_length. lia. }
  destruct (tag <? 128); [injection ER as <- <-; lia|]. destruct (tag <=? 183); [apply RA in ER; lia|]. destruct (tag <? 192).
  - destruct (readSize (tag - 183) s) as [[sz s2]|] eqn:ES; [|discriminate]. destruct (sz <? 0); [discriminate|]. apply RA in ER. apply RS in ES. lia.
  - destruct (tag =? 248); [|discriminate]. destruct (readSize 1 s) as [[sz s2]|]; [|discriminate]. destruct (sz =? 0); discriminate.
Qed.
Lemma beginList_shorter : forall s b r, beginList s = Some (b, r) -> (length b < length s /\ length r < length s)%nat.
Proof.
  intros s b r E. unfold beginList in E. destruct s as [|tag s]; cbn [readList] in E; [discriminate|]. cbn [length].
  assert (RL : forall n s0, (match limited n s0 with ROk body r => Some (body, r) | RNil r => Some ([], r) | _ => None end) = Some (b, r) -> (length b <= length s0 /\ length r <= length s0)%nat).
  { intros n s0 X. unfold limited in X. destruct (zlen s0 <=? n); injection X as <- <-; [cbn [length]; lia|]. rewrite firstn_length, skipn_length. lia. }
  assert (RS : forall n s0 z s1, readSize n s0 = Some (z, s1) -> (length s1 <= length s0)%nat).
  { intros n s0 z s1 X. unfold readSize in X. destruct (read_full n s0) as [[y w]|] eqn:EF; [|discriminate]. injection X as <- <-.
    apply read_full_some in EF. destruct EF as [-> _]. rewrite app_length. lia. }
  destruct (tag <? 192); [discriminate|]. destruct (tag <=? 247); [apply RL in E; lia|].
  destruct (readSize (tag - 247) s) as [[sz s2]|] eqn:ES; [|discriminate]. apply RS in ES.
  destruct ((tag - 247 =? 1) && (sz =? 0)); [injection E as <- <-; cbn [length]; lia|]. apply RL in E. lia.
Qed.
Lemma readNode_shorter : forall f s n r, readNode f s = Ok (n, r) -> (length r < length s)%nat.
Proof.
  intros f s n r E. destruct f; cbn [readNode] in E; [discriminate|]. destruct (beginList s) as [[body r']|] eqn:EB; [|discriminate].
  apply beginList_shorter in EB. destruct (readItems f 0 body); cbn [rbind] in E; try discriminate. destruct (node_of a); cbn [rbind] in E; try discriminate.
  injection E as <- <-. lia.
Qed.
Lemma fuel_enough : forall n,
  (forall s f f', (length s <= n)%nat -> (2 * length s <= f)%nat -> (2 * length s <= f')%nat -> readNode f s = readNode f' s) /\
  (forall s i f f', (length s <= n)%nat -> (2 * length s + 1 <= f)%nat -> (2 * length s + 1 <= f')%nat -> readItems f i s = readItems f' i s).
Proof.
  induction n as [|n [IHn IHi]].
  - split; intros s; intros; (destruct s; [|cbn [length] in *; lia]).
    + destruct f, f'; reflexivity.
    + destruct f, f'; reflexivity.
  - assert (N : forall s f f', (length s <= S n)%nat -> (2 * length s <= f)%nat -> (2 * length s <= f')%nat -> readNode f s = readNode f' s).
    { intros s f f' Hs Hf Hf'. destruct s as [|x s]; [destruct f, f'; reflexivity|]. destruct f as [|f]; [cbn [length] in *; lia|]. destruct f' as [|f']; [cbn [length] in *; lia|].
      cbn [readNode]. destruct (beginList (x :: s)) as [[body r]|] eqn:EB; [|reflexivity]. apply beginList_shorter in EB. cbn [length] in *.
      rewrite (IHi body 0%nat f f') by lia. reflexivity. }
    split; [exact N|]. intros s i f f' Hs Hf Hf'. destruct s as [|x s]; [destruct f, f'; reflexivity|].
    destruct f as [|f]; [lia|]. destruct f' as [|f']; [lia|]. cbn [readItems]. cbn [length] in *.
    destruct (readByteArray (x :: s)) as [[b r]|] eqn:EB.
    + apply readByteArray_shorter in EB. cbn [length] in *. destruct (i <? 17)%nat; [|reflexivity]. rewrite (IHi r (S i) f f') by lia. reflexivity.
    + destruct (i <? 16)%nat; [|reflexivity]. rewrite (N (x :: s) f f') by (cbn [length]; lia).
      destruct (readNode f' (x :: s)) as [[nd r]| |] eqn:EN; cbn [rbind fst snd]; try reflexivity. apply readNode_shorter in EN. cbn [length] in EN.
      rewrite (IHi r (S i) f f') by lia. reflexivity.
Qed.
(** The fuel of [node_fromBytes] is enough: any more gives the same. *)
Lemma readNode_fuel : forall s f, (2 * length s <= f)%nat -> readNode f s = readNode (2 * length s) s.
Proof. intros s f Hf. apply (proj1 (fuel_enough (length s))); lia. Qed.

Lemma fromBytes_tree : forall l rest, rlp_ok (RList l) -> zlen (rlp_write (RList l)) < 2 ^ 63 -> node_fromBytes (rlp_write (RList l) ++ rest) = tree_node (RList l).
Proof.
  intros l rest HO HS. unfold node_fromBytes. pose proof (readNode_tree (RList l) HO HS) as X. cbv beta iota in X.
  rewrite X by (rewrite app_length; lia). destruct (tree_node (RList l)); reflexivity.
Qed.

(** ** Nibbles *)
Lemma nib_of_byte : forall a b, nibble a -> nibble b -> Z.land (Z.shiftr (16 * a + b) 4) 15 = a /\ Z.land (16 * a + b) 15 = b.
Proof.
  intros a b Ha Hb. unfold nibble in *. change 15 with (Z.ones 4). rewrite !Z.land_ones, Z.shiftr_div_pow2 by lia. change (2 ^ 4) with 16.
  split.
  - replace ((16 * a + b) / 16) with a by (apply Z.div_unique with b; lia). apply Z.mod_small. lia.
  - symmetry. apply Z.mod_unique with a; lia.
Qed.
Lemma unpack : forall n l, (length l < n)%nat -> Forall nibble l -> Nat.even (length l) = true -> bytesToNibbles (pack l) = l.
Proof.
  induction n as [|n IH]; intros l Hn HF HE; [lia|]. destruct l as [|a [|b l]]; [reflexivity|discriminate|].
  cbn [pack bytesToNibbles flat_map]. inversion HF as [|? ? Ha HF']; subst. inversion HF' as [|? ? Hb HF2]; subst.
  destruct (nib_of_byte a b Ha Hb) as [-> ->]. cbn [app]. do 2 f_equal. apply IH; [cbn [length] in Hn; lia|assumption|exact HE].
Qed.
Lemma pack_ok : forall n l, (length l < n)%nat -> Forall nibble l -> bytes_ok (pack l).
Proof.
  induction n as [|n IH]; intros l Hn HF; [lia|]. destruct l as [|a [|b l]]; try constructor.
  - inversion HF as [|? ? Ha HF']; subst. inversion HF' as [|? ? Hb HF2]; subst. unfold is_byte, nibble in *. lia.
  - inversion HF as [|? ? Ha HF']; subst. inversion HF' as [|? ? Hb HF2]; subst. apply IH; [cbn [length] in Hn; lia|assumption].
Qed.
Lemma compact_ok : forall leaf nib, Forall nibble nib -> bytes_ok (compact leaf nib).
Proof.
  intros leaf nib HF. unfold compact. destruct (Nat.even (length nib)).
  - constructor; [unfold is_byte; destruct leaf; lia|]. apply (pack_ok (S (length nib))); [lia|assumption].
  - destruct nib as [|a r]; [constructor|]. inversion HF as [|? ? Ha HF']; subst. constructor; [unfold is_byte, nibble in *; destruct leaf; lia|].
    apply (pack_ok (S (length r))); [lia|assumption].
Qed.
Lemma land_16 : forall a, nibble a -> Z.land (16 + a) 16 = 16 /\ Z.land (16 + a) 15 = a /\ Z.land (16 + a) 32 = 0 /\
  Z.land (48 + a) 16 = 16 /\ Z.land (48 + a) 15 = a /\ Z.land (48 + a) 32 = 32.
Proof.
  intros a Ha. unfold nibble in Ha.
  assert (E : a = 0 \/ a = 1 \/ a = 2 \/ a = 3 \/ a = 4 \/ a = 5 \/ a = 6 \/ a = 7 \/ a = 8 \/ a = 9 \/ a = 10 \/ a = 11 \/ a = 12 \/ a = 13 \/ a = 14 \/ a = 15) by lia.
  repeat (destruct E as [->|E]; [repeat split; reflexivity|]). subst. repeat split; reflexivity.
Qed.
Lemma node_of_two : forall leaf nib b, Forall nibble nib -> node_of [IBytes (compact leaf nib); IBytes b] = Ok (if leaf then NLeaf nib b else NExt nib b).
Proof.
  intros leaf nib b HF. unfold node_of. cbn [length Nat.eqb]. unfold compact. destruct (Nat.even (length nib)) eqn:EE.
  - rewrite unpack with (n := S (length nib)) by (lia || assumption). destruct leaf; reflexivity.
  - destruct nib as [|a r]; [discriminate|]. inversion HF as [|? ? Ha HF']; subst. destruct (land_16 a Ha) as (A1 & A2 & A3 & A4 & A5 & A6).
    assert (ER : Nat.even (length r) = true). { cbn [length] in EE. rewrite Nat.even_succ in EE. rewrite <- Nat.negb_odd, EE. reflexivity. }
    rewrite unpack with (n := S (length r)) by (lia || assumption). destruct leaf.
    + change (32 + 16 + a) with (48 + a). rewrite A4, A5, A6. reflexivity.
    + change (0 + 16 + a) with (16 + a). rewrite A1, A2, A3. reflexivity.
Qed.

(** ** Nodes of a tree *)
Lemma tree_items_inv : forall l i arr, tree_items i l = Ok arr ->
  Forall2 (fun t x => match t with RBytes b => x = IBytes b | _ => exists n, tree_node t = Ok n /\ x = INode n end) l arr.
Proof.
  induction l as [|t l IH]; intros i arr E; cbn [tree_items] in E; [injection E as <-; constructor|].
  destruct t as [|b|l0].
  - destruct (i <? 16)%nat; discriminate.
  - destruct (i <? 17)%nat; [|discriminate]. destruct (tree_items (S i) l) eqn:EL; cbn [rbind] in E; try discriminate. injection E as <-.
    constructor; [reflexivity|eapply IH; eassumption].
  - destruct (i <? 16)%nat; [|discriminate]. destruct (tree_node (RList l0)) as [n| |] eqn:EN; cbn [rbind] in E; try discriminate.
    destruct (tree_items (S i) l) eqn:EL; cbn [rbind] in E; try discriminate. injection E as <-. constructor; [eauto|eapply IH; eassumption].
Qed.
Lemma tree_items_ok : forall l i d, (i + length l <= 16)%nat ->
  Forall (fun t => match t with RBytes b => True | _ => exists n, tree_node t = Ok n end) l -> exists arr, tree_items i (l ++ [RBytes d]) = Ok arr.
Proof.
  induction l as [|t l IH]; intros i d Hi HF.
  - cbn [app tree_items]. cbn [length] in Hi. replace (i <? 17)%nat with true by lia. cbn [rbind]. eauto.
  - inversion HF as [|? ? Ht HF']; subst. cbn [length] in Hi. destruct (IH (S i) d ltac:(lia) HF') as [arr E]. cbn [app tree_items].
    replace (i <? 16)%nat with true by lia. replace (i <? 17)%nat with true by lia. destruct t as [|b|l0]; [destruct Ht as [n ->]| |destruct Ht as [n ->]];
      cbn [rbind]; rewrite E; cbn [rbind]; eauto.
Qed.

Section NODES.
Context (H : list Z -> list Z) (HB : hash_bytes H) (emb : trie -> bool).
Notation item_of := (item_of H emb).
Notation bytes_of := (bytes_of H emb).
Notation root_of := (root_of H emb).
(** what reading the bytes of a tree's top node gives *)
Definition child_for (o : option trie) (c : option jnode) : Prop :=
  match o with
  | None => c = None
  | Some t => if emb t then exists n, c = Some n /\ match n with NHash _ => False | _ => True end else c = Some (NHash (root_of t))
  end.
Definition node_for (t : trie) (n : jnode) : Prop :=
  match t with
  | TLeaf nib v => n = NLeaf nib v
  | TExt nib c => emb c = false /\ n = NExt nib (root_of c)
  | TBranch cs v => exists l, n = NBranch l v /\ Forall2 child_for cs l
  end.

Lemma item_list : forall t, exists l, item_of t = RList l.
Proof. intros [nib v|nib c|cs v]; cbn [S_JMpt.item_of]; eauto. Qed.
Lemma hash_cons : forall x, exists a r, H x = a :: r.
Proof using HB. intros x. destruct (HB x) as [_ E]. destruct (H x); [discriminate|eauto]. Qed.
Lemma node_of_kind : forall arr n, node_of arr = Ok n -> match n with NHash _ => False | _ => True end.
Proof.
  intros arr n E. unfold node_of in E. destruct (length arr =? 2)%nat.
  - destruct arr as [|[hd|] [|[b|] [|]]]; try discriminate. destruct hd; [discriminate|]. injection E as <-. destruct (negb _); exact I.
  - destruct (length arr =? 17)%nat; [|discriminate]. destruct (nth_error arr 16) as [[d|]|]; try discriminate. injection E as <-. exact I.
Qed.
Lemma tree_node_kind : forall t n, tree_node t = Ok n -> match n with NHash _ => False | _ => True end.
Proof.
  intros [|b|l] n E; [discriminate|discriminate|]. rewrite tree_node_list in E. destruct (tree_items 0 l); cbn [rbind] in E; try discriminate. eapply node_of_kind; eassumption.
Qed.

Lemma good_item : forall t, good t -> rlp_ok (item_of t).
Proof using HB.
  intros t G. induction G as [nib v F V|nib t F G IH|cs v L V G IH N]; cbn [S_JMpt.item_of rlp_ok fold_right].
  - split; [apply compact_ok; assumption|]. split; [assumption|exact I].
  - split; [apply compact_ok; assumption|]. split; [|exact I]. destruct (emb t); [assumption|]. apply HB.
  - assert (K : forall l, (forall c, In (Some c) l -> rlp_ok (item_of c)) -> fold_right (fun t p => rlp_ok t /\ p) True
        (map (fun o : option trie => match o with Some c => if emb c then item_of c else RBytes (H (rlp_write (item_of c))) | None => RBytes [] end) l ++ [RBytes v])).
    { induction l as [|[c|] l IHl]; intros Hl; cbn [map app fold_right].
      - split; [assumption|exact I].
      - split; [destruct (emb c); [apply Hl; left; reflexivity|apply HB]|]. apply IHl. intros c' Hc. apply Hl. right. assumption.
      - split; [constructor|]. apply IHl. intros c' Hc. apply Hl. right. assumption. }
    apply K. intros c Hc. apply In_nth_error in Hc. destruct Hc as [i Hi]. eauto.
Qed.

Lemma read_node_for : forall t n, good t -> tree_node (item_of t) = Ok n -> node_for t n.
Proof using HB.
  intros t n G E. destruct G as [nib v F V|nib t F G|cs v L V G N]; cbn [S_JMpt.item_of] in E; rewrite tree_node_list in E.
  - cbn [tree_items Nat.ltb Nat.leb rbind] in E. rewrite node_of_two in E by assumption. injection E as <-. reflexivity.
  - destruct (emb t) eqn:EE.
    + exfalso. destruct (item_list t) as [l EL]. rewrite EL in E. cbn [tree_items Nat.ltb Nat.leb rbind] in E. destruct (tree_node (RList l)); cbn [rbind] in E; try discriminate.
    + cbn [tree_items Nat.ltb Nat.leb rbind] in E. rewrite node_of_two in E by assumption. injection E as <-. cbn [node_for]. split; [assumption|reflexivity].
  - set (ref := fun o : option trie => match o with Some c => if emb c then item_of c else RBytes (H (rlp_write (item_of c))) | None => RBytes [] end) in *.
    destruct (tree_items 0 (map ref cs ++ [RBytes v])) as [arr| |] eqn:EA; cbn [rbind] in E; try discriminate. apply tree_items_inv in EA.
    apply Forall2_app_inv_l in EA. destruct EA as (a1 & a2 & F1 & F2 & ->). inversion F2 as [|? x ? ? Hx F3]; subst. inversion F3; subst.
    pose proof (Forall2_length F1) as L1. rewrite map_length in L1. unfold node_of in E. rewrite app_length in E. cbn [length] in E. rewrite <- L1, L in E. cbn [Nat.add Nat.eqb] in E.
    rewrite nth_error_app2 in E by lia. rewrite <- L1, L in E. change (16 - 16)%nat with 0%nat in E. cbn [nth_error] in E.
    assert (EF : firstn 16 (a1 ++ [IBytes v]) = a1). { rewrite firstn_app, firstn_all2 by lia. replace (16 - length a1)%nat with 0%nat by lia. apply app_nil_r. }
    rewrite EF in E. injection E as <-.
    cbn [node_for]. eexists. split; [reflexivity|]. clear - F1 HB. revert a1 F1. induction cs as [|o cs IH]; intros a1 F1; inversion F1 as [|? x ? a2 Hx F2]; subst; [constructor|].
    cbn [map]. constructor; [|auto]. destruct o as [c|]; cbn [ref child_for] in *.
    + destruct (emb c).
      * destruct (item_list c) as [l EL]. rewrite EL in Hx. destruct Hx as (n & En & ->). exists n. split; [reflexivity|]. eapply tree_node_kind; eassumption.
      * subst x. cbn [child_of]. unfold root_of, bytes_of. destruct (hash_cons (rlp_write (item_of c))) as (a & r & ->). reflexivity.
    + subst x. reflexivity.
Qed.
Lemma read_ok : forall t, good t -> ext_by_hash emb t -> exists n, tree_node (item_of t) = Ok n.
Proof using HB.
  intros t G. induction G as [nib v F V|nib t F G IH|cs v L V G IH N]; intros X; cbn [S_JMpt.item_of]; rewrite tree_node_list.
  - cbn [tree_items Nat.ltb Nat.leb rbind]. rewrite node_of_two by assumption. eauto.
  - inversion X as [|? ? EE X'|]; subst. rewrite EE. cbn [tree_items Nat.ltb Nat.leb rbind]. rewrite node_of_two by assumption. eauto.
  - inversion X as [| |? ? X']; subst.
    set (ref := fun o : option trie => match o with Some c => if emb c then item_of c else RBytes (H (rlp_write (item_of c))) | None => RBytes [] end).
    destruct (tree_items_ok (map ref cs) 0 v) as [arr EA].
    + rewrite map_length. lia.
    + apply Forall_forall. intros x Hx. apply in_map_iff in Hx. destruct Hx as (o & <- & Ho). destruct o as [c|]; cbn [ref]; [|exact I].
      apply In_nth_error in Ho. destruct Ho as [i Hi]. destruct (emb c); [|exact I]. destruct (IH i c Hi (X' i c Hi)) as [n En]. destruct (item_list c) as [l EL]. rewrite EL in *. eauto.
    + rewrite EA. cbn [rbind]. pose proof (tree_items_inv _ _ _ EA) as F1. apply Forall2_app_inv_l in F1. destruct F1 as (a1 & a2 & F1 & F2 & ->).
      inversion F2 as [|? x ? ? Hx F3]; subst. inversion F3; subst. pose proof (Forall2_length F1) as L1. rewrite map_length in L1.
      unfold node_of. rewrite app_length. cbn [length]. rewrite <- L1, L. cbn [Nat.add Nat.eqb]. rewrite nth_error_app2 by lia. rewrite <- L1, L. change (16 - 16)%nat with 0%nat. cbn [nth_error]. eauto.
Qed.
Lemma sized_top : forall t, sized H emb t -> zlen (bytes_of t) < 2 ^ 63.
Proof using. intros t S. destruct S; assumption. Qed.
Lemma node_of_bytes : forall t, good t -> sized H emb t -> node_fromBytes (bytes_of t) = tree_node (item_of t).
Proof using HB.
  intros t G S. pose proof (sized_top t S) as L. pose proof (good_item t G) as O. unfold S_JMpt.bytes_of in *. destruct (item_list t) as [l E]. rewrite E in *.
  rewrite <- (app_nil_r (rlp_write (RList l))). apply fromBytes_tree; assumption.
Qed.

(** ** matchCount *)
Lemma match_all : forall a b, matchCount a (a ++ b) = length a.
Proof using. induction a as [|x a IH]; intros b; cbn [matchCount app length]; [reflexivity|]. rewrite Z.eqb_refl, IH. reflexivity. Qed.
Lemma match_prefix : forall a b, (length a <= matchCount a b)%nat -> b = a ++ skipn (length a) b /\ matchCount a b = length a.
Proof using.
  induction a as [|x a IH]; intros b Hl; cbn [matchCount length skipn app] in *; [auto|].
  destruct b as [|y b]; [lia|]. destruct (Z.eqb_spec x y) as [->|]; [|lia]. destruct (IH b ltac:(lia)) as [E1 E2]. split; [f_equal; exact E1|lia].
Qed.
Lemma match_prefix2 : forall a b, (length b <= matchCount a b)%nat -> a = b ++ skipn (length b) a.
Proof using.
  induction a as [|x a IH]; intros b Hl; cbn [matchCount] in Hl; (destruct b as [|y b]; cbn [length app skipn] in *; [reflexivity|try lia]).
  destruct (Z.eqb_spec x y) as [->|]; [|lia]. f_equal. apply IH. lia.
Qed.

Lemma good_key : forall t, good t -> exists k p v, at_key t k p v.
Proof using.
  intros t G. induction G as [nib v F V|nib t F G IH|cs v L V G IH N].
  - eauto using at_leaf.
  - destruct IH as (k & p & v & A). eauto using at_ext.
  - destruct N as [N|(i & c & N)]; [eauto using at_end|]. destruct (IH i c N) as (k & p & w & A).
    exists (Z.of_nat i :: k), (TBranch cs v :: p), w. assert (i < length cs)%nat by (apply nth_error_Some; congruence). apply at_child with c; [lia|rewrite Nat2Z.id; assumption|assumption].
Qed.

Lemma H_same : forall x y, H x = H y -> x = y \/ collision H.
Proof using. intros x y E. destruct (list_Z_eq_dec x y); [auto|]. right. exists x, y. auto. Qed.

(** ** accepted proofs *)
Lemma prove_sound : forall ps t nib d, good t -> sized H emb t -> Forall nibble nib ->
  prove_node H ps (NHash (root_of t)) nib = Ok d ->
  collision H \/ (exists p, at_key t nib p d) \/ (exists e p d', e <> [] /\ at_key t (nib ++ e) p d' /\ (d = d' \/ d = [])).
Proof using HB.
  induction ps as [|o ps IH]; intros t nib d G S F E; cbn [prove_node] in E;
    unfold S_JMpt.root_of in E; destruct (hash_cons (bytes_of t)) as (ha & hr & EH); rewrite EH in E; [discriminate|].
  destruct o as [p|]; [|discriminate]. rewrite <- EH in E. clear ha hr EH.
  destruct (bytes_eqb_spec (H (bytes_of t)) (H p)) as [EQ|]; [|discriminate].
  destruct (H_same _ _ EQ) as [<-|]; [|auto]. rewrite node_of_bytes in E by assumption.
  destruct (tree_node (item_of t)) as [n| |] eqn:EN; cbn [rbind] in E; try discriminate. pose proof (read_node_for t n G EN) as NF. clear EN.
  destruct G as [nb v FN V|nb t FN G|cs v L V G N]; cbn [node_for] in NF.
  - subst n. cbn [at_node] in E. destruct (Nat.ltb_spec (matchCount nb nib) (length nib)) as [|HL]; [discriminate|]. injection E as <-. right.
    apply match_prefix2 in HL. destruct (skipn (length nib) nb) as [|x r] eqn:ES.
    + left. rewrite app_nil_r in HL. subst nb. exists [TLeaf nib v]. constructor.
    + right. exists (x :: r), [TLeaf nb v], v. split; [discriminate|]. split; [rewrite <- HL; constructor|auto].
  - destruct NF as [EE ->]. cbn [at_node] in E. destruct (Nat.ltb_spec (matchCount nb nib) (length nb)) as [|HL]; [discriminate|].
    destruct (match_prefix _ _ HL) as [E1 E2]. rewrite E2 in E. inversion S; subst. set (k := skipn (length nb) nib) in *.
    assert (Fk : Forall nibble k) by (rewrite E1 in F; apply Forall_app in F; tauto).
    destruct (IH t k d G ltac:(assumption) Fk E) as [|[(p & A)|(e & p & d' & A1 & A2 & A3)]]; [auto|right; left|right; right].
    + rewrite E1. exists (TExt nb t :: p). constructor. assumption.
    + exists e, (TExt nb t :: p), d'. split; [assumption|]. split; [|assumption]. rewrite E1, <- app_assoc. constructor. assumption.
  - destruct NF as (l & -> & NF). cbn [at_node] in E. inversion S as [| |? ? _ S']; subst. destruct nib as [|x k].
    + injection E as <-. right. destruct v as [|v0 v].
      * right. destruct N as [N|(i & c & N)]; [congruence|]. destruct (good_key c (G i c N)) as (k & p & w & A).
        assert (i < length cs)%nat by (apply nth_error_Some; congruence).
        exists (Z.of_nat i :: k), (TBranch cs [] :: p), w. split; [discriminate|]. split; [|auto]. cbn [app].
        apply at_child with c; [lia|rewrite Nat2Z.id; assumption|assumption].
      * left. exists [TBranch cs (v0 :: v)]. constructor. discriminate.
    + inversion F as [|? ? Fx Fk]; subst. destruct (nth_error l (Z.to_nat x)) as [[c|]|] eqn:EL; try discriminate.
      assert (CF : exists o, nth_error cs (Z.to_nat x) = Some o /\ child_for o (Some c)).
      { clear - NF EL. revert EL. generalize (Z.to_nat x) as i. induction NF as [|o c0 cs l H0 NF IH]; intros [|i] EL; try discriminate.
        - cbn [nth_error] in *. injection EL as ->. eauto.
        - cbn [nth_error] in *. auto. }
      destruct CF as (o & EO & CF). destruct o as [t|]; cbn [child_for] in CF; [|discriminate].
      destruct (emb t) eqn:EE.
      * destruct CF as (n & [= <-] & K). exfalso. destruct ps; destruct c; cbn [prove_node] in E; try discriminate; contradiction.
      * injection CF as ->. destruct (IH t k d (G _ _ EO) (S' _ _ EO) Fk E) as [|[(p & A)|(e & p & d' & A1 & A2 & A3)]]; [auto|right; left|right; right].
        -- exists (TBranch cs v :: p). econstructor; eassumption.
        -- exists e, (TBranch cs v :: p), d'. split; [assumption|]. split; [|assumption]. cbn [app]. econstructor; eassumption.
Qed.

(** ** proofs made from the tree *)
Lemma prove_complete : forall t nib p d, at_key t nib p d -> good t -> sized H emb t -> ext_by_hash emb t ->
  Forall (fun n => emb n = false) (tl p) -> prove_node H (map (fun n => Some (bytes_of n)) p) (NHash (root_of t)) nib = Ok d.
Proof using HB.
  intros t nib p d A. induction A as [nib v|nib t k p v A IH|cs v HV|cs v x c k p w Hx HC A IH]; intros G S X EM; cbn [map prove_node];
    match goal with |- context [root_of ?u] => unfold S_JMpt.root_of at 1; destruct (hash_cons (bytes_of u)) as (ha & hr & EH); rewrite EH; rewrite <- EH; rewrite bytes_eqb_refl;
      rewrite node_of_bytes by assumption; destruct (read_ok u G X) as [n EN]; rewrite EN; cbn [rbind]; pose proof (read_node_for u n G EN) as NF; clear EN EH ha hr end.
  - cbn [node_for] in NF. subst n. cbn [at_node]. pose proof (match_all nib []) as M. rewrite app_nil_r in M. rewrite M. rewrite Nat.ltb_irrefl. reflexivity.
  - destruct NF as [EE ->]. cbn [at_node]. rewrite match_all, Nat.ltb_irrefl. rewrite skipn_app, skipn_all, Nat.sub_diag. cbn [skipn app].
    inversion G; inversion S; inversion X; subst. apply IH; try assumption. cbn [tl] in EM. destruct p; [constructor|]. inversion EM; assumption.
  - destruct NF as (l & -> & _). reflexivity.
  - destruct NF as (l & -> & NF). cbn [at_node]. inversion G; inversion S; inversion X; subst.
    assert (EC : emb c = false). { cbn [tl] in EM. destruct A; inversion EM; assumption. }
    assert (CF : nth_error l (Z.to_nat x) = Some (Some (NHash (root_of c)))).
    { clear - NF HC EC. revert HC. generalize (Z.to_nat x) as i. induction NF as [|o c0 cs l H0 NF IH]; intros [|i] EL; try discriminate; cbn [nth_error] in *.
      - injection EL as ->. unfold child_for in H0. rewrite EC in H0. congruence.
      - auto. }
    rewrite CF. apply IH; eauto. cbn [tl] in EM. destruct p; [constructor|]. inversion EM; assumption.
Qed.

(** ** the same proof twice *)
Lemma prove_binding : forall ps ps' n nib d d', prove_node H ps n nib = Ok d -> prove_node H ps' n nib = Ok d' -> d = d' \/ collision H.
Proof using.
  induction ps as [|o ps IH]; intros ps' n nib d d' E E'.
  - cbn [prove_node] in E. destruct n as [[|]| | |]; discriminate.
  - destruct ps' as [|o' ps']; [cbn [prove_node] in E'; destruct n as [[|]| | |]; discriminate|].
    cbn [prove_node] in E, E'. destruct n as [[|h0 h]| | |]; try discriminate. destruct o as [p|], o' as [p'|]; try discriminate.
    destruct (bytes_eqb_spec (h0 :: h) (H p)) as [E1|]; [|discriminate]. destruct (bytes_eqb_spec (h0 :: h) (H p')) as [E2|]; [|discriminate].
    destruct (H_same p p' ltac:(congruence)) as [<-|]; [|auto].
    destruct (node_fromBytes p) as [m| |]; cbn [rbind] in E, E'; try discriminate. destruct m as [hh|nn ch|nn dd|cs dd]; cbn [at_node] in E, E'; try discriminate.
    + destruct (matchCount nn nib <? length nn)%nat; [discriminate|]. eapply IH; eassumption.
    + destruct (matchCount nn nib <? length nib)%nat; [discriminate|]. left. congruence.
    + destruct nib; [left; congruence|]. destruct (nth_error cs (Z.to_nat z)) as [[c|]|]; try discriminate. eapply IH; eassumption.
Qed.
End NODES.

(** ** embedded nodes *)
Lemma prove_top : forall H (HB : hash_bytes H) emb t ps nib d, good t -> sized H emb t -> prove_node H ps (NHash (root_of H emb t)) nib = Ok d ->
  collision H \/ exists ps' n, node_for H emb t n /\ at_node (prove_node H ps') n nib = Ok d.
Proof.
  intros H HB emb t ps nib d G S E. unfold root_of in E. destruct (hash_cons H HB (bytes_of H emb t)) as (ha & hr & EH).
  destruct ps as [|o ps]; cbn [prove_node] in E; rewrite EH in E; [discriminate|]. destruct o as [q|]; [|discriminate]. rewrite <- EH in E.
  destruct (bytes_eqb_spec (H (bytes_of H emb t)) (H q)) as [EQ|]; [|discriminate]. destruct (H_same H _ _ EQ) as [<-|]; [|auto].
  rewrite (node_of_bytes H HB) in E by assumption. destruct (tree_node (item_of H emb t)) as [n| |] eqn:EN; cbn [rbind] in E; try discriminate.
  right. exists ps, n. split; [apply (read_node_for H HB); assumption|exact E].
Qed.
Lemma embedded_blocked : forall H (HB : hash_bytes H) emb t nib p d, at_key t nib p d -> good t -> sized H emb t -> Exists (fun n => emb n = true) (tl p) ->
  forall ps d', prove_node H ps (NHash (root_of H emb t)) nib = Ok d' -> collision H.
Proof.
  intros H HB emb t nib p d A. induction A as [nib v|nib t k p v A IH|cs v HV|cs v x c k p w Hx HC A IH]; intros G S EM ps0 d' E; cbn [tl] in EM; try solve [inversion EM];
    (destruct (prove_top H HB emb _ _ _ _ G S E) as [|(ps & n & NF & E1)]; [assumption|]; clear E; rename E1 into E; cbn [node_for] in NF).
  - destruct NF as [EE ->]. cbn [at_node] in E. rewrite match_all, Nat.ltb_irrefl, skipn_app, skipn_all, Nat.sub_diag in E. cbn [skipn app] in E.
    inversion G; inversion S; subst. eapply IH; try eassumption. destruct A; cbn [tl]; inversion EM; subst; try congruence; assumption.
  - destruct NF as (l & -> & NF). cbn [at_node] in E. inversion G; inversion S; subst.
    assert (CF : exists o, nth_error l (Z.to_nat x) = Some o /\ child_for H emb (Some c) o).
    { clear - NF HC. revert HC. generalize (Z.to_nat x) as i. induction NF as [|o c0 cs l H0 NF IH]; intros [|i] EL; try discriminate; cbn [nth_error] in *.
      - injection EL as ->. eauto.
      - auto. }
    destruct CF as (o & EO & CF). rewrite EO in E. cbn [child_for] in CF. destruct (emb c) eqn:EC.
    + destruct CF as (n & -> & K). exfalso. destruct ps; destruct n; cbn [prove_node] in E; try discriminate; contradiction.
    + subst o. eapply IH; try eassumption; eauto. destruct A; cbn [tl]; inversion EM; subst; try congruence; assumption.
Qed.

(** ** keys made of indexes *)
Lemma nibbles_app : forall a b, bytesToNibbles (a ++ b) = bytesToNibbles a ++ bytesToNibbles b.
Proof. intros. apply flat_map_app. Qed.
Lemma byte_of_nibs : forall a b, is_byte a -> is_byte b -> Z.land (Z.shiftr a 4) 15 = Z.land (Z.shiftr b 4) 15 -> Z.land a 15 = Z.land b 15 -> a = b.
Proof.
  intros a b Ha Hb E1 E2. unfold is_byte in *. change 15 with (Z.ones 4) in *. rewrite !Z.land_ones in E1, E2 by lia. rewrite !Z.shiftr_div_pow2 in E1 by lia.
  change (2 ^ 4) with 16 in *. pose proof (Z.div_mod a 16). pose proof (Z.div_mod b 16).
  assert (0 <= a / 16 < 16) by (split; [apply Z.div_pos; lia|apply Z.div_lt_upper_bound; lia]).
  assert (0 <= b / 16 < 16) by (split; [apply Z.div_pos; lia|apply Z.div_lt_upper_bound; lia]).
  rewrite !Z.mod_small in E1 by assumption. lia.
Qed.
Lemma nibbles_prefix : forall a b e, bytes_ok a -> bytes_ok b -> bytesToNibbles b = bytesToNibbles a ++ e -> exists r, b = a ++ r /\ e = bytesToNibbles r.
Proof.
  induction a as [|x a IH]; intros b e Ha Hb E; [exists b; split; [reflexivity|symmetry; exact E]|].
  destruct b as [|y b]; [discriminate|]. inversion Ha as [|? ? Hx Ha']; inversion Hb as [|? ? Hy Hb']; subst.
  unfold bytesToNibbles in E. cbn [flat_map app] in E. injection E as E1 E2 E3. assert (x = y) by (apply byte_of_nibs; auto). subst y.
  destruct (IH b e Ha' Hb' E3) as (r & -> & ->). exists r. split; reflexivity.
Qed.
Lemma nibbles_nibble : forall b, bytes_ok b -> Forall nibble (bytesToNibbles b).
Proof.
  induction 1 as [|x b Hx _ IH]; [constructor|]. cbn [bytesToNibbles flat_map app]. change 15 with (Z.ones 4).
  constructor; [|constructor; [|exact IH]]; unfold nibble; rewrite Z.land_ones by lia; apply Z.mod_pos_bound; reflexivity.
Qed.
