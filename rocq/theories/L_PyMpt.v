(** Lemmas about M_PyMpt.v *)
From Coq Require Import String Ascii ZArith List Bool Lia.
From Coq Require Import ZifyBool Wf_nat.
From Verif Require Import Base L_Base M_IntConv S_IntConv L_IntConv M_Rlp S_Rlp L_Rlp L_Wire M_PyRlp S_PyRlp L_PyRlp M_JMpt S_JMpt L_JMpt M_PyMpt S_PyMpt.
Import ListNotations.
Open Scope Z_scope.

(** ** Nibbles *)
Lemma py_nibbles : forall b pre, bytes_to_nibbles b pre = pre ++ bytesToNibbles b.
Proof.
  induction b as [|x b IH]; intros pre; cbn [bytes_to_nibbles]; [rewrite app_nil_r; reflexivity|]. rewrite IH, <- app_assoc. reflexivity.
Qed.
Lemma match_from_spec : forall n i src dst, (i + n <= length src)%nat -> (i + n <= length dst)%nat ->
  match_from i n src dst = (i + Nat.min n (matchCount (skipn i src) (skipn i dst)))%nat.
Proof.
  induction n as [|n IH]; intros i src dst L1 L2; cbn [match_from]; [lia|].
  destruct (skipn i src) as [|x s] eqn:E1; [apply (f_equal (@length _)) in E1; rewrite skipn_length in E1; cbn [length] in E1; lia|].
  destruct (skipn i dst) as [|y d] eqn:E2; [apply (f_equal (@length _)) in E2; rewrite skipn_length in E2; cbn [length] in E2; lia|].
  assert (N : forall (l : list Z) (j : nat) a r, skipn j l = a :: r -> nth j l 0 = a /\ skipn (S j) l = r).
  { clear. intros l j. revert l. induction j as [|j IHj]; intros [|z l] a r E; cbn [skipn nth] in *; try discriminate; [injection E as <- <-; auto|]. apply IHj. exact E. }
  destruct (N _ _ _ _ E1) as [-> S1]. destruct (N _ _ _ _ E2) as [-> S2]. cbn [matchCount]. destruct (x =? y); [|lia].
  rewrite IH by lia. rewrite S1, S2. lia.
Qed.
Lemma matchCount_le : forall a b, (matchCount a b <= length a /\ matchCount a b <= length b)%nat.
Proof.
  induction a as [|x a IH]; intros [|y b]; cbn [matchCount length]; [lia|lia|lia|]. destruct (x =? y); [|lia]. specialize (IH b). lia.
Qed.
Lemma py_match : forall a b, match_nibbles a b = matchCount a b.
Proof.
  intros a b. unfold match_nibbles. pose proof (matchCount_le a b). destruct (Nat.ltb_spec (length b) (length a)); rewrite match_from_spec by lia; cbn [skipn]; lia.
Qed.

(** ** Elements of a list *)
Lemma first_byte : forall t, rlp_ok t -> zlen (rlp_write t) < 2 ^ 63 -> exists b r, rlp_write t = b :: r /\ (192 <=? b) = is_list_item t.
Proof.
  intros t Ok L. destruct (header_of t [] Ok L) as (h & _ & D & _). rewrite app_nil_r in D. destruct (rlp_write t) as [|b r]; [discriminate|]. exists b, r. split; [reflexivity|].
  cbn [decode_header] in D. destruct (b <? 128) eqn:E1; cbn [fst snd] in D; [|destruct (b <? 184) eqn:E2; [|destruct (b <? 192) eqn:E3; [|destruct (b <? 248) eqn:E4]]];
    match type of D with (if ?c then _ else _) = _ => destruct c | _ => idtac end; try discriminate; injection D; intros; lia.
Qed.
Lemma read_bytes : forall b, bytes_ok b -> zlen (rlp_write (RBytes b)) < 2 ^ 63 -> rlp_decode (fun _ => true) (rlp_write (RBytes b)) TBytes = Some (PBytes b).
Proof. intros b B L. apply rlp_decode_reads; [exact I|exact B|exact L|]. constructor. Qed.
Lemma read_list_as_bytes : forall l, rlp_ok (RList l) -> zlen (rlp_write (RList l)) < 2 ^ 63 -> rlp_decode (fun _ => true) (rlp_write (RList l)) TBytes = None.
Proof.
  intros l B L. destruct (rlp_decode (fun _ => true) (rlp_write (RList l)) TBytes) eqn:E; [|reflexivity]. apply rlp_decode_reads in E; [|exact I|assumption|assumption]. inversion E.
Qed.
Lemma raw_list : forall l, rlp_ok (RList l) -> zlen (rlp_write (RList l)) < 2 ^ 63 -> raw (rlp_write (RList l)) = Some (map (fun x => PBytes (rlp_write x)) l).
Proof.
  intros l B L. unfold raw. assert (E : rlp_decode (fun _ => true) (rlp_write (RList l)) TList = Some (PList (map (fun x => PBytes (rlp_write x)) l))). { apply rlp_decode_reads; [exact I|assumption|assumption|constructor]. }
  rewrite E. reflexivity.
Qed.
Lemma element_shorter : forall x l, In x l -> zlen (rlp_write x) < zlen (rlp_write (RList l)).
Proof.
  intros x l I. cbn [rlp_write]. pose proof (writeList_len (concat (map rlp_write l))).
  assert (zlen (rlp_write x) <= zlen (concat (map rlp_write l))); [|lia].
  clear H. induction l as [|y l IH]; [contradiction|]. cbn [map concat]. rewrite zlen_app. pose proof (zlen_nonneg _ (rlp_write y)). pose proof (zlen_nonneg _ (concat (map rlp_write l))).
  destruct I as [->|I]; [lia|]. specialize (IH I). lia.
Qed.
Lemma rlp_ok_in : forall x l, In x l -> rlp_ok (RList l) -> rlp_ok x.
Proof. induction l as [|y l IH]; intros I O; [contradiction|]. cbn [rlp_ok fold_right] in O. destruct O as [O1 O2]. destruct I as [->|I]; [assumption|]. apply IH; assumption. Qed.
Lemma all_some_map : forall A B (f g : A -> option B) l, (forall x, In x l -> f x = g x) -> all_some (map f l) = all_some (map g l).
Proof. intros A B f g l E. rewrite (map_ext_in _ _ _ E). reflexivity. Qed.
Lemma all_some_nth : forall A B (f : A -> option B) l s i x, all_some (map f l) = Some s -> nth_error l i = Some x -> exists y, f x = Some y /\ nth_error s i = Some y.
Proof.
  induction l as [|a l IH]; intros s i x E N; [destruct i; discriminate|]. cbn [map all_some] in E. destruct (f a) as [b|] eqn:Ef; [|discriminate].
  destruct (all_some (map f l)) as [s'|] eqn:Es; [|discriminate]. injection E as <-. destruct i as [|i]; cbn [nth_error] in *; [injection N as <-; eauto|]. eapply IH; eauto.
Qed.
Lemma all_some_ok : forall A B (f : A -> option B) l, (forall i x, nth_error l i = Some x -> exists y, f x = Some y) -> exists s, all_some (map f l) = Some s.
Proof.
  induction l as [|a l IH]; intros E; [exists []; reflexivity|]. cbn [map all_some]. destruct (E 0%nat a eq_refl) as [y ->]. destruct IH as [s ->]; [|eauto]. intros i x. apply (E (S i)).
Qed.
Lemma all_some_length : forall A (l : list (option A)) s, all_some l = Some s -> length s = length l.
Proof.
  induction l as [|[a|] l IH]; intros s E; cbn [all_some] in E; [injection E as <-; reflexivity| |discriminate].
  destruct (all_some l) as [s'|]; [|discriminate]. injection E as <-. cbn [length]. f_equal. apply IH. reflexivity.
Qed.

(** ** The node of a tree *)
Section NODES.
Context (H : list Z -> list Z) (HB : hash_bytes H) (emb : trie -> bool).
Notation item_of := (S_JMpt.item_of H emb).
Notation bytes_of := (S_JMpt.bytes_of H emb).
Notation root_of := (S_JMpt.root_of H emb).
Fixpoint ytree (t : trie) : option ynode :=
  match t with
  | TLeaf nib v => Some (YLeaf nib (Some v))
  | TExt nib c => if emb c then None else Some (YExt nib (root_of c))
  | TBranch cs v =>
      match all_some (map (fun o => match o with
                                    | None => Some None
                                    | Some c => if emb c then match ytree c with Some n => Some (Some n) | None => None end else Some (Some (YHash (root_of c)))
                                    end) cs) with
      | Some l => Some (YBranch l (rlp_write (RBytes v)))
      | None => None
      end
  end.
Definition ychild (o : option trie) : option (option ynode) :=
  match o with None => Some None | Some c => if emb c then match ytree c with Some n => Some (Some n) | None => None end else Some (Some (YHash (root_of c))) end.
Definition ref (o : option trie) : rlp := match o with None => RBytes [] | Some c => if emb c then item_of c else RBytes (H (rlp_write (item_of c))) end.

Lemma hash_len : forall x, zlen (H x) = 32.
Proof. intros x. destruct (HB x) as [_ E]. unfold zlen. rewrite E. reflexivity. Qed.
Lemma hash_is_ok : forall x, hash_ok (H x) = true.
Proof. intros x. unfold hash_ok. rewrite hash_len. reflexivity. Qed.
Lemma of_hash_ok : forall x, of_hash (H x) = Some (YHash (H x)).
Proof. intros x. unfold of_hash. rewrite hash_is_ok. reflexivity. Qed.
Lemma header_read : forall leaf nib, Forall nibble nib -> exists x rest, compact leaf nib = x :: rest /\
  (if negb (Z.land (Z.land x 240) 16 =? 0) then [Z.land x 15] else []) ++ bytesToNibbles rest = nib /\ negb (Z.land (Z.land x 240) 32 =? 0) = leaf.
Proof.
  intros leaf nib HF. unfold compact. destruct (Nat.even (length nib)) eqn:EE.
  - eexists _, _. split; [reflexivity|]. rewrite unpack with (n := S (length nib)) by (lia || assumption). destruct leaf; split; reflexivity.
  - destruct nib as [|a r]; [discriminate|]. inversion HF as [|? ? Ha HF']; subst. eexists _, _. split; [reflexivity|].
    assert (ER : Nat.even (length r) = true). { cbn [length] in EE. rewrite Nat.even_succ in EE. rewrite <- Nat.negb_odd, EE. reflexivity. }
    rewrite unpack with (n := S (length r)) by (lia || assumption). unfold nibble in Ha.
    assert (K : a = 0 \/ a = 1 \/ a = 2 \/ a = 3 \/ a = 4 \/ a = 5 \/ a = 6 \/ a = 7 \/ a = 8 \/ a = 9 \/ a = 10 \/ a = 11 \/ a = 12 \/ a = 13 \/ a = 14 \/ a = 15) by lia.
    destruct leaf; repeat (destruct K as [->|K]; [split; reflexivity|]); subst a; split; reflexivity.
Qed.
Lemma list_node : forall l, is_list_item (RList l) = true. Proof. reflexivity. Qed.
Lemma item_is_list : forall t, is_list_item (item_of t) = true.
Proof. intros [| |]; reflexivity. Qed.

Lemma read_two : forall leaf nib x f, Forall nibble nib -> rlp_ok x -> zlen (rlp_write (RList [RBytes (compact leaf nib); x])) < 2 ^ 63 ->
  read_node (S f) (rlp_write (RList [RBytes (compact leaf nib); x])) =
  match rlp_decode (fun _ => true) (rlp_write x) TBytes with
  | Some PNone => if leaf then Some (YLeaf nib None) else None
  | Some (PBytes d) => if leaf then Some (YLeaf nib (Some d)) else match of_hash d with Some _ => Some (YExt nib d) | None => None end
  | _ => None
  end.
Proof.
  intros leaf nib x f F O L. pose proof (compact_ok leaf nib F) as B.
  assert (O2 : rlp_ok (RList [RBytes (compact leaf nib); x])) by (cbn [rlp_ok fold_right]; auto).
  cbn [read_node]. rewrite raw_list by assumption. cbn [map length Nat.eqb]. rewrite read_bytes; [|assumption|pose proof (element_shorter (RBytes (compact leaf nib)) [RBytes (compact leaf nib); x] (or_introl eq_refl)); lia].
  destruct (header_read leaf nib F) as (h & rest & -> & E1 & E2). rewrite py_nibbles, E1, E2. destruct leaf; destruct (rlp_decode _ _ _) as [[]|]; reflexivity.
Qed.
Lemma read_tree : forall t, good t -> sized H emb t -> forall f, (length (bytes_of t) < f)%nat -> read_node f (bytes_of t) = ytree t.
Proof using HB.
  intros t G. induction G as [nib v F V|nib t F G IH|cs v L V G IH N]; intros S f Hf; (destruct f as [|f]; [lia|]); pose proof (sized_top H emb _ S) as Sz; unfold S_JMpt.bytes_of in *.
  - cbn [S_JMpt.item_of ytree] in *. rewrite read_two by assumption. rewrite read_bytes; [reflexivity|assumption|]. 
    pose proof (element_shorter (RBytes v) [RBytes (compact true nib); RBytes v] ltac:(right; left; reflexivity)). lia.
  - cbn [S_JMpt.item_of ytree] in *. inversion S; subst. assert (O : rlp_ok (if emb t then item_of t else RBytes (H (rlp_write (item_of t))))). { destruct (emb t); [apply (good_item H HB); assumption|apply HB]. }
    rewrite read_two by assumption. destruct (emb t).
    + destruct (item_list H emb t) as [l E]. rewrite E in *. rewrite read_list_as_bytes; [reflexivity|assumption|]. pose proof (element_shorter (RList l) [RBytes (compact false nib); RList l] ltac:(right; left; reflexivity)). lia.
    + rewrite read_bytes; [|exact O|]. { rewrite of_hash_ok. reflexivity. }
      match goal with |- zlen (rlp_write ?x) < _ => pose proof (element_shorter x [RBytes (compact false nib); x] ltac:(right; left; reflexivity)); lia end.
  - inversion S as [| |? ? _ S']; subst. change (item_of (TBranch cs v)) with (RList (map ref cs ++ [RBytes v])) in *.
    change (ytree (TBranch cs v)) with (match all_some (map ychild cs) with Some l => Some (YBranch l (rlp_write (RBytes v))) | None => None end). assert (O : rlp_ok (RList (map ref cs ++ [RBytes v]))). { apply (good_item H HB emb (TBranch cs v)). constructor; assumption. }
    cbn [read_node]. rewrite raw_list by assumption. rewrite map_length, app_length, map_length, L. cbn [length Nat.add Nat.eqb].
    rewrite map_app, firstn_app, map_length, map_length, L, Nat.sub_diag, firstn_O, app_nil_r, firstn_all2 by (rewrite !map_length; lia).
    rewrite nth_error_app2 by (rewrite !map_length; lia). rewrite !map_length, L, Nat.sub_diag. cbn [map nth_error].
    rewrite !map_map.
    rewrite (all_some_map _ _ _ ychild cs); [destruct (all_some (map ychild cs)); reflexivity|].
    intros o Ho. assert (I : In (ref o) (map ref cs ++ [RBytes v])) by (apply in_or_app; left; apply in_map; assumption).
    pose proof (rlp_ok_in _ _ I O) as Oo. pose proof (element_shorter _ _ I) as So. destruct (first_byte (ref o) Oo ltac:(lia)) as (b & r & E1 & E2).
    unfold child. cbn [as_bytes]. rewrite E1, E2, <- E1. destruct o as [c|]; cbn [ref ychild] in *.
    + destruct (emb c) eqn:EC.
      * rewrite item_is_list. apply In_nth_error in Ho. destruct Ho as [i Hi]. rewrite IH with (i := i) by (eauto; unfold zlen in *; lia). reflexivity.
      * cbn [is_list_item]. rewrite read_bytes; [|exact Oo|lia]. rewrite hash_len. cbn [Z.ltb Z.compare]. rewrite of_hash_ok. reflexivity.
    + reflexivity.
Qed.
Lemma node_bytes : forall t, good t -> sized H emb t -> node_of_bytes (bytes_of t) = ytree t.
Proof using HB. intros t G S. apply read_tree; [assumption|assumption|lia]. Qed.
Lemma ytree_ok : forall t, good t -> ext_by_hash emb t -> exists n, ytree t = Some n.
Proof using.
  intros t G. induction G as [nib v F V|nib t F G IH|cs v L V G IH N]; intros X; inversion X as [|? ? EE X'|? ? X']; subst.
  - cbn [ytree]. eauto.
  - cbn [ytree]. rewrite EE. eauto.
  - change (ytree (TBranch cs v)) with (match all_some (map ychild cs) with Some l => Some (YBranch l (rlp_write (RBytes v))) | None => None end).
    destruct (all_some_ok _ _ ychild cs) as [s ->]; [|eauto]. intros i [c|] Hi; cbn [ychild]; [|eauto]. destruct (emb c); [|eauto]. destruct (IH i c Hi (X' i c Hi)) as [n ->]. eauto.
Qed.

(** ** One step of prove *)
Lemma np_hash : forall ps h nib, node_prove H ps (YHash h) nib =
  match h, ps with
  | [], _ => None
  | _, [] => None
  | _, p :: r => if negb (bytes_eqb h (H p)) then None else if negb (hash_ok (H p)) then None else match node_of_bytes p with Some n => node_prove H r n nib | None => None end
  end.
Proof using. intros [|p ps] [|a h] nib; reflexivity. Qed.
Lemma np_ext : forall ps nb h nib, node_prove H ps (YExt nb h) nib = if (matchCount nb nib <? length nb)%nat then None else node_prove H ps (YHash h) (skipn (matchCount nb nib) nib).
Proof using. intros [|p ps] nb h nib; rewrite <- py_match; reflexivity. Qed.
Lemma np_leaf : forall ps nb d nib, node_prove H ps (YLeaf nb d) nib = if (matchCount nb nib <? length nib)%nat then None else Some d.
Proof using. intros [|p ps] nb h nib; rewrite <- py_match; reflexivity. Qed.
Lemma np_end : forall ps cs d, node_prove H ps (YBranch cs d) [] = Some (Some d).
Proof using. intros [|p ps] cs d; reflexivity. Qed.
Lemma np_child : forall ps cs d x r, node_prove H ps (YBranch cs d) (x :: r) = match nth_error cs (Z.to_nat x) with Some (Some c) => node_prove H ps c r | _ => None end.
Proof using.
  intros ps cs d x r. destruct ps as [|p ps]; cbn [node_prove]; generalize (Z.to_nat x) as k; induction cs as [|o cs IH]; intros [|k]; cbn [nth_error]; try reflexivity; apply IH.
Qed.
Lemma np_root : forall ps t nib, good t -> sized H emb t -> node_prove H (bytes_of t :: ps) (YHash (root_of t)) nib = match ytree t with Some n => node_prove H ps n nib | None => None end.
Proof using HB.
  intros ps t nib G S. rewrite np_hash. unfold S_JMpt.root_of. destruct (hash_cons H HB (bytes_of t)) as (a & r & E). rewrite E. rewrite <- E.
  rewrite bytes_eqb_refl. cbn [negb]. rewrite hash_is_ok. cbn [negb]. rewrite node_bytes by assumption. reflexivity.
Qed.
Lemma np_root_inv : forall ps t nib d, good t -> sized H emb t -> node_prove H ps (YHash (root_of t)) nib = Some d ->
  collision H \/ exists p r n, ps = p :: r /\ ytree t = Some n /\ node_prove H r n nib = Some d.
Proof using HB.
  intros ps t nib d G S E. rewrite np_hash in E. unfold S_JMpt.root_of in E. destruct (hash_cons H HB (bytes_of t)) as (a & r & EH). rewrite EH in E. destruct ps as [|p ps]; [discriminate|]. rewrite <- EH in E.
  destruct (bytes_eqb_spec (H (bytes_of t)) (H p)) as [EQ|]; [|discriminate]. cbn [negb] in E. destruct (H_same H _ _ EQ) as [<-|]; [|auto].
  rewrite hash_is_ok in E. cbn [negb] in E. rewrite node_bytes in E by assumption. destruct (ytree t) as [n|]; [|discriminate]. right. eauto 6.
Qed.

(** ** Proofs made from the tree *)
Definition by_hash (p : list trie) : list (list Z) := map bytes_of (filter (fun n => negb (emb n)) p).
Lemma path_head : forall t k p v, at_key t k p v -> exists r, p = t :: r.
Proof using. intros t k p v A. destruct A; eauto. Qed.
Lemma shown_cons : forall t p v k w, at_key w k p v -> shown (t :: p) v = shown p v.
Proof using. intros t p v k w A. destruct (path_head _ _ _ _ A) as [r ->]. reflexivity. Qed.
Lemma py_complete : forall t nib p d, at_key t nib p d -> good t -> sized H emb t -> ext_by_hash emb t ->
  forall n, ytree t = Some n -> node_prove H (by_hash (tl p)) n nib = Some (Some (shown p d)).
Proof using HB.
  intros t nib p d A. induction A as [nib v|nib t k p v A IH|cs v HV|cs v x c k p w Hx HC A IH]; intros G S X n EN.
  - cbn [ytree] in EN. injection EN as <-. rewrite np_leaf. pose proof (match_all nib []) as M. rewrite app_nil_r in M. rewrite M, Nat.ltb_irrefl. reflexivity.
  - inversion G; inversion S; inversion X as [|? ? EE X'|]; subst. cbn [ytree] in EN. rewrite EE in EN. injection EN as <-. rewrite np_ext, match_all, Nat.ltb_irrefl, skipn_app, skipn_all, Nat.sub_diag. cbn [skipn app tl].
    destruct (path_head _ _ _ _ A) as [r ->]. unfold by_hash. cbn [filter]. rewrite EE. cbn [negb map]. rewrite np_root by assumption. destruct (ytree_ok t ltac:(assumption) X') as [m Em]. rewrite Em.
    pose proof (IH ltac:(assumption) ltac:(assumption) X' m Em) as IH2. cbn [tl] in IH2. rewrite (shown_cons _ _ _ _ _ A). exact IH2.
  - change (ytree (TBranch cs v)) with (match all_some (map ychild cs) with Some l => Some (YBranch l (rlp_write (RBytes v))) | None => None end) in EN.
    destruct (all_some (map ychild cs)) as [l|]; [|discriminate]. injection EN as <-. rewrite np_end. reflexivity.
  - inversion G as [| |? ? L V Gc]; inversion S as [| |? ? _ Sc]; inversion X as [| |? ? Xc]; subst.
    change (ytree (TBranch cs v)) with (match all_some (map ychild cs) with Some l => Some (YBranch l (rlp_write (RBytes v))) | None => None end) in EN.
    destruct (all_some (map ychild cs)) as [l|] eqn:EL; [|discriminate]. injection EN as <-. rewrite np_child.
    destruct (all_some_nth _ _ _ _ _ _ _ EL HC) as (y & E1 & ->). rewrite (shown_cons _ _ _ _ _ A). cbn [tl]. cbn [ychild] in E1.
    destruct (ytree_ok c (Gc _ _ HC) (Xc _ _ HC)) as [m Em]. pose proof (IH (Gc _ _ HC) (Sc _ _ HC) (Xc _ _ HC) m Em) as IH2.
    destruct (path_head _ _ _ _ A) as [r Er]. rewrite Er in IH2 |- *. cbn [tl] in IH2. unfold by_hash. cbn [filter]. destruct (emb c) eqn:EC; cbn [negb map].
    + rewrite Em in E1. injection E1 as <-. exact IH2.
    + injection E1 as <-. rewrite np_root by eauto. rewrite Em. exact IH2.
Qed.

(** ** Accepted proofs *)
Definition outcome (t : trie) (nib : list Z) (d : option (list Z)) : Prop :=
  (exists p v, at_key t nib p v /\ d = Some (shown p v)) \/ (exists e p v, e <> [] /\ at_key t (nib ++ e) p v /\ (d = Some v \/ d = Some [128])).
Lemma outcome_ext : forall nb t k d, outcome t k d -> outcome (TExt nb t) (nb ++ k) d.
Proof using.
  intros nb t k d [(p & v & A & E)|(e & p & v & Ne & A & E)]; [left|right].
  - exists (TExt nb t :: p), v. split; [constructor; assumption|]. rewrite (shown_cons _ _ _ _ _ A). exact E.
  - exists e, (TExt nb t :: p), v. split; [assumption|]. split; [rewrite <- app_assoc; constructor; assumption|assumption].
Qed.
Lemma outcome_child : forall cs v x c k d, 0 <= x < 16 -> nth_error cs (Z.to_nat x) = Some (Some c) -> outcome c k d -> outcome (TBranch cs v) (x :: k) d.
Proof using.
  intros cs v x c k d Hx HC [(p & w & A & E)|(e & p & w & Ne & A & E)]; [left|right].
  - exists (TBranch cs v :: p), w. split; [eapply at_child; eassumption|]. rewrite (shown_cons _ _ _ _ _ A). exact E.
  - exists e, (TBranch cs v :: p), w. split; [assumption|]. split; [eapply at_child; eassumption|assumption].
Qed.
Lemma py_sound : forall ps t, good t -> sized H emb t -> forall n nib d, Forall nibble nib -> ytree t = Some n -> node_prove H ps n nib = Some d -> collision H \/ outcome t nib d.
Proof using HB.
  induction ps as [ps IHps] using (induction_ltof1 _ (@length _)). unfold ltof in IHps.
  assert (BH : forall t nib d, good t -> sized H emb t -> Forall nibble nib -> node_prove H ps (YHash (root_of t)) nib = Some d -> collision H \/ outcome t nib d).
  { intros t nib d G S F E. destruct (np_root_inv _ _ _ _ G S E) as [|(p & r & n & -> & En & E2)]; [auto|]. eapply IHps; try eassumption. cbn [length]. lia. }
  clear IHps. intros t G. induction G as [nb v FN V|nb t FN G IH|cs v L V G IH N]; intros S n nib d F EN E.
  - cbn [ytree] in EN. injection EN as <-. rewrite np_leaf in E. destruct (Nat.ltb_spec (matchCount nb nib) (length nib)) as [|HL]; [discriminate|]. injection E as <-. right.
    apply match_prefix2 in HL. destruct (skipn (length nib) nb) as [|x r] eqn:ES.
    + left. rewrite app_nil_r in HL. subst nb. exists [TLeaf nib v], v. split; [constructor|reflexivity].
    + right. exists (x :: r), [TLeaf nb v], v. split; [discriminate|]. split; [rewrite <- HL; constructor|auto].
  - inversion S; subst. cbn [ytree] in EN. destruct (emb t) eqn:EE; [discriminate|]. injection EN as <-. rewrite np_ext in E. destruct (Nat.ltb_spec (matchCount nb nib) (length nb)) as [|HL]; [discriminate|].
    destruct (match_prefix _ _ HL) as [E1 E2]. rewrite E2 in E. set (k := skipn (length nb) nib) in *. rewrite E1 in F |- *. apply Forall_app in F.
    destruct (BH t k d G ltac:(assumption) ltac:(tauto) E) as [|O]; [auto|]. right. apply outcome_ext. exact O.
  - inversion S as [| |? ? _ Sc]; subst. change (ytree (TBranch cs v)) with (match all_some (map ychild cs) with Some l => Some (YBranch l (rlp_write (RBytes v))) | None => None end) in EN.
    destruct (all_some (map ychild cs)) as [l|] eqn:EL; [|discriminate]. injection EN as <-. destruct nib as [|x k].
    + rewrite np_end in E. injection E as <-. right. destruct v as [|v0 v].
      * right. destruct N as [N|(i & c & N)]; [congruence|]. destruct (good_key c (G i c N)) as (k & p & w & A).
        assert (i < length cs)%nat by (apply nth_error_Some; congruence).
        exists (Z.of_nat i :: k), (TBranch cs [] :: p), w. split; [discriminate|]. split; [|auto]. cbn [app].
        apply at_child with c; [lia|rewrite Nat2Z.id; assumption|assumption].
      * left. exists [TBranch cs (v0 :: v)], (v0 :: v). split; [constructor; discriminate|reflexivity].
    + inversion F as [|? ? Fx Fk]; subst. rewrite np_child in E. destruct (nth_error l (Z.to_nat x)) as [[m|]|] eqn:El; try discriminate.
      destruct (nth_error cs (Z.to_nat x)) as [o|] eqn:Ec.
      2:{ exfalso. apply nth_error_None in Ec. assert (Z.to_nat x < length l)%nat by (apply nth_error_Some; congruence). pose proof (all_some_length _ _ _ EL) as LL. rewrite map_length in LL. lia. }
      destruct (all_some_nth _ _ _ _ _ _ _ EL Ec) as (y & E1 & E2). rewrite El in E2. injection E2 as <-. destruct o as [c|]; cbn [ychild] in E1; [|discriminate].
      assert (O : collision H \/ outcome c k d).
      { destruct (emb c).
        - destruct (ytree c) as [m'|] eqn:Em; [|discriminate]. injection E1 as ->. eapply IH; eauto.
        - injection E1 as <-. apply BH; eauto. }
      destruct O as [|O]; [auto|]. right. eapply outcome_child; eassumption.
Qed.

(** ** What follows an extension that contains its child *)
Lemma ext_blocked : forall t nib p v, at_key t nib p v -> good t -> sized H emb t -> (exists nb c, In (TExt nb c) p /\ emb c = true) ->
  forall n ps d, ytree t = Some n -> node_prove H ps n nib = Some d -> collision H.
Proof using HB.
  intros t nib p v A. induction A as [nib v|nib t k p v A IH|cs v HV|cs v x c k p w Hx HC A IH]; intros G S (nb & cc & I & EC) n ps d EN E.
  - destruct I as [I|[]]. discriminate.
  - inversion G; inversion S; subst. cbn [ytree] in EN. destruct (emb t) eqn:EE; [discriminate|]. injection EN as <-. rewrite np_ext, match_all, Nat.ltb_irrefl, skipn_app, skipn_all, Nat.sub_diag in E. cbn [skipn app] in E.
    destruct (np_root_inv _ _ _ _ ltac:(eassumption) ltac:(eassumption) E) as [|(p1 & r & m & -> & Em & E2)]; [assumption|]. eapply IH; try eassumption. destruct I as [I|I]; [congruence|eauto].
  - destruct I as [I|[]]. discriminate.
  - inversion G as [| |? ? L V Gc]; inversion S as [| |? ? _ Sc]; subst.
    change (ytree (TBranch cs v)) with (match all_some (map ychild cs) with Some l => Some (YBranch l (rlp_write (RBytes v))) | None => None end) in EN.
    destruct (all_some (map ychild cs)) as [l|] eqn:EL; [|discriminate]. injection EN as <-. rewrite np_child in E.
    destruct (all_some_nth _ _ _ _ _ _ _ EL HC) as (y & E1 & E2). rewrite E2 in E. cbn [ychild] in E1. destruct I as [I|I]; [discriminate|]. destruct (emb c).
    + destruct (ytree c) as [m|] eqn:Em; [|discriminate]. injection E1 as <-. eapply IH; eauto.
    + injection E1 as <-. destruct (np_root_inv _ _ _ _ (Gc _ _ HC) (Sc _ _ HC) E) as [|(p1 & r & m & -> & Em & E3)]; [assumption|]. eapply IH; eauto.
Qed.

(** ** The same proof twice *)
Fixpoint ysize (n : ynode) : nat :=
  match n with YBranch cs _ => S (list_sum (map (fun o => match o with Some c => ysize c | None => O end) cs)) | _ => 1%nat end.
Lemma child_size : forall cs d i c, nth_error cs i = Some (Some c) -> (ysize c < ysize (YBranch cs d))%nat.
Proof using.
  intros cs d i c E. cbn [ysize]. apply nth_error_In in E. induction cs as [|o cs IH]; [contradiction|]. cbn [map list_sum fold_right]. destruct E as [->|E]; [|specialize (IH E)]; unfold list_sum in *; lia.
Qed.
Lemma py_binding : forall ps ps' n nib d d', node_prove H ps n nib = Some d -> node_prove H ps' n nib = Some d' -> d = d' \/ collision H.
Proof using.
  induction ps as [ps IHps] using (induction_ltof1 _ (@length _)). unfold ltof in IHps.
  assert (BH : forall ps' h nib d d', node_prove H ps (YHash h) nib = Some d -> node_prove H ps' (YHash h) nib = Some d' -> d = d' \/ collision H).
  { intros ps' h nib d d' E E'. rewrite np_hash in E, E'. destruct h as [|a h]; [discriminate|]. destruct ps as [|p r]; [discriminate|]. destruct ps' as [|p' r']; [discriminate|].
    destruct (bytes_eqb_spec (a :: h) (H p)) as [E1|]; [|discriminate]. destruct (bytes_eqb_spec (a :: h) (H p')) as [E2|]; [|discriminate]. cbn [negb] in E, E'.
    destruct (H_same H p p' ltac:(congruence)) as [<-|]; [|auto]. destruct (hash_ok (H p)); [|discriminate]. cbn [negb] in E, E'.
    destruct (node_of_bytes p) as [m|]; [|discriminate]. eapply (IHps r); [cbn [length]; lia|eassumption|eassumption]. }
  clear IHps. intros ps' n. induction n as [n IH] using (induction_ltof1 _ ysize). unfold ltof in IH. intros nib d d' E E'. destruct n as [h|nb h|nb v|cs v].
  - eapply BH; eassumption.
  - rewrite np_ext in E, E'. destruct (matchCount nb nib <? length nb)%nat; [discriminate|]. eapply BH; eassumption.
  - rewrite np_leaf in E, E'. destruct (matchCount nb nib <? length nib)%nat; [discriminate|]. left. congruence.
  - destruct nib as [|x r]; [rewrite np_end in E, E'; left; congruence|]. rewrite np_child in E, E'. destruct (nth_error cs (Z.to_nat x)) as [[c|]|] eqn:Ec; try discriminate.
    eapply (IH c); [eapply child_size; eassumption|eassumption|eassumption].
Qed.
End NODES.

(** ** Fuel *)
Lemma elements_len : forall f c l, elements f c = Some l -> forall e, In e l -> (length e <= length c)%nat.
Proof.
  induction f as [|f IH]; intros c l E e I; destruct c as [|x c]; cbn [elements] in E; try (injection E as <-; contradiction); [discriminate|].
  destruct (decode_header (x :: c)) as [[[il ts] size]|]; [|discriminate]. set (n := Z.to_nat (ts + size)) in *. destruct (elements f (skipn n (x :: c))) as [l'|] eqn:E2; [|discriminate]. injection E as <-.
  destruct I as [<-|I]; [rewrite firstn_length; lia|]. specialize (IH _ _ E2 e I). rewrite skipn_length in IH. lia.
Qed.
Lemma raw_len : forall bs l, raw bs = Some l -> forall u, In (PBytes u) l -> (length u < length bs)%nat.
Proof.
  intros bs l E u I. unfold raw, rlp_decode in E. cbn [depth decode] in E. destruct (decode_part bs) as [[p [|]]|] eqn:EP; try discriminate.
  destruct p as [|b|es]; cbn [from_bytes] in E; try discriminate. injection E as <-. unfold decode_part in EP. destruct (decode_header bs) as [[[il ts] size]|] eqn:EH; [|discriminate].
  destruct il; [|discriminate]. destruct ((ts =? 2) && (size =? 0)); [discriminate|]. destruct (elements _ _) as [l'|] eqn:EE; [|discriminate]. injection EP as -> _.
  apply in_map_iff in I. destruct I as (e & Ee & I). injection Ee as ->. pose proof (elements_len _ _ _ EE _ I) as L. rewrite firstn_length, skipn_length in L.
  assert (1 <= ts). { destruct bs as [|b r]; [discriminate|]. cbn [decode_header] in EH. destruct (b <? 128) eqn:B1; [|destruct (b <? 184) eqn:B2; [|destruct (b <? 192) eqn:B3; [|destruct (b <? 248) eqn:B4]]]; cbn [fst snd] in EH;
    match type of EH with (if ?c then _ else _) = _ => destruct c end; try discriminate; injection EH; intros; lia. }
  destruct bs; [discriminate|]. cbn [length] in *. lia.
Qed.
Lemma read_fuel : forall f g b, (length b < f)%nat -> (length b < g)%nat -> read_node f b = read_node g b.
Proof.
  induction f as [|f IH]; intros g b Hf Hg; [lia|]. destruct g as [|g]; [lia|]. cbn [read_node]. destruct (raw b) as [l|] eqn:E; [|reflexivity].
  destruct (length l =? 2)%nat; [reflexivity|]. destruct (length l =? 17)%nat; [|reflexivity].
  rewrite (all_some_map _ _ (child (read_node f)) (child (read_node g)) (firstn 16 l)); [reflexivity|].
  intros u Hu. unfold child. destruct u as [|e| | | |]; cbn [as_bytes]; try reflexivity. destruct e as [|x r]; [reflexivity|]. destruct (192 <=? x); [|reflexivity].
  rewrite (IH g (x :: r)); [reflexivity| |]; assert (L : (length (x :: r) < length b)%nat) by (eapply raw_len; [eassumption|]; rewrite <- (firstn_skipn 16 l); apply in_or_app; left; exact Hu); lia.
Qed.
