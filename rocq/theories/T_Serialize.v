(** Theorems about transaction serialization: C33, C34. *)
From Coq Require Import String Ascii ZArith List Bool Lia Permutation Sorted.
From Coq Require Import ZifyBool.
From Verif Require Import Base L_Base GoSort M_Serialize S_Serialize.
Import ListNotations.
Open Scope Z_scope.

Section WITHSER.

(** Sizes, for induction. *)
Fixpoint jsize (v : jval) : nat :=
  match v with
  | JList l => S ((fix go l := match l with [] => O | x :: r => (jsize x + go r)%nat end) l)
  | JDict d => S ((fix go d := match d with [] => O | x :: r => (jsize (snd x) + go r)%nat end) d)
  | _ => 1%nat
  end.
Lemma jsize_list : forall l x, In x l -> (jsize x < jsize (JList l))%nat.
Proof.
  intros l x. cbn [jsize]. induction l as [|y l IH]; [intros []|]. intros [->|Hi]; [lia|]. specialize (IH Hi). lia.
Qed.
Lemma jsize_dict : forall d k x, In (k, x) d -> (jsize x < jsize (JDict d))%nat.
Proof.
  intros d k x. cbn [jsize]. induction d as [|y d IH]; [intros []|]. intros [->|Hi]; [cbn [snd]; lia|]. specialize (IH Hi). lia.
Qed.
Lemma wf_list : forall l x, wf (JList l) -> In x l -> wf x.
Proof. intros l x. cbn [wf]. induction l as [|y l IH]; [intros _ []|]. intros [H1 H2] [->|Hi]; auto. Qed.
Lemma wf_dict : forall d k x, wf (JDict d) -> In (k, x) d -> wf x.
Proof. intros d k x. cbn [wf]. intros [_ H]. induction d as [|y d IH]; [intros []|]. destruct H as [H1 H2]. intros [->|Hi]; auto. Qed.
Lemma wf_keys : forall d, wf (JDict d) -> NoDup (map fst d).
Proof. intros d [H _]. exact H. Qed.
Lemma strict_list : forall l x, strict (JList l) -> In x l -> strict x.
Proof. intros l x. cbn [strict]. intros [_ H]. induction l as [|y l IH]; [intros []|]. destruct H as [H1 H2]. intros [->|Hi]; auto. Qed.
Lemma strict_dict : forall d k x, strict (JDict d) -> In (k, x) d -> strict x.
Proof. intros d k x. cbn [strict]. intros H. induction d as [|y d IH]; [intros []|]. destruct H as [H1 H2]. intros [->|Hi]; auto. Qed.

(** Joining with dots. *)
Definition dots (fs : list (list Z)) : list Z := concat (map (fun f => ch "." :: f) fs).
Definition jn (fs : list (list Z)) : list Z := match fs with [] => [] | f :: r => f ++ dots r end.
Fixpoint dropnil (fs : list (list Z)) : list (list Z) := match fs with [] :: r => dropnil r | _ => fs end.

Lemma list_loop_ne : forall fs buf, buf <> [] -> list_loop buf (map Some fs) = Some (buf ++ dots fs).
Proof.
  induction fs as [|f fs IH]; intros buf HB; cbn [list_loop map]; [unfold dots; cbn; rewrite app_nil_r; reflexivity|].
  destruct buf as [|b buf]; [congruence|]. cbn [length Nat.eqb]. rewrite IH by (destruct buf; discriminate).
  unfold dots. cbn [map concat]. rewrite <- !app_assoc. reflexivity.
Qed.
Lemma list_loop_nil : forall fs, list_loop [] (map Some fs) = Some (jn (dropnil fs)).
Proof.
  induction fs as [|f fs IH]; [reflexivity|]. cbn [list_loop map length Nat.eqb app]. destruct f as [|b f]; [exact IH|]. rewrite list_loop_ne by discriminate. reflexivity.
Qed.
Lemma list_loop_some : forall fs buf t, list_loop buf fs = Some t -> exists gs, fs = map Some gs.
Proof.
  induction fs as [|[f|] fs IH]; intros buf t E; cbn [list_loop] in E; [exists []; reflexivity| |discriminate].
  destruct (IH _ _ E) as [gs ->]. exists (f :: gs). reflexivity.
Qed.

Definition entry_text (e : list Z * list Z) : list Z := serializeString (fst e) ++ ch "." :: snd e.
Lemma entry_text_ne : forall e, entry_text e <> [].
Proof. intros e E. unfold entry_text in E. apply app_eq_nil in E. destruct E; discriminate. Qed.
Definition keep (skip : list Z -> bool) {T} (es : list (list Z * T)) : list (list Z * T) := filter (fun e => negb (skip (fst e))) es.

Lemma dict_loop_ne : forall skip es buf, buf <> [] ->
  dict_loop skip buf (map (fun e => (fst e, Some (snd e))) es) = Some (buf ++ dots (map entry_text (keep skip es))).
Proof.
  intros skip. induction es as [|[k f] es IH]; intros buf HB; cbn [dict_loop map fst snd keep filter]; [unfold dots; cbn; rewrite app_nil_r; reflexivity|].
  destruct (skip k) eqn:ES; cbn [negb]; [apply IH; assumption|]. destruct buf as [|b buf]; [congruence|]. cbn [length Nat.eqb].
  rewrite IH by (destruct buf; discriminate). cbn [map]. unfold dots, entry_text. cbn [map concat fst snd]. rewrite <- !app_assoc. cbn [app]. rewrite <- ?app_assoc. reflexivity.
Qed.
Lemma dict_loop_nil : forall skip es, dict_loop skip [] (map (fun e => (fst e, Some (snd e))) es) = Some (jn (map entry_text (keep skip es))).
Proof.
  intros skip. induction es as [|[k f] es IH]; [reflexivity|]. cbn [dict_loop map fst snd keep filter]. destruct (skip k); cbn [negb]; [exact IH|].
  cbn [length Nat.eqb app]. change (serializeString k ++ ch "." :: f) with (entry_text (k, f)). rewrite dict_loop_ne by apply entry_text_ne. reflexivity.
Qed.
(** A skipped entry may even be unserializable. *)
Lemma dict_loop_keep : forall skip es buf, dict_loop skip buf es = dict_loop (fun _ => false) buf (keep skip es).
Proof.
  intros skip. induction es as [|[k f] es IH]; intros buf; [reflexivity|]. cbn [dict_loop keep filter fst]. destruct (skip k); cbn [negb]; [apply IH|].
  cbn [dict_loop]. destruct f; [apply IH|reflexivity].
Qed.
Lemma dict_loop_some : forall es buf t, dict_loop (fun _ => false) buf es = Some t -> exists gs, es = map (fun e => (fst e, Some (snd e))) gs.
Proof.
  induction es as [|[k [f|]] es IH]; intros buf t E; cbn [dict_loop] in E; [exists []; reflexivity| |discriminate].
  destruct (IH _ _ E) as [gs ->]. exists ((k, f) :: gs). reflexivity.
Qed.

(** Sorting. *)
Lemma entry_irr : forall T (a : list Z * T), entry_ltb a a = false.
Proof. intros. apply bytes_ltb_irrefl. Qed.
Lemma entry_trans : forall T (a b c : list Z * T), entry_ltb a b = true -> entry_ltb b c = true -> entry_ltb a c = true.
Proof. intros T a b c. apply bytes_ltb_trans. Qed.
Lemma entry_pairwise : forall T (l : list (list Z * T)), NoDup (map fst l) -> pairwise entry_ltb l.
Proof.
  induction l as [|x l IH]; cbn [map]; intros H; [constructor|]. inversion H; subst. constructor; [|apply IH; assumption].
  apply Forall_forall. intros y Hy. unfold entry_ltb. destruct (bytes_ltb_total (fst x) (fst y)) as [E|[E|E]]; auto.
  exfalso. apply H2. rewrite E. apply in_map. assumption.
Qed.
Lemma sort_by_map : forall A B (g : A -> B) (lt : A -> A -> bool) (lt' : B -> B -> bool), (forall a b, lt' (g a) (g b) = lt a b) ->
  forall l, sort_by lt' (map g l) = map g (sort_by lt l).
Proof.
  intros A B g lt lt' HE. assert (I : forall x l, insert_by lt' (g x) (map g l) = map g (insert_by lt x l)).
  { intros x. induction l as [|y l IH]; [reflexivity|]. cbn [map insert_by]. rewrite HE. destruct (lt y x); [cbn [map]; f_equal; exact IH|reflexivity]. }
  induction l as [|x l IH]; [reflexivity|]. cbn [map sort_by]. rewrite IH. apply I.
Qed.

Definition pre (d : list (list Z * jval)) : list (list Z * option (list Z)) := map (fun e => (fst e, serializeValue (snd e))) d.
Lemma pre_keys : forall d, map fst (pre d) = map fst d.
Proof. intros. unfold pre. rewrite map_map. reflexivity. Qed.
Lemma pre_perm : forall d d', NoDup (map fst d) -> Permutation d d' -> sort_by entry_ltb (pre d) = sort_by entry_ltb (pre d').
Proof.
  intros d d' HN HP. apply (sort_by_perm_eq _ _ (entry_irr _) (entry_trans _)); [apply entry_pairwise; rewrite pre_keys; assumption|]. apply Permutation_map. assumption.
Qed.

(** Reordering: any enumeration of the entries at any depth. *)
Lemma reordered_ser : forall n v v', (jsize v <= n)%nat -> wf v' -> reordered v v' -> serializeValue v = serializeValue v'.
Proof.
  induction n as [|n IH]; intros v v' HS HW HR; [destruct v; cbn in HS; lia|]. destruct HR as [v HA|l l' HF|d d' d2 HP HF].
  - reflexivity.
  - cbn [serializeValue]. assert (E : map serializeValue l = map serializeValue l').
    { assert (G : forall x, In x l -> (jsize x <= n)%nat) by (intros x Hx; pose proof (jsize_list l x Hx); lia).
      assert (W : forall x, In x l' -> wf x) by (intros x Hx; apply (wf_list l' x HW Hx)). clear HS HW.
      induction HF as [|x y l l' HXY HF IHF]; [reflexivity|]. cbn [map]. f_equal; [|apply IHF; intros z Hz; [apply G|apply W]; right; assumption].
      apply IH; [apply G; left; reflexivity|apply W; left; reflexivity|assumption]. }
    rewrite E. reflexivity.
  - cbn [serializeValue]. fold (pre d). fold (pre d').
    assert (E : pre d = pre d2).
    { assert (G : forall k x, In (k, x) d -> (jsize x <= n)%nat) by (intros k x Hx; pose proof (jsize_dict d k x Hx); lia).
      assert (W : forall k x, In (k, x) d2 -> wf x) by (intros k x Hx; apply (wf_dict d' k x HW); apply (Permutation_in _ HP); assumption). clear HS HW HP.
      induction HF as [|[k x] [k2 y] d d2 [HK HXY] HF IHF]; [reflexivity|]. cbn [fst snd] in *. subst k2. unfold pre in *. cbn [map fst snd]. f_equal.
      - f_equal. apply IH; [apply (G k); left; reflexivity|apply (W k); left; reflexivity|assumption].
      - apply IHF; intros k' z Hz; [apply (G k')|apply (W k')]; right; assumption. }
    rewrite E. rewrite (pre_perm d2 d'); [reflexivity| |assumption].
    apply (Permutation_NoDup (Permutation_sym (Permutation_map fst HP))). apply wf_keys. assumption.
Qed.
End WITHSER.

(** C33: the order in which the entries of the objects come is immaterial, at every depth. *)
Theorem C33_order_irrelevant : forall d d' inc exc, wf (JDict d') -> reordered (JDict d) (JDict d') -> SerializeMap d inc exc = SerializeMap d' inc exc.
Proof.
  intros d d' inc exc HW HR. inversion HR as [v HA| |? ? d2 HP HF]; subst; [destruct HA|]. unfold SerializeMap. fold (pre d). fold (pre d').
  assert (E : pre d = pre d2).
  { assert (W : forall k x, In (k, x) d2 -> wf x) by (intros k x Hx; apply (wf_dict d' k x HW); apply (Permutation_in _ HP); assumption). clear HR HW HP.
    induction HF as [|[k x] [k2 y] d d2 [HK HXY] HF IHF]; [reflexivity|]. cbn [fst snd] in *. subst k2. unfold pre in *. cbn [map fst snd]. f_equal.
    - f_equal. apply (reordered_ser (jsize x)); [lia|apply (W k); left; reflexivity|assumption].
    - apply IHF; intros k' z Hz; apply (W k'); right; assumption. }
  rewrite E. rewrite (pre_perm d2 d'); [reflexivity| |assumption].
  apply (Permutation_NoDup (Permutation_sym (Permutation_map fst HP))). apply wf_keys. assumption.
Qed.
Print Assumptions C33_order_irrelevant.

(** C33: excluded entries (and those not included) have no influence, not even unserializable ones. *)
Theorem C33_excluded_irrelevant : forall d d' inc exc, NoDup (map fst d) -> NoDup (map fst d') ->
  Permutation (filter (fun e => (match inc with Some f => f (fst e) | None => true end) && negb (match exc with Some f => f (fst e) | None => false end)) d)
              (filter (fun e => (match inc with Some f => f (fst e) | None => true end) && negb (match exc with Some f => f (fst e) | None => false end)) d') ->
  SerializeMap d inc exc = SerializeMap d' inc exc.
Proof.
  intros d d' inc exc HN HN' HP. unfold SerializeMap. fold (pre d). fold (pre d'). rewrite !(dict_loop_keep (skip_key inc exc)). f_equal.
  assert (EF : forall l : list (list Z * jval), filter (fun e => (match inc with Some f => f (fst e) | None => true end) && negb (match exc with Some f => f (fst e) | None => false end)) l = keep (skip_key inc exc) l).
  { intros l. unfold keep. apply filter_ext. intros e. unfold skip_key. destruct inc as [f|], exc as [g|]; rewrite ?negb_orb, ?negb_involutive; reflexivity. }
  rewrite !EF in HP.
  assert (KF : forall T (l : list (list Z * T)) k, NoDup (map fst l) -> sort_by entry_ltb (keep k l) = keep k (sort_by entry_ltb l)).
  { intros T l k HL. assert (ND : NoDup (map fst (keep k l))).
    { clear - HL. induction l as [|x l IH]; cbn [keep filter map]; [constructor|]. inversion HL; subst. destruct (negb (k (fst x))); [|auto]. cbn [map]. constructor; [|auto].
      intros Hi. apply H1. apply in_map_iff in Hi. destruct Hi as (y & E & Hy). apply filter_In in Hy. apply in_map_iff. exists y. tauto. }
    apply (sort_by_unique _ _ (entry_irr _) (entry_trans _)); [apply entry_pairwise; assumption| |].
    - assert (SS : StronglySorted (fun a b => entry_ltb a b = true) (sort_by entry_ltb l)) by (apply sort_by_sorted; [apply entry_trans|apply entry_pairwise; assumption]).
      clear - SS. induction SS as [|x l0 SS IH HX]; cbn [keep filter]; [constructor|]. destruct (negb (k (fst x))); [|assumption]. constructor; [assumption|].
      rewrite Forall_forall in *. intros y Hy. apply filter_In in Hy. apply HX. tauto.
    - unfold keep. pose proof (sort_by_perm _ (@entry_ltb T) l) as SP. clear - SP. symmetry. 
      induction SP as [|x a b SP IH|x y a|a b c S1 IH1 S2 IH2]; cbn [filter]; [constructor| | |eapply Permutation_trans; eassumption].
      + destruct (negb (k (fst x))); [constructor|]; assumption.
      + destruct (negb (k (fst x))), (negb (k (fst y))); try reflexivity. apply perm_swap. }
  rewrite <- !KF by (rewrite pre_keys; assumption).
  assert (KP : forall l, keep (skip_key inc exc) (pre l) = pre (keep (skip_key inc exc) l)).
  { intros l. unfold keep, pre. induction l as [|x l IH]; [reflexivity|]. cbn [map filter fst]. destruct (negb (skip_key inc exc (fst x))); cbn [map]; rewrite IH; reflexivity. }
  rewrite !KP. apply pre_perm; [|assumption].
  clear - HN. unfold keep. induction d as [|x l IH]; cbn [filter map]; [constructor|]. inversion HN; subst. destruct (negb (skip_key inc exc (fst x))); [|auto]. cbn [map]. constructor; [|auto].
  intros Hi. apply H1. apply in_map_iff in Hi. destruct Hi as (y & E & Hy). apply filter_In in Hy. apply in_map_iff. exists y. tauto.
Qed.
Print Assumptions C33_excluded_irrelevant.

(** In particular a transaction can be signed again: the signature already in it does not matter. *)
Theorem C33_signature_not_signed : forall d s v, NoDup (map fst ((str "signature", v) :: d)) ->
  signed_bytes ((str "signature", v) :: d) = signed_bytes ((str "signature", s) :: d).
Proof.
  intros d s v HN. unfold signed_bytes. rewrite (C33_excluded_irrelevant ((str "signature", v) :: d) ((str "signature", s) :: d) None (Some (fun k => bytes_eqb k (str "signature")))); auto.
Qed.
Print Assumptions C33_signature_not_signed.

Example C33_ex : let d := [(str "to", JStr (str "cx1")); (str "data", JDict [(str "b", JNull); (str "a", JList [JStr (str "x.y")])]); (str "signature", JBool true)] in
  let d' := [(str "signature", JStr []); (str "data", JDict [(str "a", JList [JStr (str "x.y")]); (str "b", JNull)]); (str "to", JStr (str "cx1"))] in
  signed_bytes d = Some (str "icx_sendTransaction.data.{a.[x\.y].b.\0}.to.cx1") /\ signed_bytes d' = signed_bytes d /\ wf (JDict d') /\
  reordered (JDict [(str "a", JNull); (str "b", JDict [(str "x", JNull); (str "y", JStr [])])]) (JDict [(str "b", JDict [(str "y", JStr []); (str "x", JNull)]); (str "a", JNull)]).
Proof.
  cbn zeta. split; [vm_compute; reflexivity|]. split; [vm_compute; reflexivity|]. split.
  - cbn [wf map fst snd]. repeat split; repeat (constructor; [cbn [In]; intuition discriminate|]); constructor.
  - eapply ro_dict; [apply perm_swap|]. constructor; [split; [reflexivity|apply ro_atom; exact I]|]. constructor; [|constructor]. split; [reflexivity|].
    eapply ro_dict; [apply perm_swap|]. constructor; [split; [reflexivity|apply ro_atom; exact I]|]. constructor; [split; [reflexivity|apply ro_atom; exact I]|constructor].
Qed.

(** * C34: what the signed bytes determine *)

Definition delim (r : list Z) : Prop := match r with [] => True | b :: _ => b = ch "." \/ b = ch "]" \/ b = ch "}" end.
Definition closing (r : list Z) : Prop := match r with [] => True | b :: _ => b = ch "]" \/ b = ch "}" end.
Lemma closing_delim : forall r, closing r -> delim r.
Proof. intros [|b r]; cbn [closing delim]; tauto. Qed.

Lemma is_special_iff : forall b, is_special b = true <-> (b = ch "\" \/ b = ch "{" \/ b = ch "}" \/ b = ch "[" \/ b = ch "]" \/ b = ch ".").
Proof. intros b. unfold is_special. rewrite !orb_true_iff, !Z.eqb_eq. tauto. Qed.

Ltac chs := repeat match goal with H : context [ch ?c] |- _ => let v := eval vm_compute in (ch c) in change (ch c) with v in H end;
  repeat match goal with |- context [ch ?c] => let v := eval vm_compute in (ch c) in change (ch c) with v end.

(** First byte of the text of a string: a backslash or an ordinary byte. *)
Lemma str_head : forall s, match serializeString s with [] => s = [] | b :: _ => b = ch "\" \/ is_special b = false end.
Proof. intros [|b s]; [reflexivity|]. cbn [serializeString]. destruct (is_special b) eqn:E; [left; reflexivity|right; exact E]. Qed.

Lemma str_inj : forall s s' r r', delim r -> delim r' -> serializeString s ++ r = serializeString s' ++ r' -> s = s' /\ r = r'.
Proof.
  assert (N : forall b s r, delim r -> r <> serializeString (b :: s)  ++ []  -> True) by auto. clear N.
  assert (N : forall b s r r', delim r -> r = serializeString (b :: s) ++ r' -> False).
  { intros b s r r' HD E. cbn [serializeString] in E. destruct (is_special b) eqn:EB; cbn [app] in E; subst r; cbn [delim] in HD.
    - chs. intuition lia.
    - assert (is_special b = true) by (apply is_special_iff; tauto). congruence. }
  induction s as [|b s IH]; intros [|b' s'] r r' HD HD' E.
  - auto.
  - exfalso. apply (N b' s' r r' HD). exact E.
  - exfalso. apply (N b s r' r HD'). symmetry. exact E.
  - cbn [serializeString] in E. destruct (is_special b) eqn:EB, (is_special b') eqn:EB'; cbn [app] in E.
    + assert (b = b') by congruence. assert (E2 : serializeString s ++ r = serializeString s' ++ r') by congruence. destruct (IH _ _ _ HD HD' E2). subst. auto.
    + assert (X : b' = ch "\") by congruence. assert (is_special b' = true) by (apply is_special_iff; tauto). congruence.
    + assert (X : b = ch "\") by congruence. assert (is_special b = true) by (apply is_special_iff; tauto). congruence.
    + assert (b = b') by congruence. assert (E2 : serializeString s ++ r = serializeString s' ++ r') by congruence. destruct (IH _ _ _ HD HD' E2). subst. auto.
Qed.

(** Decimal numbers. *)
Definition dval (l : list Z) (a : Z) : Z := fold_left (fun a c => a * 10 + (c - ch "0")) l a.
Lemma dec_loop_val : forall fuel n acc, 0 <= n < 10 ^ Z.of_nat fuel -> dval (dec_loop fuel n acc) 0 = dval acc n.
Proof.
  induction fuel as [|fuel IH]; intros n acc HN.
  - change (10 ^ Z.of_nat 0) with 1 in HN. assert (n = 0) by lia. subst. reflexivity.
  - rewrite Nat2Z.inj_succ, Z.pow_succ_r in HN by lia. cbn [dec_loop]. destruct (n <? 10) eqn:EN.
    + apply Z.ltb_lt in EN. unfold dval. cbn [fold_left]. f_equal. rewrite Z.mod_small by lia. lia.
    + rewrite IH by (split; [apply Z.div_pos; lia|apply Z.div_lt_upper_bound; lia]). unfold dval. cbn [fold_left]. f_equal. pose proof (Z.div_mod n 10). lia.
Qed.
Lemma dec_loop_digits : forall fuel n acc, Forall (fun c => ch "0" <= c <= ch "9") acc -> Forall (fun c => ch "0" <= c <= ch "9") (dec_loop fuel n acc).
Proof.
  induction fuel as [|fuel IH]; intros n acc HA; cbn [dec_loop]; [assumption|].
  assert (HC : Forall (fun c => ch "0" <= c <= ch "9") (ch "0" + n mod 10 :: acc)) by (constructor; [pose proof (Z.mod_pos_bound n 10); chs; lia|assumption]).
  destruct (n <? 10); auto.
Qed.
Lemma dec_loop_ne : forall fuel n acc, acc <> [] -> dec_loop fuel n acc <> [].
Proof. induction fuel as [|fuel IH]; intros n acc HA; cbn [dec_loop]; [assumption|]. destruct (n <? 10); [discriminate|]. apply IH. discriminate. Qed.
Lemma dec_ne : forall z, FormatDec z <> [].
Proof.
  intros z. unfold FormatDec. destruct (z <? 0); [discriminate|]. cbn [dec_loop]. destruct (z <? 10); [discriminate|]. apply (dec_loop_ne 19). discriminate.
Qed.
Lemma dec_inj : forall z z', - 2 ^ 63 <= z < 2 ^ 63 -> - 2 ^ 63 <= z' < 2 ^ 63 -> FormatDec z = FormatDec z' -> z = z'.
Proof.
  intros z z' HZ HZ' E. unfold FormatDec in E.
  assert (P : 2 ^ 63 < 10 ^ Z.of_nat 20) by (vm_compute; reflexivity).
  assert (NM : forall a b, dec_loop 20 a [] = ch "-" :: b -> False).
  { intros a b X. pose proof (dec_loop_digits 20 a [] ltac:(constructor)) as HD. rewrite X in HD. inversion HD; subst. chs. lia. }
  destruct (z <? 0) eqn:E1, (z' <? 0) eqn:E2.
  - assert (X : dec_loop 20 (- z) [] = dec_loop 20 (- z') []) by congruence. apply (f_equal (fun l => dval l 0)) in X. rewrite !dec_loop_val in X by lia. unfold dval in X. cbn [fold_left] in X. lia.
  - symmetry in E. destruct (NM _ _ E).
  - destruct (NM _ _ E).
  - apply (f_equal (fun l => dval l 0)) in E. rewrite !dec_loop_val in E by lia. exact E.
Qed.
Lemma plain_str : forall l, Forall (fun c => is_special c = false) l -> serializeString l = l.
Proof. induction l as [|b l IH]; intros H; [reflexivity|]. inversion H; subst. cbn [serializeString]. rewrite H2, IH by assumption. reflexivity. Qed.
Lemma dec_plain : forall z, serializeString (FormatDec z) = FormatDec z.
Proof.
  intros z. apply plain_str. assert (D : forall n, Forall (fun c => is_special c = false) (dec_loop 20 n [])).
  { intros n. eapply Forall_impl; [|apply (dec_loop_digits 20 n []); constructor]. intros c HC. cbn beta in HC. unfold is_special. chs. lia. }
  unfold FormatDec. destruct (z <? 0); [constructor; [reflexivity|apply D]|apply D].
Qed.

(** Sequences of dotted items. *)
Lemma dots_delim : forall fs r, closing r -> delim (dots fs ++ r).
Proof. intros [|f fs] r H; [apply closing_delim; exact H|]. left. reflexivity. Qed.

Lemma seq_inj : forall A (tx : A -> list Z) (R : A -> A -> Prop) xs xs' r r',
  (forall x x' r r', In x xs -> In x' xs' -> delim r -> delim r' -> tx x ++ r = tx x' ++ r' -> R x x' /\ r = r') ->
  closing r -> closing r' -> dots (map tx xs) ++ r = dots (map tx xs') ++ r' -> Forall2 R xs xs' /\ r = r'.
Proof.
  intros A tx R. induction xs as [|x xs IH]; intros [|x' xs'] r r' HI HC HC' E.
  - split; [constructor|exact E].
  - exfalso. cbn [map] in E. unfold dots in E. cbn [map concat app] in E. subst r. cbn [closing] in HC. chs. lia.
  - exfalso. cbn [map] in E. unfold dots in E. cbn [map concat app] in E. subst r'. cbn [closing] in HC'. chs. lia.
  - cbn [map] in E. unfold dots in E. cbn [map concat] in E. fold (dots (map tx xs)) in E. fold (dots (map tx xs')) in E. rewrite <- !app_assoc in E.
    assert (E2 : tx x ++ dots (map tx xs) ++ r = tx x' ++ dots (map tx xs') ++ r') by (cbn [app] in E; congruence).
    apply HI in E2; [|left; reflexivity|left; reflexivity|apply dots_delim; assumption|apply dots_delim; assumption]. destruct E2 as [HR E2].
    apply IH in E2; auto; [|intros; apply HI; auto; right; assumption]. destruct E2. split; [constructor; assumption|assumption].
Qed.
Lemma jn_inj : forall A (tx : A -> list Z) (R : A -> A -> Prop) xs xs' r r',
  (forall x x' r r', In x xs -> In x' xs' -> delim r -> delim r' -> tx x ++ r = tx x' ++ r' -> R x x' /\ r = r') ->
  (forall x w, match xs with [] => False | y :: _ => x = y end -> ~ closing (tx x ++ w)) ->
  (forall x w, match xs' with [] => False | y :: _ => x = y end -> ~ closing (tx x ++ w)) ->
  closing r -> closing r' -> jn (map tx xs) ++ r = jn (map tx xs') ++ r' -> Forall2 R xs xs' /\ r = r'.
Proof.
  intros A tx R [|x xs] [|x' xs'] r r' HI HN HN' HC HC' E; cbn [map jn app] in E.
  - split; [constructor|exact E].
  - exfalso. rewrite <- app_assoc in E. subst r. eapply (HN' x'); [reflexivity|exact HC].
  - exfalso. rewrite <- app_assoc in E. subst r'. eapply (HN x); [reflexivity|exact HC'].
  - rewrite <- !app_assoc in E. apply HI in E; [|left; reflexivity|left; reflexivity|apply dots_delim; assumption|apply dots_delim; assumption]. destruct E as [HR E].
    apply (seq_inj A tx R) in E; auto; [|intros; apply HI; auto; right; assumption]. destruct E. split; [constructor; assumption|assumption].
Qed.

(** Decomposition of successful results. *)
Definition items (l : list jval) (xs : list (jval * list Z)) : Prop := map fst xs = l /\ Forall (fun x => serializeValue (fst x) = Some (snd x)) xs.
Lemma items_of : forall l gs, map serializeValue l = map Some gs -> exists xs, items l xs /\ map snd xs = gs.
Proof.
  induction l as [|v l IH]; intros [|g gs] E; try discriminate; [exists []; repeat split; constructor|]. cbn [map] in E.
  destruct (IH gs) as (xs & [HM HF] & HS); [congruence|]. exists ((v, g) :: xs). repeat split; cbn [map fst snd]; try congruence. constructor; [cbn [fst snd]; congruence|assumption].
Qed.
Lemma ser_nil : forall v, serializeValue v = Some [] -> v = JStr [].
Proof.
  intros [|s|z|b|l|d] E; cbn [serializeValue] in E; try discriminate.
  - pose proof (str_head s) as H. destruct (serializeString s); [subst; reflexivity|discriminate].
  - destruct (dec_ne z). congruence.
  - destruct (list_loop _ _); discriminate.
  - destruct (dict_loop _ _ _); discriminate.
Qed.
Lemma drop_map : forall l gs, map serializeValue l = map Some gs -> map serializeValue (drop_empty l) = map Some (dropnil gs).
Proof.
  induction l as [|v l IH]; intros [|g gs] E; try discriminate; [reflexivity|]. cbn [map] in E. assert (EV : serializeValue v = Some g) by congruence. assert (EL : map serializeValue l = map Some gs) by congruence.
  destruct g as [|b g].
  - apply ser_nil in EV. subst v. cbn [drop_empty dropnil]. apply IH. assumption.
  - cbn [dropnil]. assert (drop_empty (v :: l) = v :: l) as ->.
    { destruct v as [|[|c s]|z|b'|l'|d]; try reflexivity. cbn in EV. discriminate. }
    cbn [map]. congruence.
Qed.
Lemma dropnil_head : forall gs, match dropnil gs with [] => True | g :: _ => g <> [] end.
Proof. induction gs as [|[|b g] gs IH]; [exact I|exact IH|discriminate]. Qed.

(** A value's text does not begin with a closing delimiter, and is followed by one only when empty. *)
Lemma ser_head : forall v t w, serializeValue v = Some t -> t <> [] -> ~ closing (t ++ w).
Proof.
  intros v t w E HT HC. destruct v as [|s|z|b|l|d]; cbn [serializeValue] in E; try discriminate.
  - assert (t = [ch "\"; ch "0"]) by congruence. subst t. cbn [app closing] in HC. chs. lia.
  - assert (t = serializeString s) by congruence. subst t. pose proof (str_head s) as H. destruct (serializeString s) as [|c u]; [congruence|]. cbn [app closing] in HC.
    destruct H as [->|H]; [chs; lia|]. assert (is_special c = true) by (apply is_special_iff; tauto). congruence.
  - assert (t = serializeString (FormatDec z)) by (rewrite dec_plain; congruence). subst t. pose proof (str_head (FormatDec z)) as H. destruct (serializeString (FormatDec z)) as [|c u]; [congruence|]. cbn [app closing] in HC.
    destruct H as [->|H]; [chs; lia|]. assert (is_special c = true) by (apply is_special_iff; tauto). congruence.
  - destruct (list_loop _ _); [|discriminate]. assert (t = ch "[" :: l0 ++ [ch "]"]) by congruence. subst t. cbn [app closing] in HC. chs. lia.
  - destruct (dict_loop _ _ _); [|discriminate]. assert (t = ch "{" :: l ++ [ch "}"]) by congruence. subst t. cbn [app closing] in HC. chs. lia.
Qed.

Lemma perm_forall2 : forall A (R : A -> A -> Prop) (a b c : list A), Permutation a b -> Forall2 R b c -> exists d, Permutation d c /\ Forall2 R a d.
Proof.
  intros A R a b c HP. revert c. induction HP as [|x a b HP IH|x y a|a b c0 H1 IH1 H2 IH2]; intros c HF.
  - exists c. split; [reflexivity|exact HF].
  - inversion HF as [|? y ? c' HX HF']; subst. destruct (IH _ HF') as (d & HD & HR). exists (y :: d). split; [constructor; assumption|constructor; assumption].
  - inversion HF as [|? u ? c' HX HF']; subst. inversion HF' as [|? v ? c'' HY HF'']; subst. exists (v :: u :: c''). split; [apply perm_swap|constructor; [assumption|constructor; assumption]].
  - destruct (IH2 _ HF) as (d & HD & HR). destruct (IH1 _ HR) as (e & HE & HS). exists e. split; [eapply Permutation_trans; eassumption|assumption].
Qed.

Definition ditems (ds : list (list Z * jval)) (xs : list ((list Z * jval) * list Z)) : Prop :=
  map fst xs = ds /\ Forall (fun x => serializeValue (snd (fst x)) = Some (snd x)) xs.
Definition dtx (x : (list Z * jval) * list Z) : list Z := entry_text (fst (fst x), snd x).
Lemma ditems_of : forall ds gs, pre ds = map (fun e => (fst e, Some (snd e))) gs -> exists xs, ditems ds xs /\ map dtx xs = map entry_text gs.
Proof.
  induction ds as [|[k v] ds IH]; intros [|[k' g] gs] E; try discriminate; [exists []; repeat split; constructor|]. unfold pre in *. cbn [map fst snd] in E.
  destruct (IH gs) as (xs & [HM HF] & HS); [congruence|]. assert (k = k') by congruence. subst k'. exists (((k, v), g) :: xs).
  repeat split; cbn [map fst snd]; [congruence|constructor; [cbn [fst snd]; congruence|assumption]|]. unfold dtx at 1. cbn [fst snd]. congruence.
Qed.
Lemma pre_sort : forall d, sort_by entry_ltb (pre d) = pre (sort_by entry_ltb d).
Proof. intros d. unfold pre. apply sort_by_map. reflexivity. Qed.
Lemma dict_parts : forall d t, dict_loop (fun _ => false) [] (sort_by entry_ltb (pre d)) = Some t ->
  exists xs, ditems (sort_by entry_ltb d) xs /\ t = jn (map dtx xs).
Proof.
  intros d t E. rewrite pre_sort in E. destruct (dict_loop_some _ _ _ E) as [gs HG]. destruct (ditems_of _ _ HG) as (xs & HX & HS). exists xs. split; [exact HX|].
  rewrite HG, dict_loop_nil in E. rewrite HS. assert (K : keep (fun _ => false) gs = gs) by (clear; unfold keep; induction gs as [|g gs IH]; [reflexivity|]; cbn [filter negb]; f_equal; exact IH).
  rewrite K in E. congruence.
Qed.
Lemma list_parts : forall l t, list_loop [] (map serializeValue l) = Some t ->
  exists xs, items (drop_empty l) xs /\ t = jn (map snd xs) /\ match xs with [] => True | x :: _ => snd x <> [] end.
Proof.
  intros l t E. destruct (list_loop_some _ _ _ E) as [gs HG]. pose proof (drop_map _ _ HG) as HD. destruct (items_of _ _ HD) as (xs & HX & HS). exists xs. split; [exact HX|].
  rewrite HG, list_loop_nil in E. split; [rewrite HS; congruence|]. pose proof (dropnil_head gs) as HH. rewrite <- HS in HH. destruct xs; [exact I|exact HH].
Qed.

Definition Inj (v : jval) : Prop := forall v' t t' r r', wf v -> wf v' -> serializeValue v = Some t -> serializeValue v' = Some t' -> delim r -> delim r' -> t ++ r = t' ++ r' -> same v v' /\ r = r'.

Lemma dict_inj : forall d d' t t' r r', (forall k v, In (k, v) d -> Inj v) -> wf (JDict d) -> wf (JDict d') ->
  dict_loop (fun _ => false) [] (sort_by entry_ltb (pre d)) = Some t -> dict_loop (fun _ => false) [] (sort_by entry_ltb (pre d')) = Some t' ->
  closing r -> closing r' -> t ++ r = t' ++ r' -> same (JDict d) (JDict d') /\ r = r'.
Proof.
  intros d d' t t' r r' HI HW HW' E E' HC HC' EQ. destruct (dict_parts _ _ E) as (xs & [HM HF] & ->). destruct (dict_parts _ _ E') as (xs' & [HM' HF'] & ->).
  assert (IN : forall x, In x xs -> In (fst x) d).
  { intros x Hx. apply (Permutation_in _ (sort_by_perm _ entry_ltb d)). rewrite <- HM. apply in_map. assumption. }
  assert (IN' : forall x, In x xs' -> In (fst x) d').
  { intros x Hx. apply (Permutation_in _ (sort_by_perm _ entry_ltb d')). rewrite <- HM'. apply in_map. assumption. }
  assert (NC : forall x w, ~ closing (dtx x ++ w)).
  { intros x w HX. unfold dtx, entry_text in HX. cbn [fst snd] in HX. pose proof (str_head (fst (fst x))) as H. destruct (serializeString (fst (fst x))) as [|c u]; cbn [app closing] in HX; [chs; lia|].
    destruct H as [->|H]; [chs; lia|]. assert (is_special c = true) by (apply is_special_iff; tauto). congruence. }
  apply (jn_inj _ dtx (fun a b => fst (fst a) = fst (fst b) /\ same (snd (fst a)) (snd (fst b)))) in EQ; auto.
  - destruct EQ as [HR ->]. split; [|reflexivity].
    assert (HS : Forall2 (fun a b => fst a = fst b /\ same (snd a) (snd b)) (sort_by entry_ltb d) (sort_by entry_ltb d')).
    { rewrite <- HM, <- HM'. clear - HR. induction HR as [|a b xs ys HAB HR IH]; [constructor|]. cbn [map]. constructor; assumption. }
    destruct (perm_forall2 _ _ d _ _ (Permutation_sym (sort_by_perm _ entry_ltb d)) HS) as (d2 & HP & H2).
    apply (same_dict d d' d2); [|assumption]. eapply Permutation_trans; [exact HP|apply sort_by_perm].
  - intros x x' w w' Hx Hx' HD HD' EX. unfold dtx, entry_text in EX. cbn [fst snd] in EX. rewrite <- !app_assoc in EX. apply str_inj in EX; [|left; reflexivity|left; reflexivity].
    destruct EX as [EK EX]. cbn [app] in EX. assert (EX2 : snd x ++ w = snd x' ++ w') by congruence. rewrite Forall_forall in HF, HF'. pose proof (IN _ Hx) as I1. pose proof (IN' _ Hx') as I2.
    specialize (HF _ Hx). specialize (HF' _ Hx'). destruct x as [[k v] f]. destruct x' as [[k' v'] f']. cbn [fst snd] in *.
    destruct (HI k v I1 v' f f' w w') as [HS HE]; auto; [apply (wf_dict d k v HW I1)|apply (wf_dict d' k' v' HW' I2)].
Qed.

Lemma ser_inj : forall n v, (jsize v <= n)%nat -> Inj v.
Proof.
  induction n as [|n IH]; intros v HS; [destruct v; cbn in HS; lia|]. intros v' t t' r r' HW HW' E E' HD HD' EQ.
  (* atoms: the texts of strings and numbers are escaped strings *)
  assert (AT : forall u x, wf u -> serializeValue u = Some x -> (exists s, x = serializeString s /\ (u = JStr s \/ exists z, u = JNum z /\ s = FormatDec z)) \/ u = JNull /\ x = [ch "\"; ch "0"] \/
     (exists l y, u = JList l /\ list_loop [] (map serializeValue l) = Some y /\ x = ch "[" :: y ++ [ch "]"]) \/
     (exists d y, u = JDict d /\ dict_loop (fun _ => false) [] (sort_by entry_ltb (pre d)) = Some y /\ x = ch "{" :: y ++ [ch "}"])).
  { intros u x HU EU. destruct u as [|s|z|b|l|d]; cbn [serializeValue] in EU; try discriminate.
    - right; left. split; [reflexivity|congruence].
    - left. exists s. split; [congruence|auto].
    - left. exists (FormatDec z). split; [rewrite dec_plain; congruence|]. right. exists z. auto.
    - right; right; left. destruct (list_loop _ _) as [y|] eqn:EL; [|discriminate]. exists l, y. repeat split; auto. congruence.
    - right; right; right. fold (pre d) in EU. destruct (dict_loop _ _ _) as [y|] eqn:EL; [|discriminate]. exists d, y. repeat split; auto. congruence. }
  assert (SH : forall s w c rest, serializeString s ++ w = c :: rest -> (c = ch "[" \/ c = ch "{") -> delim w -> False).
  { intros s w c rest X HC HW0. pose proof (str_head s) as H. destruct (serializeString s) as [|b u].
    - cbn [app] in X. subst w. cbn [delim] in HW0. chs. lia.
    - cbn [app] in X. assert (b = c) by congruence. subst b. destruct H as [H|H]; [chs; lia|]. assert (is_special c = true) by (apply is_special_iff; tauto). congruence. }
  assert (SN : forall s w rest, serializeString s ++ w = ch "\" :: ch "0" :: rest -> delim w -> False).
  { intros s w rest X HW0. destruct s as [|b s].
    - cbn [serializeString app] in X. subst w. cbn [delim] in HW0. chs. lia.
    - cbn [serializeString] in X. destruct (is_special b) eqn:EB; cbn [app] in X.
      + assert (b = ch "0") by congruence. subst b. vm_compute in EB. discriminate.
      + assert (b = ch "\") by congruence. subst b. vm_compute in EB. discriminate. }
  destruct (AT _ _ HW E) as [(s & -> & HV)|[(-> & ->)|[(l & y & -> & EL & ->)|(d & y & -> & EL & ->)]]];
  destruct (AT _ _ HW' E') as [(s' & -> & HV')|[(-> & ->)|[(l' & y' & -> & EL' & ->)|(d' & y' & -> & EL' & ->)]]].
  - apply str_inj in EQ; auto. destruct EQ as [<- ->]. split; [|reflexivity].
    destruct HV as [->|(z & -> & ->)], HV' as [->|(z' & -> & EZ)]; try subst s; try (constructor; fail).
    apply dec_inj in EZ; [subst z'; constructor|exact HW|exact HW'].
  - exfalso. eapply SN; [exact EQ|assumption].
  - exfalso. eapply SH; [exact EQ|left; reflexivity|assumption].
  - exfalso. eapply SH; [exact EQ|right; reflexivity|assumption].
  - exfalso. symmetry in EQ. eapply SN; [exact EQ|assumption].
  - split; [constructor|]. cbn [app] in EQ. congruence.
  - exfalso. cbn [app] in EQ. chs. congruence.
  - exfalso. cbn [app] in EQ. chs. congruence.
  - exfalso. symmetry in EQ. eapply SH; [exact EQ|left; reflexivity|assumption].
  - exfalso. cbn [app] in EQ. chs. congruence.
  - cbn [app] in EQ. rewrite <- !app_assoc in EQ. assert (EQ2 : y ++ [ch "]"] ++ r = y' ++ [ch "]"] ++ r') by congruence.
    destruct (list_parts _ _ EL) as (xs & [HM HF] & -> & HH). destruct (list_parts _ _ EL') as (xs' & [HM' HF'] & -> & HH').
    assert (DI : forall l x, In x (drop_empty l) -> In x l).
    { clear. induction l as [|v l IH]; intros x Hx; [exact Hx|]. cbn [drop_empty] in Hx. destruct v as [|[|c s]|z|b|l'|d]; try exact Hx. right. apply IH. exact Hx. }
    rewrite Forall_forall in HF, HF'.
    apply (jn_inj _ snd (fun a b => same (fst a) (fst b))) in EQ2.
    + destruct EQ2 as [HR E3]. split; [|cbn [app] in E3; congruence]. constructor. rewrite <- HM, <- HM'. clear - HR. induction HR; [constructor|]. cbn [map]. constructor; assumption.
    + intros x x' w w' Hx Hx' HDw HDw' EX.
      assert (I1 : In (fst x) l) by (apply DI; rewrite <- HM; apply in_map; assumption). assert (I2 : In (fst x') l') by (apply DI; rewrite <- HM'; apply in_map; assumption).
      apply (IH (fst x)) with (t := snd x) (t' := snd x'); auto; [pose proof (jsize_list _ _ I1); lia|apply (wf_list _ _ HW I1)|apply (wf_list _ _ HW' I2)].
    + intros x w HX. destruct xs as [|x0 xs]; [destruct HX|]. subst x0. apply (ser_head (fst x)); [apply HF; left; reflexivity|assumption].
    + intros x w HX. destruct xs' as [|x0 xs']; [destruct HX|]. subst x0. apply (ser_head (fst x)); [apply HF'; left; reflexivity|assumption].
    + left. reflexivity.
    + left. reflexivity.
  - exfalso. cbn [app] in EQ. chs. congruence.
  - exfalso. symmetry in EQ. eapply SH; [exact EQ|right; reflexivity|assumption].
  - exfalso. cbn [app] in EQ. chs. congruence.
  - exfalso. cbn [app] in EQ. chs. congruence.
  - cbn [app] in EQ. rewrite <- !app_assoc in EQ. assert (EQ2 : y ++ [ch "}"] ++ r = y' ++ [ch "}"] ++ r') by congruence.
    apply (dict_inj d d') in EQ2; auto; [|intros k v Hv; apply IH; pose proof (jsize_dict _ _ _ Hv); lia|right; reflexivity|right; reflexivity].
    destruct EQ2 as [HS2 E3]. split; [exact HS2|]. cbn [app] in E3. congruence.
Qed.

(** The other direction. *)
Lemma drop_empty_ser : forall l, list_loop [] (map serializeValue l) = list_loop [] (map serializeValue (drop_empty l)).
Proof. induction l as [|v l IH]; [reflexivity|]. destruct v as [|[|c s]|z|b|l'|d]; try reflexivity. cbn [drop_empty]. rewrite <- IH. reflexivity. Qed.
Lemma same_ser : forall n v v', (jsize v <= n)%nat -> wf v' -> same v v' -> serializeValue v = serializeValue v'.
Proof.
  induction n as [|n IH]; intros v v' HS HW HR; [destruct v; cbn in HS; lia|].
  destruct HR as [|s|z|z|z|b|l l' HF|d d' d2 HP HF]; try reflexivity; try (cbn [serializeValue]; rewrite dec_plain; reflexivity).
  - cbn [serializeValue]. rewrite (drop_empty_ser l), (drop_empty_ser l').
    assert (DI : forall l x, In x (drop_empty l) -> In x l).
    { clear. induction l as [|v l IH]; intros x Hx; [exact Hx|]. cbn [drop_empty] in Hx. destruct v as [|[|c s]|z|b|l'|d]; try exact Hx. right. apply IH. exact Hx. }
    assert (E : map serializeValue (drop_empty l) = map serializeValue (drop_empty l')).
    { assert (G : forall x, In x (drop_empty l) -> (jsize x <= n)%nat) by (intros x Hx; pose proof (jsize_list l x (DI _ _ Hx)); lia).
      assert (W : forall x, In x (drop_empty l') -> wf x) by (intros x Hx; apply (wf_list l' x HW (DI _ _ Hx))). clear HS HW.
      induction HF as [|x y a b HXY HF IHF]; [reflexivity|]. cbn [map]. f_equal; [|apply IHF; intros z Hz; [apply G|apply W]; right; assumption].
      apply IH; [apply G; left; reflexivity|apply W; left; reflexivity|assumption]. }
    rewrite E. reflexivity.
  - cbn [serializeValue]. fold (pre d). fold (pre d').
    assert (E : pre d = pre d2).
    { assert (G : forall k x, In (k, x) d -> (jsize x <= n)%nat) by (intros k x Hx; pose proof (jsize_dict d k x Hx); lia).
      assert (W : forall k x, In (k, x) d2 -> wf x) by (intros k x Hx; apply (wf_dict d' k x HW); apply (Permutation_in _ HP); assumption). clear HS HW HP.
      induction HF as [|[k x] [k2 y] d d2 [HK HXY] HF IHF]; [reflexivity|]. cbn [fst snd] in *. subst k2. unfold pre in *. cbn [map fst snd]. f_equal.
      - f_equal. apply IH; [apply (G k); left; reflexivity|apply (W k); left; reflexivity|assumption].
      - apply IHF; intros k' z Hz; [apply (G k')|apply (W k')]; right; assumption. }
    rewrite E. rewrite (pre_perm d2 d'); [reflexivity| |assumption].
    apply (Permutation_NoDup (Permutation_sym (Permutation_map fst HP))). apply wf_keys. assumption.
Qed.

Lemma SerializeMap_plain : forall d, SerializeMap d None None = dict_loop (fun _ => false) [] (sort_by entry_ltb (pre d)).
Proof. reflexivity. Qed.

(** C34: exactly which objects have the same text. *)
Theorem C34_text_determines_object : forall d d' t, wf (JDict d) -> wf (JDict d') ->
  SerializeMap d None None = Some t -> (SerializeMap d' None None = Some t <-> same (JDict d) (JDict d')).
Proof.
  intros d d' t HW HW' E. split; [|intros HS].
  - intros E'. rewrite SerializeMap_plain in E, E'. destruct (dict_inj d d' t t [] []) as [HS _]; auto; try exact I. intros k v _. apply (ser_inj (jsize v)). lia.
  - rewrite <- E. symmetry. pose proof (same_ser (jsize (JDict d)) (JDict d) (JDict d') (le_n _) HW' HS) as X. cbn [serializeValue] in X. fold (pre d) in X. fold (pre d') in X. rewrite !SerializeMap_plain in *.
    rewrite E in X |- *. destruct (dict_loop _ _ (sort_by entry_ltb (pre d'))) as [t'|]; [|discriminate]. assert (X2 : t ++ [ch "}"] = t' ++ [ch "}"]) by congruence. apply app_inv_tail in X2. congruence.
Qed.
Print Assumptions C34_text_determines_object.

(** Objects without numbers and without lists that start with an empty string: nothing but the order of entries is lost. *)
Lemma strict_same : forall n v v', (jsize v <= n)%nat -> strict v -> strict v' -> same v v' -> reordered v v'.
Proof.
  induction n as [|n IH]; intros v v' HS H1 H2 HR; [destruct v; cbn in HS; lia|].
  destruct HR as [|s|z|z|z|b|l l' HF|d d' d2 HP HF]; try (apply ro_atom; exact I); try (cbn [strict] in *; contradiction).
  - assert (DE : forall l, strict (JList l) -> drop_empty l = l).
    { intros [|[|[|c s]|z|b|l0|d] l0']; try reflexivity. intros [[] _]. }
    rewrite (DE l H1), (DE l' H2) in HF. constructor.
    assert (G : forall x, In x l -> (jsize x <= n)%nat /\ strict x) by (intros x Hx; split; [pose proof (jsize_list l x Hx); lia|apply (strict_list l x H1 Hx)]).
    assert (W : forall x, In x l' -> strict x) by (intros x Hx; apply (strict_list l' x H2 Hx)). clear H1 H2 HS.
    induction HF as [|x y a b HXY HF IHF]; constructor; [|apply IHF; intros z Hz; [apply G|apply W]; right; assumption].
    apply IH; auto; [apply G; left; reflexivity|apply G; left; reflexivity|apply W; left; reflexivity].
  - apply (ro_dict d d' d2); [assumption|].
    assert (G : forall k x, In (k, x) d -> (jsize x <= n)%nat /\ strict x) by (intros k x Hx; split; [pose proof (jsize_dict d k x Hx); lia|apply (strict_dict d k x H1 Hx)]).
    assert (W : forall k x, In (k, x) d2 -> strict x) by (intros k x Hx; apply (strict_dict d' k x H2); apply (Permutation_in _ HP); assumption). clear H1 H2 HS HP.
    induction HF as [|[k x] [k2 y] a b [HK HXY] HF IHF]; constructor; [|apply IHF; intros k' z Hz; [apply (G k')|apply (W k')]; right; assumption].
    split; [assumption|]. cbn [fst snd] in *. apply IH; auto; [apply (G k); left; reflexivity|apply (G k); left; reflexivity|apply (W k2); left; reflexivity].
Qed.
Theorem C34_strict_objects : forall d d' t, wf (JDict d) -> wf (JDict d') -> strict (JDict d) -> strict (JDict d') ->
  SerializeMap d None None = Some t -> SerializeMap d' None None = Some t -> reordered (JDict d) (JDict d').
Proof.
  intros d d' t HW HW' H1 H2 E E'. apply (strict_same (jsize (JDict d))); auto. apply (C34_text_determines_object d d' t); assumption.
Qed.
Print Assumptions C34_strict_objects.

(** The same for signed transactions: the bytes determine everything but the signature field. *)
Definition unsigned (d : list (list Z * jval)) := filter (fun e => negb (bytes_eqb (fst e) (str "signature"))) d.
Lemma wf_filter : forall p d, wf (JDict d) -> wf (JDict (filter p d)).
Proof.
  intros p d [HN HV]. split.
  - clear HV. induction d as [|x l IH]; cbn [filter map]; [constructor|]. inversion HN; subst. destruct (p x); [|auto]. cbn [map]. constructor; [|auto].
    intros Hi. apply H1. apply in_map_iff in Hi. destruct Hi as (y & E & Hy). apply filter_In in Hy. apply in_map_iff. exists y. tauto.
  - clear HN. induction d as [|x l IH]; cbn [filter]; [exact I|]. destruct HV as [H1 H2]. destruct (p x); [exact (conj H1 (IH H2))|exact (IH H2)].
Qed.
Lemma signed_plain : forall d, wf (JDict d) -> signed_bytes d = match SerializeMap (unsigned d) None None with Some t => Some (str "icx_sendTransaction." ++ t) | None => None end.
Proof.
  intros d HW. unfold signed_bytes.
  assert (X : SerializeMap d None (Some (fun k => bytes_eqb k (str "signature"))) = SerializeMap (unsigned d) None (Some (fun k => bytes_eqb k (str "signature")))).
  { apply C33_excluded_irrelevant; [apply wf_keys; assumption|apply wf_keys; apply wf_filter; assumption|]. cbn [andb]. unfold unsigned.
    assert (FF : forall (l : list (list Z * jval)), filter (fun e => negb (bytes_eqb (fst e) (str "signature"))) (filter (fun e => negb (bytes_eqb (fst e) (str "signature"))) l) = filter (fun e => negb (bytes_eqb (fst e) (str "signature"))) l).
    { induction l as [|x l IH]; [reflexivity|]. cbn [filter]. destruct (negb (bytes_eqb (fst x) (str "signature"))) eqn:EX; [cbn [filter]; rewrite EX, IH; reflexivity|exact IH]. }
    rewrite FF. reflexivity. }
  rewrite X. unfold SerializeMap. fold (pre (unsigned d)). rewrite (dict_loop_keep (skip_key None (Some _))).
  assert (KK : forall es : list (list Z * option (list Z)), (forall e, In e es -> bytes_eqb (fst e) (str "signature") = false) -> keep (skip_key None (Some (fun k => bytes_eqb k (str "signature")))) es = es).
  { intros es HE. unfold keep. induction es as [|x es IH]; [reflexivity|]. cbn [filter skip_key orb]. rewrite (HE x) by (left; reflexivity). cbn [negb]. f_equal. apply IH. intros e He. apply HE. right. assumption. }
  rewrite KK; [reflexivity|]. intros e He. apply (Permutation_in _ (sort_by_perm _ entry_ltb (pre (unsigned d)))) in He. unfold pre in He. apply in_map_iff in He. destruct He as (y & <- & Hy).
  unfold unsigned in Hy. apply filter_In in Hy. cbn [fst]. destruct (bytes_eqb (fst y) (str "signature")); [destruct Hy; discriminate|reflexivity].
Qed.
Theorem C34_signed_bytes_determine_transaction : forall d d' t, wf (JDict d) -> wf (JDict d') ->
  signed_bytes d = Some t -> (signed_bytes d' = Some t <-> same (JDict (unsigned d)) (JDict (unsigned d'))).
Proof.
  intros d d' t HW HW' E. rewrite signed_plain in * by assumption. destruct (SerializeMap (unsigned d) None None) as [u|] eqn:EU; [|discriminate].
  rewrite <- (C34_text_determines_object (unsigned d) (unsigned d') u) by (try apply wf_filter; assumption). split.
  - destruct (SerializeMap (unsigned d') None None) as [u'|]; [|discriminate]. intros E'. assert (X : str "icx_sendTransaction." ++ u = str "icx_sendTransaction." ++ u') by congruence. apply app_inv_head in X. congruence.
  - intros ->. exact E.
Qed.
Print Assumptions C34_signed_bytes_determine_transaction.

(** Finding: different transactions can have the same signed bytes. *)
Theorem C34_distinct_signed_alike_refuted : exists d d' t, wf (JDict d) /\ wf (JDict d') /\ ~ reordered (JDict (unsigned d)) (JDict (unsigned d')) /\
  signed_bytes d = Some t /\ signed_bytes d' = Some t.
Proof.
  exists [(str "params", JList [JStr []; JStr (str "1")])], [(str "params", JList [JNum 1])], (str "icx_sendTransaction.params.[1]").
  split; [split; [constructor; [intros []|constructor]|repeat split]|]. split; [split; [constructor; [intros []|constructor]|]; cbn [wf snd]; lia|]. split; [|split; vm_compute; reflexivity].
  intros HR. vm_compute in HR. inversion HR as [| |? ? d2 HP HF]; subst. apply Permutation_sym, Permutation_length_1_inv in HP. subst d2.
  inversion HF as [|? ? ? ? [_ HX] _]; subst. cbn [snd] in HX. inversion HX as [|? ? HL|]; subst. inversion HL as [|? ? ? ? _ HT]; subst. inversion HT.
Qed.
Print Assumptions C34_distinct_signed_alike_refuted.

Example C34_ex : let d := [(str "a", JList [JStr (str "]"); JStr []]); (str "b", JDict [])] in wf (JDict d) /\ strict (JDict d) /\ SerializeMap d None None = Some (str "a.[\].].b.{}").
Proof. cbn zeta. split; [|split; [repeat split|vm_compute; reflexivity]]. cbn [wf map fst snd]. repeat split; [constructor; [cbn [In]; intuition discriminate|constructor; [intros []|constructor]]|constructor]. Qed.
