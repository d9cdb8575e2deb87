From Coq Require Import String Ascii ZArith List Bool Lia.
From Coq Require Import ZifyBool.
From Verif Require Import Base L_Base M_Mbt S_Mbt L_Mbt L_Mbt2.
Import ListNotations.
Open Scope Z_scope.

(** ** what an arbitrary sequence of positive items builds *)
Definition pos_items (l : list (Z * list Z)) : Prop := Forall (fun x => 1 <= fst x) l.

Lemma isum_nonneg : forall l, pos_items l -> 0 <= isum l.
Proof. intros l HF. induction HF; [cbn; lia|]. unfold isum in *. cbn [fold_right]. lia. Qed.

Lemma cnum_pos_items : forall c, pos_items (items c) -> 1 <= cnum c.
Proof.
  induction c; cbn [items cnum]; intros HP.
  - inversion HP; subst. assumption.
  - apply Forall_app in HP as [P1 P2]. specialize (IHc1 P1). specialize (IHc2 P2). lia.
Qed.

Lemma clevel_pos : forall c, pos_items (items c) -> cnum c < 2^62 -> 1 <= clevel c.
Proof.
  induction c; cbn [items cnum clevel]; intros HP HB.
  - inversion HP; subst. cbn [fst] in *. pose proof (ntl_spec m ltac:(lia)). lia.
  - apply Forall_app in HP as [P1 P2]. pose proof (cnum_pos_items _ P1). pose proof (cnum_pos_items _ P2).
    specialize (IHc1 P1 ltac:(lia)). lia.
Qed.

Lemma lazyAdd_shape : forall c m h, pos_items (items c) -> 1 <= m -> cnum c + m < 2^62 ->
  exists c', lazyAdd (to_node c) m h = to_node c' /\ items c' = items c ++ [(m, h)].
Proof.
  induction c as [m0 h0|l IHl r IHr]; intros m h HP Hm HB; cbn [to_node].
  - pose proof (clevel_pos _ HP) as HL. cbn [items cnum clevel] in *. specialize (HL ltac:(lia)).
    inversion HP; subst. cbn [fst] in *.
    exists (CB (CO m0 h0) (CO m h)). split; [|reflexivity]. cbn [lazyAdd to_node clevel cnum].
    replace (NumberToLevel m0 =? 0) with false by lia. rewrite i64_id by lia. reflexivity.
  - pose proof (clevel_pos _ HP) as HL. cbn [cnum] in HL, HB. cbn [items] in HP.
    apply Forall_app in HP as [P1 P2]. pose proof (cnum_pos_items _ P1). pose proof (cnum_pos_items _ P2).
    specialize (HL ltac:(lia)). cbn [lazyAdd]. replace (clevel (CB l r) =? 0) with false by lia. rewrite !n_num_to_node.
    destruct (negb _).
    + destruct (IHr m h P2 Hm ltac:(lia)) as (c' & E1 & E2). exists (CB l c'). rewrite E1. cbn [to_node items]. split.
      * f_equal. cbn [cnum]. rewrite i64_id by lia.
        rewrite <- (isum_items c'), E2, isum_app, isum_items. cbn. lia.
      * rewrite E2, app_assoc. reflexivity.
    + exists (CB (CB l r) (CO m h)). split; [|reflexivity]. cbn [to_node cnum]. rewrite i64_id by lia. reflexivity.
Qed.

Lemma fold_shape : forall its c, pos_items (items c) -> pos_items its -> cnum c + isum its < 2^62 ->
  exists c', fold_left ins its (to_node c) = to_node c' /\ items c' = items c ++ its.
Proof.
  induction its as [|[m h] its IH]; intros c HP HI HB; cbn [fold_left].
  - exists c. rewrite app_nil_r. auto.
  - inversion HI as [|? ? Hm HI']; subst. cbn [fst] in Hm.
    assert (isum ((m, h) :: its) = m + isum its) by reflexivity. pose proof (isum_nonneg its HI').
    destruct (lazyAdd_shape c m h HP Hm ltac:(lia)) as (c1 & E1 & E2).
    unfold ins at 2. cbn [fst snd]. rewrite E1.
    assert (N1 : cnum c1 = cnum c + m) by (rewrite <- isum_items, E2, isum_app, isum_items; cbn; lia).
    destruct (IH c1) as (c' & E3 & E4); [rewrite E2; apply Forall_app; split; [assumption|repeat constructor; assumption]|assumption|lia|].
    exists c'. rewrite E3, E4, E2, <- app_assoc. auto.
Qed.

Lemma fold_shape_new : forall its, its <> [] -> pos_items its -> isum its < 2^62 ->
  exists c, fold_left ins its new_node = to_node c /\ items c = its.
Proof.
  intros [|[m h] its] Hne HI HB; [congruence|]. inversion HI as [|? ? Hm HI']; subst.
  assert (isum ((m, h) :: its) = m + isum its) by reflexivity. pose proof (isum_nonneg its HI').
  destruct (fold_shape its (CO m h)) as (c & E1 & E2); [repeat constructor; assumption|assumption|cbn [cnum]; lia|].
  exists c. split; [exact E1|exact E2].
Qed.

Lemma ensureHash_inv : forall H c r, pos_items (items c) -> cnum c < 2^62 ->
  ensureHash H false (to_node c) = Ok r -> r = hashed H c.
Proof.
  intros H c. induction c as [m h|l IHl rr IHr]; intros r HP HB HE; cbn [to_node] in HE.
  - cbn [ensureHash hashed] in *. destruct (_ <? 2); [congruence|]. destruct (false || _); congruence.
  - pose proof (clevel_pos _ HP HB) as HL. cbn [items cnum] in *. apply Forall_app in HP as [P1 P2].
    pose proof (cnum_pos_items _ P1). pose proof (cnum_pos_items _ P2). pose proof (clevel_pos l P1 ltac:(lia)).
    cbn [ensureHash] in HE. replace (clevel (CB l rr) <? 2) with false in HE by (cbn [clevel]; lia).
    cbn [orb empty_bytes] in HE.
    destruct (ensureHash H false (to_node l)) as [l'| |] eqn:EL; try discriminate. cbn [rbind] in HE.
    destruct (ensureHash H false (to_node rr)) as [r'| |] eqn:ER; try discriminate. cbn [rbind] in HE.
    specialize (IHl l' P1 ltac:(lia) eq_refl). specialize (IHr r' P2 ltac:(lia) eq_refl). subst l' r'.
    rewrite !n_h_hashed in HE. cbn [hashed]. inversion HE. reflexivity.
Qed.

Lemma verify_canon : forall H c, pos_items (items c) -> cnum c < 2^62 -> verify (hashed H c) = true -> canon c.
Proof.
  intros H c. induction c as [m h|l IHl r IHr]; intros HP HB HV.
  - cbn [items canon] in *. inversion HP; subst. assumption.
  - cbn [items cnum] in *. apply Forall_app in HP as [P1 P2].
    pose proof (cnum_pos_items _ P1). pose proof (cnum_pos_items _ P2).
    pose proof (clevel_pos l P1 ltac:(lia)). pose proof (clevel_pos r P2 ltac:(lia)).
    cbn [hashed verify] in HV. replace (clevel (CB l r) =? 1) with false in HV by (cbn [clevel]; lia).
    rewrite !n_level_hashed, n_num_hashed in HV.
    apply andb_prop in HV as [HV V4]. apply andb_prop in HV as [HV V3]. apply andb_prop in HV as [V1 V2].
    specialize (IHl P1 ltac:(lia) V2). specialize (IHr P2 ltac:(lia) V4).
    destruct (clevel_spec l IHl ltac:(lia)) as [L1 L2]. destruct (clevel_spec r IHr ltac:(lia)) as [R1 R2].
    cbn [canon]. split; [assumption|]. split; [assumption|]. exists (clevel l - 1). split; [lia|].
    assert (2 ^ (clevel r - 1) <= 2 ^ (clevel l - 1)) by (apply Z.pow_le_mono_r; lia).
    split; [|lia]. cbn [clevel] in V3. destruct (Z.ltb_spec 2 (clevel l + 1)).
    + assert (2 ^ (clevel l - 1) <= 2 ^ 62) by (apply Z.pow_le_mono_r; lia).
      pose proof (Z.pow_pos_nonneg 2 (clevel l - 1)). unfold shl1 in V3. rewrite i64_id in V3 by lia. lia.
    + replace (clevel l - 1) with 0 in * by lia. change (2^0) with 1 in *. lia.
Qed.

(** ** soundness *)
Lemma merkle_len : forall H cs r, merkle H cs r -> 1 <= zlen cs.
Proof. induction 1; [cbn; lia|]. rewrite zlen_app. lia. Qed.

Lemma merkle_digest : forall H n cs r, digest_size H n -> merkle H cs r -> zlen r = n.
Proof. intros H n cs r HD HM. destruct HM; apply HD. Qed.

Lemma app_cases : forall A (a b l r : list A) x, l ++ r = a ++ x :: b ->
  (exists b', l = a ++ x :: b' /\ b = b' ++ r) \/ (exists a', a = l ++ a' /\ r = a' ++ x :: b).
Proof.
  intros A a b l. revert a. induction l as [|y l IH]; intros a r x E.
  - right. exists a. auto.
  - destruct a as [|z a]; cbn in E.
    + left. exists l. assert (y = x /\ b = l ++ r) as [-> ->] by (split; congruence). auto.
    + assert (y = z /\ l ++ r = a ++ x :: b) as [-> E'] by (split; congruence).
      destruct (IH a r x E') as [(b' & -> & ->)|(a' & -> & ->)]; [left; exists b'|right; exists a']; auto.
Qed.

Lemma item_sound : forall H n c cs A x B, digest_size H n -> canon c -> items c = A ++ (1, H x) :: B ->
  merkle H cs (chash H c) -> zlen cs = cnum c ->
  nth_error cs (Z.to_nat (isum A)) = Some x \/ collision H.
Proof.
  intros H n c cs A x B HD. revert cs A B. induction c as [m h|l IHl r IHr]; intros cs A B HC HI HM HN.
  - cbn [items] in HI. destruct A as [|a A]; [|destruct A; discriminate].
    assert (m = 1 /\ h = H x) as [-> ->] by (cbn in HI; split; congruence). cbn [cnum chash] in *.
    change (Z.to_nat (isum [])) with 0%nat.
    inversion HM as [c E1 E2|a b k ra rb Hk Ha Hb HMa HMb E1 E2]; subst.
    + cbn. destruct (list_eq_dec Z.eq_dec c x) as [->|Hne]; [auto|]. right. exists c, x. auto.
    + apply merkle_len in HMa, HMb. rewrite zlen_app in HN. lia.
  - pose proof HC as HC'. cbn [canon cnum chash items] in *. destruct HC' as (H1 & H2 & k & Hk & Hl & Hr).
    pose proof (cnum_pos l H1). pose proof (cnum_pos r H2).
    inversion HM as [c E1 E2|a b k' ra rb Hk' Ha Hb HMa HMb E1 E2]; subst.
    + cbn in HN. lia.
    + rewrite zlen_app in HN.
      assert (k = k').
      { destruct (Z.lt_total k k') as [Hlt|[Heq|Hlt]]; [|assumption|]; exfalso.
        - assert (2 ^ (k+1) <= 2 ^ k') by (apply Z.pow_le_mono_r; lia). rewrite Z.pow_add_r in * by lia. change (2^1) with 2 in *. lia.
        - assert (2 ^ (k'+1) <= 2 ^ k) by (apply Z.pow_le_mono_r; lia). rewrite Z.pow_add_r in * by lia. change (2^1) with 2 in *. lia. }
      subst k'.
      destruct (list_eq_dec Z.eq_dec (ra ++ rb) (chash H l ++ chash H r)) as [E|E].
      2:{ right. exists (ra ++ rb), (chash H l ++ chash H r). auto. }
      pose proof (merkle_digest _ _ _ _ HD HMa) as Da. pose proof (merkle_digest _ _ _ _ HD HMb) as Db.
      assert (HDc : forall c A' B', items c = A' ++ (1, H x) :: B' -> zlen (chash H c) = n).
      { intros [m h|cl cr] A' B' HIc; cbn [items chash] in *; [|apply HD].
        destruct A' as [|? A']; [|destruct A'; discriminate]. assert (h = H x) as -> by (cbn in HIc; congruence). apply HD. }
      assert (EL := f_equal zlen E). rewrite !zlen_app in EL.
      apply app_cases in HI as [(b' & HI1 & HI2)|(a' & HI1 & HI2)].
      * specialize (HDc _ _ _ HI1). apply app_eq_length in E as [-> ->]; [|unfold zlen in *; lia].
        destruct (IHl a _ _ H1 HI1 HMa ltac:(lia)) as [HS|HS]; [left|right; assumption].
        rewrite nth_error_app1; [assumption|]. apply nth_error_Some. congruence.
      * specialize (HDc _ _ _ HI2). apply app_eq_length in E as [-> ->]; [|unfold zlen in *; lia].
        destruct (IHr b _ _ H2 HI2 HMb ltac:(lia)) as [HS|HS]; [left|right; assumption].
        subst A. rewrite isum_app, isum_items. assert (0 <= isum a').
        { apply isum_nonneg. pose proof (items_pos r H2) as HP. rewrite HI2 in HP. apply Forall_app in HP. tauto. }
        rewrite nth_error_app2 by (unfold zlen in *; lia). rewrite <- HS. f_equal. unfold zlen in *. lia.
Qed.

Lemma contents_sound : forall H n c cs, digest_size H n -> canon c -> merkle H cs (chash H c) -> zlen cs = cnum c ->
  forall contents A B, items c = A ++ map (leaf_item H) contents ++ B ->
  sublist_at cs (isum A) contents \/ collision H.
Proof.
  intros H n c cs HD HC HM HN. induction contents as [|x contents IH]; intros A B HI.
  - left. cbn [map app] in HI. pose proof (items_pos c HC) as HP. rewrite HI in HP. apply Forall_app in HP as [P1 P2].
    pose proof (isum_nonneg A P1). pose proof (isum_nonneg B P2).
    assert (isum A + isum B = zlen cs) by (rewrite <- isum_app, <- HI, isum_items; lia).
    destruct (split_list _ cs (isum A) ltac:(lia)) as (a & b & -> & Ha & _). exists a, b. auto.
  - cbn [map app] in HI. change (leaf_item H x) with (1, H x) in HI.
    destruct (item_sound H n c cs A x _ HD HC HI HM HN) as [HS|HS]; [|auto].
    destruct (IH (A ++ [(1, H x)]) B) as [(a & b & E & Ha)|HS']; [rewrite HI, <- app_assoc; reflexivity| |auto].
    left. rewrite isum_app in Ha. cbn [isum fold_right fst] in Ha.
    pose proof (items_pos c HC) as HP. rewrite HI in HP. apply Forall_app in HP as [P1 _]. pose proof (isum_nonneg A P1).
    destruct (split_list _ a (isum A) ltac:(lia)) as (a1 & a2 & -> & Ha1 & Ha2).
    destruct a2 as [|y [|z a2]].
    { rewrite zlen_app in Ha. cbn in Ha2. unfold zlen in *; cbn in *; lia. }
    2:{ rewrite zlen_app, !zlen_cons in Ha. pose proof (zlen_nonneg _ a2). lia. }
    exists a1, b. split; [|assumption]. rewrite E, <- !app_assoc. cbn [app]. f_equal. f_equal.
    rewrite E, <- !app_assoc in HS. cbn [app] in HS. rewrite nth_error_app2 in HS by (unfold zlen in *; lia).
    replace (Z.to_nat (isum A) - length a1)%nat with 0%nat in HS by (unfold zlen in *; lia). cbn in HS. congruence.
Qed.

Lemma proof_sound : forall H n cs root L contents R left total, digest_size H n -> merkle H cs root ->
  let its := L ++ map (leaf_item H) contents ++ R in
  pos_items its -> isum its < 2^62 ->
  proof_Root H {| p_left := map pn L; p_contents := contents; p_right := map pn R |} = Ok (root, left, total, true) ->
  total = zlen cs ->
  left = isum L /\ (sublist_at cs left contents \/ collision H).
Proof.
  intros H n cs root L contents R left total HD HM its HP HB HR HT.
  rewrite proof_Root_items in HR by assumption. fold its in HR.
  assert (Hne : its <> []).
  { intros E. rewrite E in HR. cbn in HR. injection HR as _ _ E3. apply merkle_len in HM. subst. cbn in *. lia. }
  destruct (fold_shape_new its Hne HP HB) as (c & E1 & E2). rewrite E1 in HR.
  assert (HPc : pos_items (items c)) by (rewrite E2; assumption).
  assert (HNc : cnum c = isum its) by (rewrite <- isum_items, E2; reflexivity).
  destruct (ensureHash H false (to_node c)) as [r| |] eqn:EH; try discriminate. cbn [rbind] in HR.
  apply ensureHash_inv in EH; [|assumption|lia]. subst r.
  assert (Q : n_h (hashed H c) = root /\ isum L = left /\ isum its = total /\ (n_num (hashed H c) =? isum its) && verify (hashed H c) = true)
    by (repeat split; congruence).
  destruct Q as (Q1 & Q2 & Q3 & Q4). apply andb_prop in Q4 as [_ Q4]. apply verify_canon in Q4; [|assumption|lia].
  rewrite n_h_hashed in Q1. split; [congruence|]. subst left.
  eapply contents_sound; eauto; [rewrite Q1; assumption|lia].
Qed.

(** ** trees grown with Add *)
Inductive shape_t := SL (level : Z) | SB (l r : shape_t) (level : Z).
Fixpoint shape_of (n : node) : shape_t :=
  match n with Leaf _ lv _ => SL lv | Branch l r _ lv _ => SB (shape_of l) (shape_of r) lv end.
Fixpoint leaves (n : node) : list (list Z) :=
  match n with Leaf h _ _ => [h] | Branch l r _ _ _ => leaves l ++ leaves r end.
Fixpoint hash_inv (H : list Z -> list Z) (n : node) : Prop :=
  match n with
  | Leaf h lv _ => 1 <= lv /\ exists x, h = H x
  | Branch l r h lv _ => 1 <= lv /\ hash_inv H l /\ hash_inv H r /\ h = H (n_h l ++ n_h r)
  end.

Lemma add_shape : forall H n n' h h', shape_of n = shape_of n' -> shape_of (add H n h) = shape_of (add H n' h').
Proof.
  intros H n. induction n as [h0 lv num|l IHl r IHr h0 lv num]; intros [h1 lv1 num1|l1 r1 h1 lv1 num1] h h' E; try discriminate;
    cbn [shape_of] in E; cbn [add].
  - assert (lv = lv1) by congruence. subst lv1. destruct (lv =? 0); reflexivity.
  - assert (lv = lv1 /\ shape_of l = shape_of l1 /\ shape_of r = shape_of r1) as (-> & E1 & E2) by (repeat split; congruence).
    assert (HL : forall a b, shape_of a = shape_of b -> n_level a = n_level b).
    { intros [? ? ?|? ? ? ? ?] [? ? ?|? ? ? ? ?] EE; cbn in *; congruence. }
    rewrite (HL _ _ E1), (HL _ _ E2). destruct (lv1 =? 0); [cbn [shape_of]; congruence|].
    destruct (negb _); cbn [shape_of]; [rewrite (IHr r1 h h' E2)|]; congruence.
Qed.

Lemma add_inv : forall H n x, hash_inv H n -> hash_inv H (add H n (H x)) /\ leaves (add H n (H x)) = leaves n ++ [H x].
Proof.
  intros H n x. induction n as [h0 lv num|l IHl r IHr h0 lv num]; intros HI; cbn [hash_inv add] in *.
  - destruct HI as [HI1 HI2]. replace (lv =? 0) with false by lia. cbn [hash_inv leaves n_h app].
    repeat split; auto; try lia. eauto.
  - destruct HI as (I1 & I2 & I3 & I4). replace (lv =? 0) with false by lia. destruct (negb _).
    + destruct (IHr I3) as [J1 J2]. cbn [hash_inv leaves]. rewrite J2, app_assoc. auto.
    + cbn [hash_inv leaves n_h]. repeat split; auto; try lia. eauto.
Qed.

Fixpoint add_all (H : list Z -> list Z) (m : mbt) (cs : list (list Z)) : result mbt :=
  match cs with [] => Ok m | c :: cs' => rbind (mbt_Add H m (Some c)) (fun m' => add_all H m' cs') end.

Definition empty_mbt : mbt := {| m_root := None; m_contents := [] |}.

Lemma add_all_from : forall H cs n pre, exists n',
  add_all H {| m_root := Some n; m_contents := pre |} cs = Ok {| m_root := Some n'; m_contents := pre ++ cs |} /\
  n' = fold_left (fun n c => add H n (H c)) cs n.
Proof.
  induction cs as [|c cs IH]; intros n pre; cbn [add_all mbt_Add rbind fold_left].
  - exists n. rewrite app_nil_r. auto.
  - destruct (IH (add H n (H c)) (pre ++ [c])) as (n' & E1 & E2). exists n'. cbn [m_root m_contents].
    rewrite E1, <- app_assoc. auto.
Qed.

Lemma add_fold : forall H cs n, hash_inv H n ->
  hash_inv H (fold_left (fun n c => add H n (H c)) cs n) /\
  leaves (fold_left (fun n c => add H n (H c)) cs n) = leaves n ++ map H cs.
Proof.
  induction cs as [|c cs IH]; intros n HI; cbn [fold_left map].
  - rewrite app_nil_r. auto.
  - destruct (add_inv H n c HI) as [J1 J2]. destruct (IH _ J1) as [K1 K2]. rewrite K2, J2, <- app_assoc. auto.
Qed.

Lemma add_fold_shape : forall H cs cs' n n', length cs = length cs' -> shape_of n = shape_of n' ->
  shape_of (fold_left (fun n c => add H n (H c)) cs n) = shape_of (fold_left (fun n c => add H n (H c)) cs' n').
Proof.
  induction cs as [|c cs IH]; intros [|c' cs'] n n' HL HS; try discriminate; cbn [fold_left]; [assumption|].
  apply IH; [cbn in HL; congruence|]. apply add_shape. assumption.
Qed.

Lemma shape_leaves : forall n n', shape_of n = shape_of n' -> length (leaves n) = length (leaves n').
Proof.
  induction n as [h0 lv num|l IHl r IHr h0 lv num]; intros [h1 lv1 num1|l1 r1 h1 lv1 num1] E; try discriminate; cbn [leaves]; [reflexivity|].
  cbn [shape_of] in E. rewrite !app_length. rewrite (IHl l1), (IHr r1) by congruence. reflexivity.
Qed.

Lemma hash_binding : forall H d n n', digest_size H d -> hash_inv H n -> hash_inv H n' -> shape_of n = shape_of n' ->
  n_h n = n_h n' -> leaves n = leaves n' \/ collision H.
Proof.
  intros H d n. induction n as [h0 lv num|l IHl r IHr h0 lv num]; intros [h1 lv1 num1|l1 r1 h1 lv1 num1] HD HI HI' E EH; try discriminate.
  - cbn in *. left. congruence.
  - cbn [shape_of] in E. assert (lv = lv1 /\ shape_of l = shape_of l1 /\ shape_of r = shape_of r1) as (-> & E1 & E2) by (repeat split; congruence).
    cbn [hash_inv n_h leaves] in *. destruct HI as (_ & I2 & I3 & I4). destruct HI' as (_ & J2 & J3 & J4). subst h0 h1.
    assert (HDn : forall n, hash_inv H n -> zlen (n_h n) = d).
    { intros [h lv' ?|? ? h lv' ?] HH; cbn in *; [destruct HH as [_ [x ->]]|destruct HH as (_ & _ & _ & ->)]; apply HD. }
    destruct (list_eq_dec Z.eq_dec (n_h l ++ n_h r) (n_h l1 ++ n_h r1)) as [EE|EE].
    2:{ right. unfold collision. eauto. }
    apply app_eq_length in EE as [EE1 EE2]; [|pose proof (HDn l I2); pose proof (HDn l1 J2); unfold zlen in *; lia].
    destruct (IHl l1) as [K|K]; auto. destruct (IHr r1) as [K'|K']; auto. left. congruence.
Qed.

Lemma map_hash_binding : forall H cs cs', length cs = length cs' -> map H cs = map H cs' -> cs = cs' \/ collision H.
Proof.
  intros H. induction cs as [|c cs IH]; intros [|c' cs'] HL E; try discriminate; auto.
  cbn in E. assert (H c = H c' /\ map H cs = map H cs') as [E1 E2] by (split; congruence).
  destruct (IH cs') as [->|K]; auto. destruct (list_eq_dec Z.eq_dec c c') as [->|K]; auto.
  right. exists c, c'. auto.
Qed.
