(** Lemmas about the accumulator of the ICON block verifier contract. *)
From Coq Require Import String Ascii ZArith List Bool Lia.
From Coq Require Import ZifyBool.
From Verif Require Import Base L_Base M_Mta S_Mta L_Mta L_Mta2 L_Mta3 L_Mta6 M_JBmv M_JMta.
Import ListNotations.
Open Scope Z_scope.

Lemma concat32 : forall H a b, length a = 32%nat -> length b = 32%nat -> concatAndHash H a b = Some (H (a ++ b)).
Proof.
  intros H a b Ha Hb. unfold concatAndHash. rewrite Ha, Hb. cbn [Nat.ltb Nat.leb orb].
  rewrite !firstn_all2 by lia. reflexivity.
Qed.

Section JINV.
Context (H : list Z -> list Z) (HD : digest32 H).

Section SEQ.
Context (e : Z -> list Z) (He : forall i, length (e i) = 32%nat).
Notation nv := (nv H e).
(** The roots from level [i] on, of [m] blocks of 2^i entries. *)
Fixpoint jslots (i : nat) (m : Z) (rs : list (option (list Z))) : Prop :=
  match rs with
  | [] => m = 0
  | None :: r => (0 < m /\ Z.even m = true) /\ jslots (S i) (m / 2) r
  | Some x :: r => Z.odd m = true /\ x = nv i (m - 1) /\ jslots (S i) (m / 2) r
  end.

Lemma jslots_nth : forall rs i m j, 0 <= m -> jslots i m rs ->
  match nth_error rs j with
  | Some (Some x) => Z.odd (m / 2 ^ Z.of_nat j) = true /\ x = nv (i + j) (m / 2 ^ Z.of_nat j - 1)
  | _ => Z.odd (m / 2 ^ Z.of_nat j) = false
  end.
Proof.
  induction rs as [|x rs IH]; intros i m j Hm HS.
  - cbn [jslots] in HS. subst m. rewrite Z.div_0_l by (pose proof (pow2_pos j); lia). destruct j; reflexivity.
  - destruct j as [|j].
    + cbn [nth_error]. change (2 ^ Z.of_nat 0) with 1. rewrite Z.div_1_r, Nat.add_0_r.
      destruct x as [nd|]; cbn [jslots] in HS; [tauto|]. destruct HS as [[_ HS] _]. rewrite <- Z.negb_even, HS. reflexivity.
    + cbn [nth_error]. assert (HS' : jslots (S i) (m / 2) rs) by (destruct x; cbn [jslots] in HS; tauto).
      specialize (IH (S i) (m / 2) j (Z.div_pos m 2 Hm ltac:(lia)) HS').
      replace (m / 2 / 2 ^ Z.of_nat j) with (m / 2 ^ Z.of_nat (S j)) in IH
        by (rewrite Nat2Z.inj_succ, Z.pow_succ_r, Z.div_div by (pose proof (Z.pow_pos_nonneg 2 (Z.of_nat j)); lia); reflexivity).
      replace (S i + j)%nat with (i + S j)%nat in IH by lia. exact IH.
Qed.

Lemma jslots_bound : forall rs i m, 0 <= m -> jslots i m rs -> m < 2 ^ Z.of_nat (length rs).
Proof.
  induction rs as [|x rs IH]; intros i m Hm HS.
  - cbn in HS. subst. cbn. lia.
  - assert (HS' : jslots (S i) (m / 2) rs) by (destruct x; cbn [jslots] in HS; tauto).
    specialize (IH _ _ (Z.div_pos m 2 Hm ltac:(lia)) HS'). cbn [length]. rewrite pow_S.
    pose proof (Z.mul_succ_div_gt m 2 ltac:(lia)). lia.
Qed.

(** the loop of add, when no root is pruned *)
Lemma add_loop_spec : forall rs p i m, 0 <= m -> jslots i m rs -> p < Z.of_nat i \/ Z.of_nat (i + length rs) <= p ->
  exists rs' o, add_loop H p i rs (nv i m) = Some (rs', o, 0) /\
    jslots i (m + 1) (match o with Some x => appendRoot rs' x | None => rs' end) /\ length rs' = length rs /\
    (o <> None -> rs' = repeat None (length rs)).
Proof using HD He.
  induction rs as [|[x|] rs IH]; intros p i m Hm HS Hp; cbn [add_loop].
  - cbn [jslots] in HS. subst m. eexists. eexists. split; [reflexivity|]. cbn [appendRoot length repeat app jslots]. auto.
  - destruct HS as (H1 & -> & H3). cbn [length] in Hp. replace (Z.of_nat i =? p) with false by lia.
    apply Z.odd_spec in H1. destruct H1 as [m' ->].
    replace ((2 * m' + 1) / 2) with m' in * by (apply (Z.div_unique _ 2 m' 1); lia).
    rewrite concat32 by (apply nv_length; assumption). cbn [obind]. replace (2 * m' + 1 - 1) with (2 * m') by lia.
    change (H (nv i (2 * m') ++ nv i (2 * m' + 1))) with (nv (S i) m').
    destruct (IH p (S i) m' ltac:(lia) H3 ltac:(lia)) as (rs' & o & -> & E2 & E3 & E4). cbn [obind fst snd].
    exists (None :: rs'), o. split; [reflexivity|]. split; [|split].
    + replace (match o with Some x => appendRoot (None :: rs') x | None => None :: rs' end)
        with (None :: match o with Some x => appendRoot rs' x | None => rs' end) by (destruct o; reflexivity).
      cbn [jslots]. replace ((2 * m' + 1 + 1) / 2) with (m' + 1) by (apply (Z.div_unique _ 2 (m'+1) 0); lia).
      split; [|assumption]. split; [lia|]. replace (2 * m' + 1 + 1) with (0 + 2 * (m' + 1)) by lia. rewrite Z.even_add_mul_2. reflexivity.
    + cbn [length]. congruence.
    + intros Ho. cbn [length repeat]. rewrite E4 by assumption. reflexivity.
  - destruct HS as ((_ & H1) & H2). apply Z.even_spec in H1. destruct H1 as [m' ->].
    replace (2 * m' / 2) with m' in * by (apply (Z.div_unique _ 2 m' 0); lia).
    eexists. eexists. split; [reflexivity|]. split; [|split; [reflexivity|congruence]]. cbn [jslots].
    split; [rewrite Z.add_comm, Z.odd_add_mul_2; reflexivity|]. split; [f_equal; lia|].
    replace ((2 * m' + 1) / 2) with m' by (apply (Z.div_unique _ 2 m' 1); lia). assumption.
Qed.

(** the loop of add when the last root may be pruned: the last index is [p] *)
Lemma add_loop_prune : forall rs p i m, 0 <= m -> jslots i m rs -> rs <> [] -> Z.of_nat (i + length rs) = p + 1 ->
  (exists rs', add_loop H p i rs (nv i m) = Some (rs', None, 0) /\ jslots i (m + 1) rs' /\ length rs' = length rs) \/
  (m = 2 ^ zlen rs - 1 /\ add_loop H p i rs (nv i m) =
     Some (repeat None (length rs - 1) ++ [Some (nv (i + length rs - 1) 1)], None, 2 ^ p)).
Proof using HD He.
  induction rs as [|[x|] rs IH]; intros p i m Hm HS Hne Hp; [congruence| |]; cbn [add_loop].
  - destruct HS as (H1 & -> & H3). cbn [length] in Hp. apply Z.odd_spec in H1. destruct H1 as [m' ->].
    replace ((2 * m' + 1) / 2) with m' in * by (apply (Z.div_unique _ 2 m' 1); lia).
    destruct rs as [|y rs].
    + right. cbn [jslots] in H3. subst m'. cbn [length] in *. replace (Z.of_nat i =? p) with true by lia. split; [reflexivity|].
      cbn [repeat app]. change (1 - 1)%nat with 0%nat. cbn [repeat app]. replace (i + 1 - 1)%nat with i by lia.
      replace (Z.of_nat i) with p by lia. reflexivity.
    + replace (Z.of_nat i =? p) with false by (cbn [length] in Hp; lia).
      rewrite concat32 by (apply nv_length; assumption). cbn [obind]. replace (2 * m' + 1 - 1) with (2 * m') by lia.
      change (H (nv i (2 * m') ++ nv i (2 * m' + 1))) with (nv (S i) m').
      destruct (IH p (S i) m' ltac:(lia) H3 ltac:(discriminate) ltac:(lia)) as [(rs' & -> & E2 & E3)|(E1 & ->)]; cbn [obind fst snd].
      * left. exists (None :: rs'). split; [reflexivity|]. split; [|cbn [length] in *; congruence].
        cbn [jslots]. replace ((2 * m' + 1 + 1) / 2) with (m' + 1) by (apply (Z.div_unique _ 2 (m'+1) 0); lia).
        split; [|assumption]. split; [lia|]. replace (2 * m' + 1 + 1) with (0 + 2 * (m' + 1)) by lia. rewrite Z.even_add_mul_2. reflexivity.
      * right. split.
        -- rewrite E1. unfold zlen. cbn [length]. rewrite (pow_S (S (length rs))). lia.
        -- replace (length (Some (nv i (2 * m')) :: y :: rs) - 1)%nat with (S (length (y :: rs) - 1)) by (cbn [length]; lia).
           cbn [repeat app]. cbn [length]. replace (S i + S (length rs) - 1)%nat with (i + S (S (length rs)) - 1)%nat by lia. reflexivity.
  - left. destruct HS as ((_ & H1) & H2). apply Z.even_spec in H1. destruct H1 as [m' ->].
    replace (2 * m' / 2) with m' in * by (apply (Z.div_unique _ 2 m' 0); lia).
    eexists. split; [reflexivity|]. split; [|reflexivity]. cbn [jslots].
    split; [rewrite Z.add_comm, Z.odd_add_mul_2; reflexivity|]. split; [f_equal; lia|].
    replace ((2 * m' + 1) / 2) with m' by (apply (Z.div_unique _ 2 m' 1); lia). assumption.
Qed.

Lemma jslots_single : forall j i, jslots i (2 ^ Z.of_nat j) (repeat None j ++ [Some (nv (i + j) 0)]).
Proof using.
  induction j as [|j IH]; intros i.
  - cbn [repeat app jslots]. rewrite Nat.add_0_r. change (2 ^ Z.of_nat 0) with 1. cbn. auto.
  - cbn [repeat app jslots]. rewrite pow_S. pose proof (pow2_pos j). split.
    + split; [lia|]. rewrite Z.even_mul. reflexivity.
    + replace (2 * 2 ^ Z.of_nat j / 2) with (2 ^ Z.of_nat j) by (rewrite Z.mul_comm, Z.div_mul by lia; reflexivity).
      replace (i + S j)%nat with (S i + j)%nat by lia. apply IH.
Qed.

(** the search for a root *)
Lemma root_idx_spec : forall rs n x o, 0 <= n -> jslots 0 n rs -> (n / 2 ^ Z.of_nat o) * 2 ^ Z.of_nat o <= x < n ->
  exists k, root_idx rs o (x - (n / 2 ^ Z.of_nat o) * 2 ^ Z.of_nat o) = Ok k /\ in_slot n x k.
Proof using.
  intros rs n x o Hn HS. induction o as [|o IH]; intros Hi.
  - change (2 ^ Z.of_nat 0) with 1 in Hi. rewrite Z.div_1_r in Hi. lia.
  - cbn [root_idx]. pose proof (jslots_nth rs 0 n o ltac:(lia) HS) as HN. cbn [Nat.add] in HN.
    rewrite div_S in *. rewrite pow_S in *. pose proof (pow2_pos o) as HP. set (P := 2 ^ Z.of_nat o) in *.
    destruct (nth_error rs o) as [[r|]|].
    + destruct HN as [HO _]. pose proof (odd_half _ HO) as HO'.
      destruct (Z.ltb_spec (x - n / P / 2 * (2 * P)) P).
      * exists o. split; [reflexivity|]. apply in_slot_alt. fold P. split; [assumption|]. symmetry.
        apply Z.div_unique with (x - n / P / 2 * (2 * P)); [left; nia|nia].
      * replace (x - n / P / 2 * (2 * P) - P) with (x - n / P * P) by nia. apply IH. nia.
    + pose proof (even_half _ HN) as HE. replace (n / P / 2 * (2 * P)) with (n / P * P) in * by nia. apply IH. lia.
    + pose proof (even_half _ HN) as HE. replace (n / P / 2 * (2 * P)) with (n / P * P) in * by nia. apply IH. lia.
Qed.
Lemma root_idx_top : forall rs n x, 0 <= x < n -> jslots 0 n rs -> exists k, root_idx rs (length rs) x = Ok k /\ in_slot n x k.
Proof using.
  intros rs n x Hx HS. pose proof (jslots_bound rs 0 n ltac:(lia) HS) as HB.
  destruct (root_idx_spec rs n x (length rs) ltac:(lia) HS) as (k & E1 & E2); rewrite ?(Z.div_small n) in * by lia; [lia|].
  rewrite Z.mul_0_l, Z.sub_0_r in E1. eauto.
Qed.
Lemma root_idx_some : forall rs n x k, root_idx rs n x = Ok k -> exists r, nth_error rs k = Some (Some r).
Proof using.
  induction n as [|n IH]; intros x k E; cbn [root_idx] in E; [discriminate|].
  destruct (nth_error rs n) as [[r|]|] eqn:EN; eauto. destruct (x <? 2 ^ Z.of_nat n); [|eauto]. assert (n = k) by congruence. subst k. eauto.
Qed.
End SEQ.

(** climbing *)
Lemma climb_pv : forall hvs h idx, all32 hvs -> length h = 32%nat ->
  climb H (map Some hvs) (length hvs) h idx = Some (pv H (HashesToWitness hvs idx) h).
Proof using HD.
  induction hvs as [|w hvs IH]; intros h idx HA Hh; [reflexivity|]. inversion HA; subst.
  cbn [map length climb HashesToWitness]. unfold pv. cbn [fold_left w_dir w_hash].
  destruct (Z.rem idx 2 =? 0).
  - rewrite concat32 by assumption. cbn [obind]. change (Right =? Left) with false. cbv iota. apply IH; [assumption|apply HD].
  - rewrite concat32 by assumption. cbn [obind]. change (Left =? Left) with true. cbv iota. apply IH; [assumption|apply HD].
Qed.
Lemma climb_more : forall ws n h idx x, climb H ws n h idx = Some x -> forall ext, climb H (ws ++ ext) n h idx = Some x.
Proof using.
  induction ws as [|w ws IH]; intros n h idx x E ext; destruct n; cbn [climb app] in *; try assumption; try discriminate; [destruct ext; exact E|].
  destruct w; [|discriminate]. destruct (if _ : bool then _ else _); [|discriminate]. cbn [obind] in *. auto.
Qed.
Lemma climb_inv : forall ws n h idx x, length h = 32%nat -> climb H ws n h idx = Some x ->
  exists hvs, all32 hvs /\ length hvs = n /\ x = pv H (HashesToWitness hvs idx) h /\
    (exists ls, firstn n ws = map Some ls /\ hvs = map (firstn 32) ls).
Proof using HD.
  induction ws as [|[w|] ws IH]; intros n h idx x Hh E; destruct n; cbn [climb] in E; try discriminate.
  - injection E as <-. exists []. repeat split; try constructor. exists []. auto.
  - injection E as <-. exists []. repeat split; try constructor. exists []. auto.
  - unfold concatAndHash in E. rewrite Hh in E. change (32 <? 32)%nat with false in E. rewrite orb_false_l, orb_false_r in E.
    destruct (Nat.ltb_spec (length w) 32) as [|HL]; [destruct (Z.rem idx 2 =? 0); discriminate|].
    assert (L32 : length (firstn 32 w) = 32%nat) by (rewrite firstn_length; lia).
    assert (F : firstn 32 h = h) by (apply firstn_all2; lia). rewrite F in E.
    destruct (Z.rem idx 2 =? 0) eqn:ER; cbn [obind] in E.
    + destruct (IH n _ _ _ (HD _) E) as (hvs & A & B & C & ls & D1 & D2). exists (firstn 32 w :: hvs). split; [constructor; assumption|].
      split; [cbn; congruence|]. split.
      * cbn [HashesToWitness]. rewrite ER. unfold pv. cbn [fold_left w_dir w_hash]. exact C.
      * exists (w :: ls). cbn [firstn map]. rewrite D1, D2. auto.
    + destruct (IH n _ _ _ (HD _) E) as (hvs & A & B & C & ls & D1 & D2). exists (firstn 32 w :: hvs). split; [constructor; assumption|].
      split; [cbn; congruence|]. split.
      * cbn [HashesToWitness]. rewrite ER. unfold pv. cbn [fold_left w_dir w_hash]. exact C.
      * exists (w :: ls). cbn [firstn map]. rewrite D1, D2. auto.
  - injection E as <-. exists []. repeat split; try constructor. exists []. auto.
Qed.
Lemma turns_hashes : forall hvs idx, path_position (turns (HashesToWitness hvs idx)) = Z.abs idx mod 2 ^ zlen hvs.
Proof using.
  induction hvs as [|w hvs IH]; intros idx; cbn [HashesToWitness].
  - cbn [turns map path_position]. change (2 ^ zlen []) with 1. rewrite Z.mod_1_r. reflexivity.
  - unfold turns. cbn [map path_position w_dir]. fold (turns (HashesToWitness hvs (Z.quot idx 2))). rewrite IH.
    unfold zlen. cbn [length]. rewrite pow_S. pose proof (pow2_pos (length hvs)) as HP.
    rewrite Z.rem_mul_r by lia. rewrite <- Z.quot_abs by lia. change (Z.abs 2) with 2. rewrite Z.quot_div_nonneg by lia.
    replace (Z.abs idx mod 2) with (if (if Z.rem idx 2 =? 0 then Right else Left) =? Left then 1 else 0); [reflexivity|].
    pose proof (Z.rem_abs idx 2 ltac:(lia)) as HR. change (Z.abs 2) with 2 in HR. rewrite Z.rem_mod_nonneg in HR by lia. rewrite HR.
    assert (HB : Z.abs (Z.rem idx 2) < 2) by (apply Z.rem_bound_abs; lia).
    destruct (Z.eqb_spec (Z.rem idx 2) 0) as [->|]; [reflexivity|]. change (Left =? Left) with true. cbv iota. lia.
Qed.
Lemma hashes_32 : forall hvs idx, all32 hvs -> Forall (fun w => length (w_hash w) = 32%nat) (HashesToWitness hvs idx).
Proof using. induction hvs; intros idx HA; cbn [HashesToWitness]; [constructor|]. inversion HA; subst. constructor; [assumption|]. auto. Qed.
Lemma hashes_len : forall hvs idx, length (HashesToWitness hvs idx) = length hvs.
Proof using. induction hvs; intros; cbn [HashesToWitness length]; [reflexivity|]. rewrite IHhvs. reflexivity. Qed.

(** shifting the sequence *)
Lemma nv_shift : forall e k d q, nv H (fun x => e (x + d * 2 ^ Z.of_nat k)) k q = nv H e k (q + d).
Proof using.
  intros e. induction k as [|k IH]; intros d q; cbn [nv].
  - change (2 ^ Z.of_nat 0) with 1. rewrite Z.mul_1_r. reflexivity.
  - f_equal. rewrite pow_S. assert (E : forall q', nv H (fun x => e (x + d * (2 * 2 ^ Z.of_nat k))) k q' = nv H e k (q' + 2 * d)).
    { intros q'. rewrite <- IH. apply nv_agree. intros i _. f_equal. lia. }
    rewrite !E. f_equal; f_equal; lia.
Qed.
Lemma nth_skip : forall A (l : list A) s i d, nth i (skipn s l) d = nth (s + i) l d.
Proof using. induction l as [|a l IH]; intros s i d; destruct s; cbn [skipn nth Nat.add]; try reflexivity; [destruct i; reflexivity|]. apply IH. Qed.
Lemma seq_of_skip : forall hs s i, 0 <= i -> seq_of (skipn s hs) i = seq_of hs (i + Z.of_nat s).
Proof using. intros hs s i Hi. unfold seq_of. rewrite nth_skip. f_equal. lia. Qed.
End JINV.
