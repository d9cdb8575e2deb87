(** Depositors, shares and what covers them. *)
From Coq Require Import String Ascii ZArith List Bool Lia.
From Coq Require Import ZifyBool.
From Verif Require Import Base L_Base M_JMap L_JMap L_JSum M_JBmc M_Ncs S_Ncs L_Ncs L_NcsNet2 M_Tbsh S_Tbsh L_Tbsh M_Fee S_Fee L_Fee L_Fee2 L_Fee3.
Import ListNotations.
Open Scope Z_scope.

(** * Arithmetic *)
Lemma sum_div : forall (l : list Z) (d : Z -> Z) a b, 0 < b -> 0 <= a -> (forall u, In u l -> 0 <= d u) -> sumOf (fun u => d u * a / b) l <= sumOf d l * a / b.
Proof.
  intros l d a b B A. induction l as [|u l IH]; intros D; [unfold sumOf; cbn [fold_right]; rewrite Z.mul_0_l, Z.div_0_l; lia|].
  rewrite !sum_cons. cbv beta. specialize (IH (fun w H => D w (or_intror H))). set (S := sumOf d l) in *.
  assert (d u * a / b + S * a / b <= (d u + S) * a / b); [|lia]. apply Z.div_le_lower_bound; [exact B|].
  pose proof (Z.mul_div_le (d u * a) b B). pose proof (Z.mul_div_le (S * a) b B). lia.
Qed.
Lemma quot_pos : forall a b, 0 <= a -> 0 < b -> Z.quot a b = a / b.
Proof. intros. apply Z.quot_div_nonneg; assumption. Qed.
Lemma in_le_sum : forall (l : list Z) d u, (forall w, In w l -> 0 <= d w) -> In u l -> d u <= sumOf d l.
Proof.
  intros l d u. induction l as [|w l IH]; intros D [].
  - subst w. rewrite sum_cons. assert (0 <= sumOf d l) by (apply sum_nonneg; intros z HZ; apply D; right; exact HZ). lia.
  - rewrite sum_cons. specialize (IH (fun z HZ => D z (or_intror HZ)) H). pose proof (D w (or_introl eq_refl)). lia.
Qed.
Lemma share_fair : forall unit price total amount d t r, 0 < unit -> 0 <= price -> 0 < amount -> 0 < d <= total ->
  share_of unit price (Z.quot (amount * price) unit) total amount d = Some (t, r) ->
  fair_share unit price total amount d t (Z.max 0 r) /\ 0 <= t /\ 0 <= Z.max 0 r <= d.
Proof.
  intros unit price total amount d t r U P A D H. assert (AP : 0 <= amount * price) by nia. rewrite quot_pos in H by lia. unfold share_of in H. unfold fair_share. destruct (Z.ltb_spec total (amount * price / unit)) as [C|C].
  - unfold jdiv in H. destruct (Z.eqb_spec price 0) as [|PN]; [discriminate|]. cbn [fbind] in H. injection H as <- <-. rewrite quot_pos by nia. repeat split; try lia. apply Z.div_pos; nia.
  - unfold jdiv in H. destruct (Z.eqb_spec total 0) as [|TN]; [discriminate|]. cbn [fbind] in H. destruct (Z.eqb_spec unit 0) as [|UN]; [discriminate|]. cbn [fbind] in H. injection H as <- <-.
    rewrite (quot_pos (d * amount)) by nia. set (t := d * amount / total). assert (T0 : 0 <= t) by (apply Z.div_pos; nia). rewrite quot_pos by nia. set (c := t * price / unit). assert (C0 : 0 <= c) by (apply Z.div_pos; nia).
    assert (TT : total * t <= d * amount) by (apply Z.mul_div_le; lia). assert (CC : unit * c <= t * price) by (apply Z.mul_div_le; lia).
    assert (AU : amount * price < unit * (total + 1)). { pose proof (Z.mul_succ_div_gt (amount * price) unit U). nia. }
    assert (CD : c <= d).
    { destruct (Z.le_gt_cases c d) as [|G]; [assumption|exfalso]. assert (K1 : total * unit * c <= d * (amount * price)) by nia. assert (K2 : d * (amount * price) <= d * (unit * (total + 1) - 1)) by nia. assert (K3 : total * unit * (d + 1) <= total * unit * c) by nia. nia. }
    repeat split; lia.
Qed.

(** * The depositors *)
Record good (s : fa) : Prop := {
  g_nd : forall id, NoDup (f_depositors s id);
  g_in : forall id u, In u (f_depositors s id) <-> 0 < dep (f_out s) id u;
  g_nn : forall id u, 0 <= dep (f_out s) id u;
  g_sum : forall id, sumOf (dep (f_out s) id) (f_depositors s id) = depAll (f_out s) id;
  g_pos : forall n y, aget Z.eqb n (f_syn s) = Some y -> 0 < y_total y }.
Lemma good_deposit : forall s s' id c v, 0 < v -> good s ->
  (forall k, f_depositors s' k = if k =? id then (if dep (f_out s) id c =? 0 then f_depositors s id ++ [c] else f_depositors s id) else f_depositors s k) ->
  (forall k u, dep (f_out s') k u = dep (f_out s) k u + if (id =? k) && (c =? u) then v else 0) ->
  (forall k, depAll (f_out s') k = depAll (f_out s) k + if id =? k then v else 0) ->
  (forall n y, aget Z.eqb n (f_syn s') = Some y -> 0 < y_total y) -> good s'.
Proof.
  intros s s' id c v V [G1 G2 G3 G4 G5] D P A Y. constructor; [| | | |exact Y].
  - intros k. rewrite D. destruct (Z.eqb_spec k id) as [->|]; [|apply G1]. destruct (Z.eqb_spec (dep (f_out s) id c) 0) as [Z0|]; [|apply G1]. apply nodup_app_one; [apply G1|]. rewrite G2. lia.
  - intros k u. rewrite D, P. destruct (Z.eqb_spec k id) as [->|N].
    + rewrite Z.eqb_refl. cbn [andb]. pose proof (G3 id u) as NN. destruct (Z.eqb_spec c u) as [<-|NU].
      * split; [lia|]. intros _. destruct (Z.eqb_spec (dep (f_out s) id c) 0) as [Z0|]; [apply in_or_app; right; left; reflexivity|]. apply G2. lia.
      * rewrite Z.add_0_r. destruct (Z.eqb_spec (dep (f_out s) id c) 0) as [Z0|]; [|apply G2]. rewrite in_app_iff, G2. split; [intros [X|[X|[]]]; [exact X|congruence]|left; assumption].
    + replace (id =? k) with false by lia. cbn [andb]. rewrite Z.add_0_r. apply G2.
  - intros k u. rewrite P. pose proof (G3 k u). destruct (_ && _); lia.
  - intros k. rewrite D, A. destruct (Z.eqb_spec k id) as [->|N].
    + rewrite Z.eqb_refl. assert (E : forall l, NoDup l -> sumOf (dep (f_out s') id) l = sumOf (dep (f_out s) id) l + if in_dec Z.eq_dec c l then v else 0).
      { induction l as [|w l IH]; intros ND; [reflexivity|]. inversion ND as [|w' l' NI ND']. subst w' l'. rewrite !sum_cons, (IH ND'), P, Z.eqb_refl. cbn [andb]. destruct (Z.eqb_spec c w) as [<-|NW].
        - destruct (in_dec Z.eq_dec c l) as [X|X]; [contradiction|]. destruct (in_dec Z.eq_dec c (c :: l)) as [Y1|Y1]; [lia|]. exfalso. apply Y1. left. reflexivity.
        - destruct (in_dec Z.eq_dec c l) as [X|X]; destruct (in_dec Z.eq_dec c (w :: l)) as [Y1|Y1]; try lia; exfalso; [apply Y1; right; exact X|]. destruct Y1 as [Y1|Y1]; [congruence|contradiction]. }
      pose proof (G4 id) as S4. destruct (Z.eqb_spec (dep (f_out s) id c) 0) as [Z0|NZ].
      * rewrite sum_snoc, (E _ (G1 id)), P, Z.eqb_refl, Z.eqb_refl, Z0. cbn [andb]. destruct (in_dec Z.eq_dec c (f_depositors s id)) as [X|X]; [apply G2 in X; lia|lia].
      * rewrite (E _ (G1 id)). destruct (in_dec Z.eq_dec c (f_depositors s id)) as [X|X]; [lia|]. exfalso. apply X, G2. pose proof (G3 id c). lia.
    + replace (id =? k) with false by lia. rewrite Z.add_0_r, <- G4. apply sum_ext. intros u _. rewrite P. replace (id =? k) with false by lia. cbn [andb]. lia.
Qed.

(** * Shares *)
Lemma unit_pos : forall t x u, unit_of t x = Some u -> 0 < u.
Proof. intros t x u H. unfold unit_of in H. destruct (match k_dec t with Some d => Some d | None => x_dec x end) as [d|]; [|discriminate]. cbn [option_map] in H. injection H as <-. apply Z.pow_pos_nonneg; lia. Qed.
Lemma parts_settled : forall id n ps k u, settled (parts_out id n ps) k u = flat_map (fun p => if (id =? k) && (p_who p =? u) then [(p_share p, p_rem p)] else []) ps.
Proof. intros id n ps k u. unfold parts_out, settled. induction ps as [|p ps IH]; [reflexivity|]. cbn [map flat_map]. rewrite IH. reflexivity. Qed.
Lemma settled_app : forall a b id u, settled (a ++ b) id u = settled a id u ++ settled b id u.
Proof. intros. apply flat_map_app. Qed.
Lemma one_part : forall id (ps : list part) u, NoDup (map p_who ps) -> flat_map (fun p => if (id =? id) && (p_who p =? u) then [(p_share p, p_rem p)] else []) ps = match find (fun p => p_who p =? u) ps with Some p => [(p_share p, p_rem p)] | None => [] end.
Proof.
  intros id ps u. rewrite Z.eqb_refl. cbn [andb]. induction ps as [|p ps IH]; intros ND; [reflexivity|]. cbn [map] in ND. inversion ND as [|w l NI ND']. subst w l. cbn [flat_map find]. rewrite (IH ND'). destruct (Z.eqb_spec (p_who p) u) as [E|]; [|reflexivity].
  destruct (find _ ps) as [p2|] eqn:F; [|reflexivity]. apply find_some in F as [F1 F2]. exfalso. apply NI. rewrite E. replace u with (p_who p2) by lia. apply in_map. exact F1.
Qed.
Lemma ended_fair : forall icx0 s s1 s' x n t y unit p price inIcx ps, finv icx0 s -> good s -> (forall q, x_price x = Some q -> 0 <= q) -> aget Z.eqb n (f_syn s) = Some y ->
  ended s1 s' x n t y unit p price inIcx ps -> f_depositors s1 (y_id y) = f_depositors s (y_id y) -> (forall u, f_amount s1 (y_id y) u = dep (f_out s) (y_id y) u) ->
  0 < unit /\ 0 <= price /\ price = p * 90 / 100 /\ Forall (fun q => fair_share unit price (y_total y) (y_amount y) (dep (f_out s) (y_id y) (p_who q)) (p_share q) (p_rem q) /\ 0 <= p_share q /\ 0 <= p_rem q <= dep (f_out s) (y_id y) (p_who q)) ps
  /\ sumOf p_share ps <= y_amount y /\ 0 <= sumOf p_share ps.
Proof.
  intros icx0 s s1 s' x n t y unit p price inIcx ps I G PX Y E ED EA. pose proof (unit_pos _ _ _ (e_unit _ _ _ _ _ _ _ _ _ _ _ E)) as UP. pose proof (PX _ (e_p _ _ _ _ _ _ _ _ _ _ _ E)) as PP. pose proof (e_price _ _ _ _ _ _ _ _ _ _ _ E) as PE. rewrite quot_pos in PE by lia.
  assert (PP2 : 0 <= price) by (rewrite PE; apply Z.div_pos; lia). destruct (e_in _ _ _ _ _ _ _ _ _ _ _ E) as [_ IN]. destruct (i_syn _ _ I _ _ Y) as (Y1 & Y2 & Y3 & _). pose proof (g_pos _ G _ _ Y) as YP. pose proof (e_who _ _ _ _ _ _ _ _ _ _ _ E) as W. rewrite ED in W.
  pose proof (e_share _ _ _ _ _ _ _ _ _ _ _ E) as SH. rewrite IN in SH.
  assert (DL : forall q, In q ps -> 0 < dep (f_out s) (y_id y) (p_who q) <= y_total y). { intros q HQ. assert (HW : In (p_who q) (f_depositors s (y_id y))) by (rewrite <- W; apply in_map; exact HQ). split; [apply (g_in _ G); exact HW|]. rewrite Y2, <- (g_sum _ G). apply in_le_sum; [intros w _; apply (g_nn _ G)|exact HW]. }
  assert (FA : Forall (fun q => fair_share unit price (y_total y) (y_amount y) (dep (f_out s) (y_id y) (p_who q)) (p_share q) (p_rem q) /\ 0 <= p_share q /\ 0 <= p_rem q <= dep (f_out s) (y_id y) (p_who q)) ps).
  { rewrite Forall_forall in SH |- *. intros q HQ. destruct (SH q HQ) as (r & S1 & S2). rewrite EA in S1. rewrite S2. apply (share_fair _ _ _ _ _ _ _ UP PP2 Y3 (DL q HQ) S1). }
  assert (S0 : 0 <= sumOf p_share ps). { apply sum_nonneg. intros q HQ. rewrite Forall_forall in FA. apply FA. exact HQ. }
  repeat split; try assumption.
  set (F := fun u => if y_total y <? y_amount y * price / unit then dep (f_out s) (y_id y) u * unit / price else dep (f_out s) (y_id y) u * y_amount y / y_total y).
  assert (EQ : sumOf p_share ps = sumOf F (f_depositors s (y_id y))). { rewrite <- W, sum_map. apply sum_ext. intros q HQ. rewrite Forall_forall in FA. destruct (FA q HQ) as [X _]. unfold fair_share in X. unfold F. destruct (_ <? _); destruct X as [X _]; exact X. }
  rewrite EQ. unfold F. clear EQ F. pose proof (g_sum _ G (y_id y)) as GS. rewrite <- Y2 in GS. destruct (Z.ltb_spec (y_total y) (y_amount y * price / unit)) as [C|C].
  - assert (P0 : 0 < price). { destruct (Z.eq_dec price 0) as [->|]; [rewrite Z.mul_0_r, Z.div_0_l in C by lia; lia|lia]. }
    eapply Z.le_trans; [apply sum_div; [exact P0|lia|intros; apply (g_nn _ G)]|]. rewrite GS. apply Z.div_le_upper_bound; [exact P0|]. pose proof (Z.mul_div_le (y_amount y * price) unit UP). nia.
  - eapply Z.le_trans; [apply sum_div; [exact YP|lia|intros; apply (g_nn _ G)]|]. rewrite GS. apply Z.div_le_upper_bound; lia.
Qed.
