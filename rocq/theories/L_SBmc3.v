(** Routes of the message center for the EVM that lead somewhere, and what keeps them so. *)
From Coq Require Import String Ascii ZArith List Bool Lia Permutation.
From Coq Require Import ZifyBool.
From Verif Require Import Base L_Base M_SolRlp M_BtpAddr M_Bridge M_JMap L_JMap M_SBmc S_SBmc S_SBmc2 L_SBmc L_SBmc2.
Import ListNotations.
Open Scope Z_scope.

(** ** counting announcements *)
Definition isnet (d a : text) : bool := match networkAddress a with Some n => bytes_eqb n d | None => false end.
Lemma nets_cons : forall a l d, nets (a :: l) d = ((if isnet d a then 1 else 0) + nets l d)%nat.
Proof. intros a l d. unfold nets. cbn [filter]. fold (isnet d a). destruct (isnet d a); reflexivity. Qed.
Lemma nets_app : forall a b d, nets (a ++ b) d = (nets a d + nets b d)%nat.
Proof. intros a b d. unfold nets. rewrite filter_app, app_length. reflexivity. Qed.
Lemma nets_perm : forall a b d, Permutation a b -> nets a d = nets b d.
Proof. intros a b d P. induction P; [reflexivity|rewrite !nets_cons; congruence|rewrite !nets_cons; lia|congruence]. Qed.
Lemma isnet_some : forall a n d, networkAddress a = Some n -> isnet d a = bytes_eqb n d.
Proof. intros a n d E. unfold isnet. rewrite E. reflexivity. Qed.
Lemma nets_in : forall l d, (0 < nets l d)%nat -> exists a, In a l /\ networkAddress a = Some d.
Proof.
  induction l as [|a l IH]; intros d H; [unfold nets in H; cbn [filter length] in H; lia|]. rewrite nets_cons in H. destruct (isnet d a) eqn:E.
  - exists a. split; [left; reflexivity|]. unfold isnet in E. destruct (networkAddress a); [|discriminate]. apply bytes_eqb_spec in E. rewrite E. reflexivity.
  - destruct (IH d) as (x & I & X); [lia|]. exists x. split; [right; exact I|exact X].
Qed.
Lemma in_nets : forall l d a, In a l -> networkAddress a = Some d -> (0 < nets l d)%nat.
Proof.
  induction l as [|b l IH]; intros d a I E; [destruct I|]. rewrite nets_cons. destruct I as [->|I]; [rewrite (isnet_some _ _ _ E), bytes_eqb_refl; lia|]. specialize (IH d a I E). lia.
Qed.
(** the sum over a list without repetition when one place changes *)
Lemma sum_change : forall (f g : text -> nat) l k, NoDup l -> In k l -> (forall x, x <> k -> g x = f x) -> (list_sum (map g l) + f k = list_sum (map f l) + g k)%nat.
Proof.
  induction l as [|x l IH]; intros k N I H; [destruct I|]. apply NoDup_cons_iff in N as [N1 N2]. cbn [map list_sum fold_right]. fold (list_sum (map g l)). fold (list_sum (map f l)). change (fold_right plus 0%nat) with list_sum in *. destruct I as [->|I].
  - rewrite (map_ext_in g f); [lia|]. intros y Y. apply H. intros ->. apply N1, Y.
  - specialize (IH k N2 I H). rewrite (H x); [lia|]. intros ->. apply N1, I.
Qed.
Lemma sum_same : forall (f g : text -> nat) l, (forall x, In x l -> g x = f x) -> list_sum (map g l) = list_sum (map f l).
Proof. intros f g l H. rewrite (map_ext_in g f); [reflexivity|exact H]. Qed.
Lemma list_sum_perm : forall a b, Permutation a b -> list_sum a = list_sum b.
Proof. intros a b P. induction P; unfold list_sum in *; cbn [fold_right] in *; lia. Qed.
Lemma sum_pos : forall (f : text -> nat) l, (0 < list_sum (map f l))%nat -> exists k, In k l /\ (0 < f k)%nat.
Proof.
  induction l as [|x l IH]; intros H; [unfold list_sum in H; cbn [map fold_right] in H; lia|]. unfold list_sum in *. cbn [map fold_right] in H. destruct (f x) eqn:E; [destruct IH as (k & I & K); [lia|]; exists k; split; [right; exact I|exact K]|exists x; split; [left; reflexivity|lia]].
Qed.
Lemma sum_le : forall (f : text -> nat) l k, In k l -> (f k <= list_sum (map f l))%nat.
Proof. induction l as [|x l IH]; intros k I; [destruct I|]. unfold list_sum in *. cbn [map fold_right]. destruct I as [->|I]; [lia|]. specialize (IH k I). lia. Qed.

(** ** finding a link that announces *)
Definition valid (l : list text) : Prop := forall a, In a l -> exists n, networkAddress a = Some n.
Lemma reaches_is : forall l d, valid l -> reaches l d = Some (0 <? nets l d)%nat.
Proof.
  induction l as [|a l IH]; intros d V; cbn [reaches]; [reflexivity|]. destruct (V a) as [n E]; [left; reflexivity|]. rewrite E. cbn [sbind]. rewrite nets_cons, (isnet_some _ _ d E).
  destruct (bytes_eqb n d); [reflexivity|]. rewrite IH; [reflexivity|]. intros x I. apply V. right. exact I.
Qed.
Lemma resolveIn_some : forall l m d k, (forall x, In x l -> valid (l_reach (link_of m x))) -> resolveIn m l d = Some k -> In k l /\ (0 < nets (l_reach (link_of m k)) d)%nat.
Proof.
  induction l as [|x l IH]; intros m d k V E; cbn [resolveIn] in E; [discriminate|]. rewrite reaches_is in E by (apply V; left; reflexivity). cbn [sbind] in E. destruct (0 <? _)%nat eqn:Q.
  - same E. split; [left; reflexivity|]. apply Nat.ltb_lt, Q.
  - apply IH in E as [I N]; [split; [right; exact I|exact N]|]. intros y Y. apply V. right. exact Y.
Qed.
Lemma resolveIn_none : forall l m d, (forall x, In x l -> valid (l_reach (link_of m x))) -> resolveIn m l d = None -> list_sum (map (fun k => nets (l_reach (link_of m k)) d) l) = 0%nat.
Proof.
  induction l as [|x l IH]; intros m d V E; cbn [resolveIn] in E; [reflexivity|]. rewrite reaches_is in E by (apply V; left; reflexivity). cbn [sbind] in E. destruct (0 <? _)%nat eqn:Q; [discriminate|].
  apply Nat.ltb_ge in Q. unfold list_sum in *. cbn [map fold_right]. rewrite IH; [lia| |exact E]. intros y Y. apply V. right. exact Y.
Qed.

(** ** while a link is taken away: [rest] are its announcements still to be withdrawn *)
Record lead (m : man) (gone : text) (rest : list text) : Prop := Lead {
  le_links : NoDup (links m);
  le_real : forall k, In k (links m) -> l_addr (link_of m k) = k;
  le_gone : forall k, ~ In k (links m) -> k <> gone -> link_of m k = no_link;
  le_addr : forall k, valid (l_reach (link_of m k));
  le_once : forall k d, (nets (l_reach (link_of m k)) d <= 1)%nat;
  le_self : forall k d, networkAddress k = Some d -> nets (l_reach (link_of m k)) d = 0%nat;
  le_count : forall d, r_reach (route_of m d) = Z.of_nat (announced m d + nets rest d);
  le_direct : forall k, In k (links m) -> exists d, networkAddress k = Some d /\ r_type (route_of m d) = TLink /\ r_next (route_of m d) = k;
  le_link : forall d, r_type (route_of m d) = TLink -> In (r_next (route_of m d)) (links m) /\ networkAddress (r_next (route_of m d)) = Some d;
  le_reach : forall d, r_type (route_of m d) = TReachable ->
     (In (r_next (route_of m d)) (links m) /\ nets (l_reach (link_of m (r_next (route_of m d)))) d = 1%nat) \/ (r_next (route_of m d) = gone /\ nets rest d = 1%nat);
  le_manual : forall d, r_type (route_of m d) = TManual -> In (r_next (route_of m d)) (links m) }.
Lemma leading_lead : forall m g, leading m -> lead m g [].
Proof.
  intros m g [A B C D E S F G H I J]. constructor; try assumption.
  - intros k N _. apply C, N.
  - intros d. rewrite F. f_equal. change (nets [] d) with 0%nat. lia.
  - intros d T. left. apply I, T.
Qed.
Lemma announced_ext : forall m m' d, links m' = links m -> link_of m' = link_of m -> announced m' d = announced m d.
Proof. intros m m' d E1 E2. unfold announced. rewrite E1, E2. reflexivity. Qed.
(** one route loses an announcement by the link that goes *)
Lemma lead_withdraw : forall m g a rest d m', tidyR m -> lead m g (a :: rest) -> ~ In g (links m) -> networkAddress a = Some d -> nets rest d = 0%nat -> (fixed m d -> 1 < r_reach (route_of m d)) ->
  removeRouteInfo m d (Some g) = Some m' -> lead m' g rest /\ same_rest m m' /\ forall x, x <> d -> route_of m' x = route_of m x.
Proof.
  intros m g a rest d m' T L G A O FX E. pose proof (removeRouteInfo_is _ _ _ _ E) as X. cbv zeta in X. destruct X as (Q1 & Q2 & _ & Q4). cbn [taken moved] in Q4.
  split; [|split; [exact Q1|exact Q2]].
  assert (CA : r_reach (route_of m d) = Z.of_nat (announced m d) + 1). { rewrite (le_count _ _ _ L). rewrite nets_cons, (isnet_some _ _ _ A), bytes_eqb_refl, O. lia. }
  assert (RN : forall x, x <> d -> nets (a :: rest) x = nets rest x). { intros x N. rewrite nets_cons, (isnet_some _ _ _ A), bytes_eqb_false by congruence. reflexivity. }
  assert (AN : forall x, announced m' x = announced m x). { intros x. apply announced_ext; apply Q1. }
  destruct Q4 as [(P1 & P2 & P3 & nx & P4 & P5)|(P1 & P2 & P3 & P4 & P5 & P6)].
  - (* it stays *)
    assert (NX : In nx (links m) /\ (r_type (route_of m d) = TReachable -> nets (l_reach (link_of m nx)) d = 1%nat) /\ (r_type (route_of m d) = TLink -> nx = r_next (route_of m d))).
    { destruct (bytes_eqb (r_next (route_of m d)) g) eqn:M.
      - apply bytes_eqb_spec in M. apply resolveIn_some in P4 as [I N]; [|intros x _; apply L]. split; [exact I|]. split; [intros _; pose proof (le_once _ _ _ L nx d); lia|]. intros TT. apply (le_link _ _ _ L) in TT as [TT _]. rewrite M in TT. contradiction.
      - subst nx. assert (NG : r_next (route_of m d) <> g) by (intros Y; rewrite Y, bytes_eqb_refl in M; discriminate). destruct (r_type (route_of m d)) eqn:TT.
        + apply (tr_none _ T) in TT. rewrite TT in P1. cbn [no_route r_reach] in P1. lia.
        + split; [apply (le_link _ _ _ L), TT|]. split; [discriminate|reflexivity].
        + apply (le_reach _ _ _ L) in TT as [[I N]|[Y _]]; [|contradiction]. split; [exact I|]. split; [intros _; exact N|discriminate].
        + split; [apply (le_manual _ _ _ L), TT|]. split; [discriminate|discriminate]. }
    destruct NX as (N1 & N2 & N3).
    assert (LK : forall x, r_type (route_of m' x) = r_type (route_of m x)) by (intros x; destruct (text_dec x d) as [->|N]; [rewrite P5; reflexivity|rewrite Q2 by exact N; reflexivity]).
    constructor; rewrite ?(sr_links _ _ Q1), ?(sr_link _ _ Q1).
    + apply L.
    + apply L.
    + apply L.
    + apply L.
    + apply L.
    + apply L.
    + intros x. rewrite AN. destruct (text_dec x d) as [->|N]; [rewrite P5; cbn [r_reach]; lia|]. rewrite Q2 by exact N. rewrite (le_count _ _ _ L), RN by exact N. reflexivity.
    + intros k K. destruct (le_direct _ _ _ L k K) as (x & X1 & X2 & X3). exists x. split; [exact X1|]. rewrite LK. split; [exact X2|]. destruct (text_dec x d) as [->|N]; [rewrite P5; cbn [r_next]; rewrite N3 by exact X2; exact X3|rewrite Q2 by exact N; exact X3].
    + intros x TT. rewrite LK in TT. destruct (text_dec x d) as [->|N]; [rewrite P5; cbn [r_next]; rewrite (N3 TT)|rewrite Q2 by exact N]; apply (le_link _ _ _ L), TT.
    + intros x TT. rewrite LK in TT. destruct (text_dec x d) as [->|N]; [rewrite P5; cbn [r_next]; left; split; [exact N1|apply N2, TT]|]. rewrite Q2 by exact N. rewrite <- RN by exact N. apply (le_reach _ _ _ L), TT.
    + intros x TT. rewrite LK in TT. destruct (text_dec x d) as [->|N]; [rewrite P5; cbn [r_next]; exact N1|]. rewrite Q2 by exact N. apply (le_manual _ _ _ L), TT.
  - (* it goes *)
    assert (NF : ~ fixed m d) by (intros Y; specialize (FX Y); lia).
    constructor; rewrite ?(sr_links _ _ Q1), ?(sr_link _ _ Q1).
    + apply L.
    + apply L.
    + apply L.
    + apply L.
    + apply L.
    + apply L.
    + intros x. rewrite AN. destruct (text_dec x d) as [->|N]; [rewrite P4; cbn [no_route r_reach]; lia|]. rewrite Q2 by exact N. rewrite (le_count _ _ _ L), RN by exact N. reflexivity.
    + intros k K. destruct (le_direct _ _ _ L k K) as (x & X1 & X2 & X3). exists x. split; [exact X1|]. assert (N : x <> d) by (intros ->; apply NF; left; exact X2). rewrite Q2 by exact N. split; [exact X2|exact X3].
    + intros x TT. destruct (text_dec x d) as [->|N]; [rewrite P4 in TT; discriminate|]. rewrite Q2 in * by exact N. apply (le_link _ _ _ L), TT.
    + intros x TT. destruct (text_dec x d) as [->|N]; [rewrite P4 in TT; discriminate|]. rewrite Q2 in * by exact N. rewrite <- RN by exact N. apply (le_reach _ _ _ L), TT.
    + intros x TT. destruct (text_dec x d) as [->|N]; [rewrite P4 in TT; discriminate|]. rewrite Q2 in * by exact N. apply (le_manual _ _ _ L), TT.
Qed.
Lemma lead_reached : forall rest m g m', tidyR m -> lead m g rest -> ~ In g (links m) -> valid rest -> (forall d, nets rest d <= 1)%nat ->
  (forall a d, In a rest -> networkAddress a = Some d -> fixed m d -> 1 < r_reach (route_of m d)) -> removeReached m g rest = Some m' -> lead m' g [] /\ same_rest m m'.
Proof.
  induction rest as [|a rest IH]; intros m g m' T L G V O FX E; cbn [removeReached] in E; [same E; split; [exact L|apply same_rest_refl]|].
  bnd E d F1. bnd E m1 F2. assert (O2 : nets rest d = 0%nat). { specialize (O d). rewrite nets_cons, (isnet_some _ _ _ F1), bytes_eqb_refl in O. lia. }
  pose proof (tidyR_remove _ _ _ _ T F2) as T1. apply (lead_withdraw _ _ _ _ _ _ T L G F1 O2) in F2 as (L1 & S1 & R1); [|intros Y; apply (FX a d); [left; reflexivity|exact F1|exact Y]].
  apply (IH m1) in E as [L2 S2]; [split; [exact L2|eapply same_rest_trans; eassumption]|exact T1|exact L1|rewrite (sr_links _ _ S1); exact G|intros x I; apply V; right; exact I| |].
  - intros x. specialize (O x). rewrite nets_cons in O. lia.
  - intros x n I X Y. assert (N : n <> d). { intros ->. pose proof (in_nets _ _ _ I X). lia. } unfold fixed in Y. rewrite R1 in * by exact N. apply (FX x n); [right; exact I|exact X|exact Y].
Qed.
(** the announcements of the link that goes can be withdrawn *)
Lemma reached_ok : forall rest m g, tidyR m -> lead m g rest -> ~ In g (links m) -> valid rest -> (forall d, nets rest d <= 1)%nat ->
  (forall a d, In a rest -> networkAddress a = Some d -> fixed m d -> 1 < r_reach (route_of m d)) -> exists m', removeReached m g rest = Some m'.
Proof.
  induction rest as [|a rest IH]; intros m g T L G V O FX; cbn [removeReached]; [eexists; reflexivity|]. destruct (V a) as [d F1]; [left; reflexivity|]. rewrite F1. cbn [sbind].
  assert (O2 : nets rest d = 0%nat). { specialize (O d). rewrite nets_cons, (isnet_some _ _ _ F1), bytes_eqb_refl in O. lia. }
  assert (CA : r_reach (route_of m d) = Z.of_nat (announced m d) + 1). { rewrite (le_count _ _ _ L). rewrite nets_cons, (isnet_some _ _ _ F1), bytes_eqb_refl, O2. lia. }
  destruct (removeRouteInfo_ok m d (Some g)) as [m1 F2]; cbn [taken].
  - intros _. lia.
  - intros P Y. apply resolveIn_none in Y; [|intros x _; apply L]. unfold announced in CA. lia.
  - intros _. apply (tr_in _ T). intros Y. apply (tr_none _ T) in Y. rewrite Y in CA. cbn [no_route r_reach] in CA. lia.
  - rewrite F2. cbn [sbind]. pose proof (tidyR_remove _ _ _ _ T F2) as T1. apply (lead_withdraw _ _ _ _ _ _ T L G F1 O2) in F2 as (L1 & S1 & R1); [|intros Y; apply (FX a d); [left; reflexivity|exact F1|exact Y]].
    apply IH; [exact T1|exact L1|rewrite (sr_links _ _ S1); exact G|intros x I; apply V; right; exact I| |].
    + intros x. specialize (O x). rewrite nets_cons in O. lia.
    + intros x n I X Y. assert (N : n <> d). { intros ->. pose proof (in_nets _ _ _ I X). lia. } unfold fixed in Y. rewrite R1 in * by exact N. apply (FX x n); [right; exact I|exact X|exact Y].
Qed.

(** ** the events one by one *)
Lemma next_in : forall m d, leading m -> r_type (route_of m d) <> TNone -> In (r_next (route_of m d)) (links m).
Proof. intros m d L T. destruct (r_type (route_of m d)) eqn:E; [congruence|apply (ld_link _ L), E|apply (ld_reach _ L), E|apply (ld_manual _ L), E]. Qed.
Lemma none_reach : forall m d, tidyR m -> r_type (route_of m d) = TNone -> r_reach (route_of m d) = 0.
Proof. intros m d T E. apply (tr_none _ T) in E. rewrite E. reflexivity. Qed.
Lemma leading_valid : forall m k, leading m -> valid (l_reach (link_of m k)).
Proof. intros m k L a I. apply (ld_addr _ L k a I). Qed.
(** the announcements of one link change *)
Definition relink (m : man) (k : text) (l : list text) : man := set_links m (tset (link_of m) k (Lnk (l_addr (link_of m k)) l)) (links m).
Lemma relink_at : forall m k l, l_reach (link_of (relink m k l) k) = l.
Proof. intros m k l. unfold relink. cbn [set_links link_of]. rewrite tset_same. reflexivity. Qed.
Lemma relink_other : forall m k l x, x <> k -> link_of (relink m k l) x = link_of m x.
Proof. intros m k l x N. unfold relink. cbn [set_links link_of]. apply tset_other, N. Qed.
Lemma relink_addr : forall m k l x, l_addr (link_of (relink m k l) x) = l_addr (link_of m x).
Proof. intros m k l x. destruct (text_dec x k) as [->|N]; [unfold relink; cbn [set_links link_of]; rewrite tset_same; reflexivity|rewrite relink_other by exact N; reflexivity]. Qed.
Lemma announced_relink : forall m k l d, NoDup (links m) -> In k (links m) -> (announced (relink m k l) d + nets (l_reach (link_of m k)) d = announced m d + nets l d)%nat.
Proof.
  intros m k l d N I. unfold announced. change (links (relink m k l)) with (links m).
  pose proof (sum_change (fun k => nets (l_reach (link_of m k)) d) (fun x => nets (l_reach (link_of (relink m k l) x)) d) (links m) k N I) as H. cbv beta in H. rewrite relink_at in H. apply H. intros x X. rewrite relink_other by exact X. reflexivity.
Qed.
Lemma leading_announce : forall m from a m', tidyR m -> leading m -> orderly m (TAnnounce from a) -> addReachable m from a = Some m' -> leading m'.
Proof.
  intros m from a m' T L [O1 O2] E. unfold addReachable in E. cbv zeta in E. set (k := r_next (route_of m from)) in *. bnd E d F. same E. destruct (O2 d F) as [O3 O4]. pose proof (next_in m from L O1) as K. fold k in K.
  change (set_links m (tset (link_of m) k (Lnk (l_addr (link_of m k)) (l_reach (link_of m k) ++ [a]))) (links m)) with (relink m k (l_reach (link_of m k) ++ [a])). set (l := l_reach (link_of m k) ++ [a]). set (m1 := relink m k l).
  pose proof (addRouteInfo_is m1 d k TReachable) as (Q1 & Q2 & Q3 & Q4 & Q5). set (m' := addRouteInfo m1 d k TReachable) in *. change (route_of m1) with (route_of m) in *.
  assert (NL : forall x, nets l x = (nets (l_reach (link_of m k)) x + if bytes_eqb d x then 1 else 0)%nat). { intros x. subst l. rewrite nets_app. rewrite nets_cons, (isnet_some _ _ _ F). change (nets [] x) with 0%nat. lia. }
  assert (N1 : forall y x, y <> k \/ x <> d -> nets (l_reach (link_of m1 y)) x = nets (l_reach (link_of m y)) x).
  { intros y x H. destruct (text_dec y k) as [->|N]; [|unfold m1; rewrite relink_other by exact N; reflexivity]. unfold m1. rewrite relink_at, NL. destruct H as [H|H]; [congruence|]. rewrite bytes_eqb_false by congruence. lia. }
  assert (N2 : nets (l_reach (link_of m1 k)) d = 1%nat). { unfold m1. rewrite relink_at, NL, O3, bytes_eqb_refl. reflexivity. }
  assert (TY : forall x, r_type (route_of m x) <> TNone -> r_type (route_of m' x) = r_type (route_of m x) /\ r_next (route_of m' x) = r_next (route_of m x)).
  { intros x NT. destruct (text_dec x d) as [->|N]; [|rewrite Q5 by exact N; split; reflexivity]. rewrite Q4. unfold newroute. destruct (rtype_eqb _ _) eqn:Y; [apply rtype_eqb_spec in Y; congruence|]. split; reflexivity. }
  assert (TB : forall x, r_type (route_of m' x) <> TNone -> r_type (route_of m x) <> TNone \/ (x = d /\ r_type (route_of m' x) = TReachable /\ r_next (route_of m' x) = k)).
  { intros x NT. destruct (text_dec x d) as [->|N]; [|rewrite Q5 in NT by exact N; left; exact NT]. destruct (rtype_eqb (r_type (route_of m d)) TNone) eqn:Y; [|left; apply rtype_none, Y]. right. split; [reflexivity|]. rewrite Q4. unfold newroute. rewrite Y. split; reflexivity. }
  constructor; rewrite ?(sr_links _ _ Q1), ?(sr_link _ _ Q1); change (links m1) with (links m).
  - apply L.
  - intros x I. unfold m1. rewrite relink_addr. apply L, I.
  - intros x I. unfold m1. rewrite relink_other by (intros ->; contradiction). apply L, I.
  - intros x b I. destruct (text_dec x k) as [->|N]; [|unfold m1 in I; rewrite relink_other in I by exact N; eapply (ld_addr _ L), I]. unfold m1 in I. rewrite relink_at in I. apply in_app_or in I as [I|[<-|[]]]; [eapply (ld_addr _ L), I|exists d; exact F].
  - intros x y. destruct (text_dec x k) as [->|N]; [destruct (text_dec y d) as [->|N3]; [rewrite N2; lia|]|]; rewrite N1 by tauto; apply L.
  - intros x y X. rewrite N1; [apply L, X|]. destruct (text_dec x k) as [->|N]; [|left; exact N]. right. intros ->. contradiction.
  - intros x. rewrite (announced_ext m1 m') by apply Q1. pose proof (announced_relink m k l x (ld_links _ L) K) as AR. fold m1 in AR. rewrite NL in AR. destruct (text_dec x d) as [->|N].
    + rewrite bytes_eqb_refl in AR. rewrite Q4. unfold newroute. pose proof (ld_count _ L d) as C. destruct (rtype_eqb _ _) eqn:Y; cbn [r_reach]; [apply rtype_eqb_spec, (none_reach _ _ T) in Y|]; lia.
    + rewrite bytes_eqb_false in AR by congruence. rewrite Q5 by exact N. rewrite (ld_count _ L). lia.
  - intros x I. destruct (ld_direct _ L x I) as (y & X1 & X2 & X3). exists y. split; [exact X1|]. destruct (TY y) as [Y1 Y2]; [congruence|]. rewrite Y1, Y2. split; assumption.
  - intros x TT. destruct (TB x) as [H|(_ & H & _)]; [congruence| |congruence]. destruct (TY x H) as [Y1 Y2]. rewrite Y1 in TT. rewrite Y2. apply (ld_link _ L), TT.
  - intros x TT. destruct (TB x) as [H|(-> & _ & H)]; [congruence| |rewrite H; split; [exact K|exact N2]]. destruct (TY x H) as [Y1 Y2]. rewrite Y1 in TT. rewrite Y2. destruct (ld_reach _ L x TT) as [I1 I2]. split; [exact I1|].
    rewrite N1; [exact I2|]. destruct (text_dec (r_next (route_of m x)) k) as [Y|N]; [|left; exact N]. right. intros ->. rewrite Y, O3 in I2. discriminate.
  - intros x TT. destruct (TB x) as [H|(_ & H & _)]; [congruence| |congruence]. destruct (TY x H) as [Y1 Y2]. rewrite Y1 in TT. rewrite Y2. apply (ld_manual _ L), TT.
Qed.
Lemma leading_withdraw : forall m from a m', tidyR m -> leading m -> orderly m (TWithdraw from a) -> removeReachable m from a = Some m' -> leading m'.
Proof.
  intros m from a m' T L [O1 O2] E. unfold removeReachable in E. cbv zeta in E. set (k := r_next (route_of m from)) in *. bnd E l F. bnd E d F2. apply removeFrom_some in F as [_ F]. specialize (O2 d F2).
  change (set_links m (tset (link_of m) k (Lnk (l_addr (link_of m k)) l)) (links m)) with (relink m k l) in E. set (m1 := relink m k l) in *.
  pose proof (swap_out_perm bytes_eqb bytes_eqb_spec a _ O1) as PM. rewrite <- F in PM.
  assert (K : In k (links m)). { destruct (in_dec text_dec k (links m)) as [I|I]; [exact I|]. rewrite (ld_gone _ L k I) in O1. destruct O1. }
  assert (NL : forall x, nets (l_reach (link_of m k)) x = (nets l x + if bytes_eqb d x then 1 else 0)%nat). { intros x. rewrite (nets_perm _ _ _ PM), nets_cons, (isnet_some _ _ _ F2). lia. }
  assert (N0 : nets l d = 0%nat). { pose proof (ld_once _ L k d) as Y. rewrite NL, bytes_eqb_refl in Y. lia. }
  assert (N1 : forall y x, y <> k \/ x <> d -> nets (l_reach (link_of m1 y)) x = nets (l_reach (link_of m y)) x).
  { intros y x H. destruct (text_dec y k) as [->|N]; [|unfold m1; rewrite relink_other by exact N; reflexivity]. unfold m1. rewrite relink_at, NL. destruct H as [H|H]; [congruence|]. rewrite bytes_eqb_false by congruence. lia. }
  assert (N2 : nets (l_reach (link_of m1 k)) d = 0%nat) by (unfold m1; rewrite relink_at; exact N0).
  assert (NS : networkAddress k <> Some d). { intros Y. pose proof (ld_self _ L k d Y) as Z. rewrite NL, bytes_eqb_refl in Z. lia. }
  assert (AV : forall x, valid (l_reach (link_of m1 x))).
  { intros x b I. destruct (text_dec x k) as [->|N]; [|unfold m1 in I; rewrite relink_other in I by exact N; eapply (ld_addr _ L), I]. unfold m1 in I. rewrite relink_at in I. eapply (ld_addr _ L k). eapply Permutation_in; [apply Permutation_sym, PM|]. right. exact I. }
  assert (ON : forall x y, (nets (l_reach (link_of m1 x)) y <= 1)%nat).
  { intros x y. destruct (text_dec x k) as [->|N]; [destruct (text_dec y d) as [->|N3]; [rewrite N2; lia|]|]; rewrite N1 by tauto; apply L. }
  assert (CO : forall x, r_reach (route_of m x) = Z.of_nat (announced m1 x + if bytes_eqb d x then 1 else 0)).
  { intros x. pose proof (announced_relink m k l x (ld_links _ L) K) as AR. fold m1 in AR. rewrite NL in AR. rewrite (ld_count _ L). lia. }
  pose proof (removeRouteInfo_is _ _ _ _ E) as X. cbv zeta in X. destruct X as (Q1 & Q2 & _ & Q4). cbn [taken moved] in Q4. change (route_of m1) with (route_of m) in *. change (links m1) with (links m) in *. change (fees_of m1) with (fees_of m) in *. change (routes m1) with (routes m) in *.
  assert (NR : r_reach (route_of m d) = Z.of_nat (announced m1 d) + 1) by (rewrite CO, bytes_eqb_refl; lia).
  assert (NN : r_type (route_of m d) <> TNone) by (intros Y; apply (none_reach _ _ T) in Y; lia).
  assert (COM : forall x, x <> d -> r_reach (route_of m' x) = Z.of_nat (announced m' x)). { intros x N. rewrite (announced_ext m1 m') by apply Q1. rewrite Q2 by exact N. rewrite CO, bytes_eqb_false by congruence. lia. }
  destruct Q4 as [(P1 & P2 & P3 & nx & P4 & P5)|(P1 & P2 & P3 & P4 & P5 & P6)].
  - assert (NX : In nx (links m) /\ (r_type (route_of m d) = TReachable -> nets (l_reach (link_of m1 nx)) d = 1%nat) /\ (r_type (route_of m d) = TLink -> nx = r_next (route_of m d))).
    { destruct (bytes_eqb (r_next (route_of m d)) k) eqn:M.
      - apply bytes_eqb_spec in M. apply resolveIn_some in P4 as [I N]; [|intros x _; apply AV]. split; [exact I|]. split; [intros _; pose proof (ON nx d); lia|]. intros TT. apply (ld_link _ L) in TT as [_ TT]. rewrite M in TT. contradiction.
      - subst nx. assert (NG : r_next (route_of m d) <> k) by (intros Y; rewrite Y, bytes_eqb_refl in M; discriminate). split; [apply next_in; assumption|]. split; [|reflexivity]. intros TT. apply (ld_reach _ L) in TT as [_ TT]. rewrite N1 by (left; exact NG). exact TT. }
    destruct NX as (X1 & X2 & X3).
    assert (LK : forall x, r_type (route_of m' x) = r_type (route_of m x)) by (intros x; destruct (text_dec x d) as [->|N]; [rewrite P5; reflexivity|rewrite Q2 by exact N; reflexivity]).
    constructor; rewrite ?(sr_links _ _ Q1), ?(sr_link _ _ Q1); change (links m1) with (links m).
    + apply L.
    + intros x I. unfold m1. rewrite relink_addr. apply L, I.
    + intros x I. unfold m1. rewrite relink_other by (intros ->; contradiction). apply L, I.
    + intros x. apply AV.
    + exact ON.
    + intros x y X. destruct (text_dec x k) as [->|N]; [destruct (text_dec y d) as [->|N3]; [exact N2|]|]; (rewrite N1 by tauto; apply L, X).
    + intros x. destruct (text_dec x d) as [->|N]; [|apply COM, N]. rewrite (announced_ext m1 m') by apply Q1. rewrite P5. cbn [r_reach]. lia.
    + intros x I. destruct (ld_direct _ L x I) as (y & Y1 & Y2 & Y3). exists y. split; [exact Y1|]. rewrite LK. split; [exact Y2|]. destruct (text_dec y d) as [->|N]; [rewrite P5; cbn [r_next]; rewrite X3 by exact Y2; exact Y3|rewrite Q2 by exact N; exact Y3].
    + intros x TT. rewrite LK in TT. destruct (text_dec x d) as [->|N]; [rewrite P5; cbn [r_next]; rewrite (X3 TT)|rewrite Q2 by exact N]; apply (ld_link _ L), TT.
    + intros x TT. rewrite LK in TT. destruct (text_dec x d) as [->|N]; [rewrite P5; cbn [r_next]; split; [exact X1|apply X2, TT]|]. rewrite Q2 by exact N. rewrite N1 by tauto. apply (ld_reach _ L), TT.
    + intros x TT. rewrite LK in TT. destruct (text_dec x d) as [->|N]; [rewrite P5; cbn [r_next]; exact X1|]. rewrite Q2 by exact N. apply (ld_manual _ L), TT.
  - assert (NF : ~ fixed m d) by (intros Y; specialize (O2 Y); lia).
    constructor; rewrite ?(sr_links _ _ Q1), ?(sr_link _ _ Q1); change (links m1) with (links m).
    + apply L.
    + intros x I. unfold m1. rewrite relink_addr. apply L, I.
    + intros x I. unfold m1. rewrite relink_other by (intros ->; contradiction). apply L, I.
    + intros x. apply AV.
    + exact ON.
    + intros x y X. destruct (text_dec x k) as [->|N]; [destruct (text_dec y d) as [->|N3]; [exact N2|]|]; (rewrite N1 by tauto; apply L, X).
    + intros x. destruct (text_dec x d) as [->|N]; [|apply COM, N]. rewrite (announced_ext m1 m') by apply Q1. rewrite P4. cbn [no_route r_reach]. lia.
    + intros x I. destruct (ld_direct _ L x I) as (y & Y1 & Y2 & Y3). exists y. split; [exact Y1|]. assert (N : y <> d) by (intros ->; apply NF; left; exact Y2). rewrite Q2 by exact N. split; assumption.
    + intros x TT. destruct (text_dec x d) as [->|N]; [rewrite P4 in TT; discriminate|]. rewrite Q2 in * by exact N. apply (ld_link _ L), TT.
    + intros x TT. destruct (text_dec x d) as [->|N]; [rewrite P4 in TT; discriminate|]. rewrite Q2 in * by exact N. rewrite N1 by tauto. apply (ld_reach _ L), TT.
    + intros x TT. destruct (text_dec x d) as [->|N]; [rewrite P4 in TT; discriminate|]. rewrite Q2 in * by exact N. apply (ld_manual _ L), TT.
Qed.
Lemma leading_addLink : forall m k m', tidyR m -> leading m -> orderly m (TAddLink k) -> t_addLink m k = Some m' -> leading m'.
Proof.
  intros m k m' T L O E. unfold t_addLink in E. bnd E d F. chk E H1. chk E H2. same E. cbn [orderly] in O. specialize (O d F).
  assert (K : ~ In k (links m)). { intros I. destruct (ld_direct _ L k I) as (x & X1 & X2 & _). congruence. }
  set (m1 := set_links m (tset (link_of m) k (Lnk k [])) (links m ++ [k])). pose proof (addRouteInfo_is m1 d k TLink) as (Q1 & Q2 & Q3 & Q4 & Q5). set (m' := addRouteInfo m1 d k TLink) in *. change (route_of m1) with (route_of m) in *.
  unfold newroute in Q4. rewrite (proj2 (rtype_eqb_spec _ _) O) in Q4. cbv zeta in Q4.
  assert (LI : forall x, x <> k -> link_of m1 x = link_of m x) by (intros x N; apply tset_other, N). assert (LK : link_of m1 k = Lnk k []) by apply tset_same.
  assert (RE : forall x, l_reach (link_of m1 x) = l_reach (link_of m x)). { intros x. destruct (text_dec x k) as [->|N]; [rewrite LK, (ld_gone _ L k K); reflexivity|rewrite LI by exact N; reflexivity]. }
  assert (AN : forall x, announced m1 x = announced m x).
  { intros x. unfold announced. change (links m1) with (links m ++ [k]). rewrite map_app, list_sum_app. cbn [map]. rewrite LK. cbn [l_reach]. change (nets [] x) with 0%nat. change (list_sum [0%nat]) with 0%nat. rewrite Nat.add_0_r. apply sum_same. intros y _. rewrite RE. reflexivity. }
  constructor; rewrite ?(sr_links _ _ Q1), ?(sr_link _ _ Q1); change (links m1) with (links m ++ [k]).
  - apply nodup_more; [apply L|exact K].
  - intros x I. destruct (text_dec x k) as [->|N]; [rewrite LK; reflexivity|]. rewrite LI by exact N. apply L. apply in_app_or in I as [I|[->|[]]]; [exact I|contradiction].
  - intros x I. assert (N : x <> k) by (intros ->; apply I, in_or_app; right; left; reflexivity). rewrite LI by exact N. apply L. intros Y. apply I, in_or_app. left. exact Y.
  - intros x a. rewrite RE. apply L.
  - intros x a. rewrite RE. apply L.
  - intros x a. rewrite RE. apply L.
  - intros x. rewrite (announced_ext m1 m') by apply Q1. rewrite AN. destruct (text_dec x d) as [->|N]; [|rewrite Q5 by exact N; apply L]. rewrite Q4. cbn [r_reach]. rewrite <- (ld_count _ L). rewrite (none_reach _ _ T O). reflexivity.
  - intros x I. apply in_app_or in I as [I|[<-|[]]].
    + destruct (ld_direct _ L x I) as (y & Y1 & Y2 & Y3). exists y. split; [exact Y1|]. assert (N : y <> d) by congruence. rewrite Q5 by exact N. split; assumption.
    + exists d. split; [exact F|]. rewrite Q4. split; reflexivity.
  - intros x TT. destruct (text_dec x d) as [->|N]; [rewrite Q4; cbn [r_next]; split; [apply in_or_app; right; left; reflexivity|exact F]|]. rewrite Q5 in * by exact N. apply (ld_link _ L) in TT as [I1 I2]. split; [apply in_or_app; left; exact I1|exact I2].
  - intros x TT. destruct (text_dec x d) as [->|N]; [rewrite Q4 in TT; discriminate|]. rewrite Q5 in * by exact N. rewrite RE. apply (ld_reach _ L) in TT as [I1 I2]. split; [apply in_or_app; left; exact I1|exact I2].
  - intros x TT. destruct (text_dec x d) as [->|N]; [rewrite Q4 in TT; discriminate|]. rewrite Q5 in * by exact N. apply (ld_manual _ L) in TT. apply in_or_app. left. exact TT.
Qed.
Lemma leading_addRoute : forall m d k, leading m -> tidyR m -> r_type (route_of m d) <> TLink -> In k (links m) -> leading (addRouteInfo m d k TManual).
Proof.
  intros m d k L T O K. pose proof (addRouteInfo_is m d k TManual) as (Q1 & Q2 & Q3 & Q4 & Q5). set (m' := addRouteInfo m d k TManual) in *.
  assert (Q6 : route_of m' d = Route k (r_reach (route_of m d)) TManual). { rewrite Q4. unfold newroute. destruct (rtype_eqb _ _) eqn:Y; [|reflexivity]. apply rtype_eqb_spec, (none_reach _ _ T) in Y. rewrite Y. reflexivity. }
  constructor; rewrite ?(sr_links _ _ Q1), ?(sr_link _ _ Q1).
  - apply L.
  - apply L.
  - apply L.
  - apply L.
  - apply L.
  - apply L.
  - intros x. rewrite (announced_ext m m') by apply Q1. destruct (text_dec x d) as [->|N]; [rewrite Q6; apply L|rewrite Q5 by exact N; apply L].
  - intros x I. destruct (ld_direct _ L x I) as (y & Y1 & Y2 & Y3). exists y. split; [exact Y1|]. assert (N : y <> d) by congruence. rewrite Q5 by exact N. split; assumption.
  - intros x TT. destruct (text_dec x d) as [->|N]; [rewrite Q6 in TT; discriminate|]. rewrite Q5 in * by exact N. apply (ld_link _ L), TT.
  - intros x TT. destruct (text_dec x d) as [->|N]; [rewrite Q6 in TT; discriminate|]. rewrite Q5 in * by exact N. apply (ld_reach _ L), TT.
  - intros x TT. destruct (text_dec x d) as [->|N]; [rewrite Q6; exact K|]. rewrite Q5 in * by exact N. apply (ld_manual _ L), TT.
Qed.
(** a route goes, or becomes one that is announced *)
Lemma unroute : forall m d m', tidyR m -> leading m -> removeRouteInfo m d None = Some m' ->
  same_rest m m' /\ (forall x, x <> d -> route_of m' x = route_of m x) /\ r_reach (route_of m' d) = Z.of_nat (announced m d) /\
  (route_of m' d = no_route \/ (r_type (route_of m' d) = TReachable /\ In (r_next (route_of m' d)) (links m) /\ nets (l_reach (link_of m (r_next (route_of m' d)))) d = 1%nat)).
Proof.
  intros m d m' T L E. pose proof (removeRouteInfo_is _ _ _ _ E) as X. cbv zeta in X. destruct X as (Q1 & Q2 & _ & Q4). cbn [taken moved] in Q4. split; [exact Q1|]. split; [exact Q2|]. pose proof (ld_count _ L d) as C.
  destruct Q4 as [(P1 & P2 & P3 & nx & P4 & P5)|(P1 & P2 & P3 & P4 & P5 & P6)].
  - rewrite P5. cbn [r_reach r_type r_next]. split; [lia|]. right. split; [reflexivity|]. apply resolveIn_some in P4 as [I N]; [|intros x _; apply leading_valid, L]. split; [exact I|]. pose proof (ld_once _ L nx d). lia.
  - rewrite P4. cbn [no_route r_reach]. split; [|left; reflexivity]. pose proof (tr_reach _ T d). lia.
Qed.
Lemma leading_removeRoute : forall m d m', tidyR m -> leading m -> r_type (route_of m d) = TManual -> removeRouteInfo m d None = Some m' -> leading m'.
Proof.
  intros m d m' T L M E. apply (unroute _ _ _ T L) in E as (Q1 & Q2 & Q3 & Q4).
  constructor; rewrite ?(sr_links _ _ Q1), ?(sr_link _ _ Q1).
  - apply L.
  - apply L.
  - apply L.
  - apply L.
  - apply L.
  - apply L.
  - intros x. rewrite (announced_ext m m') by apply Q1. destruct (text_dec x d) as [->|N]; [exact Q3|rewrite Q2 by exact N; apply L].
  - intros x I. destruct (ld_direct _ L x I) as (y & Y1 & Y2 & Y3). exists y. split; [exact Y1|]. assert (N : y <> d) by congruence. rewrite Q2 by exact N. split; assumption.
  - intros x TT. destruct (text_dec x d) as [->|N]; [destruct Q4 as [Q4|[Q4 _]]; [rewrite Q4 in TT; discriminate|congruence]|]. rewrite Q2 in * by exact N. apply (ld_link _ L), TT.
  - intros x TT. destruct (text_dec x d) as [->|N]; [destruct Q4 as [Q4|[_ Q4]]; [rewrite Q4 in TT; discriminate|exact Q4]|]. rewrite Q2 in * by exact N. apply (ld_reach _ L), TT.
  - intros x TT. destruct (text_dec x d) as [->|N]; [destruct Q4 as [Q4|[Q4 _]]; [rewrite Q4 in TT; discriminate|congruence]|]. rewrite Q2 in * by exact N. apply (ld_manual _ L), TT.
Qed.
(** a link goes: first its own route *)
Definition cut (m : man) (k : text) : man := set_links m (link_of m) (swap_out bytes_eqb k (links m)).
Lemma lead_cut : forall m k d m', tidyR m -> leading m -> In k (links m) -> networkAddress k = Some d -> (forall x, r_type (route_of m x) = TManual -> r_next (route_of m x) <> k) ->
  removeRouteInfo m d None = Some m' -> lead (cut m' k) k (l_reach (link_of m k)) /\ same_rest m m' /\ (forall x, x <> d -> route_of m' x = route_of m x).
Proof.
  intros m k d m' T L K D NM E. apply (unroute _ _ _ T L) in E as (Q1 & Q2 & Q3 & Q4). split; [|split; [exact Q1|exact Q2]].
  pose proof (swap_out_nodup bytes_eqb bytes_eqb_spec k (links m) (ld_links _ L)) as [S1 S2]. pose proof (swap_out_perm bytes_eqb bytes_eqb_spec k _ K) as PM.
  assert (AN : forall x, (announced (cut m' k) x + nets (l_reach (link_of m k)) x = announced m x)%nat).
  { intros x. unfold announced, cut. cbn [set_links links link_of]. rewrite (sr_links _ _ Q1), (sr_link _ _ Q1). rewrite (list_sum_perm _ _ (Permutation_map _ PM)). cbn [map]. unfold list_sum. cbn [fold_right]. apply Nat.add_comm. }
  assert (LT : forall x, r_type (route_of m x) = TLink -> r_next (route_of m x) = k -> x = d). { intros x Y1 Y2. apply (ld_link _ L) in Y1 as [_ Y1]. congruence. }
  assert (CN : forall x, r_reach (route_of (cut m' k) x) = Z.of_nat (announced (cut m' k) x + nets (l_reach (link_of m k)) x)).
  { intros x. rewrite AN. change (route_of (cut m' k)) with (route_of m'). destruct (text_dec x d) as [->|N]; [exact Q3|rewrite Q2 by exact N; apply L]. }
  constructor; try exact CN; unfold cut; cbn [set_links links link_of route_of]; rewrite ?(sr_links _ _ Q1), ?(sr_link _ _ Q1).
  - exact S1.
  - intros x I. apply S2 in I as [I _]. apply L, I.
  - intros x I N. apply L. intros Y. apply I, S2. split; assumption.
  - intros x. apply leading_valid, L.
  - apply L.
  - apply L.
  - intros x I. apply S2 in I as [I NK]. destruct (ld_direct _ L x I) as (y & Y1 & Y2 & Y3). exists y. split; [exact Y1|]. assert (N : y <> d). { intros ->. destruct (ld_direct _ L k K) as (z & Z1 & Z2 & Z3). congruence. } rewrite Q2 by exact N. split; assumption.
  - intros x TT. destruct (text_dec x d) as [->|N]; [destruct Q4 as [Q4|[Q4 _]]; [rewrite Q4 in TT; discriminate|congruence]|]. rewrite Q2 in * by exact N. destruct (ld_link _ L x TT) as [I1 I2]. split; [|exact I2]. apply S2. split; [exact I1|]. intros Y. apply N, LT; assumption.
  - intros x TT. destruct (text_dec x d) as [->|N].
    + destruct Q4 as [Q4|(_ & Q5 & Q6)]; [rewrite Q4 in TT; discriminate|]. left. split; [|exact Q6]. apply S2. split; [exact Q5|]. intros Y. rewrite Y in Q6. rewrite (ld_self _ L k d D) in Q6. discriminate.
    + rewrite Q2 in * by exact N. destruct (ld_reach _ L x TT) as [I1 I2]. destruct (text_dec (r_next (route_of m x)) k) as [Y|Y]; [right; split; [exact Y|rewrite <- Y at 1; exact I2]|left; split; [apply S2; split; assumption|exact I2]].
  - intros x TT. destruct (text_dec x d) as [->|N]; [destruct Q4 as [Q4|[Q4 _]]; [rewrite Q4 in TT; discriminate|congruence]|]. rewrite Q2 in * by exact N. apply S2. split; [apply (ld_manual _ L), TT|apply NM, TT].
Qed.
Lemma lead_leading : forall m k r, lead m k [] -> ~ In k (links m) -> leading (set_relays (set_links m (tset (link_of m) k no_link) (links m)) r).
Proof.
  intros m k r L K. assert (LI : forall x, x <> k -> tset (link_of m) k no_link x = link_of m x) by (intros x N; apply tset_other, N). assert (LK : tset (link_of m) k no_link k = no_link) by apply tset_same.
  constructor; cbn [set_relays set_links links link_of route_of].
  - apply L.
  - intros x I. rewrite LI by (intros ->; contradiction). apply L, I.
  - intros x I. destruct (text_dec x k) as [->|N]; [exact LK|]. rewrite LI by exact N. apply (le_gone _ _ _ L); assumption.
  - intros x a. destruct (text_dec x k) as [->|N]; [rewrite LK; intros []|]. rewrite LI by exact N. apply (le_addr _ _ _ L).
  - intros x d. destruct (text_dec x k) as [->|N]; [rewrite LK; change (nets [] d <= 1)%nat; unfold nets; cbn [filter length]; lia|]. rewrite LI by exact N. apply L.
  - intros x d. destruct (text_dec x k) as [->|N]; [rewrite LK; intros _; reflexivity|]. rewrite LI by exact N. apply (le_self _ _ _ L).
  - intros d. rewrite (le_count _ _ _ L). change (nets [] d) with 0%nat. rewrite Nat.add_0_r. f_equal. unfold announced. cbn [set_relays set_links links link_of]. symmetry. apply sum_same. intros x I. rewrite LI by (intros ->; contradiction). reflexivity.
  - apply L.
  - apply L.
  - intros d TT. destruct (le_reach _ _ _ L d TT) as [[I1 I2]|[_ Y]]; [|discriminate]. split; [exact I1|]. rewrite LI by (intros Y; rewrite Y in I1; contradiction). exact I2.
  - apply L.
Qed.
Lemma isLink_in : forall m k, leading m -> isLink m k = true -> In k (links m).
Proof. intros m k L I. destruct (in_dec text_dec k (links m)) as [Y|Y]; [exact Y|]. unfold isLink in I. rewrite (ld_gone _ L k Y) in I. discriminate. Qed.
Lemma no_manual : forall m k, tidyR m -> negb (existsb (fun d => rtype_eqb (r_type (route_of m d)) TManual && bytes_eqb (r_next (route_of m d)) k) (routes m)) = true <-> (forall x, r_type (route_of m x) = TManual -> r_next (route_of m x) <> k).
Proof.
  intros m k T. rewrite negb_true_iff. split.
  - intros H x TT Y. assert (I : In x (routes m)) by (apply (tr_in _ T); congruence). enough (existsb (fun d => rtype_eqb (r_type (route_of m d)) TManual && bytes_eqb (r_next (route_of m d)) k) (routes m) = true) by congruence.
    apply existsb_exists. exists x. split; [exact I|]. rewrite TT, Y, bytes_eqb_refl. reflexivity.
  - intros H. destruct (existsb _ _) eqn:E; [|reflexivity]. apply existsb_exists in E as (x & _ & E). apply andb_prop in E as [E1 E2]. apply rtype_eqb_spec in E1. apply bytes_eqb_spec in E2. exfalso. apply (H x E1 E2).
Qed.
Lemma cut_facts : forall m k d m1, tidyR m -> leading m -> orderly m (TRemoveLink k) -> In k (links m) -> networkAddress k = Some d -> (forall x, r_type (route_of m x) = TManual -> r_next (route_of m x) <> k) -> removeRouteInfo m d None = Some m1 ->
  tidyR (cut m1 k) /\ lead (cut m1 k) k (l_reach (link_of m k)) /\ ~ In k (links (cut m1 k)) /\ (forall a x, In a (l_reach (link_of m k)) -> networkAddress a = Some x -> fixed (cut m1 k) x -> 1 < r_reach (route_of (cut m1 k) x)).
Proof.
  intros m k d m1 T L O K D NM E. pose proof (tidyR_remove _ _ _ _ T E) as T1. apply (lead_cut _ _ _ _ T L K D NM) in E as (L1 & S1 & R1). split; [eapply tidyR_same; [exact T1|reflexivity..]|]. split; [exact L1|]. split.
  - unfold cut. cbn [set_links links]. rewrite (sr_links _ _ S1). intros Y. apply (swap_out_nodup bytes_eqb bytes_eqb_spec k (links m) (ld_links _ L)) in Y as [_ Y]. congruence.
  - intros a x I A. assert (N : x <> d). { intros ->. pose proof (in_nets _ _ _ I A) as Y. rewrite (ld_self _ L k d D) in Y. lia. } unfold fixed, cut. cbn [set_links route_of]. rewrite R1 by exact N. apply (O a x I A).
Qed.
Lemma leading_removeLink : forall m k m', tidyR m -> leading m -> orderly m (TRemoveLink k) -> t_removeLink m k = Some m' -> leading m'.
Proof.
  intros m k m' T L O E. unfold t_removeLink in E. chk E H1. chk E H2. bnd E d F1. bnd E m1 F2. bnd E l F3. cbv zeta in E. bnd E m2 F4. same E.
  apply (isLink_in _ _ L) in H1. pose proof (proj1 (no_manual m k T) H2) as H3. pose proof (cut_facts _ _ _ _ T L O H1 F1 H3 F2) as (C1 & C2 & C3 & C4).
  pose proof (adm_removeRouteInfo _ _ _ _ F2) as SA. pose proof (removeRouteInfo_is _ _ _ _ F2) as X. cbv zeta in X. destruct X as (Q1 & _).
  apply removeFrom_some in F3 as [_ ->]. cbn [set_links link_of] in F4. fold (cut m1 k) in F4. rewrite (sr_link _ _ Q1) in F4.
  apply lead_reached in F4 as [L2 S2]; [|exact C1|exact C2|exact C3|apply leading_valid, L|intros x; apply L|exact C4]. apply lead_leading; [exact L2|]. rewrite (sr_links _ _ S2). exact C3.
Qed.
Lemma removeLink_ok : forall m k, tidyR m -> leading m -> orderly m (TRemoveLink k) -> In k (links m) -> (forall x, r_type (route_of m x) = TManual -> r_next (route_of m x) <> k) -> exists m', t_removeLink m k = Some m'.
Proof.
  intros m k T L O K NM. unfold t_removeLink. destruct (ld_direct _ L k K) as (d & D & D1 & D2).
  assert (LK : isLink m k = true). { unfold isLink. rewrite (ld_real _ L k K). destruct k; [discriminate|reflexivity]. }
  rewrite LK. cbn [require sbind]. rewrite (proj2 (no_manual m k T) NM). cbn [require sbind]. rewrite D. cbn [sbind].
  destruct (removeRouteInfo_ok m d None) as [m1 F2]; cbn [taken].
  - congruence.
  - intros P Y. apply resolveIn_none in Y; [|intros x _; apply leading_valid, L]. rewrite (ld_count _ L) in P. unfold announced in P. lia.
  - intros _. apply (tr_in _ T). congruence.
  - rewrite F2. cbn [sbind]. pose proof (cut_facts _ _ _ _ T L O K D NM F2) as (C1 & C2 & C3 & C4). pose proof (removeRouteInfo_is _ _ _ _ F2) as X. cbv zeta in X. destruct X as (Q1 & _).
    rewrite (removeFrom_in bytes_eqb) by (rewrite (sr_links _ _ Q1); exact K). cbn [sbind]. cbv zeta. cbn [set_links link_of]. fold (cut m1 k). rewrite (sr_link _ _ Q1).
    destruct (reached_ok _ _ _ C1 C2 C3) as [m2 F4]; [apply leading_valid, L|intros x; apply L|exact C4|]. rewrite F4. cbn [sbind]. eexists. reflexivity.
Qed.
Lemma leading_step : forall m e m', tidyR m -> leading m -> orderly m e -> tstep m e = Some m' -> leading m'.
Proof.
  intros m e m' T L O E. destruct e as [f a|f a|k|k|d n|d]; cbn [tstep] in E.
  - eapply leading_announce; eassumption.
  - eapply leading_withdraw; eassumption.
  - eapply leading_addLink; eassumption.
  - eapply leading_removeLink; eassumption.
  - chk E H. same E. apply andb_prop in H as [_ H]. unfold existsLink in H. apply rtype_eqb_spec in H. apply leading_addRoute; [exact L|exact T|exact O|]. apply (ld_link _ L), H.
  - chk E H. apply rtype_eqb_spec in H. eapply leading_removeRoute; eassumption.
Qed.
