(** The routing table of the message center for the EVM: what its functions do to it. *)
From Coq Require Import String Ascii ZArith List Bool Lia Permutation.
From Coq Require Import ZifyBool.
From Verif Require Import Base L_Base M_SolRlp M_BtpAddr M_Bridge M_JMap L_JMap M_SBmc S_SBmc S_SBmc2 L_SBmc.
Import ListNotations.
Open Scope Z_scope.

(** ** lists without repetition *)
Section Swap.
Context {A : Type} (eqb : A -> A -> bool) (spec : forall a b, eqb a b = true <-> a = b).
Lemma swap_out_none : forall (x : A) l, ~ In x l -> swap_out eqb x l = l.
Proof.
  intros x l. induction l as [|y l IH]; intros N; cbn [swap_out]; [reflexivity|]. destruct (eqb y x) eqn:E; [apply spec in E; subst; exfalso; apply N; left; reflexivity|]. rewrite IH; [reflexivity|]. intros I. apply N. right. exact I.
Qed.
Lemma swap_out_perm : forall x l, In x l -> Permutation l (x :: swap_out eqb x l).
Proof.
  intros x l. induction l as [|y l IH]; intros I; [destruct I|]. cbn [swap_out]. destruct (eqb y x) eqn:E.
  - apply spec in E. subst y. apply perm_skip. destruct l as [|z l]; [apply Permutation_refl|]. rewrite (app_removelast_last z (l := z :: l)) at 1 by discriminate. symmetry. apply Permutation_cons_append.
  - destruct I as [->|I]; [rewrite (proj2 (spec x x) eq_refl) in E; discriminate|]. eapply perm_trans; [apply perm_skip, IH, I|]. apply perm_swap.
Qed.
Lemma swap_dec : forall (x : A) l, In x l \/ ~ In x l.
Proof.
  intros x l. induction l as [|y l IH]; [right; intros []|]. destruct (eqb y x) eqn:E; [left; left; apply spec, E|]. destruct IH as [I|I]; [left; right; exact I|]. right. intros [H|H]; [apply spec in H; congruence|apply I, H].
Qed.
Lemma swap_out_nodup : forall x l, NoDup l -> NoDup (swap_out eqb x l) /\ forall y, In y (swap_out eqb x l) <-> In y l /\ y <> x.
Proof.
  intros x l N. destruct (swap_dec x l) as [I|I].
  - pose proof (swap_out_perm x l I) as P. pose proof (Permutation_NoDup P N) as N2. apply NoDup_cons_iff in N2 as [N3 N4]. split; [exact N4|]. intros y. split.
    + intros Y. split; [apply (Permutation_in _ (Permutation_sym P)); right; exact Y|]. intros ->. apply N3, Y.
    + intros [Y1 Y2]. apply (Permutation_in _ P) in Y1 as [E|Y1]; [congruence|exact Y1].
  - rewrite swap_out_none by exact I. split; [exact N|]. intros y. split; [intros Y; split; [exact Y|intros ->; apply I, Y]|tauto].
Qed.
Lemma removeFrom_some : forall x l l', removeFrom eqb l x = Some l' -> l <> [] /\ l' = swap_out eqb x l.
Proof. intros x l l' E. unfold removeFrom in E. destruct l; [discriminate|]. split; [discriminate|congruence]. Qed.
Lemma removeFrom_in : forall (x : A) l, In x l -> removeFrom eqb l x = Some (swap_out eqb x l).
Proof. intros x l I. unfold removeFrom. destruct l; [destruct I|reflexivity]. Qed.
End Swap.
Lemma nodup_more : forall A (l : list A) x, NoDup l -> ~ In x l -> NoDup (l ++ [x]).
Proof. intros A l x N I. apply (Permutation_NoDup (l := x :: l)); [apply Permutation_cons_append|]. constructor; assumption. Qed.
Lemma rtype_eqb_spec : forall a b, rtype_eqb a b = true <-> a = b.
Proof. intros [] []; split; intros E; try reflexivity; discriminate. Qed.
Lemma rtype_none : forall t, rtype_eqb t TNone = false -> t <> TNone.
Proof. intros [] E; congruence || discriminate. Qed.

(** ** routes *)
Definition newroute (o : route) (k : text) (t : rtype) : route :=
  let o := if rtype_eqb (r_type o) TNone then Route k 0 t else o in
  match t with TReachable => Route (r_next o) (r_reach o + 1) (r_type o) | TManual => Route k (r_reach o) TManual | _ => o end.
(** everything but routes and fees *)
Record same_rest (m m' : man) : Prop := SameRest {
  sr_is : o_is m' = o_is m; sr_count : o_count m' = o_count m; sr_v : v_of m' = v_of m; sr_vk : v_keys m' = v_keys m; sr_h : h_of m' = h_of m; sr_hk : h_keys m' = h_keys m;
  sr_links : links m' = links m; sr_link : link_of m' = link_of m; sr_relays : relays_of m' = relays_of m; sr_handler : fee_handler m' = fee_handler m }.
Lemma same_rest_refl : forall m, same_rest m m.
Proof. intros m. constructor; reflexivity. Qed.
Lemma same_rest_trans : forall a b c, same_rest a b -> same_rest b c -> same_rest a c.
Proof. intros a b c [] []. constructor; congruence. Qed.
Lemma addRouteInfo_is : forall m d k t, let m' := addRouteInfo m d k t in
  same_rest m m' /\ fees_of m' = fees_of m /\ routes m' = (if rtype_eqb (r_type (route_of m d)) TNone then routes m ++ [d] else routes m) /\
  route_of m' d = newroute (route_of m d) k t /\ forall x, x <> d -> route_of m' x = route_of m x.
Proof.
  intros m d k t. unfold addRouteInfo, newroute. cbv zeta. destruct (rtype_eqb (r_type (route_of m d)) TNone); destruct t; cbn [set_route set_routes route_of routes fees_of]; rewrite ?tset_same; cbn [r_next r_reach r_type];
  (split; [constructor; reflexivity|split; [reflexivity|split; [reflexivity|split; [reflexivity|intros x N; rewrite ?tset_other by exact N; reflexivity]]]]).
Qed.
Lemma resolveIn_ext : forall l m m' d, (forall k, In k l -> l_reach (link_of m' k) = l_reach (link_of m k)) -> resolveIn m' l d = resolveIn m l d.
Proof.
  induction l as [|k l IH]; intros m m' d H; cbn [resolveIn]; [reflexivity|]. rewrite H by (left; reflexivity). destruct (reaches _ _) as [[]|]; cbn [sbind]; try reflexivity. apply IH. intros x I. apply H. right. exact I.
Qed.
Definition taken (by_ : option text) : Z := match by_ with None => 0 | Some _ => 1 end.
Definition moved (by_ : option text) (next : text) : bool := match by_ with None => true | Some link => bytes_eqb next link end.
Lemma removeRouteInfo_is : forall m d by_ m', removeRouteInfo m d by_ = Some m' ->
  let r := route_of m d in let n := r_reach r - taken by_ in
  same_rest m m' /\ (forall x, x <> d -> route_of m' x = route_of m x) /\ (by_ <> None -> 0 <= n) /\
  ((0 < n /\ fees_of m' = fees_of m /\ routes m' = routes m /\ exists nx, (if moved by_ (r_next r) then resolveIn m (links m) d = Some nx else nx = r_next r) /\
    route_of m' d = Route nx n (match by_ with None => TReachable | Some _ => r_type r end)) \/
   (n <= 0 /\ routes m <> [] /\ routes m' = swap_out bytes_eqb d (routes m) /\ route_of m' d = no_route /\ fees_of m' d = [] /\ forall x, x <> d -> fees_of m' x = fees_of m x)).
Proof.
  intros m d by_ m' E r n. unfold removeRouteInfo in E. bnd E m1 F1.
  assert (A : same_rest m m1 /\ fees_of m1 = fees_of m /\ routes m1 = routes m /\ (forall x, x <> d -> route_of m1 x = route_of m x) /\ (by_ <> None -> 0 <= n) /\ route_of m1 d = Route (r_next r) n (r_type r)).
  { destruct by_ as [k|].
    - cbv zeta in F1. bnd F1 q F2. same F1. unfold csub in F2. destruct (_ <? _) eqn:Q; [discriminate|]. assert (q = r_reach r - 1) by (subst r; congruence). subst q.
      split; [constructor; reflexivity|]. split; [reflexivity|]. split; [reflexivity|]. split; [intros x N; cbn [set_route set_routes route_of]; apply tset_other, N|]. split; [intros _; subst n; cbn [taken]; subst r; lia|].
      cbn [set_route set_routes route_of]. rewrite tset_same. reflexivity.
    - same F1. split; [apply same_rest_refl|]. split; [reflexivity|]. split; [reflexivity|]. split; [reflexivity|]. split; [congruence|]. subst n. cbn [taken]. rewrite Z.sub_0_r. subst r. destruct (route_of m d). reflexivity. }
  destruct A as (A1 & A2 & A3 & A4 & A5 & A6). cbv zeta in E. rewrite A6 in E. cbn [r_reach r_next r_type] in E. destruct (0 <? n) eqn:Q.
  - bnd E m2 F2. fold (moved by_ (r_next r)) in F2.
    assert (B : same_rest m m2 /\ fees_of m2 = fees_of m /\ routes m2 = routes m /\ (forall x, x <> d -> route_of m2 x = route_of m x) /\ exists nx, (if moved by_ (r_next r) then resolveIn m (links m) d = Some nx else nx = r_next r) /\ route_of m2 d = Route nx n (r_type r)).
    { destruct (moved by_ (r_next r)).
      - bnd F2 nx F3. same F2. unfold resolveNextInReachable in F3. rewrite (sr_links _ _ A1) in F3. rewrite (resolveIn_ext _ m) in F3 by (intros; rewrite (sr_link _ _ A1); reflexivity).
        split; [eapply same_rest_trans; [exact A1|constructor; reflexivity]|]. split; [exact A2|]. split; [exact A3|]. split; [intros x N; cbn [set_route set_routes route_of]; rewrite tset_other by exact N; apply A4, N|].
        exists nx. split; [exact F3|]. cbn [set_route set_routes route_of]. rewrite tset_same. reflexivity.
      - same F2. split; [exact A1|]. split; [exact A2|]. split; [exact A3|]. split; [exact A4|]. exists (r_next r). split; [reflexivity|exact A6]. }
    destruct B as (B1 & B2 & B3 & B4 & nx & B5 & B6). destruct by_ as [k|].
    + same E. split; [exact B1|]. split; [exact B4|]. split; [exact A5|]. left. split; [lia|]. split; [exact B2|]. split; [exact B3|]. exists nx. split; [exact B5|exact B6].
    + cbv zeta in E. rewrite B6 in E. cbn [r_next r_reach] in E. same E. split; [eapply same_rest_trans; [exact B1|constructor; reflexivity]|].
      split; [intros x N; cbn [set_route set_routes route_of]; rewrite tset_other by exact N; apply B4, N|]. split; [exact A5|]. left. split; [lia|]. split; [exact B2|]. split; [exact B3|].
      exists nx. split; [exact B5|]. cbn [set_route set_routes route_of]. rewrite tset_same. reflexivity.
  - bnd E l F2. same E. apply removeFrom_some in F2 as [F2 F3]. rewrite A3 in F2, F3. split; [eapply same_rest_trans; [exact A1|constructor; reflexivity]|].
    split; [intros x N; cbn [removeFee set_fees set_routes route_of]; rewrite tset_other by exact N; apply A4, N|]. split; [exact A5|]. right. split; [lia|]. split; [exact F2|]. split; [exact F3|].
    split; [cbn [removeFee set_fees set_routes route_of]; apply tset_same|]. split; [cbn [removeFee set_fees fees_of]; apply tset_same|]. intros x N. cbn [removeFee set_fees set_routes fees_of]. rewrite tset_other by exact N. rewrite A2. reflexivity.
Qed.
(** it succeeds if the count allows it, a next link is found when wanted, and the route is listed when it is to go *)
Lemma removeRouteInfo_ok : forall m d by_, let r := route_of m d in let n := r_reach r - taken by_ in
  (by_ <> None -> 0 <= n) -> (0 < n -> resolveIn m (links m) d <> None) -> (n <= 0 -> In d (routes m)) -> exists m', removeRouteInfo m d by_ = Some m'.
Proof.
  intros m d by_ r n A B C. unfold removeRouteInfo.
  match goal with |- exists m', sbind ?x _ = _ => set (y := x) end. assert (X : exists m1, y = Some m1 /\ links m1 = links m /\ link_of m1 = link_of m /\ routes m1 = routes m /\ route_of m1 d = Route (r_next r) n (r_type r)).
  { subst y. destruct by_ as [k|].
    - cbv zeta. unfold csub. specialize (A ltac:(discriminate)). cbn [taken] in n. fold r. replace (r_reach r <? 1) with false by lia. cbn [sbind]. eexists. split; [reflexivity|]. split; [reflexivity|]. split; [reflexivity|]. split; [reflexivity|].
      cbn [set_route set_routes route_of]. rewrite tset_same. reflexivity.
    - exists m. split; [reflexivity|]. split; [reflexivity|]. split; [reflexivity|]. split; [reflexivity|]. subst n. cbn [taken]. rewrite Z.sub_0_r. subst r. destruct (route_of m d). reflexivity. }
  destruct X as (m1 & E & L1 & L2 & L3 & L4). rewrite E. cbn [sbind]. cbv zeta. rewrite L4. cbn [r_reach r_next r_type]. destruct (0 <? n) eqn:Q.
  - destruct (resolveIn m (links m) d) as [nx|] eqn:R; [|exfalso; apply B; [lia|reflexivity]]. unfold resolveNextInReachable. rewrite L1, (resolveIn_ext _ m) by (intros; rewrite L2; reflexivity). rewrite R. cbn [sbind].
    destruct (match by_ with None => true | Some link => _ end); cbn [sbind]; eexists; reflexivity.
  - rewrite L3. rewrite (removeFrom_in bytes_eqb) by (apply C; lia). cbn [sbind]. eexists. reflexivity.
Qed.

(** ** tables agree with lists *)
Record tidyR (m : man) : Prop := TidyR {
  tr_nodup : NoDup (routes m); tr_in : forall d, In d (routes m) <-> r_type (route_of m d) <> TNone; tr_none : forall d, r_type (route_of m d) = TNone -> route_of m d = no_route;
  tr_reach : forall d, 0 <= r_reach (route_of m d) /\ (r_type (route_of m d) = TReachable -> 0 < r_reach (route_of m d));
  tr_fees : forall d, fees_of m d <> [] -> r_type (route_of m d) <> TNone /\ Nat.even (length (fees_of m d)) = true }.
Lemma tidyR_same : forall m m', tidyR m -> routes m' = routes m -> route_of m' = route_of m -> fees_of m' = fees_of m -> tidyR m'.
Proof. intros m m' [A B C D E] E1 E2 E3. constructor; rewrite ?E1, ?E2, ?E3; assumption. Qed.
(** one route changes *)
Lemma tidyR_change : forall m m' d, tidyR m -> (forall x, x <> d -> route_of m' x = route_of m x) ->
  NoDup (routes m') -> (forall x, x <> d -> (In x (routes m') <-> In x (routes m))) -> (In d (routes m') <-> r_type (route_of m' d) <> TNone) ->
  (r_type (route_of m' d) = TNone -> route_of m' d = no_route) -> 0 <= r_reach (route_of m' d) -> (r_type (route_of m' d) = TReachable -> 0 < r_reach (route_of m' d)) ->
  (forall x, x <> d -> fees_of m' x = fees_of m x) -> (fees_of m' d <> [] -> r_type (route_of m' d) <> TNone /\ Nat.even (length (fees_of m' d)) = true) -> tidyR m'.
Proof.
  intros m m' d [A B C D E] R N L1 L2 Z1 Z2 Z3 F1 F2. constructor; [exact N| | | |]; intros x; (destruct (text_dec x d) as [->|X]; [|rewrite ?R, ?F1, ?L1 by exact X]); auto.
Qed.
Lemma tidyR_add : forall m d k t, tidyR m -> t <> TNone -> tidyR (addRouteInfo m d k t).
Proof.
  intros m d k t T NT. pose proof (addRouteInfo_is m d k t) as (_ & Q1 & Q2 & Q3 & Q4). set (m' := addRouteInfo m d k t) in *. pose proof (tr_reach m T d) as [R1 R2].
  assert (NN : r_type (newroute (route_of m d) k t) <> TNone).
  { unfold newroute. destruct (rtype_eqb _ _) eqn:E; destruct t; cbn [r_type]; try congruence; apply rtype_none, E. }
  apply (tidyR_change m m' d T); [exact Q4| | | | | | | |].
  - rewrite Q2. destruct (rtype_eqb (r_type (route_of m d)) TNone) eqn:E; [|apply T]. apply nodup_more; [apply T|]. rewrite (tr_in m T). apply rtype_eqb_spec in E. tauto.
  - intros x N. rewrite Q2. destruct (rtype_eqb _ _); [|tauto]. rewrite in_app_iff. cbn [In]. split; [intros [H|[H|[]]]; [exact H|congruence]|auto].
  - rewrite Q3. split; [intros _; exact NN|]. intros _. rewrite Q2. destruct (rtype_eqb _ _) eqn:E; [apply in_or_app; right; left; reflexivity|]. apply (tr_in m T), rtype_none, E.
  - rewrite Q3. congruence.
  - rewrite Q3. unfold newroute. destruct (rtype_eqb _ _); destruct t; cbn [r_reach]; lia.
  - rewrite Q3. unfold newroute. destruct (rtype_eqb _ _) eqn:E; destruct t; cbn [r_reach r_type]; intros X; try discriminate; try lia; apply R2, X.
  - intros x N. rewrite Q1. reflexivity.
  - rewrite Q1, Q3. intros F. split; [exact NN|]. apply (tr_fees m T), F.
Qed.
Lemma tidyR_remove : forall m d by_ m', tidyR m -> removeRouteInfo m d by_ = Some m' -> tidyR m'.
Proof.
  intros m d by_ m' T E. pose proof (tr_reach m T d) as [R1 R2]. apply removeRouteInfo_is in E. cbv zeta in E. destruct E as (Q1 & Q2 & Q3 & [(P1 & P2 & P3 & nx & P4 & P5)|(P1 & P2 & P3 & P4 & P5 & P6)]).
  - assert (NN : r_type (route_of m d) <> TNone).
    { intros X. apply (tr_none m T) in X. rewrite X in P1. cbn [no_route r_reach] in P1. destruct by_; cbn [taken] in P1; lia. }
    apply (tidyR_change m m' d T); [exact Q2| | | | | | | |].
    + rewrite P3. apply T.
    + intros x N. rewrite P3. tauto.
    + rewrite P3, P5. cbn [r_type]. rewrite (tr_in m T). destruct by_; [tauto|]. split; [discriminate|intros _; exact NN].
    + rewrite P5. cbn [r_type]. destruct by_; [congruence|discriminate].
    + rewrite P5. cbn [r_reach]. lia.
    + rewrite P5. cbn [r_reach]. lia.
    + intros x N. rewrite P2. reflexivity.
    + rewrite P2, P5. cbn [r_type]. intros F. split; [destruct by_; [exact NN|discriminate]|]. apply (tr_fees m T), F.
  - pose proof (swap_out_nodup bytes_eqb bytes_eqb_spec d (routes m) (tr_nodup m T)) as [S1 S2]. apply (tidyR_change m m' d T); [exact Q2| | | | | | | |].
    + rewrite P3. exact S1.
    + intros x N. rewrite P3, S2. tauto.
    + rewrite P3, P4, S2. cbn [no_route r_type]. split; [intros [_ X]; congruence|congruence].
    + intros _. exact P4.
    + rewrite P4. cbn [no_route r_reach]. lia.
    + rewrite P4. cbn [no_route r_type]. discriminate.
    + exact P6.
    + congruence.
Qed.
Lemma tidyR_announce : forall m f a m', tidyR m -> addReachable m f a = Some m' -> tidyR m'.
Proof. intros m f a m' T E. unfold addReachable in E. cbv zeta in E. bnd E n F. same E. apply tidyR_add; [|discriminate]. eapply tidyR_same; [exact T|reflexivity..]. Qed.
Lemma tidyR_withdraw : forall m f a m', tidyR m -> removeReachable m f a = Some m' -> tidyR m'.
Proof. intros m f a m' T E. unfold removeReachable in E. cbv zeta in E. bnd E l F. bnd E n F2. eapply tidyR_remove; [|exact E]. eapply tidyR_same; [exact T|reflexivity..]. Qed.
Lemma tidyR_reached : forall l m k m', tidyR m -> removeReached m k l = Some m' -> tidyR m'.
Proof.
  induction l as [|a l IH]; intros m k m' T E; cbn [removeReached] in E; [same E; exact T|]. bnd E n F1. bnd E m1 F2. eapply IH; [|exact E]. eapply tidyR_remove; eassumption.
Qed.
Lemma tidyR_step : forall m e m', tidyR m -> tstep m e = Some m' -> tidyR m'.
Proof.
  intros m e m' T E. destruct e as [f a|f a|k|k|d n|d]; cbn [tstep] in E.
  - eapply tidyR_announce; eassumption.
  - eapply tidyR_withdraw; eassumption.
  - unfold t_addLink in E. bnd E n F1. chk E H1. chk E H2. same E. apply tidyR_add; [|discriminate]. eapply tidyR_same; [exact T|reflexivity..].
  - unfold t_removeLink in E. chk E H1. chk E H2. bnd E n F1. bnd E m1 F2. bnd E l F3. cbv zeta in E. bnd E m2 F4. same E.
    assert (T1 : tidyR m1) by (eapply tidyR_remove; eassumption). assert (T2 : tidyR m2) by (eapply tidyR_reached; [|exact F4]; eapply tidyR_same; [exact T1|reflexivity..]). eapply tidyR_same; [exact T2|reflexivity..].
  - chk E H. same E. apply tidyR_add; [exact T|discriminate].
  - chk E H. eapply tidyR_remove; eassumption.
Qed.
Lemma tidyR_run : forall es m m', tidyR m -> trun m es = Some m' -> tidyR m'.
Proof. induction es as [|e es IH]; intros m m' T E; cbn [trun] in E; [same E; exact T|]. bnd E m1 F. eapply IH; [|exact E]. eapply tidyR_step; eassumption. Qed.
Lemma trun_app : forall a m b, trun m (a ++ b) = sbind (trun m a) (fun m => trun m b).
Proof. induction a as [|e a IH]; intros m b; cbn [trun app sbind]; [reflexivity|]. destruct (tstep m e); cbn [sbind]; [apply IH|reflexivity]. Qed.
