(** Theorems about the enumerable dictionary: C52. *)
From Coq Require Import String Ascii ZArith List Bool Lia Arith Permutation.
From Verif Require Import Base M_JDict M_JMap L_JMap S_JDict.
Import ListNotations.
Open Scope nat_scope.

Section DICT.
Context {K V : Type} (keqb : K -> K -> bool) (KS : key_spec keqb).

Definition rep (d : dict K V) (l : list (K * V)) : Prop :=
  NoDup (map fst l) /\ d_values d = map snd l /\
  (forall k i, d_indexes d k = Some i <-> nth_error (map fst l) i = Some k) /\
  (forall i k, nth_error (map fst l) i = Some k -> d_keys d i = Some k).

Lemma rep_empty : rep d_empty [].
Proof. repeat split; cbn; try constructor; intros; destruct i; discriminate. Qed.

Lemma nth_split : forall (l : list (K * V)) i k, nth_error (map fst l) i = Some k -> exists l1 v l2, l = l1 ++ (k, v) :: l2 /\ length l1 = i.
Proof.
  intros l. induction l as [|[k' v'] l IH]; intros i k E; [destruct i; discriminate|]. destruct i as [|i]; cbn [map fst nth_error] in E.
  - injection E as ->. exists [], v', l. split; reflexivity.
  - destruct (IH _ _ E) as (l1 & v & l2 & -> & EL). exists ((k', v') :: l1), v, l2. cbn [app length]. split; congruence.
Qed.
Lemma nth_mid : forall {T} (l1 : list T) x l2, nth_error (l1 ++ x :: l2) (length l1) = Some x.
Proof. intros T l1 x l2. induction l1 as [|y l1 IH]; [reflexivity|exact IH]. Qed.
Lemma dset_mid : forall (l1 : list V) x l2 y, dset_value (l1 ++ x :: l2) (length l1) y = l1 ++ y :: l2.
Proof. intros l1 x l2 y. induction l1 as [|z l1 IH]; [reflexivity|]. cbn [app length dset_value]. rewrite IH. reflexivity. Qed.
Lemma aput_mid : forall k v v' (l1 l2 : list (K * V)), ~ In k (map fst l1) -> aput keqb k v (l1 ++ (k, v') :: l2) = l1 ++ (k, v) :: l2.
Proof.
  intros k v v' l1 l2. induction l1 as [|[k2 v2] l1 IH]; intros N; cbn [app aput map fst In] in *; [rewrite (keqb_refl keqb KS); reflexivity|].
  rewrite (keqb_false keqb KS) by (intros ->; tauto). rewrite IH by tauto. reflexivity.
Qed.
Lemma adel_mid : forall k v (l1 l2 : list (K * V)), ~ In k (map fst l1) ->
  adel keqb k (l1 ++ (k, v) :: l2) = l1 ++ match l2 with [] => [] | x :: _ => last l2 x :: removelast l2 end.
Proof.
  intros k v l1 l2. induction l1 as [|[k2 v2] l1 IH]; intros N; cbn [app adel map fst In] in *; [rewrite (keqb_refl keqb KS); reflexivity|].
  rewrite (keqb_false keqb KS) by (intros ->; tauto). rewrite IH by tauto. reflexivity.
Qed.
Lemma aget_mid : forall k v (l1 l2 : list (K * V)), ~ In k (map fst l1) -> aget keqb k (l1 ++ (k, v) :: l2) = Some v.
Proof.
  intros k v l1 l2. induction l1 as [|[k2 v2] l1 IH]; intros N; cbn [app aget map fst In] in *; [rewrite (keqb_refl keqb KS); reflexivity|].
  rewrite (keqb_false keqb KS) by (intros ->; tauto). apply IH. tauto.
Qed.
Lemma nodup_mid : forall (l1 l2 : list K) k, NoDup (l1 ++ k :: l2) -> ~ In k l1 /\ ~ In k l2.
Proof. intros l1 l2 k ND. apply NoDup_remove_2 in ND. rewrite in_app_iff in ND. tauto. Qed.

Lemma rep_index : forall d l k, rep d l ->
  (d_indexes d k = None /\ ~ In k (map fst l)) \/
  exists l1 v l2, l = l1 ++ (k, v) :: l2 /\ d_indexes d k = Some (length l1) /\ ~ In k (map fst l1) /\ ~ In k (map fst l2) /\ nth_error (d_values d) (length l1) = Some v.
Proof.
  intros d l k (ND & EV & EI & EK). destruct (d_indexes d k) as [i|] eqn:E.
  - right. apply EI in E. destruct (nth_split _ _ _ E) as (l1 & v & l2 & -> & <-). exists l1, v, l2. split; [reflexivity|]. split; [reflexivity|].
    rewrite map_app in ND. cbn [map fst] in ND. apply nodup_mid in ND as [N1 N2]. split; [exact N1|]. split; [exact N2|].
    rewrite EV, map_app. cbn [map snd]. rewrite <- (map_length snd l1). apply nth_mid.
  - left. split; [reflexivity|]. intros HI. apply In_nth_error in HI as [i Hi]. apply EI in Hi. congruence.
Qed.

Lemma rep_get : forall d l k, rep d l -> d_get d k = aget keqb k l.
Proof.
  intros d l k HR. unfold d_get, getValue. destruct (rep_index d l k HR) as [[E N]|(l1 & v & l2 & -> & E & N1 & N2 & EN)]; rewrite E.
  - symmetry. apply aget_none; assumption.
  - rewrite EN. symmetry. apply aget_mid, N1.
Qed.

Lemma rep_put : forall d l k v, rep d l -> rep (d_put keqb d k v) (aput keqb k v l).
Proof.
  intros d l k v HR. pose proof HR as (ND & EV & EI & EK). unfold d_put.
  destruct (rep_index d l k HR) as [[E N]|(l1 & v0 & l2 & -> & E & N1 & N2 & EN)]; rewrite E.
  - rewrite aput_new by assumption. cbv zeta. rewrite app_length. cbn [length]. rewrite Nat.add_sub.
    assert (EL : length (d_values d) = length (map fst l)) by (rewrite EV, !map_length; reflexivity).
    unfold rep. rewrite map_app. cbn [map fst d_values d_indexes d_keys]. split; [apply nodup_snoc; assumption|]. split; [rewrite EV, map_app; reflexivity|]. split.
    + intros k' i. unfold dset_index. destruct (keqb_case keqb KS k k') as [->|[Nk EF]].
      * rewrite (keqb_refl keqb KS). split; [intros X; injection X as <-; rewrite EL; apply nth_mid|]. intros X. f_equal. rewrite EL.
        destruct (Nat.lt_ge_cases i (length (map fst l))) as [L|G]; [rewrite nth_error_app1 in X by exact L; apply nth_error_In in X; tauto|].
        rewrite nth_error_app2 in X by exact G. destruct (i - length (map fst l)) as [|[|?]] eqn:EI2; cbn [nth_error] in X; [lia|discriminate|discriminate].
      * rewrite EF. rewrite EI. destruct (Nat.lt_ge_cases i (length (map fst l))) as [L|G]; [rewrite nth_error_app1 by exact L; tauto|].
        rewrite nth_error_app2 by exact G. split; [intros X; assert (nth_error (map fst l) i <> None) by congruence; apply nth_error_Some in H; lia|].
        destruct (i - length (map fst l)) as [|[|?]]; cbn [nth_error]; intros X; [congruence|discriminate|discriminate].
    + intros i k' X. unfold dset_key. destruct (Nat.eqb_spec (length (d_values d)) i) as [<-|Ni].
      * rewrite EL, nth_mid in X. exact X.
      * apply EK. destruct (Nat.lt_ge_cases i (length (map fst l))) as [L|G]; [rewrite nth_error_app1 in X by exact L; exact X|].
        rewrite nth_error_app2 in X by exact G. destruct (i - length (map fst l)) as [|[|?]] eqn:EI2; cbn [nth_error] in X; [lia|discriminate|discriminate].
  - rewrite EN. rewrite aput_mid by exact N1. unfold rep. cbn [d_values d_indexes d_keys]. rewrite EV, !map_app in *. cbn [map fst snd] in *.
    split; [exact ND|]. split; [rewrite <- (map_length snd l1), dset_mid; reflexivity|]. split; assumption.
Qed.

Lemma rep_remove : forall d l k, rep d l -> rep (d_remove keqb d k) (adel keqb k l).
Proof.
  intros d l k HR. pose proof HR as (ND & EV & EI & EK). unfold d_remove.
  destruct (rep_index d l k HR) as [[E N]|(l1 & v0 & l2 & -> & E & N1 & N2 & EN)]; rewrite E.
  - rewrite (adel_none keqb k l) by (apply aget_none; assumption). exact HR.
  - rewrite EN. rewrite adel_mid by exact N1. rewrite map_app in EV, ND. cbn [map fst snd] in EV, ND.
    assert (NDR : NoDup (map fst l1 ++ map fst l2)) by (apply NoDup_remove_1 in ND; exact ND).
    destruct l2 as [|x2 l2'].
    + (* the last entry *)
      cbn [map] in EV. rewrite app_nil_r.
      assert (EP : removelast (d_values d) = map snd l1) by (rewrite EV; apply removelast_last).
      assert (ELast : nth_error (d_values d) (length (d_values d) - 1) = Some v0).
      { rewrite EV, app_length. cbn [length]. rewrite Nat.add_sub. apply nth_mid. }
      rewrite ELast, EP, map_length, Nat.eqb_refl. cbv zeta. rewrite map_length, Nat.eqb_refl.
      unfold rep. cbn [d_values d_indexes d_keys]. cbn [map] in NDR. rewrite app_nil_r in NDR. split; [exact NDR|]. split; [reflexivity|]. split.
      * intros k' i. unfold dset_index. destruct (keqb_case keqb KS k k') as [->|[Nk EF]].
        -- rewrite (keqb_refl keqb KS). split; [discriminate|]. intros X. apply nth_error_In in X. tauto.
        -- rewrite EF, EI, map_app. cbn [map fst]. destruct (Nat.lt_ge_cases i (length (map fst l1))) as [L|G]; [rewrite nth_error_app1 by exact L; tauto|].
           rewrite nth_error_app2 by exact G. split; [|intros X; assert (nth_error (map fst l1) i <> None) by congruence; apply nth_error_Some in H; lia].
           destruct (i - length (map fst l1)) as [|[|?]]; cbn [nth_error]; intros X; [congruence|discriminate|discriminate].
      * intros i k' X. assert (L : i < length (map fst l1)) by (apply nth_error_Some; congruence). unfold dset_key. rewrite map_length in L.
        destruct (Nat.eqb_spec (length l1) i); [lia|]. apply EK. rewrite map_app. rewrite nth_error_app1 by (rewrite map_length; exact L). exact X.
    + (* the last entry moves *)
      destruct (exists_last (l := x2 :: l2') ltac:(discriminate)) as (m & [kl vl] & Em). replace (last (x2 :: l2') x2 :: removelast (x2 :: l2')) with ((kl, vl) :: m) by (rewrite Em, last_last, removelast_last; reflexivity).
      rewrite Em in *. clear Em x2 l2'.
      rewrite map_app in EV, ND, NDR, N2. cbn [map fst snd] in *.
      assert (EV' : d_values d = (map snd l1 ++ v0 :: map snd m) ++ [vl]) by (rewrite EV, <- app_assoc; reflexivity).
      assert (EP : removelast (d_values d) = map snd l1 ++ v0 :: map snd m) by (rewrite EV'; apply removelast_last).
      assert (ELast : nth_error (d_values d) (length (d_values d) - 1) = Some vl).
      { rewrite EV', (app_length _ [vl]). cbn [length]. rewrite Nat.add_sub. apply nth_mid. }
      rewrite ELast, EP. assert (EL : length (map snd l1 ++ v0 :: map snd m) = length l1 + S (length m)) by (rewrite app_length; cbn [length]; rewrite !map_length; reflexivity).
      rewrite EL. destruct (Nat.eqb_spec (length l1) (length l1 + S (length m))) as [X|_]; [lia|]. 
      assert (ED : dset_value (map snd l1 ++ v0 :: map snd m) (length l1) vl = map snd l1 ++ vl :: map snd m) by (rewrite <- (map_length snd l1); apply dset_mid).
      rewrite ED. cbv zeta.
      assert (EL2 : length (map snd l1 ++ vl :: map snd m) = length l1 + S (length m)) by (rewrite app_length; cbn [length]; rewrite !map_length; reflexivity).
      rewrite EL2. destruct (Nat.eqb_spec (length l1) (length l1 + S (length m))) as [X|_]; [lia|].
      assert (EKeys : map fst (l1 ++ (k, v0) :: m ++ [(kl, vl)]) = (map fst l1 ++ k :: map fst m) ++ [kl]) by (rewrite map_app; cbn [map fst]; rewrite map_app; cbn [map fst]; rewrite <- app_assoc; reflexivity).
      assert (EKL : d_keys d (length l1 + S (length m)) = Some kl).
      { apply EK. rewrite EKeys. replace (length l1 + S (length m)) with (length (map fst l1 ++ k :: map fst m)) by (rewrite app_length; cbn [length]; rewrite !map_length; reflexivity). apply nth_mid. }
      rewrite EKL. unfold rep. cbn [d_values d_indexes d_keys]. rewrite !map_app. cbn [map fst snd].
      assert (NDN : NoDup (map fst l1 ++ kl :: map fst m)).
      { rewrite app_assoc in NDR. apply (Permutation_NoDup (l := (map fst l1 ++ map fst m) ++ [kl])); [|exact NDR].
        rewrite <- app_assoc. apply Permutation_app_head. apply Permutation_app_comm. }
      assert (NKL : kl <> k) by (intros ->; apply N2; rewrite in_app_iff; right; left; reflexivity).
      assert (NKL2 : ~ In kl (map fst l1) /\ ~ In kl (map fst m)) by (apply nodup_mid, NDN).
      split; [exact NDN|]. split; [reflexivity|]. split.
      * intros k' i. unfold dset_index. destruct (keqb_case keqb KS kl k') as [->|[Nk EF]].
        -- rewrite (keqb_refl keqb KS). split; [intros X; injection X as <-; rewrite <- (map_length fst l1); apply nth_mid|]. intros X. f_equal.
           destruct (Nat.lt_trichotomy i (length l1)) as [L|[->|G]]; [|reflexivity|].
           ++ rewrite nth_error_app1 in X by (rewrite map_length; exact L). apply nth_error_In in X. tauto.
           ++ rewrite nth_error_app2 in X by (rewrite map_length; lia). rewrite map_length in X. destruct (i - length l1) as [|j] eqn:EJ; [lia|]. cbn [nth_error] in X. apply nth_error_In in X. tauto.
        -- rewrite EF. destruct (keqb_case keqb KS k k') as [->|[Nk2 EF2]].
           ++ rewrite (keqb_refl keqb KS). split; [discriminate|]. intros X. apply nth_error_In in X. rewrite in_app_iff in X. cbn [In] in X. rewrite in_app_iff in N2. cbn [In] in N2. destruct X as [X|[X|X]]; tauto.
           ++ rewrite EF2, EI, EKeys.
              destruct (Nat.lt_trichotomy i (length l1)) as [L|[->|G]].
              ** rewrite <- app_assoc. rewrite (nth_error_app1 (map fst l1) (_ ++ [kl])) by (rewrite map_length; exact L). rewrite (nth_error_app1 (map fst l1) (kl :: map fst m)) by (rewrite map_length; exact L). tauto.
              ** rewrite <- app_assoc. rewrite (nth_error_app2 (map fst l1) (_ ++ [kl])) by (rewrite map_length; lia). rewrite (nth_error_app2 (map fst l1) (kl :: map fst m)) by (rewrite map_length; lia). rewrite map_length, Nat.sub_diag. cbn [nth_error app]. split; intros X; congruence.
              ** rewrite <- app_assoc. rewrite (nth_error_app2 (map fst l1) (_ ++ [kl])) by (rewrite map_length; lia). rewrite (nth_error_app2 (map fst l1) (kl :: map fst m)) by (rewrite map_length; lia). rewrite map_length. destruct (i - length l1) as [|j] eqn:EJ; [lia|]. cbn [nth_error app].
                 destruct (Nat.lt_ge_cases j (length (map fst m))) as [L2|G2]; [rewrite nth_error_app1 by exact L2; tauto|]. rewrite nth_error_app2 by exact G2.
                 split; [|intros X; assert (nth_error (map fst m) j <> None) by congruence; apply nth_error_Some in H; lia].
                 destruct (j - length (map fst m)) as [|[|?]]; cbn [nth_error]; intros X; [congruence|discriminate|discriminate].
      * intros i k' X. unfold dset_key. destruct (Nat.eqb_spec (length l1) i) as [<-|Ni].
        -- rewrite nth_error_app2 in X by (rewrite map_length; lia). rewrite map_length, Nat.sub_diag in X. exact X.
        -- apply EK. rewrite EKeys, <- app_assoc. destruct (Nat.lt_ge_cases i (length l1)) as [L|G].
           ++ rewrite nth_error_app1 in X by (rewrite map_length; exact L). rewrite nth_error_app1 by (rewrite map_length; exact L). exact X.
           ++ rewrite nth_error_app2 in X by (rewrite map_length; lia). rewrite nth_error_app2 by (rewrite map_length; lia). rewrite map_length in *. destruct (i - length l1) as [|j] eqn:EJ; [lia|]. cbn [nth_error app] in *.
              rewrite nth_error_app1; [exact X|]. apply nth_error_Some. congruence.
Qed.

Lemma clear_inv : forall n i (d : dict K V) (l : list (K * V)), NoDup (map fst l) -> i + n = length l -> length (d_values d) = n ->
  (forall k j, d_indexes d k = Some j <-> i <= j /\ nth_error (map fst l) j = Some k) ->
  (forall j k, i <= j -> nth_error (map fst l) j = Some k -> d_keys d j = Some k) ->
  d_values (d_clear_from keqb n i d) = [] /\ forall k, d_indexes (d_clear_from keqb n i d) k = None.
Proof.
  induction n as [|n IH]; intros i d l ND EL EV EI EK; cbn [d_clear_from].
  - split; [destruct (d_values d); [reflexivity|discriminate]|]. intros k. destruct (d_indexes d k) as [j|] eqn:E; [|reflexivity].
    apply EI in E as [E1 E2]. assert (nth_error (map fst l) j <> None) by congruence. apply nth_error_Some in H. rewrite map_length in H. lia.
  - destruct (nth_error (map fst l) i) as [k|] eqn:Ek; [|apply nth_error_None in Ek; rewrite map_length in Ek; lia].
    pose proof (EK i k (le_n i) Ek) as Ek2. rewrite Ek2. apply (IH (S i) _ l ND); [lia| | |]; cbn [d_values d_indexes d_keys].
    + destruct (d_values d) as [|v vs] eqn:E2; [discriminate|]. assert (X : length (v :: vs) = length (removelast (v :: vs) ++ [last (v :: vs) v])) by (rewrite <- app_removelast_last; [reflexivity|discriminate]).
      rewrite app_length in X. cbn [length] in *. lia.
    + intros k' j. unfold dset_index. destruct (keqb_case keqb KS k k') as [->|[N EF]].
      * rewrite (keqb_refl keqb KS). split; [discriminate|]. intros [X1 X2]. exfalso. assert (i = j); [|lia].
        apply (proj1 (NoDup_nth_error (map fst l)) ND); [apply nth_error_Some; congruence|congruence].
      * rewrite EF, EI. split; [|intros [? ?]; split; [lia|assumption]]. intros [X1 X2]. split; [|exact X2]. destruct (Nat.eq_dec i j) as [->|]; [congruence|lia].
    + intros j k' Hj Hk. unfold dset_key. destruct (Nat.eqb_spec i j); [lia|]. apply EK; [lia|exact Hk].
Qed.
Lemma rep_clear : forall d l, rep d l -> rep (d_clear keqb d) [].
Proof.
  intros d l (ND & EV & EI & EK). assert (EL : length (d_values d) = length l) by (rewrite EV, map_length; reflexivity).
  destruct (clear_inv (d_size d) 0 d l ND) as [X1 X2]; [unfold d_size; lia|reflexivity|intros k j; rewrite EI; split; [intros X; split; [lia|exact X]|tauto]|intros; apply EK; assumption|].
  unfold d_clear. split; [constructor|]. split; [exact X1|]. split; [|intros [|i] k X; discriminate].
  intros k i. rewrite X2. split; [discriminate|]. destruct i; discriminate.
Qed.

(** The contract runs the operations, the last of the list first. *)
Fixpoint run_dict (ops : list (dop K V)) : dict K V :=
  match ops with
  | [] => d_empty
  | DPut k v :: r => d_put keqb (run_dict r) k v
  | DRemove k :: r => d_remove keqb (run_dict r) k
  | DClear :: r => d_clear keqb (run_dict r)
  end.
Fixpoint run_list (ops : list (dop K V)) : list (K * V) :=
  match ops with
  | [] => []
  | DPut k v :: r => aput keqb k v (run_list r)
  | DRemove k :: r => adel keqb k (run_list r)
  | DClear :: r => []
  end.
Lemma run_rep : forall ops, rep (run_dict ops) (run_list ops).
Proof.
  induction ops as [|[k v|k|] r IH]; cbn [run_dict run_list]; [apply rep_empty|apply rep_put, IH|apply rep_remove, IH|apply rep_clear with (1 := IH)].
Qed.
Lemma run_holds : forall ops k v, aget keqb k (run_list ops) = Some v <-> holds ops k v.
Proof.
  induction ops as [|[k0 v0|k0|] r IH]; intros k v; cbn [run_list].
  - split; [discriminate|intros X; inversion X].
  - destruct (keqb_case keqb KS k0 k) as [->|[N _]].
    + rewrite (aput_same keqb KS). split; [intros E; injection E as ->; constructor|]. intros X. inversion X; subst; [reflexivity|congruence].
    + rewrite (aput_other keqb KS) by congruence. rewrite IH. split; [intros X; constructor; [congruence|exact X]|intros X; inversion X; subst; [congruence|assumption]].
  - pose proof (proj1 (run_rep r)) as ND. destruct (keqb_case keqb KS k0 k) as [->|[N _]].
    + rewrite (adel_same keqb KS) by exact ND. split; [discriminate|intros X; inversion X; subst; congruence].
    + rewrite (adel_other keqb KS) by (assumption || congruence). rewrite IH. split; [intros X; constructor; [congruence|exact X]|intros X; inversion X; subst; assumption].
  - split; [discriminate|intros X; inversion X].
Qed.
End DICT.

(** Whatever was put, removed and cleared, get and containsKey answer as a map would. *)
Theorem C52_get : forall (K V : Type) (keqb : K -> K -> bool) (ops : list (dop K V)) k v, key_spec keqb ->
  d_get (run_dict keqb ops) k = Some v <-> holds ops k v.
Proof. intros K V keqb ops k v KS. rewrite (rep_get keqb KS _ _ k (run_rep keqb KS ops)). apply run_holds, KS. Qed.
Print Assumptions C52_get.

Theorem C52_contains_key : forall (K V : Type) (keqb : K -> K -> bool) (ops : list (dop K V)) k, key_spec keqb ->
  d_containsKey (run_dict keqb ops) k = true <-> exists v, holds ops k v.
Proof.
  intros K V keqb ops k KS. unfold d_containsKey. destruct (rep_index _ _ k (run_rep keqb KS ops)) as [[E N]|(l1 & v & l2 & EL & E & N1 & N2 & EN)]; rewrite E.
  - split; [discriminate|]. intros [v X]. apply (run_holds keqb KS) in X. apply (proj2 (aget_none keqb KS k _)) in N. congruence.
  - split; [|reflexivity]. intros _. exists v. apply (run_holds keqb KS). rewrite EL. apply aget_mid; assumption.
Qed.
Print Assumptions C52_contains_key.

Lemma seq_map : forall {K} (f : nat -> option K) (l : list K) off, (forall i k, nth_error l i = Some k -> f (off + i) = Some k) -> map f (seq off (length l)) = map Some l.
Proof.
  intros K f l. induction l as [|k l IH]; intros off HA; [reflexivity|]. cbn [length seq map]. f_equal; [specialize (HA 0 k eq_refl); rewrite Nat.add_0_r in HA; exact HA|].
  apply IH. intros i k' E. specialize (HA (S i) k' E). rewrite Nat.add_succ_r in HA. exact HA.
Qed.

(** Enumeration: keySet lists every present key exactly once, values lists the matching values in the same order. *)
Theorem C52_enumeration : forall (K V : Type) (keqb : K -> K -> bool) (ops : list (dop K V)), key_spec keqb ->
  exists ks, d_keySet (run_dict keqb ops) = map Some ks /\ NoDup ks /\ (forall k, In k ks <-> exists v, holds ops k v) /\
    Forall2 (holds ops) ks (d_toList (run_dict keqb ops)) /\ d_size (run_dict keqb ops) = length ks.
Proof.
  intros K V keqb ops KS. pose proof (run_rep keqb KS ops) as HR. pose proof HR as (ND & EV & EI & EK).
  exists (map fst (run_list keqb ops)). assert (EL : d_size (run_dict keqb ops) = length (map fst (run_list keqb ops))) by (unfold d_size; rewrite EV, !map_length; reflexivity).
  split; [|split; [exact ND|split; [|split; [|exact EL]]]].
  - unfold d_keySet. rewrite EL. apply seq_map. intros i k E. apply EK, E.
  - intros k. split.
    + intros HI. apply in_map_iff in HI as ([k' v] & E & HI). cbn [fst] in E. subst k'. exists v. apply (run_holds keqb KS). apply aget_unique; assumption.
    + intros [v X]. apply (run_holds keqb KS) in X. apply (aget_in keqb KS) in X. apply (in_map fst) in X. exact X.
  - unfold d_toList. rewrite EV. assert (HA : forall kv, In kv (run_list keqb ops) -> holds ops (fst kv) (snd kv)).
    { intros [k v] HI. apply (run_holds keqb KS). apply aget_unique; assumption. }
    clear - HA. induction (run_list keqb ops) as [|kv l IH]; cbn [map]; constructor; [apply HA; left; reflexivity|apply IH; intros kv' HI; apply HA; right; exact HI].
Qed.
Print Assumptions C52_enumeration.

Example C52_ex : let d := run_dict Z.eqb [DRemove 2%Z; DPut 1%Z 11%Z; DPut 3%Z 30%Z; DPut 2%Z 20%Z; DPut 1%Z 10%Z] in
  d_keySet d = [Some 1%Z; Some 3%Z] /\ d_toList d = [11%Z; 30%Z] /\ d_get d 2%Z = None /\ key_spec Z.eqb.
Proof. vm_compute d_keySet. repeat split; try reflexivity; apply Z.eqb_eq. Qed.
