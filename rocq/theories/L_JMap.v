(** Lemmas about association lists. *)
From Coq Require Import String Ascii ZArith List Bool Lia Arith Permutation.
From Verif Require Import Base M_JMap.
Import ListNotations.
Open Scope nat_scope.

Definition key_spec {K} (keqb : K -> K -> bool) : Prop := forall a b, keqb a b = true <-> a = b.

Section MAP.
Context {K V : Type} (keqb : K -> K -> bool) (KS : key_spec keqb).

Lemma keqb_refl : forall k, keqb k k = true.
Proof. intros k. apply KS. reflexivity. Qed.
Lemma keqb_case : forall a b, {a = b} + {a <> b /\ keqb a b = false}.
Proof.
  intros a b. destruct (keqb a b) eqn:E; [left; apply KS, E|right]. split; [|reflexivity]. intros X. apply KS in X. congruence.
Qed.
Lemma keqb_false : forall a b, a <> b -> keqb a b = false.
Proof. intros a b N. destruct (keqb a b) eqn:E; [|reflexivity]. apply KS in E. congruence. Qed.

Lemma aget_in : forall k v (l : list (K * V)), aget keqb k l = Some v -> In (k, v) l.
Proof.
  intros k v l. induction l as [|[k' v'] l IH]; cbn [aget]; intros E; [discriminate|]. destruct (keqb_case k k') as [->|[N EF]].
  - rewrite keqb_refl in E. injection E as ->. left. reflexivity.
  - rewrite EF in E. right. apply IH, E.
Qed.
Lemma aget_none : forall k (l : list (K * V)), aget keqb k l = None <-> ~ In k (map fst l).
Proof.
  intros k l. induction l as [|[k' v'] l IH]; cbn [aget map fst In]; [tauto|]. destruct (keqb_case k k') as [->|[N EF]].
  - rewrite keqb_refl. split; [discriminate|]. intros X. exfalso. apply X. left. reflexivity.
  - rewrite EF. rewrite IH. split; [intros X [Y|Y]; [congruence|tauto]|tauto].
Qed.
Lemma aget_unique : forall k v (l : list (K * V)), NoDup (map fst l) -> In (k, v) l -> aget keqb k l = Some v.
Proof.
  intros k v l. induction l as [|[k' v'] l IH]; cbn [aget map fst]; intros ND HI; [destruct HI|]. apply NoDup_cons_iff in ND as [N ND].
  destruct HI as [E|HI]; [injection E as -> ->; rewrite keqb_refl; reflexivity|]. rewrite keqb_false; [apply IH; assumption|].
  intros ->. apply N. apply (in_map fst) in HI. exact HI.
Qed.

Lemma aput_same : forall k v (l : list (K * V)), aget keqb k (aput keqb k v l) = Some v.
Proof.
  intros k v l. induction l as [|[k' v'] l IH]; cbn [aput aget]; [rewrite keqb_refl; reflexivity|].
  destruct (keqb k k') eqn:E; cbn [aget]; [rewrite keqb_refl; reflexivity|rewrite E; exact IH].
Qed.
Lemma aput_other : forall k k' v (l : list (K * V)), k' <> k -> aget keqb k' (aput keqb k v l) = aget keqb k' l.
Proof.
  intros k k' v l N. induction l as [|[k2 v2] l IH]; cbn [aput aget]; [rewrite (keqb_false k' k N); reflexivity|].
  destruct (keqb_case k k2) as [->|[N2 E]].
  - rewrite keqb_refl. cbn [aget]. rewrite (keqb_false k' k2 N). reflexivity.
  - rewrite E. cbn [aget]. destruct (keqb k' k2); [reflexivity|exact IH].
Qed.
Lemma aput_keys_in : forall k v (l : list (K * V)), In k (map fst l) -> map fst (aput keqb k v l) = map fst l.
Proof.
  intros k v l. induction l as [|[k2 v2] l IH]; intros HI; [destruct HI|]. cbn [aput]. destruct (keqb_case k k2) as [->|[N2 E]].
  - rewrite keqb_refl. reflexivity.
  - rewrite E. cbn [map fst] in *. destruct HI as [X|HI]; [congruence|]. rewrite (IH HI). reflexivity.
Qed.
Lemma aput_new : forall k v (l : list (K * V)), ~ In k (map fst l) -> aput keqb k v l = l ++ [(k, v)].
Proof.
  intros k v l. induction l as [|[k2 v2] l IH]; intros HI; [reflexivity|]. cbn [aput map fst In] in *. rewrite keqb_false by (intros ->; tauto).
  rewrite IH by tauto. reflexivity.
Qed.
Lemma nodup_snoc : forall (l : list K) x, NoDup l -> ~ In x l -> NoDup (l ++ [x]).
Proof.
  intros l x H N. induction l as [|y l IH]; cbn [app]; [constructor; [tauto|constructor]|]. apply NoDup_cons_iff in H as [H1 H2].
  constructor; [|apply IH; [exact H2|cbn [In] in N; tauto]]. rewrite in_app_iff. cbn [In] in *. intros [X|[X|[]]]; [tauto|]. subst. apply N. left. reflexivity.
Qed.
Lemma aput_nodup : forall k v (l : list (K * V)), NoDup (map fst l) -> NoDup (map fst (aput keqb k v l)).
Proof.
  intros k v l ND. destruct (aget keqb k l) eqn:E.
  - rewrite aput_keys_in; [exact ND|]. apply aget_in in E. apply (in_map fst) in E. exact E.
  - apply aget_none in E. rewrite aput_new by exact E. rewrite map_app. apply nodup_snoc; assumption.
Qed.
Lemma aput_in : forall k v k' v' (l : list (K * V)), In (k', v') (aput keqb k v l) -> (k', v') = (k, v) \/ In (k', v') l.
Proof.
  intros k v k' v' l. induction l as [|[k2 v2] l IH]; cbn [aput In]; intros HI; [destruct HI as [X|[]]; left; congruence|].
  destruct (keqb k k2); cbn [In] in HI; destruct HI as [X|HI]; [left; congruence|tauto|tauto|]. apply IH in HI. tauto.
Qed.

(** removal *)
Lemma adel_perm : forall k v (l : list (K * V)), aget keqb k l = Some v -> Permutation l ((k, v) :: adel keqb k l).
Proof.
  intros k v l. induction l as [|[k2 v2] l IH]; cbn [aget]; intros E; [discriminate|]. cbn [adel]. destruct (keqb_case k k2) as [->|[N2 EF]].
  - rewrite keqb_refl in *. injection E as ->. destruct l as [|x l]; [apply Permutation_refl|]. constructor.
    assert (X : x :: l = removelast (x :: l) ++ [last (x :: l) x]) by (apply app_removelast_last; discriminate).
    rewrite X at 1. apply Permutation_sym. change (last (x :: l) x :: removelast (x :: l)) with ([last (x :: l) x] ++ removelast (x :: l)). apply Permutation_app_comm.
  - rewrite EF in *. etransitivity; [apply perm_skip, (IH E)|]. apply perm_swap.
Qed.
Lemma adel_none : forall k (l : list (K * V)), aget keqb k l = None -> adel keqb k l = l.
Proof.
  intros k l. induction l as [|[k2 v2] l IH]; cbn [aget adel]; intros E; [reflexivity|]. destruct (keqb k k2); [discriminate|]. rewrite (IH E). reflexivity.
Qed.
Lemma adel_nodup : forall k (l : list (K * V)), NoDup (map fst l) -> NoDup (map fst (adel keqb k l)) /\ ~ In k (map fst (adel keqb k l)).
Proof.
  intros k l ND. destruct (aget keqb k l) as [v|] eqn:E.
  - pose proof (Permutation_map fst (adel_perm k v l E)) as P. cbn [map fst] in P. apply (Permutation_NoDup P) in ND.
    apply NoDup_cons_iff in ND. tauto.
  - rewrite (adel_none k l E). split; [exact ND|]. apply aget_none, E.
Qed.
Lemma adel_same : forall k (l : list (K * V)), NoDup (map fst l) -> aget keqb k (adel keqb k l) = None.
Proof. intros k l ND. apply aget_none. apply (adel_nodup k l ND). Qed.
Lemma adel_other : forall k k' (l : list (K * V)), NoDup (map fst l) -> k' <> k -> aget keqb k' (adel keqb k l) = aget keqb k' l.
Proof.
  intros k k' l ND N. destruct (aget keqb k l) as [v|] eqn:E; [|rewrite (adel_none k l E); reflexivity].
  pose proof (adel_perm k v l E) as P. destruct (adel_nodup k l ND) as [ND' _].
  destruct (aget keqb k' l) as [v'|] eqn:E'.
  - apply aget_unique; [exact ND'|]. apply aget_in in E'. apply (Permutation_in _ P) in E'. destruct E' as [X|X]; [congruence|exact X].
  - apply aget_none. apply aget_none in E'. intros X. apply E'. apply (Permutation_in _ (Permutation_sym (Permutation_map fst P))). right. exact X.
Qed.
Lemma adel_in : forall k x (l : list (K * V)), In x (adel keqb k l) -> In x l.
Proof.
  intros k x l HI. destruct (aget keqb k l) as [v|] eqn:E; [|rewrite (adel_none k l E) in HI; exact HI].
  apply (Permutation_in _ (Permutation_sym (adel_perm k v l E))). right. exact HI.
Qed.
End MAP.
