(** sort.Slice modelled as insertion sort.  sort.Slice is not stable, so theorems about its result must
    hold whenever the elements are pairwise comparable; then the sorted list is unique. *)
From Coq Require Import List Bool Permutation Sorted.
Import ListNotations.

Fixpoint insert_by {A} (ltb : A -> A -> bool) (x : A) (l : list A) : list A :=
  match l with
  | [] => [x]
  | y :: l' => if ltb y x then y :: insert_by ltb x l' else x :: l
  end.

Fixpoint sort_by {A} (ltb : A -> A -> bool) (l : list A) : list A :=
  match l with
  | [] => []
  | x :: l' => insert_by ltb x (sort_by ltb l')
  end.

Lemma insert_by_perm : forall A (ltb : A -> A -> bool) x l, Permutation (insert_by ltb x l) (x :: l).
Proof.
  induction l as [|y l IH]; cbn; [reflexivity|]. destruct (ltb y x); [|reflexivity].
  rewrite IH. apply perm_swap.
Qed.

Lemma sort_by_perm : forall A (ltb : A -> A -> bool) l, Permutation (sort_by ltb l) l.
Proof. induction l as [|x l IH]; cbn; [reflexivity|]. rewrite insert_by_perm. constructor; assumption. Qed.

(** If the elements are pairwise comparable the result is strictly increasing. *)
Definition pairwise {A} (ltb : A -> A -> bool) (l : list A) : Prop :=
  ForallOrdPairs (fun a b => ltb a b = true \/ ltb b a = true) l.

Lemma pairwise_perm : forall A (ltb : A -> A -> bool) l l', Permutation l l' -> pairwise ltb l -> pairwise ltb l'.
Proof.
  intros A ltb l l' HP. induction HP; intros H.
  - constructor.
  - inversion H; subst. constructor; [|apply IHHP; assumption].
    eapply Permutation_Forall; eassumption.
  - inversion H as [|a b Ha Hb]; subst. inversion Ha as [|? ? Hab Hc]; subst. inversion Hb as [|? ? Hd He]; subst.
    constructor; [|constructor; assumption]. constructor; [tauto|assumption].
  - auto.
Qed.

Lemma insert_by_sorted : forall A (ltb : A -> A -> bool) (trans : forall a b c, ltb a b = true -> ltb b c = true -> ltb a c = true) x l,
  Forall (fun y => ltb x y = true \/ ltb y x = true) l ->
  StronglySorted (fun a b => ltb a b = true) l -> StronglySorted (fun a b => ltb a b = true) (insert_by ltb x l).
Proof.
  intros A ltb trans x l HF HS. induction HS as [|y l HS IH Hy]; cbn.
  - repeat constructor.
  - inversion HF as [|? ? Hc HF']; subst. destruct (ltb y x) eqn:E.
    + constructor; [apply IH; assumption|].
      eapply Permutation_Forall; [symmetry; apply insert_by_perm|]. constructor; assumption.
    + destruct Hc as [Hc|Hc]; [|congruence]. constructor; [constructor; assumption|].
      constructor; [assumption|]. eapply Forall_impl; [|exact Hy]. intros z Hz. eapply trans; eassumption.
Qed.

Lemma sort_by_sorted : forall A (ltb : A -> A -> bool) (trans : forall a b c, ltb a b = true -> ltb b c = true -> ltb a c = true) l,
  pairwise ltb l -> StronglySorted (fun a b => ltb a b = true) (sort_by ltb l).
Proof.
  intros A ltb trans l H. induction H as [|x l Hx H IH]; cbn; [constructor|].
  apply insert_by_sorted; auto. eapply Permutation_Forall; [symmetry; apply sort_by_perm|assumption].
Qed.

Lemma sorted_perm_unique : forall A (ltb : A -> A -> bool) (irr : forall a, ltb a a = false)
  (trans : forall a b c, ltb a b = true -> ltb b c = true -> ltb a c = true) l l',
  StronglySorted (fun a b => ltb a b = true) l -> StronglySorted (fun a b => ltb a b = true) l' ->
  Permutation l l' -> l = l'.
Proof.
  intros A ltb irr trans l. induction l as [|x l IH]; intros l' HS HS' HP.
  - apply Permutation_nil in HP. congruence.
  - destruct l' as [|y l']; [symmetry in HP; apply Permutation_nil in HP; discriminate|].
    inversion HS as [|? ? HS1 Hx]; inversion HS' as [|? ? HS1' Hy]; subst.
    rewrite Forall_forall in Hx, Hy.
    assert (x = y).
    { assert (In x (y :: l')) as [E|Hin] by (eapply Permutation_in; [exact HP|left; reflexivity]); [congruence|].
      assert (In y (x :: l)) as [E|Hin'] by (eapply Permutation_in; [symmetry; exact HP|left; reflexivity]); [congruence|].
      specialize (Hx _ Hin'). specialize (Hy _ Hin).
      specialize (trans _ _ _ Hx Hy). rewrite irr in trans. discriminate. }
    subst y. f_equal. apply IH; auto. eapply Permutation_cons_inv; eassumption.
Qed.

Lemma sort_by_unique : forall A (ltb : A -> A -> bool) (irr : forall a, ltb a a = false)
  (trans : forall a b c, ltb a b = true -> ltb b c = true -> ltb a c = true) l l',
  pairwise ltb l -> StronglySorted (fun a b => ltb a b = true) l' -> Permutation l l' -> sort_by ltb l = l'.
Proof.
  intros A ltb irr trans l l' H1 H2 HP. apply (sorted_perm_unique A ltb irr trans); auto.
  - apply sort_by_sorted; assumption.
  - rewrite sort_by_perm. assumption.
Qed.

Lemma sort_by_perm_eq : forall A (ltb : A -> A -> bool) (irr : forall a, ltb a a = false)
  (trans : forall a b c, ltb a b = true -> ltb b c = true -> ltb a c = true) l l',
  pairwise ltb l -> Permutation l l' -> sort_by ltb l = sort_by ltb l'.
Proof.
  intros A ltb irr trans l l' H1 HP. apply (sort_by_unique A ltb irr trans); auto.
  - apply sort_by_sorted; auto. eapply pairwise_perm; eassumption.
  - rewrite HP. symmetry. apply sort_by_perm.
Qed.
