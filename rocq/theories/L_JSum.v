(** Sums of weights over association lists. *)
From Coq Require Import String Ascii ZArith List Bool Lia Permutation.
From Verif Require Import Base M_JMap L_JMap.
Import ListNotations.
Open Scope Z_scope.

Definition wsum {A} (w : A -> Z) (l : list A) : Z := fold_right (fun x a => w x + a) 0 l.
Lemma wsum_app : forall {A} (w : A -> Z) a b, wsum w (a ++ b) = wsum w a + wsum w b.
Proof. intros A w a b. induction a as [|x a IH]; cbn [app wsum fold_right]; [reflexivity|]. unfold wsum in IH. rewrite IH. unfold wsum. lia. Qed.
Lemma wsum_perm : forall {A} (w : A -> Z) a b, Permutation a b -> wsum w a = wsum w b.
Proof. intros A w a b P. induction P; cbn [wsum fold_right]; unfold wsum in *; lia. Qed.
Lemma wsum_nonneg : forall {A} (w : A -> Z) l, (forall x, In x l -> 0 <= w x) -> 0 <= wsum w l.
Proof. intros A w l H. induction l as [|x l IH]; [apply Z.le_refl|]. cbn [wsum fold_right]. specialize (IH (fun y hy => H y (or_intror hy))). specialize (H x (or_introl eq_refl)). unfold wsum in IH. lia. Qed.
Lemma wsum_zero : forall {A} (w : A -> Z) l, (forall x, In x l -> w x = 0) -> wsum w l = 0.
Proof. intros A w l H. induction l as [|x l IH]; [reflexivity|]. cbn [wsum fold_right]. specialize (IH (fun y hy => H y (or_intror hy))). rewrite (H x (or_introl eq_refl)). unfold wsum in IH. lia. Qed.

Section MAP.
Context {K V : Type} (keqb : K -> K -> bool) (KS : key_spec keqb) (w : K * V -> Z).
Definition wat (k : K) (l : list (K * V)) : Z := match aget keqb k l with Some v => w (k, v) | None => 0 end.
Lemma wsum_put : forall k v l, wsum w (aput keqb k v l) = wsum w l + w (k, v) - wat k l.
Proof.
  intros k v l. unfold wat. induction l as [|[k' v'] l IH]; cbn [aput aget]; [cbn [wsum fold_right]; lia|]. destruct (keqb_case keqb KS k k') as [->|[N EF]].
  - rewrite (keqb_refl keqb KS). cbn [wsum fold_right]. lia.
  - rewrite EF. cbn [wsum fold_right]. unfold wsum in IH. lia.
Qed.
Lemma wsum_del : forall k l, wsum w (adel keqb k l) = wsum w l - wat k l.
Proof.
  intros k l. unfold wat. destruct (aget keqb k l) as [v|] eqn:E.
  - rewrite (wsum_perm w _ _ (adel_perm keqb KS k v l E)). cbn [wsum fold_right]. unfold wsum. lia.
  - rewrite (adel_none keqb k l E). lia.
Qed.
End MAP.
