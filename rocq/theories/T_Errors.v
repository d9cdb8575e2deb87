(** Theorems about coded errors: C30. *)
From Coq Require Import String Ascii ZArith List Bool Lia.
From Coq Require Import ZifyBool.
From Verif Require Import Base L_Base M_Errors S_Errors.
Import ListNotations.
Open Scope Z_scope.

(** Induction over errors whose origin is optional. *)
Lemma gerr_ind2 : forall P : gerr -> Prop,
  (forall i, P (Plain i)) -> (forall i e, P e -> P (Stacked i e)) -> (forall i c, P (Base_ i c)) ->
  (forall i c e, P e -> P (Coded i c (Some e))) -> (forall i c, P (Coded i c None)) ->
  (forall i e, P e -> P (Message i (Some e))) -> (forall i, P (Message i None)) ->
  (forall i c e, P e -> P (Wrapped i c (Some e))) -> (forall i c, P (Wrapped i c None)) -> forall e, P e.
Proof.
  intros P H1 H2 H3 H4 H5 H6 H7 H8 H9. fix IH 1. intros [i|i e|i c|i c [e|]|i [e|]|i c [e|]];
    [apply H1|apply H2; apply IH|apply H3|apply H4; apply IH|apply H5|apply H6; apply IH|apply H7|apply H8; apply IH|apply H9].
Qed.

Theorem C30_chain_exists : forall e, exists l n, chain e l n.
Proof.
  intros e. induction e as [i|i e (l & n & IH)|i c|i c e (l & n & IH)|i c|i e (l & n & IH)|i|i c e (l & n & IH)|i c] using gerr_ind2; do 2 eexists; try (constructor; eassumption); constructor.
Qed.
Print Assumptions C30_chain_exists.

Lemma carries_code : forall e c, carries e c <-> error_code e = Some c.
Proof.
  intros e c. split.
  - intros [(i & ->)|[(i & o & ->)|(i & o & ->)]]; reflexivity.
  - destruct e; cbn; intros E; try discriminate; injection E as ->; [left|right; left|right; right]; eauto.
Qed.

(** The code of a chain is that of the outermost error carrying one. *)
Theorem C30_outermost_code : forall e pre x post n c, chain e (pre ++ x :: post) n ->
  (forall y c', In y pre -> ~ carries y c') -> carries x c -> CodeOf (Some e) = Ok c.
Proof.
  intros e pre x post n c HC HP HX. apply carries_code in HX. unfold CodeOf, CoderOf.
  assert (G : AsCoder e = Ok (Some x)).
  { revert pre HC HP. induction e as [i|i e IH|i k|i k e IH|i k|i e IH|i|i k e IH|i k] using gerr_ind2; intros pre HC HP; inversion HC; subst;
      match goal with H : _ = ?pre ++ x :: post |- _ => destruct pre as [|y pre]; cbn [app] in H; injection H; intros; subst end;
      try (destruct pre; discriminate); try discriminate HX; cbn [AsCoder error_code]; try reflexivity;
      try (apply (IH pre); [assumption|intros z c' Hz; apply HP; right; assumption]);
      try (exfalso; apply (HP _ k (or_introl eq_refl)); apply carries_code; reflexivity). }
  rewrite G. cbn [rbind]. rewrite HX. reflexivity.
Qed.
Print Assumptions C30_outermost_code.

(** Without any code in the chain, and without a nil at its end, the code is UnknownError. *)
Theorem C30_uncoded_is_unknown : forall e l, chain e l false -> (forall y c, In y l -> ~ carries y c) -> CodeOf (Some e) = Ok 0.
Proof.
  intros e l HC HP. unfold CodeOf, CoderOf. assert (G : AsCoder e = Ok None).
  { revert l HC HP. induction e as [i|i e IH|i k|i k e IH|i k|i e IH|i|i k e IH|i k] using gerr_ind2; intros l HC HP; inversion HC; subst; cbn [AsCoder error_code]; try reflexivity;
      try (eapply IH; [eassumption|intros z c' Hz; apply HP; right; assumption]);
      try (exfalso; apply (HP _ k (or_introl eq_refl)); apply carries_code; reflexivity). }
  rewrite G. reflexivity.
Qed.
Print Assumptions C30_uncoded_is_unknown.

(** Any number of uncoded wraps leave the code alone; a coded wrap replaces it. *)
Theorem C30_wraps_keep_code : forall ws e, CodeOf (Some (wraps ws e)) = CodeOf (Some e).
Proof.
  intros ws e. unfold CodeOf, CoderOf. assert (G : AsCoder (wraps ws e) = AsCoder e).
  { induction ws as [|[i|i] ws IH]; [reflexivity|exact IH|exact IH]. }
  rewrite G. reflexivity.
Qed.
Print Assumptions C30_wraps_keep_code.

Theorem C30_coding_sets_code : forall i e c, CodeOf (Some (Wrapc i e c)) = Ok c /\ (forall e', WithCode i e c = Ok e' -> CodeOf (Some e') = Ok c /\ Is (Some e') e = true).
Proof.
  intros i e c. split; [reflexivity|]. intros e' E. unfold WithCode in E.
  destruct e as [e|]; [|discriminate]. cbn [CoderOf] in E.
  assert (R : Is_ e (Some e) = true) by (destruct e; cbn; rewrite Z.eqb_refl; reflexivity).
  destruct (AsCoder e) as [[x|]| |]; cbn [rbind] in E; try discriminate; injection E as <-; (split; [reflexivity|]); cbn [Is Is_ err_id]; rewrite R; destruct (i =? err_id e); reflexivity.
Qed.
Print Assumptions C30_coding_sets_code.

(** Is finds exactly the errors of the chain (compared by identity), and nil exactly at a nil end. *)
Theorem C30_is_finds_chain : forall e l n t, chain e l n -> (Is (Some e) (Some t) = true <-> exists x, In x l /\ err_id x = err_id t).
Proof.
  intros e l n t HC. cbn [Is]. revert l HC. induction e as [i|i e IH|i k|i k e IH|i k|i e IH|i|i k e IH|i k] using gerr_ind2; intros l HC; inversion HC; subst; cbn [Is_ err_id];
    (match goal with |- context[i =? err_id t] => destruct (Z.eqb_spec i (err_id t)) as [E|N] end;
     [split; [intros _; eexists; split; [left; reflexivity|exact E]|reflexivity]|]);
    try (rewrite (IH _ ltac:(eassumption)); split; intros (x & Hx & Ex);
         [exists x; split; [right; assumption|assumption]|destruct Hx as [<-|Hx]; [contradiction|exists x; auto]]);
    (split; [discriminate|intros (x & [<-|[]] & Ex); contradiction]).
Qed.
Print Assumptions C30_is_finds_chain.

Theorem C30_is_nil : forall e l n, chain e l n -> Is (Some e) None = n.
Proof. intros e l n HC. cbn [Is]. induction HC; cbn [Is_]; auto. Qed.
Print Assumptions C30_is_nil.

(** Not so for nil: asking a nil error, or an uncoded wrap of nil, for its code panics, and so does coding it. *)
Theorem C30_nil_panics_refuted : CodeOf None = Panic /\ (forall i, CodeOf (Some (Wrap i None)) = Panic) /\ (forall i c, WithCode i None c = Panic) /\
  (forall ws i, CodeOf (Some (wraps ws (Wrap i None))) = Panic).
Proof. repeat split; auto. intros. rewrite C30_wraps_keep_code. reflexivity. Qed.
Print Assumptions C30_nil_panics_refuted.

Theorem C30_equals : forall c e c', CodeOf (Some e) = Ok c' -> Code_Equals c (Some e) = Ok (c' =? c).
Proof. intros c e c' E. unfold Code_Equals. rewrite E. reflexivity. Qed.
Print Assumptions C30_equals.

Example C30_ex : let e := Wrap 1 (Some (Stacked 2 (Wrapc 3 (Some (Errorc 4 5 1002)) 1004))) in
  CodeOf (Some e) = Ok 1004 /\ Is (Some e) (Some (Plain 5)) = true /\ Is (Some e) (Some (Plain 6)) = false /\
  exists pre x post, chain e (pre ++ x :: post) false /\ length pre = 2%nat /\ carries x 1004.
Proof.
  cbn zeta. split; [reflexivity|]. split; [reflexivity|]. split; [reflexivity|].
  exists [Wrap 1 (Some (Stacked 2 (Wrapc 3 (Some (Errorc 4 5 1002)) 1004))); Stacked 2 (Wrapc 3 (Some (Errorc 4 5 1002)) 1004)],
    (Wrapc 3 (Some (Errorc 4 5 1002)) 1004), [Errorc 4 5 1002; Plain 5].
  split; [repeat constructor|]. split; [reflexivity|]. right; right. exists 3, (Some (Errorc 4 5 1002)). reflexivity.
Qed.
