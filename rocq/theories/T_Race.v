From Coq Require Import ZArith List Bool Lia.
From Coq Require Import ZifyBool.
From Verif Require Import Base L_Base M_Link M_Race S_Link S_Race.
Import ListNotations.
Open Scope Z_scope.

Lemma part_refl : forall {A} (l : list A), part l l.
Proof. induction l as [| x l IH]; [apply part_nil | apply part_keep; exact IH]. Qed.
Lemma part_snoc_skip : forall {A} (l m : list A) x, part l m -> part l (m ++ [x]).
Proof.
  intros A l m x P. induction P as [| y l m P IH | y l m P IH]; cbn [app]; [apply part_skip; apply part_nil | apply part_skip; exact IH | apply part_keep; exact IH].
Qed.
Lemma part_snoc : forall {A} (l m : list A) x, part l m -> part (l ++ [x]) (m ++ [x]).
Proof.
  intros A l m x P. induction P as [| y l m P IH | y l m P IH]; cbn [app]; [apply part_keep; apply part_nil | apply part_skip; exact IH | apply part_keep; exact IH].
Qed.
Lemma part_tail : forall {A} (l m : list A) x, part (x :: l) m -> part l m.
Proof. intros A l m. induction m as [| y m IH]; intros x P; inversion P; subst; [apply part_skip; eapply IH; eassumption | apply part_skip; assumption]. Qed.
Lemma part_drop : forall {A} k (l m : list A), part l m -> part (skipn k l) m.
Proof.
  intros A k. induction k as [| k IH]; intros l m P; [exact P |].
  destruct l as [| x l]; [exact P |]. cbn [skipn]. apply IH. eapply part_tail. exact P.
Qed.
Lemma part_in : forall {A} (l m : list A) x, part l m -> In x l -> In x m.
Proof. intros A l m x P. induction P; intros I; [exact I | right; auto | destruct I as [-> | I]; [left; reflexivity | right; auto]]. Qed.

Lemma first_acked_nth : forall {A} (hgt sq : A -> Z) b l i, first_acked hgt sq b l = Some i -> exists r, nth_error l i = Some r /\ acked hgt sq b r = true.
Proof.
  intros A hgt sq b l. induction l as [| r l IH]; intros i E; [discriminate |]. cbn [first_acked] in E.
  destruct (acked hgt sq b r) eqn:T.
  - injection E as <-. exists r. split; [reflexivity | exact T].
  - destruct (first_acked hgt sq b l) as [j |]; [| discriminate]. injection E as <-. destruct (IH j eq_refl) as (q & N & Q). exists q. split; assumption.
Qed.
Lemma nth_split : forall {A} (l : list A) i r, nth_error l i = Some r -> (i < length l)%nat.
Proof. intros A l i r E. apply nth_error_Some. congruence. Qed.

Section R.
Variable A : Type.
Variables hgt sq : A -> Z.
Notation ack := (acked hgt sq).
Notation step := (cstep hgt sq).

Definition RInv (w : race A) : Prop :=
  part (c_list w) (c_told w) /\
  match c_app w with AWrite x l => (exists p q, l = p ++ c_list w ++ q) /\ part l (c_told w) | _ => True end /\
  match c_cut w with
  | CIdle => True
  | CRange b => In b (c_seen w)
  | CReread b i => In b (c_seen w) /\ exists p m q r, c_list w = p ++ m ++ q /\ nth_error m i = Some r /\ ack b r = true
  | CWrite b i l => In b (c_seen w) /\ (exists p q, c_list w = p ++ l ++ q) /\ part l (c_told w) /\ (i < length l)%nat /\
                    exists j r, (i <= j)%nat /\ nth_error l j = Some r /\ ack b r = true
  | CPanic => False
  end.

Lemma rinv_init : RInv cinit.
Proof. repeat split. constructor. Qed.
Lemma rinv_step : forall w a, RInv w -> RInv (step w a).
Proof.
  intros w a (P & Q & C). destruct a as [x | | b |]; cbn [cstep].
  - destruct (c_app w) eqn:E; try (split; [exact P | rewrite ?E; split; [exact Q | exact C]]).
  - destruct (c_app w) as [| x | x l] eqn:E.
    + split; [exact P |]. rewrite E. split; [exact I | exact C].
    + split; [exact P |]. split; [split; [exists [], []; cbn [c_list app]; rewrite app_nil_r; reflexivity | exact P] | exact C].
    + destruct Q as ((p & q & L) & PL). split; [apply part_snoc; exact PL |]. split; [exact I |].
      cbn [c_cut c_list c_told c_seen]. destruct (c_cut w) as [| b | b i | b i m |].
      * exact I.
      * exact C.
      * destruct C as (B & p' & m & q' & r & L' & N & K). split; [exact B |]. exists (p ++ p'), m, (q' ++ q ++ [x]), r.
        split; [rewrite L, L'; rewrite <- !app_assoc; reflexivity | split; assumption].
      * destruct C as (B & (p' & q' & L') & PM & I1 & J). split; [exact B |]. split; [| split; [apply part_snoc_skip; exact PM | split; assumption]].
        exists (p ++ p'), (q' ++ q ++ [x]). rewrite L, L'. rewrite <- !app_assoc. reflexivity.
      * exact C.
  - destruct (c_cut w) eqn:E; try (split; [exact P | split; [exact Q | rewrite ?E; exact C]]).
    split; [exact P |]. split; [exact Q |]. cbn [c_cut c_seen]. apply in_or_app. right. left. reflexivity.
  - destruct (c_cut w) as [| b | b i | b i m |] eqn:E.
    + split; [exact P |]. split; [exact Q |]. rewrite E. exact I.
    + split; [exact P |]. split; [exact Q |]. cbn [c_cut c_list c_seen].
      destruct (first_acked hgt sq b (c_list w)) as [i |] eqn:F; [| exact I].
      destruct (first_acked_nth _ _ _ _ _ F) as (r & N & K). split; [exact C |]. exists [], (c_list w), [], r. cbn [app]. rewrite app_nil_r. auto.
    + destruct C as (B & p & m & q & r & L & N & K).
      assert (LE : (i + 1 <= length (c_list w))%nat) by (rewrite L, !app_length; pose proof (nth_split _ _ _ N); lia).
      destruct (Nat.ltb_spec (length (c_list w)) (i + 1)) as [X | _]; [lia |].
      split; [exact P |]. split; [exact Q |]. cbn [c_cut c_list c_told c_seen]. split; [exact B |].
      split; [exists [], []; cbn [app]; rewrite app_nil_r; reflexivity |]. split; [exact P |]. split; [lia |].
      exists (length p + i)%nat, r. split; [lia |]. split; [| exact K].
      rewrite L. rewrite nth_error_app2 by lia. replace (length p + i - length p)%nat with i by lia.
      rewrite nth_error_app1; [exact N | apply (nth_split _ _ _ N)].
    + destruct C as (B & (p' & q' & L') & PM & I1 & J). split; [apply part_drop; exact PM |]. split; [| exact I].
      cbn [c_app c_list c_told]. destruct (c_app w) as [| x | x l]; [exact I | exact I |].
      destruct Q as ((p & q & L) & PL). split; [| exact PL].
      exists (p ++ p' ++ firstn (i + 1) m), (q' ++ q). rewrite L, L'. rewrite <- (firstn_skipn (i + 1) m) at 1. rewrite <- !app_assoc. reflexivity.
    + contradiction.
Qed.
Lemma rinv_run : forall l w, RInv w -> RInv (crun hgt sq w l).
Proof. intros l. induction l as [| a l IH]; intros w V; [exact V |]. cbn [crun fold_left]. apply IH. apply rinv_step. exact V. Qed.

Lemma rising_part : forall l m, part l m -> rising hgt sq m -> rising hgt sq l.
Proof.
  intros l m P. induction P; intros R; [constructor | inversion R; auto |].
  inversion R as [| r l' H R']; subst. constructor; [intros y I; apply H; eapply part_in; eassumption | auto].
Qed.
Lemma rising_nth : forall l i j x y, rising hgt sq l -> (i <= j)%nat -> nth_error l i = Some x -> nth_error l j = Some y -> hgt x <= hgt y /\ sq x <= sq y.
Proof.
  intros l. induction l as [| r l IH]; intros i j x y R LE X Y; [destruct i; discriminate |].
  inversion R as [| r' l' H R']; subst.
  destruct i as [| i]; destruct j as [| j]; cbn [nth_error] in X, Y.
  - rewrite X in Y. injection Y as <-. lia.
  - injection X as <-. apply H. eapply nth_error_In. exact Y.
  - lia.
  - apply (IH i j x y R'); [lia | exact X | exact Y].
Qed.
Lemma acked_covered : forall b r, ack b r = true <-> covered hgt sq b r.
Proof. intros b r. unfold acked, covered. rewrite andb_true_iff, !Z.leb_le. reflexivity. Qed.
Lemma not_skipped : forall k (l : list A) r, In r l -> ~ In r (skipn k l) -> exists i, (i < k)%nat /\ nth_error l i = Some r.
Proof.
  intros k. induction k as [| k IH]; intros l r I N; [contradiction |].
  destruct l as [| x l]; [contradiction |]. destruct I as [-> | I]; [exists O; split; [lia | reflexivity] |].
  destruct (IH l r I N) as (i & L & E). exists (S i). split; [lia | exact E].
Qed.
Lemma cut_loses : forall w b i l r, RInv w -> rising hgt sq (c_told w) -> c_cut w = CWrite b i l -> In r l -> ~ In r (skipn (i + 1) l) -> In b (c_seen w) /\ covered hgt sq b r.
Proof.
  intros w b i l r (P & Q & C) R E I N. rewrite E in C. destruct C as (B & _ & PM & I1 & j & q & LE & NJ & K).
  split; [exact B |]. destruct (not_skipped _ _ _ I N) as (k & LK & NK).
  apply acked_covered in K. destruct (rising_nth l k j r q (rising_part _ _ PM R) ltac:(lia) NK NJ). unfold covered in *. lia.
Qed.
End R.

(** Run without interruption these are the loop of [clearReceiveStatus] and [append]. *)
Theorem C94_uninterrupted : forall w b r, c_app w = AIdle -> c_cut w = CIdle ->
  c_list (crun rs_height rs_seq w [StatusIn b; Cut; Cut; Cut]) = (match clear_rss b (c_list w) with Some l => l | None => c_list w end) /\
  c_cut (crun rs_height rs_seq w [StatusIn b; Cut; Cut; Cut]) = CIdle /\
  c_list (crun rs_height rs_seq w [Arrive r; Append; Append]) = c_list w ++ [r] /\ c_app (crun rs_height rs_seq w [Arrive r; Append; Append]) = AIdle.
Proof.
  intros w b r EA EC. destruct w as [l a c t s]. cbn [c_app c_cut] in EA, EC. subst a c. cbn [c_list].
  assert (F : forall l, match first_acked rs_height rs_seq b l with Some i => (i < length l)%nat /\ clear_rss b l = Some (skipn (i + 1) l) | None => clear_rss b l = None end).
  { clear. intros l. induction l as [| x l IH]; [reflexivity |]. cbn [first_acked clear_rss]. unfold acked at 1.
    destruct ((rs_height x <=? Height b) && (rs_seq x <=? RxSeq b)); [cbn [length]; split; [lia | reflexivity] |].
    destruct (first_acked rs_height rs_seq b l) as [i |]; cbn [option_map length]; [destruct IH as (A & B); split; [lia | exact B] | exact IH]. }
  specialize (F l). cbn [crun fold_left cstep c_cut c_list c_app].
  destruct (first_acked rs_height rs_seq b l) as [i |]; cbn [c_cut c_list c_app cstep].
  - destruct F as (L & E). destruct (Nat.ltb_spec (length l) (i + 1)) as [X | _]; [lia |]. cbn [c_cut c_list c_app cstep]. rewrite E. repeat split; reflexivity.
  - rewrite F. repeat split; reflexivity.
Qed.
Print Assumptions C94_uninterrupted.

(** However the accesses of the two goroutines interleave, the slicing stays in bounds, and the list holds records that arrived, each once
    for every arrival at most, in their order; neither does the list the other goroutine is about to write hold others. *)
Theorem C94_in_bounds : forall {A} (hgt sq : A -> Z) l, let w := crun hgt sq cinit l in c_cut w <> CPanic /\ part (c_list w) (c_told w).
Proof.
  intros A hgt sq l w. destruct (rinv_run A hgt sq l cinit (rinv_init A hgt sq)) as (P & _ & C). split; [| exact P].
  intros E. unfold w in E. rewrite E in C. exact C.
Qed.
Print Assumptions C94_in_bounds.


(** A record leaves the list only when a cut is written, of a list that was read while it was a stretch of the list as it is now; if the
    record was in what was read, a status that has come acknowledges it. *)
Theorem C94_what_goes : forall {A} (hgt sq : A -> Z) l a r, let w := crun hgt sq cinit l in rising hgt sq (c_told w) ->
  In r (c_list w) -> ~ In r (c_list (cstep hgt sq w a)) ->
  exists b i m p q, a = Cut /\ c_cut w = CWrite b i m /\ c_list w = p ++ m ++ q /\ (In r m -> In b (c_seen w) /\ covered hgt sq b r).
Proof.
  intros A hgt sq l a r w R I N. pose proof (rinv_run A hgt sq l cinit (rinv_init A hgt sq)) as V. fold w in V. clearbody w.
  pose proof V as (P & Q & C). destruct a as [x | | b |]; cbn [cstep] in N.
  - destruct (c_app w); contradiction.
  - destruct (c_app w) as [| x | x m]; [contradiction | contradiction |]. cbn [c_list] in N. exfalso. apply N.
    destruct Q as ((p & q & ->) & _). apply in_or_app. left. apply in_or_app. right. apply in_or_app. left. exact I.
  - destruct (c_cut w); contradiction.
  - destruct (c_cut w) as [| b | b i | b i m |] eqn:E; try contradiction. cbn [c_list] in N.
    destruct C as (_ & (p & q & L) & _). exists b, i, m, p, q. split; [reflexivity |]. split; [reflexivity |]. split; [exact L |].
    intros IM. eapply cut_loses; eassumption.
Qed.
Print Assumptions C94_what_goes.

Definition kept {A} (hgt sq : A -> Z) (w : race A) : Prop :=
  (forall r, In r (c_told w) -> In r (c_list w) \/ exists b, In b (c_seen w) /\ covered hgt sq b r) /\
  match c_cut w with CWrite b i m => c_list w = m | _ => True end.
Lemma kept_step : forall {A} (hgt sq : A -> Z) w a, RInv A hgt sq w -> rising hgt sq (c_told (cstep hgt sq w a)) ->
  match a, c_app w, c_cut w with Append, AWrite _ _, CWrite _ _ _ => False | _, _, _ => True end -> kept hgt sq w -> kept hgt sq (cstep hgt sq w a).
Proof.
  intros A hgt sq w a V R NC (K & E). pose proof V as (P & Q & C). destruct a as [x | | b |]; cbn [cstep] in *.
  - destruct (c_app w); split; cbn [c_cut c_list c_told c_seen]; assumption.
  - destruct (c_app w) as [| x | x m].
    + split; assumption.
    + split; cbn [c_cut c_list c_told c_seen]; assumption.
    + split; cbn [c_cut c_list c_told c_seen].
      * intros r I. apply in_app_or in I. destruct I as [I | I]; [| left; apply in_or_app; right; exact I].
        destruct (K r I) as [L | B]; [left | right; exact B]. destruct Q as ((p & q & ->) & _).
        apply in_or_app. left. apply in_or_app. right. apply in_or_app. left. exact L.
      * destruct (c_cut w); try exact I. contradiction.
  - destruct (c_cut w) eqn:EC; try (split; [exact K | rewrite ?EC; exact E]).
    split; cbn [c_cut c_list c_told c_seen]; [| exact I].
    intros r J. destruct (K r J) as [L | (b' & B & D)]; [left; exact L | right; exists b'; split; [apply in_or_app; left; exact B | exact D]].
  - destruct (c_cut w) as [| b | b i | b i m |] eqn:EC.
    + split; [exact K | rewrite EC; exact I].
    + split; cbn [c_cut c_list c_told c_seen]; [exact K |]. destruct (first_acked hgt sq b (c_list w)); exact I.
    + split; cbn [c_cut c_list c_told c_seen]; [exact K |]. destruct ((length (c_list w) <? i + 1)%nat); [exact I | reflexivity].
    + split; cbn [c_cut c_list c_told c_seen]; [| exact I]. intros r J.
      destruct (K r J) as [L | B]; [| right; exact B].
      rewrite E in L. rewrite <- (firstn_skipn (i + 1) m) in L. apply in_app_or in L. destruct L as [L | L]; [| left; exact L].
      right. exists b. cbn [c_told] in R.
      destruct C as (B & _ & PM & I1 & j & q & LE & NJ & KK). split; [exact B |].
      assert (exists k, (k < i + 1)%nat /\ nth_error m k = Some r) as (k & LK & NK).
      { apply In_nth_error in L. destruct L as (k & NK). exists k. pose proof (nth_split _ _ _ NK) as LL. rewrite firstn_length in LL.
        split; [lia |]. rewrite <- (firstn_skipn (i + 1) m). rewrite nth_error_app1 by (rewrite firstn_length; lia). exact NK. }
      apply acked_covered in KK. destruct (rising_nth A hgt sq m k j r q (rising_part A hgt sq _ _ PM R) ltac:(lia) NK NJ). unfold covered in *. lia.
    + contradiction.
Qed.
Lemma told_grows : forall {A} (hgt sq : A -> Z) l w, exists r, c_told (crun hgt sq w l) = c_told w ++ r.
Proof.
  intros A hgt sq l. induction l as [| a l IH]; intros w; [exists []; rewrite app_nil_r; reflexivity |].
  cbn [crun fold_left]. destruct (IH (cstep hgt sq w a)) as (r & E). unfold crun in E. rewrite E.
  destruct a as [x | | b |]; cbn [cstep].
  - destruct (c_app w); exists r; reflexivity.
  - destruct (c_app w) as [| x | x m]; [exists r; reflexivity | exists r; reflexivity | exists ([x] ++ r); cbn [c_told]; rewrite <- app_assoc; reflexivity].
  - destruct (c_cut w); exists r; reflexivity.
  - destruct (c_cut w); exists r; reflexivity.
Qed.
Lemma rising_front : forall {A} (hgt sq : A -> Z) l r, rising hgt sq (l ++ r) -> rising hgt sq l.
Proof.
  intros A hgt sq l. induction l as [| x l IH]; intros r R; [constructor |]. cbn [app] in R. inversion R as [| y m H R']; subst.
  constructor; [intros z I; apply H; apply in_or_app; left; exact I | eapply IH; exact R'].
Qed.
Lemma kept_run : forall {A} (hgt sq : A -> Z) l w, RInv A hgt sq w -> rising hgt sq (c_told (crun hgt sq w l)) -> no_clash hgt sq w l -> kept hgt sq w -> kept hgt sq (crun hgt sq w l).
Proof.
  intros A hgt sq l. induction l as [| a l IH]; intros w V R NC K; [exact K |].
  cbn [crun fold_left] in *. cbn [no_clash] in NC. destruct NC as (NC & NR). apply IH; [apply rinv_step; exact V | exact R | exact NR |].
  apply kept_step; [exact V | | exact NC | exact K]. destruct (told_grows hgt sq l (cstep hgt sq w a)) as (r & E). unfold crun in *. rewrite E in R. eapply rising_front. exact R.
Qed.
(** With records in order, and as long as no append is written between the second read and the write of a cut, nothing is lost: each record
    that was appended is in the list, or a status acknowledges it. *)
Theorem C94_nothing_lost : forall {A} (hgt sq : A -> Z) l, let w := crun hgt sq cinit l in rising hgt sq (c_told w) -> no_clash hgt sq cinit l ->
  forall r, In r (c_told w) -> In r (c_list w) \/ exists b, In b (c_seen w) /\ covered hgt sq b r.
Proof.
  intros A hgt sq l w R NC. apply kept_run; [apply rinv_init | exact R | exact NC |]. split; [intros r [] | exact I].
Qed.
Print Assumptions C94_nothing_lost.

Definition gone {A} (r : A) (w : race A) : Prop :=
  ~ In r (c_list w) /\ match c_app w with AIdle => True | ARead x => x <> r | AWrite x l => x <> r /\ ~ In r l end /\
  match c_cut w with CWrite _ _ l => ~ In r l | _ => True end.
Lemma in_skip : forall {A} k (l : list A) r, In r (skipn k l) -> In r l.
Proof. intros A k l r I. rewrite <- (firstn_skipn k l). apply in_or_app. right. exact I. Qed.
Lemma gone_run : forall {A} (hgt sq : A -> Z) r l w, gone r w -> ~ In (Arrive r) l -> gone r (crun hgt sq w l).
Proof.
  intros A hgt sq r l. induction l as [| a l IH]; intros w G N; [exact G |]. cbn [crun fold_left]. apply IH; [| intros J; apply N; right; exact J].
  destruct G as (GL & GA & GC). destruct a as [x | | b |]; cbn [cstep].
  - destruct (c_app w) eqn:E; unfold gone; cbn [c_list c_app c_cut]; rewrite ?E; try (split; [exact GL | split; [exact GA | exact GC]]).
    split; [exact GL |]. split; [| exact GC]. intros ->. apply N. left. reflexivity.
  - destruct (c_app w) as [| x | x m] eqn:E; unfold gone; cbn [c_list c_app c_cut]; rewrite ?E.
    + split; [exact GL | split; [exact I | exact GC]].
    + split; [exact GL | split; [split; assumption | exact GC]].
    + destruct GA as (GX & GM). split; [intros J; apply in_app_or in J; destruct J as [J | [J | []]]; [contradiction | congruence] | split; [exact I | exact GC]].
  - destruct (c_cut w) eqn:E; unfold gone; cbn [c_list c_app c_cut]; rewrite ?E; split; [exact GL | split; [exact GA | exact I] | exact GL | split; assumption | exact GL | split; assumption | exact GL | split; assumption | exact GL | split; assumption].
  - destruct (c_cut w) as [| b | b i | b i m |] eqn:E; unfold gone; cbn [c_list c_app c_cut]; rewrite ?E.
    + split; [exact GL | split; [exact GA | exact I]].
    + split; [exact GL | split; [exact GA |]]. destruct (first_acked hgt sq b (c_list w)); exact I.
    + split; [exact GL | split; [exact GA |]]. destruct ((length (c_list w) <? i + 1)%nat); [exact I | exact GL].
    + split; [intros J; apply GC; eapply in_skip; exact J | split; [exact GA | exact I]].
    + split; [exact GL | split; [exact GA | exact I]].
Qed.
(** Otherwise a record that no status acknowledges can be lost, for good unless it arrives again: for any two records of which a status
    acknowledges the first only. *)
Definition clash {A} (x y : A) (b : bls) : list (act A) := [Arrive x; Append; Append; StatusIn b; Cut; Cut; Arrive y; Append; Append; Cut].
Lemma clash_start : forall {A} (hgt sq : A -> Z) x b, covered hgt sq b x -> crun hgt sq cinit [Arrive x; Append; Append; StatusIn b; Cut] = Race [x] AIdle (CReread b 0) [x] [b].
Proof.
  intros A hgt sq x b CX. apply (proj2 (acked_covered A hgt sq b x)) in CX.
  change (Race [x] AIdle (match first_acked hgt sq b [x] with Some i => CReread b i | None => CIdle end) [x] [b] = Race [x] AIdle (CReread b 0) [x] [b]).
  cbn [first_acked]. rewrite CX. reflexivity.
Qed.
Theorem C94_lost_refuted : forall {A} (hgt sq : A -> Z) x y b, covered hgt sq b x -> ~ covered hgt sq b y ->
  let w := crun hgt sq cinit (clash x y b) in
  c_told w = [x; y] /\ c_seen w = [b] /\ c_list w = [] /\ forall l, ~ In (Arrive y) l -> ~ In y (c_list (crun hgt sq w l)).
Proof.
  intros A hgt sq x y b CX CY w.
  assert (W : w = Race [] AIdle CIdle [x; y] [b]).
  { unfold w. change (clash x y b) with ([Arrive x; Append; Append; StatusIn b; Cut] ++ [Cut; Arrive y; Append; Append; Cut]).
    unfold crun. rewrite fold_left_app. fold (crun hgt sq cinit [Arrive x; Append; Append; StatusIn b; Cut]). rewrite (clash_start hgt sq x b CX). reflexivity. }
  rewrite W. cbn [c_told c_seen c_list]. repeat (split; [reflexivity |]).
  intros l N. apply (gone_run hgt sq y l (Race [] AIdle CIdle [x; y] [b])); [| exact N]. repeat split. intros [].
Qed.
Print Assumptions C94_lost_refuted.
(** In the link the messages of the lost block are then not proved: the update goes without them. *)
Theorem C94_unproved_refuted : forall R TxSizeLimit limitSize rand fuel p bu s, (forall r, In r (rss s) -> rs_height r <> Height (getb s p)) ->
  buildProof R TxSizeLimit limitSize rand fuel p bu s = ROk s.
Proof.
  intros R T L rand fuel p bu s N. unfold buildProof.
  replace (getReceiveStatusForHeight (rss s) (Height (getb s p))) with (@None rstat); [reflexivity |].
  induction (rss s) as [| r l IH]; [reflexivity |]. cbn [getReceiveStatusForHeight].
  destruct (Z.eqb_spec (rs_height r) (Height (getb s p))) as [E | _]; [exfalso; apply (N r); [left; reflexivity | exact E] |].
  apply IH. intros q I. apply N. right. exact I.
Qed.
Print Assumptions C94_unproved_refuted.
(** In the receiver the next update is that of the block after: a lost block is never sent, nor are its messages. *)
Theorem C94_block_skipped_refuted : forall {A} (hgt sq len : A -> Z) x y z b limit, covered hgt sq b x -> ~ covered hgt sq b y -> hgt z <> hgt y -> len z <= limit ->
  let w := crun hgt sq cinit (clash x y b ++ [Arrive z; Append; Append]) in
  c_told w = [x; y; z] /\ update_heights hgt len limit (c_list w) = [hgt z] /\ for_height hgt (c_list w) (hgt y) = None.
Proof.
  intros A hgt sq len x y z b limit CX CY N LE w.
  assert (W : w = Race [z] AIdle CIdle [x; y; z] [b]).
  { unfold w. change (clash x y b ++ [Arrive z; Append; Append]) with ([Arrive x; Append; Append; StatusIn b; Cut] ++ [Cut; Arrive y; Append; Append; Cut; Arrive z; Append; Append]).
    unfold crun. rewrite fold_left_app. fold (crun hgt sq cinit [Arrive x; Append; Append; StatusIn b; Cut]). rewrite (clash_start hgt sq x b CX). reflexivity. }
  rewrite W. cbn [c_told c_list update_heights for_height]. split; [reflexivity |].
  destruct (Z.ltb_spec limit (len z)) as [X | _]; [lia |]. split; [reflexivity |].
  destruct (Z.eqb_spec (hgt z) (hgt y)) as [E | _]; [contradiction | reflexivity].
Qed.
Print Assumptions C94_block_skipped_refuted.
(** The relay with such a list: the update to height 9 is sent without the message announced for it, which the uninterrupted order sends. *)
Definition race_R := mkReceiver (fun _ b _ => Some [mkItem KBlockUpdate 10 (mkBls (TxSeq b) (RxSeq b) (Height b + 1)) 0 0 (Height b + 1) []]) (fun _ _ _ => Some None)
  (fun _ b _ => Ok (Some (mkItem KMessageProof 5 (mkBls (TxSeq b) (RxSeq b + 1) (Height b)) (RxSeq b) (RxSeq b + 1) 0 []))) (fun _ _ => 0) (fun _ _ => Some []).
Example C94_ex : let x := mkRstat 8 4 in let y := mkRstat 9 5 in let b := mkBls 0 4 8 in
  let s l := mkSt 7 [mkBls 0 4 8] [] l [[]] 0 [] in
  let kinds o := match o with ROk s => map (fun m => map it_kind (rm_items m)) (sent s) | _ => [] end in
  let lost := c_list (crun rs_height rs_seq cinit (clash x y b)) in
  let all := c_list (crun rs_height rs_seq cinit [Arrive x; Append; Append; StatusIn b; Cut; Cut; Cut; Arrive y; Append; Append]) in
  rising rs_height rs_seq [x; y] /\ no_clash rs_height rs_seq cinit [Arrive x; Append; Append; StatusIn b; Cut; Arrive y; Append; Append; Cut; Cut] /\ lost = [] /\ all = [y] /\
  kinds (M_Link.BuildRelayMessage race_R 1000 900 Z.of_nat 9 0 (s lost)) = [[KBlockUpdate]] /\
  kinds (M_Link.BuildRelayMessage race_R 1000 900 Z.of_nat 9 0 (s all)) = [[KBlockUpdate; KMessageProof]].
Proof.
  cbv zeta. split.
  { apply ri_cons; [intros q [<- | []]; vm_compute; split; discriminate |]. apply ri_cons; [intros q [] | apply ri_nil]. }
  split; [repeat (split; [vm_compute; exact I |]); exact I |]. repeat split; vm_compute; reflexivity.
Qed.
Print Assumptions C94_ex.

(** Updates are made for the blocks up to the first that is too big, and for none after it. *)
Theorem C94_updates : forall {A} (hgt len : A -> Z) limit l, exists a b, l = a ++ b /\ update_heights hgt len limit l = map hgt a /\
  Forall (fun r => len r <= limit) a /\ match b with [] => True | r :: _ => limit < len r end.
Proof.
  intros A hgt len limit. induction l as [|r l IH]; [exists [], []; repeat split; constructor|].
  cbn [update_heights]. destruct (limit <? len r) eqn:E.
  - exists [], (r :: l). apply Z.ltb_lt in E. repeat split; [constructor|exact E].
  - apply Z.ltb_ge in E. destruct IH as (a & b & E1 & E2 & E3 & E4). exists (r :: a), b. cbn [app map]. rewrite <- E1, E2. repeat split; [constructor; assumption|exact E4].
Qed.
Print Assumptions C94_updates.
Example C94_ex_updates : update_heights (fun x : Z => x) (fun x => 10 * x) 25 [1; 2; 3; 1] = [1; 2].
Proof. reflexivity. Qed.
