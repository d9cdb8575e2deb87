(** Lemmas about paths. *)
From Coq Require Import String Ascii ZArith List Bool Lia.
From Coq Require Import ZifyBool.
From Verif Require Import Base L_Base GoStr M_Address M_Path S_Path.
Import ListNotations.
Open Scope Z_scope.

(** * Splitting *)
Lemma split_parts_of : forall p, parts p (str_split p slash).
Proof.
  induction p as [|c p IH]; cbn [str_split]; [constructor; intros []|]. destruct (Z.eqb_spec c slash) as [->|N].
  - apply (P_more []); [intros []|exact IH].
  - inversion IH as [d HD E|d q l HD HQ E].
    + constructor. intros [X|X]; [unfold slash in N; congruence|apply HD; exact X].
    + apply (P_more (c :: d)); [|exact HQ]. intros [X|X]; [unfold slash in N; congruence|apply HD; exact X].
Qed.
Lemma split_plain : forall c, name_ok c -> str_split c slash = [c].
Proof.
  induction c as [|x c IH]; intros H; cbn [str_split]; [reflexivity|]. destruct (Z.eqb_spec x slash) as [->|N]; [exfalso; apply H; left; reflexivity|].
  rewrite IH; [reflexivity|]. intros X. apply H. right. exact X.
Qed.
Lemma split_app : forall a b, str_split (a ++ slash :: b) slash = str_split a slash ++ str_split b slash.
Proof.
  induction a as [|x a IH]; intros b; cbn [app str_split]; [rewrite Z.eqb_refl; reflexivity|]. rewrite IH. destruct (x =? slash); [reflexivity|].
  destruct (str_split a slash) as [|c l] eqn:E; [|reflexivity]. destruct a as [|y a]; cbn [str_split] in E; [discriminate|]. destruct (y =? slash); [discriminate|]. destruct (str_split a slash); discriminate.
Qed.
Lemma parts_split : forall p l, parts p l -> l = str_split p slash.
Proof. intros p l H. induction H as [c H|c p l H HP ->]; [symmetry; apply split_plain, H|]. change 47 with slash. rewrite split_app, (split_plain c) by exact H. reflexivity. Qed.

(** * Walking *)
Definition trivial (c : list Z) : bool := negb (matters c).
Definition go (at_ : list (list Z)) (c : list Z) : list (list Z) :=
  if trivial c then at_ else if bytes_eqb c dotdot then removelast at_ else at_ ++ [c].
Definition dest (at_ : list (list Z)) (l : list (list Z)) : list (list Z) := fold_left go l at_.
Lemma trivial_iff : forall c, trivial c = true <-> c = [] \/ c = [46].
Proof.
  intros c. unfold trivial, matters. rewrite negb_involutive. destruct c as [|x c]; cbn [is_empty orb]; [intuition|]. rewrite bytes_eqb_eq. unfold dot. split; intros H; [right; exact H|destruct H as [H|H]; [discriminate|exact H]].
Qed.
Lemma walk_dest : forall l at_ to, walk at_ l to <-> to = dest at_ l.
Proof.
  intros l at_ to. split.
  - intros H. induction H as [at_|at_ c l to HC HW IH|l to HW IH|at_ x l to HW IH|at_ c l to N1 N2 N3 HW IH]; cbn [dest fold_left]; [reflexivity|..]; rewrite IH; unfold dest; f_equal; unfold go.
    + rewrite (proj2 (trivial_iff c) HC). reflexivity.
    + change (trivial [46; 46]) with false. change (bytes_eqb [46; 46] dotdot) with true. cbv iota. symmetry. apply removelast_last.
    + destruct (trivial c) eqn:E; [apply trivial_iff in E; tauto|]. destruct (bytes_eqb c dotdot) eqn:E2; [apply bytes_eqb_eq in E2; contradiction|]. reflexivity.
  - intros ->. revert at_. induction l as [|c l IH]; intros at_; cbn [dest fold_left]; [constructor|]. specialize (IH (go at_ c)). unfold dest in IH. unfold go in IH at 1. destruct (trivial c) eqn:E.
    + unfold go in *. rewrite E in *. apply W_stay; [apply trivial_iff, E|exact IH].
    + destruct (bytes_eqb c dotdot) eqn:E2.
      * apply bytes_eqb_eq in E2. subst c. unfold go in *. change (trivial dotdot) with false in *. change (bytes_eqb dotdot dotdot) with true in *. cbv iota in *. destruct at_ as [|x at_] using rev_ind; [apply W_root; exact IH|]. rewrite removelast_last in *. apply W_up. exact IH.
      * unfold go in *. rewrite E, E2 in *. apply W_down; [..|exact IH]; intros ->; discriminate.
Qed.
Lemma dest_filter : forall l at_, dest at_ (filter matters l) = dest at_ l.
Proof.
  induction l as [|c l IH]; intros at_; [reflexivity|]. cbn [filter dest fold_left]. destruct (matters c) eqn:E; cbn [fold_left]; [apply IH|]. replace (go at_ c) with at_ by (unfold go, trivial; rewrite E; reflexivity). apply IH.
Qed.
Lemma dest_app : forall a b at_, dest at_ (a ++ b) = dest (dest at_ a) b.
Proof. intros a b at_. apply fold_left_app. Qed.

(** where a path leads, as a function *)
Definition loc (from : list (list Z)) (p : list Z) : list (list Z) := dest (if IsAbs p then [] else from) (elems p).
Lemma absolute_iff : forall p, absolute p <-> IsAbs p = true.
Proof. intros [|c p]; unfold absolute, IsAbs; [split; [intros [r H]; discriminate|discriminate]|]. split; [intros [r H]; injection H as -> ->; reflexivity|intros H; apply Z.eqb_eq in H; subst; eexists; reflexivity]. Qed.
Lemma leads_loc : forall from p to, leads from p to <-> to = loc from p.
Proof.
  intros from p to. unfold leads, loc, elems. rewrite dest_filter. split.
  - intros (l & HP & [[HA HW]|[HA HW]]); apply parts_split in HP; subst l; apply walk_dest in HW; subst to; [apply absolute_iff in HA; rewrite HA; reflexivity|]. destruct (IsAbs p) eqn:E; [|reflexivity]. exfalso. apply HA, absolute_iff, E.
  - intros ->. exists (str_split p slash). split; [apply split_parts_of|]. destruct (IsAbs p) eqn:E; [left|right]; (split; [|apply walk_dest; reflexivity]); [apply absolute_iff, E|]. intros X. apply absolute_iff in X. congruence.
Qed.

(** * Plain names *)
Definition plain (c : list Z) : Prop := matters c = true /\ bytes_eqb c dotdot = false /\ name_ok c.
Lemma split_names : forall p, Forall name_ok (str_split p slash).
Proof. intros p. pose proof (split_parts_of p) as H. induction H; repeat constructor; auto. Qed.
Lemma elems_names : forall p, Forall (fun c => matters c = true /\ name_ok c) (elems p).
Proof. intros p. unfold elems. apply Forall_forall. intros c H. apply filter_In in H as [H1 H2]. split; [exact H2|]. apply (proj1 (Forall_forall _ _) (split_names p) c H1). Qed.
Lemma Forall_removelast : forall A (P : A -> Prop) l, Forall P l -> Forall P (removelast l).
Proof. intros A P l H. destruct l as [|x l] using rev_ind; [constructor|]. rewrite removelast_last. apply Forall_app in H. tauto. Qed.
Lemma go_plain : forall at_ c, Forall plain at_ -> name_ok c -> Forall plain (go at_ c).
Proof.
  intros at_ c H HC. unfold go, trivial. destruct (matters c) eqn:E; cbn [negb]; [|exact H]. destruct (bytes_eqb c dotdot) eqn:E2; [apply Forall_removelast, H|]. apply Forall_app. split; [exact H|]. repeat constructor; assumption.
Qed.
Lemma dest_plain : forall l at_, Forall plain at_ -> Forall name_ok l -> Forall plain (dest at_ l).
Proof. induction l as [|c l IH]; intros at_ H HL; [exact H|]. cbn [dest fold_left]. apply IH; [apply go_plain; [exact H|exact (Forall_inv HL)]|exact (Forall_inv_tail HL)]. Qed.
Lemma loc_plain : forall from p, Forall plain from -> Forall plain (loc from p).
Proof.
  intros from p H. unfold loc. apply dest_plain; [destruct (IsAbs p); [constructor|exact H]|]. eapply Forall_impl; [|apply elems_names]. cbv beta. tauto.
Qed.
Lemma dest_plain_list : forall l at_, Forall plain l -> dest at_ l = at_ ++ l.
Proof.
  induction l as [|c l IH]; intros at_ H; cbn [dest fold_left]; [symmetry; apply app_nil_r|]. change (fold_left go l (go at_ c)) with (dest (go at_ c) l). rewrite IH by exact (Forall_inv_tail H).
  unfold go, trivial. destruct (Forall_inv H) as (-> & -> & _). cbn [negb]. rewrite <- app_assoc. reflexivity.
Qed.
Lemma dest_ups : forall n a b, length b = n -> dest (a ++ b) (repeat dotdot n) = a.
Proof.
  induction n as [|n IH]; intros a b H; cbn [repeat dest fold_left]; [destruct b; [apply app_nil_r|discriminate]|]. change (fold_left go (repeat dotdot n) (go (a ++ b) dotdot)) with (dest (go (a ++ b) dotdot) (repeat dotdot n)).
  unfold go. change (trivial dotdot) with false. change (bytes_eqb dotdot dotdot) with true. cbv iota. destruct b as [|x b] using rev_ind; [discriminate|]. rewrite app_assoc, removelast_last. apply IH. rewrite app_length in H. cbn [length] in H. lia.
Qed.

(** * Cleaning absolute paths *)
Lemma clean_step_go : forall up c, Forall plain up -> matters c = true -> name_ok c -> clean_step true up c = rev (go (rev up) c).
Proof.
  intros up c H HM HN. unfold clean_step, go, trivial. rewrite HM. cbn [negb]. destruct (bytes_eqb c dotdot) eqn:E; [|rewrite rev_app_distr, rev_involutive; reflexivity].
  destruct up as [|x up]; [reflexivity|]. cbn [rev]. rewrite removelast_last, rev_involutive. destruct (Forall_inv H) as (_ & -> & _). reflexivity.
Qed.
Lemma clean_fold : forall l up, Forall plain up -> Forall (fun c => matters c = true /\ name_ok c) l -> fold_left (clean_step true) l up = rev (dest (rev up) l).
Proof.
  induction l as [|c l IH]; intros up H HL; cbn [fold_left dest]; [symmetry; apply rev_involutive|]. pose proof (Forall_inv HL) as [HM HN]. rewrite clean_step_go by assumption.
  assert (HG : Forall plain (go (rev up) c)) by (apply go_plain; [apply Forall_rev, H|exact HN]). rewrite IH; [rewrite rev_involutive; reflexivity|apply Forall_rev, HG|exact (Forall_inv_tail HL)].
Qed.
Lemma Clean_abs : forall p, IsAbs p = true -> Clean p = slash :: join (loc [] p).
Proof.
  intros p H. unfold Clean, loc, clean_elems, render. rewrite H. rewrite clean_fold; [|constructor|apply elems_names]. cbn [rev]. rewrite rev_involutive. reflexivity.
Qed.
Lemma join_split : forall l, l <> [] -> Forall name_ok l -> str_split (join l) slash = l.
Proof.
  induction l as [|c l IH]; intros NE H; [contradiction|]. destruct l as [|d l]; cbn [join]; [apply split_plain, (Forall_inv H)|]. change (c ++ slash :: join (d :: l)) with (c ++ slash :: join (d :: l)). rewrite split_app, (split_plain c) by exact (Forall_inv H). cbn [app]. f_equal. apply IH; [discriminate|exact (Forall_inv_tail H)].
Qed.
Lemma filter_all : forall l, Forall (fun c => matters c = true) l -> filter matters l = l.
Proof. induction l as [|c l IH]; intros H; [reflexivity|]. cbn [filter]. rewrite (Forall_inv H), IH; [reflexivity|exact (Forall_inv_tail H)]. Qed.
Lemma elems_join : forall l, Forall (fun c => matters c = true /\ name_ok c) l -> elems (join l) = l.
Proof.
  intros [|c l] H; [reflexivity|]. unfold elems. rewrite join_split; [|discriminate|eapply Forall_impl; [|exact H]; cbv beta; tauto]. apply filter_all. eapply Forall_impl; [|exact H]. cbv beta. tauto.
Qed.
Lemma plain_weak : forall l, Forall plain l -> Forall (fun c => matters c = true /\ name_ok c) l.
Proof. intros l H. eapply Forall_impl; [|exact H]. intros c (H1 & _ & H2). auto. Qed.
Lemma elems_slash : forall p, elems (slash :: p) = elems p.
Proof. intros p. change (slash :: p) with ([] ++ slash :: p). unfold elems. rewrite split_app. reflexivity. Qed.
Lemma elems_app : forall a b, elems (a ++ slash :: b) = elems a ++ elems b.
Proof. intros a b. unfold elems. rewrite split_app. apply filter_app. Qed.
Lemma loc_root : forall from l, Forall plain l -> loc from (slash :: join l) = l.
Proof. intros from l H. unfold loc. cbn [IsAbs]. rewrite Z.eqb_refl, elems_slash, elems_join by (apply plain_weak, H). rewrite dest_plain_list by exact H. reflexivity. Qed.
Lemma join_not_abs : forall l, Forall (fun c => matters c = true /\ name_ok c) l -> IsAbs (join l) = false.
Proof.
  intros [|c l] H; [reflexivity|]. destruct (Forall_inv H) as [HM HN]. destruct c as [|x c]; [discriminate|]. assert (x <> slash) by (intros ->; apply HN; left; reflexivity). destruct l; cbn [join app IsAbs]; lia.
Qed.

(** * Absolute and relative *)
Lemma IsAbs_app : forall a b, IsAbs a = true -> IsAbs (a ++ b) = true.
Proof. intros [|c a] b H; [discriminate|exact H]. Qed.
Lemma Join_loc : forall wd p, IsAbs wd = true -> Join wd p = slash :: join (dest (loc [] wd) (elems p)).
Proof.
  intros wd p H. destruct wd as [|c wd]; [discriminate|]. cbn [Join]. destruct p as [|x p]; [rewrite Clean_abs by exact H; reflexivity|].
  rewrite Clean_abs by exact H. unfold loc. change (IsAbs ((c :: wd) ++ slash :: x :: p)) with (IsAbs (c :: wd)). rewrite H, elems_app, dest_app. reflexivity.
Qed.
Lemma Abs_loc : forall wd p, IsAbs wd = true -> Abs wd p = slash :: join (loc (loc [] wd) p).
Proof. intros wd p H. unfold Abs. unfold loc at 1. destruct (IsAbs p) eqn:E; [rewrite Clean_abs by exact E; unfold loc; rewrite E; reflexivity|apply Join_loc, H]. Qed.
Lemma rel_elems_dest : forall base targ pre, Forall plain targ -> dest (pre ++ base) (rel_elems base targ) = pre ++ targ.
Proof.
  induction base as [|b base IH]; intros targ pre H; cbn [rel_elems]; [rewrite app_nil_r; cbn [length repeat app]; apply dest_plain_list, H|].
  destruct targ as [|t targ]; [rewrite app_nil_r; rewrite (dest_ups (length (b :: base)) pre (b :: base) eq_refl); symmetry; apply app_nil_r|].
  destruct (bytes_eqb b t) eqn:E.
  - apply bytes_eqb_eq in E. subst t. specialize (IH targ (pre ++ [b]) (Forall_inv_tail H)). rewrite <- !app_assoc in IH. cbn [app] in IH. exact IH.
  - rewrite dest_app, (dest_ups (length (b :: base)) pre (b :: base) eq_refl). apply dest_plain_list, H.
Qed.
Lemma rel_elems_ok : forall base targ, Forall plain targ -> Forall (fun c => matters c = true /\ name_ok c) (rel_elems base targ).
Proof.
  assert (HR : forall n, Forall (fun c => matters c = true /\ name_ok c) (repeat dotdot n)).
  { intros n. apply Forall_forall. intros c H. apply repeat_spec in H. subst c. split; [reflexivity|]. intros [X|[X|[]]]; discriminate. }
  induction base as [|b base IH]; intros targ H; cbn [rel_elems]; [apply Forall_app; split; [apply HR|apply plain_weak, H]|].
  destruct targ as [|t targ]; [rewrite app_nil_r; apply HR|]. destruct (bytes_eqb b t); [apply IH, (Forall_inv_tail H)|]. apply Forall_app; split; [apply HR|apply plain_weak, H].
Qed.
Lemma elems_Clean : forall p, IsAbs p = true -> elems (Clean p) = loc [] p.
Proof. intros p H. rewrite Clean_abs by exact H. rewrite elems_slash, elems_join; [reflexivity|]. apply plain_weak, loc_plain. constructor. Qed.
Lemma Rel_abs : forall base targ, IsAbs base = true -> IsAbs targ = true -> IsAbs (Rel base targ) = false /\ elems (Rel base targ) = rel_elems (loc [] base) (loc [] targ).
Proof.
  intros base targ HB HT. unfold Rel. rewrite !elems_Clean by assumption. pose proof (rel_elems_ok (loc [] base) (loc [] targ) (loc_plain _ _ (Forall_nil _))) as H. destruct (rel_elems _ _) as [|c l] eqn:E; [split; reflexivity|].
  split; [apply join_not_abs, H|apply elems_join, H].
Qed.
Lemma Rel_leads : forall base targ, IsAbs base = true -> IsAbs targ = true -> loc (loc [] base) (Rel base targ) = loc [] targ.
Proof.
  intros base targ HB HT. destruct (Rel_abs base targ HB HT) as [HA HE]. unfold loc at 1. rewrite HA, HE. apply (rel_elems_dest (loc [] base) (loc [] targ) []). apply loc_plain. constructor.
Qed.
Lemma Abs_abs : forall wd p, IsAbs wd = true -> IsAbs (Abs wd p) = true.
Proof. intros wd p H. rewrite Abs_loc by exact H. reflexivity. Qed.
Lemma Abs_place : forall from wd p, IsAbs wd = true -> loc from (Abs wd p) = loc (loc [] wd) p.
Proof. intros from wd p H. rewrite Abs_loc by exact H. apply loc_root, loc_plain, loc_plain. constructor. Qed.

(** * Cleaning other paths, and directories *)
Lemma clean_rel_fold : forall from l ns k, Forall plain ns -> Forall (fun c => matters c = true /\ name_ok c) l ->
  dest from (rev (fold_left (clean_step false) l (ns ++ repeat dotdot k))) = dest (dest from (rev (ns ++ repeat dotdot k))) l.
Proof.
  intros from l. induction l as [|c l IH]; intros ns k HN HL; [reflexivity|]. destruct (Forall_inv HL) as [HM HC]. pose proof (Forall_inv_tail HL) as HT. cbn [fold_left dest].
  change (fold_left go l (go (dest from (rev (ns ++ repeat dotdot k))) c)) with (dest (go (dest from (rev (ns ++ repeat dotdot k))) c) l). unfold clean_step at 2.
  destruct (bytes_eqb c dotdot) eqn:E.
  - apply bytes_eqb_eq in E. subst c. destruct ns as [|x ns].
    + cbn [app]. replace (match repeat dotdot k with [] => [dotdot] | x :: up' => if bytes_eqb x dotdot then dotdot :: repeat dotdot k else up' end) with (repeat dotdot (S k)) by (destruct k; reflexivity).
      specialize (IH [] (S k) (Forall_nil _) HT). cbn [app] in IH. rewrite IH. f_equal. cbn [repeat rev]. rewrite dest_app. reflexivity.
    + cbn [app]. destruct (Forall_inv HN) as (HX & -> & _). rewrite (IH ns k (Forall_inv_tail HN) HT). f_equal. cbn [rev]. rewrite dest_app. cbn [dest fold_left]. unfold go at 2. unfold trivial. rewrite HX. cbn [negb].
      destruct (Forall_inv HN) as (_ & -> & _). unfold go. change (trivial dotdot) with false. change (bytes_eqb dotdot dotdot) with true. cbv iota. symmetry. apply removelast_last.
  - change (c :: ns ++ repeat dotdot k) with ((c :: ns) ++ repeat dotdot k). rewrite IH; [|constructor; [split; [exact HM|split; [exact E|exact HC]]|exact HN]|exact HT]. f_equal. cbn [app rev]. rewrite dest_app. reflexivity.
Qed.
Lemma clean_rel_ok : forall l up, Forall (fun c => matters c = true /\ name_ok c) up -> Forall (fun c => matters c = true /\ name_ok c) l -> Forall (fun c => matters c = true /\ name_ok c) (fold_left (clean_step false) l up).
Proof.
  induction l as [|c l IH]; intros up HU HL; [exact HU|]. cbn [fold_left]. apply IH; [|exact (Forall_inv_tail HL)]. unfold clean_step. pose proof (Forall_inv HL) as HC. destruct (bytes_eqb c dotdot); [|constructor; assumption].
  destruct up as [|x up]; [cbv iota; constructor; [exact HC|constructor]|]. destruct (bytes_eqb x dotdot); [constructor; assumption|exact (Forall_inv_tail HU)].
Qed.
Lemma Clean_loc : forall from p, loc from (Clean p) = loc from p /\ IsAbs (Clean p) = IsAbs p.
Proof.
  intros from p. destruct (IsAbs p) eqn:E.
  - rewrite Clean_abs by exact E. split; [|reflexivity]. rewrite loc_root by (apply loc_plain; constructor). unfold loc. rewrite E. reflexivity.
  - unfold Clean. rewrite E. unfold clean_elems. pose proof (clean_rel_ok (elems p) [] (Forall_nil _) (elems_names p)) as HO. apply Forall_rev in HO. pose proof (clean_rel_fold from (elems p) [] 0 (Forall_nil _) (elems_names p)) as HD. cbn [app repeat rev] in HD.
    unfold render. destruct (rev _) as [|c l] eqn:EL.
    + split; [|reflexivity]. unfold loc. rewrite E. change (IsAbs dot) with false. cbv iota. change (elems dot) with (@nil (list Z)). exact HD.
    + pose proof (join_not_abs _ HO) as HN. split; [|exact HN]. unfold loc. rewrite HN, E, elems_join by exact HO. exact HD.
Qed.
Lemma upto_plain : forall n, name_ok n -> upto_last_slash n = [].
Proof. induction n as [|x n IH]; intros H; [reflexivity|]. cbn [upto_last_slash]. rewrite IH by (intros X; apply H; right; exact X). destruct (Z.eqb_spec x slash) as [->|]; [exfalso; apply H; left; reflexivity|reflexivity]. Qed.
Lemma upto_dir : forall d n, name_ok n -> upto_last_slash (d ++ slash :: n) = d ++ [slash].
Proof.
  induction d as [|x d IH]; intros n H; cbn [app upto_last_slash]; [rewrite upto_plain by exact H; reflexivity|]. rewrite IH by exact H. destruct (d ++ [slash]) eqn:E; [destruct d; discriminate|reflexivity].
Qed.
Lemma dir_of_loc : forall from file dir, dir_of from file dir <-> dir = loc from (Dir file).
Proof.
  intros from file dir. unfold Dir. rewrite (proj1 (Clean_loc from _)). split.
  - intros [[HN ->]|(d & n & -> & HN & HL)].
    + rewrite upto_plain by exact HN. reflexivity.
    + change 47 with slash. rewrite upto_dir by exact HN. apply leads_loc, HL.
  - intros ->. destruct (in_dec Z.eq_dec slash file) as [HI|HI]; [right|left; split; [exact HI|rewrite upto_plain by exact HI; reflexivity]].
    assert (exists d n, file = d ++ slash :: n /\ name_ok n) as (d & n & -> & HN).
    { clear - HI. induction file as [|x file IH]; [destruct HI|]. destruct (in_dec Z.eq_dec slash file) as [H|H]; [destruct (IH H) as (d & n & -> & HN); exists (x :: d), n; auto|]. destruct HI as [->|HI]; [exists [], file; auto|contradiction]. }
    exists d, n. split; [reflexivity|]. split; [exact HN|]. rewrite upto_dir by exact HN. apply leads_loc. reflexivity.
Qed.
Lemma Dir_abs : forall file, IsAbs file = true -> IsAbs (Dir file) = true.
Proof.
  intros file H. unfold Dir. rewrite (proj2 (Clean_loc [] _)). destruct file as [|c file]; [discriminate|]. cbn [IsAbs] in H. cbn [upto_last_slash]. destruct (upto_last_slash file); [rewrite H; exact H|exact H].
Qed.
Lemma loc_abs : forall from from' p, IsAbs p = true -> loc from p = loc from' p.
Proof. intros from from' p H. unfold loc. rewrite H. reflexivity. Qed.
(** the two directions *)
Lemma relative_loc : forall wd file p, IsAbs wd = true -> IsAbs (ResolveRelative wd file p) = false /\ loc (loc (loc [] wd) (Dir file)) (ResolveRelative wd file p) = loc (loc [] wd) p.
Proof.
  intros wd file p H. unfold ResolveRelative. split; [apply (Rel_abs _ _ (Abs_abs wd _ H) (Abs_abs wd _ H))|]. pose proof (Rel_leads _ _ (Abs_abs wd (Dir file) H) (Abs_abs wd p H)) as X. rewrite !(Abs_place [] wd _ H) in X. exact X.
Qed.
Lemma absolute_loc : forall wd file p x, IsAbs wd = true -> file = [] \/ IsAbs file = true -> IsAbs (ResolveAbsolute wd file p) = true /\ loc x (ResolveAbsolute wd file p) = loc (loc (loc [] wd) (Dir file)) p.
Proof.
  intros wd file p x H HF. unfold ResolveAbsolute. destruct (IsAbs p) eqn:E; [split; [exact E|apply loc_abs, E]|]. destruct file as [|c file].
  - split; [apply Abs_abs, H|]. rewrite Abs_place by exact H. reflexivity.
  - destruct HF as [HF|HF]; [discriminate|]. pose proof (Dir_abs _ HF) as HD. rewrite (Join_loc _ p HD). destruct (Clean_loc x (slash :: join (dest (loc [] (Dir (c :: file))) (elems p)))) as [H1 H2]. rewrite H1, H2. split; [reflexivity|].
    rewrite loc_root; [|apply dest_plain; [apply loc_plain; constructor|eapply Forall_impl; [|apply elems_names]; cbv beta; tauto]]. unfold loc at 2. rewrite E. f_equal. apply loc_abs, HD.
Qed.
