(** C72: paths in the relay's configuration lead where they are meant to. *)
From Coq Require Import String Ascii ZArith List Bool Lia.
From Coq Require Import ZifyBool.
From Verif Require Import Base L_Base GoStr M_Address M_Path S_Path L_Path.
Import ListNotations.
Open Scope Z_scope.

Local Ltac places :=
  repeat match goal with
  | H : absolute _ |- _ => apply absolute_iff in H
  | H : leads _ _ _ |- _ => apply leads_loc in H
  | H : dir_of _ _ _ |- _ => apply dir_of_loc in H
  end; subst.

(** [wd] is the working directory, [W] the place it names *)
Theorem C72_relative : forall wd W file dir p to, absolute wd -> leads [] wd W -> dir_of W file dir -> leads W p to ->
  ~ absolute (ResolveRelative wd file p) /\ leads dir (ResolveRelative wd file p) to.
Proof.
  intros wd W file dir p to HA HW HD HL. places. destruct (relative_loc wd file p HA) as [H1 H2]. split.
  - intros X. apply absolute_iff in X. congruence.
  - apply leads_loc. symmetry. exact H2.
Qed.
Print Assumptions C72_relative.

Theorem C72_absolute : forall wd W file dir p to, absolute wd -> leads [] wd W -> file = [] \/ absolute file -> dir_of W file dir -> leads dir p to ->
  absolute (ResolveAbsolute wd file p) /\ forall x, leads x (ResolveAbsolute wd file p) to.
Proof.
  intros wd W file dir p to HA HW HF HD HL. assert (HF' : file = [] \/ IsAbs file = true) by (destruct HF as [HF|HF]; [left; exact HF|right; apply absolute_iff, HF]). clear HF. places.
  split; [apply absolute_iff, (absolute_loc wd file p [] HA HF')|]. intros x. apply leads_loc. symmetry. apply (absolute_loc wd file p x HA HF').
Qed.
Print Assumptions C72_absolute.

Theorem C72_there_and_back : forall wd W file p to, absolute wd -> leads [] wd W -> file = [] \/ absolute file -> leads W p to ->
  forall x, leads x (ResolveAbsolute wd file (ResolveRelative wd file p)) to.
Proof.
  intros wd W file p to HA HW HF HL. assert (HD : dir_of W file (loc W (Dir file))) by (apply dir_of_loc; reflexivity).
  apply (C72_absolute wd W file (loc W (Dir file)) _ to HA HW HF HD). apply (C72_relative wd W file _ p to HA HW HD HL).
Qed.
Print Assumptions C72_there_and_back.

(** the file path is "absolute path" by its comment; nothing makes it so, and then neither are the results *)
Theorem C72_relative_file_refuted : exists wd file p, absolute wd /\ file <> [] /\ ~ absolute (ResolveAbsolute wd file p).
Proof.
  exists (str "/w"), (str "conf/c.json"), (str "data"). split; [exists (str "w"); reflexivity|]. split; [discriminate|]. intros [r H]. vm_compute in H. discriminate.
Qed.
Print Assumptions C72_relative_file_refuted.

(** * The socket *)
Definition weight (l : list (list Z)) : nat := fold_right (fun c n => (length c + 1 + n)%nat) 0%nat l.
Lemma weight_app : forall a b, weight (a ++ b) = (weight a + weight b)%nat.
Proof. induction a as [|x a IH]; intros b; cbn [app weight fold_right]; [reflexivity|]. fold (weight (a ++ b)). fold (weight a). rewrite IH. lia. Qed.
Lemma weight_removelast : forall l, (weight (removelast l) <= weight l)%nat.
Proof. intros l. destruct l as [|x l] using rev_ind; [reflexivity|]. rewrite removelast_last, weight_app. lia. Qed.
Lemma weight_dest : forall l at_, (weight (dest at_ l) <= weight at_ + weight l)%nat.
Proof.
  induction l as [|c l IH]; intros at_; [change (weight at_ <= weight at_ + 0)%nat; lia|]. cbn [dest fold_left]. change (weight (c :: l)) with (length c + 1 + weight l)%nat. change (fold_left go l (go at_ c)) with (dest (go at_ c) l). specialize (IH (go at_ c)).
  assert (weight (go at_ c) <= weight at_ + (length c + 1))%nat; [|lia]. unfold go. destruct (trivial c); [lia|]. destruct (bytes_eqb c dotdot); [pose proof (weight_removelast at_); lia|]. rewrite weight_app. change (weight [c]) with (length c + 1 + 0)%nat. lia.
Qed.
Lemma weight_split : forall p, weight (str_split p slash) = (length p + 1)%nat.
Proof.
  induction p as [|c p IH]; [reflexivity|]. cbn [str_split]. destruct (c =? slash); [cbn [weight fold_right length]; fold (weight (str_split p slash)); lia|].
  destruct (str_split p slash) as [|d l]; cbn [weight fold_right length] in *; lia.
Qed.
Lemma weight_join : forall l, l <> [] -> (length (join l) + 1 = weight l)%nat.
Proof.
  induction l as [|c l IH]; intros H; [contradiction|]. destruct l as [|d l]; [cbn [join weight fold_right]; lia|]. assert (N : d :: l <> []) by discriminate. specialize (IH N).
  change (join (c :: d :: l)) with (c ++ slash :: join (d :: l)). change (weight (c :: d :: l)) with (length c + 1 + weight (d :: l))%nat. rewrite app_length. cbn [length]. lia.
Qed.
Lemma shortest : forall x p, IsAbs p = true -> (length (slash :: join (loc x p)) <= length p)%nat.
Proof.
  intros x p H. destruct p as [|c p]; [discriminate|]. assert (c = slash) by (cbn [IsAbs] in H; lia). subst c. unfold loc. rewrite H, elems_slash. unfold elems. rewrite dest_filter.
  pose proof (weight_dest (str_split p slash) []) as HW. rewrite weight_split in HW. cbn [weight fold_right] in HW. destruct (dest [] (str_split p slash)) as [|d l] eqn:E; [cbn [join length]; lia|].
  pose proof (weight_join (d :: l) ltac:(discriminate)). cbn [length]. lia.
Qed.

(** the path handed to the system: to the same place, not longer than any absolute path to it; refused only for the root *)
Theorem C72_socket : forall wd W p to, absolute wd -> leads [] wd W -> leads W p to ->
  match resolveUnixPath wd p with
  | None => to = []
  | Some q => to <> [] /\ leads W q to /\ forall x a, absolute a -> leads x a to -> (length q <= length a)%nat
  end.
Proof.
  intros wd W p to HA HW HL. places. unfold resolveUnixPath. rewrite Abs_loc by exact HA. set (to := loc (loc [] wd) p).
  assert (HP : Forall plain to) by (apply loc_plain, loc_plain; constructor).
  destruct (bytes_eqb (slash :: join to) [slash]) eqn:E.
  - apply bytes_eqb_eq in E. destruct to as [|c l]; [reflexivity|]. exfalso. destruct (Forall_inv HP) as (HM & _). destruct c as [|y c]; [discriminate|]. destruct l; discriminate E.
  - assert (NE : to <> []) by (intros X; rewrite X in E; discriminate E).
    assert (HS : forall x a, absolute a -> leads x a to -> (length (slash :: join to) <= length a)%nat).
    { intros x a HX HY. apply absolute_iff in HX. apply leads_loc in HY. rewrite HY. apply shortest, HX. }
    destruct (length _ <? length _)%nat eqn:EL; (split; [exact NE|]); split.
    + apply leads_loc. pose proof (Rel_leads (Abs wd dot) (slash :: join to) (Abs_abs wd dot HA) eq_refl) as X. rewrite (Abs_place [] wd dot HA), (loc_root [] to HP) in X. change (loc (loc [] wd) dot) with (loc [] wd) in X. symmetry. exact X.
    + intros x a HX HY. specialize (HS x a HX HY). apply Nat.ltb_lt in EL. lia.
    + apply leads_loc. symmetry. apply loc_root, HP.
    + exact HS.
Qed.
Print Assumptions C72_socket.

(** * Saving and loading *)
Theorem C72_saved_loaded : forall A enc dec wd W file dir can fs (a : A) name fs' p to, (forall a b, enc a = Some b -> dec b = Some a) ->
  absolute wd -> leads [] wd W -> file = [] \/ absolute file -> dir_of W file dir -> name <> [] -> leads dir name to ->
  Save enc wd file can fs a name = Some (fs', p) ->
  leads [] p to /\ (forall file', Load dec wd file' fs' p = Some (a, p)) /\ (forall q, q <> p -> fs' q = fs q).
Proof.
  intros A enc dec wd W file dir can fs a name fs' p to HR HA HW HF HD HN HL H. destruct (C72_absolute wd W file dir name to HA HW HF HD HL) as [H1 H2].
  unfold Save in H. assert (ET : target wd file name = ResolveAbsolute wd file name) by (destruct name; [contradiction|reflexivity]). rewrite ET in H.
  destruct (can (ResolveAbsolute wd file name)); [|discriminate]. destruct (enc a) as [b|] eqn:EB; [|discriminate].
  injection H as HFS HP. rewrite HP in *. symmetry in HFS. split; [apply H2|]. split.
  - intros file'. unfold Load. assert (EP : target wd file' p = p). { apply absolute_iff in H1. unfold target, ResolveAbsolute. destruct p; [reflexivity|]. rewrite H1. reflexivity. }
    rewrite EP, HFS, (proj2 (bytes_eqb_eq p p) eq_refl), (HR a b EB). reflexivity.
  - intros q N. rewrite HFS. destruct (bytes_eqb q p) eqn:E; [apply bytes_eqb_eq in E; contradiction|reflexivity].
Qed.
Print Assumptions C72_saved_loaded.

(** the same relative name after saving is taken from the directory of the saved file, and may name another file *)
Theorem C72_same_name_refuted : exists wd name fs' p,
  Save (A := list Z) Some wd [] (fun _ => true) (fun _ => None) [1] name = Some (fs', p) /\ absolute p /\ Load (A := list Z) Some wd p fs' name = None.
Proof.
  exists (str "/w"), (str "conf/c.json"), (fun q => if bytes_eqb q (str "/w/conf/c.json") then Some [1] else None), (str "/w/conf/c.json").
  split; [reflexivity|]. split; [exists (str "w/conf/c.json"); reflexivity|]. reflexivity.
Qed.
Print Assumptions C72_same_name_refuted.

Lemma Rel_nonempty : forall base targ, IsAbs base = true -> IsAbs targ = true -> Rel base targ <> [].
Proof.
  intros base targ HB HT E. unfold Rel in E. rewrite !elems_Clean in E by assumption. pose proof (rel_elems_ok (loc [] base) (loc [] targ) (loc_plain _ _ (Forall_nil _))) as HO.
  destruct (rel_elems _ _) as [|e es]; [discriminate E|]. destruct (Forall_inv HO) as [HM _]. destruct e; [discriminate HM|]. destruct es; discriminate E.
Qed.

(** * The save command *)
(** what was in use before saving is in use with the saved file, started from anywhere, if the settings came from options
    only, from a configuration file in the working directory, or as absolute paths *)
Theorem C72_save_keeps : forall wd W f read c wd' name, absolute wd -> leads [] wd W -> absolute wd' -> preRun wd f read = Some c ->
  (dir_of W (p_file c) W \/ absolute (p_base c) -> forall x to, leads x (AbsBaseDir wd c) to -> leads x (AbsBaseDir wd' (saved wd c name)) to) /\
  (dir_of W (p_file c) W \/ absolute (p_log c) -> forall x l to, log_file wd c = Some l -> leads x l to ->
     exists l', log_file wd' (saved wd c name) = Some l' /\ leads x l' to).
Proof.
  intros wd W f read c wd' name HA HW HA' HP. places.
  assert (HF : p_file c = match f_config f with [] => [] | s => Abs wd s end).
  { unfold preRun in HP. destruct (f_config f) as [|s0 s]; [injection HP as <-; reflexivity|]. destruct (read (s0 :: s)) as [[b l]|]; [|discriminate]. injection HP as <-. reflexivity. }
  assert (HF2 : p_file c = [] \/ IsAbs (p_file c) = true). { rewrite HF. destruct (f_config f); [left; reflexivity|right; apply Abs_abs, HA]. }
  set (W := loc [] wd) in *.
  assert (key : forall q x, (dir_of W (p_file c) W \/ absolute q) ->
    loc x (ResolveAbsolute wd' (Abs wd name) (ResolveRelative wd (Abs wd name) q)) = loc x (ResolveAbsolute wd (p_file c) q)).
  { intros q x HC. destruct (absolute_loc wd' (Abs wd name) (ResolveRelative wd (Abs wd name) q) x HA' (or_intror (Abs_abs wd name HA))) as [_ ->].
    destruct (absolute_loc wd (p_file c) q x HA HF2) as [_ ->]. pose proof (Abs_abs wd name HA) as HN.
    rewrite (loc_abs (loc [] wd') (loc [] wd) _ (Dir_abs _ HN)). rewrite (proj2 (relative_loc wd (Abs wd name) q HA)). fold W. destruct HC as [HC|HC]; [|apply loc_abs, absolute_iff, HC].
    f_equal. apply dir_of_loc in HC. exact HC. }
  split.
  - intros HC x to HL. apply leads_loc in HL. subst to. apply leads_loc. symmetry. apply key, HC.
  - intros HC x l to HLog HL. apply leads_loc in HL. subst to. unfold log_file in *. cbn [saved p_log p_file]. destruct (p_log c) as [|l0 ls] eqn:EL; [discriminate|]. assert (l = ResolveAbsolute wd (p_file c) (l0 :: ls)) by congruence. subst l.
    exists (ResolveAbsolute wd' (Abs wd name) (ResolveRelative wd (Abs wd name) (l0 :: ls))). split.
    + destruct (ResolveRelative wd (Abs wd name) (l0 :: ls)) eqn:E; [|reflexivity]. exfalso. exact (Rel_nonempty _ _ (Abs_abs wd _ HA) (Abs_abs wd _ HA) E).
    + apply leads_loc. symmetry. apply key, HC.
Qed.
Print Assumptions C72_save_keeps.

(** a file elsewhere: its relative paths are taken from the working directory when saving, and from its directory when used *)
Theorem C72_save_moves_refuted : exists wd f read c name,
  absolute wd /\ preRun wd f read = Some c /\ f_base f = [] /\ leads [] (AbsBaseDir wd c) [str "w"; str "conf"; str "data"] /\
  leads [] (AbsBaseDir wd (saved wd c name)) [str "w"; str "data"].
Proof.
  exists (str "/w"), (mkFlags (str "conf/c.json") [] []), (fun _ => Some (str "data", [])), (mkPcfg (str "/w/conf/c.json") (str "data") []), (str "c2.json").
  split; [exists (str "w"); reflexivity|]. split; [reflexivity|]. split; [reflexivity|]. split; apply leads_loc; reflexivity.
Qed.
Print Assumptions C72_save_moves_refuted.
(** also an option given beside such a file is first made relative to the file and then taken from the working directory *)
Theorem C72_save_option_moves_refuted : exists wd f read c name,
  absolute wd /\ preRun wd f read = Some c /\ f_base f = str "data" /\ leads [] (AbsBaseDir wd c) [str "w"; str "data"] /\
  leads [] (AbsBaseDir wd (saved wd c name)) [str "data"].
Proof.
  exists (str "/w"), (mkFlags (str "conf/c.json") (str "data") []), (fun _ => Some ([], [])), (mkPcfg (str "/w/conf/c.json") (str "../data") []), (str "c2.json").
  split; [exists (str "w"); reflexivity|]. split; [reflexivity|]. split; [reflexivity|]. split; apply leads_loc; reflexivity.
Qed.
Print Assumptions C72_save_option_moves_refuted.
(** no log file is set; the saved configuration has one: the working directory itself *)
Theorem C72_save_log_refuted : exists wd f read c name l,
  absolute wd /\ preRun wd f read = Some c /\ log_file wd c = None /\ log_file wd (saved wd c name) = Some l /\ leads [] l [str "w"] /\ leads [] wd [str "w"].
Proof.
  exists (str "/w"), (mkFlags [] [] []), (fun _ => None), (mkPcfg [] [] []), (str "c.json"), (str "/w").
  split; [exists (str "w"); reflexivity|]. split; [reflexivity|]. split; [reflexivity|]. split; [reflexivity|]. split; apply leads_loc; reflexivity.
Qed.
Print Assumptions C72_save_log_refuted.

Example C72_ex_relative : ResolveRelative (str "/home/me") (str "/etc/btp/c.json") (str "./data/../logs") = str "../../home/me/logs"
  /\ ResolveAbsolute (str "/") (str "/etc/btp/c.json") (str "../../home/me/logs") = str "/home/me/logs".
Proof. split; reflexivity. Qed.
Example C72_ex_places : absolute (str "/home/me") /\ leads [] (str "/home/me") [str "home"; str "me"] /\ dir_of [str "home"; str "me"] (str "/etc/btp/c.json") [str "etc"; str "btp"]
  /\ leads [str "home"; str "me"] (str "./data/../logs") [str "home"; str "me"; str "logs"].
Proof. split; [exists (str "home/me"); reflexivity|]. split; [apply leads_loc; reflexivity|]. split; [apply dir_of_loc; reflexivity|apply leads_loc; reflexivity]. Qed.
Example C72_ex_socket : resolveUnixPath (str "/home/me") (str "/home/me/x/s.sock") = Some (str "x/s.sock") /\ resolveUnixPath (str "/a/b/c/d") (str "/s") = Some (str "/s") /\ resolveUnixPath (str "/a") (str "..") = None.
Proof. repeat split; reflexivity. Qed.
Example C72_ex_saved : exists fs', Save (A := list Z) Some (str "/w") [] (fun _ => true) (fun _ => None) [1] (str "conf/c.json") = Some (fs', str "/w/conf/c.json").
Proof. eexists. reflexivity. Qed.
Example C72_ex_keeps : exists c, preRun (str "/w") (mkFlags (str "c.json") (str "data") []) (fun _ => Some ([], str "log/x")) = Some c /\ dir_of [str "w"] (p_file c) [str "w"]
  /\ AbsBaseDir (str "/") (saved (str "/w") c (str "sub/c2.json")) = str "/w/data" /\ log_file (str "/") (saved (str "/w") c (str "sub/c2.json")) = Some (str "/w/log/x").
Proof. eexists. split; [reflexivity|]. split; [apply dir_of_loc; reflexivity|]. split; reflexivity. Qed.
