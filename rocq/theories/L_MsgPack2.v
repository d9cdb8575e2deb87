(** Lemmas for codec.MP: reading every form, writing the shortest. *)
From Coq Require Import String Ascii ZArith List Bool Lia Permutation Sorted.
From Coq Require Import ZifyBool.
From Verif Require Import Base L_Base GoStr GoSort M_IntConv M_Rlp S_Rlp L_Rlp L_Address M_Codec S_Codec L_Codec T_Codec M_MsgPack S_MsgPack L_MsgPack.
Import ListNotations.
Open Scope Z_scope.

Lemma struct_types : forall fs vs, has_type (TStruct fs) (VStruct vs) <-> Forall2 has_type fs vs.
Proof.
  induction fs as [|f fs IH]; intros [|v vs]; cbn [has_type]; try (split; [tauto || (intros []) |intros H; inversion H]; fail).
  - split; [constructor|auto].
  - split; [intros [A B]; constructor; [exact A|apply IH; exact B]|intros H; inversion H; subst; split; [assumption|apply IH; assumption]].
Qed.
Lemma simple_struct : forall fs, simple_pointers (TStruct fs) -> Forall simple_pointers fs.
Proof. induction fs as [|f fs IH]; cbn [simple_pointers fold_right]; [constructor|intros [A B]; constructor; auto]. Qed.

(** ** lists of values *)
Definition rd (dec : list Z -> mout val) (v : val) (b : list Z) : Prop := forall rest, dec (b ++ rest) = MOk v rest.
Lemma slice_read : forall dec l parts rest, Forall2 (rd dec) l parts -> mp_slice dec (length l) (concat parts ++ rest) = Some (l, O, rest).
Proof.
  intros dec l parts rest F. induction F as [|v b l parts H F IH]; [reflexivity|]. cbn [length mp_slice concat]. rewrite <- app_assoc, H, IH. reflexivity.
Qed.
Lemma fields_read : forall decs more vs parts rest, Forall2 (fun d vb => rd (snd d) (fst vb) (snd vb)) decs (combine vs parts) -> length vs = length parts ->
  mp_fields (decs ++ more) (length vs) (concat parts ++ rest) = Some (vs ++ map fst more, O, rest).
Proof.
  induction decs as [|[z d] decs IH]; intros more [|v vs] [|b parts] rest F L; cbn [combine length] in *; try discriminate; inversion F as [|? ? ? ? R F2]; subst.
  - cbn [app map fst]. destruct more as [|[z d] more]; reflexivity.
  - cbn [app mp_fields concat]. rewrite <- app_assoc. cbn [snd fst] in R. rewrite R, IH by (assumption || lia). reflexivity.
Qed.
Lemma fields_extra : forall decs vs parts k rest, Forall2 (fun d vb => rd (snd d) (fst vb) (snd vb)) decs (combine vs parts) -> length vs = length parts ->
  mp_fields decs (length vs + k) (concat parts ++ rest) = Some (vs, k, rest).
Proof.
  induction decs as [|[z d] decs IH]; intros [|v vs] [|b parts] k rest F L; cbn [combine length] in *; try discriminate; inversion F as [|? ? ? ? R F2]; subst.
  - reflexivity.
  - cbn [plus mp_fields concat]. rewrite <- app_assoc. cbn [snd fst] in R. rewrite R, IH by (assumption || lia). reflexivity.
Qed.
Lemma close_none : forall A B (f : A -> B) a s, mp_close f (Some (a, O, s)) = MOk (f a) s.
Proof. intros. reflexivity. Qed.
Lemma close_extra : forall A B (f : A -> B) a more parts rest, Forall2 mp_form more parts -> mp_close f (Some (a, length more, concat parts ++ rest)) = MOk (f a) rest.
Proof.
  intros A B f a more parts rest F. cbn [mp_close].
  assert (F2 : Forall2 (fun (i : item) b => skips b 1) more parts) by (eapply Forall2_impl_in; [|exact F]; apply Forall_forall; intros i _ b; apply skip_form).
  pose proof (skip_all _ _ F2 O 0 rest rest ltac:(lia) eq_refl) as SK. cbn [plus] in SK. change (Z.of_nat (length more)) with (zlen more). rewrite Z.add_0_l in SK.
  rewrite (skip_more (length (concat parts)) (S (length (concat parts ++ rest))) _ _ _ ltac:(rewrite app_length; lia) SK). reflexivity.
Qed.

(** ** the entries of a map *)
Definition entry_form (kv : gkey * val) (p : list Z) : Prop := exists a b, mp_form (key_item (fst kv)) a /\ mp_form (item_of (snd kv)) b /\ p = a ++ b.
Lemma pair_forms : forall m parts, Forall2 mp_form (flat_map (fun kv => [fst kv; snd kv]) (map (fun kv => (key_item (fst kv), item_of (snd kv))) m)) parts ->
  exists ps, Forall2 entry_form m ps /\ concat parts = concat ps.
Proof.
  induction m as [|[k v] m IH]; cbn [map flat_map app fst snd]; intros parts F.
  - inversion F; subst. exists []. split; [constructor|reflexivity].
  - inversion F as [|? a ? r Fa F2]; subst. inversion F2 as [|? b ? r2 Fb F3]; subst. destruct (IH _ F3) as (ps & G & E).
    exists ((a ++ b) :: ps). split; [constructor; [exists a, b; auto|exact G]|]. cbn [concat]. rewrite E, app_assoc. reflexivity.
Qed.
Lemma entry_forms : forall m ps, Forall2 entry_form m ps ->
  exists parts, Forall2 mp_form (flat_map (fun kv => [fst kv; snd kv]) (map (fun kv => (key_item (fst kv), item_of (snd kv))) m)) parts /\ concat parts = concat ps.
Proof.
  intros m ps F. induction F as [|[k v] p m ps (a & b & Fa & Fb & ->) F (parts & G & E)]; [exists []; split; [constructor|reflexivity]|].
  exists (a :: b :: parts). split; [cbn [map flat_map app fst snd]; constructor; [exact Fa|constructor; [exact Fb|exact G]]|]. cbn [concat]. rewrite E, app_assoc. reflexivity.
Qed.
Lemma key_read : forall k x b rest, key_has_kind k x -> mp_form (key_item x) b -> mp_readKey k (b ++ rest) = MOk x rest.
Proof.
  intros [|bits|bits] [s|z|z] b rest K F; cbn in K; try contradiction; cbn [key_item] in F; inversion F as [| | |? ? NF|? L|? L|? ? HH|? ? HH|? ? ? HH|? ? ? HH FF|? ? ? HH FF]; subst; cbn [mp_readKey].
  - unfold mp_readString. rewrite str_read by assumption. reflexivity.
  - destruct K. rewrite (int_read _ z) by assumption. reflexivity.
  - destruct K. rewrite (uint_read _ z) by assumption. reflexivity.
Qed.
Lemma entries_read : forall kdec vdec m ps acc rest, Forall2 (fun kv p => exists a b, (forall r, kdec (a ++ r) = MOk (fst kv) r) /\ rd vdec (snd kv) b /\ p = a ++ b) m ps ->
  mp_entries kdec vdec (length m) acc (concat ps ++ rest) = Some (fold_left (fun a kv => map_set (fst kv) (snd kv) a) m acc, O, rest).
Proof.
  intros kdec vdec m ps acc rest F. revert acc. induction F as [|[k v] p m ps (a & b & A & B & ->) F IH]; intros acc; [reflexivity|].
  cbn [length mp_entries concat fold_left fst snd]. rewrite <- !app_assoc. cbn [fst snd] in A, B. rewrite A, B. apply IH.
Qed.
Lemma sets_sorted : forall m acc, StronglySorted (fun a b => key_lt (fst a) (fst b)) (acc ++ m) -> fold_left (fun a kv => map_set (fst kv) (snd kv) a) m acc = acc ++ m.
Proof.
  induction m as [|[k v] m IH]; intros acc HS; cbn [fold_left fst snd]; [rewrite app_nil_r; reflexivity|].
  assert (HA : Forall (fun kv => key_lt (fst kv) k) acc).
  { clear -HS. induction acc as [|a acc IHa]; constructor.
    - inversion HS as [|? ? _ HF]; subst. rewrite Forall_forall in HF. apply (HF (k, v)). apply in_or_app. right; left; reflexivity.
    - apply IHa. inversion HS; assumption. }
  rewrite map_set_last by assumption. rewrite IH; rewrite <- app_assoc; [reflexivity|exact HS].
Qed.

(** ** reading *)
Definition reads (t : ty) (v : val) : Prop := forall b rest, mp_form (item_of v) b -> mp_decode t (b ++ rest) = match v with VPtr None => MNil rest | _ => MOk v rest end.
Lemma reads_nullable : forall t v b, has_type t v -> reads t v -> mp_form (item_of v) b -> rd (fun s => mnullable (zero t) (mp_decode t s)) v b.
Proof.
  intros t v b HT R F rest. rewrite (R _ _ F). destruct v; try reflexivity. destruct v; [reflexivity|]. destruct t; cbn in HT; try contradiction. reflexivity.
Qed.
Lemma reads_nil : forall t rest, ~ can_be_nil t -> mp_decode t ([192] ++ rest) = MNil rest.
Proof. intros t rest N. destruct t; cbn [can_be_nil] in N; try tauto; reflexivity. Qed.
Lemma forms_map : forall l parts, Forall2 mp_form (map item_of l) parts <-> Forall2 (fun v b => mp_form (item_of v) b) l parts.
Proof. intros l parts. revert parts. induction l as [|v l IH]; intros parts; cbn [map]; (split; intros H; inversion H; subst; constructor; auto; apply IH; assumption). Qed.
Lemma Forall2_and_l : forall A B (P : A -> Prop) (R : A -> B -> Prop) l l', Forall P l -> Forall2 R l l' -> Forall2 (fun a b => P a /\ R a b) l l'.
Proof. intros A B P R l l' F G. induction G as [|a b l l' H G IH]; constructor; [split; [exact (Forall_inv F)|exact H]|exact (IH (Forall_inv_tail F))]. Qed.
Lemma Forall2_mono : forall A B (P Q : A -> B -> Prop) l l', (forall a b, P a b -> Q a b) -> Forall2 P l l' -> Forall2 Q l l'.
Proof. intros A B P Q l l' H F. induction F; constructor; auto. Qed.
Lemma Forall2_len : forall A B (P : A -> B -> Prop) l l', Forall2 P l l' -> length l = length l'.
Proof. intros A B P l l' F. induction F; cbn [length]; lia. Qed.

Lemma fields_rd : forall fs vs parts, Forall2 (fun t v => has_type t v /\ reads t v) fs vs -> Forall2 (fun v b => mp_form (item_of v) b) vs parts ->
  Forall2 (fun d vb => rd (snd d) (fst vb) (snd vb)) (map (fun t' => (zero t', fun s => mnullable (zero t') (mp_decode t' s))) fs) (combine vs parts).
Proof.
  intros fs vs parts F. revert parts. induction F as [|t v fs vs [HT R] F IH]; intros parts G; inversion G; subst; cbn [map combine]; [constructor|]. constructor; [cbn [fst snd]; apply reads_nullable; assumption|]. apply IH. assumption.
Qed.
Lemma map_repeat : forall A B (f : A -> B) x n, map f (repeat x n) = repeat (f x) n.
Proof. intros. induction n as [|n IH]; [reflexivity|]. cbn [repeat map]. rewrite IH. reflexivity. Qed.
Lemma array_fields : forall t l, Forall (fun v => has_type t v /\ reads t v) l -> Forall2 (fun t v => has_type t v /\ reads t v) (repeat t (length l)) l.
Proof. intros t l F. induction F as [|v l H F IH]; cbn [length repeat]; constructor; assumption. Qed.

Lemma read_any : forall t v, simple_pointers t -> has_type t v -> reads t v.
Proof.
  induction t as [|bits|bits| | |n|t IH|t IH|n t IH|fs IH|k t IH] using ty_ind2; intros v HP HT b rest F.
  - destruct v; cbn in HT; try contradiction. cbn [item_of] in F. inversion F; subst; reflexivity.
  - destruct v; cbn in HT; try contradiction. destruct HT. cbn [item_of] in F. inversion F; subst. cbn [mp_decode]. rewrite (uint_read _ z) by assumption. reflexivity.
  - destruct v; cbn in HT; try contradiction. destruct HT. cbn [item_of] in F. inversion F; subst. cbn [mp_decode]. rewrite (int_read _ z) by assumption. reflexivity.
  - destruct v; cbn in HT; try contradiction. cbn [item_of] in F. inversion F; subst. cbn [mp_decode]. unfold mp_readString. rewrite str_read by assumption. reflexivity.
  - destruct v as [| | | |[x|]| | | | | |]; cbn in HT; try contradiction; cbn [item_of] in F; inversion F; subst; cbn [mp_decode]; [rewrite bin_read by assumption|]; reflexivity.
  - destruct v as [| | | | |x| | | | |]; cbn in HT; try contradiction. destruct HT as [H1 H2]. cbn [item_of] in F. inversion F; subst; cbn [mp_decode]. rewrite bin_read by assumption. cbn [mmap].
    rewrite go_copy_all by (rewrite repeat_length; reflexivity). reflexivity.
  - destruct HP as [HP1 HP2]. destruct v as [| | | | | |[v|]| | | |]; cbn in HT; try contradiction; cbn [item_of] in F.
    + cbn [mp_decode]. rewrite (IH v HP2 HT _ rest F). destruct v; try reflexivity. destruct v; [reflexivity|]. destruct t; cbn in HT; try contradiction.
    + inversion F; subst. cbn [mp_decode]. rewrite reads_nil by assumption. reflexivity.
  - cbn [simple_pointers] in HP. destruct v as [| | | | | | |[l|]| | |]; cbn in HT; try contradiction; cbn [item_of] in F; [|inversion F; subst; reflexivity].
    inversion F as [| | |? ? NF|? L|? L|? ? HH|? ? HH|? ? ? HH|? h parts HH FF|? ? ? HH FF]; subst. apply forms_map in FF. cbn [mp_decode]. rewrite <- app_assoc.
    unfold zlen in HH. rewrite map_length in HH. rewrite (list_read _ _ _ HH). rewrite slice_read; [reflexivity|].
    eapply Forall2_mono; [|exact (Forall2_and_l _ _ _ _ _ _ HT FF)]. intros v p [A B]. apply reads_nullable; auto.
  - cbn [simple_pointers] in HP. destruct v as [| | | | | | | |l| |]; cbn in HT; try contradiction. destruct HT as [<- HT]. cbn [item_of] in F.
    inversion F as [| | |? ? NF|? L|? L|? ? HH|? ? HH|? ? ? HH|? h parts HH FF|? ? ? HH FF]; subst. apply forms_map in FF. cbn [mp_decode]. rewrite <- app_assoc.
    unfold zlen in HH. rewrite map_length in HH. rewrite (list_read _ _ _ HH).
    rewrite <- (map_repeat _ _ (fun t' => (zero t', fun s => mnullable (zero t') (mp_decode t' s)))). rewrite <- (app_nil_r (map _ (repeat t (length l)))).
    rewrite fields_read; [cbn [map]; rewrite app_nil_r; reflexivity| |exact (Forall2_len _ _ _ _ _ FF)]. apply fields_rd; [|exact FF].
    apply array_fields. eapply Forall_impl; [|exact HT]. intros v A. split; [exact A|apply IH; assumption].
  - apply simple_struct in HP. destruct v as [| | | | | | | | |l|]; cbn in HT; try contradiction. change (has_type (TStruct fs) (VStruct l)) in HT. apply struct_types in HT. cbn [item_of] in F.
    inversion F as [| | |? ? NF|? L|? L|? ? HH|? ? HH|? ? ? HH|? h parts HH FF|? ? ? HH FF]; subst. apply forms_map in FF. cbn [mp_decode]. rewrite <- app_assoc.
    unfold zlen in HH. rewrite map_length in HH. rewrite (list_read _ _ _ HH).
    rewrite <- (app_nil_r (map _ fs)).
    rewrite fields_read; [cbn [map]; rewrite app_nil_r; reflexivity| |exact (Forall2_len _ _ _ _ _ FF)]. apply fields_rd; [|exact FF].
    clear -IH HP HT. induction HT as [|t v fs vs H HT IHT]; constructor; [split; [exact H|exact (Forall_inv IH v (Forall_inv HP) H)]|]. apply IHT; [exact (Forall_inv_tail IH)|exact (Forall_inv_tail HP)].
  - cbn [simple_pointers] in HP. destruct v as [| | | | | | | | | |[m|]]; cbn in HT; try contradiction; cbn [item_of] in F; [|inversion F; subst; reflexivity].
    destruct HT as [HS HT]. inversion F as [| | |? ? NF|? L|? L|? ? HH|? ? HH|? ? ? HH|? ? ? HH FF|? h parts HH FF]; subst. apply pair_forms in FF as (ps & FF & E). cbn [mp_decode]. rewrite <- app_assoc.
    unfold zlen in HH. rewrite map_length in HH. rewrite (map_read _ _ _ HH), E.
    rewrite entries_read; [rewrite sets_sorted by exact HS; reflexivity|].
    eapply Forall2_mono; [|exact (Forall2_and_l _ _ _ _ _ _ HT FF)]. intros [kk v] p [[A1 A2] (x & y & X & Y & ->)]. cbn [fst snd] in *. exists x, y.
    split; [intros r; apply key_read; assumption|]. split; [apply reads_nullable; auto|reflexivity].
Qed.
