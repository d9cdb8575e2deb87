(** Lemmas about permissions. *)
From Coq Require Import String Ascii ZArith List Bool Lia.
From Coq Require Import ZifyBool.
From Verif Require Import Base L_Base GoStr M_JMap L_JMap M_PyDb S_PyDb L_PyDb M_PyBmc L_PyBmc M_PyLink L_PyLink M_PyPerm S_PyPerm.
Import ListNotations.
Open Scope Z_scope.
Local Notation bytes := (list Z).

(** * Texts *)
Lemma split_clean : forall s, Forall no_comma (split_keys s).
Proof.
  induction s as [|c s IH]; cbn [split_keys]; [constructor; [intros []|constructor]|]. destruct (Z.eqb_spec c comma) as [->|N]; [constructor; [intros []|exact IH]|].
  destruct (split_keys s) as [|w ws]; [constructor; [intros [->|[]]; apply N; reflexivity|constructor]|]. inversion IH as [|? ? A B]; subst. constructor; [intros [->|I]; [apply N; reflexivity|contradiction]|exact B].
Qed.
Lemma join_split : forall s, join_keys (split_keys s) = s.
Proof.
  induction s as [|c s IH]; cbn [split_keys]; [reflexivity|]. pose proof (split_not_nil s) as NN. destruct (Z.eqb_spec c comma) as [->|N].
  - destruct (split_keys s) as [|w ws] eqn:E; [congruence|]. change (join_keys ([] :: w :: ws)) with ([] ++ comma :: join_keys (w :: ws)). rewrite IH. reflexivity.
  - destruct (split_keys s) as [|w ws] eqn:E; [congruence|]. destruct ws as [|v ws]; [cbn [join_keys] in *; congruence|]. change (join_keys ((c :: w) :: v :: ws)) with (c :: w ++ comma :: join_keys (v :: ws)). change (join_keys (w :: v :: ws)) with (w ++ comma :: join_keys (v :: ws)) in IH. rewrite IH. reflexivity.
Qed.
Lemma join_empty : forall l api, join_keys l = [] -> In api l -> api = [].
Proof.
  intros [|a [|b l]] api E I; [destruct I|cbn [join_keys] in E; destruct I as [<-|[]]; exact E|]. change (join_keys (a :: b :: l)) with (a ++ comma :: join_keys (b :: l)) in E. destruct a; discriminate E.
Qed.
Lemma listed_split : forall t api, listed t api <-> api <> [] /\ exists l, from_string t = Some l /\ In api l.
Proof.
  intros t api. split.
  - intros (NE & l & -> & F & I). split; [exact NE|]. assert (NL : l <> []) by (intros ->; destruct I). exists l. split; [|exact I]. unfold from_string. destruct (join_keys l) eqn:E; [elim NE; eapply join_empty; eassumption|]. rewrite <- E. rewrite split_join; [reflexivity|exact NL|exact F].
  - intros (NE & l & E & I). split; [exact NE|]. unfold from_string in E. destruct t as [|c t]; [discriminate E|]. injection E as <-. exists (split_keys (c :: t)). split; [symmetry; apply join_split|]. split; [apply split_clean|exact I].
Qed.
Lemma apis_clean : Forall no_comma APIS.
Proof. apply Forall_forall. intros x I. apply has_comma. revert x I. apply Forall_forall. vm_compute. repeat constructor. Qed.
Lemma apis_full : forall x, In x APIS -> x <> [].
Proof. intros x I ->. vm_compute in I. repeat (destruct I as [I|I]; [discriminate I|]). destruct I. Qed.
Lemma of_apis : forall l, Forall (fun x => In x APIS) l -> Forall no_comma l.
Proof. intros l F. eapply Forall_impl; [|exact F]. intros x I. exact (proj1 (Forall_forall _ _) apis_clean x I). Qed.
Lemma from_join : forall l, Forall (fun x => In x APIS) l -> from_string (join_keys l) = match l with [] => None | _ => Some l end.
Proof.
  intros [|a l] F; [reflexivity|]. unfold from_string. destruct (join_keys (a :: l)) eqn:E; [|rewrite <- E, split_join; [reflexivity|discriminate|apply of_apis, F]].
  inversion F as [|? ? A B]; subst. exfalso. apply (apis_full a A). eapply join_empty; [exact E|left; reflexivity].
Qed.
Lemma listed_join : forall l api, Forall (fun x => In x APIS) l -> (listed (join_keys l) api <-> In api l).
Proof.
  intros l api F. rewrite listed_split, (from_join l F). destruct l as [|a l].
  - split; [intros (_ & x & X & _); discriminate X|intros []].
  - split; [intros (_ & x & X & I); injection X as <-; exact I|]. intros I. split; [apply apis_full; exact (proj1 (Forall_forall _ _) F api I)|]. eexists. split; [reflexivity|exact I].
Qed.
Lemma from_some : forall t m, from_string t = Some m -> m = split_keys t.
Proof. intros [|c t] m E; [discriminate E|]. unfold from_string in E. congruence. Qed.
Lemma checked_ok : forall t l, checked t = Val l -> t = join_keys l /\ l <> [] /\ Forall (fun x => In x APIS) l /\ (forall api, listed t api <-> In api l).
Proof.
  intros t l E. unfold checked in E. destruct (from_string t) as [m|] eqn:S; [|discriminate E]. destruct (is_valid m) eqn:V; [|discriminate E]. injection E as ->. apply from_some in S. subst l. rename t into u. unfold is_valid in V. match type of V with (if ?b then _ else _) = _ => destruct b; [discriminate V|] end.
  assert (F : Forall (fun x => In x APIS) (split_keys u)) by (apply Forall_forall; intros x I; rewrite forallb_forall in V; apply member_in, V, I).
  split; [symmetry; apply join_split|]. split; [apply split_not_nil|]. split; [exact F|]. intros api. rewrite <- (listed_join _ _ F), join_split. reflexivity.
Qed.
Lemma checked_valid : forall l, l <> [] -> Forall (fun x => In x APIS) l -> checked (join_keys l) = Val l.
Proof.
  intros l NE F. unfold checked. rewrite (from_join l F). destruct l as [|a l]; [congruence|]. unfold is_valid. replace (zlen (a :: l) =? 0) with false by (rewrite zlen_cons; pose proof (zlen_nonneg _ l); lia). replace (forallb _ (a :: l)) with true; [reflexivity|]. symmetry. apply forallb_forall. intros x I. apply member_in. exact (proj1 (Forall_forall _ _) F x I).
Qed.
(** * Lists *)
Lemma merge_in : forall other org api, In api (merge org other) <-> In api org \/ In api other.
Proof.
  induction other as [|a r IH]; intros org api; cbn [merge]; [cbn [In]; tauto|]. rewrite IH. destruct (member a org) eqn:M; [apply member_in in M; cbn [In]; split; [tauto|intros [X|[<-|X]]; auto]|]. rewrite in_app_iff. cbn [In]. tauto.
Qed.
Lemma merge_once : forall other org, NoDup org -> NoDup (merge org other).
Proof.
  induction other as [|a r IH]; intros org N; cbn [merge]; [exact N|]. apply IH. destruct (member a org) eqn:M; [exact N|]. assert (NI : ~ In a org) by (intros X; apply member_in in X; congruence). clear - N NI. induction org as [|b org IH]; [constructor; [intros []|constructor]|]. inversion N as [|? ? N1 N2]; subst. cbn [app]. constructor; [|apply IH; [exact N2|intros X; apply NI; right; exact X]]. rewrite in_app_iff. intros [X|[<-|[]]]; [contradiction|apply NI; left; reflexivity].
Qed.
Lemma take_out_sub : forall x l api, In api (take_out x l) -> In api l.
Proof. intros x l api. induction l as [|b l IH]; cbn [take_out]; [tauto|]. destruct (bytes_eqb b x); [intros I; right; exact I|]. intros [<-|I]; [left; reflexivity|right; apply IH, I]. Qed.
Lemma take_out_keep : forall x l api, api <> x -> In api l -> In api (take_out x l).
Proof. intros x l api NE. induction l as [|b l IH]; cbn [take_out]; [tauto|]. destruct (bytes_eqb b x) eqn:B; [apply bytes_eqb_eq in B; subst b; intros [<-|I]; [congruence|exact I]|]. intros [<-|I]; [left; reflexivity|right; apply IH, I]. Qed.
Lemma take_out_once : forall x l, NoDup l -> NoDup (take_out x l) /\ ~ In x (take_out x l).
Proof.
  intros x l. induction l as [|b l IH]; intros N; cbn [take_out]; [split; [constructor|intros []]|]. inversion N as [|? ? N1 N2]; subst. destruct (bytes_eqb b x) eqn:B; [apply bytes_eqb_eq in B; subst b; split; assumption|]. destruct (IH N2) as (A & C). split; [constructor; [intros X; apply N1; eapply take_out_sub, X|exact A]|]. intros [->|X]; [rewrite bytes_eqb_refl in B; discriminate B|contradiction].
Qed.
Lemma remove_sub : forall other org api, In api (remove_apis org other) -> In api org.
Proof. induction other as [|a r IH]; intros org api I; cbn [remove_apis] in I; [exact I|]. apply IH in I. destruct (member a org); [eapply take_out_sub, I|exact I]. Qed.
Lemma remove_keep : forall other org api, ~ In api other -> In api org -> In api (remove_apis org other).
Proof.
  induction other as [|a r IH]; intros org api N I; cbn [remove_apis]; [exact I|]. apply IH; [intros X; apply N; right; exact X|]. destruct (member a org); [|exact I]. apply take_out_keep; [intros ->; apply N; left; reflexivity|exact I].
Qed.
Lemma remove_once : forall other org api, NoDup org -> In api other -> ~ In api (remove_apis org other).
Proof.
  induction other as [|a r IH]; intros org api N I; [destruct I|]. cbn [remove_apis]. destruct (member a org) eqn:M.
  - destruct (take_out_once a org N) as (N2 & NI). destruct I as [->|I]; [intros X; apply NI; eapply remove_sub, X|apply IH; assumption].
  - destruct I as [->|I]; [intros X; apply remove_sub in X; apply member_in in X; congruence|apply IH; assumption].
Qed.
(** * Calls *)
Lemma gate_spec : forall s sender origin api, api <> [] -> (has_permission s sender origin api = Val tt <-> allowed s sender origin api).
Proof.
  intros s sender origin api NE. unfold has_permission, allowed. destruct (p_access s); [|split; [left; reflexivity|reflexivity]].
  assert (X : forall w, known s w = true -> (bind (need (entry s w)) (fun l => if member api l then Val tt else Raise (unauthorized api)) = Val tt <-> holds s w api)).
  { intros w K. unfold known in K. unfold entry, holds. destruct (kget w (p_table s)) as [t|]; [|discriminate K]. destruct (from_string t) as [l|] eqn:F.
    - cbn [need bind]. destruct (member api l) eqn:M; [apply member_in in M; split; [intros _; exists t; split; [reflexivity|]; apply listed_split; split; [exact NE|]; exists l; auto|reflexivity]|].
      split; [discriminate|]. intros (u & U & L). injection U as <-. apply listed_split in L as (_ & m & L & I). rewrite F in L. injection L as <-. apply member_in in I. congruence.
    - split; [discriminate|]. intros (u & U & L). injection U as <-. apply listed_split in L as (_ & m & L & I). congruence. }
  assert (KN : forall w, known s w = false -> kget w (p_table s) = None) by (intros w K; unfold known in K; destruct (kget w (p_table s)); [discriminate K|reflexivity]).
  assert (NH : forall w, known s w = false -> ~ holds s w api) by (intros w K (t & T & _); rewrite (KN w K) in T; discriminate T).
  destruct (known s sender) eqn:KS; cbn [bind].
  - rewrite (X sender KS). split; [auto|]. intros [Y|[Y|(Y & _)]]; [discriminate Y|exact Y|]. unfold known in KS. rewrite Y in KS. discriminate KS.
  - destruct (known s origin) eqn:KO; cbn [bind].
    + rewrite (X origin KO). split; [intros Y; right; right; split; [apply KN, KS|exact Y]|]. intros [Y|[Y|(_ & Y)]]; [discriminate Y|elim (NH _ KS Y)|exact Y].
    + split; [discriminate|]. intros [Y|[Y|(_ & Y)]]; [discriminate Y|elim (NH _ KS Y)|elim (NH _ KO Y)].
Qed.
Lemma gate_val : forall s sender origin api x, api <> [] -> has_permission s sender origin api = Val x -> allowed s sender origin api.
Proof. intros s sender origin api [] NE E. apply gate_spec; assumption. Qed.
Lemma entry_tidy : forall s a l, tidy s -> entry s a = Some l -> Forall (fun x => In x APIS) l /\ kget a (p_table s) = Some (join_keys l).
Proof.
  intros s a l T E. unfold entry in E. destruct (kget a (p_table s)) as [t|] eqn:K; [|discriminate E]. destruct (T a t K) as (m & -> & F). rewrite (from_join m F) in E. destruct m as [|b m]; [discriminate E|]. injection E as <-. split; [exact F|reflexivity].
Qed.
Lemma tidy_put : forall s a l, tidy s -> Forall (fun x => In x APIS) l -> tidy (with_table s (kput a (join_keys l) (p_table s))).
Proof.
  intros s a l T F b t E. cbn [with_table p_table] in E. destruct (bytes_eqb b a) eqn:B; [apply bytes_eqb_eq in B; subst b; rewrite kget_put_same in E; injection E as <-; exists l; split; [reflexivity|exact F]|]. rewrite kget_put_other in E by (intros ->; rewrite bytes_eqb_refl in B; discriminate B). apply (T b t E).
Qed.
Lemma holds_put : forall s a l b api, Forall (fun x => In x APIS) l -> (holds (with_table s (kput a (join_keys l) (p_table s))) b api <-> (b = a /\ In api l) \/ (b <> a /\ holds s b api)).
Proof.
  intros s a l b api F. unfold holds. cbn [with_table p_table]. destruct (bytes_eqb b a) eqn:B.
  - apply bytes_eqb_eq in B. subst b. rewrite kget_put_same. split; [intros (t & T & L); injection T as <-; left; split; [reflexivity|apply (listed_join l api F), L]|]. intros [(_ & I)|(N & _)]; [exists (join_keys l); split; [reflexivity|apply (listed_join l api F), I]|congruence].
  - assert (N : b <> a) by (intros ->; rewrite bytes_eqb_refl in B; discriminate B). rewrite kget_put_other by exact N. split; [intros H; right; split; [exact N|exact H]|]. intros [(Y & _)|(_ & H)]; [congruence|exact H].
Qed.
Lemma holds_entry : forall s a l api, tidy s -> entry s a = Some l -> (holds s a api <-> In api l).
Proof.
  intros s a l api T E. destruct (entry_tidy s a l T E) as (F & K). unfold holds. rewrite K. split; [intros (t & X & L); injection X as <-; apply (listed_join l api F), L|]. intros I. exists (join_keys l). split; [reflexivity|apply (listed_join l api F), I].
Qed.
Definition rest_same (s s' : pstate) : Prop := p_owner s' = p_owner s /\ p_access s' = p_access s.
Lemma add_spec : forall s sender origin a apis s', tidy s -> addPermission s sender origin a apis = Val s' ->
  allowed s sender origin (str "addPermission") /\ tidy s' /\ rest_same s s' /\ p_services s' = p_services s /\ (forall api, listed apis api -> In api APIS) /\
  (forall b api, holds s' b api <-> holds s b api \/ b = a /\ listed apis api) /\ (forall b, b <> a -> kget b (p_table s') = kget b (p_table s)) /\ kget a (p_table s) <> Some [].
Proof.
  intros s sender origin a apis s' T E. unfold addPermission in E. destruct (has_permission s sender origin (str "addPermission")) as [u|e] eqn:G; [|discriminate E]. cbn [bind] in E. apply gate_val in G; [|discriminate]. split; [exact G|].
  destruct (checked apis) as [l|e] eqn:C; [|discriminate E]. cbn [bind] in E. apply checked_ok in C as (C1 & C2 & C3 & C4).
  assert (V : forall api, listed apis api -> In api APIS) by (intros api L; apply C4 in L; exact (proj1 (Forall_forall _ _) C3 api L)).
  destruct (known s a) eqn:K.
  - destruct (entry s a) as [org|] eqn:O; [|discriminate E]. cbn [need bind] in E. injection E as <-. destruct (entry_tidy s a org T O) as (F & KG).
    assert (FM : Forall (fun x => In x APIS) (merge org l)) by (apply Forall_forall; intros x I; apply merge_in in I as [I|I]; [exact (proj1 (Forall_forall _ _) F x I)|exact (proj1 (Forall_forall _ _) C3 x I)]).
    split; [apply tidy_put; assumption|]. split; [split; reflexivity|]. split; [reflexivity|]. split; [exact V|]. split; [|split; [intros b N; cbn [with_table p_table]; apply kget_put_other, N|unfold entry in O; intros X; rewrite X in O; discriminate O]].
    intros b api. rewrite (holds_put s a _ b api FM), merge_in, C4. destruct (bytes_eqb_spec b a) as [->|N]; [rewrite (holds_entry s a org api T O)|]; tauto.
  - injection E as <-. split; [apply tidy_put; assumption|]. split; [split; reflexivity|]. split; [reflexivity|]. split; [exact V|]. unfold known in K. destruct (kget a (p_table s)) as [t|] eqn:KG; [discriminate K|]. split; [|split; [intros b N; cbn [with_table p_table]; apply kget_put_other, N|discriminate]].
    intros b api. rewrite (holds_put s a _ b api C3), C4. destruct (bytes_eqb_spec b a) as [->|N]; [|tauto]. assert (NH : ~ holds s a api) by (intros (t & X & _); congruence). tauto.
Qed.
Lemma remove_spec : forall s sender origin a apis s', tidy s -> removePermission s sender origin a apis = Val s' ->
  allowed s sender origin (str "removePermission") /\ tidy s' /\ rest_same s s' /\ p_services s' = p_services s /\
  (forall b api, holds s' b api -> holds s b api) /\ (forall b api, holds s b api -> ~ (b = a /\ listed apis api) -> holds s' b api) /\
  (forall t api, kget a (p_table s) = Some t -> listed_once t -> listed apis api -> ~ holds s' a api) /\ (forall b, b <> a -> kget b (p_table s') = kget b (p_table s)) /\ kget a (p_table s) <> Some [].
Proof.
  intros s sender origin a apis s' T E. unfold removePermission in E. destruct (has_permission s sender origin (str "removePermission")) as [u|e] eqn:G; [|discriminate E]. cbn [bind] in E. apply gate_val in G; [|discriminate]. split; [exact G|].
  destruct (checked apis) as [l|e] eqn:C; [|discriminate E]. cbn [bind] in E. apply checked_ok in C as (C1 & C2 & C3 & C4). destruct (known s a) eqn:K; [|discriminate E].
  destruct (entry s a) as [org|] eqn:O; [|discriminate E]. cbn [need bind] in E. injection E as <-. destruct (entry_tidy s a org T O) as (F & KG).
  assert (FM : Forall (fun x => In x APIS) (remove_apis org l)) by (apply Forall_forall; intros x I; apply remove_sub in I; exact (proj1 (Forall_forall _ _) F x I)).
  split; [apply tidy_put; assumption|]. split; [split; reflexivity|]. split; [reflexivity|]. split; [|split; [|split; [|split; [intros b N; cbn [with_table p_table]; apply kget_put_other, N|unfold entry in O; intros X; rewrite X in O; discriminate O]]]].
  - intros b api H. apply (holds_put s a _ b api FM) in H. destruct H as [(-> & I)|(_ & H)]; [|exact H]. apply (holds_entry s a org api T O). eapply remove_sub, I.
  - intros b api H N. apply (holds_put s a _ b api FM). destruct (bytes_eqb_spec b a) as [->|NE]; [left; split; [reflexivity|]|right; split; assumption]. apply remove_keep; [intros I; apply N; split; [reflexivity|apply C4, I]|apply (holds_entry s a org api T O), H].
  - intros t api KT (m & -> & M1 & M2) L H. rewrite KG in KT. injection KT as KT. apply (holds_put s a _ a api FM) in H. destruct H as [(_ & I)|(N & _)]; [|congruence]. apply C4 in L. revert I. apply remove_once; [|exact L].
    assert (NO : org <> []) by (intros ->; unfold entry in O; rewrite KG in O; discriminate O). destruct m as [|b m]; [exfalso; destruct org as [|c org]; [congruence|]; inversion F as [|? ? A B]; subst; apply (apis_full c A); eapply join_empty; [exact KT|left; reflexivity]|].
    assert (X : split_keys (join_keys org) = split_keys (join_keys (b :: m))) by congruence. rewrite (split_join org NO (of_apis org F)), (split_join (b :: m)) in X by (discriminate || exact M1). rewrite X. exact M2.
Qed.
(** * Steps *)
Lemma service_add : forall alnum s x o v a s', grantService alnum s x o v a = Val s' -> allowed s x o (str "addService") /\ addPermission (with_svcs s (kput v a (p_services s))) x o a (str "sendMessage") = Val s'.
Proof.
  intros alnum s x o v a s' E. unfold grantService in E. destruct (has_permission s x o (str "addService")) as [u|e] eqn:G; [|discriminate E]. cbn [bind] in E. apply gate_val in G; [|discriminate]. destruct (negb (alnum v)); [discriminate E|]. destruct (kget v (p_services s)); [discriminate E|]. split; assumption.
Qed.
Lemma service_remove : forall s x o v s', revokeService s x o v = Val s' -> exists a, kget v (p_services s) = Some a /\ allowed s x o (str "removeService") /\
  (s' = with_svcs s (kdel v (p_services s)) \/ serves (with_svcs s (kdel v (p_services s))) a = false /\ removePermission (with_svcs s (kdel v (p_services s))) x o a (str "sendMessage") = Val s').
Proof.
  intros s x o v s' E. unfold revokeService in E. destruct (has_permission s x o (str "removeService")) as [u|e] eqn:G; [|discriminate E]. cbn [bind] in E. apply gate_val in G; [|discriminate]. destruct (kget v (p_services s)) as [a|]; [|discriminate E]. exists a. split; [reflexivity|]. split; [exact G|]. cbv zeta in E. destruct (serves _ a) eqn:S; [left; injection E as <-; reflexivity|right; split; [reflexivity|exact E]].
Qed.
Lemma step_tidy : forall alnum s c, tidy s -> tidy (pstep alnum s c).
Proof.
  intros alnum s c T. unfold pstep. destruct (pcall_result alnum s c) as [s'|e] eqn:E; [|exact T]. destruct c as [x e|x o a l|x o a l|x o v a|x o v]; cbn [pcall_result] in E.
  - unfold setAccessControl in E. destruct (bytes_eqb (p_owner s) x); [|discriminate E]. injection E as <-. exact T.
  - apply (add_spec s x o a l s' T E).
  - apply (remove_spec s x o a l s' T E).
  - apply service_add in E as (_ & E). apply (add_spec (with_svcs s (kput v a (p_services s))) x o a _ s' T E).
  - apply service_remove in E as (a & _ & _ & [->|(_ & E)]); [exact T|]. apply (remove_spec (with_svcs s (kdel v (p_services s))) x o a _ s' T E).
Qed.
Lemma run_tidy : forall alnum cs s, tidy s -> tidy (prun alnum s cs).
Proof. intros alnum cs. induction cs as [|c cs IH]; intros s T; [exact T|]. unfold prun. cbn [fold_left]. apply IH. apply step_tidy, T. Qed.
Lemma installed_tidy : forall owner, tidy (installed owner).
Proof. intros owner a t E. discriminate E. Qed.
Lemma step_owner : forall alnum s c, tidy s -> p_owner (pstep alnum s c) = p_owner s /\ (p_access (pstep alnum s c) = p_access s \/ exists e, c = PAccess (p_owner s) e /\ p_access (pstep alnum s c) = e).
Proof.
  intros alnum s c T. unfold pstep. destruct (pcall_result alnum s c) as [s'|e] eqn:E; [|split; [reflexivity|left; reflexivity]]. destruct c as [x e|x o a l|x o a l|x o v a|x o v]; cbn [pcall_result] in E.
  - unfold setAccessControl in E. destruct (bytes_eqb (p_owner s) x) eqn:B; [|discriminate E]. apply bytes_eqb_eq in B. subst x. injection E as <-. split; [reflexivity|]. right. exists e. split; reflexivity.
  - destruct (add_spec s x o a l s' T E) as (_ & _ & (A & B) & _). split; [exact A|left; exact B].
  - destruct (remove_spec s x o a l s' T E) as (_ & _ & (A & B) & _). split; [exact A|left; exact B].
  - apply service_add in E as (_ & E). destruct (add_spec (with_svcs s (kput v a (p_services s))) x o a _ s' T E) as (_ & _ & (A & B) & _). split; [exact A|left; exact B].
  - apply service_remove in E as (a & _ & _ & [->|(_ & E)]); [split; [reflexivity|left; reflexivity]|]. destruct (remove_spec (with_svcs s (kdel v (p_services s))) x o a _ s' T E) as (_ & _ & (A & B) & _). split; [exact A|left; exact B].
Qed.
Lemma step_gain : forall alnum s c b api, tidy s -> holds (pstep alnum s c) b api -> ~ holds s b api ->
  (exists x o l, c = PAdd x o b l /\ listed l api /\ allowed s x o (str "addPermission")) \/
  (exists x o v, c = PService x o v b /\ api = str "sendMessage" /\ allowed s x o (str "addPermission") /\ allowed s x o (str "addService")).
Proof.
  intros alnum s c b api T H N. unfold pstep in H. destruct (pcall_result alnum s c) as [s'|e] eqn:E; [|contradiction]. destruct c as [x e|x o a l|x o a l|x o v a|x o v]; cbn [pcall_result] in E.
  - unfold setAccessControl in E. destruct (bytes_eqb (p_owner s) x); [|discriminate E]. injection E as <-. contradiction.
  - destruct (add_spec s x o a l s' T E) as (G & _ & _ & _ & _ & S & _). apply S in H as [H|(-> & L)]; [contradiction|]. left. exists x, o, l. auto.
  - destruct (remove_spec s x o a l s' T E) as (_ & _ & _ & _ & S & _). apply S in H. contradiction.
  - apply service_add in E as (G1 & E). destruct (add_spec (with_svcs s (kput v a (p_services s))) x o a _ s' T E) as (G & _ & _ & _ & _ & S & _). apply S in H as [H|(-> & L)]; [contradiction|]. right. exists x, o, v. split; [reflexivity|]. split; [|split; [exact G|exact G1]].
    apply listed_split in L as (_ & m & F & I). vm_compute in F. injection F as <-. destruct I as [<-|[]]. reflexivity.
  - apply service_remove in E as (a & _ & _ & [->|(_ & E)]); [contradiction|]. destruct (remove_spec (with_svcs s (kdel v (p_services s))) x o a _ s' T E) as (_ & _ & _ & _ & S & _). apply S in H. contradiction.
Qed.
Lemma step_loss : forall alnum s c b api, tidy s -> holds s b api -> ~ holds (pstep alnum s c) b api ->
  (exists x o l, c = PRemove x o b l /\ listed l api /\ allowed s x o (str "removePermission")) \/
  (exists x o v, c = PNoService x o v /\ kget v (p_services s) = Some b /\ api = str "sendMessage" /\ allowed s x o (str "removePermission") /\ allowed s x o (str "removeService")).
Proof.
  intros alnum s c b api T H N. unfold pstep in N. destruct (pcall_result alnum s c) as [s'|e] eqn:E; [|contradiction]. assert (NE : api <> []) by (destruct H as (t & _ & L); apply L).
  assert (DEC : forall l, listed l api \/ ~ listed l api). { intros l. destruct (from_string l) as [m|] eqn:F; [|right; intros L; apply listed_split in L as (_ & q & L & _); congruence]. destruct (member api m) eqn:M; [left; apply listed_split; split; [exact NE|]; exists m; split; [exact F|apply member_in, M]|]. right. intros L. apply listed_split in L as (_ & q & L & I). apply member_in in I. congruence. }
  destruct c as [x e|x o a l|x o a l|x o v a|x o v]; cbn [pcall_result] in E.
  - unfold setAccessControl in E. destruct (bytes_eqb (p_owner s) x); [|discriminate E]. injection E as <-. contradiction.
  - destruct (add_spec s x o a l s' T E) as (G & _ & _ & _ & _ & S & _). elim N. apply S. left. exact H.
  - destruct (remove_spec s x o a l s' T E) as (G & _ & _ & _ & _ & S & _). destruct (bytes_eqb_spec b a) as [->|NB]; [|elim N; apply S; [exact H|intros (X & _); contradiction]]. destruct (DEC l) as [L|L]; [|elim N; apply S; [exact H|intros (_ & X); contradiction]]. left. exists x, o, l. auto.
  - apply service_add in E as (G1 & E). destruct (add_spec (with_svcs s (kput v a (p_services s))) x o a _ s' T E) as (G & _ & _ & _ & _ & S & _). elim N. apply S. left. exact H.
  - apply service_remove in E as (a & V & G1 & [->|(_ & E)]); [contradiction|]. destruct (remove_spec (with_svcs s (kdel v (p_services s))) x o a _ s' T E) as (G & _ & _ & _ & _ & S & _). destruct (bytes_eqb_spec b a) as [->|NB]; [|elim N; apply S; [exact H|intros (X & _); contradiction]]. destruct (DEC (str "sendMessage")) as [L|L]; [|elim N; apply S; [exact H|intros (_ & X); contradiction]].
    right. exists x, o, v. split; [reflexivity|]. split; [exact V|]. split; [|split; [exact G|exact G1]]. apply listed_split in L as (_ & m & F & I). vm_compute in F. injection F as <-. destruct I as [<-|[]]. reflexivity.
Qed.
(** An entry with the empty text stays. *)
Lemma dead_step : forall alnum s c a, tidy s -> kget a (p_table s) = Some [] -> kget a (p_table (pstep alnum s c)) = Some [].
Proof.
  intros alnum s c a T D. unfold pstep. destruct (pcall_result alnum s c) as [s'|e] eqn:E; [|exact D]. destruct c as [x e|x o b l|x o b l|x o v b|x o v]; cbn [pcall_result] in E.
  - unfold setAccessControl in E. destruct (bytes_eqb (p_owner s) x); [|discriminate E]. injection E as <-. exact D.
  - destruct (add_spec s x o b l s' T E) as (_ & _ & _ & _ & _ & _ & K & NB). rewrite K; [exact D|]. intros ->. contradiction.
  - destruct (remove_spec s x o b l s' T E) as (_ & _ & _ & _ & _ & _ & _ & K & NB). rewrite K; [exact D|]. intros ->. contradiction.
  - apply service_add in E as (_ & E). destruct (add_spec (with_svcs s (kput v b (p_services s))) x o b _ s' T E) as (_ & _ & _ & _ & _ & _ & K & NB). rewrite K; [exact D|]. intros ->. contradiction.
  - apply service_remove in E as (b & _ & _ & [->|(_ & E)]); [exact D|]. destruct (remove_spec (with_svcs s (kdel v (p_services s))) x o b _ s' T E) as (_ & _ & _ & _ & _ & _ & _ & K & NB). rewrite K; [exact D|]. intros ->. contradiction.
Qed.
Lemma dead_run : forall alnum cs s a, tidy s -> kget a (p_table s) = Some [] -> kget a (p_table (prun alnum s cs)) = Some [].
Proof. intros alnum cs. induction cs as [|c cs IH]; intros s a T D; [exact D|]. unfold prun. cbn [fold_left]. apply IH; [apply step_tidy, T|apply dead_step; assumption]. Qed.
