(** Lemmas about M_PyDb.v *)
From Coq Require Import ZArith List Bool Lia.
From Coq Require Import ZifyBool.
From Verif Require Import Base L_Base M_PyDb S_PyDb.
Import ListNotations.
Open Scope Z_scope.

(** ** The string of keys *)
Lemma split_not_nil : forall s, split_keys s <> [].
Proof. induction s as [|c r IH]; cbn [split_keys]; [discriminate|]. destruct (c =? comma); [discriminate|]. destruct (split_keys r); discriminate. Qed.
Lemma split_one : forall k, no_comma k -> split_keys k = [k].
Proof.
  induction k as [|c k IH]; intros N; [reflexivity|]. cbn [split_keys]. destruct (Z.eqb_spec c comma) as [->|]; [exfalso; apply N; left; reflexivity|].
  rewrite IH by (intros I; apply N; right; exact I). reflexivity.
Qed.
Lemma split_app : forall k s, no_comma k -> split_keys (k ++ comma :: s) = k :: split_keys s.
Proof.
  induction k as [|c k IH]; intros s N; cbn [app split_keys]; [rewrite Z.eqb_refl; reflexivity|]. destruct (Z.eqb_spec c comma) as [->|]; [exfalso; apply N; left; reflexivity|].
  rewrite IH by (intros I; apply N; right; exact I). reflexivity.
Qed.
Lemma split_join : forall l, l <> [] -> Forall no_comma l -> split_keys (join_keys l) = l.
Proof.
  induction l as [|k l IH]; intros N F; [congruence|]. inversion F as [|? ? F1 F2]; subst. destruct l as [|k2 l]; [apply split_one; assumption|].
  change (join_keys (k :: k2 :: l)) with (k ++ comma :: join_keys (k2 :: l)). rewrite split_app by assumption. rewrite IH by (discriminate || assumption). reflexivity.
Qed.
Lemma has_comma : forall k, existsb (Z.eqb comma) k = false <-> no_comma k.
Proof.
  intros k. unfold no_comma. split.
  - intros E I. assert (existsb (Z.eqb comma) k = true); [|congruence]. apply existsb_exists. exists comma. split; [assumption|apply Z.eqb_refl].
  - intros N. destruct (existsb (Z.eqb comma) k) eqn:E; [|reflexivity]. exfalso. apply existsb_exists in E. destruct E as (x & I & E). apply N. apply Z.eqb_eq in E. subst. exact I.
Qed.
Lemma join_long : forall l, NoDup l -> kept l -> l <> [] -> 1 < zlen (join_keys l).
Proof.
  intros [|a [|b l]] ND K N; [congruence|exact K|]. change (join_keys (a :: b :: l)) with (a ++ comma :: join_keys (b :: l)). rewrite zlen_app, zlen_cons.
  pose proof (zlen_nonneg _ a). pose proof (zlen_nonneg _ (join_keys (b :: l))).
  destruct (Z.eq_dec (zlen a) 0) as [E|]; [|lia]. destruct (Z.eq_dec (zlen (join_keys (b :: l))) 0) as [E2|]; [|lia]. exfalso.
  assert (a = []) by (destruct a; [reflexivity|rewrite zlen_cons in E; pose proof (zlen_nonneg _ a); lia]). subst a.
  destruct l as [|c l]; [|change (join_keys (b :: c :: l)) with (b ++ comma :: join_keys (c :: l)) in E2; rewrite zlen_app, zlen_cons in E2; pose proof (zlen_nonneg _ b); pose proof (zlen_nonneg _ (join_keys (c :: l))); lia].
  cbn [join_keys] in E2. assert (b = []) by (destruct b; [reflexivity|rewrite zlen_cons in E2; pose proof (zlen_nonneg _ b); lia]). subst b. inversion ND as [|? ? NI]; subst. apply NI. left. reflexivity.
Qed.
Lemma reload : forall l, NoDup l -> Forall no_comma l -> kept l -> (if 1 <? zlen (join_keys l) then split_keys (join_keys l) else []) = l.
Proof.
  intros [|a l] ND F K; [reflexivity|]. pose proof (join_long _ ND K ltac:(discriminate)) as L. apply Z.ltb_lt in L. rewrite L. apply split_join; [discriminate|assumption].
Qed.
Lemma index_in : forall l k, match index_key l k with Some i => nth_error l i = Some k | None => ~ In k l end.
Proof.
  induction l as [|x l IH]; intros k; cbn [index_key]; [auto|]. destruct (bytes_eqb_spec x k) as [->|NE]; [reflexivity|]. specialize (IH k).
  destruct (index_key l k); [exact IH|]. intros [E|I]; [congruence|contradiction].
Qed.
Lemma index_some : forall l k, In k l -> exists i, index_key l k = Some i.
Proof. intros l k I. pose proof (index_in l k). destruct (index_key l k); [eauto|contradiction]. Qed.

(** ** Entries *)
Section DICT.
Context {A V : Type} (o2r : A -> V) (r2o : V -> option A) (nested : bool) (make : key -> V).
Notation entries := (entries A).
Lemma find_in : forall (e : entries) k a, find e k = Some a -> In k (map fst e).
Proof. induction e as [|(x, b) e IH]; intros k a E; cbn [find] in E; [discriminate|]. cbn [map fst]. destruct (bytes_eqb_spec x k) as [->|]; [left; reflexivity|right; eauto]. Qed.
Lemma find_none : forall (e : entries) k, find e k = None <-> ~ In k (map fst e).
Proof.
  induction e as [|(x, b) e IH]; intros k; cbn [find map fst]; [split; auto|]. destruct (bytes_eqb_spec x k) as [->|NE]; [split; [discriminate|intros N; exfalso; apply N; left; reflexivity]|].
  rewrite IH. split; [intros N [E|I]; [congruence|contradiction]|intros N I; apply N; right; exact I].
Qed.
Lemma replace_keys : forall (e : entries) k a, map fst (replace e k a) = map fst e.
Proof. intros e k a. unfold replace. rewrite map_map. apply map_ext. intros (x, b). cbn [fst]. destruct (bytes_eqb x k); reflexivity. Qed.
Lemma find_replace : forall (e : entries) k a k', find (replace e k a) k' = if bytes_eqb k' k then match find e k with Some _ => Some a | None => None end else find e k'.
Proof.
  induction e as [|(x, b) e IH]; intros k a k'; cbn [replace map find]; [destruct (bytes_eqb k' k); reflexivity|]. cbn [fst]. fold (replace e k a).
  destruct (bytes_eqb_spec x k) as [->|NE]; cbn [find].
  - destruct (bytes_eqb_spec k k') as [<-|N2]; [rewrite bytes_eqb_refl; reflexivity|]. rewrite IH. destruct (bytes_eqb_spec k' k); [congruence|reflexivity].
  - destruct (bytes_eqb_spec x k') as [->|N2]; [destruct (bytes_eqb_spec k' k); [congruence|reflexivity]|]. apply IH.
Qed.
Lemma find_app : forall (e : entries) k a k', find e k = None -> find (e ++ [(k, a)]) k' = if bytes_eqb k' k then Some a else find e k'.
Proof.
  induction e as [|(x, b) e IH]; intros k a k' E; cbn [app find] in *.
  - destruct (bytes_eqb_spec k k') as [<-|]; [rewrite bytes_eqb_refl; reflexivity|]. destruct (bytes_eqb_spec k' k); [congruence|reflexivity].
  - destruct (bytes_eqb_spec x k) as [->|NE]; [discriminate|]. rewrite IH by assumption. destruct (bytes_eqb_spec x k') as [->|]; [destruct (bytes_eqb_spec k' k); [congruence|reflexivity]|reflexivity].
Qed.
Lemma find_delete : forall (e : entries) k k', find (delete e k) k' = if bytes_eqb k' k then None else find e k'.
Proof.
  induction e as [|(x, b) e IH]; intros k k'; cbn [delete filter find fst]; [destruct (bytes_eqb k' k); reflexivity|]. fold (delete e k).
  destruct (bytes_eqb_spec x k) as [->|NE]; cbn [negb].
  - rewrite IH. destruct (bytes_eqb_spec k' k) as [->|]; [reflexivity|]. destruct (bytes_eqb_spec k k'); [congruence|reflexivity].
  - cbn [find]. destruct (bytes_eqb_spec x k') as [->|]; [destruct (bytes_eqb_spec k' k); [congruence|reflexivity]|apply IH].
Qed.
Lemma delete_none : forall (e : entries) k, find e k = None -> delete e k = e.
Proof.
  induction e as [|(x, b) e IH]; intros k E; cbn [delete filter find fst] in *; [reflexivity|]. destruct (bytes_eqb x k); [discriminate|]. cbn [negb]. f_equal. apply IH. exact E.
Qed.
Lemma delete_pop : forall (e : entries) k i, NoDup (map fst e) -> index_key (map fst e) k = Some i -> map fst (delete e k) = pop i (map fst e).
Proof.
  induction e as [|(x, b) e IH]; intros k i ND E; cbn [map fst index_key] in E; [discriminate|]. inversion ND as [|? ? NI ND']; subst. cbn [delete filter fst]. fold (delete e k).
  destruct (bytes_eqb_spec x k) as [->|NE]; cbn [negb].
  - injection E as <-. unfold pop. cbn [firstn skipn app map fst]. rewrite delete_none; [reflexivity|]. apply find_none. exact NI.
  - destruct (index_key (map fst e) k) as [j|] eqn:Ej; [|discriminate]. injection E as <-. cbn [map fst]. unfold pop. cbn [firstn skipn app]. f_equal. apply IH; assumption.
Qed.
Lemma delete_keys_in : forall (e : entries) k x, In x (map fst (delete e k)) -> In x (map fst e) /\ x <> k.
Proof.
  intros e k x I. apply in_map_iff in I. destruct I as ((y, b) & <- & I). apply filter_In in I. destruct I as [I N]. cbn [fst] in *. split; [apply in_map_iff; exists (y, b); auto|].
  intros ->. rewrite bytes_eqb_refl in N. discriminate.
Qed.
Lemma delete_nodup : forall (e : entries) k, NoDup (map fst e) -> NoDup (map fst (delete e k)).
Proof.
  induction e as [|(x, b) e IH]; intros k ND; cbn [delete filter map fst]; [constructor|]. fold (delete e k). inversion ND as [|? ? NI ND']; subst. destruct (negb (bytes_eqb x k)); [|auto].
  cbn [map fst]. constructor; [|auto]. intros I. apply delete_keys_in in I. tauto.
Qed.

(** ** The relation between the object with the store and the entries *)
Definition stored_as (k : key) (a : A) : V := if nested then make k else o2r a.
Definition readable (k : key) (a : A) : Prop := r2o (stored_as k a) = Some a.
Record rel (x : st A V) (m : marked A) : Prop := {
  r_keys : o_keys (snd (load x)) = map fst (m_e m);
  r_nodup : NoDup (map fst (m_e m));
  r_commas : Forall no_comma (map fst (m_e m));
  r_string : s_keys (fst x) = join_keys (map fst (m_e m));
  r_unloaded : o_loaded (snd x) = false -> o_keys (snd x) = [];
  r_fresh : forall k, m_fresh m k = match o_add (snd x) k with Some _ => true | None => false end;
  r_gone : forall k, m_gone m k = o_remove (snd x) k;
  r_add : forall k a, o_add (snd x) k = Some a -> find (m_e m) k = Some a /\ o_update (snd x) k = None;
  r_update : forall k a, o_update (snd x) k = Some a -> find (m_e m) k = Some a;
  r_removed : forall k, o_remove (snd x) k = true -> find (m_e m) k = None;
  r_raw : nested = false -> forall k a, find (m_e m) k = Some a -> s_raw (fst x) k = Some (o2r a);
  r_cache : forall k v, o_cache (snd x) k = Some v -> o_add (snd x) k = None /\ exists a, find (m_e m) k = Some a /\ (o_update (snd x) k = None -> v = stored_as k a);
  r_read : forall k a, find (m_e m) k = Some a -> readable k a }.

Lemma load_idem : forall x : st A V, load (load x) = load x.
Proof. intros (s, o). assert (E2 : load (s, o) = load (s, o)) by reflexivity. unfold load at 2 in E2. destruct (o_loaded o) eqn:E; rewrite E2; unfold load; [rewrite E; reflexivity|reflexivity]. Qed.
Lemma load_fst : forall x : st A V, fst (load x) = fst x.
Proof. intros (s, o). unfold load. destruct (o_loaded o); reflexivity. Qed.
Lemma load_rest : forall x : st A V, o_cache (snd (load x)) = o_cache (snd x) /\ o_add (snd (load x)) = o_add (snd x) /\ o_remove (snd (load x)) = o_remove (snd x) /\ o_update (snd (load x)) = o_update (snd x) /\ o_loaded (snd (load x)) = true.
Proof. intros (s, o). unfold load. destruct (o_loaded o) eqn:E; cbn [snd o_cache o_add o_remove o_update o_loaded]; auto. Qed.
Lemma rel_load : forall x m, rel x m -> rel (load x) m.
Proof.
  intros x m R. destruct (load_rest x) as (E1 & E2 & E3 & E4 & E5). destruct R. constructor; rewrite ?load_idem, ?load_fst, ?E1, ?E2, ?E3, ?E4, ?E5; auto. discriminate.
Qed.
(** In a loaded state the relation is about the fields as they are. *)
Record lrel (s : store V) (o : obj A V) (m : marked A) : Prop := {
  l_loaded : o_loaded o = true;
  l_rel : rel (s, o) m }.
Lemma loaded_keys : forall s (o : obj A V) m, o_loaded o = true -> rel (s, o) m -> o_keys o = map fst (m_e m).
Proof. intros s o m L R. pose proof (r_keys _ _ R) as K. unfold load in K. rewrite L in K. exact K. Qed.

Lemma contains_ok : forall x m k, rel x m -> d_contains x k = (match find (m_e m) k with Some _ => true | None => false end, load x).
Proof.
  intros x m k R. unfold d_contains. rewrite (r_keys _ _ R). f_equal. pose proof (index_in (map fst (m_e m)) k) as I. destruct (index_key _ k) as [i|].
  - apply nth_error_In in I. destruct (find (m_e m) k) eqn:E; [reflexivity|]. apply find_none in E. contradiction.
  - apply find_none in I. rewrite I. reflexivity.
Qed.
Lemma cache_ok : forall x m k, rel x m -> o_add (snd x) k = None -> exists y, rel y m /\
  match find (m_e m) k with
  | Some a => exists v, d_cache nested make x k = (Some v, y) /\ (o_update (snd x) k = None -> v = stored_as k a)
  | None => d_cache nested make x k = (None, y)
  end /\ o_add (snd y) = o_add (snd x) /\ o_update (snd y) = o_update (snd x) /\ o_remove (snd y) = o_remove (snd x).
Proof.
  intros x m k R NA. unfold d_cache. destruct (o_cache (snd x) k) as [v|] eqn:EC.
  - destruct (r_cache _ _ R k v EC) as (_ & a & Ea & Ev). exists x. split; [exact R|]. rewrite Ea. split; [eauto|auto].
  - rewrite (contains_ok x m k R). pose proof (rel_load x m R) as RL. destruct (load_rest x) as (E1 & E2 & E3 & E4 & E5). destruct (find (m_e m) k) as [a|] eqn:Ea.
    + destruct (load x) as (s, o) eqn:EL. cbn [fst snd] in *.
      assert (ER : (if nested then Some (make k) else s_raw s k) = Some (stored_as k a)).
      { unfold stored_as. destruct nested eqn:EN; [reflexivity|]. exact (r_raw _ _ RL EN k a Ea). }
      rewrite ER. eexists (s, _). split; [|split; [exists (stored_as k a); split; [reflexivity|reflexivity]|cbn [snd o_add o_update o_remove]; auto]].
      pose proof (loaded_keys s o m E5 RL) as KL. destruct RL. constructor; cbn [fst snd o_cache o_add o_remove o_update o_keys o_loaded] in *; auto.
      * unfold load. cbn [o_loaded]. rewrite E5. cbn [snd o_keys]. exact KL.
      * intros k' v. unfold upd. destruct (bytes_eqb_spec k' k) as [->|]; [|apply r_cache0]. intros [= <-]. split; [rewrite E2; exact NA|]. exists a. auto.
    + exists (load x). split; [exact RL|]. split; [reflexivity|]. auto.
Qed.
Lemma add_key_ok : forall (x : st A V) k, no_comma k -> add_key x k = Some (set_keys (load x) (o_keys (snd (load x)) ++ [k])).
Proof. intros x k N. unfold add_key. apply has_comma in N. rewrite N. reflexivity. Qed.

Ltac fields := cbn [fst snd o_cache o_add o_remove o_update o_keys o_loaded s_raw s_keys m_e m_fresh m_gone] in *.

(** The entry of a key that is there is replaced. *)
Lemma rel_replace : forall s o m k a, rel (s, o) m -> find (m_e m) k <> None -> readable k a ->
  forall add' upd', (forall k', k' <> k -> add' k' = o_add o k') -> (forall k', k' <> k -> upd' k' = o_update o k') ->
  (add' k = Some a /\ upd' k = None /\ o_add o k <> None \/ add' k = None /\ upd' k = Some a /\ o_add o k = None) ->
  rel (Store (upd (s_raw s) k (Some (o2r a))) (s_keys s), Obj (o_cache o) (o_keys o) (o_loaded o) add' (o_remove o) upd') (Marked (replace (m_e m) k a) (m_fresh m) (m_gone m)).
Proof.
  intros s o m k a R NF RA add' upd' HA HU HK.
  assert (FR : forall k', find (replace (m_e m) k a) k' = if bytes_eqb k' k then Some a else find (m_e m) k').
  { intros k'. rewrite find_replace. destruct (bytes_eqb k' k); [|reflexivity]. destruct (find (m_e m) k); [reflexivity|congruence]. }
  destruct R. constructor; fields; rewrite ?replace_keys; auto.
  - clear - r_keys0. unfold load in *. fields. destruct (o_loaded o); fields; exact r_keys0.
  - intros k'. rewrite r_fresh0. destruct (bytes_eqb_spec k' k) as [->|N]; [|rewrite HA by assumption; reflexivity].
    destruct HK as [(-> & _ & Q)|(-> & _ & ->)]; [destruct (o_add o k); [reflexivity|congruence]|reflexivity].
  - intros k' b E. rewrite FR. destruct (bytes_eqb_spec k' k) as [->|N]; [|rewrite HA, HU in * by assumption; auto]. destruct HK as [(E1 & E2 & _)|(E1 & _)]; [|congruence]. split; congruence.
  - intros k' b E. rewrite FR. destruct (bytes_eqb_spec k' k) as [->|N]; [|rewrite HU in E by assumption; auto]. destruct HK as [(_ & E1 & _)|(_ & E1 & _)]; congruence.
  - intros k' E. rewrite FR. destruct (bytes_eqb_spec k' k) as [->|N]; [|auto]. exfalso. apply NF. auto.
  - intros EN k' b E. rewrite FR in E. unfold upd. destruct (bytes_eqb_spec k' k) as [->|N]; [congruence|auto].
  - intros k' v E. destruct (r_cache0 k' v E) as (E1 & b & E2 & E3). rewrite FR. destruct (bytes_eqb_spec k' k) as [->|N].
    + destruct HK as [(_ & _ & Q)|(E4 & E5 & _)]; [congruence|]. split; [assumption|]. exists a. split; [reflexivity|congruence].
    + rewrite HA, HU by assumption. split; [assumption|]. exists b. auto.
  - intros k' b E. rewrite FR in E. destruct (bytes_eqb_spec k' k) as [->|N]; [congruence|auto].
Qed.
(** A new key is appended. *)
Lemma rel_append : forall s o m k a, rel (s, o) m -> o_loaded o = true -> find (m_e m) k = None -> no_comma k -> readable k a ->
  forall add' upd', (forall k', k' <> k -> add' k' = o_add o k') -> (forall k', k' <> k -> upd' k' = o_update o k') ->
  add' k = (if o_remove o k then None else Some a) -> upd' k = (if o_remove o k then Some a else None) ->
  rel (Store (upd (s_raw s) k (Some (o2r a))) (join_keys (o_keys o ++ [k])), Obj (o_cache o) (o_keys o ++ [k]) true add' (upd (o_remove o) k false) upd')
      (Marked (m_e m ++ [(k, a)]) (upd (m_fresh m) k (negb (m_gone m k))) (upd (m_gone m) k false)).
Proof.
  intros s o m k a R LD NF NC RA add' upd' HA HU EA EU. pose proof (loaded_keys s o m LD R) as KL. destruct R.
  assert (EK : map fst (m_e m ++ [(k, a)]) = o_keys o ++ [k]). { rewrite map_app, <- KL. reflexivity. }
  constructor; fields; rewrite ?EK; auto.
  - rewrite KL. apply find_none in NF. clear - r_nodup0 NF. induction (map fst (m_e m)) as [|x l IH]; cbn [app]; [constructor; [auto|constructor]|].
    inversion r_nodup0; subst. constructor; [|apply IH; [assumption|intros I; apply NF; right; exact I]]. intros I. apply in_app_or in I. destruct I as [I|[->|[]]]; [contradiction|]. apply NF. left. reflexivity.
  - rewrite KL. apply Forall_app. split; [assumption|constructor; [assumption|constructor]].
  - discriminate.
  - intros k'. unfold upd. destruct (bytes_eqb_spec k' k) as [->|N]; [rewrite EA, r_gone0; destruct (o_remove o k); reflexivity|rewrite HA by assumption; apply r_fresh0].
  - intros k'. unfold upd. destruct (bytes_eqb k' k); auto.
  - intros k' b E. rewrite find_app by assumption. destruct (bytes_eqb_spec k' k) as [->|N]; [|rewrite HA, HU in * by assumption; auto]. rewrite EA in E. rewrite EU. destruct (o_remove o k); [discriminate|auto].
  - intros k' b E. rewrite find_app by assumption. destruct (bytes_eqb_spec k' k) as [->|N]; [|rewrite HU in E by assumption; auto]. rewrite EU in E. destruct (o_remove o k); [assumption|discriminate].
  - intros k' E. rewrite find_app by assumption. unfold upd in E. destruct (bytes_eqb k' k); [discriminate|auto].
  - intros EN k' b E. rewrite find_app in E by assumption. unfold upd. destruct (bytes_eqb k' k); [congruence|auto].
  - intros k' v E. destruct (r_cache0 k' v E) as (E1 & b & E2 & E3). rewrite find_app by assumption. destruct (bytes_eqb_spec k' k) as [->|N]; [congruence|]. rewrite HA, HU by assumption. eauto.
  - intros k' b E. rewrite find_app in E by assumption. destruct (bytes_eqb_spec k' k) as [->|N]; [congruence|auto].
Qed.
(** What is stored for a key is not looked at when values are nested. *)
Lemma rel_raw : forall s o m f, nested = true -> rel (s, o) m -> rel (Store f (s_keys s), o) m.
Proof. intros s o m f EN R. destruct R. constructor; fields; auto; [|congruence]. unfold load in *. fields. destruct (o_loaded o); exact r_keys0. Qed.
Lemma rel_any : forall s o m k v, rel (Store (upd (s_raw s) k v) (s_keys s), o) m -> nested = true -> rel (s, o) m.
Proof. intros s o m k v R EN. apply (rel_raw _ _ _ (s_raw s) EN) in R. cbn [s_keys] in R. destruct s. exact R. Qed.

Lemma set_ok : forall x m k a, rel x m -> no_comma k -> readable k a ->
  exists y, d_set o2r nested make x k a = Some y /\ rel y (snd (mark_step m (OSet k a))).
Proof.
  intros (s, o) m k a R NC RA. unfold d_set. cbn [snd mark_step].
  destruct (o_add o k) as [b|] eqn:EA.
  - destruct (r_add _ _ R k b EA) as [EF EU]. rewrite EF. cbn [snd]. eexists. split; [reflexivity|].
    assert (R2 := rel_replace s o m k a R ltac:(congruence) RA (upd (o_add o) k (Some a)) (o_update o)). cbn [put_add] in *.
    assert (Q : rel (Store (upd (s_raw s) k (Some (o2r a))) (s_keys s), Obj (o_cache o) (o_keys o) (o_loaded o) (upd (o_add o) k (Some a)) (o_remove o) (o_update o)) (Marked (replace (m_e m) k a) (m_fresh m) (m_gone m))).
    { apply R2; [intros k' N; unfold upd; destruct (bytes_eqb_spec k' k); [congruence|reflexivity]|auto|]. left. unfold upd. rewrite bytes_eqb_refl. split; [reflexivity|]. split; [assumption|congruence]. }
    destruct nested eqn:EN; [|exact Q]. eapply rel_any in Q; [exact Q|exact EN].
  - destruct (o_update o k) as [b|] eqn:EU.
    + pose proof (r_update _ _ R k b EU) as EF. rewrite EF. cbn [snd]. eexists. split; [reflexivity|]. cbn [put_update].
      assert (Q : rel (Store (upd (s_raw s) k (Some (o2r a))) (s_keys s), Obj (o_cache o) (o_keys o) (o_loaded o) (o_add o) (o_remove o) (upd (o_update o) k (Some a))) (Marked (replace (m_e m) k a) (m_fresh m) (m_gone m))).
      { apply rel_replace; [assumption|congruence|assumption|auto|intros k' N; unfold upd; destruct (bytes_eqb_spec k' k); [congruence|reflexivity]|]. right. unfold upd. rewrite bytes_eqb_refl. auto. }
      destruct nested eqn:EN; [|exact Q]. eapply rel_any in Q; [exact Q|exact EN].
    + destruct (o_remove o k) eqn:ER.
      * pose proof (r_removed _ _ R k ER) as EF. rewrite EF. cbn [snd]. rewrite add_key_ok by assumption. eexists. split; [reflexivity|].
        pose proof (rel_load _ _ R) as RL. destruct (load_rest (s, o)) as (E1 & E2 & E3 & E4 & E5).
        assert (EL : load (put_update (put_remove (s, o) k false) k (Some a)) = put_update (put_remove (load (s, o)) k false) k (Some a)).
        { unfold load. cbn [put_update put_remove o_loaded]. destruct (o_loaded o) eqn:EO; cbn [put_update put_remove o_loaded o_cache o_keys o_add o_remove o_update]; [rewrite ?EO|]; reflexivity. }
        rewrite EL. destruct (load (s, o)) as (s1, o1). cbn [put_update put_remove set_keys snd fst o_cache o_keys o_add o_remove o_update o_loaded] in *. rewrite E5.
        assert (Q := rel_append s1 o1 m k a RL E5 EF NC RA (o_add o1) (upd (o_update o1) k (Some a)) ltac:(auto) ltac:(intros k' N; unfold upd; destruct (bytes_eqb_spec k' k); [congruence|reflexivity])).
        rewrite E3, ER in Q. rewrite E2 in Q. specialize (Q EA ltac:(unfold upd; rewrite bytes_eqb_refl; reflexivity)).
        rewrite E2, E3. destruct nested eqn:EN; [|exact Q]. eapply (rel_raw _ _ _ (s_raw s1) EN) in Q. exact Q.
      * destruct (cache_ok (s, o) m k R EA) as (y & Ry & EC & Y1 & Y2 & Y3). cbn [snd] in Y1, Y2, Y3. destruct (find (m_e m) k) as [b|] eqn:EF.
        -- destruct EC as (v & -> & _). cbn [snd]. eexists. split; [reflexivity|]. destruct y as (s1, o1). cbn [put_update snd] in *.
           assert (Q : rel (Store (upd (s_raw s1) k (Some (o2r a))) (s_keys s1), Obj (o_cache o1) (o_keys o1) (o_loaded o1) (o_add o1) (o_remove o1) (upd (o_update o1) k (Some a))) (Marked (replace (m_e m) k a) (m_fresh m) (m_gone m))).
           { apply rel_replace; [assumption|congruence|assumption|auto|intros k' N; unfold upd; destruct (bytes_eqb_spec k' k); [congruence|reflexivity]|]. right. unfold upd. rewrite bytes_eqb_refl. rewrite Y1. auto. }
           destruct nested eqn:EN; [|exact Q]. eapply rel_any in Q; [exact Q|exact EN].
        -- rewrite EC. cbn [snd]. rewrite add_key_ok by assumption. eexists. split; [reflexivity|].
           pose proof (rel_load _ _ Ry) as RL. destruct (load_rest y) as (E1 & E2 & E3 & E4 & E5).
           assert (EL : load (put_add y k (Some a)) = put_add (load y) k (Some a)).
           { destruct y as (s1, o1). unfold load. cbn [put_add o_loaded]. destruct (o_loaded o1) eqn:EO; cbn [put_add o_loaded o_cache o_keys o_add o_remove o_update]; [rewrite ?EO|]; reflexivity. }
           rewrite EL. destruct (load y) as (s1, o1). cbn [put_add set_keys snd fst o_cache o_keys o_add o_remove o_update o_loaded] in *. rewrite E5.
           assert (Q := rel_append s1 o1 m k a RL E5 EF NC RA (upd (o_add o1) k (Some a)) (o_update o1) ltac:(intros k' N; unfold upd; destruct (bytes_eqb_spec k' k); [congruence|reflexivity]) ltac:(auto)).
           rewrite E3, Y3, ER in Q. rewrite E4, Y2 in Q. specialize (Q ltac:(unfold upd; rewrite bytes_eqb_refl; reflexivity) EU).
           assert (Q2 : rel (Store (upd (s_raw s1) k (Some (o2r a))) (join_keys (o_keys o1 ++ [k])), Obj (o_cache o1) (o_keys o1 ++ [k]) true (upd (o_add o1) k (Some a)) (o_remove o1) (o_update o1)) (Marked (m_e m ++ [(k, a)]) (upd (m_fresh m) k (negb (m_gone m k))) (upd (m_gone m) k false))).
           { rewrite E3, Y3, E4, Y2. destruct Q. constructor; fields; auto; [intros k'; rewrite r_gone0; unfold upd; destruct (bytes_eqb_spec k' k) as [->|]; [congruence|reflexivity]|]. intros k' E. apply r_removed0. unfold upd. destruct (bytes_eqb_spec k' k) as [->|]; [congruence|exact E]. }
           destruct nested eqn:EN; [|exact Q2]. eapply (rel_raw _ _ _ (s_raw s1) EN) in Q2. exact Q2.
Qed.
Lemma get_ok : forall x m k, rel x m -> exists y, d_get r2o nested make x k = (find (m_e m) k, y) /\ rel y m.
Proof.
  intros x m k R. unfold d_get. destruct (o_add (snd x) k) as [b|] eqn:EA; [destruct (r_add _ _ R k b EA) as [-> _]; eauto|].
  destruct (o_update (snd x) k) as [b|] eqn:EU; [rewrite (r_update _ _ R k b EU); eauto|]. destruct (o_remove (snd x) k) eqn:ER; [rewrite (r_removed _ _ R k ER); eauto|].
  destruct (cache_ok x m k R EA) as (y & Ry & EC & _). destruct (find (m_e m) k) as [a|] eqn:EF; [|rewrite EC; eauto].
  destruct EC as (v & -> & Ev). exists y. rewrite (Ev EU). split; [|assumption]. pose proof (r_read _ _ R k a EF) as RR. unfold readable in RR. rewrite RR. reflexivity.
Qed.
Lemma remove_ok : forall x m k, rel x m -> rel (d_remove nested make x k) (snd (mark_step m (ORemove k))).
Proof.
  intros (s, o) m k R. unfold d_remove. cbn [snd mark_step]. rewrite (r_fresh _ _ R). cbn [snd]. destruct (o_add o k) as [b|] eqn:EA.
  - cbn [put_add snd]. destruct R. constructor; fields; auto.
    + unfold load in *. fields. destruct (o_loaded o); exact r_keys0.
    + intros k'. unfold upd. destruct (bytes_eqb_spec k' k) as [->|]; auto.
    + intros k' c E. unfold upd in E. destruct (bytes_eqb k' k); [discriminate|auto].
    + intros k' v E. destruct (r_cache0 k' v E) as (E1 & E2). split; [|exact E2]. unfold upd. destruct (bytes_eqb k' k); auto.
  - destruct (o_remove o k) eqn:ER; [rewrite (r_removed _ _ R k ER); exact R|].
    set (x1 := match o_update o k with Some _ => put_update (s, o) k None | None => (s, o) end).
    assert (K1 : exists y, match find (m_e m) k with Some a => exists v, d_cache nested make x1 k = (Some v, y) | None => d_cache nested make x1 k = (None, y) end /\
      match find (m_e m) k with None => rel y m | Some _ => True end /\
      o_keys (snd (load y)) = map fst (m_e m) /\ (o_loaded (snd y) = false -> o_keys (snd y) = []) /\ s_raw (fst y) = s_raw s /\ s_keys (fst y) = s_keys s /\
      o_add (snd y) = o_add o /\ o_remove (snd y) = o_remove o /\ (forall k', k' <> k -> o_update (snd y) k' = o_update o k') /\ o_update (snd y) k = None /\ (forall k', k' <> k -> o_cache (snd y) k' = o_cache o k')).
    { assert (KX : o_keys (snd (load x1)) = map fst (m_e m) /\ (o_loaded (snd x1) = false -> o_keys (snd x1) = []) /\ fst x1 = s /\ o_add (snd x1) = o_add o /\ o_remove (snd x1) = o_remove o /\ (forall k', k' <> k -> o_update (snd x1) k' = o_update o k') /\ o_update (snd x1) k = None /\ o_cache (snd x1) = o_cache o).
      { pose proof (r_keys _ _ R) as RK. pose proof (r_unloaded _ _ R) as RU. unfold x1. destruct (o_update o k) eqn:EU; cbn [put_update fst snd o_add o_remove o_update o_cache o_keys o_loaded]; [|auto 9].
        split; [unfold load in *; cbn [o_loaded]; destruct (o_loaded o); exact RK|]. split; [exact RU|]. split; [reflexivity|]. split; [reflexivity|]. split; [reflexivity|].
        split; [intros k' N; unfold upd; destruct (bytes_eqb_spec k' k); [congruence|reflexivity]|]. split; [unfold upd; rewrite bytes_eqb_refl; reflexivity|reflexivity]. }
      destruct KX as (X1 & X2 & X3 & X4 & X5 & X6 & X7 & X8). unfold d_cache. rewrite X8. destruct (o_cache o k) as [v|] eqn:EC.
      - destruct (r_cache _ _ R k v EC) as (_ & a & EF & _). exists x1. rewrite EF. rewrite X3, X4, X5, X8. split; [eauto|]. auto 12.
      - unfold d_contains. rewrite X1. pose proof (index_in (map fst (m_e m)) k) as I. destruct (load_rest x1) as (E1 & E2 & E3 & E4 & E5). pose proof (load_fst x1) as E6. pose proof (load_idem x1) as E7. destruct (index_key _ k) as [i|].
        + apply nth_error_In in I. destruct (find (m_e m) k) as [a|] eqn:EF; [|apply find_none in EF; contradiction].
          destruct (load x1) as (s1, o1) eqn:EL. cbn [fst snd] in *. rewrite X3 in E6. subst s1.
          assert (ER2 : (if nested then Some (make k) else s_raw s k) = Some (stored_as k a)). { unfold stored_as. destruct nested eqn:EN; [reflexivity|]. exact (r_raw _ _ R EN k a EF). }
          rewrite ER2. eexists (s, _). split; [eauto|]. cbn [fst snd o_cache o_add o_remove o_update o_keys o_loaded]. split; [exact Logic.I|].
          split; [unfold load; cbn [o_loaded]; rewrite E5; cbn [snd o_keys]; exact X1|]. split; [congruence|]. split; [reflexivity|]. split; [reflexivity|]. rewrite E2, E3, E4, E1. split; [assumption|]. split; [assumption|]. split; [assumption|]. split; [assumption|].
          intros k' N. unfold upd. destruct (bytes_eqb_spec k' k); [congruence|]. rewrite X8. reflexivity.
        + apply find_none in I. rewrite I. exists (load x1). split; [reflexivity|]. rewrite E7, E6, X3, E2, E3, E4, E1, X8, X4, X5, E5. split.
          * apply rel_load. unfold x1. destruct (o_update o k) eqn:EU; [exfalso; pose proof (r_update _ _ R k _ EU); congruence|exact R].
          * split; [assumption|]. split; [discriminate|]. auto 9. }
    destruct K1 as (y & EC & RY & Y1 & Y1b & Y2 & Y3 & Y4 & Y5 & Y6 & Y7 & Y8). destruct (find (m_e m) k) as [a|] eqn:EF; [|rewrite EC; exact RY].
    destruct EC as (v & ->). cbn [snd]. unfold remove_key. rewrite Y1. pose proof (find_in _ _ _ EF) as IN. destruct (index_some _ _ IN) as (i & Ei). rewrite Ei.
    destruct (load_rest y) as (E1 & E2 & E3 & E4 & E5). pose proof (load_fst y) as E6. destruct (load y) as (s1, o1). cbn [fst snd set_keys put_remove drop_cache put_raw] in *. subst s1.
    pose proof (delete_pop _ _ _ (r_nodup _ _ R) Ei) as DP.
    assert (Q : rel (Store (upd (s_raw s) k None) (join_keys (pop i (map fst (m_e m)))), Obj (upd (o_cache o1) k None) (pop i (map fst (m_e m))) (o_loaded o1) (o_add o1) (upd (o_remove o1) k true) (o_update o1)) (Marked (delete (m_e m) k) (m_fresh m) (upd (m_gone m) k true))).
    { rewrite E1, E2, E3, E4, E5, Y4, Y5. destruct R. constructor; fields; rewrite ?DP; auto.
      - rewrite <- DP. apply delete_nodup. assumption.
      - rewrite <- DP. apply Forall_forall. intros z Hz. apply delete_keys_in in Hz. rewrite Forall_forall in r_commas0. apply r_commas0. tauto.
      - discriminate.
      - intros k'. unfold upd. destruct (bytes_eqb k' k); auto.
      - intros k' b E. rewrite find_delete. destruct (bytes_eqb_spec k' k) as [->|N]; [congruence|]. rewrite Y6 by assumption. auto.
      - intros k' b E. rewrite find_delete. destruct (bytes_eqb_spec k' k) as [->|N]; [congruence|]. rewrite Y6 in E by assumption. auto.
      - intros k' E. rewrite find_delete. unfold upd in E. destruct (bytes_eqb k' k); [reflexivity|auto].
      - intros EN k' b E. rewrite find_delete in E. unfold upd. destruct (bytes_eqb k' k); [discriminate|auto].
      - intros k' w E. unfold upd in E. rewrite find_delete. destruct (bytes_eqb_spec k' k) as [->|N]; [discriminate|]. rewrite Y8 in E by assumption. rewrite Y6 by assumption. auto.
      - intros k' b E. rewrite find_delete in E. destruct (bytes_eqb_spec k' k) as [->|N]; [discriminate|auto]. }
    rewrite Y2. destruct nested eqn:EN; [|exact Q].
    apply (rel_raw _ _ _ (s_raw s) EN) in Q. cbn [s_keys] in Q. exact Q.
Qed.

Lemma next_ok : forall x m, rel x m -> kept (map fst (m_e m)) -> rel (next_call x) (snd (mark_step m OCall)).
Proof.
  intros (s, o) m R K. unfold next_call. cbn [fst snd mark_step]. destruct R. constructor; fields; auto; try (intros; discriminate).
  unfold load, new_obj. fields. rewrite r_string0. pose proof (reload _ r_nodup0 r_commas0 K) as Q. destruct (1 <? _); exact Q.
Qed.
Lemma rel_empty : rel empty_st no_marks.
Proof. constructor; cbn; auto; try (intros; discriminate); constructor. Qed.
Lemma step_ok : forall x m o, rel x m -> good_op readable o -> (o = OCall -> kept (map fst (m_e m))) ->
  exists y, step o2r r2o nested make x o = Some (fst (mark_step m o), y) /\ rel y (snd (mark_step m o)).
Proof.
  intros x m [k a|k|k|k| |] R G K; cbn [step good_op] in *.
  - destruct (set_ok x m k a R (proj1 G) (proj2 G)) as (y & -> & Ry). exists y. split; [|exact Ry]. cbn [mark_step]. destruct (find (m_e m) k); reflexivity.
  - eexists. split; [|apply remove_ok; exact R]. cbn [mark_step]. destruct (m_fresh m k); [reflexivity|]. destruct (find (m_e m) k); reflexivity.
  - destruct (get_ok x m k R) as (y & -> & Ry). exists y. split; [reflexivity|exact Ry].
  - rewrite (contains_ok x m k R). exists (load x). split; [reflexivity|]. apply rel_load. exact R.
  - unfold d_keys. exists (load x). rewrite (r_keys _ _ R). split; [reflexivity|]. apply rel_load. exact R.
  - exists (next_call x). split; [reflexivity|]. apply next_ok; auto.
Qed.
Lemma run_ok : forall os x m, rel x m -> Forall (good_op readable) os -> kept_run m os -> run o2r r2o nested make x os = Some (mark_run m os).
Proof.
  induction os as [|o os IH]; intros x m R F K; [reflexivity|]. inversion F as [|? ? F1 F2]; subst. destruct K as [K1 K2]. cbn [run mark_run].
  destruct (step_ok x m o R F1 K1) as (y & -> & Ry). rewrite (IH y _ Ry F2 K2). reflexivity.
Qed.
Fixpoint marks (m : marked A) (os : list (op A)) : marked A := match os with [] => m | o :: r => marks (snd (mark_step m o)) r end.
Lemma after_ok : forall os x m, rel x m -> Forall (good_op readable) os -> kept_run m os -> exists y, after o2r r2o nested make x os = Some y /\ rel y (marks m os).
Proof.
  induction os as [|o os IH]; intros x m R F K; [exists x; auto|]. inversion F as [|? ? F1 F2]; subst. destruct K as [K1 K2]. cbn [after marks].
  destruct (step_ok x m o R F1 K1) as (y & -> & Ry). apply IH; assumption.
Qed.
Lemma marks_app : forall os m os', marks m (os ++ os') = marks (marks m os) os'.
Proof. induction os as [|o os IH]; intros m os'; [reflexivity|]. cbn [app marks]. apply IH. Qed.

(** remove_all *)
Lemma delete_mid : forall (p r : entries) k a, NoDup (map fst (p ++ (k, a) :: r)) -> delete (p ++ (k, a) :: r) k = p ++ r /\ find (p ++ (k, a) :: r) k = Some a.
Proof.
  induction p as [|(x, b) p IH]; intros r k a ND; cbn [app map fst] in ND; inversion ND as [|? ? NI ND']; subst; cbn [app delete filter find fst].
  - rewrite bytes_eqb_refl. cbn [negb]. split; [|reflexivity]. apply delete_none. apply find_none. exact NI.
  - assert (N : bytes_eqb x k = false). { destruct (bytes_eqb_spec x k) as [->|]; [|reflexivity]. exfalso. apply NI. rewrite map_app. apply in_or_app. right. left. reflexivity. }
    rewrite N. cbn [negb]. destruct (IH r k a ND') as [E1 E2]. fold (delete (p ++ (k, a) :: r) k). rewrite E1. auto.
Qed.
Lemma second_map : forall (T U : Type) (f : T -> U) n l, (length l <= n)%nat -> second (map f l) = map f (second l).
Proof.
  intros T U f. induction n as [|n IH]; intros [|a [|b l]] L; try reflexivity; cbn [length] in L; try lia. cbn [map second]. f_equal. apply IH. lia.
Qed.
Lemma remove_loaded : forall (x : st A V) k, o_loaded (snd x) = true -> o_loaded (snd (d_remove nested make x k)) = true.
Proof.
  intros (s, o) k L. unfold d_remove. cbn [snd] in *. destruct (o_add o k); [cbn [put_add snd o_loaded]; exact L|]. destruct (o_remove o k); [exact L|].
  set (x1 := match o_update o k with Some _ => put_update (s, o) k None | None => (s, o) end). assert (L1 : o_loaded (snd x1) = true) by (unfold x1; destruct (o_update o k); exact L).
  destruct (d_cache nested make x1 k) as (v, y) eqn:EC. assert (LY : o_loaded (snd y) = true).
  { unfold d_cache in EC. destruct (o_cache (snd x1) k); [injection EC as <- <-; exact L1|]. unfold d_contains in EC. pose proof (load_rest x1) as (_ & _ & _ & _ & E5).
    destruct (index_key _ k); [|injection EC as <- <-; exact E5]. destruct (load x1) as (s1, o1). cbn [snd fst] in *. destruct (if nested then Some (make k) else s_raw s1 k); injection EC as <- <-; cbn [snd o_loaded]; exact E5. }
  destruct v; [|exact LY]. assert (LK : o_loaded (snd (remove_key y k)) = true).
  { unfold remove_key. pose proof (load_rest y) as (_ & _ & _ & _ & E5). destruct (load y) as (s1, o1). cbn [snd] in *. destruct (index_key (o_keys o1) k); cbn [set_keys snd o_loaded]; exact E5. }
  destruct (remove_key y k) as (s1, o1). destruct nested; cbn [snd put_remove drop_cache put_raw o_loaded] in *; exact LK.
Qed.
Lemma remove_from_end : forall n (x : st A V) i, (length (o_keys (snd x)) <= i)%nat -> remove_from nested make n x i = x.
Proof. intros [|n] x i L; [reflexivity|]. cbn [remove_from]. apply nth_error_None in L. rewrite L. reflexivity. Qed.
Lemma remove_from_ok : forall n r x m p, rel x m -> o_loaded (snd x) = true -> m_e m = p ++ r -> (forall k, m_fresh m k = false) -> (length r <= n)%nat ->
  exists m', rel (remove_from nested make n x (length p)) m' /\ m_e m' = p ++ second r.
Proof.
  induction n as [|n IH]; intros r x m p R L E NF LE; cbn [remove_from].
  { destruct r; [|cbn [length] in LE; lia]. exists m. auto. }
  assert (KX : o_keys (snd x) = map fst p ++ map fst r). { destruct x as (s, o). cbn [snd] in *. rewrite (loaded_keys s o m L R), E. apply map_app. }
  rewrite KX. destruct r as [|(k, a) r].
  { cbn [map]. rewrite app_nil_r. replace (nth_error (map fst p) (length p)) with (@None key) by (symmetry; apply nth_error_None; rewrite map_length; lia). exists m. auto. }
  rewrite nth_error_app2 by (rewrite map_length; lia). rewrite map_length, Nat.sub_diag. cbn [map fst nth_error].
  pose proof (remove_ok x m k R) as R2. cbn [mark_step] in R2. rewrite NF in R2. pose proof (r_nodup _ _ R) as ND. rewrite E in ND. destruct (delete_mid p r k a ND) as [D1 D2]. rewrite E, D1, D2 in R2. cbn [snd] in R2.
  pose proof (remove_loaded x k L) as L2. destruct r as [|q r].
  - rewrite remove_from_end; [eexists; split; [exact R2|reflexivity]|]. destruct (d_remove nested make x k) as (s2, o2). cbn [snd] in *. rewrite (loaded_keys s2 o2 _ L2 R2). cbn [m_e]. rewrite map_length, app_nil_r. lia.
  - destruct (IH r _ _ (p ++ [q]) R2 L2) as (m' & R' & E'); [cbn [m_e]; rewrite <- app_assoc; reflexivity|exact NF|cbn [length] in LE; lia|].
    rewrite app_length in R'. cbn [length] in R'. rewrite Nat.add_1_r in R'. exists m'. split; [exact R'|]. rewrite E', <- app_assoc. reflexivity.
Qed.
Lemma remove_all_ok : forall x m, rel x m -> (forall k, m_fresh m k = false) -> exists m', rel (d_remove_all nested make x) m' /\ m_e m' = second (m_e m).
Proof.
  intros x m R NF. unfold d_remove_all, d_keys. pose proof (load_rest x) as (_ & _ & _ & _ & E5).
  apply (remove_from_ok (length (o_keys (snd (load x)))) (m_e m) (load x) m [] (rel_load _ _ R) E5 eq_refl NF). rewrite (r_keys _ _ R), map_length. lia.
Qed.
End DICT.

(** ** Properties *)
Section PROPS.
Context (int_bytes : Z -> list Z) (bytes_int : list Z -> Z) (address : list Z -> bool) (reads : key -> list Z -> bool) (default : key -> option prop).
Hypothesis ints : forall n, bytes_int (int_bytes n) = n.
Lemma stored_read : forall k v, plain address reads k v -> of_stored bytes_int address reads k (to_stored int_bytes v) = Some v.
Proof. intros k [n|s|b|b|b|s|b] P; cbn [plain] in P; unfold to_stored, of_stored; cbn [Z.eqb Pos.eqb]; rewrite ?ints, ?P; try reflexivity. destruct P. Qed.
Record prel (p : props) (i : ideal) : Prop := {
  q_db : forall k, p_db p k = match i_set i k with Some v => Some (to_stored int_bytes v) | None => None end;
  q_plain : forall k v, i_set i k = Some v -> plain address reads k v;
  q_gone : forall k, p_remove p k = i_unset i k;
  q_unset : forall k, i_unset i k = true -> i_set i k = None;
  q_cache : forall k v, p_cache p k = Some v -> i_unset i k = false -> v = i_get default i k }.
Lemma p_get_ok : forall p i k, prel p i -> exists q, p_get bytes_int address reads default p k = Some (i_get default i k, q) /\ prel q i.
Proof.
  intros p i k R. unfold p_get, i_get. rewrite (q_gone _ _ R). destruct (i_unset i k) eqn:EU; [eauto|]. destruct (p_cache p k) as [v|] eqn:EC.
  - rewrite (q_cache _ _ R k v EC EU). unfold i_get. rewrite EU. eauto.
  - rewrite (q_db _ _ R). assert (Q : forall w, w = i_get default i k -> prel (Props (p_db p) (upd (p_cache p) k (Some w)) (p_remove p)) i).
    { intros w Ew. destruct R. constructor; cbn [p_db p_cache p_remove]; auto. intros k' v E. unfold upd in E. destruct (bytes_eqb_spec k' k) as [->|]; [congruence|auto]. }
    unfold i_get in Q. rewrite EU in Q. destruct (i_set i k) as [v|] eqn:ES; [rewrite (stored_read k v (q_plain _ _ R k v ES))|]; eexists; split; [reflexivity|apply Q; reflexivity|reflexivity|apply Q; reflexivity].
Qed.
Lemma q_step_ok : forall p i o, prel p i -> plain_op address reads o -> exists q, q_step int_bytes bytes_int address reads default p o = Some (fst (i_step default i o), q) /\ prel q (snd (i_step default i o)).
Proof.
  intros p i [k [v|]|k|] R P; cbn [q_step i_step plain_op fst snd] in *.
  - cbn [p_set]. eexists. split; [reflexivity|]. destruct R. constructor; cbn [p_db p_cache p_remove i_set i_unset]; unfold i_get; cbn [i_set i_unset]; unfold upd; intros k'; destruct (bytes_eqb_spec k' k) as [->|N]; auto; try congruence.
    intros w E U. apply q_cache0; assumption.
  - cbn [p_set]. destruct (p_get_ok p i k R) as (q & -> & Rq). destruct (i_get default i k) as [v|] eqn:EG; [|exists q; auto]. eexists. split; [reflexivity|].
    destruct Rq. constructor; cbn [p_db p_cache p_remove i_set i_unset]; unfold i_get; cbn [i_set i_unset]; unfold upd; intros k'; destruct (bytes_eqb_spec k' k) as [->|N]; auto; try congruence; try discriminate.
    intros w E U. apply q_cache0; assumption.
  - apply p_get_ok. exact R.
  - eexists. split; [reflexivity|]. destruct R. constructor; cbn [p_next_call p_db p_cache p_remove i_set i_unset]; auto; intros; discriminate.
Qed.
Lemma q_run_ok : forall os p i, prel p i -> Forall (plain_op address reads) os -> q_run int_bytes bytes_int address reads default p os = Some (i_run default i os).
Proof.
  induction os as [|o os IH]; intros p i R F; [reflexivity|]. inversion F as [|? ? F1 F2]; subst. cbn [q_run i_run]. destruct (q_step_ok p i o R F1) as (q & -> & Rq). rewrite (IH q _ Rq F2). reflexivity.
Qed.
Lemma prel_empty : prel empty_props (Ideal (fun _ => None) (fun _ => false)).
Proof. constructor; cbn; auto; intros; discriminate. Qed.
Lemma read_all_ok : forall ks p i, prel p i -> exists q, read_all bytes_int address reads default p ks = Some q /\ prel q i.
Proof.
  induction ks as [|k ks IH]; intros p i R; cbn [read_all]; [eauto|]. destruct (p_get_ok p i k R) as (q & -> & Rq). apply IH. exact Rq.
Qed.
Lemma q_after_ok : forall os p i, prel p i -> Forall (plain_op address reads) os -> exists q j, q_after int_bytes bytes_int address reads default p os = Some q /\ prel q j.
Proof.
  induction os as [|o os IH]; intros p i R F; [exists p, i; auto|]. inversion F as [|? ? F1 F2]; subst. cbn [q_after]. destruct (q_step_ok p i o R F1) as (q & -> & Rq). eapply IH; eassumption.
Qed.
Lemma read_all_cached : forall ks p q, read_all bytes_int address reads default p ks = Some q -> p_remove q = p_remove p /\ p_db q = p_db p /\ (forall k, p_cache p k <> None -> p_cache q k <> None) /\ (forall k, In k ks -> p_remove p k = true \/ p_cache q k <> None).
Proof.
  induction ks as [|k ks IH]; intros p q E; cbn [read_all] in E; [injection E as <-; split; [reflexivity|split; [reflexivity|split; [auto|intros k []]]]|].
  destruct (p_get bytes_int address reads default p k) as [(v, p1)|] eqn:EG; [|discriminate]. destruct (IH p1 q E) as (I1 & I2 & I3 & I4). unfold p_get in EG.
  destruct (p_remove p k) eqn:ER; [injection EG as _ <-; split; [assumption|split; [assumption|split; [assumption|intros k' [<-|I]; [left; assumption|apply I4; exact I]]]]|].
  destruct (p_cache p k) as [w|] eqn:EC; [injection EG as _ <-; split; [assumption|split; [assumption|split; [assumption|intros k' [<-|I]; [right; apply I3; congruence|apply I4; exact I]]]]|].
  destruct (match p_db p k with None => _ | Some _ => _ end) as [w|]; [|discriminate]. injection EG as _ <-. cbn [p_db p_cache p_remove] in *. split; [assumption|]. split; [assumption|]. split.
  - intros k' N. apply I3. unfold upd. destruct (bytes_eqb k' k); [discriminate|assumption].
  - intros k' [<-|I]; [right; apply I3; unfold upd; rewrite bytes_eqb_refl; discriminate|apply I4; exact I].
Qed.
End PROPS.
