(** Theorems about the key-value store: C28 (overlay), C29 (bucket isolation). *)
From Coq Require Import String Ascii ZArith List Bool Lia Permutation.
From Coq Require Import ZifyBool.
From Verif Require Import Base L_Base M_Db S_Db.
Import ListNotations.
Open Scope Z_scope.

Lemma kv_get_set : forall T k k' (v : T) m, kv_get k' (kv_set k v m) = if bytes_eqb k' k then Some v else kv_get k' m.
Proof.
  intros. unfold kv_set. cbn [kv_get]. destruct (bytes_eqb_spec k' k) as [|N]; [reflexivity|].
  induction m as [|[x y] m IH]; [reflexivity|]. cbn [kv_del kv_get]. destruct (bytes_eqb_spec k x) as [->|].
  - rewrite IH. destruct (bytes_eqb_spec k' x); [congruence|reflexivity].
  - cbn [kv_get]. rewrite IH. reflexivity.
Qed.
Lemma kv_get_del : forall T k k' (m : list (list Z * T)), kv_get k' (kv_del k m) = if bytes_eqb k' k then None else kv_get k' m.
Proof.
  intros T k k' m. induction m as [|[x y] m IH]; [cbn; destruct (bytes_eqb k' k); reflexivity|].
  cbn [kv_del]. destruct (bytes_eqb_spec k x) as [->|N].
  - rewrite IH. cbn [kv_get]. destruct (bytes_eqb_spec k' x); reflexivity.
  - cbn [kv_get]. rewrite IH. destruct (bytes_eqb_spec k' x) as [->|]; [|reflexivity]. destruct (bytes_eqb_spec x k); [congruence|reflexivity].
Qed.
Lemma kv_del_keys : forall T k x (m : list (list Z * T)), In x (map fst (kv_del k m)) -> In x (map fst m) /\ x <> k.
Proof.
  intros T k x m. induction m as [|[a b] m IH]; cbn [kv_del map fst]; [intros []|]. destruct (bytes_eqb_spec k a) as [->|N].
  - intros Hi. destruct (IH Hi). split; [right; assumption|assumption].
  - cbn [map fst]. intros [<-|Hi]; [split; [left; reflexivity|congruence]|]. destruct (IH Hi). split; [right; assumption|assumption].
Qed.
Lemma kv_del_nodup : forall T k (m : list (list Z * T)), NoDup (map fst m) -> NoDup (map fst (kv_del k m)).
Proof.
  intros T k m. induction m as [|[a b] m IH]; cbn [kv_del map fst]; intros HN; [constructor|]. inversion HN as [|? ? N1 N2]; subst.
  destruct (bytes_eqb_spec k a); [auto|]. cbn [map fst]. constructor; [|auto]. intros Hi. apply kv_del_keys in Hi. tauto.
Qed.
Lemma kv_set_nodup : forall T k v (m : list (list Z * T)), NoDup (map fst m) -> NoDup (map fst (kv_set k v m)).
Proof. intros T k v m HN. unfold kv_set. cbn [map fst]. constructor; [|apply kv_del_nodup; assumption]. intros Hi. apply kv_del_keys in Hi. tauto. Qed.
Lemma kv_set_keys : forall T k v x (m : list (list Z * T)), In x (map fst (kv_set k v m)) -> x = k \/ In x (map fst m).
Proof. intros T k v x m. unfold kv_set. cbn [map fst]. intros [<-|Hi]; [auto|]. apply kv_del_keys in Hi. tauto. Qed.
Lemma kv_get_in : forall T k v (m : list (list Z * T)), kv_get k m = Some v -> In (k, v) m.
Proof.
  intros T k v m. induction m as [|[a b] m IH]; cbn [kv_get]; [discriminate|]. destruct (bytes_eqb_spec k a) as [->|]; [intros E; injection E as ->; left; reflexivity|].
  intros E. right. auto.
Qed.
Lemma kv_get_iff : forall T k v (m : list (list Z * T)), NoDup (map fst m) -> (kv_get k m = Some v <-> In (k, v) m).
Proof.
  intros T k v m HN. split; [apply kv_get_in|]. revert HN. induction m as [|[a b] m IH]; cbn [kv_get map fst]; intros HN Hi; [contradiction|].
  inversion HN as [|? ? N1 N2]; subst. destruct Hi as [E|Hi]; [injection E as -> ->; destruct (bytes_eqb_spec k k); congruence|].
  destruct (bytes_eqb_spec k a) as [->|]; [|auto]. exfalso. apply N1. apply in_map_iff. exists (a, v). auto.
Qed.
Lemma kv_get_perm : forall T k (m m' : list (list Z * T)), NoDup (map fst m) -> Permutation m m' -> kv_get k m = kv_get k m'.
Proof.
  intros T k m m' HN HP. assert (HN' : NoDup (map fst m')) by (apply (Permutation_NoDup (Permutation_map fst HP)); assumption).
  destruct (kv_get k m) as [v|] eqn:E.
  - symmetry. apply kv_get_iff; [assumption|]. apply (Permutation_in _ HP). apply kv_get_in. assumption.
  - destruct (kv_get k m') as [v|] eqn:E'; [|reflexivity]. apply kv_get_in in E'. apply (Permutation_in _ (Permutation_sym HP)) in E'. apply kv_get_iff in E'; [congruence|assumption].
Qed.

Lemma same_key_spec : forall a b, reflect (a = b) (same_key a b).
Proof.
  intros [a1 a2] [b1 b2]. unfold same_key. cbn [fst snd].
  destruct (list_eq_dec Z.eq_dec a1 b1); [|constructor; congruence]. destruct (list_eq_dec Z.eq_dec a2 b2); constructor; congruence.
Qed.
Lemma update_same : forall c id k v, update c id k v id k = v.
Proof. intros. unfold update. destruct (same_key_spec (id, k) (id, k)); congruence. Qed.
Lemma update_other : forall c id k v id' k', (id, k) <> (id', k') -> update c id k v id' k' = c id' k'.
Proof. intros. unfold update. destruct (same_key_spec (id, k) (id', k')); congruence. Qed.

Lemma app_inj_length : forall (a b c d : list Z), a ++ b = c ++ d -> length a = length c -> a = c /\ b = d.
Proof.
  induction a as [|x a IH]; intros b [|y c] d E HL; cbn in HL; try lia; [auto|]. cbn [app] in E. injection E as -> E.
  destruct (IH _ _ _ E ltac:(lia)). subst. auto.
Qed.

Section SIM.
Context {S : Type} (B : backend S) (D : list Z -> list Z -> Prop) (L : lawful B D).

(** What the layer shows. *)
Definition view (l : layer S) (id k : list Z) : option (list Z) :=
  match kv_get id (l_buckets l) with
  | Some (Some d) => match kv_get k d with Some v => v | None => b_get B (l_real l) id k end
  | _ => b_get B (l_real l) id k
  end.

Record wf (l : layer S) : Prop := {
  wf_ids : NoDup (map fst (l_buckets l));
  wf_keys : forall id d, kv_get id (l_buckets l) = Some (Some d) -> NoDup (map fst d) /\ forall k, In k (map fst d) -> D id k;
  wf_closed : l_flushed l = true -> forall id d, kv_get id (l_buckets l) <> Some (Some d);
  wf_open : l_flushed l = false -> forall id, kv_get id (l_buckets l) <> Some None }.

Definition sim (l : layer S) (r : ref) : Prop :=
  wf l /\ l_flushed l = r_closed r /\
  (forall id k, D id k -> b_get B (l_real l) id k = r_base r id k) /\
  (forall id k, D id k -> view l id k = r_view r id k).

Lemma GetBucket_sim : forall l r id l' p, sim l r -> GetBucket l id = (l', p) ->
  sim l' r /\ l_real l' = l_real l /\
  match p with Some d => kv_get id (l_buckets l') = Some (Some d) /\ r_closed r = false
             | None => forall d, kv_get id (l_buckets l') <> Some (Some d) end.
Proof.
  intros l r id l' p (HW & HF & HB & HV) E. unfold GetBucket in E. destruct (kv_get id (l_buckets l)) as [p0|] eqn:EG.
  - injection E as <- <-. split; [split; [assumption|auto]|]. split; [reflexivity|]. destruct p0 as [d|]; [|congruence]. split; [assumption|].
    destruct (r_closed r) eqn:ER; [|reflexivity]. rewrite <- HF in *. exfalso. apply (wf_closed l HW HF id d). assumption.
  - destruct (l_flushed l) eqn:EF.
    + injection E as <- <-. split; [split; [assumption|rewrite EF; auto]|]. split; [reflexivity|congruence].
    + injection E as <- <-. cbn [l_buckets l_real l_flushed]. split; [|split; [reflexivity|]].
      * split; [|split; [assumption|split; [assumption|]]].
        -- destruct HW as [W1 W2 W3 W4]. constructor; cbn [l_buckets l_flushed].
           ++ apply kv_set_nodup. assumption.
           ++ intros i d. rewrite kv_get_set. destruct (bytes_eqb_spec i id) as [->|]; [|apply W2]. intros X. injection X as <-. split; [constructor|intros ? []].
           ++ discriminate.
           ++ intros _ i. rewrite kv_get_set. destruct (bytes_eqb_spec i id); [discriminate|apply W4; assumption].
        -- intros i k Hd. rewrite <- HV by assumption. unfold view. cbn [l_buckets l_real]. rewrite kv_get_set.
           destruct (bytes_eqb_spec i id) as [->|]; [|reflexivity]. rewrite EG. reflexivity.
      * rewrite kv_get_set. destruct (bytes_eqb_spec id id) as [_|]; [|congruence]. split; [reflexivity|congruence].
Qed.

Lemma put_pending_sim : forall l r id k v d, sim l r -> D id k -> kv_get id (l_buckets l) = Some (Some d) -> r_closed r = false ->
  sim (put_bucket l id (Some (kv_set k v d))) (write r id k v).
Proof.
  intros l r id k v d (HW & HF & HB & HV) Hd EG EC. destruct HW as [W1 W2 W3 W4]. unfold write. rewrite EC.
  split; [|split; [|split]]; cbn [put_bucket l_buckets l_real l_flushed r_closed r_base r_view].
  - constructor; cbn [put_bucket l_buckets l_flushed].
    + apply kv_set_nodup. assumption.
    + intros i d'. rewrite kv_get_set. destruct (bytes_eqb_spec i id) as [->|]; [|apply W2]. intros X. injection X as <-.
      destruct (W2 id d EG) as [N HI]. split; [apply kv_set_nodup; assumption|]. intros k' Hk. apply kv_set_keys in Hk. destruct Hk as [->|Hk]; auto.
    + congruence.
    + intros HO i. rewrite kv_get_set. destruct (bytes_eqb_spec i id); [discriminate|apply W4; assumption].
  - congruence.
  - assumption.
  - intros i k' Hd'. unfold view. cbn [put_bucket l_buckets l_real]. rewrite kv_get_set.
    destruct (bytes_eqb_spec i id) as [->|N].
    + rewrite kv_get_set. destruct (bytes_eqb_spec k' k) as [->|N].
      * rewrite update_same. reflexivity.
      * rewrite update_other by congruence. rewrite <- HV by assumption. unfold view. rewrite EG. reflexivity.
    + rewrite update_other by congruence. rewrite <- HV by assumption. reflexivity.
Qed.

Lemma put_real_sim : forall l r id k v s', sim l r -> D id k -> (forall d, kv_get id (l_buckets l) <> Some (Some d)) ->
  (forall id' k', D id' k' -> b_get B s' id' k' = update (b_get B (l_real l)) id k v id' k') -> r_closed r = true ->
  sim (put_real l s') (write r id k v).
Proof.
  intros l r id k v s' (HW & HF & HB & HV) Hd EG HU EC. unfold write. rewrite EC.
  split; [|split; [|split]]; cbn [put_real l_buckets l_real l_flushed r_closed r_base r_view].
  - destruct HW as [W1 W2 W3 W4]. constructor; assumption.
  - congruence.
  - intros i k' Hd'. rewrite HU by assumption. unfold update. rewrite HB by assumption. reflexivity.
  - intros i k' Hd'. assert (E : view (put_real l s') i k' = b_get B s' i k').
    { unfold view, put_real. cbn [l_buckets l_real]. destruct (kv_get i (l_buckets l)) as [[d|]|] eqn:EI; try reflexivity.
      exfalso. rewrite <- HF in EC. apply (wf_closed l HW EC i d EI). }
    rewrite E, HU by assumption. unfold update. destruct (same_key (id, k) (i, k')); [reflexivity|]. rewrite <- HV by assumption.
    unfold view. destruct (kv_get i (l_buckets l)) as [[d|]|] eqn:EI; try reflexivity. exfalso. rewrite <- HF in EC. apply (wf_closed l HW EC i d EI).
Qed.

(** Writing a list of entries with distinct keys, in any order. *)
Lemma write_all_spec : forall id es s, NoDup (map fst es) -> (forall k, In k (map fst es) -> D id k) ->
  exists s', write_all B s id es = (s', true) /\
    forall id' k', D id' k' -> b_get B s' id' k' = if bytes_eqb id' id then match kv_get k' es with Some v => v | None => b_get B s id' k' end else b_get B s id' k'.
Proof.
  intros id. induction es as [|[k v] es IH]; intros s HN HD; cbn [write_all].
  - exists s. split; [reflexivity|]. intros. cbn. destruct (bytes_eqb id' id); reflexivity.
  - cbn [map fst] in HN, HD. inversion HN as [|? ? N1 N2]; subst.
    assert (HK : D id k) by (apply HD; left; reflexivity).
    assert (G : exists s1, (match v with None => write_all B (b_del B s id k) id es | Some v0 => match b_set B s id k (Some v0) with Ok s' => write_all B s' id es | _ => (s, false) end end) = write_all B s1 id es /\
      forall id' k', D id' k' -> b_get B s1 id' k' = update (b_get B s) id k v id' k').
    { destruct v as [v|].
      - destruct (law_set_ok B D L s id k v HK) as [s1 E]. exists s1. rewrite E. split; [reflexivity|]. intros. apply (law_set B D L s id k v s1); assumption.
      - exists (b_del B s id k). split; [reflexivity|]. intros. apply (law_del B D L); assumption. }
    destruct G as (s1 & E1 & U1). destruct (IH s1 N2 (fun x Hx => HD x (or_intror Hx))) as (s' & E' & U').
    exists s'. split; [destruct v; rewrite E1, E'; reflexivity|].
    intros id' k' Hd'. rewrite U' by assumption. rewrite U1 by assumption. cbn [kv_get].
    destruct (bytes_eqb_spec id' id) as [->|N].
    + destruct (bytes_eqb_spec k' k) as [->|N].
      * destruct (kv_get k es) eqn:EK; [exfalso; apply N1; apply kv_get_in in EK; apply in_map_iff; eexists; split; [|exact EK]; reflexivity|]. apply update_same.
      * destruct (kv_get k' es); [reflexivity|]. apply update_other. congruence.
    + apply update_other. congruence.
Qed.

Definition order_ok (order : list (list Z * list (list Z * option (list Z)))) : Prop :=
  NoDup (map fst order) /\ forall id es, In (id, es) order -> NoDup (map fst es) /\ forall k, In k (map fst es) -> D id k.

Lemma flush_spec : forall w order l, order_ok order -> exists l', flush_buckets B w order l = (l', true) /\ l_flushed l' = l_flushed l /\
  (NoDup (map fst (l_buckets l)) -> NoDup (map fst (l_buckets l'))) /\
  (forall id, kv_get id (l_buckets l') = match kv_get id order with Some _ => Some None | None => kv_get id (l_buckets l) end) /\
  (forall id k, D id k -> b_get B (l_real l') id k =
     if w then match kv_get id order with Some es => (match kv_get k es with Some v => v | None => b_get B (l_real l) id k end) | None => b_get B (l_real l) id k end
     else b_get B (l_real l) id k).
Proof.
  intros w order. induction order as [|[id es] order IH]; intros l [HN HO]; cbn [flush_buckets].
  - exists l. repeat split; auto. intros. destruct w; reflexivity.
  - cbn [map fst] in HN. inversion HN as [|? ? N1 N2]; subst. destruct (HO id es (or_introl eq_refl)) as [E1 E2].
    destruct (write_all_spec id es (l_real l) E1 E2) as (s1 & EW & UW).
    set (s2 := if w then s1 else l_real l).
    assert (ES : (if w then write_all B (l_real l) id es else (l_real l, true)) = (s2, true)) by (unfold s2; destruct w; [assumption|reflexivity]).
    rewrite ES. destruct (IH (put_bucket (put_real l s2) id None) (conj N2 (fun a b c => HO a b (or_intror c)))) as (l' & EF & FF & FN & FB & FR).
    exists l'. split; [assumption|]. split; [rewrite FF; reflexivity|]. split; [intros X; apply FN; apply kv_set_nodup; exact X|]. split.
    + intros i. rewrite FB. cbn [kv_get put_bucket put_real l_buckets]. destruct (bytes_eqb_spec i id) as [->|N].
      * destruct (kv_get id order); [reflexivity|]. rewrite kv_get_set. destruct (bytes_eqb_spec id id); [reflexivity|congruence].
      * destruct (kv_get i order); [reflexivity|]. rewrite kv_get_set. destruct (bytes_eqb_spec i id); [congruence|reflexivity].
    + intros i k Hd. rewrite FR by assumption. cbn [kv_get put_bucket put_real l_real]. destruct w; [|reflexivity]. unfold s2.
      destruct (bytes_eqb_spec i id) as [->|N].
      * destruct (kv_get id order) eqn:EI; [exfalso; apply N1; apply kv_get_in in EI; apply in_map_iff; eexists; split; [|exact EI]; reflexivity|].
        rewrite UW by assumption. destruct (bytes_eqb_spec id id); [reflexivity|congruence].
      * rewrite UW by assumption. destruct (bytes_eqb_spec i id); [congruence|]. reflexivity.
Qed.

(** Any iteration order is a well-formed list of the pending entries. *)
Lemma forall2_get : forall (o order : list (list Z * list (list Z * option (list Z)))),
  Forall2 (fun x y => fst x = fst y /\ Permutation (snd x) (snd y)) o order ->
  map fst o = map fst order /\
  (forall id, match kv_get id o, kv_get id order with Some a, Some b => Permutation a b | None, None => True | _, _ => False end).
Proof.
  intros o order F. induction F as [|[a b] [a' b'] o order [E P] F [IH1 IH2]]; [split; [reflexivity|intros; exact I]|].
  cbn [fst snd] in *. subst a'. split; [cbn [map fst]; congruence|]. intros id. cbn [kv_get]. destruct (bytes_eqb id a); [assumption|apply IH2].
Qed.
Lemma kv_get_map : forall id (bks : list (list Z * pending)),
  kv_get id (map (fun x => (fst x, entries (snd x))) bks) = match kv_get id bks with Some p => Some (entries p) | None => None end.
Proof. intros id bks. induction bks as [|[a b] bks IH]; [reflexivity|]. cbn [map kv_get fst snd]. destruct (bytes_eqb id a); [reflexivity|assumption]. Qed.

Lemma iterates_spec : forall l order, wf l -> iterates order (l_buckets l) -> order_ok order /\
  forall id, match kv_get id order with
             | Some es => exists p, kv_get id (l_buckets l) = Some p /\ forall k, kv_get k es = kv_get k (entries p)
             | None => kv_get id (l_buckets l) = None
             end.
Proof.
  intros l order [W1 W2 W3 W4] (o & HP & HF). destruct (forall2_get o order HF) as [F1 F2].
  assert (Em : map fst (map (fun x : list Z * pending => (fst x, entries (snd x))) (l_buckets l)) = map fst (l_buckets l)).
  { rewrite map_map. apply map_ext. reflexivity. }
  assert (HNm : NoDup (map fst (map (fun x : list Z * pending => (fst x, entries (snd x))) (l_buckets l)))) by (rewrite Em; assumption).
  assert (HNo : NoDup (map fst o)) by (apply (Permutation_NoDup (Permutation_map fst HP)); assumption).
  assert (HNr : NoDup (map fst order)) by (rewrite <- F1; assumption).
  assert (G : forall id, match kv_get id order with
             | Some es => exists p, kv_get id (l_buckets l) = Some p /\ Permutation (entries p) es
             | None => kv_get id (l_buckets l) = None end).
  { intros id. specialize (F2 id). rewrite <- (kv_get_perm _ id _ _ HNm HP), kv_get_map in F2.
    destruct (kv_get id (l_buckets l)) as [p|], (kv_get id order) as [es|]; try contradiction; [|reflexivity]. exists p. auto. }
  assert (K : forall id p, kv_get id (l_buckets l) = Some p -> NoDup (map fst (entries p)) /\ forall k, In k (map fst (entries p)) -> D id k).
  { intros id [d|] E; cbn [entries]; [apply (W2 id d E)|]. split; [constructor|intros k []]. }
  split.
  - split; [assumption|]. intros id es Hi. apply kv_get_iff in Hi; [|assumption]. specialize (G id). rewrite Hi in G.
    destruct G as (p & E & P). destruct (K id p E) as [K1 K2]. split; [apply (Permutation_NoDup (Permutation_map fst P)); assumption|].
    intros k Hk. apply K2. apply (Permutation_in _ (Permutation_sym (Permutation_map fst P))). assumption.
  - intros id. specialize (G id). destruct (kv_get id order) as [es|]; [|assumption]. destruct G as (p & E & P). exists p. split; [assumption|].
    intros k. symmetry. apply kv_get_perm; [|assumption]. apply (K id p E).
Qed.

Lemma direct_closed : forall l r id l1, sim l r -> GetBucket l id = (l1, None) -> r_closed r = true.
Proof.
  intros l r id l1 (HW & HF & _) EB. destruct (r_closed r) eqn:EC; [reflexivity|]. exfalso. unfold GetBucket in EB.
  destruct (kv_get id (l_buckets l)) as [p0|] eqn:E0.
  - injection EB as <- ->. apply (wf_open l HW HF id E0).
  - rewrite HF in EB. discriminate.
Qed.

Lemma step_sim : forall l r o x l', sim l r -> op_in D o -> lstep B l o x l' -> x = snd (rstep r o) /\ sim l' (fst (rstep r o)).
Proof.
  intros l r o x l' HS HD HL. destruct HL as [l id k l' v E|l id k l' b E|l id k v l' E|l id k v e E|l id k|l w order l' ok HI E]; cbn [op_in] in HD; cbn [rstep fst snd].
  - unfold l_Get in E. destruct (GetBucket l id) as [l1 p] eqn:EB. destruct (GetBucket_sim l r id l1 p HS EB) as (S1 & S2 & S3).
    injection E as <- <-. split; [|assumption]. f_equal. destruct S1 as (_ & _ & _ & HV). rewrite <- HV by assumption. unfold view.
    destruct p as [d|]; [destruct S3 as [-> _]; reflexivity|]. destruct (kv_get id (l_buckets l1)) as [[d|]|]; try reflexivity. exfalso. apply (S3 d). reflexivity.
  - unfold l_Has in E. destruct (GetBucket l id) as [l1 p] eqn:EB. destruct (GetBucket_sim l r id l1 p HS EB) as (S1 & S2 & S3).
    injection E as <- <-. split; [|assumption]. f_equal. destruct S1 as (_ & _ & _ & HV). rewrite <- HV by assumption. unfold view.
    destruct p as [d|].
    + destruct S3 as [-> _]. destruct (kv_get k d) as [[v|]|]; try reflexivity. apply (law_has B D L).
    + rewrite (law_has B D L). destruct (kv_get id (l_buckets l1)) as [[d|]|]; try reflexivity. exfalso. apply (S3 d). reflexivity.
  - split; [reflexivity|]. unfold l_Set in E. destruct (GetBucket l id) as [l1 p] eqn:EB. destruct (GetBucket_sim l r id l1 p HS EB) as (S1 & S2 & S3).
    destruct p as [d|].
    + injection E as <-. destruct S3 as [S3 S4]. apply put_pending_sim; assumption.
    + destruct (b_set B (l_real l1) id k (Some v)) as [s'| |] eqn:ES; cbn [rbind] in E; try discriminate. injection E as <-.
      apply put_real_sim; try assumption; [intros; apply (law_set B D L (l_real l1)); assumption|].
      apply (direct_closed l r id l1); assumption.
  - exfalso. unfold l_Set in E. destruct (GetBucket l id) as [l1 p] eqn:EB. destruct p as [d|]; [discriminate|].
    destruct (law_set_ok B D L (l_real l1) id k v HD) as [s' ES]. rewrite ES in E. discriminate.
  - split; [reflexivity|]. unfold l_Delete. destruct (GetBucket l id) as [l1 p] eqn:EB. destruct (GetBucket_sim l r id l1 p HS EB) as (S1 & S2 & S3).
    destruct p as [d|].
    + destruct S3 as [S3 S4]. apply put_pending_sim; assumption.
    + apply put_real_sim; try assumption; [intros; apply (law_del B D L); assumption|]. apply (direct_closed l r id l1); assumption.
  - destruct HS as (HW & HF & HB & HV). destruct (iterates_spec l order HW HI) as [HO HG].
    destruct (flush_spec w order l HO) as (l1 & EF & FF & FN & FB & FR). unfold Flush in E. rewrite EF in E. injection E as <- <-.
    split; [reflexivity|].
    assert (NB : forall id d, kv_get id (l_buckets l1) <> Some (Some d)).
    { intros id d. rewrite FB. specialize (HG id). destruct (kv_get id order); [discriminate|]. rewrite HG. discriminate. }
    assert (EQ : forall id k, D id k -> b_get B (l_real l1) id k = (if w then r_view r else r_base r) id k).
    { intros id k Hd. rewrite FR by assumption. destruct w; [|apply HB; assumption]. rewrite <- HV by assumption. unfold view. specialize (HG id).
      destruct (kv_get id order) as [es|]; [|rewrite HG; reflexivity]. destruct HG as (p & -> & HK). rewrite HK. destruct p as [d|]; reflexivity. }
    split; [|split; [reflexivity|split]]; cbn [l_buckets l_real l_flushed r_base r_view r_closed].
    + constructor; cbn [l_buckets l_flushed].
      * apply FN. apply (wf_ids l HW).
      * intros id d E. exfalso. apply (NB id d E).
      * intros _. assumption.
      * discriminate.
    + assumption.
    + intros id k Hd. rewrite <- EQ by assumption. unfold view. cbn [l_buckets l_real]. destruct (kv_get id (l_buckets l1)) as [[d|]|] eqn:E; try reflexivity. exfalso. apply (NB id d E).
Qed.

Lemma run_sim : forall l os xs l', lrun B l os xs l' -> forall r, sim l r -> Forall (op_in D) os ->
  xs = snd (rrun r os) /\ sim l' (fst (rrun r os)).
Proof.
  intros l os xs l' HR. induction HR as [l|l o x l1 os xs l2 HS HR IH]; intros r Hs HF; [split; [reflexivity|assumption]|].
  inversion HF as [|? ? F1 F2]; subst. destruct (step_sim l r o x l1 Hs F1 HS) as [E1 S1]. cbn [rrun].
  destruct (rstep r o) as [r1 x1]. cbn [fst snd] in E1, S1. destruct (IH r1 S1 F2) as [E2 S2]. destruct (rrun r1 os) as [r2 xs2]. cbn [fst snd] in *.
  split; [congruence|assumption].
Qed.

Lemma start_sim : forall s, sim (NewLayerDB s) (start (b_get B s)).
Proof.
  intros s. split; [|split; [reflexivity|split; [reflexivity|reflexivity]]].
  constructor; cbn [NewLayerDB l_buckets l_flushed]; [constructor|discriminate|discriminate|discriminate].
Qed.
End SIM.

(** C28.  Whatever operations are performed on a layer over a lawful base, the answers are those of the
    reference overlay and so are the contents of the base: unchanged until a flush, then equal to the view of
    the layer (or unchanged, if the flush discards). *)
Theorem C28_overlay : forall S (B : backend S) D s os xs l', lawful B D -> Forall (op_in D) os ->
  lrun B (NewLayerDB s) os xs l' ->
  xs = snd (rrun (start (b_get B s)) os) /\
  forall id k, D id k -> b_get B (l_real l') id k = r_base (fst (rrun (start (b_get B s)) os)) id k.
Proof.
  intros S B D s os xs l' L HF HR. destruct (run_sim B D L _ _ _ _ HR _ (start_sim B D s) HF) as [E (_ & _ & HB & _)]. auto.
Qed.
Print Assumptions C28_overlay.

(** Until a flush the base is literally untouched, for any base and any keys. *)
Theorem C28_base_untouched : forall S (B : backend S) s os xs l', lrun B (NewLayerDB s) os xs l' ->
  (forall w, ~ In (OFlush w) os) -> l_real l' = s.
Proof.
  intros S B s os xs l' HR. assert (G : forall l, lrun B l os xs l' -> l_flushed l = false -> (forall id, kv_get id (l_buckets l) <> Some None) ->
    (forall w, ~ In (OFlush w) os) -> l_real l' = l_real l).
  { clear HR. intros l HR. induction HR as [l|l o x l1 os xs l2 HS HR IH]; intros HF HN HO; [reflexivity|].
    assert (K : l_real l1 = l_real l /\ l_flushed l1 = false /\ forall id, kv_get id (l_buckets l1) <> Some None).
    { assert (GB : forall id l' p, GetBucket l id = (l', p) -> l_real l' = l_real l /\ l_flushed l' = false /\ (forall i, kv_get i (l_buckets l') <> Some None) /\ exists d, p = Some d).
      { intros id l' p E. unfold GetBucket in E. destruct (kv_get id (l_buckets l)) as [[d|]|] eqn:EG.
        - injection E as <- <-. repeat split; eauto.
        - exfalso. apply (HN id EG).
        - rewrite HF in E. injection E as <- <-. cbn [l_real l_flushed l_buckets]. split; [reflexivity|]. split; [reflexivity|]. split; [|eauto].
          intros i. rewrite kv_get_set. destruct (bytes_eqb i id); [discriminate|apply HN]. }
      assert (PB : forall l id d, (forall i, kv_get i (@l_buckets S l) <> Some None) -> forall i, kv_get i (l_buckets (put_bucket l id (Some d))) <> Some None).
      { intros l0 id d H i. unfold put_bucket. cbn [l_buckets]. rewrite kv_get_set. destruct (bytes_eqb i id); [discriminate|apply H]. }
      destruct HS as [l id k l' v E|l id k l' b E|l id k v l' E|l id k v e E|l id k|l w order l' ok HI E].
      - unfold l_Get in E. destruct (GetBucket l id) as [l1 p] eqn:EB. destruct (GB _ _ _ EB) as (G1 & G2 & G3 & _). assert (l' = l1) by congruence. subst. auto.
      - unfold l_Has in E. destruct (GetBucket l id) as [l1 p] eqn:EB. destruct (GB _ _ _ EB) as (G1 & G2 & G3 & _). assert (l' = l1) by congruence. subst. auto.
      - unfold l_Set in E. destruct (GetBucket l id) as [l1 p] eqn:EB. destruct (GB _ _ _ EB) as (G1 & G2 & G3 & d & ->). injection E as <-.
        cbn [put_bucket l_real l_flushed]. split; [assumption|]. split; [assumption|]. apply PB. assumption.
      - auto.
      - unfold l_Delete. destruct (GetBucket l id) as [l1 p] eqn:EB. destruct (GB _ _ _ EB) as (G1 & G2 & G3 & d & ->).
        cbn [put_bucket l_real l_flushed]. split; [assumption|]. split; [assumption|]. apply PB. assumption.
      - exfalso. apply (HO w). left. reflexivity. }
    destruct K as (K1 & K2 & K3). rewrite <- K1. apply IH; try assumption. intros w Hw. apply (HO w). right. assumption. }
  intros HO. apply (G (NewLayerDB s) HR); [reflexivity| |assumption]. intros id. discriminate.
Qed.
Print Assumptions C28_base_untouched.

(** The map backend is lawful for every non-empty key, the LevelDB backend for buckets with ids of one length. *)
Theorem C28_map_lawful : lawful map_backend (fun id k => k <> []).
Proof.
  constructor; cbn [map_backend b_get b_has b_set b_del].
  - reflexivity.
  - intros s id k v Hk. unfold map_set. destruct k; [congruence|]. eexists. reflexivity.
  - intros s id k v s' id' k' Hk _ E. unfold map_set in E. destruct (length k =? 0)%nat; [discriminate|]. injection E as <-.
    unfold map_get, map_bucket, update. rewrite kv_get_set. destruct (bytes_eqb_spec id' id) as [->|N].
    + rewrite kv_get_set. destruct (bytes_eqb_spec k' k) as [Ek|], (same_key_spec (id, k) (id, k')) as [Es|]; try reflexivity; congruence.
    + destruct (same_key_spec (id, k) (id', k')); [congruence|reflexivity].
  - intros s id k id' k' _ _. unfold map_del, map_get, map_bucket, update. rewrite kv_get_set. destruct (bytes_eqb_spec id' id) as [->|N].
    + rewrite kv_get_del. destruct (bytes_eqb_spec k' k) as [Ek|], (same_key_spec (id, k) (id, k')) as [Es|]; try reflexivity; congruence.
    + destruct (same_key_spec (id, k) (id', k')); [congruence|reflexivity].
Qed.
Print Assumptions C28_map_lawful.

Theorem C28_level_lawful : forall n, lawful level_backend (fun id k => length id = n).
Proof.
  intros n.
  assert (INJ : forall id k id' k', length id = n -> length id' = n -> (bytes_eqb (internalKey id' k') (internalKey id k) = same_key (id, k) (id', k'))).
  { intros id k id' k' L1 L2. destruct (bytes_eqb_spec (internalKey id' k') (internalKey id k)) as [E|N], (same_key_spec (id, k) (id', k')) as [E'|N']; try reflexivity.
    - exfalso. apply N'. unfold internalKey in E. apply app_inj_length in E; [destruct E; congruence|congruence].
    - exfalso. apply N. congruence. }
  constructor; cbn [level_backend b_get b_has b_set b_del].
  - reflexivity.
  - intros. unfold level_set. eexists. reflexivity.
  - intros s id k v s' id' k' L1 L2 E. unfold level_set in E. injection E as <-. unfold level_get, update. rewrite kv_get_set, INJ by assumption. reflexivity.
  - intros s id k id' k' L1 L2. unfold level_del, level_get, update. rewrite kv_get_del, INJ by assumption. reflexivity.
Qed.
Print Assumptions C28_level_lawful.

(** A nil value is refused while the layer is open. *)
Theorem C28_nil_refused : forall S (B : backend S) s os xs l id k, lrun B (NewLayerDB s) os xs l -> l_flushed l = false ->
  exists e, l_Set B l id k None = Err e.
Proof.
  intros S B s os xs l id k _ HF. unfold l_Set, GetBucket. destruct (kv_get id (l_buckets l)) as [p|] eqn:E.
  - rewrite E. eauto.
  - rewrite HF. cbn [l_buckets]. rewrite kv_get_set. destruct (bytes_eqb_spec id id); [eauto|congruence].
Qed.
Print Assumptions C28_nil_refused.

(** Not lawful: the layer takes a value under an empty key, the map backend does not, and the flush then stops
    with an error, possibly half way (here the other entry was already written). *)
Theorem C28_empty_key_flush_refuted : exists os xs l', lrun map_backend (NewLayerDB []) os xs l' /\ xs = [Done; Done; Failed; Value (Some [7])] /\ os = [OSet [] [1] [7]; OSet [] [] [8]; OFlush true; OGet [] [1]] /\ map_get (l_real l') [] [1] = Some [7] /\ l_flushed l' = false.
Proof.
  do 3 eexists. split; [|split; [reflexivity|split; [reflexivity|]]].
  - eapply LCons; [apply LSet; vm_compute; reflexivity|]. eapply LCons; [apply LSet; vm_compute; reflexivity|].
    eapply LCons; [eapply (LFlush map_backend _ true [([], [([1], Some [7]); ([], Some [8])])] _ false)|].
    + eexists. split; [apply Permutation_refl|]. repeat constructor.
    + vm_compute. reflexivity.
    + eapply LCons; [apply LGet; vm_compute; reflexivity|apply LNil].
  - vm_compute. auto.
Qed.
Print Assumptions C28_empty_key_flush_refuted.

(** Not lawful either: over LevelDB a write to one bucket through the layer shows up in another bucket after
    the flush, although it did not before. *)
Theorem C28_level_aliases_refuted : exists os xs l', lrun level_backend (NewLayerDB []) os xs l' /\ os = [OSet [] [83; 1] [7]; OGet [83] [1]; OFlush true; OGet [83] [1]] /\ xs = [Done; Value None; Done; Value (Some [7])].
Proof.
  do 3 eexists. split; [|split; [reflexivity|]].
  - eapply LCons; [apply LSet; vm_compute; reflexivity|]. eapply LCons; [apply LGet; vm_compute; reflexivity|].
    eapply LCons; [eapply (LFlush level_backend _ true [([83], []); ([], [([83; 1], Some [7])])] _ true)|].
    + eexists. split; [apply Permutation_refl|]. repeat constructor.
    + vm_compute. reflexivity.
    + eapply LCons; [apply LGet; vm_compute; reflexivity|apply LNil].
  - vm_compute. reflexivity.
Qed.
Print Assumptions C28_level_aliases_refuted.

(** The hypotheses are met by a run that sets, deletes, flushes in an unusual order and goes on. *)
Definition ex_base : mapdb := [([83], [([1], [10]); ([2], [20])])].
Definition ex_ops : list op := [OSet [83] [1] [11]; ODelete [83] [2]; OGet [83] [1]; OHas [83] [2]; OSet [] [1] [9]; OFlush true; OGet [83] [2]; OSet [83] [3] [30]].
Example C28_ex : exists xs l', lrun map_backend (NewLayerDB ex_base) ex_ops xs l' /\ Forall (op_in (fun _ k => k <> [])) ex_ops /\ xs = [Done; Done; Value (Some [11]); Present false; Done; Done; Value None; Done] /\ map_get (l_real l') [83] [3] = Some [30] /\ map_get (l_real l') [] [1] = Some [9].
Proof.
  do 2 eexists. split; [|split; [repeat constructor; discriminate|split; [reflexivity|]]].
  - eapply LCons; [apply LSet; vm_compute; reflexivity|]. eapply LCons; [apply LDelete|]. eapply LCons; [apply LGet; vm_compute; reflexivity|].
    eapply LCons; [apply LHas; vm_compute; reflexivity|]. eapply LCons; [apply LSet; vm_compute; reflexivity|].
    eapply LCons; [eapply (LFlush map_backend _ true [([83], [([1], Some [11]); ([2], None)]); ([], [([1], Some [9])])] _ true)|].
    + eexists. split; [apply perm_swap|]. constructor; [split; [reflexivity|apply perm_swap]|]. repeat constructor.
    + vm_compute. reflexivity.
    + eapply LCons; [apply LGet; vm_compute; reflexivity|]. eapply LCons; [apply LSet; vm_compute; reflexivity|apply LNil].
  - vm_compute. auto.
Qed.

(** C29.  Isolation: writing or deleting in one bucket leaves every other bucket as it was. *)
Theorem C29_map_isolated : forall s id k v s' id' k', id <> id' ->
  (map_set s id k v = Ok s' -> map_get s' id' k' = map_get s id' k') /\ map_get (map_del s id k) id' k' = map_get s id' k'.
Proof.
  intros s id k v s' id' k' N. split.
  - unfold map_set. destruct (length k =? 0)%nat; [discriminate|]. intros E. injection E as <-. unfold map_get, map_bucket. rewrite kv_get_set. destruct (bytes_eqb_spec id' id); [congruence|reflexivity].
  - unfold map_del, map_get, map_bucket. rewrite kv_get_set. destruct (bytes_eqb_spec id' id); [congruence|reflexivity].
Qed.
Print Assumptions C29_map_isolated.

(** LevelDB (and Badger, which uses the same keys): isolated exactly when neither id is a prefix of the other. *)
Theorem C29_level_isolated : forall id id', (forall x, id ++ x <> id') -> (forall x, id' ++ x <> id) ->
  forall s k v s' k', (level_set s id k v = Ok s' -> level_get s' id' k' = level_get s id' k') /\ level_get (level_del s id k) id' k' = level_get s id' k'.
Proof.
  intros id id' N1 N2.
  assert (G : forall k k', bytes_eqb (internalKey id' k') (internalKey id k) = false).
  { intros k k'. destruct (bytes_eqb_spec (internalKey id' k') (internalKey id k)) as [E|]; [|reflexivity]. exfalso. unfold internalKey in E.
    revert id' k' N1 N2 E. induction id as [|x id IH]; intros [|y id'] k' N1 N2 E.
    - apply (N1 []). reflexivity.
    - apply (N1 (y :: id')). reflexivity.
    - apply (N2 (x :: id)). reflexivity.
    - cbn [app] in E. injection E as -> E. apply (IH id' k'); [| |assumption]; intros z Hz; [apply (N1 z)|apply (N2 z)]; cbn [app]; congruence. }
  intros s k v s' k'. split.
  - unfold level_set. intros E. injection E as <-. unfold level_get. rewrite kv_get_set, G. reflexivity.
  - unfold level_del, level_get. rewrite kv_get_del, G. reflexivity.
Qed.
Print Assumptions C29_level_isolated.

(** The one-letter buckets that bucket.go declares do not disturb each other. *)
Theorem C29_declared_buckets : forall a b, a <> b -> forall s k v s' k',
  (level_set s [a] k v = Ok s' -> level_get s' [b] k' = level_get s [b] k') /\ level_get (level_del s [a] k) [b] k' = level_get s [b] k'.
Proof. intros a b N. apply C29_level_isolated; intros x E; cbn [app] in E; congruence. Qed.
Print Assumptions C29_declared_buckets.

(** But if one id is a prefix of the other they do: the declared MerkleTrie bucket has the empty id, so it
    overlaps every other bucket. *)
Theorem C29_prefix_ids_refuted : forall id x v s, exists k k' s', level_set s id k (Some v) = Ok s' /\ level_get s' (id ++ x) k' = Some v.
Proof.
  intros id x v s. exists (x ++ [0]), [0]. eexists. split; [reflexivity|]. unfold level_get, internalKey. rewrite kv_get_set, app_assoc.
  destruct (bytes_eqb_spec ((id ++ x) ++ [0]) ((id ++ x) ++ [0])); [reflexivity|congruence].
Qed.
Print Assumptions C29_prefix_ids_refuted.
Example C29_ex : (exists s', level_set [] [83] [1] (Some [7]) = Ok s' /\ level_get s' [83] [1] = Some [7] /\ level_get s' [84] [1] = None /\ level_get s' [] [83; 1] = Some [7]).
Proof. eexists. split; [reflexivity|]. vm_compute. auto. Qed.
