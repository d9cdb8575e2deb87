(** Lemmas about the token service. *)
From Coq Require Import String Ascii ZArith List Bool Lia.
From Coq Require Import ZifyBool Permutation.
From Verif Require Import Base L_Base GoStr M_JMap L_JMap M_PyBmv M_PyBmc M_PyToken S_PyToken.
Import ListNotations.
Open Scope Z_scope.
Local Notation bytes := (list Z).

(** * Keys *)
Lemma kspec : forall a b, reflect (a = b) (key_eqb a b).
Proof.
  intros [a1 a2] [b1 b2]. unfold key_eqb. cbn [fst snd]. destruct (bytes_eqb_spec a1 b1) as [->|N]; cbn [andb]; [|constructor; congruence].
  destruct (bytes_eqb_spec a2 b2) as [->|N]; constructor; congruence.
Qed.
Lemma keq : forall a b, key_eqb a b = true <-> a = b.
Proof. intros a b. destruct (kspec a b); split; congruence. Qed.
Lemma key_refl : forall a, key_eqb a a = true.
Proof. intros a. destruct (kspec a a); congruence. Qed.
Definition kin : forall (k : bytes) (v : bytes) l, kget k l = Some v -> In (k, v) l.
Proof. intros k v l. unfold kget. apply aget_in. exact bytes_eqb_eq. Qed.
Lemma kget_none : forall (k : bytes) (l : list (bytes * bytes)), kget k l = None <-> ~ In k (map fst l).
Proof. intros. unfold kget. apply aget_none. exact bytes_eqb_eq. Qed.
Lemma reg_get : forall s n, registered s n <-> kget n (t_addr s) <> None.
Proof.
  intros s n. split.
  - intros (a & I) E. apply kget_none in E. apply E. change n with (fst (n, a)). apply in_map, I.
  - intros E. destruct (kget n (t_addr s)) as [a|] eqn:G; [|congruence]. exists a. apply kin, G.
Qed.
Lemma bdel_same : forall k l, aget key_eqb k (bdel k l) = None.
Proof. intros k l. induction l as [|[x v] l IH]; [reflexivity|]. cbn [bdel]. destruct (key_eqb k x) eqn:E; [exact IH|]. cbn [aget]. rewrite E. exact IH. Qed.
Lemma bdel_other : forall k k' l, k' <> k -> aget key_eqb k' (bdel k l) = aget key_eqb k' l.
Proof.
  intros k k' l N. induction l as [|[x v] l IH]; [reflexivity|]. cbn [bdel]. destruct (kspec k x) as [<-|Nx].
  - cbn [aget]. destruct (kspec k' k); [contradiction|exact IH].
  - cbn [aget]. destruct (key_eqb k' x); [reflexivity|exact IH].
Qed.
Lemma bdel_keys : forall k l x, In x (map fst (bdel k l)) <-> In x (map fst l) /\ x <> k.
Proof.
  intros k l x. induction l as [|[y v] l IH]; [cbn; tauto|]. cbn [bdel]. destruct (kspec k y) as [<-|N]; cbn [map fst In]; rewrite IH; [|intuition congruence]. intuition congruence.
Qed.
Lemma bdel_nodup : forall k l, NoDup (map fst l) -> NoDup (map fst (bdel k l)).
Proof.
  intros k l. induction l as [|[y v] l IH]; intros N; [constructor|]. cbn [map fst] in N. inversion N as [|? ? A B]; subst. cbn [bdel]. destruct (key_eqb k y); [apply IH, B|].
  cbn [map fst]. constructor; [|apply IH, B]. intros I. apply bdel_keys in I. apply A, I.
Qed.
(** * Accounts *)
Lemma bal_update : forall s u n du dl u' n',
  balance (update s u n du dl) u' n' = if key_eqb (u', n') (u, n) then (fst (balance s u n) + du, snd (balance s u n) + dl) else balance s u' n'.
Proof.
  intros s u n du dl u' n'. unfold balance at 1. unfold update. cbn [t_bal with_bal].
  set (b := balance s u n). destruct (kspec (u', n') (u, n)) as [E|N].
  - injection E as -> ->. destruct ((fst b + du =? 0) && (snd b + dl =? 0)) eqn:Z.
    + rewrite bdel_same. apply andb_true_iff in Z. destruct Z as [A B]. f_equal; lia.
    + rewrite aput_same by exact keq. reflexivity.
  - destruct ((fst b + du =? 0) && (snd b + dl =? 0)); [rewrite bdel_other by exact N|rewrite aput_other by (exact keq || exact N)]; reflexivity.
Qed.
Lemma moved_update : forall s u n du dl, moved s (update s u n du dl) u n du dl.
Proof.
  intros s u n du dl. unfold moved, usable, locked. rewrite bal_update, key_refl. cbn [fst snd]. split; [reflexivity|]. split; [reflexivity|].
  intros u' n' N. rewrite bal_update. destruct (kspec (u', n') (u, n)) as [E|_]; [injection E; intros; subst; destruct N; congruence|split; reflexivity].
Qed.
(** Only the accounts count for [moved] *)
Lemma moved_ext : forall s s1 s2 u n du dl, moved s s1 u n du dl -> t_bal s2 = t_bal s1 -> moved s s2 u n du dl.
Proof.
  intros s s1 s2 u n du dl (A & B & C) E. unfold moved, usable, locked, balance in *. rewrite E. repeat split; [exact A|exact B| |]; apply (C u' n' H).
Qed.
Lemma same_ext : forall s s', t_bal s' = t_bal s -> same_accounts s s'.
Proof. intros s s' E u n. unfold usable, locked, balance. rewrite E. split; reflexivity. Qed.
(** * Everything there is of a name *)
Lemma worth_app : forall a b n, worth_of (a ++ b) n = worth_of a n + worth_of b n.
Proof. induction a as [|[k v] a IH]; intros b n; cbn [worth_of app]; [lia|rewrite IH; lia]. Qed.
Lemma worth_bdel_none : forall k l, ~ In k (map fst l) -> bdel k l = l.
Proof.
  intros k l. induction l as [|[y v] l IH]; intros N; [reflexivity|]. cbn [bdel]. cbn [map fst In] in N. destruct (kspec k y) as [<-|_]; [tauto|]. rewrite IH by tauto. reflexivity.
Qed.
Definition at_name (k : bytes * bytes) (n : bytes) (v : Z) : Z := if bytes_eqb (snd k) n then v else 0.
Definition value_at (k : bytes * bytes) (l : list ((bytes * bytes) * (Z * Z))) : Z * Z := match aget key_eqb k l with Some b => b | None => (0, 0) end.
Lemma worth_bdel : forall k l n, NoDup (map fst l) -> worth_of (bdel k l) n = worth_of l n - at_name k n (fst (value_at k l) + snd (value_at k l)).
Proof.
  intros k l n. unfold value_at. induction l as [|[y v] l IH]; intros N; [cbn; unfold at_name; destruct (bytes_eqb _ _); reflexivity|].
  cbn [map fst] in N. inversion N as [|? ? A B]; subst. cbn [bdel aget]. destruct (kspec k y) as [<-|Ny].
  - rewrite (worth_bdel_none k l A). cbn [worth_of]. unfold at_name. lia.
  - cbn [worth_of]. rewrite (IH B). lia.
Qed.
Lemma worth_aput : forall k b l n, NoDup (map fst l) -> worth_of (aput key_eqb k b l) n = worth_of l n - at_name k n (fst (value_at k l) + snd (value_at k l)) + at_name k n (fst b + snd b).
Proof.
  intros k b l n. unfold value_at. induction l as [|[y v] l IH]; intros N; [cbn [aput worth_of aget fst snd]; unfold at_name; destruct (bytes_eqb (snd k) n); lia|].
  cbn [map fst] in N. inversion N as [|? ? A B]; subst. cbn [aput aget]. destruct (kspec k y) as [<-|Ny]; cbn [worth_of].
  - unfold at_name. destruct (bytes_eqb (snd k) n); lia.
  - rewrite (IH B). lia.
Qed.
Lemma worth_update : forall s u n du dl m, NoDup (map fst (t_bal s)) -> worth (update s u n du dl) m = worth s m + (if bytes_eqb n m then du + dl else 0).
Proof.
  intros s u n du dl m N. unfold worth, update. cbn [t_bal with_bal]. unfold balance. change (match aget key_eqb (u, n) (t_bal s) with Some b => b | None => (0, 0) end) with (value_at (u, n) (t_bal s)).
  set (b := value_at (u, n) (t_bal s)). destruct ((fst b + du =? 0) && (snd b + dl =? 0)) eqn:Z.
  - rewrite worth_bdel by exact N. fold b. unfold at_name. cbn [snd]. apply andb_true_iff in Z. destruct Z as [A B]. destruct (bytes_eqb n m); lia.
  - rewrite worth_aput by exact N. fold b. unfold at_name. cbn [fst snd]. destruct (bytes_eqb n m); lia.
Qed.
Lemma update_nodup : forall s u n du dl, NoDup (map fst (t_bal s)) -> NoDup (map fst (t_bal (update s u n du dl))).
Proof.
  intros s u n du dl N. unfold update. cbn [t_bal with_bal]. destruct ((_ =? 0) && (_ =? 0)); [apply bdel_nodup, N|apply aput_nodup; [exact keq|exact N]].
Qed.
(** * Open transfers *)
Lemma zdel_in : forall V k (l : list (Z * V)) x v, In (x, v) (zdel k l) <-> In (x, v) l /\ x <> k.
Proof.
  intros V k l x v. induction l as [|[y w] l IH]; [cbn; tauto|]. cbn [zdel]. destruct (Z.eqb_spec k y) as [<-|N]; cbn [In]; rewrite IH; [intuition congruence|]. intuition congruence.
Qed.
Lemma zdel_keys : forall V k (l : list (Z * V)) x, In x (map fst (zdel k l)) -> In x (map fst l).
Proof. intros V k l x I. apply in_map_iff in I. destruct I as ([y v] & <- & I). apply zdel_in in I. change y with (fst (y, v)). apply in_map, I. Qed.
Lemma zdel_nodup : forall V k (l : list (Z * V)), NoDup (map fst l) -> NoDup (map fst (zdel k l)).
Proof.
  intros V k l. induction l as [|[y v] l IH]; intros N; [constructor|]. cbn [map fst] in N. inversion N as [|? ? A B]; subst. cbn [zdel]. destruct (k =? y); [apply IH, B|].
  cbn [map fst]. constructor; [|apply IH, B]. intros I. apply A. eapply zdel_keys, I.
Qed.
Lemma zdel_none : forall V k (l : list (Z * V)), ~ In k (map fst l) -> zdel k l = l.
Proof. intros V k l. induction l as [|[y v] l IH]; intros N; [reflexivity|]. cbn [zdel]. cbn [map fst In] in N. destruct (Z.eqb_spec k y); [subst; tauto|]. rewrite IH by tauto. reflexivity. Qed.
Definition zget_in : forall V k (v : V) l, aget Z.eqb k l = Some v -> In (k, v) l.
Proof. intros V k v l. apply aget_in. exact Z.eqb_eq. Qed.
Lemma zget_some : forall V k (v : V) l, In (k, v) l -> exists w, aget Z.eqb k l = Some w.
Proof.
  intros V k v l I. destruct (aget Z.eqb k l) as [w|] eqn:E; [exists w; reflexivity|]. apply (aget_none _ Z.eqb_eq) in E. elim E. change k with (fst (k, v)). apply in_map, I.
Qed.
Lemma fresh : forall s, tidy s -> ~ In (t_sn s + 1) (map fst (t_pending s)).
Proof.
  intros s (_ & R & _) I. apply in_map_iff in I. destruct I as ([k p] & E & I). cbn [fst] in E. destruct (R k p I) as [L _]. lia.
Qed.
Lemma owed_app : forall a b u n, owed (a ++ b) u n = owed a u n + owed b u n.
Proof. induction a as [|[k p] a IH]; intros b u n; cbn [owed app]; [lia|rewrite IH; lia]. Qed.
Definition owed_one (p : pend) (u n : bytes) : Z := if bytes_eqb (q_from p) u && bytes_eqb (q_name p) n then q_value p else 0.
Lemma owed_zdel : forall k p l u n, NoDup (map fst l) -> In (k, p) l -> owed (zdel k l) u n = owed l u n - owed_one p u n.
Proof.
  intros k p l u n. induction l as [|[y q] l IH]; intros N I; [destruct I|]. cbn [map fst] in N. inversion N as [|? ? A B]; subst. cbn [zdel]. destruct I as [E|I].
  - injection E as -> ->. rewrite Z.eqb_refl, (zdel_none _ k l A). cbn [owed]. unfold owed_one. lia.
  - destruct (Z.eqb_spec k y) as [->|Ny]; [elim A; change y with (fst (y, p)); apply in_map, I|]. cbn [owed]. rewrite (IH B I). lia.
Qed.
(** * unregister *)
Lemma put_at_app : forall a x y (r : list bytes), put_at (length a) y (a ++ x :: r) = a ++ y :: r.
Proof. induction a as [|z a IH]; intros x y r; [reflexivity|]. cbn [length app put_at]. rewrite IH. reflexivity. Qed.
Lemma nth_app_len : forall a (x : bytes) r, nth (length a) (a ++ x :: r) [] = x.
Proof. intros. rewrite app_nth2 by lia. rewrite Nat.sub_diag. reflexivity. Qed.
Lemma loop_found : forall name r a x, unreg_loop (length (x :: r)) (length (a ++ x :: r)) true name (a ++ x :: r) = a ++ r.
Proof.
  intros name r. induction r as [|y r IH]; intros a x.
  - cbn [length unreg_loop]. rewrite app_length. cbn [length orb]. replace (length a + 1 - 1)%nat with (length a) by lia. rewrite Nat.ltb_irrefl. rewrite removelast_app by discriminate. cbn [removelast]. reflexivity.
  - cbn [length unreg_loop]. rewrite app_length. cbn [length orb]. replace (length a + S (S (length r)) - S (S (length r)))%nat with (length a) by lia.
    assert (L : (length a <? length a + S (S (length r)) - 1)%nat = true) by (apply Nat.ltb_lt; lia). rewrite L.
    assert (E : nth (S (length a)) (a ++ x :: y :: r) [] = y) by (rewrite app_nth2 by lia; replace (S (length a) - length a)%nat with 1%nat by lia; reflexivity). rewrite E, put_at_app.
    specialize (IH (a ++ [y]) y). rewrite <- !app_assoc in IH. cbn [app] in IH. rewrite app_length in IH. cbn [length] in IH. replace (length a + S (S (length r)))%nat with (length (a ++ [y]) + S (length r))%nat by (rewrite app_length; cbn [length]; lia).
    replace (length (a ++ [y]) + S (length r))%nat with (length a + S (S (length r)))%nat by (rewrite app_length; cbn [length]; lia). exact IH.
Qed.
Lemma loop_search : forall name r a, ~ In name a -> exists c d, a ++ r = c ++ d /\ ~ In name c /\ unreg_loop (length r) (length (a ++ r)) false name (a ++ r) = c ++ tl d /\ (hd_error d = Some name \/ d = []).
Proof.
  intros name r. induction r as [|x r IH]; intros a N.
  - exists a, []. rewrite app_nil_r. cbn [length unreg_loop tl]. rewrite app_nil_r. auto.
  - destruct (bytes_eqb_spec name x) as [<-|Nx].
    + exists a, (name :: r). split; [reflexivity|]. split; [exact N|]. split; [|left; reflexivity]. cbn [tl]. rewrite <- (loop_found name r a name).
      cbn [length unreg_loop]. rewrite app_length. cbn [length]. replace (length a + S (length r) - S (length r))%nat with (length a) by lia. rewrite nth_app_len, bytes_eqb_refl. reflexivity.
    + destruct (IH (a ++ [x])) as (c & d & A & B & C & D); [intros I; apply in_app_or in I; destruct I as [I|[I|[]]]; congruence|]. rewrite <- app_assoc in A, C. cbn [app] in A, C. exists c, d. split; [exact A|]. split; [exact B|]. split; [|exact D].
      rewrite <- C. cbn [length unreg_loop]. rewrite app_length. cbn [length]. replace (length a + S (length r) - S (length r))%nat with (length a) by lia. rewrite nth_app_len. destruct (bytes_eqb_spec name x); [contradiction|]. reflexivity.
Qed.
(** * tokenFallback *)
Lemma name_first : forall s token n, name_of s token = Some n <-> first_named s token n.
Proof.
  intros s token n. unfold name_of, first_named. generalize (t_names s). intros l. split.
  - induction l as [|x l IH]; [discriminate|]. cbn [find]. destruct (kget x (t_addr s)) as [a|] eqn:E.
    + destruct (bytes_eqb_spec token a) as [<-|N].
      * intros G. injection G as <-. exists [], l. split; [reflexivity|]. split; [exact E|intros m []].
      * intros G. destruct (IH G) as (c & d & A & B & C). exists (x :: c), d. rewrite A. split; [reflexivity|]. split; [exact B|]. intros m [<-|I]; [congruence|apply C, I].
    + intros G. destruct (IH G) as (c & d & A & B & C). exists (x :: c), d. rewrite A. split; [reflexivity|]. split; [exact B|]. intros m [<-|I]; [congruence|apply C, I].
  - intros (a & b & -> & K & F). induction a as [|x a IH]; cbn [find app].
    + rewrite K, bytes_eqb_refl. reflexivity.
    + assert (Nx := F x (or_introl eq_refl)). destruct (kget x (t_addr s)) as [y|]; [destruct (bytes_eqb_spec token y); [congruence|]|]; apply IH; intros m I; apply F; right; exact I.
Qed.
(** * The calls *)
Section CALLS.
Variable addr_of : bytes -> option bytes.
Lemma in_aput_new : forall V (l : list (Z * V)) k v x w, ~ In k (map fst l) -> (In (x, w) (aput Z.eqb k v l) <-> In (x, w) l \/ x = k /\ w = v).
Proof.
  intros V l k v x w N. rewrite (aput_new _ Z.eqb_eq k v l N). rewrite in_app_iff. cbn [In]. intuition congruence.
Qed.
Ltac opens := split; [reflexivity|intros; reflexivity].
Lemma step_does : forall s c s', tidy s -> tcall_result addr_of s c = Val s' -> does addr_of s c s'.
Proof.
  intros s c s' T E. destruct c as [x n a|x n|x f v|x n v ok|x n t v ok|x net sn m ok|x sn]; cbn [tcall_result] in E.
  - unfold t_register in E. destruct (bytes_eqb_spec (t_owner s) x) as [<-|]; [|discriminate E]. cbn [negb] in E. destruct (kget n (t_addr s)) as [b|] eqn:K; [discriminate E|]. injection E as <-.
    apply D_register; [intros R; apply reg_get in R; contradiction|apply same_ext; reflexivity|opens|unfold said; cbn; symmetry; apply app_nil_r| |reflexivity].
    intros m b. cbn [t_addr with_tokens]. unfold kput. rewrite (aput_new _ bytes_eqb_eq n a (t_addr s) (proj1 (kget_none _ _) K)). rewrite in_app_iff. cbn [In]. intuition congruence.
  - unfold t_unregister in E. destruct (bytes_eqb_spec (t_owner s) x) as [<-|]; [|discriminate E]. cbn [negb] in E. destruct (kget n (t_addr s)) as [b|] eqn:K; [|discriminate E].
    assert (E' : s' = with_tokens s (t_addr s) (unreg_loop (length (t_names s)) (length (t_names s)) false n (t_names s))) by congruence. clear E. subst s'.
    apply D_unregister; [apply reg_get; congruence|apply same_ext; reflexivity|opens|unfold said; cbn; symmetry; apply app_nil_r|reflexivity|].
    cbn [t_names with_tokens]. destruct (loop_search n (t_names s) []) as (a & d & A & B & C & D); [intros []|]. cbn [app] in A, C. exists a, d. auto.
  - unfold t_fallback in E. destruct (Z.ltb_spec v 0); [discriminate E|]. destruct (name_of s x) as [[|ch n]|] eqn:K; try discriminate E. assert (E' : s' = update s f (ch :: n) v 0) by congruence. clear E. subst s'.
    apply (D_deposit addr_of s x f v (ch :: n)); [assumption|discriminate|apply name_first, K|apply moved_update|opens|unfold said; cbn; symmetry; apply app_nil_r|split; reflexivity].
  - unfold t_reclaim in E. destruct (Z.ltb_spec v 0); [discriminate E|]. destruct (kget n (t_addr s)) as [a|] eqn:K; [|discriminate E]. destruct (Z.ltb_spec (fst (balance s x n)) v); [discriminate E|]. destruct ok; [|discriminate E].
    assert (E' : s' = tell (update s x n (- v) 0) (TPay a x v)) by congruence. clear E. subst s'.
    apply (D_reclaim addr_of s x n v a); [unfold usable; lia|exact K|eapply moved_ext; [apply moved_update|reflexivity]|opens|reflexivity|split; reflexivity].
  - unfold t_transfer in E. destruct (kget n (t_addr s)) as [a|] eqn:K; [|discriminate E]. destruct (Z.ltb_spec v 0); [discriminate E|]. destruct (valid_address t) as [p|[|]] eqn:V; try discriminate E. destruct (Z.ltb_spec (fst (balance s x n)) v); [discriminate E|].
    unfold t_send in E. destruct ok; [|discriminate E]. cbn [bind] in E. set (s1 := update s x n (- v) v) in E.
    assert (E' : s' = tell (tell (with_pending s1 (t_sn s1 + 1) (aput Z.eqb (t_sn s1 + 1) (Pend x (pa_contract p) n v) (t_pending s1))) (TSend (t_sn s1 + 1) (pa_net p) (JReq (pa_contract p) n v))) (TStart x n (t_sn s1 + 1) v (pa_contract p))) by congruence. clear E. subst s' s1.
    apply (D_transfer addr_of s x n t v p); [unfold usable; lia|apply reg_get; congruence|exact V|eapply moved_ext; [apply moved_update|reflexivity]|reflexivity| |unfold said; cbn [t_out tell with_pending update with_bal t_sn]; rewrite <- app_assoc; reflexivity|split; reflexivity].
    intros k q. unfold is_open. cbn [t_pending tell with_pending update with_bal t_sn]. apply in_aput_new, fresh, T.
  - unfold t_message in E. destruct (bytes_eqb_spec (t_bmc s) x) as [<-|]; [|discriminate E]. cbn [negb] in E. destruct m as [to n v|code|type|]; [| | |discriminate E].
    + destruct (addr_of to) as [u|] eqn:U; [|discriminate E]. cbn [need bind] in E. unfold t_send in E. destruct (kget n (t_addr s)) as [a|] eqn:K; (destruct ok; [|discriminate E]).
      * assert (E' : s' = tell (update s u n v 0) (TSend sn net (JRes 0))) by congruence. clear E. subst s'. apply (D_credit addr_of s net sn to n v u); [exact U|apply reg_get; congruence|eapply moved_ext; [apply moved_update|reflexivity]|opens|reflexivity|split; reflexivity].
      * assert (E' : s' = tell s (TSend sn net (JRes (-1)))) by congruence. clear E. subst s'. apply (D_reject addr_of s net sn to n v u); [exact U|intros R; apply reg_get in R; contradiction|apply same_ext; reflexivity|opens|reflexivity|split; reflexivity].
    + destruct (aget Z.eqb sn (t_pending s)) as [p|] eqn:G; [|discriminate E]. apply zget_in in G. destruct (Z.eqb_spec code 0) as [->|Nc].
      * set (s1 := update s (q_from p) (q_name p) 0 (- q_value p)) in E. assert (E' : s' = tell (with_pending s1 (t_sn s1) (zdel sn (t_pending s1))) (TEnd sn 0)) by congruence. clear E. subst s' s1.
        apply (D_delivered addr_of s net sn p ok); [exact G|eapply moved_ext; [apply moved_update|reflexivity]|reflexivity| |reflexivity|split; reflexivity]. intros k q. apply zdel_in.
      * set (s1 := update s (q_from p) (q_name p) (q_value p) (- q_value p)) in E. assert (E' : s' = tell (with_pending s1 (t_sn s1) (zdel sn (t_pending s1))) (TEnd sn code)) by congruence. clear E. subst s' s1.
        apply (D_failed addr_of s net sn p code ok); [exact Nc|exact G|eapply moved_ext; [apply moved_update|reflexivity]|reflexivity| |reflexivity|split; reflexivity]. intros k q. apply zdel_in.
    + unfold t_send in E. destruct ok; [|discriminate E]. assert (E' : s' = tell s (TSend sn net (JOther UNKNOWN_TYPE))) by congruence. clear E. subst s'. apply D_unknown; [apply same_ext; reflexivity|opens|reflexivity|split; reflexivity].
  - unfold t_error in E. destruct (bytes_eqb_spec (t_bmc s) x) as [<-|]; [|discriminate E]. cbn [negb] in E. destruct (aget Z.eqb sn (t_pending s)) as [p|] eqn:G; [|discriminate E]. apply zget_in in G.
    set (s1 := update s (q_from p) (q_name p) (q_value p) (- q_value p)) in E. assert (E' : s' = with_pending s1 (t_sn s1) (zdel sn (t_pending s1))) by congruence. clear E. subst s' s1.
    apply (D_error addr_of s sn p); [exact G|eapply moved_ext; [apply moved_update|reflexivity]|reflexivity| |unfold said; cbn; symmetry; apply app_nil_r|split; reflexivity]. intros k q. apply zdel_in.
Qed.
Lemma does_goes : forall s c s', does addr_of s c s' -> exists r, tcall_result addr_of s c = Val r.
Proof.
  intros s c s' D. destruct D; cbn [tcall_result].
  - unfold t_register. rewrite bytes_eqb_refl. cbn [negb]. destruct (kget n (t_addr s)) eqn:K; [elim H; apply reg_get; congruence|]. eexists; reflexivity.
  - unfold t_unregister. rewrite bytes_eqb_refl. cbn [negb]. apply reg_get in H. destruct (kget n (t_addr s)); [eexists; reflexivity|congruence].
  - unfold t_fallback. destruct (Z.ltb_spec v 0); [lia|]. apply name_first in H1. rewrite H1. destruct n; [congruence|]. eexists; reflexivity.
  - unfold t_reclaim. destruct (Z.ltb_spec v 0); [lia|]. rewrite H0. unfold usable in H. destruct (Z.ltb_spec (fst (balance s u n)) v); [lia|]. eexists; reflexivity.
  - unfold t_transfer. apply reg_get in H0. destruct (kget n (t_addr s)); [|congruence]. destruct (Z.ltb_spec v 0); [lia|]. rewrite H1. unfold usable in H. destruct (Z.ltb_spec (fst (balance s u n)) v); [lia|]. eexists; reflexivity.
  - unfold t_message. rewrite bytes_eqb_refl. cbn [negb]. rewrite H. cbn [need bind]. apply reg_get in H0. destruct (kget n (t_addr s)); [|congruence]. eexists; reflexivity.
  - unfold t_message. rewrite bytes_eqb_refl. cbn [negb]. rewrite H. cbn [need bind]. destruct (kget n (t_addr s)) eqn:K; [elim H0; apply reg_get; congruence|]. eexists; reflexivity.
  - unfold t_message. rewrite bytes_eqb_refl. cbn [negb]. destruct (zget_some _ _ _ _ H) as (w & ->). eexists; reflexivity.
  - unfold t_message. rewrite bytes_eqb_refl. cbn [negb]. destruct (zget_some _ _ _ _ H0) as (w & ->). eexists; reflexivity.
  - unfold t_message. rewrite bytes_eqb_refl. cbn [negb]. eexists; reflexivity.
  - unfold t_error. rewrite bytes_eqb_refl. cbn [negb]. destruct (zget_some _ _ _ _ H) as (w & ->). eexists; reflexivity.
Qed.
(** What the lists of a state after a call are *)
Lemma step_shape : forall s c s', tidy s -> tcall_result addr_of s c = Val s' ->
  (t_bal s' = t_bal s \/ exists u n a b, t_bal s' = t_bal (update s u n a b)) /\
  (t_pending s' = t_pending s /\ t_sn s' = t_sn s \/ (exists p, 0 <= q_value p /\ t_sn s' = t_sn s + 1 /\ t_pending s' = t_pending s ++ [(t_sn s + 1, p)]) \/ (exists k, t_sn s' = t_sn s /\ t_pending s' = zdel k (t_pending s))) /\
  (t_addr s' = t_addr s /\ t_names s' = t_names s \/ (exists n a, kget n (t_addr s) = None /\ t_addr s' = t_addr s ++ [(n, a)] /\ t_names s' = t_names s ++ [n]) \/
   (t_addr s' = t_addr s /\ exists a b, t_names s = a ++ b /\ t_names s' = a ++ tl b)) /\
  t_owner s' = t_owner s /\ t_bmc s' = t_bmc s.
Proof.
  intros s c s' T E. destruct c as [x n a|x n|x f v|x n v ok|x n t v ok|x net sn m ok|x sn]; cbn [tcall_result] in E.
  - unfold t_register in E. destruct (negb _); [discriminate E|]. destruct (kget n (t_addr s)) as [b|] eqn:K; [discriminate E|]. injection E as <-. split; [left; reflexivity|]. split; [left; split; reflexivity|]. split; [|split; reflexivity].
    right. left. exists n, a. split; [exact K|]. split; [|reflexivity]. cbn [t_addr with_tokens]. unfold kput. apply (aput_new _ bytes_eqb_eq). apply kget_none, K.
  - unfold t_unregister in E. destruct (negb _); [discriminate E|]. destruct (kget n (t_addr s)) as [b|] eqn:K; [|discriminate E].
    assert (E' : s' = with_tokens s (t_addr s) (unreg_loop (length (t_names s)) (length (t_names s)) false n (t_names s))) by congruence. clear E. subst s'. split; [left; reflexivity|]. split; [left; split; reflexivity|]. split; [|split; reflexivity].
    right. right. split; [reflexivity|]. destruct (loop_search n (t_names s) []) as (a & d & A & B & C & D); [intros []|]. cbn [app] in A, C. exists a, d. auto.
  - unfold t_fallback in E. destruct (v <? 0); [discriminate E|]. destruct (name_of s x) as [[|ch n]|]; try discriminate E. assert (E' : s' = update s f (ch :: n) v 0) by congruence. clear E. subst s'. split; [right; do 4 eexists; reflexivity|]. split; [left; split; reflexivity|]. split; [left; split; reflexivity|split; reflexivity].
  - unfold t_reclaim in E. destruct (v <? 0); [discriminate E|]. destruct (kget n (t_addr s)) as [a|]; [|discriminate E]. destruct (_ <? v); [discriminate E|]. destruct ok; [|discriminate E].
    assert (E' : s' = tell (update s x n (- v) 0) (TPay a x v)) by congruence. clear E. subst s'. split; [right; do 4 eexists; reflexivity|]. split; [left; split; reflexivity|]. split; [left; split; reflexivity|split; reflexivity].
  - unfold t_transfer in E. destruct (kget n (t_addr s)) as [a|]; [|discriminate E]. destruct (Z.ltb_spec v 0); [discriminate E|]. destruct (valid_address t) as [p|[|]]; try discriminate E. destruct (_ <? v); [discriminate E|].
    unfold t_send in E. destruct ok; [|discriminate E]. cbn [bind] in E. set (s1 := update s x n (- v) v) in E.
    assert (E' : s' = tell (tell (with_pending s1 (t_sn s1 + 1) (aput Z.eqb (t_sn s1 + 1) (Pend x (pa_contract p) n v) (t_pending s1))) (TSend (t_sn s1 + 1) (pa_net p) (JReq (pa_contract p) n v))) (TStart x n (t_sn s1 + 1) v (pa_contract p))) by congruence. clear E. subst s' s1.
    split; [right; do 4 eexists; reflexivity|]. split; [|split; [left; split; reflexivity|split; reflexivity]]. right. left. exists (Pend x (pa_contract p) n v). split; [cbn [q_value]; lia|]. split; [reflexivity|]. cbn [t_pending tell with_pending update with_bal t_sn]. apply (aput_new _ Z.eqb_eq). apply fresh, T.
  - unfold t_message in E. destruct (negb _); [discriminate E|]. destruct m as [to n v|code|type|]; [| | |discriminate E].
    + destruct (addr_of to) as [u|]; [|discriminate E]. cbn [need bind] in E. unfold t_send in E. destruct (kget n (t_addr s)) as [a|]; (destruct ok; [|discriminate E]).
      * assert (E' : s' = tell (update s u n v 0) (TSend sn net (JRes 0))) by congruence. clear E. subst s'. split; [right; do 4 eexists; reflexivity|]. split; [left; split; reflexivity|]. split; [left; split; reflexivity|split; reflexivity].
      * assert (E' : s' = tell s (TSend sn net (JRes (-1)))) by congruence. clear E. subst s'. split; [left; reflexivity|]. split; [left; split; reflexivity|]. split; [left; split; reflexivity|split; reflexivity].
    + destruct (aget Z.eqb sn (t_pending s)) as [p|]; [|discriminate E].
      assert (E' : exists a, s' = tell (with_pending (update s (q_from p) (q_name p) a (- q_value p)) (t_sn s) (zdel sn (t_pending s))) (TEnd sn code)) by (destruct (code =? 0); injection E as <-; eexists; reflexivity). clear E. destruct E' as (a & ->).
      split; [right; do 4 eexists; reflexivity|]. split; [right; right; exists sn; split; reflexivity|]. split; [left; split; reflexivity|split; reflexivity].
    + unfold t_send in E. destruct ok; [|discriminate E]. assert (E' : s' = tell s (TSend sn net (JOther UNKNOWN_TYPE))) by congruence. clear E. subst s'. split; [left; reflexivity|]. split; [left; split; reflexivity|]. split; [left; split; reflexivity|split; reflexivity].
  - unfold t_error in E. destruct (negb _); [discriminate E|]. destruct (aget Z.eqb sn (t_pending s)) as [p|]; [|discriminate E].
    assert (E' : s' = with_pending (update s (q_from p) (q_name p) (q_value p) (- q_value p)) (t_sn s) (zdel sn (t_pending s))) by (injection E as <-; reflexivity). clear E. subst s'. split; [right; do 4 eexists; reflexivity|]. split; [right; right; exists sn; split; reflexivity|]. split; [left; split; reflexivity|split; reflexivity].
Qed.
Lemma nodup_tl : forall (a b : list bytes), NoDup (a ++ b) -> NoDup (a ++ tl b).
Proof. intros a [|x b] N; [exact N|]. cbn [tl]. eapply NoDup_remove_1, N. Qed.
Lemma step_tidy : forall s c s', tidy s -> tcall_result addr_of s c = Val s' -> tidy s'.
Proof.
  intros s c s' T E. destruct (step_shape s c s' T E) as (B & P & A & _). pose proof (fresh s T) as F. destruct T as (T1 & T2 & T3 & T4 & T5 & T6 & T7). unfold tidy, is_open, registered in *.
  split; [|split; [|split; [|split; [|split; [|split]]]]].
  - destruct P as [(-> & _)|[(p & _ & _ & ->)|(k & _ & ->)]]; [exact T1| |apply zdel_nodup, T1]. rewrite map_app. cbn [map fst]. apply nodup_snoc; assumption.
  - intros k q. destruct P as [(-> & ->)|[(p & V & -> & ->)|(j & -> & ->)]]; [apply T2| |intros I; apply zdel_in in I; apply T2, I]. intros I. apply in_app_or in I. destruct I as [I|[I|[]]]; [destruct (T2 k q I); split; lia|]. injection I as <- <-. split; lia.
  - destruct P as [(_ & ->)|[(p & _ & -> & _)|(j & -> & _)]]; lia.
  - destruct A as [(-> & _)|[(n & a & K & -> & _)|(-> & _)]]; try exact T4. rewrite map_app. cbn [map fst]. apply nodup_snoc; [exact T4|apply kget_none, K].
  - destruct A as [(_ & ->)|[(n & a & K & _ & ->)|(_ & a & b & E1 & ->)]]; [exact T5| |apply nodup_tl; rewrite <- E1; exact T5]. apply nodup_snoc; [exact T5|]. intros I. destruct (T6 n I) as (b & I'). apply kget_none in K. apply K. change n with (fst (n, b)). apply in_map, I'.
  - intros m I. destruct A as [(-> & E2)|[(n & a & K & -> & E2)|(-> & a & b & E1 & E2)]]; rewrite E2 in I; [apply T6, I| |].
    + apply in_app_or in I. destruct I as [I|[<-|[]]]; [destruct (T6 m I) as (b & I'); exists b; apply in_or_app; left; exact I'|exists a; apply in_or_app; right; left; reflexivity].
    + apply T6. rewrite E1. apply in_app_or in I. apply in_or_app. destruct I as [I|I]; [left; exact I|right]. destruct b; [destruct I|right; exact I].
  - destruct B as [->|(u & n & a & b & ->)]; [exact T7|apply update_nodup, T7].
Qed.
Lemma step_or : forall s c, (exists s', tcall_result addr_of s c = Val s' /\ tstep addr_of s c = s') \/ accepted addr_of s c = false /\ tstep addr_of s c = s.
Proof. intros s c. unfold tstep, accepted. destruct (tcall_result addr_of s c) as [s'|]; [left; exists s'; split; reflexivity|right; split; reflexivity]. Qed.
Lemma tstep_tidy : forall s c, tidy s -> tidy (tstep addr_of s c).
Proof. intros s c T. destruct (step_or s c) as [(s' & E & ->)|(_ & ->)]; [eapply step_tidy; eassumption|exact T]. Qed.
Lemma run_tidy : forall cs s, tidy s -> tidy (trun addr_of s cs).
Proof. induction cs as [|c cs IH]; intros s T; [exact T|]. cbn [trun fold_left]. apply IH, tstep_tidy, T. Qed.
Lemma start_tidy : forall owner bmc, tidy (token_installed owner bmc).
Proof.
  intros. unfold tidy, is_open, registered. cbn. repeat split; try constructor; try lia; try (intros; contradiction).
Qed.
(** * Locked is what is open *)
Definition locks (s : tstate) : Prop := forall u n, locked s u n = owed (t_pending s) u n.
Lemma moved_locked : forall s s' u n du dl, moved s s' u n du dl -> forall u' n', locked s' u' n' = locked s u' n' + (if bytes_eqb u u' && bytes_eqb n n' then dl else 0).
Proof.
  intros s s' u n du dl (A & B & C) u' n'. destruct (bytes_eqb_spec u u') as [<-|N]; cbn [andb]; [|rewrite (proj2 (C u' n' ltac:(left; congruence))); lia]. destruct (bytes_eqb_spec n n') as [<-|N]; [rewrite B; lia|rewrite (proj2 (C u n' ltac:(right; congruence))); lia].
Qed.
Lemma moved_usable : forall s s' u n du dl, moved s s' u n du dl -> forall u' n', usable s' u' n' = usable s u' n' + (if bytes_eqb u u' && bytes_eqb n n' then du else 0).
Proof.
  intros s s' u n du dl (A & B & C) u' n'. destruct (bytes_eqb_spec u u') as [<-|N]; cbn [andb]; [|rewrite (proj1 (C u' n' ltac:(left; congruence))); lia]. destruct (bytes_eqb_spec n n') as [<-|N]; [rewrite A; lia|rewrite (proj1 (C u n' ltac:(right; congruence))); lia].
Qed.
Lemma owed_perm : forall l l', Permutation l l' -> forall u n, owed l u n = owed l' u n.
Proof. intros l l' P. induction P as [|[k p] l l' P IH|[k p] [j q] l|l1 l2 l3 P1 IH1 P2 IH2]; intros u n; cbn [owed]; [reflexivity|rewrite IH; reflexivity|lia|rewrite IH1; apply IH2]. Qed.
Lemma same_perm : forall (l l' : list (Z * pend)), NoDup (map fst l) -> NoDup (map fst l') -> (forall k p, In (k, p) l' <-> In (k, p) l) -> Permutation l l'.
Proof. intros l l' N N' I. apply NoDup_Permutation; [eapply NoDup_map_inv, N|eapply NoDup_map_inv, N'|]. intros [k p]. symmetry. apply I. Qed.
Lemma owed_same : forall s s', tidy s -> tidy s' -> same_open s s' -> forall u n, owed (t_pending s') u n = owed (t_pending s) u n.
Proof. intros s s' T T' (_ & I) u n. symmetry. apply owed_perm, same_perm; [apply T|apply T'|exact I]. Qed.
Lemma owed_more : forall s s' k q, tidy s -> tidy s' -> ~ In k (map fst (t_pending s)) -> (forall j p, is_open s' j p <-> is_open s j p \/ j = k /\ p = q) -> forall u n, owed (t_pending s') u n = owed (t_pending s) u n + owed_one q u n.
Proof.
  intros s s' k q T T' N I u n. rewrite (owed_perm (t_pending s') (t_pending s ++ [(k, q)])); [rewrite owed_app; cbn [owed]; unfold owed_one; lia|]. apply same_perm; [apply T'|rewrite map_app; apply nodup_snoc; [apply T|exact N]|].
  intros j p. rewrite in_app_iff. cbn [In]. rewrite (I j p). unfold is_open. intuition congruence.
Qed.
Lemma owed_less : forall s s' k q, tidy s -> tidy s' -> is_open s k q -> (forall j p, is_open s' j p <-> is_open s j p /\ j <> k) -> forall u n, owed (t_pending s') u n = owed (t_pending s) u n - owed_one q u n.
Proof.
  intros s s' k q T T' O I u n. rewrite <- (owed_zdel k q (t_pending s) u n (proj1 T) O). apply owed_perm, same_perm; [apply T'|apply zdel_nodup, T|]. intros j p. rewrite zdel_in. symmetry. apply I.
Qed.
Lemma one_open : forall s k p q, tidy s -> is_open s k p -> is_open s k q -> p = q.
Proof.
  intros s k p q (N & _) A B. unfold is_open in *. pose proof (aget_unique _ Z.eqb_eq k p _ N A). pose proof (aget_unique _ Z.eqb_eq k q _ N B). congruence.
Qed.
Lemma step_locks : forall s c s', tidy s -> tidy s' -> does addr_of s c s' -> locks s -> locks s'.
Proof.
  intros s c s' T T' D L u n. pose proof (fresh s T) as F. destruct D;
    try (match goal with X : same_accounts s _ |- _ => rewrite (proj2 (X u n)) end; match goal with X : same_open s _ |- _ => rewrite (owed_same _ _ T T' X) end; apply L);
    try (match goal with X : moved s _ _ _ _ 0, Y : same_open s _ |- _ => rewrite (moved_locked _ _ _ _ _ _ X u n), (owed_same _ _ T T' Y), (L u n); destruct (_ && _); lia end);
    try (match goal with X : moved s _ _ _ _ (- q_value ?p), Y : is_open s ?sn ?p, Z : forall _ _, is_open _ _ _ <-> _ |- _ => rewrite (moved_locked _ _ _ _ _ _ X u n), (owed_less _ _ _ _ T T' Y Z), (L u n); unfold owed_one; destruct (_ && _); lia end).
  rewrite (moved_locked _ _ _ _ _ _ H2 u n), (owed_more _ _ _ _ T T' F H4), (L u n). unfold owed_one. cbn [q_from q_name q_value]. destruct (_ && _); lia.
Qed.
Lemma run_locks : forall cs s, tidy s -> locks s -> locks (trun addr_of s cs).
Proof.
  induction cs as [|c cs IH]; intros s T L; [exact L|]. cbn [trun fold_left]. apply IH; [apply tstep_tidy, T|]. destruct (step_or s c) as [(s' & E & ->)|(_ & ->)]; [|exact L]. eapply step_locks; [exact T|eapply step_tidy; eassumption|eapply step_does; eassumption|exact L].
Qed.
Lemma owed_nonneg : forall l u n, (forall k p, In (k, p) l -> 0 <= q_value p) -> 0 <= owed l u n.
Proof.
  induction l as [|[k p] l IH]; intros u n P; cbn [owed]; [lia|]. pose proof (P k p (or_introl eq_refl)). assert (0 <= owed l u n) by (apply IH; intros; eapply P; right; eassumption). destruct (_ && _); lia.
Qed.
(** * What can be used *)
Lemma step_nonneg : forall s c s', tidy s -> does addr_of s c s' -> gives c -> (forall u n, 0 <= usable s u n) -> forall u n, 0 <= usable s' u n.
Proof.
  intros s c s' T D G P u n. pose proof (P u n) as Pu. destruct D; cbn [gives] in G;
    try (match goal with X : same_accounts s _ |- _ => rewrite (proj1 (X u n)) end; exact Pu);
    match goal with X : moved s _ _ _ _ _ |- _ => rewrite (moved_usable _ _ _ _ _ _ X u n) end;
    try (match goal with Y : is_open s ?sn ?p |- _ => pose proof (proj2 (proj1 (proj2 T) sn p Y)) end); try (destruct (_ && _); lia).
  - destruct (bytes_eqb_spec u0 u) as [<-|]; cbn [andb]; [|lia]. destruct (bytes_eqb_spec n0 n) as [<-|]; lia.
  - destruct (bytes_eqb_spec u0 u) as [<-|]; cbn [andb]; [|lia]. destruct (bytes_eqb_spec n0 n) as [<-|]; lia.
Qed.
Lemma run_nonneg : forall cs s, tidy s -> Forall gives cs -> (forall u n, 0 <= usable s u n) -> forall u n, 0 <= usable (trun addr_of s cs) u n.
Proof.
  induction cs as [|c cs IH]; intros s T G P; [exact P|]. inversion G as [|? ? G1 G2]; subst. cbn [trun fold_left]. apply IH; [apply tstep_tidy, T|exact G2|]. destruct (step_or s c) as [(s' & E & ->)|(_ & ->)]; [|exact P]. eapply step_nonneg; [exact T|eapply step_does; eassumption|exact G1|exact P].
Qed.
(** * Everything there is *)
Lemma worth_ext : forall s s' n, t_bal s' = t_bal s -> worth s' n = worth s n.
Proof. intros s s' n E. unfold worth. rewrite E. reflexivity. Qed.
Lemma has_name : forall s n, existsb (fun x => bytes_eqb (fst x) n) (t_addr s) = match kget n (t_addr s) with Some _ => true | None => false end.
Proof.
  intros s n. unfold kget. induction (t_addr s) as [|[k v] l IH]; [reflexivity|]. cbn [existsb aget fst]. rewrite IH. destruct (bytes_eqb_spec k n) as [->|N]; [rewrite bytes_eqb_refl; reflexivity|]. destruct (bytes_eqb_spec n k); [congruence|reflexivity].
Qed.
Lemma sum_open : forall (f : pend -> Z) k p l, NoDup (map fst l) -> In (k, p) l -> fold_right Z.add 0 (map (fun x : Z * pend => if fst x =? k then f (snd x) else 0) l) = f p.
Proof.
  intros f k p l. assert (Z0 : forall l, ~ In k (map fst l) -> fold_right Z.add 0 (map (fun x : Z * pend => if fst x =? k then f (snd x) else 0) l) = 0).
  { clear l. induction l as [|[y q] l IH]; intros N; [reflexivity|]. cbn [map fst snd fold_right In] in *. destruct (Z.eqb_spec y k); [tauto|]. rewrite IH by tauto. reflexivity. }
  induction l as [|[y q] l IH]; intros N I; [destruct I|]. cbn [map fst] in N. inversion N as [|? ? A B]; subst. cbn [map fst snd fold_right]. destruct I as [E|I].
  - injection E as -> ->. rewrite Z.eqb_refl, (Z0 l A). lia.
  - destruct (Z.eqb_spec y k) as [->|]; [elim A; change k with (fst (k, p)); apply in_map, I|]. rewrite (IH B I). lia.
Qed.
Lemma step_worth : forall s c s' n, tidy s -> tcall_result addr_of s c = Val s' -> worth s' n = worth s n + brings addr_of s c n.
Proof.
  intros s c s' n0 T E. pose proof (proj2 (proj2 (proj2 (proj2 (proj2 (proj2 T)))))) as N. destruct c as [x n a|x n|x f v|x n v ok|x n t v ok|x net sn m ok|x sn]; cbn [tcall_result brings] in *.
  - unfold t_register in E. destruct (negb _); [discriminate E|]. destruct (kget n (t_addr s)); [discriminate E|]. injection E as <-. rewrite (worth_ext s) by reflexivity. lia.
  - unfold t_unregister in E. destruct (negb _); [discriminate E|]. destruct (kget n (t_addr s)); [|discriminate E]. injection E as <-. rewrite (worth_ext s) by reflexivity. lia.
  - unfold t_fallback in E. destruct (v <? 0); [discriminate E|]. destruct (name_of s x) as [[|ch n]|]; try discriminate E. assert (E' : s' = update s f (ch :: n) v 0) by congruence. clear E. subst s'. rewrite (worth_update _ _ _ _ _ _ N). destruct (bytes_eqb _ _); lia.
  - unfold t_reclaim in E. destruct (v <? 0); [discriminate E|]. destruct (kget n (t_addr s)) as [a|]; [|discriminate E]. destruct (_ <? v); [discriminate E|]. destruct ok; [|discriminate E].
    assert (E' : s' = tell (update s x n (- v) 0) (TPay a x v)) by congruence. clear E. subst s'. rewrite (worth_ext (update s x n (- v) 0)) by reflexivity. rewrite (worth_update _ _ _ _ _ _ N). destruct (bytes_eqb _ _); lia.
  - unfold t_transfer in E. destruct (kget n (t_addr s)) as [a|]; [|discriminate E]. destruct (v <? 0); [discriminate E|]. destruct (valid_address t) as [p|[|]]; try discriminate E. destruct (_ <? v); [discriminate E|].
    unfold t_send in E. destruct ok; [|discriminate E]. cbn [bind] in E. injection E as <-. rewrite (worth_ext (update s x n (- v) v)) by reflexivity. rewrite (worth_update _ _ _ _ _ _ N). destruct (bytes_eqb _ _); lia.
  - unfold t_message in E. destruct (negb _); [discriminate E|]. destruct m as [to n v|code|type|]; [| | |discriminate E].
    + destruct (addr_of to) as [u|]; [|discriminate E]. cbn [need bind] in E. unfold t_send in E. rewrite has_name. destruct (kget n (t_addr s)) as [a|]; (destruct ok; [|discriminate E]); injection E as <-.
      * rewrite (worth_ext (update s u n v 0)) by reflexivity. rewrite (worth_update _ _ _ _ _ _ N). destruct (bytes_eqb _ _); lia.
      * rewrite (worth_ext s) by reflexivity. lia.
    + destruct (aget Z.eqb sn (t_pending s)) as [p|] eqn:G; [|discriminate E]. apply zget_in in G. destruct (code =? 0); injection E as <-.
      * rewrite (worth_ext (update s (q_from p) (q_name p) 0 (- q_value p))) by reflexivity. rewrite (worth_update _ _ _ _ _ _ N). rewrite (sum_open (fun p => if bytes_eqb (q_name p) n0 then - q_value p else 0) sn p _ (proj1 T) G). destruct (bytes_eqb _ _); lia.
      * rewrite (worth_ext (update s (q_from p) (q_name p) (q_value p) (- q_value p))) by reflexivity. rewrite (worth_update _ _ _ _ _ _ N). destruct (bytes_eqb _ _); lia.
    + unfold t_send in E. destruct ok; [|discriminate E]. injection E as <-. rewrite (worth_ext s) by reflexivity. lia.
  - unfold t_error in E. destruct (negb _); [discriminate E|]. destruct (aget Z.eqb sn (t_pending s)) as [p|]; [|discriminate E]. injection E as <-. rewrite (worth_ext (update s (q_from p) (q_name p) (q_value p) (- q_value p))) by reflexivity. rewrite (worth_update _ _ _ _ _ _ N). destruct (bytes_eqb _ _); lia.
Qed.
Lemma run_worth : forall cs s n, tidy s -> worth (trun addr_of s cs) n = worth s n + brought addr_of s cs n.
Proof.
  induction cs as [|c cs IH]; intros s n T; [cbn; lia|]. cbn [trun fold_left brought]. change (fold_left (tstep addr_of) cs (tstep addr_of s c)) with (trun addr_of (tstep addr_of s c) cs). rewrite (IH _ n (tstep_tidy s c T)).
  destruct (step_or s c) as [(s' & E & R)|(A & R)]; rewrite R; [|rewrite A; lia]. unfold accepted. rewrite E. rewrite (step_worth s c s' n T E). lia.
Qed.
(** * Numbers *)
Lemma begun_app : forall a b, begun (a ++ b) = begun a ++ begun b.
Proof. induction a as [|[| | |] a IH]; intros b; cbn [begun app]; rewrite ?IH; reflexivity. Qed.
Lemma ended_app : forall a b, ended (a ++ b) = ended a ++ ended b.
Proof. induction a as [|[| | |] a IH]; intros b; cbn [ended app]; rewrite ?IH; reflexivity. Qed.
Fixpoint upto (n : nat) : list Z := match n with O => [] | S k => upto k ++ [Z.of_nat (S k)] end.
Definition numbered (s : tstate) : Prop := begun (t_out s) = upto (Z.to_nat (t_sn s)) /\ NoDup (ended (t_out s)) /\ forall k, In k (ended (t_out s)) -> 1 <= k <= t_sn s /\ forall p, ~ is_open s k p.
Lemma step_numbered : forall s c s', tidy s -> does addr_of s c s' -> numbered s -> numbered s'.
Proof.
  intros s c s' T D (B & N & F). unfold numbered. pose proof (proj1 (proj2 (proj2 T))) as P0. destruct D;
    match goal with X : said s s' _ |- _ => unfold said in X; rewrite X end; rewrite begun_app, ended_app; cbn [begun ended]; rewrite ?app_nil_r;
    try (match goal with X : same_open s s' |- _ => destruct X as (X1 & X2); rewrite X1; split; [exact B|split; [exact N|]]; intros k I; destruct (F k I) as [F1 F2]; split; [exact F1|]; intros q O; apply X2 in O; exact (F2 q O) end);
    try (match goal with X : t_sn s' = t_sn s, Y : is_open s ?sn ?p, W : forall _ _, is_open s' _ _ <-> _ |- _ => rewrite X; split; [exact B|split] end).
  - (* transfer *) rewrite H3. split; [|split; [exact N|]].
    + rewrite B. replace (Z.to_nat (t_sn s + 1)) with (S (Z.to_nat (t_sn s))) by lia. cbn [upto]. do 2 f_equal. lia.
    + intros k I. destruct (F k I) as [F1 F2]. split; [lia|]. intros q O. apply H4 in O. destruct O as [O|[-> _]]; [exact (F2 q O)|lia].
  - apply nodup_snoc; [exact N|]. intros I. exact (proj2 (F sn I) p H).
  - intros k I. apply in_app_or in I. destruct I as [I|[<-|[]]]; [destruct (F k I) as [F1 F2]; split; [exact F1|]; intros q O; apply H2 in O; exact (F2 q (proj1 O))|]. split; [apply (proj1 (proj2 T) sn p H)|]. intros q O. apply H2 in O. destruct O as [_ O]. congruence.
  - apply nodup_snoc; [exact N|]. intros I. exact (proj2 (F sn I) p H0).
  - intros k I. apply in_app_or in I. destruct I as [I|[<-|[]]]; [destruct (F k I) as [F1 F2]; split; [exact F1|]; intros q O; apply H3 in O; exact (F2 q (proj1 O))|]. split; [apply (proj1 (proj2 T) sn p H0)|]. intros q O. apply H3 in O. destruct O as [_ O]. congruence.
  - exact N.
  - intros k I. destruct (F k I) as [F1 F2]. split; [exact F1|]. intros q O. apply H2 in O. exact (F2 q (proj1 O)).
Qed.
Lemma run_numbered : forall cs s, tidy s -> numbered s -> numbered (trun addr_of s cs).
Proof.
  induction cs as [|c cs IH]; intros s T L; [exact L|]. cbn [trun fold_left]. apply IH; [apply tstep_tidy, T|]. destruct (step_or s c) as [(s' & E & ->)|(_ & ->)]; [|exact L]. eapply step_numbered; [exact T|eapply step_does; eassumption|exact L].
Qed.
(** What is no longer open stays so *)
Lemma step_closed : forall s c s' k, does addr_of s c s' -> k <= t_sn s -> (forall p, ~ is_open s k p) -> k <= t_sn s' /\ forall p, ~ is_open s' k p.
Proof.
  intros s c s' k D L N. destruct D;
    try (match goal with X : same_open s s' |- _ => destruct X as (X1 & X2); split; [lia|]; intros q O; apply X2 in O; exact (N q O) end);
    match goal with W : forall _ _, is_open s' _ _ <-> _ |- _ => split; [lia|]; intros q O; apply W in O end; try (exact (N q (proj1 O))).
  destruct O as [O|[O _]]; [exact (N q O)|lia].
Qed.
Lemma run_closed : forall cs s k, tidy s -> k <= t_sn s -> (forall p, ~ is_open s k p) -> forall p, ~ is_open (trun addr_of s cs) k p.
Proof.
  induction cs as [|c cs IH]; intros s k T L N; [exact N|]. cbn [trun fold_left]. destruct (step_or s c) as [(s' & E & R)|(_ & R)].
  - destruct (step_closed s c s' k (step_does s c s' T E) L N) as [L' N']. apply IH; [apply tstep_tidy, T|rewrite R; exact L'|rewrite R; exact N'].
  - apply IH; [apply tstep_tidy, T|rewrite R; exact L|rewrite R; exact N].
Qed.
(** An address stays with its name *)
Lemma step_addr : forall s c s' n a, tidy s -> does addr_of s c s' -> kget n (t_addr s) = Some a -> kget n (t_addr s') = Some a.
Proof.
  intros s c s' n a T D K. destruct D; try (match goal with X : same_tokens s s' |- _ => rewrite (proj1 X); exact K end); [|rewrite H3; exact K].
  destruct (kget n (t_addr s')) as [b|] eqn:G.
  - apply kin in G. apply H3 in G. destruct G as [G|[-> ->]]; [|elim H; exists a; apply kin, K]. pose proof (aget_unique _ bytes_eqb_eq n b _ (proj1 (proj2 (proj2 (proj2 T)))) G) as U. unfold kget in K. congruence.
  - apply kget_none in G. elim G. change n with (fst (n, a)). apply in_map. apply H3. left. apply kin, K.
Qed.
(** * What there is of a token *)
Definition known (s : tstate) : Prop := (forall n, kget n (t_addr s) = None -> worth s n = 0) /\ forall k p, is_open s k p -> kget (q_name p) (t_addr s) <> None.
Lemma start_known : forall owner bmc, known (token_installed owner bmc).
Proof. intros owner bmc. split; [reflexivity|intros k p []]. Qed.
Lemma addr_back : forall s c s' n, tidy s -> does addr_of s c s' -> kget n (t_addr s') = None -> kget n (t_addr s) = None.
Proof. intros s c s' n T D K. destruct (kget n (t_addr s)) as [a|] eqn:G; [|reflexivity]. rewrite (step_addr s c s' n a T D G) in K. discriminate K. Qed.
Lemma brings_unknown : forall s c s' n, tidy s -> known s -> does addr_of s c s' -> kget n (t_addr s) = None -> brings addr_of s c n = 0.
Proof.
  intros s c s' n0 T (_ & KP) D K. destruct D; cbn [brings]; try reflexivity.
  - apply name_first in H1. rewrite H1. apply name_first in H1. destruct H1 as (a & b & _ & G & _). destruct (bytes_eqb_spec n n0) as [->|]; [congruence|reflexivity].
  - destruct (bytes_eqb_spec n n0) as [->|]; [congruence|reflexivity].
  - rewrite has_name. destruct (kget n (t_addr s)) eqn:G; [|reflexivity]. destruct (bytes_eqb_spec n n0) as [->|]; [congruence|reflexivity].
  - rewrite has_name. destruct (kget n (t_addr s)) eqn:G; [|reflexivity]. destruct (bytes_eqb_spec n n0) as [->|]; [congruence|reflexivity].
  - rewrite (sum_open (fun p => if bytes_eqb (q_name p) n0 then - q_value p else 0) sn p _ (proj1 T) H). destruct (bytes_eqb_spec (q_name p) n0) as [Q|]; [|reflexivity]. elim (KP sn p H). rewrite Q. exact K.
  - destruct (Z.eqb_spec code 0); [contradiction|reflexivity].
Qed.
Lemma step_known : forall s c s', tidy s -> known s -> tcall_result addr_of s c = Val s' -> known s'.
Proof.
  intros s c s' T Kn E. pose proof (step_does s c s' T E) as D. split.
  - intros n K. apply (addr_back s c s' n T D) in K. rewrite (step_worth s c s' n T E), (brings_unknown s c s' n T Kn D K), (proj1 Kn n K). reflexivity.
  - intros k p O. assert (B : kget (q_name p) (t_addr s) <> None); [|intros X; apply B, (addr_back s c s' _ T D), X]. destruct Kn as [_ KP]. destruct D;
    try (match goal with X : same_open s s' |- _ => apply X in O end; exact (KP k p O));
    try (match goal with W : forall _ _, is_open s' _ _ <-> _ |- _ => apply W in O end; exact (KP k p (proj1 O))).
    apply H4 in O. destruct O as [O|[_ ->]]; [exact (KP k p O)|]. cbn [q_name]. apply reg_get, H0.
Qed.
Lemma run_known : forall cs s, tidy s -> known s -> known (trun addr_of s cs).
Proof.
  induction cs as [|c cs IH]; intros s T K; [exact K|]. cbn [trun fold_left]. apply IH; [apply tstep_tidy, T|]. destruct (step_or s c) as [(s' & E & ->)|(_ & ->)]; [|exact K]. exact (step_known s c s' T K E).
Qed.
Lemma wt_same : forall l s s' a, (forall n, worth s' n = worth s n) -> worth_token l s' a = worth_token l s a.
Proof. induction l as [|[n b] l IH]; intros s s' a W; [reflexivity|]. cbn [worth_token]. rewrite (W n), (IH s s' a W). reflexivity. Qed.
Lemma wt_at : forall l s s' a m v, NoDup (map fst l) -> (forall n, worth s' n = worth s n + if bytes_eqb m n then v else 0) ->
  worth_token l s' a = worth_token l s a + match kget m l with Some b => if bytes_eqb b a then v else 0 | None => 0 end.
Proof.
  induction l as [|[n b] l IH]; intros s s' a m v N W; [reflexivity|]. cbn [map fst] in N. inversion N as [|? ? A B]; subst. cbn [worth_token]. rewrite (W n), (IH s s' a m v B W). unfold kget. cbn [aget]. fold (kget (V := bytes) m l).
  destruct (bytes_eqb_spec m n) as [->|X]; [|destruct (bytes_eqb b a); lia]. apply kget_none in A. rewrite A. destruct (bytes_eqb b a); lia.
Qed.
Lemma wt_app : forall l r s a, worth_token (l ++ r) s a = worth_token l s a + worth_token r s a.
Proof. induction l as [|[n b] l IH]; intros r s a; [reflexivity|]. cbn [worth_token app]. rewrite IH. lia. Qed.
Lemma paid_app : forall x y a, paid (x ++ y) a = paid x a + paid y a.
Proof. induction x as [|[| | |] x IH]; intros y a; cbn [paid app]; rewrite ?IH; lia. Qed.
Definition came_one (c : tcall) (a : bytes) : Z := match c with KFallback t _ v => if bytes_eqb t a then v else 0 | _ => 0 end.
Lemma step_backed : forall s c s' a, tidy s -> known s -> tcall_result addr_of s c = Val s' -> no_request c ->
  worth_token (t_addr s') s' a + paid (t_out s') a <= worth_token (t_addr s) s a + paid (t_out s) a + came_one c a.
Proof.
  intros s c s' a0 T Kn E NR. pose proof (step_does s c s' T E) as D. pose proof (fun n => step_worth s c s' n T E) as W. pose proof (proj1 (proj2 (proj2 (proj2 T)))) as ND. destruct (step_shape s c s' T E) as (_ & _ & SH & _).
  destruct D; cbn [no_request] in NR; try contradiction; cbn [brings came_one] in *; match goal with X : said s s' _ |- _ => unfold said in X; rewrite X end; rewrite paid_app; cbn [paid].
  - assert (A : t_addr s' = t_addr s ++ [(n, a)] /\ kget n (t_addr s) = None).
    { cbn [tcall_result] in E. unfold t_register in E. destruct (negb _); [discriminate E|]. destruct (kget n (t_addr s)) as [b|] eqn:K; [discriminate E|]. injection E as <-. split; [|reflexivity]. cbn [t_addr with_tokens]. unfold kput. apply (aput_new _ bytes_eqb_eq), kget_none, K. }
    destruct A as [A K]. rewrite A, wt_app.
    rewrite (wt_same (t_addr s) s); [|intros m; rewrite (W m); lia]. cbn [worth_token]. rewrite (W n), (proj1 Kn n K). destruct (bytes_eqb a a0); lia.
  - rewrite H3. rewrite (wt_same (t_addr s) s); [lia|]. intros m. rewrite (W m). lia.
  - rewrite (proj1 H5). apply name_first in H1. rewrite H1 in W. apply name_first in H1. destruct H1 as (x & y & _ & G & _). rewrite (wt_at (t_addr s) s s' a0 n v ND W), G. lia.
  - rewrite (proj1 H4). rewrite (wt_at (t_addr s) s s' a0 n (- v) ND W), H0. destruct (bytes_eqb a a0); lia.
  - rewrite (proj1 H6). rewrite (wt_same (t_addr s) s); [lia|]. intros m. rewrite (W m). lia.
  - rewrite (proj1 H4). rewrite (wt_at (t_addr s) s s' a0 (q_name p) (- q_value p) ND).
    + pose proof (proj2 (proj1 (proj2 T) sn p H)). destruct (kget _ _) as [b|]; [destruct (bytes_eqb b a0)|]; lia.
    + intros n. rewrite (W n). cbn [Z.eqb]. rewrite (sum_open (fun p => if bytes_eqb (q_name p) n then - q_value p else 0) sn p _ (proj1 T) H). reflexivity.
  - rewrite (proj1 H5). rewrite (wt_same (t_addr s) s); [lia|]. intros m. rewrite (W m). destruct (Z.eqb_spec code 0); [contradiction|lia].
  - rewrite (proj1 H2). rewrite (wt_same (t_addr s) s); [lia|]. intros m. rewrite (W m). lia.
  - rewrite (proj1 H4). rewrite (wt_same (t_addr s) s); [lia|]. intros m. rewrite (W m). lia.
Qed.
Lemma run_backed : forall cs s a, tidy s -> known s -> Forall no_request cs ->
  worth_token (t_addr (trun addr_of s cs)) (trun addr_of s cs) a + paid (t_out (trun addr_of s cs)) a <= worth_token (t_addr s) s a + paid (t_out s) a + came addr_of s cs a.
Proof.
  induction cs as [|c cs IH]; intros s a T K N; [cbn; lia|]. inversion N as [|? ? N1 N2]; subst. cbn [trun fold_left came]. change (fold_left (tstep addr_of) cs (tstep addr_of s c)) with (trun addr_of (tstep addr_of s c) cs).
  destruct (step_or s c) as [(s' & E & R)|(A & R)].
  - rewrite R. specialize (IH s' a (step_tidy s c s' T E) (step_known s c s' T K E) N2). pose proof (step_backed s c s' a T K E N1) as B. unfold accepted. rewrite E.
    assert (C : came_one c a = match c with KFallback t _ v => if bytes_eqb t a && true then v else 0 | _ => 0 end) by (destruct c; try reflexivity; cbn [came_one]; rewrite andb_true_r; reflexivity). rewrite <- C. lia.
  - rewrite R. specialize (IH s a T K N2). rewrite A. destruct c; try (cbn [andb]; lia). rewrite andb_false_r. lia.
Qed.
Lemma worth_split : forall s n u, tidy s -> (forall u m, 0 <= usable s u m) -> (forall u m, 0 <= locked s u m) -> usable s u n <= worth s n /\ 0 <= worth s n.
Proof.
  intros s n u T U L. pose proof (proj2 (proj2 (proj2 (proj2 (proj2 (proj2 T)))))) as N. unfold worth, usable, locked, balance in *.
  assert (P : forall k b, In (k, b) (t_bal s) -> 0 <= fst b /\ 0 <= snd b).
  { intros [x m] b I. pose proof (aget_unique _ keq (x, m) b _ N I) as G. specialize (U x m). specialize (L x m). rewrite G in U, L. auto. }
  clear U L T. induction (t_bal s) as [|[[x m] b] l IH]; [cbn; lia|]. cbn [map fst] in N. inversion N as [|? ? A B]; subst. specialize (IH B (fun k b I => P k b (or_intror I))). pose proof (P (x, m) b (or_introl eq_refl)) as [P1 P2]. cbn [aget worth_of snd].
  destruct (kspec (u, n) (x, m)) as [Q|Q]; [injection Q as -> ->; rewrite bytes_eqb_refl; lia|]. destruct (bytes_eqb m n); lia.
Qed.
Lemma wt_covers : forall l s a n, (forall m, 0 <= worth s m) -> In (n, a) l -> worth s n <= worth_token l s a.
Proof.
  intros l s a n P. assert (Q : forall l, 0 <= worth_token l s a) by (clear l; induction l as [|[m b] l IH]; cbn [worth_token]; [lia|]; specialize (P m); destruct (bytes_eqb b a); lia).
  induction l as [|[m b] l IH]; intros I; [destruct I|]. cbn [worth_token]. destruct I as [E|I]; [injection E as -> ->; rewrite bytes_eqb_refl; specialize (Q l); lia|]. specialize (IH I). specialize (P m). destruct (bytes_eqb b a); lia.
Qed.
Lemma no_request_gives : forall cs, Forall no_request cs -> Forall gives cs.
Proof. intros cs. apply Forall_impl. intros [| | | | |x net sn [] ok|]; cbn; tauto. Qed.
End CALLS.
