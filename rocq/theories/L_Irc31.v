From Coq Require Import ZArith List Bool Lia.
From Coq Require Import ZifyBool.
From Verif Require Import Base L_Base GoStr M_JMap M_Rlp S_Rlp M_Irc31 S_Irc31 L_JMap.
Import ListNotations.
Open Scope Z_scope.
Local Notation bytes := (list Z).

Lemma idkey_eq : forall a b, idkey_eqb a b = true <-> a = b.
Proof. intros [a b] [c d]. unfold idkey_eqb. cbn [fst snd]. rewrite andb_true_iff, bytes_eqb_eq, Z.eqb_eq. split; [intros [-> ->]; reflexivity|intros E; injection E as -> ->; auto]. Qed.
Lemma opkey_eq : forall a b, opkey_eqb a b = true <-> a = b.
Proof. intros [a b] [c d]. unfold opkey_eqb. cbn [fst snd]. rewrite andb_true_iff, !bytes_eqb_eq. split; [intros [-> ->]; reflexivity|intros E; injection E as -> ->; auto]. Qed.
Lemma mbal_set : forall s i u v j y, mbal (set_bal s i u v) j y = if (i =? j) && bytes_eqb y u then v else mbal s j y.
Proof.
  intros s i u v j y. unfold mbal, set_bal. cbn [m_bal]. destruct (Z.eqb_spec i j) as [->|N]; cbn [andb]; [destruct (bytes_eqb_spec y u) as [->|N]|].
  - rewrite (aput_same _ idkey_eq). reflexivity.
  - rewrite (aput_other _ idkey_eq) by congruence. reflexivity.
  - rewrite (aput_other _ idkey_eq) by congruence. reflexivity.
Qed.
Lemma total_put : forall l i u v id, NoDup (map fst l) -> total (aput idkey_eqb (i, u) v l) id = total l id + (if i =? id then v - match aget idkey_eqb (i, u) l with Some x => x | None => 0 end else 0).
Proof.
  induction l as [|[[j y] w] l IH]; intros i u v id N; [cbn; destruct (i =? id); lia|]. cbn [map fst] in N. inversion N as [|? ? A B]; subst. cbn [aput aget].
  destruct (idkey_eqb (i, u) (j, y)) eqn:E; [apply idkey_eq in E; injection E as -> ->; cbn [total]; destruct (j =? id); lia|]. cbn [total]. rewrite (IH i u v id B). lia.
Qed.
Lemma shift_effect : forall s f t i v s', shift s f t i v = Some s' ->
  0 <= v <= mbal s i f /\ m_ops s' = m_ops s /\ m_uri s' = m_uri s /\ m_creator s' = m_creator s /\ m_ev s' = m_ev s /\
  (forall j y, mbal s' j y = mbal s j y + (if bytes_eqb y t && (i =? j) then v else 0) - (if bytes_eqb y f && (i =? j) then v else 0)) /\
  (NoDup (map fst (m_bal s)) -> NoDup (map fst (m_bal s')) /\ forall id, total (m_bal s') id = total (m_bal s) id).
Proof.
  intros s f t i v s' E. unfold shift in E. destruct (_ && _) eqn:C in E; [|discriminate E]. cbv zeta in E. set (s1 := set_bal s i f (mbal s i f - v)) in E. assert (E' : s' = set_bal s1 i t (mbal s1 i t + v)) by congruence. clear E. subst s'.
  split; [lia|]. split; [reflexivity|]. split; [reflexivity|]. split; [reflexivity|]. split; [reflexivity|]. split.
  - intros j y. rewrite mbal_set. unfold s1. rewrite !mbal_set. destruct (Z.eqb_spec i j) as [->|]; cbn [andb]; [|destruct (bytes_eqb y t), (bytes_eqb y f); cbn [andb]; lia]. rewrite Z.eqb_refl. destruct (bytes_eqb_spec y t) as [->|]; cbn [andb]; destruct (bytes_eqb_spec t f) as [->|]; cbn [andb]; rewrite ?bytes_eqb_refl; cbn [andb]; try lia; destruct (bytes_eqb_spec y f) as [->|]; cbn [andb]; lia.
  - intros N. assert (N1 : NoDup (map fst (m_bal s1))) by (apply aput_nodup; [exact idkey_eq|exact N]). split; [apply aput_nodup; [exact idkey_eq|exact N1]|]. intros id.
    cbn [set_bal m_bal]. rewrite (total_put _ _ _ _ _ N1). fold (mbal s1 i t). unfold s1 at 1. cbn [set_bal m_bal]. rewrite (total_put _ _ _ _ _ N). fold (mbal s i f). destruct (i =? id); lia.
Qed.
Lemma shift_goes : forall s f t i v, 0 <= v <= mbal s i f -> exists s', shift s f t i v = Some s'.
Proof. intros s f t i v H. unfold shift. replace ((0 <=? v) && (v <=? mbal s i f)) with true by lia. eexists. reflexivity. Qed.
Lemma all_effect : forall l s f t s', shift_all s f t l = Some s' ->
  Forall (fun p => 0 <= snd p) l /\ m_ops s' = m_ops s /\ m_uri s' = m_uri s /\ m_creator s' = m_creator s /\ m_ev s' = m_ev s /\
  (forall j y, mbal s' j y = mbal s j y + (if bytes_eqb y t then want l j else 0) - (if bytes_eqb y f then want l j else 0)) /\
  (NoDup (map fst (m_bal s)) -> NoDup (map fst (m_bal s')) /\ forall id, total (m_bal s') id = total (m_bal s) id).
Proof.
  induction l as [|[i v] l IH]; intros s f t s' E; cbn [shift_all] in E.
  - assert (s' = s) by congruence. subst s'. split; [constructor|]. repeat (split; [reflexivity|]). split; [intros j y; cbn [want]; destruct (bytes_eqb y t), (bytes_eqb y f); lia|auto].
  - destruct (shift s f t i v) as [s1|] eqn:S; [|discriminate E]. destruct (shift_effect _ _ _ _ _ _ S) as (A1 & A2 & A3 & A4 & A5 & A6 & A7). destruct (IH _ _ _ _ E) as (B1 & B2 & B3 & B4 & B5 & B6 & B7).
    split; [constructor; [cbn [snd]; lia|exact B1]|]. repeat (split; [congruence|]). split.
    + intros j y. rewrite B6, A6. cbn [want]. destruct (bytes_eqb y t), (bytes_eqb y f), (i =? j); cbn [andb]; lia.
    + intros N. destruct (A7 N) as [N1 T1]. destruct (B7 N1) as [N2 T2]. split; [exact N2|]. intros id. rewrite T2. apply T1.
Qed.
Lemma want_nonneg : forall l id, Forall (fun p => 0 <= snd p) l -> 0 <= want l id.
Proof. induction l as [|[i v] l IH]; intros id F; cbn [want]; [lia|]. inversion F as [|? ? A B]; subst. specialize (IH id B). cbn [snd] in A. destruct (i =? id); lia. Qed.
Lemma all_goes : forall l s f t, f <> t -> (forall j, 0 <= mbal s j f) -> Forall (fun p => 0 <= snd p) l -> (forall id, want l id <= mbal s id f) -> exists s', shift_all s f t l = Some s'.
Proof.
  induction l as [|[i v] l IH]; intros s f t N P F W; cbn [shift_all]; [eauto|]. inversion F as [|? ? A B]; subst. cbn [snd] in A.
  assert (V : v <= mbal s i f) by (pose proof (W i) as X; cbn [want] in X; rewrite Z.eqb_refl in X; pose proof (want_nonneg l i B); lia).
  destruct (shift_goes s f t i v (conj A V)) as [s1 S]. rewrite S. destruct (shift_effect _ _ _ _ _ _ S) as (_ & _ & _ & _ & _ & A6 & _).
  assert (X : forall j, mbal s1 j f = mbal s j f - if i =? j then v else 0). { intros j. rewrite A6, bytes_eqb_refl. destruct (bytes_eqb_spec f t); [contradiction|]. cbn [andb]. lia. }
  apply IH; [exact N| |exact B|]; intros j; rewrite X; specialize (W j); cbn [want] in W; pose proof (want_nonneg l j B); destruct (i =? j); specialize (P j); lia.
Qed.
Lemma all_needs : forall l s f t s', f <> t -> (forall j, 0 <= mbal s j f) -> shift_all s f t l = Some s' -> forall id, want l id <= mbal s id f.
Proof.
  induction l as [|[i v] l IH]; intros s f t s' N P E id; cbn [want]; [apply P|]. cbn [shift_all] in E. destruct (shift s f t i v) as [s1|] eqn:S; [|discriminate E]. destruct (shift_effect _ _ _ _ _ _ S) as (A1 & _ & _ & _ & _ & A6 & _).
  assert (X : forall j, mbal s1 j f = mbal s j f - if i =? j then v else 0). { intros j. rewrite A6, bytes_eqb_refl. destruct (bytes_eqb_spec f t); [contradiction|]. cbn [andb]. lia. }
  assert (P1 : forall j, 0 <= mbal s1 j f) by (intros j; rewrite X; specialize (P j); destruct (Z.eqb_spec i j) as [->|]; lia).
  specialize (IH s1 f t s' N P1 E id). rewrite X in IH. destruct (i =? id); lia.
Qed.
Lemma all_self : forall l s f, (exists s', shift_all s f f l = Some s') <-> Forall (fun p => 0 <= snd p <= mbal s (fst p) f) l.
Proof.
  induction l as [|[i v] l IH]; intros s f; cbn [shift_all]; [split; [constructor|eauto]|]. split.
  - intros (s' & E). destruct (shift s f f i v) as [s1|] eqn:S; [|discriminate E]. destruct (shift_effect _ _ _ _ _ _ S) as (A1 & _ & _ & _ & _ & A6 & _). constructor; [exact A1|]. assert (X : Forall (fun p => 0 <= snd p <= mbal s1 (fst p) f) l) by (apply IH; eauto). eapply Forall_impl; [|exact X]. intros [j w]. cbn [fst snd]. rewrite A6. lia.
  - intros F. inversion F as [|? ? A B]; subst. cbn [fst snd] in A. destruct (shift_goes s f f i v A) as [s1 S]. rewrite S. destruct (shift_effect _ _ _ _ _ _ S) as (_ & _ & _ & _ & _ & A6 & _). apply IH. eapply Forall_impl; [|exact B]. intros [j w]. cbn [fst snd]. rewrite A6. lia.
Qed.
(** * Invariants *)
Definition sane (s : mtoken) : Prop :=
  NoDup (map fst (m_bal s)) /\ (forall i u, 0 <= mbal s i u) /\ (forall i u, aget Z.eqb i (m_creator s) = None -> mbal s i u = 0) /\
  (forall i u, u <> ZERO_ADDRESS -> mbal s i u = replay (m_ev s) u i) /\ (forall o p, approved s o p = last_approval (m_ev s) o p false) /\
  (forall i, aget Z.eqb i (m_creator s) = None -> total (m_bal s) i = 0).
Lemma replay_snoc : forall l e u i, replay (l ++ [e]) u i = replay l u i + got1 e u i - gave1 e u i.
Proof. induction l as [|x l IH]; intros e u i; cbn [replay app]; [lia|]. rewrite IH. lia. Qed.
Lemma last_snoc : forall l e o p d, last_approval (l ++ [e]) o p d = last_approval [e] o p (last_approval l o p d).
Proof. induction l as [|[ | |x y z] l IH]; intros e o p d; [reflexivity| | |]; cbn [last_approval app]; apply IH. Qed.
Lemma start_sane : sane mt_installed.
Proof. split; [constructor|]. repeat split; intros; cbn; try reflexivity; lia. Qed.
Lemma zeqb_eq : forall a b, (a =? b) = true <-> a = b. Proof. exact Z.eqb_eq. Qed.
(** After a change of balances and an event that says the same *)
Lemma sane_moved : forall s s' e, sane s -> m_ops s' = m_ops s -> m_creator s' = m_creator s -> m_ev s' = m_ev s -> NoDup (map fst (m_bal s')) ->
  (forall id, aget Z.eqb id (m_creator s) = None -> total (m_bal s') id = total (m_bal s) id) ->
  (forall i u, u <> ZERO_ADDRESS -> mbal s' i u = mbal s i u + got1 e u i - gave1 e u i) -> (forall i u, 0 <= mbal s' i u) ->
  (forall i u, aget Z.eqb i (m_creator s) = None -> mbal s' i u = 0) -> (forall o p d, last_approval [e] o p d = d) -> sane (emit s' e).
Proof.
  intros s s' e (A & B & C & D & E & F) O Cr Ev N T M P Z L. unfold sane, approved. cbn [emit m_bal m_ops m_creator m_ev]. fold (mbal s'). split; [exact N|]. split; [exact P|]. split; [intros i u K; rewrite Cr in K; apply Z, K|]. split; [|split].
  - intros i u Nu. change (mbal (emit s' e) i u) with (mbal s' i u). rewrite Ev, replay_snoc, M, D by exact Nu. lia.
  - intros o p. rewrite Ev, last_snoc, L, <- E, O. reflexivity.
  - intros i K. rewrite Cr in K. rewrite T by exact K. apply F, K.
Qed.
Lemma do_sane : forall c s s', sane s -> caller c <> ZERO_ADDRESS -> mdo s c = Some s' -> sane s'.
Proof.
  intros c s s' S Nz E. pose proof S as (A & B & C & D & Ap & F). destruct c as [x f t i v|x f t ids vs|x op yes|x i v uri|x i v|x i uri]; cbn [mdo caller] in *.
  - destruct (bytes_eqb t ZERO_ADDRESS); [discriminate E|]. destruct (negb _); [discriminate E|]. destruct (shift s f t i v) as [s1|] eqn:H; [|discriminate E]. assert (E' : s' = emit s1 (ESingle x f t i v)) by congruence. clear E. subst s'.
    destruct (shift_effect _ _ _ _ _ _ H) as (V & H1 & H2 & H3 & H4 & H5 & H6). destruct (H6 A) as [N T]. apply (sane_moved s); auto.
    + intros j u _. cbn [got1 gave1]. apply H5.
    + intros j u. rewrite H5. destruct (bytes_eqb_spec u f) as [->|]; cbn [andb]; [|destruct (_ && _); specialize (B j u); lia]. specialize (B j f). destruct (Z.eqb_spec i j) as [->|]; destruct (bytes_eqb f t); cbn [andb]; lia.
    + intros j u K. rewrite H5, (C j u K). destruct (Z.eqb_spec i j) as [->|]; [rewrite (C j f K) in V|]; destruct (bytes_eqb u t), (bytes_eqb u f); cbn [andb]; lia.
  - destruct (bytes_eqb t ZERO_ADDRESS); [discriminate E|]. destruct (negb _); [discriminate E|]. destruct (negb _); [discriminate E|]. destruct (shift_all s f t (combine ids vs)) as [s1|] eqn:H; [|discriminate E]. destruct (rlp_list ids) as [a|]; [|discriminate E]. destruct (rlp_list vs) as [b|]; [|discriminate E].
    assert (E' : s' = emit s1 (EBatch x f t a b (combine ids vs))) by congruence. clear E. subst s'. destruct (all_effect _ _ _ _ _ H) as (V & H1 & H2 & H3 & H4 & H5 & H6). destruct (H6 A) as [N T].
    assert (W : f <> t -> forall j, want (combine ids vs) j <= mbal s j f) by (intros Ft; eapply all_needs; [exact Ft|intros j; apply B|exact H]).
    apply (sane_moved s); auto.
    + intros j u _. cbn [got1 gave1]. apply H5.
    + intros j u. rewrite H5. specialize (B j u). pose proof (want_nonneg _ j V). destruct (bytes_eqb_spec u f) as [->|]; [|destruct (bytes_eqb u t); lia]. destruct (bytes_eqb_spec f t) as [|Ft]; [lia|]. specialize (W Ft j). lia.
    + intros j u K. rewrite H5, (C j u K). pose proof (want_nonneg _ j V). destruct (bytes_eqb_spec f t) as [->|Ft]; [destruct (bytes_eqb u t); lia|]. specialize (W Ft j). rewrite (C j f K) in W. destruct (bytes_eqb u t), (bytes_eqb u f); lia.
  - injection E as <-. unfold sane, approved. cbn [emit m_bal m_ops m_creator m_ev]. split; [exact A|]. split; [exact B|]. split; [exact C|]. split; [|split; [|exact F]].
    + intros i u Nu. rewrite replay_snoc, <- (D i u Nu). cbn [got1 gave1]. rewrite Z.add_0_r, Z.sub_0_r. reflexivity.
    + intros o p. rewrite last_snoc, <- Ap. cbn [last_approval]. destruct (bytes_eqb_spec o x) as [->|]; cbn [andb]; [destruct (bytes_eqb_spec p op) as [->|]|].
      * rewrite (aput_same _ opkey_eq). reflexivity.
      * rewrite (aput_other _ opkey_eq) by congruence. reflexivity.
      * rewrite (aput_other _ opkey_eq) by congruence. reflexivity.
  - destruct (aget Z.eqb i (m_creator s)) as [y|] eqn:K; [discriminate E|]. destruct (negb (0 <? v)) eqn:V; [discriminate E|]. destruct (negb (nonempty uri)); [discriminate E|].
    assert (E' : s' = MToken (aput idkey_eqb (i, x) v (m_bal s)) (m_ops s) (aput Z.eqb i uri (m_uri s)) (aput Z.eqb i x (m_creator s)) (m_ev s ++ [ESingle x ZERO_ADDRESS x i v])) by (symmetry in E; injection E; intros ->; reflexivity). clear E.
    assert (M : forall j u, mbal s' j u = if (i =? j) && bytes_eqb u x then v else mbal s j u) by (intros j u; rewrite E'; apply (mbal_set s)).
    assert (Cr : forall j, aget Z.eqb j (m_creator s') = None -> j <> i /\ aget Z.eqb j (m_creator s) = None). { intros j. rewrite E'. cbn [m_creator]. intros X. assert (j <> i) by (intros ->; rewrite (aput_same _ zeqb_eq) in X; discriminate X). rewrite (aput_other _ zeqb_eq) in X by assumption. auto. }
    split; [rewrite E'; apply aput_nodup; [exact idkey_eq|exact A]|]. split; [intros j u; rewrite M; specialize (B j u); destruct (_ && _); lia|]. split; [|split; [|split]].
    + intros j u X. destruct (Cr j X) as [Nj X']. rewrite M, (C j u X'). destruct (Z.eqb_spec i j); [congruence|reflexivity].
    + intros j u Nu. rewrite M. replace (m_ev s') with (m_ev s ++ [ESingle x ZERO_ADDRESS x i v]) by (rewrite E'; reflexivity). rewrite replay_snoc, <- (D j u Nu). cbn [got1 gave1]. destruct (bytes_eqb_spec u ZERO_ADDRESS); [contradiction|]. cbn [andb]. destruct (Z.eqb_spec i j) as [->|]; cbn [andb]; [|destruct (bytes_eqb u x); cbn [andb]; lia]. destruct (bytes_eqb u x); cbn [andb]; [rewrite (C j u K)|]; lia.
    + intros o p. rewrite E'. unfold approved. cbn [m_ops m_ev]. rewrite last_snoc. cbn [last_approval]. apply Ap.
    + intros j X. destruct (Cr j X) as [Nj X']. rewrite E'. cbn [m_bal]. rewrite total_put by exact A. rewrite (F j X'). destruct (Z.eqb_spec i j); [congruence|lia].
  - destruct (aget Z.eqb i (m_creator s)) as [y|] eqn:K; [|discriminate E]. destruct (negb (0 <? v)) eqn:V; [discriminate E|]. destruct (_ && _) eqn:W in E; [|discriminate E]. assert (E' : s' = emit (set_bal s i x (mbal s i x - v)) (ESingle x x ZERO_ADDRESS i v)) by congruence. clear E. subst s'.
    apply (sane_moved s); auto.
    + apply aput_nodup; [exact idkey_eq|exact A].
    + intros j X. cbn [set_bal m_bal]. rewrite total_put by exact A. destruct (Z.eqb_spec i j); [congruence|lia].
    + intros j u Nu. rewrite mbal_set. cbn [got1 gave1]. destruct (bytes_eqb_spec u ZERO_ADDRESS); [contradiction|]. cbn [andb]. destruct (Z.eqb_spec i j) as [->|]; cbn [andb]; destruct (bytes_eqb_spec u x) as [->|]; cbn [andb]; lia.
    + intros j u. rewrite mbal_set. specialize (B j u). destruct ((i =? j) && bytes_eqb u x); [idtac|idtac]; apply andb_prop in W as [W1 W2]; lia.
    + intros j u X. rewrite mbal_set, (C j u X). destruct (Z.eqb_spec i j); [congruence|reflexivity].
  - destruct (aget Z.eqb i (m_creator s)) as [y|] eqn:K; [|discriminate E]. destruct (bytes_eqb y x); [|discriminate E]. destruct (nonempty uri); [|discriminate E]. injection E as <-. exact S.
Qed.
Lemma run_sane : forall cs s, sane s -> Forall (fun c => caller c <> ZERO_ADDRESS) cs -> sane (mrun s cs).
Proof.
  induction cs as [|c cs IH]; intros s S F; [exact S|]. inversion F as [|? ? A B]; subst. cbn [mrun fold_left]. apply IH; [|exact B]. unfold mstep. destruct (mdo s c) eqn:E; [|exact S]. exact (do_sane c s _ S A E).
Qed.
Lemma do_total : forall c s s' id, sane s -> mdo s c = Some s' -> total (m_bal s') id = total (m_bal s) id + match c with MMint _ i v _ => if i =? id then v else 0 | MBurn _ i v => if i =? id then - v else 0 | _ => 0 end.
Proof.
  intros c s s' id (A & B & C & D & Ap & F) E. destruct c as [x f t i v|x f t ids vs|x op yes|x i v uri|x i v|x i uri]; cbn [mdo] in *.
  - destruct (bytes_eqb t ZERO_ADDRESS); [discriminate E|]. destruct (negb _); [discriminate E|]. destruct (shift s f t i v) as [s1|] eqn:H; [|discriminate E]. injection E as <-. cbn [emit m_bal]. destruct (shift_effect _ _ _ _ _ _ H) as (_ & _ & _ & _ & _ & _ & X). rewrite (proj2 (X A)). lia.
  - destruct (bytes_eqb t ZERO_ADDRESS); [discriminate E|]. destruct (negb _); [discriminate E|]. destruct (negb _); [discriminate E|]. destruct (shift_all s f t (combine ids vs)) as [s1|] eqn:H; [|discriminate E]. destruct (rlp_list ids) as [a|]; [|discriminate E]. destruct (rlp_list vs) as [b|]; [|discriminate E]. injection E as <-. cbn [emit m_bal]. destruct (all_effect _ _ _ _ _ H) as (_ & _ & _ & _ & _ & _ & X). rewrite (proj2 (X A)). lia.
  - injection E as <-. cbn [emit m_bal]. lia.
  - destruct (aget Z.eqb i (m_creator s)) as [y|] eqn:K; [discriminate E|]. destruct (negb (0 <? v)); [discriminate E|]. destruct (negb (nonempty uri)); [discriminate E|]. assert (E' : m_bal s' = aput idkey_eqb (i, x) v (m_bal s)) by (injection E as <-; reflexivity). rewrite E', total_put by exact A. fold (mbal s i x). rewrite (C i x K). destruct (i =? id); lia.
  - destruct (aget Z.eqb i (m_creator s)) as [y|] eqn:K; [|discriminate E]. destruct (negb (0 <? v)); [discriminate E|]. destruct (_ && _) in E; [|discriminate E]. injection E as <-. cbn [emit set_bal m_bal]. rewrite total_put by exact A. fold (mbal s i x). destruct (i =? id); lia.
  - destruct (aget Z.eqb i (m_creator s)) as [y|] eqn:K; [|discriminate E]. destruct (bytes_eqb y x); [|discriminate E]. destruct (nonempty uri); [|discriminate E]. injection E as <-. cbn [m_bal]. lia.
Qed.
(** * Trees *)
Section TREES.
Variable is_contract : bytes -> bool.
Fixpoint runs (l : list mtree) (s : mtoken) : mtoken := match l with [] => s | x :: r => runs r (match mexec is_contract x s with Some s' => s' | None => s end) end.
Lemma mexec_eq : forall c l ok s, mexec is_contract (MCalls c l ok) s = match mdo s c with None => None | Some s1 => if told is_contract c then if ok then Some (runs l s1) else None else Some s1 end.
Proof. reflexivity. Qed.
Lemma mtree_ind2 : forall P : mtree -> Prop, (forall c l ok, Forall P l -> P (MCalls c l ok)) -> forall t, P t.
Proof. intros P A. fix IH 1. intros [c l ok]. apply A. induction l as [|x l IL]; constructor; [apply IH|exact IL]. Qed.
Lemma mrun_app : forall s a b, mrun s (a ++ b) = mrun (mrun s a) b.
Proof. intros. apply fold_left_app. Qed.
Lemma mexec_flat : forall t s s', mexec is_contract t s = Some s' -> exists cs, s' = mrun s cs /\ forall c, In c cs -> occurs c t.
Proof.
  apply (mtree_ind2 (fun t => forall s s', mexec is_contract t s = Some s' -> exists cs, s' = mrun s cs /\ forall c, In c cs -> occurs c t)). intros c l ok IL s s' E. rewrite mexec_eq in E. destruct (mdo s c) as [s1|] eqn:D; [|discriminate E].
  assert (R : forall l, Forall (fun t => forall s s', mexec is_contract t s = Some s' -> exists cs, s' = mrun s cs /\ forall c, In c cs -> occurs c t) l -> forall s, exists cs, runs l s = mrun s cs /\ forall c, In c cs -> exists x, In x l /\ occurs c x).
  { clear. induction l as [|x l IH]; intros F s; [exists []; split; [reflexivity|intros c []]|]. inversion F as [|? ? A B]; subst. cbn [runs]. destruct (mexec is_contract x s) as [s1|] eqn:E.
    - destruct (A s s1 E) as (a & -> & Oa). destruct (IH B (mrun s a)) as (b & -> & Ob). exists (a ++ b). split; [symmetry; apply mrun_app|]. intros c I. apply in_app_or in I as [I|I]; [exists x; split; [left; reflexivity|apply Oa, I]|]. destruct (Ob c I) as (y & Iy & O). exists y. split; [right; exact Iy|exact O].
    - destruct (IH B s) as (b & -> & Ob). exists b. split; [reflexivity|]. intros c I. destruct (Ob c I) as (y & Iy & O). exists y. split; [right; exact Iy|exact O]. }
  assert (One : s1 = mrun s [c]) by (cbn [mrun fold_left]; unfold mstep; rewrite D; reflexivity).
  destruct (told is_contract c); [destruct ok; [|discriminate E]|].
  - destruct (R l IL s1) as (cs & Er & O). exists (c :: cs). split; [|intros d [<-|I]; [apply O_here|destruct (O d I) as (x & Ix & Ox); eapply O_in; eauto]]. assert (E' : s' = runs l s1) by congruence. rewrite E', Er, One. symmetry. apply (mrun_app s [c] cs).
  - exists [c]. split; [congruence|]. intros d [<-|[]]. apply O_here.
Qed.
End TREES.
