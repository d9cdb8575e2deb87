From Coq Require Import ZArith List Bool Lia.
From Verif Require Import Base L_Base GoStr M_JMap L_JMap M_DappSample S_DappSample.
Import ListNotations.
Open Scope Z_scope.
Local Notation bytes := (list Z).

Lemma zspec : key_spec Z.eqb.
Proof. intros a b. apply Z.eqb_eq. Qed.

Section DAPP.
Context (java : bool) (svc own : bytes) (enc : Z -> bytes -> bytes) (dec : bytes -> option (Z * bytes)) (H : bytes -> bytes).
Notation exec := (xexec java svc own enc dec H).
Notation hd_ := (handle java svc own dec H).
Notation sam := (same java H).

Section KEEP.
  Variable Q : list Z -> dapp -> Prop.
  Hypothesis k_handle : forall R s c f d s', Q R s -> hd_ s c f d = Some s' -> Q R s'.
  Hypothesis k_one : forall R s to d, Q R s -> Q R (xnote (XSent to d []) s).
  Hypothesis k_start : forall R s to d r, Q R s -> Q (x_last s + 1 :: R) (xnote (XSent to d (enc (x_last s + 1) r)) (Dapp (x_last s + 1) (x_rb s) (x_log s))).
  Hypothesis k_end : forall R s id r sn, Q (id :: R) s -> Q R (xnote (XStored id r sn) (Dapp (x_last s) (aput Z.eqb id (r, sn) (x_rb s)) (x_log s))).
  Fixpoint xexec_keeps (t : xtree) : forall R s s', Q R s -> exec t s = Some s' -> Q R s'.
  Proof.
    destruct t as [c nested]. intros R s s' HQ E.
    assert (G : forall R s1, Q R s1 -> Q R ((fix runs (l : list xtree) (s : dapp) : dapp := match l with [] => s | x :: r => runs r (match exec x s with Some s' => s' | None => s end) end) nested s1)).
    { clear - xexec_keeps. induction nested as [|x r IH]; intros R s1 Q1; [exact Q1|]. apply IH. destruct (exec x s1) as [s2|] eqn:E; [|exact Q1]. exact (xexec_keeps x _ _ _ Q1 E). }
    destruct c as [to data rb answer|caller from data]; cbn [xexec] in E.
    - destruct (two_way java rb) as [r|].
      + cbv zeta in E. destruct answer as [sn|]; [|discriminate].
        match type of E with Some ?w = Some _ => assert (Es : s' = w) by congruence end. rewrite Es. apply k_end. apply G. apply k_start. exact HQ.
      + cbv zeta in E. destruct answer as [sn|]; [|discriminate].
        match type of E with Some ?w = Some _ => assert (Es : s' = w) by congruence end. rewrite Es. apply G. apply k_one. exact HQ.
    - eapply k_handle; eassumption.
  Qed.
  Lemma xtrees_keep : forall l R s, Q R s -> Q R (xtrees java svc own enc dec H s l).
  Proof.
    unfold xtrees. induction l as [|t l IH]; intros R s HQ; [exact HQ|]. cbn [fold_left]. apply IH.
    destruct (exec t s) as [s'|] eqn:E; [|exact HQ]. exact (xexec_keeps t _ _ _ HQ E).
  Qed.
End KEEP.

(** What an entry says about what was before *)
Definition fair (e : xentry) (before : list xentry) : Prop :=
  match e with
  | XBack id from sn r =>
      sam own from = true /\
      match waiting id before with
      | Some (r', sn') => sam r r' = true /\ sn = sn'
      | None => java = false /\ H r = H [] /\ sn = 0
      end
  | XMessage from data => sam own from = false /\ data <> REVERT_MESSAGE
  | _ => True
  end.
Fixpoint all_fair (l : list xentry) : Prop := match l with [] => True | e :: r => fair e r /\ all_fair r end.
Lemma all_fair_split : forall l, all_fair l -> forall after e before, l = after ++ e :: before -> fair e before.
Proof.
  induction l as [|x l IH]; intros F after e before E; [destruct after; discriminate|].
  destruct F as [F1 F2]. destruct after as [|y after]; cbn [app] in E.
  - assert (x = e) by congruence. assert (l = before) by congruence. subst. exact F1.
  - assert (l = after ++ e :: before) by congruence. eapply IH; eassumption.
Qed.
Record good (R : list Z) (s : dapp) : Prop := {
  g_keys : NoDup (map fst (x_rb s));
  g_waiting : forall id, aget Z.eqb id (x_rb s) = waiting id (x_log s);
  g_ids : NoDup (R ++ stored_ids (x_log s));
  g_last : forall id, In id (R ++ stored_ids (x_log s)) -> 0 < id <= x_last s;
  g_pos : 0 <= x_last s;
  g_fair : all_fair (x_log s) }.
Ltac flat := unfold xnote in *; cbn [x_last x_rb x_log stored_ids waiting all_fair fair] in *.
Lemma same_refl : forall a, sam a a = true.
Proof. intros a. unfold same. destruct java; apply bytes_eqb_refl. Qed.
Lemma good_handle : forall R s c f d s', good R s -> hd_ s c f d = Some s' -> good R s'.
Proof.
  intros R s c f d s' G E. unfold handle in E. destruct (negb (bytes_eqb c svc)); [discriminate|].
  destruct (sam own f) eqn:F.
  - destruct (dec d) as [[id r]|]; [|discriminate]. destruct (aget Z.eqb id (x_rb s)) as [[r' sn]|] eqn:A.
    + destruct (sam r r') eqn:S; [|discriminate]. match type of E with Some ?w = Some _ => assert (Es : s' = w) by congruence end. subst s'. clear E.
      destruct G. constructor; flat; auto.
      * apply (adel_nodup _ zspec). exact g_keys0.
      * intros id'. destruct (Z.eq_dec id id') as [En|N].
        -- subst. apply (adel_same _ zspec). exact g_keys0.
        -- rewrite (adel_other _ zspec) by (auto; exact g_keys0). apply g_waiting0.
      * split; [|exact g_fair0]. split; [exact F|]. rewrite <- g_waiting0, A. split; [exact S|reflexivity].
    + destruct java eqn:J; [discriminate|]. destruct (same false H r []) eqn:S; [|discriminate].
      match type of E with Some ?w = Some _ => assert (Es : s' = w) by congruence end. subst s'. clear E.
      destruct G. constructor; flat; auto.
      * intros id'. rewrite g_waiting0. destruct (Z.eq_dec id id') as [En|N]; [|reflexivity]. subst. rewrite <- g_waiting0. exact A.
      * split; [|exact g_fair0]. split; [rewrite J; exact F|]. rewrite <- g_waiting0, A. split; [exact J|]. split; [|reflexivity]. unfold same in S. apply bytes_eqb_eq in S. exact S.
  - destruct (sam REVERT_MESSAGE d) eqn:V; [discriminate|]. match type of E with Some ?w = Some _ => assert (Es : s' = w) by congruence end. subst s'. clear E.
    destruct G. constructor; flat; auto. split; [|exact g_fair0]. split; [exact F|]. intros X. subst d. rewrite same_refl in V. discriminate.
Qed.
Lemma good_one : forall R s to d, good R s -> good R (xnote (XSent to d []) s).
Proof. intros R s to d G. destruct G. constructor; flat; auto. Qed.
Lemma good_start : forall R s to d r, good R s -> good (x_last s + 1 :: R) (xnote (XSent to d (enc (x_last s + 1) r)) (Dapp (x_last s + 1) (x_rb s) (x_log s))).
Proof.
  intros R s to d r G. destruct G. constructor; flat; auto; try lia.
  - cbn [app]. constructor; [|exact g_ids0]. intros I. apply g_last0 in I. lia.
  - intros id [I|I]; [lia|]. apply g_last0 in I. lia.
Qed.
Lemma good_end : forall R s id r sn, good (id :: R) s -> good R (xnote (XStored id r sn) (Dapp (x_last s) (aput Z.eqb id (r, sn) (x_rb s)) (x_log s))).
Proof.
  intros R s id r sn G. destruct G. constructor; flat; auto.
  - apply (aput_nodup _ zspec). exact g_keys0.
  - intros id'. destruct (Z.eq_dec id id') as [En|N]; [subst; apply (aput_same _ zspec)|]. rewrite (aput_other _ zspec) by auto. apply g_waiting0.
  - apply NoDup_Add with (a := id) (l := R ++ stored_ids (x_log s)); [apply Add_app|]. cbn [app] in g_ids0. inversion g_ids0. auto.
  - intros id' I. apply g_last0. cbn [app]. apply in_app_iff in I. destruct I as [I|[I|I]]; [right; apply in_app_iff; left; exact I|left; exact I|right; apply in_app_iff; right; exact I].
Qed.
Lemma good_installed : good [] dapp_installed.
Proof. constructor; cbn; auto; try constructor; try lia; intros id []. Qed.
Lemma good_always : forall l, good [] (xtrees java svc own enc dec H dapp_installed l).
Proof. intros l. apply xtrees_keep; [apply good_handle|apply good_one|apply good_start|apply good_end|apply good_installed]. Qed.
Lemma waiting_stored : forall id l r sn, waiting id l = Some (r, sn) -> exists after before, l = after ++ XStored id r sn :: before /\ ~ back id after.
Proof.
  induction l as [|e l IH]; intros r sn W; [discriminate|].
  assert (K : waiting id l = Some (r, sn) -> (forall f n q, e <> XBack id f n q) -> exists after before, e :: l = after ++ XStored id r sn :: before /\ ~ back id after).
  { intros W' N. destruct (IH _ _ W') as (a & b & E & NB). exists (e :: a), b. split; [rewrite E; reflexivity|]. intros (f & n & q & [I|I]); [apply (N f n q); exact I|apply NB; exists f, n, q; exact I]. }
  destruct e as [to d rb|i r' sn'|i f sn' r'|f d]; cbn [waiting] in W.
  - apply K; [exact W|congruence].
  - destruct (Z.eq_dec i id) as [En|Nn]; [|apply K; [exact W|congruence]]. assert (r' = r) by congruence. assert (sn' = sn) by congruence. subst.
    exists [], l. split; [reflexivity|]. intros (f & n & q & []).
  - destruct (Z.eq_dec i id) as [En|Nn]; [discriminate|]. apply K; [exact W|congruence].
  - apply K; [exact W|congruence].
Qed.
Lemma stored_ids_app : forall a b, stored_ids (a ++ b) = stored_ids a ++ stored_ids b.
Proof. induction a as [|e a IH]; intros b; [reflexivity|]. destruct e; cbn [app stored_ids]; rewrite ?IH; reflexivity. Qed.
End DAPP.
