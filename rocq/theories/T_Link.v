(** Theorems about the link: C35, C36, C37. *)
From Coq Require Import ZArith List Bool Lia.
From Coq Require Import ZifyBool.
From Verif Require Import Base L_Base M_Link S_Link.
Import ListNotations.
Open Scope Z_scope.

Definition st_of (o : out) : st := match o with ROk s | RErr s | RPanic s | RSpin s => s end.
Lemma st_of_ignore : forall o, st_of (ignore o) = st_of o.
Proof. intros []; reflexivity. Qed.

Lemma chain_app : forall b a c, chain b a c -> forall a' d, chain c a' d -> chain b (a ++ a') d.
Proof. induction 1 as [|b x c r d HM HC IH]; intros a' e H; [exact H|]. cbn [app]. econstructor; [exact HM|apply IH; exact H]. Qed.
Lemma chain_snoc : forall b a c x d, chain b a c -> moves c x d -> chain b (a ++ [x]) d.
Proof. intros. eapply chain_app; [eassumption|]. econstructor; [eassumption|constructor]. Qed.
Lemma moves_next : forall b x c, moves b x c -> c = it_next x.
Proof. intros b x c []; reflexivity. Qed.

Lemma app_last_concat : forall ls x r, app_last ls x = Some r -> concat r = concat ls ++ [x].
Proof.
  induction ls as [|l ls IH]; intros x r E; [discriminate|]. cbn [app_last] in E. destruct ls as [|l2 ls].
  - assert (r = [l ++ [x]]) by congruence. subst. cbn [concat]. rewrite !app_nil_r. reflexivity.
  - destruct (app_last (l2 :: ls) x) as [r'|] eqn:EL; [|discriminate]. assert (r = l :: r') by congruence. subst. cbn [concat]. specialize (IH _ _ EL). rewrite IH. cbn [concat]. rewrite <- !app_assoc. reflexivity.
Qed.
Lemma app_last_ne : forall ls x r, app_last ls x = Some r -> r <> [].
Proof. intros [|l [|l2 ls]] x r E; cbn [app_last] in E; try discriminate; [congruence|]. destruct (match ls with [] => _ | _ => _ end); congruence. Qed.
Lemma set_nth_same : forall A (l : list A) n x d, (n < length l)%nat -> nth n (set_nth l n x) d = x.
Proof. induction l as [|y l IH]; intros [|n] x d H; cbn [length] in H; try lia; [reflexivity|]. cbn [set_nth nth]. apply IH. lia. Qed.
Lemma set_nth_length : forall A (l : list A) n x, length (set_nth l n x) = length l.
Proof. induction l as [|y l IH]; intros [|n] x; cbn [set_nth length]; auto. Qed.

Section LINK.
Variable R : receiver.
Variable TxSizeLimit limitSize : Z.
Variable rand : nat -> Z.
Notation sendRM := (sendRelayMessage R rand).
Notation bmp := (buildMessageProof R limitSize).
Notation bbp := (buildBlockProof R).
Notation ploop := (proof_loop R TxSizeLimit limitSize rand).
Notation bproof := (buildProof R TxSizeLimit limitSize rand).
Notation uloop := (update_loop R TxSizeLimit limitSize rand).
Notation brm := (BuildRelayMessage R TxSizeLimit limitSize rand).

(** [n]: what had been sent at the start. *)
Definition Inv (b : bls) (p : nat) (n : list rmsg) (s : st) : Prop :=
  (p < length (heap s))%nat /\ exists new, sent s = n ++ new /\ chain b (flat_map rm_items new ++ concat (rmis s)) (getb s p).

(** What sending does. *)
Lemma append_loop_spec : forall p ls s s' ms, append_loop R rand p ls s = (s', Some ms) ->
  heap s' = heap s /\ rms s' = rms s /\ rss s' = rss s /\ sent s' = sent s /\ flat_map rm_items ms = concat ls /\ map rm_items ms = ls /\ Forall (fun m => rm_bls m = p) ms.
Proof.
  induction ls as [|l ls IH]; intros s s' ms E; cbn [append_loop] in E.
  - assert (s' = s) by congruence. assert (ms = []) by congruence. subst. repeat split; constructor.
  - destruct (r_msg R (clk s) l) as [m|]; [|discriminate]. destruct (append_loop R rand p ls (tick (tick (tick s)))) as [s1 [ms1|]] eqn:EL; [|discriminate].
    specialize (IH _ _ _ EL). cbn [heap rms rss sent tick] in IH. destruct IH as (H1 & H2 & H3 & H4 & H5 & H7 & H6).
    assert (s' = s1) by congruence. assert (EM : ms = mkRmsg (rand (clk (tick s))) p (r_hfs R (clk (tick (tick s))) (RxSeq (getb (tick (tick s)) p))) m l :: ms1) by congruence. subst s' ms.
    cbn [flat_map concat rm_items map]. rewrite H5, H7. repeat split; auto.
Qed.
Lemma append_loop_err : forall p ls s s', append_loop R rand p ls s = (s', None) -> heap s' = heap s /\ rms s' = rms s /\ rss s' = rss s /\ sent s' = sent s /\ rmis s' = rmis s /\ size s' = size s.
Proof.
  induction ls as [|l ls IH]; intros s s' E; cbn [append_loop] in E; [discriminate|].
  destruct (r_msg R (clk s) l) as [m|]; [|assert (s' = tick s) by congruence; subst; repeat split].
  destruct (append_loop R rand p ls (tick (tick (tick s)))) as [s1 [ms1|]] eqn:EL; [discriminate|]. assert (s' = s1) by congruence. subst. specialize (IH _ _ EL). exact IH.
Qed.
Lemma fold_sent : forall ms s, let s' := fold_left (fun s m => add_sent m s) ms s in
  heap s' = heap s /\ rms s' = rms s ++ ms /\ rss s' = rss s /\ sent s' = sent s ++ ms /\ rmis s' = rmis s /\ size s' = size s.
Proof.
  induction ms as [|m ms IH]; intros s; cbn [fold_left]; [rewrite !app_nil_r; repeat split|]. destruct (IH (add_sent m s)) as (H1 & H2 & H3 & H4 & H5 & H6). cbn zeta in *.
  rewrite H1, H2, H3, H4, H5, H6. cbn [add_sent heap rms rss sent rmis size]. rewrite <- !app_assoc. repeat split.
Qed.
Lemma send_ok : forall p s s', sendRM p s = ROk s' -> exists ms, heap s' = heap s /\ rms s' = rms s ++ ms /\ rss s' = rss s /\ sent s' = sent s ++ ms /\ rmis s' = [] /\ size s' = 0 /\
  map rm_items ms = rmis s /\ flat_map rm_items ms = concat (rmis s) /\ Forall (fun m => rm_bls m = p) ms.
Proof.
  intros p s s' E. unfold sendRelayMessage, appendRelayMessage in E. destruct (append_loop R rand p (rmis s) s) as [s1 [ms|]] eqn:EL; [|discriminate].
  destruct (append_loop_spec _ _ _ _ _ EL) as (H1 & H2 & H3 & H4 & H5 & H7 & H6). assert (s' = fold_left (fun s m => add_sent m s) ms (set_rmis [] 0 s1)) by congruence. subst s'. exists ms.
  destruct (fold_sent ms (set_rmis [] 0 s1)) as (G1 & G2 & G3 & G4 & G5 & G6). cbn zeta in *. rewrite G1, G2, G3, G4, G5, G6. cbn [set_rmis heap rms rss sent rmis size]. rewrite H1, H2, H3, H4. repeat split; auto.
Qed.
Lemma send_err : forall p s s', sendRM p s = RErr s' -> heap s' = heap s /\ rms s' = rms s /\ rss s' = rss s /\ sent s' = sent s /\ rmis s' = rmis s /\ size s' = size s.
Proof.
  intros p s s' E. unfold sendRelayMessage, appendRelayMessage in E. destruct (append_loop R rand p (rmis s) s) as [s1 [ms|]] eqn:EL; [discriminate|].
  assert (s' = s1) by congruence. subst. apply (append_loop_err _ _ _ _ EL).
Qed.
Lemma send_cases : forall p s, exists s', sendRM p s = ROk s' \/ sendRM p s = RErr s'.
Proof. intros p s. unfold sendRelayMessage. destruct (appendRelayMessage R rand p s) as [s' [ms|]]; eexists; auto. Qed.

Lemma Inv_ext : forall b p n s s', heap s' = heap s -> sent s' = sent s -> concat (rmis s') = concat (rmis s) -> Inv b p n s -> Inv b p n s'.
Proof. intros b p n s s' H1 H2 H3 (A & C). unfold Inv, getb in *. rewrite H1, H2, H3. auto. Qed.
Lemma Inv_send : forall b p n s, Inv b p n s -> Inv b p n (st_of (sendRM p s)).
Proof.
  intros b p n s HI. destruct (send_cases p s) as [s' [E|E]]; rewrite E; cbn [st_of].
  - destruct (send_ok _ _ _ E) as (ms & H1 & _ & _ & H4 & H5 & _ & _ & H6 & _). destruct HI as (A & new & B & C). unfold Inv, getb in *. rewrite H1, H4, H5. split; [assumption|].
    exists (new ++ ms). split; [rewrite B, app_assoc; reflexivity|]. cbn [concat]. rewrite app_nil_r, flat_map_app, H6. exact C.
  - destruct (send_err _ _ _ E) as (H1 & _ & _ & H4 & H5 & _). apply (Inv_ext b p n s); auto. congruence.
Qed.
Lemma Inv_append : forall b p n s x, Inv b p n s -> moves (getb s p) x (it_next x) ->
  forall s', append_item x s = ROk s' -> Inv b p n (set_bls p (it_next x) s').
Proof.
  intros b p n s x (A & new & B & C) HM s' E. unfold append_item in E. destruct (app_last (rmis s) x) as [r|] eqn:EL; [|discriminate].
  assert (s' = set_rmis r (size s + it_len x) s) by congruence. subst s'. unfold Inv, getb in *. cbn [set_bls set_rmis heap sent rmis]. rewrite set_nth_length. split; auto. exists new. split; [exact B|].
  rewrite set_nth_same by assumption. rewrite (app_last_concat _ _ _ EL), app_assoc. eapply chain_snoc; eassumption.
Qed.
Lemma append_item_cases : forall x s, append_item x s = RPanic s /\ rmis s = [] \/ exists s', append_item x s = ROk s' /\ heap s' = heap s /\ rmis s' <> [] /\ rmis s <> [] /\ rss s' = rss s /\ sent s' = sent s.
Proof.
  intros x s. unfold append_item. destruct (app_last (rmis s) x) as [r|] eqn:E.
  - right. eexists. split; [reflexivity|]. cbn [set_rmis heap rmis rss sent]. repeat split; auto; [apply (app_last_ne _ _ _ E)|]. intros H. rewrite H in E. discriminate.
  - left. split; [reflexivity|]. clear - E. induction (rmis s) as [|l ls IH]; [reflexivity|]. cbn [app_last] in E. destruct ls as [|l2 ls]; [discriminate|].
    destruct (app_last (l2 :: ls) x); [discriminate|]. specialize (IH E). discriminate.
Qed.

Section CHAIN.
Hypothesis HR : honest R.
Variables (b : bls) (n : list rmsg).

Lemma Inv_bmp : forall p s, Inv b p n s -> Inv b p n (st_of (bmp p s)).
Proof.
  intros p s HI. unfold buildMessageProof. destruct (r_mp R (clk s) (getb s p) (limitSize - size s)) as [[x|]|er|] eqn:E; cbn [st_of]; try (apply (Inv_ext b p n s); auto; reflexivity).
  assert (HI' : Inv b p n (tick s)) by (apply (Inv_ext b p n s); auto). destruct HR as (_ & _ & HMP). pose proof (HMP _ _ _ _ E) as HM.
  destruct (append_item_cases x (tick s)) as [[-> _]|(s' & ES & _)]; [exact HI'|]. rewrite ES. cbn [obind UpdateBMCLinkStatus st_of]. apply (Inv_append b p n (tick s)); auto.
Qed.
Lemma Inv_bbp : forall p h s, Inv b p n s -> Inv b p n (st_of (bbp p h s)).
Proof.
  intros p h s HI. unfold buildBlockProof. destruct (r_bp R (clk s) (getb s p) h) as [[x|]|] eqn:E; cbn [st_of]; try (apply (Inv_ext b p n s); auto; reflexivity).
  assert (HI' : Inv b p n (tick s)) by (apply (Inv_ext b p n s); auto). destruct HR as (_ & HBP & _). pose proof (HBP _ _ _ _ E) as HM.
  destruct (append_item_cases x (tick s)) as [[-> _]|(s' & ES & _)]; [exact HI'|]. rewrite ES. cbn [obind UpdateBMCLinkStatus st_of]. apply (Inv_append b p n (tick s)); auto.
Qed.
Lemma Inv_bind : forall p o f, Inv b p n (st_of o) -> (forall s, Inv b p n s -> Inv b p n (st_of (f s))) -> Inv b p n (st_of (obind o f)).
Proof. intros p [s|s|s|s] f H HF; cbn [obind st_of] in *; auto. Qed.
Lemma Inv_over : forall p s, Inv b p n s -> Inv b p n (fst (isOverLimit TxSizeLimit s)).
Proof.
  intros p s HI. unfold isOverLimit. destruct (TxSizeLimit <? size s); [|exact HI]. cbn [fst]. apply (Inv_ext b p n s); auto.
  unfold createRelayMessageItem. cbn [set_rmis rmis]. rewrite concat_app. cbn [concat]. rewrite !app_nil_r. reflexivity.
Qed.
Lemma Inv_ploop : forall fuel p bu seq s, Inv b p n s -> Inv b p n (st_of (ploop fuel p bu seq s)).
Proof.
  induction fuel as [|f IH]; intros p bu seq s HI; cbn [proof_loop]; [exact HI|]. destruct (seq <=? RxSeq (getb s p)); [exact HI|].
  pose proof (Inv_over p s HI) as HO. destruct (isOverLimit TxSizeLimit s) as [s1 over]. cbn [fst] in HO. destruct over.
  - apply Inv_bind; [rewrite st_of_ignore; apply Inv_send; exact HO|]. intros s2 H2. destruct bu as [u|]; [|exact H2].
    apply Inv_bind; [apply Inv_bbp; apply (Inv_ext b p n s2); auto|]. intros s3 H3. apply Inv_bind; [apply Inv_bmp; exact H3|]. intros s4 H4. apply IH. exact H4.
  - apply Inv_bind; [|intros; apply IH; assumption]. apply Inv_bmp. destruct bu as [u|]; [destruct (it_proofHeight u =? -1)|]; auto; apply (Inv_ext b p n s1); auto.
Qed.
Lemma Inv_bproof : forall fuel p bu s, Inv b p n s -> Inv b p n (st_of (bproof fuel p bu s)).
Proof. intros. unfold buildProof. destruct (getReceiveStatusForHeight _ _); [apply Inv_ploop|]; assumption. Qed.
Lemma getHeader_spec : forall fuel p s s1 bus, getHeader R limitSize fuel p s = inr (s1, Some bus) ->
  heap s1 = heap s /\ sent s1 = sent s /\ rmis s1 = rmis s /\ rms s1 = rms s /\ rss s1 = rss s /\ bus <> [] /\ exists t, r_bus R t (getb s p) (limitSize - size s) = Some bus.
Proof.
  induction fuel as [|f IH]; intros p s s1 bus E; cbn [getHeader] in E; [discriminate|]. destruct (r_bus R (clk s) (getb s p) (limitSize - size s)) as [[|x r]|] eqn:EB; [|..|discriminate].
  - destruct (IH _ _ _ _ E) as (H1 & H2 & H3 & H4 & H5 & H6 & t & Ht). cbn [tick heap sent rmis rms rss] in *. repeat split; auto. exists t. exact Ht.
  - assert (s1 = tick s) by congruence. assert (bus = x :: r) by congruence. subst. repeat split; [discriminate|]. exists (clk s). exact EB.
Qed.
Lemma getHeader_other : forall fuel p s s1, getHeader R limitSize fuel p s = inl s1 \/ getHeader R limitSize fuel p s = inr (s1, None) -> heap s1 = heap s /\ sent s1 = sent s /\ rmis s1 = rmis s.
Proof.
  induction fuel as [|f IH]; intros p s s1 E; cbn [getHeader] in E; [destruct E as [E|E]; [|discriminate]; assert (s1 = s) by congruence; subst; auto|].
  destruct (r_bus R (clk s) (getb s p) (limitSize - size s)) as [[|x r]|].
  - destruct (IH _ _ _ E) as (H1 & H2 & H3). auto.
  - destruct E; discriminate.
  - destruct E as [E|E]; [discriminate|]. assert (s1 = tick s) by congruence. subst. auto.
Qed.
Lemma Inv_uloop : forall fuel p bus s, Inv b p n s -> match bus with [] => True | x :: _ => moves (getb s p) x (it_next x) end -> Inv b p n (st_of (uloop fuel p bus s)).
Proof.
  intros fuel p [|x r] s HI HM; cbn [update_loop]; [exact HI|]. destruct (append_item_cases x s) as [[-> _]|(s1 & ES & _)]; [exact HI|]. rewrite ES. cbn [obind UpdateBMCLinkStatus].
  apply Inv_bind; [apply Inv_bproof; apply (Inv_append b p n s); assumption|]. intros s3 H3. pose proof (Inv_send b p n s3 H3) as HS. destruct (send_cases p s3) as [s4 [E|E]]; rewrite E in *; cbn [obind st_of] in *; [|exact HS].
  destruct r as [|y r]; cbn [update_loop]; [exact HS|]. destruct (send_ok _ _ _ E) as (ms & _ & _ & _ & _ & H5 & _). destruct (append_item_cases y s4) as [[-> _]|(s5 & _ & _ & _ & H & _)]; [exact HS|congruence].
Qed.
Lemma Inv_brm : forall fuel p s, Inv b p n s -> Inv b p n (st_of (brm fuel p s)).
Proof.
  intros fuel p s HI. unfold BuildRelayMessage. set (s0 := match rmis s with [] => createRelayMessageItem s | _ => s end).
  assert (H0 : Inv b p n s0). { unfold s0. destruct (rmis s) eqn:E; [|exact HI]. apply (Inv_ext b p n s); auto. unfold createRelayMessageItem. cbn [set_rmis rmis]. rewrite E. reflexivity. }
  destruct (getHeader R limitSize fuel p s0) as [s1|[s1 [bus|]]] eqn:EH; cbn [st_of].
  - destruct (getHeader_other _ _ _ _ (or_introl EH)) as (H1 & H2 & H3). apply (Inv_ext b p n s0); auto. congruence.
  - destruct (getHeader_spec _ _ _ _ _ EH) as (H1 & H2 & H3 & _ & _ & _ & t & Ht). assert (HI1 : Inv b p n s1) by (apply (Inv_ext b p n s0); auto; congruence).
    apply Inv_bind.
    + apply Inv_uloop; [exact HI1|]. destruct bus as [|x r]; [exact I|]. destruct HR as (HB & _). replace (getb s1 p) with (getb s0 p) by (unfold getb; congruence). apply (HB _ _ _ _ _ Ht). left. reflexivity.
    + intros s2 H4. pose proof (Inv_over p s2 H4) as HO. destruct (isOverLimit TxSizeLimit s2) as [s3 over]. cbn [fst] in HO. destruct over; [|exact HO]. rewrite st_of_ignore. apply Inv_send. exact HO.
  - destruct (getHeader_other _ _ _ _ (or_intror EH)) as (H1 & H2 & H3). apply (Inv_ext b p n s0); auto. congruence.
Qed.
End CHAIN.

Notation hdl := (handle R TxSizeLimit limitSize rand).
Notation rn := (run R TxSizeLimit limitSize rand).

Lemma clear_frame : forall b s, heap (clearReceiveStatus b (clearRelayMessage b s)) = heap s /\ sent (clearReceiveStatus b (clearRelayMessage b s)) = sent s /\ rmis (clearReceiveStatus b (clearRelayMessage b s)) = rmis s.
Proof. intros b s. unfold clearReceiveStatus, clearRelayMessage. destruct (clear_rms s b (rms s)); cbn [set_rms rss]; destruct (clear_rss b (rss s)); repeat split. Qed.

Lemma Inv_handle : honest R -> forall b n fuel k e, l_once k = true -> is_result e = false -> Inv b (l_ptr k) n (l_st k) -> Inv b (l_ptr k) n (l_st (hdl fuel k e)) /\ l_ptr (hdl fuel k e) = l_ptr k /\ l_once (hdl fuel k e) = true.
Proof.
  intros HR b n fuel k e HO HE HI. unfold handle. destruct (dead k); [auto|]. destruct e as [r|s|id code stt]; [| |discriminate].
  - destruct (l_receiver k); auto. rewrite HO. cbn [obind]. pose proof (Inv_brm HR b n fuel (l_ptr k) (set_rss (rss (l_st k) ++ [r]) (l_st k))) as X.
    assert (X1 : Inv b (l_ptr k) n (set_rss (rss (l_st k) ++ [r]) (l_st k))) by (apply (Inv_ext b (l_ptr k) n (l_st k)); auto). specialize (X X1).
    destruct (brm fuel (l_ptr k) (set_rss (rss (l_st k) ++ [r]) (l_st k))); cbn [ignore after l_st l_ptr l_once st_of] in *; auto.
  - destruct (l_sender k); auto. cbn [l_st l_ptr l_once]. destruct (clear_frame s (l_st k)) as (H1 & H2 & H3). split; [|auto]. apply (Inv_ext b (l_ptr k) n (l_st k)); auto. congruence.
Qed.
Lemma Inv_run : honest R -> forall b n fuel es k, l_once k = true -> Forall (fun e => is_result e = false) es -> Inv b (l_ptr k) n (l_st k) -> Inv b (l_ptr k) n (l_st (rn fuel k es)) /\ l_ptr (rn fuel k es) = l_ptr k.
Proof.
  intros HR b n fuel. induction es as [|e es IH]; intros k HO HE HI; [auto|]. inversion HE; subst. unfold run in *. cbn [fold_left].
  destruct (Inv_handle HR b n fuel k e HO H1 HI) as (A & B & C). rewrite <- B in *. destruct (IH (hdl fuel k e) C H2 A) as [D E]. auto.
Qed.
End LINK.


(** C35: whatever notifications and statuses come in, in whatever order and with whatever answers of an honest
    receiver, the items relayed (and those still collected) take the status step by step from its first value to its last. *)
Theorem C35_consecutive : forall R TxSizeLimit limitSize rand, honest R -> forall fuel k es,
  l_once k = true -> (l_ptr k < length (heap (l_st k)))%nat -> concat (rmis (l_st k)) = [] -> Forall (fun e => is_result e = false) es ->
  let k' := run R TxSizeLimit limitSize rand fuel k es in
  exists new, sent (l_st k') = sent (l_st k) ++ new /\
    chain (getb (l_st k) (l_ptr k)) (flat_map rm_items new ++ concat (rmis (l_st k'))) (getb (l_st k') (l_ptr k)).
Proof.
  intros R T L rand HR fuel k es HO HP HC HE k'.
  assert (HI : Inv (getb (l_st k) (l_ptr k)) (l_ptr k) (sent (l_st k)) (l_st k)).
  { unfold Inv. split; [exact HP|]. exists []. rewrite app_nil_r. split; [reflexivity|]. cbn [flat_map app]. rewrite HC. constructor. }
  destruct (Inv_run R T L rand HR _ _ fuel es k HO HE HI) as [(_ & new & H1 & H2) H3]. exists new. auto.
Qed.
Print Assumptions C35_consecutive.

(** The message proofs of such a stream cover consecutive ranges, starting right after the received sequence. *)
Fixpoint linked (q : Z) (rs : list (Z * Z)) : Prop := match rs with [] => True | (a, z) :: r => a = q /\ a < z /\ linked z r end.
Lemma last_cons2 : forall (l : list Z) a z, last (a :: l) z = last l a.
Proof. induction l as [|y l IH]; intros a z; [reflexivity|]. change (last (a :: y :: l) z) with (last (y :: l) z). rewrite !IH. reflexivity. Qed.
Theorem C35_ranges : forall b is c, chain b is c -> linked (RxSeq b) (ranges (RxSeq b) is) /\ RxSeq c = last (map snd (ranges (RxSeq b) is)) (RxSeq b) /\ TxSeq c = TxSeq b.
Proof.
  induction 1 as [|b x c r d HM HC IH]; [cbn; auto|]. destruct HM as [b x h HK HN|b x HK HN|b x HK HL HN]; rewrite HN in *; cbn [ranges]; rewrite HK; cbn [RxSeq TxSeq] in *.
  - exact IH.
  - exact IH.
  - destruct IH as (H1 & H2 & H3). cbn [linked map snd]. repeat split; auto. rewrite H2. symmetry. apply last_cons2.
Qed.
Print Assumptions C35_ranges.

(** From the start of a link whose receiver knows nothing of the status's sequence yet (fresh receiver). *)
Theorem C35_from_start : forall R TxSizeLimit limitSize rand, honest R -> forall fuel b r es, (forall t, r_hfs R t (RxSeq b) = 0) ->
  Forall (fun e => is_result e = false) es ->
  let k' := run R TxSizeLimit limitSize rand (S fuel) (NewLink b) (Notify r :: es) in
  chain b (flat_map rm_items (sent (l_st k')) ++ concat (rmis (l_st k'))) (getb (l_st k') 0) /\
  linked (RxSeq b) (ranges (RxSeq b) (flat_map rm_items (sent (l_st k')))).
Proof.
  intros R T L rand HR fuel b r es H0 HE k'.
  assert (HI : Inv b 0 [] (l_st (handle R T L rand (S fuel) (NewLink b) (Notify r))) /\ l_ptr (handle R T L rand (S fuel) (NewLink b) (Notify r)) = O /\ l_once (handle R T L rand (S fuel) (NewLink b) (Notify r)) = true).
  { unfold handle, NewLink, dead. cbn [l_sender l_receiver l_once l_ptr l_st]. unfold checkStatus. cbn [check_loop getb nth heap RxSeq]. rewrite H0. cbn [Z.eqb obind size tick]. change (0 <? 0) with false. cbn [ignore obind].
    set (s := set_rss _ _). assert (X : Inv b 0 [] (st_of (BuildRelayMessage R T L rand (S fuel) 0 s))).
    { apply Inv_brm; [exact HR|]. unfold Inv. split; [cbn; lia|]. exists []. split; [reflexivity|]. constructor. }
    destruct (BuildRelayMessage R T L rand (S fuel) 0 s); cbn [ignore after l_st l_ptr l_once st_of] in *; auto. }
  destruct HI as (HI & HP & HO). unfold k', run. cbn [fold_left]. fold (run R T L rand (S fuel) (handle R T L rand (S fuel) (NewLink b) (Notify r)) es).
  rewrite <- HP in HI. destruct (Inv_run R T L rand HR _ _ (S fuel) es _ HO HE HI) as [(_ & new & H1 & H2) H3]. cbn [app] in H1. subst new. rewrite HP in *. split; [exact H2|].
  destruct (C35_ranges _ _ _ H2) as (H4 & _). revert H4. clear. generalize (flat_map rm_items (sent (l_st (run R T L rand (S fuel) (handle R T L rand (S fuel) (NewLink b) (Notify r)) es)))).
  intros l. generalize (RxSeq b). induction l as [|x l IH]; intros q; cbn [app ranges linked]; [auto|]. destruct (it_kind x); auto. cbn [linked]. intuition.
Qed.
Print Assumptions C35_from_start.

(** Finding: a receiver that has two blocks ready makes the link fail: after the first block update has been sent
    there is no list to put the second one into. *)
Theorem C35_two_updates_refuted : forall R TxSizeLimit limitSize rand fuel p s s1 x y r s',
  getHeader R limitSize fuel p (match rmis s with [] => createRelayMessageItem s | _ => s end) = inr (s1, Some (x :: y :: r)) ->
  BuildRelayMessage R TxSizeLimit limitSize rand fuel p s <> ROk s'.
Proof.
  intros R T L rand fuel p s s1 x y r s' EH E. unfold BuildRelayMessage in E. rewrite EH in E. cbn [update_loop] in E.
  destruct (append_item x s1) as [s2| | |]; cbn [obind UpdateBMCLinkStatus] in E; try discriminate. destruct (buildProof R T L rand fuel p (Some x) (set_bls p (it_next x) s2)) as [s3| | |]; cbn [obind] in E; try discriminate.
  destruct (send_cases R rand p s3) as [s4 [E4|E4]]; rewrite E4 in E; cbn [obind] in E; [|discriminate]. destruct (send_ok _ _ _ _ _ E4) as (ms & _ & _ & _ & _ & H5 & _).
  unfold append_item in E. rewrite H5 in E. cbn [app_last obind] in E. discriminate.
Qed.
Print Assumptions C35_two_updates_refuted.

(** Finding: when the collected items exceed the limit while messages remain, the proof loop never completes. *)
Lemma empty_never : forall R T L rand, 0 <= T -> forall fuel p bu seq s s', rmis s = [] -> size s = 0 -> RxSeq (getb s p) < seq -> proof_loop R T L rand fuel p bu seq s <> ROk s'.
Proof.
  intros R T L rand HT. induction fuel as [|f IH]; intros p bu seq s s' H1 H2 H3 E; cbn [proof_loop] in E; [discriminate|].
  replace (seq <=? RxSeq (getb s p)) with false in E by lia. unfold isOverLimit in E. replace (T <? size s) with false in E by lia.
  set (s2 := match bu with None => tick s | Some u => if it_proofHeight u =? -1 then tick s else s end) in E.
  assert (F : rmis s2 = [] /\ size s2 = 0 /\ getb s2 p = getb s p) by (unfold s2; destruct bu as [u|]; [destruct (it_proofHeight u =? -1)|]; auto). destruct F as (F1 & F2 & F3).
  unfold buildMessageProof in E. destruct (r_mp R (clk s2) (getb s2 p) (L - size s2)) as [[m|]|er|]; cbn [obind] in E; [| |discriminate|discriminate].
  - unfold append_item in E. cbn [tick rmis] in E. rewrite F1 in E. cbn [app_last obind] in E. discriminate.
  - revert E. apply IH; [exact F1|exact F2|]. replace (getb (tick s2) p) with (getb s2 p) by reflexivity. rewrite F3. exact H3.
Qed.
Theorem C35_over_limit_refuted : forall R TxSizeLimit limitSize rand, 0 <= TxSizeLimit -> (forall t l, r_msg R t l <> None) -> forall fuel p bu seq s s',
  TxSizeLimit < size s -> RxSeq (getb s p) < seq -> proof_loop R TxSizeLimit limitSize rand fuel p bu seq s <> ROk s'.
Proof.
  intros R T L rand HT HM fuel p bu seq s s' HS HQ E. destruct fuel as [|f]; cbn [proof_loop] in E; [discriminate|].
  replace (seq <=? RxSeq (getb s p)) with false in E by lia. unfold isOverLimit in E. replace (T <? size s) with true in E by lia.
  assert (NE : forall p ls s s', append_loop R rand p ls s <> (s', None)).
  { clear - HM. intros p. induction ls as [|l ls IH]; intros s s' E; cbn [append_loop] in E; [discriminate|]. destruct (r_msg R (clk s) l) as [m|] eqn:EM; [|apply (HM _ _ EM)].
    destruct (append_loop R rand p ls (tick (tick (tick s)))) as [s1 [ms1|]] eqn:EL; [discriminate|]. apply (IH _ _ EL). }
  destruct (send_cases R rand p (createRelayMessageItem s)) as [s2 [E2|E2]]; rewrite E2 in E; cbn [ignore obind] in E.
  - destruct (send_ok _ _ _ _ _ E2) as (ms & H1 & _ & _ & _ & H5 & H6 & _). destruct bu as [u|]; [|discriminate]. assert (GB : getb s2 p = getb s p) by (unfold getb; rewrite H1; reflexivity).
    unfold buildBlockProof in E. destruct (r_bp R _ _ _) as [[m|]|]; cbn [obind] in E; [|..|discriminate].
    + unfold append_item in E. cbn [tick rmis] in E. rewrite H5 in E. cbn [app_last obind] in E. discriminate.
    + unfold buildMessageProof in E. destruct (r_mp R _ _ _) as [[m|]|er|]; cbn [obind] in E; [| |discriminate|discriminate].
      * unfold append_item in E. cbn [tick rmis] in E. rewrite H5 in E. cbn [app_last obind] in E. discriminate.
      * revert E. apply empty_never; auto. change (getb (tick (tick (tick s2))) p) with (getb s2 p). rewrite GB. exact HQ.
  - unfold sendRelayMessage, appendRelayMessage in E2. destruct (append_loop R rand p (rmis (createRelayMessageItem s)) (createRelayMessageItem s)) as [s1 [ms|]] eqn:EL; [discriminate|]. destruct (NE _ _ _ _ EL).
Qed.
Print Assumptions C35_over_limit_refuted.

(** Finding: if the receiver places the status's sequence below the status's height, the check at the start never ends. *)
Theorem C35_check_never_ends_refuted : forall R TxSizeLimit limitSize rand b h, (forall t, r_hfs R t (RxSeq b) = h) -> h <> 0 -> h < Height b ->
  forall fuel r es, l_receiver (run R TxSizeLimit limitSize rand fuel (NewLink b) (Notify r :: es)) = Spinning /\ sent (l_st (run R TxSizeLimit limitSize rand fuel (NewLink b) [Notify r])) = [].
Proof.
  intros R T L rand b h HH H0 HL fuel r es.
  assert (CL : forall fuel s, rss s = [] -> getb s 0 = b -> exists s', check_loop R T L rand fuel 0 (RxSeq b) s = RSpin s' /\ sent s' = sent s).
  { induction fuel0 as [|f IH]; intros s HS HB; cbn [check_loop]; [eauto|]. rewrite HH. change (getb (tick s) 0) with (getb s 0). rewrite HB. replace (h =? 0) with false by lia. replace (h =? Height b) with false by lia. replace (h <? Height b) with true by lia.
    unfold buildProof. cbn [tick rss]. rewrite HS. cbn [getReceiveStatusForHeight obind]. destruct (IH (tick s) HS HB) as (s' & E & H). eauto. }
  assert (ST : exists s', handle R T L rand fuel (NewLink b) (Notify r) = mkLk s' 0 true false Running Spinning /\ sent s' = []).
  { unfold handle, NewLink, dead. cbn [l_sender l_receiver l_once l_ptr l_st l_mtx]. unfold checkStatus. cbn [getb heap nth].
    destruct (CL fuel (mkSt 0 [b] [] [] [[]] 0 [])) as (s' & E & H); auto. change (nth 0 [b] b0) with b. rewrite E. cbn [obind ignore after]. eexists. split; [reflexivity|exact H]. }
  destruct ST as (s' & E & HS). unfold run. cbn [fold_left]. rewrite E. split; [|exact HS].
  assert (SP : forall es k, l_receiver k = Spinning -> l_receiver (fold_left (handle R T L rand fuel) es k) = Spinning).
  { induction es0 as [|e es0 IH]; intros k Hk; [exact Hk|]. cbn [fold_left]. apply IH. unfold handle. destruct (dead k); [exact Hk|]. destruct e as [r0|b1|id code stt].
    - rewrite Hk. exact Hk.
    - destruct (l_sender k); exact Hk.
    - destruct (l_sender k); try exact Hk. destruct (l_mtx k); [exact Hk|]. destruct (after _) as [s1 [| | |]]; exact Hk. }
  apply SP. reflexivity.
Qed.
Print Assumptions C35_check_never_ends_refuted.

(** Finding: the message proof sent by that check does not move the status, so the next proof starts at the same sequence again. *)
Theorem C35_check_does_not_advance_refuted : forall R TxSizeLimit limitSize rand p s fuel m s',
  r_hfs R (clk s) (RxSeq (getb s p)) = Height (getb s p) -> Height (getb s p) <> 0 ->
  r_mp R (S (clk s)) (getb s p) (limitSize - size s) = Ok (Some m) -> 0 < it_len m -> 0 <= size s -> concat (rmis s) = [] -> 
  checkStatus R TxSizeLimit limitSize rand (S fuel) p s = ROk s' ->
  getb s' p = getb s p /\ ((exists ms, sent s' = sent s ++ ms /\ flat_map rm_items ms = [m]) \/ sent s' = sent s /\ concat (rmis s') = [m]).
Proof.
  intros R T L rand p s fuel m s' H1 H2 H3 H4 H5 H6 E. unfold checkStatus in E. cbn [check_loop] in E. rewrite H1 in E. change (getb (tick s) p) with (getb s p) in E.
  replace (Height (getb s p) =? 0) with false in E by lia. rewrite Z.eqb_refl in E. cbn [tick clk size] in E. rewrite H3 in E. replace (it_len m =? 0) with false in E by lia. cbn [negb orb] in E.
  unfold append_item in E. cbn [tick rmis size] in E. destruct (app_last (rmis s) m) as [ls|] eqn:EL; cbn [obind] in E; [|discriminate].
  pose proof (app_last_concat _ _ _ EL) as HC. rewrite H6 in HC. cbn [app] in HC. cbn [set_rmis size] in E. replace (0 <? size s + it_len m) with true in E by lia.
  destruct (send_cases R rand p (set_rmis ls (size s + it_len m) (tick (tick s)))) as [s2 [E2|E2]]; change (mkSt (S (clk s)) (heap s) (rms s) (rss s) (rmis s) (size s) (sent s)) with (tick s) in E; rewrite E2 in E; cbn [ignore] in E; assert (s' = s2) by congruence; subst s2.
  - destruct (send_ok _ _ _ _ _ E2) as (ms & G1 & _ & _ & G4 & _ & _ & _ & G8 & _). split; [unfold getb; rewrite G1; reflexivity|]. left. exists ms. split; [exact G4|]. rewrite G8. exact HC.
  - destruct (send_err _ _ _ _ _ E2) as (G1 & _ & _ & G4 & G5 & _). split; [unfold getb; rewrite G1; reflexivity|]. right. split; [exact G4|]. rewrite G5. exact HC.
Qed.
Print Assumptions C35_check_does_not_advance_refuted.

(** * C36 *)

(** The loop cuts the queue behind the first acknowledged record. *)
Theorem C36_receive_status_cut : forall b s, let s' := clearReceiveStatus b s in
  (exists pre r post, rss s = pre ++ r :: post /\ covers b (rs_height r) (rs_seq r) /\ Forall (fun x => ~ covers b (rs_height x) (rs_seq x)) pre /\ rss s' = post) \/
  (Forall (fun x => ~ covers b (rs_height x) (rs_seq x)) (rss s) /\ s' = s).
Proof.
  intros b s. cbn zeta. unfold clearReceiveStatus.
  assert (X : forall l, match clear_rss b l with Some post => exists pre r, l = pre ++ r :: post /\ covers b (rs_height r) (rs_seq r) /\ Forall (fun x => ~ covers b (rs_height x) (rs_seq x)) pre | None => Forall (fun x => ~ covers b (rs_height x) (rs_seq x)) l end).
  { induction l as [|r l IH]; cbn [clear_rss]; [constructor|]. destruct ((rs_height r <=? Height b) && (rs_seq r <=? RxSeq b)) eqn:E.
    - exists [], r. split; [reflexivity|]. split; [unfold covers; lia|constructor].
    - assert (NC : ~ covers b (rs_height r) (rs_seq r)) by (unfold covers; lia). destruct (clear_rss b l) as [post|]; [|constructor; assumption]. destruct IH as (pre & r' & -> & H1 & H2). exists (r :: pre), r'. split; [reflexivity|]. split; [exact H1|constructor; assumption]. }
  specialize (X (rss s)). destruct (clear_rss b (rss s)) as [post|]; [|right; auto]. left. destruct X as (pre & r & H1 & H2 & H3). exists pre, r, post. auto.
Qed.
Print Assumptions C36_receive_status_cut.

(** With records in order, nothing unacknowledged is lost. *)
Theorem C36_unacknowledged_kept : forall b s, ordered (rss s) -> forall x, In x (rss s) -> ~ covers b (rs_height x) (rs_seq x) -> In x (rss (clearReceiveStatus b s)).
Proof.
  intros b s HO x HX HN. destruct (C36_receive_status_cut b s) as [(pre & r & post & E & HC & HP & E')|[_ ->]]; [|exact HX]. rewrite E', E in *. clear E E'.
  destruct pre as [|y pre]; cbn [app] in *.
  - destruct HX as [->|HX]; [contradiction|exact HX].
  - exfalso. inversion HO; subst. inversion HP; subst. apply H3. destruct (H1 r) as [A B]; [apply in_or_app; right; left; reflexivity|]. unfold covers in *. lia.
Qed.
Print Assumptions C36_unacknowledged_kept.

(** Finding: one status discards at most one record: the second acknowledged record stays. *)
Theorem C36_one_record_per_status_refuted : forall b s r1 r2 l, rss s = r1 :: r2 :: l -> covers b (rs_height r1) (rs_seq r1) -> rss (clearReceiveStatus b s) = r2 :: l.
Proof.
  intros b s r1 r2 l E [H1 H2]. unfold clearReceiveStatus. rewrite E. cbn [clear_rss]. replace ((rs_height r1 <=? Height b) && (rs_seq r1 <=? RxSeq b)) with true by lia. reflexivity.
Qed.
Print Assumptions C36_one_record_per_status_refuted.

(** The queue of relay messages is cut the same way, by the statuses the messages point to. *)
Theorem C36_relay_message_cut : forall b s, let s' := clearRelayMessage b s in
  (exists pre m post, rms s = pre ++ m :: post /\ covers b (Height (getb s (rm_bls m))) (RxSeq (getb s (rm_bls m))) /\
     Forall (fun x => ~ covers b (Height (getb s (rm_bls x))) (RxSeq (getb s (rm_bls x)))) pre /\ rms s' = post) \/
  (Forall (fun x => ~ covers b (Height (getb s (rm_bls x))) (RxSeq (getb s (rm_bls x)))) (rms s) /\ s' = s).
Proof.
  intros b s. cbn zeta. unfold clearRelayMessage.
  assert (X : forall l, match clear_rms s b l with Some post => exists pre m, l = pre ++ m :: post /\ covers b (Height (getb s (rm_bls m))) (RxSeq (getb s (rm_bls m))) /\ Forall (fun x => ~ covers b (Height (getb s (rm_bls x))) (RxSeq (getb s (rm_bls x)))) pre
     | None => Forall (fun x => ~ covers b (Height (getb s (rm_bls x))) (RxSeq (getb s (rm_bls x)))) l end).
  { induction l as [|r l IH]; cbn [clear_rms]; [constructor|]. destruct ((Height (getb s (rm_bls r)) <=? Height b) && (RxSeq (getb s (rm_bls r)) <=? RxSeq b)) eqn:E.
    - exists [], r. split; [reflexivity|]. split; [unfold covers; lia|constructor].
    - assert (NC : ~ covers b (Height (getb s (rm_bls r))) (RxSeq (getb s (rm_bls r)))) by (unfold covers; lia). destruct (clear_rms s b l) as [post|]; [|constructor; assumption]. destruct IH as (pre & r' & -> & H1 & H2). exists (r :: pre), r'. split; [reflexivity|]. split; [exact H1|constructor; assumption]. }
  specialize (X (rms s)). destruct (clear_rms s b (rms s)) as [post|]; [|right; auto]. left. destruct X as (pre & r & H1 & H2 & H3). exists pre, r, post. auto.
Qed.
Print Assumptions C36_relay_message_cut.

(** Finding: all relay messages built for one status object share it, and it moves on as later messages are built.
    A status that acknowledges less than the newest message therefore discards nothing. *)
Theorem C36_shared_status_refuted : forall b s p, Forall (fun m => rm_bls m = p) (rms s) -> ~ covers b (Height (getb s p)) (RxSeq (getb s p)) -> clearRelayMessage b s = s.
Proof.
  intros b s p HF HN. destruct (C36_relay_message_cut b s) as [(pre & m & post & E & HC & _)|[_ ->]]; [|reflexivity].
  exfalso. rewrite E in HF. apply Forall_app in HF. destruct HF as [_ HF]. inversion HF; subst. contradiction.
Qed.
Print Assumptions C36_shared_status_refuted.

(** removeRelayMessage cuts up to the message named, and keeps that message. *)
Theorem C36_already_verified_kept : forall id s pre m post, rms s = pre ++ m :: post -> rm_id m = id -> Forall (fun x => rm_id x <> id) post ->
  exists s', removeRelayMessage id s = ROk s' /\ rms s' = m :: post /\ rss s' = rss s.
Proof.
  intros id s pre m post E HM HP. unfold removeRelayMessage.
  assert (LI : forall l i acc, Forall (fun x => rm_id x <> id) l -> last_index id i l acc = acc).
  { induction l as [|x l IH]; intros i acc HF; [reflexivity|]. inversion HF; subst. cbn [last_index]. replace (rm_id x =? rm_id m) with false by lia. apply IH. assumption. }
  assert (LJ : forall l i acc, last_index id i (l ++ m :: post) acc = (i + length l)%nat).
  { induction l as [|x l IH]; intros i acc; cbn [app last_index length]; [rewrite HM, Z.eqb_refl, LI by assumption; lia|]. rewrite IH. lia. }
  rewrite E, LJ. cbn [Nat.add]. rewrite nth_error_app2 by lia. rewrite Nat.sub_diag. cbn [nth_error]. eexists. split; [reflexivity|]. cbn [set_rms rms rss]. split; [|reflexivity].
  rewrite skipn_app, skipn_all, Nat.sub_diag. reflexivity.
Qed.
Print Assumptions C36_already_verified_kept.
Theorem C36_unknown_id : forall id s, Forall (fun x => rm_id x <> id) (rms s) -> removeRelayMessage id s = match rms s with [] => RPanic s | _ => ROk s end.
Proof.
  intros id s HF. unfold removeRelayMessage.
  assert (LI : forall l i acc, Forall (fun x => rm_id x <> id) l -> last_index id i l acc = acc).
  { induction l as [|x l IH]; intros i acc HX; [reflexivity|]. inversion HX; subst. cbn [last_index]. replace (rm_id x =? id) with false by lia. apply IH. assumption. }
  rewrite LI by assumption. destruct (rms s) as [|m l] eqn:E; cbn [nth_error]; [reflexivity|]. cbn [skipn]. unfold set_rms. rewrite <- E. destruct s; reflexivity.
Qed.
Print Assumptions C36_unknown_id.

(** * C37 *)

(** Up to the first relay result every status is processed. *)
Theorem C37_statuses_before_results : forall R TxSizeLimit limitSize rand fuel b es, Forall (fun e => is_result e = false) es ->
  let k := run R TxSizeLimit limitSize rand fuel (NewLink b) es in l_sender k = Running /\ l_mtx k = false /\
  forall c, l_receiver k <> Crashed -> l_st (handle R TxSizeLimit limitSize rand fuel k (Status c)) = clearReceiveStatus c (clearRelayMessage c (l_st k)).
Proof.
  intros R T L rand fuel b es HE k.
  assert (G : forall es k, Forall (fun e => is_result e = false) es -> l_sender k = Running -> l_mtx k = false -> l_sender (run R T L rand fuel k es) = Running /\ l_mtx (run R T L rand fuel k es) = false).
  { clear. induction es as [|e es IH]; intros k HE H1 H2; [auto|]. inversion HE; subst. unfold run in *. cbn [fold_left]. apply IH; auto; unfold handle; destruct (dead k); auto; destruct e as [r|c|id code stt]; try discriminate.
    - destruct (l_receiver k); auto. destruct (after _) as [s' ph]. exact H1.
    - rewrite H1. reflexivity.
    - destruct (l_receiver k); auto. destruct (after _) as [s' ph]. exact H2.
    - rewrite H1. exact H2. }
  destruct (G es (NewLink b) HE eq_refl eq_refl) as [H1 H2]. fold k in H1, H2. split; [exact H1|]. split; [exact H2|]. intros c HC. unfold handle, dead. rewrite H1. destruct (l_receiver k); try reflexivity. congruence.
Qed.
Print Assumptions C37_statuses_before_results.

(** Finding: the first relay result, whatever its code, ends the sender loop: no later result or status is processed. *)
Theorem C37_first_result_is_last_refuted : forall R TxSizeLimit limitSize rand fuel k id code stt es,
  let k1 := handle R TxSizeLimit limitSize rand fuel k (Result id code stt) in
  (l_sender k1 <> Running \/ dead k1 = true) /\
  (Forall (fun e => match e with Notify _ => False | _ => True end) es -> run R TxSizeLimit limitSize rand fuel k1 es = k1) /\
  (l_sender (run R TxSizeLimit limitSize rand fuel k1 es) <> Running \/ dead (run R TxSizeLimit limitSize rand fuel k1 es) = true).
Proof.
  intros R T L rand fuel k id code stt es k1.
  assert (H1 : l_sender k1 <> Running \/ dead k1 = true).
  { unfold k1, handle. destruct (dead k) eqn:ED; [auto|]. destruct (l_sender k) eqn:ES; try (left; rewrite ES; discriminate). destruct (l_mtx k); [left; discriminate|].
    destruct (after _) as [s1 [| | |]]; left; discriminate. }
  split; [exact H1|]. split.
  - intros HF. revert H1. generalize k1. induction HF as [|e es0 He HF IH]; intros k0 H1; [reflexivity|]. unfold run in *. cbn [fold_left].
    assert (E : handle R T L rand fuel k0 e = k0). { unfold handle. destruct (dead k0) eqn:ED; [reflexivity|]. destruct H1 as [H1|H1]; [|discriminate]. destruct e as [r|c|id0 code0 stt0]; [destruct He|..]; destruct (l_sender k0); try reflexivity; congruence. }
    rewrite E. apply IH. exact H1.
  - clear - H1. revert H1. generalize k1. induction es as [|e es IH]; intros k0 H1; [exact H1|]. unfold run in *. cbn [fold_left]. apply IH.
    unfold handle. destruct (dead k0) eqn:ED; [auto|]. destruct H1 as [H1|H1]; [|discriminate]. destruct e as [r|c|id0 code0 stt0].
    + destruct (l_receiver k0); auto. destruct (after _) as [s' ph]. left. exact H1.
    + destruct (l_sender k0) eqn:ES; try congruence; left; rewrite ES; discriminate.
    + destruct (l_sender k0) eqn:ES; try congruence; left; rewrite ES; discriminate.
Qed.
Print Assumptions C37_first_result_is_last_refuted.

(** * Concrete cases *)
Definition ex_bu (b : bls) (h : Z) := mkItem KBlockUpdate 10 (mkBls (TxSeq b) (RxSeq b) h) 0 0 h [].
Definition ex_mp (b : bls) (l : Z) := mkItem KMessageProof 5 (mkBls (TxSeq b) l (Height b)) (RxSeq b) l 0 [].
(** A receiver with one block per height, two messages in each. *)
Definition ex_R := mkReceiver (fun _ b _ => Some [ex_bu b (Height b + 1)]) (fun _ _ _ => Some None) (fun _ b _ => Ok (Some (ex_mp b (RxSeq b + 2)))) (fun _ _ => 0) (fun _ _ => Some []).
Example C35_ex : honest ex_R /\
  ranges 4 (flat_map rm_items (sent (l_st (run ex_R 1000 900 Z.of_nat 9 (NewLink (mkBls 0 4 7)) [Notify (mkRstat 8 6); Status (mkBls 0 6 8); Notify (mkRstat 9 8)])))) = [(4, 6); (6, 8)].
Proof.
  split; [|vm_compute; reflexivity]. unfold honest. split; [|split].
  - intros t b l bus x E HI. cbn [ex_R r_bus] in E. assert (bus = [ex_bu b (Height b + 1)]) by congruence. subst. destruct HI as [<-|[]]. eapply mv_update; reflexivity.
  - intros t b h x E. discriminate.
  - intros t b l x E. cbn [ex_R r_mp] in E. assert (x = ex_mp b (RxSeq b + 2)) by congruence. subst. apply mv_message; cbn; try reflexivity. lia.
Qed.
(** Two blocks ready at once: the process ends. *)
Definition ex_R2 := mkReceiver (fun _ b _ => Some [ex_bu b 8; ex_bu b 9]) (fun _ _ _ => Some None) (fun _ b _ => Ok (Some (ex_mp b (RxSeq b + 2)))) (fun _ _ => 0) (fun _ _ => Some []).
Example C35_ex_crash : l_receiver (run ex_R2 1000 900 Z.of_nat 9 (NewLink (mkBls 0 4 7)) [Notify (mkRstat 8 6)]) = Crashed.
Proof. vm_compute. reflexivity. Qed.
(** Items above the limit with messages remaining: the process ends. *)
Example C35_ex_over : l_receiver (run ex_R 8 6 Z.of_nat 9 (NewLink (mkBls 0 4 7)) [Notify (mkRstat 8 8)]) = Crashed.
Proof. vm_compute. reflexivity. Qed.
(** The first check sends the range again: the stream from the start is no chain. *)
Definition ex_R3 := mkReceiver (fun _ b _ => Some [ex_bu b (Height b + 1)]) (fun _ _ _ => Some None) (fun _ b _ => Ok (Some (ex_mp b (RxSeq b + 2)))) (fun _ q => if q =? 4 then 7 else 0) (fun _ _ => Some []).
Example C35_ex_check : let k := run ex_R3 1000 900 Z.of_nat 9 (NewLink (mkBls 0 4 7)) [Notify (mkRstat 8 6)] in
  map (fun x => (it_kind x, it_start x, it_last x)) (flat_map rm_items (sent (l_st k))) = [(KMessageProof, 4, 6); (KBlockUpdate, 0, 0); (KMessageProof, 4, 6)] /\ getb (l_st k) 0 = mkBls 0 6 8.
Proof. vm_compute. auto. Qed.
Example C36_ex : let s := mkSt 0 [mkBls 0 9 9] [mkRmsg 1 0 0 [] []; mkRmsg 2 0 0 [] []] [mkRstat 5 2; mkRstat 6 4; mkRstat 7 8] [] 0 [] in
  ordered (rss s) /\ rss (clearReceiveStatus (mkBls 0 4 6) s) = [mkRstat 6 4; mkRstat 7 8] /\ covers (mkBls 0 4 6) 6 4 /\ clearRelayMessage (mkBls 0 8 8) s = s.
Proof. cbn zeta. split; [|vm_compute; repeat split; discriminate]. repeat constructor; cbn in *; intuition (subst; cbn; lia). Qed.
Example C37_ex : let k := run ex_R 1000 900 Z.of_nat 9 (NewLink (mkBls 0 4 7)) [Notify (mkRstat 8 6); Result 1 27 None; Result 1 27 None] in l_sender k = Blocked /\ l_receiver k = Running.
Proof. vm_compute. auto. Qed.
