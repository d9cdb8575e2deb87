(** More about the link: the byte count that the size limits are taken from (C35), and what a result does to the state (C37). *)
From Coq Require Import ZArith List Bool Lia.
From Coq Require Import ZifyBool.
From Verif Require Import Base L_Base M_Link S_Link T_Link.
Import ListNotations.
Open Scope Z_scope.

(** Bytes of a list of items. *)
Fixpoint bytes_of (l : list item) : Z := match l with [] => 0 | x :: r => it_len x + bytes_of r end.
Lemma bytes_of_app : forall a b, bytes_of (a ++ b) = bytes_of a + bytes_of b.
Proof. induction a as [|x a IH]; intros b; cbn [app bytes_of]; [lia|]. rewrite IH. lia. Qed.

(** The count is that of the list being filled, the last one. *)
Definition counted (s : st) : Prop := size s = bytes_of (last (rmis s) []).
Lemma app_last_last : forall ls x r, app_last ls x = Some r -> last r [] = last ls [] ++ [x].
Proof.
  induction ls as [|l ls IH]; intros x r E; [discriminate|]. cbn [app_last] in E. destruct ls as [|l2 ls].
  - assert (r = [l ++ [x]]) by congruence. subst. reflexivity.
  - destruct (app_last (l2 :: ls) x) as [r'|] eqn:EL; [|discriminate]. assert (r = l :: r') by congruence. subst. pose proof (app_last_ne _ _ _ EL) as HN.
    specialize (IH _ _ EL). destruct r' as [|y r']; [congruence|]. exact IH.
Qed.
Lemma counted_new : forall s, counted (createRelayMessageItem s).
Proof. intros s. unfold counted, createRelayMessageItem. cbn [set_rmis size rmis]. rewrite last_last. reflexivity. Qed.
Lemma counted_ext : forall s s', rmis s' = rmis s -> size s' = size s -> counted s -> counted s'.
Proof. unfold counted. congruence. Qed.
Lemma counted_append : forall x s, counted s -> counted (st_of (append_item x s)).
Proof.
  intros x s HC. unfold append_item. destruct (app_last (rmis s) x) as [r|] eqn:E; [|exact HC]. unfold counted in *. cbn [st_of set_rmis size rmis].
  rewrite (app_last_last _ _ _ E), bytes_of_app, <- HC. cbn [bytes_of]. lia.
Qed.
Lemma counted_bind : forall o f, counted (st_of o) -> (forall s, counted s -> counted (st_of (f s))) -> counted (st_of (M_Link.obind o f)).
Proof. intros [s|s|s|s] f H HF; cbn [M_Link.obind st_of] in *; auto. Qed.
Lemma counted_over : forall T s, counted s -> counted (fst (isOverLimit T s)).
Proof. intros T s H. unfold isOverLimit. destruct (T <? size s); [apply counted_new|exact H]. Qed.

Section LINK.
Variable R : receiver.
Variable TxSizeLimit limitSize : Z.
Variable rand : nat -> Z.
Lemma counted_send : forall p s, counted s -> counted (st_of (sendRelayMessage R rand p s)).
Proof.
  intros p s H. destruct (send_cases R rand p s) as [s' [E|E]]; rewrite E; cbn [st_of].
  - destruct (send_ok _ _ _ _ _ E) as (ms & _ & _ & _ & _ & H5 & H6 & _). unfold counted. rewrite H5, H6. reflexivity.
  - destruct (send_err _ _ _ _ _ E) as (_ & _ & _ & _ & H5 & H6). apply (counted_ext s); auto.
Qed.
Lemma counted_item : forall x p s, counted s -> counted (st_of (M_Link.obind (append_item x (tick s)) (UpdateBMCLinkStatus x p))).
Proof. intros x p s H. apply counted_bind; [apply counted_append; exact H|]. intros s' H'. exact H'. Qed.
Lemma counted_bmp : forall p s, counted s -> counted (st_of (buildMessageProof R limitSize p s)).
Proof. intros p s H. unfold buildMessageProof. destruct (r_mp R _ _ _) as [[x|]|er|]; [apply counted_item|exact H|exact H|exact H]. exact H. Qed.
Lemma counted_bbp : forall p h s, counted s -> counted (st_of (buildBlockProof R p h s)).
Proof. intros p h s H. unfold buildBlockProof. destruct (r_bp R _ _ _) as [[x|]|]; [apply counted_item|exact H|exact H]. exact H. Qed.
Lemma counted_ploop : forall fuel p bu seq s, counted s -> counted (st_of (proof_loop R TxSizeLimit limitSize rand fuel p bu seq s)).
Proof.
  induction fuel as [|f IH]; intros p bu seq s H; cbn [proof_loop]; [exact H|]. destruct (seq <=? RxSeq (getb s p)); [exact H|].
  pose proof (counted_over TxSizeLimit s H) as HO. destruct (isOverLimit TxSizeLimit s) as [s1 over]. cbn [fst] in HO. destruct over.
  - apply counted_bind; [rewrite st_of_ignore; apply counted_send; exact HO|]. intros s2 H2. destruct bu as [u|]; [|exact H2].
    apply counted_bind; [apply counted_bbp; exact H2|]. intros s3 H3. apply counted_bind; [apply counted_bmp; exact H3|]. intros s4 H4. apply IH. exact H4.
  - apply counted_bind; [|intros; apply IH; assumption]. apply counted_bmp. destruct bu as [u|]; [destruct (it_proofHeight u =? -1)|]; exact HO.
Qed.
Lemma counted_bproof : forall fuel p bu s, counted s -> counted (st_of (buildProof R TxSizeLimit limitSize rand fuel p bu s)).
Proof. intros. unfold buildProof. destruct (getReceiveStatusForHeight _ _); [apply counted_ploop|]; assumption. Qed.
Lemma counted_header : forall fuel p s, counted s -> match getHeader R limitSize fuel p s with inl s' => counted s' | inr (s', _) => counted s' end.
Proof. induction fuel as [|f IH]; intros p s H; cbn [getHeader]; [exact H|]. destruct (r_bus R _ _ _) as [[|x r]|]; [apply IH|..]; exact H. Qed.
Lemma counted_uloop : forall fuel p bus s, counted s -> counted (st_of (update_loop R TxSizeLimit limitSize rand fuel p bus s)).
Proof.
  induction bus as [|x r IH]; intros s H; cbn [update_loop]; [exact H|]. apply counted_bind; [apply counted_append; exact H|]. intros s1 H1. apply counted_bind; [exact H1|].
  intros s2 H2. apply counted_bind; [apply counted_bproof; exact H2|]. intros s3 H3. apply counted_bind; [apply counted_send; exact H3|]. exact IH.
Qed.
Lemma counted_brm : forall fuel p s, counted s -> counted (st_of (BuildRelayMessage R TxSizeLimit limitSize rand fuel p s)).
Proof.
  intros fuel p s H. unfold BuildRelayMessage. set (s0 := match rmis s with [] => createRelayMessageItem s | _ => s end).
  assert (H0 : counted s0) by (unfold s0; destruct (rmis s); [apply counted_new|exact H]).
  pose proof (counted_header fuel p s0 H0) as HH. destruct (getHeader R limitSize fuel p s0) as [s1|[s1 [bus|]]]; [exact HH| |exact HH].
  apply counted_bind; [apply counted_uloop; exact HH|]. intros s2 H2. pose proof (counted_over TxSizeLimit s2 H2) as HO. destruct (isOverLimit TxSizeLimit s2) as [s3 over]. cbn [fst] in HO.
  destruct over; [|exact HO]. rewrite st_of_ignore. apply counted_send. exact HO.
Qed.
Lemma counted_check : forall fuel p s, counted s -> counted (st_of (checkStatus R TxSizeLimit limitSize rand fuel p s)).
Proof.
  intros fuel p s H. unfold checkStatus. generalize (RxSeq (getb s p)) as q. intros q. apply counted_bind.
  - revert s H. induction fuel as [|f IH]; intros s H; cbn [check_loop]; [exact H|]. destruct (_ =? 0); [exact H|]. destruct (_ =? Height _).
    + destruct (r_mp R _ _ _) as [[m|]|er|]; try exact H. destruct (_ || _); [apply counted_append|]; exact H.
    + destruct (_ <? Height _); [|exact H]. apply counted_bind; [apply counted_bproof; exact H|]. exact IH.
  - intros s1 H1. destruct (0 <? size s1); [|exact H1]. rewrite st_of_ignore. apply counted_send. exact H1.
Qed.
Lemma counted_result : forall fuel id code stt s, counted s -> counted (st_of (result_body R TxSizeLimit limitSize rand fuel id code stt s)).
Proof.
  intros fuel id code stt s H. unfold result_body. destruct (code =? BMVUnknown); [exact H|]. destruct (code =? BMVNotVerifiable).
  - destruct stt as [b|]; [|exact H]. rewrite st_of_ignore. apply counted_brm. exact H.
  - destruct (code =? BMVAlreadyVerified); [|destruct (code =? BMVRevertInvalidBlockWitnessOld); [|exact H]].
    + unfold removeRelayMessage. destruct (nth_error _ _); exact H.
    + unfold updateBlockProof. destruct (searchRelayMessage id (rms s)); [|exact H]. apply counted_bind; [rewrite st_of_ignore; apply counted_bproof; exact H|].
      intros s1 H1. rewrite st_of_ignore. apply counted_send. exact H1.
Qed.
Lemma after_st : forall o, fst (after o) = st_of o.
Proof. intros []; reflexivity. Qed.
End LINK.

(** C35: after any events, results included, the size the limits are taken from is the number of bytes of the
    items collected for the message being built. *)
Theorem C35_size_is_counted : forall R TxSizeLimit limitSize rand fuel b es,
  let s := l_st (run R TxSizeLimit limitSize rand fuel (NewLink b) es) in size s = bytes_of (last (rmis s) []).
Proof.
  intros R T L rand fuel b es.
  assert (G : forall es k, counted (l_st k) -> counted (l_st (run R T L rand fuel k es))).
  { clear. induction es as [|e es IH]; intros k H; [exact H|]. unfold run in *. cbn [fold_left]. apply IH. clear IH. unfold handle. destruct (dead k); [exact H|]. destruct e as [r|c|id code stt].
    - destruct (l_receiver k); try exact H. destruct (after _) as [s' ph] eqn:EA. cbn [l_st]. replace s' with (fst (s', ph)) by reflexivity. rewrite <- EA, after_st.
      apply counted_bind; [destruct (l_once k); [exact H|rewrite st_of_ignore; apply counted_check; exact H]|]. intros s H'. rewrite st_of_ignore. apply counted_brm. exact H'.
    - destruct (l_sender k); try exact H. cbn [l_st]. unfold clearReceiveStatus, clearRelayMessage. destruct (clear_rms _ _ _); destruct (clear_rss _ _); exact H.
    - destruct (l_sender k); try exact H. destruct (l_mtx k); [exact H|]. pose proof (counted_result R T L rand fuel id code stt (l_st k) H) as HR. rewrite <- after_st in HR.
      destruct (after _) as [s' ph]. cbn [fst] in HR. destruct ph; exact HR. }
  apply G. reflexivity.
Qed.
Print Assumptions C35_size_is_counted.

(** C37: a result that says the message was verified already cuts the queue up to that message. *)
Theorem C37_already_verified_cuts : forall R TxSizeLimit limitSize rand fuel k id stt pre m post, dead k = false -> l_sender k = Running -> l_mtx k = false ->
  rms (l_st k) = pre ++ m :: post -> rm_id m = id -> Forall (fun x => rm_id x <> id) post ->
  let s := l_st (handle R TxSizeLimit limitSize rand fuel k (Result id 27 stt)) in
  rms s = m :: post /\ rss s = rss (l_st k) /\ sent s = sent (l_st k).
Proof.
  intros R T L rand fuel k id stt pre m post HD HS HM E HI HP. cbn zeta. unfold handle. rewrite HD, HS, HM. unfold result_body. cbn [Z.eqb Pos.eqb BMVUnknown BMVNotVerifiable BMVAlreadyVerified].
  destruct (C36_already_verified_kept id (l_st k) pre m post E HI HP) as (s' & ER & H1 & H2). 
  assert (HT : sent s' = sent (l_st k)). { unfold removeRelayMessage in ER. destruct (nth_error _ _); [|discriminate]. assert (s' = set_rms (skipn (last_index id 0 (rms (l_st k)) 0) (rms (l_st k))) (l_st k)) by congruence. subst. reflexivity. }
  change (25 =? 25) with true. unfold BMVUnknown, BMVNotVerifiable, BMVAlreadyVerified. change (27 =? 25) with false. change (27 =? 26) with false. change (27 =? 27) with true. cbv iota. rewrite ER. cbn [after l_st]. auto.
Qed.
Print Assumptions C37_already_verified_cuts.

(** C37: a result that says the witness is too old, while a list is open: what is missing up to the sequence
    noted for the message's height is proved again and sent at once. *)
Theorem C37_old_witness_sends_again : forall R TxSizeLimit limitSize rand fuel k id stt m r x, dead k = false -> l_sender k = Running -> l_mtx k = false ->
  searchRelayMessage id (rms (l_st k)) = Some m -> rmis (l_st k) = [[]] -> size (l_st k) = 0 -> 0 <= TxSizeLimit -> (rm_bls m < length (heap (l_st k)))%nat ->
  getReceiveStatusForHeight (rss (l_st k)) (Height (getb (l_st k) (rm_bls m))) = Some r -> RxSeq (getb (l_st k) (rm_bls m)) < rs_seq r ->
  r_mp R (S (clk (l_st k))) (getb (l_st k) (rm_bls m)) limitSize = Ok (Some x) -> rs_seq r <= RxSeq (it_next x) -> (forall t l, r_msg R t l <> None) ->
  let s := l_st (handle R TxSizeLimit limitSize rand (S (S fuel)) k (Result id 28 stt)) in
  exists n, sent s = sent (l_st k) ++ [n] /\ rm_items n = [x] /\ rm_bls n = rm_bls m /\ getb s (rm_bls m) = it_next x.
Proof.
  intros R T L rand fuel k id stt m r x HD HS HM ES E0 EZ HT HB ER HQ EX HX HN. cbn zeta. unfold handle. rewrite HD, HS, HM. unfold result_body, BMVUnknown, BMVNotVerifiable, BMVAlreadyVerified, BMVRevertInvalidBlockWitnessOld.
  change (28 =? 25) with false. change (28 =? 26) with false. change (28 =? 27) with false. change (28 =? 28) with true. cbv iota. unfold updateBlockProof. rewrite ES. unfold buildProof. rewrite ER.
  destruct (l_st k) as [ck hp ms rs ri sz sn] eqn:EK. cbn [clk heap rms rss rmis size sent] in *. subst ri sz. cbn [proof_loop]. 
  replace (rs_seq r <=? RxSeq (getb (mkSt ck hp ms rs [[]] 0 sn) (rm_bls m))) with false by lia. unfold isOverLimit. cbn [size]. replace (T <? 0) with false by lia. cbv beta iota zeta. unfold buildMessageProof. cbn [tick clk size]. 
  change (getb (tick (mkSt ck hp ms rs [[]] 0 sn)) (rm_bls m)) with (getb (mkSt ck hp ms rs [[]] 0 sn) (rm_bls m)). rewrite Z.sub_0_r, EX.
  unfold append_item. cbn [tick rmis app_last app]. cbn [M_Link.obind UpdateBMCLinkStatus set_bls set_rmis clk heap rms rss rmis size sent tick]. cbn [proof_loop].
  match goal with |- context [rs_seq r <=? ?q] => replace (rs_seq r <=? q) with true by (unfold getb, set_bls, set_rmis, tick; cbn [heap]; rewrite set_nth_same by assumption; lia) end.
  cbn [ignore M_Link.obind]. match goal with |- context [sendRelayMessage R rand ?p ?s] => set (s1 := s); destruct (send_cases R rand p s1) as [s2 [E|E]]; rewrite E; cbn [ignore after l_st] end.
  - destruct (send_ok _ _ _ _ _ E) as (ns & H1 & _ & _ & H4 & _ & _ & H7 & _ & H9). change (rmis s1) with [[x]] in H7. destruct ns as [|n [|n2 ns]]; try discriminate. cbn [map] in H7.
    exists n. split; [exact H4|]. split; [congruence|]. split; [inversion H9; assumption|]. unfold getb. rewrite H1. change (heap s1) with (set_nth hp (rm_bls m) (it_next x)). apply set_nth_same. assumption.
  - exfalso. unfold sendRelayMessage, appendRelayMessage in E. change (rmis s1) with [[x]] in E. cbn [append_loop] in E. destruct (r_msg R (clk s1) [x]) as [mm|] eqn:EM; [discriminate|]. apply (HN _ _ EM).
Qed.
Print Assumptions C37_old_witness_sends_again.

(** Finding: between messages no list is open (sending leaves none), and then the same result takes the index -1
    of the empty list of lists: the panic, held up by the deferred Lock, leaves the sender blocked with nothing sent. *)
Theorem C37_old_witness_lost_refuted : forall R TxSizeLimit limitSize rand fuel k id stt m r x, dead k = false -> l_sender k = Running -> l_mtx k = false ->
  searchRelayMessage id (rms (l_st k)) = Some m -> rmis (l_st k) = [] -> size (l_st k) = 0 -> 0 <= TxSizeLimit ->
  getReceiveStatusForHeight (rss (l_st k)) (Height (getb (l_st k) (rm_bls m))) = Some r -> RxSeq (getb (l_st k) (rm_bls m)) < rs_seq r ->
  r_mp R (S (clk (l_st k))) (getb (l_st k) (rm_bls m)) limitSize = Ok (Some x) ->
  result_body R TxSizeLimit limitSize rand (S fuel) id 28 stt (l_st k) = RPanic (tick (tick (l_st k))) /\
  let k' := handle R TxSizeLimit limitSize rand (S fuel) k (Result id 28 stt) in l_sender k' = Blocked /\ sent (l_st k') = sent (l_st k).
Proof.
  intros R T L rand fuel k id stt m r x HD HS HM ES E0 EZ HT ER HQ EX.
  assert (X : result_body R T L rand (S fuel) id 28 stt (l_st k) = RPanic (tick (tick (l_st k)))).
  { unfold result_body, BMVUnknown, BMVNotVerifiable, BMVAlreadyVerified, BMVRevertInvalidBlockWitnessOld.
    change (28 =? 25) with false. change (28 =? 26) with false. change (28 =? 27) with false. change (28 =? 28) with true. cbv iota. unfold updateBlockProof. rewrite ES. unfold buildProof. rewrite ER.
    cbn [proof_loop]. replace (rs_seq r <=? RxSeq (getb (l_st k) (rm_bls m))) with false by lia. unfold isOverLimit. rewrite EZ. replace (T <? 0) with false by lia. cbv beta iota zeta. unfold buildMessageProof.
    cbn [tick clk size]. change (getb (tick (l_st k)) (rm_bls m)) with (getb (l_st k) (rm_bls m)). rewrite EZ, Z.sub_0_r, EX. unfold append_item. cbn [tick rmis]. rewrite E0. reflexivity. }
  split; [exact X|]. cbn zeta. unfold handle. rewrite HD, HS, HM, X. cbn [after l_st l_sender]. auto.
Qed.
Print Assumptions C37_old_witness_lost_refuted.

(** * Concrete cases *)
Example C35_ex_size : let s := l_st (run ex_R 1000 900 Z.of_nat 9 (NewLink (mkBls 0 4 7)) [Notify (mkRstat 8 6); Notify (mkRstat 9 12)]) in size s = 0 /\ length (sent s) = 2%nat /\
  map (fun m => bytes_of (rm_items m)) (sent s) = [15; 25].
Proof. vm_compute. auto. Qed.
(** one message sent, its height noted with two more messages than were proved *)
Definition ex_k (lists : list (list item)) : lk := mkLk (mkSt 3 [mkBls 0 4 7] [mkRmsg 6 0 0 [] []; mkRmsg 9 0 0 [] []] [mkRstat 7 6] lists 0 []) 0 true false Running Running.
Example C37_ex_old : map rm_items (sent (l_st (handle ex_R 1000 900 Z.of_nat 9 (ex_k [[]]) (Result 9 28 None)))) = [[ex_mp (mkBls 0 4 7) 6]] /\
  l_sender (handle ex_R 1000 900 Z.of_nat 9 (ex_k []) (Result 9 28 None)) = Blocked /\ sent (l_st (handle ex_R 1000 900 Z.of_nat 9 (ex_k []) (Result 9 28 None))) = [].
Proof. vm_compute. auto. Qed.
Example C37_ex_cut : map rm_id (rms (l_st (handle ex_R 1000 900 Z.of_nat 9 (ex_k [[]]) (Result 9 27 None)))) = [9].
Proof. vm_compute. auto. Qed.
