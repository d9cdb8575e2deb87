(** One block handled by the link with the BTP block receiver. *)
From Coq Require Import ZArith List Bool Lia.
From Coq Require Import ZifyBool.
From Verif Require Import Base L_Base M_Mbt M_Link M_Receive T_Receive M_Btp2.
From Verif Require M_Wire.
Import ListNotations.
Open Scope Z_scope.

Lemma set_nth_at : forall A (l : list A) n x d, (n < length l)%nat -> nth n (set_nth l n x) d = x.
Proof. induction l as [|y l IH]; intros [|n] x d L; cbn [length] in L; try lia; cbn [set_nth nth]; [reflexivity|]. apply IH. lia. Qed.
Lemma set_nth_len : forall A (l : list A) n x, length (set_nth l n x) = length l.
Proof. induction l as [|y l IH]; intros [|n] x; cbn [set_nth length]; try reflexivity. rewrite IH. reflexivity. Qed.

Lemma forHeight_last : forall l r, Forall (fun x => rs_height x < rs_height r) l -> getReceiveStatusForHeight (l ++ [r]) (rs_height r) = Some r.
Proof.
  intros l r F. induction F as [|x l Hx F IH]; cbn [app getReceiveStatusForHeight]; [rewrite Z.eqb_refl; reflexivity|].
  replace (rs_height x =? rs_height r) with false by lia. exact IH.
Qed.

(** What one call of BuildRelayMessage does when there is one block update and, if the block has messages, one proof of them all. *)
Section ROUND.
Variable R : receiver.
Variable TxSizeLimit limitSize : Z.
Variable rand : nat -> Z.

Lemma round : forall fuel p s r x more body msg,
  (rmis s = [] \/ rmis s = [[]]) -> size s = 0 -> (p < length (heap s))%nat ->
  r_bus R (clk s) (getb s p) limitSize = Some (x :: more) ->
  Height (it_next x) = rs_height r -> it_proofHeight x <> -1 -> 0 <= it_len x <= TxSizeLimit ->
  getReceiveStatusForHeight (rss s) (rs_height r) = Some r ->
  (rs_seq r = RxSeq (it_next x) /\ body = [x] \/
   rs_seq r > RxSeq (it_next x) /\ exists m, body = [x; m] /\ r_mp R (S (clk s)) (it_next x) (limitSize - it_len x) = Ok (Some m) /\ rs_seq r <= RxSeq (it_next m)) ->
  (forall t, r_msg R t body = Some msg) ->
  exists s' m, BuildRelayMessage R TxSizeLimit limitSize rand (S (S fuel)) p s = (match more with [] => ROk s' | _ => RPanic s' end) /\
    sent s' = sent s ++ [m] /\ rm_message m = msg /\ rm_items m = body /\ rms s' = rms s ++ [m] /\ rss s' = rss s /\ rmis s' = [] /\ size s' = 0 /\ length (heap s') = length (heap s) /\
    getb s' p = it_next (last body x).
Proof.
  intros fuel p s r x more body msg Hr Hz Hp Hb Hh Hq Hl Hg Hc Hm.
  unfold BuildRelayMessage.
  set (s0 := match rmis s with [] => createRelayMessageItem s | _ => s end).
  assert (S0 : rmis s0 = [[]] /\ size s0 = 0 /\ heap s0 = heap s /\ clk s0 = clk s /\ rss s0 = rss s /\ sent s0 = sent s /\ rms s0 = rms s).
  { unfold s0. destruct Hr as [E|E]; rewrite E; [|auto 10]. unfold createRelayMessageItem. cbn [set_rmis rmis size heap clk rss sent rms]. rewrite E. auto 10. }
  destruct S0 as (Z1 & Z2 & Z3 & Z4 & Z5 & Z6 & Z7). clearbody s0.
  assert (GH : getHeader R limitSize (S (S fuel)) p s0 = inr (tick s0, Some (x :: more))).
  { cbn [getHeader]. rewrite Z4, Z2, Z.sub_0_r. unfold getb. rewrite Z3. fold (getb s p). rewrite Hb. reflexivity. }
  rewrite GH. cbn [update_loop].
  assert (AI : append_item x (tick s0) = ROk (set_rmis [[x]] (it_len x) (tick s0))).
  { unfold append_item. cbn [tick rmis size]. rewrite Z1, Z2. cbn [app_last app]. rewrite Z.add_0_l. reflexivity. }
  rewrite AI. cbn [obind]. unfold UpdateBMCLinkStatus at 1. cbn [obind].
  set (s1 := set_bls p (it_next x) (set_rmis [[x]] (it_len x) (tick s0))).
  assert (S1 : rmis s1 = [[x]] /\ size s1 = it_len x /\ clk s1 = S (clk s) /\ rss s1 = rss s /\ sent s1 = sent s /\ rms s1 = rms s /\ getb s1 p = it_next x /\ length (heap s1) = length (heap s)).
  { unfold s1, getb. cbn [set_bls set_rmis tick rmis size clk rss sent rms heap]. rewrite Z4, Z5, Z6, Z7, Z3, set_nth_at, set_nth_len by exact Hp. auto 10. }
  destruct S1 as (A1 & A2 & A3 & A4 & A5 & A6 & A7 & A8). clearbody s1.
  assert (BP : exists s2, buildProof R TxSizeLimit limitSize rand (S (S fuel)) p (Some x) s1 = ROk s2 /\ rmis s2 = [body] /\ rss s2 = rss s /\ sent s2 = sent s /\ rms s2 = rms s /\
                 getb s2 p = it_next (last body x) /\ length (heap s2) = length (heap s)).
  { unfold buildProof. rewrite A4, A7, Hh, Hg. remember (S fuel) as f1 eqn:Ef. cbn [proof_loop]. rewrite A7. destruct Hc as [[C1 ->]|[C1 (m & -> & C2 & C3)]].
    - replace (rs_seq r <=? RxSeq (it_next x)) with true by lia. exists s1. cbn [last]. auto 10.
    - replace (rs_seq r <=? RxSeq (it_next x)) with false by lia. unfold isOverLimit. rewrite A2. replace (TxSizeLimit <? it_len x) with false by lia. cbv iota beta.
      replace (it_proofHeight x =? -1) with false by lia. unfold buildMessageProof. rewrite A3, A2, A7, C2. unfold append_item. cbn [tick rmis size]. rewrite A1. cbn [app_last app obind].
      unfold UpdateBMCLinkStatus at 1. cbn [obind].
      match goal with |- exists _, proof_loop _ _ _ _ _ _ _ _ ?z = _ /\ _ => set (s2 := z) end.
      assert (G2 : getb s2 p = it_next m) by (unfold s2, getb; cbn [set_bls set_rmis tick heap]; apply set_nth_at; lia).
      subst f1. cbn [proof_loop]. rewrite G2. replace (rs_seq r <=? RxSeq (it_next m)) with true by lia. exists s2. split; [reflexivity|]. cbn [last]. rewrite G2.
      unfold s2. cbn [set_bls set_rmis tick rmis rss sent rms heap last]. rewrite set_nth_len. auto 10. }
  destruct BP as (s2 & B1 & B2 & B3 & B4 & B5 & B6 & B7). rewrite B1. cbn [obind].
  unfold sendRelayMessage at 1. unfold appendRelayMessage. rewrite B2. cbn [append_loop]. rewrite Hm. cbn [fold_left obind].
  match goal with |- context [mkRmsg ?a ?b ?c ?d ?e] => set (mm := mkRmsg a b c d e) end.
  set (s3 := add_sent mm (set_rmis [] 0 (tick (tick (tick s2))))).
  exists s3, mm. split.
  { destruct more as [|z more]; cbn [update_loop obind].
    - unfold isOverLimit. replace (size s3) with 0 by reflexivity. replace (TxSizeLimit <? 0) with false by lia. reflexivity.
    - unfold append_item at 1. replace (rmis s3) with (@nil (list item)) by reflexivity. cbn [app_last obind]. reflexivity. }
 unfold s3, getb. cbn [add_sent set_rmis tick rmis size clk rss sent rms heap].
  split; [rewrite B4; reflexivity|]. split; [reflexivity|]. split; [reflexivity|]. split; [rewrite B5; reflexivity|]. split; [exact B3|]. split; [reflexivity|]. split; [reflexivity|]. split; [exact B7|]. exact B6.
Qed.
(** The same when building the proof panics. *)
Lemma round_panic : forall fuel p s r x more,
  (rmis s = [] \/ rmis s = [[]]) -> size s = 0 -> (p < length (heap s))%nat ->
  r_bus R (clk s) (getb s p) limitSize = Some (x :: more) ->
  Height (it_next x) = rs_height r -> it_proofHeight x <> -1 -> 0 <= it_len x <= TxSizeLimit ->
  getReceiveStatusForHeight (rss s) (rs_height r) = Some r -> rs_seq r > RxSeq (it_next x) ->
  r_mp R (S (clk s)) (it_next x) (limitSize - it_len x) = Panic ->
  exists s', BuildRelayMessage R TxSizeLimit limitSize rand (S fuel) p s = RPanic s' /\ sent s' = sent s.
Proof.
  intros fuel p s r x more Hr Hz Hp Hb Hh Hq Hl Hg Hc Hm.
  unfold BuildRelayMessage.
  set (s0 := match rmis s with [] => createRelayMessageItem s | _ => s end).
  assert (S0 : rmis s0 = [[]] /\ size s0 = 0 /\ heap s0 = heap s /\ clk s0 = clk s /\ rss s0 = rss s /\ sent s0 = sent s).
  { unfold s0. destruct Hr as [E|E]; rewrite E; [|auto 10]. unfold createRelayMessageItem. cbn [set_rmis rmis size heap clk rss sent rms]. rewrite E. auto 10. }
  destruct S0 as (Z1 & Z2 & Z3 & Z4 & Z5 & Z6). clearbody s0.
  assert (GH : getHeader R limitSize (S fuel) p s0 = inr (tick s0, Some (x :: more))).
  { cbn [getHeader]. rewrite Z4, Z2, Z.sub_0_r. unfold getb. rewrite Z3. fold (getb s p). rewrite Hb. reflexivity. }
  rewrite GH. cbn [update_loop].
  assert (AI : append_item x (tick s0) = ROk (set_rmis [[x]] (it_len x) (tick s0))).
  { unfold append_item. cbn [tick rmis size]. rewrite Z1, Z2. cbn [app_last app]. rewrite Z.add_0_l. reflexivity. }
  rewrite AI. cbn [obind]. unfold UpdateBMCLinkStatus at 1. cbn [obind].
  set (s1 := set_bls p (it_next x) (set_rmis [[x]] (it_len x) (tick s0))).
  assert (S1 : size s1 = it_len x /\ clk s1 = S (clk s) /\ rss s1 = rss s /\ sent s1 = sent s /\ getb s1 p = it_next x).
  { unfold s1, getb. cbn [set_bls set_rmis tick rmis size clk rss sent rms heap]. rewrite Z4, Z5, Z6, Z3, set_nth_at by exact Hp. auto 10. }
  destruct S1 as (A2 & A3 & A4 & A5 & A7). clearbody s1.
  unfold buildProof. rewrite A4, A7, Hh, Hg. cbn [proof_loop]. rewrite A7.
  replace (rs_seq r <=? RxSeq (it_next x)) with false by lia. unfold isOverLimit. rewrite A2. replace (TxSizeLimit <? it_len x) with false by lia. cbv iota beta.
  replace (it_proofHeight x =? -1) with false by lia. unfold buildMessageProof. rewrite A3, A2, A7, Hm. cbn [obind]. exists (tick s1). split; [reflexivity|exact A5].
Qed.
End ROUND.

(** ** The receiver with the last block reported and the next one *)
Lemma shorten_one : forall b q h h' q' t0 t' prior mr, Forall (fun x => h < b_height x) mr -> prior = [] \/ prior = [mkBrs h q t0] -> Height b = h -> RxSeq b = q -> h < h' ->
  updateReceiveStatus b (prior ++ mkBrs h' q' t' :: mr) = mkBrs h' q' t' :: mr.
Proof.
  intros b q h h' q' t0 t' prior mr Fm [->| ->] E1 E2 L; unfold updateReceiveStatus; cbn [app first_done b_height b_seq]; rewrite E1, E2.
  - replace (h' <=? h) with false by lia. cbn [andb first_done].
    replace (first_done b mr) with (@None (list brs)); [reflexivity|]. clear L. induction Fm as [|z mr Hz Fm IH]; [reflexivity|]. cbn [first_done]. rewrite E1.
    replace (b_height z <=? h) with false by lia. exact IH.
  - replace (h <=? h) with true by lia. replace (q <=? q) with true by lia. reflexivity.
Qed.

(** The loop over longer and longer proofs passes them all. *)
Lemma all_measured : forall f t rx cnt limit i, 1 <= i ->
  (forall e, i <= e < cnt -> exists m, mbt_Proof t 1 e = Ok m /\ measured m <= limit) ->
  b_proof_loop measured f t rx 0 cnt limit i = Ok None.
Proof.
  induction f as [|f IH]; intros t rx cnt limit i Hi HE; cbn [b_proof_loop]; [reflexivity|].
  destruct (i <? cnt) eqn:E; [|reflexivity]. destruct (HE i ltac:(lia)) as (m & E1 & E2). change (0 + 1) with 1. rewrite E1. cbn [rbind].
  replace (limit <? measured m) with false by lia. apply IH; [lia|]. intros e He. apply HE. lia.
Qed.

Lemma proof_of_all : forall t more tx q h limit m, mbt_Len t > 0 -> zlen (p_contents m) = mbt_Len t ->
  mbt_Proof t 1 (mbt_Len t) = Ok m ->
  (forall e, 1 <= e < mbt_Len t -> exists m, mbt_Proof t 1 e = Ok m /\ measured m <= limit) ->
  messageProof (mkBrs h (q + mbt_Len t) t :: more) (mkBls tx q h) limit = Ok (Some (NewMessageProof (mkBls tx q h) (q + mbt_Len t) true m)).
Proof.
  intros t more tx q h limit m HL HC EM HE. unfold messageProof, b_BuildMessageProof. cbn [Height RxSeq b_forHeight b_height b_seq b_tree]. rewrite Z.eqb_refl.
  cbn [b_seq b_tree]. set (n := mbt_Len t) in *. replace (q - (q + n) =? 0) with false by lia. replace (0 <? n) with true by lia. replace (q - (q + n - n)) with 0 by lia.
  change (0 + 1) with 1. rewrite all_measured by (lia || assumption). cbn [rbind]. rewrite EM. cbn [rbind].
  rewrite HC. unfold M_Wire.is_all. fold n. rewrite ?Z.add_0_l, ?Z.eqb_refl. cbn [andb]. reflexivity.
Qed.

Section RECV.
Variable N : node.
Variable TxSizeLimit limitSize : Z.
Variable rand : nat -> Z.
Variable fuel : nat.
Let F := S (S fuel).

Definition idle (k : lk) : Prop := dead k = false /\ l_receiver k = Running /\ l_ptr k = 0%nat.

(** Handling one block: what the link asks and does. *)
Lemma build_one : forall y tx q h r t0 t' prior mr x more body msg, Forall (fun x => h < b_height x /\ 0 < b_height x) mr ->
  idle (y_link y) -> (0 < length (heap (l_st (y_link y))))%nat -> getb (l_st (y_link y)) 0 = mkBls tx q h ->
  (rmis (l_st (y_link y)) = [] \/ rmis (l_st (y_link y)) = [[]]) -> size (l_st (y_link y)) = 0 ->
  Forall (fun x => rs_height x < rs_height r) (rss (l_st (y_link y))) ->
  prior = [] \/ prior = [mkBrs h q t0] /\ l_once (y_link y) = true ->
  h < rs_height r -> 0 < rs_height r ->
  y_taken y = Some r -> y_rss y = prior ++ mkBrs (rs_height r) (rs_seq r) t' :: mr ->
  updates N (mkBrs (rs_height r) (rs_seq r) t' :: mr) (mkBls tx q h) limitSize = Some (x :: more) ->
  it_next x = mkBls tx q (rs_height r) -> it_proofHeight x = rs_height r -> 0 <= it_len x <= TxSizeLimit ->
  (rs_seq r = q /\ body = [x] \/
   rs_seq r > q /\ exists m, body = [x; m] /\ messageProof (mkBrs (rs_height r) (rs_seq r) t' :: mr) (mkBls tx q (rs_height r)) (limitSize - it_len x) = Ok (Some m) /\
      it_next m = mkBls tx (rs_seq r) (rs_height r)) ->
  M_Wire.BuildRelayMessage (map typed body) = Some msg ->
  exists m, let y' := build N TxSizeLimit limitSize rand F y in
    l_sender (y_link y') = l_sender (y_link y) /\ l_receiver (y_link y') = (match more with [] => Running | _ => Crashed end) /\ l_ptr (y_link y') = 0%nat /\ l_once (y_link y') = true /\ (0 < length (heap (l_st (y_link y'))))%nat /\ getb (l_st (y_link y')) 0 = mkBls tx (rs_seq r) (rs_height r) /\
    rmis (l_st (y_link y')) = [] /\ size (l_st (y_link y')) = 0 /\ rss (l_st (y_link y')) = rss (l_st (y_link y)) ++ [r] /\
    sent (l_st (y_link y')) = sent (l_st (y_link y)) ++ [m] /\ rm_message m = msg /\ rm_items m = body /\
    y_follows y' = y_follows y /\ y_rss y' = mkBrs (rs_height r) (rs_seq r) t' :: mr /\ y_seq y' = y_seq y /\ y_waiting y' = y_waiting y /\ y_taken y' = None.
Proof.
  intros y tx q h r t0 t' prior mr x more body msg Fm (I1 & I2 & I3) Hp Hg Hr Hz Hf Hprior Hh Hh0 Ht Hl Hu Hx1 Hx2 Hx3 Hb Hm.
  set (k := y_link y) in *. set (new := mkBrs (rs_height r) (rs_seq r) t') in *. set (l := prior ++ new :: mr) in *.
  assert (SO : updateReceiveStatus (mkBls tx q h) l = new :: mr).
  { apply (shorten_one _ q h _ _ t0); try reflexivity; [apply Forall_impl with (2 := Fm); intros; cbn beta in *; lia| |exact Hh]. destruct Hprior as [E|[E _]]; auto. }
  (* checkStatus *)
  set (o := if l_once k then ROk (l_st k) else ignore (checkStatus (recv N (fun _ => l)) TxSizeLimit limitSize rand F (l_ptr k) (l_st k))).
  set (sB := if l_once k then l_st k else tick (l_st k)).
  assert (CS : forall R, (forall q', r_hfs R (clk (l_st k)) q' = b_GetHeightForSeq l q') ->
    (if l_once k then ROk (l_st k) else ignore (checkStatus R TxSizeLimit limitSize rand F (l_ptr k) (l_st k))) = ROk sB).
  { intros R HR. unfold sB. destruct (l_once k) eqn:Eo; [reflexivity|]. destruct Hprior as [Ep|[_ Ep]]; [|discriminate].
    unfold checkStatus, F. cbn [check_loop]. rewrite HR, I3, Hg. cbn [RxSeq].
    assert (G : getb (tick (l_st k)) 0 = mkBls tx q h) by exact Hg. rewrite G. cbn [Height].
    assert (FF : b_GetHeightForSeq l q = 0 \/ h < b_GetHeightForSeq l q /\ 0 < b_GetHeightForSeq l q).
    { unfold l. rewrite Ep. cbn [app]. assert (FA : Forall (fun x => h < b_height x /\ 0 < b_height x) (new :: mr)) by (constructor; [unfold new; cbn [b_height]; lia|exact Fm]).
      unfold b_GetHeightForSeq. clear - FA. induction FA as [|z zs Hz FA IH]; cbn [b_forSequence]; [left; reflexivity|]. destruct (_ && _); [right; exact Hz|exact IH]. }
    destruct FF as [->|[F1 F2]].
    - change (0 =? 0) with true. cbv iota. cbn [obind tick size]. rewrite Hz. reflexivity.
    - replace (b_GetHeightForSeq l q =? 0) with false by lia. replace (b_GetHeightForSeq l q =? h) with false by lia. replace (b_GetHeightForSeq l q <? h) with false by lia.
      cbn [obind]. cbn [tick size]. rewrite Hz. reflexivity. }
  assert (SB : heap sB = heap (l_st k) /\ rmis sB = rmis (l_st k) /\ size sB = 0 /\ rss sB = rss (l_st k) /\ sent sB = sent (l_st k) /\ rms sB = rms (l_st k) /\ (l_once k = false -> clk sB = S (clk (l_st k)))).
  { unfold sB. destruct (l_once k); cbn [tick heap rmis size rss sent rms clk]; rewrite ?Hz; auto 10. repeat split; auto. discriminate. }
  destruct SB as (B1 & B2 & B3 & B4 & B5 & B6 & B7).
  assert (GB : getb sB 0 = mkBls tx q h) by (unfold getb; rewrite B1; exact Hg).
  set (seen := fun t => if (t <? clk sB)%nat then l else times (Nat.min (t - clk sB) 1) (mkBls tx q h) l).
  assert (LS : lists N TxSizeLimit limitSize rand F k l = (seen, new :: mr)).
  { unfold lists. rewrite CS by reflexivity. cbv zeta. rewrite I3, GB.
    assert (Z0 : size (match rmis sB with [] => createRelayMessageItem sB | _ => sB end) = 0) by (destruct (rmis sB); [reflexivity|exact B3]).
    rewrite Z0, Z.sub_0_r. unfold F. cbn [shortened]. rewrite SO, Hu. reflexivity. }
  unfold build. rewrite Ht. fold k. rewrite I1, I2, Hl, LS. cbv zeta. cbn [y_follows y_link y_rss y_seq y_waiting y_taken].
  set (R := recv N seen).
  assert (CR : (if l_once k then ROk (l_st k) else ignore (checkStatus R TxSizeLimit limitSize rand F (l_ptr k) (l_st k))) = ROk sB).
  { pose proof (CS R) as CR. clear CS. destruct (l_once k) eqn:Eo; [unfold sB; rewrite ?Eo; reflexivity|]. apply CR. intros q'. unfold R. cbn [recv r_hfs]. unfold seen.
    rewrite B7 by reflexivity. replace (clk (l_st k) <? S (clk (l_st k)))%nat with true by (symmetry; apply Nat.ltb_lt; lia). reflexivity. }
  unfold handle. rewrite I1, I2, CR. cbn [obind]. rewrite I3.
  set (sA := set_rss (rss sB ++ [r]) sB).
  destruct (round R TxSizeLimit limitSize rand fuel 0%nat sA r x more body msg) as (s' & m & R1 & R2 & R3 & R4 & R5 & R6 & R7 & R8 & R9 & R10).
  - unfold sA. cbn [set_rss rmis]. rewrite B2. exact Hr.
  - unfold sA. cbn [set_rss size]. exact B3.
  - unfold sA. cbn [set_rss heap]. rewrite B1. exact Hp.
  - unfold sA. cbn [set_rss clk]. change (getb (set_rss (rss sB ++ [r]) sB) 0) with (getb sB 0). rewrite GB. unfold R. cbn [recv r_bus]. unfold seen.
    replace (clk sB <? clk sB)%nat with false by (symmetry; apply Nat.ltb_ge; lia). rewrite Nat.sub_diag. cbn [Nat.min times]. rewrite SO. exact Hu.
  - rewrite Hx1. reflexivity.
  - rewrite Hx2. lia.
  - exact Hx3.
  - unfold sA. cbn [set_rss rss]. rewrite B4. apply forHeight_last. exact Hf.
  - rewrite Hx1. cbn [RxSeq]. destruct Hb as [Hb|[Hb (m & M1 & M2 & M3)]]; [left; exact Hb|right]. split; [exact Hb|]. exists m. split; [exact M1|]. split; [|rewrite M3; cbn [RxSeq]; lia].
    unfold sA. cbn [set_rss clk]. unfold R. cbn [recv r_mp]. unfold seen. replace (S (clk sB) <? clk sB)%nat with false by (symmetry; apply Nat.ltb_ge; lia).
    replace (S (clk sB) - clk sB)%nat with 1%nat by lia. cbn [Nat.min times]. rewrite SO. exact M2.
  - intros t. unfold R. cbn [recv r_msg]. exact Hm.
  - unfold F, sA in *. rewrite R1.
    assert (AF : after (ignore match more with [] => ROk s' | _ => RPanic s' end) = (s', match more with [] => Running | _ => Crashed end)) by (destruct more; reflexivity).
    rewrite AF. exists m. cbv zeta. cbn [y_follows y_link y_rss y_seq y_waiting y_taken l_st l_ptr l_once l_sender l_receiver].
    split; [reflexivity|]. split; [reflexivity|]. split; [reflexivity|].
    split; [reflexivity|]. split; [rewrite R9; unfold sA; cbn [set_rss heap]; rewrite B1; exact Hp|].
    split. { rewrite R10. destruct Hb as [[Hb ->]|[Hb (m' & -> & M2 & M3)]]; cbn [last]; [rewrite Hx1, Hb; reflexivity|exact M3]. }
    split; [exact R7|]. split; [exact R8|]. split; [rewrite R6; unfold sA; cbn [set_rss rss]; rewrite B4; reflexivity|].
    split; [rewrite R2; unfold sA; cbn [set_rss sent]; rewrite B5; reflexivity|]. split; [exact R3|]. split; [exact R4|]. auto.
Qed.
End RECV.
