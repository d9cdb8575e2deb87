(** One block handled by the link with a bridge receiver. *)
From Coq Require Import String Ascii ZArith List Bool Lia.
From Coq Require Import ZifyBool.
From Verif Require Import Base L_Base M_Link M_Receive M_Bridge L_Btp2 M_Brl.
Import ListNotations.
Open Scope Z_scope.

Section RELAY.
Variable A : Type.
Variables hgt sq : A -> Z.
Variable note : Type.
Variable arrive : note -> bls -> Z -> result (option (Z * A)).
Variable mproof : list A -> bls -> Z -> result (option (Z * list Z)).
Variable TxSizeLimit limitSize : Z.
Variable rand : nat -> Z.
Variable fuel : nat.
Notation F := (S (S fuel)).
Notation build := (build A hgt sq mproof TxSizeLimit limitSize rand F).
Notation told := (told A hgt sq mproof TxSizeLimit limitSize rand F).
Notation fetch := (fetch A hgt sq note arrive).
Definition go := (brun A hgt sq note arrive mproof TxSizeLimit limitSize rand F).
Notation recv := (recv A hgt sq mproof).
Notation step := (bstep A hgt sq note arrive mproof TxSizeLimit limitSize rand F).
Notation rstat_of r := (mkRstat (hgt r) (sq r)).

(** the last block reported, if it is still there *)
Definition old (q h : Z) (k : lk) (prior : list A) : Prop := prior = [] \/ (exists r0, prior = [r0] /\ hgt r0 <= h /\ sq r0 <= q) /\ l_once k = true.
(** between two blocks *)
Definition between (k : lk) (tx q h : Z) : Prop :=
  idle k /\ (0 < length (heap (l_st k)))%nat /\ getb (l_st k) 0 = mkBls tx q h /\
  (rmis (l_st k) = [] \/ rmis (l_st k) = [[]]) /\ size (l_st k) = 0 /\ Forall (fun r => rs_height r <= h) (rss (l_st k)).

Lemma shorten : forall tx q h k prior r more, old q h k prior -> h < hgt r -> Forall (fun z => h < hgt z) more ->
  updateReceiveStatus A hgt sq (mkBls tx q h) (prior ++ r :: more) = r :: more.
Proof.
  intros tx q h k prior r more O L Fm. unfold updateReceiveStatus. destruct O as [->|[(r0 & -> & O1 & O2) _]]; cbn [app first_done Height RxSeq].
  - replace (hgt r <=? h) with false by lia. cbn [andb]. replace (first_done A hgt sq (mkBls tx q h) more) with (@None (list A)); [reflexivity|].
    symmetry. induction Fm as [|z zs Hz Fm IH]; [reflexivity|]. cbn [first_done Height RxSeq]. replace (hgt z <=? h) with false by lia. exact IH.
  - replace (hgt r0 <=? h) with true by lia. replace (sq r0 <=? q) with true by lia. reflexivity.
Qed.

Section ONE.
Variables (y : bst A) (tx q h : Z) (prior more : list A) (r : A).
Hypothesis T0 : 0 <= TxSizeLimit.
Hypothesis Bw : between (b_link y) tx q h.
Hypothesis Op : old q h (b_link y) prior.
Hypothesis Hl : b_rss y = prior ++ r :: more.
Hypothesis Ht : b_taken y = Some (rstat_of r).
Hypothesis Hh : h < hgt r.
Hypothesis H0 : 0 < hgt r.
Hypothesis Hq : q < sq r.
Hypothesis Fm : Forall (fun z => h < hgt z /\ 0 < hgt z /\ q < sq z) more.

Let k := b_link y.
Let b := mkBls tx q h.
Let u := blockUpdate A hgt b r.
Let sB := if l_once k then l_st k else tick (l_st k).
Let l := prior ++ r :: more.
Let seen := fun t => if (t <? clk sB)%nat then l else times A hgt sq (Nat.min (t - clk sB) 1) b l.
Let sA := set_rss (rss sB ++ [rstat_of r]) sB.

Lemma check_passes : forall R, (l_once k = false -> forall q', r_hfs R (clk (l_st k)) q' = heightForSeq A hgt sq l q') ->
  (if l_once k then ROk (l_st k) else ignore (checkStatus R TxSizeLimit limitSize rand F (l_ptr k) (l_st k))) = ROk sB.
Proof using Bw Op Hh H0 Hq Fm.
  intros R HR. unfold sB. destruct (l_once k) eqn:Eo; [reflexivity|]. destruct Op as [Ep|[_ Ep]]; [|fold k in Ep; congruence].
  destruct Bw as ((I1 & I2 & I3) & Hp & Hg & Hr & Hz & Hf). fold k in I1, I2, I3, Hp, Hg, Hr, Hz, Hf.
  unfold checkStatus. cbn [check_loop]. rewrite (HR eq_refl), I3, Hg. cbn [RxSeq].
  assert (FF : heightForSeq A hgt sq l q = 0).
  { unfold l. rewrite Ep. cbn [app]. cbn [heightForSeq]. replace ((q <=? sq r) && (sq r <=? q)) with false by lia.
    clear - Fm. induction Fm as [|z zs Z1 Z2 IH]; cbn [heightForSeq]; [reflexivity|]. replace ((q <=? sq z) && (sq z <=? q)) with false by lia. apply IH. assumption. }
  rewrite FF. change (0 =? 0) with true. cbv iota. cbn [obind tick size]. rewrite Hz. reflexivity.
Qed.
Lemma built : exists o, build y = mkB (b_follows y) o (r :: more) (b_count y) (b_waiting y) None /\
  let (s', ph) := after (ignore (BuildRelayMessage (recv seen) TxSizeLimit limitSize rand F 0 sA)) in o = mkLk s' 0 true (l_mtx k) (l_sender k) ph.
Proof using Bw Op Hl Ht Hh H0 Hq Fm.
  pose proof (shorten tx q h k prior r more Op Hh ltac:(revert Fm; apply Forall_impl; intros; lia)) as SO. fold b l in SO.
  assert (B7 : l_once k = false -> clk sB = S (clk (l_st k))) by (unfold sB; intros ->; reflexivity).
  destruct Bw as ((I1 & I2 & I3) & Hp & Hg & Hr & Hz & Hf). fold k in I1, I2, I3, Hp, Hg, Hr, Hz, Hf.
  assert (GB : getb sB 0 = b) by (unfold sB; destruct (l_once k); exact Hg).
  assert (LS : lists A hgt sq mproof TxSizeLimit limitSize rand F k l = (seen, r :: more)).
  { unfold lists. rewrite check_passes by reflexivity. cbv zeta. rewrite I3, GB. cbn [shortened]. rewrite SO. reflexivity. }
  eexists. split.
  - unfold M_Brl.build. rewrite Ht. fold k. rewrite I1, I2, Hl. fold l. rewrite LS. reflexivity.
  - unfold handle. rewrite I1, I2. rewrite (check_passes (recv seen)).
    + cbn [obind]. rewrite I3. fold sA. destruct (after _) as [s' ph]. reflexivity.
    + intros Eo q'. cbn [M_Brl.recv r_hfs]. unfold seen. rewrite B7 by exact Eo. replace (clk (l_st k) <? S (clk (l_st k)))%nat with true by (symmetry; apply Nat.ltb_lt; lia). reflexivity.
Qed.
Lemma asked : (rmis sA = [] \/ rmis sA = [[]]) /\ size sA = 0 /\ (0 < length (heap sA))%nat /\
  r_bus (recv seen) (clk sA) (getb sA 0) limitSize = Some (u :: map (blockUpdate A hgt b) more) /\
  getReceiveStatusForHeight (rss sA) (hgt r) = Some (rstat_of r) /\ sent sA = sent (l_st k) /\ rss sA = rss (l_st k) ++ [rstat_of r] /\
  (forall x limit, r_mp (recv seen) (S (clk sA)) x limit = messageProof A mproof (r :: more) x limit).
Proof using Bw Op Hh Fm.
  pose proof (shorten tx q h k prior r more Op Hh ltac:(revert Fm; apply Forall_impl; intros; lia)) as SO. fold b l in SO.
  destruct Bw as ((I1 & I2 & I3) & Hp & Hg & Hr & Hz & Hf). fold k in I1, I2, I3, Hp, Hg, Hr, Hz, Hf.
  assert (SB : heap sB = heap (l_st k) /\ rmis sB = rmis (l_st k) /\ size sB = 0 /\ rss sB = rss (l_st k) /\ sent sB = sent (l_st k)).
  { unfold sB. destruct (l_once k); cbn [tick heap rmis size rss sent]; rewrite ?Hz; auto 10. }
  destruct SB as (B1 & B2 & B3 & B4 & B5). unfold sA. cbn [set_rss rmis size heap rss sent clk]. rewrite B1, B2, B4, B5.
  split; [exact Hr|]. split; [exact B3|]. split; [exact Hp|]. split.
  { change (getb (set_rss (rss (l_st k) ++ [rstat_of r]) sB) 0) with (getb sB 0). assert (GB : getb sB 0 = b) by (unfold getb; rewrite B1; exact Hg). rewrite GB.
    cbn [M_Brl.recv r_bus]. unfold seen. replace (clk sB <? clk sB)%nat with false by (symmetry; apply Nat.ltb_ge; lia). rewrite Nat.sub_diag. cbn [Nat.min times]. rewrite SO. reflexivity. }
  split. { apply (forHeight_last (rss (l_st k)) (rstat_of r)). revert Hf. apply Forall_impl. intros z Z1. cbn [rs_height]. lia. }
  split; [reflexivity|]. split; [reflexivity|]. intros x limit. cbn [M_Brl.recv r_mp]. unfold seen. replace (S (clk sB) <? clk sB)%nat with false by (symmetry; apply Nat.ltb_ge; lia).
  replace (S (clk sB) - clk sB)%nat with 1%nat by lia. cbn [Nat.min times]. rewrite SO. reflexivity.
Qed.
Lemma build_sends : forall q' pl, mproof (r :: more) (mkBls tx q (hgt r)) limitSize = Ok (Some (q', pl)) -> sq r <= q' ->
  exists m, let y' := build y in
    l_sender (b_link y') = l_sender k /\ l_receiver (b_link y') = (match more with [] => Running | _ => Crashed end) /\ l_ptr (b_link y') = 0%nat /\ l_once (b_link y') = true /\
    (0 < length (heap (l_st (b_link y'))))%nat /\ getb (l_st (b_link y')) 0 = mkBls tx q' (hgt r) /\
    rmis (l_st (b_link y')) = [] /\ size (l_st (b_link y')) = 0 /\ rss (l_st (b_link y')) = rss (l_st k) ++ [rstat_of r] /\
    sent (l_st (b_link y')) = sent (l_st k) ++ [m] /\ rm_message m = pl /\
    b_follows y' = b_follows y /\ b_rss y' = r :: more /\ b_count y' = b_count y /\ b_waiting y' = b_waiting y /\ b_taken y' = None.
Proof using T0 Bw Op Hl Ht Hh H0 Hq Fm.
  intros q' pl MP Hq'. destruct asked as (A1 & A2 & A3 & A4 & A5 & A6 & A7 & A8). destruct built as (o & BE & BO).
  set (mi := messageItem (mkBls tx q (hgt r)) (q', pl)).
  destruct (round (recv seen) TxSizeLimit limitSize rand fuel 0%nat sA (rstat_of r) u (map (blockUpdate A hgt b) more) [u; mi] pl) as (s' & m & R1 & R2 & R3 & R4 & R5 & R6 & R7 & R8 & R9 & R10);
    try assumption; try reflexivity.
  - unfold u. cbn [blockUpdate it_proofHeight]. lia.
  - unfold u. cbn [blockUpdate it_len]. lia.
  - right. unfold u. cbn [blockUpdate it_next it_len rs_seq RxSeq b]. split; [lia|]. exists mi. split; [reflexivity|]. split; [|unfold mi; cbn [messageItem it_next fst RxSeq]; lia].
    rewrite A8. unfold u. cbn [blockUpdate it_len it_next]. unfold b. cbn [TxSeq RxSeq]. rewrite Z.sub_0_r. unfold messageProof. rewrite MP. reflexivity.
  - rewrite R1 in BO. assert (AF : after (ignore match map (blockUpdate A hgt b) more with [] => ROk s' | _ => RPanic s' end) = (s', match more with [] => Running | _ => Crashed end)) by (destruct more; reflexivity).
    rewrite AF in BO. exists m. cbv zeta. rewrite BE, BO. cbn [b_follows b_link b_rss b_count b_waiting b_taken l_st l_ptr l_once l_sender l_receiver].
    split; [reflexivity|]. split; [reflexivity|]. split; [reflexivity|]. split; [reflexivity|]. split; [lia|]. split; [exact R10|]. split; [exact R7|]. split; [exact R8|].
    split; [congruence|]. split; [congruence|]. split; [exact R3|]. auto.
Qed.
Lemma build_crashes : mproof (r :: more) (mkBls tx q (hgt r)) limitSize = Panic ->
  dead (b_link (build y)) = true /\ sent (l_st (b_link (build y))) = sent (l_st k).
Proof using T0 Bw Op Hl Ht Hh H0 Hq Fm.
  intros MP. destruct asked as (A1 & A2 & A3 & A4 & A5 & A6 & A7 & A8). destruct built as (o & BE & BO).
  destruct (round_panic (recv seen) TxSizeLimit limitSize rand (S fuel) 0%nat sA (rstat_of r) u (map (blockUpdate A hgt b) more)) as (s' & R1 & R2); try assumption; try reflexivity.
  - unfold u. cbn [blockUpdate it_proofHeight]. lia.
  - unfold u. cbn [blockUpdate it_len]. lia.
  - unfold u. cbn [blockUpdate it_next rs_seq RxSeq b]. lia.
  - rewrite A8. unfold u. cbn [blockUpdate it_len it_next]. unfold b. cbn [TxSeq RxSeq]. rewrite Z.sub_0_r. unfold messageProof. rewrite MP. reflexivity.
  - rewrite R1 in BO. cbn [ignore after] in BO. rewrite BE, BO. cbn [b_link l_st]. unfold dead. cbn [l_sender l_receiver]. split; [destruct (l_sender k); reflexivity|congruence].
Qed.
End ONE.

(** ** The order of things: a block is notified, taken and handled before the next one is notified.  The sender may report any
    status at any time, but does report one. *)
Definition steps (n : note) : list (bevent note) := [Fetch n; Take; Build].
Definition not_told (e : bevent note) : bool := match e with Told _ => false | _ => true end.
Definition in_turn (ns : list note) (es : list (bevent note)) : Prop := filter not_told es = flat_map steps ns /\ ~ In (Told None) es.

Definition quiet (y y' : bst A) : Prop :=
  b_follows y' = b_follows y /\ b_rss y' = b_rss y /\ b_count y' = b_count y /\ b_waiting y' = b_waiting y /\ b_taken y' = b_taken y /\
  l_ptr (b_link y') = l_ptr (b_link y) /\ l_once (b_link y') = l_once (b_link y) /\ l_receiver (b_link y') = l_receiver (b_link y) /\ dead (b_link y') = dead (b_link y) /\
  heap (l_st (b_link y')) = heap (l_st (b_link y)) /\ rmis (l_st (b_link y')) = rmis (l_st (b_link y)) /\ size (l_st (b_link y')) = size (l_st (b_link y)) /\
  sent (l_st (b_link y')) = sent (l_st (b_link y)) /\ (forall P, Forall P (rss (l_st (b_link y))) -> Forall P (rss (l_st (b_link y')))).
Lemma quiet_refl : forall y, quiet y y. Proof. intros y. unfold quiet. auto 20. Qed.
Lemma quiet_trans : forall a b c, quiet a b -> quiet b c -> quiet a c.
Proof.
  intros a b c (A0 & A1 & A2 & A3 & A4 & A5 & A6 & A7 & A8 & A9 & A10 & A11 & A12 & A13) (B0 & B1 & B2 & B3 & B4 & B5 & B6 & B7 & B8 & B9 & B10 & B11 & B12 & B13).
  unfold quiet. repeat (split; [congruence|]). auto.
Qed.
Lemma told_quiet : forall y b, quiet y (told y (Some b)).
Proof.
  intros y b. unfold M_Brl.told. cbv zeta. unfold handle. destruct (dead (b_link y)) eqn:Ed; [destruct y; apply quiet_refl|].
  destruct (l_sender (b_link y)) eqn:Es; try (destruct y; apply quiet_refl).
  unfold quiet. cbn [b_follows b_link b_rss b_count b_waiting b_taken l_st l_ptr l_once l_receiver]. unfold clearReceiveStatus, clearRelayMessage.
  set (s := l_st (b_link y)). set (s1 := match clear_rms s b (rms s) with Some r => set_rms r s | None => s end).
  assert (E : heap s1 = heap s /\ rmis s1 = rmis s /\ size s1 = size s /\ sent s1 = sent s /\ rss s1 = rss s) by (unfold s1; destruct (clear_rms s b (rms s)); cbn; auto).
  destruct E as (E1 & E2 & E3 & E4 & E5). clearbody s1.
  assert (Dd : dead (mkLk (match clear_rss b (rss s1) with Some r => set_rss r s1 | None => s1 end) (l_ptr (b_link y)) (l_once (b_link y)) (l_mtx (b_link y)) Running (l_receiver (b_link y))) = dead (b_link y)).
  { unfold dead. cbn [l_sender l_receiver]. rewrite Es. reflexivity. }
  repeat (split; [try reflexivity; try exact Dd; try (destruct (clear_rss b (rss s1)); cbn [set_rss heap rmis size sent]; congruence)|]).
  intros P Q. rewrite <- E5 in Q.
  assert (C : forall l r, clear_rss b l = Some r -> Forall P l -> Forall P r).
  { clear. induction l as [|z l IH]; intros r E F; cbn [clear_rss] in E; [discriminate|]. inversion F; subst. destruct (_ && _); [injection E as <-; assumption|apply IH; assumption]. }
  destruct (clear_rss b (rss s1)) as [r|] eqn:Er; cbn [set_rss rss]; [apply (C _ _ Er Q)|exact Q].
Qed.
(** The next event other than a status *)
Lemma next_event : forall es e rest, filter not_told es = e :: rest -> ~ In (Told None) es -> forall y,
  exists y1 es', quiet y y1 /\ go y es = go (step y1 e) es' /\ filter not_told es' = rest /\ ~ In (Told None) es'.
Proof.
  induction es as [|z es IH]; intros e rest E NN y; cbn [filter] in E; [discriminate|]. destruct (not_told z) eqn:Ez.
  - injection E as -> E. exists y, es. split; [apply quiet_refl|]. split; [reflexivity|]. split; [exact E|]. intros I. apply NN. right. exact I.
  - destruct z as [hd| | |[b|]]; try discriminate; [|exfalso; apply NN; left; reflexivity].
    destruct (IH e rest E (fun I => NN (or_intror I)) (told y (Some b))) as (y1 & es' & Q & R & R1 & R2).
    exists y1, es'. split; [apply (quiet_trans _ _ _ (told_quiet y b) Q)|]. split; [exact R|]. auto.
Qed.
Lemma no_event : forall es, filter not_told es = [] -> ~ In (Told None) es -> forall y, quiet y (go y es).
Proof.
  induction es as [|z es IH]; intros E NN y; cbn [filter] in E; [apply quiet_refl|]. destruct (not_told z) eqn:Ez; [discriminate|].
  destruct z as [hd| | |[b|]]; try discriminate; [|exfalso; apply NN; left; reflexivity].
  apply (quiet_trans _ _ _ (told_quiet y b)). apply (IH E (fun I => NN (or_intror I))).
Qed.
Lemma dead_stays : forall es y, dead (b_link y) = true -> dead (b_link (go y es)) = true /\ sent (l_st (b_link (go y es))) = sent (l_st (b_link y)).
Proof.
  unfold go, brun. induction es as [|e es IH]; intros y D; [auto|]. cbn [fold_left].
  assert (X : dead (b_link (step y e)) = true /\ sent (l_st (b_link (step y e))) = sent (l_st (b_link y))).
  { destruct e as [hd| | |b]; cbn [bstep].
    - unfold M_Brl.fetch. rewrite D, orb_true_r. auto.
    - unfold take. destruct (b_taken y), (b_waiting y); auto.
    - unfold M_Brl.build. destruct (b_taken y); [|auto]. rewrite D. auto.
    - unfold M_Brl.told. cbv zeta. destruct b as [b|]; [unfold handle; rewrite D; auto|]. rewrite D. auto. }
  destruct (IH _ (proj1 X)) as [I1 I2]. split; [exact I1|]. rewrite I2. apply X.
Qed.

(** The relay between two blocks, and the number the receiver has counted to. *)
Definition resting (y : bst A) (tx q h c : Z) : Prop :=
  b_follows y = true /\ between (b_link y) tx q h /\ old q h (b_link y) (b_rss y) /\ b_count y = c /\ b_waiting y = None /\ b_taken y = None.
Lemma between_quiet : forall y y' tx q h, quiet y y' -> between (b_link y) tx q h -> between (b_link y') tx q h.
Proof.
  intros y y' tx q h (A0 & A1 & A2 & A3 & A4 & A5 & A6 & A7 & A8 & A9 & A10 & A11 & A12 & A13) ((B1 & B2 & B3) & B4 & B5 & B6 & B7 & B8).
  unfold between, idle, getb in *. rewrite A5, A7, A8, A9, A10, A11. auto 10.
Qed.
Lemma old_quiet : forall y y' q h prior, quiet y y' -> old q h (b_link y) prior -> old q h (b_link y') prior.
Proof. intros y y' q h prior (_ & _ & _ & _ & _ & _ & A6 & _) [->|[E B]]; [left; reflexivity|right]. rewrite A6. auto. Qed.
Lemma resting_quiet : forall y y' tx q h c, quiet y y' -> resting y tx q h c -> resting y' tx q h c.
Proof.
  intros y y' tx q h c Q (R1 & R2 & R3 & R4 & R5 & R6). pose proof (between_quiet _ _ _ _ _ Q R2) as B. pose proof (old_quiet _ _ _ _ _ Q R3) as O.
  destruct Q as (A0 & A1 & A2 & A3 & A4 & _). unfold resting. rewrite A0, A1, A2, A3, A4. auto 10.
Qed.

(** What a notification gives: nothing, or a block with the messages made of it. *)
Definition ignored (n : note) (b : bls) (c : Z) : Prop := arrive n b c = Ok None \/ exists e, arrive n b c = Err e.
Definition gives (n : note) (tx q h c : Z) (c' : Z) (r : A) : Prop := arrive n (mkBls tx q h) c = Ok (Some (c', r)) /\ h < hgt r /\ 0 < hgt r /\ q < sq r.
Inductive feeds (tx : Z) : Z -> Z -> Z -> list note -> list (list Z) -> Z -> Z -> Z -> Prop :=
| feeds_end : forall q h c, feeds tx q h c [] [] q h c
| feeds_skip : forall q h c n ns ps q2 h2 c2, ignored n (mkBls tx q h) c -> feeds tx q h c ns ps q2 h2 c2 -> feeds tx q h c (n :: ns) ps q2 h2 c2
| feeds_block : forall q h c n ns ps q2 h2 c2 c' r q' pl, gives n tx q h c c' r -> mproof [r] (mkBls tx q (hgt r)) limitSize = Ok (Some (q', pl)) -> sq r <= q' ->
    feeds tx q' (hgt r) c' ns ps q2 h2 c2 -> feeds tx q h c (n :: ns) (pl :: ps) q2 h2 c2.

(** A block is notified and taken; the link is about to handle it. *)
Lemma offered : forall n es rest y tx q h c c' r, resting y tx q h c -> gives n tx q h c c' r -> filter not_told es = steps n ++ rest -> ~ In (Told None) es ->
  exists y' es', go y es = go (build y') es' /\ filter not_told es' = rest /\ ~ In (Told None) es' /\
    b_follows y' = true /\ between (b_link y') tx q h /\ old q h (b_link y') (b_rss y) /\ b_rss y' = b_rss y ++ [r] /\ b_count y' = c' /\ b_waiting y' = None /\ b_taken y' = Some (rstat_of r) /\
    sent (l_st (b_link y')) = sent (l_st (b_link y)).
Proof.
  intros n es rest y tx q h c c' r Re (G1 & G2 & G3 & G4) E NN. unfold steps in E. cbn [app] in E.
  destruct (next_event _ _ _ E NN y) as (y1 & es1 & Q1 & R1 & E1 & NN1). pose proof (resting_quiet _ _ _ _ _ _ Q1 Re) as (F1 & F2 & F3 & F4 & F5 & F6).
  assert (RS1 : b_rss y1 = b_rss y) by apply Q1. assert (SE1 : sent (l_st (b_link y1)) = sent (l_st (b_link y))) by apply Q1.
  assert (Dd : dead (b_link y1) = false) by apply F2. assert (Pt : l_ptr (b_link y1) = 0%nat) by apply F2. assert (Gb : getb (l_st (b_link y1)) 0 = mkBls tx q h) by apply F2.
  assert (FE : fetch y1 n = mkB true (b_link y1) (b_rss y ++ [r]) c' (Some (rstat_of r)) None).
  { unfold M_Brl.fetch. rewrite F1, Dd. cbn [negb orb]. rewrite F5, Pt, Gb, F4, G1, RS1, F6. reflexivity. }
  cbn [bstep] in R1. rewrite FE in R1.
  destruct (next_event _ _ _ E1 NN1 (mkB true (b_link y1) (b_rss y ++ [r]) c' (Some (rstat_of r)) None)) as (y2 & es2 & Q2 & R2 & E2 & NN2).
  assert (B2 : between (b_link y2) tx q h) by (apply (between_quiet _ _ _ _ _ Q2); exact F2). assert (O2 : old q h (b_link y2) (b_rss y)) by (rewrite <- RS1; apply (old_quiet _ _ _ _ _ Q2); exact F3).
  destruct Q2 as (P0 & P1 & P2 & P3 & P4 & _ & _ & _ & _ & _ & _ & _ & P5 & _). cbn [b_follows b_rss b_count b_waiting b_taken b_link] in *.
  assert (TE : take A y2 = mkB (b_follows y2) (b_link y2) (b_rss y ++ [r]) c' None (Some (rstat_of r))) by (unfold take; rewrite P1, P2, P3, P4; reflexivity).
  cbn [bstep] in R2. rewrite TE in R2.
  destruct (next_event _ _ _ E2 NN2 (mkB (b_follows y2) (b_link y2) (b_rss y ++ [r]) c' None (Some (rstat_of r)))) as (y3 & es3 & Q3 & R3 & E3 & NN3).
  exists y3, es3. split; [rewrite R1, R2, R3; reflexivity|]. split; [exact E3|]. split; [exact NN3|].
  assert (B3 : between (b_link y3) tx q h) by (apply (between_quiet _ _ _ _ _ Q3); exact B2). assert (O3 : old q h (b_link y3) (b_rss y)) by (apply (old_quiet _ _ _ _ _ Q3); exact O2).
  destruct Q3 as (M0 & M1 & M2 & M3 & M4 & _ & _ & _ & _ & _ & _ & _ & M5 & _). cbn [b_follows b_rss b_count b_waiting b_taken b_link] in *.
  repeat (split; [congruence || assumption|]). congruence.
Qed.
(** A notification that gives nothing. *)
Lemma skipped : forall n es rest y tx q h c, resting y tx q h c -> ignored n (mkBls tx q h) c -> filter not_told es = steps n ++ rest -> ~ In (Told None) es ->
  exists y' es', go y es = go y' es' /\ filter not_told es' = rest /\ ~ In (Told None) es' /\ resting y' tx q h c /\ sent (l_st (b_link y')) = sent (l_st (b_link y)).
Proof.
  intros n es rest y tx q h c Re G E NN. unfold steps in E. cbn [app] in E.
  destruct (next_event _ _ _ E NN y) as (y1 & es1 & Q1 & R1 & E1 & NN1). pose proof (resting_quiet _ _ _ _ _ _ Q1 Re) as Re1. pose proof Re1 as (F1 & F2 & F3 & F4 & F5 & F6).
  assert (SE1 : sent (l_st (b_link y1)) = sent (l_st (b_link y))) by apply Q1.
  assert (Dd : dead (b_link y1) = false) by apply F2. assert (Pt : l_ptr (b_link y1) = 0%nat) by apply F2. assert (Gb : getb (l_st (b_link y1)) 0 = mkBls tx q h) by apply F2.
  assert (FE : fetch y1 n = y1). { unfold M_Brl.fetch. rewrite F1, Dd. cbn [negb orb]. rewrite F5, Pt, Gb, F4. destruct G as [->|[e ->]]; reflexivity. }
  cbn [bstep] in R1. rewrite FE in R1.
  destruct (next_event _ _ _ E1 NN1 y1) as (y2 & es2 & Q2 & R2 & E2 & NN2). pose proof (resting_quiet _ _ _ _ _ _ Q2 Re1) as Re2. pose proof Re2 as (_ & _ & _ & _ & W2 & T2).
  assert (SE2 : sent (l_st (b_link y2)) = sent (l_st (b_link y1))) by apply Q2.
  assert (TE : take A y2 = y2) by (unfold take; rewrite W2, T2; reflexivity). cbn [bstep] in R2. rewrite TE in R2.
  destruct (next_event _ _ _ E2 NN2 y2) as (y3 & es3 & Q3 & R3 & E3 & NN3). pose proof (resting_quiet _ _ _ _ _ _ Q3 Re2) as Re3. pose proof Re3 as (_ & _ & _ & _ & _ & T3).
  assert (SE3 : sent (l_st (b_link y3)) = sent (l_st (b_link y2))) by apply Q3.
  assert (BE : build y3 = y3) by (unfold M_Brl.build; rewrite T3; reflexivity). cbn [bstep] in R3. rewrite BE in R3.
  exists y3, es3. split; [rewrite R1, R2, R3; reflexivity|]. repeat (split; [assumption|]). congruence.
Qed.
Lemma all_blocks : 0 <= TxSizeLimit -> forall tx q h c ns ps q2 h2 c2, feeds tx q h c ns ps q2 h2 c2 -> forall y es rest, resting y tx q h c ->
  filter not_told es = flat_map steps ns ++ rest -> ~ In (Told None) es ->
  exists y' es' ms, go y es = go y' es' /\ filter not_told es' = rest /\ ~ In (Told None) es' /\ resting y' tx q2 h2 c2 /\
    sent (l_st (b_link y')) = sent (l_st (b_link y)) ++ ms /\ map rm_message ms = ps.
Proof.
  intros T0 tx q h c ns ps q2 h2 c2 Fd. induction Fd as [q h c|q h c n ns ps q2 h2 c2 Ig Fd IH|q h c n ns ps q2 h2 c2 c' r q' pl Gv Mp Ls Fd IH]; intros y es rest Re E NN.
  - exists y, es, []. rewrite app_nil_r. repeat (split; [reflexivity || assumption|]). reflexivity.
  - cbn [flat_map] in E. rewrite <- app_assoc in E. destruct (skipped _ _ _ _ _ _ _ _ Re Ig E NN) as (y1 & es1 & R1 & E1 & NN1 & Re1 & S1).
    destruct (IH y1 es1 rest Re1 E1 NN1) as (y' & es' & ms & R2 & E2 & NN2 & Re2 & S2 & M2). exists y', es', ms. split; [congruence|]. repeat (split; [assumption|]). split; [congruence|exact M2].
  - cbn [flat_map] in E. rewrite <- app_assoc in E. pose proof Gv as (G1 & G2 & G3 & G4).
    destruct (offered _ _ _ _ _ _ _ _ _ _ Re Gv E NN) as (y1 & es1 & R1 & E1 & NN1 & F1 & F2 & F3 & F4 & F5 & F6 & F7 & F8).
    destruct (build_sends y1 tx q h (b_rss y) [] r T0 F2 F3 F4 F7 G2 G3 G4 (Forall_nil _) q' pl Mp Ls) as (m & B1 & B2 & B3 & B4 & B5 & B6 & B7 & B8 & B9 & B10 & B11 & B12 & B13 & B14 & B15 & B16).
    assert (Re1 : resting (build y1) tx q' (hgt r) c').
    { split; [congruence|]. split; [|split; [right; split; [exists r; split; [exact B13|lia]|exact B4]|split; [congruence|split; [congruence|exact B16]]]].
      split. { split; [|split; [exact B2|exact B3]]. destruct F2 as ((F2 & F2' & _) & _). unfold dead in *. rewrite B1, B2. rewrite F2' in F2. exact F2. }
      split; [exact B5|]. split; [exact B6|]. split; [left; exact B7|]. split; [exact B8|]. rewrite B9. apply Forall_app. split.
      - destruct F2 as (_ & _ & _ & _ & _ & F2). revert F2. apply Forall_impl. intros z Z1. lia.
      - constructor; [|constructor]. cbn [rs_height]. lia. }
    destruct (IH (build y1) es1 rest Re1 E1 NN1) as (y' & es' & ms & R2 & E2 & NN2 & Re2 & S2 & M2).
    exists y', es', (m :: ms). split; [congruence|]. repeat (split; [assumption|]). split; [rewrite S2, B10, F8, <- app_assoc; reflexivity|]. cbn [map]. rewrite B11, M2. reflexivity.
Qed.
Lemma start_resting : forall tx q h c, resting (bstart A true c (mkBls tx q h)) tx q h c.
Proof. intros tx q h c. unfold resting, between, idle, old, bstart, NewLink, dead, getb. cbn. repeat split; auto. Qed.

(** What the link sends, from the start. *)
Lemma fed : forall tx q h c ns ps q2 h2 c2 es, 0 <= TxSizeLimit -> feeds tx q h c ns ps q2 h2 c2 -> in_turn ns es ->
  let k := b_link (go (bstart A true c (mkBls tx q h)) es) in dead k = false /\ map rm_message (sent (l_st k)) = ps /\ getb (l_st k) (l_ptr k) = mkBls tx q2 h2.
Proof.
  intros tx q h c ns ps q2 h2 c2 es T0 Fd [E NN]. rewrite <- (app_nil_r (flat_map steps ns)) in E.
  destruct (all_blocks T0 _ _ _ _ _ _ _ _ _ Fd _ _ _ (start_resting tx q h c) E NN) as (y' & es' & ms & R & E' & NN' & Re & S & M). cbv zeta. rewrite R.
  pose proof (no_event _ E' NN' y') as Q. pose proof (resting_quiet _ _ _ _ _ _ Q Re) as (_ & ((D & _ & P) & _ & G & _) & _). assert (SE : sent (l_st (b_link (go y' es'))) = sent (l_st (b_link y'))) by apply Q.
  split; [exact D|]. split; [rewrite SE, S; cbn [bstart b_link NewLink l_st sent app]; exact M|]. rewrite P. exact G.
Qed.
(** The same up to a block whose messages crash the relay. *)
Lemma fed_crash : forall tx q h c ns ps q2 h2 c2 es n more c' r, 0 <= TxSizeLimit -> feeds tx q h c ns ps q2 h2 c2 -> gives n tx q2 h2 c2 c' r -> mproof [r] (mkBls tx q2 (hgt r)) limitSize = Panic ->
  in_turn (ns ++ n :: more) es ->
  let k := b_link (go (bstart A true c (mkBls tx q h)) es) in dead k = true /\ map rm_message (sent (l_st k)) = ps.
Proof.
  intros tx q h c ns ps q2 h2 c2 es n more c' r T0 Fd Gv Mp [E NN]. rewrite flat_map_app in E. pose proof Gv as (G1 & G2 & G3 & G4).
  destruct (all_blocks T0 _ _ _ _ _ _ _ _ _ Fd _ _ _ (start_resting tx q h c) E NN) as (y1 & es1 & ms & R & E1 & NN1 & Re & S & M). cbv zeta. rewrite R. cbn [flat_map] in E1.
  destruct (offered _ _ _ _ _ _ _ _ _ _ Re Gv E1 NN1) as (y2 & es2 & R2 & E2 & NN2 & F1 & F2 & F3 & F4 & F5 & F6 & F7 & F8). rewrite R2.
  destruct (build_crashes y2 tx q2 h2 (b_rss y1) [] r T0 F2 F3 F4 F7 G2 G3 G4 (Forall_nil _) Mp) as [D DS].
  destruct (dead_stays es2 (build y2) D) as [D1 D2]. split; [exact D1|]. rewrite D2, DS, F8, S. cbn [bstart b_link NewLink l_st sent app]. exact M.
Qed.
(** ... or a notification that crashes the receiver. *)
Lemma fed_fetch_crash : forall tx q h c ns ps q2 h2 c2 es n more, 0 <= TxSizeLimit -> feeds tx q h c ns ps q2 h2 c2 -> arrive n (mkBls tx q2 h2) c2 = Panic -> in_turn (ns ++ n :: more) es ->
  let k := b_link (go (bstart A true c (mkBls tx q h)) es) in dead k = true /\ map rm_message (sent (l_st k)) = ps.
Proof.
  intros tx q h c ns ps q2 h2 c2 es n more T0 Fd Ar [E NN]. rewrite flat_map_app in E.
  destruct (all_blocks T0 _ _ _ _ _ _ _ _ _ Fd _ _ _ (start_resting tx q h c) E NN) as (y1 & es1 & ms & R & E1 & NN1 & Re & S & M). cbv zeta. rewrite R. cbn [flat_map steps app] in E1.
  destruct (next_event _ _ _ E1 NN1 y1) as (y2 & es2 & Q & R2 & E2 & NN2). pose proof (resting_quiet _ _ _ _ _ _ Q Re) as (F1 & F2 & F3 & F4 & F5 & F6).
  assert (SE : sent (l_st (b_link y2)) = sent (l_st (b_link y1))) by apply Q. assert (Dd : dead (b_link y2) = false) by apply F2. assert (Pt : l_ptr (b_link y2) = 0%nat) by apply F2. assert (Gb : getb (l_st (b_link y2)) 0 = mkBls tx q2 h2) by apply F2.
  assert (FE : fetch y2 n = mkB (b_follows y2) (crashed (b_link y2)) (b_rss y2) (b_count y2) (b_waiting y2) (b_taken y2)) by (unfold M_Brl.fetch; rewrite F1, Dd; cbn [negb orb]; rewrite F5, Pt, Gb, F4, Ar; reflexivity).
  cbn [bstep] in R2. rewrite FE in R2. rewrite R2.
  destruct (dead_stays es2 (mkB (b_follows y2) (crashed (b_link y2)) (b_rss y2) (b_count y2) (b_waiting y2) (b_taken y2))) as [D1 D2]. { cbn [b_link]. unfold crashed, dead. cbn [l_sender l_receiver]. destruct (l_sender (b_link y2)); reflexivity. }
  split; [exact D1|]. rewrite D2. cbn [b_link crashed l_st]. rewrite SE, S. exact M.
Qed.
(** Two blocks at once: the second is notified before the link has handled the first. *)
Lemma fed_together : forall tx q h c ns ps q2 h2 c2 n1 n2 c' r1 c3 r2 q' pl es0 more, 0 <= TxSizeLimit -> feeds tx q h c ns ps q2 h2 c2 -> in_turn ns es0 ->
  gives n1 tx q2 h2 c2 c' r1 -> gives n2 tx q2 h2 c' c3 r2 ->
  mproof [r1; r2] (mkBls tx q2 (hgt r1)) limitSize = Ok (Some (q', pl)) -> sq r1 <= q' ->
  let k := b_link (go (bstart A true c (mkBls tx q h)) (es0 ++ [Fetch n1; Take; Fetch n2; Build] ++ more)) in dead k = true /\ map rm_message (sent (l_st k)) = ps ++ [pl].
Proof.
  intros tx q h c ns ps q2 h2 c2 n1 n2 c' r1 c3 r2 q' pl es0 more T0 Fd [E NN] G1 G2 Mp Ls. cbv zeta. unfold go, brun. rewrite fold_left_app. fold (brun A hgt sq note arrive mproof TxSizeLimit limitSize rand F (bstart A true c (mkBls tx q h)) es0). fold (go (bstart A true c (mkBls tx q h)) es0).
  rewrite <- (app_nil_r (flat_map steps ns)) in E.
  destruct (all_blocks T0 _ _ _ _ _ _ _ _ _ Fd _ _ _ (start_resting tx q h c) E NN) as (y' & es' & ms & R & E' & NN' & Re & S & M). rewrite R.
  pose proof (no_event _ E' NN' y') as Q. pose proof (resting_quiet _ _ _ _ _ _ Q Re) as Rz. assert (SZ : sent (l_st (b_link (go y' es'))) = sent (l_st (b_link y'))) by apply Q. rewrite S in SZ. set (z := go y' es') in *. clearbody z.
  destruct G1 as (A1 & A2 & A3 & A4). destruct G2 as (C1 & C2 & C3 & C4). pose proof Rz as (F1 & F2 & F3 & F4 & F5 & F6).
  assert (Dd : dead (b_link z) = false) by apply F2. assert (Pt : l_ptr (b_link z) = 0%nat) by apply F2. assert (Gb : getb (l_st (b_link z)) 0 = mkBls tx q2 h2) by apply F2.
  cbn [app fold_left bstep]. rewrite fold_left_app || idtac.
  assert (E1 : fetch z n1 = mkB true (b_link z) (b_rss z ++ [r1]) c' (Some (rstat_of r1)) None) by (unfold M_Brl.fetch; rewrite F1, Dd; cbn [negb orb]; rewrite F5, Pt, Gb, F4, A1, F6; reflexivity).
  rewrite E1. unfold take. cbn [b_taken b_waiting b_follows b_link b_rss b_count].
  assert (E2 : fetch (mkB true (b_link z) (b_rss z ++ [r1]) c' None (Some (rstat_of r1))) n2 = mkB true (b_link z) (b_rss z ++ [r1; r2]) c3 (Some (rstat_of r2)) (Some (rstat_of r1))).
  { unfold M_Brl.fetch. cbn [b_taken b_waiting b_follows b_link b_rss b_count]. rewrite Dd. cbn [negb orb]. rewrite Pt, Gb, C1, <- app_assoc. reflexivity. }
  rewrite E2. set (w := mkB true (b_link z) (b_rss z ++ [r1; r2]) c3 (Some (rstat_of r2)) (Some (rstat_of r1))).
  destruct (build_sends w tx q2 h2 (b_rss z) [r2] r1 T0 F2 F3 eq_refl eq_refl A2 A3 A4 ltac:(constructor; [auto|constructor]) q' pl Mp Ls) as (m & B1 & B2 & B3 & B4 & B5 & B6 & B7 & B8 & B9 & B10 & B11 & _).
  assert (D : dead (b_link (build w)) = true) by (unfold dead; rewrite B2; destruct (l_sender _); reflexivity).
  destruct (dead_stays more (build w) D) as [D1 D2]. unfold go, brun in D1, D2. split; [exact D1|]. match goal with |- map rm_message ?x = _ => change x with (sent (l_st (b_link (fold_left step more (build w))))) end. rewrite D2, B10. change (b_link w) with (b_link z). rewrite SZ. cbn [bstart b_link NewLink l_st sent app]. rewrite map_app. cbn [map]. rewrite M, B11. reflexivity.
Qed.

(** A block the destination already has: the link finds no update to build and asks again for ever. *)
Lemma only : forall tx q h r l, hgt r = h -> sq r <= q -> l = [r] \/ l = [] -> updateReceiveStatus A hgt sq (mkBls tx q h) l = [].
Proof. intros tx q h r l E L [->| ->]; unfold updateReceiveStatus; cbn [first_done Height RxSeq]; [|reflexivity]. replace (hgt r <=? h) with true by lia. replace (sq r <=? q) with true by lia. reflexivity. Qed.
Lemma header_spins : forall tx q h r seen, hgt r = h -> sq r <= q -> (forall t, seen t = [r] \/ seen t = []) -> forall f p s, getb s p = mkBls tx q h -> exists s', getHeader (recv seen) limitSize f p s = inl s' /\ sent s' = sent s.
Proof.
  intros tx q h r seen E L SN f p. induction f as [|f IH]; intros s G; cbn [getHeader]; [eauto|]. cbn [M_Brl.recv r_bus]. rewrite G, (only tx q h r) by auto. cbn [map].
  destruct (IH (tick s) G) as (s' & I1 & I2). exists s'. split; [exact I1|exact I2].
Qed.
Lemma again_spins : forall tx q h c r, hgt r = h -> sq r <= q -> 0 < h -> (forall l, l = [r] \/ l = [] -> mproof l (mkBls tx q h) limitSize = Ok None) ->
  let k := b_link (build (mkB true (NewLink (mkBls tx q h)) [r] c None (Some (rstat_of r)))) in l_receiver k = Spinning /\ sent (l_st k) = [].
Proof.
  intros tx q h c r E L P Mp. assert (ON : forall n, times A hgt sq n (mkBls tx q h) [r] = [r] \/ times A hgt sq n (mkBls tx q h) [r] = []).
  { intros [|n]; [left; reflexivity|right]. cbn [times]. rewrite (only tx q h r) by auto. induction n as [|n IH]; [reflexivity|]. cbn [times]. rewrite (only tx q h r) by auto. exact IH. }
  assert (CK : forall seen, (forall t, seen t = [r] \/ seen t = []) -> exists s, checkStatus (recv seen) TxSizeLimit limitSize rand F 0 (l_st (NewLink (mkBls tx q h))) = ROk s /\
    heap s = [mkBls tx q h] /\ sent s = [] /\ rmis s = [[]]).
  { intros seen SN. unfold checkStatus. cbn [check_loop M_Brl.recv r_hfs r_mp]. change (getb (l_st (NewLink (mkBls tx q h))) 0) with (mkBls tx q h). change (getb (tick (l_st (NewLink (mkBls tx q h)))) 0) with (mkBls tx q h).
    change (size (tick (l_st (NewLink (mkBls tx q h))))) with 0. rewrite Z.sub_0_r. cbn [RxSeq Height].
    assert (HS : heightForSeq A hgt sq (seen (clk (l_st (NewLink (mkBls tx q h))))) q = 0 \/ heightForSeq A hgt sq (seen (clk (l_st (NewLink (mkBls tx q h))))) q = h).
    { destruct (SN (clk (l_st (NewLink (mkBls tx q h))))) as [-> | ->]; cbn [heightForSeq]; [|auto]. rewrite E. destruct (_ && _); auto. }
    unfold messageProof. rewrite (Mp _ (SN _)). destruct HS as [-> | ->].
    - change (0 =? 0) with true. cbv iota. cbn [obind tick NewLink l_st size]. change (0 <? 0) with false. cbv iota. eexists. split; [reflexivity|]. auto.
    - replace (h =? 0) with false by lia. rewrite Z.eqb_refl. cbn [obind tick NewLink l_st size]. change (0 <? 0) with false. cbv iota. eexists. split; [reflexivity|]. auto. }
  cbv zeta. unfold M_Brl.build. cbn [b_taken b_link b_rss b_follows b_count b_waiting]. change (dead (NewLink (mkBls tx q h))) with false. change (l_receiver (NewLink (mkBls tx q h))) with Running. cbv iota.
  unfold lists. change (l_once (NewLink (mkBls tx q h))) with false. cbv iota. change (l_ptr (NewLink (mkBls tx q h))) with 0%nat.
  destruct (CK (fun _ => [r]) (fun _ => or_introl eq_refl)) as (s0 & C0 & _). rewrite C0. cbn [ignore]. cbv zeta.
  assert (GS0 : exists n l', shortened A hgt sq F (getb s0 0) [r] = (n, l')) by (destruct (shortened A hgt sq F (getb s0 0) [r]) as [n l']; eauto). destruct GS0 as (n & l' & ->). cbn [b_link].
  set (seen := fun t => if (t <? clk s0)%nat then [r] else times A hgt sq (Nat.min (t - clk s0) n) (getb s0 0) [r]).
  assert (B0 : getb s0 0 = mkBls tx q h). { destruct (CK (fun _ => [r]) (fun _ => or_introl eq_refl)) as (s & C & Hp & _). assert (s = s0) by congruence. subst s. unfold getb. rewrite Hp. reflexivity. }
  assert (SN : forall t, seen t = [r] \/ seen t = []) by (intros t; unfold seen; destruct (_ <? _)%nat; [left; reflexivity|]; rewrite B0; apply ON).
  unfold handle. change (dead (NewLink (mkBls tx q h))) with false. change (l_receiver (NewLink (mkBls tx q h))) with Running. change (l_once (NewLink (mkBls tx q h))) with false. cbv iota. change (l_ptr (NewLink (mkBls tx q h))) with 0%nat.
  destruct (CK seen SN) as (s1 & C1 & Hp & Se & Rm). rewrite C1. cbn [ignore obind]. unfold BuildRelayMessage. cbn [set_rss rmis]. rewrite Rm. 
  destruct (header_spins tx q h r seen E L SN F 0%nat (set_rss (rss s1 ++ [rstat_of r]) s1)) as (s' & I1 & I2); [unfold getb, set_rss; cbn [heap]; rewrite Hp; reflexivity|].
  rewrite I1. cbn [ignore after l_receiver l_st]. split; [reflexivity|]. rewrite I2. exact Se.
Qed.
End RELAY.
