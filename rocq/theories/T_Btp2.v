(** C95: the relay with the BTP block receiver brings the messages of the source chain to the verifier. *)
From Coq Require Import String Ascii ZArith List Bool Lia.
From Coq Require Import ZifyBool.
From Verif Require Import Base L_Base M_Rlp S_Rlp M_Codec M_Mbt S_Mbt M_JBmv S_JBmv L_JBmv3 T_JBmv M_Fragment T_Fragment S_Wire L_Wire S_Btp2 L_Btp2v
  M_Link T_Link M_Receive T_Receive M_Btp2 L_Btp2.
From Verif Require M_Wire T_Wire.
Import ListNotations.
Open Scope Z_scope.

(** ** The order of things: a block is fetched, taken and handled before the next one is fetched.  The sender may report any
    status at any time, but does report one. *)
Definition steps (x : shown) : list yevent := [Fetch (header_wire (sh_header x)); Take; Build].
Definition not_told (e : yevent) : bool := match e with Told _ => false | _ => true end.
Definition in_turn (xs : list shown) (es : list yevent) : Prop := filter not_told es = flat_map steps xs /\ ~ In (Told None) es.
(** What the node answers. *)
Definition shows (N : node) (x : shown) : Prop :=
  nd_messages N (sh_height x) = Some (map Some (sh_msgs x)) /\ nd_header N (sh_height x) = Some (header_wire (sh_header x), sigs_wire (sh_sigs x)).

Definition quiet (y y' : yst) : Prop :=
  y_follows y' = y_follows y /\ y_rss y' = y_rss y /\ y_seq y' = y_seq y /\ y_waiting y' = y_waiting y /\ y_taken y' = y_taken y /\
  l_ptr (y_link y') = l_ptr (y_link y) /\ l_once (y_link y') = l_once (y_link y) /\ l_receiver (y_link y') = l_receiver (y_link y) /\ dead (y_link y') = dead (y_link y) /\
  heap (l_st (y_link y')) = heap (l_st (y_link y)) /\ rmis (l_st (y_link y')) = rmis (l_st (y_link y)) /\ size (l_st (y_link y')) = size (l_st (y_link y)) /\
  sent (l_st (y_link y')) = sent (l_st (y_link y)) /\ (forall P, Forall P (rss (l_st (y_link y))) -> Forall P (rss (l_st (y_link y')))).
Lemma quiet_refl : forall y, quiet y y. Proof. intros y. unfold quiet. auto 20. Qed.
Lemma quiet_trans : forall a b c, quiet a b -> quiet b c -> quiet a c.
Proof.
  intros a b c (A0 & A1 & A2 & A3 & A4 & A5 & A6 & A7 & A8 & A9 & A10 & A11 & A12 & A13) (B0 & B1 & B2 & B3 & B4 & B5 & B6 & B7 & B8 & B9 & B10 & B11 & B12 & B13).
  unfold quiet. repeat (split; [congruence|]). auto.
Qed.

Section RUN.
Variable H : list Z -> list Z.
Variable N : node.
Variable startHeight TxSizeLimit limitSize : Z.
Variable rand : nat -> Z.
Variable fuel : nat.
Let go := yrun H N startHeight TxSizeLimit limitSize rand (S (S fuel)).

Lemma told_quiet : forall y b, quiet y (told N TxSizeLimit limitSize rand (S (S fuel)) y (Some b)).
Proof.
  intros y b. unfold told. cbn [y_link]. unfold handle. destruct (dead (y_link y)) eqn:Ed; [destruct y; apply quiet_refl|].
  destruct (l_sender (y_link y)) eqn:Es; try (destruct y; apply quiet_refl).
  unfold quiet. cbn [y_follows y_link y_rss y_seq y_waiting y_taken l_st l_ptr l_once l_receiver]. unfold clearReceiveStatus, clearRelayMessage.
  set (s := l_st (y_link y)). set (s1 := match clear_rms s b (rms s) with Some r => set_rms r s | None => s end).
  assert (E : heap s1 = heap s /\ rmis s1 = rmis s /\ size s1 = size s /\ sent s1 = sent s /\ rss s1 = rss s) by (unfold s1; destruct (clear_rms s b (rms s)); cbn; auto).
  destruct E as (E1 & E2 & E3 & E4 & E5). clearbody s1.
  assert (Dd : dead (mkLk (match clear_rss b (rss s1) with Some r => set_rss r s1 | None => s1 end) (l_ptr (y_link y)) (l_once (y_link y)) (l_mtx (y_link y)) Running (l_receiver (y_link y))) = dead (y_link y)).
  { unfold dead. cbn [l_sender l_receiver]. rewrite Es. reflexivity. }
  repeat (split; [try reflexivity; try exact Dd; try (destruct (clear_rss b (rss s1)); cbn [set_rss heap rmis size sent]; congruence)|]).
  intros P F. rewrite <- E5 in F.
  assert (C : forall l r, clear_rss b l = Some r -> Forall P l -> Forall P r).
  { clear. induction l as [|z l IH]; intros r E F; cbn [clear_rss] in E; [discriminate|]. inversion F; subst. destruct (_ && _); [injection E as <-; assumption|apply IH; assumption]. }
  destruct (clear_rss b (rss s1)) as [r|] eqn:Er; cbn [set_rss rss]; [apply (C _ _ Er F)|exact F].
Qed.

(** The next event other than a status *)
Lemma next_event : forall es e rest, filter not_told es = e :: rest -> ~ In (Told None) es -> forall y,
  exists y1 es', quiet y y1 /\ go y es = go (ystep H N startHeight TxSizeLimit limitSize rand (S (S fuel)) y1 e) es' /\ filter not_told es' = rest /\ ~ In (Told None) es'.
Proof.
  induction es as [|z es IH]; intros e rest E NN y; cbn [filter] in E; [discriminate|]. destruct (not_told z) eqn:Ez.
  - injection E as -> E. exists y, es. split; [apply quiet_refl|]. split; [reflexivity|]. split; [exact E|]. intros I. apply NN. right. exact I.
  - destruct z as [hd| | |[b|]]; try discriminate; [|exfalso; apply NN; left; reflexivity].
    destruct (IH e rest E (fun I => NN (or_intror I)) (told N TxSizeLimit limitSize rand (S (S fuel)) y (Some b))) as (y1 & es' & Q & R & R1 & R2).
    exists y1, es'. split; [apply (quiet_trans _ _ _ (told_quiet y b) Q)|]. split; [exact R|]. auto.
Qed.
Lemma no_event : forall es, filter not_told es = [] -> ~ In (Told None) es -> forall y, quiet y (go y es).
Proof.
  induction es as [|z es IH]; intros E NN y; cbn [filter] in E; [apply quiet_refl|]. destruct (not_told z) eqn:Ez; [discriminate|].
  destruct z as [hd| | |[b|]]; try discriminate; [|exfalso; apply NN; left; reflexivity].
  apply (quiet_trans _ _ _ (told_quiet y b)). apply (IH E (fun I => NN (or_intror I))).
Qed.

(** Between two blocks: nothing is collected, and the receiver still has at most the last block. *)
Definition between (y : yst) (tx q h : Z) : Prop :=
  y_follows y = true /\ idle (y_link y) /\ (0 < length (heap (l_st (y_link y))))%nat /\ getb (l_st (y_link y)) 0 = mkBls tx q h /\
  (rmis (l_st (y_link y)) = [] \/ rmis (l_st (y_link y)) = [[]]) /\ size (l_st (y_link y)) = 0 /\ Forall (fun r => rs_height r <= h) (rss (l_st (y_link y))).
Definition has_last (y : yst) (q h : Z) (t0 : mbt) (prior : list brs) : Prop := prior = [] \/ prior = [mkBrs h q t0] /\ l_once (y_link y) = true.

Lemma between_quiet : forall y y' tx q h, quiet y y' -> between y tx q h -> between y' tx q h.
Proof.
  intros y y' tx q h (A0 & A1 & A2 & A3 & A4 & A5 & A6 & A7 & A8 & A9 & A10 & A11 & A12 & A13) (B0 & (B1 & B2 & B3) & B4 & B5 & B6 & B7 & B8).
  unfold between, idle, getb in *. rewrite A0, A5, A7, A8, A9, A10, A11. auto 10.
Qed.
Lemma last_quiet : forall y y' q h t0 prior, quiet y y' -> has_last y q h t0 prior -> has_last y' q h t0 prior.
Proof. intros y y' q h t0 prior (_ & _ & _ & _ & _ & _ & A6 & _) [->|[-> B]]; [left; reflexivity|right]. rewrite A6. auto. Qed.

Lemma decode_all : forall l, decoded (map Some l) = Some l.
Proof. induction l as [|m l IH]; cbn [map decoded]; [|rewrite IH]; reflexivity. Qed.

(** A block is fetched. *)
Lemma fetch_block : forall h0 x y prior q t, hash32 H -> readable h0 x -> header_size x <= limitSize -> limitSize < 2 ^ 63 -> sh_height x <> startHeight -> shows N x ->
  NewMerkleBinaryTree H (map Some (sh_msgs x)) = Ok t -> y_follows y = true -> y_rss y = prior -> y_seq y = q -> y_waiting y = None ->
  let q' := q + zlen (sh_msgs x) in
  M_Wire.relay_height (header_wire (sh_header x)) = Some (sh_height x) /\
  fetch H N startHeight y (header_wire (sh_header x)) = mkY true (y_link y) (prior ++ [mkBrs (sh_height x) q' t]) q' (Some (mkRstat (sh_height x) q')) (y_taken y).
Proof.
  intros h0 x y prior q t HH (R1 & R2 & R3 & R4 & R5 & R6 & R7 & R8 & R9) Fi HL Hst [Sh1 Sh2] T1 Hf Hr Hs Hw q'.
  assert (RH : M_Wire.relay_height (header_wire (sh_header x)) = Some (sh_height x)).
  { rewrite <- R2. apply T_Wire.C59_relay_reads_height; try assumption.
    unfold header_size in Fi. assert (L : zlen (rlp_write (RList [RBytes (header_wire (sh_header x)); RBytes (sigs_wire (sh_sigs x))])) < 2 ^ 63) by lia.
    apply two_small in L as [L _]. apply small_b in L. exact L. }
  split; [exact RH|]. unfold fetch. rewrite Hf. cbn [negb]. rewrite Hw, RH. replace (sh_height x =? startHeight) with false by lia. rewrite Sh1, decode_all. unfold b_notify. replace (sh_height x =? startHeight) with false by lia.
  rewrite T1. cbn [rbind]. rewrite Hr, Hs. reflexivity.
Qed.
(** Its update is built. *)
Lemma update_block : forall x b mr q' t, shows N x -> M_Wire.relay_height (header_wire (sh_header x)) = Some (sh_height x) -> header_size x <= limitSize ->
  updates N (mkBrs (sh_height x) q' t :: mr) b limitSize =
    match updates N mr b limitSize with Some xs => Some (NewBlockUpdate b (sh_height x) (header_wire (sh_header x)) (sigs_wire (sh_sigs x)) :: xs) | None => None end.
Proof.
  intros x b mr q' t [_ Sh2] RH Fi. cbn [updates b_height]. rewrite Sh2, RH.
  change (it_len (NewBlockUpdate b (sh_height x) (header_wire (sh_header x)) (sigs_wire (sh_sigs x)))) with (header_size x). replace (limitSize <? header_size x) with false by lia. reflexivity.
Qed.
(** Its update and messages make a report. *)
Lemma body_block : forall h0 x t l tx q h mr, hash32 H -> readable h0 x -> fits H limitSize x ->
  NewMerkleBinaryTree H (map Some (sh_msgs x)) = Ok t -> mbt_Len t = zlen (sh_msgs x) -> Forall news_ok l ->
  (sh_msgs x = [] /\ l = [Header (sh_header x) (sh_sigs x)] \/
     sh_msgs x <> [] /\ exists m, mbt_Proof t 1 (zlen (sh_msgs x)) = Ok m /\ zlen (p_contents m) = zlen (sh_msgs x) /\ l = [Header (sh_header x) (sh_sigs x); Messages true m]) ->
  (forall e, 1 <= e < zlen (sh_msgs x) -> exists m, mbt_Proof t 1 e = Ok m /\ wire_proof_ok false m) ->
  let q' := q + zlen (sh_msgs x) in let X := NewBlockUpdate (mkBls tx q h) (sh_height x) (header_wire (sh_header x)) (sigs_wire (sh_sigs x)) in
  exists body, M_Wire.BuildRelayMessage (map typed body) = Some (message_wire l) /\
    (q' = q /\ body = [X] \/ q' > q /\ exists m, body = [X; m] /\
       messageProof (mkBrs (sh_height x) q' t :: mr) (mkBls tx q (sh_height x)) (limitSize - it_len X) = Ok (Some m) /\ it_next m = mkBls tx q' (sh_height x)).
Proof.
  intros h0 x t l tx q h mr HH Re (Fi1 & Fi2 & Fi3) T1 T2 T4 T5 T6 q' X. assert (LX : it_len X = header_size x) by reflexivity.
  rewrite <- (T_Wire.enc_message l T4). destruct T5 as [[T5 ->]|[T5 (m & T7 & T8 & ->)]].
  - exists [X]. split; [reflexivity|]. left. unfold q'. rewrite T5. change (zlen (@nil (list Z))) with 0. split; [lia|reflexivity].
  - set (Y := NewMessageProof (mkBls tx q (sh_height x)) (q + mbt_Len t) true m). exists [X; Y]. split; [reflexivity|]. right.
    assert (0 < zlen (sh_msgs x)) by (destruct (sh_msgs x); [congruence|unfold zlen; cbn [length]; lia]).
    assert (QQ : q' = q + mbt_Len t) by (rewrite T2; reflexivity).
    split; [lia|]. exists Y. split; [reflexivity|]. split; [|unfold Y; cbn [NewMessageProof it_next TxSeq Height]; rewrite QQ; reflexivity].
    rewrite QQ. apply proof_of_all.
    + lia.
    + lia.
    + rewrite T2. exact T7.
    + rewrite T2. intros e He. destruct (T6 e He) as (m' & G1 & G2). exists m'. split; [exact G1|]. unfold measured. rewrite T_Wire.enc_proof by exact G2. rewrite LX. apply (Fi2 t m' e T1 G1 He).
Qed.

(** One block from the node to the sender. *)
Lemma one_block : forall h x es rest y tx q t0 prior, hash32 H -> readable h x ->
  fits H limitSize x -> 0 <= limitSize <= TxSizeLimit -> limitSize < 2 ^ 63 -> sh_height x <> startHeight -> shows N x ->
  let q' := q + zlen (sh_msgs x) in
  between y tx q h -> y_rss y = prior -> has_last y q h t0 prior -> y_seq y = q -> y_waiting y = None -> y_taken y = None ->
  filter not_told es = steps x ++ rest -> ~ In (Told None) es ->
  exists y' es' m t', go y es = go y' es' /\ filter not_told es' = rest /\ ~ In (Told None) es' /\
    between y' tx q' (sh_height x) /\ y_rss y' = [mkBrs (sh_height x) q' t'] /\ has_last y' q' (sh_height x) t' (y_rss y') /\ y_seq y' = q' /\ y_waiting y' = None /\ y_taken y' = None /\
    sent (l_st (y_link y')) = sent (l_st (y_link y)) ++ [m] /\ report H x (rm_message m).
Proof.
  intros h x es rest y tx q t0 prior HH Re Fi HL0 HL Hst Sh q' Bw Hr Hp Hs Hw Ht E NN.
  destruct (report_exists _ _ _ HH Re) as (t & l & T1 & T2 & T3 & T4 & T5 & T6).
  assert (Hh : h < sh_height x /\ 0 < sh_height x) by (split; apply Re). destruct Hh as [Hh2 Hh3].
  unfold steps in E. cbn [app] in E.
  destruct (next_event _ _ _ E NN y) as (y1 & es1 & Q1 & R1 & E1 & NN1).
  pose proof (between_quiet _ _ _ _ _ Q1 Bw) as Bw1. pose proof (last_quiet _ _ _ _ _ _ Q1 Hp) as Hp1. destruct Q1 as (P0 & P1 & P2 & P3 & P4 & _ & _ & _ & _ & _ & _ & _ & P5 & _).
  set (r := mkRstat (sh_height x) q'). set (new := mkBrs (sh_height x) q' t).
  destruct (fetch_block h x y1 prior q t HH Re ltac:(apply Fi) HL Hst Sh T1 ltac:(apply Bw1) ltac:(congruence) ltac:(congruence) ltac:(congruence)) as [RH FE].
  rewrite P4, Ht in FE. fold q' in FE. fold r new in FE.
  cbn [ystep] in R1. rewrite FE in R1.
  destruct (next_event _ _ _ E1 NN1 (mkY true (y_link y1) (prior ++ [new]) q' (Some r) None)) as (y2 & es2 & Q2 & R2 & E2 & NN2).
  assert (Bw2 : between (mkY true (y_link y1) (prior ++ [new]) q' (Some r) None) tx q h) by (split; [reflexivity|apply Bw1]). apply (between_quiet _ _ _ _ _ Q2) in Bw2.
  assert (Hp2 : has_last (mkY true (y_link y1) (prior ++ [new]) q' (Some r) None) q h t0 prior) by exact Hp1. apply (last_quiet _ _ _ _ _ _ Q2) in Hp2.
  destruct Q2 as (O0 & O1 & O2 & O3 & O4 & _ & _ & _ & _ & _ & _ & _ & O5 & _). cbn [y_rss y_seq y_waiting y_taken y_link] in *.
  assert (TE : take y2 = mkY (y_follows y2) (y_link y2) (prior ++ [new]) q' None (Some r)) by (unfold take; rewrite O1, O2, O3, O4; reflexivity).
  cbn [ystep] in R2. rewrite TE in R2.
  destruct (next_event _ _ _ E2 NN2 (mkY (y_follows y2) (y_link y2) (prior ++ [new]) q' None (Some r))) as (y3 & es3 & Q3 & R3 & E3 & NN3).
  assert (Bw3 : between (mkY (y_follows y2) (y_link y2) (prior ++ [new]) q' None (Some r)) tx q h) by exact Bw2. apply (between_quiet _ _ _ _ _ Q3) in Bw3.
  assert (Hp3 : has_last (mkY (y_follows y2) (y_link y2) (prior ++ [new]) q' None (Some r)) q h t0 prior) by exact Hp2. apply (last_quiet _ _ _ _ _ _ Q3) in Hp3.
  destruct Q3 as (M0 & M1 & M2 & M3 & M4 & _ & _ & _ & _ & _ & _ & _ & M5 & _). cbn [y_rss y_seq y_waiting y_taken y_link] in *.
  destruct Bw3 as (I0 & I1 & I2 & I3 & I4 & I5 & I6).
  set (X := NewBlockUpdate (mkBls tx q h) (sh_height x) (header_wire (sh_header x)) (sigs_wire (sh_sigs x))).
  assert (UP : updates N [new] (mkBls tx q h) limitSize = Some [X]) by (unfold new; rewrite update_block by (assumption || apply Fi); reflexivity).
  destruct (body_block h x t l tx q h [] HH Re Fi T1 T2 T4 T5 T6) as (body & BD1 & BD2).
  pose proof (zlen_nonneg _ (rlp_write (RList [RBytes (header_wire (sh_header x)); RBytes (sigs_wire (sh_sigs x))]))) as LP. fold (header_size x) in LP.
  assert (LX : 0 <= it_len X <= TxSizeLimit) by (change (it_len X) with (header_size x); destruct Fi as [Fi _]; lia).
  destruct (build_one N TxSizeLimit limitSize rand fuel y3 tx q h r t0 t prior [] X [] body (message_wire l)) as (m & B0 & B1 & B1' & B2 & B3 & B4 & B5 & B6 & B7 & B8 & B9 & B10 & BF & B11 & B12 & B13 & B14);
    try assumption; try (unfold r; cbn [rs_height rs_seq]; assumption || reflexivity || lia); try constructor.
  { apply Forall_impl with (2 := I6). intros z Hz. unfold r. cbn [rs_height]. lia. }
  exists (M_Btp2.build N TxSizeLimit limitSize rand (S (S fuel)) y3), es3, m, t.
  split; [rewrite R1, R2, R3; reflexivity|]. split; [exact E3|]. split; [exact NN3|].
  split. { split; [congruence|]. split; [split; [|split; [exact B1|exact B1']]|].
    { destruct I1 as (I1 & I1' & _). unfold dead in *. rewrite B0, B1. rewrite I1' in I1. exact I1. }
    split; [exact B3|]. split; [exact B4|]. split; [left; exact B5|]. split; [exact B6|]. rewrite B7. apply Forall_app. split.
    - apply Forall_impl with (2 := I6). intros z Hz. cbn beta in Hz. lia.
    - constructor; [|constructor]. unfold r. cbn [rs_height]. lia. }
  split; [exact B11|]. split; [right; auto|]. split; [congruence|]. split; [congruence|]. split; [exact B14|].
  split; [rewrite B8; congruence|]. rewrite B9. exists l. auto.
Qed.

Definition total (xs : list shown) : Z := fold_right (fun x n => zlen (sh_msgs x) + n) 0 xs.
Lemma all_blocks : forall xs rest h, hash32 H -> rising h xs ->
  Forall (fits H limitSize) xs -> 0 <= limitSize <= TxSizeLimit -> limitSize < 2 ^ 63 -> Forall (fun x => sh_height x <> startHeight /\ shows N x) xs ->
  forall y tx q t0 es, between y tx q h -> has_last y q h t0 (y_rss y) -> y_seq y = q -> y_waiting y = None -> y_taken y = None ->
  filter not_told es = flat_map steps xs ++ rest -> ~ In (Told None) es ->
  exists y' es' ms t', let q' := q + total xs in let h' := last (map sh_height xs) h in
    go y es = go y' es' /\ filter not_told es' = rest /\ ~ In (Told None) es' /\ between y' tx q' h' /\ has_last y' q' h' t' (y_rss y') /\ y_seq y' = q' /\ y_waiting y' = None /\ y_taken y' = None /\
    sent (l_st (y_link y')) = sent (l_st (y_link y)) ++ ms /\ Forall2 (report H) xs (map rm_message ms).
Proof.
  induction xs as [|x xs IH]; intros rest h HH Ri Fi L0 L1 Sh y tx q t0 es Bw Hp Hs Hw Ht E NN.
  - exists y, es, [], t0. cbn [total fold_right map last]. rewrite Z.add_0_r, app_nil_r. cbv zeta. repeat (split; [try assumption; try reflexivity|]). constructor.
  - inversion Fi as [|? ? Fx Fi']; subst. inversion Sh as [|? ? [S1 S2] Sh']; subst. destruct Ri as [Re Ri]. cbn [flat_map] in E. rewrite <- app_assoc in E.
    destruct (one_block h x es (flat_map steps xs ++ rest) y tx (y_seq y) t0 (y_rss y) HH Re Fx L0 L1 S1 S2 Bw eq_refl Hp eq_refl Hw Ht E NN)
      as (y' & es' & m & t' & R1 & R2 & R3 & R4 & R5 & R6 & R7 & R8 & R9 & R10 & R11).
    destruct (IH rest (sh_height x) HH Ri Fi' L0 L1 Sh' y' tx _ t' es' R4 R6 R7 R8 R9 R2 R3) as (y2 & es2 & ms & t2 & D1 & D2 & D3 & D4 & D5 & D6 & D7 & D8 & D9 & D10).
    exists y2, es2, (m :: ms), t2. cbv zeta in *. cbn [total fold_right map]. fold (total xs). rewrite last_cons, Z.add_assoc.
    split; [rewrite R1; exact D1|]. repeat (split; [assumption|]). split; [rewrite D9, R10, <- app_assoc; reflexivity|]. constructor; assumption.
Qed.
End RUN.

Lemma rising_app : forall xs ys h, rising h (xs ++ ys) -> rising h xs /\ rising (last (map sh_height xs) h) ys.
Proof.
  induction xs as [|x xs IH]; intros ys h R; cbn [app rising map] in *; [auto|]. destruct R as [R1 R2]. apply IH in R2 as [R2 R3]. rewrite last_cons. auto.
Qed.
Lemma dead_stays : forall H N startHeight TxSizeLimit limitSize rand fuel es y, dead (y_link y) = true -> dead (y_link (yrun H N startHeight TxSizeLimit limitSize rand fuel y es)) = true.
Proof.
  intros H N startHeight TxSizeLimit limitSize rand fuel es. unfold yrun. induction es as [|e es IH]; intros y D; [exact D|]. cbn [fold_left]. apply IH.
  destruct e as [hd| | |b]; cbn [ystep].
  - unfold fetch. repeat first [exact D | match goal with |- context [match ?x with _ => _ end] => destruct x end].
  - unfold take. destruct (y_taken y), (y_waiting y); exact D.
  - unfold M_Btp2.build. destruct (y_taken y); [|exact D]. rewrite D. exact D.
  - unfold told. cbn [y_link]. destruct b as [b|]; [unfold handle; rewrite D; exact D|]. rewrite D. exact D.
Qed.
Lemma start_between : forall tx q h, 1 <= h -> between (ystart (mkBls tx q h)) tx q h.
Proof. intros tx q h L. unfold between, idle, ystart, NewLink, dead, getb. cbn. replace (1 <=? h) with true by lia. repeat split; auto. Qed.

(** One report per block, and nothing else. *)
Lemma reports_sent : forall H N startHeight TxSizeLimit limitSize rand fuel xs h tx q es, hash32 H -> rising h xs -> 1 <= h ->
  Forall (fits H limitSize) xs -> 0 <= limitSize <= TxSizeLimit -> limitSize < 2 ^ 63 -> Forall (fun x => sh_height x <> startHeight /\ shows N x) xs -> in_turn xs es ->
  let k := y_link (yrun H N startHeight TxSizeLimit limitSize rand (S (S fuel)) (ystart (mkBls tx q h)) es) in
  dead k = false /\ Forall2 (report H) xs (map rm_message (sent (l_st k))).
Proof.
  intros H N startHeight TxSizeLimit limitSize rand fuel xs h tx q es HH Ri Hb Fi L0 L1 Sh [E NN].
  rewrite <- (app_nil_r (flat_map steps xs)) in E.
  destruct (all_blocks H N startHeight TxSizeLimit limitSize rand fuel xs [] h HH Ri Fi L0 L1 Sh
    (ystart (mkBls tx q h)) tx q {| m_root := None; m_contents := [] |} es (start_between _ _ _ Hb) (or_introl eq_refl) eq_refl eq_refl eq_refl E NN)
    as (y' & es' & rs & t' & A1 & A2 & A3 & A4 & A5 & A6 & A7 & A8 & D1 & D2). cbv zeta in *. rewrite A1.
  pose proof (no_event H N startHeight TxSizeLimit limitSize rand fuel es' A2 A3 y') as Q. apply (between_quiet _ _ _ _ _ Q) in A4.
  destruct Q as (_ & _ & _ & _ & _ & _ & _ & _ & _ & _ & _ & _ & Q & _). rewrite Q. cbn [ystart y_link NewLink l_st sent app] in D1. rewrite D1.
  split; [apply A4|exact D2].
Qed.
Lemma reports_small : forall H limit xs ms, Forall2 (report H) xs ms -> Forall (fits H limit) xs -> Forall (fun m => bytes_ok m /\ zlen m < 2 ^ 31) ms.
Proof.
  intros H limit xs ms D2 Fi. induction D2 as [|x m xs ms R D2 IH]; [constructor|]. inversion Fi as [|? ? (_ & _ & F3) Fi']; subst. destruct R as (l & R1 & R2 & ->).
  constructor; [|apply IH; exact Fi']. specialize (F3 l R1). split; [|exact F3]. apply (T_Wire.message_bytes l); [exact R2|apply T_Wire.enc_message; exact R2|lia].
Qed.

Lemma all_refused : forall H recover p limit xs ms, Forall2 (report H) xs ms -> Forall (fits H limit) xs ->
  Forall (fun x => p_offset p = 0 /\ firstMessageSn (sh_header x) <> p_first p + p_cnt p \/ remain p <> 0) xs ->
  forall m caller account net seq, In m ms -> M_Wire.handleRelayBytes H recover p caller account net seq m = None.
Proof.
  intros H recover p limit xs ms D Fi C m caller account net seq I. pose proof (reports_small _ _ _ _ D Fi) as Sm. clear Fi.
  induction D as [|z m0 zs ms R D IH]; [destruct I|]. inversion C as [|? ? C1 C2]; subst. inversion Sm as [|? ? [_ S1] S2]; subst.
  destruct I as [<-|I]; [|apply IH; assumption]. apply (report_refused _ _ _ z); [exact R|lia|exact C1].
Qed.

(** The relay is started at the status of a verifier that stands at the end of a block.  The blocks that follow are fetched,
    taken and handled one after the other, each fits the limit, the node shows them truly, and the sender reports whatever
    statuses.  Then the relay sends one message per block; cut into transactions, the message center puts together
    exactly these; the verifier takes all of them and hands over the messages of all blocks, in order, each once. *)
Theorem C95_delivers : forall H recover N startHeight TxSizeLimit limitSize rand fuel src ntid nid p prev sn b xs tx es, hash32 H ->
  stands H src ntid nid p prev sn b (zlen (gb_msgs b)) -> p_ctxHash p = Some (H (gb_ctx b)) ->
  goes_on H recover src ntid nid prev sn b xs -> 1 <= gb_height b ->
  Forall (fits H limitSize) xs -> 0 <= limitSize <= TxSizeLimit -> limitSize < 2 ^ 63 ->
  Forall (fun x => sh_height x <> startHeight /\ shows N x) xs -> in_turn xs es ->
  let k := y_link (yrun H N startHeight TxSizeLimit limitSize rand (S (S fuel)) (ystart (mkBls tx (p_lastSeq p) (gb_height b))) es) in
  let ms := map rm_message (sent (l_st k)) in let b' := last (map sh_block xs) b in
  dead k = false /\ length ms = length xs /\
  (exists p' prev' sn', all_taken H recover p ms = Some (p', concat (map sh_msgs xs)) /\ stands H src ntid nid p' prev' sn' b' (zlen (gb_msgs b'))) /\
  forall limit st txss, usable st -> Forall2 (fun m txs => relay limit m = Ok txs) ms txss -> exists st', execute st (concat txss) = (st', ms).
Proof.
  intros H recover N startHeight TxSizeLimit limitSize rand fuel src ntid nid p prev sn b xs tx es HH St Hc G Hb Fi L0 L1 Sh E.
  destruct (reports_sent H N startHeight TxSizeLimit limitSize rand fuel xs (gb_height b) tx (p_lastSeq p) es HH (goes_rising _ _ _ _ _ _ _ _ _ G) Hb Fi L0 L1 Sh E) as [D D2]. cbv zeta in *.
  split; [exact D|]. split; [symmetry; apply (Forall2_length D2)|]. split.
  { destruct (reports_taken H recover src ntid nid limitSize prev sn b xs HH G Fi _ p D2 St Hc) as (p' & prev' & sn' & B1 & B2 & _). exists p', prev', sn'. auto. }
  intros limit st txss U F. destruct (C32_message_stream limit _ st txss U (reports_small _ _ _ _ D2 Fi) F) as (st' & A & _). exists st'. exact A.
Qed.
Print Assumptions C95_delivers.

(** Finding: if the next block is fetched while the link has taken a block from the channel but not handled it yet, the
    process crashes: the receiver hands over updates for both blocks, and the link has nowhere to put the second one. *)
Theorem C95_two_blocks_refuted : forall H recover N startHeight TxSizeLimit limitSize rand fuel src ntid nid prev sn b xs x1 x2 tx es rest, hash32 H ->
  goes_on H recover src ntid nid prev sn b (xs ++ [x1; x2]) -> 1 <= gb_height b ->
  Forall (fits H limitSize) (xs ++ [x1; x2]) -> 0 <= limitSize <= TxSizeLimit -> limitSize < 2 ^ 63 ->
  Forall (fun x => sh_height x <> startHeight /\ shows N x) (xs ++ [x1; x2]) ->
  filter not_told es = flat_map steps xs ++ [Fetch (header_wire (sh_header x1)); Take; Fetch (header_wire (sh_header x2)); Build] ++ rest -> ~ In (Told None) es ->
  let k := y_link (yrun H N startHeight TxSizeLimit limitSize rand (S (S fuel)) (ystart (mkBls tx (sn + zlen (gb_msgs b)) (gb_height b))) es) in
  dead k = true.
Proof.
  intros H recover N startHeight TxSizeLimit limitSize rand fuel src ntid nid prev sn b xs x1 x2 tx es rest HH G Hb Fi L0 L1 Sh E NN. cbv zeta.
  apply goes_rising, rising_app in G as [Ri (Re1 & Re2 & _)]. apply Forall_app in Fi as [Fi Fi']. inversion Fi' as [|? ? Fx1 Fi'']; subst. inversion Fi'' as [|? ? Fx2 _]; subst. clear Fi' Fi''.
  apply Forall_app in Sh as [Sh Sh']. inversion Sh' as [|? ? [V1 Sh1] Sh'']; subst. inversion Sh'' as [|? ? [V2 Sh2] _]; subst. clear Sh' Sh''.
  set (q0 := sn + zlen (gb_msgs b)) in *.
  destruct (all_blocks H N startHeight TxSizeLimit limitSize rand fuel xs _ (gb_height b) HH Ri Fi L0 L1 Sh
    (ystart (mkBls tx q0 (gb_height b))) tx q0 {| m_root := None; m_contents := [] |} es (start_between _ _ _ Hb) (or_introl eq_refl) eq_refl eq_refl eq_refl E NN)
    as (y & es0 & rs & t0 & A1 & E0 & NN0 & Bw & Hp & Hs & Hw & Ht & _ & _). cbv zeta in *. rewrite A1. clear A1 E NN Fi Sh Ri rs. revert Re1 Bw Hp Hs. set (h := last (map sh_height xs) (gb_height b)). set (q := q0 + total xs). intros Re1 Bw Hp Hs. clearbody h q.
  destruct (report_exists _ _ _ HH Re1) as (t1 & l1 & T1 & T2 & T3 & T4 & T5 & T6). destruct (report_exists _ _ _ HH Re2) as (t2 & l2 & U1 & U2 & _).
  assert (Hh : h < sh_height x1 /\ 0 < sh_height x1 /\ sh_height x1 < sh_height x2) by (split; [apply Re1|split; [apply Re1|apply Re2]]). destruct Hh as (Hh1 & Hh2 & Hh3).
  set (go := yrun H N startHeight TxSizeLimit limitSize rand (S (S fuel))). set (prior := y_rss y) in *.
  set (r1 := mkRstat (sh_height x1) (q + zlen (sh_msgs x1))). set (n1 := mkBrs (sh_height x1) (q + zlen (sh_msgs x1)) t1).
  (* the first block is fetched *)
  destruct (next_event H N startHeight TxSizeLimit limitSize rand fuel _ _ _ E0 NN0 y) as (y1 & es1 & Q1 & R1 & E1 & NN1). fold go in R1.
  pose proof (between_quiet _ _ _ _ _ Q1 Bw) as Bw1. pose proof (last_quiet _ _ _ _ _ _ Q1 Hp) as Hp1. destruct Q1 as (P0 & P1 & P2 & P3 & P4 & _). fold prior in P1.
  destruct (fetch_block H N startHeight limitSize h x1 y1 prior q t1 HH Re1 ltac:(apply Fx1) L1 V1 Sh1 T1 ltac:(apply Bw1) ltac:(congruence) ltac:(congruence) ltac:(congruence)) as [RH1 FE1].
  cbv zeta in FE1. rewrite P4, Ht in FE1. fold n1 r1 in FE1. cbn [ystep] in R1. rewrite FE1 in R1. rewrite R1. clear R1.
  (* taken *)
  set (ya := mkY true (y_link y1) (prior ++ [n1]) (q + zlen (sh_msgs x1)) (Some r1) None) in *.
  assert (Bwa : between ya tx q h) by (split; [reflexivity|apply Bw1]). assert (Hpa : has_last ya q h t0 prior) by exact Hp1.
  destruct (next_event H N startHeight TxSizeLimit limitSize rand fuel _ _ _ E1 NN1 ya) as (y2 & es2 & Q2 & R2 & E2 & NN2). fold go in R2.
  pose proof (between_quiet _ _ _ _ _ Q2 Bwa) as Bw2. pose proof (last_quiet _ _ _ _ _ _ Q2 Hpa) as Hp2. destruct Q2 as (O0 & O1 & O2 & O3 & O4 & _). cbn [ya y_follows y_rss y_seq y_waiting y_taken] in O0, O1, O2, O3, O4.
  assert (TE : take y2 = mkY (y_follows y2) (y_link y2) (prior ++ [n1]) (q + zlen (sh_msgs x1)) None (Some r1)) by (unfold take; rewrite O1, O2, O3, O4; reflexivity).
  cbn [ystep] in R2. rewrite TE in R2. rewrite R2. clear R2.
  (* the second block is fetched *)
  set (yb := mkY (y_follows y2) (y_link y2) (prior ++ [n1]) (q + zlen (sh_msgs x1)) None (Some r1)) in *.
  assert (Bwb : between yb tx q h) by exact Bw2. assert (Hpb : has_last yb q h t0 prior) by exact Hp2.
  destruct (next_event H N startHeight TxSizeLimit limitSize rand fuel _ _ _ E2 NN2 yb) as (y3 & es3 & Q3 & R3 & E3 & NN3). fold go in R3.
  pose proof (between_quiet _ _ _ _ _ Q3 Bwb) as Bw3. pose proof (last_quiet _ _ _ _ _ _ Q3 Hpb) as Hp3. destruct Q3 as (M0 & M1 & M2 & M3 & M4 & _). cbn [yb y_follows y_rss y_seq y_waiting y_taken] in M0, M1, M2, M3, M4.
  set (q1 := q + zlen (sh_msgs x1)) in *. set (n2 := mkBrs (sh_height x2) (q1 + zlen (sh_msgs x2)) t2).
  destruct (fetch_block H N startHeight limitSize (sh_height x1) x2 y3 (prior ++ [n1]) q1 t2 HH Re2 ltac:(apply Fx2) L1 V2 Sh2 U1 ltac:(apply Bw3) M1 M2 M3) as [RH2 FE2].
  cbv zeta in FE2. rewrite M4 in FE2. fold n2 in FE2. rewrite <- app_assoc in FE2. cbn [app] in FE2. cbn [ystep] in R3. rewrite FE2 in R3. rewrite R3. clear R3.
  (* handled *)
  match type of FE2 with _ = ?z => set (yc := z) in * end.
  assert (Bwc : between yc tx q h) by (split; [reflexivity|apply Bw3]). assert (Hpc : has_last yc q h t0 prior) by exact Hp3.
  destruct (next_event H N startHeight TxSizeLimit limitSize rand fuel _ _ _ E3 NN3 yc) as (y4 & es4 & Q4 & R4 & E4 & NN4). fold go in R4. rewrite R4. clear R4.
  pose proof (between_quiet _ _ _ _ _ Q4 Bwc) as Bw4. pose proof (last_quiet _ _ _ _ _ _ Q4 Hpc) as Hp4. destruct Q4 as (K0 & K1 & K2 & K3 & K4 & _). cbn [yc y_follows y_rss y_seq y_waiting y_taken] in K0, K1, K2, K3, K4.
  destruct Bw4 as (I0 & I1 & I2 & I3 & I4 & I5 & I6).
  apply dead_stays. cbn [ystep].
  set (X := NewBlockUpdate (mkBls tx q h) (sh_height x1) (header_wire (sh_header x1)) (sigs_wire (sh_sigs x1))).
  set (X2 := NewBlockUpdate (mkBls tx q h) (sh_height x2) (header_wire (sh_header x2)) (sigs_wire (sh_sigs x2))).
  assert (UP : updates N [n1; n2] (mkBls tx q h) limitSize = Some [X; X2]).
  { unfold n1. rewrite update_block by (assumption || apply Fx1). unfold n2. rewrite update_block by (assumption || apply Fx2). reflexivity. }
  destruct (body_block H limitSize h x1 t1 l1 tx q h [n2] HH Re1 Fx1 T1 T2 T4 T5 T6) as (body & BD1 & BD2).
  pose proof (zlen_nonneg _ (rlp_write (RList [RBytes (header_wire (sh_header x1)); RBytes (sigs_wire (sh_sigs x1))]))) as LP. fold (header_size x1) in LP.
  assert (LX : 0 <= it_len X <= TxSizeLimit) by (change (it_len X) with (header_size x1); destruct Fx1 as [Fx1 _]; lia).
  destruct (build_one N TxSizeLimit limitSize rand fuel y4 tx q h r1 t0 t1 prior [n2] X [X2] body (message_wire l1)) as (m & _ & B1 & _);
    try assumption; try (unfold r1; cbn [rs_height rs_seq]; assumption || reflexivity || lia).
  { constructor; [unfold n2; cbn [b_height]; lia|constructor]. }
  { apply Forall_impl with (2 := I6). intros z Hz. unfold r1. cbn [rs_height]. lia. }
  unfold dead. rewrite B1. destruct (l_sender _); reflexivity.
Qed.
Print Assumptions C95_two_blocks_refuted.

(** Finding: no message is sent twice, whatever statuses the sender reports.  If the first of them is lost, the verifier
    refuses all the others. *)
Theorem C95_not_resent_refuted : forall H recover N startHeight TxSizeLimit limitSize rand fuel src ntid nid p prev sn b x xs tx es, hash32 H ->
  stands H src ntid nid p prev sn b (zlen (gb_msgs b)) ->
  goes_on H recover src ntid nid prev sn b (x :: xs) -> sh_msgs x <> [] -> 1 <= gb_height b ->
  Forall (fits H limitSize) (x :: xs) -> 0 <= limitSize <= TxSizeLimit -> limitSize < 2 ^ 63 ->
  Forall (fun x => sh_height x <> startHeight /\ shows N x) (x :: xs) -> in_turn (x :: xs) es ->
  let k := y_link (yrun H N startHeight TxSizeLimit limitSize rand (S (S fuel)) (ystart (mkBls tx (p_lastSeq p) (gb_height b))) es) in
  exists m ms, map rm_message (sent (l_st k)) = m :: ms /\ length ms = length xs /\
    forall m' caller account net seq, In m' ms -> M_Wire.handleRelayBytes H recover p caller account net seq m' = None.
Proof.
  intros H recover N startHeight TxSizeLimit limitSize rand fuel src ntid nid p prev sn b x xs tx es HH St G Hx Hb Fi L0 L1 Sh E.
  destruct (reports_sent H N startHeight TxSizeLimit limitSize rand fuel (x :: xs) (gb_height b) tx (p_lastSeq p) es HH (goes_rising _ _ _ _ _ _ _ _ _ G) Hb Fi L0 L1 Sh E) as [D D2]. cbv zeta in *.
  inversion D2 as [|? m ? ms R D2' E1 E2]; subst. rewrite <- E2 in *. exists m, ms. split; [reflexivity|]. split; [symmetry; apply (Forall2_length D2')|].
  inversion G as [|? ? ? ? ? Fo G']; subst. pose proof (goes_numbers _ _ _ _ _ _ _ _ _ G') as NU.
  assert (P : 0 < zlen (sh_msgs x)) by (destruct (sh_msgs x); [congruence|unfold zlen; cbn [length]; lia]).
  unfold stands in St. destruct St as (_ & _ & _ & S4 & _ & _ & S7 & S8 & _).
  intros m' caller account net seq I. apply (all_refused H recover p limitSize xs ms D2'); [inversion Fi; assumption| |exact I].
  apply Forall_impl with (2 := NU). intros z Hz. left. split; [exact S4|]. rewrite S7. unfold sh_msgs in P. lia.
Qed.
Print Assumptions C95_not_resent_refuted.

(** Finding: a relay started while the verifier is inside a block follows the chain from the next block on and never gets
    a message through: what it sends starts with the next block, which the verifier refuses before it has the rest of this one. *)
Theorem C95_inside_a_block_refuted : forall H recover N startHeight TxSizeLimit limitSize rand fuel src ntid nid p prev sn b n xs tx es, hash32 H ->
  stands H src ntid nid p prev sn b n -> n < zlen (gb_msgs b) ->
  goes_on H recover src ntid nid prev sn b xs -> 1 <= gb_height b ->
  Forall (fits H limitSize) xs -> 0 <= limitSize <= TxSizeLimit -> limitSize < 2 ^ 63 ->
  Forall (fun x => sh_height x <> startHeight /\ shows N x) xs -> in_turn xs es ->
  let k := y_link (yrun H N startHeight TxSizeLimit limitSize rand (S (S fuel)) (ystart (mkBls tx (p_lastSeq p) (gb_height b))) es) in
  let ms := map rm_message (sent (l_st k)) in
  length ms = length xs /\ forall m caller account net seq, In m ms -> M_Wire.handleRelayBytes H recover p caller account net seq m = None.
Proof.
  intros H recover N startHeight TxSizeLimit limitSize rand fuel src ntid nid p prev sn b n xs tx es HH St Hn G Hb Fi L0 L1 Sh E.
  destruct (reports_sent H N startHeight TxSizeLimit limitSize rand fuel xs (gb_height b) tx (p_lastSeq p) es HH (goes_rising _ _ _ _ _ _ _ _ _ G) Hb Fi L0 L1 Sh E) as [D D2]. cbv zeta in *.
  split; [symmetry; apply (Forall2_length D2)|]. intros m caller account net seq I.
  unfold stands in St. destruct St as (_ & _ & _ & S4 & _ & _ & S7 & S8 & S9 & _).
  apply (all_refused H recover p limitSize xs _ D2 Fi); [|exact I]. apply Forall_forall. intros z _. right. unfold remain, processed. lia.
Qed.
Print Assumptions C95_inside_a_block_refuted.

(** Finding: if the node fails to give the messages of a block, the block is left out for good (the error is only written to
    the log); what is sent for the blocks after it is refused. *)
Theorem C95_failed_fetch_refuted : forall H recover N startHeight TxSizeLimit limitSize rand fuel src ntid nid p prev sn b x xs tx es, hash32 H ->
  stands H src ntid nid p prev sn b (zlen (gb_msgs b)) ->
  goes_on H recover src ntid nid prev sn b (x :: xs) -> sh_msgs x <> [] -> 1 <= gb_height b ->
  Forall (fits H limitSize) (x :: xs) -> 0 <= limitSize <= TxSizeLimit -> limitSize < 2 ^ 63 ->
  nd_messages N (sh_height x) = None -> Forall (fun x => sh_height x <> startHeight /\ shows N x) xs -> in_turn (x :: xs) es ->
  let k := y_link (yrun H N startHeight TxSizeLimit limitSize rand (S (S fuel)) (ystart (mkBls tx (p_lastSeq p) (gb_height b))) es) in
  let ms := map rm_message (sent (l_st k)) in
  dead k = false /\ length ms = length xs /\ forall m caller account net seq, In m ms -> M_Wire.handleRelayBytes H recover p caller account net seq m = None.
Proof.
  intros H recover N startHeight TxSizeLimit limitSize rand fuel src ntid nid p prev sn b x xs tx es HH St G Hx Hb Fi L0 L1 Hn Sh [E NN].
  inversion G as [|? ? ? ? ? Fo G']; subst. pose proof (goes_rising _ _ _ _ _ _ _ _ _ G) as [Re Ri]. pose proof (goes_numbers _ _ _ _ _ _ _ _ _ G') as NU.
  inversion Fi as [|? ? [Fx _] Fi']; subst.
  assert (Ri' : rising (gb_height b) xs).
  { destruct xs as [|z zs]; [exact I|]. destruct Ri as [(Z1 & Z2 & Z3 & Z4) Ri]. split; [|exact Ri]. destruct Re as (_ & _ & Z3' & _). unfold readable. repeat (split; [assumption|]). split; [lia|exact Z4]. }
  cbn [flat_map] in E. unfold steps at 1 in E. cbn [app] in E. set (y0 := ystart (mkBls tx (p_lastSeq p) (gb_height b))).
  set (go := yrun H N startHeight TxSizeLimit limitSize rand (S (S fuel))). cbv zeta.
  destruct (next_event H N startHeight TxSizeLimit limitSize rand fuel _ _ _ E NN y0) as (y1 & es1 & Q1 & R1 & E1 & NN1). fold go in R1. rewrite R1. clear R1. cbn [ystep].
  assert (F : fetch H N startHeight y1 (header_wire (sh_header x)) = y1).
  { unfold fetch. destruct (negb _); [reflexivity|]. destruct (y_waiting y1); [reflexivity|]. destruct (M_Wire.relay_height (header_wire (sh_header x))) as [hh|] eqn:Eh; [|reflexivity].
    destruct Re as (A1 & A2 & A3 & A4 & A5 & A6 & A7 & A8 & A9).
    assert (Ls : zlen (rlp_write (RList [RBytes (header_wire (sh_header x)); RBytes (sigs_wire (sh_sigs x))])) < 2 ^ 63) by (unfold header_size in Fx; lia). apply two_small in Ls as [Ls _]. apply small_b in Ls.
    rewrite T_Wire.C59_relay_reads_height in Eh by assumption. injection Eh as <-. rewrite A2, Hn. destruct (_ =? _); reflexivity. }
  rewrite F. clear F.
  destruct (next_event H N startHeight TxSizeLimit limitSize rand fuel _ _ _ E1 NN1 y1) as (y2 & es2 & Q2 & R2 & E2 & NN2). fold go in R2. rewrite R2. clear R2. cbn [ystep].
  pose proof (quiet_trans _ _ _ Q1 Q2) as Q12. assert (T : take y2 = y2) by (destruct Q12 as (_ & _ & _ & W1 & W2 & _); unfold take; rewrite W1, W2; reflexivity). rewrite T. clear T.
  destruct (next_event H N startHeight TxSizeLimit limitSize rand fuel _ _ _ E2 NN2 y2) as (y3 & es3 & Q3 & R3 & E3 & NN3). fold go in R3. rewrite R3. clear R3. cbn [ystep].
  pose proof (quiet_trans _ _ _ Q12 Q3) as Q. assert (T : M_Btp2.build N TxSizeLimit limitSize rand (S (S fuel)) y3 = y3) by (destruct Q as (_ & _ & _ & _ & W2 & _); unfold M_Btp2.build; rewrite W2; reflexivity). rewrite T. clear T.
  rewrite <- (app_nil_r (flat_map steps xs)) in E3.
  pose proof (between_quiet _ _ _ _ _ Q (start_between tx (p_lastSeq p) _ Hb)) as Bw. destruct Q as (W0 & W1 & W2 & W3 & W4 & _ & _ & _ & _ & _ & _ & _ & W5 & _).
  destruct (all_blocks H N startHeight TxSizeLimit limitSize rand fuel xs [] (gb_height b) HH Ri' Fi' L0 L1 Sh
    y3 tx (p_lastSeq p) {| m_root := None; m_contents := [] |} es3 Bw (or_introl W1) W2 W3 W4 E3 NN3)
    as (y' & es' & rs & t' & A1 & A2 & A3 & A4 & A5 & A6 & A7 & A8 & D1 & D2). cbv zeta in *. unfold go. rewrite A1.
  pose proof (no_event H N startHeight TxSizeLimit limitSize rand fuel es' A2 A3 y') as Q. apply (between_quiet _ _ _ _ _ Q) in A4.
  destruct Q as (_ & _ & _ & _ & _ & _ & _ & _ & _ & _ & _ & _ & Q & _). rewrite Q, D1, W5. cbn [y0 ystart y_link NewLink l_st sent app].
  split; [apply A4|]. split; [symmetry; apply (Forall2_length D2)|].
  assert (P : 0 < zlen (sh_msgs x)) by (destruct (sh_msgs x); [congruence|unfold zlen; cbn [length]; lia]).
  unfold stands in St. destruct St as (_ & _ & _ & S4 & _ & _ & S7 & S8 & _). intros m caller account net seq I.
  apply (all_refused H recover p limitSize xs _ D2 Fi'); [|exact I]. apply Forall_impl with (2 := NU). intros z Hz. left. split; [exact S4|]. rewrite S7. unfold sh_msgs in P. lia.
Qed.
Print Assumptions C95_failed_fetch_refuted.

(** Finding: the sender hands on a status it could not get (nil).  If the link remembers a block or a relay message, this
    ends the process. *)
Theorem C95_nil_status_refuted : forall N TxSizeLimit limitSize rand fuel y, l_sender (y_link y) = Running -> rms (l_st (y_link y)) <> [] \/ rss (l_st (y_link y)) <> [] ->
  dead (y_link (told N TxSizeLimit limitSize rand fuel y None)) = true.
Proof.
  intros N TxSizeLimit limitSize rand fuel y Hs Hr. unfold told. cbn [y_link]. destruct (dead (y_link y)) eqn:Ed; [exact Ed|]. rewrite Hs.
  destruct (rms (l_st (y_link y))), (rss (l_st (y_link y))); try reflexivity. destruct Hr as [Hr|Hr]; congruence.
Qed.
Print Assumptions C95_nil_status_refuted.

(** Finding: started at height 0 the relay never does anything. *)
Theorem C95_from_zero_refuted : forall H N startHeight TxSizeLimit limitSize rand fuel tx q h es, h < 1 -> ~ In (Told None) es ->
  let k := y_link (yrun H N startHeight TxSizeLimit limitSize rand (S (S fuel)) (ystart (mkBls tx q h)) es) in sent (l_st k) = [] /\ dead k = false.
Proof.
  intros H N startHeight TxSizeLimit limitSize rand fuel tx q h es L.
  assert (G : forall es y, y_follows y = false -> y_waiting y = None -> y_taken y = None -> ~ In (Told None) es -> let k := y_link (yrun H N startHeight TxSizeLimit limitSize rand (S (S fuel)) y es) in
    sent (l_st k) = sent (l_st (y_link y)) /\ dead k = dead (y_link y)).
  { clear. induction es as [|e es IH]; intros y F1 F2 F3 NN; [cbn; auto|]. unfold yrun in *. cbn [fold_left].
    assert (NN' : ~ In (Told None) es) by (intros I; apply NN; right; exact I).
    destruct e as [hd| | |[b|]]; cbn [ystep].
    - replace (fetch H N startHeight y hd) with y by (unfold fetch; rewrite F1; reflexivity). apply IH; assumption.
    - replace (take y) with y by (unfold take; rewrite F2, F3; reflexivity). apply IH; assumption.
    - replace (M_Btp2.build N TxSizeLimit limitSize rand (S (S fuel)) y) with y by (unfold M_Btp2.build; rewrite F3; reflexivity). apply IH; assumption.
    - pose proof (told_quiet N TxSizeLimit limitSize rand fuel y b) as (Q0 & Q1 & Q2 & Q3 & Q4 & Q5 & Q6 & Q7 & Q8 & Q9 & Q10 & Q11 & Q12 & _). cbv zeta in *. rewrite <- Q12, <- Q8. apply IH; congruence.
    - exfalso. apply NN. left. reflexivity. }
  intros NN. cbv zeta. specialize (G es (ystart (mkBls tx q h))). cbv zeta in G. destruct G as [G1 G2]; auto.
  cbn [ystart y_follows Height]. lia.
Qed.
Print Assumptions C95_from_zero_refuted.

(** *** The example chain of T_JBmv.v again, its third block alone in its type: a block without messages, then a block with
    five messages that changes the validators. *)
Definition ex_rec (d sig : list Z) : option (list Z) := Some (4 :: sig).
Definition ex_b2a := GB 102 1 ex_ctxB true ex_msgs (ex_root ex_msgs) (NLeaf ex_s2).
Definition ex_x1 := Shown ex_b1 (ex_header ex_b1 ex_s1 []) [[1]; [2]; [4]].
Definition ex_x2 := Shown ex_b2a (ex_header ex_b2a ex_s2 []) [[4]; [3]; [1]].
Definition ex_xs := [ex_x1; ex_x2].
Definition ex_node := mkNode
  (fun h => if h =? 101 then Some [] else if h =? 102 then Some (map Some ex_msgs) else None)
  (fun h => if h =? 101 then Some (header_wire (sh_header ex_x1), sigs_wire (sh_sigs ex_x1)) else if h =? 102 then Some (header_wire (sh_header ex_x2), sigs_wire (sh_sigs ex_x2)) else None).
Definition ex_p : props := match ex_p0 with
  | Some p0 => fst (M_JBmv.run toy32 ex_recover p0 [ex_call 0 [MessageProof_ (ex_proof [[1]; [2; 2]] 1 2)]])
  | None => mkProps [] 0 0 None None None [] 0 None 0 0 0 0 end.

Example C95_ex_start : stands toy32 ex_src 1 5 ex_p None 0 ex_b0 (zlen (gb_msgs ex_b0)) /\ p_ctxHash ex_p = Some (toy32 (gb_ctx ex_b0)) /\ p_lastSeq ex_p = 2.
Proof. split; [|vm_compute; auto]. unfold stands. vm_compute. repeat split; try reflexivity; intros; try discriminate. Qed.
Lemma ex_bytes : forall l, forallb (forallb (fun b => (0 <=? b) && (b <? 256))) l = true -> Forall bytes_ok l.
Proof. intros l E. apply Forall_forall. intros x Hx. rewrite forallb_forall in E. apply bytes_ok_b, E, Hx. Qed.
Lemma ex_signs : forall d sigs, Forall2 (signs toy32 ex_rec d) sigs (map ex_addr sigs).
Proof. intros d sigs. induction sigs as [|k sigs IH]; cbn [map]; constructor; [|exact IH]. exists 4, k. split; reflexivity. Qed.
Example C95_ex_chain : goes_on toy32 ex_rec ex_src 1 5 None 0 ex_b0 ex_xs.
Proof.
  constructor; [|constructor; [|constructor]]; constructor.
  - vm_compute. reflexivity.
  - split; vm_compute; reflexivity.
  - vm_compute. auto.
  - reflexivity.
  - reflexivity.
  - reflexivity.
  - exists (map ex_addr [[1]; [2]; [3]; [4]]), (map ex_addr [[1]; [2]; [4]]). split; [vm_compute; reflexivity|]. split; [apply ex_signs|].
    split; [|split; [|vm_compute; reflexivity]].
    + vm_compute. repeat constructor; cbn [In]; intuition congruence.
    + cbn [map In]. tauto.
  - reflexivity.
  - vm_compute. repeat split; discriminate.
  - split; [|split; [apply ex_bytes; vm_compute; reflexivity|split; [apply ex_bytes; vm_compute; reflexivity|vm_compute; reflexivity]]].
    unfold wire_header_ok. cbn [ex_x1 sh_header ex_header hd_nextCtxHash hd_prev hd_root hd_nextCtx hd_path opt_bytes ex_s1 s_prev s_root]. repeat (split; [try exact I; apply bytes_ok_b; vm_compute; reflexivity|]). constructor.
  - vm_compute. reflexivity.
  - split; vm_compute; reflexivity.
  - vm_compute. auto.
  - reflexivity.
  - reflexivity.
  - cbn [ex_x2 sh_block ex_b2a gb_update]. split; [reflexivity|]. intros X. vm_compute in X. discriminate X.
  - exists (map ex_addr [[1]; [2]; [3]; [4]]), (map ex_addr [[4]; [3]; [1]]). split; [vm_compute; reflexivity|]. split; [apply ex_signs|].
    split; [|split; [|vm_compute; reflexivity]].
    + vm_compute. repeat constructor; cbn [In]; intuition congruence.
    + cbn [map In]. tauto.
  - cbn [ex_x2 sh_msgs sh_block ex_b2a gb_msgs gb_root]. apply ex_merkle; [discriminate|vm_compute; reflexivity].
  - vm_compute. repeat split; discriminate.
  - split; [|split; [apply ex_bytes; vm_compute; reflexivity|split; [apply ex_bytes; vm_compute; reflexivity|vm_compute; reflexivity]]].
    unfold wire_header_ok. cbn [ex_x2 sh_header ex_header hd_nextCtxHash hd_prev hd_root hd_nextCtx hd_path opt_bytes ex_s2 s_prev s_root]. repeat (split; [apply bytes_ok_b; vm_compute; reflexivity|]). constructor.
Qed.
Example C95_ex_fits : Forall (fits toy32 10000) ex_xs /\ Forall (fun x => sh_height x <> 7 /\ shows ex_node x) ex_xs.
Proof.
  split.
  - constructor; [|constructor; [|constructor]].
    + split; [vm_compute; discriminate|]. split; [intros t m e _ _ He; change (zlen (sh_msgs ex_x1)) with 0 in He; lia|]. intros l W. cbn [whole_news sh_msgs ex_x1 sh_block ex_b1 gb_msgs] in W. subst l. vm_compute. reflexivity.
    + split; [vm_compute; discriminate|]. split.
      * intros t m e E1 E2 He. change (zlen (sh_msgs ex_x2)) with 5 in He. vm_compute in E1. injection E1 as <-.
        assert (C : e = 1 \/ e = 2 \/ e = 3 \/ e = 4) by lia. destruct C as [->|[->|[->| ->]]]; vm_compute in E2; injection E2 as <-; vm_compute; discriminate.
      * intros l W. unfold whole_news in W. change (sh_msgs ex_x2) with ex_msgs in W. cbn [ex_msgs] in W. destruct W as (t & m & E1 & E2 & ->). vm_compute in E1. injection E1 as <-. vm_compute in E2. injection E2 as <-. vm_compute. reflexivity.
  - repeat (constructor; [split; [vm_compute; discriminate|split; vm_compute; reflexivity]|]). constructor.
Qed.
(** Statuses between the events, also old and strange ones *)
Definition ex_events : list yevent :=
  [Fetch (header_wire (sh_header ex_x1)); Told (Some (mkBls 0 2 100)); Take; Build; Told (Some (mkBls 0 2 101)); Told (Some (mkBls 9 0 0));
   Fetch (header_wire (sh_header ex_x2)); Take; Told (Some (mkBls 0 99 999)); Build; Told (Some (mkBls 0 7 102))].
Example C95_ex_events : in_turn ex_xs ex_events.
Proof. split; [reflexivity|]. intros I. repeat (destruct I as [I|I]; [discriminate I|]). exact I. Qed.
Definition ex_after (es : list yevent) := y_link (yrun toy32 ex_node 7 20000 10000 (fun _ => 0) 3 (ystart (mkBls 0 2 100)) es).
Example C95_ex_run : let k := ex_after ex_events in
  match all_taken toy32 ex_rec ex_p (map rm_message (sent (l_st k))) with
  | Some (p, out) => out = ex_msgs /\ p_height p = 102 /\ p_lastSeq p = 7 /\ dead k = false
  | None => False end.
Proof. vm_compute. repeat split. Qed.
(** The second message alone is refused; two blocks at once, or a nil status, crash. *)
Example C95_ex_wrong : let k := ex_after ex_events in
  all_taken toy32 ex_rec ex_p (map rm_message (skipn 1 (sent (l_st k)))) = None /\
  dead (ex_after [Fetch (header_wire (sh_header ex_x1)); Take; Fetch (header_wire (sh_header ex_x2)); Build]) = true /\
  dead (ex_after (steps ex_x1 ++ [Told None])) = true /\ dead (ex_after (steps ex_x1 ++ steps ex_x2)) = false.
Proof. vm_compute. repeat split. Qed.
