(** Theorems about fragments: C32; base64: C47. *)
From Coq Require Import String Ascii ZArith List Bool Lia Arith.
From Coq Require Import ZifyBool.
From Verif Require Import Base L_Base M_Fragment S_Fragment.
Import ListNotations.
Open Scope Z_scope.

Lemma b64_val_char : forall n, 0 <= n < 64 -> b64_val (b64_char n) = Some n.
Proof.
  intros n Hn. unfold b64_char. destruct (Z.ltb_spec n 26); [|destruct (Z.ltb_spec n 52); [|destruct (Z.ltb_spec n 62); [|destruct (Z.eqb_spec n 62)]]]; unfold b64_val;
  repeat match goal with |- context[(?a <=? ?b) && (?c <=? ?d)] => destruct (Z.leb_spec a b), (Z.leb_spec c d); cbn [andb]; try lia end;
  try (f_equal; lia).
  - subst. reflexivity.
  - assert (n = 63) by lia. subst. reflexivity.
Qed.
Lemma b64_char_pad : forall n, 0 <= n < 64 -> (b64_char n =? PAD) = false.
Proof.
  intros n Hn. apply Z.eqb_neq. unfold b64_char, PAD.
  destruct (Z.ltb_spec n 26); [lia|]. destruct (Z.ltb_spec n 52); [lia|]. destruct (Z.ltb_spec n 62); [lia|]. destruct (Z.eqb_spec n 62); lia.
Qed.

Lemma list3_ind : forall (P : list Z -> Prop), P [] -> (forall a, P [a]) -> (forall a b, P [a; b]) ->
  (forall a b c r, P r -> P (a :: b :: c :: r)) -> forall l, P l.
Proof.
  intros P H0 H1 H2 H3. fix IH 1. intros [|a [|b [|c r]]]; [apply H0|apply H1|apply H2|apply H3; apply IH].
Qed.

(** C47.  Base64 text is lossless, injective, and has the expected length. *)
Theorem C47_base64_roundtrip : forall b, bytes_ok b -> b64_decode (b64_encode b) = Some b.
Proof.
  intros b. induction b as [|a|a b|a b c r IH] using list3_ind; intros HB.
  - reflexivity.
  - apply Forall_inv in HB. unfold is_byte in HB. cbn [b64_encode b64_decode]. change (PAD =? PAD) with true. cbn [length Nat.eqb andb].
    unfold b64_one. rewrite !b64_val_char by (Z.to_euclidean_division_equations; lia). f_equal. f_equal. Z.to_euclidean_division_equations; lia.
  - pose proof (Forall_inv HB) as HA. apply Forall_inv_tail in HB. apply Forall_inv in HB. unfold is_byte in *. cbn [b64_encode b64_decode]. change (PAD =? PAD) with true. cbn [length Nat.eqb andb].
    rewrite b64_char_pad by (Z.to_euclidean_division_equations; lia).
    unfold b64_two. rewrite !b64_val_char by (Z.to_euclidean_division_equations; lia). f_equal. f_equal; [|f_equal]; Z.to_euclidean_division_equations; lia.
  - pose proof (Forall_inv HB) as HA. apply Forall_inv_tail in HB. pose proof (Forall_inv HB) as HB'. apply Forall_inv_tail in HB. pose proof (Forall_inv HB) as HC. apply Forall_inv_tail in HB.
    unfold is_byte in *. cbn [b64_encode b64_decode]. rewrite b64_char_pad by (Z.to_euclidean_division_equations; lia). cbn [andb].
    rewrite !b64_val_char by (Z.to_euclidean_division_equations; lia). rewrite (IH HB). f_equal. f_equal; [|f_equal; [|f_equal]]; Z.to_euclidean_division_equations; lia.
Qed.
Print Assumptions C47_base64_roundtrip.

Theorem C47_base64_injective : forall a b, bytes_ok a -> bytes_ok b -> b64_encode a = b64_encode b -> a = b.
Proof. intros a b Ha Hb E. pose proof (C47_base64_roundtrip a Ha) as E1. rewrite E, (C47_base64_roundtrip b Hb) in E1. congruence. Qed.
Print Assumptions C47_base64_injective.

Theorem C47_base64_length : forall b, zlen (b64_encode b) = 4 * ((zlen b + 2) / 3).
Proof.
  intros b. induction b as [|a|a b|a b c r IH] using list3_ind; try reflexivity. cbn [b64_encode].
  unfold zlen in *. cbn [length]. rewrite !Nat2Z.inj_succ. rewrite IH. Z.to_euclidean_division_equations. lia.
Qed.
Print Assumptions C47_base64_length.

(** sender.go 35-43: ceil(524288 / 1.37) = 382692; the text of any message or fragment of at most that many
    bytes fits the transaction size limit of 512 kB. *)
Theorem C47_fragment_fits : forall b, zlen b <= 382692 -> zlen (b64_encode b) < 524288.
Proof. intros b Hb. rewrite C47_base64_length. Z.to_euclidean_division_equations. lia. Qed.
Print Assumptions C47_fragment_fits.

Example C47_ex : b64_encode (str "btp!") = str "YnRwIQ==" /\ b64_decode (str "_-8=") = Some [255; 239] /\ b64_decode (str "_-8") = Some [255; 239] /\ b64_decode (str "a") = None.
Proof. vm_compute. auto. Qed.

Lemma Forall_firstn : forall (n : nat) (l : list Z), bytes_ok l -> bytes_ok (firstn n l).
Proof. intros n l HB. rewrite <- (firstn_skipn n l) in HB. apply Forall_app in HB. apply HB. Qed.
Lemma Forall_skipn : forall (n : nat) (l : list Z), bytes_ok l -> bytes_ok (skipn n l).
Proof. intros n l HB. rewrite <- (firstn_skipn n l) in HB. apply Forall_app in HB. apply HB. Qed.

(** Pieces. *)
Lemma get_pieces_firstn : forall n ps, (n <= length ps)%nat -> get_pieces n ps = Some (firstn n ps).
Proof.
  induction n as [|n IH]; intros ps HL; [reflexivity|]. destruct ps as [|p ps]; cbn in HL; [lia|]. cbn [get_pieces firstn]. rewrite IH by lia. reflexivity.
Qed.
Lemma get_pieces_some : forall n ps l, get_pieces n ps = Some l -> (n <= length ps)%nat.
Proof.
  induction n as [|n IH]; intros ps l E; [lia|]. destruct ps as [|p ps]; cbn [get_pieces] in E; [discriminate|].
  destruct (get_pieces n ps) eqn:E1; [|discriminate]. apply IH in E1. cbn. lia.
Qed.
Lemma set_nth_length : forall T n (x : T) l, length (set_nth n x l) = length l.
Proof. intros T n x. induction n as [|n IH]; intros [|y l]; cbn; auto. Qed.
Lemma set_nth_firstn : forall T n (x : T) l, (n < length l)%nat -> firstn (S n) (set_nth n x l) = firstn n l ++ [x].
Proof.
  intros T n x. induction n as [|n IH]; intros [|y l] HL; cbn in HL; try lia; [reflexivity|]. change (set_nth (S n) x (y :: l)) with (y :: set_nth n x l).
  rewrite firstn_cons, firstn_cons. cbn [app]. f_equal. apply IH. lia.
Qed.
Lemma i32_small : forall v, - 2 ^ 31 <= v < 2 ^ 31 -> i32 v = v.
Proof. intros v Hv. unfold i32. rewrite Z.mod_small by lia. lia. Qed.

(** Invariant of the stored array, for any history of calls: the pieces collected since the latest start are in
    front, and the next index counts down. *)
Lemma reached_inv : forall st h, reached st h ->
  match st with
  | None => h = []
  | Some s => f_last s = announced h /\ 0 < f_last s < 2 ^ 31 /\ f_next s = f_last s - zlen (collected h) /\ 0 <= f_next s /\
              firstn (length (collected h)) (f_pieces s) = collected h /\ (1 <= length (collected h) <= length (f_pieces s))%nat
  end.
Proof.
  intros st h HR. induction HR as [|st h text idx b st' o HR IH HI HT HF]; [reflexivity|].
  unfold handleFragment in HF. rewrite HT in HF. cbn [announced collected]. destruct (Z.ltb_spec idx 0) as [HN|HN].
  - rewrite i32_small in HF by lia. rewrite i32_small in HF by lia.
    destruct st as [s|].
    + destruct IH as (_ & _ & _ & _ & _ & HL). destruct (f_pieces s) as [|p ps]; [cbn in HL; lia|]. injection HF as <- <-. cbn [f_last f_next f_pieces].
      unfold zlen. cbn [set_nth length firstn]. repeat split; lia.
    + injection HF as <- <-. cbn [f_last f_next f_pieces]. unfold zlen. cbn [length firstn]. repeat split; lia.
  - destruct st as [s|]; [|discriminate]. destruct IH as (I1 & I2 & I3 & I4 & I5 & I6).
    destruct (Z.eqb_spec (f_next s) idx) as [En|]; cbn [negb] in HF; [|discriminate].
    destruct (Z.eqb_spec idx 0) as [E0|N0].
    + destruct (f_last s <? 0); [discriminate|]. destruct (get_pieces (Z.to_nat (f_last s)) (f_pieces s)); [|discriminate]. injection HF as <- <-. auto 8.
    + rewrite i32_small in HF by lia. injection HF as <- <-. cbn [f_last f_next f_pieces].
      assert (EI : f_last s - idx = zlen (collected h)) by lia. rewrite EI. unfold zlen in *. rewrite Nat2Z.id, app_length. cbn [length].
      split; [assumption|]. split; [assumption|]. split; [lia|]. split; [lia|].
      destruct (Z.ltb_spec (Z.of_nat (length (collected h))) (Z.of_nat (length (f_pieces s)))) as [HL|HL].
      * rewrite set_nth_length. split; [|lia]. replace (length (collected h) + 1)%nat with (S (length (collected h))) by lia.
        rewrite set_nth_firstn by lia. rewrite I5. reflexivity.
      * assert (EL : length (collected h) = length (f_pieces s)) by lia. rewrite app_length. cbn [length]. split; [|lia].
        rewrite EL in *. rewrite firstn_all in I5. rewrite firstn_all2 by (rewrite app_length; cbn; lia). rewrite I5. reflexivity.
Qed.

(** Safety, for any calls in any order: a message handed over consists of the pieces of the latest start, all
    of them and in order, followed by the fragment that completes it. *)
Theorem C32_only_complete_messages : forall st h text idx st' m, reached st h -> handleFragment st text idx = Some (st', Some m) ->
  exists b, b64_decode text = Some b /\ idx = 0 /\ m = concat (collected h) ++ b /\ zlen (collected h) = announced h.
Proof.
  intros st h text idx st' m HR HF. pose proof (reached_inv st h HR) as HI. unfold handleFragment in HF.
  destruct (b64_decode text) as [b|]; [|discriminate]. exists b. split; [reflexivity|].
  destruct (idx <? 0); [destruct st; discriminate|]. destruct st as [s|]; [|discriminate].
  destruct (Z.eqb_spec (f_next s) idx) as [En|]; cbn [negb] in HF; [|discriminate].
  destruct (Z.eqb_spec idx 0) as [->|]; [|discriminate]. destruct HI as (I1 & I2 & I3 & I4 & I5 & I6).
  destruct (f_last s <? 0); [discriminate|]. destruct (get_pieces (Z.to_nat (f_last s)) (f_pieces s)) as [ps|] eqn:EG; [|discriminate].
  assert (EL : Z.to_nat (f_last s) = length (collected h)) by (unfold zlen in *; lia).
  pose proof (get_pieces_some _ _ _ EG) as HL. rewrite get_pieces_firstn in EG by assumption. rewrite EL, I5 in EG. assert (collected h = ps) by congruence. subst ps.
  split; [reflexivity|]. split; [|unfold zlen in *; lia]. assert (EM : concat (collected h ++ [b]) = m) by congruence. rewrite <- EM, concat_app. cbn [concat]. rewrite app_nil_r. reflexivity.
Qed.
Print Assumptions C32_only_complete_messages.

(** A fragment out of turn is refused and changes nothing. *)
Theorem C32_out_of_turn_refused : forall s text idx, 0 <= idx -> idx <> f_next s -> handleFragment (Some s) text idx = None.
Proof.
  intros s text idx Hi Hn. unfold handleFragment. destruct (b64_decode text); [|reflexivity]. destruct (Z.ltb_spec idx 0); [lia|].
  destruct (Z.eqb_spec (f_next s) idx); [congruence|reflexivity].
Qed.
Print Assumptions C32_out_of_turn_refused.

(** The stored array as a sender finds it: empty, or with at least one piece. *)
Definition usable (st : option fstate) : Prop := match st with None => True | Some s => f_pieces s <> [] end.

Lemma send_rest_exec : forall limit n msg s pre, bytes_ok msg -> f_next s = Z.of_nat n -> f_last s = Z.of_nat (n + length pre) ->
  f_last s < 2 ^ 31 -> firstn (length pre) (f_pieces s) = pre -> (length pre <= length (f_pieces s))%nat -> pre <> [] ->
  exists s', execute (Some s) (send_rest limit n msg) = (Some s', [concat pre ++ msg]) /\ f_pieces s' <> [].
Proof.
  intros limit. induction n as [|n IH]; intros msg s pre HM HN HL HB HP HQ HE; cbn [send_rest execute].
  - unfold handleFragment. rewrite C47_base64_roundtrip by assumption. change (0 <? 0) with false. cbv iota. rewrite HN.
    change (negb (Z.of_nat 0 =? 0)) with false. change (0 =? 0) with true. cbv iota.
    destruct (Z.ltb_spec (f_last s) 0); [lia|]. rewrite HL, Nat2Z.id. cbn [Nat.add].
    rewrite get_pieces_firstn by assumption. rewrite HP. exists s. 
    assert (E : concat (pre ++ [msg]) = concat pre ++ msg) by (rewrite concat_app; cbn [concat]; rewrite app_nil_r; reflexivity). rewrite E.
    split; [reflexivity|]. destruct pre as [|p pre]; [congruence|]. destruct (f_pieces s); [cbn in HQ; lia|discriminate].
  - assert (HM1 : bytes_ok (firstn limit msg)) by (apply Forall_firstn; assumption).
    assert (HM2 : bytes_ok (skipn limit msg)) by (apply Forall_skipn; assumption).
    unfold handleFragment. rewrite C47_base64_roundtrip by assumption. destruct (Z.ltb_spec (Z.of_nat (S n)) 0); [lia|].
    rewrite HN, Z.eqb_refl. cbn [negb]. destruct (Z.eqb_spec (Z.of_nat (S n)) 0); [lia|]. cbv zeta.
    rewrite i32_small by lia. replace (f_last s - Z.of_nat (S n)) with (Z.of_nat (length pre)) by lia. rewrite Nat2Z.id.
    set (s1 := {| f_last := _; f_next := _; f_pieces := _ |}).
    assert (K : firstn (length (pre ++ [firstn limit msg])) (f_pieces s1) = pre ++ [firstn limit msg] /\ (length (pre ++ [firstn limit msg]) <= length (f_pieces s1))%nat).
    { rewrite app_length. cbn [length]. replace (length pre + 1)%nat with (S (length pre)) by lia. subst s1. cbn [f_pieces].
      destruct (Z.ltb_spec (Z.of_nat (length pre)) (Z.of_nat (length (f_pieces s)))).
      - rewrite set_nth_firstn by lia. rewrite set_nth_length, HP. split; [reflexivity|lia].
      - assert (EL : length pre = length (f_pieces s)) by lia. rewrite EL in *. rewrite firstn_all in HP. rewrite app_length. cbn [length].
        rewrite firstn_all2 by (rewrite app_length; cbn; lia). rewrite HP. split; [reflexivity|lia]. }
    destruct K as [K1 K2].
    destruct (IH (skipn limit msg) s1 (pre ++ [firstn limit msg]) HM2) as (s' & E & HS); subst s1; cbn [f_next f_last f_pieces] in *; try lia; try assumption.
    + rewrite app_length. cbn [length]. lia.
    + destruct pre; discriminate.
    + exists s'. rewrite E. rewrite concat_app, <- app_assoc. cbn [concat]. rewrite app_nil_r, firstn_skipn. auto.
Qed.

(** Liveness: whatever was stored before, executing the transactions of a relay message in order hands over
    exactly that message, once, whatever the size limit. *)
Theorem C32_fragments_reassembled : forall limit msg st txs, bytes_ok msg -> zlen msg < 2 ^ 31 -> usable st -> relay limit msg = Ok txs ->
  exists st', execute st txs = (st', [msg]) /\ usable st'.
Proof.
  intros limit msg st txs HM HL HU E. unfold relay in E. destruct limit as [|lim]; [discriminate|]. set (limit := S lim) in *.
  destruct (length msg / limit)%nat as [|n] eqn:EI.
  - injection E as <-. exists st. cbn [execute]. rewrite C47_base64_roundtrip by assumption. auto.
  - injection E as <-. assert (HM1 : bytes_ok (firstn limit msg)) by (apply Forall_firstn; assumption).
    assert (HM2 : bytes_ok (skipn limit msg)) by (apply Forall_skipn; assumption).
    assert (HI : (S n <= length msg)%nat).
    { rewrite <- EI. apply Nat.div_le_upper_bound; [discriminate|]. unfold limit. nia. }
    unfold zlen in HL. cbn [execute]. unfold handleFragment. rewrite C47_base64_roundtrip by assumption.
    destruct (Z.ltb_spec (- Z.of_nat (S n)) 0); [|lia]. cbv zeta. rewrite !i32_small by lia.
    assert (FIN : forall s1, f_next s1 = Z.of_nat n -> f_last s1 = Z.of_nat (S n) -> firstn 1 (f_pieces s1) = [firstn limit msg] ->
      exists st', (let (st', out) := execute (Some s1) (send_rest limit n (skipn limit msg)) in (st', out)) = (st', [msg]) /\ usable st').
    { intros s1 F1 F2 F3. destruct (send_rest_exec limit n (skipn limit msg) s1 [firstn limit msg] HM2) as (s' & E & HS); try assumption.
      - cbn [length]. lia.
      - lia.
      - destruct (f_pieces s1); [discriminate|cbn; lia].
      - discriminate.
      - exists (Some s'). rewrite E. cbn [concat]. rewrite app_nil_r, firstn_skipn. auto. }
    destruct st as [s|]; apply FIN; cbn [f_next f_last f_pieces]; try lia; [|reflexivity].
    cbn [usable] in HU. destruct (f_pieces s); [congruence|reflexivity].
Qed.
Print Assumptions C32_fragments_reassembled.

(** Several messages one after the other. *)
Theorem C32_message_stream : forall limit msgs st txss, usable st -> Forall (fun m => bytes_ok m /\ zlen m < 2 ^ 31) msgs ->
  Forall2 (fun m txs => relay limit m = Ok txs) msgs txss -> exists st', execute st (concat txss) = (st', msgs) /\ usable st'.
Proof.
  intros limit msgs st txss HU HA HF. revert st HU HA. induction HF as [|m txs msgs txss E HF IH]; intros st HU HA.
  - exists st. auto.
  - inversion HA as [|? ? [H1 H2] H3]; subst. destruct (C32_fragments_reassembled limit m st txs H1 H2 HU E) as (st1 & E1 & U1).
    destruct (IH st1 U1 H3) as (st2 & E2 & U2). exists st2. split; [|assumption]. cbn [concat].
    assert (A : forall a b s s1 o1 s2 o2, execute s a = (s1, o1) -> execute s1 b = (s2, o2) -> execute s (a ++ b) = (s2, o1 ++ o2)).
    { clear. induction a as [|[text|idx text] a IH]; intros b s s1 o1 s2 o2 E1 E2; cbn [execute app] in *.
      - injection E1 as <- <-. assumption.
      - destruct (execute s a) as [s' o'] eqn:EA. assert (s' = s1) by congruence. subst s'. rewrite (IH b s s1 o' s2 o2 EA E2).
        destruct (b64_decode text); injection E1 as <-; reflexivity.
      - destruct (handleFragment s text idx) as [[sx ox]|]; [|apply (IH b s s1 o1 s2 o2 E1 E2)].
        destruct (execute sx a) as [s' o'] eqn:EA. assert (s' = s1) by congruence. subst s'. rewrite (IH b sx s1 o' s2 o2 EA E2).
        destruct ox; injection E1 as <-; reflexivity. }
    rewrite (A txs (concat txss) st st1 [m] st2 msgs E1 E2). reflexivity.
Qed.
Print Assumptions C32_message_stream.

(** Every fragment respects the size limit. *)
Theorem C32_fragments_within_limit : forall limit msg txs, relay limit msg = Ok txs ->
  Forall (fun t => exists b, (match t with TxRelay x => x | TxFragment _ x => x end) = b64_encode b /\ (length b <= limit)%nat) txs.
Proof.
  intros limit msg txs E. unfold relay in E. destruct limit as [|lim]; [discriminate|]. set (limit := S lim) in *.
  assert (LZ : limit <> 0%nat) by discriminate.
  pose proof (Nat.div_mod (length msg) limit LZ) as DM. pose proof (Nat.mod_upper_bound (length msg) limit LZ) as UB.
  assert (G : forall n m, (length m <= n * limit + limit)%nat -> Forall (fun t => exists b, (match t with TxRelay x => x | TxFragment _ x => x end) = b64_encode b /\ (length b <= limit)%nat) (send_rest limit n m)).
  { induction n as [|n IH]; intros m HL; cbn [send_rest].
    - constructor; [|constructor]. exists m. split; [reflexivity|lia].
    - constructor; [exists (firstn limit m); split; [reflexivity|apply firstn_le_length]|]. apply IH. rewrite skipn_length. lia. }
  destruct (length msg / limit)%nat as [|n] eqn:EI.
  - injection E as <-. constructor; [|constructor]. exists msg. split; [reflexivity|lia].
  - assert (ET : TxFragment (- Z.of_nat (S n)) (b64_encode (firstn limit msg)) :: send_rest limit n (skipn limit msg) = txs) by congruence. rewrite <- ET.
    constructor; [exists (firstn limit msg); split; [reflexivity|apply firstn_le_length]|]. apply G. rewrite skipn_length. nia.
Qed.
Print Assumptions C32_fragments_within_limit.

(** "Once" fails when the relay repeats the last fragment: the array is not cleared after a message was handed
    over, so a further call with index 0 assembles the old pieces again, with any last piece. *)
Theorem C32_completed_message_replays_refuted : forall st h text st' m text' b', reached st h -> handleFragment st text 0 = Some (st', Some m) ->
  b64_decode text' = Some b' -> exists st'' , handleFragment st' text' 0 = Some (st'', Some (concat (collected h) ++ b')).
Proof.
  intros st h text st' m text' b' HR HF HB. destruct (C32_only_complete_messages st h text 0 st' m HR HF) as (b & E1 & _ & E2 & E3).
  pose proof (reached_inv st h HR) as HI. unfold handleFragment in *. rewrite E1 in HF. rewrite HB. change (0 <? 0) with false in *. cbv iota in *.
  destruct st as [s|]; [|discriminate]. destruct (f_next s =? 0) eqn:EN; cbn [negb] in HF; [|discriminate]. change (0 =? 0) with true in *. cbv iota in *.
  destruct (f_last s <? 0) eqn:EL; [discriminate|]. destruct (get_pieces (Z.to_nat (f_last s)) (f_pieces s)) as [ps|] eqn:EG; [|discriminate].
  assert (st' = Some s) by congruence. subst st'. rewrite EN. cbn [negb]. rewrite EL, EG. exists (Some s). f_equal. f_equal. f_equal.
  assert (EM : concat (ps ++ [b]) = concat (collected h) ++ b) by congruence.
  rewrite concat_app in *. cbn [concat] in *. rewrite app_nil_r in *. apply app_inv_tail in EM. rewrite EM. reflexivity.
Qed.
Print Assumptions C32_completed_message_replays_refuted.

Example C32_ex : let msg := [1; 2; 3; 4; 5; 6; 7] in
  exists txs, relay 3 msg = Ok txs /\ length txs = 3%nat /\ execute None txs = (Some {| f_last := 2; f_next := 0; f_pieces := [[1; 2; 3]; [4; 5; 6]] |}, [msg]).
Proof. cbn zeta. eexists. split; [vm_compute; reflexivity|]. vm_compute. auto. Qed.
(** A message of exactly twice the limit ends with an empty fragment. *)
Example C32_ex_multiple : exists txs, relay 2 [1; 2; 3; 4] = Ok txs /\ length txs = 3%nat /\
  snd (execute (Some {| f_last := 4; f_next := 2; f_pieces := [[9]; [9]; [9]; [9]] |}) txs) = [[1; 2; 3; 4]].
Proof. eexists. split; [vm_compute; reflexivity|]. vm_compute. auto. Qed.
