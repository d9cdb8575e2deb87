(** C112: the text helpers of the contracts. *)
From Coq Require Import ZArith List Bool Lia.
From Coq Require Import ZifyBool.
From Verif Require Import Base L_Base M_SolRlp M_SolBmv M_TextUtil S_TextUtil.
Import ListNotations.
Open Scope Z_scope.
Local Notation bytes := (list Z).

(** ** Hexadecimal text *)
Lemma land15 : forall x, Z.land x 15 = x mod 16.
Proof. intros x. change 15 with (Z.ones 4). rewrite Z.land_ones by lia. reflexivity. Qed.
Lemma land255 : forall x, byte x -> Z.land x 255 = x.
Proof. intros x B. change 255 with (Z.ones 8). rewrite Z.land_ones by lia. apply Z.mod_small. exact B. Qed.
Lemma shr4 : forall x, Z.shiftr x 4 = x / 16.
Proof. intros x. rewrite Z.shiftr_div_pow2 by lia. reflexivity. Qed.
Lemma high_small : forall x, byte x -> 0 <= x / 16 < 16.
Proof. intros x B. unfold byte in B. pose proof (Z.div_mod x 16 ltac:(lia)). pose proof (Z.mod_pos_bound x 16 ltac:(lia)). lia. Qed.
(** The three ways to write bytes agree. *)
Theorem C112_hex_same : forall b, Forall byte b -> s_bytesToHex b = 48 :: 120 :: j_bytesToHex b /\ v_bytesToHex b = s_bytesToHex b.
Proof.
  intros b F. unfold s_bytesToHex, v_bytesToHex, j_bytesToHex.
  split; f_equal; f_equal; induction F as [|x b B F IH]; try reflexivity; cbn [flat_map]; rewrite IH; f_equal.
  - cbv zeta. rewrite land255, shr4, land15 by exact B. reflexivity.
  - rewrite shr4, !land15. rewrite (Z.mod_small (x / 16)) by (apply high_small; exact B). reflexivity.
Qed.
Print Assumptions C112_hex_same.
Lemma digit_hex : forall i, 0 <= i < 16 -> digit16 (hex_char i) = i.
Proof.
  intros i B. unfold hex_char, digit16. destruct (i <? 10) eqn:E.
  - replace ((48 <=? 48 + i) && (48 + i <=? 57)) with true by lia. lia.
  - replace ((48 <=? 87 + i) && (87 + i <=? 57)) with false by lia. replace ((97 <=? 87 + i) && (87 + i <=? 102)) with true by lia. lia.
Qed.
Lemma join_nibbles : forall a b, 0 <= a < 16 -> 0 <= b < 16 -> Z.lor (Z.shiftl a 4) (Z.land b 255) mod 256 = 16 * a + b.
Proof.
  intros a b A B. rewrite land255 by (unfold byte; lia).
  assert (E : Z.lor (Z.shiftl a 4) b = 16 * a + b).
  { assert (L : Z.land (Z.shiftl a 4) b = 0).
    { apply Z.bits_inj'. intros n N. rewrite Z.land_spec, Z.bits_0, Z.shiftl_spec by lia. destruct (Z.ltb_spec n 4).
      - rewrite Z.testbit_neg_r by lia. reflexivity.
      - replace (Z.testbit b n) with false; [apply andb_false_r|]. symmetry. destruct (Z.eq_dec b 0) as [->|NZ]; [apply Z.bits_0|].
        apply Z.bits_above_log2; [lia|]. assert (Z.log2 b < 4) by (apply Z.log2_lt_pow2; lia). lia. }
    rewrite <- Z.lxor_lor by exact L. rewrite <- Z.add_nocarry_lxor by exact L. rewrite Z.shiftl_mul_pow2 by lia. change (2 ^ 4) with 16. lia. }
  rewrite E. apply Z.mod_small. lia.
Qed.
(** Bytes that are written are read back. *)
Theorem C112_hex_back : forall b, Forall byte b -> j_hexToBytes (j_bytesToHex b) = Some b.
Proof.
  intros b F. assert (G : unhex (j_bytesToHex b) = b /\ Nat.odd (length (j_bytesToHex b)) = false).
  { unfold j_bytesToHex. induction F as [|x b B F IH]; [split; reflexivity|]. destruct IH as [I1 I2]. cbn [flat_map app unhex length]. cbv zeta. cbn [app unhex length]. split; [|exact I2].
    rewrite I1. f_equal. rewrite land255, shr4, land15 by exact B. pose proof (high_small x B). pose proof (Z.mod_pos_bound x 16 ltac:(lia)).
    rewrite !digit_hex by lia. rewrite join_nibbles by lia. pose proof (Z.div_mod x 16 ltac:(lia)). lia. }
  destruct G as [G1 G2]. unfold j_hexToBytes. rewrite G1, G2. reflexivity.
Qed.
Print Assumptions C112_hex_back.
Definition hex_text (s : bytes) : Prop := Forall (fun c => decimal c \/ lower_case c \/ upper_case c) s.
Lemma hex_digit : forall c, decimal c \/ lower_case c \/ upper_case c -> 0 <= digit16 c < 16 /\ hex_char (digit16 c) = lower1 c.
Proof.
  intros c [D|[D|D]]; unfold decimal, lower_case, upper_case in D; unfold digit16, hex_char, lower1.
  - replace ((48 <=? c) && (c <=? 57)) with true by lia. replace ((65 <=? c) && (c <=? 90)) with false by lia. replace (c - 48 <? 10) with true by lia. lia.
  - replace ((48 <=? c) && (c <=? 57)) with false by lia. replace ((97 <=? c) && (c <=? 102)) with true by lia. replace ((65 <=? c) && (c <=? 90)) with false by lia. replace (c - 87 <? 10) with false by lia. lia.
  - replace ((48 <=? c) && (c <=? 57)) with false by lia. replace ((97 <=? c) && (c <=? 102)) with false by lia. replace ((65 <=? c) && (c <=? 70)) with true by lia. replace ((65 <=? c) && (c <=? 90)) with true by lia. replace (c - 55 <? 10) with false by lia. lia.
Qed.
(** Hexadecimal text of even length is read; written again it is the text in lower case. *)
Theorem C112_hex_read : forall s, hex_text s -> Nat.even (length s) = true -> exists b, j_hexToBytes s = Some b /\ Forall byte b /\ j_bytesToHex b = lower s.
Proof.
  intros s F E. exists (unhex s). unfold j_hexToBytes. rewrite <- Nat.negb_even, E. cbn [negb]. split; [reflexivity|].
  remember (length s) as n eqn:En. revert s En F E. induction n as [n IH] using (well_founded_induction Wf_nat.lt_wf). intros s En F E.
  destruct s as [|a [|b s]]; [split; [apply Forall_nil|reflexivity]|subst n; cbn in E; discriminate E|].
  inversion F as [|? ? Fa F1]. subst. inversion F1 as [|? ? Fb F2]. subst.
  destruct (IH (length s) ltac:(cbn [length]; lia) s eq_refl F2 E) as [I1 I2]. cbn [unhex].
  destruct (hex_digit a Fa) as [A1 A2]. destruct (hex_digit b Fb) as [B1 B2]. rewrite join_nibbles by assumption.
  assert (B : byte (16 * digit16 a + digit16 b)) by (unfold byte; lia). split; [constructor; assumption|].
  change (lower (a :: b :: s)) with (lower1 a :: lower1 b :: lower s). rewrite <- I2. unfold j_bytesToHex. cbn [flat_map]. cbv zeta. rewrite land255, shr4, land15 by exact B.
  replace ((16 * digit16 a + digit16 b) / 16) with (digit16 a) by (apply (Z.div_unique _ _ _ (digit16 b)); lia).
  replace ((16 * digit16 a + digit16 b) mod 16) with (digit16 b) by (apply (Z.mod_unique _ _ (digit16 a)); lia).
  rewrite A2, B2. reflexivity.
Qed.
Print Assumptions C112_hex_read.
(** Text of odd length is refused, and no other. *)
Theorem C112_hex_odd : forall s, j_hexToBytes s = None <-> exists k, length s = (2 * k + 1)%nat.
Proof.
  intros s. unfold j_hexToBytes. change (exists k, length s = (2 * k + 1)%nat) with (Nat.Odd (length s)). rewrite <- Nat.odd_spec. destruct (Nat.odd (length s)); split; intros E; try reflexivity; discriminate.
Qed.
Print Assumptions C112_hex_odd.
(** Any other characters are read too, and all alike. *)
Theorem C112_hex_garbage_refuted : forall c d, digit16 c = -1 -> digit16 d = -1 -> j_hexToBytes [c; d] = Some [255].
Proof. intros c d C D. unfold j_hexToBytes. cbn [length Nat.odd Nat.even negb unhex]. rewrite C, D. reflexivity. Qed.
Print Assumptions C112_hex_garbage_refuted.
Example C112_ex_hex : j_hexToBytes [97; 66; 48; 55] = Some [171; 7] /\ j_bytesToHex [171; 7] = [97; 98; 48; 55] /\ j_hexToBytes [120; 122] = Some [255] /\ j_hexToBytes [48] = None /\ digit16 120 = -1.
Proof. repeat split. Qed.

(** ** Searching and splitting *)
Lemma idx_some : forall c l i, idx c l = Some i -> exists p r, l = p ++ c :: r /\ length p = i /\ ~ In c p.
Proof.
  induction l as [|x l IH]; intros i E; [discriminate|]. cbn [idx] in E. destruct (x =? c) eqn:X.
  - assert (i = O) by congruence. subst. apply Z.eqb_eq in X. subst. exists [], l. split; [reflexivity|]. split; [reflexivity|intros []].
  - destruct (idx c l) as [j|]; [|discriminate]. assert (i = S j) by congruence. subst. destruct (IH j eq_refl) as (p & r & E1 & E2 & E3). apply Z.eqb_neq in X.
    exists (x :: p), r. subst. split; [reflexivity|]. split; [reflexivity|]. intros [I|I]; [congruence|exact (E3 I)].
Qed.
Lemma idx_none : forall c l, idx c l = None -> ~ In c l.
Proof.
  induction l as [|x l IH]; intros E; [intros []|]. cbn [idx] in E. destruct (x =? c) eqn:X; [discriminate|]. destruct (idx c l); [discriminate|]. apply Z.eqb_neq in X.
  intros [I|I]; [congruence|exact (IH eq_refl I)].
Qed.
(** The first position from the offset on, or none. *)
Theorem C112_index : forall base c off, match indexOf base c off with
  | Some i => (off <= i < length base)%nat /\ nth_error base i = Some c /\ (forall j, (off <= j < i)%nat -> nth_error base j <> Some c)
  | None => forall j, (off <= j)%nat -> nth_error base j <> Some c
  end.
Proof.
  intros base c off. unfold indexOf.
  assert (N : forall j, (off <= j)%nat -> nth_error base j = nth_error (skipn off base) (j - off)).
  { intros j J. replace j with (off + (j - off))%nat at 1 by lia. generalize (j - off)%nat as k. clear. revert base. induction off as [|off IH]; intros base k; [reflexivity|]. destruct base as [|x base]; [destruct k; reflexivity|]. apply IH. }
  destruct (idx c (skipn off base)) as [i|] eqn:E.
  - destruct (idx_some _ _ _ E) as (p & r & E1 & E2 & E3). assert (L : length (skipn off base) = length (p ++ c :: r)) by (rewrite E1; reflexivity). rewrite skipn_length, app_length in L. cbn [length] in L.
    split; [lia|]. split.
    + rewrite N by lia. rewrite E1. replace (off + i - off)%nat with (length p + 0)%nat by lia. rewrite nth_error_app2 by lia. replace (length p + 0 - length p)%nat with O by lia. reflexivity.
    + intros j J X. rewrite N in X by lia. rewrite E1, nth_error_app1 in X by lia. apply E3. eapply nth_error_In. exact X.
  - intros j J X. rewrite N in X by lia. apply (idx_none _ _ E). eapply nth_error_In. exact X.
Qed.
Print Assumptions C112_index.

Example C112_ex_index : indexOf [97; 44; 98; 44] 44 2 = Some 3%nat /\ indexOf [97; 44; 98] 44 2 = None.
Proof. split; reflexivity. Qed.

(** the loops, on what is left of the text *)
Fixpoint parts (f : nat) (c : Z) (l : bytes) : list bytes :=
  match f with
  | O => [[]]
  | S f' => match l with
            | [] => [[]]
            | [_] => [[]]
            | _ => match idx c l with None => [l] | Some i => firstn i l :: parts f' c (skipn (S i) l) end
            end
  end.
Lemma skipn_add : forall (l : bytes) a b, skipn a (skipn b l) = skipn (b + a) l.
Proof. intros l a b. revert l. induction b as [|b IH]; intros l; [reflexivity|]. destruct l; [destruct a; reflexivity|]. apply IH. Qed.
Lemma loops : forall f base c off, (length (skipn off base) <= f)%nat ->
  let ps := fill f base c off in let n := S (count f base c off) in (length ps <= n)%nat /\ ps ++ repeat [] (n - length ps) = parts f c (skipn off base).
Proof.
  induction f as [|f IH]; intros base c off L; [cbn; split; [lia|reflexivity]|]. cbv zeta. cbn [fill count parts].
  assert (LS : length (skipn off base) = (length base - off)%nat) by apply skipn_length.
  destruct (off <? length base - 1)%nat eqn:O.
  - apply Nat.ltb_lt in O. destruct (skipn off base) as [|x [|y r]] eqn:K; [cbn [length] in LS; lia|cbn [length] in LS; lia|].
    unfold indexOf. rewrite K. destruct (idx c (x :: y :: r)) as [i|] eqn:E.
    + replace (skipn (S i) (x :: y :: r)) with (skipn (S (off + i)) base) by (rewrite <- K, skipn_add; f_equal; lia).
      destruct (idx_some _ _ _ E) as (p & q & E1 & E2 & _).
      destruct (IH base c (S (off + i))) as [I1 I2].
      { rewrite skipn_length. rewrite LS in L. lia. }
      cbv zeta in I1, I2. replace (off + i - off)%nat with i by lia.
      cbn [length app]. split; [lia|]. rewrite <- I2. reflexivity.
    + destruct f as [|f'].
      * cbn [fill count length app Nat.sub repeat]. split; [lia|]. rewrite firstn_all2 by lia. reflexivity.
      * cbn [fill]. replace (S (length base) <? length base - 1)%nat with false by (symmetry; apply Nat.ltb_ge; lia). cbn [length app Nat.sub repeat]. split; [lia|]. rewrite firstn_all2 by lia. reflexivity.
  - apply Nat.ltb_ge in O. destruct (skipn off base) as [|x [|y r]] eqn:K; [split; [cbn; lia|reflexivity]|split; [cbn; lia|reflexivity]|cbn [length] in LS; lia].
Qed.
Lemma split_parts : forall base c, base <> [] -> split base [c] = Some (parts (length base) c base).
Proof.
  intros base c N. unfold split. destruct base as [|x [|y r]] eqn:K; [congruence|reflexivity|]. rewrite <- K.
  destruct (loops (length base) base c 0 ltac:(cbn [skipn]; lia)) as [L1 L2]. cbv zeta in L1, L2. cbv zeta. change (skipn 0 base) with base in L2.
  replace (S (count (length base) base c 0) <? length (fill (length base) base c 0))%nat with false by (symmetry; apply Nat.ltb_ge; exact L1). f_equal. exact L2.
Qed.
Lemma parts_cut : forall f c l, (length l <= f)%nat -> ~ short_end c l -> cut c l (parts f c l).
Proof.
  induction f as [|f IH]; intros c l L N; [destruct l; [|cbn [length] in L; lia]; cbn [parts]; apply cut_last; intros []|].
  cbn [parts]. destruct l as [|x [|y r]] eqn:K; [apply cut_last; intros []|exfalso; apply N; left; eauto|]. rewrite <- K in *.
  destruct (idx c l) as [i|] eqn:E.
  - destruct (idx_some _ _ _ E) as (p & q & E1 & E2 & E3). rewrite E1 at 1.
    replace (firstn i l) with p by (rewrite E1, <- E2, firstn_app, firstn_all, Nat.sub_diag; cbn [firstn]; rewrite app_nil_r; reflexivity).
    replace (skipn (S i) l) with q by (rewrite E1, <- E2; clear; induction p; [reflexivity|exact IHp]).
    apply cut_more; [exact E3|]. assert (LQ : length l = (length p + S (length q))%nat) by (rewrite E1, app_length; reflexivity).
    apply IH; [lia|]. intros [(z & Z1)|(front & z & Z1)]; apply N; right; [exists p, z; subst q; exact E1|exists (p ++ c :: front), z; rewrite E1, Z1, <- app_assoc; reflexivity].
  - apply cut_last. apply idx_none. exact E.
Qed.
(** A text is split at its delimiters, unless its last character stands alone behind one. *)
Theorem C112_split : forall base c, base <> [] -> ~ short_end c base -> exists ps, split base [c] = Some ps /\ cut c base ps.
Proof. intros base c N S. rewrite split_parts by exact N. eexists. split; [reflexivity|]. apply parts_cut; [lia|exact S]. Qed.
Print Assumptions C112_split.
(** There is only one way to cut a text. *)
Theorem C112_cut_unique : forall c l a b, cut c l a -> cut c l b -> a = b.
Proof.
  intros c l a b A. revert b. induction A as [p P|p l ps P A IH]; intros b B.
  - inversion B as [q Q|q m qs Q B1 EQ]; [reflexivity|]. exfalso. apply P. subst. apply in_app_iff. right. left. reflexivity.
  - inversion B as [q Q EQ|q m qs Q B1 EQ].
    + exfalso. apply Q. subst. apply in_app_iff. right. left. reflexivity.
    + assert (G : q = p /\ m = l).
      { clear - EQ P Q. revert q EQ Q. induction p as [|x p IHp]; intros q EQ Q; destruct q as [|y q]; cbn [app] in EQ.
        - split; congruence.
        - exfalso. apply Q. left. congruence.
        - exfalso. apply P. left. congruence.
        - assert (EQ2 : q ++ c :: m = p ++ c :: l) by congruence. destruct (IHp (fun I => P (or_intror I)) q EQ2 (fun I => Q (or_intror I))) as [G1 G2]. split; congruence. }
      destruct G as [G1 G2]. subst. f_equal. apply IH. exact B1.
Qed.
Print Assumptions C112_cut_unique.
(** The last character is lost when it stands alone; a text of one character gives an empty text; an empty text panics. *)
Lemma parts_short : forall f c front x, (length front + 2 <= f)%nat -> exists ps, cut c front ps /\ parts f c (front ++ [c; x]) = ps ++ [[]].
Proof.
  induction f as [|f IH]; intros c front x L; [lia|]. cbn [parts].
  destruct (front ++ [c; x]) as [|y [|z r]] eqn:K; [destruct front; discriminate|destruct front as [|? [|? ?]]; discriminate|]. rewrite <- K.
  destruct (idx c (front ++ [c; x])) as [i|] eqn:E; [|exfalso; apply (idx_none _ _ E); apply in_app_iff; right; left; reflexivity].
  destruct (idx_some _ _ _ E) as (p & q & E1 & E2 & E3).
  assert (F1 : firstn i (front ++ [c; x]) = p) by (rewrite E1, <- E2, firstn_app, firstn_all, Nat.sub_diag; cbn [firstn]; apply app_nil_r).
  assert (F2 : skipn (S i) (front ++ [c; x]) = q) by (rewrite E1, <- E2; clear; induction p; [reflexivity|exact IHp]).
  rewrite F1, F2.
  assert (G : (p = front /\ q = [x]) \/ exists m, front = p ++ c :: m /\ q = m ++ [c; x]).
  { clear - E1 E3. revert front E1. induction p as [|y p IHp]; intros front E1; destruct front as [|w front]; cbn [app] in E1.
    - left. split; [reflexivity|congruence].
    - right. exists front. assert (w = c) by congruence. assert (q = front ++ [c; x]) by congruence. subst. split; reflexivity.
    - exfalso. assert (y = c) by congruence. apply E3. left. exact H.
    - assert (W : w = y) by congruence. assert (E2 : front ++ [c; x] = p ++ c :: q) by congruence. destruct (IHp (fun I => E3 (or_intror I)) front E2) as [[G1 G2]|(m & G1 & G2)]; [left|right].
      + subst. split; reflexivity.
      + exists m. subst. split; reflexivity. }
  destruct G as [[G1 G2]|(m & G1 & G2)].
  - clear F1 F2 E1 E2. subst. exists [front]. split; [apply cut_last; exact E3|]. destruct f; reflexivity.
  - subst front. destruct (IH c m x) as (ps & P1 & P2); [rewrite app_length in L; cbn [length] in L; lia|]. exists (p :: ps). split; [apply cut_more; assumption|]. rewrite G2, P2. reflexivity.
Qed.
Theorem C112_split_short_refuted : forall front c x, exists ps, cut c front ps /\ split (front ++ [c; x]) [c] = Some (ps ++ [[]]).
Proof.
  intros front c x. rewrite split_parts by (destruct front; discriminate).
  destruct (parts_short (length (front ++ [c; x])) c front x) as (ps & P1 & P2); [rewrite app_length; cbn [length]; lia|]. exists ps. split; [exact P1|]. f_equal. exact P2.
Qed.
Print Assumptions C112_split_short_refuted.
Theorem C112_split_tiny_refuted : forall x v, split [] v = None /\ split [x] v = Some [[]].
Proof. intros x v. split; reflexivity. Qed.
Print Assumptions C112_split_tiny_refuted.
Example C112_ex_not_short : ~ short_end 44 [97; 98; 44; 44; 99; 100].
Proof. intros [(x & X)|(front & x & X)]; [discriminate|]. assert (Y : rev [97; 98; 44; 44; 99; 100] = rev (front ++ [44; x])) by (f_equal; exact X). rewrite rev_app_distr in Y. cbn [rev app] in Y. discriminate Y. Qed.
Example C112_ex_split : split [97; 98; 44; 44; 99; 100] [44] = Some [[97; 98]; []; [99; 100]] /\ split [97; 44; 98] [44] = Some [[97]; []] /\ cut 44 [97; 98; 44; 44; 99; 100] [[97; 98]; []; [99; 100]].
Proof.
  split; [reflexivity|]. split; [reflexivity|]. apply (cut_more 44 [97; 98] [44; 99; 100]); [intros [I|[I|[]]]; discriminate|].
  apply (cut_more 44 [] [99; 100]); [intros []|]. apply cut_last. intros [I|[I|[]]]; discriminate.
Qed.

(** ** The same function in solidity/bmv, where it takes BTP addresses apart *)
Lemma same_index : forall c l i, index_loop c l i = match idx c l with Some k => Some (i + k)%nat | None => None end.
Proof.
  induction l as [|x l IH]; intros i; [reflexivity|]. cbn [index_loop idx]. destruct (x =? c); [f_equal; lia|]. rewrite IH. destruct (idx c l); [f_equal; lia|reflexivity].
Qed.
Lemma same_indexOf : forall b c off, s_indexOf b c off = indexOf b c off.
Proof. intros. unfold s_indexOf, indexOf. apply same_index. Qed.
Lemma same_count : forall f b c off n, split_count f b c off n = (n + count f b c off)%nat.
Proof.
  induction f as [|f IH]; intros b c off n; cbn [split_count count]; [lia|]. destruct (off <? length b - 1)%nat; [|lia]. rewrite same_indexOf.
  destruct (indexOf b c off) as [k|]; [|lia]. rewrite IH. replace (k + 1)%nat with (S k) by lia. lia.
Qed.
Lemma same_fill : forall f b c off, M_SolBmv.split_parts f b c off = fill f b c off.
Proof.
  induction f as [|f IH]; intros b c off; [reflexivity|]. cbn [M_SolBmv.split_parts fill]. destruct (off <? length b - 1)%nat; [|reflexivity]. rewrite same_indexOf. cbv zeta. rewrite IH.
  replace (match indexOf b c off with Some k => k | None => length b end + 1)%nat with (S match indexOf b c off with Some k => k | None => length b end) by lia. reflexivity.
Qed.
Lemma fill_fuel : forall f b c off, (length b - off <= f)%nat -> fill (S f) b c off = fill f b c off.
Proof.
  induction f as [|f IH]; intros b c off L.
  - cbn [fill]. replace (off <? length b - 1)%nat with false by (symmetry; apply Nat.ltb_ge; lia). reflexivity.
  - change (fill (S (S f)) b c off) with (if (off <? length b - 1)%nat then let limit := match indexOf b c off with None => length b | Some i => i end in firstn (limit - off) (skipn off b) :: fill (S f) b c (S limit) else []).
    change (fill (S f) b c off) with (if (off <? length b - 1)%nat then let limit := match indexOf b c off with None => length b | Some i => i end in firstn (limit - off) (skipn off b) :: fill f b c (S limit) else []).
    destruct (off <? length b - 1)%nat eqn:O; [|reflexivity]. apply Nat.ltb_lt in O. cbv zeta. f_equal. apply IH.
    pose proof (C112_index b c off) as I. destruct (indexOf b c off) as [k|]; [destruct I as [I _]|]; lia.
Qed.
Theorem C112_split_same : forall b c, s_split b c = split b [c].
Proof.
  intros b c. destruct b as [|x r] eqn:K; [reflexivity|]. rewrite <- K. rewrite split_parts by congruence. unfold s_split.
  replace (0 <? zlen b) with true by (rewrite K; unfold zlen; cbn [length]; lia). cbn [require sbind].
  rewrite same_count, same_fill, fill_fuel by lia. cbv zeta. destruct (loops (length b) b c 0 ltac:(cbn [skipn]; lia)) as [L1 L2]. cbv zeta in L1, L2. change (skipn 0 b) with b in L2.
  cbn [Nat.add]. rewrite (proj2 (Nat.leb_le _ _) L1). cbn [require sbind]. f_equal. exact L2.
Qed.
Print Assumptions C112_split_same.
Lemma idx_app : forall c p l, ~ In c p -> idx c (p ++ c :: l) = Some (length p).
Proof.
  induction p as [|x p IH]; intros l N; cbn [app idx length]; [rewrite Z.eqb_refl; reflexivity|]. replace (x =? c) with false by (symmetry; apply Z.eqb_neq; intros X; apply N; left; exact X).
  rewrite IH by (intros I; apply N; right; exact I). reflexivity.
Qed.
Lemma idx_not : forall c p, ~ In c p -> idx c p = None.
Proof.
  induction p as [|x p IH]; intros N; [reflexivity|]. cbn [idx]. replace (x =? c) with false by (symmetry; apply Z.eqb_neq; intros X; apply N; left; exact X).
  rewrite IH by (intros I; apply N; right; exact I). reflexivity.
Qed.
Lemma parts_step : forall f c p l, ~ In c p -> (1 <= length p + length l)%nat -> parts (S f) c (p ++ c :: l) = p :: parts f c l.
Proof.
  intros f c p l N L. cbn [parts]. destruct (p ++ c :: l) as [|x [|y r]] eqn:K.
  - destruct p; discriminate.
  - destruct p as [|? [|? ?]]; cbn [app] in K; [|discriminate|discriminate]. assert (l = []) by congruence. subst. cbn [length] in L. lia.
  - rewrite <- K, idx_app by exact N. f_equal.
    + rewrite firstn_app, firstn_all, Nat.sub_diag. cbn [firstn]. apply app_nil_r.
    + f_equal. clear. induction p as [|x p IH]; [reflexivity|exact IH].
Qed.
(** The network and the account of an address are found, whatever stands where the scheme belongs; an account of one character is taken as empty. *)
Theorem C112_address : forall scheme net account, ~ In 47 scheme -> ~ In 47 net -> ~ In 47 account -> net <> [] ->
  splitBTPAddress (scheme ++ 47 :: 47 :: net ++ 47 :: account) = Some (net, if zlen account =? 1 then [] else account).
Proof.
  intros sc net acc S N A NE. unfold splitBTPAddress. match goal with |- context [s_split _ ?c] => change c with 47 end. rewrite C112_split_same, split_parts by (destruct sc; discriminate).
  assert (L : length (sc ++ 47 :: 47 :: net ++ 47 :: acc) = (3 + (length sc + length net + length acc))%nat) by (rewrite app_length; cbn [length]; rewrite app_length; cbn [length]; lia).
  assert (LN : (1 <= length net)%nat) by (destruct net; [congruence|cbn [length]; lia]).
  rewrite L. cbn [Nat.add]. rewrite parts_step by (try exact S; cbn [length]; lia).
  change (47 :: net ++ 47 :: acc) with ([] ++ 47 :: (net ++ 47 :: acc)). rewrite parts_step by (try (intros []); rewrite app_length; cbn [length]; lia).
  rewrite parts_step by (try exact N; lia).
  assert (P : parts (length sc + length net + length acc) 47 acc = [if zlen acc =? 1 then [] else acc]).
  { destruct (length sc + length net + length acc)%nat eqn:F; [lia|]. cbn [parts]. destruct acc as [|x [|y r]] eqn:K; [reflexivity|reflexivity|]. rewrite <- K in *. rewrite idx_not by exact A.
    replace (zlen acc =? 1) with false by (rewrite K; unfold zlen; cbn [length]; lia). reflexivity. }
  rewrite P. reflexivity.
Qed.
Print Assumptions C112_address.
Example C112_ex_address : splitBTPAddress (98 :: 47 :: 47 :: [49; 46; 105] ++ 47 :: [48; 120]) = Some ([49; 46; 105], [48; 120]) /\ splitBTPAddress [47; 47; 49; 47; 50] = Some ([49], []).
Proof. split; reflexivity. Qed.

(** ** Case *)
(** Lower case: only A to Z are changed, each into its letter; doing it twice changes nothing more. *)
Theorem C112_lower : forall b, length (lower b) = length b /\ lower (lower b) = lower b /\
  (forall i x, nth_error b i = Some x -> nth_error (lower b) i = Some (if (64 <? x) && (x <? 91) then x + 32 else x)).
Proof.
  intros b. unfold lower. split; [apply map_length|]. split.
  - rewrite map_map. apply map_ext. intros x. unfold lower1. destruct ((65 <=? x) && (x <=? 90)) eqn:E; [|rewrite E; reflexivity]. replace ((65 <=? x + 32) && (x + 32 <=? 90)) with false by lia. reflexivity.
  - intros i x E. rewrite nth_error_map, E. cbn [option_map]. f_equal. unfold lower1. replace ((64 <? x) && (x <? 91)) with ((65 <=? x) && (x <=? 90)) by lia. reflexivity.
Qed.
Print Assumptions C112_lower.
(** The first letter of toLowerCamelCase is not in lower case: it is toCamelCase. *)
Theorem C112_camel_refuted : forall s, toLowerCamelCase s = toCamelCase s.
Proof. reflexivity. Qed.
Print Assumptions C112_camel_refuted.
(** toCamelCase leaves out the underscores and keeps all else, but for the case. *)
Theorem C112_camel : forall s, lower (toCamelCase s) = lower (filter (fun x => negb (x =? 95)) s).
Proof.
  intros s. unfold toCamelCase.
  assert (W : forall w, lower (camel_word w) = lower w).
  { intros w. unfold camel_word. destruct w as [|x w]; [reflexivity|]. cbn [lower map]. fold (lower w). f_equal.
    - unfold upper1, lower1. repeat match goal with |- context [if ?b then _ else _] => destruct b eqn:? end; lia.
    - apply (C112_lower w). }
  assert (G : forall s w, lower (flat_map camel_word (tokens 95 s w)) = lower (rev w ++ filter (fun x => negb (x =? 95)) s)).
  { induction s0 as [|x s0 IH]; intros w; cbn [tokens filter].
    - destruct w as [|y w]; [reflexivity|]. cbn [flat_map]. rewrite !app_nil_r. apply W.
    - destruct (x =? 95); cbn [negb].
      + destruct w as [|y w]; [apply (IH [])|]. cbn [flat_map]. unfold lower in *. rewrite map_app, W, IH, (map_app _ (rev (y :: w))). reflexivity.
      + rewrite IH. cbn [rev]. rewrite <- app_assoc. reflexivity. }
  apply (G s []).
Qed.
Print Assumptions C112_camel.
(** Each word begins with a capital letter and goes on in small ones. *)
Definition big (x : Z) : Z := if (96 <? x) && (x <? 123) then x - 32 else x.
Definition small (x : Z) : Z := if (64 <? x) && (x <? 91) then x + 32 else x.
Theorem C112_camel_words : forall x r s, ~ In 95 (x :: r) ->
  toCamelCase ((x :: r) ++ 95 :: s) = big x :: map small r ++ toCamelCase s /\ toCamelCase (x :: r) = big x :: map small r /\ toCamelCase (95 :: s) = toCamelCase s.
Proof.
  intros x r s N.
  assert (C : camel_word (x :: r) = big x :: map small r).
  { unfold camel_word, lower. cbn [map]. f_equal.
    - unfold upper1, lower1, big. repeat match goal with |- context [if ?b then _ else _] => destruct b eqn:? end; lia.
    - apply map_ext. intros y. unfold lower1, small. repeat match goal with |- context [if ?b then _ else _] => destruct b eqn:? end; lia. }
  assert (G : forall l w t, ~ In 95 l -> tokens 95 (l ++ t) w = tokens 95 t (rev l ++ w)).
  { induction l as [|y l IH]; intros w t M; [reflexivity|]. cbn [app tokens]. replace (y =? 95) with false by (symmetry; apply Z.eqb_neq; intros Y; apply M; left; exact Y).
    rewrite IH by (intros I; apply M; right; exact I). cbn [rev]. rewrite <- app_assoc. reflexivity. }
  assert (R : exists z q, rev (x :: r) ++ [] = z :: q).
  { destruct (rev (x :: r) ++ []) as [|z q] eqn:K; [|eauto]. exfalso. rewrite app_nil_r in K. assert (K2 : rev (rev (x :: r)) = []) by (rewrite K; reflexivity). rewrite rev_involutive in K2. discriminate. }
  destruct R as (z & q & R). assert (RR : rev (z :: q) = x :: r) by (rewrite <- R, app_nil_r; apply rev_involutive).
  unfold toCamelCase. split; [|split; [|reflexivity]].
  - rewrite G by exact N. rewrite R. cbn [tokens]. rewrite Z.eqb_refl, RR. cbn [flat_map]. rewrite C. reflexivity.
  - replace (tokens 95 (x :: r) []) with (tokens 95 ((x :: r) ++ []) []) by (rewrite app_nil_r; reflexivity). rewrite G by exact N. rewrite R. cbn [tokens]. rewrite RR. cbn [flat_map]. rewrite C, app_nil_r. reflexivity.
Qed.
Print Assumptions C112_camel_words.
Example C112_ex_camel : toLowerCamelCase [102; 79; 95; 98; 97] = [70; 111; 66; 97] /\ lower [65; 95; 122] = [97; 95; 122].
Proof. repeat split. Qed.
