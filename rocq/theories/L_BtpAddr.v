(** Lemmas for BTP addresses in the contracts. *)
From Coq Require Import String Ascii ZArith List Bool Lia.
From Coq Require Import ZifyBool.
From Verif Require Import Base L_Base GoStr M_IntConv S_IntConv M_Address S_Address L_Address M_SolRlp M_BtpAddr S_BtpAddr.
Import ListNotations.
Open Scope Z_scope.

(** ** Java *)
Lemma str_index_contains : forall p r, ~ contains p (str "://") -> str_index (p ++ str "://" ++ r) (str "://") = Some (length p).
Proof.
  induction p as [|x p IH]; intros r N; [destruct r; reflexivity|].
  cbn [app str_index]. destruct (has_prefix (str "://") (x :: p ++ str "://" ++ r)) eqn:P.
  - exfalso. cbn [str has_prefix] in P. change (ch ":") with 58 in *. change (ch "/") with 47 in *. destruct (58 =? x) eqn:E1; [|discriminate]. apply Z.eqb_eq in E1. subst x.
    destruct p as [|y p]; [discriminate P|]. cbn [app] in P. destruct (47 =? y) eqn:E2; [|discriminate]. apply Z.eqb_eq in E2. subst y.
    destruct p as [|z p]; [discriminate P|]. cbn [app] in P. destruct (47 =? z) eqn:E3; [|discriminate]. apply Z.eqb_eq in E3. subst z.
    apply N. exists [], p. reflexivity.
  - rewrite IH; [reflexivity|]. intros (a & b & E). apply N. exists (x :: a), b. rewrite E. reflexivity.
Qed.
Lemma str_index_not_before : forall s sep n, str_index s sep = Some n -> sep <> [] -> ~ contains (firstn n s) sep.
Proof.
  induction s as [|x s IH]; intros sep n E NE; cbn [str_index] in E.
  - destruct (has_prefix sep []) eqn:P; [|discriminate]. injection E as <-. intros (a & b & X). cbn [firstn] in X. destruct a, sep; discriminate || congruence.
  - destruct (has_prefix sep (x :: s)) eqn:P.
    + injection E as <-. intros (a & b & X). cbn [firstn] in X. destruct a, sep; discriminate || congruence.
    + destruct (str_index s sep) as [m|] eqn:E2; [|discriminate]. injection E as <-. cbn [firstn]. intros ([|y a] & b & X).
      * cbn [app] in X. assert (Y : has_prefix sep (x :: s) = true); [|congruence].
        apply has_prefix_spec. exists (b ++ skipn m s). rewrite app_assoc, <- X. cbn [app]. rewrite firstn_skipn. reflexivity.
      * cbn [app] in X. injection X as -> X. apply (IH sep m E2 NE). exists a, b. exact X.
Qed.
Lemma str_index_slash : forall n r, free_of (ch "/") n -> str_index (n ++ str "/" ++ r) (str "/") = Some (length n).
Proof.
  induction n as [|x n IH]; intros r F; [destruct r; reflexivity|].
  cbn [app str_index]. cbn [str has_prefix]. destruct (ch "/" =? x) eqn:E.
  - exfalso. apply F. left. apply Z.eqb_eq in E. congruence.
  - change (ch "/" :: r) with (str "/" ++ r). change [ch "/"] with (str "/"). rewrite IH; [reflexivity|]. intros I. apply F. right. assumption.
Qed.
Lemma firstn_app_l : forall A (a b : list A), firstn (length a) (a ++ b) = a.
Proof. intros A a b. rewrite firstn_app, firstn_all, Nat.sub_diag. cbn [firstn]. apply app_nil_r. Qed.
Lemma skipn_app_l : forall A (a b c : list A) n, n = (length a + length b)%nat -> skipn n (a ++ b ++ c) = c.
Proof. intros A a b c n ->. rewrite app_assoc, <- app_length, skipn_app, skipn_all, Nat.sub_diag. reflexivity. Qed.
Lemma j_parse_text : forall p n a, ~ contains p (str "://") -> free_of (ch "/") n -> j_parse (address_text p n a) = JAddr p n a.
Proof.
  intros p n a P N. unfold j_parse, address_text. rewrite str_index_contains by assumption. rewrite firstn_app_l.
  rewrite (skipn_app_l _ p (str "://")) by reflexivity. rewrite str_index_slash by assumption. rewrite firstn_app_l.
  rewrite (skipn_app_l _ n (str "/")) by reflexivity. reflexivity.
Qed.
Lemma skipn_plus : forall A n k (s : list A), skipn (n + k) s = skipn k (skipn n s).
Proof. induction n as [|n IH]; intros k s; [reflexivity|]. destruct s; [destruct k; reflexivity|]. cbn [Nat.add skipn]. apply IH. Qed.
Lemma str_index_split : forall s sep n, str_index s sep = Some n -> s = firstn n s ++ sep ++ skipn (n + length sep) s.
Proof.
  intros s sep n E. apply str_index_some in E as [L P]. apply has_prefix_spec in P as [r R].
  rewrite <- (firstn_skipn n s) at 1. f_equal. rewrite R. f_equal.
  rewrite skipn_plus, R, skipn_app, skipn_all, Nat.sub_diag. reflexivity.
Qed.
Lemma j_valueOf_text : forall s x, j_valueOf s = Some x -> s = j_toString x /\ ~ contains (ja_protocol x) (str "://") /\ free_of (ch "/") (ja_net x) /\
  ja_protocol x <> [] /\ ja_net x <> [] /\ ja_account x <> [].
Proof.
  intros s x E. unfold j_valueOf in E. destruct (j_isValid (j_parse s)) eqn:V; [|discriminate]. injection E as <-.
  unfold j_isValid in V. rewrite !andb_true_iff, !negb_true_iff in V. destruct V as [[V1 V2] V3]. unfold j_parse in *.
  destruct (str_index s (str "://")) as [i|] eqn:I.
  - destruct (str_index (skipn (i + 3) s) (str "/")) as [k|] eqn:K; cbn [ja_protocol ja_net ja_account] in *; [|discriminate].
    pose proof (str_index_split _ _ _ I) as S1. pose proof (str_index_split _ _ _ K) as S2. cbn [str length] in S1, S2. rewrite <- str_sep in S1.
    split; [unfold j_toString; cbn [ja_protocol ja_net ja_account]; rewrite S1 at 1; f_equal; f_equal; exact S2|].
    split; [apply str_index_not_before; [assumption|discriminate]|]. split.
    { intros IN. apply in_split in IN as (u & v & X). apply (str_index_not_before _ _ _ K); [discriminate|]. exists u, v. rewrite X. reflexivity. }
    repeat split; intros Z; [rewrite Z in V1|rewrite Z in V2|rewrite Z in V3]; discriminate.
  - destruct (str_index s (str "/")) as [k|] eqn:K; cbn [ja_protocol ja_net ja_account] in *; discriminate.
Qed.

(** ** Solidity *)
Lemma check_prefix_ok : forall n i b, (i + n <= 6)%nat -> check_prefix n i b = Some tt <-> firstn n (skipn i b) = firstn n (skipn i PREFIX).
Proof.
  induction n as [|n IH]; intros i b L; cbn [check_prefix]; [split; reflexivity|].
  unfold at_index. assert (LP : length PREFIX = 6%nat) by reflexivity.
  destruct (nth_error PREFIX i) as [y|] eqn:EP; [|apply nth_error_None in EP; lia].
  assert (SP : skipn i PREFIX = y :: skipn (S i) PREFIX).
  { clear - EP. revert EP. generalize PREFIX. induction i as [|i IHi]; intros [|z l] E; try discriminate; [injection E as ->; reflexivity|]. apply IHi in E. exact E. }
  destruct (nth_error b i) as [x|] eqn:EB; cbn [sbind].
  - assert (SB : skipn i b = x :: skipn (S i) b).
    { clear - EB. revert b EB. induction i as [|i IHi]; intros [|z l] E; try discriminate; [injection E as ->; reflexivity|]. apply IHi in E. exact E. }
    rewrite SP, SB. cbn [firstn]. destruct (x =? y) eqn:E.
    + apply Z.eqb_eq in E. subst y. rewrite IH by lia. split; [intros ->; reflexivity|intros [= X]; exact X].
    + apply Z.eqb_neq in E. split; [discriminate|intros [= X _]; congruence].
  - apply nth_error_None in EB. rewrite (skipn_all2 b) by assumption. rewrite SP. cbn [firstn]. split; discriminate.
Qed.
Lemma find_delim_spec : forall fuel i b k, (length b <= i + fuel)%nat -> find_delim fuel i b = Some k <->
  ((i <= k)%nat /\ (6 < k)%nat /\ (k < length b - 1)%nat /\ nth_error b k = Some (ch "/") /\ forall j, (i <= j < k)%nat -> nth_error b j <> Some (ch "/")).
Proof.
  induction fuel as [|fuel IH]; intros i b k L; cbn [find_delim].
  - split; [discriminate|]. intros (A & B & C & _). lia.
  - destruct (nth_error b i) as [x|] eqn:E.
    + destruct (x =? ch "/") eqn:X.
      * apply Z.eqb_eq in X. subst x. split.
        -- intros H. destruct ((6 <? i)%nat && (i <? length b - 1)%nat) eqn:C; [|discriminate]. injection H as <-.
           rewrite andb_true_iff, !Nat.ltb_lt in C. repeat split; try tauto; try lia; intros; lia.
        -- intros (A & B & C & D & F). destruct (Nat.eq_dec i k) as [->|NE]; [|exfalso; apply (F i); [lia|assumption]].
           replace ((6 <? k)%nat && (k <? length b - 1)%nat) with true; [reflexivity|]. symmetry. rewrite andb_true_iff, !Nat.ltb_lt. lia.
      * apply Z.eqb_neq in X. rewrite IH by lia. split; intros (A & B & C & D & F); repeat split; try assumption; try lia.
        -- intros j J. destruct (Nat.eq_dec j i) as [->|NE]; [congruence|]. apply F. lia.
        -- destruct (Nat.eq_dec i k) as [->|NE]; [congruence|lia].
        -- intros j J. apply F. lia.
    + apply nth_error_None in E. split; [discriminate|]. intros (A & B & C & _). lia.
Qed.
Lemma slice_loop_spec : forall n j b, (j + n <= length b)%nat -> slice_loop n j b = Some (firstn n (skipn j b)).
Proof.
  induction n as [|n IH]; intros j b L; cbn [slice_loop]; [reflexivity|]. unfold at_index.
  destruct (nth_error b j) as [x|] eqn:E; [|apply nth_error_None in E; lia]. cbn [sbind]. rewrite IH by lia. cbn [sbind].
  assert (SB : skipn j b = x :: skipn (S j) b).
  { clear - E. revert b E. induction j as [|j IHj]; intros [|z l] E; try discriminate; [injection E as ->; reflexivity|]. apply IHj in E. exact E. }
  rewrite SB. reflexivity.
Qed.
Lemma s_slice_spec : forall b f t, (f <= t <= length b)%nat -> s_slice b f t = Some (firstn (t - f) (skipn f b)).
Proof. intros b f t L. unfold s_slice. replace (t <? f)%nat with false by (symmetry; apply Nat.ltb_ge; lia). apply slice_loop_spec. lia. Qed.
Lemma free_nth : forall c s, free_of c s <-> forall j, nth_error s j <> Some c.
Proof.
  intros c s. unfold free_of. split.
  - intros F j E. apply F. eapply nth_error_In. eassumption.
  - intros F I. apply In_nth_error in I as [j E]. exact (F j E).
Qed.
Lemma validate_text : forall n a, n <> [] -> a <> [] -> free_of (ch "/") n -> s_validate (btpAddress n a) = Some (6 + length n)%nat.
Proof.
  intros n a N A F. unfold s_validate. rewrite (proj2 (check_prefix_ok 6 0 _ ltac:(lia))).
  2:{ cbn [skipn]. unfold btpAddress. change (firstn 6 PREFIX) with PREFIX. apply (firstn_app_l _ PREFIX). }
  cbn [sbind]. assert (LB : length (btpAddress n a) = (6 + length n + 1 + length a)%nat).
  { unfold btpAddress. rewrite !app_length. cbn [str length PREFIX]. lia. }
  assert (A0 : (0 < length a)%nat) by (destruct a; [congruence|cbn [length]; lia]). assert (N0 : (0 < length n)%nat) by (destruct n; [congruence|cbn [length]; lia]).
  apply find_delim_spec; [lia|]. repeat split; try lia.
  - unfold btpAddress. rewrite nth_error_app2 by (cbn [length str PREFIX]; lia). change (length PREFIX) with 6%nat. rewrite nth_error_app2 by lia.
    replace (6 + length n - 6 - length n)%nat with 0%nat by lia. reflexivity.
  - intros j J. unfold btpAddress. rewrite nth_error_app2 by (change (length PREFIX) with 6%nat; lia). change (length PREFIX) with 6%nat. rewrite nth_error_app1 by lia.
    apply free_nth. assumption.
Qed.
Lemma parse_text : forall n a, n <> [] -> a <> [] -> free_of (ch "/") n ->
  parseBTPAddress (btpAddress n a) = Some (n, a) /\ networkAddress (btpAddress n a) = Some n.
Proof.
  intros n a N A F. unfold parseBTPAddress, networkAddress. rewrite validate_text by assumption. cbn [sbind].
  assert (LB : length (btpAddress n a) = (6 + length n + 1 + length a)%nat).
  { unfold btpAddress. rewrite !app_length. cbn [str length PREFIX]. lia. }
  assert (S1 : s_slice (btpAddress n a) 6 (6 + length n) = Some n).
  { rewrite s_slice_spec by lia. replace (6 + length n - 6)%nat with (length n) by lia. unfold btpAddress. rewrite skipn_app. change (length PREFIX) with 6%nat.
    rewrite Nat.sub_diag. change (skipn 6 PREFIX) with (@nil Z). cbn [app skipn]. rewrite firstn_app_l. reflexivity. }
  rewrite S1. split; [|reflexivity]. cbn [sbind]. rewrite s_slice_spec by lia. cbn [sbind]. f_equal. f_equal.
  unfold btpAddress. rewrite app_assoc, (skipn_app_l _ (PREFIX ++ n) (str "/")) by (rewrite app_length; cbn [length str PREFIX]; lia).
  apply firstn_all2. rewrite !app_length. cbn [length str PREFIX]. lia.
Qed.
Lemma validate_inv : forall b k, s_validate b = Some k ->
  exists n a, b = btpAddress n a /\ n <> [] /\ a <> [] /\ free_of (ch "/") n /\ k = (6 + length n)%nat.
Proof.
  intros b k E. unfold s_validate in E. destruct (check_prefix 6 0 b) as [[]|] eqn:P; [|discriminate]. cbn [sbind] in E.
  apply check_prefix_ok in P; [|lia]. cbn [skipn] in P. apply find_delim_spec in E; [|lia]. destruct E as (A & B & C & D & F).
  assert (EB : b = PREFIX ++ skipn 6 b) by (rewrite <- (firstn_skipn 6 b) at 1; f_equal; exact P). set (r := skipn 6 b) in *.
  assert (LR : length b = (6 + length r)%nat) by (rewrite EB, app_length; reflexivity).
  assert (DR : nth_error r (k - 6) = Some (ch "/")). { rewrite <- D, EB, nth_error_app2; [reflexivity|]. change (length PREFIX) with 6%nat. lia. }
  apply nth_error_split in DR as (n & a & ER & LN). exists n, a. split; [unfold btpAddress; rewrite EB, ER; reflexivity|].
  rewrite ER, app_length in LR. cbn [length] in LR. repeat split.
  - intros ->. cbn [length] in LN. lia.
  - intros ->. cbn [length] in LR. lia.
  - apply free_nth. intros j J. assert (LJ : (j < length n)%nat) by (apply nth_error_Some; congruence). apply (F (6 + j)%nat); [lia|].
    rewrite EB, nth_error_app2 by (change (length PREFIX) with 6%nat; lia). change (length PREFIX) with 6%nat. replace (6 + j - 6)%nat with j by lia.
    rewrite ER, nth_error_app1 by assumption. assumption.
  - lia.
Qed.

(** ** Account addresses *)
Lemma addr_digit_char : forall c d, addr_digit c = Some d <-> hex_char c d.
Proof.
  intros c d. unfold addr_digit. split.
  - intros E. destruct (c <? 48) eqn:E1; [discriminate|]. destruct ((57 <? c) && (c <? 65)) eqn:E2; [discriminate|].
    destruct ((70 <? c) && (c <? 97)) eqn:E3; [discriminate|]. destruct (102 <? c) eqn:E4; [discriminate|]. injection E as <-.
    destruct (c <? 65) eqn:E5; [replace c with (48 + (c - 48)) at 1 by lia; constructor; lia|].
    destruct (70 <? c) eqn:E6; [replace c with (97 + ((c - 87) - 10)) at 1 by lia; constructor; lia|].
    replace c with (65 + ((c - 55) - 10)) at 1 by lia. apply hc_up. lia.
  - intros H. inversion H as [d' Hd|d' Hd|d' Hd]; subst; clear H.
    + replace (48 + d <? 48) with false by lia. replace ((57 <? 48 + d) && (48 + d <? 65)) with false by lia.
      replace ((70 <? 48 + d) && (48 + d <? 97)) with false by lia. replace (102 <? 48 + d) with false by lia. replace (48 + d <? 65) with true by lia. f_equal. lia.
    + set (c := 97 + (d - 10)) in *. assert (C : 97 <= c <= 102) by lia. replace (c <? 48) with false by lia. replace ((57 <? c) && (c <? 65)) with false by lia.
      replace ((70 <? c) && (c <? 97)) with false by lia. replace (102 <? c) with false by lia. replace (c <? 65) with false by lia. replace (70 <? c) with true by lia. f_equal. lia.
    + set (c := 65 + (d - 10)) in *. assert (C : 65 <= c <= 70) by lia. replace (c <? 48) with false by lia. replace ((57 <? c) && (c <? 65)) with false by lia.
      replace ((70 <? c) && (c <? 97)) with false by lia. replace (102 <? c) with false by lia. replace (c <? 65) with false by lia. replace (70 <? c) with false by lia. f_equal. lia.
Qed.
Lemma addr_bytes_pairs : forall s bs, addr_bytes s = Some bs <-> hex_pairs s bs.
Proof.
  intros s. induction s as [|x|x y s IH] using list_pair_ind; intros bs; cbn [addr_bytes].
  - split; [intros [= <-]; constructor|intros H; inversion H; reflexivity].
  - split; [discriminate|intros H; inversion H].
  - split.
    + intros E. destruct (addr_digit x) as [a|] eqn:A; [|discriminate]. destruct (addr_digit y) as [b|] eqn:B; [|discriminate].
      cbn [sbind] in E. destruct (addr_bytes s) as [l|] eqn:L; [|discriminate]. cbn [sbind] in E. injection E as <-.
      constructor; [apply addr_digit_char; assumption|apply addr_digit_char; assumption|apply IH; reflexivity].
    + intros H. inversion H as [|? ? a b ? l A B L]; subst. apply addr_digit_char in A, B. apply IH in L. rewrite A, B, L. reflexivity.
Qed.
Lemma loaded_word : forall bs, bytes_ok bs -> length bs = 20%nat -> be_val (skipn 20 (be_fixed 32 20 ++ bs)) mod 2 ^ 160 = be_val bs.
Proof.
  intros bs B L. change (be_fixed 32 20) with (repeat 0 20 ++ (repeat 0 11 ++ [20])). rewrite <- app_assoc, skipn_app. change (length (repeat 0 20)) with 20%nat.
  change (skipn 20 (repeat 0 20)) with (@nil Z). rewrite Nat.sub_diag. cbn [app skipn]. change (repeat 0 11 ++ [20]) with (be_fixed 12 20). rewrite be_val_app, L.
  pose proof (be_val_bound bs B) as R. rewrite L in R. change (256 ^ Z.of_nat 20) with (2 ^ 160) in *. rewrite Z.add_comm, Z_mod_plus_full. apply Z.mod_small. assumption.
Qed.
Lemma zero_pairs : forall s bs, hex_pairs s bs -> be_val bs = 0 -> forallb (fun c => c =? 48) s = true.
Proof.
  intros s bs P. induction P as [|a b x y s bs A B P IH]; intros E; [reflexivity|]. destruct (hex_pairs_ok _ _ P) as [OK _]. pose proof (be_val_bound bs OK) as R.
  rewrite be_val_cons in E. assert (X : 0 <= x) by (inversion A; lia). assert (Y : 0 <= y) by (inversion B; lia). pose proof (pow256_pos (length bs)) as Q.
  assert (x = 0 /\ y = 0) as [-> ->] by nia. cbn [forallb]. inversion A; [|lia|lia]. inversion B; lia.
Qed.
Lemma parseAddress_iff : forall s a, parseAddress s = Some a <-> account_text s a.
Proof.
  intros s a. unfold parseAddress, account_text. split.
  - intros E. destruct (Nat.eqb (length s) 42 && (nth 0 s 0 =? ch "0") && (nth 1 s 0 =? ch "x")) eqn:C; [|discriminate]. cbn [require sbind] in E.
    rewrite !andb_true_iff, !Z.eqb_eq, Nat.eqb_eq in C. destruct C as [[C1 C2] C3].
    destruct s as [|c0 [|c1 t]]; try discriminate. cbn [nth] in C2, C3. subst c0 c1. change (skipn 2 (ch "0" :: ch "x" :: t)) with t in E. destruct (addr_bytes t) as [bs|] eqn:A; [|discriminate]. cbn [sbind] in E.
    apply addr_bytes_pairs in A. destruct (hex_pairs_ok _ _ A) as [OK LT]. cbn [length] in C1. assert (LB : length bs = 20%nat) by lia.
    rewrite loaded_word in E by assumption. exists t, bs. repeat split; try assumption. destruct (be_val bs =? 0); [|congruence].
    destruct (forallb _ t); cbn [require sbind] in E; congruence.
  - intros (t & bs & -> & P & L & ->). destruct (hex_pairs_ok _ _ P) as [OK LT].
    replace (Nat.eqb (length (str "0x" ++ t)) 42 && (nth 0 (str "0x" ++ t) 0 =? ch "0") && (nth 1 (str "0x" ++ t) 0 =? ch "x")) with true.
    2:{ symmetry. rewrite !andb_true_iff, Nat.eqb_eq. rewrite app_length. cbn [str app nth length]. rewrite !Z.eqb_refl. lia. }
    cbn [require sbind]. change (skipn 2 (str "0x" ++ t)) with t. rewrite (proj2 (addr_bytes_pairs t bs) P). cbn [sbind]. rewrite loaded_word by assumption.
    destruct (be_val bs =? 0) eqn:Z; [|reflexivity]. apply Z.eqb_eq in Z. rewrite (zero_pairs _ _ P Z). reflexivity.
Qed.

Lemma be_fixed_map : forall n a, be_fixed n a = map (fun i => (a / 2 ^ (8 * (Z.of_nat n - 1 - Z.of_nat i))) mod 256) (seq 0 n).
Proof.
  induction n as [|n IH]; intros a; [reflexivity|]. cbn [be_fixed]. rewrite IH, seq_S, map_app. cbn [Nat.add map]. f_equal.
  - apply map_ext_in. intros i I. apply in_seq in I. f_equal. rewrite Z.div_div by lia. f_equal.
    replace (8 * (Z.of_nat (S n) - 1 - Z.of_nat i)) with (8 + 8 * (Z.of_nat n - 1 - Z.of_nat i)) by lia. rewrite Z.pow_add_r by lia. reflexivity.
  - replace (8 * (Z.of_nat (S n) - 1 - Z.of_nat n)) with 0 by lia. rewrite Z.pow_0_r, Z.div_1_r. reflexivity.
Qed.
Lemma checksum_pairs : forall H a, hex_pairs (skipn 2 (toChecksumString H a)) (be_fixed 20 a).
Proof.
  intros H a. unfold toChecksumString. change (skipn 2 (str "0x" ++ ?x)) with x. rewrite be_fixed_map. change (Z.of_nat 20 - 1) with 19.
  generalize (seq 0 20). intros l. induction l as [|i l IH]; cbn [map concat]; [constructor|].
  set (b := (a / 2 ^ (8 * (19 - Z.of_nat i))) mod 256). assert (B : is_byte b) by (apply Z.mod_pos_bound; lia). destruct (caps_flags H a i) as [lc rc].
  destruct (byte_nibbles b B) as [B1 B2]. replace b with (16 * (b / 16) + b mod 16) at 5 by (symmetry; apply Z.div_mod; lia). cbn [app].
  constructor; [| |exact IH].
  - unfold ascii_offset. destruct (b / 16 <? 10) eqn:E; [replace (b / 16 + 48) with (48 + b / 16) by lia; constructor; lia|].
    destruct lc; [replace (b / 16 + 55) with (65 + (b / 16 - 10)) by lia; apply hc_up; lia|replace (b / 16 + 87) with (97 + (b / 16 - 10)) by lia; apply hc_low; lia].
  - unfold ascii_offset. destruct (b mod 16 <? 10) eqn:E; [replace (b mod 16 + 48) with (48 + b mod 16) by lia; constructor; lia|].
    destruct rc; [replace (b mod 16 + 55) with (65 + (b mod 16 - 10)) by lia; apply hc_up; lia|replace (b mod 16 + 87) with (97 + (b mod 16 - 10)) by lia; apply hc_low; lia].
Qed.
