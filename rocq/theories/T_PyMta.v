(** C98: the Merkle tree accumulator of the Python contracts. *)
From Coq Require Import String Ascii ZArith List Bool Lia.
From Coq Require Import ZifyBool.
From Verif Require Import Base L_Base M_IntConv S_IntConv L_IntConv T_IntConv M_Rlp S_Rlp L_Rlp M_Codec M_Mta S_Mta L_Mta L_Mta2 L_Mta3 L_Mta4 L_Mta5 L_Mta6 T_Mta M_JBmv M_JMta L_JMta L_JMta2 T_JMta.
From Verif Require Import M_PyRlp S_PyRlp L_PyRlp T_PyRlp M_PyMta L_PyMta.
Import ListNotations.
Open Scope Z_scope.

Section ACC.
Variable H : list Z -> list Z.
Hypothesis HD : digest32 H.
Variables off r c : Z.
Variable allow : bool.
Hypotheses (O0 : 0 <= off) (R0 : 0 <= r) (C0 : 0 <= c).

(** The Python and the Java accumulator have the same height, offset and roots after the same hashes; the cache has the newest ones. *)
Theorem C98_same_as_java : forall hs, all32 hs ->
  exists m jm, y_adds H (py_fresh off r c allow) hs = Some m /\ mta_adds H (fresh off (Some r) None (Some allow)) hs = Some jm /\
    y_height m = j_height jm /\ y_roots m = j_roots jm /\ y_offset m = j_offset jm /\ y_cache m = map Some (skipn (length hs - Z.to_nat c) hs).
Proof using HD O0 R0 C0.
  intros hs A. destruct (sim H HD off r c allow hs O0 R0 C0 A) as (m & jm & d & E1 & E2 & _ & S1 & S2 & S3 & _ & _ & _ & S7). exists m, jm. repeat split; assumption.
Qed.
(** Adding never fails; the roots are those of perfect trees over the newest hashes, all of them without a limit on the number of roots. *)
Theorem C98_roots_decompose : forall hs, all32 hs ->
  exists m dropped kept, y_adds H (py_fresh off r c allow) hs = Some m /\ hs = dropped ++ kept /\
    y_height m = off + zlen hs /\ y_offset m = off + zlen dropped /\ j_decomposed H kept (y_roots m) /\
    (if 0 <? r then zlen (y_roots m) <= r /\ (dropped = [] \/ 2 ^ (r - 1) <= zlen kept) else dropped = []).
Proof using HD O0 R0 C0.
  intros hs A. destruct (sim H HD off r c allow hs O0 R0 C0 A) as (m & jm & d & E1 & E2 & _ & S1 & S2 & S3 & _).
  destruct (C83_roots_decompose H hs off (Some r) None (Some allow) HD A) as (jm' & dr & k & F1 & F2 & F3 & F4 & F5 & F6). rewrite E2 in F1. injection F1 as <-. exists m, dr, k. rewrite S1, S2, S3. repeat split; assumption.
Qed.

(** What is known of an accumulator over given hashes. *)
Lemma known : forall hs m, all32 hs -> y_adds H (py_fresh off r c allow) hs = Some m ->
  exists d, (d <= length hs)%nat /\ y_height m = off + zlen hs /\ y_offset m = off + Z.of_nat d /\ jslots H (seq_of (skipn d hs)) 0 (zlen (skipn d hs)) (y_roots m) /\ y_allow m = allow /\ y_csize m = c /\ y_cache m = map Some (drop_front c hs) /\ (r = 0 -> d = 0%nat).
Proof using HD O0 R0 C0.
  intros hs m A E. destruct (sim H HD off r c allow hs O0 R0 C0 A) as (m' & jm & d & E1 & E2 & J & S1 & S2 & S3 & S4 & S5 & S6 & S7). rewrite E in E1. injection E1 as <-.
  destruct J as (_ & (B1 & B2 & B3) & JS & D & _). exists d. rewrite S1, S2, S3. repeat split; try assumption. intros R. apply D. cbn [positive]. lia.
Qed.

(** A witness for the current height: the hash is one of the entries kept, in the tree of the root at the witness's length; the height
    decides which one only modulo the size of that tree. *)
Theorem C98_accepted_is_an_entry : forall hs m ws h height, all32 hs -> y_adds H (py_fresh off r c allow) hs = Some m -> length h = 32%nat ->
  y_verify H m ws h height (y_height m) = Ok tt ->
  exists dropped kept, hs = dropped ++ kept /\ y_offset m = off + zlen dropped /\ Z.testbit (zlen kept) (zlen ws) = true /\
    let x := slot_start (zlen kept) (zlen ws) + Z.abs (height - 1 - y_offset m) mod 2 ^ zlen ws in
    0 <= x < zlen kept /\ (nth_error kept (Z.to_nat x) = Some h \/ collides H).
Proof using HD O0 R0 C0.
  intros hs m ws h height A EA Hh HV. destruct (known hs m A EA) as (d & B3 & B1 & B2 & C & _).
  exists (firstn d hs), (skipn d hs). split; [symmetry; apply firstn_skipn|]. split; [rewrite B2; unfold zlen; rewrite firstn_length; lia|].
  set (kept := skipn d hs) in *. pose proof (kept_32 d hs A) as K32. fold kept in K32. pose proof (zlen_nonneg _ kept) as N.
  unfold y_verify in HV. rewrite Z.eqb_refl in HV. unfold y_get_root in HV. set (k := length ws) in *. change (zlen ws) with (Z.of_nat k).
  destruct (nth_error (y_roots m) k) as [rt|] eqn:EN; [|discriminate]. cbn [rbind] in HV. unfold y_check in HV.
  destruct (y_climb H ws h _) as [g|] eqn:EC; [|discriminate]. destruct rt as [rt|]; [|discriminate]. destruct (bytes_eqb_spec g rt) as [->|]; [|discriminate].
  pose proof (jslots_nth H _ _ 0 _ k N C) as HN. rewrite EN in HN. destruct HN as [HO HG]. subst rt.
  split; [rewrite testbit_div; assumption|]. cbv zeta. rewrite <- slot_start_odd by assumption. pose proof (pow2_pos k) as HP.
  set (y := Z.abs (height - 1 - y_offset m)) in *. pose proof (Z.mod_pos_bound y (2 ^ Z.of_nat k) HP) as HM. pose proof (odd_half _ HO) as HH.
  pose proof (Z.div_pos (zlen kept) (2 ^ Z.of_nat k) N HP). pose proof (Z.mul_div_le (zlen kept) (2 ^ Z.of_nat k) HP).
  assert (HR : 0 <= (zlen kept / 2 ^ Z.of_nat k - 1) * 2 ^ Z.of_nat k + y mod 2 ^ Z.of_nat k < zlen kept).
  { set (m0 := zlen kept / 2 ^ Z.of_nat k) in *. assert (1 <= m0) by lia. nia. }
  split; [assumption|]. destruct (y_climb_sound H HD _ (seq_of_32 kept K32) ws 0 h _ _ Hh EC) as [V|]; [left|auto]. apply seq_of_nth; assumption.
Qed.
(** When the height is one of those of that tree, the hash is the entry at that height. *)
Theorem C98_accepted_at_its_height : forall hs m ws h height, all32 hs -> y_adds H (py_fresh off r c allow) hs = Some m -> length h = 32%nat ->
  y_verify H m ws h height (y_height m) = Ok tt ->
  let n := y_height m - y_offset m in let x := height - 1 - y_offset m in
  slot_start n (zlen ws) <= x < slot_start n (zlen ws) + 2 ^ zlen ws ->
  nth_error hs (Z.to_nat (height - 1 - off)) = Some h \/ collides H.
Proof using HD O0 R0 C0.
  intros hs m ws h height A EA Hh HV n x Hx. destruct (known hs m A EA) as (d & B3 & B1 & _).
  destruct (C98_accepted_is_an_entry hs m ws h height A EA Hh HV) as (dropped & kept & E1 & E2 & E3 & E4).
  assert (EN : n = zlen kept) by (subst n; rewrite B1, E2, E1, zlen_app; lia). rewrite EN in Hx. cbv zeta in E4. fold x in E4. pose proof (zlen_nonneg _ ws) as W0. pose proof (zlen_nonneg _ kept) as K0.
  assert (ES : slot_start (zlen kept) (zlen ws) + Z.abs x mod 2 ^ zlen ws = x).
  { assert (S0 : 0 <= slot_start (zlen kept) (zlen ws)).
    { unfold slot_start. pose proof (Z.pow_pos_nonneg 2 (zlen ws + 1) ltac:(lia) ltac:(lia)) as P2. pose proof (Z.div_pos (zlen kept) (2 ^ (zlen ws + 1)) K0 P2). nia. }
    rewrite Z.abs_eq by lia. assert (EM : exists q, slot_start (zlen kept) (zlen ws) = q * 2 ^ zlen ws).
    { unfold slot_start. exists (2 * (zlen kept / 2 ^ (zlen ws + 1))). rewrite Z.pow_add_r by lia. lia. }
    destruct EM as [q EM]. rewrite EM in *. replace (x mod 2 ^ zlen ws) with (x - q * 2 ^ zlen ws); [lia|]. apply Z.mod_unique with q; lia. }
  rewrite ES in E4. destruct E4 as (R & [E4|E4]); [left|auto]. rewrite E1, nth_error_app2; [|unfold zlen in *; lia]. rewrite <- E4. f_equal. subst x. unfold zlen in *. lia.
Qed.

(** A witness for a later height. *)
Lemma y_root_of : forall rs n x k, root_idx rs n x = Ok k -> 0 <= x -> y_root_idx rs n x = Ok k.
Proof using.
  induction n as [|n IH]; intros x k E X; cbn [root_idx y_root_idx] in *; [discriminate E|]. replace (x <? 0) with false by lia. destruct (nth_error rs n) as [[rt|]|]; [|apply IH; assumption|apply IH; assumption].
  destruct (x <? 2 ^ Z.of_nat n) eqn:L; [exact E|]. apply IH; [exact E|lia].
Qed.
(** [level n x k]: entry [x] of [n] is in the tree of the [k]-th root. *)
Definition level (n x : Z) (k : nat) : Prop := Z.testbit n (Z.of_nat k) = true /\ slot_start n (Z.of_nat k) <= x < slot_start n (Z.of_nat k) + 2 ^ Z.of_nat k.
Lemma level_slot : forall n x k, 0 <= n -> Z.odd (n / 2 ^ Z.of_nat k) = true -> x / 2 ^ Z.of_nat k = n / 2 ^ Z.of_nat k - 1 -> level n x k.
Proof using.
  intros n x k N Od E. split; [rewrite testbit_div; exact Od|]. rewrite <- slot_start_odd by exact Od. rewrite <- E. pose proof (pow2_pos k) as HP. pose proof (Z.div_mod x (2 ^ Z.of_nat k) ltac:(lia)). pose proof (Z.mod_pos_bound x (2 ^ Z.of_nat k) HP). lia.
Qed.
Lemma level_unique : forall n x k k', 0 <= n -> level n x k -> level n x k' -> k = k'.
Proof using.
  intros n x k k' N A B. assert (G : forall k, level n x k -> in_slot n x k).
  { intros j [T L]. split; [exact T|]. rewrite testbit_div in T. rewrite <- slot_start_odd in L by exact T. lia. }
  apply (in_slot_unique n x); auto.
Qed.
Lemma newer : forall hs m height at_, all32 hs -> y_adds H (py_fresh off r c allow) hs = Some m -> y_height m < at_ -> y_offset m < height <= y_height m -> allow = true ->
  exists d k, (d <= length hs)%nat /\ y_offset m = off + Z.of_nat d /\ level (zlen (skipn d hs)) (height - 1 - y_offset m) k /\
    (forall ws h, y_verify H m ws h height at_ = y_check H (firstn k ws) (Some (nv H (seq_of (skipn d hs)) k (zlen (skipn d hs) / 2 ^ Z.of_nat k - 1))) h height) /\ zlen (skipn d hs) = y_height m - y_offset m /\
    Z.odd (zlen (skipn d hs) / 2 ^ Z.of_nat k) = true.
Proof using HD O0 R0 C0.
  intros hs m height at_ A EA Hat Hh AL. destruct (known hs m A EA) as (d & B3 & B1 & B2 & C & B4 & _). exists d. set (kept := skipn d hs) in *.
  assert (ZK : zlen kept = zlen hs - Z.of_nat d) by (unfold kept, zlen; rewrite skipn_length; lia). set (x := height - 1 - y_offset m).
  destruct (root_idx_top H (seq_of kept) (y_roots m) (zlen kept) x ltac:(unfold x; lia) C) as (k & R1 & R2). exists k. apply in_slot_alt in R2. destruct R2 as [HO HX].
  split; [exact B3|]. split; [exact B2|]. split; [apply level_slot; [apply zlen_nonneg|exact HO|exact HX]|]. split; [|split; [lia|exact HO]].
  intros ws h. unfold y_verify. replace (y_height m =? at_) with false by lia. replace (y_height m <? at_) with true by lia. rewrite B4, AL. cbn [negb]. replace (y_height m <? height) with false by lia.
  unfold root_idx_by_height. fold x. rewrite (y_root_of _ _ _ _ R1) by (unfold x; lia). cbn [rbind]. unfold y_get_root. rewrite (jslots_root H _ _ _ k (zlen_nonneg _ kept) C HO). reflexivity.
Qed.
(** A witness for a later height is accepted only where it is allowed and for heights whose entries are kept; but the hash it shows is not
    that of the height's entry: the place in the tree is the height modulo the tree's size, not the entry's number.  A witness that is long
    enough shows an entry; one that is too short shows a node of the tree. *)
Theorem C98_newer_shows : forall hs m ws h height at_, all32 hs -> y_adds H (py_fresh off r c allow) hs = Some m -> length h = 32%nat -> y_height m < at_ ->
  y_verify H m ws h height at_ = Ok tt ->
  allow = true /\ y_offset m < height <= y_height m /\ exists k, level (y_height m - y_offset m) (height - 1 - y_offset m) k /\
    ((k <= length ws)%nat -> nth_error hs (Z.to_nat (y_offset m - off + slot_start (y_height m - y_offset m) (Z.of_nat k) + height mod 2 ^ Z.of_nat k)) = Some h \/ collides H).
Proof using HD O0 R0 C0.
  intros hs m ws h height at_ A EA Hh Hat HV. destruct (known hs m A EA) as (d0 & B3 & B1 & B2 & C & B4 & _).
  assert (AL : allow = true). { unfold y_verify in HV. replace (y_height m =? at_) with false in HV by lia. replace (y_height m <? at_) with true in HV by lia. rewrite B4 in HV. destruct allow; [reflexivity|discriminate HV]. }
  assert (HH : y_offset m < height <= y_height m).
  { unfold y_verify in HV. replace (y_height m =? at_) with false in HV by lia. replace (y_height m <? at_) with true in HV by lia. rewrite B4, AL in HV. cbn [negb] in HV. destruct (y_height m <? height) eqn:L; [discriminate HV|]. split; [|lia].
    destruct (Z.ltb_spec (y_offset m) height) as [?|G]; [assumption|exfalso]. unfold root_idx_by_height in HV. destruct (y_roots m) as [|r0 rs] eqn:ER.
    - cbn [length y_root_idx rbind] in HV. unfold y_get_root in HV. rewrite ER in HV. discriminate HV.
    - cbn [length y_root_idx] in HV. replace (height - 1 - y_offset m <? 0) with true in HV by lia. discriminate HV. }
  split; [exact AL|]. split; [exact HH|]. destruct (newer hs m height at_ A EA Hat HH AL) as (d & k & D1 & D2 & D3 & D4 & D5 & D6). rewrite D5 in *. exists k. split; [exact D3|]. intros LW.
  rewrite D4 in HV. unfold y_check in HV. destruct (y_climb H (firstn k ws) h height) as [g|] eqn:EC; [|discriminate HV]. match type of HV with (if bytes_eqb g ?x then _ else _) = _ => destruct (bytes_eqb_spec g x) as [->|]; [|discriminate HV] end.
  pose proof (y_climb_sound H HD _ (seq_of_32 _ (kept_32 d hs A)) (firstn k ws) 0 h height) as SO. rewrite firstn_length, Nat.min_l in SO by exact LW. destruct (SO _ Hh EC) as [V|V]; [left|right; exact V].
  cbn [nv] in V. assert (H0 : 0 <= height) by lia. rewrite Z.abs_eq in V by exact H0. pose proof (pow2_pos k) as HP. pose proof (Z.mod_pos_bound height (2 ^ Z.of_nat k) HP). destruct D3 as [_ D3]. rewrite <- slot_start_odd in * by exact D6.
  set (n := y_height m - y_offset m) in *. pose proof (Z.mul_div_le n (2 ^ Z.of_nat k) HP). assert (1 <= n / 2 ^ Z.of_nat k) by (pose proof (odd_half _ D6); pose proof (Z.div_pos n (2 ^ Z.of_nat k) ltac:(unfold n; lia) HP); lia).
  rewrite seq_of_skip in V by nia. replace (y_offset m - off + (n / 2 ^ Z.of_nat k - 1) * 2 ^ Z.of_nat k + height mod 2 ^ Z.of_nat k) with ((n / 2 ^ Z.of_nat k - 1) * 2 ^ Z.of_nat k + height mod 2 ^ Z.of_nat k + Z.of_nat d) by lia.
  apply seq_of_nth; [|exact V]. unfold zlen in *. nia.
Qed.
(** So the entry of a height is refused with every witness that is long enough, unless the offset is one less than a multiple of the
    tree's size (or entries are equal, or there is a collision). *)
Theorem C98_newer_witness_refuted : forall hs m ws h height at_ k, all32 hs -> y_adds H (py_fresh off r c allow) hs = Some m -> NoDup hs -> y_height m < at_ ->
  nth_error hs (Z.to_nat (height - 1 - off)) = Some h -> y_offset m < height -> level (y_height m - y_offset m) (height - 1 - y_offset m) k -> (k <= length ws)%nat ->
  (y_offset m + 1) mod 2 ^ Z.of_nat k <> 0 -> y_verify H m ws h height at_ = Ok tt -> collides H.
Proof using HD O0 R0 C0.
  intros hs m ws h height at_ k A EA ND Hat Hn Ho LV LW NZ HV. assert (Hh : length h = 32%nat) by (apply nth_error_In in Hn; unfold all32 in A; rewrite Forall_forall in A; apply A; exact Hn).
  destruct (known hs m A EA) as (d0 & B3 & B1 & B2 & _).
  destruct (C98_newer_shows hs m ws h height at_ A EA Hh Hat HV) as (_ & HH & k' & LV' & SH). assert (k' = k).
  { apply (level_unique (y_height m - y_offset m) (height - 1 - y_offset m)); [lia|exact LV'|exact LV]. }
  subst k'. destruct (SH LW) as [E|E]; [exfalso|exact E]. destruct LV as [T L]. set (n := y_height m - y_offset m) in *. set (s := slot_start n (Z.of_nat k)) in *. pose proof (pow2_pos k) as HP.
  assert (SQ : exists q, s = q * 2 ^ Z.of_nat k) by (exists (2 * (n / 2 ^ (Z.of_nat k + 1))); unfold s, slot_start; rewrite Z.pow_add_r by lia; lia). destruct SQ as [q SQ].
  assert (S0 : 0 <= s) by (unfold s, slot_start; pose proof (Z.pow_pos_nonneg 2 (Z.of_nat k + 1) ltac:(lia) ltac:(lia)) as P2; pose proof (Z.div_pos n (2 ^ (Z.of_nat k + 1)) ltac:(unfold n; lia) P2); nia).
  pose proof (Z.mod_pos_bound height (2 ^ Z.of_nat k) HP) as MB.
  pose proof (proj1 (NoDup_nth_error hs) ND (Z.to_nat (height - 1 - off)) (Z.to_nat (y_offset m - off + s + height mod 2 ^ Z.of_nat k))) as ND'. rewrite Hn, E in ND'. specialize (ND' ltac:(apply nth_error_Some; congruence) eq_refl).
  apply Z2Nat.inj in ND'; [|lia|lia]. assert (EQ : height - 1 - y_offset m = s + height mod 2 ^ Z.of_nat k) by lia. apply NZ. pose proof (Z.div_mod height (2 ^ Z.of_nat k) ltac:(lia)) as DM.
  replace (y_offset m + 1) with ((height / 2 ^ Z.of_nat k - q) * 2 ^ Z.of_nat k) by lia. apply Z.mod_mul. lia.
Qed.
(** The root itself, which is no entry, is accepted for every height of its tree with the empty witness. *)
Theorem C98_newer_root_refuted : forall hs m height at_, all32 hs -> y_adds H (py_fresh off r c allow) hs = Some m -> allow = true -> y_height m < at_ -> y_offset m < height <= y_height m ->
  exists k root, level (y_height m - y_offset m) (height - 1 - y_offset m) k /\ nth_error (y_roots m) k = Some (Some root) /\ y_verify H m [] root height at_ = Ok tt.
Proof using HD O0 R0 C0.
  intros hs m height at_ A EA AL Hat HH. destruct (known hs m A EA) as (d0 & B3 & B1 & B2 & C & _).
  destruct (newer hs m height at_ A EA Hat HH AL) as (d & k & D1 & D2 & D3 & D4 & D5 & D6). assert (d = d0) by lia. subst d0. exists k, (nv H (seq_of (skipn d hs)) k (zlen (skipn d hs) / 2 ^ Z.of_nat k - 1)).
  split; [rewrite <- D5; exact D3|]. split; [apply (jslots_root H _ _ _ k (zlen_nonneg _ _) C D6)|]. rewrite D4, firstn_nil. unfold y_check. cbn [y_climb]. rewrite bytes_eqb_refl. reflexivity.
Qed.

(** A witness for an earlier height is not looked at: the hash is accepted iff it is one of the last [c] added and the height is not too far back. *)
Theorem C98_older_is_cached : forall hs m ws h height at_, all32 hs -> y_adds H (py_fresh off r c allow) hs = Some m -> at_ < y_height m -> h <> [] ->
  (y_verify H m ws h height at_ = Ok tt <-> In h (skipn (length hs - Z.to_nat c) hs) /\ y_height m - c <= height).
Proof using HD O0 R0 C0.
  intros hs m ws h height at_ A EA Hat Hh. destruct (known hs m A EA) as (d & _ & _ & _ & _ & _ & B5 & B6 & _). unfold y_verify. replace (y_height m =? at_) with false by lia. replace (y_height m <? at_) with false by lia. rewrite B5.
  assert (HC : has_cache m h = true <-> In h (drop_front c hs)).
  { unfold has_cache. rewrite B6. replace (zlen h =? 0) with false by (destruct h as [|x h]; [congruence|rewrite zlen_cons; pose proof (zlen_nonneg _ h); lia]). cbn [negb andb]. rewrite existsb_exists. split.
    - intros (v & I & E). apply in_map_iff in I as (w & <- & I). destruct (bytes_eqb_spec w h); [subst; exact I|discriminate E].
    - intros I. exists (Some h). split; [apply in_map; exact I|apply bytes_eqb_refl]. }
  unfold drop_front in HC. destruct (Z.ltb_spec (y_height m - height - 1) c); [|split; [discriminate|intros [_ X]; lia]]. destruct (has_cache m h).
  - split; [intros _; split; [apply HC; reflexivity|lia]|reflexivity].
  - split; [discriminate|]. intros [X _]. apply HC in X. discriminate X.
Qed.
(** The settings of the block verifier contract: without cache and without newer witnesses only the current height is good. *)
Theorem C98_only_for_current_height : forall hs m ws h height at_, all32 hs -> y_adds H (py_fresh off r c allow) hs = Some m -> allow = false -> c = 0 -> y_verify H m ws h height at_ = Ok tt -> at_ = y_height m.
Proof using HD O0 R0 C0.
  intros hs m ws h height at_ A EA AL CZ HV. destruct (known hs m A EA) as (d & _ & _ & _ & _ & B4 & B5 & B6 & _). destruct (Z.eq_dec at_ (y_height m)) as [?|N]; [assumption|exfalso].
  unfold y_verify in HV. replace (y_height m =? at_) with false in HV by lia. destruct (y_height m <? at_); [rewrite B4, AL in HV; discriminate HV|]. destruct (y_height m - height - 1 <? y_csize m); [|discriminate HV].
  unfold has_cache in HV. rewrite B6, CZ in HV. unfold drop_front in HV. cbn [Z.to_nat] in HV. rewrite Nat.sub_0_r, skipn_all in HV. cbn [map existsb] in HV. rewrite andb_false_r in HV. discriminate HV.
Qed.
(** With an odd number of entries the last hash is accepted for every height. *)
Theorem C98_height_checked_refuted : forall hs h, all32 (hs ++ [h]) -> Z.even (zlen hs) = true -> r = 0 ->
  exists m, y_adds H (py_fresh off r c allow) (hs ++ [h]) = Some m /\ forall height, y_verify H m [] h height (y_height m) = Ok tt.
Proof using HD O0 R0 C0.
  intros hs h A EV RZ. destruct (sim H HD off r c allow (hs ++ [h]) O0 R0 C0 A) as (m & jm & d0 & E1 & _). exists m. split; [exact E1|]. intros height.
  destruct (known _ m A E1) as (d & _ & _ & _ & C & _ & _ & _ & D0). rewrite (D0 RZ) in C. cbn [skipn] in C. unfold y_verify. rewrite Z.eqb_refl. unfold y_get_root. cbn [length].
  assert (ZA : zlen (hs ++ [h]) = zlen hs + 1) by (unfold zlen; rewrite app_length; cbn [length]; lia).
  rewrite (jslots_root H _ _ _ 0 (zlen_nonneg _ _) C); change (2 ^ Z.of_nat 0) with 1; rewrite Z.div_1_r.
  - cbn [rbind]. unfold y_check. cbn [y_climb nv]. rewrite ZA. replace (zlen hs + 1 - 1) with (zlen hs) by lia. rewrite seq_of_last, bytes_eqb_refl. reflexivity.
  - rewrite ZA, Z.odd_add. rewrite <- Z.negb_even, EV. reflexivity.
Qed.
End ACC.
Print Assumptions C98_same_as_java.
Print Assumptions C98_roots_decompose.
Print Assumptions C98_accepted_is_an_entry.
Print Assumptions C98_accepted_at_its_height.
Print Assumptions C98_newer_shows.
Print Assumptions C98_newer_witness_refuted.
Print Assumptions C98_newer_root_refuted.
Print Assumptions C98_older_is_cached.
Print Assumptions C98_only_for_current_height.
Print Assumptions C98_height_checked_refuted.

(** A witness that the relay makes for the current height is accepted. *)
Theorem C98_go_witness_accepted : forall H st ens off c allow idx h, digest32 H -> 0 <= off -> 0 <= c -> Forall entry_ok ens -> zlen ens < 2 ^ 62 -> 0 <= idx ->
  nth_error (map (entry_hash H) ens) (Z.to_nat idx) = Some h ->
  exists m ws a', y_adds H (py_fresh off 0 c allow) (map (entry_hash H) ens) = Some m /\ WitnessFor H st (add_entries H new_acc ens) idx = (a', Ok ws) /\
    y_verify H m (map Some (WitnessesToHashes ws)) h (off + idx + 1) (off + zlen ens) = Ok tt.
Proof.
  intros H st ens off c allow idx h HD O0 C0 HE HB H0 Hh. destruct (holds_build H HD st ens HE HB) as [G HA].
  destruct (sim H HD off 0 c allow _ O0 ltac:(lia) C0 HA) as (m & jm & d0 & E1 & _). destruct (known H HD off 0 c allow O0 ltac:(lia) C0 _ m HA E1) as (d & _ & B1 & B2 & C & _ & _ & _ & D0). rewrite (D0 eq_refl) in *. cbn [skipn] in C.
  destruct (nth_seq_of _ idx h H0 Hh) as [<- Hlt]. rewrite zlen_map in *.
  destruct (WitnessFor_spec H HD (seq_of (map (entry_hash H) ens)) (seq_of_32 _ HA) st (zlen ens) _ idx HB ltac:(unfold holds in G; rewrite zlen_map in G; exact G) ltac:(lia)) as (k & a' & S1 & E2 & _).
  set (e := seq_of (map (entry_hash H) ens)) in *. exists m, (wit H e k idx), a'. split; [exact E1|]. split; [exact E2|].
  assert (LK : length (WitnessesToHashes (wit H e k idx)) = k) by (unfold WitnessesToHashes; rewrite map_length, wit_length; reflexivity).
  assert (W32 : all32 (WitnessesToHashes (wit H e k idx))).
  { unfold all32, WitnessesToHashes. pose proof (wit_32 H HD e (seq_of_32 _ HA) k idx) as HW. rewrite Forall_forall in *. intros w Hw. apply in_map_iff in Hw. destruct Hw as (w' & <- & Hw). auto. }
  unfold y_verify. rewrite B1, Z.eqb_refl. unfold y_get_root. rewrite map_length, LK. apply in_slot_alt in S1. destruct S1 as [HO HX].
  rewrite (jslots_root H _ _ _ k (zlen_nonneg _ ens) C HO). cbn [rbind]. unfold y_check. rewrite B2. replace (off + idx + 1 - 1 - (off + Z.of_nat 0)) with idx by lia.
  rewrite (y_climb_java H HD _ _ _ W32 (seq_of_32 _ HA _)). fold e. rewrite LK. pose proof (climb_wit H e k idx [] HD (seq_of_32 _ HA) H0) as HC. rewrite app_nil_r in HC. rewrite HC. rewrite HX, bytes_eqb_refl. reflexivity.
Qed.
Print Assumptions C98_go_witness_accepted.

(** * The bytes in which the accumulator is stored *)
Definition slot_item (s : option (list Z)) : rlp := match s with Some b => RBytes b | None => RNull end.
Definition stored (m : pymta) : rlp :=
  RList [RBytes (BigIntToBytes (y_height m)); RList (map slot_item (y_roots m)); RBytes (BigIntToBytes (y_offset m)); RBytes (BigIntToBytes (y_rsize m));
         RBytes (BigIntToBytes (y_csize m)); RList (map slot_item (y_cache m)); RBytes [if y_allow m then 1 else 0]].
Definition slot_ok (s : option (list Z)) : Prop := match s with Some b => bytes_ok b | None => True end.
Lemma items_slots : forall l, items (map py_hash l) (map slot_item l).
Proof. induction l as [|[b|] l IH]; cbn [map]; constructor; try exact IH; constructor. Qed.
Lemma ok_slots : forall l, Forall slot_ok l -> rlp_ok (RList (map slot_item l)).
Proof. induction 1 as [|[b|] l B F IH]; cbn; auto. Qed.
Lemma item_stored : forall m, item (PList [PInt (y_height m); PList (map py_hash (y_roots m)); PInt (y_offset m); PInt (y_rsize m); PInt (y_csize m); PList (map py_hash (y_cache m)); PBool (y_allow m)]) (stored m).
Proof. intros m. unfold stored. repeat first [apply i_list|apply i_cons|apply i_nil|apply i_int; apply BigIntToBytes_shortest|apply i_bool|apply items_slots]. Qed.
Lemma reads_slots : forall l, reads_all noutf8 TBytes (map slot_item l) (map py_hash l).
Proof. induction l as [|[b|] l IH]; cbn [map]; constructor; try exact IH; constructor. exact I. Qed.
Lemma hashes_slots : forall l, hashes (map py_hash l) = Some l.
Proof. induction l as [|[b|] l IH]; cbn [map py_hash hashes]; [reflexivity|rewrite IH; reflexivity|rewrite IH; reflexivity]. Qed.
Lemma stored_ok : forall m, Forall slot_ok (y_roots m ++ y_cache m) -> rlp_ok (stored m).
Proof.
  intros m F. apply Forall_app in F as [F1 F2]. pose proof (fun n => proj1 (tc_of_enc n)) as B. unfold stored. cbn [rlp_ok fold_right]. repeat split; try apply B; try (apply ok_slots; assumption).
  constructor; [unfold is_byte; destruct (y_allow m); lia|constructor].
Qed.
(** A stored accumulator is read back as it was, as long as its bytes are fewer than 65536. *)
Theorem C98_stored : forall m, Forall slot_ok (y_roots m ++ y_cache m) -> zlen (rlp_write (stored m)) <= 65538 -> (y_height m = 0 -> y_offset m <= 0) ->
  y_to_bytes m = rlp_write (stored m) /\ y_of_bytes (y_to_bytes m) = Some m.
Proof.
  intros m F L Z0. assert (E : y_to_bytes m = rlp_write (stored m)) by (apply (proj1 encoded); [apply item_stored|exact L]). split; [exact E|]. rewrite E. unfold y_of_bytes.
  pose proof (stored_ok m F) as Ok. assert (L63 : zlen (rlp_write (stored m)) < 2 ^ 63) by lia. pose proof (proj2 (small_children _ L63)) as SC.
  assert (RD : forall t x v, In x (match stored m with RList l => l | _ => [] end) -> plain_ty t -> reads noutf8 t x v -> rlp_decode noutf8 (rlp_write x) t = Some v).
  { intros t x v I P R. apply rlp_decode_reads; [exact P| |rewrite Forall_forall in SC; apply SC; exact I|exact R]. pose proof (rlp_ok_in _ Ok) as OI. rewrite Forall_forall in OI. apply OI. exact I. }
  rewrite (proj2 (rlp_decode_reads noutf8 TList (stored m) _ I Ok ltac:(lia)) (r_raw _ _)). cbn [map].
  unfold field_int, field_hashes, field_bool. cbn [nth_error]. unfold stored in RD.
  assert (INT : forall n, In (RBytes (BigIntToBytes n)) (match stored m with RList l => l | _ => [] end) -> rlp_decode noutf8 (rlp_write (RBytes (BigIntToBytes n))) TInt = Some (PInt n)).
  { intros n I. apply RD; [exact I|exact Logic.I|]. pose proof (r_int noutf8 (BigIntToBytes n)) as R. rewrite (proj2 (tc_of_enc n)) in R. exact R. }
  assert (HAS : forall l, In (RList (map slot_item l)) (match stored m with RList l => l | _ => [] end) -> rlp_decode noutf8 (rlp_write (RList (map slot_item l))) (TOf (Some TBytes)) = Some (PList (map py_hash l))).
  { intros l I. apply RD; [exact I|exact Logic.I|]. constructor. apply reads_slots. }
  unfold stored in INT, HAS. rewrite !INT by (cbn [In]; tauto). rewrite !HAS by (cbn [In]; tauto). rewrite !hashes_slots. rewrite (RD TBool _ (PBool (y_allow m))); [|cbn [In]; tauto|exact I|constructor].
  destruct m as [h rs o rz cz ca al]. cbn [y_height y_roots y_offset y_rsize y_csize y_cache y_allow] in *. f_equal. f_equal. destruct (h =? 0) eqn:Q; [|reflexivity]. cbn [andb]. destruct (0 <? o) eqn:Q2; [|reflexivity]. lia.
Qed.
Print Assumptions C98_stored.
(** From 65536 bytes on it cannot be read any more, unless two bytes of the length are equal. *)
Lemma long_list_unread : forall utf8 t l, let n := zlen (concat l) in 65536 <= n < 16777216 -> n mod 256 <> n / 256 mod 256 -> rlp_decode utf8 (encode_list l) t = None.
Proof.
  intros utf8 t l n L N. apply no_part. intros p. unfold encode_list. cbv zeta. fold n. replace (n <=? 55) with false by lia. rewrite header_65536 by lia. change (247 + 3) with 250. unfold decode_part. cbn [app decode_header].
  change (250 <? 128) with false. change (250 <? 184) with false. change (250 <? 192) with false. change (250 <? 248) with false. cbn [fst snd]. change (Z.to_nat (250 - 247 + 1 - 1)) with 3%nat. cbn [firstn]. change (250 - 247 + 1) with 4. unfold be_val. cbn [fold_left]. rewrite !zlen_cons. fold n.
  pose proof (Z.div_mod n 256). pose proof (Z.mod_pos_bound n 256). pose proof (Z.div_mod (n / 256) 256). pose proof (Z.mod_pos_bound (n / 256) 256). assert (E2 : n / 256 / 256 = n / 65536) by (rewrite Z.div_div by lia; reflexivity).
  set (n0 := n mod 256) in *. set (n1 := n / 256 mod 256) in *. set (n2 := n / 65536) in *. set (k := n / 256) in *. clearbody n0 n1 n2 k.
  replace (n + 1 + 1 + 1 + 1 <? 4 + (((0 * 256 + n2) * 256 + n0) * 256 + n1)) with (n1 <? n0) by lia. destruct (n1 <? n0) eqn:C; [discriminate|].
  assert (GE : skipn (Z.to_nat (4 + (((0 * 256 + n2) * 256 + n0) * 256 + n1))) (250 :: n2 :: n0 :: n1 :: concat l) <> []).
  { intros G. apply (f_equal (@length Z)) in G. rewrite skipn_length in G. cbn [length] in G. unfold n, zlen in *. lia. }
  change (4 =? 2) with false. cbn [andb]. destruct (elements _ _); [|discriminate]. intros X. injection X as _ X. exact (GE X).
Qed.
Theorem C98_large_store_refuted : forall m, let n := zlen (concat (map rlp_encode [PInt (y_height m); PList (map py_hash (y_roots m)); PInt (y_offset m); PInt (y_rsize m); PInt (y_csize m); PList (map py_hash (y_cache m)); PBool (y_allow m)])) in
  65536 <= n < 16777216 -> n mod 256 <> n / 256 mod 256 -> y_of_bytes (y_to_bytes m) = None.
Proof. intros m n L N. unfold y_of_bytes, y_to_bytes. change (rlp_encode (PList ?l)) with (encode_list (map rlp_encode l)). rewrite long_list_unread; [reflexivity|exact L|exact N]. Qed.
Print Assumptions C98_large_store_refuted.
Example C98_ex_large : y_of_bytes (y_to_bytes (PyMta 2000 [] 0 0 2000 (repeat (Some (repeat 7 32)) (Z.to_nat 2000)) false)) = None.
Proof. vm_compute. reflexivity. Qed.

(** * Setters *)
(** A smaller cache keeps the newest hashes. *)
Theorem C98_smaller_cache : forall H off r c allow s hs m, digest32 H -> 0 <= off -> 0 <= r -> 0 <= c -> 0 <= s -> all32 hs -> y_adds H (py_fresh off r c allow) hs = Some m ->
  y_cache (set_cache_size m s) = map Some (skipn (length hs - Z.to_nat (Z.min s c)) hs).
Proof.
  intros H off r c allow s hs m HD O0 R0 C0 S0 A E. destruct (known H HD off r c allow O0 R0 C0 hs m A E) as (d & _ & _ & _ & _ & _ & _ & B6 & _). unfold set_cache_size. cbn [y_cache]. replace (s <? 0) with false by lia. rewrite B6. unfold drop_front. rewrite map_length, skipn_length, skipn_map, <- L_BtpAddr.skipn_plus. f_equal. f_equal. lia.
Qed.
Print Assumptions C98_smaller_cache.
(** A smaller number of roots drops the roots of the newest entries and takes what is left for the roots of smaller trees: three hashes,
    then one root: a node is taken for an entry at any height, and no other witness is accepted. *)
Theorem C98_roots_size_refuted : forall H off c allow h1 h2 h3, digest32 H -> 0 <= off -> 0 <= c -> all32 [h1; h2; h3] ->
  exists m, y_adds H (py_fresh off 0 c allow) [h1; h2; h3] = Some m /\ let m' := set_roots_size m 1 in
    y_offset m' = off /\ y_height m' = off + 3 /\ y_roots m' = [Some (H (h1 ++ h2))] /\ (forall height, y_verify H m' [] (H (h1 ++ h2)) height (off + 3) = Ok tt) /\
    (forall ws h height, y_verify H m' ws h height (off + 3) = Ok tt -> ws = [] /\ h = H (h1 ++ h2)).
Proof.
  intros H off c allow h1 h2 h3 HD O0 C0 A. destruct (sim H HD off 0 c allow _ O0 ltac:(lia) C0 A) as (m & jm & d0 & E1 & _). exists m. split; [exact E1|]. cbv zeta.
  rewrite (py_fresh_is off 0 c allow O0 ltac:(lia) C0) in E1. cbn [y_adds] in E1. unfold y_add, put_cache in E1. cbn [y_csize y_height y_roots y_offset y_rsize y_cache y_allow app] in E1. replace (c <? 0) with false in E1 by lia. change (zlen (@nil (option (list Z))) =? 0) with true in E1. rewrite orb_true_r in E1. cbn [fst snd app y_csize y_height y_roots y_offset y_rsize y_cache y_allow] in E1.
  replace (off + 1 <? 0) with false in E1 by lia. cbn [fst snd app y_csize y_height y_roots y_offset y_rsize y_cache y_allow] in E1. replace (c <? 0) with false in E1 by lia. replace (off + 1 =? 0) with false in E1 by lia. change (zlen [Some h1] =? 0) with false in E1. cbn [orb] in E1. cbn [y_loop] in E1. change ((0 <? 0) && (0 <=? Z.of_nat 0 + 1)) with false in E1. cbn [fst snd] in E1.
  replace (off + 1 + 1 <? 0) with false in E1 by lia. cbn [fst snd app y_csize y_height y_roots y_offset y_rsize y_cache y_allow] in E1. replace (c <? 0) with false in E1 by lia. replace (off + 1 + 1 =? 0) with false in E1 by lia. change (zlen [None; Some (H (h1 ++ h2))] =? 0) with false in E1. cbn [orb] in E1. cbn [y_loop fst snd] in E1. replace (off + 1 + 1 + 1 <? 0) with false in E1 by lia.
  injection E1 as <-. unfold set_roots_size. cbn [y_csize y_height y_roots y_offset y_rsize y_cache y_allow]. change (1 <? 0) with false. cbv iota. change (0 <? 1) with true. cbv iota. unfold drop_front. change (Z.to_nat 1) with 1%nat. cbn [length Nat.sub skipn].
  split; [lia|]. split; [lia|]. split; [reflexivity|]. unfold y_verify. cbn [y_height y_roots]. replace (off + 1 + 1 + 1 =? off + 3) with true by lia. split.
  - intros height. unfold y_get_root. cbn [y_roots length nth_error rbind]. unfold y_check. cbn [y_climb]. rewrite bytes_eqb_refl. reflexivity.
  - intros ws h height E. unfold y_get_root in E. cbn [y_roots] in E. destruct ws as [|w ws]; [|cbn [length nth_error] in E; destruct (length ws); discriminate E]. split; [reflexivity|]. cbn [length nth_error rbind] in E. unfold y_check in E. cbn [y_climb] in E. destruct (bytes_eqb_spec h (H (h1 ++ h2))); [assumption|discriminate E].
Qed.
Print Assumptions C98_roots_size_refuted.

(** * Examples *)
Example C98_ex_roots : exists m, y_adds toy32 (py_fresh 100 2 3 true) ex_hs = Some m /\ y_height m = 107 /\ y_offset m = 104 /\ length (y_roots m) = 2%nat /\ y_cache m = map Some (skipn 4 ex_hs) /\
  y_of_bytes (y_to_bytes m) = Some m /\ y_verify toy32 m [] (toy32 [6]) 106 105 = Ok tt.
Proof. eexists. split; [vm_compute; reflexivity|]. vm_compute. repeat split. Qed.
(** the witness of the relay for entry 3 of seven, at an accumulator of five: the Java contract accepts it (C83_ex_newer), the Python one not *)
Example C98_ex_newer : exists m ws a', y_adds toy32 (py_fresh 100 0 0 true) (firstn 5 ex_hs) = Some m /\ WitnessFor toy32 ex_store (add_entries toy32 new_acc ex_entries) 3 = (a', Ok ws) /\
  level (y_height m - y_offset m) (104 - 1 - y_offset m) 2 /\ (y_offset m + 1) mod 2 ^ Z.of_nat 2 <> 0 /\ NoDup (firstn 5 ex_hs) /\
  y_verify toy32 m (map Some (WitnessesToHashes ws)) (toy32 [4]) 104 107 = Err 1.
Proof.
  eexists. eexists. eexists. split; [vm_compute; reflexivity|]. split; [vm_compute; reflexivity|]. split; [split; [reflexivity|vm_compute; split; congruence]|]. split; [vm_compute; congruence|].
  split; [|vm_compute; reflexivity]. vm_compute. repeat constructor; cbn [In]; intuition congruence.
Qed.
