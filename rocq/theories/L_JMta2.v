(** Lemmas about the accumulator of the ICON block verifier contract: the invariant. *)
From Coq Require Import String Ascii ZArith List Bool Lia.
From Coq Require Import ZifyBool.
From Verif Require Import Base L_Base M_Mta S_Mta L_Mta L_Mta2 L_Mta3 L_Mta4 L_Mta6 M_JBmv M_JMta L_JMta.
Import ListNotations.
Open Scope Z_scope.

(** An accumulator without entries, with the settings given; the cache is what ensureCache makes. *)
Definition fresh (off : Z) (rsz csz : option Z) (allow : option bool) : jmta :=
  JMta off [] off rsz csz (if positive csz then Some (repeat None (Z.to_nat (num csz))) else None) allow (if positive csz then Some 0 else None).

Lemma array_set_length : forall A i (x : A) l, length (array_set i x l) = length l.
Proof. induction i; intros x [|y l]; cbn [array_set length]; try reflexivity. rewrite IHi. reflexivity. Qed.
Lemma array_set_nth : forall A i (x : A) l j d, (i < length l)%nat -> nth j (array_set i x l) d = if Nat.eqb i j then x else nth j l d.
Proof.
  induction i as [|i IH]; intros x [|y l] j d Hi; cbn [array_set length] in *; try lia; destruct j; cbn [nth Nat.eqb]; try reflexivity.
  apply IH. lia.
Qed.

Section INV.
Context (H : list Z -> list Z) (HD : digest32 H).

Definition ring (csz : option Z) (hs : list (list Z)) (cache : option (list (option (list Z)))) (idx : option Z) : Prop :=
  if positive csz then
    let n := num csz in
    exists c, cache = Some c /\ zlen c = n /\ idx = Some (zlen hs mod n) /\
      forall i, 0 <= i < n -> nth (Z.to_nat i) c None = if i <? zlen hs then Some (seq_of hs (i + n * ((zlen hs - 1 - i) / n))) else None
  else cache = None.

Definition jst (off : Z) (rsz csz : option Z) (allow : option bool) (hs : list (list Z)) (d : nat) (m : jmta) : Prop :=
  (j_rootSize m = rsz /\ j_cacheSize m = csz /\ j_allow m = allow) /\
  (j_height m = off + zlen hs /\ j_offset m = off + Z.of_nat d /\ (d <= length hs)%nat) /\
  jslots H (seq_of (skipn d hs)) 0 (zlen (skipn d hs)) (j_roots m) /\
  (positive rsz = false -> d = 0%nat) /\
  (positive rsz = true -> zlen (j_roots m) <= num rsz /\ (exists q, Z.of_nat d = q * 2 ^ (num rsz - 1)) /\ (d <> 0%nat -> 2 ^ (num rsz - 1) <= zlen (skipn d hs))) /\
  ring csz hs (j_cache m) (j_cacheIdx m).

Lemma jst_fresh : forall off rsz csz allow, jst off rsz csz allow [] 0 (fresh off rsz csz allow).
Proof.
  intros. unfold jst, fresh. cbn [j_rootSize j_cacheSize j_allow j_height j_offset j_roots j_cache j_cacheIdx skipn jslots length].
  change (zlen []) with 0. rewrite !Z.add_0_r. split; [auto|]. split; [auto|]. split; [reflexivity|]. split; [auto|]. split.
  - intros HP. unfold positive in HP. destruct rsz as [r|]; [|discriminate]. cbn [num]. change (zlen (@nil (option (list Z)))) with 0.
    split; [lia|]. split; [exists 0; lia|]. congruence.
  - unfold ring. destruct (positive csz) eqn:EP; [|reflexivity]. unfold positive in EP. destruct csz as [c|]; [|discriminate]. cbn [num].
    eexists. split; [reflexivity|]. split; [unfold zlen; rewrite repeat_length; lia|]. split; [f_equal; rewrite Z.mod_0_l by lia; reflexivity|].
    intros i Hi. change (zlen []) with 0. replace (i <? 0) with false by lia. apply nth_repeat.
Qed.

Lemma ring_step : forall csz hs cache idx h n, positive csz = true -> n = num csz -> ring csz hs cache idx -> 
  exists c, cache = Some c /\ zlen c = n /\ idx = Some (zlen hs mod n) /\ 0 <= zlen hs mod n < n /\
    ring csz (hs ++ [h]) (Some (array_set (Z.to_nat (zlen hs mod n)) (Some h) c)) (Some (if n <=? zlen hs mod n + 1 then 0 else zlen hs mod n + 1)).
Proof.
  intros csz hs cache idx h n HP Hn HR. unfold ring in *. rewrite HP in *. rewrite <- Hn in *.
  assert (N0 : 0 < n) by (unfold positive in HP; destruct csz; [cbn [num] in Hn; lia|discriminate]).
  destruct HR as (c & -> & E1 & -> & E2). exists c. pose proof (Z.mod_pos_bound (zlen hs) n N0) as HM.
  split; [reflexivity|]. split; [assumption|]. split; [reflexivity|]. split; [assumption|].
  assert (ZA : zlen (hs ++ [h]) = zlen hs + 1) by (unfold zlen; rewrite app_length; cbn [length]; lia).
  pose proof (zlen_nonneg _ hs) as N1. pose proof (Z.div_mod (zlen hs) n ltac:(lia)) as DM.
  eexists. split; [reflexivity|]. split; [unfold zlen; rewrite array_set_length; exact E1|]. split.
  - f_equal. rewrite ZA. destruct (Z.leb_spec n (zlen hs mod n + 1)).
    + apply Z.mod_unique with (zlen hs / n + 1); [lia|]. nia.
    + apply Z.mod_unique with (zlen hs / n); [lia|]. lia.
  - intros i Hi. rewrite array_set_nth by (unfold zlen in E1; lia). rewrite ZA. replace (zlen hs + 1 - 1 - i) with (zlen hs - i) by lia.
    destruct (Nat.eqb_spec (Z.to_nat (zlen hs mod n)) (Z.to_nat i)) as [E|E].
    + assert (i = zlen hs mod n) by lia. replace (i <? zlen hs + 1) with true by (pose proof (Z.mod_le (zlen hs) n ltac:(lia) N0); lia). f_equal.
      replace ((zlen hs - i) / n) with (zlen hs / n) by (apply Z.div_unique with 0; lia).
      replace (i + n * (zlen hs / n)) with (zlen hs) by lia. symmetry. apply seq_of_last.
    + rewrite E2 by assumption. assert (i <> zlen hs mod n) by lia.
      assert (i <> zlen hs) by (intros ->; rewrite Z.mod_small in *; lia).
      replace (i <? zlen hs + 1) with (i <? zlen hs) by lia. destruct (Z.ltb_spec i (zlen hs)); [|reflexivity]. f_equal.
      assert (EQ : (zlen hs - 1 - i) / n = (zlen hs - i) / n).
      { pose proof (Z.div_mod (zlen hs - i) n ltac:(lia)) as D2. pose proof (Z.mod_pos_bound (zlen hs - i) n N0) as B2.
        symmetry. apply Z.div_unique with ((zlen hs - i) mod n - 1); [|lia]. left. split; [|lia].
        destruct (Z.eq_dec ((zlen hs - i) mod n) 0) as [Z0|]; [|lia]. exfalso. apply H0.
        apply Z.mod_unique with ((zlen hs - i) / n); lia. }
      rewrite EQ. apply seq_of_app. pose proof (Z.div_pos (zlen hs - 1 - i) n ltac:(lia) N0) as D0. rewrite <- EQ.
      pose proof (Z.mul_div_le (zlen hs - 1 - i) n N0). nia.
Qed.

Lemma jslots_agree : forall e e' rs i m, 0 <= m -> (forall j, 0 <= j < m * 2 ^ Z.of_nat i -> e j = e' j) -> jslots H e i m rs -> jslots H e' i m rs.
Proof.
  intros e e'. induction rs as [|x rs IH]; intros i m Hm HE HS; [exact HS|].
  assert (HS' : jslots H e' (S i) (m / 2) rs).
  { apply IH; [apply Z.div_pos; lia| |destruct x; cbn [jslots] in HS; tauto]. intros j Hj. apply HE. rewrite pow_S in Hj.
    pose proof (Z.mul_div_le m 2 ltac:(lia)). pose proof (pow2_pos i). nia. }
  destruct x; cbn [jslots] in *; [|tauto]. destruct HS as (A & B & _). split; [assumption|]. split; [|assumption]. rewrite B.
  apply nv_agree. intros j Hj. apply HE. apply odd_half in A. pose proof (Z.div_pos m 2 Hm ltac:(lia)). pose proof (pow2_pos i). nia.
Qed.

Lemma mta_add_step : forall off rsz csz allow hs d m h, all32 (hs ++ [h]) -> jst off rsz csz allow hs d m ->
  exists m' d', mta_add H m h = Some m' /\ jst off rsz csz allow (hs ++ [h]) d' m'.
Proof using HD.
  intros off rsz csz allow hs d m h HA ((A1 & A2 & A3) & (B1 & B2 & B3) & C & D & E & F).
  assert (ZA : zlen (hs ++ [h]) = zlen hs + 1) by (unfold zlen; rewrite app_length; cbn [length]; lia).
  assert (SK : skipn d (hs ++ [h]) = skipn d hs ++ [h]) by (rewrite skipn_app; replace (d - length hs)%nat with 0%nat by lia; reflexivity).
  assert (ZK : zlen (skipn d hs) = zlen hs - Z.of_nat d) by (unfold zlen; rewrite skipn_length; lia).
  assert (ZK1 : zlen (skipn d hs ++ [h]) = zlen (skipn d hs) + 1) by (unfold zlen; rewrite app_length; cbn [length]; lia).
  pose proof (zlen_nonneg _ (skipn d hs)) as N0. pose proof (zlen_nonneg _ hs) as N1.
  (* the cache *)
  assert (PC : exists c' i', putCache m h = Some (JMta (j_height m) (j_roots m) (j_offset m) (j_rootSize m) (j_cacheSize m) c' (j_allow m) i') /\ ring csz (hs ++ [h]) c' i').
  { unfold putCache, isCacheEnabled. rewrite A2. destruct (positive csz) eqn:EP.
    - destruct (ring_step csz hs _ _ h _ EP eq_refl F) as (c & R1 & R2 & R3 & R4 & R5). rewrite R1, R3, R2.
      replace ((0 <=? zlen hs mod num csz) && (zlen hs mod num csz <? num csz)) with true by lia. eauto.
    - exists (j_cache m), (j_cacheIdx m). split; [destruct m; cbn in *; congruence|]. unfold ring in *. rewrite EP in *. assumption. }
  destruct PC as (c' & i' & PC & RC). unfold mta_add. rewrite PC. cbn [obind j_height j_offset j_roots j_rootSize j_cacheSize j_cache j_allow j_cacheIdx].
  unfold isRootSizeLimitEnabled. cbn [j_rootSize]. rewrite A1.
  set (kept := skipn d hs) in *. set (n := zlen kept) in *.
  assert (CC : jslots H (seq_of (kept ++ [h])) 0 n (j_roots m)).
  { apply jslots_agree with (e := seq_of kept); [lia| |assumption]. intros j Hj. apply seq_of_app. change (2 ^ Z.of_nat 0) with 1 in Hj. subst n. lia. }
  assert (HL : nv H (seq_of (kept ++ [h])) 0 n = h) by (cbn [nv]; apply seq_of_last).
  assert (H32 : forall i, length (seq_of (kept ++ [h]) i) = 32%nat).
  { apply seq_of_32. unfold all32 in *. rewrite Forall_forall in *. intros x Hx. apply HA. apply in_app_iff in Hx. apply in_app_iff. destruct Hx as [Hx|]; [left|auto].
    subst kept. rewrite <- (firstn_skipn d hs). apply in_app_iff. auto. }
  (* assembling the result *)
  assert (DONE : forall rs', jslots H (seq_of (kept ++ [h])) 0 (n + 1) rs' -> (positive rsz = true -> zlen rs' <= num rsz) ->
    jst off rsz csz allow (hs ++ [h]) d (JMta (j_height m + 1) rs' (j_offset m + 0) rsz (j_cacheSize m) c' (j_allow m) i')).
  { intros rs' J1 J2. unfold jst. cbn [j_rootSize j_cacheSize j_allow j_height j_offset j_roots j_cache j_cacheIdx]. rewrite SK, ZA, ZK1. fold n.
    split; [auto|]. split; [split; [lia|]; split; [lia|rewrite app_length; lia]|]. split; [assumption|]. split; [assumption|]. split; [|assumption].
    intros HP. destruct (E HP) as (E1 & E2 & E3). split; [auto|]. split; [assumption|]. intros Hd. specialize (E3 Hd). lia. }
  destruct (Z.eqb_spec (j_height m) (j_offset m)) as [E0|E0]; cbn [obind fst snd].
  - assert (n = 0) by lia. exists (JMta (j_height m + 1) (appendRoot (j_roots m) h) (j_offset m + 0) rsz (j_cacheSize m) c' (j_allow m) i'), d. split; [reflexivity|].
    assert (RE : j_roots m = []). { destruct (j_roots m) as [|[x|] r]; [reflexivity| |]; cbn [jslots] in CC; rewrite H0 in CC; [destruct CC; discriminate|lia]. }
    apply DONE; rewrite RE; cbn [appendRoot length repeat app].
    + rewrite H0. cbn [jslots]. split; [reflexivity|]. split; [|reflexivity]. rewrite H0 in HL. symmetry. exact HL.
    + intros HP. unfold positive in HP. destruct rsz; [|discriminate]. cbn [num]. change (zlen [Some h]) with 1. lia.
  - assert (0 < n) by lia.
    destruct (positive rsz) eqn:EP.
    + destruct (E eq_refl) as (E1 & E2 & E3). assert (R1 : 1 <= num rsz) by (unfold positive in EP; destruct rsz; [cbn [num] in *; lia|discriminate]).
      destruct (Z.eq_dec (zlen (j_roots m)) (num rsz)) as [EL|EL].
      * assert (RN : j_roots m <> []) by (intros X; rewrite X in EL; change (zlen []) with 0 in EL; lia).
        destruct (add_loop_prune H HD (seq_of (kept ++ [h])) H32 (j_roots m) (num rsz - 1) 0 n ltac:(lia) CC RN ltac:(unfold zlen in EL; lia)) as [(rs' & E4 & E5 & E6)|(E4 & E5)].
        -- rewrite HL in E4. rewrite E4. cbn [obind fst snd]. eexists. exists d. split; [reflexivity|]. apply DONE; [assumption|]. intros _. unfold zlen in *. lia.
        -- rewrite HL in E5. rewrite E5. cbn [obind fst snd]. rewrite EL in E4.
           set (r := Z.to_nat (num rsz - 1)). assert (LR : length (j_roots m) = S r) by (unfold zlen in EL; lia).
           replace (num rsz - 1) with (Z.of_nat r) by lia.
           assert (PR : 2 ^ num rsz = 2 * 2 ^ Z.of_nat r) by (replace (num rsz) with (Z.of_nat (S r)) by lia; apply pow_S).
           set (dn := Z.to_nat (2 ^ Z.of_nat r)). pose proof (pow2_pos r) as HP.
           eexists. exists (d + dn)%nat. split; [reflexivity|].
           unfold jst. cbn [j_rootSize j_cacheSize j_allow j_height j_offset j_roots j_cache j_cacheIdx].
           assert (SK2 : skipn (d + dn) (hs ++ [h]) = skipn dn (kept ++ [h])).
           { rewrite <- SK. clear. generalize (hs ++ [h]) as l. induction d as [|d IH]; intros l; [reflexivity|]. destruct l; cbn [Nat.add skipn]; [destruct dn; reflexivity|apply IH]. }
           rewrite SK2. assert (ZK2 : zlen (skipn dn (kept ++ [h])) = 2 ^ Z.of_nat r) by (unfold zlen; rewrite skipn_length; unfold zlen in ZK1; subst dn; fold (zlen kept) in ZK1; fold n in ZK1; lia).
           rewrite ZK2. split; [auto|]. split; [split; [lia|]; split; [subst dn; lia|]|].
           { unfold zlen in ZA. subst n. unfold zlen in *. subst dn. lia. }
           split.
           { rewrite LR. replace (S r - 1)%nat with r by lia. replace (0 + S r - 1)%nat with r by lia.
             replace (nv H (seq_of (kept ++ [h])) r 1) with (nv H (seq_of (skipn dn (kept ++ [h]))) (0 + r) 0); [apply jslots_single|].
             cbn [Nat.add]. change 1 with (0 + 1). rewrite <- (nv_shift H (seq_of (kept ++ [h])) r 1 0). apply nv_agree. intros i Hi.
             rewrite seq_of_skip by lia. f_equal. subst dn. lia. }
           split; [congruence|]. split; [|assumption]. intros _. split; [|split].
           ++ unfold zlen. rewrite app_length, repeat_length. cbn [length]. unfold zlen in EL. lia.
           ++ destruct E2 as [q E2]. exists (q + 1). replace (num rsz - 1) with (Z.of_nat r) in E2 |- * by lia. subst dn. lia.
           ++ intros _. replace (num rsz - 1) with (Z.of_nat r) by lia. lia.
      * destruct (add_loop_spec H HD (seq_of (kept ++ [h])) H32 (j_roots m) (num rsz - 1) 0 n ltac:(lia) CC ltac:(right; unfold zlen in EL, E1; lia)) as (rs' & o & E4 & E5 & E6 & _).
        rewrite HL in E4. rewrite E4. cbn [obind fst snd]. eexists. exists d. split; [reflexivity|]. apply DONE; [assumption|]. intros _.
        destruct o; unfold appendRoot, zlen in *; rewrite ?app_length, ?repeat_length; cbn [length]; lia.
    + destruct (add_loop_spec H HD (seq_of (kept ++ [h])) H32 (j_roots m) (0 - 1) 0 n ltac:(lia) CC ltac:(left; lia)) as (rs' & o & E4 & E5 & E6 & _).
      rewrite HL in E4. rewrite E4. cbn [obind fst snd]. eexists. exists d. split; [reflexivity|]. apply DONE; [assumption|]. congruence.
Qed.

Lemma mta_adds_st : forall l off rsz csz allow hs d m, all32 (hs ++ l) -> jst off rsz csz allow hs d m ->
  exists m' d', mta_adds H m l = Some m' /\ jst off rsz csz allow (hs ++ l) d' m'.
Proof using HD.
  induction l as [|h l IH]; intros off rsz csz allow hs d m HA HS; cbn [mta_adds].
  - rewrite app_nil_r. eauto.
  - replace (hs ++ h :: l) with ((hs ++ [h]) ++ l) in * by (rewrite <- app_assoc; reflexivity).
    assert (HA' : all32 (hs ++ [h])) by (unfold all32 in *; apply Forall_app in HA; tauto).
    destruct (mta_add_step off rsz csz allow hs d m h HA' HS) as (m' & d' & -> & HS'). cbn [obind]. eauto.
Qed.
Lemma mta_adds_fresh : forall l off rsz csz allow, all32 l ->
  exists m d, mta_adds H (fresh off rsz csz allow) l = Some m /\ jst off rsz csz allow l d m.
Proof using HD. intros l off rsz csz allow HA. apply (mta_adds_st l off rsz csz allow [] 0 _ HA (jst_fresh _ _ _ _)). Qed.
End INV.
