(** Lemmas about the accumulator of the Python contracts: it keeps the roots of the Java one. *)
From Coq Require Import String Ascii ZArith List Bool Lia.
From Coq Require Import ZifyBool.
From Verif Require Import Base L_Base M_Mta S_Mta L_Mta L_Mta2 L_Mta3 L_Mta4 L_Mta6 M_JBmv M_JMta L_JMta L_JMta2 T_JMta L_BtpAddr M_PyMta.
Import ListNotations.
Open Scope Z_scope.

Local Notation slot := (option (list Z)).
(** An accumulator without entries, with the settings given. *)
Definition py_fresh (off r c : Z) (allow : bool) : pymta := set_allow (set_cache_size (set_roots_size (set_offset py_new off) r) c) allow.
Lemma py_fresh_is : forall off r c allow, 0 <= off -> 0 <= r -> 0 <= c -> py_fresh off r c allow = PyMta off [] off r c [] allow.
Proof.
  intros off r c allow O R C. unfold py_fresh, set_allow, set_cache_size, set_roots_size, set_offset, py_new, drop_front. cbn [y_height y_roots y_offset y_rsize y_csize y_cache y_allow length]. rewrite !skipn_nil.
  replace (r <? 0) with false by lia. replace (c <? 0) with false by lia. change (0 =? 0) with true. cbn [andb]. f_equal; [destruct (0 <? off) eqn:E; lia|destruct (0 <? r); reflexivity].
Qed.

Lemma app_eq_right : forall a b c d : list Z, a ++ b = c ++ d -> length b = length d -> a = c /\ b = d.
Proof. intros a b c d E L. apply app_eq_32; [|exact E]. apply (f_equal (@length Z)) in E. rewrite !app_length in E. lia. Qed.

Section SIM.
Context (H : list Z -> list Z) (HD : digest32 H).
Definition slot32 (s : slot) : Prop := match s with Some x => length x = 32%nat | None => True end.
Lemma jslots_32 : forall e rs i m, (forall i, length (e i) = 32%nat) -> jslots H e i m rs -> Forall slot32 rs.
Proof using HD.
  intros e rs. induction rs as [|[x|] rs IH]; intros i m He J; constructor; cbn [jslots] in J.
  - destruct J as (_ & -> & _). cbn. apply nv_length; assumption.
  - destruct J as (_ & _ & J). apply (IH _ _ He J).
  - exact I.
  - destruct J as (_ & J). apply (IH _ _ He J).
Qed.
Lemma loops : forall r rs i h, 0 <= r -> Forall slot32 rs -> length h = 32%nat -> (0 < r -> Z.of_nat (i + length rs) <= r) ->
  exists a o g, add_loop H ((if 0 <? r then r else 0) - 1) i rs h = Some (a, o, g) /\ y_loop H r i rs h = (match o with Some x => appendRoot a x | None => a end, g) /\ (o <> None -> a = repeat None (length rs)).
Proof using HD.
  intros r. induction rs as [|[x|] rs IH]; intros i h R F L B.
  - exists [], (Some h), 0. cbn [add_loop y_loop]. repeat split.
  - inversion F as [|? ? X F']; subst. cbn in X. cbn [add_loop y_loop]. cbn [length] in B.
    replace (Z.of_nat i =? (if 0 <? r then r else 0) - 1) with ((0 <? r) && (r <=? Z.of_nat i + 1)) by (destruct (0 <? r) eqn:E; lia).
    destruct ((0 <? r) && (r <=? Z.of_nat i + 1)) eqn:C.
    + exists (Some h :: rs), None, (2 ^ Z.of_nat i). repeat split. congruence.
    + rewrite concat32 by assumption. cbn [obind]. destruct (IH (S i) (H (x ++ h)) R F' (HD _) ltac:(lia)) as (a & o & g & E1 & E2 & E3). rewrite E1, E2. cbn [obind fst snd].
      exists (None :: a), o, g. split; [reflexivity|]. split.
      * destruct o as [y|]; [|reflexivity]. unfold appendRoot. cbn [length repeat app]. reflexivity.
      * intros N. rewrite (E3 N). reflexivity.
  - cbn [add_loop y_loop]. exists (Some h :: rs), None, 0. repeat split. congruence.
Qed.
Lemma mta_adds_app : forall hs m h, mta_adds H m (hs ++ [h]) = obind (mta_adds H m hs) (fun m' => mta_add H m' h).
Proof using.
  induction hs as [|x hs IH]; intros m h; cbn [app mta_adds].
  - cbn [obind]. destruct (mta_add H m h); reflexivity.
  - destruct (mta_add H m x); cbn [obind]; [apply IH|reflexivity].
Qed.
Lemma y_adds_app : forall hs m h, y_adds H m (hs ++ [h]) = match y_adds H m hs with Some m' => y_add H m' h | None => None end.
Proof using.
  induction hs as [|x hs IH]; intros m h; cbn [app y_adds].
  - destruct (y_add H m h); reflexivity.
  - destruct (y_add H m x); [apply IH|reflexivity].
Qed.
Lemma drop_snoc : forall (c : Z) (hs : list (list Z)) h, 0 <= c ->
  drop_front c (if 0 <? c then map Some (drop_front c hs) ++ [Some h] else map Some (drop_front c hs)) = map Some (drop_front c (hs ++ [h])).
Proof using.
  intros c hs h C. unfold drop_front. destruct (0 <? c) eqn:E.
  - change [Some h] with (map (@Some (list Z)) [h]). rewrite <- map_app. rewrite map_length, skipn_map. f_equal.
    assert (J : skipn (length hs - Z.to_nat c) hs ++ [h] = skipn (length hs - Z.to_nat c) (hs ++ [h])).
    { rewrite skipn_app. replace (length hs - Z.to_nat c - length hs)%nat with 0%nat by lia. reflexivity. }
    rewrite J, <- skipn_plus, skipn_length, app_length. f_equal. cbn [length]. lia.
  - assert (c = 0) as -> by lia. cbn [Z.to_nat]. rewrite map_length, !Nat.sub_0_r, !skipn_all. reflexivity.
Qed.
(** The same hashes in both: the same height, offset and roots; the cache holds the newest. *)
Lemma sim : forall off r c allow hs, 0 <= off -> 0 <= r -> 0 <= c -> all32 hs ->
  exists m jm d, y_adds H (py_fresh off r c allow) hs = Some m /\ mta_adds H (fresh off (Some r) None (Some allow)) hs = Some jm /\ jst H off (Some r) None (Some allow) hs d jm /\
    y_height m = j_height jm /\ y_roots m = j_roots jm /\ y_offset m = j_offset jm /\ y_rsize m = r /\ y_csize m = c /\ y_allow m = allow /\ y_cache m = map Some (drop_front c hs).
Proof using HD.
  intros off r c allow hs O R C. induction hs as [|h hs IH] using rev_ind; intros A.
  - rewrite (py_fresh_is off r c allow O R C). destruct (mta_adds_fresh H HD [] off (Some r) None (Some allow) A) as (jm & d & E & J). exists (PyMta off [] off r c [] allow), jm, d. cbn [y_adds]. cbn [mta_adds] in E. injection E as <-.
    split; [reflexivity|]. split; [reflexivity|]. split; [exact J|]. repeat split.
  - apply Forall_app in A as [A Ah]. inversion Ah as [|? ? Lh _]; subst. destruct (IH A) as (m & jm & d & E1 & E2 & J & S1 & S2 & S3 & S4 & S5 & S6 & S7).
    destruct (mta_adds_fresh H HD (hs ++ [h]) off (Some r) None (Some allow) ltac:(apply Forall_app; auto)) as (jm' & d' & E2' & J'). 
    rewrite y_adds_app, E1. pose proof E2' as E3. rewrite mta_adds_app, E2 in E3. cbn [obind] in E3.
    destruct J as ((A1 & A2 & A3) & (B1 & B2 & B3) & JS & D & F & _). unfold mta_add, putCache, isCacheEnabled in E3. rewrite A2 in E3. cbn [positive obind] in E3.
    unfold y_add, put_cache. rewrite S5. replace (c <? 0) with false by lia. rewrite S7, drop_snoc by lia. rewrite S1, S2, S3, S4.
    assert (K32 : Forall slot32 (j_roots jm)) by (apply (jslots_32 _ _ _ _ (seq_of_32 _ (kept_32 d hs A)) JS)).
    assert (ZK : zlen (skipn d hs) = zlen hs - Z.of_nat d) by (unfold zlen; rewrite skipn_length; lia).
    pose proof (zlen_nonneg _ hs) as N0. replace (j_height jm + 1 <? 0) with false by lia.
    assert (RZ : (zlen (j_roots jm) =? 0) = (j_height jm =? j_offset jm)).
    { destruct (j_roots jm) as [|x rs] eqn:ER.
      - cbn [jslots] in JS. change (zlen (@nil slot)) with 0. lia.
      - rewrite zlen_cons. pose proof (zlen_nonneg _ rs). assert (0 < zlen (skipn d hs)); [|lia]. destruct x; cbn [jslots] in JS; [destruct JS as (Od & _)|lia]. destruct (Z.eq_dec (zlen (skipn d hs)) 0) as [Q|Q]; [rewrite Q in Od; discriminate|lia]. }
    assert (H0 : (j_height jm =? 0) = true -> zlen (j_roots jm) =? 0 = true) by (rewrite RZ; lia).
    destruct (zlen (j_roots jm) =? 0) eqn:RE.
    + rewrite orb_true_r. rewrite <- RZ in E3. cbn [obind fst snd] in E3. injection E3 as <-. assert (RN : j_roots jm = []) by (destruct (j_roots jm) as [|x rs]; [reflexivity|rewrite zlen_cons in RE; pose proof (zlen_nonneg _ rs); lia]).
      eexists _, _, d'. split; [reflexivity|]. split; [exact E2'|]. split; [exact J'|]. rewrite RN. cbn [y_height y_roots y_offset y_rsize y_csize y_allow y_cache j_height j_roots j_offset fst snd]. repeat split; try reflexivity; congruence.
    + replace (j_height jm =? 0) with false by (destruct (j_height jm =? 0); [specialize (H0 eq_refl); discriminate|reflexivity]). cbn [orb]. rewrite <- RZ in E3.
      unfold isRootSizeLimitEnabled in E3. rewrite A1 in E3. cbn [positive num] in E3.
      destruct (loops r (j_roots jm) 0 h R K32 Lh) as (a & o & g & L1 & L2 & L3). { intros RP. destruct F as (F1 & _); [cbn [positive]; lia|]. cbn [num] in F1. unfold zlen in F1. lia. }
      rewrite L1 in E3. cbn [obind fst snd] in E3. injection E3 as <-. rewrite L2. eexists _, _, d'. split; [reflexivity|]. split; [exact E2'|]. split; [exact J'|]. cbn [y_height y_roots y_offset y_rsize y_csize y_allow y_cache j_height j_roots j_offset fst snd]. repeat split; congruence.
Qed.

(** Climbing *)
Lemma even_rem : forall i, (Z.rem i 2 =? 0) = (i mod 2 =? 0).
Proof using. intros i. Z.to_euclidean_division_equations; lia. Qed.
Lemma y_climb_java : forall ls h idx, all32 ls -> length h = 32%nat -> y_climb H (map Some ls) h idx = climb H (map Some ls) (length ls) h idx.
Proof using HD.
  induction ls as [|w ls IH]; intros h idx A L; [reflexivity|]. inversion A; subst. cbn [map length y_climb climb]. rewrite even_rem. rewrite !concat32 by assumption. destruct (idx mod 2 =? 0); cbn [obind]; apply IH; try assumption; apply HD.
Qed.
Lemma H_same : forall x y, H x = H y -> x = y \/ collides H.
Proof using. intros x y E. destruct (list_eq_dec Z.eq_dec x y) as [->|N]; [left; reflexivity|right; exists x, y; auto]. Qed.
Lemma y_climb_sound : forall e, (forall i, length (e i) = 32%nat) -> forall ws j h idx q, length h = 32%nat ->
  y_climb H ws h idx = Some (nv H e (j + length ws) q) -> h = nv H e j (q * 2 ^ Z.of_nat (length ws) + Z.abs idx mod 2 ^ Z.of_nat (length ws)) \/ collides H.
Proof using HD.
  intros e He. induction ws as [|[w|] ws IH]; intros j h idx q L E.
  - cbn [y_climb length] in E |- *. injection E as ->. change (2 ^ Z.of_nat 0) with 1. rewrite Z.mod_1_r, Nat.add_0_r, Z.mul_1_r, Z.add_0_r. left. reflexivity.
  - cbn [y_climb length] in E. replace (j + S (length ws))%nat with (S j + length ws)%nat in E by lia. apply IH in E; [|destruct (_ =? _); apply HD]. destruct E as [E|E]; [|right; exact E]. cbn [nv] in E. cbn [length]. rewrite pow_S.
    set (P := 2 ^ Z.of_nat (length ws)) in *. assert (HP : 0 < P) by (apply pow2_pos). rewrite Z.rem_mul_r by lia.
    assert (Q : Z.abs (Z.quot idx 2) = Z.abs idx / 2) by (clear; Z.to_euclidean_division_equations; lia). rewrite Q in E.
    assert (PA : (idx mod 2 =? 0) = (Z.abs idx mod 2 =? 0)) by (clear; Z.to_euclidean_division_equations; lia). rewrite PA in E. pose proof (Z.mod_pos_bound (Z.abs idx) 2 ltac:(lia)).
    set (y := q * P + (Z.abs idx / 2) mod P) in *. destruct (Z.abs idx mod 2 =? 0) eqn:PE.
    + replace (q * (2 * P) + (Z.abs idx mod 2 + 2 * ((Z.abs idx / 2) mod P))) with (2 * y) by (unfold y; lia). destruct (H_same _ _ E) as [E'|E']; [left|right; exact E']. apply app_eq_32 in E'; [tauto|]. rewrite L, nv_length by assumption. reflexivity.
    + replace (q * (2 * P) + (Z.abs idx mod 2 + 2 * ((Z.abs idx / 2) mod P))) with (2 * y + 1) by (unfold y; lia). destruct (H_same _ _ E) as [E'|E']; [left|right; exact E']. apply app_eq_right in E'; [tauto|]. rewrite L, nv_length by assumption. reflexivity.
  - discriminate E.
Qed.
End SIM.
