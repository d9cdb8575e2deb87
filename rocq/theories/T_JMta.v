(** Theorems about the accumulator of the ICON block verifier contract: C83. *)
From Coq Require Import String Ascii ZArith List Bool Lia.
From Coq Require Import ZifyBool.
From Verif Require Import Base L_Base M_IntConv M_Rlp M_Codec M_Mta S_Mta L_Mta L_Mta2 L_Mta3 L_Mta4 L_Mta5 L_Mta6 T_Mta M_JBmv M_JMta L_JMta L_JMta2.
Import ListNotations.
Open Scope Z_scope.

(** ** More lemmas *)
Lemma wit_agree : forall H e e' k x, (forall i, x / 2 ^ Z.of_nat k * 2 ^ Z.of_nat k <= i < (x / 2 ^ Z.of_nat k + 1) * 2 ^ Z.of_nat k -> e i = e' i) ->
  wit H e k x = wit H e' k x.
Proof.
  intros H e e'. induction k as [|k IH]; intros x HE; [reflexivity|]. cbn [wit]. rewrite div_S, pow_S, testbit_div in *.
  pose proof (pow2_pos k) as HP. set (y := x / 2 ^ Z.of_nat k) in *.
  assert (HY : y = 2 * (y / 2) \/ y = 2 * (y / 2) + 1) by (pose proof (Z.div_mod y 2); pose proof (Z.mod_pos_bound y 2); lia).
  f_equal.
  - apply IH. intros i Hi. apply HE. fold y in Hi. nia.
  - destruct (Z.odd y) eqn:EO; [apply odd_half in EO|apply even_half in EO]; do 2 f_equal; apply nv_agree; intros i Hi; apply HE; nia.
Qed.
Lemma wit_shift : forall H e k D x, wit H (fun i => e (i + D * 2 ^ Z.of_nat k)) k x = wit H e k (x + D * 2 ^ Z.of_nat k).
Proof.
  intros H e. induction k as [|k IH]; intros D x; [reflexivity|]. cbn [wit]. rewrite pow_S. pose proof (pow2_pos k) as HP.
  assert (EF : forall k' q, k' = k -> nv H (fun i => e (i + D * (2 * 2 ^ Z.of_nat k))) k' q = nv H e k (q + 2 * D)).
  { intros k' q ->. rewrite <- (nv_shift H e k (2 * D) q). apply nv_agree. intros i _. f_equal. lia. }
  assert (ED : (x + D * (2 * 2 ^ Z.of_nat k)) / 2 ^ Z.of_nat k = x / 2 ^ Z.of_nat k + 2 * D)
    by (replace (x + D * (2 * 2 ^ Z.of_nat k)) with (x + (2 * D) * 2 ^ Z.of_nat k) by lia; apply Z.div_add; lia).
  f_equal.
  - replace (x + D * (2 * 2 ^ Z.of_nat k)) with (x + (2 * D) * 2 ^ Z.of_nat k) by lia. rewrite <- IH. apply wit_agree. intros i _. f_equal. lia.
  - rewrite !testbit_div, ED. replace (x / 2 ^ Z.of_nat k + 2 * D) with (D * 2 + x / 2 ^ Z.of_nat k) by lia.
    replace (Z.odd (D * 2 + x / 2 ^ Z.of_nat k)) with (Z.odd (x / 2 ^ Z.of_nat k)) by (rewrite Z.add_comm, Z.mul_comm, Z.odd_add_mul_2; reflexivity).
    destruct (Z.odd _); do 2 f_equal; rewrite EF by reflexivity; f_equal; lia.
Qed.
(** a whole block of 2^k entries lies in a slot at least as high *)
Lemma slot_at_least : forall N x kN k, 0 <= x -> in_slot N x kN -> (x / 2 ^ Z.of_nat k + 1) * 2 ^ Z.of_nat k <= N -> (k <= kN)%nat.
Proof.
  intros N x kN k Hx HS HB. destruct (Nat.leb_spec k kN); [assumption|exfalso]. apply in_slot_alt in HS. destruct HS as [HO HX].
  assert (E : x / 2 ^ Z.of_nat (S kN) = N / 2 ^ Z.of_nat (S kN)).
  { rewrite !div_S. rewrite HX. apply odd_half in HO. set (y := N / 2 ^ Z.of_nat kN) in *. symmetry. apply Z.div_unique with 0; lia. }
  assert (E2 : x / 2 ^ Z.of_nat k = N / 2 ^ Z.of_nat k).
  { replace k with (S kN + (k - S kN))%nat by lia. rewrite Nat2Z.inj_add, Z.pow_add_r by lia. rewrite <- !Z.div_div by (pose proof (pow2_pos (S kN)); pose proof (pow2_pos (k - S kN)); lia).
    rewrite E. reflexivity. }
  pose proof (pow2_pos k) as HP. pose proof (Z.mul_succ_div_gt N (2 ^ Z.of_nat k) HP). nia.
Qed.
Lemma opt_eqb_refl : forall x, opt_eqb (Some x) (Some x) = true.
Proof. intros. cbn [opt_eqb]. apply bytes_eqb_refl. Qed.
Lemma opt_eqb_some : forall r x, opt_eqb r (Some x) = true -> r = Some x.
Proof. intros [r|] x E; cbn [opt_eqb] in E; [|discriminate]. destruct (bytes_eqb_spec r x); congruence. Qed.
Lemma kept_32 : forall d hs, all32 hs -> all32 (skipn d hs).
Proof. intros d hs HA. unfold all32 in *. rewrite <- (firstn_skipn d hs) in HA. apply Forall_app in HA. tauto. Qed.
Lemma jslots_root : forall H e rs n k, 0 <= n -> jslots H e 0 n rs -> Z.odd (n / 2 ^ Z.of_nat k) = true -> nth_error rs k = Some (Some (nv H e k (n / 2 ^ Z.of_nat k - 1))).
Proof. intros H e rs n k Hn HS HO. pose proof (jslots_nth H e rs 0 n k Hn HS) as HN. destruct (nth_error rs k) as [[r|]|]; [destruct HN as [_ ->]; reflexivity|congruence|congruence]. Qed.
Lemma climb_wit : forall H e k x ext, digest32 H -> (forall i, length (e i) = 32%nat) -> 0 <= x ->
  climb H (map Some (WitnessesToHashes (wit H e k x)) ++ ext) k (e x) x = Some (nv H e k (x / 2 ^ Z.of_nat k)).
Proof.
  intros H e k x ext HD He Hx. apply climb_more. rewrite <- (pv_wit H e k x).
  pose proof (climb_pv H HD (WitnessesToHashes (wit H e k x)) (e x) x) as HC. assert (EL : length (WitnessesToHashes (wit H e k x)) = k) by (unfold WitnessesToHashes; rewrite map_length, wit_length; reflexivity). rewrite EL in HC.
  rewrite hashes_witness in HC by assumption. apply HC; [|apply He]. unfold all32, WitnessesToHashes.
  pose proof (wit_32 H HD e He k x) as HW. rewrite Forall_forall in *. intros w Hw. apply in_map_iff in Hw. destruct Hw as (w' & <- & Hw). auto.
Qed.

(** ** The roots *)

(** Slot [i] is empty iff bit [i] of the number of entries is 0; otherwise it is the root of the perfect tree over the
    [2^i] entries from [slot_start] on. *)
Definition j_decomposed (H : list Z -> list Z) (hs : list (list Z)) (rs : list (option (list Z))) : Prop :=
  forall i : nat,
    match nth_error rs i with
    | Some (Some r) => Z.testbit (zlen hs) (Z.of_nat i) = true /\
        exists blk, block_at hs (slot_start (zlen hs) (Z.of_nat i)) blk /\ zlen blk = 2 ^ Z.of_nat i /\ perfect H blk r
    | _ => Z.testbit (zlen hs) (Z.of_nat i) = false
    end.

Lemma jslots_decomposed : forall H hs rs, jslots H (seq_of hs) 0 (zlen hs) rs -> j_decomposed H hs rs.
Proof.
  intros H hs rs HS i. pose proof (zlen_nonneg _ hs) as N. pose proof (jslots_nth H (seq_of hs) rs 0 (zlen hs) i N HS) as HN. rewrite testbit_div.
  destruct (nth_error rs i) as [[r|]|]; [|assumption|assumption]. destruct HN as [HO ->]. split; [assumption|]. cbn [Nat.add].
  pose proof (pow2_pos i). pose proof (odd_half _ HO). pose proof (Z.div_pos (zlen hs) (2 ^ Z.of_nat i)). 
  pose proof (Z.div_pos (zlen hs / 2 ^ Z.of_nat i) 2). pose proof (Z.mul_div_le (zlen hs) (2 ^ Z.of_nat i)).
  destruct (perfect_nv H hs i (zlen hs / 2 ^ Z.of_nat i - 1)) as (blk & B1 & B2 & B3); [lia|nia|].
  exists blk. rewrite <- slot_start_odd by assumption. auto.
Qed.

(** Adding never fails.  The accumulator stands for the newest hashes of its history: all of them without a limit on the
    number of roots; with a limit of r roots it never has more, and once it has forgotten any it still has 2^(r-1). *)
Theorem C83_roots_decompose : forall H hs off rsz csz allow, digest32 H -> all32 hs ->
  exists m dropped kept, mta_adds H (fresh off rsz csz allow) hs = Some m /\ hs = dropped ++ kept /\
    j_height m = off + zlen hs /\ j_offset m = off + zlen dropped /\ j_decomposed H kept (j_roots m) /\
    match rsz with
    | Some r => if 0 <? r then zlen (j_roots m) <= r /\ (dropped = [] \/ 2 ^ (r - 1) <= zlen kept) else dropped = []
    | None => dropped = []
    end.
Proof.
  intros H hs off rsz csz allow HD HA. destruct (mta_adds_fresh H HD hs off rsz csz allow HA) as (m & d & E & S1 & (B1 & B2 & B3) & C & D & F & _).
  exists m, (firstn d hs), (skipn d hs). split; [assumption|]. split; [symmetry; apply firstn_skipn|]. split; [assumption|].
  split; [rewrite B2; unfold zlen; rewrite firstn_length; lia|]. split; [apply jslots_decomposed; assumption|].
  unfold positive in D, F. destruct rsz as [r|]; [|rewrite D by reflexivity; reflexivity]. destruct (0 <? r); [|rewrite D by reflexivity; reflexivity].
  destruct (F eq_refl) as (F1 & _ & F3). cbn [num] in *. split; [assumption|]. destruct d; [left; reflexivity|right]. apply F3. discriminate.
Qed.
Print Assumptions C83_roots_decompose.

Definition ex_hs : list (list Z) := map (fun i => toy32 [i]) [1; 2; 3; 4; 5; 6; 7].
Lemma ex_hs_32 : all32 ex_hs.
Proof. repeat constructor. Qed.
Definition shape (rs : list (option (list Z))) : list bool := map (fun o => match o with Some _ => true | None => false end) rs.
Example C83_ex_roots : digest32 toy32 /\ all32 ex_hs /\
  match mta_adds toy32 (fresh 100 None None None) ex_hs with Some m => shape (j_roots m) = [true; true; true] | None => False end /\
  match mta_adds toy32 (fresh 100 (Some 2) None None) ex_hs with Some m => shape (j_roots m) = [true; true] /\ j_offset m = 104 | None => False end.
Proof. split; [exact toy32_digest|]. split; [exact ex_hs_32|]. split; vm_compute; auto. Qed.

(** The roots are those of the accumulator of the Go code over the same hashes. *)
Definition go_roots (H : list Z -> list Z) (a : acc) : list (option (list Z)) := map (option_map (fun nd => fst (node_Hash H nd))) (a_roots a).
Theorem C83_same_roots_as_go : forall H ens off csz allow, digest32 H -> Forall entry_ok ens -> zlen ens < 2 ^ 62 ->
  exists m, mta_adds H (fresh off None csz allow) (map (entry_hash H) ens) = Some m /\ j_roots m = go_roots H (add_entries H new_acc ens).
Proof.
  intros H ens off csz allow HD HE HB. destruct (holds_build H HD ex_store ens HE HB) as [(_ & _ & G) HA].
  destruct (mta_adds_fresh H HD _ off None csz allow HA) as (m & d & E & _ & _ & C & D & _). exists m. split; [assumption|].
  rewrite (D eq_refl) in C. cbn [skipn] in C. unfold go_roots.
  set (e := seq_of (map (entry_hash H) ens)) in *. assert (He : forall i, length (e i) = 32%nat) by (apply seq_of_32; assumption).
  revert C G. generalize (zlen (map (entry_hash H) ens)) as n. generalize 0%nat as i. generalize (a_roots (add_entries H new_acc ens)) as gs. generalize (j_roots m) as rs.
  clear - HD He. induction rs as [|r rs IH]; intros gs i n C G; destruct gs as [|g gs]; cbn [map].
  - reflexivity.
  - cbn [jslots] in C. subst n. destruct g; cbn [slots] in G; [destruct G; discriminate|lia].
  - cbn [slots] in G. subst n. destruct r; cbn [jslots] in C; [destruct C; discriminate|lia].
  - destruct r as [r|], g as [g|]; cbn [slots jslots] in C, G.
    + destruct C as (_ & -> & C), G as (_ & G1 & G). f_equal; [|eapply IH; eassumption]. cbn [option_map]. f_equal. symmetry. apply (node_Hash_spec H HD e He ex_store). assumption.
    + destruct C as (C1 & _), G as ((_ & G1) & _). rewrite <- Z.negb_even, G1 in C1. discriminate.
    + destruct G as (C1 & _), C as ((_ & G1) & _). rewrite <- Z.negb_even, G1 in C1. discriminate.
    + destruct C as (_ & C), G as (_ & G). f_equal. eapply IH; eassumption.
Qed.
Print Assumptions C83_same_roots_as_go.

Example C83_ex_go : Forall entry_ok ex_entries /\ zlen ex_entries < 2 ^ 62 /\ go_roots toy32 (add_entries toy32 new_acc (firstn 5 ex_entries)) <> [].
Proof. split; [exact ex_entries_ok|]. split; [reflexivity|]. vm_compute. discriminate. Qed.

(** ** Witnesses made by the Go code *)
Lemma map_some_app : forall (a b : list (list Z)), map Some (a ++ b) = map Some a ++ map Some b.
Proof. intros. apply map_app. Qed.

(** A witness for the current height is accepted. *)
Theorem C83_go_witness_accepted : forall H st ens off csz allow idx h, digest32 H -> Forall entry_ok ens -> zlen ens < 2 ^ 62 -> 0 <= idx ->
  nth_error (map (entry_hash H) ens) (Z.to_nat idx) = Some h ->
  exists m ws a', mta_adds H (fresh off None csz allow) (map (entry_hash H) ens) = Some m /\ WitnessFor H st (add_entries H new_acc ens) idx = (a', Ok ws) /\
    mta_verify H m (map Some (WitnessesToHashes ws)) h (off + idx + 1) (off + zlen ens) = Ok tt.
Proof.
  intros H st ens off csz allow idx h HD HE HB H0 Hh. destruct (holds_build H HD st ens HE HB) as [G HA].
  destruct (mta_adds_fresh H HD _ off None csz allow HA) as (m & d & E & _ & (B1 & B2 & B3) & C & D & _). rewrite (D eq_refl) in *. cbn [skipn] in C. 
  destruct (nth_seq_of _ idx h H0 Hh) as [<- Hlt]. rewrite zlen_map in *.
  destruct (WitnessFor_spec H HD (seq_of (map (entry_hash H) ens)) (seq_of_32 _ HA) st (zlen ens) _ idx HB ltac:(unfold holds in G; rewrite zlen_map in G; exact G) ltac:(lia)) as (k & a' & S1 & E1 & _).
  exists m, (wit H (seq_of (map (entry_hash H) ens)) k idx), a'. split; [assumption|]. split; [assumption|].
  unfold mta_verify. rewrite B1, Z.eqb_refl. unfold getRoot. rewrite map_length. replace (length (WitnessesToHashes (wit H (seq_of (map (entry_hash H) ens)) k idx))) with k by (unfold WitnessesToHashes; rewrite map_length, wit_length; reflexivity).
  apply in_slot_alt in S1. destruct S1 as [HO HX]. pose proof (zlen_nonneg _ ens).
  rewrite (jslots_root H _ _ _ k (zlen_nonneg _ ens) C HO). cbn [rbind]. unfold verify_root. rewrite B2. replace (off + idx + 1 - 1 - (off + Z.of_nat 0)) with idx by lia.
  pose proof (climb_wit H (seq_of (map (entry_hash H) ens)) k idx [] HD (seq_of_32 _ HA) H0) as HC. rewrite app_nil_r in HC. rewrite HC. rewrite HX, opt_eqb_refl. reflexivity.
Qed.
Print Assumptions C83_go_witness_accepted.

(** A witness made when the tree had more entries is accepted for every entry the accumulator still stands for, when newer
    witnesses are allowed; whatever the limit on the number of roots. *)
Theorem C83_newer_go_witness_accepted : forall H st ens n off rsz csz m idx h, digest32 H -> Forall entry_ok ens -> zlen ens < 2 ^ 62 ->
  let hs := map (entry_hash H) ens in
  mta_adds H (fresh off rsz csz (Some true)) (firstn n hs) = Some m -> (n < length hs)%nat ->
  j_offset m <= off + idx < j_height m -> nth_error hs (Z.to_nat idx) = Some h ->
  exists ws a', WitnessFor H st (add_entries H new_acc ens) idx = (a', Ok ws) /\
    mta_verify H m (map Some (WitnessesToHashes ws)) h (off + idx + 1) (off + zlen ens) = Ok tt.
Proof.
  intros H st ens n off rsz csz m idx h HD HE HB hs EA Hn Hi Hh. destruct (holds_build H HD st ens HE HB) as [G HA]. fold hs in G, HA.
  assert (HA' : all32 (firstn n hs)) by (unfold all32 in *; rewrite <- (firstn_skipn n hs) in HA; apply Forall_app in HA; tauto).
  destruct (mta_adds_fresh H HD (firstn n hs) off rsz csz (Some true) HA') as (m1 & d & E & (A1 & A2 & A3) & (B1 & B2 & B3) & C & D & F & _).
  rewrite EA in E. injection E as E. subst m1. rewrite firstn_length in B3. assert (ZN : zlen (firstn n hs) = Z.of_nat n) by (unfold zlen; rewrite firstn_length; lia).
  assert (Hi0 : 0 <= idx) by lia. assert (HLx : Z.of_nat d <= idx < Z.of_nat n) by lia.
  assert (HL : zlen hs = zlen ens) by (unfold hs; apply zlen_map).
  destruct (nth_seq_of hs idx h Hi0 Hh) as [<- Hlt].
  destruct (WitnessFor_spec H HD (seq_of hs) (seq_of_32 hs HA) st (zlen ens) _ idx HB ltac:(unfold holds in G; rewrite HL in G; exact G) ltac:(lia)) as (kN & a' & S1 & E1 & _).
  exists (wit H (seq_of hs) kN idx), a'. split; [assumption|].
  assert (ZK : zlen (skipn d (firstn n hs)) = Z.of_nat n - Z.of_nat d) by (unfold zlen in *; rewrite skipn_length; lia).
  set (kept := skipn d (firstn n hs)) in *. assert (K32 : all32 kept) by (apply kept_32; assumption).
  destruct (root_idx_top H (seq_of kept) (j_roots m) (zlen kept) (idx - Z.of_nat d) ltac:(lia) C) as (k & R1 & R2).
  assert (R3 : (k < length (j_roots m))%nat).
  { destruct (root_idx_some (j_roots m) _ _ _ R1) as [r Hr]. apply nth_error_Some. congruence. }
  apply in_slot_alt in R2. destruct R2 as [HO HX].
  (* the dropped entries are whole blocks *)
  assert (DQ : exists q, Z.of_nat d = q * 2 ^ Z.of_nat k).
  { destruct (positive rsz) eqn:EP; [|exists 0; rewrite (D eq_refl); lia]. destruct (F eq_refl) as (F1 & (q & F2) & _).
    exists (q * 2 ^ (num rsz - 1 - Z.of_nat k)). rewrite F2. rewrite <- Z.mul_assoc. f_equal. rewrite <- Z.pow_add_r by (unfold zlen in F1; lia). f_equal. lia. }
  destruct DQ as [q DQ]. pose proof (pow2_pos k) as HP.
  assert (XD : (idx - Z.of_nat d) / 2 ^ Z.of_nat k = idx / 2 ^ Z.of_nat k - q).
  { rewrite DQ. replace (idx - q * 2 ^ Z.of_nat k) with (idx + (- q) * 2 ^ Z.of_nat k) by lia. rewrite Z.div_add by lia. lia. }
  assert (BLK : (idx / 2 ^ Z.of_nat k + 1) * 2 ^ Z.of_nat k <= Z.of_nat n).
  { pose proof (Z.mul_div_le (zlen kept) (2 ^ Z.of_nat k) HP). nia. }
  assert (KK : (k <= kN)%nat) by (apply (slot_at_least (zlen ens) idx kN k); [lia|assumption|unfold zlen in *; lia]).
  unfold mta_verify. rewrite B1. replace (off + zlen (firstn n hs) =? off + zlen ens) with false by (unfold zlen in *; lia).
  replace (off + zlen (firstn n hs) <? off + zlen ens) with true by (unfold zlen in *; lia). unfold isAllowNewerWitness. rewrite A3. cbn [negb].
  replace (off + zlen (firstn n hs) <? off + idx + 1) with false by lia. unfold getRootIdxByHeight. rewrite B2.
  replace (off + idx + 1 <=? off + Z.of_nat d) with false by lia. replace (off + idx + 1 - 1 - (off + Z.of_nat d)) with (idx - Z.of_nat d) by lia.
  rewrite R1. cbn [rbind]. unfold getRoot. rewrite (jslots_root H _ _ _ k (zlen_nonneg _ kept) C HO). cbn [rbind]. unfold verify_root.
  (* the first k steps of the witness are a witness for the kept entries *)
  assert (W : wit H (seq_of hs) k idx = wit H (seq_of kept) k (idx - Z.of_nat d)).
  { replace idx with (idx - Z.of_nat d + q * 2 ^ Z.of_nat k) at 1 by lia. rewrite <- wit_shift. apply wit_agree. intros i Hi'. rewrite XD in Hi'.
    assert (0 <= idx / 2 ^ Z.of_nat k - q) by (rewrite <- XD; apply Z.div_pos; lia).
    unfold kept. rewrite seq_of_skip by nia. rewrite DQ. unfold seq_of. rewrite <- (firstn_skipn n hs) at 1. rewrite app_nth1; [reflexivity|].
    rewrite firstn_length. nia. }
  assert (V : seq_of hs idx = seq_of kept (idx - Z.of_nat d)).
  { unfold kept. rewrite seq_of_skip by lia. replace (idx - Z.of_nat d + Z.of_nat d) with idx by lia. unfold seq_of. rewrite <- (firstn_skipn n hs) at 1.
    rewrite app_nth1; [reflexivity|]. rewrite firstn_length. unfold zlen in *. lia. }
  rewrite <- (firstn_skipn k (wit H (seq_of hs) kN idx)), wit_firstn by assumption. unfold WitnessesToHashes. rewrite map_app, map_some_app.
  rewrite W, V. fold (WitnessesToHashes (wit H (seq_of kept) k (idx - Z.of_nat d))).
  rewrite climb_wit by (try apply seq_of_32; try assumption; lia). rewrite HX, opt_eqb_refl. reflexivity.
Qed.
Print Assumptions C83_newer_go_witness_accepted.

(** Five entries in the contract, seven in the relay; the Go code's own VerifyWithAccLength refuses some of these (C22). *)
Example C83_ex_newer : Forall entry_ok ex_entries /\
  (exists m, mta_adds toy32 (fresh 100 (Some 2) None (Some true)) (firstn 5 (map (entry_hash toy32) ex_entries)) = Some m /\
     j_offset m = 102 /\ j_height m = 105) /\
  nth_error (map (entry_hash toy32) ex_entries) 3 = Some (toy32 [4]).
Proof. split; [exact ex_entries_ok|]. split; [|reflexivity]. eexists. split; [vm_compute; reflexivity|]. split; reflexivity. Qed.

(** ** What an accepted witness shows *)
Lemma climb_sound : forall H e ws k h idx q, digest32 H -> (forall i, length (e i) = 32%nat) -> length h = 32%nat ->
  climb H ws k h idx = Some (nv H e k q) -> h = e (q * 2 ^ Z.of_nat k + Z.abs idx mod 2 ^ Z.of_nat k) \/ collides H.
Proof.
  intros H e ws k h idx q HD He Hh E. destruct (climb_inv H HD ws k h idx _ Hh E) as (hvs & A & B & C & _).
  pose proof (hashes_32 hvs idx A) as F. rewrite <- (verify_loop_pv H HD (HashesToWitness hvs idx) zeros64 h eq_refl Hh F) in C.
  pose proof (verify_loop_sound H HD e He (HashesToWitness hvs idx) zeros64 h 0 q eq_refl Hh) as VS.
  rewrite hashes_len, B in VS. cbn [Nat.add] in VS. destruct (VS (eq_sym C)) as [V|]; [left|auto].
  rewrite V. cbn [nv]. f_equal. f_equal. rewrite turns_hashes. unfold zlen. rewrite B. reflexivity.
Qed.

(** A witness for the current height: the hash is one of the entries the accumulator stands for, in the block of the root
    at the witness's length, and the height decides which one only modulo the size of that block. *)
Theorem C83_accepted_is_an_entry : forall H hs off rsz csz allow m ws h height, digest32 H -> all32 hs ->
  mta_adds H (fresh off rsz csz allow) hs = Some m -> length h = 32%nat ->
  mta_verify H m ws h height (j_height m) = Ok tt ->
  exists dropped kept, hs = dropped ++ kept /\ j_offset m = off + zlen dropped /\
    Z.testbit (zlen kept) (zlen ws) = true /\
    let x := slot_start (zlen kept) (zlen ws) + Z.abs (height - 1 - j_offset m) mod 2 ^ zlen ws in
    0 <= x < zlen kept /\ (nth_error kept (Z.to_nat x) = Some h \/ collides H).
Proof.
  intros H hs off rsz csz allow m ws h height HD HA EA Hh HV.
  destruct (mta_adds_fresh H HD hs off rsz csz allow HA) as (m1 & d & E & _ & (B1 & B2 & B3) & C & _). rewrite EA in E. injection E as E. subst m1.
  exists (firstn d hs), (skipn d hs). split; [symmetry; apply firstn_skipn|]. split; [rewrite B2; unfold zlen; rewrite firstn_length; lia|].
  set (kept := skipn d hs) in *. pose proof (kept_32 d hs HA) as K32. fold kept in K32. pose proof (zlen_nonneg _ kept) as N.
  unfold mta_verify in HV. rewrite Z.eqb_refl in HV. unfold getRoot in HV. set (k := length ws) in *. change (zlen ws) with (Z.of_nat k).
  destruct (nth_error (j_roots m) k) as [r|] eqn:EN; [|discriminate]. cbn [rbind] in HV. unfold verify_root in HV.
  destruct (climb H ws k h _) as [g|] eqn:EC; [|discriminate]. destruct (opt_eqb r (Some g)) eqn:EO; [|discriminate]. apply opt_eqb_some in EO. subst r.
  pose proof (jslots_nth H _ _ 0 _ k N C) as HN. rewrite EN in HN. destruct HN as [HO HG]. cbn [Nat.add] in HG. subst g.
  split; [rewrite testbit_div; assumption|]. cbv zeta. rewrite <- slot_start_odd by assumption. pose proof (pow2_pos k) as HP.
  set (y := Z.abs (height - 1 - j_offset m)) in *. pose proof (Z.mod_pos_bound y (2 ^ Z.of_nat k) HP) as HM. pose proof (odd_half _ HO) as HH.
  pose proof (Z.div_pos (zlen kept) (2 ^ Z.of_nat k) N HP). pose proof (Z.mul_div_le (zlen kept) (2 ^ Z.of_nat k) HP).
  assert (HR : 0 <= (zlen kept / 2 ^ Z.of_nat k - 1) * 2 ^ Z.of_nat k + y mod 2 ^ Z.of_nat k < zlen kept).
  { set (m0 := zlen kept / 2 ^ Z.of_nat k) in *. assert (1 <= m0) by lia. nia. }
  split; [assumption|].
  destruct (climb_sound H _ ws k h _ _ HD (seq_of_32 kept K32) Hh EC) as [V|]; [left|auto]. apply seq_of_nth; assumption.
Qed.
Print Assumptions C83_accepted_is_an_entry.

(** When the height is one of those of that block, the hash is the entry at that height. *)
Theorem C83_accepted_at_its_height : forall H hs off rsz csz allow m ws h height, digest32 H -> all32 hs ->
  mta_adds H (fresh off rsz csz allow) hs = Some m -> length h = 32%nat ->
  mta_verify H m ws h height (j_height m) = Ok tt ->
  let n := j_height m - j_offset m in let x := height - 1 - j_offset m in
  slot_start n (zlen ws) <= x < slot_start n (zlen ws) + 2 ^ zlen ws ->
  nth_error hs (Z.to_nat (height - 1 - off)) = Some h \/ collides H.
Proof.
  intros H hs off rsz csz allow m ws h height HD HA EA Hh HV n x Hx.
  assert (HH : j_height m = off + zlen hs).
  { destruct (mta_adds_fresh H HD hs off rsz csz allow HA) as (m1 & d & E & _ & (B1 & _) & _). rewrite EA in E. injection E as E. subst m1. assumption. }
  destruct (C83_accepted_is_an_entry H hs off rsz csz allow m ws h height HD HA EA Hh HV) as (dropped & kept & E1 & E2 & E3 & E4).
  assert (EN : n = zlen kept) by (subst n; rewrite HH, E2, E1, zlen_app; lia). rewrite EN in Hx. cbv zeta in E4. fold x in E4.
  assert (ES : slot_start (zlen kept) (zlen ws) + Z.abs x mod 2 ^ zlen ws = x).
  { assert (S0 : 0 <= slot_start (zlen kept) (zlen ws)).
    { unfold slot_start. pose proof (Z.div_pos (zlen kept) (2 ^ (zlen ws + 1)) (zlen_nonneg _ kept) ltac:(apply Z.pow_pos_nonneg; pose proof (zlen_nonneg _ ws); lia)).
      pose proof (Z.pow_pos_nonneg 2 (zlen ws + 1) ltac:(lia) ltac:(pose proof (zlen_nonneg _ ws); lia)). nia. }
    rewrite Z.abs_eq by lia. assert (EM : exists q, slot_start (zlen kept) (zlen ws) = q * 2 ^ zlen ws).
    { unfold slot_start. exists (2 * (zlen kept / 2 ^ (zlen ws + 1))). rewrite Z.pow_add_r by (pose proof (zlen_nonneg _ ws); lia). lia. }
    destruct EM as [q EM]. rewrite EM in *. replace (x mod 2 ^ zlen ws) with (x - q * 2 ^ zlen ws); [lia|]. apply Z.mod_unique with q; lia. }
  rewrite ES in E4. destruct E4 as (R & [E4|E4]); [left|auto]. rewrite E1, nth_error_app2; [|unfold zlen in *; lia].
  rewrite <- E4. f_equal. subst x. unfold zlen in *. lia.
Qed.
Print Assumptions C83_accepted_at_its_height.

(** A newer witness: the hash is the entry at that height, which is one the accumulator stands for. *)
Theorem C83_newer_is_the_entry : forall H hs off rsz csz allow m ws h height at_, digest32 H -> all32 hs ->
  mta_adds H (fresh off rsz csz allow) hs = Some m -> length h = 32%nat -> j_height m < at_ ->
  mta_verify H m ws h height at_ = Ok tt ->
  allow = Some true /\ j_offset m < height <= j_height m /\ (nth_error hs (Z.to_nat (height - 1 - off)) = Some h \/ collides H).
Proof.
  intros H hs off rsz csz allow m ws h height at_ HD HA EA Hh Hat HV.
  destruct (mta_adds_fresh H HD hs off rsz csz allow HA) as (m1 & d & E & (A1 & A2 & A3) & (B1 & B2 & B3) & C & _). rewrite EA in E. injection E as E. subst m1.
  unfold mta_verify in HV. replace (j_height m =? at_) with false in HV by lia. replace (j_height m <? at_) with true in HV by lia.
  unfold isAllowNewerWitness in HV. rewrite A3 in HV. destruct allow as [[|]|]; cbn [negb] in HV; try discriminate. split; [reflexivity|].
  destruct (Z.ltb_spec (j_height m) height); [discriminate|]. unfold getRootIdxByHeight in HV. destruct (Z.leb_spec height (j_offset m)); [discriminate|]. split; [lia|].
  set (kept := skipn d hs) in *. pose proof (kept_32 d hs HA) as K32. fold kept in K32. set (x := height - 1 - j_offset m) in *.
  assert (ZK : zlen kept = zlen hs - Z.of_nat d) by (unfold kept, zlen; rewrite skipn_length; lia).
  destruct (root_idx_top H (seq_of kept) (j_roots m) (zlen kept) x ltac:(lia) C) as (k & R1 & R2). rewrite R1 in HV. cbn [rbind] in HV.
  apply in_slot_alt in R2. destruct R2 as [HO HX]. unfold getRoot in HV. rewrite (jslots_root H _ _ _ k (zlen_nonneg _ kept) C HO) in HV. cbn [rbind] in HV.
  unfold verify_root in HV. destruct (climb H ws k h x) as [g|] eqn:EC; [|discriminate]. 
  match type of HV with (if opt_eqb ?r _ then _ else _) = _ => destruct (opt_eqb r (Some g)) eqn:EO; [|discriminate] end.
  apply opt_eqb_some in EO. injection EO as EO. rewrite <- EO in EC.
  destruct (climb_sound H _ ws k h x _ HD (seq_of_32 kept K32) Hh EC) as [V|]; [left|auto].
  rewrite <- HX, Z.abs_eq in V by lia. pose proof (pow2_pos k) as HP. pose proof (Z.div_mod x (2 ^ Z.of_nat k) ltac:(lia)) as DM.
  replace (x / 2 ^ Z.of_nat k * 2 ^ Z.of_nat k + x mod 2 ^ Z.of_nat k) with x in V by lia.
  unfold kept in V. rewrite seq_of_skip in V by lia. replace (height - 1 - off) with (x + Z.of_nat d) by lia. apply seq_of_nth; [lia|assumption].
Qed.
Print Assumptions C83_newer_is_the_entry.

Example C83_ex_sound : exists m ws a', mta_adds toy32 (fresh 100 None None (Some true)) ex_hs = Some m /\
  WitnessFor toy32 ex_store (add_entries toy32 new_acc ex_entries) 2 = (a', Ok ws) /\ length ws = 2%nat /\
  mta_verify toy32 m (map Some (WitnessesToHashes ws)) (toy32 [3]) 103 107 = Ok tt /\
  mta_verify toy32 m (map Some (WitnessesToHashes ws)) (toy32 [3]) 103 108 = Ok tt.
Proof. eexists. eexists. eexists. split; [vm_compute; reflexivity|]. split; [vm_compute; reflexivity|]. split; [reflexivity|]. split; vm_compute; reflexivity. Qed.

(** ** Older witnesses: the cache *)
Lemma ring_has : forall csz hs cache idx h, all32 hs -> positive csz = true -> ring csz hs cache idx ->
  exists c, cache = Some c /\ (existsb (fun v => opt_eqb v (Some h)) c = true <-> In h (skipn (length hs - Z.to_nat (num csz)) hs)).
Proof.
  intros csz hs cache idx h HA HP HR. unfold ring in HR. rewrite HP in HR. destruct HR as (c & -> & E1 & _ & E2). exists c. split; [reflexivity|].
  set (n := num csz) in *. assert (N0 : 0 < n) by (subst n; unfold positive in HP; destruct csz; [cbn [num]; lia|discriminate]).
  rewrite existsb_exists. split.
  - intros (v & Hv & EV). apply opt_eqb_some in EV. subst v. apply In_nth with (d := None) in Hv. destruct Hv as (i & Hi & EI).
    specialize (E2 (Z.of_nat i) ltac:(unfold zlen in E1; lia)). rewrite Nat2Z.id in E2. rewrite EI in E2.
    destruct (Z.ltb_spec (Z.of_nat i) (zlen hs)); [|discriminate]. injection E2 as E2.
    pose proof (Z.div_mod (zlen hs - 1 - Z.of_nat i) n ltac:(lia)) as DM. pose proof (Z.mod_pos_bound (zlen hs - 1 - Z.of_nat i) n N0) as MB.
    pose proof (Z.div_pos (zlen hs - 1 - Z.of_nat i) n ltac:(lia) N0).
    set (j := Z.of_nat i + n * ((zlen hs - 1 - Z.of_nat i) / n)) in *.
    assert (Hj : nth_error hs (Z.to_nat j) = Some h) by (apply seq_of_nth; [lia|assumption]).
    rewrite <- (firstn_skipn (length hs - Z.to_nat n) hs) in Hj at 1. rewrite nth_error_app2 in Hj by (rewrite firstn_length; unfold zlen in *; lia).
    apply nth_error_In in Hj. assumption.
  - intros Hin. apply In_nth_error in Hin. destruct Hin as [p Hp]. set (s := (length hs - Z.to_nat n)%nat) in *.
    assert (Hj : nth_error hs (s + p) = Some h).
    { rewrite <- (firstn_skipn s hs). rewrite nth_error_app2 by (rewrite firstn_length; lia). rewrite <- Hp. f_equal. rewrite firstn_length. lia. }
    assert (HL : (s + p < length hs)%nat) by (apply nth_error_Some; congruence). set (j := Z.of_nat (s + p)).
    pose proof (Z.div_mod j n ltac:(lia)) as DM. pose proof (Z.mod_pos_bound j n N0) as MB. 
    exists (nth (Z.to_nat (j mod n)) c None). split; [apply nth_In; unfold zlen in E1; lia|]. rewrite E2 by lia.
    assert (J0 : 0 <= j) by lia. pose proof (Z.mod_le j n J0 N0) as ML. replace (j mod n <? zlen hs) with true by (unfold zlen; lia).
    replace ((zlen hs - 1 - j mod n) / n) with (j / n) by (apply Z.div_unique with (zlen hs - 1 - j); [unfold zlen; lia|lia]).
    replace (j mod n + n * (j / n)) with j by lia. destruct (nth_seq_of hs j h J0) as [-> _]; [|apply opt_eqb_refl].
    unfold j. rewrite Nat2Z.id. assumption.
Qed.

(** A witness made for an earlier height is not looked at: the hash is accepted iff it is one of the last [c] added, the
    cache's size, and the height given is not too far back. *)
Theorem C83_older_is_cached : forall H hs off rsz c allow m ws h height at_, digest32 H -> all32 hs -> 0 < c ->
  mta_adds H (fresh off rsz (Some c) allow) hs = Some m -> at_ < j_height m ->
  (mta_verify H m ws h height at_ = Ok tt <-> In h (skipn (length hs - Z.to_nat c) hs) /\ j_height m - c <= height).
Proof.
  intros H hs off rsz c allow m ws h height at_ HD HA Hc EA Hat.
  destruct (mta_adds_fresh H HD hs off rsz (Some c) allow HA) as (m1 & d & E & (A1 & A2 & A3) & (B1 & B2 & B3) & _ & _ & _ & R). rewrite EA in E. injection E as E. subst m1.
  unfold mta_verify, isCacheEnabled. replace (j_height m =? at_) with false by lia. replace (j_height m <? at_) with false by lia. rewrite A2.
  assert (HP : positive (Some c) = true) by (cbn [positive]; lia). rewrite HP. cbn [andb num].
  destruct (ring_has (Some c) hs _ _ h HA HP R) as (cc & R1 & R2). cbn [num] in R2. unfold hasCache. rewrite R1.
  destruct (Z.ltb_spec (j_height m - height - 1) c); [|split; [discriminate|intros [_ X]; lia]].
  cbn [rbind]. destruct (existsb _ cc).
  - split; [intros _|reflexivity]. split; [apply R2; reflexivity|lia].
  - split; [discriminate|]. intros [X _]. apply R2 in X. discriminate.
Qed.
Print Assumptions C83_older_is_cached.

Example C83_ex_cache : exists m, mta_adds toy32 (fresh 100 None (Some 2) None) ex_hs = Some m /\
  mta_verify toy32 m [] (toy32 [6]) 106 103 = Ok tt /\ mta_verify toy32 m [] (toy32 [5]) 105 103 = Err 1.
Proof. eexists. split; [vm_compute; reflexivity|]. split; vm_compute; reflexivity. Qed.

(** As the contract builds it (no cache, newer witnesses not allowed) a witness has to be for the current height. *)
Theorem C83_only_for_current_height : forall H hs off rsz m ws h height at_, digest32 H -> all32 hs ->
  mta_adds H (fresh off rsz None None) hs = Some m ->
  mta_verify H m ws h height at_ = (if j_height m =? at_ then mta_verify H m ws h height (j_height m) else if j_height m <? at_ then Err 2 else Err 3).
Proof.
  intros H hs off rsz m ws h height at_ HD HA EA.
  destruct (mta_adds_fresh H HD hs off rsz None None HA) as (m1 & d & E & (A1 & A2 & A3) & _). rewrite EA in E. injection E as E. subst m1.
  destruct (Z.eqb_spec (j_height m) at_) as [->|N]; [reflexivity|]. unfold mta_verify, isCacheEnabled, isAllowNewerWitness. rewrite A2, A3.
  replace (j_height m =? at_) with false by lia. reflexivity.
Qed.
Print Assumptions C83_only_for_current_height.

(** ** What does not hold *)

(** The height given beside a witness for the current height is not checked: with an odd number of entries the last hash is
    accepted for every height, also for those before the first and after the last. *)
Theorem C83_height_checked_refuted : forall H hs h off csz allow, digest32 H -> all32 (hs ++ [h]) -> Z.even (zlen hs) = true ->
  exists m, mta_adds H (fresh off None csz allow) (hs ++ [h]) = Some m /\ forall height, mta_verify H m [] h height (j_height m) = Ok tt.
Proof.
  intros H hs h off csz allow HD HA HE. destruct (mta_adds_fresh H HD _ off None csz allow HA) as (m & d & E & _ & _ & C & D & _). exists m. split; [assumption|].
  intros height. unfold mta_verify. rewrite Z.eqb_refl. cbn [length]. unfold getRoot. rewrite (D eq_refl) in C. cbn [skipn] in C.
  pose proof (zlen_nonneg _ (hs ++ [h])) as N. assert (ZA : zlen (hs ++ [h]) = zlen hs + 1) by (unfold zlen; rewrite app_length; cbn [length]; lia).
  rewrite (jslots_root H _ _ _ 0 N C); change (2 ^ Z.of_nat 0) with 1; rewrite Z.div_1_r.
  - cbn [rbind]. unfold verify_root. cbn [climb nv]. rewrite ZA. replace (zlen hs + 1 - 1) with (zlen hs) by lia. rewrite seq_of_last, opt_eqb_refl. reflexivity.
  - rewrite ZA, Z.odd_add. rewrite <- Z.negb_even, HE. reflexivity.
Qed.
Print Assumptions C83_height_checked_refuted.
Example C83_ex_height : all32 (firstn 6 ex_hs ++ [toy32 [7]]) /\ Z.even (zlen (firstn 6 ex_hs)) = true.
Proof. split; [repeat constructor|reflexivity]. Qed.

(** With a limit on the number of roots a witness for the current height from a tree without that limit is refused once
    entries were forgotten. *)
Theorem C83_limited_go_witness_refuted : exists m ws a', mta_adds toy32 (fresh 0 (Some 2) None None) (firstn 4 ex_hs) = Some m /\
  WitnessFor toy32 ex_store (add_entries toy32 new_acc (firstn 4 ex_entries)) 3 = (a', Ok ws) /\
  j_offset m <= 3 < j_height m /\ nth_error ex_hs 3 = Some (toy32 [4]) /\
  mta_verify toy32 m (map Some (WitnessesToHashes ws)) (toy32 [4]) 4 4 = Err 1.
Proof.
  eexists. eexists. eexists. split; [vm_compute; reflexivity|]. split; [vm_compute; reflexivity|]. split; [cbn [j_offset j_height]; lia|].
  split; [reflexivity|]. vm_compute. reflexivity.
Qed.
Print Assumptions C83_limited_go_witness_refuted.

(** Setting a limit later: ensureRoots never ends when one of the roots to be dropped is empty ... *)
Definition set_rootSize (m : jmta) (r : option Z) : jmta :=
  JMta (j_height m) (j_roots m) (j_offset m) r (j_cacheSize m) (j_cache m) (j_allow m) (j_cacheIdx m).
Theorem C83_ensureRoots_ends_refuted : exists m, mta_adds toy32 (fresh 0 None None None) (firstn 4 ex_hs) = Some m /\
  forall fuel, ensureRoots fuel (set_rootSize m (Some 2)) = None.
Proof.
  eexists. split; [vm_compute; reflexivity|]. intros fuel. unfold ensureRoots, set_rootSize, isRootSizeLimitEnabled.
  cbn [j_rootSize positive num j_roots j_offset]. change (0 <? 2) with true. 
  match goal with |- context [2 <? zlen ?l] => change (2 <? zlen l) with true end. cbn [andb]. cbn [length].
  change (3 - Z.to_nat 2)%nat with 1%nat.
  match goal with |- context [drop_loop fuel ?l 1 0] => assert (E : forall f, drop_loop f l 1 0 = None) by (induction f; cbn [drop_loop nth_error]; [reflexivity|assumption]) end.
  rewrite E. reflexivity.
Qed.
Print Assumptions C83_ensureRoots_ends_refuted.

(** ... and otherwise puts the remaining roots on the wrong levels: they do not stand for the last entries, and the
    witness of an entry that should be kept is refused. *)
Theorem C83_ensureRoots_keeps_refuted : exists m m' ws a', mta_adds toy32 (fresh 0 None None (Some true)) (firstn 3 ex_hs) = Some m /\
  ensureRoots 10 (set_rootSize m (Some 1)) = Some m' /\ j_offset m' = 1 /\ j_height m' = 3 /\
  ~ j_decomposed toy32 (skipn 1 (firstn 3 ex_hs)) (j_roots m') /\
  WitnessFor toy32 ex_store (add_entries toy32 new_acc (firstn 4 ex_entries)) 1 = (a', Ok ws) /\
  mta_verify toy32 m (map Some (WitnessesToHashes ws)) (toy32 [2]) 2 4 = Ok tt /\
  mta_verify toy32 m' (map Some (WitnessesToHashes ws)) (toy32 [2]) 2 4 = Err 1.
Proof.
  eexists. eexists. eexists. eexists. split; [vm_compute; reflexivity|]. split; [vm_compute; reflexivity|]. split; [reflexivity|]. split; [reflexivity|]. split.
  - intros X. specialize (X 0%nat). cbn [nth_error j_roots] in X. destruct X as [X _]. discriminate.
  - split; [vm_compute; reflexivity|]. split; vm_compute; reflexivity.
Qed.
Print Assumptions C83_ensureRoots_keeps_refuted.

(** Making the cache smaller keeps the oldest hashes. *)
Definition set_cacheSize (m : jmta) (c : option Z) : jmta :=
  JMta (j_height m) (j_roots m) (j_offset m) (j_rootSize m) c (j_cache m) (j_allow m) (j_cacheIdx m).
Theorem C83_ensureCache_keeps_newest_refuted : exists m m', mta_adds toy32 (fresh 0 None (Some 4) None) ex_hs = Some m /\
  ensureCache (set_cacheSize m (Some 2)) = Some m' /\
  hasCache m' (toy32 [4]) = Ok true /\ hasCache m' (toy32 [7]) = Ok false.
Proof. eexists. eexists. split; [vm_compute; reflexivity|]. split; [vm_compute; reflexivity|]. split; vm_compute; reflexivity. Qed.
Print Assumptions C83_ensureCache_keeps_newest_refuted.

(** [fresh] is what the constructor and ensureCache make. *)
Theorem C83_fresh : forall off rsz csz allow,
  fresh off None None None = new_mta off /\
  ensureCache (JMta off [] off rsz csz None allow None) = Some (fresh off rsz csz allow).
Proof.
  intros. split; [reflexivity|]. unfold ensureCache, fresh, isCacheEnabled. cbn [j_cacheSize j_cache j_height j_roots j_offset j_rootSize j_allow j_cacheIdx].
  destruct (positive csz); reflexivity.
Qed.
Print Assumptions C83_fresh.
