(** Theorems about the Merkle tree accumulator: C20-C26. *)
From Coq Require Import String Ascii ZArith List Bool Lia.
From Coq Require Import ZifyBool.
From Verif Require Import Base L_Base M_IntConv M_Rlp M_Codec M_Mta S_Mta L_Mta L_Mta2 L_Mta3 L_Mta4 L_Mta5 L_Mta6.
Import ListNotations.
Open Scope Z_scope.

(** ** A concrete hash and a concrete record format for the examples *)
Fixpoint le_bytes (n : nat) (v : Z) : list Z := match n with O => [] | S m => v mod 256 :: le_bytes m (v / 256) end.
Definition toy32 (x : list Z) : list Z := le_bytes 32 (fold_left (fun a b => (a * 65537 + b + 1) mod (2 ^ 255 - 19)) x 7).
Lemma le_bytes_length : forall n v, length (le_bytes n v) = n.
Proof. induction n; intros; cbn [le_bytes length]; [reflexivity|]. rewrite IHn. reflexivity. Qed.
Lemma le_bytes_ok : forall n v, bytes_ok (le_bytes n v).
Proof. induction n; intros; cbn [le_bytes]; constructor; [unfold is_byte; apply Z.mod_pos_bound; lia|apply IHn]. Qed.
Lemma toy32_digest : digest32 toy32.
Proof. intros x. apply le_bytes_length. Qed.
Lemma zlen_map : forall A B (f : A -> B) l, zlen (map f l) = zlen l.
Proof. intros. unfold zlen. rewrite map_length. reflexivity. Qed.
Definition ex_entries : list entry := map (fun i => EData [i]) [1; 2; 3; 4; 5; 6; 7].
Definition ex_store : store := fun _ => [].
Lemma ex_entries_ok : Forall entry_ok ex_entries.
Proof. repeat constructor. Qed.

Definition toy_jenc (hs : list (list Z)) (txt : list Z) : list Z := zlen hs :: concat (map (fun h => zlen h :: h) hs) ++ txt.
Fixpoint toy_dec (n : nat) (l : list Z) : option (list (list Z) * list Z) :=
  match n with
  | O => Some ([], l)
  | S n' => match l with
            | [] => None
            | k :: l' => match toy_dec n' (skipn (Z.to_nat k) l') with
                         | Some (hs, t) => Some (firstn (Z.to_nat k) l' :: hs, t)
                         | None => None
                         end
            end
  end.
Definition toy_jdec (l : list Z) : option (list (list Z) * list Z) := match l with [] => None | n :: l' => toy_dec (Z.to_nat n) l' end.
Lemma toy_json : good_json toy_jenc toy_jdec.
Proof.
  intros hs txt. split; [|discriminate]. unfold toy_jdec, toy_jenc, zlen at 1. rewrite Nat2Z.id.
  induction hs as [|h hs IH]; [reflexivity|]. cbn [length toy_dec map concat app]. unfold zlen at 1 3. rewrite Nat2Z.id.
  rewrite <- app_assoc. rewrite skipn_app, skipn_all, Nat.sub_diag. cbn [skipn app]. rewrite IH.
  rewrite firstn_app, firstn_all, Nat.sub_diag. cbn [firstn]. rewrite app_nil_r. reflexivity.
Qed.

(** ** C20: the roots are the binary decomposition of the length *)

(** Slot [i] is empty iff bit [i] of the number of entries is 0; otherwise it is the root of the perfect tree
    over the [2^i] entries starting at [slot_start]. *)
Definition decomposed (H : list Z -> list Z) (hs : list (list Z)) (a : acc) : Prop :=
  a_length a = zlen hs /\
  forall i : nat,
    match nth_error (a_roots a) i with
    | Some (Some nd) => Z.testbit (zlen hs) (Z.of_nat i) = true /\
        exists blk, block_at hs (slot_start (zlen hs) (Z.of_nat i)) blk /\ zlen blk = 2 ^ Z.of_nat i /\
          perfect H blk (fst (node_Hash H nd))
    | _ => Z.testbit (zlen hs) (Z.of_nat i) = false
    end.

Lemma holds_decomposed : forall H st hs a, digest32 H -> all32 hs -> holds H st hs a -> decomposed H hs a.
Proof.
  intros H st hs a HD HA HI. split; [apply HI|]. intros i.
  pose proof (root_of_slot H HD (seq_of hs) (seq_of_32 hs HA) st (zlen hs) a i HI) as HR. rewrite testbit_div.
  destruct (nth_error (a_roots a) i) as [[nd|]|]; [|assumption|assumption].
  destruct HR as (HO & _ & ->). split; [assumption|]. pose proof (pow2_pos i). pose proof (zlen_nonneg _ hs).
  pose proof (odd_half _ HO). pose proof (Z.div_pos (zlen hs) (2 ^ Z.of_nat i)).
  pose proof (Z.div_pos (zlen hs / 2 ^ Z.of_nat i) 2).
  pose proof (Z.mul_div_le (zlen hs) (2 ^ Z.of_nat i)).
  destruct (perfect_nv H hs i (zlen hs / 2 ^ Z.of_nat i - 1)) as (blk & B1 & B2 & B3); [lia|nia|].
  exists blk. rewrite <- slot_start_odd by assumption. auto.
Qed.

Theorem C20_binary_decomposition : forall H ens, digest32 H -> Forall entry_ok ens -> zlen ens < 2 ^ 62 ->
  decomposed H (map (entry_hash H) ens) (add_entries H new_acc ens).
Proof.
  intros H ens HD HE HB. destruct (holds_build H HD ex_store ens HE HB) as [H1 H2]. eapply holds_decomposed; eauto.
Qed.
Print Assumptions C20_binary_decomposition.

Example C20_ex : digest32 toy32 /\ Forall entry_ok ex_entries /\ zlen ex_entries < 2 ^ 62 /\
  map (fun o => match o with Some _ => true | None => false end) (a_roots (add_entries toy32 new_acc (firstn 5 ex_entries))) = [true; false; true].
Proof. split; [exact toy32_digest|]. split; [exact ex_entries_ok|]. split; [reflexivity|]. vm_compute. reflexivity. Qed.

(** The same after any history in which additions, queries, verifications, flushes (complete or stopped at any
    write) and restarts alternate. *)
Theorem C20_any_history : forall H jenc jdec key ops, digest32 H -> good_json jenc jdec -> length key <> 32%nat ->
  Forall op_ok ops -> adds ops < 2 ^ 62 ->
  let m := mrun H jenc jdec key ops in decomposed H (mc_cur m) (mc_acc m) \/ collides H.
Proof.
  intros H jenc jdec key ops HD HJ Hk HF HB. cbv zeta. destruct (minv_run H HD jenc jdec key ops HJ Hk HF HB) as [(M1 & M2 & _)|]; [left|auto].
  eapply holds_decomposed; eauto.
Qed.
Print Assumptions C20_any_history.

Definition ex_ops : list op :=
  map OAdd (firstn 3 ex_entries) ++ [OFlush 100; OAdd (EData [4]); OFlush 1; ORestart; OWitness 1; OAdd (EData [9]); OAdd (EHash (toy32 [8]))].
Example C20_any_history_ex : good_json toy_jenc toy_jdec /\ Forall op_ok ex_ops /\ adds ex_ops < 2 ^ 62 /\
  mc_cur (mrun toy32 toy_jenc toy_jdec [1] ex_ops) = map toy32 [[1]; [2]; [3]; [9]; [8]] /\
  mc_saved (mrun toy32 toy_jenc toy_jdec [1] ex_ops) = map toy32 [[1]; [2]; [3]].
Proof. split; [exact toy_json|]. split; [repeat constructor|]. split; [reflexivity|]. split; vm_compute; reflexivity. Qed.

(** ** C21: witnesses verify *)

Definition sibling_sides (ws : list witness) : list bool := map (fun w => w_dir w =? Left) ws.
(** The entry a witness points at in an accumulator of [n] entries. *)
Definition points_at (n : Z) (ws : list witness) : Z := slot_start n (zlen ws) + path_position (sibling_sides ws).

Lemma points_at_wit : forall H e n x k, 0 <= n -> in_slot n x k -> points_at n (wit H e k x) = x.
Proof.
  intros H e n x k Hn HS. unfold points_at, zlen. rewrite wit_length. change (sibling_sides (wit H e k x)) with (turns (wit H e k x)).
  rewrite turns_wit. apply in_slot_alt in HS. destruct HS as [HO HX]. rewrite <- slot_start_odd by assumption. rewrite <- HX.
  pose proof (Z.div_mod x (2 ^ Z.of_nat k)). pose proof (pow2_pos k). lia.
Qed.

Lemma holds_witness : forall H st hs a idx h, digest32 H -> all32 hs -> zlen hs < 2 ^ 62 -> holds H st hs a -> 0 <= idx ->
  nth_error hs (Z.to_nat idx) = Some h ->
  exists ws a', WitnessFor H st a idx = (a', Ok ws) /\ points_at (zlen hs) ws = idx /\
    Verify H a ws h = Ok tt /\ Verify H a' ws h = Ok tt /\ holds H st hs a'.
Proof.
  intros H st hs a idx h HD HA HB HI H0 Hh. destruct (nth_seq_of hs idx h H0 Hh) as [<- Hlt].
  destruct (WitnessFor_spec H HD (seq_of hs) (seq_of_32 hs HA) st (zlen hs) a idx HB HI ltac:(lia)) as (k & a' & S1 & E1 & I1).
  exists (wit H (seq_of hs) k idx), a'. split; [assumption|]. split; [apply points_at_wit; [apply zlen_nonneg|assumption]|].
  split; [eapply Verify_wit; eauto using seq_of_32|]. split; [eapply Verify_wit; eauto using seq_of_32|assumption].
Qed.

Theorem C21_every_witness_verifies : forall H st ens idx h, digest32 H -> Forall entry_ok ens -> zlen ens < 2 ^ 62 -> 0 <= idx ->
  nth_error (map (entry_hash H) ens) (Z.to_nat idx) = Some h ->
  let a := add_entries H new_acc ens in
  exists ws a', WitnessFor H st a idx = (a', Ok ws) /\ points_at (zlen ens) ws = idx /\ Verify H a ws h = Ok tt /\ Verify H a' ws h = Ok tt.
Proof.
  intros H st ens idx h HD HE HB H0 Hh. cbv zeta. destruct (holds_build H HD st ens HE HB) as [H1 H2].
  destruct (holds_witness H st _ _ idx h HD H2 ltac:(rewrite zlen_map; assumption) H1 H0 Hh) as (ws & a' & E1 & E2 & E3 & E4 & _).
  exists ws, a'. rewrite zlen_map in E2. auto.
Qed.
Print Assumptions C21_every_witness_verifies.

Theorem C21_any_history : forall H jenc jdec key ops idx h, digest32 H -> good_json jenc jdec -> length key <> 32%nat ->
  Forall op_ok ops -> adds ops < 2 ^ 62 -> 0 <= idx ->
  let m := mrun H jenc jdec key ops in
  nth_error (mc_cur m) (Z.to_nat idx) = Some h ->
  (exists ws a', WitnessFor H (mc_store m) (mc_acc m) idx = (a', Ok ws) /\ points_at (zlen (mc_cur m)) ws = idx /\
     Verify H (mc_acc m) ws h = Ok tt /\ Verify H a' ws h = Ok tt) \/ collides H.
Proof.
  intros H jenc jdec key ops idx h HD HJ Hk HF HB H0 m Hh.
  destruct (minv_run H HD jenc jdec key ops HJ Hk HF HB) as [(M1 & M2 & _)|]; [left|auto]. fold m in M1, M2.
  assert (HL : zlen (mc_cur m) < 2 ^ 62).
  { clear - HB. subst m. unfold mrun. 
    assert (G : forall ops mm, Z.max (zlen (mc_cur (fold_left (mstep H jenc jdec key) ops mm))) (zlen (mc_saved (fold_left (mstep H jenc jdec key) ops mm))) <= Z.max (zlen (mc_cur mm)) (zlen (mc_saved mm)) + adds ops).
    { induction ops0 as [|o ops0 IH]; intros mm; cbn [fold_left adds]; [lia|].
      pose proof (IH (mstep H jenc jdec key mm o)). pose proof (mstep_len H jenc jdec key mm o) as HL. cbv zeta in HL. destruct o; cbn [adds] in *; lia. }
    pose proof (G ops machine0) as HG. cbn [machine0 mc_cur mc_saved] in HG. change (zlen []) with 0 in HG. lia. }
  destruct (holds_witness H (mc_store m) _ _ idx h HD M2 HL M1 H0 Hh) as (ws & a' & E1 & E2 & E3 & E4 & _). exists ws, a'. auto.
Qed.
Print Assumptions C21_any_history.

Theorem C21_out_of_range : forall H st ens idx, zlen ens < 2 ^ 62 -> Forall entry_ok ens -> digest32 H -> zlen ens <= idx ->
  let a := add_entries H new_acc ens in WitnessFor H st a idx = (a, Err 3).
Proof.
  intros H st ens idx HB HE HD Hi. cbv zeta. destruct (holds_build H HD st ens HE HB) as [(_ & HL & _) _]. rewrite zlen_map in HL.
  unfold WitnessFor. rewrite HL. replace (zlen ens <=? idx) with true by lia. reflexivity.
Qed.
Print Assumptions C21_out_of_range.

(** The witness returned by an addition verifies in the accumulator after the addition. *)
Theorem C21_addition_witness : forall H ens en, digest32 H -> Forall entry_ok (ens ++ [en]) -> zlen ens < 2 ^ 62 - 1 ->
  let a := add_entries H new_acc ens in
  let '(a', ws) := match en with EHash h => AddHash H a h | EData d => AddData H a d end in
  Verify H a' ws (entry_hash H en) = Ok tt /\ points_at (zlen ens + 1) ws = zlen ens /\ snd (WitnessFor H ex_store a' (zlen ens)) = Ok ws.
Proof.
  intros H ens en HD HE HB. cbv zeta.
  assert (EL : zlen (ens ++ [en]) < 2 ^ 62) by (rewrite zlen_app; change (zlen [_]) with 1; lia).
  destruct (holds_build H HD ex_store (ens ++ [en]) HE EL) as [H1 H2].
  pose proof HE as HE'. apply Forall_app in HE'. destruct HE' as [HE1 HE2]. inversion HE2 as [|? ? HEn _]; subst.
  destruct (holds_build H HD ex_store ens HE1 ltac:(lia)) as [H3 H4].
  assert (EF : add_entries H new_acc (ens ++ [en]) = add_entry H (add_entries H new_acc ens) en) by (unfold add_entries; rewrite fold_left_app; reflexivity).
  rewrite EF in H1. set (a := add_entries H new_acc ens) in *.
  set (nd := match en with EHash h => HNode h | EData d => DNode stateDirty [] d end).
  assert (EA : match en with EHash h => AddHash H a h | EData d => AddData H a d end = AddNode H a nd) by (destruct en; reflexivity).
  rewrite EA. assert (EB : add_entry H a en = fst (AddNode H a nd)) by (destruct en; reflexivity). rewrite EB in H1. clear EF EA EB.
  set (hs := map (entry_hash H) (ens ++ [en])) in *.
  assert (EZ : zlen hs = zlen ens + 1) by (unfold hs; rewrite zlen_map, zlen_app; reflexivity).
  assert (Ehs : hs = map (entry_hash H) ens ++ [entry_hash H en]) by (unfold hs; rewrite map_app; reflexivity).
  assert (Elast : seq_of hs (zlen ens) = entry_hash H en) by (rewrite Ehs, <- (zlen_map _ _ (entry_hash H) ens); apply seq_of_last).
  assert (HS : inv H (seq_of hs) ex_store (zlen ens) a).
  { rewrite Ehs. rewrite <- (zlen_map _ _ (entry_hash H) ens). eapply inv_agree; [|exact H3]. intros j Hj. apply seq_of_app. assumption. }
  assert (HT : tree H (seq_of hs) ex_store 0 (zlen ens) nd).
  { unfold nd. destruct en as [h|d]; cbn [tree nv stored]; rewrite Elast; cbn [entry_hash]; auto. split; [reflexivity|]. split; [reflexivity|congruence]. }
  destruct HS as (_ & HL & HS). pose proof (zlen_nonneg _ ens).
  destruct (addNode_witness H HD (seq_of hs) (seq_of_32 hs H2) ex_store (a_roots a) 0 (zlen ens) nd (zlen ens) ltac:(lia) HS HT) as (k & E1 & E2);
    [change (2 ^ Z.of_nat 0) with 1; lia|].
  cbn [wit] in E1. unfold AddNode in *. destruct (addNode H (a_roots a) nd []) as [rs w]. cbn [fst snd] in *. subst w.
  split; [|split].
  - rewrite <- Elast. eapply Verify_wit; [assumption|apply seq_of_32; assumption|exact H1|]. rewrite EZ. assumption.
  - apply points_at_wit; [lia|assumption].
  - destruct (WitnessFor_spec H HD (seq_of hs) (seq_of_32 hs H2) ex_store (zlen hs) _ (zlen ens) ltac:(lia) H1 ltac:(lia)) as (k' & a' & S1 & E & _).
    rewrite E. cbn [snd]. rewrite EZ in S1. rewrite (in_slot_unique (zlen ens + 1) (zlen ens) k' k ltac:(lia) S1 E2). reflexivity.
Qed.
Print Assumptions C21_addition_witness.

Example C21_ex : nth_error (map (entry_hash toy32) ex_entries) (Z.to_nat 4) = Some (toy32 [5]) /\
  (exists w1, snd (WitnessFor toy32 ex_store (add_entries toy32 new_acc ex_entries) 4) = Ok [w1]) /\
  zlen ex_entries <= 7 /\ Forall entry_ok (firstn 3 ex_entries ++ [EData [4]]).
Proof. split; [vm_compute; reflexivity|]. split; [eexists; vm_compute; reflexivity|]. split; [discriminate|repeat constructor]. Qed.

(** A negative index is not rejected: it is answered with the witness of entry 0. *)
Theorem C21_negative_index_refuted : forall H st ens idx, digest32 H -> Forall entry_ok ens -> 0 < zlen ens < 2 ^ 62 -> idx < 0 ->
  let a := add_entries H new_acc ens in WitnessFor H st a idx = WitnessFor H st a 0 /\ exists ws, snd (WitnessFor H st a idx) = Ok ws.
Proof.
  intros H st ens idx HD HE HB Hi. cbv zeta. destruct (holds_build H HD st ens HE ltac:(lia)) as [H1 H2].
  pose proof H1 as H1'. unfold holds in H1'. rewrite zlen_map in H1'.
  assert (E : WitnessFor H st (add_entries H new_acc ens) idx = WitnessFor H st (add_entries H new_acc ens) 0)
    by (eapply WitnessFor_neg; [|exact H1'|lia|assumption]; lia).
  split; [assumption|]. rewrite E.
  destruct (WitnessFor_spec H HD _ (seq_of_32 _ H2) st (zlen ens) _ 0 ltac:(lia) H1' ltac:(lia)) as (k & a' & _ & -> & _).
  eexists. reflexivity.
Qed.
Print Assumptions C21_negative_index_refuted.

(** ** C22: older lengths *)

(** A witness cut for length [A] verifies against the accumulator that holds just the first [A] entries ... *)
Theorem C22_cut_witness_verifies_old : forall H st ens idx A h, digest32 H -> Forall entry_ok ens -> zlen ens < 2 ^ 62 ->
  0 <= idx < A -> A <= zlen ens -> nth_error (map (entry_hash H) ens) (Z.to_nat idx) = Some h ->
  exists ws, snd (WitnessForWithAccLength H st (add_entries H new_acc ens) idx A) = Ok ws /\ points_at A ws = idx /\
    Verify H (add_entries H new_acc (firstn (Z.to_nat A) ens)) ws h = Ok tt.
Proof.
  intros H st ens idx A h HD HE HB Hi HA Hh. destruct (holds_build H HD st ens HE HB) as [H1 H2].
  set (hs := map (entry_hash H) ens) in *. destruct (nth_seq_of hs idx h ltac:(lia) Hh) as [<- Hlt].
  assert (EZ : zlen hs = zlen ens) by (unfold hs; apply zlen_map).
  destruct (WitnessForWithAccLength_spec H HD (seq_of hs) (seq_of_32 hs H2) st (zlen hs) _ idx A ltac:(lia) H1 ltac:(lia) ltac:(lia)) as (k & a' & S1 & E1 & _).
  exists (wit H (seq_of hs) k idx). rewrite E1. split; [reflexivity|]. split; [apply points_at_wit; [lia|assumption]|].
  assert (HE' : Forall entry_ok (firstn (Z.to_nat A) ens)).
  { apply Forall_forall. intros x Hx. rewrite Forall_forall in HE. apply HE. rewrite <- (firstn_skipn (Z.to_nat A) ens). apply in_or_app. auto. }
  assert (HB' : zlen (firstn (Z.to_nat A) ens) = A) by (unfold zlen in *; rewrite firstn_length; lia).
  destruct (holds_build H HD st _ HE' ltac:(lia)) as [H3 _]. rewrite <- firstn_map in H3. fold hs in H3.
  apply (holds_prefix H st hs A) in H3; [|lia]. eapply Verify_wit; eauto using seq_of_32.
Qed.
Print Assumptions C22_cut_witness_verifies_old.

(** ... and the newer accumulator accepts it when told the length it was made for. *)
Theorem C22_old_witness_verifies_new : forall H st ens idx A h ws, digest32 H -> Forall entry_ok ens -> zlen ens < 2 ^ 62 ->
  0 <= idx < A -> A <= zlen ens -> nth_error (map (entry_hash H) ens) (Z.to_nat idx) = Some h ->
  snd (WitnessFor H st (add_entries H new_acc (firstn (Z.to_nat A) ens)) idx) = Ok ws ->
  snd (VerifyWithAccLength H st (add_entries H new_acc ens) ws h A) = Ok tt /\
  snd (WitnessForWithAccLength H st (add_entries H new_acc ens) idx A) = Ok ws.
Proof.
  intros H st ens idx A h ws HD HE HB Hi HA Hh HW. destruct (holds_build H HD st ens HE HB) as [H1 H2].
  set (hs := map (entry_hash H) ens) in *. destruct (nth_seq_of hs idx h ltac:(lia) Hh) as [<- Hlt].
  assert (EZ : zlen hs = zlen ens) by (unfold hs; apply zlen_map).
  assert (HE' : Forall entry_ok (firstn (Z.to_nat A) ens)).
  { apply Forall_forall. intros x Hx. rewrite Forall_forall in HE. apply HE. rewrite <- (firstn_skipn (Z.to_nat A) ens). apply in_or_app. auto. }
  assert (HB' : zlen (firstn (Z.to_nat A) ens) = A) by (unfold zlen in *; rewrite firstn_length; lia).
  destruct (holds_build H HD st _ HE' ltac:(lia)) as [H3 _]. rewrite <- firstn_map in H3. fold hs in H3.
  apply (holds_prefix H st hs A) in H3; [|lia].
  destruct (WitnessFor_spec H HD (seq_of hs) (seq_of_32 hs H2) st A _ idx ltac:(lia) H3 ltac:(lia)) as (k & a' & S1 & E1 & _).
  rewrite E1 in HW. cbn [snd] in HW. assert (ws = wit H (seq_of hs) k idx) by congruence. subst ws. split.
  - destruct (VerifyOld_complete H HD (seq_of hs) (seq_of_32 hs H2) st (zlen hs) _ idx A k ltac:(lia) H1 ltac:(lia) ltac:(lia) S1) as (a2 & -> & _). reflexivity.
  - destruct (WitnessForWithAccLength_spec H HD (seq_of hs) (seq_of_32 hs H2) st (zlen hs) _ idx A ltac:(lia) H1 ltac:(lia) ltac:(lia)) as (k2 & a2 & S2 & E2 & _).
    rewrite E2. cbn [snd]. rewrite (in_slot_unique A idx k2 k ltac:(lia) S2 S1). reflexivity.
Qed.
Print Assumptions C22_old_witness_verifies_new.

Example C22_ex : 0 <= 4 < 5 /\ 5 <= zlen ex_entries /\ nth_error (map (entry_hash toy32) ex_entries) (Z.to_nat 4) = Some (toy32 [5]) /\
  snd (WitnessFor toy32 ex_store (add_entries toy32 new_acc (firstn (Z.to_nat 5) ex_entries)) 4) = Ok [] /\
  exists w, snd (WitnessFor toy32 ex_store (add_entries toy32 new_acc ex_entries) 4) = Ok [w].
Proof. split; [lia|]. split; [discriminate|]. split; [reflexivity|]. split; [vm_compute; reflexivity|]. eexists. vm_compute. reflexivity. Qed.

(** The opposite direction, an older accumulator given a newer witness, is also offered by
    VerifyWithAccLength.  Missing here: lengths with an empty slot above the entry's slot, for which it is
    false (next theorem). *)
Lemma slots_low : forall H e st rs i m, 0 <= m -> slots H e st i m rs -> rs <> [] -> 2 ^ Z.of_nat (length rs - 1) <= m.
Proof.
  intros H e st. induction rs as [|x rs IH]; intros i m Hm HS Hne; [congruence|]. cbn [length]. rewrite Nat.sub_succ, Nat.sub_0_r.
  destruct rs as [|y rs].
  - destruct x; cbn [slots] in HS; change (2 ^ Z.of_nat (length [])) with 1; [destruct HS as [HO _]; destruct (Z.eq_dec m 0) as [->|]; [discriminate|lia]|lia].
  - assert (HS' : slots H e st (S i) (m / 2) (y :: rs)) by (destruct x; cbn [slots] in HS |- *; tauto).
    specialize (IH _ _ (Z.div_pos m 2 Hm ltac:(lia)) HS' ltac:(discriminate)). cbn [length] in *. rewrite Nat.sub_succ, Nat.sub_0_r in IH.
    rewrite pow_S. pose proof (Z.mul_div_le m 2 ltac:(lia)). lia.
Qed.

Theorem C22_new_witness_verifies_old_partial : forall H st ens idx n h ws wsn, digest32 H -> Forall entry_ok ens -> zlen ens < 2 ^ 62 ->
  0 <= idx < n -> n <= zlen ens -> nth_error (map (entry_hash H) ens) (Z.to_nat idx) = Some h ->
  snd (WitnessFor H st (add_entries H new_acc (firstn (Z.to_nat n) ens)) idx) = Ok wsn ->
  (forall j, zlen wsn < j -> 2 ^ j <= n -> Z.testbit n j = true) ->
  snd (WitnessFor H st (add_entries H new_acc ens) idx) = Ok ws ->
  snd (VerifyWithAccLength H st (add_entries H new_acc (firstn (Z.to_nat n) ens)) ws h (zlen ens)) = Ok tt.
Proof.
  intros H st ens idx n h ws wsn HD HE HB Hi HA Hh HWn HT HW. destruct (holds_build H HD st ens HE HB) as [H1 H2].
  set (hs := map (entry_hash H) ens) in *. destruct (nth_seq_of hs idx h ltac:(lia) Hh) as [<- Hlt].
  assert (EZ : zlen hs = zlen ens) by (unfold hs; apply zlen_map).
  assert (HE' : Forall entry_ok (firstn (Z.to_nat n) ens)).
  { apply Forall_forall. intros x Hx. rewrite Forall_forall in HE. apply HE. rewrite <- (firstn_skipn (Z.to_nat n) ens). apply in_or_app. auto. }
  assert (HB' : zlen (firstn (Z.to_nat n) ens) = n) by (unfold zlen in *; rewrite firstn_length; lia).
  destruct (holds_build H HD st _ HE' ltac:(lia)) as [H3 _]. rewrite <- firstn_map in H3. fold hs in H3.
  apply (holds_prefix H st hs n) in H3; [|lia].
  destruct (WitnessFor_spec H HD (seq_of hs) (seq_of_32 hs H2) st (zlen hs) _ idx ltac:(lia) H1 ltac:(lia)) as (kA & a' & S1 & E1 & _).
  rewrite E1 in HW. cbn [snd] in HW. assert (ws = wit H (seq_of hs) kA idx) by congruence. subst ws.
  destruct (WitnessFor_spec H HD (seq_of hs) (seq_of_32 hs H2) st n _ idx ltac:(lia) H3 ltac:(lia)) as (k & a2 & S2 & E2 & _).
  rewrite E2 in HWn. cbn [snd] in HWn. assert (wsn = wit H (seq_of hs) k idx) by congruence. subst wsn.
  rewrite EZ in *. destruct (Z.eq_dec n (zlen ens)) as [->|].
  - destruct (VerifyOld_complete H HD (seq_of hs) (seq_of_32 hs H2) st (zlen ens) _ idx (zlen ens) kA ltac:(lia) H3 ltac:(lia) ltac:(lia) S1) as (a3 & -> & _). reflexivity.
  - rewrite (VerifyNewer_complete H HD (seq_of hs) (seq_of_32 hs H2) st n _ idx (zlen ens) k kA H3 Hi ltac:(lia) S2 S1); [reflexivity|].
    intros j Hj. rewrite <- testbit_div. apply HT; [unfold zlen; rewrite wit_length; lia|].
    destruct H3 as (_ & _ & H3). eapply Z.le_trans; [|apply (slots_low H (seq_of hs) st (a_roots (add_entries H new_acc (firstn (Z.to_nat n) ens))) 0 n); [lia|exact H3|]].
    + apply Z.pow_le_mono_r; lia.
    + intros E. rewrite E in Hj. cbn in Hj. lia.
Qed.
Print Assumptions C22_new_witness_verifies_old_partial.

Example C22_partial_ex : (exists w, snd (WitnessFor toy32 ex_store (add_entries toy32 new_acc (firstn (Z.to_nat 3) ex_entries)) 1) = Ok [w]) /\ (forall j, 1 < j -> 2 ^ j <= 3 -> Z.testbit 3 j = true).
Proof.
  split; [eexists; vm_compute; reflexivity|]. intros j Hj Hp. exfalso. assert (2 ^ 2 <= 2 ^ j) by (apply Z.pow_le_mono_r; lia). lia.
Qed.

(** Length 5 has an empty slot 1.  A genuine witness for entry 4 made at length 7 is rejected. *)
Theorem C22_new_witness_verifies_old_refuted : exists H ens idx n h ws,
  digest32 H /\ Forall entry_ok ens /\ 0 <= idx < n /\ n <= zlen ens /\
  nth_error (map (entry_hash H) ens) (Z.to_nat idx) = Some h /\
  snd (WitnessFor H ex_store (add_entries H new_acc ens) idx) = Ok ws /\
  snd (VerifyWithAccLength H ex_store (add_entries H new_acc (firstn (Z.to_nat n) ens)) ws h (zlen ens)) = Err 5.
Proof.
  exists toy32, ex_entries, 4, 5, (toy32 [5]). eexists. split; [exact toy32_digest|]. split; [exact ex_entries_ok|]. split; [lia|]. split; [discriminate|].
  split; [vm_compute; reflexivity|]. split; [vm_compute; reflexivity|]. vm_compute. reflexivity.
Qed.
Print Assumptions C22_new_witness_verifies_old_refuted.

(** ** C23: verification cannot be fooled *)

Lemma holds_sound : forall H st hs a ws h, digest32 H -> all32 hs -> holds H st hs a -> length h = 32%nat -> Verify H a ws h = Ok tt ->
  let x := points_at (zlen hs) ws in 0 <= x < zlen hs /\ (nth_error hs (Z.to_nat x) = Some h \/ collides H).
Proof.
  intros H st hs a ws h HD HA HI Hh HV. cbv zeta.
  destruct (Verify_sound H HD (seq_of hs) (seq_of_32 hs HA) st _ _ ws h HI Hh HV) as (S1 & S2 & S3).
  assert (EX : points_at (zlen hs) ws = (zlen hs / 2 ^ Z.of_nat (length ws) - 1) * 2 ^ Z.of_nat (length ws) + path_position (turns ws)).
  { unfold points_at. apply in_slot_alt in S1. destruct S1 as [HO _]. unfold zlen at 2. rewrite <- slot_start_odd by assumption. reflexivity. }
  rewrite EX. split; [assumption|]. destruct S3 as [->|]; [left|auto]. apply seq_of_nth; auto.
Qed.

Theorem C23_accepted_is_genuine : forall H ens ws h, digest32 H -> Forall entry_ok ens -> zlen ens < 2 ^ 62 -> length h = 32%nat ->
  Verify H (add_entries H new_acc ens) ws h = Ok tt ->
  let x := points_at (zlen ens) ws in
  0 <= x < zlen ens /\ (nth_error (map (entry_hash H) ens) (Z.to_nat x) = Some h \/ collides H).
Proof.
  intros H ens ws h HD HE HB Hh HV. cbv zeta. destruct (holds_build H HD ex_store ens HE HB) as [H1 H2].
  pose proof (holds_sound H ex_store _ _ ws h HD H2 H1 Hh HV) as HS. cbv zeta in HS. rewrite zlen_map in HS. exact HS.
Qed.
Print Assumptions C23_accepted_is_genuine.

Theorem C23_any_history : forall H jenc jdec key ops ws h, digest32 H -> good_json jenc jdec -> length key <> 32%nat ->
  Forall op_ok ops -> adds ops < 2 ^ 62 -> length h = 32%nat ->
  let m := mrun H jenc jdec key ops in
  Verify H (mc_acc m) ws h = Ok tt ->
  (let x := points_at (zlen (mc_cur m)) ws in 0 <= x < zlen (mc_cur m) /\ nth_error (mc_cur m) (Z.to_nat x) = Some h) \/ collides H.
Proof.
  intros H jenc jdec key ops ws h HD HJ Hk HF HB Hh m HV.
  destruct (minv_run H HD jenc jdec key ops HJ Hk HF HB) as [(M1 & M2 & _)|]; [|auto]. fold m in M1, M2.
  destruct (holds_sound H _ _ _ ws h HD M2 M1 Hh HV) as [A [B|]]; auto.
Qed.
Print Assumptions C23_any_history.

(** The entry a witness made for length [A] claims to be about. *)
Definition claimed_entry (A : Z) (ws : list witness) : Z :=
  2 ^ zlen ws * (A / 2 ^ zlen ws - 1) + path_position (sibling_sides ws).

Lemma claimed_height : forall ws A, (length ws <= 62)%nat -> lr ws -> 0 <= A < 2 ^ 62 -> GetHeightFromWitness ws A = claimed_entry A ws.
Proof. intros ws A HL HR HA. rewrite GetHeight_spec by assumption. unfold claimed_entry, zlen, sibling_sides. fold (turns ws). lia. Qed.

(** Verification with a given length, older or newer than the accumulator: the accepted hash is always one of
    the entries, and it is the claimed one whenever the claim is a valid position. *)
Theorem C23_accepted_with_length : forall H st ens ws h A, digest32 H -> Forall entry_ok ens -> zlen ens < 2 ^ 62 -> length h = 32%nat ->
  Forall (fun w => w_dir w = Left \/ w_dir w = Right) ws -> (length ws <= 62)%nat -> 0 <= A < 2 ^ 62 ->
  snd (VerifyWithAccLength H st (add_entries H new_acc ens) ws h A) = Ok tt ->
  (In h (map (entry_hash H) ens) /\
   (0 <= claimed_entry A ws -> nth_error (map (entry_hash H) ens) (Z.to_nat (claimed_entry A ws)) = Some h)) \/ collides H.
Proof.
  intros H st ens ws h A HD HE HB Hh HR HL HA HV. destruct (holds_build H HD st ens HE HB) as [H1 H2].
  set (hs := map (entry_hash H) ens) in *. assert (EZ : zlen hs = zlen ens) by (unfold hs; apply zlen_map).
  destruct (VerifyWithAccLength H st (add_entries H new_acc ens) ws h A) as [a' r] eqn:EV. cbn [snd] in HV. subst r.
  pose proof (zlen_nonneg _ ens).
  assert (G : (exists x, 0 <= x < zlen hs /\ (h = seq_of hs x \/ collides H)) /\
     (0 <= GetHeightFromWitness ws A -> GetHeightFromWitness ws A < zlen hs /\ (h = seq_of hs (GetHeightFromWitness ws A) \/ collides H))).
  { destruct (Z.lt_trichotomy A (zlen hs)) as [HC|[HC|HC]].
    - destruct (VerifyOld_sound H HD (seq_of hs) (seq_of_32 hs H2) st (zlen hs) _ ws h A a' ltac:(lia) H1 Hh HR ltac:(lia) EV) as (_ & G1 & G2). auto.
    - unfold VerifyWithAccLength in EV. assert (EL : a_length (add_entries H new_acc ens) = zlen hs) by apply H1. rewrite EL, HC, Z.eqb_refl in EV.
      assert (EV' : Verify H (add_entries H new_acc ens) ws h = Ok tt) by congruence.
      destruct (Verify_sound H HD (seq_of hs) (seq_of_32 hs H2) st _ _ ws h H1 Hh EV') as (S1 & S2 & S3).
      rewrite GetHeight_spec by (assumption || lia). rewrite HC. split; [eexists; split; [exact S2|exact S3]|]. intros _. split; [lia|exact S3].
    - destruct (Z.eq_dec (zlen ens) 0) as [E0|].
      + exfalso. destruct ens; [|rewrite zlen_cons in E0; pose proof (zlen_nonneg _ ens); lia].
        unfold VerifyWithAccLength in EV. cbn [add_entries fold_left new_acc a_length a_roots] in EV. rewrite EZ in HC.
        change (zlen (@nil entry)) with 0 in HC. replace (0 =? A) with false in EV by lia.
        destruct (0 <=? _); [discriminate|]. replace (A <? 0) with false in EV by lia. cbn [length Nat.sub old_depth_loop] in EV.
        unfold cut in EV. cbn [Nat.leb rbind] in EV. discriminate.
      + destruct (VerifyNewer_sound H HD (seq_of hs) (seq_of_32 hs H2) st (zlen hs) _ ws h A a' ltac:(lia) H1 Hh HR HL ltac:(lia) EV) as (_ & G1 & G2). auto. }
  rewrite claimed_height in G by assumption. destruct G as [(x & Hx & [->|]) G2]; [|auto].
  destruct (Z.leb_spec 0 (claimed_entry A ws)) as [Hc|Hc].
  - destruct (G2 Hc) as [G3 [G4|]]; [left|auto]. split; [|intros _; apply seq_of_nth; [lia|exact G4]].
    eapply nth_error_In. apply seq_of_nth; [exact Hx|reflexivity].
  - left. split; [|lia]. eapply nth_error_In. apply seq_of_nth; [exact Hx|reflexivity].
Qed.
Print Assumptions C23_accepted_with_length.

Example C23_ex : exists ws, snd (WitnessFor toy32 ex_store (add_entries toy32 new_acc (firstn 3 ex_entries)) 1) = Ok ws /\
  length (toy32 [2]) = 32%nat /\
  Verify toy32 (add_entries toy32 new_acc (firstn 3 ex_entries)) ws (toy32 [2]) = Ok tt /\ zlen ws = 1 /\
  Forall (fun w => w_dir w = Left \/ w_dir w = Right) ws /\ claimed_entry 3 ws = 1 /\
  snd (VerifyWithAccLength toy32 ex_store (add_entries toy32 new_acc ex_entries) ws (toy32 [2]) 3) = Ok tt.
Proof.
  eexists. split; [vm_compute; reflexivity|]. split; [reflexivity|]. split; [vm_compute; reflexivity|]. split; [reflexivity|].
  split; [repeat constructor|]. split; vm_compute; reflexivity.
Qed.

(** The hash length is not checked: an over-long "hash" that extends a genuine one is accepted. *)
Theorem C23_overlong_hash_refuted : exists H ens ws h, digest32 H /\ Forall entry_ok ens /\
  Verify H (add_entries H new_acc ens) ws h = Ok tt /\ ~ In h (map (entry_hash H) ens).
Proof.
  exists toy32, (firstn 3 ex_entries), [{| w_dir := Right; w_hash := toy32 [2] |}], (toy32 [1] ++ [9]).
  split; [exact toy32_digest|]. split; [repeat constructor|]. split; [vm_compute; reflexivity|].
  intros HI. assert (HL : Forall (fun h => length h = 32%nat) (map (entry_hash toy32) (firstn 3 ex_entries))) by (apply entries_32; [exact toy32_digest|repeat constructor]).
  rewrite Forall_forall in HL. specialize (HL _ HI). rewrite app_length in HL. unfold toy32 in HL. rewrite le_bytes_length in HL. discriminate.
Qed.
Print Assumptions C23_overlong_hash_refuted.

(** ** C24: persistence *)

Lemma slots_hashes : forall H e st st' rs rs' i m, digest32 H -> (forall j, length (e j) = 32%nat) -> 0 <= m ->
  slots H e st i m rs -> slots H e st' i m rs' ->
  map (option_map (fun x => fst (node_Hash H x))) rs = map (option_map (fun x => fst (node_Hash H x))) rs'.
Proof.
  intros H e st st' rs rs' i m HD He. revert rs' i m. induction rs as [|x rs IH]; intros rs' i m Hm HS HS'.
  - cbn in HS. subst m. destruct rs' as [|[y|] rs']; cbn [slots] in HS'; [reflexivity|destruct HS' as [X _]; discriminate|lia].
  - pose proof (Z.div_pos m 2 Hm ltac:(lia)) as Hm'. destruct rs' as [|y rs']; [cbn in HS'; subst m; destruct x; cbn [slots] in HS; [destruct HS as [X _]; discriminate|lia]|].
    cbn [map]. destruct x as [x|], y as [y|]; cbn [slots option_map] in *.
    + destruct HS as (_ & T1 & S1). destruct HS' as (_ & T2 & S2).
      destruct (node_Hash_spec H HD e He _ _ _ _ T1) as [-> _]. destruct (node_Hash_spec H HD e He _ _ _ _ T2) as [-> _].
      f_equal. eapply IH; eauto.
    + destruct HS as (O1 & _). destruct HS' as ((_ & O2) & _). rewrite <- Z.negb_even, O2 in O1. discriminate.
    + destruct HS' as (O1 & _). destruct HS as ((_ & O2) & _). rewrite <- Z.negb_even, O2 in O1. discriminate.
    + destruct HS as (_ & S1). destruct HS' as (_ & S2). f_equal. eapply IH; eauto.
Qed.

Lemma run_len : forall H jenc jdec key ops, 
  let m := mrun H jenc jdec key ops in zlen (mc_cur m) <= adds ops /\ zlen (mc_saved m) <= adds ops.
Proof.
  intros H jenc jdec key ops. cbv zeta. unfold mrun.
  assert (G : forall ops mm, Z.max (zlen (mc_cur (fold_left (mstep H jenc jdec key) ops mm))) (zlen (mc_saved (fold_left (mstep H jenc jdec key) ops mm))) <= Z.max (zlen (mc_cur mm)) (zlen (mc_saved mm)) + adds ops).
  { induction ops0 as [|o ops0 IH]; intros mm; cbn [fold_left adds]; [lia|].
    pose proof (IH (mstep H jenc jdec key mm o)). pose proof (mstep_len H jenc jdec key mm o) as HL. cbv zeta in HL. destruct o; cbn [adds] in *; lia. }
  pose proof (G ops machine0) as HG. cbn [machine0 mc_cur mc_saved] in HG. change (zlen []) with 0 in HG. lia.
Qed.

(** A completed flush followed by recovery: same length, same roots, same answer to every query. *)
Theorem C24_flush_then_recover : forall H jenc jdec key ops writes w' a', digest32 H -> good_json jenc jdec -> length key <> 32%nat ->
  Forall op_ok ops -> adds ops < 2 ^ 62 ->
  let m := mrun H jenc jdec key ops in
  acc_Flush H jenc key {| w_store := mc_store m; w_budget := writes |} (mc_acc m) = (w', a', true) ->
  (exists r, acc_Recover jdec key (w_store w') = Ok r /\ a_length r = a_length (mc_acc m) /\
     map (option_map (fun x => fst (node_Hash H x))) (a_roots r) = map (option_map (fun x => fst (node_Hash H x))) (a_roots (mc_acc m)) /\
     forall idx, snd (WitnessFor H (w_store w') r idx) = snd (WitnessFor H (mc_store m) (mc_acc m) idx)) \/ collides H.
Proof.
  intros H jenc jdec key ops writes w' a' HD HJ Hk HF HB m EF.
  destruct (minv_run H HD jenc jdec key ops HJ Hk HF HB) as [(M1 & M2 & _)|]; [|auto]. fold m in M1, M2.
  destruct (run_len H jenc jdec key ops) as [HL _]. fold m in HL.
  destruct (acc_Flush_ok H HD (seq_of (mc_cur m)) (seq_of_32 _ M2) jenc jdec key {| w_store := mc_store m; w_budget := writes |} _ (zlen (mc_cur m)) w' a' HJ Hk ltac:(lia) M1 EF)
    as [(F1 & r & F2 & F3 & _)|]; [left|auto].
  exists r. split; [assumption|]. pose proof F3 as (_ & L3 & S3). pose proof M1 as (N & L1 & S1). split; [congruence|]. split.
  - eapply slots_hashes; eauto using seq_of_32.
  - intros idx. apply (WitnessFor_same H HD (seq_of (mc_cur m)) (seq_of_32 _ M2) _ _ (zlen (mc_cur m))); auto. lia.
Qed.
Print Assumptions C24_flush_then_recover.

(** A flush that stops at any write leaves the last completed flush recoverable: the record is the same and
    every query on the recovered accumulator is answered as before. *)
Theorem C24_interrupted_flush : forall H jenc jdec key ops writes w' a', digest32 H -> good_json jenc jdec -> length key <> 32%nat ->
  Forall op_ok ops -> adds ops < 2 ^ 62 ->
  let m := mrun H jenc jdec key ops in
  acc_Flush H jenc key {| w_store := mc_store m; w_budget := writes |} (mc_acc m) = (w', a', false) ->
  (exists r, acc_Recover jdec key (mc_store m) = Ok r /\ acc_Recover jdec key (w_store w') = Ok r /\ decomposed H (mc_saved m) r /\
     forall idx, snd (WitnessFor H (w_store w') r idx) = snd (WitnessFor H (mc_store m) r idx)) \/ collides H.
Proof.
  intros H jenc jdec key ops writes w' a' HD HJ Hk HF HB m EF.
  destruct (minv_run H HD jenc jdec key ops HJ Hk HF HB) as [(M1 & M2 & (r & R1 & R2) & M4)|]; [|auto]. fold m in M1, M2, R1, R2, M4.
  destruct (run_len H jenc jdec key ops) as [_ HL]. fold m in HL.
  destruct (acc_Flush_fail H HD (seq_of (mc_cur m)) (seq_of_32 _ M2) jenc key {| w_store := mc_store m; w_budget := writes |} _ (zlen (mc_cur m)) w' a' Hk M1 EF)
    as [(X & F1)|]; [|auto]. cbn [w_store] in X.
  destruct (inv_ext H _ _ _ _ _ X R2) as [R3|]; [left|auto].
  exists r. split; [assumption|]. split; [unfold acc_Recover in *; rewrite (ext_key H _ _ key HD Hk X); assumption|].
  split; [eapply holds_decomposed; eauto|]. intros idx. apply (WitnessFor_same H HD (seq_of (mc_saved m)) (seq_of_32 _ M4) _ _ (zlen (mc_saved m))); auto. lia.
Qed.
Print Assumptions C24_interrupted_flush.

(** At every point of every history the store recovers to the entries of the last completed flush, and every
    one of them has a verifying witness there. *)
Theorem C24_any_history : forall H jenc jdec key ops, digest32 H -> good_json jenc jdec -> length key <> 32%nat ->
  Forall op_ok ops -> adds ops < 2 ^ 62 ->
  let m := mrun H jenc jdec key ops in
  (exists r, acc_Recover jdec key (mc_store m) = Ok r /\ decomposed H (mc_saved m) r /\
    forall idx h, 0 <= idx -> nth_error (mc_saved m) (Z.to_nat idx) = Some h ->
      exists ws r', WitnessFor H (mc_store m) r idx = (r', Ok ws) /\ Verify H r ws h = Ok tt) \/ collides H.
Proof.
  intros H jenc jdec key ops HD HJ Hk HF HB m.
  destruct (minv_run H HD jenc jdec key ops HJ Hk HF HB) as [(M1 & M2 & (r & R1 & R2) & M4)|]; [left|auto]. fold m in M1, M2, R1, R2, M4.
  destruct (run_len H jenc jdec key ops) as [_ HL]. fold m in HL.
  exists r. split; [assumption|]. split; [eapply holds_decomposed; eauto|].
  intros idx h H0 Hh. destruct (holds_witness H (mc_store m) _ r idx h HD M4 ltac:(lia) R2 H0 Hh) as (ws & a' & E1 & _ & E3 & _). exists ws, a'. auto.
Qed.
Print Assumptions C24_any_history.

(** A flush with enough writes completes. *)
Theorem C24_flush_completes : forall H jenc key st a writes, (roots_size (a_roots a) < writes)%nat ->
  exists w' a', acc_Flush H jenc key {| w_store := st; w_budget := writes |} a = (w', a', true).
Proof.
  intros H jenc key st a writes Hw. unfold acc_Flush.
  destruct (flush_roots_enough H (a_roots a) {| w_store := st; w_budget := writes |}) as (w1 & rs & hs & -> & B); [cbn [w_budget]; lia|].
  cbn [w_budget] in B. unfold wset. destruct (w_budget w1); [lia|]. eexists. eexists. reflexivity.
Qed.
Print Assumptions C24_flush_completes.

(** Flushed at 3 entries, then added a fourth, flush stopped after one write: 3 entries are recovered. *)
Example C24_ex : let ops := map OAdd (firstn 3 ex_entries) ++ [OFlush 100; OAdd (EData [4])] in
  let m := mrun toy32 toy_jenc toy_jdec [1] ops in
  zlen (mc_saved m) = 3 /\ zlen (mc_cur m) = 4 /\
  snd (acc_Flush toy32 toy_jenc [1] {| w_store := mc_store m; w_budget := 1 |} (mc_acc m)) = false /\
  snd (acc_Flush toy32 toy_jenc [1] {| w_store := mc_store m; w_budget := 100 |} (mc_acc m)) = true.
Proof. vm_compute. repeat split. Qed.

(** ** C25: conversions *)

Theorem C25_witness_conversion : forall H st ens idx A ws, digest32 H -> Forall entry_ok ens -> zlen ens < 2 ^ 62 -> 0 <= idx < A -> A <= zlen ens ->
  snd (WitnessForWithAccLength H st (add_entries H new_acc ens) idx A) = Ok ws ->
  HashesToWitness (WitnessesToHashes ws) idx = ws /\ GetHeightFromWitness ws A = idx /\ GetDepthByHeightAndAccLength idx A = length ws.
Proof.
  intros H st ens idx A ws HD HE HB Hi HA HW. destruct (holds_build H HD st ens HE HB) as [H1 H2].
  set (hs := map (entry_hash H) ens) in *. assert (EZ : zlen hs = zlen ens) by (unfold hs; apply zlen_map).
  destruct (WitnessForWithAccLength_spec H HD (seq_of hs) (seq_of_32 hs H2) st (zlen hs) _ idx A ltac:(lia) H1 ltac:(lia) ltac:(lia)) as (k & a' & S1 & E1 & _).
  rewrite E1 in HW. cbn [snd] in HW. assert (ws = wit H (seq_of hs) k idx) by congruence. subst ws.
  split; [apply hashes_witness; lia|]. split; [apply GetHeight_wit; [lia|assumption]|].
  rewrite wit_length. eapply in_slot_unique; [|apply GetDepth_spec; lia|exact S1]. lia.
Qed.
Print Assumptions C25_witness_conversion.

Theorem C25_plain_witness_conversion : forall H st ens idx ws, digest32 H -> Forall entry_ok ens -> zlen ens < 2 ^ 62 -> 0 <= idx < zlen ens ->
  snd (WitnessFor H st (add_entries H new_acc ens) idx) = Ok ws ->
  HashesToWitness (WitnessesToHashes ws) idx = ws /\ GetHeightFromWitness ws (zlen ens) = idx.
Proof.
  intros H st ens idx ws HD HE HB Hi HW. destruct (holds_build H HD st ens HE HB) as [H1 H2].
  set (hs := map (entry_hash H) ens) in *. assert (EZ : zlen hs = zlen ens) by (unfold hs; apply zlen_map).
  destruct (WitnessFor_spec H HD (seq_of hs) (seq_of_32 hs H2) st (zlen hs) _ idx ltac:(lia) H1 ltac:(lia)) as (k & a' & S1 & E1 & _).
  rewrite E1 in HW. cbn [snd] in HW. assert (ws = wit H (seq_of hs) k idx) by congruence. subst ws.
  split; [apply hashes_witness; lia|]. apply GetHeight_wit; [lia|]. rewrite <- EZ. assumption.
Qed.
Print Assumptions C25_plain_witness_conversion.

Example C25_ex : exists ws, snd (WitnessForWithAccLength toy32 ex_store (add_entries toy32 new_acc ex_entries) 2 5) = Ok ws /\ map w_dir ws = [Right; Left].
Proof. eexists. split; vm_compute; reflexivity. Qed.

(** ** C26: the offset accumulator *)

Definition x_add (H : list Z -> list Z) (x : ext) (en : entry) : ext :=
  match en with EHash h => fst (x_AddHash H x h) | EData d => fst (x_AddData H x d) end.
Definition x_adds (H : list Z -> list Z) (offset : Z) (ens : list entry) : ext := fold_left (x_add H) ens (NewExt offset).

Lemma x_adds_acc : forall H offset ens, x_acc (x_adds H offset ens) = add_entries H new_acc ens /\ x_offset (x_adds H offset ens) = offset /\
  x_limit (x_adds H offset ens) = 0.
Proof.
  intros H offset ens. unfold x_adds, add_entries.
  assert (G : forall ens x, x_acc (fold_left (x_add H) ens x) = fold_left (add_entry H) ens (x_acc x) /\ x_offset (fold_left (x_add H) ens x) = x_offset x /\
     x_limit (fold_left (x_add H) ens x) = x_limit x).
  { induction ens0 as [|en ens0 IH]; intros x; [auto|]. cbn [fold_left]. destruct (IH (x_add H x en)) as (-> & -> & ->).
    destruct en; cbn [x_add add_entry]; unfold x_AddHash, x_AddData; destruct (_ H (x_acc x) _) as [a w]; auto. }
  apply (G ens (NewExt offset)).
Qed.

(** Height, witness, node and verification are those of the plain accumulator at index height-1-offset. *)
Theorem C26_shifted_accumulator : forall H st ens offset height at_, digest32 H -> Forall entry_ok ens -> zlen ens < 2 ^ 62 ->
  0 <= offset < 2 ^ 62 ->
  let x := x_adds H offset ens in let a := add_entries H new_acc ens in
  x_Height x = offset + zlen ens /\
  (offset < height <= at_ -> at_ <= offset + zlen ens ->
     exists ws h nd, snd (x_WitnessForAt H st x height at_ offset) = Ok (at_, ws) /\
       snd (WitnessForWithAccLength H st a (height - 1 - offset) (at_ - offset)) = Ok ws /\
       nth_error (map (entry_hash H) ens) (Z.to_nat (height - 1 - offset)) = Some h /\
       snd (x_VerifyAt H st x ws h at_ offset) = Ok tt /\
       x_GetNode st x height = Ok nd /\ fst (node_Hash H nd) = h) /\
  (forall ws h, 0 <= at_ <= offset + zlen ens -> 
     snd (x_VerifyAt H st x ws h at_ offset) = snd (VerifyWithAccLength H st a ws h (at_ - offset))).
Proof.
  intros H st ens offset height at_ HD HE HB Ho. cbv zeta. destruct (x_adds_acc H offset ens) as (EA & EO & _).
  destruct (holds_build H HD st ens HE HB) as [H1 H2]. set (hs := map (entry_hash H) ens) in *.
  assert (EZ : zlen hs = zlen ens) by (unfold hs; apply zlen_map). pose proof (zlen_nonneg _ ens).
  assert (EL : a_length (add_entries H new_acc ens) = zlen ens) by (rewrite <- EZ; apply H1).
  assert (HV : forall ws h, 0 <= at_ <= offset + zlen ens ->
     snd (x_VerifyAt H st (x_adds H offset ens) ws h at_ offset) = snd (VerifyWithAccLength H st (add_entries H new_acc ens) ws h (at_ - offset))).
  { intros ws h Ha. unfold x_VerifyAt. rewrite EO, EA, EL, Z.ltb_irrefl. rewrite i64_small by lia.
    replace (zlen ens <? at_ - offset) with false by lia.
    destruct (VerifyWithAccLength H st (add_entries H new_acc ens) ws h (at_ - offset)); reflexivity. }
  split; [unfold x_Height; rewrite EA, EO, EL, i64_small by lia; lia|]. split; [|exact HV].
  intros Hh Ha. 
  destruct (WitnessForWithAccLength_spec H HD (seq_of hs) (seq_of_32 hs H2) st (zlen hs) _ (height - 1 - offset) (at_ - offset) ltac:(lia) H1 ltac:(lia) ltac:(lia)) as (k & a' & S1 & E1 & _).
  destruct (acc_GetNode_spec H HD (seq_of hs) (seq_of_32 hs H2) st (zlen hs) _ (height - 1 - offset) ltac:(lia) H1 ltac:(lia)) as (nd & G1 & G2).
  exists (wit H (seq_of hs) k (height - 1 - offset)), (seq_of hs (height - 1 - offset)), nd. split; [|split; [|split; [|split; [|split]]]].
  - unfold x_WitnessForAt. rewrite EO, EA, EL, Z.ltb_irrefl. rewrite !i64_small by lia.
    replace (zlen ens <? at_ - offset) with false by lia. rewrite E1. reflexivity.
  - rewrite E1. reflexivity.
  - apply seq_of_nth; [lia|reflexivity].
  - rewrite HV by lia.
    destruct (VerifyOld_complete H HD (seq_of hs) (seq_of_32 hs H2) st (zlen hs) _ (height - 1 - offset) (at_ - offset) k ltac:(lia) H1 ltac:(lia) ltac:(lia) S1) as (a3 & -> & _). reflexivity.
  - unfold x_GetNode. rewrite EO, EA, i64_small by lia. assumption.
  - assumption.
Qed.
Print Assumptions C26_shifted_accumulator.

(** Asking with a height above the current one answers for the current height. *)
Theorem C26_newer_height_is_clamped : forall H st ens offset height at_, digest32 H -> Forall entry_ok ens -> zlen ens < 2 ^ 62 ->
  0 <= offset < 2 ^ 62 -> offset + zlen ens < at_ < 2 ^ 63 ->
  let x := x_adds H offset ens in
  snd (x_WitnessForAt H st x height at_ offset) = snd (x_WitnessForAt H st x height (offset + zlen ens) offset).
Proof.
  intros H st ens offset height at_ HD HE HB Ho Ha. cbv zeta. destruct (x_adds_acc H offset ens) as (EA & EO & _).
  destruct (holds_build H HD st ens HE HB) as [(_ & EL & _) _]. rewrite zlen_map in EL. pose proof (zlen_nonneg _ ens).
  unfold x_WitnessForAt. rewrite EO, EA, EL, Z.ltb_irrefl. rewrite (i64_small (at_ - offset)) by lia.
  rewrite (i64_small (offset + zlen ens - offset)), (i64_small (zlen ens + offset)) by lia.
  replace (zlen ens <? at_ - offset) with true by lia. replace (zlen ens <? offset + zlen ens - offset) with false by lia.
  replace (offset + zlen ens - offset) with (zlen ens) by lia. replace (zlen ens + offset) with (offset + zlen ens) by lia.
  reflexivity.
Qed.
Print Assumptions C26_newer_height_is_clamped.

Theorem C26_offset_mismatch : forall H st x ws h height at_ offset, offset <> x_offset x ->
  (exists c, snd (x_WitnessForAt H st x height at_ offset) = Err c) /\ (exists c, snd (x_VerifyAt H st x ws h at_ offset) = Err c).
Proof.
  intros H st x ws h height at_ offset Hne. unfold x_WitnessForAt, x_VerifyAt.
  destruct (Z.ltb_spec offset (x_offset x)); [split; eexists; reflexivity|].
  destruct (Z.ltb_spec (x_offset x) offset); [split; eexists; reflexivity|]. lia.
Qed.
Print Assumptions C26_offset_mismatch.

(** Flush and recover: with the same offset the accumulator comes back, with any other offset recovery fails. *)
Theorem C26_flush_then_recover : forall H ens offset key st writes w' x', digest32 H -> (forall v, bytes_ok (H v)) ->
  Forall entry_ok ens -> Forall bytes_ok (map (entry_hash H) ens) -> zlen ens < 2 ^ 62 -> 0 <= offset < 2 ^ 62 -> length key <> 32%nat ->
  let x := x_adds H offset ens in
  x_Flush H key {| w_store := st; w_budget := writes |} x = (w', x', true) ->
  (forall y, exists y' r, x_Recover key (w_store w') y = (y', r) /\ x_offset y' = x_offset y /\
     a_length (x_acc y') = zlen ens /\
     map (option_map (fun n => fst (node_Hash H n))) (a_roots (x_acc y')) = map (option_map (fun n => fst (node_Hash H n))) (a_roots (x_acc x)) /\
     (r = Ok tt <-> x_offset y = offset) /\
     (x_offset y = offset -> forall height at_, snd (x_WitnessForAt H (w_store w') y' height at_ offset) = snd (x_WitnessForAt H st x height at_ offset)))
  \/ collides H.
Proof.
  intros H ens offset key st writes w' x' HD HBy HE HBs HB Ho Hk. cbv zeta. intros EF.
  destruct (x_adds_acc H offset ens) as (EA & EO & EM). destruct (holds_build H HD st ens HE HB) as [H1 H2].
  set (hs := map (entry_hash H) ens) in *. assert (EZ : zlen hs = zlen ens) by (unfold hs; apply zlen_map).
  assert (Hb : forall i, bytes_ok (seq_of hs i)).
  { intros i. unfold seq_of. destruct (nth_in_or_default (Z.to_nat i) hs (repeat 0 32)) as [HI|HI]; [|rewrite HI].
    - rewrite Forall_forall in HBs. auto.
    - apply Forall_forall. intros b Hb. apply repeat_spec in Hb. subst. unfold is_byte. lia. }
  destruct (x_Flush_ok H HD HBy (seq_of hs) (seq_of_32 hs H2) Hb key {| w_store := st; w_budget := writes |} (x_adds H offset ens) (zlen hs) w' x' Hk) as [(F1 & F2 & F3)|];
    [lia|rewrite EO; lia|rewrite EM; lia|rewrite EA; exact H1|exact EF| |auto].
  left. intros y. destruct (F3 y) as (r & R1 & R2). rewrite EO in R2. do 2 eexists. split; [exact R2|].
  pose proof R1 as (_ & RL & RS). pose proof H1 as (N & L1 & S1). split; [reflexivity|]. cbn [x_acc with_acc]. split; [congruence|]. split; [|split].
  - rewrite EA. eapply slots_hashes; eauto using seq_of_32.
  - destruct (Z.eqb_spec (x_offset y) offset); [tauto|]. split; [destruct (_ <? _); discriminate|lia].
  - intros EY height at_. unfold x_WitnessForAt. cbn [x_offset x_acc with_acc]. rewrite EY, EO, EA, Z.ltb_irrefl, L1, RL.
    set (A := if zlen hs <? i64 (at_ - offset) then zlen hs else i64 (at_ - offset)). set (idx := i64 (height - 1 - offset)).
    pose proof (WitnessFor_same H HD (seq_of hs) (seq_of_32 hs H2) (w_store w') st (zlen hs) r (add_entries H new_acc ens) idx ltac:(lia) R1 H1) as EW.
    unfold WitnessForWithAccLength. destruct (WitnessFor H (w_store w') r idx) as [a1 r1]. destruct (WitnessFor H st (add_entries H new_acc ens) idx) as [a2 r2].
    cbn [snd] in *. subst r2. reflexivity.
Qed.
Print Assumptions C26_flush_then_recover.

Lemma toy32_bytes : forall v, bytes_ok (toy32 v).
Proof. intros. apply le_bytes_ok. Qed.
Example C26_ex : Forall bytes_ok (map (entry_hash toy32) ex_entries) /\
  let x := x_adds toy32 100 ex_entries in
  x_Height x = 107 /\ snd (x_Flush toy32 [1] {| w_store := ex_store; w_budget := 100 |} x) = true /\
  let w := fst (fst (x_Flush toy32 [1] {| w_store := ex_store; w_budget := 100 |} x)) in
  snd (x_Recover [1] (w_store w) (NewExt 100)) = Ok tt /\ snd (x_Recover [1] (w_store w) (NewExt 99)) = Err 12.
Proof.
  split; [apply Forall_forall; intros h Hh; apply in_map_iff in Hh; destruct Hh as (en & <- & Hin); unfold ex_entries in Hin;
    apply in_map_iff in Hin; destruct Hin as (i & <- & _); apply toy32_bytes|].
  vm_compute. repeat split.
Qed.

(** Verification told a newer height than the accumulator's is clamped as well, so a witness that the plain
    accumulator accepts (same length argument) is rejected by the offset accumulator. *)
Theorem C26_verify_newer_refuted : exists H ens h ws at_ offset, digest32 H /\ Forall entry_ok ens /\
  snd (VerifyWithAccLength H ex_store (add_entries H new_acc ens) ws h (at_ - offset)) = Ok tt /\
  snd (x_VerifyAt H ex_store (x_adds H offset ens) ws h at_ offset) <> Ok tt.
Proof.
  assert (HX : exists ws, snd (WitnessFor toy32 ex_store (add_entries toy32 new_acc (firstn 4 ex_entries)) 1) = Ok ws /\
    snd (VerifyWithAccLength toy32 ex_store (add_entries toy32 new_acc (firstn 3 ex_entries)) ws (toy32 [2]) 4) = Ok tt /\
    snd (x_VerifyAt toy32 ex_store (x_adds toy32 10 (firstn 3 ex_entries)) ws (toy32 [2]) 14 10) = Err 4).
  { eexists. split; [vm_compute; reflexivity|]. split; vm_compute; reflexivity. }
  destruct HX as (ws & _ & E1 & E2). exists toy32, (firstn 3 ex_entries), (toy32 [2]), ws, 14, 10.
  split; [exact toy32_digest|]. split; [repeat constructor|]. split; [exact E1|]. rewrite E2. discriminate.
Qed.
Print Assumptions C26_verify_newer_refuted.
