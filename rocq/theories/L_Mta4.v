(** Lemmas about the accumulator: statements over lists of entries, and histories of operations. *)
From Coq Require Import String Ascii ZArith List Bool Lia.
From Coq Require Import ZifyBool.
From Verif Require Import Base L_Base M_IntConv M_Mta S_Mta L_Mta L_Mta2 L_Mta3.
Import ListNotations.
Open Scope Z_scope.

Inductive entry := EHash (h : list Z) | EData (d : list Z).
Definition entry_hash (H : list Z -> list Z) (en : entry) : list Z := match en with EHash h => h | EData d => H d end.
Definition entry_ok (en : entry) : Prop := match en with EHash h => length h = 32%nat | EData _ => True end.
Definition add_entry (H : list Z -> list Z) (a : acc) (en : entry) : acc :=
  match en with EHash h => fst (AddHash H a h) | EData d => fst (AddData H a d) end.
Definition add_entries (H : list Z -> list Z) (a : acc) (ens : list entry) : acc := fold_left (add_entry H) ens a.

Section Lists.
Context (H : list Z -> list Z) (HD : digest32 H).

Lemma entries_32 : forall ens, Forall entry_ok ens -> all32 (map (entry_hash H) ens).
Proof using HD.
  intros ens HF. unfold all32. induction HF as [|en ens Hen HF IH]; cbn [map]; constructor; [|assumption].
  destruct en; cbn in *; [assumption|apply HD].
Qed.

Lemma holds_entry : forall st hs a en, holds H st hs a -> all32 hs -> entry_ok en -> zlen hs < 2 ^ 62 ->
  holds H st (hs ++ [entry_hash H en]) (add_entry H a en) /\ all32 (hs ++ [entry_hash H en]).
Proof using HD.
  intros st hs a en HI HA Hen HB.
  assert (HA' : all32 (hs ++ [entry_hash H en])).
  { apply Forall_app. split; [assumption|]. constructor; [|constructor]. destruct en; cbn in *; [assumption|apply HD]. }
  split; [|assumption]. destruct en as [h|d]; cbn [add_entry entry_hash] in *; apply holds_add; auto; cbn [tree nv stored]; auto.
  split; [reflexivity|]. split; [reflexivity|congruence].
Qed.

Lemma holds_entries : forall st ens hs a, holds H st hs a -> all32 hs -> Forall entry_ok ens -> zlen hs + zlen ens < 2 ^ 62 ->
  holds H st (hs ++ map (entry_hash H) ens) (add_entries H a ens) /\ all32 (hs ++ map (entry_hash H) ens).
Proof using HD.
  intros st. induction ens as [|en ens IH]; intros hs a HI HA HF HB.
  - cbn [map add_entries fold_left]. rewrite app_nil_r. auto.
  - inversion HF; subst. rewrite zlen_cons in HB. pose proof (zlen_nonneg _ ens). 
    destruct (holds_entry st hs a en HI HA) as [H1 H1']; [assumption|lia|].
    cbn [map]. replace (hs ++ entry_hash H en :: map (entry_hash H) ens) with ((hs ++ [entry_hash H en]) ++ map (entry_hash H) ens) by (rewrite <- app_assoc; reflexivity).
    unfold add_entries. cbn [fold_left]. apply IH; auto. rewrite zlen_app. change (zlen [_]) with 1. lia.
Qed.

Lemma holds_build : forall st ens, Forall entry_ok ens -> zlen ens < 2 ^ 62 ->
  holds H st (map (entry_hash H) ens) (add_entries H new_acc ens) /\ all32 (map (entry_hash H) ens).
Proof using HD.
  intros st ens HF HB. apply (holds_entries st ens [] new_acc); auto; [apply holds_new|constructor].
Qed.

(** perfect trees *)
Lemma perfect_nv : forall hs k q, 0 <= q -> (q + 1) * 2 ^ Z.of_nat k <= zlen hs ->
  exists blk, block_at hs (q * 2 ^ Z.of_nat k) blk /\ zlen blk = 2 ^ Z.of_nat k /\ perfect H blk (nv H (seq_of hs) k q).
Proof using.
  intros hs k q Hq HB.
  set (P := 2 ^ Z.of_nat k) in *. assert (HP : 0 < P) by apply pow2_pos.
  exists (firstn (Z.to_nat P) (skipn (Z.to_nat (q * P)) hs)).
  split; [|split].
  - exists (firstn (Z.to_nat (q * P)) hs), (skipn (Z.to_nat P) (skipn (Z.to_nat (q * P)) hs)).
    rewrite firstn_skipn, firstn_skipn. split; [reflexivity|]. unfold zlen in *. rewrite firstn_length. nia.
  - unfold zlen in *. rewrite firstn_length, skipn_length. nia.
  - subst P. clear HP. revert q Hq HB. induction k as [|k IH]; intros q Hq HB.
    + change (2 ^ Z.of_nat 0) with 1 in *. cbn [nv]. unfold seq_of. rewrite Z.mul_1_r.
      assert (HL : (Z.to_nat q < length hs)%nat) by (unfold zlen in HB; lia).
      change (Z.to_nat 1) with 1%nat.
      destruct (skipn (Z.to_nat q) hs) as [|x l] eqn:ES.
      { assert (length (skipn (Z.to_nat q) hs) = 0)%nat by (rewrite ES; reflexivity). rewrite skipn_length in H0. lia. }
      cbn [firstn]. replace (nth (Z.to_nat q) hs (repeat 0 32)) with x; [constructor|].
      rewrite <- (firstn_skipn (Z.to_nat q) hs), ES. rewrite app_nth2; rewrite firstn_length_le by lia; [|lia]. rewrite Nat.sub_diag. reflexivity.
    + cbn [nv]. rewrite pow_S in *. pose proof (pow2_pos k) as HP. set (P := 2 ^ Z.of_nat k) in *.
      replace (firstn (Z.to_nat (2 * P)) (skipn (Z.to_nat (q * (2 * P))) hs)) with
        (firstn (Z.to_nat P) (skipn (Z.to_nat (2 * q * P)) hs) ++ firstn (Z.to_nat P) (skipn (Z.to_nat ((2 * q + 1) * P)) hs)).
      * apply pf_node; [|apply IH; lia|apply IH; lia]. unfold zlen in *. rewrite !firstn_length, !skipn_length. nia.
      * replace (q * (2 * P)) with (2 * q * P) by lia. set (s := skipn (Z.to_nat (2 * q * P)) hs).
        replace (skipn (Z.to_nat ((2 * q + 1) * P)) hs) with (skipn (Z.to_nat P) s).
        -- replace (Z.to_nat (2 * P)) with (Z.to_nat P + Z.to_nat P)%nat by lia.
           rewrite <- (firstn_skipn (Z.to_nat P) s) at 3. rewrite firstn_app, firstn_firstn, firstn_length_le.
           ++ rewrite Nat.min_r by lia. do 2 f_equal. lia.
           ++ subst s. rewrite skipn_length. unfold zlen in HB. nia.
        -- subst s. assert (SS : forall a b (l : list (list Z)), skipn a (skipn b l) = skipn (b + a) l).
           { intros a b. induction b as [|b IHb]; intros l; [reflexivity|]. destruct l; [destruct a; reflexivity|]. cbn [skipn Nat.add]. apply IHb. }
           rewrite SS. f_equal. nia.
Qed.

Lemma slot_start_odd : forall n (k : nat), Z.odd (n / 2 ^ Z.of_nat k) = true -> (n / 2 ^ Z.of_nat k - 1) * 2 ^ Z.of_nat k = slot_start n (Z.of_nat k).
Proof using.
  intros n k HO. unfold slot_start. replace (Z.of_nat k + 1) with (Z.of_nat (S k)) by lia. rewrite div_S, pow_S. apply odd_half in HO. nia.
Qed.

Lemma seq_of_nth : forall hs x h, 0 <= x < zlen hs -> h = seq_of hs x -> nth_error hs (Z.to_nat x) = Some h.
Proof using. intros hs x h Hx ->. unfold seq_of. apply nth_error_nth'. unfold zlen in Hx. lia. Qed.
Lemma nth_seq_of : forall hs x h, 0 <= x -> nth_error hs (Z.to_nat x) = Some h -> seq_of hs x = h /\ x < zlen hs.
Proof using.
  intros hs x h Hx E. split; [unfold seq_of; apply nth_error_nth; assumption|].
  assert (Z.to_nat x < length hs)%nat by (apply nth_error_Some; congruence). unfold zlen. lia.
Qed.

Lemma seq_firstn : forall hs A j, 0 <= j < A -> seq_of (firstn (Z.to_nat A) hs) j = seq_of hs j.
Proof using.
  intros hs A j Hj. unfold seq_of. rewrite <- (firstn_skipn (Z.to_nat A) hs) at 2.
  destruct (Nat.lt_ge_cases (Z.to_nat j) (length (firstn (Z.to_nat A) hs))) as [HL|HL]; [rewrite app_nth1 by assumption; reflexivity|].
  rewrite nth_overflow by assumption. rewrite firstn_length in HL. rewrite nth_overflow; [reflexivity|].
  rewrite firstn_skipn. lia.
Qed.

Lemma holds_prefix : forall st hs A a, 0 <= A <= zlen hs -> holds H st (firstn (Z.to_nat A) hs) a -> inv H (seq_of hs) st A a.
Proof using.
  intros st hs A a HA HI. unfold holds in HI.
  assert (E : zlen (firstn (Z.to_nat A) hs) = A) by (unfold zlen in *; rewrite firstn_length; lia). rewrite E in HI.
  eapply inv_agree; [|exact HI]. intros j Hj. apply seq_firstn. assumption.
Qed.

(** The witness returned by adding. *)
Lemma addNode_witness : forall e (He : forall i, length (e i) = 32%nat) st rs i m nd x, 0 <= m -> slots H e st i m rs -> tree H e st i m nd ->
  x + 1 = (m + 1) * 2 ^ Z.of_nat i ->
  exists k, snd (addNode H rs nd (wit H e i x)) = wit H e k x /\ in_slot (x + 1) x k.
Proof using HD.
  intros e He st. induction rs as [|[root|] rs IH]; intros i m nd x Hm HS HT Hx; pose proof (pow2_pos i) as HP; cbn [addNode].
  - cbn [slots] in HS. subst m. exists i. split; [reflexivity|]. apply in_slot_intro; rewrite Hx; change (0 + 1) with 1; rewrite Z.mul_1_l, Z.div_same by lia; [reflexivity|].
    apply Z.div_small. lia.
  - cbn [slots] in HS. destruct HS as (S1 & S2 & S3). destruct (node_Hash_spec H HD e He _ _ _ _ S2) as [A1 A2].
    destruct (node_Hash H root) as [rh root']. cbn [fst snd] in *. subst rh. rewrite nv_length by assumption. cbn [Nat.eqb].
    assert (EX : x / 2 ^ Z.of_nat i = m) by (symmetry; apply Z.div_unique with (2 ^ Z.of_nat i - 1); [left; lia|lia]).
    assert (EW : wit H e i x ++ [{| w_dir := Left; w_hash := nv H e i (m - 1) |}] = wit H e (S i) x).
    { cbn [wit]. rewrite testbit_div, EX, S1. reflexivity. }
    rewrite EW. pose proof (odd_half _ S1) as HO.
    destruct (IH (S i) (m / 2) (BNode stateDirty [] [] root' nd) x) as (k & E1 & E2).
    + apply Z.div_pos; lia.
    + assumption.
    + cbn [tree]. replace (2 * (m / 2)) with (m - 1) by lia. replace (m - 1 + 1) with m by lia. split; [assumption|]. split; [assumption|]. split; [congruence|discriminate].
    + rewrite pow_S. nia.
    + exists k. destruct (addNode H rs _ _) as [rs'' w']. cbn [snd] in *. auto.
  - cbn [slots] in HS. destruct HS as ((_ & S1) & S2). exists i. split; [reflexivity|].
    assert (EX : (x + 1) / 2 ^ Z.of_nat i = m + 1) by (rewrite Hx; apply Z.div_mul; lia).
    apply in_slot_intro; rewrite EX; [rewrite <- Z.negb_even, Z.even_add, S1; reflexivity|].
    replace (m + 1 - 1) with m by lia. symmetry. apply Z.div_unique with (2 ^ Z.of_nat i - 1); [left; lia|lia].
Qed.

(** Flushing succeeds when enough writes are possible. *)
Fixpoint node_size (n : node) : nat := match n with HNode _ => 0 | DNode _ _ _ => 1 | BNode _ _ _ l r => 1 + node_size l + node_size r end.
Lemma node_Flush_enough : forall n w, (node_size n <= w_budget w)%nat ->
  exists w' n', node_Flush H w n = (w', n', true) /\ (w_budget w <= w_budget w' + node_size n)%nat.
Proof using.
  induction n as [h|s h ser l IHl r IHr|s h d]; intros w Hb; cbn [node_Flush node_size] in *.
  - exists w, (HNode h). split; [reflexivity|lia].
  - destruct (is_flushed s); [exists w; eexists; split; [reflexivity|lia]|].
    destruct (IHl w ltac:(lia)) as (w1 & l' & -> & B1). destruct (IHr w1 ltac:(lia)) as (w2 & r' & -> & B2).
    destruct (node_Hash H (BNode s h ser l' r')) as [hv n']. unfold wset. destruct (w_budget w2) eqn:E2; [lia|].
    eexists. eexists. split; [reflexivity|]. cbn [w_budget]. lia.
  - destruct (is_flushed s); [exists w; eexists; split; [reflexivity|lia]|].
    destruct (node_Hash H (DNode s h d)) as [hv n']. unfold wset. destruct (w_budget w) eqn:E2; [lia|].
    eexists. eexists. split; [reflexivity|]. cbn [w_budget]. lia.
Qed.
Fixpoint roots_size (rs : list (option node)) : nat :=
  match rs with [] => 0 | None :: r => roots_size r | Some n :: r => node_size n + roots_size r end.
Lemma flush_roots_enough : forall rs w, (roots_size rs <= w_budget w)%nat ->
  exists w' rs' hs, flush_roots H w rs = (w', rs', hs, true) /\ (w_budget w <= w_budget w' + roots_size rs)%nat.
Proof using.
  induction rs as [|[n|] rs IH]; intros w Hb; cbn [flush_roots roots_size] in *.
  - do 3 eexists. split; [reflexivity|lia].
  - destruct (node_Flush_enough n w ltac:(lia)) as (w1 & n' & -> & B1). destruct (node_Hash H n') as [hv n''].
    destruct (IH w1 ltac:(lia)) as (w2 & rs' & hs & -> & B2). do 3 eexists. split; [reflexivity|]. lia.
  - destruct (IH w Hb) as (w2 & rs' & hs & -> & B2). do 3 eexists. split; [reflexivity|]. lia.
Qed.

(** ** histories *)
(** What can happen to an accumulator and its store. *)
Inductive op :=
| OAdd (en : entry)
| OWitness (idx : Z)
| OVerify (ws : list witness) (h : list Z) (accLength : Z)
| OFlush (writes : nat)  (* flush with a store that performs this many writes and then fails *)
| ORestart.              (* a new process recovers from the store *)

Record machine := { mc_store : store; mc_acc : acc; mc_cur : list (list Z); mc_saved : list (list Z) }.
Definition machine0 : machine := {| mc_store := fun _ => []; mc_acc := new_acc; mc_cur := []; mc_saved := [] |}.

Definition mstep (jenc : list (list Z) -> list Z -> list Z) (jdec : list Z -> option (list (list Z) * list Z)) (key : list Z)
  (m : machine) (o : op) : machine :=
  match o with
  | OAdd en => {| mc_store := mc_store m; mc_acc := add_entry H (mc_acc m) en;
                  mc_cur := mc_cur m ++ [entry_hash H en]; mc_saved := mc_saved m |}
  | OWitness idx => {| mc_store := mc_store m; mc_acc := fst (WitnessFor H (mc_store m) (mc_acc m) idx);
                       mc_cur := mc_cur m; mc_saved := mc_saved m |}
  | OVerify ws h A => {| mc_store := mc_store m; mc_acc := fst (VerifyWithAccLength H (mc_store m) (mc_acc m) ws h A);
                         mc_cur := mc_cur m; mc_saved := mc_saved m |}
  | OFlush b =>
      match acc_Flush H jenc key {| w_store := mc_store m; w_budget := b |} (mc_acc m) with
      | (w, a, ok) => {| mc_store := w_store w; mc_acc := a; mc_cur := mc_cur m;
                         mc_saved := if ok then mc_cur m else mc_saved m |}
      end
  | ORestart =>
      match acc_Recover jdec key (mc_store m) with
      | Ok a => {| mc_store := mc_store m; mc_acc := a; mc_cur := mc_saved m; mc_saved := mc_saved m |}
      | _ => {| mc_store := mc_store m; mc_acc := new_acc; mc_cur := []; mc_saved := mc_saved m |}
      end
  end.
Definition mrun jenc jdec key (ops : list op) : machine := fold_left (mstep jenc jdec key) ops machine0.

Definition op_ok (o : op) : Prop := match o with OAdd en => entry_ok en | _ => True end.

Definition minv jdec key (m : machine) : Prop :=
  holds H (mc_store m) (mc_cur m) (mc_acc m) /\ all32 (mc_cur m) /\
  recoverable H (seq_of (mc_saved m)) jdec key (mc_store m) (zlen (mc_saved m)) /\ all32 (mc_saved m).

Lemma WitnessFor_any : forall st hs a idx, all32 hs -> zlen hs < 2 ^ 62 -> holds H st hs a -> holds H st hs (fst (WitnessFor H st a idx)).
Proof using HD.
  intros st hs a idx HA HB HI. unfold holds in *. destruct (Z.leb_spec (zlen hs) idx).
  - pose proof HI as (_ & IL & _). unfold WitnessFor. rewrite IL. destruct (Z.leb_spec (zlen hs) idx); [assumption|lia].
  - destruct (Z.eq_dec (zlen hs) 0) as [E0|].
    + pose proof HI as (_ & IL & IS). rewrite E0 in *. unfold WitnessFor. rewrite IL. replace (0 <=? idx) with false by lia.
      destruct (a_roots a) as [|x l] eqn:ER; [cbn [length WitnessFor_loop fst]; split; [lia|]; split; [assumption|]; reflexivity|].
      exfalso. destruct x; cbn [slots] in IS; [destruct IS as [X _]; discriminate|]. lia.
    + pose proof (zlen_nonneg _ hs). destruct (WitnessFor_inv H HD (seq_of hs) (seq_of_32 hs HA) st _ a idx HB HI ltac:(lia) ltac:(lia)) as (k & a' & _ & E & HI'). rewrite E. exact HI'.
Qed.

Lemma minv_step : forall jenc jdec key m o, good_json jenc jdec -> length key <> 32%nat -> op_ok o ->
  zlen (mc_cur m) < 2 ^ 62 -> zlen (mc_saved m) < 2 ^ 62 ->
  minv jdec key m -> minv jdec key (mstep jenc jdec key m o) \/ collides H.
Proof using HD.
  intros jenc jdec key m o HJ Hk Ho HB HB' (M1 & M2 & M3 & M4). destruct o as [en|idx|ws h A|b|]; cbn [mstep].
  - left. destruct (holds_entry _ _ _ en M1 M2 Ho HB). split; [|split; [|split]]; assumption.
  - left. split; [|split; [|split]]; try assumption. cbn [mc_store mc_acc mc_cur]. apply WitnessFor_any; assumption.
  - left. split; [|split; [|split]]; try assumption. cbn [mc_store mc_acc mc_cur]. unfold VerifyWithAccLength.
    destruct (_ =? A); [assumption|]. destruct (_ <=? _); [assumption|]. destruct (A <? _); [|assumption].
    pose proof (WitnessFor_any _ _ _ (GetHeightFromWitness ws A) M2 HB M1) as HX.
    destruct (WitnessFor H (mc_store m) (mc_acc m) (GetHeightFromWitness ws A)) as [a' r]. exact HX.
  - destruct (acc_Flush H jenc key {| w_store := mc_store m; w_budget := b |} (mc_acc m)) as [[w a] ok] eqn:EF.
    destruct ok.
    + destruct (acc_Flush_ok H HD (seq_of (mc_cur m)) (seq_of_32 _ M2) jenc jdec key {| w_store := mc_store m; w_budget := b |} _ (zlen (mc_cur m)) w a HJ Hk HB M1 EF)
        as [(F1 & r & F2 & F3 & _)|]; [left|auto].
      split; [exact F1|]. split; [assumption|]. split; [exists r; auto|assumption].
    + destruct (acc_Flush_fail H HD (seq_of (mc_cur m)) (seq_of_32 _ M2) jenc key {| w_store := mc_store m; w_budget := b |} _ (zlen (mc_cur m)) w a Hk M1 EF) as [(X & F1)|]; [|auto].
      destruct (recoverable_ext H HD _ _ key _ _ _ Hk X M3) as [M3'|]; [left|auto].
      split; [exact F1|]. split; [assumption|]. split; assumption.
  - destruct M3 as (r & R1 & R2). rewrite R1. left. split; [exact R2|]. split; [assumption|]. split; [exists r; auto|assumption].
Qed.

Fixpoint adds (ops : list op) : Z := match ops with [] => 0 | OAdd _ :: r => 1 + adds r | _ :: r => adds r end.
Lemma adds_nonneg : forall ops, 0 <= adds ops.
Proof. induction ops as [|[] ops IH]; cbn [adds]; lia. Qed.

Lemma mstep_len : forall jenc jdec key m o, 
  let m' := mstep jenc jdec key m o in
  Z.max (zlen (mc_cur m')) (zlen (mc_saved m')) <= Z.max (zlen (mc_cur m)) (zlen (mc_saved m)) + adds [o].
Proof.
  intros jenc jdec key m o. destruct o; cbn [mstep adds]; cbv zeta.
  - cbn [mc_cur mc_saved]. rewrite zlen_app. change (zlen [_]) with 1. lia.
  - cbn [mc_cur mc_saved]. lia.
  - cbn [mc_cur mc_saved]. lia.
  - destruct (acc_Flush _ _ _ _ _) as [[w a] ok]. cbn [mc_cur mc_saved]. destruct ok; lia.
  - destruct (acc_Recover _ _ _); cbn [mc_cur mc_saved]; rewrite ?zlen_nil; try pose proof (zlen_nonneg _ (mc_saved m)); lia.
Qed.

Lemma minv_run_from : forall jenc jdec key ops m, good_json jenc jdec -> length key <> 32%nat -> Forall op_ok ops ->
  Z.max (zlen (mc_cur m)) (zlen (mc_saved m)) + adds ops < 2 ^ 62 -> minv jdec key m ->
  minv jdec key (fold_left (mstep jenc jdec key) ops m) \/ collides H.
Proof using HD.
  intros jenc jdec key. induction ops as [|o ops IH]; intros m HJ Hk HF HB HM; [auto|].
  inversion HF; subst. pose proof (adds_nonneg ops).
  assert (EA : adds (o :: ops) = adds [o] + adds ops) by (destruct o; cbn [adds]; lia).
  assert (0 <= adds [o]) by apply adds_nonneg.
  destruct (minv_step jenc jdec key m o HJ Hk ltac:(assumption) ltac:(lia) ltac:(lia) HM) as [HM'|]; [|auto].
  cbn [fold_left]. apply IH; auto. pose proof (mstep_len jenc jdec key m o) as HL. cbv zeta in HL. lia.
Qed.

Lemma minv_run : forall jenc jdec key ops, good_json jenc jdec -> length key <> 32%nat -> Forall op_ok ops -> adds ops < 2 ^ 62 ->
  minv jdec key (mrun jenc jdec key ops) \/ collides H.
Proof using HD.
  intros jenc jdec key ops HJ Hk HF HB. apply minv_run_from; auto.
  split; [apply holds_new|]. split; [constructor|]. split; [|constructor].
  exists new_acc. split; [reflexivity|]. apply holds_new.
Qed.
End Lists.
