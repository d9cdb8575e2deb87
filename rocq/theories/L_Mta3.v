(** Lemmas about the accumulator: persistence. *)
From Coq Require Import String Ascii ZArith List Bool Lia.
From Coq Require Import ZifyBool.
From Verif Require Import Base L_Base M_IntConv S_IntConv L_IntStr M_Mta S_Mta L_Mta L_Mta2.
Import ListNotations.
Open Scope Z_scope.

(** Stores that differ by content-addressed writes only. *)
Inductive ext_st (H : list Z -> list Z) (st : store) : store -> Prop :=
| ext_refl : ext_st H st st
| ext_step : forall st' v, ext_st H st st' -> ext_st H st (bset st' (H v) v).

Lemma ext_trans : forall H a b c, ext_st H a b -> ext_st H b c -> ext_st H a c.
Proof. intros H a b c H1 H2. induction H2; [assumption|]. constructor. assumption. Qed.

Lemma ext_key : forall H st st' key, digest32 H -> length key <> 32%nat -> ext_st H st st' -> st' key = st key.
Proof.
  intros H st st' key HD Hk HE. induction HE as [|st' v HE IH]; [reflexivity|].
  rewrite bset_other; [assumption|]. intros E. apply Hk. rewrite <- E. apply HD.
Qed.

Section Pers.
Context (H : list Z -> list Z) (HD : digest32 H).

Section OneSeq.
Context (e : Z -> list Z) (He : forall i, length (e i) = 32%nat).
Local Notation nv := (nv H e).
Local Notation stored := (stored H e).
Local Notation tree := (tree H e).
Local Notation slots := (slots H e).
Local Notation inv := (inv H e).

Lemma stored_write : forall st v k q, stored st k q -> stored (bset st (H v) v) k q \/ collides H.
Proof using.
  intros st v. induction k as [|k IH]; intros q HS; [left; exact I|].
  cbn [L_Mta.stored] in *. destruct HS as (S1 & S2 & S3).
  destruct (IH _ S2) as [A|]; [|auto]. destruct (IH _ S3) as [B|]; [|auto].
  destruct (list_Z_eq_dec (H v) (nv (S k) q)) as [E|Hn].
  - cbn [L_Mta.nv] in *. destruct (H_inj H _ _ E) as [->|]; [|auto]. left. rewrite bset_same. auto.
  - left. rewrite bset_other by assumption. auto.
Qed.

Lemma stored_key : forall st key v k q, length key <> 32%nat -> stored st k q -> stored (bset st key v) k q.
Proof using HD.
  intros st key v. induction k as [|k IH]; intros q Hk HS; [exact I|].
  cbn [L_Mta.stored] in *. destruct HS as (S1 & S2 & S3). rewrite bset_other; [auto|].
  intros E. apply Hk. rewrite E. cbn [L_Mta.nv]. apply HD.
Qed.

Lemma stored_ext : forall st st' k q, ext_st H st st' -> stored st k q -> stored st' k q \/ collides H.
Proof using.
  intros st st' k q HE HS. induction HE as [|st' v HE IH]; [auto|]. destruct IH as [IH|]; [|auto]. apply stored_write. assumption.
Qed.

Lemma tree_ext : forall st st' n k q, ext_st H st st' -> tree st k q n -> tree st' k q n \/ collides H.
Proof using.
  intros st st'. induction n as [h|s h ser l IHl r IHr|s h d]; intros k q HE HT.
  - cbn [L_Mta.tree] in *. destruct HT as [-> HT]. destruct (stored_ext st st' k q HE HT); auto.
  - cbn [L_Mta.tree] in *. destruct k as [|k]; [destruct HT|]. destruct HT as (T1 & T2 & T3 & T4).
    destruct (IHl _ _ HE T1) as [A|]; [|auto]. destruct (IHr _ _ HE T2) as [B|]; [|auto].
    destruct s.
    + left. split; [|split; [|split]]; auto. discriminate.
    + left. split; [|split; [|split]]; auto. discriminate.
    + destruct (stored_ext st st' _ _ HE (T4 eq_refl)); auto.
  - left. exact HT.
Qed.

Lemma tree_key : forall st key v n k q, length key <> 32%nat -> tree st k q n -> tree (bset st key v) k q n.
Proof using HD.
  intros st key v. induction n as [h|s h ser l IHl r IHr|s h d]; intros k q Hk HT; cbn [L_Mta.tree] in *.
  - destruct HT. split; [assumption|]. apply stored_key; assumption.
  - destruct k as [|k]; [destruct HT|]. destruct HT as (T1 & T2 & T3 & T4). split; [|split; [|split]]; auto.
    intros E. apply stored_key; auto.
  - exact HT.
Qed.

Lemma slots_ext : forall st st' rs i m, ext_st H st st' -> slots st i m rs -> slots st' i m rs \/ collides H.
Proof using.
  intros st st'. induction rs as [|[n|] rs IH]; intros i m HE HS; cbn [L_Mta.slots] in *; [auto| |].
  - destruct HS as (S1 & S2 & S3). destruct (tree_ext st st' n _ _ HE S2) as [A|]; [|auto]. destruct (IH _ _ HE S3); auto.
  - destruct HS as (S1 & S2). destruct (IH _ _ HE S2); auto.
Qed.

Lemma slots_key : forall st key v rs i m, length key <> 32%nat -> slots st i m rs -> slots (bset st key v) i m rs.
Proof using HD.
  intros st key v. induction rs as [|[n|] rs IH]; intros i m Hk HS; cbn [L_Mta.slots] in *; [auto| |].
  - destruct HS as (S1 & S2 & S3). split; [assumption|]. split; [apply tree_key; assumption|auto].
  - destruct HS as (S1 & S2). auto.
Qed.

Lemma wset_some : forall w k v w', wset w k v = Some w' -> w_store w' = bset (w_store w) k v.
Proof. intros w k v w' E. unfold wset in E. destruct (w_budget w); [discriminate|]. injection E as <-. reflexivity. Qed.

Lemma node_Flush_spec : forall n w k q w' n' ok, tree (w_store w) k q n -> node_Flush H w n = (w', n', ok) ->
  (ext_st H (w_store w) (w_store w') /\ tree (w_store w') k q n' /\ (ok = true -> stored (w_store w') k q)) \/ collides H.
Proof using HD He.
  induction n as [h|s h ser l IHl r IHr|s h d]; intros w k q w' n' ok HT HF.
  - cbn [node_Flush] in HF. injection HF as <- <- <-. left. split; [constructor|]. cbn [L_Mta.tree] in *. tauto.
  - cbn [node_Flush] in HF. destruct (is_flushed s) eqn:Es.
    { injection HF as <- <- <-. left. split; [constructor|]. split; [assumption|]. intros _. cbn [L_Mta.tree] in HT.
      destruct k; [destruct HT|]. destruct s; try discriminate. apply HT. reflexivity. }
    assert (Hs : s <> stateFlushed) by (destruct s; cbn in Es; congruence).
    cbn [L_Mta.tree] in HT. destruct k as [|k]; [destruct HT|]. destruct HT as (T1 & T2 & T3 & T4).
    destruct (node_Flush H w l) as [[w1 l'] okl] eqn:El. destruct (IHl _ _ _ _ _ _ T1 El) as [(X1 & G1 & G1')|]; [|auto].
    destruct (tree_ext _ _ r _ _ X1 T2) as [T2'|]; [|auto].
    destruct okl.
    2:{ injection HF as <- <- <-. left. split; [assumption|]. split; [|discriminate].
        cbn [L_Mta.tree]. split; [|split; [|split]]; auto; congruence. }
    destruct (node_Flush H w1 r) as [[w2 r'] okr] eqn:Er. destruct (IHr _ _ _ _ _ _ T2' Er) as [(X2 & G2 & G2')|]; [|auto].
    destruct (tree_ext _ _ l' _ _ X2 G1) as [G1''|]; [|auto].
    destruct (stored_ext _ _ _ _ X2 (G1' eq_refl)) as [SL|]; [|auto].
    assert (X12 := ext_trans _ _ _ _ X1 X2).
    assert (TB : tree (w_store w2) (S k) q (BNode s h ser l' r')).
    { cbn [L_Mta.tree]. split; [|split; [|split]]; auto; congruence. }
    destruct okr.
    2:{ injection HF as <- <- <-. left. split; [assumption|]. split; [exact TB|discriminate]. }
    destruct (node_Hash_spec H HD e He _ _ _ _ TB) as [E1 E2].
    destruct (node_Hash H (BNode s h ser l' r')) as [hv nb] eqn:EH. cbn [fst snd] in *. subst hv.
    assert (ES : exists s' l2 r2, nb = BNode s' (nv (S k) q) (nv k (2 * q) ++ nv k (2 * q + 1)) l2 r2).
    { assert (exists s' h' ser' l2 r2, nb = BNode s' h' ser' l2 r2 /\ s' <> stateDirty) as (s' & h' & ser' & l2 & r2 & -> & Hs').
      { cbn [node_Hash] in EH. destruct (below_hashed s) eqn:EB.
        - destruct (node_Hash H l'), (node_Hash H r'). injection EH as _ <-. do 5 eexists. split; [reflexivity|discriminate].
        - injection EH as _ <-. do 5 eexists. split; [reflexivity|]. apply below_not_dirty. assumption. }
      cbn [L_Mta.tree] in E2. destruct E2 as (_ & _ & E3 & _). destruct (E3 Hs') as [-> ->]. eauto. }
    destruct ES as (s' & l2 & r2 & ->). cbn [serialized_of] in HF.
    destruct (wset w2 (nv (S k) q) (nv k (2 * q) ++ nv k (2 * q + 1))) as [w3|] eqn:EW.
    2:{ injection HF as <- <- <-. left. split; [assumption|]. split; [exact E2|discriminate]. }
    injection HF as <- <- <-. apply wset_some in EW. rewrite EW.
    assert (X3 : ext_st H (w_store w2) (bset (w_store w2) (nv (S k) q) (nv k (2 * q) ++ nv k (2 * q + 1)))).
    { apply (ext_step H _ _ (nv k (2 * q) ++ nv k (2 * q + 1))). constructor. }
    destruct (stored_ext _ _ _ _ X3 SL) as [SL'|]; [|auto]. destruct (stored_ext _ _ _ _ X3 (G2' eq_refl)) as [SR'|]; [|auto].
    destruct (tree_ext _ _ _ _ _ X3 E2) as [E2'|]; [|auto].
    assert (SS : stored (bset (w_store w2) (nv (S k) q) (nv k (2 * q) ++ nv k (2 * q + 1))) (S k) q).
    { cbn [L_Mta.stored]. rewrite bset_same. auto. }
    left. split; [eapply ext_trans; eassumption|]. split; [|intros _; exact SS].
    cbn [set_flushed L_Mta.tree] in *. destruct E2' as (Q1 & Q2 & Q3 & Q4). split; [|split; [|split]]; auto.
  - cbn [node_Flush] in HF. destruct (is_flushed s) eqn:Es.
    { injection HF as <- <- <-. left. split; [constructor|]. split; [assumption|]. intros _. cbn [L_Mta.tree] in HT.
      destruct HT as [-> _]. exact I. }
    destruct (node_Hash_spec H HD e He _ _ _ _ HT) as [E1 E2].
    assert (EB : node_Hash H (DNode s h d) = (H d, snd (node_Hash H (DNode s h d))) /\
       exists s', snd (node_Hash H (DNode s h d)) = DNode s' (H d) d).
    { cbn [node_Hash]. destruct (below_hashed s) eqn:EB; cbn [snd]; [eauto|]. cbn [L_Mta.tree] in HT. destruct HT as (_ & _ & HT).
      rewrite HT by (apply below_not_dirty; assumption). eauto. }
    destruct EB as (EB & s' & EB'). rewrite EB in HF. rewrite EB' in *. cbn [L_Mta.tree] in HT. destruct HT as (-> & HT & _).
    destruct (wset w (H d) d) as [w3|] eqn:EW.
    + injection HF as <- <- <-. apply wset_some in EW. rewrite EW. left. split; [apply ext_step; constructor|].
      split; [|intros _; exact I]. cbn [set_flushed L_Mta.tree]. auto.
    + injection HF as <- <- <-. left. split; [constructor|]. split; [exact E2|discriminate].
Qed.

Lemma flush_roots_spec : forall rs w i m w' rs' hs ok, slots (w_store w) i m rs -> flush_roots H w rs = (w', rs', hs, ok) ->
  (ext_st H (w_store w) (w_store w') /\ slots (w_store w') i m rs' /\
   (ok = true -> slots (w_store w') i m (map root_of_hash hs) /\ length hs = length rs /\
      hs = map (fun x => match x with Some n => fst (node_Hash H n) | None => [] end) rs')) \/ collides H.
Proof using HD He.
  induction rs as [|[n|] rs IH]; intros w i m w' rs' hs ok HS HF; cbn [flush_roots] in HF.
  - injection HF as <- <- <- <-. left. split; [constructor|]. split; [assumption|]. intros _. split; [exact HS|auto].
  - cbn [L_Mta.slots] in HS. destruct HS as (S1 & S2 & S3).
    destruct (node_Flush H w n) as [[w1 n1] ok1] eqn:E1. destruct (node_Flush_spec _ _ _ _ _ _ _ S2 E1) as [(X1 & G1 & G2)|]; [|auto].
    destruct (slots_ext _ _ _ _ _ X1 S3) as [S3'|]; [|auto].
    destruct ok1.
    2:{ injection HF as <- <- <- <-. left. split; [assumption|]. split; [|discriminate]. cbn [L_Mta.slots]. auto. }
    destruct (node_Hash_spec H HD e He _ _ _ _ G1) as [B1 B2].
    destruct (node_Hash H n1) as [hv n2] eqn:EH. cbn [fst snd] in *.
    destruct (flush_roots H w1 rs) as [[[w2 rs2] hs2] ok2] eqn:E2. destruct (IH _ _ _ _ _ _ _ S3' E2) as [(X2 & Q1 & Q2)|]; [|auto].
    injection HF as <- <- <- <-. destruct (tree_ext _ _ _ _ _ X2 B2) as [B2'|]; [|auto].
    destruct (stored_ext _ _ _ _ X2 (G2 eq_refl)) as [SS|]; [|auto].
    left. split; [eapply ext_trans; eassumption|]. split; [cbn [L_Mta.slots]; auto|]. intros ->.
    destruct (Q2 eq_refl) as (Q3 & Q4 & Q5). split; [|split; [cbn; congruence|]].
    + cbn [map]. subst hv. unfold root_of_hash at 1. rewrite nv_length by assumption. cbn [Nat.eqb HashSize L_Mta.slots L_Mta.tree]. auto.
    + cbn [map]. rewrite Q5 at 1. f_equal. rewrite B1. symmetry. apply (node_Hash_spec H HD e He _ _ _ _ B2).
  - cbn [L_Mta.slots] in HS. destruct HS as (S1 & S2).
    destruct (flush_roots H w rs) as [[[w2 rs2] hs2] ok2] eqn:E2. destruct (IH _ _ _ _ _ _ _ S2 E2) as [(X2 & Q1 & Q2)|]; [|auto].
    injection HF as <- <- <- <-. left. split; [assumption|]. split; [cbn [L_Mta.slots]; auto|]. intros ->.
    destruct (Q2 eq_refl) as (Q3 & Q4 & Q5). split; [|split; [cbn; congruence|]].
    + cbn [map root_of_hash length Nat.eqb HashSize L_Mta.slots]. unfold root_of_hash at 1. cbn. auto.
    + cbn [map]. congruence.
Qed.

Lemma inv_ext : forall st st' n a, ext_st H st st' -> inv st n a -> inv st' n a \/ collides H.
Proof using.
  intros st st' n a HE (I1 & I2 & I3). destruct (slots_ext _ _ _ _ _ HE I3); [left|auto]. split; [assumption|]. split; assumption.
Qed.

(** ** plain accumulator *)
Definition good_json (jenc : list (list Z) -> list Z -> list Z) (jdec : list Z -> option (list (list Z) * list Z)) : Prop :=
  forall hs txt, jdec (jenc hs txt) = Some (hs, txt) /\ jenc hs txt <> [].

Lemma acc_Flush_ok : forall jenc jdec key w a n w' a', good_json jenc jdec -> length key <> 32%nat -> n < 2 ^ 62 ->
  inv (w_store w) n a -> acc_Flush H jenc key w a = (w', a', true) ->
  (inv (w_store w') n a' /\ exists r, acc_Recover jdec key (w_store w') = Ok r /\ inv (w_store w') n r /\
     map (option_map (fun x => fst (node_Hash H x))) (a_roots r) = map (option_map (fun x => fst (node_Hash H x))) (a_roots a')) \/ collides H.
Proof using HD He.
  intros jenc jdec key w a n w' a' HJ Hk Hn (I1 & I2 & I3) HF. unfold acc_Flush in HF.
  destruct (flush_roots H w (a_roots a)) as [[[w1 rs] hs] ok] eqn:E1.
  destruct (flush_roots_spec _ _ _ _ _ _ _ _ I3 E1) as [(X & S1 & S2)|]; [|auto].
  destruct ok; [|discriminate]. destruct (S2 eq_refl) as (S3 & S4 & S5).
  destruct (wset w1 key (jenc hs (FormatInt (a_length a)))) as [w2|] eqn:EW; [|discriminate].
  injection HF as <- <-. apply wset_some in EW. rewrite EW. left.
  split; [split; [assumption|]; split; [assumption|]; cbn [a_roots]; apply slots_key; assumption|].
  destruct (HJ hs (FormatInt (a_length a))) as [J1 J2].
  exists {| a_roots := map root_of_hash hs; a_length := a_length a |}. split; [|split].
  - unfold acc_Recover. rewrite bset_same.
    assert (HN : (length (jenc hs (FormatInt (a_length a))) =? 0)%nat = false) by (destruct (jenc hs (FormatInt (a_length a))); [congruence|reflexivity]).
    rewrite HN, J1. rewrite ParseInt_Format by (unfold in_int_range; rewrite ?I2; lia). reflexivity.
  - split; [assumption|]. split; [assumption|]. cbn [a_roots]. apply slots_key; assumption.
  - cbn [a_roots]. rewrite S5. rewrite !map_map. clear -S1 HD He. revert S1. generalize 0%nat as i. generalize n as m.
    intros m i. revert m i. induction rs as [|[x|] rs IH]; intros m i HS; [reflexivity| |].
    + cbn [L_Mta.slots] in HS. destruct HS as (_ & HT & HS). cbn [map]. f_equal; [|eapply IH; eauto].
      destruct (node_Hash_spec H HD e He _ _ _ _ HT) as [E1 _]. rewrite E1. unfold root_of_hash. rewrite nv_length by assumption. cbn. rewrite E1. reflexivity.
    + cbn [L_Mta.slots] in HS. destruct HS as (_ & HS). cbn [map]. f_equal. eapply IH; eauto.
Qed.

Lemma acc_Flush_fail : forall jenc key w a n w' a', length key <> 32%nat ->
  inv (w_store w) n a -> acc_Flush H jenc key w a = (w', a', false) ->
  (ext_st H (w_store w) (w_store w') /\ inv (w_store w') n a') \/ collides H.
Proof using HD He.
  intros jenc key w a n w' a' Hk (I1 & I2 & I3) HF. unfold acc_Flush in HF.
  destruct (flush_roots H w (a_roots a)) as [[[w1 rs] hs] ok] eqn:E1.
  destruct (flush_roots_spec _ _ _ _ _ _ _ _ I3 E1) as [(X & S1 & S2)|]; [|auto]. left.
  assert (HX : w' = w1 /\ a' = {| a_roots := rs; a_length := a_length a |}).
  { destruct ok; [destruct (wset w1 key _)|]; injection HF; intros; subst; auto; discriminate. }
  destruct HX as [-> ->]. split; [assumption|]. split; [assumption|]. split; assumption.
Qed.

Definition recoverable (jdec : list Z -> option (list (list Z) * list Z)) (key : list Z) (st : store) (n : Z) : Prop :=
  exists r, acc_Recover jdec key st = Ok r /\ inv st n r.

Lemma recoverable_ext : forall jdec key st st' n, length key <> 32%nat -> ext_st H st st' -> recoverable jdec key st n ->
  recoverable jdec key st' n \/ collides H.
Proof using HD.
  intros jdec key st st' n Hk HE (r & R1 & R2). destruct (inv_ext _ _ _ _ HE R2) as [R3|]; [|auto]. left.
  exists r. split; [|assumption]. unfold acc_Recover in *. rewrite (ext_key H st st' key HD Hk HE). assumption.
Qed.
End OneSeq.

(** ** changing the sequence beyond the used part *)
Lemma nv_agree : forall e e' k q, (forall i, q * 2 ^ Z.of_nat k <= i < (q + 1) * 2 ^ Z.of_nat k -> e i = e' i) -> nv H e k q = nv H e' k q.
Proof using.
  intros e e'. induction k as [|k IH]; intros q HA; cbn [nv].
  - apply HA. change (2 ^ Z.of_nat 0) with 1. lia.
  - rewrite (IH (2 * q)), (IH (2 * q + 1)); [reflexivity| |]; intros i Hi; apply HA; rewrite pow_S; pose proof (pow2_pos k); lia.
Qed.

Lemma stored_agree : forall e e' st k q, (forall i, q * 2 ^ Z.of_nat k <= i < (q + 1) * 2 ^ Z.of_nat k -> e i = e' i) ->
  stored H e st k q -> stored H e' st k q.
Proof using.
  intros e e' st. induction k as [|k IH]; intros q HA HS; [exact I|].
  assert (A1 : forall i, 2 * q * 2 ^ Z.of_nat k <= i < (2 * q + 1) * 2 ^ Z.of_nat k -> e i = e' i)
    by (intros i Hi; apply HA; rewrite pow_S; pose proof (pow2_pos k); lia).
  assert (A2 : forall i, (2 * q + 1) * 2 ^ Z.of_nat k <= i < (2 * q + 1 + 1) * 2 ^ Z.of_nat k -> e i = e' i)
    by (intros i Hi; apply HA; rewrite pow_S; pose proof (pow2_pos k); lia).
  cbn [stored nv] in *. rewrite <- (nv_agree e e' k (2 * q) A1), <- (nv_agree e e' k (2 * q + 1) A2).
  destruct HS as (S1 & S2 & S3). auto.
Qed.

Lemma tree_agree : forall e e' st n k q, (forall i, q * 2 ^ Z.of_nat k <= i < (q + 1) * 2 ^ Z.of_nat k -> e i = e' i) ->
  tree H e st k q n -> tree H e' st k q n.
Proof using.
  intros e e' st. induction n as [h|s h ser l IHl r IHr|s h d]; intros k q HA HT; cbn [tree] in *.
  - destruct HT as [-> HT]. split; [apply nv_agree; assumption|]. eapply stored_agree; eauto.
  - destruct k as [|k]; [destruct HT|]. destruct HT as (T1 & T2 & T3 & T4).
    assert (A1 : forall i, 2 * q * 2 ^ Z.of_nat k <= i < (2 * q + 1) * 2 ^ Z.of_nat k -> e i = e' i)
      by (intros i Hi; apply HA; rewrite pow_S; pose proof (pow2_pos k); lia).
    assert (A2 : forall i, (2 * q + 1) * 2 ^ Z.of_nat k <= i < (2 * q + 1 + 1) * 2 ^ Z.of_nat k -> e i = e' i)
      by (intros i Hi; apply HA; rewrite pow_S; pose proof (pow2_pos k); lia).
    split; [auto|]. split; [auto|]. split; [intros Hs; destruct (T3 Hs) as [-> ->]; split; [apply nv_agree; assumption|f_equal; apply nv_agree; assumption]|].
    intros Hs. eapply stored_agree; eauto.
  - destruct HT as (-> & HT & HT'). split; [reflexivity|]. split; [|assumption]. rewrite HT. apply HA. change (2 ^ Z.of_nat 0) with 1. lia.
Qed.

Lemma slots_agree : forall e e' st rs i m, 0 <= m -> (forall j, 0 <= j < m * 2 ^ Z.of_nat i -> e j = e' j) ->
  slots H e st i m rs -> slots H e' st i m rs.
Proof using.
  intros e e' st. induction rs as [|[n|] rs IH]; intros i m Hm HA HS; cbn [slots] in *; [assumption| |].
  - destruct HS as (S1 & S2 & S3). pose proof (odd_half _ S1). pose proof (Z.div_pos m 2 Hm ltac:(lia)). pose proof (pow2_pos i).
    split; [assumption|]. split; [apply (tree_agree e e'); [intros j Hj; apply HA; nia|assumption]|].
    apply IH; [assumption| |assumption]. intros j Hj. apply HA. rewrite pow_S in Hj. nia.
  - destruct HS as (S1 & S3). assert (S1' : Z.odd m = false) by (rewrite <- Z.negb_even, (proj2 S1); reflexivity).
    pose proof (even_half _ S1'). pose proof (Z.div_pos m 2 Hm ltac:(lia)). pose proof (pow2_pos i).
    split; [assumption|]. apply IH; [assumption| |assumption]. intros j Hj. apply HA. rewrite pow_S in Hj. nia.
Qed.

Lemma inv_agree : forall e e' st n a, (forall j, 0 <= j < n -> e j = e' j) -> inv H e st n a -> inv H e' st n a.
Proof using.
  intros e e' st n a HA (I1 & I2 & I3). split; [assumption|]. split; [assumption|]. apply (slots_agree e e'); [assumption| |assumption].
  change (2 ^ Z.of_nat 0) with 1. intros j Hj. apply HA. lia.
Qed.

(** ** sequences given as lists *)
Definition seq_of (hs : list (list Z)) (i : Z) : list Z := nth (Z.to_nat i) hs (repeat 0 32).

Lemma seq_of_32 : forall hs, all32 hs -> forall i, length (seq_of hs i) = 32%nat.
Proof using.
  intros hs HA i. unfold seq_of. destruct (Nat.lt_ge_cases (Z.to_nat i) (length hs)) as [Hl|Hl].
  - unfold all32 in HA. rewrite Forall_forall in HA. apply HA. apply nth_In. assumption.
  - rewrite nth_overflow by assumption. reflexivity.
Qed.

Lemma seq_of_app : forall hs x j, 0 <= j < zlen hs -> seq_of hs j = seq_of (hs ++ x) j.
Proof using. intros hs x j Hj. unfold seq_of, zlen in *. rewrite app_nth1 by lia. reflexivity. Qed.
Lemma seq_of_last : forall hs x, seq_of (hs ++ [x]) (zlen hs) = x.
Proof using. intros hs x. unfold seq_of, zlen. rewrite Nat2Z.id, app_nth2, Nat.sub_diag by lia. reflexivity. Qed.

Definition holds (st : store) (hs : list (list Z)) (a : acc) : Prop := inv H (seq_of hs) st (zlen hs) a.

Lemma holds_new : forall st, holds st [] new_acc.
Proof using. intros. apply inv_new. Qed.

Lemma holds_add : forall st hs a nd x, holds st hs a -> all32 (hs ++ [x]) -> zlen hs < 2 ^ 62 ->
  tree H (fun _ => x) st 0 0 nd -> holds st (hs ++ [x]) (fst (AddNode H a nd)).
Proof using HD.
  intros st hs a nd x HI HA HB HT. unfold holds. rewrite zlen_app. change (zlen [x]) with 1.
  apply inv_AddNode; [assumption|apply seq_of_32; assumption| |assumption|].
  - eapply inv_agree; [|exact HI]. intros j Hj. apply seq_of_app. assumption.
  - destruct nd; cbn [tree nv stored] in *; rewrite ?seq_of_last; tauto.
Qed.
End Pers.
