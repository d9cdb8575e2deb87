(** Theorems about the lists of numbers in the events of the sample multi token (javascore/fee-aggregation/SampleMultiToken/util/rlp.py). *)
From Coq Require Import String Ascii ZArith List Bool Lia.
From Coq Require Import ZifyBool.
From Verif Require Import Base L_Base GoStr M_JMap M_Rlp S_Rlp M_Irc31 S_Irc31 L_Irc31Rlp.
Import ListNotations.
Open Scope Z_scope.
Local Notation bytes := (list Z).

(** A list of numbers from 0 up to 2^53 - 1 is written as the RLP of these numbers *)
Theorem C109_exact : forall l, Forall (fun x => 0 <= x < 2 ^ 53) l -> zlen l < 2 ^ 48 -> exists b, rlp_list l = Some b /\ numbers l b.
Proof.
  intros l F L. unfold rlp_list. assert (Ff : forallb fits l = true) by (apply forallb_forall; rewrite Forall_forall in F; intros x I; apply fits_small, F, I). rewrite Ff. cbv zeta. eexists. split; [reflexivity|].
  exists (map int_to_bytes l). assert (N : Forall2 number l (map int_to_bytes l)) by (clear L Ff; induction F as [|x l H F IH]; cbn [map]; constructor; [apply int_small, H|exact IH]). split; [exact N|].
  assert (Len : forall x, 0 <= x < 2 ^ 53 -> zlen (int_to_bytes x) <= 7) by (intros x H; unfold zlen, int_to_bytes; pose proof (itb_len 7 x H ltac:(change (256 ^ Z.of_nat 7) with (2 ^ 56); lia) (S (Z.to_nat (Z.log2 (Z.abs x))))); lia).
  assert (Ob : forall x, 0 <= x < 2 ^ 53 -> bytes_ok (int_to_bytes x)) by (intros x H; destruct (int_small x H) as [[_ ->]|[_ (A & _)]]; [constructor|exact A]).
  assert (E8 : forall x, 0 <= x < 2 ^ 53 -> zlen (enc_bytes (int_to_bytes x)) <= 8).
  { intros x H. specialize (Len x H). assert (G : forall b, zlen b <= 7 -> zlen (enc_bytes b) <= 8). { clear. intros b Lb. assert (X : zlen (enc_length (zlen b) 128 ++ b) <= 8) by (unfold enc_length; replace (zlen b <=? 55) with true by lia; unfold zlen in *; cbn [app length]; lia). destruct b as [|y [|z r]]; cbn [enc_bytes]; [exact X|destruct (y <? 128); [lia|exact X]|exact X]. } apply G, Len. }
  assert (Body : rlp_spec_all (map RBytes (map int_to_bytes l)) (flat_map (fun e => enc_bytes (int_to_bytes e)) l) /\ 0 <= zlen (flat_map (fun e => enc_bytes (int_to_bytes e)) l) <= 8 * zlen l).
  { clear L Ff N. induction F as [|x l H F [I1 I2]]; cbn [map flat_map]; [split; [constructor|unfold zlen; cbn; lia]|]. split; [apply sp_cons; [apply enc_bytes_ok; [apply Ob, H|specialize (Len x H); lia]|exact I1]|]. specialize (E8 x H). unfold zlen in *. rewrite app_length. cbn [length]. lia. }
  apply sp_list; [apply Body|]. apply enc_length_ok. lia.
Qed.
Print Assumptions C109_exact.
(** What is written is int_to_bytes as it recurses, for every number (the model's fuel is enough) *)
Theorem C109_recursion : forall x, int_to_bytes x = if x =? 0 then [] else int_to_bytes (div256 x) ++ [x mod 256].
Proof. exact itb_eq. Qed.
Print Assumptions C109_recursion.
(** A number of more than 53 bits is taken to the nearest multiple of a power of 2 that leaves 53 bits, and to the even one of two that are equally near. *)
Theorem C109_rounding : forall x k, 52 < k -> 2 ^ k <= Z.abs x < 2 ^ (k + 1) ->
  exists m, round53 x = m * 2 ^ (k - 52) /\ 2 * Z.abs (round53 x - x) <= 2 ^ (k - 52) /\ (2 * Z.abs (round53 x - x) = 2 ^ (k - 52) -> exists h, m = 2 * h).
Proof.
  intros x k K B. assert (L : Z.log2 (Z.abs x) = k) by (apply Z.log2_unique; lia). unfold round53. cbv zeta. rewrite L. replace (k - 52 <=? 0) with false by lia.
  assert (PK : 0 < 2 ^ (k - 52 - 1)) by (apply Z.pow_pos_nonneg; lia). assert (HK : 2 ^ (k - 52) = 2 * 2 ^ (k - 52 - 1)) by (rewrite <- Z.pow_succ_r by lia; f_equal; lia). rewrite HK. clear HK B L.
  set (h := 2 ^ (k - 52 - 1)) in *. clearbody h. pose proof (Z.div_mod (Z.abs x) (2 * h) ltac:(lia)) as E. pose proof (Z.mod_pos_bound (Z.abs x) (2 * h) ltac:(lia)) as R.
  set (q := Z.abs x / (2 * h)) in *. set (r := Z.abs x mod (2 * h)) in *. clearbody q r.
  set (u := if (h <? r) || (h =? r) && Z.odd q then q + 1 else q). exists (Z.sgn x * u). split; [ring|].
  assert (D : Z.abs (Z.sgn x * (u * (2 * h)) - x) = Z.abs (u * (2 * h) - Z.abs x) \/ x = 0) by (destruct (Z.lt_trichotomy x 0) as [X|[X|X]]; [left; rewrite Z.sgn_neg by lia; lia|right; exact X|left; rewrite Z.sgn_pos by lia; lia]).
  destruct D as [D|D]; [|subst x; change (Z.sgn 0) with 0; rewrite !Z.mul_0_l; cbn [Z.sub Z.opp Z.abs Z.add]; split; [lia|intros X; lia]].
  rewrite D, E. unfold u. destruct (h <? r) eqn:E1; cbn [orb].
  - split; [nia|]. intros X. exfalso. nia.
  - destruct (h =? r) eqn:E2; cbn [andb].
    + assert (r = h) by lia. subst r. destruct (Z.odd q) eqn:O.
      * split; [nia|]. intros _. apply Z.odd_spec in O. destruct O as [w O]. exists (Z.sgn x * (w + 1)). rewrite O. ring.
      * split; [nia|]. intros _. assert (V : Z.even q = true) by (rewrite <- Z.negb_odd, O; reflexivity). apply Z.even_spec in V. destruct V as [w V]. exists (Z.sgn x * w). rewrite V. ring.
    + split; [nia|]. intros X. exfalso. nia.
Qed.
Print Assumptions C109_rounding.
Example C109_ex_rounding : round53 (2 ^ 53 + 1) = 2 ^ 53 /\ round53 (2 ^ 53 + 3) = 2 ^ 53 + 4 /\ 2 ^ 53 <= Z.abs (2 ^ 53 + 3) < 2 ^ (53 + 1).
Proof. split; [vm_compute; reflexivity|]. split; [vm_compute; reflexivity|]. cbn; lia. Qed.
Example C109_ex_exact : rlp_list [0; 1; 127; 128; 256; 2 ^ 53 - 1] = Some [208; 128; 1; 127; 129; 128; 130; 1; 0; 135; 31; 255; 255; 255; 255; 255; 255].
Proof. vm_compute. reflexivity. Qed.
(** From 2^53 on the division of doubles rounds: the number written is another, and two numbers are written alike *)
Theorem C109_large_refuted : ~ (forall x, 0 <= x -> be_val (int_to_bytes x) = x) /\ be_val (int_to_bytes (2 ^ 53 + 255)) = 2 ^ 53 + 511 /\
  rlp_list [2 ^ 64 - 1] = rlp_list [2 ^ 64 + 255] /\ rlp_list [2 ^ 64 - 1] <> None.
Proof.
  split; [intros H; specialize (H (2 ^ 53 + 255) ltac:(lia)); revert H; vm_compute; discriminate|]. split; [vm_compute; reflexivity|]. split; [vm_compute; reflexivity|vm_compute; discriminate].
Qed.
Print Assumptions C109_large_refuted.
(** Amounts of a token with 18 decimals are hit: 36 tokens less one are written as 36 tokens and 255 *)
Example C109_ex_amount : let x := 36 * 10 ^ 18 - 1 in be_val (int_to_bytes x) = 36 * 10 ^ 18 + 255.
Proof. vm_compute. reflexivity. Qed.
(** Ids below zero are written as others that exist: -1 as 255, and -257 as 65535 *)
Theorem C109_negative_refuted : rlp_list [-1] = rlp_list [255] /\ rlp_list [-257] = rlp_list [65535] /\ rlp_list [-1] <> None.
Proof. vm_compute. repeat split; try reflexivity. discriminate. Qed.
Print Assumptions C109_negative_refuted.
(** So the events of two batches can be the same although other tokens moved: a token with id -1 and one with id 255 *)
Local Definition ua : bytes := str "hxa".
Local Definition ub : bytes := str "hxb".
Local Definition both := mrun mt_installed [MMint ua (-1) 100 (str "u"); MMint ua 255 100 (str "v")].
Definition seen (e : mevent) : bytes * bytes * bytes * bytes * bytes := match e with EBatch o f t i v _ => (o, f, t, i, v) | _ => ([], [], [], [], []) end.
Theorem C109_events_refuted : exists s1 s2 e1 e2, mdo both (MBatch ua ua ub [-1] [7]) = Some s1 /\ mdo both (MBatch ua ua ub [255] [7]) = Some s2 /\
  m_ev s1 = m_ev both ++ [e1] /\ m_ev s2 = m_ev both ++ [e2] /\ seen e1 = seen e2 /\ seen e1 <> ([], [], [], [], []) /\ mbal s1 255 ub = 0 /\ mbal s2 255 ub = 7.
Proof. eexists _, _, _, _. split; [vm_compute; reflexivity|]. split; [vm_compute; reflexivity|]. split; [vm_compute; reflexivity|]. split; [vm_compute; reflexivity|]. vm_compute. repeat split; try reflexivity. discriminate. Qed.
Print Assumptions C109_events_refuted.
(** What does not fit in a double can be sent alone and not in a batch *)
Theorem C109_overflow_refuted : exists v, let s := mrun mt_installed [MMint ua 1 v (str "u")] in mdo s (MTransfer ua ua ub 1 v) <> None /\ mdo s (MBatch ua ua ub [1] [v]) = None.
Proof. exists (2 ^ 1032). split; vm_compute; [discriminate|reflexivity]. Qed.
Print Assumptions C109_overflow_refuted.
