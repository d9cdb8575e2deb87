(** Theorems about sending transactions: C51, and the mapping of node errors (C31). *)
From Coq Require Import String Ascii ZArith List Bool Lia.
From Coq Require Import ZifyBool.
From Verif Require Import Base L_Base M_IntConv L_IntConv GoStr M_Address M_Errors S_Errors M_Sender M_SendTx.
Import ListNotations.
Open Scope Z_scope.

(** * Specification *)
(** The text of a system error carries a four digit code after its first character, as in "[2002] ...". *)
Definition carries (msg : list Z) (code : list Z) : Prop := exists c rest, msg = c :: code ++ rest.

(** What the node said about one request. *)
Definition says_full (x : exchange) : Prop := exists ok j r m, x = Response ok j true (Members (Some (-31001, m)) r) /\ (ok = true \/ j = true).
Definition says_system (x : exchange) (code : list Z) : Prop := exists ok j r m, x = Response ok j true (Members (Some (-31000, m)) r) /\ (ok = true \/ j = true) /\ carries m code.
Definition says_expired (x : exchange) : Prop := says_system x (str "2002").
Definition says_duplicate (x : exchange) : Prop := says_system x (str "2000").
Definition says_accepted (x : exchange) (h : list Z) : Prop := exists j, x = Response true j true (Members None (RString h)) \/ (h = [] /\ x = Response true j true (Members None RAbsent)).
(** Requests are repeated for these two answers only. *)
Definition again (x : exchange) : Prop := says_full x \/ says_expired x.
(** The first answer that ends the loop, and what came before. *)
Definition decides (xs pre : list exchange) (x : exchange) : Prop := exists post, xs = pre ++ x :: post /\ Forall again pre /\ ~ again x.

(** * The four characters *)
Lemma dval : forall c d, digit_of c = Some d -> d < 10 -> c = 48 + d /\ 0 <= d.
Proof.
  intros c d. unfold digit_of. change (ch "0") with 48. change (ch "9") with 57. change (ch "a") with 97. change (ch "z") with 122.
  destruct ((48 <=? c) && (c <=? 57)) eqn:E; [intros [= <-]; lia|]. match goal with |- context [if ?b then _ else _] => destruct b eqn:E2 end; [|discriminate]. intros [= <-] H. lia.
Qed.
Lemma loop_small : forall base max s n us us' x k, 2 <= base <= 16 -> 2 ^ 16 <= max < 2 ^ 64 -> 0 <= n < base ^ Z.of_nat k -> (k + length s <= 4)%nat ->
  ParseUint_loop base max us n s = (us', PU_ok x) -> 0 <= x < base ^ Z.of_nat (k + length s).
Proof.
  intros base max. induction s as [|c s IH]; intros n us us' x k HB HM Hn HL E; cbn [ParseUint_loop] in E.
  - assert (x = n) by congruence. subst. cbn [length]. rewrite Nat.add_0_r. lia.
  - cbn [length] in HL. assert (P4 : base ^ Z.of_nat (k + S (length s)) <= 2 ^ 16).
    { transitivity (16 ^ Z.of_nat (k + S (length s))); [apply Z.pow_le_mono_l; lia|]. transitivity (16 ^ 4); [apply Z.pow_le_mono_r; lia|]. reflexivity. }
    assert (PK : base ^ Z.of_nat (S k) <= base ^ Z.of_nat (k + S (length s))) by (apply Z.pow_le_mono_r; lia).
    assert (PS : base ^ Z.of_nat (S k) = base * base ^ Z.of_nat k) by (rewrite Nat2Z.inj_succ, Z.pow_succ_r by lia; reflexivity).
    cbn [length]. destruct (c =? ch "_").
    + pose proof (IH _ _ _ _ k HB HM Hn ltac:(lia) E) as X. assert (base ^ Z.of_nat (k + length s) <= base ^ Z.of_nat (k + S (length s))) by (apply Z.pow_le_mono_r; lia). lia.
    + destruct (digit_of c) as [d|] eqn:ED; [|discriminate]. destruct (Z.leb_spec base d); [discriminate|]. destruct (_ <=? n); [discriminate|].
      assert (0 <= d). { clear - ED. unfold digit_of in ED. change (ch "0") with 48 in ED. change (ch "9") with 57 in ED. change (ch "a") with 97 in ED. change (ch "z") with 122 in ED.
        destruct ((48 <=? c) && (c <=? 57)) eqn:E; [injection ED as <-; lia|]. match type of ED with context [if ?b then _ else _] => destruct b eqn:E2 end; [|discriminate]. injection ED as <-. lia. }
      assert (n * base + d < base ^ Z.of_nat (S k)) by nia.
      assert (0 <= n * base) by nia. change (2 ^ 16) with 65536 in *. cbv zeta in E. rewrite (u64_small (n * base)) in E by (change (2 ^ 64) with 18446744073709551616; lia). rewrite u64_small in E by (change (2 ^ 64) with 18446744073709551616; lia). destruct (_ || _); [discriminate|].
      replace (k + S (length s))%nat with (S k + length s)%nat by lia. apply (IH (n * base + d) us us' x (S k) HB HM ltac:(lia) ltac:(lia) E).
Qed.
Fixpoint dec_value (n : Z) (s : list Z) : Z := match s with [] => n | c :: r => dec_value (n * 10 + (c - 48)) r end.
Lemma loop_dec : forall max s n us us' x k, 2 ^ 16 <= max < 2 ^ 64 -> 0 <= n < 10 ^ Z.of_nat k -> (k + length s <= 4)%nat ->
  ParseUint_loop 10 max us n s = (us', PU_ok x) -> (Forall (fun c => 48 <= c <= 57) s /\ x = dec_value n s) \/ x < 10 ^ Z.of_nat (k + length s - 1).
Proof.
  intros max. induction s as [|c s IH]; intros n us us' x k HM Hn HL E; cbn [ParseUint_loop] in E.
  - left. split; [constructor|]. cbn [dec_value]. congruence.
  - cbn [length] in *. destruct (c =? ch "_").
    + right. pose proof (loop_small 10 max s n _ _ x k ltac:(lia) HM Hn ltac:(lia) E). replace (k + S (length s) - 1)%nat with (k + length s)%nat by lia. lia.
    + destruct (digit_of c) as [d|] eqn:ED; [|discriminate]. destruct (Z.leb_spec 10 d); [discriminate|]. destruct (dval c d ED H) as [-> Hd]. destruct (_ <=? n); [discriminate|].
      assert (P4 : 10 ^ Z.of_nat (S k) <= 10 ^ 4) by (apply Z.pow_le_mono_r; lia). change (10 ^ 4) with 10000 in P4. rewrite Nat2Z.inj_succ, Z.pow_succ_r in P4 by lia.
      cbv zeta in E. rewrite (u64_small (n * 10)) in E by lia. rewrite u64_small in E by lia. destruct (_ || _); [discriminate|].
      destruct (IH (n * 10 + d) us us' x (S k) HM ltac:(rewrite Nat2Z.inj_succ, Z.pow_succ_r by lia; lia) ltac:(lia) E) as [[HF ->]|HX].
      * left. split; [constructor; [lia|exact HF]|]. cbn [dec_value]. f_equal. lia.
      * right. replace (k + S (length s) - 1)%nat with (S k + length s - 1)%nat by lia. exact HX.
Qed.
(** Four characters read as a number of four digits are its digits. *)
Lemma four : forall a b c d n, 1000 <= n -> strconv_ParseInt0 [a; b; c; d] 32 = Some n -> n = dec_value 0 [a; b; c; d] /\ Forall (fun c => 48 <= c <= 57) [a; b; c; d].
Proof.
  intros a b c d n Hn E. unfold strconv_ParseInt0 in E. 
  assert (Z32 : 2 ^ 16 <= 2 ^ 32 - 1 < 2 ^ 64) by lia.
  assert (HU : forall s x, (length s <= 3)%nat -> strconv_ParseUint0 s 32 = PU_ok x -> 0 <= x < 1000).
  { intros s x HL EU. unfold strconv_ParseUint0 in EU. destruct s as [|c0 s1]; [discriminate|]. cbn [length] in HL.
    match type of EU with (let '(base, body) := ?p in _) = _ => assert (HP : (fst p = 10 /\ (length (snd p) <= 3)%nat) \/ (fst p = 8 /\ (length (snd p) <= 2)%nat) \/ ((fst p = 2 \/ fst p = 16) /\ (length (snd p) <= 1)%nat)); [|destruct p as [base body]] end.
    { destruct (c0 =? ch "0"); [|left; cbn [fst snd length]; lia]. right. destruct s1 as [|c1 [|c2 s2]]; cbn [fst snd length] in *; try lia. destruct (lower c1 =? ch "b"), (lower c1 =? ch "o"), (lower c1 =? ch "x"); cbn [fst snd length]; lia. }
    cbn [fst snd] in HP. destruct (ParseUint_loop base (2 ^ 32 - 1) false 0 body) as [us r] eqn:EL. destruct r as [m| |m]; try discriminate. destruct (us && _); [discriminate|]. injection EU as ->.
    assert (HB : 2 <= base <= 16) by lia. pose proof (loop_small base _ body 0 false us x 0 HB Z32 ltac:(cbn; lia) ltac:(lia) EL) as HX. cbn [Nat.add] in HX.
    destruct HP as [[-> HP]|[[-> HP]|[HP1 HP]]]; (assert (HY : x < 1000); [|lia]).
    - assert (10 ^ Z.of_nat (length body) <= 10 ^ 3) by (apply Z.pow_le_mono_r; lia). lia.
    - assert (8 ^ Z.of_nat (length body) <= 8 ^ 2) by (apply Z.pow_le_mono_r; lia). lia.
    - assert (base ^ Z.of_nat (length body) <= base ^ 1) by (apply Z.pow_le_mono_r; lia). lia. }
  assert (HR : forall s x, strconv_ParseUint0 s 32 = PU_range x -> x = 2 ^ 32 - 1).
  { intros s x EU. unfold strconv_ParseUint0 in EU. destruct s as [|c0 s1]; [discriminate|]. destruct (if c0 =? ch "0" then _ else _) as [base body].
    assert (HL : forall body us n us' x, ParseUint_loop base (2 ^ 32 - 1) us n body = (us', PU_range x) -> x = 2 ^ 32 - 1).
    { clear. induction body as [|c s IH]; intros us n us' x E; cbn [ParseUint_loop] in E; [discriminate|]. destruct (c =? ch "_"); [apply (IH _ _ _ _ E)|]. destruct (digit_of c); [|discriminate]. destruct (base <=? z); [discriminate|].
      destruct (_ <=? n); [congruence|]. cbv zeta in E. destruct (_ || _); [congruence|apply (IH _ _ _ _ E)]. }
    destruct (ParseUint_loop base (2 ^ 32 - 1) false 0 body) as [us r] eqn:EL. destruct r as [m| |m]; try discriminate; [destruct (us && _); discriminate|]. injection EU as ->. apply (HL _ _ _ _ _ EL). }
  match type of E with (let '(neg, body) := ?p in _) = _ => assert (HP : (snd p = [b; c; d]) \/ p = (false, [a; b; c; d])); [|destruct p as [neg body]] end.
  { destruct (a =? ch "+"); [left; reflexivity|]. destruct (a =? ch "-"); [left; reflexivity|right; reflexivity]. }
  cbn [snd] in HP. change (2 ^ (32 - 1)) with (2 ^ 31) in E. cbv zeta in E.
  destruct (strconv_ParseUint0 body 32) as [un| |un] eqn:EU; [|discriminate|].
  2:{ exfalso. pose proof (HR _ _ EU). subst un. destruct neg; cbn [negb andb] in E; [change (2 ^ 31 <? 2 ^ 32 - 1) with true in E|change (2 ^ 31 <=? 2 ^ 32 - 1) with true in E]; discriminate. }
  destruct HP as [->|HP].
  - exfalso. pose proof (HU [b; c; d] un ltac:(cbn; lia) EU). destruct (negb neg && (2 ^ 31 <=? un)); [discriminate|]. destruct (neg && (2 ^ 31 <? un)); [discriminate|]. injection E as E. rewrite i64_small in E by (destruct neg; lia). destruct neg; lia.
  - injection HP as -> ->. cbn [negb andb] in E. destruct (Z.leb_spec (2 ^ 31) un); [discriminate|]. injection E as E.
    unfold strconv_ParseUint0 in EU. destruct (a =? ch "0") eqn:EA.
    + exfalso. destruct (lower b =? ch "b") eqn:B1; [|destruct (lower b =? ch "o") eqn:B2; [|destruct (lower b =? ch "x") eqn:B3]].
      * destruct (ParseUint_loop 2 (2 ^ 32 - 1) false 0 [c; d]) as [us r] eqn:EL. destruct r as [m| |m]; try discriminate. destruct (us && _); [discriminate|]. injection EU as ->.
        pose proof (loop_small 2 _ [c; d] 0 false us un 0 ltac:(lia) Z32 ltac:(cbn; lia) ltac:(cbn; lia) EL) as X. change (2 ^ Z.of_nat (0 + length [c; d])) with 4 in X. rewrite i64_small in E by lia. lia.
      * destruct (ParseUint_loop 8 (2 ^ 32 - 1) false 0 [c; d]) as [us r] eqn:EL. destruct r as [m| |m]; try discriminate. destruct (us && _); [discriminate|]. injection EU as ->.
        pose proof (loop_small 8 _ [c; d] 0 false us un 0 ltac:(lia) Z32 ltac:(cbn; lia) ltac:(cbn; lia) EL) as X. change (8 ^ Z.of_nat (0 + length [c; d])) with 64 in X. rewrite i64_small in E by lia. lia.
      * destruct (ParseUint_loop 16 (2 ^ 32 - 1) false 0 [c; d]) as [us r] eqn:EL. destruct r as [m| |m]; try discriminate. destruct (us && _); [discriminate|]. injection EU as ->.
        pose proof (loop_small 16 _ [c; d] 0 false us un 0 ltac:(lia) Z32 ltac:(cbn; lia) ltac:(cbn; lia) EL) as X. change (16 ^ Z.of_nat (0 + length [c; d])) with 256 in X. rewrite i64_small in E by lia. lia.
      * destruct (ParseUint_loop 8 (2 ^ 32 - 1) false 0 [b; c; d]) as [us r] eqn:EL. destruct r as [m| |m]; try discriminate. destruct (us && _); [discriminate|]. injection EU as ->.
        pose proof (loop_small 8 _ [b; c; d] 0 false us un 0 ltac:(lia) Z32 ltac:(cbn; lia) ltac:(cbn; lia) EL) as X. change (8 ^ Z.of_nat (0 + length [b; c; d])) with 512 in X. rewrite i64_small in E by lia. lia.
    + destruct (ParseUint_loop 10 (2 ^ 32 - 1) false 0 [a; b; c; d]) as [us r] eqn:EL. destruct r as [m| |m]; try discriminate. destruct (us && _); [discriminate|]. injection EU as ->.
      pose proof (loop_small 10 _ [a; b; c; d] 0 false us un 0 ltac:(lia) Z32 ltac:(cbn; lia) ltac:(cbn; lia) EL) as X. change (10 ^ Z.of_nat (0 + length [a; b; c; d])) with 10000 in X. rewrite i64_small in E by lia. subst un. clear X.
      destruct (loop_dec _ [a; b; c; d] 0 false us n 0 Z32 ltac:(cbn; lia) ltac:(cbn; lia) EL) as [[HF ->]|HX]; [auto|]. exfalso. change (10 ^ Z.of_nat (0 + length [a; b; c; d] - 1)) with 1000 in HX. lia.
Qed.
Lemma four_unique : forall a b c d n, 1000 <= n -> strconv_ParseInt0 [a; b; c; d] 32 = Some n -> [a; b; c; d] = [48 + n / 1000; 48 + n / 100 mod 10; 48 + n / 10 mod 10; 48 + n mod 10].
Proof.
  intros a b c d n Hn E. destruct (four a b c d n Hn E) as [-> HF]. cbn [dec_value]. inversion HF as [|? ? A HF1]; subst. inversion HF1 as [|? ? B HF2]; subst. inversion HF2 as [|? ? C HF3]; subst. inversion HF3 as [|? ? D _]; subst.
  repeat (f_equal; [Z.to_euclidean_division_equations; lia|]). f_equal. Z.to_euclidean_division_equations; lia.
Qed.
(** The sub code is [n] exactly when the text carries its digits. *)
Lemma sub_code_iff : forall msg n, 2000 <= n <= 2003 -> (sub_code msg = Ok (Some n) <-> carries msg [50; 48; 48; n - 1952]).
Proof.
  intros msg n Hn. unfold sub_code, carries. split.
  - destruct (Nat.ltb_spec (length msg) 5); [discriminate|]. intros E. injection E as E. destruct msg as [|x [|a [|b [|c [|d rest]]]]]; cbn [length] in *; try lia. exists x, rest.
    change (firstn 4 (skipn 1 (x :: a :: b :: c :: d :: rest))) with [a; b; c; d] in E. pose proof (four_unique a b c d n ltac:(lia) E) as X.
    assert (Y : [48 + n / 1000; 48 + n / 100 mod 10; 48 + n / 10 mod 10; 48 + n mod 10] = [50; 48; 48; n - 1952]).
    { repeat (f_equal; [Z.to_euclidean_division_equations; lia|]). f_equal. Z.to_euclidean_division_equations; lia. }
    rewrite Y in X. injection X as -> -> -> ->. reflexivity.
  - intros (x & rest & ->). cbn [app length]. replace (S (S (S (S (S (length rest))))) <? 5)%nat with false by (symmetry; apply Nat.ltb_ge; lia). change (firstn 4 (skipn 1 (x :: 50 :: 48 :: 48 :: n - 1952 :: rest))) with [50; 48; 48; n - 1952].
    assert (H : n = 2000 \/ n = 2001 \/ n = 2002 \/ n = 2003) by lia. destruct H as [->|[->|[->| ->]]]; vm_compute; reflexivity.
Qed.

(** * Errors of the node *)
(** What an error is reported as (specification of MapError). *)
Inductive maps : rpc_err -> mapped -> Prop :=
| mp_full : forall m, maps (JsonErr (-31001) m) SendFailByOverflow
| mp_pool : forall m, carries m (str "2001") -> maps (JsonErr (-31000) m) SendFailByOverflow
| mp_expired : forall m, carries m (str "2002") -> maps (JsonErr (-31000) m) SendFailByExpired
| mp_future : forall m, carries m (str "2003") -> maps (JsonErr (-31000) m) SendFailByFuture
| mp_system : forall m, (5 <= length m)%nat -> ~ carries m (str "2001") -> ~ carries m (str "2002") -> ~ carries m (str "2003") -> maps (JsonErr (-31000) m) (Raw (JsonErr (-31000) m))
| mp_pending : forall m, maps (JsonErr (-31002) m) GetResultFailByPending
| mp_executing : forall m, maps (JsonErr (-31003) m) GetResultFailByPending
| mp_json : forall c m, ~ In c [-31000; -31001; -31002; -31003] -> maps (JsonErr c m) (Raw (JsonErr c m))
| mp_http : maps HttpErr ConnectFail
| mp_refused : maps (UrlErr true) ConnectFail
| mp_url : maps (UrlErr false) (Raw (UrlErr false))
| mp_other : maps OtherErr (Raw OtherErr).

Lemma sub2001 : forall msg, sub_code msg = Ok (Some 2001) <-> carries msg (str "2001").
Proof. intros. apply (sub_code_iff msg 2001). lia. Qed.
Lemma sub2002 : forall msg, sub_code msg = Ok (Some 2002) <-> carries msg (str "2002").
Proof. intros. apply (sub_code_iff msg 2002). lia. Qed.
Lemma sub2003 : forall msg, sub_code msg = Ok (Some 2003) <-> carries msg (str "2003").
Proof. intros. apply (sub_code_iff msg 2003). lia. Qed.
Lemma sub2000 : forall msg, sub_code msg = Ok (Some 2000) <-> carries msg (str "2000").
Proof. intros. apply (sub_code_iff msg 2000). lia. Qed.
Lemma carries_len : forall msg code, length code = 4%nat -> carries msg code -> (5 <= length msg)%nat.
Proof. intros msg code H (c & r & ->). cbn [length]. rewrite app_length. lia. Qed.

Lemma MapError_sub : forall msg, MapError (Some (JsonErr (-31000) msg)) =
  match sub_code msg with
  | Ok (Some c) => if c =? 2002 then Ok (Some SendFailByExpired) else if c =? 2003 then Ok (Some SendFailByFuture) else if c =? 2001 then Ok (Some SendFailByOverflow) else Ok (Some (Raw (JsonErr (-31000) msg)))
  | Ok None => Ok (Some (Raw (JsonErr (-31000) msg)))
  | _ => Panic
  end.
Proof. intros msg. unfold MapError, sub_code. change (-31000 =? JsonrpcTxPoolOverflow) with false. change (-31000 =? JsonrpcSystem) with true. cbv iota. destruct (length msg <? 5)%nat; reflexivity. Qed.

(** Every error is reported as the specification says, and the only errors that are not are system errors whose text is
    too short to hold a code: those end the program. *)
Theorem C31_map_error : forall e, (forall m, MapError (Some e) = Ok (Some m) <-> maps e m) /\
  (MapError (Some e) = Panic <-> exists msg, e = JsonErr (-31000) msg /\ (length msg < 5)%nat) /\ MapError None = Ok None.
Proof.
  assert (MS : forall msg, (5 <= length msg)%nat -> exists s, sub_code msg = Ok s).
  { intros msg H. unfold sub_code. destruct (Nat.ltb_spec (length msg) 5); [lia|eauto]. }
  intros e. split; [|split; [|reflexivity]].
  - intros m. split.
    + intros E. destruct e as [c msg| |[|]|]; try (injection E as <-; constructor).
      destruct (Z.eq_dec c (-31000)) as [->|N0].
      * destruct (Nat.ltb_spec (length msg) 5) as [HL|HL]; [exfalso; rewrite MapError_sub in E; unfold sub_code in E; destruct (Nat.ltb_spec (length msg) 5); [discriminate|lia]|].
        destruct (MS msg HL) as [s ESS]. rewrite MapError_sub, ESS in E.
        assert (NC : forall n code, (sub_code msg = Ok (Some n) <-> carries msg code) -> s <> Some n -> ~ carries msg code) by (intros n code H1 H2 H3; apply H1 in H3; congruence).
        destruct s as [v|].
        -- destruct (Z.eqb_spec v 2002) as [EV|A]; [subst v; injection E as <-; apply mp_expired; apply sub2002; assumption|]. destruct (Z.eqb_spec v 2003) as [EV|B]; [subst v; injection E as <-; apply mp_future; apply sub2003; assumption|].
           destruct (Z.eqb_spec v 2001) as [EV|C]; [subst v; injection E as <-; apply mp_pool; apply sub2001; assumption|]. injection E as <-.
           apply mp_system; [lia|apply (NC 2001 _ (sub2001 msg)); congruence|apply (NC 2002 _ (sub2002 msg)); congruence|apply (NC 2003 _ (sub2003 msg)); congruence].
        -- injection E as <-. apply mp_system; [lia|apply (NC 2001 _ (sub2001 msg)); congruence|apply (NC 2002 _ (sub2002 msg)); congruence|apply (NC 2003 _ (sub2003 msg)); congruence].
      * unfold MapError, JsonrpcTxPoolOverflow, JsonrpcSystem, JsonrpcPending, JsonrpcExecuting in E. destruct (Z.eqb_spec c (-31001)) as [->|N1]; [injection E as <-; constructor|]. destruct (Z.eqb_spec c (-31000)); [contradiction|].
        destruct (Z.eqb_spec c (-31002)) as [->|N2]; [injection E as <-; constructor|]. destruct (Z.eqb_spec c (-31003)) as [->|N3]; [injection E as <-; constructor|]. injection E as <-. apply mp_json. cbn [In]. intuition.
    + destruct 1 as [msg|msg H|msg H|msg H|msg HL H1 H2 H3|msg|msg|c msg H| | | |]; try reflexivity.
      * rewrite MapError_sub. apply sub2001 in H. rewrite H. reflexivity.
      * rewrite MapError_sub. apply sub2002 in H. rewrite H. reflexivity.
      * rewrite MapError_sub. apply sub2003 in H. rewrite H. reflexivity.
      * rewrite MapError_sub. destruct (MS msg HL) as [[s|] ES]; rewrite ES; [|reflexivity].
        destruct (Z.eqb_spec s 2002) as [->|A]; [apply sub2002 in ES; contradiction|].
        destruct (Z.eqb_spec s 2003) as [->|B]; [apply sub2003 in ES; contradiction|]. destruct (Z.eqb_spec s 2001) as [->|C]; [apply sub2001 in ES; contradiction|]. reflexivity.
      * cbn [In] in H. unfold MapError, JsonrpcTxPoolOverflow, JsonrpcSystem, JsonrpcPending, JsonrpcExecuting. replace (c =? -31001) with false by lia. replace (c =? -31000) with false by lia. replace (c =? -31002) with false by lia. replace (c =? -31003) with false by lia. reflexivity.
  - split.
    + destruct e as [c msg| |[|]|]; try discriminate. intros E. destruct (Z.eq_dec c (-31000)) as [->|N].
      * exists msg. split; [reflexivity|]. destruct (Nat.ltb_spec (length msg) 5) as [HL|HL]; [exact HL|]. exfalso. rewrite MapError_sub in E. destruct (MS msg HL) as [[s|] ES]; rewrite ES in E; [|discriminate]. destruct (s =? 2002); [discriminate|]. destruct (s =? 2003); [discriminate|]. destruct (s =? 2001); discriminate.
      * exfalso. unfold MapError, JsonrpcTxPoolOverflow, JsonrpcSystem in E. destruct (c =? -31001); [discriminate|]. destruct (Z.eqb_spec c (-31000)); [contradiction|]. destruct (_ || _); discriminate.
    + intros (msg & -> & HL). rewrite MapError_sub. unfold sub_code. destruct (Nat.ltb_spec (length msg) 5); [reflexivity|lia].
Qed.
Print Assumptions C31_map_error.

(** * The loop *)
(** What Do makes of an exchange. *)
Inductive fails : exchange -> rpc_err -> Prop :=
| fl_net : forall b, fails (NoResponse b) (UrlErr b)
| fl_json : forall ok j c m r, ok = true \/ j = true -> fails (Response ok j true (Members (Some (c, m)) r)) (JsonErr c m)
| fl_http : forall j ne b, ne = false \/ j = false -> fails (Response false j ne b) HttpErr
| fl_bad : forall ok j, ok = true \/ j = true -> fails (Response ok j true BadJson) OtherErr
| fl_empty : forall j b, fails (Response true j false b) OtherErr
| fl_type : forall j, fails (Response true j true (Members None RWrong)) OtherErr.

Lemma fails_iff : forall x e, SendTransaction x = Ok (inr (Rpc e)) <-> fails x e.
Proof.
  intros x e. split.
  - unfold SendTransaction, Do. destruct x as [b|[|] j [|] b]; cbn [andb].
    + intros [= <-]. constructor.
    + destruct b as [| |[[c m]|] [|s|]]; try discriminate; intros [= <-]; constructor; auto.
    + intros [= <-]. constructor.
    + destruct j; [|intros [= <-]; constructor; auto]. destruct b as [| |[[c m]|] r]; try discriminate; intros [= <-]; constructor; auto.
    + intros [= <-]. constructor; auto.
  - destruct 1 as [b|ok j c m r H|j ne b H|ok j H|j b|j]; try reflexivity.
    + unfold SendTransaction, Do. destruct ok; cbn [andb]; [reflexivity|]. destruct H as [H|H]; [discriminate|]. rewrite H. reflexivity.
    + unfold SendTransaction, Do. destruct ne, j; cbn [andb]; try reflexivity. destruct H; discriminate.
    + unfold SendTransaction, Do. destruct ok; cbn [andb]; [reflexivity|]. destruct H as [H|H]; [discriminate|]. rewrite H. reflexivity.
Qed.
Lemma accepted_iff : forall x h, SendTransaction x = Ok (inl h) <-> says_accepted x h.
Proof.
  intros x h. unfold says_accepted. split.
  - unfold SendTransaction, Do. destruct x as [b|[|] j [|] b]; cbn [andb]; try discriminate.
    + destruct b as [| |[[c m]|] [|s|]]; try discriminate; intros [= <-]; exists j; auto.
    + destruct j; [|discriminate]. destruct b as [| |[[c m]|] r]; discriminate.
  - intros (j & [->|[-> ->]]); reflexivity.
Qed.
Lemma full_iff : forall x, says_full x <-> exists m, fails x (JsonErr (-31001) m).
Proof.
  intros x. split.
  - intros (ok & j & r & m & -> & H). exists m. constructor. exact H.
  - intros (m & H). inversion H as [|ok j c m' r HX| | | |]; subst. exists ok, j, r, m. auto.
Qed.
Lemma system_iff : forall x code, says_system x code <-> exists m, fails x (JsonErr (-31000) m) /\ carries m code.
Proof.
  intros x code. split.
  - intros (ok & j & r & m & -> & H & HC). exists m. split; [constructor; exact H|exact HC].
  - intros (m & H & HC). inversion H as [|ok j c m' r HX| | | |]; subst. exists ok, j, r, m. auto.
Qed.
Lemma fails_fun : forall x e e', fails x e -> fails x e' -> e = e'.
Proof. intros x e e' H H'. apply fails_iff in H, H'. congruence. Qed.

(** Number of signings asked for by a list of answers that ask for repetition. *)
Inductive rounds : list exchange -> nat -> Prop :=
| rd_nil : rounds [] 0
| rd_full : forall l n x, rounds l n -> says_full x -> rounds (l ++ [x]) n
| rd_expired : forall l n x, rounds l n -> says_expired x -> rounds (l ++ [x]) (S n).

Section LOOP.
Context {T : Type}.
Variable sign : nat -> option T.
(** One step of the loop, by what the answer says. *)
Lemma step_full : forall i cur x r, says_full x -> send_loop sign i cur (x :: r) = (cur :: fst (send_loop sign i cur r), snd (send_loop sign i cur r)).
Proof. intros i cur x r H. apply full_iff in H. destruct H as [m H]. apply fails_iff in H. cbn [send_loop]. rewrite H. change (-31001 =? JsonrpcTxPoolOverflow) with true. cbv iota. destruct (send_loop sign i cur r). reflexivity. Qed.
Lemma step_expired : forall i cur x r, says_expired x -> send_loop sign i cur (x :: r) =
  match sign i with Some t => (cur :: fst (send_loop sign (S i) t r), snd (send_loop sign (S i) t r)) | None => ([cur], Some (Ok SignFailed)) end.
Proof.
  intros i cur x r H. apply system_iff in H. destruct H as (m & H & HC). apply fails_iff in H. apply sub2002 in HC. cbn [send_loop]. rewrite H. change (-31000 =? JsonrpcTxPoolOverflow) with false. change (-31000 =? JsonrpcSystem) with true. cbv iota.
  rewrite HC. change (2002 =? DuplicateTransactionError) with false. change (2002 =? ExpiredTransactionError) with true. cbv iota. destruct (sign i) as [t|]; [|reflexivity]. destruct (send_loop sign (S i) t r). reflexivity.
Qed.
Definition verdict (x : exchange) : result outcome :=
  match SendTransaction x with
  | Ok (inl h) => Ok (Hash h)
  | Ok (inr (Rpc e)) =>
      match e with
      | JsonErr c msg => if (c =? -31000) && match sub_code msg with Ok (Some s) => s =? 2000 | _ => false end then Ok (Hash []) else rbind (MapError (Some e)) (fun m => match m with Some m => Ok (Failure m) | None => Ok (Failure (Raw e)) end)
      | _ => rbind (MapError (Some e)) (fun m => match m with Some m => Ok (Failure m) | None => Ok (Failure (Raw e)) end)
      end
  | _ => Panic
  end.
Lemma step_last : forall i cur x r, ~ again x -> send_loop sign i cur (x :: r) = ([cur], Some (verdict x)).
Proof.
  intros i cur x r HN. cbn [send_loop]. unfold verdict. destruct (SendTransaction x) as [[h|[e|]]| |] eqn:ES; try reflexivity. destruct e as [c msg| | |]; try reflexivity.
  apply fails_iff in ES. unfold JsonrpcTxPoolOverflow, JsonrpcSystem, DuplicateTransactionError, ExpiredTransactionError. destruct (Z.eqb_spec c (-31001)) as [->|N1]; [exfalso; apply HN; left; apply full_iff; eauto|].
  destruct (Z.eqb_spec c (-31000)) as [->|N0]; [|reflexivity]. cbn [andb]. rewrite MapError_sub. destruct (sub_code msg) as [[s|]| |] eqn:EC; try reflexivity.
  destruct (s =? 2000); [reflexivity|]. destruct (Z.eqb_spec s 2002) as [->|N2]; [|reflexivity]. exfalso. apply HN. right. apply system_iff. exists msg. split; [assumption|apply sub2002; assumption].
Qed.
Lemma again_dec : forall x, again x \/ ~ again x.
Proof.
  intros x. destruct (SendTransaction x) as [[h|[e|]]| |] eqn:ES.
  2:{ apply fails_iff in ES. destruct e as [c msg| | |].
      2-4: right; intros [H|H]; [apply full_iff in H; destruct H as [m H]|apply system_iff in H; destruct H as (m & H & _)]; pose proof (fails_fun _ _ _ ES H); discriminate.
      destruct (Z.eq_dec c (-31001)) as [->|N1]; [left; left; apply full_iff; eauto|]. destruct (Z.eq_dec c (-31000)) as [->|N0].
      - destruct (sub_code msg) as [[s|]| |] eqn:EC. 1: destruct (Z.eq_dec s 2002) as [->|N2]; [left; right; apply system_iff; exists msg; split; [assumption|apply sub2002; assumption]|].
        all: right; intros [H|H]; [apply full_iff in H; destruct H as [m H]; pose proof (fails_fun _ _ _ ES H); discriminate|].
        all: apply system_iff in H; destruct H as (m & H & HC); pose proof (fails_fun _ _ _ ES H) as X; injection X as <-; apply sub2002 in HC; congruence.
      - right. intros [H|H]; [apply full_iff in H; destruct H as [m H]|apply system_iff in H; destruct H as (m & H & _)]; pose proof (fails_fun _ _ _ ES H); congruence. }
  all: right; intros [H|H]; [apply full_iff in H; destruct H as [m H]|apply system_iff in H; destruct H as (m & H & _)]; apply fails_iff in H; congruence.
Qed.
End LOOP.

Lemma rounds_again : forall l n, rounds l n -> Forall again l.
Proof. induction 1 as [|l n x H IH HX|l n x H IH HX]; [constructor| |]; apply Forall_app; split; auto; constructor; auto; [left|right]; assumption. Qed.
Inductive rounds' : list exchange -> nat -> Prop :=
| rd'_nil : rounds' [] 0
| rd'_full : forall l n x, rounds' l n -> says_full x -> rounds' (x :: l) n
| rd'_expired : forall l n x, rounds' l n -> says_expired x -> rounds' (x :: l) (S n).
Lemma rounds_cons : forall l n, rounds l n -> forall x, (says_full x -> rounds (x :: l) n) /\ (says_expired x -> rounds (x :: l) (S n)).
Proof.
  induction 1 as [|l n y H IH HX|l n y H IH HX]; intros x.
  - split; intros Hx; [apply (rd_full [])|apply (rd_expired [])]; auto using rd_nil.
  - split; intros Hx; destruct (IH x) as [A B]; [apply (rd_full (x :: l))|apply (rd_full (x :: l))]; auto.
  - split; intros Hx; destruct (IH x) as [A B]; [apply (rd_expired (x :: l))|apply (rd_expired (x :: l))]; auto.
Qed.
Lemma rounds'_snoc : forall l n, rounds' l n -> forall x, (says_full x -> rounds' (l ++ [x]) n) /\ (says_expired x -> rounds' (l ++ [x]) (S n)).
Proof.
  induction 1 as [|l n y H IH HX|l n y H IH HX]; intros x; cbn [app].
  - split; intros; [apply rd'_full|apply rd'_expired]; auto using rd'_nil.
  - split; intros; apply rd'_full; auto; apply IH; assumption.
  - split; intros; apply rd'_expired; auto; apply IH; assumption.
Qed.
Lemma rounds_eq : forall l n, rounds l n <-> rounds' l n.
Proof.
  split; induction 1 as [|l n x H IH HX|l n x H IH HX]; try constructor.
  - apply rounds'_snoc; assumption.
  - apply rounds'_snoc; assumption.
  - apply rounds_cons; assumption.
  - apply rounds_cons; assumption.
Qed.
Lemma full_not_expired : forall x, says_full x -> says_expired x -> False.
Proof. intros x H1 H2. apply full_iff in H1. apply system_iff in H2. destruct H1 as [m H1], H2 as (m' & H2 & _). pose proof (fails_fun _ _ _ H1 H2). discriminate. Qed.
Lemma rounds'_fun : forall l n, rounds' l n -> forall m, rounds' l m -> n = m.
Proof.
  induction 1 as [|l n x H IH HX|l n x H IH HX]; intros m HM; inversion HM; subst; auto; exfalso; eauto using full_not_expired.
Qed.

(** What the answer that ends the loop is turned into (specification). *)
Inductive ends : exchange -> result outcome -> Prop :=
| en_accepted : forall x h, says_accepted x h -> ends x (Ok (Hash h))
| en_duplicate : forall x, says_duplicate x -> ends x (Ok (Hash []))
| en_failed : forall x e m, fails x e -> ~ says_duplicate x -> maps e m -> ends x (Ok (Failure m))
| en_short : forall x m, fails x (JsonErr (-31000) m) -> (length m < 5)%nat -> ends x Panic
| en_null : forall ok j, ok = true \/ j = true -> ends (Response ok j true NullJson) Panic
| en_nil : forall r, ends (Response false true true (Members None r)) Panic.

Lemma dup_iff : forall x m, fails x (JsonErr (-31000) m) -> (says_duplicate x <-> sub_code m = Ok (Some 2000)).
Proof.
  intros x m H. unfold says_duplicate. rewrite system_iff, sub2000. split; [|eauto]. intros (m' & H' & HC). pose proof (fails_fun _ _ _ H H') as X. injection X as ->. exact HC.
Qed.
Lemma dup_code : forall x c m, fails x (JsonErr c m) -> says_duplicate x -> c = -31000.
Proof. intros x c m H HD. apply system_iff in HD. destruct HD as (m' & H' & _). pose proof (fails_fun _ _ _ H H') as X. congruence. Qed.
Lemma dup_json : forall x e, fails x e -> says_duplicate x -> exists m, e = JsonErr (-31000) m.
Proof. intros x e H HD. apply system_iff in HD. destruct HD as (m' & H' & _). pose proof (fails_fun _ _ _ H H'). eauto. Qed.

Lemma ends_iff : forall x o, verdict x = o <-> ends x o.
Proof.
  intros x o. unfold verdict. split.
  - intros <-. destruct (SendTransaction x) as [[h|[e|]]| |] eqn:ES.
    + apply en_accepted. apply accepted_iff. exact ES.
    + apply fails_iff in ES. pose proof (C31_map_error e) as (HM & HP & _).
      assert (G : ~ says_duplicate x -> ends x (rbind (MapError (Some e)) (fun m => match m with Some m => Ok (Failure m) | None => Ok (Failure (Raw e)) end))).
      { intros HD. destruct (MapError (Some e)) as [[m|]| |] eqn:EM.
        - cbn [rbind]. apply (en_failed x e); auto. apply HM. reflexivity.
        - exfalso. clear - EM. destruct e as [c msg| |[|]|]; try discriminate. unfold MapError in EM. destruct (c =? JsonrpcTxPoolOverflow); [discriminate|]. destruct (c =? JsonrpcSystem).
          + destruct (length msg <? 5)%nat; [discriminate|]. destruct (strconv_ParseInt0 _ _); [|discriminate]. destruct (_ =? _); [discriminate|]. destruct (_ =? _); [discriminate|]. destruct (_ =? _); discriminate.
          + destruct (_ || _); discriminate.
        - exfalso. clear - EM. destruct e as [c msg| |[|]|]; try discriminate. unfold MapError in EM. destruct (c =? JsonrpcTxPoolOverflow); [discriminate|]. destruct (c =? JsonrpcSystem).
          + destruct (length msg <? 5)%nat; [discriminate|]. destruct (strconv_ParseInt0 _ _); [|discriminate]. destruct (_ =? _); [discriminate|]. destruct (_ =? _); [discriminate|]. destruct (_ =? _); discriminate.
          + destruct (_ || _); discriminate.
        - cbn [rbind]. destruct (proj1 HP eq_refl) as (msg & -> & HL). apply (en_short x msg); assumption. }
      destruct e as [c msg| |b|]; try (apply G; intros HD; destruct (dup_json _ _ ES HD); discriminate).
      destruct (Z.eqb_spec c (-31000)) as [->|N]; cbn [andb]; [|apply G; intros HD; apply N; apply (dup_code _ _ _ ES HD)].
      destruct (sub_code msg) as [[s|]| |] eqn:EC.
      * destruct (Z.eqb_spec s 2000) as [EV|N]; [subst s; apply en_duplicate; apply (dup_iff _ _ ES); exact EC|]. apply G. intros HD. apply (dup_iff _ _ ES) in HD. congruence.
      * apply G. intros HD. apply (dup_iff _ _ ES) in HD. congruence.
      * apply G. intros HD. apply (dup_iff _ _ ES) in HD. congruence.
      * apply G. intros HD. apply (dup_iff _ _ ES) in HD. congruence.
    + unfold SendTransaction, Do in ES. destruct x as [b|[|] j [|] b]; cbn [andb] in ES; try discriminate.
      * destruct b as [| |[[c m]|] [|s|]]; discriminate.
      * destruct j; [|discriminate]. destruct b as [| |[[c m]|] r]; try discriminate. apply en_nil.
    + exfalso. unfold SendTransaction, Do in ES. destruct x as [b|[|] j [|] b]; cbn [andb] in ES; try discriminate; [destruct b as [| |[[c m]|] [|s|]]; discriminate|destruct j; [destruct b as [| |[[c m]|] r]|]; discriminate].
    + unfold SendTransaction, Do in ES. destruct x as [b|[|] j [|] b]; cbn [andb] in ES; try discriminate.
      * destruct b as [| |[[c m]|] [|s|]]; try discriminate. apply en_null. auto.
      * destruct j; [|discriminate]. destruct b as [| |[[c m]|] r]; try discriminate. apply en_null. auto.
  - destruct 1 as [x h H|x H|x e m H HD HM|x m H HL|ok j H|r].
    + apply accepted_iff in H. rewrite H. reflexivity.
    + apply system_iff in H. destruct H as (m & H & HC). apply fails_iff in H. rewrite H. apply sub2000 in HC. rewrite HC. reflexivity.
    + pose proof H as HF. apply fails_iff in H. rewrite H. apply C31_map_error in HM. rewrite HM. cbn [rbind]. destruct e as [c msg| | |]; try reflexivity.
      destruct (Z.eqb_spec c (-31000)) as [->|N]; [|reflexivity]. cbn [andb]. destruct (sub_code msg) as [[s|]| |] eqn:EC; try reflexivity. destruct (Z.eqb_spec s 2000) as [EV|N]; [|reflexivity]. subst s. exfalso. apply HD. apply (dup_iff _ _ HF). exact EC.
    + apply fails_iff in H. rewrite H. change (-31000 =? -31000) with true. cbn [andb]. rewrite MapError_sub. unfold sub_code. destruct (Nat.ltb_spec (length m) 5); [reflexivity|lia].
    + unfold SendTransaction, Do. destruct ok; cbn [andb]; [reflexivity|]. destruct H as [H|H]; [discriminate|]. rewrite H. reflexivity.
    + reflexivity.
Qed.

Section LOOP2.
Context {T : Type}.
Variable sign : nat -> option T.
Definition loop_ends (i : nat) (xs : list exchange) (o : result outcome) : Prop :=
  (exists pre x post n, xs = pre ++ x :: post /\ rounds' pre n /\ (forall k, (k < n)%nat -> sign (i + k) <> None) /\ ~ again x /\ ends x o) \/
  (exists pre post n, xs = pre ++ post /\ rounds' pre (S n) /\ (forall k, (k < n)%nat -> sign (i + k) <> None) /\ sign (i + n) = None /\ o = Ok SignFailed).

Lemma loop_outcome : forall xs i cur o, snd (send_loop sign i cur xs) = Some o <-> loop_ends i xs o.
Proof.
  induction xs as [|x xs IH]; intros i cur o.
  - cbn [send_loop snd]. split; [discriminate|]. intros [(pre & x & post & n & E & _)|(pre & post & n & E & H & _)]; [destruct pre; discriminate|]. destruct pre; [inversion H|discriminate].
  - destruct (again_dec x) as [[HF|HE]|HN].
    + rewrite (step_full sign i cur x xs HF). cbn [snd]. rewrite IH. unfold loop_ends. split.
      * intros [(pre & y & post & n & -> & H1 & H2)|(pre & post & n & -> & H1 & H2)]; [left; exists (x :: pre), y, post, n|right; exists (x :: pre), post, n]; (split; [reflexivity|split; [apply rd'_full; assumption|assumption]]).
      * intros [(pre & y & post & n & E & H1 & H2 & H3 & H4)|(pre & post & n & E & H1 & H2)].
        -- destruct pre as [|z pre]; cbn [app] in E; injection E as -> ->; [exfalso; apply H3; left; exact HF|]. left. exists pre, y, post, n. inversion H1; subst; [auto|exfalso; eauto using full_not_expired].
        -- destruct pre as [|z pre]; cbn [app] in E; [inversion H1|]. injection E as -> ->. right. exists pre, post, n. inversion H1; subst; [auto|exfalso; eauto using full_not_expired].
    + rewrite (step_expired sign i cur x xs HE). destruct (sign i) as [t|] eqn:ES.
      * cbn [snd]. rewrite IH. unfold loop_ends. split.
        -- intros [(pre & y & post & n & -> & H1 & H2 & H3)|(pre & post & n & -> & H1 & H2 & H3)].
           ++ left. exists (x :: pre), y, post, (S n). split; [reflexivity|]. split; [apply rd'_expired; assumption|]. split; [|assumption]. intros [|k] Hk; [rewrite Nat.add_0_r, ES; discriminate|]. rewrite Nat.add_succ_r. apply (H2 k). lia.
           ++ right. exists (x :: pre), post, (S n). split; [reflexivity|]. split; [apply rd'_expired; assumption|]. split; [|rewrite Nat.add_succ_r; assumption]. intros [|k] Hk; [rewrite Nat.add_0_r, ES; discriminate|]. rewrite Nat.add_succ_r. apply (H2 k). lia.
        -- intros [(pre & y & post & n & E & H1 & H2 & H3 & H4)|(pre & post & n & E & H1 & H2 & H3 & H4)].
           ++ destruct pre as [|z pre]; cbn [app] in E; injection E as -> ->; [exfalso; apply H3; right; exact HE|]. inversion H1; subst; [exfalso; eauto using full_not_expired|]. left. eexists pre, y, post, _. split; [reflexivity|]. split; [eassumption|]. split; [|auto].
              intros k Hk. specialize (H2 (S k) ltac:(lia)). rewrite Nat.add_succ_r in H2. exact H2.
           ++ destruct pre as [|z pre]; cbn [app] in E; [inversion H1|]. injection E as -> ->. inversion H1; subst; [exfalso; eauto using full_not_expired|]. destruct n as [|n]; [rewrite Nat.add_0_r in H3; congruence|]. right. exists pre, post, n. split; [reflexivity|]. split; [assumption|].
              split; [|rewrite Nat.add_succ_r in H3; auto]. intros k Hk. specialize (H2 (S k) ltac:(lia)). rewrite Nat.add_succ_r in H2. exact H2.
      * cbn [snd]. split.
        -- intros [= <-]. right. exists [x], xs, O. split; [reflexivity|]. split; [apply rd'_expired; [constructor|assumption]|]. split; [intros k Hk; lia|]. rewrite Nat.add_0_r. auto.
        -- intros [(pre & y & post & n & E & H1 & H2 & H3 & H4)|(pre & post & n & E & H1 & H2 & H3 & ->)]; [|reflexivity]. exfalso.
           destruct pre as [|z pre]; cbn [app] in E; injection E as -> ->; [apply H3; right; exact HE|]. inversion H1; subst; [exfalso; eauto using full_not_expired|]. apply (H2 O ltac:(lia)). rewrite Nat.add_0_r. exact ES.
    + rewrite (step_last sign i cur x xs HN). cbn [snd]. split.
      * intros [= E]. left. exists [], x, xs, O. split; [reflexivity|]. split; [constructor|]. split; [intros k Hk; lia|]. split; [exact HN|]. apply ends_iff. exact E.
      * intros [(pre & y & post & n & E & H1 & H2 & H3 & H4)|(pre & post & n & E & H1 & H2 & H3 & ->)].
        -- destruct pre as [|z pre]; cbn [app] in E; injection E as -> ->; [f_equal; apply ends_iff; exact H4|]. exfalso. inversion H1; subst; apply HN; [left|right]; assumption.
        -- exfalso. destruct pre as [|z pre]; cbn [app] in E; [inversion H1|]. injection E as -> ->. inversion H1; subst; apply HN; [left|right]; assumption.
Qed.

Lemma loop_sent : forall xs i cur k t, sign i = Some cur -> nth_error (fst (send_loop sign (S i) cur xs)) k = Some t -> exists n, rounds' (firstn k xs) n /\ sign (i + n)%nat = Some t.
Proof.
  induction xs as [|x xs IH]; intros i cur k t HS E; [destruct k; discriminate|].
  destruct k as [|k].
  - exists O. split; [constructor|]. rewrite Nat.add_0_r. destruct (again_dec x) as [[HF|HE]|HN].
    + rewrite (step_full sign _ cur x xs HF) in E. cbn [fst nth_error] in E. congruence.
    + rewrite (step_expired sign _ cur x xs HE) in E. destruct (sign (S i)); cbn [fst nth_error] in E; congruence.
    + rewrite (step_last sign _ cur x xs HN) in E. cbn [fst nth_error] in E. congruence.
  - destruct (again_dec x) as [[HF|HE]|HN].
    + rewrite (step_full sign _ cur x xs HF) in E. cbn [fst nth_error] in E. destruct (IH _ _ _ _ HS E) as (n & H1 & H2). exists n. cbn [firstn]. split; [apply rd'_full; assumption|exact H2].
    + rewrite (step_expired sign _ cur x xs HE) in E. destruct (sign (S i)) as [t'|] eqn:ES; cbn [fst nth_error] in E; [|destruct k; discriminate]. destruct (IH _ _ _ _ ES E) as (n & H1 & H2). exists (S n). cbn [firstn]. split; [apply rd'_expired; assumption|]. rewrite Nat.add_succ_r. exact H2.
    + rewrite (step_last sign _ cur x xs HN) in E. cbn [fst nth_error] in E. destruct k; discriminate.
Qed.
End LOOP2.

(** C51: what sendTransaction returns is decided by the first answer that asks for no repetition, or by a signing that fails
    before it; nothing else ends the loop. *)
Theorem C51_outcome : forall T (sign : nat -> option T) xs o, snd (sendTransaction sign xs) = Some o <->
  (exists pre x post n, xs = pre ++ x :: post /\ rounds pre n /\ (forall i, (i <= n)%nat -> sign i <> None) /\ ~ again x /\ ends x o) \/
  (exists pre post n, xs = pre ++ post /\ rounds pre n /\ (forall i, (i < n)%nat -> sign i <> None) /\ sign n = None /\ o = Ok SignFailed).
Proof.
  intros T sign xs o. unfold sendTransaction. destruct (sign 0%nat) as [t|] eqn:ES.
  - rewrite loop_outcome. unfold loop_ends. split.
    + intros [(pre & x & post & n & E & H1 & H2 & H3)|(pre & post & n & E & H1 & H2 & H3 & H4)].
      * left. exists pre, x, post, n. split; [exact E|]. split; [apply rounds_eq; exact H1|]. split; [|exact H3]. intros [|i] Hi; [congruence|]. apply (H2 i). lia.
      * right. exists pre, post, (S n). split; [exact E|]. split; [apply rounds_eq; exact H1|]. split; [|auto]. intros [|i] Hi; [congruence|]. apply (H2 i). lia.
    + intros [(pre & x & post & n & E & H1 & H2 & H3)|(pre & post & n & E & H1 & H2 & H3 & H4)].
      * left. exists pre, x, post, n. split; [exact E|]. split; [apply rounds_eq; exact H1|]. split; [|exact H3]. intros k Hk. apply (H2 (1 + k)%nat). lia.
      * right. destruct n as [|n]; [congruence|]. exists pre, post, n. split; [exact E|]. split; [apply rounds_eq; exact H1|]. split; [|auto]. intros k Hk. apply (H2 (1 + k)%nat). lia.
  - cbn [snd]. split.
    + intros [= <-]. right. exists [], xs, O. split; [reflexivity|]. split; [constructor|]. split; [intros i Hi; lia|auto].
    + intros [(pre & x & post & n & E & H1 & H2 & H3)|(pre & post & n & E & H1 & H2 & H3 & ->)]; [|reflexivity]. exfalso. apply (H2 O); [lia|exact ES].
Qed.
Print Assumptions C51_outcome.

(** C51: the k-th transaction sent is the current signing: a full pool has the same transaction sent again, and only an expired
    one is signed anew. *)
Theorem C51_sent : forall T (sign : nat -> option T) xs k t, nth_error (fst (sendTransaction sign xs)) k = Some t ->
  exists n, rounds (firstn k xs) n /\ sign n = Some t.
Proof.
  intros T sign xs k t E. unfold sendTransaction in E. destruct (sign 0%nat) as [c|] eqn:ES; [|destruct k; discriminate]. destruct (loop_sent sign xs 0 c k t ES E) as (n & H1 & H2). exists n. split; [apply rounds_eq; exact H1|exact H2].
Qed.
Print Assumptions C51_sent.

(** C51: a hash that is returned was answered by the node, unless the node called the transaction a duplicate. *)
Theorem C51_hash_from_node : forall T (sign : nat -> option T) xs h, snd (sendTransaction sign xs) = Some (Ok (Hash h)) -> h <> [] ->
  exists pre x post, xs = pre ++ x :: post /\ Forall again pre /\ exists j, x = Response true j true (Members None (RString h)).
Proof.
  intros T sign xs h E HN. apply C51_outcome in E. destruct E as [(pre & x & post & n & -> & H1 & _ & _ & H4)|(pre & post & n & _ & _ & _ & _ & H)]; [|discriminate].
  exists pre, x, post. split; [reflexivity|]. split; [apply (rounds_again _ _ H1)|]. inversion H4 as [x0 h0 HA|x0 HD| | | |]; subst; [|contradiction]. destruct HA as (j & [->|[-> _]]); [eauto|contradiction].
Qed.
Print Assumptions C51_hash_from_node.

(** Finding: while the pool stays full there is no end, and every request carries the same transaction. *)
Theorem C51_no_limit_refuted : forall T (sign : nat -> option T) t xs, sign 0%nat = Some t -> Forall says_full xs -> sendTransaction sign xs = (repeat t (length xs), None).
Proof.
  intros T sign t xs HS HF. unfold sendTransaction. rewrite HS. induction HF as [|x xs HX HF IH]; [reflexivity|]. rewrite (step_full sign _ t x xs HX), IH. reflexivity.
Qed.
Print Assumptions C51_no_limit_refuted.

(** Finding: a transaction that the node has already (sent twice, or answered too late) is reported as sent with the empty hash,
    so its result can not be asked for; the same case in the client's own loop reads through a nil pointer. *)
Theorem C51_duplicate_loses_hash_refuted : forall T (sign : nat -> option T) x post, sign 0%nat <> None -> says_duplicate x ->
  snd (sendTransaction sign (x :: post)) = Some (Ok (Hash [])) /\ send_and_get_hash x = Panic.
Proof.
  intros T sign x post HS HD. split.
  - apply C51_outcome. left. exists [], x, post, O. split; [reflexivity|]. split; [constructor|]. split; [intros i Hi; replace i with O by lia; exact HS|]. split; [|apply en_duplicate; exact HD].
    intros [HF|HE]; [apply full_iff in HF; destruct HF as [m HF]; pose proof (dup_code _ _ _ HF HD); discriminate|]. apply system_iff in HE. destruct HE as (m & HE & HC). apply (dup_iff _ _ HE) in HD. apply sub2002 in HC. congruence.
  - apply system_iff in HD. destruct HD as (m & HF & HC). apply fails_iff in HF. apply sub2000 in HC. unfold send_and_get_hash. rewrite HF. change (-31000 =? JsonrpcSystem) with true. cbv iota. rewrite HC. reflexivity.
Qed.
Print Assumptions C51_duplicate_loses_hash_refuted.

(** Finding: an answer with neither result nor error counts as accepted, with the empty hash (status 200), or ends the program
    (other status with a JSON body), as does the body null. *)
Theorem C51_odd_answers_refuted : forall T (sign : nat -> option T) j r post, sign 0%nat <> None ->
  snd (sendTransaction sign (Response true j true (Members None RAbsent) :: post)) = Some (Ok (Hash [])) /\
  snd (sendTransaction sign (Response false true true (Members None r) :: post)) = Some Panic /\
  snd (sendTransaction sign (Response true j true NullJson :: post)) = Some Panic.
Proof. intros T sign j r post HS. unfold sendTransaction. destruct (sign 0%nat); [|contradiction]. repeat split. Qed.
Print Assumptions C51_odd_answers_refuted.

(** Finding: a full pool reported by its sub code (2001) is not retried. *)
Theorem C51_pool_sub_code_refuted : forall T (sign : nat -> option T) x post, sign 0%nat <> None -> says_system x (str "2001") ->
  snd (sendTransaction sign (x :: post)) = Some (Ok (Failure SendFailByOverflow)).
Proof.
  intros T sign x post HS HX. apply C51_outcome. left. exists [], x, post, O. split; [reflexivity|]. split; [constructor|]. split; [intros i Hi; replace i with O by lia; exact HS|].
  apply system_iff in HX. destruct HX as (m & HF & HC). split.
  - intros [HF2|HE]; [apply full_iff in HF2; destruct HF2 as [m2 HF2]; pose proof (fails_fun _ _ _ HF HF2); discriminate|]. apply system_iff in HE. destruct HE as (m2 & HE & HC2). pose proof (fails_fun _ _ _ HF HE) as X. injection X as <-. apply sub2002 in HC2. apply sub2001 in HC. congruence.
  - apply (en_failed _ _ _ HF); [|apply mp_pool; exact HC]. intros HD. apply (dup_iff _ _ HF) in HD. apply sub2001 in HC. congruence.
Qed.
Print Assumptions C51_pool_sub_code_refuted.

(** C51: the transactions of a relay message go out in order and stop at the first that fails: [k] went through, and the result is
    that of the last one tried. *)
Theorem C51_relay_order : forall T (txs : list (nat -> option T)) answers k o, txs <> [] -> relay_all txs answers = (k, o) ->
  (forall i s xs, (i < k)%nat -> nth_error txs i = Some s -> nth_error answers i = Some xs -> exists h, snd (sendTransaction s xs) = Some (Ok (Hash h))) /\
  ((k < length txs)%nat -> exists s, nth_error txs k = Some s /\ o = snd (sendTransaction s (nth k answers [])) /\ forall h, o <> Some (Ok (Hash h))) /\
  (k = length txs -> exists s, nth_error txs (k - 1) = Some s /\ o = snd (sendTransaction s (nth (k - 1) answers []))) /\ (k <= length txs)%nat.
Proof.
  intros T. induction txs as [|s r IH]; intros answers k o HN E; [contradiction|]. destruct answers as [|xs ys]; cbn [relay_all] in E.
  - assert (NH : forall h, snd (sendTransaction s []) <> Some (Ok (Hash h))) by (intros h; unfold sendTransaction; destruct (s 0%nat); discriminate).
    injection E as <- <-. split; [intros; lia|]. split; [|split; [discriminate|lia]]. intros _. exists s. repeat split. exact NH.
  - destruct (snd (sendTransaction s xs)) as [[[h| |]| |]|] eqn:EX;
      try (injection E as <- <-; split; [intros; lia|]; split; [|split; [discriminate|lia]]; intros _; exists s; cbn [nth_error nth]; rewrite EX; repeat split; discriminate).
    destruct r as [|s2 r].
    + injection E as <- <-. split; [|split; [cbn [length]; lia|]].
      * intros i s0 xs0 Hi H1 H2. assert (i = O) by lia. subst. cbn [nth_error] in *. assert (s0 = s) by congruence. assert (xs0 = xs) by congruence. subst. eauto.
      * split; [|cbn [length]; lia]. intros _. exists s. cbn [Nat.sub nth_error nth]. rewrite EX. auto.
    + destruct (relay_all (s2 :: r) ys) as [k' o'] eqn:ER. injection E as <- <-. destruct (IH ys k' o' ltac:(discriminate) ER) as (H1 & H2 & H3 & H4). split; [|split; [|split]].
      * intros [|i] s0 xs0 Hi G1 G2; cbn [nth_error] in G1, G2; [assert (s0 = s) by congruence; assert (xs0 = xs) by congruence; subst; eauto|]. apply (H1 i); auto. lia.
      * intros Hk. cbn [length] in *. destruct H2 as (s0 & G1 & G2); [lia|]. exists s0. auto.
      * intros Hk. cbn [length] in *. destruct H3 as (s0 & G1 & G2); [lia|]. exists s0. destruct k' as [|k']; [lia|]. replace (S (S k') - 1)%nat with (S (S k' - 1)) by lia. auto.
      * cbn [length] in *. lia.
Qed.
Print Assumptions C51_relay_order.

(** * Concrete cases *)
Definition ex_full := Response false true true (Members (Some (-31001, str "TxPoolOverflow")) RAbsent).
Definition ex_expired := Response true true true (Members (Some (-31000, str "[2002] Expired")) RAbsent).
Definition ex_dup := Response true true true (Members (Some (-31000, str "[2000] Duplicate")) RAbsent).
Definition ex_ok := Response true true true (Members None (RString (str "0xabcd"))).
Example C51_ex : sendTransaction (fun n => Some n) [ex_full; ex_full; ex_expired; ex_full; ex_ok] = ([0; 0; 0; 1; 1]%nat, Some (Ok (Hash (str "0xabcd")))) /\
  sendTransaction (fun n => Some n) [ex_full; ex_dup] = ([0; 0]%nat, Some (Ok (Hash []))) /\
  snd (sendTransaction (fun n => Some n) [NoResponse true]) = Some (Ok (Failure ConnectFail)).
Proof. vm_compute. auto. Qed.
Example C51_ex_again : rounds [ex_full; ex_expired] 1 /\ says_accepted ex_ok (str "0xabcd") /\ says_duplicate ex_dup.
Proof.
  split; [|split].
  - apply (rd_expired [ex_full] 0); [apply (rd_full [] 0); [constructor|]; exists false, true, RAbsent, (str "TxPoolOverflow"); auto|]. exists true, true, RAbsent, (str "[2002] Expired"). split; [reflexivity|]. split; [auto|]. exists 91, (str "] Expired"). reflexivity.
  - exists true. left. reflexivity.
  - exists true, true, RAbsent, (str "[2000] Duplicate"). split; [reflexivity|]. split; [auto|]. exists 91, (str "] Duplicate"). reflexivity.
Qed.
Example C51_ex_relay : relay_all [(fun n => Some n); (fun n => Some (10 + n)%nat); (fun n => Some n)] [[ex_ok]; [NoResponse true]; [ex_ok]] = (1%nat, Some (Ok (Failure ConnectFail))).
Proof. vm_compute. reflexivity. Qed.
Example C31_ex_map : maps (JsonErr (-31000) (str "[2003] Future")) SendFailByFuture.
Proof. apply mp_future. exists 91, (str "] Future"). reflexivity. Qed.
