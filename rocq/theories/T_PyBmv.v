(** C101: the ICON block verifier written in Python. *)
From Coq Require Import String Ascii ZArith List Bool Lia.
From Coq Require Import ZifyBool.
From Verif Require Import Base GoStr L_Base M_IntConv S_IntConv L_IntConv M_Rlp S_Rlp L_Rlp M_Codec M_Wire L_Wire M_PyRlp S_PyRlp L_PyRlp T_PyRlp M_JMpt S_JMpt L_JMpt T_JMpt M_PyMpt S_PyMpt L_PyMpt T_PyMpt M_PyMta L_PyMta T_PyMta S_Mta L_SolRlp L_Mta5 M_PyBmv S_PyBmv L_PyBmv.
From Verif Require M_JIcon S_JBmv S_JIbmv L_JIbmv.
Import ListNotations.
Open Scope Z_scope.

(** ** Blocks *)
Theorem C101_updates_exact : forall H recover m vals us m' vals',
  block_updates H recover (m, vals) us = Ok (m', vals') <-> exists bs, chain H recover (y_height m) vals us bs vals' /\ y_adds H m bs = Some m'.
Proof. intros. apply block_updates_iff. Qed.
Print Assumptions C101_updates_exact.
Theorem C101_quorums_share_voters : forall H recover vals height b b' vs vs',
  quorum H recover vals height b vs -> quorum H recover vals height b' vs' -> double_voters H recover vals height b b'.
Proof. intros. eapply quorums_meet; eassumption. Qed.
Print Assumptions C101_quorums_share_voters.
(** The votes are on the same bytes as those the other ICON block verifier (C85) asks for. *)
Theorem C101_votes_as_java : forall height round block count hash time, let part := Some (M_JIcon.PartSet count (Some hash)) in
  zlen (S_JIbmv.precommit height round block part time) <= 65538 ->
  signed height (PInt round) block (PList [PInt count; PBytes hash]) (PInt time) = S_JIbmv.precommit height round block part time.
Proof.
  intros height round block count hash time part L. unfold signed, S_JIbmv.precommit in *. apply (proj1 encoded); [|exact L].
  assert (I : forall z, item (PInt z) (S_JBmv.int_item z)) by (intros z; constructor; apply BigIntToBytes_shortest).
  unfold part. cbn [M_JIcon.ps_count M_JIcon.ps_hash S_JBmv.opt_item]. repeat (constructor; try apply I).
Qed.
Print Assumptions C101_votes_as_java.
(** More names than different validators: a list that repeats too many can never have a quorum again. *)
Theorem C101_repeated_validators_refuted : forall H recover vals distinct height b vs, incl vals distinct -> 3 * zlen distinct <= 2 * zlen vals -> ~ quorum H recover vals height b vs.
Proof.
  intros H recover vals distinct height b vs I L (voters & ND & IN & Q & _). assert (LE : (length voters <= length distinct)%nat) by (apply NoDup_incl_length; [assumption|]; intros x Hx; auto).
  unfold zlen in *. lia.
Qed.
Print Assumptions C101_repeated_validators_refuted.
Theorem C101_absent_validators_refuted : forall H recover m vals h vs height, quorum H recover (pv_addrs vals) height (H (ph_bytes h)) vs -> ph_height h = Some height -> y_height m + 1 = height ->
  ph_next h <> Some (H (pv_bytes vals)) -> block_update H recover (m, vals) (PUpdate (Some h) (Some vs) None) = Panic.
Proof.
  intros H recover m vals h vs height Q EH EY N. unfold block_update. cbn [pu_header of_opt rbind fst snd]. rewrite EH. cbn [of_opt rbind]. replace (y_height m + 1 =? height) with true by lia.
  unfold verify_update. cbn [pu_votes]. rewrite (proj2 (verify_votes_iff _ _ _ _ _ _) Q). cbn [rbind pu_next].
  destruct (ph_next h) as [n|]; [|reflexivity]. destruct (bytes_eqb_spec n (H (pv_bytes vals))); [congruence|reflexivity].
Qed.
Print Assumptions C101_absent_validators_refuted.

(** ** Keys of proofs *)
Definition numeric (v : pyval) : Prop := v = PNone \/ exists n, v = PInt n.
Lemma put_head : forall s n c l, exists l', put_length s n (c :: l) = c :: l' /\ (bytes_ok l -> bytes_ok l').
Proof.
  induction s as [|s IH]; intros n c l; cbn [put_length]; [exists l; auto|]. unfold insert. cbn [firstn skipn app]. destruct (IH (n / 256) c (firstn s l ++ n mod 256 :: skipn s l)) as (l' & E & B). exists l'. split; [exact E|].
  intros BL. apply B. apply bytes_ok_app. rewrite <- (firstn_skipn s l) in BL. apply bytes_ok_app in BL. destruct BL as [B1 B2]. split; [exact B1|]. constructor; [unfold is_byte; pose proof (Z.mod_pos_bound n 256); lia|exact B2].
Qed.
Lemma encode_shape : forall b, bytes_ok b -> b <> [] -> bytes_ok (encode_bytes b) /\
  ((exists x, b = [x] /\ x < 128 /\ encode_bytes b = [x]) \/ (1 <= zlen b <= 55 /\ encode_bytes b = (128 + zlen b) :: b) \/ (zlen b < 2 ^ 63 -> exists c r, encode_bytes b = c :: r /\ 184 <= c)).
Proof.
  intros b B N. assert (P : 1 <= zlen b) by (destruct b; [congruence|rewrite zlen_cons; pose proof (zlen_nonneg _ b); lia]). unfold encode_bytes. cbv zeta. destruct ((zlen b =? 1) && (hd 0 b <? 128)) eqn:E1.
  - split; [assumption|]. left. destruct b as [|x [|y b]]; [congruence| |exfalso; rewrite !zlen_cons in E1; pose proof (zlen_nonneg _ b); lia]. exists x. cbn [hd] in E1. repeat split. lia.
  - destruct (zlen b <=? 55) eqn:E2.
    + split; [constructor; [unfold is_byte; lia|assumption]|]. right. left. split; [lia|reflexivity].
    + unfold long_header. cbv zeta. unfold insert. cbn [firstn skipn app]. destruct (put_head (length_size (zlen b)) (zlen b) ((183 + Z.of_nat (length_size (zlen b))) mod 256) []) as (l' & E & BL). rewrite E. split.
      * apply bytes_ok_app. split; [|assumption]. constructor; [unfold is_byte; apply Z.mod_pos_bound; lia|apply BL; constructor].
      * right. right. intros L. eexists. eexists. split; [reflexivity|]. rewrite length_size_spec by lia. assert (X : (big_nbytes (zlen b) <= 8)%nat) by (apply big_nbytes_le_iff; change (256 ^ Z.of_nat 8) with (2 ^ 64); lia).
        assert (Y : ~ (big_nbytes (zlen b) <= 0)%nat) by (rewrite big_nbytes_le_iff; change (256 ^ Z.of_nat 0) with 1; lia). rewrite Z.mod_small by lia. lia.
Qed.
Lemma int_bytes_facts : forall n, bytes_ok (int_bytes n) /\ int_bytes n <> [].
Proof. intros n. rewrite int_bytes_spec. destruct (BigIntToBytes_shortest n) as (A & B & _). auto. Qed.
Lemma key_bytes : forall v, numeric v -> bytes_ok (rlp_encode v).
Proof. intros v [->|(n & ->)]; cbn [rlp_encode]; [repeat constructor; unfold is_byte; lia|]. destruct (int_bytes_facts n). apply encode_shape; assumption. Qed.
Lemma encode_longer : forall b, zlen b <= zlen (encode_bytes b).
Proof.
  intros b. unfold encode_bytes. cbv zeta. destruct ((zlen b =? 1) && (hd 0 b <? 128)); [lia|]. destruct (zlen b <=? 55); rewrite zlen_app; [|pose proof (zlen_nonneg _ (long_header 183 (zlen b))); lia].
  change (zlen [128 + zlen b]) with 1. lia.
Qed.
Lemma cons_eq : forall (x y : Z) l m, x :: l = y :: m -> x = y /\ l = m.
Proof. intros x y l m [= -> ->]. auto. Qed.
Lemma key_free : forall v j r, numeric v -> zlen (rlp_encode v) < 2 ^ 63 -> index j -> encodeKey j = rlp_encode v ++ r -> r = [].
Proof.
  intros v j r N L Hj E. rewrite <- C99_keys in E by assumption. cbn [rlp_encode] in E. destruct (int_bytes_facts j) as (Bj & Nj).
  assert (Lj : zlen (int_bytes j) <= 8). { rewrite int_bytes_spec. apply (tc_bytes_len j 8); [lia|]. unfold fits. unfold index in Hj. cbn. lia. }
  destruct (encode_shape _ Bj Nj) as (_ & [(y & Ey & Hy & EJ)|[(Hy & EJ)|X]]).
  - rewrite EJ in E. destruct N as [->|(n & ->)]; cbn [rlp_encode app] in E; [exfalso; apply cons_eq in E; destruct E as [E _]; lia|]. destruct (int_bytes_facts n) as (Bn & Nn).
    destruct (encode_bytes (int_bytes n)) as [|c l] eqn:EE; [|destruct l; [|discriminate]; destruct r; [reflexivity|discriminate]].
    exfalso. destruct (encode_shape _ Bn Nn) as (_ & [(x & _ & _ & X)|[(_ & X)|X]]); try congruence.
    assert (Z : zlen (int_bytes n) < 2 ^ 63). { pose proof (encode_longer (int_bytes n)) as Q. rewrite EE in Q. change (zlen (@nil Z)) with 0 in Q. lia. } destruct (X Z) as (? & ? & ? & _). congruence.
  - rewrite EJ in E. destruct N as [->|(n & ->)]; cbn [rlp_encode app] in E; [exfalso; apply cons_eq in E; destruct E as [E _]; lia|]. destruct (int_bytes_facts n) as (Bn & Nn).
    destruct (encode_shape _ Bn Nn) as (_ & [(x & _ & Hx & X)|[(Hx & X)|X]]).
    + exfalso. rewrite X in E. cbn [app] in E. apply cons_eq in E; destruct E as [E _]. lia.
    + rewrite X in E. cbn [app] in E. apply cons_eq in E; destruct E as [E E']. rewrite E' in E. rewrite zlen_app in E. destruct r; [reflexivity|]. rewrite zlen_cons in E. pose proof (zlen_nonneg _ r). lia.
    + cbn [rlp_encode] in L. pose proof (encode_longer (int_bytes n)). destruct (X ltac:(lia)) as (c & l & XE & Hc). exfalso. rewrite XE in E. cbn [app] in E. apply cons_eq in E; destruct E as [E _]. lia.
  - exfalso. destruct (X ltac:(lia)) as (c & l & XE & Hc). (* an index has at most eight bytes *)
    unfold encode_bytes in XE. cbv zeta in XE. destruct ((zlen (int_bytes j) =? 1) && (hd 0 (int_bytes j) <? 128)) eqn:E1.
    + rewrite XE in E1. cbn [hd] in E1. lia.
    + replace (zlen (int_bytes j) <=? 55) with true in XE by lia. apply cons_eq in XE; destruct XE as [XE _]. lia.
Qed.
Lemma first_numeric : forall utf8 b ts v l, rlp_decode utf8 b (TFields (TInt :: ts)) = Some (PList (v :: l)) -> numeric v.
Proof.
  intros utf8 b ts v l E. unfold rlp_decode in E. destruct (decode utf8 (depth (TFields (TInt :: ts))) b (TFields (TInt :: ts))) as [[w t]|] eqn:ED; [|discriminate]. injection E as ->.
  cbn [depth fold_right] in ED. cbn [decode] in ED. destruct (decode_part b) as [[p [|]]|]; try discriminate. destruct p as [| |es]; try discriminate.
  destruct (length (TInt :: ts) <? length es)%nat; [discriminate|]. destruct es as [|e es]; cbn [fields] in ED; [discriminate|].
  set (d := Nat.max 1 (fold_right (fun t n => Nat.max (depth t) n) 0%nat ts)) in *. destruct (decode utf8 d e TInt) as [[v' t']|] eqn:E1; [|discriminate].
  destruct (fields (decode utf8 d) es ts) as [[vs us]|]; [|discriminate]. injection ED as -> _ _. destruct d as [|d]; [discriminate|]. cbn [decode] in E1.
  destruct (decode_part e) as [[p [|]]|]; try discriminate. destruct p as [|x|x]; cbn [from_bytes] in E1; try discriminate; injection E1 as <- _; [left; reflexivity|right; eauto].
Qed.

(** ** Calls *)
Section CALLS.
Context (H : list Z -> list Z) (utf8 : list Z -> bool) (recover : list Z -> list Z -> option (list Z)) (from_bytes_ : list Z -> option (list Z)) (from_string : list Z -> option (list Z)) (show : list Z -> list Z).
Notation handle := (handle_relay H utf8 recover from_bytes_ from_string show).
Notation read_relay := (read_relay utf8 from_bytes_).

(** [p]'s accumulator is that of the blocks of a chain certified from the validators of the installation on. *)
Definition follows (off : Z) (v0 : pvals) (us : list pupdate) (bs : list (list Z)) (p : pprops) : Prop :=
  Forall (true_update utf8 from_bytes_) us /\ chain H recover off v0 us bs (q_vals p) /\ y_adds H (set_offset py_new off) bs = Some (q_mta p).
Lemma fresh_is : forall off, 0 <= off -> set_offset py_new off = py_fresh off 0 0 false.
Proof.
  intros off O. rewrite py_fresh_is by lia. unfold set_offset, py_new. cbn [y_height y_roots y_offset y_rsize y_csize y_cache y_allow]. change (0 =? 0) with true. cbn [andb]. f_equal. destruct (0 <? off) eqn:E; lia.
Qed.
Lemma follows_height : forall off v0 us bs p, 0 <= off -> follows off v0 us bs p -> y_height (q_mta p) = off + zlen bs.
Proof. intros off v0 us bs p O (_ & _ & A). apply y_adds_height in A. rewrite fresh_is, py_fresh_is in A by lia. exact A. Qed.

Lemma call_parts : forall p caller bmc prev seq msg p' out, handle p caller bmc prev seq msg = Ok (p', out) ->
  exists cur from b rm m v bs h logs,
    parse_address bmc = Some cur /\ parse_address prev = Some from /\ q_net p = pa_net from /\ caller = q_bmc p /\ from_string (pa_contract cur) = Some (q_bmc p) /\
    urlsafe_b64decode msg = Some b /\ read_relay b = Some rm /\ ~ (pr_updates rm = [] /\ pr_proof rm = None) /\
    chain H recover (y_height (q_mta p)) (q_vals p) (pr_updates rm) bs v /\ y_adds H (q_mta p) bs = Some m /\
    match pr_proof rm with Some bp => exists h', h = Some h' /\ verify_proof H m bp = Ok h' | None => h = match rev (pr_updates rm) with u :: _ => pu_header u | [] => None end end /\
    Forall2 (fun rp es => prove_receipt H utf8 from_bytes_ (match h with Some h => ph_receipts h | None => None end) rp = Ok es) (pr_receipts rm) logs /\
    messages from_bytes_ show (pa_contract from) bmc (concat logs) (seq + 1) out /\
    p' = PProps (q_bmc p) (q_net p) (match out, h with _ :: _, Some h => match ph_height h with Some n => n | None => q_last p end | _, _ => q_last p end) v m.
Proof.
  intros p caller bmc prev seq msg p' out E. unfold handle_relay in E. apply of_opt_ok in E. destruct E as (cur & E1 & E). apply of_opt_ok in E. destruct E as (from & E2 & E).
  apply rbind_ok in E. destruct E as ([] & EC & E). unfold check_accessible in EC. destruct (bytes_eqb_spec (q_net p) (pa_net from)) as [EN|]; cbn [negb] in EC; [|discriminate].
  destruct (bytes_eqb_spec caller (q_bmc p)) as [EB|]; cbn [negb] in EC; [|discriminate]. apply of_opt_ok in EC. destruct EC as (a & EA & EC). destruct (bytes_eqb_spec a (q_bmc p)) as [->|]; cbn [negb] in EC; [|discriminate].
  apply of_opt_ok in E. destruct E as (b & E3 & E). apply of_opt_ok in E. destruct E as (rm & E4 & E).
  destruct (match pr_updates rm, pr_proof rm with [], None => true | _, _ => false end) eqn:ENE; [discriminate|]. apply rbind_ok in E. destruct E as ([[m v] h] & EL & E).
  cbn [fst snd] in E. apply rbind_ok in E. destruct E as ([n ms] & ET & E). cbn [fst snd] in E. injection E as <- <-.
  apply take_receipts_iff in ET. destruct ET as (logs & ms' & F & M & -> & _). cbn [app] in *.
  unfold last_header in EL. apply rbind_ok in EL. destruct EL as ([m1 v1] & EU & EL). apply block_updates_iff in EU. destruct EU as (bs & C & A). cbn [fst] in EL.
  exists cur, from, b, rm, m, v, bs, h, logs. repeat (split; [assumption|]). split; [intros [X Y]; rewrite X, Y in ENE; discriminate|].
  destruct (pr_proof rm) as [bp|].
  - apply rbind_ok in EL. destruct EL as (h' & EV & EL). injection EL as <- <- <-. repeat (split; [assumption|]). split; [eauto|]. repeat (split; [assumption|]). reflexivity.
  - injection EL as <- <- <-. repeat (split; [assumption|]). split; [reflexivity|]. repeat (split; [assumption|]). reflexivity.
Qed.
Lemma call_follows : forall off v0 us bs p caller bmc prev seq msg p' out, 0 <= off -> follows off v0 us bs p -> handle p caller bmc prev seq msg = Ok (p', out) ->
  exists b rm bs2, urlsafe_b64decode msg = Some b /\ read_relay b = Some rm /\ follows off v0 (us ++ pr_updates rm) (bs ++ bs2) p' /\ q_bmc p' = q_bmc p /\ q_net p' = q_net p.
Proof.
  intros off v0 us bs p caller bmc prev seq msg p' out O F E. apply call_parts in E. destruct E as (cur & from & b & rm & m & v & bs2 & h & logs & _ & _ & _ & _ & _ & E3 & E4 & _ & C & A & _ & _ & _ & ->).
  exists b, rm, bs2. split; [assumption|]. split; [assumption|]. cbn [q_bmc q_net]. split; [|auto]. rewrite (follows_height _ _ _ _ _ O F) in C. destruct F as (T & C0 & A0). split; [|split]; cbn [q_vals q_mta].
  - apply Forall_app. split; [assumption|]. eapply relay_true. eassumption.
  - eapply chain_app; eassumption.
  - rewrite (y_adds_more H bs bs2 _ _ A0). assumption.
Qed.
(** All calls after an installation *)
Inductive ran (p0 : pprops) : pprops -> Prop :=
| ran_0 : ran p0 p0
| ran_call : forall p caller bmc prev seq msg p' out, ran p0 p -> handle p caller bmc prev seq msg = Ok (p', out) -> ran p0 p'.
Theorem C101_history : forall bmc net vs off p0 p, 0 <= off -> on_install utf8 from_bytes_ from_string bmc net vs off = Some p0 -> ran p0 p ->
  q_bmc p = bmc /\ q_net p = net /\ true_vals utf8 from_bytes_ (q_vals p0) /\ exists us bs, follows off (q_vals p0) us bs p /\ y_height (q_mta p) = off + zlen bs.
Proof.
  intros bmc net vs off p0 p O EI R. unfold on_install in EI. destruct vs as [|c vs]; [discriminate|]. destruct (validators_from_string utf8 from_bytes_ from_string (c :: vs)) as [v0|] eqn:EV; [|discriminate]. injection EI as <-. cbn [q_vals].
  assert (TV : true_vals utf8 from_bytes_ v0).
  { unfold validators_from_string in EV. destruct (all_read _ _) as [l|]; [apply vals_true in EV; apply EV|]. destruct (split_at 44 (c :: vs)) as [|x [|]]; try discriminate. destruct (urlsafe_b64decode (c :: vs)) as [b|]; [|discriminate]. apply vals_true in EV. apply EV. }
  induction R as [|p caller b prev seq msg p' out R IH E].
  - cbn [q_bmc q_net]. split; [reflexivity|]. split; [reflexivity|]. split; [assumption|]. exists [], []. assert (F : follows off v0 [] [] (PProps bmc net off v0 (set_offset py_new off))) by (split; [constructor|]; split; [constructor|reflexivity]).
    split; [assumption|]. apply (follows_height _ _ _ _ _ O F).
  - destruct IH as (E1 & E2 & E3 & us & bs & F & _). destruct (call_follows _ _ _ _ _ _ _ _ _ _ _ _ O F E) as (b' & rm & bs2 & _ & _ & F2 & Q1 & Q2).
    split; [congruence|]. split; [congruence|]. split; [assumption|]. exists (us ++ pr_updates rm), (bs ++ bs2). split; [assumption|]. apply (follows_height _ _ _ _ _ O F2).
Qed.
(** Two contracts installed with the same validators at the same height know the same blocks, as far as both go. *)
Theorem C101_verifiers_agree : forall off v0 us bs us' bs' p p', true_vals utf8 from_bytes_ v0 ->
  follows off v0 us bs p -> follows off v0 us' bs' p' ->
  begins bs bs' \/ begins bs' bs \/ collision H \/
  exists n us0 vals b b', chain H recover off v0 us0 (firstn n bs) vals /\ firstn n bs = firstn n bs' /\ nth_error bs n = Some b /\ nth_error bs' n = Some b' /\ b <> b' /\
    double_voters H recover (pv_addrs vals) (off + Z.of_nat n + 1) b b'.
Proof.
  intros off v0 us bs us' bs' p p' TV (T & C & _) (T' & C' & _).
  destruct (no_fork H recover utf8 from_bytes_ us us' off v0 bs bs' _ _ TV T T' C C') as [X|[X|[X|(n & us0 & bs0 & v1 & b & b' & _ & _ & _ & E1 & E2 & CC & N1 & N2 & N & D)]]]; auto.
  right. right. right. exists n, us0, v1, b, b'. rewrite <- E1. repeat (split; [first [assumption|congruence]|]). assumption.
Qed.
Theorem C101_access : forall p caller bmc prev seq msg p' out, handle p caller bmc prev seq msg = Ok (p', out) ->
  caller = q_bmc p /\ exists cur from, parse_address bmc = Some cur /\ parse_address prev = Some from /\ from_string (pa_contract cur) = Some (q_bmc p) /\ pa_net from = q_net p.
Proof.
  intros p caller bmc prev seq msg p' out E. apply call_parts in E. destruct E as (cur & from & b & rm & m & v & bs2 & h & logs & E1 & E2 & E3 & E4 & E5 & _). split; [assumption|]. exists cur, from. auto.
Qed.
Theorem C101_proof_changes_nothing : forall p caller bmc prev seq msg p' out b rm, handle p caller bmc prev seq msg = Ok (p', out) -> urlsafe_b64decode msg = Some b -> read_relay b = Some rm ->
  pr_updates rm = [] -> q_vals p' = q_vals p /\ q_mta p' = q_mta p /\ (out = [] -> p' = p).
Proof.
  intros p caller bmc prev seq msg p' out b rm E EB ER EU. apply call_parts in E. destruct E as (cur & from & b' & rm' & m & v & bs2 & h & logs & _ & _ & _ & _ & _ & E3 & E4 & _ & C & A & _ & _ & _ & ->).
  assert (b' = b) by congruence. subst b'. assert (rm' = rm) by congruence. subst rm'. rewrite EU in C. inversion C; subst. cbn [y_adds] in A. injection A as <-. cbn [q_vals q_mta]. split; [reflexivity|]. split; [reflexivity|].
  intros ->. destruct p. reflexivity.
Qed.

(** ** Which blocks a proof may be of *)
Lemma proof_known : forall off v0 us bs p bp h, hash_bytes H -> 0 <= off -> follows off v0 us bs p -> verify_proof H (q_mta p) bp = Ok h ->
  pb_header bp = Some h /\ pb_height bp = Some (y_height (q_mta p)) /\ (In (H (ph_bytes h)) bs \/ collision H).
Proof.
  intros off v0 us bs p bp h HB O (_ & C & A) E. assert (HD : digest32 H) by (intros x; apply HB). pose proof (chain_32 _ _ _ _ _ _ _ HD C) as A32. rewrite fresh_is in A by assumption.
  unfold verify_proof in E. apply of_opt_ok in E. destruct E as (h' & E1 & E). apply of_opt_ok in E. destruct E as (height & E2 & E). destruct (y_height (q_mta p) <? height); [discriminate|].
  apply of_opt_ok in E. destruct E as (at_ & E3 & E). destruct (y_verify H (q_mta p) (pb_witness bp) (H (ph_bytes h')) height at_) as [[]| |] eqn:EV; try discriminate. injection E as <-.
  assert (at_ = y_height (q_mta p)) as -> by (eapply (C98_only_for_current_height H HD off 0 0 false); try eassumption; lia || reflexivity).
  split; [assumption|]. split; [assumption|].
  destruct (C98_accepted_is_an_entry H HD off 0 0 false O ltac:(lia) ltac:(lia) bs _ _ _ _ A32 A (HD _) EV) as (dropped & kept & -> & _ & _ & X). cbv zeta in X. destruct X as (_ & [X|X]); [|right; exact X].
  left. apply nth_error_In in X. apply in_app_iff. auto.
Qed.
Theorem C101_proof_height : forall off v0 us bs p bp h, hash_bytes H -> 0 <= off -> follows off v0 us bs p -> verify_proof H (q_mta p) bp = Ok h -> pb_height bp = Some (off + zlen bs).
Proof. intros off v0 us bs p bp h HB O F E. rewrite <- (follows_height _ _ _ _ _ O F). apply (proof_known _ _ _ _ _ _ _ HB O F E). Qed.

(** ** Messages *)
Definition indexed (emb : trie -> bool) (t : trie) : Prop := good t /\ forks t /\ sized H emb t /\ keyed_by_index t.
Definition logs_in_trees (emb : trie -> bool) (t : trie) : Prop :=
  forall k p b r, at_key t k p b -> read_receipt utf8 from_bytes_ b = Some (Some r) -> exists t2, indexed emb t2 /\ r = root_of H emb t2.
(** Keys are not longer than memory. *)
Definition keyed (p : pproof) : Prop := zlen (pp_key p) < 2 ^ 63.
Definition sizes (rm : prelay) : Prop := Forall (fun rp => keyed (fst rp) /\ Forall keyed (snd rp)) (pr_receipts rm).
Definition key_read (p : pproof) : Prop := exists v, numeric v /\ pp_key p = rlp_encode v.
Lemma event_key : forall b p, read_eventproof utf8 b = Some p -> key_read p.
Proof.
  intros b p E. unfold read_eventproof in E. destruct (rlp_decode utf8 b (TFields [TInt; TBytes])) as [[| | | | |l]|] eqn:ED; try discriminate. destruct l as [|i [|n [|]]]; try discriminate.
  apply first_numeric in ED. destruct (read_nodes utf8 n); [|discriminate]. injection E as <-. exists i. auto.
Qed.
Lemma receipt_key : forall b rp, read_receiptproof utf8 b = Some rp -> key_read (fst rp) /\ Forall key_read (snd rp).
Proof.
  intros b p E. unfold read_receiptproof in E. destruct (rlp_decode utf8 b (TFields [TInt; TBytes; TList])) as [[| | | | |l]|] eqn:ED; try discriminate. destruct l as [|i [|n [|[| | | | |es] [|]]]]; try discriminate.
  apply first_numeric in ED. destruct (read_nodes utf8 n); [|discriminate]. destruct (all_read (read_eventproof utf8) es) as [x|] eqn:EA; [|discriminate]. injection E as <-. cbn [fst snd]. split; [exists i; auto|].
  eapply all_read_forall; [|exact EA]. exact event_key.
Qed.
Lemma relay_keys : forall b rm, read_relay b = Some rm -> Forall (fun rp => key_read (fst rp) /\ Forall key_read (snd rp)) (pr_receipts rm).
Proof.
  intros b rm E. unfold M_PyBmv.read_relay in E. destruct (rlp_decode utf8 b _) as [[| | | | |l]|]; try discriminate. destruct l as [|[| | | | |us] [|p [|[| | | | |rs] [|]]]]; try discriminate.
  destruct (all_read (read_update utf8 from_bytes_) us) as [x|]; [|discriminate]. destruct (when _ _); [|discriminate]. destruct (all_read (read_receiptproof utf8) rs) as [y|] eqn:ER; [|discriminate]. injection E as <-. cbn [pr_receipts].
  eapply all_read_forall; [|exact ER]. exact receipt_key.
Qed.
Lemma leaf_in_tree : forall A (read : list Z -> option A) emb t p a, hash_bytes H -> indexed emb t -> keyed p -> key_read p -> prove_leaf H read (Some (root_of H emb t)) p = Ok a ->
  collision H \/ exists i pth b, at_key t (bytesToNibbles (encodeKey i)) pth b /\ read b = Some a.
Proof.
  intros A read emb t p a HB (G & F & S & K) KP (v & N & EK) E. unfold keyed in KP. unfold prove_leaf in E. destruct (py_prove H (root_of H emb t) (pp_key p) (pp_nodes p)) as [d|] eqn:EP; [|discriminate]. rewrite EK in EP, KP.
  assert (BK := key_bytes v N). destruct (C99_accepted_in_tree H emb t _ _ d HB G S BK EP) as [|[(pth & w & AK & ->)|(e & pth & w & Ne & AK & _)]]; [auto| |].
  - right. destruct (K _ _ _ AK) as (j & Hj & Ej). rewrite Ej in AK. rewrite (index_in_leaf t j pth w G F K Hj AK) in E. exists j, pth, w. split; [assumption|]. destruct w as [|x w]; [discriminate|]. destruct (read (x :: w)); [cbn [of_opt] in E; congruence|discriminate].
  - exfalso. destruct (K _ _ _ AK) as (j & Hj & Ej). destruct (enc_facts j Hj) as (_ & _ & _ & Bj). destruct (nibbles_prefix _ _ e BK Bj (eq_sym Ej)) as (r & E1 & E2). apply key_free in E1; [|assumption|assumption|assumption]. subst r. cbn in E2. congruence.
Qed.
Lemma events_in_tree : forall emb t2 ps es, hash_bytes H -> indexed emb t2 -> Forall keyed ps -> Forall key_read ps -> prove_events H utf8 from_bytes_ (Some (root_of H emb t2)) ps = Ok es ->
  collision H \/ Forall (fun e => exists i pth b, at_key t2 (bytesToNibbles (encodeKey i)) pth b /\ read_event utf8 from_bytes_ b = Some e) es.
Proof.
  intros emb t2 ps es HB IT. revert es. induction ps as [|p ps IH]; intros es KS KR E; cbn [prove_events] in E; [injection E as <-; right; constructor|].
  inversion KS; inversion KR; subst. apply rbind_ok in E. destruct E as (e & E1 & E). apply rbind_ok in E. destruct E as (es' & E2 & E). injection E as <-.
  destruct (IH es') as [|F]; [assumption|assumption|assumption|auto|]. destruct (leaf_in_tree _ _ emb t2 p e HB IT ltac:(assumption) ltac:(assumption) E1) as [|X]; [auto|]. right. constructor; assumption.
Qed.
Lemma receipt_in_tree : forall emb t rp es, hash_bytes H -> indexed emb t -> logs_in_trees emb t -> keyed (fst rp) /\ Forall keyed (snd rp) -> key_read (fst rp) /\ Forall key_read (snd rp) ->
  prove_receipt H utf8 from_bytes_ (Some (root_of H emb t)) rp = Ok es -> collision H \/ Forall (occurs H utf8 from_bytes_ emb t) es.
Proof.
  intros emb t rp es HB IT LT (K1 & K2) (R1 & R2) E. unfold prove_receipt in E. apply rbind_ok in E. destruct E as (root & E1 & E).
  destruct (leaf_in_tree _ _ emb t (fst rp) root HB IT K1 R1 E1) as [|(i & pth & b & AK & RB)]; [auto|]. destruct root as [root|].
  - destruct (LT _ _ _ _ AK RB) as (t2 & IT2 & ->). destruct (events_in_tree emb t2 _ es HB IT2 K2 R2 E) as [|F]; [auto|]. right. eapply Forall_impl; [|exact F]. intros e (i2 & p2 & b2 & AK2 & RE). exists i, pth, b, t2, i2, p2, b2. auto.
  - right. destruct (snd rp) as [|p ps]; cbn [prove_events] in E; [injection E as <-; constructor|]. discriminate.
Qed.

(** Accepted messages are all the messages, numbered from the expected one on, among events that occur in receipts of one block; that block is
    one the contract knows: the one of the proof, or the last of the updates. *)
Theorem C101_messages : forall off v0 us bs p caller bmc prev seq msg p' out, hash_bytes H -> 0 <= off -> follows off v0 us bs p ->
  handle p caller bmc prev seq msg = Ok (p', out) ->
  exists from b rm bs2 es, parse_address prev = Some from /\ urlsafe_b64decode msg = Some b /\ read_relay b = Some rm /\ follows off v0 (us ++ pr_updates rm) (bs ++ bs2) p' /\
    messages from_bytes_ show (pa_contract from) bmc es (seq + 1) out /\
    (out = [] -> q_last p' = q_last p) /\
    (es <> [] -> exists h root, ph_receipts h = Some root /\ (out <> [] -> ph_height h = Some (q_last p')) /\ (In (H (ph_bytes h)) (bs ++ bs2) \/ collision H) /\
      (pr_proof rm = None -> exists l u, pr_updates rm = l ++ [u] /\ pu_header u = Some h) /\
      (forall bp, pr_proof rm = Some bp -> pb_header bp = Some h) /\
      (forall emb t, sizes rm -> root = root_of H emb t -> indexed emb t -> logs_in_trees emb t -> collision H \/ Forall (occurs H utf8 from_bytes_ emb t) es)).
Proof.
  intros off v0 us bs p caller bmc prev seq msg p' out HB O F E. destruct (call_follows _ _ _ _ _ _ _ _ _ _ _ _ O F E) as (b & rm & bs2 & EB & ER & F2 & _ & _). apply call_parts in E.
  destruct E as (cur & from & b' & rm' & m & v & bs3 & h & logs & _ & E2 & _ & _ & _ & EB' & ER' & NE & C & A & EH & FL & M & EP).
  assert (b' = b) by congruence. subst b'. assert (rm' = rm) by congruence. subst rm'. exists from, b, rm, bs2, (concat logs). repeat (split; [assumption|]). split; [intros ->; rewrite EP; reflexivity|].
  intros NL. assert (X : exists h' root, h = Some h' /\ ph_receipts h' = Some root).
  { destruct (pr_receipts rm) as [|rp rps] eqn:EPR; [inversion FL; subst; exfalso; apply NL; reflexivity|]. inversion FL as [|? es ? logs' EPV _]; subst. unfold prove_receipt in EPV. apply rbind_ok in EPV. destruct EPV as (rt & EL & _). unfold prove_leaf in EL.
    destruct h as [h|]; [|discriminate]. destruct (ph_receipts h) as [root|] eqn:EPH; [|discriminate]. exists h, root. auto. }
  destruct X as (h' & root & -> & EPR). exists h', root. split; [assumption|].
  assert (KN : (exists height, ph_height h' = Some height) /\ (In (H (ph_bytes h')) (bs ++ bs2) \/ collision H) /\ (pr_proof rm = None -> exists l u, pr_updates rm = l ++ [u] /\ pu_header u = Some h') /\ (forall bp, pr_proof rm = Some bp -> pb_header bp = Some h')).
  { destruct (pr_proof rm) as [bp|].
    - destruct EH as (h2 & [= <-] & EV). assert (EV' : verify_proof H (q_mta p') bp = Ok h') by (rewrite EP; exact EV). destruct (proof_known _ _ _ _ _ _ _ HB O F2 EV') as (X1 & _ & X2). split; [|split; [assumption|]; split; [discriminate|intros bp' [= <-]; assumption]].
      unfold verify_proof in EV. apply of_opt_ok in EV. destruct EV as (h2 & EQ & EV). apply of_opt_ok in EV. destruct EV as (hh & EQ2 & _). exists hh. congruence.
    - destruct (pr_updates rm) as [|u l] using rev_ind; [discriminate|]. clear IHl. rewrite rev_app_distr in EH. cbn [rev app] in EH. destruct F2 as (_ & C2 & _). rewrite app_assoc in C2. destruct (chain_last _ _ _ _ _ _ _ _ C2) as (hd & b0 & Q1 & Q2 & Q3 & Q4). assert (hd = h') by congruence. subst hd.
      split; [eauto|]. split; [left; congruence|]. split; [intros _; exists l, u; auto|discriminate]. }
  destruct KN as ((height & KH) & KN & KU & KB). split; [intros NO; rewrite EP; cbn [q_last]; destruct out; [congruence|]; rewrite KH; reflexivity|]. split; [assumption|]. split; [assumption|]. split; [assumption|].
  intros emb t SZ -> IT LT. pose proof (relay_keys _ _ ER) as KR. unfold sizes in SZ. rewrite EPR in FL. clear - SZ KR FL HB IT LT.
  induction FL as [|rp es rps logs E FL IH]; [right; constructor|]. inversion SZ; inversion KR; subst. destruct IH as [|IH]; [assumption|assumption|auto|].
  destruct (receipt_in_tree emb t rp es HB IT LT ltac:(assumption) ltac:(assumption) E) as [|X]; [auto|]. right. cbn [concat]. apply Forall_app. auto.
Qed.
End CALLS.
Print Assumptions C101_history.
Print Assumptions C101_verifiers_agree.
Print Assumptions C101_access.
Print Assumptions C101_proof_changes_nothing.
Print Assumptions C101_proof_height.
Print Assumptions C101_messages.

(** ** Events *)
Theorem C101_events_exact : forall from_bytes_ show contract bmc es seq n out,
  take_events from_bytes_ show contract bmc es seq [] = Ok (n, out) <-> messages from_bytes_ show contract bmc es seq out /\ n = seq + zlen out.
Proof.
  intros. rewrite take_events_iff. split; [intros (ms & M & -> & ->); auto|]. intros (M & ->). exists out. auto.
Qed.
Print Assumptions C101_events_exact.
(** Messages for other centers are not passed over: with any number but the one that is expected here the call fails. *)
Theorem C101_other_center_refuted : forall from_bytes_ show contract bmc e es next n m seq msgs, message_event from_bytes_ show contract e next n m -> next <> PStr bmc -> n <> seq ->
  exists c, take_events from_bytes_ show contract bmc (e :: es) seq msgs = Err c.
Proof.
  intros from_bytes_ show contract bmc e es next n m seq msgs ((b & a & E1 & E2 & E3) & EM & num & more & EP & NK) NN NE. cbn [take_events]. rewrite E1, E2. cbn [of_opt rbind]. rewrite E3, bytes_eqb_refl. cbn [negb]. rewrite EM, bytes_eqb_refl. cbn [negb]. rewrite EP.
  replace (match num with PInt n0 => Some n0 | PBool b0 => Some (if b0 then 1 else 0) | _ => None end) with (Some n) by (destruct NK as [->|(x & -> & ->)]; reflexivity). cbn [of_opt rbind].
  destruct (seq <? n) eqn:L1; [eauto|]. destruct (n <? seq) eqn:L2; [eauto|]. lia.
Qed.
Print Assumptions C101_other_center_refuted.
(** The message events that the other contracts write are read as what they say. *)
Definition event_item (a next num m : list Z) : rlp := RList [RBytes a; RList [RBytes (str "Message(str,int,bytes)"); RBytes next; RBytes num]; RList [RBytes m]].
Theorem C101_event_read : forall utf8 from_bytes_ a next num m, rlp_ok (event_item a next num m) -> zlen (rlp_write (event_item a next num m)) < 2 ^ 63 ->
  utf8 (str "Message(str,int,bytes)") = true -> utf8 next = true ->
  read_event utf8 from_bytes_ (rlp_write (event_item a next num m)) = Some (PEvent (PBytes a) (str "Message") [PStr next; PInt (tc_value num); PBytes m]).
Proof.
  intros utf8 from_bytes_ a next num m OK L U1 U2. unfold read_event. rewrite (proj2 (C97_reads utf8 (TFields [TBytes; TOf (Some TBytes); TOf (Some TBytes)]) (event_item a next num m) _
    (PList [PBytes a; PList [PBytes (str "Message(str,int,bytes)"); PBytes next; PBytes num]; PList [PBytes m]]) ltac:(cbn; tauto) OK L eq_refl)).
  - unfold parse_signature. rewrite U1.
    change (str_index (str "Message(str,int,bytes)") (str "(")) with (Some 7%nat). change (str_index (str "Message(str,int,bytes)") (str ")")) with (Some 21%nat). cbv iota.
    change (map strip (split_at 44 (skipn 8 (firstn 21 (str "Message(str,int,bytes)"))))) with [str "str"; str "int"; str "bytes"]. change (firstn 7 (str "Message(str,int,bytes)")) with (str "Message").
    cbn [params]. unfold convert. cbn [raw_part from_bytes].
    change (bytes_eqb (str "str") (str "int")) with false. change (bytes_eqb (str "str") (str "str")) with true. change (bytes_eqb (str "int") (str "int")) with true.
    change (bytes_eqb (str "bytes") (str "int")) with false. change (bytes_eqb (str "bytes") (str "str")) with false. change (bytes_eqb (str "bytes") (str "bool")) with false. change (bytes_eqb (str "bytes") (str "bytes")) with true.
    cbv iota. rewrite U2, tc_int_value. reflexivity.
  - repeat constructor.
Qed.
Print Assumptions C101_event_read.
(** An event without parameters cannot be read. *)
Theorem C101_no_parameters_refuted : forall utf8 from_bytes_ a name, let x := RList [RBytes a; RList [RBytes (name ++ str "()")]; RList []] in
  rlp_ok x -> zlen (rlp_write x) < 2 ^ 63 -> read_event utf8 from_bytes_ (rlp_write x) = None.
Proof.
  intros utf8 from_bytes_ a name x OK L. unfold read_event. rewrite (proj2 (C97_reads utf8 (TFields [TBytes; TOf (Some TBytes); TOf (Some TBytes)]) x _
    (PList [PBytes a; PList [PBytes (name ++ str "()")]; PList []]) ltac:(cbn; tauto) OK L eq_refl)); [|repeat constructor].
  unfold parse_signature. destruct (utf8 (name ++ str "()")); [|reflexivity]. destruct (str_index (name ++ str "()") (str "(")) as [i|]; [|reflexivity]. destruct (str_index (name ++ str "()") (str ")")) as [j|]; [|reflexivity].
  destruct (split_at 44 (skipn (S i) (firstn j (name ++ str "()")))) as [|t ts] eqn:ES.
  - exfalso. destruct (skipn (S i) (firstn j (name ++ str "()"))) as [|c s]; cbn [split_at] in ES; [discriminate|]. destruct (c =? 44); [discriminate|]. destruct (split_at 44 s); discriminate.
  - reflexivity.
Qed.
Print Assumptions C101_no_parameters_refuted.
(** Event logs written in the receipt itself are never looked at. *)
Theorem C101_logs_in_receipt_refuted : forall H utf8 from_bytes_ root p ps es, prove_leaf H (read_receipt utf8 from_bytes_) root p = Ok None -> prove_receipt H utf8 from_bytes_ root (p, ps) = Ok es -> es = [] /\ ps = [].
Proof.
  intros H utf8 from_bytes_ root p ps es E1 E. unfold prove_receipt in E. cbn [fst snd] in E. rewrite E1 in E. cbn [rbind] in E. destruct ps; cbn [prove_events] in E; [injection E as <-; auto|discriminate].
Qed.
Print Assumptions C101_logs_in_receipt_refuted.

(** ** What an honest relay sends is accepted *)
Section HONEST.
Context (H : list Z -> list Z) (utf8 : list Z -> bool) (recover : list Z -> list Z -> option (list Z)) (from_bytes_ : list Z -> option (list Z)) (from_string : list Z -> option (list Z)) (show : list Z -> list Z).
(** The proof of the value at an index, made of the nodes on the way; indexes of receipts and logs are at least 0. *)
Definition honest_proof (emb : trie -> bool) (t : trie) (p : pproof) (b : list Z) : Prop :=
  exists i pth, index i /\ at_key t (bytesToNibbles (encodeKey i)) pth b /\ pp_key p = rlp_encode (PInt i) /\ pp_nodes p = proof_of H emb pth.
Definition honest_receipt (emb : trie -> bool) (t : trie) (rp : pproof * list pproof) (es : list pevent) : Prop :=
  exists b t2, honest_proof emb t (fst rp) b /\ read_receipt utf8 from_bytes_ b = Some (Some (root_of H emb t2)) /\ indexed H emb t2 /\ ext_by_hash emb t2 /\
    Forall2 (fun p e => exists b2, honest_proof emb t2 p b2 /\ read_event utf8 from_bytes_ b2 = Some e) (snd rp) es.
Lemma honest_leaf : forall A (read : list Z -> option A) emb t p b a, hash_bytes H -> indexed H emb t -> ext_by_hash emb t -> honest_proof emb t p b -> read [] = None -> read b = Some a -> prove_leaf H read (Some (root_of H emb t)) p = Ok a.
Proof.
  intros A read emb t p b a HB (G & F & S & K) X (i & pth & Hi & AK & EK & EN) N R. unfold prove_leaf. rewrite EK, EN. rewrite (C99_index_accepted H emb t i pth b HB G F S X K Hi AK). destruct b; [congruence|]. rewrite R. reflexivity.
Qed.
Theorem C101_honest_accepted : forall off v0 us bs p caller bmc prev seq msg cur from b rm us1 u bs2 v h emb t logs out, hash_bytes H -> 0 <= off -> follows H utf8 recover from_bytes_ off v0 us bs p ->
  parse_address bmc = Some cur -> parse_address prev = Some from -> pa_net from = q_net p -> caller = q_bmc p -> from_string (pa_contract cur) = Some (q_bmc p) ->
  urlsafe_b64decode msg = Some b -> read_relay utf8 from_bytes_ b = Some rm -> pr_proof rm = None -> pr_updates rm = us1 ++ [u] -> pu_header u = Some h ->
  chain H recover (off + zlen bs) (q_vals p) (pr_updates rm) bs2 v ->
  ph_receipts h = Some (root_of H emb t) -> indexed H emb t -> ext_by_hash emb t -> Forall2 (honest_receipt emb t) (pr_receipts rm) logs ->
  messages from_bytes_ show (pa_contract from) bmc (concat logs) (seq + 1) out ->
  exists p', handle_relay H utf8 recover from_bytes_ from_string show p caller bmc prev seq msg = Ok (p', out) /\ follows H utf8 recover from_bytes_ off v0 (us ++ pr_updates rm) (bs ++ bs2) p'.
Proof.
  intros off v0 us bs p caller bmc prev seq msg cur from b rm us1 u bs2 v h emb t logs out HB O F E1 E2 EN EC EA EB ER EP EU EH C ERC IT XT FL M.
  assert (HD : digest32 H) by (intros x; apply HB). pose proof (follows_height _ _ _ _ _ _ _ _ _ O F) as HH.
  assert (AM : exists m, y_adds H (q_mta p) bs2 = Some m).
  { destruct F as (_ & C0 & A0). rewrite fresh_is in A0 by assumption. pose proof (chain_app _ _ _ _ _ _ _ _ _ _ C0 C) as CC. pose proof (chain_32 _ _ _ _ _ _ _ HD CC) as A32.
    destruct (sim H HD off 0 0 false (bs ++ bs2) O ltac:(lia) ltac:(lia) A32) as (m & _ & _ & EM & _). rewrite (y_adds_more H bs bs2 _ _ A0) in EM. eauto. }
  destruct AM as (m & AM).
  assert (EV : block_updates H recover (q_mta p, q_vals p) (pr_updates rm) = Ok (m, v)) by (apply C101_updates_exact; exists bs2; rewrite HH; auto).
  assert (FP : Forall2 (fun rp es => prove_receipt H utf8 from_bytes_ (Some (root_of H emb t)) rp = Ok es) (pr_receipts rm) logs).
  { clear - FL HB IT XT. induction FL as [|rp es rps logs (b & t2 & HP & RR & IT2 & X2 & FE) FL IH]; [constructor|]. constructor; [|exact IH]. unfold prove_receipt. apply rbind_ok. exists (Some (root_of H emb t2)).
    split; [eapply honest_leaf; try eassumption; reflexivity|]. clear - FE HB IT2 X2. induction FE as [|p e ps es (b2 & HP & RE) FE IH]; cbn [prove_events]; [reflexivity|].
    apply rbind_ok. exists e. split; [eapply honest_leaf; try eassumption; reflexivity|]. apply rbind_ok. exists es. auto. }
  assert (ET : take_receipts H utf8 from_bytes_ show (Some (root_of H emb t)) (pa_contract from) bmc (pr_receipts rm) (seq + 1) [] = Ok (seq + 1 + zlen out, out)) by (apply take_receipts_iff; exists logs, out; auto).
  assert (HR : exists p', handle_relay H utf8 recover from_bytes_ from_string show p caller bmc prev seq msg = Ok (p', out)).
  { unfold handle_relay. rewrite E1, E2. cbn [of_opt rbind]. unfold check_accessible. rewrite EN, bytes_eqb_refl, EC, bytes_eqb_refl, EA. cbn [negb of_opt rbind]. rewrite bytes_eqb_refl. cbn [negb rbind]. rewrite EB. cbn [of_opt rbind]. rewrite ER. cbn [of_opt rbind].
    replace (match pr_updates rm, pr_proof rm with [], None => true | _, _ => false end) with false by (rewrite EU, EP; destruct us1; reflexivity).
    unfold last_header. rewrite EV. cbn [rbind]. rewrite EP, EU, rev_app_distr. cbn [rev app rbind fst snd]. rewrite EH, ERC, ET. cbn [rbind fst snd]. eauto. }
  destruct HR as (p' & HR). exists p'. split; [assumption|]. pose proof HR as HR2. apply call_parts in HR2. destruct HR2 as (cur' & from' & b' & rm' & m' & v' & bs3 & h' & logs' & _ & _ & _ & _ & _ & EB' & ER' & _ & C' & A' & _ & _ & _ & EP').
  assert (b' = b) by congruence. subst b'. assert (rm' = rm) by congruence. subst rm'. destruct F as (T & C0 & A0). split; [|split].
  - apply Forall_app. split; [assumption|]. eapply relay_true. eassumption.
  - rewrite EP'. cbn [q_vals]. assert (EV' : block_updates H recover (q_mta p, q_vals p) (pr_updates rm) = Ok (m', v')) by (apply C101_updates_exact; eauto). rewrite EV in EV'. injection EV' as <- <-. eapply chain_app; eassumption.
  - rewrite EP'. cbn [q_mta]. assert (EV' : block_updates H recover (q_mta p, q_vals p) (pr_updates rm) = Ok (m', v')) by (apply C101_updates_exact; eauto). rewrite EV in EV'. injection EV' as <- <-. rewrite (y_adds_more H bs bs2 _ _ A0). assumption.
Qed.
End HONEST.
Print Assumptions C101_honest_accepted.

(** ** Installation *)
Theorem C101_installed : forall utf8 from_bytes_ from_string bmc net text off bs addrs, text <> [] ->
  Forall2 (fun t b => from_string t = Some b) (split_at 44 text) bs -> Forall2 (fun b a => from_bytes_ b = Some a) bs addrs -> Forall bytes_ok bs -> zlen (rlp_write (RList (map RBytes bs))) <= 65538 ->
  on_install utf8 from_bytes_ from_string bmc net text off = Some (PProps bmc net off (PVals (rlp_write (RList (map RBytes bs))) addrs) (set_offset py_new off)).
Proof.
  intros utf8 from_bytes_ from_string bmc net text off bs addrs NT F1 F2 OK L. unfold on_install. destruct text as [|c text]; [congruence|]. unfold validators_from_string.
  assert (A : all_read Some (map (fun a => match from_string a with Some b => PBytes b | None => PNone end) (split_at 44 (c :: text))) = Some bs).
  { clear - F1. induction F1 as [|t b ts bs E F IH]; cbn [map all_read]; [reflexivity|]. rewrite E. cbn [all_read]. rewrite IH. reflexivity. }
  rewrite A. assert (E : rlp_encode (PList (map PBytes bs)) = rlp_write (RList (map RBytes bs))). { apply (proj1 encoded); [|exact L]. constructor. clear. induction bs; cbn [map]; repeat constructor; assumption. }
  rewrite E. unfold read_validators. assert (L2 : zlen (rlp_write (RList (map RBytes bs))) < 2 ^ 63) by lia.
  rewrite (proj2 (C97_reads utf8 (TOf (Some TBytes)) (RList (map RBytes bs)) _ (PList (map PBytes bs)) I ltac:(apply rlp_ok_list; apply Forall_map; exact OK) L2 eq_refl)).
  - assert (B : addresses from_bytes_ (map PBytes bs) = Some addrs). { clear - F2. induction F2 as [|b a bs addrs E F IH]; cbn [map addresses]; [reflexivity|]. rewrite E, IH. reflexivity. } rewrite B. reflexivity.
  - constructor. clear. induction bs; cbn [map]; repeat constructor; assumption.
Qed.
Print Assumptions C101_installed.

(** ** A call with a block and two messages *)
Definition xs_bmc : list Z := 1 :: repeat 9 20.
Definition xs_addrs : list (list Z) := [0 :: repeat 1 20; 0 :: repeat 2 20; 0 :: repeat 3 20; 0 :: repeat 4 20].
Definition xs_vals : pvals := PVals (rlp_write (RList (map RBytes xs_addrs))) xs_addrs.
Definition xs_utf8 (b : list Z) : bool := forallb (fun c => c <? 128) b.
Definition xs_from_bytes (b : list Z) : option (list Z) := if zlen b =? 21 then Some b else None.
Definition xs_from_string (s : list Z) : option (list Z) := if bytes_eqb s (str "cxbmc") then Some xs_bmc else None.
Definition xs_show (a : list Z) : list Z := if bytes_eqb a (1 :: repeat 7 20) then str "cx07" else str "other".
(** signatures are the digest and the address of the signer *)
Definition xs_recover (d sig : list Z) : option (list Z) := if bytes_eqb (firstn 32 sig) d then Some (skipn 32 sig) else None.
Definition xs_to : list Z := str "btp://0x2.icon/cxbmc".
Definition xs_from : list Z := str "btp://0x1.icon/cx07".
Definition xs_event (n m : Z) : rlp := event_item (1 :: repeat 7 20) xs_to [n] [m].
Definition xs_logs : trie := TExt [0] (TBranch ([Some (TLeaf [] (rlp_write (xs_event 8 55))); Some (TLeaf [] (rlp_write (xs_event 9 66)))] ++ repeat None 14) []).
Definition xs_receipt : rlp := RList [RBytes [0]; RNull; RNull; RNull; RNull; RNull; RNull; RNull; RBytes (root_of ex_H ex_emb xs_logs)].
Definition xs_tree : trie := TLeaf (bytesToNibbles (encodeKey 0)) (rlp_write xs_receipt).
Definition xs_header : list Z := rlp_write (RList [RBytes [2]; RBytes [101]; RBytes [0]; RNull; RNull; RNull; RBytes (ex_H (pv_bytes xs_vals)); RNull; RNull; RNull; RBytes (rlp_write (RList [RNull; RNull; RBytes (root_of ex_H ex_emb xs_tree)]))]).
Definition xs_sign (a : list Z) : rlp := RList [RBytes [5]; RBytes (ex_H (signed 101 (PInt 0) (ex_H xs_header) (PList [PInt 1; PBytes [1]]) (PInt 5)) ++ a)].
Definition xs_votes (n : nat) : list Z := rlp_write (RList [RBytes [0]; RList [RBytes [1]; RBytes [1]]; RList (map xs_sign (firstn n xs_addrs))]).
Definition xs_update (n : nat) : list Z := rlp_write (RList [RBytes xs_header; RBytes (xs_votes n); RNull]).
Definition xs_proof (nodes : list (list Z)) : rlp := RBytes (rlp_write (RList (map RBytes nodes))).
Definition xs_log_proof (i : Z) (leaf : rlp) : rlp :=
  RList [RBytes [i]; xs_proof [bytes_of ex_H ex_emb xs_logs; bytes_of ex_H ex_emb (match xs_logs with TExt _ t => t | t => t end); bytes_of ex_H ex_emb (TLeaf [] (rlp_write leaf))]].
Definition xs_receipt_proof : list Z := rlp_write (RList [RBytes [0]; xs_proof [bytes_of ex_H ex_emb xs_tree]; RList [xs_log_proof 0 (xs_event 8 55); xs_log_proof 1 (xs_event 9 66)]]).
Definition xs_relay (n : nat) : list Z := rlp_write (RList [RList [RBytes (xs_update n)]; RNull; RList [RBytes xs_receipt_proof]]).
Definition xs_p0 : pprops := PProps xs_bmc (str "0x1.icon") 100 xs_vals (set_offset py_new 100).
Definition xs_call (n : nat) (caller : list Z) (seq : Z) := handle_relay ex_H xs_utf8 xs_recover xs_from_bytes xs_from_string xs_show xs_p0 caller xs_to xs_from seq (urlsafe_b64encode (xs_relay n)).
Example C101_ex_accepted : match xs_call 3 xs_bmc 7 with
  | Ok (p, out) => y_height (q_mta p) = 101 /\ q_last p = 101 /\ q_vals p = xs_vals /\ out = [PBytes [55]; PBytes [66]]
  | _ => False
  end.
Proof. vm_compute. repeat split. Qed.
Example C101_ex_refused : xs_call 2 xs_bmc 7 = Err 2 /\ xs_call 3 (1 :: repeat 8 20) 7 = Err 0 /\ xs_call 3 xs_bmc 6 = Err 7 /\ xs_call 3 xs_bmc 8 = Err 3.
Proof. vm_compute. repeat split. Qed.
Example C101_ex_follows : follows ex_H xs_utf8 xs_recover xs_from_bytes 100 xs_vals [] [] xs_p0 /\ true_vals xs_utf8 xs_from_bytes xs_vals.
Proof. split; [split; [constructor|]; split; [constructor|reflexivity]|]. vm_compute. reflexivity. Qed.
Definition pair_tree (v w : list Z) : trie := TExt [0] (TBranch ([Some (TLeaf [] v); Some (TLeaf [] w)] ++ repeat None 14) []).
Lemma pair_children : forall v w i c, nth_error ([Some (TLeaf [] v); Some (TLeaf [] w)] ++ repeat None 14) i = Some (Some c) -> i = 0%nat /\ c = TLeaf [] v \/ i = 1%nat /\ c = TLeaf [] w.
Proof. intros v w [|[|i]] c E; cbn [app nth_error] in E; [injection E as <-; auto|injection E as <-; auto|]. apply nth_error_In in E. apply repeat_spec in E. discriminate. Qed.
Lemma leaf_at : forall nib v k p b, at_key (TLeaf nib v) k p b -> k = nib /\ b = v.
Proof. intros nib v k p b A. inversion A. auto. Qed.
Example C101_ex_trees : indexed ex_H ex_emb xs_tree /\ logs_in_trees ex_H xs_utf8 xs_from_bytes ex_emb xs_tree /\ ext_by_hash ex_emb xs_tree /\ indexed ex_H ex_emb xs_logs /\ ext_by_hash ex_emb xs_logs.
Proof.
  assert (EO1 : bytes_ok (rlp_write (xs_event 8 55))) by (let v := eval vm_compute in (rlp_write (xs_event 8 55)) in replace (rlp_write (xs_event 8 55)) with v by (vm_compute; reflexivity); repeat constructor; unfold is_byte; lia).
  assert (EO2 : bytes_ok (rlp_write (xs_event 9 66))) by (let v := eval vm_compute in (rlp_write (xs_event 9 66)) in replace (rlp_write (xs_event 9 66)) with v by (vm_compute; reflexivity); repeat constructor; unfold is_byte; lia).
  assert (IL : indexed ex_H ex_emb xs_logs /\ ext_by_hash ex_emb xs_logs).
  { change xs_logs with (pair_tree (rlp_write (xs_event 8 55)) (rlp_write (xs_event 9 66))). unfold pair_tree. split; [split; [|split; [|split]]|].
    - constructor; [repeat constructor; unfold nibble; lia|]. constructor; [reflexivity|constructor| |right; exists 0%nat; eauto].
      + intros i c E. destruct (pair_children _ _ i c E) as [[_ ->]|[_ ->]]; (constructor; [constructor|]); assumption.
      + eexists. reflexivity.
    - constructor. constructor; [exists 0%nat; eexists; reflexivity|]. intros i c E. destruct (pair_children _ _ i c E) as [[_ ->]|[_ ->]]; constructor.
    - constructor; [vm_compute; reflexivity|]. constructor; [vm_compute; reflexivity|]. intros i c E. destruct (pair_children _ _ i c E) as [[_ ->]|[_ ->]]; constructor; vm_compute; reflexivity.
    - intros k p v A. inversion A as [|? ? k' p' ? A2| |]; subst. inversion A2 as [| |? ? NV|? ? x c k2 p2 ? Hx HC A3]; subst; [congruence|].
      destruct (pair_children _ _ _ _ HC) as [[E ->]|[E ->]]; inversion A3; subst.
      + exists 0. split; [unfold index; lia|]. replace x with 0 by lia. reflexivity.
      + exists 1. split; [unfold index; lia|]. replace x with 1 by lia. reflexivity.
    - constructor; [reflexivity|]. constructor. intros i c E. destruct (pair_children _ _ i c E) as [[_ ->]|[_ ->]]; constructor. }
  destruct IL as [IL XL]. split; [|split; [|split; [constructor|auto]]].
  - split; [|split; [constructor|split]].
    + constructor; [change (bytesToNibbles (encodeKey 0)) with [0; 0]; repeat constructor; unfold nibble; lia|]. apply rlp_write_ok; [|vm_compute; reflexivity]. apply rlp_ok_list. apply Forall_cons; [repeat constructor; unfold is_byte; lia|]. do 7 (apply Forall_cons; [exact I|]). apply Forall_cons; [apply (proj1 (C84_ex_hash _))|apply Forall_nil].
    + constructor. vm_compute. reflexivity.
    + intros k p v A. apply leaf_at in A. exists 0. split; [unfold index; lia|apply A].
  - intros k p b r A E. assert (EB : b = rlp_write xs_receipt) by (apply leaf_at in A; apply A). exists xs_logs. split; [assumption|].
    assert (X : read_receipt xs_utf8 xs_from_bytes b = Some (Some (root_of ex_H ex_emb xs_logs))) by (rewrite EB; vm_compute; reflexivity). rewrite E in X. injection X as X. exact X.
Qed.
(** The parameters of an event are its indexed values and then its data, in order, each as its type says; values that are left over do not matter *)
Theorem C101_parameters : forall utf8 from_bytes_ ts indexed data l, params utf8 from_bytes_ ts indexed data = Some l <->
  (length ts <= length (indexed ++ data))%nat /\ Forall2 (fun p a => convert utf8 from_bytes_ (fst p) (snd p) = Some a) (combine ts (indexed ++ data)) l.
Proof.
  intros utf8 fb ts. induction ts as [|t ts IH]; intros i d l; cbn [params combine length].
  - split; [intros E; injection E as <-; split; [lia|constructor]|intros (_ & F); inversion F; reflexivity].
  - assert (G : forall v i' d', i ++ d = v :: (i' ++ d') -> (match convert utf8 fb t v, params utf8 fb ts i' d' with Some a, Some x => Some (a :: x) | _, _ => None end = Some l <->
      (S (length ts) <= length (i ++ d))%nat /\ Forall2 (fun p a => convert utf8 fb (fst p) (snd p) = Some a) (match i ++ d with [] => [] | y :: r => (t, y) :: combine ts r end) l)).
    { intros v i' d' ->. cbn [length]. split.
      - intros E. destruct (convert utf8 fb t v) as [a|] eqn:C; [|discriminate E]. destruct (params utf8 fb ts i' d') as [x|] eqn:P; [|discriminate E]. injection E as <-. apply IH in P as [L F]. split; [lia|]. constructor; [exact C|exact F].
      - intros (L & F). inversion F as [|? a ? x C F']; subst. cbn [fst snd] in C. rewrite C. rewrite (proj2 (IH i' d' x)); [reflexivity|]. split; [lia|exact F']. }
    destruct i as [|v i']; [destruct d as [|v d']|]; [split; [discriminate|cbn; intros (L & _); lia]|apply (G v [] d' eq_refl)|apply (G v i' d eq_refl)].
Qed.
Print Assumptions C101_parameters.
Example C101_ex_parameters : params (fun _ => true) Some [str "int"; str "str"; str "bytes"] [PBytes [5]] [PBytes (str "a"); PBytes [7]; PBytes [9]] = Some [PInt 5; PStr (str "a"); PBytes [7]].
Proof. vm_compute. reflexivity. Qed.
(** A network with nothing in front of its only dot is refused, and no other for its name *)
Theorem C101_leading_dot : forall s a, parse_address s = Some a -> ~ exists r, pa_net a = 46 :: r /\ ~ In 46 r.
Proof.
  intros s a E (r & N & I). unfold parse_address in E. destruct (behind (str "://") s) as [x|]; [|discriminate E]. cbv zeta in E. destruct (net_ok (before (str "/") (before (str "://") x))) eqn:K; [|discriminate E]. assert (E' : pa_net a = before (str "/") (before (str "://") x)) by (injection E as <-; reflexivity). rewrite <- E', N in K. cbn [net_ok] in K. rewrite Z.eqb_refl in K. cbn [andb] in K. rewrite Bool.negb_involutive in K. apply existsb_exists in K as (y & Iy & Ey). apply Z.eqb_eq in Ey. subst y. exact (I Iy).
Qed.
Print Assumptions C101_leading_dot.
Example C101_ex_leading_dot : parse_address (str "btp://.icon/cx1") = None /\ option_map pa_net (parse_address (str "btp://.a.icon/cx1")) = Some (str ".a.icon") /\ option_map pa_net (parse_address (str "btp://0x1.icon/cx1")) = Some (str "0x1.icon").
Proof. vm_compute. repeat split; reflexivity. Qed.
