(** Both implementations of the call service satisfy the relation [step]. *)
From Coq Require Import String Ascii ZArith List Bool Lia.
From Coq Require Import ZifyBool.
From Verif Require Import Base L_Base M_IntConv S_IntConv L_IntConv M_Rlp S_Rlp L_Rlp S_Address S_BtpAddr M_JBmv S_JBmv M_Wire S_Wire L_Wire M_SolRlp S_SolRlp L_SolRlp M_BtpAddr L_BtpAddr T_BtpAddr
  M_Bridge M_XCall S_XCall L_XCall M_JCall M_SolCall S_JCall.
Import ListNotations.
Open Scope Z_scope.

Lemma tx_ind2 : forall P : tx -> Prop,
  (forall c k v to d rb q t n, P (Send c k v to d rb q t n)) ->
  (forall i inner o n, Forall P inner -> P (Execute i inner o n)) ->
  (forall i inner o, Forall P inner -> P (Rollback i inner o)) ->
  (forall c net svc sn m, P (Deliver c net svc sn m)) -> (forall c net svc sn code m, P (DeliverError c net svc sn code m)) ->
  (forall c a, P (SetAdmin c a)) -> (forall c a t, P (SetHandler c a t)) -> (forall c v, P (SetFee c v)) -> forall t, P t.
Proof.
  intros P H1 H2 H3 H4 H5 H6 H7 H8. fix IH 1. intros [c k v to d rb q t n | i inner o n | i inner o | c net svc sn m | c net svc sn code m | c a | c a t | c v].
  - apply H1.
  - apply H2. induction inner as [|t r IHr]; constructor; [apply IH|exact IHr].
  - apply H3. induction inner as [|t r IHr]; constructor; [apply IH|exact IHr].
  - apply H4. - apply H5. - apply H6. - apply H7. - apply H8.
Qed.

(** ** Messages *)
Lemma reads_boolean : forall b, reads readBoolean (bool_item b) b.
Proof.
  intros b L rest. unfold readBoolean. unfold bool_item in *. rewrite (bind_reads _ _ readByteArray) with (a := [if b then 1 else 0]); [|apply reads_bytes|exact L].
  - destruct b; reflexivity.
  - constructor; [destruct b; red; lia|constructor].
Qed.
Definition opt_small (o : option (list Z)) : Prop := opt_bytes o.
Lemma reads_message : forall t d, fits_int t -> bytes_ok d -> reads readCSMessage (message_item t d) (t, Some d).
Proof.
  intros t d F B. apply (reads_inList _ _ _ _ []). intros S. cbn [map concat]. pose proof (Forall_inv S) as S1. pose proof (Forall_inv (Forall_inv_tail S)) as S2.
  rewrite (bind_reads _ _ readInt) with (a := t) by (apply reads_int || assumption; assumption).
  rewrite (bind_reads _ _ readNullable) with (t := RBytes d) (a := Some d); [reflexivity|apply (reads_nullable (Some d)); exact B|exact S2].
Qed.
Lemma reads_request : forall q, request_ok q -> reads readCSRequest (request_item q) q.
Proof.
  intros q (B1 & B2 & B3). apply (reads_inList _ _ _ _ []). intros S. cbn [map concat].
  pose proof (Forall_inv S) as S1. apply Forall_inv_tail in S. pose proof (Forall_inv S) as S2. apply Forall_inv_tail in S. pose proof (Forall_inv S) as S3. apply Forall_inv_tail in S.
  pose proof (Forall_inv S) as S4. apply Forall_inv_tail in S. pose proof (Forall_inv S) as S5.
  rewrite (bind_reads _ _ readByteArray) with (a := q_from q) by (try apply reads_bytes; assumption).
  rewrite (bind_reads _ _ readByteArray) with (a := q_to q) by (try apply reads_bytes; assumption).
  rewrite (bind_reads _ _ readBigInteger) with (a := q_sn q) by (try apply reads_big; assumption).
  rewrite (bind_reads _ _ readBoolean) with (a := q_rollback q) by (try apply reads_boolean; assumption).
  rewrite (bind_reads _ _ readNullable) with (a := q_data q) by (try apply reads_nullable; assumption).
  destruct q; reflexivity.
Qed.
Lemma reads_response : forall r, response_ok r -> reads readCSResponse (response_item r) r.
Proof.
  intros r (B1 & B2). apply (reads_inList _ _ _ _ []). intros S. cbn [map concat].
  pose proof (Forall_inv S) as S1. apply Forall_inv_tail in S. pose proof (Forall_inv S) as S2. apply Forall_inv_tail in S. pose proof (Forall_inv S) as S3.
  rewrite (bind_reads _ _ readBigInteger) with (a := r_sn r) by (try apply reads_big; assumption).
  rewrite (bind_reads _ _ readInt) with (a := r_code r) by (try apply reads_int; assumption).
  rewrite (bind_reads _ _ readNullable) with (a := r_msg r) by (try apply reads_nullable; assumption).
  destruct r; reflexivity.
Qed.

Lemma bool_bytes : forall b, rbool b = bool_item b.
Proof. intros []; vm_compute; reflexivity. Qed.
Lemma j_req_wire : forall q, j_msg_bytes CS_REQUEST (Some (j_req_bytes q)) = request_wire q.
Proof. intros q. unfold j_msg_bytes, j_req_bytes, request_wire, message_item, request_item. rewrite bool_bytes. unfold rnull, opt_item. destruct (q_data q); reflexivity. Qed.
Lemma j_res_wire : forall r, j_msg_bytes CS_RESPONSE (Some (j_res_bytes r)) = response_wire r.
Proof. intros r. unfold j_msg_bytes, j_res_bytes, response_wire, message_item, response_item. unfold rnull, opt_item. destruct (r_msg r); reflexivity. Qed.

(** ** Decimal texts *)
Lemma dec_loop_ok : forall fuel n acc, 0 <= n -> bytes_ok acc -> bytes_ok (dec_loop fuel n acc) /\ zlen (dec_loop fuel n acc) <= Z.of_nat fuel + zlen acc.
Proof.
  induction fuel as [|f IH]; intros n acc N B; cbn [dec_loop]; [split; [exact B|lia]|].
  pose proof (Z.mod_pos_bound n 10 ltac:(lia)) as M.
  assert (B' : bytes_ok (48 + n mod 10 :: acc)) by (constructor; [red; lia|exact B]).
  assert (E : zlen (48 + n mod 10 :: acc) = 1 + zlen acc) by (unfold zlen; cbn [length]; lia).
  destruct (n <? 10); [split; [exact B'|lia]|].
  destruct (IH (n / 10) (48 + n mod 10 :: acc)) as (A1 & A2); [apply Z.div_pos; lia|exact B'|]. split; [exact A1|lia].
Qed.
Lemma dec_text_ok : forall n, 0 <= n < 2 ^ 256 -> bytes_ok (dec_text n) /\ zlen (dec_text n) <= 256.
Proof.
  intros n N. unfold dec_text. destruct (dec_loop_ok (S (Z.to_nat (Z.log2 n))) n [] ltac:(lia) (Forall_nil _)) as (A & B). split; [exact A|].
  pose proof (Z.log2_nonneg n). assert (Z.log2 n < 256).
  { destruct (Z.eq_dec n 0) as [->|]; [vm_compute; reflexivity|]. apply Z.log2_lt_pow2; lia. }
  change (zlen (@nil Z)) with 0 in B. lia.
Qed.
Lemma str_bytes : forall s, bytes_ok (str s).
Proof.
  induction s as [|a s IH]; cbn [str]; constructor; [|exact IH]. unfold ch. red. pose proof (N_ascii_bounded a). lia.
Qed.

Lemma pay_ok : forall s s1 c v to data rb q taken,
  let s0 := emit (with_bal s (x_bal s + v)) [InSend c v to data rb q] in
  match x_handler s0 with Some h => if 0 <? x_fee s0 then transfer s0 h (x_fee s0) taken else Some s0 | None => Some s0 end = Some s1 ->
  s1 = mkX (x_sn s) (x_reqId s) (x_requests s) (x_proxy s) (x_fee s) (x_handler s) (x_admin s)
           (x_bal s + v - (x_fee s - kept s)) (x_log s ++ InSend c v to data rb q :: paid s).
Proof.
  intros s s1 c v to data rb q taken s0 P. unfold kept, paid. change (x_handler s0) with (x_handler s) in P. change (x_fee s0) with (x_fee s) in P.
  destruct (x_handler s) as [h|] eqn:HH; [destruct (0 <? x_fee s) eqn:F|].
  - unfold transfer in P. destruct (_ && _); [|discriminate]. assert (E : s1 = emit (with_bal s0 (x_bal s0 - x_fee s)) [OutTransfer h (x_fee s)]) by congruence. rewrite E.
    replace (x_fee s - 0) with (x_fee s) by lia. unfold s0, emit, with_bal. cbn [x_sn x_reqId x_requests x_proxy x_fee x_handler x_admin x_bal x_log]. rewrite <- app_assoc, HH. reflexivity.
  - assert (E : s1 = s0) by congruence. rewrite E. replace (x_bal s + v - (x_fee s - x_fee s)) with (x_bal s + v) by lia. unfold s0, emit, with_bal. cbn [x_sn x_reqId x_requests x_proxy x_fee x_handler x_admin x_bal x_log]. rewrite HH. reflexivity.
  - assert (E : s1 = s0) by congruence. rewrite E. replace (x_bal s + v - (x_fee s - x_fee s)) with (x_bal s + v) by lia. unfold s0, emit, with_bal. cbn [x_sn x_reqId x_requests x_proxy x_fee x_handler x_admin x_bal x_log]. rewrite HH. reflexivity.
Qed.
Lemma bmc_send_some : forall s v net sn b nsn r, bmc_send s v net sn b nsn = Some r ->
  exists n, r = (emit (with_bal s (x_bal s - v)) [OutMessage v net sn b], n).
Proof. intros s v net sn b nsn r E. unfold bmc_send in E. destruct (v <=? x_bal s); [|discriminate]. destruct nsn as [n|]; [|discriminate]. exists n. congruence. Qed.

Section Java.
Variable addr_text : Z -> list Z.
Variable addr_of_text : list Z -> option Z.
Variable bad_address : list Z -> list Z.
Variable cfg : xcfg.
Notation J := (j_lang addr_text addr_of_text cfg).
Notation jexec := (j_exec addr_text addr_of_text bad_address cfg).

Lemma check_true : forall b A (f : unit -> option A) r, obind (check b) f = Some r -> b = true /\ f tt = Some r.
Proof. intros [] A f r E; [auto|discriminate]. Qed.
Lemma obind_some : forall A B (o : option A) (f : A -> option B) r, obind o f = Some r -> exists a, o = Some a /\ f a = Some r.
Proof. intros A B [a|] f r E; [eauto|discriminate]. Qed.
Ltac chk E H := let E' := fresh in apply check_true in E as [H E']; rename E' into E.
Ltac bnd E a H := let E' := fresh in apply obind_some in E as (a & H & E'); rename E' into E.

Lemma send_step : forall s c k v to data rb quoted taken nsn s', j_sendCallMessage addr_text s c k v to data rb quoted taken nsn = Some s' -> step J s s'.
Proof.
  intros s c k v to data rb quoted taken nsn s' E. unfold j_sendCallMessage in E. chk E K1. chk E K2. chk E K3. bnd E dst D. bnd E req RQ. chk E K4.
  unfold j_getFee in RQ. chk RQ K5. bnd RQ q Q. subst quoted. assert (req = x_fee s + q) by congruence. subst req. clear RQ.
  bnd E s1 P. unfold j_sendBTPMessage in E. bnd E r R.
  apply pay_ok in P as P1.
  clear P. apply bmc_send_some in R as [n R]. subst r.
  assert (ET : j_toString dst = to) by (symmetry; exact (proj1 (j_valueOf_text _ _ D))).
  assert (ES : s' = _) by (symmetry; injection E as E; exact E). clear E. subst s' s1.
  pose proof (st_send J s c v to data rb q (ja_net dst) (ja_account dst)
     (request_wire (mkCsReq (addr_text c) (ja_account dst) (x_sn s + 1) (is_some rb) (Some data))) n) as ST.
  assert (S1 : l_split J to = Some (ja_net dst, ja_account dst)) by (cbn; rewrite D; reflexivity).
  specialize (ST S1 eq_refl ltac:(lia)).
  cbn [x_sn x_fee x_requests fst snd with_sn with_requests emit x_bal x_log] in *. rewrite j_req_wire. rewrite ET.
  unfold added_request in ST. cbn [l_wants j_lang] in ST.
  replace (x_bal s + kept s) with (x_bal s + v - (x_fee s - kept s) - (v - x_fee s)) in ST by lia.
  destruct rb as [d|]; cbn [is_some] in ST; unfold emit, with_bal, with_requests, with_sn; cbn [x_sn x_reqId x_requests x_proxy x_fee x_handler x_admin x_bal x_log];
    rewrite <- !app_assoc; cbn [app]; exact ST.
Qed.

Lemma result_code : forall sn out r, j_result sn out = Some r -> (r_code r =? 0) = match out with Returned => true | _ => false end /\ r_sn r = sn /\ exists t, r_msg r = Some t.
Proof.
  intros sn [ | code | t | ] r E; cbn [j_result] in E; try discriminate; assert (r = _) by (symmetry; injection E as E; exact E); subst r; cbn [r_code r_sn r_msg]; (split; [|split; [reflexivity|eauto]]).
  - reflexivity.
  - destruct (code =? 0) eqn:C; [reflexivity|exact C].
  - reflexivity.
Qed.
Lemma response_step : forall s e data s' r, fromBytes readCSResponse data = Some r -> tells J e r -> (forall net n msg, e = InMessage net n msg -> l_read_request J msg = None) ->
  j_handleResponse (emit s [e]) data = Some s' -> step J s s'.
Proof.
  intros s e data s' r D T NR E. unfold j_handleResponse in E. rewrite D in E. cbn [obind] in E. cbn [x_requests emit] in E.
  destruct (get (r_sn r) (x_requests s)) as [q|] eqn:G.
  - destruct (r_code r =? CS_SUCCESS) eqn:C.
    + assert (C' : r_code r = 0) by (unfold CS_SUCCESS in C; lia).
      assert (s' = emit (with_requests s (del (r_sn r) (x_requests s))) [e; ResponseMessage (r_sn r) 0 (text r)]).
      { assert (s' = _) by (symmetry; injection E as E; exact E). subst s'. unfold emit, with_requests, text. cbn. rewrite C', <- app_assoc. reflexivity. }
      subst s'. eapply st_success; eassumption.
    + chk E K. assert (C' : r_code r <> 0) by (unfold CS_SUCCESS in C; lia).
      assert (s' = emit (with_requests s (put (r_sn r) (mkCReq (cr_from q) (cr_to q) (cr_rollback q) true) (x_requests s)))
                 [e; ResponseMessage (r_sn r) (r_code r) (text r); RollbackMessage (r_sn r)]).
      { assert (s' = _) by (symmetry; injection E as E; exact E). subst s'. unfold emit, with_requests, text. cbn. rewrite <- !app_assoc. reflexivity. }
      subst s'. eapply st_failure; eassumption.
  - assert (s' = emit s [e]) by congruence. subst s'. eapply st_ignored; eassumption.
Qed.
Lemma write_len : forall b, bytes_ok b -> zlen b < 2 ^ 63 -> zlen (rlp_write (RBytes b)) <= zlen b + 9.
Proof.
  intros b B L. cbn [rlp_write]. destruct (writeBytes_header b B L) as [(x & -> & _ & ->) | (_ & h & -> & _ & H1 & H2)]; [lia|]. rewrite zlen_app.
  destruct (Z_le_dec (zlen b) 55); [rewrite H1 by assumption; change (zlen [_]) with 1; lia|]. rewrite H2 by lia. rewrite zlen_cons.
  destruct (sizeToBytes_spec (zlen b) ltac:(lia)) as (_ & ? & _). lia.
Qed.
Lemma writeList_le : forall b, zlen b < 2 ^ 63 -> zlen (writeList b) <= zlen b + 9.
Proof.
  intros b L. pose proof (zlen_nonneg _ b). destruct (writeList_header b L) as (h & -> & _ & H1 & H2). rewrite zlen_app.
  destruct (Z_le_dec (zlen b) 55); [rewrite H1 by assumption; change (zlen [_]) with 1; lia|]. rewrite H2 by lia. rewrite zlen_cons.
  destruct (sizeToBytes_spec (zlen b) ltac:(lia)) as (_ & ? & _). lia.
Qed.
Lemma num_len : forall n, Z.abs n < 2 ^ 256 -> zlen (rlp_write (int_item n)) <= 42.
Proof.
  intros n N. destruct (big_ok n) as (B & _).
  assert (L : zlen (BigIntToBytes n) <= 33).
  { apply (tc_bytes_len n 33); [lia|]. unfold fits. change (8 * Z.of_nat 33 - 1) with 263. assert (2 ^ 256 < 2 ^ 263) by reflexivity. lia. }
  pose proof (write_len (BigIntToBytes n) B ltac:(lia)). unfold int_item. lia.
Qed.
Lemma error_text_ok : forall c msg, bytes_ok c -> bytes_ok msg -> zlen c <= 257 -> zlen msg < 2 ^ 31 -> bytes_ok (error_text c msg) /\ zlen (error_text c msg) < 2 ^ 31 + 300.
Proof.
  intros c msg B1 B2 L1 L2. unfold error_text. split.
  - repeat (apply Forall_app; split); try assumption; apply str_bytes.
  - rewrite !zlen_app. change (zlen (str "BTPError{code=")) with 14. change (zlen (str ", msg=")) with 6. change (zlen (str "}")) with 1. lia.
Qed.
Lemma error_reads : forall sn code msg, Z.abs sn < 2 ^ 256 -> Z.abs code < 2 ^ 256 -> bytes_ok msg -> zlen msg < 2 ^ 31 ->
  let r := mkCsRes sn CS_BTP_ERROR (Some (error_text ((if code <? 0 then str "-" else []) ++ dec_text (Z.abs code)) msg)) in
  fromBytes readCSResponse (j_res_bytes r) = Some r.
Proof.
  intros sn code msg S C B LM r. change (j_res_bytes r) with (rlp_write (response_item r)).
  destruct (dec_text_ok (Z.abs code) ltac:(lia)) as [D1 D2].
  destruct (error_text_ok ((if code <? 0 then str "-" else []) ++ dec_text (Z.abs code)) msg) as [T1 T2]; try assumption.
  { apply Forall_app. split; [|assumption]. destruct (code <? 0); [apply str_bytes|constructor]. }
  { rewrite zlen_app. destruct (code <? 0); [change (zlen (str "-")) with 1|change (zlen (@nil Z)) with 0]; lia. }
  apply fromBytes_reads.
  - apply reads_response. split; [|exact T1]. red. cbn [r r_code]. unfold CS_BTP_ERROR. lia.
  - unfold response_item. cbn [rlp_write map concat]. cbn [r r_sn r_code r_msg opt_item].
    set (t := error_text _ _) in *. pose proof (write_len t T1 ltac:(lia)). pose proof (num_len sn S).
    assert (zlen (rlp_write (int_item CS_BTP_ERROR)) <= 42) by (apply num_len; reflexivity).
    eapply Z.le_lt_trans; [apply writeList_le|]; rewrite !zlen_app; change (zlen (@nil Z)) with 0; lia.
Qed.

Lemma transfer_some : forall s h v t s', transfer s h v t = Some s' -> s' = emit (with_bal s (x_bal s - v)) [OutTransfer h v].
Proof. intros s h v t s' E. unfold transfer in E. destruct (_ && _); [|discriminate]. congruence. Qed.
Lemma sweep_ok : forall s a taken s', let s0 := emit (with_handler s a) [InHandler a] in
  match a with Some h => if 0 <? x_bal s0 then transfer s0 h (x_bal s0) taken else Some s0 | None => Some s0 end = Some s' ->
  s' = emit (with_bal (with_handler s a) (left s a)) (InHandler a :: swept s a).
Proof.
  intros s a taken s' s0 E. unfold left, swept. change (x_bal s0) with (x_bal s) in E.
  destruct a as [h|]; [destruct (0 <? x_bal s)|].
  - apply transfer_some in E. rewrite E. change (x_bal s0) with (x_bal s). replace (x_bal s - x_bal s) with 0 by lia. unfold s0, emit, with_bal, with_handler. cbn [x_sn x_reqId x_requests x_proxy x_fee x_handler x_admin x_bal x_log]. rewrite <- app_assoc. reflexivity.
  - assert (s' = s0) by congruence. subst s'. reflexivity.
  - assert (s' = s0) by congruence. subst s'. reflexivity.
Qed.

(** what a called contract does in turn *)
Lemma inner_steps : forall (L : lang) (ex : tx -> xstate -> option xstate) (ok : tx -> Prop) (inner : list tx) s,
  (forall t, In t inner -> ok t -> forall s s', ex t s = Some s' -> step L s s') -> Forall ok inner ->
  steps L s ((fix all (l : list tx) (s : xstate) {struct l} : xstate :=
               match l with [] => s | t :: r => all r (match ex t s with Some s' => s' | None => s end) end) inner s).
Proof.
  intros L ex ok inner. induction inner as [|t r IH]; intros s I O; [constructor|].
  assert (S : steps L s (match ex t s with Some s' => s' | None => s end)).
  { destruct (ex t s) as [s'|] eqn:E; [|constructor]. econstructor; [|constructor]. eapply I; [left; reflexivity|exact (Forall_inv O)|exact E]. }
  eapply steps_trans; [exact S|]. apply IH; [|exact (Forall_inv_tail O)]. intros t' T'. apply I. right. exact T'.
Qed.
Lemma inner_ok : forall inner, (fix all (l : list tx) : Prop := match l with [] => True | t :: r => tx_ok t /\ all r end) inner -> Forall tx_ok inner.
Proof. induction inner; intros; constructor; tauto. Qed.

Lemma same_name : forall a b, bytes_eqb a b = true -> b = a.
Proof. intros a b E. apply bytes_eqb_eq in E. congruence. Qed.

Lemma j_step : forall t, tx_ok t -> forall s s', jexec t s = Some s' -> step J s s'.
Proof.
  induction t as [c k v to d rb q tk n | id inner out n IH | sn inner out IH | c net svc sn m | c net svc sn code m | c a | c a tk | c v] using tx_ind2; intros OK s s' E.
  - cbn [j_exec] in E. exact (send_step _ _ _ _ _ _ _ _ _ _ _ E).
  - cbn [j_exec] in E. cbn [tx_ok] in OK. apply inner_ok in OK. bnd E q G. bnd E fr F. bnd E sr R. destruct sr as [s1 res].
    set (run := (fix all (l : list tx) (s : xstate) {struct l} : xstate := _)) in R.
    assert (RAN : ran J s id q s1 (r_code res) /\ r_sn res = q_sn q /\ exists t, r_msg res = Some t).
    { destruct (addr_of_text (q_to q)) as [a|] eqn:A.
      - bnd R res' RS. assert (s1 = _ /\ res' = res) as [E1 E2] by (split; [symmetry; injection R as R _; exact R|injection R as _ R; exact R]). clear R. subst res' s1.
        destruct (result_code _ _ _ RS) as (C1 & C2 & C3). split; [|split; assumption].
        eapply ran_ok; [exact A|exact C1|]. destruct out; try apply ss_nil. apply inner_steps with (ok := tx_ok); [|exact OK].
        intros t T O. rewrite Forall_forall in IH. exact (IH t T O).
      - assert (s1 = with_proxy s (del id (x_proxy s)) /\ res = mkCsRes (q_sn q) CS_FAILURE (Some (bad_address (q_to q)))) as [-> ->] by (split; congruence).
        split; [|split; [reflexivity|eexists; reflexivity]]. apply ran_not; [exact A|discriminate]. }
    destruct RAN as (RAN & RS & t & RM).
    assert (NET : forall n f, free_of (ch "/") n -> q_from q = l_from J n f -> ja_net fr = n).
    { intros n' f' FN EQ. cbn [l_from j_lang] in EQ. unfold j_valueOf in F. rewrite EQ in F. rewrite j_parse_text in F by (exact btp_plain || exact FN). cbv zeta in F.
      destruct (j_isValid _) in F; [|discriminate]. assert (fr = JAddr (str "btp") n' f') by congruence. subst fr. reflexivity. }
    destruct (q_rollback q) eqn:RB.
    + unfold j_sendBTPMessage in E. bnd E r RR. apply bmc_send_some in RR as [nn ->]. cbn [fst] in E.
      assert (EQ : s' = emit s1 (CallExecuted id (r_code res) t :: [OutMessage 0 (ja_net fr) (- q_sn q) (response_wire (mkCsRes (q_sn q) (r_code res) (Some t)))])).
      { assert (s' = _) by (symmetry; injection E as E; exact E). subst s'. rewrite j_res_wire. rewrite RM. destruct res as [n1 c1 m1]. cbn [r_sn r_msg r_code] in *. subst n1 m1.
        unfold emit, with_bal. cbn [x_sn x_reqId x_requests x_proxy x_fee x_handler x_admin x_bal x_log text_of]. rewrite Z.sub_0_r, <- app_assoc. reflexivity. }
      rewrite EQ. eapply st_call; [exact G|exact NET|exact RAN|]. right. eexists. split; [exact RB|]. split; reflexivity.
    + assert (EQ : s' = emit s1 (CallExecuted id (r_code res) t :: [])) by (rewrite RM in E; cbn [text_of] in E; congruence).
      rewrite EQ. eapply st_call; [exact G|exact NET|exact RAN|]. left. split; [exact RB|reflexivity].
  - cbn [j_exec] in E. cbn [tx_ok] in OK. apply inner_ok in OK. bnd E q G. chk E EN. bnd E res RS.
    set (run := (fix all (l : list tx) (s : xstate) {struct l} : xstate := _)) in E.
    destruct (result_code _ _ _ RS) as (C1 & C2 & C3 & RM). rewrite RM in E. cbn [text_of] in E.
    assert (EQ : s' = _) by (symmetry; injection E as E; exact E). rewrite EQ. eapply st_rollback; [exact G|exact EN| |exact C1].
    destruct out; try apply ss_nil. apply inner_steps with (ok := tx_ok); [|exact OK].
    intros t T O. rewrite Forall_forall in IH. exact (IH t T O).
  - cbn [j_exec tx_ok] in *. unfold j_handleBTPMessage in E. chk E K1. chk E K2. bnd E md M. destruct md as [t od]. bnd E data D. cbn [fst snd] in *. subst od.
    destruct (t =? CS_REQUEST) eqn:T1.
    + unfold j_handleRequest in E. bnd E q Q. apply Z.eqb_eq in T1. subst t.
      assert (EQ : s' = _) by (symmetry; injection E as E; exact E). clear E.
      pose proof (st_request J s net sn m q OK) as ST. cbn [l_read_request l_read_response j_lang] in ST. rewrite M in ST. cbn [payload_of] in ST.
      specialize (ST Q eq_refl). rewrite EQ. unfold emit, with_reqId, with_proxy. cbn [x_sn x_reqId x_requests x_proxy x_fee x_handler x_admin x_bal x_log].
      rewrite <- app_assoc. exact ST.
    + destruct (t =? CS_RESPONSE) eqn:T2; [|discriminate]. apply Z.eqb_eq in T2. subst t.
      destruct (fromBytes readCSResponse data) as [r|] eqn:R; [|unfold j_handleResponse in E; rewrite R in E; discriminate].
      eapply response_step; [exact R| | |exact E].
      * left. exists net, sn, m. split; [reflexivity|]. cbn [l_read_response j_lang]. rewrite M. exact R.
      * intros net' n' msg' EQ. assert (msg' = m) by congruence. subst msg'. cbn [l_read_request j_lang]. rewrite M. reflexivity.
  - cbn [j_exec tx_ok] in *. destruct OK as (O1 & O2 & O3 & O4). unfold j_handleBTPError in E. chk E K1. chk E K2.
    pose proof (error_reads sn code m O1 O2 O3 O4) as R. cbv zeta in R.
    assert (EM : str "BTPError{code=" ++ (if code <? 0 then str "-" else []) ++ dec_text (Z.abs code) ++ str ", msg=" ++ m ++ str "}" =
                 error_text ((if code <? 0 then str "-" else []) ++ dec_text (Z.abs code)) m) by (unfold error_text; rewrite <- app_assoc; reflexivity).
    rewrite EM in E. eapply response_step; [exact R| | |exact E].
    + right. do 4 eexists. split; [reflexivity|]. split; reflexivity.
    + intros; discriminate.
  - cbn [j_exec] in E. unfold j_setAdmin in E. chk E K. assert (s' = with_admin s a) by congruence. subst s'. apply st_admin.
  - cbn [j_exec] in E. unfold j_setProtocolFeeHandler in E. chk E K. apply sweep_ok in E. rewrite E. apply st_handler.
  - cbn [j_exec] in E. unfold j_setProtocolFee in E. chk E K1. chk E K2. assert (s' = emit (with_fee s v) [InFee v]) by congruence. subst s'. apply st_fee. lia.
Qed.
Lemma j_steps : forall l, Forall tx_ok l -> forall s, steps J s (j_run addr_text addr_of_text bad_address cfg l s).
Proof.
  induction l as [|t r IH]; intros O s; [constructor|]. cbn [j_run]. eapply steps_trans; [|apply IH; exact (Forall_inv_tail O)].
  destruct (jexec t s) as [s'|] eqn:E; [|constructor]. econstructor; [|constructor]. exact (j_step _ (Forall_inv O) _ _ E).
Qed.
End Java.
