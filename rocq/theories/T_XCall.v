(** Theorems about the call service (xcall) in Java and Solidity (C67-C71). *)
From Coq Require Import String Ascii ZArith List Bool Lia.
From Coq Require Import ZifyBool.
From Verif Require Import Base L_Base M_IntConv S_IntConv L_IntConv M_Rlp S_Rlp L_Rlp S_Address S_BtpAddr M_JBmv S_JBmv M_Wire S_Wire L_Wire M_SolRlp S_SolRlp L_SolRlp T_SolRlp M_BtpAddr L_BtpAddr T_BtpAddr
  M_Bridge M_XCall S_XCall L_XCall M_JCall M_SolCall S_JCall L_JCall L_SolCall L_XSeen L_CallWire L_XEnd L_XAdmin.
Import ListNotations.
Open Scope Z_scope.

(** * A small world for examples *)
Definition ex_text (a : Z) : list Z := str "cx" ++ [48 + a].
Definition ex_addr (t : list Z) : option Z := match t with [99; 120; d] => if (48 <=? d) && (d <? 58) then Some (d - 48) else None | _ => None end.
Definition ex_bad (t : list Z) : list Z := str "bad".
Definition ex_cfg : xcfg := mkCfg 9 8 (str "btp://0x1.icon/cx5").
Definition ex_run := j_run ex_text ex_addr ex_bad ex_cfg.
Definition ex_exec := j_exec ex_text ex_addr ex_bad ex_cfg.
Definition ex_H (b : list Z) : list Z := firstn 32 (b ++ be_fixed 32 0).
Definition ex_junk (b : list Z) : mem := fun _ => 0.
Definition ex_scfg : xcfg := mkCfg 9 8 (str "btp://0x2.eth/0x0000000000000000000000000000000000000005").
Definition ex_srun := s_run ex_H ex_junk ex_scfg.
Definition ex_sexec := s_exec ex_H ex_junk ex_scfg.
Definition eth (d : string) : list Z := str "0x000000000000000000000000000000000000000" ++ str d.
Definition far : list Z := str "btp://0x2.eth/" ++ eth "6".
Definition near : list Z := str "btp://0x1.icon/cx6".
(** a fee, two calls, a failure for the first and its rollback, a call from elsewhere that sends another one when executed *)
Definition ex_story (to from : list Z) (account : list Z) : list tx :=
  [SetFee 8 3; SetHandler 8 (Some 7) true; Send 3 true 10 to (str "hello") (Some (str "undo")) (Some 2) true (Some 77);
   Send 4 false 5 to (str "hi") None (Some 2) true (Some 78);
   Deliver 9 (str "0xf") (str "xcall") (-1) (response_wire (mkCsRes 1 (-1) (Some (str "no"))));
   Rollback 1 [Rollback 1 [] Returned] Returned;
   Deliver 9 (str "0xf") (str "xcall") 4 (request_wire (mkCsReq from account 4 true (Some (str "data"))));
   Execute 1 [Execute 1 [] Returned (Some 0); Send 6 true 6 to (str "more") (Some (str "undo")) (Some 2) true (Some 79)] Returned (Some 1)].
Definition tags (e : event) : Z :=
  match e with InSend _ _ _ _ _ _ => 1 | InMessage _ _ _ => 2 | InError _ _ _ _ => 3 | InHandler _ => 4 | InFee _ => 5 | OutMessage _ _ _ _ => 6 | OutTransfer _ _ => 7
  | OutCall (ForCall _) _ _ _ _ => 8 | OutCall (ForRollback _) _ _ _ _ => 9 | CallMessageSent _ _ _ _ => 10 | CallMessage _ _ _ _ => 11 | CallExecuted _ _ _ => 12 | ResponseMessage _ _ _ => 13
  | RollbackMessage _ => 14 | RollbackExecuted _ _ _ => 15 end.
Lemma story_ok : forall to from account, Forall tx_ok (ex_story to from account).
Proof. intros. repeat (apply Forall_cons; [cbn [tx_ok]; repeat split; try lia; try (intros I; cbn in I; repeat (destruct I as [I|I]; [discriminate|]); exact I)|]). apply Forall_nil. Qed.

(** * C67: the calls sent *)
Theorem C67_java_calls_followed : forall addr_text addr_of_text bad_address cfg l sn, Forall tx_ok l -> 1 <= sn ->
  let s := j_run addr_text addr_of_text bad_address cfg l x_init in
  exists p, follow (outgoing (j_lang addr_text addr_of_text cfg) sn) (0, Fresh) (x_log s) = Some (x_sn s, p) /\ at_rest p.
Proof.
  intros at_ ao bad cfg l sn O S s. destruct (proj1 (proj2 (goes_all _ sn)) _ _ (j_steps at_ ao bad cfg l O x_init) Fresh (inv_init _ sn S)) as (p & (_ & F & R) & NR).
  exists p. split; [exact F|]. destruct (requested_calm _ _ _ R) as [A|[ok A]]; [exact A|]. apply NR in A. discriminate.
Qed.
Print Assumptions C67_java_calls_followed.
Theorem C67_solidity_calls_followed : forall H junk cfg l sn, Forall tx_ok l -> 1 <= sn ->
  let s := s_run H junk cfg l x_init in
  exists p, follow (outgoing (s_lang H junk cfg) sn) (0, Fresh) (x_log s) = Some (x_sn s, p) /\ at_rest p.
Proof.
  intros H junk cfg l sn O S s. destruct (proj1 (proj2 (goes_all _ sn)) _ _ (proj1 (s_steps H junk cfg l O x_init stored_init)) Fresh (inv_init _ sn S)) as (p & (_ & F & R) & NR).
  exists p. split; [exact F|]. destruct (requested_calm _ _ _ R) as [A|[ok A]]; [exact A|]. apply NR in A. discriminate.
Qed.
Print Assumptions C67_solidity_calls_followed.
Corollary C67_java_rollbacks : forall addr_text addr_of_text bad_address cfg l sn, Forall tx_ok l -> 1 <= sn ->
  rollbacks_right (j_lang addr_text addr_of_text cfg) sn (x_log (j_run addr_text addr_of_text bad_address cfg l x_init)).
Proof. intros at_ ao bad cfg l sn O S. destruct (C67_java_calls_followed at_ ao bad cfg l sn O S) as (p & F & _). exact (rollbacks_seen _ sn S _ _ F). Qed.
Print Assumptions C67_java_rollbacks.
Corollary C67_solidity_rollbacks : forall H junk cfg l sn, Forall tx_ok l -> 1 <= sn ->
  rollbacks_right (s_lang H junk cfg) sn (x_log (s_run H junk cfg l x_init)).
Proof. intros H junk cfg l sn O S. destruct (C67_solidity_calls_followed H junk cfg l sn O S) as (p & F & _). exact (rollbacks_seen _ sn S _ _ F). Qed.
Print Assumptions C67_solidity_rollbacks.
(** Numbers of calls, in both directions, start with one. *)
Theorem C67_numbers_from_one : forall addr_text addr_of_text bad_address H junk cfg l, Forall tx_ok l ->
  Forall from_one (x_log (j_run addr_text addr_of_text bad_address cfg l x_init)) /\ Forall from_one (x_log (s_run H junk cfg l x_init)).
Proof.
  intros at_ ao bad H junk cfg l O. split.
  - apply (proj1 (proj2 (keyed_all _)) _ _ (j_steps at_ ao bad cfg l O x_init) keyed_init).
  - apply (proj1 (proj2 (keyed_all _)) _ _ (proj1 (s_steps H junk cfg l O x_init stored_init)) keyed_init).
Qed.
Print Assumptions C67_numbers_from_one.
Example C67_ex : Forall tx_ok (ex_story far near (str "cx6")) /\ map tags (x_log (ex_run (ex_story far near (str "cx6")) x_init)) = [5; 4; 1; 7; 6; 10; 1; 7; 6; 10; 2; 13; 14; 9; 15; 2; 11; 8; 1; 7; 6; 10; 12; 6] /\
  Forall tx_ok (ex_story near far (eth "6")) /\ map tags (x_log (ex_srun (ex_story near far (eth "6")) x_init)) = [5; 4; 1; 7; 6; 10; 1; 7; 6; 10; 2; 13; 14; 9; 15; 2; 11; 8; 1; 7; 6; 10; 12; 6].
Proof. split; [apply story_ok|]. split; [vm_compute; reflexivity|]. split; [apply story_ok|vm_compute; reflexivity]. Qed.
(** FINDING: after a failure has made the rollback executable, a response that reports success still ends the call, and the
    rollback cannot be executed any more; the caller has been told to roll back. *)
Definition ex_change_of_mind (to : list Z) : list tx :=
  [Send 3 true 10 to (str "hello") (Some (str "undo")) (Some 2) true (Some 77);
   Deliver 9 (str "0x2.eth") (str "xcall") (-1) (response_wire (mkCsRes 1 (-1) (Some (str "no"))));
   Deliver 9 (str "0x2.eth") (str "xcall") (-1) (response_wire (mkCsRes 1 0 (Some [])))].
Theorem C67_rollback_cancelled_refuted : In (RollbackMessage 1) (x_log (ex_run (ex_change_of_mind far) x_init)) /\
  ex_exec (Rollback 1 [] Returned) (ex_run (ex_change_of_mind far) x_init) = None /\
  In (RollbackMessage 1) (x_log (ex_srun (ex_change_of_mind near) x_init)) /\ ex_sexec (Rollback 1 [] Returned) (ex_srun (ex_change_of_mind near) x_init) = None.
Proof.
  split; [|split; [vm_compute; reflexivity|split; [|vm_compute; reflexivity]]].
  - assert (E : existsb (fun e => tags e =? 14) (x_log (ex_run (ex_change_of_mind far) x_init)) = true) by (vm_compute; reflexivity).
    vm_compute. tauto.
  - vm_compute. tauto.
Qed.
Print Assumptions C67_rollback_cancelled_refuted.
(** FINDING: the response is taken from whichever network it comes, and under whichever number the BMC delivers it. *)
Theorem C67_response_from_anywhere_refuted : exists s1 s2 t1 t2, 
  ex_exec (Send 3 true 10 far (str "hello") (Some (str "undo")) (Some 2) true (Some 77)) x_init = Some s1 /\
  ex_exec (Deliver 9 (str "0x3.other") (str "xcall") 55 (response_wire (mkCsRes 1 (-1) (Some (str "no"))))) s1 = Some s2 /\ ex_exec (Rollback 1 [] Returned) s2 <> None /\
  ex_sexec (Send 3 true 10 near (str "hello") (Some (str "undo")) (Some 2) true (Some 77)) x_init = Some t1 /\
  ex_sexec (Deliver 9 (str "0x3.other") (str "xcall") 55 (response_wire (mkCsRes 1 (-1) (Some (str "no"))))) t1 = Some t2 /\ ex_sexec (Rollback 1 [] Returned) t2 <> None.
Proof. do 4 eexists. split; [vm_compute; reflexivity|]. split; [vm_compute; reflexivity|]. split; [vm_compute; discriminate|]. split; [vm_compute; reflexivity|]. split; [vm_compute; reflexivity|]. vm_compute. discriminate. Qed.
Print Assumptions C67_response_from_anywhere_refuted.
(** FINDING: rollback data that is empty asks for a response in Java and for none in Solidity. *)
Theorem C67_empty_rollback_refuted : exists s1 t1 v1 b1 n1 v2 b2 n2,
  ex_exec (Send 3 true 10 far (str "hello") (Some []) (Some 2) true (Some 77)) x_init = Some s1 /\ In (OutMessage v1 n1 1 b1) (x_log s1) /\ get 1 (x_requests s1) <> None /\
  ex_sexec (Send 3 true 10 near (str "hello") (Some []) (Some 2) true (Some 77)) x_init = Some t1 /\ In (OutMessage v2 n2 0 b2) (x_log t1) /\ get 1 (x_requests t1) = None.
Proof.
  do 8 eexists. split; [vm_compute; reflexivity|]. split; [right; left; reflexivity|]. split; [vm_compute; discriminate|].
  split; [vm_compute; reflexivity|]. split; [right; left; reflexivity|]. vm_compute. reflexivity.
Qed.
Print Assumptions C67_empty_rollback_refuted.

(** * C68: the calls that arrive *)
Theorem C68_java_calls_followed : forall addr_text addr_of_text bad_address cfg l id, Forall tx_ok l -> 1 <= id ->
  let s := j_run addr_text addr_of_text bad_address cfg l x_init in
  exists p, follow (incoming (j_lang addr_text addr_of_text cfg) id) (0, INew) (x_log s) = Some (x_reqId s, p) /\ i_at_rest p.
Proof.
  intros at_ ao bad cfg l id O S s. destruct (proj1 (proj2 (igoes_all _ id)) _ _ (j_steps at_ ao bad cfg l O x_init) INew (iinv_init _ id S)) as (p & (_ & F & R) & NR).
  exists p. split; [exact F|]. destruct (pending_calm _ _ _ _ R) as [A|(net & m & ok & A)]; [exact A|]. apply NR in A. discriminate.
Qed.
Print Assumptions C68_java_calls_followed.
Theorem C68_solidity_calls_followed : forall H junk cfg l id, Forall tx_ok l -> 1 <= id ->
  let s := s_run H junk cfg l x_init in
  exists p, follow (incoming (s_lang H junk cfg) id) (0, INew) (x_log s) = Some (x_reqId s, p) /\ i_at_rest p.
Proof.
  intros H junk cfg l id O S s. destruct (proj1 (proj2 (igoes_all _ id)) _ _ (proj1 (s_steps H junk cfg l O x_init stored_init)) INew (iinv_init _ id S)) as (p & (_ & F & R) & NR).
  exists p. split; [exact F|]. destruct (pending_calm _ _ _ _ R) as [A|(net & m & ok & A)]; [exact A|]. apply NR in A. discriminate.
Qed.
Print Assumptions C68_solidity_calls_followed.
Corollary C68_java_calls : forall addr_text addr_of_text bad_address cfg l id, Forall tx_ok l -> 1 <= id ->
  calls_right (j_lang addr_text addr_of_text cfg) id (x_log (j_run addr_text addr_of_text bad_address cfg l x_init)).
Proof. intros at_ ao bad cfg l id O S. destruct (C68_java_calls_followed at_ ao bad cfg l id O S) as (p & F & R). exact (calls_seen _ id S _ _ _ F R). Qed.
Print Assumptions C68_java_calls.
Corollary C68_solidity_calls : forall H junk cfg l id, Forall tx_ok l -> 1 <= id ->
  calls_right (s_lang H junk cfg) id (x_log (s_run H junk cfg l x_init)).
Proof. intros H junk cfg l id O S. destruct (C68_solidity_calls_followed H junk cfg l id O S) as (p & F & R). exact (calls_seen _ id S _ _ _ F R). Qed.
Print Assumptions C68_solidity_calls.
(** A contract can tell a rollback from a call: no call executed carries the service's own address as its sender, unless
    the BMC has delivered a message as from the service's own network. *)
Lemma own_sender : forall L log id a data ok own account, calls_right L id log -> (forall net f, l_from L net f = address_text (str "btp") net f) ->
  Forall (from_network L) log -> free_of (ch "/") own ->
  In (OutCall (ForCall id) a (address_text (str "btp") own account) data ok) log -> exists n msg, In (InMessage own n msg) log.
Proof.
  intros L log id a data ok own account (_ & _ & C & _) LF FR FO I. apply in_split in I as (before & after & E). specialize (C _ _ _ _ _ _ E).
  destruct C as (l1 & l2 & net & n & msg & q & EB & _ & RR & _ & EF & _). rewrite LF in EF.
  assert (IN : In (InMessage net n msg) log) by (rewrite E, EB; apply in_or_app; left; apply in_or_app; right; left; reflexivity).
  assert (FN : free_of (ch "/") net) by (rewrite Forall_forall in FR; apply (FR _ IN); congruence).
  assert (E2 : JAddr (str "btp") own account = JAddr (str "btp") net (q_from q)) by (rewrite <- !j_parse_text by (exact btp_plain || assumption); congruence).
  assert (own = net) by congruence. subst net. exists n, msg. exact IN.
Qed.
Theorem C68_calls_not_as_rollbacks : forall addr_text addr_of_text bad_address H junk cfg l id a data ok own account, Forall tx_ok l ->
  c_self cfg = address_text (str "btp") own account -> free_of (ch "/") own ->
  (In (OutCall (ForCall id) a (c_self cfg) data ok) (x_log (j_run addr_text addr_of_text bad_address cfg l x_init)) ->
   exists n msg, In (InMessage own n msg) (x_log (j_run addr_text addr_of_text bad_address cfg l x_init))) /\
  (In (OutCall (ForCall id) a (c_self cfg) data ok) (x_log (s_run H junk cfg l x_init)) ->
   exists n msg, In (InMessage own n msg) (x_log (s_run H junk cfg l x_init))).
Proof.
  intros at_ ao bad H junk cfg l id a data ok own account O ES FO. destruct (C67_numbers_from_one at_ ao bad H junk cfg l O) as [N1 N2]. rewrite Forall_forall in N1, N2.
  rewrite ES. split; intros I.
  - pose proof (N1 _ I) as ID. eapply own_sender; [apply C68_java_calls; [exact O|exact ID]|reflexivity| |exact FO|exact I].
    apply (proj1 (proj2 (network_all _)) _ _ (j_steps at_ ao bad cfg l O x_init)). constructor.
  - pose proof (N2 _ I) as ID. eapply own_sender; [apply C68_solidity_calls; [exact O|exact ID]|reflexivity| |exact FO|exact I].
    apply (proj1 (proj2 (network_all _)) _ _ (proj1 (s_steps H junk cfg l O x_init stored_init))). constructor.
Qed.
Print Assumptions C68_calls_not_as_rollbacks.
(** the call of the story is executed with the data and the sender of the request *)
Example C68_ex : In (OutCall (ForCall 1) 6 (str "btp://0xf/" ++ far) (Some (str "data")) true) (x_log (ex_run (ex_story near far (str "cx6")) x_init)) /\
  In (OutMessage 0 (str "0xf") (-4) (response_wire (mkCsRes 4 0 (Some [])))) (x_log (ex_run (ex_story near far (str "cx6")) x_init)) /\
  In (OutCall (ForCall 1) 6 (str "btp://0xf/" ++ near) (Some (str "data")) true) (x_log (ex_srun (ex_story near near (eth "6")) x_init)).
Proof. vm_compute. tauto. Qed.
(** FINDING: a request with a sender's text that is empty is stored but can never be executed, nor is it answered. *)
Theorem C68_empty_sender_stuck_refuted : exists s1, ex_exec (Deliver 9 (str "0xf") (str "xcall") 4 (request_wire (mkCsReq [] (str "cx6") 4 true (Some (str "data"))))) x_init = Some s1 /\
  get 1 (x_proxy s1) <> None /\ forall inner out n, ex_exec (Execute 1 inner out n) s1 = None.
Proof. eexists. split; [vm_compute; reflexivity|]. split; [vm_compute; discriminate|]. intros inner out n. destruct out; vm_compute; reflexivity. Qed.
Print Assumptions C68_empty_sender_stuck_refuted.
(** FINDING: so is, in Solidity, a request whose number is too big for the writer of the response. *)
Theorem C68_big_number_stuck_refuted : exists s1, ex_sexec (Deliver 9 (str "0xf") (str "xcall") 4 (request_wire (mkCsReq near (eth "6") (2 ^ 128) true (Some (str "data"))))) x_init = Some s1 /\
  get 1 (x_proxy s1) <> None /\ forall out n, ex_sexec (Execute 1 [] out n) s1 = None.
Proof. eexists. split; [vm_compute; reflexivity|]. split; [vm_compute; discriminate|]. intros out n. destruct out; vm_compute; reflexivity. Qed.
Print Assumptions C68_big_number_stuck_refuted.

(** * C69: the coins *)
Theorem C69_java_coins : forall addr_text addr_of_text bad_address cfg l, Forall tx_ok l ->
  let s := j_run addr_text addr_of_text bad_address cfg l x_init in
  follow coins (0, None, 0, Nothing) (x_log s) = Some (x_fee s, x_handler s, x_bal s, Nothing).
Proof. intros at_ ao bad cfg l O s. apply (proj1 (proj2 (coins_all _)) _ _ (j_steps at_ ao bad cfg l O x_init)). reflexivity. Qed.
Print Assumptions C69_java_coins.
Theorem C69_solidity_coins : forall H junk cfg l, Forall tx_ok l ->
  let s := s_run H junk cfg l x_init in
  follow coins (0, None, 0, Nothing) (x_log s) = Some (x_fee s, x_handler s, x_bal s, Nothing).
Proof. intros H junk cfg l O s. apply (proj1 (proj2 (coins_all _)) _ _ (proj1 (s_steps H junk cfg l O x_init stored_init))). reflexivity. Qed.
Print Assumptions C69_solidity_coins.
(** Nothing is lost: what the service keeps is what it received less what it paid. *)
Corollary C69_balance : forall addr_text addr_of_text bad_address H junk cfg l, Forall tx_ok l ->
  let s := j_run addr_text addr_of_text bad_address cfg l x_init in let t := s_run H junk cfg l x_init in
  x_bal s = received (x_log s) - spent (x_log s) /\ x_bal t = received (x_log t) - spent (x_log t).
Proof.
  intros at_ ao bad H junk cfg l O s t. pose proof (coins_sum _ _ _ _ _ (C69_java_coins at_ ao bad cfg l O)) as A. pose proof (coins_sum _ _ _ _ _ (C69_solidity_coins H junk cfg l O)) as B.
  cbn [owed] in A, B. fold s in A. fold t in B. lia.
Qed.
Print Assumptions C69_balance.
(** With no receiver set, a fee is kept, and paid out when one is set. *)
Example C69_ex : let s := ex_run [SetFee 8 3; Send 3 true 10 far (str "hello") None (Some 2) true (Some 77); SetHandler 8 (Some 7) true] x_init in
  In (OutMessage 7 (str "0x2.eth") 0 (request_wire (mkCsReq (str "cx3") (eth "6") 1 false (Some (str "hello"))))) (x_log s) /\ In (OutTransfer 7 3) (x_log s) /\ x_bal s = 0 /\
  received (x_log s) = 10 /\ spent (x_log s) = 10.
Proof. vm_compute. tauto. Qed.
(** FINDING: what is paid beyond both fees is not returned; it goes to the BMC. *)
Theorem C69_excess_to_bmc_refuted : exists s b, ex_exec (Send 3 true 1000 far (str "hello") None (Some 2) true (Some 77)) x_init = Some s /\
  In (OutMessage 1000 (str "0x2.eth") 0 b) (x_log s).
Proof. do 2 eexists. split; [vm_compute; reflexivity|]. right. left. reflexivity. Qed.
Print Assumptions C69_excess_to_bmc_refuted.

(** * C70: the bytes of the messages *)
Theorem C70_java_writes : forall q r, j_msg_bytes CS_REQUEST (Some (j_req_bytes q)) = request_wire q /\ j_msg_bytes CS_RESPONSE (Some (j_res_bytes r)) = response_wire r.
Proof. intros q r. split; [apply j_req_wire|apply j_res_wire]. Qed.
Print Assumptions C70_java_writes.
(** sizes within which messages are read *)
Definition request_fits (q : csreq) : Prop := zlen (q_from q) < 2 ^ 30 /\ zlen (q_to q) < 2 ^ 30 /\ zlen (bytes_in (q_data q)) < 2 ^ 29 /\ Z.abs (q_sn q) < 2 ^ 256.
Definition response_fits (r : csres) : Prop := zlen (bytes_in (r_msg r)) < 2 ^ 31 /\ Z.abs (r_sn r) < 2 ^ 256.
Theorem C70_java_reads : forall addr_text addr_of_text cfg, let J := j_lang addr_text addr_of_text cfg in
  (forall q, request_ok q -> request_fits q -> l_read_request J (request_wire q) = Some q /\ l_read_response J (request_wire q) = None) /\
  (forall r, response_ok r -> response_fits r -> l_read_response J (response_wire r) = Some r /\ l_read_request J (response_wire r) = None).
Proof.
  intros at_ ao cfg J. split.
  - intros q O (F1 & F2 & F3 & F4). apply j_read_request; [exact O|]. apply request_carried; assumption.
  - intros r O (F1 & F2). apply j_read_response; [exact O|]. apply response_carried; assumption.
Qed.
Print Assumptions C70_java_reads.
Theorem C70_solidity_reads : forall H junk cfg, (forall b, mem_ok (junk b)) -> let S := s_lang H junk cfg in
  (forall q, request_ok q -> request_fits q -> 0 <= q_sn q < 2 ^ 255 -> l_read_request S (request_wire q) = Some (filled_req q) /\ l_read_response S (request_wire q) = None) /\
  (forall r, response_ok r -> response_fits r -> 0 <= r_sn r < 2 ^ 255 -> l_read_response S (response_wire r) = Some (filled_res r) /\ l_read_request S (response_wire r) = None).
Proof.
  intros H junk cfg J S. split.
  - intros q O (F1 & F2 & F3 & F4) R. apply s_read_request; [exact J|exact O|exact R|]. apply request_carried; assumption.
  - intros r O (F1 & F2) R. apply s_read_response; [exact J|exact O|exact R|]. apply response_carried; assumption.
Qed.
Print Assumptions C70_solidity_reads.
(** What Solidity writes is read by both. *)
Theorem C70_solidity_messages_read : forall addr_text addr_of_text H junk cfg, (forall b, mem_ok (junk b)) ->
  let J := j_lang addr_text addr_of_text cfg in let S := s_lang H junk cfg in
  (forall q, request_ok q -> plain_request q -> 0 <= q_sn q < 2 ^ 128 - 1 -> zlen (q_from q) + zlen (q_to q) + zlen (bytes_in (q_data q)) < 2 ^ 30 ->
     exists b, l_request S q = Some b /\ l_read_request J b = Some q /\ l_read_request S b = Some q /\ l_read_response J b = None /\ l_read_response S b = None) /\
  (forall r, response_ok r -> plain_response r -> 0 <= r_sn r < 2 ^ 128 - 1 -> zlen (bytes_in (r_msg r)) < 2 ^ 30 ->
     exists b, l_response S r = Some b /\ l_read_response J b = Some r /\ l_read_response S b = Some r /\ l_read_request J b = None /\ l_read_request S b = None).
Proof.
  intros at_ ao H junk cfg MJ J S. split.
  - intros q O P R L. pose proof (zlen_nonneg _ (q_from q)). pose proof (zlen_nonneg _ (q_to q)). pose proof (zlen_nonneg _ (bytes_in (q_data q))).
    pose proof (body_request_le q (proj1 O) (proj1 (proj2 O)) (proj2 (proj2 O)) ltac:(lia) ltac:(lia) ltac:(lia) ltac:(lia)) as BL.
    destruct (s_write_request q O P R ltac:(lia)) as (b & E & C). exists b. split; [exact E|]. destruct (j_read_request q b O C) as [A1 A2]. destruct (s_read_request junk MJ q b O ltac:(lia) C) as [B1 B2].
    split; [exact A1|]. split; [|split; [exact A2|exact B2]]. assert (EF : filled_req q = q) by (destruct P as (_ & _ & d & D & _); destruct q as [f t n rb dd]; cbn in D; subst dd; reflexivity). rewrite EF in B1. exact B1.
  - intros r O P R L. pose proof (zlen_nonneg _ (bytes_in (r_msg r))). pose proof (proj1 O) as FI. red in FI.
    pose proof (body_response_le r (proj2 O) ltac:(lia) ltac:(lia) ltac:(lia)) as BL.
    destruct (s_write_response r O P R ltac:(lia)) as (b & E & C). exists b. split; [exact E|]. destruct (j_read_response r b O C) as [A1 A2]. destruct (s_read_response junk MJ r b O ltac:(lia) C) as [B1 B2].
    split; [exact A1|]. split; [|split; [exact A2|exact B2]]. assert (EF : filled_res r = r) by (destruct P as (_ & t & D & _); destruct r as [n c m]; cbn in D; subst m; reflexivity). rewrite EF in B1. exact B1.
Qed.
Print Assumptions C70_solidity_messages_read.
(** And it is what Java writes, unless one of the two lengths consists of bytes 255 only. *)
Theorem C70_solidity_writes : forall q, request_ok q -> plain_request q -> 0 <= q_sn q < 2 ^ 128 - 1 -> zlen (q_from q) + zlen (q_to q) + zlen (bytes_in (q_data q)) < 2 ^ 30 ->
  let body := concat (map rlp_write (request_items q)) in
  ~ spread (zlen body) -> ~ spread (zlen (rlp_write (int_item 1) ++ rlp_write (RBytes (writeList body)))) ->
  sbind (encodeCSMessageRequest q) (encodeCSMessage 1) = Some (request_wire q).
Proof.
  intros q O P R L body N1 N2. pose proof (zlen_nonneg _ (q_from q)). pose proof (zlen_nonneg _ (q_to q)). pose proof (zlen_nonneg _ (bytes_in (q_data q))).
  pose proof (body_request_le q (proj1 O) (proj1 (proj2 O)) (proj2 (proj2 O)) ltac:(lia) ltac:(lia) ltac:(lia) ltac:(lia)) as BL. fold body in BL.
  unfold encodeCSMessageRequest. rewrite C60_uint_written by lia. replace (q_sn q <? 2 ^ 128 - 1) with true by lia. cbn [sbind]. rewrite request_body by (assumption || reflexivity || (fold body; lia)). fold body.
  rewrite listed_write by (lia || exact N1). cbn [sbind]. unfold encodeCSMessage. rewrite C60_int_written by lia. change ((- 2 ^ 127 <=? 1) && (1 <? 2 ^ 127)) with true. cbn [sbind].
  destruct (list_bytes_len _ _ (writeList_bytes body ltac:(lia))) as [_ WL].
  rewrite encodeBytes_item by (lia || exact (list_bytes_not128 _ _ (writeList_bytes body ltac:(lia)))).
  assert (BB : bytes_ok (writeList body)) by (eapply list_bytes_ok; [apply writeList_bytes; lia|apply children_ok; [apply request_items_ok; exact O|fold body; lia]]).
  pose proof (write_len (writeList body) BB ltac:(lia)). pose proof (num_len 1 ltac:(lia)).
  rewrite listed_write by (exact N2 || (rewrite zlen_app; lia)). unfold request_wire, message_item. f_equal. cbn [rlp_write map concat]. rewrite app_nil_r. reflexivity.
Qed.
Print Assumptions C70_solidity_writes.
Definition ex_q : csreq := mkCsReq (eth "3") (str "cx6") 7 true (Some (str "data")).
Example C70_ex : request_ok ex_q /\ plain_request ex_q /\ zlen (concat (map rlp_write (request_items ex_q))) = 54 /\ sbind (encodeCSMessageRequest ex_q) (encodeCSMessage 1) = Some (request_wire ex_q) /\
  l_read_request (s_lang ex_H ex_junk ex_scfg) (request_wire ex_q) = Some ex_q /\ l_read_request (j_lang ex_text ex_addr ex_cfg) (request_wire ex_q) = Some ex_q /\ (forall b, mem_ok (ex_junk b)).
Proof.
  split; [split; [apply Forall_app; split; apply str_bytes|split; [apply str_bytes|apply str_bytes]]|]. split; [split; [vm_compute; discriminate|split; [vm_compute; discriminate|eexists; split; [reflexivity|vm_compute; discriminate]]]|].
  split; [vm_compute; reflexivity|]. split; [vm_compute; reflexivity|]. split; [vm_compute; reflexivity|]. split; [vm_compute; reflexivity|]. intros b i. unfold ex_junk. red. lia.
Qed.
(** FINDING: a list of 255 bytes gets a length with a leading zero in Solidity: other bytes than the ones Java writes. *)
Definition ex_q255 : csreq := mkCsReq (eth "3") (str "cx6") 7 true (Some (be_fixed 204 0)).
Theorem C70_leading_zero_refuted : zlen (concat (map rlp_write (request_items ex_q255))) = 255 /\ exists b, sbind (encodeCSMessageRequest ex_q255) (encodeCSMessage 1) = Some b /\ b <> request_wire ex_q255.
Proof. split; [vm_compute; reflexivity|]. eexists. split; [vm_compute; reflexivity|]. vm_compute. discriminate. Qed.
Print Assumptions C70_leading_zero_refuted.
(** FINDING: data of the single byte 0x80 arrives as no data when Solidity has sent it. *)
Theorem C70_byte_0x80_refuted : exists b, l_request (s_lang ex_H ex_junk ex_scfg) (mkCsReq (eth "3") (str "cx6") 7 true (Some [128])) = Some b /\
  l_read_request (j_lang ex_text ex_addr ex_cfg) b = Some (mkCsReq (eth "3") (str "cx6") 7 true (Some [])).
Proof. eexists. split; [vm_compute; reflexivity|]. vm_compute. reflexivity. Qed.
Print Assumptions C70_byte_0x80_refuted.
(** Solidity cannot write numbers from 2^128-1 on. *)
Theorem C70_big_numbers_revert : forall q r, 2 ^ 128 - 1 <= q_sn q -> 2 ^ 128 - 1 <= r_sn r -> encodeCSMessageRequest q = None /\ encodeCSMessageResponse r = None.
Proof. intros q r A B. unfold encodeCSMessageRequest, encodeCSMessageResponse. rewrite !encodeUint_reverts by assumption. split; reflexivity. Qed.
Print Assumptions C70_big_numbers_revert.

(** * A call there and its response back *)
Lemma settle_cases : forall code (P : Prop) r o, (code = 0 <-> P) -> o = settled code r -> (P -> o = None) /\ (~ P -> o = Some (mkCReq (cr_from r) (cr_to r) (cr_rollback r) true)).
Proof. intros code P r o D ->. unfold settled. destruct (Z.eqb_spec code 0) as [E|E]; split; intros X; try reflexivity; tauto. Qed.
Lemma app_snoc2 : forall A (p : list A) a b, exists r, p ++ [a; b] = r ++ [b] /\ In a r.
Proof. intros A p a b. exists (p ++ [a]). split; [rewrite <- app_assoc; reflexivity|]. apply in_or_app. right. left. reflexivity. Qed.

(** A call sent from Java can be delivered to Solidity, where it is kept as it was sent; what is answered when it has been
    executed can be delivered in Java, where it ends the call or opens the rollback, according to how it was executed. *)
Theorem C70_java_to_solidity_and_back : forall addr_text addr_of_text bad_address jc H junk sc, (forall b, mem_ok (junk b)) ->
  forall c k v to d rb quoted tk n s s' netJ, let sn := x_sn s + 1 in
  j_exec addr_text addr_of_text bad_address jc (Send c k v to d (Some rb) quoted tk n) s = Some s' ->
  0 <= x_sn s < 2 ^ 128 - 2 -> free_of (ch "/") netJ -> good (addr_text c) -> good to -> bytes_ok d ->
  exists p netS account fee m b pre, j_valueOf to = Some (JAddr p netS account) /\ x_log s' = pre ++ [OutMessage fee netS sn b; CallMessageSent c to sn m] /\
  forall t, x_reqId t + 1 < 2 ^ 256 -> exists t1, s_exec H junk sc (Deliver (c_bmc sc) netJ NAME sn b) t = Some t1 /\
    get (x_reqId t + 1) (x_proxy t1) = Some (mkCsReq (address_text (str "btp") netJ (addr_text c)) account sn true (Some d)) /\
  forall t2 inner out n2 t3, get (x_reqId t + 1) (x_proxy t2) = get (x_reqId t + 1) (x_proxy t1) -> outcome_ok out ->
    s_exec H junk sc (Execute (x_reqId t + 1) inner out n2) t2 = Some t3 ->
  exists b2 pre2, x_log t3 = pre2 ++ [OutMessage 0 netJ (- sn) b2] /\
  forall s2, get sn (x_requests s2) = get sn (x_requests s') -> exists s3, j_exec addr_text addr_of_text bad_address jc (Deliver (c_bmc jc) netS NAME (- sn) b2) s2 = Some s3 /\
    (out = Returned /\ parseAddress account <> None -> get sn (x_requests s3) = None) /\
    (~ (out = Returned /\ parseAddress account <> None) -> get sn (x_requests s3) = Some (mkCReq c to (Some rb) true)).
Proof.
  intros at_ ao bad jc H junk sc MJ c k v to d rb quoted tk n s s' netJ sn E R FN GC GT BD.
  apply j_send_out in E as (p & netS & account & fee & m & pre & V & E1 & E2 & E3 & E4). cbn [is_some] in E2. fold sn in E2, E3.
  destruct (j_valueOf_text _ _ V) as [TX _]. cbn [ja_net] in TX. unfold j_toString in TX.
  assert (GA : bytes_ok account /\ zlen account <= zlen to) by (rewrite TX; apply address_parts; unfold address_text; rewrite TX in GT; exact (proj1 GT)).
  destruct GA as [GA1 GA2]. destruct GT as [GT1 GT2]. destruct GC as [GC1 GC2].
  set (q := mkCsReq (at_ c) account sn true (Some d)) in *. assert (OK : request_ok q) by (split; [exact GC1|split; [exact GA1|exact BD]]).
  assert (CA : carried 1 (request_items q) (request_wire q)) by (apply request_carried; [exact OK| | | |]; cbn [q q_from q_to q_data q_sn bytes_in]; lia).
  exists p, netS, account, fee, m, (request_wire q), pre. split; [exact V|]. split; [exact E2|]. intros t RT.
  destruct (s_read_request junk MJ q (request_wire q) OK ltac:(cbn [q q_sn]; lia) CA) as [RD _]. change (filled_req q) with q in RD.
  exists (arrived t netJ sn (request_wire q) q). split; [apply s_deliver_request; assumption|]. split; [cbn [arrived x_proxy emit with_proxy]; apply get_put_same|].
  intros t2 inner out n2 t3 G OO X. unfold arrived in G. cbn [x_proxy emit with_proxy] in G. rewrite get_put_same in G.
  eapply s_execute_out in X; [|exact G|reflexivity|exact FN|reflexivity|exact OO|cbn [q q_sn]; lia]. cbn [q_sn q_to q_from q] in X.
  destruct X as (code & txt & pre2 & b2 & X1 & X2 & X3 & X4 & X5 & X6). exists b2. destruct (app_snoc2 _ pre2 (CallExecuted (x_reqId t + 1) code txt) (OutMessage 0 netJ (- sn) b2)) as (r2 & X7 & _). exists r2. split; [rewrite X1; exact X7|].
  intros s2 G2. rewrite E3 in G2 by discriminate. set (res := mkCsRes sn code (Some txt)) in *.
  assert (OR : response_ok res) by (split; [red; cbn [res r_code]; lia|exact (proj1 X5)]).
  pose proof (body_response_le res (proj1 X5) ltac:(destruct X5; cbn [res r_msg bytes_in]; lia) ltac:(cbn [res r_sn]; lia) ltac:(cbn [res r_code]; lia)) as BL. cbn [res r_msg bytes_in] in BL. fold res in BL.
  destruct (s_write_response res OR) as (b' & W1 & W2); [split; [cbn [res r_code]; lia|exists txt; split; [reflexivity|exact X6]]|cbn [res r_sn]; lia|destruct X5; lia|].
  assert (b' = b2) by congruence. subst b'. destruct (j_read_response res b2 OR W2) as [RR _].
  destruct (j_deliver_response at_ ao bad jc s2 netS (- sn) b2 res _ rb RR G2 eq_refl) as (s3 & D1 & D2). exists s3. split; [exact D1|].
  exact (settle_cases _ _ (mkCReq c to (Some rb) false) _ X3 D2).
Qed.
Print Assumptions C70_java_to_solidity_and_back.
(** The same from Solidity to Java, for data and accounts that are not the single byte 0x80. *)
Theorem C70_solidity_to_java_and_back : forall addr_text addr_of_text bad_address jc H junk sc, (forall b, mem_ok (junk b)) ->
  forall c k v to d rb0 rb quoted tk n s s' netS, let sn := x_sn s + 1 in
  s_exec H junk sc (Send c k v to d (Some (rb0 :: rb)) quoted tk n) s = Some s' -> c <> 0 ->
  0 <= x_sn s -> free_of (ch "/") netS -> good to -> bytes_ok d -> d <> [128] -> (forall net account, parseBTPAddress to = Some (net, account) -> account <> [128]) ->
  exists netJ account fee m b pre, parseBTPAddress to = Some (netJ, account) /\ x_log s' = pre ++ [OutMessage fee netJ sn b; CallMessageSent c to sn m] /\
  forall t, exists t1, j_exec addr_text addr_of_text bad_address jc (Deliver (c_bmc jc) netS NAME sn b) t = Some t1 /\
    get (x_reqId t + 1) (x_proxy t1) = Some (mkCsReq (address_text (str "btp") netS (toChecksumString H c)) account sn true (Some d)) /\
  forall t2 inner out n2 t3, get (x_reqId t + 1) (x_proxy t2) = get (x_reqId t + 1) (x_proxy t1) -> outcome_ok out -> good (bad_address account) ->
    j_exec addr_text addr_of_text bad_address jc (Execute (x_reqId t + 1) inner out n2) t2 = Some t3 ->
  exists b2 pre2, x_log t3 = pre2 ++ [OutMessage 0 netS (- sn) b2] /\
  forall s2, get sn (x_requests s2) = get sn (x_requests s') -> exists s3, s_exec H junk sc (Deliver (c_bmc sc) netJ NAME (- sn) b2) s2 = Some s3 /\
    (out = Returned /\ addr_of_text account <> None -> get sn (x_requests s3) = None) /\
    (~ (out = Returned /\ addr_of_text account <> None) -> get sn (x_requests s3) = Some (mkCReq c to (Some (rb0 :: rb)) true)).
Proof.
  intros at_ ao bad jc H junk sc MJ c k v to d rb0 rb quoted tk n s s' netS sn E NZ R FN GT BD ND NA.
  apply s_send_out in E as (netJ & account & b & fee & m & pre & V & E1 & RG & EW & E2 & E3 & E4); [|exact R]. cbn [some_data] in *. fold sn in EW, E2, E3, RG.
  pose proof (NA _ _ V) as PA. apply C61_solidity_accepts_exactly in V as VX. destruct VX as (TX & _).
  assert (GA : bytes_ok account /\ zlen account <= zlen to) by (rewrite TX; apply address_parts; unfold address_text; rewrite TX in GT; exact (proj1 GT)).
  destruct GA as [GA1 GA2]. destruct GT as [GT1 GT2]. destruct (checksum_ok H c) as [GC1 GC2].
  set (q := mkCsReq (toChecksumString H c) account sn true (Some d)) in *. assert (OK : request_ok q) by (split; [exact GC1|split; [exact GA1|exact BD]]).
  assert (PQ : plain_request q). { split; [intros X; cbn [q q_from] in X; rewrite X in GC2; discriminate|]. split; [exact PA|]. exists d. split; [reflexivity|exact ND]. }
  pose proof (body_request_le q GC1 GA1 BD ltac:(cbn [q q_from]; lia) ltac:(cbn [q q_to]; lia) ltac:(cbn [q q_data bytes_in]; lia) ltac:(cbn [q q_sn]; lia)) as BL. cbn [q q_from q_to q_data bytes_in] in BL. fold q in BL.
  destruct (s_write_request q OK PQ ltac:(cbn [q q_sn]; lia) ltac:(lia)) as (b' & W1 & CA). assert (b' = b) by congruence. subst b'.
  exists netJ, account, fee, m, b, pre. split; [exact V|]. split; [exact E2|]. intros t.
  destruct (j_read_request q b OK CA) as [RD _].
  exists (arrived t netS sn b q). split; [apply j_deliver_request; assumption|]. split; [cbn [arrived x_proxy emit with_proxy]; apply get_put_same|].
  intros t2 inner out n2 t3 G OO BA X. unfold arrived in G. cbn [x_proxy emit with_proxy] in G. rewrite get_put_same in G.
  eapply j_execute_out in X; [|exact G|reflexivity|exact FN|reflexivity|exact OO|exact BA]. cbn [q_sn q_to q_from q] in X.
  destruct X as (code & txt & pre2 & X1 & X3 & X4 & X5). set (res := mkCsRes sn code (Some txt)) in *. exists (response_wire res).
  destruct (app_snoc2 _ pre2 (CallExecuted (x_reqId t + 1) code txt) (OutMessage 0 netS (- sn) (response_wire res))) as (r2 & X7 & _). exists r2. split; [rewrite X1; exact X7|].
  intros s2 G2. rewrite E3 in G2 by reflexivity.
  assert (OR : response_ok res) by (split; [exact X4|exact (proj1 X5)]).
  assert (CB : carried 2 (response_items res) (response_wire res)) by (apply response_carried; [exact OR|destruct X5; cbn [res r_msg bytes_in]; lia|cbn [res r_sn]; lia]).
  destruct (s_read_response junk MJ res (response_wire res) OR ltac:(cbn [res r_sn]; lia) CB) as [RR _]. change (filled_res res) with res in RR.
  destruct (s_deliver_response H junk sc s2 netJ (- sn) (response_wire res) res _ rb0 rb RR G2 NZ eq_refl) as (s3 & D1 & D2). exists s3. split; [exact D1|].
  exact (settle_cases _ _ (mkCReq c to (Some (rb0 :: rb)) false) _ X3 D2).
Qed.
Print Assumptions C70_solidity_to_java_and_back.
Example C70_ex_there : (exists s', ex_exec (Send 3 true 10 far (str "hello") (Some (str "undo")) (Some 2) true (Some 77)) x_init = Some s') /\ good (ex_text 3) /\ good far /\
  (exists s', ex_sexec (Send 3 true 10 near (str "hello") (Some (str "undo")) (Some 2) true (Some 77)) x_init = Some s') /\ good near.
Proof.
  split; [eexists; vm_compute; reflexivity|]. split; [split; [apply Forall_app; split; [apply str_bytes|repeat constructor; lia]|vm_compute; reflexivity]|].
  split; [split; [apply Forall_app; split; [apply str_bytes|apply Forall_app; split; apply str_bytes]|vm_compute; reflexivity]|]. split; [eexists; vm_compute; reflexivity|]. split; [apply str_bytes|vm_compute; reflexivity].
Qed.

(** * C71: who may do what *)
Theorem C71_only_bmc_delivers : forall addr_text addr_of_text bad_address H junk cfg caller net svc sn code msg s s',
  (j_exec addr_text addr_of_text bad_address cfg (Deliver caller net svc sn msg) s = Some s' \/ j_exec addr_text addr_of_text bad_address cfg (DeliverError caller net svc sn code msg) s = Some s' ->
   caller = c_bmc cfg /\ svc = str "xcall") /\
  (s_exec H junk cfg (Deliver caller net svc sn msg) s = Some s' \/ s_exec H junk cfg (DeliverError caller net svc sn code msg) s = Some s' ->
   caller = c_bmc cfg /\ H svc = H (str "xcall")).
Proof.
  intros at_ ao bad H junk cfg caller net svc sn code msg s s'. split; intros [E|E]; cbn [j_exec s_exec] in E.
  - unfold j_handleBTPMessage in E. apply check_true in E as [A E]. apply check_true in E as [B _]. split; [lia|]. apply same_name in B. exact B.
  - unfold j_handleBTPError in E. apply check_true in E as [A E]. apply check_true in E as [B _]. split; [lia|]. apply same_name in B. exact B.
  - unfold s_handleBTPMessage in E. apply require_true in E as [A E]. apply require_true in E as [B _]. split; [lia|]. apply same_name in B. exact B.
  - unfold s_handleBTPError in E. apply require_true in E as [A E]. apply require_true in E as [B _]. split; [lia|]. apply same_name in B. exact B.
Qed.
Print Assumptions C71_only_bmc_delivers.
(** The owner alone sets the admin; the admin alone, or the owner if there is none, sets the fee and its receiver.  In a
    history where they do not, nobody changes these settings, even from within called contracts. *)
Theorem C71_settings : forall addr_text addr_of_text bad_address H junk cfg l s, Forall (hands_off (c_owner cfg) (match x_admin s with Some a => a | None => c_owner cfg end)) l ->
  settings (j_run addr_text addr_of_text bad_address cfg l s) = settings s /\ settings (s_run H junk cfg l s) = settings s.
Proof.
  intros at_ ao bad H junk cfg l s F. change (match x_admin s with Some a => a | None => c_owner cfg end) with (boss cfg s) in F. remember (boss cfg s) as b eqn:B. split.
  - revert s B. induction F as [|t r T F IH]; intros s B; [reflexivity|]. cbn [j_run]. destruct (j_exec at_ ao bad cfg t s) as [s'|] eqn:E; [|exact (IH s B)].
    pose proof (j_same at_ ao bad cfg b t T s s' (eq_sym B) E) as X. rewrite (IH s'); [exact X|]. rewrite (boss_same cfg s s' X). exact B.
  - revert s B. induction F as [|t r T F IH]; intros s B; [reflexivity|]. cbn [s_run]. destruct (s_exec H junk cfg t s) as [s'|] eqn:E; [|exact (IH s B)].
    pose proof (s_same H junk cfg b t T s s' (eq_sym B) E) as X. rewrite (IH s'); [exact X|]. rewrite (boss_same cfg s s' X). exact B.
Qed.
Print Assumptions C71_settings.
Example C71_ex : Forall (hands_off 8 8) [SetFee 7 3; SetAdmin 7 (Some 7); Deliver 9 (str "0xf") (str "xcall") 4 (request_wire (mkCsReq far (str "cx6") 4 true (Some (str "data"))));
    Execute 1 [SetHandler 6 (Some 6) true] Returned (Some 1)] /\
  ex_exec (SetAdmin 8 (Some 7)) x_init = Some (with_admin x_init (Some 7)) /\ ex_exec (SetFee 8 3) (with_admin x_init (Some 7)) = None /\ ex_exec (SetFee 7 3) (with_admin x_init (Some 7)) <> None.
Proof. split; [repeat (apply Forall_cons; [cbn [hands_off]; repeat split; lia|]); apply Forall_nil|]. split; [vm_compute; reflexivity|]. split; [vm_compute; reflexivity|vm_compute; discriminate]. Qed.
(** Only a contract may ask for a rollback. *)
Theorem C71_rollbacks_for_contracts : forall addr_text addr_of_text bad_address H junk cfg c v to d rb quoted tk n s,
  j_exec addr_text addr_of_text bad_address cfg (Send c false v to d (Some rb) quoted tk n) s = None /\
  (rb <> [] -> s_exec H junk cfg (Send c false v to d (Some rb) quoted tk n) s = None).
Proof.
  intros. split; [reflexivity|]. intros N. destruct rb as [|x r]; [congruence|]. cbn [s_exec]. unfold s_sendCallMessage. cbn [bytes_in]. replace (zlen (x :: r) =? 0) with false; [reflexivity|].
  rewrite zlen_cons. pose proof (zlen_nonneg _ r). lia.
Qed.
Print Assumptions C71_rollbacks_for_contracts.
(** FINDING: Solidity's text for a number holds 32 digits: an error with a longer code, which a BMC may pass on, cannot be delivered. *)
Theorem C71_long_error_code_refuted : exists s1, ex_sexec (Send 3 true 10 near (str "hello") (Some (str "undo")) (Some 2) true (Some 77)) x_init = Some s1 /\
  ex_sexec (DeliverError 9 (str "0x1.icon") (str "xcall") 1 (10 ^ 32) (str "x")) s1 = None /\ ex_sexec (DeliverError 9 (str "0x1.icon") (str "xcall") 1 (10 ^ 31) (str "x")) s1 <> None.
Proof. eexists. split; [vm_compute; reflexivity|]. split; [vm_compute; reflexivity|vm_compute; discriminate]. Qed.
Print Assumptions C71_long_error_code_refuted.
