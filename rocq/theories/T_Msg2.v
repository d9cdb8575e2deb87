(** C82: what Solidity writes, and who reads it. *)
From Coq Require Import String Ascii ZArith List Bool Lia.
From Coq Require Import ZifyBool.
From Verif Require Import Base L_Base M_IntConv S_IntConv L_IntConv M_Rlp S_Rlp L_Rlp S_Address S_BtpAddr M_JBmv S_JBmv M_Wire S_Wire L_Wire
  M_SolRlp S_SolRlp L_SolRlp T_SolRlp M_BtpAddr L_BtpAddr T_BtpAddr M_Bridge M_XCall S_XCall L_XCall M_JCall M_SolCall S_JCall L_JCall L_CallWire M_SBmc M_JMsg S_Msg L_Msg T_Msg.
Import ListNotations.
Open Scope Z_scope.

Lemma some_inj : forall A (a b : A), Some a = Some b -> a = b.
Proof. intros A a b E. injection E as E. exact E. Qed.
Lemma squash_ok : forall b, bytes_ok b -> bytes_ok (squashed b) /\ zlen (squashed b) <= zlen b.
Proof. intros b B. unfold squashed. destruct (list_eq_dec Z.eq_dec b [128]) as [->|]; [split; [constructor|cbn; lia]|split; [exact B|lia]]. Qed.
Lemma squash_plain : forall b, b <> [128] -> squashed b = b.
Proof. intros b N. unfold squashed. destruct (list_eq_dec Z.eq_dec b [128]); [contradiction|reflexivity]. Qed.
Lemma squash_write : forall b, zlen b < 2 ^ 32 -> encodeBytes b = rlp_write (RBytes (squashed b)).
Proof. intros b L. unfold squashed. destruct (list_eq_dec Z.eq_dec b [128]) as [->|N]; [reflexivity|apply encodeBytes_item; assumption]. Qed.
Lemma int_write : forall n, encodeInt n = if (- 2 ^ 127 <=? n) && (n <? 2 ^ 127) then Some (rlp_write (squashed_int n)) else None.
Proof.
  intros n. destruct (Z.eq_dec n (-128)) as [->|N]; [reflexivity|]. rewrite (C60_int_written n N). unfold squashed_int. rewrite squash_plain; [reflexivity|apply tc_not_128; exact N].
Qed.
Definition leaf_ok (b : list Z) : Prop := bytes_ok b /\ zlen b < 2 ^ 31 - 2 ^ 8.
Lemma mk_leaf : forall b, bytes_ok b -> zlen b < 2 ^ 31 - 2 ^ 8 -> leaf_ok b.
Proof. intros b B L. split; assumption. Qed.
Lemma leaf_form : forall b, leaf_ok b -> form (RBytes (squashed b)) (encodeBytes b) /\ zlen (encodeBytes b) <= zlen b + 9.
Proof.
  intros b [B L]. destruct (squash_ok b B) as [B1 L1]. rewrite squash_write by lia. split; [constructor; [exact B1|lia]|]. pose proof (write_len (squashed b) B1 ltac:(lia)). lia.
Qed.
Lemma int_form : forall n e, encodeInt n = Some e -> form (squashed_int n) e /\ zlen e <= 42 /\ - 2 ^ 127 <= n < 2 ^ 127.
Proof.
  intros n e E. rewrite int_write in E. destruct ((- 2 ^ 127 <=? n) && (n <? 2 ^ 127)) eqn:C; [|discriminate]. apply some_inj in E. subst e. split; [|split; [|lia]].
  - unfold squashed_int. pose proof (tc_small n ltac:(lia)). destruct (squash_ok (BigIntToBytes n) (int_ok n)) as [B1 L1]. constructor; [exact B1|lia].
  - unfold squashed_int. pose proof (tc_small n ltac:(lia)). destruct (squash_ok (BigIntToBytes n) (int_ok n)) as [B1 L1]. pose proof (write_len _ B1 ltac:(lia)). lia.
Qed.
Lemma uint_form : forall n e, 0 <= n -> encodeUint n = Some e -> e = rlp_write (int_item n) /\ form (int_item n) e /\ zlen e <= 42 /\ n < 2 ^ 128 - 1.
Proof.
  intros n e N E. destruct (uint_item n e N E) as [-> L]. split; [reflexivity|]. split; [|split; [apply num_len; lia|exact L]].
  pose proof (tc_small n ltac:(lia)). constructor; [apply int_ok|lia].
Qed.
Lemma uints_form : forall l e, Forall (fun v => 0 <= v) l -> encodeUints l = Some e ->
  e = concat (map rlp_write (map int_item l)) /\ forms (map int_item l) e /\ zlen e <= 42 * zlen l /\ Forall (fun v => v < 2 ^ 128 - 1) l.
Proof.
  induction l as [|v l IH]; intros e N E; cbn [encodeUints] in E.
  - apply some_inj in E. subst e. split; [reflexivity|]. split; [constructor|]. split; [cbn; lia|constructor].
  - destruct (encodeUint v) as [a|] eqn:Ea; [|discriminate]. cbn [sbind] in E. destruct (encodeUints l) as [c|] eqn:Ec; [|discriminate]. cbn [sbind] in E. apply some_inj in E. subst e.
    destruct (uint_form v a (Forall_inv N) Ea) as (E1 & F1 & L1 & R1). destruct (IH c (Forall_inv_tail N) eq_refl) as (E2 & F2 & L2 & R2).
    cbn [map concat]. split; [rewrite <- E1, <- E2; reflexivity|]. split; [constructor; assumption|]. split; [rewrite zlen_app, zlen_cons; lia|constructor; assumption].
Qed.
Lemma uints_some : forall l, Forall (fun v => 0 <= v) l -> Forall (fun v => v < 2 ^ 128 - 1) l -> encodeUints l <> None.
Proof.
  induction l as [|v l IH]; intros N R; cbn [encodeUints]; [discriminate|]. rewrite C60_uint_written by exact (Forall_inv N). pose proof (Forall_inv R). cbv beta in *. replace (v <? 2 ^ 128 - 1) with true by lia. cbn [sbind].
  specialize (IH (Forall_inv_tail N) (Forall_inv_tail R)). destruct (encodeUints l); [discriminate|congruence].
Qed.
(** a list around what has been written *)
Lemma wrap_form : forall ts body, forms ts body -> zlen body < 2 ^ 32 -> exists b, listed body = Some b /\ form (RList ts) b /\ zlen b <= zlen body + 6 /\
  (body = concat (map rlp_write ts) -> ~ padded (zlen body) -> b = rlp_write (RList ts)).
Proof.
  intros ts body F L. destruct (listed_bytes body L) as (b & E & W). exists b. split; [exact E|]. split; [exact (FList ts body b F W)|]. split; [apply (list_bytes_len _ _ W)|].
  intros EQ NP. unfold listed in E. rewrite (listed_write body L NP) in E. apply some_inj in E. rewrite <- E. cbn [rlp_write]. rewrite <- EQ. reflexivity.
Qed.

Definition fee_squashed (f : fee) : rlp := fee_item (squashed (f_net f)) (f_vals f).
Definition sol_tree (m : msg) : rlp :=
  RList [RBytes (squashed (m_src m)); RBytes (squashed (m_dst m)); RBytes (squashed (m_svc m)); squashed_int (m_sn m); RBytes (squashed (m_body m)); squashed_int (m_nsn m); fee_squashed (m_fee m)].
Definition msg_ok (m : msg) : Prop :=
  bytes_ok (m_src m) /\ bytes_ok (m_dst m) /\ bytes_ok (m_svc m) /\ bytes_ok (m_body m) /\ bytes_ok (f_net (m_fee m)) /\ Forall (fun v => 0 <= v) (f_vals (m_fee m)).
Definition modest (m : msg) : Prop :=
  zlen (m_src m) + zlen (m_dst m) + zlen (m_svc m) + zlen (m_body m) + zlen (f_net (m_fee m)) + 42 * zlen (f_vals (m_fee m)) < 2 ^ 31 - 2 ^ 10.
(** numbers within 128 bits *)
Definition narrow (m : msg) : Prop :=
  - 2 ^ 127 <= m_sn m < 2 ^ 127 /\ - 2 ^ 127 <= m_nsn m < 2 ^ 127 /\ Forall (fun v => v < 2 ^ 128 - 1) (f_vals (m_fee m)).
(** nothing in it which the writer loses *)
Definition kept_whole (m : msg) : Prop :=
  plain (m_src m) /\ plain (m_dst m) /\ plain (m_svc m) /\ plain (m_body m) /\ plain (f_net (m_fee m)) /\ m_sn m <> -128 /\ m_nsn m <> -128.
Lemma whole_tree : forall m, kept_whole m -> sol_tree m = jmsg_tree (to_java m).
Proof.
  intros m (P1 & P2 & P3 & P4 & P5 & N1 & N2). unfold sol_tree, jmsg_tree, btp_item, fee_squashed, squashed_int. cbn [j_src j_dst j_svc j_sn j_body j_nsn j_fee to_java fee_tree].
  rewrite !squash_plain by (assumption || (apply tc_not_128; assumption)). reflexivity.
Qed.

Lemma fee_written : forall f, bytes_ok (f_net f) -> Forall (fun v => 0 <= v) (f_vals f) -> zlen (f_net f) + 42 * zlen (f_vals f) < 2 ^ 31 - 2 ^ 10 ->
  match encodeFeeInfo f with
  | Some b => Forall (fun v => v < 2 ^ 128 - 1) (f_vals f) /\ form (fee_squashed f) b /\ zlen b <= zlen (f_net f) + 42 * zlen (f_vals f) + 30 /\ (unpadded (fee_squashed f) -> b = rlp_write (fee_squashed f))
  | None => ~ Forall (fun v => v < 2 ^ 128 - 1) (f_vals f)
  end.
Proof.
  intros [n vs] B N L. cbn [f_net f_vals] in *. unfold text in *. unfold encodeFeeInfo. cbn [f_net f_vals]. pose proof (zlen_nonneg _ n). pose proof (zlen_nonneg _ vs).
  destruct (encodeUints vs) as [e|] eqn:E; cbn [sbind]; [|intros R; exact (uints_some vs N R E)].
  destruct (uints_form vs e N E) as (EQ & F & L1 & R). destruct (wrap_form _ _ F ltac:(lia)) as (lb & E2 & F2 & L2 & S2). rewrite E2. cbn [sbind].
  destruct (leaf_form n (mk_leaf n B ltac:(lia))) as [F3 L3]. unfold encodeString.
  assert (FF : forms [RBytes (squashed n); RList (map int_item vs)] (encodeBytes n ++ lb)) by (constructor; [exact F3|]; rewrite <- (app_nil_r lb); constructor; [exact F2|constructor]).
  destruct (wrap_form _ _ FF ltac:(rewrite zlen_app; lia)) as (b & E4 & F4 & L4 & S4). rewrite E4. split; [exact R|]. split; [exact F4|]. split; [rewrite zlen_app in L4; lia|].
  intros (U1 & _ & (U2 & _) & _). change (b = rlp_write (RList [RBytes (squashed n); RList (map int_item vs)])). apply S4.
  - cbn [map concat]. rewrite app_nil_r. rewrite <- (S2 EQ); [rewrite squash_write by lia; reflexivity|]. rewrite EQ. exact U2.
  - assert (Q : encodeBytes n ++ lb = concat (map rlp_write [RBytes (squashed n); RList (map int_item vs)])).
    { cbn [map concat]. rewrite app_nil_r. rewrite <- (S2 EQ); [rewrite squash_write by lia; reflexivity|]. rewrite EQ. exact U2. }
    rewrite Q. exact U1.
Qed.

Lemma btp_written : forall m, msg_ok m -> modest m ->
  match encodeBTPMessage m with
  | Some b => narrow m /\ form (sol_tree m) b /\ (unpadded (sol_tree m) -> b = rlp_write (sol_tree m))
  | None => ~ narrow m
  end.
Proof.
  intros [src dst svc sn body nsn f] (B1 & B2 & B3 & B4 & B5 & N) L. unfold modest in L. cbn [m_src m_dst m_svc m_sn m_body m_nsn m_fee] in *. unfold encodeBTPMessage. cbn [m_src m_dst m_svc m_sn m_body m_nsn m_fee].
  unfold narrow. cbn [m_sn m_nsn m_fee]. pose proof (zlen_nonneg _ src). pose proof (zlen_nonneg _ dst). pose proof (zlen_nonneg _ svc). pose proof (zlen_nonneg _ body). pose proof (zlen_nonneg _ (f_net f)). pose proof (zlen_nonneg _ (f_vals f)).
  unfold text in *.
  destruct (encodeInt sn) as [a|] eqn:E1; cbn [sbind]; [|rewrite int_write in E1; destruct ((- 2 ^ 127 <=? sn) && (sn <? 2 ^ 127)) eqn:C; [discriminate|intros (R & _); lia]].
  destruct (encodeInt nsn) as [k|] eqn:E2; cbn [sbind]; [|rewrite int_write in E2; destruct ((- 2 ^ 127 <=? nsn) && (nsn <? 2 ^ 127)) eqn:C; [discriminate|intros (_ & R & _); lia]].
  pose proof (fee_written f B5 N ltac:(lia)) as FW. destruct (encodeFeeInfo f) as [c|] eqn:E3; cbn [sbind]; [|intros (_ & _ & R); exact (FW R)].
  destruct FW as (R3 & F3 & L3 & S3). destruct (int_form sn a E1) as (G1 & K1 & R1). destruct (int_form nsn k E2) as (G2 & K2 & R2).
  destruct (leaf_form src (mk_leaf src B1 ltac:(lia))) as [HH1 W1]. destruct (leaf_form dst (mk_leaf dst B2 ltac:(lia))) as [HH2 W2]. destruct (leaf_form svc (mk_leaf svc B3 ltac:(lia))) as [HH3 W3]. destruct (leaf_form body (mk_leaf body B4 ltac:(lia))) as [HH4 W4].
  unfold encodeString.
  set (ts := [RBytes (squashed src); RBytes (squashed dst); RBytes (squashed svc); squashed_int sn; RBytes (squashed body); squashed_int nsn; fee_squashed f]).
  assert (FF : forms ts (encodeBytes src ++ encodeBytes dst ++ encodeBytes svc ++ a ++ encodeBytes body ++ k ++ c)).
  { do 6 (constructor; [assumption|]). rewrite <- (app_nil_r c). constructor; [exact F3|constructor]. }
  destruct (wrap_form _ _ FF ltac:(rewrite !zlen_app; lia)) as (b & E4 & F4 & L4 & S4). rewrite E4. split; [split; [exact R1|split; [exact R2|exact R3]]|]. split; [exact F4|].
  intros U. change (unpadded (RList ts)) in U. destruct U as (U1 & U2). unfold ts in U2. cbn [fold_right] in U2. destruct U2 as (_ & _ & _ & _ & _ & _ & U3 & _).
  rewrite int_write in E1. replace ((- 2 ^ 127 <=? sn) && (sn <? 2 ^ 127)) with true in E1 by lia. apply some_inj in E1.
  rewrite int_write in E2. replace ((- 2 ^ 127 <=? nsn) && (nsn <? 2 ^ 127)) with true in E2 by lia. apply some_inj in E2.
  assert (Q : encodeBytes src ++ encodeBytes dst ++ encodeBytes svc ++ a ++ encodeBytes body ++ k ++ c = concat (map rlp_write ts)).
  { unfold ts. cbn [map concat]. rewrite app_nil_r, <- E1, <- E2, (S3 U3). rewrite !squash_write by lia. reflexivity. }
  unfold sol_tree. cbn [m_src m_dst m_svc m_sn m_body m_nsn m_fee]. fold ts. apply S4; [exact Q|]. rewrite Q. exact U1.
Qed.

(** Solidity writes the same format, but for the strings it loses, and exactly if all numbers fit in 128 bits; otherwise the
    transaction is reverted. *)
Theorem C82_solidity_writes : forall m, msg_ok m -> modest m ->
  match encodeBTPMessage m with Some b => narrow m /\ form (sol_tree m) b | None => ~ narrow m end.
Proof. intros m O L. pose proof (btp_written m O L) as W. destruct (encodeBTPMessage m) as [b|]; [|exact W]. destruct W as (W1 & W2 & _). split; assumption. Qed.
Print Assumptions C82_solidity_writes.
(** Byte for byte what Java writes, unless a list has a length of 255, 65535, ... bytes. *)
Theorem C82_same_bytes : forall m, msg_ok m -> modest m -> narrow m -> kept_whole m -> unpadded (jmsg_tree (to_java m)) -> encodeBTPMessage m = Some (j_btp_bytes (to_java m)).
Proof.
  intros m O L N K U. pose proof (btp_written m O L) as W. destruct (encodeBTPMessage m) as [b|]; [|contradiction]. destruct W as (_ & _ & W). rewrite (whole_tree m K) in W. rewrite (W U), (proj1 (C82_java_writes (to_java m) [] [] 0 None 0 [] [] None)). reflexivity.
Qed.
Print Assumptions C82_same_bytes.

(** the smaller messages *)
Lemma pair_written : forall n t, 0 <= n -> leaf_ok t ->
  match sbind (encodeUint n) (fun c => listed (c ++ encodeString t)) with Some b => n < 2 ^ 128 - 1 /\ form (RList [int_item n; RBytes (squashed t)]) b | None => 2 ^ 128 - 1 <= n end.
Proof.
  intros n t N T. destruct (encodeUint n) as [c|] eqn:E; cbn [sbind].
  - destruct (uint_form n c N E) as (_ & F1 & L1 & R). destruct (leaf_form t T) as [F2 L2]. unfold encodeString. destruct T as [T1 T2].
    assert (FF : forms [int_item n; RBytes (squashed t)] (c ++ encodeBytes t)) by (constructor; [exact F1|]; rewrite <- (app_nil_r (encodeBytes t)); constructor; [exact F2|constructor]).
    destruct (wrap_form _ _ FF ltac:(rewrite zlen_app; lia)) as (b & E4 & F4 & _). rewrite E4. split; assumption.
  - rewrite C60_uint_written in E by assumption. destruct (n <? 2 ^ 128 - 1) eqn:C; [discriminate|lia].
Qed.
Theorem C82_solidity_writes_inner :
  (forall type payload, leaf_ok type -> leaf_ok payload -> exists b, encodeBMCMessage type payload = Some b /\ form (bmc_item (squashed type) (squashed payload)) b) /\
  (forall code t, 0 <= code -> leaf_ok t -> match encodeResponseMessage code t with Some b => code < 2 ^ 128 - 1 /\ form (response_item code (Some (squashed t))) b | None => 2 ^ 128 - 1 <= code end) /\
  (forall amount r, 0 <= amount -> leaf_ok r -> match encodeClaimMessage amount r with Some b => amount < 2 ^ 128 - 1 /\ form (claim_item amount (squashed r)) b | None => 2 ^ 128 - 1 <= amount end) /\
  (forall links, Forall leaf_ok links -> zlen (concat links) + 9 * zlen links < 2 ^ 31 -> exists b, encodeInitMessage links = Some b /\ form (init_item (map (fun t => Some (squashed t)) links)) b) /\
  (forall link, leaf_ok link -> exists b, encodePropagateMessage link = Some b /\ form (link_item (Some (squashed link))) b).
Proof.
  split; [|split; [exact pair_written|split; [exact pair_written|split]]].
  - intros t p T P. destruct (leaf_form t T) as [F1 L1]. destruct (leaf_form p P) as [F2 L2]. destruct T as [_ T]. destruct P as [_ P].
    assert (FF : forms [RBytes (squashed t); RBytes (squashed p)] (encodeBytes t ++ encodeBytes p)) by (constructor; [exact F1|]; rewrite <- (app_nil_r (encodeBytes p)); constructor; [exact F2|constructor]).
    pose proof (form_len _ _ F1) as Q1. destruct (wrap_form _ _ FF) as (b & E4 & F4 & _); [rewrite zlen_app; lia|]. exists b. split; assumption.
  - intros l O L.
    assert (H : forms (map opt_item (map (fun t => Some (squashed t)) l)) (concat (map encodeString l)) /\ zlen (concat (map encodeString l)) <= zlen (concat l) + 9 * zlen l).
    { clear L. induction O as [|t l T O IH]; [split; [constructor|cbn; lia]|]. destruct IH as [IH1 IH2]. destruct (leaf_form t T) as [F1 L1]. cbn [map concat opt_item]. unfold encodeString at 1 3.
      split; [constructor; assumption|]. rewrite !zlen_app, zlen_cons. lia. }
    destruct H as [H1 H2]. unfold encodeInitMessage. destruct (wrap_form _ _ H1 ltac:(lia)) as (a & E1 & F1 & L1 & _). rewrite E1. cbn [sbind].
    assert (FF : forms [RList (map opt_item (map (fun t => Some (squashed t)) l))] a) by (rewrite <- (app_nil_r a); constructor; [exact F1|constructor]).
    destruct (wrap_form _ _ FF ltac:(lia)) as (b & E4 & F4 & _). exists b. split; assumption.
  - intros t T. destruct (leaf_form t T) as [F1 L1]. destruct T as [_ T]. unfold encodePropagateMessage, encodeString.
    assert (FF : forms [opt_item (Some (squashed t))] (encodeBytes t)) by (rewrite <- (app_nil_r (encodeBytes t)); constructor; [exact F1|constructor]).
    destruct (wrap_form _ _ FF ltac:(lia)) as (b & E4 & F4 & _). exists b. split; assumption.
Qed.
Print Assumptions C82_solidity_writes_inner.

(** Either side reads what Solidity writes, as long as nothing in it is lost. *)
Theorem C82_solidity_messages_read : forall junk, (forall b, mem_ok (junk b)) -> forall m b, msg_ok m -> modest m -> kept_whole m -> encodeBTPMessage m = Some b ->
  decodeBTPMessage junk b = Some m /\ fromBytes readBTPMessage b = Some (to_java m).
Proof.
  intros junk J m b O L K E. pose proof (C82_solidity_writes m O L) as W. rewrite E in W. destruct W as ((N1 & N2 & N3) & F). rewrite (whole_tree m K) in F. split.
  - rewrite (proj1 (C82_solidity_reads junk J) (to_java m) b); [destruct m; reflexivity| |exact F]. unfold nums_ok, int_range, uint_range. cbn [j_sn j_nsn j_fee to_java given]. split; [lia|]. split; [lia|].
    destruct O as (_ & _ & _ & _ & _ & O). apply Forall_forall. intros v V. pose proof (proj1 (Forall_forall _ _) O v V). pose proof (proj1 (Forall_forall _ _) N3 v V). cbv beta in *. lia.
  - exact (proj1 C82_java_reads _ _ F).
Qed.
Print Assumptions C82_solidity_messages_read.
(** Solidity reads what Java writes; a Java message passed on by Solidity is the same message, the missing fee information replaced by an empty one. *)
Theorem C82_java_messages_read : forall junk, (forall b, mem_ok (junk b)) -> forall m, jmsg_ok m -> nums_ok m -> zlen (j_btp_bytes m) < 2 ^ 32 ->
  decodeBTPMessage junk (j_btp_bytes m) = Some (to_sol m) /\
  forall b, msg_ok (to_sol m) -> modest (to_sol m) -> kept_whole (to_sol m) -> encodeBTPMessage (to_sol m) = Some b ->
  fromBytes readBTPMessage b = Some (JMsg (j_src m) (j_dst m) (j_svc m) (j_sn m) (j_body m) (j_nsn m) (Some (given (j_fee m)))).
Proof.
  intros junk J m O R L. split.
  - pose proof (proj1 (C82_java_writes m [] [] 0 None 0 [] [] None)) as E. rewrite E in *. apply (proj1 (C82_solidity_reads junk J)); [exact R|]. apply form_write; [apply jmsg_tree_ok; exact O|exact L].
  - intros b O2 M K E. exact (proj2 (C82_solidity_messages_read junk J _ b O2 M K E)).
Qed.
Print Assumptions C82_java_messages_read.
