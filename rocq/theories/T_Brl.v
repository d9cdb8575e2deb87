(** C96: what the relay with a bridge receiver brings to the bridge verifiers. *)
From Coq Require Import String Ascii ZArith List Bool Lia Sorted Permutation.
From Coq Require Import ZifyBool.
From Verif Require Import Base L_Base M_IntConv S_IntConv L_IntConv M_Rlp S_Rlp M_Codec S_JBmv M_Wire S_Wire M_SolRlp S_SolRlp M_BtpAddr S_BtpAddr L_BtpAddr
  M_Bridge S_Bridge L_Bridge T_Bridge S_BridgeWire T_BridgeWire M_Link M_Receive S_Receive T_Receive GoSort M_Brl S_Brl L_Btp2 L_Brl.
Import ListNotations.
Open Scope Z_scope.

Lemma last_cons : forall A (l : list A) x d, last (x :: l) d = last l x.
Proof. intros A. induction l as [|y l IH]; intros x d; [reflexivity|]. change (last (x :: y :: l) d) with (last (y :: l) d). rewrite !IH. reflexivity. Qed.
(** ** A verifier that is given one event at a time *)
Section SIDE.
Variable St M : Type.
Variable verify : St -> Z -> list Z -> option (St * list M).
Variable at_height : St -> Z.
Variable good : St -> Prop.
Variable g : list Z -> M.
Definition reads (p : list Z) (n h : Z) (m : list Z) : Prop :=
  forall s seq, good s -> at_height s <= h -> 0 <= seq < 2 ^ 63 ->
    (n = seq + 1 -> exists s', verify s seq p = Some (s', [g m]) /\ good s' /\ at_height s' = h) /\
    (seq + 1 < n -> verify s seq p = None) /\
    (n < seq + 1 -> exists s', verify s seq p = Some (s', []) /\ good s' /\ at_height s' = h).
Notation side := (fold_left (through verify)).

(** What the ICON receiver makes of blocks: one receipt each, with the last event only. *)
Fixpoint last_only (dst : list Z) (q : Z) (xs : list block) : list breceipt :=
  match xs with
  | [] => []
  | x :: r => BReceipt 0 [BEvent dst (q + zlen (k_msgs x)) (last (k_msgs x) [])] (k_height x) :: last_only dst (q + zlen (k_msgs x)) r
  end.
Definition count (xs : list block) : Z := zlen (messages xs).
Lemma count_cons : forall x xs, count (x :: xs) = zlen (k_msgs x) + count xs.
Proof. intros x xs. unfold count, messages. cbn [flat_map]. apply zlen_app. Qed.
Definition icon_reads (dst : list Z) (q h : Z) (xs : list block) : Prop :=
  forall n ht m, In (BReceipt 0 [BEvent dst n m] ht) (last_only dst q xs) -> reads (icon_payload (BReceipt 0 [BEvent dst n m] ht)) n ht m.

Lemma too_far : forall dst xs h q s seq got, good s -> at_height s <= h -> 0 <= seq < 2 ^ 63 -> climbing h xs -> Forall (fun x => k_msgs x <> []) xs -> seq < q ->
  icon_reads dst q h xs -> side (map icon_payload (last_only dst q xs)) (s, seq, got) = (s, seq, got).
Proof.
  intros dst xs. induction xs as [|x xs IH]; intros h q s seq got G Hs R C NE L IR; [reflexivity|]. destruct C as [C1 C2].
  inversion NE as [|? ? N1 N2]; subst. assert (0 < zlen (k_msgs x)) by (destruct (k_msgs x); [congruence|unfold zlen; cbn [length]; lia]).
  cbn [last_only map fold_left through]. destruct (IR _ _ _ (or_introl eq_refl) s seq G ltac:(lia) R) as (_ & E & _). rewrite E by lia.
  apply (IH (k_height x)); try assumption; try lia. intros n ht m I. apply IR. right. exact I.
Qed.
Lemma icon_side : forall dst xs h q s got, good s -> at_height s <= h -> 0 <= q -> q + count xs < 2 ^ 63 -> climbing h xs -> Forall (fun x => k_msgs x <> []) xs ->
  icon_reads dst q h xs -> exists s', side (map icon_payload (last_only dst q xs)) (s, q, got) = (s', q + zlen (unharmed xs), got ++ map g (unharmed xs)).
Proof.
  intros dst xs. induction xs as [|x xs IH]; intros h q s got G Hs Q0 Q1 C NE IR.
  - exists s. cbn [last_only map fold_left unharmed]. rewrite app_nil_r. change (zlen (@nil (list Z))) with 0. rewrite Z.add_0_r. reflexivity.
  - rewrite count_cons in Q1. assert (C0 : 0 <= count xs) by apply zlen_nonneg. pose proof C as [C1 C2]. inversion NE as [|? ? N1 N2]; subst. cbn [unharmed].
    destruct (k_msgs x) as [|m [|m2 ms]] eqn:Ek; [congruence| |].
    + change (zlen [m]) with 1 in *. cbn [last_only map fold_left through]. rewrite Ek in *. change (zlen [m]) with 1. cbn [last].
      destruct (IR (q + 1) (k_height x) m ltac:(cbn [last_only]; rewrite Ek; left; reflexivity) s q G ltac:(lia) ltac:(lia)) as (E & _ & _). destruct (E eq_refl) as (s1 & E1 & G1 & H1). rewrite E1.
      destruct (IH (k_height x) (q + 1) s1 (got ++ [g m])) as (s' & E'); try assumption; try lia.
      { intros n ht m' I. apply IR. cbn [last_only]. rewrite Ek. right. exact I. }
      exists s'. change (zlen [g m]) with 1. rewrite E'. rewrite <- app_assoc. cbn [map app]. do 2 f_equal. unfold zlen. cbn [length]. lia.
    + exists s. change (zlen (@nil (list Z))) with 0. rewrite app_nil_r, Z.add_0_r.
      assert (L2 : 2 <= zlen (m :: m2 :: ms)) by (unfold zlen; cbn [length]; lia). 
      cbn [last_only map fold_left through]. rewrite Ek.
      destruct (IR (q + zlen (m :: m2 :: ms)) (k_height x) (last (m :: m2 :: ms) []) ltac:(cbn [last_only]; rewrite Ek; left; reflexivity) s q G ltac:(lia) ltac:(lia)) as (_ & E & _). rewrite E by lia.
      apply (too_far dst xs (k_height x)); try assumption; try lia. intros n ht m' I. apply IR. cbn [last_only]. rewrite Ek. right. exact I.
Qed.

(** What the EVM receiver makes of blocks with at most one message *)
Inductive eth_sent (dst : list Z) : Z -> list block -> list (list Z) -> Prop :=
| eth_none : forall q, eth_sent dst q [] []
| eth_skip : forall q x xs ps, k_msgs x = [] -> eth_sent dst q xs ps -> eth_sent dst q (x :: xs) ps
| eth_one : forall q x xs ps m tx p, k_msgs x = [m] -> 0 <= tx < 2 ^ 31 -> eth_payload [BReceipt tx [BEvent dst (q + 1) m] (k_height x)] = Some p ->
    eth_sent dst (q + 1) xs ps -> eth_sent dst q (x :: xs) (p :: ps).
Variable num : Z -> Z.
Definition eth_reads (dst : list Z) (xs : list block) (ps : list (list Z)) : Prop :=
  forall x m tx n p, In x xs -> In p ps -> 0 < n < 2 ^ 63 -> k_msgs x = [m] -> 0 <= tx < 2 ^ 31 -> eth_payload [BReceipt tx [BEvent dst n m] (k_height x)] = Some p -> reads p (num n) (k_height x) m.
Lemma eth_side : forall dst q xs ps, eth_sent dst q xs ps -> forall h s got lim, good s -> at_height s <= h -> 0 <= q -> q + count xs < 2 ^ 63 -> climbing h xs -> eth_reads dst xs ps ->
  (forall n, 0 < n <= lim -> num n = n) -> q + count xs <= lim ->
  exists s', side ps (s, q, got) = (s', q + count xs, got ++ map g (messages xs)).
Proof.
  intros dst q xs ps Es. induction Es as [q|q x xs ps Ek Es IH|q x xs ps m tx p Ek Ht Ep Es IH]; intros h s got lim G Hs Q0 Q1 C ER NI LI.
  - exists s. cbn [fold_left messages flat_map map]. rewrite app_nil_r. change (count []) with 0. rewrite Z.add_0_r. reflexivity.
  - rewrite count_cons in *. rewrite Ek in *. change (zlen (@nil (list Z))) with 0 in *. cbn [Z.add] in *. destruct C as [C1 C2]. unfold messages. cbn [flat_map]. rewrite Ek. cbn [app].
    apply (IH (k_height x) s got lim); try assumption; try lia. intros x' m tx n p I1 I2. apply ER; [right|]; assumption.
  - rewrite count_cons in *. rewrite Ek in *. change (zlen [m]) with 1 in *. assert (C0 : 0 <= count xs) by apply zlen_nonneg. destruct C as [C1 C2]. cbn [fold_left through].
    destruct (ER x m tx (q + 1) p (or_introl eq_refl) (or_introl eq_refl) ltac:(lia) Ek Ht Ep s q G ltac:(lia) ltac:(lia)) as (E & _ & _). destruct (E (NI (q + 1) ltac:(lia))) as (s1 & E1 & G1 & H1). rewrite E1.
    destruct (IH (k_height x) s1 (got ++ [g m]) lim) as (s' & E'); try assumption; try lia. { intros x' m' tx' n' p' I1 I2. apply ER; right; assumption. }
    exists s'. change (zlen [g m]) with 1. rewrite E', <- app_assoc. unfold messages. cbn [flat_map]. rewrite Ek. cbn [app map]. do 2 f_equal. lia.
Qed.
(** Once the verifier waits for a number that is never read, nothing more arrives. *)
Lemma eth_stop : forall dst q xs ps, eth_sent dst q xs ps -> forall h s seq got, good s -> at_height s <= h -> 0 <= seq < 2 ^ 63 -> 0 <= q -> q + count xs < 2 ^ 63 -> climbing h xs -> eth_reads dst xs ps ->
  (forall n, 0 < n -> num n <> seq + 1) -> exists s', side ps (s, seq, got) = (s', seq, got).
Proof.
  intros dst q xs ps Es. induction Es as [q|q x xs ps Ek Es IH|q x xs ps m tx p Ek Ht Ep Es IH]; intros h s seq got G Hs R Q0 Q1 C ER NI.
  - exists s. reflexivity.
  - rewrite count_cons in *. rewrite Ek in *. change (zlen (@nil (list Z))) with 0 in *. destruct C as [C1 C2]. apply (IH (k_height x)); try assumption; try lia. intros x' m tx n p I1 I2. apply ER; [right|]; assumption.
  - rewrite count_cons in *. rewrite Ek in *. change (zlen [m]) with 1 in *. assert (C0 : 0 <= count xs) by apply zlen_nonneg. destruct C as [C1 C2]. cbn [fold_left through].
    destruct (ER x m tx (q + 1) p (or_introl eq_refl) (or_introl eq_refl) ltac:(lia) Ek Ht Ep s seq G ltac:(lia) R) as (_ & E2 & E3).
    assert (ER' : eth_reads dst xs ps) by (intros x' m' tx' n' p' I1 I2; apply ER; right; assumption).
    specialize (NI (q + 1) ltac:(lia)) as NQ. assert (D : seq + 1 < num (q + 1) \/ num (q + 1) < seq + 1) by lia. destruct D as [D|D].
    + rewrite (E2 D). apply (IH (k_height x)); try assumption; lia.
    + destruct (E3 D) as (s1 & -> & G1 & H1). change (zlen (@nil M)) with 0. rewrite Z.add_0_r, app_nil_r. apply (IH (k_height x)); try assumption; lia.
Qed.
Lemma eth_until : forall dst q xs ps, eth_sent dst q xs ps -> forall h s got lim, good s -> at_height s <= h -> 0 <= q <= lim -> lim < 2 ^ 63 -> q + count xs < 2 ^ 63 -> climbing h xs -> eth_reads dst xs ps ->
  (forall n, 0 < n <= lim -> num n = n) -> (forall n, 0 < n -> num n <> lim + 1) ->
  exists s', let ms := firstn (Z.to_nat (lim - q)) (messages xs) in side ps (s, q, got) = (s', q + zlen ms, got ++ map g ms).
Proof.
  intros dst q xs ps Es. induction Es as [q|q x xs ps Ek Es IH|q x xs ps m tx p Ek Ht Ep Es IH]; intros h s got lim G Hs Q0 Lm Q1 C ER NI NS.
  - exists s. unfold messages. cbn [fold_left flat_map]. rewrite firstn_nil. cbn [map]. rewrite app_nil_r. change (zlen (@nil (list Z))) with 0. rewrite Z.add_0_r. reflexivity.
  - rewrite count_cons in *. rewrite Ek in *. change (zlen (@nil (list Z))) with 0 in *. cbn [Z.add] in *. destruct C as [C1 C2]. unfold messages. cbn [flat_map]. rewrite Ek. cbn [app].
    apply (IH (k_height x) s got lim); try assumption; try lia. intros x' m tx n p I1 I2. apply ER; [right|]; assumption.
  - assert (D : q = lim \/ q < lim) by lia. destruct D as [->|D].
    { rewrite Z.sub_diag. change (Z.to_nat 0) with 0%nat. cbn [firstn map]. rewrite app_nil_r. change (zlen (@nil (list Z))) with 0. rewrite Z.add_0_r. cbv zeta.
      apply (eth_stop dst lim (x :: xs) (p :: ps) (eth_one dst lim x xs ps m tx p Ek Ht Ep Es) h); try assumption; lia. }
    rewrite count_cons in *. rewrite Ek in *. change (zlen [m]) with 1 in *. assert (C0 : 0 <= count xs) by apply zlen_nonneg. destruct C as [C1 C2]. cbn [fold_left through].
    destruct (ER x m tx (q + 1) p (or_introl eq_refl) (or_introl eq_refl) ltac:(lia) Ek Ht Ep s q G ltac:(lia) ltac:(lia)) as (E & _ & _). destruct (E (NI (q + 1) ltac:(lia))) as (s1 & E1 & G1 & H1). rewrite E1.
    destruct (IH (k_height x) s1 (got ++ [g m]) lim) as (s' & E'); try assumption; try lia. { intros x' m' tx' n' p' I1 I2. apply ER; right; assumption. }
    exists s'. change (zlen [g m]) with 1. cbv zeta in *. rewrite E', <- app_assoc. unfold messages. cbn [flat_map]. rewrite Ek. fold (messages xs). replace (Z.to_nat (lim - q)) with (S (Z.to_nat (lim - (q + 1)))) by lia. cbn [app firstn map]. do 2 f_equal. unfold zlen. cbn [length]. lia.
Qed.
End SIDE.

(** ** The two bridge verifiers *)
Section SOLIDITY.
Variable H : list Z -> list Z.
Variable junk : list Z -> mem.
Variables (sender : Z) (bmc prev : list Z) (B : Z) (net : list Z).
Definition s_verify (b : sbridge) (seq : Z) (p : list Z) : option (sbridge * list (list Z)) := s_bridge_handle H junk b sender bmc prev seq p.
(** the BMC [bmc], known to the verifier, calls it about the network the link comes from *)
Definition s_linked : Prop := exists cnet cacc facc, parseBTPAddress bmc = Some (cnet, cacc) /\ account_text cacc B /\ sender = B /\ parseBTPAddress prev = Some (net, facc).
Definition s_good (b : sbridge) : Prop := sb_bmc b = B /\ sb_net b = net.
Lemma sol_one : forall p i n m h, s_linked -> decodeRelayMessage junk p = Some [BReceipt i [BEvent bmc n m] h] -> reads sbridge (list Z) s_verify sb_height s_good (fun x => x) p n h m.
Proof.
  intros p i n m h (cnet & cacc & facc & L1 & L2 & L3 & L4) D s seq [G1 G2] Hs R. assert (R2 : 0 <= seq < 2 ^ 256) by lia.
  assert (X : forall ms, takes (fun e => H (be_next e) = H bmc) (seq + 1) [BEvent bmc n m] ms -> (length ms <= 1)%nat -> s_verify s seq p = Some (SBridge (sb_bmc s) (sb_net s) h, ms)).
  { intros ms T L. apply C62_solidity_handles_exactly; [exact R2|]. exists cnet, cacc, net, facc, [BReceipt i [BEvent bmc n m] h].
    cbn [seen top_height fold_right br_height br_events]. rewrite app_nil_r. replace (h <? sb_height s) with false by lia. replace (Z.max h (sb_height s)) with h by lia.
    rewrite G1, G2. repeat (split; [assumption || reflexivity|]). split; [unfold zlen; lia|reflexivity]. }
  split; [|split].
  - intros ->. eexists. split; [apply X; [|cbn [length]; lia]|split; [split; assumption|reflexivity]]. apply takes_next; [reflexivity|reflexivity|constructor].
  - intros L. destruct (s_verify s seq p) as [[s' ms]|] eqn:E; [exfalso|reflexivity]. unfold s_verify in E. apply C62_solidity_handles_exactly in E; [|exact R2].
    destruct E as (? & ? & ? & ? & rps & _ & _ & _ & _ & _ & E & T & _). rewrite D in E. injection E as <-. cbn [seen br_height br_events] in T. replace (h <? sb_height s) with false in T by lia. cbn [app] in T.
    inversion T as [|? ? ? ? L' |? ? ? ? L'|? ? ? ? L']; subst; cbn [be_seq] in L'; lia.
  - intros L. eexists. split; [apply X; [|cbn [length]; lia]|split; [split; assumption|reflexivity]]. apply takes_old; [exact L|constructor].
Qed.
End SOLIDITY.
Section JAVA.
Variable addr_of : list Z -> option (list Z).
Variables (caller bmc prev : list Z) (net : list Z).
Definition j_verify (b : jbridge) (seq : Z) (p : list Z) : option (jbridge * list (option (list Z))) := j_bridge_handle addr_of b caller bmc prev seq p.
Definition j_linked : Prop := exists cur from, j_valueOf bmc = Some cur /\ j_valueOf prev = Some from /\ ja_net from = net /\ addr_of (ja_account cur) = Some caller.
Definition j_good (b : jbridge) : Prop := jb_bmc b = caller /\ jb_net b = net.
Lemma java_one : forall p i x n m h, j_linked -> fromBytes readBridgeMessage p = Some [BReceipt i [BEvent x n m] h] -> reads jbridge (option (list Z)) j_verify jb_height j_good Some p n h m.
Proof.
  intros p i x n m h (cur & from & L1 & L2 & L3 & L4) D s seq [G1 G2] Hs R.
  assert (X : forall ms, takes anyone (seq + 1) [BEvent x n m] ms -> j_verify s seq p = Some (JBridge (jb_bmc s) (jb_net s) h, j_array ms)).
  { intros ms T. apply C62_java_handles_exactly. exists cur, from, [BReceipt i [BEvent x n m] h], ms.
    cbn [seen top_height fold_right br_height br_events]. rewrite app_nil_r. replace (h <? jb_height s) with false by lia. replace (Z.max h (jb_height s)) with h by lia.
    rewrite G1, G2. repeat (split; [assumption || reflexivity|]). reflexivity. }
  split; [|split].
  - intros ->. eexists. split; [apply (X [m])|split; [split; assumption|reflexivity]]. apply takes_next; [reflexivity|exact I|constructor].
  - intros L. destruct (j_verify s seq p) as [[s' ms]|] eqn:E; [exfalso|reflexivity]. unfold j_verify in E. apply C62_java_handles_exactly in E.
    destruct E as (? & ? & rps & ms' & _ & _ & _ & _ & _ & E & T & _). rewrite D in E. injection E as <-. cbn [seen br_height br_events] in T. replace (h <? jb_height s) with false in T by lia. cbn [app] in T.
    inversion T as [|? ? ? ? L' |? ? ? ? L'|? ? ? ? L']; subst; cbn [be_seq] in L'; lia.
  - intros L. eexists. split; [apply (X [])|split; [split; assumption|reflexivity]]. apply takes_old; [exact L|constructor].
Qed.
End JAVA.

(** ** The ICON receiver *)
Section ICON.
Variables (startHeight offset : Z) (dst : list Z) (TxSizeLimit limitSize : Z) (rand : nat -> Z) (fuel : nat).
Definition irun (b : bls) (es : list (M_Brl.bevent inote)) : lk :=
  b_link (brun grs g_height g_seq inote (i_arrive startHeight offset) (i_mproof dst) TxSizeLimit limitSize rand (S (S fuel)) (i_start b) es).
Definition sent_by (k : lk) : list (list Z) := map rm_message (sent (l_st k)).

Lemma decode_all : forall l, decoded (map Some l) = Some l.
Proof. induction l as [|m l IH]; cbn [map decoded]; [|rewrite IH]; reflexivity. Qed.
Lemma all_events : forall rx ms sn, rx < sn -> exists es, g_events_loop rx sn ms = es /\ zlen es = zlen ms /\ (ms <> [] -> exists es', es = es' ++ [mkEvt (sn + zlen ms - 1) (last ms [])]).
Proof.
  intros rx ms. induction ms as [|m ms IH]; intros sn L; cbn [g_events_loop].
  - exists []. split; [reflexivity|]. split; [reflexivity|]. congruence.
  - replace (rx <? sn) with true by lia. destruct (IH (sn + 1) ltac:(lia)) as (es & E & Z1 & E2). rewrite E. exists (mkEvt sn m :: es). split; [reflexivity|].
    assert (LZ : forall A (a : A) l, zlen (a :: l) = 1 + zlen l) by (intros; unfold zlen; cbn [length]; lia). rewrite !LZ. split; [lia|]. intros _.
    destruct ms as [|m2 ms].
    + destruct es; [|unfold zlen in Z1; cbn [length] in Z1; lia]. exists []. change (zlen (@nil (list Z))) with 0. cbn [app last]. do 2 f_equal. lia.
    + destruct (E2 ltac:(congruence)) as (es' & ->). exists (mkEvt sn m :: es'). rewrite !LZ in *. cbn [app]. do 4 f_equal. lia.
Qed.
Lemma block_gives : forall tx q h c x n, in_height n = k_height x -> Z.shiftr (in_update n) 1 = q - offset -> in_msgs n = Some (map Some (k_msgs x)) -> 0 <= h < k_height x -> k_height x <> startHeight ->
  gives grs g_height g_seq inote (i_arrive startHeight offset) n tx q h c c (g_newReceiveStatus (k_height x) q (q + 1) (k_msgs x)).
Proof.
  intros tx q h c x n N1 N2 N3 Hh Hs. unfold gives, i_arrive. rewrite N1, N3, decode_all, N2. replace (k_height x =? startHeight) with false by lia. cbn [RxSeq].
  replace (offset + 1 + (q - offset)) with (q + 1) by lia. split; [reflexivity|]. cbn [g_newReceiveStatus g_height g_seq]. lia.
Qed.
Lemma block_proof : forall tx q x more, 8 <= limitSize -> k_msgs x <> [] ->
  i_mproof dst (g_newReceiveStatus (k_height x) q (q + 1) (k_msgs x) :: more) (mkBls tx q (k_height x)) limitSize =
    Ok (Some (q + zlen (k_msgs x), icon_payload (BReceipt 0 [BEvent dst (q + zlen (k_msgs x)) (last (k_msgs x) [])] (k_height x)))).
Proof.
  intros tx q x more L N. set (rs := g_newReceiveStatus (k_height x) q (q + 1) (k_msgs x)).
  assert (FS : g_forSequence (rs :: more) (RxSeq (mkBls tx q (k_height x)) + 1) = Some rs) by (cbn [g_forSequence RxSeq]; change (g_seq rs) with (q + 1); replace ((q + 1 <=? q + 1) && (q + 1 <=? q + 1)) with true by lia; reflexivity).
  pose proof (C39_bridge_proof (rs :: more) (mkBls tx q (k_height x)) limitSize rs FS) as P. change (g_events rs) with (g_events_loop q (q + 1) (k_msgs x)) in P.
  destruct (all_events q (k_msgs x) (q + 1) ltac:(lia)) as (es & E & Z1 & E2). rewrite E in P. destruct (E2 N) as (es' & ->). rewrite rev_unit in P. cbn iota in P. replace (limitSize <? 8) with false in P by lia.
  unfold i_mproof. rewrite P, FS. cbn [rbind RxSeq]. rewrite Z1. change (g_height rs) with (k_height x). cbn [map event_of ev_seq ev_msg].
  replace (q + 1 + zlen (k_msgs x) - 1) with (q + zlen (k_msgs x)) by lia. reflexivity.
Qed.
Definition heights_ok (xs : list block) : Prop := Forall (fun x => k_height x <> startHeight) xs.
Lemma icon_feeds : forall tx c xs ns q h, 8 <= limitSize -> 0 <= h -> climbing h xs -> heights_ok xs -> Forall (fun x => k_msgs x <> []) xs -> noted offset q xs ns ->
  feeds grs g_height g_seq inote (i_arrive startHeight offset) (i_mproof dst) limitSize tx q h c ns (map icon_payload (last_only dst q xs)) (q + count xs) (last (map k_height xs) h) c.
Proof.
  intros tx c xs. induction xs as [|x xs IH]; intros [|n ns] q h L Hh C HO NE No; cbn [noted] in No; try contradiction.
  - change (count []) with 0. rewrite Z.add_0_r. constructor.
  - destruct No as (N1 & N2 & N3 & No). destruct C as [C1 C2]. inversion HO as [|? ? O1 O2]; subst. inversion NE as [|? ? E1 E2]; subst. cbn [last_only map]. rewrite count_cons, Z.add_assoc, last_cons.
    assert (0 < zlen (k_msgs x)) by (destruct (k_msgs x); [congruence|unfold zlen; cbn [length]; lia]).
    eapply feeds_block; [apply (block_gives tx q h c x n); try assumption; lia|apply block_proof; assumption| |].
    + cbn [g_newReceiveStatus g_seq]. lia.
    + cbn [g_newReceiveStatus g_height]. apply IH; try assumption; lia.
Qed.
End ICON.
Arguments in_turn {note}.

(** The link sends one receipt per block, with the last of the block's messages only. *)
Theorem C96_icon_last_message_only : forall startHeight offset dst TxSizeLimit limitSize rand fuel xs ns es tx q h,
  0 <= TxSizeLimit -> 8 <= limitSize -> 1 <= h -> climbing h xs -> heights_ok startHeight xs -> Forall (fun x => k_msgs x <> []) xs -> noted offset q xs ns -> in_turn ns es ->
  let k := irun startHeight offset dst TxSizeLimit limitSize rand fuel (mkBls tx q h) es in dead k = false /\ sent_by k = map icon_payload (last_only dst q xs).
Proof.
  intros startHeight offset dst TxSizeLimit limitSize rand fuel xs ns es tx q h T0 L Hh C HO NE No It. unfold irun, i_start. cbn [Height]. replace (1 <=? h) with true by lia.
  destruct (fed grs g_height g_seq inote (i_arrive startHeight offset) (i_mproof dst) TxSizeLimit limitSize rand fuel tx q h 0 ns _ _ _ _ es T0
    (icon_feeds startHeight offset dst limitSize tx 0 xs ns q h L ltac:(lia) C HO NE No) It) as (D & S & _). split; [exact D|exact S].
Qed.
Print Assumptions C96_icon_last_message_only.

(** bytes of messages and sizes, as the verifiers read them *)
Definition plain (xs : list block) : Prop := Forall (fun x => Forall bytes_ok (k_msgs x)) xs.
Lemma last_receipts : forall dst xs h q r, bytes_ok dst -> 0 <= h -> 0 <= q -> q + count xs < 2 ^ 63 -> climbing h xs -> plain xs -> Forall (fun x => k_msgs x <> []) xs -> In r (last_only dst q xs) ->
  receipt_ok r /\ br_index r = 0 /\ 0 <= br_height r /\ numbers_ok (fun n => 0 <= n < 2 ^ 63) r.
Proof.
  intros dst xs. induction xs as [|x xs IH]; intros h q r BD H0 Q0 Q1 C P NE I; [contradiction|]. rewrite count_cons in Q1. assert (0 <= count xs) by apply zlen_nonneg. pose proof (zlen_nonneg _ (k_msgs x)).
  destruct C as [C1 C2]. inversion P as [|? ? P1 P2]; subst. inversion NE as [|? ? N1 N2]; subst. destruct I as [<-|I]; [|apply (IH (k_height x) (q + zlen (k_msgs x))); try assumption; lia].
  unfold receipt_ok, numbers_ok, event_ok, fits_int. cbn [br_events br_index br_height be_next be_msg be_seq].
  assert (BL : bytes_ok (last (k_msgs x) [])).
  { clear - P1. induction P1 as [|m ms Hm P1 IH]; [constructor|]. destruct ms as [|m2 ms]; [exact Hm|]. exact IH. }
  split; [split; [constructor; [split; assumption|constructor]|split; lia]|]. split; [reflexivity|]. split; [lia|]. constructor; [cbn [be_seq]; lia|constructor].
Qed.
(** Solidity destination: what is handed over are the messages before the first block that has several; everything, if no block has. *)
Theorem C96_icon_to_solidity : forall H junk startHeight offset TxSizeLimit limitSize rand fuel xs ns es tx q h sender bmc prev B net b,
  0 <= TxSizeLimit -> 8 <= limitSize -> 1 <= h -> 0 <= q -> q + count xs < 2 ^ 63 -> climbing h xs -> heights_ok startHeight xs -> Forall (fun x => k_msgs x <> []) xs -> plain xs -> bytes_ok bmc ->
  noted offset q xs ns -> in_turn ns es -> (forall x, mem_ok (junk x)) -> s_linked sender bmc prev B net -> sb_bmc b = B -> sb_net b = net -> sb_height b <= h ->
  let k := irun startHeight offset bmc TxSizeLimit limitSize rand fuel (mkBls tx q h) es in
  Forall (fun p => zlen p < 2 ^ 63) (sent_by k) ->
  dead k = false /\ arrives (s_verify H junk sender bmc prev) b q (sent_by k) = (q + zlen (unharmed xs), unharmed xs).
Proof.
  intros H junk startHeight offset TxSizeLimit limitSize rand fuel xs ns es tx q h sender bmc prev B net b T0 L Hh Q0 Q1 C HO NE P BD No It J SL G1 G2 Hb k SZ.
  destruct (C96_icon_last_message_only startHeight offset bmc TxSizeLimit limitSize rand fuel xs ns es tx q h T0 L Hh C HO NE No It) as [D S]. fold k in D, S. split; [exact D|]. rewrite S in SZ. rewrite S. unfold arrives.
  destruct (icon_side sbridge (list Z) (s_verify H junk sender bmc prev) sb_height (s_good B net) (fun x => x) bmc xs h q b []) as (s' & E); try assumption.
  - split; assumption.
  - intros n ht m I. apply (sol_one H junk sender bmc prev B net _ 0 n m ht SL). destruct (last_receipts bmc xs h q _ BD ltac:(lia) Q0 Q1 C P NE I) as (R1 & R2 & R3 & R4).
    apply C63_icon_to_solidity; try assumption; [lia|]. rewrite Forall_forall in SZ. apply SZ. apply in_map. exact I.
  - rewrite E, map_id. reflexivity.
Qed.
Print Assumptions C96_icon_to_solidity.
Theorem C96_icon_to_java : forall addr_of startHeight offset dst TxSizeLimit limitSize rand fuel xs ns es tx q h caller bmc prev net b,
  0 <= TxSizeLimit -> 8 <= limitSize -> 1 <= h -> 0 <= q -> q + count xs < 2 ^ 63 -> climbing h xs -> heights_ok startHeight xs -> Forall (fun x => k_msgs x <> []) xs -> plain xs -> bytes_ok dst ->
  noted offset q xs ns -> in_turn ns es -> j_linked addr_of caller bmc prev net -> jb_bmc b = caller -> jb_net b = net -> jb_height b <= h ->
  let k := irun startHeight offset dst TxSizeLimit limitSize rand fuel (mkBls tx q h) es in
  Forall (fun p => zlen p < 2 ^ 63) (sent_by k) ->
  dead k = false /\ arrives (j_verify addr_of caller bmc prev) b q (sent_by k) = (q + zlen (unharmed xs), map Some (unharmed xs)).
Proof.
  intros addr_of startHeight offset dst TxSizeLimit limitSize rand fuel xs ns es tx q h caller bmc prev net b T0 L Hh Q0 Q1 C HO NE P BD No It JL G1 G2 Hb k SZ.
  destruct (C96_icon_last_message_only startHeight offset dst TxSizeLimit limitSize rand fuel xs ns es tx q h T0 L Hh C HO NE No It) as [D S]. fold k in D, S. split; [exact D|]. rewrite S in SZ. rewrite S. unfold arrives.
  destruct (icon_side jbridge (option (list Z)) (j_verify addr_of caller bmc prev) jb_height (j_good caller net) Some dst xs h q b []) as (s' & E); try assumption.
  - split; assumption.
  - intros n ht m I. apply (java_one addr_of caller bmc prev net _ 0 dst n m ht JL). destruct (last_receipts dst xs h q _ BD ltac:(lia) Q0 Q1 C P NE I) as (R1 & R2 & R3 & R4).
    apply C63_icon_to_java; try assumption; [revert R4; apply Forall_impl; intros; lia|]. rewrite Forall_forall in SZ. apply SZ. apply in_map. exact I.
  - rewrite E. reflexivity.
Qed.
Print Assumptions C96_icon_to_java.
Theorem C96_unharmed_all : forall xs, Forall (fun x => length (k_msgs x) = 1%nat) xs -> unharmed xs = messages xs.
Proof.
  induction 1 as [|x xs E F IH]; [reflexivity|]. cbn [unharmed]. unfold messages. cbn [flat_map]. fold (messages xs). destruct (k_msgs x) as [|m [|m2 ms]]; try discriminate. rewrite IH. reflexivity.
Qed.
Print Assumptions C96_unharmed_all.
(** Finding: one block with several messages, and neither those nor any later message arrive. *)
Theorem C96_icon_crowded_block_refuted : forall xs x ys, Forall (fun x => length (k_msgs x) = 1%nat) xs -> (2 <= length (k_msgs x))%nat -> unharmed (xs ++ x :: ys) = messages xs.
Proof.
  induction 1 as [|z xs E F IH]; intros L.
  - cbn [app unharmed]. destruct (k_msgs x) as [|m [|m2 ms]]; cbn [length] in L; try lia. reflexivity.
  - cbn [app unharmed]. unfold messages. cbn [flat_map]. fold (messages xs). destruct (k_msgs z) as [|m [|m2 ms]]; try discriminate. rewrite (IH L). reflexivity.
Qed.
Print Assumptions C96_icon_crowded_block_refuted.

(** Finding: a block without messages ends the process, and nothing is sent any more. *)
Theorem C96_icon_empty_block_refuted : forall startHeight offset dst TxSizeLimit limitSize rand fuel xs x ns n more es tx q h,
  0 <= TxSizeLimit -> 8 <= limitSize -> 1 <= h -> climbing h (xs ++ [x]) -> heights_ok startHeight (xs ++ [x]) -> Forall (fun x => k_msgs x <> []) xs -> k_msgs x = [] ->
  noted offset q xs ns -> noted offset (q + count xs) [x] [n] -> in_turn (ns ++ n :: more) es ->
  let k := irun startHeight offset dst TxSizeLimit limitSize rand fuel (mkBls tx q h) es in dead k = true /\ sent_by k = map icon_payload (last_only dst q xs).
Proof.
  intros startHeight offset dst TxSizeLimit limitSize rand fuel xs x ns n more es tx q h T0 L Hh C HO NE Ex No (N1 & N2 & N3 & _) It. unfold irun, i_start. cbn [Height]. replace (1 <=? h) with true by lia.
  assert (C' : climbing h xs /\ last (map k_height xs) h < k_height x).
  { clear - C. revert h C. induction xs as [|z xs IH]; intros h C; cbn [app climbing map] in *; [split; [exact I|]; cbn [last]; lia|]. destruct C as [C1 C2]. apply IH in C2 as [C2 C3]. rewrite last_cons. auto. }
  assert (HL : h <= last (map k_height xs) h). { destruct C' as [C' _]. clear - C'. revert h C'. induction xs as [|z xs IH]; intros h C; cbn [map] in *; [cbn [last]; lia|]. destruct C as [C1 C2]. apply IH in C2. rewrite last_cons. lia. }
  apply Forall_app in HO as [HO1 HO2]. inversion HO2 as [|? ? O1 _]; subst.
  destruct (fed_crash grs g_height g_seq inote (i_arrive startHeight offset) (i_mproof dst) TxSizeLimit limitSize rand fuel tx q h 0 ns _ _ _ _ es n more 0 (g_newReceiveStatus (k_height x) (q + count xs) (q + count xs + 1) (k_msgs x)) T0
    (icon_feeds startHeight offset dst limitSize tx 0 xs ns q h L ltac:(lia) (proj1 C') HO1 NE No)) as (D & S).
  - apply block_gives; try assumption. lia.
  - unfold i_mproof. rewrite Ex. rewrite C39_bridge_empty_block_refuted with (height := k_height x) (rx := q + count xs); [reflexivity|]. cbn [g_forSequence RxSeq g_newReceiveStatus g_seq g_height]. replace ((q + count xs + 1 <=? q + count xs + 1) && (q + count xs + 1 <=? q + count xs + 1)) with true by lia. reflexivity.
  - exact It.
  - split; [exact D|exact S].
Qed.
Print Assumptions C96_icon_empty_block_refuted.
(** Finding: two blocks that arrive while the link is busy end the process, whatever follows. *)
Theorem C96_icon_two_blocks_refuted : forall startHeight offset dst TxSizeLimit limitSize rand fuel x1 x2 n1 n2 more tx q h,
  0 <= TxSizeLimit -> 8 <= limitSize -> 1 <= h -> climbing h [x1; x2] -> heights_ok startHeight [x1; x2] -> k_msgs x1 <> [] -> noted offset q [x1; x2] [n1; n2] ->
  let k := irun startHeight offset dst TxSizeLimit limitSize rand fuel (mkBls tx q h) ([Fetch n1; Take; Fetch n2; Build] ++ more) in
  dead k = true /\ sent_by k = map icon_payload (last_only dst q [x1]).
Proof.
  intros startHeight offset dst TxSizeLimit limitSize rand fuel x1 x2 n1 n2 more tx q h T0 L Hh (C1 & C2 & _) HO NE (A1 & A2 & A3 & B1 & B2 & B3 & _). unfold irun, i_start. cbn [Height]. replace (1 <=? h) with true by lia.
  inversion HO as [|? ? O1 HO2]; subst. inversion HO2 as [|? ? O2 _]; subst. pose proof (zlen_nonneg _ (k_msgs x1)).
  assert (0 < zlen (k_msgs x1)) by (destruct (k_msgs x1); [congruence|unfold zlen; cbn [length]; lia]).
  assert (G2 : gives grs g_height g_seq inote (i_arrive startHeight offset) n2 tx q h 0 0 (g_newReceiveStatus (k_height x2) q (q + zlen (k_msgs x1) + 1) (k_msgs x2))).
  { unfold gives, i_arrive. rewrite B1, B3, decode_all, B2. replace (k_height x2 =? startHeight) with false by lia. cbn [RxSeq].
    replace (offset + 1 + (q + zlen (k_msgs x1) - offset)) with (q + zlen (k_msgs x1) + 1) by lia. split; [reflexivity|]. cbn [g_newReceiveStatus g_height g_seq]. lia. }
  destruct (fed_together grs g_height g_seq inote (i_arrive startHeight offset) (i_mproof dst) TxSizeLimit limitSize rand fuel tx q h 0 [] [] q h 0 n1 n2 0 (g_newReceiveStatus (k_height x1) q (q + 1) (k_msgs x1)) 0 (g_newReceiveStatus (k_height x2) q (q + zlen (k_msgs x1) + 1) (k_msgs x2))
    (q + zlen (k_msgs x1)) (icon_payload (BReceipt 0 [BEvent dst (q + zlen (k_msgs x1)) (last (k_msgs x1) [])] (k_height x1))) [] more T0) as (D & S); try assumption.
  - constructor.
  - split; [reflexivity|]. intros [].
  - apply block_gives; try assumption. lia.
  - apply (block_proof dst limitSize tx q x1 [_] L NE).
  - cbn [g_newReceiveStatus g_seq]. lia.
  - split; [exact D|exact S].
Qed.
Print Assumptions C96_icon_two_blocks_refuted.
(** Finding: a relay that is started again is told of the last block again (it asks for the verifier's height, not the next), and
    the link then turns in a loop without pause: no number of rounds brings it out. *)
Theorem C96_icon_restart_refuted : forall startHeight offset dst TxSizeLimit limitSize rand fuel x n tx q h,
  1 <= h -> k_height x = h -> h <> startHeight -> k_msgs x <> [] -> noted offset (q - zlen (k_msgs x)) [x] [n] ->
  let k := irun startHeight offset dst TxSizeLimit limitSize rand fuel (mkBls tx q h) [Fetch n; Take; Build] in l_receiver k = Spinning /\ sent_by k = [].
Proof.
  intros startHeight offset dst TxSizeLimit limitSize rand fuel x n tx q h Hh Eh Hs NE (N1 & N2 & N3 & _). unfold irun, i_start. cbn [Height]. replace (1 <=? h) with true by lia.
  assert (0 < zlen (k_msgs x)) by (destruct (k_msgs x); [congruence|unfold zlen; cbn [length]; lia]).
  set (r := g_newReceiveStatus h q (q - zlen (k_msgs x) + 1) (k_msgs x)).
  assert (AR : i_arrive startHeight offset n (mkBls tx q h) 0 = Ok (Some (0, r))).
  { unfold i_arrive. rewrite N1, N3, decode_all, N2, Eh. replace (h =? startHeight) with false by lia. cbn [RxSeq]. replace (offset + 1 + (q - zlen (k_msgs x) - offset)) with (q - zlen (k_msgs x) + 1) by lia. reflexivity. }
  unfold brun. cbn [fold_left bstep]. unfold fetch. cbn [bstart b_follows b_link b_waiting b_count]. change (dead (NewLink (mkBls tx q h))) with false. cbn [negb orb].
  change (getb (l_st (NewLink (mkBls tx q h))) (l_ptr (NewLink (mkBls tx q h)))) with (mkBls tx q h). rewrite AR. cbn [bstart b_rss b_taken b_follows b_link app]. unfold take. cbn [b_taken b_waiting b_follows b_link b_rss b_count].
  destruct (again_spins grs g_height g_seq (i_mproof dst) TxSizeLimit limitSize rand fuel tx q h 0 r) as [S1 S2]; try reflexivity; try lia.
  - unfold r. cbn [g_newReceiveStatus g_seq]. lia.
  - intros l [-> | ->]; unfold i_mproof, g_BuildMessageProof; cbn [g_forSequence RxSeq]; [|reflexivity]. unfold r. cbn [g_newReceiveStatus g_seq].
    replace ((q + 1 <=? q - zlen (k_msgs x) + 1) && (q - zlen (k_msgs x) + 1 <=? q + 1)) with false by lia. reflexivity.
  - split; [exact S1|]. unfold sent_by. rewrite S2. reflexivity.
Qed.
Print Assumptions C96_icon_restart_refuted.

(** ** The EVM receiver *)
Section ETH.
Variable enum : list (Z * rp) -> list (Z * rp).
Hypothesis EN : forall m, Permutation (enum m) m.
Variables (dst : list Z) (TxSizeLimit limitSize : Z) (rand : nat -> Z) (fuel : nat).
Definition erun (b : bls) (es : list (M_Brl.bevent (Z * list elog))) : lk :=
  b_link (brun ers e_height e_seq (Z * list elog) (e_arrive enum dst) (e_mproof dst) TxSizeLimit limitSize rand (S (S fuel)) (e_start b) es).

Lemma mine_other : forall g n nx m, lg_event g = Some (n, nx, m) -> mine dst g = if bytes_eqb nx dst then [(n, m)] else [].
Proof. intros g n nx m E. unfold mine. rewrite E. destruct (list_eq_dec Z.eq_dec nx dst) as [->|N]; [rewrite bytes_eqb_refl; reflexivity|]. destruct (bytes_eqb nx dst) eqn:X; [apply bytes_eqb_eq in X; contradiction|reflexivity]. Qed.
Lemma collect_none : forall h q logs M, Forall (fun g => lg_event g <> None /\ lg_block g = h /\ 0 <= lg_tx g < 2 ^ 31) logs -> flat_map (mine dst) logs = [] -> e_collect dst q logs M = Ok M.
Proof using.
  intros h q logs M F. revert M. induction F as [|g logs (F1 & F2 & F3) F IH]; intros M E; [reflexivity|]. cbn [flat_map] in E. apply app_eq_nil in E as [E1 E2]. cbn [e_collect].
  destruct (lg_event g) as [[[n nx] m]|] eqn:Eg; [|congruence]. rewrite (mine_other g n nx m Eg) in E1. destruct (bytes_eqb nx dst); [discriminate|]. cbn [negb]. destruct (_ <=? _); apply IH; exact E2.
Qed.
Lemma collect_one : forall h q logs m, 0 <= q < 2 ^ 63 - 1 -> Forall (fun g => lg_event g <> None /\ lg_block g = h /\ 0 <= lg_tx g < 2 ^ 31) logs -> flat_map (mine dst) logs = [(q + 1, m)] ->
  exists tx, 0 <= tx < 2 ^ 31 /\ e_collect dst q logs [] = Ok [(tx, mkRp tx h [mkEvt (q + 1) m])].
Proof using.
  intros h q logs m Q F. induction F as [|g logs (F1 & F2 & F3) F IH]; intros E; [discriminate|]. cbn [flat_map] in E. cbn [e_collect].
  destruct (lg_event g) as [[[n nx] m']|] eqn:Eg; [|congruence]. rewrite (mine_other g n nx m' Eg) in E. destruct (bytes_eqb nx dst); cbn [negb app] in *.
  - injection E as -> -> E. rewrite i64_small by lia. replace (q + 1 <=? q) with false by lia. exists (lg_tx g). split; [exact F3|]. cbn [map_add]. rewrite F2. apply (collect_none h); assumption.
  - destruct (_ <=? _); apply IH; exact E.
Qed.
Lemma one_gives : forall tx q h x n m, 0 <= q < 2 ^ 63 - 1 -> 0 <= h < k_height x -> fst n = k_height x -> Forall (fun g => lg_event g <> None /\ lg_block g = k_height x /\ 0 <= lg_tx g < 2 ^ 31) (snd n) ->
  flat_map (mine dst) (snd n) = [(q + 1, m)] ->
  exists t, 0 <= t < 2 ^ 31 /\ gives ers e_height e_seq (Z * list elog) (e_arrive enum dst) n tx q h q (q + 1) (mkErs (k_height x) (q + 1) [mkRp t (k_height x) [mkEvt (q + 1) m]]).
Proof using EN.
  intros tx q h x n m Q Hh E1 F E2. destruct (collect_one _ _ _ _ Q F E2) as (t & T & C). exists t. split; [exact T|]. split; [|cbn [e_height e_seq]; lia].
  unfold e_arrive, e_onBlock. rewrite C. cbn [rbind]. assert (X : enum [(t, mkRp t (k_height x) [mkEvt (q + 1) m])] = [(t, mkRp t (k_height x) [mkEvt (q + 1) m])]) by (apply Permutation_length_1_inv; apply Permutation_sym; apply EN).
  rewrite X. cbn [map snd]. change (sort_by rp_ltb [mkRp t (k_height x) [mkEvt (q + 1) m]]) with [mkRp t (k_height x) [mkEvt (q + 1) m]].
  cbn [zlen length Z.of_nat Pos.of_succ_nat Z.sub Z.add Z.opp Z.pos_sub at_ Z.ltb Z.compare Z.to_nat nth_error rbind rp_events ev_seq fst snd app]. rewrite i64_small by lia. rewrite E1. reflexivity.
Qed.
Lemma one_proof : forall tx q x t m more, 8 <= limitSize -> 0 <= q ->
  exists p, e_mproof dst (mkErs (k_height x) (q + 1) [mkRp t (k_height x) [mkEvt (q + 1) m]] :: more) (mkBls tx q (k_height x)) limitSize = Ok (Some (q + 1, p)) /\
    eth_payload [BReceipt t [BEvent dst (q + 1) m] (k_height x)] = Some p.
Proof using.
  intros tx q x t m more L Q. unfold e_mproof. erewrite C39_eth_single by (try exact L; cbn [e_forSequence RxSeq e_seq]; replace ((q + 1 <=? q + 1) && (q + 1 <=? q + 1)) with true by lia; reflexivity).
  cbn [rbind RxSeq map]. unfold receipt_of, event_of. cbn [rp_index rp_events rp_height map ev_seq ev_msg].
  unfold eth_payload, eth_receipts, eth_events. cbn [br_events forallb be_seq]. replace (0 <=? q + 1) with true by lia. cbn [andb]. eexists. split; reflexivity.
Qed.
Lemma eth_feeds : forall tx xs ns q h h', 8 <= limitSize -> 0 <= h' <= h -> 0 <= q -> q + count xs < 2 ^ 63 -> climbing h xs -> Forall (fun x => (length (k_msgs x) <= 1)%nat) xs -> logged dst q xs ns ->
  exists ps h2, feeds ers e_height e_seq (Z * list elog) (e_arrive enum dst) (e_mproof dst) limitSize tx q h' q ns ps (q + count xs) h2 (q + count xs) /\ eth_sent dst q xs ps /\ 0 <= h2 <= last (map k_height xs) h.
Proof using EN.
  intros tx xs. induction xs as [|x xs IH]; intros [|n ns] q h h' L Hh Q0 Q1 C NE No; cbn [logged] in No; try contradiction.
  - exists [], h'. change (count []) with 0. rewrite Z.add_0_r. split; [constructor|]. split; [constructor|]. cbn [map last]. lia.
  - destruct No as (N1 & N2 & N3 & N4 & No). destruct C as [C1 C2]. inversion NE as [|? ? E1 E2]; subst. rewrite count_cons in *. assert (C0 : 0 <= count xs) by apply zlen_nonneg. cbn [map]. rewrite last_cons.
    destruct (k_msgs x) as [|m [|m2 ms]] eqn:Ek; cbn [length] in E1; [| |lia].
    + change (zlen (@nil (list Z))) with 0 in *. cbn [Z.add] in *. rewrite Z.add_0_r in No. destruct (IH ns q (k_height x) h' L ltac:(lia) Q0 Q1 C2 E2 No) as (ps & h2 & F & S & HB).
      exists ps, h2. split; [|split; [apply eth_skip; assumption|exact HB]]. apply feeds_skip; [|exact F]. left. unfold e_arrive, e_onBlock. rewrite (collect_none (k_height x)) by assumption. reflexivity.
    + change (zlen [m]) with 1 in *. cbn [numbered] in N4. destruct (one_gives tx q h' x n m ltac:(lia) ltac:(lia) N1 N2 N4) as (t & T & G).
      destruct (one_proof tx q x t m [] L Q0) as (p & P1 & P2).
      destruct (IH ns (q + 1) (k_height x) (k_height x) L ltac:(lia) ltac:(lia) ltac:(lia) C2 E2 No) as (ps & h2 & F & S & HB). rewrite <- Z.add_assoc in F.
      exists (p :: ps), h2. split; [|split; [eapply eth_one; eassumption|exact HB]]. eapply feeds_block; [exact G|exact P1|cbn [e_seq]; lia|exact F].
Qed.
(** With at most one message per block, the link sends one receipt for each. *)
Lemma eth_sends : forall xs ns es tx q h, 0 <= TxSizeLimit -> 8 <= limitSize -> 0 <= h -> 0 <= q -> q + count xs < 2 ^ 63 -> climbing h xs -> Forall (fun x => (length (k_msgs x) <= 1)%nat) xs -> logged dst q xs ns -> in_turn ns es ->
  let k := erun (mkBls tx q h) es in dead k = false /\ eth_sent dst q xs (sent_by k).
Proof using EN.
  intros xs ns es tx q h T0 L Hh Q0 Q1 C NE No It. destruct (eth_feeds tx xs ns q h h L ltac:(lia) Q0 Q1 C NE No) as (ps & h2 & F & S & _).
  destruct (fed ers e_height e_seq (Z * list elog) (e_arrive enum dst) (e_mproof dst) TxSizeLimit limitSize rand fuel tx q h q ns ps _ _ _ es T0 F It) as (D & E & _). split; [exact D|]. unfold sent_by, erun, e_start. cbn [RxSeq]. unfold go in E. rewrite E. exact S.
Qed.
End ETH.

Lemma eth_receipt_ok : forall dst x m t n, bytes_ok dst -> Forall bytes_ok (k_msgs x) -> k_msgs x = [m] -> 0 <= t < 2 ^ 31 -> 0 <= k_height x < 2 ^ 63 -> Forall receipt_ok [BReceipt t [BEvent dst n m] (k_height x)].
Proof.
  intros dst x m t n BD P E T Hh. rewrite E in P. inversion P; subst. constructor; [|constructor]. split; [constructor; [split; assumption|constructor]|]. unfold fits_int. cbn [br_index br_height]. lia.
Qed.
Lemma climb_in : forall xs h x, climbing h xs -> In x xs -> h < k_height x < 2 ^ 63.
Proof. induction xs as [|y xs IH]; intros h x C I; [contradiction|]. destruct C as [C1 C2]. destruct I as [->|I]; [exact C1|]. apply (IH _ _ C2) in I. lia. Qed.

(** Solidity destination: with at most one message per block, all of them arrive, in order and once. *)
Theorem C96_eth_to_solidity : forall H junk enum TxSizeLimit limitSize rand fuel xs ns es tx q h sender bmc prev B net b, (forall m, Permutation (enum m) m) ->
  0 <= TxSizeLimit -> 8 <= limitSize -> 0 <= h -> 0 <= q -> q + count xs < 2 ^ 63 -> climbing h xs -> Forall (fun x => (length (k_msgs x) <= 1)%nat) xs -> plain xs -> bytes_ok bmc ->
  logged bmc q xs ns -> in_turn ns es -> (forall x, mem_ok (junk x)) -> s_linked sender bmc prev B net -> sb_bmc b = B -> sb_net b = net -> sb_height b <= h ->
  let k := erun enum bmc TxSizeLimit limitSize rand fuel (mkBls tx q h) es in
  Forall (fun p => zlen p < 2 ^ 63) (sent_by k) ->
  dead k = false /\ arrives (s_verify H junk sender bmc prev) b q (sent_by k) = (q + count xs, messages xs).
Proof.
  intros H junk enum TxSizeLimit limitSize rand fuel xs ns es tx q h sender bmc prev B net b EN T0 L Hh Q0 Q1 C NE P BD No It J SL G1 G2 Hb k SZ.
  destruct (eth_sends enum EN bmc TxSizeLimit limitSize rand fuel xs ns es tx q h T0 L Hh Q0 Q1 C NE No It) as [D S]. fold k in D, S. split; [exact D|]. unfold arrives.
  destruct (eth_side sbridge (list Z) (s_verify H junk sender bmc prev) sb_height (s_good B net) (fun x => x) (fun n => n) bmc q xs (sent_by k) S h b [] (2 ^ 63)) as (s' & E); try assumption; try lia.
  - split; assumption.
  - intros x m t n p I1 I2 Hn Ek Ht Ep. pose proof (climb_in _ _ _ C I1) as HC. unfold plain in P. rewrite Forall_forall in SZ, P.
    apply (sol_one H junk sender bmc prev B net p t n m (k_height x) SL).
    apply (C63_eth_to_solidity junk [BReceipt t [BEvent bmc n m] (k_height x)] p J); try assumption; [| | |apply SZ; assumption].
    + apply eth_receipt_ok; try assumption; [apply P; assumption|lia].
    + constructor; [cbn [br_index br_height]; lia|constructor].
    + constructor; [|constructor]. constructor; [cbn [be_seq]; lia|constructor].
  - rewrite E, map_id. reflexivity.
Qed.
Print Assumptions C96_eth_to_solidity.
(** Finding: to a Java destination only the first 127 messages of the link arrive. *)
Theorem C96_eth_to_java_refuted : forall addr_of enum dst TxSizeLimit limitSize rand fuel xs ns es tx q h caller bmc prev net b, (forall m, Permutation (enum m) m) ->
  0 <= TxSizeLimit -> 8 <= limitSize -> 0 <= h -> 0 <= q <= 127 -> q + count xs < 2 ^ 63 -> climbing h xs -> Forall (fun x => (length (k_msgs x) <= 1)%nat) xs -> plain xs -> bytes_ok dst ->
  logged dst q xs ns -> in_turn ns es -> j_linked addr_of caller bmc prev net -> jb_bmc b = caller -> jb_net b = net -> jb_height b <= h ->
  let k := erun enum dst TxSizeLimit limitSize rand fuel (mkBls tx q h) es in
  Forall (fun p => zlen p < 2 ^ 63) (sent_by k) ->
  let arrived := firstn (Z.to_nat (127 - q)) (messages xs) in
  dead k = false /\ arrives (j_verify addr_of caller bmc prev) b q (sent_by k) = (q + zlen arrived, map Some arrived).
Proof.
  intros addr_of enum dst TxSizeLimit limitSize rand fuel xs ns es tx q h caller bmc prev net b EN T0 L Hh Q0 Q1 C NE P BD No It JL G1 G2 Hb k SZ.
  destruct (eth_sends enum EN dst TxSizeLimit limitSize rand fuel xs ns es tx q h T0 L Hh ltac:(lia) Q1 C NE No It) as [D S]. fold k in D, S. split; [exact D|]. unfold arrives.
  destruct (eth_until jbridge (option (list Z)) (j_verify addr_of caller bmc prev) jb_height (j_good caller net) Some misread dst q xs (sent_by k) S h b [] 127) as (s' & E); try assumption; try lia.
  - split; assumption.
  - intros x m t n p I1 I2 Hn Ek Ht Ep. pose proof (climb_in _ _ _ C I1) as HC. unfold plain in P. rewrite Forall_forall in SZ, P.
    apply (java_one addr_of caller bmc prev net p t dst (misread n) m (k_height x) JL).
    apply (C63_eth_to_java_refuted [BReceipt t [BEvent dst n m] (k_height x)] p); try assumption; [| |apply SZ; assumption].
    + apply eth_receipt_ok; try assumption; [apply P; assumption|lia].
    + constructor; [|constructor]. constructor; [cbn [be_seq]; lia|constructor].
  - intros n Hn. apply (proj1 (C63_when_misread n ltac:(lia))). exists 1. split; [lia|]. change (2 ^ (8 * (1 - 1))) with 1. change (2 ^ (8 * 1 - 1)) with 128. lia.
  - intros n Hn. change (127 + 1) with 128. apply misread_not_128. exact Hn.
  - cbv zeta in E. rewrite E. reflexivity.
Qed.
Print Assumptions C96_eth_to_java_refuted.
Lemma onBlock_no_err : forall enum dst height logs seq l x, e_onBlock enum dst height logs seq l <> Err x.
Proof.
  intros enum dst height logs seq l x. unfold e_onBlock. assert (C : forall m y, e_collect dst seq logs m <> Err y).
  { induction logs as [|g logs IH]; intros m y; cbn [e_collect]; [discriminate|]. destruct (lg_event g) as [[[n nx] ms]|]; [|discriminate]. destruct (_ <=? _); [apply IH|]. destruct (negb _); apply IH. }
  destruct (e_collect dst seq logs []) as [m|y|] eqn:E; cbn [rbind]; try discriminate; [|exfalso; exact (C _ _ E)]. destruct m; [discriminate|].
  assert (A : forall X (q : list X) i z, at_ q i <> Err z) by (intros X q i z; unfold at_; destruct (_ <? _); [discriminate|]; destruct (nth_error _ _); discriminate).
  assert (RB : forall X Y (a : result X) (f : X -> result Y), (forall z, a <> Err z) -> (forall v z, f v <> Err z) -> forall z, rbind a f <> Err z) by (intros X Y [v|v|] f A1 A2 z; cbn [rbind]; [apply A2|exfalso; exact (A1 v eq_refl)|discriminate]).
  apply RB; [apply A|]. intros r z. apply RB; [apply A|]. intros r' z'. discriminate.
Qed.
Lemma kept_mine : forall dst q logs ms, 0 <= q -> q + zlen ms < 2 ^ 63 -> Forall (fun g => lg_event g <> None) logs -> flat_map (mine dst) logs = numbered q ms ->
  map snd (kept dst q logs) = map (fun x => mkEvt (fst x) (snd x)) (numbered q ms).
Proof.
  intros dst q logs ms Q0 Q1 F E. rewrite <- E. assert (B : forall x, In x (flat_map (mine dst) logs) -> q < fst x < 2 ^ 63).
  { rewrite E. clear E. revert q Q0 Q1. induction ms as [|m ms IH]; intros q Q0 Q1 x I; [contradiction|]. unfold zlen in Q1. cbn [length] in Q1. cbn [numbered] in I. destruct I as [<-|I]; [cbn [fst]; lia|]. apply (IH (q + 1)) in I; unfold zlen; lia. }
  clear E. unfold kept. induction F as [|g logs Hg F IH]; [reflexivity|]. cbn [flat_map] in *. rewrite !map_app, IH by (intros x I; apply B; apply in_or_app; right; exact I). f_equal.
  unfold relevant, mine in *. destruct (lg_event g) as [[[n nx] m]|]; [|reflexivity]. destruct (list_eq_dec Z.eq_dec nx dst) as [->|N].
  - specialize (B (n, m) ltac:(left; reflexivity)). cbn [fst] in B. rewrite i64_small, bytes_eqb_refl by lia. replace (q <? n) with true by lia. reflexivity.
  - destruct (bytes_eqb nx dst) eqn:X; [apply bytes_eqb_eq in X; contradiction|]. rewrite andb_false_r. reflexivity.
Qed.
Lemma kept_sorted : forall dst q logs, StronglySorted Z.le (map lg_tx logs) -> StronglySorted (fun a b => fst a <= fst b) (kept dst q logs).
Proof.
  intros dst q logs. unfold kept. induction logs as [|g logs IH]; intros S; [constructor|]. cbn [map] in S. inversion S as [|? ? S1 S2]; subst. cbn [flat_map]. specialize (IH S1).
  unfold relevant at 1. destruct (lg_event g) as [[[n nx] m]|]; [|exact IH]. destruct (_ && _); [|exact IH]. cbn [app]. constructor; [exact IH|]. rewrite Forall_forall in *. intros x I. cbn [fst].
  apply in_flat_map in I as (g' & I1 & I2). unfold relevant in I2. destruct (lg_event g') as [[[n' nx'] m']|]; [|contradiction]. destruct (_ && _); [|contradiction]. destruct I2 as [<-|[]]. cbn [fst]. apply S2. apply in_map. exact I1.
Qed.
Lemma numbered_last : forall ms q, ms <> [] -> exists pre m, numbered q ms = pre ++ [(q + zlen ms, m)].
Proof.
  induction ms as [|m ms IH]; intros q N; [congruence|]. cbn [numbered]. destruct ms as [|m2 ms].
  - exists [], m. reflexivity.
  - destruct (IH (q + 1) ltac:(congruence)) as (pre & z & E). rewrite E. exists ((q + 1, m) :: pre), z. cbn [app]. do 4 f_equal. unfold zlen. cbn [length]. lia.
Qed.
(** Finding: two messages for the destination in one block end the process. *)
Theorem C96_eth_two_messages_refuted : forall enum dst TxSizeLimit limitSize rand fuel xs x ns n more es tx q h, (forall m, Permutation (enum m) m) ->
  0 <= TxSizeLimit -> 8 <= limitSize -> 0 <= h -> 0 <= q -> q + count (xs ++ [x]) < 2 ^ 63 -> climbing h (xs ++ [x]) -> Forall (fun x => (length (k_msgs x) <= 1)%nat) xs -> (2 <= length (k_msgs x))%nat ->
  logged dst q xs ns -> logged dst (q + count xs) [x] [n] -> in_turn (ns ++ n :: more) es ->
  let k := erun enum dst TxSizeLimit limitSize rand fuel (mkBls tx q h) es in dead k = true /\ eth_sent dst q xs (sent_by k).
Proof.
  intros enum dst TxSizeLimit limitSize rand fuel xs x ns n more es tx q h EN T0 L Hh Q0 Q1 C NE L2 No (N1 & N2 & N3 & N4 & _) It. unfold erun, e_start. cbn [RxSeq].
  assert (CX : count (xs ++ [x]) = count xs + zlen (k_msgs x)) by (unfold count, messages; rewrite flat_map_app, zlen_app; cbn [flat_map]; rewrite app_nil_r; reflexivity).
  assert (C0 : 0 <= count xs) by apply zlen_nonneg. pose proof (zlen_nonneg _ (k_msgs x)).
  assert (C' : climbing h xs /\ last (map k_height xs) h < k_height x).
  { clear - C. revert h C. induction xs as [|z xs IH]; intros h C; cbn [app climbing map] in *; [split; [exact I|]; cbn [last]; lia|]. destruct C as [C1 C2]. apply IH in C2 as [C2 C3]. rewrite last_cons. auto. }
  destruct (eth_feeds enum EN dst limitSize tx xs ns q h h L ltac:(lia) Q0 ltac:(lia) (proj1 C') NE No) as (ps & h2 & F & S & HB).
  set (q2 := q + count xs) in *.
  assert (KM : map snd (kept dst q2 (snd n)) = map (fun x => mkEvt (fst x) (snd x)) (numbered q2 (k_msgs x))).
  { apply kept_mine; try lia; [|exact N4]. revert N2. apply Forall_impl. intros g (G & _). exact G. }
  destruct (numbered_last (k_msgs x) q2) as (pre & m & EL); [intros E; rewrite E in L2; cbn [length] in L2; lia|]. rewrite EL, map_app in KM. cbn [map fst snd] in KM.
  assert (KE : exists pre' z, kept dst q2 (snd n) = pre' ++ [z] /\ ev_seq (snd z) = q2 + zlen (k_msgs x)).
  { destruct (exists_last (l := kept dst q2 (snd n))) as (pre' & z & E). { intros E. rewrite E in KM. destruct (map _ pre); discriminate. } exists pre', z. split; [exact E|]. rewrite E, map_app in KM. cbn [map] in KM. apply app_inj_tail in KM as [_ ->]. reflexivity. }
  destruct KE as (pre' & z & KE & EV).
  assert (AR : e_arrive enum dst n (mkBls tx q2 h2) q2 = Panic \/ exists rps, e_arrive enum dst n (mkBls tx q2 h2) q2 = Ok (Some (q2 + zlen (k_msgs x), mkErs (k_height x) (q2 + zlen (k_msgs x)) rps))).
  { unfold e_arrive. destruct (e_onBlock enum dst (fst n) (snd n) q2 []) as [[c' l']|e|] eqn:EB; [right|exfalso; exact (onBlock_no_err _ _ _ _ _ _ _ EB)|left; reflexivity].
    destruct (C40_in_order _ _ _ _ _ _ _ _ pre' z EN EB (kept_sorted _ _ _ N3) KE) as (rps & -> & _ & ->). exists rps. cbn [rbind fst snd app]. rewrite EV, i64_small by lia. rewrite N1. reflexivity. }
  assert (L2' : 2 <= zlen (k_msgs x)) by (unfold zlen; lia).
  assert (X : forall k, dead k = true /\ map rm_message (sent (l_st k)) = ps -> dead k = true /\ eth_sent dst q xs (sent_by k)) by (intros k [D E]; split; [exact D|]; unfold sent_by; rewrite E; exact S).
  apply X. destruct AR as [AR|(rps & AR)].
  - apply (fed_fetch_crash ers e_height e_seq (Z * list elog) (e_arrive enum dst) (e_mproof dst) TxSizeLimit limitSize rand fuel tx q h q ns ps q2 h2 q2 es n more T0 F AR It).
  - apply (fed_crash ers e_height e_seq (Z * list elog) (e_arrive enum dst) (e_mproof dst) TxSizeLimit limitSize rand fuel tx q h q ns ps q2 h2 q2 es n more (q2 + zlen (k_msgs x)) (mkErs (k_height x) (q2 + zlen (k_msgs x)) rps) T0 F); [split; [exact AR|cbn [e_height e_seq]; lia]| |exact It].
    unfold e_mproof. rewrite C39_eth_batch_refuted; [reflexivity|]. intros r [<-|[]]. cbn [e_seq RxSeq]. lia.
Qed.
Print Assumptions C96_eth_two_messages_refuted.
(** Finding: one log of the contract that does not unpack ends the process too. *)
Theorem C96_eth_bad_log_refuted : forall enum dst TxSizeLimit limitSize rand fuel xs ns n more pre g post es tx q h, (forall m, Permutation (enum m) m) ->
  0 <= TxSizeLimit -> 8 <= limitSize -> 0 <= h -> 0 <= q -> q + count xs < 2 ^ 63 -> climbing h xs -> Forall (fun x => (length (k_msgs x) <= 1)%nat) xs -> logged dst q xs ns ->
  snd n = pre ++ g :: post -> lg_event g = None -> Forall (fun x => lg_event x <> None) pre -> in_turn (ns ++ n :: more) es ->
  let k := erun enum dst TxSizeLimit limitSize rand fuel (mkBls tx q h) es in dead k = true /\ eth_sent dst q xs (sent_by k).
Proof.
  intros enum dst TxSizeLimit limitSize rand fuel xs ns n more pre g post es tx q h EN T0 L Hh Q0 Q1 C NE No EG G1 G2 It. unfold erun, e_start. cbn [RxSeq].
  destruct (eth_feeds enum EN dst limitSize tx xs ns q h h L ltac:(lia) Q0 Q1 C NE No) as (ps & h2 & F & S & _).
  assert (AR : e_arrive enum dst n (mkBls tx (q + count xs) h2) (q + count xs) = Panic) by (unfold e_arrive; rewrite EG, C40_bad_log_refuted by assumption; reflexivity).
  destruct (fed_fetch_crash ers e_height e_seq (Z * list elog) (e_arrive enum dst) (e_mproof dst) TxSizeLimit limitSize rand fuel tx q h q ns ps _ h2 _ es n more T0 F AR It) as [D E].
  split; [exact D|]. unfold go in E. unfold sent_by. rewrite E. exact S.
Qed.
Print Assumptions C96_eth_bad_log_refuted.

(** ** Cases *)
(** Five messages have been relayed, two of the network's messages are older than the link.  Block 14 has two messages. *)
Definition ex_xs : list block := [Block 11 [[1]]; Block 13 [[2; 2]]; Block 14 [[3]; [4]]; Block 20 [[5]]].
Definition ex_ns : list inote := [mkInote 11 6 (Some [Some [1]]); mkInote 13 9 (Some [Some [2; 2]]); mkInote 14 10 (Some [Some [3]; Some [4]]); mkInote 20 14 (Some [Some [5]])].
Definition ex_es : list (M_Brl.bevent inote) := flat_map (fun n => [Fetch n; Told (Some (mkBls 0 5 10)); Take; Build]) ex_ns.
Definition ex_bmc : list Z := str "btp://0x2.eth/0x00000000000000000000000000000000000000ff".
Example C96_ex_icon : climbing 10 ex_xs /\ noted 2 5 ex_xs ex_ns /\ in_turn ex_ns ex_es /\ heights_ok 4 ex_xs /\ plain ex_xs /\
  s_linked 255 ex_bmc (str "btp://0x1.icon/cx01") 255 (str "0x1.icon") /\ j_linked Some (str "cx01") (str "btp://0x2.icon/cx01") (str "btp://0x1.icon/cx02") (str "0x1.icon").
Proof.
  repeat apply conj; try (cbn; repeat split; lia || reflexivity).
  - intros I. cbn in I. repeat (destruct I as [I|I]; [discriminate|]). contradiction.
  - repeat constructor; cbn; lia.
  - repeat constructor; cbn; lia.
  - exists (str "0x2.eth"), (str "0x00000000000000000000000000000000000000ff"), (str "cx01"). split; [vm_compute; reflexivity|]. split; [apply L_BtpAddr.parseAddress_iff; vm_compute; reflexivity|]. split; [reflexivity|]. vm_compute. reflexivity.
  - eexists. eexists. vm_compute. repeat split.
Qed.
Example C96_ex_icon_run : let k := irun 4 2 ex_bmc 1000 500 (fun _ => 7) 3 (mkBls 0 5 10) ex_es in
  arrives (s_verify (fun x => x) (fun _ _ => 0) 255 ex_bmc (str "btp://0x1.icon/cx01")) (SBridge 255 (str "0x1.icon") 10) 5 (sent_by k) = (7, [[1]; [2; 2]]) /\
  zlen (sent_by k) = 4 /\ unharmed ex_xs = [[1]; [2; 2]].
Proof. vm_compute. repeat split. Qed.
(** The relay is started again after block 11, which is notified again; the next block arrives before the link handles it.  Message 7
    goes out, then a message without bytes, which the verifier refuses, then message 7 again. *)
Example C96_ex_restart : let k := irun 4 2 ex_bmc 1000 500 (fun _ => 7) 3 (mkBls 0 6 11) [Fetch (mkInote 11 6 (Some [Some [1]])); Take; Fetch (mkInote 13 8 (Some [Some [2; 2]])); Build; Take; Build] in
  let p := icon_payload (BReceipt 0 [BEvent ex_bmc 7 [2; 2]] 13) in sent_by k = [p; []; p] /\
  s_verify (fun x => x) (fun _ _ => 0) 255 ex_bmc (str "btp://0x1.icon/cx01") (SBridge 255 (str "0x1.icon") 11) 6 [] = None.
Proof. vm_compute. repeat split. Qed.
(** 126 messages have been relayed; blocks 11 and 13 have one each, block 12 one for somebody else. *)
Definition ex_eth : list block := [Block 11 [[1]]; Block 12 []; Block 13 [[2]]].
Definition ex_logs : list (Z * list elog) :=
  [(11, [mkElog 3 11 (Some (127, ex_bmc, [1]))]); (12, [mkElog 0 12 (Some (9, str "btp://other/x", [7]))]); (13, [mkElog 0 13 (Some (10, str "btp://other/x", [8])); mkElog 5 13 (Some (128, ex_bmc, [2]))])].
Definition ex_ees : list (M_Brl.bevent (Z * list elog)) := flat_map (fun n => [Fetch n; Take; Build]) ex_logs.
Example C96_ex_eth : climbing 10 ex_eth /\ logged ex_bmc 126 ex_eth ex_logs /\ in_turn ex_logs ex_ees /\ Forall (fun x => (length (k_msgs x) <= 1)%nat) ex_eth.
Proof.
  split; [cbn; lia|]. split; [|split; [split; [reflexivity|]|repeat constructor; cbn; lia]].
  - repeat split; try (repeat constructor; cbn; try congruence; lia); vm_compute; reflexivity.
  - intros I. cbn in I. repeat (destruct I as [I|I]; [discriminate|]). contradiction.
Qed.
Example C96_ex_eth_run : let k := erun (fun m => m) ex_bmc 1000 500 (fun _ => 7) 3 (mkBls 0 126 10) ex_ees in
  arrives (s_verify (fun x => x) (fun _ _ => 0) 255 ex_bmc (str "btp://0x1.bsc/0xab")) (SBridge 255 (str "0x1.bsc") 10) 126 (sent_by k) = (128, [[1]; [2]]) /\
  arrives (j_verify Some (str "cx01") (str "btp://0x2.icon/cx01") (str "btp://0x1.bsc/0xab")) (JBridge (str "cx01") (str "0x1.bsc") 10) 126 (sent_by k) = (127, [Some [1]]).
Proof. vm_compute. repeat split. Qed.

(** ** What the ICON receiver puts into a proof *)
(** The events of one block as they were built, in their order, each with its own number, under the height of that block. *)
Theorem C96_icon_proof : forall dst l b limit ls p, i_mproof dst l b limit = Ok (Some (ls, p)) ->
  exists evs rs, g_BuildMessageProof l b limit = Ok (Some (ls, evs)) /\ In rs l /\ g_seq rs = RxSeq b + 1 /\
    p = icon_payload (BReceipt 0 (map (fun e => BEvent dst (ev_seq e) (ev_msg e)) evs) (g_height rs)).
Proof.
  intros dst l b limit ls p E. unfold i_mproof in E. destruct (g_BuildMessageProof l b limit) as [x| |] eqn:G; cbn [rbind] in E; try discriminate.
  destruct x as [[ls' evs]|]; [|discriminate]. destruct (g_forSequence l (RxSeq b + 1)) as [rs|] eqn:F; [|discriminate].
  assert (E1 : ls' = ls) by congruence. assert (E2 : p = icon_payload (BReceipt 0 (map (event_of dst) evs) (g_height rs))) by congruence. subst ls'.
  exists evs, rs. split; [reflexivity|].
  assert (K : In rs l /\ g_seq rs = RxSeq b + 1).
  { clear - F. induction l as [|r l IH]; [discriminate|]. cbn [g_forSequence] in F. destruct ((RxSeq b + 1 <=? g_seq r) && (g_seq r <=? RxSeq b + 1)) eqn:C.
    - assert (r = rs) by congruence. subst. split; [left; reflexivity|lia].
    - destruct (IH F) as [I1 I2]. split; [right; exact I1|exact I2]. }
  destruct K as [K1 K2]. split; [exact K1|]. split; [exact K2|]. exact E2.
Qed.
Print Assumptions C96_icon_proof.
(** A notification with a message that does not decode adds nothing. *)
Theorem C96_icon_bad_message : forall startHeight offset n b count raw, in_msgs n = Some raw -> In None raw ->
  forall x, i_arrive startHeight offset n b count <> Ok (Some x).
Proof.
  intros startHeight offset n b count raw E I x. unfold i_arrive. rewrite E. destruct (in_height n =? startHeight); [discriminate|].
  assert (D : decoded raw = None).
  { clear - I. induction raw as [|[m|] raw IH]; [destruct I| |reflexivity]. cbn [decoded]. destruct I as [I|I]; [discriminate|]. rewrite (IH I). reflexivity. }
  rewrite D. discriminate.
Qed.
Print Assumptions C96_icon_bad_message.
(** Otherwise it adds a block with all its messages, in their order. *)
Theorem C96_icon_messages : forall startHeight offset n b count msgs, in_height n <> startHeight -> in_msgs n = Some (map Some msgs) ->
  exists r, i_arrive startHeight offset n b count = Ok (Some (count, r)) /\ g_height r = in_height n /\
    (RxSeq b < g_seq r -> map ev_msg (g_events r) = msgs /\ map ev_seq (g_events r) = map (fun i => g_seq r + Z.of_nat i) (seq 0 (length msgs))).
Proof.
  intros startHeight offset n b count msgs N E. unfold i_arrive. rewrite E. replace (in_height n =? startHeight) with false by (symmetry; apply Z.eqb_neq; exact N).
  assert (D : decoded (map Some msgs) = Some msgs) by (clear; induction msgs as [|m msgs IH]; [reflexivity|]; cbn [map decoded]; rewrite IH; reflexivity).
  rewrite D. eexists. split; [reflexivity|]. unfold g_newReceiveStatus. cbn [g_height g_seq g_events]. split; [reflexivity|].
  generalize (offset + 1 + Z.shiftr (in_update n) 1) as sn. clear. induction msgs as [|m msgs IH]; intros sn L; [split; reflexivity|].
  cbn [g_events_loop]. replace (RxSeq b <? sn) with true by (symmetry; apply Z.ltb_lt; exact L). cbn [map ev_msg ev_seq length seq].
  destruct (IH (sn + 1) ltac:(lia)) as [I1 I2]. rewrite I1, I2. split; [reflexivity|]. f_equal; [lia|]. rewrite <- seq_shift, map_map. apply map_ext. intros i. lia.
Qed.
Print Assumptions C96_icon_messages.
Example C96_ex_messages : i_arrive 5 0 (mkInote 6 4 (Some [Some [1]; Some [2]])) (mkBls 0 2 5) 0 = Ok (Some (0, mkGrs 6 3 [mkEvt 3 [1]; mkEvt 4 [2]])) /\
  i_arrive 5 0 (mkInote 6 4 (Some [Some [1]; None])) (mkBls 0 2 5) 0 = Err 1 /\
  i_mproof [9] [mkGrs 6 3 [mkEvt 3 [7]]] (mkBls 0 2 6) 1000 = Ok (Some (3, icon_payload (BReceipt 0 [BEvent [9] 3 [7]] 6))).
Proof. repeat split; vm_compute; reflexivity. Qed.
