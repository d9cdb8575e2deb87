(** Theorems about the ICON block verifier contract: C85. *)
From Coq Require Import String Ascii ZArith List Bool Lia Permutation.
From Coq Require Import ZifyBool.
From Verif Require Import Base GoStr L_Base M_IntConv S_IntConv L_IntConv M_Rlp S_Rlp L_Rlp M_JBmv S_JBmv M_Wire S_Wire L_Wire M_Misc M_BtpAddr M_JMsg M_JMta S_Mta L_JMta2 T_JMta M_JMpt S_JMpt L_JMpt T_JMpt M_JIcon M_JIbmv S_JIbmv L_JIbmv.
Import ListNotations.
Open Scope Z_scope.

(** ** Blocks *)
(** The updates accepted are exactly the chains of blocks certified by more than two thirds of the validators named before. *)
Theorem C85_updates_exact : forall H recover mta vals us mta' vals' vh',
  verifyBlockUpdates H recover (mta, vals, H (validator_list vals)) us = Ok (mta', vals', vh') <->
  exists us' bs, us = map Some us' /\ chain H recover (j_height mta) vals us' bs vals' /\ mta_adds H mta bs = Some mta' /\ vh' = H (validator_list vals').
Proof. intros. apply verifyBlockUpdates_iff. Qed.
Print Assumptions C85_updates_exact.
Theorem C85_quorums_share_voters : forall H recover vals height b b' vs vs',
  quorum H recover vals height b vs -> quorum H recover vals height b' vs' -> double_voters H recover vals height b b'.
Proof. exact quorums_meet. Qed.
Print Assumptions C85_quorums_share_voters.
(** Two chains from the same start agree as far as both reach, unless more than a third of the validators in charge voted for two
    blocks of one height, or the hash function has a collision. *)
Theorem C85_no_fork : forall H recover us us' h vals bs bs' v v', proper_vals vals -> Forall proper us -> Forall proper us' ->
  chain H recover h vals us bs v -> chain H recover h vals us' bs' v' ->
  begins bs bs' \/ begins bs' bs \/ collision H \/
  exists n us0 bs0 vals0 b b', (n < length us)%nat /\ (n < length us')%nat /\ us0 = firstn n us /\ bs0 = firstn n bs /\ bs0 = firstn n bs' /\ chain H recover h vals us0 bs0 vals0 /\
    nth_error bs n = Some b /\ nth_error bs' n = Some b' /\ b <> b' /\ double_voters H recover vals0 (h + Z.of_nat n + 1) b b'.
Proof. exact no_fork. Qed.
Print Assumptions C85_no_fork.

(** ** Calls *)
Lemma hash_digest : forall H, hash_bytes H -> digest32 H.
Proof. intros H HB x. apply HB. Qed.

Section CALLS.
Context (H : list Z -> list Z) (recover : list Z -> list Z -> option (list Z)) (addr_of : list Z -> option (list Z)) (show : list Z -> list Z) (unbase64 : list Z -> option (list Z)).
Notation handleRelay := (handleRelay H recover addr_of show).

(** [p]'s accumulator is that of the blocks of a chain certified from the validators of the deployment on. *)
Definition follows (off : Z) (vals0 : list (list Z)) (us : list iupdate) (bs : list (list Z)) (p : iprops) : Prop :=
  chain H recover off vals0 us bs (ip_vals p) /\ mta_adds H (new_mta off) bs = Some (ip_mta p).

Lemma call_parts : forall p caller bmc prev seq msg p' out, handleRelay p caller bmc prev seq msg = Ok (p', out) ->
  exists cur from rm us h p1 msgs,
    j_valueOf bmc = Some cur /\ j_valueOf prev = Some from /\ ip_net p = ja_net from /\ caller = ip_bmc p /\ addr_of (ja_account cur) = Some (ip_bmc p) /\
    fromBytes readIRelay msg = Some rm /\ us = match ir_updates rm with Some us => us | None => [] end /\
    ip_bmc p1 = ip_bmc p /\ ip_net p1 = ip_net p /\ ip_last p1 = ip_last p /\
    ((us <> [] /\ verifyBlockUpdates H recover (ip_mta p, ip_vals p, H (validator_list (ip_vals p))) us = Ok (ip_mta p1, ip_vals p1, H (validator_list (ip_vals p1))) /\ obind (last us None) iu_header = Some h) \/
     (us = [] /\ p1 = p /\ exists bp, ir_proof rm = Some bp /\ verifyBlockProof H bp (ip_mta p) = Ok h)) /\
    out = fill msgs /\
    (msgs = [] \/ exists rs rps seq', ih_result h = Some rs /\ ir_receipts rm = Some rps /\ take_receipts H show (rs_receipts rs) (ja_account from) bmc rps (seq + 1) [] = Ok (seq', msgs)) /\
    p' = (if is_nil msgs then p1 else IProps (ip_bmc p1) (ip_net p1) (ih_height h) (ip_vals p1) (ip_mta p1)).
Proof.
  intros p caller bmc prev seq msg p' out E. unfold M_JIbmv.handleRelay in E.
  destruct (j_valueOf bmc) as [cur|]; cbn [of_option rbind] in E; [|discriminate]. destruct (j_valueOf prev) as [from|]; cbn [of_option rbind] in E; [|discriminate].
  unfold checkAccessible in E. destruct (bytes_eqb_spec (ip_net p) (ja_net from)) as [EN|]; cbn [negb rbind] in E; [|discriminate].
  destruct (bytes_eqb_spec caller (ip_bmc p)) as [EC|]; cbn [negb rbind] in E; [|discriminate].
  destruct (addr_of (ja_account cur)) as [a|] eqn:EAD; cbn [of_option rbind] in E; [|discriminate]. destruct (bytes_eqb_spec a (ip_bmc p)) as [->|]; cbn [negb rbind] in E; [|discriminate].
  destruct (fromBytes readIRelay msg) as [rm|]; cbn [of_option rbind] in E; [|discriminate].
  set (us := match ir_updates rm with Some us => us | None => [] end) in *.
  assert (X : exists p1 h, ip_bmc p1 = ip_bmc p /\ ip_net p1 = ip_net p /\ ip_last p1 = ip_last p /\
    ((us <> [] /\ verifyBlockUpdates H recover (ip_mta p, ip_vals p, H (validator_list (ip_vals p))) us = Ok (ip_mta p1, ip_vals p1, H (validator_list (ip_vals p1))) /\ obind (last us None) iu_header = Some h) \/
     (us = [] /\ p1 = p /\ exists bp, ir_proof rm = Some bp /\ verifyBlockProof H bp (ip_mta p) = Ok h)) /\
    rbind (if negb (is_nil (match ir_receipts rm with Some l => l | None => [] end)) then
           match ih_result h with
           | None => Err 0
           | Some rs => rbind (take_receipts H show (rs_receipts rs) (ja_account from) bmc (match ir_receipts rm with Some l => l | None => [] end) (seq + 1) []) (fun y => Ok (snd y))
           end
         else Ok []) (fun msgs =>
      Ok (if negb (is_nil us) || negb (is_nil (fill msgs)) then (if is_nil msgs then p1 else IProps (ip_bmc p1) (ip_net p1) (ih_height h) (ip_vals p1) (ip_mta p1)) else p, fill msgs)) = Ok (p', out)).
  { destruct (negb (is_nil us)) eqn:EU.
    - destruct (verifyBlockUpdates H recover (ip_mta p, ip_vals p, H (rlp_write (validators_item (ip_vals p)))) us) as [[[m1 v1] h1]| |] eqn:EV; cbn [rbind fst snd] in E; try discriminate.
      destruct (obind (last us None) iu_header) as [h|] eqn:EL; cbn [of_option rbind fst snd] in E; [|discriminate].
      exists (IProps (ip_bmc p) (ip_net p) (ip_last p) v1 m1), h. cbn [ip_bmc ip_net ip_last ip_vals ip_mta] in *. split; [reflexivity|]. split; [reflexivity|]. split; [reflexivity|]. split; [|exact E].
      left. split; [destruct us; [discriminate|discriminate]|]. split; [|reflexivity]. change (rlp_write (validators_item (ip_vals p))) with (validator_list (ip_vals p)) in EV.
      pose proof EV as EV2. apply verifyBlockUpdates_iff in EV2. destruct EV2 as (_ & _ & _ & _ & _ & ->). exact EV.
    - destruct (ir_proof rm) as [bp|] eqn:EP; [|discriminate]. destruct (verifyBlockProof H bp (ip_mta p)) as [h| |] eqn:EV; cbn [rbind fst snd] in E; try discriminate.
      exists p, h. split; [reflexivity|]. split; [reflexivity|]. split; [reflexivity|]. split; [|exact E]. right. split; [destruct us; [reflexivity|discriminate]|]. split; [reflexivity|]. exists bp. auto. }
  clear E. destruct X as (p1 & h & B1 & B2 & B3 & D & E).
  assert (Y : exists msgs, (msgs = [] \/ exists rs rps seq', ih_result h = Some rs /\ ir_receipts rm = Some rps /\ take_receipts H show (rs_receipts rs) (ja_account from) bmc rps (seq + 1) [] = Ok (seq', msgs)) /\
    (if negb (is_nil us) || negb (is_nil (fill msgs)) then (if is_nil msgs then p1 else IProps (ip_bmc p1) (ip_net p1) (ih_height h) (ip_vals p1) (ip_mta p1)) else p) = p' /\ fill msgs = out).
  { destruct (ir_receipts rm) as [rps|]; [|cbn [is_nil negb rbind] in E; injection E as E1 E2; exists []; auto].
    destruct (negb (is_nil rps)); [|cbn [rbind] in E; injection E as E1 E2; exists []; auto].
    destruct (ih_result h) as [rs|]; [|discriminate]. destruct (take_receipts H show (rs_receipts rs) (ja_account from) bmc rps (seq + 1) []) as [[s ms]| |] eqn:ET; cbn [rbind snd] in E; try discriminate.
    injection E as E1 E2. exists ms. split; [right; exists rs, rps, s; auto|]. auto. }
  destruct Y as (msgs & M & E1 & E2). exists cur, from, rm, us, h, p1, msgs. split; [reflexivity|]. split; [reflexivity|]. split; [assumption|]. split; [assumption|]. split; [assumption|].
  split; [reflexivity|]. split; [reflexivity|]. split; [assumption|]. split; [assumption|]. split; [assumption|]. split; [assumption|]. split; [congruence|]. split; [assumption|].
  rewrite <- E1. destruct msgs as [|m msgs].
  - cbn [fill rev is_nil negb]. destruct D as [(N & _)|(-> & -> & _)]; [|reflexivity]. destruct us; [congruence|reflexivity].
  - cbn [is_nil]. replace (is_nil (fill (m :: msgs))) with false; [rewrite orb_true_r; reflexivity|]. unfold fill. cbn [rev]. destruct (rev msgs ++ [m]) eqn:ER; [destruct (rev msgs); discriminate|reflexivity].
Qed.
Lemma call_follows : forall off vals0 us bs p caller bmc prev seq msg p' out, follows off vals0 us bs p -> handleRelay p caller bmc prev seq msg = Ok (p', out) ->
  exists rm us2 bs2, fromBytes readIRelay msg = Some rm /\ match ir_updates rm with Some l => l | None => [] end = map Some us2 /\
    chain H recover (j_height (ip_mta p)) (ip_vals p) us2 bs2 (ip_vals p') /\ follows off vals0 (us ++ us2) (bs ++ bs2) p' /\
    ip_bmc p' = ip_bmc p /\ ip_net p' = ip_net p.
Proof.
  intros off vals0 us bs p caller bmc prev seq msg p' out (C & A) E. apply call_parts in E.
  destruct E as (cur & from & rm & us2 & h & p1 & msgs & _ & _ & _ & _ & _ & ER & EU & B1 & B2 & B3 & D & _ & _ & EP). exists rm.
  assert (Q : ip_vals p' = ip_vals p1 /\ ip_mta p' = ip_mta p1 /\ ip_bmc p' = ip_bmc p1 /\ ip_net p' = ip_net p1) by (subst p'; destruct (is_nil msgs); auto).
  destruct Q as (Q1 & Q2 & Q3 & Q4). assert (HH : j_height (ip_mta p) = off + zlen us).
  { apply mta_adds_height in A. cbn [new_mta j_height] in A. rewrite A. f_equal. unfold zlen. f_equal. symmetry. eapply chain_length. eassumption. }
  destruct D as [(N & EV & EL)|(-> & -> & _)].
  - apply verifyBlockUpdates_iff in EV. destruct EV as (us3 & bs3 & E3 & C3 & A3 & _). exists us3, bs3. split; [assumption|]. split; [congruence|]. rewrite Q1. split; [assumption|].
    split; [|split; congruence]. split.
    + rewrite Q1. eapply chain_app; [eassumption|]. rewrite <- HH. assumption.
    + rewrite Q2. rewrite (mta_adds_app H bs bs3 _ _ A). assumption.
  - exists [], []. split; [assumption|]. split; [rewrite <- EU; reflexivity|]. rewrite Q1. split; [constructor|]. split; [|split; congruence]. unfold follows. rewrite !app_nil_r, Q1, Q2. auto.
Qed.

(** All calls after a deployment *)
Inductive ran (p0 : iprops) : iprops -> Prop :=
| ran_0 : ran p0 p0
| ran_call : forall p caller bmc prev seq msg p' out, ran p0 p -> handleRelay p caller bmc prev seq msg = Ok (p', out) -> ran p0 p'.
Theorem C85_history : forall bmc net vs off p0 p, deploy addr_of unbase64 None bmc net vs off = Some p0 -> ran p0 p ->
  ip_bmc p = bmc /\ ip_net p = net /\ validators_of addr_of unbase64 vs = Some (ip_vals p0) /\ exists us bs, follows off (ip_vals p0) us bs p /\ j_height (ip_mta p) = off + zlen bs.
Proof.
  intros bmc net vs off p0 p ED R. unfold deploy, obind in ED. destruct (validators_of addr_of unbase64 vs) as [v0|]; [|discriminate]. injection ED as <-. cbn [ip_vals].
  induction R as [|p caller b prev seq msg p' out R IH E].
  - cbn [ip_bmc ip_net]. split; [reflexivity|]. split; [reflexivity|]. split; [reflexivity|]. exists [], []. split; [|cbn [ip_mta new_mta j_height]; change (zlen (@nil (list Z))) with 0; lia].
    split; [constructor|reflexivity].
  - destruct IH as (E1 & E2 & E3 & us & bs & F & _). destruct (call_follows _ _ _ _ _ _ _ _ _ _ _ _ F E) as (rm & us2 & bs2 & _ & _ & _ & F2 & Q1 & Q2).
    split; [congruence|]. split; [congruence|]. split; [reflexivity|]. exists (us ++ us2), (bs ++ bs2). split; [assumption|]. destruct F2 as [_ F2]. apply mta_adds_height in F2. exact F2.
Qed.
(** Two contracts deployed with the same validators at the same height know the same blocks, as far as both go. *)
Theorem C85_verifiers_agree : forall off vals0 us bs us' bs' p p', proper_vals vals0 -> Forall proper us -> Forall proper us' ->
  follows off vals0 us bs p -> follows off vals0 us' bs' p' ->
  begins bs bs' \/ begins bs' bs \/ collision H \/
  exists vals height b b', b <> b' /\ double_voters H recover vals height b b'.
Proof.
  intros off vals0 us bs us' bs' p p' PV PU PU' (C & _) (C' & _).
  destruct (no_fork H recover us us' off vals0 bs bs' _ _ PV PU PU' C C') as [X|[X|[X|(n & us0 & bs0 & v0 & b & b' & _ & _ & _ & _ & _ & _ & _ & _ & N & D)]]]; auto.
  right. right. right. exists v0, (off + Z.of_nat n + 1), b, b'. auto.
Qed.

(** Only the message center of the deployment, called by itself, for its network. *)
Theorem C85_access : forall p caller bmc prev seq msg p' out, handleRelay p caller bmc prev seq msg = Ok (p', out) ->
  caller = ip_bmc p /\ (exists cur from, j_valueOf bmc = Some cur /\ addr_of (ja_account cur) = Some (ip_bmc p) /\ j_valueOf prev = Some from /\ ja_net from = ip_net p).
Proof.
  intros p caller bmc prev seq msg p' out E. apply call_parts in E. destruct E as (cur & from & rm & us & h & p1 & msgs & E1 & E2 & E3 & E4 & E5 & _). split; [assumption|]. exists cur, from. auto.
Qed.
(** Without block updates only the height of the last messages changes, and not even that without messages. *)
Theorem C85_proof_changes_nothing : forall p caller bmc prev seq msg p' out rm, handleRelay p caller bmc prev seq msg = Ok (p', out) ->
  fromBytes readIRelay msg = Some rm -> ir_updates rm = None \/ ir_updates rm = Some [] ->
  ip_vals p' = ip_vals p /\ ip_mta p' = ip_mta p /\ (out = [] -> p' = p).
Proof.
  intros p caller bmc prev seq msg p' out rm E ER EU. apply call_parts in E.
  destruct E as (cur & from & rm' & us & h & p1 & msgs & _ & _ & _ & _ & _ & ER' & EU' & _ & _ & _ & D & EO & _ & EP). assert (rm' = rm) by congruence. subst rm'.
  assert (us = []) by (destruct EU as [X|X]; rewrite X in EU'; assumption). subst us. destruct D as [(N & _)|(_ & -> & _)]; [congruence|].
  subst p' out. destruct msgs as [|m msgs]; cbn [is_nil ip_vals ip_mta]; [auto|]. split; [reflexivity|]. split; [reflexivity|].
  intros X. exfalso. unfold fill in X. cbn [rev] in X. destruct (rev msgs ++ [m]) eqn:Y; [destruct (rev msgs)|]; discriminate.
Qed.

(** ** Which blocks a proof may be of *)
Lemma proof_known : forall off vals0 us bs p bp h, hash_bytes H -> follows off vals0 us bs p -> verifyBlockProof H bp (ip_mta p) = Ok h ->
  ib_header bp = Some h /\ (In (H (header_bytes h)) bs \/ collision H).
Proof.
  intros off vals0 us bs p bp h HB (C & A) E. pose proof (hash_digest H HB) as HD. unfold verifyBlockProof in E. destruct (ib_witness bp) as [w|]; [|discriminate].
  destruct (ib_header bp) as [h'|]; cbn [of_option rbind] in E; [|discriminate]. destruct (j_height (ip_mta p) <? ih_height h'); [discriminate|].
  assert (A' : mta_adds H (fresh off None None None) bs = Some (ip_mta p)) by exact A. pose proof (chain_32 _ _ _ _ _ _ _ HD C) as A32.
  assert (V : exists ws, mta_verify H (ip_mta p) ws (H (header_bytes h')) (ih_height h') (iw_height w) = Ok tt /\ h' = h).
  { destruct (iw_hashes w) as [ws|].
    - destruct (mta_verify H (ip_mta p) ws (H (header_bytes h')) (ih_height h') (iw_height w)) as [[]| |] eqn:EV; try discriminate. injection E as <-. eauto.
    - destruct (j_height (ip_mta p) =? iw_height w); [discriminate|]. destruct (mta_verify H (ip_mta p) [] (H (header_bytes h')) (ih_height h') (iw_height w)) as [[]| |] eqn:EV; try discriminate. injection E as <-. eauto. }
  destruct V as (ws & V & ->). split; [reflexivity|]. rewrite (C83_only_for_current_height H bs off None (ip_mta p) ws _ _ _ HD A32 A') in V.
  destruct (j_height (ip_mta p) =? iw_height w); [|destruct (j_height (ip_mta p) <? iw_height w); discriminate].
  destruct (C83_accepted_is_an_entry H bs off None None None _ ws _ _ HD A32 A' (HD _) V) as (dropped & kept & -> & _ & _ & X). cbn zeta in X. destruct X as (_ & [X|X]).
  - left. apply nth_error_In in X. apply in_app_iff. auto.
  - right. exact X.
Qed.
(** Witnesses must be for exactly the height of the contract. *)
Theorem C85_proof_height : forall off vals0 us bs p w h, hash_bytes H -> follows off vals0 us bs p -> ih_height h <= j_height (ip_mta p) ->
  (iw_height w < j_height (ip_mta p) -> verifyBlockProof H (IBlockProof (Some h) (Some w)) (ip_mta p) = Err 11) /\
  (j_height (ip_mta p) < iw_height w -> verifyBlockProof H (IBlockProof (Some h) (Some w)) (ip_mta p) = Err 6).
Proof.
  intros off vals0 us bs p w h HB (C & A) HH. pose proof (hash_digest H HB) as HD.
  assert (A' : mta_adds H (fresh off None None None) bs = Some (ip_mta p)) by exact A. pose proof (chain_32 _ _ _ _ _ _ _ HD C) as A32.
  unfold verifyBlockProof. cbn [ib_witness ib_header of_option rbind]. replace (j_height (ip_mta p) <? ih_height h) with false by lia.
  split; intros L; destruct (iw_hashes w) as [ws|]; replace (j_height (ip_mta p) =? iw_height w) with false by lia;
    rewrite (C83_only_for_current_height H bs off None (ip_mta p) _ _ _ _ HD A32 A'); replace (j_height (ip_mta p) =? iw_height w) with false by lia.
  1,2: replace (j_height (ip_mta p) <? iw_height w) with false by lia; reflexivity.
  1,2: replace (j_height (ip_mta p) <? iw_height w) with true by lia; reflexivity.
Qed.

(** ** Messages *)
Definition yields {A} (p : parser A) (P : A -> Prop) : Prop := forall s a r, p s = Some (a, r) -> P a.
Lemma y_bind : forall A B (p : parser A) (f : A -> parser B) P Q, yields p P -> (forall a, P a -> yields (f a) Q) -> yields (pbind p f) Q.
Proof. intros A B p f P Q Yp Yf s b r E. unfold pbind in E. destruct (p s) as [[a s1]|] eqn:EP; [|discriminate]. exact (Yf a (Yp _ _ _ EP) _ _ _ E). Qed.
Lemma y_any : forall A (p : parser A), yields p (fun _ => True). Proof. intros A p s a r _. exact I. Qed.
Lemma y_ret : forall A (a : A) (P : A -> Prop), P a -> yields (pret a) P. Proof. intros A a P Pa s b r E. unfold pret in E. injection E as <- _. assumption. Qed.
Lemma y_inList : forall A (p : parser A) P, yields p P -> yields (inList p) P.
Proof.
  intros A p P Y s a r E. unfold inList in E. destruct (readList s) as [body r'|r'| | |]; try discriminate.
  - destruct (p body) as [[a' x]|] eqn:EP; [|discriminate]. injection E as <- _. eauto.
  - destruct (p []) as [[a' x]|] eqn:EP; [|discriminate]. injection E as <- _. eauto.
Qed.
Lemma y_many : forall A (p : parser A) P, yields p P -> forall f, yields (many p f) (Forall P).
Proof.
  intros A p P Y. induction f as [|f IH]; intros s a r E; cbn [many] in E; (destruct s as [|c s]; [injection E as <- _; constructor|]); [discriminate|].
  destruct (p (c :: s)) as [[x s1]|] eqn:EP; [|discriminate]. destruct (many p f s1) as [[l s2]|] eqn:EM; [|discriminate]. injection E as <- _. constructor; [eapply Y; eassumption|eapply IH; eassumption].
Qed.
Lemma y_listOf : forall A (p : parser A) P, yields p P -> yields (listOf p) (Forall P).
Proof. intros A p P Y. apply y_inList. intros s a r E. eapply y_many; eassumption. Qed.
Definition opt_all {A} (P : A -> Prop) (o : option A) : Prop := match o with Some a => P a | None => True end.
Lemma y_nullableOf : forall A (p : parser A) P, yields p P -> yields (readNullableOf p) (opt_all P).
Proof.
  intros A p P Y s a r E. unfold readNullableOf in E. destruct (readList s) as [body r'|r'| | |].
  2: injection E as <- _; exact I. all: destruct (p s) as [[x s1]|] eqn:EP; [|discriminate]; injection E as <- _; cbn [opt_all]; eauto.
Qed.
Lemma y_nested : forall A (p : parser A) P, yields p P -> yields (nested p) (opt_all P).
Proof.
  intros A p P Y. unfold nested. apply (y_bind _ _ _ _ (fun _ => True)); [apply y_any|]. intros [b|] _ s a r E.
  - unfold fromBytes in E. destruct (p b) as [[x y]|] eqn:EP; [|discriminate]. injection E as <- _. cbn [opt_all]. eauto.
  - injection E as <- _. exact I.
Qed.
Lemma y_long : yields readLong index.
Proof.
  unfold readLong. apply (y_bind _ _ _ _ (fun _ => True)); [apply y_any|]. intros z _ s a r E. destruct ((- 2 ^ 63 <=? z) && (z <? 2 ^ 63)) eqn:EZ; [|discriminate]. injection E as <- _. unfold index. lia.
Qed.
Definition receipt_index (p : receiptproof) : Prop := index (mp_index (rp_main p)) /\ opt_all (Forall (opt_all (fun m => index (mp_index m)))) (rp_events p).
Lemma y_mpt : yields readMptProof (fun m => index (mp_index m)).
Proof. apply y_inList. eapply y_bind; [exact y_long|]. intros i Hi. eapply y_bind; [apply y_any|]. intros p _. apply y_ret. exact Hi. Qed.
Lemma y_receipt : yields readReceiptProof receipt_index.
Proof.
  apply y_inList. eapply y_bind; [exact y_long|]. intros i Hi. eapply y_bind; [apply y_any|]. intros p _. eapply y_bind; [apply y_nullableOf, y_listOf, y_nullableOf, y_mpt|].
  intros e He. apply y_ret. split; assumption.
Qed.
Lemma y_relay : yields readIRelay (fun rm => opt_all (Forall (opt_all receipt_index)) (ir_receipts rm)).
Proof.
  apply y_inList. eapply y_bind; [apply y_any|]. intros u _. eapply y_bind; [apply y_any|]. intros p _. eapply y_bind; [apply y_nullableOf, y_listOf, y_nested, y_receipt|].
  intros e He. apply y_ret. exact He.
Qed.

(** The receipts of the block are those of tree [t], and the event logs of each receipt those of another tree. *)
Definition indexed (emb : trie -> bool) (t : trie) : Prop := good t /\ sized H emb t /\ keyed_by_index t.
Definition logs_in_trees (emb : trie -> bool) (t : trie) : Prop :=
  forall k p b rc r, at_key t k p b -> fromBytes readReceipt b = Some rc -> rc_logsHash rc = Some r -> exists t2, indexed emb t2 /\ r = root_of H emb t2.
Lemma index_in_tree : forall emb t m b, hash_bytes H -> indexed emb t -> index (mp_index m) -> prove_index H (Some (root_of H emb t)) m = Ok b ->
  collision H \/ exists p, at_key t (bytesToNibbles (encodeKey (mp_index m))) p b.
Proof.
  intros emb t m b HB (G & S & K) Hi E. unfold prove_index in E. destruct (mp_proofs m) as [[ps|]|]; try discriminate.
  destruct (mpt_prove H (root_of H emb t) (encodeKey (mp_index m)) ps) as [d| |] eqn:EP; try discriminate. injection E as <-. exact (C84_index_exact H emb t _ ps d HB G S K Hi EP).
Qed.
Lemma receipt_in_tree : forall emb t p es, hash_bytes H -> indexed emb t -> logs_in_trees emb t -> opt_all receipt_index p ->
  proveReceiptProof H p (Some (root_of H emb t)) = Ok es -> collision H \/ Forall (occurs H emb t) es.
Proof.
  intros emb t p es HB IT LT PI E. unfold proveReceiptProof in E. destruct p as [p|]; cbn [of_option rbind] in E; [|discriminate]. cbn [opt_all] in PI. destruct PI as [P1 P2].
  destruct (prove_index H (Some (root_of H emb t)) (rp_main p)) as [b| |] eqn:E1; cbn [rbind] in E; try discriminate.
  destruct (index_in_tree _ _ _ _ HB IT P1 E1) as [|(pth & AK)]; [auto|].
  destruct (fromBytes readReceipt b) as [rc|] eqn:E2; cbn [of_option rbind] in E; [|discriminate].
  destruct (rp_events p) as [l|].
  - cbn [opt_all] in P2. destruct (rc_logsHash rc) as [r|] eqn:ER.
    + destruct (LT _ _ _ _ _ AK E2 ER) as (t2 & IT2 & ->). revert es E. induction P2 as [|m l PM P2 IH]; intros es E; cbn [prove_events] in E; [injection E as <-; right; constructor|].
      destruct m as [m|]; cbn [of_option rbind] in E; [|discriminate]. cbn [opt_all] in PM.
      destruct (prove_index H (Some (root_of H emb t2)) m) as [b2| |] eqn:E3; cbn [rbind] in E; try discriminate.
      destruct (fromBytes readEventLog b2) as [e|] eqn:E4; cbn [of_option rbind] in E; [|discriminate].
      destruct (prove_events H (Some (root_of H emb t2)) l) as [es'| |] eqn:E5; cbn [rbind] in E; try discriminate. injection E as <-.
      destruct (IH _ eq_refl) as [|F]; [auto|]. destruct (index_in_tree _ _ _ _ HB IT2 PM E3) as [|(p2 & AK2)]; [auto|]. right. constructor; [|assumption].
      exists (mp_index (rp_main p)), pth, b, rc. split; [assumption|]. split; [assumption|]. right. exists t2, (mp_index m), p2, b2. split; [apply IT2|]. auto.
    + destruct l as [|m l]; cbn [prove_events] in E; [injection E as <-; right; constructor|]. destruct m as [m|]; cbn [of_option rbind] in E; [|discriminate]. unfold prove_index in E. cbn [rbind] in E. discriminate.
  - injection E as <-. right. apply Forall_forall. intros e He. exists (mp_index (rp_main p)), pth, b, rc. auto.
Qed.

(** Accepted messages are numbered from the expected one on, and come from events of receipts of one block; that block is the last
    one of the call's updates, or one the contract already knew. *)
Theorem C85_messages : forall off vals0 us bs p caller bmc prev seq msg p' out, hash_bytes H -> follows off vals0 us bs p ->
  handleRelay p caller bmc prev seq msg = Ok (p', out) ->
  exists from rm us2 bs2 ms, j_valueOf prev = Some from /\ fromBytes readIRelay msg = Some rm /\
    match ir_updates rm with Some l => l | None => [] end = map Some us2 /\ follows off vals0 (us ++ us2) (bs ++ bs2) p' /\ out = fill ms /\
    (ms <> [] -> exists h rs, ip_last p' = ih_height h /\ ih_result h = Some rs /\
      (In (H (header_bytes h)) (bs ++ bs2) \/ collision H) /\
      (us2 <> [] -> exists u l, us2 = l ++ [u] /\ iu_header u = Some h) /\
      (forall emb t, rs_receipts rs = Some (root_of H emb t) -> indexed emb t -> logs_in_trees emb t ->
        collision H \/ exists logs, Forall (occurs H emb t) logs /\ messages show (ja_account from) bmc logs (seq + 1) ms)).
Proof.
  intros off vals0 us bs p caller bmc prev seq msg p' out HB F E.
  destruct (call_follows _ _ _ _ _ _ _ _ _ _ _ _ F E) as (rm & us2 & bs2 & ER & EU & C2 & F2 & _). apply call_parts in E.
  destruct E as (cur & from & rm' & us3 & h & p1 & msgs & _ & E2 & _ & _ & _ & ER' & EU' & _ & _ & _ & D & EO & M & EP). assert (rm' = rm) by congruence. subst rm'. rewrite EU in EU'. subst us3.
  exists from, rm, us2, bs2, msgs. split; [assumption|]. split; [assumption|]. split; [assumption|]. split; [assumption|]. split; [assumption|].
  intros NM. destruct M as [|(rs & rps & seq' & ERS & ERP & ET)]; [congruence|]. exists h, rs. split; [subst p'; destruct msgs; [congruence|reflexivity]|]. split; [assumption|].
  split; [|split].
  - destruct D as [(N & EV & EL)|(_ & _ & bp & _ & EV)].
    + left. assert (X : exists u0 l, us2 = l ++ [u0] /\ iu_header u0 = Some h).
      { destruct us2 as [|u0 us2'] using rev_ind; [exfalso; apply N; reflexivity|]. rewrite map_app in EL. cbn [map] in EL. rewrite last_last in EL. exists u0, us2'. auto. }
      destruct X as (u0 & l & -> & EH). clear - C2 EH. apply in_app_iff. right. revert C2. generalize (j_height (ip_mta p)) (ip_vals p) bs2. induction l as [|x l IH]; intros hh vv bb C; cbn [app] in C.
      * inversion C as [|? ? ? b ? ? ? ? (h' & vs & A1 & _ & _ & -> & _)]; subst. left. congruence.
      * inversion C as [|? ? ? b ? ? ? ? _ C']; subst. right. eauto.
    + destruct (proof_known _ _ _ _ _ _ _ HB F EV) as [_ [X|X]]; [left; apply in_app_iff; auto|auto].
  - intros N. destruct D as [(_ & EV & EL)|(X & _)]; [|exfalso; destruct us2; [congruence|discriminate]].
    destruct us2 as [|u0 us2'] using rev_ind; [congruence|]. exists u0, us2'. split; [reflexivity|].
    rewrite map_app in EL. cbn [map] in EL. rewrite last_last in EL. exact EL.
  - intros emb t ERT IT LT. rewrite ERT in ET. apply take_receipts_messages in ET. destruct ET as (logs & ms & FL & MS & EM). injection EM as _ EM. cbn [app] in EM. subst ms.
    assert (PI : Forall (opt_all receipt_index) rps). { unfold fromBytes in ER. destruct (readIRelay msg) as [[x y]|] eqn:EX; [|discriminate]. injection ER as ->. apply y_relay in EX. rewrite ERP in EX. exact EX. }
    assert (G : collision H \/ Forall (occurs H emb t) (concat logs)).
    { clear - FL PI HB IT LT. induction FL as [|r es rps logs E FL IH]; [right; constructor|]. inversion PI; subst. destruct IH as [|IH]; [assumption|auto|].
      destruct (receipt_in_tree emb t r es HB IT LT ltac:(assumption) E) as [|X]; [auto|]. right. cbn [concat]. apply Forall_app. auto. }
    destruct G as [|G]; [auto|]. right. exists (concat logs). auto.
Qed.
End CALLS.
Print Assumptions C85_history.
Print Assumptions C85_verifiers_agree.
Print Assumptions C85_access.
Print Assumptions C85_proof_changes_nothing.
Print Assumptions C85_proof_height.
Print Assumptions C85_messages.

(** ** Events *)
Theorem C85_events_exact : forall show account bmc es seq out,
  take_events show account bmc es seq [] = Ok out <->
  Forall (readable show account) es /\ exists ms, messages show account bmc es seq ms /\ out = (seq + zlen ms, ms).
Proof. intros. apply take_events_iff. Qed.
Print Assumptions C85_events_exact.

(** Only the last message is handed to the message center; the rest of the array is null. *)
Theorem C85_messages_lost_refuted : forall ms m, ms <> [] -> fill (ms ++ [m]) = Some m :: repeat None (length ms).
Proof. intros ms m N. unfold fill. rewrite rev_app_distr. cbn [rev app]. rewrite rev_length. reflexivity. Qed.
Print Assumptions C85_messages_lost_refuted.

(** ** A call with a block and two messages *)
Definition ex_bmc : list Z := 1 :: repeat 9 20.
Definition ex_vals : list (list Z) := [0 :: repeat 1 20; 0 :: repeat 2 20; 0 :: repeat 3 20; 0 :: repeat 4 20].
Definition ex_show (a : list Z) : list Z := str "cx09".
Definition ex_addr (s : list Z) : option (list Z) := if bytes_eqb s (str "cxbmc") then Some ex_bmc else None.
(** signatures are the digest and the address of the signer *)
Definition ex_recover (d sig : list Z) : option (list Z) := if bytes_eqb (firstn 32 sig) d then Some (skipn 32 sig) else None.
Definition ex_to : list Z := str "btp://0x2.icon/cxbmc".
Definition ex_from : list Z := str "btp://0x1.icon/cx09".
Definition ex_event (n : Z) (m : list Z) : evlog := EvLog (Some (1 :: repeat 9 20)) [str "Message(str,int,bytes)"; ex_to; BigIntToBytes n] [m].
Definition ex_rc : ireceipt := IReceipt 0 None None None None None [ex_event 8 [1; 2]; EvLog (Some ex_bmc) [str "Other()"] []; ex_event 9 [3]] None None.
Definition ex_rtree : trie := TLeaf (bytesToNibbles (encodeKey 0)) (rlp_write (receipt_item ex_rc)).
Definition ex_header : iheader := IHeader 2 101 0 None None None (Some (ex_H (validator_list ex_vals))) None None None (Some (IResult None None (Some (root_of ex_H ex_emb ex_rtree)) None)).
Definition ex_sign (a : list Z) : ivote := IVote 5 (Some (ex_H (precommit 101 0 (ex_H (header_bytes ex_header)) (Some (PartSet 1 (Some [1]))) 5) ++ a)).
Definition ex_votes : ivotes := IVotes 0 (Some (PartSet 1 (Some [1]))) (map ex_sign (firstn 3 ex_vals)).
Definition ex_update : iupdate := IUpdate_ (Some ex_header) (Some ex_votes) None.
Definition ex_update_bytes (votes : ivotes) : list Z := rlp_write (RList [RBytes (header_bytes ex_header); RBytes (rlp_write (votes_item votes)); RNull]).
Definition ex_receipt_bytes : list Z := rlp_write (RList [rint 0; RBytes (rlp_write (RList [RBytes (bytes_of ex_H ex_emb ex_rtree)])); RNull]).
Definition ex_relay (votes : ivotes) : list Z := rlp_write (RList [RList [RBytes (ex_update_bytes votes)]; RNull; RList [RBytes ex_receipt_bytes]]).
Definition ex_p0 : iprops := IProps ex_bmc (str "0x1.icon") 100 ex_vals (new_mta 100).
Definition ex_call (votes : ivotes) (caller : list Z) (seq : Z) := handleRelay ex_H ex_recover ex_addr ex_show ex_p0 caller ex_to ex_from seq (ex_relay votes).

Example C85_ex_accepted : match ex_call ex_votes ex_bmc 7 with
  | Ok (p, out) => j_height (ip_mta p) = 101 /\ ip_last p = 101 /\ ip_vals p = ex_vals /\ out = [Some [3]; None]
  | _ => False
  end.
Proof. vm_compute. repeat split. Qed.
(** two of four votes, another caller, another number *)
Example C85_ex_refused : ex_call (IVotes 0 (Some (PartSet 1 (Some [1]))) (map ex_sign (firstn 2 ex_vals))) ex_bmc 7 = Err 2 /\
  ex_call (IVotes 0 (Some (PartSet 1 (Some [1]))) (map ex_sign (firstn 2 ex_vals ++ firstn 1 ex_vals))) ex_bmc 7 = Err 2 /\
  ex_call ex_votes (1 :: repeat 8 20) 7 = Err 0 /\ ex_call ex_votes ex_bmc 6 = Err 7 /\ ex_call ex_votes ex_bmc 8 = Err 3.
Proof. vm_compute. repeat split. Qed.
Example C85_ex_follows : follows ex_H ex_recover 100 ex_vals [] [] ex_p0.
Proof. split; [constructor|reflexivity]. Qed.
Example C85_ex_tree : indexed ex_H ex_emb ex_rtree /\ logs_in_trees ex_H ex_emb ex_rtree.
Proof.
  split; [split; [|split]|].
  - unfold ex_rtree. apply g_leaf; [change (bytesToNibbles (encodeKey 0)) with [0; 0]; repeat constructor; unfold nibble; lia|]. apply rlp_write_ok; [|vm_compute; reflexivity].
    apply rlp_ok_list. repeat constructor; try (intros; discriminate); unfold is_byte; lia.
  - constructor. vm_compute. reflexivity.
  - intros k p v A. inversion A; subst. exists 0. split; [unfold index; lia|reflexivity].
  - intros k p b rc r A E ER. exfalso. assert (EB : b = rlp_write (receipt_item ex_rc)) by (inversion A; reflexivity).
    assert (X : match fromBytes readReceipt b with Some rc => rc_logsHash rc | None => None end = None) by (rewrite EB; vm_compute; reflexivity).
    rewrite E in X. congruence.
Qed.
Example C85_ex_proper : proper_vals ex_vals /\ proper ex_update.
Proof.
  assert (B : Forall bytes_ok ex_vals) by (repeat constructor; unfold is_byte; lia). split; [split; [exact B|vm_compute; reflexivity]|]. split.
  - intros h E. injection E as <-. split; [|vm_compute; reflexivity]. apply rlp_ok_list.
    do 3 (apply Forall_cons; [apply int_ok|]). do 3 (apply Forall_cons; [exact I|]). apply Forall_cons; [apply (proj1 (C84_ex_hash _))|].
    do 3 (apply Forall_cons; [exact I|]). apply Forall_cons; [|apply Forall_nil].
    apply rlp_write_ok; [|vm_compute; reflexivity]. apply rlp_ok_list. do 2 (apply Forall_cons; [exact I|]). apply Forall_cons; [apply (proj1 (C84_ex_hash _))|apply Forall_nil].
  - intros vals E. discriminate.
Qed.
Example C85_ex_chain : chain ex_H ex_recover 100 ex_vals [ex_update] [ex_H (header_bytes ex_header)] ex_vals.
Proof.
  assert (X : exists m v h, verifyBlockUpdates ex_H ex_recover (new_mta 100, ex_vals, ex_H (validator_list ex_vals)) [Some ex_update] = Ok (m, v, h) /\ v = ex_vals).
  { eexists. eexists. eexists. split; [vm_compute; reflexivity|]. reflexivity. }
  destruct X as (m & v & h & E & ->). apply C85_updates_exact in E. destruct E as (us & bs & EU & C & _). destruct us as [|u [|]]; try discriminate. injection EU as <-.
  inversion C as [|? ? ? b ? ? ? ? CE CN]; subst. inversion CN; subst. destruct CE as (hd & vs & E1 & _ & _ & -> & _). injection E1 as <-. exact C.
Qed.
Example C85_ex_messages : messages ex_show (str "cx09") ex_to (rc_logs ex_rc) 8 [[1; 2]; [3]] /\ Forall (readable ex_show (str "cx09")) (rc_logs ex_rc).
Proof.
  assert (E : take_events ex_show (str "cx09") ex_to (rc_logs ex_rc) 8 [] = Ok (10, [[1; 2]; [3]])) by (vm_compute; reflexivity).
  apply C85_events_exact in E. destruct E as (R & ms & M & E). injection E as _ E. subst ms. auto.
Qed.

(** A deployment takes over center, network and validators given; over an earlier version it keeps the accumulator, and the last height
    unless there is none; otherwise both begin at the height given. *)
Theorem C85_deployment : forall addr_of unbase64 old bmc net vals offset p, deploy addr_of unbase64 old bmc net vals offset = Some p ->
  ip_bmc p = bmc /\ ip_net p = net /\ validators_of addr_of unbase64 vals = Some (ip_vals p) /\
  match old with
  | Some q => ip_mta p = ip_mta q /\ (ip_last q <> 0 -> ip_last p = ip_last q) /\ (ip_last q = 0 -> ip_last p = offset)
  | None => j_height (ip_mta p) = offset /\ j_offset (ip_mta p) = offset /\ j_roots (ip_mta p) = [] /\ ip_last p = offset
  end.
Proof.
  intros addr_of unbase64 old bmc net vals offset p E. unfold deploy in E.
  destruct (validators_of addr_of unbase64 vals) as [vs |]; [| discriminate]. cbn [obind] in E. injection E as E. subst p.
  destruct old as [q |]; cbn [ip_bmc ip_net ip_vals ip_mta ip_last].
  - repeat split; try reflexivity; intros L; destruct (Z.eqb_spec (ip_last q) 0); congruence.
  - repeat split; reflexivity.
Qed.
Print Assumptions C85_deployment.
