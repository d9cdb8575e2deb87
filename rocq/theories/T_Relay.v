(** C73: the links of the relay and what becomes of their errors.  C74: its key stores. *)
From Coq Require Import String Ascii ZArith List Bool Lia.
From Coq Require Import ZifyBool.
From Verif Require Import Base L_Base GoStr M_Address S_Address T_Address M_Relay S_Relay.
Import ListNotations.
Open Scope Z_scope.

(** * C73 links *)
Lemma on_chain_BlockChain : forall a c, on_chain a c -> Btp_BlockChain a = c.
Proof. intros a c (p & n & x & -> & H1 & H2 & H3 & H4 & H5 & H6 & H7 & H8). apply (C07_compose_decompose p n c x H1 H2 H3 H4 H5 H6 H7 H8). Qed.
Lemma chain_cases : forall a, supported a -> (is_icon a /\ Btp_BlockChain a = str "icon") \/ (is_evm a /\ (Btp_BlockChain a = str "eth" \/ Btp_BlockChain a = str "hardhat")).
Proof. intros a [H|[H|H]]; [left|right|right]; (split; [try exact H|]); [apply on_chain_BlockChain, H|left; exact H|left; apply on_chain_BlockChain, H|right; exact H|right; apply on_chain_BlockChain, H]. Qed.

Section Links.
Context {W O : Type}.
Lemma newLink_carries : forall (a b : bcfg O) (w : W), supported (b_addr a) -> supported (b_addr b) -> exists l, newLink (Btp_BlockChain (b_addr a)) a b w = Some l /\ carries a b w l.
Proof.
  intros a b w HA HB. unfold newLink, newReceiver, newSender.
  destruct (chain_cases _ HA) as [[HIa Ea]|[HEa [Ea|Ea]]]; destruct (chain_cases _ HB) as [[HIb Eb]|[HEb [Eb|Eb]]]; rewrite Ea, Eb;
    repeat match goal with |- context [chain_is ?x ?y] => let v := eval vm_compute in (chain_is x y) in change (chain_is x y) with v end; cbn [orb]; cbv iota;
    (eexists; split; [reflexivity|]); eexists; (split; [reflexivity|]); cbn [fst snd r_kind r_src r_dst r_endpoint s_kind s_src s_dst s_endpoint s_wallet]; repeat (split; [reflexivity|]);
    split; try (destruct (b_bridge a)); tauto.
Qed.

Theorem C73_links : forall (src dst : bcfg O) (ws wd : W), supported (b_addr src) -> supported (b_addr dst) ->
  (exists l, NewLink (str "front") src dst ws wd = Waits [l] /\ carries src dst wd l) /\
  (exists l, NewLink (str "reverse") src dst ws wd = Waits [l] /\ carries dst src ws l) /\
  (exists l l', NewLink (str "both") src dst ws wd = Waits [l; l'] /\ carries src dst wd l /\ carries dst src ws l').
Proof.
  intros src dst ws wd HS HD. destruct (newLink_carries src dst wd HS HD) as (l & El & Cl). destruct (newLink_carries dst src ws HD HS) as (l' & El' & Cl').
  split; [|split]; [exists l|exists l'|exists l, l']; unfold NewLink;
    repeat match goal with |- context [bytes_eqb (str ?x) (str ?y)] => let v := eval vm_compute in (bytes_eqb (str x) (str y)) in change (bytes_eqb (str x) (str y)) with v end; cbv iota.
  - rewrite El. split; [reflexivity|exact Cl].
  - rewrite El'. split; [reflexivity|exact Cl'].
  - rewrite El, El'. split; [reflexivity|]. split; [exact Cl|exact Cl'].
Qed.

Theorem C73_nothing_else : forall d (src dst : bcfg O) (ws wd : W),
  (NewLink d src dst ws wd = BadDirection <-> d <> str "front" /\ d <> str "reverse" /\ d <> str "both") /\
  (forall c, on_chain (b_addr src) c -> c <> str "icon" -> c <> str "eth" -> c <> str "hardhat" -> d = str "front" \/ d = str "both" -> NewLink d src dst ws wd = FatalAfter []) /\
  (forall c l, on_chain (b_addr dst) c -> c <> str "icon" -> c <> str "eth" -> c <> str "hardhat" -> d = str "front" -> NewLink d src dst ws wd = Waits l -> exists r, l = [(r, None)]).
Proof.
  intros d src dst ws wd. split; [|split].
  - unfold NewLink. destruct (bytes_eqb d (str "front")) eqn:E1; [|destruct (bytes_eqb d (str "reverse")) eqn:E2; [|destruct (bytes_eqb d (str "both")) eqn:E3]].
    + apply bytes_eqb_eq in E1. split; [destruct (newLink _ _ _ _); discriminate|tauto].
    + apply bytes_eqb_eq in E2. split; [destruct (newLink _ _ _ _); discriminate|tauto].
    + apply bytes_eqb_eq in E3. split; [destruct (newLink _ _ _ _); [destruct (newLink _ _ _ _)|]; discriminate|tauto].
    + split; [intros _|reflexivity]. repeat split; intros X; apply bytes_eqb_eq in X; congruence.
  - intros c HC N1 N2 N3 HD. assert (E : newLink (Btp_BlockChain (b_addr src)) src dst wd = None).
    { apply on_chain_BlockChain in HC. unfold newLink, newReceiver, chain_is. rewrite HC. destruct (bytes_eqb c (str "icon")) eqn:E1; [apply bytes_eqb_eq in E1; contradiction|].
      destruct (bytes_eqb c (str "eth")) eqn:E2; [apply bytes_eqb_eq in E2; contradiction|]. destruct (bytes_eqb c (str "hardhat")) eqn:E3; [apply bytes_eqb_eq in E3; contradiction|]. reflexivity. }
    unfold NewLink. rewrite E. destruct HD as [-> | ->]; reflexivity.
  - intros c l HC N1 N2 N3 -> H. unfold NewLink in H. change (bytes_eqb (str "front") (str "front")) with true in H. cbv iota in H. unfold newLink in H. destruct (newReceiver _ src dst) as [r|]; [|discriminate].
    exists r. apply on_chain_BlockChain in HC. unfold newSender, chain_is in H. rewrite HC in H. destruct (bytes_eqb c (str "icon")) eqn:E1; [apply bytes_eqb_eq in E1; contradiction|].
    destruct (bytes_eqb c (str "eth")) eqn:E2; [apply bytes_eqb_eq in E2; contradiction|]. destruct (bytes_eqb c (str "hardhat")) eqn:E3; [apply bytes_eqb_eq in E3; contradiction|]. injection H as <-. reflexivity.
Qed.

(** a sender to ICON gets the options of the other side, one to an EVM chain none *)
Theorem C73_sender_options_refuted : forall (src dst : bcfg O) (ws wd : W) l r s, NewLink (str "front") src dst ws wd = Waits l -> In (r, Some s) l ->
  (is_icon (b_addr dst) -> s_opts s = b_opts src) /\ (is_evm (b_addr dst) -> s_opts s = None).
Proof.
  intros src dst ws wd l r s H HI. unfold NewLink in H. change (bytes_eqb (str "front") (str "front")) with true in H. cbv iota in H. unfold newLink in H. destruct (newReceiver _ src dst) as [r'|]; [|discriminate].
  injection H as <-. destruct HI as [HI|[]]. assert (ES : newSender (Btp_BlockChain (b_addr dst)) src dst wd = Some s) by congruence.
  split; [intros X|intros [X|X]]; apply on_chain_BlockChain in X; rewrite X in ES; unfold newSender in ES;
    repeat match type of ES with context [chain_is ?x ?y] => let v := eval vm_compute in (chain_is x y) in change (chain_is x y) with v in ES end; cbn [orb] in ES; cbv iota in ES; injection ES as <-; reflexivity.
Qed.
End Links.
Print Assumptions C73_links.
Print Assumptions C73_nothing_else.
Print Assumptions C73_sender_options_refuted.

(** * C73 errors *)
Lemma nth_upd : forall A (l : list A) i j a, nth_error (upd l i a) j = if (i =? j)%nat then match nth_error l j with Some _ => Some a | None => None end else nth_error l j.
Proof.
  induction l as [|x l IH]; intros i j a.
  - cbn [upd]. destruct j; cbn [nth_error]; destruct (i =? _)%nat; reflexivity.
  - destruct i as [|i], j as [|j]; cbn [upd nth_error Nat.eqb]; try reflexivity. apply IH.
Qed.

(** every error on its way was noted *)
Definition noted (h : list note) (e : option Z) : Prop := exists x, e = Some x /\ exists i, In (Failed i x) h.
Definition thread_ok (h : list note) (t : lthread) : Prop :=
  (forall e, t_link t = LOffer e -> noted h e) /\ (forall x, t_send t = SHand (Some x) -> exists i, In (Failed i x) h).
Definition prog_ok (p : prog) : Prop :=
  (forall i t, nth_error (g_links p) i = Some t -> thread_ok (g_notes p) t) /\
  (forall e, g_main p = MGot e -> noted (g_notes p) e) /\ (forall x, g_main p = MReturned x -> noted (g_notes p) (Some x)).
Lemma noted_more : forall h h' e, noted h e -> noted (h ++ h') e.
Proof. intros h h' e (x & -> & i & H). exists x. split; [reflexivity|]. exists i. apply in_or_app. left. exact H. Qed.
Lemma thread_more : forall h h' t, thread_ok h t -> thread_ok (h ++ h') t.
Proof. intros h h' t [H1 H2]. split; [intros e H; apply noted_more, H1, H|]. intros x H. destruct (H2 x H) as [i HI]. exists i. apply in_or_app. left. exact HI. Qed.
Lemma links_upd : forall ls h h' i t, (forall j u, nth_error ls j = Some u -> thread_ok h u) -> thread_ok (h ++ h') t ->
  forall j u, nth_error (upd ls i t) j = Some u -> thread_ok (h ++ h') u.
Proof.
  intros ls h h' i t H HT j u HU. rewrite nth_upd in HU. destruct (i =? j)%nat; [destruct (nth_error ls j); [|discriminate]; injection HU as <-; exact HT|]. apply thread_more, (H j u HU).
Qed.
Lemma step_ok : forall p q, step p q -> prog_ok p -> prog_ok q.
Proof.
  intros p q HS (HL & HG & HR). unfold prog_ok. destruct HS; cbn [g_main g_links g_notes] in *.
  - split; [|split; intros ? X; discriminate X]. intros i t H. destruct (Nat.lt_ge_cases i (length ls)) as [C|C]; [rewrite nth_error_app1 in H by exact C; apply (HL i t H)|].
    rewrite nth_error_app2 in H by exact C. destruct (i - length ls)%nat as [|k]; [|destruct k; discriminate]. cbn [nth_error] in H. injection H as <-. split; intros ? X; discriminate X.
  - split; [exact HL|]. split; intros ? X; discriminate X.
  - assert (HN : noted (h ++ [Failed i e]) (Some e)). { exists e. split; [reflexivity|]. exists i. apply in_or_app. right. left. reflexivity. }
    split; [|split; [intros x X; apply noted_more, HG, X|intros x X; apply noted_more, HR, X]]. apply (links_upd ls h [Failed i e] i _ HL). split; cbn [t_link t_send].
    + intros e' X. injection X as <-. exact HN.
    + intros x X. destruct (proj2 (HL i _ H) x X) as [j HJ]. exists j. apply in_or_app. left. exact HJ.
  - rewrite <- (app_nil_r h). split; [|split; [intros x X; apply noted_more, HG, X|intros x X; apply noted_more, HR, X]]. apply (links_upd ls h [] i _ HL). apply thread_more. split; cbn [t_link t_send]; [intros ? X; discriminate X|apply (proj2 (HL i _ H))].
  - split; [|split; [intros x X; apply noted_more, HG, X|intros x X; apply noted_more, HR, X]]. apply (links_upd ls h _ i _ HL). apply thread_more. split; cbn [t_link t_send]; [intros ? X; discriminate X|apply (proj2 (HL i _ H))].
  - split; [|split; [intros x X; apply noted_more, HG, X|intros x X; apply noted_more, HR, X]]. apply (links_upd ls h _ i _ HL). split; cbn [t_link t_send].
    + intros e' X. apply noted_more. apply (proj1 (HL i _ H) e' X).
    + intros x X. injection X as ->. exists i. apply in_or_app. right. left. reflexivity.
  - rewrite <- (app_nil_r h). split; [|split; [intros x X; apply noted_more, HG, X|intros x X; apply noted_more, HR, X]]. apply (links_upd ls h [] i _ HL). apply thread_more. split; cbn [t_link t_send]; [|intros ? X; discriminate X].
    intros e' X. destruct e as [x|]; [|discriminate X]. injection X as <-. exists x. split; [reflexivity|]. apply (proj2 (HL i _ H) x eq_refl).
  - rewrite <- (app_nil_r h). split; [|split; [intros x X; injection X as <-; apply noted_more, (proj1 (HL i _ H) e eq_refl)|intros x X; discriminate X]]. apply (links_upd ls h [] i _ HL). apply thread_more. split; cbn [t_link t_send]; [intros ? X; discriminate X|apply (proj2 (HL i _ H))].
  - split; [|split; [intros x X; apply noted_more, HG, X|intros x X; apply noted_more, HR, X]]. apply (links_upd ls h _ i _ HL). apply thread_more. split; cbn [t_link t_send]; [intros ? X; discriminate X|apply (proj2 (HL i _ H0))].
  - split; [exact HL|]. split; [intros x X; discriminate X|]. intros x X. injection X as <-. apply HG. reflexivity.
  - split; [exact HL|]. split; intros x X; discriminate X.
Qed.
Lemma runs_ok : forall n p, runs n p -> prog_ok p.
Proof.
  intros n p H. induction H as [|p q H IH HS]; [|exact (step_ok p q HS IH)]. split; [intros [|i] t X; discriminate X|]. split; intros x X; discriminate X.
Qed.
Lemma leadsto_runs : forall n p q, runs n p -> leadsto p q -> runs n q.
Proof. intros n p q HR H. induction H as [p|p q r H IH HS]; [exact HR|exact (R_step n q r (IH HR) HS)]. Qed.

(** what ends the program is an error of a link: of asking for the status, or of a relay result *)
Theorem C73_returns_failures : forall n p e, runs n p -> g_main p = MReturned e -> failed p e.
Proof. intros n p e H HM. destruct (runs_ok n p H) as (_ & _ & HR). destruct (HR e HM) as (x & E & HI). injection E as <-. exact HI. Qed.
Print Assumptions C73_returns_failures.

(** once the program waits, it loses nothing before it has an error to end with, and it ends with that one *)
Theorem C73_waiting_loses_nothing : forall n p q, runs n p -> g_main p = MWaits -> leadsto p q ->
  (g_main q = MWaits /\ (lost q -> lost p)) \/ (exists e, (g_main q = MGot (Some e) \/ g_main q = MReturned e) /\ failed q e).
Proof.
  intros n p q HR HM H. induction H as [p|p q r H IH HS]; [left; split; [exact HM|tauto]|]. specialize (IH HR HM). pose proof (leadsto_runs n p r HR (T_next p q r H HS)) as HRr. destruct (runs_ok n r HRr) as (_ & HG & HT).
  assert (good : forall e, g_main r = MGot (Some e) \/ g_main r = MReturned e -> exists e, (g_main r = MGot (Some e) \/ g_main r = MReturned e) /\ failed r e).
  { intros e [X|X]; exists e; (split; [tauto|]); [destruct (HG _ X) as (x & E & HI)|destruct (HT _ X) as (x & E & HI)]; injection E as <-; exact HI. }
  destruct IH as [[IM IL]|(e & IM & _)].
  - destruct HS; cbn [g_main g_notes] in *; subst; try discriminate.
    + left. split; [reflexivity|]. intros (j & x & X). apply IL. cbn [g_notes] in X. apply in_app_or in X as [X|[X|[]]]; [exists j, x; exact X|discriminate].
    + left. split; [reflexivity|exact IL].
    + left. split; [reflexivity|]. intros (j & x & X). apply IL. cbn [g_notes] in X. apply in_app_or in X as [X|[X|[]]]; [exists j, x; exact X|discriminate].
    + left. split; [reflexivity|]. intros (j & x & X). apply IL. cbn [g_notes] in X. apply in_app_or in X as [X|X]; [exists j, x; exact X|]. destruct e as [y|]; [destruct X as [X|[]]; discriminate|destruct X].
    + left. split; [reflexivity|exact IL].
    + right. destruct (HG e eq_refl) as (x & -> & _). apply (good x). left. reflexivity.
    + contradiction.
  - right. destruct HS; cbn [g_main] in *; try (apply (good e); exact IM); destruct IM as [IM|IM]; try discriminate IM; injection IM as <-; apply (good e0); right; reflexivity.
Qed.
Print Assumptions C73_waiting_loses_nothing.

(** an error that comes before the program waits is lost: the link has ended, and the program waits for ever *)
Theorem C73_early_error_lost_refuted : exists p e, runs 1 p /\ failed p e /\ lost p /\ g_main p = MWaits /\
  forall q, leadsto p q -> g_main q = MWaits /\ forall i t, nth_error (g_links q) i = Some t -> t_link t = LEnd.
Proof.
  set (p := mkP MWaits [mkL LEnd SWait RNot] [Failed 0 7; Lost 0 7]).
  assert (HR : runs 1 p).
  { eapply R_step; [|apply S_wait]. eapply R_step; [|apply (S_offer_dropped (MStarts 0) [mkL (LOffer (Some 7)) SWait RNot] [Failed 0 7] 0 SWait RNot (Some 7)); [discriminate|reflexivity]].
    eapply R_step; [|apply (S_status_fails (MStarts 0) [mkL LAsk SWait RNot] [] 0 SWait RNot 7); reflexivity]. eapply R_step; [apply R_start|apply (S_start 0 [] [])]. }
  exists p, 7. split; [exact HR|]. split; [exists 0%nat; left; reflexivity|]. split; [exists 0%nat, 7; right; left; reflexivity|]. split; [reflexivity|].
  assert (inv : forall q, leadsto p q -> g_main q = MWaits /\ forall i t, nth_error (g_links q) i = Some t -> t_link t = LEnd); [|exact inv].
  intros q H. remember p as p0 eqn:EP. induction H as [p1|p1 q r H IH HS].
  - subst p1. split; [reflexivity|]. intros [|[|i]] t X; cbn in X; [injection X as <-; reflexivity|discriminate|discriminate].
  - destruct (IH EP HR) as [IM IL]. destruct HS; cbn [g_main g_links] in *; try discriminate; try (specialize (IL _ _ H0); discriminate IL); try (specialize (IL _ _ H1); discriminate IL).
    split; [assumption || reflexivity|]. intros j t X. rewrite nth_upd in X. destruct (i =? j)%nat eqn:E; [|apply (IL j t X)]. apply Nat.eqb_eq in E. subst j. rewrite H0 in X. injection X as <-. cbn [t_link]. apply (IL i _ H0).
Qed.
Print Assumptions C73_early_error_lost_refuted.

(** a receiver that cannot start is noticed by nobody: the program waits, and only a relay result could move anything *)
Theorem C73_receiver_error_lost_refuted : exists p e, runs 1 p /\ In (NoReceiver 0 e) (g_notes p) /\ g_main p = MWaits /\
  forall q, step p q -> g_main q = MWaits /\ exists x, g_links q = [mkL LWait (SHand x) RBlocked].
Proof.
  exists (mkP MWaits [mkL LWait SWait RBlocked] [NoReceiver 0 7]), 7. split.
  { eapply R_step; [|apply S_wait]. eapply R_step; [|apply (S_receiver_fails (MStarts 0) [mkL LAsk SWait RNot] [] 0 SWait RNot 7); reflexivity]. eapply R_step; [apply R_start|apply (S_start 0 [] [])]. }
  split; [left; reflexivity|]. split; [reflexivity|]. intros q H. inversion H; subst; try discriminate;
    match goal with X : nth_error [_] ?i = Some _ |- _ => destruct i as [|[|i]]; cbn in X; try discriminate X; injection X as <- <- || injection X as <- end; cbn [g_main g_links upd]; split; try reflexivity; try discriminate; eexists; reflexivity.
Qed.
Print Assumptions C73_receiver_error_lost_refuted.

Example C73_ex : let a := mkB (O := Z) (str "btp://0x1.icon/cx01") (str "http://a") true (Some 1) in let b := mkB (str "btp://0x2.eth/0x02") (str "http://b") false (Some 2) in
  supported (b_addr a) /\ supported (b_addr b) /\
  NewLink (str "both") a b 10 20 = Waits [(mkR RBridge (b_addr a) (b_addr b) (str "http://a"), Some (mkS SEth (b_addr a) (b_addr b) 20 (str "http://b") None));
                                          (mkR REth (b_addr b) (b_addr a) (str "http://b"), Some (mkS SIcon (b_addr b) (b_addr a) 10 (str "http://a") (Some 2)))].
Proof.
  assert (F : forall c s, existsb (Z.eqb c) s = false -> free_of c s). { intros c s E X. assert (existsb (Z.eqb c) s = true); [apply existsb_exists; exists c; split; [exact X|apply Z.eqb_refl]|congruence]. }
  cbv zeta. split; [|split; [|vm_compute; reflexivity]].
  - left. exists (str "btp"), (str "0x1"), (str "cx01"). split; [reflexivity|]. split; [discriminate|]. repeat split; apply F; vm_compute; reflexivity.
  - right. left. exists (str "btp"), (str "0x2"), (str "0x02"). split; [reflexivity|]. split; [discriminate|]. repeat split; apply F; vm_compute; reflexivity.
Qed.
(** two links; the second fails while the program waits; the program ends with its error *)
Example C73_ex_error : exists p q, runs 2 p /\ g_main p = MWaits /\ leadsto p q /\ g_main q = MReturned 5 /\ failed q 5.
Proof.
  set (p := mkP MWaits [mkL LAsk SWait RNot; mkL LAsk SWait RNot] []). exists p. exists (mkP (MReturned 5) [mkL LAsk SWait RNot; mkL LEnd SWait RReads] [Failed 1 5]).
  split; [eapply R_step; [eapply R_step; [eapply R_step; [apply R_start|apply S_start]|apply S_start]|apply S_wait]|]. split; [reflexivity|]. split; [|split; [reflexivity|exists 1%nat; left; reflexivity]].
  eapply T_next; [|apply S_returns]. eapply T_next; [|apply (S_offer_taken [mkL LAsk SWait RNot; mkL (LOffer (Some 5)) SWait RReads] [Failed 1 5] 1 SWait RReads (Some 5)); reflexivity].
  eapply T_next; [|apply (S_taken MWaits [mkL LAsk SWait RNot; mkL LWait (SHand (Some 5)) RReads] [Failed 1 5] 1 RReads (Some 5)); reflexivity].
  eapply T_next; [|apply (S_result MWaits [mkL LAsk SWait RNot; mkL LWait SWait RReads] [] 1 LWait RReads (Some 5)); reflexivity].
  eapply T_next; [apply T_here|apply (S_status MWaits [mkL LAsk SWait RNot; mkL LAsk SWait RNot] [] 1 SWait RNot); reflexivity].
Qed.

(** * C74 *)
Section Keys.
Context {K D : Type}.
Variable encrypt : K -> list Z -> option D.
Variable decrypt : D -> list Z -> option K.
Variable readFile : list Z -> option (list Z).

(** the password of a side: the content of its secret file, or the text given *)
Definition password (secret pass pw : list Z) : Prop := (secret = [] /\ pw = pass) \/ (secret <> [] /\ readFile secret = Some pw).
Lemma password_iff : forall s p pw, password s p pw <-> resolvePassword readFile s p = Some pw.
Proof.
  intros s p pw. unfold password, resolvePassword. destruct s as [|c s].
  - split; [intros [[_ ->]|[N _]]; [reflexivity|contradiction]|]. intros H. left. split; [reflexivity|congruence].
  - split; [intros [[X _]|[_ H]]; [discriminate|exact H]|]. intros H. right. split; [discriminate|exact H].
Qed.

(** what was saved has no password in it, and opens with the password that was in use: an old key store to its key, a new
    one to the new key *)
Theorem C74_saved_keys_open : (forall k pw d, encrypt k pw = Some d -> decrypt d pw = Some k) ->
  forall src dst fs fd src' dst' pws pwd, password (k_secret src) (k_pass src) pws -> password (k_secret dst) (k_pass dst) pwd ->
  saveKeys encrypt decrypt readFile src dst fs fd = Some (src', dst') ->
  k_pass src' = [] /\ k_pass dst' = [] /\ k_secret src' = k_secret src /\ k_secret dst' = k_secret dst /\
  (exists k, openWallet decrypt readFile (mkK (k_doc src') (k_pass src) (k_secret src')) = Some k /\
     match k_doc src with Some d => k_doc src' = Some d /\ decrypt d pws = Some k | None => k = fs end) /\
  (exists k, openWallet decrypt readFile (mkK (k_doc dst') (k_pass dst) (k_secret dst')) = Some k /\
     match k_doc dst with Some d => k_doc dst' = Some d /\ decrypt d pwd = Some k | None => k = fd end).
Proof.
  intros HR src dst fs fd src' dst' pws pwd HS HD H. apply password_iff in HS. apply password_iff in HD. unfold saveKeys, EnsureWallet in H. rewrite HS, HD in H.
  assert (one : forall c pw f c', resolvePassword readFile (k_secret c) (k_pass c) = Some pw -> ensure encrypt decrypt c pw f = Some c' ->
    k_secret c' = k_secret c /\ exists k, openWallet decrypt readFile (mkK (k_doc c') (k_pass c) (k_secret c')) = Some k /\
      match k_doc c with Some d => k_doc c' = Some d /\ decrypt d pw = Some k | None => k = f end).
  { intros c pw f c' HP HE. unfold ensure in HE. destruct (k_doc c) as [d|] eqn:ED.
    - destruct (decrypt d pw) as [k|] eqn:EK; [|discriminate]. injection HE as <-. split; [reflexivity|]. exists k. unfold openWallet. cbn [k_secret k_pass k_doc]. rewrite HP, ED. repeat split; exact EK.
    - destruct (encrypt f pw) as [d|] eqn:EE; [|discriminate]. injection HE as <-. split; [reflexivity|]. exists f. unfold openWallet. cbn [k_secret k_pass k_doc]. rewrite HP. split; [apply (HR f pw d EE)|reflexivity]. }
  destruct (ensure encrypt decrypt src pws fs) as [s|] eqn:E1; [|discriminate]. destruct (ensure encrypt decrypt dst pwd fd) as [d|] eqn:E2; [|discriminate]. injection H as <- <-. cbn [k_pass k_secret k_doc].
  destruct (one _ _ _ _ HS E1) as [A1 A2]. destruct (one _ _ _ _ HD E2) as [B1 B2]. split; [reflexivity|]. split; [reflexivity|]. split; [exact A1|]. split; [exact B1|]. split; [exact A2|exact B2].
Qed.

(** a key store that the password does not open stops the command; so does an unreadable secret file of the destination *)
Theorem C74_wrong_password_stops : forall src dst fs fd,
  ((exists d pw, k_doc src = Some d /\ password (k_secret src) (k_pass src) pw /\ decrypt d pw = None) \/
   (exists d pw, k_doc dst = Some d /\ password (k_secret dst) (k_pass dst) pw /\ decrypt d pw = None) \/
   (k_secret dst <> [] /\ readFile (k_secret dst) = None)) ->
  saveKeys encrypt decrypt readFile src dst fs fd = None.
Proof.
  intros src dst fs fd H. unfold saveKeys, EnsureWallet. destruct H as [(d & pw & E1 & E2 & E3)|[(d & pw & E1 & E2 & E3)|[N E]]].
  - apply password_iff in E2. rewrite E2. destruct (resolvePassword readFile (k_secret dst) (k_pass dst)); [|reflexivity]. unfold ensure at 1. rewrite E1, E3. reflexivity.
  - apply password_iff in E2. rewrite E2. destruct (ensure encrypt decrypt src _ fs); [|reflexivity]. unfold ensure. rewrite E1, E3. reflexivity.
  - assert (X : resolvePassword readFile (k_secret dst) (k_pass dst) = None) by (unfold resolvePassword; destruct (k_secret dst); [contradiction|exact E]). rewrite X. reflexivity.
Qed.

(** the secret file of the source cannot be read: the new key is saved under the empty password *)
Theorem C74_unreadable_secret_refuted : forall src dst fs fd pwd d, k_doc src = None -> k_secret src <> [] -> readFile (k_secret src) = None ->
  password (k_secret dst) (k_pass dst) pwd -> encrypt fs [] = Some d -> (k_doc dst = None -> encrypt fd pwd <> None) -> (forall x, k_doc dst = Some x -> decrypt x pwd <> None) ->
  exists src' dst', saveKeys encrypt decrypt readFile src dst fs fd = Some (src', dst') /\ k_doc src' = Some d /\
  openWallet decrypt readFile src' = None.
Proof.
  intros src dst fs fd pwd d HN HS HF HD HE H1 H2. apply password_iff in HD. unfold saveKeys, EnsureWallet. rewrite HD. assert (ES : resolvePassword readFile (k_secret src) (k_pass src) = None). { unfold resolvePassword. destruct (k_secret src); [contradiction|exact HF]. }
  rewrite ES. unfold ensure at 1. rewrite HN, HE. assert (exists d', ensure encrypt decrypt dst pwd fd = Some d') as [d' ED].
  { unfold ensure. destruct (k_doc dst) as [x|]; [specialize (H2 x eq_refl); destruct (decrypt x pwd); [eexists; reflexivity|contradiction]|]. specialize (H1 eq_refl). destruct (encrypt fd pwd); [eexists; reflexivity|contradiction]. }
  rewrite ED. eexists _, _. split; [reflexivity|]. split; [reflexivity|]. unfold openWallet. cbn [k_secret k_pass k_doc]. unfold resolvePassword. destruct (k_secret src); [contradiction|]. rewrite HF. reflexivity.
Qed.

(** whatever the options, no key store is written to a file of its own *)
Theorem C74_no_key_store_file_refuted : forall opts (src dst : kcfg D), key_store_files opts src dst = [].
Proof. intros opts src dst. reflexivity. Qed.
End Keys.
Print Assumptions C74_saved_keys_open.
Print Assumptions C74_wrong_password_stops.
Print Assumptions C74_unreadable_secret_refuted.
Print Assumptions C74_no_key_store_file_refuted.

(** the "encryption" of the example puts password and key side by side *)
Definition demo_enc (k : Z) (pw : list Z) : option (list Z) := Some (k :: pw).
Definition demo_dec (d pw : list Z) : option Z := match d with k :: p => if bytes_eqb p pw then Some k else None | [] => None end.
Definition demo_read (f : list Z) : option (list Z) := if bytes_eqb f (str "secret") then Some (str "pw") else None.
Example C74_ex : (forall k pw d, demo_enc k pw = Some d -> demo_dec d pw = Some k) /\
  saveKeys demo_enc demo_dec demo_read (mkK None [] (str "secret")) (mkK (Some (9 :: str "q")) (str "q") []) 5 6 = Some (mkK (Some (5 :: str "pw")) [] (str "secret"), mkK (Some (9 :: str "q")) [] []) /\
  openWallet demo_dec demo_read (mkK (Some (5 :: str "pw")) [] (str "secret")) = Some 5 /\ openWallet demo_dec demo_read (mkK (Some (9 :: str "q")) (str "q") []) = Some 9 /\
  saveKeys demo_enc demo_dec demo_read (mkK None [] (str "secret")) (mkK (Some (9 :: str "q")) [] []) 5 6 = None /\
  saveKeys demo_enc demo_dec demo_read (mkK None [] (str "gone")) (mkK (Some (9 :: str "q")) (str "q") []) 5 6 = Some (mkK (Some [5]) [] (str "gone"), mkK (Some (9 :: str "q")) [] []).
Proof.
  split; [|repeat split; vm_compute; reflexivity]. intros k pw d H. unfold demo_enc in H. injection H as <-. unfold demo_dec. rewrite (proj2 (bytes_eqb_eq pw pw) eq_refl). reflexivity.
Qed.
