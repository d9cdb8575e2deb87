(** Theorems about the sample multi token (javascore/fee-aggregation/SampleMultiToken). *)
From Coq Require Import String Ascii ZArith List Bool Lia.
From Coq Require Import ZifyBool.
From Verif Require Import Base L_Base GoStr M_JMap M_Rlp S_Rlp M_Irc31 S_Irc31 L_JMap L_Irc31.
Import ListNotations.
Open Scope Z_scope.
Local Notation bytes := (list Z).

Definition real_callers (cs : list mcall) : Prop := Forall (fun c => caller c <> ZERO_ADDRESS) cs.
Lemma reach : forall cs, real_callers cs -> sane (mrun mt_installed cs).
Proof. intros cs F. apply run_sane; [apply start_sane|exact F]. Qed.

(** A transfer goes through exactly when it goes somewhere, the caller may make it and there is enough; it moves just that *)
Theorem C108_transfer : forall s x f t id v,
  ((exists s', mdo s (MTransfer x f t id v) = Some s') <-> t <> ZERO_ADDRESS /\ (x = f \/ approved s f x = true) /\ 0 <= v <= mbal s id f) /\
  forall s', mdo s (MTransfer x f t id v) = Some s' ->
    (forall j y, mbal s' j y = mbal s j y + (if bytes_eqb y t && (id =? j) then v else 0) - (if bytes_eqb y f && (id =? j) then v else 0)) /\
    m_ops s' = m_ops s /\ m_uri s' = m_uri s /\ m_creator s' = m_creator s /\ m_ev s' = m_ev s ++ [ESingle x f t id v].
Proof.
  intros s x f t id v. cbn [mdo]. destruct (bytes_eqb_spec t ZERO_ADDRESS) as [Et|Nt]; [split; [split; [intros (? & E); discriminate E|intros (N & _); contradiction]|intros ? E; discriminate E]|].
  destruct (bytes_eqb_spec f x) as [Ef|Nf]; destruct (approved s f x) eqn:Ap; cbn [orb negb];
    try (split; [split; [intros (? & E); discriminate E|intros (_ & [X|X] & _); [congruence|discriminate X]]|intros ? E; discriminate E]);
    (destruct (shift s f t id v) as [s1|] eqn:S;
     [destruct (shift_effect _ _ _ _ _ _ S) as (V & H1 & H2 & H3 & H4 & H5 & _);
      split; [split; [intros _; split; [exact Nt|]; split; [auto|exact V]|eauto]|intros s' E; assert (s' = emit s1 (ESingle x f t id v)) by congruence; subst s'; split; [exact H5|]; cbn [emit m_ops m_uri m_creator m_ev]; rewrite H1, H2, H3, H4; auto]
     |split; [split; [intros (? & E); discriminate E|intros (_ & _ & V); destruct (shift_goes s f t id v V) as [s1 Q]; congruence]|intros ? E; discriminate E]]).
Qed.
Print Assumptions C108_transfer.
(** A batch goes through exactly when all of it is covered together and it can be written into the event; ids may be repeated *)
Theorem C108_batch : forall cs x f t ids vs, real_callers cs -> let s := mrun mt_installed cs in
  ((exists s', mdo s (MBatch x f t ids vs) = Some s') <->
     t <> ZERO_ADDRESS /\ length ids = length vs /\ (x = f \/ approved s f x = true) /\ Forall (fun v => fits v = true) (ids ++ vs) /\
     (if bytes_eqb f t then Forall (fun p => 0 <= snd p <= mbal s (fst p) f) (combine ids vs) else Forall (fun v => 0 <= v) vs /\ forall id, want (combine ids vs) id <= mbal s id f)) /\
  forall s', mdo s (MBatch x f t ids vs) = Some s' ->
    (forall j y, mbal s' j y = mbal s j y + (if bytes_eqb y t then want (combine ids vs) j else 0) - (if bytes_eqb y f then want (combine ids vs) j else 0)) /\
    m_ops s' = m_ops s /\ m_uri s' = m_uri s /\ m_creator s' = m_creator s.
Proof.
  intros cs x f t ids vs R s. pose proof (reach cs R) as (_ & P & _). fold s in P. clearbody s. cbn [mdo].
  assert (Ff : forall l, rlp_list l <> None <-> Forall (fun v => fits v = true) l).
  { intros l. unfold rlp_list. rewrite Forall_forall. destruct (forallb fits l) eqn:E; [split; [intros _; apply forallb_forall, E|discriminate]|split; [congruence|intros H; apply forallb_forall in H; congruence]]. }
  assert (Sn : forall ids vs, length ids = length vs -> Forall (fun v => 0 <= v) vs <-> Forall (fun p : Z * Z => 0 <= snd p) (combine ids vs)).
  { clear. induction ids as [|a ids IH]; intros [|b vs] L; try discriminate L; cbn [combine]; [split; constructor|]. injection L as L. specialize (IH vs L). split; intros H; inversion H; subst; constructor; auto; apply IH; assumption. }
  split.
  - split.
    + intros (s' & E). destruct (bytes_eqb_spec t ZERO_ADDRESS) as [|Nt]; [discriminate E|]. destruct (Nat.eqb_spec (length ids) (length vs)) as [L|]; [|discriminate E]. cbn [negb] in E. destruct (negb _) eqn:Au in E; [discriminate E|]. destruct (shift_all s f t (combine ids vs)) as [s1|] eqn:S; [|discriminate E]. destruct (rlp_list ids) eqn:R1; [|discriminate E]. destruct (rlp_list vs) eqn:R2; [|discriminate E].
      split; [exact Nt|]. split; [exact L|]. split; [destruct (bytes_eqb_spec f x) as [->|]; [auto|right; destruct (approved s f x); [reflexivity|discriminate Au]]|]. split; [apply Forall_app; split; apply Ff; congruence|].
      destruct (bytes_eqb_spec f t) as [->|N]; [apply all_self; eauto|]. split; [apply (Sn ids vs L), (all_effect _ _ _ _ _ S)|eapply all_needs; eauto].
    + intros (Nt & L & Au & Fi & C). apply Forall_app in Fi as [F1 F2]. destruct (bytes_eqb_spec t ZERO_ADDRESS); [contradiction|]. rewrite (proj2 (Nat.eqb_eq _ _) L). cbn [negb]. replace (bytes_eqb f x || approved s f x) with true by (destruct Au as [-> | ->]; [rewrite bytes_eqb_refl; reflexivity|rewrite orb_true_r; reflexivity]). cbn [negb].
      assert (G : exists s1, shift_all s f t (combine ids vs) = Some s1). { destruct (bytes_eqb_spec f t) as [->|N]; [apply all_self, C|]. destruct C as [C1 C2]. apply all_goes; [exact N|intros j; apply P|apply (Sn ids vs L), C1|exact C2]. }
      destruct G as [s1 ->]. apply Ff in F1, F2. destruct (rlp_list ids); [|congruence]. destruct (rlp_list vs); [|congruence]. eauto.
  - intros s' E. destruct (bytes_eqb t ZERO_ADDRESS); [discriminate E|]. destruct (negb _) in E; [discriminate E|]. destruct (negb _) in E; [discriminate E|]. destruct (shift_all s f t (combine ids vs)) as [s1|] eqn:S; [|discriminate E]. destruct (rlp_list ids) as [a|]; [|discriminate E]. destruct (rlp_list vs) as [b|]; [|discriminate E]. assert (s' = emit s1 (EBatch x f t a b (combine ids vs))) by congruence. subst s'. destruct (all_effect _ _ _ _ _ S) as (_ & H1 & H2 & H3 & _ & H5 & _). split; [exact H5|]. auto.
Qed.
Print Assumptions C108_batch.
(** The balances are what the events say, for everybody; approvals are as the last event says; no balance is below zero *)
Theorem C108_events : forall cs, real_callers cs -> let s := mrun mt_installed cs in
  (forall u id, u <> ZERO_ADDRESS -> mbal s id u = replay (m_ev s) u id) /\ (forall o p, approved s o p = last_approval (m_ev s) o p false) /\ forall u id, 0 <= mbal s id u.
Proof. intros cs R s. destruct (reach cs R) as (A & B & C & D & E & F). split; [intros u id N; apply D, N|]. split; [exact E|]. intros u id. apply B. Qed.
Print Assumptions C108_events.
(** All there is of a token is what its one mint made less what was burned; once minted an id is not minted again, its creator stays, and its URI stays non-empty *)
Theorem C108_supply : forall cs id, real_callers cs -> let s := mrun mt_installed cs in
  total (m_bal s) id = made mt_installed cs id /\ NoDup (map fst (m_bal s)) /\ (aget Z.eqb id (m_creator s) = None -> total (m_bal s) id = 0) /\
  forall c more, aget Z.eqb id (m_creator s) = Some c -> aget Z.eqb id (m_creator (mrun s more)) = Some c /\ forall x v uri, mdo (mrun s more) (MMint x id v uri) = None.
Proof.
  intros cs id R s. pose proof (reach cs R) as S. fold s in S. split; [|split; [apply S|split; [apply S|]]].
  - subst s. assert (G : forall cs s, sane s -> real_callers cs -> total (m_bal (mrun s cs)) id = total (m_bal s) id + made s cs id).
    { clear. induction cs as [|c cs IH]; intros s S R; [cbn; lia|]. inversion R as [|? ? R1 R2]; subst. cbn [mrun fold_left made]. unfold goes_through. change (fold_left mstep cs (mstep s c)) with (mrun (mstep s c) cs). unfold mstep at 1. destruct (mdo s c) as [s1|] eqn:E.
      - rewrite (IH s1 (do_sane c s s1 S R1 E) R2), (do_total c s s1 id S E). unfold mstep. rewrite E. lia.
      - rewrite (IH s S R2). unfold mstep. rewrite E. lia. }
    rewrite (G cs _ start_sane R). cbn. lia.
  - intros c more K. assert (G : aget Z.eqb id (m_creator (mrun s more)) = Some c).
    { clear S R. clearbody s. revert s K. induction more as [|d more IH]; intros s K; [exact K|]. cbn [mrun fold_left]. apply IH. unfold mstep. destruct (mdo s d) as [s1|] eqn:E; [|exact K]. destruct d as [x f t i v|x f t ids vs|x op yes|x i v uri|x i v|x i uri]; cbn [mdo] in E.
      - destruct (bytes_eqb t ZERO_ADDRESS); [discriminate E|]. destruct (negb _); [discriminate E|]. destruct (shift s f t i v) as [s2|] eqn:H; [|discriminate E]. injection E as <-. cbn [emit m_creator]. destruct (shift_effect _ _ _ _ _ _ H) as (_ & _ & _ & -> & _). exact K.
      - destruct (bytes_eqb t ZERO_ADDRESS); [discriminate E|]. destruct (negb _); [discriminate E|]. destruct (negb _); [discriminate E|]. destruct (shift_all s f t (combine ids vs)) as [s2|] eqn:H; [|discriminate E]. destruct (rlp_list ids); [|discriminate E]. destruct (rlp_list vs); [|discriminate E]. injection E as <-. cbn [emit m_creator]. destruct (all_effect _ _ _ _ _ H) as (_ & _ & _ & -> & _). exact K.
      - injection E as <-. exact K.
      - destruct (aget Z.eqb i (m_creator s)) as [y|] eqn:Ki; [discriminate E|]. destruct (negb (0 <? v)); [discriminate E|]. destruct (negb (nonempty uri)); [discriminate E|]. injection E as <-. cbn [m_creator emit set_bal]. rewrite (aput_other _ zeqb_eq); [exact K|]. intros ->. congruence.
      - destruct (aget Z.eqb i (m_creator s)); [|discriminate E]. destruct (negb (0 <? v)); [discriminate E|]. destruct (_ && _) in E; [|discriminate E]. injection E as <-. exact K.
      - destruct (aget Z.eqb i (m_creator s)) as [y|]; [|discriminate E]. destruct (bytes_eqb y x); [|discriminate E]. destruct (nonempty uri); [|discriminate E]. injection E as <-. exact K. }
    split; [exact G|]. intros x v uri. cbn [mdo]. rewrite G. reflexivity.
Qed.
Print Assumptions C108_supply.
(** Minting and burning, and who may change the URI *)
Theorem C108_mint_burn : forall cs x id v uri, real_callers cs -> let s := mrun mt_installed cs in
  ((exists s', mdo s (MMint x id v uri) = Some s') <-> aget Z.eqb id (m_creator s) = None /\ 0 < v /\ uri <> []) /\
  (forall s', mdo s (MMint x id v uri) = Some s' -> (forall j y, mbal s' j y = mbal s j y + (if bytes_eqb y x && (id =? j) then v else 0)) /\ aget Z.eqb id (m_creator s') = Some x /\ aget Z.eqb id (m_uri s') = Some uri /\ m_ops s' = m_ops s) /\
  ((exists s', mdo s (MBurn x id v) = Some s') <-> 0 < v <= mbal s id x) /\
  (forall s', mdo s (MBurn x id v) = Some s' -> (forall j y, mbal s' j y = mbal s j y - (if bytes_eqb y x && (id =? j) then v else 0)) /\ m_creator s' = m_creator s /\ m_ops s' = m_ops s /\ m_uri s' = m_uri s) /\
  ((exists s', mdo s (MSetUri x id uri) = Some s') <-> aget Z.eqb id (m_creator s) = Some x /\ uri <> []) /\
  (forall s', mdo s (MSetUri x id uri) = Some s' -> m_bal s' = m_bal s /\ m_ops s' = m_ops s /\ m_creator s' = m_creator s /\ forall j, aget Z.eqb j (m_uri s') = if id =? j then Some uri else aget Z.eqb j (m_uri s)).
Proof.
  intros cs x id v uri R s. pose proof (reach cs R) as (A & B & C & D & Ap & F). fold s in A, B, C, D, Ap, F. clearbody s. clear R. cbn [mdo].
  assert (Ne : forall u, nonempty u = true <-> u <> []) by (intros [|? ?]; split; [discriminate|congruence|discriminate|reflexivity]).
  destruct (aget Z.eqb id (m_creator s)) as [c|] eqn:K.
  - split; [split; [intros (? & E); discriminate E|intros (E & _); discriminate E]|]. split; [intros ? E; discriminate E|]. split; [|split; [|split]].
    + destruct (Z.ltb_spec 0 v); cbn [negb]; [|split; [intros (? & E); discriminate E|lia]]. destruct (_ && _) eqn:W; split; [intros _; lia|intros _; eexists; reflexivity|intros (? & E); discriminate E|lia].
    + intros s' E. destruct (negb _); [discriminate E|]. destruct (_ && _) in E; [|discriminate E]. assert (s' = emit (set_bal s id x (mbal s id x - v)) (ESingle x x ZERO_ADDRESS id v)) by congruence. subst s'. split; [|auto]. intros j y. change (mbal (emit ?a ?b) j y) with (mbal a j y). rewrite mbal_set. destruct (Z.eqb_spec id j) as [->|]; cbn [andb]; destruct (bytes_eqb_spec y x) as [->|]; cbn [andb]; lia.
    + destruct (bytes_eqb_spec c x) as [->|N]; [destruct (nonempty uri) eqn:U|]; split; try (intros (? & E); discriminate E); [intros _; split; [reflexivity|apply Ne, U]|eauto|intros (_ & X); apply Ne in X; congruence|intros (E & _); congruence].
    + intros s' E. destruct (bytes_eqb c x); [|discriminate E]. destruct (nonempty uri); [|discriminate E]. injection E as <-. cbn [m_bal m_ops m_creator m_uri]. repeat (split; [reflexivity|]). intros j. destruct (Z.eqb_spec id j) as [->|]; [apply (aput_same _ zeqb_eq)|apply (aput_other _ zeqb_eq); congruence].
  - split; [|split; [|split; [|split; [|split]]]].
    + destruct (Z.ltb_spec 0 v); cbn [negb]; [|split; [intros (? & E); discriminate E|intros (_ & X & _); lia]]. destruct (nonempty uri) eqn:U; cbn [negb]; split; [intros _; split; [reflexivity|]; split; [lia|apply Ne, U]|intros _; eexists; reflexivity|intros (? & E); discriminate E|intros (_ & _ & X); apply Ne in X; congruence].
    + intros s' E. destruct (negb _); [discriminate E|]. destruct (negb _); [discriminate E|].
      assert (E' : s' = MToken (aput idkey_eqb (id, x) v (m_bal s)) (m_ops s) (aput Z.eqb id uri (m_uri s)) (aput Z.eqb id x (m_creator s)) (m_ev s ++ [ESingle x ZERO_ADDRESS x id v])) by (symmetry in E; injection E; intros ->; reflexivity).
      split; [|rewrite E'; cbn [m_creator m_uri m_ops]; rewrite !(aput_same _ zeqb_eq); auto]. intros j y. assert (M : mbal s' j y = if (id =? j) && bytes_eqb y x then v else mbal s j y) by (rewrite E'; apply (mbal_set s)). rewrite M. destruct (Z.eqb_spec id j) as [->|]; cbn [andb]; destruct (bytes_eqb y x); cbn [andb]; try lia. rewrite (C j y K). lia.
    + split; [intros (? & E); discriminate E|]. rewrite (C id x K). lia.
    + intros s' E; discriminate E.
    + split; [intros (? & E); discriminate E|intros (E & _); discriminate E].
    + intros s' E; discriminate E.
Qed.
Print Assumptions C108_mint_burn.
(** Nobody's tokens get less but by their own call or that of somebody they have approved *)
Theorem C108_own : forall s c u id, mbal (mstep s c) id u < mbal s id u -> caller c = u \/ approved s u (caller c) = true.
Proof.
  intros s c u id L. unfold mstep in L. destruct (mdo s c) as [s'|] eqn:E; [|lia]. destruct c as [x f t i v|x f t ids vs|x op yes|x i v uri|x i v|x i uri]; cbn [mdo caller] in *.
  - destruct (bytes_eqb t ZERO_ADDRESS); [discriminate E|]. destruct (bytes_eqb_spec f x) as [Ef|]; destruct (approved s f x) eqn:Ap; cbn [orb negb] in E; try discriminate E;
      (destruct (shift s f t i v) as [s1|] eqn:H; [|discriminate E]; injection E as <-; change (mbal (emit s1 (ESingle x f t i v)) id u) with (mbal s1 id u) in L; destruct (shift_effect _ _ _ _ _ _ H) as (V & _ & _ & _ & _ & H5 & _); rewrite H5 in L; destruct (bytes_eqb_spec u f) as [->|]; [auto|cbn [andb] in L; destruct (_ && _); lia]).
  - destruct (bytes_eqb t ZERO_ADDRESS); [discriminate E|]. destruct (negb _); [discriminate E|]. destruct (bytes_eqb_spec f x) as [Ef|]; destruct (approved s f x) eqn:Ap; cbn [orb negb] in E; try discriminate E;
      (destruct (shift_all s f t (combine ids vs)) as [s1|] eqn:H; [|discriminate E]; destruct (rlp_list ids) as [a|]; [|discriminate E]; destruct (rlp_list vs) as [b|]; [|discriminate E]; injection E as <-; change (mbal (emit s1 (EBatch x f t a b (combine ids vs))) id u) with (mbal s1 id u) in L; destruct (all_effect _ _ _ _ _ H) as (V & _ & _ & _ & _ & H5 & _); rewrite H5 in L; destruct (bytes_eqb_spec u f) as [->|]; [auto|pose proof (want_nonneg _ id V); destruct (bytes_eqb u t); lia]).
  - injection E as <-. unfold mbal in L. cbn [emit m_bal] in L. lia.
  - destruct (aget Z.eqb i (m_creator s)) as [y|] eqn:K; [discriminate E|]. destruct (negb (0 <? v)) eqn:V; [discriminate E|]. destruct (negb (nonempty uri)); [discriminate E|].
    assert (M : mbal s' id u = if (i =? id) && bytes_eqb u x then v else mbal s id u) by (symmetry in E; injection E; intros ->; apply (mbal_set s)). rewrite M in L. destruct (bytes_eqb_spec u x) as [->|]; [auto|]. rewrite andb_false_r in L. lia.
  - destruct (aget Z.eqb i (m_creator s)) as [y|] eqn:K; [|discriminate E]. destruct (negb (0 <? v)); [discriminate E|]. destruct (_ && _) in E; [|discriminate E]. injection E as <-. change (mbal (emit ?a ?b) id u) with (mbal a id u) in L. rewrite mbal_set in L. destruct (bytes_eqb_spec u x) as [->|]; [auto|]. rewrite andb_false_r in L. lia.
  - destruct (aget Z.eqb i (m_creator s)) as [y|]; [|discriminate E]. destruct (bytes_eqb y x); [|discriminate E]. destruct (nonempty uri); [|discriminate E]. injection E as <-. change (mbal s id u < mbal s id u) in L. lia.
Qed.
Print Assumptions C108_own.
(** Whatever receiving contracts call, to any depth, comes to a list of calls that were made; so all of the above holds there as well *)
Theorem C108_reentrance : forall is_contract l, (forall t c, In t l -> occurs c t -> caller c <> ZERO_ADDRESS) -> let s := mtrees is_contract mt_installed l in
  exists cs, s = mrun mt_installed cs /\ real_callers cs /\ forall c, In c cs -> exists t, In t l /\ occurs c t.
Proof.
  intros isc l A s. assert (G : exists cs, s = mrun mt_installed cs /\ forall c, In c cs -> exists t, In t l /\ occurs c t).
  { subst s. clear A. induction l as [|t l IH] using rev_ind; [exists []; split; [reflexivity|intros c []]|].
    unfold mtrees. rewrite fold_left_app. cbn [fold_left]. fold (mtrees isc mt_installed l). destruct IH as (cs & E & O). rewrite E. destruct (mexec isc t (mrun mt_installed cs)) as [s'|] eqn:X.
    - destruct (mexec_flat isc t _ _ X) as (b & -> & Ob). exists (cs ++ b). split; [symmetry; apply mrun_app|]. intros c I. apply in_app_or in I as [I|I]; [destruct (O c I) as (y & Iy & Oy); exists y; split; [apply in_or_app; auto|exact Oy]|exists t; split; [apply in_or_app; right; left; reflexivity|apply Ob, I]].
    - exists cs. split; [reflexivity|]. intros c I. destruct (O c I) as (y & Iy & Oy). exists y. split; [apply in_or_app; auto|exact Oy]. }
  destruct G as (cs & E & O). assert (Rc : real_callers cs) by (apply Forall_forall; intros c I; destruct (O c I) as (t & It & Ot); exact (A t c It Ot)).
  exists cs. auto.
Qed.
Print Assumptions C108_reentrance.

(** * Examples *)
Local Definition ua : bytes := str "hxa".
Local Definition ub : bytes := str "hxb".
Local Definition op : bytes := str "hxc".
Local Definition cc : bytes := str "cx1".
Local Definition isc (x : bytes) : bool := match x with 99 :: 120 :: _ => true | _ => false end.
Local Definition cs := [MMint ua 1 100 (str "u"); MMint ub 2 50 (str "v"); MApprove ua op true; MTransfer op ua ub 1 30; MBatch ub ub ua [1; 2; 1; 7] [10; 20; 15; 0]; MBurn ua 1 5;
  MMint ub 1 9 (str "w"); MTransfer ub ua ub 1 1; MBatch ub ub ua [1; 1] [4; 4]].
Example C108_ex_run : real_callers cs /\ let s := mrun mt_installed cs in
  map (fun p => mbal s (fst p) (snd p)) [(1, ua); (1, ub); (2, ua); (2, ub)] = [90; 5; 20; 30] /\ total (m_bal s) 1 = 95 /\ made mt_installed cs 1 = 95 /\ length (m_ev s) = 6%nat /\
  replay (m_ev s) ua 1 = 90 /\ approved s ua op = true.
Proof. split; [repeat constructor; discriminate|]. vm_compute. repeat split; reflexivity. Qed.
(** the last batch of the list is refused: 4 and 4 are covered one by one and not together *)
Example C108_ex_batch : let s := mrun mt_installed (firstn 8 cs) in mbal s 1 ub = 5 /\ mdo s (MBatch ub ub ua [1; 1] [4; 4]) = None /\ mdo s (MBatch ub ub ub [1; 1] [4; 4]) <> None.
Proof. vm_compute. repeat split; try reflexivity. discriminate. Qed.
Example C108_ex_own : let s := mrun mt_installed (firstn 3 cs) in mbal (mstep s (MTransfer op ua ub 1 30)) 1 ua < mbal s 1 ua /\ approved s ua op = true.
Proof. vm_compute. split; reflexivity. Qed.
(** a contract that passes on what it gets and tries to take more while it is being paid *)
Local Definition tree := [MCalls (MMint ua 1 100 (str "u")) [] true;
  MCalls (MTransfer ua ua cc 1 40) [MCalls (MTransfer cc cc ub 1 30) [] true; MCalls (MTransfer cc ua cc 1 40) [] true; MCalls (MTransfer cc cc cc 1 10) [MCalls (MBurn cc 1 10) [] true] true] true;
  MCalls (MTransfer ua ua cc 1 10) [] false].
Lemma occurs_inv : forall c d l ok, occurs c (MCalls d l ok) -> c = d \/ exists x, In x l /\ occurs c x.
Proof. intros c d l ok O. inversion O; subst; eauto. Qed.
Example C108_ex_reentrance : (forall t c, In t tree -> occurs c t -> caller c <> ZERO_ADDRESS) /\ let s := mtrees isc mt_installed tree in
  map (mbal s 1) [ua; ub; cc] = [60; 30; 0] /\ s = mrun mt_installed [MMint ua 1 100 (str "u"); MTransfer ua ua cc 1 40; MTransfer cc cc ub 1 30; MTransfer cc cc cc 1 10; MBurn cc 1 10].
Proof.
  split; [|vm_compute; split; reflexivity]. intros t c I O. destruct I as [<-|[<-|[<-|[]]]]; apply occurs_inv in O as [->|(x & J & O)]; try discriminate; try destruct J as [<-|[<-|[<-|[]]]]; try destruct J; apply occurs_inv in O as [->|(y & K & O)]; try discriminate; try destruct K as [<-|[]]; try destruct K; apply occurs_inv in O as [->|(z & K & O)]; try discriminate; destruct K.
Qed.
