(** Theorems about the token service of the Python contracts (pyscore/token/token_bsh.py). *)
From Coq Require Import String Ascii ZArith List Bool Lia.
From Coq Require Import ZifyBool.
From Verif Require Import Base L_Base GoStr M_JMap M_PyBmv M_PyBmc M_PyToken S_PyToken L_JMap L_PyToken.
Import ListNotations.
Open Scope Z_scope.
Local Notation bytes := (list Z).

Lemma reached : forall addr_of owner bmc cs, tidy (trun addr_of (token_installed owner bmc) cs).
Proof. intros. apply run_tidy, start_tidy. Qed.

(** In every state that can be reached a call goes through exactly when one of the cases of [does] applies, it then does what that case says,
    and a call that is refused changes nothing. *)
Theorem C105_calls : forall addr_of owner bmc cs c, let s := trun addr_of (token_installed owner bmc) cs in
  (forall s', tcall_result addr_of s c = Val s' -> does addr_of s c s' /\ tstep addr_of s c = s') /\
  ((exists s', tcall_result addr_of s c = Val s') <-> exists s', does addr_of s c s') /\
  (forall x, tcall_result addr_of s c = Raise x -> tstep addr_of s c = s).
Proof.
  intros addr_of owner bmc cs c s. pose proof (reached addr_of owner bmc cs) as T. fold s in T. split; [|split].
  - intros s' E. split; [apply step_does; assumption|]. unfold tstep. rewrite E. reflexivity.
  - split; [intros [s' E]; exists s'; apply step_does; assumption|intros [s' D]; eapply does_goes, D].
  - intros x E. unfold tstep. rewrite E. reflexivity.
Qed.
Print Assumptions C105_calls.
(** What is locked is what is in the open transfers, for every user and token and after every history *)
Theorem C105_locked : forall addr_of owner bmc cs u n, let s := trun addr_of (token_installed owner bmc) cs in
  locked s u n = owed (t_pending s) u n /\ 0 <= locked s u n.
Proof.
  intros addr_of owner bmc cs u n s. assert (L : locks s) by (apply run_locks; [apply start_tidy|intros x y; reflexivity]). split; [apply L|]. rewrite (L u n). apply owed_nonneg. intros k p I. exact (proj2 (proj1 (proj2 (reached addr_of owner bmc cs)) k p I)).
Qed.
Print Assumptions C105_locked.
(** Nobody can use more than there is, if the requests of the other networks give and do not take *)
Theorem C105_not_below_zero : forall addr_of owner bmc cs u n, Forall gives cs -> 0 <= usable (trun addr_of (token_installed owner bmc) cs) u n.
Proof. intros addr_of owner bmc cs u n G. apply run_nonneg; [apply start_tidy|exact G|]. intros x y. reflexivity. Qed.
Print Assumptions C105_not_below_zero.
(** The users together have what deposits and requests brought, less what was paid out and what was delivered elsewhere *)
Theorem C105_ledger : forall addr_of owner bmc cs n, worth (trun addr_of (token_installed owner bmc) cs) n = brought addr_of (token_installed owner bmc) cs n.
Proof. intros addr_of owner bmc cs n. rewrite (run_worth addr_of cs _ n (start_tidy owner bmc)). reflexivity. Qed.
Print Assumptions C105_ledger.
(** Transfers are numbered 1, 2, 3 … in the order of their start, a number is ended by at most one answer, and a number that is no longer open never is again *)
Theorem C105_numbers : forall addr_of owner bmc cs, let s := trun addr_of (token_installed owner bmc) cs in
  (exists k, begun (t_out s) = map Z.of_nat (seq 1 k) /\ t_sn s = Z.of_nat k) /\ NoDup (ended (t_out s)) /\
  (forall k, In k (ended (t_out s)) -> In k (begun (t_out s))) /\
  (forall k p more, is_open s k p -> In k (begun (t_out s)) /\ (In k (ended (t_out (trun addr_of s more))) -> forall q, ~ is_open (trun addr_of s more) k q)) /\
  (forall k more, k <= t_sn s -> (forall p, ~ is_open s k p) -> forall p, ~ is_open (trun addr_of s more) k p).
Proof.
  intros addr_of owner bmc cs s. pose proof (reached addr_of owner bmc cs) as T. fold s in T.
  assert (N : numbered s) by (apply run_numbered; [apply start_tidy|]; split; [reflexivity|split; [constructor|intros k []]]). destruct N as (B & ND & F).
  assert (U : forall k, upto k = map Z.of_nat (seq 1 k)) by (induction k as [|k IH]; [reflexivity|]; cbn [upto]; rewrite IH, seq_S, map_app; reflexivity).
  assert (I : forall k, 1 <= k <= t_sn s -> In k (begun (t_out s))).
  { intros k H. rewrite B, U. apply in_map_iff. exists (Z.to_nat k). split; [lia|]. apply in_seq. lia. }
  split; [exists (Z.to_nat (t_sn s)); rewrite <- U; split; [exact B|]; pose proof (proj1 (proj2 (proj2 T))); lia|]. split; [exact ND|]. split; [intros k E; apply I, F, E|]. split.
  - intros k p more O. split; [apply I, (proj1 (proj2 T) k p O)|]. intros E. assert (N' : numbered (trun addr_of s more)) by (apply run_numbered; [exact T|split; [exact B|split; [exact ND|exact F]]]). apply N', E.
  - intros k more L O. apply run_closed; assumption.
Qed.
Print Assumptions C105_numbers.
(** Only the owner registers and unregisters, only the center brings messages and errors, and the token a name stands for never changes *)
Theorem C105_who : forall addr_of owner bmc cs, let s := trun addr_of (token_installed owner bmc) cs in
  t_owner s = owner /\ t_bmc s = bmc /\
  (forall x n a s', tcall_result addr_of s (KRegister x n a) = Val s' -> x = owner) /\ (forall x n s', tcall_result addr_of s (KUnregister x n) = Val s' -> x = owner) /\
  (forall x net sn m ok s', tcall_result addr_of s (KMessage x net sn m ok) = Val s' -> x = bmc) /\ (forall x sn s', tcall_result addr_of s (KError x sn) = Val s' -> x = bmc) /\
  (forall n a more, kget n (t_addr s) = Some a -> kget n (t_addr (trun addr_of s more)) = Some a).
Proof.
  intros addr_of owner bmc cs s. pose proof (reached addr_of owner bmc cs) as T. fold s in T.
  assert (W : forall cs s, tidy s -> t_owner (trun addr_of s cs) = t_owner s /\ t_bmc (trun addr_of s cs) = t_bmc s).
  { clear. induction cs as [|c cs IH]; intros s T; [split; reflexivity|]. cbn [trun fold_left]. destruct (IH _ (tstep_tidy addr_of s c T)) as [A B]. unfold trun in A, B. rewrite A, B. destruct (step_or addr_of s c) as [(s' & E & ->)|(_ & ->)]; [|auto]. destruct (step_shape addr_of s c s' T E) as (_ & _ & _ & X & Y). auto. }
  destruct (W cs _ (start_tidy owner bmc)) as [WO WB]. fold s in WO, WB. cbn [token_installed t_owner t_bmc] in WO, WB.
  clearbody s. clear W. split; [exact WO|]. split; [exact WB|].
  split; [intros x n a s' E; pose proof (step_does addr_of s _ s' T E) as D; inversion D; congruence|].
  split; [intros x n s' E; pose proof (step_does addr_of s _ s' T E) as D; inversion D; congruence|].
  split; [intros x net sn m ok s' E; pose proof (step_does addr_of s _ s' T E) as D; inversion D; congruence|].
  split; [intros x sn s' E; pose proof (step_does addr_of s _ s' T E) as D; inversion D; congruence|].
  intros n a more. clear WO WB. revert s T. induction more as [|c more IH]; intros s T K; [exact K|]. cbn [trun fold_left]. apply IH; [apply tstep_tidy, T|]. destruct (step_or addr_of s c) as [(s' & E & ->)|(_ & ->)]; [|exact K]. eapply step_addr; [exact T|eapply step_does; eassumption|exact K].
Qed.
Print Assumptions C105_who.
(** What somebody can use gets less only by their own reclaim or transfer, or by a request of the other side with a value below zero *)
Theorem C105_own : forall addr_of owner bmc cs c u n, let s := trun addr_of (token_installed owner bmc) cs in
  usable (tstep addr_of s c) u n < usable s u n ->
  (exists v ok, c = KReclaim u n v ok) \/ (exists to v ok, c = KTransfer u n to v ok) \/ (exists net sn to v ok, c = KMessage bmc net sn (JReq to n v) ok /\ addr_of to = Some u /\ v < 0).
Proof.
  intros addr_of owner bmc cs c u n s L. pose proof (reached addr_of owner bmc cs) as T. fold s in T. assert (WB : t_bmc s = bmc) by apply (C105_who addr_of owner bmc cs).
  destruct (step_or addr_of s c) as [(s' & E & R)|(_ & R)]; rewrite R in L; [|lia]. pose proof (step_does addr_of s c s' T E) as D. clear E R. destruct D;
    try (match goal with X : same_accounts s s' |- _ => rewrite (proj1 (X u n)) in L; lia end);
    match goal with X : moved s s' _ _ _ _ |- _ => rewrite (moved_usable _ _ _ _ _ _ X u n) in L end;
    try (match goal with Y : is_open s ?k ?p |- _ => pose proof (proj2 (proj1 (proj2 T) k p Y)) end); try (destruct (_ && _); lia).
  - destruct (bytes_eqb_spec u0 u) as [->|]; cbn [andb] in L; [|lia]. destruct (bytes_eqb_spec n0 n) as [->|]; [|lia]. left. eauto.
  - destruct (bytes_eqb_spec u0 u) as [->|]; cbn [andb] in L; [|lia]. destruct (bytes_eqb_spec n0 n) as [->|]; [|lia]. right. left. eauto.
  - destruct (bytes_eqb_spec u0 u) as [Q|]; cbn [andb] in L; [|lia]. rewrite Q in H. destruct (bytes_eqb_spec n0 n) as [R|]; [|lia]. right. right. rewrite WB, R. exists net, sn, to, v, true. split; [reflexivity|]. split; [exact H|lia].
Qed.
Print Assumptions C105_own.
(** Without requests of other networks every reclaim is covered: what the users have of a token and what was paid out of it
    is no more than what came in, so what is held pays for all that can be reclaimed *)
Theorem C105_backed : forall addr_of owner bmc cs a, Forall no_request cs -> let s := trun addr_of (token_installed owner bmc) cs in
  let held := came addr_of (token_installed owner bmc) cs a - paid (t_out s) a in
  worth_token (t_addr s) s a <= held /\ (forall u n, kget n (t_addr s) = Some a -> usable s u n <= held) /\
  (forall u n v ok s', tcall_result addr_of s (KReclaim u n v ok) = Val s' -> kget n (t_addr s) = Some a -> v <= held).
Proof.
  intros addr_of owner bmc cs a N s held. pose proof (reached addr_of owner bmc cs) as T. fold s in T.
  assert (B : worth_token (t_addr s) s a <= held).
  { pose proof (run_backed addr_of cs _ a (start_tidy owner bmc) (start_known owner bmc) N) as X. fold s in X. subst held. change (t_addr (token_installed owner bmc)) with (@nil (bytes * bytes)) in X. change (t_out (token_installed owner bmc)) with (@nil tout) in X. cbn [worth_token paid] in X. lia. }
  assert (U : forall u n, 0 <= usable s u n) by (intros u n; exact (C105_not_below_zero addr_of owner bmc cs u n (no_request_gives addr_of cs N))). assert (L : forall u n, 0 <= locked s u n) by (intros u n; exact (proj2 (C105_locked addr_of owner bmc cs u n))).
  assert (C : forall u n, kget n (t_addr s) = Some a -> usable s u n <= held).
  { intros u n K. destruct (worth_split s n u T U L) as [W _]. pose proof (wt_covers (t_addr s) s a n (fun m => proj2 (worth_split s m u T U L)) (kin _ _ _ K)). lia. }
  split; [exact B|]. split; [exact C|]. intros u n v ok s' E K. pose proof (step_does addr_of s _ s' T E) as D. inversion D. specialize (C u n K). lia.
Qed.
Print Assumptions C105_backed.

(** * Examples *)
Local Definition ao (x : bytes) : option bytes := match x with 104 :: 120 :: _ => Some x | _ => None end.
Local Definition own : bytes := str "hx0".
Local Definition ctr : bytes := str "cx1".
Local Definition tok : bytes := str "cx22".
Local Definition ua : bytes := str "hxa".
Local Definition ub : bytes := str "hxb".
Local Definition far : bytes := str "btp://0x2.icon/hxb".
Local Definition net2 : bytes := str "0x2.icon".
Local Definition nm : bytes := str "T".
Local Definition run := trun ao (token_installed own ctr).
Local Definition began := [KRegister own nm tok; KFallback tok ua 100; KTransfer ua nm far 30 true; KTransfer ua nm far 20 true].
Local Definition full := began ++ [KMessage ctr net2 1 (JRes 0) true; KMessage ctr net2 2 (JRes (-1)) true; KMessage ctr net2 7 (JReq ub nm 5) true; KReclaim ub nm 4 true].
Example C105_ex_began : balance (run began) ua nm = (50, 50) /\ owed (t_pending (run began)) ua nm = 50 /\ begun (t_out (run began)) = [1; 2] /\
  t_out (run began) = [TSend 1 net2 (JReq ub nm 30); TStart ua nm 1 30 ub; TSend 2 net2 (JReq ub nm 20); TStart ua nm 2 20 ub].
Proof. vm_compute. repeat split; reflexivity. Qed.
Example C105_ex_full : balance (run full) ua nm = (70, 0) /\ balance (run full) ub nm = (1, 0) /\ t_pending (run full) = [] /\ ended (t_out (run full)) = [1; 2] /\
  worth (run full) nm = 71 /\ brought ao (token_installed own ctr) full nm = 71 /\ Forall gives full /\ paid (t_out (run full)) tok = 4.
Proof. vm_compute. repeat split; try reflexivity; repeat constructor; discriminate. Qed.
(** An answer to a number that is settled, a message of somebody else, too much, and a token that is not registered are refused *)
Example C105_ex_refused : tstep ao (run full) (KMessage ctr net2 1 (JRes 0) true) = run full /\ tstep ao (run began) (KMessage own net2 1 (JRes 0) true) = run began /\
  tcall_result ao (run began) (KTransfer ua nm far 51 true) = Raise (X_BSH 5 "Overdrawn") /\ tcall_result ao (run began) (KFallback own ua 1) = Raise (X_BSH 3 "Not registered token").
Proof. vm_compute. repeat split; reflexivity. Qed.
Local Definition inside := began ++ [KMessage ctr net2 1 (JRes 0) true; KMessage ctr net2 2 (JRes (-1)) true; KReclaim ua nm 60 true].
Example C105_ex_backed : Forall no_request inside /\ came ao (token_installed own ctr) inside tok = 100 /\ paid (t_out (run inside)) tok = 60 /\ worth_token (t_addr (run inside)) (run inside) tok = 10.
Proof. vm_compute. repeat split; repeat constructor. Qed.

(** * What does not hold *)
(** unregister leaves the token where transfers, reclaims and requests look for it: they go on, the name can never be registered again,
    deposits are refused, and unregistering once more is accepted *)
Theorem C105_unregister_refuted : forall addr_of s n a, tidy s -> kget n (t_addr s) = Some a -> exists s', tcall_result addr_of s (KUnregister (t_owner s) n) = Val s' /\ ~ In n (t_names s') /\
  (forall more x b r, tcall_result addr_of (trun addr_of s' more) (KRegister x n b) <> Val r) /\
  (forall net sn to u v, addr_of to = Some u -> exists r, tcall_result addr_of s' (KMessage (t_bmc s') net sn (JReq to n v) true) = Val r /\ usable r u n = usable s u n + v) /\
  (forall u to v p, 0 <= v <= usable s u n -> valid_address to = Val p -> exists r, tcall_result addr_of s' (KTransfer u n to v true) = Val r) /\
  (exists r, tcall_result addr_of s' (KUnregister (t_owner s') n) = Val r).
Proof.
  intros addr_of s n a T K. assert (E : exists s', tcall_result addr_of s (KUnregister (t_owner s) n) = Val s') by (cbn [tcall_result]; unfold t_unregister; rewrite bytes_eqb_refl, K; cbn [negb]; eexists; reflexivity).
  destruct E as [s' E]. exists s'. split; [exact E|]. pose proof (step_tidy addr_of s _ s' T E) as T'. pose proof (step_does addr_of s _ s' T E) as D. inversion D as [|? ? R SA SO SD EA EN| | | | | | | | |]; subst.
  destruct EN as (x & y & EN & NI & EN' & HD). assert (K' : kget n (t_addr s') = Some a) by (rewrite EA; exact K).
  split; [|split; [|split; [|split]]].
  - rewrite EN'. intros I. apply in_app_or in I. destruct I as [I|I]; [exact (NI I)|]. destruct HD as [HD| ->]; [|destruct I]. destruct y as [|z y]; [discriminate HD|]. injection HD as ->. cbn [tl] in I. pose proof (proj1 (proj2 (proj2 (proj2 (proj2 T))))) as ND. rewrite EN in ND. apply NoDup_remove_2 in ND. apply ND, in_or_app. right. exact I.
  - assert (G : forall more s, tidy s -> kget n (t_addr s) = Some a -> kget n (t_addr (trun addr_of s more)) = Some a).
    { clear. induction more as [|c more IH]; intros s T K; [exact K|]. cbn [trun fold_left]. apply IH; [apply tstep_tidy, T|]. destruct (step_or addr_of s c) as [(s' & E & ->)|(_ & ->)]; [|exact K]. eapply step_addr; [exact T|eapply step_does; eassumption|exact K]. }
    intros more z b r. cbn [tcall_result]. unfold t_register. destruct (negb _); [discriminate|]. rewrite (G more s' T' K'). discriminate.
  - intros net sn to u v A. cbn [tcall_result]. unfold t_message. rewrite bytes_eqb_refl, A, K'. cbn [negb need bind]. unfold t_send. eexists. split; [reflexivity|]. pose proof (proj1 (moved_update s' u n v 0)) as M. pose proof (proj1 (SA u n)) as Q. unfold usable, balance, tell in *. cbn [t_bal]. rewrite M. lia.
  - intros u to v p V A. cbn [tcall_result]. unfold t_transfer. rewrite K', A. destruct (Z.ltb_spec v 0); [lia|]. pose proof (proj1 (SA u n)) as Q. unfold usable in Q, V. destruct (Z.ltb_spec (fst (balance s' u n)) v); [lia|]. cbv zeta. unfold t_send. cbn [bind]. eexists. reflexivity.
  - cbn [tcall_result]. unfold t_unregister. rewrite bytes_eqb_refl, K'. cbn [negb]. eexists. reflexivity.
Qed.
Print Assumptions C105_unregister_refuted.
Example C105_ex_unregister : t_names (run (began ++ [KUnregister own nm])) = [] /\ tcall_result ao (run (began ++ [KUnregister own nm])) (KRegister own nm tok) = Raise (X_BSH 2 "Duplicated token name") /\
  tcall_result ao (run (began ++ [KUnregister own nm])) (KFallback tok ua 1) = Raise (X_BSH 3 "Not registered token").
Proof. vm_compute. repeat split; reflexivity. Qed.
(** An answer settles a transfer whatever network it comes from: it is not compared with the one the request went to *)
Theorem C105_any_network_settles_refuted : forall addr_of s net net' sn code ok, tcall_result addr_of s (KMessage (t_bmc s) net sn (JRes code) ok) = tcall_result addr_of s (KMessage (t_bmc s) net' sn (JRes code) ok).
Proof. reflexivity. Qed.
Print Assumptions C105_any_network_settles_refuted.
Example C105_ex_any_network : let s := run (began ++ [KMessage ctr (str "0x666.evil") 1 (JRes 0) true]) in balance s ua nm = (50, 20) /\ In (TSend 1 net2 (JReq ub nm 30)) (t_out s) /\ In (TEnd 1 0) (t_out s).
Proof. vm_compute. intuition. Qed.
(** A request with a value below zero takes from the account it names, without limit *)
Theorem C105_negative_request_refuted : forall addr_of s net sn to u n a v, addr_of to = Some u -> kget n (t_addr s) = Some a ->
  exists s', tcall_result addr_of s (KMessage (t_bmc s) net sn (JReq to n v) true) = Val s' /\ usable s' u n = usable s u n + v /\ said s s' [TSend sn net (JRes 0)].
Proof.
  intros addr_of s net sn to u n a v A K. cbn [tcall_result]. unfold t_message. rewrite bytes_eqb_refl, A, K. cbn [negb need bind]. unfold t_send. eexists. split; [reflexivity|]. split; [exact (proj1 (moved_update s u n v 0))|reflexivity].
Qed.
Print Assumptions C105_negative_request_refuted.
Example C105_ex_negative : usable (run (began ++ [KMessage ctr net2 9 (JReq ua nm (-80)) true])) ua nm = -30.
Proof. reflexivity. Qed.
(** Requests give without regard to what was deposited: whoever a request names takes the deposits of the others *)
Theorem C105_deposits_taken_refuted : exists cs, Forall gives cs /\ let s := trun ao (token_installed own ctr) cs in
  came ao (token_installed own ctr) cs tok = 100 /\ paid (t_out s) tok = 100 /\ usable s ua nm = 100 /\ (forall x, ~ In (TPay tok ua x) (t_out s)).
Proof.
  exists [KRegister own nm tok; KFallback tok ua 100; KMessage ctr net2 1 (JReq ub nm 100) true; KReclaim ub nm 100 true]. vm_compute. repeat split; try reflexivity; repeat constructor; try discriminate.
  intros x [H|[H|[]]]; discriminate H.
Qed.
Print Assumptions C105_deposits_taken_refuted.
(** The answer to a message of unknown type is itself of unknown type: two of these contracts send it to and fro for ever.
    [exchange k s t m]: [m] is given to [s], what it sends to [t] and so on, [k] times *)
Fixpoint exchange (addr_of : bytes -> option bytes) (k : nat) (s t : tstate) (sn : Z) (m : jmsg) : option (tstate * tstate * jmsg) :=
  match k with
  | O => Some (s, t, m)
  | S k' => match tcall_result addr_of s (KMessage (t_bmc s) (t_bmc t) sn m true) with
            | Val s' => match skipn (length (t_out s)) (t_out s') with [TSend sn' _ m'] => exchange addr_of k' t s' sn' m' | _ => None end
            | Raise _ => None
            end
  end.
Theorem C105_endless_exchange_refuted : forall addr_of k s t sn x, exists s' t' y, exchange addr_of k s t sn (JOther x) = Some (s', t', JOther y) /\
  (length (t_out s') + length (t_out t') = length (t_out s) + length (t_out t) + k)%nat.
Proof.
  intros addr_of. induction k as [|k IH]; intros s t sn x; [exists s, t, x; split; [reflexivity|lia]|]. cbn [exchange tcall_result]. unfold t_message. rewrite bytes_eqb_refl. cbn [negb]. unfold t_send. cbn [tell t_out]. rewrite skipn_app, skipn_all, Nat.sub_diag. cbn [app skipn].
  destruct (IH t (tell s (TSend sn (t_bmc t) (JOther UNKNOWN_TYPE))) sn UNKNOWN_TYPE) as (s' & t' & y & E & L). exists s', t', y. split; [exact E|]. cbn [tell t_out] in L. rewrite app_length in L. cbn [length] in L. lia.
Qed.
Print Assumptions C105_endless_exchange_refuted.
(** Anybody can have a request sent that the other side cannot take: a value of 0 needs no balance, and the text after the network is not looked at;
    where it is no address the other contract raises, which stops its link (C102_service_stops_refuted) *)
Theorem C105_unreadable_request_refuted : forall addr_of s u n a to p, (forall u n, 0 <= usable s u n) -> kget n (t_addr s) = Some a -> valid_address to = Val p -> addr_of (pa_contract p) = None ->
  (exists s', tcall_result addr_of s (KTransfer u n to 0 true) = Val s' /\ In (TSend (t_sn s + 1) (pa_net p) (JReq (pa_contract p) n 0)) (t_out s')) /\
  forall t net, tcall_result addr_of t (KMessage (t_bmc t) net (t_sn s + 1) (JReq (pa_contract p) n 0) true) = Raise XOther.
Proof.
  intros addr_of s u n a to p U K A N. split.
  - cbn [tcall_result]. unfold t_transfer. rewrite K, A. cbn [Z.ltb Z.compare]. specialize (U u n). unfold usable in U. destruct (Z.ltb_spec (fst (balance s u n)) 0); [lia|]. cbv zeta. unfold t_send. cbn [bind]. eexists. split; [reflexivity|]. cbn [tell t_out]. apply in_or_app. left. apply in_or_app. right. left. reflexivity.
  - intros t net. cbn [tcall_result]. unfold t_message. rewrite bytes_eqb_refl, N. reflexivity.
Qed.
Print Assumptions C105_unreadable_request_refuted.
Example C105_ex_unreadable : tcall_result ao (run [KRegister own nm tok]) (KTransfer ub nm (str "btp://0x2.icon/nobody") 0 true) <> Raise XOther /\
  (exists p, valid_address (str "btp://0x2.icon/nobody") = Val p /\ ao (pa_contract p) = None /\ pa_net p = net2) /\ kget nm (t_addr (run [KRegister own nm tok])) = Some tok.
Proof. split; [vm_compute; discriminate|]. split; [eexists; split; [vm_compute; reflexivity|split; reflexivity]|reflexivity]. Qed.
(** A token registered under the empty name takes no deposits: the loop of tokenFallback finds a name that counts as false *)
Theorem C105_empty_name_refuted : forall addr_of owner bmc a from v, 0 <= v ->
  tcall_result addr_of (trun addr_of (token_installed owner bmc) [KRegister owner [] a]) (KFallback a from v) = Raise (X_BSH 3 "Not registered token").
Proof.
  intros addr_of owner bmc a from v V. unfold trun. cbn [fold_left]. unfold tstep. cbn [tcall_result]. unfold t_register. cbn [token_installed t_owner t_addr]. rewrite bytes_eqb_refl. cbn [negb kget aget]. unfold t_fallback. destruct (Z.ltb_spec v 0); [lia|]. unfold name_of. cbn [with_tokens t_names t_addr token_installed app find kput aput kget aget]. cbn [kget kput aget aput bytes_eqb]. rewrite bytes_eqb_refl. reflexivity.
Qed.
Print Assumptions C105_empty_name_refuted.
