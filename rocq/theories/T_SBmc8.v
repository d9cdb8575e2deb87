(** Theorems about the message center for the EVM: who may do what, C81. *)
From Coq Require Import String Ascii ZArith List Bool Lia Permutation.
From Coq Require Import ZifyBool.
From Verif Require Import Base L_Base M_SolRlp S_SolRlp M_BtpAddr M_Bridge M_JMap L_JMap M_SBmc S_SBmc S_SBmc2 S_SBmc3 L_SBmc L_SBmc2 X_SBmc T_SBmc T_SBmc3 T_SBmc5 T_SBmc6.
From Verif Require S_JBmc M_SolCall.
Import ListNotations.
Open Scope Z_scope.

Section BMC.
Variable own : text.
Variables self mgmt svcaddr : Z.
Variable junk : list Z -> mem.
Variable verify : nat -> Z -> text -> Z -> list Z -> option (list (list Z)).
Variable serve : nat -> Z -> bshcall -> action.
Variable blame : nat -> text.
Variable accepts : nat -> Z -> Z -> bool.
Notation exec := (M_SBmc.exec own self mgmt svcaddr junk verify serve blame accepts).
Notation step := (M_SBmc.step own self mgmt svcaddr junk verify serve blame accepts).
Notation run := (M_SBmc.run own self mgmt svcaddr junk verify serve blame accepts).
Notation outside := (S_SBmc.outside self mgmt svcaddr).

(** ** owners *)
Lemma owners_same : forall d m m', o_is m' = o_is m -> o_count m' = o_count m -> owners_ok d m -> owners_ok d m'.
Proof. intros d m m' E1 E2 H. unfold owners_ok in *. rewrite E1, E2. exact H. Qed.
Lemma rest_owners : forall m m', same_rest m m' -> o_is m' = o_is m /\ o_count m' = o_count m.
Proof. intros m m' []. split; assumption. Qed.
Lemma tstep_owners : forall m e m', tstep m e = Some m' -> o_is m' = o_is m /\ o_count m' = o_count m.
Proof.
  intros m e m' E. destruct e as [f a|f a|k|k|d n|d]; cbn [tstep] in E.
  - apply adm_addReachable in E. destruct E. split; assumption.
  - apply adm_removeReachable in E. destruct E. split; assumption.
  - unfold t_addLink in E. bnd E n F1. chk E H1. chk E H2. same E. match goal with |- o_is (addRouteInfo ?x _ _ _) = _ /\ _ => pose proof (adm_addRouteInfo x n k TLink) as [A B] end. split; [exact A|exact B].
  - unfold t_removeLink in E. chk E H1. chk E H2. bnd E n F1. bnd E m1 F2. bnd E l F3. cbv zeta in E. bnd E m2 F4. same E. apply adm_removeRouteInfo in F2. apply same_removeReached in F4. destruct F2, F4. cbn [set_relays set_links o_is o_count] in *. split; congruence.
  - chk E H. same E. pose proof (adm_addRouteInfo m d (r_next (route_of m n)) TManual) as [A B]. split; [exact A|exact B].
  - chk E H. apply adm_removeRouteInfo in E. destruct E. split; assumption.
Qed.
Lemma owners_add : forall d m a, owners_ok d m -> a <> 0 -> o_is m a = false -> owners_ok d (set_owners m (zset (o_is m) a true) (o_count m + 1)).
Proof.
  intros d m a (l & N & I & C & E & Z0) NZ NA. exists (a :: l). cbn [set_owners o_is o_count]. split; [constructor; [rewrite <- I; congruence|exact N]|]. split; [|split; [rewrite C; cbn [length]; lia|split; [discriminate|]]].
  - intros x. unfold zset. cbn [In]. destruct (x =? a) eqn:X; [split; [intros _; left; lia|reflexivity]|]. rewrite I. split; [auto|]. intros [Y|Y]; [lia|exact Y].
  - intros D. unfold zset. destruct (0 =? a) eqn:X; [lia|apply Z0, D].
Qed.
Lemma owners_remove : forall d m a, owners_ok d m -> o_is m a = true -> 1 < o_count m -> owners_ok d (set_owners m (zset (o_is m) a false) (o_count m - 1)).
Proof.
  intros d m a (l & N & I & C & E & Z0) OA P. pose proof (proj1 (I a) OA) as IA. pose proof (swap_out_perm Z.eqb Z.eqb_eq a l IA) as PM. pose proof (swap_out_nodup Z.eqb Z.eqb_eq a l N) as [S1 S2]. apply Permutation_length in PM. cbn [length] in PM.
  exists (swap_out Z.eqb a l). cbn [set_owners o_is o_count]. split; [exact S1|]. split; [|split; [lia|split]].
  - intros x. unfold zset. rewrite S2. destruct (x =? a) eqn:X; [split; [discriminate|intros [_ Y]; lia]|]. rewrite I. split; [intros Y; split; [exact Y|lia]|tauto].
  - intros Y. rewrite Y in PM. cbn [length] in PM. lia.
  - intros D. unfold zset. destruct (0 =? a); [reflexivity|apply Z0, D].
Qed.
Lemma owners_step : forall d s o s', caller_of o <> self /\ caller_of o <> mgmt /\ caller_of o <> svcaddr -> exec s o = Some s' -> owners_ok d (s_m s) -> owners_ok d (s_m s').
Proof.
  intros d s o s' OUT E T. assert (Q : s_m s' = s_m s -> owners_ok d (s_m s')) by (intros ->; exact T).
  assert (R : forall e, tstep (s_m s) e = Some (s_m s') -> owners_ok d (s_m s')) by (intros e X; apply tstep_owners in X as [X1 X2]; eapply owners_same; eassumption).
  destruct o; cbn [M_SBmc.exec] in E; cbn [caller_of] in *.
  - unfold handleRelay in E. bnd E n F1. cbv zeta in E. bnd E v F2. bnd E bs2 F3. bnd E b F4. chk E H. bnd E s1 F5. same E. apply evolve_dispatch_all in F5 as (new & G). destruct (ev_adm _ _ _ G). cbn [set_rx with_p s_m]. eapply owners_same; eassumption.
  - bnd E y F. same E. apply man_sendMessage in F. apply Q, F.
  - apply man_claim in E. apply Q, E.
  - same E. exact T.
  - apply admin_some in E as (_ & m & E & ->). chk E H. same E. apply owners_add; [exact T|lia|lia].
  - apply admin_some in E as (_ & m & E & ->). chk E H. same E. apply owners_remove; [exact T|lia|lia].
  - apply admin_some in E as (_ & m & E & ->). chk E H. same E. exact T.
  - apply admin_some in E as (_ & m & E & ->). chk E H. bnd E l F. same E. exact T.
  - apply admin_some in E as (_ & m & E & ->). chk E H. same E. exact T.
  - apply admin_some in E as (_ & m & E & ->). chk E H. bnd E l F. same E. exact T.
  - apply owner_some in E as (_ & E). apply ask_addLink in E. apply (R (TAddLink link)), E.
  - apply owner_some in E as (_ & E). apply ask_removeLink in E. apply (R (TRemoveLink link)), E.
  - apply admin_some in E as (_ & m & E & ->). chk E H. same E. exact T.
  - apply admin_some in E as (_ & m & E & ->). chk E H. bnd E l F. same E. exact T.
  - apply admin_some in E as (_ & m & E & ->). chk E H. same E. apply (R (TAddRoute dst net)). cbn [tstep]. rewrite H. reflexivity.
  - apply admin_some in E as (_ & m & E & ->). chk E H. apply (R (TRemoveRoute dst)). cbn [tstep]. rewrite H. exact E.
  - apply admin_some in E as (_ & m & E & ->). cbn [with_m s_m]. revert T E. generalize (s_m s). clear. induction l as [|[x vs] l IH]; intros m0 T E; cbn [setFeeTable] in E; [same E; exact T|]. destruct vs; [|chk E H; bnd E u F]; (eapply IH; [|exact E]; exact T).
  - apply admin_some in E as (_ & m & E & ->). same E. exact T.
  - apply owner_some in E as (_ & E). apply man_drop in E. apply Q, E.
  - exfalso. destruct OUT as (O1 & O2 & O3). destruct (caller =? inner_caller self mgmt svcaddr i) eqn:C; [|discriminate]. apply Z.eqb_eq in C. destruct i; cbn [inner_caller] in C; contradiction.
Qed.
Lemma run_inv : forall (P : st -> Prop), (forall s o s', caller_of o <> self /\ caller_of o <> mgmt /\ caller_of o <> svcaddr -> exec s o = Some s' -> P s -> P s') -> forall deployer ops, P (init deployer) -> outside ops -> P (run deployer ops).
Proof.
  intros P H deployer ops I O. unfold M_SBmc.run. revert I. generalize (init deployer). induction O as [|o ops O1 O2 IH]; intros s T; cbn [fold_left]; [exact T|]. apply IH. unfold M_SBmc.step. destruct (M_SBmc.exec _ _ _ _ _ _ _ _ _ s o) as [s'|] eqn:E; [|exact T]. eapply H; eassumption.
Qed.
(** There is always an owner, and the number kept is the number of owners. *)
Theorem C81_always_an_owner : forall deployer ops, outside ops -> owners_ok deployer (s_m (run deployer ops)).
Proof.
  intros deployer ops O. apply (run_inv (fun s => owners_ok deployer (s_m s))); [intros s o s' A B C; eapply owners_step; eassumption| |exact O].
  exists [deployer]. cbn [init s_m o_is o_count length]. split; [constructor; [intros []|constructor]|]. split; [intros a; cbn [In]; split; [intros X; left; lia|intros [X|[]]; lia]|]. split; [reflexivity|]. split; [discriminate|]. intros D. lia.
Qed.

(** Who is not an owner changes no owner, service, verifier, link, relay, fee or fee handler. *)
Lemma kept_refl : forall m, kept m m.
Proof. intros m. constructor; try reflexivity; [split; reflexivity|left; reflexivity]. Qed.
Lemma fees_run : forall es m m', trun m es = Some m' -> Forall (fun e => match e with TAnnounce _ _ | TWithdraw _ _ => True | _ => False end) es -> forall d, fees_of m' d = fees_of m d \/ fees_of m' d = [].
Proof.
  induction es as [|e es IH]; intros m m' E F d; cbn [trun] in E; [same E; left; reflexivity|]. bnd E m1 G. inversion F as [|? ? F1 F2]; subst. specialize (IH _ _ E F2 d).
  assert (X : fees_of m1 d = fees_of m d \/ fees_of m1 d = []).
  { destruct e as [f a|f a|k|k|x n|x]; try contradiction; cbn [tstep] in G.
    - unfold addReachable in G. cbv zeta in G. bnd G n G1. same G. match goal with |- context [addRouteInfo ?y ?a ?b ?c] => pose proof (addRouteInfo_is y a b c) as (_ & Y & _) end. rewrite Y. left. reflexivity.
    - unfold removeReachable in G. cbv zeta in G. bnd G l G1. bnd G n G2. apply removeRouteInfo_is in G. cbv zeta in G. destruct G as (_ & _ & _ & [(_ & Y & _)|(_ & _ & _ & _ & Y1 & Y2)]); [rewrite Y; left; reflexivity|]. destruct (text_dec d n) as [->|N]; [right; exact Y1|left; apply Y2, N]. }
  destruct IH as [IH|IH]; [|right; exact IH]. rewrite IH. exact X.
Qed.
Lemma asked_kinds : forall hs bs es, asked own svcaddr junk hs bs es -> Forall (fun e => match e with TAnnounce _ _ | TWithdraw _ _ => True | _ => False end) es.
Proof.
  intros hs bs es A. induction A as [|b bs es A IH|b bs es m D1 D2 D3 D4 A IH]; [constructor|exact IH|]. apply Forall_app. split; [|exact IH]. unfold asks. destruct (decodeBMCMessage junk (m_body m)) as [[t p]|]; [|constructor].
  destruct (bytes_eqb t (str "Link")); [destruct (decodePropagateMessage junk p); repeat constructor|]. destruct (bytes_eqb t (str "Unlink")); [destruct (decodePropagateMessage junk p); repeat constructor|].
  destruct (bytes_eqb t (str "Init")); [|constructor]. destruct (decodeInitMessage junk p) as [l|]; [|constructor]. apply Forall_forall. intros e I. apply in_map_iff in I as (a & <- & _). exact Logic.I.
Qed.
Theorem C81_only_owners : forall s o s', caller_of o <> self /\ caller_of o <> mgmt /\ caller_of o <> svcaddr -> exec s o = Some s' -> o_is (s_m s) (caller_of o) = false -> kept (s_m s) (s_m s').
Proof.
  intros s o s' OUT E NO. assert (Q : s_m s' = s_m s -> kept (s_m s) (s_m s')) by (intros ->; apply kept_refl).
  destruct o; cbn [M_SBmc.exec] in E; cbn [caller_of] in *; try (apply admin_some in E as (X & _); congruence); try (apply owner_some in E as (X & _); congruence).
  - pose proof E as E2. apply ask_relay in E as (es & net & bs & _ & _ & A & D). unfold handleRelay in E2. bnd E2 n F1. cbv zeta in E2. bnd E2 v F2. bnd E2 bs2 F3. bnd E2 b F4. chk E2 H. bnd E2 s1 F5. same E2. apply evolve_dispatch_all in F5 as (new & G). destruct (ev_adm _ _ _ G).
    cbn [set_rx with_p s_m] in *. constructor; try assumption; [split; assumption| |].
    + intros k. unfold isLink. rewrite sa_addr. reflexivity.
    + eapply fees_run; [exact D|]. eapply asked_kinds, A.
  - bnd E y F. same E. apply man_sendMessage in F. apply Q, F.
  - apply man_claim in E. apply Q, E.
  - same E. apply kept_refl.
  - exfalso. destruct OUT as (O1 & O2 & O3). destruct (caller =? inner_caller self mgmt svcaddr i) eqn:C; [|discriminate]. apply Z.eqb_eq in C. destruct i; cbn [inner_caller] in C; contradiction.
Qed.
(** The methods the contracts have for each other refuse everybody else; a message is sent only by the service it is for; messages are taken only from a relay of the link. *)
Theorem C81_callers : forall s,
  (forall c i, c <> self /\ c <> mgmt /\ c <> svcaddr -> exec s (Inner c i) = None) /\
  (forall c v to svc sn b s', c <> svcaddr -> exec s (SendMessage c v to svc sn b) = Some s' -> h_of (s_m s) svc = c /\ c <> 0) /\
  (forall c prev b s', exec s (HandleRelay c prev b) = Some s' -> isLink (s_m s) prev = true /\ In c (relays_of (s_m s) prev)).
Proof.
  intros s. split; [|split].
  - intros c i (O1 & O2 & O3). cbn [M_SBmc.exec]. destruct (c =? inner_caller self mgmt svcaddr i) eqn:C; [|reflexivity]. apply Z.eqb_eq in C. exfalso. destruct i; cbn [inner_caller] in C; contradiction.
  - intros c v to svc sn b s' N E. cbn [M_SBmc.exec] in E. bnd E y F. unfold sendMessage in F. cbv zeta in F. bnd F u F1. replace (c =? svcaddr) with false in F1 by lia. bnd F1 a F2. unfold getService in F2. chk F2 H. same F2. unfold existsService in H. destruct (h_of (s_m s) svc =? c) eqn:X; [|discriminate]. lia.
  - intros c prev b s' E. cbn [M_SBmc.exec] in E. unfold handleRelay in E. bnd E n F1. cbv zeta in E. bnd E v F2. bnd E bs2 F3. bnd E r F4. chk E H. unfold isLinkRelay in F4. chk F4 L. apply some_inj in F4. rewrite H in F4. symmetry in F4. split; [exact L|]. apply existsb_exists in F4 as (x & I & X). apply Z.eqb_eq in X. rewrite <- X. exact I.
Qed.

(** ** the latest decision stands *)
Record effect (m : man) (o : op) (m' : man) : Prop := Effect {
  ef_service : forall k, h_of m' k = match says_service k o with Some v => v | None => h_of m k end;
  ef_verifier : forall k, v_of m' k = match says_verifier k o with Some v => v | None => v_of m k end;
  ef_owner : forall a, o_is m' a = match says_owner a o with Some v => v | None => o_is m a end;
  ef_link : forall k, isLink m' k = match says_link k o with Some v => v | None => isLink m k end;
  ef_relay : forall k a, In a (relays_of m' k) <-> match says_relay k a o with Some v => v = true | None => In a (relays_of m k) end;
  ef_handler : fee_handler m' = match says_handler o with Some v => v | None => fee_handler m end }.
Lemma effect_same : forall m o m', same_adm m m' -> (forall k, says_service k o = None) -> (forall k, says_verifier k o = None) -> (forall a, says_owner a o = None) -> (forall k, says_link k o = None) -> (forall k a, says_relay k a o = None) -> says_handler o = None -> effect m o m'.
Proof.
  intros m o m' [] A B C D E F. constructor; intros.
  - rewrite A, sa_h. reflexivity.
  - rewrite B, sa_v. reflexivity.
  - rewrite C, sa_is. reflexivity.
  - rewrite D. unfold isLink. rewrite sa_addr. reflexivity.
  - rewrite E, sa_relays. tauto.
  - rewrite F. exact sa_handler.
Qed.
Lemma fees_same : forall l m m', setFeeTable m l = Some m' -> same_adm m m'.
Proof.
  induction l as [|[x vs] l IH]; intros m m' E; cbn [setFeeTable] in E; [same E; apply same_adm_refl|]. destruct vs; [|chk E H; bnd E u F]; (eapply same_adm_trans; [|eapply IH, E]); constructor; reflexivity.
Qed.
Lemma eqb_flip : forall a b, bytes_eqb a b = true -> a = b.
Proof. intros a b. apply bytes_eqb_spec. Qed.
Lemma exec_effect : forall s o s', caller_of o <> self /\ caller_of o <> mgmt /\ caller_of o <> svcaddr -> tidy (s_m s) -> exec s o = Some s' -> effect (s_m s) o (s_m s').
Proof.
  intros s o s' OUT T E. assert (Q : s_m s' = s_m s -> same_adm (s_m s) (s_m s')) by (intros ->; apply same_adm_refl).
  destruct o; cbn [M_SBmc.exec] in E; cbn [caller_of] in *.
  - unfold handleRelay in E. bnd E n F1. cbv zeta in E. bnd E v F2. bnd E bs2 F3. bnd E b F4. chk E H. bnd E s1 F5. same E. apply evolve_dispatch_all in F5 as (new & G). apply effect_same; try reflexivity. exact (ev_adm _ _ _ G).
  - bnd E y F. same E. apply man_sendMessage in F. apply effect_same; try reflexivity. apply Q, F.
  - apply man_claim in E. apply effect_same; try reflexivity. apply Q, E.
  - same E. apply effect_same; try reflexivity. apply same_adm_refl.
  - apply admin_some in E as (_ & m & E & ->). chk E H. same E. constructor; intros; cbn [with_m s_m set_owners says_service says_verifier says_owner says_link says_relay says_handler o_is h_of v_of relays_of fee_handler]; try reflexivity.
    unfold zset. rewrite (Z.eqb_sym a a0). destruct (a0 =? a); reflexivity.
  - apply admin_some in E as (_ & m & E & ->). chk E H. same E. constructor; intros; cbn [with_m s_m set_owners says_service says_verifier says_owner says_link says_relay says_handler o_is h_of v_of relays_of fee_handler]; try reflexivity.
    unfold zset. rewrite (Z.eqb_sym a a0). destruct (a0 =? a); reflexivity.
  - apply admin_some in E as (_ & m & E & ->). chk E H. same E. constructor; intros; cbn [with_m s_m set_services says_service says_verifier says_owner says_link says_relay says_handler o_is h_of v_of relays_of fee_handler]; try reflexivity.
    unfold tset. rewrite (bytes_eqb_sym k svc). destruct (bytes_eqb svc k); reflexivity.
  - apply admin_some in E as (_ & m & E & ->). chk E H. bnd E l F. same E. constructor; intros; cbn [with_m s_m set_services says_service says_verifier says_owner says_link says_relay says_handler o_is h_of v_of relays_of fee_handler]; try reflexivity.
    unfold tset. rewrite (bytes_eqb_sym k svc). destruct (bytes_eqb svc k); reflexivity.
  - apply admin_some in E as (_ & m & E & ->). chk E H. same E. constructor; intros; cbn [with_m s_m set_verifiers says_service says_verifier says_owner says_link says_relay says_handler o_is h_of v_of relays_of fee_handler]; try reflexivity.
    unfold tset. rewrite (bytes_eqb_sym k net). destruct (bytes_eqb net k); reflexivity.
  - apply admin_some in E as (_ & m & E & ->). chk E H. bnd E l F. same E. constructor; intros; cbn [with_m s_m set_verifiers says_service says_verifier says_owner says_link says_relay says_handler o_is h_of v_of relays_of fee_handler]; try reflexivity.
    unfold tset. rewrite (bytes_eqb_sym k net). destruct (bytes_eqb net k); reflexivity.
  - apply owner_some in E as (_ & E). apply ask_addLink in E. unfold t_addLink in E. bnd E n F1. chk E H1. chk E H2. apply some_inj in E. rewrite E. clear E Q. match goal with |- effect _ _ (addRouteInfo ?x _ _ _) => pose proof (adm_addRouteInfo x n link TLink) as A end. destruct A.
    cbn [set_links o_is o_count v_of h_of relays_of fee_handler link_of] in *. constructor; intros; cbn [says_service says_verifier says_owner says_link says_relay says_handler].
    + rewrite sa_h. reflexivity.
    + rewrite sa_v. reflexivity.
    + rewrite sa_is. reflexivity.
    + unfold isLink. rewrite sa_addr. unfold tset. rewrite (bytes_eqb_sym k link). destruct (bytes_eqb link k) eqn:X; [|reflexivity]. cbn [l_addr]. destruct link; [discriminate F1|reflexivity].
    + rewrite sa_relays. tauto.
    + exact sa_handler.
  - apply owner_some in E as (_ & E). apply ask_removeLink in E. unfold t_removeLink in E. chk E H1. chk E H2. bnd E n F1. bnd E m1 F2. bnd E l F3. cbv zeta in E. bnd E m2 F4. apply some_inj in E. rewrite E. clear E Q. apply adm_removeRouteInfo in F2. apply same_removeReached in F4.
    destruct F2 as [A1 A2 A3 A4 A5 A6 A7 A8 A9 A10]. destruct F4 as [B1 B2 B3 B4 B5 B6 B7 BL B8 B9]. cbn [set_links o_is o_count v_of v_keys h_of h_keys links relays_of fee_handler link_of] in *. constructor; intros; cbn [set_relays set_links o_is o_count v_of h_of relays_of fee_handler link_of says_service says_verifier says_owner says_link says_relay says_handler].
    + congruence.
    + congruence.
    + congruence.
    + unfold isLink. cbn [set_relays set_links link_of]. unfold tset. rewrite (bytes_eqb_sym k link). destruct (bytes_eqb link k) eqn:X; [reflexivity|]. rewrite BL, A10. reflexivity.
    + unfold tset. rewrite (bytes_eqb_sym k link). destruct (bytes_eqb link k) eqn:X; [split; [intros []|discriminate]|]. rewrite B8, A8. tauto.
    + congruence.
  - apply admin_some in E as (_ & m & E & ->). chk E H. same E. constructor; intros; cbn [with_m s_m set_relays says_service says_verifier says_owner says_link says_relay says_handler o_is h_of v_of relays_of fee_handler]; try reflexivity.
    unfold tset. rewrite (bytes_eqb_sym k link). destruct (bytes_eqb link k) eqn:X; cbn [andb]; [|tauto]. apply eqb_flip in X. subst k. rewrite in_app_iff. cbn [In]. destruct (a =? a0) eqn:Y; [split; [reflexivity|]; intros _; right; left; lia|]. split; [intros [Z0|[Z0|[]]]; [exact Z0|lia]|auto].
  - apply admin_some in E as (_ & m & E & ->). chk E H. bnd E l F. same E. constructor; intros; cbn [with_m s_m set_relays says_service says_verifier says_owner says_link says_relay says_handler o_is h_of v_of relays_of fee_handler]; try reflexivity.
    unfold tset. rewrite (bytes_eqb_sym k link). destruct (bytes_eqb link k) eqn:X; cbn [andb]; [|tauto]. apply eqb_flip in X. subst k. apply removeFrom_some in F as (_ & ->). pose proof (swap_out_nodup Z.eqb Z.eqb_eq a _ (proj1 (ty_relays _ T link))) as [_ W]. rewrite W. destruct (a =? a0) eqn:Y; [split; [intros [_ Z0]; lia|discriminate]|]. split; [tauto|]. intros Z0. split; [exact Z0|lia].
  - apply admin_some in E as (_ & m & E & ->). chk E H. same E. apply effect_same; try reflexivity. apply adm_addRouteInfo.
  - apply admin_some in E as (_ & m & E & ->). chk E H. apply effect_same; try reflexivity. eapply adm_removeRouteInfo, E.
  - apply admin_some in E as (_ & m & E & ->). apply effect_same; try reflexivity. eapply fees_same, E.
  - apply admin_some in E as (_ & m & E & ->). same E. constructor; intros; reflexivity.
  - apply owner_some in E as (_ & E). apply man_drop in E. apply effect_same; try reflexivity. apply Q, E.
  - exfalso. destruct OUT as (O1 & O2 & O3). destruct (caller =? inner_caller self mgmt svcaddr i) eqn:C; [|discriminate]. apply Z.eqb_eq in C. destruct i; cbn [inner_caller] in C; contradiction.
Qed.
Lemma latest_snoc : forall A (f : op -> option A) l d o, latest f d (l ++ [o]) = match f o with Some v => v | None => latest f d l end.
Proof. induction l as [|x l IH]; intros d o; cbn [app latest]; [reflexivity|apply IH]. Qed.
Lemma done_snoc : forall ops s o, done exec s (ops ++ [o]) = done exec s ops ++ match exec (fold_left step ops s) o with Some _ => [o] | None => [] end.
Proof.
  induction ops as [|x ops IH]; intros s o; cbn [app done fold_left]; [destruct (M_SBmc.exec _ _ _ _ _ _ _ _ _ s o); reflexivity|].
  change (step s x) with (match exec s x with Some s' => s' | None => s end). destruct (M_SBmc.exec _ _ _ _ _ _ _ _ _ s x); rewrite IH; reflexivity.
Qed.
(** At any time the service behind a name, the verifier of a network, the owners, the links, their relays and the fee
    handler are what the last call that did not revert decided. *)
Theorem C81_latest_decision : forall deployer ops, outside ops -> let l := done exec (init deployer) ops in let m := s_m (run deployer ops) in
  (forall k, h_of m k = latest (says_service k) 0 l) /\ (forall k, v_of m k = latest (says_verifier k) 0 l) /\ (forall a, o_is m a = latest (says_owner a) (a =? deployer) l) /\
  (forall k, isLink m k = latest (says_link k) false l) /\ (forall k a, In a (relays_of m k) <-> latest (says_relay k a) false l = true) /\ fee_handler m = latest says_handler 0 l.
Proof.
  intros deployer ops. induction ops as [|o ops IH] using rev_ind; intros O.
  - cbn [done latest]. change (run deployer []) with (init deployer). cbn [init s_m h_of v_of o_is relays_of fee_handler]. do 3 (split; [reflexivity|]). split; [reflexivity|]. split; [|reflexivity]. intros k a. split; [intros []|discriminate].
  - apply Forall_app in O as [O1 O2]. inversion O2 as [|? ? O3 _]; subst. specialize (IH O1). cbv zeta in IH. destruct IH as (I1 & I2 & I3 & I4 & I5 & I6).
    pose proof (C80_tables_agree own self mgmt svcaddr junk verify serve blame accepts deployer ops O1) as T.
    rewrite done_snoc. change (fold_left step ops (init deployer)) with (run deployer ops). assert (RS : run deployer (ops ++ [o]) = step (run deployer ops) o) by (unfold M_SBmc.run; rewrite fold_left_app; reflexivity). rewrite RS. clear RS.
    change (step (run deployer ops) o) with (match exec (run deployer ops) o with Some s' => s' | None => run deployer ops end).
    destruct (M_SBmc.exec _ _ _ _ _ _ _ _ _ (run deployer ops) o) as [s'|] eqn:E.
    + pose proof (exec_effect _ _ _ O3 T E) as [E1 E2 E3 E4 E5 E6]. cbv zeta. split; [intros k; rewrite latest_snoc, E1, I1; reflexivity|]. split; [intros k; rewrite latest_snoc, E2, I2; reflexivity|]. split; [intros a; rewrite latest_snoc, E3, I3; reflexivity|].
      split; [intros k; rewrite latest_snoc, E4, I4; reflexivity|]. split; [|rewrite latest_snoc, E6, I6; reflexivity]. intros k a. rewrite latest_snoc, E5. destruct (says_relay k a o); [tauto|apply I5].
    + rewrite app_nil_r. cbv zeta. tauto.
Qed.

(** ** rewards *)
Definition ge (x x' : ser) : Prop := forall net a, getReward x net a <= getReward x' net a.
Lemma ge_refl : forall x, ge x x.
Proof. intros x net a. lia. Qed.
Lemma ge_trans : forall a b c, ge a b -> ge b c -> ge a c.
Proof. intros a b c P Q net x. specialize (P net x). specialize (Q net x). lia. Qed.
Lemma ge_same : forall x x', rewards x' = rewards x -> ge x x'.
Proof. intros x x' E net a. unfold getReward. rewrite E. lia. Qed.
Lemma ge_add : forall x net a v x', addReward x net a v = Some x' -> ge x x'.
Proof.
  intros x net a v x' E. unfold addReward in E. destruct (0 <? v) eqn:P; [|same E; apply ge_refl]. bnd E y F. same E. unfold cadd in F. destruct (_ <? _) in F; [|discriminate]. same F. intros n b. rewrite getReward_put. destruct ((a =? b) && bytes_eqb net n) eqn:X.
  - apply andb_true_iff in X as [X1 X2]. apply Z.eqb_eq in X1. apply bytes_eqb_spec in X2. subst. lia.
  - destruct x as [rs qs ws]. unfold getReward. cbn [rewards]. lia.
Qed.
Lemma ge_collect : forall x f y, collectRemainFee self x f = Some y -> ge x (fst y).
Proof. intros x f y E. unfold collectRemainFee in E. bnd E t F. bnd E x1 F2. same E. eapply ge_add, F2. Qed.
Lemma ge_accum : forall x a f y, accumulateFee x a f = Some y -> ge x (fst y).
Proof. intros x a f y E. unfold accumulateFee in E. destruct (f_vals f); [same E; apply ge_refl|]. bnd E x1 F2. same E. eapply ge_add, F2. Qed.
Lemma ge_handleFee : forall x a b y, handleFee own self junk x a b = Some y -> ge x (fst y).
Proof.
  intros x a b y E. unfold handleFee in E. bnd E m F1. bnd E z F2. apply ge_accum in F2. destruct z as [x1 f]. cbn [fst] in F2. cbv zeta in E. eapply ge_trans; [exact F2|]. destruct (bytes_eqb _ _); [|same E; apply ge_refl]. destruct (0 <? _); bnd E z2 F3; same E; apply ge_collect in F3; [|exact F3]. eapply ge_trans; [exact F3|apply ge_same; reflexivity].
Qed.
Lemma ge_errorFee : forall g x src sn f y, handleErrorFee self g x src sn f = Some y -> ge x (fst y).
Proof. intros g x src sn f y E. unfold handleErrorFee in E. destruct (0 <? sn); [|eapply ge_collect, E]. cbv zeta in E. destruct (_ && _)%bool in E; same E; apply ge_refl. Qed.
Lemma ser_event : forall s m next e s', event s m next e = Some s' -> s_s s' = s_s s.
Proof. intros s m next e s' E. unfold event in E. destruct (_ <? _); [bnd E n F|]; same E; reflexivity. Qed.
Lemma ser_send : forall s next m e s', send s next m e = Some s' -> s_s s' = s_s s.
Proof. intros s next m e s' E. unfold send in E. bnd E b F. cbv zeta in E. apply ser_event in E. exact E. Qed.
Lemma ge_sendError : forall s prev seq m code reason s', sendError own self s prev seq m code reason = Some s' -> ge (s_s s) (s_s s').
Proof.
  intros s prev seq m code reason s' E. unfold sendError in E. bnd E y F. cbv zeta in E. apply ge_errorFee in F. eapply ge_trans; [exact F|]. destruct (0 <? _).
  - bnd E a F1. bnd E b F2. bnd E c F3. apply ser_send in E. rewrite E. apply ge_refl.
  - bnd E s1 F1. bnd E b F2. same E. apply ser_event in F1. cbn [emit s_s]. rewrite F1. apply ge_refl.
Qed.
Lemma ge_over : forall s v s', collectOverFee own self s v = Some s' -> ge (s_s s) (s_s s').
Proof. intros s v s' E. unfold collectOverFee in E. destruct (_ <? _); [bnd E x F|]; same E; [eapply ge_add, F|apply ge_refl]. Qed.
Lemma ge_sendWithFee : forall s internal v to svc sn b r f y, sendWithFee own self s internal v to svc sn b r f = Some y -> ge (s_s s) (s_s (fst y)).
Proof.
  intros s internal v to svc sn b r f y E. unfold sendWithFee in E. bnd E next F. destruct r.
  - bnd E z F1. bnd E s1 F2. bnd E n F3. bnd E s2 F4. same E. unfold removeResponse in F1. cbv zeta in F1. chk F1 H. same F1. apply ge_over in F2. apply ser_send in F4. cbn [fst]. rewrite F4. eapply ge_trans; [|exact F2]. apply ge_same. reflexivity.
  - cbv zeta in E. destruct internal.
    + bnd E s1 F1. same E. apply ser_send in F1. cbn [fst]. rewrite F1. apply ge_refl.
    + bnd E z F1. chk E H. bnd E s1 F2. bnd E s2 F3. same E. apply ge_over in F2. apply ser_send in F3. cbn [fst]. rewrite F3. exact F2.
Qed.
Lemma ge_sendMessage : forall s c v to svc sn b y, sendMessage own self svcaddr s c v to svc sn b = Some y -> ge (s_s s) (s_s (fst y)).
Proof.
  intros s c v to svc sn b y E. unfold sendMessage in E. cbv zeta in E. bnd E u F1. bnd E z F2. same E. change (ge (s_s s) (s_s (fst z))). destruct (sn <? 0); [bnd F2 n F3|]; eapply ge_sendWithFee; eassumption.
Qed.
Lemma ge_calls : forall cs s a s', run_calls own self svcaddr s a cs = Some s' -> ge (s_s s) (s_s s').
Proof.
  induction cs as [|c cs IH]; intros s a s' E; cbn [run_calls] in E; [same E; apply ge_refl|]. destruct (sendMessage _ _ _ _ _ _ _ _ _ _) as [[s1 n]|] eqn:F.
  - apply ge_sendMessage in F. apply IH in E. eapply ge_trans; eassumption.
  - destruct (c_catch c); [apply IH in E; exact E|discriminate].
Qed.
Lemma ge_handleResponse : forall s n r s', handleResponse s n r = Some s' -> ge (s_s s) (s_s s').
Proof.
  intros s n r s' E. unfold handleResponse in E. destruct (aget _ _ _); [|discriminate]. chk E H. cbv zeta in E. bnd E x F. same E. cbn [emit with_s s_s]. destruct (r =? _); [same F; apply ge_same; reflexivity|]. apply ge_add in F. eapply ge_trans; [|exact F]. apply ge_same. reflexivity.
Qed.
Lemma ge_internal : forall s from n b s', internalMessage own self svcaddr junk s from n b = Some s' -> ge (s_s s) (s_s s').
Proof.
  intros s from n b s' E. unfold internalMessage in E. bnd E y F. destruct y as [type p].
  destruct (bytes_eqb type (str "Claim")). { bnd E c F1. bnd E r F2. bnd E x F3. bnd E k F4. bnd E e F5. bnd E e2 F6. bnd E z F7. same E. apply ge_add in F3. apply ge_sendMessage in F7. eapply ge_trans; eassumption. }
  destruct (bytes_eqb type (str "Response")). { bnd E c F1. eapply ge_handleResponse, E. }
  destruct (bytes_eqb type (str "Link")). { bnd E c F1. bnd E m F2. same E. apply ge_refl. }
  destruct (bytes_eqb type (str "Unlink")). { bnd E c F1. bnd E m F2. same E. apply ge_refl. }
  destruct (bytes_eqb type (str "Init")); [|discriminate]. bnd E c F1. bnd E m F2. same E. apply ge_refl.
Qed.
Lemma ge_service : forall s a c s', call_service own self mgmt svcaddr junk serve blame s a c = Some (inl s') -> ge (s_s s) (s_s s').
Proof.
  intros s a c s' E. unfold call_service in E. destruct (a =? svcaddr).
  - destruct c as [src svc sn b|src svc sn code t].
    + destruct (internalMessage _ _ _ _ _ _ _ _) eqn:F; [|discriminate]. apply some_inj in E. injection E as ->. eapply ge_internal, F.
    + destruct (internalError _ _ _) eqn:F; [|discriminate]. apply some_inj in E. injection E as ->. eapply ge_handleResponse, F.
  - destruct (_ || _)%bool in E; [discriminate|]. destruct (serve _ _ _); [discriminate|discriminate|]. destruct (run_calls _ _ _ _ _ _) eqn:F; [|discriminate]. apply some_inj in E. injection E as ->. eapply ge_calls, F.
Qed.
Lemma ge_message : forall s m y, handleMessage own self mgmt svcaddr junk serve blame s m = Some y -> ge (s_s s) (s_s (fst y)).
Proof.
  intros s m y E. unfold handleMessage in E. cbv zeta in E. bnd E sn F. destruct (if bytes_eqb (m_svc m) BMC_SERVICE then Some svcaddr else getService (s_m s) (m_svc m)) as [a|]; [|same E; apply ge_refl].
  assert (K : forall c fault z, sbind (call_service own self mgmt svcaddr junk serve blame s a c) (fun r => Some (match r with inl s' => (s', (ECODE_NONE, [])) | inr reason => (s, (fault, reason)) end)) = Some z -> ge (s_s s) (s_s (fst z))).
  { intros c fault z G. bnd G r G1. same G. destruct r; [eapply ge_service, G1|apply ge_refl]. }
  destruct (0 <=? m_sn m); [eapply K, E|]. destruct (decodeResponseMessage _ _) as [[code t]|]; [|same E; apply ge_refl]. bnd E n G. eapply K, E.
Qed.
Lemma ge_dispatch : forall s prev seq m s', dispatch own self mgmt svcaddr junk serve blame s prev seq m = Some s' -> ge (s_s s) (s_s s').
Proof.
  intros s prev seq m s' E. unfold dispatch in E. destruct (bytes_eqb _ _).
  - bnd E y F. apply ge_message in F. destruct y as [s1 e]. cbn [fst] in F. destruct (fst e =? _).
    + apply ser_event in E. rewrite E. exact F.
    + bnd E s2 F2. apply ge_sendError in E. eapply ge_trans; [exact F|]. eapply ge_trans; [|exact E]. destruct (0 <? _); [|same F2; apply ge_refl]. bnd F2 z F3. same F2. unfold removeResponse in F3. cbv zeta in F3. chk F3 H. same F3. apply ge_same. reflexivity.
  - destruct (resolveNext _ _); [apply ser_send in E; rewrite E; apply ge_refl|]. eapply ge_sendError, E.
Qed.
Lemma ge_all : forall bs s c prev rx s', dispatch_all own self mgmt svcaddr junk serve blame s c prev rx bs = Some s' -> ge (s_s s) (s_s s').
Proof.
  induction bs as [|b bs IH]; intros s c prev rx s' E; cbn [dispatch_all] in E; [same E; apply ge_refl|]. bnd E y F1. bnd E s1 F2. apply ge_handleFee in F1. apply ge_dispatch in F2. apply IH in E. eapply ge_trans; [exact F1|]. eapply ge_trans; eassumption.
Qed.
Lemma ser_sendInternal : forall s k b s', sendInternal own s k b = Some s' -> s_s s' = s_s s.
Proof. intros s k b s' E. unfold sendInternal in E. bnd E n F. cbv zeta in E. apply ser_send in E. exact E. Qed.
Lemma ser_propagate : forall l s b s', propagate own s l b = Some s' -> s_s s' = s_s s.
Proof. induction l as [|k l IH]; intros s b s' E; cbn [propagate] in E; [same E; reflexivity|]. bnd E s1 F. apply ser_sendInternal in F. apply IH in E. congruence. Qed.
Lemma claim_some : forall s c v net r s', claimReward own self svcaddr accepts s c v net r = Some s' -> let a := claims_for self (s_m s) c in let w := getReward (s_s s) net a in
  0 < w /\ getReward (s_s s') net a = 0 /\ (forall n b, (n, b) <> (net, a) -> getReward (s_s s) n b <= getReward (s_s s') n b) /\
  ((net = own /\ exists ra, parseAddress r = Some ra /\ accepts (length (s_out s)) ra w = true /\ s_out s' = s_out s ++ [OPaid v; OTransfer ra w; OClaim a net r w 0] /\ requests (s_s s') = requests (s_s s)) \/
   (net <> own /\ aget Z.eqb (nsn_of (s_p s) + 1) (requests (s_s s')) = Some (Request net a w) /\ nsn_of (s_p s') = nsn_of (s_p s) + 1)).
Proof.
  intros s c v net r s' E. unfold claimReward in E. fold (claims_for self (s_m s) c) in E. cbv zeta in E. cbv zeta. set (a := claims_for self (s_m s) c) in *. set (w := getReward (s_s s) net a) in *.
  bnd E y F. unfold clearReward in F. cbv zeta in F. fold w in F. chk F P. apply some_inj in F. subst y. cbn [fst snd] in E. split; [lia|].
  set (x := Ser (responses (s_s s)) (requests (s_s s)) (aput rkey_eqb (a, net) 0 (rewards (s_s s)))) in *.
  assert (X1 : getReward x net a = 0). { unfold x. rewrite getReward_put, Z.eqb_refl, bytes_eqb_refl. reflexivity. }
  assert (X2 : forall n b, (n, b) <> (net, a) -> getReward (s_s s) n b = getReward x n b).
  { intros n b N. unfold x. rewrite getReward_put. destruct ((a =? b) && bytes_eqb net n) eqn:X; [|reflexivity]. apply andb_true_iff in X as [Y1 Y2]. apply Z.eqb_eq in Y1. apply bytes_eqb_spec in Y2. subst. congruence. }
  destruct (bytes_eqb own net) eqn:O.
  - apply bytes_eqb_spec in O. bnd E ra F1. chk E H. same E. cbn [emit with_s s_s]. split; [exact X1|]. split; [intros n b N; rewrite (X2 n b N); lia|]. left. split; [symmetry; exact O|]. exists ra. cbn [emit with_s s_out] in *. split; [exact F1|]. split; [exact H|]. split; [rewrite <- !app_assoc; reflexivity|reflexivity].
  - assert (NO : net <> own) by (intros ->; rewrite bytes_eqb_refl in O; discriminate). bnd E cl F1. bnd E b F2. bnd E z F3. destruct z as [s1 n]. same E. cbn [emit with_s s_s s_p].
    pose proof (ge_sendWithFee _ _ _ _ _ _ _ _ _ _ F3) as G. cbn [fst with_s s_s] in G.
    assert (K : getReward (s_s s1) net a = 0 /\ n = nsn_of (s_p s) + 1 /\ nsn_of (s_p s1) = nsn_of (s_p s) + 1).
    { unfold sendWithFee in F3. bnd F3 next F4. cbv zeta in F3. assert (SN : forall q next m e q', send q next m e = Some q' -> nsn_of (s_p q') = nsn_of (s_p q)).
      { intros q nx m e q' Q. unfold send in Q. bnd Q u Q1. cbv zeta in Q. unfold event in Q. destruct (_ <? _) in Q; [bnd Q n9 QQ|]; same Q; reflexivity. }
      destruct (c =? svcaddr).
      - bnd F3 s2 F5. injection F3 as <- <-. pose proof (ser_send _ _ _ _ _ F5) as F6. pose proof (SN _ _ _ _ _ F5) as F7. rewrite F6, F7. split; [exact X1|]. split; reflexivity.
      - bnd F3 q F5. chk F3 H. bnd F3 s2 F6. bnd F3 s3 F7. injection F3 as <- <-. pose proof (ser_send _ _ _ _ _ F7) as F8. pose proof (SN _ _ _ _ _ F7) as F9. rewrite F8, F9. unfold collectOverFee in F6. destruct (0 <? _) in F6.
        + bnd F6 x2 F10. same F6. cbn [next_nsn with_p with_s s_s s_p nsn_of] in *. split; [|split; reflexivity]. unfold addReward in F10. destruct (0 <? _) in F10; [|same F10; exact X1]. bnd F10 vv F11. same F10. rewrite getReward_put. replace (bytes_eqb own net) with false by (symmetry; exact O). rewrite andb_false_r. exact X1.
        + same F6. split; [exact X1|]. split; reflexivity. }
    destruct K as (K1 & K2 & K3). split; [exact K1|]. split; [intros n0 b0 N; rewrite (X2 n0 b0 N); apply G|]. right. split; [exact NO|]. split; [|exact K3]. unfold addRequest. cbn [requests]. rewrite K2. apply (aput_same _ Z.eqb_eq).
Qed.
(** A reward shrinks only when it is claimed, by its owner (the message center's own by the fee handler). *)
Theorem C81_rewards_kept : forall s o s' net a, caller_of o <> self /\ caller_of o <> mgmt /\ caller_of o <> svcaddr -> exec s o = Some s' ->
  getReward (s_s s') net a < getReward (s_s s) net a -> exists v r, o = ClaimReward (caller_of o) v net r /\ a = claims_for self (s_m s) (caller_of o) /\ getReward (s_s s') net a = 0.
Proof.
  intros s o s' net a OUT E L. assert (Q : ge (s_s s) (s_s s') -> False) by (intros G; specialize (G net a); lia).
  destruct o; cbn [M_SBmc.exec] in E; cbn [caller_of] in *; try (exfalso; apply Q; apply admin_some in E as (_ & m & E & ->); apply ge_refl).
  - exfalso. apply Q. unfold handleRelay in E. bnd E n F1. cbv zeta in E. bnd E v F2. bnd E bs2 F3. bnd E b F4. chk E H. bnd E s1 F5. same E. apply ge_all in F5. exact F5.
  - exfalso. apply Q. bnd E y F. same E. eapply ge_sendMessage, F.
  - apply claim_some in E. cbv zeta in E. destruct E as (P & Z0 & K & _). exists value, receiver. destruct (text_dec net0 net) as [->|N].
    + destruct (Z.eq_dec a (claims_for self (s_m s) caller)) as [->|NA]; [auto|]. exfalso. specialize (K net a). assert (W : (net, a) <> (net, claims_for self (s_m s) caller)) by congruence. specialize (K W). lia.
    + exfalso. specialize (K net a). assert (W : (net, a) <> (net0, claims_for self (s_m s) caller)) by congruence. specialize (K W). lia.
  - same E. exfalso. apply Q, ge_refl.
  - exfalso. apply Q. apply owner_some in E as (_ & E). unfold addLink in E. bnd E n F1. chk E H1. chk E H2. bnd E p F2. bnd E b F3. bnd E s1 F4. bnd E i F5. bnd E b2 F6. cbv zeta in E. apply ser_sendInternal in E. apply ser_propagate in F4. rewrite E. cbn [with_m s_s]. rewrite F4. apply ge_refl.
  - exfalso. apply Q. apply owner_some in E as (_ & E). unfold removeLink in E. cbv zeta in E. chk E H1. chk E H2. bnd E n F1. bnd E m1 F2. bnd E l F3. bnd E m2 F4. bnd E p F5. bnd E b F6. apply ser_propagate in E. rewrite E. apply ge_refl.
  - exfalso. apply Q. apply owner_some in E as (_ & E). unfold dropMessage in E. bnd E k F1. chk E H1. chk E H2. bnd E y F2. unfold p_dropMessage in E. chk E H3. apply ge_sendError in E. apply ge_accum in F2. eapply ge_trans; [exact F2|exact E].
  - exfalso. destruct OUT as (O1 & O2 & O3). destruct (caller =? inner_caller self mgmt svcaddr i) eqn:C; [|discriminate]. apply Z.eqb_eq in C. destruct i; cbn [inner_caller] in C; contradiction.
Qed.
(** A claim takes the whole reward: it is transferred in the message center's own coins, or kept as a request of that
    amount under the new message's number; the next claim finds nothing. *)
Theorem C81_claimed_once : forall s c v net r s', exec s (ClaimReward c v net r) = Some s' -> let a := claims_for self (s_m s) c in let w := getReward (s_s s) net a in
  0 < w /\ getReward (s_s s') net a = 0 /\
  ((net = own /\ exists ra, parseAddress r = Some ra /\ accepts (length (s_out s)) ra w = true /\ s_out s' = s_out s ++ [OPaid v; OTransfer ra w; OClaim a net r w 0] /\ requests (s_s s') = requests (s_s s)) \/
   (net <> own /\ aget Z.eqb (nsn_of (s_p s) + 1) (requests (s_s s')) = Some (Request net a w) /\ nsn_of (s_p s') = nsn_of (s_p s) + 1)) /\
  forall c' v' r', claims_for self (s_m s) c' = a -> exec s' (ClaimReward c' v' net r') = None.
Proof.
  intros s c v net r s' E. cbn [M_SBmc.exec] in *. pose proof (man_claim own self svcaddr accepts _ _ _ _ _ _ E) as M. apply claim_some in E. cbv zeta in E. cbv zeta. destruct E as (P & Z0 & _ & K). split; [exact P|]. split; [exact Z0|]. split; [exact K|].
  intros c' v' r' A. destruct (claimReward _ _ _ _ _ _ _ _ _) as [s2|] eqn:E; [|reflexivity]. apply claim_some in E. cbv zeta in E. destruct E as (P2 & _). exfalso. rewrite M, A in P2. rewrite Z0 in P2. lia.
Qed.
End BMC.
Print Assumptions C81_always_an_owner.
Print Assumptions C81_only_owners.
Print Assumptions C81_callers.
Print Assumptions C81_latest_decision.
Print Assumptions C81_rewards_kept.
Print Assumptions C81_claimed_once.
