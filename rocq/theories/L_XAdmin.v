(** Lemmas on the settings of a call service and on its numbers. *)
From Coq Require Import String Ascii ZArith List Bool Lia.
From Coq Require Import ZifyBool.
From Verif Require Import Base L_Base M_IntConv S_IntConv M_Rlp S_Rlp S_Address S_BtpAddr M_JBmv S_JBmv M_Wire S_Wire M_SolRlp S_SolRlp M_BtpAddr
  M_Bridge M_XCall S_XCall L_XCall M_JCall M_SolCall S_JCall L_JCall L_SolCall.
Import ListNotations.
Open Scope Z_scope.

Definition boss (cfg : xcfg) (s : xstate) : Z := match x_admin s with Some a => a | None => c_owner cfg end.
Lemma boss_same : forall cfg s s', settings s' = settings s -> boss cfg s' = boss cfg s.
Proof. intros cfg s s' E. unfold boss. replace (x_admin s') with (x_admin s); [reflexivity|]. unfold settings in E. congruence. Qed.
Lemma hands_inner : forall o b inner, (fix all (l : list tx) : Prop := match l with [] => True | t :: r => hands_off o b t /\ all r end) inner -> Forall (hands_off o b) inner.
Proof. induction inner; intros; constructor; tauto. Qed.
Lemma inner_same : forall (ex : tx -> xstate -> option xstate) cfg o b inner s,
  (forall t, In t inner -> hands_off o b t -> forall s s', boss cfg s = b -> ex t s = Some s' -> settings s' = settings s) -> Forall (hands_off o b) inner -> boss cfg s = b ->
  settings ((fix all (l : list tx) (s : xstate) {struct l} : xstate := match l with [] => s | t :: r => all r (match ex t s with Some s' => s' | None => s end) end) inner s) = settings s.
Proof.
  intros ex cfg o b. induction inner as [|t r IH]; intros s I F B; [reflexivity|].
  assert (S : settings (match ex t s with Some s' => s' | None => s end) = settings s).
  { destruct (ex t s) as [s'|] eqn:E; [|reflexivity]. eapply I; [left; reflexivity|exact (Forall_inv F)|exact B|exact E]. }
  rewrite IH; [exact S| |exact (Forall_inv_tail F)|rewrite (boss_same _ _ _ S); exact B]. intros t' T'. apply I. right. exact T'.
Qed.
Lemma bmc_send_same : forall s v net sn b nsn r, bmc_send s v net sn b nsn = Some r -> settings (fst r) = settings s.
Proof. intros s v net sn b nsn r E. apply bmc_send_some in E as [n ->]. reflexivity. Qed.
Lemma pay_same : forall s0 s1 taken, match x_handler s0 with Some h => if 0 <? x_fee s0 then transfer s0 h (x_fee s0) taken else Some s0 | None => Some s0 end = Some s1 -> settings s1 = settings s0.
Proof.
  intros s0 s1 taken E. destruct (x_handler s0) as [h|]; [destruct (0 <? x_fee s0)|]; [|congruence|congruence]. unfold transfer in E. destruct (_ && _) in E; [|discriminate].
  assert (s1 = _) by (symmetry; injection E as E; exact E). subst s1. reflexivity.
Qed.

Section Java.
Variable addr_text : Z -> list Z.
Variable addr_of_text : list Z -> option Z.
Variable bad_address : list Z -> list Z.
Variable cfg : xcfg.
Notation jexec := (j_exec addr_text addr_of_text bad_address cfg).
Ltac chk E H := let E' := fresh in apply check_true in E as [H E']; rename E' into E.
Ltac bnd E a H := let E' := fresh in apply obind_some in E as (a & H & E'); rename E' into E.
Lemma j_response_same : forall s d s', j_handleResponse s d = Some s' -> settings s' = settings s.
Proof.
  intros s d s' E. unfold j_handleResponse in E. bnd E m M. destruct (get _ _) in E; [|congruence]. destruct (_ =? _) in E; [|chk E K]; assert (s' = _) by (symmetry; injection E as E; exact E); subst s'; reflexivity.
Qed.
Lemma j_same : forall b t, hands_off (c_owner cfg) b t -> forall s s', boss cfg s = b -> jexec t s = Some s' -> settings s' = settings s.
Proof.
  intros b. induction t as [c k v to d rb q tk n | id inner out n IH | sn inner out IH | c net svc sn m | c net svc sn code m | c a | c a tk | c v] using tx_ind2; intros OK s s' B E.
  - cbn [j_exec] in E. unfold j_sendCallMessage in E. chk E K1. chk E K2. chk E K3. bnd E dst D. bnd E req RQ. chk E K4. bnd E s1 P. unfold j_sendBTPMessage in E. bnd E r R.
    apply pay_same in P. apply bmc_send_same in R. assert (s' = _) by (symmetry; injection E as E; exact E). subst s'. change (settings (fst r) = settings s). rewrite R. destruct rb; exact P.
  - cbn [j_exec] in E. cbn [hands_off] in OK. apply hands_inner in OK. bnd E q G. bnd E fr F. bnd E sr R. destruct sr as [s1 res].
    assert (S1 : settings s1 = settings s).
    { destruct (addr_of_text (q_to q)) as [a|]; [|assert (s1 = with_proxy s (del id (x_proxy s))) by congruence; subst s1; reflexivity].
      bnd R res' RS. assert (s1 = _) by (symmetry; injection R as R _; exact R). subst s1. destruct out; try reflexivity.
      rewrite (inner_same jexec cfg (c_owner cfg) b); [reflexivity| |exact OK|exact B]. intros t T O. rewrite Forall_forall in IH. exact (IH t T O). }
    destruct (q_rollback q).
    + unfold j_sendBTPMessage in E. bnd E r RR. apply bmc_send_same in RR. assert (s' = fst r) by congruence. subst s'. rewrite RR. exact S1.
    + assert (s' = _) by (symmetry; injection E as E; exact E). subst s'. exact S1.
  - cbn [j_exec] in E. cbn [hands_off] in OK. apply hands_inner in OK. bnd E q G. chk E EN. bnd E res RS.
    assert (s' = _) by (symmetry; injection E as E; exact E). subst s'. destruct out; try reflexivity.
    change (settings ((fix all (l : list tx) (s : xstate) {struct l} : xstate := match l with [] => s | t :: r => all r (match jexec t s with Some s' => s' | None => s end) end) inner
        (emit (with_requests s (del sn (x_requests s))) [OutCall (ForRollback sn) (cr_from q) (c_self cfg) (cr_rollback q) true])) = settings s).
    rewrite (inner_same jexec cfg (c_owner cfg) b); [reflexivity| |exact OK|exact B]. intros t T O. rewrite Forall_forall in IH. exact (IH t T O).
  - cbn [j_exec] in E. unfold j_handleBTPMessage in E. chk E K1. chk E K2. bnd E md M. bnd E data D. destruct (_ =? _) in E; [|destruct (_ =? _) in E; [|discriminate]].
    + unfold j_handleRequest in E. bnd E q Q. assert (s' = _) by (symmetry; injection E as E; exact E). subst s'. reflexivity.
    + apply j_response_same in E. rewrite E. reflexivity.
  - cbn [j_exec] in E. unfold j_handleBTPError in E. chk E K1. chk E K2. apply j_response_same in E. rewrite E. reflexivity.
  - cbn [j_exec] in E. unfold j_setAdmin in E. chk E K. cbn [hands_off] in OK. lia.
  - cbn [j_exec] in E. unfold j_setProtocolFeeHandler in E. chk E K. cbn [hands_off] in OK. change (j_admin cfg s) with (boss cfg s) in K. lia.
  - cbn [j_exec] in E. unfold j_setProtocolFee in E. chk E K. cbn [hands_off] in OK. change (j_admin cfg s) with (boss cfg s) in K. lia.
Qed.
End Java.

Section Solidity.
Variable H : list Z -> list Z.
Variable junk : list Z -> mem.
Variable cfg : xcfg.
Notation sexec := (s_exec H junk cfg).
Ltac chk E H := let E' := fresh in apply require_true in E as [H E']; rename E' into E.
Ltac bnd E a H := let E' := fresh in apply sbind_some in E as (a & H & E'); rename E' into E.
Lemma s_response_same : forall s d s', s_handleResponse s d = Some s' -> settings s' = settings s.
Proof.
  intros s d s' E. unfold s_handleResponse in E. destruct (_ =? _) in E; [congruence|]. destruct (_ =? _) in E; [|chk E K]; assert (s' = _) by (symmetry; injection E as E; exact E); subst s'; reflexivity.
Qed.
Lemma s_same : forall b t, hands_off (c_owner cfg) b t -> forall s s', boss cfg s = b -> sexec t s = Some s' -> settings s' = settings s.
Proof.
  intros b. induction t as [c k v to d rb q tk n | id inner out n IH | sn inner out IH | c net svc sn m | c net svc sn code m | c a | c a tk | c v] using tx_ind2; intros OK s s' B E.
  - cbn [s_exec] in E. unfold s_sendCallMessage in E. chk E K1. chk E K2. chk E K3. bnd E dst D. destruct dst as [net account]. bnd E req RQ. chk E K4. bnd E s1 P. bnd E n1 N1. bnd E pl PL. bnd E fee FE.
    unfold s_sendBTPMessage in E. bnd E r R. bnd R bb BB. apply pay_same in P. apply bmc_send_same in R. assert (s' = _) by (symmetry; injection E as E; exact E). subst s'. change (settings (fst r) = settings s). rewrite R.
    destruct (0 <? _); exact P.
  - cbn [s_exec] in E. cbn [hands_off] in OK. apply hands_inner in OK. chk E K1. bnd E fr F. set (q := proxy_at s id) in *.
    match type of E with (let (_, _) := ?x in _) = _ => destruct x as [s1 res] eqn:R end.
    assert (S1 : settings s1 = settings s).
    { destruct (parseAddress (q_to q)) as [a|]; [|assert (s1 = with_proxy s (del id (x_proxy s))) by congruence; subst s1; reflexivity].
      assert (s1 = _) by (symmetry; injection R as R _; exact R). subst s1. destruct out; try reflexivity.
      rewrite (inner_same sexec cfg (c_owner cfg) b); [reflexivity| |exact OK|exact B]. intros t T O. rewrite Forall_forall in IH. exact (IH t T O). }
    destruct (q_rollback q).
    + chk E K2. bnd E pl PL. unfold s_sendBTPMessage in E. bnd E r RR. bnd RR bb BB. apply bmc_send_same in RR. assert (s' = fst r) by congruence. subst s'. rewrite RR. exact S1.
    + assert (s' = _) by (symmetry; injection E as E; exact E). subst s'. exact S1.
  - cbn [s_exec] in E. cbn [hands_off] in OK. apply hands_inner in OK. chk E K1. chk E EN. set (q := request_at s sn) in *.
    assert (s' = _) by (symmetry; injection E as E; exact E). subst s'. destruct out; try reflexivity.
    change (settings ((fix all (l : list tx) (s : xstate) {struct l} : xstate := match l with [] => s | t :: r => all r (match sexec t s with Some s' => s' | None => s end) end) inner
        (emit (with_requests s (del sn (x_requests s))) [OutCall (ForRollback sn) (cr_from q) (c_self cfg) (cr_rollback q) true])) = settings s).
    rewrite (inner_same sexec cfg (c_owner cfg) b); [reflexivity| |exact OK|exact B]. intros t T O. rewrite Forall_forall in IH. exact (IH t T O).
  - cbn [s_exec] in E. unfold s_handleBTPMessage in E. chk E K1. chk E K2. bnd E md M. destruct (_ =? _) in E; [|destruct (_ =? _) in E; [|discriminate]].
    + unfold s_handleRequest in E. bnd E q Q. bnd E rid RI. assert (s' = _) by (symmetry; injection E as E; exact E). subst s'. reflexivity.
    + bnd E r R. apply s_response_same in E. rewrite E. reflexivity.
  - cbn [s_exec] in E. unfold s_handleBTPError in E. chk E K1. chk E K2. bnd E c1 C1. apply s_response_same in E. rewrite E. reflexivity.
  - cbn [s_exec] in E. unfold s_setAdmin in E. chk E K. cbn [hands_off] in OK. lia.
  - cbn [s_exec] in E. unfold s_setProtocolFeeHandler in E. chk E K. cbn [hands_off] in OK. change (s_admin cfg s) with (boss cfg s) in K. lia.
  - cbn [s_exec] in E. unfold s_setProtocolFee in E. chk E K. cbn [hands_off] in OK. change (s_admin cfg s) with (boss cfg s) in K. lia.
Qed.
End Solidity.

(** * Numbers *)
Section Numbers.
Variable L : lang.
Definition keyed (s : xstate) : Prop := 0 <= x_sn s /\ 0 <= x_reqId s /\ (forall k r, get k (x_requests s) = Some r -> 1 <= k) /\ (forall k q, get k (x_proxy s) = Some q -> 1 <= k) /\ Forall from_one (x_log s).
Lemma get_del_some : forall A k k' (l : list (Z * A)) a, get k (del k' l) = Some a -> get k l = Some a.
Proof. intros A k k' l a E. destruct (Z.eq_dec k k') as [->|N]; [rewrite get_del_same in E; discriminate|rewrite get_del_other in E by assumption; exact E]. Qed.
Lemma get_put_cases : forall A k k' a (l : list (Z * A)) b, get k (put k' a l) = Some b -> k = k' \/ get k l = Some b.
Proof. intros A k k' a l b E. destruct (Z.eq_dec k k') as [->|N]; [auto|rewrite get_put_other in E by assumption; auto]. Qed.
Lemma keyed_emit : forall s es, keyed s -> Forall from_one es -> keyed (emit s es).
Proof. intros s es (A & B & C & D & E) F. split; [exact A|]. split; [exact B|]. split; [exact C|]. split; [exact D|]. apply Forall_app. split; assumption. Qed.
Lemma tells_from_one : forall e r, tells L e r -> from_one e.
Proof. intros e r [(net & m & msg & -> & _) | (net & code & msg & t & -> & _)]; exact I. Qed.
Lemma paid_from_one : forall s, Forall from_one (paid s).
Proof. intros s. unfold paid. destruct (x_handler s); [destruct (0 <? x_fee s)|]; repeat constructor. Qed.
Lemma keyed_all : (forall s s', step L s s' -> keyed s -> keyed s') /\ (forall s s', steps L s s' -> keyed s -> keyed s') /\
  (forall s i q s' code, ran L s i q s' code -> 1 <= i -> keyed s -> keyed s').
Proof.
  apply step_mutind; intros.
  - destruct H as (A & B & C & D & E). split; [cbn [x_sn]; lia|]. split; [exact B|]. split; [|split; [exact D|]].
    + intros k r G. cbn [x_requests] in G. unfold added_request in G. destruct (l_wants L rb); [|exact (C _ _ G)]. apply get_put_cases in G as [->|G]; [lia|exact (C _ _ G)].
    + cbn [x_log]. apply Forall_app. split; [exact E|]. constructor; [exact I|]. apply Forall_app. split; [apply paid_from_one|]. constructor; [exact I|]. constructor; [cbn [from_one]; lia|constructor].
  - rename H0 into K. assert (ID : 1 <= id) by (destruct K as (_ & _ & _ & D & _); eapply D; eassumption). apply keyed_emit; [apply H; assumption|].
    constructor; [exact ID|]. destruct o as [(_ & ->) | (b & _ & _ & ->)]; repeat constructor.
  - rename H0 into K. assert (ID : 1 <= sn) by (destruct K as (_ & _ & C & _); eapply C; eassumption). apply keyed_emit; [apply H|constructor; [exact ID|constructor]].
    apply keyed_emit; [|constructor; [exact ID|constructor]]. destruct K as (A & B & C & D & E). split; [exact A|]. split; [exact B|]. split; [intros k q G; apply get_del_some in G; exact (C _ _ G)|]. split; assumption.
  - destruct H as (A & B & C & D & E). split; [exact A|]. split; [cbn [x_reqId]; lia|]. split; [exact C|]. split.
    + intros k r G. apply get_put_cases in G as [->|G]; [lia|exact (D _ _ G)].
    + apply Forall_app. split; [exact E|]. constructor; [exact I|]. constructor; [cbn [from_one]; lia|constructor].
  - apply keyed_emit; [assumption|]. constructor; [eapply tells_from_one; eassumption|constructor].
  - apply keyed_emit; [|constructor; [eapply tells_from_one; eassumption|repeat constructor]]. destruct H as (A & B & C & D & E). split; [exact A|]. split; [exact B|]. split; [intros k q' G; apply get_del_some in G; exact (C _ _ G)|]. split; assumption.
  - assert (ID : 1 <= r_sn r) by (destruct H as (_ & _ & C & _); eapply C; eassumption).
    apply keyed_emit; [|constructor; [eapply tells_from_one; eassumption|constructor; [exact I|constructor; [exact ID|constructor]]]].
    destruct H as (A & B & C & D & E). split; [exact A|]. split; [exact B|]. split; [intros k q' G; apply get_put_cases in G as [->|G]; [exact ID|exact (C _ _ G)]|]. split; assumption.
  - exact H.
  - apply (keyed_emit (with_bal (with_handler s a) (left s a))); [exact H|]. constructor; [exact I|]. unfold swept. destruct a; [destruct (0 <? x_bal s)|]; repeat constructor.
  - apply (keyed_emit (with_fee s v)); [exact H|]. repeat constructor.
  - assumption.
  - auto.
  - destruct H0 as (A & B & C & D & E). split; [exact A|]. split; [exact B|]. split; [exact C|]. split; [intros k q' G; apply get_del_some in G; exact (D _ _ G)|]. exact E.
  - apply H. apply keyed_emit; [|constructor; [assumption|constructor]]. destruct H1 as (A & B & C & D & E). split; [exact A|]. split; [exact B|]. split; [exact C|]. split; [intros k q' G; apply get_del_some in G; exact (D _ _ G)|]. exact E.
Qed.
Lemma keyed_init : keyed x_init.
Proof. split; [cbn; lia|]. split; [cbn; lia|]. split; [intros k r G; discriminate|]. split; [intros k r G; discriminate|constructor]. Qed.
End Numbers.

Section Networks.
Variable L : lang.
Definition from_network (e : event) : Prop := match e with InMessage net _ msg => l_read_request L msg <> None -> free_of (ch "/") net | _ => True end.
Lemma tells_network : forall e r, tells L e r -> (forall net n msg, e = InMessage net n msg -> l_read_request L msg = None) -> from_network e.
Proof. intros e r [(net & m & msg & -> & _) | (net & code & msg & t & -> & _)] N; [|exact I]. intros X. elim X. exact (N _ _ _ eq_refl). Qed.
Lemma network_all : (forall s s', step L s s' -> Forall from_network (x_log s) -> Forall from_network (x_log s')) /\
  (forall s s', steps L s s' -> Forall from_network (x_log s) -> Forall from_network (x_log s')) /\
  (forall s i q s' code, ran L s i q s' code -> Forall from_network (x_log s) -> Forall from_network (x_log s')).
Proof.
  apply step_mutind; intros; cbn [x_log emit with_admin with_requests with_handler with_bal with_fee with_proxy] in *.
  - apply Forall_app. split; [assumption|]. constructor; [exact I|]. apply Forall_app. split; [|repeat constructor]. unfold paid. destruct (x_handler s); [destruct (0 <? x_fee s)|]; repeat constructor.
  - apply Forall_app. split; [auto|]. constructor; [exact I|]. destruct o as [(_ & ->) | (b & _ & _ & ->)]; repeat constructor.
  - apply Forall_app. split; [|repeat constructor]. apply H. apply Forall_app. split; [assumption|repeat constructor].
  - apply Forall_app. split; [assumption|]. constructor; [intros _; assumption|repeat constructor].
  - apply Forall_app. split; [assumption|]. constructor; [eapply tells_network; eassumption|repeat constructor].
  - apply Forall_app. split; [assumption|]. constructor; [eapply tells_network; eassumption|repeat constructor].
  - apply Forall_app. split; [assumption|]. constructor; [eapply tells_network; eassumption|repeat constructor].
  - assumption.
  - apply Forall_app. split; [assumption|]. constructor; [exact I|]. unfold swept. destruct a; [destruct (0 <? x_bal s)|]; repeat constructor.
  - apply Forall_app. split; [assumption|repeat constructor].
  - assumption.
  - auto.
  - assumption.
  - apply H. apply Forall_app. split; [assumption|repeat constructor].
Qed.
End Networks.
